(** The expansion model meets its specification. *)
From Verif Require Import Base BaseFacts Lexer LexerSpec Ast Parser GrammarSpec Context Alias Expand ExpandSpec.

Ltac inv H := inversion H; subst; clear H.

(** ** Quote-aware splitting *)

Section Split.
  (** The split as a scan over characters; [cur] is the piece being read. *)
  Fixpoint scan (q : quote_type) (cur rest : str) : option (list str) :=
    match rest with
    | [] => Some (nonempty cur)
    | c :: r =>
        match q with
        | QNone =>
            if N.eqb c (ch "'") then scan QSingle (cur ++ [c]) r
            else if N.eqb c (ch """") then scan QDouble (cur ++ [c]) r
            else if is_whitespace c then
              if len_utf8 c =? 1 then option_map (cons cur) (scan QNone [] r) else None
            else scan QNone (cur ++ [c]) r
        | QSingle => scan (if N.eqb c (ch "'") then QNone else QSingle) (cur ++ [c]) r
        | QDouble => scan (if N.eqb c (ch """") then QNone else QDouble) (cur ++ [c]) r
        end
    end.
End Split.

Definition finish (s : str) (r : option (nat * list str)) : option (list str) :=
  match r with
  | None => None
  | Some (start, splits) =>
      if start <? blen s then
        match slice s start (blen s) with
        | Some w => Some (splits ++ [w])
        | None => None
        end
      else Some splits
  end.

Lemma slice_misaligned s a b : drop_bytes a s = None -> slice s a b = None.
Proof. intros H. unfold slice. destruct (a <=? b); [rewrite H|]; reflexivity. Qed.

Lemma split_misaligned : forall cs s q start splits, drop_bytes start s = None -> start < blen s ->
  finish s (split_loop s cs q start splits) = None.
Proof.
  induction cs as [|[i c] cs IH]; intros s q start splits Hd Hl; cbn [split_loop].
  - cbn [finish]. destruct (Nat.ltb_spec start (blen s)); [|lia].
    rewrite slice_misaligned by exact Hd. reflexivity.
  - destruct q; auto.
    destruct (c =? ch "'")%N; auto. destruct (c =? ch """")%N; auto.
    destruct (is_whitespace c); auto.
    rewrite slice_misaligned by exact Hd. reflexivity.
Qed.

Lemma drop_bytes_mid : forall p c r, len_utf8 c <> 1 -> drop_bytes (blen p + 1) (p ++ c :: r) = None.
Proof.
  induction p as [|d p IH]; intros c r Hc; cbn [app blen].
  - cbn [Nat.add drop_bytes]. pose proof (len_utf8_pos c).
    destruct (Nat.leb_spec (len_utf8 c) 1); [lia|reflexivity].
  - pose proof (len_utf8_pos d).
    destruct (len_utf8 d + blen p + 1) eqn:E; [lia|].
    cbn [drop_bytes]. destruct (Nat.leb_spec (len_utf8 d) (S n)); [|lia].
    replace (S n - len_utf8 d) with (blen p + 1) by lia. apply IH, Hc.
Qed.

Lemma split_scan : forall rest s pre cur q splits, s = pre ++ cur ++ rest ->
  finish s (split_loop s (char_indices_from (blen (pre ++ cur)) rest) q (blen pre) splits)
  = option_map (app splits) (scan q cur rest).
Proof.
  induction rest as [|c r IH]; intros s pre cur q splits E; cbn [char_indices_from split_loop scan].
  - cbn [finish option_map]. rewrite app_nil_r in E. subst s.
    rewrite blen_app. destruct cur as [|d cur].
    + cbn [blen nonempty].
      destruct (Nat.ltb_spec (blen pre) (blen pre + 0)); [lia|]. rewrite app_nil_r. reflexivity.
    + pose proof (len_utf8_pos d).
      destruct (Nat.ltb_spec (blen pre) (blen pre + blen (d :: cur))) as [_|Hl]; [|cbn in Hl; lia].
      pose proof (slice_app pre (d :: cur) []) as Hs. rewrite app_nil_r in Hs. rewrite Hs. reflexivity.
  - assert (Hpos : blen (pre ++ cur) + len_utf8 c = blen (pre ++ (cur ++ [c]))).
    { rewrite !blen_app. cbn. lia. }
    assert (Hs : s = pre ++ (cur ++ [c]) ++ r) by (rewrite <- app_assoc; exact E).
    destruct q.
    + destruct (c =? ch "'")%N; [rewrite Hpos; apply IH, Hs|].
      destruct (c =? ch """")%N; [rewrite Hpos; apply IH, Hs|].
      destruct (is_whitespace c) eqn:Ew; [|rewrite Hpos; apply IH, Hs].
      assert (Hsl : slice s (blen pre) (blen (pre ++ cur)) = Some cur).
      { rewrite E, blen_app. apply slice_app. }
      rewrite Hsl. destruct (Nat.eqb_spec (len_utf8 c) 1) as [H1|H1].
      * specialize (IH s (pre ++ cur ++ [c]) [] QNone (splits ++ [cur])).
        rewrite app_nil_r in IH.
        rewrite H1 in Hpos |- *. rewrite Hpos.
        etransitivity; [apply IH; rewrite E, <- !app_assoc; reflexivity|].
        destruct (scan QNone [] r) as [ps|]; cbn; [rewrite <- app_assoc|]; reflexivity.
      * cbn [option_map]. apply split_misaligned.
        -- rewrite E. rewrite app_assoc. apply drop_bytes_mid, H1.
        -- rewrite E, !blen_app. cbn [blen]. pose proof (len_utf8_pos c). lia.
    + rewrite Hpos. apply IH, Hs.
    + rewrite Hpos. apply IH, Hs.
Qed.

Lemma split_is_scan s : split_whitespace_ig_qts s = scan QNone [] s.
Proof.
  unfold split_whitespace_ig_qts, char_indices.
  change (match split_loop s (char_indices_from 0 s) QNone 0 [] with
          | Some (start, splits) => if start <? blen s then match slice s start (blen s) with
              | Some w => Some (splits ++ [w]) | None => None end else Some splits
          | None => None end) with (finish s (split_loop s (char_indices_from 0 s) QNone 0 [])).
  pose proof (split_scan s s [] [] QNone [] eq_refl) as H. cbn [app blen] in H. rewrite H.
  destruct (scan QNone [] s); reflexivity.
Qed.

Lemma closed_app a b : closed_text a -> closed_text b -> closed_text (a ++ b).
Proof.
  induction 1; intros Hb; cbn.
  - exact Hb.
  - apply ct_char; auto.
  - rewrite <- app_assoc. cbn. apply ct_single; auto.
  - rewrite <- app_assoc. cbn. apply ct_double; auto.
Qed.

Lemma quote_neq c : c <> ch "'" -> c <> ch """" -> ~ In c (lit "'""").
Proof. intros H1 H2 [H|[H|[]]]; [apply H1|apply H2]; symmetry; exact H. Qed.

(** What the scan knows about the piece it is reading. *)
Definition reading (q : quote_type) (cur : str) : Prop :=
  match q with
  | QNone => closed_text cur
  | QSingle => exists a t, cur = a ++ ch "'" :: t /\ closed_text a /\ ~ In (ch "'") t
  | QDouble => exists a t, cur = a ++ ch """" :: t /\ closed_text a /\ ~ In (ch """") t
  end.

Lemma reading_open q cur : reading q cur -> open_text cur.
Proof.
  destruct q; cbn.
  - apply ot_closed.
  - intros (a & t & -> & Ha & Ht). apply ot_single; assumption.
  - intros (a & t & -> & Ha & Ht). apply ot_double; assumption.
Qed.

Lemma reading_quote q cur c : q <> QNone -> reading q cur ->
  reading (match q with
           | QSingle => if N.eqb c (ch "'") then QNone else QSingle
           | _ => if N.eqb c (ch """") then QNone else QDouble end) (cur ++ [c]).
Proof.
  intros Hq H. destruct q; [congruence| |].
  - destruct H as (a & t & -> & Ha & Ht). destruct (N.eqb_spec c (ch "'")) as [->|Hn]; cbn [reading].
    + rewrite <- app_assoc. apply closed_app; [exact Ha|]. cbn.
      apply ct_single; [exact Ht|constructor].
    + exists a, (t ++ [c]). rewrite <- app_assoc. repeat split; auto.
      rewrite in_app_iff. intros [H|[H|[]]]; auto.
  - destruct H as (a & t & -> & Ha & Ht). destruct (N.eqb_spec c (ch """")) as [->|Hn]; cbn [reading].
    + rewrite <- app_assoc. apply closed_app; [exact Ha|]. cbn.
      apply ct_double; [exact Ht|constructor].
    + exists a, (t ++ [c]). rewrite <- app_assoc. repeat split; auto.
      rewrite in_app_iff. intros [H|[H|[]]]; auto.
Qed.

Lemma scan_sound : forall rest q cur, reading q cur ->
  match scan q cur rest with
  | Some ps => pieces (cur ++ rest) ps
  | None => wide_blank (cur ++ rest)
  end.
Proof.
  induction rest as [|c r IH]; intros q cur H; cbn [scan].
  - rewrite app_nil_r. apply p_last, (reading_open q), H.
  - assert (Ha : cur ++ c :: r = (cur ++ [c]) ++ r) by (rewrite <- app_assoc; reflexivity).
    destruct q.
    + destruct (N.eqb_spec c (ch "'")) as [->|H1].
      { rewrite Ha. apply IH. exists cur, []. split; [reflexivity|]. split; [exact H|]. tauto. }
      destruct (N.eqb_spec c (ch """")) as [->|H2].
      { rewrite Ha. apply IH. exists cur, []. split; [reflexivity|]. split; [exact H|]. tauto. }
      destruct (is_whitespace c) eqn:Ew.
      * destruct (Nat.eqb_spec (len_utf8 c) 1) as [H3|H3].
        -- specialize (IH QNone [] ct_nil). cbn [app] in IH.
           destruct (scan QNone [] r); cbn [option_map].
           ++ apply p_more; assumption.
           ++ apply wb_later; assumption.
        -- apply wb_here; assumption.
      * rewrite Ha. apply IH. cbn [reading]. apply closed_app; [exact H|].
        apply ct_char; [unfold space; congruence|apply quote_neq; assumption|constructor].
    + rewrite Ha. apply IH. apply (reading_quote QSingle); [discriminate|exact H].
    + rewrite Ha. apply IH. apply (reading_quote QDouble); [discriminate|exact H].
Qed.

Lemma scan_single : forall t cur r, ~ In (ch "'") t ->
  scan QSingle cur (t ++ r) = scan QSingle (cur ++ t) r.
Proof.
  induction t as [|c t IH]; intros cur r H; cbn [app scan].
  - rewrite app_nil_r. reflexivity.
  - destruct (N.eqb_spec c (ch "'")) as [->|_]; [exfalso; apply H; left; reflexivity|].
    rewrite IH by (intros Hin; apply H; right; exact Hin). rewrite <- app_assoc. reflexivity.
Qed.

Lemma scan_double : forall t cur r, ~ In (ch """") t ->
  scan QDouble cur (t ++ r) = scan QDouble (cur ++ t) r.
Proof.
  induction t as [|c t IH]; intros cur r H; cbn [app scan].
  - rewrite app_nil_r. reflexivity.
  - destruct (N.eqb_spec c (ch """")) as [->|_]; [exfalso; apply H; left; reflexivity|].
    rewrite IH by (intros Hin; apply H; right; exact Hin). rewrite <- app_assoc. reflexivity.
Qed.

Lemma scan_closed : forall p, closed_text p -> forall cur r, scan QNone cur (p ++ r) = scan QNone (cur ++ p) r.
Proof.
  induction 1 as [|c s Hs Hq Hc IH|t s Ht Hc IH|t s Ht Hc IH]; intros cur r.
  - rewrite app_nil_r. reflexivity.
  - cbn [app scan].
    destruct (N.eqb_spec c (ch "'")) as [->|_]; [exfalso; apply Hq; left; reflexivity|].
    destruct (N.eqb_spec c (ch """")) as [->|_]; [exfalso; apply Hq; right; left; reflexivity|].
    unfold space in Hs. destruct (is_whitespace c); [congruence|].
    rewrite IH, <- app_assoc. reflexivity.
  - cbn [app scan]. rewrite N.eqb_refl. rewrite <- app_assoc, scan_single by exact Ht.
    cbn [app scan]. rewrite N.eqb_refl, IH, <- !app_assoc. reflexivity.
  - cbn [app scan]. change (ch """" =? ch "'")%N with false. rewrite N.eqb_refl.
    rewrite <- app_assoc, scan_double by exact Ht.
    cbn [app scan]. rewrite N.eqb_refl, IH, <- !app_assoc. reflexivity.
Qed.

Lemma space_not_quote c : space c -> (c =? ch "'")%N = false /\ (c =? ch """")%N = false.
Proof.
  intros H. split; apply N.eqb_neq; intros ->; discriminate H.
Qed.

Lemma scan_open : forall s, open_text s -> scan QNone [] s = Some (nonempty s).
Proof.
  intros s H. inv H.
  - rewrite <- (app_nil_r s) at 1. rewrite scan_closed by assumption. reflexivity.
  - rewrite scan_closed by assumption. cbn [app scan]. rewrite N.eqb_refl.
    rewrite <- (app_nil_r t) at 1. rewrite scan_single by assumption. cbn [scan].
    rewrite <- app_assoc. reflexivity.
  - rewrite scan_closed by assumption. cbn [app scan]. change (ch """" =? ch "'")%N with false.
    rewrite N.eqb_refl. rewrite <- (app_nil_r t) at 1. rewrite scan_double by assumption. cbn [scan].
    rewrite <- app_assoc. reflexivity.
Qed.

Lemma scan_pieces : forall s ps, pieces s ps -> scan QNone [] s = Some ps.
Proof.
  induction 1 as [s H|p c s ps Hp Hc H1 H IH].
  - apply scan_open, H.
  - rewrite scan_closed by exact Hp. cbn [app scan].
    destruct (space_not_quote c Hc) as [-> ->]. unfold space in Hc. rewrite Hc, H1, IH. reflexivity.
Qed.

Lemma scan_wide : forall s, wide_blank s -> scan QNone [] s = None.
Proof.
  induction 1 as [p c s Hp Hc H1|p c s Hp Hc H IH].
  - rewrite scan_closed by exact Hp. cbn [app scan].
    destruct (space_not_quote c Hc) as [-> ->]. unfold space in Hc. rewrite Hc.
    destruct (Nat.eqb_spec (len_utf8 c) 1); [congruence|reflexivity].
  - rewrite scan_closed by exact Hp. cbn [app scan].
    destruct (space_not_quote c Hc) as [-> ->]. unfold space in Hc. rewrite Hc, IH.
    destruct (len_utf8 c =? 1); reflexivity.
Qed.

Lemma split_pieces s ps : split_whitespace_ig_qts s = Some ps <-> pieces s ps.
Proof.
  rewrite split_is_scan. split; [|apply scan_pieces].
  intros E. pose proof (scan_sound s QNone [] ct_nil) as H. rewrite E in H. exact H.
Qed.

Lemma split_panics s : split_whitespace_ig_qts s = None <-> wide_blank s.
Proof.
  rewrite split_is_scan. split; [|apply scan_wide].
  intros E. pose proof (scan_sound s QNone [] ct_nil) as H. rewrite E in H. exact H.
Qed.

(** ** Trimming and fields *)

Lemma trim_start_spec s : exists a, s = a ++ trim_start s /\ Forall space a /\
  (forall c r, trim_start s = c :: r -> ~ space c).
Proof.
  induction s as [|c s (a & E & Ha & Hh)]; cbn [trim_start].
  - exists []. repeat split; auto. discriminate.
  - destruct (is_whitespace c) eqn:Ew.
    + exists (c :: a). cbn. rewrite <- E. repeat split; auto.
    + exists []. repeat split; auto. intros d r [= <- <-]. unfold space. congruence.
Qed.

Lemma trim_start_app a s : Forall space a -> (forall c r, s = c :: r -> ~ space c) ->
  trim_start (a ++ s) = s.
Proof.
  induction 1 as [|c a Hc Ha IH]; intros Hs; cbn [app].
  - destruct s as [|c s]; [reflexivity|]. cbn [trim_start].
    specialize (Hs c s eq_refl). unfold space in Hs. destruct (is_whitespace c); congruence.
  - cbn [trim_start]. unfold space in Hc. rewrite Hc. apply IH, Hs.
Qed.

Lemma trim_start_all a : Forall space a -> trim_start a = [].
Proof.
  intros H. rewrite <- (app_nil_r a). apply trim_start_app; [exact H|discriminate].
Qed.

Lemma str_trim_iff s t : trimmed s t <-> str_trim s = t.
Proof.
  split.
  - intros (a & b & -> & Ha & Hb & Hh & Hl). unfold str_trim.
    destruct t as [|c t].
    + cbn [app]. rewrite (trim_start_all (a ++ b)) by (apply Forall_app; auto). reflexivity.
    + rewrite (trim_start_app a) by (auto; intros d r [= <- <-]; apply (Hh c t eq_refl)).
      rewrite rev_app_distr, trim_start_app.
      * apply rev_involutive.
      * apply Forall_rev, Hb.
      * intros d r E. apply (f_equal (@rev _)) in E. rewrite rev_involutive in E. cbn [rev] in E.
        apply (Hl d _ E).
  - intros <-. unfold str_trim.
    destruct (trim_start_spec s) as (a & E1 & Ha & Hh).
    destruct (trim_start_spec (rev (trim_start s))) as (b & E2 & Hb & Hl).
    set (u := trim_start (rev (trim_start s))) in *.
    apply (f_equal (@rev _)) in E2. rewrite rev_involutive, rev_app_distr in E2.
    exists a, (rev b). rewrite <- E2. repeat split; auto.
    + apply Forall_rev, Hb.
    + intros c r E. rewrite E in E2. cbn [app] in E2. apply (Hh _ _ E2).
    + intros c r E. apply (f_equal (@rev _)) in E. rewrite rev_involutive, rev_app_distr in E.
      cbn [rev app] in E. apply (Hl _ _ E).
Qed.

Lemma trimmed_total s : exists t, trimmed s t.
Proof. exists (str_trim s). apply str_trim_iff. reflexivity. Qed.

Lemma fields_aux : forall s acc, Forall (fun c => ~ space c) acc ->
  fields (rev acc ++ s) (split_whitespace_aux acc s).
Proof.
  induction s as [|c s IH]; intros acc Hacc; cbn [split_whitespace_aux].
  - rewrite app_nil_r. destruct acc as [|d acc]; [apply f_end; constructor|].
    apply (f_last []); [constructor| |apply Forall_rev, Hacc].
    intros E. apply (f_equal (@rev _)) in E. rewrite rev_involutive in E. discriminate.
  - destruct (is_whitespace c) eqn:Ew.
    + specialize (IH [] (Forall_nil _)). cbn [rev app] in IH.
      destruct acc as [|d acc].
      * cbn [rev app]. inv IH.
        -- apply f_end. constructor; [exact Ew|assumption].
        -- apply (f_last (c :: bl)); [constructor; [exact Ew|assumption]|assumption|assumption].
        -- apply (f_more (c :: bl)); try assumption. constructor; [exact Ew|assumption].
      * apply (f_more []); [constructor| |apply Forall_rev, Hacc|exact Ew|exact IH].
        intros E. apply (f_equal (@rev _)) in E. rewrite rev_involutive in E. discriminate.
    + specialize (IH (c :: acc)). cbn [rev] in IH. rewrite <- app_assoc in IH.
      apply IH. constructor; [unfold space; congruence|exact Hacc].
Qed.

Lemma aux_blanks : forall bl s, Forall space bl -> split_whitespace_aux [] (bl ++ s) = split_whitespace_aux [] s.
Proof.
  induction 1 as [|c bl Hc Hbl IH]; [reflexivity|]. cbn [app split_whitespace_aux].
  unfold space in Hc. rewrite Hc. exact IH.
Qed.

Lemma aux_word : forall w acc s, Forall (fun c => ~ space c) w ->
  split_whitespace_aux acc (w ++ s) = split_whitespace_aux (rev w ++ acc) s.
Proof.
  induction w as [|c w IH]; intros acc s H; [reflexivity|]. inv H. cbn [app split_whitespace_aux].
  assert (Hw : is_whitespace c = false).
  { unfold space in H2. destruct (is_whitespace c); congruence. }
  rewrite Hw. rewrite IH by assumption. cbn [rev]. rewrite <- app_assoc. reflexivity.
Qed.

Lemma aux_end w : w <> [] -> forall s, match s with [] => True | c :: _ => space c end ->
  split_whitespace_aux (rev w) s = w :: split_whitespace_aux [] (tl s).
Proof.
  intros Hw s Hs. destruct (rev w) as [|d r] eqn:E.
  { apply (f_equal (@rev _)) in E. rewrite rev_involutive in E. cbn in E; congruence. }
  assert (Hr : rev (d :: r) = w) by (rewrite <- E; apply rev_involutive).
  destruct s as [|c s]; cbn [split_whitespace_aux tl].
  - rewrite Hr. reflexivity.
  - unfold space in Hs. rewrite Hs, Hr. reflexivity.
Qed.

Lemma fields_iff s ws : fields s ws <-> split_whitespace s = ws.
Proof.
  split.
  - unfold split_whitespace. induction 1 as [bl Hbl|bl w Hbl Hw Hns|bl w c s ws Hbl Hw Hns Hc H IH].
    + rewrite <- (app_nil_r bl), aux_blanks by exact Hbl. reflexivity.
    + rewrite aux_blanks by exact Hbl. rewrite <- (app_nil_r w) at 1.
      rewrite aux_word, app_nil_r by exact Hns. rewrite aux_end by auto. reflexivity.
    + rewrite aux_blanks, aux_word, app_nil_r by assumption. rewrite aux_end by auto.
      cbn [tl]. rewrite IH. reflexivity.
  - intros <-. apply (fields_aux s [] (Forall_nil _)).
Qed.

Lemma fields_words s ws : fields s ws -> Forall (fun w => w <> [] /\ Forall (fun c => ~ space c) w) ws.
Proof. induction 1; repeat constructor; auto. Qed.

(** ** Command substitution *)

Lemma run_iff out log t o log' : run_subshell out log t = Some (o, log') <-> runs out log t o log'.
Proof.
  unfold run_subshell. split.
  - destruct (parse t) as [c|] eqn:Ep; [|discriminate].
    destruct (out log c) as [buf|] eqn:Eo; [|discriminate].
    intros [= <- <-]. apply (runs_intro out log t c buf); auto. apply str_trim_iff. reflexivity.
  - intros H. inv H. rewrite H0, H1. apply str_trim_iff in H2. rewrite H2. reflexivity.
Qed.

Lemma take_through_in k t s : ~ In k t -> take_through k (t ++ k :: s) = (t ++ [k], s).
Proof.
  induction t as [|c t IH]; intros H; cbn [app take_through].
  - rewrite N.eqb_refl. reflexivity.
  - destruct (N.eqb_spec c k) as [->|_]; [exfalso; apply H; left; reflexivity|].
    rewrite IH by (intros Hin; apply H; right; exact Hin). reflexivity.
Qed.

Lemma take_through_none k t : ~ In k t -> take_through k t = (t, []).
Proof.
  induction t as [|c t IH]; intros H; cbn [take_through]; [reflexivity|].
  destruct (N.eqb_spec c k) as [->|_]; [exfalso; apply H; left; reflexivity|].
  rewrite IH by (intros Hin; apply H; right; exact Hin). reflexivity.
Qed.

Lemma in_split_first k (s : str) : In k s -> exists t r, s = t ++ k :: r /\ ~ In k t.
Proof.
  induction s as [|c s IH]; intros H; [destruct H|].
  destruct (N.eq_dec c k) as [->|Hn].
  - exists [], s. split; [reflexivity|]. tauto.
  - destruct H as [H|H]; [congruence|]. destruct (IH H) as (t & r & -> & Ht).
    exists (c :: t), r. split; [reflexivity|]. intros [E|Hin]; [congruence|exact (Ht Hin)].
Qed.

Lemma take_through_cases k s :
  (exists t r, s = t ++ k :: r /\ ~ In k t /\ take_through k s = (t ++ [k], r)) \/
  (~ In k s /\ take_through k s = (s, [])).
Proof.
  destruct (in_dec N.eq_dec k s) as [H|H].
  - left. destruct (in_split_first k s H) as (t & r & -> & Ht). exists t, r.
    repeat split; auto. apply take_through_in, Ht.
  - right. split; [exact H|apply take_through_none, H].
Qed.

Lemma eval_paren out log t : eval_subshell out log (ch "$" :: ch "(" :: t) = run_subshell out log (removelast t).
Proof. unfold eval_subshell. cbn [lit]. change (starts_with (lit "$(") (ch "$" :: ch "(" :: t)) with true. reflexivity. Qed.

Lemma eval_tick out log t : eval_subshell out log (ch "`" :: t) = run_subshell out log (removelast t).
Proof. reflexivity. Qed.

Lemma snoc_removelast {A} (l : list A) a : removelast (l ++ [a]) = l.
Proof. rewrite removelast_app by discriminate. cbn. apply app_nil_r. Qed.

Lemma cut_sound out : forall n log cs acc o log', List.length cs <= n ->
  cut_loop out n log cs acc = Some (o, log') -> exists o', o = acc ++ o' /\ inside out log cs o' log'.
Proof.
  induction n as [|n IH]; intros log cs acc o log' Hn E.
  - destruct cs; [|cbn in Hn; lia]. cbn in E. inv E. exists []. rewrite app_nil_r. split; [reflexivity|apply in_end].
  - destruct cs as [|c cs].
    { cbn in E. inv E. exists []. rewrite app_nil_r. split; [reflexivity|apply in_end]. }
    cbn [List.length] in Hn. cbn [cut_loop] in E.
    destruct (N.eqb_spec c (ch "$")) as [->|Hd]; [|destruct (N.eqb_spec c (ch "`")) as [->|Hb]];
      cbn [orb] in E.
    + unfold create_subshell in E. rewrite N.eqb_refl in E. destruct cs as [|c cs]; [discriminate|].
      cbn [List.length] in Hn.
      destruct (N.eqb_spec c (ch "(")) as [->|Hp].
      * destruct (take_through_cases (ch ")") cs) as [(t & r & -> & Ht & Et)|[Ht Et]];
          rewrite Et in E; rewrite eval_paren in E.
        -- rewrite snoc_removelast in E.
           destruct (run_subshell out log t) as [[o1 log1]|] eqn:Er; [|discriminate].
           apply run_iff in Er. apply IH in E; [|rewrite app_length in Hn; cbn in Hn; lia].
           destruct E as (o' & -> & H). exists (o1 ++ o'). rewrite app_assoc. split; [reflexivity|].
           exact (in_paren out log t r o1 log1 o' log' Ht Er H).
        -- destruct (run_subshell out log (removelast cs)) as [[o1 log1]|] eqn:Er; [|discriminate].
           apply run_iff in Er. apply IH in E; [|cbn; lia].
           destruct E as (o' & -> & H). inv H. rewrite app_nil_r. exists o1. split; [reflexivity|].
           exact (in_paren_open out log cs o1 log' Ht Er).
      * change (eval_subshell out log [ch "$"]) with (Some ([ch "$"], log)) in E.
        apply IH in E; [|lia]. destruct E as (o' & -> & H). exists (ch "$" :: o').
        rewrite <- app_assoc. split; [reflexivity|]. apply in_dollar; assumption.
    + unfold create_subshell in E. change (ch "`" =? ch "$")%N with false in E.
      destruct (take_through_cases (ch "`") cs) as [(t & r & -> & Ht & Et)|[Ht Et]];
        rewrite Et in E; rewrite eval_tick in E.
      * rewrite snoc_removelast in E.
        destruct (run_subshell out log t) as [[o1 log1]|] eqn:Er; [|discriminate].
        apply run_iff in Er. apply IH in E; [|rewrite app_length in Hn; cbn in Hn; lia].
        destruct E as (o' & -> & H). exists (o1 ++ o'). rewrite app_assoc. split; [reflexivity|].
        exact (in_tick out log t r o1 log1 o' log' Ht Er H).
      * destruct (run_subshell out log (removelast cs)) as [[o1 log1]|] eqn:Er; [|discriminate].
        apply run_iff in Er. apply IH in E; [|cbn; lia].
        destruct E as (o' & -> & H). inv H. rewrite app_nil_r. exists o1. split; [reflexivity|].
        exact (in_tick_open out log cs o1 log' Ht Er).
    + apply IH in E; [|lia]. destruct E as (o' & -> & H). exists (c :: o').
      rewrite <- app_assoc. split; [reflexivity|]. apply in_plain; [|exact H].
      intros [H1|[H1|[]]]; [apply Hd|apply Hb]; symmetry; exact H1.
Qed.

Lemma cut_complete out : forall log cs o log', inside out log cs o log' ->
  forall n acc, List.length cs <= n -> cut_loop out n log cs acc = Some (acc ++ o, log').
Proof.
  induction 1 as [log|log c s o log' Hc H IH|log t s o1 log1 o2 log2 Ht Hr H IH
                 |log t s o1 log1 o2 log2 Ht Hr H IH|log t o log' Ht Hr|log t o log' Ht Hr
                 |log c s o log' Hc H IH]; intros n acc Hn.
  - destruct n; cbn; rewrite app_nil_r; reflexivity.
  - destruct n as [|n]; cbn [List.length] in Hn; [lia|]. cbn [cut_loop].
    destruct (N.eqb_spec c (ch "$")) as [->|Hd]; [exfalso; apply Hc; left; reflexivity|].
    destruct (N.eqb_spec c (ch "`")) as [->|Hb]; [exfalso; apply Hc; right; left; reflexivity|].
    cbn [orb]. rewrite IH by lia. rewrite <- app_assoc. reflexivity.
  - change (lit "$(" ++ t ++ lit ")" ++ s) with (ch "$" :: ch "(" :: t ++ ch ")" :: s) in *.
    cbn [List.length] in Hn. rewrite app_length in Hn. cbn [List.length] in Hn.
    destruct n as [|n]; [lia|]. cbn [cut_loop]. rewrite N.eqb_refl. cbn [orb].
    unfold create_subshell. rewrite !N.eqb_refl.
    rewrite take_through_in by exact Ht. rewrite eval_paren, snoc_removelast.
    apply run_iff in Hr. rewrite Hr. rewrite IH by lia. rewrite app_assoc. reflexivity.
  - change (lit "`" ++ t ++ lit "`" ++ s) with (ch "`" :: t ++ ch "`" :: s) in *.
    cbn [List.length] in Hn. rewrite app_length in Hn. cbn [List.length] in Hn.
    destruct n as [|n]; [lia|]. cbn [cut_loop]. rewrite N.eqb_refl, orb_true_r.
    unfold create_subshell. change (ch "`" =? ch "$")%N with false. cbv iota.
    rewrite take_through_in by exact Ht. rewrite eval_tick, snoc_removelast.
    apply run_iff in Hr. rewrite Hr. rewrite IH by lia. rewrite app_assoc. reflexivity.
  - change (lit "$(" ++ t) with (ch "$" :: ch "(" :: t) in *.
    cbn [List.length] in Hn.
    destruct n as [|n]; [lia|]. cbn [cut_loop]. rewrite N.eqb_refl. cbn [orb].
    unfold create_subshell. rewrite !N.eqb_refl.
    rewrite take_through_none by exact Ht. rewrite eval_paren.
    apply run_iff in Hr. rewrite Hr. destruct n; reflexivity.
  - change (lit "`" ++ t) with (ch "`" :: t) in *.
    cbn [List.length] in Hn.
    destruct n as [|n]; [lia|]. cbn [cut_loop]. rewrite N.eqb_refl, orb_true_r.
    unfold create_subshell. change (ch "`" =? ch "$")%N with false. cbv iota.
    rewrite take_through_none by exact Ht. rewrite eval_tick.
    apply run_iff in Hr. rewrite Hr. destruct n; reflexivity.
  - cbn [List.length] in Hn. destruct n as [|n]; [lia|]. cbn [cut_loop]. rewrite N.eqb_refl. cbn [orb].
    unfold create_subshell. rewrite N.eqb_refl.
    destruct (N.eqb_spec c (ch "(")) as [->|_]; [congruence|].
    change (eval_subshell out log [ch "$"]) with (Some ([ch "$"], log)).
    cbv beta iota; rewrite IH by lia. rewrite <- app_assoc. reflexivity.
Qed.

Lemma cut_iff out log cs o log' :
  cut_loop out (List.length cs) log cs [] = Some (o, log') <-> inside out log cs o log'.
Proof.
  split.
  - intros E. apply cut_sound in E; [|lia]. destruct E as (o' & -> & H). exact H.
  - intros H. apply (cut_complete out log cs o log' H _ []). lia.
Qed.

(** ** Words *)

Lemma begins_iff c w : begins c w <-> starts_with [c] w = true.
Proof.
  rewrite starts_with_iff. split; intros [t H]; exists t; exact H.
Qed.

Lemma begins_dec c w : {begins c w} + {~ begins c w}.
Proof.
  destruct (starts_with [c] w) eqn:E; [left|right]; rewrite begins_iff; congruence.
Qed.

Lemma begins_false c w : ~ begins c w <-> starts_with [c] w = false.
Proof. rewrite begins_iff. destruct (starts_with [c] w); split; congruence. Qed.

Lemma begins_inj c d w : begins c w -> begins d w -> c = d.
Proof. intros [t ->] [t' E]. congruence. Qed.

Lemma body_iff w t : w <> [] -> body w t <-> drop_ends w = t.
Proof.
  intros Hw. unfold drop_ends. split.
  - intros H. inv H; cbn [tl]; [reflexivity|apply snoc_removelast].
  - intros <-. destruct w as [|c w]; [congruence|]. cbn [tl].
    destruct w as [|d w] using rev_ind; [apply bd_lone|]. rewrite snoc_removelast. apply bd_both.
Qed.

Lemma again_iff out log s o log' : eval_subshell out log s = Some (o, log') <-> again out log s o log'.
Proof.
  unfold eval_subshell. split.
  - destruct (starts_with (lit "$(") s) eqn:E1.
    { apply starts_with_iff in E1. destruct E1 as [t ->]. intros H. apply ag_paren. apply run_iff, H. }
    destruct (starts_with (lit "`") s) eqn:E2.
    { apply starts_with_iff in E2. destruct E2 as [t ->]. intros H. apply ag_tick. apply run_iff, H. }
    intros [= <- <-]. apply ag_none; intros t ->; rewrite starts_with_app in *; discriminate.
  - intros H. inv H.
    + rewrite starts_with_app. apply run_iff in H0. exact H0.
    + destruct (starts_with (lit "$(") (lit "`" ++ t)) eqn:E; [discriminate|].
      rewrite starts_with_app. apply run_iff in H0. exact H0.
    + destruct (starts_with (lit "$(") o) eqn:E1.
      { apply starts_with_iff in E1. destruct E1 as [t ->]. exfalso. eapply H0. reflexivity. }
      destruct (starts_with (lit "`") o) eqn:E2.
      { apply starts_with_iff in E2. destruct E2 as [t ->]. exfalso. eapply H1. reflexivity. }
      reflexivity.
Qed.

Lemma contains1 c s : contains_str [c] s = true <-> In c s.
Proof.
  rewrite contains_str_iff. split.
  - intros (a & b & ->). rewrite in_app_iff. right. left. reflexivity.
  - intros H. apply in_split in H. destruct H as (a & b & ->). exists a, b. reflexivity.
Qed.

Lemma substitutes_iff w :
  negb (contains_str (lit "$(") w) && negb (contains_str (lit "`") w) = false <-> substitutes w.
Proof.
  rewrite andb_false_iff, !negb_false_iff. change (lit "`") with [ch "`"]. rewrite contains1, contains_str_iff.
  unfold substitutes. tauto.
Qed.

Lemma cut_quotes_dq out log w o log' : begins (ch """") w ->
  cut_quotes out log w = Some (o, log') <-> exists t, body w t /\ inside out log t o log'.
Proof.
  intros Hb. assert (Hw : w <> []) by (destruct Hb as [t ->]; discriminate).
  unfold cut_quotes. apply begins_iff in Hb. change (lit """") with [ch """"]. rewrite Hb.
  rewrite cut_iff. split.
  - intros H. exists (drop_ends w). split; [apply body_iff; auto|exact H].
  - intros (t & Ht & H). apply body_iff in Ht; [|exact Hw]. subst t. exact H.
Qed.

Lemma double_iff out log w vs log' : begins (ch """") w ->
  eval_double_quotes out log w = Some (vs, log') <-> double_quoted out log w vs log'.
Proof.
  intros Hb. unfold eval_double_quotes.
  destruct (negb (contains_str (lit "$(") w) && negb (contains_str (lit "`") w)) eqn:Es.
  - assert (Hs : ~ substitutes w) by (rewrite <- substitutes_iff; congruence).
    split.
    + destruct (cut_quotes out log w) as [[nw log1]|] eqn:Ec; [|discriminate]. intros [= <- <-].
      apply cut_quotes_dq in Ec; [|exact Hb]. destruct Ec as (t & Ht & H).
      exact (dq_text out log w t nw log1 Hs Ht H).
    + intros H. inv H; try contradiction.
      assert (Ec : cut_quotes out log w = Some (o, log')) by (apply cut_quotes_dq; eauto).
      rewrite Ec. reflexivity.
  - apply substitutes_iff in Es. split.
    + destruct (cut_quotes out log w) as [[nw log1]|] eqn:Ec; [|discriminate].
      apply cut_quotes_dq in Ec; [|exact Hb]. destruct Ec as (t & Ht & H).
      destruct (eval_subshell out log1 nw) as [[e log2]|] eqn:Ea; [|discriminate].
      apply again_iff in Ea. change (lit " ") with [ch " "].
      destruct (contains_str [ch " "] e) eqn:Esp; intros [= <- <-].
      * apply contains1 in Esp. apply (dq_fields out log w t nw log1 e log2 _ Es Ht H Ea Esp).
        apply fields_iff. reflexivity.
      * apply (dq_one out log w t nw log1 e log2 Es Ht H Ea).
        rewrite <- contains1. congruence.
    + intros H. inv H; try contradiction;
        assert (Ec : cut_quotes out log w = Some (o, log1)) by (apply cut_quotes_dq; eauto);
        rewrite Ec; match goal with H : again _ _ _ _ _ |- _ => apply again_iff in H; rewrite H end;
        change (lit " ") with [ch " "].
      * destruct (contains_str [ch " "] e) eqn:Esp; [apply contains1 in Esp; contradiction|reflexivity].
      * match goal with H : In _ e |- _ => apply contains1 in H; rewrite H end.
        match goal with H : fields _ _ |- _ => apply fields_iff in H; rewrite H end. reflexivity.
Qed.

Lemma argument_iff out log w vs log' : eval_word out log w = Some (vs, log') <-> argument out log w vs log'.
Proof.
  unfold eval_word. change (lit """") with [ch """"]. change (lit "'") with [ch "'"].
  destruct (starts_with [ch """"] w) eqn:Ed.
  - apply begins_iff in Ed. rewrite double_iff by exact Ed. split; [apply arg_double, Ed|].
    intros H. inv H; try contradiction; [|assumption].
    pose proof (begins_inj _ _ _ H0 Ed). discriminate.
  - destruct (starts_with [ch "'"] w) eqn:Es.
    + apply begins_iff in Es. apply begins_false in Ed.
      assert (Hw : w <> []) by (destruct Es as [t ->]; discriminate).
      unfold cut_quotes. change (lit """") with [ch """"]. apply begins_false in Ed as Ed'. rewrite Ed'. split.
      * intros [= <- <-]. apply arg_single; [exact Es|]. apply body_iff; auto.
      * intros H. inv H; try contradiction. apply body_iff in H1; [|exact Hw]. subst. reflexivity.
    + apply begins_false in Es. apply begins_false in Ed. split.
      * intros [= <- <-]. apply arg_plain; assumption.
      * intros H. inv H; try contradiction. reflexivity.
Qed.

Lemma name_piece_iff out log w vs log' : eval_name_piece out log w = Some (vs, log') <-> name_piece out log w vs log'.
Proof.
  unfold eval_name_piece. change (lit """") with [ch """"].
  destruct (starts_with [ch """"] w) eqn:Ed.
  - apply begins_iff in Ed. rewrite double_iff by exact Ed. split; [apply np_double, Ed|].
    intros H. inv H; try contradiction. assumption.
  - apply begins_false in Ed. split.
    + intros [= <- <-]. apply np_plain; assumption.
    + intros H. inv H; try contradiction. reflexivity.
Qed.

Lemma all_iff f means : (forall log w vs log', f log w = Some (vs, log') <-> means log w vs log') ->
  forall ws log vs log', append_all f log ws = Some (vs, log') <-> all_of means log ws vs log'.
Proof.
  intros Hf. induction ws as [|w ws IH]; intros log vs log'; cbn [append_all].
  - split; [intros [= <- <-]; constructor|]. intros H. inv H. reflexivity.
  - split.
    + destruct (f log w) as [[v1 log1]|] eqn:E1; [|discriminate].
      destruct (append_all f log1 ws) as [[v2 log2]|] eqn:E2; [|discriminate]. intros [= <- <-].
      apply Hf in E1. apply IH in E2. exact (all_cons means log w ws v1 log1 v2 log2 E1 E2).
    + intros H. inv H. apply Hf in H3. apply IH in H6. rewrite H3, H6. reflexivity.
Qed.

Lemma unquoted_name_iff out log w w' log' : w <> [] ->
  (if starts_with (lit "'") w then cut_quotes out log w else Some (w, log)) = Some (w', log') <->
  unquoted_name w w' /\ log' = log.
Proof.
  intros Hw. change (lit "'") with [ch "'"]. destruct (starts_with [ch "'"] w) eqn:Es.
  - apply begins_iff in Es.
    assert (Ed : starts_with (lit """") w = false).
    { apply begins_false. intros Hd. pose proof (begins_inj _ _ _ Hd Es). discriminate. }
    unfold cut_quotes. rewrite Ed. split.
    + intros [= <- <-]. split; [apply un_single; [exact Es|apply body_iff; auto]|reflexivity].
    + intros [H ->]. inv H; [contradiction|]. apply body_iff in H1; [|exact Hw]. subst. reflexivity.
  - apply begins_false in Es. split.
    + intros [= <- <-]. split; [apply un_plain, Es|reflexivity].
    + intros [H ->]. inv H; [reflexivity|contradiction].
Qed.

Lemma quotes_iff out log sc sc' log' :
  eval_words out log sc = Some (sc', log') <-> quotes_removed out log sc sc' log'.
Proof.
  destruct sc as [p name s]. unfold eval_words. cbn [sc_name sc_prefix sc_suffix].
  destruct (str_eqb_spec name []) as [->|Hn].
  { split; [intros [= <- <-]; apply qr_no_name|]. intros H. inv H; congruence. }
  split.
  - destruct (if starts_with (lit "'") name then _ else _) as [[name' log0]|] eqn:Eu; [|discriminate].
    apply unquoted_name_iff in Eu; [|exact Hn]. destruct Eu as [Hu ->].
    destruct (split_whitespace_ig_qts name') as [ps|] eqn:Ep; [|discriminate]. apply split_pieces in Ep.
    destruct (append_all (eval_name_piece out) log ps) as [[[|n words] log1]|] eqn:Ea; try discriminate.
    apply (all_iff _ _ (name_piece_iff out)) in Ea.
    destruct s as [[rs [|w ws]]|].
    + intros [= <- <-]. eapply qr_no_args; eauto.
    + destruct (append_all (eval_word out) log1 (w :: ws)) as [[vs log2]|] eqn:Ew; [|discriminate].
      intros [= <- <-]. apply (all_iff _ _ (argument_iff out)) in Ew.
      eapply qr_args; eauto. discriminate.
    + intros [= <- <-]. eapply qr_no_args; eauto.
  - intros H. inv H; [congruence| |];
      (assert (Eu : (if starts_with (lit "'") name then cut_quotes out log name else Some (name, log))
                   = Some (name', log)) by (apply unquoted_name_iff; auto));
      rewrite Eu;
      match goal with H : pieces _ _ |- _ => apply split_pieces in H; rewrite H end;
      match goal with H : all_of (name_piece _) _ _ _ _ |- _ =>
        apply (all_iff _ _ (name_piece_iff out)) in H; rewrite H end.
    + match goal with H : _ \/ _ |- _ => destruct H as [->|[rs ->]]; reflexivity end.
    + match goal with H : all_of (argument _) _ _ _ _ |- _ =>
        apply (all_iff _ _ (argument_iff out)) in H; rewrite H end.
      destruct ws; [congruence|reflexivity].
Qed.

(** ** Variables and aliases *)

Lemma variable_iff m w w' : expand_word m w = w' <-> variable (expand_var m) w w'.
Proof.
  unfold expand_word. change (lit "$") with [ch "$"]. destruct (starts_with [ch "$"] w) eqn:E.
  - apply begins_iff in E. destruct E as [x ->]. cbn [tl]. split.
    + intros <-. destruct (expand_var m x) eqn:Ex; [apply v_set|apply v_unset]; exact Ex.
    + intros H. inv H.
      * match goal with H : expand_var _ _ = _ |- _ => rewrite H end. reflexivity.
      * match goal with H : expand_var _ _ = _ |- _ => rewrite H end. reflexivity.
      * match goal with H : ~ _ |- _ => exfalso; apply H end. eexists. reflexivity.
  - apply begins_false in E. split.
    + intros <-. apply v_other, E.
    + intros H. inv H; try reflexivity; exfalso; apply E; eexists; reflexivity.
Qed.

Lemma split_char_cons c n r : ~ In c n -> split_char c (n ++ c :: r) = n :: split_char c r.
Proof. intros H. apply split_char_app, H. Qed.

Lemma assignment_iff m w w' : expand_assignment m w = Some w' <-> assignment_word (expand_var m) w w'.
Proof.
  unfold expand_assignment. change (lit "$") with [ch "$"]. destruct (contains_str [ch "$"] w) eqn:E.
  - apply contains1 in E. split.
    + destruct (split_char (ch "=") w) as [|n [|u rest]] eqn:Es; try discriminate.
      intros [= <-].
      pose proof (split_char_pieces (ch "=") w) as Hp. rewrite Es in Hp. inv Hp. inv H2.
      pose proof (split_char_join (ch "=") w) as Hj. rewrite Es in Hj.
      apply aw_set; auto. rewrite <- Hj. destruct rest as [|r rest]; [left|right]; [reflexivity|].
      exists (join [ch "="] (r :: rest)). reflexivity.
    + intros H. inv H; [contradiction|].
      destruct H3 as [->|[r ->]]; rewrite split_char_cons by assumption.
      * rewrite split_char_none by assumption. reflexivity.
      * rewrite split_char_cons by assumption. reflexivity.
  - assert (Hn : ~ In (ch "$") w) by (rewrite <- contains1; congruence). split.
    + intros [= <-]. apply aw_plain, Hn.
    + intros H. inv H; [reflexivity|contradiction].
Qed.

Lemma assignments_iff m : forall ws ws', expand_assignments m ws = Some ws' <->
  Forall2 (assignment_word (expand_var m)) ws ws'.
Proof.
  induction ws as [|w ws IH]; intros ws'; cbn [expand_assignments].
  - split; [intros [= <-]; constructor|]. intros H. inv H. reflexivity.
  - split.
    + destruct (expand_assignment m w) as [e|] eqn:E1; [|discriminate].
      destruct (expand_assignments m ws) as [es|] eqn:E2; [|discriminate]. intros [= <-].
      constructor; [apply assignment_iff, E1|apply IH; reflexivity].
    + intros H. inv H. apply assignment_iff in H2. apply IH in H4. rewrite H2, H4. reflexivity.
Qed.

Lemma map_variable m ws ws' : map (expand_word m) ws = ws' <-> Forall2 (variable (expand_var m)) ws ws'.
Proof.
  revert ws'. induction ws as [|w ws IH]; intros ws'; cbn [map].
  - split; [intros <-; constructor|]. intros H. inv H. reflexivity.
  - split.
    + intros <-. constructor; [apply variable_iff; reflexivity|apply IH; reflexivity].
    + intros H. inv H. apply variable_iff in H2. apply IH in H4. congruence.
Qed.

Lemma variables_iff m sc sc' : expand_vars m sc = Some sc' <-> variables_replaced (expand_var m) sc sc'.
Proof.
  destruct sc as [p name s]. unfold expand_vars. cbn [sc_prefix sc_name sc_suffix].
  split.
  - destruct p as [[pr pa]|]; cbn [assignment p_redirect].
    + destruct (expand_assignments m pa) as [a|] eqn:Ea; [|discriminate]. intros [= <-].
      constructor.
      * cbn. split; [reflexivity|]. apply assignments_iff, Ea.
      * apply variable_iff. reflexivity.
      * destruct s as [s|]; [|exact I]. cbn. split; [reflexivity|]. apply map_variable. reflexivity.
    + intros [= <-]. constructor; [exact I|apply variable_iff; reflexivity|].
      destruct s as [s|]; [|exact I]. cbn. split; [reflexivity|]. apply map_variable. reflexivity.
  - intros H. inv H. apply variable_iff in H5. rewrite H5.
    assert (Es : match s with None => None | Some s => Some (Suffix (s_redirect s) (map (expand_word m) (word_list s))) end = s').
    { destruct s as [s|], s' as [[r' w']|]; try contradiction; [|reflexivity]. cbn in H6.
      destruct H6 as [-> H6]. apply map_variable in H6. rewrite H6. reflexivity. }
    rewrite Es. destruct p as [[pr pa]|], p' as [[pr' pa']|]; try contradiction; [|reflexivity].
    cbn in H3. destruct H3 as [-> H3]. apply assignments_iff in H3. cbn. rewrite H3. reflexivity.
Qed.

Lemma alias_iff al sc sc' : alias_lookup al sc = Some sc' <-> alias_replaced al sc sc'.
Proof.
  unfold alias_lookup, lookup_alias. split.
  - destruct (sget (sc_name sc) al) as [text|] eqn:E.
    + destruct (split_whitespace text) as [|n args] eqn:Es; [discriminate|]. apply fields_iff in Es.
      intros [= <-]. pose proof (ar_some al sc text n args E Es) as H.
      destruct sc as [p name [[rs ws]|]]; destruct args; exact H.
    + intros [= <-]. apply ar_none, E.
  - intros H. inv H; rewrite H0.
    + reflexivity.
    + apply fields_iff in H1. rewrite H1. destruct sc as [p name [[rs ws]|]]; destruct args; reflexivity.
Qed.

Theorem expand_iff out al m log sc sc' log' :
  expand out al m log sc = Some (sc', log') <-> expands out al (expand_var m) log sc sc' log'.
Proof.
  unfold expand, expands. split.
  - destruct (alias_lookup al sc) as [sc1|] eqn:E1; [|discriminate].
    destruct (expand_vars m sc1) as [sc2|] eqn:E2; [|discriminate].
    intros E3. exists sc1, sc2. split; [apply alias_iff, E1|]. split; [apply variables_iff, E2|].
    apply quotes_iff, E3.
  - intros (sc1 & sc2 & H1 & H2 & H3). apply alias_iff in H1. apply variables_iff in H2. apply quotes_iff in H3.
    rewrite H1, H2. exact H3.
Qed.
