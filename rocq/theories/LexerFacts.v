(** The lexer model refines the specification of [LexerSpec]. *)
From Verif Require Import Base BaseFacts Lexer LexerSpec.

(** The lexer state at byte position [p] of [inp] with [s] ahead. *)
Definition mk (b : bool) (inp : str) (p : nat) (s : str) : lexer :=
  Lexer b inp (snd (next_char (char_indices_from p s))) (fst (next_char (char_indices_from p s))).

Lemma lexer_new_mk s : lexer_new s = mk false s 0 s.
Proof. unfold lexer_new, mk, char_indices. destruct (next_char _); reflexivity. Qed.

Lemma advance_nil b inp p : advance (mk b inp p []) = (None, mk b inp p []).
Proof. reflexivity. Qed.

Lemma advance_cons b inp p c s :
  advance (mk b inp p (c :: s)) = (Some (p, c, p + len_utf8 c), mk b inp (p + len_utf8 c) s).
Proof. unfold advance, mk; cbn. destruct s; reflexivity. Qed.

Lemma lookahead_nil b inp p : lookahead (mk b inp p []) = None.
Proof. reflexivity. Qed.

Lemma lookahead_cons b inp p c s :
  lookahead (mk b inp p (c :: s)) = Some (p, c, p + len_utf8 c).
Proof. reflexivity. Qed.

Lemma input_mk b inp p s : input (mk b inp p s) = inp. Proof. reflexivity. Qed.
Lemma eof_mk b inp p s : send_eof (mk b inp p s) = b. Proof. reflexivity. Qed.

Lemma char_indices_length p s : List.length (char_indices_from p s) = List.length s.
Proof. revert p; induction s; intros p; cbn; [reflexivity|rewrite IHs; reflexivity]. Qed.

Lemma remaining_mk b inp p s : remaining (mk b inp p s) = List.length s.
Proof.
  destruct s as [|c s]; [reflexivity|].
  unfold remaining. rewrite lookahead_cons. cbn. rewrite char_indices_length. reflexivity.
Qed.

Lemma peek_is_mk b inp p s d :
  peek_is (mk b inp p s) d = match s with [] => false | c :: _ => N.eqb c d end.
Proof. destruct s; reflexivity. Qed.

Lemma eof_step inp p :
  Lexer true (input (mk false inp p [])) (chars (mk false inp p [])) (lookahead (mk false inp p []))
  = mk true inp p [].
Proof. reflexivity. Qed.

Global Opaque mk.

Ltac adv := rewrite ?lookahead_cons, ?lookahead_nil, ?advance_cons, ?advance_nil, ?input_mk, ?eof_mk, ?peek_is_mk.

Definition stops (f : char -> bool) (s : str) : Prop :=
  match s with [] => True | c :: _ => f c = true end.

Lemma take_until_loop_mk f w : forall n b inp p r,
  Forall (fun c => f c = false) w -> stops f r -> List.length (w ++ r) <= n ->
  take_until_loop n f (mk b inp p (w ++ r)) p = (mk b inp (p + blen w) r, p + blen w).
Proof.
  induction w as [|c w IH]; intros n b inp p r Hw Hr Hn.
  - cbn [app blen]. rewrite Nat.add_0_r.
    destruct n; cbn [take_until_loop]; [reflexivity|].
    destruct r as [|d r]; adv; [reflexivity|]. cbn in Hr. rewrite Hr; reflexivity.
  - inversion Hw as [|? ? Hc Hw']; subst. cbn [app List.length] in Hn.
    destruct n as [|n]; [lia|]. cbn [take_until_loop app blen]. adv. rewrite Hc.
    rewrite IH by (try assumption; lia). rewrite Nat.add_assoc. reflexivity.
Qed.

(** closed: the terminator is consumed *)
Lemma take_until_alt_loop_closed f w : forall n b inp p c r,
  Forall (fun c => f c = false) w -> f c = true -> List.length (w ++ c :: r) <= n ->
  take_until_alt_loop n f (mk b inp p (w ++ c :: r)) p
  = (mk b inp (p + blen (w ++ [c])) r, p + blen (w ++ [c])).
Proof.
  induction w as [|d w IH]; intros n b inp p c r Hw Hc Hn.
  - cbn [app blen List.length] in *. destruct n as [|n]; [lia|].
    cbn [take_until_alt_loop]. adv. rewrite Hc, Nat.add_0_r. reflexivity.
  - inversion Hw as [|? ? Hd Hw']; subst. cbn [app List.length] in Hn.
    destruct n as [|n]; [lia|]. cbn [take_until_alt_loop app blen]. adv. rewrite Hd.
    rewrite IH by (try assumption; lia). rewrite Nat.add_assoc. reflexivity.
Qed.

Lemma take_until_alt_loop_open f w : forall n b inp p,
  Forall (fun c => f c = false) w -> List.length w <= n ->
  take_until_alt_loop n f (mk b inp p w) p = (mk b inp (p + blen w) [], p + blen w).
Proof.
  induction w as [|d w IH]; intros n b inp p Hw Hn.
  - cbn [blen]. rewrite Nat.add_0_r. destruct n; cbn [take_until_alt_loop]; adv; reflexivity.
  - inversion Hw as [|? ? Hd Hw']; subst. cbn [List.length] in Hn.
    destruct n as [|n]; [lia|]. cbn [take_until_alt_loop app blen]. adv. rewrite Hd.
    rewrite IH by (try assumption; lia). rewrite Nat.add_assoc. reflexivity.
Qed.

Lemma newline_loop_mk w : forall n b inp p r,
  Forall (eq newline) w -> not_before (eq newline) r -> List.length (w ++ r) <= n ->
  newline_loop n (mk b inp p (w ++ r)) = mk b inp (p + blen w) r.
Proof.
  induction w as [|c w IH]; intros n b inp p r Hw Hr Hn.
  - cbn [app blen]. rewrite Nat.add_0_r.
    destruct n; cbn [newline_loop]; [reflexivity|].
    destruct r as [|d r]; adv; [reflexivity|]. cbn in Hr.
    destruct (N.eqb_spec d 10) as [->|]; [exfalso; apply Hr; reflexivity|reflexivity].
  - inversion Hw as [|? ? <- Hw']; subst. cbn [app List.length] in Hn.
    destruct n as [|n]; [lia|]. cbn [newline_loop app blen]. adv. cbn [snd].
    replace (N.eqb newline 10) with true by reflexivity.
    rewrite IH by (try assumption; lia). rewrite Nat.add_assoc. reflexivity.
Qed.

Lemma comment_loop_mk w : forall n b inp p r,
  ~ In newline w -> not_before (fun c => c <> newline) r -> List.length (w ++ r) <= n ->
  comment_loop n (mk b inp p (w ++ r)) = mk b inp (p + blen w) r.
Proof.
  induction w as [|c w IH]; intros n b inp p r Hw Hr Hn.
  - cbn [app blen]. rewrite Nat.add_0_r.
    destruct n; cbn [comment_loop]; [reflexivity|].
    destruct r as [|d r]; adv; [reflexivity|]. cbn in Hr.
    destruct (N.eqb_spec d 10) as [->|Hd]; [reflexivity|].
    exfalso; apply Hr. intros E; apply Hd; exact E.
  - cbn [app List.length] in Hn.
    destruct n as [|n]; [lia|]. cbn [comment_loop app blen]. adv. cbn [snd].
    destruct (N.eqb_spec c 10) as [->|Hd]; [exfalso; apply Hw; left; reflexivity|].
    rewrite IH; [rewrite Nat.add_assoc; reflexivity| |exact Hr|lia].
    intros Hi; apply Hw; right; exact Hi.
Qed.

(** Character classes. *)
Lemma word_continue_iff c : is_word_continue c = true <-> word_char c.
Proof.
  unfold is_word_continue, word_char, metachars.
  change (lit ";&|(){}<>!$`*=") with
    [ch ";"; ch "&"; ch "|"; ch "("; ch ")"; ch "{"; ch "}"; ch "<"; ch ">"; ch "!"; ch "$"; ch "`"; ch "*"; ch "="].
  set (l := [ch ";"; ch "&"; ch "|"; ch "("; ch ")"; ch "{"; ch "}"; ch "<"; ch ">"; ch "!"; ch "$"; ch "`"; ch "*"; ch "="]).
  destruct (existsb (N.eqb c) l) eqn:E.
  - split; [discriminate|]. intros [Hn _]. apply contains_char_In in E. contradiction.
  - apply contains_char_notIn in E. clearbody l. destruct (is_whitespace c); cbn [negb]; split; [discriminate|intros [_ H]; discriminate|intros _; split; [exact E|reflexivity]|reflexivity].
Qed.

Lemma word_continue_false_iff c : is_word_continue c = false <-> ~ word_char c.
Proof. rewrite <- word_continue_iff. destruct (is_word_continue c); split; congruence. Qed.

Lemma word_char_dec c : {word_char c} + {~ word_char c}.
Proof.
  destruct (is_word_continue c) eqn:E; [left; apply word_continue_iff|right; apply word_continue_false_iff]; exact E.
Qed.

Ltac ascii_cases :=
  repeat match goal with
         | |- context [N.eqb ?c ?k] => destruct (N.eqb_spec c k) as [->|?]
         | H : context [N.eqb ?c ?k] |- _ => destruct (N.eqb_spec c k) as [->|?]
         end.

(** Every character falls in exactly one arm, characterised by the specification. *)
Lemma is_word_start_iff c : is_word_start c = true <-> word_char c.
Proof.
  rewrite <- word_continue_iff. unfold is_word_start.
  destruct (_ || _ || _ || _ || _ || _)%N eqn:E; [|reflexivity].
  split; [intros _|reflexivity].
  assert (Hr : (34 <= c <= 122)%N /\ c <> 36%N /\ c <> 38%N /\ c <> 40%N /\ c <> 41%N /\ c<>42%N
               /\ c<>59%N /\ c<>60%N /\ c<>61%N /\ c<>62%N /\ c<>96%N).
  { revert E. cbn. rewrite !orb_true_iff, !andb_true_iff, !N.leb_le, !N.eqb_eq. lia. }
  apply word_continue_iff. split.
  - cbn. intros H. decompose [or] H; lia || contradiction.
  - apply not_true_iff_false. unfold is_whitespace. intros H.
    rewrite !orb_true_iff, !andb_true_iff, !N.leb_le, !N.eqb_eq in H. lia.
Qed.

(** [classify] by specification *)
Lemma classify_spec c :
  match classify c with
  | CNewline => c = newline
  | CSemi => c = ch ";" | CPipe => c = ch "|" | CAmp => c = ch "&" | CTick => c = ch "`"
  | CDollar => c = ch "$" | CHash => c = ch "#" | COParen => c = ch "(" | CCParen => c = ch ")"
  | COBrace => c = ch "{" | CCBrace => c = ch "}" | CGt => c = ch ">" | CLt => c = ch "<"
  | CEq => c = ch "=" | CDq => c = ch """" | CSq => c = ch "'" | CBang => c = ch "!"
  | CWord => word_char c /\ ~ In c (lit "#'""")
  | CBlank => blank c
  | CBad => c = ch "*"
  end.
Proof.
  unfold classify.
  repeat (match goal with |- context [if N.eqb c ?k then _ else _] =>
            destruct (N.eqb_spec c k) as [->|?]; [reflexivity|] end).
  destruct (is_word_start c) eqn:E.
  - split; [apply is_word_start_iff; exact E|]. cbn in *. intros [H|[H|[H|[]]]]; congruence.
  - destruct (is_whitespace c) eqn:Ew; [split; assumption|].
    destruct (N.eq_dec c (ch "*")) as [|Hs]; [assumption|exfalso].
    assert (Hn : ~ word_char c) by (rewrite <- is_word_start_iff; congruence).
    apply Hn. split; [|exact Ew]. cbn in *. intros H. decompose [or] H; congruence.
Qed.

Lemma word_char_classify c : word_char c -> ~ In c (lit "#'""") -> classify c = CWord.
Proof.
  intros Hw Hn. pose proof (classify_spec c) as H.
  destruct (classify c); try reflexivity; try subst c; exfalso;
    try (apply Hn; cbn; tauto);
    try (destruct Hw as [Hm Hs]; apply Hm; cbn; tauto).
  - destruct Hw as [Hm Hs]. discriminate.
  - destruct Hw as [Hm Hs], H. congruence.
Qed.

Lemma blank_classify c : blank c -> classify c = CBlank.
Proof.
  intros [Hw Hn]. pose proof (classify_spec c) as H.
  destruct (classify c); try reflexivity; try subst c; exfalso; try discriminate Hw; try (now apply Hn).
  destruct H as [[_ Hf] _]. congruence.
Qed.

(** Numerals *)
Lemma parse_i32_iff w n : parse_i32 w = Some n <-> numeral w n.
Proof.
  unfold parse_i32, numeral. split.
  - destruct w as [|c w]; [discriminate|].
    destruct (N.eqb_spec c (ch "-")) as [->|Hm].
    + destruct w as [|d w]; [discriminate|].
      destruct (digits_value 0 (d :: w)) as [v|] eqn:E; [|discriminate].
      destruct (N.leb_spec v 0x80000000); [|discriminate].
      intros H1; injection H1 as <-. right. exists (d :: w), v.
      repeat split; try assumption; try discriminate; lia.
    + destruct (N.eqb_spec c (ch "+")) as [->|Hp].
      * destruct w as [|d w]; [discriminate|].
        destruct (digits_value 0 (d :: w)) as [v|] eqn:E; [|discriminate].
        destruct (N.leb_spec v 0x7FFFFFFF); [|discriminate].
        intros H1; injection H1 as <-. left. exists (d :: w), v.
        repeat split; try assumption; try discriminate; try lia; right; reflexivity.
      * destruct (digits_value 0 (c :: w)) as [v|] eqn:E; [|discriminate].
        destruct (N.leb_spec v 0x7FFFFFFF); [|discriminate].
        intros H1; injection H1 as <-. left. exists (c :: w), v.
        repeat split; try assumption; try discriminate; try lia; left; reflexivity.
  - intros [(ds & v & Hw & Hne & Hv & Hn & Hb)|(ds & v & Hw & Hne & Hv & Hn & Hb)].
    + destruct ds as [|d ds]; [congruence|]. destruct Hw as [->| ->].
      * assert (d <> ch "-" /\ d <> ch "+") as [Hd1 Hd2].
        { split; intros ->; discriminate Hv. }
        destruct (N.eqb_spec d (ch "-")); [congruence|].
        destruct (N.eqb_spec d (ch "+")); [congruence|].
        rewrite Hv. destruct (N.leb_spec v 0x7FFFFFFF); [subst; reflexivity|lia].
      * cbn [N.eqb]. change (N.eqb (ch "+") (ch "-")) with false.
        change (N.eqb (ch "+") (ch "+")) with true. cbv iota. rewrite Hv.
        destruct (N.leb_spec v 0x7FFFFFFF); [subst; reflexivity|lia].
    + subst w. destruct ds as [|d ds]; [congruence|].
      change (N.eqb (ch "-") (ch "-")) with true. cbv iota. rewrite Hv.
      destruct (N.leb_spec v 0x80000000); [subst; reflexivity|lia].
Qed.

Lemma numeral_dec w : (exists n, numeral w n) \/ (forall n, ~ numeral w n).
Proof.
  destruct (parse_i32 w) as [n|] eqn:E.
  - left; exists n; apply parse_i32_iff; exact E.
  - right; intros n H; apply parse_i32_iff in H; congruence.
Qed.

(** The token of a word, computed. *)
Definition word_tok (w rest : str) : token :=
  if str_eqb w (lit "for") then TFor
  else if str_eqb w (lit "in") then TIn
  else if str_eqb w (lit "while") then TWhile
  else if str_eqb w (lit "if") then TIf
  else if str_eqb w (lit "then") then TThen
  else if str_eqb w (lit "else") then TElse
  else if str_eqb w (lit "elif") then TElif
  else if str_eqb w (lit "fi") then TFi
  else if str_eqb w (lit "do") then TDo
  else if str_eqb w (lit "done") then TDone
  else if str_eqb w (lit "case") then TCase
  else if str_eqb w (lit "esac") then TEsac
  else match rest with
       | c :: _ => if N.eqb c (ch "<") || N.eqb c (ch ">")
                   then match parse_i32 w with Some n => TNumber n | None => TWord w end
                   else TWord w
       | [] => TWord w
       end.

Lemma redirect_follows_cons c r :
  redirect_follows (c :: r) <-> N.eqb c (ch "<") || N.eqb c (ch ">") = true.
Proof.
  unfold redirect_follows. rewrite orb_true_iff, !N.eqb_eq. split.
  - intros (d & s & E & H). injection E as -> ->. exact H.
  - intros H; exists c, r; split; [reflexivity|exact H].
Qed.

Lemma reserved_nodup w t t' : In (w, t) reserved -> In (w, t') reserved -> t = t'.
Proof.
  cbn. intros H H'.
  repeat match type of H with _ \/ _ => destruct H as [H|H] | False => destruct H end;
  injection H as <- <-;
  repeat match type of H' with _ \/ _ => destruct H' as [H'|H'] | False => destruct H' end;
  injection H' as H'; first [discriminate|congruence].
Qed.

Lemma word_tok_iff w rest t : word_token w rest t <-> word_tok w rest = t.
Proof.
  assert (Hspec : word_token w rest (word_tok w rest)).
  { unfold word_tok.
    repeat match goal with
           | |- context [if str_eqb w ?k then _ else _] =>
               destruct (str_eqb_spec w k) as [->|?];
               [apply wt_reserved; cbn; tauto|]
           end.
    assert (Hnr : forall t, ~ In (w, t) reserved).
    { intros t' H. cbn in H.
      repeat match type of H with _ \/ _ => destruct H as [H|H] | False => destruct H end;
        pose proof (f_equal fst H) as Hf; cbn [fst] in Hf; cbn in *; congruence. }
    destruct rest as [|c r].
    - apply wt_word; [exact Hnr|left]. intros (c & r & E & _); discriminate.
    - destruct (_ || _) eqn:E.
      + apply redirect_follows_cons with (r := r) in E.
        destruct (parse_i32 w) eqn:En.
        * apply wt_number; [exact Hnr|exact E|apply parse_i32_iff; exact En].
        * apply wt_word; [exact Hnr|right]. intros nn Hn; apply parse_i32_iff in Hn; congruence.
      + apply wt_word; [exact Hnr|left]. rewrite redirect_follows_cons, E; discriminate. }
  split; [|intros <-; exact Hspec].
  intros H. inversion Hspec as [t1 Hr1 E1|n1 Hr1 Hf1 Hn1 E1|Hr1 Hc1 E1];
    inversion H as [t2 Hr2|n2 Hr2 Hf2 Hn2|Hr2 Hc2]; subst; try reflexivity;
    try (exfalso; first [eapply Hr1|eapply Hr2]; eassumption).
  - eapply reserved_nodup; eassumption.
  - apply parse_i32_iff in Hn1. apply parse_i32_iff in Hn2. congruence.
  - destruct Hc2 as [Hc2|Hc2]; [contradiction|exfalso; eapply Hc2; eassumption].
  - destruct Hc1 as [Hc1|Hc1]; [contradiction|exfalso; eapply Hc1; eassumption].
Qed.

Lemma word_mk b pre w rest c :
  Forall word_char w -> not_before word_char rest ->
  word (mk b (pre ++ (c :: w) ++ rest) (blen pre + len_utf8 c) (w ++ rest)) (blen pre) (blen pre + len_utf8 c)
  = SItem (mk b (pre ++ (c :: w) ++ rest) (blen pre + blen (c :: w)) rest)
      (IOk (blen pre) (word_tok (c :: w) rest) (blen pre + blen (c :: w))).
Proof.
  intros Hw Hr. unfold word, take_while, take_until. rewrite remaining_mk, take_until_loop_mk.
  - rewrite input_mk. rewrite <- Nat.add_assoc. change (len_utf8 c + blen w) with (blen (c :: w)).
    rewrite slice_app. unfold num_or_word, word_tok. f_equal; f_equal.
    destruct rest; adv; reflexivity.
  - eapply Forall_impl; [|exact Hw]. intros a Ha. apply word_continue_iff in Ha. rewrite Ha; reflexivity.
  - destruct rest as [|d r]; [exact I|]. cbn in *. apply word_continue_false_iff in Hr. rewrite Hr; reflexivity.
  - reflexivity.
Qed.

Lemma quoted_closed b pre closer c body rest :
  ~ In closer body ->
  quoted closer (mk b (pre ++ (c :: body ++ [closer]) ++ rest) (blen pre + len_utf8 c) (body ++ closer :: rest))
    (blen pre) (blen pre + len_utf8 c)
  = SItem (mk b (pre ++ (c :: body ++ [closer]) ++ rest) (blen pre + blen (c :: body ++ [closer])) rest)
      (IOk (blen pre) (TWord (c :: body ++ [closer])) (blen pre + blen (c :: body ++ [closer]))).
Proof.
  intros Hb. unfold quoted, take_until_alt. rewrite remaining_mk, take_until_alt_loop_closed.
  - rewrite input_mk, <- Nat.add_assoc. change (len_utf8 c + blen (body ++ [closer])) with (blen (c :: body ++ [closer])).
    rewrite slice_app. reflexivity.
  - apply Forall_forall. intros x Hx. apply N.eqb_neq. intros ->. contradiction.
  - apply N.eqb_refl.
  - reflexivity.
Qed.

Lemma quoted_open b pre closer c body :
  ~ In closer body ->
  quoted closer (mk b (pre ++ (c :: body)) (blen pre + len_utf8 c) body) (blen pre) (blen pre + len_utf8 c)
  = SItem (mk b (pre ++ (c :: body)) (blen pre + blen (c :: body)) [])
      (IOk (blen pre) (TWord (c :: body)) (blen pre + blen (c :: body))).
Proof.
  intros Hb. unfold quoted, take_until_alt. rewrite remaining_mk, take_until_alt_loop_open.
  - rewrite input_mk, <- Nat.add_assoc. change (len_utf8 c + blen body) with (blen (c :: body)).
    replace (pre ++ c :: body) with (pre ++ (c :: body) ++ []) by (rewrite app_nil_r; reflexivity).
    rewrite slice_app. reflexivity.
  - apply Forall_forall. intros x Hx. apply N.eqb_neq. intros ->. contradiction.
  - reflexivity.
Qed.

(** One token, from specification to model. *)
Lemma next_token text rest t len : token_here text rest t len ->
  forall f b pre,
  next (S f) (mk b (pre ++ text ++ rest) (blen pre) (text ++ rest))
  = SItem (mk b (pre ++ text ++ rest) (blen pre + blen text) rest) (IOk (blen pre) t (blen pre + len)).
Proof.
  intros H f b pre. destruct H.
  - (* newlines *)
    destruct nls as [|c nls]; [congruence|]. inversion H0 as [|? ? <- Hn]; subst.
    cbn [next app]. adv. change (classify newline) with CNewline. cbv iota beta.
    unfold newline_list. rewrite remaining_mk, newline_loop_mk; [|assumption|assumption|reflexivity].
    cbn [blen]. rewrite Nat.add_assoc. reflexivity.
  - (* simple *)
    cbn in H. repeat match type of H with _ \/ _ => destruct H as [H|H] | False => destruct H end;
    injection H as <- <-; cbn [next app]; adv; reflexivity.
  - (* double *)
    cbn in H. repeat match type of H with _ \/ _ => destruct H as [H|H] | False => destruct H end;
    injection H as <- <-; cbn [next app]; adv.
    all: match goal with |- context [classify ?c] => let v := eval vm_compute in (classify c) in change (classify c) with v end.
    all: cbv iota beta; adv; cbn [N.eqb Pos.eqb fst snd blen]; cbn -[mk]; rewrite <- ?Nat.add_assoc; reflexivity.
  - (* prefix *)
    cbn in H. repeat match type of H with _ \/ _ => destruct H as [H|H] | False => destruct H end;
    injection H as <- <- <-; cbn [next app]; adv.
    all: match goal with |- context [classify ?c] => let v := eval vm_compute in (classify c) in change (classify c) with v end.
    all: cbv iota beta; adv; destruct rest as [|d rest]; [reflexivity|]; cbn in H0.
    all: repeat (match goal with |- context [N.eqb ?d ?k] =>
            destruct (N.eqb_spec d k) as [->|?]; [exfalso; apply H0; cbn; tauto|] end); reflexivity.
  - (* dollar *)
    cbn [next app]. adv. reflexivity.
  - (* quoted *)
    cbn in H. repeat match type of H with _ \/ _ => destruct H as [H|H] | False => destruct H end;
    injection H as <- <-; cbn [app].
    all: cbn [next]; adv;
      try match goal with |- context [classify ?c] => let v := eval vm_compute in (classify c) in change (classify c) with v end;
      cbv iota beta; adv.
    + etransitivity; [|exact (quoted_closed b pre (ch "'") (ch "'") body rest H0)]. f_equal; f_equal. rewrite <- app_assoc; reflexivity.
    + etransitivity; [|exact (quoted_closed b pre (ch """") (ch """") body rest H0)]. f_equal; f_equal. rewrite <- app_assoc; reflexivity.
    + etransitivity; [|exact (quoted_closed b pre (ch "`") (ch "`") body rest H0)]. f_equal; f_equal. rewrite <- app_assoc; reflexivity.
    + change (N.eqb 40 (ch "(")) with true. cbv iota.
      etransitivity; [|apply (quoted_closed b pre (ch ")") (ch "$") (ch "(" :: body) rest)].
      * f_equal; f_equal. cbn [app]. rewrite <- app_assoc; reflexivity.
      * intros [E|Hi]; [discriminate|contradiction].
  - (* unterminated *)
    cbn in H. rewrite !app_nil_r.
    repeat match type of H with _ \/ _ => destruct H as [H|H] | False => destruct H end;
    injection H as <- <-; cbn [app].
    all: cbn [next]; adv;
      try match goal with |- context [classify ?c] => let v := eval vm_compute in (classify c) in change (classify c) with v end;
      cbv iota beta; adv.
    + apply quoted_open; assumption.
    + apply quoted_open; assumption.
    + apply quoted_open; assumption.
    + change (N.eqb 40 (ch "(")) with true. cbv iota. apply quoted_open.
      intros [E|Hi]; [discriminate|contradiction].
  - (* word *)
    cbn [next app]. adv. rewrite (word_char_classify c) by assumption. cbv iota beta.
    apply word_tok_iff in H3. subst t. apply (word_mk b pre w rest c); assumption.
  - (* dollar word *)
    cbn [next app]. adv. change (classify (ch "$")) with CDollar. cbv iota beta. adv.
    assert (Hp : forall k, In k (lit "({") ->
                 match w ++ rest with [] => false | c :: _ => N.eqb c k end = false).
    { intros k Hk. destruct (w ++ rest) as [|d r] eqn:E; [reflexivity|].
      cbn in H1. apply N.eqb_neq. intros ->. contradiction. }
    rewrite !Hp by (cbn; tauto). cbv iota.
    etransitivity; [exact (word_mk b pre w rest (ch "$") H H0)|]. f_equal; f_equal.
    unfold word_tok.
    repeat (match goal with |- context [if str_eqb ?a ?k then _ else _] =>
      replace (str_eqb a k) with false by reflexivity end; cbv iota).
    destruct rest; [reflexivity|]. destruct (_ || _); [|reflexivity].
    replace (parse_i32 (ch "$" :: w)) with (@None Z) by reflexivity. reflexivity.
Qed.

(** ** The whole stream *)

(** Fuel does not matter once it exceeds the remaining input. *)
Lemma next_fuel s : forall f f' b inp p, List.length s < f -> List.length s < f' ->
  next f (mk b inp p s) = next f' (mk b inp p s).
Proof.
  induction s as [s IH] using (induction_ltof1 _ (@List.length char)). unfold ltof in IH.
  intros f f' b inp p Hf Hf'. destruct f as [|f]; [lia|]. destruct f' as [|f']; [lia|].
  cbn [next]. destruct s as [|c s]; adv; [reflexivity|].
  destruct (classify c); try reflexivity.
  - (* comment *)
    rewrite remaining_mk.
    assert (Hsplit : exists w r, s = w ++ r /\ ~ In newline w /\ not_before (fun c => c <> newline) r).
    { clear. induction s as [|d s (w & r & -> & Hw & Hr)]; [exists [], []; repeat split; intros []|].
      destruct (N.eq_dec d newline) as [->|Hd].
      - exists [], (newline :: w ++ r). repeat split; [intros []|]. cbn; intros H; apply H; reflexivity.
      - exists (d :: w), r. repeat split; [|exact Hr]. intros [E|Hi]; contradiction. }
    destruct Hsplit as (w & r & -> & Hw & Hr). rewrite comment_loop_mk by (try assumption; reflexivity).
    cbn [List.length] in *. rewrite app_length in *. apply IH; cbn [List.length]; rewrite ?app_length; lia.
  - (* blank *)
    cbn [List.length] in *. apply IH; cbn [List.length]; lia.
Qed.

Lemma token_here_nonempty text rest t len : token_here text rest t len -> text <> [].
Proof.
  destruct 1; try discriminate; try assumption.
  - cbn in H. destruct cc; [decompose [or] H; congruence|discriminate].
  - cbn in H. destruct o; [decompose [or] H; congruence|discriminate].
  - cbn in H. destruct o; [decompose [or] H; congruence|discriminate].
Qed.

Lemma token_here_not_eof text rest len : ~ token_here text rest TEOF len.
Proof.
  intros H. inversion H; subst;
    try match goal with Hi : In _ _ |- _ => cbn in Hi; decompose [or] Hi; congruence end.
  match goal with Hw : word_token _ _ _ |- _ => inversion Hw; subst end.
  match goal with Hi : In _ _ |- _ => cbn in Hi; decompose [or] Hi; congruence end.
Qed.

Lemma next_item_token text rest t len b pre : token_here text rest t len ->
  next_item (mk b (pre ++ text ++ rest) (blen pre) (text ++ rest))
  = SItem (mk b (pre ++ text ++ rest) (blen pre + blen text) rest) (IOk (blen pre) t (blen pre + len)).
Proof. intros H. apply next_token; exact H. Qed.

Lemma next_item_blank b inp p c s : blank c ->
  next_item (mk b inp p (c :: s)) = next_item (mk b inp (p + len_utf8 c) s).
Proof.
  intros H. unfold next_item at 1. cbn [next]. adv. rewrite (blank_classify c H).
  unfold next_item. apply next_fuel; rewrite ?remaining_mk; cbn [List.length]; lia.
Qed.

Lemma next_item_comment b inp p body s :
  ~ In newline body -> not_before (fun c => c <> newline) s ->
  next_item (mk b inp p (ch "#" :: body ++ s)) = next_item (mk b inp (p + S (blen body)) s).
Proof.
  intros Hb Hs. unfold next_item at 1. cbn [next]. adv. change (classify (ch "#")) with CHash. cbv iota beta.
  rewrite !remaining_mk, comment_loop_mk by (try assumption; reflexivity).
  change (len_utf8 (ch "#")) with 1. replace (p + 1 + blen body) with (p + S (blen body)) by lia.
  unfold next_item. apply next_fuel; rewrite ?remaining_mk; cbn [List.length]; rewrite ?app_length; lia.
Qed.

Lemma next_item_error b inp p s :
  next_item (mk b inp p (ch "*" :: s)) = SItem (mk b inp (p + 1) s) (IErr p (ch "*") (p + 1)).
Proof. unfold next_item. cbn [next]. adv. reflexivity. Qed.

Lemma next_item_eof inp p : next_item (mk false inp p []) = SItem (mk true inp p []) (IOk 0 TEOF 0).
Proof. unfold next_item. cbn [next]. rewrite advance_nil, eof_mk, eof_step. reflexivity. Qed.

Lemma next_item_end inp p : next_item (mk true inp p []) = SEnd (mk true inp p []).
Proof. unfold next_item. cbn [next]. adv. reflexivity. Qed.

Definition prepend (is : list item) (d : drained) : drained :=
  match d with DDone js lx => DDone (is ++ js) lx | d => d end.

Lemma drain_same lx lx' f : next_item lx = next_item lx' -> drain f lx = drain f lx'.
Proof. intros H; destruct f; cbn [drain]; [reflexivity|rewrite H; reflexivity]. Qed.

Lemma scans_split p s is q r : scans p s is q r -> exists t, s = t ++ r /\ q = p + blen t.
Proof.
  induction 1 as [p s|p c s is q r Hb _ (t & -> & ->)|p body s is q r Hb Hs _ (t & -> & ->)
                 |p text s t len is q r Ht _ (u & -> & ->)|p s is q r _ (t & -> & ->)].
  - exists []; cbn; split; [reflexivity|lia].
  - exists (c :: t); cbn [app blen]; split; [reflexivity|lia].
  - exists (ch "#" :: body ++ t). cbn [app blen]. rewrite <- app_assoc, blen_app.
    change (len_utf8 (ch "#")) with 1. split; [reflexivity|lia].
  - exists (text ++ u). rewrite <- app_assoc, blen_app. split; [reflexivity|lia].
  - exists (ch "*" :: t); cbn [app blen]. change (len_utf8 (ch "*")) with 1. split; [reflexivity|lia].
Qed.

Lemma scans_length p s is q r : scans p s is q r -> List.length is + List.length r <= List.length s.
Proof.
  induction 1 as [p s|p c s is q r Hb _ IH|p body s is q r Hb Hs _ IH
                 |p text s t len is q r Ht _ IH|p s is q r _ IH]; cbn [List.length]; rewrite ?app_length; try lia.
  apply token_here_nonempty in Ht. destruct text; [congruence|cbn [List.length]; lia].
Qed.

(** Specification to model: a scan is what draining the iterator does. *)
Lemma scans_drain p s is q r : scans p s is q r -> forall f pre, p = blen pre ->
  drain (List.length is + f) (mk false (pre ++ s) p s)
  = prepend is (drain f (mk false (pre ++ s) q r)).
Proof.
  induction 1 as [p s|p c s is q r Hb _ IH|p body s is q r Hb Hs _ IH
                 |p text s t len is q r Ht _ IH|p s is q r _ IH]; intros f pre Hp.
  - cbn. destruct (drain _ _); reflexivity.
  - rewrite (drain_same _ _ _ (next_item_blank false (pre ++ c :: s) p c s Hb)).
    specialize (IH f (pre ++ [c])). rewrite <- app_assoc in IH. apply IH.
    rewrite blen_app. cbn. lia.
  - rewrite (drain_same _ _ _ (next_item_comment false _ p body s Hb Hs)).
    specialize (IH f (pre ++ ch "#" :: body)). rewrite <- app_assoc in IH. apply IH.
    rewrite blen_app. cbn. lia.
  - cbn [List.length Nat.add drain]. subst p. rewrite (next_item_token _ _ _ _ false pre Ht).
    specialize (IH f (pre ++ text)). rewrite <- app_assoc, blen_app in IH. rewrite (IH eq_refl).
    destruct (drain f _); reflexivity.
  - cbn [List.length Nat.add drain]. rewrite next_item_error.
    specialize (IH f (pre ++ [ch "*"])). rewrite <- app_assoc, blen_app in IH. cbn [app] in IH.
    rewrite IH by (subst p; reflexivity). destruct (drain f _); reflexivity.
Qed.

Lemma split_run (P : char -> Prop) (dec : forall c, {P c} + {~ P c}) s :
  exists w r, s = w ++ r /\ Forall P w /\ not_before P r.
Proof.
  induction s as [|c s (w & r & -> & Hw & Hr)]; [exists [], []; repeat split; constructor|].
  destruct (dec c) as [Hc|Hc].
  - exists (c :: w), r. repeat split; [constructor; assumption|exact Hr].
  - exists [], (c :: w ++ r). repeat split; [constructor|exact Hc].
Qed.

Lemma split_at (k : char) s :
  (exists w r, s = w ++ k :: r /\ ~ In k w) \/ ~ In k s.
Proof.
  induction s as [|c s [(w & r & -> & Hw)|Hn]].
  - right; intros [].
  - destruct (N.eq_dec c k) as [->|Hc].
    + left; exists [], (w ++ k :: r); split; [reflexivity|intros []].
    + left; exists (c :: w), r; split; [reflexivity|]. intros [E|Hi]; contradiction.
  - destruct (N.eq_dec c k) as [->|Hc].
    + left; exists [], s; split; [reflexivity|intros []].
    + right. intros [E|Hi]; contradiction.
Qed.

(** Every text that is not finished has a token, a skipped character or an error ahead. *)
Inductive ahead : str -> Prop :=
| ah_nil : ahead []
| ah_blank c s : blank c -> ahead (c :: s)
| ah_comment body s : ~ In newline body -> not_before (fun c => c <> newline) s -> ahead (ch "#" :: body ++ s)
| ah_token text s t len : token_here text s t len -> ahead (text ++ s)
| ah_error s : ahead (ch "*" :: s).

Lemma quoted_ahead o c s : In (o, c) quotes -> ahead (o ++ s).
Proof.
  intros H. destruct (split_at c s) as [(w & r & -> & Hw)|Hn].
  - replace (o ++ w ++ c :: r) with ((o ++ w ++ [c]) ++ r) by (rewrite <- !app_assoc; reflexivity).
    eapply ah_token, th_quoted; eassumption.
  - rewrite <- (app_nil_r (o ++ s)). eapply ah_token, th_unterminated; eassumption.
Qed.

Ltac in_list := cbn; repeat (first [left; reflexivity | right]).

Lemma ahead_all s : ahead s.
Proof.
  destruct s as [|c s]; [constructor|].
  pose proof (classify_spec c) as Hc.
  destruct (classify c); subst; try (match goal with |- ahead (?c :: ?s) => change (ahead ([c] ++ s)) end; eapply ah_token, th_simple; now in_list).
  - destruct (split_run (eq newline) (N.eq_dec newline) (newline :: s)) as (w & r & E & Hw & Hr).
    rewrite E. eapply ah_token, th_newlines; try assumption. intros ->. cbn in E. subst r. apply Hr. reflexivity.
  - destruct s as [|d s].
    + change (ahead ([ch "|"] ++ [])); eapply ah_token, (th_prefix _ TPipe (lit "|")); cbn; tauto.
    + destruct (N.eq_dec d (ch "|")) as [->|Hd].
      * change (ahead (lit "||" ++ s)). eapply ah_token, th_double; in_list.
      * change (ahead ([ch "|"] ++ d :: s)); eapply ah_token, (th_prefix _ TPipe (lit "|")); [cbn; tauto|].
        cbn in *; intuition congruence.
  - destruct s as [|d s].
    + change (ahead ([ch "&"] ++ [])); eapply ah_token, (th_prefix _ TAmpersand (lit "&")); cbn; tauto.
    + destruct (N.eq_dec d (ch "&")) as [->|Hd].
      * change (ahead (lit "&&" ++ s)). eapply ah_token, th_double; in_list.
      * change (ahead ([ch "&"] ++ d :: s)); eapply ah_token, (th_prefix _ TAmpersand (lit "&")); [cbn; tauto|].
        cbn in *; intuition congruence.
  - apply (quoted_ahead (lit "`") (ch "`")); cbn; tauto.
  - (* dollar *)
    destruct (split_run word_char word_char_dec s) as (w & r & -> & Hw & Hr).
    destruct (w ++ r) as [|d s] eqn:E.
    + rewrite <- E. change (ahead ((ch "$" :: w) ++ r)). eapply ah_token, th_dollar_word; try assumption.
      rewrite E; exact I.
    + destruct (N.eq_dec d (ch "(")) as [->|Hd]; [|destruct (N.eq_dec d (ch "{")) as [->|Hd2]].
      * change (ahead (lit "$(" ++ s)). apply (quoted_ahead _ (ch ")")); cbn; tauto.
      * change (ahead ([ch "$"] ++ ch "{" :: s)). eapply ah_token, th_dollar.
      * rewrite <- E. change (ahead ((ch "$" :: w) ++ r)). eapply ah_token, th_dollar_word; try assumption.
        rewrite E. cbn in *; intuition congruence.
  - (* comment *)
    destruct (split_at newline s) as [(w & r & -> & Hw)|Hn].
    + apply ah_comment; [exact Hw|]. cbn. intros H; apply H; reflexivity.
    + rewrite <- (app_nil_r s). apply ah_comment; [exact Hn|exact I].
  - destruct s as [|d s].
    + change (ahead ([ch ">"] ++ [])); eapply ah_token, (th_prefix _ TGreater (lit ">&")); cbn; tauto.
    + destruct (N.eq_dec d (ch ">")) as [->|Hd]; [|destruct (N.eq_dec d (ch "&")) as [->|Hd2]].
      * change (ahead (lit ">>" ++ s)). eapply ah_token, th_double; in_list.
      * change (ahead (lit ">&" ++ s)). eapply ah_token, th_double; in_list.
      * change (ahead ([ch ">"] ++ d :: s)); eapply ah_token, (th_prefix _ TGreater (lit ">&")); [cbn; tauto|].
        cbn in *; intuition congruence.
  - destruct s as [|d s].
    + change (ahead ([ch "<"] ++ [])); eapply ah_token, (th_prefix _ TLess (lit "<&")); cbn; tauto.
    + destruct (N.eq_dec d (ch "<")) as [->|Hd]; [|destruct (N.eq_dec d (ch "&")) as [->|Hd2]].
      * change (ahead (lit "<<" ++ s)). eapply ah_token, th_double; in_list.
      * change (ahead (lit "<&" ++ s)). eapply ah_token, th_double; in_list.
      * change (ahead ([ch "<"] ++ d :: s)); eapply ah_token, (th_prefix _ TLess (lit "<&")); [cbn; tauto|].
        cbn in *; intuition congruence.
  - apply (quoted_ahead (lit """") (ch """")); cbn; tauto.
  - apply (quoted_ahead (lit "'") (ch "'")); cbn; tauto.
  - destruct Hc as [Hc Hn]. destruct (split_run word_char word_char_dec s) as (w & r & -> & Hw & Hr).
    change (ahead ((c :: w) ++ r)). eapply ah_token, th_word; try eassumption.
    apply word_tok_iff. reflexivity.
  - constructor; exact Hc.
  - apply ah_error.
Qed.

Lemma scans_total s : forall p, exists is, scans p s is (p + blen s) [].
Proof.
  induction s as [s IH] using (induction_ltof1 _ (@List.length char)). unfold ltof in IH. intros p.
  destruct (ahead_all s) as [|c s Hc|body s Hb Hs|text s t len Ht|s].
  - exists []. cbn. rewrite Nat.add_0_r. constructor.
  - destruct (IH s ltac:(cbn; lia) (p + len_utf8 c)) as (is & H). exists is.
    cbn [blen]. rewrite Nat.add_assoc. constructor; assumption.
  - destruct (IH s ltac:(cbn [List.length]; rewrite app_length; lia) (p + S (blen body))) as (is & H). exists is.
    cbn [blen]. rewrite blen_app. change (len_utf8 (ch "#")) with 1.
    replace (p + (1 + (blen body + blen s))) with (p + S (blen body) + blen s) by lia.
    constructor; assumption.
  - pose proof (token_here_nonempty _ _ _ _ Ht) as Hne.
    destruct (IH s ltac:(rewrite app_length; destruct text; [congruence|cbn; lia]) (p + blen text)) as (is & H).
    exists (IOk p t (p + len) :: is). rewrite blen_app, Nat.add_assoc. constructor; assumption.
  - destruct (IH s ltac:(cbn; lia) (p + 1)) as (is & H). exists (IErr p (ch "*") (p + 1) :: is).
    cbn [blen]. change (len_utf8 (ch "*")) with 1. rewrite Nat.add_assoc. constructor; assumption.
Qed.

Lemma stream_total s : exists is, stream s is.
Proof.
  destruct (scans_total s 0) as (ts & H). exists (ts ++ [IOk 0 TEOF 0]), ts. split; [exact H|reflexivity].
Qed.

Lemma stream_lex s is : stream s is -> lex s = DDone is (mk true s (blen s) []).
Proof.
  intros (ts & H & ->). unfold lex. rewrite lexer_new_mk.
  pose proof (scans_length _ _ _ _ _ H) as Hl. cbn [List.length] in Hl.
  replace (S (S (List.length s))) with (List.length ts + S (S (List.length s - List.length ts))) by lia.
  pose proof (scans_drain _ _ _ _ _ H (S (S (List.length s - List.length ts))) [] eq_refl) as Hd.
  cbn [app] in Hd. rewrite Hd.
  cbn [drain]. rewrite next_item_eof, next_item_end. reflexivity.
Qed.

(** The model computes exactly the specified stream. *)
Theorem lex_iff s is : stream s is <-> lex s = DDone is (mk true s (blen s) []).
Proof.
  split; [apply stream_lex|].
  intros H. destruct (stream_total s) as (is' & H'). pose proof (stream_lex s is' H') as E.
  rewrite H in E. injection E as ->. exact H'.
Qed.

Lemma stream_det s is is' : stream s is -> stream s is' -> is = is'.
Proof. intros H H'. apply stream_lex in H. apply stream_lex in H'. congruence. Qed.
