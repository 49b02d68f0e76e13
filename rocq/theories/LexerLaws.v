(** Laws of tokenisation derived from the refinement of [LexerFacts]. *)
From Verif Require Import Base BaseFacts Lexer LexerSpec LexerFacts.

Lemma scans_app p s is q r is2 q2 r2 :
  scans p s is q r -> scans q r is2 q2 r2 -> scans p s (is ++ is2) q2 r2.
Proof. induction 1; intros H2; cbn; [exact H2|constructor; solve [auto]..]. Qed.

Lemma scans_shift p s is q r : scans p s is q r -> forall p',
  exists is' q', scans p' s is' q' r /\ map strip is' = map strip is.
Proof.
  induction 1 as [p s|p c s is q r Hb _ IH|p body s is q r Hb Hs _ IH
                 |p text s t len is q r Ht _ IH|p s is q r _ IH]; intros p'.
  - exists [], p'; split; [constructor|reflexivity].
  - destruct (IH (p' + len_utf8 c)) as (is' & q' & H & E). exists is', q'; split; [constructor; assumption|exact E].
  - destruct (IH (p' + S (blen body))) as (is' & q' & H & E). exists is', q'; split; [constructor; assumption|exact E].
  - destruct (IH (p' + blen text)) as (is' & q' & H & E).
    exists (IOk p' t (p' + len) :: is'), q'; split; [constructor; assumption|cbn; rewrite E; reflexivity].
  - destruct (IH (p' + 1)) as (is' & q' & H & E).
    exists (IErr p' (ch "*") (p' + 1) :: is'), q'; split; [constructor; assumption|cbn; rewrite E; reflexivity].
Qed.

Lemma scans_end_pos p s is q : scans p s is q [] -> q = p + blen s.
Proof. intros H. apply scans_split in H as (t & -> & ->). rewrite app_nil_r; reflexivity. Qed.

Fixpoint all_some {A} (l : list (option A)) : option (list A) :=
  match l with
  | [] => Some []
  | Some a :: l' => match all_some l' with Some r => Some (a :: r) | None => None end
  | None :: _ => None
  end.

Lemma ok_tokens_strip is : ok_tokens is = all_some (map strip is).
Proof. induction is as [|[? ? ?|? ? ?] is IH]; cbn; rewrite ?IH; reflexivity. Qed.

Lemma all_some_app {A} (a b : list (option A)) :
  all_some (a ++ b) = match all_some a, all_some b with Some x, Some y => Some (x ++ y) | _, _ => None end.
Proof.
  induction a as [|[x|] a IH]; cbn; [destruct (all_some b); reflexivity| |reflexivity].
  rewrite IH. destruct (all_some a), (all_some b); reflexivity.
Qed.

Lemma tokens_stream s is : stream s is -> tokens s = ok_tokens is.
Proof. intros H. unfold tokens. rewrite (stream_lex _ _ H). reflexivity. Qed.

(** Reading a prefix up to a token boundary, then the rest. *)
Lemma tokens_scan s is q r : scans 0 s is q r ->
  tokens s = match ok_tokens is, tokens r with Some a, Some b => Some (a ++ b) | _, _ => None end.
Proof.
  intros H. destruct (scans_total r q) as (is2 & H2).
  assert (Hs : stream s ((is ++ is2) ++ [IOk 0 TEOF 0])).
  { exists (is ++ is2). split; [|reflexivity].
    pose proof (scans_app _ _ _ _ _ _ _ _ H H2) as H3.
    pose proof (scans_end_pos _ _ _ _ H3) as E. cbn in E. rewrite E in H3. exact H3. }
  destruct (scans_shift _ _ _ _ _ H2 0) as (is3 & q3 & H3 & E3).
  assert (Hr : stream r (is3 ++ [IOk 0 TEOF 0])).
  { exists is3. split; [|reflexivity]. pose proof (scans_end_pos _ _ _ _ H3) as E. cbn in E. rewrite E in H3. exact H3. }
  rewrite (tokens_stream _ _ Hs), (tokens_stream _ _ Hr), !ok_tokens_strip, !map_app, E3.
  rewrite <- app_assoc. rewrite all_some_app. reflexivity.
Qed.

Lemma tokens_one text rest t len : token_here text rest t len ->
  tokens (text ++ rest) = option_map (cons t) (tokens rest).
Proof.
  intros H. rewrite (tokens_scan (text ++ rest) [IOk 0 t (0 + len)] (0 + blen text) rest).
  - cbn. destruct (tokens rest); reflexivity.
  - constructor; [exact H|constructor].
Qed.

(** ** C01 *)
Lemma scans_no_eof p s is q r : scans p s is q r -> Forall (fun i => strip i <> Some TEOF) is.
Proof.
  induction 1 as [| | |p text s t len is q r Ht _ IH|]; try assumption; constructor; try assumption.
  - cbn. intros E; injection E as ->. eapply token_here_not_eof; exact Ht.
  - discriminate.
Qed.

Lemma lex_total s : exists is lx,
  lex s = DDone (is ++ [IOk 0 TEOF 0]) lx /\
  Forall (fun i => strip i <> Some TEOF) is /\
  next_item lx = SEnd lx.
Proof.
  destruct (stream_total s) as (is & H). pose proof (stream_lex _ _ H) as E.
  destruct H as (ts & H & ->). exists ts, (mk true s (blen s) []). split; [exact E|]. split.
  - eapply scans_no_eof; exact H.
  - apply next_item_end.
Qed.

(** ** C02 *)
Lemma token_here_source text rest t len : token_here text rest t len -> source t text.
Proof.
  destruct 1; try (econstructor; eassumption).
  - match goal with Hw : word_token _ _ _ |- _ => inversion Hw; subst end; econstructor; eassumption.
Qed.

Lemma token_here_len text rest t len : token_here text rest t len ->
  1 <= len <= blen text /\ (forall w, t = TWord w -> text = w /\ len = blen text).
Proof.
  intros H. pose proof (token_here_nonempty _ _ _ _ H) as Hne.
  assert (1 <= blen text) by (pose proof (blen_length text); destruct text; [congruence|cbn in *; lia]).
  destruct H; split; try lia; intros w' E;
    try discriminate; try (injection E as <-; split; reflexivity);
    try (exfalso; subst t; match goal with Hi : In _ _ |- _ => cbn in Hi; decompose [or] Hi; congruence end).
  subst t. match goal with Hw : word_token _ _ _ |- _ => inversion Hw; subst end.
  - exfalso; match goal with Hi : In _ reserved |- _ => cbn in Hi; decompose [or] Hi; congruence end.
  - split; reflexivity.
Qed.

Lemma scans_spans p s is q r : scans p s is q r -> forall pre, blen pre = p ->
  Forall (item_span_ok (pre ++ s)) is.
Proof.
  induction 1 as [p s|p c s is q r Hb _ IH|p body s is q r Hb Hs _ IH
                 |p text s t len is q r Ht _ IH|p s is q r _ IH]; intros pre Hp.
  - constructor.
  - specialize (IH (pre ++ [c])). rewrite <- app_assoc in IH. apply IH. rewrite blen_app; cbn; lia.
  - specialize (IH (pre ++ ch "#" :: body)). rewrite <- app_assoc in IH. apply IH.
    rewrite blen_app; cbn; lia.
  - destruct (token_here_len _ _ _ _ Ht) as [Hl Hw].
    constructor.
    + split; [cbn; rewrite !blen_app; lia|]. exists pre, text, s. split; [reflexivity|]. split; [exact Hp|].
      split; [eapply token_here_source; exact Ht|]. split; [lia|].
      intros w E. destruct (Hw w E) as [-> ->]. subst p. apply slice_app.
    + specialize (IH (pre ++ text)). rewrite <- app_assoc in IH. apply IH. rewrite blen_app; lia.
  - constructor.
    + split; [cbn; rewrite !blen_app; cbn; lia|]. exists pre, [ch "*"], s. cbn. auto.
    + specialize (IH (pre ++ [ch "*"])). rewrite <- app_assoc in IH. apply IH. rewrite blen_app; cbn; lia.
Qed.

Lemma scans_ordered p s is q r : scans p s is q r ->
  Forall (fun i => p <= istart i /\ istop i <= q) is /\
  ForallOrdPairs (fun i j => istop i <= istart j) is.
Proof.
  induction 1 as [p s|p c s is q r Hb _ [IH1 IH2]|p body s is q r Hb Hs _ [IH1 IH2]
                 |p text s t len is q r Ht Hsc [IH1 IH2]|p s is q r Hsc [IH1 IH2]].
  - split; constructor.
  - split; [|exact IH2]. eapply Forall_impl; [|exact IH1]. cbn; intros; lia.
  - split; [|exact IH2]. eapply Forall_impl; [|exact IH1]. cbn; intros; lia.
  - destruct (token_here_len _ _ _ _ Ht) as [Hl _].
    apply scans_split in Hsc as (u & -> & ->).
    split.
    + constructor; [cbn; lia|]. eapply Forall_impl; [|exact IH1]. cbn; intros; lia.
    + constructor; [|exact IH2]. eapply Forall_impl; [|exact IH1]. cbn; intros; lia.
  - apply scans_split in Hsc as (u & -> & ->). split.
    + constructor; [cbn; lia|]. eapply Forall_impl; [|exact IH1]. cbn; intros; lia.
    + constructor; [|exact IH2]. eapply Forall_impl; [|exact IH1]. cbn; intros; lia.
Qed.

Lemma lex_spans s is lx : lex s = DDone is lx ->
  exists ts, is = ts ++ [IOk 0 TEOF 0] /\
    Forall (item_span_ok s) ts /\ ForallOrdPairs (fun i j => istop i <= istart j) ts.
Proof.
  intros H. destruct (stream_total s) as (is' & H'). pose proof (stream_lex _ _ H') as E.
  rewrite H in E. injection E as -> _. destruct H' as (ts & Hs & ->). exists ts.
  split; [reflexivity|]. split.
  - exact (scans_spans _ _ _ _ _ Hs [] eq_refl).
  - exact (proj2 (scans_ordered _ _ _ _ _ Hs)).
Qed.

(** ** C03 *)
Lemma covers_gap_blank p c s is : blank c -> covers (p + len_utf8 c) s is -> covers p (c :: s) is.
Proof.
  intros Hb H. inversion H as [p' g Hg|p' g src s' t stop is' Hg Hne Hsrc Hc|p' g d s' stop is' Hg Hw Hbl Hc]; subst.
  - apply cov_end. constructor; assumption.
  - change (c :: g ++ src ++ s') with ((c :: g) ++ src ++ s').
    replace (p + len_utf8 c + blen g) with (p + blen (c :: g)) in * by (cbn; lia).
    apply cov_token; [constructor; assumption|assumption..].
  - change (c :: g ++ d :: s') with ((c :: g) ++ d :: s').
    replace (p + len_utf8 c + blen g) with (p + blen (c :: g)) in * by (cbn; lia).
    apply cov_error; [constructor; assumption|assumption..].
Qed.

Lemma covers_gap_comment p body s is : ~ In newline body -> not_before (fun c => c <> newline) s ->
  covers (p + S (blen body)) s is -> covers p (ch "#" :: body ++ s) is.
Proof.
  intros Hb Hs H. inversion H as [p' g Hg|p' g src s' t stop is' Hg Hne Hsrc Hc|p' g d s' stop is' Hg Hw Hbl Hc]; subst.
  - apply cov_end. apply gap_comment; try assumption. rewrite app_nil_r; exact Hs.
  - replace (ch "#" :: body ++ g ++ src ++ s') with ((ch "#" :: body ++ g) ++ src ++ s')
      by (cbn; rewrite <- app_assoc; reflexivity).
    replace (p + S (blen body) + blen g) with (p + blen (ch "#" :: body ++ g)) in *
      by (cbn [blen]; rewrite blen_app; change (len_utf8 (ch "#")) with 1; lia).
    apply cov_token; [constructor; assumption|assumption..].
  - replace (ch "#" :: body ++ g ++ d :: s') with ((ch "#" :: body ++ g) ++ d :: s')
      by (cbn; rewrite <- app_assoc; reflexivity).
    replace (p + S (blen body) + blen g) with (p + blen (ch "#" :: body ++ g)) in *
      by (cbn [blen]; rewrite blen_app; change (len_utf8 (ch "#")) with 1; lia).
    apply cov_error; [constructor; assumption|assumption..].
Qed.

Lemma scans_covers p s is q r : scans p s is q r -> r = [] -> covers p s (is ++ [IOk 0 TEOF 0]).
Proof.
  induction 1 as [p s|p c s is q r Hb _ IH|p body s is q r Hb Hs _ IH
                 |p text s t len is q r Ht _ IH|p s is q r _ IH]; intros ->.
  - apply cov_end; constructor.
  - apply covers_gap_blank; auto.
  - apply covers_gap_comment; auto.
  - specialize (IH eq_refl).
    pose proof (cov_token p [] text s t (p + len) (is ++ [IOk 0 TEOF 0])) as Hc. cbn in Hc.
    rewrite Nat.add_0_r in Hc. apply Hc; [constructor|eapply token_here_nonempty; exact Ht
                                         |eapply token_here_source; exact Ht|exact IH].
  - specialize (IH eq_refl).
    pose proof (cov_error p [] (ch "*") s (p + 1) (is ++ [IOk 0 TEOF 0])) as Hc.
    cbn [blen app] in Hc. rewrite Nat.add_0_r in Hc. apply Hc; [constructor| | |exact IH].
    + intros [Hm _]; apply Hm; cbn; tauto.
    + intros [Hb _]; discriminate.
Qed.

Lemma lex_covers s is lx : lex s = DDone is lx -> covers 0 s is.
Proof.
  intros H. destruct (stream_total s) as (is' & H'). pose proof (stream_lex _ _ H') as E.
  rewrite H in E. injection E as -> _. destruct H' as (ts & Hs & ->).
  eapply scans_covers; [exact Hs|reflexivity].
Qed.

(** ** C04 *)
Lemma tokens_quoted o c body rest : In (o, c) quotes -> ~ In c body ->
  tokens (o ++ body ++ c :: rest) = option_map (cons (TWord (o ++ body ++ [c]))) (tokens rest).
Proof.
  intros Ho Hb. rewrite <- (tokens_one _ _ _ _ (th_quoted o c body rest Ho Hb)).
  f_equal. rewrite <- !app_assoc. reflexivity.
Qed.

Lemma tokens_unterminated o c body : In (o, c) quotes -> ~ In c body ->
  tokens (o ++ body) = Some [TWord (o ++ body); TEOF].
Proof.
  intros Ho Hb. rewrite <- (app_nil_r (o ++ body)) at 1.
  rewrite (tokens_one _ _ _ _ (th_unterminated o c body Ho Hb)). reflexivity.
Qed.

(** ** C05 *)
Lemma tokens_blanks bl s : Forall blank bl -> tokens (bl ++ s) = tokens s.
Proof.
  intros H. assert (Hs : forall p, scans p (bl ++ s) [] (p + blen bl) s).
  { clear -H. induction H as [|c bl Hc Hb IH]; intros p; cbn [app blen].
    - rewrite Nat.add_0_r; constructor.
    - rewrite Nat.add_assoc. constructor; [exact Hc|apply IH]. }
  rewrite (tokens_scan _ _ _ _ (Hs 0)). cbn. destruct (tokens s); reflexivity.
Qed.

Lemma tokens_comment body s : ~ In newline body -> not_before (fun c => c <> newline) s ->
  tokens (ch "#" :: body ++ s) = tokens s.
Proof.
  intros Hb Hs. rewrite (tokens_scan _ [] (0 + S (blen body)) s).
  - cbn. destruct (tokens s); reflexivity.
  - constructor; [assumption..|constructor].
Qed.

Lemma tokens_newlines nls s : nls <> [] -> Forall (eq newline) nls -> not_before (eq newline) s ->
  tokens (nls ++ s) = option_map (cons TNewlineList) (tokens s).
Proof. intros Hn Hf Hs. apply (tokens_one nls s TNewlineList 1). constructor; assumption. Qed.

Lemma redirect_follows_head c r r' : redirect_follows (c :: r) <-> redirect_follows (c :: r').
Proof. rewrite !redirect_follows_cons. reflexivity. Qed.

Lemma token_here_head text c r r' t len :
  token_here text (c :: r) t len -> token_here text (c :: r') t len.
Proof.
  intros H. remember (c :: r) as rest eqn:E. destruct H; subst.
  - apply th_newlines; assumption.
  - apply th_simple; assumption.
  - apply th_double; assumption.
  - eapply th_prefix; eassumption.
  - injection E as <- _. apply th_dollar.
  - apply th_quoted; assumption.
  - discriminate.
  - apply th_word; try assumption.
    match goal with Hw : word_token _ _ _ |- _ => inversion Hw as [?|? ? Hf|? Hf]; subst end.
    + apply wt_reserved; assumption.
    + apply wt_number; [assumption| |assumption]. eapply redirect_follows_head; exact Hf.
    + apply wt_word; [assumption|]. destruct Hf as [Hf|Hf]; [left|right; exact Hf].
      intros Hr; apply Hf. eapply redirect_follows_head; exact Hr.
  - apply th_dollar_word; try assumption. destruct w; [cbn in *; assumption|cbn in *; assumption].
Qed.

Lemma newline_token text rest len : token_here text rest TNewlineList len ->
  text <> [] /\ Forall (eq newline) text.
Proof.
  intros H. inversion H; subst;
    try (exfalso; match goal with Hi : In _ _ |- _ => cbn in Hi; decompose [or] Hi; congruence end).
  - split; assumption.
  - match goal with Hw : word_token _ _ _ |- _ => inversion Hw; subst end.
    exfalso; match goal with Hi : In _ reserved |- _ => cbn in Hi; decompose [or] Hi; congruence end.
Qed.

Lemma app_snoc_cases {A} (text s a : list A) x :
  text ++ s = a ++ [x] ->
  (s = [] /\ text = a ++ [x]) \/ (exists a', a = text ++ a' /\ s = a' ++ [x]).
Proof.
  intros E. destruct s as [|y s].
  - left; split; [reflexivity|]. rewrite app_nil_r in E; exact E.
  - right. destruct (@exists_last _ (y :: s) ltac:(discriminate)) as (s' & z & Es).
    rewrite Es in *. rewrite app_assoc in E. apply app_inj_tail in E as [E ->].
    exists s'; split; [symmetry; exact E|reflexivity].
Qed.

Lemma scans_nil_items p is q r : scans p [] is q r -> is = [].
Proof.
  intros H. inversion H as [| | |p' text s t len is' q' r' Ht Hs|]; subst; [reflexivity|].
  apply token_here_nonempty in Ht. destruct text; [congruence|discriminate].
Qed.

Lemma scans_skip_newline p s is q r : scans p s is q r -> is = [] -> In newline s -> In newline r.
Proof.
  induction 1 as [p s|p c s is q r Hb _ IH|p body s is q r Hb Hs Hsc IH| |]; intros E Hi; try discriminate.
  - exact Hi.
  - apply IH; [exact E|]. destruct Hi as [->|Hi]; [destruct Hb as [_ Hb]; congruence|exact Hi].
  - apply IH; [exact E|]. destruct Hi as [Hi|Hi]; [discriminate|].
    apply in_app_or in Hi as [Hi|Hi]; [contradiction|exact Hi].
Qed.

(** A line that ends in a newline token reads the same whatever follows. *)
Lemma scans_line p s is q r : scans p s is q r -> r = [] -> forall a is' x y,
  s = a ++ [newline] -> is = is' ++ [IOk x TNewlineList y] ->
  exists a1 nls, a = a1 ++ nls /\ Forall (eq newline) nls /\
    forall b, scans p (a ++ newline :: b) is' x (nls ++ newline :: b).
Proof.
  induction 1 as [p s|p c s is q r Hb _ IH|p body s is q r Hb Hs Hsc IH
                 |p text s t len is q r Ht Hsc IH|p s is q r Hsc IH]; intros -> a is' x y Ea Ei.
  - destruct is'; discriminate.
  - destruct a as [|d a]; cbn in Ea; injection Ea as -> Es.
    + destruct Hb as [_ Hb]; congruence.
    + destruct (IH eq_refl a is' x y Es Ei) as (a1 & nls & -> & Hn & H).
      exists (d :: a1), nls. repeat split; try assumption. intros b. cbn. constructor; [exact Hb|apply H].
  - destruct s as [|d s].
    + apply scans_nil_items in Hsc. subst is. destruct is'; discriminate.
    + change (ch "#" :: body ++ d :: s) with ((ch "#" :: body) ++ d :: s) in Ea.
      apply app_snoc_cases in Ea as [[E _]|(a' & -> & E)]; [discriminate|].
      destruct (IH eq_refl a' is' x y E Ei) as (a1 & nls & -> & Hn & H).
      exists ((ch "#" :: body) ++ a1), nls. split; [rewrite <- app_assoc; reflexivity|]. split; [exact Hn|].
      intros b. rewrite <- app_assoc. cbn [app]. constructor; [exact Hb| |apply H].
      destruct (a1 ++ nls) as [|e l]; cbn in *.
      * intros Hd; apply Hd; reflexivity.
      * injection E as -> _. exact Hs.
  - apply app_snoc_cases in Ea as [[-> ->]|(a' & -> & ->)].
    + apply scans_nil_items in Hsc. subst is.
      destruct is' as [|i is']; [|destruct is'; discriminate]. injection Ei as -> -> _.
      apply newline_token in Ht as [_ Hf]. apply Forall_app in Hf as [Hf _].
      exists [], a. repeat split; [exact Hf|]. intros b. constructor.
    + destruct is' as [|i is'].
      { exfalso. injection Ei as _ _ _ ->.
        apply (scans_skip_newline _ _ _ _ _ Hsc eq_refl). apply in_or_app; right; left; reflexivity. }
      injection Ei as <- ->.
      destruct (IH eq_refl a' is' x y eq_refl eq_refl) as (a1 & nls & -> & Hn & H).
      exists (text ++ a1), nls. split; [rewrite <- app_assoc; reflexivity|]. split; [exact Hn|].
      intros b. rewrite <- app_assoc. constructor; [|apply H].
      destruct (a1 ++ nls) as [|e l]; cbn [app] in *; eapply token_here_head; exact Ht.
  - destruct a as [|d a]; cbn in Ea; injection Ea as E Es; [discriminate|]. subst d.
    destruct is' as [|i is']; [discriminate|]. injection Ei as <- ->.
    destruct (IH eq_refl a is' x y Es eq_refl) as (a1 & nls & -> & Hn & H).
    exists (ch "*" :: a1), nls. repeat split; try assumption. intros b. cbn. apply sc_error, H.
Qed.

Lemma all_some_snoc {A} (l : list (option A)) ta x :
  all_some l = Some (ta ++ [x]) -> exists l', l = l' ++ [Some x] /\ all_some l' = Some ta.
Proof.
  revert ta. induction l as [|[y|] l IH]; intros ta H; cbn in H; try discriminate.
  - destruct ta; discriminate.
  - destruct (all_some l) as [r|] eqn:E; [|discriminate]. injection H as H.
    destruct ta as [|z ta]; cbn in H.
    + injection H as -> ->. destruct l as [|[|] l]; cbn in E; try discriminate.
      * exists []; split; reflexivity.
      * destruct (all_some l); discriminate.
    + injection H as -> ->. destruct (IH ta eq_refl) as (l' & -> & E').
      exists (Some z :: l'); cbn. rewrite E'. split; reflexivity.
Qed.

Lemma tokens_line a b ta :
  tokens (a ++ [newline]) = Some (ta ++ [TNewlineList; TEOF]) ->
  tokens (a ++ newline :: b) = option_map (app ta) (tokens (newline :: b)).
Proof.
  intros H. destruct (stream_total (a ++ [newline])) as (is & Hs).
  rewrite (tokens_stream _ _ Hs) in H. destruct Hs as (ts & Hs & ->).
  rewrite ok_tokens_strip, map_app in H. cbn in H.
  change (ta ++ [TNewlineList; TEOF]) with (ta ++ [TNewlineList] ++ [TEOF]) in H. rewrite app_assoc in H.
  apply all_some_snoc in H as (l' & El & H).
  apply app_inj_tail in El as [El _]. subst l'.
  apply all_some_snoc in H as (l2 & El & H).
  assert (exists ts' i, ts = ts' ++ [i] /\ strip i = Some TNewlineList /\ map strip ts' = l2) as (ts' & i & -> & Ei & El2).
  { destruct (@exists_last _ ts) as (ts' & i & ->); [intros ->; destruct l2; discriminate|].
    rewrite map_app in El. apply app_inj_tail in El as [E1 E2]. exists ts', i. auto. }
  destruct i as [x t y|]; [|discriminate]. injection Ei as ->.
  destruct (scans_line _ _ _ _ _ Hs eq_refl a ts' x y eq_refl eq_refl) as (a1 & nls & _ & Hn & Hb).
  rewrite (tokens_scan _ _ _ _ (Hb b)), ok_tokens_strip, El2, H.
  (* a run of newlines in front of a newline is the same token *)
  assert (En : tokens (nls ++ newline :: b) = tokens (newline :: b)).
  { destruct (split_run (eq newline) (N.eq_dec newline) b) as (w & r & -> & Hw & Hr).
    replace (nls ++ newline :: w ++ r) with ((nls ++ newline :: w) ++ r) by (rewrite <- app_assoc; reflexivity).
    rewrite tokens_newlines; [|destruct nls; discriminate| |exact Hr].
    - change (newline :: w ++ r) with ((newline :: w) ++ r).
      rewrite tokens_newlines; [reflexivity|discriminate|constructor; auto|exact Hr].
    - apply Forall_app; split; [exact Hn|constructor; auto]. }
  rewrite En. destruct (tokens (newline :: b)); reflexivity.
Qed.

(** ** C06, C07 *)
Lemma lex_first text rest t len : token_here text rest t len ->
  exists is lx, lex (text ++ rest) = DDone (IOk 0 t len :: is) lx.
Proof.
  intros H. destruct (scans_total rest (0 + blen text)) as (is & Hs).
  assert (Hst : stream (text ++ rest) ((IOk 0 t (0 + len) :: is) ++ [IOk 0 TEOF 0])).
  { eexists; split; [|reflexivity]. rewrite blen_app. constructor; assumption. }
  apply stream_lex in Hst. cbn [app] in Hst. eauto.
Qed.

Lemma word_run_here w rest t : word_run w rest -> word_token w rest t -> token_here w rest t (blen w).
Proof. destruct w as [|c w]; [intros []|]. intros (Hc & Hn & Hw & Hr) Ht. apply th_word; assumption. Qed.

Lemma lex_word_run w rest t : word_run w rest ->
  (exists is lx, lex (w ++ rest) = DDone (IOk 0 t (blen w) :: is) lx) <-> word_token w rest t.
Proof.
  intros Hw. split.
  - intros (is & lx & H). pose proof (proj2 (word_tok_iff w rest _) eq_refl) as Ht.
    destruct (lex_first _ _ _ _ (word_run_here _ _ _ Hw Ht)) as (is' & lx' & H').
    rewrite H in H'. injection H' as -> _ _. exact Ht.
  - intros Ht. exact (lex_first _ _ _ _ (word_run_here _ _ _ Hw Ht)).
Qed.

Lemma tokens_word_run w rest t : word_run w rest -> word_token w rest t ->
  tokens (w ++ rest) = option_map (cons t) (tokens rest).
Proof. intros Hw Ht. exact (tokens_one _ _ _ _ (word_run_here _ _ _ Hw Ht)). Qed.

Lemma reserved_not_numeral w t n : In (w, t) reserved -> ~ numeral w n.
Proof.
  intros H Hn. apply parse_i32_iff in Hn. cbn in H.
  repeat match type of H with _ \/ _ => destruct H as [H|H] | False => destruct H end;
    pose proof (f_equal fst H) as E; cbn [fst] in E; subst w; discriminate Hn.
Qed.

Lemma reserved_dec w : (exists t, In (w, t) reserved) \/ (forall t, ~ In (w, t) reserved).
Proof.
  destruct (in_dec str_eq_dec w (map fst reserved)) as [H|H].
  - left. apply in_map_iff in H as ((w', t) & <- & Hi). exists t; exact Hi.
  - right. intros t Hi. apply H. apply in_map_iff. exists (w, t); split; [reflexivity|exact Hi].
Qed.

Lemma word_token_reserved w rest t : In t (map snd reserved) ->
  word_token w rest t <-> In (w, t) reserved.
Proof.
  intros Ht. split; [|apply wt_reserved].
  intros H; inversion H; subst; try assumption;
    exfalso; cbn in Ht; decompose [or] Ht; congruence.
Qed.

Lemma word_token_number w rest n :
  word_token w rest (TNumber n) <-> redirect_follows rest /\ numeral w n.
Proof.
  split.
  - intros H; inversion H; subst; [exfalso|split; assumption].
    match goal with Hi : In _ reserved |- _ => cbn in Hi; decompose [or] Hi; congruence end.
  - intros [Hr Hn]. apply wt_number; try assumption.
    intros t Hi. eapply reserved_not_numeral; eassumption.
Qed.

Lemma word_token_word w rest x :
  word_token w rest (TWord x) <->
  x = w /\ (forall t, ~ In (w, t) reserved) /\ ~ (redirect_follows rest /\ exists n, numeral w n).
Proof.
  split.
  - intros H; inversion H as [? Hi|?|Hr Hc]; subst.
    + exfalso. cbn in Hi; decompose [or] Hi; congruence.
    + split; [reflexivity|]. split; [assumption|]. intros [Hf (n & Hn)].
      destruct Hc as [Hc|Hc]; [contradiction|exact (Hc n Hn)].
  - intros (-> & Hr & Hn). apply wt_word; [exact Hr|].
    destruct (numeral_dec w) as [Hd|Hd]; [left|right; exact Hd]. intros Hf; apply Hn; split; assumption.
Qed.

(** ** C08 *)
Lemma spaced_head ws s : spaced ws s -> (ws <> [] -> match s with [] => False | c :: _ => blank c end) ->
  s = [] \/ exists c r, s = c :: r /\ is_whitespace c = true.
Proof.
  intros H Hb. inversion H as [bl Hf|bl w ws' s' Hf Hw Hs Hn]; subst.
  - inversion Hf as [|? ? [Hx _]]; subst; [left; reflexivity|right; eauto].
  - right. specialize (Hb ltac:(discriminate)). destruct (bl ++ w ++ s') as [|c r]; [contradiction|].
    destruct Hb as [Hb _]. eauto.
Qed.

Lemma written_word_here w s : written_word w ->
  s = [] \/ (exists c r, s = c :: r /\ is_whitespace c = true) ->
  token_here w s (TWord w) (blen w).
Proof.
  intros Hw Hs.
  assert (Hnb : not_before word_char s).
  { destruct Hs as [->|(c & r & -> & Hc)]; cbn; [exact I|intros [_ Hx]; congruence]. }
  assert (Hnr : ~ redirect_follows s).
  { destruct Hs as [->|(c & r & -> & Hc)]; [intros (d & r & E & _); discriminate|].
    intros (d & r' & E & Hd). injection E as <- <-. destruct Hd as [-> | ->]; discriminate. }
  destruct Hw as [c w Hc Hn Hw Hr|w Hw|o c body Ho Hb].
  - apply th_word; try assumption. apply wt_word; [exact Hr|left; exact Hnr].
  - apply th_dollar_word; try assumption.
    destruct w as [|d w]; cbn.
    + destruct Hs as [->|(c & r & -> & Hc)]; cbn; [exact I|].
      intros [<-|[<-|[]]]; discriminate.
    + inversion Hw as [|? ? [Hd _] _]; subst. intros [<-|[<-|[]]]; apply Hd; cbn; tauto.
  - apply th_quoted; assumption.
Qed.

Lemma tokens_spaced ws s : spaced ws s -> tokens s = Some (map TWord ws ++ [TEOF]).
Proof.
  induction 1 as [bl Hb|bl w ws s Hb Hw Hs IH Hn].
  - rewrite <- (app_nil_r bl), tokens_blanks by exact Hb. reflexivity.
  - rewrite tokens_blanks by exact Hb.
    rewrite (tokens_one _ _ _ _ (written_word_here w s Hw (spaced_head _ _ Hs Hn))), IH. reflexivity.
Qed.
