(** Refusal of lines, and lines that read the same. *)
From Verif Require Import Base BaseFacts Lexer LexerSpec LexerFacts LexerLaws Ast Grammar Parser ParserFacts
  GrammarSpec GrammarFacts TextSpec GrammarShape.

Lemma parse_shape s v : parse s = Some v -> exists ts, tokens s = Some ts /\ shape may_begin closes_body ts.
Proof.
  unfold parse. destruct (tokens s) as [ts|]; [|discriminate]. intros H. exists ts. split; [reflexivity|].
  apply parse_tokens_sound in H. exact (GComplete_shape _ _ H).
Qed.

Lemma parse_same s s' : tokens s = tokens s' -> parse s = parse s'.
Proof. unfold parse. intros ->. reflexivity. Qed.

Lemma tokens_reading a rest is : reading a rest is ->
  tokens (a ++ rest) = match ok_tokens is, tokens rest with Some x, Some y => Some (x ++ y) | _, _ => None end.
Proof. intros [q H]. exact (tokens_scan _ _ _ _ H). Qed.

Lemma gap_scans g s : gap g s -> forall p, scans p (g ++ s) [] (p + blen g) s.
Proof.
  induction 1 as [s|c g s Hb Hg IH|body g s Hb Hn Hg IH]; intros p.
  - cbn. rewrite Nat.add_0_r. constructor.
  - cbn [app]. apply sc_blank; [exact Hb|]. specialize (IH (p + len_utf8 c)).
    replace (p + blen (c :: g)) with (p + len_utf8 c + blen g) by (cbn; lia). exact IH.
  - cbn [app]. rewrite <- app_assoc. apply sc_comment; [exact Hb|exact Hn|].
    specialize (IH (p + S (blen body))).
    replace (p + blen (ch "#" :: body ++ g)) with (p + S (blen body) + blen g); [exact IH|].
    cbn. rewrite blen_app. cbn. lia.
Qed.

Lemma tokens_gap g s : gap g s -> tokens (g ++ s) = tokens s.
Proof.
  intros H. rewrite (tokens_scan _ _ _ _ (gap_scans g s H 0)). cbn. destruct (tokens s); reflexivity.
Qed.

Lemma shape_first ts t : shape may_begin closes_body (t :: ts) -> may_begin t = true.
Proof. intros (_ & H & _). exact H. Qed.

(** A token in a line that is accepted follows something it may follow. *)
Lemma refused_token a u rest is t len : reading a (u ++ rest) is -> token_here u rest t len ->
  may_begin t = false -> (forall x, may_follow x t = false) -> parse (a ++ u ++ rest) = None.
Proof.
  intros Ha Ht Hb Hf. destruct (parse (a ++ u ++ rest)) as [v|] eqn:E; [exfalso|reflexivity].
  destruct (parse_shape _ _ E) as (ts & E1 & Hs). rewrite (tokens_reading _ _ _ Ha), (tokens_one _ _ _ _ Ht) in E1.
  destruct (ok_tokens is) as [x|]; [|discriminate]. destruct (tokens rest) as [y|]; [|discriminate].
  cbn in E1. injection E1 as <-. destruct x as [|x0 x] using rev_ind.
  - apply shape_first in Hs. congruence.
  - destruct Hs as (_ & _ & _ & Hc & _). rewrite <- app_assoc in Hc.
    pose proof (chain_pair _ x x0 t y Hc eq_refl). rewrite Hf in H. discriminate.
Qed.

Lemma refused_pair a u g v rest is x y l1 l2 : reading a (u ++ g ++ v ++ rest) is ->
  token_here u (g ++ v ++ rest) x l1 -> gap g (v ++ rest) -> token_here v rest y l2 ->
  may_follow x y = false -> parse (a ++ u ++ g ++ v ++ rest) = None.
Proof.
  intros Ha Hu Hg Hv Hf. destruct (parse (a ++ u ++ g ++ v ++ rest)) as [r|] eqn:E; [exfalso|reflexivity].
  destruct (parse_shape _ _ E) as (ts & E1 & Hs).
  rewrite (tokens_reading _ _ _ Ha), (tokens_one _ _ _ _ Hu), (tokens_gap _ _ Hg), (tokens_one _ _ _ _ Hv) in E1.
  destruct (ok_tokens is) as [b|]; [|discriminate]. destruct (tokens rest) as [c|]; [|discriminate].
  cbn in E1. injection E1 as <-. destruct Hs as (_ & _ & _ & Hc & _).
  pose proof (chain_pair _ b x y c Hc eq_refl). congruence.
Qed.

Lemma refused_last a u g is x l1 : reading a (u ++ g) is -> token_here u g x l1 -> gap g [] ->
  may_follow x TEOF = false -> parse (a ++ u ++ g) = None.
Proof.
  intros Ha Hu Hg Hf. destruct (parse (a ++ u ++ g)) as [r|] eqn:E; [exfalso|reflexivity].
  destruct (parse_shape _ _ E) as (ts & E1 & Hs).
  assert (Eg : tokens g = Some [TEOF]).
  { rewrite <- (app_nil_r g), (tokens_gap _ _ Hg). reflexivity. }
  rewrite (tokens_reading _ _ _ Ha), (tokens_one _ _ _ _ Hu), Eg in E1.
  destruct (ok_tokens is) as [b|]; [|discriminate]. cbn in E1. injection E1 as <-. destruct Hs as (_ & _ & _ & Hc & _).
  pose proof (chain_pair _ b x TEOF [] Hc eq_refl). congruence.
Qed.

Lemma refused_first g u rest t len : gap g (u ++ rest) -> token_here u rest t len -> may_begin t = false ->
  parse (g ++ u ++ rest) = None.
Proof.
  intros Hg Hu Hf. destruct (parse (g ++ u ++ rest)) as [r|] eqn:E; [exfalso|reflexivity].
  destruct (parse_shape _ _ E) as (ts & E1 & Hs). rewrite (tokens_gap _ _ Hg), (tokens_one _ _ _ _ Hu) in E1.
  destruct (tokens rest) as [c|]; [|discriminate]. cbn in E1. injection E1 as <-. apply shape_first in Hs. congruence.
Qed.

Lemma refused_star a rest is : reading a (ch "*" :: rest) is -> parse (a ++ ch "*" :: rest) = None.
Proof.
  intros Ha. unfold parse. rewrite (tokens_reading _ _ _ Ha).
  assert (E : tokens (ch "*" :: rest) = None).
  { rewrite (tokens_scan (ch "*" :: rest) [IErr 0 (ch "*") 1] 1 rest); [reflexivity|]. apply (sc_error 0). constructor. }
  rewrite E. destruct (ok_tokens is); reflexivity.
Qed.

Lemma braces_balanced s v ts : parse s = Some v -> tokens s = Some ts -> depth 0 ts = Some 0.
Proof.
  intros E E1. destruct (parse_shape _ _ E) as (ts' & E2 & Hs). destruct Hs as (_ & _ & _ & _ & H).
  replace ts with ts' by congruence. apply H.
Qed.

(** ** Words *)

Lemma scans_words ws rest : Forall written_word ws -> blank_start rest -> forall p,
  exists is q, scans p (r_words ws ++ rest) is q rest.
Proof.
  intros Hw Hr. induction Hw as [|w ws Hw _ IH]; intros p.
  - exists [], p. constructor.
  - unfold r_words. cbn [map List.concat]. change (List.concat (map (fun w => lit " " ++ w) ws)) with (r_words ws).
    rewrite <- !app_assoc. cbn [lit app].
    destruct (IH (p + 1 + blen w)) as (is & q & H).
    exists (IOk (p + 1) (TWord w) (p + 1 + blen w) :: is), q.
    apply sc_blank; [exact blank_space|]. change (len_utf8 32%N) with 1.
    apply sc_token; [|exact H]. apply written_word_here; [exact Hw|].
    destruct ws as [|w' ws]; [exact Hr|]. right. exists 32%N, (w' ++ r_words ws ++ rest). split; [|reflexivity].
    unfold r_words. cbn. rewrite <- app_assoc. reflexivity.
Qed.

Lemma reading_words ws rest : Forall written_word ws -> blank_start rest -> exists is, reading (r_words ws) rest is.
Proof. intros Hw Hr. destruct (scans_words ws rest Hw Hr 0) as (is & q & H). exists is, q. exact H. Qed.

Lemma r_words_app a b : r_words (a ++ b) = r_words a ++ r_words b.
Proof. unfold r_words. rewrite map_app, concat_app. reflexivity. Qed.

Lemma r_words_start ws rest : blank_start rest -> blank_start (r_words ws ++ rest).
Proof.
  intros H. destruct ws as [|w ws]; [exact H|]. right. exists 32%N. eexists. split; reflexivity.
Qed.

(** Reading up to a place does not depend on what comes after the next character. *)
Lemma scans_head p s is q e c r r' : scans p s is q e -> e = c :: r -> forall a, s = a ++ e -> scans p (a ++ c :: r') is q (c :: r').
Proof.
  intros H. induction H as [p s|p d s is q e Hb H IH|p body s is q e Hb Hs H IH|p text s t len is q e Ht H IH|p s is q e H IH];
    intros Ee a Es.
  - assert (a = []).
    { apply (f_equal (@List.length _)) in Es. rewrite app_length in Es. destruct a; [reflexivity|cbn in Es; lia]. }
    subst a. constructor.
  - destruct (scans_split _ _ _ _ _ H) as (b & Eb & _). subst s.
    change (d :: b ++ e) with ((d :: b) ++ e) in Es. apply app_inv_tail in Es. subst a.
    cbn [app]. apply sc_blank; [exact Hb|]. apply IH; auto.
  - destruct (scans_split _ _ _ _ _ H) as (b & Eb & _). subst s.
    change (ch "#" :: body ++ b ++ e) with ((ch "#" :: body) ++ b ++ e) in Es. rewrite app_assoc in Es.
    apply app_inv_tail in Es. subst a e.
    cbn [app]. rewrite <- app_assoc. apply sc_comment; [exact Hb| |apply IH; auto].
    destruct b; exact Hs.
  - destruct (scans_split _ _ _ _ _ H) as (b & Eb & _). subst s. rewrite app_assoc in Es. apply app_inv_tail in Es. subst a e.
    rewrite <- app_assoc. apply sc_token; [|apply IH; auto].
    destruct b as [|x b]; [exact (token_here_head _ _ _ r' _ _ Ht)|exact (token_here_head _ _ _ (b ++ c :: r') _ _ Ht)].
  - destruct (scans_split _ _ _ _ _ H) as (b & Eb & _). subst s.
    change (ch "*" :: b ++ e) with ((ch "*" :: b) ++ e) in Es. apply app_inv_tail in Es. subst a.
    cbn [app]. apply sc_error. apply IH; auto.
Qed.

Lemma reading_head a c r r' is : reading a (c :: r) is -> reading a (c :: r') is.
Proof. intros [q H]. exists q. exact (scans_head _ _ _ _ _ c r r' H eq_refl a eq_refl). Qed.

(** A blank that does not matter: after a token that reads the same with it. *)
Lemma blank_after a u v is t l l' : reading a (u ++ v) is ->
  token_here u v t l -> token_here u (lit " " ++ v) t l' ->
  tokens (a ++ u ++ v) = tokens (a ++ u ++ lit " " ++ v).
Proof.
  intros H1 T1 T2. pose proof (token_here_nonempty _ _ _ _ T1) as Hn. destruct u as [|c u]; [congruence|].
  pose proof (reading_head a c (u ++ v) (u ++ lit " " ++ v) is H1) as H2.
  rewrite (tokens_reading a ((c :: u) ++ v) is H1), (tokens_reading a ((c :: u) ++ lit " " ++ v) is H2).
  rewrite (tokens_one _ _ _ _ T1), (tokens_one _ _ _ _ T2).
  rewrite (tokens_blanks (lit " ") v) by (repeat constructor; discriminate). reflexivity.
Qed.
