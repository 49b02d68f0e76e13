(** Proofs about the grammar: rendering round trip, flat grouping, terminators. *)
From Verif Require Import Base BaseFacts Lexer LexerSpec LexerFacts LexerLaws Ast Grammar Parser ParserFacts GrammarSpec.
From Coq Require DecimalN DecimalPos DecimalFacts.

(** ** Induction on trees *)
Section TreeInd.
  Variables (P : and_or -> Prop) (Q : pipeline -> Prop) (R : command -> Prop).
  Hypothesis h_one : forall p, Q p -> P (AoOne p).
  Hypothesis h_more : forall l c p, P l -> Q p -> P (AoMore l c p).
  Hypothesis h_pl : forall b cs bg, Forall R cs -> Q (Pipeline b cs bg).
  Hypothesis h_simple : forall sc, R (CSimple sc).
  Hypothesis h_group : forall b, Forall P b -> R (CGroup b).
  Hypothesis h_fun : forall n b r, Forall P b -> R (CFunction n b r).

  Fixpoint ao_ind (a : and_or) : P a :=
    match a with
    | AoOne p => h_one p (pl_ind p)
    | AoMore l c p => h_more l c p (ao_ind l) (pl_ind p)
    end
  with pl_ind (p : pipeline) : Q p :=
    match p with
    | Pipeline b cs bg =>
        h_pl b cs bg ((fix go (l : list command) : Forall R l :=
          match l with [] => Forall_nil _ | c :: l' => Forall_cons _ (cmd_ind c) (go l') end) cs)
    end
  with cmd_ind (c : command) : R c :=
    match c with
    | CSimple sc => h_simple sc
    | CGroup b =>
        h_group b ((fix go (l : list and_or) : Forall P l :=
          match l with [] => Forall_nil _ | c :: l' => Forall_cons _ (ao_ind c) (go l') end) b)
    | CFunction n b r =>
        h_fun n b r ((fix go (l : list and_or) : Forall P l :=
          match l with [] => Forall_nil _ | c :: l' => Forall_cons _ (ao_ind c) (go l') end) b)
    end.

  Lemma tree_ind : (forall a, P a) /\ (forall p, Q p) /\ (forall c, R c).
  Proof. split; [exact ao_ind|split; [exact pl_ind|exact cmd_ind]]. Qed.
End TreeInd.

Lemma all_Forall {A} (f : A -> Prop) l : all (map f l) -> Forall f l.
Proof. induction l; cbn; [constructor|]. intros [H1 H2]; constructor; auto. Qed.

(** ** Reading rendered text *)

(** [text] reads as the tokens [ts] in front of anything starting with whitespace *)
Definition blank_start (s : str) : Prop := s = [] \/ exists c r, s = c :: r /\ is_whitespace c = true.
Definition reads (text : str) (ts : list token) : Prop :=
  forall rest, blank_start rest -> tokens (text ++ rest) = option_map (app ts) (tokens rest).
Definition piece (text : str) : Prop := blank_start text.

Lemma blank_space : blank 32%N. Proof. split; [reflexivity|discriminate]. Qed.

Lemma piece_cons s : piece (32%N :: s).
Proof. right. exists 32%N, s. split; [reflexivity|reflexivity]. Qed.
#[local] Hint Resolve piece_cons : core.

Lemma piece_app a b : piece a -> piece b -> piece (a ++ b).
Proof. intros [->|(c & r & -> & Hb)] H; [exact H|]. right; exists c, (r ++ b); auto. Qed.
Lemma piece_nil : piece []. Proof. left; reflexivity. Qed.
#[local] Hint Resolve piece_nil : core.

Lemma reads_nil : reads [] [].
Proof. intros rest _. cbn. destruct (tokens rest); reflexivity. Qed.

Lemma reads_app a b ta tb : reads a ta -> reads b tb -> piece b -> reads (a ++ b) (ta ++ tb).
Proof.
  intros Ha Hb Hp rest Hr. rewrite <- app_assoc, Ha by (apply piece_app; assumption). rewrite Hb by exact Hr.
  destruct (tokens rest); cbn; [rewrite app_assoc|]; reflexivity.
Qed.

Lemma reads_one text t len : (forall rest, blank_start rest -> token_here text rest t len) ->
  reads (32%N :: text) [t].
Proof.
  intros H rest Hr. cbn [app]. change (32%N :: text ++ rest) with ([32%N] ++ text ++ rest).
  rewrite tokens_blanks by (repeat constructor; discriminate). rewrite (tokens_one _ _ _ _ (H rest Hr)). reflexivity.
Qed.

Lemma reads_word w : written_word w -> reads (lit " " ++ w) [TWord w].
Proof. intros H. apply (reads_one w (TWord w) (blen w)). intros rest Hr. apply written_word_here; assumption. Qed.

Lemma blank_start_not P s : (forall c, is_whitespace c = true -> ~ P c) -> blank_start s -> not_before P s.
Proof. intros H [->|(c & r & -> & Hb)]; cbn; auto. Qed.

Lemma reads_simple c t : In (c, t) simple_ops -> reads [32%N; c] [t].
Proof. intros H. apply (reads_one [c] t 1). intros; constructor; exact H. Qed.
Lemma reads_double c t : In (c, t) double_ops -> reads (32%N :: c) [t].
Proof. intros H. apply (reads_one c t 1). intros; constructor; exact H. Qed.
Lemma reads_prefix c t no : In (c, t, no) prefix_ops -> reads [32%N; c] [t].
Proof.
  intros H. apply (reads_one [c] t 1). intros rest Hr. eapply th_prefix; [exact H|].
  apply blank_start_not; [|exact Hr]. intros d Hd. cbn in H.
  repeat destruct H as [H|H]; try contradiction; injection H as <- <- <-; cbn;
    intros Hi; repeat destruct Hi as [Hi|Hi]; try contradiction; subst; discriminate.
Qed.

(** written words in front of [=] *)
Lemma written_word_equals w rest : written_word w -> token_here w (ch "=" :: rest) (TWord w) (blen w).
Proof.
  intros H. destruct H as [c w Hc Hn Hw Hr|w Hw|o c body Ho Hb].
  - apply th_word; try assumption; [cbn; intros [Hx _]; apply Hx; cbn; tauto|].
    apply wt_word; [exact Hr|]. left. intros (d & r & E & Hd). injection E as <- <-.
    destruct Hd; discriminate.
  - apply th_dollar_word; [assumption|cbn; intros [Hx _]; apply Hx; cbn; tauto|].
    destruct w as [|c w]; cbn.
    + intros Hx; decompose [or] Hx; (contradiction || discriminate).
    + inversion Hw as [|? ? Hc]; subst. intros Hx. apply Hc. cbn in Hx.
      decompose [or] Hx; subst; try contradiction; cbn; tauto.
  - apply th_quoted; assumption.
Qed.

Lemma reads_assign a : written_assignment a -> exists v u,
  a = v ++ lit "=" ++ u /\ reads (lit " " ++ a) [TWord v; TEquals; TWord u].
Proof.
  intros (v & u & -> & Hv & Hu). exists v, u. split; [reflexivity|]. intros rest Hr.
  replace ((lit " " ++ v ++ lit "=" ++ u) ++ rest) with ([32%N] ++ v ++ (ch "=" :: (u ++ rest)))
    by (cbn; rewrite <- !app_assoc; reflexivity).
  rewrite tokens_blanks by (repeat constructor; discriminate).
  rewrite (tokens_one _ _ _ _ (written_word_equals v (u ++ rest) Hv)).
  change (ch "=" :: u ++ rest) with ([ch "="] ++ (u ++ rest)).
  rewrite (tokens_one [ch "="] (u ++ rest) TEquals 1) by (constructor; cbn; tauto).
  rewrite (tokens_one _ _ _ _ (written_word_here u rest Hu Hr)).
  destruct (tokens rest); reflexivity.
Qed.

(** numerals *)
Lemma uint_digits_is_digit d : Forall (fun c => (48 <= c <= 57)%N) (uint_digits d).
Proof. induction d; cbn; constructor; try assumption; cbv; split; discriminate. Qed.

Lemma digits_value_acc d : forall acc, digits_value acc (uint_digits d) =
  Some (match acc with
        | N0 => N.of_uint d
        | Npos p => Npos (Pos.of_uint_acc d p)
        end).
Proof.
  induction d as [|d IH|d IH|d IH|d IH|d IH|d IH|d IH|d IH|d IH|d IH]; intros acc; cbn [uint_digits digits_value].
  1: destruct acc; reflexivity.
  all: match goal with |- context [to_digit ?c] => let v := eval vm_compute in (to_digit c) in change (to_digit c) with v end;
    cbv beta iota; rewrite IH; destruct acc as [|p]; [reflexivity|];
    match goal with |- context [(10 * N.pos p + ?x)%N] =>
      destruct (10 * N.pos p + x)%N as [|q] eqn:E; [lia|] end;
    cbn [N.of_uint Pos.of_uint_acc]; do 3 f_equal; lia.
Qed.

Lemma N_to_str_value n : digits_value 0 (N_to_str n) = Some n.
Proof. unfold N_to_str. rewrite digits_value_acc. f_equal. apply DecimalN.Unsigned.of_to. Qed.

Lemma N_to_str_nonempty n : N_to_str n <> [].
Proof.
  intros E. unfold N_to_str in E.
  assert (Hn : N.to_uint n <> Decimal.Nil) by (destruct n as [|q]; [discriminate|apply DecimalPos.Unsigned.to_uint_nonnil]).
  destruct (N.to_uint n); [congruence|discriminate..].
Qed.

Lemma Z_to_str_numeral n : (- 2147483648 <= n <= 2147483647)%Z -> numeral (Z_to_str n) n.
Proof.
  intros H. unfold Z_to_str. destruct (n <? 0)%Z eqn:E; [apply Z.ltb_lt in E|apply Z.ltb_ge in E].
  - right. exists (N_to_str (Z.abs_N n)), (Z.abs_N n).
    repeat split; [apply N_to_str_nonempty|apply N_to_str_value|rewrite N2Z.inj_abs_N; lia|lia].
  - left. exists (N_to_str (Z.to_N n)), (Z.to_N n).
    repeat split; [left; reflexivity|apply N_to_str_nonempty|apply N_to_str_value|rewrite Z2N.id; lia|lia].
Qed.

Definition op_token (k : redirect_type) : token :=
  match k with RInput => TLess | ROutput => TGreater | RAppend => TDoubleGreater end.

Definition redir_tokens (r : io_redirect) : list token :=
  match io_number r with Some n => [TNumber n] | None => [] end ++ [op_token (redirect r); TWord (filename r)].

Lemma digit_word_char c : (48 <= c <= 57)%N -> word_char c /\ ~ In c (lit "#'""").
Proof.
  intros H.
  assert (Hc : In c [48;49;50;51;52;53;54;55;56;57]%N) by (cbn; lia).
  cbn in Hc. repeat destruct Hc as [<-|Hc]; try contradiction;
    (split; [split; [cbn; intros Hx; decompose [or] Hx; (contradiction || discriminate)|reflexivity]|
             cbn; intros Hx; decompose [or] Hx; (contradiction || discriminate)]).
Qed.

Lemma Z_to_str_run n rest : redirect_follows rest -> word_run (Z_to_str n) rest.
Proof.
  intros (d & r & -> & Hd).
  assert (Hrest : not_before word_char (d :: r)).
  { cbn. intros [Hx _]. apply Hx. destruct Hd as [-> | ->]; cbn; tauto. }
  assert (Hdig : forall m, Forall word_char (N_to_str m)).
  { intros m. eapply Forall_impl; [|apply uint_digits_is_digit]. intros c Hc. apply digit_word_char; exact Hc. }
  unfold Z_to_str. destruct (n <? 0)%Z.
  - cbn. split; [split; [cbn; intros Hx; decompose [or] Hx; (contradiction || discriminate)|reflexivity]|].
    split; [cbn; intros Hx; decompose [or] Hx; (contradiction || discriminate)|]. split; [apply Hdig|exact Hrest].
  - pose proof (Hdig (Z.to_N n)) as Hf. pose proof (N_to_str_nonempty (Z.to_N n)) as Hne.
    pose proof (uint_digits_is_digit (N.to_uint (Z.to_N n))) as Hd2. fold (N_to_str (Z.to_N n)) in Hd2.
    destruct (N_to_str (Z.to_N n)) as [|c w]; [congruence|]. inversion Hf; subst. inversion Hd2; subst.
    cbn. split; [assumption|]. split; [apply digit_word_char; assumption|]. split; assumption.
Qed.

Lemma reads_redir r : wf_redir r -> reads (r_redir r) (redir_tokens r).
Proof.
  intros [Hf Hn] rest Hr. unfold r_redir, redir_tokens.
  rewrite <- !app_assoc, tokens_blanks by (repeat constructor; discriminate).
  assert (Hop : tokens (op_text (redirect r) ++ lit " " ++ filename r ++ rest) =
                option_map (app [op_token (redirect r); TWord (filename r)]) (tokens rest)).
  { pose proof (reads_word _ Hf rest Hr) as E. rewrite <- app_assoc in E.
    destruct (redirect r); cbn [op_text op_token].
    - rewrite (tokens_one _ _ TLess 1).
      + rewrite E. destruct (tokens rest); reflexivity.
      + apply (th_prefix (ch "<") TLess (lit "<&")); [cbn; tauto|]. cbn. intros Hx; decompose [or] Hx; (contradiction || discriminate).
    - rewrite (tokens_one _ _ TGreater 1).
      + rewrite E. destruct (tokens rest); reflexivity.
      + apply (th_prefix (ch ">") TGreater (lit ">&")); [cbn; tauto|]. cbn. intros Hx; decompose [or] Hx; (contradiction || discriminate).
    - rewrite (tokens_one _ _ TDoubleGreater 1).
      + rewrite E. destruct (tokens rest); reflexivity.
      + apply th_double. cbn; tauto. }
  destruct (io_number r) as [n|]; [|exact Hop].
  assert (Hfol : redirect_follows (op_text (redirect r) ++ lit " " ++ filename r ++ rest)).
  { destruct (redirect r); cbn; eexists _, _; split; try reflexivity; auto. }
  rewrite (tokens_word_run (Z_to_str n) _ (TNumber n) (Z_to_str_run n _ Hfol)).
  - rewrite Hop. destruct (tokens rest); reflexivity.
  - apply word_token_number. split; [exact Hfol|apply Z_to_str_numeral; exact Hn].
Qed.

Lemma piece_space s : piece (lit " " ++ s). Proof. apply piece_cons. Qed.
Lemma piece_redir r : piece (r_redir r). Proof. apply piece_space. Qed.
Lemma piece_concat l : Forall piece l -> piece (List.concat l).
Proof. induction 1; cbn; [auto|apply piece_app; assumption]. Qed.
Lemma piece_words ws : piece (r_words ws).
Proof. apply piece_concat, Forall_forall. intros x Hx. apply in_map_iff in Hx as (w & <- & _). apply piece_space. Qed.
Lemma piece_redirs ws : piece (r_redirs ws).
Proof. apply piece_concat, Forall_forall. intros x Hx. apply in_map_iff in Hx as (w & <- & _). apply piece_redir. Qed.

(** ** Rendered text parses: [shows text G]: it reads as tokens satisfying [G] *)

Lemma reads_redirs rs : Forall wf_redir rs -> reads (r_redirs rs) (List.concat (map redir_tokens rs)).
Proof.
  induction 1 as [|r rs Hr Hrs IH]; [apply reads_nil|].
  change (r_redirs (r :: rs)) with (r_redir r ++ r_redirs rs). cbn [map List.concat].
  apply reads_app; [apply reads_redir; exact Hr|exact IH|apply piece_redirs].
Qed.

Lemma redir_grammar r : GIORedirect (redir_tokens r) r.
Proof.
  destruct r as [[n|] k f]; unfold redir_tokens; cbn [io_number redirect filename app].
  - constructor. destruct k; constructor; constructor.
  - constructor. destruct k; constructor; constructor.
Qed.

Lemma reads_prefix_text p : wf_prefix p ->
  exists ts, reads (r_words (assignment p) ++ r_redirs (p_redirect p)) ts /\ GPrefix ts p.
Proof.
  destruct p as [rs asg]. intros (Hne & Ha & Hr). cbn in *.
  assert (H1 : forall done, exists ts, reads (r_words asg) ts /\
     (forall t0, GPrefix t0 (Prefix [] done) \/ (t0 = [] /\ done = []) ->
        GPrefix (t0 ++ ts) (Prefix [] (done ++ asg)) \/ (t0 ++ ts = [] /\ done ++ asg = []))).
  { clear Hne Hr. induction Ha as [|a asg Ha Has IH]; intros done.
    - exists []. split; [apply reads_nil|]. intros t0. rewrite !app_nil_r. auto.
    - destruct (IH (done ++ [a])) as (ts & Hts & Hstep). destruct (reads_assign a Ha) as (v & u & Ea & Hra).
      exists ([TWord v; TEquals; TWord u] ++ ts). split.
      + apply (reads_app (lit " " ++ a) (r_words asg)); [exact Hra|exact Hts|apply piece_words].
      + intros t0 H0. rewrite app_assoc. replace (done ++ a :: asg) with ((done ++ [a]) ++ asg) by (rewrite <- app_assoc; reflexivity).
        apply Hstep. left. subst a. assert (Hg : GAssignment [TWord v; TEquals; TWord u] (v ++ lit "=" ++ u)) by (constructor; constructor).
        destruct H0 as [H0|[-> ->]].
        * exact (g_pf_more_assign _ _ _ _ H0 Hg).
        * apply g_pf_assign; exact Hg. }
  destruct (H1 []) as (ta & Hta & Hga). specialize (Hga [] (or_intror (conj eq_refl eq_refl))). cbn [app] in Hga.
  exists (ta ++ List.concat (map redir_tokens rs)). split.
  { apply reads_app; [exact Hta|apply reads_redirs; exact Hr|apply piece_redirs]. }
  clear Hta H1 Hr Ha.
  assert (H2 : forall rs done t0, GPrefix t0 (Prefix done asg) \/ (t0 = [] /\ done = [] /\ asg = []) ->
     (GPrefix (t0 ++ List.concat (map redir_tokens rs)) (Prefix (done ++ rs) asg) \/ (done ++ rs = [] /\ asg = []))).
  { clear. induction rs as [|r rs IH]; intros done t0 H; cbn.
    - rewrite !app_nil_r. destruct H as [H|(_ & -> & ->)]; auto.
    - rewrite app_assoc. replace (done ++ r :: rs) with ((done ++ [r]) ++ rs) by (rewrite <- app_assoc; reflexivity).
      apply IH. left. destruct H as [H|(-> & -> & ->)].
      + exact (g_pf_more_redir _ _ _ _ H (redir_grammar r)).
      + apply g_pf_redir, redir_grammar. }
  destruct (H2 rs [] ta) as [H|[E1 E2]]; [|exact H|cbn in E1; subst; destruct Hne; congruence].
  destruct Hga as [H|[-> ->]]; [left; exact H|right; auto].
Qed.

Lemma reads_suffix_text p : wf_suffix p ->
  exists ts, reads (r_words (word_list p) ++ r_redirs (s_redirect p)) ts /\ GSuffix ts p.
Proof.
  destruct p as [rs ws]. intros (Hne & Ha & Hr). cbn in *.
  assert (H1 : forall done, exists ts, reads (r_words ws) ts /\
     (forall t0, GSuffix t0 (Suffix [] done) \/ (t0 = [] /\ done = []) ->
        GSuffix (t0 ++ ts) (Suffix [] (done ++ ws)) \/ (t0 ++ ts = [] /\ done ++ ws = []))).
  { clear Hne Hr. induction Ha as [|a ws Ha Has IH]; intros done.
    - exists []. split; [apply reads_nil|]. intros t0. rewrite !app_nil_r. auto.
    - destruct (IH (done ++ [a])) as (ts & Hts & Hstep).
      assert (Hone : exists ta, reads (lit " " ++ a) ta /\ (GAssignment ta a \/ ta = [TWord a])).
      { destruct Ha as [Hw|Ha]; [exists [TWord a]; split; [apply reads_word; exact Hw|auto]|].
        destruct (reads_assign a Ha) as (v & u & Ea & Hra). exists [TWord v; TEquals; TWord u].
        split; [exact Hra|left; subst a; constructor; constructor]. }
      destruct Hone as (ta & Hra & Hga).
      exists (ta ++ ts). split.
      + apply (reads_app (lit " " ++ a) (r_words ws)); [exact Hra|exact Hts|apply piece_words].
      + intros t0 H0. rewrite app_assoc. replace (done ++ a :: ws) with ((done ++ [a]) ++ ws) by (rewrite <- app_assoc; reflexivity).
        apply Hstep. left. destruct Hga as [Hg| ->].
        * destruct H0 as [H0|[-> ->]]; [exact (g_sf_more_assign _ _ _ _ H0 Hg)|apply g_sf_assign; exact Hg].
        * destruct H0 as [H0|[-> ->]]; [exact (g_sf_more_word _ _ _ _ H0 (g_word a))|apply g_sf_word]. }
  destruct (H1 []) as (ta & Hta & Hga). specialize (Hga [] (or_intror (conj eq_refl eq_refl))). cbn [app] in Hga.
  exists (ta ++ List.concat (map redir_tokens rs)). split.
  { apply reads_app; [exact Hta|apply reads_redirs; exact Hr|apply piece_redirs]. }
  clear Hta H1 Hr Ha.
  assert (H2 : forall rs done t0, GSuffix t0 (Suffix done ws) \/ (t0 = [] /\ done = [] /\ ws = []) ->
     (GSuffix (t0 ++ List.concat (map redir_tokens rs)) (Suffix (done ++ rs) ws) \/ (done ++ rs = [] /\ ws = []))).
  { clear. induction rs as [|r rs IH]; intros done t0 H; cbn.
    - rewrite !app_nil_r. destruct H as [H|(_ & -> & ->)]; auto.
    - rewrite app_assoc. replace (done ++ r :: rs) with ((done ++ [r]) ++ rs) by (rewrite <- app_assoc; reflexivity).
      apply IH. left. destruct H as [H|(-> & -> & ->)].
      + exact (g_sf_more_redir _ _ _ _ H (redir_grammar r)).
      + apply g_sf_redir, redir_grammar. }
  destruct (H2 rs [] ta) as [H|[E1 E2]]; [|exact H|cbn in E1; subst; destruct Hne; congruence].
  destruct Hga as [H|[-> ->]]; [left; exact H|right; auto].
Qed.

Lemma written_word_nonempty w : written_word w -> w <> [].
Proof. destruct 1 as [| |o c body]; try discriminate. destruct o, body; discriminate. Qed.

Lemma reads_simple_command sc : wf_simple sc -> exists ts, reads (r_simple sc) ts /\ GSimple ts sc.
Proof.
  destruct sc as [op name os]. intros (Hp & Hs & Hn). unfold r_simple. cbn [sc_prefix sc_name sc_suffix] in *.
  destruct Hn as [Hn|(-> & Hpn & ->)].
  - assert (Ename : match name with [] => [] | c :: l => lit " " ++ c :: l end = lit " " ++ name)
      by (pose proof (written_word_nonempty _ Hn); destruct name; [congruence|reflexivity]).
    rewrite Ename. pose proof (reads_word _ Hn) as Hrn.
    destruct op as [p|], os as [s|]; cbn in Hp, Hs.
    + apply reads_prefix_text in Hp as (tp & Hrp & Hgp). apply reads_suffix_text in Hs as (tsu & Hrs & Hgs).
      exists (tp ++ [TWord name] ++ tsu). split; [|constructor; [exact Hgp|constructor|exact Hgs]].
      apply reads_app; [exact Hrp| |apply piece_app; [apply piece_space|apply piece_app; [apply piece_words|apply piece_redirs]]].
      apply reads_app; [exact Hrn|exact Hrs|apply piece_app; [apply piece_words|apply piece_redirs]].
    + apply reads_prefix_text in Hp as (tp & Hrp & Hgp).
      exists (tp ++ [TWord name]). split; [|constructor; [exact Hgp|constructor]].
      rewrite app_nil_r. apply reads_app; [exact Hrp|exact Hrn|apply piece_space].
    + apply reads_suffix_text in Hs as (tsu & Hrs & Hgs).
      exists ([TWord name] ++ tsu). split; [|apply g_sc_ws; [constructor|exact Hgs]].
      change ([] ++ ?x) with x. apply (reads_app (lit " " ++ name) _ [TWord name]); [exact Hrn|exact Hrs|apply piece_app; [apply piece_words|apply piece_redirs]].
    + exists [TWord name]. split; [|constructor; constructor]. rewrite app_nil_r. exact Hrn.
  - destruct op as [p|]; [|congruence]. apply reads_prefix_text in Hp as (tp & Hrp & Hgp).
    exists tp. split; [|constructor; exact Hgp]. rewrite !app_nil_r. exact Hrp.
Qed.

Definition good (text : str) (G : list token -> Prop) : Prop := piece text /\ exists ts, reads text ts /\ G ts.

Lemma piece_simple sc : piece (r_simple sc).
Proof.
  unfold r_simple. apply piece_app; [destruct (sc_prefix sc); [apply piece_app; [apply piece_words|apply piece_redirs]|auto]|].
  apply piece_app; [destruct (sc_name sc); [auto|apply piece_space]|].
  destruct (sc_suffix sc); [apply piece_app; [apply piece_words|apply piece_redirs]|auto].
Qed.

Lemma good_terms body : body <> [] -> Forall (fun a => good (r_andor a) (fun ts => GAndOr ts a)) body ->
  good (joined (lit " ;") (map r_andor body)) (fun ts => GTerm ts body /\ GList ts body).
Proof.
  intros Hne Hf.
  assert (H : forall done t0, (GTerm t0 done /\ GList t0 done) -> forall body,
     Forall (fun a => good (r_andor a) (fun ts => GAndOr ts a)) body ->
     piece (List.concat (map (fun a => lit " ;" ++ r_andor a) body)) /\
     exists ts, reads (List.concat (map (fun a => lit " ;" ++ r_andor a) body)) ts /\
       GTerm (t0 ++ ts) (done ++ body) /\ GList (t0 ++ ts) (done ++ body)).
  { clear. intros done t0 H0 body Hf. revert done t0 H0.
    induction Hf as [|a body (Hp & ts & Hr & Hg) Hf IH]; intros done t0 H0; cbn [map List.concat].
    - split; [auto|]. exists []. rewrite !app_nil_r. split; [apply reads_nil|exact H0].
    - destruct H0 as [H0 H1].
      destruct (IH (done ++ [a]) (t0 ++ [TSemiColon] ++ ts)) as (Hp2 & ts2 & Hr2 & Hg2 & Hg3).
      { split; [apply g_term_more; [exact H0|constructor|exact Hg]|apply g_list_more; [exact H1|constructor|exact Hg]]. }
      split; [apply piece_cons|]. exists ([TSemiColon] ++ ts ++ ts2). split.
      + rewrite <- app_assoc. apply reads_app; [apply reads_simple; cbn; tauto| |apply piece_app; assumption].
        apply reads_app; assumption.
      + rewrite <- !app_assoc in Hg2, Hg3. cbn [app] in *. split; assumption. }
  destruct body as [|a body]; [congruence|]. inversion Hf as [|? ? (Hp & ts & Hr & Hg) Hf']; subst.
  assert (E : forall l, joined (lit " ;") (map r_andor (a :: l)) = r_andor a ++ List.concat (map (fun a => lit " ;" ++ r_andor a) l)).
  { clear. intros l. revert a. induction l as [|b l IH]; intros a; [cbn; rewrite app_nil_r; reflexivity|].
    change (joined (lit " ;") (map r_andor (a :: b :: l))) with (r_andor a ++ lit " ;" ++ joined (lit " ;") (map r_andor (b :: l))).
    rewrite IH. cbn [map List.concat]. rewrite <- app_assoc. reflexivity. }
  rewrite E. destruct (H [a] ts (conj (g_term_one _ _ Hg) (g_list_one _ _ Hg)) body Hf') as (Hp2 & ts2 & Hr2 & Hg2).
  split; [apply piece_app; assumption|]. exists (ts ++ ts2). split; [apply reads_app; assumption|exact Hg2].
Qed.

Lemma good_seq cs : cs <> [] -> Forall (fun a => good (r_command a) (fun ts => GCommand ts a)) cs ->
  good (joined (lit " |") (map r_command cs)) (fun ts => GPipelineSeq ts cs).
Proof.
  intros Hne Hf.
  assert (H : forall done t0, GPipelineSeq t0 done -> forall body,
     Forall (fun a => good (r_command a) (fun ts => GCommand ts a)) body ->
     piece (List.concat (map (fun a => lit " |" ++ r_command a) body)) /\
     exists ts, reads (List.concat (map (fun a => lit " |" ++ r_command a) body)) ts /\
       GPipelineSeq (t0 ++ ts) (done ++ body)).
  { clear. intros done t0 H0 body Hf. revert done t0 H0.
    induction Hf as [|a body (Hp & ts & Hr & Hg) Hf IH]; intros done t0 H0; cbn [map List.concat].
    - split; [auto|]. exists []. rewrite !app_nil_r. split; [apply reads_nil|exact H0].
    - destruct (IH (done ++ [a]) (t0 ++ TPipe :: ts)) as (Hp2 & ts2 & Hr2 & Hg2).
      { apply g_ps_more; assumption. }
      split; [apply piece_cons|]. exists ([TPipe] ++ ts ++ ts2). split.
      + rewrite <- app_assoc. apply reads_app; [eapply reads_prefix; cbn; left; reflexivity| |apply piece_app; assumption].
        apply reads_app; assumption.
      + rewrite <- !app_assoc in Hg2. exact Hg2. }
  destruct cs as [|a body]; [congruence|]. inversion Hf as [|? ? (Hp & ts & Hr & Hg) Hf']; subst.
  assert (E : forall l, joined (lit " |") (map r_command (a :: l)) = r_command a ++ List.concat (map (fun a => lit " |" ++ r_command a) l)).
  { clear. intros l. revert a. induction l as [|b l IH]; intros a; [cbn; rewrite app_nil_r; reflexivity|].
    change (joined (lit " |") (map r_command (a :: b :: l))) with (r_command a ++ lit " |" ++ joined (lit " |") (map r_command (b :: l))).
    rewrite IH. cbn [map List.concat]. rewrite <- app_assoc. reflexivity. }
  rewrite E. destruct (H [a] ts (g_ps_one _ _ Hg) body Hf') as (Hp2 & ts2 & Hr2 & Hg2).
  split; [apply piece_app; assumption|]. exists (ts ++ ts2). split; [apply reads_app; assumption|exact Hg2].
Qed.

Lemma good_brace b : b <> [] -> Forall (fun a => good (r_andor a) (fun ts => GAndOr ts a)) b ->
  good (lit " {" ++ joined (lit " ;") (map r_andor b) ++ lit " ; }") (fun ts => GBrace ts b).
Proof.
  intros Hne Hf. destruct (good_terms b Hne Hf) as (Hp & ts & Hr & Hg & _). split; [apply piece_cons|].
  exists ([TOpenBrace] ++ (ts ++ [TSemiColon]) ++ [TCloseBrace]). split.
  - change (lit " ; }") with (lit " ;" ++ lit " }"). rewrite (app_assoc (joined _ _)).
    apply reads_app; [apply reads_simple; cbn; tauto| |apply piece_app; [apply piece_app; [exact Hp|apply piece_cons]|apply piece_cons]].
    apply reads_app; [|apply reads_simple; cbn; tauto|apply piece_cons].
    apply reads_app; [exact Hr|apply reads_simple; cbn; tauto|apply piece_cons].
  - constructor. apply g_cl_sep; [exact Hg|constructor].
Qed.

Lemma impl_Forall {A} (P Q : A -> Prop) l : Forall (fun x => P x -> Q x) l -> Forall P l -> Forall Q l.
Proof. induction 1; intros H1; inversion H1; subst; constructor; auto. Qed.

Lemma good_tree :
  (forall a, wf_andor a -> good (r_andor a) (fun ts => GAndOr ts a)) /\
  (forall p, wf_pipeline p -> good (r_pipeline p) (fun ts => GPipeline ts p)) /\
  (forall c, wf_command c -> good (r_command c) (fun ts => GCommand ts c)).
Proof.
  apply tree_ind.
  - intros p IH Hw. destruct (IH Hw) as (Hp & ts & Hr & Hg). split; [exact Hp|].
    exists ts. split; [exact Hr|constructor; exact Hg].
  - intros l c p IHl IHp [Hl Hp]. destruct (IHl Hl) as (Pl & tl & Rl & Gl). destruct (IHp Hp) as (Pp & tp & Rp & Gp).
    cbn [r_andor]. destruct c; cbn [r_cond].
    + split; [apply piece_app; [exact Pl|apply piece_cons]|]. exists (tl ++ [TAnd] ++ tp). split; [|constructor; assumption].
      apply reads_app; [exact Rl| |apply piece_cons]. apply reads_app; [apply reads_double; cbn; tauto|exact Rp|exact Pp].
    + split; [apply piece_app; [exact Pl|apply piece_cons]|]. exists (tl ++ [TOr] ++ tp). split; [|constructor; assumption].
      apply reads_app; [exact Rl| |apply piece_cons]. apply reads_app; [apply reads_double; cbn; tauto|exact Rp|exact Pp].
  - intros b cs bg Hf (Hne & Hw & Hbb). apply all_Forall in Hw. cbn [r_pipeline].
    destruct (good_seq cs Hne (impl_Forall _ _ _ Hf Hw)) as (Ps & ts & Rs & Gs).
    destruct b, bg; try (exfalso; apply Hbb; auto; fail); change ([] ++ ?x) with x.
    + split; [apply piece_cons|]. exists ([TBang] ++ ts). split; [|apply g_pl_bang; exact Gs]. rewrite app_nil_r.
      apply reads_app; [apply reads_simple; cbn; tauto|exact Rs|exact Ps].
    + split; [apply piece_app; [exact Ps|apply piece_cons]|]. exists (ts ++ [TAmpersand]).
      split; [|apply g_pl_bg; exact Gs]. apply reads_app; [exact Rs|eapply reads_prefix; cbn; right; left; reflexivity|apply piece_cons].
    + rewrite app_nil_r. split; [exact Ps|]. exists ts. split; [exact Rs|constructor; exact Gs].
  - intros sc Hw. cbn [r_command]. split; [apply piece_simple|]. destruct (reads_simple_command sc Hw) as (ts & Hr & Hg).
    exists ts. split; [exact Hr|constructor; exact Hg].
  - intros b Hf (Hne & Hw). apply all_Forall in Hw.
    destruct (good_brace b Hne (impl_Forall _ _ _ Hf Hw)) as (Pb & ts & Rb & Gb).
    split; [exact Pb|]. exists ts. split; [exact Rb|apply g_cmd_group; exact Gb].
  - intros n b r Hf (Hn & Hne & Hw & Hr). apply all_Forall in Hw. cbn [r_command].
    destruct (good_brace b Hne (impl_Forall _ _ _ Hf Hw)) as (Pb & ts & Rb & Gb).
    split; [apply piece_cons|].
    set (bt := lit " {" ++ joined (lit " ;") (map r_andor b) ++ lit " ; }") in *.
    replace (lit " " ++ n ++ lit " ( ) {" ++ joined (lit " ;") (map r_andor b) ++ lit " ; }" ++
             match r with Some rs => r_redirs rs | None => [] end)
      with ((lit " " ++ n) ++ lit " (" ++ lit " )" ++ bt ++ match r with Some rs => r_redirs rs | None => [] end).
    2:{ subst bt. rewrite <- !app_assoc. reflexivity. }
    assert (Hbody : exists tb, reads (bt ++ match r with Some rs => r_redirs rs | None => [] end) tb /\ GBody tb b r).
    { destruct r as [rs|]; cbn in Hr.
      - destruct Hr as [Hrn Hr]. exists (ts ++ List.concat (map redir_tokens rs)). split.
        + apply reads_app; [exact Rb|apply reads_redirs; exact Hr|apply piece_redirs].
        + constructor; [exact Gb|].
          assert (H2 : forall rs done t0, GRedirectList t0 done -> GRedirectList (t0 ++ List.concat (map redir_tokens rs)) (done ++ rs)).
          { clear. induction rs as [|r rs IH]; intros done t0 H; cbn; [rewrite !app_nil_r; exact H|].
            rewrite app_assoc. replace (done ++ r :: rs) with ((done ++ [r]) ++ rs) by (rewrite <- app_assoc; reflexivity).
            apply IH. apply g_rl_more; [exact H|apply redir_grammar]. }
          destruct rs as [|r0 rs]; [congruence|]. cbn. apply (H2 rs [r0]). constructor. apply redir_grammar.
      - exists ts. rewrite app_nil_r. split; [exact Rb|constructor; exact Gb]. }
    destruct Hbody as (tb & Rbody & Gbody).
    exists ([TWord n] ++ [TOpenParen] ++ [TCloseParen] ++ tb). split; [|apply g_cmd_function, g_fn; exact Gbody].
    apply reads_app; [apply reads_word; exact Hn| |apply piece_cons].
    apply reads_app; [apply reads_simple; cbn; tauto| |apply piece_cons].
    apply reads_app; [apply reads_simple; cbn; tauto|exact Rbody|].
    apply piece_app; [apply piece_cons|]. destruct r; [apply piece_redirs|auto].
Qed.

(** More newlines may follow. *)
Theorem render_parse_newline l : l <> [] -> Forall wf_andor l -> parse (render l ++ [newline]) = Some (Some l).
Proof.
  intros Hne Hw. destruct (good_terms l Hne) as (_ & ts & Hr & _ & Hg).
  { eapply Forall_impl; [|exact Hw]. exact (proj1 good_tree). }
  unfold parse, render. rewrite (Hr [newline]) by (right; exists newline, []; auto).
  change (tokens [newline]) with (Some [TNewlineList; TEOF]). cbn [option_map].
  apply parse_tokens_complete. apply g_list_sep; [exact Hg|]. constructor; constructor.
Qed.
Theorem render_parse l : l <> [] -> Forall wf_andor l -> parse (render l) = Some (Some l).
Proof.
  intros Hne Hw. destruct (good_terms l Hne) as (_ & ts & Hr & _ & Hg).
  { eapply Forall_impl; [|exact Hw]. exact (proj1 good_tree). }
  unfold parse, render. specialize (Hr [] (or_introl eq_refl)). rewrite app_nil_r in Hr. rewrite Hr.
  change (tokens []) with (Some [TEOF]). cbn [option_map].
  apply parse_tokens_complete. apply g_list_sep; [exact Hg|constructor].
Qed.

(** ** Flat grouping *)

Lemma joined_snoc {A} (sep : list A) l x : l <> [] -> joined sep (l ++ [x]) = joined sep l ++ sep ++ x.
Proof.
  induction l as [|a [|b l] IH]; intros H; [congruence|reflexivity|].
  change (joined sep ((a :: b :: l) ++ [x])) with (a ++ sep ++ joined sep ((b :: l) ++ [x])).
  rewrite IH by discriminate. change (joined sep (a :: b :: l)) with (a ++ sep ++ joined sep (b :: l)).
  rewrite <- !app_assoc. reflexivity.
Qed.

Lemma seq_flat ts cs : GPipelineSeq ts cs <->
  exists cts, cts <> [] /\ ts = joined [TPipe] cts /\ Forall2 GCommand cts cs.
Proof.
  split.
  - induction 1 as [ts c Hc|t1 t2 cs c H1 IH Hc].
    + exists [ts]. split; [discriminate|]. split; [reflexivity|]. constructor; [exact Hc|constructor].
    + destruct IH as (cts & Hne & -> & Hf). exists (cts ++ [t2]).
      split; [destruct cts; discriminate|]. split; [rewrite joined_snoc by exact Hne; reflexivity|].
      apply Forall2_app; [exact Hf|constructor; [exact Hc|constructor]].
  - intros (cts & Hne & -> & Hf).
    revert cs Hf. induction cts as [|t cts IH] using rev_ind; [congruence|]. intros cs Hf.
    apply Forall2_app_inv_l in Hf as (cs1 & cs2 & Hf1 & Hf2 & ->). inv Hf2. inv H3.
    destruct cts as [|u cts].
    + inv Hf1. cbn. constructor; assumption.
    + rewrite joined_snoc by discriminate. apply g_ps_more; [apply IH; [discriminate|exact Hf1]|assumption].
Qed.

Lemma pipeline_flat ts p : GPipeline ts p <-> flat_pipeline ts p.
Proof.
  split.
  - intros H. destruct H as [ts cs H|ts cs H|ts cs H|ts cs H]; apply seq_flat in H as (cts & Hne & -> & Hf).
    + exists false, cts, cs, false. cbn. rewrite app_nil_r. auto.
    + exists true, cts, cs, false. cbn. rewrite app_nil_r. auto.
    + exists false, cts, cs, true. cbn. auto.
    + exists true, cts, cs, true. cbn. auto.
  - intros (bang & cts & cs & amp & -> & Hne & Hf & ->).
    assert (Hs : GPipelineSeq (joined [TPipe] cts) cs) by (apply seq_flat; eauto).
    destruct bang, amp; cbn; rewrite ?app_nil_r; constructor; exact Hs.
Qed.

Lemma andor_flat ts a : GAndOr ts a <-> flat_andor ts a.
Proof.
  assert (Hstep : forall t1 t2 a p c nl, flat_andor t1 a -> GPipeline t2 p ->
    flat_andor (t1 ++ link_tokens (Link c nl t2 p)) (AoMore a c p)).
  { intros t1 t2 a0 p c nl (t0 & p0 & ks & -> & Hp0 & Hks & ->) Hp. apply pipeline_flat in Hp.
    exists t0, p0, (ks ++ [Link c nl t2 p]). split; [|split; [exact Hp0|split]].
    - rewrite map_app, concat_app, <- app_assoc. cbn [map List.concat]. rewrite app_nil_r. reflexivity.
    - apply Forall_app. split; [exact Hks|constructor; [exact Hp|constructor]].
    - rewrite fold_left_app. reflexivity. }
  split.
  - induction 1 as [ts p Hp|t1 t2 a p H1 IH Hp|t1 t2 a p H1 IH Hp|t1 t2 a p H1 IH Hp|t1 t2 a p H1 IH Hp].
    + exists ts, p, []. cbn. rewrite app_nil_r. apply pipeline_flat in Hp. auto.
    + exact (Hstep _ _ _ _ CAnd false IH Hp).
    + exact (Hstep _ _ _ _ CAnd true IH Hp).
    + exact (Hstep _ _ _ _ COr false IH Hp).
    + exact (Hstep _ _ _ _ COr true IH Hp).
  - intros (t0 & p0 & ks & -> & Hp0 & Hks & ->). apply pipeline_flat in Hp0.
    induction ks as [|k ks IH] using rev_ind.
    + cbn. rewrite app_nil_r. constructor; exact Hp0.
    + apply Forall_app in Hks as [Hks Hk]. inv Hk. specialize (IH Hks).
      rewrite fold_left_app, map_app, concat_app, app_assoc. cbn [map List.concat fold_left]. rewrite app_nil_r.
      apply pipeline_flat in H1. destruct k as [c nl t p]; cbn [l_toks l_pipe l_cond link_tokens l_nl cond_token] in *.
      destruct c, nl; cbn [app]; constructor; assumption.
Qed.

Lemma list_flat ts l : GList ts l <-> flat_list ts l.
Proof.
  split.
  - induction 1 as [t1 t2 t3 l a H1 IH Hs Ha|ts a Ha].
    + destruct IH as (t0 & a0 & ks & -> & Ha0 & Hks & ->). apply andor_flat in Ha.
      assert (Hb : exists b : bool, t2 = [if b then TSemiColon else TNewlineList])
        by (destruct Hs; [exists true|exists false]; reflexivity).
      destruct Hb as (b & ->). exists t0, a0, (ks ++ [(b, t3, a)]). split; [|split; [exact Ha0|split]].
      * rewrite map_app, concat_app, <- app_assoc. cbn [map List.concat fst snd]. rewrite app_nil_r. reflexivity.
      * apply Forall_app. split; [exact Hks|constructor; [exact Ha|constructor]].
      * rewrite map_app. reflexivity.
    + exists ts, a, []. cbn. rewrite app_nil_r. apply andor_flat in Ha. auto.
  - intros (t0 & a0 & ks & -> & Ha0 & Hks & ->). apply andor_flat in Ha0.
    induction ks as [|k ks IH] using rev_ind.
    + cbn. rewrite app_nil_r. apply g_list_one; exact Ha0.
    + apply Forall_app in Hks as [Hks Hk]. inv Hk. specialize (IH Hks).
      rewrite !map_app, concat_app, app_assoc. cbn [map List.concat]. rewrite app_nil_r.
      apply andor_flat in H1. destruct k as [[b t] a]; cbn [fst snd] in *.
      rewrite app_comm_cons. apply (g_list_more _ [if b then TSemiColon else TNewlineList] t); [exact IH| |exact H1].
      destruct b; constructor.
Qed.

Theorem parse_flat ts l : parse_tokens ts = Some (Some l) <->
  exists pre body post, ts = pre ++ body ++ post /\ flat_list body l /\
    (pre = [] /\ (post = [] \/ GSeparator post) \/ GSeparator pre /\ post = []).
Proof.
  rewrite parse_tokens_iff. split.
  - intros H. remember (Some l) as v eqn:Ev.
    destruct H as [t1 t2 l' Hs Hl|t1 t2 l' Hl Hs|ts l' Hl|ts Hs]; try discriminate Ev; injection Ev as ->;
      apply list_flat in Hl.
    + exists t1, t2, []. rewrite app_nil_r. auto.
    + exists [], t1, t2. cbn; auto 10.
    + exists [], ts, []. rewrite app_nil_r. cbn; auto 10.
  - intros (pre & body & post & -> & Hl & Hc). apply list_flat in Hl.
    destruct Hc as [[-> [->|Hs]]|[Hs ->]].
    + rewrite app_nil_r. cbn. apply g_list; exact Hl.
    + cbn. apply g_list_sep; assumption.
    + rewrite app_nil_r. apply g_sep_list; assumption.
Qed.

(** ** The last token of a list *)

Definition closes (t : token) : Prop := match t with TWord _ | TSubshell _ | TAmpersand | TCloseBrace => True | _ => False end.
Definition ends_closed (ts : list token) : Prop := exists ts' t, ts = ts' ++ [t] /\ closes t.

Lemma ends_closed_app a b : ends_closed b -> ends_closed (a ++ b).
Proof. intros (ts & t & -> & H). exists (a ++ ts), t. rewrite app_assoc; auto. Qed.
Lemma ends_closed_cons a b : ends_closed b -> ends_closed (a :: b).
Proof. apply (ends_closed_app [a]). Qed.
#[local] Hint Resolve ends_closed_app ends_closed_cons : core.

Lemma GWord_closed t w : GWord t w -> ends_closed t.
Proof. destruct 1; eexists [], _; split; try reflexivity; exact I. Qed.
#[local] Hint Resolve GWord_closed : core.
Lemma GRedir_closed t w : GIORedirect t w -> ends_closed t.
Proof. destruct 1 as [t k f H|n t k f H]; inv H; eauto. Qed.
#[local] Hint Resolve GRedir_closed : core.
Lemma GAssign_closed t w : GAssignment t w -> ends_closed t.
Proof. destruct 1; eauto. Qed.
#[local] Hint Resolve GAssign_closed : core.
Lemma GPrefix_closed t w : GPrefix t w -> ends_closed t.
Proof. induction 1; eauto. Qed.
Lemma GSuffix_closed t w : GSuffix t w -> ends_closed t.
Proof. induction 1; eauto using g_word. Qed.
#[local] Hint Resolve GPrefix_closed GSuffix_closed : core.
Lemma GSimple_closed t w : GSimple t w -> ends_closed t.
Proof. destruct 1; eauto. Qed.
#[local] Hint Resolve GSimple_closed : core.
Lemma GBrace_closed t w : GBrace t w -> ends_closed t.
Proof. destruct 1. exists (TOpenBrace :: ts), TCloseBrace. split; [reflexivity|exact I]. Qed.
#[local] Hint Resolve GBrace_closed : core.
Lemma GRedirs_closed t w : GRedirectList t w -> ends_closed t.
Proof. destruct 1; eauto. Qed.
#[local] Hint Resolve GRedirs_closed : core.
Lemma GCommand_closed t w : GCommand t w -> ends_closed t.
Proof.
  destruct 1 as [ts sc H|ts n b r H|ts b H]; eauto.
  destruct H as [name ts b r H|name ts b r H]; destruct H; eauto 10.
Qed.
#[local] Hint Resolve GCommand_closed : core.
Lemma GSeq_closed t w : GPipelineSeq t w -> ends_closed t.
Proof. destruct 1; eauto. Qed.
#[local] Hint Resolve GSeq_closed : core.
Lemma amp_closed : ends_closed [TAmpersand]. Proof. exists [], TAmpersand; split; [reflexivity|exact I]. Qed.
#[local] Hint Resolve amp_closed : core.
Lemma GPipeline_closed t w : GPipeline t w -> ends_closed t.
Proof. destruct 1; eauto. Qed.
#[local] Hint Resolve GPipeline_closed : core.
Lemma GAndOr_closed t w : GAndOr t w -> ends_closed t.
Proof. destruct 1; eauto. Qed.
#[local] Hint Resolve GAndOr_closed : core.
Lemma GList_closed t w : GList t w -> ends_closed t.
Proof. destruct 1; eauto. Qed.

Lemma closed_split t1 s1 t2 s2 : ends_closed t1 -> ends_closed t2 ->
  Forall (fun t => ~ closes t) s1 -> Forall (fun t => ~ closes t) s2 ->
  t1 ++ s1 = t2 ++ s2 -> t1 = t2 /\ s1 = s2.
Proof.
  intros H1 H2. revert s2. induction s1 as [|x s1 IH] using rev_ind; intros s2 F1 F2 E.
  - destruct s2 as [|y s2 _] using rev_ind; [rewrite !app_nil_r in E; auto|].
    exfalso. destruct H1 as (u & t & -> & Ht). rewrite app_nil_r, app_assoc in E. apply app_inj_tail in E as [_ ->].
    apply Forall_app in F2 as [_ F2]. inv F2. contradiction.
  - destruct s2 as [|y s2 _] using rev_ind.
    + exfalso. destruct H2 as (u & t & -> & Ht). rewrite app_nil_r, app_assoc in E. apply app_inj_tail in E as [_ ->].
      apply Forall_app in F1 as [_ F1]. inv F1. contradiction.
    + rewrite !app_assoc in E. apply app_inj_tail in E as [E ->].
      apply Forall_app in F1 as [F1 _], F2 as [F2 _]. destruct (IH s2 F1 F2 E) as [-> ->]. auto.
Qed.

Lemma GSeparator_open t : GSeparator t -> Forall (fun t => ~ closes t) t.
Proof. destruct 1; repeat constructor; cbn; auto. Qed.

(** What follows a list decides acceptance: exactly the separators. *)
Theorem list_tail t l s : GList t l -> Forall (fun x => ~ closes x) s -> s <> [] ->
  (GSeparator s -> parse_tokens (t ++ s) = Some (Some l)) /\
  (forall v, parse_tokens (t ++ s) = Some v -> GSeparator s /\ v = Some l).
Proof.
  intros Hl Hs Hne. split.
  - intros H. apply parse_tokens_complete, g_list_sep; assumption.
  - intros v H. apply parse_tokens_sound in H. remember (t ++ s) as ts eqn:E.
    destruct H as [t1 t2 l' Hs' Hl'|t1 t2 l' Hl' Hs'|ts l' Hl'|ts Hs'].
    + exfalso. pose proof (GList_closed _ _ Hl') as Hc.
      pose proof (closed_split (t1 ++ t2) [] t s (ends_closed_app _ _ Hc) (GList_closed _ _ Hl)
                    (Forall_nil _) Hs) as H. rewrite app_nil_r in H. destruct (H E) as [_ <-]. congruence.
    + destruct (closed_split _ _ _ _ (GList_closed _ _ Hl') (GList_closed _ _ Hl) (GSeparator_open _ Hs') Hs E) as [-> ->].
      split; [exact Hs'|]. f_equal.
      pose proof (grammar_unambiguous _ _ _ (g_list _ _ Hl) (g_list _ _ Hl')). congruence.
    + exfalso. pose proof (closed_split ts [] t s (GList_closed _ _ Hl') (GList_closed _ _ Hl) (Forall_nil _) Hs) as H.
      rewrite app_nil_r in H. destruct (H E) as [_ <-]. congruence.
    + exfalso. pose proof (GSeparator_open _ Hs') as Ho. subst ts. apply Forall_app in Ho as [Ho _].
      destruct (GList_closed _ _ Hl) as (u & x & -> & Hx). apply Forall_app in Ho as [_ Ho]. inv Ho. contradiction.
Qed.

(** a token list whose plain text is accepted and that does not end in a terminator is a list *)
Lemma accepted_list t l : parse_tokens (t ++ [TEOF]) = Some (Some l) ->
  (forall t', t <> t' ++ [TSemiColon] /\ t <> t' ++ [TNewlineList]) -> GList t l.
Proof.
  intros H Hn. apply parse_tokens_sound in H. remember (t ++ [TEOF]) as ts eqn:E. remember (Some l) as v eqn:Ev.
  assert (Hno : forall a b l, GList b l -> a ++ b <> t ++ [TEOF]).
  { intros a b l0 Hl E0. destruct (GList_closed _ _ Hl) as (u & x & -> & Hx). rewrite app_assoc in E0.
    apply app_inj_tail in E0 as [_ ->]. contradiction. }
  destruct H as [t1 t2 l' Hs' Hl'|t1 t2 l' Hl' Hs'|ts l' Hl'|ts Hs']; try discriminate Ev; injection Ev as ->.
  - exfalso. exact (Hno _ _ _ Hl' E).
  - destruct Hs';
      match type of E with
      | ?a ++ [?x] = _ => apply app_inj_tail in E as [E E2]
      | ?a ++ [?y; ?x] = _ => change [y; x] with ([y] ++ [x]) in E; rewrite app_assoc in E; apply app_inj_tail in E as [E E2]
      | ?a ++ [?z; ?y; ?x] = _ => change [z; y; x] with ([z; y] ++ [x]) in E; rewrite app_assoc in E; apply app_inj_tail in E as [E E2]
      | ?a ++ [?w; ?z; ?y; ?x] = _ => change [w; z; y; x] with ([w; z; y] ++ [x]) in E; rewrite app_assoc in E; apply app_inj_tail in E as [E E2]
      end; try discriminate; subst t; try exact Hl'; exfalso.
    + destruct (Hn (t1 ++ [TSemiColon; TNewlineList])) as [_ H]. apply H. rewrite <- app_assoc. reflexivity.
    + destruct (Hn t1) as [_ H]. apply H. reflexivity.
    + destruct (Hn (t1 ++ [TNewlineList])) as [_ H]. apply H. rewrite <- app_assoc. reflexivity.
    + destruct (Hn t1) as [H _]. apply H. reflexivity.
  - exfalso. apply (Hno [] _ _ Hl'). exact E.
Qed.

(** ** Leading separators *)

(** The token stream of any text has its only end marker last, so nothing can
    follow a leading separator. *)
Lemma tokens_eof s ts : tokens s = Some ts -> exists ts', ts = ts' ++ [TEOF] /\ ~ In TEOF ts'.
Proof.
  intros H. destruct (lex_total s) as (is & lx & E & Hf & _). unfold tokens in H. rewrite E in H.
  rewrite ok_tokens_strip, map_app, all_some_app in H.
  destruct (all_some (map strip is)) as [a|] eqn:Ea; [|discriminate]. cbn in H. injection H as <-.
  exists a. split; [reflexivity|]. intros Hi.
  clear E. revert a Ea Hi. induction Hf as [|i is Hi0 Hf IH]; intros a Ea Hi; cbn in Ea.
  - injection Ea as <-. contradiction.
  - destruct (strip i) as [t|] eqn:Et; [|discriminate]. destruct (all_some (map strip is)) as [r|] eqn:Er; [|discriminate].
    injection Ea as <-. destruct Hi as [->|Hi]; [congruence|]. exact (IH r eq_refl Hi).
Qed.

Lemma leading_newline ts l : parse_tokens ts = Some (Some l) ->
  (exists ts', ts = ts' ++ [TEOF]) -> match ts with (TNewlineList | TSemiColon) :: _ => False | _ => True end.
Proof.
  intros H (ts' & Ee). apply parse_tokens_sound in H. remember (Some l) as v eqn:Ev.
  destruct H as [t1 t2 l' Hs' Hl'|t1 t2 l' Hl' Hs'|ts l' Hl'|ts Hs']; try discriminate Ev.
  - exfalso. destruct (GList_closed _ _ Hl') as (u & x & -> & Hx). rewrite app_assoc in Ee.
    apply app_inj_tail in Ee as [_ ->]. contradiction.
  - pose proof (GList_starts _ _ Hl') as Hst. destruct t1 as [|[] t1]; try discriminate; exact I.
  - pose proof (GList_starts _ _ Hl') as Hst. destruct ts as [|[] ts]; try discriminate; exact I.
Qed.

Lemma parse_leading_newline s l : parse (newline :: s) <> Some (Some l).
Proof.
  unfold parse. destruct (tokens (newline :: s)) as [ts|] eqn:E; [|discriminate]. intros H.
  destruct (tokens_eof _ _ E) as (ts' & E2 & _).
  assert (Hrun : exists nls r, newline :: s = nls ++ r /\ nls <> [] /\ Forall (eq newline) nls /\ not_before (eq newline) r).
  { clear. assert (G : forall s, exists nls r, s = nls ++ r /\ Forall (eq newline) nls /\ not_before (eq newline) r).
    { clear. induction s as [|c s IH]; [exists [], []; cbn; auto|].
      destruct (N.eq_dec newline c) as [<-|Hn].
      - destruct IH as (nls & r & -> & Hf & Hr). exists (newline :: nls), r. cbn; auto.
      - exists [], (c :: s). cbn; auto. }
    destruct (G s) as (nls & r & -> & Hf & Hr). exists (newline :: nls), r. repeat split; auto. discriminate. }
  destruct Hrun as (nls & r & Es & Hne & Hf & Hr). rewrite Es, (tokens_newlines _ _ Hne Hf Hr) in E.
  destruct (tokens r) as [tr|]; [|discriminate]. cbn in E. injection E as <-.
  pose proof (leading_newline _ _ H (ex_intro _ ts' E2)). contradiction.
Qed.

Lemma parse_leading_comment body s l : ~ In newline body -> parse (ch "#" :: body ++ newline :: s) <> Some (Some l).
Proof.
  intros Hb. unfold parse. rewrite tokens_comment; [|exact Hb|cbn; congruence]. apply parse_leading_newline.
Qed.

Lemma parse_more_newlines a nls b ta : tokens (a ++ [newline]) = Some (ta ++ [TNewlineList; TEOF]) ->
  Forall (eq newline) nls -> parse (a ++ newline :: nls ++ b) = parse (a ++ newline :: b).
Proof.
  intros Ha Hn. unfold parse. rewrite !(tokens_line _ _ _ Ha).
  assert (Hrun : exists ms r, b = ms ++ r /\ Forall (eq newline) ms /\ not_before (eq newline) r).
  { clear. induction b as [|c s IH]; [exists [], []; cbn; auto|].
    destruct (N.eq_dec newline c) as [<-|Hne].
    - destruct IH as (nls & r & -> & Hf & Hr). exists (newline :: nls), r. cbn; auto.
    - exists [], (c :: s). cbn; auto. }
  destruct Hrun as (ms & r & -> & Hms & Hr).
  rewrite app_assoc, !app_comm_cons. rewrite !tokens_newlines; try reflexivity; try discriminate; try exact Hr.
  - constructor; [reflexivity|exact Hms].
  - constructor; [reflexivity|]. apply Forall_app; auto.
Qed.

Lemma parse_line_comment a g body b ta : tokens (a ++ [newline]) = Some (ta ++ [TNewlineList; TEOF]) ->
  tokens (a ++ g ++ ch "#" :: body ++ [newline]) = Some (ta ++ [TNewlineList; TEOF]) ->
  parse (a ++ (g ++ ch "#" :: body) ++ newline :: b) = parse (a ++ newline :: b).
Proof.
  intros Ha Hc. unfold parse. rewrite (tokens_line _ _ _ Ha).
  replace (a ++ (g ++ ch "#" :: body) ++ newline :: b) with ((a ++ g ++ ch "#" :: body) ++ newline :: b)
    by (rewrite <- !app_assoc; reflexivity).
  rewrite (tokens_line (a ++ g ++ ch "#" :: body) b ta); [reflexivity|].
  rewrite <- Hc. rewrite <- !app_assoc. reflexivity.
Qed.

(** Lists on several lines. *)
Lemma list_after ts l : GList ts l -> forall t0 done sep, GList t0 done -> GCmdSepOp sep -> GList (t0 ++ sep ++ ts) (done ++ l).
Proof.
  induction 1 as [t1 t2 t3 l a _ IH H2 H3|ts a H]; intros t0 done sep H0 Hsep.
  - rewrite !app_assoc, <- (app_assoc _ t2 t3), <- (app_assoc t0 sep t1). apply g_list_more; auto.
  - apply g_list_more; assumption.
Qed.
Lemma render_no_newline l : l <> [] -> Forall wf_andor l -> forall rest, not_before (eq newline) (render l ++ newline :: rest).
Proof.
  intros Hne Hw rest. pose proof (render_parse l Hne Hw) as P. destruct (render l) as [|c s] eqn:E; [vm_compute in P; discriminate|].
  cbn [app not_before]. intros <-. exact (parse_leading_newline _ _ P).
Qed.
Definition on_lines (ls : list (list and_or)) : str := List.concat (map (fun l => render l ++ [newline]) ls).
Theorem lines_parse ls : ls <> [] -> Forall (fun l => l <> [] /\ Forall wf_andor l) ls -> parse (on_lines ls) = Some (Some (List.concat ls)).
Proof.
  intros Hne Hok.
  assert (H : forall ls, Forall (fun l => l <> [] /\ Forall wf_andor l) ls -> forall t0 done, GList t0 done ->
    exists ts, tokens (newline :: on_lines ls) = Some (ts ++ [TNewlineList; TEOF]) /\ GList (t0 ++ ts) (done ++ List.concat ls)).
  { clear. induction 1 as [|l ls [Hne Hw] _ IH]; intros t0 done H0.
    - exists []. split; [reflexivity|]. cbn [List.concat]. rewrite !app_nil_r. exact H0.
    - destruct (good_terms l Hne) as (_ & ts & Hr & _ & Hg).
      { eapply Forall_impl; [|exact Hw]. exact (proj1 good_tree). }
      destruct (IH (t0 ++ [TNewlineList] ++ ts) (done ++ l)) as (ts2 & E & Hg2); [apply list_after; [exact Hg|exact H0|constructor]|].
      exists ([TNewlineList] ++ ts ++ ts2). cbn [List.concat]. rewrite <- !app_assoc in Hg2. rewrite <- ?app_assoc. split; [|exact Hg2].
      change (on_lines (l :: ls)) with ((render l ++ [newline]) ++ on_lines ls). rewrite <- app_assoc. cbn [app].
      change (newline :: render l ++ newline :: on_lines ls) with ([newline] ++ render l ++ newline :: on_lines ls).
      rewrite tokens_newlines; [|discriminate|repeat constructor|apply render_no_newline; assumption].
      unfold render. rewrite (Hr (newline :: on_lines ls)) by (right; exists newline, (on_lines ls); auto).
      rewrite E. cbn [option_map app]. rewrite ?app_assoc. reflexivity. }
  destruct Hok as [|l ls [Hl Hw] Hok]; [congruence|].
  destruct (good_terms l Hl) as (_ & ts & Hr & _ & Hg).
  { eapply Forall_impl; [|exact Hw]. exact (proj1 good_tree). }
  destruct (H ls Hok ts l Hg) as (ts2 & E & Hg2).
  unfold parse. change (on_lines (l :: ls)) with ((render l ++ [newline]) ++ on_lines ls). rewrite <- app_assoc. cbn [app].
  unfold render. rewrite (Hr (newline :: on_lines ls)) by (right; exists newline, (on_lines ls); auto).
  rewrite E. cbn [option_map app List.concat]. rewrite app_assoc. apply parse_tokens_complete. apply g_list_sep; [exact Hg2|constructor].
Qed.
