(** The executable parser accepts exactly the language of Grammar.v. *)
From Verif Require Import Base Lexer Ast Grammar Parser.

Ltac inv H := inversion H; subst; clear H.

(** ** Soundness *)

Lemma p_word_sound ts w r : p_word ts = Some (w, r) -> exists t, ts = t ++ r /\ GWord t w.
Proof.
  destruct ts as [|[] ts]; cbn; try discriminate; intros H; injection H as <- <-;
    eexists [_]; split; try reflexivity; constructor.
Qed.

Lemma p_iofile_sound ts k w r : p_iofile ts = Some (k, w, r) -> exists t, ts = t ++ r /\ GIOFile t (k, w).
Proof.
  destruct ts as [|[] ts]; cbn; try discriminate;
    destruct (p_word ts) as [[w' r']|] eqn:E; try discriminate; intros H; injection H as <- <- <-;
    apply p_word_sound in E as (t & -> & Hw); eexists (_ :: t); split; try reflexivity; constructor; exact Hw.
Qed.

Lemma p_redir_sound ts x r : p_redir ts = Some (x, r) -> exists t, ts = t ++ r /\ GIORedirect t x.
Proof.
  assert (Hd : forall ts, match p_iofile ts with Some (k, f, r') => Some (IoRedirect None k f, r') | None => None end
               = Some (x, r) -> exists t, ts = t ++ r /\ GIORedirect t x).
  { intros ts0 H. destruct (p_iofile ts0) as [[[k f] r']|] eqn:E; [|discriminate]. injection H as <- <-.
    apply p_iofile_sound in E as (t & -> & Hf). exists t; split; [reflexivity|constructor; exact Hf]. }
  destruct ts as [|[] ts]; cbn [p_redir]; try (apply Hd).
  destruct (p_iofile ts) as [[[k f] r']|] eqn:E; [|discriminate]. intros H; injection H as <- <-.
  apply p_iofile_sound in E as (t & -> & Hf). exists (TNumber n :: t); split; [reflexivity|constructor; exact Hf].
Qed.

Lemma p_assign_sound ts a r : p_assign ts = Some (a, r) -> exists t, ts = t ++ r /\ GAssignment t a.
Proof.
  destruct ts as [|t1 ts]; [discriminate|]. destruct t1; try discriminate.
  destruct ts as [|t2 ts]; [discriminate|]. destruct t2; try discriminate. cbn.
  destruct (p_word ts) as [[w r']|] eqn:E; [|discriminate]. intros H; injection H as <- <-.
  apply p_word_sound in E as (t & -> & Hw). exists (TWord s :: TEquals :: t); split; [reflexivity|].
  apply g_assign; exact Hw.
Qed.

Lemma p_redirs_sound k : forall acc ts rl r, p_redirs k acc ts = (rl, r) ->
  exists t, ts = t ++ r /\
    ((t = [] /\ rl = acc) \/
     (exists rl', rl = acc ++ rl' /\ rl' <> [] /\ GRedirectList t rl' ) /\
     (forall t0, GRedirectList t0 acc -> GRedirectList (t0 ++ t) rl)).
Proof.
  induction k as [|k IH]; intros acc ts rl r; cbn.
  - intros H; injection H as <- <-. exists []; split; [reflexivity|left; auto].
  - destruct (p_redir ts) as [[x ts']|] eqn:E.
    + intros H. apply IH in H as (t & -> & Ht). apply p_redir_sound in E as (t1 & -> & Hx).
      exists (t1 ++ t); split; [rewrite <- app_assoc; reflexivity|]. right.
      destruct Ht as [[-> ->]|[(rl' & -> & Hne & Hrl) Hstep]].
      * rewrite app_nil_r. split.
        -- exists [x]. repeat split; [discriminate|constructor; exact Hx].
        -- intros t0 H0. apply g_rl_more; assumption.
      * split.
        -- exists (x :: rl'). split; [rewrite <- app_assoc; reflexivity|]. split; [discriminate|].
           clear -Hx Hrl. induction Hrl as [ts r Hr|ts1 ts2 rl r Hrl IH Hr].
           ++ exact (g_rl_more t1 ts [x] r (g_rl_one _ _ Hx) Hr).
           ++ rewrite app_assoc. exact (g_rl_more (t1 ++ ts1) ts2 (x :: rl) r IH Hr).
        -- intros t0 H0. rewrite app_assoc. apply Hstep. apply g_rl_more; assumption.
    + intros H; injection H as <- <-. exists []; split; [reflexivity|left; auto].
Qed.

Lemma p_prefix_sound k : forall p ts p' r, p_prefix k p ts = (p', r) ->
  exists t, ts = t ++ r /\
    (forall t0, GPrefix t0 p -> GPrefix (t0 ++ t) p') /\
    (p = Prefix [] [] -> (t = [] /\ p' = p) \/ GPrefix t p').
Proof.
  induction k as [|k IH]; intros p ts p' r; cbn.
  - intros H; injection H as <- <-. exists []; split; [reflexivity|]. split; [|auto].
    intros t0; rewrite app_nil_r; auto.
  - destruct (p_redir ts) as [[x ts']|] eqn:E.
    + intros H. apply IH in H as (t & -> & Hs & _). apply p_redir_sound in E as (t1 & -> & Hx).
      exists (t1 ++ t); split; [rewrite <- app_assoc; reflexivity|]. split.
      * intros t0 H0. rewrite app_assoc. apply Hs. apply g_pf_more_redir; assumption.
      * intros ->. right. apply Hs. cbn. constructor; exact Hx.
    + destruct (p_assign ts) as [[a ts']|] eqn:E2.
      * intros H. apply IH in H as (t & -> & Hs & _). apply p_assign_sound in E2 as (t1 & -> & Hx).
        exists (t1 ++ t); split; [rewrite <- app_assoc; reflexivity|]. split.
        -- intros t0 H0. rewrite app_assoc. apply Hs. apply g_pf_more_assign; assumption.
        -- intros ->. right. apply Hs. cbn. apply g_pf_assign; exact Hx.
      * intros H; injection H as <- <-. exists []; split; [reflexivity|]. split; [|auto].
        intros t0; rewrite app_nil_r; auto.
Qed.

Lemma suffix_empty_iff s : suffix_empty s = true <-> s = Suffix [] [].
Proof.
  destruct s as [[|] [|]]; cbn; split; try discriminate; try reflexivity; intros H; injection H; discriminate.
Qed.
Lemma prefix_empty_iff s : prefix_empty s = true <-> s = Prefix [] [].
Proof.
  destruct s as [[|] [|]]; cbn; split; try discriminate; try reflexivity; intros H; injection H; discriminate.
Qed.

Lemma p_suffix_sound k : forall p ts p' r, p_suffix k p ts = (p', r) ->
  exists t, ts = t ++ r /\
    (forall t0, GSuffix t0 p -> GSuffix (t0 ++ t) p') /\
    (p = Suffix [] [] -> (t = [] /\ p' = p) \/ GSuffix t p').
Proof.
  induction k as [|k IH]; intros p ts p' r; cbn [p_suffix].
  - intros H; injection H as <- <-. exists []; split; [reflexivity|]. split; [|auto].
    intros t0; rewrite app_nil_r; auto.
  - assert (Hstop : (p, ts) = (p', r) ->
       exists t, ts = t ++ r /\ (forall t0, GSuffix t0 p -> GSuffix (t0 ++ t) p') /\
         (p = Suffix [] [] -> (t = [] /\ p' = p) \/ GSuffix t p')).
    { intros H; injection H as <- <-. exists []; split; [reflexivity|]. split; [|auto].
      intros t0; rewrite app_nil_r; auto. }
    destruct (p_redir ts) as [[x ts']|] eqn:E.
    + intros H. apply IH in H as (t & -> & Hs & _). apply p_redir_sound in E as (t1 & -> & Hx).
      exists (t1 ++ t); split; [rewrite <- app_assoc; reflexivity|]. split.
      * intros t0 H0. rewrite app_assoc. apply Hs. apply g_sf_more_redir; assumption.
      * intros ->. right. apply Hs. cbn. constructor; exact Hx.
    + destruct (p_assign ts) as [[a ts']|] eqn:E2.
      * intros H. apply IH in H as (t & -> & Hs & _). apply p_assign_sound in E2 as (t1 & -> & Hx).
        exists (t1 ++ t); split; [rewrite <- app_assoc; reflexivity|]. split.
        -- intros t0 H0. rewrite app_assoc. apply Hs. apply g_sf_more_assign; assumption.
        -- intros ->. right. apply Hs. cbn. apply g_sf_assign; exact Hx.
      * destruct ts as [|[] ts]; try exact Hstop.
        -- destruct (suffix_empty p) eqn:Ee; [exact Hstop|].
           intros H. apply IH in H as (t & -> & Hs' & _).
           exists (TSubshell s :: t); split; [reflexivity|]. split.
           ++ intros t0 H0. change (TSubshell s :: t) with ([TSubshell s] ++ t). rewrite app_assoc. apply Hs'.
              apply g_sf_more_word; [exact H0|constructor].
           ++ intros ->. discriminate.
        -- intros H. apply IH in H as (t & -> & Hs' & _).
           exists (TWord s :: t); split; [reflexivity|]. split.
           ++ intros t0 H0. change (TWord s :: t) with ([TWord s] ++ t). rewrite app_assoc. apply Hs'.
              apply g_sf_more_word; [exact H0|constructor].
           ++ intros ->. right. apply (Hs' [TWord s]). cbn. constructor.
Qed.

Lemma p_simple_sound ts sc r : p_simple ts = Some (sc, r) -> exists t, ts = t ++ r /\ GSimple t sc.
Proof.
  unfold p_simple.
  destruct (p_prefix (List.length ts) (Prefix [] []) ts) as [p ts1] eqn:Ep.
  apply p_prefix_sound in Ep as (t1 & -> & _ & Hp). specialize (Hp eq_refl).
  destruct (p_word ts1) as [[w ts2]|] eqn:Ew.
  - apply p_word_sound in Ew as (t2 & -> & Hw).
    destruct (p_suffix (List.length ts2) (Suffix [] []) ts2) as [s ts3] eqn:Es.
    apply p_suffix_sound in Es as (t3 & -> & _ & Hs). specialize (Hs eq_refl).
    intros H; injection H as <- <-. exists (t1 ++ t2 ++ t3). split; [rewrite <- !app_assoc; reflexivity|].
    assert (Hsuf : (t3 = [] /\ opt_suffix s = None) \/ (GSuffix t3 s /\ opt_suffix s = Some s)).
    { destruct Hs as [[-> ->]|Hs]; [left; auto|right]. split; [exact Hs|].
      unfold opt_suffix. destruct (suffix_empty s) eqn:E; [|reflexivity].
      apply suffix_empty_iff in E; subst. exfalso. clear -Hs. inversion Hs; destruct (s_redirect p); destruct (word_list p); discriminate. }
    assert (Hpre : (t1 = [] /\ opt_prefix p = None) \/ (GPrefix t1 p /\ opt_prefix p = Some p)).
    { destruct Hp as [[-> ->]|Hp]; [left; auto|right]. split; [exact Hp|].
      unfold opt_prefix. destruct (prefix_empty p) eqn:E; [|reflexivity].
      apply prefix_empty_iff in E; subst. exfalso. clear -Hp. inversion Hp; destruct (p_redirect p); destruct (assignment p); discriminate. }
    destruct Hpre as [[-> ->]|[Hpre ->]], Hsuf as [[-> ->]|[Hsuf ->]]; cbn [app]; rewrite ?app_nil_r.
    + apply g_sc_w; exact Hw.
    + apply g_sc_ws; assumption.
    + apply g_sc_pw; assumption.
    + apply g_sc_pws; assumption.
  - destruct Hp as [[-> ->]|Hp]; [discriminate|].
    destruct (prefix_empty p); [discriminate|]. intros H; injection H as <- <-.
    exists t1; split; [reflexivity|]. apply g_sc_p; exact Hp.
Qed.

Lemma p_separator_sound ts r : p_separator ts = Some r -> exists t, ts = t ++ r /\ GSeparator t.
Proof.
  intros H.
  assert (Hx : forall t, ts = t ++ r -> GSeparator t -> exists t, ts = t ++ r /\ GSeparator t) by eauto.
  unfold p_separator in H.
  repeat match type of H with context [match ?x with _ => _ end] => destruct x end;
    try discriminate; injection H as ->;
    (eapply Hx; [|constructor]; reflexivity) || idtac.
  all: match goal with
       | |- exists t, TSemiColon :: TNewlineList :: TNewlineList :: TEOF :: ?r = _ /\ _ => eexists; split; [|apply g_sep_semi_nl_nl_eof]; reflexivity
       | |- exists t, TSemiColon :: TNewlineList :: TNewlineList :: ?r = _ /\ _ => eexists; split; [|apply g_sep_semi_nl_nl]; reflexivity
       | |- exists t, TSemiColon :: TEOF :: ?r = _ /\ _ => eexists; split; [|apply g_sep_semi_eof]; reflexivity
       | |- exists t, TNewlineList :: TNewlineList :: TEOF :: ?r = _ /\ _ => eexists; split; [|apply g_sep_nl_nl_eof]; reflexivity
       | |- exists t, TNewlineList :: TNewlineList :: ?r = _ /\ _ => eexists; split; [|apply g_sep_nl_nl]; reflexivity
       | |- exists t, TNewlineList :: TEOF :: ?r = _ /\ _ => eexists; split; [|apply g_sep_nl_eof]; reflexivity
       | |- exists t, TNewlineList :: ?r = _ /\ _ => eexists; split; [|apply g_sep_nl]; reflexivity
       | |- exists t, TEOF :: ?r = _ /\ _ => eexists; split; [|apply g_sep_eof]; reflexivity
       | |- exists t, TSemiColon :: ?r = _ /\ _ => eexists; split; [|apply g_sep_semi]; reflexivity
       end.
Qed.

Lemma skip_nl_cases ts : skip_nl ts = ts \/ ts = TNewlineList :: skip_nl ts.
Proof. destruct ts as [|[] ts]; cbn; auto. Qed.

Section RecSound.
  Variable pc : list token -> option (list and_or * list token).
  (** what a sub-parser for compound lists guarantees *)
  Hypothesis pc_sound : forall ts l r, pc ts = Some (l, TCloseBrace :: r) ->
    exists t, ts = t ++ TCloseBrace :: r /\ GCompoundList t l.

  Lemma p_brace_sound ts b r : p_brace pc ts = Some (b, r) -> exists t, ts = t ++ r /\ GBrace t b.
  Proof.
    destruct ts as [|[] ts]; cbn; try discriminate.
    destruct (pc ts) as [[l [|[] r']]|] eqn:E; try discriminate. intros H; injection H as <- <-.
    apply pc_sound in E as (t & -> & Ht).
    exists (TOpenBrace :: t ++ [TCloseBrace]). split; [cbn; rewrite <- app_assoc; reflexivity|].
    constructor; exact Ht.
  Qed.

  Lemma p_command_sound ts c r : p_command pc ts = Some (c, r) -> exists t, ts = t ++ r /\ GCommand t c.
  Proof.
    assert (Hs : match p_simple ts with Some (sc, r) => Some (CSimple sc, r) | None => None end = Some (c, r) ->
                 exists t, ts = t ++ r /\ GCommand t c).
    { destruct (p_simple ts) as [[sc r']|] eqn:E; [|discriminate]. intros H; injection H as <- <-.
      apply p_simple_sound in E as (t & -> & Ht). exists t; split; [reflexivity|constructor; exact Ht]. }
    unfold p_command. destruct ts as [|t1 ts]; [exact Hs|]. destruct t1; try exact Hs.
    - destruct (p_brace pc (TOpenBrace :: ts)) as [[b r']|] eqn:E; [|discriminate].
      intros H; injection H as <- <-. apply p_brace_sound in E as (t & -> & Ht).
      exists t; split; [reflexivity|apply g_cmd_group; exact Ht].
    - destruct ts as [|t2 ts]; [exact Hs|]. destruct t2; try exact Hs.
      destruct ts as [|t3 ts]; [discriminate|]. destruct t3; try discriminate.
      destruct (p_brace pc (skip_nl ts)) as [[b r2]|] eqn:E; [|discriminate].
      apply p_brace_sound in E as (tb & Eb & Hb).
      destruct (p_redirs (List.length r2) [] r2) as [rl r3] eqn:Er.
      apply p_redirs_sound in Er as (tr & -> & Hr).
      assert (Hbody : exists ro, GBody (tb ++ tr) b ro /\
                ((match rl with [] => Some (CFunction s b None, r3) | _ => Some (CFunction s b (Some rl), r3) end)
                 = Some (CFunction s b ro, r3))).
      { destruct Hr as [[-> ->]|[(rl' & Erl & Hne & Hrl) _]].
        - exists None. rewrite app_nil_r. split; [constructor; exact Hb|reflexivity].
        - cbn in Erl. subst rl'. exists (Some rl). split; [constructor; assumption|].
          destruct rl; [congruence|reflexivity]. }
      destruct Hbody as (ro & Hbody & ->). intros H; injection H as <- <-.
      destruct (skip_nl_cases ts) as [E|E]; rewrite Eb in E.
      + exists (TWord s :: TOpenParen :: TCloseParen :: tb ++ tr). split.
        * rewrite <- E. cbn. rewrite <- app_assoc. reflexivity.
        * apply g_cmd_function, g_fn; exact Hbody.
      + exists (TWord s :: TOpenParen :: TCloseParen :: TNewlineList :: tb ++ tr). split.
        * rewrite E. cbn. rewrite <- app_assoc. reflexivity.
        * apply g_cmd_function, g_fn_nl; exact Hbody.
  Qed.

  Lemma p_seq_sound k : forall acc ts cs r, p_seq pc k acc ts = Some (cs, r) ->
    exists t, ts = t ++ r /\
      (acc = [] -> GPipelineSeq t cs) /\
      (forall t0, GPipelineSeq t0 acc -> GPipelineSeq (t0 ++ TPipe :: t) cs).
  Proof.
    induction k as [|k IH]; intros acc ts cs r H; cbn [p_seq] in H.
    - destruct (p_command pc ts) as [[c r']|] eqn:E; [|discriminate].
      assert (Heq : (acc ++ [c], r') = (cs, r)) by (destruct r' as [|[] r']; congruence).
      injection Heq as <- <-. apply p_command_sound in E as (t & -> & Hc).
      exists t; split; [reflexivity|]. split; [intros ->; constructor; exact Hc|].
      intros t0 H0; constructor; assumption.
    - destruct (p_command pc ts) as [[c r']|] eqn:E; [|discriminate].
      apply p_command_sound in E as (t & -> & Hc).
      assert (Hcase : (acc ++ [c], r') = (cs, r) \/ exists r2, r' = TPipe :: r2 /\ p_seq pc k (acc ++ [c]) r2 = Some (cs, r)).
      { destruct r' as [|[] r']; try (left; congruence). right; eauto. }
      destruct Hcase as [Heq|(r2 & -> & H2)].
      + injection Heq as <- <-. exists t; split; [reflexivity|]. split; [intros ->; constructor; exact Hc|].
        intros t0 H0; constructor; assumption.
      + apply IH in H2 as (t2 & -> & _ & Hstep).
        exists (t ++ TPipe :: t2). split; [rewrite <- app_assoc; reflexivity|]. split.
        * intros ->. apply Hstep. constructor; exact Hc.
        * intros t0 H0. replace (t0 ++ TPipe :: t ++ TPipe :: t2) with ((t0 ++ TPipe :: t) ++ TPipe :: t2)
            by (rewrite <- app_assoc; reflexivity).
          apply Hstep. constructor; assumption.
  Qed.

  Lemma p_pipeline_sound ts p r : p_pipeline pc ts = Some (p, r) -> exists t, ts = t ++ r /\ GPipeline t p.
  Proof.
    unfold p_pipeline. intros H.
    destruct (match ts with TBang :: r => (true, r) | _ => (false, ts) end) as [bang ts1] eqn:Eb.
    destruct (p_seq pc (List.length ts1) [] ts1) as [[cs r']|] eqn:E; [|discriminate].
    apply p_seq_sound in E as (t & Et & Hseq & _). specialize (Hseq eq_refl).
    assert (Hcase : (p, r) = (Pipeline bang cs false, r') \/
                    exists r2, r' = TAmpersand :: r2 /\ (p, r) = (Pipeline bang cs (negb bang), r2)).
    { destruct r' as [|[] r']; try (left; congruence). right; exists r'; split; congruence. }
    clear H.
    assert (Hb : (bang = true /\ ts = TBang :: ts1) \/ (bang = false /\ ts = ts1)).
    { destruct ts as [|[] ts0]; try (right; split; congruence). left; split; congruence. }
    destruct Hcase as [Heq|(r2 & -> & Heq)]; injection Heq as -> ->; subst ts1.
    - destruct Hb as [[-> ->]|[-> ->]].
      + exists (TBang :: t). split; [reflexivity|constructor; exact Hseq].
      + exists t. split; [reflexivity|constructor; exact Hseq].
    - destruct Hb as [[-> ->]|[-> ->]].
      + exists (TBang :: t ++ [TAmpersand]). split; [cbn; rewrite <- app_assoc; reflexivity|constructor; exact Hseq].
      + exists (t ++ [TAmpersand]). split; [rewrite <- app_assoc; reflexivity|constructor; exact Hseq].
  Qed.

  Lemma p_andor_tail_sound k : forall a ts a' r, p_andor_tail pc k a ts = Some (a', r) ->
    exists t, ts = t ++ r /\ forall t0, GAndOr t0 a -> GAndOr (t0 ++ t) a'.
  Proof.
    induction k as [|k IH]; intros a ts a' r H; cbn [p_andor_tail] in H.
    - injection H as <- <-. exists []; split; [reflexivity|]. intros t0; rewrite app_nil_r; auto.
    - assert (Hstop : Some (a, ts) = Some (a', r) -> exists t, ts = t ++ r /\ forall t0, GAndOr t0 a -> GAndOr (t0 ++ t) a').
      { intros E; injection E as <- <-. exists []; split; [reflexivity|]. intros t0; rewrite app_nil_r; auto. }
      destruct ts as [|[] ts]; try exact (Hstop H); clear Hstop.
      + destruct (p_pipeline pc (skip_nl ts)) as [[p r']|] eqn:E; [|discriminate].
        apply p_pipeline_sound in E as (tp & Ep & Hp). apply IH in H as (t & -> & Hstep).
        destruct (skip_nl_cases ts) as [E|E]; rewrite Ep in E.
        * exists (TAnd :: tp ++ t). split; [rewrite <- E; cbn; rewrite <- app_assoc; reflexivity|].
          intros t0 H0. replace (t0 ++ TAnd :: tp ++ t) with ((t0 ++ TAnd :: tp) ++ t) by (rewrite <- app_assoc; reflexivity).
          apply Hstep. apply g_ao_and; assumption.
        * exists (TAnd :: TNewlineList :: tp ++ t). split; [rewrite E; cbn; rewrite <- app_assoc; reflexivity|].
          intros t0 H0. replace (t0 ++ TAnd :: TNewlineList :: tp ++ t) with ((t0 ++ TAnd :: TNewlineList :: tp) ++ t)
            by (rewrite <- app_assoc; reflexivity).
          apply Hstep. apply g_ao_and_nl; assumption.
      + destruct (p_pipeline pc (skip_nl ts)) as [[p r']|] eqn:E; [|discriminate].
        apply p_pipeline_sound in E as (tp & Ep & Hp). apply IH in H as (t & -> & Hstep).
        destruct (skip_nl_cases ts) as [E|E]; rewrite Ep in E.
        * exists (TOr :: tp ++ t). split; [rewrite <- E; cbn; rewrite <- app_assoc; reflexivity|].
          intros t0 H0. replace (t0 ++ TOr :: tp ++ t) with ((t0 ++ TOr :: tp) ++ t) by (rewrite <- app_assoc; reflexivity).
          apply Hstep. apply g_ao_or; assumption.
        * exists (TOr :: TNewlineList :: tp ++ t). split; [rewrite E; cbn; rewrite <- app_assoc; reflexivity|].
          intros t0 H0. replace (t0 ++ TOr :: TNewlineList :: tp ++ t) with ((t0 ++ TOr :: TNewlineList :: tp) ++ t)
            by (rewrite <- app_assoc; reflexivity).
          apply Hstep. apply g_ao_or_nl; assumption.
  Qed.

  Lemma p_andor_sound ts a r : p_andor pc ts = Some (a, r) -> exists t, ts = t ++ r /\ GAndOr t a.
  Proof.
    unfold p_andor. destruct (p_pipeline pc ts) as [[p r']|] eqn:E; [|discriminate].
    apply p_pipeline_sound in E as (tp & -> & Hp). intros H.
    apply p_andor_tail_sound in H as (t & -> & Hstep). exists (tp ++ t).
    split; [rewrite <- app_assoc; reflexivity|]. apply Hstep. constructor; exact Hp.
  Qed.

  Lemma p_term_tail_sound k : forall l ts l' r, p_term_tail pc k l ts = Some (l', r) ->
    forall t0, GTerm t0 l -> exists t, ts = t ++ r /\ (GTerm (t0 ++ t) l' \/
       exists t1 t2, t = t1 ++ t2 /\ GTerm (t0 ++ t1) l' /\ GSeparator t2).
  Proof.
    induction k as [|k IH]; intros l ts l' r H t0 H0; cbn [p_term_tail] in H.
    - injection H as <- <-. exists []; split; [reflexivity|]. left. rewrite app_nil_r; exact H0.
    - destruct (p_separator ts) as [r1|] eqn:Es.
      + apply p_separator_sound in Es as (ts1 & -> & Hs).
        destruct (starts_command r1) eqn:Ec.
        * destruct (p_andor pc r1) as [[a r2]|] eqn:Ea; [|discriminate].
          apply p_andor_sound in Ea as (ta & -> & Ha).
          destruct (IH _ _ _ _ H (t0 ++ ts1 ++ ta)) as (t & -> & Ht); [constructor; assumption|].
          exists (ts1 ++ ta ++ t). split; [rewrite <- !app_assoc; reflexivity|].
          destruct Ht as [Ht|(t1 & t2 & -> & Ht & Hs2)].
          -- left. rewrite <- !app_assoc in Ht. exact Ht.
          -- right. exists (ts1 ++ ta ++ t1), t2. split; [rewrite <- !app_assoc; reflexivity|].
             split; [|exact Hs2]. rewrite <- !app_assoc in Ht. exact Ht.
        * injection H as <- <-. exists ts1; split; [reflexivity|]. right. exists [], ts1.
          split; [reflexivity|]. split; [rewrite app_nil_r; exact H0|exact Hs].
      + injection H as <- <-. exists []; split; [reflexivity|]. left. rewrite app_nil_r; exact H0.
  Qed.

  Lemma p_list_tail_sound k : forall l ts l' r, p_list_tail pc k l ts = Some (l', r) ->
    forall t0, GList t0 l -> exists t, ts = t ++ r /\ GList (t0 ++ t) l'.
  Proof.
    induction k as [|k IH]; intros l ts l' r H t0 H0; cbn [p_list_tail] in H.
    - injection H as <- <-. exists []; split; [reflexivity|]. rewrite app_nil_r; exact H0.
    - assert (Hstop : Some (l, ts) = Some (l', r) -> exists t, ts = t ++ r /\ GList (t0 ++ t) l').
      { intros E; injection E as <- <-. exists []; split; [reflexivity|]. rewrite app_nil_r; exact H0. }
      assert (Hgo : forall s ts', ts = s :: ts' -> GCmdSepOp [s] ->
        (if starts_command ts' then match p_andor pc ts' with
              | Some (a, r') => p_list_tail pc k (l ++ [a]) r' | None => None end else Some (l, ts)) = Some (l', r) ->
        exists t, ts = t ++ r /\ GList (t0 ++ t) l').
      { intros s ts' -> Hs Hg. destruct (starts_command ts'); [|exact (Hstop Hg)].
        destruct (p_andor pc ts') as [[a r2]|] eqn:Ea; [|discriminate].
        apply p_andor_sound in Ea as (ta & -> & Ha).
        destruct (IH _ _ _ _ Hg (t0 ++ [s] ++ ta)) as (t & -> & Ht); [constructor; assumption|].
        exists (s :: ta ++ t). split; [cbn; rewrite <- !app_assoc; reflexivity|].
        rewrite <- !app_assoc in Ht. exact Ht. }
      destruct ts as [|t1 ts]; [exact (Hstop H)|].
      destruct t1; try exact (Hstop H).
      + exact (Hgo _ _ eq_refl g_op_nl H).
      + exact (Hgo _ _ eq_refl g_op_semi H).
  Qed.
End RecSound.

Lemma p_clist_sound n : forall ts l r, p_clist n ts = Some (l, r) ->
  exists t, ts = t ++ r /\ GCompoundList t l.
Proof.
  induction n as [|n IH]; intros ts l r H; cbn [p_clist] in H; [discriminate|].
  assert (Hpc : forall ts l r, p_clist n ts = Some (l, TCloseBrace :: r) ->
    exists t, ts = t ++ TCloseBrace :: r /\ GCompoundList t l) by (intros; apply IH; assumption).
  destruct (p_andor (p_clist n) (skip_nl ts)) as [[a r1]|] eqn:Ea; [|discriminate].
  apply (p_andor_sound _ Hpc) in Ea as (ta & Eta & Ha).
  destruct (p_term_tail_sound _ Hpc _ _ _ _ _ H ta (g_term_one _ _ Ha)) as (t & -> & Ht).
  destruct (skip_nl_cases ts) as [E|E]; rewrite Eta in E.
  - exists (ta ++ t). split; [rewrite <- E, app_assoc; reflexivity|].
    destruct Ht as [Ht|(t1 & t2 & -> & Ht & Hs)]; [apply g_cl; exact Ht|].
    rewrite app_assoc. apply g_cl_sep; assumption.
  - exists (TNewlineList :: ta ++ t). split; [rewrite E; cbn; rewrite app_assoc; reflexivity|].
    destruct Ht as [Ht|(t1 & t2 & -> & Ht & Hs)]; [apply g_cl_nl; exact Ht|].
    rewrite app_assoc. apply g_cl_nl_sep; assumption.
Qed.

Lemma p_clist_sound_brace n : forall ts l r, p_clist n ts = Some (l, TCloseBrace :: r) ->
  exists t, ts = t ++ TCloseBrace :: r /\ GCompoundList t l.
Proof. intros; eapply p_clist_sound; eassumption. Qed.

Lemma p_list_sound n ts l r : p_list n ts = Some (l, r) -> exists t, ts = t ++ r /\ GList t l.
Proof.
  unfold p_list. destruct (p_andor (p_clist n) ts) as [[a r1]|] eqn:Ea; [|discriminate].
  apply (p_andor_sound _ (p_clist_sound_brace n)) in Ea as (ta & -> & Ha). intros H.
  destruct (p_list_tail_sound _ (p_clist_sound_brace n) _ _ _ _ _ H ta (g_list_one _ _ Ha)) as (t & -> & Ht).
  exists (ta ++ t). split; [rewrite <- app_assoc; reflexivity|exact Ht].
Qed.

Theorem parse_tokens_sound ts v : parse_tokens ts = Some v -> GComplete ts v.
Proof.
  unfold parse_tokens. destruct (p_separator ts) as [r|] eqn:Es.
  - apply p_separator_sound in Es as (t & -> & Hs). destruct r as [|x r].
    + intros H; injection H as <-. rewrite app_nil_r. apply g_sep; exact Hs.
    + destruct (p_list _ (x :: r)) as [[l [|]]|] eqn:El; try discriminate. intros H; injection H as <-.
      apply p_list_sound in El as (t2 & E & Hl). rewrite app_nil_r in E. rewrite E.
      apply g_sep_list; assumption.
  - destruct (p_list _ ts) as [[l r]|] eqn:El; [|discriminate].
    apply p_list_sound in El as (t & -> & Hl). destruct r as [|x r].
    + intros H; injection H as <-. rewrite app_nil_r. apply g_list; exact Hl.
    + destruct (p_separator (x :: r)) as [[|]|] eqn:Es2; try discriminate. intros H; injection H as <-.
      apply p_separator_sound in Es2 as (t2 & E & Hs2). rewrite app_nil_r in E. rewrite E.
      apply g_list_sep; assumption.
Qed.

(** ** Completeness *)

(** Tokens that may follow a command, a pipeline, an and-or list. *)
Definition follow_cmd (ts : list token) : Prop :=
  match ts with
  | [] => True
  | t :: _ => In t [TPipe; TAmpersand; TAnd; TOr; TSemiColon; TNewlineList; TEOF; TCloseBrace]
  end.
Definition follow_seq (ts : list token) : Prop :=
  match ts with
  | [] => True
  | t :: _ => In t [TAmpersand; TAnd; TOr; TSemiColon; TNewlineList; TEOF; TCloseBrace]
  end.
Definition follow_pl (ts : list token) : Prop :=
  match ts with
  | [] => True
  | t :: _ => In t [TAnd; TOr; TSemiColon; TNewlineList; TEOF; TCloseBrace]
  end.
Definition follow_ao (ts : list token) : Prop :=
  match ts with
  | [] => True
  | t :: _ => In t [TSemiColon; TNewlineList; TEOF; TCloseBrace]
  end.

Lemma follow_ao_pl ts : follow_ao ts -> follow_pl ts.
Proof. destruct ts; cbn; tauto. Qed.
Lemma follow_pl_seq ts : follow_pl ts -> follow_seq ts.
Proof. destruct ts; cbn; tauto. Qed.
Lemma follow_seq_cmd ts : follow_seq ts -> follow_cmd ts.
Proof. destruct ts; cbn; tauto. Qed.

Lemma p_word_complete t w rest : GWord t w -> p_word (t ++ rest) = Some (w, rest).
Proof. destruct 1; reflexivity. Qed.

Lemma p_iofile_complete t k w rest : GIOFile t (k, w) -> p_iofile (t ++ rest) = Some (k, w, rest).
Proof. intros H; inversion H; subst; cbn [app p_iofile]; erewrite p_word_complete by eassumption; reflexivity. Qed.

Lemma p_redir_complete t x rest : GIORedirect t x -> p_redir (t ++ rest) = Some (x, rest).
Proof.
  destruct 1 as [t k f H|n t k f H].
  - pose proof (p_iofile_complete _ _ _ rest H) as E. inv H; cbn in *; rewrite E; reflexivity.
  - cbn. rewrite (p_iofile_complete _ _ _ rest H). reflexivity.
Qed.

Lemma p_assign_complete t a rest : GAssignment t a -> p_assign (t ++ rest) = Some (a, rest).
Proof. destruct 1 as [v t w H]. cbn. rewrite (p_word_complete _ _ rest H). reflexivity. Qed.

Lemma p_assign_not_redir t a rest : GAssignment t a -> p_redir (t ++ rest) = None.
Proof. destruct 1; reflexivity. Qed.

Definition not_equals (ts : list token) : Prop := match ts with TEquals :: _ => False | _ => True end.

Lemma GWord_not_redir t w rest : GWord t w -> p_redir (t ++ rest) = None.
Proof. destruct 1; reflexivity. Qed.

Lemma GWord_not_assign t w rest : GWord t w -> not_equals rest -> p_assign (t ++ rest) = None.
Proof. destruct 1; [|reflexivity]. destruct rest as [|[] rest]; cbn; intros H; try reflexivity; contradiction. Qed.

Lemma GWord_head t w rest : GWord t w -> not_equals (t ++ rest).
Proof. destruct 1; exact I. Qed.
Lemma GIORedirect_head t w rest : GIORedirect t w -> not_equals (t ++ rest).
Proof. destruct 1 as [t k f H|]; [inv H; exact I|exact I]. Qed.
Lemma GAssignment_head t w rest : GAssignment t w -> not_equals (t ++ rest).
Proof. destruct 1; exact I. Qed.

Lemma GWord_len t w : GWord t w -> List.length t = 1. Proof. destruct 1; reflexivity. Qed.
Lemma GIORedirect_len t w : GIORedirect t w -> 1 <= List.length t.
Proof. destruct 1 as [t k f H|]; [inv H|]; cbn; lia. Qed.
Lemma GAssignment_len t w : GAssignment t w -> 1 <= List.length t. Proof. destruct 1; cbn; lia. Qed.

(** The loops can be resumed in the middle. *)
Lemma p_redirs_resume t rl : GRedirectList t rl -> forall rest k, List.length (t ++ rest) <= k ->
  exists k', List.length rest <= k' /\ p_redirs k [] (t ++ rest) = p_redirs k' rl rest.
Proof.
  induction 1 as [t r Hr|t1 t2 rl r H1 IH Hr]; intros rest k Hk.
  - pose proof (GIORedirect_len _ _ Hr). rewrite app_length in Hk. destruct k as [|k]; [lia|].
    exists k. split; [lia|]. cbn [p_redirs]. rewrite (p_redir_complete _ _ rest Hr). reflexivity.
  - rewrite <- app_assoc in *. destruct (IH (t2 ++ rest) k Hk) as (k1 & Hk1 & ->).
    pose proof (GIORedirect_len _ _ Hr). rewrite app_length in Hk1. destruct k1 as [|k1]; [lia|].
    exists k1. split; [lia|]. cbn [p_redirs]. rewrite (p_redir_complete _ _ rest Hr). reflexivity.
Qed.

Lemma p_prefix_resume t p : GPrefix t p -> forall rest k, List.length (t ++ rest) <= k ->
  exists k', List.length rest <= k' /\ p_prefix k (Prefix [] []) (t ++ rest) = p_prefix k' p rest.
Proof.
  induction 1 as [t r Hr|t1 t2 p r H1 IH Hr|t a Ha|t1 t2 p a H1 IH Ha]; intros rest k Hk.
  - pose proof (GIORedirect_len _ _ Hr). rewrite app_length in Hk. destruct k as [|k]; [lia|].
    exists k. split; [lia|]. cbn [p_prefix]. rewrite (p_redir_complete _ _ rest Hr). reflexivity.
  - rewrite <- app_assoc in *. destruct (IH (t2 ++ rest) k Hk) as (k1 & Hk1 & ->).
    pose proof (GIORedirect_len _ _ Hr). rewrite app_length in Hk1. destruct k1 as [|k1]; [lia|].
    exists k1. split; [lia|]. cbn [p_prefix]. rewrite (p_redir_complete _ _ rest Hr). reflexivity.
  - pose proof (GAssignment_len _ _ Ha). rewrite app_length in Hk. destruct k as [|k]; [lia|].
    exists k. split; [lia|]. cbn [p_prefix].
    rewrite (p_assign_not_redir _ _ rest Ha), (p_assign_complete _ _ rest Ha). reflexivity.
  - rewrite <- app_assoc in *. destruct (IH (t2 ++ rest) k Hk) as (k1 & Hk1 & ->).
    pose proof (GAssignment_len _ _ Ha). rewrite app_length in Hk1. destruct k1 as [|k1]; [lia|].
    exists k1. split; [lia|]. cbn [p_prefix].
    rewrite (p_assign_not_redir _ _ rest Ha), (p_assign_complete _ _ rest Ha). reflexivity.
Qed.

Lemma GSuffix_nonempty t p : GSuffix t p -> suffix_empty p = false.
Proof.
  intros H. destruct (suffix_empty p) eqn:E; [|reflexivity]. apply suffix_empty_iff in E; subst. exfalso.
  inversion H; destruct (s_redirect p); destruct (word_list p); discriminate.
Qed.
Lemma GPrefix_nonempty t p : GPrefix t p -> prefix_empty p = false.
Proof.
  intros H. destruct (prefix_empty p) eqn:E; [|reflexivity]. apply prefix_empty_iff in E; subst. exfalso.
  inversion H; destruct (p_redirect p); destruct (assignment p); discriminate.
Qed.

Lemma p_suffix_word k s t w rest : GWord t w -> not_equals rest -> suffix_empty s = false ->
  p_suffix (S k) s (t ++ rest) = p_suffix k (Suffix (s_redirect s) (word_list s ++ [w])) rest.
Proof.
  intros Hw Hn He. cbn [p_suffix]. rewrite (GWord_not_redir _ _ rest Hw), (GWord_not_assign _ _ rest Hw Hn).
  destruct Hw; cbn [app]; [reflexivity|]. rewrite He. reflexivity.
Qed.

Lemma p_suffix_resume t p : GSuffix t p -> forall rest k, not_equals rest -> List.length (t ++ rest) <= k ->
  exists k', List.length rest <= k' /\ p_suffix k (Suffix [] []) (t ++ rest) = p_suffix k' p rest.
Proof.
  induction 1 as [t r Hr|t1 t2 p r H1 IH Hr|w|t1 t2 p w H1 IH Hw|t a Ha|t1 t2 p a H1 IH Ha]; intros rest k Hne Hk.
  - pose proof (GIORedirect_len _ _ Hr). rewrite app_length in Hk. destruct k as [|k]; [lia|].
    exists k. split; [lia|]. cbn [p_suffix]. rewrite (p_redir_complete _ _ rest Hr). reflexivity.
  - rewrite <- app_assoc in *. destruct (IH (t2 ++ rest) k (GIORedirect_head _ _ _ Hr) Hk) as (k1 & Hk1 & ->).
    pose proof (GIORedirect_len _ _ Hr). rewrite app_length in Hk1. destruct k1 as [|k1]; [lia|].
    exists k1. split; [lia|]. cbn [p_suffix]. rewrite (p_redir_complete _ _ rest Hr). reflexivity.
  - rewrite app_length in Hk. cbn in Hk. destruct k as [|k]; [lia|]. exists k. split; [lia|].
    cbn [p_suffix]. rewrite (GWord_not_redir _ _ rest (g_word w)), (GWord_not_assign _ _ rest (g_word w) Hne). reflexivity.
  - rewrite <- app_assoc in *. destruct (IH (t2 ++ rest) k (GWord_head _ _ _ Hw) Hk) as (k1 & Hk1 & ->).
    pose proof (GWord_len _ _ Hw). rewrite app_length in Hk1. destruct k1 as [|k1]; [lia|].
    exists k1. split; [lia|]. apply p_suffix_word; [exact Hw|exact Hne|]. eapply GSuffix_nonempty; exact H1.
  - pose proof (GAssignment_len _ _ Ha). rewrite app_length in Hk. destruct k as [|k]; [lia|].
    exists k. split; [lia|]. cbn [p_suffix].
    rewrite (p_assign_not_redir _ _ rest Ha), (p_assign_complete _ _ rest Ha). reflexivity.
  - rewrite <- app_assoc in *. destruct (IH (t2 ++ rest) k (GAssignment_head _ _ _ Ha) Hk) as (k1 & Hk1 & ->).
    pose proof (GAssignment_len _ _ Ha). rewrite app_length in Hk1. destruct k1 as [|k1]; [lia|].
    exists k1. split; [lia|]. cbn [p_suffix].
    rewrite (p_assign_not_redir _ _ rest Ha), (p_assign_complete _ _ rest Ha). reflexivity.
Qed.

Lemma follow_stops rest : follow_cmd rest ->
  p_redir rest = None /\ p_assign rest = None /\ p_word rest = None /\ not_equals rest.
Proof.
  destruct rest as [|t rest]; [repeat split; reflexivity|]. cbn.
  intros H. repeat destruct H as [<-|H]; try (repeat split; reflexivity). contradiction.
Qed.

Lemma p_suffix_stop k s rest : follow_cmd rest -> p_suffix k s rest = (s, rest).
Proof.
  intros H. destruct (follow_stops rest H) as (H1 & H2 & H3 & _).
  destruct k; [reflexivity|]. cbn [p_suffix]. rewrite H1, H2.
  destruct rest as [|[] rest]; try reflexivity; discriminate.
Qed.

Lemma p_prefix_stop k s rest : p_redir rest = None -> p_assign rest = None -> p_prefix k s rest = (s, rest).
Proof. intros H1 H2. destruct k; [reflexivity|]. cbn [p_prefix]. rewrite H1, H2. reflexivity. Qed.

Lemma p_redirs_stop k s rest : follow_cmd rest -> p_redirs k s rest = (s, rest).
Proof.
  intros H. destruct (follow_stops rest H) as (H1 & _). destruct k; [reflexivity|]. cbn. rewrite H1; reflexivity.
Qed.

Lemma GSuffix_head t s rest : GSuffix t s -> not_equals (t ++ rest).
Proof.
  induction 1 as [t r Hr|t1 t2 p r H1 IH Hr|w|t1 t2 p w H1 IH Hw|t a Ha|t1 t2 p a H1 IH Ha].
  - eapply GIORedirect_head; exact Hr.
  - destruct t1; [eapply GIORedirect_head; exact Hr|destruct t; exact IH].
  - exact I.
  - destruct t1; [eapply GWord_head; exact Hw|destruct t; exact IH].
  - eapply GAssignment_head; exact Ha.
  - destruct t1; [eapply GAssignment_head; exact Ha|destruct t; exact IH].
Qed.

Lemma p_simple_complete t sc rest : GSimple t sc -> follow_cmd rest -> p_simple (t ++ rest) = Some (sc, rest).
Proof.
  intros H Hf. destruct (follow_stops rest Hf) as (Hs1 & Hs2 & Hs3 & Hs4).
  assert (Hprefix : forall t1 p rest', GPrefix t1 p -> p_redir rest' = None -> p_assign rest' = None ->
    p_prefix (List.length (t1 ++ rest')) (Prefix [] []) (t1 ++ rest') = (p, rest')).
  { intros t1 p rest' Hp Hr Ha. destruct (p_prefix_resume _ _ Hp rest' _ (le_n _)) as (k & _ & ->).
    apply p_prefix_stop; assumption. }
  assert (Hsuffix : forall t3 s, GSuffix t3 s ->
    p_suffix (List.length (t3 ++ rest)) (Suffix [] []) (t3 ++ rest) = (s, rest)).
  { intros t3 s Hs. destruct (p_suffix_resume _ _ Hs rest _ Hs4 (le_n _)) as (k & _ & ->).
    apply p_suffix_stop; exact Hf. }
  unfold p_simple. destruct H as [t1 t2 t3 p w s Hp Hw Hs|t1 t2 p w Hp Hw|t2 t3 w s Hw Hs|t2 w Hw|t1 p Hp].
  - rewrite <- !app_assoc.
    rewrite (Hprefix _ _ _ Hp (GWord_not_redir _ _ _ Hw) (GWord_not_assign _ _ _ Hw (GSuffix_head _ _ _ Hs))).
    rewrite (p_word_complete _ _ _ Hw), (Hsuffix _ _ Hs).
    unfold opt_prefix, opt_suffix. rewrite (GSuffix_nonempty _ _ Hs), (GPrefix_nonempty _ _ Hp). reflexivity.
  - rewrite <- !app_assoc.
    rewrite (Hprefix _ _ _ Hp (GWord_not_redir _ _ _ Hw) (GWord_not_assign _ _ _ Hw Hs4)).
    rewrite (p_word_complete _ _ _ Hw), (p_suffix_stop _ _ _ Hf).
    unfold opt_prefix. rewrite (GPrefix_nonempty _ _ Hp). reflexivity.
  - rewrite <- !app_assoc.
    rewrite (p_prefix_stop _ _ _ (GWord_not_redir _ _ _ Hw) (GWord_not_assign _ _ _ Hw (GSuffix_head _ _ _ Hs))).
    rewrite (p_word_complete _ _ _ Hw), (Hsuffix _ _ Hs).
    unfold opt_suffix. rewrite (GSuffix_nonempty _ _ Hs). reflexivity.
  - rewrite (p_prefix_stop _ _ _ (GWord_not_redir _ _ _ Hw) (GWord_not_assign _ _ _ Hw Hs4)).
    rewrite (p_word_complete _ _ _ Hw), (p_suffix_stop _ _ _ Hf). reflexivity.
  - rewrite (Hprefix _ _ _ Hp Hs1 Hs2), Hs3, (GPrefix_nonempty _ _ Hp). reflexivity.
Qed.

(** First tokens *)
Lemma starts_app ts rest : starts_command ts = true -> starts_command (ts ++ rest) = true.
Proof. destruct ts; [discriminate|intros H; exact H]. Qed.

Lemma GWord_starts t w : GWord t w -> starts_command t = true. Proof. destruct 1; reflexivity. Qed.
Lemma GIORedirect_starts t r : GIORedirect t r -> starts_command t = true.
Proof. destruct 1 as [t k f H|]; [inv H|]; reflexivity. Qed.
Lemma GAssignment_starts t r : GAssignment t r -> starts_command t = true.
Proof. destruct 1; reflexivity. Qed.
Lemma GPrefix_starts t r : GPrefix t r -> starts_command t = true.
Proof.
  induction 1; try (apply starts_app; assumption);
    eauto using GIORedirect_starts, GAssignment_starts.
Qed.
Lemma GSimple_starts t r : GSimple t r -> starts_command t = true.
Proof. destruct 1; try apply starts_app; eauto using GPrefix_starts, GWord_starts. Qed.
Lemma GCommand_starts t c : GCommand t c -> starts_command t = true.
Proof.
  destruct 1 as [t sc H|t n b r H|t b H]; [eapply GSimple_starts; exact H|inv H; reflexivity|inv H; reflexivity].
Qed.
Lemma GSeq_starts t c : GPipelineSeq t c -> starts_command t = true.
Proof. induction 1; [eapply GCommand_starts; eassumption|apply starts_app; assumption]. Qed.
Lemma GPipeline_starts t c : GPipeline t c -> starts_command t = true.
Proof. destruct 1; try reflexivity; try apply starts_app; eapply GSeq_starts; eassumption. Qed.
Lemma GAndOr_starts t c : GAndOr t c -> starts_command t = true.
Proof. induction 1; [eapply GPipeline_starts; eassumption|apply starts_app; assumption..]. Qed.
Lemma GTerm_starts t c : GTerm t c -> starts_command t = true.
Proof. induction 1; [apply starts_app; assumption|eapply GAndOr_starts; eassumption]. Qed.
Lemma GList_starts t c : GList t c -> starts_command t = true.
Proof. induction 1; [apply starts_app; assumption|eapply GAndOr_starts; eassumption]. Qed.

Lemma starts_no_skip ts : starts_command ts = true -> skip_nl ts = ts.
Proof. destruct ts as [|[] ts]; try discriminate; reflexivity. Qed.

Lemma starts_no_sep ts : starts_command ts = true -> p_separator ts = None.
Proof. destruct ts as [|[] ts]; try discriminate; reflexivity. Qed.

(** separators, before anything that does not extend them *)
Definition sep_follow (ts : list token) : Prop :=
  match ts with (TNewlineList | TEOF) :: _ => False | _ => True end.

Lemma p_separator_complete t rest : GSeparator t -> sep_follow rest -> p_separator (t ++ rest) = Some rest.
Proof. intros H Hf. destruct H; cbn; destruct rest as [|[] rest]; try reflexivity; contradiction. Qed.

Lemma starts_sep_follow ts : starts_command ts = true -> sep_follow ts.
Proof. destruct ts as [|[] ts]; try discriminate; intros _; exact I. Qed.

Lemma GSimple_second t sc : GSimple t sc -> forall rest, follow_cmd rest ->
  match t ++ rest with
  | TOpenBrace :: _ => False
  | TWord _ :: TOpenParen :: _ => False
  | _ => True
  end.
Proof.
  (* either the text starts with a redirection, or its second token is not "(" *)
  assert (Hpf : forall t p, GPrefix t p -> forall rest,
    match t ++ rest with TOpenBrace :: _ => False | TWord _ :: TOpenParen :: _ => False | _ => True end).
  { clear; induction 1 as [t r Hr|t1 t2 p r H1 IH Hr|t a Ha|t1 t2 p a H1 IH Ha]; intros rest.
    - destruct Hr as [t k f Hk|n t k f Hk]; inv Hk; exact I.
    - rewrite <- app_assoc; apply IH.
    - destruct Ha; exact I.
    - rewrite <- app_assoc; apply IH. }
  assert (Hw : forall t w rest, GWord t w ->
    match rest with TOpenParen :: _ => False | _ => True end ->
    match t ++ rest with TOpenBrace :: _ => False | TWord _ :: TOpenParen :: _ => False | _ => True end).
  { clear; intros t w rest H Hr. destruct H; cbn; [destruct rest as [|[] rest]; exact Hr || exact I|exact I]. }
  assert (Hsf : forall t s, GSuffix t s -> forall rest, match t ++ rest with TOpenParen :: _ => False | _ => True end).
  { clear; induction 1 as [t r Hr|t1 t2 p r H1 IH Hr|w|t1 t2 p w H1 IH Hw'|t a Ha|t1 t2 p a H1 IH Ha]; intros rest.
    - destruct Hr as [t k f Hk|n t k f Hk]; [inv Hk|]; exact I.
    - rewrite <- app_assoc; apply IH.
    - exact I.
    - rewrite <- app_assoc; apply IH.
    - destruct Ha; exact I.
    - rewrite <- app_assoc; apply IH. }
  intros H rest Hf. destruct H as [t1 t2 t3 p w s Hp Hw' Hs|t1 t2 p w Hp Hw'|t2 t3 w s Hw' Hs|t2 w Hw'|t1 p Hp].
  - rewrite <- app_assoc. apply (Hpf _ _ Hp).
  - rewrite <- app_assoc. apply (Hpf _ _ Hp).
  - rewrite <- app_assoc. apply (Hw _ _ _ Hw'). apply (Hsf _ _ Hs).
  - apply (Hw _ _ _ Hw'). destruct rest as [|t rest]; [exact I|].
    cbn in Hf. repeat destruct Hf as [<-|Hf]; try exact I. contradiction.
  - apply (Hpf _ _ Hp).
Qed.

Section RecComplete.
  Variable pc : list token -> option (list and_or * list token).
  Variable L : nat.
  Hypothesis pc_complete : forall ts l rest, List.length ts <= L -> GCompoundList ts l ->
    pc (ts ++ TCloseBrace :: rest) = Some (l, TCloseBrace :: rest).

  Lemma p_brace_complete t b rest : GBrace t b -> List.length t <= S L ->
    p_brace pc (t ++ rest) = Some (b, rest).
  Proof.
    intros H Hl. inv H. cbn in Hl. rewrite app_length in Hl. cbn in Hl.
    cbn. rewrite <- app_assoc. cbn [app]. rewrite (pc_complete ts b rest); [reflexivity|lia|assumption].
  Qed.

  Lemma p_command_complete t c rest : GCommand t c -> List.length t <= S L -> follow_cmd rest ->
    p_command pc (t ++ rest) = Some (c, rest).
  Proof.
    intros H Hl Hf. destruct H as [t sc H|t n b r H|t b H].
    - pose proof (GSimple_second _ _ H rest Hf) as H2.
      pose proof (p_simple_complete _ _ rest H Hf) as E.
      unfold p_command. destruct (t ++ rest) as [|t1 ts]; [rewrite E; reflexivity|].
      destruct t1; try (rewrite E; reflexivity); try contradiction.
      destruct ts as [|t2 ts]; [rewrite E; reflexivity|].
      destruct t2; try (rewrite E; reflexivity). contradiction.
    - assert (Hbody : forall ts b r, GBody ts b r -> List.length ts <= S L -> forall name,
        match p_brace pc (ts ++ rest) with
        | Some (b, r2) =>
            match p_redirs (List.length r2) [] r2 with
            | ([], r3) => Some (CFunction name b None, r3)
            | (rl, r3) => Some (CFunction name b (Some rl), r3)
            end
        | None => None
        end = Some (CFunction name b r, rest)).
      { intros ts b0 r0 Hb Hlen name. destruct Hb as [ts b0 Hb|t1 t2 b0 rl Hb Hr].
        - rewrite (p_brace_complete _ _ rest Hb Hlen), (p_redirs_stop _ _ _ Hf). reflexivity.
        - rewrite app_length in Hlen. rewrite <- app_assoc, (p_brace_complete _ _ _ Hb) by lia.
          destruct (p_redirs_resume _ _ Hr rest _ (le_n _)) as (k & _ & ->).
          rewrite (p_redirs_stop _ _ _ Hf). destruct rl; [|reflexivity].
          exfalso. inversion Hr. destruct rl; discriminate. }
      assert (Hbr : forall ts b r, GBody ts b r -> forall rest, skip_nl (ts ++ rest) = ts ++ rest).
      { intros ts b0 r0 Hb rest0. destruct Hb as [ts b0 Hb|t1 t2 b0 rl Hb Hr]; inv Hb; reflexivity. }
      destruct H as [name ts b r Hb|name ts b r Hb]; cbn in Hl; cbn [app p_command skip_nl].
      + apply (Hbody _ _ _ Hb); lia.
      + rewrite (Hbr _ _ _ Hb). apply (Hbody _ _ _ Hb); lia.
    - pose proof (p_brace_complete _ _ rest H Hl) as E. inv H. cbn [app] in *.
      unfold p_command. rewrite E. reflexivity.
  Qed.

  Lemma p_seq_complete t cs : GPipelineSeq t cs -> List.length t <= S L -> forall acc k,
    (forall rest, List.length (t ++ TPipe :: rest) <= k -> exists k', List.length rest <= k' /\
        p_seq pc k acc (t ++ TPipe :: rest) = p_seq pc k' (acc ++ cs) rest) /\
    (forall rest, follow_seq rest -> List.length (t ++ rest) <= k ->
        p_seq pc k acc (t ++ rest) = Some (acc ++ cs, rest)).
  Proof.
    assert (Hone : forall t c acc k, GCommand t c -> List.length t <= S L ->
      (forall rest, List.length (t ++ TPipe :: rest) <= k -> exists k', List.length rest <= k' /\
        p_seq pc k acc (t ++ TPipe :: rest) = p_seq pc k' (acc ++ [c]) rest) /\
      (forall rest, follow_seq rest -> List.length (t ++ rest) <= k ->
        p_seq pc k acc (t ++ rest) = Some (acc ++ [c], rest))).
    { clear t cs. intros t c acc k Hc Hl. split.
      - intros rest Hk. rewrite app_length in Hk; cbn in Hk. destruct k as [|k]; [lia|]. exists k. split; [lia|].
        cbn [p_seq]. rewrite (p_command_complete _ _ (TPipe :: rest) Hc Hl) by (cbn; tauto). reflexivity.
      - intros rest Hf Hk.
        assert (E : p_command pc (t ++ rest) = Some (c, rest)) by (apply p_command_complete; auto using follow_seq_cmd).
        destruct k; cbn [p_seq]; rewrite E; destruct rest as [|x rest]; try reflexivity;
          cbn in Hf; repeat destruct Hf as [<-|Hf]; try reflexivity; contradiction. }
    induction 1 as [t c Hc|t1 t2 cs c H1 IH Hc]; intros Hl acc k.
    - apply Hone; assumption.
    - rewrite app_length in Hl; cbn in Hl. specialize (IH ltac:(lia) acc k) as [IH _].
      split.
      + intros rest Hk. replace ((t1 ++ TPipe :: t2) ++ TPipe :: rest) with (t1 ++ TPipe :: (t2 ++ TPipe :: rest)) in *
          by (rewrite <- app_assoc; reflexivity).
        destruct (IH _ Hk) as (k1 & Hk1 & ->).
        destruct (Hone t2 c (acc ++ cs) k1 Hc ltac:(lia)) as [H _].
        destruct (H rest Hk1) as (k2 & Hk2 & ->). exists k2. split; [exact Hk2|]. rewrite <- app_assoc; reflexivity.
      + intros rest Hf Hk. replace ((t1 ++ TPipe :: t2) ++ rest) with (t1 ++ TPipe :: (t2 ++ rest)) in *
          by (rewrite <- app_assoc; reflexivity).
        destruct (IH _ Hk) as (k1 & Hk1 & ->).
        destruct (Hone t2 c (acc ++ cs) k1 Hc ltac:(lia)) as [_ H].
        rewrite (H rest Hf Hk1). rewrite <- app_assoc; reflexivity.
  Qed.

  Lemma p_seq_done t cs rest : GPipelineSeq t cs -> List.length t <= S L -> follow_seq rest ->
    p_seq pc (List.length (t ++ rest)) [] (t ++ rest) = Some (cs, rest).
  Proof.
    intros H Hl Hf. destruct (p_seq_complete t cs H Hl [] (List.length (t ++ rest))) as [_ E].
    exact (E rest Hf (le_n _)).
  Qed.

  Lemma p_pipeline_complete t p rest : GPipeline t p -> List.length t <= S L -> follow_pl rest ->
    p_pipeline pc (t ++ rest) = Some (p, rest).
  Proof.
    intros H Hl Hf. unfold p_pipeline.
    assert (Hnb : forall ts cs rest, GPipelineSeq ts cs ->
      match ts ++ rest with TBang :: r => (true, r) | _ => (false, ts ++ rest) end = (false, ts ++ rest)).
    { intros ts cs rest0 Hs. apply GSeq_starts in Hs as Hst.
      assert (Hbang : forall ts cs, GPipelineSeq ts cs -> match ts with TBang :: _ => False | _ => True end).
      { clear. induction 1 as [t c Hc|t1 t2 cs c H1 IH Hc].
        - destruct Hc as [t sc H|t n b r H|t b H]; [|inv H; exact I|inv H; exact I].
          destruct H as [t1 t2 t3 p w s Hp Hw' Hs|t1 t2 p w Hp Hw'|t2 t3 w s Hw' Hs|t2 w Hw'|t1 p Hp];
            try (destruct Hw'; exact I);
            assert (Hpf : forall t p, GPrefix t p -> match t with TBang :: _ => False | [] => False | _ => True end)
             by (clear; induction 1 as [t r Hr|t1 t2 p r H1 IH Hr|t a Ha|t1 t2 p a H1 IH Ha];
                 [destruct Hr as [t k f Hk|n t k f Hk]; [inv Hk|]; exact I
                 |destruct t1; [contradiction|exact IH]
                 |destruct Ha; exact I
                 |destruct t1; [contradiction|exact IH]]);
            specialize (Hpf _ _ Hp); destruct t1 as [|[] t1]; try exact I; contradiction.
        - pose proof (GSeq_starts _ _ H1). destruct t1; [discriminate|exact IH]. }
      specialize (Hbang _ _ Hs). destruct ts as [|[] ts]; try discriminate; try reflexivity. contradiction. }
    destruct H as [t cs H|t cs H|t cs H|t cs H].
    - rewrite (Hnb _ _ _ H). rewrite (p_seq_done _ _ _ H Hl (follow_pl_seq _ Hf)).
      destruct rest as [|x rest]; [reflexivity|]. cbn in Hf. repeat destruct Hf as [<-|Hf]; try reflexivity; contradiction.
    - cbn in Hl. cbn [app]. rewrite (p_seq_done _ _ _ H ltac:(lia) (follow_pl_seq _ Hf)).
      destruct rest as [|x rest]; [reflexivity|]. cbn in Hf. repeat destruct Hf as [<-|Hf]; try reflexivity; contradiction.
    - rewrite app_length in Hl; cbn in Hl. rewrite <- app_assoc. rewrite (Hnb _ _ _ H).
      rewrite (p_seq_done _ _ ([TAmpersand] ++ rest) H ltac:(lia)) by (cbn; tauto). reflexivity.
    - cbn in Hl. rewrite app_length in Hl; cbn in Hl. cbn [app]. rewrite <- app_assoc.
      rewrite (p_seq_done _ _ ([TAmpersand] ++ rest) H ltac:(lia)) by (cbn; tauto). reflexivity.
  Qed.

  Lemma p_andor_resume t a : GAndOr t a -> List.length t <= S L -> forall rest, follow_pl rest ->
    exists k, List.length rest <= k /\ p_andor pc (t ++ rest) = p_andor_tail pc k a rest.
  Proof.
    assert (Hstep : forall op c t1 t2 tnl a p, (op = TAnd /\ c = CAnd) \/ (op = TOr /\ c = COr) ->
      (tnl = [] \/ tnl = [TNewlineList]) ->
      GPipeline t2 p -> List.length (t1 ++ op :: tnl ++ t2) <= S L ->
      (forall rest, follow_pl rest -> exists k, List.length rest <= k /\ p_andor pc (t1 ++ rest) = p_andor_tail pc k a rest) ->
      forall rest, follow_pl rest ->
      exists k, List.length rest <= k /\ p_andor pc ((t1 ++ op :: tnl ++ t2) ++ rest) = p_andor_tail pc k (AoMore a c p) rest).
    { intros op c t1 t2 tnl a0 p Hop Hnl Hp Hl IH rest Hf.
      rewrite app_length in Hl. cbn in Hl. rewrite app_length in Hl.
      destruct (IH (op :: tnl ++ t2 ++ rest)) as (k & Hk & E).
      { destruct Hop as [[-> _]|[-> _]]; cbn; tauto. }
      replace ((t1 ++ op :: tnl ++ t2) ++ rest) with (t1 ++ op :: tnl ++ t2 ++ rest)
        by (rewrite <- app_assoc; cbn; rewrite <- app_assoc; reflexivity).
      rewrite E. cbn in Hk. rewrite !app_length in Hk. destruct k as [|k]; [lia|].
      exists k. split; [lia|]. cbn [p_andor_tail].
      assert (Esk : skip_nl (tnl ++ t2 ++ rest) = t2 ++ rest).
      { destruct Hnl as [-> | ->]; [|reflexivity]. apply starts_no_skip. apply starts_app.
        eapply GPipeline_starts; exact Hp. }
      assert (Ep : p_pipeline pc (t2 ++ rest) = Some (p, rest)) by (apply p_pipeline_complete; [exact Hp|lia|exact Hf]).
      destruct Hop as [[-> ->]|[-> ->]]; rewrite Esk, Ep; reflexivity. }
    induction 1 as [t p Hp|t1 t2 a p H1 IH Hp|t1 t2 a p H1 IH Hp|t1 t2 a p H1 IH Hp|t1 t2 a p H1 IH Hp]; intros Hl.
    - intros rest Hf. unfold p_andor. rewrite (p_pipeline_complete _ _ _ Hp Hl Hf).
      exists (List.length rest). split; [lia|reflexivity].
    - apply (Hstep TAnd CAnd t1 t2 [] a p); auto. apply IH. rewrite app_length in Hl; lia.
    - apply (Hstep TAnd CAnd t1 t2 [TNewlineList] a p); auto. apply IH. rewrite app_length in Hl; lia.
    - apply (Hstep TOr COr t1 t2 [] a p); auto. apply IH. rewrite app_length in Hl; lia.
    - apply (Hstep TOr COr t1 t2 [TNewlineList] a p); auto. apply IH. rewrite app_length in Hl; lia.
  Qed.

  Lemma p_andor_complete t a rest : GAndOr t a -> List.length t <= S L -> follow_ao rest ->
    p_andor pc (t ++ rest) = Some (a, rest).
  Proof.
    intros H Hl Hf. destruct (p_andor_resume _ _ H Hl rest (follow_ao_pl _ Hf)) as (k & Hk & ->).
    destruct rest as [|x rest]; [destruct k; reflexivity|]. destruct k as [|k]; [cbn in Hk; lia|].
    cbn [p_andor_tail]. cbn in Hf. repeat destruct Hf as [<-|Hf]; try reflexivity; contradiction.
  Qed.

  Lemma GSeparator_follow t rest : GSeparator t -> follow_ao (t ++ rest).
  Proof. destruct 1; cbn; tauto. Qed.

  Lemma p_term_resume t l : GTerm t l -> List.length t <= S L -> forall rest, follow_ao rest ->
    exists k, List.length rest <= k /\
      match p_andor pc (t ++ rest) with
      | Some (a, r) => p_term_tail pc (List.length r) [a] r
      | None => None
      end = p_term_tail pc k l rest.
  Proof.
    induction 1 as [t1 t2 t3 l a H1 IH Hs Ha|t a Ha]; intros Hl rest Hf.
    - rewrite !app_length in Hl. rewrite <- !app_assoc.
      destruct (IH ltac:(lia) (t2 ++ t3 ++ rest) (GSeparator_follow _ _ Hs)) as (k & Hk & ->).
      assert (1 <= List.length t2) by (destruct Hs; cbn; lia).
      rewrite !app_length in Hk. destruct k as [|k]; [lia|]. exists k. split; [lia|].
      cbn [p_term_tail]. pose proof (starts_app _ rest (GAndOr_starts _ _ Ha)) as Hst.
      rewrite (p_separator_complete _ _ Hs (starts_sep_follow _ Hst)), Hst.
      rewrite (p_andor_complete _ _ _ Ha ltac:(lia) Hf). reflexivity.
    - rewrite (p_andor_complete _ _ _ Ha Hl Hf). exists (List.length rest). split; [lia|reflexivity].
  Qed.

  Lemma p_list_resume t l : GList t l -> List.length t <= S L -> forall rest, follow_ao rest ->
    exists k, List.length rest <= k /\
      match p_andor pc (t ++ rest) with
      | Some (a, r) => p_list_tail pc (List.length r) [a] r
      | None => None
      end = p_list_tail pc k l rest.
  Proof.
    induction 1 as [t1 t2 t3 l a H1 IH Hs Ha|t a Ha]; intros Hl rest Hf.
    - rewrite !app_length in Hl. rewrite <- !app_assoc.
      destruct (IH ltac:(lia) (t2 ++ t3 ++ rest)) as (k & Hk & ->); [destruct Hs; cbn; tauto|].
      assert (1 <= List.length t2) by (destruct Hs; cbn; lia).
      rewrite !app_length in Hk. destruct k as [|k]; [lia|]. exists k. split; [lia|].
      pose proof (starts_app _ rest (GAndOr_starts _ _ Ha)) as Hst.
      destruct Hs; cbn [p_list_tail app]; rewrite Hst, (p_andor_complete _ _ _ Ha ltac:(lia) Hf); reflexivity.
    - rewrite (p_andor_complete _ _ _ Ha Hl Hf). exists (List.length rest). split; [lia|reflexivity].
  Qed.
End RecComplete.

Lemma p_clist_complete n : forall ts l rest, List.length ts <= n -> GCompoundList ts l ->
  p_clist n (ts ++ TCloseBrace :: rest) = Some (l, TCloseBrace :: rest).
Proof.
  induction n as [|n IH]; intros ts l rest Hl H.
  - exfalso. destruct ts; [|cbn in Hl; lia].
    inversion H as [t0 l0 Ht E1 E2|?|t1 t2 l0 Ht Hs E|?]; subst.
    + apply GTerm_starts in Ht; discriminate.
    + apply GTerm_starts in Ht. destruct t1; discriminate.
  - cbn [p_clist].
    assert (Hend : forall k l, p_term_tail (p_clist n) k l (TCloseBrace :: rest) = Some (l, TCloseBrace :: rest))
      by (intros [|k] l0; reflexivity).
    assert (Hterm : forall t l, GTerm t l -> List.length t <= S n ->
      match p_andor (p_clist n) (skip_nl (t ++ TCloseBrace :: rest)) with
      | Some (a, r) => p_term_tail (p_clist n) (List.length r) [a] r | None => None end = Some (l, TCloseBrace :: rest)).
    { intros t l0 Ht Hlen. rewrite (starts_no_skip _ (starts_app _ _ (GTerm_starts _ _ Ht))).
      destruct (p_term_resume _ n IH t l0 Ht Hlen (TCloseBrace :: rest)) as (k & _ & ->); [cbn; tauto|]. apply Hend. }
    assert (Hterm2 : forall t t2 l, GTerm t l -> GSeparator t2 -> List.length t <= S n ->
      match p_andor (p_clist n) (skip_nl (t ++ t2 ++ TCloseBrace :: rest)) with
      | Some (a, r) => p_term_tail (p_clist n) (List.length r) [a] r | None => None end = Some (l, TCloseBrace :: rest)).
    { intros t t2 l0 Ht Hs Hlen. rewrite (starts_no_skip _ (starts_app _ _ (GTerm_starts _ _ Ht))).
      destruct (p_term_resume _ n IH t l0 Ht Hlen (t2 ++ TCloseBrace :: rest)) as (k & Hk & ->);
        [apply GSeparator_follow; exact Hs|].
      rewrite app_length in Hk; cbn in Hk. destruct k as [|k]; [lia|]. cbn [p_term_tail].
      rewrite (p_separator_complete _ _ Hs) by exact I. reflexivity. }
    destruct H as [t l Ht|t l Ht|t1 t2 l Ht Hs|t1 t2 l Ht Hs].
    + apply Hterm; [exact Ht|exact Hl].
    + cbn in Hl. rewrite <- (Hterm t l Ht) by lia. cbn [app skip_nl].
      rewrite (starts_no_skip (t ++ _) (starts_app _ _ (GTerm_starts _ _ Ht))). reflexivity.
    + rewrite app_length in Hl. rewrite <- app_assoc. apply Hterm2; [exact Ht|exact Hs|lia].
    + cbn in Hl. rewrite app_length in Hl. cbn [app]. rewrite <- app_assoc.
      rewrite <- (Hterm2 t1 t2 l Ht Hs) by lia. cbn [skip_nl].
      rewrite (starts_no_skip (t1 ++ _) (starts_app _ _ (GTerm_starts _ _ Ht))). reflexivity.
Qed.

(** After a list, either nothing or a separator that does not continue it. *)
Lemma p_list_complete n t l rest : GList t l -> List.length t <= S n -> follow_ao rest ->
  (forall s r, rest = s :: r -> (s = TSemiColon \/ s = TNewlineList) -> starts_command r = false) ->
  p_list n (t ++ rest) = Some (l, rest).
Proof.
  intros H Hl Hf Hstop. unfold p_list.
  destruct (p_list_resume _ n (p_clist_complete n) t l H Hl rest Hf) as (k & _ & ->).
  destruct k; [reflexivity|]. cbn [p_list_tail].
  destruct rest as [|x rest]; [reflexivity|].
  destruct x; try reflexivity; rewrite (Hstop _ _ eq_refl) by auto; reflexivity.
Qed.

Theorem parse_tokens_complete ts v : GComplete ts v -> parse_tokens ts = Some v.
Proof.
  intros H. unfold parse_tokens. destruct H as [t1 t2 l Hs Hl|t1 t2 l Hl Hs|t l Hl|t Hs].
  - pose proof (GList_starts _ _ Hl) as Hst.
    rewrite (p_separator_complete _ _ Hs (starts_sep_follow _ Hst)).
    pose proof (p_list_complete (List.length (t1 ++ t2)) t2 l [] Hl) as E.
    rewrite app_nil_r in E. rewrite E; [|rewrite app_length; lia|exact I|discriminate].
    destruct t2; [discriminate|reflexivity].
  - rewrite (starts_no_sep _ (starts_app _ _ (GList_starts _ _ Hl))).
    rewrite (p_list_complete _ t1 l t2 Hl).
    + pose proof (p_separator_complete t2 [] Hs I) as E. rewrite app_nil_r in E.
      destruct t2 as [|x t2]; [inversion Hs|]. rewrite E. reflexivity.
    + rewrite app_length; lia.
    + pose proof (GSeparator_follow t2 [] Hs) as Hf. rewrite app_nil_r in Hf. exact Hf.
    + intros s r E _. destruct Hs; injection E as <- <-; reflexivity.
  - rewrite (starts_no_sep _ (GList_starts _ _ Hl)).
    pose proof (p_list_complete (List.length t) t l [] Hl) as E.
    rewrite app_nil_r in E. rewrite E; [reflexivity|lia|exact I|discriminate].
  - pose proof (p_separator_complete t [] Hs I) as E. rewrite app_nil_r in E. rewrite E. reflexivity.
Qed.

Theorem parse_tokens_iff ts v : parse_tokens ts = Some v <-> GComplete ts v.
Proof. split; [apply parse_tokens_sound|apply parse_tokens_complete]. Qed.

Theorem grammar_unambiguous ts v v' : GComplete ts v -> GComplete ts v' -> v = v'.
Proof. intros H H'. apply parse_tokens_complete in H, H'. congruence. Qed.
