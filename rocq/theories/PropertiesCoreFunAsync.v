(** Properties C115 and C125: functions, files and [eval] in the core language when
    signals arrive at any moment. *)
From Verif Require Import Base BaseFacts Lexer LexerSpec Ast Parser GrammarSpec.
From Verif Require Import Context.
From Verif Require ContextSpec ContextFacts ContextLaws PropertiesContext.
From Verif Require Import Alias Expand ExpandSpec ExpandFacts ExpandLaws Jobs JobsSpec Shell Builtins Eval Async.
From Verif Require Import EvalSpec EvalFacts EvalLaws EvalKeeps RunSpec RunLaws PipeSpec PipeLaws ChildLaws PipeRun.
From Verif Require Import JobsFacts JobsLaws JobsPipe AsyncLaws AsyncRun AsyncPipe.
From Verif Require PropertiesProgram PropertiesRun PropertiesEval PropertiesWait MainSpec Main MainLaws PropertiesMain PropertiesAsync GrammarFacts.
From Verif Require Import EvalFds.
From Verif Require Import CoreSpec CoreExitSpec CoreFunSpec PropertiesCore PropertiesCoreExit PropertiesCoreFun PropertiesCoreAsync.
Local Open Scope Z_scope.

Section Signals.
Context (w : os) (sg : point -> list event -> arrivals) (aliases_ : aliases) (readonly : str -> bool) (old : nmap job) (code : world).
Context (Hsg : system_signals w sg old code).
Notation fcomm_ok := (fcomm_ok aliases_ readonly).
Notation fchain_ok := (fchain_ok aliases_ readonly).
Notation fagrees := (fagrees aliases_ readonly old).

(** The mask is no part of the agreement. *)
Lemma fagrees_blocked t0 k fm s : fagrees t0 false k fm s -> fagrees t0 false k fm (blocked s).
Proof. intros [[] H1 H2]. split; [split; assumption|exact H1|exact H2]. Qed.
Lemma signals_fagree t0 k p fm s : fagrees t0 false k fm s -> exists s', signals w sg p s = (OOk tt, s') /\ fagrees t0 false k fm s'.
Proof.
  intros [A H1 H2]. destruct (signals_agree w sg aliases_ _ readonly old t0 k code Hsg p _ s A) as (s' & E & A').
  exists s'. split; [exact E|]. split; assumption.
Qed.

Section Loop.
Context (one : fcomm -> fmachine -> outcome) (t0 : fdtable) (d k : nat).
Hypothesis Hone : forall c fm vs st fm' s, one c fm = Some (vs, Goes st fm') -> Forall (allowed code) vs -> fcomm_ok c -> fagrees t0 false k fm s ->
  exists s', eval_pipeline_async w sg (evaluate_async w sg d) (ftree c) s = (OOk st, s') /\ fagrees t0 false k fm' s'.

Lemma fmore_async rest : Forall (fun oc => fcomm_ok (snd oc)) rest -> forall a s0 st fm s vs st' fm', fagrees t0 false k fm s ->
  eval_and_or_async w sg (evaluate_async w sg d) a s0 = (OOk st, s) ->
  frun_more one rest st fm = Some (vs, Goes st' fm') -> Forall (allowed code) vs ->
  exists s', eval_and_or_async w sg (evaluate_async w sg d) (fold_left (fun a cp => AoMore a (fst cp) (snd cp)) (fpipes rest) a) s0 = (OOk st', s') /\
    fagrees t0 false k fm' s'.
Proof.
  induction 1 as [|[o c] rest Hc _ IH]; intros a s0 st fm s vs st' fm' A Ha E Hv; cbn [frun_more fpipes map fst snd fold_left] in *.
  - injection E as <- <- <-. exists s. auto.
  - assert (Hn : forall x s1, (if goes_on o st then eval_pipeline_async w sg (evaluate_async w sg d) (ftree c) s else (OOk st, s)) = (OOk x, s1) ->
      eval_and_or_async w sg (evaluate_async w sg d) (AoMore a o (ftree c)) s0 = (OOk x, s1)).
    { intros x s1 Hx. cbn [eval_and_or_async]. rewrite (bind_ok _ _ _ _ _ Ha). destruct o; cbn [goes_on] in Hx; destruct (Z.eqb st 0); exact Hx. }
    destruct (goes_on o st).
    + apply followed_some in E. destruct E as (v1 & st1 & fm1 & v2 & E1 & E2 & ->). apply Forall_app in Hv. destruct Hv as [Hv1 Hv2].
      destruct (Hone c fm v1 st1 fm1 s E1 Hv1 Hc A) as (s1 & H1 & H2).
      exact (IH _ s0 st1 fm1 s1 v2 st' fm' H2 (Hn _ _ H1) E2 Hv2).
    + exact (IH _ s0 st fm s vs st' fm' A (Hn _ _ eq_refl) E Hv).
Qed.
Lemma fchain_async l fm s vs st fm' : fchain_ok l -> fagrees t0 false k fm s -> frun_chain one l fm = Some (vs, Goes st fm') -> Forall (allowed code) vs ->
  exists s', eval_and_or_async w sg (evaluate_async w sg d) (fchain_tree l) s = (OOk st, s') /\ fagrees t0 false k fm' s'.
Proof.
  intros [H0 Hr] A E Hv. apply followed_some in E. destruct E as (v1 & st1 & fm1 & v2 & E1 & E2 & ->). apply Forall_app in Hv. destruct Hv as [Hv1 Hv2].
  destruct (Hone (fst l) fm v1 st1 fm1 s E1 Hv1 H0 A) as (s1 & K1 & K2).
  exact (fmore_async (snd l) Hr (AoOne (ftree (fst l))) s st1 fm1 s1 v2 st fm' K2 K1 E2 Hv2).
Qed.
Lemma fscript_async sc : Forall fchain_ok sc -> forall st0 fm s vs st fm', fagrees t0 false k fm s ->
  frun_script one sc st0 fm = Some (vs, Goes st fm') -> Forall (allowed code) vs ->
  exists s', parse_tree_async w sg (evaluate_async w sg d) st0 (map fchain_tree sc) s = (OOk st, s') /\ fagrees t0 false k fm' s'.
Proof.
  induction 1 as [|l sc Hl _ IH]; intros st0 fm s vs st fm' A E Hv; cbn [frun_script map parse_tree_async] in *.
  - injection E as <- <- <-. exists s. auto.
  - apply followed_some in E. destruct E as (v1 & st1 & fm1 & v2 & E1 & E2 & ->). apply Forall_app in Hv. destruct Hv as [Hv1 Hv2].
    destruct (fchain_async l fm s v1 st1 fm1 Hl A E1 Hv1) as (s1 & H1 & H2).
    destruct (IH st1 fm1 s1 v2 st fm' H2 E2 Hv2) as (s' & H3 & H4). exists s'. split; [|exact H4]. rewrite (bind_ok _ _ _ _ _ H1). exact H3.
Qed.
Lemma fbody_async sc st0 fm s vs st fm' : Forall fchain_ok sc -> sc <> [] -> fagrees t0 false k fm s ->
  frun_script one sc st0 fm = Some (vs, Goes st fm') -> Forall (allowed code) vs ->
  exists s', evaluate_async w sg (S d) (map fchain_tree sc) s = (OOk st, s') /\ fagrees t0 false k fm' s'.
Proof.
  intros Hok Hne A E Hv. cbn [evaluate_async]. apply (fscript_async sc Hok (-1) fm s vs st fm' A); [|exact Hv]. destruct sc; [congruence|exact E].
Qed.
End Loop.

(** A builtin that is given a text to run. *)
Lemma runner_async rec n x v s s1 s0 : signals w sg PStart s = (OOk tt, s1) ->
  check_if_builtin n = true -> str_eqb n (lit "fg") || str_eqb n (lit "bg") = false -> plain_name (al (im s1)) n ->
  ordinary (expand_var (cm (im s1))) x v ->
  call_builtin w rec (SimpleCommand None n (Some (Suffix [] [v]))) (blocked s1) = (OOk tt, s0) ->
  eval_pipeline_async w sg rec (Pipeline false [CSimple (words_cmd n [x])] false) s = (signals w sg PEnd ;; ret 0) s0.
Proof.
  intros Es Hb Hn Hp Ho Hc. unfold eval_pipeline_async. rewrite (seq_ok _ _ _ _ _ Es).
  rewrite (seq_ok interrupts_off _ s1 tt (blocked s1) eq_refl). cbn [gather_async eval_command_async].
  unfold eval_simple_command_async. change (sc_name (words_cmd n [x])) with n. rewrite Hb.
  unfold eval_builtin_async.
  assert (Hx : expand_command w (words_cmd n [x]) (blocked s1) = (OOk (SimpleCommand None n (Some (Suffix [] [v]))), blocked s1)).
  { apply (expand_words w n [x] [v] (blocked s1)); [exact Hp|]. constructor; [exact Ho|constructor]. }
  assert (E : (r <- ((sc' <- expand_async w sg (words_cmd n [x]) ;;
        (if str_eqb (sc_name sc') (lit "fg") || str_eqb (sc_name sc') (lit "bg") then fgbg_async w sg sc' else call_builtin w rec sc')) ;; ret None) ;;
      match r with None => ret [] | Some pc => rest <- gather_async w sg rec [] ;; ret (pc :: rest) end) (blocked s1) = (OOk [], s0)).
  { unfold bind at 1, seq at 1, bind at 1, bind at 1. rewrite (expand_plain w sg _ _ _ Hx). cbn [sc_name]. rewrite Hn, Hc. reflexivity. }
  rewrite (bind_ok _ _ _ _ _ E). rewrite (bind_ok (ret 0) _ s0 0 s0 eq_refl). reflexivity.
Qed.

Lemma catch_ok {A} (m : M A) s a s' : m s = (OOk a, s') -> catch m s = (OOk (inl a), s').
Proof. unfold catch. intros ->. reflexivity. Qed.

Lemma ffile_async t0 d k fm s s1 f body fm' s2 : signals w sg PStart s = (OOk tt, s1) -> fagrees t0 false k fm s1 -> fcomm_ok (Source f body) ->
  (exists scs, Forall (fun sc => sc <> []) scs /\ body = List.concat scs /\ contents code f = Some (file_text scs)) ->
  evaluate_async w sg (S d) (map fchain_tree body) (file_opened f s1) = (OOk 0, s2) -> fagrees (fds (im (file_opened f s1))) false k fm' s2 ->
  exists s', eval_pipeline_async w sg (evaluate_async w sg (S d)) (ftree (Source f body)) s = (OOk 0, s') /\ fagrees t0 false k fm' s'.
Proof.
  intros Es [A Hb Hp] Hok (scs & Hne & Hbody & Hc) Hrun [R2 R3 R4]. apply source_ok in Hok. destruct Hok as (H1 & H2 & H3 & H4 & H5).
  assert (P2 : parse (file_text scs) = Some (Some (map fchain_tree body))) by (subst body; apply (file_parses aliases_ readonly scs Hne H4 H5)).
  destruct (arg_ordinary _ _ _ _ _ _ _ (core fm) s1 (Plain f) A H1 ltac:(discriminate)) as (Ho & _). cbn [arg_text arg_value] in Ho.
  pose proof (ss_files w sg old code Hsg f _ (trace s1) Hc) as [F1 _].
  pose proof (ss_files w sg old code Hsg f _ (EOpen f for_reading :: trace s1) Hc) as [_ F2].
  set (sC := PropertiesBuiltins.closing (lowest (fds (im s1))) s2).
  assert (AC : fagrees t0 false k fm' sC).
  { split; [|exact R3|exact R4]. exact (agrees_closed aliases_ readonly old t0 _ k false _ s1 f _ _ s2 A R2). }
  destruct (signals_fagree t0 k PEnd fm' sC AC) as (s' & E' & A'). exists s'. split; [|exact A'].
  cbn [ftree]. rewrite (runner_async (evaluate_async w sg (S d)) (lit ".") f f s s1 sC Es eq_refl eq_refl); [rewrite (seq_ok _ _ _ _ _ E'); reflexivity| |exact Ho|].
  - destruct (builtin_word (lit ".") eq_refl ltac:(discriminate)) as [_ B]. apply B. pose proof (ag_aliases _ _ _ _ _ _ _ _ _ A). congruence.
  - rewrite call_dot. unfold source_cmd. cbn [words_of sc_suffix word_list source_args].
    rewrite (seq_ok (ret tt) _ (blocked s1) tt (blocked s1) eq_refl). rewrite (proj2 (contains_char_In _ _) H2).
    rewrite (bind_ok (ret f) _ (blocked s1) f (blocked s1) eq_refl).
    assert (E2 : sys_open w f for_reading (blocked s1) = (OOk (Some (lowest (fds (im s1)))), file_opened f s1)).
    { unfold sys_open, ask, bind. cbn [trace blocked]. rewrite F1. destruct s1 as [[] ?]; reflexivity. }
    rewrite (bind_ok _ _ _ _ _ E2). unfold while_open.
    match goal with |- (_ <- catch ?m ;; _) _ = _ => assert (E3 : m (file_opened f s1) = (OOk tt, s2)) end.
    { unfold ask at 1, bind at 1. change (trace (file_opened f s1)) with (EOpen f for_reading :: trace s1). rewrite F2.
      cbn [unwrap]. rewrite (bind_ok (ret (file_text scs)) _ (file_opened f s1) _ (file_opened f s1) eq_refl). unfold parse_text. rewrite P2.
      rewrite (bind_ok (ret (Some (map fchain_tree body))) _ (file_opened f s1) _ (file_opened f s1) eq_refl). cbn [eval_complete].
      rewrite (bind_ok _ _ _ _ _ (catch_ok _ _ _ _ Hrun)). reflexivity. }
    rewrite (bind_ok _ _ _ _ _ (catch_ok _ _ _ _ E3)). reflexivity.
Qed.

Lemma feval_async t0 d k fm s s1 body fm' s2 : signals w sg PStart s = (OOk tt, s1) -> fagrees t0 false k fm s1 -> fcomm_ok (EvalText body) ->
  evaluate_async w sg (S d) (map fchain_tree body) (blocked s1) = (OOk 0, s2) -> fagrees t0 false k fm' s2 ->
  exists s', eval_pipeline_async w sg (evaluate_async w sg (S d)) (ftree (EvalText body)) s = (OOk 0, s') /\ fagrees t0 false k fm' s'.
Proof.
  intros Es [A Hb Hp] Hok Hrun R. apply eval_ok in Hok. destruct Hok as (H1 & H2 & H3 & H4).
  destruct (signals_fagree t0 k PEnd fm' s2 R) as (s' & E' & A'). exists s'. split; [|exact A'].
  cbn [ftree]. rewrite (runner_async (evaluate_async w sg (S d)) (lit "eval") (sq (fscript_text body)) (fscript_text body) s s1 s2 Es eq_refl eq_refl);
    [rewrite (seq_ok _ _ _ _ _ E'); reflexivity| |apply o_single; exact H1|].
  - destruct (builtin_word (lit "eval") eq_refl ltac:(discriminate)) as [_ B]. apply B. pose proof (ag_aliases _ _ _ _ _ _ _ _ _ A). congruence.
  - rewrite call_eval. unfold eval_cmd. cbn [words_of sc_suffix word_list word_at nth_error unwrap].
    rewrite (bind_ok (ret (fscript_text body)) _ (blocked s1) _ (blocked s1) eq_refl).
    assert (Ep : parse (fscript_text body ++ [10%N]) = Some (Some (map fchain_tree body))).
    { rewrite <- (fscript_render _ _ body H4). apply GrammarFacts.render_parse_newline; [destruct body; [congruence|discriminate]|].
      apply Forall_map. eapply Forall_impl; [|exact H4]. intros l Hl. apply (fchain_facts _ _ l Hl). }
    unfold parse_text. rewrite Ep. rewrite (bind_ok (ret (Some (map fchain_tree body))) _ (blocked s1) _ (blocked s1) eq_refl). cbn [eval_complete].
    rewrite (bind_ok _ _ _ _ _ (catch_ok _ _ _ _ Hrun)). reflexivity.
Qed.

Lemma fdefine_async rec t0 k fm s f body : fcomm_ok (Define f body) -> k = 0%nat \/ funs fm f <> None -> fagrees t0 false k fm s ->
  exists s', eval_pipeline_async w sg rec (ftree (Define f body)) s = (OOk 0, s') /\
    fagrees t0 false k (FMachine (core fm) (set_fun f body (funs fm)) (params fm)) s'.
Proof.
  intros Hok Hset A. destruct (signals_fagree t0 k PStart fm s A) as (s1 & E1 & A1).
  destruct (fstep_define w aliases_ readonly old t0 0 f body false k fm s1 Hok Hset A1) as (s0 & H0 & A0).
  pose proof (proj1 (fcomm_facts _ _ _ Hok)) as Hwf. rewrite ftree_define in *. rewrite exec_pipeline in H0 by exact Hwf. injection H0 as <-.
  destruct (signals_fagree t0 k PEnd _ _ A0) as (s' & E' & A'). exists s'. split; [|exact A'].
  unfold eval_pipeline_async. rewrite (seq_ok _ _ _ _ _ E1).
  match type of E' with signals _ _ _ ?x = _ => change ((signals w sg PEnd ;; ret 0) x = (OOk 0, s')) end.
  rewrite (seq_ok _ _ _ _ _ E'). reflexivity.
Qed.

Lemma gather_words_async rec n ws vs s : check_if_builtin n = false -> plain_name (al (im s)) n ->
  Forall2 (ordinary (expand_var (cm (im s)))) ws vs -> (forall c, In c (List.concat (n :: vs)) -> c <> 0%N) ->
  gather_async w sg rec [CSimple (words_cmd n ws)] s = (OOk [(process_new (n :: vs) n n, SimpleCommand None n (Some (Suffix [] vs)))], s).
Proof.
  intros Hb Hn Ho Hz. cbn [gather_async eval_command_async]. unfold eval_simple_command_async.
  replace (check_if_builtin (sc_name (words_cmd n ws))) with false by (symmetry; exact Hb).
  unfold bind. rewrite (expand_plain w sg _ _ _ (expand_words w n ws vs s Hn Ho)). rewrite (argv_words None n [] vs Hz). reflexivity.
Qed.

(** The pipeline of a call, once its functions have been called: there is no program left. *)
Lemma left_async fs t0 k m m' s2 m0 : agrees aliases_ fs readonly old t0 (S k) false m' s2 -> pop_context (cm (im s2)) = Some m0 ->
  (forall x, position x -> CoreSpec.vars m x = None) ->
  exists s', (signals w sg PFunctions ;; run_job_async w sg false []) (Shell (with_exit 0 (with_cm m0 (im s2))) (trace s2)) = (OOk 0, s') /\
    agrees aliases_ fs readonly old t0 k false (returned m m') s'.
Proof.
  intros A Hpop Hpos. pose proof A as [].
  set (sp := Shell (with_exit 0 (with_cm m0 (im s2))) (trace s2)).
  destruct (signals_quiet w sg old code Hsg PFunctions sp ag_quiet) as (s3 & E3 & [I3 (J3 & M3 & P3)] & T3).
  set (jc := jobs (js (im s2))) in *. set (id := next_job_id jc).
  change (jobs (js (im sp))) with jc in J3.
  assert (Hid : nget id (job_table jc) = None).
  { destruct (nget id (job_table jc)) as [j|] eqn:E; [|reflexivity]. pose proof (b_next _ ag_basic id (ex_intro _ j E)). unfold id, jc in *. lia. }
  set (jd := delete_job id (create_job [] false jc)).
  assert (Hjd : (forall k, nget k (job_table jd) = nget k (job_table jc)) /\ pid_to_job jd = pid_to_job jc /\ background_jobs jd = background_jobs jc).
  { unfold jd, delete_job. cbn [create_job job_table]. fold id. rewrite nget_ninsert by apply ag_basic. rewrite Z.eqb_refl.
    cbn [processes job_new put_table job_table pid_to_job background_jobs next_job_id current_job create_job fold_left].
    split; [|split; reflexivity]. intros k'. rewrite nget_nremove by (apply nsorted_ninsert, ag_basic).
    rewrite nget_ninsert by apply ag_basic. destruct (Z.eqb_spec k' id) as [->|]; [symmetry; exact Hid|reflexivity]. }
  destruct Hjd as (D1 & D2 & D3).
  set (sR := Shell (with_js (with_masked false (shell_delete_job id (with_jobs (create_job [] false jc) (js (im s2))))) (with_exit 0 (with_cm m0 (im s2)))) (trace s2)).
  assert (AR : agrees aliases_ fs readonly old t0 k false (returned m m') sR).
  { apply (agrees_returned aliases_ readonly old t0 fs k false m m' s2 sR A).
    - unfold PropertiesRun.after_body. split; [exact Hpop|]. do 5 (split; [reflexivity|]). split; [exact D1|]. split; [exact D2|]. split; [exact D3|].
      split; reflexivity.
    - change (basic jd). unfold jd. apply delete_basic, create_basic, ag_basic.
    - exact ag_fds.
    - exact ag_forked.
    - exact Hpos. }
  set (s4 := Shell (with_js (with_jobs (create_job [] false jc) (js (im s3))) (im s3)) (trace s3)).
  assert (Q4 : forks (recent (trace s4)) = []).
  { cbn [trace s4]. destruct T3 as [->| ->]; [exact ag_quiet|reflexivity]. }
  destruct (delete_quiet w sg old code Hsg id s4 Q4) as (s5 & E5 & [I5 (J5 & M5 & P5)] & T5).
  set (s6 := Shell (with_js (with_masked false (js (im s5))) (im s5)) (trace s5)).
  exists s6. split.
  - rewrite (seq_ok _ _ _ _ _ E3). unfold run_job_async.
    rewrite (bind_ok (look (fun i => next_job_id (jobs (js i)))) _ s3 id s3); [|unfold look; rewrite J3; reflexivity].
    rewrite (seq_ok (on_jobs _) _ s3 tt s4); [|unfold on_jobs, change; cbn [map fst]; rewrite J3; reflexivity].
    cbn [launch_async]. rewrite (seq_ok (ret tt) _ s4 tt s4 eq_refl). rewrite (seq_ok _ _ _ _ _ E5).
    rewrite (seq_ok interrupts_on _ s5 tt s6 eq_refl). unfold get_exit_code, look. cbn [s6 im].
    rewrite I5. cbn [im s4]. rewrite I3. reflexivity.
  - assert (AM : agrees aliases_ fs readonly old t0 k false (returned m m') (Shell (im sR) (trace s3))).
    { apply (agrees_waited aliases_ fs readonly old t0 k _ sR); [exact AR| |exact T3]. split; [destruct (im sR); reflexivity|]. split; reflexivity. }
    apply (agrees_waited aliases_ fs readonly old t0 k _ _ s6 AM); [|exact T5].
    assert (J6 : jobs (js (im s6)) = jd) by (cbn [im s6 js with_js with_masked jobs]; rewrite J5; reflexivity).
    split; [|split; [exact J6|reflexivity]].
    unfold s6. cbn [im]. rewrite I5. cbn [im s4]. rewrite I3. unfold sR, sp. cbn [im]. destruct (im s2); reflexivity.
Qed.

(** A call, given what the body does. *)
Lemma fcall_async t0 d k fs m s s1 g ars body m1 m' st s2 : signals w sg PStart s = (OOk tt, s1) ->
  agrees aliases_ fs readonly old t0 k false m s1 -> comm_ok aliases_ (fun _ => None) readonly (Run (Prog [] g ars []) []) ->
  fs g = Some (FunctionBody (map fchain_tree body) None) ->
  (forall x, In (Dollar x) ars -> exists u, CoreSpec.vars m x = Some u /\ shown u) ->
  ContextSpec.performs (ContextLaws.entry g (map (arg_value m) ars)) (cm (im s1)) = Some m1 ->
  (forall x, position x -> CoreSpec.vars m x = None) ->
  evaluate_async w sg (S d) (map fchain_tree body) (blocked (Shell (with_cm m1 (im s1)) (trace s1))) = (OOk st, s2) ->
  forall fs', agrees aliases_ fs' readonly old t0 (S k) false m' s2 ->
  exists s', eval_pipeline_async w sg (evaluate_async w sg (S d)) (comm_pipe (Run (Prog [] g ars []) [])) s = (OOk 0, s') /\
    agrees aliases_ fs' readonly old t0 k false (returned m m') s'.
Proof.
  intros Es A Hok Hg Hdol Hm1 Hpos Hrun fs' R2. pose proof A as []. cbn [comm_ok] in Hok. inversion_clear Hok as [|? ? Hok1 _].
  destruct Hok1 as (_ & O2 & O3 & O4 & _ & O6 & O7 & _). cbn [name arguments] in *.
  assert (Hord : forall a, In a ars -> ordinary (expand_var (cm (im s1))) (arg_text a) (arg_value m a) /\ ~ In 0%N (arg_value m a) /\
    arg_fields m a = [arg_value m a]).
  { intros a Ha. rewrite Forall_forall in O7. eapply arg_ordinary; [exact A|exact (O7 a Ha)|]. intros x ->. exact (Hdol x Ha). }
  set (rec := evaluate_async w sg (S d)) in *. set (vs := map (arg_value m) ars) in *.
  set (sc := SimpleCommand None g (Some (Suffix [] vs))).
  assert (Hgather : gather_async w sg rec [CSimple (words_cmd g (map arg_text ars))] (blocked s1) = (OOk [(process_new (g :: vs) g g, sc)], blocked s1)).
  { apply gather_words_async; [exact O4|cbn; rewrite ag_aliases; exact O3| |].
    - unfold vs. clear -Hord. induction ars as [|a ars IHa]; [constructor|]. cbn [map]. constructor; [apply Hord; left; reflexivity|].
      apply IHa. intros b Hb. apply Hord. right. exact Hb.
    - intros c F. cbn [List.concat] in F. apply in_app_or in F. destruct F as [F|F].
      + destruct g; [destruct F|]. destruct O2 as [_ [Z _]]. exact (proj2 (Z c F)).
      + apply in_concat in F. destruct F as (v & Fv & F). apply in_map_iff in Fv. destruct Fv as (a & <- & Ha). intros ->. exact (proj1 (proj2 (Hord a Ha)) F). }
  assert (Hget : get_function g (cm (im s1)) = Some (FunctionBody (map fchain_tree body) None)) by (rewrite ag_functions by exact O6; exact Hg).
  assert (Hif : is_function g (cm (im s1)) = true).
  { apply PropertiesContext.C30_is_function. rewrite Hget. discriminate. }
  assert (Hpop : exists m0, pop_context (cm (im s2)) = Some m0).
  { pose proof (PropertiesCore.ag_depth _ _ _ _ _ _ _ _ _ R2) as Hd. unfold pop_context. destruct (Nat.eqb_spec (List.length (stack (cm (im s2)))) 1) as [E|_]; [lia|eexists; reflexivity]. }
  destruct Hpop as [m0 Hpop].
  set (after := Shell (with_cm m0 (im s2)) (trace s2)).
  assert (Hcall : eval_function rec sc (blocked s1) = (OOk true, after)).
  { unfold eval_function. rewrite (bind_ok (look cm) _ (blocked s1) (cm (im s1)) (blocked s1) eq_refl).
    change (sc_name sc) with g. rewrite Hget. rewrite <- ContextLaws.enter_performs in Hm1.
    rewrite (seq_ok (try_cm _) _ (blocked s1) tt (blocked (Shell (with_cm m1 (im s1)) (trace s1)))).
    2:{ unfold try_cm, try_. change (cm (im (blocked s1))) with (cm (im s1)). unfold words_of, sc. cbn [sc_suffix word_list]. rewrite Hm1. reflexivity. }
    cbn [fb_body]. rewrite (seq_ok _ _ _ _ _ (catch_ok _ _ _ _ Hrun)).
    rewrite (seq_ok (on_cm _) _ s2 tt after); [reflexivity|]. unfold on_cm, change. rewrite Hpop. reflexivity. }
  assert (Hfun : run_functions rec [(process_new (g :: vs) g g, sc)] (blocked s1) = (OOk [], Shell (with_exit 0 (with_cm m0 (im s2))) (trace s2))).
  { cbn [run_functions snd]. change (sc_name sc) with g. unfold bind at 1, look at 1. change (cm (im (blocked s1))) with (cm (im s1)). rewrite Hif.
    rewrite (bind_ok _ _ _ _ _ Hcall). unfold bind at 1, look at 1. change (forked (im after)) with (forked (im s2)).
    rewrite (PropertiesCore.ag_forked _ _ _ _ _ _ _ _ _ R2). reflexivity. }
  destruct (left_async fs' t0 k m m' s2 m0 R2 Hpop Hpos) as (s5 & E5 & A5).
  destruct (signals_agree w sg aliases_ fs' readonly old t0 k code Hsg PEnd _ s5 A5) as (s' & E' & A'). exists s'. split; [|exact A'].
  assert (Hp : comm_pipe (Run (Prog [] g ars []) []) = Pipeline false [CSimple (words_cmd g (map arg_text ars))] false) by (clear; destruct ars; reflexivity).
  rewrite Hp. unfold eval_pipeline_async. rewrite (seq_ok _ _ _ _ _ Es).
  rewrite (seq_ok interrupts_off _ s1 tt (blocked s1) eq_refl). rewrite (bind_ok _ _ _ _ _ Hgather).
  match goal with |- (_ <- ?x ;; _) _ = _ => assert (Ex : x (blocked s1) = (OOk 0, s5)) end.
  { rewrite (bind_ok _ _ _ _ _ Hfun). exact E5. }
  rewrite (bind_ok _ _ _ _ _ Ex). rewrite (seq_ok _ _ _ _ _ E'). reflexivity.
Qed.

(** Every command runs as the machine says, whenever signals arrive. *)
Lemma fstep_async n : forall t0 d k c fm vs st fm' s, (n <= d)%nat -> fstep code n k c fm = Some (vs, Goes st fm') -> Forall (allowed code) vs -> fcomm_ok c ->
  fagrees t0 false k fm s -> exists s', eval_pipeline_async w sg (evaluate_async w sg d) (ftree c) s = (OOk st, s') /\ fagrees t0 false k fm' s'.
Proof.
  assert (Hcore : forall t0 d k c fm vs st fm' s,
    (let '(st, m) := step code c (core fm) in Some ([Visit k fm (Do c) st], Goes st (FMachine m (funs fm) (params fm)))) = Some (vs, Goes st fm') ->
    called fm c = None -> Forall (allowed code) vs -> fcomm_ok (Do c) -> fagrees t0 false k fm s ->
    exists s', eval_pipeline_async w sg (evaluate_async w sg d) (ftree (Do c)) s = (OOk st, s') /\ fagrees t0 false k fm' s').
  { intros t0 d k c fm vs st fm' s E Hc Hv Hok [A Hb Hp]. destruct (step code c (core fm)) as [st1 m1] eqn:E1. injection E as <- <- <-. inversion_clear Hv as [|? ? Hv1 _].
    cbn [allowed v_comm v_before v_calls] in Hv1. rewrite Hc in Hv1. destruct Hv1 as [Hf Hx]. cbn [PropertiesCoreFun.fcomm_ok] in Hok.
    destruct (step_async w sg aliases_ (table_of (funs fm)) readonly old t0 k code Hsg d c (core fm) s st1 m1 A) as (s' & H1 & H2); auto.
    { apply comm_ok_table; [exact Hok|]. destruct c; try exact I. intros q Hq. unfold table_of. rewrite (Hx q Hq). reflexivity. }
    { destruct c; try exact I. exact Hx. }
    exists s'. split; [exact H1|]. split; cbn [core funs params]; [exact H2|exact Hb|]. intros x Hpos. rewrite <- Hp by exact Hpos.
    rewrite <- (step_positional aliases_ readonly code c (core fm) x Hok Hpos), E1. reflexivity. }
  induction n as [|n IH]; intros t0 d k c fm vs st fm' s Hd E Hv Hok A.
  1,2: destruct c as [c|e|f body|body|f body]; [|discriminate| | |cbn [fstep] in E; injection E as <- <- <-; inversion_clear Hv as [|? ? Hv1 _];
    apply fdefine_async; [exact Hok|exact Hv1|exact A]].
  2,3: discriminate.
  - cbn [fstep] in E. destruct (called fm c) as [[body args]|] eqn:Hc; [discriminate|]. exact (Hcore t0 d k c fm vs st fm' s E Hc Hv Hok A).
  - cbn [fstep] in E. destruct (called fm c) as [[body args]|] eqn:Hc; [|exact (Hcore t0 d k c fm vs st fm' s E Hc Hv Hok A)].
    destruct d as [|d]; [lia|].
    destruct (frun_script (fstep code n (S k)) body 0 (FMachine (entered args (core fm)) (funs fm) args)) as [[v1 [st1 fm1|r1]]|] eqn:E1; [|discriminate|discriminate].
    injection E as <- <- <-. inversion_clear Hv as [|? ? Hv0 Hv1]. cbn [allowed v_comm v_before v_calls v_status] in Hv0. rewrite Hc in Hv0.
    destruct (called_some fm c body args Hc) as (g & ars & -> & Hg & Hargs). destruct Hv0 as (-> & Hpar & Hdig & Hpass & Hdol). cbn [name arguments] in Hdig, Hdol.
    destruct (signals_fagree t0 k PStart fm s A) as (s1 & E0 & [A0 Hb Hp]). pose proof A0 as []. cbn [PropertiesCoreFun.fcomm_ok] in Hok.
    assert (Hnone : forall x, position x -> CoreSpec.vars (core fm) x = None) by (intros x Hx; rewrite Hp, Hpar by exact Hx; reflexivity).
    destruct (entry_made g args (cm (im s1)) ag_wf Hdig Hpass) as [m1 Hm1].
    destruct (Hb g body Hg) as [Hbne Hbok].
    pose proof (agrees_entered _ _ _ _ _ k _ _ s1 g args m1 A0 Hm1 Hpass Hnone) as A1.
    destruct (fbody_async (fstep code n (S k)) t0 d (S k)) with (sc := body) (st0 := 0) (fm := FMachine (entered args (core fm)) (funs fm) args)
      (s := blocked (Shell (with_cm m1 (im s1)) (trace s1))) (vs := v1) (st := 0) (fm' := fm1) as (s2 & R1 & [R2 R3 R4]); auto.
    { intros c fm0 vs0 st0 fm0' s0 F1 F2 F3 F4. apply (IH t0 d (S k) c fm0 vs0 st0 fm0' s0); auto. lia. }
    { apply fagrees_blocked. split; cbn [core funs params]; [exact A1|exact Hb|]. intros x Hx. cbn [entered CoreSpec.vars]. unfold position in Hx. rewrite Hx. reflexivity. }
    assert (Hv : List.concat (map (arg_fields (core fm)) ars) = map (arg_value (core fm)) ars).
    { pose proof Hok as Hok2. cbn [comm_ok] in Hok2. inversion_clear Hok2 as [|? ? Hok1 _]. destruct Hok1 as (_ & _ & _ & _ & _ & _ & O7 & _). cbn [arguments] in O7.
      apply concat_fields. intros a Ha. rewrite Forall_forall in O7.
      destruct (arg_ordinary _ _ _ _ _ _ _ (core fm) s1 a A0 (O7 a Ha)) as (_ & _ & Hf); [|exact Hf]. intros x ->. exact (Hdol x Ha). }
    rewrite Hv in Hargs. subst args.
    destruct (fcall_async t0 d k (table_of (funs fm)) (core fm) s s1 g ars body m1 (core fm1) 0 s2 E0 A0 Hok) with (fs' := table_of (funs fm1)) as (s' & C1 & C2); auto.
    { unfold table_of. rewrite Hg. reflexivity. }
    exists s'. split; [exact C1|]. split; cbn [core funs params]; [exact C2|exact R3|].
    intros x Hx. cbn [returned CoreSpec.vars]. rewrite <- Hp by exact Hx. unfold position in Hx. rewrite Hx. reflexivity.
  - cbn [fstep] in E. destruct d as [|d]; [lia|].
    destruct (frun_script (fstep code n k) body 0 fm) as [[v1 [st1 fm1|r1]]|] eqn:E1; [|discriminate|discriminate].
    injection E as <- <- <-. inversion_clear Hv as [|? ? Hv0 Hv1]. cbn [allowed v_comm v_before v_calls v_status] in Hv0. destruct Hv0 as [-> Hc].
    destruct (signals_fagree t0 k PStart fm s A) as (s1 & E0 & A0). pose proof Hok as Hok1. apply source_ok in Hok1. destruct Hok1 as (_ & _ & _ & Hne & Hbok).
    destruct A0 as [A0 Hb Hp]. destruct (agrees_opened aliases_ readonly old t0 _ k false _ s1 f A0) as [A1 _].
    destruct (fbody_async (fstep code n k) (fds (im (file_opened f s1))) d k) with (sc := body) (st0 := 0) (fm := fm)
      (s := file_opened f s1) (vs := v1) (st := 0) (fm' := fm1) as (s2 & R1 & R2); auto.
    { intros c fm0 vs0 st0 fm0' s0 F1 F2 F3 F4. apply (IH _ d k c fm0 vs0 st0 fm0' s0); auto. lia. }
    { split; assumption. }
    exact (ffile_async t0 d k fm s s1 f body fm1 s2 E0 (Build_fagrees _ _ _ _ _ _ _ _ A0 Hb Hp) Hok Hc R1 R2).
  - cbn [fstep] in E. destruct d as [|d]; [lia|].
    destruct (frun_script (fstep code n k) body 0 fm) as [[v1 [st1 fm1|r1]]|] eqn:E1; [|discriminate|discriminate].
    injection E as <- <- <-. inversion_clear Hv as [|? ? Hv0 Hv1]. cbn [allowed v_comm v_before v_calls v_status] in Hv0. subst st1.
    destruct (signals_fagree t0 k PStart fm s A) as (s1 & E0 & A0). pose proof Hok as Hok1. apply eval_ok in Hok1. destruct Hok1 as (_ & _ & Hne & Hbok).
    destruct (fbody_async (fstep code n k) t0 d k) with (sc := body) (st0 := 0) (fm := fm)
      (s := blocked s1) (vs := v1) (st := 0) (fm' := fm1) as (s2 & R1 & R2); auto.
    { intros c fm0 vs0 st0 fm0' s0 F1 F2 F3 F4. apply (IH _ d k c fm0 vs0 st0 fm0' s0); auto. lia. }
    { apply fagrees_blocked. exact A0. }
    exact (feval_async t0 d k fm s s1 body fm1 s2 E0 A0 Hok R1 R2).
Qed.
End Signals.

(** ** Whole scripts and sessions *)

Section Scripts.
Context (w : os) (sg : point -> list event -> arrivals) (aliases_ : aliases) (readonly : str -> bool) (old : nmap job) (t0 : fdtable) (code : world).
Context (Hsg : system_signals w sg old code) (n d : nat) (Hd : (n <= d)%nat).
Notation fagrees := (fagrees aliases_ readonly old t0 false 0).
Notation fchain_ok := (fchain_ok aliases_ readonly).

Theorem C125_signals_partial : forall sc st0 fm s vs st fm', fagrees fm s -> Forall fchain_ok sc -> sc <> [] ->
  frun_script (fstep code n 0) sc st0 fm = Some (vs, Goes st fm') -> Forall (allowed code) vs ->
  exists s', exec_text_async w sg (S d) (fscript_text sc) s = (OOk st, s') /\ fagrees fm' s'.
Proof.
  intros sc st0 fm s vs st fm' A Hok Hne E Hv.
  destruct (fbody_async w sg aliases_ readonly old code (fstep code n 0) t0 d 0) with (sc := sc) (st0 := st0) (fm := fm) (s := s) (vs := vs) (st := st) (fm' := fm')
    as (s' & H1 & H2); auto.
  { intros c fm0 vs0 st1 fm0' s0 F1 F2 F3 F4. apply (fstep_async w sg aliases_ readonly old code Hsg n t0 d 0 c fm0 vs0 st1 fm0' s0); auto. }
  exists s'. split; [|exact H2]. unfold exec_text_async. rewrite (proj1 (fscript_parses aliases_ readonly sc Hok Hne)). exact H1.
Qed.

(** Scripts typed one after the other, with the signals that arrive in between. *)
Inductive ftyping : list fscript -> list Main.typed -> Prop :=
| ftyping_closed ins : ftyping [] (Main.TClosed :: ins)
| ftyping_line sc scs ins : ftyping scs ins -> ftyping (sc :: scs) (Main.TLine (fscript_text sc) :: ins)
| ftyping_child scs ins : ftyping scs ins -> ftyping scs (Main.TChild :: ins)
| ftyping_interrupted scs ins : ftyping scs ins -> ftyping scs (Main.TInterrupted :: ins).

Lemma fline_async sc st0 fm s vs st fm' : Forall fchain_ok sc -> sc <> [] -> fagrees fm s -> frun_script (fstep code n 0) sc st0 fm = Some (vs, Goes st fm') ->
  Forall (allowed code) vs -> exists s', run_line_async w sg (S d) (fscript_text sc) s = (OOk tt, s') /\ fagrees fm' s'.
Proof.
  intros Hok Hne A E Hv. destruct (C125_signals_partial sc st0 fm s vs st fm' A Hok Hne E Hv) as (s' & H1 & H2). exists s'. split; [|exact H2].
  unfold exec_text_async in H1. unfold run_line_async.
  destruct (fscript_parses aliases_ readonly sc Hok Hne) as [P _]. rewrite P in H1 |- *.
  destruct (fscript_text sc) as [|ch0 t']; [discriminate P|]. unfold catch, seq, bind. rewrite H1. reflexivity.
Qed.
Lemma ftyped_async scs ins : ftyping scs ins -> Forall (fun sc => sc <> [] /\ Forall fchain_ok sc) scs -> forall st0 fm s vs st fm',
  fagrees fm s -> CoreSpec.vars (core fm) (lit "PS1") <> None -> frun_script (fstep code n 0) (List.concat scs) st0 fm = Some (vs, Goes st fm') ->
  Forall (allowed code) vs -> Forall (does_not_unset (lit "PS1")) vs ->
  exists s', interactive_loop_async w sg (S d) ins s = (OOk tt, s') /\ fagrees fm' s'.
Proof.
  induction 1 as [ins|sc scs ins _ IH|scs ins _ IH|scs ins _ IH]; intros Hok st0 fm s vs st fm' A Hps E Hv Hl;
    (assert (P : exists v, expand_var (cm (im s)) (lit "PS1") = Some v) by
       (unfold expand_var; rewrite (ag_vars _ _ _ _ _ _ _ _ _ (fa_core _ _ _ _ _ _ _ _ A) (lit "PS1") ps1_identifier); destruct (CoreSpec.vars (core fm) (lit "PS1")); [eexists; reflexivity|congruence]));
    destruct P as [v P]; cbn [interactive_loop_async];
    rewrite (bind_ok (look cm) _ s (cm (im s)) s eq_refl), P, (seq_ok (unwrap (Some v)) _ s v s eq_refl).
  - injection E as <- <- <-. exists (RunSpec.saved s). split; [reflexivity|]. destruct A as [B1 B2 B3]; split; [destruct B1; split; assumption|assumption..].
  - inversion Hok as [|? ? [Hne Ho1] Ho2]; subst. cbn [List.concat] in *.
    rewrite frun_script_app in E. apply followed_some in E. destruct E as (v1 & st1 & fm1 & v2 & E1 & E2 & ->).
    apply Forall_app in Hv. destruct Hv as [Hv1 Hv2]. apply Forall_app in Hl. destruct Hl as [Hl1 Hl2].
    destruct (fline_async sc st0 fm s v1 st1 fm1 Ho1 Hne A E1 Hv1) as (s1 & K1 & K2). rewrite (seq_ok _ _ _ _ _ K1).
    pose proof (script_set (lit "PS1") _ sc (fstep_set code (lit "PS1") eq_refl n 0) _ _ _ _ _ E1 Hl1 Hps) as Hps1.
    exact (IH Ho2 st1 fm1 s1 v2 st fm' K2 Hps1 E2 Hv2 Hl2).
  - destruct A as [A Hb Hp]. destruct (prompt_quiet w sg old code Hsg s (ag_quiet _ _ _ _ _ _ _ _ _ A)) as (s1 & K1 & K2 & K3). rewrite (seq_ok _ _ _ _ _ K1).
    apply (IH Hok st0 fm s1 vs st fm'); auto. split; [|exact Hb|exact Hp].
    exact (agrees_waited aliases_ _ readonly old t0 0 _ s s1 A (alike_likewise _ _ K2) K3).
  - exact (IH Hok st0 fm s vs st fm' A Hps E Hv Hl).
Qed.
End Scripts.

(** A whole session with functions, files and [eval], whenever signals arrive: in the
    commands, in the functions, between them and at the prompt. *)
Theorem C125_signals_typed_partial : forall w sg code n d k args ins root cwd ppid pid env fds scs vs st fm', (n <= d)%nat ->
  MainSpec.asks args MainSpec.Prompt -> MainSpec.no_startup_files w -> system_signals w sg [] code ->
  NoDup (map fst env) -> (forall x, position x -> sget x env = None) -> table fds -> no_future_pipe fds 0 -> nget 0 fds <> None -> nget 1 fds <> None ->
  Forall (fun sc => sc <> [] /\ Forall (fchain_ok [] (fun _ => false)) sc) scs -> ftyping scs ins ->
  frun code n (List.concat scs) (machine_at_start root cwd ppid pid env) = Some (vs, Goes st fm') ->
  Forall (allowed code) vs -> Forall (does_not_unset (lit "PS1")) vs ->
  exists s', main_async w sg (S d) k args ins (Shell (Main.fresh_image root cwd ppid pid env fds) []) = (OOk tt, s') /\
    programs_of (trace s') = started (core fm') /\ directories (trace s') = visited (core fm') /\ Forall (executes fds) (forks (trace s')) /\ linked (forks (trace s')) /\
    Shell.env (im s') = environment (core fm') /\ forall x, identifier x -> expand_var (cm (im s')) x = CoreSpec.vars (core fm') x.
Proof.
  intros w sg code n d k args ins root cwd ppid pid env fds scs vs st fm' Hd Ha Hns Hsg Hnd He Ht Hf H0 H1 Hok Hty E Hv Hl.
  set (s := Shell (Main.fresh_image root cwd ppid pid env fds) []).
  set (c := Context (default_vars root cwd ppid pid env) [] []).
  assert (Hc : cm (im s) = MainLaws.one_scope c) by reflexivity.
  pose proof (MainLaws.parse_args_asks args _ (cm (im s)) Ha) as Hp. cbn [MainLaws.wanted_front] in Hp.
  destruct (main_async_begins w sg (S d) k args ins s _ _ c Hp Hc eq_refl Hns) as (s1 & Em & Htr & Hi & Hj & Hm).
  set (s2 := Shell (Main.at_prompt (im s1)) (trace s1)).
  assert (A : fagrees [] (fun _ => false) [] fds false 0 (machine_at_start root cwd ppid pid env) s2).
  { apply fagrees_start; [exact He|].
    assert (A1 : agrees [] (fun _ => None) (fun _ => false) [] fds 0 false (at_start root cwd ppid pid env) s1) by (eapply agrees_start; eauto).
    destruct A1. split; assumption. }
  assert (Hps : CoreSpec.vars (core (machine_at_start root cwd ppid pid env)) (lit "PS1") <> None).
  { cbn [machine_at_start core at_start CoreSpec.vars]. destruct (sget (lit "PS1") env); discriminate. }
  destruct (ftyped_async w sg [] _ [] fds code Hsg n d Hd scs ins Hty Hok 0 _ s2 vs st fm' A Hps E Hv Hl) as (s' & Hs & [A' _ _]).
  exists s'. split; [|split; [exact (ag_started _ _ _ _ _ _ _ _ _ A')|split; [exact (ag_visited _ _ _ _ _ _ _ _ _ A')|split; [exact (ag_executes _ _ _ _ _ _ _ _ _ A')|split; [exact (ag_linked _ _ _ _ _ _ _ _ _ A')|split; [exact (ag_env _ _ _ _ _ _ _ _ _ A')|]]]]]].
  - rewrite Em. cbn [Main.interactive]. rewrite (seq_ok (change Main.at_prompt) _ s1 tt s2 eq_refl). exact Hs.
  - intros x Hx. unfold expand_var. rewrite (ag_vars _ _ _ _ _ _ _ _ _ A' x Hx). destruct (CoreSpec.vars (core fm') x); reflexivity.
Qed.

(** ** An example *)

(** Functions, files and [eval], with signals at every moment. *)
Definition ex_fsignals_os : os := fun t =>
  let r := ex_signals_os t in
  Reports (r_isfile r) (r_open r) (contents ex_source_code) (r_chdir r) (r_cwd r) (r_kill r) (r_pipe r) (r_fork r) (r_exec r) (r_getpid r) (r_waits r) (r_subst r).
Lemma ex_fsignals_ok : system_signals ex_fsignals_os PropertiesAsync.often [] ex_source_code.
Proof.
  destruct ex_signals_ok as [S1 S2 S3 S4 S5 _ S7 S8]. split; [exact S1|exact S2|exact S3|exact S4|exact S5| |exact S7|exact S8].
  destruct ex_source_system_ok as [_ _ _ _ S6]. exact S6.
Qed.
Definition ex_fsession : list fscript := map (fun l => [l]) (ex_sources ++ ex_evals).
Definition ex_ftyping : list Main.typed :=
  Main.TChild :: List.concat (map (fun sc => [Main.TInterrupted; Main.TLine (fscript_text sc); Main.TChild]) ex_fsession) ++ [Main.TClosed].
Definition no_unset (x : str) (vs : list visit) : bool :=
  forallb (fun v => match v_comm v with Do (Unset y) => negb (str_eqb y x) | _ => true end) vs.
Lemma none_unset x vs : no_unset x vs = true -> Forall (does_not_unset x) vs.
Proof.
  intros H. apply Forall_forall. intros v Hv F. unfold no_unset in H. rewrite forallb_forall in H. specialize (H v Hv). cbn beta in H. rewrite F, str_eqb_refl in H. discriminate.
Qed.
Example C125_signals_example :
  Forall (fun sc => sc <> [] /\ Forall (fchain_ok [] (fun _ => false)) sc) ex_fsession /\ ftyping ex_fsession ex_ftyping /\
  MainSpec.no_startup_files ex_fsignals_os /\ system_signals ex_fsignals_os PropertiesAsync.often [] ex_source_code /\
  let r := main_async ex_fsignals_os PropertiesAsync.often 5 0 [lit "rsh"] ex_ftyping (Shell PropertiesMain.ex_fresh []) in
  fst r = OOk tt /\ List.length (programs_of (trace (snd r))) = 11%nat /\
  exists vs fm', frun ex_source_code 3 (List.concat ex_fsession) ex_machine = Some (vs, Goes 0 fm') /\ Forall (allowed ex_source_code) vs /\
    Forall (does_not_unset (lit "PS1")) vs /\ programs_of (trace (snd r)) = started (core fm').
Proof.
  split.
  { unfold ex_fsession. apply Forall_map. apply Forall_app. split; (eapply Forall_impl; [|first [exact ex_sources_ok|exact ex_evals_ok]]); intros l Hl;
      (split; [discriminate|]; apply Forall_cons; [exact Hl|apply Forall_nil]). }
  split.
  { unfold ex_ftyping. apply ftyping_child. generalize ex_fsession. intros l. induction l as [|sc l IH]; cbn [map List.concat List.app]; [apply ftyping_closed|].
    apply ftyping_interrupted, ftyping_line, ftyping_child, IH. }
  split; [intros t; split; reflexivity|]. split; [exact ex_fsignals_ok|].
  cbv zeta. split; [vm_compute; reflexivity|]. split; [vm_compute; reflexivity|].
  assert (E : match frun ex_source_code 3 (List.concat ex_fsession) ex_machine with
    | Some (vs, Goes st fm') => (Z.eqb st 0 && forallb (allowed_b ex_source_code) vs && no_unset (lit "PS1") vs)%bool = true /\
        programs_of (trace (snd (main_async ex_fsignals_os PropertiesAsync.often 5 0 [lit "rsh"] ex_ftyping (Shell PropertiesMain.ex_fresh [])))) = started (core fm')
    | _ => False end) by (vm_compute; split; reflexivity).
  destruct (frun ex_source_code 3 (List.concat ex_fsession) ex_machine) as [[vs [st fm'|]]|]; [|destruct E|destruct E].
  destruct E as [E Ep]. apply andb_true_iff in E. destruct E as [E E3]. apply andb_true_iff in E. destruct E as [E1 E2]. apply Z.eqb_eq in E1. subst st.
  exists vs, fm'. split; [reflexivity|]. split; [apply all_allowed; exact E2|]. split; [apply none_unset; exact E3|exact Ep].
Qed.

Print Assumptions C125_signals_partial.
Print Assumptions C125_signals_typed_partial.
