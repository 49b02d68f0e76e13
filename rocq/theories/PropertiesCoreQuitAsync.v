(** Property C142: [exit] and [exec] in scripts with functions, when signals arrive at
    any moment. *)
From Verif Require Import Base BaseFacts Lexer LexerSpec Ast Parser GrammarSpec.
From Verif Require Import Context.
From Verif Require ContextSpec ContextFacts ContextLaws PropertiesContext.
From Verif Require Import Alias Expand ExpandSpec ExpandFacts ExpandLaws Jobs JobsSpec Shell Builtins Eval Async.
From Verif Require Import EvalSpec EvalFacts EvalLaws EvalKeeps RunSpec RunLaws PipeSpec PipeLaws ChildLaws PipeRun.
From Verif Require Import JobsFacts JobsLaws JobsPipe AsyncLaws AsyncRun AsyncPipe.
From Verif Require PropertiesProgram PropertiesRun PropertiesEval PropertiesWait MainSpec Main MainLaws PropertiesMain PropertiesAsync GrammarFacts.
From Verif Require Import EvalFds.
From Verif Require Import CoreSpec CoreExitSpec CoreFunSpec PropertiesCore PropertiesCoreExit PropertiesCoreFun PropertiesCoreQuit PropertiesCoreAsync PropertiesCoreFunAsync.
Local Open Scope Z_scope.

(** ** Leaving in the middle of something *)

Lemma gone_first {A B} w r s' (m : M A) (k : A -> M B) s : gone w r s' (fun o => m s = (o, s')) -> gone w r s' (fun o => bind m k s = (o, s')).
Proof. apply gone_mono; intros; unfold bind; match goal with F : _ = _ |- _ => rewrite F end; reflexivity. Qed.
Lemma gone_later {A B} w r s' (m : M A) (k : A -> M B) s a s1 : m s = (OOk a, s1) ->
  gone w r s' (fun o => k a s1 = (o, s')) -> gone w r s' (fun o => bind m k s = (o, s')).
Proof. intros H. apply gone_mono; intros; unfold bind; rewrite H; assumption. Qed.
Lemma gone_catch {A} w r s' (m : M A) s : gone w r s' (fun o => m s = (o, s')) -> gone w r s' (fun o => catch m s = (o, s')).
Proof. apply gone_mono; intros; unfold catch; match goal with F : _ = _ |- _ => rewrite F end; reflexivity. Qed.
Lemma gone_eq {A} w r s' (m m' : M A) s s0 : m s = m' s0 -> gone w r s' (fun o => m' s0 = (o, s')) -> gone w r s' (fun o => m s = (o, s')).
Proof. intros H. apply gone_mono; intros; rewrite H; assumption. Qed.

Section Signals.
Context (w : os) (sg : point -> list event -> arrivals) (aliases_ : aliases) (readonly : str -> bool) (old : nmap job) (code : world).
Context (Hsg : system_signals w sg old code).
Notation fcomm_ok := (fcomm_ok aliases_ readonly).
Notation fchain_ok := (fchain_ok aliases_ readonly).
Notation fagrees := (fagrees aliases_ readonly old).
Notation last_state := (last_state aliases_ readonly old).

Section Loop.
Context (one : fcomm -> fmachine -> outcome) (t0 : fdtable) (d k : nat).
Hypothesis Hone : forall c fm vs st fm' s, one c fm = Some (vs, Goes st fm') -> Forall (allowed code) vs -> fcomm_ok c -> fagrees t0 false k fm s ->
  exists s', eval_pipeline_async w sg (evaluate_async w sg d) (ftree c) s = (OOk st, s') /\ fagrees t0 false k fm' s'.
Hypothesis Hleave : forall c fm vs r s, one c fm = Some (vs, Gone r) -> Forall (allowed code) vs -> fcomm_ok c -> fagrees t0 false k fm s ->
  exists s', last_state t0 false r s' /\ gone w r s' (fun o => eval_pipeline_async w sg (evaluate_async w sg d) (ftree c) s = (o, s')).

Lemma gone_fold r s' s0 l : forall a, gone w r s' (fun o => eval_and_or_async w sg (evaluate_async w sg d) a s0 = (o, s')) ->
  gone w r s' (fun o => eval_and_or_async w sg (evaluate_async w sg d) (fold_left (fun a cp => AoMore a (fst cp) (snd cp)) l a) s0 = (o, s')).
Proof.
  induction l as [|[o p] l IH]; intros a H; [exact H|]. cbn [fold_left fst snd]. apply IH. cbn [eval_and_or_async]. apply gone_first. exact H.
Qed.
Lemma fmore_leaves_async rest : Forall (fun oc => fcomm_ok (snd oc)) rest -> forall a s0 st fm s vs r, fagrees t0 false k fm s ->
  eval_and_or_async w sg (evaluate_async w sg d) a s0 = (OOk st, s) ->
  frun_more one rest st fm = Some (vs, Gone r) -> Forall (allowed code) vs ->
  exists s', last_state t0 false r s' /\
    gone w r s' (fun o => eval_and_or_async w sg (evaluate_async w sg d) (fold_left (fun a cp => AoMore a (fst cp) (snd cp)) (fpipes rest) a) s0 = (o, s')).
Proof.
  induction 1 as [|[o c] rest Hc _ IH]; intros a s0 st fm s vs r A Ha E Hv; cbn [frun_more fpipes map fst snd fold_left] in *; [discriminate|].
  assert (Hn : forall x s1, (if goes_on o st then eval_pipeline_async w sg (evaluate_async w sg d) (ftree c) s else (OOk st, s)) = (OOk x, s1) ->
    eval_and_or_async w sg (evaluate_async w sg d) (AoMore a o (ftree c)) s0 = (OOk x, s1)).
  { intros x s1 Hx. cbn [eval_and_or_async]. rewrite (bind_ok _ _ _ _ _ Ha). destruct o; cbn [goes_on] in Hx; destruct (Z.eqb st 0); exact Hx. }
  destruct (goes_on o st) eqn:G.
  - apply followed_gone in E. destruct E as [E|(v1 & st1 & fm1 & v2 & E1 & E2 & ->)].
    + destruct (Hleave c fm vs r s E Hv Hc A) as (s' & L & K). exists s'. split; [exact L|]. apply gone_fold. cbn [eval_and_or_async].
      apply (gone_later w r s' _ _ s0 st s Ha). destruct o; cbn [goes_on] in G; destruct (Z.eqb st 0); try discriminate; exact K.
    + apply Forall_app in Hv. destruct Hv as [Hv1 Hv2]. destruct (Hone c fm v1 st1 fm1 s E1 Hv1 Hc A) as (s1 & H1 & H2).
      exact (IH _ s0 st1 fm1 s1 v2 r H2 (Hn _ _ H1) E2 Hv2).
  - exact (IH _ s0 st fm s vs r A (Hn _ _ eq_refl) E Hv).
Qed.
Lemma fchain_leaves_async l fm s vs r : fchain_ok l -> fagrees t0 false k fm s -> frun_chain one l fm = Some (vs, Gone r) -> Forall (allowed code) vs ->
  exists s', last_state t0 false r s' /\ gone w r s' (fun o => eval_and_or_async w sg (evaluate_async w sg d) (fchain_tree l) s = (o, s')).
Proof.
  intros [H0 Hr] A E Hv. apply followed_gone in E. destruct E as [E|(v1 & st1 & fm1 & v2 & E1 & E2 & ->)].
  - destruct (Hleave (fst l) fm vs r s E Hv H0 A) as (s' & L & K). exists s'. split; [exact L|].
    exact (gone_fold r s' s (fpipes (snd l)) (AoOne (ftree (fst l))) K).
  - apply Forall_app in Hv. destruct Hv as [Hv1 Hv2]. destruct (Hone (fst l) fm v1 st1 fm1 s E1 Hv1 H0 A) as (s1 & K1 & K2).
    exact (fmore_leaves_async (snd l) Hr (AoOne (ftree (fst l))) s st1 fm1 s1 v2 r K2 K1 E2 Hv2).
Qed.
Lemma fscript_leaves_async sc : Forall fchain_ok sc -> forall st0 fm s vs r, fagrees t0 false k fm s ->
  frun_script one sc st0 fm = Some (vs, Gone r) -> Forall (allowed code) vs ->
  exists s', last_state t0 false r s' /\ gone w r s' (fun o => parse_tree_async w sg (evaluate_async w sg d) st0 (map fchain_tree sc) s = (o, s')).
Proof.
  induction 1 as [|l sc Hl _ IH]; intros st0 fm s vs r A E Hv; cbn [frun_script map parse_tree_async] in *; [discriminate|].
  apply followed_gone in E. destruct E as [E|(v1 & st1 & fm1 & v2 & E1 & E2 & ->)].
  - destruct (fchain_leaves_async l fm s vs r Hl A E Hv) as (s' & L & K). exists s'. split; [exact L|]. apply gone_first. exact K.
  - apply Forall_app in Hv. destruct Hv as [Hv1 Hv2].
    destruct (fchain_async w sg aliases_ readonly old code one t0 d k Hone l fm s v1 st1 fm1 Hl A E1 Hv1) as (s1 & H1 & H2).
    destruct (IH st1 fm1 s1 v2 r H2 E2 Hv2) as (s' & L & K). exists s'. split; [exact L|]. exact (gone_later w r s' _ _ s st1 s1 H1 K).
Qed.
Lemma fbody_leaves_async sc st0 fm s vs r : Forall fchain_ok sc -> sc <> [] -> fagrees t0 false k fm s ->
  frun_script one sc st0 fm = Some (vs, Gone r) -> Forall (allowed code) vs ->
  exists s', last_state t0 false r s' /\ gone w r s' (fun o => evaluate_async w sg (S d) (map fchain_tree sc) s = (o, s')).
Proof.
  intros Hok Hne A E Hv. cbn [evaluate_async]. apply (fscript_leaves_async sc Hok (-1) fm s vs r A); [|exact Hv]. destruct sc; [congruence|exact E].
Qed.
End Loop.

(** A builtin that does not come back. *)
Lemma leaver_async rec n ws vs s s1 s' r : signals w sg PStart s = (OOk tt, s1) ->
  check_if_builtin n = true -> str_eqb n (lit "fg") || str_eqb n (lit "bg") = false -> plain_name (al (im s1)) n ->
  Forall2 (ordinary (expand_var (cm (im s1)))) ws vs ->
  gone w r s' (fun o => call_builtin w rec (SimpleCommand None n (Some (Suffix [] vs))) (blocked s1) = (o, s')) ->
  gone w r s' (fun o => eval_pipeline_async w sg rec (Pipeline false [CSimple (words_cmd n ws)] false) s = (o, s')).
Proof.
  intros Es Hb Hn Hp Ho Hc. unfold eval_pipeline_async.
  apply (gone_later w r s' _ _ s tt s1 Es). apply (gone_later w r s' interrupts_off _ s1 tt (blocked s1) eq_refl). apply gone_first.
  cbn [gather_async eval_command_async]. apply gone_first. unfold eval_simple_command_async. change (sc_name (words_cmd n ws)) with n. rewrite Hb.
  apply gone_first. unfold eval_builtin_async.
  pose proof (expand_words w n ws vs (blocked s1) Hp Ho) as Hx. apply (gone_later w r s' _ _ (blocked s1) _ (blocked s1) (expand_plain w sg _ _ _ Hx)).
  cbn [sc_name]. rewrite Hn. exact Hc.
Qed.

Lemma quit_async rec t0 k e fm s : fcomm_ok (Quit e) -> leave_fits (core fm) e -> fagrees t0 false k fm s ->
  exists s', last_state t0 false (left_by e 0 (core fm)) s' /\
    gone w (left_by e 0 (core fm)) s' (fun o => eval_pipeline_async w sg rec (ftree (Quit e)) s = (o, s')).
Proof.
  intros [Hok Hne] Hf A. destruct (signals_fagree w sg aliases_ readonly old code Hsg t0 k PStart fm s A) as (s1 & Es & [A1 _ _]).
  destruct (leave_run w aliases_ (table_of (funs fm)) readonly old t0 k false 0 e 0 (core fm) s1 A1 Hok Hf) as (o & s' & R1 & R2 & R3 & R4); [intros F; contradiction|].
  rewrite (proj2 (leave_tree aliases_ (fun _ => None) readonly e Hok)) in R1.
  exists s'. split; [exists (table_of (funs fm)), k, t0; split; [reflexivity|destruct e; exact R4]|].
  assert (Hal : al (im s1) = aliases_) by apply (ag_aliases _ _ _ _ _ _ _ _ _ A1).
  assert (Hcall : forall n ws vs, check_if_builtin n = true -> n <> [] -> sget n aliases_ = None -> Forall written_word ws ->
    Forall2 (ordinary (expand_var (cm (im s1)))) ws vs -> leave_text e = r_words (n :: ws) ->
    (forall rec', call_builtin w rec' (SimpleCommand None n (Some (Suffix [] vs))) = call_builtin w rec (SimpleCommand None n (Some (Suffix [] vs)))) ->
    exists o1, call_builtin w rec (SimpleCommand None n (Some (Suffix [] vs))) (blocked s1) = (o1, s') /\ o = lift o1 /\ fails o1).
  { intros n ws vs B1 B2 B3 B4 B5 B6 B7. rewrite B6 in R1. rewrite (exec_builtin' w 0 n ws vs s1 B1 B2 ltac:(rewrite Hal; exact B3) B4 B5) in R1. rewrite B7 in R1.
    destruct (call_builtin w rec _ (blocked s1)) as [o1 s2]. destruct o1; injection R1 as <- <-; try (destruct R2; fail);
      eexists; (split; [reflexivity|]); (split; [reflexivity|exact R2]). }
  destruct e as [a| |n args]; [|contradiction|]; cbn [ftree leave_pipe leave_words left_by gone ends_so] in *.
  - destruct Hok as [Ha Hal']. destruct Hf as [Hv Hn]. destruct (arg_ordinary _ _ _ _ _ _ _ (core fm) s1 a A1 Ha Hv) as (Ho & _).
    destruct (Hcall (lit "exit") [arg_text a] [arg_value (core fm) a] eq_refl ltac:(discriminate) Hal' ltac:(apply Forall_cons; [apply arg_written, Ha|apply Forall_nil])
      ltac:(constructor; [exact Ho|constructor]) eq_refl ltac:(intros; reflexivity)) as (o1 & C1 & C2 & C3).
    apply (leaver_async rec (lit "exit") [arg_text a] [arg_value (core fm) a] s s1 s' (Exits (number (arg_value (core fm) a)) (core fm)) Es eq_refl eq_refl).
    + destruct (builtin_word (lit "exit") eq_refl ltac:(discriminate)) as [_ B]. apply B. congruence.
    + constructor; [exact Ho|constructor].
    + cbn [gone]. rewrite C1. rewrite R3 in C2. destruct o1; try discriminate C2; try contradiction. injection C2 as <-. reflexivity.
  - destruct Hok as (Hn & Hq & Ha & Hal').
    assert (Hargs : Forall2 (ordinary (expand_var (cm (im s1)))) (map arg_text args) (map (arg_value (core fm)) args)).
    { clear -A1 Ha Hf. induction Ha as [|a args H _ IH]; [constructor|]. cbn [map]. constructor; [|apply IH; intros x F; apply Hf; right; exact F].
      destruct (arg_ordinary _ _ _ _ _ _ _ (core fm) s1 a A1 H) as (O1 & _); [intros x ->; apply Hf; left; reflexivity|exact O1]. }
    destruct (arg_ordinary _ _ _ _ _ _ _ (core fm) s1 (Plain n) A1 Hn) as (O1 & _); [discriminate|]. cbn [arg_text arg_value] in O1.
    assert (W : Forall written_word (n :: map arg_text args)).
    { apply Forall_cons; [apply plain_written, Hn|]. apply Forall_map. eapply Forall_impl; [|exact Ha]. apply arg_written. }
    destruct (Hcall (lit "exec") (n :: map arg_text args) (n :: map (arg_value (core fm)) args) eq_refl ltac:(discriminate) Hal' W
      (Forall2_cons _ _ O1 Hargs) eq_refl ltac:(intros; reflexivity)) as (o1 & C1 & C2 & C3).
    apply (leaver_async rec (lit "exec") (n :: map arg_text args) (n :: map (arg_value (core fm)) args) s s1 s'
      (Becomes (n :: List.concat (map (arg_fields (core fm)) args)) (environment (core fm)) (core fm)) Es eq_refl eq_refl).
    + destruct (builtin_word (lit "exec") eq_refl ltac:(discriminate)) as [_ B]. apply B. congruence.
    + exact (Forall2_cons _ _ O1 Hargs).
    + cbn [gone]. destruct R3 as (M1 & M2 & M3 & _). split; [exact M1|]. split; [exact M2|]. intros p Q1 Q2 Q3. rewrite C1.
      specialize (M3 p Q1 Q2 Q3). rewrite M3 in C2. destruct o1; try discriminate C2; try contradiction. injection C2 as <- <- <-. reflexivity.
Qed.

Lemma ffile_leaves_async t0 d k fm s s1 f body r s2 : signals w sg PStart s = (OOk tt, s1) -> fagrees t0 false k fm s1 -> fcomm_ok (Source f body) ->
  (exists scs, Forall (fun sc => sc <> []) scs /\ body = List.concat scs /\ contents code f = Some (file_text scs)) ->
  gone w r s2 (fun o => evaluate_async w sg (S d) (map fchain_tree body) (file_opened f s1) = (o, s2)) ->
  gone w r s2 (fun o => eval_pipeline_async w sg (evaluate_async w sg (S d)) (ftree (Source f body)) s = (o, s2)).
Proof.
  intros Es [A Hb Hp] Hok (scs & Hne & Hbody & Hc) Hrun. apply source_ok in Hok. destruct Hok as (H1 & H2 & H3 & H4 & H5).
  assert (P2 : parse (file_text scs) = Some (Some (map fchain_tree body))) by (subst body; apply (file_parses aliases_ readonly scs Hne H4 H5)).
  destruct (arg_ordinary _ _ _ _ _ _ _ (core fm) s1 (Plain f) A H1 ltac:(discriminate)) as (Ho & _). cbn [arg_text arg_value] in Ho.
  pose proof (ss_files w sg old code Hsg f _ (trace s1) Hc) as [F1 _].
  pose proof (ss_files w sg old code Hsg f _ (EOpen f for_reading :: trace s1) Hc) as [_ F2].
  cbn [ftree]. apply (leaver_async (evaluate_async w sg (S d)) (lit ".") [f] [f] s s1 s2 r Es eq_refl eq_refl).
  - destruct (builtin_word (lit ".") eq_refl ltac:(discriminate)) as [_ B]. apply B. pose proof (ag_aliases _ _ _ _ _ _ _ _ _ A). congruence.
  - constructor; [exact Ho|constructor].
  - rewrite call_dot. unfold source_cmd. cbn [words_of sc_suffix word_list source_args].
    apply (gone_later w r s2 (ret tt) _ (blocked s1) tt (blocked s1) eq_refl). rewrite (proj2 (contains_char_In _ _) H2).
    apply (gone_later w r s2 (ret f) _ (blocked s1) f (blocked s1) eq_refl).
    assert (E2 : sys_open w f for_reading (blocked s1) = (OOk (Some (lowest (fds (im s1)))), file_opened f s1)).
    { unfold sys_open, ask, bind. cbn [trace blocked]. rewrite F1. destruct s1 as [[] ?]; reflexivity. }
    apply (gone_later w r s2 _ _ (blocked s1) _ _ E2). unfold while_open. apply gone_first, gone_catch.
    assert (E3 : ask w (fun r => r_read r f) (file_opened f s1) = (OOk (Some (file_text scs)), file_opened f s1)).
    { unfold ask. change (trace (file_opened f s1)) with (EOpen f for_reading :: trace s1). rewrite F2. reflexivity. }
    apply (gone_later w r s2 _ _ (file_opened f s1) _ _ E3). cbn [unwrap].
    apply (gone_later w r s2 (ret (file_text scs)) _ (file_opened f s1) _ (file_opened f s1) eq_refl). unfold parse_text. rewrite P2.
    apply (gone_later w r s2 (ret (Some (map fchain_tree body))) _ (file_opened f s1) _ (file_opened f s1) eq_refl). cbn [eval_complete].
    apply gone_first, gone_catch. exact Hrun.
Qed.

Lemma feval_leaves_async t0 d k fm s s1 body r s2 : signals w sg PStart s = (OOk tt, s1) -> fagrees t0 false k fm s1 -> fcomm_ok (EvalText body) ->
  gone w r s2 (fun o => evaluate_async w sg (S d) (map fchain_tree body) (blocked s1) = (o, s2)) ->
  gone w r s2 (fun o => eval_pipeline_async w sg (evaluate_async w sg (S d)) (ftree (EvalText body)) s = (o, s2)).
Proof.
  intros Es [A Hb Hp] Hok Hrun. apply eval_ok in Hok. destruct Hok as (H1 & H2 & H3 & H4).
  cbn [ftree]. apply (leaver_async (evaluate_async w sg (S d)) (lit "eval") [sq (fscript_text body)] [fscript_text body] s s1 s2 r Es eq_refl eq_refl).
  - destruct (builtin_word (lit "eval") eq_refl ltac:(discriminate)) as [_ B]. apply B. pose proof (ag_aliases _ _ _ _ _ _ _ _ _ A). congruence.
  - constructor; [apply o_single; exact H1|constructor].
  - rewrite call_eval. unfold eval_cmd. cbn [words_of sc_suffix word_list word_at nth_error unwrap].
    apply (gone_later w r s2 (ret (fscript_text body)) _ (blocked s1) _ (blocked s1) eq_refl).
    assert (Ep : parse (fscript_text body ++ [10%N]) = Some (Some (map fchain_tree body))).
    { rewrite <- (fscript_render _ _ body H4). apply GrammarFacts.render_parse_newline; [destruct body; [congruence|discriminate]|].
      apply Forall_map. eapply Forall_impl; [|exact H4]. intros l Hl. apply (fchain_facts _ _ l Hl). }
    unfold parse_text. rewrite Ep. apply (gone_later w r s2 (ret (Some (map fchain_tree body))) _ (blocked s1) _ (blocked s1) eq_refl). cbn [eval_complete].
    apply gone_first, gone_catch. exact Hrun.
Qed.

(** A call whose body leaves the shell. *)
Lemma fcall_leaves_async t0 d k fs m s s1 g ars body m1 r s2 : signals w sg PStart s = (OOk tt, s1) ->
  agrees aliases_ fs readonly old t0 k false m s1 -> comm_ok aliases_ (fun _ => None) readonly (Run (Prog [] g ars []) []) ->
  fs g = Some (FunctionBody (map fchain_tree body) None) ->
  (forall x, In (Dollar x) ars -> exists u, CoreSpec.vars m x = Some u /\ shown u) ->
  ContextSpec.performs (ContextLaws.entry g (map (arg_value m) ars)) (cm (im s1)) = Some m1 ->
  gone w r s2 (fun o => evaluate_async w sg (S d) (map fchain_tree body) (blocked (Shell (with_cm m1 (im s1)) (trace s1))) = (o, s2)) ->
  gone w r s2 (fun o => eval_pipeline_async w sg (evaluate_async w sg (S d)) (comm_pipe (Run (Prog [] g ars []) [])) s = (o, s2)).
Proof.
  intros Es A Hok Hg Hdol Hm1 Hrun. pose proof A as []. cbn [comm_ok] in Hok. inversion_clear Hok as [|? ? Hok1 _].
  destruct Hok1 as (_ & O2 & O3 & O4 & _ & O6 & O7 & _). cbn [name arguments] in *.
  assert (Hord : forall a, In a ars -> ordinary (expand_var (cm (im s1))) (arg_text a) (arg_value m a) /\ ~ In 0%N (arg_value m a) /\
    arg_fields m a = [arg_value m a]).
  { intros a Ha. rewrite Forall_forall in O7. eapply arg_ordinary; [exact A|exact (O7 a Ha)|]. intros x ->. exact (Hdol x Ha). }
  set (rec := evaluate_async w sg (S d)) in *. set (vs := map (arg_value m) ars) in *.
  set (sc := SimpleCommand None g (Some (Suffix [] vs))).
  assert (Hgather : gather_async w sg rec [CSimple (words_cmd g (map arg_text ars))] (blocked s1) = (OOk [(process_new (g :: vs) g g, sc)], blocked s1)).
  { apply gather_words_async; [exact O4|cbn; rewrite ag_aliases; exact O3| |].
    - unfold vs. clear -Hord. induction ars as [|a ars IHa]; [constructor|]. cbn [map]. constructor; [apply Hord; left; reflexivity|].
      apply IHa. intros b Hb. apply Hord. right. exact Hb.
    - intros c F. cbn [List.concat] in F. apply in_app_or in F. destruct F as [F|F].
      + destruct g; [destruct F|]. destruct O2 as [_ [Z _]]. exact (proj2 (Z c F)).
      + apply in_concat in F. destruct F as (v & Fv & F). apply in_map_iff in Fv. destruct Fv as (a & <- & Ha). intros ->. exact (proj1 (proj2 (Hord a Ha)) F). }
  assert (Hget : get_function g (cm (im s1)) = Some (FunctionBody (map fchain_tree body) None)) by (rewrite ag_functions by exact O6; exact Hg).
  assert (Hif : is_function g (cm (im s1)) = true).
  { apply PropertiesContext.C30_is_function. rewrite Hget. discriminate. }
  assert (Hp : comm_pipe (Run (Prog [] g ars []) []) = Pipeline false [CSimple (words_cmd g (map arg_text ars))] false) by (clear; destruct ars; reflexivity).
  rewrite Hp. unfold eval_pipeline_async. apply (gone_later w r s2 _ _ s tt s1 Es).
  apply (gone_later w r s2 interrupts_off _ s1 tt (blocked s1) eq_refl). apply (gone_later w r s2 _ _ (blocked s1) _ _ Hgather).
  apply gone_first. cbv iota. apply gone_first. cbn [run_functions snd]. change (sc_name sc) with g.
  apply (gone_later w r s2 (look cm) _ (blocked s1) (cm (im s1)) (blocked s1) eq_refl). rewrite Hif.
  apply gone_first. unfold eval_function.
  apply (gone_later w r s2 (look cm) _ (blocked s1) (cm (im s1)) (blocked s1) eq_refl). change (sc_name sc) with g. rewrite Hget.
  rewrite <- ContextLaws.enter_performs in Hm1.
  apply (gone_later w r s2 (try_cm _) _ (blocked s1) tt (blocked (Shell (with_cm m1 (im s1)) (trace s1)))).
  { unfold try_cm, try_. change (cm (im (blocked s1))) with (cm (im s1)). unfold words_of, sc. cbn [sc_suffix word_list]. rewrite Hm1. reflexivity. }
  cbn [fb_body]. apply gone_first, gone_catch. exact Hrun.
Qed.

(** The shell is left as the machine says, whenever signals arrive. *)
Lemma fstep_leaves_async n : forall t0 d k c fm vs r s, (n <= d)%nat -> fstep code n k c fm = Some (vs, Gone r) -> Forall (allowed code) vs -> fcomm_ok c ->
  fagrees t0 false k fm s -> exists s', last_state t0 false r s' /\ gone w r s' (fun o => eval_pipeline_async w sg (evaluate_async w sg d) (ftree c) s = (o, s')).
Proof.
  induction n as [|n IH]; intros t0 d k c fm vs r s Hd E Hv Hok A.
  1,2: destruct c as [c|e|f body|body|f body]; [|cbn [fstep] in E; injection E as <- <-; inversion_clear Hv as [|? ? Hv1 _]; exact (quit_async _ t0 k e fm s Hok Hv1 A)| | |discriminate].
  2,3: discriminate.
  - cbn [fstep] in E. destruct (called fm c) as [[body args]|]; [discriminate|]. destruct (step code c (core fm)); discriminate.
  - cbn [fstep] in E. destruct (called fm c) as [[body args]|] eqn:Hc; [|destruct (step code c (core fm)); discriminate].
    destruct d as [|d]; [lia|].
    destruct (frun_script (fstep code n (S k)) body 0 (FMachine (entered args (core fm)) (funs fm) args)) as [[v1 [st1 fm1|r1]]|] eqn:E1; [discriminate| |discriminate].
    injection E as <- <-. inversion_clear Hv as [|? ? Hv0 Hv1]. cbn [allowed v_comm v_before v_calls v_status] in Hv0. rewrite Hc in Hv0.
    destruct (called_some fm c body args Hc) as (g & ars & -> & Hg & Hargs). destruct Hv0 as (_ & Hpar & Hdig & Hpass & Hdol). cbn [name arguments] in Hdig, Hdol.
    destruct (signals_fagree w sg aliases_ readonly old code Hsg t0 k PStart fm s A) as (s1 & E0 & [A0 Hb Hp]). pose proof A0 as []. cbn [PropertiesCoreFun.fcomm_ok] in Hok.
    assert (Hnone : forall x, position x -> CoreSpec.vars (core fm) x = None) by (intros x Hx; rewrite Hp, Hpar by exact Hx; reflexivity).
    destruct (entry_made g args (cm (im s1)) ag_wf Hdig Hpass) as [m1 Hm1].
    destruct (Hb g body Hg) as [Hbne Hbok].
    pose proof (agrees_entered _ _ _ _ _ k _ _ s1 g args m1 A0 Hm1 Hpass Hnone) as A1.
    destruct (fbody_leaves_async (fstep code n (S k)) t0 d (S k)) with (sc := body) (st0 := 0) (fm := FMachine (entered args (core fm)) (funs fm) args)
      (s := blocked (Shell (with_cm m1 (im s1)) (trace s1))) (vs := v1) (r := r1) as (s2 & L & K); auto.
    { intros c fm0 vs0 st0 fm0' s0 F1 F2 F3 F4. apply (fstep_async w sg aliases_ readonly old code Hsg n t0 d (S k) c fm0 vs0 st0 fm0' s0); auto. lia. }
    { intros c fm0 vs0 r0 s0 F1 F2 F3 F4. apply (IH t0 d (S k) c fm0 vs0 r0 s0); auto. lia. }
    { apply fagrees_blocked. split; cbn [core funs params]; [exact A1|exact Hb|]. intros x Hx. cbn [entered CoreSpec.vars]. unfold position in Hx. rewrite Hx. reflexivity. }
    assert (Hv : List.concat (map (arg_fields (core fm)) ars) = map (arg_value (core fm)) ars).
    { pose proof Hok as Hok2. cbn [comm_ok] in Hok2. inversion_clear Hok2 as [|? ? Hok1 _]. destruct Hok1 as (_ & _ & _ & _ & _ & _ & O7 & _). cbn [arguments] in O7.
      apply concat_fields. intros a Ha. rewrite Forall_forall in O7.
      destruct (arg_ordinary _ _ _ _ _ _ _ (core fm) s1 a A0 (O7 a Ha)) as (_ & _ & Hf); [|exact Hf]. intros x ->. exact (Hdol x Ha). }
    rewrite Hv in Hargs. subst args. exists s2. split; [exact L|]. cbn [ftree].
    apply (fcall_leaves_async t0 d k (table_of (funs fm)) (core fm) s s1 g ars body m1 r1 s2 E0 A0 Hok); auto.
    unfold table_of. rewrite Hg. reflexivity.
  - cbn [fstep] in E. destruct d as [|d]; [lia|].
    destruct (frun_script (fstep code n k) body 0 fm) as [[v1 [st1 fm1|r1]]|] eqn:E1; [discriminate| |discriminate].
    injection E as <- <-. inversion_clear Hv as [|? ? Hv0 Hv1]. cbn [allowed v_comm v_before v_calls v_status] in Hv0. destruct Hv0 as [_ Hc].
    destruct (signals_fagree w sg aliases_ readonly old code Hsg t0 k PStart fm s A) as (s1 & E0 & A0). pose proof Hok as Hok1. apply source_ok in Hok1. destruct Hok1 as (_ & _ & _ & Hne & Hbok).
    destruct A0 as [A0 Hb Hp]. destruct (agrees_opened aliases_ readonly old t0 _ k false _ s1 f A0) as [A1 Hk].
    destruct (fbody_leaves_async (fstep code n k) (fds (im (file_opened f s1))) d k) with (sc := body) (st0 := 0) (fm := fm)
      (s := file_opened f s1) (vs := v1) (r := r1) as (s2 & (fs & k2 & t1 & Hk1 & L) & K); auto.
    { intros c fm0 vs0 st0 fm0' s0 F1 F2 F3 F4. apply (fstep_async w sg aliases_ readonly old code Hsg n _ d k c fm0 vs0 st0 fm0' s0); auto. lia. }
    { intros c fm0 vs0 r0 s0 F1 F2 F3 F4. apply (IH _ d k c fm0 vs0 r0 s0); auto. lia. }
    { split; assumption. }
    exists s2. split; [exists fs, k2, t1; split; [intros fd; rewrite Hk1; apply Hk|exact L]|].
    exact (ffile_leaves_async t0 d k fm s s1 f body r1 s2 E0 (Build_fagrees _ _ _ _ _ _ _ _ A0 Hb Hp) Hok Hc K).
  - cbn [fstep] in E. destruct d as [|d]; [lia|].
    destruct (frun_script (fstep code n k) body 0 fm) as [[v1 [st1 fm1|r1]]|] eqn:E1; [discriminate| |discriminate].
    injection E as <- <-. inversion_clear Hv as [|? ? _ Hv1].
    destruct (signals_fagree w sg aliases_ readonly old code Hsg t0 k PStart fm s A) as (s1 & E0 & A0). pose proof Hok as Hok1. apply eval_ok in Hok1. destruct Hok1 as (_ & _ & Hne & Hbok).
    destruct (fbody_leaves_async (fstep code n k) t0 d k) with (sc := body) (st0 := 0) (fm := fm)
      (s := blocked s1) (vs := v1) (r := r1) as (s2 & L & K); auto.
    { intros c fm0 vs0 st0 fm0' s0 F1 F2 F3 F4. apply (fstep_async w sg aliases_ readonly old code Hsg n _ d k c fm0 vs0 st0 fm0' s0); auto. lia. }
    { intros c fm0 vs0 r0 s0 F1 F2 F3 F4. apply (IH _ d k c fm0 vs0 r0 s0); auto. lia. }
    { apply fagrees_blocked. exact A0. }
    exists s2. split; [exact L|]. exact (feval_leaves_async t0 d k fm s s1 body r1 s2 E0 A0 Hok K).
Qed.
End Signals.

(** ** Whole scripts and sessions *)

Section Scripts.
Context (w : os) (sg : point -> list event -> arrivals) (aliases_ : aliases) (readonly : str -> bool) (old : nmap job) (t0 : fdtable) (code : world).
Context (Hsg : system_signals w sg old code) (n d : nat) (Hd : (n <= d)%nat).
Notation fagrees := (fagrees aliases_ readonly old t0 false 0).
Notation fchain_ok := (fchain_ok aliases_ readonly).

(** A script that leaves the shell, from however deep in calls, files and [eval]s, does so
    where its meaning says, whenever signals arrive. *)
Theorem C142_signals_partial : forall sc st0 fm s vs r, fagrees fm s -> Forall fchain_ok sc -> sc <> [] ->
  frun_script (fstep code n 0) sc st0 fm = Some (vs, Gone r) -> Forall (allowed code) vs ->
  exists s', last_state aliases_ readonly old t0 false r s' /\ gone w r s' (fun o => exec_text_async w sg (S d) (fscript_text sc) s = (o, s')).
Proof.
  intros sc st0 fm s vs r A Hok Hne E Hv.
  destruct (fbody_leaves_async w sg aliases_ readonly old code (fstep code n 0) t0 d 0) with (sc := sc) (st0 := st0) (fm := fm) (s := s) (vs := vs) (r := r)
    as (s' & H1 & H2); auto.
  { intros c fm0 vs0 st1 fm0' s0 F1 F2 F3 F4. apply (fstep_async w sg aliases_ readonly old code Hsg n t0 d 0 c fm0 vs0 st1 fm0' s0); auto. }
  { intros c fm0 vs0 r0 s0 F1 F2 F3 F4. apply (fstep_leaves_async w sg aliases_ readonly old code Hsg n t0 d 0 c fm0 vs0 r0 s0); auto. }
  exists s'. split; [exact H1|]. unfold exec_text_async. rewrite (proj1 (fscript_parses aliases_ readonly sc Hok Hne)). exact H2.
Qed.

Lemma ftyped_leaves_async scs ins : ftyping scs ins -> Forall (fun sc => sc <> [] /\ Forall fchain_ok sc) scs -> forall st0 fm s vs r,
  fagrees fm s -> CoreSpec.vars (core fm) (lit "PS1") <> None -> frun_script (fstep code n 0) (List.concat scs) st0 fm = Some (vs, Gone r) ->
  Forall (allowed code) vs -> Forall (does_not_unset (lit "PS1")) vs ->
  exists s', last_state aliases_ readonly old t0 false r s' /\ gone w r s' (fun o => interactive_loop_async w sg (S d) ins s = (o, s')).
Proof.
  induction 1 as [ins|sc scs ins _ IH|scs ins _ IH|scs ins _ IH]; intros Hok st0 fm s vs r A Hps E Hv Hl;
    (assert (P : exists v, expand_var (cm (im s)) (lit "PS1") = Some v) by
       (unfold expand_var; rewrite (ag_vars _ _ _ _ _ _ _ _ _ (fa_core _ _ _ _ _ _ _ _ A) (lit "PS1") ps1_identifier); destruct (CoreSpec.vars (core fm) (lit "PS1")); [eexists; reflexivity|congruence]));
    destruct P as [v P]; cbn [interactive_loop_async].
  - discriminate.
  - inversion Hok as [|? ? [Hne Ho1] Ho2]; subst. cbn [List.concat] in *.
    assert (Hgo : forall (X : M unit) s', gone w r s' (fun o => X s = (o, s')) ->
      gone w r s' (fun o => (c <- look cm ;; unwrap (expand_var c (lit "PS1")) ;; X) s = (o, s'))).
    { intros X s' K. apply (gone_later w r s' (look cm) _ s (cm (im s)) s eq_refl). rewrite P. exact (gone_later w r s' (unwrap (Some v)) _ s v s eq_refl K). }
    rewrite frun_script_app in E. apply followed_gone in E. destruct E as [E|(v1 & st1 & fm1 & v2 & E1 & E2 & ->)].
    + destruct (C142_signals_partial sc st0 fm s vs r A Ho1 Hne E Hv) as (s' & L & K). exists s'. split; [exact L|]. apply Hgo. apply gone_first.
      unfold run_line_async. unfold exec_text_async in K. destruct (fscript_parses aliases_ readonly sc Ho1 Hne) as [P1 _]. rewrite P1 in *.
      destruct (fscript_text sc) as [|ch0 t']; [discriminate P1|]. apply gone_first, gone_catch. exact K.
    + apply Forall_app in Hv. destruct Hv as [Hv1 Hv2]. apply Forall_app in Hl. destruct Hl as [Hl1 Hl2].
      destruct (fline_async w sg aliases_ readonly old t0 code Hsg n d Hd sc st0 fm s v1 st1 fm1 Ho1 Hne A E1 Hv1) as (s1 & K1 & K2).
      pose proof (script_set (lit "PS1") _ sc (fstep_set code (lit "PS1") eq_refl n 0) _ _ _ _ _ E1 Hl1 Hps) as Hps1.
      destruct (IH Ho2 st1 fm1 s1 v2 r K2 Hps1 E2 Hv2 Hl2) as (s' & L & K). exists s'. split; [exact L|]. apply Hgo. exact (gone_later w r s' _ _ s tt s1 K1 K).
  - destruct A as [A Hb Hp]. destruct (prompt_quiet w sg old code Hsg s (ag_quiet _ _ _ _ _ _ _ _ _ A)) as (s1 & K1 & K2 & K3).
    destruct (IH Hok st0 fm s1 vs r) as (s' & L & K); auto.
    { split; [|exact Hb|exact Hp]. exact (agrees_waited aliases_ _ readonly old t0 0 _ s s1 A (alike_likewise _ _ K2) K3). }
    exists s'. split; [exact L|]. apply (gone_later w r s' (look cm) _ s (cm (im s)) s eq_refl). rewrite P.
    apply (gone_later w r s' (unwrap (Some v)) _ s v s eq_refl). exact (gone_later w r s' _ _ s tt s1 K1 K).
  - destruct (IH Hok st0 fm s vs r A Hps E Hv Hl) as (s' & L & K). exists s'. split; [exact L|].
    apply (gone_later w r s' (look cm) _ s (cm (im s)) s eq_refl). rewrite P. exact (gone_later w r s' (unwrap (Some v)) _ s v s eq_refl K).
Qed.
End Scripts.

(** A session that ends with [exit] or [exec], whenever signals arrive: in the commands,
    in the functions, between them and at the prompt.  The lines after it are not read. *)
Theorem C142_signals_typed_partial : forall w sg code n d k args ins root cwd ppid pid env fds scs vs r, (n <= d)%nat ->
  MainSpec.asks args MainSpec.Prompt -> MainSpec.no_startup_files w -> system_signals w sg [] code ->
  NoDup (map fst env) -> (forall x, position x -> sget x env = None) -> table fds -> no_future_pipe fds 0 -> nget 0 fds <> None -> nget 1 fds <> None ->
  Forall (fun sc => sc <> [] /\ Forall (fchain_ok [] (fun _ => false)) sc) scs -> ftyping scs ins ->
  frun code n (List.concat scs) (machine_at_start root cwd ppid pid env) = Some (vs, Gone r) ->
  Forall (allowed code) vs -> Forall (does_not_unset (lit "PS1")) vs ->
  exists s', did fds (final r) s' /\
    gone w r s' (fun o => main_async w sg (S d) k args ins (Shell (Main.fresh_image root cwd ppid pid env fds) []) = (o, s')).
Proof.
  intros w sg code n d k args ins root cwd ppid pid env fds scs vs r Hd Ha Hns Hsg Hnd He Ht Hf H0 H1 Hok Hty E Hv Hl.
  set (s := Shell (Main.fresh_image root cwd ppid pid env fds) []).
  set (c := Context (default_vars root cwd ppid pid env) [] []).
  assert (Hc : cm (im s) = MainLaws.one_scope c) by reflexivity.
  pose proof (MainLaws.parse_args_asks args _ (cm (im s)) Ha) as Hp. cbn [MainLaws.wanted_front] in Hp.
  destruct (main_async_begins w sg (S d) k args ins s _ _ c Hp Hc eq_refl Hns) as (s1 & Em & Htr & Hi & Hj & Hm).
  set (s2 := Shell (Main.at_prompt (im s1)) (trace s1)).
  assert (A : fagrees [] (fun _ => false) [] fds false 0 (machine_at_start root cwd ppid pid env) s2).
  { apply fagrees_start; [exact He|].
    assert (A1 : agrees [] (fun _ => None) (fun _ => false) [] fds 0 false (at_start root cwd ppid pid env) s1) by (eapply agrees_start; eauto).
    destruct A1. split; assumption. }
  assert (Hps : CoreSpec.vars (core (machine_at_start root cwd ppid pid env)) (lit "PS1") <> None).
  { cbn [machine_at_start core at_start CoreSpec.vars]. destruct (sget (lit "PS1") env); discriminate. }
  destruct (ftyped_leaves_async w sg [] _ [] fds code Hsg n d Hd scs ins Hty Hok 0 _ s2 vs r A Hps E Hv Hl) as (s' & (fs & k' & t1 & Hk1 & L) & K).
  exists s'. split; [eapply agrees_did; [exact Hk1|exact L]|].
  rewrite Em. cbn [Main.interactive]. apply (gone_later w r s' (change Main.at_prompt) _ s1 tt s2 eq_refl). exact K.
Qed.

(** ** Examples *)

(** The script that leaves from two functions deep, typed line by line, and the one that
    becomes another program; a child ends or something is interrupted before and after each
    line, and signals arrive in the middle of the commands. *)
Definition ex_quit_typing (scs : list fscript) : list Main.typed :=
  Main.TChild :: List.concat (map (fun sc => [Main.TInterrupted; Main.TLine (fscript_text sc); Main.TChild]) scs) ++ [Main.TClosed].
Lemma ex_quit_typing_ok scs : ftyping scs (ex_quit_typing scs).
Proof.
  unfold ex_quit_typing. apply ftyping_child. induction scs as [|sc l IH]; cbn [map List.concat List.app]; [apply ftyping_closed|].
  apply ftyping_interrupted, ftyping_line, ftyping_child. exact IH.
Qed.
Definition ex_becomes_lines : list fscript := map (fun l => [l]) ex_becomes.
Definition ex_quit_signals (scs : list fscript) :=
  main_async ex_fsignals_os PropertiesAsync.often 5 0 [lit "rsh"] (ex_quit_typing scs) (Shell PropertiesMain.ex_fresh []).
Definition children_ended (t : list event) : nat := List.length (List.filter (fun e => match e with EWait _ => true | _ => false end) t).
Example C142_signals_example :
  Forall (fun sc => sc <> [] /\ Forall (fchain_ok [] (fun _ => false)) sc) ex_quit_lines /\
  Forall (fun sc => sc <> [] /\ Forall (fchain_ok [] (fun _ => false)) sc) ex_becomes_lines /\
  MainSpec.no_startup_files ex_fsignals_os /\ system_signals ex_fsignals_os PropertiesAsync.often [] ex_source_code /\
  (exists vs m, frun ex_source_code 2 (List.concat ex_quit_lines) ex_machine = Some (vs, Gone (Exits 3 m)) /\ Forall (allowed ex_source_code) vs /\
     Forall (does_not_unset (lit "PS1")) vs /\ map argv (started m) = map (map lit) [["false"]; ["true"]; ["echo"; "2"]]%string /\
     programs_of (trace (snd (ex_quit_signals ex_quit_lines))) = started m) /\
  fst (ex_quit_signals ex_quit_lines) = OExit 3 /\
  (exists vs m, frun ex_source_code 2 (List.concat ex_becomes_lines) ex_machine = Some (vs, Gone (Becomes (map lit ["echo"; "a"; "b"]%string) ex_env m)) /\
     Forall (allowed ex_source_code) vs /\ Forall (does_not_unset (lit "PS1")) vs /\ map argv (started m) = [[lit "true"]]) /\
  fst (ex_quit_signals ex_becomes_lines) = OExec (lit "/bin/echo") (map lit ["echo"; "a"; "b"]%string) ex_env /\
  (3 < children_ended (trace (snd (ex_quit_signals ex_quit_lines))))%nat.
Proof.
  split.
  { unfold ex_quit_lines. apply Forall_map. eapply Forall_impl; [|exact ex_quits_ok]. intros l Hl. split; [discriminate|]. apply Forall_cons; [exact Hl|apply Forall_nil]. }
  split.
  { unfold ex_becomes_lines. apply Forall_map. eapply Forall_impl; [|exact ex_becomes_ok]. intros l Hl. split; [discriminate|]. apply Forall_cons; [exact Hl|apply Forall_nil]. }
  split; [intros t; split; reflexivity|]. split; [exact ex_fsignals_ok|]. split.
  { do 2 eexists. split; [vm_compute; reflexivity|]. split; [apply all_allowed; vm_compute; reflexivity|]. split; [apply none_unset; vm_compute; reflexivity|].
    vm_compute. split; reflexivity. }
  split; [vm_compute; reflexivity|]. split.
  { do 2 eexists. split; [vm_compute; reflexivity|]. split; [apply all_allowed; vm_compute; reflexivity|]. split; [apply none_unset; vm_compute; reflexivity|].
    vm_compute. reflexivity. }
  split; [vm_compute; reflexivity|]. vm_compute. lia.
Qed.

Print Assumptions C142_signals_partial.
Print Assumptions C142_signals_typed_partial.
Print Assumptions C142_signals_example.
