(** Property C126: functions in the background. *)
From Verif Require Import Base BaseFacts Lexer LexerSpec Ast Parser GrammarSpec.
From Verif Require Import Context.
From Verif Require ContextSpec ContextFacts ContextLaws PropertiesContext.
From Verif Require Import Alias Expand ExpandSpec ExpandFacts ExpandLaws Jobs JobsSpec Shell Builtins Eval.
From Verif Require Import EvalSpec EvalFacts EvalLaws EvalKeeps RunSpec RunLaws PipeSpec PipeLaws ChildLaws PipeRun.
From Verif Require Import JobsFacts JobsLaws JobsPipe.
From Verif Require PropertiesProgram PropertiesRun PropertiesTyped EvalStack EvalForked.
From Verif Require PropertiesEval EvalJobs MainSpec Main MainLaws PropertiesMain GrammarFacts.
From Verif Require Import EvalFds.
From Verif Require Import CoreSpec CoreFunSpec PropertiesCore PropertiesCoreFun.
Local Open Scope Z_scope.

(** ** The line *)

Lemma bg_line (n : str) (ws : list str) : n <> [] -> written_word n -> Forall written_arg ws ->
  wf_pipeline (Pipeline false [CSimple (words_cmd n ws)] true) /\
  r_pipeline (Pipeline false [CSimple (words_cmd n ws)] true) = r_words (n :: ws) ++ lit " &".
Proof.
  intros Hn Hw Hws. destruct (args_line n ws Hn Hw Hws) as [A1 A2]. split.
  - cbn [wf_pipeline] in A1 |- *. destruct A1 as (B1 & B2 & _). split; [exact B1|]. split; [exact B2|]. intros [E _]. discriminate.
  - cbn [r_pipeline map joined] in A2 |- *. rewrite <- A2. rewrite <- !app_assoc. reflexivity.
Qed.

(** The image the process starts with, once it knows that it is one. *)
Definition job_of (n : str) (vs : list str) (id : Z) : job := job_new [process_new (n :: vs) n n] id true.
Definition copy (n : str) (vs : list str) (s : shell) : image :=
  launching (im s) (create_job [process_new (n :: vs) n n] true (jobs (js (im s)))) (fds (im s)) (next_pipe (im s)).
Definition alone (n : str) (vs : list str) (s : shell) : image :=
  with_js (with_jobs (hold_job (jobs (js (copy n vs (blocked s))))) (js (copy n vs (blocked s)))) (with_forked true (copy n vs (blocked s))).
Definition child_of (n : str) (vs : list str) : child :=
  Child (SimpleCommand None n (Some (Suffix [] vs))) (process_new (n :: vs) n n) (-1) (-1, -1) true.

Lemma bg_starts w d (n : str) (ws : list str) vs s : check_if_builtin n = false -> plain_name (al (im s)) n ->
  written_word n -> Forall written_arg ws -> Forall2 (ordinary (expand_var (cm (im s)))) ws vs ->
  (forall c, In c (List.concat (n :: vs)) -> c <> 0%N) -> table (fds (im s)) -> basic (jobs (js (im s))) ->
  exists s', exec_text w (S d) (r_words (n :: ws) ++ lit " &") s = (OOk (exit_status (im s)), s') /\
    trace s' = EFork (copy n vs (blocked s)) (child_of n vs) (r_fork (w (trace s))) :: trace s /\
    finishing (im s) (im s') /\ exit_status (im s') = exit_status (im s) /\
    let id := next_job_id (jobs (js (im s))) in
    let p := match r_fork (w (trace s)) with Some q => Zpos q | None => -1 end in
    (forall k, get_job k (jobs (js (im s'))) =
       if Z.eqb k id then Some (Job [with_pid p (process_new (n :: vs) n n)] id StillAlive Running true false) else get_job k (jobs (js (im s)))) /\
    printed (js (im s')) = printed (js (im s)) ++ [lit "[" ++ Z_to_str id ++ lit "] (" ++ Z_to_str p ++ lit ") Running " ++ n ++ lit " &"].
Proof.
  intros Hb Hn Hw Hws Ho Hz Ht HB.
  destruct (bg_line n ws (proj1 Hn) Hw Hws) as [A1 A2]. rewrite <- A2, exec_pipeline by exact A1.
  unfold eval_pipeline. rewrite (seq_ok interrupts_off _ s tt (blocked s) eq_refl).
  rewrite (bind_ok _ _ _ _ _ (gather_words w (evaluate w d) n ws vs (blocked s) Hb Hn Ho Hz)).
  rewrite (bind_ok (ret _) _ _ _ _ eq_refl).
  rewrite run_job_split by discriminate.
  set (id := next_job_id (jobs (js (im (blocked s))))). cbn [map fst].
  change (Shell (launching _ (created _ _ _) _ _) _) with (Shell (copy n vs (blocked s)) (trace s)).
  set (i0 := copy n vs (blocked s)).
  assert (Hj : nget id (job_table (jobs (js i0))) = Some (job_of n vs id)).
  { unfold i0, copy. cbn. rewrite nget_ninsert by apply HB. rewrite Z.eqb_refl. reflexivity. }
  assert (Ht1 : nget (-1) (fds (im s)) = None).
  { destruct (nget (-1) (fds (im s))) eqn:E; [apply (proj2 Ht) in E; lia|reflexivity]. }
  assert (Hl : exists jc, launch w id true 0 [(process_new (n :: vs) n n, SimpleCommand None n (Some (Suffix [] vs)))] (-1) (-1, -1) (Shell i0 (trace s)) =
    (OOk tt, Shell (with_js (with_jobs jc (js i0)) i0) (EFork i0 (child_of n vs) (r_fork (w (trace s))) :: trace s)) /\
    forall k, nget k (job_table jc) = if Z.eqb k id then Some (with_processes [with_pid match r_fork (w (trace s)) with Some q => Zpos q | None => -1 end (process_new (n :: vs) n n)] (job_of n vs id))
      else nget k (job_table (jobs (js i0)))).
  { cbn [launch]. rewrite (bind_ok (ret _) _ _ _ _ eq_refl). cbn [fst snd].
    rewrite (bind_ok (fork_child w (child_of n vs)) _ (Shell i0 (trace s)) (r_fork (w (trace s))) (Shell i0 (EFork i0 (child_of n vs) (r_fork (w (trace s))) :: trace s)) eq_refl).
    assert (Hc : forall i, fds i = fds (im s) -> forall t, sys_close_ignored (-1) (Shell i t) = (OOk tt, Shell i t)).
    { intros i Hi t. unfold sys_close_ignored, change, fd_close. cbn [im trace]. rewrite Hi, Ht1. reflexivity. }
    change (Z.leb 0 (-1)) with false.
    destruct (r_fork (w (trace s))) as [q|].
    - exists (Jobs.started id 0 (Zpos q) (jobs (js i0))). split.
      { rewrite (seq_ok (on_jobs _) _ (Shell i0 _) tt (Shell (with_js (with_jobs (Jobs.started id 0 (Zpos q) (jobs (js i0))) (js i0)) i0) (EFork i0 (child_of n vs) (Some q) :: trace s)) eq_refl).
        rewrite (seq_ok (ret tt) _ _ _ _ eq_refl). rewrite (seq_ok _ _ _ _ _ (Hc (with_js (with_jobs (Jobs.started id 0 (Zpos q) (jobs (js i0))) (js i0)) i0) eq_refl _)). reflexivity. }
      unfold Jobs.started, get_job. rewrite Hj. intros k. cbn [update_pid_table put_job job_table]. rewrite nget_ninsert.
      + reflexivity.
      + unfold i0, copy. cbn. apply nsorted_ninsert, HB.
    - exists (jobs (js i0)). split; [rewrite (seq_ok (ret tt) _ _ _ _ eq_refl), (seq_ok (ret tt) _ _ _ _ eq_refl), (seq_ok _ _ _ _ _ (Hc i0 eq_refl _)); destruct i0 as [? ? [? ? ? ?] ? ? ? ? ? ? ?]; reflexivity|].
      intros k. destruct (Z.eqb_spec k id) as [->|]; [|reflexivity]. rewrite Hj. reflexivity. }
  destruct Hl as (jc & Hl & Hjc). rewrite (seq_ok _ _ _ _ _ Hl). unfold finish.
  erewrite (seq_ok (bind _ _)); [|erewrite bind_ok; [|reflexivity]; cbn [im js with_js jobs with_jobs]; unfold get_job; rewrite Hjc, Z.eqb_refl; reflexivity].
  eexists. split; [reflexivity|].
  split; [reflexivity|]. split; [repeat split|]. split; [reflexivity|]. cbn zeta. split.
  - intros k. transitivity (nget k (job_table jc)); [reflexivity|]. rewrite Hjc. change (next_job_id (jobs (js (im s)))) with id.
    destruct (Z.eqb_spec k id) as [->|Hk]; [reflexivity|]. unfold i0, copy. cbn. rewrite nget_ninsert by apply HB.
    change (next_job_id (jobs (js (im s)))) with id. destruct (Z.eqb_spec k id); [congruence|reflexivity].
  - cbn [im js with_js jobs with_jobs print with_masked printed]. f_equal. f_equal.
    destruct (r_fork (w (trace s))) as [q|]; unfold job_text, commands_text; cbn; rewrite ?Pos.eqb_refl, ?app_nil_r; reflexivity.
Qed.

(** ** The process *)

Definition group (w : os) : list event := [ESetpgid (r_getpid (w [])) (r_getpid (w []))].

Lemma child_runs w d (n : str) vs body redirs s m1 o s2 :
  get_function n (cm (im s)) = Some (FunctionBody body redirs) -> body <> [] -> Forall wf_andor body ->
  ContextSpec.performs (ContextLaws.entry n vs) (cm (im s)) = Some m1 ->
  exec_text w (S d) (render body) (Shell (with_cm m1 (alone n vs s)) (group w)) = (o, s2) ->
  match o with
  | OOk _ | OErr _ => exists s', run_child w (S d) (copy n vs (blocked s)) (child_of n vs) = (OExit 0, s') /\ trace s' = trace s2
  | _ => run_child w (S d) (copy n vs (blocked s)) (child_of n vs) = (lift o, s2)
  end.
Proof.
  intros Hf Hne Hwf Hp H. rewrite exec_render in H by assumption. rewrite <- ContextLaws.enter_performs in Hp.
  unfold run_child, child_main.
  rewrite (seq_ok (change (with_forked true)) _ _ _ _ eq_refl). rewrite (seq_ok (on_jobs hold_job) _ _ _ _ eq_refl).
  cbn [c_bg child_of im trace].
  change (with_js _ (with_forked true _)) with (alone n vs s).
  rewrite (seq_ok (p <- ask w r_getpid ;; note (ESetpgid p p)) _ (Shell (alone n vs s) []) tt (Shell (alone n vs s) (group w)) eq_refl).
  rewrite (seq_ok (wire_child (child_of n vs)) _ (Shell (alone n vs s) (group w)) tt (Shell (alone n vs s) (group w)) eq_refl).
  rewrite (seq_ok (eval_prefix_suffix w (c_cmd (child_of n vs))) _ (Shell (alone n vs s) (group w)) tt (Shell (alone n vs s) (group w)) eq_refl).
  rewrite (bind_ok (look cm) _ _ _ _ eq_refl). cbn [im c_cmd child_of sc_name].
  change (cm (alone n vs s)) with (cm (im s)).
  assert (Hif : is_function n (cm (im s)) = true).
  { apply PropertiesContext.C30_is_function. rewrite Hf. discriminate. }
  rewrite Hif. set (sc := SimpleCommand None n (Some (Suffix [] vs))).
  set (sb := Shell (with_cm m1 (alone n vs s)) (group w)) in *.
  assert (Hcall : forall o0 s3, catch (evaluate w (S d) body) sb = (o0, s3) ->
    eval_function (evaluate w (S d)) sc (Shell (alone n vs s) (group w)) =
    match o0 with
    | OOk _ => (OOk true, Shell (with_cm (match pop_context (cm (im s3)) with Some m' => m' | None => cm (im s3) end) (im s3)) (trace s3))
    | _ => (lift o0, s3)
    end).
  { intros o0 s3 E. unfold eval_function. rewrite (bind_ok (look cm) _ (Shell (alone n vs s) (group w)) (cm (im s)) _ eq_refl).
    change (sc_name sc) with n. rewrite Hf.
    rewrite (seq_ok (try_cm _) _ _ tt sb).
    2:{ unfold try_cm, try_. cbn [im]. change (cm (alone n vs s)) with (cm (im s)). unfold words_of, sc. cbn [sc_suffix word_list]. rewrite Hp. reflexivity. }
    cbn [fb_body]. unfold seq at 1. unfold bind at 1. rewrite E. destruct o0; reflexivity. }
  unfold catch in Hcall. rewrite H in Hcall. unfold bind.
  destruct o; rewrite (Hcall _ _ eq_refl); try reflexivity; cbn; eexists; split; reflexivity.
Qed.

(** ** In the core language *)

Section Core.
Context (aliases_ : aliases) (readonly : str -> bool) (old : nmap job) (t0 : fdtable).
Notation fcomm_ok := (fcomm_ok aliases_ readonly).
Notation fchain_ok := (fchain_ok aliases_ readonly).

(** The machine of a new process: it has started nothing yet, and has not gone
    anywhere from where the shell was. *)
Definition fresh (m : machine) : machine := Machine (CoreSpec.vars m) (environment m) [] [].
(** The table of jobs it has: its own is not looked at. *)
Definition with_own (n : str) (vs : list str) (s : shell) : nmap job :=
  ninsert (next_job_id (jobs (js (im s)))) (with_state Waiting (job_of n vs (next_job_id (jobs (js (im s)))))) (job_table (jobs (js (im s)))).

Lemma agrees_alone w fs k m s n vs : agrees aliases_ fs readonly old t0 k false m s ->
  agrees aliases_ fs readonly (with_own n vs s) t0 k true (fresh m) (Shell (alone n vs s) (group w)).
Proof.
  intros A. pose proof A as []. set (id := next_job_id (jobs (js (im s)))).
  assert (Hj : nget id (ninsert id (job_of n vs id) (job_table (jobs (js (im s))))) = Some (job_of n vs id)).
  { rewrite nget_ninsert by apply ag_basic. rewrite Z.eqb_refl. reflexivity. }
  assert (HB : basic (create_job [process_new (n :: vs) n n] true (jobs (js (im s))))) by (apply create_basic; exact ag_basic).
  assert (Hh : hold_job (create_job [process_new (n :: vs) n n] true (jobs (js (im s)))) =
    put_job id (with_state Waiting (job_of n vs id)) (create_job [process_new (n :: vs) n n] true (jobs (js (im s))))).
  { unfold hold_job. cbn [current_job create_job]. unfold get_job. unfold create_job at 1. cbn [job_table]. fold id.
    change (job_new [process_new (n :: vs) n n] id true) with (job_of n vs id). rewrite Hj. reflexivity. }
  split; cbn [im trace]; try assumption; try reflexivity.
  - constructor.
  - intros k1 i1 c1 r1 i2 c2 r2 E. destruct k1; discriminate.
  - change (basic (hold_job (create_job [process_new (n :: vs) n n] true (jobs (js (im s)))))). rewrite Hh.
    eapply put_flags_basic; [exact HB|exact Hj|reflexivity].
  - intros k1. change (jobs (js (alone n vs s))) with (hold_job (create_job [process_new (n :: vs) n n] true (jobs (js (im s))))). rewrite Hh.
    unfold with_own. cbn [put_job job_table create_job]. fold id. rewrite !nget_ninsert; try apply ag_basic; [|apply nsorted_ninsert, ag_basic].
    destruct (Z.eqb k1 id); reflexivity.
Qed.
Lemma system_own w fs code k m s n vs : agrees aliases_ fs readonly old t0 k false m s -> system w old code -> system w (with_own n vs s) code.
Proof.
  intros A Hs. pose proof A as []. destruct Hs as [S1 S0 S2 S3 S4]. split; [exact S1|exact S0| |exact S3|exact S4].
  intros t. destruct (S2 t) as (q & Q1 & Q2 & Q3). exists q. split; [exact Q1|]. split; [exact Q2|]. intros k1 j. unfold with_own.
  rewrite nget_ninsert by apply ag_basic. destruct (Z.eqb k1 _).
  - intros [= <-]. left. intros F. apply F. right. reflexivity.
  - rewrite ag_jobs. apply Q3.
Qed.

(** A call typed with an ampersand: the shell starts one process, waits for nothing,
    keeps its status, variables, functions, environment and files, has a running job
    for the call and prints a line about it.  The process starts the programs that the
    body means with these parameters, in order and with the same arguments, environment,
    input and output, in the same directories; then it ends. *)
Theorem C126_background_partial : forall w d fm s g ars body, fagrees aliases_ readonly old t0 false 0 fm s ->
  comm_ok aliases_ (fun _ => None) readonly (Run (Prog [] g ars []) []) -> funs fm g = Some body -> params fm = [] ->
  (ContextSpec.digits_of (lit "0=" ++ g) <= 18446744073709551615)%N ->
  (forall x, In (Dollar x) ars -> exists u, CoreSpec.vars (core fm) x = Some u /\ shown u) ->
  let args := List.concat (map (arg_fields (core fm)) ars) in
  (forall i a, nth_error args i = Some a -> passes (1 + N.of_nat i) a) ->
  exists i c s', exec_text w (S d) (comm_text (Run (Prog [] g ars []) []) ++ lit " &") s = (OOk (exit_status (im s)), s') /\
    trace s' = EFork i c (r_fork (w (trace s))) :: trace s /\
    finishing (im s) (im s') /\ exit_status (im s') = exit_status (im s) /\
    (let id := next_job_id (jobs (js (im s))) in
     let p := match r_fork (w (trace s)) with Some q => Zpos q | None => -1 end in
     (forall k, get_job k (jobs (js (im s'))) =
        if Z.eqb k id then Some (Job [Process p (g :: args) g g None] id StillAlive Running true false) else get_job k (jobs (js (im s)))) /\
     printed (js (im s')) = printed (js (im s)) ++ [lit "[" ++ Z_to_str id ++ lit "] (" ++ Z_to_str p ++ lit ") Running " ++ g ++ lit " &"]) /\
    forall w2 code d2 vs st fm', system w2 old code ->
      frun_script (fstep code 0 1) body 0 (FMachine (entered args (fresh (core fm))) (funs fm) args) = Some (vs, Goes st fm') ->
      Forall (allowed code) vs ->
      exists s2, run_child w2 (S d2) i c = (OExit 0, s2) /\ programs_of (trace s2) = started (core fm') /\ directories (trace s2) = visited (core fm') /\
        Forall (executes t0) (forks (trace s2)) /\ linked (forks (trace s2)).
Proof.
  intros w d fm s g ars body A Hok0 Hg Hpar Hdig Hdol args Hpass. destruct A as [A Hb Hp]. pose proof A as [].
  pose proof Hok0 as Hok. cbn [comm_ok] in Hok. inversion_clear Hok as [|? ? Hok1 _].
  destruct Hok1 as (_ & O2 & O3 & O4 & _ & O6 & O7 & _). cbn [name arguments] in *.
  assert (Hord : forall a, In a ars -> ordinary (expand_var (cm (im s))) (arg_text a) (arg_value (core fm) a) /\ ~ In 0%N (arg_value (core fm) a) /\
    arg_fields (core fm) a = [arg_value (core fm) a]).
  { intros a Ha. rewrite Forall_forall in O7. eapply arg_ordinary; [exact A|exact (O7 a Ha)|]. intros x ->. exact (Hdol x Ha). }
  assert (Hargs : args = map (arg_value (core fm)) ars) by (apply concat_fields; intros a Ha; apply Hord, Ha).
  assert (T3 : comm_text (Run (Prog [] g ars []) []) = r_words (g :: map arg_text ars)).
  { cbn [comm_text prog_words settings map app name arguments redirs List.concat]. rewrite !app_nil_r. reflexivity. }
  rewrite T3.
  assert (Hz : forall c, In c (List.concat (g :: args)) -> c <> 0%N).
  { intros c F. cbn [List.concat] in F. apply in_app_or in F. destruct F as [F|F].
    - destruct g; [destruct F|]. destruct O2 as [_ [Z _]]. exact (proj2 (Z c F)).
    - apply in_concat in F. destruct F as (v & Fv & F). rewrite Hargs in Fv. apply in_map_iff in Fv. destruct Fv as (a & <- & Ha). intros ->. exact (proj1 (proj2 (Hord a Ha)) F). }
  destruct (bg_starts w d g (map arg_text ars) args s O4) as (s' & B1 & B2 & B3 & B4 & B5 & B6).
  { rewrite ag_aliases. exact O3. }
  { apply plain_written, O2. }
  { apply Forall_map. eapply Forall_impl; [|exact O7]. intros a Ha. left. apply arg_written, Ha. }
  { rewrite Hargs. clear -Hord. induction ars as [|a ars IHa]; [constructor|]. cbn [map]. constructor; [apply Hord; left; reflexivity|].
    apply IHa. intros b Hb. apply Hord. right. exact Hb. }
  { exact Hz. }
  { apply ag_fds. }
  { exact ag_basic. }
  exists (copy g args (blocked s)), (child_of g args), s'. split; [exact B1|]. split; [exact B2|]. split; [exact B3|]. split; [exact B4|].
  split; [split; [exact B5|exact B6]|].
  intros w2 code d2 vs st fm' Hsys Hrun Hall.
  destruct (Hb g body Hg) as [Hbne Hbok].
  assert (Hnone : forall x, position x -> CoreSpec.vars (fresh (core fm)) x = None) by (intros x Hx; cbn [fresh CoreSpec.vars]; rewrite Hp, Hpar by exact Hx; reflexivity).
  destruct (entry_made g args (cm (im s)) ag_wf Hdig Hpass) as [m1 Hm1].
  pose proof (agrees_alone w2 _ 0 _ s g args A) as A0.
  pose proof (agrees_entered _ _ _ _ _ 0 _ _ _ g args m1 A0 Hm1 Hpass Hnone) as A1.
  destruct (frun_script_runs w2 aliases_ readonly (with_own g args s) t0 code (fstep code 0 1) d2 1 true) with (sc := body) (st0 := 0)
    (fm := FMachine (entered args (fresh (core fm))) (funs fm) args)
    (s := Shell (with_cm m1 (alone g args s)) (group w2)) (vs := vs) (st := st) (fm' := fm') as (s2 & R1 & [R2 R3 R4]); auto.
  { intros c fm0 vs0 st0 fm0' s0 F1 F2 F3 F4.
    apply (fstep_agrees w2 aliases_ readonly (with_own g args s) t0 code (system_own w2 _ code 0 _ s g args A Hsys) 0 d2 true 1 c fm0 vs0 st0 fm0' s0); auto. lia. }
  { split; cbn [core funs params]; [exact A1|exact Hb|]. intros x Hx. cbn [entered CoreSpec.vars]. unfold position in Hx. rewrite Hx. reflexivity. }
  assert (Hgf : get_function g (cm (im s)) = Some (FunctionBody (map fchain_tree body) None)).
  { rewrite ag_functions by exact O6. unfold table_of. rewrite Hg. reflexivity. }
  assert (Hr : exec_text w2 (S d2) (render (map fchain_tree body)) (Shell (with_cm m1 (alone g args s)) (group w2)) = (OOk st, s2)).
  { rewrite (fscript_render _ _ body Hbok). exact R1. }
  destruct (child_runs w2 d2 g args (map fchain_tree body) None s m1 (OOk st) s2 Hgf) as (s3 & C1 & C2); auto.
  { destruct body; [congruence|discriminate]. }
  { apply Forall_map. eapply Forall_impl; [|exact Hbok]. intros l Hl. apply (fchain_facts _ _ l Hl). }
  exists s3. split; [exact C1|]. rewrite C2. destruct R2. repeat split; assumption.
Qed.

End Core.

(** ** What is lost *)

(** Whatever the body of the function ends with - a status or an error - the process
    ends with 0. *)
Theorem C126_status_refuted : forall w w2 d d2 (n : str) (ws : list str) vs body redirs s m1 o s2, check_if_builtin n = false -> plain_name (al (im s)) n ->
  written_word n -> Forall written_arg ws -> Forall2 (ordinary (expand_var (cm (im s)))) ws vs ->
  (forall c, In c (List.concat (n :: vs)) -> c <> 0%N) -> table (fds (im s)) -> basic (jobs (js (im s))) ->
  get_function n (cm (im s)) = Some (FunctionBody body redirs) -> body <> [] -> Forall wf_andor body ->
  ContextSpec.performs (ContextLaws.entry n vs) (cm (im s)) = Some m1 ->
  exists i c j s', exec_text w (S d) (r_words (n :: ws) ++ lit " &") s = (OOk (exit_status (im s)), s') /\
    trace s' = EFork i c (r_fork (w (trace s))) :: trace s /\
    cm j = m1 /\ al j = al (im s) /\ env j = env (im s) /\ fds j = fds (im s) /\ exit_status j = exit_status (im s) /\ forked j = true /\
    (exec_text w2 (S d2) (render body) (Shell j (group w2)) = (o, s2) -> returns o ->
     exists s3, run_child w2 (S d2) i c = (OExit 0, s3) /\ trace s3 = trace s2).
Proof.
  intros w w2 d d2 n ws vs body redirs s m1 o s2 Hb Hn Hw Hws Ho Hz Ht HB Hf Hne Hwf Hp.
  destruct (bg_starts w d n ws vs s Hb Hn Hw Hws Ho Hz Ht HB) as (s' & B1 & B2 & _).
  exists (copy n vs (blocked s)), (child_of n vs), (with_cm m1 (alone n vs s)), s'.
  split; [exact B1|]. split; [exact B2|]. repeat (split; [reflexivity|]). intros H Hr.
  pose proof (child_runs w2 d2 n vs body redirs s m1 o s2 Hf Hne Hwf Hp H) as C. destruct o; try contradiction; exact C.
Qed.

(** A function called in such a process ends it: what comes behind the call is not
    done. *)
Theorem C126_nested_refuted : forall w d (n : str) (ws : list str) vs body redirs s m1 o s2 rest, check_if_builtin n = false -> plain_name (al (im s)) n ->
  written_word n -> Forall written_arg ws -> Forall2 (ordinary (expand_var (cm (im s)))) ws vs ->
  (forall c, In c (List.concat (n :: vs)) -> c <> 0%N) ->
  get_function n (cm (im s)) = Some (FunctionBody body redirs) -> body <> [] -> Forall wf_andor body -> Forall wf_andor rest ->
  forked (im s) = true ->
  ContextSpec.performs (ContextLaws.entry n vs) (cm (im s)) = Some m1 ->
  exec_text w (S d) (render body) (Shell (with_cm m1 (im s)) (trace s)) = (o, s2) -> returns o ->
  exists s', exec_text w (S (S d)) (joined (lit " ;") (r_words (n :: ws) :: map r_andor rest)) s = (OExit 0, s') /\ trace s' = trace s2.
Proof.
  intros w d n ws vs body redirs s m1 o s2 rest Hb Hn Hw Hws Ho Hz Hf Hne Hwf Hrest Hfk Hp H Hr.
  rewrite exec_render in H by assumption.
  rewrite <- (evaluate_blocked w d body (Shell (with_cm m1 (im s)) (trace s)) Hne) in H.
  rewrite <- ContextLaws.enter_performs in Hp.
  destruct (args_line n ws (proj1 Hn) Hw Hws) as [A1 A2]. rewrite <- A2.
  change (joined (lit " ;") (r_pipeline (Pipeline false [CSimple (words_cmd n ws)] false) :: map r_andor rest)) with
    (render (AoOne (Pipeline false [CSimple (words_cmd n ws)] false) :: rest)).
  rewrite exec_render by (try discriminate; constructor; assumption).
  set (p := Pipeline false [CSimple (words_cmd n ws)] false).
  assert (Hpipe : exists s', eval_pipeline w (evaluate w (S d)) p s = (OExit 0, s') /\ trace s' = trace s2).
  2:{ destruct Hpipe as (s' & E & T). exists s'. split; [|exact T].
      change (bind (eval_pipeline w (evaluate w (S d)) p) (fun st => parse_tree_from w (evaluate w (S d)) st rest) s = (OExit 0, s')).
      unfold bind. rewrite E. reflexivity. }
  unfold eval_pipeline, p. rewrite (seq_ok interrupts_off _ s tt (blocked s) eq_refl).
  rewrite (bind_ok _ _ _ _ _ (gather_words w (evaluate w (S d)) n ws vs (blocked s) Hb Hn Ho Hz)).
  cbn [run_functions snd sc_name].
  set (sc := SimpleCommand None n (Some (Suffix [] vs))).
  set (sb := blocked (Shell (with_cm m1 (im s)) (trace s))) in *.
  assert (Hif : is_function n (cm (im (blocked s))) = true).
  { apply PropertiesContext.C30_is_function. change (cm (im (blocked s))) with (cm (im s)). rewrite Hf. discriminate. }
  assert (Hcall : forall o0 s3, catch (evaluate w (S d) body) sb = (OOk o0, s3) ->
    eval_function (evaluate w (S d)) sc (blocked s) =
    (OOk true, Shell (with_cm (match pop_context (cm (im s3)) with Some m' => m' | None => cm (im s3) end) (im s3)) (trace s3))).
  { intros o0 s3 E. unfold eval_function. rewrite (bind_ok (look cm) _ (blocked s) (cm (im s)) (blocked s) eq_refl).
    change (sc_name sc) with n. rewrite Hf.
    rewrite (seq_ok (try_cm _) _ (blocked s) tt sb).
    2:{ unfold try_cm, try_. change (cm (im (blocked s))) with (cm (im s)). unfold words_of, sc. cbn [sc_suffix word_list]. rewrite Hp. reflexivity. }
    cbn [fb_body]. unfold seq at 1. unfold bind at 1. rewrite E. reflexivity. }
  assert (Hst : forked (im s2) = true).
  { rewrite <- Hfk. exact (EvalForked.evaluate_still w (S d) body sb o s2 H (or_intror Hr)). }
  unfold catch in Hcall. rewrite H in Hcall.
  unfold bind at 1. unfold bind at 1. unfold look at 1. rewrite Hif. unfold bind at 1.
  destruct o; try contradiction; rewrite (Hcall _ _ eq_refl); unfold bind, look; cbn [im forked with_cm]; rewrite Hst; eexists; split; reflexivity.
Qed.

(** ** Examples *)

Definition ex_body : fscript :=
  [ once (call "echo" [Dollar (lit "1"); Dollar (lit "X")]);
    once (Do (Assign (lit "X") (Plain (lit "new"))));
    (Do (Run (bare "echo" [Dollar (lit "X")]) [bare "cat" []]), [(CAnd, call "false" [])]) ].
Definition ex_bg : fscript :=
  [ once (Do (Assign (lit "X") (Plain (lit "old")))); once (Define (lit "f") ex_body);
    once (Define (lit "h") [once (call "echo" [Plain (lit "1")])]) ;
    once (Define (lit "g") [once (call "h" []); once (call "echo" [Plain (lit "2")])]) ].
Lemma ex_bg_ok : Forall (fchain_ok [] (fun _ => false)) ex_bg.
Proof.
  unfold ex_bg, ex_body, once, call. ok_chains; [ok_assign| | |].
  - ok_define. ok_chains; [ok_call|ok_assign| |ok_call].
    apply Forall_cons; [|apply Forall_cons; [|apply Forall_nil]]; (a_program; [|apply Forall_nil]); ok_args.
  - ok_define. ok_chains; ok_call.
  - ok_define. ok_chains; ok_call.
Qed.
Definition ex_bg_defined : fmachine := match frun ex_code 0 ex_bg ex_machine with Some (_, Goes _ fm) => fm | _ => ex_machine end.
Definition ex_bg_shell : shell := snd (exec_text ex_system 1 (fscript_text ex_bg) ex_begun).
Lemma ex_bg_agrees : fagrees [] (fun _ => false) [] PropertiesMain.ex_fds false 0 ex_bg_defined ex_bg_shell.
Proof.
  destruct (frun ex_code 0 ex_bg ex_machine) as [[vs [st fm|r]]|] eqn:E; [|vm_compute in E; discriminate|vm_compute in E; discriminate].
  assert (Hv : Forall (allowed ex_code) vs).
  { apply all_allowed. assert (F : match frun ex_code 0 ex_bg ex_machine with Some (v, _) => forallb (allowed_b ex_code) v | None => false end = true) by (vm_compute; reflexivity).
    rewrite E in F. exact F. }
  destruct (C125_functions_partial ex_system [] (fun _ => false) [] PropertiesMain.ex_fds ex_code ex_system_ok 0 0 ex_bg ex_machine ex_begun vs st fm
    (le_n 0) ex_begun_agrees ex_bg_ok ltac:(discriminate) E Hv) as (s' & R & A).
  unfold ex_bg_defined, ex_bg_shell. rewrite E, R. exact A.
Qed.
Definition ex_arguments : list arg := [Plain (lit "a"); Dollar (lit "X")].
(** What the process started by a line does. *)
Definition ex_child (l : str) : option (out unit * shell) :=
  match trace (snd (exec_text ex_system 1 l ex_bg_shell)) with EFork i c _ :: _ => Some (run_child ex_system 5 i c) | _ => None end.
Example C126_example :
  comm_text (Run (Prog [] (lit "f") ex_arguments []) []) ++ lit " &" = lit " f a $X &" /\
  comm_ok [] (fun _ => None) (fun _ => false) (Run (Prog [] (lit "f") ex_arguments []) []) /\ funs ex_bg_defined (lit "f") = Some ex_body /\ params ex_bg_defined = [] /\
  (ContextSpec.digits_of (lit "0=" ++ lit "f") <= 18446744073709551615)%N /\
  (forall x, In (Dollar x) ex_arguments -> exists u, CoreSpec.vars (core ex_bg_defined) x = Some u /\ shown u) /\
  (forall i a, nth_error [lit "a"; lit "old"] i = Some a -> passes (1 + N.of_nat i) a) /\
  List.concat (map (arg_fields (core ex_bg_defined)) ex_arguments) = [lit "a"; lit "old"] /\
  system ex_system [] ex_code /\
  match frun_script (fstep ex_code 0 1) ex_body 0 (FMachine (entered [lit "a"; lit "old"] (fresh (core ex_bg_defined))) (funs ex_bg_defined) [lit "a"; lit "old"]) with
  | Some (vs, Goes st fm') => Forall (allowed ex_code) vs /\ st = 1 /\
      map argv (started (core fm')) = map (map lit) [["echo"; "a"; "old"]; ["echo"; "new"]; ["cat"]; ["false"]]%string
  | _ => False
  end /\
  let '(o, s') := exec_text ex_system 1 (lit " f a $X &") ex_bg_shell in
  o = OOk 0 /\ printed (js (im s')) = [lit "[1] (100) Running f &"] /\ expand_var (cm (im s')) (lit "X") = Some (lit "old") /\
  match ex_child (lit " f a $X &") with
  | Some (o, s2) => o = OExit 0 /\ map argv (programs_of (trace s2)) = map (map lit) [["echo"; "a"; "old"]; ["echo"; "new"]; ["cat"]; ["false"]]%string
  | None => False
  end.
Proof.
  split; [reflexivity|]. split; [unfold ex_arguments; ok_call|]. split; [reflexivity|]. split; [reflexivity|]. split; [vm_compute; discriminate|].
  split. { intros x [F|[F|[]]]; [discriminate|]. injection F as <-. exists (lit "old"). split; [reflexivity|]. apply shown_b_true. reflexivity. }
  split. { exact (all_pass_b_true [lit "a"; lit "old"] 1 eq_refl). }
  split; [reflexivity|]. split; [exact ex_system_ok|].
  destruct (frun_script (fstep ex_code 0 1) ex_body 0 (FMachine (entered [lit "a"; lit "old"] (fresh (core ex_bg_defined))) (funs ex_bg_defined) [lit "a"; lit "old"])) as [[vs [st fm'|r]]|] eqn:E;
    [|vm_compute in E; discriminate|vm_compute in E; discriminate].
  split; [|vm_compute; repeat split].
  assert (F : match frun_script (fstep ex_code 0 1) ex_body 0 (FMachine (entered [lit "a"; lit "old"] (fresh (core ex_bg_defined))) (funs ex_bg_defined) [lit "a"; lit "old"]) with
    | Some (v, Goes st fm') => (forallb (allowed_b ex_code) v = true /\ st = 1 /\ map argv (started (core fm')) = map (map lit) [["echo"; "a"; "old"]; ["echo"; "new"]; ["cat"]; ["false"]]%string) | _ => False end) by (vm_compute; repeat split).
  rewrite E in F. destruct F as (F1 & F2 & F3). split; [apply all_allowed, F1|]. split; [exact F2|exact F3].
Qed.
(** The body ends with 1, the process with 0. *)
Example C126_status_example :
  check_if_builtin (lit "f") = false /\ plain_name (al (im ex_bg_shell)) (lit "f") /\ written_word (lit "f") /\ table (fds (im ex_bg_shell)) /\
  basic (jobs (js (im ex_bg_shell))) /\ get_function (lit "f") (cm (im ex_bg_shell)) = Some (FunctionBody (map fchain_tree ex_body) None) /\
  Forall wf_andor (map fchain_tree ex_body) /\
  match ContextSpec.performs (ContextLaws.entry (lit "f") []) (cm (im ex_bg_shell)) with
  | Some m1 => fst (exec_text ex_system 5 (render (map fchain_tree ex_body)) (Shell (with_cm m1 (im ex_bg_shell)) [])) = OOk 1
  | None => False
  end /\
  option_map fst (ex_child (lit " f &")) = Some (OExit 0).
Proof.
  pose proof ex_bg_agrees as [A B _]. destruct A.
  split; [reflexivity|]. split; [apply PropertiesPipe.plain_one; vm_compute; intuition discriminate|]. split; [spelled|].
  split; [apply ag_fds|]. split; [exact ag_basic|]. split; [vm_compute; reflexivity|]. split.
  { apply Forall_map. eapply Forall_impl; [|exact (proj2 (B (lit "f") ex_body eq_refl))]. intros l Hl. apply (fchain_facts _ _ l Hl). }
  split; vm_compute; reflexivity.
Qed.
(** [g] calls [h] and then runs [echo 2]: in the background it never does. *)
Example C126_nested_example :
  fscript_text [once (call "h" []); once (call "echo" [Plain (lit "2")])] = lit " h ; echo 2" /\
  get_function (lit "h") (cm (im ex_bg_shell)) = Some (FunctionBody (map fchain_tree [once (call "echo" [Plain (lit "1")])]) None) /\
  map argv (programs_of (trace (snd (exec_text ex_system 5 (lit " g") ex_bg_shell)))) = map (map lit) [["echo"; "1"]; ["echo"; "2"]]%string /\
  match ex_child (lit " g &") with
  | Some (o, s2) => o = OExit 0 /\ map argv (programs_of (trace s2)) = map (map lit) [["echo"; "1"]]%string
  | None => False
  end.
Proof. vm_compute. repeat split. Qed.

Print Assumptions C126_background_partial.
Print Assumptions C126_status_refuted.
Print Assumptions C126_nested_refuted.
