(** Property C144 in whole sessions. *)
From Verif Require Import Base BaseFacts Lexer LexerSpec Ast Parser GrammarSpec.
From Verif Require Import Context Alias Expand ExpandSpec ExpandFacts ExpandLaws Jobs Shell Builtins Eval.
From Verif Require Import EvalSpec EvalFacts EvalLaws EvalKeeps RunSpec RunLaws PipeSpec PipeLaws ChildLaws PipeRun.
From Verif Require Import JobsSpec JobsFacts JobsLaws JobsWait JobsPipe JobsReports.
From Verif Require PropertiesJobs PropertiesEval PropertiesStatus PropertiesProgram PropertiesWait EvalFds PropertiesReuse PropertiesAsync PropertiesMain.
Import PropertiesProgram PropertiesStatus PropertiesWait.
From Verif Require Import Main Async EvalPids EvalExact EvalExactAsync.
From Verif Require PropertiesPids.
Import PropertiesPids.
Local Open Scope Z_scope.

(** The status of a program is its own (C144) in every such session, however many jobs
    are stopped.  Missing: jobs in the background that have not reported anything, and
    systems that use a number again. *)
Theorem C144_session_partial : forall w sg n k args ins root cwd ppid pid env fds o s, once w ->
  table fds -> no_future_pipe fds 0 ->
  main_async w sg n k args ins (Shell (fresh_image root cwd ppid pid env fds) []) = (o, s) ->
  (forall id j, nget id (job_table (jobs (js (im s)))) = Some j -> unfinished j -> exists p ps, processes j = p :: ps /\ p_status p = Some (stop_status j)) ->
  forall d b sc sc' v q i e m a rest,
  wf_pipeline (Pipeline b [CSimple sc] false) -> program (im s) sc sc' -> expand_var (cm (im s)) (lit "PS4") = Some v ->
  answering w (trace s) [q] (repeat AIntr i ++ AStatus e :: repeat AIntr m ++ a :: rest) -> event_of e (Zpos q) -> a = AFail \/ a = AStatus StillAlive ->
  exists s', exec_text w (S d) (r_pipeline (Pipeline b [CSimple sc] false)) s = (OOk (status_after e (exit_status (im s))), s') /\
    exit_status (im s') = status_after e (exit_status (im s)) /\
    (forall id, id <> next_job_id (jobs (js (im s))) -> nget id (job_table (jobs (js (im s')))) = nget id (job_table (jobs (js (im s))))).
Proof.
  intros w sg n k args ins root cwd ppid pid env fds o s Hw Ht Hn H Hr d b sc sc' v q i e m a rest H1 H2 H3 H4 H5 H6.
  destruct (exact_async _ _ _ _ _ _ _ _ _ _ _ _ _ _ Hw H) as ([B _] & M & G).
  apply (PropertiesReuse.C144_own_partial w d b sc sc' s v q i e m a rest); try assumption.
  - apply (PropertiesAsync.main_async_sound w sg n k args ins _ o s H (or_introl eq_refl)). split; assumption.
  - intros id j Ej Hu. split; [|exact (Hr id j Ej Hu)]. intros Hh.
    assert (F : r_fork (w (trace s)) = Some q) by exact (an_fork _ _ _ _ H4 [] (Nat.lt_0_succ _)).
    apply (Hw _ _ F). apply G; [discriminate|].
    assert (X : nget (Zpos q) (pid_to_job (jobs (js (im s)))) = Some id) by (apply M; [discriminate|exists j; split; assumption]). rewrite X. discriminate.
Qed.

(** A program is stopped, and the next one fails. *)
Definition ex_plain : os := fun t =>
  let r := ex_once t in let n := List.length (forks t) in
  Reports (r_isfile r) (r_open r) (r_read r) (r_chdir r) (r_cwd r) (r_kill r) true
    (r_fork r) (r_exec r) (r_getpid r)
    (match n with 1%nat => [AStatus (Stopped 100 SIGTSTP); AFail] | _ => [AStatus (Exited (99 + Z.of_nat n) 1); AFail] end) (r_subst r).
Definition ex_suspended : shell := snd (main_async ex_plain (fun _ _ => []) 5 0 [lit "rsh"] [TLine (lit "vi x")] (Shell PropertiesMain.ex_fresh [])).
Lemma given_none new : List.length (forks new) = 0%nat -> given new = [].
Proof.
  unfold forks. rewrite rev_length. unfold given. induction new as [|e new IH]; [reflexivity|]. cbn [flat_map]. rewrite app_length.
  destruct e; cbn [List.length app Nat.add]; try exact IH. discriminate.
Qed.
Example C144_session_example : once ex_plain /\ table PropertiesMain.ex_fds /\ no_future_pipe PropertiesMain.ex_fds 0 /\
  (forall id j, nget id (job_table (jobs (js (im ex_suspended)))) = Some j -> unfinished j -> exists p ps, processes j = p :: ps /\ p_status p = Some (stop_status j)) /\
  answering ex_plain (trace ex_suspended) [101%positive] (repeat AIntr 0 ++ AStatus (Exited 101 1) :: repeat AIntr 0 ++ AFail :: []) /\
  map fst (job_table (jobs (js (im ex_suspended)))) = [1] /\ fst (exec_text ex_plain 5 (lit " c x") ex_suspended) = OOk 1.
Proof.
  split; [exact ex_once_once|]. split; [apply PropertiesAsync.C114_example|]. split; [apply PropertiesAsync.C114_example|].
  assert (T : match job_table (jobs (js (im ex_suspended))) with [(1, j)] => match processes j with [x] => p_status x = Some (stop_status j) | _ => False end | _ => False end)
    by (vm_compute; reflexivity).
  assert (N : List.length (forks (trace ex_suspended)) = 1%nat) by (vm_compute; reflexivity).
  assert (G : given (trace ex_suspended) = [100]) by (vm_compute; reflexivity).
  split; [|split; [|split; vm_compute; reflexivity]].
  - intros id j E _. destruct (job_table (jobs (js (im ex_suspended)))) as [|[[|[]|] j1] [|]]; try contradiction.
    cbn in E. destruct (Z.eqb id 1); [|discriminate]. injection E as ->. destruct (processes j) as [|x [|]]; try contradiction. exists x, []. split; [reflexivity|exact T].
  - split; [reflexivity| |].
    + intros new Hn. cbn [List.length] in Hn. assert (E : List.length (forks new) = 0%nat) by lia. rewrite E.
      change (r_fork (ex_plain (new ++ trace ex_suspended))) with (Some (Z.to_pos (1 + fold_right Z.max 99 (given (new ++ trace ex_suspended))))).
      unfold given at 1. rewrite flat_map_app. fold (given new). fold (given (trace ex_suspended)). rewrite G, (given_none new E). reflexivity.
    + intros new E. cbn [List.length] in E. unfold ex_plain. cbn [r_waits]. rewrite forks_app, app_length, N, E. reflexivity.
Qed.

Print Assumptions C144_session_partial.
