(** Properties C42 and C75: the status of a command. *)
From Verif Require Import Base BaseFacts Lexer LexerSpec Ast Parser GrammarSpec.
From Verif Require Import Context Alias Expand ExpandSpec ExpandFacts ExpandLaws Jobs Shell Builtins Eval.
From Verif Require Import EvalSpec EvalFacts EvalLaws EvalKeeps RunSpec RunLaws PipeSpec PipeLaws ChildLaws PipeRun EvalFds.
From Verif Require Import JobsSpec JobsFacts JobsLaws.
From Verif Require PropertiesJobs PropertiesEval.
Local Open Scope Z_scope.

(** ** C42 *)

(** What the status should be after an event of the command. *)
Definition status_after (e : wait_status) (old : Z) : Z :=
  match e with
  | Exited _ c => c
  | _ => old
  end.

(** A line that is a single program.  The jobs in the table are finished or stopped,
    the process gets the number [q], and the system reports [e] for it, after any
    number of interrupted calls. *)
Lemma single_report : forall w d b sc sc' s v q e,
  wf_pipeline (Pipeline b [CSimple sc] false) -> program (im s) sc sc' -> table (fds (im s)) ->
  basic (jobs (js (im s))) -> (forall k j, nget k (job_table (jobs (js (im s)))) = Some j -> at_rest (Zpos q) j) ->
  expand_var (cm (im s)) (lit "PS4") = Some v ->
  r_fork (w (trace s)) = Some q ->
  (forall i c, env i = env (im s) -> c_proc c = proc_of sc' ->
     exists n m a rest, (a = AFail \/ a = AStatus StillAlive) /\
       r_waits (w (EFork i c (Some q) :: trace s)) = repeat AIntr n ++ AStatus e :: repeat AIntr m ++ a :: rest) ->
  event_of e (Zpos q) ->
  exists s', exec_text w (S d) (r_pipeline (Pipeline b [CSimple sc] false)) s = (OOk (status_after e (exit_status (im s))), s') /\
    exit_status (im s') = status_after e (exit_status (im s)) /\ masked (js (im s')) = false /\
    (forall k, k <> next_job_id (jobs (js (im s))) ->
       nget k (job_table (jobs (js (im s')))) = nget k (job_table (jobs (js (im s))))) /\
    match e with
    | Stopped _ _ => exists j, nget (next_job_id (jobs (js (im s)))) (job_table (jobs (js (im s')))) = Some j /\
        state j = SStopped /\ map p_pid (processes j) = [Zpos q] /\ map p_argv (processes j) = [sc_name sc' :: words_in sc']
    | _ => nget (next_job_id (jobs (js (im s)))) (job_table (jobs (js (im s')))) = None
    end.
Proof.
  intros w d b sc sc' s v q e Hw Hp Ht B Hfin Hv Hf Hwt' He.
  rewrite exec_pipeline by exact Hw.
  rewrite (pipeline_programs w _ b [sc] [sc'] false s) by (try discriminate; repeat constructor; exact Hp).
  rewrite run_job_split by discriminate.
  set (id := next_job_id (jobs (js (im (blocked s))))).
  change (im (blocked s)) with (with_js (with_masked true (js (im s))) (im s)).
  set (i0 := with_js (with_masked true (js (im s))) (im s)).
  change (trace (blocked s)) with (trace s).
  set (p0 := process_new (sc_name sc' :: words_in sc') (sc_name sc') (sc_name sc')).
  set (jc := created false (map fst (map entry [sc'])) (blocked s)).
  set (jc1 := started id 0 (Zpos q) jc).
  set (c0 := Child sc' p0 (-1) (-1, -1) false).
  set (s1 := Shell (launching i0 jc (fds i0) (next_pipe i0)) (trace s)).
  set (s2 := Shell (launching i0 jc1 (fds i0) (next_pipe i0)) (EFork (im s1) c0 (Some q) :: trace s)).
  assert (Hl : launch w id false 0 (map entry [sc']) (-1) (-1, -1) s1 = (OOk tt, s2)).
  { cbn [map launch entry]. rewrite (bind_ok (ret (fst (-1, -1), -1)) _ s1 (-1, -1) s1 eq_refl).
    assert (Hfk : fork_child w (Child sc' p0 (-1) (-1, -1) false) s1 =
      (OOk (Some q), Shell (im s1) (EFork (im s1) c0 (Some q) :: trace s))).
    { unfold fork_child, ask, bind, look, note, seq, ret. cbn [trace s1]. unfold bind. rewrite Hf. reflexivity. }
    unfold p0 in Hfk. rewrite (bind_ok _ _ _ _ _ Hfk).
    rewrite (seq_ok (on_jobs (started id 0 (Zpos q))) _ (Shell (im s1) (EFork (im s1) c0 (Some q) :: trace s)) tt s2 eq_refl). cbn [Z.leb Z.compare].
    rewrite (seq_ok (ret tt) _ s2 tt s2 eq_refl).
    rewrite (seq_ok (sys_close_ignored (snd (-1, -1))) _ s2 tt s2); [reflexivity|].
    unfold sys_close_ignored, change. cbn [snd fst]. unfold fd_close. cbn [im s2].
    destruct (nget (-1) (fds (launching i0 jc1 (fds i0) (next_pipe i0)))) as [dd|] eqn:En; [|reflexivity].
    exfalso. apply (proj2 Ht) in En. lia. }
  unfold id in Hl. rewrite (seq_ok _ _ _ _ _ Hl). fold id.
  (* the table *)
  assert (Bc : basic jc) by (apply create_basic; exact B).
  assert (Bj : basic jc1) by (apply started_basic; exact Bc).
  set (j1 := Job [with_pid (Zpos q) p0] id StillAlive Running false false).
  assert (Hcg : forall k, nget k (job_table jc) = if Z.eqb k id then Some (job_new [p0] id false) else nget k (job_table (jobs (js (im s))))).
  { intros k. unfold jc, created. rewrite create_get by exact B. reflexivity. }
  assert (Hg : forall k, nget k (job_table jc1) = if Z.eqb k id then Some j1 else nget k (job_table (jobs (js (im s))))).
  { intros k. unfold jc1. rewrite (started_get id 0 (Zpos q) jc (job_new [p0] id false) k Bc).
    - rewrite Hcg. destruct (Z.eqb k id); reflexivity.
    - rewrite Hcg, Z.eqb_refl. reflexivity. }
  assert (Hfresh : nget id (job_table (jobs (js (im s)))) = None).
  { destruct (nget id (job_table (jobs (js (im s))))) as [j|] eqn:E; [|reflexivity].
    assert (1 <= id < next_job_id (jobs (js (im s)))) by (apply (b_next _ B); exists j; exact E). unfold id in *. cbn in *. lia. }
  destruct (Hwt' (im s1) c0 eq_refl eq_refl) as (n & m & a & rest & Ha & Hwt).
  destruct (PropertiesJobs.C41_single_partial v id n e m a rest (js (im s2)) j1 (with_pid (Zpos q) p0)) as (s3 & W1 & W2 & W3).
  - exact Bj.
  - exact He.
  - cbn [js im s2 launching with_next_pipe with_fds with_js with_jobs jobs]. rewrite Hg, Z.eqb_refl. reflexivity.
  - reflexivity.
  - reflexivity.
  - intros k j Hk Hne. cbn [js im s2 launching with_next_pipe with_fds with_js with_jobs jobs] in Hk. rewrite Hg in Hk.
    destruct (Z.eqb_spec k id); [congruence|]. exact (Hfin k j Hk).
  - exact Ha.
  - unfold finish.
    assert (Hwj : wait_job w id s2 = (OOk e, Shell (with_js s3 (im s2)) (EWait id :: trace s2))).
    { unfold wait_job. change (cm (im s2)) with (cm (im s)). rewrite Hv. cbn [trace s2].
      rewrite Hwt, W1. reflexivity. }
    set (s4 := Shell (with_js (shell_delete_job id s3) (im s2)) (EWait id :: trace s2)).
    assert (E : (st <- wait_job w id ;; sh_delete_job id ;; match st with Exited _ c => set_exit_status c | _ => ret tt end) s2
      = (OOk tt, Shell (with_exit (status_after e (exit_status (im s))) (im s4)) (trace s4))).
    { rewrite (bind_ok _ _ _ _ _ Hwj). rewrite (seq_ok (sh_delete_job id) _ (Shell (with_js s3 (im s2)) (EWait id :: trace s2)) tt s4 eq_refl).
      destruct He; reflexivity. }
    rewrite (seq_ok _ _ _ _ _ E). eexists. split; [reflexivity|]. cbn [im exit_status]. split; [reflexivity|]. split; [reflexivity|].
    assert (B3 : basic (jobs s3)).
    { eapply moves_basic; [exact Bj|]. exact (wait_for_job_moves _ _ _ (js (im s2)) _ _ _ Bj W1). }
    assert (Ho : forall k, k <> id -> nget k (job_table (delete_job id (jobs s3))) = nget k (job_table (jobs (js (im s))))).
    { intros k Hk. transitivity (nget k (job_table (jobs s3))).
      - destruct (delete_job_deletion id (jobs s3)); cbn; [reflexivity| | |].
        + rewrite nget_nremove; destruct (Z.eqb_spec k id); congruence.
        + rewrite nget_ninsert by (apply nsorted_nremove, B3). destruct (Z.eqb_spec k id); [congruence|].
          rewrite nget_nremove; destruct (Z.eqb_spec k id); congruence.
        + rewrite nget_nremove; destruct (Z.eqb_spec k id); congruence.
      - etransitivity; [exact (W2 k Hk)|]. etransitivity; [exact (Hg k)|]. destruct (Z.eqb_spec k id); congruence. }
    split; [intros k Hk; exact (Ho k Hk)|].
    destruct He as [p c|p sg dd|p sg].
    + change (nget id (job_table (delete_job id (jobs s3))) = None). unfold delete_job. rewrite (proj1 W3). exact (proj1 W3).
    + change (nget id (job_table (delete_job id (jobs s3))) = None). unfold delete_job. rewrite (proj1 W3). exact (proj1 W3).
    + change (exists j, nget id (job_table (delete_job id (jobs s3))) = Some j /\
        state j = SStopped /\ map p_pid (processes j) = [p] /\ map p_argv (processes j) = [sc_name sc' :: words_in sc']).
      destruct (delete_job_deletion id (jobs s3)) as [E0|j E0 Ep|j x ps js0 E0 Ep Ej Es|j x ps E0 Ep Hx Es]; rewrite (proj1 W3) in E0;
        [discriminate|injection E0 as <-; discriminate| |].
      * injection E0 as <-. cbn [job_table put_table]. rewrite nget_ninsert by (apply nsorted_nremove, B3). rewrite Z.eqb_refl.
        eexists. split; [reflexivity|]. split; [reflexivity|]. unfold report. cbn [map processes p_pid with_pid]. rewrite Z.eqb_refl. split; reflexivity.
      * injection E0 as <-. discriminate.
Qed.
Lemma single_program : forall w d b sc sc' s v q n e m a rest,
  wf_pipeline (Pipeline b [CSimple sc] false) -> program (im s) sc sc' -> table (fds (im s)) ->
  basic (jobs (js (im s))) -> (forall k j, nget k (job_table (jobs (js (im s)))) = Some j -> at_rest (Zpos q) j) ->
  expand_var (cm (im s)) (lit "PS4") = Some v ->
  r_fork (w (trace s)) = Some q ->
  (forall i c, r_waits (w (EFork i c (Some q) :: trace s)) =
     repeat AIntr n ++ AStatus e :: repeat AIntr m ++ a :: rest) ->
  event_of e (Zpos q) -> a = AFail \/ a = AStatus StillAlive ->
  exists s', exec_text w (S d) (r_pipeline (Pipeline b [CSimple sc] false)) s = (OOk (status_after e (exit_status (im s))), s') /\
    exit_status (im s') = status_after e (exit_status (im s)) /\ masked (js (im s')) = false /\
    (forall k, k <> next_job_id (jobs (js (im s))) ->
       nget k (job_table (jobs (js (im s')))) = nget k (job_table (jobs (js (im s))))) /\
    match e with
    | Stopped _ _ => exists j, nget (next_job_id (jobs (js (im s)))) (job_table (jobs (js (im s')))) = Some j /\
        state j = SStopped /\ map p_pid (processes j) = [Zpos q] /\ map p_argv (processes j) = [sc_name sc' :: words_in sc']
    | _ => nget (next_job_id (jobs (js (im s)))) (job_table (jobs (js (im s')))) = None
    end.
Proof.
  intros w d b sc sc' s v q n e m a rest Hw Hp Ht B Hfin Hv Hf Hwt He Ha.
  apply (single_report w d b sc sc' s v q e); try assumption. intros i c _ _. exists n, m, a, rest. split; [exact Ha|apply Hwt].
Qed.

(** The command exits with [c]: so does the line, the job is gone and nothing is
    blocked.  Missing: pipelines, and running jobs in the table. *)
Theorem C42_status_partial : forall w d b sc sc' s v q n c m a rest,
  wf_pipeline (Pipeline b [CSimple sc] false) -> program (im s) sc sc' -> table (fds (im s)) ->
  basic (jobs (js (im s))) -> (forall k j, nget k (job_table (jobs (js (im s)))) = Some j -> at_rest (Zpos q) j) ->
  expand_var (cm (im s)) (lit "PS4") = Some v ->
  r_fork (w (trace s)) = Some q ->
  (forall i x, r_waits (w (EFork i x (Some q) :: trace s)) =
     repeat AIntr n ++ AStatus (Exited (Zpos q) c) :: repeat AIntr m ++ a :: rest) ->
  a = AFail \/ a = AStatus StillAlive ->
  exists s', exec_text w (S d) (r_pipeline (Pipeline b [CSimple sc] false)) s = (OOk c, s') /\
    exit_status (im s') = c /\ masked (js (im s')) = false /\
    forall k, nget k (job_table (jobs (js (im s')))) = nget k (job_table (jobs (js (im s)))).
Proof.
  intros w d b sc sc' s v q n c m a rest Hw Hp Ht B Hfin Hv Hf Hwt Ha.
  destruct (single_program w d b sc sc' s v q n _ m a rest Hw Hp Ht B Hfin Hv Hf Hwt (ev_exited _ c) Ha) as (s' & E & E1 & E2 & E3 & E4).
  exists s'. split; [exact E|]. split; [exact E1|]. split; [exact E2|].
  intros k. destruct (Z.eq_dec k (next_job_id (jobs (js (im s))))) as [->|Hk]; [|exact (E3 k Hk)].
  rewrite E4. destruct (nget (next_job_id (jobs (js (im s)))) (job_table (jobs (js (im s))))) as [j|] eqn:Ej; [|reflexivity].
  exfalso. assert (1 <= next_job_id (jobs (js (im s))) < next_job_id (jobs (js (im s)))) by (apply (b_next _ B); exists j; exact Ej). lia.
Qed.

Import PropertiesEval.

(** An interrupted wait, then the status 7. *)
Definition ex_seven : os := fun t =>
  let r := ex_reports 0 in
  Reports (r_isfile r) (r_open r) (r_read r) (r_chdir r) (r_cwd r) (r_kill r) (r_pipe r) (Some 100%positive) (r_exec r) (r_getpid r)
    [AIntr; AStatus (Exited 100 7); AStatus StillAlive] (r_subst r).
Example C42_example :
  wf_pipeline (Pipeline false [CSimple (words_cmd (lit "a") [lit "x"])] false) /\
  program ex_image (words_cmd (lit "a") [lit "x"]) (SimpleCommand None (lit "a") (Some (Suffix [] [lit "x"]))) /\
  table (fds ex_image) /\ basic (jobs (js ex_image)) /\ expand_var (cm ex_image) (lit "PS4") = Some (lit "+ ") /\
  r_pipeline (Pipeline false [CSimple (words_cmd (lit "a") [lit "x"])] false) = lit " a x" /\
  fst (exec_text ex_seven 5 (lit " a x") ex_shell) = OOk 7.
Proof.
  assert (W : Forall written_word [lit "a"; lit "x"]) by (repeat (apply Forall_cons; [spelled|]); apply Forall_nil).
  split; [|split; [|split; [|split; [exact basic_new|split; [vm_compute; reflexivity|split; vm_compute; reflexivity]]]]].
  - destruct (words_line (lit "a") [lit "x"] ltac:(discriminate) W) as [Wl _]. destruct Wl as (_ & Wl & _).
    cbn [wf_pipeline all fold_right]. split; [discriminate|]. split; [split; [apply Wl|exact I]|intros [E _]; discriminate].
  - apply program_words; [reflexivity| |reflexivity|intros q a E; discriminate|discriminate| |].
    + split; [discriminate|]. split; [reflexivity|]. split; [intros [t E]; discriminate|].
      intros c [<-|[]]. split; vm_compute; intuition discriminate.
    + constructor; [apply o_plain; intros [t E]; discriminate|constructor].
    + cbn. intros c [<-|[<-|[]]]; discriminate.
  - split; [repeat constructor; cbn; lia|]. intros fd dd E. cbn in E.
    destruct (Z.eqb_spec fd 0); [lia|]. destruct (Z.eqb_spec fd 1); [lia|]. destruct (Z.eqb_spec fd 2); [lia|discriminate].
Qed.

(** For a pipeline it is the status of the command that ends first, if that is the
    first one: here it exits with 3 and the last one with 0. *)
Definition ex_pids : os := fun t =>
  let r := ex_reports 0 in
  Reports (r_isfile r) (r_open r) (r_read r) (r_chdir r) (r_cwd r) (r_kill r) (r_pipe r)
    (Some match t with EPipe _ :: _ => 100%positive | _ => 101%positive end) (r_exec r) (r_getpid r)
    [AStatus (Exited 100 3); AStatus (Exited 101 0); AFail] (r_subst r).
Theorem C42_pipeline_refuted :
  fst (exec_text ex_pids 5 (lit " a x | b y") ex_shell) = OOk 3 /\
  map snd (forks (trace (snd (exec_text ex_pids 5 (lit " a x | b y") ex_shell)))) = [Some 100%positive; Some 101%positive].
Proof. split; vm_compute; reflexivity. Qed.

(** ** C75 *)

(** A command that is killed leaves the status of the command before it, whatever
    that was; after a success it looks like a success. *)
Theorem C75_killed_refuted : forall w d b sc sc' s v q n sg core m a rest,
  wf_pipeline (Pipeline b [CSimple sc] false) -> program (im s) sc sc' -> table (fds (im s)) ->
  basic (jobs (js (im s))) -> (forall k j, nget k (job_table (jobs (js (im s)))) = Some j -> at_rest (Zpos q) j) ->
  expand_var (cm (im s)) (lit "PS4") = Some v ->
  r_fork (w (trace s)) = Some q ->
  (forall i x, r_waits (w (EFork i x (Some q) :: trace s)) =
     repeat AIntr n ++ AStatus (Signaled (Zpos q) sg core) :: repeat AIntr m ++ a :: rest) ->
  a = AFail \/ a = AStatus StillAlive ->
  exists s', exec_text w (S d) (r_pipeline (Pipeline b [CSimple sc] false)) s = (OOk (exit_status (im s)), s') /\
    exit_status (im s') = exit_status (im s).
Proof.
  intros w d b sc sc' s v q n sg core m a rest Hw Hp Ht B Hfin Hv Hf Hwt Ha.
  destruct (single_program w d b sc sc' s v q n _ m a rest Hw Hp Ht B Hfin Hv Hf Hwt (ev_signaled _ sg core) Ha) as (s' & E & E1 & _).
  exists s'. split; assumption.
Qed.
Definition ex_killed : os := fun t =>
  let r := ex_reports 0 in
  Reports (r_isfile r) (r_open r) (r_read r) (r_chdir r) (r_cwd r) (r_kill r) (r_pipe r) (Some 100%positive) (r_exec r) (r_getpid r)
    [AStatus (Signaled 100 SIGSEGV true); AStatus StillAlive] (r_subst r).
Example C75_example :
  fst (exec_text ex_killed 5 (lit " a x") ex_shell) = OOk 0 /\
  fst (exec_text ex_killed 5 (lit " a x") (Shell (with_exit 4 ex_image) [])) = OOk 4.
Proof. split; vm_compute; reflexivity. Qed.

(** ** C76 *)

(** A command that is stopped stays in the job list as a stopped job, with its
    number, words and process, and the shell goes on. *)
Theorem C76_stopped_partial : forall w d b sc sc' s v q n sg m a rest,
  wf_pipeline (Pipeline b [CSimple sc] false) -> program (im s) sc sc' -> table (fds (im s)) ->
  basic (jobs (js (im s))) -> (forall k j, nget k (job_table (jobs (js (im s)))) = Some j -> at_rest (Zpos q) j) ->
  expand_var (cm (im s)) (lit "PS4") = Some v ->
  r_fork (w (trace s)) = Some q ->
  (forall i x, r_waits (w (EFork i x (Some q) :: trace s)) =
     repeat AIntr n ++ AStatus (Stopped (Zpos q) sg) :: repeat AIntr m ++ a :: rest) ->
  a = AFail \/ a = AStatus StillAlive ->
  exists s' st j, exec_text w (S d) (r_pipeline (Pipeline b [CSimple sc] false)) s = (OOk st, s') /\
    masked (js (im s')) = false /\
    nget (next_job_id (jobs (js (im s)))) (job_table (jobs (js (im s')))) = Some j /\
    state j = SStopped /\ map p_pid (processes j) = [Zpos q] /\ map p_argv (processes j) = [sc_name sc' :: words_in sc'] /\
    forall k, k <> next_job_id (jobs (js (im s))) ->
      nget k (job_table (jobs (js (im s')))) = nget k (job_table (jobs (js (im s)))).
Proof.
  intros w d b sc sc' s v q n sg m a rest Hw Hp Ht B Hfin Hv Hf Hwt Ha.
  destruct (single_program w d b sc sc' s v q n _ m a rest Hw Hp Ht B Hfin Hv Hf Hwt (ev_stopped _ sg) Ha)
    as (s' & E & E1 & E2 & E3 & j & J1 & J2 & J3 & J4).
  exists s', (exit_status (im s)), j. split; [exact E|]. split; [exact E2|]. split; [exact J1|].
  split; [exact J2|]. split; [exact J3|]. split; [exact J4|exact E3].
Qed.
Definition ex_stopped : os := fun t =>
  let r := ex_reports 0 in
  Reports (r_isfile r) (r_open r) (r_read r) (r_chdir r) (r_cwd r) (r_kill r) (r_pipe r) (Some 100%positive) (r_exec r) (r_getpid r)
    [AStatus (Stopped 100 SIGTSTP); AStatus StillAlive] (r_subst r).
Example C76_example :
  map (fun kj => (fst kj, state (snd kj))) (job_table (jobs (js (im (snd (exec_text ex_stopped 5 (lit " a x") ex_shell)))))) = [(1, SStopped)].
Proof. vm_compute. reflexivity. Qed.

Print Assumptions C42_status_partial.
Print Assumptions C42_pipeline_refuted.
Print Assumptions C75_killed_refuted.
Print Assumptions C76_stopped_partial.
