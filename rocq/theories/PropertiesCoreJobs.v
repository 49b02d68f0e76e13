(** Property C145: programs that are stopped and brought back, with commands in between. *)
From Verif Require Import Base BaseFacts Lexer LexerSpec Ast Parser GrammarSpec.
From Verif Require Import Context.
From Verif Require ContextSpec ContextFacts ContextLaws PropertiesContext.
From Verif Require Import Alias Expand ExpandSpec ExpandFacts ExpandLaws Jobs JobsSpec Shell Builtins Eval.
From Verif Require Import EvalSpec EvalFacts EvalLaws EvalKeeps RunSpec RunLaws PipeSpec PipeLaws ChildLaws PipeRun.
From Verif Require Import JobsFacts JobsLaws JobsPipe.
From Verif Require PropertiesProgram PropertiesRun PropertiesStatus PropertiesWait PropertiesJobs PropertiesCrash PropertiesBuiltins EvalStack EvalForked.
From Verif Require PropertiesEval EvalJobs MainSpec Main MainLaws PropertiesMain.
From Verif Require Import EvalFds EvalSame EvalPids.
From Verif Require Import CoreSpec CoreExitSpec CoreFunSpec CoreJobsSpec PropertiesCore PropertiesCoreExit PropertiesCoreFun.
Local Open Scope Z_scope.

(** ** A program that is stopped *)

Lemma single_stopped : forall w d b sc sc' s v q n sg m a rest,
  wf_pipeline (Pipeline b [CSimple sc] false) -> program (im s) sc sc' -> table (fds (im s)) ->
  basic (jobs (js (im s))) -> (forall k j, nget k (job_table (jobs (js (im s)))) = Some j -> at_rest (Zpos q) j) ->
  expand_var (cm (im s)) (lit "PS4") = Some v ->
  r_fork (w (trace s)) = Some q ->
  (forall i c, p_argv (c_proc c) = sc_name sc' :: words_in sc' ->
     r_waits (w (EFork i c (Some q) :: trace s)) = repeat AIntr n ++ AStatus (Stopped (Zpos q) sg) :: repeat AIntr m ++ a :: rest) ->
  a = AFail \/ a = AStatus StillAlive ->
  let id := next_job_id (jobs (js (im s))) in
  exists s' i c p, exec_text w (S d) (r_pipeline (Pipeline b [CSimple sc] false)) s = (OOk (exit_status (im s)), s') /\
    trace s' = EWait id :: EFork i c (Some q) :: trace s /\
    (forall k, k <> id -> nget k (job_table (jobs (js (im s')))) = nget k (job_table (jobs (js (im s))))) /\
    nget id (job_table (jobs (js (im s')))) = Some (Job [p] id (Stopped (Zpos q) sg) SStopped false true) /\
    p_pid p = Zpos q /\ p_status p = Some (Stopped (Zpos q) sg) /\
    (forall r, r <> -1 -> r <> Zpos q -> mine r (jobs (js (im s))) -> mine r (jobs (js (im s')))) /\
    ((forall k j, nget k (job_table (jobs (js (im s)))) = Some j -> ~ has_pid (Zpos q) j) -> mine (Zpos q) (jobs (js (im s')))).
Proof.
  intros w d b sc sc' s v q n sg m a rest Hw Hp Ht B Hfin Hv Hf Hwt' Ha. cbv zeta.
  rewrite exec_pipeline by exact Hw.
  rewrite (pipeline_programs w _ b [sc] [sc'] false s) by (try discriminate; repeat constructor; exact Hp).
  rewrite run_job_split by discriminate.
  set (id := next_job_id (jobs (js (im (blocked s))))).
  change (im (blocked s)) with (with_js (with_masked true (js (im s))) (im s)).
  set (i0 := with_js (with_masked true (js (im s))) (im s)).
  change (trace (blocked s)) with (trace s).
  set (p0 := process_new (sc_name sc' :: words_in sc') (sc_name sc') (sc_name sc')).
  set (jc := created false (map fst (map entry [sc'])) (blocked s)).
  set (jc1 := Jobs.started id 0 (Zpos q) jc).
  set (c0 := Child sc' p0 (-1) (-1, -1) false).
  set (s1 := Shell (launching i0 jc (fds i0) (next_pipe i0)) (trace s)).
  set (s2 := Shell (launching i0 jc1 (fds i0) (next_pipe i0)) (EFork (im s1) c0 (Some q) :: trace s)).
  assert (Hl : launch w id false 0 (map entry [sc']) (-1) (-1, -1) s1 = (OOk tt, s2)).
  { cbn [map launch entry]. rewrite (bind_ok (ret (fst (-1, -1), -1)) _ s1 (-1, -1) s1 eq_refl).
    assert (Hfk : fork_child w (Child sc' p0 (-1) (-1, -1) false) s1 =
      (OOk (Some q), Shell (im s1) (EFork (im s1) c0 (Some q) :: trace s))).
    { unfold fork_child, ask, bind, look, note, seq, ret. cbn [trace s1]. unfold bind. rewrite Hf. reflexivity. }
    unfold p0 in Hfk. rewrite (bind_ok _ _ _ _ _ Hfk).
    rewrite (seq_ok (on_jobs (Jobs.started id 0 (Zpos q))) _ (Shell (im s1) (EFork (im s1) c0 (Some q) :: trace s)) tt s2 eq_refl). cbn [Z.leb Z.compare].
    rewrite (seq_ok (ret tt) _ s2 tt s2 eq_refl).
    rewrite (seq_ok (sys_close_ignored (snd (-1, -1))) _ s2 tt s2); [reflexivity|].
    unfold sys_close_ignored, change. cbn [snd fst]. unfold fd_close. cbn [im s2].
    destruct (nget (-1) (fds (launching i0 jc1 (fds i0) (next_pipe i0)))) as [dd|] eqn:En; [|reflexivity].
    exfalso. apply (proj2 Ht) in En. lia. }
  unfold id in Hl. rewrite (seq_ok _ _ _ _ _ Hl). fold id.
  assert (Bc : basic jc) by (apply create_basic; exact B).
  assert (Bj : basic jc1) by (apply started_basic; exact Bc).
  set (j1 := Job [with_pid (Zpos q) p0] id StillAlive Running false false).
  assert (Hcg : forall k, nget k (job_table jc) = if Z.eqb k id then Some (job_new [p0] id false) else nget k (job_table (jobs (js (im s))))).
  { intros k. unfold jc, created. rewrite create_get by exact B. reflexivity. }
  assert (Hg : forall k, nget k (job_table jc1) = if Z.eqb k id then Some j1 else nget k (job_table (jobs (js (im s))))).
  { intros k. unfold jc1. rewrite (started_get id 0 (Zpos q) jc (job_new [p0] id false) k Bc).
    - rewrite Hcg. destruct (Z.eqb k id); reflexivity.
    - rewrite Hcg, Z.eqb_refl. reflexivity. }
  pose proof (Hwt' (im s1) c0 eq_refl) as Hwt. set (e := Stopped (Zpos q) sg) in *.
  destruct (PropertiesJobs.C41_single_partial v id n e m a rest (js (im s2)) j1 (with_pid (Zpos q) p0)) as (s3 & W1 & W2 & W3).
  - exact Bj.
  - constructor.
  - cbn [js im s2 launching with_next_pipe with_fds with_js with_jobs jobs]. rewrite Hg, Z.eqb_refl. reflexivity.
  - reflexivity.
  - reflexivity.
  - intros k j Hk Hne. cbn [js im s2 launching with_next_pipe with_fds with_js with_jobs jobs] in Hk. rewrite Hg in Hk.
    destruct (Z.eqb_spec k id); [congruence|]. exact (Hfin k j Hk).
  - exact Ha.
  - unfold finish.
    assert (Hwj : wait_job w id s2 = (OOk e, Shell (with_js s3 (im s2)) (EWait id :: trace s2))).
    { unfold wait_job. change (cm (im s2)) with (cm (im s)). rewrite Hv. cbn [trace s2].
      rewrite Hwt, W1. reflexivity. }
    set (s4 := Shell (with_js (shell_delete_job id s3) (im s2)) (EWait id :: trace s2)).
    assert (E : (st <- wait_job w id ;; sh_delete_job id ;; match st with Exited _ c => set_exit_status c | _ => ret tt end) s2
      = (OOk tt, s4)).
    { rewrite (bind_ok _ _ _ _ _ Hwj). rewrite (seq_ok (sh_delete_job id) _ (Shell (with_js s3 (im s2)) (EWait id :: trace s2)) tt s4 eq_refl).
      reflexivity. }
    rewrite (seq_ok _ _ _ _ _ E). eexists _, (im s1), c0, (report (Zpos q) e (with_pid (Zpos q) p0)). split; [reflexivity|]. split; [reflexivity|].
    assert (B3 : basic (jobs s3)).
    { eapply moves_basic; [exact Bj|]. exact (wait_for_job_moves _ _ _ (js (im s2)) _ _ _ Bj W1). }
    assert (Ho : forall k, k <> id -> nget k (job_table (delete_job id (jobs s3))) = nget k (job_table (jobs (js (im s))))).
    { intros k Hk. transitivity (nget k (job_table (jobs s3))).
      - destruct (delete_job_deletion id (jobs s3)); cbn; [reflexivity| | |].
        + rewrite nget_nremove; destruct (Z.eqb_spec k id); congruence.
        + rewrite nget_ninsert by (apply nsorted_nremove, B3). destruct (Z.eqb_spec k id); [congruence|].
          rewrite nget_nremove; destruct (Z.eqb_spec k id); congruence.
        + rewrite nget_nremove; destruct (Z.eqb_spec k id); congruence.
      - etransitivity; [exact (W2 k Hk)|]. etransitivity; [exact (Hg k)|]. destruct (Z.eqb_spec k id); congruence. }
    split; [intros k Hk; exact (Ho k Hk)|].
    change (nget id (job_table (delete_job id (jobs s3))) = Some (Job [report (Zpos q) e (with_pid (Zpos q) p0)] id e SStopped false true) /\
      p_pid (report (Zpos q) e (with_pid (Zpos q) p0)) = Zpos q /\ p_status (report (Zpos q) e (with_pid (Zpos q) p0)) = Some e /\
      (forall r, r <> -1 -> r <> Zpos q -> mine r (jobs (js (im s))) -> mine r (delete_job id (jobs s3))) /\
      ((forall k j, nget k (job_table (jobs (js (im s)))) = Some j -> ~ has_pid (Zpos q) j) -> mine (Zpos q) (delete_job id (jobs s3)))).
    assert (Hlater : forall r, mine r jc1 -> mine r (delete_job id (jobs s3))).
    { intros r Hr. apply delete_mine; [exact B3|]. eapply moves_mine; [exact (wait_for_job_moves _ _ _ (js (im s2)) _ _ _ Bj W1)|exact Bj|exact Hr]. }
    assert (Hown : ~ has_pid (Zpos q) (job_new [p0] id false)) by (intros (z & [<-|[]] & F); discriminate).
    assert (M1 : forall r, r <> -1 -> r <> Zpos q -> mine r (jobs (js (im s))) -> mine r (delete_job id (jobs s3))).
    { intros r N1 N2 Hr. apply Hlater. eapply (started_mine r id 0 (Zpos q) jc (job_new [p0] id false)); [exact Bc| |congruence|rewrite Hcg, Z.eqb_refl; reflexivity|].
      - exact (step_mine r N1 (OCreate [(sc_name sc' :: words_in sc', sc_name sc', sc_name sc')] false) (js (im s)) _ eq_refl B Hr eq_refl).
      - intros (z & [<-|[]] & F). apply N1. symmetry. exact F. }
    assert (M2 : (forall k j, nget k (job_table (jobs (js (im s)))) = Some j -> ~ has_pid (Zpos q) j) -> mine (Zpos q) (delete_job id (jobs s3))).
    { intros Hno. apply Hlater. intros k. rewrite Hg.
      assert (E1 : nget (Zpos q) (pid_to_job jc1) = Some id).
      { unfold jc1, Jobs.started, get_job. rewrite Hcg, Z.eqb_refl. cbn [pid_to_job update_pid_table put_job]. rewrite nget_ninsert by apply Bc. rewrite Z.eqb_refl. reflexivity. }
      rewrite E1. destruct (Z.eqb_spec k id) as [->|N].
      - split; [intros _|intros _; reflexivity]. exists j1. split; [reflexivity|]. exists (with_pid (Zpos q) p0). split; [left; reflexivity|reflexivity].
      - split; [intros F; congruence|]. intros (j & Ej & Hh). destruct (Hno k j Ej Hh). }
    split; [|split; [|split; [|split; [exact M1|exact M2]]]];
      unfold report; cbn [p_pid with_pid]; rewrite Z.eqb_refl; try reflexivity.
    destruct W3 as [W3 _]. cbn [p_pid with_pid] in W3. unfold report in W3. cbn [p_pid with_pid] in W3. rewrite Z.eqb_refl in W3.
    unfold delete_job. rewrite W3. unfold e. cbn [with_stop_status with_state processes note_stop stop_status p_status is_stopped put_table job_table].
    rewrite nget_ninsert by (apply nsorted_nremove, B3). rewrite Z.eqb_refl. reflexivity.
Qed.

Section Steps.
Context (w : os) (aliases_ : aliases) (readonly : str -> bool) (t0 : fdtable) (code : world).

Definition jobs_of (s : shell) : nmap job := job_table (jobs (js (im s))).

(** Every field but the jobs. *)
Lemma agrees_table fs old inner apart m s : agrees aliases_ fs readonly old t0 inner apart m s ->
  agrees aliases_ fs readonly (jobs_of s) t0 inner apart m s.
Proof. intros []. split; auto. Qed.

Lemma step_stopped fs old apart inner d p m s q n sg mi a rest : agrees aliases_ fs readonly old t0 inner apart m s -> prog_ok aliases_ fs p ->
  (forall x, In (Dollar x) (arguments p) -> exists v, CoreSpec.vars m x = Some v /\ shown v) ->
  r_fork (w (trace s)) = Some q -> (forall k j, nget k (jobs_of s) = Some j -> at_rest (Zpos q) j) ->
  (forall i c, hd [] (p_argv (c_proc c)) = name p ->
     r_waits (w (EFork i c (Some q) :: trace s)) = repeat AIntr n ++ AStatus (Stopped (Zpos q) sg) :: repeat AIntr mi ++ a :: rest) ->
  a = AFail \/ a = AStatus StillAlive ->
  let id := next_job_id (jobs (js (im s))) in
  exists s' x, exec_text w (S d) (comm_text (Run p [])) s = (OOk (exit_status (im s)), s') /\
    agrees aliases_ fs readonly (jobs_of s') t0 inner apart (launched p m) s' /\
    (forall k, k <> id -> nget k (jobs_of s') = nget k (jobs_of s)) /\
    nget id (jobs_of s') = Some (Job [x] id (Stopped (Zpos q) sg) SStopped false true) /\
    p_pid x = Zpos q /\ p_status x = Some (Stopped (Zpos q) sg) /\
    (forall r, r <> -1 -> r <> Zpos q -> mine r (jobs (js (im s))) -> mine r (jobs (js (im s')))) /\
    ((forall k j, nget k (jobs_of s) = Some j -> ~ has_pid (Zpos q) j) -> mine (Zpos q) (jobs (js (im s')))).
Proof.
  intros A Hok Hfit Hfork Hrest Hwt Ha. pose proof A as [].
  destruct (comm_tree aliases_ fs readonly (Run p [])) as [Hwf Ht]; [constructor; [exact Hok|constructor]|].
  destruct (prog_program _ _ _ _ _ _ _ m s p A Hok Hfit) as [HP Hfl].
  assert (Hps : exists v, expand_var (cm (im s)) (lit "PS4") = Some v).
  { unfold expand_var. rewrite ag_vars by exact ps4_identifier. destruct (CoreSpec.vars m (lit "PS4")) as [v|] eqn:V; [|congruence].
    exists v. reflexivity. }
  destruct Hps as [v4 Hps].
  change (comm_pipe (Run p [])) with (Pipeline false (map CSimple [prog_cmd p]) false) in Hwf, Ht.
  destruct (single_stopped w d false (prog_cmd p) (prog_done m p) s v4 q n sg mi a rest Hwf HP (proj1 ag_fds) ag_basic Hrest Hps Hfork)
    as (s' & i & c & x & E & Ftr & J1 & J2 & J3 & J4 & J5 & J6).
  { intros i c Hc. apply Hwt. rewrite Hc. reflexivity. }
  { exact Ha. }
  set (id := next_job_id (jobs (js (im s)))) in *. cbv zeta. exists s', x.
  split; [rewrite <- Ht; exact E|]. split; [|split; [exact J1|split; [exact J2|split; [exact J3|split; [exact J4|split; [exact J5|exact J6]]]]]].
  assert (HP' : Forall2 (program (im s)) [prog_cmd p] (map (prog_done m) [p])) by (constructor; [exact HP|constructor]).
  change [CSimple (prog_cmd p)] with (map CSimple [prog_cmd p]) in E.
  destruct (exec_programs w d false false [prog_cmd p] _ s _ s' ltac:(discriminate) Hwf HP' (proj1 ag_fds) E) as (new' & Htr & Hch & Hfin & [[_ Hfds]|[G _]]); [|discriminate].
  assert (Hnew : new' = [EWait id; EFork i c (Some q)]).
  { rewrite Ftr in Htr. change (EWait id :: EFork i c (Some q) :: trace s) with ([EWait id; EFork i c (Some q)] ++ trace s) in Htr.
    apply app_inv_tail in Htr. symmetry. exact Htr. }
  subst new'. pose proof (Hch 0%nat _ eq_refl) as Hc.
  destruct Hfin as (F1 & F2 & F3 & F4 & F5 & F6 & F7 & F8). cbn [cm al env with_fds with_next_pipe] in F1, F2, F4.
  assert (Hev : exec_text w (S d) (r_pipeline (Pipeline false (map CSimple [prog_cmd p]) false)) s = evaluate w (S d) [AoOne (Pipeline false (map CSimple [prog_cmd p]) false)] s).
  { rewrite exec_pipeline by exact Hwf. symmetry. rewrite evaluate_one. reflexivity. }
  rewrite Hev in E.
  assert (Hforks : forks (trace s') = forks (trace s) ++ [(i, c, Some q)]).
  { rewrite Ftr, !PropertiesWait.forks_cons, app_nil_r. reflexivity. }
  assert (Hprog : process_start (visited m) (i, c, Some q) = start_of m true true p).
  { exact (child_start _ _ _ _ _ _ _ m s [p] 0 p _ A Hok Hfl eq_refl Hc). }
  unfold launched. split; cbn [CoreSpec.vars environment CoreSpec.started visited]; rewrite ?F1, ?F2, ?F4, ?Hforks; auto.
  - rewrite (EvalForked.evaluate_still w (S d) _ s _ s' E (or_introl eq_refl)). exact ag_forked.
  - rewrite Ftr. cbn [programs_of starts_of]. rewrite ag_started, ag_visited, Hprog. reflexivity.
  - rewrite Ftr. exact ag_visited.
  - apply Forall_app. split; [exact ag_executes|]. constructor; [|constructor]. exact (child_executes _ _ _ _ _ _ _ m s [p] 0 p _ A Hok eq_refl Hc).
  - destruct (linked_new s (map (prog_done m) [p]) [(i, c, Some q)]) as [L1 L2]; [reflexivity|exact Hch|]. apply linked_app; assumption.
  - rewrite Ftr. reflexivity.
  - exact (evaluate_sound _ _ _ _ _ _ E ag_fds).
  - intros fd. rewrite Hfds. apply ag_files.
  - destruct (EvalJobs.evaluate_worked w (S d) _ s _ s' E (or_introl eq_refl) ag_basic) as (os & Hr).
    exact (run_basic os _ _ ag_basic Hr).
Qed.

(** ** [fg] *)

(** A job that is continued has the same processes. *)
Lemma continued_mine b k j jc jc' r : nget k (job_table jc) = Some j -> pid_to_job jc' = pid_to_job jc ->
  (forall k', nget k' (job_table jc') = if Z.eqb k' k then Some (PropertiesRun.continued b j) else nget k' (job_table jc)) -> mine r jc -> mine r jc'.
Proof.
  intros Hj Hp Ht H k'. rewrite Hp, (H k'), Ht. destruct (Z.eqb_spec k' k) as [->|N]; [|reflexivity]. rewrite Hj.
  split; intros (j0 & E & Hh); injection E as <-; eexists; (split; [reflexivity|exact Hh]).
Qed.
Lemma fg_single d t k s j x v n e m a rest : sget (lit "fg") (al (im s)) = None ->
  PropertiesCrash.count_text t k -> written_word (ch "%" :: t) -> basic (jobs (js (im s))) ->
  nget k (jobs_of s) = Some j -> state j = SStopped \/ state j = Running -> processes j = [x] ->
  r_kill (w (trace s)) (p_pid x) = true ->
  (forall k' j', nget k' (jobs_of s) = Some j' -> k' <> k -> at_rest (p_pid x) j') ->
  expand_var (cm (im s)) (lit "PS4") = Some v ->
  r_waits (w (EKill (p_pid x) :: trace s)) = repeat AIntr n ++ AStatus e :: repeat AIntr m ++ a :: rest ->
  event_of e (p_pid x) -> a = AFail \/ a = AStatus StillAlive ->
  exists s' js', exec_text w (S d) (r_words [lit "fg"; ch "%" :: t]) s = (OOk 0, s') /\ s' = Shell (with_js js' (im s)) (EWait k :: EKill (p_pid x) :: trace s) /\
    basic (jobs js') /\ (forall k', k' <> k -> nget k' (job_table (jobs js')) = nget k' (jobs_of s)) /\
    (forall r, mine r (jobs (js (im s))) -> mine r (jobs js')) /\
    if is_stopped e then exists y, nget k (job_table (jobs js')) = Some (Job [y] k e SStopped false true) /\ p_pid y = p_pid x /\ p_status y = Some e
    else nget k (job_table (jobs js')) = None.
Proof.
  intros Ha Ht Hwr B Hj Hs Hps Hk Hothers Hv Hwt He Hend.
  pose proof (b_ids _ B k j Hj) as Hid.
  destruct (PropertiesRun.C95_fg_partial w d [ch "%" :: t] (ch "%" :: t) [] s true k j Ha) as (s1 & (A1 & A2 & A3 & A4 & A5 & A6 & A7 & A8 & A10 & A9) & Hm & E).
  { constructor; [left; exact Hwr|constructor]. }
  { constructor; [|constructor]. apply o_plain; intros [u F]; discriminate. }
  { exact B. }
  { constructor. exact Ht. }
  { exact Hj. }
  { destruct Hs as [-> | ->]; discriminate. }
  { rewrite Hps. constructor; [intros []|constructor]. }
  { rewrite Hps. intros p [<-|[]]. exact Hk. }
  rewrite Hps in A1. cbn [map rev app] in A1. rewrite Hid in E, A2. rewrite E, A1, Hwt, Hv. clear E.
  assert (Hj1 : nget k (job_table (jobs (js (im s1)))) = Some (PropertiesRun.continued false j)) by (rewrite A2, Z.eqb_refl; reflexivity).
  destruct (PropertiesJobs.C41_single_partial v k n e m a rest (js (im s1)) (PropertiesRun.continued false j) x A10 He Hj1 eq_refl Hps)
    as (u & W1 & W2 & W3).
  { intros k' j' Hk' Hne. rewrite A2 in Hk'. destruct (Z.eqb_spec k' k); [congruence|]. exact (Hothers k' j' Hk' Hne). }
  { exact Hend. }
  rewrite W1. eexists _, (with_masked false u). split; [reflexivity|]. split; [reflexivity|]. cbn [with_masked jobs]. split; [|split; [|split]].
  - eapply moves_basic; [exact A10|]. exact (wait_for_job_moves _ _ _ (js (im s1)) _ _ _ A10 W1).
  - intros k' Hne. rewrite (W2 k' Hne), A2. destruct (Z.eqb_spec k' k); [congruence|reflexivity].
  - intros r Hr. eapply moves_mine; [exact (wait_for_job_moves _ _ _ (js (im s1)) _ _ _ A10 W1)|exact A10|]. exact (continued_mine false k j _ _ r Hj A3 A2 Hr).
  - destruct e as [| |p sg| |]; try exact (proj1 W3). cbn [is_stopped]. exists (report (p_pid x) (Stopped p sg) x).
    split; [rewrite (proj1 W3); cbn [PropertiesRun.continued job_id background]; rewrite Hid; reflexivity|]. unfold report. rewrite Z.eqb_refl. split; reflexivity.
Qed.

Lemma agrees_resumed fs old inner apart m s js' k p : agrees aliases_ fs readonly old t0 inner apart m s -> basic (jobs js') ->
  agrees aliases_ fs readonly (job_table (jobs js')) t0 inner apart m (Shell (with_js js' (im s)) (EWait k :: EKill p :: trace s)).
Proof. intros [] B. split; auto. Qed.

(** ** [bg] *)

Lemma bg_single d t k s j x : sget (lit "bg") (al (im s)) = None ->
  PropertiesCrash.count_text t k -> written_word (ch "%" :: t) -> basic (jobs (js (im s))) ->
  nget k (jobs_of s) = Some j -> state j = SStopped \/ state j = Running -> processes j = [x] ->
  r_kill (w (trace s)) (p_pid x) = true ->
  exists js', exec_text w (S d) (r_words [lit "bg"; ch "%" :: t]) s = (OOk 0, Shell (with_js js' (im s)) (EKill (p_pid x) :: trace s)) /\
    basic (jobs js') /\ (forall k', k' <> k -> nget k' (job_table (jobs js')) = nget k' (jobs_of s)) /\
    nget k (job_table (jobs js')) = Some (PropertiesRun.continued true j) /\
    (forall r, mine r (jobs (js (im s))) -> mine r (jobs js')).
Proof.
  intros Ha Ht Hwr B Hj Hs Hps Hk. pose proof (b_ids _ B k j Hj) as Hid.
  destruct (PropertiesRun.C95_bg w d [ch "%" :: t] (ch "%" :: t) [] s true k j Ha) as (s1 & E & (A1 & A2 & A3 & A4 & A5 & A6 & A7 & A8 & A10 & A9) & Hm).
  { constructor; [left; exact Hwr|constructor]. }
  { constructor; [|constructor]. apply o_plain; intros [u F]; discriminate. }
  { exact B. }
  { constructor. exact Ht. }
  { exact Hj. }
  { destruct Hs as [-> | ->]; discriminate. }
  { rewrite Hps. constructor; [intros []|constructor]. }
  { rewrite Hps. intros p [<-|[]]. exact Hk. }
  rewrite Hps in A1. cbn [map rev app] in A1. rewrite Hid in A2.
  exists (js (im s1)). split; [rewrite E; f_equal; destruct s1 as [i1 t1]; cbn [im trace] in *; rewrite A1; f_equal; exact A9|].
  split; [exact A10|]. split; [intros k' Hne; rewrite A2; destruct (Z.eqb_spec k' k); [congruence|reflexivity]|].
  split; [rewrite A2, Z.eqb_refl; reflexivity|]. intros r Hr. exact (continued_mine true k j _ _ r Hj A3 A2 Hr).
Qed.
Lemma agrees_continued fs old inner apart m s js' p : agrees aliases_ fs readonly old t0 inner apart m s -> basic (jobs js') ->
  agrees aliases_ fs readonly (job_table (jobs js')) t0 inner apart m (Shell (with_js js' (im s)) (EKill p :: trace s)).
Proof. intros [] B. split; auto. Qed.
Lemma agrees_heard fs old inner apart m s js' p : agrees aliases_ fs readonly old t0 inner apart m s -> basic (jobs js') ->
  agrees aliases_ fs readonly (job_table (jobs js')) t0 inner apart m (Shell (with_js js' (im s)) (EWait p :: trace s)).
Proof. intros [] B. split; auto. Qed.

(** ** What the system does *)

Context (n d : nat).
(** While the line runs, it behaves like a system of PropertiesCore.v, which gives
    no number of a process of a job away.  The end of a program that runs in the
    background is heard: the handler can run (C84). *)
Definition meets (i : item) (s : shell) : Prop :=
  match i with
  | Line sc => exists w2, system w2 (jobs_of s) code /\
      forall o s', exec_text w2 (S d) (fscript_text sc) s = (o, s') -> forall t, later (trace s) t -> later t (trace s') -> w t = w2 t
  | Stops k p => next_job_id (jobs (js (im s))) = k /\ exists q m1 sg m2 a rest,
      r_fork (w (trace s)) = Some q /\ (forall k j, nget k (jobs_of s) = Some j -> at_rest (Zpos q) j /\ ~ has_pid (Zpos q) j) /\
      (forall i c, hd [] (p_argv (c_proc c)) = name p -> r_waits (w (EFork i c (Some q) :: trace s)) = repeat AIntr m1 ++ AStatus (Stopped (Zpos q) sg) :: repeat AIntr m2 ++ a :: rest) /\
      (a = AFail \/ a = AStatus StillAlive)
  | Resumes _ k => forall j x, nget k (jobs_of s) = Some j -> processes j = [x] ->
      r_kill (w (trace s)) (p_pid x) = true /\ exists m1 e m2 a rest, event_of e (p_pid x) /\ is_stopped e = false /\
      r_waits (w (EKill (p_pid x) :: trace s)) = repeat AIntr m1 ++ AStatus e :: repeat AIntr m2 ++ a :: rest /\
      (a = AFail \/ a = AStatus StillAlive)
  | Again _ k => forall j x, nget k (jobs_of s) = Some j -> processes j = [x] ->
      r_kill (w (trace s)) (p_pid x) = true /\ exists m1 e m2 a rest, event_of e (p_pid x) /\ is_stopped e = true /\
      r_waits (w (EKill (p_pid x) :: trace s)) = repeat AIntr m1 ++ AStatus e :: repeat AIntr m2 ++ a :: rest /\
      (a = AFail \/ a = AStatus StillAlive)
  | Lets _ k => forall j x, nget k (jobs_of s) = Some j -> processes j = [x] -> r_kill (w (trace s)) (p_pid x) = true
  | Over k => MainSpec.listening s /\ forall j x, nget k (jobs_of s) = Some j -> processes j = [x] ->
      exists e rest, event_of e (p_pid x) /\ is_stopped e = false /\ r_waits (w (trace s)) = AStatus e :: rest
  end.
(** What the shell makes of it. *)
Definition turn (i : item) (s : shell) : shell :=
  match i with Over _ => snd (Main.child_signal w s) | _ => snd (exec_text w (S d) (item_text i) s) end.
Fixpoint promised (l : list item) (s : shell) : Prop :=
  match l with
  | [] => True
  | i :: l' => meets i s /\ promised l' (turn i s)
  end.
Definition at_prompt (i : item) : Main.typed := match i with Over _ => Main.TChild | _ => Main.TLine (item_text i) end.
Definition item_ok (i : item) : Prop :=
  match i with
  | Line sc => sc <> [] /\ Forall (fchain_ok aliases_ readonly) sc
  | Stops _ p => prog_ok aliases_ (fun _ => None) p
  | Resumes t k | Again t k | Lets t k => PropertiesCrash.count_text t k /\ written_word (ch "%" :: t)
  | Over _ => True
  end.

(** The job [k] is a program that is stopped, or continued in the background, and no
    other job is about its process. *)
Definition holds (tbl : nmap job) (going : list Z) (k : Z) : Prop :=
  exists j x, nget k tbl = Some j /\ processes j = [x] /\ p_status x = Some (stop_status j) /\
    (In k going -> state j = Running /\ background j = true) /\ (~ In k going -> state j = SStopped /\ background j = false) /\
    forall k' j', nget k' tbl = Some j' -> k' <> k -> at_rest (p_pid x) j'.
(** The jobs are those in [old] and these. *)
Definition table_shows (old : nmap job) (held going : list Z) (tbl : nmap job) : Prop :=
  Forall (holds tbl going) held /\ forall k, ~ In k held -> nget k tbl = nget k old.

Lemma either_state (k : Z) (going : list Z) (j : job) : (In k going -> state j = Running /\ background j = true) -> (~ In k going -> state j = SStopped /\ background j = false) ->
  state j = SStopped \/ state j = Running.
Proof. intros H1 H2. destruct (in_dec Z.eq_dec k going) as [H|H]; [right; apply H1, H|left; apply H2, H]. Qed.
Lemma either_looked j : state j = SStopped \/ state j = Running -> unfinished j.
Proof. unfold unfinished. intros [-> | ->] [G|G]; discriminate. Qed.
Lemma holds_same a b going k : (forall k, nget k b = nget k a) -> holds a going k -> holds b going k.
Proof.
  intros H (j & x & H1 & H2 & H3 & H4 & H5 & H6). exists j, x. split; [rewrite H; exact H1|]. repeat (split; [assumption|]).
  intros k' j' E. rewrite H in E. apply H6, E.
Qed.
Lemma shows_same old held going a b : (forall k, nget k b = nget k a) -> table_shows old held going a -> table_shows old held going b.
Proof.
  intros H [H1 H2]. split; [|intros k Hk; rewrite H; apply H2, Hk].
  eapply Forall_impl; [|exact H1]. intros k. apply holds_same, H.
Qed.
Lemma shows_stopped old held going a b k q sg x : table_shows old held going a -> incl going held -> nget k a = None ->
  (forall k' j, nget k' a = Some j -> at_rest (Zpos q) j) -> (forall k', k' <> k -> nget k' b = nget k' a) ->
  nget k b = Some (Job [x] k (Stopped (Zpos q) sg) SStopped false true) -> p_pid x = Zpos q -> p_status x = Some (Stopped (Zpos q) sg) ->
  table_shows old (k :: held) going b.
Proof.
  intros [H1 H2] Hin Hk Hr Ho Hn Hx Hst. split.
  - constructor.
    + exists (Job [x] k (Stopped (Zpos q) sg) SStopped false true), x. split; [exact Hn|]. split; [reflexivity|]. split; [exact Hst|]. split; [|split; [split; reflexivity|]].
      * intros F. apply Hin in F. rewrite Forall_forall in H1. destruct (H1 k F) as (j & y & J1 & _). congruence.
      * intros k' j' E N. rewrite (Ho k' N) in E. rewrite Hx. exact (Hr k' j' E).
    + eapply Forall_impl; [|exact H1]. intros k1 (j & y & J1 & J2 & J3 & J4 & J5 & J6).
      assert (N1 : k1 <> k) by congruence. exists j, y. split; [rewrite (Ho k1 N1); exact J1|]. repeat (split; [assumption|]).
      intros k' j' E N. destruct (Z.eq_dec k' k) as [->|N2]; [|rewrite (Ho k' N2) in E; exact (J6 k' j' E N)].
      rewrite Hn in E. injection E as <-. right. exists x, []. split; [reflexivity|]. split; [exact Hst|].
      intros (z & [<-|[]] & Ez). destruct (Hr k1 j J1) as [F|(z & zs & Z1 & Z2 & Z3)].
      * apply F, either_looked, (either_state _ _ _ J4 J5).
      * apply Z3. exists y. rewrite J2. split; [left; reflexivity|]. rewrite <- Ez, Hx. reflexivity.
  - intros k' Hk'. rewrite Ho by (intros ->; apply Hk'; left; reflexivity). apply H2. intros F. apply Hk'. right. exact F.
Qed.
Lemma in_others k1 k (l : list Z) : k1 <> k -> In k1 (List.remove Z.eq_dec k l) <-> In k1 l.
Proof. intros N. split; [intros H; apply in_remove in H; apply H|intros H; apply in_in_remove; assumption]. Qed.
Lemma shows_over old held going a b k : table_shows old held going a -> nget k old = None ->
  (forall k', k' <> k -> nget k' b = nget k' a) -> nget k b = None -> table_shows old (List.remove Z.eq_dec k held) (List.remove Z.eq_dec k going) b.
Proof.
  intros [H1 H2] Hk Ho Hn. split.
  - apply Forall_forall. intros k1 Hin. apply in_remove in Hin. destruct Hin as [Hin N1]. rewrite Forall_forall in H1.
    destruct (H1 k1 Hin) as (j & y & J1 & J2 & J3 & J4 & J5 & J6). exists j, y. split; [rewrite (Ho k1 N1); exact J1|]. split; [exact J2|]. split; [exact J3|].
    rewrite (in_others k1 k going N1). split; [exact J4|]. split; [exact J5|].
    intros k' j' E N. destruct (Z.eq_dec k' k) as [->|N2]; [congruence|]. rewrite (Ho k' N2) in E. exact (J6 k' j' E N).
  - intros k' Hk'. destruct (Z.eq_dec k' k) as [->|N]; [congruence|]. rewrite (Ho k' N). apply H2. intros F. apply Hk'. apply in_in_remove; assumption.
Qed.
(** The job [k] changes, and is still about the same process. *)
Lemma shows_changed old held going going' a b k j x j' y : table_shows old held going a -> In k held -> nget k a = Some j -> state j = SStopped \/ state j = Running -> processes j = [x] ->
  (forall k' j', nget k' a = Some j' -> k' <> k -> at_rest (p_pid x) j') -> (forall k', k' <> k -> nget k' b = nget k' a) ->
  nget k b = Some j' -> processes j' = [y] -> p_pid y = p_pid x -> p_status y = Some (stop_status j') ->
  (In k going' -> state j' = Running /\ background j' = true) -> (~ In k going' -> state j' = SStopped /\ background j' = false) ->
  (forall k1, k1 <> k -> In k1 going' <-> In k1 going) -> table_shows old held going' b.
Proof.
  intros [H1 H2] Hin Hk Hs Hx Hr Ho Hn Hy Hp Hst G1 G2 Hg. split.
  - apply Forall_forall. intros k1 Hk1. rewrite Forall_forall in H1. destruct (Z.eq_dec k1 k) as [->|N1].
    + exists j', y. split; [exact Hn|]. split; [exact Hy|]. split; [exact Hst|]. split; [exact G1|]. split; [exact G2|].
      intros k' j1 E N. rewrite (Ho k' N) in E. rewrite Hp. exact (Hr k' j1 E N).
    + destruct (H1 k1 Hk1) as (j1 & y1 & J1 & J2 & J3 & J4 & J5 & J6). exists j1, y1. split; [rewrite (Ho k1 N1); exact J1|]. split; [exact J2|]. split; [exact J3|].
      rewrite (Hg k1 N1). split; [exact J4|]. split; [exact J5|].
      intros k' j2 E N. destruct (Z.eq_dec k' k) as [->|N2]; [|rewrite (Ho k' N2) in E; exact (J6 k' j2 E N)].
      rewrite Hn in E. injection E as <-. right. exists y, []. split; [exact Hy|]. split; [exact Hst|].
      intros (z & Hz & Ez). rewrite Hy in Hz. destruct Hz as [<-|[]]. destruct (J6 k j Hk) as [F|(z & zs & Z1 & Z2 & Z3)]; [congruence| |].
      * apply F, either_looked, Hs.
      * apply Z3. exists x. rewrite Hx. split; [left; reflexivity|]. rewrite <- Ez, Hp. reflexivity.
  - intros k' Hk'. rewrite Ho by (intros ->; apply Hk', Hin). apply H2, Hk'.
Qed.
(** The numbers of their processes stand for them. *)
Definition numbered (held : list Z) (s : shell) : Prop :=
  forall k j x, In k held -> nget k (jobs_of s) = Some j -> processes j = [x] -> p_pid x <> -1 /\ mine (p_pid x) (jobs (js (im s))).
Lemma numbered_one held held1 s s1 k j x : numbered held s -> In k held -> nget k (jobs_of s) = Some j -> processes j = [x] -> incl held1 held ->
  (forall k', k' <> k -> nget k' (jobs_of s1) = nget k' (jobs_of s)) -> (forall p, mine p (jobs (js (im s))) -> mine p (jobs (js (im s1)))) ->
  nget k (jobs_of s1) = None \/ (exists j' y, nget k (jobs_of s1) = Some j' /\ processes j' = [y] /\ p_pid y = p_pid x) -> numbered held1 s1.
Proof.
  intros N Hk E P Hi Ho Hm Hn k' j1 x1 Hk1 E1 P1. destruct (Z.eq_dec k' k) as [->|Ne].
  - destruct Hn as [Hn|(j' & y & Hn & Hy & Hxy)]; [congruence|]. rewrite Hn in E1. injection E1 as <-. rewrite Hy in P1. injection P1 as <-. rewrite Hxy.
    destruct (N k j x Hk E P) as [N1 N2]. split; [exact N1|apply Hm, N2].
  - rewrite (Ho k' Ne) in E1. destruct (N k' j1 x1 (Hi _ Hk1) E1 P1) as [N1 N2]. split; [exact N1|apply Hm, N2].
Qed.
Lemma exec_ours w2 m text s st s1 p : p <> -1 -> (forall t q, r_fork (w2 t) = Some q -> Zpos q <> p) -> exec_text w2 m text s = (OOk st, s1) ->
  basic (jobs (js (im s))) -> mine p (jobs (js (im s))) -> mine p (jobs (js (im s1))).
Proof.
  intros Hp Hw E B H. unfold exec_text in E. destruct (parse text) as [c|]; [|discriminate]. unfold eval in E.
  destruct c as [l|]; [|injection E as <- <-; exact H].
  exact (proj2 (evaluate_ours p Hp w2 Hw m l s _ s1 E (or_introl eq_refl) B H)).
Qed.
Lemma incl_removed k (a b : list Z) : incl a b -> incl (List.remove Z.eq_dec k a) (List.remove Z.eq_dec k b).
Proof. intros H x Hx. apply in_remove in Hx. destruct Hx as [H1 H2]. apply in_in_remove; [exact H2|apply H, H1]. Qed.

Lemma turned i s o s1 : match i with Over _ => False | _ => True end -> exec_text w (S d) (item_text i) s = (o, s1) -> turn i s = s1.
Proof. intros H E. destruct i; try contradiction; unfold turn; rewrite E; reflexivity. Qed.
Lemma items_agree (Hfg : sget (lit "fg") aliases_ = None) (Hbg : sget (lit "bg") aliases_ = None) (Hd : (n <= d)%nat) l fm held going vs fm' held' going' :
  jruns code n l fm held going vs fm' held' going' -> forall old s,
  Forall item_ok l -> Forall (allowed code) vs -> Forall (does_not_unset (lit "PS1")) vs -> promised l s ->
  fagrees aliases_ readonly (jobs_of s) t0 false 0 fm s -> CoreSpec.vars (core fm) (lit "PS1") <> None ->
  table_shows old held going (jobs_of s) -> incl going held -> Forall (fun k => nget k old = None) held -> numbered held s ->
  exists s', MainSpec.session w (S d) (map at_prompt l ++ [Main.TClosed]) s (OOk tt) s' /\
    fagrees aliases_ readonly (jobs_of s') t0 false 0 fm' s' /\ table_shows old held' going' (jobs_of s').
Proof.
  induction 1 as [fm held going|sc l fm held going vs st fm1 vs' fm2 held2 going2 E1 _ IH|k p l fm held going vs fm2 held2 going2 Hfun Hfit _ IH|t k l fm held going vs fm2 held2 going2 Hin _ IH
      |t k l fm held going vs fm2 held2 going2 Hin _ IH|t k l fm held going vs fm2 held2 going2 Hin _ IH|k l fm held going vs fm2 held2 going2 Hin Hgo _ IH];
    intros old s Hok Hv Hl Hp A Hps Hsh Hinc Hnone Hnum;
    (assert (P : exists v, get_var (lit "PS1") (cm (im s)) = Some v) by
       (rewrite (ag_vars _ _ _ _ _ _ _ _ _ (fa_core _ _ _ _ _ _ _ _ A) (lit "PS1") ps1_identifier); destruct (CoreSpec.vars (core fm) (lit "PS1")); [eauto|congruence]));
    destruct P as [v P]; cbn [map app at_prompt] in *.
  - exists (saved s). split; [eapply MainSpec.session_closed; exact P|]. split; [|exact Hsh].
    destruct A as [B1 B2 B3]; split; [destruct B1; split; assumption|assumption..].
  - inversion Hok as [|? ? H0 Hok']; subst. destruct H0 as [Hne Hsc]. apply Forall_app in Hv. destruct Hv as [Hv1 Hv2]. apply Forall_app in Hl. destruct Hl as [Hl1 Hl2].
    destruct Hp as [(w2 & Hsys & Hw) Hp]. cbn [item_text] in *.
    destruct (run_line w2 aliases_ readonly (jobs_of s) t0 code Hsys n d Hd sc 0 fm s vs st fm1 A Hsc Hne E1 Hv1) as (s1 & K1 & K2).
    assert (K : exec_text w (S d) (fscript_text sc) s = (OOk st, s1)) by (apply (exec_until w w2); [exact K1|exact (Hw _ _ K1)]).
    assert (Hp' : promised l s1) by (rewrite <- (turned (Line sc) s _ s1 I K); exact Hp).
    pose proof (script_set (lit "PS1") _ sc (fstep_set code (lit "PS1") eq_refl n 0) _ _ _ _ _ E1 Hl1 Hps) as Hps1.
    assert (Hj : forall k, nget k (jobs_of s1) = nget k (jobs_of s)) by (apply (ag_jobs _ _ _ _ _ _ _ _ _ (fa_core _ _ _ _ _ _ _ _ K2))).
    assert (Hnum1 : numbered held s1).
    { intros k1 j1 x1 Hk1 Ej1 Ep1. rewrite Hj in Ej1. destruct (Hnum k1 j1 x1 Hk1 Ej1 Ep1) as [N1 N2]. split; [exact N1|].
      pose proof (proj1 Hsh) as S1. rewrite Forall_forall in S1. destruct (S1 k1 Hk1) as (j2 & x2 & J1 & J2 & J3 & J4 & J5 & J6).
      rewrite Ej1 in J1. injection J1 as <-.
      eapply (exec_ours w2); [exact N1| |exact K1|exact (ag_basic _ _ _ _ _ _ _ _ _ (fa_core _ _ _ _ _ _ _ _ A))|exact N2].
      intros t q Hq Eq. destruct (sys_fork _ _ _ Hsys t) as (q' & Q1 & _ & Q2). rewrite Hq in Q1. injection Q1 as <-.
      destruct (Q2 k1 j1 Ej1) as [F|(z & zs & Z1 & Z2 & Z3)]; [apply F, either_looked, (either_state _ _ _ J4 J5)|].
      apply Z3. exists x1. rewrite Ep1. split; [left; reflexivity|congruence]. }
    assert (A1 : fagrees aliases_ readonly (jobs_of s1) t0 false 0 fm1 s1).
    { destruct K2 as [B1 B2 B3]. split; [eapply agrees_table; exact B1|assumption..]. }
    destruct (IH old s1 Hok' Hv2 Hl2 Hp' A1 Hps1 (shows_same _ _ _ _ _ Hj Hsh) Hinc Hnone Hnum1) as (s' & S' & A' & T'). exists s'. split; [|split; assumption].
    eapply MainSpec.session_line; [exact P| |exact K|exact I|exact S'].
    intros F. unfold exec_text in K. rewrite F in K. discriminate.
  - inversion Hok as [|? ? Hpo Hok']; subst.
    destruct Hp as [(Hk & q & m1 & sg & m2 & a & rest & Hf & Hr' & Hwt & Ha) Hp].
    assert (Hr : forall k j, nget k (jobs_of s) = Some j -> at_rest (Zpos q) j) by (intros k1 j1 F; apply (Hr' k1 j1 F)). cbn [item_text] in *.
    pose proof A as [B1 B2 B3].
    assert (Hpo' : prog_ok aliases_ (table_of (funs fm)) p).
    { cbn [item_ok] in Hpo. unfold prog_ok in *. unfold table_of. rewrite Hfun. exact Hpo. }
    destruct (step_stopped (table_of (funs fm)) (jobs_of s) false 0 d p (core fm) s q m1 sg m2 a rest B1 Hpo' Hfit Hf Hr Hwt Ha)
      as (s1 & x & K & A1 & J1 & J2 & J3 & J4 & J5 & J6). cbv zeta in J1, J2. rewrite Hk in J1, J2.
    assert (Hp' : promised l s1) by (rewrite <- (turned (Stops k p) s _ s1 I K); exact Hp).
    assert (Hfresh : nget k (jobs_of s) = None).
    { destruct (nget k (jobs_of s)) as [j|] eqn:Ej; [|reflexivity]. exfalso.
      assert (1 <= k < next_job_id (jobs (js (im s)))) by (apply (b_next _ (ag_basic _ _ _ _ _ _ _ _ _ B1)); exists j; exact Ej). lia. }
    assert (A2 : fagrees aliases_ readonly (jobs_of s1) t0 false 0 (FMachine (launched p (core fm)) (funs fm) (params fm)) s1) by (split; [exact A1|exact B2|exact B3]).
    assert (Hnum1 : numbered (k :: held) s1).
    { intros k1 j1 x1 Hk1 Ej1 Ep1. destruct (Z.eq_dec k1 k) as [->|Ne].
      - rewrite J2 in Ej1. injection Ej1 as <-. injection Ep1 as <-. rewrite J3. split; [discriminate|]. apply J6. intros k2 j2 F. apply (Hr' k2 j2 F).
      - destruct Hk1 as [F|Hk1]; [congruence|]. rewrite (J1 k1 Ne) in Ej1. destruct (Hnum k1 j1 x1 Hk1 Ej1 Ep1) as [N1 N2]. split; [exact N1|].
        apply J5; [exact N1| |exact N2]. intros F. apply (proj2 (Hr' k1 j1 Ej1)). exists x1. rewrite Ep1. split; [left; reflexivity|exact F]. }
    assert (Hold : nget k old = None).
    { destruct Hsh as [S1 S2]. rewrite <- S2; [exact Hfresh|]. intros F. rewrite Forall_forall in S1. destruct (S1 k F) as (j & _ & E & _). congruence. }
    destruct (IH old s1 Hok' Hv Hl Hp' A2 Hps (shows_stopped _ _ _ _ _ _ _ _ _ Hsh Hinc Hfresh Hr J1 J2 J3 J4) (incl_tl _ Hinc) (Forall_cons _ Hold Hnone) Hnum1) as (s' & S' & A' & T').
    exists s'. split; [|split; assumption].
    eapply MainSpec.session_line; [exact P| |exact K|exact I|exact S'].
    intros F. unfold exec_text in K. rewrite F in K. discriminate.
  - inversion Hok as [|? ? H0 Hok']; subst. destruct H0 as [Ht Hwr]. destruct Hp as [Hm Hp]. cbn [item_text] in *.
    pose proof A as [B1 B2 B3]. pose proof B1 as [].
    pose proof (proj1 Hsh) as S1. rewrite Forall_forall in S1. destruct (S1 k Hin) as (j & x & J1 & J2 & J4 & G1 & G2 & J5). pose proof (either_state _ _ _ G1 G2) as J3.
    destruct (Hm j x J1 J2) as (Hk & m1 & e & m2 & a & rest & He & Hst & Hwt & Ha).
    assert (Hps4 : exists v, expand_var (cm (im s)) (lit "PS4") = Some v).
    { unfold expand_var. rewrite ag_vars by exact ps4_identifier. destruct (CoreSpec.vars (core fm) (lit "PS4")) as [v4|] eqn:V; [|congruence].
      exists v4. reflexivity. }
    destruct Hps4 as [v4 Hps4].
    destruct (fg_single d t k s j x v4 m1 e m2 a rest ltac:(rewrite ag_aliases; exact Hfg) Ht Hwr ag_basic J1 J3 J2 Hk J5 Hps4 Hwt He Ha)
      as (s1 & js' & K & Es1 & Bs & O1 & Om & O2). rewrite Hst in O2.
    assert (Hp' : promised l s1) by (rewrite <- (turned (Resumes t k) s _ s1 I K); exact Hp).
    assert (A1 : fagrees aliases_ readonly (jobs_of s1) t0 false 0 fm s1).
    { rewrite Es1. split; [exact (agrees_resumed _ _ _ _ _ _ js' k (p_pid x) B1 Bs)|exact B2|exact B3]. }
    assert (Ej : jobs_of s1 = job_table (jobs js')) by (rewrite Es1; reflexivity).
    rewrite Forall_forall in Hnone. pose proof (Hnone k Hin) as Hold.
    assert (Hsh1 : table_shows old (List.remove Z.eq_dec k held) (List.remove Z.eq_dec k going) (jobs_of s1)) by (rewrite Ej; exact (shows_over old held going (jobs_of s) _ k Hsh Hold O1 O2)).
    assert (Hnone1 : Forall (fun k => nget k old = None) (List.remove Z.eq_dec k held)).
    { apply Forall_forall. intros k' Hk'. apply in_remove in Hk'. apply Hnone, Hk'. }
    assert (Hnum1 : numbered (List.remove Z.eq_dec k held) s1).
    { eapply (numbered_one held _ s s1 k j x Hnum Hin J1 J2); [intros y1 Hy1; apply in_remove in Hy1; apply Hy1|rewrite Ej; exact O1|rewrite Es1; exact Om|left; rewrite Ej; exact O2]. }
    destruct (IH old s1 Hok' Hv Hl Hp' A1 Hps Hsh1 (incl_removed k _ _ Hinc) Hnone1 Hnum1) as (s' & S' & A' & T').
    exists s'. split; [|split; assumption].
    eapply MainSpec.session_line; [exact P| |exact K|exact I|exact S'].
    intros F. unfold exec_text in K. rewrite F in K. discriminate.
  - inversion Hok as [|? ? H0 Hok']; subst. destruct H0 as [Ht Hwr]. destruct Hp as [Hm Hp]. cbn [item_text] in *.
    pose proof A as [B1 B2 B3]. pose proof B1 as [].
    pose proof (proj1 Hsh) as S1. rewrite Forall_forall in S1. destruct (S1 k Hin) as (j & x & J1 & J2 & J4 & G1 & G2 & J5). pose proof (either_state _ _ _ G1 G2) as J3.
    destruct (Hm j x J1 J2) as (Hk & m1 & e & m2 & a & rest & He & Hst & Hwt & Ha).
    assert (Hps4 : exists v, expand_var (cm (im s)) (lit "PS4") = Some v).
    { unfold expand_var. rewrite ag_vars by exact ps4_identifier. destruct (CoreSpec.vars (core fm) (lit "PS4")) as [v4|] eqn:V; [|congruence].
      exists v4. reflexivity. }
    destruct Hps4 as [v4 Hps4].
    destruct (fg_single d t k s j x v4 m1 e m2 a rest ltac:(rewrite ag_aliases; exact Hfg) Ht Hwr ag_basic J1 J3 J2 Hk J5 Hps4 Hwt He Ha)
      as (s1 & js' & K & Es1 & Bs & O1 & Om & O2). rewrite Hst in O2.
    assert (Hp' : promised l s1) by (rewrite <- (turned (Again t k) s _ s1 I K); exact Hp).
    assert (A1 : fagrees aliases_ readonly (jobs_of s1) t0 false 0 fm s1).
    { rewrite Es1. split; [exact (agrees_resumed _ _ _ _ _ _ js' k (p_pid x) B1 Bs)|exact B2|exact B3]. }
    assert (Ej : jobs_of s1 = job_table (jobs js')) by (rewrite Es1; reflexivity).
    destruct O2 as (y & O2 & O3 & O4).
    assert (Hsh1 : table_shows old held (List.remove Z.eq_dec k going) (jobs_of s1)).
    { rewrite Ej. eapply (shows_changed old held going (List.remove Z.eq_dec k going) (jobs_of s) _ k j x); [exact Hsh|exact Hin|exact J1|exact J3|exact J2|exact J5|exact O1|exact O2|reflexivity|exact O3|exact O4| | |].
      - intros F. destruct (remove_In _ _ _ F).
      - intros _. split; reflexivity.
      - intros k1 N. apply in_others, N. }
    assert (Hinc1 : incl (List.remove Z.eq_dec k going) held) by (intros y1 Hy1; apply in_remove in Hy1; apply Hinc, Hy1).
    assert (Hnum1 : numbered held s1).
    { eapply (numbered_one held _ s s1 k j x Hnum Hin J1 J2); [apply incl_refl|rewrite Ej; exact O1|rewrite Es1; exact Om|right; rewrite Ej; eexists _, y; split; [exact O2|split; [reflexivity|exact O3]]]. }
    destruct (IH old s1 Hok' Hv Hl Hp' A1 Hps Hsh1 Hinc1 Hnone Hnum1) as (s' & S' & A' & T').
    exists s'. split; [|split; assumption].
    eapply MainSpec.session_line; [exact P| |exact K|exact I|exact S'].
    intros F. unfold exec_text in K. rewrite F in K. discriminate.
  - inversion Hok as [|? ? H0 Hok']; subst. destruct H0 as [Ht Hwr]. destruct Hp as [Hm Hp]. cbn [item_text] in *.
    pose proof A as [B1 B2 B3]. pose proof B1 as [].
    pose proof (proj1 Hsh) as S1. rewrite Forall_forall in S1. destruct (S1 k Hin) as (j & x & J1 & J2 & J4 & G1 & G2 & J5). pose proof (either_state _ _ _ G1 G2) as J3.
    destruct (bg_single d t k s j x ltac:(rewrite ag_aliases; exact Hbg) Ht Hwr ag_basic J1 J3 J2 (Hm j x J1 J2)) as (js' & K & Bs & O1 & O2 & Om).
    set (s1 := Shell (with_js js' (im s)) (EKill (p_pid x) :: trace s)) in *.
    assert (Hp' : promised l s1) by (rewrite <- (turned (Lets t k) s _ s1 I K); exact Hp).
    assert (A1 : fagrees aliases_ readonly (jobs_of s1) t0 false 0 fm s1) by (split; [exact (agrees_continued _ _ _ _ _ _ js' (p_pid x) B1 Bs)|exact B2|exact B3]).
    assert (Hsh1 : table_shows old held (k :: going) (jobs_of s1)).
    { eapply (shows_changed old held going (k :: going) (jobs_of s) _ k j x); [exact Hsh|exact Hin|exact J1|exact J3|exact J2|exact J5|exact O1|exact O2|exact J2|reflexivity|exact J4| | |].
      - intros _. split; reflexivity.
      - intros F. destruct F. left. reflexivity.
      - intros k1 N. split; [intros [F|F]; [congruence|exact F]|intros F; right; exact F]. }
    assert (Hinc1 : incl (k :: going) held) by (intros y1 [<-|Hy1]; [exact Hin|apply Hinc, Hy1]).
    assert (Hnum1 : numbered held s1).
    { eapply (numbered_one held _ s s1 k j x Hnum Hin J1 J2); [apply incl_refl|exact O1|exact Om|right; eexists _, x; split; [exact O2|split; [exact J2|reflexivity]]]. }
    destruct (IH old s1 Hok' Hv Hl Hp' A1 Hps Hsh1 Hinc1 Hnone Hnum1) as (s' & S' & A' & T').
    exists s'. split; [|split; assumption].
    eapply MainSpec.session_line; [exact P| |exact K|exact I|exact S'].
    intros F. unfold exec_text in K. rewrite F in K. discriminate.
  - inversion Hok as [|? ? _ Hok']; subst. destruct Hp as [[Hlis Hm] Hp].
    pose proof A as [B1 B2 B3]. pose proof B1 as [].
    pose proof (proj1 Hsh) as S1. rewrite Forall_forall in S1. destruct (S1 k Hin) as (j & x & J1 & J2 & J4 & G1 & G2 & J5).
    destruct (Hm j x J1 J2) as (e & rest & He & Hst & Hwt).
    assert (Hpid : nget (p_pid x) (pid_to_job (jobs (js (im s)))) = Some k).
    { apply (proj2 (Hnum k j x Hin J1 J2) k). exists j. split; [exact J1|]. exists x. rewrite J2. split; [left; reflexivity|reflexivity]. } destruct (G1 Hgo) as [Hrun Hback].
    destruct (PropertiesJobs.C39_handler_background (expand_var (cm (im s)) (lit "PS4")) e (p_pid x) rest (js (im s)) k j x ag_basic He Hpid J1 Hback J2 eq_refl)
      as (js' & Hs & Hmk & O1 & O2).
    assert (O3 : nget k (job_table (jobs js')) = None) by (destruct e; try discriminate; apply O2).
    set (s1 := Shell (with_js js' (im s)) (EWait (-1) :: trace s)).
    assert (Bs : basic (jobs js')) by (eapply moves_basic; [exact ag_basic|eapply sig_chld_moves; [exact ag_basic|exact Hs]]).
    assert (Hp' : promised l s1).
    { assert (T : turn (Over k) s = s1); [|rewrite <- T; exact Hp]. unfold turn, Main.child_signal. destruct Hlis as (L1 & L2 & L3).
      rewrite L1, L2, L3. cbn [orb negb]. rewrite Hwt, Hs. reflexivity. }
    assert (A1 : fagrees aliases_ readonly (jobs_of s1) t0 false 0 fm s1) by (split; [exact (agrees_heard _ _ _ _ _ _ js' (-1) B1 Bs)|exact B2|exact B3]).
    rewrite Forall_forall in Hnone. pose proof (Hnone k Hin) as Hold.
    assert (Hsh1 : table_shows old (List.remove Z.eq_dec k held) (List.remove Z.eq_dec k going) (jobs_of s1)) by (exact (shows_over old held going (jobs_of s) _ k Hsh Hold O1 O3)).
    assert (Hnone1 : Forall (fun k => nget k old = None) (List.remove Z.eq_dec k held)).
    { apply Forall_forall. intros k' Hk'. apply in_remove in Hk'. apply Hnone, Hk'. }
    assert (Hnum1 : numbered (List.remove Z.eq_dec k held) s1).
    { eapply (numbered_one held _ s s1 k j x Hnum Hin J1 J2); [intros y1 Hy1; apply in_remove in Hy1; apply Hy1|exact O1|intros r Hr; eapply moves_mine; [eapply sig_chld_moves; [exact ag_basic|exact Hs]|exact ag_basic|exact Hr]|left; exact O3]. }
    destruct (IH old s1 Hok' Hv Hl Hp' A1 Hps Hsh1 (incl_removed k _ _ Hinc) Hnone1 Hnum1) as (s' & S' & A' & T').
    exists s'. split; [|split; assumption].
    eapply MainSpec.session_child; [exact P|exact Hlis|rewrite Hwt; exact Hs|exact S'].
Qed.
End Steps.

(** ** Whole sessions *)

Lemma main_prompts w n k args s f c' :
  Main.parse_args args (cm (im s)) = Some (None, f) -> Main.f_cm f = MainLaws.one_scope c' -> Main.interactive f = true ->
  ContextSpec.unsettable (MainSpec.numbered 0 (Main.script_name f)) = false -> MainSpec.no_startup_files w ->
  exists s1, (forall ins, Main.main w n k args ins s = Main.interactive_loop w n ins (Shell (Main.at_prompt (im s1)) (trace s1))) /\ trace s1 = trace s /\
    im s1 = with_cm (MainLaws.two_scopes c' (ctx_put_var (lit "0") (Var (MainSpec.kept (Main.script_name f)) false) empty_context)) (with_js (js (im s1)) (im s)) /\
    jobs (js (im s1)) = jobs (js (im s)).
Proof.
  intros Hp Hf Hi Hu Hn. set (s0 := Shell (with_cm (Main.f_cm f) (im s)) (trace s)).
  destruct (MainLaws.say_all_ok (Main.shown f) s0) as (s2 & E2 & Ht2 & Hi2 & Hj2 & Hm2).
  assert (Hcm : cm (im s2) = MainLaws.one_scope c') by (rewrite Hi2; exact Hf).
  set (s3 := Shell (with_cm (push_context_new (cm (im s2))) (im s2)) (trace s2)).
  set (s4 := Shell (with_cm (MainLaws.two_scopes c' (ctx_put_var (lit "0") (Var (MainSpec.kept (Main.script_name f)) false) empty_context)) (im s2)) (trace s2)).
  assert (Hs : Main.set_up w n (Main.script_name f) s2 = (OOk tt, s4)).
  { unfold Main.set_up. rewrite (seq_ok (on_cm push_context_new) _ s2 tt s3 eq_refl).
    assert (E3 : try_cm (add_var_pos (lit "0=" ++ Main.script_name f) 1) s3 = (OOk tt, s4)).
    { unfold try_cm, try_. cbn [s3 im cm with_cm]. rewrite Hcm, MainLaws.arg0, Hu. reflexivity. }
    rewrite (seq_ok _ _ s3 tt s4 E3). rewrite (seq_ok _ _ s4 tt s4 (MainLaws.startup_none w n _ s4 (proj1 (Hn _)))).
    apply MainLaws.startup_none. apply Hn. }
  exists s4. split; [|split; [exact Ht2|split; [cbn [s4 im]; rewrite Hi2; reflexivity|exact Hj2]]].
  intros ins. unfold Main.main.
  rewrite (bind_ok (look cm) _ s (cm (im s)) s eq_refl). rewrite Hp.
  rewrite (bind_ok (unwrap (Some (None, f))) _ s (None, f) s eq_refl). cbn [fst snd]. cbv zeta.
  rewrite (seq_ok (on_cm (fun _ => Main.f_cm f)) _ s tt s0 eq_refl).
  rewrite (seq_ok _ _ s0 tt s2 E2), (seq_ok _ _ s2 tt s4 Hs), Hi.
  apply (seq_ok (change Main.at_prompt) _ s4 tt _ eq_refl).
Qed.

(** The shell that waits for the first line. *)
Definition waiting (w : os) (n k : nat) (args : list str) (s : shell) : shell := snd (Main.main w n k args [] s).

Lemma waiting_agrees w n k args root cwd ppid pid env fds :
  MainSpec.asks args MainSpec.Prompt -> MainSpec.no_startup_files w ->
  NoDup (map fst env) -> (forall x, position x -> sget x env = None) -> table fds -> no_future_pipe fds 0 -> nget 0 fds <> None -> nget 1 fds <> None ->
  let s := Shell (Main.fresh_image root cwd ppid pid env fds) [] in
  let fm := machine_at_start root cwd ppid pid env in
  (forall ins, Main.main w n k args ins s = Main.interactive_loop w n ins (waiting w n k args s)) /\
  fagrees [] (fun _ => false) (jobs_of (waiting w n k args s)) fds false 0 fm (waiting w n k args s) /\
  jobs_of (waiting w n k args s) = [] /\ CoreSpec.vars (core fm) (lit "PS1") <> None.
Proof.
  intros Ha Hns Hnd He Ht Hf H0 H1 s fm.
  set (c := Context (default_vars root cwd ppid pid env) [] []).
  assert (Hc : cm (im s) = MainLaws.one_scope c) by reflexivity.
  pose proof (MainLaws.parse_args_asks args _ (cm (im s)) Ha) as Hpa. cbn [MainLaws.wanted_front] in Hpa.
  destruct (main_prompts w n k args s _ c Hpa Hc eq_refl eq_refl Hns) as (s1 & Em & Htr & Hi & Hj).
  set (s2 := Shell (Main.at_prompt (im s1)) (trace s1)) in *.
  assert (A : fagrees [] (fun _ => false) [] fds false 0 (machine_at_start root cwd ppid pid env) s2).
  { apply fagrees_start; [exact He|].
    assert (A1 : agrees [] (fun _ => None) (fun _ => false) [] fds 0 false (at_start root cwd ppid pid env) s1) by (eapply agrees_start; eauto).
    destruct A1. split; assumption. }
  assert (Hps : CoreSpec.vars (core (machine_at_start root cwd ppid pid env)) (lit "PS1") <> None).
  { cbn [machine_at_start core at_start CoreSpec.vars]. destruct (sget (lit "PS1") env); discriminate. }
  assert (Hw : waiting w n k args s = s2).
  { unfold waiting. rewrite Em. assert (P : exists v, get_var (lit "PS1") (cm (im s2)) = Some v).
    { rewrite (ag_vars _ _ _ _ _ _ _ _ _ (fa_core _ _ _ _ _ _ _ _ A) (lit "PS1") ps1_identifier).
      destruct (CoreSpec.vars (core (machine_at_start root cwd ppid pid env)) (lit "PS1")); [eauto|congruence]. }
    destruct P as [v P]. pose proof (MainSpec.session_waits w n s2 v P) as S. apply MainLaws.loop_session in S. rewrite S. reflexivity. }
  assert (Hj2 : jobs_of s2 = []) by (unfold jobs_of; cbn [s2 im Main.at_prompt js]; change (js (Main.at_prompt (im s1))) with (js (im s1)); rewrite Hj; reflexivity).
  rewrite Hw. split; [exact Em|]. split; [rewrite Hj2; exact A|]. split; [exact Hj2|exact Hps].
Qed.

(** A session from its start.  Any number of programs are stopped, brought back
    in any order, stopped again any number of times, and continued in the background,
    where they may end, with any lines of the core language, with functions, files and
    [eval], before, between and after them.  The programs that are started, the
    variables, the environment and the directory are those of a session in which the
    programs were started and never stopped; those that are not over are the jobs that
    are left.  Missing: pipelines that are stopped, jobs started in the background,
    and programs in the background that end while the shell does not hear it. *)
Theorem C145_typed_partial : forall w code n d k args root cwd ppid pid env fds l vs fm' held going, (n <= d)%nat ->
  MainSpec.asks args MainSpec.Prompt -> MainSpec.no_startup_files w ->
  NoDup (map fst env) -> (forall x, position x -> sget x env = None) -> table fds -> no_future_pipe fds 0 -> nget 0 fds <> None -> nget 1 fds <> None ->
  let s0 := Shell (Main.fresh_image root cwd ppid pid env fds) [] in
  Forall (item_ok [] (fun _ => false)) l -> promised w code d l (waiting w (S d) k args s0) ->
  jruns code n l (machine_at_start root cwd ppid pid env) [] [] vs fm' held going ->
  Forall (allowed code) vs -> Forall (does_not_unset (lit "PS1")) vs ->
  exists s', Main.main w (S d) k args (map at_prompt l ++ [Main.TClosed]) s0 = (OOk tt, s') /\
    programs_of (trace s') = started (core fm') /\ directories (trace s') = visited (core fm') /\ Forall (executes fds) (forks (trace s')) /\ linked (forks (trace s')) /\
    Shell.env (im s') = environment (core fm') /\ (forall x, identifier x -> expand_var (cm (im s')) x = CoreSpec.vars (core fm') x) /\
    Forall (holds (jobs_of s') going) held /\ forall k, ~ In k held -> nget k (jobs_of s') = None.
Proof.
  intros w code n d k args root cwd ppid pid env fds l vs fm' held going Hd Ha Hns Hnd He Ht Hf H0 H1 s Hok Hp E Hv Hl.
  destruct (waiting_agrees w (S d) k args root cwd ppid pid env fds Ha Hns Hnd He Ht Hf H0 H1) as (Em & A & Hj & Hps). fold s in Em, A, Hj.
  destruct (items_agree w [] (fun _ => false) fds code n d eq_refl eq_refl Hd l _ [] [] vs fm' held going E [] _ Hok Hv Hl Hp A Hps) as (s' & Hs & [A' _ _] & T1 & T2).
  { rewrite Hj. split; [constructor|reflexivity]. }
  { intros x []. }
  { constructor. }
  { intros k1 j1 x1 []. }
  exists s'. split; [|split; [exact (ag_started _ _ _ _ _ _ _ _ _ A')|split; [exact (ag_visited _ _ _ _ _ _ _ _ _ A')|split; [exact (ag_executes _ _ _ _ _ _ _ _ _ A')|split; [exact (ag_linked _ _ _ _ _ _ _ _ _ A')|split; [exact (ag_env _ _ _ _ _ _ _ _ _ A')|split; [|split; [exact T1|exact T2]]]]]]]].
  - rewrite Em. apply MainLaws.loop_session. exact Hs.
  - intros x Hx. unfold expand_var. rewrite (ag_vars _ _ _ _ _ _ _ _ _ A' x Hx). destruct (CoreSpec.vars (core fm') x); reflexivity.
Qed.

(** From any shell at the prompt, with other jobs: when nothing that was stopped is
    left, the jobs are the same as at the beginning. *)
Theorem C145_session_partial : forall w aliases_ readonly t0 code n d l fm vs fm' s, (n <= d)%nat -> sget (lit "fg") aliases_ = None -> sget (lit "bg") aliases_ = None ->
  Forall (item_ok aliases_ readonly) l -> promised w code d l s ->
  fagrees aliases_ readonly (jobs_of s) t0 false 0 fm s -> CoreSpec.vars (core fm) (lit "PS1") <> None ->
  jruns code n l fm [] [] vs fm' [] [] -> Forall (allowed code) vs -> Forall (does_not_unset (lit "PS1")) vs ->
  exists s', MainSpec.session w (S d) (map at_prompt l ++ [Main.TClosed]) s (OOk tt) s' /\
    fagrees aliases_ readonly (jobs_of s) t0 false 0 fm' s'.
Proof.
  intros w aliases_ readonly t0 code n d l fm vs fm' s Hd Hfg Hbg Hok Hp A Hps E Hv Hl.
  destruct (items_agree w aliases_ readonly t0 code n d Hfg Hbg Hd l fm [] [] vs fm' [] [] E (jobs_of s) s Hok Hv Hl Hp A Hps) as (s' & Hs & A' & T1 & T2).
  { split; [constructor|reflexivity]. }
  { intros x []. }
  { constructor. }
  { intros k1 j1 x1 []. }
  exists s'. split; [exact Hs|]. destruct A' as [B1 B2 B3]. split; [|assumption..]. destruct B1. split; auto.
Qed.

(** ** An example *)

Definition waits_in (t : list event) : nat := List.length (filter (fun e => match e with EWait _ => true | _ => false end) t).
Definition base_after (k : nat) : Z := 1000 * (1 + Z.of_nat k).
(** What is reported about the program that was continued last: it is stopped again if no
    other was continued before, and ends otherwise. *)
Fixpoint continued_in (t : list event) : list Z := match t with [] => [] | EKill p :: t' => p :: continued_in t' | _ :: t' => continued_in t' end.
Definition resumed_answers (t : list event) : list answer :=
  match continued_in t with
  | [] => [AFail]
  | [p] => [AStatus (Stopped p SIGTSTP); AFail]
  | p :: _ => [AStatus (Exited p 3); AFail]
  end.
(** A system like [ex_system] that gives higher numbers the more has been waited for.
    When nothing was started since, the report is about a program that was continued. *)
Definition ex_steady (N : nat) : os := fun t =>
  let r := ex_system t in
  Reports (r_isfile r) (r_open r) (r_read r) (r_chdir r) (r_cwd r) (fun _ => true) (r_pipe r)
    (Some (Z.to_pos (1 + fold_right Z.max (base_after (Nat.max N (waits_in t))) (PropertiesProgram.fork_pids (recent t))))) (r_exec r) (r_getpid r)
    (match PropertiesProgram.fork_pids (recent t) with [] => resumed_answers t | _ => r_waits r end) (r_subst r).
Definition ex_edits (e : event) : option Z :=
  match e with
  | EFork _ c (Some q) => if existsb (str_eqb (hd [] (p_argv (c_proc c)))) (map lit ["vi"; "less"]%string) then Some (Zpos q) else None
  | _ => None
  end.
(** The same, in which [vi] and [less] are stopped. *)
Definition ex_terminal : os := fun t =>
  let r := ex_steady 0 t in
  let waits l := Reports (r_isfile r) (r_open r) (r_read r) (r_chdir r) (r_cwd r) (r_kill r) (r_pipe r) (r_fork r) (r_exec r) (r_getpid r) l (r_subst r) in
  match t with
  | e :: _ => match ex_edits e with Some q => waits [AIntr; AStatus (Stopped q SIGTSTP); AFail] | None => r end
  | [] => r
  end.
Definition ordinary (e : event) : bool := match ex_edits e with Some _ => false | None => true end.
Lemma ordinary_steady t : match t with e :: _ => ordinary e | [] => true end = true -> ex_terminal t = ex_steady 0 t.
Proof. destruct t as [|e t]; [reflexivity|]. unfold ex_terminal, ordinary. destruct (ex_edits e); [discriminate|reflexivity]. Qed.
Lemma waits_later t0 t : later t0 t -> (waits_in t0 <= waits_in t)%nat.
Proof. intros [new ->]. unfold waits_in. rewrite filter_app, app_length. lia. Qed.
Lemma steady_later N t : (N <= waits_in t)%nat -> ex_steady N t = ex_steady 0 t.
Proof. intros H. unfold ex_steady. rewrite (Nat.max_r N) by exact H. reflexivity. Qed.

Definition below_b (b : Z) (tbl : nmap job) : bool :=
  forallb (fun kj => match processes (snd kj) with [x] => (p_pid x <=? b) && match p_status x, stop_status (snd kj) with Some (Stopped p1 SIGTSTP), Stopped p2 SIGTSTP => (p1 =? p2) | _, _ => false end | _ => false end) tbl.
Lemma below_rest b q tbl : below_b b tbl = true -> b < Zpos q -> forall k j, nget k tbl = Some j -> at_rest (Zpos q) j.
Proof.
  intros H Hq k j E. apply nget_In in E. unfold below_b in H. rewrite forallb_forall in H. specialize (H _ E). cbn [snd] in H.
  right. destruct (processes j) as [|x [|? ?]] eqn:Ep; try discriminate. apply andb_true_iff in H. destruct H as [H1 H2]. apply Z.leb_le in H1.
  exists x, []. split; [reflexivity|]. split.
  - destruct (p_status x) as [[| |p1 []| |]|]; try discriminate. destruct (stop_status j) as [| |p2 []| |]; try discriminate. apply Z.eqb_eq in H2. subst. reflexivity.
  - intros (y & Hy & Hpy). rewrite Ep in Hy. destruct Hy as [<-|[]]. lia.
Qed.
Lemma below_none b q tbl : below_b b tbl = true -> b < Zpos q -> forall k j, nget k tbl = Some j -> ~ has_pid (Zpos q) j.
Proof.
  intros H Hq k j E (y & Hy & Hpy). apply nget_In in E. unfold below_b in H. rewrite forallb_forall in H. specialize (H _ E). cbn [snd] in H.
  destruct (processes j) as [|x [|? ?]] eqn:Ep; try discriminate. apply andb_true_iff in H. destruct H as [H1 H2]. apply Z.leb_le in H1.
  destruct Hy as [<-|[]]. lia.
Qed.
Lemma max_above b l : b <= fold_right Z.max b l /\ forall q, In q l -> q <= fold_right Z.max b l.
Proof.
  induction l as [|x l [I1 I2]]; [split; [cbn; lia|intros q []]|]. cbn [fold_right]. split; [lia|].
  intros q [<-|H]; [lia|]. specialize (I2 q H). lia.
Qed.
Lemma ex_steady_ok N tbl : below_b (base_after N) tbl = true -> system (ex_steady N) tbl ex_code.
Proof.
  intros Hb. destruct ex_system_ok as [S1 S2 S3 S4 S5]. split; [exact S1|exact S2| | |exact S5].
  2:{ intros t q qs E Hn. destruct (S4 t q qs E Hn) as (n & es & rs & m & a & rest & H1 & H2). exists n, es, rs, m, a, rest. split; [|exact H2].
      unfold ex_steady. cbn [r_waits]. rewrite E. exact H1. }
  intros t. eexists. split; [reflexivity|]. destruct (max_above (base_after (Nat.max N (waits_in t))) (PropertiesProgram.fork_pids (recent t))) as [M1 M2].
  assert (M3 : 0 < base_after N <= base_after (Nat.max N (waits_in t))) by (unfold base_after; lia).
  split; [rewrite Z2Pos.id by lia; intros F; apply M2 in F; lia|].
  apply (below_rest _ _ _ Hb). rewrite Z2Pos.id by lia. lia.
Qed.

Definition plain_front (t : list event) : bool := match t with e :: _ => ordinary e | [] => true end.
Lemma line_meets d sc s :
  plain_front (trace s) = true -> below_b (base_after (waits_in (trace s))) (jobs_of s) = true ->
  (let t' := trace (snd (exec_text (ex_steady (waits_in (trace s))) (S d) (fscript_text sc) s)) in
   forallb ordinary (firstn (List.length t' - List.length (trace s)) t') = true) ->
  meets ex_terminal ex_code d (Line sc) s.
Proof.
  cbv zeta. intros Hf Hb Hn. exists (ex_steady (waits_in (trace s))). split; [apply ex_steady_ok, Hb|].
  intros o s' E t H1 H2. rewrite E in Hn. cbn [snd] in Hn. rewrite (steady_later _ _ (waits_later _ _ H1)).
  apply ordinary_steady. destruct H1 as [new1 ->], H2 as [new2 E2]. destruct new1 as [|e new1]; [exact Hf|].
  rewrite E2, !app_length, app_assoc in Hn. rewrite firstn_app in Hn.
  rewrite (firstn_all2 (new2 ++ e :: new1)) in Hn by (rewrite app_length; lia).
  rewrite !forallb_app in Hn. cbn [forallb] in Hn. rewrite !andb_true_iff in Hn. apply Hn.
Qed.
Lemma stops_meets d k p s : plain_front (trace s) = true -> below_b (base_after (waits_in (trace s))) (jobs_of s) = true ->
  next_job_id (jobs (js (im s))) = k -> In (name p) (map lit ["vi"; "less"]%string) -> meets ex_terminal ex_code d (Stops k p) s.
Proof.
  intros Hf Hb Hk Hn. split; [exact Hk|]. eexists _, 1%nat, SIGTSTP, 0%nat, AFail, []. split; [rewrite (ordinary_steady _ Hf); reflexivity|].
  destruct (max_above (base_after (waits_in (trace s))) (PropertiesProgram.fork_pids (recent (trace s)))) as [M1 M2].
  assert (M3 : 0 < base_after (waits_in (trace s))) by (unfold base_after; lia).
  split; [|split; [|left; reflexivity]].
  - cbn [Nat.max]. intros k1 j1 E1. split; [apply (below_rest _ _ _ Hb) with k1; [rewrite Z2Pos.id by lia; lia|exact E1]|].
    apply (below_none _ _ _ Hb) with k1; [rewrite Z2Pos.id by lia; lia|exact E1].
  - intros i c E. unfold ex_terminal, ex_edits. rewrite E.
    assert (X : existsb (str_eqb (name p)) (map lit ["vi"; "less"]%string) = true) by (apply existsb_exists; exists (name p); split; [exact Hn|apply str_eqb_refl]).
    rewrite X. reflexivity.
Qed.
Lemma always_continued t p : r_kill (ex_terminal t) p = true.
Proof. unfold ex_terminal. destruct t as [|e tr]; [reflexivity|destruct e; try reflexivity; destruct (ex_edits _); reflexivity]. Qed.
Lemma quiet_now t : match PropertiesProgram.fork_pids (recent t) with [] => true | _ => false end = true -> PropertiesProgram.fork_pids (recent t) = [].
Proof. destruct (PropertiesProgram.fork_pids (recent t)); [reflexivity|discriminate]. Qed.
Definition quiet_b (t : list event) : bool := match PropertiesProgram.fork_pids (recent t) with [] => true | _ => false end.
Lemma kill_answers p t : quiet_b t = true -> r_waits (ex_terminal (EKill p :: t)) = resumed_answers (EKill p :: t).
Proof. intros H. apply quiet_now in H. rewrite ordinary_steady by reflexivity. unfold ex_steady. cbn [r_waits].
  change (PropertiesProgram.fork_pids (recent (EKill p :: t))) with (PropertiesProgram.fork_pids (recent t)). rewrite H. reflexivity. Qed.
Definition some_continued (t : list event) : bool := match continued_in t with [] => false | _ => true end.
Lemma resumes_meets d t k s : quiet_b (trace s) = true -> some_continued (trace s) = true -> meets ex_terminal ex_code d (Resumes t k) s.
Proof.
  intros Hq H j x E Ep. split; [apply always_continued|].
  exists 0%nat, (Exited (p_pid x) 3), 0%nat, AFail, []. split; [constructor|]. split; [reflexivity|]. split; [|left; reflexivity].
  rewrite (kill_answers _ _ Hq). unfold resumed_answers, some_continued in *. cbn [continued_in]. destruct (continued_in (trace s)); [discriminate|reflexivity].
Qed.
Lemma again_meets d t k s : quiet_b (trace s) = true -> some_continued (trace s) = false -> meets ex_terminal ex_code d (Again t k) s.
Proof.
  intros Hq H j x E Ep. split; [apply always_continued|].
  exists 0%nat, (Stopped (p_pid x) SIGTSTP), 0%nat, AFail, []. split; [constructor|]. split; [reflexivity|]. split; [|left; reflexivity].
  rewrite (kill_answers _ _ Hq). unfold resumed_answers, some_continued in *. cbn [continued_in]. destruct (continued_in (trace s)); [reflexivity|discriminate].
Qed.
Definition over_b (k : Z) (s : shell) : bool :=
  negb (masked (js (im s))) && handlers (im s) && negb (forked (im s)) && plain_front (trace s) && quiet_b (trace s) &&
  match nget k (jobs_of s), continued_in (trace s) with
  | Some j, p :: _ :: _ => match processes j with
      | [x] => Z.eqb p (p_pid x)
      | _ => false
      end
  | _, _ => false
  end.
Lemma over_meets d k s : over_b k s = true -> meets ex_terminal ex_code d (Over k) s.
Proof.
  unfold over_b. rewrite !andb_true_iff, !negb_true_iff. intros [[[[[L1 L2] L3] Hf] Hq] H]. split; [split; [exact L1|split; assumption]|].
  intros j x E Ep. rewrite E in H. destruct (continued_in (trace s)) as [|p [|p2 ps]] eqn:Ec; try discriminate. rewrite Ep in H.
  apply Z.eqb_eq in H. subst p.
  exists (Exited (p_pid x) 3), [AFail]. split; [constructor|]. split; [reflexivity|].
  rewrite (ordinary_steady _ Hf). apply quiet_now in Hq. unfold ex_steady. cbn [r_waits]. rewrite Hq. unfold resumed_answers. rewrite Ec. reflexivity.
Qed.

Definition ex_items : list item :=
  [ Line [once (Do (Assign (lit "A") (Plain (lit "1")))); once (Define (lit "say") [once (call "echo" [Dollar (lit "1"); Dollar (lit "A")])])];
    Stops 1 (bare "vi" [Plain (lit "x")]);
    Line [once (call "say" [Plain (lit "a")]); (call "false" [], [(COr, Do (Run (bare "ls" []) [bare "sort" []]))])];
    Stops 2 (bare "less" [Dollar (lit "A")]);
    Again (lit "1") 1;
    Resumes (lit "1") 1;
    Line [once (Do (Assign (lit "A") (Plain (lit "2"))))];
    Stops 3 (bare "vi" [Dollar (lit "A")]);
    Lets (lit "2") 2;
    Line [once (call "say" [Plain (lit "b")])];
    Over 2;
    Stops 4 (bare "less" [Plain (lit "y")]);
    Lets (lit "4") 4;
    Resumes (lit "4") 4;
    Lets (lit "3") 3;
    Line [once (call "ls" [])] ].
Definition ex_front : shell := Shell PropertiesMain.ex_fresh [].
Definition ex_waiting : shell := waiting ex_terminal 5 0 [lit "rsh"] ex_front.
Definition meets_b (i : item) (s : shell) : bool :=
  match i with
  | Line sc => plain_front (trace s) && below_b (base_after (waits_in (trace s))) (jobs_of s) &&
      let t' := trace (snd (exec_text (ex_steady (waits_in (trace s))) 5 (fscript_text sc) s)) in forallb ordinary (firstn (List.length t' - List.length (trace s)) t')
  | Stops k p => plain_front (trace s) && below_b (base_after (waits_in (trace s))) (jobs_of s) && Z.eqb (next_job_id (jobs (js (im s)))) k &&
      existsb (str_eqb (name p)) (map lit ["vi"; "less"]%string)
  | Resumes _ _ => quiet_b (trace s) && some_continued (trace s)
  | Again _ _ => quiet_b (trace s) && negb (some_continued (trace s))
  | Lets _ _ => true
  | Over k => over_b k s
  end.
Lemma meets_b_true i s : meets_b i s = true -> meets ex_terminal ex_code 4 i s.
Proof.
  destruct i as [sc|k p|t k|t k|t k|k]; unfold meets_b; rewrite ?andb_true_iff.
  - intros [[H1 H2] H3]. apply line_meets; assumption.
  - intros [[[H1 H2] H3] H4]. apply stops_meets; [exact H1|exact H2|apply Z.eqb_eq, H3|].
    apply existsb_exists in H4. destruct H4 as (x & H4 & H5). apply str_eqb_eq in H5. rewrite H5. exact H4.
  - intros [H1 H2]. apply resumes_meets; assumption.
  - rewrite negb_true_iff. intros [H1 H2]. apply again_meets; assumption.
  - intros _ j x E Ep. apply always_continued.
  - apply over_meets.
Qed.
Fixpoint promised_b (l : list item) (s : shell) : bool :=
  match l with [] => true | i :: l' => meets_b i s && promised_b l' (turn ex_terminal 4 i s) end.
Lemma promised_b_true l : forall s, promised_b l s = true -> promised ex_terminal ex_code 4 l s.
Proof.
  induction l as [|i l IH]; intros s H; [exact I|]. cbn [promised_b] in H. apply andb_true_iff in H. destruct H as [H1 H2]. split; [apply meets_b_true, H1|].
  apply IH, H2.
Qed.
Lemma ex_items_promised : promised ex_terminal ex_code 4 ex_items ex_waiting.
Proof. apply promised_b_true. vm_compute. reflexivity. Qed.
(** The meaning, as a function. *)
Fixpoint jrun (code : world) (n : nat) (l : list item) (fm : fmachine) (held going : list Z) : option (list visit * fmachine * list Z * list Z) :=
  match l with
  | [] => Some ([], fm, held, going)
  | Line sc :: l' => match frun_script (fstep code n 0) sc 0 fm with
      | Some (vs, Goes _ fm1) => match jrun code n l' fm1 held going with Some (vs', fm2, h2, g2) => Some (vs ++ vs', fm2, h2, g2) | None => None end
      | _ => None
      end
  | Stops k p :: l' => if negb (is_some (funs fm (name p))) && forallb (known_b (core fm)) (arguments p)
      then jrun code n l' (FMachine (launched p (core fm)) (funs fm) (params fm)) (k :: held) going else None
  | Resumes _ k :: l' => if existsb (Z.eqb k) held then jrun code n l' fm (List.remove Z.eq_dec k held) (List.remove Z.eq_dec k going) else None
  | Again _ k :: l' => if existsb (Z.eqb k) held then jrun code n l' fm held (List.remove Z.eq_dec k going) else None
  | Lets _ k :: l' => if existsb (Z.eqb k) held then jrun code n l' fm held (k :: going) else None
  | Over k :: l' => if existsb (Z.eqb k) held && existsb (Z.eqb k) going then jrun code n l' fm (List.remove Z.eq_dec k held) (List.remove Z.eq_dec k going) else None
  end.
Lemma listed k l : existsb (Z.eqb k) l = true -> In k l.
Proof. intros B. apply existsb_exists in B. destruct B as (y & B1 & B2). apply Z.eqb_eq in B2. subst y. exact B1. Qed.
Lemma jrun_runs code n l : forall fm held going vs fm' held' going', jrun code n l fm held going = Some (vs, fm', held', going') -> jruns code n l fm held going vs fm' held' going'.
Proof.
  induction l as [|[sc|k p|t k|t k|t k|k] l IH]; intros fm held going vs fm' held' going' E; cbn [jrun] in E.
  - injection E as <- <- <- <-. constructor.
  - destruct (frun_script (fstep code n 0) sc 0 fm) as [[vs1 [st fm1|]]|] eqn:E1; try discriminate.
    destruct (jrun code n l fm1 held going) as [[[[vs2 fm2] h2] g2]|] eqn:E2; [|discriminate]. injection E as <- <- <- <-.
    eapply jr_line; [exact E1|apply IH, E2].
  - destruct (negb (is_some (funs fm (name p))) && forallb (known_b (core fm)) (arguments p)) eqn:B; [|discriminate].
    apply andb_true_iff in B. destruct B as [B1 B2]. apply jr_stops; [destruct (funs fm (name p)); [discriminate|reflexivity]| |apply IH, E].
    intros x Hx. rewrite forallb_forall in B2. specialize (B2 _ Hx). cbn [known_b] in B2.
    destruct (CoreSpec.vars (core fm) x) as [v|]; [|discriminate]. exists v. split; [reflexivity|apply shown_b_true, B2].
  - destruct (existsb (Z.eqb k) held) eqn:B; [|discriminate]. apply jr_resumes; [apply listed, B|apply IH, E].
  - destruct (existsb (Z.eqb k) held) eqn:B; [|discriminate]. apply jr_again; [apply listed, B|apply IH, E].
  - destruct (existsb (Z.eqb k) held) eqn:B; [|discriminate]. apply jr_lets; [apply listed, B|apply IH, E].
  - destruct (existsb (Z.eqb k) held && existsb (Z.eqb k) going) eqn:B; [|discriminate]. apply andb_true_iff in B.
    apply jr_over; [apply listed, B|apply listed, B|apply IH, E].
Qed.
Lemma ex_items_ok : Forall (item_ok [] (fun _ => false)) ex_items.
Proof.
  unfold ex_items, once, call.
  repeat (apply Forall_cons; [|]); try apply Forall_nil; cbn [item_ok]; try (split; [discriminate|]).
  - ok_chains; [ok_assign|ok_define; ok_chains; ok_call].
  - a_program; [ok_args|apply Forall_nil].
  - ok_chains; [ok_call|ok_call|]. repeat (apply Forall_cons; [a_program; [ok_args|apply Forall_nil]|]). apply Forall_nil.
  - a_program; [ok_args|apply Forall_nil].
  - split; [exists (lit "1"), 1%N; repeat split; auto; discriminate|apply plain_written; a_word].
  - split; [exists (lit "1"), 1%N; repeat split; auto; discriminate|apply plain_written; a_word].
  - ok_chains. ok_assign.
  - a_program; [ok_args|apply Forall_nil].
  - split; [exists (lit "2"), 2%N; repeat split; auto; discriminate|apply plain_written; a_word].
  - ok_chains. ok_call.
  - exact I.
  - a_program; [ok_args|apply Forall_nil].
  - split; [exists (lit "4"), 4%N; repeat split; auto; discriminate|apply plain_written; a_word].
  - split; [exists (lit "4"), 4%N; repeat split; auto; discriminate|apply plain_written; a_word].
  - split; [exists (lit "3"), 3%N; repeat split; auto; discriminate|apply plain_written; a_word].
  - ok_chains. ok_call.
Qed.
Definition unsets_b (x : str) (v : visit) : bool := match v_comm v with Do (Unset y) => str_eqb x y | _ => false end.
Lemma none_unsets x vs : existsb (unsets_b x) vs = false -> Forall (does_not_unset x) vs.
Proof.
  intros H. rewrite Forall_forall. intros v Hv F. assert (X : existsb (unsets_b x) vs = true); [|congruence].
  apply existsb_exists. exists v. split; [exact Hv|]. unfold unsets_b. rewrite F. apply str_eqb_refl.
Qed.
Lemma ex_items_run :
  match jrun ex_code 2 ex_items ex_machine [] [] with
  | Some (vs, fm', held, going) => forallb (allowed_b ex_code) vs = true /\ existsb (unsets_b (lit "PS1")) vs = false /\
      map argv (started (core fm')) = map (map lit) [["vi"; "x"]; ["echo"; "a"; "1"]; ["false"]; ["ls"]; ["sort"]; ["less"; "1"]; ["vi"; "2"]; ["echo"; "b"; "2"]; ["less"; "y"]; ["ls"]]%string /\
      CoreSpec.vars (core fm') (lit "A") = Some (lit "2") /\ held = [3] /\ going = [3]
  | None => False
  end.
Proof. vm_compute. repeat split. Qed.
Lemma ex_terminal_plain : MainSpec.no_startup_files ex_terminal.
Proof. intros t. unfold ex_terminal. destruct t as [|e t]; [split; reflexivity|]. destruct (ex_edits e); split; reflexivity. Qed.
Example C145_typed_example :
  map item_text ex_items = map lit [" A=1 ; say ( ) { echo $1 $A ; }"; " vi x"; " say a ; false || ls | sort"; " less $A"; " fg %1"; " fg %1"; " A=2"; " vi $A"; " bg %2"; " say b"; ""; " less y"; " bg %4"; " fg %4"; " bg %3"; " ls"]%string /\
  MainSpec.asks [lit "rsh"] MainSpec.Prompt /\ MainSpec.no_startup_files ex_terminal /\
  table PropertiesMain.ex_fds /\ no_future_pipe PropertiesMain.ex_fds 0 /\ (forall x, position x -> sget x ex_env = None) /\
  Forall (item_ok [] (fun _ => false)) ex_items /\ promised ex_terminal ex_code 4 ex_items (waiting ex_terminal 5 0 [lit "rsh"] (Shell PropertiesMain.ex_fresh [])) /\
  exists vs fm' held going, jruns ex_code 2 ex_items ex_machine [] [] vs fm' held going /\ Forall (allowed ex_code) vs /\ Forall (does_not_unset (lit "PS1")) vs /\
    map argv (started (core fm')) = map (map lit) [["vi"; "x"]; ["echo"; "a"; "1"]; ["false"]; ["ls"]; ["sort"]; ["less"; "1"]; ["vi"; "2"]; ["echo"; "b"; "2"]; ["less"; "y"]; ["ls"]]%string /\
    held = [3] /\ going = [3].
Proof.
  split; [reflexivity|]. split; [apply MainSpec.asks_bare|]. split; [exact ex_terminal_plain|].
  split; [exact ex_table|]. split; [exact ex_no_future|]. split; [exact ex_no_parameters|]. split; [exact ex_items_ok|]. split; [exact ex_items_promised|].
  pose proof ex_items_run as R. destruct (jrun ex_code 2 ex_items ex_machine [] []) as [[[[vs fm'] held] going]|] eqn:E; [|destruct R].
  destruct R as (R1 & R2 & R3 & R4 & R5). exists vs, fm', held, going. split; [apply jrun_runs, E|]. split; [apply all_allowed, R1|]. split; [apply none_unsets, R2|]. split; assumption.
Qed.
(** The same, without the program that is left: the jobs are the same as before. *)
Definition ex_returned : list item := ex_items ++ [Resumes (lit "3") 3].
Example C145_session_example :
  sget (lit "fg") (@nil (str * str)) = None /\ sget (lit "bg") (@nil (str * str)) = None /\ Forall (item_ok [] (fun _ => false)) ex_returned /\ promised ex_terminal ex_code 4 ex_returned ex_waiting /\
  fagrees [] (fun _ => false) (jobs_of ex_waiting) PropertiesMain.ex_fds false 0 ex_machine ex_waiting /\ CoreSpec.vars (core ex_machine) (lit "PS1") <> None /\
  exists vs fm', jruns ex_code 2 ex_returned ex_machine [] [] vs fm' [] [] /\ Forall (allowed ex_code) vs /\ Forall (does_not_unset (lit "PS1")) vs /\
    List.length (started (core fm')) = 10%nat.
Proof.
  split; [reflexivity|]. split; [reflexivity|]. split.
  { unfold ex_returned. apply Forall_app. split; [exact ex_items_ok|]. constructor; [|constructor].
    split; [exists (lit "3"), 3%N; repeat split; auto; discriminate|apply plain_written; a_word]. }
  split; [apply promised_b_true; vm_compute; reflexivity|]. split.
  { apply (waiting_agrees ex_terminal 5 0 [lit "rsh"] false (lit "/") (lit "1") (lit "2") ex_env PropertiesMain.ex_fds);
      [apply MainSpec.asks_bare|exact ex_terminal_plain|repeat constructor; intros []|exact ex_no_parameters|exact ex_table|exact ex_no_future|discriminate|discriminate]. }
  split; [discriminate|].
  assert (R : match jrun ex_code 2 ex_returned ex_machine [] [] with
    | Some (vs, fm', [], []) => forallb (allowed_b ex_code) vs = true /\ existsb (unsets_b (lit "PS1")) vs = false /\ List.length (started (core fm')) = 10%nat
    | _ => False end) by (vm_compute; repeat split).
  destruct (jrun ex_code 2 ex_returned ex_machine [] []) as [[[[vs fm'] [|? ?]] [|? ?]]|] eqn:E; try (destruct R; fail).
  destruct R as (R1 & R2 & R3). exists vs, fm'. split; [apply jrun_runs, E|]. split; [apply all_allowed, R1|]. split; [apply none_unsets, R2|exact R3].
Qed.

Print Assumptions C145_typed_partial.
Print Assumptions C145_session_partial.
