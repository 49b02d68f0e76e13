(** Job control (C34-C41, C43, C68). *)
From Verif Require Import Base BaseFacts Jobs JobsSpec JobsFacts JobsLaws JobsWait.
Local Open Scope Z_scope.

(** A few processes for the examples. *)
Definition cmd1 (name : str) : list str * str * str := ([name], name, name).
Definition ex_sleep := cmd1 (lit "sleep").
Definition ex_cat := cmd1 (lit "cat").
Definition ex_ls := cmd1 (lit "ls").
Definition ps4_default : option str := Some (lit "+ ").

(** [sleep &] is running as process 100. *)
Definition bg_sleep : list op := [OCreate [ex_sleep] true; OStart 1 0 100].
(** Then [cat | ls] is started as 101 and 102. *)
Definition fg_pipe : list op := bg_sleep ++ [OCreate [ex_cat; ex_ls] false; OStart 2 0 101; OStart 2 1 102].

(** * C34: a new job never replaces another *)

Theorem C34_unique os s cmds bg :
  run os jst0 = Some s ->
  (forall k j, nget k (job_table (jobs s)) = Some j -> job_id j = k) /\
  exists id j,
    1 <= id /\
    (forall k, live k (jobs s) -> k < id) /\
    step (OCreate cmds bg) s = Some (with_jobs (create_job (map new_process cmds) bg (jobs s)) s) /\
    (forall k, nget k (job_table (create_job (map new_process cmds) bg (jobs s))) =
               if Z.eqb k id then Some j else nget k (job_table (jobs s))) /\
    job_id j = id /\ processes j = map new_process cmds /\ background j = bg /\ state j = Running /\
    stop_status j = StillAlive /\
    current_job (create_job (map new_process cmds) bg (jobs s)) = Some id.
Proof.
  intros H. pose proof (reachable_basic _ _ H) as B. split; [apply (b_ids _ B)|].
  exists (next_job_id (jobs s)), (job_new (map new_process cmds) (next_job_id (jobs s)) bg).
  split; [apply (b_next1 _ B)|]. split; [intros k Hk; apply (b_next _ B) in Hk; lia|].
  split; [reflexivity|]. split; [|repeat split]. intros k. apply create_get. exact B.
Qed.

Example C34_example :
  exists s, run (fg_pipe ++ [OSig ps4_default [AStatus (Exited 100 0)]]) jst0 = Some s /\
    map fst (job_table (jobs s)) = [2] /\ next_job_id (jobs s) = 3.
Proof. eexists. split; [vm_compute; reflexivity|]. split; vm_compute; reflexivity. Qed.

(** * C35: deleting *)

Theorem C35_stopped_kept jc id j q ps p sg :
  nsorted (job_table jc) -> nget id (job_table jc) = Some j ->
  processes j = q :: ps -> p_status q = Some (Stopped p sg) ->
  exists j',
    (forall k, nget k (job_table (delete_job id jc)) = if Z.eqb k id then Some j' else nget k (job_table jc)) /\
    state j' = SStopped /\ stop_status j' = Stopped p sg /\ job_id j' = job_id j /\
    processes j' = processes j /\ background j' = background j /\
    (forall x, nget x (pid_to_job (delete_job id jc)) = nget x (pid_to_job jc)) /\
    (forall x, nget x (background_jobs (delete_job id jc)) = nget x (background_jobs jc)) /\
    next_job_id (delete_job id jc) = next_job_id jc.
Proof.
  intros Hs E Ep Eq.
  destruct (delete_job_deletion id jc) as [E'|j' E' Ep'|j' p0 ps' st E' Ep' Est Hst|j' p0 ps' E' Ep' Hp Hst];
    rewrite E in E'; try discriminate; injection E' as <-; rewrite Ep in Ep'; try discriminate;
    injection Ep' as <- <-.
  - rewrite Eq in Est. subst st. eexists. split.
    + intros k. cbn. rewrite nget_ninsert, nget_nremove by (apply nsorted_nremove; exact Hs).
      destruct (Z.eqb_spec k id) as [->|Hn]; reflexivity.
    + repeat split.
  - exfalso. apply (Hp p sg). exact Eq.
Qed.

(** A job that has never been reported as stopped is removed, and nothing else
    is.  Missing for the full statement: a job that was stopped once and whose
    processes have ended since (see [C35_removed_refuted]). *)
Theorem C35_removed_partial jc id j q ps :
  nsorted (job_table jc) -> nget id (job_table jc) = Some j -> processes j = q :: ps ->
  (forall p sg, p_status q <> Some (Stopped p sg)) -> (forall p sg, stop_status j <> Stopped p sg) ->
  (forall k, nget k (job_table (delete_job id jc)) = if Z.eqb k id then None else nget k (job_table jc)) /\
  (forall x, nget x (pid_to_job (delete_job id jc)) = if existsb (Z.eqb x) (map p_pid (processes j)) then None
                                                      else nget x (pid_to_job jc)) /\
  (forall x, nget x (background_jobs (delete_job id jc)) = if background j && Z.eqb x id then None
                                                           else nget x (background_jobs jc)) /\
  (forall k, live k (delete_job id jc) -> k < next_job_id (delete_job id jc)) /\
  (1 < next_job_id (delete_job id jc) -> live (next_job_id (delete_job id jc) - 1) (delete_job id jc)).
Proof.
  intros Hs E Ep Hq Hst0.
  destruct (delete_job_deletion id jc) as [E'|j' E' Ep'|j' p0 ps' st E' Ep' Est Hst|j' p0 ps' E' Ep' Hp Hst];
    rewrite E in E'; try discriminate; injection E' as <-; rewrite Ep in Ep'; try discriminate;
    injection Ep' as <- <-.
  - exfalso. destruct (p_status q) as [[| |a b| |]|] eqn:Es;
      try (destruct (stop_status j) as [| |a b| |]; cbn in *; subst st; try discriminate; exact (Hst0 _ _ eq_refl)).
    exact (Hq _ _ eq_refl).
  - split; [intros k; cbn; apply nget_nremove|]. split; [|split; [|split]].
    + intros x. cbn. rewrite nget_fold_remove.
      replace (existsb (Z.eqb x) (map p_pid (processes j))) with (existsb (fun q0 => Z.eqb (p_pid q0) x) (processes j)); [reflexivity|].
      clear. induction (processes j) as [|y l IH]; cbn; [reflexivity|]. rewrite IH, (Z.eqb_sym x). reflexivity.
    + intros x. cbn. destruct (background j); cbn; [apply nget_nremove|reflexivity].
    + intros k [j0 Hj0]. cbn in *. apply next_id_after_above; [apply nsorted_nremove; exact Hs|eauto].
    + cbn [next_job_id]. unfold live. cbn [job_table]. unfold next_id_after.
      destruct (nremove id (job_table jc)) as [|x t] eqn:Et; [lia|]. intros _.
      assert (Hne : x :: t <> []) by discriminate. destruct (exists_last Hne) as (a & [k0 j0] & Ea).
      assert (Hsr : nsorted (x :: t)) by (rewrite <- Et; apply nsorted_nremove; exact Hs).
      exists j0. rewrite Ea, last_last. cbn [fst]. replace (k0 + 1 - 1) with k0 by lia.
      apply nsorted_In_nget; [rewrite <- Ea; exact Hsr|]. apply in_or_app. right. left. reflexivity.
Qed.

Example C35_example :
  exists s s' j,
    run (bg_sleep ++ [OSig ps4_default [AStatus (Stopped 100 SIGTSTP)]]) jst0 = Some s /\
    nget 1 (job_table (jobs s)) = Some j /\ state j = SStopped /\
    run [ODelete 1] s = Some s' /\ map fst (job_table (jobs s')) = [1] /\
    exists s2, run (bg_sleep ++ [ODelete 1]) jst0 = Some s2 /\ job_table (jobs s2) = [].
Proof.
  eexists; eexists; eexists. split; [vm_compute; reflexivity|]. split; [vm_compute; reflexivity|].
  split; [vm_compute; reflexivity|]. split; [vm_compute; reflexivity|]. split; [vm_compute; reflexivity|].
  eexists. split; vm_compute; reflexivity.
Qed.

(** The full statement fails: [cat | ls &] is stopped, then both processes are
    killed, one after the other.  The job has no process left, none of its
    processes is stopped, and yet no deletion removes it. *)
Definition stale_stop : list op :=
  [OCreate [ex_cat; ex_ls] true; OStart 1 0 101; OStart 1 1 102;
   OSig ps4_default [AStatus (Stopped 101 SIGSTOP); AStatus (Stopped 102 SIGSTOP); AStatus StillAlive];
   OSig ps4_default [AStatus (Signaled 101 SIGKILL false); AStatus StillAlive];
   OSig ps4_default [AStatus (Signaled 102 SIGKILL false); AFail]].

Definition stale_end : jst :=
  match run stale_stop jst0 with Some s => s | None => jst0 end.

Theorem C35_removed_refuted :
  run_ok stale_stop jst0 /\ run stale_stop jst0 = Some stale_end /\
  exists j, nget 1 (job_table (jobs stale_end)) = Some j /\
    map p_status (processes j) = [Some (Signaled 101 SIGKILL false); Some (Signaled 102 SIGKILL false)] /\
    forall n, exists j', nget 1 (job_table (Nat.iter n (delete_job 1) (jobs stale_end))) = Some j' /\ state j' = SStopped.
Proof.
  split; [apply run_okb_ok; vm_compute; reflexivity|]. split; [vm_compute; reflexivity|].
  assert (Ed : delete_job 1 (jobs stale_end) = jobs stale_end) by (vm_compute; reflexivity).
  assert (Ej : exists j, nget 1 (job_table (jobs stale_end)) = Some j /\
     map p_status (processes j) = [Some (Signaled 101 SIGKILL false); Some (Signaled 102 SIGKILL false)] /\
     state j = SStopped).
  { eexists. split; [vm_compute; reflexivity|]. split; vm_compute; reflexivity. }
  destruct Ej as (j & Ej & Eps & Est). exists j. split; [exact Ej|]. split; [exact Eps|].
  revert Ed Ej. generalize (jobs stale_end) as jc. intros jc Ed Ej n. exists j. split; [|exact Est].
  assert (En : Nat.iter n (delete_job 1) jc = jc).
  { clear -Ed. induction n as [|n IH]; [reflexivity|].
    change (delete_job 1 (Nat.iter n (delete_job 1) jc) = jc). rewrite IH. exact Ed. }
  rewrite En. exact Ej.
Qed.

(** * C36: processes and jobs *)

Theorem C36_lookup os s p k :
  run_ok os jst0 -> run os jst0 = Some s -> p <> -1 ->
  (nget p (pid_to_job (jobs s)) = Some k <->
   exists j, nget k (job_table (jobs s)) = Some j /\ exists q, In q (processes j) /\ p_pid q = p).
Proof. intros Hok H Hp. apply (reachable_pids os s Hok H). exact Hp. Qed.

Theorem C36_find os s k j q :
  run_ok os jst0 -> run os jst0 = Some s ->
  nget k (job_table (jobs s)) = Some j -> In q (processes j) -> p_pid q <> -1 ->
  get_job_pid (p_pid q) (jobs s) = Some j.
Proof.
  intros Hok H Ej Hq Hp. unfold get_job_pid.
  assert (E : nget (p_pid q) (pid_to_job (jobs s)) = Some k).
  { apply (reachable_pids os s Hok H); [exact Hp|]. exists j. split; [exact Ej|]. exists q. auto. }
  rewrite E. exact Ej.
Qed.

(** After a removal none of the job's pids, not even -1, leads to a job. *)
Theorem C36_gone os s k j q :
  run_ok os jst0 -> run os jst0 = Some s ->
  nget k (job_table (jobs s)) = Some j -> In q (processes j) ->
  nget k (job_table (delete_job k (jobs s))) = None ->
  get_job_pid (p_pid q) (delete_job k (jobs s)) = None.
Proof.
  intros Hok H Ej Hq Hgone. unfold get_job_pid.
  destruct (delete_job_deletion k (jobs s)) as [E'|j' E' Ep'|j' p0 ps' st E' Ep' Est Hst|j' p0 ps' E' Ep' Hp Hst];
    rewrite Ej in E'; try discriminate; injection E' as <-.
  - rewrite Ep' in Hq. destruct Hq.
  - exfalso. cbn in Hgone. rewrite nget_ninsert, Z.eqb_refl in Hgone; [discriminate|].
    apply nsorted_nremove. apply (reachable_basic _ _ H).
  - cbn. rewrite nget_fold_remove.
    assert (Ex : existsb (fun q0 => Z.eqb (p_pid q0) (p_pid q)) (processes j) = true).
    { apply existsb_exists. exists q. split; [exact Hq|apply Z.eqb_refl]. }
    rewrite Ex. reflexivity.
Qed.

Example C36_example :
  exists s j, run fg_pipe jst0 = Some s /\ get_job_pid 102 (jobs s) = Some j /\ job_id j = 2 /\
    get_job_pid 102 (delete_job 2 (jobs s)) = None /\ get_job_pid 100 (delete_job 2 (jobs s)) <> None.
Proof.
  eexists; eexists. split; [vm_compute; reflexivity|]. split; [vm_compute; reflexivity|].
  split; [vm_compute; reflexivity|]. split; vm_compute; [reflexivity|discriminate].
Qed.

(** * C37: background marks *)

(** As long as no job changes between foreground and background and no
    background job is empty.  Missing: the two cases refuted below. *)
Theorem C37_marks_partial os s k :
  run_plain os jst0 -> run os jst0 = Some s ->
  (is_background_job k (jobs s) = true <->
   exists j, nget k (job_table (jobs s)) = Some j /\ background j = true).
Proof.
  intros Hp H. apply (run_marks os jst0 s basic_new marks_new Hp H).
Qed.

Example C37_example :
  exists s, run_plain fg_pipe jst0 /\ run fg_pipe jst0 = Some s /\
    is_background_job 1 (jobs s) = true /\ is_background_job 2 (jobs s) = false.
Proof.
  eexists. split; [cbn; repeat split; discriminate|]. split; [vm_compute; reflexivity|]. split; vm_compute; reflexivity.
Qed.

(** After [fg] the job still counts as a background job, and a foreground job
    sent to the background never does. *)
Theorem C37_marks_refuted :
  (exists s j, run (bg_sleep ++ [OSig ps4_default [AStatus (Stopped 100 SIGTTIN)]; OResume true (fun _ => true) 1]) jst0 = Some s /\
     nget 1 (job_table (jobs s)) = Some j /\ background j = false /\ is_background_job 1 (jobs s) = true) /\
  (exists s j, run [OCreate [ex_cat] false; OStart 1 0 100;
                    OWait ps4_default 1 [AStatus (Stopped 100 SIGTSTP); AStatus StillAlive]; ODelete 1;
                    OResume false (fun _ => true) 1] jst0 = Some s /\
     nget 1 (job_table (jobs s)) = Some j /\ background j = true /\ is_background_job 1 (jobs s) = false).
Proof.
  split; (eexists; eexists; split; [vm_compute; reflexivity|]; split; [vm_compute; reflexivity|];
          split; vm_compute; reflexivity).
Qed.

(** The question whether there are background jobs is answered the wrong way
    round, in every state. *)
Theorem C37_any_refuted jc : has_background_jobs jc = true <-> forall k, is_background_job k jc = false.
Proof.
  unfold has_background_jobs, is_background_job. destruct (background_jobs jc) as [|[k v] m]; cbn.
  - split; [reflexivity|reflexivity].
  - split; [discriminate|]. intros H. specialize (H k). rewrite Z.eqb_refl in H. discriminate.
Qed.

(** * C38: the current job *)

(** Asking for the current job goes well from one operation to the next as long
    as no job disappears.  Missing: see [C38_current_refuted]. *)
Theorem C38_current_partial os s o s' :
  run os jst0 = Some s -> get_current_job (jobs s) <> None -> step o s = Some s' ->
  (forall k, live k (jobs s) -> live k (jobs s')) ->
  get_current_job (jobs s') <> None.
Proof.
  intros H Hc Hst Hl. apply get_current_job_live. apply get_current_job_live in Hc.
  eapply step_current; eauto. eapply reachable_basic; eauto.
Qed.

Theorem C38_current_new os s cmds bg s' :
  run os jst0 = Some s -> step (OCreate cmds bg) s = Some s' ->
  exists j, get_current_job (jobs s') = Some (Some j) /\ processes j = map new_process cmds /\ background j = bg /\
    ~ live (job_id j) (jobs s).
Proof.
  intros H Hst. pose proof (reachable_basic _ _ H) as B. cbn in Hst. injection Hst as <-.
  exists (job_new (map new_process cmds) (next_job_id (jobs s)) bg). split; [|repeat split].
  - unfold get_current_job. cbn. rewrite nget_ninsert, Z.eqb_refl by apply B. reflexivity.
  - intros Hl. cbn in Hl. apply (b_next _ B) in Hl. lia.
Qed.

Example C38_example :
  exists s j, run fg_pipe jst0 = Some s /\ get_current_job (jobs s) = Some (Some j) /\ job_id j = 2.
Proof. eexists; eexists. split; [vm_compute; reflexivity|]. split; vm_compute; reflexivity. Qed.

(** As soon as the current job has ended the question crashes the shell. *)
Theorem C38_current_refuted :
  exists s, run [OCreate [ex_ls] false; OStart 1 0 100;
                 OWait ps4_default 1 [AStatus (Exited 100 0); AFail]] jst0 = Some s /\
    get_current_job (jobs s) = None.
Proof. eexists. split; vm_compute; reflexivity. Qed.

(** * C39: collecting a status *)

(** [waitpid] reports [w] about [p], possibly after some EINTR.  Exactly the
    processes with that pid get the status, in the job that has it, and that job
    becomes Stopped or Finished exactly when no process is left without a
    status.  The waiter goes on with the remaining answers. *)
Theorem C39_reap ps4 id n w p rest s r s' rest' :
  basic (jobs s) -> only_one_with p (job_table (jobs s)) -> event_of w p ->
  wait_one ps4 id (repeat AIntr n ++ AStatus w :: rest) s = WDone r s' rest' ->
  r = RPid p /\ rest' = rest /\
  (forall k, match nget k (job_table (jobs s)), nget k (job_table (jobs s')) with
             | Some j, Some j' => reap_job p w j j'
             | None, None => True
             | _, _ => False
             end) /\
  pid_to_job (jobs s') = pid_to_job (jobs s) /\ background_jobs (jobs s') = background_jobs (jobs s) /\
  next_job_id (jobs s') = next_job_id (jobs s) /\ masked s' = false /\ got_sigchld s' = false.
Proof.
  intros B Ho Hw. change (repeat AIntr n ++ AStatus w :: rest) with (intr n (AStatus w :: rest)).
  rewrite (wait_one_event ps4 id n w p rest s Hw).
  destruct (visit p w (job_table (jobs s))) as [[t found]|] eqn:Ev; [|discriminate]. cbv zeta.
  apply visit_some in Ev. pose proof (visited_reap _ _ _ _ _ Ev (b_sorted _ B) Ho) as R.
  set (jc := after_found found (put_table t (jobs s))).
  assert (Hjc : job_table jc = t /\ pid_to_job jc = pid_to_job (jobs s) /\ background_jobs jc = background_jobs (jobs s)
                /\ next_job_id jc = next_job_id (jobs s))
    by (unfold jc; destruct found as [[k []]|]; repeat split).
  clearbody jc. destruct Hjc as (H1 & H2 & H3 & H4).
  assert (G : forall m, forall k, match nget k (job_table (jobs s)), nget k (job_table (jobs (Jst jc false false m))) with
             | Some j, Some j' => reap_job p w j j'
             | None, None => True
             | _, _ => False
             end).
  { intros m k. cbn. rewrite H1. exact (R k). }
  assert (Hr : forall s1, jobs s1 = jc -> masked s1 = false -> got_sigchld s1 = false ->
    (if true then WDone (RPid p) s1 rest else WPanic) = WDone r s' rest' ->
    r = RPid p /\ rest' = rest /\
    (forall k, match nget k (job_table (jobs s)), nget k (job_table (jobs s')) with
               | Some j, Some j' => reap_job p w j j'
               | None, None => True
               | _, _ => False
               end) /\
    pid_to_job (jobs s') = pid_to_job (jobs s) /\ background_jobs (jobs s') = background_jobs (jobs s) /\
    next_job_id (jobs s') = next_job_id (jobs s) /\ masked s' = false /\ got_sigchld s' = false).
  { intros s1 E1 E2 E3 H. injection H as <- <- <-. rewrite E1. cbn [jobs] in G. specialize (G []).
    repeat split; auto. }
  destruct found as [[k st]|].
  - destruct (Z.eqb k id).
    + destruct (format_status ps4 w jc) as [[m|]|]; [| |discriminate]; apply Hr; reflexivity.
    + apply Hr; reflexivity.
  - apply Hr; reflexivity.
Qed.

(** In every history with system-assigned pids the hypotheses hold. *)
Corollary C39_reap_history os s p :
  run_ok os jst0 -> run os jst0 = Some s -> p <> -1 ->
  basic (jobs s) /\ only_one_with p (job_table (jobs s)).
Proof.
  intros Hok H Hp. split; [eapply reachable_basic; eauto|].
  pose proof (reachable_pids os s Hok H) as P. intros k k' j j' E E' [_ Hh] [_ Hh'].
  assert (K : nget p (pid_to_job (jobs s)) = Some k) by (apply P; eauto).
  assert (K' : nget p (pid_to_job (jobs s)) = Some k') by (apply P; eauto).
  congruence.
Qed.

(** The status the job itself carries is that of its first process. *)
Theorem C39_job_status ps4 id n w p rest s r s' rest' k j j' q :
  basic (jobs s) -> event_of w p ->
  wait_one ps4 id (repeat AIntr n ++ AStatus w :: rest) s = WDone r s' rest' ->
  first_with p (job_table (jobs s)) k j ->
  nget k (job_table (jobs s')) = Some j' -> hd_error (processes j') = Some q ->
  p_status q = Some (stop_status j') /\
  (state j' = SStopped -> state j <> SStopped -> current_job (jobs s') = Some k).
Proof.
  intros B Hw. change (repeat AIntr n ++ AStatus w :: rest) with (intr n (AStatus w :: rest)).
  rewrite (wait_one_event ps4 id n w p rest s Hw).
  destruct (visit p w (job_table (jobs s))) as [[t found]|] eqn:Ev; [|discriminate]. cbv zeta.
  apply visit_some in Ev. intros Hwait Hf Ej' Eq.
  pose proof (visited_first _ _ _ _ _ Ev (b_sorted _ B) (b_ids _ B)) as Vf.
  assert (Hfound : exists st, found = Some (k, st)).
  { destruct found as [[k0 st]|].
    - destruct Vf as (j0 & Hf0). exists st. rewrite (first_with_unique _ _ _ _ _ _ Hf0 Hf). reflexivity.
    - exfalso. destruct Hf as (E & Hu & Hp & _). apply (Vf k j E). auto. }
  destruct Hfound as [st ->]. clear Vf.
  assert (Ht : nget k t = Some j' /\ current_job (jobs s') = current_job (after_found (Some (k, st)) (put_table t (jobs s)))).
  { assert (G : forall s1, jobs s1 = after_found (Some (k, st)) (put_table t (jobs s)) -> s1 = s' ->
       nget k t = Some j' /\ current_job (jobs s') = current_job (after_found (Some (k, st)) (put_table t (jobs s)))).
    { intros s1 E1 ->. rewrite E1 in *. split; [|reflexivity]. destruct st; exact Ej'. }
    destruct (Z.eqb k id).
    - destruct (format_status _ _ _) as [[m|]|]; [| |discriminate]; injection Hwait as _ E _; (eapply G; [|exact E]); reflexivity.
    - injection Hwait as _ E _; (eapply G; [|exact E]); reflexivity. }
  destruct Ht as [Ht Hc]. clear Hwait Ej'.
  assert (V : exists w0, first_status (map (report p w) (processes j)) = Some w0 /\ j' = hit_job p w w0 j /\
                st = state_after (map (report p w) (processes j)) Finished).
  { destruct Hf as (E & Hu & Hp & Hm). pose proof (b_sorted _ B) as Hs. pose proof (b_ids _ B) as Hid.
    remember (Some (k, st)) as r0 eqn:Er.
    revert Hs Hid E Hm Ht Er. clear Hc. generalize (job_table (jobs s)) Ev. clear Ev. intros t0 Ev.
    induction Ev as [|k0 j0 t0 t' r0 Hf0 Hv IH|k0 j0 w0 t0 t' r0 Hu0 Hp0 Hf0 Hv IH|k0 j0 w0 t0 Hu0 Hp0 Hf0];
      intros Hs Hid E Hm Ht Er; [discriminate| | |].
    - cbn in E, Ht. destruct (Z.eqb_spec k k0) as [->|Hn].
      + injection E as <-. contradiction.
      + inversion Hs as [|? ? ? Hlt Hs']; subst. apply IH; auto.
        * intros a b Ha. apply Hid. cbn. destruct (Z.eqb_spec a k0) as [->|]; [|exact Ha].
          apply nget_In in Ha. rewrite Forall_forall in Hlt. apply Hlt in Ha. cbn in Ha. lia.
        * intros a b La Ha. apply (Hm a b La). cbn. destruct (Z.eqb_spec a k0) as [->|]; [|exact Ha].
          apply nget_In in Ha. rewrite Forall_forall in Hlt. apply Hlt in Ha. cbn in Ha. lia.
    - cbn in E, Ht. destruct (Z.eqb_spec k k0) as [->|Hn].
      + injection E as <-. contradiction.
      + inversion Hs as [|? ? ? Hlt Hs']; subst. apply IH; auto.
        * intros a b Ha. apply Hid. cbn. destruct (Z.eqb_spec a k0) as [->|]; [|exact Ha].
          apply nget_In in Ha. rewrite Forall_forall in Hlt. apply Hlt in Ha. cbn in Ha. lia.
        * intros a b La Ha. apply (Hm a b La). cbn. destruct (Z.eqb_spec a k0) as [->|]; [|exact Ha].
          apply nget_In in Ha. rewrite Forall_forall in Hlt. apply Hlt in Ha. cbn in Ha. lia.
    - assert (Ek : k = k0).
      { injection Er as Ek _. rewrite <- Ek. apply Hid. cbn. rewrite Z.eqb_refl. reflexivity. }
      subst k0. cbn in E, Ht. rewrite Z.eqb_refl in E, Ht. injection E as ->. injection Ht as <-.
      injection Er as _ Est. exists w0. auto. }
  destruct V as (w0 & Hw0 & -> & ->). cbn [processes hit_job stop_status state] in *.
  split.
  - destruct (map (report p w) (processes j)) as [|q0 l]; [discriminate|]. cbn in Eq, Hw0. congruence.
  - intros Hs Hn. rewrite Hc. rewrite state_after_finished in *.
    destruct (existsb no_status _); cbn in Hs; [contradiction|].
    destruct (existsb stoppedb _); cbn in Hs; [reflexivity|discriminate].
Qed.

Example C39_example :
  exists s s', run fg_pipe jst0 = Some s /\
    wait_one ps4_default 2 [AIntr; AStatus (Exited 100 3)] s = WDone (RPid 100) s' [] /\
    map (fun kj => (fst kj, state (snd kj), map p_status (processes (snd kj)))) (job_table (jobs s')) =
      [(1, Finished, [Some (Exited 100 3)]); (2, Running, [None; None])].
Proof. eexists; eexists. split; [vm_compute; reflexivity|]. split; vm_compute; reflexivity. Qed.

(** The SIGCHLD handler, for a process of a foreground job: only the status of
    that process changes; the job is left to the waiter. *)
Theorem C39_handler_foreground ps4 w p rest s id j :
  basic (jobs s) -> event_of w p -> nget p (pid_to_job (jobs s)) = Some id ->
  nget id (job_table (jobs s)) = Some j -> background j = false -> NoDup (map p_pid (processes j)) ->
  exists s', sig_chld ps4 (AStatus w :: rest) s = WDone tt s' rest /\
    (forall k, nget k (job_table (jobs s')) =
       if Z.eqb k id then Some (Job (map (report p w) (processes j)) (job_id j) (stop_status j) (state j) false (changed j))
       else nget k (job_table (jobs s))) /\
    pid_to_job (jobs s') = pid_to_job (jobs s) /\ background_jobs (jobs s') = background_jobs (jobs s) /\
    current_job (jobs s') = current_job (jobs s) /\
    got_sigchld s' = true /\ masked s' = masked s /\ printed s' = printed s.
Proof.
  intros B Hw Hp Hj Hb Hd.
  assert (E : sig_chld ps4 (AStatus w :: rest) s =
     WDone tt (with_jobs (put_job id (set_process_status p w j) (jobs s)) (with_sigchld true s)) rest).
  { unfold sig_chld. destruct Hw; cbn [jobs with_sigchld]; rewrite Hp; unfold get_job; rewrite Hj, Hb; reflexivity. }
  rewrite E. eexists. split; [reflexivity|]. split; [|repeat split].
  intros k. cbn [job_table jobs with_jobs put_job]. rewrite nget_ninsert by apply B.
  destruct (Z.eqb k id); [|reflexivity]. f_equal. unfold set_process_status, with_processes. rewrite Hb. f_equal.
  clear -Hd. induction (processes j) as [|q ps IH]; cbn; [reflexivity|].
  inversion Hd as [|? ? Hn Hd']; subst. unfold report at 1.
  destruct (Z.eqb_spec (p_pid q) p) as [Eq|Eq].
  - f_equal. symmetry. apply report_id. unfold has_pidb.
    destruct (existsb (fun q0 => Z.eqb (p_pid q0) p) ps) eqn:Ex; [|reflexivity].
    exfalso. apply Hn. apply existsb_exists in Ex as (y & Hy & Ey). apply Z.eqb_eq in Ey.
    rewrite Eq, <- Ey. apply in_map. exact Hy.
  - f_equal. apply IH. exact Hd'.
Qed.

(** A one-process background job: removed when the process ends, kept as
    Stopped when it stops, with a message unless it just exited. *)
Theorem C39_handler_background ps4 w p rest s id j q :
  basic (jobs s) -> event_of w p -> nget p (pid_to_job (jobs s)) = Some id ->
  nget id (job_table (jobs s)) = Some j -> background j = true -> processes j = [q] -> p_pid q = p ->
  exists s', sig_chld ps4 (AStatus w :: rest) s = WDone tt s' rest /\
    masked s' = masked s /\
    (forall k, k <> id -> nget k (job_table (jobs s')) = nget k (job_table (jobs s))) /\
    match w with
    | Stopped _ _ =>
        nget id (job_table (jobs s')) = Some (Job [report p w q] (job_id j) w SStopped true (changed j)) /\
        nget p (pid_to_job (jobs s')) = Some id /\
        printed s' = printed s ++ [lit "Job [" ++ Z_to_str id ++ lit "] (" ++ Z_to_str p ++ lit ") stopped by signal"]
    | Signaled _ _ _ =>
        nget id (job_table (jobs s')) = None /\ nget p (pid_to_job (jobs s')) = None /\
        is_background_job id (jobs s') = false /\
        printed s' = printed s ++ [lit "Job [" ++ Z_to_str id ++ lit "] (" ++ Z_to_str p ++ lit ") terminated by signal"]
    | _ =>
        nget id (job_table (jobs s')) = None /\ nget p (pid_to_job (jobs s')) = None /\
        is_background_job id (jobs s') = false /\ printed s' = printed s
    end.
Proof.
  intros B Hw Hp Hj Hb Eps Eq.
  pose proof (b_ids _ B id j Hj) as Hid.
  set (j1 := set_process_status p w j).
  set (jc1 := put_job id j1 (jobs s)).
  assert (Es : processes j1 = [report p w q]).
  { unfold j1, set_process_status. cbn. rewrite Eps. cbn. rewrite Eq, Z.eqb_refl. unfold report. rewrite Eq, Z.eqb_refl. unfold with_status. rewrite Eq. reflexivity. }
  set (jc2 := put_job id (with_state Finished (with_stop_status w j1)) jc1).
  assert (E1 : nget id (job_table jc1) = Some j1).
  { unfold jc1. cbn. rewrite nget_ninsert, Z.eqb_refl by apply B. reflexivity. }
  assert (S1 : nsorted (job_table jc1)) by (apply nsorted_ninsert, B).
  assert (S2 : nsorted (job_table jc2)) by (apply nsorted_ninsert; exact S1).
  assert (E2 : nget id (job_table jc2) = Some (with_state Finished (with_stop_status w j1))).
  { unfold jc2. cbn. rewrite nget_ninsert, Z.eqb_refl by exact S1. reflexivity. }
  assert (Ok2 : forall k, k <> id -> nget k (job_table jc2) = nget k (job_table (jobs s))).
  { intros k Hk. unfold jc2, jc1. cbn. rewrite !nget_ninsert by (try exact S1; apply B).
    destruct (Z.eqb_spec k id); [contradiction|reflexivity]. }
  set (msg := match w with
              | Signaled _ _ _ => [lit "Job [" ++ Z_to_str id ++ lit "] (" ++ Z_to_str p ++ lit ") terminated by signal"]
              | Stopped _ _ => [lit "Job [" ++ Z_to_str id ++ lit "] (" ++ Z_to_str p ++ lit ") stopped by signal"]
              | _ => []
              end).
  assert (Hsig : sig_chld ps4 (AStatus w :: rest) s =
     WDone tt (Jst (delete_job id jc2) (masked s) true (printed s ++ msg)) rest).
  { unfold sig_chld, msg. destruct Hw; cbn [jobs with_sigchld]; rewrite Hp; unfold get_job; rewrite Hj, Hb;
      unfold wait_for_job_sigchld, get_job;
      cbn [jobs with_jobs print]; fold j1; fold jc1; rewrite E1, Es; rewrite ?Hid; rewrite ?app_nil_r; reflexivity. }
  rewrite Hsig. eexists. split; [reflexivity|]. split; [reflexivity|].
  assert (Er : p_pid (report p w q) = p /\ p_status (report p w q) = Some w).
  { unfold report. rewrite Eq, Z.eqb_refl. split; reflexivity. }
  destruct Er as [Er1 Er2].
  assert (Epr : processes (with_state Finished (with_stop_status w j1)) = [report p w q]) by exact Es.
  cbn [jobs printed].
  assert (Hfresh : match w with Stopped _ _ => True | _ =>
    (forall a b, p_status (report p w q) <> Some (Stopped a b)) /\
    (forall a b, stop_status (with_state Finished (with_stop_status w j1)) <> Stopped a b) end).
  { destruct Hw; try exact I; split; intros a b; cbn; rewrite ?Er2; discriminate. }
  assert (Hrem : (match w with Stopped _ _ => False | _ => True end) ->
    (forall k, nget k (job_table (delete_job id jc2)) = if Z.eqb k id then None else nget k (job_table jc2)) /\
    nget p (pid_to_job (delete_job id jc2)) = None /\ is_background_job id (delete_job id jc2) = false).
  { intros Hns.
    assert (Hfr : (forall a b, p_status (report p w q) <> Some (Stopped a b)) /\
       (forall a b, stop_status (with_state Finished (with_stop_status w j1)) <> Stopped a b))
      by (destruct w; [exact Hfresh|exact Hfresh|contradiction|exact Hfresh|exact Hfresh]).
    destruct (C35_removed_partial jc2 id _ _ _ S2 E2 Epr (proj1 Hfr) (proj2 Hfr)) as (R1 & R2 & R3 & _).
    split; [exact R1|]. split.
    - rewrite R2, Epr. cbn. rewrite Er1, Z.eqb_refl. reflexivity.
    - unfold is_background_job. rewrite R3. cbn. rewrite Hb. cbn. rewrite Z.eqb_refl. reflexivity. }
  destruct Hw as [p c|p sg d|p sg].
  - destruct (Hrem I) as (R1 & R2 & R3). split; [|split; [|split; [|split]]]; auto.
    + intros k Hk. rewrite R1. destruct (Z.eqb_spec k id); [contradiction|]. auto.
    + rewrite R1, Z.eqb_refl. reflexivity.
    + unfold msg. apply app_nil_r.
  - destruct (Hrem I) as (R1 & R2 & R3). split; [|split; [|split; [|split]]]; auto.
    + intros k Hk. rewrite R1. destruct (Z.eqb_spec k id); [contradiction|]. auto.
    + rewrite R1, Z.eqb_refl. reflexivity.
  - destruct (delete_job_deletion id jc2) as [E'|j' E' Ep'|j' p0 ps' st E' Ep' Est Hst|j' p0 ps' E' Ep' Hnp Hst];
      rewrite E2 in E'; try discriminate; injection E' as <-; rewrite Epr in Ep'; try discriminate;
      injection Ep' as <- <-.
    + rewrite Er2 in Est. subst st. cbn [job_table put_table pid_to_job]. split; [|split; [|split]].
      * intros k Hk. rewrite nget_ninsert, nget_nremove by (apply nsorted_nremove; exact S2).
        destruct (Z.eqb_spec k id); [contradiction|]. auto.
      * rewrite nget_ninsert, Z.eqb_refl by (apply nsorted_nremove; exact S2). rewrite Epr. f_equal.
        cbn. rewrite Hb. reflexivity.
      * exact Hp.
      * reflexivity.
Qed.

Example C39_handler_example :
  exists s, run (bg_sleep ++ [OSig ps4_default [AStatus (Signaled 100 SIGTERM false)]]) jst0 = Some s /\
    job_table (jobs s) = [] /\ printed s = [lit "Job [1] (100) terminated by signal"].
Proof. eexists. split; [vm_compute; reflexivity|]. split; vm_compute; reflexivity. Qed.

(** * C40: when collecting a status crashes *)

(** Exactly two ways: an unfinished job that is looked at before the process is
    found has nothing to report about its first process (src/jobs.rs:537), or a
    message is due and PS4 is not set (src/jobs.rs:686,699). *)
Theorem C40_crash_exact ps4 id n w p rest s :
  basic (jobs s) -> event_of w p ->
  (wait_one ps4 id (repeat AIntr n ++ AStatus w :: rest) s = WPanic <->
   (exists k j, trips p (job_table (jobs s)) k j) \/
   (ps4 = None /\ (forall c, w <> Exited p c) /\ get_job_pid p (jobs s) <> None /\
    exists j, first_with p (job_table (jobs s)) id j)).
Proof.
  intros B Hw. change (repeat AIntr n ++ AStatus w :: rest) with (intr n (AStatus w :: rest)).
  rewrite (wait_one_event ps4 id n w p rest s Hw).
  rewrite <- (visit_none_trips p w _ (b_sorted _ B)).
  destruct (visit p w (job_table (jobs s))) as [[t found]|] eqn:Ev; [|tauto]. cbv zeta.
  apply visit_some in Ev. pose proof (visited_first _ _ _ _ _ Ev (b_sorted _ B) (b_ids _ B)) as Vf.
  pose proof (visited_jobs _ _ _ _ _ Ev) as Vj.
  set (jc := after_found found (put_table t (jobs s))).
  assert (Hjc : get_job_pid p jc = None <-> get_job_pid p (jobs s) = None).
  { assert (E : pid_to_job jc = pid_to_job (jobs s) /\ job_table jc = t) by (unfold jc; destruct found as [[k []]|]; split; reflexivity).
    destruct E as [E1 E2]. unfold get_job_pid. rewrite E1, E2. destruct (nget p (pid_to_job (jobs s))) as [k|]; [|tauto].
    specialize (Vj k). destruct (nget k (job_table (jobs s))), (nget k t); cbn in Vj; try contradiction; split; congruence. }
  clearbody jc.
  assert (Fmt : format_status ps4 w jc = None <-> ps4 = None /\ (forall c, w <> Exited p c) /\ get_job_pid p (jobs s) <> None).
  { destruct Hw as [p c|p sg d|p sg]; cbn [format_status].
    - split; [discriminate|]. intros (_ & H & _). destruct (H c eq_refl).
    - destruct (get_job_pid p jc) as [j|] eqn:Eg.
      + assert (get_job_pid p (jobs s) <> None) by (intros F; apply Hjc in F; congruence).
        destruct ps4; split; intros H'; try discriminate; [destruct H'; discriminate| |reflexivity].
        repeat split; [discriminate|assumption].
      + split; [discriminate|]. intros (_ & _ & H). destruct H. apply Hjc. reflexivity.
    - destruct (get_job_pid p jc) as [j|] eqn:Eg.
      + assert (get_job_pid p (jobs s) <> None) by (intros F; apply Hjc in F; congruence).
        destruct ps4; split; intros H'; try discriminate; [destruct H'; discriminate| |reflexivity].
        repeat split; [discriminate|assumption].
      + split; [discriminate|]. intros (_ & _ & H). destruct H. apply Hjc. reflexivity. }
  destruct found as [[k st]|].
  - destruct Vf as (j0 & Hf). destruct (Z.eqb_spec k id) as [->|Hn].
    + destruct (format_status ps4 w jc) as [m|] eqn:Ef.
      * split; [destruct m; discriminate|]. intros [H|(H1 & H2 & H3 & _)]; [discriminate|].
        assert (Some m = None) by (apply Fmt; auto). discriminate.
      * split; [intros _|reflexivity]. right. destruct (proj1 Fmt eq_refl) as (H1 & H2 & H3). eauto 10.
    + split; [discriminate|]. intros [H|(_ & _ & _ & j1 & Hf1)]; [discriminate|].
      exfalso. apply Hn. eapply first_with_unique; eauto.
  - split; [discriminate|]. intros [H|(_ & _ & _ & j1 & E & Hu & Hh & _)]; [discriminate|].
    exfalso. apply (Vf id j1 E). auto.
Qed.

(** What is left of the property: with PS4 set, when every other unfinished job
    has already reported something about its first process, and the status is
    about the first process of the waited job, nothing crashes. *)
Theorem C40_no_crash_partial v id n w p rest s :
  basic (jobs s) -> event_of w p ->
  (forall k j, nget k (job_table (jobs s)) = Some j -> unfinished j ->
     exists q ps, processes j = q :: ps /\ (p_pid q = p \/ p_status q <> None)) ->
  wait_one (Some v) id (repeat AIntr n ++ AStatus w :: rest) s <> WPanic.
Proof.
  intros B Hw Hall Hp. apply (C40_crash_exact (Some v) id n w p rest s B Hw) in Hp.
  destruct Hp as [(k & j & E & Hu & Hn & _)|(F & _)]; [|discriminate].
  destruct (Hall k j E Hu) as (q & ps & Eps & Hq). unfold nothing_first in Hn. rewrite Eps in Hn. tauto.
Qed.

Example C40_example :
  exists s, run [OCreate [ex_cat; ex_ls] false; OStart 1 0 101; OStart 1 1 102] jst0 = Some s /\
    wait_one ps4_default 1 [AStatus (Exited 101 0)] s <> WPanic /\
    wait_one ps4_default 1 [AStatus (Exited 102 0)] s = WPanic.
Proof. eexists. split; [vm_compute; reflexivity|]. split; vm_compute; [discriminate|reflexivity]. Qed.

(** A foreground command crashes the shell whenever a background job is still
    running; so does a pipeline whose second command ends first. *)
Theorem C40_crash_refuted :
  (exists s, run (bg_sleep ++ [OCreate [ex_ls] false; OStart 2 0 101]) jst0 = Some s /\
     wait_for_job ps4_default 2 [AStatus (Exited 101 0); AStatus StillAlive] s = WPanic) /\
  (exists s, run [OCreate [ex_cat; ex_ls] false; OStart 1 0 101; OStart 1 1 102] jst0 = Some s /\
     wait_for_job ps4_default 1 [AStatus (Exited 102 0); AStatus (Exited 101 0); AFail] s = WPanic).
Proof. split; (eexists; split; [vm_compute; reflexivity|]; vm_compute; reflexivity). Qed.

(** In general: while a started background process has reported nothing, no
    event of a later job can be collected. *)
Theorem C40_background_refuted ps4 id n w p rest s k j q ps :
  basic (jobs s) -> event_of w p ->
  nget k (job_table (jobs s)) = Some j -> unfinished j -> processes j = q :: ps -> p_pid q <> p -> p_status q = None ->
  (forall k' j', k' < k -> nget k' (job_table (jobs s)) = Some j' -> ~ (unfinished j' /\ has_pid p j')) ->
  wait_one ps4 id (repeat AIntr n ++ AStatus w :: rest) s = WPanic.
Proof.
  intros B Hw E Hu Ep Hq Es Hm. apply (C40_crash_exact ps4 id n w p rest s B Hw). left. exists k, j.
  split; [exact E|]. split; [exact Hu|]. split; [|exact Hm]. unfold nothing_first. rewrite Ep. auto.
Qed.

(** * C41: how long a foreground job is waited for *)

(** A job alone in the shell whose processes have reported nothing: the wait
    returns only with a status of its first process.  [waitpid] blocks, so its
    first answer (after EINTRs) is an event.  Missing for the full statement:
    the other processes. *)
Theorem C41_first_partial ps4 id n w p rest s st s' rest' j q ps :
  basic (jobs s) -> event_of w p ->
  nget id (job_table (jobs s)) = Some j -> state j = Running ->
  processes j = q :: ps -> p_pid q <> -1 -> p_status q = None ->
  (forall k j', nget k (job_table (jobs s)) = Some j' -> k <> id -> ~ unfinished j') ->
  wait_for_job ps4 id (repeat AIntr n ++ AStatus w :: rest) s = WDone st s' rest' ->
  event_of st (p_pid q) /\ p = p_pid q.
Proof.
  intros B Hw E Hr Ep Hpid Es Hothers.
  assert (Hu : unfinished j) by (unfold unfinished; intros [F|F]; congruence).
  change (repeat AIntr n ++ AStatus w :: rest) with (intr n (AStatus w :: rest)).
  unfold wait_for_job, do_wait, get_job. rewrite E, Hr. cbn [state_eqb negb andb].
  assert (Hone : forall r s1 r1, wait_one ps4 id (intr n (AStatus w :: rest)) s = WDone r s1 r1 ->
            p = p_pid q /\ r = RPid p /\ first_done id (p_pid q) s1).
  { intros r s1 r1 H1.
    assert (Hp : p = p_pid q).
    { destruct (Z.eq_dec (p_pid q) p) as [Hd|Hd]; [auto|]. exfalso.
      assert (F : wait_one ps4 id (intr n (AStatus w :: rest)) s = WPanic); [|congruence].
      apply (C40_background_refuted ps4 id n w p rest s id j q ps); auto.
      intros k' j' Lk Ek [Hu' _]. apply (Hothers k' j' Ek); [lia|exact Hu']. }
    split; [exact Hp|].
    assert (Hone : only_one_with p (job_table (jobs s))).
    { intros a b x y Ha Hb [Hx _] [Hy _].
      destruct (Z.eq_dec a id) as [->|Na]; [|destruct (Hothers a x Ha Na Hx)].
      destruct (Z.eq_dec b id) as [->|Nb]; [reflexivity|destruct (Hothers b y Hb Nb Hy)]. }
    destruct (C39_reap ps4 id n w p rest s r s1 r1 B Hone Hw H1) as (Hr1 & _ & Hreap & _).
    split; [exact Hr1|].
    specialize (Hreap id). rewrite E in Hreap. destruct (nget id (job_table (jobs s1))) as [j'|] eqn:E'; [|contradiction].
    assert (Hhas : has_pid p j) by (exists q; rewrite Ep; split; [left; reflexivity|auto]).
    destruct Hreap as (_ & _ & Hy & _). destruct (Hy (conj Hu Hhas)) as (Hps & _).
    assert (Hfw : first_with p (job_table (jobs s)) id j).
    { split; [exact E|]. split; [exact Hu|]. split; [exact Hhas|].
      intros k' j0 Lk Ek [Hu' _]. apply (Hothers k' j0 Ek); [lia|exact Hu']. }
    assert (Hhd : hd_error (processes j') = Some (report p w q)) by (rewrite Hps, Ep; reflexivity).
    destruct (C39_job_status ps4 id n w p rest s r s1 r1 id j j' _ B Hw H1 Hfw E' Hhd) as [Hst _].
    assert (Hrq : p_status (report p w q) = Some w) by (unfold report; rewrite Hp, Z.eqb_refl; reflexivity).
    exists j', (report p w q), (map (report p w) ps), w. rewrite report_pid.
    split; [exact E'|]. split; [rewrite Hps, Ep; reflexivity|]. split; [reflexivity|].
    split; [exact Hrq|]. split; [rewrite <- Hp; exact Hw|]. congruence. }
  cbn [wait_loop].
  destruct (wait_one ps4 id (intr n (AStatus w :: rest)) s) as [r1 s1 rest1| |] eqn:E1; try discriminate.
  destruct (Hone r1 s1 rest1 eq_refl) as (Hp & -> & F).
  destruct (wait_loop ps4 _ id rest1 s1) as [[] s2 rest2| |] eqn:E2; try discriminate.
  pose proof (wait_loop_first_done _ _ _ _ _ _ _ _ Hpid F E2) as (j' & q' & ps' & v' & H1 & H2 & H3 & H4 & H5 & H6).
  rewrite H1. intros H. split; [|exact Hp].
  destruct (state_eqb (state j') Finished || is_exited (stop_status j')); injection H as <- _ _; congruence.
Qed.

(** A single command is waited for completely if every other job is finished or
    stopped: it is removed if it has terminated and kept if it has stopped, and the
    other jobs are as before. *)
Theorem C41_single_partial v id n w m a rest s j q :
  basic (jobs s) -> event_of w (p_pid q) ->
  nget id (job_table (jobs s)) = Some j -> state j = Running -> processes j = [q] ->
  (forall k j', nget k (job_table (jobs s)) = Some j' -> k <> id -> at_rest (p_pid q) j') ->
  a = AFail \/ a = AStatus StillAlive ->
  exists s', wait_for_job (Some v) id (repeat AIntr n ++ AStatus w :: repeat AIntr m ++ a :: rest) s = WDone w s' rest /\
    (forall k, k <> id -> nget k (job_table (jobs s')) = nget k (job_table (jobs s))) /\
    match w with
    | Stopped _ _ =>
        nget id (job_table (jobs s')) = Some (Job [report (p_pid q) w q] (job_id j) w SStopped (background j) true) /\
        current_job (jobs s') = Some id
    | _ => nget id (job_table (jobs s')) = None /\ masked s' = false
    end.
Proof.
  intros B Hw E Hr Ep Hothers Ha. set (p := p_pid q) in *.
  assert (Hu : unfinished j) by (unfold unfinished; intros [F|F]; congruence).
  assert (Hid : job_id j = id) by (apply (b_ids _ B); exact E).
  (* the table after the first event *)
  assert (V : visit p w (job_table (jobs s)) =
     Some (ninsert id (hit_job p w w j) (job_table (jobs s)), Some (id, match w with Stopped _ _ => SStopped | _ => Finished end))).
  { pose proof (b_sorted _ B) as Hs. revert Hs E Hothers. generalize (job_table (jobs s)) as t.
    induction t as [|[k0 j0] t IH]; intros Hs E Ho; [discriminate|].
    inversion Hs as [|? ? ? Hlt Hs']; subst k m0 v0. cbn [nget] in E. cbn [visit ninsert].
    destruct (Z.eqb_spec id k0) as [<-|Hn].
    - injection E as ->. rewrite (proj1 (looks_spec j) Hu). rewrite scan_eq, Ep. cbn [map].
      assert (Hrq : p_status (report p w q) = Some w) by (unfold report; fold p; rewrite Z.eqb_refl; reflexivity).
      rewrite Hrq. cbn [has_pidb existsb orb]. fold p. rewrite Z.eqb_refl. cbn [orb].
      rewrite Z.ltb_irrefl. rewrite Hid.
      assert (Hsa : state_after [report p w q] Finished = match w with Stopped _ _ => SStopped | _ => Finished end).
      { rewrite state_after_finished. cbn [existsb]. unfold no_status, stoppedb. rewrite Hrq. destruct Hw; reflexivity. }
      assert (Hh : hit_job p w w j =
                   (if state_eqb (state_after [report p w q] Finished) Running
                    then with_stop_status w (with_processes [report p w q] j)
                    else with_state (state_after [report p w q] Finished)
                           (with_changed true (with_stop_status w (with_processes [report p w q] j))))).
      { unfold hit_job. rewrite Ep. cbn [map]. destruct (state_eqb _ Running); reflexivity. }
      rewrite Hh, Hsa. reflexivity.
    - assert (L : k0 < id). { apply nget_In in E. rewrite Forall_forall in Hlt. apply Hlt in E. exact E. }
      rewrite IH.
      + destruct (Z.ltb_spec id k0); [lia|].
        destruct (borrowed j0 || state_eqb (state j0) Finished) eqn:Ef; [reflexivity|].
        destruct (Ho k0 j0) as [Hf0|(q0 & ps0 & Eq & Es & Hnp)]; [cbn; rewrite Z.eqb_refl; reflexivity|congruence| |].
        * apply looks_spec in Ef. contradiction.
        * apply has_pidb_false in Hnp. fold p in Hnp. rewrite scan_eq, (report_id p w _ Hnp), Hnp, Eq. cbn [orb]. rewrite Es.
          rewrite <- Eq. destruct j0; reflexivity.
      + exact Hs'.
      + exact E.
      + intros k1 j1 E1. apply Ho. cbn. destruct (Z.eqb_spec k1 k0) as [->|]; [|exact E1].
        apply nget_In in E1. rewrite Forall_forall in Hlt. apply Hlt in E1. cbn in E1. lia. }
  set (t1 := ninsert id (hit_job p w w j) (job_table (jobs s))) in *.
  assert (S1 : nsorted t1) by (apply nsorted_ninsert, B).
  assert (G1 : forall k, nget k t1 = if Z.eqb k id then Some (hit_job p w w j) else nget k (job_table (jobs s)))
    by (intros k; apply nget_ninsert, B).
  set (jc1 := after_found (Some (id, match w with Stopped _ _ => SStopped | _ => Finished end)) (put_table t1 (jobs s))).
  assert (One : exists msgs, wait_one (Some v) id (repeat AIntr n ++ AStatus w :: repeat AIntr m ++ a :: rest) s =
            WDone (RPid p) (Jst jc1 false false msgs) (intr m (a :: rest))).
  { change (repeat AIntr n ++ AStatus w :: repeat AIntr m ++ a :: rest) with (intr n (AStatus w :: intr m (a :: rest))).
    rewrite (wait_one_event (Some v) id n w p _ s Hw). rewrite V. cbv zeta. rewrite Z.eqb_refl. fold jc1.
    assert (Hnp : format_status (Some v) w jc1 <> None).
    { destruct Hw; cbn [format_status]; [discriminate| |]; destruct (get_job_pid p jc1); discriminate. }
    destruct (format_status (Some v) w jc1) as [[t|]|]; [| |contradiction]; eexists; reflexivity. }
  destruct One as [msgs One].
  assert (Two : forall ss, wait_one (Some v) id (intr m (a :: rest)) ss =
     WDone (match a with AFail => RFail | _ => RNone end)
           (Jst (jobs ss) (match a with AFail => true | _ => false end) false (printed ss)) rest).
  { intros ss. unfold wait_one. rewrite wait_process_intr. destruct Ha as [->| ->]; reflexivity. }
  assert (T1 : job_table jc1 = t1) by (unfold jc1; destruct w; reflexivity).
  set (s2 := Jst jc1 (match a with AFail => true | _ => false end) false msgs).
  assert (Wait : do_wait (Some v) id (repeat AIntr n ++ AStatus w :: repeat AIntr m ++ a :: rest) s = WDone tt s2 rest).
  { unfold do_wait, get_job. rewrite E, Hr. cbn [state_eqb negb andb].
    set (fuel := List.length (repeat AIntr n ++ AStatus w :: repeat AIntr m ++ a :: rest)).
    assert (Hf : exists f, fuel = S f).
    { unfold fuel. rewrite app_length. cbn. rewrite Nat.add_succ_r. eauto. }
    destruct Hf as [f ->]. cbn [wait_loop]. rewrite One. rewrite Two. unfold s2.
    destruct Ha as [->| ->]; reflexivity. }
  unfold wait_for_job. rewrite Wait. unfold get_job. cbn [jobs s2].
  assert (Gid : nget id (job_table jc1) = Some (hit_job p w w j)) by (rewrite T1, G1, Z.eqb_refl; reflexivity).
  rewrite Gid. cbn [stop_status hit_job].
  assert (Hst : state (hit_job p w w j) = match w with Stopped _ _ => SStopped | _ => Finished end /\
                changed (hit_job p w w j) = true /\ processes (hit_job p w w j) = [report p w q]).
  { unfold hit_job. rewrite Ep. cbn [map]. rewrite state_after_finished. cbn [existsb state changed processes].
    assert (Hrq : p_status (report p w q) = Some w) by (unfold report; fold p; rewrite Z.eqb_refl; reflexivity).
    unfold no_status, stoppedb. rewrite Hrq. destruct Hw; repeat split. }
  destruct Hst as (Hst & Hch & Hps). rewrite Hst.
  assert (Hrq : p_status (report p w q) = Some w) by (unfold report; fold p; rewrite Z.eqb_refl; reflexivity).
  assert (Hgo : (match w with Stopped _ _ => False | _ => True end) ->
     (forall k, nget k (job_table (delete_job id jc1)) = if Z.eqb k id then None else nget k (job_table jc1))).
  { intros Hns. refine (proj1 (C35_removed_partial jc1 id _ (report p w q) [] _ Gid Hps _ _)).
    - rewrite T1; exact S1.
    - intros x y F. rewrite Hrq in F. injection F as ->. exact Hns.
    - intros x y F. cbn in F. subst w. exact Hns. }
  destruct w as [x c|x sg d|x sg|x|]; cbn [state_eqb is_exited orb]; try (exfalso; inversion Hw; fail).
  - eexists. split; [reflexivity|]. cbn [jobs shell_delete_job with_masked with_jobs masked].
    split; [|split; [|reflexivity]].
    + intros k Hk. rewrite (Hgo I). rewrite T1, G1. destruct (Z.eqb_spec k id); [contradiction|reflexivity].
    + rewrite (Hgo I), Z.eqb_refl. reflexivity.
  - eexists. split; [reflexivity|]. cbn [jobs shell_delete_job with_masked with_jobs masked].
    split; [|split; [|reflexivity]].
    + intros k Hk. rewrite (Hgo I). rewrite T1, G1. destruct (Z.eqb_spec k id); [contradiction|reflexivity].
    + rewrite (Hgo I), Z.eqb_refl. reflexivity.
  - eexists. split; [reflexivity|]. cbn [jobs]. split; [|split].
    + intros k Hk. unfold s2. cbn [jobs]. rewrite T1, G1. destruct (Z.eqb_spec k id); [contradiction|reflexivity].
    + unfold s2. cbn [jobs]. rewrite Gid. f_equal. rewrite <- Hps.
      destruct (hit_job p (Stopped x sg) (Stopped x sg) j) as [a1 a2 a3 a4 a5 a6] eqn:Eh.
      cbn in Hst, Hch. cbn [processes].
      assert (a2 = job_id j /\ a3 = Stopped x sg /\ a5 = background j) by (unfold hit_job in Eh; injection Eh; auto).
      intuition congruence.
    + reflexivity.
Qed.

Example C41_example :
  exists s s' rest, run [OCreate [ex_ls] false; OStart 1 0 101] jst0 = Some s /\
    wait_for_job ps4_default 1 [AStatus (Exited 101 7); AFail] s = WDone (Exited 101 7) s' rest /\
    job_table (jobs s') = [].
Proof. do 3 eexists. split; [vm_compute; reflexivity|]. split; vm_compute; reflexivity. Qed.

(** The first command of a pipeline ends while the second is still running: the
    wait returns and the job is gone.  And a single foreground command is no
    longer waited for once a background job has ended: the wait returns without
    any status, the caller then deletes the job (src/eval.rs:274). *)
Theorem C41_complete_refuted :
  (exists s s' rest,
     run [OCreate [ex_cat; ex_ls] false; OStart 1 0 101; OStart 1 1 102] jst0 = Some s /\
     wait_for_job ps4_default 1 [AStatus (Exited 101 0); AStatus StillAlive] s = WDone (Exited 101 0) s' rest /\
     job_table (jobs s') = []) /\
  (exists s s' rest j,
     run (bg_sleep ++ [OCreate [ex_ls] false; OStart 2 0 101]) jst0 = Some s /\
     wait_for_job ps4_default 2 [AStatus (Exited 100 0); AStatus StillAlive] s = WDone StillAlive s' rest /\
     nget 2 (job_table (jobs s')) = Some j /\ state j = Running /\ map p_status (processes j) = [None] /\
     nget 2 (job_table (delete_job 2 (jobs s'))) = None).
Proof.
  split.
  - do 3 eexists. split; [vm_compute; reflexivity|]. split; vm_compute; reflexivity.
  - do 4 eexists. split; [vm_compute; reflexivity|]. split; [vm_compute; reflexivity|].
    split; [vm_compute; reflexivity|]. split; [vm_compute; reflexivity|]. split; vm_compute; reflexivity.
Qed.

(** * C43: the job list *)

(** The text made for the job list, when the processes of each job have distinct
    pids.  Missing: the list is never printed, see [C43_jobs_refuted]. *)
Theorem C43_listing_partial os s ps4 :
  run os jst0 = Some s ->
  (forall k j, nget k (job_table (jobs s)) = Some j -> NoDup (map p_pid (processes j))) ->
  table_text ps4 (job_table (jobs s)) = List.concat (map (fun kj => job_line ps4 (snd kj)) (job_table (jobs s))) /\
  nsorted (job_table (jobs s)) /\
  (forall k j, In (k, j) (job_table (jobs s)) <-> nget k (job_table (jobs s)) = Some j).
Proof.
  intros H Hd. pose proof (reachable_basic _ _ H) as B. split; [|split; [apply B|]].
  - unfold table_text. f_equal. apply map_ext_in. intros [k j] Hin. cbn [fst snd].
    pose proof (nsorted_In_nget k j _ (b_sorted _ B) Hin) as G.
    unfold job_line, job_text. rewrite (b_ids _ B k j G).
    rewrite (commands_text_join _ (Hd k j G)), state_text_word. rewrite <- !app_assoc. reflexivity.
  - intros k j. split; [apply nsorted_In_nget, B|apply nget_In].
Qed.

Example C43_example :
  exists s, run fg_pipe jst0 = Some s /\
    table_text (lit "+ ") (job_table (jobs s)) =
      lit "[1] + Running sleep &" ++ [10%N] ++ lit "[2] + Running cat | ls" ++ [10%N].
Proof. eexists. split; vm_compute; reflexivity. Qed.

(** The command [jobs] prints the list if it is empty and crashes otherwise. *)
Theorem C43_jobs_refuted jc : display_jobs jc = Some [] <-> forall k, ~ live k jc.
Proof.
  unfold display_jobs, live. destruct (job_table jc) as [|[k j] t]; split; intros H.
  - intros k [j Hj]. discriminate.
  - reflexivity.
  - discriminate.
  - exfalso. apply (H k). exists j. cbn. rewrite Z.eqb_refl. reflexivity.
Qed.

(** And two processes without a pid run into each other. *)
Theorem C43_same_pid_refuted :
  table_text (lit "+ ") (job_table (create_job [new_process ex_cat; new_process ex_ls] false jc_new)) =
  lit "[1] + Running catls" ++ [10%N].
Proof. vm_compute. reflexivity. Qed.

(** * C68: a job with a stopped process is not forgotten *)

(** Proved for the first process ([C35_stopped_kept]).  In [cat | ls] with [cat]
    ended and [ls] stopped the job is dropped, and [fg] cannot reach it. *)
Theorem C68_stopped_pipeline_refuted :
  exists s s' rest st,
    run [OCreate [ex_cat; ex_ls] false; OStart 1 0 101; OStart 1 1 102] jst0 = Some s /\
    wait_for_job ps4_default 1 [AStatus (Exited 101 0); AStatus (Stopped 102 SIGTSTP); AStatus StillAlive] s
      = WDone st s' rest /\
    st = Exited 101 0 /\ job_table (jobs s') = [] /\ get_job_pid 102 (jobs s') = None.
Proof.
  do 4 eexists. split; [vm_compute; reflexivity|]. split; [vm_compute; reflexivity|].
  split; [reflexivity|]. split; vm_compute; reflexivity.
Qed.

(** * C69: reports about the waited job *)

(** What is said about a stopped or killed process of the job waited for. *)
Definition report_line (ps4 : str) (j : job) (sg : signal) (core : bool) : str :=
  lit "[" ++ Z_to_str (job_id j) ++ lit "] " ++ ps4 ++ [9; 9]%N ++ state_word (state j) ++ lit " "
  ++ join (lit " | ") (map p_cmd (processes j)) ++ (if background j then lit " &" else [])
  ++ lit " (" ++ signal_name sg ++ lit ")" ++ (if core then lit " (core dumped)" else []).

Definition report_of (ps4 : str) (w : wait_status) (j : job) : list str :=
  match w with
  | Signaled _ sg core => [report_line ps4 j sg core]
  | Stopped _ sg => [report_line ps4 j sg false]
  | _ => []
  end.

(** One line, about the waited job and nothing else, and only if a signal was
    involved; the job shown is the updated one. *)
Theorem C69_report v id n w p rest s r s' rest' :
  basic (jobs s) -> event_of w p ->
  (forall k j, first_with p (job_table (jobs s)) k j ->
     nget p (pid_to_job (jobs s)) = Some k /\ NoDup (map p_pid (processes j))) ->
  wait_one (Some v) id (repeat AIntr n ++ AStatus w :: rest) s = WDone r s' rest' ->
  (forall j', (exists j, first_with p (job_table (jobs s)) id j) -> nget id (job_table (jobs s')) = Some j' ->
     printed s' = printed s ++ report_of v w j') /\
  (~ (exists j, first_with p (job_table (jobs s)) id j) -> printed s' = printed s).
Proof.
  intros B Hw Hpid. change (repeat AIntr n ++ AStatus w :: rest) with (intr n (AStatus w :: rest)).
  rewrite (wait_one_event (Some v) id n w p rest s Hw).
  destruct (visit p w (job_table (jobs s))) as [[t found]|] eqn:Ev; [|discriminate]. cbv zeta.
  apply visit_some in Ev. pose proof (visited_first _ _ _ _ _ Ev (b_sorted _ B) (b_ids _ B)) as Vf.
  pose proof (visited_jobs _ _ _ _ _ Ev) as Vj.
  set (jc := after_found found (put_table t (jobs s))).
  assert (Hjc : job_table jc = t /\ pid_to_job jc = pid_to_job (jobs s))
    by (unfold jc; destruct found as [[k []]|]; split; reflexivity).
  clearbody jc. destruct Hjc as [Ht Hp].
  destruct found as [[k st]|].
  2:{ intros H. injection H as <- <- <-. split; [|reflexivity].
      intros j' (j & E & Hu & Hh & _). exfalso. apply (Vf id j E). auto. }
  destruct Vf as (j & Hf). destruct (Z.eqb_spec k id) as [->|Hn].
  2:{ intros H. injection H as <- <- <-. split; [|reflexivity].
      intros j' (j1 & Hf1) _. exfalso. apply Hn. eapply first_with_unique; eauto. }
  destruct (Hpid id j Hf) as [Hpj Hnd].
  pose proof (proj1 Hf) as Ej. pose proof (Vj id) as O. rewrite Ej in O.
  destruct (nget id t) as [j'|] eqn:Ej'; [|contradiction]. cbn in O.
  assert (Hg : get_job_pid p jc = Some j') by (unfold get_job_pid; rewrite Hp, Hpj, Ht; exact Ej').
  assert (Hfmt : format_status (Some v) w jc = Some (match report_of v w j' with [] => None | m :: _ => Some m end)).
  { assert (Hd' : NoDup (map p_pid (processes j'))) by (rewrite (same_job_pids _ _ O); exact Hnd).
    destruct Hw as [p c|p sg d|p sg]; cbn [format_status report_of]; [reflexivity| |]; rewrite Hg; do 2 f_equal;
      unfold report_line, job_text; rewrite (commands_text_join _ Hd'), state_text_word;
      rewrite <- !app_assoc; rewrite ?app_nil_r; reflexivity. }
  rewrite Hfmt. intros H.
  assert (Hs' : printed s' = printed s ++ report_of v w j' /\ job_table (jobs s') = t).
  { unfold report_of in *. destruct w as [| | | |]; injection H as _ <- _; cbn; rewrite ?app_nil_r; auto. }
  destruct Hs' as [H1 H2]. split.
  - intros j0 _ E0. rewrite H2, Ej' in E0. injection E0 as <-. exact H1.
  - intros Hno. destruct Hno. eauto.
Qed.

Example C69_example :
  exists s s' rest, run [OCreate [ex_cat] false; OStart 1 0 101] jst0 = Some s /\
    wait_for_job ps4_default 1 [AStatus (Signaled 101 SIGSEGV true); AFail] s = WDone (Signaled 101 SIGSEGV true) s' rest /\
    printed s' = [lit "[1] + " ++ [9; 9]%N ++ lit "Done cat (SIGSEGV) (core dumped)"].
Proof. do 3 eexists. split; [vm_compute; reflexivity|]. split; vm_compute; reflexivity. Qed.

Print Assumptions C34_unique.
Print Assumptions C35_stopped_kept.
Print Assumptions C35_removed_partial.
Print Assumptions C35_removed_refuted.
Print Assumptions C36_lookup.
Print Assumptions C36_find.
Print Assumptions C36_gone.
Print Assumptions C37_marks_partial.
Print Assumptions C37_marks_refuted.
Print Assumptions C37_any_refuted.
Print Assumptions C38_current_partial.
Print Assumptions C38_current_new.
Print Assumptions C38_current_refuted.
Print Assumptions C39_reap.
Print Assumptions C39_reap_history.
Print Assumptions C39_job_status.
Print Assumptions C39_handler_foreground.
Print Assumptions C39_handler_background.
Print Assumptions C40_crash_exact.
Print Assumptions C40_no_crash_partial.
Print Assumptions C40_crash_refuted.
Print Assumptions C40_background_refuted.
Print Assumptions C41_first_partial.
Print Assumptions C41_single_partial.
Print Assumptions C41_complete_refuted.
Print Assumptions C43_listing_partial.
Print Assumptions C43_jobs_refuted.
Print Assumptions C43_same_pid_refuted.
Print Assumptions C68_stopped_pipeline_refuted.
Print Assumptions C69_report.
