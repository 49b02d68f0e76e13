(** The processes a shell knows, and the ones it signals. *)
From Verif Require Import Base BaseFacts Ast Parser Context Alias Expand Jobs JobsSpec JobsFacts JobsLaws Shell Builtins Eval.
From Verif Require Import EvalSpec EvalFacts EvalLaws EvalKeeps EvalStack PipeSpec PipeLaws EvalFds.
From Verif Require EvalJobs PipeRun.
Local Open Scope Z_scope.

(** The numbers of the processes that were started. *)
Definition born (tr : list event) : list pid :=
  flat_map (fun e => match e with EFork _ _ (Some q) => [Zpos q] | _ => [] end) tr.
(** Every signal was sent to a process that had been started, or ([loose]) to all
    processes there are, which is what the number -1 stands for. *)
Definition mine (loose : bool) (tr : list event) (p : pid) : Prop := In p (born tr) \/ (loose = true /\ p = -1).
Fixpoint aimed (loose : bool) (tr : list event) : Prop :=
  match tr with
  | [] => True
  | e :: t => (forall p, e = EKill p -> mine loose t p) /\ aimed loose t
  end.
Definition known (loose : bool) (tr : list event) (jc : job_control) : Prop :=
  forall k j q, nget k (job_table jc) = Some j -> In q (processes j) -> mine loose tr (p_pid q).

Section Kill.
Context (loose : bool).
Record inv (s : shell) : Prop := {
  i_basic : basic (jobs (js (im s)));
  i_sound : sound (im s);
  i_known : known loose (trace s) (jobs (js (im s)));
  i_aimed : aimed loose (trace s) }.
Definition hunts (s s' : shell) : Prop := inv s -> inv s'.
Lemma hunts_pre : preorder hunts.
Proof. constructor; unfold hunts; auto. Qed.

Lemma mine_more e tr p : mine loose tr p -> mine loose (e :: tr) p.
Proof. intros [H|H]; [left; unfold born; cbn [flat_map]; apply in_or_app; right; exact H|right; exact H]. Qed.
Lemma known_moves tr a b : basic a -> known loose tr a -> moves a b -> known loose tr b.
Proof.
  intros B H M. revert B H. induction M as [jc|a b c T M IH|id a c M IH]; intros B H; [exact H| |].
  - apply IH; [eapply tweak_basic; eassumption|]. intros k j q Hk Hq. pose proof (tw_jobs _ _ T k) as Hj. rewrite Hk in Hj.
    destruct (nget k (job_table a)) as [j0|] eqn:E; [|contradiction]. cbn in Hj. apply same_job_pids in Hj.
    assert (Hin : In (p_pid q) (map p_pid (processes j0))) by (rewrite <- Hj; apply in_map, Hq).
    apply in_map_iff in Hin. destruct Hin as (q0 & <- & H0). exact (H k j0 q0 E H0).
  - apply IH; [apply delete_basic, B|]. clear -H B. destruct (delete_job_deletion id a) as [|j Hj Hp|j p0 ps st Hj Hp _ _|j p0 ps Hj Hp _ _].
    + exact H.
    + intros k j' q. cbn [put_table job_table]. rewrite nget_nremove. destruct (Z.eqb k id); [discriminate|]. apply H.
    + intros k j' q Hk Hq. cbn [put_table job_table] in Hk.
      rewrite nget_ninsert in Hk by (apply nsorted_nremove, B). destruct (Z.eqb_spec k id) as [->|Hn].
      * injection Hk as <-. cbn in Hq. exact (H id j q Hj Hq).
      * rewrite nget_nremove in Hk. destruct (Z.eqb k id); [discriminate|]. exact (H k j' q Hk Hq).
    + intros k j' q. cbn [job_table]. rewrite nget_nremove. destruct (Z.eqb k id); [discriminate|]. apply H.
Qed.

(** Nothing but the jobs, which move, and at most one event that is no signal. *)
Lemma hunts_moves s s' : (basic (jobs (js (im s))) -> moves (jobs (js (im s))) (jobs (js (im s')))) ->
  fds (im s') = fds (im s) -> next_pipe (im s') = next_pipe (im s) ->
  trace s' = trace s \/ (exists e, trace s' = e :: trace s /\ forall p, e <> EKill p) -> hunts s s'.
Proof.
  intros M Ef En Ht [B S K A]. specialize (M B).
  assert (S' : sound (im s')) by (unfold sound in *; rewrite Ef, En; exact S).
  destruct Ht as [E|(e & E & He)]; constructor; rewrite ?E; auto.
  - eapply moves_basic; eassumption.
  - eapply known_moves; eassumption.
  - eapply moves_basic; eassumption.
  - eapply known_moves; [exact B| |exact M]. intros k j q Hk Hq. apply mine_more. exact (K k j q Hk Hq).
  - cbn. split; [intros p Ep; destruct (He p Ep)|exact A].
Qed.
Lemma hunts_same s s' : js (im s') = js (im s) -> fds (im s') = fds (im s) -> next_pipe (im s') = next_pipe (im s) ->
  trace s' = trace s \/ (exists e, trace s' = e :: trace s /\ forall p, e <> EKill p) -> hunts s s'.
Proof. intros E. apply hunts_moves. rewrite E. intros _. apply moves_refl. Qed.
(** Nothing but the descriptors. *)
Lemma hunts_files s s' : soundly s s' -> js (im s') = js (im s) ->
  trace s' = trace s \/ (exists e, trace s' = e :: trace s /\ forall p, e <> EKill p) -> hunts s s'.
Proof.
  intros Hs E Ht [B S K A]. specialize (Hs S). destruct Ht as [Et|(e & Et & He)]; constructor; rewrite ?E, ?Et; auto.
  - intros k j q Hk Hq. apply mine_more. exact (K k j q Hk Hq).
  - cbn. split; [intros p Ep; destruct (He p Ep)|exact A].
Qed.

Notation keepk := (keeps true hunts).
Ltac quiet := first [left; reflexivity|right; eexists; split; [reflexivity|discriminate]].
Ltac same := apply hunts_same; [reflexivity|reflexivity|reflexivity|quiet].
Ltac kill_leaf :=
  match goal with
  | |- keeps _ _ interrupts_off => apply keeps_change; intro; apply hunts_moves; [intros _; apply moves_refl|reflexivity|reflexivity|quiet]
  | |- keeps _ _ interrupts_on => apply keeps_change; intro; apply hunts_moves; [intros _; apply moves_refl|reflexivity|reflexivity|quiet]
  | |- keeps _ _ (say _) => apply keeps_change; intro; apply hunts_moves; [intros _; apply moves_refl|reflexivity|reflexivity|quiet]
  | |- keeps _ _ (sh_delete_job ?t) => apply keeps_change; intro; apply hunts_moves; [intros _; cbn; eapply moves_delete; apply moves_refl|reflexivity|reflexivity|quiet]
  | |- keeps _ _ (change _) => apply keeps_change; intro; same
  | |- keeps _ _ (on_cm _) => apply keeps_change; intro; same
  | |- keeps _ _ (set_exit_status _) => apply keeps_change; intro; same
  | |- keeps _ _ get_exit_code => apply (keeps_look _ _ hunts_pre)
  | |- keeps _ _ (note _) => apply keeps_note; intro; same
  | |- keeps _ _ (try_cm _) => apply (keeps_try_cm _ _ _ hunts_pre); intros; same
  | |- keeps _ _ (expand_command _ _) => apply (keeps_expand _ _ hunts_pre); intros; same
  | |- keeps _ _ (wait_job _ _) => apply (keeps_wait _ _ hunts_pre); intros ? ? ? ? Hw; apply hunts_moves;
      [intros B; cbn; eapply wait_for_job_moves; [exact B|exact Hw]|reflexivity|reflexivity|quiet]
  end.
Ltac kk := repeat first [kill_leaf|keep_step hunts_pre].

Lemma files_of {A} (m : M A) : keeps true soundly m -> (forall s, js (im (snd (m s))) = js (im s)) ->
  (forall s, trace (snd (m s)) = trace s \/ (exists e, trace (snd (m s)) = e :: trace s /\ forall p, e <> EKill p)) -> keepk m.
Proof.
  intros H1 H2 H3 s o s' H _. specialize (H2 s). specialize (H3 s). rewrite H in H2, H3. cbn in H2, H3.
  apply hunts_files; [eapply H1; [exact H|left; reflexivity]|exact H2|exact H3].
Qed.
Lemma kk_pipe w : keepk (make_pipe w).
Proof.
  apply files_of; [apply soundly_pipe| |]; intros s; unfold make_pipe, bind, ask; destruct (r_pipe _); try reflexivity; quiet.
Qed.
Lemma kk_open w p h : keepk (sys_open w p h).
Proof.
  apply files_of; [apply soundly_open| |]; intros s; unfold sys_open, bind, ask; destruct (r_open _ _ _); try reflexivity; quiet.
Qed.
Lemma kk_close_ignored a : keepk (sys_close_ignored a).
Proof.
  apply files_of; [apply soundly_close_ignored| |]; intros s; unfold sys_close_ignored, change; cbn [snd im trace]; [|quiet].
  destruct (fd_close _ _); reflexivity.
Qed.
Lemma kk_close a : keepk (sys_close a).
Proof.
  apply files_of; [apply soundly_close| |]; intros s; unfold sys_close, try_; destruct (fd_close _ _); try reflexivity; quiet.
Qed.
Lemma kk_while {A} f (m : M A) : keepk m -> keepk (while_open f m).
Proof. intros H. unfold while_open. kk; apply kk_close_ignored. Qed.
Lemma kk_say_all ts : keepk (say_all ts).
Proof. induction ts; cbn [say_all]; kk. Qed.
Lemma kk_lookup w c : keepk (sh_lookup_command w c).
Proof. unfold sh_lookup_command. kk. Qed.
Lemma kk_set_env k v : keepk (set_env k v).
Proof.
  unfold set_env. apply (keeps_try _ _ hunts_pre). intros s i H. destruct (_ || _)%bool; [discriminate|].
  injection H as <-. same.
Qed.
Lemma kk_execve w a v e : keepk (temp_execve w a v e).
Proof. unfold temp_execve, fork_reset. kk. apply kk_lookup. Qed.

Section Rec.
Context (w : os) (rec : list and_or -> M Z).
Hypothesis Hrec : forall l, keepk (rec l).
(** A job of new processes. *)
Hypothesis Hjob : forall bg pcs, Forall EvalJobs.fresh pcs -> keepk (run_job w bg pcs).

Lemma kk_complete c : keepk (eval_complete rec c).
Proof. unfold eval_complete. kk. Qed.
Lemma kk_parse_text t : keepk (parse_text t).
Proof. unfold parse_text. kk. Qed.

(** The signals go to the processes of a job of the table. *)
Lemma aimed_sent tr ps : (forall q, In q ps -> mine loose tr q) -> aimed loose tr -> aimed loose (rev (map EKill ps) ++ tr).
Proof.
  revert tr. induction ps as [|q ps IH]; intros tr Hm A; [exact A|]. cbn [map rev]. rewrite <- app_assoc. cbn [app]. apply IH.
  - intros q' Hq. apply mine_more, Hm. right. exact Hq.
  - split; [|exact A]. intros p E. injection E as <-. apply Hm. left. reflexivity.
Qed.
Lemma sent_in killed ps q : In q (sent killed ps) -> In q (map p_pid ps).
Proof.
  induction ps as [|p ps IH]; cbn; [tauto|]. destruct (killed (p_pid p)); cbn; [|tauto]. intros [<-|H]; [left; reflexivity|right; auto].
Qed.
Lemma kk_fg_or_bg fg by_job n : keepk (fg_or_bg w fg by_job n).
Proof.
  intros s o s' H _ HI. unfold fg_or_bg in H. unfold bind at 1, look in H.
  destruct (if by_job then _ else _) as [j|] eqn:Ej.
  2: { unfold fail in H. destruct by_job; cbn in H; injection H as <- <-; exact HI. }
  destruct (borrowed j); [cbn in H; injection H as <- <-; exact HI|].
  apply (EvalJobs.found_job _ _ _ _ (i_basic _ HI)) in Ej. unfold bind at 1, ask in H.
  set (killed := r_kill (w (trace s))) in *.
  unfold seq at 1, bind at 1 in H. cbv beta iota in H.
  set (s1 := Shell (im s) (rev (map EKill (sent killed (processes j))) ++ trace s)) in *.
  assert (Hb : incl (born (trace s)) (born (trace s1))).
  { cbn [trace s1]. intros p Hp. unfold born. rewrite flat_map_app. apply in_or_app. right. exact Hp. }
  assert (HI1 : inv s1).
  { destruct HI as [B S K A]. constructor; [exact B|exact S| |].
    - intros k j' q Hk Hq. destruct (K k j' q Hk Hq) as [Hx|Hx]; [left; apply Hb, Hx|right; exact Hx].
    - apply aimed_sent; [|exact A]. intros q Hq. apply sent_in, in_map_iff in Hq. destruct Hq as (q0 & <- & Hq). exact (K _ _ _ Ej Hq). }
  revert H HI1. clearbody s1. intros H HI1. revert HI1. change (hunts s1 s').
  match type of H with ?m s1 = _ => assert (Hk : keepk m) end; [|exact (Hk _ _ _ H (or_introl eq_refl))].
  kk. apply (keeps_try _ _ hunts_pre). intros s2 i Hr.
  destruct (resume fg killed (job_id j) (js (im s2))) as [j1|] eqn:Er; [|discriminate]. injection Hr as <-.
  apply resume_spec in Er. intros [B S K A]. destruct Er as [[_ ->]|(j2 & E2 & E1)].
  - constructor; assumption.
  - assert (Hk2 : known loose (trace s2) (jobs j1)).
    { rewrite E1. intros k jk q Hk Hq. cbn in Hk.
      rewrite nget_ninsert in Hk by apply B. destruct (Z.eqb_spec k (job_id j)) as [->|Hn].
      - injection Hk as <-. exact (K _ _ _ E2 Hq).
      - exact (K _ _ _ Hk Hq). }
    constructor; [|exact S|exact Hk2|exact A]. cbn [im js with_js]. rewrite E1. eapply put_flags_basic; [exact B|exact E2|reflexivity].
Qed.
Lemma kk_fgbg sc : keepk (fgbg w sc).
Proof. unfold fgbg, word_at, fail. kk. apply kk_fg_or_bg. Qed.

Lemma kk_context_file f : keepk (create_context_from_file w rec f).
Proof.
  unfold create_context_from_file. kk; [apply kk_open|]. apply kk_while. kk; first [apply kk_parse_text|apply kk_complete].
Qed.
Lemma kk_export_words ws : keepk (export_words ws).
Proof. induction ws; cbn [export_words]; unfold export_word; kk; apply kk_set_env. Qed.
Lemma kk_export sc : keepk (export_cmd w rec sc).
Proof.
  unfold export_cmd, print_env, export_context, fail.
  kk; first [apply kk_say_all|apply kk_context_file|apply kk_export_words].
Qed.
Lemma kk_source_args args : forall i, keepk (source_args i args).
Proof. induction args; intros i; cbn [source_args]; kk; apply IHargs. Qed.
Lemma kk_source sc : keepk (source_cmd w rec sc).
Proof.
  unfold source_cmd, fail. kk; try apply kk_source_args; try apply kk_lookup; try apply kk_open.
  apply kk_while. kk; first [apply kk_parse_text|apply kk_complete].
Qed.
Lemma kk_exec sc : keepk (exec_cmd w sc).
Proof. unfold exec_cmd, exec_opts1, exec_opts2, word_at, fail. cbv zeta. kk; apply kk_execve. Qed.
Lemma kk_builtin sc : keepk (call_builtin w rec sc).
Proof.
  unfold call_builtin. cbv zeta.
  repeat match goal with |- keeps _ _ (if ?b then _ else _) => destruct b end;
    first [apply kk_fgbg|apply kk_export|apply kk_exec|apply kk_source|idtac];
    unfold change_directory, quit, save_history, return_cmd, jobs_cmd, alias_cmd, unalias_cmd, eval_cmd, unset_cmd, pwd, readonly_cmd, readonly_print,
      print_vars, print_readonly_functions, assignment_cmd, display_aliases, word_at, fail; kk;
    try apply kk_say_all; try apply kk_parse_text; try apply kk_complete.
  apply (keeps_try _ _ hunts_pre). intros ? ? Hx. destruct (alias_builtin _ _); [|discriminate].
  injection Hx as <-. same.
Qed.
Lemma kk_function sc : keepk (eval_function rec sc).
Proof. unfold eval_function. kk. Qed.
Lemma kk_command c : keepk (eval_command w rec c).
Proof. unfold eval_command, eval_simple_command, eval_builtin. kk. apply kk_builtin. Qed.
Lemma kk_gather cs : keepk (gather w rec cs).
Proof. induction cs; cbn [gather]; kk. apply kk_command. Qed.
Lemma kk_run_functions cs : keepk (run_functions rec cs).
Proof. induction cs; cbn [run_functions]; kk. apply kk_function. Qed.
Lemma kk_pipeline p : keepk (eval_pipeline w rec p).
Proof.
  destruct p as [b cs bg]. unfold eval_pipeline. apply (keeps_seq _ _ hunts_pre); [kk|].
  apply keeps_bind_after; [apply kk_gather|]. intros s pcs s1 o s' H1 H2 _.
  eapply (pre_trans _ hunts_pre); [eapply kk_gather; [exact H1|left; reflexivity]|].
  apply EvalJobs.gather_fresh in H1. destruct pcs as [|pc pcs]; [injection H2 as <- <-; apply (pre_refl _ hunts_pre)|].
  apply bind_inv in H2. destruct H2 as [(pcs' & s2 & H3 & H4)|(o2 & H3 & F2 & _)].
  - assert (Hf : Forall EvalJobs.fresh pcs').
    { destruct bg; [injection H3 as <- _; exact H1|]. apply EvalJobs.run_functions_incl in H3.
      rewrite Forall_forall in H1 |- *. intros x Hx. apply H1, H3, Hx. }
    eapply (pre_trans _ hunts_pre); [|eapply (Hjob _ _ Hf); [exact H4|left; reflexivity]].
    destruct bg; [injection H3 as _ <-; apply (pre_refl _ hunts_pre)|].
    eapply kk_run_functions; [exact H3|left; reflexivity].
  - destruct bg; [injection H3 as _ <-; apply (pre_refl _ hunts_pre)|]. eapply kk_run_functions; [exact H3|left; reflexivity].
Qed.
Lemma kk_and_or a : keepk (eval_and_or w rec a).
Proof. induction a; cbn [eval_and_or]; kk; apply kk_pipeline. Qed.
Lemma kk_tree l : forall st, keepk (parse_tree_from w rec st l).
Proof. induction l; intros st; cbn [parse_tree_from]; kk; [apply kk_and_or|apply IHl]. Qed.
End Rec.

Lemma evaluate_hunts w n : (forall bg pcs, Forall EvalJobs.fresh pcs -> keepk (run_job w bg pcs)) ->
  forall l, keepk (evaluate w n l).
Proof.
  intros Hj. induction n as [|n IH]; intros l; cbn [evaluate]; [apply (keeps_stop _ _ hunts_pre)|]. apply kk_tree; assumption.
Qed.
End Kill.

(** ** A job of new processes *)

Lemma born_fork i c q tr : In (Zpos q) (born (EFork i c (Some q) :: tr)).
Proof. left. reflexivity. Qed.
Lemma create_known loose tr cmds bg jc : basic jc -> loose = true -> known loose tr jc -> known loose tr (create_job (map new_process cmds) bg jc).
Proof.
  intros B -> K k j q Hk Hq. rewrite create_get in Hk by exact B. destruct (Z.eqb k (next_job_id jc)); [|exact (K k j q Hk Hq)].
  injection Hk as <-. cbn [processes job_new] in Hq. right. split; [reflexivity|].
  apply (in_map p_pid) in Hq. exact (new_pids _ _ Hq).
Qed.
Lemma set_pid_pids i p ps q : In q (set_pid_at i p ps) -> p_pid q = p \/ In q ps.
Proof.
  revert i. induction ps as [|x ps IH]; intros i; cbn [set_pid_at]; [destruct i; intros []|]. destruct i as [|i]; cbn [In].
  - intros [<-|H]; [left; reflexivity|right; right; exact H].
  - intros [<-|H]; [right; left; reflexivity|]. destruct (IH i H); auto.
Qed.
Lemma started_basic id i p jc : basic jc -> basic (started id i p jc).
Proof. intros B. apply (run_basic [OStart id i p] (Jst jc false false []) (Jst (started id i p jc) false false []) B eq_refl). Qed.
Lemma started_known loose tr id i p jc : basic jc -> mine loose tr p -> known loose tr jc -> known loose tr (started id i p jc).
Proof.
  intros B Hp K. unfold started. destruct (get_job id jc) as [j|] eqn:E; [|exact K]. intros k j' q Hk Hq. cbn in Hk.
  rewrite nget_ninsert in Hk by apply B. destruct (Z.eqb k id); [|exact (K k j' q Hk Hq)].
  injection Hk as <-. cbn [processes with_processes] in Hq. apply set_pid_pids in Hq. destruct Hq as [->|Hq]; [exact Hp|exact (K id j q E Hq)].
Qed.
Ltac quiet := first [left; reflexivity|right; eexists; split; [reflexivity|discriminate]].
Lemma fork_started loose w c id i : keeps true (hunts loose)
  (r <- fork_child w c ;; match r with Some q => on_jobs (started id i (Zpos q)) | None => ret tt end).
Proof.
  intros s o s' H _ [B S K A]. unfold fork_child, bind, ask, look, note, seq, ret in H. cbn in H.
  assert (K1 : forall e, known loose (e :: trace s) (jobs (js (im s)))) by (intros e k j q Hk Hq; apply mine_more; exact (K k j q Hk Hq)).
  destruct (r_fork (w (trace s))) as [q|]; cbn in H; injection H as _ <-.
  - constructor; cbn [im trace js jobs on_jobs with_js with_jobs fds].
    + apply started_basic, B.
    + exact S.
    + apply started_known; [exact B|left; apply born_fork|apply K1].
    + split; [intros p E; discriminate|exact A].
  - constructor; [exact B|exact S|apply K1|split; [intros p E; discriminate|exact A]].
Qed.
Lemma bind_assoc_keeps all R {A B C} (m : M A) (f : A -> M B) (g : M C) :
  keeps all R (bind (bind m f) (fun _ => g)) -> keeps all R (bind m (fun a => bind (f a) (fun _ => g))).
Proof.
  intros H s o s' E. apply H. rewrite <- E. unfold bind. destruct (m s) as [[a| | | | | |] s1]; reflexivity.
Qed.
Lemma launch_loose w id bg cs : forall i prev pip, keeps true (hunts true) (launch w id bg i cs prev pip).
Proof.
  induction cs as [|[p sc] cs IH]; intros i prev pip; cbn [launch]; [apply (keeps_ret _ _ (hunts_pre true))|].
  apply (keeps_bind _ _ (hunts_pre true)); [destruct cs; [apply (keeps_ret _ _ (hunts_pre true))|apply kk_pipe]|]. intros pip1.
  apply bind_assoc_keeps. apply (keeps_bind _ _ (hunts_pre true)); [apply fork_started|]. intros _.
  apply (keeps_seq _ _ (hunts_pre true)); [destruct (Z.leb 0 prev); [apply kk_close|apply (keeps_ret _ _ (hunts_pre true))]|].
  apply (keeps_seq _ _ (hunts_pre true)); [apply kk_close_ignored|apply IH].
Qed.
(** What follows the start. *)
Lemma finish_hunts loose w bg id : keeps true (hunts loose) (PipeRun.finish w bg id).
Proof.
  unfold PipeRun.finish.
  repeat match goal with
  | |- keeps _ _ interrupts_on => apply keeps_change; intro; apply hunts_moves; [intros _; apply moves_refl|reflexivity|reflexivity|quiet]
  | |- keeps _ _ (say _) => apply keeps_change; intro; apply hunts_moves; [intros _; apply moves_refl|reflexivity|reflexivity|quiet]
  | |- keeps _ _ (sh_delete_job ?t) => apply keeps_change; intro; apply hunts_moves; [intros _; cbn; eapply moves_delete; apply moves_refl|reflexivity|reflexivity|quiet]
  | |- keeps _ _ (set_exit_status _) => apply keeps_change; intro; apply hunts_same; [reflexivity|reflexivity|reflexivity|quiet]
  | |- keeps _ _ get_exit_code => apply (keeps_look _ _ (hunts_pre loose))
  | |- keeps _ _ (wait_job _ _) => apply (keeps_wait _ _ (hunts_pre loose)); intros ? ? ? ? Hw; apply hunts_moves;
      [intros B; cbn; eapply wait_for_job_moves; [exact B|exact Hw]|reflexivity|reflexivity|quiet]
  | _ => keep_step (hunts_pre loose)
  end.
Qed.
Lemma run_job_nil w bg s : exists s', run_job w bg [] s = (OOk (exit_status (im s)), s') /\
  jobs (js (im s')) = delete_job (next_job_id (jobs (js (im s)))) (create_job [] bg (jobs (js (im s)))) /\
  fds (im s') = fds (im s) /\ next_pipe (im s') = next_pipe (im s) /\ trace s' = trace s.
Proof. eexists. split; [reflexivity|]. repeat split. Qed.
Lemma nil_hunts loose w bg : keeps true (hunts loose) (run_job w bg []).
Proof.
  intros s o s' H _ [B S K A]. destruct (run_job_nil w bg s) as (s1 & E & E1 & E2 & E3 & E4). rewrite H in E. injection E as _ ->.
  constructor; rewrite ?E1, ?E4; [apply delete_basic, (create_basic (@nil process)); exact B|unfold sound in *; rewrite E2, E3; exact S| |exact A].
  eapply known_moves; [apply (create_basic (@nil process)); exact B| |eapply moves_delete; apply moves_refl].
  intros k j q Hk Hq. rewrite (create_get (@nil process)) in Hk by exact B. destruct (Z.eqb k _); [|exact (K k j q Hk Hq)]. injection Hk as <-. contradiction.
Qed.
Lemma job_loose w bg pcs : Forall EvalJobs.fresh pcs -> keeps true (hunts true) (run_job w bg pcs).
Proof.
  intros Hf. destruct (EvalJobs.fresh_new _ Hf) as [cmds Ec]. destruct pcs as [|pc pcs]; [apply nil_hunts|].
  intros s o s' H _ HI. rewrite PipeRun.run_job_split in H by discriminate. unfold PipeRun.created in H. rewrite Ec in H.
  match type of H with _ ?x = _ => set (s1 := x) in * end.
  assert (HI1 : inv true s1).
  { destruct HI as [B S K A]. constructor; cbn [s1 im trace js jobs PipeLaws.launching].
    - apply create_basic, B.
    - exact S.
    - apply create_known; [exact B|reflexivity|exact K].
    - exact A. }
  revert HI1. assert (Hk : keeps true (hunts true) (launch w (next_job_id (jobs (js (im s)))) bg 0 (pc :: pcs) (-1) (-1, -1) ;;
    PipeRun.finish w bg (next_job_id (jobs (js (im s)))))).
  { apply (keeps_seq _ _ (hunts_pre true)); [apply launch_loose|apply finish_hunts]. }
  exact (Hk _ _ _ H (or_introl eq_refl)).
Qed.

(** ** The same when every process and every pipe can be made *)

(** The job [id] is being started: its first [i] processes are. *)
Record partly (id : Z) (i n : nat) (s : shell) : Prop := {
  y_basic : basic (jobs (js (im s)));
  y_sound : sound (im s);
  y_aimed : aimed false (trace s);
  y_rest : forall k j q, nget k (job_table (jobs (js (im s)))) = Some j -> k <> id -> In q (processes j) -> mine false (trace s) (p_pid q);
  y_job : exists j, nget id (job_table (jobs (js (im s)))) = Some j /\ List.length (processes j) = n /\
    forall m q, (m < i)%nat -> nth_error (processes j) m = Some q -> mine false (trace s) (p_pid q) }.
Lemma partly_files id i n s s' : soundly s s' -> js (im s') = js (im s) ->
  trace s' = trace s \/ (exists e, trace s' = e :: trace s /\ forall p, e <> EKill p) -> partly id i n s -> partly id i n s'.
Proof.
  intros Hs E Ht [B S A K (j & J1 & J2 & J3)].
  assert (Hm : forall p, mine false (trace s) p -> mine false (trace s') p).
  { intros p Hp. destruct Ht as [->|(e & -> & _)]; [exact Hp|apply mine_more; exact Hp]. }
  constructor; rewrite ?E; auto.
  - destruct Ht as [->|(e & -> & He)]; [exact A|]. split; [intros p Ep; destruct (He p Ep)|exact A].
  - intros k j' q H1 H2 H3. apply Hm. exact (K k j' q H1 H2 H3).
  - exists j. split; [exact J1|]. split; [exact J2|]. intros m q H1 H2. apply Hm. exact (J3 m q H1 H2).
Qed.
Lemma set_pid_nth i p : forall ps m, nth_error (set_pid_at i p ps) m =
  if Nat.eqb m i then match nth_error ps m with Some q => Some (with_pid p q) | None => None end else nth_error ps m.
Proof.
  induction i as [|i IH]; intros [|q ps] [|m]; cbn; try reflexivity.
  - destruct (Nat.eqb m i); reflexivity.
  - apply IH.
Qed.
Lemma set_pid_len i p : forall ps, List.length (set_pid_at i p ps) = List.length ps.
Proof. induction i as [|i IH]; intros [|q ps]; cbn; auto. Qed.
Lemma launch_strict w id bg n : (forall tr, r_fork (w tr) <> None) ->
  forall cs i prev pip s s', launch w id bg i cs prev pip s = (OOk tt, s') -> partly id i n s -> partly id (i + List.length cs) n s'.
Proof.
  intros Hfk. induction cs as [|[p sc] cs IH]; intros i prev pip s s' H HP; cbn [launch List.length] in *.
  - injection H as <-. rewrite Nat.add_0_r. exact HP.
  - apply bind_inv_ok in H. destruct H as (pip1 & s1 & H1 & H).
    assert (P1 : partly id i n s1).
    { destruct cs as [|c1 cs]; [injection H1 as _ <-; exact HP|]. revert HP. apply partly_files.
      - eapply soundly_pipe; [exact H1|left; reflexivity].
      - unfold make_pipe, bind, ask in H1. destruct (r_pipe _); [|discriminate]. injection H1 as _ <-. reflexivity.
      - unfold make_pipe, bind, ask in H1. destruct (r_pipe _); [|discriminate]. injection H1 as _ <-. quiet. }
    apply bind_inv_ok in H. destruct H as (r & s2 & H2 & H). unfold fork_child, bind, ask, look, note, seq, ret in H2. cbn in H2.
    injection H2 as <- <-. destruct (r_fork (w (trace s1))) as [q|] eqn:Eq; [|destruct (Hfk _ Eq)].
    apply seq_inv_ok in H. destruct H as ([] & s3 & H3 & H). injection H3 as <-.
    match type of H with _ ?x = _ => set (s3 := x) in * end.
    assert (P3 : partly id (S i) n s3).
    { destruct P1 as [B S A K (j & J1 & J2 & J3)]. set (e := EFork (im s1) (Child sc p prev pip1 bg) (Some q)) in *.
      assert (Hg : forall k, nget k (job_table (jobs (js (im s3)))) = if Z.eqb k id then Some (with_processes (set_pid_at i (Zpos q) (processes j)) j)
        else nget k (job_table (jobs (js (im s1))))).
      { intros k. cbn [s3 im js jobs with_js with_jobs]. unfold started, get_job. rewrite J1. cbn. apply nget_ninsert, B. }
      constructor.
      - apply started_basic, B.
      - exact S.
      - split; [intros x E; discriminate|exact A].
      - intros k j' q' Hk Hn Hq. rewrite Hg in Hk. destruct (Z.eqb_spec k id); [contradiction|]. apply mine_more. exact (K k j' q' Hk Hn Hq).
      - exists (with_processes (set_pid_at i (Zpos q) (processes j)) j). split; [rewrite Hg, Z.eqb_refl; reflexivity|].
        cbn [processes with_processes]. split; [rewrite set_pid_len; exact J2|]. intros m q' Hm Hq. rewrite set_pid_nth in Hq.
        destruct (Nat.eqb_spec m i) as [->|Hne].
        + destruct (nth_error (processes j) i); [|discriminate]. injection Hq as <-. left. apply born_fork.
        + apply mine_more. apply (J3 m q'); [lia|exact Hq]. }
    apply seq_inv_ok in H. destruct H as ([] & s4 & H4 & H).
    assert (P4 : partly id (S i) n s4).
    { destruct (Z.leb 0 prev); [|injection H4 as <-; exact P3]. revert P3. apply partly_files.
      - eapply soundly_close; [exact H4|left; reflexivity].
      - unfold sys_close, try_ in H4. destruct (fd_close _ _); [|discriminate]. injection H4 as <-. reflexivity.
      - unfold sys_close, try_ in H4. destruct (fd_close _ _); [|discriminate]. injection H4 as <-. quiet. }
    apply seq_inv_ok in H. destruct H as ([] & s5 & H5 & H).
    assert (P5 : partly id (S i) n s5).
    { revert P4. apply partly_files.
      - eapply soundly_close_ignored; [exact H5|left; reflexivity].
      - injection H5 as <-. cbn [im]. destruct (fd_close _ _); reflexivity.
      - injection H5 as <-. quiet. }
    rewrite Nat.add_succ_r, <- Nat.add_succ_l. exact (IH _ _ _ _ _ H P5).
Qed.
Lemma job_strict w bg pcs : (forall tr, r_fork (w tr) <> None) -> (forall tr, r_pipe (w tr) = true) ->
  keeps true (hunts false) (run_job w bg pcs).
Proof.
  intros Hfk Hpp. destruct pcs as [|pc pcs]; [apply nil_hunts|].
  intros s o s' H _ HI. rewrite PipeRun.run_job_split in H by discriminate. unfold PipeRun.created in H.
  set (id := next_job_id (jobs (js (im s)))) in *. set (ps := map fst (pc :: pcs)) in *.
  match type of H with _ ?x = _ => set (s1 := x) in * end.
  assert (Hpart : partly id 0 (List.length (pc :: pcs)) s1).
  { destruct HI as [B S K A].
    assert (Hg : forall k, nget k (job_table (jobs (js (im s1)))) = if Z.eqb k id then Some (job_new ps id bg) else nget k (job_table (jobs (js (im s))))).
    { intros k. apply (create_get ps bg (jobs (js (im s))) k B). }
    constructor.
    - apply (create_basic ps bg _ B).
    - exact S.
    - exact A.
    - intros k j q Hk Hn Hq. rewrite Hg in Hk. destruct (Z.eqb_spec k id); [contradiction|]. exact (K k j q Hk Hq).
    - exists (job_new ps id bg). split; [rewrite Hg, Z.eqb_refl; reflexivity|].
      split; [apply map_length|]. intros m q Hm. lia. }
  apply seq_inv in H. destruct H as [([] & s2 & H1 & H2)|(o1 & H1 & F & _)].
  - apply (launch_strict w id bg _ Hfk) with (1 := H1) in Hpart. cbn [plus] in Hpart.
    assert (HI2 : inv false s2).
    { destruct Hpart as [B S A K (j & J1 & J2 & J3)]. constructor; [exact B|exact S| |exact A].
      intros k j' q Hk Hq. destruct (Z.eq_dec k id) as [->|Hn]; [|exact (K k j' q Hk Hn Hq)].
      rewrite J1 in Hk. injection Hk as <-. apply In_nth_error in Hq. destruct Hq as [m Hm]. apply (J3 m q); [|exact Hm].
      rewrite <- J2. apply nth_error_Some. rewrite Hm. discriminate. }
    revert HI2. apply (finish_hunts false w bg id _ _ _ H2). left. reflexivity.
  - exfalso. assert (Ht : table (fds (im s))) by apply (i_sound _ _ HI).
    pose proof (launch_no_error w id bg Hpp (pc :: pcs) 0 (-1) (-1, -1) s1) as Hno. rewrite H1 in Hno.
    assert (E1 : s1 = Shell (launching (im s) (create_job ps bg (jobs (js (im s)))) (fds (im s)) (next_pipe (im s) + Z.of_nat 0)) (trace s)).
    { cbn [Z.of_nat]. rewrite Z.add_0_r. reflexivity. }
    rewrite E1 in H1.
    apply (launch_ok w id bg (im s) (fds (im s)) (next_pipe (im s)) (List.length (pc :: pcs)) Ht) in H1; [|reflexivity|discriminate| |reflexivity].
    + destruct H1 as (new & jc' & t' & n' & _ & _ & [(R1 & _)|(R1 & _)]); [subst o1; exact F|].
      rewrite R1 in Hno. exact (Hno _ _ eq_refl).
    + split; [exact Ht|]. split; [reflexivity|]. intros fd. destruct (Z.eqb_spec fd (-1)) as [->|]; [|reflexivity].
      destruct (nget (-1) (fds (im s))) eqn:E; [apply (proj2 Ht) in E; lia|reflexivity].
Qed.
