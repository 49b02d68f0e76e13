(** The shell keeps the number of a process for its job as long as the system gives
    that number to no other process. *)
From Verif Require Import Base BaseFacts Ast Parser Context Alias Expand Jobs JobsSpec JobsFacts JobsLaws Shell Builtins Eval.
From Verif Require Import EvalSpec EvalFacts EvalLaws EvalKeeps EvalStack EvalJobs.
Local Open Scope Z_scope.

(** The number [p] stands for the one job that has the process. *)
Definition mine (p : Z) (jc : job_control) : Prop :=
  forall k, nget p (pid_to_job jc) = Some k <-> exists j, nget k (job_table jc) = Some j /\ has_pid p j.

Section Mine.
Context (p : Z) (Hp : p <> -1).

Lemma tweak_mine jc jc' : tweak jc jc' -> mine p jc -> mine p jc'.
Proof.
  intros T H k. rewrite (tw_pid _ _ T), (H k).
  pose proof (tw_jobs _ _ T k) as O.
  destruct (nget k (job_table jc)) as [j|], (nget k (job_table jc')) as [j'|]; cbn in O; try contradiction.
  - split; intros (j0 & E & Hh); injection E as <-; eexists; (split; [reflexivity|]);
      apply (same_job_has _ _ p O); exact Hh.
  - split; intros (j0 & E & _); discriminate.
Qed.
Lemma delete_mine id jc : basic jc -> mine p jc -> mine p (delete_job id jc).
Proof.
  intros B H. destruct (delete_job_deletion id jc) as [E|j E Ep|j p0 ps st E Ep Est Hst|j p0 ps E Ep Hp0 Hst].
  - exact H.
  - intros k. cbn. rewrite (H k), nget_nremove. destruct (Z.eqb_spec k id) as [->|Hn]; [|reflexivity].
    split; intros (j0 & E0 & q & Hq & _); [|discriminate].
    rewrite E in E0. injection E0 as <-. rewrite Ep in Hq. destruct Hq.
  - intros k. cbn. rewrite (H k), nget_ninsert, nget_nremove by (apply nsorted_nremove, B).
    destruct (Z.eqb_spec k id) as [->|Hn]; [|reflexivity]. rewrite E.
    split; intros (j0 & E0 & Hh); injection E0 as <-; eexists; (split; [reflexivity|exact Hh]).
  - intros k. cbn. rewrite nget_fold_remove, nget_nremove.
    change (existsb (fun q0 => Z.eqb (p_pid q0) p) (processes j)) with (has_pidb p (processes j)).
    destruct (has_pidb p (processes j)) eqn:Eh.
    + split; [discriminate|]. destruct (Z.eqb_spec k id) as [->|Hn]; intros (j0 & E0 & Hh); [discriminate|].
      exfalso. apply Hn.
      assert (K : nget p (pid_to_job jc) = Some k) by (apply H; eauto).
      assert (K' : nget p (pid_to_job jc) = Some id)
        by (apply H; exists j; split; [exact E|apply has_pidb_true; exact Eh]).
      congruence.
    + rewrite (H k). destruct (Z.eqb_spec k id) as [->|Hn]; [|reflexivity].
      split; intros (j0 & E0 & Hh); [|discriminate].
      rewrite E in E0. injection E0 as <-. apply has_pidb_true in Hh. congruence.
Qed.
Lemma moves_mine a b : moves a b -> basic a -> mine p a -> mine p b.
Proof.
  induction 1; intros B P; auto.
  - apply IHmoves; [eapply tweak_basic; eauto|eapply tweak_mine; eauto].
  - apply IHmoves; [apply delete_basic; exact B|apply delete_mine; assumption].
Qed.
Definition starts_one (o : op) : bool := match o with OStart _ _ _ => true | _ => false end.
Lemma step_mine o s s' : starts_one o = false -> basic (jobs s) -> mine p (jobs s) -> step o s = Some s' -> mine p (jobs s').
Proof.
  intros Hno B P Hst. pose proof (step_effect _ _ _ B Hst) as He. clear Hst.
  destruct He as [cmds bg|id i q|o jc Hm|fg killed id j Ej].
  - intros k. cbn [pid_to_job create_job].
    rewrite nget_fold_insert by apply B.
    change (existsb (fun q0 => Z.eqb (p_pid q0) p) (map new_process cmds)) with (has_pidb p (map new_process cmds)).
    destruct (has_pidb p (map new_process cmds)) eqn:Eh.
    { exfalso. apply Hp. apply (has_pidb_true p (job_new (map new_process cmds) 0 false)) in Eh.
      rewrite has_pid_map in Eh. eapply new_pids; exact Eh. }
    rewrite (P k). rewrite create_get by exact B.
    destruct (Z.eqb_spec k (next_job_id (jobs s))) as [->|Hn]; [|reflexivity].
    split; intros (j & E & Hh).
    + exfalso. assert (1 <= next_job_id (jobs s) < next_job_id (jobs s)) by (apply (b_next _ B); exists j; exact E). lia.
    + injection E as <-. exfalso. apply Hp. apply has_pid_map in Hh. eapply new_pids; exact Hh.
  - discriminate.
  - eapply moves_mine; eauto.
  - intros k. cbn. rewrite nget_ninsert by apply B. rewrite (P k).
    destruct (Z.eqb_spec k id) as [->|Hn]; [|reflexivity]. unfold get_job in Ej. rewrite Ej.
    split; intros (j0 & E0 & Hh); injection E0 as <-; eexists; (split; [reflexivity|exact Hh]).
Qed.
Lemma started_mine id i q jc j : basic jc -> mine p jc -> q <> p -> nget id (job_table jc) = Some j -> ~ has_pid p j -> mine p (started id i q jc).
Proof.
  intros B P Hq Ej Hno k. rewrite (started_get _ _ _ _ j _ B Ej).
  unfold started, get_job. rewrite Ej. cbn [pid_to_job update_pid_table put_job].
  rewrite nget_ninsert by apply B. destruct (Z.eqb_spec p q) as [E|_]; [congruence|].
  rewrite (P k). destruct (Z.eqb_spec k id) as [->|Hn]; [|reflexivity].
  split; intros (j0 & E0 & Hh); exfalso.
  - rewrite Ej in E0. injection E0 as <-. exact (Hno Hh).
  - injection E0 as <-. apply Hno. apply has_pid_map in Hh. apply has_pid_map. cbn in Hh.
    revert Hh. generalize (processes j). clear -Hq. intros ps. revert i. induction ps as [|x ps IH]; intros [|i]; cbn; auto.
    + intros [F|F]; [congruence|auto].
    + intros [F|F]; [auto|right; eapply IH; exact F].
Qed.

Definition ours (s s' : shell) : Prop :=
  basic (jobs (js (im s))) -> mine p (jobs (js (im s))) -> basic (jobs (js (im s'))) /\ mine p (jobs (js (im s'))).
Lemma ours_pre : preorder ours.
Proof.
  constructor.
  - intros s B H. split; assumption.
  - intros a b c Hab Hbc B H. destruct (Hab B H) as [B1 H1]. exact (Hbc B1 H1).
Qed.
Lemma ours_same s s' : js (im s') = js (im s) -> ours s s'.
Proof. intros E B H. rewrite E. split; assumption. Qed.
Lemma ours_one o s s' : starts_one o = false -> (basic (jobs (js (im s))) -> step o (js (im s)) = Some (js (im s'))) -> ours s s'.
Proof. intros Ho E B H. split; [eapply effect_basic; [exact B|eapply step_effect; [exact B|exact (E B)]]|eapply step_mine; [exact Ho|exact B|exact H|exact (E B)]]. Qed.

Notation keepo := (keeps true ours).
Ltac ours_leaf :=
  match goal with
  | |- keeps _ _ interrupts_off => apply keeps_change; intro; apply ours_one with (OMask true); reflexivity
  | |- keeps _ _ interrupts_on => apply keeps_change; intro; apply ours_one with (OMask false); reflexivity
  | |- keeps _ _ (say ?t) => apply keeps_change; intro; apply ours_one with (OPrint t); reflexivity
  | |- keeps _ _ (sh_delete_job ?t) => apply keeps_change; intro; apply ours_one with (ODelete t); reflexivity
  | |- keeps _ _ (change _) => apply keeps_change; intro; apply ours_same; reflexivity
  | |- keeps _ _ (on_cm _) => apply keeps_change; intro; apply ours_same; reflexivity
  | |- keeps _ _ (set_exit_status _) => apply keeps_change; intro; apply ours_same; reflexivity
  | |- keeps _ _ get_exit_code => apply (keeps_look _ _ ours_pre)
  | |- keeps _ _ (note _) => apply keeps_note; intro; apply ours_same; reflexivity
  | |- keeps _ _ (try_cm _) => apply (keeps_try_cm _ _ _ ours_pre); intros; apply ours_same; reflexivity
  | |- keeps _ _ (expand_command _ _) => apply (keeps_expand _ _ ours_pre); intros; apply ours_same; reflexivity
  | |- keeps _ _ (fun s => (OOk _, Shell (im s) _)) => apply keeps_raw; intro; apply ours_same; reflexivity
  end.
Ltac ko := repeat first [ours_leaf|keep_step ours_pre].

Lemma ko_pipe w : keepo (make_pipe w).
Proof. unfold make_pipe. ko. apply keeps_raw. intros s. apply ours_same. reflexivity. Qed.
Lemma ko_open w f h : keepo (sys_open w f h).
Proof. unfold sys_open. ko. apply keeps_raw. intros s. apply ours_same. reflexivity. Qed.
Lemma ko_close_ignored a : keepo (sys_close_ignored a).
Proof. apply keeps_change. intros s. apply ours_same. apply close_ignored_js. Qed.
Lemma ko_while {A} f (m : M A) : keepo m -> keepo (while_open f m).
Proof. intros H. unfold while_open. ko; apply ko_close_ignored. Qed.
Lemma ko_say_all ts : keepo (say_all ts).
Proof. induction ts; cbn [say_all]; ko. Qed.
Lemma ko_lookup w c : keepo (sh_lookup_command w c).
Proof. unfold sh_lookup_command. ko. Qed.
Lemma ko_set_env k v : keepo (set_env k v).
Proof.
  unfold set_env. apply (keeps_try _ _ ours_pre). intros s i H. destruct (_ || _)%bool; [discriminate|].
  injection H as <-. apply ours_same. reflexivity.
Qed.
Lemma ko_execve w a v e : keepo (temp_execve w a v e).
Proof. unfold temp_execve, fork_reset. ko. apply ko_lookup. Qed.
Lemma ko_sys_close a : keepo (sys_close a).
Proof.
  unfold sys_close. apply (keeps_try _ _ ours_pre). intros s i H. destruct (fd_close _ _); [|discriminate].
  injection H as <-. apply ours_same. reflexivity.
Qed.

(** Waiting for a job that exists. *)
Lemma wait_ours w id s o s' : (basic (jobs (js (im s))) -> get_job id (jobs (js (im s))) <> None) ->
  wait_job w id s = (o, s') -> ours s s'.
Proof.
  intros Hj H Hb Hm. unfold wait_job in H.
  destruct (wait_for_job _ _ _ _) as [st j r| |] eqn:E; injection H as <- <-; [|split; assumption|split; assumption].
  specialize (Hj Hb). cbn [im js with_js].
  eapply (ours_one (OWait (expand_var (cm (im s)) (lit "PS4")) id (r_waits (w (trace s)))) s (Shell (with_js j (im s)) (EWait id :: trace s)) eq_refl); [|exact Hb|exact Hm].
  intros _. cbn [step]. destruct (get_job id (jobs (js (im s)))); [|congruence]. rewrite E. reflexivity.
Qed.

Section Rec.
Context (w : os) (Hnever : forall t q, r_fork (w t) = Some q -> Zpos q <> p) (rec : list and_or -> M Z).
Hypothesis Hrec : forall l, keepo (rec l).

Lemma ko_complete c : keepo (eval_complete rec c).
Proof. unfold eval_complete. ko. Qed.
Lemma ko_parse_text t : keepo (parse_text t).
Proof. unfold parse_text. ko. Qed.

Lemma ko_fg_or_bg fg by_job n : keepo (fg_or_bg w fg by_job n).
Proof.
  intros s o s' H _ Hb Hm. unfold fg_or_bg in H. unfold bind at 1, look in H.
  destruct (if by_job then _ else _) as [j|] eqn:Ej.
  2: { unfold fail in H. destruct by_job; cbn in H; injection H as <- <-; split; assumption. }
  destruct (borrowed j); [cbn in H; injection H as <- <-; split; assumption|].
  apply (found_job _ _ _ _ Hb) in Ej. unfold bind at 1, ask in H.
  set (killed := r_kill (w (trace s))) in *.
  unfold seq at 1, bind at 1 in H. cbv beta iota in H.
  unfold seq at 1, bind at 1, try_ in H. cbn [im] in H.
  destruct (resume fg killed (job_id j) (js (im s))) as [j1|] eqn:Er.
  2: { cbn in H. injection H as <- <-. split; assumption. }
  assert (W : forall s1, js (im s1) = j1 -> ours s s1).
  { intros s1 E. apply ours_one with (OResume fg killed (job_id j)); [reflexivity|]. intros _. cbn. rewrite Er, E. reflexivity. }
  destruct fg; [|injection H as <- <-; apply W; [reflexivity|exact Hb|exact Hm]].
  assert (L : get_job (job_id j) (jobs j1) <> None).
  { apply resume_spec in Er. destruct Er as [[E _]|(j2 & E & E1)]; [congruence|]. rewrite E1.
    unfold get_job, put_job. cbn. rewrite nget_ninsert by apply Hb. rewrite Z.eqb_refl. discriminate. }
  match type of H with _ ?x = _ => set (s1 := x) in * end.
  assert (W1 : ours s s1) by (apply W; reflexivity).
  apply seq_inv in H. destruct H as [(st & s2 & H1 & H2)|(o1 & H1 & F & ->)].
  - injection H2 as <- <-. eapply (pre_trans _ ours_pre); [exact W1| |exact Hb|exact Hm].
    eapply wait_ours; [intros _; exact L|exact H1].
  - eapply (pre_trans _ ours_pre); [exact W1| |exact Hb|exact Hm]. eapply wait_ours; [intros _; exact L|exact H1].
Qed.
Lemma ko_fgbg sc : keepo (fgbg w sc).
Proof. unfold fgbg, word_at, fail. ko. apply ko_fg_or_bg. Qed.

Lemma ko_context_file f : keepo (create_context_from_file w rec f).
Proof.
  unfold create_context_from_file. ko; [apply ko_open|]. apply ko_while. ko; first [apply ko_parse_text|apply ko_complete].
Qed.
Lemma ko_export_words ws : keepo (export_words ws).
Proof. induction ws; cbn [export_words]; unfold export_word; ko; apply ko_set_env. Qed.
Lemma ko_export sc : keepo (export_cmd w rec sc).
Proof.
  unfold export_cmd, print_env, export_context, fail.
  ko; first [apply ko_say_all|apply ko_context_file|apply ko_export_words].
Qed.
Lemma ko_source_args args : forall i, keepo (source_args i args).
Proof. induction args; intros i; cbn [source_args]; ko; apply IHargs. Qed.
Lemma ko_source sc : keepo (source_cmd w rec sc).
Proof.
  unfold source_cmd, fail. ko; try apply ko_source_args; try apply ko_lookup; try apply ko_open.
  apply ko_while. ko; first [apply ko_parse_text|apply ko_complete].
Qed.
Lemma ko_exec sc : keepo (exec_cmd w sc).
Proof. unfold exec_cmd, exec_opts1, exec_opts2, word_at, fail. cbv zeta. ko; apply ko_execve. Qed.
Lemma ko_builtin sc : keepo (call_builtin w rec sc).
Proof.
  unfold call_builtin. cbv zeta.
  repeat match goal with |- keeps _ _ (if ?b then _ else _) => destruct b end;
    first [apply ko_fgbg|apply ko_export|apply ko_exec|apply ko_source|idtac];
    unfold change_directory, quit, save_history, return_cmd, jobs_cmd, alias_cmd, unalias_cmd, eval_cmd, unset_cmd, pwd, readonly_cmd, readonly_print,
      print_vars, print_readonly_functions, assignment_cmd, display_aliases, word_at, fail; ko;
    try apply ko_say_all; try apply ko_parse_text; try apply ko_complete.
  apply (keeps_try _ _ ours_pre). intros ? ? Hx. destruct (alias_builtin _ _); [|discriminate].
  injection Hx as <-. apply ours_same. reflexivity.
Qed.
Lemma ko_function sc : keepo (eval_function rec sc).
Proof. unfold eval_function. ko. Qed.
Lemma ko_command c : keepo (eval_command w rec c).
Proof. unfold eval_command, eval_simple_command, eval_builtin. ko. apply ko_builtin. Qed.
Lemma ko_gather cs : keepo (gather w rec cs).
Proof. induction cs; cbn [gather]; ko. apply ko_command. Qed.
Lemma ko_run_functions cs : keepo (run_functions rec cs).
Proof. induction cs; cbn [run_functions]; ko. apply ko_function. Qed.


(** A job without the process. *)
Definition lacks (id : Z) (s : shell) : Prop := exists j, get_job id (jobs (js (im s))) = Some j /\ ~ has_pid p j.
Definition starting (id : Z) (s s' : shell) : Prop :=
  basic (jobs (js (im s))) -> mine p (jobs (js (im s))) -> lacks id s -> basic (jobs (js (im s'))) /\ mine p (jobs (js (im s'))) /\ lacks id s'.
Lemma starting_pre id : preorder (starting id).
Proof.
  constructor.
  - intros s B H L. auto.
  - intros a b c Hab Hbc B H L. destruct (Hab B H L) as (B1 & H1 & L1). exact (Hbc B1 H1 L1).
Qed.
Lemma starting_same id s s' : js (im s') = js (im s) -> starting id s s'.
Proof. intros E B H L. unfold lacks. rewrite E. auto. Qed.
Lemma ks_fork {A} id c (k : option positive -> M A) : (forall r, (forall q, r = Some q -> Zpos q <> p) -> keeps true (starting id) (k r)) ->
  keeps true (starting id) (r <- fork_child w c ;; k r).
Proof.
  intros Hk. assert (K : keeps true (starting id) (fork_child w c)).
  { unfold fork_child. repeat keep_step (starting_pre id). apply keeps_note. intros s. apply starting_same. reflexivity. }
  apply keeps_bind_after; [exact K|]. intros s r s1 o s' H1 H2 Ho.
  eapply (pre_trans _ (starting_pre id)); [eapply K; [exact H1|left; reflexivity]|].
  eapply (Hk r); [|exact H2|exact Ho]. intros q ->. unfold fork_child, ask, bind, look, note, seq, ret, bind in H1. injection H1 as H1 _.
  eapply Hnever. exact H1.
Qed.
Lemma ks_launch id bg cs : forall i prev pip, keeps true (starting id) (launch w id bg i cs prev pip).
Proof.
  induction cs as [|[p0 sc] cs IH]; intros i prev pip; cbn [launch]; [apply (keeps_ret _ _ (starting_pre id))|].
  apply (keeps_bind _ _ (starting_pre id)).
  { destruct cs; [apply (keeps_ret _ _ (starting_pre id))|]. unfold make_pipe. repeat keep_step (starting_pre id). apply keeps_raw. intros s. apply starting_same. reflexivity. }
  intros pip'. apply ks_fork. intros r Hr. repeat keep_step (starting_pre id); try apply IH.
  - apply keeps_change. intros s B H (j & Ej & Hno). cbn [im js with_js with_jobs jobs].
    split; [apply started_basic, B|]. split; [eapply started_mine; [exact B|exact H|apply Hr; reflexivity|exact Ej|exact Hno]|].
    eexists. unfold get_job. cbn [im js with_js with_jobs jobs]. rewrite (started_get _ _ _ _ j _ B Ej), Z.eqb_refl. split; [reflexivity|].
    intros Hh. apply Hno. apply has_pid_map in Hh. apply has_pid_map. cbn in Hh.
    assert (Hq := Hr _ eq_refl). revert Hh. generalize (processes j). clear -Hq. intros ps. revert i. induction ps as [|x ps IH]; intros [|i]; cbn; auto.
    + intros [F|F]; [congruence|auto].
    + intros [F|F]; [auto|right; eapply IH; exact F].
  - unfold sys_close. apply (keeps_try _ _ (starting_pre id)). intros s x H. destruct (fd_close _ _); [|discriminate].
    injection H as <-. apply starting_same. reflexivity.
  - apply keeps_change. intros s. apply starting_same. apply close_ignored_js.
Qed.

Lemma run_job_ours bg pcs : Forall fresh pcs -> keepo (run_job w bg pcs).
Proof.
  intros Hf. destruct (fresh_new _ Hf) as [cmds Ec]. unfold run_job.
  intros s o s' H _ Hb Hm. unfold bind at 1, look at 1 in H. set (id := next_job_id (jobs (js (im s)))) in *.
  rewrite Ec in H. unfold seq at 1, on_jobs, change, bind at 1 in H.
  set (s1 := Shell _ (trace s)) in H.
  assert (W1 : ours s s1) by (apply ours_one with (OCreate cmds bg); reflexivity).
  destruct (W1 Hb Hm) as [B1 M1].
  assert (L1 : lacks id s1).
  { exists (job_new (map new_process cmds) id bg). split.
    - unfold get_job. cbn [s1 im js with_js with_jobs jobs]. rewrite create_get by exact Hb. unfold id. rewrite Z.eqb_refl. reflexivity.
    - intros Hh. apply has_pid_map in Hh. apply Hp. eapply new_pids. exact Hh. }
  apply seq_inv in H. destruct H as [([] & s2 & H1 & H2)|(o1 & H1 & F & ->)].
  2: { destruct (ks_launch _ _ _ _ _ _ _ _ _ H1 (or_introl eq_refl) B1 M1 L1) as (B2 & M2 & _). split; assumption. }
  destruct (ks_launch _ _ _ _ _ _ _ _ _ H1 (or_introl eq_refl) B1 M1 L1) as (B2 & M2 & j2 & L2 & _).
  assert (L3 : get_job id (jobs (js (im s2))) <> None) by congruence.
  assert (W3 : ours s2 s'); [|exact (W3 B2 M2)].
  apply seq_inv in H2. destruct H2 as [([] & s3 & H3 & H4)|(o1 & H3 & F & ->)].
  - eapply (pre_trans _ ours_pre) with s3.
    + destruct pcs as [|pc pcs].
      * assert (K : keepo (sh_delete_job id)) by ko. apply (K _ _ _ H3). left; reflexivity.
      * destruct bg.
        -- match type of H3 with ?m _ = _ => assert (K : keepo m) by ko end. apply (K _ _ _ H3). left; reflexivity.
        -- apply bind_inv_ok in H3. destruct H3 as (st & s4 & H3 & H5).
           eapply (pre_trans _ ours_pre); [eapply wait_ours; [intros _; exact L3|exact H3]|].
           match type of H5 with ?m _ = _ => assert (K : keepo m) by ko end. apply (K _ _ _ H5). left; reflexivity.
    + match type of H4 with ?m _ = _ => assert (K : keepo m) by ko end. apply (K _ _ _ H4). left; reflexivity.
  - destruct pcs as [|pc pcs].
    + assert (K : keepo (sh_delete_job id)) by ko. apply (K _ _ _ H3). left; reflexivity.
    + destruct bg.
      * match type of H3 with ?m _ = _ => assert (K : keepo m) by ko end. apply (K _ _ _ H3). left; reflexivity.
      * apply bind_inv in H3. destruct H3 as [(st & s4 & H3 & H5)|(o2 & H3 & F2 & _)].
        -- eapply (pre_trans _ ours_pre); [eapply wait_ours; [intros _; exact L3|exact H3]|].
           match type of H5 with ?m _ = _ => assert (K : keepo m) by ko end. apply (K _ _ _ H5). left; reflexivity.
        -- eapply wait_ours; [intros _; exact L3|exact H3].
Qed.
Lemma ko_pipeline pl : keepo (eval_pipeline w rec pl).
Proof.
  destruct pl as [b cs bg]. unfold eval_pipeline. apply (keeps_seq _ _ ours_pre); [ko|].
  apply keeps_bind_after; [apply ko_gather|]. intros s pcs s1 o s' H1 H2 _.
  eapply (pre_trans _ ours_pre); [eapply ko_gather; [exact H1|left; reflexivity]|].
  apply gather_fresh in H1. destruct pcs as [|pc pcs]; [injection H2 as <- <-; apply (pre_refl _ ours_pre)|].
  apply bind_inv in H2. destruct H2 as [(pcs' & s2 & H3 & H4)|(o2 & H3 & F2 & _)].
  - assert (Hf : Forall fresh pcs').
    { destruct bg; [injection H3 as <- _; exact H1|]. apply run_functions_incl in H3.
      rewrite Forall_forall in H1 |- *. intros x Hx. apply H1, H3, Hx. }
    eapply (pre_trans _ ours_pre); [|eapply (run_job_ours _ _ Hf); [exact H4|left; reflexivity]].
    destruct bg; [injection H3 as _ <-; apply (pre_refl _ ours_pre)|].
    eapply ko_run_functions; [exact H3|left; reflexivity].
  - destruct bg; [injection H3 as _ <-; apply (pre_refl _ ours_pre)|]. eapply ko_run_functions; [exact H3|left; reflexivity].
Qed.
Lemma ko_and_or a : keepo (eval_and_or w rec a).
Proof. induction a; cbn [eval_and_or]; ko; apply ko_pipeline. Qed.
Lemma ko_tree l : forall st, keepo (parse_tree_from w rec st l).
Proof. induction l; intros st; cbn [parse_tree_from]; ko; [apply ko_and_or|apply IHl]. Qed.
End Rec.

Theorem evaluate_ours w (Hnever : forall t q, r_fork (w t) = Some q -> Zpos q <> p) n : forall l, keepo (evaluate w n l).
Proof.
  induction n as [|n IH]; intros l; cbn [evaluate].
  - apply (keeps_stop _ _ ours_pre).
  - apply (ko_tree w Hnever). exact IH.
Qed.
End Mine.
