(** Every run changes the jobs, the signal mask and standard output only through
    the operations of JobsSpec.v. *)
From Verif Require Import Base BaseFacts Ast Parser Context Alias Expand Jobs JobsSpec JobsFacts JobsLaws Shell Builtins Eval.
From Verif Require Import EvalSpec EvalFacts EvalLaws EvalKeeps EvalStack.
Local Open Scope Z_scope.

Definition worked (s s' : shell) : Prop :=
  basic (jobs (js (im s))) -> exists ops, run ops (js (im s)) = Some (js (im s')).

Lemma run_app a : forall b m m1 m2, run a m = Some m1 -> run b m1 = Some m2 -> run (a ++ b) m = Some m2.
Proof.
  induction a as [|o a IH]; intros b m m1 m2; cbn [run app].
  - intros H. injection H as <-. auto.
  - destruct (step o m) as [m'|]; [|discriminate]. apply IH.
Qed.
Lemma worked_pre : preorder worked.
Proof.
  constructor.
  - intros s _. exists []. reflexivity.
  - intros a b c Hab Hbc Ha. destruct (Hab Ha) as [o1 E1].
    destruct (Hbc (run_basic _ _ _ Ha E1)) as [o2 E2]. exists (o1 ++ o2). eapply run_app; eassumption.
Qed.
Lemma worked_same s s' : js (im s') = js (im s) -> worked s s'.
Proof. intros E _. exists []. rewrite E. reflexivity. Qed.
Lemma worked_one o s s' : (basic (jobs (js (im s))) -> step o (js (im s)) = Some (js (im s'))) -> worked s s'.
Proof. intros E Hw. exists [o]. cbn. rewrite (E Hw). reflexivity. Qed.

Notation keepw := (keeps true worked).
Ltac worked_leaf :=
  match goal with
  | |- keeps _ _ interrupts_off => apply keeps_change; intro; apply worked_one with (OMask true); reflexivity
  | |- keeps _ _ interrupts_on => apply keeps_change; intro; apply worked_one with (OMask false); reflexivity
  | |- keeps _ _ (say ?t) => apply keeps_change; intro; apply worked_one with (OPrint t); reflexivity
  | |- keeps _ _ (sh_delete_job ?t) => apply keeps_change; intro; apply worked_one with (ODelete t); reflexivity
  | |- keeps _ _ (change _) => apply keeps_change; intro; apply worked_same; reflexivity
  | |- keeps _ _ (on_cm _) => apply keeps_change; intro; apply worked_same; reflexivity
  | |- keeps _ _ (set_exit_status _) => apply keeps_change; intro; apply worked_same; reflexivity
  | |- keeps _ _ get_exit_code => apply (keeps_look _ _ worked_pre)
  | |- keeps _ _ (note _) => apply keeps_note; intro; apply worked_same; reflexivity
  | |- keeps _ _ (try_cm _) => apply (keeps_try_cm _ _ _ worked_pre); intros; apply worked_same; reflexivity
  | |- keeps _ _ (expand_command _ _) => apply (keeps_expand _ _ worked_pre); intros; apply worked_same; reflexivity
  | |- keeps _ _ (fun s => (OOk _, Shell (im s) _)) => apply keeps_raw; intro; apply worked_same; reflexivity
  end.
Ltac kw := repeat first [worked_leaf|keep_step worked_pre].

Lemma kw_pipe w : keepw (make_pipe w).
Proof. unfold make_pipe. kw. apply keeps_raw. intros s. apply worked_same. reflexivity. Qed.
Lemma kw_open w p h : keepw (sys_open w p h).
Proof. unfold sys_open. kw. apply keeps_raw. intros s. apply worked_same. reflexivity. Qed.
Lemma close_ignored_js a i : js (match fd_close a (fds i) with Some t => with_fds t i | None => i end) = js i.
Proof. destruct (fd_close a (fds i)); reflexivity. Qed.
Lemma kw_close_ignored a : keepw (sys_close_ignored a).
Proof. apply keeps_change. intros s. apply worked_same. apply close_ignored_js. Qed.
Lemma kw_while {A} f (m : M A) : keepw m -> keepw (while_open f m).
Proof. intros H. unfold while_open. kw; apply kw_close_ignored. Qed.
Lemma kw_say_all ts : keepw (say_all ts).
Proof. induction ts; cbn [say_all]; kw. Qed.
Lemma kw_lookup w c : keepw (sh_lookup_command w c).
Proof. unfold sh_lookup_command. kw. Qed.
Lemma kw_set_env k v : keepw (set_env k v).
Proof.
  unfold set_env. apply (keeps_try _ _ worked_pre). intros s i H. destruct (_ || _)%bool; [discriminate|].
  injection H as <-. apply worked_same. reflexivity.
Qed.
Lemma kw_execve w a v e : keepw (temp_execve w a v e).
Proof. unfold temp_execve, fork_reset. kw. apply kw_lookup. Qed.
Lemma kw_sys_close a : keepw (sys_close a).
Proof.
  unfold sys_close. apply (keeps_try _ _ worked_pre). intros s i H. destruct (fd_close _ _); [|discriminate].
  injection H as <-. apply worked_same. reflexivity.
Qed.

(** Waiting for a job that exists. *)
Lemma wait_worked w id s o s' : (basic (jobs (js (im s))) -> get_job id (jobs (js (im s))) <> None) ->
  wait_job w id s = (o, s') -> worked s s'.
Proof.
  intros Hj H Hb. unfold wait_job in H.
  destruct (wait_for_job _ _ _ _) as [st j r| |] eqn:E; injection H as <- <-; [|exists []; reflexivity|exists []; reflexivity].
  exists [OWait (expand_var (cm (im s)) (lit "PS4")) id (r_waits (w (trace s)))]. cbn [run step].
  specialize (Hj Hb). destruct (get_job id (jobs (js (im s)))); [|congruence]. rewrite E. reflexivity.
Qed.

Section Rec.
Context (w : os) (rec : list and_or -> M Z).
Hypothesis Hrec : forall l, keepw (rec l).

Lemma kw_complete c : keepw (eval_complete rec c).
Proof. unfold eval_complete. kw. Qed.
Lemma kw_parse_text t : keepw (parse_text t).
Proof. unfold parse_text. kw. Qed.

Lemma found_job (by_job : bool) n jc j :
  basic jc -> (if by_job then get_job n jc else get_job_pid (to_i32 n) jc) = Some j -> get_job (job_id j) jc = Some j.
Proof.
  intros B. destruct by_job.
  - intros H. rewrite (b_ids _ B _ _ H). exact H.
  - unfold get_job_pid. destruct (nget _ _) as [k|]; [|discriminate]. intros H. rewrite (b_ids _ B _ _ H). exact H.
Qed.
Lemma kw_fg_or_bg fg by_job n : keepw (fg_or_bg w fg by_job n).
Proof.
  intros s o s' H _ Hb. unfold fg_or_bg in H. unfold bind at 1, look in H.
  destruct (if by_job then _ else _) as [j|] eqn:Ej.
  2: { unfold fail in H. destruct by_job; cbn in H; injection H as <- <-; exists []; reflexivity. }
  destruct (borrowed j); [cbn in H; injection H as <- <-; exists []; reflexivity|].
  apply (found_job _ _ _ _ Hb) in Ej. unfold bind at 1, ask in H.
  set (killed := r_kill (w (trace s))) in *.
  unfold seq at 1, bind at 1 in H. cbv beta iota in H.
  unfold seq at 1, bind at 1, try_ in H. cbn [im] in H.
  destruct (resume fg killed (job_id j) (js (im s))) as [j1|] eqn:Er.
  2: { cbn in H. injection H as <- <-. exists []. reflexivity. }
  assert (W : forall s1, js (im s1) = j1 -> worked s s1).
  { intros s1 E. apply worked_one with (OResume fg killed (job_id j)). intros _. cbn. rewrite Er, E. reflexivity. }
  destruct fg; [|injection H as <- <-; apply W; [reflexivity|exact Hb]].
  assert (L : get_job (job_id j) (jobs j1) <> None).
  { apply resume_spec in Er. destruct Er as [[E _]|(j2 & E & E1)]; [congruence|]. rewrite E1.
    unfold get_job, put_job. cbn. rewrite nget_ninsert by apply Hb. rewrite Z.eqb_refl. discriminate. }
  match type of H with _ ?x = _ => set (s1 := x) in * end.
  assert (W1 : worked s s1) by (apply W; reflexivity).
  apply seq_inv in H. destruct H as [(st & s2 & H1 & H2)|(o1 & H1 & F & ->)].
  - injection H2 as <- <-. eapply (pre_trans _ worked_pre); [exact W1| |exact Hb].
    eapply wait_worked; [intros _; exact L|exact H1].
  - eapply (pre_trans _ worked_pre); [exact W1| |exact Hb]. eapply wait_worked; [intros _; exact L|exact H1].
Qed.
Lemma kw_fgbg sc : keepw (fgbg w sc).
Proof. unfold fgbg, word_at, fail. kw. apply kw_fg_or_bg. Qed.

Lemma kw_context_file f : keepw (create_context_from_file w rec f).
Proof.
  unfold create_context_from_file. kw; [apply kw_open|]. apply kw_while. kw; first [apply kw_parse_text|apply kw_complete].
Qed.
Lemma kw_export_words ws : keepw (export_words ws).
Proof. induction ws; cbn [export_words]; unfold export_word; kw; apply kw_set_env. Qed.
Lemma kw_export sc : keepw (export_cmd w rec sc).
Proof.
  unfold export_cmd, print_env, export_context, fail.
  kw; first [apply kw_say_all|apply kw_context_file|apply kw_export_words].
Qed.
Lemma kw_source_args args : forall i, keepw (source_args i args).
Proof. induction args; intros i; cbn [source_args]; kw; apply IHargs. Qed.
Lemma kw_source sc : keepw (source_cmd w rec sc).
Proof.
  unfold source_cmd, fail. kw; try apply kw_source_args; try apply kw_lookup; try apply kw_open.
  apply kw_while. kw; first [apply kw_parse_text|apply kw_complete].
Qed.
Lemma kw_exec sc : keepw (exec_cmd w sc).
Proof. unfold exec_cmd, exec_opts1, exec_opts2, word_at, fail. cbv zeta. kw; apply kw_execve. Qed.
Lemma kw_builtin sc : keepw (call_builtin w rec sc).
Proof.
  unfold call_builtin. cbv zeta.
  repeat match goal with |- keeps _ _ (if ?b then _ else _) => destruct b end;
    first [apply kw_fgbg|apply kw_export|apply kw_exec|apply kw_source|idtac];
    unfold change_directory, quit, save_history, return_cmd, jobs_cmd, alias_cmd, unalias_cmd, eval_cmd, unset_cmd, pwd, readonly_cmd, readonly_print,
      print_vars, print_readonly_functions, assignment_cmd, display_aliases, word_at, fail; kw;
    try apply kw_say_all; try apply kw_parse_text; try apply kw_complete.
  apply (keeps_try _ _ worked_pre). intros ? ? Hx. destruct (alias_builtin _ _); [|discriminate].
  injection Hx as <-. apply worked_same. reflexivity.
Qed.
Lemma kw_function sc : keepw (eval_function rec sc).
Proof. unfold eval_function. kw. Qed.
Lemma kw_command c : keepw (eval_command w rec c).
Proof. unfold eval_command, eval_simple_command, eval_builtin. kw. apply kw_builtin. Qed.
Lemma kw_gather cs : keepw (gather w rec cs).
Proof. induction cs; cbn [gather]; kw. apply kw_command. Qed.
Lemma kw_run_functions cs : keepw (run_functions rec cs).
Proof. induction cs; cbn [run_functions]; kw. apply kw_function. Qed.

(** The processes of a pipeline are new when its job is created. *)
Definition fresh (pc : process * simple_command) : Prop := exists c, fst pc = new_process c.
Lemma gather_fresh cs : forall s pcs s', gather w rec cs s = (OOk pcs, s') -> Forall fresh pcs.
Proof.
  induction cs as [|c cs IH]; intros s pcs s' H; cbn [gather] in H.
  - injection H as <- _. constructor.
  - apply bind_inv_ok in H. destruct H as (r & s1 & H1 & H2). destruct r as [pc|]; [|injection H2 as <- _; constructor].
    apply bind_inv_ok in H2. destruct H2 as (rest & s2 & H2 & H3). injection H3 as <- _.
    constructor; [|eapply IH; exact H2].
    destruct c as [sc|b|nm b rd]; cbn [eval_command] in H1.
    + unfold eval_simple_command in H1. destruct (check_if_builtin _).
      * apply seq_inv_ok in H1. destruct H1 as (x & s3 & _ & H1). discriminate.
      * apply bind_inv_ok in H1. destruct H1 as (sc' & s3 & _ & H1).
        apply bind_inv_ok in H1. destruct H1 as (v & s4 & _ & H1). injection H1 as <- _.
        exists (v, sc_name sc', sc_name sc'). reflexivity.
    + discriminate.
    + apply seq_inv_ok in H1. destruct H1 as (x & s3 & _ & H1). discriminate.
Qed.
Lemma run_functions_incl cs : forall s pcs s', run_functions rec cs s = (OOk pcs, s') -> incl pcs cs.
Proof.
  induction cs as [|c cs IH]; intros s pcs s' H; cbn [run_functions] in H.
  - injection H as <- _. apply incl_refl.
  - apply bind_inv_ok in H. destruct H as (m & s1 & _ & H). destruct (is_function _ m).
    + apply bind_inv_ok in H. destruct H as ([] & s2 & _ & H); [|discriminate].
      apply bind_inv_ok in H. destruct H as ([] & s3 & _ & H); [discriminate|].
      apply seq_inv_ok in H. destruct H as (x & s4 & _ & H). intros y Hy. right. apply (IH _ _ _ H y Hy).
    + apply bind_inv_ok in H. destruct H as (rest & s2 & H & H3). injection H3 as <- _.
      intros y [->|Hy]; [left; reflexivity|right; apply (IH _ _ _ H y Hy)].
Qed.

(** Starting the processes of a job keeps it in the table. *)
Definition starting (id : Z) (s s' : shell) : Prop :=
  worked s s' /\ (basic (jobs (js (im s))) -> get_job id (jobs (js (im s))) <> None -> get_job id (jobs (js (im s'))) <> None).
Lemma starting_pre id : preorder (starting id).
Proof.
  constructor.
  - intros s. split; [apply (pre_refl _ worked_pre)|auto].
  - intros a b c [Wab Lab] [Wbc Lbc]. split; [exact (pre_trans _ worked_pre _ _ _ Wab Wbc)|].
    intros Hb Hl. destruct (Wab Hb) as [ops E]. apply Lbc; [exact (run_basic _ _ _ Hb E)|auto].
Qed.
Lemma starting_same id s s' : js (im s') = js (im s) -> starting id s s'.
Proof. intros E. split; [apply worked_same; exact E|rewrite E; auto]. Qed.
Lemma ks_launch id bg cs : forall i prev pip, keeps true (starting id) (launch w id bg i cs prev pip).
Proof.
  induction cs as [|[p sc] cs IH]; intros i prev pip; cbn [launch]; [apply (keeps_ret _ _ (starting_pre id))|].
  unfold fork_child. repeat keep_step (starting_pre id); try apply IH.
  - unfold make_pipe. repeat keep_step (starting_pre id). apply keeps_raw. intros s. apply starting_same. reflexivity.
  - apply keeps_note. intros s. apply starting_same. reflexivity.
  - apply keeps_change. intros s. split; [eapply worked_one with (OStart _ _ _); reflexivity|].
    intros Hb Hl. cbn. unfold started. destruct (get_job id (jobs (js (im s)))) as [j|] eqn:E; [|congruence].
    unfold get_job, update_pid_table, put_job. cbn. rewrite nget_ninsert by apply Hb. rewrite Z.eqb_refl. discriminate.
  - unfold sys_close. apply (keeps_try _ _ (starting_pre id)). intros s x H. destruct (fd_close _ _); [|discriminate].
    injection H as <-. apply starting_same. reflexivity.
  - apply keeps_change. intros s. apply starting_same. apply close_ignored_js.
Qed.

Lemma fresh_new pcs : Forall fresh pcs -> exists cmds, map fst pcs = map new_process cmds.
Proof.
  induction 1 as [|pc pcs [c E] _ [cmds IH]]; [exists []; reflexivity|]. exists (c :: cmds). cbn. rewrite E, IH. reflexivity.
Qed.
Lemma run_job_worked bg pcs : Forall fresh pcs -> keepw (run_job w bg pcs).
Proof.
  intros Hf. destruct (fresh_new _ Hf) as [cmds Ec]. unfold run_job.
  intros s o s' H _ Hb. unfold bind at 1, look at 1 in H. set (id := next_job_id (jobs (js (im s)))) in *.
  rewrite Ec in H. unfold seq at 1, on_jobs, change, bind at 1 in H.
  set (s1 := Shell _ (trace s)) in H.
  assert (W1 : worked s s1) by (apply worked_one with (OCreate cmds bg); reflexivity).
  assert (B1 : basic (jobs (js (im s1)))) by (cbn; apply create_basic, Hb).
  assert (L1 : get_job id (jobs (js (im s1))) <> None).
  { cbn. unfold get_job. rewrite nget_ninsert by apply Hb. unfold id. rewrite Z.eqb_refl. discriminate. }
  apply seq_inv in H. destruct H as [([] & s2 & H1 & H2)|(o1 & H1 & F & ->)].
  2: { eapply (pre_trans _ worked_pre); [exact W1| |exact Hb]. eapply ks_launch; [exact H1|left; reflexivity]. }
  destruct (ks_launch _ _ _ _ _ _ _ _ _ H1 (or_introl eq_refl)) as [W2 L2]. specialize (L2 B1 L1).
  assert (W02 := pre_trans _ worked_pre _ _ _ W1 W2).
  eapply (pre_trans _ worked_pre); [exact W02| |exact Hb].
  apply seq_inv in H2. destruct H2 as [([] & s3 & H3 & H4)|(o1 & H3 & F & ->)].
  - eapply (pre_trans _ worked_pre) with s3.
    + destruct pcs as [|pc pcs].
      * revert H3. revert s2 s3 H1 W2 L2 W02 H4. intros. assert (K : keepw (sh_delete_job id)) by kw. apply (K _ _ _ H3). left; reflexivity.
      * destruct bg.
        -- match type of H3 with ?m _ = _ => assert (K : keepw m) by kw end. apply (K _ _ _ H3). left; reflexivity.
        -- apply bind_inv_ok in H3. destruct H3 as (st & s4 & H3 & H5).
           eapply (pre_trans _ worked_pre); [eapply wait_worked; [intros _; exact L2|exact H3]|].
           match type of H5 with ?m _ = _ => assert (K : keepw m) by kw end. apply (K _ _ _ H5). left; reflexivity.
    + match type of H4 with ?m _ = _ => assert (K : keepw m) by kw end. apply (K _ _ _ H4). left; reflexivity.
  - destruct pcs as [|pc pcs].
    + assert (K : keepw (sh_delete_job id)) by kw. apply (K _ _ _ H3). left; reflexivity.
    + destruct bg.
      * match type of H3 with ?m _ = _ => assert (K : keepw m) by (clear; kw) end. apply (K _ _ _ H3). left; reflexivity.
      * apply bind_inv in H3. destruct H3 as [(st & s4 & H3 & H5)|(o2 & H3 & F2 & _)].
        -- eapply (pre_trans _ worked_pre); [eapply wait_worked; [intros _; exact L2|exact H3]|].
           match type of H5 with ?m _ = _ => assert (K : keepw m) by kw end. apply (K _ _ _ H5). left; reflexivity.
        -- eapply wait_worked; [intros _; exact L2|exact H3].
Qed.
Lemma kw_pipeline p : keepw (eval_pipeline w rec p).
Proof.
  destruct p as [b cs bg]. unfold eval_pipeline. apply (keeps_seq _ _ worked_pre); [kw|].
  apply keeps_bind_after; [apply kw_gather|]. intros s pcs s1 o s' H1 H2 _.
  eapply (pre_trans _ worked_pre); [eapply kw_gather; [exact H1|left; reflexivity]|].
  apply gather_fresh in H1. destruct pcs as [|pc pcs]; [injection H2 as <- <-; apply (pre_refl _ worked_pre)|].
  apply bind_inv in H2. destruct H2 as [(pcs' & s2 & H3 & H4)|(o2 & H3 & F2 & _)].
  - assert (Hf : Forall fresh pcs').
    { destruct bg; [injection H3 as <- _; exact H1|]. apply run_functions_incl in H3.
      rewrite Forall_forall in H1 |- *. intros x Hx. apply H1, H3, Hx. }
    eapply (pre_trans _ worked_pre); [|eapply (run_job_worked _ _ Hf); [exact H4|left; reflexivity]].
    destruct bg; [injection H3 as _ <-; apply (pre_refl _ worked_pre)|].
    eapply kw_run_functions; [exact H3|left; reflexivity].
  - destruct bg; [injection H3 as _ <-; apply (pre_refl _ worked_pre)|]. eapply kw_run_functions; [exact H3|left; reflexivity].
Qed.
Lemma kw_and_or a : keepw (eval_and_or w rec a).
Proof. induction a; cbn [eval_and_or]; kw; apply kw_pipeline. Qed.
Lemma kw_tree l : forall st, keepw (parse_tree_from w rec st l).
Proof. induction l; intros st; cbn [parse_tree_from]; kw; [apply kw_and_or|apply IHl]. Qed.
End Rec.

Theorem evaluate_worked w n : forall l, keepw (evaluate w n l).
Proof.
  induction n as [|n IH]; intros l; cbn [evaluate].
  - apply (keeps_stop _ _ worked_pre).
  - apply kw_tree. exact IH.
Qed.
