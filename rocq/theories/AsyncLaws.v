(** The evaluator with signals: what holds whenever they arrive. *)
From Verif Require Import Base BaseFacts Ast Parser Context Alias Expand Jobs JobsSpec JobsFacts JobsLaws Shell Builtins Eval Async.
From Verif Require Import EvalSpec EvalFacts EvalLaws EvalKeeps EvalStack EvalJobs EvalHistory PipeSpec PipeLaws EvalFds.
Local Open Scope Z_scope.

(** ** Jobs: signals and waits are histories *)

(** [s'] comes from [s] by operations on the jobs, none of which makes or starts one. *)
Definition calm (o : op) : bool := match o with OCreate _ _ | OStart _ _ _ => false | _ => true end.
Definition went (s s' : jst) : Prop := exists ops, forallb calm ops = true /\ run ops s = Some s'.
Lemma went_refl s : went s s.
Proof. exists []. split; reflexivity. Qed.
Lemma went_trans a b c : went a b -> went b c -> went a c.
Proof.
  intros (x & C & H) (y & D & K). exists (x ++ y). split; [rewrite forallb_app, C, D; reflexivity|]. eapply run_app; eassumption.
Qed.
Lemma went_one o s s' : (if calm o then step o s else None) = Some s' -> went s s'.
Proof. destruct (calm o) eqn:C; [|discriminate]. intros H. exists [o]. cbn. rewrite C, H. split; reflexivity. Qed.

Lemma borrowed_signal_went as_ s u s' r : borrowed_signal as_ s = WDone u s' r -> went s s'.
Proof.
  assert (W : went s (with_sigchld true s)) by (apply went_one with (OSig None [AFail]); reflexivity).
  unfold borrowed_signal. destruct as_ as [|[[]| |] as_]; try discriminate; intros H; injection H as _ <- _; exact W.
Qed.
Lemma inside_went n : forall as_ s u s' r, inside n as_ s = WDone u s' r -> went s s'.
Proof.
  induction n as [|n IH]; intros as_ s u s' r; cbn [inside].
  - intros H. injection H as _ <- _. apply went_refl.
  - destruct (borrowed_signal as_ s) as [v s1 r1| |] eqn:E; try discriminate. apply borrowed_signal_went in E.
    intros H. eapply went_trans; [exact E|eapply IH; exact H].
Qed.
Lemma interrupted_went n d x u s' r : interrupted n d x = WDone u s' r ->
  exists v s1 r1, x = WDone v s1 r1 /\ went s1 s'.
Proof.
  destruct x as [v s1 r1| |]; cbn [interrupted]; try discriminate. intros H. exists v, s1, r1. split; [reflexivity|].
  destruct d; [eapply inside_went; exact H|injection H as _ <- _; apply went_refl].
Qed.
Lemma in_sigint_went h l : (forall n as_ s u s' r, h n as_ s = WDone u s' r -> went s s') ->
  forall as_ s u s' r, in_sigint h l as_ s = WDone u s' r -> went s s'.
Proof.
  intros Hh. induction l as [|n l IH]; intros as_ s u s' r; cbn [in_sigint].
  - intros H. injection H as _ <- _. apply went_refl.
  - destruct (h n as_ s) as [v s1 r1| |] eqn:E; try discriminate. apply Hh in E.
    intros H. eapply went_trans; [exact E|eapply IH; exact H].
Qed.
Lemma handled_went ps4 n as_ s u s' r : handled ps4 n as_ s = WDone u s' r -> went s s'.
Proof.
  intros E. apply interrupted_went in E. destruct E as (v & s2 & r2 & E & W).
  eapply went_trans; [|exact W]. apply went_one with (OSig ps4 as_). cbn. rewrite E. reflexivity.
Qed.
Lemma handled_job_went ps4 id n as_ s u s' r : handled_job ps4 id n as_ s = WDone u s' r -> went s s'.
Proof.
  intros E. apply interrupted_went in E. destruct E as (v & s2 & r2 & E & W).
  eapply went_trans; [|exact W]. apply went_one with (OSigJob ps4 id as_). cbn [step]. rewrite E. reflexivity.
Qed.
Lemma deliver_went ps4 ks : forall as_ s ks' s' r, deliver ps4 ks as_ s = WDone ks' s' r -> went s s'.
Proof.
  induction ks as [|[n|l|] ks IH]; intros as_ s ks' s' r; cbn [deliver].
  - intros H. injection H as _ <- _. apply went_refl.
  - destruct (masked s); [apply IH|]. destruct (handled ps4 n as_ s) as [[] s1 r1| |] eqn:E; try discriminate.
    intros H. eapply went_trans; [eapply handled_went; exact E|eapply IH; exact H].
  - destruct (in_sigint _ l as_ s) as [[] s1 r1| |] eqn:E; try discriminate.
    intros H. eapply went_trans; [eapply in_sigint_went; [|exact E]|eapply IH; exact H]. intros *; apply handled_went.
  - intros H. injection H as _ <- _. apply went_refl.
Qed.
Lemma deliver_borrowed_went ks : forall as_ s ks' s' r, deliver_borrowed ks as_ s = WDone ks' s' r -> went s s'.
Proof.
  induction ks as [|[n|l|] ks IH]; intros as_ s ks' s' r; cbn [deliver_borrowed].
  - intros H. injection H as _ <- _. apply went_refl.
  - destruct (borrowed_signal as_ s) as [v s1 r1| |] eqn:E; try discriminate. apply borrowed_signal_went in E.
    intros H. eapply went_trans; [exact E|eapply IH; exact H].
  - destruct (in_sigint _ l as_ s) as [[] s1 r1| |] eqn:E; try discriminate.
    intros H. eapply went_trans; [eapply in_sigint_went; [|exact E]|eapply IH; exact H]. intros *; apply borrowed_signal_went.
  - intros H. injection H as _ <- _. apply went_refl.
Qed.
Lemma deliver_job_went ps4 id ks : forall as_ s ks' s' r, deliver_job ps4 id ks as_ s = WDone ks' s' r -> went s s'.
Proof.
  induction ks as [|[n|l|] ks IH]; intros as_ s ks' s' r; cbn [deliver_job].
  - intros H. injection H as _ <- _. apply went_refl.
  - destruct (masked s); [apply IH|]. destruct (handled_job ps4 id n as_ s) as [[] s1 r1| |] eqn:E; try discriminate.
    intros H. eapply went_trans; [eapply handled_job_went; exact E|eapply IH; exact H].
  - destruct (in_sigint _ l as_ s) as [[] s1 r1| |] eqn:E; try discriminate.
    intros H. eapply went_trans; [eapply in_sigint_went; [|exact E]|eapply IH; exact H]. intros *; apply handled_job_went.
  - intros H. injection H as _ <- _. apply went_refl.
Qed.
Lemma wait_loop_went ps4 n id : forall ks as_ s ks' s' r, wait_loop_async ps4 n id ks as_ s = WDone ks' s' r -> went s s'.
Proof.
  induction n as [|n IH]; intros ks as_ s ks' s' r; cbn [wait_loop_async]; [discriminate|].
  destruct (wait_one ps4 id as_ s) as [x s1 r1| |] eqn:E; try discriminate.
  assert (W : went s s1) by (apply went_one with (OWaitOne ps4 id as_); cbn; rewrite E; reflexivity).
  destruct x; [|intros H; eapply went_trans; [exact W|eapply deliver_went; exact H]..].
  destruct (deliver ps4 ks r1 s1) as [ks2 s2 r2| |] eqn:D; try discriminate.
  intros H. eapply went_trans; [exact W|]. eapply went_trans; [eapply deliver_went; exact D|eapply IH; exact H].
Qed.
Lemma wait_async_went ps4 id ks as_ s st s' r : wait_for_job_async ps4 id ks as_ s = WDone st s' r -> went s s'.
Proof.
  unfold wait_for_job_async. destruct (deliver ps4 ks as_ s) as [ks0 s0 r0| |] eqn:D; try discriminate.
  apply deliver_went in D. destruct (do_wait_async ps4 id ks0 r0 s0) as [ks1 s1 r1| |] eqn:E; try discriminate.
  assert (W : went s0 s1).
  { unfold do_wait_async in E. destruct (_ && _)%bool; [injection E as _ <- _; apply went_refl|eapply wait_loop_went; exact E]. }
  destruct (get_job id (jobs s1)) as [j|]; [|discriminate].
  destruct (_ || _)%bool.
  2: { intros H. injection H as _ <- _. eapply went_trans; eassumption. }
  destruct (delete_async id ks1 r1 s1) as [ks2 s2 r2| |] eqn:Ed; try discriminate.
  unfold delete_async in Ed. apply deliver_borrowed_went in Ed.
  destruct (deliver ps4 ks2 r2 s2) as [ks3 s3 r3| |] eqn:D3; try discriminate. apply deliver_went in D3.
  intros H. injection H as _ <- _. eapply went_trans; [exact D|]. eapply went_trans; [exact W|].
  eapply went_trans; [apply went_one with (ODelete id); reflexivity|]. eapply went_trans; eassumption.
Qed.

(** ** Everything but the jobs *)

(** A step that touches nothing but the jobs and the history. *)
Definition jobs_only (s s' : shell) : Prop :=
  im s' = with_js (js (im s')) (im s) /\ went (js (im s)) (js (im s')) /\ EvalFacts.later (trace s) (trace s').
Ltac longer := first [exists []; reflexivity | eexists; reflexivity | eexists [_]; reflexivity].
Lemma jobs_only_refl s : jobs_only s s.
Proof. split; [destruct s as [[] ?]; reflexivity|]. split; [apply went_refl|longer]. Qed.
Lemma taken_jobs w sg p f s o s' :
  (forall ps4 ks as_ j ks' j' r, f ps4 ks as_ j = WDone ks' j' r -> went j j') -> taken w sg p f s = (o, s') -> jobs_only s s'.
Proof.
  intros Hf H. unfold taken in H. destruct (_ && _)%bool; [injection H as _ <-; apply jobs_only_refl|]. destruct (arriving sg p s) as [|k ks]; [injection H as _ <-; apply jobs_only_refl|].
  match type of H with context [f ?a ?b ?c ?d] => destruct (f a b c d) as [x j r| |] eqn:E end;
    injection H as _ <-; try apply jobs_only_refl. apply Hf in E. split; [reflexivity|]. split; [exact E|longer].
Qed.
Lemma signals_jobs w sg p s o s' : signals w sg p s = (o, s') -> jobs_only s s'.
Proof. apply taken_jobs. intros. eapply deliver_went; eassumption. Qed.
Lemma signals_job_jobs w sg p id s o s' : signals_job w sg p id s = (o, s') -> jobs_only s s'.
Proof. apply taken_jobs. intros. eapply deliver_job_went; eassumption. Qed.
Lemma sh_delete_jobs w sg id s o s' : sh_delete_async w sg id s = (o, s') -> jobs_only s s'.
Proof.
  intros H. unfold sh_delete_async in H. unfold seq, bind, sh_delete_job, change in H. cbv zeta in H.
  apply taken_jobs in H; [|intros; eapply deliver_borrowed_went; eassumption].
  destruct H as (E & W & L). cbn [im trace] in *. split; [|split; [|exact L]].
  - rewrite E. destruct (im s); reflexivity.
  - eapply went_trans; [|exact W]. apply went_one with (ODelete id). reflexivity.
Qed.
Lemma wait_async_jobs w sg id s o s' : wait_job_async w sg id s = (o, s') -> jobs_only s s'.
Proof.
  intros H. unfold wait_job_async in H.
  match type of H with context [wait_for_job_async ?a ?b ?c ?d ?e] => destruct (wait_for_job_async a b c d e) as [x j r| |] eqn:E end;
    injection H as _ <-; try apply jobs_only_refl. apply wait_async_went in E. split; [reflexivity|]. split; [exact E|longer].
Qed.

Lemma jobs_only_trans a b c : jobs_only a b -> jobs_only b c -> jobs_only a c.
Proof.
  intros (E1 & W1 & [x L1]) (E2 & W2 & [y L2]). split; [rewrite E2, E1; reflexivity|]. split; [eapply went_trans; eassumption|].
  exists (y ++ x). rewrite L2, L1. apply app_assoc.
Qed.
Lemma jobs_only_pre : preorder jobs_only.
Proof. constructor; [exact jobs_only_refl|exact jobs_only_trans]. Qed.
Lemma jobs_only_op o s j : (if calm o then step o (js (im s)) else None) = Some j -> jobs_only s (Shell (with_js j (im s)) (trace s)).
Proof. intros H. split; [reflexivity|]. split; [apply went_one with o; exact H|longer]. Qed.
Lemma expand_jobs w sg sc : keeps true jobs_only (expand_async w sg sc).
Proof.
  assert (He : keeps true jobs_only (expand_command w sc)).
  { apply (keeps_expand _ _ jobs_only_pre). intros s log. split; [destruct s as [[] ?]; reflexivity|]. split; [apply went_refl|longer]. }
  intros s o s' H Ho. unfold expand_async in H. destruct (expand _ _ _ _ _) as [[sc' [|x l]]|]; try (eapply He; eassumption).
  destruct (cut_short _ _); [injection H as _ <-; apply jobs_only_refl|eapply He; eassumption].
Qed.
Lemma fgbg_jobs w sg sc : keeps true jobs_only (fgbg_async w sg sc).
Proof.
  unfold fgbg_async, fg_or_bg_async, fail, word_at, interrupts_off, interrupts_on. repeat keep_step jobs_only_pre.
  all: try (apply keeps_change; intros s; eapply jobs_only_op with (OMask _); reflexivity).
  all: try (apply keeps_raw; intros s; split; [destruct s as [[] ?]; reflexivity|]; split; [apply went_refl|longer]).
  - apply (keeps_try _ _ jobs_only_pre). intros s i H. destruct (resume _ _ _ _) as [j1|] eqn:E; [|discriminate]. injection H as <-.
    eapply jobs_only_op with (OResume _ _ _). exact E.
  - intros s o s' H _. eapply wait_async_jobs; exact H.
Qed.

(** ** Relations kept by the evaluator with signals *)

Section Keep.
Context (R : shell -> shell -> Prop) (P : preorder R) (all : bool).
Hypothesis Rjobs : forall s s', jobs_only s s' -> R s s'.

Lemma ka_signals w sg p : keeps all R (signals w sg p).
Proof. intros s o s' H _. apply Rjobs. eapply signals_jobs; exact H. Qed.
Lemma ka_signals_job w sg p id : keeps all R (signals_job w sg p id).
Proof. intros s o s' H _. apply Rjobs. eapply signals_job_jobs; exact H. Qed.
Lemma ka_delete w sg id : keeps all R (sh_delete_async w sg id).
Proof. intros s o s' H _. apply Rjobs. eapply sh_delete_jobs; exact H. Qed.
Lemma ka_wait w sg id : keeps all R (wait_job_async w sg id).
Proof. intros s o s' H _. apply Rjobs. eapply wait_async_jobs; exact H. Qed.
Lemma ka_mask b : keeps all R (change (fun i => with_js (with_masked b (js i)) i)).
Proof.
  intros s o s' H _. injection H as _ <-. apply Rjobs. apply jobs_only_op with (OMask b). reflexivity.
Qed.

Context (w : os) (sg : point -> list event -> arrivals).

Section Rec.
Context (rec : list and_or -> M Z).
Hypothesis Hbuiltin : forall sc, keeps all R (call_builtin w rec sc).
Hypothesis Hdefine : forall name b, keeps all R (on_cm (add_function name b)).
Hypothesis Hfun : forall cs, keeps all R (run_functions rec cs).
Hypothesis Hjob : forall bg cs, Forall fresh cs -> keeps all R (run_job_async w sg bg cs).

Lemma ka_jobs {A} (m : M A) : keeps true jobs_only m -> keeps all R m.
Proof. intros H s o s' E _. apply Rjobs. eapply H; [exact E|left; reflexivity]. Qed.
Lemma ka_command c : keeps all R (eval_command_async w sg rec c).
Proof.
  destruct c as [sc|l|name b rd]; cbn [eval_command_async eval_command].
  - unfold eval_simple_command_async, eval_builtin_async. repeat keep_step P; try (apply ka_jobs, expand_jobs); try (apply ka_jobs, fgbg_jobs).
  - apply (keeps_stop _ _ P).
  - apply (keeps_seq _ _ P); [apply Hdefine|apply (keeps_ret _ _ P)].
Qed.
Lemma Hgather cs : keeps all R (gather_async w sg rec cs).
Proof. induction cs; cbn [gather_async]; repeat keep_step P. apply ka_command. Qed.
Lemma gather_async_fresh cs : forall s pcs s', gather_async w sg rec cs s = (OOk pcs, s') -> Forall fresh pcs.
Proof.
  induction cs as [|c cs IH]; intros s pcs s' H; cbn [gather_async] in H.
  - injection H as <- _. constructor.
  - apply bind_inv_ok in H. destruct H as (r & s1 & H1 & H2). destruct r as [pc|]; [|injection H2 as <- _; constructor].
    apply bind_inv_ok in H2. destruct H2 as (rest & s2 & H2 & H3). injection H3 as <- _.
    constructor; [|eapply IH; exact H2].
    destruct c as [sc|b|nm b rd]; cbn [eval_command_async eval_command] in H1.
    + unfold eval_simple_command_async in H1. destruct (check_if_builtin _).
      * apply seq_inv_ok in H1. destruct H1 as (x & s3 & _ & H1). discriminate.
      * apply bind_inv_ok in H1. destruct H1 as (sc' & s3 & _ & H1).
        apply bind_inv_ok in H1. destruct H1 as (v & s4 & _ & H1). injection H1 as <- _.
        exists (v, sc_name sc', sc_name sc'). reflexivity.
    + discriminate.
    + apply seq_inv_ok in H1. destruct H1 as (x & s3 & _ & H1). discriminate.
Qed.
Lemma ka_pipeline p : keeps all R (eval_pipeline_async w sg rec p).
Proof.
  destruct p as [b cs bg]. unfold eval_pipeline_async.
  apply (keeps_seq _ _ P); [apply ka_signals|]. apply (keeps_seq _ _ P); [apply ka_mask|].
  apply keeps_bind_after; [apply Hgather|]. intros s pcs s1 o s' H1 H2 Ho.
  eapply (pre_trans _ P); [eapply Hgather; [exact H1|right; exact I]|].
  apply gather_async_fresh in H1. revert H2 Ho. revert s1 o s'.
  match goal with |- forall s1 o s', ?m s1 = _ -> _ -> R s1 s' => change (keeps all R m) end.
  apply (keeps_bind _ _ P); [|intros; keep P; apply ka_signals].
  destruct pcs as [|pc pcs]; [apply (keeps_ret _ _ P)|].
  apply keeps_bind_after; [destruct bg; [apply (keeps_ret _ _ P)|apply Hfun]|].
  intros s2 pcs' s3 o s' H3 H4 Ho.
  assert (Hf : Forall fresh pcs').
  { destruct bg; [injection H3 as <- _; exact H1|]. apply run_functions_incl in H3.
    rewrite Forall_forall in H1 |- *. intros x Hx. apply H1, H3, Hx. }
  eapply (pre_trans _ P) with s3.
  - destruct bg; [injection H3 as _ <-; apply (pre_refl _ P)|]. eapply Hfun; [exact H3|right; exact I].
  - assert (K : keeps all R (signals w sg PFunctions ;; run_job_async w sg bg pcs')).
    { apply (keeps_seq _ _ P); [apply ka_signals|apply Hjob; exact Hf]. }
    eapply K; [exact H4|exact Ho].
Qed.
Lemma ka_and_or a : keeps all R (eval_and_or_async w sg rec a).
Proof. induction a; cbn [eval_and_or_async]; keep P; apply ka_pipeline. Qed.
Lemma ka_tree l : forall st, keeps all R (parse_tree_async w sg rec st l).
Proof. induction l; intros st; cbn [parse_tree_async]; keep P; [apply ka_and_or|apply IHl]. Qed.
End Rec.

Theorem ka_evaluate :
  (forall rec, (forall l, keeps all R (rec l)) -> forall sc, keeps all R (call_builtin w rec sc)) ->
  (forall name b, keeps all R (on_cm (add_function name b))) ->
  (forall rec, (forall l, keeps all R (rec l)) -> forall cs, keeps all R (run_functions rec cs)) ->
  (forall bg cs, Forall fresh cs -> keeps all R (run_job_async w sg bg cs)) ->
  forall n l, keeps all R (evaluate_async w sg n l).
Proof.
  intros Hb Hd Hf Hj. induction n as [|n IH]; intros l; cbn [evaluate_async]; [apply (keeps_stop _ _ P)|].
  apply ka_tree; auto.
Qed.
End Keep.

(** ** The three histories *)

Section Instances.
Context (w : os) (sg : point -> list event -> arrivals).

Lemma worked_jobs s s' : jobs_only s s' -> worked s s'.
Proof. intros (_ & (ops & _ & W) & _) _. exists ops. exact W. Qed.
Lemma history_jobs s s' : jobs_only s s' -> history s s'.
Proof. intros (E & _). apply history_same. rewrite E. reflexivity. Qed.
Lemma soundly_jobs s s' : jobs_only s s' -> soundly s s'.
Proof. intros (E & _). apply soundly_same; rewrite E; reflexivity. Qed.

Section Job.
Context (R : shell -> shell -> Prop) (P : preorder R).
Hypothesis Rjobs : forall s s', jobs_only s s' -> R s s'.
Hypothesis Rcreate : forall s cmds bg, R s (Shell (with_js (with_jobs (create_job (map new_process cmds) bg (jobs (js (im s)))) (js (im s))) (im s)) (trace s)).
Hypothesis Rstart : forall s id i p, R s (Shell (with_js (with_jobs (started id i p (jobs (js (im s)))) (js (im s))) (im s)) (trace s)).
Hypothesis Rnote : forall s e, R s (Shell (im s) (e :: trace s)).
Hypothesis Rexit : forall s c, R s (Shell (with_exit c (im s)) (trace s)).
Hypothesis Rpipe : keeps true R (make_pipe w).
Hypothesis Rclose : forall a, keeps true R (sys_close a).
Hypothesis Rclose_ignored : forall a, keeps true R (sys_close_ignored a).

Lemma Rstep o s j : (if calm o then step o (js (im s)) else None) = Some j -> R s (Shell (with_js j (im s)) (trace s)).
Proof. intros H. apply Rjobs. apply jobs_only_op with o. exact H. Qed.
Lemma ka_launch id bg cs : forall i prev pip, keeps true R (launch_async w sg id bg i cs prev pip).
Proof.
  induction cs as [|[p sc] cs IH]; intros i prev pip; cbn [launch_async]; [apply (keeps_ret _ _ P)|].
  unfold fork_child. repeat keep_step P; try apply IH; try apply Rpipe; try apply Rclose; try apply Rclose_ignored;
    try (apply ka_signals_job; exact Rjobs); try (apply keeps_note; intros s; apply Rnote).
  apply keeps_change. intros s. apply Rstart.
Qed.
Lemma ka_run_job bg cs : Forall fresh cs -> keeps true R (run_job_async w sg bg cs).
Proof.
  intros Hf. destruct (fresh_new _ Hf) as [cmds Ec]. unfold run_job_async. rewrite Ec.
  repeat keep_step P; try apply ka_launch; try (apply ka_delete; exact Rjobs); try (apply ka_wait; exact Rjobs);
    try apply (keeps_look _ _ P); apply keeps_change; intros s.
  - apply Rcreate.
  - eapply Rstep with (OPrint _). reflexivity.
  - apply Rexit.
  - apply (Rstep (OMask false)). reflexivity.
Qed.
End Job.

Theorem evaluate_async_worked n l : keeps true worked (evaluate_async w sg n l).
Proof.
  apply (ka_evaluate worked worked_pre true worked_jobs).
  - intros rec Hr cs. apply kw_builtin. exact Hr.
  - intros name b. kw.
  - intros rec Hr cs. apply kw_run_functions. exact Hr.
  - apply (ka_run_job worked worked_pre worked_jobs).
    + intros. eapply worked_one with (OCreate _ _). reflexivity.
    + intros. eapply worked_one with (OStart _ _ _). reflexivity.
    + intros. apply worked_same. reflexivity.
    + intros. apply worked_same. reflexivity.
    + apply kw_pipe.
    + apply kw_sys_close.
    + apply kw_close_ignored.
Qed.
Theorem evaluate_async_history n l : keeps true history (evaluate_async w sg n l).
Proof.
  apply (ka_evaluate history history_pre true history_jobs).
  - intros rec Hr cs. apply kh_builtin. exact Hr.
  - intros name b. unfold on_cm. kh. eapply history_one with (ContextSpec.ODefine _ _). reflexivity.
  - intros rec Hr cs. apply kh_run_functions. exact Hr.
  - apply (ka_run_job history history_pre history_jobs).
    + intros. apply history_same. reflexivity.
    + intros. apply history_same. reflexivity.
    + intros. apply history_same. reflexivity.
    + intros. apply history_same. reflexivity.
    + apply kh_pipe.
    + apply kh_sys_close.
    + apply kh_close_ignored.
Qed.
Theorem evaluate_async_sound n l : keeps true soundly (evaluate_async w sg n l).
Proof.
  assert (Ho : forall A p (bad m : M A), keeps true soundly bad -> keeps true soundly m ->
    keeps true soundly (f <- sys_open w p for_reading ;; match f with None => bad | Some f => while_open f m end)).
  { intros A p bad m Hb Hm. apply (keeps_bind _ _ soundly_pre); [apply soundly_open|]. intros [f|]; [|exact Hb].
    unfold while_open. repeat keep_step soundly_pre. apply soundly_close_ignored. }
  apply (ka_evaluate soundly soundly_pre true soundly_jobs).
  - intros rec Hr cs. exact (kf_builtin true soundly soundly_pre soundly_same w rec Hr Ho cs).
  - intros name b. apply keeps_change. intros s. apply soundly_same; reflexivity.
  - intros rec Hr cs. exact (kf_run_functions true soundly soundly_pre soundly_same rec Hr cs).
  - apply (ka_run_job soundly soundly_pre soundly_jobs).
    + intros. apply soundly_same; reflexivity.
    + intros. apply soundly_same; reflexivity.
    + intros. apply soundly_same; reflexivity.
    + intros. apply soundly_same; reflexivity.
    + apply soundly_pipe.
    + apply soundly_close.
    + apply soundly_close_ignored.
Qed.
End Instances.

(** ** No signals *)

Lemma builtin_fgbg w rec sc : (str_eqb (sc_name sc) (lit "fg") || str_eqb (sc_name sc) (lit "bg"))%bool = true ->
  call_builtin w rec sc = fgbg w sc.
Proof.
  intros H. unfold call_builtin. cbv zeta. rewrite H. apply orb_prop in H.
  destruct H as [H|H]; apply str_eqb_eq in H; rewrite H; reflexivity.
Qed.

Definition no_signals : point -> list event -> arrivals := fun _ _ => [].
(** Not the signal of the user. *)
Definition childish (k : arrival) : Prop := match k with Int _ => False | _ => True end.
(** No SIGINT arrives at the moment [p]. *)
Definition undisturbed (sg : point -> list event -> arrivals) (p : point) : Prop := forall tr, Forall childish (sg p tr).

Lemma loop_quiet ps4 n id : forall as_ s, wait_loop_async ps4 n id [] as_ s =
  match wait_loop ps4 n id as_ s with WDone _ s' r => WDone [] s' r | WPanic => WPanic | WBlock => WBlock end.
Proof.
  induction n as [|n IH]; intros as_ s; cbn [wait_loop_async wait_loop]; [reflexivity|].
  destruct (wait_one ps4 id as_ s) as [[] s' r| |]; try reflexivity. cbn [deliver]. apply IH.
Qed.
Lemma wait_quiet ps4 id as_ s : wait_for_job_async ps4 id [] as_ s = wait_for_job ps4 id as_ s.
Proof.
  unfold wait_for_job_async, wait_for_job. cbn [deliver].
  assert (E : do_wait_async ps4 id [] as_ s =
    match do_wait ps4 id as_ s with WDone _ s' r => WDone [] s' r | WPanic => WPanic | WBlock => WBlock end).
  { unfold do_wait_async, do_wait. cbv zeta. destruct (_ && _)%bool; [reflexivity|apply loop_quiet]. }
  rewrite E. destruct (do_wait ps4 id as_ s) as [[] s' r| |]; reflexivity.
Qed.

Section Quiet.
Context (w : os) (sg : point -> list event -> arrivals).
Hypothesis Hq : forall p tr, p <> PSubst -> sg p tr = [].
Hypothesis Hu : undisturbed sg PSubst.
Lemma no_arrivals p s : p <> PSubst -> arriving sg p s = [].
Proof. intros H. unfold arriving. rewrite (Hq p _ H). destruct (_ && _)%bool; reflexivity. Qed.
Lemma no_taken p f s : p <> PSubst -> taken w sg p f s = (OOk tt, s).
Proof. intros H. unfold taken. rewrite (no_arrivals p s H). destruct (_ && _)%bool; reflexivity. Qed.
Lemma loc_quiet {A} p f (m k : M A) : p <> PSubst -> loc w w m k -> loc w w m (taken w sg p f ;; k).
Proof.
  intros Hp H s. destruct (H s) as [H1 H2]. split; [exact H1|]. intros Ha Hf. rewrite (H2 Ha Hf).
  unfold seq, bind. rewrite no_taken by assumption. reflexivity.
Qed.
Lemma loc_quiet_end {A} p f (m k : M A) : p <> PSubst -> loc w w m k -> loc w w m (x <- k ;; taken w sg p f ;; ret x).
Proof.
  intros Hp H s. destruct (H s) as [H1 H2]. split; [exact H1|]. intros Ha Hf. rewrite (H2 Ha Hf).
  unfold bind. destruct (k s) as [[] s1]; try reflexivity. unfold seq, bind. rewrite no_taken by assumption. reflexivity.
Qed.
Lemma loc_delete_quiet id : loc w w (sh_delete_job id) (sh_delete_async w sg id).
Proof.
  intros s. split; [apply later_refl|]. intros _ _. unfold sh_delete_async, seq, bind.
  unfold sh_delete_job, change. cbv beta iota. rewrite no_taken by discriminate. reflexivity.
Qed.
Lemma loc_wait_quiet id : loc w w (wait_job w id) (wait_job_async w sg id).
Proof.
  intros s. split; [apply (loc_wait w w id s)|]. intros _ _. unfold wait_job, wait_job_async.
  rewrite no_arrivals, wait_quiet by discriminate. reflexivity.
Qed.
Lemma loc_launch_quiet id bg cs : forall i prev pip,
  loc w w (launch w id bg i cs prev pip) (launch_async w sg id bg i cs prev pip).
Proof.
  induction cs as [|[p sc] cs IH]; intros i prev pip; cbn [launch launch_async]; [locs|].
  apply loc_bind; [locs|]. intros pip'. apply loc_bind; [unfold fork_child; locs|]. intros r.
  apply loc_quiet; [discriminate|]. apply loc_seq; [unfold on_jobs; locs|]. apply loc_quiet; [discriminate|].
  unfold sys_close, sys_close_ignored. locs. apply IH.
Qed.
Lemma loc_job_quiet bg cs : loc w w (run_job w bg cs) (run_job_async w sg bg cs).
Proof.
  unfold run_job, run_job_async, on_jobs, interrupts_on, get_exit_code, say, set_exit_status.
  locs; first [apply loc_launch_quiet|apply loc_delete_quiet|apply loc_wait_quiet].
Qed.
Section Rec.
Context (r1 r2 : list and_or -> M Z).
Hypothesis Hrec : forall l, loc w w (r1 l) (r2 l).
(** SIGCHLDs during a substitution are blocked. *)
Lemma expand_quiet sc s : masked (js (im s)) = true -> expand_async w sg sc s = expand_command w sc s.
Proof.
  intros M. unfold expand_async. rewrite M.
  assert (E : cut_short true (arriving sg PSubst s) = false).
  { unfold arriving. destruct (_ && _)%bool; [|reflexivity]. induction (Hu (trace s)) as [|k ks Hk _ IH]; [reflexivity|].
    cbn [cut_short existsb]. destruct k; [exact IH|destruct Hk|exact IH]. }
  rewrite E. destruct (expand _ _ _ _ _) as [[sc' [|x l]]|]; reflexivity.
Qed.
Lemma loc_fgbg_quiet sc : loc w w (fgbg w sc) (fgbg_async w sg sc).
Proof.
  unfold fgbg, fgbg_async, fg_or_bg, fg_or_bg_async, interrupts_off, interrupts_on, word_at, fail.
  repeat first [apply loc_wait_quiet|apply loc_later|loc_step].
Qed.
Definition mid_builtin (sc : simple_command) : M unit :=
  sc' <- expand_command w sc ;;
  if str_eqb (sc_name sc') (lit "fg") || str_eqb (sc_name sc') (lit "bg") then fgbg_async w sg sc' else call_builtin w r2 sc'.
Definition mid_simple (sc : simple_command) : M (option (process * simple_command)) :=
  if check_if_builtin (sc_name sc) then mid_builtin sc ;; ret None
  else
    sc' <- expand_command w sc ;;
    v <- unwrap (argv sc') ;;
    ret (Some (process_new v (sc_name sc') (sc_name sc'), sc')).
Lemma loc_mid_builtin sc : loc w w (eval_builtin w r1 sc) (mid_builtin sc).
Proof.
  unfold eval_builtin, mid_builtin. apply loc_bind; [locs|]. intros sc'.
  destruct (_ || _)%bool eqn:E; [rewrite (builtin_fgbg w r1 sc' E); apply loc_fgbg_quiet|apply loc_builtin, Hrec].
Qed.
Lemma loc_mid_simple sc : loc w w (eval_simple_command w r1 sc) (mid_simple sc).
Proof.
  unfold eval_simple_command, mid_simple. destruct (check_if_builtin _); [apply loc_seq; [apply loc_mid_builtin|locs]|]. locs.
Qed.
Lemma simple_mid sc s : masked (js (im s)) = true -> eval_simple_command_async w sg r2 sc s = mid_simple sc s.
Proof.
  intros M. unfold eval_simple_command_async, mid_simple, eval_builtin_async, mid_builtin. destruct (check_if_builtin _); unfold seq, bind; rewrite (expand_quiet sc s M); reflexivity.
Qed.
Lemma command_masked c s pc s' : eval_command w r1 c s = (OOk (Some pc), s') -> js (im s') = js (im s).
Proof.
  intros H. destruct c as [sc|l|n b rd]; cbn [eval_command] in H.
  - unfold eval_simple_command in H. destruct (check_if_builtin _).
    + apply seq_inv_ok in H. destruct H as (x & s3 & _ & H). discriminate.
    + apply bind_inv_ok in H. destruct H as (sc' & s3 & H & H1).
      apply bind_inv_ok in H1. destruct H1 as (v & s4 & H2 & H1). injection H1 as _ <-.
      destruct (argv sc'); [injection H2 as _ <-|discriminate].
      unfold expand_command in H. destruct (expand _ _ _ _ _) as [[sc1 log]|]; [|discriminate]. injection H as _ <-. reflexivity.
  - discriminate.
  - apply seq_inv_ok in H. destruct H as (x & s3 & _ & H). discriminate.
Qed.
Definition loc_at {A} (s : shell) (m1 m2 : M A) : Prop :=
  later (trace s) (trace (snd (m1 s))) /\ (agree w w (trace s) (trace (snd (m1 s))) -> fst (m1 s) <> OFuel -> m1 s = m2 s).
Lemma loc_at_bind {A B} s (m1 m2 : M A) (k1 k2 : A -> M B) :
  loc_at s m1 m2 -> (forall a s1, m1 s = (OOk a, s1) -> loc_at s1 (k1 a) (k2 a)) -> loc_at s (bind m1 k1) (bind m2 k2).
Proof.
  intros [L Hm] Hk. unfold loc_at, bind. destruct (m1 s) as [o s1] eqn:E1. cbn [fst snd] in *.
  assert (Hm' : o <> OFuel -> (o, s1) = m2 s) by (intros Ho; apply Hm; [intros u _ _; reflexivity|exact Ho]).
  destruct o as [a|e| |c|p v e| |]; cbn [fst snd lift].
  2-7: split; [exact L|intros _ Hf; rewrite <- Hm'; [reflexivity|congruence]].
  destruct (Hk a s1 eq_refl) as [L2 H2]. split; [eapply later_trans; eassumption|].
  intros _ Hf. rewrite <- Hm' by discriminate. apply H2; [intros u _ _; reflexivity|exact Hf].
Qed.
Lemma loc_gather_quiet cs : forall s, masked (js (im s)) = true -> loc_at s (gather w r1 cs) (gather_async w sg r2 cs).
Proof.
  induction cs as [|c cs IH]; intros s M; cbn [gather gather_async]; [apply loc_ret|]. apply loc_at_bind.
  - destruct c as [sc|l|n b rd]; cbn [eval_command eval_command_async]; [|apply loc_stop|exact (loc_command w w r1 r2 Hrec (CFunction n b rd) s)].
    destruct (loc_mid_simple sc s) as [L H]. split; [exact L|]. rewrite (simple_mid sc s M). exact H.
  - intros r s1 H. destruct r as [pc|]; [|apply loc_ret]. apply command_masked in H.
    apply loc_at_bind; [apply IH; rewrite H; exact M|]. intros rest s2 _. apply loc_ret.
Qed.
Lemma loc_pipeline_quiet p : loc w w (eval_pipeline w r1 p) (eval_pipeline_async w sg r2 p).
Proof.
  destruct p as [b cs bg]. unfold eval_pipeline, eval_pipeline_async.
  apply loc_quiet; [discriminate|]. intros s. change (loc_at s (interrupts_off ;; (pcs <- gather w r1 cs ;; match pcs with [] => ret 0 | _ => pcs <- (if bg then ret pcs else run_functions r1 pcs) ;; run_job w bg pcs end))
    (interrupts_off ;; (pcs <- gather_async w sg r2 cs ;; st <- match pcs with [] => ret 0 | _ => pcs <- (if bg then ret pcs else run_functions r2 pcs) ;; signals w sg PFunctions ;; run_job_async w sg bg pcs end ;; signals w sg PEnd ;; ret st))).
  apply loc_at_bind; [apply (loc_change w w)|]. intros [] s1 H. injection H as <-.
  apply loc_at_bind; [apply loc_gather_quiet; reflexivity|]. intros pcs s1 _. revert s1.
  match goal with |- forall s1, loc_at s1 ?m ?k => change (loc w w m k) end.
  apply loc_quiet_end; [discriminate|]. destruct pcs as [|pc pcs]; [locs|].
  apply loc_bind; [destruct bg; [locs|apply loc_run_functions, Hrec]|]. intros pcs'.
  apply loc_quiet; [discriminate|apply loc_job_quiet].
Qed.
Lemma loc_and_or_quiet a : loc w w (eval_and_or w r1 a) (eval_and_or_async w sg r2 a).
Proof. induction a; cbn [eval_and_or eval_and_or_async]; locs; apply loc_pipeline_quiet. Qed.
Lemma loc_tree_quiet l : forall st, loc w w (parse_tree_from w r1 st l) (parse_tree_async w sg r2 st l).
Proof. induction l; intros st; cbn [parse_tree_from parse_tree_async]; locs; [apply loc_and_or_quiet|apply IHl]. Qed.
End Rec.
Theorem evaluate_quiet n : forall l, loc w w (evaluate w n l) (evaluate_async w sg n l).
Proof.
  induction n as [|n IH]; intros l; cbn [evaluate evaluate_async].
  - intros s. split; [apply later_refl|]. cbn. congruence.
  - apply loc_tree_quiet. exact IH.
Qed.
End Quiet.
