(** The files a shell opens, and the processes it starts. *)
From Verif Require Import Base Ast Parser Context Alias Expand Jobs Shell Builtins Eval EvalSpec EvalFacts EvalLaws EvalKeeps PipeSpec.
From Verif Require EvalJobs PipeLaws ChildLaws EvalStack.
Local Open Scope Z_scope.

(** What a shell does by itself: it opens files for reading, it leaves process groups
    alone, and the processes it starts are to run what their command says. *)
Definition calm (e : event) : Prop :=
  match e with
  | EOpen _ h => h = for_reading
  | ESetpgid _ _ => False
  | EFork _ c _ => c_proc c = ChildLaws.proc_of (c_cmd c) /\ argv (c_cmd c) = Some (p_argv (c_proc c))
  | _ => True
  end.
Definition calmly (s s' : shell) : Prop := exists new, trace s' = new ++ trace s /\ Forall calm new.
Lemma calmly_pre : preorder calmly.
Proof.
  constructor; [exists []; split; [reflexivity|constructor]|].
  intros a b c (n1 & E1 & F1) (n2 & E2 & F2). exists (n2 ++ n1). rewrite E2, E1, app_assoc. split; [reflexivity|apply Forall_app; auto].
Qed.
Lemma calmly_same s s' : trace s' = trace s -> calmly s s'.
Proof. intros E. exists []. split; [exact E|constructor]. Qed.
Lemma calmly_one e i s : calm e -> calmly s (Shell i (e :: trace s)).
Proof. intros H. exists [e]. split; [reflexivity|constructor; [exact H|constructor]]. Qed.

Notation keepo := (keeps true calmly).
Ltac same := apply calmly_same; reflexivity.
Ltac calm_try := apply (keeps_try _ _ calmly_pre); intros; same.
Ltac calm_leaf :=
  match goal with
  | |- keeps _ _ (change _) => apply keeps_change; intro; same
  | |- keeps _ _ (on_cm _) => apply keeps_change; intro; same
  | |- keeps _ _ (on_jobs _) => apply keeps_change; intro; same
  | |- keeps _ _ (say _) => apply keeps_change; intro; same
  | |- keeps _ _ interrupts_on => apply keeps_change; intro; same
  | |- keeps _ _ interrupts_off => apply keeps_change; intro; same
  | |- keeps _ _ (sh_delete_job _) => apply keeps_change; intro; same
  | |- keeps _ _ (set_exit_status _) => apply keeps_change; intro; same
  | |- keeps _ _ get_exit_code => apply (keeps_look _ _ calmly_pre)
  | |- keeps _ _ (note _) => apply keeps_note; intro; apply calmly_one; exact I
  | |- keeps _ _ (try_cm _) => unfold try_cm; calm_try
  | |- keeps _ _ (try_ _) => calm_try
  | |- keeps _ _ (set_env _ _) => unfold set_env; calm_try
  | |- keeps _ _ (sys_close _) => unfold sys_close; calm_try
  | |- keeps _ _ (sys_close_ignored ?a) => apply keeps_change; intros s; same
  | |- keeps _ _ (expand_command _ _) => apply (keeps_expand _ _ calmly_pre); intros; apply calmly_one; exact I
  | |- keeps _ _ (wait_job _ _) => apply (keeps_wait _ _ calmly_pre); intros; apply calmly_one; exact I
  | |- keeps _ _ (fun s => (OOk _, Shell _ (trace s))) => apply keeps_raw; intro; same
  | |- keeps _ _ (fun s => (OOk _, Shell _ (_ :: trace s))) => apply keeps_raw; intro; apply calmly_one; exact I
  end.
Ltac kc := repeat first [calm_leaf|keep_step calmly_pre].

Lemma kc_pipe w : keepo (make_pipe w).
Proof. unfold make_pipe. kc. Qed.
Lemma kc_open w p : keepo (sys_open w p for_reading).
Proof. unfold sys_open. kc. apply keeps_raw. intro. apply calmly_one. reflexivity. Qed.
Lemma kc_while {A} f (m : M A) : keepo m -> keepo (while_open f m).
Proof. intros H. unfold while_open. kc. Qed.
Lemma kc_say_all ts : keepo (say_all ts).
Proof. induction ts; cbn [say_all]; kc. Qed.
Lemma kc_lookup w c : keepo (sh_lookup_command w c).
Proof. unfold sh_lookup_command. kc. Qed.
Lemma kc_execve w a v e : keepo (temp_execve w a v e).
Proof. unfold temp_execve, fork_reset. kc. apply kc_lookup. Qed.

Section Rec.
Context (w : os) (rec : list and_or -> M Z).
Hypothesis Hrec : forall l, keepo (rec l).

Lemma kc_complete c : keepo (eval_complete rec c).
Proof. unfold eval_complete. kc. Qed.
Lemma kc_parse_text t : keepo (parse_text t).
Proof. unfold parse_text. kc. Qed.
Lemma kills_calm ps : Forall calm (rev (map EKill ps)).
Proof. apply Forall_rev, Forall_map, Forall_forall. intros x _. exact I. Qed.
Lemma kc_fgbg sc : keepo (fgbg w sc).
Proof.
  unfold fgbg, fg_or_bg, word_at, fail. kc; apply keeps_raw; intros s; (eexists; split; [reflexivity|apply kills_calm]).
Qed.
Lemma kc_context_file f : keepo (create_context_from_file w rec f).
Proof.
  unfold create_context_from_file. kc; [apply kc_open|]. apply kc_while. kc; first [apply kc_parse_text|apply kc_complete].
Qed.
Lemma kc_export_words ws : keepo (export_words ws).
Proof. induction ws; cbn [export_words]; unfold export_word; kc. Qed.
Lemma kc_export sc : keepo (export_cmd w rec sc).
Proof.
  unfold export_cmd, print_env, export_context, fail.
  kc; first [apply kc_say_all|apply kc_context_file|apply kc_export_words].
Qed.
Lemma kc_source_args args : forall i, keepo (source_args i args).
Proof. induction args; intros i; cbn [source_args]; kc; apply IHargs. Qed.
Lemma kc_source sc : keepo (source_cmd w rec sc).
Proof.
  unfold source_cmd, fail. kc; try apply kc_source_args; try apply kc_lookup; try apply kc_open.
  apply kc_while. kc; first [apply kc_parse_text|apply kc_complete].
Qed.
Lemma kc_exec sc : keepo (exec_cmd w sc).
Proof. unfold exec_cmd, exec_opts1, exec_opts2, word_at, fail. cbv zeta. kc; apply kc_execve. Qed.
Lemma kc_builtin sc : keepo (call_builtin w rec sc).
Proof.
  unfold call_builtin. cbv zeta.
  repeat match goal with |- keeps _ _ (if ?b then _ else _) => destruct b end;
    first [apply kc_fgbg|apply kc_export|apply kc_exec|apply kc_source|idtac];
    unfold change_directory, quit, save_history, return_cmd, jobs_cmd, alias_cmd, unalias_cmd, eval_cmd, unset_cmd, pwd, readonly_cmd, readonly_print,
      print_vars, print_readonly_functions, assignment_cmd, display_aliases, word_at, fail; kc;
    try apply kc_say_all; try apply kc_parse_text; try apply kc_complete.
Qed.
Lemma kc_function sc : keepo (eval_function rec sc).
Proof. unfold eval_function. kc. Qed.
Lemma kc_command c : keepo (eval_command w rec c).
Proof. unfold eval_command, eval_simple_command, eval_builtin. kc. apply kc_builtin. Qed.
Lemma kc_gather cs : keepo (gather w rec cs).
Proof. induction cs; cbn [gather]; kc. apply kc_command. Qed.
Lemma kc_run_functions cs : keepo (run_functions rec cs).
Proof. induction cs; cbn [run_functions]; kc. apply kc_function. Qed.

(** A process of a pipeline goes with its command. *)
Definition suits (pc : process * simple_command) : Prop :=
  fst pc = ChildLaws.proc_of (snd pc) /\ argv (snd pc) = Some (p_argv (fst pc)).
Lemma gather_suits cs : forall s pcs s', gather w rec cs s = (OOk pcs, s') -> Forall suits pcs.
Proof.
  induction cs as [|c cs IH]; intros s pcs s' H; cbn [gather] in H.
  - injection H as <- _. constructor.
  - apply bind_inv_ok in H. destruct H as (r & s1 & H1 & H2). destruct r as [pc|]; [|injection H2 as <- _; constructor].
    apply bind_inv_ok in H2. destruct H2 as (rest & s2 & H2 & H3). injection H3 as <- _.
    constructor; [|eapply IH; exact H2].
    destruct c as [sc|b|nm b rd]; cbn [eval_command] in H1.
    + unfold eval_simple_command in H1. destruct (check_if_builtin _).
      * apply seq_inv_ok in H1. destruct H1 as (x & s3 & _ & H1). discriminate.
      * apply bind_inv_ok in H1. destruct H1 as (sc' & s3 & _ & H1).
        apply bind_inv_ok in H1. destruct H1 as (v & s4 & H1 & H3). injection H3 as <- _.
        unfold suits. cbn [fst snd]. unfold unwrap in H1. destruct (argv sc') as [v'|] eqn:E; [|discriminate]. injection H1 as <- _.
        split; [|reflexivity]. unfold argv in E. cbv zeta in E. destruct (existsb _ _); [discriminate|]. injection E as <-.
        reflexivity.
    + discriminate.
    + apply seq_inv_ok in H1. destruct H1 as (x & s3 & _ & H1). discriminate.
Qed.
Lemma kc_launch id bg cs : Forall suits cs -> forall i prev pip, keepo (launch w id bg i cs prev pip).
Proof.
  induction 1 as [|[p sc] cs [S1 S2] Hs IH]; intros i prev pip; cbn [launch]; unfold fork_child; kc; try apply IH; try apply kc_pipe.
  all: apply keeps_note; intro; apply calmly_one; split; [exact S1|exact S2].
Qed.
Lemma kc_job bg pcs : Forall suits pcs -> keepo (run_job w bg pcs).
Proof. intros H. unfold run_job. kc; apply kc_launch, H. Qed.
Lemma kc_pipeline p : keepo (eval_pipeline w rec p).
Proof.
  destruct p as [b cs bg]. unfold eval_pipeline. apply (keeps_seq _ _ calmly_pre); [kc|].
  apply keeps_bind_after; [apply kc_gather|]. intros s pcs s1 o s' H1 H2 _.
  eapply (pre_trans _ calmly_pre); [eapply kc_gather; [exact H1|left; reflexivity]|].
  apply gather_suits in H1. destruct pcs as [|pc pcs]; [injection H2 as <- <-; apply (pre_refl _ calmly_pre)|].
  apply bind_inv in H2. destruct H2 as [(pcs' & s2 & H3 & H4)|(o2 & H3 & F2 & _)].
  - assert (Hf : Forall suits pcs').
    { destruct bg; [injection H3 as <- _; exact H1|]. apply EvalJobs.run_functions_incl in H3.
      rewrite Forall_forall in H1 |- *. intros x Hx. apply H1, H3, Hx. }
    eapply (pre_trans _ calmly_pre); [|eapply (kc_job _ _ Hf); [exact H4|left; reflexivity]].
    destruct bg; [injection H3 as _ <-; apply (pre_refl _ calmly_pre)|].
    eapply kc_run_functions; [exact H3|left; reflexivity].
  - destruct bg; [injection H3 as _ <-; apply (pre_refl _ calmly_pre)|]. eapply kc_run_functions; [exact H3|left; reflexivity].
Qed.
Lemma kc_and_or a : keepo (eval_and_or w rec a).
Proof. induction a; cbn [eval_and_or]; kc; apply kc_pipeline. Qed.
Lemma kc_tree l : forall st, keepo (parse_tree_from w rec st l).
Proof. induction l; intros st; cbn [parse_tree_from]; kc; [apply kc_and_or|apply IHl]. Qed.
End Rec.

Theorem evaluate_calmly w n : forall l, keepo (evaluate w n l).
Proof.
  induction n as [|n IH]; intros l; cbn [evaluate]; [apply (keeps_stop _ _ calmly_pre)|]. apply kc_tree. exact IH.
Qed.
