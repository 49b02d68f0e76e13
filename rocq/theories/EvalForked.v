(** A run never makes the shell believe that it is a child. *)
From Verif Require Import Base Ast Parser Context Alias Expand Jobs Shell Builtins Eval EvalSpec EvalFacts EvalLaws EvalKeeps.

Definition still (s s' : shell) : Prop := forked (im s') = forked (im s).
Lemma still_pre : preorder still.
Proof. constructor; unfold still; [reflexivity|]. intros a b c H1 H2. rewrite H2. exact H1. Qed.

Notation keepf := (keeps true still).
Ltac still_try := apply (keeps_try _ _ still_pre); intros ? ? Hx;
  match type of Hx with match ?x with _ => _ end = _ => destruct x; [|discriminate] | (if ?x then _ else _) = _ => destruct x; [discriminate|] end;
  injection Hx as <-; reflexivity.
Ltac still_leaf :=
  match goal with
  | |- keeps _ _ (change _) => apply keeps_change; intro; reflexivity
  | |- keeps _ _ (on_cm _) => apply keeps_change; intro; reflexivity
  | |- keeps _ _ (on_jobs _) => apply keeps_change; intro; reflexivity
  | |- keeps _ _ (say _) => apply keeps_change; intro; reflexivity
  | |- keeps _ _ interrupts_on => apply keeps_change; intro; reflexivity
  | |- keeps _ _ interrupts_off => apply keeps_change; intro; reflexivity
  | |- keeps _ _ (sh_delete_job _) => apply keeps_change; intro; reflexivity
  | |- keeps _ _ (set_exit_status _) => apply keeps_change; intro; reflexivity
  | |- keeps _ _ get_exit_code => apply (keeps_look _ _ still_pre)
  | |- keeps _ _ (note _) => apply keeps_note; intro; reflexivity
  | |- keeps _ _ (try_cm _) => unfold try_cm; still_try
  | |- keeps _ _ (try_ _) => still_try
  | |- keeps _ _ (set_env _ _) => unfold set_env; still_try
  | |- keeps _ _ (sys_close _) => unfold sys_close; still_try
  | |- keeps _ _ (sys_close_ignored ?a) => apply keeps_change; intros s; unfold still; cbn; destruct (fd_close a (fds (im s))); reflexivity
  | |- keeps _ _ (expand_command _ _) => apply (keeps_expand _ _ still_pre); intros; reflexivity
  | |- keeps _ _ (wait_job _ _) => apply (keeps_wait _ _ still_pre); intros; reflexivity
  | |- keeps _ _ (fun s => (OOk _, Shell _ _)) => apply keeps_raw; intro; reflexivity
  end.
Ltac kf := repeat first [still_leaf|keep_step still_pre].

Lemma kf_pipe w : keepf (make_pipe w).
Proof. unfold make_pipe. kf. Qed.
Lemma kf_open w p h : keepf (sys_open w p h).
Proof. unfold sys_open. kf. Qed.
Lemma kf_while {A} f (m : M A) : keepf m -> keepf (while_open f m).
Proof. intros H. unfold while_open. kf. Qed.
Lemma kf_say_all ts : keepf (say_all ts).
Proof. induction ts; cbn [say_all]; kf. Qed.
Lemma kf_lookup w c : keepf (sh_lookup_command w c).
Proof. unfold sh_lookup_command. kf. Qed.
Lemma kf_execve w a v e : keepf (temp_execve w a v e).
Proof. unfold temp_execve, fork_reset. kf. apply kf_lookup. Qed.

Section Rec.
Context (w : os) (rec : list and_or -> M Z).
Hypothesis Hrec : forall l, keepf (rec l).

Lemma kf_complete c : keepf (eval_complete rec c).
Proof. unfold eval_complete. kf. Qed.
Lemma kf_parse_text t : keepf (parse_text t).
Proof. unfold parse_text. kf. Qed.
Lemma kf_fgbg sc : keepf (fgbg w sc).
Proof. unfold fgbg, fg_or_bg, word_at, fail. kf. Qed.
Lemma kf_context_file f : keepf (create_context_from_file w rec f).
Proof.
  unfold create_context_from_file. kf; [apply kf_open|]. apply kf_while. kf; first [apply kf_parse_text|apply kf_complete].
Qed.
Lemma kf_export_words ws : keepf (export_words ws).
Proof. induction ws; cbn [export_words]; unfold export_word; kf. Qed.
Lemma kf_export sc : keepf (export_cmd w rec sc).
Proof.
  unfold export_cmd, print_env, export_context, fail.
  kf; first [apply kf_say_all|apply kf_context_file|apply kf_export_words].
Qed.
Lemma kf_source_args args : forall i, keepf (source_args i args).
Proof. induction args; intros i; cbn [source_args]; kf; apply IHargs. Qed.
Lemma kf_source sc : keepf (source_cmd w rec sc).
Proof.
  unfold source_cmd, fail. kf; try apply kf_source_args; try apply kf_lookup; try apply kf_open.
  apply kf_while. kf; first [apply kf_parse_text|apply kf_complete].
Qed.
Lemma kf_exec sc : keepf (exec_cmd w sc).
Proof. unfold exec_cmd, exec_opts1, exec_opts2, word_at, fail. cbv zeta. kf; apply kf_execve. Qed.
Lemma kf_builtin sc : keepf (call_builtin w rec sc).
Proof.
  unfold call_builtin. cbv zeta.
  repeat match goal with |- keeps _ _ (if ?b then _ else _) => destruct b end;
    first [apply kf_fgbg|apply kf_export|apply kf_exec|apply kf_source|idtac];
    unfold change_directory, quit, save_history, return_cmd, jobs_cmd, alias_cmd, unalias_cmd, eval_cmd, unset_cmd, pwd, readonly_cmd, readonly_print,
      print_vars, print_readonly_functions, assignment_cmd, display_aliases, word_at, fail; kf;
    try apply kf_say_all; try apply kf_parse_text; try apply kf_complete.
Qed.
Lemma kf_function sc : keepf (eval_function rec sc).
Proof. unfold eval_function. kf. Qed.
Lemma kf_command c : keepf (eval_command w rec c).
Proof. unfold eval_command, eval_simple_command, eval_builtin. kf. apply kf_builtin. Qed.
Lemma kf_gather cs : keepf (gather w rec cs).
Proof. induction cs; cbn [gather]; kf. apply kf_command. Qed.
Lemma kf_run_functions cs : keepf (run_functions rec cs).
Proof. induction cs; cbn [run_functions]; kf. apply kf_function. Qed.
Lemma kf_launch id bg cs : forall i prev pip, keepf (launch w id bg i cs prev pip).
Proof. induction cs as [|[p sc] cs IH]; intros i prev pip; cbn [launch]; unfold fork_child; kf; first [apply IH|apply kf_pipe]. Qed.
Lemma kf_job bg pcs : keepf (run_job w bg pcs).
Proof. unfold run_job. kf; apply kf_launch. Qed.
Lemma kf_pipeline p : keepf (eval_pipeline w rec p).
Proof. destruct p as [b cs bg]. unfold eval_pipeline. kf; first [apply kf_gather|apply kf_run_functions|apply kf_job]. Qed.
Lemma kf_and_or a : keepf (eval_and_or w rec a).
Proof. induction a; cbn [eval_and_or]; kf; apply kf_pipeline. Qed.
Lemma kf_tree l : forall st, keepf (parse_tree_from w rec st l).
Proof. induction l; intros st; cbn [parse_tree_from]; kf; [apply kf_and_or|apply IHl]. Qed.
End Rec.

Theorem evaluate_still w n : forall l, keepf (evaluate w n l).
Proof.
  induction n as [|n IH]; intros l; cbn [evaluate]; [apply (keeps_stop _ _ still_pre)|]. apply kf_tree. exact IH.
Qed.
