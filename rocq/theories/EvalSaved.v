(** The history: where it is to be saved, and when it is. *)
From Verif Require Import Base Ast Parser Context Alias Expand Jobs Shell Builtins Eval EvalSpec EvalFacts EvalLaws EvalKeeps.
From Verif Require Import Subst.
Local Open Scope Z_scope.

Section Saved.
Context (all : bool) (ok sv : str -> Prop).

(** Processes are started with an allowed location, and the history is saved in certain
    files only. *)
Definition here (e : event) : Prop :=
  match e with
  | ESave p => sv p
  | EFork i _ _ => ok (history_location i)
  | ESubst i _ => ok (history_location i)
  | _ => True
  end.
Definition placed (s s' : shell) : Prop := ok (history_location (im s)) ->
  ok (history_location (im s')) /\ exists new, trace s' = new ++ trace s /\ Forall here new.
Lemma placed_pre : preorder placed.
Proof.
  constructor.
  - intros s H. split; [exact H|]. exists []. split; [reflexivity|constructor].
  - intros a b c H1 H2 H. destruct (H1 H) as (H3 & n1 & E1 & F1). destruct (H2 H3) as (H4 & n2 & E2 & F2).
    split; [exact H4|]. exists (n2 ++ n1). rewrite E2, E1, app_assoc. split; [reflexivity|apply Forall_app; auto].
Qed.
Lemma placed_same s s' : history_location (im s') = history_location (im s) -> trace s' = trace s -> placed s s'.
Proof. intros E T H. rewrite E, T. split; [exact H|]. exists []. split; [reflexivity|constructor]. Qed.
Lemma placed_one e i s : history_location i = history_location (im s) -> (ok (history_location (im s)) -> here e) -> placed s (Shell i (e :: trace s)).
Proof. intros E He H. cbn [im trace]. rewrite E. split; [exact H|]. exists [e]. split; [reflexivity|constructor; [exact (He H)|constructor]]. Qed.

Notation keepv := (keeps all placed).
Ltac same := apply placed_same; reflexivity.
Ltac event := apply placed_one; [reflexivity|first [exact (fun _ => I)|exact (fun x => x)]].
Ltac saved_try := apply (keeps_try _ _ placed_pre); intros ? ? Hx;
  match type of Hx with match ?x with _ => _ end = _ => destruct x; [|discriminate] | (if ?x then _ else _) = _ => destruct x; [discriminate|] end;
  injection Hx as <-; same.
Ltac saved_leaf :=
  match goal with
  | |- keeps _ _ (change _) => apply keeps_change; intro; same
  | |- keeps _ _ (on_cm _) => apply keeps_change; intro; same
  | |- keeps _ _ (on_jobs _) => apply keeps_change; intro; same
  | |- keeps _ _ (say _) => apply keeps_change; intro; same
  | |- keeps _ _ interrupts_on => apply keeps_change; intro; same
  | |- keeps _ _ interrupts_off => apply keeps_change; intro; same
  | |- keeps _ _ (sh_delete_job _) => apply keeps_change; intro; same
  | |- keeps _ _ (set_exit_status _) => apply keeps_change; intro; same
  | |- keeps _ _ get_exit_code => apply (keeps_look _ _ placed_pre)
  | |- keeps _ _ (note _) => apply keeps_note; intro; event
  | |- keeps _ _ (try_cm _) => unfold try_cm; saved_try
  | |- keeps _ _ (try_ _) => saved_try
  | |- keeps _ _ (set_env _ _) => unfold set_env; saved_try
  | |- keeps _ _ (sys_close _) => unfold sys_close; saved_try
  | |- keeps _ _ (sys_dup2 _ _) => unfold sys_dup2; saved_try
  | |- keeps _ _ (sys_close_ignored ?a) => apply keeps_change; intros s; apply placed_same; cbn [im]; [destruct (fd_close a (fds (im s)))|]; reflexivity
  | |- keeps _ _ (expand_command _ _) => apply (keeps_expand _ _ placed_pre); intros; event
  | |- keeps _ _ (wait_job _ _) => apply (keeps_wait _ _ placed_pre); intros; event
  | |- keeps _ _ (fun s => (OOk _, Shell _ (trace s))) => apply keeps_raw; intro; same
  | |- keeps _ _ (fun s => (OOk _, Shell _ (_ :: trace s))) => apply keeps_raw; intro; event
  end.
Ltac kv := repeat first [saved_leaf|keep_step placed_pre].

Lemma kv_pipe w : keepv (make_pipe w).
Proof. unfold make_pipe. kv. Qed.
Lemma kv_open w p h : keepv (sys_open w p h).
Proof. unfold sys_open. kv. Qed.
Lemma kv_while {A} f (m : M A) : keepv m -> keepv (while_open f m).
Proof. intros H. unfold while_open. kv. Qed.
Lemma kv_say_all ts : keepv (say_all ts).
Proof. induction ts; cbn [say_all]; kv. Qed.
Lemma kv_lookup w c : keepv (sh_lookup_command w c).
Proof. unfold sh_lookup_command. kv. Qed.
Lemma kv_execve w a v e : keepv (temp_execve w a v e).
Proof. unfold temp_execve, fork_reset. kv. apply kv_lookup. Qed.

Hypothesis Hquit : forall sc, keepv (quit sc).

Section Rec.
Context (w : os) (rec : list and_or -> M Z).
Hypothesis Hrec : forall l, keepv (rec l).

Lemma kv_complete c : keepv (eval_complete rec c).
Proof. unfold eval_complete. kv. Qed.
Lemma kv_parse_text t : keepv (parse_text t).
Proof. unfold parse_text. kv. Qed.
Lemma kills_here ps : Forall here (rev (map EKill ps)).
Proof. apply Forall_rev, Forall_map, Forall_forall. intros x _. exact I. Qed.
Lemma kv_fgbg sc : keepv (fgbg w sc).
Proof.
  unfold fgbg, fg_or_bg, word_at, fail. kv; apply keeps_raw; intros s H; (split; [exact H|eexists; split; [reflexivity|apply kills_here]]).
Qed.
Lemma kv_context_file f : keepv (create_context_from_file w rec f).
Proof.
  unfold create_context_from_file. kv; [apply kv_open|]. apply kv_while. kv; first [apply kv_parse_text|apply kv_complete].
Qed.
Lemma kv_export_words ws : keepv (export_words ws).
Proof. induction ws; cbn [export_words]; unfold export_word; kv. Qed.
Lemma kv_export sc : keepv (export_cmd w rec sc).
Proof.
  unfold export_cmd, print_env, export_context, fail.
  kv; first [apply kv_say_all|apply kv_context_file|apply kv_export_words].
Qed.
Lemma kv_source_args args : forall i, keepv (source_args i args).
Proof. induction args; intros i; cbn [source_args]; kv; apply IHargs. Qed.
Lemma kv_source sc : keepv (source_cmd w rec sc).
Proof.
  unfold source_cmd, fail. kv; try apply kv_source_args; try apply kv_lookup; try apply kv_open.
  apply kv_while. kv; first [apply kv_parse_text|apply kv_complete].
Qed.
Lemma kv_exec sc : keepv (exec_cmd w sc).
Proof. unfold exec_cmd, exec_opts1, exec_opts2, word_at, fail. cbv zeta. kv; apply kv_execve. Qed.
Lemma kv_builtin sc : keepv (call_builtin w rec sc).
Proof.
  unfold call_builtin. cbv zeta.
  repeat match goal with |- keeps _ _ (if ?b then _ else _) => destruct b end;
    first [apply kv_fgbg|apply kv_export|apply kv_exec|apply kv_source|apply Hquit|idtac];
    unfold change_directory, return_cmd, jobs_cmd, alias_cmd, unalias_cmd, eval_cmd, unset_cmd, pwd, readonly_cmd, readonly_print,
      print_vars, print_readonly_functions, assignment_cmd, display_aliases, word_at, fail; kv;
    try apply kv_say_all; try apply kv_parse_text; try apply kv_complete.
Qed.
Lemma kv_function sc : keepv (eval_function rec sc).
Proof. unfold eval_function. kv. Qed.
Lemma kv_command c : keepv (eval_command w rec c).
Proof. unfold eval_command, eval_simple_command, eval_builtin. kv. apply kv_builtin. Qed.
Lemma kv_gather cs : keepv (gather w rec cs).
Proof. induction cs; cbn [gather]; kv. apply kv_command. Qed.
Lemma kv_run_functions cs : keepv (run_functions rec cs).
Proof. induction cs; cbn [run_functions]; kv. apply kv_function. Qed.
Lemma kv_fork c : keepv (fork_child w c).
Proof. apply keeps_raw. intros s. apply placed_one; [reflexivity|exact (fun x => x)]. Qed.
Lemma kv_launch id bg cs : forall i prev pip, keepv (launch w id bg i cs prev pip).
Proof. induction cs as [|[p sc] cs IH]; intros i prev pip; cbn [launch]; kv; try apply IH; try apply kv_pipe; apply kv_fork. Qed.
Lemma kv_job bg pcs : keepv (run_job w bg pcs).
Proof. unfold run_job. kv; apply kv_launch. Qed.
Lemma kv_pipeline p : keepv (eval_pipeline w rec p).
Proof. unfold eval_pipeline. kv; first [apply kv_gather|apply kv_run_functions|apply kv_job]. Qed.
Lemma kv_and_or a : keepv (eval_and_or w rec a).
Proof. induction a; cbn [eval_and_or]; kv; apply kv_pipeline. Qed.
Lemma kv_tree l : forall st, keepv (parse_tree_from w rec st l).
Proof. induction l; intros st; cbn [parse_tree_from]; kv; [apply kv_and_or|apply IHl]. Qed.
End Rec.

Theorem evaluate_placed w n : forall l, keepv (evaluate w n l).
Proof.
  induction n as [|n IH]; intros l; cbn [evaluate]; [apply (keeps_stop _ _ placed_pre)|]. apply kv_tree. exact IH.
Qed.

(** ** Other processes *)

Lemma kv_redirect w rs : keepv (eval_redirect w rs).
Proof. induction rs; cbn [eval_redirect]; kv. apply kv_open. Qed.
Lemma kv_assignment ws : keepv (eval_assignment ws).
Proof. induction ws; cbn [eval_assignment]; kv. Qed.
Lemma child_placed w n c : keepv (child_main w (evaluate w n) c).
Proof.
  unfold child_main, wire_child, eval_prefix_suffix. kv;
    first [apply kv_redirect|apply kv_assignment|apply kv_function, evaluate_placed|apply kv_execve].
Qed.
Lemma subst_placed w n p c : keepv (subst_child w n p c).
Proof. unfold subst_child, eval, eval_complete. kv; apply evaluate_placed. Qed.
Lemma subst_pipe_placed w : keepv (subst_pipe w).
Proof. unfold subst_pipe. kv. apply kv_pipe. Qed.
End Saved.

(** With the location itself allowed, it may be saved. *)
Lemma quit_placed ok sc : keeps true (placed ok ok) (quit sc).
Proof.
  unfold quit. apply (keeps_seq _ _ (placed_pre ok ok)).
  - apply keeps_raw. intros s. apply placed_one; [reflexivity|exact (fun x => x)].
  - destruct (words_of sc) as [[|x xs]|]; repeat first [apply (keeps_look _ _ (placed_pre ok ok))|keep_step (placed_pre ok ok)].
Qed.
(** A run that returns has saved nothing. *)
Lemma quit_returns ok sc : keeps false (placed ok (fun _ => False)) (quit sc).
Proof.
  intros s o s' H [F|F]; [discriminate|]. exfalso. unfold quit in H.
  rewrite (seq_ok save_history _ s tt _ eq_refl) in H. destruct (words_of sc) as [[|x xs]|]; cbn in H.
  - injection H as <- _. exact F.
  - destruct (parse_i32 x); cbn in H; injection H as <- _; exact F.
  - injection H as <- _. exact F.
Qed.
