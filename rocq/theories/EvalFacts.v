(** Reasoning about the evaluator: two runs that see the same operating system
    agree, whatever their budgets. *)
From Verif Require Import Base Ast Parser Context Alias Expand Jobs Shell Builtins Eval.

(** ** Histories *)

(** [t'] is a later history than [t]. *)
Definition later (t t' : list event) : Prop := exists new, t' = new ++ t.
Lemma later_refl t : later t t.
Proof. exists []. reflexivity. Qed.
Lemma later_cons e t : later t (e :: t).
Proof. exists [e]. reflexivity. Qed.
Lemma later_app new t : later t (new ++ t).
Proof. exists new. reflexivity. Qed.
Lemma later_trans a b c : later a b -> later b c -> later a c.
Proof. intros [x ->] [y ->]. exists (y ++ x). rewrite app_assoc. reflexivity. Qed.

(** [w1] and [w2] report the same at every moment between two histories. *)
Definition agree (w1 w2 : os) (t t' : list event) : Prop :=
  forall u, later t u -> later u t' -> w1 u = w2 u.

Lemma lift_not_ok {A B} (o : out A) : (forall a, o <> OOk a) -> forall b : B, lift o <> OOk b.
Proof. destruct o; cbn; congruence. Qed.

(** ** Agreement of two runs *)

Section Loc.
Context (w1 w2 : os).

Definition loc {A} (m1 m2 : M A) : Prop :=
  forall s, later (trace s) (trace (snd (m1 s))) /\
    (agree w1 w2 (trace s) (trace (snd (m1 s))) -> fst (m1 s) <> OFuel -> m1 s = m2 s).

Lemma loc_ret {A} (a : A) : loc (ret a) (ret a).
Proof. intros s. split; [apply later_refl|reflexivity]. Qed.
Lemma loc_stop {A} (o : out A) : loc (stop o) (stop o).
Proof. intros s. split; [apply later_refl|reflexivity]. Qed.
Lemma loc_look {A} (f : image -> A) : loc (look f) (look f).
Proof. intros s. split; [apply later_refl|reflexivity]. Qed.
Lemma loc_change f : loc (change f) (change f).
Proof. intros s. split; [apply later_refl|reflexivity]. Qed.
Lemma loc_try f : loc (try_ f) (try_ f).
Proof. intros s. unfold try_. destruct (f (im s)); (split; [apply later_refl|reflexivity]). Qed.
Lemma loc_note e : loc (note e) (note e).
Proof. intros s. split; [apply later_cons|reflexivity]. Qed.
Lemma loc_ask {A} (f : reports -> A) : loc (ask w1 f) (ask w2 f).
Proof.
  intros s. split; [apply later_refl|]. intros H _. unfold ask.
  rewrite (H (trace s)); [reflexivity|apply later_refl|apply later_refl].
Qed.
Lemma loc_unwrap {A} (o : option A) : loc (unwrap o) (unwrap o).
Proof. destruct o; [apply loc_ret|apply loc_stop]. Qed.

Lemma loc_bind {A B} (m1 m2 : M A) (k1 k2 : A -> M B) :
  loc m1 m2 -> (forall a, loc (k1 a) (k2 a)) -> loc (bind m1 k1) (bind m2 k2).
Proof.
  intros Hm Hk s. unfold bind. specialize (Hm s). destruct (m1 s) as [o s1] eqn:E1. cbn in Hm.
  destruct Hm as [L Hm].
  destruct o as [a|e| |c|p v e| |]; cbn [fst snd lift].
  2-7: split; [exact L|intros Hag Hf; rewrite <- Hm; [reflexivity|exact Hag|congruence]].
  destruct (Hk a s1) as [L2 H2]. split; [eapply later_trans; eassumption|].
  intros Hag Hf. rewrite <- Hm; [|intros u H1 Hu; apply Hag; [exact H1|eapply later_trans; eassumption]|discriminate].
  apply H2; [|exact Hf]. intros u Hu Hu'. apply Hag; [eapply later_trans; eassumption|exact Hu'].
Qed.
Lemma loc_seq {A B} (m1 m2 : M A) (k1 k2 : M B) : loc m1 m2 -> loc k1 k2 -> loc (seq m1 k1) (seq m2 k2).
Proof. intros H K. apply loc_bind; auto. Qed.
Lemma loc_catch {A} (m1 m2 : M A) : loc m1 m2 -> loc (catch m1) (catch m2).
Proof.
  intros Hm s. unfold catch. specialize (Hm s). destruct (m1 s) as [o s1] eqn:E1. cbn in Hm.
  destruct Hm as [L Hm].
  destruct o; cbn [fst snd lift]; (split; [exact L|intros Hag Hf; rewrite <- Hm; [reflexivity|exact Hag|congruence]]).
Qed.

Lemma loc_wait id : loc (wait_job w1 id) (wait_job w2 id).
Proof.
  intros s. unfold wait_job. split.
  - destruct (wait_for_job _ _ _ _); [apply later_cons|apply later_refl|apply later_refl].
  - intros H _. rewrite (H (trace s)); [reflexivity|apply later_refl|].
    destruct (wait_for_job _ _ _ _); [apply later_cons|apply later_refl|apply later_refl].
Qed.
Lemma loc_expand sc : loc (expand_command w1 sc) (expand_command w2 sc).
Proof.
  intros s. unfold expand_command.
  assert (L : later (trace s) (trace (snd (expand_command w1 sc s)))).
  { unfold expand_command. destruct (expand _ _ _ _ _) as [[sc' [|x l]]|]; first [apply later_refl|apply later_cons]. }
  split; [exact L|]. intros H _. rewrite (H (trace s)); [reflexivity|apply later_refl|exact L].
Qed.
Lemma loc_pipe : loc (make_pipe w1) (make_pipe w2).
Proof.
  unfold make_pipe. apply loc_bind; [apply loc_ask|]. intros [|]; [|apply loc_stop].
  intros s. split; [apply later_cons|reflexivity].
Qed.
Lemma loc_open p h : loc (sys_open w1 p h) (sys_open w2 p h).
Proof.
  unfold sys_open. apply loc_bind; [apply loc_ask|]. intros [|]; [|apply loc_ret].
  intros s. split; [apply later_cons|reflexivity].
Qed.
Lemma loc_later new : loc (fun s => (OOk tt, Shell (im s) (new ++ trace s)))
                          (fun s => (OOk tt, Shell (im s) (new ++ trace s))).
Proof. intros s. split; [apply later_app|reflexivity]. Qed.

End Loc.

Ltac loc_step :=
  match goal with
  | |- forall _, _ => intro
  | |- loc _ _ (ret _) _ => apply loc_ret
  | |- loc _ _ (stop _) _ => apply loc_stop
  | |- loc _ _ (look _) _ => apply loc_look
  | |- loc _ _ (change _) _ => apply loc_change
  | |- loc _ _ (try_ _) _ => apply loc_try
  | |- loc _ _ (note _) _ => apply loc_note
  | |- loc _ _ (ask _ _) _ => apply loc_ask
  | |- loc _ _ (unwrap _) _ => apply loc_unwrap
  | |- loc _ _ (bind _ _) _ => apply loc_bind
  | |- loc _ _ (seq _ _) _ => apply loc_seq
  | |- loc _ _ (catch _) _ => apply loc_catch
  | |- loc _ _ (wait_job _ _) _ => apply loc_wait
  | |- loc _ _ (expand_command _ _) _ => apply loc_expand
  | |- loc _ _ (make_pipe _) _ => apply loc_pipe
  | |- loc _ _ (sys_open _ _ _) _ => apply loc_open
  | |- loc _ _ (match ?x with _ => _ end) _ => destruct x
  | |- loc _ _ (if ?x then _ else _) _ => destruct x
  | |- loc _ _ (let '(_, _) := ?x in _) _ => destruct x
  | H : forall l, loc _ _ (?r1 l) (?r2 l) |- loc _ _ (?r1 _) (?r2 _) => apply H
  | H : loc _ _ ?a ?b |- loc _ _ ?a ?b => exact H
  end.
Ltac locs := repeat loc_step.

Section LocEval.
Context (w1 w2 : os) (r1 r2 : list and_or -> M Z).
Hypothesis Hrec : forall l, loc w1 w2 (r1 l) (r2 l).
Notation loc := (loc w1 w2).

Lemma loc_say_all ts : loc (say_all ts) (say_all ts).
Proof. induction ts; cbn [say_all]; unfold say; locs. Qed.
Lemma loc_complete c : loc (eval_complete r1 c) (eval_complete r2 c).
Proof. unfold eval_complete. locs. Qed.
Lemma loc_parse_text t : loc (parse_text t) (parse_text t).
Proof. unfold parse_text. locs. Qed.
Lemma loc_while {A} f (m1 m2 : M A) : loc m1 m2 -> loc (while_open f m1) (while_open f m2).
Proof. intros H. unfold while_open, sys_close_ignored. locs. Qed.
Lemma loc_lookup c : loc (sh_lookup_command w1 c) (sh_lookup_command w2 c).
Proof. unfold sh_lookup_command. locs. Qed.
Lemma loc_execve a v e : loc (temp_execve w1 a v e) (temp_execve w2 a v e).
Proof. unfold temp_execve, fork_reset, interrupts_on. locs. apply loc_lookup. Qed.

Lemma loc_cd sc : loc (change_directory w1 sc) (change_directory w2 sc).
Proof. unfold change_directory, interrupts_off, interrupts_on, word_at. locs. Qed.
Lemma loc_fgbg sc : loc (fgbg w1 sc) (fgbg w2 sc).
Proof.
  unfold fgbg, fg_or_bg, interrupts_off, interrupts_on, word_at, fail. locs; apply loc_later.
Qed.
Lemma loc_context_file f : loc (create_context_from_file w1 r1 f) (create_context_from_file w2 r2 f).
Proof.
  unfold create_context_from_file, on_cm. locs. apply loc_while. locs; first [apply loc_parse_text|apply loc_complete].
Qed.
Lemma loc_export_words ws : loc (export_words ws) (export_words ws).
Proof. induction ws; cbn [export_words]; unfold export_word, try_cm, set_env, on_cm; locs. Qed.
Lemma loc_export sc : loc (export_cmd w1 r1 sc) (export_cmd w2 r2 sc).
Proof.
  unfold export_cmd, print_env, export_context, on_cm, fail.
  locs; first [apply loc_say_all|apply loc_context_file|apply loc_export_words].
Qed.
Lemma loc_eval_cmd sc : loc (eval_cmd r1 sc) (eval_cmd r2 sc).
Proof. unfold eval_cmd, word_at, fail. locs; first [apply loc_parse_text|apply loc_complete]. Qed.
Lemma loc_readonly sc : loc (readonly_cmd sc) (readonly_cmd sc).
Proof.
  unfold readonly_cmd, readonly_print, print_vars, print_readonly_functions, try_cm, word_at, fail.
  locs; apply loc_say_all.
Qed.
Lemma loc_exec sc : loc (exec_cmd w1 sc) (exec_cmd w2 sc).
Proof. unfold exec_cmd, exec_opts1, exec_opts2, word_at, fail. cbv zeta. locs; apply loc_execve. Qed.
Lemma loc_source_args args : forall i, loc (source_args i args) (source_args i args).
Proof. induction args; intros i; cbn [source_args]; unfold try_cm; locs; apply IHargs. Qed.
Lemma loc_source sc : loc (source_cmd w1 r1 sc) (source_cmd w2 r2 sc).
Proof.
  unfold source_cmd, fail. locs; try apply loc_source_args; try apply loc_lookup.
  apply loc_while. locs; first [apply loc_parse_text|apply loc_complete].
Qed.
Lemma loc_builtin sc : loc (call_builtin w1 r1 sc) (call_builtin w2 r2 sc).
Proof.
  unfold call_builtin. cbv zeta.
  repeat match goal with |- EvalFacts.loc _ _ (if ?b then _ else _) _ => destruct b end;
    first [apply loc_cd|apply loc_fgbg|apply loc_export|apply loc_eval_cmd|apply loc_readonly|apply loc_exec
          |apply loc_source|idtac];
    unfold quit, save_history, return_cmd, jobs_cmd, alias_cmd, unalias_cmd, unset_cmd, pwd, assignment_cmd, display_aliases,
      get_exit_code, set_exit_status, say, on_cm, try_cm, word_at, fail; locs; apply loc_say_all.
Qed.

Lemma loc_function sc : loc (eval_function r1 sc) (eval_function r2 sc).
Proof. unfold eval_function, try_cm, on_cm. locs. Qed.
Lemma loc_command c : loc (eval_command w1 r1 c) (eval_command w2 r2 c).
Proof. unfold eval_command, eval_simple_command, eval_builtin, on_cm. locs. apply loc_builtin. Qed.
Lemma loc_gather cs : loc (gather w1 r1 cs) (gather w2 r2 cs).
Proof. induction cs; cbn [gather]; locs. apply loc_command. Qed.
Lemma loc_run_functions cs : loc (run_functions r1 cs) (run_functions r2 cs).
Proof. induction cs; cbn [run_functions]; unfold set_exit_status; locs. apply loc_function. Qed.
Lemma loc_launch id bg cs : forall i prev pip, loc (launch w1 id bg i cs prev pip) (launch w2 id bg i cs prev pip).
Proof.
  induction cs as [|[p sc] cs IH]; intros i prev pip; cbn [launch]; [locs|].
  unfold fork_child, on_jobs, sys_close, sys_close_ignored. locs; apply IH.
Qed.
Lemma loc_run_job bg cs : loc (run_job w1 bg cs) (run_job w2 bg cs).
Proof.
  unfold run_job, on_jobs, sh_delete_job, interrupts_on, get_exit_code, say, set_exit_status. locs; apply loc_launch.
Qed.
Lemma loc_pipeline p : loc (eval_pipeline w1 r1 p) (eval_pipeline w2 r2 p).
Proof.
  destruct p as [b cs bg]. unfold eval_pipeline, interrupts_off.
  locs; first [apply loc_gather|apply loc_run_functions|apply loc_run_job].
Qed.
Lemma loc_and_or a : loc (eval_and_or w1 r1 a) (eval_and_or w2 r2 a).
Proof. induction a; cbn [eval_and_or]; locs; apply loc_pipeline. Qed.
Lemma loc_tree l : forall st, loc (parse_tree_from w1 r1 st l) (parse_tree_from w2 r2 st l).
Proof. induction l; intros st; cbn [parse_tree_from]; locs; [apply loc_and_or|apply IHl]. Qed.
End LocEval.

Theorem loc_evaluate w1 w2 n : forall m l, (n <= m)%nat -> loc w1 w2 (evaluate w1 n l) (evaluate w2 m l).
Proof.
  induction n as [|n IH]; intros m l Hm; cbn [evaluate].
  - intros s. split; [apply later_refl|]. cbn. congruence.
  - destruct m as [|m]; [lia|]. cbn [evaluate]. apply loc_tree. intros l'. apply IH. lia.
Qed.

Lemma evaluate_later w n l s : later (trace s) (trace (snd (evaluate w n l s))).
Proof. apply (loc_evaluate w w n n l (le_n n) s). Qed.
