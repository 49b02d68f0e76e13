(** A run depends on what the system reports from now on, and on nothing that it
    would have reported at other times. *)
From Verif Require Import Base Ast Parser Context Alias Expand Jobs Shell Builtins Eval EvalSpec EvalFacts EvalLaws RunSpec.

(** [t] is a record of what happened up to [t0] and afterwards. *)
Definition later (t0 t : list event) : Prop := exists new, t = new ++ t0.
Lemma later_refl t : later t t.
Proof. exists []. reflexivity. Qed.
Lemma later_cons t0 e t : later t0 t -> later t0 (e :: t).
Proof. intros [new ->]. exists (e :: new). reflexivity. Qed.
Lemma later_app t0 new t : later t0 t -> later t0 (new ++ t).
Proof. intros [n ->]. exists (new ++ n). apply app_assoc. Qed.
Lemma later_trans a b c : later a b -> later b c -> later a c.
Proof. intros H [n ->]. apply later_app, H. Qed.

Section Same.
Context (w1 w2 : os).

(** [m2], which asks [w2], adds to the record, and [m1], which asks [w1], does the
    same as [m2] if the two report the same until [m2] is done. *)
Definition same {A} (m1 m2 : M A) : Prop :=
  forall s, later (trace s) (trace (snd (m2 s))) /\
    ((forall t, later (trace s) t -> later t (trace (snd (m2 s))) -> w1 t = w2 t) -> m1 s = m2 s).

Lemma same_ret {A} (a : A) : same (ret a) (ret a).
Proof. intros s. split; [apply later_refl|reflexivity]. Qed.
Lemma same_stop {A} (o : out A) : same (stop o) (stop o).
Proof. intros s. split; [apply later_refl|reflexivity]. Qed.
Lemma same_look {A} (f : image -> A) : same (look f) (look f).
Proof. intros s. split; [apply later_refl|reflexivity]. Qed.
Lemma same_ask {A} (f : reports -> A) : same (ask w1 f) (ask w2 f).
Proof. intros s. split; [apply later_refl|]. intros H. unfold ask. rewrite (H (trace s) (later_refl _) (later_refl _)). reflexivity. Qed.
Lemma same_unwrap {A} (o : option A) : same (unwrap o) (unwrap o).
Proof. destruct o; [apply same_ret|apply same_stop]. Qed.
Lemma same_change f : same (change f) (change f).
Proof. intros s. split; [apply later_refl|reflexivity]. Qed.
Lemma same_note e : same (note e) (note e).
Proof. intros s. split; [apply later_cons, later_refl|reflexivity]. Qed.
Lemma same_try f : same (try_ f) (try_ f).
Proof. intros s. split; [|reflexivity]. unfold try_. destruct (f (im s)); apply later_refl. Qed.
Lemma same_bind {A B} (m1 m2 : M A) (k1 k2 : A -> M B) : same m1 m2 -> (forall a, same (k1 a) (k2 a)) -> same (bind m1 k1) (bind m2 k2).
Proof.
  intros Hm Hk s. unfold bind. destruct (Hm s) as [L E]. destruct (m2 s) as [o s1]. cbn [snd] in L, E.
  destruct o; try (split; [exact L|intros H; rewrite (E H); reflexivity]).
  destruct (Hk a s1) as [L' E']. split; [eapply later_trans; eassumption|]. intros H. rewrite E.
  - apply E'. intros t H1 H2. apply H; [eapply later_trans; eassumption|exact H2].
  - intros t H1 H2. apply H; [exact H1|eapply later_trans; eassumption].
Qed.
Lemma same_seq {A B} (m1 m2 : M A) (k1 k2 : M B) : same m1 m2 -> same k1 k2 -> same (seq m1 k1) (seq m2 k2).
Proof. intros. apply same_bind; auto. Qed.
Lemma same_catch {A} (m1 m2 : M A) : same m1 m2 -> same (catch m1) (catch m2).
Proof.
  intros Hm s. unfold catch. destruct (Hm s) as [L E]. destruct (m2 s) as [o s1]. cbn [snd] in L, E.
  destruct o; split; try exact L; intros H; rewrite (E H); reflexivity.
Qed.
Lemma same_wait id : same (wait_job w1 id) (wait_job w2 id).
Proof.
  intros s. unfold wait_job. split.
  - destruct (wait_for_job _ _ _ _); cbn; first [apply later_refl|apply later_cons, later_refl].
  - intros H. rewrite (H (trace s)); [reflexivity|apply later_refl|].
    destruct (wait_for_job _ _ _ _); cbn; first [apply later_refl|apply later_cons, later_refl].
Qed.
Lemma same_expand sc : same (expand_command w1 sc) (expand_command w2 sc).
Proof.
  intros s. unfold expand_command. split.
  - destruct (expand _ _ _ _ _) as [[sc' [|x l]]|]; cbn; first [apply later_refl|apply later_cons, later_refl].
  - intros H. rewrite (H (trace s)); [reflexivity|apply later_refl|].
    destruct (expand _ _ _ _ _) as [[sc' [|x l]]|]; cbn; first [apply later_refl|apply later_cons, later_refl].
Qed.
Lemma same_raw {A} (m : M A) : (forall s, exists new, trace (snd (m s)) = new ++ trace s) -> same m m.
Proof. intros Hm s. split; [|reflexivity]. destruct (Hm s) as [new ->]. apply later_app, later_refl. Qed.

Ltac same_step :=
  match goal with
  | |- forall _, same _ _ => intro
  | |- same (ret _) _ => apply same_ret
  | |- same (stop _) _ => apply same_stop
  | |- same (look _) _ => apply same_look
  | |- same (ask _ _) _ => apply same_ask
  | |- same (unwrap _) _ => apply same_unwrap
  | |- same (change _) _ => apply same_change
  | |- same (on_cm _) _ => apply same_change
  | |- same (on_jobs _) _ => apply same_change
  | |- same (say _) _ => apply same_change
  | |- same interrupts_on _ => apply same_change
  | |- same interrupts_off _ => apply same_change
  | |- same (sh_delete_job _) _ => apply same_change
  | |- same (set_exit_status _) _ => apply same_change
  | |- same get_exit_code _ => apply same_look
  | |- same (note _) _ => apply same_note
  | |- same (try_ _) _ => apply same_try
  | |- same (try_cm _) _ => apply same_try
  | |- same (set_env _ _) _ => apply same_try
  | |- same (sys_close _) _ => apply same_try
  | |- same (sys_close_ignored _) _ => apply same_change
  | |- same (expand_command _ _) _ => apply same_expand
  | |- same (wait_job _ _) _ => apply same_wait
  | H : forall l, same (?r1 l) (?r2 l) |- same (?r1 _) (?r2 _) => apply H
  | H : same ?r1 ?r2 |- same ?r1 ?r2 => exact H
  | |- same (bind _ _) _ => apply same_bind
  | |- same (seq _ _) _ => apply same_seq
  | |- same (catch _) _ => apply same_catch
  | |- same (fun s => (OOk _, Shell _ (trace s))) _ => apply same_raw; intro; exists []; reflexivity
  | |- same (fun s => (OOk _, Shell _ (_ ++ trace s))) _ => apply same_raw; intro; eexists; reflexivity
  | |- same (match ?x with _ => _ end) _ => destruct x
  | |- same (if ?x then _ else _) _ => destruct x
  | |- same (let '(_, _) := ?x in _) _ => destruct x
  end.
Ltac ks := repeat same_step.

Lemma ks_pipe : same (make_pipe w1) (make_pipe w2).
Proof. unfold make_pipe. ks. apply same_raw. intros s. exists [EPipe (next_pipe (im s))]. reflexivity. Qed.
Lemma ks_open p h : same (sys_open w1 p h) (sys_open w2 p h).
Proof. unfold sys_open. ks. apply same_raw. intros s. eexists [_]. reflexivity. Qed.
Lemma ks_while {A} f (m1 m2 : M A) : same m1 m2 -> same (while_open f m1) (while_open f m2).
Proof. intros H. unfold while_open. ks. Qed.
Lemma ks_say_all ts : same (say_all ts) (say_all ts).
Proof. induction ts; cbn [say_all]; ks. Qed.
Lemma ks_lookup c : same (sh_lookup_command w1 c) (sh_lookup_command w2 c).
Proof. unfold sh_lookup_command. ks. Qed.
Lemma ks_execve a v e : same (temp_execve w1 a v e) (temp_execve w2 a v e).
Proof. unfold temp_execve, fork_reset. ks. apply ks_lookup. Qed.

Section Rec.
Context (rec1 rec2 : list and_or -> M Z).
Hypothesis Hrec : forall l, same (rec1 l) (rec2 l).

Lemma ks_complete c : same (eval_complete rec1 c) (eval_complete rec2 c).
Proof. unfold eval_complete. ks. Qed.
Lemma ks_parse_text t : same (parse_text t) (parse_text t).
Proof. unfold parse_text. ks. Qed.
Lemma ks_fgbg sc : same (fgbg w1 sc) (fgbg w2 sc).
Proof. unfold fgbg, fg_or_bg, word_at, fail. ks. Qed.
Lemma ks_context_file f : same (create_context_from_file w1 rec1 f) (create_context_from_file w2 rec2 f).
Proof.
  unfold create_context_from_file. ks; [apply ks_open|]. apply ks_while. ks; first [apply ks_parse_text|apply ks_complete].
Qed.
Lemma ks_export_words ws : same (export_words ws) (export_words ws).
Proof. induction ws; cbn [export_words]; unfold export_word; ks. Qed.
Lemma ks_export sc : same (export_cmd w1 rec1 sc) (export_cmd w2 rec2 sc).
Proof.
  unfold export_cmd, print_env, export_context, fail.
  ks; first [apply ks_say_all|apply ks_context_file|apply ks_export_words].
Qed.
Lemma ks_source_args args : forall i, same (source_args i args) (source_args i args).
Proof. induction args; intros i; cbn [source_args]; ks; apply IHargs. Qed.
Lemma ks_source sc : same (source_cmd w1 rec1 sc) (source_cmd w2 rec2 sc).
Proof.
  unfold source_cmd, fail. ks; try apply ks_source_args; try apply ks_lookup; try apply ks_open.
  apply ks_while. ks; first [apply ks_parse_text|apply ks_complete].
Qed.
Lemma ks_exec sc : same (exec_cmd w1 sc) (exec_cmd w2 sc).
Proof. unfold exec_cmd, exec_opts1, exec_opts2, word_at, fail. cbv zeta. ks; apply ks_execve. Qed.
Lemma ks_builtin sc : same (call_builtin w1 rec1 sc) (call_builtin w2 rec2 sc).
Proof.
  unfold call_builtin. cbv zeta.
  repeat match goal with |- same (if ?b then _ else _) _ => destruct b end;
    first [apply ks_fgbg|apply ks_export|apply ks_exec|apply ks_source|idtac];
    unfold change_directory, quit, save_history, return_cmd, jobs_cmd, alias_cmd, unalias_cmd, eval_cmd, unset_cmd, pwd, readonly_cmd, readonly_print,
      print_vars, print_readonly_functions, assignment_cmd, display_aliases, word_at, fail; ks;
    try apply ks_say_all; try apply ks_parse_text; try apply ks_complete.
Qed.
Lemma ks_function sc : same (eval_function rec1 sc) (eval_function rec2 sc).
Proof. unfold eval_function. ks. Qed.
Lemma ks_command c : same (eval_command w1 rec1 c) (eval_command w2 rec2 c).
Proof. unfold eval_command, eval_simple_command, eval_builtin. ks. apply ks_builtin. Qed.
Lemma ks_gather cs : same (gather w1 rec1 cs) (gather w2 rec2 cs).
Proof. induction cs; cbn [gather]; ks. apply ks_command. Qed.
Lemma ks_run_functions cs : same (run_functions rec1 cs) (run_functions rec2 cs).
Proof. induction cs; cbn [run_functions]; ks. apply ks_function. Qed.
Lemma ks_launch id bg cs : forall i prev pip, same (launch w1 id bg i cs prev pip) (launch w2 id bg i cs prev pip).
Proof. induction cs as [|[p sc] cs IH]; intros i prev pip; cbn [launch]; unfold fork_child; ks; first [apply IH|apply ks_pipe]. Qed.
Lemma ks_job bg pcs : same (run_job w1 bg pcs) (run_job w2 bg pcs).
Proof. unfold run_job. ks; apply ks_launch. Qed.
Lemma ks_pipeline p : same (eval_pipeline w1 rec1 p) (eval_pipeline w2 rec2 p).
Proof. destruct p as [b cs bg]. unfold eval_pipeline. ks; first [apply ks_gather|apply ks_run_functions|apply ks_job]. Qed.
Lemma ks_and_or a : same (eval_and_or w1 rec1 a) (eval_and_or w2 rec2 a).
Proof. induction a; cbn [eval_and_or]; ks; apply ks_pipeline. Qed.
Lemma ks_tree l : forall st, same (parse_tree_from w1 rec1 st l) (parse_tree_from w2 rec2 st l).
Proof. induction l; intros st; cbn [parse_tree_from]; ks; [apply ks_and_or|apply IHl]. Qed.
End Rec.

Lemma evaluate_same n : forall l, same (evaluate w1 n l) (evaluate w2 n l).
Proof.
  induction n as [|n IH]; intros l; cbn [evaluate]; [apply same_stop|]. apply ks_tree. exact IH.
Qed.
Lemma exec_same n t : same (exec_text w1 n t) (exec_text w2 n t).
Proof. unfold exec_text. destruct (parse t); [|apply same_stop]. apply ks_complete, evaluate_same. Qed.
Lemma exec_until n text s o s' : exec_text w2 n text s = (o, s') ->
  (forall t, later (trace s) t -> later t (trace s') -> w1 t = w2 t) -> exec_text w1 n text s = (o, s').
Proof. intros E H. destruct (exec_same n text s) as [_ G]. rewrite E in G. exact (G H). Qed.
End Same.
