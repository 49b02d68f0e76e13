(** The environment: a name that is in it stays in it, every program gets what is in it. *)
From Verif Require Import Base BaseFacts Ast Parser Context Alias Expand Jobs Shell Builtins Eval EvalSpec EvalFacts EvalLaws EvalKeeps PipeSpec PipeLaws.

(** What the C library asks of an environment. *)
Definition proper (e : smap str) : Prop :=
  NoDup (map fst e) /\ Forall (fun kv => fst kv <> [] /\ ~ In (ch "=") (fst kv) /\ ~ In 0%N (fst kv) /\ ~ In 0%N (snd kv)) e.
Definition grows (e e' : smap str) : Prop :=
  (forall x, sget x e <> None -> sget x e' <> None) /\ (proper e -> proper e').
Definition carried (s s' : shell) : Prop :=
  grows (env (im s)) (env (im s')) /\
  exists new, trace s' = new ++ trace s /\ Forall (fun f => let '(i, _, _) := f in grows (env (im s)) (env i)) (forks new).

Lemma grows_refl e : grows e e.
Proof. split; auto. Qed.
Lemma grows_trans a b c : grows a b -> grows b c -> grows a c.
Proof. intros [H1 H2] [H3 H4]. split; auto. Qed.
Lemma carried_pre : preorder carried.
Proof.
  constructor.
  - intros s. split; [apply grows_refl|]. exists []. split; [reflexivity|apply Forall_nil].
  - intros a b c [H1 (n1 & T1 & F1)] [H2 (n2 & T2 & F2)]. split; [eapply grows_trans; eassumption|].
    exists (n2 ++ n1). split; [rewrite T2, T1, app_assoc; reflexivity|]. rewrite forks_app. apply Forall_app. split; [exact F1|].
    eapply Forall_impl; [|exact F2]. intros [[i c'] r]. apply grows_trans. exact H1.
Qed.
Lemma carried_same s s' : env (im s') = env (im s) -> trace s' = trace s -> carried s s'.
Proof.
  intros E T. split; [rewrite E; apply grows_refl|]. exists []. split; [exact T|apply Forall_nil].
Qed.
Lemma carried_event s s' e : env (im s') = env (im s) -> trace s' = e :: trace s -> forks [e] = [] -> carried s s'.
Proof.
  intros E T F. split; [rewrite E; apply grows_refl|]. exists [e]. split; [exact T|]. rewrite F. apply Forall_nil.
Qed.
Lemma sremove_names {V} k (e : smap V) x : In x (map fst (sremove k e)) -> In x (map fst e) /\ x <> k.
Proof.
  induction e as [|[k' v] e IH]; cbn [sremove map fst]; [tauto|]. destruct (str_eqb_spec k k') as [->|H].
  - intros Hx. split; [right; apply IH, Hx|apply IH, Hx].
  - cbn [map fst]. intros [<-|Hx]; [split; [left; reflexivity|congruence]|]. destruct (IH Hx). split; [right; assumption|assumption].
Qed.
Lemma grows_set k v e : k <> [] -> ~ In (ch "=") k -> ~ In 0%N k -> ~ In 0%N v -> grows e (sinsert k v e).
Proof.
  intros H1 H2 H3 H4. split.
  - intros x Hx. rewrite sget_sinsert. destruct (str_eqb x k); [discriminate|exact Hx].
  - intros [N F]. unfold sinsert. split.
    + cbn [map fst]. constructor; [intros Hx; apply sremove_names in Hx; tauto|].
      clear F. induction e as [|[k' v'] e IH]; cbn [sremove map fst] in *; [constructor|]. inversion N; subst.
      destruct (str_eqb k k'); [auto|]. cbn [map fst]. constructor; [intros Hx; apply sremove_names in Hx; tauto|auto].
    + constructor; [cbn; auto|]. clear N. induction F as [|[k' v'] e Hk F IH]; cbn [sremove]; [constructor|].
      destruct (str_eqb k k'); [exact IH|constructor; assumption].
Qed.

Ltac carried_ok := first [apply carried_same; reflexivity|eapply carried_event; reflexivity].
Notation keepe := (keeps true carried).
Ltac carried_try := apply (keeps_try _ _ carried_pre); intros ? ? Hx;
  match type of Hx with match ?x with _ => _ end = _ => destruct x; [|discriminate] | (if ?x then _ else _) = _ => destruct x; [discriminate|] end;
  injection Hx as <-; carried_ok.
Lemma ke_set_env k v : keepe (set_env k v).
Proof.
  unfold set_env. apply (keeps_try _ _ carried_pre). intros s i Hx. destruct (_ || _)%bool eqn:E; [discriminate|]. injection Hx as <-.
  rewrite !orb_false_iff in E. destruct E as [[[E1 E2] E3] E4].
  split; [|exists []; split; [reflexivity|apply Forall_nil]]. cbn [im env with_env]. apply grows_set.
  - intros ->. discriminate.
  - apply contains_char_notIn, E2.
  - apply contains_char_notIn, E3.
  - apply contains_char_notIn, E4.
Qed.
Lemma ke_fork w c : keepe (fork_child w c).
Proof.
  unfold fork_child. apply keeps_raw. intros s. cbn. split; [apply grows_refl|]. eexists [_]. split; [reflexivity|].
  apply Forall_cons; [apply grows_refl|apply Forall_nil].
Qed.
Ltac carried_leaf :=
  match goal with
  | |- keeps _ _ (change _) => apply keeps_change; intro; carried_ok
  | |- keeps _ _ (on_cm _) => apply keeps_change; intro; carried_ok
  | |- keeps _ _ (on_jobs _) => apply keeps_change; intro; carried_ok
  | |- keeps _ _ (say _) => apply keeps_change; intro; carried_ok
  | |- keeps _ _ interrupts_on => apply keeps_change; intro; carried_ok
  | |- keeps _ _ interrupts_off => apply keeps_change; intro; carried_ok
  | |- keeps _ _ (sh_delete_job _) => apply keeps_change; intro; carried_ok
  | |- keeps _ _ (set_exit_status _) => apply keeps_change; intro; carried_ok
  | |- keeps _ _ get_exit_code => apply (keeps_look _ _ carried_pre)
  | |- keeps _ _ (note _) => apply keeps_note; intro; carried_ok
  | |- keeps _ _ (try_cm _) => unfold try_cm; carried_try
  | |- keeps _ _ (try_ _) => carried_try
  | |- keeps _ _ (set_env _ _) => apply ke_set_env
  | |- keeps _ _ (fork_child _ _) => apply ke_fork
  | |- keeps _ _ (sys_close _) => unfold sys_close; carried_try
  | |- keeps _ _ (sys_close_ignored ?a) => apply keeps_change; intros s; destruct (fd_close a (fds (im s))) eqn:E; cbn; rewrite ?E; carried_ok
  | |- keeps _ _ (expand_command _ _) => apply (keeps_expand _ _ carried_pre); intros; carried_ok
  | |- keeps _ _ (wait_job _ _) => apply (keeps_wait _ _ carried_pre); intros; carried_ok
  | |- keeps _ _ (fun s => (OOk _, Shell _ _)) => apply keeps_raw; intro; carried_ok
  end.
Ltac ke := repeat first [carried_leaf|keep_step carried_pre].

Lemma ke_pipe w : keepe (make_pipe w).
Proof. unfold make_pipe. ke. Qed.
Lemma ke_open w p h : keepe (sys_open w p h).
Proof. unfold sys_open. ke. Qed.
Lemma ke_while {A} f (m : M A) : keepe m -> keepe (while_open f m).
Proof. intros H. unfold while_open. ke. Qed.
Lemma ke_say_all ts : keepe (say_all ts).
Proof. induction ts; cbn [say_all]; ke. Qed.
Lemma ke_lookup w c : keepe (sh_lookup_command w c).
Proof. unfold sh_lookup_command. ke. Qed.
Lemma ke_execve w a v e : keepe (temp_execve w a v e).
Proof. unfold temp_execve, fork_reset. ke. apply ke_lookup. Qed.

Section Rec.
Context (w : os) (rec : list and_or -> M Z).
Hypothesis Hrec : forall l, keepe (rec l).

Lemma ke_complete c : keepe (eval_complete rec c).
Proof. unfold eval_complete. ke. Qed.
Lemma ke_parse_text t : keepe (parse_text t).
Proof. unfold parse_text. ke. Qed.
Lemma ke_fgbg sc : keepe (fgbg w sc).
Proof.
  unfold fgbg, fg_or_bg, word_at, fail. ke.
  apply keeps_raw. intros s. cbn. split; [apply grows_refl|]. eexists. split; [reflexivity|].
  unfold forks. replace (flat_map _ _) with (@nil (image * child * option positive)); [apply Forall_nil|].
  symmetry. induction (sent _ (processes j)) as [|p ps IH]; [reflexivity|]. cbn [map rev]. rewrite flat_map_app, IH. reflexivity.
Qed.
Lemma ke_context_file f : keepe (create_context_from_file w rec f).
Proof.
  unfold create_context_from_file. ke; [apply ke_open|]. apply ke_while. ke; first [apply ke_parse_text|apply ke_complete].
Qed.
Lemma ke_export_words ws : keepe (export_words ws).
Proof. induction ws; cbn [export_words]; unfold export_word; ke. Qed.
Lemma ke_export sc : keepe (export_cmd w rec sc).
Proof.
  unfold export_cmd, print_env, export_context, fail.
  ke; first [apply ke_say_all|apply ke_context_file|apply ke_export_words].
Qed.
Lemma ke_source_args args : forall i, keepe (source_args i args).
Proof. induction args; intros i; cbn [source_args]; ke; apply IHargs. Qed.
Lemma ke_source sc : keepe (source_cmd w rec sc).
Proof.
  unfold source_cmd, fail. ke; try apply ke_source_args; try apply ke_lookup; try apply ke_open.
  apply ke_while. ke; first [apply ke_parse_text|apply ke_complete].
Qed.
Lemma ke_exec sc : keepe (exec_cmd w sc).
Proof. unfold exec_cmd, exec_opts1, exec_opts2, word_at, fail. cbv zeta. ke; apply ke_execve. Qed.
Lemma ke_builtin sc : keepe (call_builtin w rec sc).
Proof.
  unfold call_builtin. cbv zeta.
  repeat match goal with |- keeps _ _ (if ?b then _ else _) => destruct b end;
    first [apply ke_fgbg|apply ke_export|apply ke_exec|apply ke_source|idtac];
    unfold change_directory, quit, save_history, return_cmd, jobs_cmd, alias_cmd, unalias_cmd, eval_cmd, unset_cmd, pwd, readonly_cmd, readonly_print,
      print_vars, print_readonly_functions, assignment_cmd, display_aliases, word_at, fail; ke;
    try apply ke_say_all; try apply ke_parse_text; try apply ke_complete.
Qed.
Lemma ke_function sc : keepe (eval_function rec sc).
Proof. unfold eval_function. ke. Qed.
Lemma ke_command c : keepe (eval_command w rec c).
Proof. unfold eval_command, eval_simple_command, eval_builtin. ke. apply ke_builtin. Qed.
Lemma ke_gather cs : keepe (gather w rec cs).
Proof. induction cs; cbn [gather]; ke. apply ke_command. Qed.
Lemma ke_run_functions cs : keepe (run_functions rec cs).
Proof. induction cs; cbn [run_functions]; ke. apply ke_function. Qed.
Lemma ke_launch id bg cs : forall i prev pip, keepe (launch w id bg i cs prev pip).
Proof. induction cs as [|[p sc] cs IH]; intros i prev pip; cbn [launch]; ke; first [apply IH|apply ke_pipe]. Qed.
Lemma ke_job bg pcs : keepe (run_job w bg pcs).
Proof. unfold run_job. ke; apply ke_launch. Qed.
Lemma ke_pipeline p : keepe (eval_pipeline w rec p).
Proof. destruct p as [b cs bg]. unfold eval_pipeline. ke; first [apply ke_gather|apply ke_run_functions|apply ke_job]. Qed.
Lemma ke_and_or a : keepe (eval_and_or w rec a).
Proof. induction a; cbn [eval_and_or]; ke; apply ke_pipeline. Qed.
Lemma ke_tree l : forall st, keepe (parse_tree_from w rec st l).
Proof. induction l; intros st; cbn [parse_tree_from]; ke; [apply ke_and_or|apply IHl]. Qed.
End Rec.

Theorem evaluate_carried w n : forall l, keepe (evaluate w n l).
Proof.
  induction n as [|n IH]; intros l; cbn [evaluate]; [apply (keeps_stop _ _ carried_pre)|]. apply ke_tree. exact IH.
Qed.
