(** Every run changes the variables, functions and scopes only through the
    operations of ContextSpec.v, and the jobs only through those of JobsSpec.v. *)
From Verif Require Import Base BaseFacts Ast Parser Context ContextSpec ContextFacts Alias Expand Jobs Shell Builtins Eval.
From Verif Require Import EvalSpec EvalFacts EvalLaws EvalKeeps EvalStack.

Definition history (s s' : shell) : Prop :=
  cm_wf (cm (im s)) -> exists ops, performs ops (cm (im s)) = Some (cm (im s')).

Lemma performs_app a : forall b m m1 m2, performs a m = Some m1 -> performs b m1 = Some m2 -> performs (a ++ b) m = Some m2.
Proof.
  induction a as [|o a IH]; intros b m m1 m2; cbn [performs app].
  - intros H. injection H as <-. auto.
  - destruct (perform o m) as [m'|]; [|discriminate]. apply IH.
Qed.
Lemma history_pre : preorder history.
Proof.
  constructor.
  - intros s _. exists []. reflexivity.
  - intros a b c Hab Hbc Ha. destruct (Hab Ha) as [o1 E1].
    destruct (Hbc (performs_wf _ _ _ Ha E1)) as [o2 E2]. exists (o1 ++ o2). eapply performs_app; eassumption.
Qed.
Lemma history_same s s' : cm (im s') = cm (im s) -> history s s'.
Proof. intros E _. exists []. rewrite E. reflexivity. Qed.
Lemma history_one o s s' : (cm_wf (cm (im s)) -> perform o (cm (im s)) = Some (cm (im s'))) -> history s s'.
Proof. intros E Hw. exists [o]. cbn. rewrite (E Hw). reflexivity. Qed.

Notation keeph := (keeps true history).
Ltac history_leaf :=
  match goal with
  | |- keeps _ _ (change _) => apply keeps_change; intro; try (apply history_same; reflexivity)
  | |- keeps _ _ (note _) => apply keeps_note; intro; apply history_same; reflexivity
  | |- keeps _ _ (try_ _) => apply (keeps_try _ _ history_pre)
  | |- keeps _ _ (try_cm _) => apply (keeps_try_cm _ _ _ history_pre)
  | |- keeps _ _ (wait_job _ _) => apply (keeps_wait _ _ history_pre); intros; apply history_same; reflexivity
  | |- keeps _ _ (expand_command _ _) => apply (keeps_expand _ _ history_pre); intros; apply history_same; reflexivity
  end.
Ltac kh := keep history_pre; repeat (history_leaf; keep history_pre).

Lemma kh_pipe w : keeph (make_pipe w).
Proof. unfold make_pipe. kh. apply keeps_raw. intros s. apply history_same. reflexivity. Qed.
Lemma kh_open w p h : keeph (sys_open w p h).
Proof. unfold sys_open. kh. apply keeps_raw. intros s. apply history_same. reflexivity. Qed.
Lemma kh_close_ignored a : keeph (sys_close_ignored a).
Proof. apply keeps_change. intros s. apply history_same. apply close_ignored_cm. Qed.
Lemma kh_while {A} f (m : M A) : keeph m -> keeph (while_open f m).
Proof. intros H. unfold while_open. kh; apply kh_close_ignored. Qed.
Lemma kh_say_all ts : keeph (say_all ts).
Proof. induction ts; cbn [say_all]; unfold say; kh. Qed.
Lemma kh_lookup w c : keeph (sh_lookup_command w c).
Proof. unfold sh_lookup_command. kh. Qed.
Lemma kh_set_env k v : keeph (set_env k v).
Proof.
  unfold set_env. apply (keeps_try _ _ history_pre). intros s i H. destruct (_ || _)%bool; [discriminate|].
  injection H as <-. apply history_same. reflexivity.
Qed.
Lemma kh_execve w a v e : keeph (temp_execve w a v e).
Proof. unfold temp_execve, fork_reset, interrupts_on. kh. apply kh_lookup. Qed.
Lemma kh_sys_close a : keeph (sys_close a).
Proof.
  unfold sys_close. apply (keeps_try _ _ history_pre). intros s i H. destruct (fd_close _ _); [|discriminate].
  injection H as <-. apply history_same. reflexivity.
Qed.
Lemma env_context_pos m c : cm_wf m -> forall x, update_opt (get_env_context m) c m =
  match nth_error (stack m) 0 with Some l => update_opt l c m | None => x end.
Proof.
  intros Hw x. pose proof (get_env_context_In m Hw) as Hin. unfold get_env_context in *.
  destruct (stack m); [destruct Hin|reflexivity].
Qed.

Section Rec.
Context (w : os) (rec : list and_or -> M Z).
Hypothesis Hrec : forall l, keeph (rec l).

Lemma kh_complete c : keeph (eval_complete rec c).
Proof. unfold eval_complete. kh. Qed.
Lemma kh_parse_text t : keeph (parse_text t).
Proof. unfold parse_text. kh. Qed.
Lemma kh_fgbg sc : keeph (fgbg w sc).
Proof.
  unfold fgbg, fg_or_bg, interrupts_off, interrupts_on, word_at, fail. kh.
  - apply keeps_raw. intros s. apply history_same. reflexivity.
  - intros s i H. destruct (resume _ _ _ _) as [j1|] eqn:E; [|discriminate]. injection H as <-. apply history_same. reflexivity.
Qed.

(** A namespace file: its scope is pushed, and popped again if its evaluation
    succeeds; the result is then the location of the popped scope. *)
Definition popped_from (l : nat) (s s' : shell) : Prop :=
  cm_wf (cm (im s)) -> exists ops m, performs ops (cm (im s)) = Some m /\
    pop_context m = Some (cm (im s')) /\ get_context m = l.

Definition namespace (c : complete_command) : M nat :=
  on_cm push_context_new ;;
  r <- catch (eval_complete rec c) ;;
  match r with
  | inr e => note (ENamespace false) ;; stop (OErr (EFile e))
  | inl _ =>
      m <- look cm ;;
      m' <- unwrap (pop_context m) ;;
      on_cm (fun _ => m') ;;
      note (ENamespace true) ;;
      ret (get_context m)
  end.
Lemma namespace_history c : keeph (namespace c) /\
  forall s l s', namespace c s = (OOk l, s') -> popped_from l s s'.
Proof.
  assert (Hp : keeph (on_cm push_context_new)).
  { apply keeps_change. intros s. apply history_one with OPush. reflexivity. }
  assert (K : forall s o s', namespace c s = (o, s') ->
    history s s' /\ forall l, o = OOk l -> popped_from l s s').
  { intros s o s' H. unfold namespace in H. unfold seq at 1, on_cm at 1, change, bind at 1 in H.
    set (s1 := Shell (with_cm (push_context_new (cm (im s))) (im s)) (trace s)) in *.
    assert (H01 : history s s1) by (apply history_one with OPush; reflexivity).
    apply bind_inv in H. destruct H as [(r & s2 & H1 & H2)|(o1 & H1 & F & ->)].
    - assert (H12 : history s1 s2).
      { eapply (keeps_catch _ _ _ (kh_complete c)); [exact H1|left; reflexivity]. }
      assert (H02 := pre_trans _ history_pre _ _ _ H01 H12).
      destruct r as [z|e].
      + cbn [bind look] in H2. unfold bind at 1, look in H2.
        destruct (pop_context (cm (im s2))) as [m'|] eqn:E; cbn in H2; injection H2 as <- <-.
        * split.
          -- eapply (pre_trans _ history_pre); [exact H02|]. apply history_one with OPop. intros _. exact E.
          -- intros l Hl. injection Hl as <-. intros Hw. destruct (H02 Hw) as [ops E2].
             exists ops, (cm (im s2)). cbn. auto.
        * split; [exact H02|discriminate].
      + cbn in H2. injection H2 as <- <-. split; [|discriminate].
        eapply (pre_trans _ history_pre); [exact H02|]. apply history_same. reflexivity.
    - split; [|intros l E; destruct o1; cbn in *; try contradiction; discriminate].
      eapply (pre_trans _ history_pre); [exact H01|].
      eapply (keeps_catch _ _ _ (kh_complete c)); [exact H1|left; reflexivity]. }
  split.
  - intros s o s' H _. apply (K _ _ _ H).
  - intros s l s' H. apply (K _ _ _ H). reflexivity.
Qed.

Lemma context_file_history f : keeph (create_context_from_file w rec f) /\
  forall s l s', create_context_from_file w rec f s = (OOk l, s') -> popped_from l s s'.
Proof.
  split.
  - unfold create_context_from_file. apply (keeps_bind _ _ history_pre); [apply kh_open|]. intros [fd|]; [|kh].
    apply kh_while. apply (keeps_bind _ _ history_pre); [kh|]. intros [t|]; [|kh].
    apply (keeps_bind _ _ history_pre); [apply kh_parse_text|]. intros c. apply namespace_history.
  - intros s l s' H. unfold create_context_from_file in H.
    apply bind_inv_ok in H. destruct H as ([fd|] & s1 & H1 & H2); [|discriminate].
    unfold while_open in H2. apply bind_inv_ok in H2. destruct H2 as (r & s2 & H2 & H3).
    apply catch_inv in H2. destruct H2 as [(a & H2 & E)|[(e & H2 & E)|(o & H2 & N & E)]].
    2: { injection E as ->. cbn in H3. discriminate. }
    2: { destruct o; cbn in *; try contradiction; discriminate. }
    injection E as ->. cbn in H3. injection H3 as <- <-.
    apply bind_inv_ok in H2. destruct H2 as ([t|] & s3 & H2 & H4); [|discriminate].
    apply bind_inv_ok in H4. destruct H4 as (c & s4 & H4 & H5).
    assert (E1 : cm (im s1) = cm (im s)).
    { unfold sys_open, ask, bind in H1. destruct (r_open _ _ _); cbn in H1; inversion H1; subst; reflexivity. }
    assert (E3 : s3 = s1) by (unfold ask in H2; congruence).
    assert (E4 : s4 = s3) by (unfold parse_text in H4; destruct (parse t); unfold ret, stop in H4; congruence).
    subst s4 s3. destruct (namespace_history c) as [_ Hn]. specialize (Hn _ _ _ H5).
    intros Hw. rewrite <- E1 in Hw. destruct (Hn Hw) as (ops & m & P1 & P2 & P3). exists ops, m.
    rewrite <- E1. split; [exact P1|]. split; [|exact P3]. cbn. rewrite close_ignored_cm. exact P2.
Qed.
Lemma kh_context_then (g : str) f : keeph (l <- create_context_from_file w rec f ;; on_cm (add_context g l)).
Proof.
  apply keeps_bind_after; [apply context_file_history|]. intros s l s1 o s' H1 H2 _ Hw.
  destruct (proj2 (context_file_history f) _ _ _ H1 Hw) as (ops & m & P1 & P2 & P3).
  injection H2 as <- <-. exists (ops ++ [OPopExport g]). eapply performs_app; [exact P1|].
  cbn. rewrite P2, P3. reflexivity.
Qed.

Lemma kh_export_words ws : keeph (export_words ws).
Proof.
  induction ws as [|x ws IH]; cbn [export_words]; unfold export_word; [kh|].
  apply (keeps_seq _ _ history_pre); [|exact IH]. destruct (contains_char (ch "=") x).
  - kh; [|apply kh_set_env]. intros s m H. apply history_one with (OAssignAt 0 x). intros _. exact H.
  - apply (keeps_bind _ _ history_pre); [kh|]. intros m0. destruct (expand_var m0 x) as [v|].
    + kh. intros s m H. apply history_one with (OAssignAt 0 (x ++ lit "=" ++ v)). intros Hw. cbn [perform cm im with_cm].
      rewrite <- H. unfold add_var_pos. pose proof (get_env_context_In _ Hw) as Hin. unfold get_env_context in *.
      destruct (stack (cm (im s))) as [|l st]; [destruct Hin|reflexivity].
    + destruct (get_function x m0) as [b|]; [|kh]. apply keeps_change. intros s.
      apply history_one with (OExportFunction x b). intros _. reflexivity.
Qed.
Lemma kh_export_self : keeph (
  m <- look cm ;;
  v <- unwrap (ctx_get_var (lit "0") (deref (get_context m) m)) ;;
  on_cm (add_context (value v) (get_context m))).
Proof.
  intros s o s' H _. unfold bind at 1, look in H.
  destruct (ctx_get_var _ _) as [v|]; cbn in H; injection H as <- <-.
  - apply history_one with (OExport (value v)). reflexivity.
  - apply history_same. reflexivity.
Qed.
Lemma kh_export_context ws : keeph (export_context w rec ws).
Proof.
  unfold export_context, fail. destruct ws as [|w0 [|w1 ws]]; [kh|kh|].
  destruct (contains_char _ w1).
  - cbv zeta. destruct (str_eqb _ _).
    + apply keeps_change. intros s. eapply history_one with (OExport _). reflexivity.
    + apply kh_context_then.
  - destruct (str_eqb _ _); [apply kh_export_self|apply kh_context_then].
Qed.
Lemma kh_export sc : keeph (export_cmd w rec sc).
Proof.
  unfold export_cmd, print_env. kh; first [apply kh_say_all|apply kh_export_context|apply kh_export_words].
Qed.
Lemma kh_source_args args : forall i, keeph (source_args i args).
Proof.
  induction args as [|a args IH]; intros i; cbn [source_args]; [kh|]. apply (keeps_seq _ _ history_pre); [|apply IH].
  kh. intros s m H. eapply history_one with (OAssign _). intros _. exact H.
Qed.
Lemma kh_source sc : keeph (source_cmd w rec sc).
Proof.
  unfold source_cmd, fail. kh; try apply kh_source_args; try apply kh_lookup; try apply kh_open.
  apply kh_while. kh; first [apply kh_parse_text|apply kh_complete].
Qed.
Lemma kh_exec sc : keeph (exec_cmd w sc).
Proof. unfold exec_cmd, exec_opts1, exec_opts2, word_at, fail. cbv zeta. kh; apply kh_execve. Qed.
Lemma kh_builtin sc : keeph (call_builtin w rec sc).
Proof.
  unfold call_builtin. cbv zeta.
  repeat match goal with |- keeps _ _ (if ?b then _ else _) => destruct b end;
    first [apply kh_fgbg|apply kh_export|apply kh_exec|apply kh_source|idtac];
    unfold change_directory, interrupts_off, interrupts_on, quit, save_history, return_cmd, jobs_cmd, alias_cmd, unalias_cmd, eval_cmd, unset_cmd, pwd, readonly_cmd, readonly_print,
      print_vars, print_readonly_functions, assignment_cmd, display_aliases,
      get_exit_code, set_exit_status, say, on_cm, word_at, fail; kh;
    try apply kh_say_all; try apply kh_parse_text; try apply kh_complete.
  - intros ? ? Hx. destruct (alias_builtin _ _); [|discriminate]. injection Hx as <-. apply history_same. reflexivity.
  - destruct f; [eapply history_one with (OUnset _)|eapply history_one with (OUnsetFunction _)|eapply history_one with (OUnexport _)]; reflexivity.
  - intros ? ? Hx. eapply history_one with (OReadonlyAssign _). intros _. exact Hx.
  - intros ? ? Hx. eapply history_one with (OReadonly _). intros _. exact Hx.
  - intros ? ? Hx. eapply history_one with (OReadonlyAssign _). intros _. exact Hx.
  - intros ? ? Hx. eapply history_one with (OReadonly _). intros _. exact Hx.
  - intros ? ? Hx. eapply history_one with (OAssign _). intros _. exact Hx.
Qed.

Lemma bind_args_history args : forall i m m', bind_args i args m = Some m' ->
  exists ops, performs ops m = Some m'.
Proof.
  induction args as [|a args IH]; intros i m m'; cbn [bind_args].
  - intros H. injection H as <-. exists []. reflexivity.
  - destruct (str_eqb a _); [intros H; injection H as <-; exists []; reflexivity|].
    destruct (add_var _ m) as [m1|] eqn:E; [|discriminate]. intros H. destruct (IH _ _ _ H) as [ops Eo].
    exists (OAssign (N_to_str i ++ lit "=" ++ a) :: ops). cbn [performs perform]. rewrite E. exact Eo.
Qed.
Lemma enter_history name args m m' : enter_function name args m = Some m' -> exists ops, performs ops m = Some m'.
Proof.
  unfold enter_function. destruct (add_var _ _) as [m1|] eqn:E; [|discriminate]. intros H.
  destruct (bind_args_history _ _ _ _ H) as [ops Eo]. exists (OPush :: OAssign (lit "0=" ++ name) :: ops).
  cbn [performs perform]. rewrite E. exact Eo.
Qed.
Lemma kh_function sc : keeph (eval_function rec sc).
Proof.
  unfold eval_function, on_cm. kh.
  - intros s m H _. exact (enter_history _ _ _ _ H).
  - cbn. match goal with |- context [pop_context (cm (im ?x))] => destruct (pop_context (cm (im x))) as [m'|] eqn:E end.
    + apply history_one with OPop. intros _. exact E.
    + apply history_same. reflexivity.
Qed.
Lemma kh_command c : keeph (eval_command w rec c).
Proof.
  unfold eval_command, eval_simple_command, eval_builtin, on_cm. kh; [apply kh_builtin|].
  eapply history_one with (ODefine _ _). reflexivity.
Qed.
Lemma kh_gather cs : keeph (gather w rec cs).
Proof. induction cs; cbn [gather]; kh. apply kh_command. Qed.
Lemma kh_run_functions cs : keeph (run_functions rec cs).
Proof. induction cs; cbn [run_functions]; unfold set_exit_status; kh. apply kh_function. Qed.
Lemma kh_launch id bg cs : forall i prev pip, keeph (launch w id bg i cs prev pip).
Proof.
  induction cs as [|[p sc] cs IH]; intros i prev pip; cbn [launch]; [kh|].
  unfold fork_child, on_jobs. kh; try apply kh_pipe; try apply IH; try apply kh_sys_close; apply kh_close_ignored.
Qed.
Lemma kh_run_job bg cs : keeph (run_job w bg cs).
Proof.
  unfold run_job, on_jobs, sh_delete_job, interrupts_on, get_exit_code, say, set_exit_status. kh; apply kh_launch.
Qed.
Lemma kh_pipeline p : keeph (eval_pipeline w rec p).
Proof.
  destruct p as [b cs bg]. unfold eval_pipeline, interrupts_off.
  kh; first [apply kh_gather|apply kh_run_functions|apply kh_run_job].
Qed.
Lemma kh_and_or a : keeph (eval_and_or w rec a).
Proof. induction a; cbn [eval_and_or]; kh; apply kh_pipeline. Qed.
Lemma kh_tree l : forall st, keeph (parse_tree_from w rec st l).
Proof. induction l; intros st; cbn [parse_tree_from]; kh; [apply kh_and_or|apply IHl]. Qed.
End Rec.

Theorem evaluate_history w n : forall l, keeph (evaluate w n l).
Proof.
  induction n as [|n IH]; intros l; cbn [evaluate].
  - apply (keeps_stop _ _ history_pre).
  - apply kh_tree. exact IH.
Qed.
