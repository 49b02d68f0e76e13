(** What a run does to the stack of scopes. *)
From Verif Require Import Base Ast Parser Context Alias Expand Jobs Shell Builtins Eval EvalSpec EvalFacts EvalLaws EvalKeeps.

Lemma failures_app a b : failures (a ++ b) = failures a + failures b.
Proof.
  induction a as [|x a IH]; cbn; [reflexivity|]. destruct x as [| | | | | | | | |[]|]; cbn; rewrite IH; reflexivity.
Qed.

(** The scopes are as before, with one more for every such file. *)
Definition grown (s s' : shell) : Prop :=
  stack (cm (im s)) <> [] ->
  exists new extra, trace s' = new ++ trace s /\ stack (cm (im s')) = stack (cm (im s)) ++ extra /\
    List.length extra = failures new.

Lemma grown_pre : preorder grown.
Proof.
  constructor.
  - intros s _. exists [], []. rewrite app_nil_r. auto.
  - intros a b c Hab Hbc Ha. destruct (Hab Ha) as (n1 & e1 & T1 & S1 & L1).
    destruct Hbc as (n2 & e2 & T2 & S2 & L2).
    { rewrite S1. destruct (stack (cm (im a))); cbn; congruence. }
    exists (n2 ++ n1), (e1 ++ e2). split; [rewrite T2, T1, app_assoc; reflexivity|].
    split; [rewrite S2, S1, app_assoc; reflexivity|]. rewrite app_length, failures_app. lia.
Qed.

Lemma grown_same s s' new :
  stack (cm (im s')) = stack (cm (im s)) -> trace s' = new ++ trace s -> failures new = 0 -> grown s s'.
Proof. intros H1 H2 H3 _. exists new, []. rewrite app_nil_r. auto. Qed.
Lemma grown_image s i : stack (cm i) = stack (cm (im s)) -> grown s (Shell i (trace s)).
Proof. intros H. apply grown_same with []; auto. Qed.
Lemma grown_event s i e : stack (cm i) = stack (cm (im s)) -> (forall b, e = ENamespace b -> b = true) ->
  grown s (Shell i (e :: trace s)).
Proof.
  intros H He. apply grown_same with [e]; auto. destruct e as [| | | | | | | | |[]|]; cbn; try reflexivity.
  specialize (He false eq_refl). discriminate.
Qed.
Lemma grown_events s es : failures es = 0 -> grown s (Shell (im s) (es ++ trace s)).
Proof. intros H. apply grown_same with es; auto. Qed.

(** Operations on the scopes that keep the stack. *)
Lemma update_stack l c m : stack (update l c m) = stack m. Proof. reflexivity. Qed.
Lemma update_opt_stack l c m m' : update_opt l c m = Some m' -> stack m' = stack m.
Proof. destruct c; cbn; intros H; inversion H; subst; reflexivity. Qed.
Lemma add_var_stack x m m' : add_var x m = Some m' -> stack m' = stack m.
Proof.
  unfold add_var. destruct (innermost _ m); [|apply update_opt_stack].
  destruct (ctx_get_var _ _) as [[v []]|]; try apply update_opt_stack. intros H; inversion H; subst; reflexivity.
Qed.
Lemma add_var_pos_stack x p m m' : add_var_pos x p m = Some m' -> stack m' = stack m.
Proof. unfold add_var_pos. destruct (nth_error _ _); [apply update_opt_stack|discriminate]. Qed.
Lemma add_var_readonly_stack x m m' : add_var_readonly x m = Some m' -> stack m' = stack m.
Proof.
  unfold add_var_readonly. destruct (namespaced x) as [[]|]; [|apply update_opt_stack].
  destruct (get_context_by_name _ _); [apply update_opt_stack|]. intros H; inversion H; subst; reflexivity.
Qed.
Lemma set_var_readonly_stack x m m' : set_var_readonly x m = Some m' -> stack m' = stack m.
Proof.
  unfold set_var_readonly. destruct (namespaced x) as [[]|]; [|apply update_opt_stack].
  destruct (get_context_by_name _ _); [apply update_opt_stack|]. intros H; inversion H; subst; reflexivity.
Qed.
Lemma remove_var_stack x m : stack (remove_var x m) = stack m.
Proof. unfold remove_var. destruct (namespaced x) as [[]|]; [destruct (get_context_by_name _ _)|destruct (innermost _ _)]; reflexivity. Qed.
Lemma remove_function_stack x m : stack (remove_function x m) = stack m.
Proof. unfold remove_function. destruct (namespaced x) as [[]|]; [destruct (get_context_by_name _ _)|destruct (innermost _ _)]; reflexivity. Qed.
Lemma bind_args_stack args : forall i m m', bind_args i args m = Some m' -> stack m' = stack m.
Proof.
  induction args as [|a args IH]; intros i m m'; cbn [bind_args].
  - intros H; inversion H; subst; reflexivity.
  - destruct (str_eqb a _); [intros H; inversion H; subst; reflexivity|].
    destruct (add_var _ m) as [m1|] eqn:E; [|discriminate]. intros H. rewrite (IH _ _ _ H). apply (add_var_stack _ _ _ E).
Qed.
Lemma enter_stack name args m m' : enter_function name args m = Some m' ->
  stack m' = stack m ++ [List.length (heap m)].
Proof.
  unfold enter_function. destruct (add_var _ _) as [m1|] eqn:E; [|discriminate]. intros H.
  rewrite (bind_args_stack _ _ _ _ H), (add_var_stack _ _ _ E). reflexivity.
Qed.

Lemma keeps_try_cm all R f : preorder R -> (forall s m, f (cm (im s)) = Some m -> R s (Shell (with_cm m (im s)) (trace s))) ->
  keeps all R (try_cm f).
Proof.
  intros P Hf. apply keeps_try; [exact P|]. intros s i H. destruct (f (cm (im s))) as [m|] eqn:E; [|discriminate].
  injection H as <-. apply Hf. exact E.
Qed.
Lemma keeps_grown_cm f : (forall m m', f m = Some m' -> stack m' = stack m) -> keeps false grown (try_cm f).
Proof. intros Hf. apply keeps_try_cm; [apply grown_pre|]. intros s m H. apply grown_image. exact (Hf _ _ H). Qed.

Notation keepg := (keeps false grown).
Ltac grown_leaf :=
  match goal with
  | |- keeps _ _ (change _) => apply keeps_change; intro; apply grown_image; cbn; try reflexivity
  | |- keeps _ _ (note _) => apply keeps_note; intro; apply grown_event; [reflexivity|congruence]
  | |- keeps _ _ (try_ _) => apply (keeps_try _ _ grown_pre)
  | |- keeps _ _ (try_cm _) => apply keeps_grown_cm
  | |- keeps _ _ (wait_job _ _) => apply (keeps_wait _ _ grown_pre); intros; apply grown_event; [reflexivity|congruence]
  | |- keeps _ _ (expand_command _ _) => apply (keeps_expand _ _ grown_pre); intros; apply grown_event; [reflexivity|congruence]
  end.
Ltac kg := keep grown_pre; repeat (grown_leaf; keep grown_pre).

Lemma kg_pipe w : keepg (make_pipe w).
Proof. unfold make_pipe. kg. apply keeps_raw. intros s. cbn. apply grown_event; [reflexivity|congruence]. Qed.
Lemma kg_open w p h : keepg (sys_open w p h).
Proof. unfold sys_open. kg. apply keeps_raw. intros s. cbn. apply grown_event; [reflexivity|congruence]. Qed.
Lemma close_ignored_cm a i : cm (match fd_close a (fds i) with Some t => with_fds t i | None => i end) = cm i.
Proof. destruct (fd_close a (fds i)); reflexivity. Qed.
Lemma kg_close_ignored a : keepg (sys_close_ignored a).
Proof. apply keeps_change. intros s. apply grown_image. rewrite close_ignored_cm. reflexivity. Qed.
Lemma kg_while {A} f (m : M A) : keepg m -> keepg (while_open f m).
Proof. intros H. unfold while_open. kg; apply kg_close_ignored. Qed.
Lemma kg_say_all ts : keepg (say_all ts).
Proof. induction ts; cbn [say_all]; unfold say; kg. Qed.
Lemma kg_lookup w c : keepg (sh_lookup_command w c).
Proof. unfold sh_lookup_command. kg. Qed.
Lemma kg_set_env k v : keepg (set_env k v).
Proof.
  unfold set_env. apply (keeps_try _ _ grown_pre). intros s i H. destruct (_ || _)%bool; [discriminate|].
  injection H as <-. apply grown_image. reflexivity.
Qed.
Lemma kg_execve w a v e : keepg (temp_execve w a v e).
Proof. unfold temp_execve, fork_reset, interrupts_on. kg. apply kg_lookup. Qed.
Lemma kg_sys_close a : keepg (sys_close a).
Proof.
  unfold sys_close. apply (keeps_try _ _ grown_pre). intros s i H. destruct (fd_close _ _); [|discriminate].
  injection H as <-. apply grown_image. reflexivity.
Qed.

Section Rec.
Context (w : os) (rec : list and_or -> M Z).
Hypothesis Hrec : forall l, keepg (rec l).

Lemma kg_complete c : keepg (eval_complete rec c).
Proof. unfold eval_complete. kg. Qed.
Lemma kg_parse_text t : keepg (parse_text t).
Proof. unfold parse_text. kg. Qed.
Lemma kg_fgbg sc : keepg (fgbg w sc).
Proof.
  unfold fgbg, fg_or_bg, interrupts_off, interrupts_on, word_at, fail. kg.
  - apply keeps_raw. intros s. cbn. apply grown_events.
    match goal with |- failures ?l = 0 => assert (H : forall e, In e l -> exists p, e = EKill p) end.
    { intros e He. apply in_rev, in_map_iff in He. destruct He as (p & <- & _). eauto. }
    revert H. match goal with |- (forall e, In e ?l -> _) -> _ => generalize l end. clear.
    induction l as [|x l IH]; intros H; [reflexivity|]. destruct (H x (or_introl eq_refl)) as [p ->]. cbn.
    apply IH. intros e He. apply H. right. exact He.
  - intros s i H. destruct (resume _ _ _ _) as [j1|] eqn:E; [|discriminate]. injection H as <-. apply grown_image. reflexivity.
Qed.

(** Taking the innermost scope off a stack that has grown by one. *)
Lemma removelast_grown {A} (l : list A) x extra : exists extra', removelast ((l ++ [x]) ++ extra) = l ++ extra' /\
  List.length extra' = List.length extra.
Proof.
  destruct extra as [|y e] using rev_ind.
  - rewrite app_nil_r, removelast_last. exists []. rewrite app_nil_r. auto.
  - rewrite app_assoc, removelast_last, <- app_assoc. exists (x :: e). split; [reflexivity|].
    rewrite app_length. cbn. lia.
Qed.

(** The body of a namespace file. *)
Lemma kg_namespace c : keepg (
  on_cm push_context_new ;;
  r <- catch (eval_complete rec c) ;;
  match r with
  | inr e => note (ENamespace false) ;; stop (OErr (EFile e))
  | inl _ =>
      m <- look cm ;;
      m' <- unwrap (pop_context m) ;;
      on_cm (fun _ => m') ;;
      note (ENamespace true) ;;
      ret (get_context m)
  end).
Proof.
  intros s o s' H Ho Hne. unfold seq at 1, on_cm, change, bind at 1 in H.
  set (s1 := Shell (with_cm (push_context_new (cm (im s))) (im s)) (trace s)) in *.
  assert (Hne1 : stack (cm (im s1)) <> []) by (cbn; destruct (stack (cm (im s))); discriminate).
  apply bind_inv in H. destruct H as [(r & s2 & H1 & H2)|(o1 & H1 & F & ->)].
  - assert (G : grown s1 s2).
    { eapply (keeps_catch _ _ _ (kg_complete c)); [exact H1|right; exact I]. }
    destruct (G Hne1) as (new & extra & T & S & L). cbn in T, S. destruct r as [z|e].
    + unfold look, bind at 1 in H2. unfold pop_context in H2.
      destruct (Nat.eqb_spec (List.length (stack (cm (im s2)))) 1) as [E1|E1].
      { cbn in H2. injection H2 as <- <-. destruct Ho as [Ho|Ho]; [discriminate|contradiction]. }
      cbn in H2. injection H2 as <- <-. cbn.
      destruct (removelast_grown (stack (cm (im s))) (List.length (heap (cm (im s)))) extra) as (extra' & E2 & L').
      exists (ENamespace true :: new), extra'. split; [cbn; rewrite T; reflexivity|]. rewrite S. split; [exact E2|].
      cbn. lia.
    + cbn in H2. injection H2 as <- <-. cbn. exists (ENamespace false :: new), ([List.length (heap (cm (im s)))] ++ extra).
      split; [cbn; rewrite T; reflexivity|]. split; [rewrite S, <- app_assoc; reflexivity|]. cbn. lia.
  - apply catch_inv in H1. destruct H1 as [(a & _ & ->)|[(e & _ & ->)|(o2 & _ & N & ->)]]; try contradiction.
    destruct Ho as [Ho|Ho]; [discriminate|]. destruct o2; cbn in *; contradiction.
Qed.
Lemma kg_context_file f : keepg (create_context_from_file w rec f).
Proof.
  unfold create_context_from_file. apply (keeps_bind _ _ grown_pre); [apply kg_open|]. intros [fd|]; [|kg].
  apply kg_while. apply (keeps_bind _ _ grown_pre); [kg|]. intros [t|]; [|kg].
  apply (keeps_bind _ _ grown_pre); [apply kg_parse_text|]. intros c. apply kg_namespace.
Qed.
Lemma kg_export_words ws : keepg (export_words ws).
Proof.
  induction ws; cbn [export_words]; unfold export_word, on_cm; kg; try apply kg_set_env; intros m m' H.
  - exact (add_var_pos_stack _ _ _ _ H).
  - exact (update_opt_stack _ _ _ _ H).
Qed.
Lemma kg_export sc : keepg (export_cmd w rec sc).
Proof.
  unfold export_cmd, print_env, export_context, on_cm, fail.
  kg; first [apply kg_say_all|apply kg_context_file|apply kg_export_words].
Qed.
Lemma kg_source_args args : forall i, keepg (source_args i args).
Proof. induction args; intros i; cbn [source_args]; kg; [exact (add_var_stack _)|apply IHargs]. Qed.
Lemma kg_source sc : keepg (source_cmd w rec sc).
Proof.
  unfold source_cmd, fail. kg; try apply kg_source_args; try apply kg_lookup; try apply kg_open.
  apply kg_while. kg; first [apply kg_parse_text|apply kg_complete].
Qed.
Lemma kg_exec sc : keepg (exec_cmd w sc).
Proof. unfold exec_cmd, exec_opts1, exec_opts2, word_at, fail. cbv zeta. kg; apply kg_execve. Qed.
Lemma kg_builtin sc : keepg (call_builtin w rec sc).
Proof.
  unfold call_builtin. cbv zeta.
  repeat match goal with |- keeps _ _ (if ?b then _ else _) => destruct b end;
    first [apply kg_fgbg|apply kg_export|apply kg_exec|apply kg_source|idtac];
    unfold change_directory, interrupts_off, interrupts_on, quit, save_history, return_cmd, jobs_cmd, alias_cmd, unalias_cmd, eval_cmd, unset_cmd, pwd, readonly_cmd, readonly_print,
      print_vars, print_readonly_functions, assignment_cmd, display_aliases,
      get_exit_code, set_exit_status, say, on_cm, word_at, fail; kg;
    try apply kg_say_all; try apply kg_parse_text; try apply kg_complete.
  - intros s i H. destruct (alias_builtin _ _); [|discriminate]. injection H as <-. apply grown_image. reflexivity.
  - destruct f; [apply remove_var_stack|apply remove_function_stack|reflexivity].
  - exact (add_var_readonly_stack _).
  - exact (set_var_readonly_stack _).
  - exact (add_var_readonly_stack _).
  - exact (set_var_readonly_stack _).
  - exact (add_var_stack _).
Qed.

Lemma kg_function sc : keepg (eval_function rec sc).
Proof.
  unfold eval_function. apply (keeps_bind _ _ grown_pre); [kg|]. intros m0. destruct (get_function _ m0) as [b|]; [|kg].
  intros s o s' H Ho Hne. apply seq_inv in H.
  destruct H as [([] & s1 & H1 & H2)|(o1 & H1 & F & ->)].
  - unfold try_cm, try_ in H1. destruct (enter_function _ _ _) as [m1|] eqn:E; [|discriminate].
    injection H1 as <-. apply enter_stack in E.
    set (s1 := Shell (with_cm m1 (im s)) (trace s)) in *.
    apply seq_inv in H2. destruct H2 as [(r & s2 & H3 & H4)|(o1 & H3 & F & ->)].
    + assert (G : grown s1 s2).
      { eapply (keeps_catch _ _ _ (Hrec _)); [exact H3|right; exact I]. }
      destruct G as (new & extra & T & S & L).
      { cbn. rewrite E. destruct (stack (cm (im s))); discriminate. }
      cbn in T, S. rewrite E in S. cbn in H4. injection H4 as <- <-. cbn.
      destruct (removelast_grown (stack (cm (im s))) (List.length (heap (cm (im s)))) extra) as (extra' & E2 & L').
      exists new, extra'. split; [exact T|]. unfold pop_context.
      destruct (Nat.eqb_spec (List.length (stack (cm (im s2)))) 1) as [E1|E1].
      { exfalso. rewrite S in E1. rewrite !app_length in E1. cbn in E1. destruct (stack (cm (im s))); [congruence|]. cbn in E1. lia. }
      cbn. rewrite S. split; [exact E2|lia].
    + apply catch_inv in H3. destruct H3 as [(a & _ & ->)|[(e & _ & ->)|(o2 & _ & N & ->)]]; try contradiction.
      destruct Ho as [Ho|Ho]; [discriminate|]. destruct o2; cbn in *; contradiction.
  - unfold try_cm, try_ in H1. destruct (enter_function _ _ _); injection H1 as <- <-; [contradiction|].
    destruct Ho as [Ho|Ho]; [discriminate|contradiction].
Qed.
Lemma kg_command c : keepg (eval_command w rec c).
Proof.
  unfold eval_command, eval_simple_command, eval_builtin, on_cm. kg. apply kg_builtin.
Qed.
Lemma kg_gather cs : keepg (gather w rec cs).
Proof. induction cs; cbn [gather]; kg. apply kg_command. Qed.
Lemma kg_run_functions cs : keepg (run_functions rec cs).
Proof. induction cs; cbn [run_functions]; unfold set_exit_status; kg. apply kg_function. Qed.
Lemma kg_launch id bg cs : forall i prev pip, keepg (launch w id bg i cs prev pip).
Proof.
  induction cs as [|[p sc] cs IH]; intros i prev pip; cbn [launch]; [kg|].
  unfold fork_child, on_jobs. kg; try apply kg_pipe; try apply IH; try apply kg_sys_close; apply kg_close_ignored.
Qed.
Lemma kg_run_job bg cs : keepg (run_job w bg cs).
Proof.
  unfold run_job, on_jobs, sh_delete_job, interrupts_on, get_exit_code, say, set_exit_status. kg; apply kg_launch.
Qed.
Lemma kg_pipeline p : keepg (eval_pipeline w rec p).
Proof.
  destruct p as [b cs bg]. unfold eval_pipeline, interrupts_off.
  kg; first [apply kg_gather|apply kg_run_functions|apply kg_run_job].
Qed.
Lemma kg_and_or a : keepg (eval_and_or w rec a).
Proof. induction a; cbn [eval_and_or]; kg; apply kg_pipeline. Qed.
Lemma kg_tree l : forall st, keepg (parse_tree_from w rec st l).
Proof. induction l; intros st; cbn [parse_tree_from]; kg; [apply kg_and_or|apply IHl]. Qed.
End Rec.

Theorem evaluate_grown w n : forall l, keepg (evaluate w n l).
Proof.
  induction n as [|n IH]; intros l; cbn [evaluate].
  - apply (keeps_stop _ _ grown_pre).
  - apply kg_tree. exact IH.
Qed.
