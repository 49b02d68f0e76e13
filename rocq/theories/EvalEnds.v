(** How a shell ends by itself: it has just saved its history. *)
From Verif Require Import Base Ast Parser Context Alias Expand Jobs Shell Builtins Eval EvalSpec EvalFacts EvalLaws EvalKeeps.
Local Open Scope Z_scope.

Definition nosave (tr : list event) : Prop := forall p, ~ In (ESave p) tr.
Lemma nosave_nil : nosave [].
Proof. intros p []. Qed.
Lemma nosave_cons e tr : (forall p, e <> ESave p) -> nosave tr -> nosave (e :: tr).
Proof. intros He Ht p [H|H]; [exact (He p H)|exact (Ht p H)]. Qed.
Lemma nosave_app a b : nosave a -> nosave b -> nosave (a ++ b).
Proof. intros Ha Hb p H. apply in_app_iff in H. destruct H; [exact (Ha p H)|exact (Hb p H)]. Qed.

(** [m] does not save the history unless this is the last thing the shell does, and that
    is so when the shell exits; a forked copy exits without. *)
Definition clean_at {A} (m : M A) (s : shell) : Prop := forall o s', m s = (o, s') -> exists new, trace s' = new ++ trace s /\
  (nosave new /\ (forall c, o = OExit c -> forked (im s') = true) \/
   ~ returns o /\ exists t, new = ESave (history_location (im s')) :: t /\ nosave t).
Definition clean {A} (m : M A) : Prop := forall s, clean_at m s.
(** [m] does not save it, and does not exit. *)
Definition quiet {A} (m : M A) : Prop := forall s, (forall c, fst (m s) <> OExit c) /\
  exists new, trace (snd (m s)) = new ++ trace s /\ nosave new.

Lemma clean_quiet {A} (m : M A) : quiet m -> clean m.
Proof.
  intros H s o s' E. destruct (H s) as (H1 & new & H2 & H3). rewrite E in H1, H2. cbn [fst snd] in *. exists new.
  split; [exact H2|]. left. split; [exact H3|]. intros c ->. destruct (H1 c eq_refl).
Qed.
Lemma clean_at_bind {A B} (m : M A) (k : A -> M B) s : clean_at m s -> (forall a s1, m s = (OOk a, s1) -> clean_at (k a) s1) ->
  clean_at (bind m k) s.
Proof.
  intros Hm Hk o s' H. apply bind_inv in H. destruct H as [(a & s1 & H1 & H2)|(o1 & H1 & F & ->)].
  - destruct (Hm _ _ H1) as (n1 & T1 & [[N1 _]|[F _]]); [|destruct (F I)].
    destruct (Hk _ _ H1 _ _ H2) as (n2 & T2 & [[N2 X2]|(F & t & -> & N2)]); rewrite T2, T1.
    + exists (n2 ++ n1). rewrite app_assoc. split; [reflexivity|]. left. split; [apply nosave_app; assumption|exact X2].
    + exists ((ESave (history_location (im s')) :: t) ++ n1). rewrite app_assoc. split; [reflexivity|]. right.
      split; [exact F|]. exists (t ++ n1). split; [reflexivity|apply nosave_app; assumption].
  - destruct (Hm _ _ H1) as (n1 & T1 & [[N1 X1]|(F1 & X1)]); exists n1; (split; [exact T1|]).
    + left. split; [exact N1|]. intros c E. apply (X1 c). destruct o1; cbn in E; try discriminate. congruence.
    + right. split; [|exact X1]. intros R. apply F1. destruct o1; cbn in *; tauto.
Qed.
Lemma clean_bind {A B} (m : M A) (k : A -> M B) : clean m -> (forall a, clean (k a)) -> clean (bind m k).
Proof. intros Hm Hk s. apply clean_at_bind; [apply Hm|]. intros a s1 _. apply Hk. Qed.
Lemma clean_seq {A B} (m : M A) (k : M B) : clean m -> clean k -> clean (seq m k).
Proof. intros Hm Hk. apply clean_bind; [exact Hm|intros _; exact Hk]. Qed.
Lemma clean_catch {A} (m : M A) : clean m -> clean (catch m).
Proof.
  intros Hm s o s' H. apply catch_inv in H. destruct H as [(a & H1 & ->)|[(e & H1 & ->)|(o1 & H1 & F & ->)]];
    destruct (Hm _ _ _ H1) as (n1 & T1 & [[N1 X1]|(F1 & X1)]); exists n1; (split; [exact T1|]); try (destruct (F1 I)).
  - left. split; [exact N1|discriminate].
  - left. split; [exact N1|discriminate].
  - left. split; [exact N1|]. intros c E. apply (X1 c). destruct o1; cbn in E; try discriminate. congruence.
  - right. split; [|exact X1]. intros R. apply F1. destruct o1; cbn in *; tauto.
Qed.

Ltac nothing := intros s; split; [intros c; discriminate|exists []; split; [reflexivity|apply nosave_nil]].
Lemma quiet_ret {A} (a : A) : quiet (ret a).
Proof. nothing. Qed.
Lemma quiet_look {A} (f : image -> A) : quiet (look f).
Proof. nothing. Qed.
Lemma quiet_ask {A} w (f : reports -> A) : quiet (ask w f).
Proof. nothing. Qed.
Lemma quiet_change f : quiet (change f).
Proof. nothing. Qed.
Lemma quiet_stop {A} (o : out A) : (forall c, o <> OExit c) -> quiet (stop o).
Proof. intros H s. split; [exact H|]. exists []. split; [reflexivity|apply nosave_nil]. Qed.
Lemma quiet_unwrap {A} (x : option A) : quiet (unwrap x).
Proof. destruct x; [apply quiet_ret|apply quiet_stop; discriminate]. Qed.
Lemma quiet_try f : quiet (try_ f).
Proof. intros s. unfold try_. destruct (f (im s)); (split; [intros c; discriminate|exists []; split; [reflexivity|apply nosave_nil]]). Qed.
Lemma quiet_note e : (forall p, e <> ESave p) -> quiet (note e).
Proof. intros H s. split; [intros c; discriminate|]. exists [e]. split; [reflexivity|apply nosave_cons; [exact H|apply nosave_nil]]. Qed.
Lemma quiet_expand w sc : quiet (expand_command w sc).
Proof.
  intros s. unfold expand_command. destruct (expand _ _ _ _ _) as [[sc' [|x l]]|]; (split; [intros c; discriminate|]).
  - exists []. split; [reflexivity|apply nosave_nil].
  - eexists [_]. split; [reflexivity|]. apply nosave_cons; [discriminate|apply nosave_nil].
  - exists []. split; [reflexivity|apply nosave_nil].
Qed.
Lemma quiet_wait w id : quiet (wait_job w id).
Proof.
  intros s. unfold wait_job. destruct (wait_for_job _ _ _ _); (split; [intros c; discriminate|]).
  - eexists [_]. split; [reflexivity|]. apply nosave_cons; [discriminate|apply nosave_nil].
  - exists []. split; [reflexivity|apply nosave_nil].
  - exists []. split; [reflexivity|apply nosave_nil].
Qed.
Lemma quiet_raw {A} (f : shell -> A) g e : (forall s p, e s <> ESave p) -> quiet (fun s => (OOk (f s), Shell (g s) (e s :: trace s))).
Proof. intros H s. split; [intros c; discriminate|]. exists [e s]. split; [reflexivity|apply nosave_cons; [apply H|apply nosave_nil]]. Qed.

Ltac step :=
  match goal with
  | |- forall _, clean _ => intro
  | H : forall l, clean (?r l) |- clean (?r _) => apply H
  | H : clean ?r |- clean ?r => exact H
  | |- clean (ret _) => apply clean_quiet, quiet_ret
  | |- clean (stop (OExit _)) => fail 1
  | |- clean (stop _) => apply clean_quiet, quiet_stop; discriminate
  | |- clean (look _) => apply clean_quiet, quiet_look
  | |- clean get_exit_code => apply clean_quiet, quiet_look
  | |- clean (ask _ _) => apply clean_quiet, quiet_ask
  | |- clean (unwrap _) => apply clean_quiet, quiet_unwrap
  | |- clean (change _) => apply clean_quiet, quiet_change
  | |- clean (on_cm _) => apply clean_quiet, quiet_change
  | |- clean (on_jobs _) => apply clean_quiet, quiet_change
  | |- clean (say _) => apply clean_quiet, quiet_change
  | |- clean interrupts_on => apply clean_quiet, quiet_change
  | |- clean interrupts_off => apply clean_quiet, quiet_change
  | |- clean (sh_delete_job _) => apply clean_quiet, quiet_change
  | |- clean (set_exit_status _) => apply clean_quiet, quiet_change
  | |- clean (sys_close_ignored _) => apply clean_quiet, quiet_change
  | |- clean (note _) => apply clean_quiet, quiet_note; discriminate
  | |- clean (try_cm _) => apply clean_quiet, quiet_try
  | |- clean (try_ _) => apply clean_quiet, quiet_try
  | |- clean (set_env _ _) => apply clean_quiet, quiet_try
  | |- clean (sys_close _) => apply clean_quiet, quiet_try
  | |- clean (sys_dup2 _ _) => apply clean_quiet, quiet_try
  | |- clean (expand_command _ _) => apply clean_quiet, quiet_expand
  | |- clean (wait_job _ _) => apply clean_quiet, quiet_wait
  | |- clean (bind _ _) => apply clean_bind
  | |- clean (seq _ _) => apply clean_seq
  | |- clean (catch _) => apply clean_catch
  | |- clean (match ?x with _ => _ end) => destruct x
  | |- clean (if ?x then _ else _) => destruct x
  | |- clean (let '(_, _) := ?x in _) => destruct x
  | |- clean (fun s => (OOk _, Shell _ (trace s))) => apply clean_quiet; nothing
  | |- clean (fun s => (OOk _, Shell _ (_ :: trace s))) => apply clean_quiet, quiet_raw; discriminate
  end.
Ltac ce := repeat step.

Lemma ce_pipe w : clean (make_pipe w).
Proof. unfold make_pipe. ce. Qed.
Lemma ce_open w p h : clean (sys_open w p h).
Proof. unfold sys_open. ce. Qed.
Lemma ce_while {A} f (m : M A) : clean m -> clean (while_open f m).
Proof. intros H. unfold while_open. ce. Qed.
Lemma ce_say_all ts : clean (say_all ts).
Proof. induction ts; cbn [say_all]; ce. Qed.
Lemma ce_lookup w c : clean (sh_lookup_command w c).
Proof. unfold sh_lookup_command. ce. Qed.
Lemma ce_execve w a v e : clean (temp_execve w a v e).
Proof. unfold temp_execve, fork_reset. ce. apply ce_lookup. Qed.
Lemma ce_quit sc : clean (quit sc).
Proof.
  intros s o s' H. unfold quit in H. rewrite (seq_ok save_history _ s tt _ eq_refl) in H.
  exists [ESave (history_location (im s))].
  assert (K : ~ returns o /\ s' = Shell (im s) (ESave (history_location (im s)) :: trace s)).
  { destruct (words_of sc) as [[|x xs]|]; cbn in H.
    - injection H as <- <-. split; [exact (fun x => x)|reflexivity].
    - destruct (parse_i32 x); cbn in H; injection H as <- <-; (split; [exact (fun x => x)|reflexivity]).
    - injection H as <- <-. split; [exact (fun x => x)|reflexivity]. }
  destruct K as [K ->]. split; [reflexivity|]. right. split; [exact K|]. exists []. split; [reflexivity|apply nosave_nil].
Qed.

Section Rec.
Context (w : os) (rec : list and_or -> M Z).
Hypothesis Hrec : forall l, clean (rec l).

Lemma ce_complete c : clean (eval_complete rec c).
Proof. unfold eval_complete. ce. Qed.
Lemma ce_parse_text t : clean (parse_text t).
Proof. unfold parse_text. ce. Qed.
Lemma kills_nosave ps : nosave (rev (map EKill ps)).
Proof. intros p H. apply in_rev, in_map_iff in H. destruct H as (x & E & _). discriminate. Qed.
Lemma ce_fgbg sc : clean (fgbg w sc).
Proof.
  unfold fgbg, fg_or_bg, word_at, fail. ce; apply clean_quiet; intros s; (split; [intros c; discriminate|eexists; split; [reflexivity|apply kills_nosave]]).
Qed.
Lemma ce_context_file f : clean (create_context_from_file w rec f).
Proof.
  unfold create_context_from_file. ce; [apply ce_open|]. apply ce_while. ce; first [apply ce_parse_text|apply ce_complete].
Qed.
Lemma ce_export_words ws : clean (export_words ws).
Proof. induction ws; cbn [export_words]; unfold export_word; ce. Qed.
Lemma ce_export sc : clean (export_cmd w rec sc).
Proof.
  unfold export_cmd, print_env, export_context, fail.
  ce; first [apply ce_say_all|apply ce_context_file|apply ce_export_words].
Qed.
Lemma ce_source_args args : forall i, clean (source_args i args).
Proof. induction args; intros i; cbn [source_args]; ce; apply IHargs. Qed.
Lemma ce_source sc : clean (source_cmd w rec sc).
Proof.
  unfold source_cmd, fail. ce; try apply ce_source_args; try apply ce_lookup; try apply ce_open.
  apply ce_while. ce; first [apply ce_parse_text|apply ce_complete].
Qed.
Lemma ce_exec sc : clean (exec_cmd w sc).
Proof. unfold exec_cmd, exec_opts1, exec_opts2, word_at, fail. cbv zeta. ce; apply ce_execve. Qed.
Lemma ce_builtin sc : clean (call_builtin w rec sc).
Proof.
  unfold call_builtin. cbv zeta.
  repeat match goal with |- clean (if ?b then _ else _) => destruct b end;
    first [apply ce_fgbg|apply ce_export|apply ce_exec|apply ce_source|apply ce_quit|idtac];
    unfold change_directory, return_cmd, jobs_cmd, alias_cmd, unalias_cmd, eval_cmd, unset_cmd, pwd, readonly_cmd, readonly_print,
      print_vars, print_readonly_functions, assignment_cmd, display_aliases, word_at, fail; ce;
    try apply ce_say_all; try apply ce_parse_text; try apply ce_complete.
Qed.
Lemma ce_function sc : clean (eval_function rec sc).
Proof. unfold eval_function. ce. Qed.
Lemma ce_command c : clean (eval_command w rec c).
Proof. unfold eval_command, eval_simple_command, eval_builtin. ce. apply ce_builtin. Qed.
Lemma ce_gather cs : clean (gather w rec cs).
Proof. induction cs; cbn [gather]; ce. apply ce_command. Qed.
Lemma found_function n m : is_function n m = true -> get_function n m <> None.
Proof.
  unfold is_function, get_function. destruct (namespaced n) as [[ns x]|].
  - destruct (get_context_by_name ns m) as [l|]; [|discriminate]. unfold has_function. destruct (ctx_get_function _ _); [discriminate|intros F; discriminate F].
  - unfold innermost. destruct (find _ _) as [l|] eqn:E; [|discriminate]. intros _. apply find_some in E. destruct E as [_ E].
    unfold has_function in E. destruct (ctx_get_function _ _); discriminate.
Qed.
Lemma function_true sc s b s' : is_function (sc_name sc) (cm (im s)) = true -> eval_function rec sc s = (OOk b, s') -> b = true.
Proof.
  intros Hf H. unfold eval_function in H. rewrite (bind_ok (look cm) _ s (cm (im s)) s eq_refl) in H.
  apply found_function in Hf. destruct (get_function _ _); [|congruence].
  apply seq_inv_ok in H. destruct H as (x1 & s1 & _ & H). apply seq_inv_ok in H. destruct H as (x2 & s2 & _ & H).
  apply seq_inv_ok in H. destruct H as (x3 & s3 & _ & H). injection H as <- _. reflexivity.
Qed.
Lemma ce_run_functions cs : clean (run_functions rec cs).
Proof.
  induction cs as [|pc cs IH]; cbn [run_functions]; [ce|]. intros s. apply clean_at_bind; [apply clean_quiet, quiet_look|].
  intros m s1 E. injection E as <- <-. destruct (is_function _ _) eqn:Ef.
  2:{ assert (K : clean (rest <- run_functions rec cs ;; ret (pc :: rest))) by ce. exact (K s). }
  apply clean_at_bind; [apply ce_function|]. intros b s1 E1. rewrite (function_true _ _ _ _ Ef E1).
  apply clean_at_bind; [apply clean_quiet, quiet_look|]. intros f s2 E2. injection E2 as E2 <-. destruct f.
  - intros o s' H. injection H as <- <-. exists []. split; [reflexivity|]. left. split; [apply nosave_nil|]. intros _ _. exact E2.
  - assert (K : clean (set_exit_status 0 ;; run_functions rec cs)) by ce. exact (K s1).
Qed.
Lemma ce_fork c : clean (fork_child w c).
Proof. unfold fork_child. ce. Qed.
Lemma ce_launch id bg cs : forall i prev pip, clean (launch w id bg i cs prev pip).
Proof. induction cs as [|[p sc] cs IH]; intros i prev pip; cbn [launch]; ce; try apply IH; try apply ce_pipe; apply ce_fork. Qed.
Lemma ce_job bg pcs : clean (run_job w bg pcs).
Proof. unfold run_job. ce; apply ce_launch. Qed.
Lemma ce_pipeline p : clean (eval_pipeline w rec p).
Proof. unfold eval_pipeline. ce; first [apply ce_gather|apply ce_run_functions|apply ce_job]. Qed.
Lemma ce_and_or a : clean (eval_and_or w rec a).
Proof. induction a; cbn [eval_and_or]; ce; apply ce_pipeline. Qed.
Lemma ce_tree l : forall st, clean (parse_tree_from w rec st l).
Proof. induction l; intros st; cbn [parse_tree_from]; ce; [apply ce_and_or|apply IHl]. Qed.
End Rec.

Theorem evaluate_clean w n : forall l, clean (evaluate w n l).
Proof.
  induction n as [|n IH]; intros l; cbn [evaluate]; [apply clean_quiet, quiet_stop; discriminate|]. apply ce_tree. exact IH.
Qed.
