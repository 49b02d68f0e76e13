(** Where there is no handler, or in a child, signals make no difference to the
    evaluator: neither changes back while commands are run. *)
From Verif Require Import Base Ast Parser Context Alias Expand Jobs Shell Builtins Eval Main EvalFacts Async AsyncLaws.

Definition deaf (i : image) : Prop := handlers i = false \/ forked i = true.
(** [m1] and [m2] do the same from where nothing is heard, and nothing is heard
    afterwards. *)
Definition dim {A} (m1 m2 : M A) : Prop := forall s, deaf (im s) -> m2 s = m1 s /\ deaf (im (snd (m1 s))).

Lemma dim_keep {A} (m : M A) : (forall s, deaf (im s) -> deaf (im (snd (m s)))) -> dim m m.
Proof. intros H s D. split; [reflexivity|apply H, D]. Qed.
Lemma dim_ret {A} (a : A) : dim (ret a) (ret a).
Proof. apply dim_keep. intros s D. exact D. Qed.
Lemma dim_stop {A} (o : out A) : dim (stop o) (stop o).
Proof. apply dim_keep. intros s D. exact D. Qed.
Lemma dim_look {A} (f : image -> A) : dim (look f) (look f).
Proof. apply dim_keep. intros s D. exact D. Qed.
Lemma dim_change f : (forall i, deaf i -> deaf (f i)) -> dim (change f) (change f).
Proof. intros H. apply dim_keep. intros s D. apply H, D. Qed.
Lemma dim_try f : (forall i j, f i = Some j -> deaf i -> deaf j) -> dim (try_ f) (try_ f).
Proof. intros H. apply dim_keep. intros s D. unfold try_. destruct (f (im s)) as [j|] eqn:E; [exact (H _ _ E D)|exact D]. Qed.
Lemma dim_note e : dim (note e) (note e).
Proof. apply dim_keep. intros s D. exact D. Qed.
Lemma dim_ask {A} w (f : reports -> A) : dim (ask w f) (ask w f).
Proof. apply dim_keep. intros s D. exact D. Qed.
Lemma dim_unwrap {A} (o : option A) : dim (unwrap o) (unwrap o).
Proof. destruct o; [apply dim_ret|apply dim_stop]. Qed.
Lemma dim_bind {A B} (m1 m2 : M A) (k1 k2 : A -> M B) :
  dim m1 m2 -> (forall a, dim (k1 a) (k2 a)) -> dim (bind m1 k1) (bind m2 k2).
Proof.
  intros Hm Hk s D. unfold bind. destruct (Hm s D) as [E D1]. rewrite E. destruct (m1 s) as [o s1]. cbn [snd] in D1.
  destruct o; cbn [fst snd]; try (split; [reflexivity|exact D1]). apply Hk, D1.
Qed.
Lemma dim_seq {A B} (m1 m2 : M A) (k1 k2 : M B) : dim m1 m2 -> dim k1 k2 -> dim (seq m1 k1) (seq m2 k2).
Proof. intros H K. apply dim_bind; auto. Qed.
Lemma dim_catch {A} (m1 m2 : M A) : dim m1 m2 -> dim (catch m1) (catch m2).
Proof.
  intros Hm s D. unfold catch. destruct (Hm s D) as [E D1]. rewrite E. destruct (m1 s) as [o s1]. cbn [snd] in D1.
  destruct o; cbn [snd]; (split; [reflexivity|exact D1]).
Qed.
Lemma dim_wait w id : dim (wait_job w id) (wait_job w id).
Proof. apply dim_keep. intros s D. unfold wait_job. destruct (wait_for_job _ _ _ _); exact D. Qed.
Lemma dim_expand w sc : dim (expand_command w sc) (expand_command w sc).
Proof. apply dim_keep. intros s D. unfold expand_command. destruct (expand _ _ _ _ _) as [[sc' [|x l]]|]; exact D. Qed.
Lemma dim_pipe w : dim (make_pipe w) (make_pipe w).
Proof. unfold make_pipe. apply dim_bind; [apply dim_ask|]. intros [|]; [|apply dim_stop]. apply dim_keep. intros s D. exact D. Qed.
Lemma dim_open w p h : dim (sys_open w p h) (sys_open w p h).
Proof. unfold sys_open. apply dim_bind; [apply dim_ask|]. intros [|]; [|apply dim_ret]. apply dim_keep. intros s D. exact D. Qed.
Lemma dim_later new : dim (fun s => (OOk tt, Shell (im s) (new ++ trace s))) (fun s => (OOk tt, Shell (im s) (new ++ trace s))).
Proof. apply dim_keep. intros s D. exact D. Qed.
Lemma dim_close_ignored a : dim (sys_close_ignored a) (sys_close_ignored a).
Proof. apply dim_change. intros i D. destruct (fd_close a (fds i)); exact D. Qed.

Ltac dim_step :=
  match goal with
  | |- forall _, _ => intro
  | |- dim (ret _) _ => apply dim_ret
  | |- dim (stop _) _ => apply dim_stop
  | |- dim (look _) _ => apply dim_look
  | |- dim (change (with_handlers false)) _ => apply dim_change; intros; left; reflexivity
  | |- dim (change _) _ => apply dim_change; let D := fresh in intros ? D; exact D
  | |- dim (try_ _) _ => apply dim_try; let H := fresh in let D := fresh in intros ? ? H D;
      match type of H with match ?x with _ => _ end = _ => destruct x; [|discriminate]
      | (if ?x then _ else _) = _ => destruct x; [discriminate|] end; injection H as <-; exact D
  | |- dim (note _) _ => apply dim_note
  | |- dim (ask _ _) _ => apply dim_ask
  | |- dim (unwrap _) _ => apply dim_unwrap
  | |- dim (bind _ _) _ => apply dim_bind
  | |- dim (seq _ _) _ => apply dim_seq
  | |- dim (catch _) _ => apply dim_catch
  | |- dim (wait_job _ _) _ => apply dim_wait
  | |- dim (expand_command _ _) _ => apply dim_expand
  | |- dim (make_pipe _) _ => apply dim_pipe
  | |- dim (sys_open _ _ _) _ => apply dim_open
  | |- dim (sys_close_ignored _) _ => apply dim_close_ignored
  | |- dim (match ?x with _ => _ end) _ => destruct x
  | |- dim (if ?x then _ else _) _ => destruct x
  | |- dim (let '(_, _) := ?x in _) _ => destruct x
  | H : forall l, dim (?r1 l) (?r2 l) |- dim (?r1 _) (?r2 _) => apply H
  | H : dim ?a ?b |- dim ?a ?b => exact H
  end.
Ltac dims := repeat dim_step.

Section Dim.
Context (w : os) (r1 r2 : list and_or -> M Z).
Hypothesis Hrec : forall l, dim (r1 l) (r2 l).

Lemma dim_say_all ts : dim (say_all ts) (say_all ts).
Proof. induction ts; cbn [say_all]; unfold say; dims. Qed.
Lemma dim_complete c : dim (eval_complete r1 c) (eval_complete r2 c).
Proof. unfold eval_complete. dims. Qed.
Lemma dim_parse_text t : dim (parse_text t) (parse_text t).
Proof. unfold parse_text. dims. Qed.
Lemma dim_while {A} f (m1 m2 : M A) : dim m1 m2 -> dim (while_open f m1) (while_open f m2).
Proof. intros H. unfold while_open. dims. Qed.
Lemma dim_lookup c : dim (sh_lookup_command w c) (sh_lookup_command w c).
Proof. unfold sh_lookup_command. dims. Qed.
Lemma dim_execve a v e : dim (temp_execve w a v e) (temp_execve w a v e).
Proof. unfold temp_execve, fork_reset, interrupts_on. dims. apply dim_lookup. Qed.
Lemma dim_cd sc : dim (change_directory w sc) (change_directory w sc).
Proof. unfold change_directory, interrupts_off, interrupts_on, word_at. dims. Qed.
Lemma dim_fgbg sc : dim (fgbg w sc) (fgbg w sc).
Proof. unfold fgbg, fg_or_bg, interrupts_off, interrupts_on, word_at, fail. dims; apply dim_later. Qed.
Lemma dim_context_file f : dim (create_context_from_file w r1 f) (create_context_from_file w r2 f).
Proof.
  unfold create_context_from_file, on_cm. dims. apply dim_while. dims; first [apply dim_parse_text|apply dim_complete].
Qed.
Lemma dim_export_words ws : dim (export_words ws) (export_words ws).
Proof. induction ws; cbn [export_words]; unfold export_word, try_cm, set_env, on_cm; dims. Qed.
Lemma dim_export sc : dim (export_cmd w r1 sc) (export_cmd w r2 sc).
Proof.
  unfold export_cmd, print_env, export_context, on_cm, fail.
  dims; first [apply dim_say_all|apply dim_context_file|apply dim_export_words].
Qed.
Lemma dim_eval_cmd sc : dim (eval_cmd r1 sc) (eval_cmd r2 sc).
Proof. unfold eval_cmd, word_at, fail. dims; first [apply dim_parse_text|apply dim_complete]. Qed.
Lemma dim_readonly sc : dim (readonly_cmd sc) (readonly_cmd sc).
Proof.
  unfold readonly_cmd, readonly_print, print_vars, print_readonly_functions, try_cm, word_at, fail.
  dims; apply dim_say_all.
Qed.
Lemma dim_exec sc : dim (exec_cmd w sc) (exec_cmd w sc).
Proof. unfold exec_cmd, exec_opts1, exec_opts2, word_at, fail. cbv zeta. dims; apply dim_execve. Qed.
Lemma dim_source_args args : forall i, dim (source_args i args) (source_args i args).
Proof. induction args; intros i; cbn [source_args]; unfold try_cm; dims; apply IHargs. Qed.
Lemma dim_source sc : dim (source_cmd w r1 sc) (source_cmd w r2 sc).
Proof.
  unfold source_cmd, fail. dims; try apply dim_source_args; try apply dim_lookup.
  apply dim_while. dims; first [apply dim_parse_text|apply dim_complete].
Qed.
Lemma dim_builtin sc : dim (call_builtin w r1 sc) (call_builtin w r2 sc).
Proof.
  unfold call_builtin. cbv zeta.
  repeat match goal with |- dim (if ?b then _ else _) _ => destruct b end;
    first [apply dim_cd|apply dim_fgbg|apply dim_export|apply dim_eval_cmd|apply dim_readonly|apply dim_exec
          |apply dim_source|idtac];
    unfold quit, save_history, return_cmd, jobs_cmd, alias_cmd, unalias_cmd, unset_cmd, pwd, assignment_cmd, display_aliases,
      get_exit_code, set_exit_status, say, on_cm, try_cm, word_at, fail; dims; apply dim_say_all.
Qed.
Lemma dim_function sc : dim (eval_function r1 sc) (eval_function r2 sc).
Proof. unfold eval_function, try_cm, on_cm. dims. Qed.
Lemma dim_command c : dim (eval_command w r1 c) (eval_command w r2 c).
Proof. unfold eval_command, eval_simple_command, eval_builtin, on_cm. dims. apply dim_builtin. Qed.
Lemma dim_gather cs : dim (gather w r1 cs) (gather w r2 cs).
Proof. induction cs; cbn [gather]; dims. apply dim_command. Qed.
Lemma dim_run_functions cs : dim (run_functions r1 cs) (run_functions r2 cs).
Proof. induction cs; cbn [run_functions]; unfold set_exit_status; dims. apply dim_function. Qed.

Context (sg : point -> list event -> arrivals).
Lemma deaf_arrivals p s : deaf (im s) -> arriving sg p s = [].
Proof. unfold arriving. intros [->| ->]; [|destruct (handlers (im s))]; reflexivity. Qed.
Lemma deaf_taken p f s : deaf (im s) -> taken w sg p f s = (OOk tt, s).
Proof. intros D. unfold taken. rewrite (deaf_arrivals p s D). destruct (masked _); reflexivity. Qed.
Lemma dim_taken {A} p f (m k : M A) : dim m k -> dim m (taken w sg p f ;; k).
Proof. intros H s D. unfold seq, bind. rewrite (deaf_taken p f s D). apply H, D. Qed.
Lemma dim_taken_end {A} p f (m k : M A) : dim m k -> dim m (x <- k ;; taken w sg p f ;; ret x).
Proof.
  intros H s D. unfold seq, bind. destruct (H s D) as [-> D1]. destruct (m s) as [o s1]. cbn [snd] in *.
  destruct o; try (split; [reflexivity|exact D1]). rewrite (deaf_taken p f s1 D1). split; [reflexivity|exact D1].
Qed.
Lemma dim_delete id : dim (sh_delete_job id) (sh_delete_async w sg id).
Proof.
  intros s D. unfold sh_delete_async, seq, bind, sh_delete_job, change. cbn [snd im].
  rewrite deaf_taken by exact D. split; [reflexivity|exact D].
Qed.
Lemma dim_wait_async id : dim (wait_job w id) (wait_job_async w sg id).
Proof.
  intros s D. split; [|apply (dim_wait w id s D)]. unfold wait_job, wait_job_async. rewrite (deaf_arrivals PWait s D), wait_quiet. reflexivity.
Qed.
Lemma dim_launch id bg cs : forall i prev pip, dim (launch w id bg i cs prev pip) (launch_async w sg id bg i cs prev pip).
Proof.
  induction cs as [|[p sc] cs IH]; intros i prev pip; cbn [launch launch_async]; [dims|].
  apply dim_bind; [dims|]. intros pip'. apply dim_bind; [unfold fork_child, on_jobs; dims|]. intros r.
  apply dim_taken. apply dim_seq; [unfold on_jobs; dims|]. apply dim_taken.
  unfold sys_close. dims; apply IH.
Qed.
Lemma dim_job bg cs : dim (run_job w bg cs) (run_job_async w sg bg cs).
Proof.
  unfold run_job, run_job_async, on_jobs, interrupts_on, get_exit_code, say, set_exit_status.
  apply dim_bind; [dims|]. intros id. apply dim_seq; [dims|]. apply dim_seq; [apply dim_launch|]. apply dim_seq; [|dims].
  destruct cs; [apply dim_delete|]. destruct bg; [dims|]. apply dim_bind; [apply dim_wait_async|]. intros st.
  apply dim_seq; [apply dim_delete|dims].
Qed.
Lemma dim_expand_async sc : dim (expand_command w sc) (expand_async w sg sc).
Proof.
  intros s D. split; [|apply (dim_expand w sc s D)]. unfold expand_async. rewrite (deaf_arrivals PSubst s D). cbn [cut_short existsb].
  destruct (expand _ _ _ _ _) as [[sc' [|x l]]|]; reflexivity.
Qed.
Lemma dim_fgbg_async sc : dim (fgbg w sc) (fgbg_async w sg sc).
Proof.
  unfold fgbg, fgbg_async, fg_or_bg, fg_or_bg_async, interrupts_off, interrupts_on, word_at, fail.
  repeat first [apply dim_wait_async|apply dim_later|dim_step].
Qed.
Lemma dim_builtin_async sc : dim (eval_builtin w r1 sc) (eval_builtin_async w sg r2 sc).
Proof.
  unfold eval_builtin, eval_builtin_async. apply dim_bind; [apply dim_expand_async|]. intros sc'.
  destruct (_ || _)%bool eqn:E; [rewrite (builtin_fgbg w r1 sc' E); apply dim_fgbg_async|apply dim_builtin].
Qed.
Lemma dim_gather_async cs : dim (gather w r1 cs) (gather_async w sg r2 cs).
Proof.
  induction cs as [|c cs IH]; cbn [gather gather_async]; [dims|]. apply dim_bind; [|dims].
  destruct c as [sc| |]; cbn [eval_command eval_command_async]; unfold on_cm; dims. unfold eval_simple_command, eval_simple_command_async.
  destruct (check_if_builtin _); [apply dim_seq; [apply dim_builtin_async|dims]|].
  apply dim_bind; [apply dim_expand_async|]. dims.
Qed.
Lemma dim_pipeline p : dim (eval_pipeline w r1 p) (eval_pipeline_async w sg r2 p).
Proof.
  destruct p as [b cs bg]. unfold eval_pipeline, eval_pipeline_async, signals.
  apply dim_taken. apply dim_seq; [unfold interrupts_off; dims|]. apply dim_bind; [apply dim_gather_async|]. intros pcs.
  apply dim_taken_end. destruct pcs; [dims|]. apply dim_bind; [destruct bg; [dims|apply dim_run_functions]|]. intros pcs'.
  apply dim_taken. apply dim_job.
Qed.
Lemma dim_and_or a : dim (eval_and_or w r1 a) (eval_and_or_async w sg r2 a).
Proof. induction a; cbn [eval_and_or eval_and_or_async]; dims; apply dim_pipeline. Qed.
Lemma dim_tree l : forall st, dim (parse_tree_from w r1 st l) (parse_tree_async w sg r2 st l).
Proof. induction l; intros st; cbn [parse_tree_from parse_tree_async]; dims; [apply dim_and_or|apply IHl]. Qed.
End Dim.

Theorem evaluate_dim w sg n : forall l, dim (evaluate w n l) (evaluate_async w sg n l).
Proof.
  induction n as [|n IH]; intros l; cbn [evaluate evaluate_async]; [apply dim_stop|]. apply dim_tree. exact IH.
Qed.
