(** Properties C114-C116: signals in the middle of commands. *)
From Verif Require Import Base BaseFacts Lexer LexerSpec Ast Parser GrammarSpec Context Alias Expand ExpandSpec Jobs JobsSpec JobsFacts JobsLaws.
From Verif Require Import Shell Builtins Eval Main Async EvalSpec EvalFacts EvalLaws EvalKeeps RunSpec RunLaws PipeSpec PipeLaws ChildLaws PipeRun.
From Verif Require Import EvalFds MainKeeps AsyncLaws AsyncRun AsyncPipe AsyncDeaf.
From Verif Require MainSpec MainLaws ContextSpec ContextFacts EvalStack EvalHistory EvalJobs PropertiesEval PropertiesMain PropertiesSession PropertiesStatus PropertiesWait.
Import PropertiesEval PropertiesMain PropertiesSession PropertiesStatus PropertiesWait.
Local Open Scope Z_scope.

(** ** C114 *)

Section Session.
Context (all : bool) (R : shell -> shell -> Prop) (P : preorder R) (w : os) (sg : point -> list event -> arrivals) (n : nat).
Context (Hsync : forall l, keeps all R (evaluate w n l)) (He : forall l, keeps all R (evaluate_async w sg n l)).

Lemma line_async t : keeps all R (run_line_async w sg n t).
Proof.
  unfold run_line_async. destruct t; [apply (keeps_ret _ _ P)|]. destruct (parse _) as [cc|]; [|apply (keeps_ret _ _ P)].
  apply (keeps_seq _ _ P); [|apply (keeps_ret _ _ P)]. apply keeps_catch. unfold eval_async, eval_complete.
  destruct cc; [apply He|apply (keeps_ret _ _ P)].
Qed.
Lemma loop_async : keeps all R save_history -> keeps all R (child_signal_async w sg) -> forall ins, keeps all R (interactive_loop_async w sg n ins).
Proof.
  intros Hv Hc. induction ins as [|i ins IH]; cbn [interactive_loop_async]; keep P; try apply line_async; auto.
Qed.
Lemma ks_main_async k args ins :
  (forall A p (bad : M A) m, keeps all R bad -> keeps all R m ->
    keeps all R (f <- sys_open w p for_reading ;; match f with None => bad | Some f => while_open f m end)) ->
  (forall s t f, parse_args args (cm (im s)) = Some (t, f) -> R s (Shell (with_cm (f_cm f) (im s)) (trace s))) ->
  (forall t, keeps all R (say t)) -> keeps all R (on_cm push_context_new) ->
  (forall p, keeps all R (try_cm (add_var_pos (lit "0=" ++ p) 1))) ->
  keeps all R (change at_prompt) -> keeps all R save_history -> keeps all R (child_signal_async w sg) ->
  (forall p, keeps all R (sys_open w p for_reading)) ->
  keeps all R (main_async w sg n k args ins).
Proof.
  intros Hopen Hf Hs Hp Ha Hh Hv Hc Ho. unfold main_async. intros s o s' H Hall.
  rewrite (bind_ok (look cm) _ s (cm (im s)) s eq_refl) in H.
  destruct (parse_args args (cm (im s))) as [[t f]|] eqn:E.
  2:{ injection H as <- <-. apply (pre_refl _ P). }
  rewrite (bind_ok (unwrap (Some (t, f))) _ s (t, f) s eq_refl) in H. cbn [fst snd] in H. cbv zeta in H.
  rewrite (seq_ok (on_cm (fun _ => f_cm f)) _ s tt (Shell (with_cm (f_cm f) (im s)) (trace s)) eq_refl) in H.
  eapply (pre_trans _ P); [apply (Hf s t f E)|]. revert H Hall. generalize (Shell (with_cm (f_cm f) (im s)) (trace s)) as s0.
  intros s0 H Hall. revert H Hall.
  assert (K : keeps all R (say_all (shown f) ;; set_up w n (script_name f) ;;
    match t with
    | Some t => read_from_args w n t
    | None => if interactive f then change at_prompt ;; interactive_loop_async w sg n ins else script_loop w n k (script_name f)
    end)).
  { apply (keeps_seq _ _ P).
    { generalize (shown f). clear -Hs P. induction l as [|x l IH]; cbn [say_all]; keep P. }
    apply (keeps_seq _ _ P); [apply ks_setup; auto|]. destruct t as [t|]; [apply ks_args; assumption|].
    destruct (interactive f); [apply (keeps_seq _ _ P); [exact Hh|apply loop_async; assumption]|].
    unfold script_loop. keep P; first [apply Ho|apply ks_lines; assumption]. }
  apply K.
Qed.
End Session.

Lemma main_async_history w sg n k args ins : keeps true EvalHistory.history (main_async w sg n k args ins).
Proof.
  apply (ks_main_async _ _ EvalHistory.history_pre).
  - apply EvalHistory.evaluate_history.
  - apply evaluate_async_history.
  - intros A p bad m Hb Hm. apply (keeps_bind _ _ EvalHistory.history_pre); [apply EvalHistory.kh_open|].
    intros [f|]; [apply EvalHistory.kh_while; exact Hm|exact Hb].
  - intros s t f E _. exact (front_performs _ _ _ _ E).
  - intros t. apply keeps_change. intros s. apply EvalHistory.history_same. reflexivity.
  - apply keeps_change. intros s. apply EvalHistory.history_one with ContextSpec.OPush. reflexivity.
  - intros p. apply (EvalStack.keeps_try_cm _ _ _ EvalHistory.history_pre). intros s m E.
    apply EvalHistory.history_one with (ContextSpec.OAssignAt 1 (lit "0=" ++ p)). intros _. exact E.
  - apply keeps_change. intros s. apply EvalHistory.history_same. reflexivity.
  - apply keeps_raw. intros s. apply EvalHistory.history_same. reflexivity.
  - apply keeps_raw. intros s. apply EvalHistory.history_same. unfold child_signal_async.
    destruct (_ || _)%bool; [reflexivity|]. destruct (deliver _ _ _ _); reflexivity.
  - intros p. apply EvalHistory.kh_open.
Qed.
Lemma main_async_worked w sg n k args ins : keeps true EvalJobs.worked (main_async w sg n k args ins).
Proof.
  apply (ks_main_async _ _ EvalJobs.worked_pre).
  - apply EvalJobs.evaluate_worked.
  - apply evaluate_async_worked.
  - intros A p bad m Hb Hm. apply (keeps_bind _ _ EvalJobs.worked_pre); [apply EvalJobs.kw_open|].
    intros [f|]; [apply EvalJobs.kw_while; exact Hm|exact Hb].
  - intros s t f E. apply EvalJobs.worked_same. reflexivity.
  - intros t. apply keeps_change. intros s. apply EvalJobs.worked_one with (o := JobsSpec.OPrint t). reflexivity.
  - apply keeps_change. intros s. apply EvalJobs.worked_same. reflexivity.
  - intros p. apply (EvalStack.keeps_try_cm _ _ _ EvalJobs.worked_pre). intros s m E. apply EvalJobs.worked_same. reflexivity.
  - apply keeps_change. intros s. apply EvalJobs.worked_same. reflexivity.
  - apply keeps_raw. intros s. apply EvalJobs.worked_same. reflexivity.
  - apply keeps_raw. intros s. unfold child_signal_async.
    destruct (_ || _)%bool; [apply EvalJobs.worked_same; reflexivity|].
    destruct (deliver _ _ _ _) as [x j r| |] eqn:E; [|apply EvalJobs.worked_same; reflexivity|apply EvalJobs.worked_same; reflexivity].
    apply deliver_went in E. destruct E as (ops & _ & E). exists ops. exact E.
  - intros p. apply EvalJobs.kw_open.
Qed.
Lemma main_async_sound w sg n k args ins : keeps true soundly (main_async w sg n k args ins).
Proof.
  assert (Ho : forall A p (bad m : M A), keeps true soundly bad -> keeps true soundly m ->
    keeps true soundly (f <- sys_open w p for_reading ;; match f with None => bad | Some f => while_open f m end)).
  { intros A p bad m Hb Hm. apply (keeps_bind _ _ soundly_pre); [apply soundly_open|]. intros [f|]; [|exact Hb].
    unfold while_open. repeat keep_step soundly_pre. apply soundly_close_ignored. }
  apply (ks_main_async _ _ soundly_pre).
  - intros l s o s' H _. exact (evaluate_sound w n l s o s' H).
  - apply evaluate_async_sound.
  - exact Ho.
  - intros s t f E. apply soundly_same; reflexivity.
  - intros t. apply keeps_change. intros s. apply soundly_same; reflexivity.
  - apply keeps_change. intros s. apply soundly_same; reflexivity.
  - intros p. apply (EvalStack.keeps_try_cm _ _ _ soundly_pre). intros s m E. apply soundly_same; reflexivity.
  - apply keeps_change. intros s. apply soundly_same; reflexivity.
  - apply keeps_raw. intros s. apply soundly_same; reflexivity.
  - apply keeps_raw. intros s. apply soundly_same; unfold child_signal_async;
      (destruct (_ || _)%bool; [reflexivity|]; destruct (deliver _ _ _ _); reflexivity).
  - intros p. apply soundly_open.
Qed.

(** Whenever signals arrive, whatever is typed and whatever the system answers:
    variables, functions and scopes are the result of the operations of C24-C33,
    and the jobs of those of C34-C43. *)
Theorem C114_reachable : forall w sg n k args ins root cwd ppid pid env fds o s',
  main_async w sg n k args ins (Shell (fresh_image root cwd ppid pid env fds) []) = (o, s') ->
  (exists ops, ContextSpec.performs ops (cm_default root cwd ppid pid env) = Some (cm (im s'))) /\
  (exists ops, run ops jst0 = Some (js (im s'))).
Proof.
  intros w sg n k args ins root cwd ppid pid env fds o s' H. split.
  - apply (main_async_history w sg n k args ins _ o s' H (or_introl eq_refl)). apply wf_default.
  - apply (main_async_worked w sg n k args ins _ o s' H (or_introl eq_refl)). apply JobsFacts.basic_new.
Qed.
(** So the tables are consistent at every moment: there is a scope, the scopes
    are different, jobs have the numbers they are filed under, positive and below
    the next one, no descriptor is negative or open twice, and the pipes are
    different ones. *)
Theorem C114_invariants : forall w sg n k args ins root cwd ppid pid env fds o s',
  table fds -> no_future_pipe fds 0 ->
  main_async w sg n k args ins (Shell (fresh_image root cwd ppid pid env fds) []) = (o, s') ->
  stack (cm (im s')) <> [] /\ NoDup (stack (cm (im s'))) /\
  (forall id j, nget id (job_table (jobs (js (im s')))) = Some j -> job_id j = id /\ 1 <= id < next_job_id (jobs (js (im s')))) /\
  table (Shell.fds (im s')) /\ no_future_pipe (Shell.fds (im s')) (next_pipe (im s')).
Proof.
  intros w sg n k args ins root cwd ppid pid env fds o s' Ht Hn H.
  destruct (C114_reachable _ _ _ _ _ _ _ _ _ _ _ _ _ _ H) as [[ops Ho] [jops Hj]].
  apply ContextFacts.performs_wf in Ho; [|apply wf_default]. split; [apply Ho|]. split; [apply Ho|]. split.
  - pose proof (JobsLaws.reachable_basic _ _ Hj) as B. intros id j E. split; [exact (JobsFacts.b_ids _ B id j E)|].
    apply (JobsFacts.b_next _ B id). exists j. exact E.
  - apply (main_async_sound w sg n k args ins _ o s' H (or_introl eq_refl)). split; assumption.
Qed.

(** If no signal arrives, this is the shell of the other properties. *)
Definition agrees {A} (m1 m2 : M A) : Prop := forall s, fst (m1 s) <> OFuel -> m2 s = m1 s.
Lemma agrees_refl {A} (m : M A) : agrees m m.
Proof. intros s _. reflexivity. Qed.
Lemma agrees_bind {A B} (m1 m2 : M A) (k1 k2 : A -> M B) : agrees m1 m2 -> (forall a, agrees (k1 a) (k2 a)) ->
  agrees (bind m1 k1) (bind m2 k2).
Proof.
  intros Hm Hk s. unfold bind. intros Hf. destruct (m1 s) as [o s1] eqn:E.
  assert (Hm2 : m2 s = (o, s1)).
  { rewrite <- E. apply Hm. rewrite E. destruct o; cbn in *; congruence. }
  rewrite Hm2. destruct o; try reflexivity. apply Hk, Hf.
Qed.
Lemma agrees_seq {A B} (m1 m2 : M A) (k1 k2 : M B) : agrees m1 m2 -> agrees k1 k2 -> agrees (seq m1 k1) (seq m2 k2).
Proof. intros. apply agrees_bind; auto. Qed.
Lemma agrees_catch {A} (m1 m2 : M A) : agrees m1 m2 -> agrees (catch m1) (catch m2).
Proof.
  intros Hm s. unfold catch. intros Hf. destruct (m1 s) as [o s1] eqn:E.
  assert (Hm2 : m2 s = (o, s1)).
  { rewrite <- E. apply Hm. rewrite E. destruct o; cbn in *; congruence. }
  rewrite Hm2. reflexivity.
Qed.
Section Agree.
Context (w : os) (sg : point -> list event -> arrivals).
Context (Hq : forall p tr, p <> PSubst -> sg p tr = []) (Hu : undisturbed sg PSubst).
Lemma agrees_evaluate n l : agrees (evaluate w n l) (evaluate_async w sg n l).
Proof.
  intros s Hf. symmetry. destruct (evaluate_quiet w sg Hq Hu n l s) as [_ H]. apply H; [intros u _ _; reflexivity|exact Hf].
Qed.
Lemma agrees_main n k args ins : agrees (main w n k args ins) (main_async w sg n k args ins).
Proof.
  assert (Hl : forall t, agrees (run_line w n t) (run_line_async w sg n t)).
  { intros t. unfold run_line, run_line_async. destruct t as [|ch t]; [apply agrees_refl|].
    destruct (parse (ch :: t)) as [cc|]; [|apply agrees_refl]. apply agrees_seq; [|apply agrees_refl]. apply agrees_catch.
    unfold eval, eval_async, eval_complete. destruct cc; [apply agrees_evaluate|apply agrees_refl]. }
  assert (Hi : agrees (interactive_loop w n ins) (interactive_loop_async w sg n ins)).
  { induction ins as [|i ins IH]; cbn [interactive_loop interactive_loop_async];
      (apply agrees_bind; [apply agrees_refl|intros m]); (apply agrees_seq; [apply agrees_refl|]); [apply agrees_refl|].
    destruct i; try exact IH; try apply agrees_refl; (apply agrees_seq; [|exact IH]); [apply Hl|].
    intros s _. unfold child_signal, child_signal_async. rewrite (Hq PPrompt) by discriminate. destruct (masked (js (im s))) eqn:Em; [reflexivity|].
    destruct (_ || _)%bool; [reflexivity|]. cbn [deliver]. rewrite Em. unfold handled. destruct (sig_chld _ _ _) as [[] j r| |]; try reflexivity.
    cbn [interrupted inside]. destruct (deletes _ _ _); reflexivity. }
  unfold main, main_async.
  apply agrees_bind; [apply agrees_refl|]. intros m. apply agrees_bind; [apply agrees_refl|]. intros [t f]. cbn [fst snd]. cbv zeta.
  apply agrees_seq; [apply agrees_refl|]. apply agrees_seq; [apply agrees_refl|]. apply agrees_seq; [apply agrees_refl|].
  destruct t as [t|]; [apply agrees_refl|]. destruct (interactive f); [|apply agrees_refl].
  apply agrees_seq; [apply agrees_refl|exact Hi].
Qed.
End Agree.
Theorem C114_no_signals : forall w n k args ins s, fst (main w n k args ins s) <> OFuel ->
  main_async w no_signals n k args ins s = main w n k args ins s.
Proof.
  intros w n k args ins. apply (agrees_main w no_signals); [reflexivity|]. intros tr. constructor.
Qed.
(** Where no handler is installed (startup files, scripts, [-c], and a session after
    an [exec] that failed), and in a child, ended children are not noticed, whatever
    the schedule; and this does not change while commands are run. *)
Theorem C114_unheard : forall w sg n s, handlers (im s) = false \/ forked (im s) = true ->
  (forall l, evaluate_async w sg n l s = evaluate w n l s /\
     (handlers (im (snd (evaluate w n l s))) = false \/ forked (im (snd (evaluate w n l s))) = true)) /\
  (forall ins, interactive_loop_async w sg n ins s = interactive_loop w n ins s).
Proof.
  intros w sg n s D. split.
  - intros l. exact (evaluate_dim w sg n l s D).
  - intros ins. enough (H : dim (interactive_loop w n ins) (interactive_loop_async w sg n ins)) by apply (H s D). clear s D.
    induction ins as [|i ins IH]; cbn [interactive_loop interactive_loop_async];
      (apply dim_bind; [apply dim_look|intros m]); (apply dim_seq; [apply dim_unwrap|]); [apply dim_stop|].
    assert (Hs : dim save_history save_history) by (unfold save_history; dims).
    destruct i as [t| | | |]; try exact IH; try exact Hs; (apply dim_seq; [|exact IH]).
    + unfold run_line, run_line_async. destruct t as [|ch t]; [apply dim_ret|]. destruct (parse (ch :: t)) as [cc|]; [|apply dim_ret].
      apply dim_seq; [|apply dim_ret]. apply dim_catch. unfold eval, eval_async. apply dim_complete. apply evaluate_dim.
    + intros s D. unfold child_signal, child_signal_async.
      assert (E : (masked (js (im s)) || negb (handlers (im s)) || forked (im s) = true)%bool).
      { destruct D as [->| ->]; rewrite ?orb_true_r; reflexivity. }
      rewrite E. split; [reflexivity|exact D].
Qed.
(** The example: the signal of a background job is taken before the next command
    is looked at; the job is gone and the session goes on. *)
Definition async_os : os := fun t =>
  let r := ex_reports 0 in
  Reports (r_isfile r) (fun _ _ => false) (r_read r) (r_chdir r) (r_cwd r) (r_kill r) (r_pipe r) (Some 100%positive) (r_exec r) (r_getpid r)
    (match t with
     | EFork _ c _ :: _ => [AStatus (Exited 100 (if str_eqb (sc_name (c_cmd c)) (lit "seven") then 7 else 0)); AFail; AFail; AFail; AFail]
     | _ => [AFail; AFail; AFail]
     end) (r_subst r).
Definition at_point (p : point) (ks : arrivals) : point -> list event -> arrivals := fun p' _ =>
  match p, p' with
  | PStart, PStart | PSubst, PSubst | PFunctions, PFunctions | PForked, PForked | PEntered, PEntered | PWait, PWait | PDelete, PDelete | PEnd, PEnd | PPrompt, PPrompt => ks
  | _, _ => []
  end.
Example C114_example :
  table ex_fds /\ no_future_pipe ex_fds 0 /\
  (exists s', main_async async_os (at_point PStart [Sig 0]) 5 0 (words ["rsh"]%string) [TLine (lit "a &"); TLine (lit "B=2"); TClosed] (Shell ex_fresh []) = (OOk tt, s') /\
    job_table (jobs (js (im s'))) = [] /\ expand_var (cm (im s')) (lit "B") = Some (lit "2")) /\
  (exists s', main_async async_os no_signals 5 0 (words ["rsh"]%string) [TLine (lit "a &"); TLine (lit "B=2"); TClosed] (Shell ex_fresh []) = (OOk tt, s') /\
    map fst (job_table (jobs (js (im s')))) = [1]).
Proof.
  split; [|split].
  - split; [repeat constructor|]. intros fd d H. unfold ex_fds in H. cbn [nget] in H.
    repeat match type of H with context [Z.eqb fd ?k] => destruct (Z.eqb_spec fd k); [lia|] end. discriminate.
  - intros fd d k H. unfold ex_fds in H. cbn [nget] in H.
    repeat match type of H with context [Z.eqb fd ?k] => destruct (Z.eqb_spec fd k); [injection H as <-; cbn; intros [E|E]; discriminate|] end. discriminate.
  - split; eexists; (split; [vm_compute; reflexivity|]); [split|]; vm_compute; reflexivity.
Qed.

(** A process as it starts has no handlers: whenever signals arrive, the startup
    files are read as if none did, and so are [-c] and scripts run; only a
    prompt makes a difference. *)
Lemma dim_eval w sg n c : dim (eval w n c) (eval_async w sg n c).
Proof. unfold eval, eval_async. apply dim_complete. apply evaluate_dim. Qed.
Lemma dim_startup w sg n file : dim (read_startup w n file) (read_startup_async w sg n file).
Proof.
  unfold read_startup, read_startup_async. apply dim_bind; [apply dim_open|]. intros [f|]; [|apply dim_ret].
  apply dim_while. apply dim_bind; [apply dim_ask|]. intros t. destruct (parse _); [|apply dim_ret].
  apply dim_bind; [apply dim_catch, dim_eval|]. intros [|]; [apply dim_ret|apply dim_stop].
Qed.
Lemma dim_set_up w sg n script : dim (set_up w n script) (set_up_async w sg n script).
Proof.
  unfold set_up, set_up_async. unfold on_cm, try_cm. dims; apply dim_startup.
Qed.
Lemma dim_script_lines w sg n k : forall ls, dim (script_lines w n k ls) (script_lines_async w sg n k ls).
Proof.
  induction k as [|k IH]; intros ls; cbn [script_lines script_lines_async]; [apply dim_stop|].
  apply dim_bind; [apply dim_unwrap|]. intros c. apply dim_seq; [apply dim_catch, dim_eval|apply IH].
Qed.
Lemma seq_equals {A B} (m1 m2 : M A) (k1 k2 : M B) s : m2 s = m1 s ->
  (forall a s', m1 s = (OOk a, s') -> k2 s' = k1 s') -> (m2 ;; k2) s = (m1 ;; k1) s.
Proof. intros E H. unfold seq, bind. rewrite E. destruct (m1 s) as [[]  s'] eqn:X; try reflexivity. exact (H _ _ eq_refl). Qed.
Theorem C114_everywhere : forall w sg n k args ins root cwd ppid pid env fds,
  let s := Shell (fresh_image root cwd ppid pid env fds) [] in
  main_everywhere w sg n k args ins s = main_async w sg n k args ins s /\
  (forall r, MainSpec.asks args r -> r <> MainSpec.Prompt -> main_everywhere w sg n k args ins s = main w n k args ins s).
Proof.
  intros w sg n k args ins root cwd ppid pid env fds s.
  assert (A : main_everywhere w sg n k args ins s = main_async w sg n k args ins s).
  { unfold main_everywhere, main_async.
    rewrite !(bind_ok (look cm) _ s (cm (im s)) s eq_refl).
    destruct (parse_args args (cm (im s))) as [[t f]|]; [|reflexivity].
    rewrite !(bind_ok (unwrap (Some (t, f))) _ s (t, f) s eq_refl). cbn [fst snd]. cbv zeta.
    set (s0 := Shell (with_cm (f_cm f) (im s)) (trace s)).
    rewrite !(seq_ok (on_cm (fun _ => f_cm f)) _ s tt s0 eq_refl).
    destruct (MainLaws.say_all_ok (shown f) s0) as (s2 & E2 & Ht2 & Hi2 & Hj2 & Hm2). rewrite !(seq_ok _ _ s0 tt s2 E2).
    assert (D : deaf (im s2)) by (rewrite Hi2; left; reflexivity).
    destruct (dim_set_up w sg n (script_name f) s2 D) as [E D'].
    apply (seq_equals _ _ _ _ s2 E). intros x0 s3 E3. rewrite E3 in D'. cbn [snd] in D'.
    destruct t as [t|].
    - enough (H : dim (read_from_args w n t) (read_from_args_async w sg n t)) by apply (H s3 D').
      unfold read_from_args, read_from_args_async. apply dim_bind; [apply dim_unwrap|]. intros c.
      apply dim_seq; [apply dim_catch, dim_eval|apply dim_ret].
    - destruct (interactive f); [reflexivity|].
      enough (H : dim (script_loop w n k (script_name f)) (script_loop_async w sg n k (script_name f))) by apply (H s3 D').
      unfold script_loop, script_loop_async. apply dim_bind; [apply dim_open|]. intros x. apply dim_bind; [apply dim_unwrap|]. intros _.
      apply dim_bind; [apply dim_ask|]. intros y. apply dim_bind; [apply dim_unwrap|]. intros z. apply dim_script_lines. }
  split; [exact A|]. intros r Hr Hp. rewrite A.
  unfold main_async, main.
  rewrite !(bind_ok (look cm) _ s (cm (im s)) s eq_refl).
  pose proof (MainLaws.parse_args_asks args r (cm (im s)) Hr) as Ha.
  destruct r as [|t|file as_]; [congruence| |].
  - destruct Ha as [o ->]. reflexivity.
  - rewrite Ha. cbn [MainLaws.wanted_front]. destruct (MainLaws.store 1 as_ (cm (im s))); reflexivity.
Qed.
Example C114_everywhere_example :
  MainSpec.asks (words ["rsh"; "-c"; "a & ; B=2"]%string) (MainSpec.Commands (lit "a & ; B=2")) /\
  exists s', main_everywhere async_os (at_point PStart [Sig 0]) 5 0 (words ["rsh"; "-c"; "a & ; B=2"]%string) [] (Shell ex_fresh []) = (OOk tt, s') /\
    map fst (job_table (jobs (js (im s')))) = [1].
Proof.
  split.
  - apply (MainSpec.asks_commands (lit "rsh") [] (lit "-c") (words ["a & ; B=2"]%string)); try discriminate.
    + intros (t & E & _). discriminate.
    + constructor.
    + eexists. split; [reflexivity|]. cbn. auto.
  - eexists. split; vm_compute; reflexivity.
Qed.

(** After an [exec] that failed the same schedule changes nothing, and the job stays. *)
Definition empty_os : os := fun t =>
  let r := async_os t in
  Reports (fun _ => false) (r_open r) (r_read r) (r_chdir r) (r_cwd r) (r_kill r) (r_pipe r) (r_fork r) (r_exec r) (r_getpid r) (r_waits r) (r_subst r).
Example C114_unheard_example :
  let ins := [TLine (lit "a &"); TLine (lit "B=2"); TClosed] in
  exists s, interactive_loop empty_os 5 [TLine (lit "exec nothere")] (Shell (at_prompt (im (snd (set_up empty_os 5 (lit "rsh") (Shell ex_fresh []))))) []) = (OBlock, s) /\
    handlers (im s) = false /\ forked (im s) = false /\
    exists s', interactive_loop_async empty_os (at_point PStart [Sig 0; Int [0; 1]%nat]) 5 ins s = (OOk tt, s') /\
      map fst (job_table (jobs (js (im s')))) = [1] /\ expand_var (cm (im s')) (lit "B") = Some (lit "2").
Proof.
  eexists. split; [vm_compute; reflexivity|]. split; [reflexivity|]. split; [reflexivity|].
  eexists. split; [vm_compute; reflexivity|]. split; vm_compute; reflexivity.
Qed.

(** ** C115 *)

(** A line that is a single program, while the other jobs are finished or
    stopped: whenever signals arrive, everything is as if none did. *)
Theorem C115_same_partial : forall w sg d b sc sc' s v q n e rest,
  one_child w sg q n e rest -> at_rest_now (trace s) ->
  wf_pipeline (Pipeline b [CSimple sc] false) -> program (im s) sc sc' -> table (fds (im s)) ->
  basic (jobs (js (im s))) -> (forall k j, nget k (job_table (jobs (js (im s)))) = Some j -> at_rest (Zpos q) j) ->
  expand_var (cm (im s)) (lit "PS4") = Some v ->
  exists c s0 s', exec_text w (S d) (r_pipeline (Pipeline b [CSimple sc] false)) s = (OOk c, s0) /\
    exec_text_async w sg (S d) (r_pipeline (Pipeline b [CSimple sc] false)) s = (OOk c, s') /\ alike s0 s'.
Proof. apply single_async. Qed.
(** In particular its exit status is the one the system reported. *)
Theorem C115_status_partial : forall w sg d b sc sc' s v q n e rest,
  one_child w sg q n e rest -> at_rest_now (trace s) ->
  wf_pipeline (Pipeline b [CSimple sc] false) -> program (im s) sc sc' -> table (fds (im s)) ->
  basic (jobs (js (im s))) -> (forall k j, nget k (job_table (jobs (js (im s)))) = Some j -> at_rest (Zpos q) j) ->
  expand_var (cm (im s)) (lit "PS4") = Some v ->
  exists s', exec_text_async w sg (S d) (r_pipeline (Pipeline b [CSimple sc] false)) s = (OOk (status_after e (exit_status (im s))), s') /\
    exit_status (im s') = status_after e (exit_status (im s)) /\ masked (js (im s')) = false /\
    (forall k, k <> next_job_id (jobs (js (im s))) ->
       nget k (job_table (jobs (js (im s')))) = nget k (job_table (jobs (js (im s))))) /\
    match e with
    | Stopped _ _ => exists j, nget (next_job_id (jobs (js (im s)))) (job_table (jobs (js (im s')))) = Some j /\
        state j = SStopped /\ map p_pid (processes j) = [Zpos q] /\ map p_argv (processes j) = [sc_name sc' :: words_in sc']
    | _ => nget (next_job_id (jobs (js (im s)))) (job_table (jobs (js (im s')))) = None
    end.
Proof.
  intros w sg d b sc sc' s v q n e rest O Hr Hw Hp Ht B Hfin Hv.
  destruct (C115_same_partial w sg d b sc sc' s v q n e rest O Hr Hw Hp Ht B Hfin Hv) as (c & s0 & s' & E1 & E2 & [A (J & M & Pr)]).
  destruct rest as [|a rest]; [pose proof (oc_enough _ _ _ _ _ _ O []) as L; cbn in L; lia|].
  pose proof (oc_rest _ _ _ _ _ _ O) as Hs. inversion Hs as [|x y Ha Hs']; subst x y.
  destruct (single_program w d b sc sc' s v q n e 0 a rest Hw Hp Ht B Hfin Hv (oc_fork _ _ _ _ _ _ O _)
    (fun i c => oc_waits _ _ _ _ _ _ O i c (trace s)) (oc_event _ _ _ _ _ _ O) Ha) as (s1 & F1 & F2 & F3 & F4 & F5).
  rewrite E1 in F1. injection F1 as -> ->. exists s'. split; [exact E2|]. rewrite M, J.
  assert (Ex : exit_status (im s') = exit_status (im s1)) by (rewrite A; reflexivity).
  rewrite Ex. auto.
Qed.

(** The example: signals arrive at every moment of [a x], which exits with 7. *)
Definition seven_os : os := fun t =>
  let r := ex_reports 0 in
  Reports (r_isfile r) (fun _ _ => false) (r_read r) (r_chdir r) (r_cwd r) (r_kill r) (r_pipe r) (Some 100%positive) (r_exec r) (r_getpid r)
    (match t with
     | EFork _ _ _ :: _ => [AIntr; AStatus (Exited 100 7); AStatus StillAlive; AFail; AFail; AFail]
     | _ => [AFail; AFail; AFail; AFail]
     end) (r_subst r).
(** SIGINTs arrive as well, but not while the program is started or waited for. *)
Definition anytime (ks : arrivals) : point -> list event -> arrivals := fun p _ =>
  match p with
  | PFunctions | PForked | PEntered | PWait => ks
  | PStart | PSubst | PDelete | PEnd | PPrompt => [Int [0; 1]; Sig 0]%nat
  end.
Lemma anytime_starts ks : Forall childish ks -> starts_undisturbed (anytime ks) /\ undisturbed (anytime ks) PWait.
Proof. intros H. split; [split|]; intros tr; exact H. Qed.
Example C115_example :
  let s := Shell (at_prompt ex_image) [] in
  one_child seven_os (anytime [Sig 2; Pause; Sig 0]) 100 1 (Exited 100 7) [AStatus StillAlive; AFail; AFail; AFail] /\
  at_rest_now (trace s) /\ wf_pipeline (Pipeline false [CSimple (words_cmd (lit "a") [lit "x"])] false) /\
  program (im s) (words_cmd (lit "a") [lit "x"]) (SimpleCommand None (lit "a") (Some (Suffix [] [lit "x"]))) /\
  table (fds (im s)) /\ basic (jobs (js (im s))) /\ expand_var (cm (im s)) (lit "PS4") = Some (lit "+ ") /\
  r_pipeline (Pipeline false [CSimple (words_cmd (lit "a") [lit "x"])] false) = lit " a x" /\
  fst (exec_text_async seven_os (anytime [Sig 2; Pause; Sig 0]) 5 (lit " a x") s) = OOk 7.
Proof.
  destruct PropertiesStatus.C42_example as (E1 & E2 & E3 & E4 & E5 & E6 & _).
  split; [|split; [exact I|split; [exact E1|split; [|split; [exact E3|split; [exact E4|split; [exact E5|split; [exact E6|vm_compute; reflexivity]]]]]]]].
  - split; try reflexivity.
    + exact (ev_exited 100 7).
    + repeat (constructor; [first [left; reflexivity|right; reflexivity]|]). constructor.
    + apply anytime_starts. repeat constructor.
    + apply anytime_starts. repeat constructor.
    + intros tr. cbn. lia.
    + intros p [|[] tr] H; try contradiction; (split; [repeat (constructor; [left; reflexivity|]); constructor|destruct p; cbn; lia]).
  - apply (program_same ex_image); [reflexivity..|exact E2].
Qed.

(** A line that is a pipeline of programs, while the other jobs are finished or
    stopped: if its first program reports first, as it must (C41), and every report
    is of a program that ended, then whenever signals arrive the status is that of
    the first program and everything is as if none did, except the messages about
    programs that were killed. *)
Theorem C115_pipeline_partial : forall w sg d b scs scs' s v qs n1 e1 mid rest, scs <> [] ->
  wf_pipeline (Pipeline b (map CSimple scs) false) -> Forall2 (program (im s)) scs scs' ->
  table (fds (im s)) -> basic (jobs (js (im s))) -> at_rest_now (trace s) ->
  ending w sg (trace s) qs n1 e1 mid rest -> List.length qs = List.length scs -> NoDup qs ->
  (forall k j p, nget k (job_table (jobs (js (im s)))) = Some j -> In p qs -> at_rest (Zpos p) j) ->
  expand_var (cm (im s)) (lit "PS4") = Some v ->
  let c := status_after e1 (exit_status (im s)) in
  exists s0 s', exec_text w (S d) (r_pipeline (Pipeline b (map CSimple scs) false)) s = (OOk c, s0) /\
    exec_text_async w sg (S d) (r_pipeline (Pipeline b (map CSimple scs) false)) s = (OOk c, s') /\
    likewise s0 s' /\ (Forall unkilled (AStatus e1 :: mid) -> alike s0 s').
Proof. apply pipeline_async. Qed.

(** The example: [a x | b x | c x]; the signals of the second and third program are
    taken while the shell waits, and more arrive at every moment. *)
Definition pipe_os : os := fun t =>
  let r := ex_answers [] t in
  Reports (r_isfile r) (r_open r) (r_read r) (r_chdir r) (r_cwd r) (r_kill r) true (r_fork r) (r_exec r) (r_getpid r)
    (match t with
     | EFork _ _ _ :: _ => [AIntr; AStatus (Exited 100 7); AStatus (Exited 102 1); AIntr; AStatus (Exited 101 2); AFail; AFail; AFail; AFail; AFail; AFail]
     | _ => [AFail; AFail; AFail; AFail; AFail]
     end) (r_subst r).
Definition often : point -> list event -> arrivals := anytime [Pause; Sig 0; Pause; Sig 1; Sig 0].
Example C115_pipeline_example :
  let s := Shell (at_prompt ex_image) [] in
  let mid := [AStatus (Exited 102 1); AIntr; AStatus (Exited 101 2)] in
  ending pipe_os often (trace s) [100; 101; 102]%positive 1 (Exited 100 7) mid [AFail; AFail; AFail; AFail; AFail; AFail] /\
  wf_pipeline (Pipeline false (map CSimple ex_three) false) /\ Forall2 (program (im s)) ex_three ex_names /\
  at_rest_now (trace s) /\ Forall unkilled (AStatus (Exited 100 7) :: mid) /\
  r_pipeline (Pipeline false (map CSimple ex_three) false) = lit " a x | b x | c x" /\
  fst (exec_text_async pipe_os often 5 (lit " a x | b x | c x") s) = OOk 7.
Proof.
  split; [|split; [exact ex_wf|split; [|split; [exact I|split; [repeat constructor|split; [reflexivity|vm_compute; reflexivity]]]]]].
  - split; try reflexivity.
    + intros new H. unfold pipe_os, ex_answers. cbn [r_fork]. rewrite app_nil_r. reflexivity.
    + exact (ev_exited 100 7).
    + repeat (constructor; [first [left; reflexivity|right; eexists _, _; split; [reflexivity|]; split; [constructor|]; split; [cbn; tauto|reflexivity]]|]). constructor.
    + repeat (constructor; [left; reflexivity|]). constructor.
    + apply anytime_starts. repeat constructor.
    + apply anytime_starts. repeat constructor.
    + intros t. cbn. lia.
    + intros p [|[] t] H; try contradiction; (split; [repeat (constructor; [left; reflexivity|]); constructor|destruct p; cbn; lia]).
  - unfold ex_three, ex_names. cbn [map]. repeat apply Forall2_cons; try apply Forall2_nil;
      (apply (program_same ex_image); [reflexivity..|]); apply ex_program; cbn; tauto.
Qed.

(** A program that is stopped, continued and exits while the shell waits for it: the
    status and the table depend on who is told of the exit.  If the handler is, the
    status is lost and the job stays in the table as stopped, though its process is
    gone. *)
Definition again_os : os := fun t =>
  let r := ex_answers [] t in
  Reports (r_isfile r) (r_open r) (r_read r) (r_chdir r) (r_cwd r) (r_kill r) true (r_fork r) (r_exec r) (r_getpid r)
    (match t with
     | EFork _ _ _ :: _ => [AStatus (Stopped 100 SIGTSTP); AStatus (Exited 100 7); AFail; AFail]
     | _ => [AFail; AFail; AFail]
     end) (r_subst r).
Theorem C115_again_refuted :
  let s := Shell (at_prompt ex_image) [] in
  (exists s', exec_text_async again_os no_signals 5 (lit "a x") s = (OOk 7, s') /\ job_table (jobs (js (im s'))) = []) /\
  (exists s', exec_text_async again_os (at_point PWait [Pause; Sig 0]) 5 (lit "a x") s = (OOk 0, s') /\
    map (fun kj => (fst kj, state (snd kj))) (job_table (jobs (js (im s')))) = [(1, SStopped)]).
Proof. split; eexists; (split; [vm_compute; reflexivity|vm_compute; reflexivity]). Qed.

(** A program of a pipeline that is killed: whether the user is told depends on it
    as well. *)
Definition killed_os : os := fun t =>
  let r := ex_answers [] t in
  Reports (r_isfile r) (r_open r) (r_read r) (r_chdir r) (r_cwd r) (r_kill r) true (r_fork r) (r_exec r) (r_getpid r)
    (match t with
     | EFork _ _ _ :: _ => [AStatus (Exited 100 0); AStatus (Signaled 101 SIGSEGV true); AFail; AFail]
     | _ => [AFail; AFail; AFail]
     end) (r_subst r).
Theorem C115_message_refuted :
  let s := Shell (at_prompt ex_image) [] in
  (exists s' m, exec_text_async killed_os no_signals 5 (lit "a x | b x") s = (OOk 0, s') /\ printed (js (im s')) = [m]) /\
  (exists s', exec_text_async killed_os (at_point PWait [Pause; Sig 0]) 5 (lit "a x | b x") s = (OOk 0, s') /\ printed (js (im s')) = []).
Proof. split; [eexists; eexists|eexists]; (split; [vm_compute; reflexivity|vm_compute; reflexivity]). Qed.

(** The full statement, for every pipeline with one program, fails: after the
    functions of a pipeline have run a program, signals are no longer blocked, and
    the handler may take the status of the program before the shell knows its
    pid.  It is lost. *)
Theorem C115_function_refuted :
  let s := Shell (at_prompt ex_image) [] in
  let t := lit "f() { a ; } ; f | seven" in
  fst (exec_text_async async_os no_signals 5 t s) = OOk 7 /\
  fst (exec_text_async async_os (at_point PForked [Sig 0]) 5 t s) = OOk 0.
Proof. split; vm_compute; reflexivity. Qed.

(** It fails as well if the user presses ^C while the shell waits and the program
    exits because of it: the handler of SIGINT lets the other handler take the
    status, and the shell does not learn it. *)
Theorem C115_interrupt_refuted :
  let s := Shell (at_prompt ex_image) [] in
  (exists s', exec_text_async async_os (at_point PWait [Int []]) 5 (lit "seven") s = (OOk 7, s')) /\
  (exists s', exec_text_async async_os (at_point PWait [Sig 0]) 5 (lit "seven") s = (OOk 7, s')) /\
  (exists s', exec_text_async async_os (at_point PWait [Int [0%nat]]) 5 (lit "seven") s = (OOk 0, s') /\ exit_status (im s') = 0).
Proof. split; [|split]; eexists; [| |split]; vm_compute; reflexivity. Qed.

(** ** C116 *)

(** A line that is a pipeline of programs: whenever signals arrive (but no SIGINT
    while processes are started), the processes are started and connected as
    without signals.  Either all of them are started
    and the shell has the descriptors it had before, or a pipe could not be made,
    or nothing is started because the handler did not survive a signal that
    arrived before. *)
Theorem C116_wiring_partial : forall w sg d b bg scs scs' s o s',
  starts_undisturbed sg -> scs <> [] -> wf_pipeline (Pipeline b (map CSimple scs) bg) -> Forall2 (program (im s)) scs scs' ->
  table (fds (im s)) ->
  exec_text_async w sg (S d) (r_pipeline (Pipeline b (map CSimple scs) bg)) s = (o, s') ->
  exists new, trace s' = new ++ trace s /\
    (forall k img c r, nth_error (forks new) k = Some (img, c, r) ->
       nth_error scs' k = Some (c_cmd c) /\ c_bg c = bg /\ cm img = cm (im s) /\ al img = al (im s) /\ env img = env (im s) /\
       forall tr, exists t, wire_child c (Shell img tr) = (OOk tt, Shell (with_fds t img) tr) /\
         forall fd, nget fd t = piped (fds (im s)) (next_pipe (im s)) (List.length scs') k fd) /\
    cm (im s') = cm (im s) /\ al (im s') = al (im s) /\ env (im s') = env (im s) /\
    ((List.length (forks new) = List.length scs' /\ forall fd, nget fd (fds (im s')) = nget fd (fds (im s))) \/
     (o = OErr (EText (lit "Failed to create pipe")) /\ (S (List.length (forks new)) < List.length scs')%nat) \/
     ((o = OPanic \/ o = OBlock) /\ s' = s)).
Proof.
  intros w sg d b bg scs scs' s o s' U Hne Hw HF Ht H.
  destruct (exec_programs_async w sg d b bg scs scs' s o s' U Hne Hw HF Ht H) as (new & E & Hc & F & Hr).
  exists new. split; [exact E|]. split; [|split; [exact (proj1 F)|split; [exact (proj1 (proj2 F))|split; [exact (proj1 (proj2 (proj2 (proj2 F))))|]]]].
  - intros k img c r Hk. destruct (Hc k _ Hk) as (C1 & C2 & C3 & C4 & C5). split; [exact C1|]. split; [exact C3|].
    destruct C4 as (G1 & G2 & _ & G4 & _). split; [exact G1|]. split; [exact G2|]. split; [exact G4|]. intros tr.
    destruct (wire_ok _ _ _ k c img tr Ht C5) as (t & W1 & W2 & W3). exists t. split; [exact W1|exact W3].
  - destruct Hr as [Hr|[(R1 & R2 & _)|Hr]]; auto.
Qed.
(** The example: [a x | b y] with signals at every moment. *)
Definition two_os : os := fun t =>
  let r := ex_reports 0 in
  Reports (r_isfile r) (fun _ _ => false) (r_read r) (r_chdir r) (r_cwd r) (r_kill r) (r_pipe r)
    (Some match t with EPipe _ :: _ => 100%positive | _ => 101%positive end) (r_exec r) (r_getpid r)
    (match t with
     | EFork _ _ _ :: _ => [AStatus (Exited 100 3); AStatus (Exited 101 0); AFail; AFail; AFail; AFail]
     | _ => [AFail; AFail; AFail]
     end) (r_subst r).
Example C116_example :
  let r := exec_text_async two_os (anytime [Sig 2; Pause; Sig 0]) 5 (lit " a x | b y") (Shell (at_prompt ex_image) []) in
  starts_undisturbed (anytime [Sig 2; Pause; Sig 0]) /\ fst r = OOk 3 /\ map snd (forks (trace (snd r))) = [Some 100%positive; Some 101%positive] /\
  fds (im (snd r)) = fds ex_image /\ job_table (jobs (js (im (snd r)))) = [].
Proof. split; [apply anytime_starts; repeat constructor|]. vm_compute. repeat split. Qed.

(** Otherwise it fails: a program started while signals are not blocked, or while
    a SIGINT unblocks them, is fatal to the shell if it ends before the shell
    waits for it. *)
Theorem C116_unblocked_refuted : forall w sg id sc p prev i s q k ks e as_,
  gets_through (masked (js (im s))) k -> handlers (im s) = true -> forked (im s) = false -> basic (jobs (js (im s))) ->
  (exists j, get_job id (jobs (js (im s))) = Some j /\ (i < List.length (processes j))%nat) ->
  r_fork (w (trace s)) = Some q ->
  let tr := EFork (im s) (Child sc p prev (-1, -1) false) (Some q) :: trace s in
  sg PForked tr = [] -> sg PEntered tr = k :: ks ->
  r_waits (w tr) = AStatus e :: as_ -> event_of e (Zpos q) ->
  exists s', launch_async w sg id false i [(p, sc)] prev (-1, -1) s = (OPanic, s').
Proof.
  intros w sg id sc p prev i s q k ks e as_ Hm Hh Hk B Hj Hf tr H1 H2 H3 He.
  exact (unmasked_crash w sg id sc p prev i s q _ k ks e as_ _ Hm Hh Hk B Hj Hf eq_refl eq_refl H1 H2 H3 He).
Qed.
(** So a line that is a single program crashes the shell if ^C is pressed just when
    the program has been started and it is over before the shell waits for it. *)
Theorem C116_interrupt_refuted : forall w sg d b sc sc' s q n l ks e as_,
  wf_pipeline (Pipeline b [CSimple sc] false) -> program (im s) sc sc' -> basic (jobs (js (im s))) ->
  handlers (im s) = true -> forked (im s) = false ->
  undisturbed sg PFunctions -> sg PStart (trace s) = [] -> r_fork (w (trace s)) = Some q ->
  (forall i c, let tr := EFork i c (Some q) :: trace s in
    sg PForked tr = [] /\ sg PEntered tr = Int (n :: l) :: ks /\ r_waits (w tr) = AStatus e :: as_) ->
  event_of e (Zpos q) ->
  exists s', exec_text_async w sg (S d) (r_pipeline (Pipeline b [CSimple sc] false)) s = (OPanic, s').
Proof. apply interrupt_crash. Qed.
Example C116_interrupt_example :
  let s := Shell (at_prompt ex_image) [] in
  let sg := at_point PEntered [Int [0%nat]] in
  wf_pipeline (Pipeline false [CSimple (words_cmd (lit "a") [lit "x"])] false) /\
  program (im s) (words_cmd (lit "a") [lit "x"]) (SimpleCommand None (lit "a") (Some (Suffix [] [lit "x"]))) /\
  basic (jobs (js (im s))) /\ handlers (im s) = true /\ forked (im s) = false /\
  undisturbed sg PFunctions /\ sg PStart (trace s) = [] /\ r_fork (killed_os (trace s)) = Some 100%positive /\
  (forall i c, let tr := EFork i c (Some 100%positive) :: trace s in
    sg PForked tr = [] /\ sg PEntered tr = Int [0%nat] :: [] /\ r_waits (killed_os tr) = AStatus (Exited 100 0) :: tl (r_waits (killed_os tr))) /\
  fst (exec_text_async killed_os sg 5 (lit " a x") s) = OPanic /\
  fst (exec_text_async killed_os (at_point PEntered [Sig 0]) 5 (lit " a x") s) = OOk 0.
Proof.
  destruct PropertiesStatus.C42_example as (E1 & E2 & _ & E4 & _).
  split; [exact E1|]. split; [apply (program_same ex_image); [reflexivity..|exact E2]|]. split; [exact E4|]. split; [reflexivity|]. split; [reflexivity|].
  split; [intros tr; constructor|]. split; [reflexivity|]. split; [reflexivity|].
  split; [intros i c; split; [reflexivity|split; reflexivity]|].
  split; vm_compute; reflexivity.
Qed.
(** A line with a function that does this. *)
Theorem C116_function_refuted :
  let s := Shell (at_prompt ex_image) [] in
  let t := lit "f() { a ; } ; f | seven" in
  fst (exec_text_async async_os no_signals 5 t s) = OOk 7 /\
  fst (exec_text_async async_os (at_point PEntered [Sig 0]) 5 t s) = OPanic.
Proof. split; vm_compute; reflexivity. Qed.

(** ** Two jobs that end together (C84) *)

(** A background program ends, is killed or is stopped while the shell is at the
    prompt, and so does another child before the handler has returned.  The first
    report makes the handler delete the job; [delete_job] unblocks the signals
    while it has the shell borrowed; the second report is fatal. *)
Theorem C84_together_refuted : forall w sg n ins s id j q p e1 e2 rest k ks,
  has_prompt s -> MainSpec.listening s ->
  r_waits (w (trace s)) = AStatus e1 :: AStatus e2 :: rest -> event_of e1 (p_pid q) -> event_of e2 p ->
  nget (p_pid q) (pid_to_job (jobs (js (im s)))) = Some id -> get_job id (jobs (js (im s))) = Some j ->
  nsorted (job_table (jobs (js (im s)))) ->
  background j = true -> processes j = [q] -> sg PPrompt (trace s) = Sig (S k) :: ks ->
  interactive_loop_async w sg n (TChild :: ins) s = (OPanic, s).
Proof.
  intros w sg n ins s id j q p e1 e2 rest k ks Hv (Hm & Hh & Hk) Hw He1 He2 Hp Hj Hs Hb Hq Hg.
  cbn [interactive_loop_async]. rewrite (bind_ok (look cm) _ s (cm (im s)) s eq_refl).
  unfold has_prompt in Hv. unfold expand_var at 1. destruct (get_var (lit "PS1") (cm (im s))) as [v|]; [clear Hv|congruence].
  rewrite (seq_ok (unwrap (Some (value v))) _ s (value v) s eq_refl).
  assert (E : child_signal_async w sg s = (OPanic, s)).
  { unfold child_signal_async. rewrite Hm, Hh, Hk, Hw, Hg. cbn [orb negb deliver]. rewrite Hm. unfold handled.
    assert (Hd : forall ps4 r, deletes ps4 (AStatus e1 :: r) (js (im s)) = true).
    { intros ps4 r. destruct He1; cbn [deletes about]; unfold get_job_pid; rewrite Hp; fold (get_job id (jobs (js (im s))));
        rewrite Hj, Hb, Hq; reflexivity. }
    rewrite Hd.
    assert (Hsig : forall ps4 r, exists s', sig_chld ps4 (AStatus e1 :: r) (js (im s)) = WDone tt s' r).
    { intros ps4 r. assert (Hn : forall jc j', nsorted (job_table jc) -> get_job id (put_job id j' jc) = Some j').
      { intros jc j' Hn. unfold get_job, put_job. cbn. rewrite nget_ninsert by exact Hn. rewrite Z.eqb_refl. reflexivity. }
      assert (Hp1 : forall e, exists x, processes (set_process_status (p_pid q) e j) = [x]).
      { intros e. unfold set_process_status, with_processes. cbn [processes]. rewrite Hq. cbn. destruct (Z.eqb _ _); eexists; reflexivity. }
      unfold sig_chld. cbn [jobs with_sigchld].
      remember (p_pid q) as pq. destruct He1; rewrite Hp, Hj, Hb; unfold wait_for_job_sigchld; cbn [jobs with_jobs print];
        rewrite Hn by exact Hs;
        match goal with |- context [set_process_status ?a ?e j] => destruct (Hp1 e) as [x Hx]; rewrite Hx end;
        eexists; reflexivity. }
    destruct (Hsig (expand_var (cm (im s)) (lit "PS4")) (AStatus e2 :: rest)) as [s' Es]. rewrite Es.
    cbn [interrupted inside]. destruct He2; reflexivity. }
  unfold seq, bind. rewrite E. reflexivity.
Qed.
(** [a x &] and [b y &] end at the same time. *)
Definition together_os : os := fun t =>
  let r := ex_reports 0 in
  Reports (r_isfile r) (fun _ _ => false) (r_read r) (r_chdir r) (r_cwd r) (r_kill r) (r_pipe r)
    (Some match t with EFork _ _ _ :: _ => 101%positive | _ => 100%positive end) (r_exec r) (r_getpid r)
    [AStatus (Exited 100 0); AStatus (Exited 101 0); AFail] (r_subst r).
Example C84_together_example :
  let ins := [TLine (lit "a x &"); TLine (lit "b y &"); TChild; TChild; TClosed] in
  fst (main_async together_os (at_point PPrompt [Sig 0]) 5 0 (words ["rsh"]%string) ins (Shell ex_fresh [])) = OOk tt /\
  fst (main_async together_os (at_point PPrompt [Sig 1]) 5 0 (words ["rsh"]%string) ins (Shell ex_fresh [])) = OPanic.
Proof. vm_compute. split; reflexivity. Qed.

(** An answer that is not about a job of the shell. *)
Inductive says_nothing (jc : job_control) : answer -> Prop :=
| sn_intr : says_nothing jc AIntr
| sn_fail : says_nothing jc AFail
| sn_alive : says_nothing jc (AStatus StillAlive)
| sn_continued p : says_nothing jc (AStatus (Continued p))
| sn_stranger e p : event_of e p -> nget p (pid_to_job jc) = None -> says_nothing jc (AStatus e).
Lemma nothing_handled ps4 k a r s : says_nothing (jobs s) a -> handled ps4 k (a :: r) s = WDone tt (with_sigchld true s) r.
Proof.
  intros H. unfold handled. destruct H as [| | |p|e p He Hp]; try reflexivity.
  destruct He; cbn [deletes about]; unfold get_job_pid; rewrite Hp; unfold sig_chld; cbn [jobs with_sigchld]; rewrite Hp; reflexivity.
Qed.
Lemma nothing_delivered ps4 ks : forall as_ s, masked s = false -> got_sigchld s = true -> Forall (says_nothing (jobs s)) as_ ->
  (List.length ks <= List.length as_)%nat -> exists r, deliver ps4 (map Sig ks) as_ s = WDone [] s r.
Proof.
  induction ks as [|k ks IH]; intros as_ s Hm Hg Hf Hl; cbn [map deliver]; [eauto|]. rewrite Hm.
  destruct as_ as [|a r]; [cbn in Hl; lia|]. rewrite nothing_handled by exact (Forall_inv Hf).
  assert (with_sigchld true s = s) as -> by (destruct s; cbn in Hg; subst; reflexivity).
  apply IH; [assumption..|exact (Forall_inv_tail Hf)|cbn in Hl; lia].
Qed.
(** Any number of signals at the prompt, with any number more inside their
    handlers, that are not about a job of the shell change nothing. *)
Theorem C84_nothing_partial : forall w sg n ins s k ks,
  has_prompt s -> MainSpec.listening s -> sg PPrompt (trace s) = map Sig (k :: ks) ->
  Forall (says_nothing (jobs (js (im s)))) (r_waits (w (trace s))) -> (List.length ks < List.length (r_waits (w (trace s))))%nat ->
  interactive_loop_async w sg n (TChild :: ins) s =
  interactive_loop_async w sg n ins (Shell (with_js (with_sigchld true (js (im s))) (im s)) (EWait (-1) :: trace s)).
Proof.
  intros w sg n ins s k ks Hv (Hm & Hh & Hk) Hg Hf Hl.
  cbn [interactive_loop_async]. rewrite (bind_ok (look cm) _ s (cm (im s)) s eq_refl).
  unfold has_prompt in Hv. unfold expand_var at 1. destruct (get_var (lit "PS1") (cm (im s))) as [v|]; [clear Hv|congruence].
  rewrite (seq_ok (unwrap (Some (value v))) _ s (value v) s eq_refl).
  apply seq_ok with (a := tt). unfold child_signal_async. rewrite Hm, Hh, Hk, Hg. cbn [orb negb map deliver]. rewrite Hm.
  destruct (r_waits (w (trace s))) as [|a r]; [cbn in Hl; lia|]. rewrite nothing_handled by exact (Forall_inv Hf).
  destruct (nothing_delivered (expand_var (cm (im s)) (lit "PS4")) ks r (with_sigchld true (js (im s))) Hm eq_refl (Forall_inv_tail Hf)) as [r' ->];
    [cbn in Hl; lia|]. reflexivity.
Qed.
(** [a x &] is continued, and a process that is not the shell's business ends. *)
Definition nothing_os : os := fun t =>
  let r := ex_reports 0 in
  Reports (r_isfile r) (fun _ _ => false) (r_read r) (r_chdir r) (r_cwd r) (r_kill r) (r_pipe r) (Some 100%positive) (r_exec r) (r_getpid r)
    [AStatus (Continued 100); AStatus (Exited 99 0); AFail] (r_subst r).
Example C84_nothing_example :
  let ins := [TLine (lit "a x &"); TChild; TClosed] in
  let r := main_async nothing_os (at_point PPrompt [Sig 1; Sig 0; Sig 2]) 5 0 (words ["rsh"]%string) ins (Shell ex_fresh []) in
  fst r = OOk tt /\ nget 100 (pid_to_job (jobs (js (im (snd r))))) = Some 1 /\
  Forall (says_nothing (jobs (js (im (snd r))))) (r_waits (nothing_os [])).
Proof.
  vm_compute. split; [reflexivity|]. split; [reflexivity|]. repeat constructor. eapply sn_stranger; [constructor|reflexivity].
Qed.

Print Assumptions C84_together_refuted.
Print Assumptions C84_nothing_partial.
Print Assumptions C114_reachable.
Print Assumptions C114_invariants.
Print Assumptions C114_no_signals.
Print Assumptions C114_unheard.
Print Assumptions C114_everywhere.
Print Assumptions C115_same_partial.
Print Assumptions C115_status_partial.
Print Assumptions C115_function_refuted.
Print Assumptions C115_pipeline_partial.
Print Assumptions C115_again_refuted.
Print Assumptions C115_message_refuted.
Print Assumptions C116_wiring_partial.
Print Assumptions C115_interrupt_refuted.
Print Assumptions C116_unblocked_refuted.
Print Assumptions C116_interrupt_refuted.
Print Assumptions C116_function_refuted.
