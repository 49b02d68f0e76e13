(** Whole sessions (C78-C84). *)
From Verif Require Import Base BaseFacts Ast Parser Context Alias Expand Jobs Shell Builtins Eval EvalSpec EvalFacts EvalLaws EvalKeeps.
From Verif Require Import GrammarSpec RunSpec RunLaws Main MainSpec MainLaws MainKeeps PropertiesEval PropertiesMain.
From Verif Require LexerSpec ContextSpec ContextFacts ContextLaws JobsSpec JobsFacts JobsLaws EvalHistory EvalJobs EvalFds PipeSpec GrammarFacts PropertiesJobs.
Local Open Scope Z_scope.

(** The prompt can be shown. *)
Definition has_prompt (s : shell) : Prop := get_var (lit "PS1") (cm (im s)) <> None.

(** * C78: errors at the prompt *)

(** What is typed is run as [session] says, and nothing else happens. *)
Theorem C78_session : forall w n ins s o s', interactive_loop w n ins s = (o, s') <-> session w n ins s o s'.
Proof. intros w n ins s o s'. apply loop_session. Qed.

(** A command that fails, and a line that is not a command, leave the shell at
    the prompt for the next line. *)
Theorem C78_errors : forall w n t ins s, has_prompt s ->
  (forall e s1, exec_text w n t s = (OErr e, s1) -> interactive_loop w n (TLine t :: ins) s = interactive_loop w n ins s1) /\
  (parse t = None -> interactive_loop w n (TLine t :: ins) s = interactive_loop w n ins s).
Proof.
  intros w n t ins s Hp. unfold has_prompt in Hp. destruct (get_var (lit "PS1") (cm (im s))) as [v|] eqn:E; [|congruence]. split.
  - intros e s1 He. destruct (interactive_loop w n ins s1) as [o s'] eqn:Er. apply loop_session. apply loop_session in Er.
    destruct (parse t) eqn:Ep.
    + eapply session_line; [exact E|congruence|exact He|exact I|exact Er].
    + unfold exec_text in He. rewrite Ep in He. injection He as _ <-. eapply session_not_a_command; eassumption.
  - intros Hn. destruct (interactive_loop w n ins s) as [o s'] eqn:Er. apply loop_session. apply loop_session in Er.
    eapply session_not_a_command; eassumption.
Qed.

(** A session ends with a failure of [main] never, and normally only when the
    input is closed or cannot be read. *)
Theorem C78_ends : forall w n ins s o s', interactive_loop w n ins s = (o, s') ->
  (forall e, o <> OErr e) /\
  (o = OOk tt -> exists before rest, ins = before ++ TClosed :: rest \/ ins = before ++ TFailed :: rest) /\
  (o = OPanic -> ~ has_prompt s' \/ (exists t, In (TLine t) ins) \/ In TChild ins).
Proof.
  intros w n ins s o s' H. apply loop_session in H.
  assert (Hcons : forall i l, (exists before rest, l = before ++ TClosed :: rest \/ l = before ++ TFailed :: rest) ->
    exists before rest, i :: l = before ++ TClosed :: rest \/ i :: l = before ++ TFailed :: rest).
  { intros i l (b & r & [->| ->]); exists (i :: b), r; auto. }
  assert (Hin : forall i l s', (~ has_prompt s' \/ (exists t, In (TLine t) l) \/ In TChild l) ->
    (~ has_prompt s' \/ (exists t, In (TLine t) (i :: l)) \/ In TChild (i :: l))).
  { intros i l x [H1|[[t H1]|H1]]; [left; exact H1|right; left; exists t; right; exact H1|right; right; right; exact H1]. }
  induction H as [ins s E|s v E|ins s v E|ins s v E|ins s v o s' E _ IH|t ins s v o s' E Hp _ IH|t ins s v r s1 o s' E Hp Hr Hret _ IH
                 |t ins s v r s1 E Hp Hr Hret|ins s v o s' E Hl _ IH|ins s v x j r o s' E Hl Hs _ IH|ins s v E Hl Hs|ins s v E Hl Hs].
  - split; [discriminate|]. split; [discriminate|]. intros _. left. unfold has_prompt. intros H. apply H. exact E.
  - split; [discriminate|]. split; discriminate.
  - split; [discriminate|]. split; [|discriminate]. intros _. exists [], ins. left. reflexivity.
  - split; [discriminate|]. split; [|discriminate]. intros _. exists [], ins. right. reflexivity.
  - destruct IH as (I1 & I2 & I3). split; [exact I1|]. split; auto.
  - destruct IH as (I1 & I2 & I3). split; [exact I1|]. split; auto.
  - destruct IH as (I1 & I2 & I3). split; [exact I1|]. split; auto.
  - destruct r; try (exfalso; apply Hret; exact I); (split; [discriminate|]; split; [discriminate|]);
      intros _; right; left; exists t; left; reflexivity.
  - destruct IH as (I1 & I2 & I3). split; [exact I1|]. split; auto.
  - destruct IH as (I1 & I2 & I3). split; [exact I1|]. split; auto.
  - split; [discriminate|]. split; [discriminate|]. intros _. right. right. left. reflexivity.
  - split; [discriminate|]. split; discriminate.
Qed.

(** The example: a command that is not found, text that is not a command, a
    failing builtin, and then a command that is run. *)
Example C78_example :
  has_prompt (Shell (at_prompt ex_fresh) []) /\
  (exists e s1, exec_text (plain_os "") 5 (lit "unset") (Shell ex_fresh []) = (OErr e, s1)) /\ parse (lit "&&") = None /\
  exists s', main (plain_os "") 5 0 (words ["rsh"]%string) [TLine (lit "unset"); TLine (lit "&&"); TLine (lit "true"); TClosed] (Shell ex_fresh []) = (OOk tt, s') /\
    ran_commands (trace s') = [lit "true"].
Proof.
  split; [discriminate|]. split; [do 2 eexists; vm_compute; reflexivity|]. split; [vm_compute; reflexivity|].
  eexists. split; vm_compute; reflexivity.
Qed.

(** The full statement fails: when [PS1] is unset, the shell crashes at the next
    prompt, whatever is typed. *)
Theorem C78_refuted :
  (forall w n ins s, ~ has_prompt s -> interactive_loop w n ins s = (OPanic, s)) /\
  (forall more, exists s', main (plain_os "") 5 0 (words ["rsh"]%string) (TLine (lit "unset PS1") :: more) (Shell ex_fresh []) = (OPanic, s')).
Proof.
  split.
  - intros w n ins s H. apply loop_session. apply session_no_prompt. unfold has_prompt in H.
    destruct (get_var (lit "PS1") (cm (im s))); [exfalso; apply H; discriminate|reflexivity].
  - intros more. eexists. destruct more as [|m more]; vm_compute; reflexivity.
Qed.

(** * C79: whatever is typed *)

Lemma wf_default root cwd ppid pid env : ContextSpec.cm_wf (cm_default root cwd ppid pid env).
Proof.
  constructor; cbn.
  - discriminate.
  - constructor; [intros []|constructor].
  - repeat constructor.
  - constructor.
  - repeat constructor.
Qed.

(** At every moment of a session the variables, functions and namespaces are the
    result of the operations of C24-C33, and the jobs of those of C34-C43. *)
Theorem C79_reachable : forall w n k args ins root cwd ppid pid env fds o s',
  main w n k args ins (Shell (fresh_image root cwd ppid pid env fds) []) = (o, s') ->
  (exists ops, ContextSpec.performs ops (cm_default root cwd ppid pid env) = Some (cm (im s'))) /\
  (exists ops, JobsSpec.run ops JobsSpec.jst0 = Some (js (im s'))).
Proof.
  intros w n k args ins root cwd ppid pid env fds o s' H. split.
  - apply (main_history w n k args ins _ o s' H (or_introl eq_refl)). apply wf_default.
  - apply (main_worked w n k args ins _ o s' H (or_introl eq_refl)). apply JobsFacts.basic_new.
Qed.
(** So there always is a scope to put variables in, the scopes are different
    ones, and the numbers of the jobs are positive, different, and smaller than
    the next one. *)
Theorem C79_invariants : forall w n k args ins root cwd ppid pid env fds o s',
  main w n k args ins (Shell (fresh_image root cwd ppid pid env fds) []) = (o, s') ->
  stack (cm (im s')) <> [] /\ NoDup (stack (cm (im s'))) /\
  (forall id j, nget id (job_table (jobs (js (im s')))) = Some j -> job_id j = id /\ 1 <= id < next_job_id (jobs (js (im s')))).
Proof.
  intros w n k args ins root cwd ppid pid env fds o s' H.
  destruct (C79_reachable _ _ _ _ _ _ _ _ _ _ _ _ _ H) as [[ops Ho] [jops Hj]].
  apply ContextFacts.performs_wf in Ho; [|apply wf_default]. split; [apply Ho|]. split; [apply Ho|].
  pose proof (JobsLaws.reachable_basic _ _ Hj) as B. intros id j E. split; [exact (JobsFacts.b_ids _ B id j E)|].
  apply (JobsFacts.b_next _ B id). exists j. exact E.
Qed.
(** Between two prompts no file is left open or closed, as long as pipes can be
    made.  Missing for the full statement: sessions that end by [exit] or a crash
    (there the process is gone), and the [exec] of redirections in other
    processes. *)
Theorem C79_files_partial : forall w n ins s s', (forall tr, r_pipe (w tr) = true) -> PipeSpec.table (fds (im s)) ->
  interactive_loop w n ins s = (OOk tt, s') -> forall fd, nget fd (fds (im s')) = nget fd (fds (im s)).
Proof.
  intros w n ins s s' Hp Ht H.
  assert (K : keeps false EvalFds.restored (interactive_loop w n ins)).
  { apply (ks_loop _ _ EvalFds.restored_pre).
    - intros l s0 o s1 E Ho. destruct Ho as [Ho|Ho]; [discriminate|]. apply (EvalFds.evaluate_restored w n l s0 o s1 Hp E Ho).
    - apply keeps_raw. intros s0. apply EvalFds.restored_same; reflexivity.
    - apply keeps_raw. intros s0. apply EvalFds.restored_same; unfold child_signal;
        (destruct (_ || _)%bool; [reflexivity|]; destruct (sig_chld _ _ _); reflexivity). }
  exact (proj2 (K s (OOk tt) s' H (or_intror I) Ht)).
Qed.
Example C79_example :
  exists s', main (plain_os "") 5 0 (words ["rsh"]%string)
    [TLine (lit "f() { A=1 ; true ; }"); TLine (lit "f"); TChild; TLine (lit "Y=2"); TLine (lit "cat | wc &"); TClosed] (Shell ex_fresh []) = (OOk tt, s') /\
    expand_var (cm (im s')) (lit "Y") = Some (lit "2") /\
    (exists j, nget 2 (job_table (jobs (js (im s')))) = Some j) /\ PipeSpec.table ex_fds /\ fds (im s') = ex_fds.
Proof.
  eexists. split; [vm_compute; reflexivity|]. split; [vm_compute; reflexivity|]. split; [eexists; vm_compute; reflexivity|].
  split; [|vm_compute; reflexivity].
  split; [repeat constructor|]. intros fd d H. unfold ex_fds in H. cbn [nget] in H.
  repeat match type of H with context [Z.eqb fd ?k] => destruct (Z.eqb_spec fd k); [lia|] end. discriminate.
Qed.

(** * C80: startup files *)

Definition closed (fd : Z) (s : shell) : shell :=
  Shell (match fd_close fd (fds (im s)) with Some t => with_fds t (im s) | None => im s end) (trace s).
Lemma startup_some w n file text s r s2 : reads w s file text -> parse text <> None ->
  exec_text w n text (opened file s) = (r, s2) ->
  read_startup w n file s =
  match r with
  | OOk _ => (OOk tt, closed (lowest (fds (im s))) s2)
  | OErr _ => (OPanic, s2)
  | o => (lift o, s2)
  end.
Proof.
  intros [Ho Hr] Hp He. unfold read_startup.
  rewrite (bind_ok _ _ s (Some (lowest (fds (im s)))) (opened file s)).
  2:{ unfold sys_open. rewrite (bind_ok _ _ s true s); [reflexivity|]. unfold ask. rewrite Ho. reflexivity. }
  unfold while_open, bind at 1, catch. unfold bind at 1, ask. cbn [opened trace]. rewrite Hr.
  unfold exec_text in He. destruct (parse text) as [c|]; [|congruence].
  unfold bind at 1, catch. rewrite He. destruct r; reflexivity.
Qed.

(** The shell before it reads the startup files. *)
Lemma main_starts w n k args ins s t f c' :
  parse_args args (cm (im s)) = Some (t, f) -> f_cm f = one_scope c' ->
  ContextSpec.unsettable (numbered 0 (script_name f)) = false ->
  exists s1, main w n k args ins s =
      (read_startup w n (lit "~/.rshrc") ;; read_startup w n (lit "~/.profile") ;; goes_on w n k ins t f) s1 /\ trace s1 = trace s /\
    im s1 = with_cm (two_scopes c' (ctx_put_var (lit "0") (Var (kept (script_name f)) false) empty_context)) (with_js (js (im s1)) (im s)) /\
    jobs (js (im s1)) = jobs (js (im s)) /\ masked (js (im s1)) = masked (js (im s)) /\
    printed (js (im s1)) = printed (js (im s)) ++ shown f.
Proof.
  intros Hp Hf Hu. unfold main.
  rewrite (bind_ok (look cm) _ s (cm (im s)) s eq_refl). rewrite Hp.
  rewrite (bind_ok (unwrap (Some (t, f))) _ s (t, f) s eq_refl). cbn [fst snd]. cbv zeta.
  set (s0 := Shell (with_cm (f_cm f) (im s)) (trace s)).
  rewrite (seq_ok (on_cm (fun _ => f_cm f)) _ s tt s0 eq_refl).
  destruct (say_all_ok (shown f) s0) as (s2 & E2 & Ht2 & Hi2 & Hj2 & Hm2). rewrite (seq_ok _ _ s0 tt s2 E2).
  assert (Hcm : cm (im s2) = one_scope c') by (rewrite Hi2; exact Hf).
  assert (Hpr : printed (js (im s2)) = printed (js (im s0)) ++ shown f).
  { clear -E2. revert E2. generalize (shown f) as ts, s0. clear. intros ts. induction ts as [|x ts IH]; intros s0 E2.
    - injection E2 as <-. rewrite app_nil_r. reflexivity.
    - cbn [say_all] in E2. rewrite (seq_ok (say x) _ s0 tt _ eq_refl) in E2. apply IH in E2. rewrite E2.
      cbn [im js with_js print printed]. rewrite <- app_assoc. reflexivity. }
  set (s3 := Shell (with_cm (push_context_new (cm (im s2))) (im s2)) (trace s2)).
  set (s4 := Shell (with_cm (two_scopes c' (ctx_put_var (lit "0") (Var (kept (script_name f)) false) empty_context)) (im s2)) (trace s2)).
  exists s4. split.
  { unfold set_up, goes_on. set (rest := match t with Some t => _ | None => _ end).
    assert (E3 : try_cm (add_var_pos (lit "0=" ++ script_name f) 1) s3 = (OOk tt, s4)).
    { unfold try_cm, try_. cbn [s3 im cm with_cm]. rewrite Hcm, arg0, Hu. reflexivity. }
    assert (E4 : (on_cm push_context_new ;; try_cm (add_var_pos (lit "0=" ++ script_name f) 1) ;;
                  read_startup w n (lit "~/.rshrc") ;; read_startup w n (lit "~/.profile")) s2 =
                 (read_startup w n (lit "~/.rshrc") ;; read_startup w n (lit "~/.profile")) s4).
    { rewrite (seq_ok (on_cm push_context_new) _ s2 tt s3 eq_refl). apply (seq_ok _ _ s3 tt s4 E3). }
    unfold seq at 1, bind at 1. rewrite E4. unfold seq, bind. destruct (read_startup w n (lit "~/.rshrc") s4) as [[| | | | | |] s5]; reflexivity. }
  split; [exact Ht2|]. split; [cbn [s4 im]; rewrite Hi2; reflexivity|]. split; [exact Hj2|]. split; [exact Hm2|exact Hpr].
Qed.

(** A readable file [~/.rshrc] in the current directory is run as one text
    before the first prompt, and closed.  If it fails, the shell crashes. *)
Theorem C80_startup_partial : forall w n k args ins root cwd ppid pid env fds text,
  asks args Prompt ->
  let s := Shell (fresh_image root cwd ppid pid env fds) [] in
  reads w s (lit "~/.rshrc") text -> parse text <> None ->
  exists s1, begun (lit "rsh") [] s s1 /\
    forall r s2, exec_text w n text (opened (lit "~/.rshrc") s1) = (r, s2) ->
      r_open (w (trace s2)) (lit "~/.profile") for_reading = false ->
      main w n k args ins s =
      match r with
      | OOk _ => interactive_loop w n ins (Shell (at_prompt (im (closed (lowest fds) s2))) (trace s2))
      | OErr _ => (OPanic, s2)
      | o => (lift o, s2)
      end.
Proof.
  intros w n k args ins root cwd ppid pid env fds text Ha s Hr Ht.
  set (c := Context (default_vars root cwd ppid pid env) [] []).
  assert (Hc : cm (im s) = one_scope c) by reflexivity.
  pose proof (parse_args_asks args Prompt (cm (im s)) Ha) as Hp. cbn [wanted_front] in Hp.
  destruct (main_starts w n k args ins s _ _ c Hp Hc eq_refl) as (s1 & E & Htr & Hi & Hj & Hm & _).
  exists s1. split; [apply (begun_from (lit "rsh") [] s s1 c c); auto; intros [|j] a Hj'; discriminate|].
  intros r s2 He Ho. rewrite E.
  assert (Hr' : reads w s1 (lit "~/.rshrc") text).
  { unfold reads in *. rewrite Htr. exact Hr. }
  pose proof (startup_some w n _ text s1 r s2 Hr' Ht He) as Hs.
  assert (Hl : Shell.fds (im s1) = fds) by (rewrite Hi; reflexivity). rewrite Hl in Hs.
  destruct r as [z|e| | | | | ]; try (rewrite (seq_fails _ _ s1 _ s2 Hs I); reflexivity).
  rewrite (seq_ok _ _ s1 tt _ Hs). rewrite (seq_ok _ _ _ tt _ (startup_none w n _ (closed (lowest fds) s2) Ho)). reflexivity.
Qed.
Example C80_example :
  let w : os := fun t => Reports (fun _ => true) (fun p _ => str_eqb p (lit "~/.rshrc")) (fun _ => Some (lit "A=1
B=2
")) (fun _ => true) None (fun _ => true) true None (fun _ _ => false) 1 [] (fun _ _ => None) in
  reads w (Shell ex_fresh []) (lit "~/.rshrc") (lit "A=1
B=2
") /\
  exists s', main w 5 0 (words ["rsh"]%string) [] (Shell ex_fresh []) = (OBlock, s') /\
    expand_var (cm (im s')) (lit "B") = Some (lit "2") /\ fds (im s') = ex_fds.
Proof.
  split; [split; reflexivity|]. eexists. split; [vm_compute; reflexivity|]. split; vm_compute; reflexivity.
Qed.
(** The same for [~/.profile]. *)
Theorem C80_profile_partial : forall w n k args ins root cwd ppid pid env fds text,
  asks args Prompt ->
  let s := Shell (fresh_image root cwd ppid pid env fds) [] in
  r_open (w []) (lit "~/.rshrc") for_reading = false -> reads w s (lit "~/.profile") text -> parse text <> None ->
  exists s1, begun (lit "rsh") [] s s1 /\
    forall r s2, exec_text w n text (opened (lit "~/.profile") s1) = (r, s2) ->
      main w n k args ins s =
      match r with
      | OOk _ => interactive_loop w n ins (Shell (at_prompt (im (closed (lowest fds) s2))) (trace s2))
      | OErr _ => (OPanic, s2)
      | o => (lift o, s2)
      end.
Proof.
  intros w n k args ins root cwd ppid pid env fds text Ha s Hno Hr Ht.
  set (c := Context (default_vars root cwd ppid pid env) [] []).
  assert (Hc : cm (im s) = one_scope c) by reflexivity.
  pose proof (parse_args_asks args Prompt (cm (im s)) Ha) as Hp. cbn [wanted_front] in Hp.
  destruct (main_starts w n k args ins s _ _ c Hp Hc eq_refl) as (s1 & E & Htr & Hi & Hj & Hm & _).
  exists s1. split; [apply (begun_from (lit "rsh") [] s s1 c c); auto; intros [|j] a Hj'; discriminate|].
  intros r s2 He. rewrite E.
  assert (Hr' : reads w s1 (lit "~/.profile") text).
  { unfold reads in *. rewrite Htr. exact Hr. }
  assert (Hno' : r_open (w (trace s1)) (lit "~/.rshrc") for_reading = false) by (rewrite Htr; exact Hno).
  pose proof (startup_some w n _ text s1 r s2 Hr' Ht He) as Hs.
  assert (Hl : Shell.fds (im s1) = fds) by (rewrite Hi; reflexivity). rewrite Hl in Hs.
  rewrite (seq_ok _ _ s1 tt _ (startup_none w n _ s1 Hno')).
  destruct r as [z|e| | | | | ]; try (rewrite (seq_fails _ _ s1 _ s2 Hs I); reflexivity).
  rewrite (seq_ok _ _ s1 tt _ Hs). reflexivity.
Qed.

(** A startup file that is not a command is skipped as a whole. *)
Lemma startup_bad w n file text s : reads w s file text -> parse text = None ->
  read_startup w n file s = (OOk tt, closed (lowest (fds (im s))) (opened file s)).
Proof.
  intros [Ho Hr] Hp. unfold read_startup.
  rewrite (bind_ok _ _ s (Some (lowest (fds (im s)))) (opened file s)).
  2:{ unfold sys_open. rewrite (bind_ok _ _ s true s); [reflexivity|]. unfold ask. rewrite Ho. reflexivity. }
  unfold while_open, bind at 1, catch. unfold bind at 1, ask. cbn [opened trace]. rewrite Hr, Hp. reflexivity.
Qed.
Theorem C80_syntax_error : forall w n k args ins root cwd ppid pid env fds text,
  asks args Prompt ->
  let s := Shell (fresh_image root cwd ppid pid env fds) [] in
  reads w s (lit "~/.rshrc") text -> parse text = None ->
  r_open (w [EOpen (lit "~/.rshrc") for_reading]) (lit "~/.profile") for_reading = false ->
  exists s1, begun (lit "rsh") [] s s1 /\
    let s2 := closed (lowest fds) (opened (lit "~/.rshrc") s1) in
    main w n k args ins s = interactive_loop w n ins (Shell (at_prompt (im s2)) (trace s2)).
Proof.
  intros w n k args ins root cwd ppid pid env fds text Ha s Hr Ht Ho.
  set (c := Context (default_vars root cwd ppid pid env) [] []).
  assert (Hc : cm (im s) = one_scope c) by reflexivity.
  pose proof (parse_args_asks args Prompt (cm (im s)) Ha) as Hp. cbn [wanted_front] in Hp.
  destruct (main_starts w n k args ins s _ _ c Hp Hc eq_refl) as (s1 & E & Htr & Hi & Hj & Hm & _).
  exists s1. split; [apply (begun_from (lit "rsh") [] s s1 c c); auto; intros [|j] a Hj'; discriminate|].
  cbv zeta. rewrite E.
  assert (Hr' : reads w s1 (lit "~/.rshrc") text).
  { unfold reads in *. rewrite Htr. exact Hr. }
  pose proof (startup_bad w n _ text s1 Hr' Ht) as Hs.
  assert (Hl : Shell.fds (im s1) = fds) by (rewrite Hi; reflexivity). rewrite Hl in Hs.
  rewrite (seq_ok _ _ s1 tt _ Hs).
  rewrite (seq_ok _ _ _ tt _ (startup_none w n _ (closed (lowest fds) (opened (lit "~/.rshrc") s1))
     ltac:(cbn [closed opened trace]; rewrite Htr; exact Ho))). reflexivity.
Qed.
Example C80_syntax_example :
  let w : os := fun t => Reports (fun _ => true) (fun p _ => str_eqb p (lit "~/.rshrc")) (fun _ => Some (lit "A=1
if
")) (fun _ => true) None (fun _ => true) true None (fun _ _ => false) 1 [] (fun _ _ => None) in
  parse (lit "A=1
if
") = None /\
  exists s', main w 5 0 (words ["rsh"]%string) [] (Shell ex_fresh []) = (OBlock, s') /\
    expand_var (cm (im s')) (lit "A") = None /\ fds (im s') = ex_fds.
Proof. cbn zeta. split; [vm_compute; reflexivity|]. eexists. split; [vm_compute; reflexivity|]. split; vm_compute; reflexivity. Qed.

(** The full statement fails: the file in the home directory is not even asked
    for, and a startup file that fails takes the shell with it. *)
Theorem C80_refuted :
  (forall w n k, no_startup_files w ->
     exists s', main w n k (words ["rsh"]%string) [] (Shell ex_fresh []) = (OBlock, s') /\ trace s' = []) /\
  (exists w : os, reads w (Shell ex_fresh []) (lit "~/.rshrc") (lit "unset") /\
     forall k ins, exists s', main w 5 k (words ["rsh"]%string) ins (Shell ex_fresh []) = (OPanic, s')).
Proof.
  split.
  - intros w n k Hn. destruct (C54_prompt w n k (words ["rsh"]%string) [] false (lit "/") (lit "1") (lit "2") [(lit "HOME", lit "/h")] ex_fds) as (s1 & Hb & E);
      [constructor|exact Hn|]. change (Shell ex_fresh []) with (Shell (fresh_image false (lit "/") (lit "1") (lit "2") [(lit "HOME", lit "/h")] ex_fds) []).
    rewrite E. exists (Shell (at_prompt (im s1)) (trace s1)). split; [|exact (bg_trace _ _ _ _ Hb)]. apply loop_session. eapply session_waits. cbn [im cm at_prompt with_history_location with_handlers].
    rewrite (bg_others _ _ _ _ Hb); [reflexivity|]. intros [|i] Hi; [discriminate|cbn in Hi; lia].
  - exists ex_os. split; [split; reflexivity|]. intros k ins. eexists. destruct k, ins; vm_compute; reflexivity.
Qed.

(** * C81: starting the shell *)

Lemma default_prompt root cwd ppid pid env d : ctx_get_var (lit "PS1") d = None ->
  exists v, get_var (lit "PS1") (two_scopes (Context (default_vars root cwd ppid pid env) [] []) d) = Some v.
Proof.
  intros Hd. rewrite two_get. change (namespaced (lit "PS1")) with (@None (str * str)). cbv iota. rewrite Hd.
  unfold ctx_get_var. cbn [vars]. unfold default_vars. cbv zeta.
  match goal with |- context [fold_left _ env ?m] => assert (H : exists v, sget (lit "PS1") m = Some v);
    [destruct (sget (lit "PATH") env), (sget (lit "PWD") env); eexists; reflexivity|revert H; generalize m] end.
  induction env as [|[k v] env IH]; intros m [x Hm]; [eexists; exact Hm|]. cbn [fold_left fst snd]. apply IH.
  rewrite sget_sinsert. destruct (str_eqb _ _); eexists; [reflexivity|exact Hm].
Qed.

(** Without arguments nothing is printed before the prompt. *)
Theorem C81_quiet_partial : forall w n k p root cwd ppid pid env fds, no_startup_files w ->
  exists s', main w n k [p] [] (Shell (fresh_image root cwd ppid pid env fds) []) = (OBlock, s') /\ printed (js (im s')) = [].
Proof.
  intros w n k p root cwd ppid pid env fds Hn. set (s := Shell (fresh_image root cwd ppid pid env fds) []).
  set (c := Context (default_vars root cwd ppid pid env) [] []).
  destruct (main_starts w n k [p] [] s _ _ c eq_refl eq_refl eq_refl) as (s1 & E & Htr & Hi & Hj & Hm & Hpr).
  rewrite E. rewrite (seq_ok _ _ s1 tt s1 (startup_none w n _ s1 (proj1 (Hn _)))).
  rewrite (seq_ok _ _ s1 tt s1 (startup_none w n _ s1 (proj2 (Hn _)))). cbn [goes_on interactive].
  exists (Shell (at_prompt (im s1)) (trace s1)). split; [|exact Hpr]. rewrite (seq_ok (change at_prompt) _ s1 tt _ eq_refl). apply loop_session.
  destruct (default_prompt root cwd ppid pid env (ctx_put_var (lit "0") (Var (kept (lit "rsh")) false) empty_context) eq_refl) as [v Hv].
  apply (session_waits w n _ v). cbn [im cm at_prompt with_history_location with_handlers]. rewrite Hi. exact Hv.
Qed.
(** The full statement fails for every other command line that asks for a
    prompt: each of its words is printed. *)
Theorem C81_refuted : forall w n k args root cwd ppid pid env fds, no_startup_files w ->
  asks args Prompt -> List.length args <> 1%nat ->
  exists s', main w n k args [] (Shell (fresh_image root cwd ppid pid env fds) []) = (OBlock, s') /\
    printed (js (im s')) = map (fun a => lit "arg: " ++ a) args.
Proof.
  intros w n k args root cwd ppid pid env fds Hn Ha Hl. set (s := Shell (fresh_image root cwd ppid pid env fds) []).
  set (c := Context (default_vars root cwd ppid pid env) [] []).
  pose proof (parse_args_asks args Prompt (cm (im s)) Ha) as Hp. cbn [wanted_front] in Hp.
  rewrite (proj2 (Nat.eqb_neq _ _) Hl) in Hp.
  destruct (main_starts w n k args [] s _ _ c Hp eq_refl eq_refl) as (s1 & E & Htr & Hi & Hj & Hm & Hpr).
  rewrite E. rewrite (seq_ok _ _ s1 tt s1 (startup_none w n _ s1 (proj1 (Hn _)))).
  rewrite (seq_ok _ _ s1 tt s1 (startup_none w n _ s1 (proj2 (Hn _)))). cbn [goes_on interactive].
  exists (Shell (at_prompt (im s1)) (trace s1)). split; [|exact Hpr]. rewrite (seq_ok (change at_prompt) _ s1 tt _ eq_refl). apply loop_session.
  destruct (default_prompt root cwd ppid pid env (ctx_put_var (lit "0") (Var (kept (lit "rsh")) false) empty_context) eq_refl) as [v Hv].
  apply (session_waits w n _ v). cbn [im cm at_prompt with_history_location with_handlers]. rewrite Hi. exact Hv.
Qed.
Example C81_example : asks (words ["rsh"; "-i"]%string) Prompt /\ no_startup_files (plain_os "").
Proof.
  split; [|apply plain_no_startup]. apply (asks_prompt (lit "rsh") (words ["-i"]%string)); try discriminate.
  - intros (t & E & _). discriminate.
  - constructor; [|constructor]. split; [eexists; reflexivity|]. intros (t & E & H); injection E as <-; cbn in H; intuition discriminate.
Qed.

(** With [-c] the words up to it are printed, and then the other words as the
    text of a list: between brackets and quotes, with escapes. *)
Inductive escaped : str -> str -> Prop :=
| escaped_end : escaped [] []
| escaped_plain c t u : ~ In c [34; 92; 10; 9; 13; 0]%N -> escaped t u -> escaped (c :: t) (c :: u)
| escaped_quote c t u : In c [34; 92]%N -> escaped t u -> escaped (c :: t) (92 :: c :: u)%N
| escaped_newline t u : escaped t u -> escaped (10 :: t)%N (lit "\n" ++ u)
| escaped_tab t u : escaped t u -> escaped (9 :: t)%N (lit "\t" ++ u)
| escaped_return t u : escaped t u -> escaped (13 :: t)%N (lit "\r" ++ u)
| escaped_nul t u : escaped t u -> escaped (0 :: t)%N (lit "\0" ++ u).
Inductive listed : list str -> str -> Prop :=
| listed_none : listed [] []
| listed_one w u : escaped w u -> listed [w] (lit """" ++ u ++ lit """")
| listed_more w u x ws t : escaped w u -> listed (x :: ws) t -> listed (w :: x :: ws) (lit """" ++ u ++ lit """, " ++ t).
Lemma debug_escaped t : escaped t (List.concat (map debug_char t)).
Proof.
  induction t as [|c t IH]; [constructor|]. cbn [map List.concat]. unfold debug_char at 1.
  change (ch """") with 34%N.
  destruct (N.eqb_spec c 34) as [->|]; [apply escaped_quote; [cbn; auto|exact IH]|].
  destruct (N.eqb_spec c 92) as [->|]; [apply escaped_quote; [cbn; auto|exact IH]|].
  destruct (N.eqb_spec c 10) as [->|]; [apply escaped_newline, IH|].
  destruct (N.eqb_spec c 9) as [->|]; [apply escaped_tab, IH|].
  destruct (N.eqb_spec c 13) as [->|]; [apply escaped_return, IH|].
  destruct (N.eqb_spec c 0) as [->|]; [apply escaped_nul, IH|].
  apply escaped_plain; [|exact IH]. cbn. intuition congruence.
Qed.
Lemma debug_listed ws : exists t, debug_list ws = lit "[" ++ t ++ lit "]" /\ listed ws t.
Proof.
  set (q := fun w => lit """" ++ List.concat (map debug_char w) ++ lit """").
  exists (join (lit ", ") (map q ws)).
  split; [reflexivity|]. induction ws as [|w [|x ws] IH]; [constructor|constructor; apply debug_escaped|].
  change (join (lit ", ") (map q (w :: x :: ws))) with (q w ++ lit ", " ++ join (lit ", ") (map q (x :: ws))).
  revert IH. generalize (join (lit ", ") (map q (x :: ws))). intros t IH. unfold q. rewrite <- !app_assoc.
  apply (listed_more w _ x ws t (debug_escaped w) IH).
Qed.
Theorem C81_commands_refuted : forall w n k p opts d ws ins root cwd ppid pid env fds,
  p <> [] -> ~ command_option p -> Forall other_option opts -> command_option d -> no_startup_files w ->
  exists s1 t, listed ws t /\ printed (js (im s1)) = map (fun a => lit "arg: " ++ a) (p :: opts ++ [d]) ++ [lit "[" ++ t ++ lit "]"] /\
    begun (lit "rsh") [] (Shell (fresh_image root cwd ppid pid env fds) []) s1 /\
    main w n k (p :: opts ++ d :: ws) ins (Shell (fresh_image root cwd ppid pid env fds) []) =
    match parse (join (lit " ") ws) with
    | None => (OPanic, s1)
    | Some _ =>
        match exec_text w n (join (lit " ") ws) s1 with
        | (OOk _, s') | (OErr _, s') => (OOk tt, s')
        | (o, s') => (lift o, s')
        end
    end.
Proof.
  intros w n k p opts d ws ins root cwd ppid pid env fds Hp Hc Hf Hd Hn. set (s := Shell (fresh_image root cwd ppid pid env fds) []).
  set (c := Context (default_vars root cwd ppid pid env) [] []).
  destruct (debug_listed ws) as (t & Et & Hl).
  assert (Hpa : parse_args (p :: opts ++ d :: ws) (cm (im s)) =
    Some (Some (join (lit " ") ws), Front false (lit "rsh") (cm (im s)) (announce (p :: opts ++ [d]) ++ [lit "[" ++ t ++ lit "]"]))).
  { unfold parse_args. rewrite app_comm_cons. rewrite (proj2 (Nat.eqb_neq _ _)).
    2:{ rewrite app_length. cbn [List.length]. lia. }
    cbn [app]. rewrite (scan_first p _ _ Hp Hc), (scan_options _ Hf), (scan_command d _ _ _ _ _ Hd).
    assert (Hs : skipn (S (1 + List.length opts)) (p :: opts ++ d :: ws) = ws).
    { cbn [plus skipn]. clear. induction opts as [|x opts IH]; [reflexivity|exact IH]. }
    match goal with |- context [skipn ?a ?b] => replace (skipn a b) with ws by (symmetry; exact Hs) end.
    cbn [show shown script_name f_cm]. rewrite Et. do 2 f_equal. f_equal.
    cbn [announce map app]. rewrite announce_app. reflexivity. }
  destruct (main_starts w n k (p :: opts ++ d :: ws) ins s _ _ c Hpa eq_refl eq_refl) as (s1 & E & Htr & Hi & Hj & Hm & Hpr).
  exists s1, t. split; [exact Hl|]. split; [exact Hpr|].
  split; [apply (begun_from (lit "rsh") [] s s1 c c); auto; intros [|j] a Hj'; discriminate|].
  rewrite E. rewrite (seq_ok _ _ s1 tt s1 (startup_none w n _ s1 (proj1 (Hn _)))).
  rewrite (seq_ok _ _ s1 tt s1 (startup_none w n _ s1 (proj2 (Hn _)))). cbn [goes_on]. unfold read_from_args.
  destruct (parse (join (lit " ") ws)) as [cc|] eqn:Ep; [|reflexivity].
  rewrite (bind_ok (unwrap (Some cc)) _ s1 cc s1 eq_refl). rewrite drop_error. unfold exec_text. rewrite Ep. reflexivity.
Qed.
Example C81_commands_example :
  let ws := [lit "a ""b""" ++ [9; 13]%N; lit "c"] in
  listed ws (lit """a \""b\""\t\r"", ""c""") /\
  printed (js (im (snd (main (plain_os "") 5 0 (words ["rsh"; "-c"]%string ++ ws) [] (Shell ex_fresh []))))) =
    words ["arg: rsh"; "arg: -c"; "[""a \""b\""\t\r"", ""c""]"]%string.
Proof.
  split.
  - refine (listed_more _ (lit "a \""b\""\t\r") _ _ _ _ (listed_one _ (lit "c") _)).
    + repeat first [apply escaped_end | apply escaped_tab with (u := _) | apply escaped_return | apply escaped_quote; [cbn; auto; fail|] | apply escaped_plain; [cbn; intuition discriminate|]].
    + repeat first [apply escaped_end | apply escaped_plain; [cbn; intuition discriminate|]].
  - vm_compute. reflexivity.
Qed.

(** And a script's name and arguments are printed before it starts. *)
Theorem C81_script_refuted : forall w n k args file as_ ins root cwd ppid pid env fds,
  asks args (Script file as_) -> ~ too_many_digits 0 file ->
  (forall i a, nth_error as_ i = Some a -> ~ too_many_digits (1 + N.of_nat i) a) -> no_startup_files w ->
  exists s1, begun file as_ (Shell (fresh_image root cwd ppid pid env fds) []) s1 /\
    printed (js (im s1)) = map (fun a => lit "arg: " ++ a) args /\
    main w n k args ins (Shell (fresh_image root cwd ppid pid env fds) []) = script_loop w n k file s1.
Proof.
  intros w n k args file as_ ins root cwd ppid pid env fds Ha H0 Hd Hn. set (s := Shell (fresh_image root cwd ppid pid env fds) []).
  set (c := Context (default_vars root cwd ppid pid env) [] []).
  assert (Hc : cm (im s) = one_scope c) by reflexivity.
  pose proof (parse_args_asks args (Script file as_) (cm (im s)) Ha) as Hp. cbn [wanted_front] in Hp. rewrite Hc in Hp.
  destruct (store_one as_ 1 c Hd) as (c' & E' & Hs & Hk). rewrite E', <- Hc in Hp.
  destruct (main_starts w n k args ins s _ _ c' Hp eq_refl) as (s1 & E & Htr & Hi & Hj & Hm & Hpr).
  { cbn [script_name]. apply not_true_is_false. exact H0. }
  exists s1. split; [apply (begun_from file as_ s s1 c c'); auto|]. split; [exact Hpr|].
  rewrite E. rewrite (seq_ok _ _ s1 tt s1 (startup_none w n _ s1 (proj1 (Hn _)))).
  rewrite (seq_ok _ _ s1 tt s1 (startup_none w n _ s1 (proj2 (Hn _)))). reflexivity.
Qed.
Example C81_script_example :
  asks (words ["rsh"; "file"; "one"]%string) (Script (lit "file") (words ["one"]%string)) /\
  printed (js (im (snd (main (plain_os "A=1
") 5 3 (words ["rsh"; "file"; "one"]%string) [] (Shell ex_fresh []))))) = words ["arg: rsh"; "arg: file"; "arg: one"]%string.
Proof.
  split; [|vm_compute; reflexivity].
  apply (asks_script (lit "rsh") [] (lit "file") (words ["one"]%string)); try discriminate.
  - intros (t & E & _). discriminate.
  - constructor.
  - intros [t E]. discriminate.
  - repeat constructor; discriminate.
Qed.

(** * C82: the exit status of the shell *)

(** [exit] decides the exit status of [rsh -c]. *)
Theorem C82_exit_partial : forall w n k args ins root cwd ppid pid env fds t,
  asks args (Commands t) -> no_startup_files w ->
  let s := Shell (fresh_image root cwd ppid pid env fds) [] in
  exists s1, begun (lit "rsh") [] s s1 /\
    (forall c s', exec_text w n t s1 = (OExit c, s') -> exit_code (fst (main w n k args ins s)) = Some c) /\
    (parse t = None -> exit_code (fst (main w n k args ins s)) = Some 101).
Proof.
  intros w n k args ins root cwd ppid pid env fds t Ha Hn s.
  destruct (C54_commands w n k args ins root cwd ppid pid env fds t Ha Hn) as (s1 & Hb & H1 & H2).
  exists s1. split; [exact Hb|]. split.
  - intros c s' He. unfold s. rewrite H1, He; [reflexivity|]. intros Hp. unfold exec_text in He. rewrite Hp in He. discriminate.
  - intros Hp. unfold s. rewrite (H2 Hp). reflexivity.
Qed.
(** The full statement fails: whatever the status of the last command, and
    whether there was an error, the exit status is 0. *)
Theorem C82_status_refuted : forall w n k args ins root cwd ppid pid env fds t,
  asks args (Commands t) -> no_startup_files w -> parse t <> None ->
  let s := Shell (fresh_image root cwd ppid pid env fds) [] in
  exists s1, begun (lit "rsh") [] s s1 /\
    forall r s', exec_text w n t s1 = (r, s') -> returns r -> exit_code (fst (main w n k args ins s)) = Some 0.
Proof.
  intros w n k args ins root cwd ppid pid env fds t Ha Hn Hp s.
  destruct (C54_commands w n k args ins root cwd ppid pid env fds t Ha Hn) as (s1 & Hb & H1 & H2).
  exists s1. split; [exact Hb|]. intros r s' He Hr. unfold s. rewrite (H1 Hp), He. destruct r; try contradiction; reflexivity.
Qed.
Example C82_example :
  (let r := main (plain_os "") 5 0 (words ["rsh"; "-c"; "false"]%string) [] (Shell ex_fresh []) in
   exit_code (fst r) = Some 0 /\ exit_status (im (snd r)) = 1) /\
  exit_code (fst (main (plain_os "") 5 0 (words ["rsh"; "-c"; "exit"; "3"]%string) [] (Shell ex_fresh []))) = Some 3 /\
  exit_code (fst (main (plain_os "") 5 0 (words ["rsh"; "-c"; "unset"]%string) [] (Shell ex_fresh []))) = Some 0.
Proof. split; [split; vm_compute; reflexivity|]. split; vm_compute; reflexivity. Qed.

(** * C83: commands over several lines *)

Lemma in_order_app {A} (run : A -> M Z) a : forall b st s ran z s', in_order run st s (a ++ b) ran (OOk z) s' ->
  exists z1 s1 r1 r2, in_order run st s a r1 (OOk z1) s1 /\ in_order run z1 s1 b r2 (OOk z) s'.
Proof.
  induction a as [|x a IH]; intros b st s ran z s' H.
  - exists st, s, [], ran. split; [constructor|exact H].
  - cbn [app] in H. inversion H as [|st0 s0 x0 l0 st1 s1 ran1 o0 s2 Hx Hrest|]; subst; try contradiction.
    destruct (IH _ _ _ _ _ _ Hrest) as (z1 & s3 & r1 & r2 & H1 & H2).
    exists z1, s3. do 2 eexists. split; [eapply in_order_run; eassumption|exact H2].
Qed.

(** A script of whole commands, some on each line, that run without failing
    leaves the shell as the whole text would, typed on one line. *)
Theorem C83_whole_partial : forall w n ls s z s', Forall (fun l => l <> [] /\ Forall wf_andor l) ls -> ls <> [] ->
  exec_text w n (render (List.concat ls)) s = (OOk z, s') ->
  lines_run w n (map (fun l => render l ++ [10%N]) ls) s s'.
Proof.
  intros w n ls s z s' Hf Hne H.
  assert (Hc : List.concat ls <> []).
  { destruct Hf as [|l ls [Hl _] _]; [congruence|]. destruct l; [congruence|discriminate]. }
  assert (Hw : Forall wf_andor (List.concat ls)).
  { clear -Hf. induction Hf as [|l ls [_ Hl] _ IH]; [constructor|]. apply Forall_app. split; assumption. }
  apply (exec_list w n _ 0 s (OOk z) s' Hc Hw) in H. destruct H as [ran H]. clear Hc Hw Hne.
  revert s ran H. generalize 0 as st. induction Hf as [|l ls [Hl Hwl] _ IH]; intros st s ran H.
  - inversion H; subst. constructor.
  - cbn [List.concat] in H. apply in_order_app in H. destruct H as (z1 & s1 & r1 & r2 & H1 & H2). cbn [map].
    assert (Ep : parse (render l ++ [10%N]) = Some (Some l)) by exact (GrammarFacts.render_parse_newline l Hl Hwl).
    assert (E : exec_text w n (render l ++ [10%N]) s = (OOk z1, s1)).
    { transitivity (exec_text w n (render l) s).
      - unfold exec_text. rewrite Ep, (GrammarFacts.render_parse l Hl Hwl). reflexivity.
      - apply (exec_list w n l st s (OOk z1) s1 Hl Hwl). eauto. }
    eapply lines_next; [|exact E|exact I|exact (IH _ _ _ H2)]. rewrite Ep. discriminate.
Qed.
Example C83_example :
  lines_run ex_os 5 [lit "A=1 ;true
"; lit "B=2
"] ex_shell (snd (exec_text ex_os 5 (lit "A=1 ;true ;B=2") ex_shell)) /\
  expand_var (cm (im (snd (exec_text ex_os 5 (lit "A=1 ;true ;B=2") ex_shell)))) (lit "B") = Some (lit "2").
Proof.
  split; [|vm_compute; reflexivity].
  eapply lines_next; [discriminate|vm_compute; reflexivity|exact I|]. eapply lines_next; [discriminate|vm_compute; reflexivity|exact I|].
  vm_compute. constructor.
Qed.
(** The full statement fails: the text of a function over several lines is a
    command, and it can be read by [.], but as a script it crashes the shell at
    its first line. *)
Definition several_lines : string := "f() {
true
}
f
".
Theorem C83_refuted :
  (exists s1, exec_text (plain_os several_lines) 5 (lit several_lines) (Shell ex_fresh []) = (OOk 0, s1) /\
     ran_commands (trace s1) = [lit "true"]) /\
  (exists s1, exec_text (plain_os several_lines) 5 (lit "source file") (Shell ex_fresh []) = (OOk 0, s1) /\
     ran_commands (trace s1) = [lit "true"]) /\
  (forall k, exists s1, script_loop (plain_os several_lines) 5 (S k) (lit "file") (Shell ex_fresh []) = (OPanic, s1) /\
     ran_commands (trace s1) = []).
Proof.
  split; [eexists; split; vm_compute; reflexivity|]. split; [eexists; split; vm_compute; reflexivity|].
  intros k. exists (opened (lit "file") (Shell ex_fresh [])). split; [|vm_compute; reflexivity].
  apply (C55_bad_line_partial (plain_os several_lines) 5 (lit "file") (lit several_lines) [] (lit "f() {
") [lit "true
"; lit "}
"; lit "f
"] _ (opened (lit "file") (Shell ex_fresh []))); [split; reflexivity| |constructor|vm_compute; reflexivity].
  assert (H : forall x t ls, ~ In 10%N (lit x) -> cut_into (lit t) ls -> cut_into (lit x ++ [10%N] ++ lit t) ((lit x ++ [10%N]) :: ls)) by (intros; constructor; assumption).
  apply (H "f() {" "true
}
f
")%string; [intros K; cbn in K; intuition discriminate|].
  apply (H "true" "}
f
")%string; [intros K; cbn in K; intuition discriminate|].
  apply (H "}" "f
")%string; [intros K; cbn in K; intuition discriminate|].
  apply (H "f" "")%string; [intros K; cbn in K; intuition discriminate|constructor].
Qed.

(** * C84: jobs that end while the shell is at the prompt *)

(** While the signals are not blocked, the end of a background job is noticed:
    the job is gone from the table. *)
Theorem C84_noticed_partial : forall w n ins s p c id j q rest, has_prompt s -> listening s ->
  JobsFacts.basic (jobs (js (im s))) ->
  r_waits (w (trace s)) = AStatus (Exited p c) :: rest ->
  nget p (pid_to_job (jobs (js (im s)))) = Some id -> nget id (job_table (jobs (js (im s)))) = Some j ->
  background j = true -> processes j = [q] -> p_pid q = p ->
  exists s1, interactive_loop w n (TChild :: ins) s = interactive_loop w n ins s1 /\
    nget id (job_table (jobs (js (im s1)))) = None /\
    (forall k, k <> id -> nget k (job_table (jobs (js (im s1)))) = nget k (job_table (jobs (js (im s))))) /\
    im s1 = with_js (js (im s1)) (im s) /\ listening s1.
Proof.
  intros w n ins s p c id j q rest Hp Hl B Hw Hpid Hj Hb Hq Hqp.
  unfold has_prompt in Hp. destruct (get_var (lit "PS1") (cm (im s))) as [v|] eqn:E; [|congruence].
  destruct (PropertiesJobs.C39_handler_background (expand_var (cm (im s)) (lit "PS4")) (Exited p c) p rest (js (im s)) id j q B) as (j' & Hs & Hm & Ho & H1 & _);
    try assumption; [constructor|].
  exists (Shell (with_js j' (im s)) (EWait (-1) :: trace s)). split; [|split; [exact H1|split; [exact Ho|split; [reflexivity|]]]].
  - destruct (interactive_loop w n ins _) as [o s'] eqn:Er. apply loop_session. apply loop_session in Er.
    eapply session_child; [exact E|exact Hl|rewrite Hw; exact Hs|exact Er].
  - destruct Hl as (L1 & L2 & L3). split; [cbn; rewrite Hm; exact L1|]. split; assumption.
Qed.
(** The example: a job started in the background, that ends. *)
Definition ended_os : os := fun t => plain_reports (ex_os t) [].
Example C84_example :
  let s := snd (main ended_os 5 0 (words ["rsh"]%string) [TLine (lit "sleep &")] (Shell ex_fresh [])) in
  has_prompt s /\ listening s /\ r_waits (ended_os (trace s)) = [AStatus (Exited 100 0); AFail] /\
  nget 100 (pid_to_job (jobs (js (im s)))) = Some 1 /\
  (exists j q, nget 1 (job_table (jobs (js (im s)))) = Some j /\ background j = true /\ processes j = [q] /\ p_pid q = 100).
Proof.
  cbv zeta. split; [vm_compute; discriminate|]. split; [vm_compute; auto|]. split; [vm_compute; reflexivity|]. split; [vm_compute; reflexivity|].
  do 2 eexists. split; [vm_compute; reflexivity|]. split; [reflexivity|]. split; reflexivity.
Qed.

(** The full statement fails: after any line that leaves the signals blocked
    the shell is deaf; the definition of a function is such a line. *)
Theorem C84_refuted : forall w n t ins s,
  (exists r s1, parse t <> None /\ exec_text w n t s = (r, s1) /\ returns r /\ masked (js (im s1)) = true) ->
  interactive_loop w n (TLine t :: TChild :: ins) s = interactive_loop w n (TLine t :: ins) s.
Proof.
  intros w n t ins s (r & s1 & Hp & He & Hr & Hm).
  destruct (get_var (lit "PS1") (cm (im s))) as [v|] eqn:E.
  2:{ transitivity (@OPanic unit, s); [|symmetry]; apply loop_session; apply session_no_prompt; exact E. }
  destruct (interactive_loop w n ins s1) as [o s'] eqn:Er.
  transitivity (o, s'); [|symmetry]; apply loop_session; (eapply session_line; [exact E|exact Hp|exact He|exact Hr|]).
  - destruct (get_var (lit "PS1") (cm (im s1))) as [v1|] eqn:E1.
    + eapply session_deaf; [exact E1| |apply loop_session; exact Er]. intros [L _]. congruence.
    + apply loop_session in Er. inversion Er; subst; try congruence. apply session_no_prompt. exact E1.
  - apply loop_session. exact Er.
Qed.
Corollary C84_function_refuted : forall w d name body redirs ins s, wf_command (CFunction name body redirs) ->
  let t := r_pipeline (Pipeline false [CFunction name body redirs] false) in
  interactive_loop w (S d) (TLine t :: TChild :: ins) s = interactive_loop w (S d) (TLine t :: ins) s.
Proof.
  intros w d name body redirs ins s Hw t. apply C84_refuted.
  destruct (proj1 (C48_blocked_refuted w d s) name body redirs Hw) as (s1 & E & Hm).
  exists (OOk 0), s1. split; [|split; [exact E|split; [exact I|exact Hm]]].
  intros Hp. unfold exec_text in E. fold t in E. rewrite Hp in E. discriminate.
Qed.
Example C84_refuted_example :
  let s := snd (main ended_os 5 0 (words ["rsh"]%string) [TLine (lit "sleep &"); TLine (lit "A=1"); TChild; TChild] (Shell ex_fresh [])) in
  exists j, nget 1 (job_table (jobs (js (im s)))) = Some j /\ state j = Running.
Proof. eexists. split; vm_compute; reflexivity. Qed.

Print Assumptions C78_session.
Print Assumptions C78_errors.
Print Assumptions C78_ends.
Print Assumptions C78_refuted.
Print Assumptions C79_reachable.
Print Assumptions C79_invariants.
Print Assumptions C79_files_partial.
Print Assumptions C80_startup_partial.
Print Assumptions C80_profile_partial.
Print Assumptions C80_syntax_error.
Print Assumptions C80_refuted.
Print Assumptions C81_quiet_partial.
Print Assumptions C81_refuted.
Print Assumptions C81_commands_refuted.
Print Assumptions C81_script_refuted.
Print Assumptions C82_exit_partial.
Print Assumptions C82_status_refuted.
Print Assumptions C83_whole_partial.
Print Assumptions C83_refuted.
Print Assumptions C84_noticed_partial.
Print Assumptions C84_refuted.
Print Assumptions C84_function_refuted.
