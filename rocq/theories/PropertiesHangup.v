(** C143 at the prompt: a signal that is sent to a shell that waits for a line. *)
From Verif Require Import Base BaseFacts Ast Parser Context Alias Expand ExpandSpec Jobs Shell Builtins Eval EvalSpec EvalFacts EvalLaws.
From Verif Require Import GrammarSpec RunSpec RunLaws Main MainSpec MainLaws PropertiesEval PropertiesBuiltins PropertiesSession.
From Verif Require GrammarFacts Trap Queue PropertiesTrap PropertiesQueue.

(** The process of an interactive shell in state [s], whose signals were set up
    as in [t0]; nothing has been sent to it so far. *)
Definition process_of (t0 : Trap.trap_state) (s : shell) : Queue.process :=
  PropertiesQueue.quiet (if masked (js (im s)) then Trap.interrupts_off t0 else Trap.interrupts_on t0).
(** A signal that should end the shell: a hangup of the terminal, [kill]. *)
Definition ends_shell (inherited : signal -> Trap.disposition) (k : signal) : Prop :=
  inherited k = Trap.SigDfl /\ Trap.default_action k = Trap.Kill /\ k <> SIGPIPE /\ ~ PropertiesQueue.gets_through k.

Lemma left_alone inherited t0 k : Trap.set_up (Trap.initial inherited) = Some t0 -> ends_shell inherited k ->
  Trap.actions t0 k = Trap.SigDfl.
Proof.
  intros Hs (Hi & Hd & Hp & Hg). rewrite PropertiesTrap.set_up_eq in Hs. injection Hs as <-. unfold PropertiesQueue.gets_through in Hg.
  destruct k; cbn; try exact Hi; try congruence; try (exfalso; apply Hg; tauto); discriminate.
Qed.
Lemma unblocked_dies inherited t0 k wr order s : Trap.set_up (Trap.initial inherited) = Some t0 ->
  ends_shell inherited k -> masked (js (im s)) = false -> Queue.send wr k order (process_of t0 s) = Queue.Dies k.
Proof.
  intros Hs Hk Hm. pose proof (left_alone _ _ _ Hs Hk) as Ha. destruct Hk as (_ & Hd & _).
  unfold process_of. rewrite Hm. unfold Queue.send, Queue.take, Trap.deliver.
  cbn [PropertiesQueue.quiet Queue.signals Trap.interrupts_on Trap.with_masked Trap.masked Trap.actions].
  rewrite Ha, Hd. reflexivity.
Qed.
Lemma blocked_lives inherited t0 k wr order s : Trap.set_up (Trap.initial inherited) = Some t0 ->
  ends_shell inherited k -> masked (js (im s)) = true ->
  exists p, Queue.send wr k order (process_of t0 s) = Queue.Lives p /\ Queue.heard p = [] /\
    forall wr' order', Queue.step (Queue.On wr' order') p = Queue.Dies k.
Proof.
  intros Hs Hk Hm. pose proof (left_alone _ _ _ Hs Hk) as A. destruct Hk as (Hi & Hd & Hp & Hg).
  destruct (PropertiesQueue.C143_interrupt_refuted inherited t0 wr order k Hs Hi Hd Hg Hp) as [E _].
  assert (X : Queue.send wr k order (process_of t0 s) = Queue.Lives (Queue.Process (Trap.interrupts_off t0) (Trap.upd (fun _ => false) k true) [])).
  { unfold process_of. rewrite Hm. cbn [Queue.goes_through Queue.step PropertiesQueue.quiet Queue.signals Queue.held Queue.heard] in E.
    unfold PropertiesQueue.quiet. destruct (Queue.send wr k order _) eqn:S in E; [|discriminate|discriminate]. rewrite S. exact E. }
  eexists. split; [exact X|]. split; [reflexivity|]. intros wr' order'.
  cbn [Queue.step Queue.signals Queue.held Queue.heard].
  match goal with |- Queue.let_in _ _ ?p = _ =>
    destruct (PropertiesQueue.let_in_kills wr' (order' ++ Trap.all_signals) p k) as (k' & Ek & Hk) end.
  - cbn [Queue.held]. rewrite PropertiesQueue.upd_at. rewrite (proj2 (PropertiesQueue.eqb_true k k) eq_refl). reflexivity.
  - apply in_or_app. right. apply PropertiesQueue.every_signal.
  - exact A.
  - exact Hd.
  - intros x Hx ->. cbn [Queue.held] in Hx. rewrite PropertiesQueue.upd_at in Hx.
    destruct (PropertiesQueue.eqb_spec k SIGINT) as [[E1 _]|[_ Q]]; [apply Hg; left; exact E1|]. rewrite Q in Hx. discriminate.
  - cbn [Queue.held] in Hk. rewrite PropertiesQueue.upd_at in Hk.
    destruct (PropertiesQueue.eqb_spec k k') as [[-> _]|[_ Q]]; [exact Ek|]. rewrite Q in Hk. discriminate.
Qed.

(** After a line that is a pipeline with a program or function as its first
    command, and that has not failed, the shell waits at the prompt, and a signal
    ends it.  Missing for the full statement: other lines. *)
Theorem C143_prompt_partial : forall w n b sc cs bg s st s1 inherited t0 k wr order,
  wf_pipeline (Pipeline b (CSimple sc :: cs) bg) -> check_if_builtin (sc_name sc) = false ->
  has_prompt s -> exec_text w n (r_pipeline (Pipeline b (CSimple sc :: cs) bg)) s = (OOk st, s1) -> has_prompt s1 ->
  Trap.set_up (Trap.initial inherited) = Some t0 -> ends_shell inherited k ->
  interactive_loop w n [TLine (r_pipeline (Pipeline b (CSimple sc :: cs) bg))] s = (OBlock, s1) /\
  Queue.send wr k order (process_of t0 s1) = Queue.Dies k.
Proof.
  intros w n b sc cs bg s st s1 inherited t0 k wr order Hw Hb Hs E Hs1 Ht Hk.
  pose proof (C48_unblocked_partial w n b sc cs bg s st s1 Hw Hb E) as Hm.
  split; [|apply (unblocked_dies inherited t0 k wr order s1 Ht Hk Hm)].
  unfold has_prompt in *. destruct (get_var (lit "PS1") (cm (im s))) as [v|] eqn:E0; [|congruence].
  destruct (get_var (lit "PS1") (cm (im s1))) as [v1|] eqn:E1; [|congruence].
  apply loop_session. eapply session_line; [exact E0| |exact E|exact I|eapply session_waits; exact E1].
  intros X. unfold exec_text in E. rewrite X in E. discriminate.
Qed.
Definition ex_prompt : shell := Shell (at_prompt (im (snd (set_up (PropertiesMain.plain_os "") 5 (lit "rsh") (Shell PropertiesMain.ex_fresh []))))) [].
Example C143_prompt_example :
  ends_shell (fun _ => Trap.SigDfl) SIGHUP /\ ends_shell (fun _ => Trap.SigDfl) SIGTERM /\
  has_prompt ex_prompt /\ exists s1, exec_text ex_os 5 (lit " ls") ex_prompt = (OOk 0%Z, s1) /\ has_prompt s1.
Proof.
  assert (X : forall k, k = SIGHUP \/ k = SIGTERM -> ends_shell (fun _ => Trap.SigDfl) k).
  { intros k [-> | ->]; (split; [reflexivity|]; split; [reflexivity|]; split; [discriminate|]; intros Y; destruct Y as [Y|[Y|[Y|Y]]]; discriminate Y). }
  split; [apply X; auto|]. split; [apply X; auto|]. split; [intros Y; vm_compute in Y; discriminate Y|].
  eexists. split; [vm_compute; reflexivity|]. intros Y. vm_compute in Y. discriminate Y.
Qed.

(** The full statement fails: after [pwd], or after [cd] to a directory that is
    not there, the signal waits, and the shell with it; only the next program
    that is run ends it. *)
Theorem C143_prompt_refuted : forall w n s inherited t0 k wr order,
  has_prompt s -> Trap.set_up (Trap.initial inherited) = Some t0 -> ends_shell inherited k ->
  (forall dir, sget (lit "pwd") (al (im s)) = None -> r_cwd (w (trace s)) = Some dir ->
     exists s1 p, interactive_loop w (S n) [TLine (lit " pwd")] s = (OBlock, s1) /\
       Queue.send wr k order (process_of t0 s1) = Queue.Lives p /\ Queue.heard p = [] /\
       forall wr' order', Queue.step (Queue.On wr' order') p = Queue.Dies k) /\
  (forall x v, sget (lit "cd") (al (im s)) = None -> written_arg x -> ordinary (expand_var (cm (im s))) x v ->
     r_chdir (w (trace s)) v = false ->
     exists s1 p, interactive_loop w (S n) [TLine (r_words [lit "cd"; x])] s = (OBlock, s1) /\
       Queue.send wr k order (process_of t0 s1) = Queue.Lives p /\ Queue.heard p = [] /\
       forall wr' order', Queue.step (Queue.On wr' order') p = Queue.Dies k).
Proof.
  intros w n s inherited t0 k wr order Hs Ht Hk.
  assert (L : forall t r s1, exec_text w (S n) t s = (r, s1) -> returns r -> parse t <> None -> cm (im s1) = cm (im s) -> masked (js (im s1)) = true ->
    exists s1 p, interactive_loop w (S n) [TLine t] s = (OBlock, s1) /\
       Queue.send wr k order (process_of t0 s1) = Queue.Lives p /\ Queue.heard p = [] /\
       forall wr' order', Queue.step (Queue.On wr' order') p = Queue.Dies k).
  { intros t r s1 E R P C M. destruct (blocked_lives inherited t0 k wr order s1 Ht Hk M) as (p & A & B & D).
    exists s1, p. split; [|auto]. unfold has_prompt in Hs. destruct (get_var (lit "PS1") (cm (im s))) as [v|] eqn:E0; [|congruence].
    apply loop_session. eapply session_line; [exact E0|exact P|exact E|exact R|]. eapply session_waits. rewrite C. exact E0. }
  split.
  - intros dir Ha Hc. eapply L.
    + change (lit " pwd") with (r_words [lit "pwd"]). rewrite (C90_pwd_partial w n [] [] s Ha (Forall_nil _) (Forall2_nil _)), Hc. reflexivity.
    + exact I.
    + vm_compute. discriminate.
    + reflexivity.
    + reflexivity.
  - intros x v Ha Hx Ho Hc.
    pose proof (C89_cd_partial w n x v [] [] s Ha (Forall_cons _ Hx (Forall_nil _)) (Forall2_cons _ _ Ho (Forall2_nil _))) as E. rewrite Hc in E.
    eapply L; [exact E|exact I| |reflexivity|reflexivity].
    intros X. unfold exec_text in E. rewrite X in E. discriminate.
Qed.
Example C143_prompt_refuted_example :
  has_prompt ex_prompt /\ sget (lit "pwd") (al (im ex_prompt)) = None /\
  masked (js (im (snd (interactive_loop (fun t => let r := ex_os t in
    Reports (r_isfile r) (r_open r) (r_read r) (r_chdir r) (Some (lit "/h")) (r_kill r) (r_pipe r) (r_fork r) (r_exec r) (r_getpid r) (r_waits r) (r_subst r))
    5 [TLine (lit " ls"); TLine (lit " pwd")] ex_prompt)))) = true.
Proof. split; [intros Y; vm_compute in Y; discriminate Y|]. split; vm_compute; reflexivity. Qed.

Print Assumptions C143_prompt_partial.
Print Assumptions C143_prompt_refuted.
