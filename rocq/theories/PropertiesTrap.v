(** Signals: what is caught (C58), what is recorded (C59), what a signal does to
    an interactive shell (C87),
    and what programs inherit (C88). *)
From Verif Require Import Base Jobs Trap.
Local Open Scope Z_scope.

(** The numbers of signal(7). *)
Definition number (s : signal) : Z :=
  match s with
  | SIGHUP => 1 | SIGINT => 2 | SIGQUIT => 3 | SIGILL => 4 | SIGTRAP => 5 | SIGABRT => 6
  | SIGBUS => 7 | SIGFPE => 8 | SIGKILL => 9 | SIGUSR1 => 10 | SIGSEGV => 11 | SIGUSR2 => 12
  | SIGPIPE => 13 | SIGALRM => 14 | SIGTERM => 15 | SIGSTKFLT => 16 | SIGCHLD => 17
  | SIGCONT => 18 | SIGSTOP => 19 | SIGTSTP => 20 | SIGTTIN => 21 | SIGTTOU => 22
  | SIGURG => 23 | SIGXCPU => 24 | SIGXFSZ => 25 | SIGVTALRM => 26 | SIGPROF => 27
  | SIGWINCH => 28 | SIGIO => 29 | SIGPWR => 30 | SIGSYS => 31
  end.

(** What the claim says of a signal without a trap. *)
Definition claimed (s : signal) : disposition :=
  match s with
  | SIGINT | SIGTSTP | SIGCHLD => OnSig
  | SIGQUIT | SIGTERM | SIGTTOU => SigIgn
  | _ => SigDfl
  end.

(** What it says of a signal when there may be a trap, or in a forked child. *)
Definition wanted (forked : bool) (trap : option str) (s : signal) : disposition :=
  match trap with
  | Some _ => OnSig
  | None => if forked then match s with SIGCHLD => OnSig | _ => SigDfl end else claimed s
  end.

(** The signals no process can handle. *)
Definition fixed (s : signal) : Prop := s = SIGKILL \/ s = SIGSTOP.

(** The recorded mode of every signal agrees with what the kernel knows, and no
    signal is set to be ignored for good. *)
Definition faithful (t : trap_state) : Prop :=
  forall s, modes t s = None \/
    (~ fixed s /\ exists m, modes t s = Some m /\ m <> S_HARD_IGN /\ actions t s = handler_for m).

(** Two states that cannot be told apart. *)
Definition same (a b : trap_state) : Prop :=
  (forall s, traps a s = traps b s) /\ (forall s, modes a s = modes b s) /\
  (forall s, got a s = got b s) /\ pending a = pending b /\ got_chld a = got_chld b /\
  int_pending a = int_pending b /\ static_pending a = static_pending b /\
  (forall s, actions a s = actions b s) /\ (forall s, masked a s = masked b s).

Lemma signal_eq_dec : forall a b : signal, {a = b} + {a <> b}.
Proof. decide equality. Qed.
Lemma signal_num_inj : forall a b, signal_num a = signal_num b -> a = b.
Proof.
  intros a b H.
  assert (E : forall s, nth_error all_signals (pred (Pos.to_nat (signal_num s))) = Some s) by (destruct s; reflexivity).
  pose proof (E a) as Ea. rewrite H, E in Ea. congruence.
Qed.
Lemma upd_eq : forall A (f : signal -> A) s x s',
  upd f s x s' = if signal_eq_dec s s' then x else f s'.
Proof.
  intros. unfold upd. destruct (signal_eq_dec s s') as [->|Hne].
  - rewrite Pos.eqb_refl. reflexivity.
  - destruct (Pos.eqb_spec (signal_num s) (signal_num s')) as [E|]; [|reflexivity].
    exfalso. apply Hne, signal_num_inj, E.
Qed.
Lemma upd_same : forall A (f : signal -> A) s x, upd f s x s = x.
Proof. intros. rewrite upd_eq. destruct (signal_eq_dec s s); congruence. Qed.
Lemma upd_other : forall A (f : signal -> A) s x s', s <> s' -> upd f s x s' = f s'.
Proof. intros. rewrite upd_eq. destruct (signal_eq_dec s s'); congruence. Qed.

Lemma try_from_number : forall s, try_from (number s) = Some s.
Proof. destruct s; reflexivity. Qed.

Lemma try_from_inv : forall n s, try_from n = Some s -> n = number s.
Proof.
  intros n s H. unfold try_from in H. destruct (n <=? 0) eqn:E; [discriminate|].
  apply Z.leb_gt in E.
  assert (Hn : n = Z.of_nat (Z.to_nat (n - 1)) + 1) by lia.
  revert H Hn. generalize (Z.to_nat (n - 1)). intros k H Hn. subst n. clear E.
  do 31 (destruct k as [|k]; [cbn in H; injection H as <-; reflexivity|]).
  cbn in H. destruct k; discriminate.
Qed.

Lemma number_range : forall s, 1 <= number s <= 31.
Proof. destruct s; cbn; lia. Qed.

Lemma in_range : forall n, 1 <= n <= 31 -> exists s, n = number s.
Proof.
  intros n H.
  assert (E : exists s, try_from n = Some s).
  { unfold try_from. replace (n <=? 0) with false by (symmetry; apply Z.leb_gt; lia).
    destruct (nth_error all_signals (Z.to_nat (n - 1))) eqn:E; [eauto|].
    apply nth_error_None in E. cbn in E. lia. }
  destruct E as [s E]. exists s. exact (try_from_inv n s E).
Qed.

Lemma mode_eqb_eq : forall a b, mode_eqb a b = true <-> a = b.
Proof. destruct a, b; cbn; split; congruence. Qed.

Lemma action_wanted : forall forked s t,
  handler_for (action_for forked s t) = wanted forked (traps t s) s.
Proof.
  intros. unfold action_for, is_trap_set, wanted.
  destruct (traps t s), forked, s; reflexivity.
Qed.

Lemma handler_for_inj : forall forked s t m,
  m <> S_HARD_IGN -> handler_for m = handler_for (action_for forked s t) -> m = action_for forked s t.
Proof.
  intros forked s t m Hm. unfold action_for, is_trap_set.
  destruct (traps t s), forked, s, m; cbn; congruence.
Qed.

Lemma action_not_hard : forall forked s t, action_for forked s t <> S_HARD_IGN.
Proof.
  intros. unfold action_for, is_trap_set. destruct (traps t s), forked, s; discriminate.
Qed.

Lemma sigaction_ok : forall s d t, ~ fixed s ->
  sigaction s d t = Some (with_actions (upd (actions t) s d) t).
Proof. intros s d t H. unfold fixed in H. destruct s; try reflexivity; exfalso; intuition. Qed.

(** * C58: setting one signal up *)

(** Setting a signal up does to it what the claim says, whatever traps there are
    and whatever was set up before, and touches no other signal. *)
Theorem C58_disposition_partial :
  forall forked s t, faithful t -> ~ fixed s ->
  exists t', set_signal forked (number s) t = Some t' /\
    actions t' s = wanted forked (traps t s) s /\
    (forall s', s' <> s -> actions t' s' = actions t s') /\
    (forall s', s' <> s -> modes t' s' = modes t s') /\
    traps t' = traps t /\ got t' = got t /\ pending t' = pending t /\ masked t' = masked t /\
    (forked = false -> faithful t').
Proof.
  intros forked s t Hf Hs. unfold set_signal. rewrite try_from_number.
  destruct (Hf s) as [Em|(_ & m & Em & Hm & Ea)].
  - rewrite Em. cbn [orb]. rewrite sigaction_ok by exact Hs.
    eexists. split; [reflexivity|].
    assert (Ea : actions (if forked then t else with_modes (upd (modes t) s (Some (action_for forked s t))) t) = actions t)
      by (destruct forked; reflexivity).
    cbn [actions with_actions]. rewrite Ea. rewrite upd_same, action_wanted.
    repeat split.
    + intros s' Hne. apply upd_other. congruence.
    + intros s' Hne. destruct forked; cbn; [reflexivity|]. apply upd_other. congruence.
    + destruct forked; reflexivity.
    + destruct forked; reflexivity.
    + destruct forked; reflexivity.
    + destruct forked; reflexivity.
    + intros -> s'. cbn. rewrite !upd_eq. destruct (signal_eq_dec s s') as [<-|Hne].
      * right. split; [exact Hs|]. exists (action_for false s t).
        split; [reflexivity|]. split; [apply action_not_hard|]. symmetry. apply action_wanted.
      * apply Hf.
  - rewrite Em. replace (mode_eqb m S_HARD_IGN) with false by (destruct m; congruence || reflexivity).
    cbn [orb]. destruct (mode_eqb m (action_for forked s t)) eqn:E.
    + apply mode_eqb_eq in E. exists t. rewrite Ea, E, action_wanted. repeat split; auto.
    + rewrite sigaction_ok by exact Hs.
      eexists. split; [reflexivity|].
      assert (Ea' : actions (if forked then t else with_modes (upd (modes t) s (Some (action_for forked s t))) t) = actions t)
        by (destruct forked; reflexivity).
      cbn [actions with_actions]. rewrite Ea'. rewrite upd_same, action_wanted.
      repeat split.
      * intros s' Hne. apply upd_other. congruence.
      * intros s' Hne. destruct forked; cbn; [reflexivity|]. apply upd_other. congruence.
      * destruct forked; reflexivity.
      * destruct forked; reflexivity.
      * destruct forked; reflexivity.
      * destruct forked; reflexivity.
      * intros -> s'. cbn. rewrite !upd_eq. destruct (signal_eq_dec s s') as [<-|Hne].
        -- right. split; [exact Hs|]. exists (action_for false s t).
           split; [reflexivity|]. split; [apply action_not_hard|]. symmetry. apply action_wanted.
        -- apply Hf.
Qed.

Lemma initial_faithful : forall d, faithful (initial d).
Proof. intros d s. left. reflexivity. Qed.

(** Twice is the same as once, for every trap table and every state. *)
Theorem C58_twice :
  forall forked n t t', set_signal forked n t = Some t' ->
  exists t'', set_signal forked n t' = Some t'' /\ same t' t''.
Proof.
  intros forked n t t' H. unfold set_signal in H.
  destruct (try_from n) as [s|] eqn:En; [|discriminate].
  assert (Hsame : forall x, same x x) by (intro x; unfold same; repeat split; reflexivity).
  destruct (match modes t s with Some m => mode_eqb m S_HARD_IGN || mode_eqb m (action_for forked s t) | None => false end) eqn:Ed.
  - injection H as <-. exists t. unfold set_signal. rewrite En, Ed. auto.
  - assert (Hs : ~ fixed s) by (intros [->| ->]; discriminate).
    rewrite sigaction_ok in H by exact Hs. injection H as <-.
    unfold set_signal. rewrite En. destruct forked.
    + eexists. cbn [modes with_actions traps].
      replace (action_for true s (with_actions (upd (actions t) s (handler_for (action_for true s t))) t))
        with (action_for true s t) by reflexivity.
      rewrite Ed, sigaction_ok by exact Hs. split; [reflexivity|].
      unfold same; cbn. repeat split. intro s'. rewrite !upd_eq.
      destruct (signal_eq_dec s s'); reflexivity.
    + cbn [modes with_actions with_modes]. rewrite upd_same.
      replace (action_for false s (with_actions _ _)) with (action_for false s t) by reflexivity.
      replace (mode_eqb (action_for false s t) (action_for false s t)) with true
        by (symmetry; apply mode_eqb_eq; reflexivity).
      rewrite orb_true_r. eexists. split; [reflexivity|apply Hsame].
Qed.

(** It fails exactly for numbers that are no signal, and for the two signals
    that cannot be handled. *)
Theorem C58_crash :
  forall forked n t, faithful t ->
  (set_signal forked n t = None <-> (n < 1 \/ 31 < n \/ n = 9 \/ n = 19)).
Proof.
  intros forked n t Hf. split.
  - intro H. destruct (Z_lt_dec n 1); [tauto|]. destruct (Z_lt_dec 31 n); [tauto|].
    destruct (in_range n) as [s ->]; [lia|].
    destruct (signal_eq_dec s SIGKILL) as [->|Hk]; [cbn; tauto|].
    destruct (signal_eq_dec s SIGSTOP) as [->|Hst]; [cbn; tauto|].
    destruct (C58_disposition_partial forked s t Hf) as (t' & E & _); [unfold fixed; tauto|congruence].
  - intro H. unfold set_signal.
    destruct (try_from n) as [s|] eqn:E; [|reflexivity].
    apply try_from_inv in E. pose proof (number_range s).
    assert (Hs : s = SIGKILL \/ s = SIGSTOP) by (destruct s; cbn in E; (tauto || lia)).
    assert (Em : modes t s = None) by (destruct (Hf s) as [?|[Hn _]]; [assumption|unfold fixed in Hn; tauto]).
    rewrite Em. destruct Hs as [-> | ->]; reflexivity.
Qed.

(** * C58: what an interactive shell sets up *)

(** An interactive shell catches SIGINT, SIGTSTP and SIGCHLD, and leaves every
    other signal as it found it (SIGPIPE is ignored by the language's runtime). *)
Theorem C58_startup_partial :
  forall inherited, exists t, set_up (initial inherited) = Some t /\ faithful t /\
  forall s, actions t s =
    match s with
    | SIGINT | SIGTSTP | SIGCHLD => OnSig
    | SIGPIPE => SigIgn
    | _ => inherited s
    end.
Proof.
  intro d. unfold set_up.
  destruct (C58_disposition_partial false SIGCHLD (initial d) (initial_faithful d)) as
    (t1 & E1 & A1 & O1 & _ & T1 & _ & _ & _ & F1); [intros [?|?]; discriminate|].
  cbn [number] in E1. rewrite E1.
  destruct (C58_disposition_partial false SIGTSTP t1 (F1 eq_refl)) as
    (t2 & E2 & A2 & O2 & _ & T2 & _ & _ & _ & F2); [intros [?|?]; discriminate|].
  cbn [number] in E2. rewrite E2.
  destruct (C58_disposition_partial false SIGINT t2 (F2 eq_refl)) as
    (t3 & E3 & A3 & O3 & _ & T3 & _ & _ & _ & F3); [intros [?|?]; discriminate|].
  cbn [number] in E3. rewrite E3. exists t3. split; [reflexivity|]. split; [exact (F3 eq_refl)|].
  rewrite T2, T1 in A3. rewrite T1 in A2. cbn in A1, A2, A3.
  intro s.
  destruct (signal_eq_dec s SIGINT) as [->|N3]; [exact A3|].
  rewrite O3 by exact N3.
  destruct (signal_eq_dec s SIGTSTP) as [->|N2]; [exact A2|].
  rewrite O2 by exact N2.
  destruct (signal_eq_dec s SIGCHLD) as [->|N1]; [exact A1|].
  rewrite O1 by exact N1.
  destruct s; try reflexivity; congruence.
Qed.

(** So SIGQUIT, SIGTERM and SIGTTOU are not ignored. *)
Theorem C58_refuted :
  exists inherited t s, set_up (initial inherited) = Some t /\
    claimed s = SigIgn /\ actions t s = SigDfl.
Proof.
  destruct (C58_startup_partial (fun _ => SigDfl)) as (t & E & _ & A).
  exists (fun _ => SigDfl), t, SIGQUIT. repeat split; [exact E|]. rewrite A. reflexivity.
Qed.

(** SIGTTOU set up in a shell with a trap for SIGHUP. *)
Definition ex_trapped : trap_state :=
  TrapState (upd (fun _ => None) SIGHUP (Some (lit "echo bye"))) (fun _ => None) (fun _ => false) None
    false false None (fun _ => SigDfl) (fun _ => false).
Example C58_disposition_example :
  match set_signal false 22 ex_trapped with
  | Some t => actions t SIGTTOU = SigIgn /\ actions t SIGHUP = SigDfl /\
      match set_signal false 1 t with Some t' => actions t' SIGHUP = OnSig | None => False end
  | None => False
  end.
Proof. vm_compute. repeat split. Qed.
Example C58_twice_example :
  match set_signal true 2 ex_trapped with
  | Some t => actions t SIGINT = SigDfl /\ modes t SIGINT = None
  | None => False
  end.
Proof. vm_compute. repeat split. Qed.
Example C58_crash_example :
  set_signal false 9 ex_trapped = None /\ set_signal false 32 ex_trapped = None /\ set_signal false (-1) ex_trapped = None.
Proof. repeat split. Qed.
Example C58_startup_example :
  match set_up (initial (fun _ => SigDfl)) with
  | Some t => map (actions t) [SIGINT; SIGTSTP; SIGCHLD; SIGPIPE; SIGTERM; SIGTTIN]
      = [OnSig; OnSig; OnSig; SigIgn; SigDfl; SigDfl]
  | None => False
  end.
Proof. vm_compute. reflexivity. Qed.

(** * C59: what is recorded of the signals *)

(** What happens to a shell: signals arrive ([writable]: whether descriptor 0
    can be written to), signals are set up, and a waiter clears its flag. *)
Inductive event := Arrive (writable : bool) (s : signal) | SetUp (n : Z) | Clear.
Definition happens (e : event) (t : trap_state) : fate :=
  match e with
  | Arrive w s => deliver w s t
  | SetUp n => match set_signal false n t with Some t' => Goes t' | None => Panicked end
  | Clear => Goes (set_got_sigchld false t)
  end.

(** The state after a history that the shell survives; a stopped shell goes on
    when it is continued. *)
Fixpoint after (h : list event) (t : trap_state) : option trap_state :=
  match h with
  | [] => Some t
  | e :: h' =>
      match happens e t with Goes t' | Halted t' => after h' t' | _ => None end
  end.

Definition caught (s : signal) : Prop := s = SIGINT \/ s = SIGTSTP \/ s = SIGCHLD.

(** The last signal of a history the handler has to remember: an arrival of
    SIGINT or SIGTSTP. *)
Fixpoint last_remembered (h : list event) (before : option signal) : option signal :=
  match h with
  | [] => before
  | Arrive _ SIGINT :: h' => last_remembered h' (Some SIGINT)
  | Arrive _ SIGTSTP :: h' => last_remembered h' (Some SIGTSTP)
  | _ :: h' => last_remembered h' before
  end.

(** The query says that nothing is pending, after every history. *)
Lemma happens_static : forall e t,
  match happens e t with Goes t' | Halted t' => static_pending t' = static_pending t | _ => True end.
Proof.
  intros [w s|n|] t; cbn.
  - unfold deliver. destruct (actions t s).
    + destruct (default_action s); reflexivity || exact I.
    + reflexivity.
    + unfold on_sig.
      destruct s; cbn; try (destruct (is_trap_set SIGCHLD _); cbn); try reflexivity;
      try (destruct (is_trap_set SIGINT _); cbn); try reflexivity; destruct w; cbn; reflexivity || exact I.
  - unfold set_signal. destruct (try_from n) as [s|]; [|exact I].
    destruct (match modes t s with Some m => _ | None => _ end); [reflexivity|].
    destruct s; exact I || reflexivity.
  - reflexivity.
Qed.

Theorem C59_never :
  forall inherited h t, after h (initial inherited) = Some t -> get_pending_signal t = None.
Proof.
  intros d h t H. unfold get_pending_signal.
  assert (E : static_pending (initial d) = None) by reflexivity.
  revert E H. generalize (initial d). induction h as [|e h IH]; intros t0 E H; cbn in H.
  - congruence.
  - pose proof (happens_static e t0) as Hs.
    destruct (happens e t0); try discriminate; apply (IH t1); congruence.
Qed.

(** The handler itself does keep the last signal, and which ones have arrived. *)
Lemma on_sig_caught : forall w s t, (forall x, traps t x = None) ->
  (s = SIGINT \/ s = SIGTSTP \/ s = SIGCHLD) ->
  on_sig w false s t =
    match s with
    | SIGCHLD => Some (with_chld true t)
    | SIGINT => if w then Some (with_int true (with_pending (Some SIGINT) (with_got (upd (got t) SIGINT true) t))) else None
    | _ => Some (with_pending (Some s) (with_got (upd (got t) s true) t))
    end.
Proof.
  intros w s t Ht [-> |[-> | ->]]; unfold on_sig, is_trap_set; cbn; rewrite ?Ht; try reflexivity;
  destruct w; reflexivity.
Qed.

Definition ready (t : trap_state) : Prop :=
  (forall s, traps t s = None) /\ actions t SIGINT = OnSig /\ actions t SIGTSTP = OnSig /\ actions t SIGCHLD = OnSig.

Lemma set_up_eq : forall d, set_up (initial d) =
  Some (TrapState (fun _ => None)
    (upd (upd (upd (fun _ => None) SIGCHLD (Some S_CATCH)) SIGTSTP (Some S_CATCH)) SIGINT (Some S_CATCH))
    (fun _ => false) None false false None
    (upd (upd (upd (upd d SIGPIPE SigIgn) SIGCHLD OnSig) SIGTSTP OnSig) SIGINT OnSig) (fun _ => false)).
Proof. reflexivity. Qed.

Lemma set_up_ready : forall d t, set_up (initial d) = Some t ->
  ready t /\ pending t = None /\ got_chld t = false /\ int_pending t = false /\ (forall s, got t s = false) /\ (forall s, masked t s = false).
Proof.
  intros d t H. rewrite set_up_eq in H. injection H as <-. unfold ready. repeat split.
Qed.

Lemma after_set_up : forall h t t', set_up t = Some t' ->
  after (SetUp 17 :: SetUp 20 :: SetUp 2 :: h) t = after h t'.
Proof.
  intros h t t' H. unfold set_up in H. cbn [after happens].
  destruct (set_signal false 17 t) as [t1|]; [|discriminate].
  destruct (set_signal false 20 t1) as [t2|]; [|discriminate].
  rewrite H. reflexivity.
Qed.

(** So a signal that was recorded is not reported. *)
Theorem C59_refuted :
  exists inherited h t, after h (initial inherited) = Some t /\
    pending t = Some SIGINT /\ got t SIGINT = true /\ get_pending_signal t = None.
Proof.
  exists (fun _ => SigDfl), [SetUp 17; SetUp 20; SetUp 2; Arrive true SIGINT].
  destruct (set_up (initial (fun _ => SigDfl))) as [t0|] eqn:E; [|discriminate].
  rewrite (after_set_up _ _ _ E).
  destruct (set_up_ready _ _ E) as ((Ht & Ri & _) & _).
  cbn [after happens]. unfold deliver.
  rewrite Ri, (on_sig_caught true SIGINT t0 Ht (or_introl eq_refl)).
  eexists. split; [reflexivity|]. split; [reflexivity|]. split; [reflexivity|].
  cbn. rewrite set_up_eq in E. injection E as <-. reflexivity.
Qed.

Theorem C59_recorded_partial :
  forall inherited t0 h t,
  set_up (initial inherited) = Some t0 ->
  (forall e, In e h -> match e with Arrive _ s => caught s | SetUp _ => False | Clear => True end) ->
  after h t0 = Some t ->
  pending t = last_remembered h None /\
  forall s, got t s = true <-> (s = SIGINT \/ s = SIGTSTP) /\ exists w, In (Arrive w s) h.
Proof.
  intros d t0 h t Hs Hin Ha.
  destruct (set_up_ready d t0 Hs) as (Hr & Hp & _ & _ & Hg & _). clear Hs.
  rewrite <- Hp.
  assert (G : pending t = last_remembered h (pending t0) /\
    forall s, got t s = true <-> got t0 s = true \/ ((s = SIGINT \/ s = SIGTSTP) /\ exists w, In (Arrive w s) h)).
  { clear Hp Hg. revert t0 Hr Ha. induction h as [|e h IH]; intros t0 Hr Ha.
    - cbn in Ha. injection Ha as <-. split; [reflexivity|]. intro s. split; [tauto|].
      intros [?|[_ [w []]]]; assumption.
    - assert (Hin' : forall e, In e h -> match e with Arrive _ s => caught s | SetUp _ => False | Clear => True end)
        by (intros x Hx; apply Hin; right; exact Hx).
      specialize (IH Hin'). specialize (Hin e (or_introl eq_refl)).
      destruct Hr as (Ht & Ri & Rt & Rc).
      destruct e as [w s|n|]; [|contradiction|].
      + cbn in Ha. unfold deliver in Ha.
        assert (Ea : actions t0 s = OnSig) by (destruct Hin as [->|[->| ->]]; assumption).
        rewrite Ea, (on_sig_caught w s t0 Ht Hin) in Ha.
        destruct Hin as [->|[->| ->]].
        * destruct w; [|discriminate].
          destruct (IH (with_int true (with_pending (Some SIGINT) (with_got (upd (got t0) SIGINT true) t0))) (conj Ht (conj Ri (conj Rt Rc))) Ha) as [E1 E2].
          split; [exact E1|]. intro s. rewrite E2. cbn. rewrite upd_eq.
          destruct (signal_eq_dec SIGINT s) as [<-|Hne].
          -- split; [|tauto]. intros _. right. split; [tauto|]. exists true. tauto.
          -- split; [intros [?|[? [w ?]]]; [tauto|right; split; [assumption|exists w; tauto]]|].
             intros [?|[? [w [E|?]]]]; [tauto|congruence|right; split; [assumption|exists w; assumption]].
        * destruct (IH (with_pending (Some SIGTSTP) (with_got (upd (got t0) SIGTSTP true) t0)) (conj Ht (conj Ri (conj Rt Rc))) Ha) as [E1 E2].
          split; [exact E1|]. intro s. rewrite E2. cbn. rewrite upd_eq.
          destruct (signal_eq_dec SIGTSTP s) as [<-|Hne].
          -- split; [|tauto]. intros _. right. split; [tauto|]. exists w. tauto.
          -- split; [intros [?|[? [w' ?]]]; [tauto|right; split; [assumption|exists w'; tauto]]|].
             intros [?|[? [w' [E|?]]]]; [tauto|congruence|right; split; [assumption|exists w'; assumption]].
        * destruct (IH (with_chld true t0) (conj Ht (conj Ri (conj Rt Rc))) Ha) as [E1 E2].
          split; [exact E1|]. intro s. rewrite E2. cbn.
          split; [intros [?|[? [w' ?]]]; [tauto|right; split; [assumption|exists w'; tauto]]|].
          intros [?|[Hs [w' [E|?]]]]; [tauto| |right; split; [assumption|exists w'; assumption]].
          injection E as _ <-. destruct Hs; discriminate.
      + cbn in Ha.
        destruct (IH (set_got_sigchld false t0) (conj Ht (conj Ri (conj Rt Rc))) Ha) as [E1 E2].
        split; [exact E1|]. intro s. rewrite E2. cbn.
        split; [intros [?|[? [w' ?]]]; [tauto|right; split; [assumption|exists w'; tauto]]|].
        intros [?|[Hs [w' [E|?]]]]; [tauto|discriminate|right; split; [assumption|exists w'; assumption]]. }
  destruct G as [G1 G2]. split; [exact G1|]. intro s. rewrite G2, Hg. intuition discriminate.
Qed.

Example C59_recorded_example :
  match set_up (initial (fun _ => SigDfl)) with
  | Some t0 =>
      match after [Arrive true SIGINT; Arrive true SIGCHLD; Arrive false SIGTSTP; Clear; Arrive true SIGCHLD] t0 with
      | Some t => pending t = Some SIGTSTP /\ got t SIGINT = true /\ got t SIGCHLD = false /\ got_chld t = true
      | None => False
      end
  | None => False
  end.
Proof. vm_compute. repeat split. Qed.

(** * C87: a signal from the terminal does not end the shell *)

(** The keys of a terminal: Ctrl-C, Ctrl-Z and Ctrl-\. *)
Definition from_terminal (s : signal) : Prop := s = SIGINT \/ s = SIGTSTP \/ s = SIGQUIT.

(** An interactive shell goes on after Ctrl-C, Ctrl-Z and the end of children, in
    every order and number, if it can write to its descriptor 0; and its handlers
    stay as they are. *)
Theorem C87_survives_partial :
  forall inherited t0 h,
  set_up (initial inherited) = Some t0 ->
  (forall e, In e h -> match e with Arrive w s => caught s /\ w = true | SetUp _ => False | Clear => True end) ->
  exists t, after h t0 = Some t /\ actions t = actions t0 /\ masked t = masked t0 /\
    (int_pending t = true <-> In (Arrive true SIGINT) h).
Proof.
  intros d t0 h Hs Hin.
  destruct (set_up_ready d t0 Hs) as (Hr & _ & _ & Hi & _ & _). clear Hs.
  assert (G : exists t, after h t0 = Some t /\ actions t = actions t0 /\ masked t = masked t0 /\
    (int_pending t = true <-> int_pending t0 = true \/ In (Arrive true SIGINT) h)).
  { clear Hi. revert t0 Hr. induction h as [|e h IH]; intros t0 Hr.
    - exists t0. cbn. intuition.
    - assert (Hin' : forall e, In e h -> match e with Arrive w s => caught s /\ w = true | SetUp _ => False | Clear => True end)
        by (intros x Hx; apply Hin; right; exact Hx).
      specialize (IH Hin'). specialize (Hin e (or_introl eq_refl)).
      destruct Hr as (Ht & Ri & Rt & Rc).
      destruct e as [w s|n|]; [|contradiction|].
      + destruct Hin as [Hc ->]. cbn [after happens]. unfold deliver.
        assert (Ea : actions t0 s = OnSig) by (destruct Hc as [->|[->| ->]]; assumption).
        rewrite Ea, (on_sig_caught true s t0 Ht Hc).
        destruct Hc as [->|[->| ->]].
        * destruct (IH (with_int true (with_pending (Some SIGINT) (with_got (upd (got t0) SIGINT true) t0))) (conj Ht (conj Ri (conj Rt Rc)))) as (t & E & Aa & Am & Ai).
          exists t. split; [exact E|]. split; [exact Aa|]. split; [exact Am|]. rewrite Ai. cbn. intuition.
        * destruct (IH (with_pending (Some SIGTSTP) (with_got (upd (got t0) SIGTSTP true) t0)) (conj Ht (conj Ri (conj Rt Rc)))) as (t & E & Aa & Am & Ai).
          exists t. split; [exact E|]. split; [exact Aa|]. split; [exact Am|]. rewrite Ai. cbn. intuition congruence.
        * destruct (IH (with_chld true t0) (conj Ht (conj Ri (conj Rt Rc)))) as (t & E & Aa & Am & Ai).
          exists t. split; [exact E|]. split; [exact Aa|]. split; [exact Am|]. rewrite Ai. cbn. intuition congruence.
      + cbn [after happens].
        destruct (IH (set_got_sigchld false t0) (conj Ht (conj Ri (conj Rt Rc)))) as (t & E & Aa & Am & Ai).
        exists t. split; [exact E|]. split; [exact Aa|]. split; [exact Am|]. rewrite Ai. cbn. intuition congruence. }
  destruct G as (t & E & Aa & Am & Ai). exists t. repeat split; try assumption.
  - intro H. apply Ai in H. rewrite Hi in H. intuition discriminate.
  - intro H. apply Ai. tauto.
Qed.

(** Ctrl-\ kills it, Ctrl-C crashes it when descriptor 0 cannot be written to,
    and after an [exec] of a command that does not exist (src/builtins.rs:639,
    src/eval.rs:657) Ctrl-C kills it. *)
Theorem C87_refuted :
  exists inherited t0, set_up (initial inherited) = Some t0 /\
    from_terminal SIGQUIT /\ happens (Arrive true SIGQUIT) t0 = Killed SIGQUIT /\
    happens (Arrive false SIGINT) t0 = Panicked /\
    exists t1, remove_handlers t0 = Some t1 /\ happens (Arrive true SIGINT) t1 = Killed SIGINT.
Proof.
  exists (fun _ => SigDfl). rewrite set_up_eq. eexists. split; [reflexivity|]. split; [right; right; reflexivity|].
  split; [reflexivity|]. split; [reflexivity|]. eexists. split; reflexivity.
Qed.

(** Nor can the handlers be put back after such an [exec]: the shell believes
    that they are still there. *)
Theorem C87_not_restored :
  forall inherited t0 t1 s, set_up (initial inherited) = Some t0 -> remove_handlers t0 = Some t1 ->
  caught s -> set_signal false (number s) t1 = Some t1 /\ actions t1 s = SigDfl.
Proof.
  intros d t0 t1 s H0 H1 Hs.
  assert (K : modes t0 s = Some S_CATCH /\ traps t0 s = None).
  { rewrite set_up_eq in H0. injection H0 as <-. destruct Hs as [->|[->| ->]]; split; reflexivity. }
  destruct K as [Km Kt]. clear H0.
  cbn in H1. injection H1 as <-. split.
  - unfold set_signal. rewrite try_from_number. cbn [modes with_actions with_masked]. rewrite Km.
    replace (action_for false s _) with S_CATCH; [reflexivity|].
    unfold action_for, is_trap_set. cbn [traps with_actions with_masked]. rewrite Kt.
    destruct Hs as [->|[->| ->]]; reflexivity.
  - cbn [actions with_actions with_masked]. rewrite !upd_eq.
    destruct Hs as [->|[->| ->]];
    repeat (destruct (signal_eq_dec _ _); [reflexivity|]); congruence.
Qed.

Example C87_survives_example :
  match set_up (initial (fun s => match s with SIGINT => SigIgn | _ => SigDfl end)) with
  | Some t0 =>
      match after [Arrive true SIGTSTP; Arrive true SIGINT; Clear; Arrive true SIGCHLD; Arrive true SIGINT] t0 with
      | Some t => actions t SIGINT = OnSig /\ int_pending t = true
      | None => False
      end
  | None => False
  end.
Proof. vm_compute. repeat split. Qed.

(** * C88: programs start with the usual handling of signals *)

(** What a program gets that the shell starts: [fork_reset] and execve(2),
    src/eval.rs:621-649 and 652-680. *)
Definition program (t : trap_state) : option (signal -> disposition) :=
  match remove_handlers t with Some t' => Some (execve t') | None => None end.

(** No signal is blocked in it, whatever the shell had blocked; the signals the
    shell caught, and those of job control, have their default; and every other
    signal is as the shell found it, except SIGPIPE. *)
Theorem C88_program_partial :
  forall inherited t0 m, set_up (initial inherited) = Some t0 ->
  exists t1 p, remove_handlers (with_masked m t0) = Some t1 /\ program (with_masked m t0) = Some p /\
    (forall s, masked t1 s = false) /\
    forall s, p s =
      match s with
      | SIGINT | SIGQUIT | SIGTERM | SIGTSTP | SIGTTIN | SIGTTOU | SIGCHLD => SigDfl
      | SIGPIPE => SigIgn
      | _ => match inherited s with OnSig => SigDfl | d => d end
      end.
Proof.
  intros d t0 m H. rewrite set_up_eq in H. injection H as <-.
  eexists. eexists. split; [reflexivity|]. split; [reflexivity|]. split; [reflexivity|].
  intro s. destruct s; reflexivity.
Qed.

(** SIGPIPE stays ignored in every program, though it was not for the shell. *)
Theorem C88_refuted :
  exists inherited t0 p, set_up (initial inherited) = Some t0 /\ program t0 = Some p /\
    (forall s, inherited s = SigDfl) /\ p SIGPIPE = SigIgn.
Proof.
  exists (fun _ => SigDfl). rewrite set_up_eq. eexists. eexists. split; [reflexivity|]. split; [reflexivity|].
  split; reflexivity.
Qed.

Example C88_program_example :
  match set_up (initial (fun s => match s with SIGQUIT | SIGHUP => SigIgn | _ => SigDfl end)) with
  | Some t0 =>
      match program (interrupts_off t0) with
      | Some p => map p [SIGINT; SIGQUIT; SIGHUP; SIGPIPE] = [SigDfl; SigDfl; SigIgn; SigIgn]
      | None => False
      end
  | None => False
  end.
Proof. vm_compute. reflexivity. Qed.

Print Assumptions C58_disposition_partial.
Print Assumptions C58_twice.
Print Assumptions C58_crash.
Print Assumptions C58_startup_partial.
Print Assumptions C58_refuted.
Print Assumptions C59_never.
Print Assumptions C59_refuted.
Print Assumptions C59_recorded_partial.
Print Assumptions C87_survives_partial.
Print Assumptions C87_refuted.
Print Assumptions C87_not_restored.
Print Assumptions C88_program_partial.
Print Assumptions C88_refuted.
