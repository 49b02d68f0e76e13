(** C143: signals that are sent to the shell while it has signals blocked.

    C143_heard: the signals the shell gets are those that were sent to it.
    C143_waits_partial: while it has signals blocked they wait, unless ^C is pressed.
    C143_ends: what waits ends the shell when signals are unblocked.
    C143_interrupt_refuted: ^C lets the signals in.
    At the prompt: PropertiesHangup.v. *)
From Verif Require Import Base BaseFacts Ast Parser Jobs Trap Queue.
From Verif Require PropertiesTrap.
From Coq Require Import Lia.
Import PropertiesTrap.

(** * What the history says *)

Definition sent (s : signal) (h : list happening) : Prop := exists w order, In (Send w s order) h.
(** The signals that cannot be, or are not, blocked. *)
Definition gets_through (s : signal) : Prop := s = SIGINT \/ s = SIGTSTP \/ s = SIGKILL \/ s = SIGSTOP.
(** Whether the shell has signals blocked in the end, [b] if it had before. *)
Fixpoint busy (h : list happening) (b : bool) : bool :=
  match h with
  | [] => b
  | Off :: h' => busy h' true
  | On _ _ :: h' => busy h' false
  | Send _ _ _ :: h' => busy h' b
  end.
Definition signal_eqb (a b : signal) : bool := Pos.eqb (signal_num a) (signal_num b).
Fixpoint times (s : signal) (l : list signal) : nat :=
  match l with [] => 0 | x :: l' => (if signal_eqb x s then 1 else 0) + times s l' end.
Fixpoint sends (s : signal) (h : list happening) : nat :=
  match h with
  | [] => 0
  | Send _ x _ :: h' => (if signal_eqb x s then 1 else 0) + sends s h'
  | _ :: h' => sends s h'
  end.
Definition one (b : bool) : nat := if b then 1 else 0.
Definition arrivals (l : list (bool * signal)) : list event := map (fun x => Arrive (fst x) (snd x)) l.

(** * Lemmas *)

Lemma upd_at {A} (f : signal -> A) s x s' : upd f s x s' = if signal_eqb s s' then x else f s'.
Proof. reflexivity. Qed.
Lemma eqb_true a b : signal_eqb a b = true <-> a = b.
Proof. split; [|intros ->; apply Pos.eqb_refl]. unfold signal_eqb. intros H. destruct a, b; cbn in H; congruence. Qed.
Lemma eqb_spec a b : {a = b /\ signal_eqb a b = true} + {a <> b /\ signal_eqb a b = false}.
Proof.
  destruct (signal_eqb a b) eqn:E; [left|right]; (split; [|reflexivity]); [apply eqb_true, E|].
  intros ->. rewrite (proj2 (eqb_true b b) eq_refl) in E. discriminate.
Qed.
Lemma eqb_refl a : signal_eqb a a = true.
Proof. apply eqb_true. reflexivity. Qed.
Lemma every_signal s : In s all_signals.
Proof. destruct s; cbn; intuition. Qed.

Lemma deliver_mask w s m t :
  deliver w s (with_masked m t) =
  match deliver w s t with
  | Goes t' => Goes (with_masked m t') | Halted t' => Halted (with_masked m t') | x => x
  end.
Proof.
  unfold deliver. cbn [actions with_masked]. destruct (actions t s); [destruct (default_action s)| |]; try reflexivity.
  unfold on_sig. destruct s; cbn; try reflexivity; unfold is_trap_set; cbn; destruct (traps t _); cbn; try reflexivity; destruct w; reflexivity.
Qed.
Lemma deliver_masked w s t : match deliver w s t with Goes t' | Halted t' => Trap.masked t' = Trap.masked t | _ => True end.
Proof.
  unfold deliver. destruct (actions t s); [destruct (default_action s)| |]; try reflexivity; try exact I.
  unfold on_sig. destruct s; cbn; try reflexivity; unfold is_trap_set; cbn; destruct (traps t _); cbn; try reflexivity; destruct w; try reflexivity; exact I.
Qed.
Lemma after_mask l : forall t t' m, after (arrivals l) t = Some t' -> after (arrivals l) (with_masked m t) = Some (with_masked m t').
Proof.
  induction l as [|[w s] l IH]; intros t t' m H; cbn [arrivals map after happens fst snd] in *.
  - injection H as <-. reflexivity.
  - rewrite deliver_mask. destruct (deliver w s t); try discriminate; exact (IH _ _ m H).
Qed.
Lemma after_masked l : forall t t', after (arrivals l) t = Some t' -> Trap.masked t' = Trap.masked t.
Proof.
  induction l as [|[w s] l IH]; intros t t' H; cbn [arrivals map after happens fst snd] in *.
  - injection H as <-. reflexivity.
  - pose proof (deliver_masked w s t) as D. destruct (deliver w s t); try discriminate; rewrite <- D; exact (IH _ _ H).
Qed.
Lemma after_app a : forall b t t1, after a t = Some t1 -> after (a ++ b) t = after b t1.
Proof.
  induction a as [|e a IH]; intros b t t1 H; cbn [app after] in *; [congruence|].
  destruct (happens e t); try discriminate; apply IH, H.
Qed.
Lemma arrivals_app a b : arrivals (a ++ b) = arrivals a ++ arrivals b.
Proof. apply map_app. Qed.
Lemma with_masked_same t : with_masked (Trap.masked t) t = t.
Proof. destruct t; reflexivity. Qed.
Lemma times_app s a b : times s (a ++ b) = (times s a + times s b)%nat.
Proof. induction a as [|x a IH]; cbn [app times]; [reflexivity|]. rewrite IH. lia. Qed.

(** From [p] to [p'] the signals [l] came in. *)
Record got_in (l : list (bool * signal)) (p p' : process) (was_sent : signal -> Prop) (n : signal -> nat) : Prop := {
  gi_heard : heard p' = heard p ++ l;
  gi_after : exists t, after (arrivals l) (signals p) = Some t /\ signals p' = with_masked (Trap.masked (signals p')) t;
  gi_who : forall s, (held p s = true \/ was_sent s) <-> (In s (map snd l) \/ held p' s = true);
  gi_count : forall s, (times s (map snd l) + one (held p' s) <= one (held p s) + n s)%nat
}.

Lemma take_lives w s p p' : take w s p = Lives p' ->
  held p' = held p /\ heard p' = heard p ++ [(w, s)] /\ after (arrivals [(w, s)]) (signals p) = Some (signals p') /\
  Trap.masked (signals p') = Trap.masked (signals p).
Proof.
  unfold take. intros H. pose proof (deliver_masked w s (signals p)) as D. cbn [arrivals map after happens fst snd].
  destruct (deliver w s (signals p)); try discriminate; injection H as <-; cbn [held heard signals]; auto.
Qed.

Lemma let_in_lives w order : forall p p', let_in w order p = Lives p' ->
  exists l, heard p' = heard p ++ l /\ after (arrivals l) (signals p) = Some (signals p') /\
    (forall s, In s (map snd l) <-> held p s = true /\ In s order) /\
    (forall s, held p' s = true <-> held p s = true /\ ~ In s order) /\
    (forall s, (times s (map snd l) + one (held p' s) <= one (held p s))%nat) /\
    Trap.masked (signals p') = Trap.masked (signals p).
Proof.
  induction order as [|x order IH]; intros p p' H; cbn [let_in] in H.
  - injection H as <-. exists []. rewrite app_nil_r. cbn. repeat split; intuition.
  - destruct (held p x) eqn:Hx.
    + destruct (take w x _) as [p1| |] eqn:T; try discriminate.
      destruct (take_lives _ _ _ _ T) as (T1 & T2 & T3 & T4). cbn [held heard signals] in *.
      destruct (IH p1 p' H) as (l & A1 & A2 & A3 & A4 & A5 & A6). rewrite T1 in *.
      exists ((w, x) :: l). split; [rewrite A1, T2, <- app_assoc; reflexivity|].
      split.
      { change (arrivals ((w, x) :: l)) with (arrivals [(w, x)] ++ arrivals l). rewrite (after_app _ _ _ _ T3). exact A2. }
      split; [|split; [|split; [|congruence]]]; intros s.
      * cbn [map snd In]. rewrite A3, upd_at. destruct (eqb_spec x s) as [[<- Q]|[N Q]]; rewrite Q; intuition congruence.
      * rewrite A4, upd_at. destruct (eqb_spec x s) as [[<- Q]|[N Q]]; rewrite Q; cbn [In]; intuition congruence.
      * specialize (A5 s). rewrite upd_at in A5. cbn [map snd times]. destruct (signal_eqb x s) eqn:E.
        { apply eqb_true in E. subst x. rewrite Hx. unfold one in *. cbn in *. lia. }
        lia.
    + destruct (IH p p' H) as (l & A1 & A2 & A3 & A4 & A5 & A6). exists l.
      split; [exact A1|]. split; [exact A2|]. split; [|split; [|split; [exact A5|exact A6]]]; intros s.
      * rewrite A3. cbn [In]. split; [intuition|]. intros [Hs [<-|Hi]]; [congruence|auto].
      * rewrite A4. cbn [In]. split; [intros [Hs Hn]; split; [exact Hs|intros [<-|Hi]; [congruence|exact (Hn Hi)]]|intuition].
Qed.

Definition blocks (b : bool) (t : trap_state) : Prop := forall s, Trap.masked t s = true <-> b = true /\ ~ gets_through s.
Definition waits_only (p : process) : Prop := forall s, held p s = true -> Trap.masked (signals p) s = true.

Lemma off_blocks t : blocks true (interrupts_off t).
Proof. intros s. unfold gets_through. destruct s; cbn; intuition congruence. Qed.
Lemma on_blocks t : blocks false (interrupts_on t).
Proof. intros s. cbn. intuition congruence. Qed.

Definition sent1 (s : signal) (e : happening) : Prop := sent s [e].
Lemma step_lives e p p' b : step e p = Lives p' -> blocks b (signals p) -> waits_only p ->
  (exists l, got_in l p p' (fun s => sent s [e]) (fun s => sends s [e])) /\ blocks (busy [e] b) (signals p') /\ waits_only p'.
Proof.
  intros H Hb Hw. destruct e as [|w order|w s order]; cbn [step busy] in *.
  - injection H as <-. split; [|split; [apply off_blocks|]].
    + exists []. split; cbn [heard signals held].
      * rewrite app_nil_r. reflexivity.
      * exists (signals p). split; reflexivity.
      * intros x. cbn. split; [intros [?|(w & o & [E|[]])]; [auto|discriminate]|intuition].
      * intros x. cbn. lia.
    + intros x Hx. cbn [held signals] in *. apply off_blocks. split; [reflexivity|]. apply (Hb x). apply Hw, Hx.
  - destruct (let_in_lives _ _ _ _ H) as (l & A1 & A2 & A3 & A4 & A5 & A6). cbn [held signals heard] in *.
    assert (N : forall x, held p' x = true -> False).
    { intros x Hx. apply A4 in Hx. destruct Hx as [_ Hn]. apply Hn. apply in_or_app. right. apply every_signal. }
    split; [|split].
    + exists l. split; [exact A1| | |].
      * pose proof (after_mask l _ _ (Trap.masked (signals p)) A2) as M. unfold interrupts_on in M.
        change (with_masked ?a (with_masked ?b ?t)) with (with_masked a t) in M.
        rewrite with_masked_same in M.
        eexists. split; [exact M|]. destruct (signals p'); reflexivity.
      * intros x. rewrite A3. split.
        { intros [Hx|(w' & o & [E|[]])]; [|discriminate]. left. split; [exact Hx|]. apply in_or_app. right. apply every_signal. }
        { intros [[Hx _]|Hx]; [auto|destruct (N x Hx)]. }
      * intros x. specialize (A5 x). cbn. lia.
    + intros x. rewrite A6. apply (on_blocks (signals p)).
    + intros x Hx. destruct (N x Hx).
  - unfold send in H. destruct (Trap.masked (signals p) s) eqn:Em.
    { injection H as <-. split; [|split; [exact Hb|]].
      - exists []. split; cbn [heard signals held].
        + rewrite app_nil_r. reflexivity.
        + exists (signals p). split; [reflexivity|]. rewrite with_masked_same. reflexivity.
        + intros x. rewrite upd_at. cbn [map In]. destruct (eqb_spec s x) as [[<- Q]|[Ne Q]]; rewrite Q.
          * split; [auto|]. intros _. right. exists w, order. left. reflexivity.
          * split; [intros [?|(w' & o & [E|[]])]; [auto|congruence]|intuition].
        + intros x. rewrite upd_at. cbn [map times sends plus]. destruct (signal_eqb s x); unfold one; [|lia]. destruct (held p x); lia.
      - intros x. cbn [held signals]. rewrite upd_at. destruct (signal_eqb s x) eqn:E; [|apply Hw]. apply eqb_true in E. subst. auto. }
    destruct (take w s p) as [p1| |] eqn:T; try discriminate.
    destruct (take_lives _ _ _ _ T) as (T1 & T2 & T3 & T4).
    assert (Hs : held p s = false) by (destruct (held p s) eqn:E; [rewrite (Hw s E) in Em; discriminate|reflexivity]).
    assert (D : (exists order', let_in w (order' ++ all_signals) p1 = Lives p') \/ p' = p1).
    { destruct s; try (right; congruence). destruct (actions (signals p) SIGINT); try (right; congruence). left. eauto. }
    destruct D as [[order' D]|D].
    + destruct (let_in_lives _ _ _ _ D) as (l & A1 & A2 & A3 & A4 & A5 & A6). rewrite T1 in *.
      assert (N : forall x, held p' x = true -> False).
      { intros x Hx. apply A4 in Hx. destruct Hx as [_ Hn]. apply Hn. apply in_or_app. right. apply every_signal. }
      split; [|split].
      * exists ((w, s) :: l). split.
        { rewrite A1, T2, <- app_assoc. reflexivity. }
        { exists (signals p'). split; [|rewrite with_masked_same; reflexivity].
          change (arrivals ((w, s) :: l)) with (arrivals [(w, s)] ++ arrivals l). rewrite (after_app _ _ _ _ T3). exact A2. }
        { intros x. cbn [map snd In]. rewrite A3. split.
          - intros [Hx|(w' & o & [E|[]])].
            + left. right. split; [exact Hx|]. apply in_or_app. right. apply every_signal.
            + injection E as -> -> ->. auto.
          - intros [[<-|[Hx _]]|Hx]; [right; exists w, order; left; reflexivity|auto|destruct (N x Hx)]. }
        { intros x. specialize (A5 x). cbn [map snd times sends]. lia. }
      * intros x. rewrite A6, T4. apply Hb.
      * intros x Hx. destruct (N x Hx).
    + subst p1. split; [|split].
      * exists [(w, s)]. split; [exact T2| | |].
        { exists (signals p'). split; [exact T3|]. rewrite with_masked_same. reflexivity. }
        { intros x. rewrite T1. cbn [map snd In]. split.
          - intros [Hx|(w' & o & [E|[]])]; [auto|]. injection E as -> -> ->. auto.
          - intros [[<-|[]]|Hx]; [right; exists w, order; left; reflexivity|auto]. }
        { intros x. rewrite T1. cbn [map snd times sends]. lia. }
      * intros x. rewrite T4. apply Hb.
      * intros x Hx. rewrite T1 in Hx. rewrite T4. apply Hw, Hx.
Qed.

Lemma goes_lives h : forall p p' b, goes_through h p = Lives p' -> blocks b (signals p) -> waits_only p ->
  (exists l, got_in l p p' (fun s => sent s h) (fun s => sends s h)) /\ blocks (busy h b) (signals p') /\ waits_only p'.
Proof.
  induction h as [|e h IH]; intros p p' b H Hb Hw; cbn [goes_through] in H.
  - injection H as <-. split; [|auto]. exists []. split.
    + rewrite app_nil_r. reflexivity.
    + exists (signals p). split; [reflexivity|]. rewrite with_masked_same. reflexivity.
    + intros s. cbn. split; [intros [?|(w & o & [])]; auto|intuition].
    + intros s. cbn. lia.
  - destruct (step e p) as [p1| |] eqn:E; try discriminate.
    destruct (step_lives e p p1 b E Hb Hw) as ((l1 & G1) & B1 & W1).
    destruct (IH p1 p' _ H B1 W1) as ((l2 & G2) & B2 & W2). split; [|split; [destruct e; exact B2|exact W2]].
    exists (l1 ++ l2). split.
    + rewrite (gi_heard _ _ _ _ _ G2), (gi_heard _ _ _ _ _ G1), app_assoc. reflexivity.
    + destruct (gi_after _ _ _ _ _ G1) as (t1 & E1 & S1), (gi_after _ _ _ _ _ G2) as (t2 & E2 & S2).
      rewrite arrivals_app, (after_app _ _ _ _ E1).
      rewrite S1 in E2. pose proof (after_mask _ _ _ (Trap.masked t1) E2) as M.
      replace (with_masked (Trap.masked t1) (with_masked (Trap.masked (signals p1)) t1)) with t1 in M by (destruct t1; reflexivity).
      eexists. split; [exact M|]. rewrite S2. destruct (signals p'), t2; reflexivity.
    + intros s. rewrite map_app, in_app_iff. pose proof (gi_who _ _ _ _ _ G1 s) as X1. pose proof (gi_who _ _ _ _ _ G2 s) as X2.
      assert (X3 : sent s (e :: h) <-> sent s [e] \/ sent s h).
      { unfold sent. cbn [In]. split; [intros (w & o & [A|A]); eauto 6|intros [(w & o & [A|[]])|(w & o & A)]; eauto]. }
      rewrite X3. tauto.
    + intros s. rewrite map_app, times_app. pose proof (gi_count _ _ _ _ _ G1 s) as X1. pose proof (gi_count _ _ _ _ _ G2 s) as X2.
      assert (X3 : sends s (e :: h) = (sends s [e] + sends s h)%nat) by (destruct e; cbn [sends]; lia). lia.
Qed.

Lemma fresh_blocks d t0 : set_up (initial d) = Some t0 -> blocks false t0.
Proof. intros H s. destruct (set_up_ready d t0 H) as (_ & _ & _ & _ & _ & M). rewrite M. intuition congruence. Qed.

(** * C143 *)

(** An interactive shell that has gone through any history, and lives: what it has
    got are signals that were sent to it, each at most as often as it was sent;
    what it has not got was sent while signals were blocked, and waits; when
    signals are not blocked nothing waits; and its state is the one of a shell
    that never blocks a signal and gets these signals, in this order. *)
Definition quiet (t : trap_state) : process := Process t (fun _ => false) [].
Theorem C143_heard : forall inherited t0 h p,
  set_up (initial inherited) = Some t0 -> goes_through h (quiet t0) = Lives p ->
  (forall s, sent s h <-> In s (map snd (heard p)) \/ held p s = true) /\
  (forall s, (times s (map snd (heard p)) + one (held p s) <= sends s h)%nat) /\
  (forall s, held p s = true -> busy h false = true /\ ~ gets_through s) /\
  exists t, after (arrivals (heard p)) t0 = Some t /\ same t (with_masked (Trap.masked t0) (signals p)).
Proof.
  intros d t0 h p Hs H.
  assert (W : waits_only (quiet t0)) by (intros x Hx; discriminate).
  destruct (goes_lives h (quiet t0) p false H (fresh_blocks d t0 Hs) W) as ((l & G) & B & W').
  pose proof (gi_heard _ _ _ _ _ G) as Hl. cbn [quiet heard app] in Hl. rewrite Hl.
  split; [|split; [|split]].
  - intros s. rewrite <- (gi_who _ _ _ _ _ G s). cbn. intuition discriminate.
  - intros s. exact (gi_count _ _ _ _ _ G s).
  - intros s Hx. apply (B s). apply W', Hx.
  - destruct (gi_after _ _ _ _ _ G) as (t & E & S). exists t. split; [exact E|].
    pose proof (after_masked _ _ _ E) as M. cbn [quiet signals] in M. rewrite S, <- M. unfold same. cbn. repeat split.
Qed.
(** SIGTERM and SIGCHLD are sent while signals are blocked, and ^Z: ^Z comes in at
    once, the others when ^C is pressed; a second SIGCHLD waits. *)
Example C143_heard_example :
  match set_up (initial (fun s => match s with SIGTERM => SigIgn | _ => SigDfl end)) with
  | Some t0 =>
      match goes_through [Off; Send true SIGTERM []; Send true SIGCHLD []; Send true SIGCHLD []; Send true SIGTSTP [];
                          Send true SIGINT [SIGCHLD]; Send true SIGCHLD []] (quiet t0) with
      | Lives p => map snd (heard p) = [SIGTSTP; SIGINT; SIGCHLD; SIGTERM] /\ held p SIGCHLD = true /\ held p SIGTERM = false
      | _ => False
      end
  | None => False
  end.
Proof. vm_compute. repeat split. Qed.

(** While signals are blocked, and ^C is not pressed, only ^Z and the two signals
    that cannot be blocked get in; the shell can be killed but does not crash.
    Missing for the full statement: ^C. *)
Definition no_interrupt (e : happening) : Prop :=
  match e with Off => True | On _ _ => False | Send _ s _ => s <> SIGINT end.
Lemma take_no_crash w s p : s <> SIGINT -> take w s p <> Crashes.
Proof.
  intros Hs. unfold take, deliver. destruct (actions (signals p) s); [destruct (default_action s)| |]; try discriminate.
  unfold on_sig. destruct s; try congruence; try discriminate; destruct (is_trap_set _ _); discriminate.
Qed.
Lemma take_dies w s p k : take w s p = Dies k -> k = s /\ actions (signals p) s = SigDfl /\ default_action s = Kill.
Proof.
  unfold take, deliver. destruct (actions (signals p) s).
  - destruct (default_action s); try discriminate. intros H. injection H as <-. auto.
  - discriminate.
  - destruct (on_sig w false s (signals p)); discriminate.
Qed.
Theorem C143_waits_partial : forall inherited t0 h1 p1 h2,
  set_up (initial inherited) = Some t0 -> goes_through h1 (quiet t0) = Lives p1 -> Forall no_interrupt h2 ->
  match goes_through (h1 ++ Off :: h2) (quiet t0) with
  | Lives p => exists l, heard p = heard p1 ++ l /\ (forall w s, In (w, s) l -> gets_through s /\ sent s h2) /\
      (forall s, sent s h2 -> ~ gets_through s -> held p s = true)
  | Dies s => gets_through s /\ sent s h2
  | Crashes => False
  end.
Proof.
  intros d t0 h1 p1 h2 Hs H1 H2.
  assert (A : forall h p e, goes_through h p = Lives e -> goes_through (h ++ Off :: h2) p = goes_through (Off :: h2) e).
  { induction h as [|x h IH]; intros p e He; [injection He as <-; reflexivity|]. cbn [app]. cbn [goes_through] in *. destruct (step x p); try discriminate. apply IH, He. }
  rewrite (A _ _ _ H1). clear A. cbn [goes_through step].
  assert (G : forall h p, Forall no_interrupt h -> blocks true (signals p) ->
    match goes_through h p with
    | Lives q => exists l, heard q = heard p ++ l /\ (forall w s, In (w, s) l -> gets_through s /\ sent s h) /\
        (forall s, held p s = true -> held q s = true) /\
        (forall s, sent s h -> ~ gets_through s -> held q s = true)
    | Dies s => gets_through s /\ sent s h
    | Crashes => False
    end).
  { induction h as [|e h IH]; intros p Hh Hb.
    { cbn. exists []. rewrite app_nil_r. split; [reflexivity|]. split; [intros w s []|]. split; [auto|]. intros s (w & o & []). }
    inversion Hh as [|? ? He Hh']; subst. cbn [goes_through].
    assert (Mono : forall s, sent s h -> sent s (e :: h)) by (intros s (w & o & X); exists w, o; right; exact X).
    destruct e as [|w o|w s o]; [|destruct He|]; cbn [step no_interrupt] in *.
    - specialize (IH (Process (interrupts_off (signals p)) (held p) (heard p)) Hh' (off_blocks _)). cbn [heard held] in IH.
      destruct (goes_through h _) as [q|k|]; [|split; [exact (proj1 IH)|apply Mono, IH]|exact IH].
      destruct IH as (l & A1 & A2 & A3 & A4). exists l. split; [exact A1|]. split; [intros w s X; destruct (A2 w s X); auto|].
      split; [exact A3|]. intros s (w & o & [E|X]); [discriminate|]. apply A4. exists w, o. exact X.
    - destruct (Trap.masked (signals p) s) eqn:Em.
      + replace (send w s o p) with (Lives (Process (signals p) (upd (held p) s true) (heard p))) by (unfold send; rewrite Em; reflexivity).
        specialize (IH (Process (signals p) (upd (held p) s true) (heard p)) Hh' Hb). cbn [heard held] in IH.
        destruct (goes_through h _) as [q|k|]; [|split; [exact (proj1 IH)|apply Mono, IH]|exact IH].
        destruct IH as (l & A1 & A2 & A3 & A4). exists l. split; [exact A1|]. split; [intros w' s' X; destruct (A2 w' s' X); auto|].
        split; [intros s' Hs'; apply A3; rewrite upd_at, Hs'; destruct (signal_eqb s s'); reflexivity|].
        intros s' (w' & o' & [E|X]) Ht; [|apply A4; [exists w', o'; exact X|exact Ht]].
        injection E as -> -> ->. apply A3. rewrite upd_at, (proj2 (eqb_true s' s') eq_refl). reflexivity.
      + assert (Hg : gets_through s).
        { unfold gets_through. destruct (signal_eq_dec s SIGINT); [auto|]. destruct (signal_eq_dec s SIGTSTP); [auto|].
          destruct (signal_eq_dec s SIGKILL); [auto|]. destruct (signal_eq_dec s SIGSTOP); [auto|]. exfalso.
          rewrite (proj2 (Hb s)) in Em; [discriminate|]. split; [reflexivity|]. unfold gets_through. tauto. }
        assert (Se : sent s (Send w s o :: h)) by (exists w, o; left; reflexivity).
        assert (E2 : send w s o p = take w s p).
        { unfold send. rewrite Em. destruct (take w s p); try reflexivity. destruct s; try reflexivity. exfalso. exact (He eq_refl). }
        rewrite E2. clear E2.
        destruct (take w s p) as [p2|k|] eqn:T; [| |destruct (take_no_crash w s p He T)].
        2:{ destruct (take_dies _ _ _ _ T) as (-> & _). auto. }
        destruct (take_lives _ _ _ _ T) as (T1 & T2 & _ & T4).
        assert (Hb2 : blocks true (signals p2)) by (intros x; rewrite T4; apply Hb).
        specialize (IH p2 Hh' Hb2).
        destruct (goes_through h p2) as [q|k|]; [|split; [exact (proj1 IH)|apply Mono, IH]|exact IH].
        destruct IH as (l & A1 & A2 & A3 & A4). exists ((w, s) :: l). split; [rewrite A1, T2, <- app_assoc; reflexivity|].
        split; [intros w' s' [E|X]; [injection E as <- <-; auto|destruct (A2 w' s' X); auto]|].
        split; [intros s' Hs'; apply A3; rewrite T1; exact Hs'|].
        intros s' (w' & o' & [E|X]) Ht; [injection E as -> -> ->; contradiction|]. apply A4; [exists w', o'; exact X|exact Ht]. }
  specialize (G h2 (Process (interrupts_off (signals p1)) (held p1) (heard p1)) H2 (off_blocks _)). cbn [heard held] in G.
  destruct (goes_through h2 _) as [q|k|]; [|exact G|exact G].
  destruct G as (l & A1 & A2 & _ & A4). exists l. auto.
Qed.
Example C143_waits_example :
  Forall no_interrupt [Send true SIGTERM []; Send true SIGTSTP []; Send true SIGHUP []] /\
  match set_up (initial (fun _ => SigDfl)) with
  | Some t0 =>
      match goes_through [Off; Send true SIGTERM []; Send true SIGTSTP []; Send true SIGHUP []] (quiet t0) with
      | Lives p => map snd (heard p) = [SIGTSTP] /\ held p SIGTERM = true /\ held p SIGHUP = true
      | _ => False
      end
  | None => False
  end.
Proof. split; [repeat constructor; discriminate|]. vm_compute. repeat split. Qed.

(** What waits ends the shell as soon as signals are unblocked ... *)
Lemma let_in_kills w order : forall p s, held p s = true -> In s order -> actions (signals p) s = SigDfl -> default_action s = Kill ->
  (forall x, held p x = true -> x <> SIGINT) -> exists k, let_in w order p = Dies k /\ held p k = true.
Proof.
  induction order as [|x order IH]; intros p s Hs Hi Ha Hd Hn; [destruct Hi|]. cbn [let_in].
  destruct (held p x) eqn:Hx.
  - destruct (take w x _) as [p1|k|] eqn:T.
    + pose proof (take_lives _ _ _ _ T) as (T1 & _ & T3 & _). cbn [held signals] in *.
      assert (X : x <> s).
      { intros ->. unfold take, deliver in T. cbn [signals] in T. rewrite Ha, Hd in T. discriminate. }
      destruct Hi as [E|Hi]; [congruence|].
      assert (K : actions (signals p1) s = actions (signals p) s).
      { cbn [arrivals map after happens fst snd] in T3. unfold deliver in T3. destruct (actions (signals p) x); [destruct (default_action x)| |]; try discriminate; try (injection T3 as <-; reflexivity).
        unfold on_sig in T3. destruct x; cbn in T3; try (injection T3 as <-; reflexivity); unfold is_trap_set in T3; cbn in T3;
          destruct (traps (signals p) _); cbn in T3; try (injection T3 as <-; reflexivity); destruct w; try discriminate; injection T3 as <-; reflexivity. }
      destruct (IH p1 s) as (k & Ek & Hk); try assumption.
      * rewrite T1, upd_at. destruct (eqb_spec x s) as [[E _]|[_ Q]]; [congruence|]. rewrite Q. exact Hs.
      * congruence.
      * intros y Hy. apply Hn. rewrite T1, upd_at in Hy. destruct (signal_eqb x y); [discriminate|exact Hy].
      * exists k. split; [exact Ek|]. rewrite T1, upd_at in Hk. destruct (signal_eqb x k); [discriminate|exact Hk].
    + exists k. split; [reflexivity|]. destruct (take_dies _ _ _ _ T) as (-> & _). exact Hx.
    + destruct (take_no_crash w x _ (Hn x Hx) T).
  - destruct Hi as [E|Hi]; [congruence|]. exact (IH p s Hs Hi Ha Hd Hn).
Qed.
Theorem C143_ends : forall inherited t0 h p w order s,
  set_up (initial inherited) = Some t0 -> goes_through h (quiet t0) = Lives p ->
  held p s = true -> actions (signals p) s = SigDfl -> default_action s = Kill ->
  exists k, step (On w order) p = Dies k /\ sent k h.
Proof.
  intros d t0 h p w order s Hs H Hh Ha Hd.
  destruct (C143_heard d t0 h p Hs H) as (A1 & _ & A3 & _).
  destruct (let_in_kills w (order ++ all_signals) (Process (interrupts_on (signals p)) (held p) (heard p)) s) as (k & E & Hk); try assumption.
  - apply in_or_app. right. apply every_signal.
  - intros x Hx ->. destruct (A3 SIGINT Hx) as [_ X]. apply X. left. reflexivity.
  - exists k. split; [exact E|]. apply A1. right. exact Hk.
Qed.
(** ... or as soon as ^C is pressed, although the shell still has signals blocked. *)
Theorem C143_interrupt_refuted : forall inherited t0 w order s,
  set_up (initial inherited) = Some t0 -> inherited s = SigDfl -> default_action s = Kill ->
  ~ gets_through s -> s <> SIGPIPE ->
  goes_through [Off; Send w s order] (quiet t0) =
    Lives (Process (interrupts_off t0) (upd (fun _ => false) s true) []) /\
  goes_through [Off; Send w s order; Send true SIGINT order] (quiet t0) = Dies s.
Proof.
  intros d t0 w order s Hs Hd Hk Hg Hp.
  assert (Hm : Trap.masked (interrupts_off t0) s = true) by (apply off_blocks; auto).
  set (p := Process (interrupts_off t0) (upd (fun _ => false) s true) []).
  assert (E : forall l, goes_through (Off :: Send w s order :: l) (quiet t0) = goes_through l p).
  { intros l. cbn [goes_through step quiet signals held heard]. unfold send. cbn [signals]. rewrite Hm. reflexivity. }
  split; [exact (E [])|]. rewrite E. cbn [goes_through step]. unfold send.
  assert (M : Trap.masked (signals p) SIGINT = false) by reflexivity. rewrite M.
  assert (Ai : actions (signals p) SIGINT = OnSig) by (rewrite set_up_eq in Hs; injection Hs as <-; reflexivity). rewrite Ai.
  destruct (take true SIGINT p) as [p1|k|] eqn:T.
  - destruct (take_lives _ _ _ _ T) as (T1 & _ & T3 & _).
    assert (As : actions (signals p1) s = SigDfl).
    { rewrite set_up_eq in Hs. injection Hs as <-. cbn in T3. injection T3 as <-. cbn.
      unfold gets_through in Hg. destruct s; cbn; try exact Hd; try congruence; try (exfalso; apply Hg; tauto); discriminate. }
    destruct (let_in_kills true (order ++ all_signals) p1 s) as (k & Ek & Hx).
    + rewrite T1. cbn [p held]. rewrite upd_at. rewrite (proj2 (eqb_true s s) eq_refl). reflexivity.
    + apply in_or_app. right. apply every_signal.
    + exact As.
    + exact Hk.
    + intros x Hx ->. rewrite T1 in Hx. cbn [p held] in Hx. rewrite upd_at in Hx. destruct (eqb_spec s SIGINT) as [[E1 _]|[_ Q]]; [apply Hg; left; exact E1|].
      rewrite Q in Hx. discriminate.
    + rewrite T1 in Hx. cbn [p held] in Hx. rewrite upd_at in Hx. destruct (eqb_spec s k) as [[-> _]|[_ Q]]; [|rewrite Q in Hx; discriminate].
      rewrite Ek. reflexivity.
  - exfalso. rewrite set_up_eq in Hs. injection Hs as <-. discriminate.
  - exfalso. rewrite set_up_eq in Hs. injection Hs as <-. discriminate.
Qed.
Example C143_interrupt_example :
  match set_up (initial (fun _ => SigDfl)) with
  | Some t0 => goes_through [Off; Send true SIGHUP []; Send true SIGTSTP []; Send true SIGINT []] (quiet t0) = Dies SIGHUP /\
               goes_through [Off; Send true SIGHUP []; Send true SIGTSTP []; On true [SIGHUP]] (quiet t0) = Dies SIGHUP
  | None => False
  end.
Proof. split; vm_compute; reflexivity. Qed.

Print Assumptions C143_heard.
Print Assumptions C143_waits_partial.
Print Assumptions C143_ends.
Print Assumptions C143_interrupt_refuted.
