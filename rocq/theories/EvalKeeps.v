(** Relations between the state before and the state after a run. *)
From Verif Require Import Base Ast Parser Context Alias Expand Jobs Shell Builtins Eval EvalSpec EvalFacts EvalLaws.

Section Keeps.
Context (all : bool) (R : shell -> shell -> Prop).

(** [R] holds between the states before and after every run of [m] (with
    [all]), or before and after those that return. *)
Definition keeps {A} (m : M A) : Prop :=
  forall s o s', m s = (o, s') -> all = true \/ returns o -> R s s'.

Record preorder : Prop := {
  pre_refl : forall s, R s s;
  pre_trans : forall a b c, R a b -> R b c -> R a c
}.
Hypothesis P : preorder.

Lemma keeps_ret {A} (a : A) : keeps (ret a).
Proof. intros s o s' H _. injection H as <- <-. apply (pre_refl P). Qed.
Lemma keeps_stop {A} (o : out A) : keeps (stop o).
Proof. intros s o' s' H _. injection H as <- <-. apply (pre_refl P). Qed.
Lemma keeps_look {A} (f : image -> A) : keeps (look f).
Proof. intros s o s' H _. injection H as <- <-. apply (pre_refl P). Qed.
Lemma keeps_ask {A} w (f : reports -> A) : keeps (ask w f).
Proof. intros s o s' H _. injection H as <- <-. apply (pre_refl P). Qed.
Lemma keeps_unwrap {A} (o : option A) : keeps (unwrap o).
Proof. destruct o; [apply keeps_ret|apply keeps_stop]. Qed.
Lemma keeps_change f : (forall s, R s (Shell (f (im s)) (trace s))) -> keeps (change f).
Proof. intros Hf s o s' H _. injection H as <- <-. apply Hf. Qed.
Lemma keeps_note e : (forall s, R s (Shell (im s) (e :: trace s))) -> keeps (note e).
Proof. intros Hf s o s' H _. injection H as <- <-. apply Hf. Qed.
Lemma keeps_try f : (forall s i, f (im s) = Some i -> R s (Shell i (trace s))) -> keeps (try_ f).
Proof.
  intros Hf s o s' H _. unfold try_ in H. destruct (f (im s)) as [i|] eqn:E; injection H as <- <-;
    [apply Hf; exact E|apply (pre_refl P)].
Qed.
Lemma keeps_bind {A B} (m : M A) (k : A -> M B) : keeps m -> (forall a, keeps (k a)) -> keeps (bind m k).
Proof.
  intros Hm Hk s o s' H Ho. apply bind_inv in H. destruct H as [(a & s1 & H1 & H2)|(o1 & H1 & F & ->)].
  - eapply (pre_trans P); [eapply Hm; [exact H1|right; exact I]|]. eapply Hk; eassumption.
  - eapply Hm; [exact H1|]. destruct Ho as [Ho|Ho]; [left; exact Ho|right; destruct o1; cbn in *; auto].
Qed.
Lemma keeps_seq {A B} (m : M A) (k : M B) : keeps m -> keeps k -> keeps (seq m k).
Proof. intros. apply keeps_bind; auto. Qed.
(** The second part may use what the first part returned. *)
Lemma keeps_bind_after {A B} (m : M A) (k : A -> M B) :
  keeps m -> (forall s a s1 o s', m s = (OOk a, s1) -> k a s1 = (o, s') -> all = true \/ returns o -> R s s') ->
  keeps (bind m k).
Proof.
  intros Hm Hk s o s' H Ho. apply bind_inv in H. destruct H as [(a & s1 & H1 & H2)|(o1 & H1 & F & ->)].
  - eapply Hk; eassumption.
  - eapply Hm; [exact H1|]. destruct Ho as [Ho|Ho]; [left; exact Ho|right; destruct o1; cbn in *; auto].
Qed.
Lemma keeps_catch {A} (m : M A) : keeps m -> keeps (catch m).
Proof.
  intros Hm s o s' H Ho. apply catch_inv in H. destruct H as [(a & H1 & _)|[(e & H1 & _)|(o1 & H1 & F & ->)]].
  - eapply Hm; [exact H1|right; exact I].
  - eapply Hm; [exact H1|right; exact I].
  - eapply Hm; [exact H1|]. destruct Ho as [Ho|Ho]; [left; exact Ho|right; destruct o1; cbn in *; auto].
Qed.

Lemma keeps_wait w id :
  (forall s st j r, wait_for_job (expand_var (cm (im s)) (lit "PS4")) id (r_waits (w (trace s))) (js (im s)) = WDone st j r ->
     R s (Shell (with_js j (im s)) (EWait id :: trace s))) -> keeps (wait_job w id).
Proof.
  intros Hf s o s' H _. unfold wait_job in H.
  destruct (wait_for_job _ _ _ _) as [st j r| |] eqn:E; injection H as <- <-;
    [eapply Hf; exact E|apply (pre_refl P)|apply (pre_refl P)].
Qed.
Lemma keeps_expand w sc :
  (forall s log, R s (Shell (im s) (ESubst (im s) log :: trace s))) -> keeps (expand_command w sc).
Proof.
  intros Hf s o s' H _. unfold expand_command in H.
  destruct (expand _ _ _ _ _) as [[sc' [|x l]]|]; injection H as <- <-;
    [destruct s; apply (pre_refl P)|apply Hf|apply (pre_refl P)].
Qed.
Lemma keeps_raw {A} (m : M A) : (forall s, R s (snd (m s))) -> keeps m.
Proof. intros Hf s o s' H _. specialize (Hf s). rewrite H in Hf. exact Hf. Qed.
End Keeps.

(** What is left of the goal after the structure of the program is gone through
    are the changes of the state; [leaf] deals with those. *)
Ltac keep_step P :=
  match goal with
  | |- forall _, keeps _ _ _ => intro
  | |- keeps _ _ (ret _) => apply (keeps_ret _ _ P)
  | |- keeps _ _ (stop _) => apply (keeps_stop _ _ P)
  | |- keeps _ _ (look _) => apply (keeps_look _ _ P)
  | |- keeps _ _ (ask _ _) => apply (keeps_ask _ _ P)
  | |- keeps _ _ (unwrap _) => apply (keeps_unwrap _ _ P)
  | H : forall l, keeps _ _ (?r l) |- keeps _ _ (?r _) => apply H
  | H : keeps _ _ ?r |- keeps _ _ ?r => exact H
  | |- keeps _ _ (bind _ _) => apply (keeps_bind _ _ P)
  | |- keeps _ _ (seq _ _) => apply (keeps_seq _ _ P)
  | |- keeps _ _ (catch _) => apply (keeps_catch _ _)
  | |- keeps _ _ (match ?x with _ => _ end) => destruct x
  | |- keeps _ _ (if ?x then _ else _) => destruct x
  | |- keeps _ _ (let '(_, _) := ?x in _) => destruct x
  end.
Ltac keep P := repeat keep_step P.
