(** C60: the signal handler and the borrows of the shell's state. *)
From Verif Require Import Base Borrow.

(** The handler must not meet the shell's state half changed: at the moment it
    may run ([blocked] is false) nothing is borrowed mutably. *)
Definition exposed (s : bst) : Prop := blocked s = false /\ exclusive s = true.

(** The states a sequence of steps goes through when no signal arrives. *)
Fixpoint visits (xs : list step) (s : bst) : list bst :=
  s :: match xs with
       | [] => []
       | x :: xs' => match do_step x s with Some s' => visits xs' s' | None => [] end
       end.

(** The calls made one after the other. *)
Definition program (cs : list call) : list step := flat_map steps_of cs.

(** Nothing borrowed. *)
Definition idle (b : bool) : bst := Bst b 0 false.

Lemma fold_none : forall xs,
  fold_left (fun (r : option bst) x => match r with Some s => do_step x s | None => None end) xs None = None.
Proof. induction xs as [|y xs IH]; [reflexivity|exact IH]. Qed.

Lemma run_app : forall xs ys signals s,
  Forall (fun e => e = None) (firstn (List.length xs) signals) ->
  run (xs ++ ys) signals s =
    match fold_left (fun r x => match r with Some s => do_step x s | None => None end) xs (Some s) with
    | Some s' => run ys (skipn (List.length xs) signals) s'
    | None => None
    end.
Proof.
  induction xs as [|x xs IH]; intros ys signals s Hs; cbn [app fold_left List.length skipn]; [reflexivity|].
  cbn [run]. destruct signals as [|e signals]; cbn [hd tl].
  - cbn [arrives]. destruct (do_step x s) as [s'|].
    + rewrite IH; [|destruct (List.length xs); constructor].
      destruct (fold_left _ xs (Some s')) as [s2|]; [|reflexivity].
      destruct (List.length xs); reflexivity.
    + rewrite fold_none. reflexivity.
  - cbn [firstn List.length] in Hs. inversion Hs as [|? ? He Hs']; subst. cbn [arrives].
    destruct (do_step x s) as [s'|].
    + apply IH. exact Hs'.
    + rewrite fold_none. reflexivity.
Qed.

(** As long as the signals are blocked, no call but [delete_job] can be disturbed:
    whatever is called, and whenever signals arrive, the run does not crash, ends
    with the signals blocked and nothing borrowed, and never is the state exposed. *)
Theorem C60_blocked_partial :
  forall cs signals, ~ In c_delete_job cs ->
  run (program cs) signals (idle true) = Some (idle true) /\
  forall s, In s (visits (program cs) (idle true)) -> ~ exposed s.
Proof.
  intros cs signals Hin. split.
  - revert signals. induction cs as [|c cs IH]; intro signals.
    + cbn. destruct (hd None signals); reflexivity.
    + assert (Hc : c <> c_delete_job) by (intros ->; apply Hin; left; reflexivity).
      assert (Hcs : ~ In c_delete_job cs) by (intro; apply Hin; right; assumption).
      specialize (IH Hcs).
      assert (E : steps_of c = [Take (access_of c); Work; Drop (access_of c)])
        by (destruct c; try reflexivity; congruence).
      cbn [program flat_map]. fold (program cs). rewrite E. cbn [app run].
      assert (Hb : forall e s, blocked s = true -> arrives e s = Some s)
        by (intros [e|] s Hs; cbn; rewrite ?Hs; reflexivity).
      rewrite Hb by reflexivity.
      destruct (access_of c); cbn [do_step idle exclusive shared blocked pred];
      rewrite Hb by reflexivity; cbn [do_step]; rewrite Hb by reflexivity;
      cbn [do_step exclusive shared blocked pred]; apply IH.
  - assert (G : forall cs, ~ In c_delete_job cs -> forall s, In s (visits (program cs) (idle true)) -> blocked s = true).
    { clear. intros cs Hin. induction cs as [|c cs IH]; intros s Hs.
      - destruct Hs as [<-|[]]. reflexivity.
      - assert (Hc : c <> c_delete_job) by (intros ->; apply Hin; left; reflexivity).
        assert (Hcs : ~ In c_delete_job cs) by (intro; apply Hin; right; assumption).
        assert (E : steps_of c = [Take (access_of c); Work; Drop (access_of c)])
          by (destruct c; try reflexivity; congruence).
        cbn [program flat_map] in Hs. fold (program cs) in Hs. rewrite E in Hs.
        destruct (access_of c); cbn in Hs;
        destruct Hs as [<-|[<-|[<-|Hs]]]; try reflexivity; exact (IH Hcs s Hs). }
    intros s Hs [He _]. rewrite (G cs Hin s Hs) in He. discriminate.
Qed.

(** Without the block every call can be disturbed. *)
Theorem C60_unblocked_refuted :
  forall c, c <> c_delete_job -> exists signals, run (steps_of c) signals (idle false) = None.
Proof.
  intros c Hc. exists [None; Some true].
  destruct c; reflexivity || congruence.
Qed.

(** Such a call is exposed exactly when it is one of those that change the state. *)
Theorem C60_unblocked_exact :
  forall c, c <> c_delete_job ->
  ((exists s, In s (visits (steps_of c) (idle false)) /\ exposed s) <-> access_of c = Exclusive).
Proof.
  intros c Hc.
  assert (E : steps_of c = [Take (access_of c); Work; Drop (access_of c)])
    by (destruct c; try reflexivity; congruence).
  rewrite E. destruct (access_of c); cbn; unfold exposed; split.
  - intros (s & [<-|[<-|[<-|[<-|[]]]]] & _ & He); discriminate.
  - discriminate.
  - reflexivity.
  - intros _. exists (Bst false 0 true). auto.
Qed.

(** [delete_job] is exposed even when its caller has blocked the signals, and
    can crash; and it leaves them unblocked for whatever comes after it. *)
Theorem C60_delete_refuted :
  forall b,
  (exists s, In s (visits (steps_of c_delete_job) (idle b)) /\ exposed s) /\
  (exists signals, run (steps_of c_delete_job) signals (idle b) = None) /\
  run (steps_of c_delete_job) [] (idle b) = Some (idle false).
Proof.
  intro b. split; [|split].
  - exists (Bst false 0 true). destruct b; cbn; unfold exposed; intuition.
  - exists [None; None; None; None; Some false]. destruct b; reflexivity.
  - destruct b; reflexivity.
Qed.

(** A signal at any other moment of it does no harm. *)
Theorem C60_delete_partial :
  forall b signals, nth 4 signals None = None ->
  run (steps_of c_delete_job) signals (idle b) = Some (idle false).
Proof.
  intros b signals H.
  destruct signals as [|x0 [|x1 [|x2 [|x3 [|x4 [|x5 r]]]]]]; cbn [nth] in H; subst;
    repeat match goal with x : option bool |- _ => destruct x as [[]|] end; destruct b; reflexivity.
Qed.
Example C60_delete_example : nth 4 [Some true; Some true; Some false; Some true; None; Some true] None = None.
Proof. reflexivity. Qed.

(** So after it the caller's own calls can be disturbed. *)
Theorem C60_after_delete_refuted :
  forall cs c, ~ In c_delete_job cs -> c <> c_delete_job ->
  exists signals, run (program (cs ++ [c_delete_job; c])) signals (idle true) = None.
Proof.
  intros cs c Hcs Hc.
  set (xs := program cs ++ steps_of c_delete_job).
  assert (Ex : program (cs ++ [c_delete_job; c]) = xs ++ steps_of c).
  { unfold xs, program. rewrite flat_map_app. cbn [flat_map]. rewrite app_nil_r, app_assoc. reflexivity. }
  rewrite Ex. exists (repeat None (List.length xs) ++ [None; Some true]).
  rewrite run_app.
  - assert (Ef : fold_left (fun r x => match r with Some s => do_step x s | None => None end) xs (Some (idle true)) = Some (idle false)).
    { unfold xs. rewrite fold_left_app.
      assert (Ec : fold_left (fun r x => match r with Some s => do_step x s | None => None end) (program cs) (Some (idle true)) = Some (idle true)).
      { clear - Hcs. induction cs as [|c cs IH]; [reflexivity|].
        assert (Hc : c <> c_delete_job) by (intros ->; apply Hcs; left; reflexivity).
        assert (H : ~ In c_delete_job cs) by (intro; apply Hcs; right; assumption).
        assert (E : steps_of c = [Take (access_of c); Work; Drop (access_of c)])
          by (destruct c; try reflexivity; congruence).
        cbn [program flat_map]. fold (program cs). rewrite E. destruct (access_of c); cbn; exact (IH H). }
      rewrite Ec. reflexivity. }
    rewrite Ef.
    replace (skipn (List.length xs) (repeat None (List.length xs) ++ [None; Some true])) with [None; Some true].
    + destruct c; reflexivity || congruence.
    + clear. induction (List.length xs) as [|n IH]; [reflexivity|exact IH].
  - clear. induction (List.length xs) as [|n IH]; [constructor|]. cbn. constructor; [reflexivity|exact IH].
Qed.

(** A pipeline's own calls between [interrupts_off] and [interrupts_on],
    src/eval.rs:123-298, with a signal before every step. *)
Example C60_blocked_example :
  run (program [c_create_job; c_get_job; c_expand_var; c_push_context; c_pop_context])
      (repeat (Some true) 20) (idle true) = Some (idle true).
Proof. reflexivity. Qed.

(** The prompt, src/main.rs:187, with nothing blocked. *)
Example C60_prompt_example :
  run (steps_of c_expand_var) [None; None; Some false] (idle false) = None /\
  run (steps_of c_get_readline) [None; None; Some false] (idle false) = Some (idle false) /\
  run (steps_of c_get_readline) [None; None; Some true] (idle false) = None.
Proof. repeat split. Qed.

Example C60_after_delete_example :
  run (program [c_get_job; c_delete_job; c_set_current_job])
      [None; None; None; None; None; None; None; None; None; Some false] (idle true) = None.
Proof. reflexivity. Qed.

Print Assumptions C60_blocked_partial.
Print Assumptions C60_unblocked_refuted.
Print Assumptions C60_unblocked_exact.
Print Assumptions C60_delete_partial.
Print Assumptions C60_delete_refuted.
Print Assumptions C60_after_delete_refuted.
