(** Property C139: data flows through a pipeline. *)
From Verif Require Import Base BaseFacts Lexer LexerSpec Ast Parser GrammarSpec.
From Verif Require Import Context Alias Expand ExpandSpec Jobs Shell Builtins Eval EvalSpec RunSpec PipeSpec PipeLaws PipeRun Net.
From Verif Require PropertiesEval PropertiesPipe.
Local Open Scope Z_scope.

(** ** The network of a pipeline *)

(** The ends of the pipes of the line are where they belong, and nowhere else:
    that of the pipe [n + k] only as the standard output of [k] and the standard
    input of [k + 1]. *)
Definition wired (n : Z) (ps : list proc) : Prop :=
  forall k p fd j, nth_error ps k = Some p -> n <= j ->
    (object_at p fd = Some (PipeR j) -> fd = 0 /\ j = n + Z.of_nat k - 1 /\ (0 < k)%nat) /\
    (object_at p fd = Some (PipeW j) -> fd = 1 /\ j = n + Z.of_nat k /\ S k <> List.length ps).
(** No process has been started and the pipes are empty. *)
Definition starting (N : net) : Prop :=
  up N = O /\ (forall j, pipes N j = []) /\ forall k p, nth_error (procs N) k = Some p -> past p = [] /\ live p = true.

Lemma put_length k p l : List.length (put k p l) = List.length l.
Proof. revert k. induction l as [|q l IH]; intros [|k]; cbn; auto. Qed.
Lemma put_same k p q l : nth_error l k = Some q -> nth_error (put k p l) k = Some p.
Proof. revert k. induction l as [|x l IH]; intros [|k] E; cbn in *; try discriminate; auto. Qed.
Lemma put_other k i p l : i <> k -> nth_error (put k p l) i = nth_error l i.
Proof. revert k i. induction l as [|x l IH]; intros [|k] [|i] H; cbn; try congruence; auto. Qed.
Lemma put_get k i p q l x : nth_error l k = Some q -> nth_error (put k p l) i = Some x ->
  (i = k /\ x = p) \/ (i <> k /\ nth_error l i = Some x).
Proof.
  intros E H. destruct (Nat.eq_dec i k) as [->|Hn].
  - rewrite (put_same k p q l E) in H. injection H as <-. auto.
  - rewrite (put_other k i p l Hn) in H. auto.
Qed.

Lemma sent_snoc c b rest r : sent_after c b (rest ++ [r]) =
  sent_after c b rest ++ match r, c (b ++ rest) with Took m, Write bs => firstn m bs | _, _ => [] end.
Proof.
  revert b. induction rest as [|x rest IH]; intros b.
  - cbn [app sent_after]. rewrite !app_nil_r. reflexivity.
  - cbn [app sent_after]. rewrite IH, <- !app_assoc. cbn [app]. reflexivity.
Qed.
Lemma sent_returns r p : sent (returns r p) =
  sent p ++ match r, code p (past p) with Took m, Write bs => firstn m bs | _, _ => [] end.
Proof. unfold sent. cbn [returns code past]. apply sent_snoc. Qed.
Lemma received_returns r p : received (returns r p) = received p ++ match r with Gave bs => bs | _ => [] end.
Proof. unfold received. cbn [returns past]. rewrite flat_map_app. cbn [flat_map]. rewrite app_nil_r. reflexivity. Qed.
Lemma in_returns x r p : In x (past (returns r p)) -> In x (past p) \/ x = r.
Proof. cbn [returns past]. intros H. apply in_app_or in H as [H|[H|[]]]; auto. Qed.

(** ** What holds at every moment *)

(** Of the pipe between the process [k] and the next one. *)
Definition flows (n : Z) (N : net) (k : nat) (p q : proc) : Prop :=
  object_at p 1 = Some (PipeW (n + Z.of_nat k)) -> object_at q 0 = Some (PipeR (n + Z.of_nat k)) ->
  received q ++ pipes N (n + Z.of_nat k) = sent p /\
  (In Ended (past q) -> live p = false /\ pipes N (n + Z.of_nat k) = []) /\
  (In Broken (past p) -> live q = false).
(** The invariant. *)
Definition good (n : Z) (N : net) : Prop :=
  wired n (procs N) /\
  (forall k p, (up N <= k)%nat -> nth_error (procs N) k = Some p -> past p = [] /\ live p = true) /\
  forall k p q, nth_error (procs N) k = Some p -> nth_error (procs N) (S k) = Some q -> flows n N k p q.

Lemma starting_good n N : starting N -> wired n (procs N) -> good n N.
Proof.
  intros (H1 & H2 & H3) Hw. split; [exact Hw|]. split; [intros k p _ E; exact (H3 k p E)|].
  intros k p q Ep Eq _ _. destruct (H3 k p Ep) as [P1 P2]. destruct (H3 (S k) q Eq) as [Q1 Q2].
  unfold received, sent. rewrite P1, Q1, H2. cbn. intuition.
Qed.

Lemma wired_put n k p q l : nth_error l k = Some p -> (forall fd, object_at q fd = object_at p fd) -> wired n l -> wired n (put k q l).
Proof.
  intros E Ho Hw i x fd j Hx Hj. rewrite put_length.
  destruct (put_get k i q p l x E Hx) as [[-> ->]|[_ Hx']]; [rewrite Ho; exact (Hw k p fd j E Hj)|exact (Hw i x fd j Hx' Hj)].
Qed.
Lemma late_put k p q l u : (k < u)%nat -> nth_error l k = Some p ->
  (forall i x, (u <= i)%nat -> nth_error l i = Some x -> past x = [] /\ live x = true) ->
  forall i x, (u <= i)%nat -> nth_error (put k q l) i = Some x -> past x = [] /\ live x = true.
Proof.
  intros Hk E H i x Hi Hx. destruct (put_get k i q p l x E Hx) as [[-> _]|[_ Hx']]; [lia|exact (H i x Hi Hx')].
Qed.

(** A process that gets [r] while the pipes stay as they are. *)
Lemma good_returns n N k p r : good n N -> (k < up N)%nat -> nth_error (procs N) k = Some p ->
  live p = true ->
  match r with Gave bs => bs = [] \/ elsewhere n (object_at p 0) | Took m =>
      (forall bs, code p (past p) = Write bs -> firstn m bs = []) \/ elsewhere n (object_at p 1)
  | Ended => elsewhere n (object_at p 0) \/
      forall i x, k = S i -> nth_error (procs N) i = Some x -> object_at x 1 = Some (PipeW (n + Z.of_nat i)) ->
        live x = false /\ pipes N (n + Z.of_nat i) = []
  | Broken => forall x, nth_error (procs N) (S k) = Some x -> object_at x 0 = Some (PipeR (n + Z.of_nat k)) -> live x = false
  | Failed => True end ->
  good n (with_proc k (returns r p) N).
Proof.
  intros (Hw & Hl & Hf) Hk E Hlive Hr.
  assert (Eo : forall fd, object_at (returns r p) fd = object_at p fd) by reflexivity.
  split; [exact (wired_put n k p _ _ E Eo Hw)|]. split; [exact (late_put k p _ _ _ Hk E Hl)|].
  intros i x y Hx Hy Ox Oy. cbn [with_proc procs pipes] in *.
  destruct (put_get k i _ p _ x E Hx) as [[Hi ->]|[Hi Hx']]; destruct (put_get k (S i) _ p _ y E Hy) as [[Hs ->]|[Hs Hy']]; try lia.
  - subst i. destruct (Hf k p y E Hy' Ox Oy) as (F1 & F2 & F3). split; [|split].
    + rewrite sent_returns, F1. destruct r as [bs| |m| |]; try (symmetry; apply app_nil_r).
      destruct Hr as [Hr|Hr]; [|rewrite Eo in Ox; rewrite Ox in Hr; cbn in Hr; lia].
      destruct (code p (past p)) as [bs| |]; try (symmetry; apply app_nil_r). rewrite (Hr bs eq_refl). symmetry. apply app_nil_r.
    + intros Hin. destruct (F2 Hin) as [F _]. congruence.
    + intros Hin. apply in_returns in Hin as [Hin|<-]; [exact (F3 Hin)|exact (Hr y Hy' Oy)].
  - destruct (Hf i x p Hx' ltac:(rewrite Hs; exact E) Ox Oy) as (F1 & F2 & F3). split; [|split].
    + rewrite received_returns, <- F1. destruct r as [bs| |m| |]; try (rewrite app_nil_r; reflexivity).
      destruct Hr as [->|Hr]; [rewrite app_nil_r; reflexivity|rewrite Eo in Oy; rewrite Oy in Hr; cbn in Hr; lia].
    + intros Hin. apply in_returns in Hin as [Hin|<-]; [exact (F2 Hin)|].
      destruct Hr as [Hr|Hr]; [rewrite Eo in Oy; rewrite Oy in Hr; cbn in Hr; lia|exact (Hr i x (eq_sym Hs) Hx' Ox)].
    + intros Hin. specialize (F3 Hin). congruence.
  - exact (Hf i x y Hx' Hy' Ox Oy).
Qed.

(** A process that ends. *)
Lemma good_over n N k p : good n N -> (k < up N)%nat -> nth_error (procs N) k = Some p -> good n (with_proc k (over p) N).
Proof.
  intros (Hw & Hl & Hf) Hk E.
  assert (Eo : forall fd, object_at (over p) fd = object_at p fd) by reflexivity.
  split; [exact (wired_put n k p _ _ E Eo Hw)|]. split; [exact (late_put k p _ _ _ Hk E Hl)|].
  intros i x y Hx Hy Ox Oy. cbn [with_proc procs pipes] in *.
  destruct (put_get k i _ p _ x E Hx) as [[Hi ->]|[Hi Hx']]; destruct (put_get k (S i) _ p _ y E Hy) as [[Hs ->]|[Hs Hy']]; try lia.
  - subst i. destruct (Hf k p y E Hy' Ox Oy) as (F1 & F2 & F3). split; [exact F1|]. split; [|exact F3].
    intros Hin. destruct (F2 Hin) as [_ F]. split; [reflexivity|exact F].
  - destruct (Hf i x p Hx' ltac:(rewrite Hs; exact E) Ox Oy) as (F1 & F2 & F3). split; [exact F1|]. split; [exact F2|].
    intros _. reflexivity.
  - exact (Hf i x y Hx' Hy' Ox Oy).
Qed.

Lemma good_start n N : good n N -> good n (Net (procs N) (S (up N)) (pipes N)).
Proof.
  intros (Hw & Hl & Hf). split; [exact Hw|]. split; [|exact Hf].
  intros k p Hk. cbn [up procs] in *. apply Hl. lia.
Qed.

Lemma good_write n N k p a b : good n N -> (k < up N)%nat -> nth_error (procs N) k = Some p -> live p = true ->
  code p (past p) = Write (a ++ b) -> object_at p 1 = Some (PipeW (n + Z.of_nat k)) ->
  good n (with_pipe (n + Z.of_nat k) (pipes N (n + Z.of_nat k) ++ a) (with_proc k (returns (Took (List.length a)) p) N)).
Proof.
  intros (Hw & Hl & Hf) Hk E Hlive Hc Hp.
  assert (Eo : forall r fd, object_at (returns r p) fd = object_at p fd) by reflexivity.
  split; [exact (wired_put n k p _ _ E (Eo _) Hw)|]. split; [exact (late_put k p _ _ _ Hk E Hl)|].
  intros i x y Hx Hy Ox Oy. cbn [with_proc with_pipe procs pipes] in *.
  destruct (put_get k i _ p _ x E Hx) as [[Hi ->]|[Hi Hx']]; destruct (put_get k (S i) _ p _ y E Hy) as [[Hs ->]|[Hs Hy']]; try lia.
  - subst i. destruct (Hf k p y E Hy' Ox Oy) as (F1 & F2 & F3). rewrite Z.eqb_refl. split; [|split].
    + rewrite sent_returns, Hc, app_assoc, F1. f_equal. rewrite firstn_app, Nat.sub_diag, firstn_all. cbn. rewrite app_nil_r. reflexivity.
    + intros Hin. destruct (F2 Hin) as [F _]. congruence.
    + intros Hin. apply in_returns in Hin as [Hin|Hin]; [exact (F3 Hin)|discriminate].
  - destruct (Z.eqb_spec (n + Z.of_nat i) (n + Z.of_nat k)) as [Ei|Ei]; [lia|].
    destruct (Hf i x p Hx' ltac:(rewrite Hs; exact E) Ox Oy) as (F1 & F2 & F3). split; [|split].
    + rewrite received_returns, app_nil_r. exact F1.
    + intros Hin. apply in_returns in Hin as [Hin|Hin]; [exact (F2 Hin)|discriminate].
    + intros Hin. specialize (F3 Hin). congruence.
  - destruct (Z.eqb_spec (n + Z.of_nat i) (n + Z.of_nat k)) as [Ei|Ei]; [lia|]. exact (Hf i x y Hx' Hy' Ox Oy).
Qed.

Lemma good_read n N k p a b : good n N -> (S k < up N)%nat -> nth_error (procs N) (S k) = Some p -> live p = true ->
  pipes N (n + Z.of_nat k) = a ++ b -> a <> [] ->
  good n (with_pipe (n + Z.of_nat k) b (with_proc (S k) (returns (Gave a) p) N)).
Proof.
  intros (Hw & Hl & Hf) Hk E Hlive Hc Ha.
  assert (Eo : forall r fd, object_at (returns r p) fd = object_at p fd) by reflexivity.
  split; [exact (wired_put n (S k) p _ _ E (Eo _) Hw)|]. split; [exact (late_put (S k) p _ _ _ Hk E Hl)|].
  intros i x y Hx Hy Ox Oy. cbn [with_proc with_pipe procs pipes] in *.
  destruct (put_get (S k) i _ p _ x E Hx) as [[Hi ->]|[Hi Hx']]; destruct (put_get (S k) (S i) _ p _ y E Hy) as [[Hs ->]|[Hs Hy']]; try lia.
  - destruct (Z.eqb_spec (n + Z.of_nat i) (n + Z.of_nat k)) as [Ei|Ei]; [lia|]. subst i.
    destruct (Hf (S k) p y E Hy' Ox Oy) as (F1 & F2 & F3). split; [|split].
    + rewrite sent_returns, app_nil_r. exact F1.
    + intros Hin. destruct (F2 Hin) as [F _]. congruence.
    + intros Hin. apply in_returns in Hin as [Hin|Hin]; [exact (F3 Hin)|discriminate].
  - injection Hs as ->. rewrite Z.eqb_refl.
    destruct (Hf k x p Hx' E Ox Oy) as (F1 & F2 & F3). split; [|split].
    + rewrite received_returns, <- app_assoc, <- Hc. exact F1.
    + intros Hin. apply in_returns in Hin as [Hin|Hin]; [|discriminate].
      destruct (F2 Hin) as [_ F]. rewrite Hc in F. apply app_eq_nil in F as [F _]. contradiction.
    + intros Hin. specialize (F3 Hin). congruence.
  - destruct (Z.eqb_spec (n + Z.of_nat i) (n + Z.of_nat k)) as [Ei|Ei]; [lia|]. exact (Hf i x y Hx' Hy' Ox Oy).
Qed.

Lemma step_good n cap N N' : net_step n cap N N' -> good n N -> good n N'.
Proof.
  intros H G. pose proof G as (Hw & Hl & Hf).
  destruct H as [N Hu|N k p a b j (D1 & D2 & D3 & D4) O Hj Hh He Hr|N k p bs j (D1 & D2 & D3 & D4) O Hj Hh|N k p bs r (D1 & D2 & D3 & D4) O Hr
                |N k p bs j (D1 & D2 & D3 & D4) O Hj|N k p a b j (D1 & D2 & D3 & D4) O Hj Hp Ha|N k p j (D1 & D2 & D3 & D4) O Hj Hp Hh
                |N k p r (D1 & D2 & D3 & D4) O Hr|N k p j (D1 & D2 & D3 & D4) O Hj|N k p (D1 & D2 & D3 & D4)].
  - exact (good_start n N G).
  - destruct (proj2 (Hw k p 1 j D2 Hj) O) as (_ & -> & _). exact (good_write n N k p a b G D1 D2 D3 D4 O).
  - destruct (proj2 (Hw k p 1 j D2 Hj) O) as (_ & -> & _). apply good_returns; auto.
    intros x Hx Ox. destruct (live x) eqn:El; [|reflexivity]. exfalso. apply Hh.
    destruct (Nat.le_gt_cases (up N) (S k)) as [Hs|Hs].
    + right. assert (up N = S k) as -> by lia. assert (S k < List.length (procs N))%nat by (apply nth_error_Some; congruence).
      split; [lia|]. f_equal. lia.
    + left. exists (S k), x. split; [exact Hs|]. split; [exact Hx|]. split; [exact El|exists 0; exact Ox].
  - apply good_returns; auto. destruct Hr as [->| ->]; auto.
  - apply good_returns; auto.
  - destruct (proj1 (Hw k p 0 j D2 Hj) O) as (_ & Ej & Hk). destruct k as [|k]; [lia|].
    assert (j = n + Z.of_nat k) as -> by lia. exact (good_read n N k p a b G D1 D2 D3 Hp Ha).
  - apply good_returns; auto. right. intros i x -> Hx Ox.
    destruct (proj1 (Hw (S i) p 0 j D2 Hj) O) as (_ & Ej & Hk). assert (j = n + Z.of_nat i) as -> by lia.
    split; [|exact Hp]. destruct (live x) eqn:El; [|reflexivity]. exfalso. apply Hh. left.
    exists i, x. split; [lia|]. split; [exact Hx|]. split; [exact El|exists 1; exact Ox].
  - apply good_returns; auto. destruct Hr as [(bs & _ & ->)|[->| ->]]; auto.
  - apply good_returns; auto.
  - exact (good_over n N k p G D1 D2).
Qed.
Lemma run_good n cap N N' : net_run n cap N N' -> good n N -> good n N'.
Proof.
  intros H G. induction H as [N|N N1 N2 H IH Hs|N N1 k p a H IH (D1 & D2 & _)]; [exact G| |].
  - exact (step_good n cap N1 N2 Hs (IH G)).
  - exact (good_over n N1 k p (IH G) D1 D2).
Qed.

Lemma run_room n cap N N' : net_run n cap N N' -> (forall j, (List.length (pipes N j) <= cap)%nat) -> forall j, (List.length (pipes N' j) <= cap)%nat.
Proof.
  intros R. induction R as [N|N N1 N2 R IH Hs|N N1 k p a R IH D]; intros H0; [exact H0| |exact (IH H0)]. specialize (IH H0). clear H0 R N.
  destruct Hs as [N1 Hu|N1 k p a b j D O Hj Hh He Hr|N1 k p bs j D O Hj Hh|N1 k p bs r D O Hr|N1 k p bs j D O Hj|N1 k p a b j D O Hj Hp Ha
                 |N1 k p j D O Hj Hp Hh|N1 k p r D O Hr|N1 k p j D O Hj|N1 k p D]; try exact IH; intros i; cbn [pipes with_pipe with_proc].
  - destruct (Z.eqb i j); [|apply IH]. rewrite app_length. destruct Hr as [Hr| ->]; [exact Hr|]. cbn [List.length]. specialize (IH j). lia.
  - destruct (Z.eqb i j); [|apply IH]. specialize (IH j). rewrite Hp, app_length in IH. lia.
Qed.

(** Once the reader has ended, the writer writes nothing more. *)
Lemma run_frozen n cap N N' : net_run n cap N N' -> good n N -> forall k p q,
  nth_error (procs N) k = Some p -> nth_error (procs N) (S k) = Some q ->
  object_at p 1 = Some (PipeW (n + Z.of_nat k)) -> live q = false -> (S k < up N)%nat ->
  exists p' q', nth_error (procs N') k = Some p' /\ nth_error (procs N') (S k) = Some q' /\ live q' = false /\ (S k < up N')%nat /\
    object_at p' 1 = Some (PipeW (n + Z.of_nat k)) /\ sent p' = sent p.
Proof.
  intros R G k p q Hp Hq Op Lq Hu.
  assert (Put : forall N1 i x y p1 q1, nth_error (procs N1) k = Some p1 -> nth_error (procs N1) (S k) = Some q1 -> live q1 = false ->
    object_at p1 1 = Some (PipeW (n + Z.of_nat k)) -> sent p1 = sent p -> nth_error (procs N1) i = Some x ->
    (live x = true) -> (forall fd, object_at y fd = object_at x fd) -> (i = k -> sent y = sent x) ->
    exists p' q', nth_error (put i y (procs N1)) k = Some p' /\ nth_error (put i y (procs N1)) (S k) = Some q' /\ live q' = false /\
      object_at p' 1 = Some (PipeW (n + Z.of_nat k)) /\ sent p' = sent p).
  { intros N1 i x y p1 q1 P1 P2 P3 P4 P5 Hi Lx Eo Es.
    assert (i <> S k) by (intros ->; congruence).
    destruct (Nat.eq_dec i k) as [->|Hik].
    - exists y, q1. rewrite (put_same k y x _ Hi), put_other by lia. rewrite P1 in Hi. injection Hi as <-.
      split; [reflexivity|]. split; [exact P2|]. split; [exact P3|]. split; [rewrite Eo; exact P4|]. rewrite (Es eq_refl). exact P5.
    - exists p1, q1. rewrite !put_other by lia. auto. }
  induction R as [N|N N1 N2 R IH Hs|N N1 i x a R IH (D1 & D2 & D3 & D4)].
  - exists p, q. auto 10.
  - destruct (IH G Hp Hq Hu) as (p1 & q1 & P1 & P2 & P3 & P4 & P5 & P6). pose proof (run_good _ _ _ _ R G) as G1.
    clear IH R G Hp Hq Hu.
    assert (Fin : forall i x y, nth_error (procs N1) i = Some x -> live x = true -> (forall fd, object_at y fd = object_at x fd) ->
      (i = k -> sent y = sent x) -> up N2 = up N1 -> procs N2 = put i y (procs N1) ->
      exists p' q', nth_error (procs N2) k = Some p' /\ nth_error (procs N2) (S k) = Some q' /\ live q' = false /\ (S k < up N2)%nat /\
        object_at p' 1 = Some (PipeW (n + Z.of_nat k)) /\ sent p' = sent p).
    { intros i x y Hi Lx Eo Es E1 E2. destruct (Put N1 i x y p1 q1 P1 P2 P3 P5 P6 Hi Lx Eo Es) as (p' & q' & A1 & A2 & A3 & A4 & A5).
      exists p', q'. rewrite E1, E2. auto 10. }
    assert (Silent : forall i x r, nth_error (procs N1) i = Some x ->
       (i = k -> match r, code x (past x) with Took m, Write bs => firstn m bs | _, _ => [] end = []) -> i = k -> sent (returns r x) = sent x).
    { intros i x r Hi Hr Ei. rewrite sent_returns, (Hr Ei). apply app_nil_r. }
    assert (Op1 : forall i x, nth_error (procs N1) i = Some x -> i = k -> object_at x 1 = Some (PipeW (n + Z.of_nat k))) by (intros i x Hi ->; congruence).
    destruct Hs as [N1 Hu|N1 i x a b j (D1 & D2 & D3 & D4) O Hj Hh He Hr|N1 i x bs j (D1 & D2 & D3 & D4) O Hj Hh|N1 i x bs r (D1 & D2 & D3 & D4) O Hr
                |N1 i x bs j (D1 & D2 & D3 & D4) O Hj|N1 i x a b j (D1 & D2 & D3 & D4) O Hj Hp Ha|N1 i x j (D1 & D2 & D3 & D4) O Hj Hp Hh
                |N1 i x r (D1 & D2 & D3 & D4) O Hr|N1 i x j (D1 & D2 & D3 & D4) O Hj|N1 i x (D1 & D2 & D3 & D4)];
      try (eapply (Fin i x _ D2 D3); [| |reflexivity|reflexivity]; [reflexivity|]; try (apply (Silent i x _ D2)); intros Ei; try reflexivity).
    + exists p1, q1. cbn [procs up]. split; [exact P1|]. split; [exact P2|]. split; [exact P3|]. split; [lia|]. auto.
    + exfalso. rewrite (Op1 i x D2 Ei) in O. injection O as <-.
      destruct Hh as [(m & y & Y1 & Y2 & Y3 & fd & Y4)|[_ E]]; [|injection E as E; lia].
      destruct (proj1 (proj1 G1 m y fd (n + Z.of_nat k) Y2 ltac:(lia)) Y4) as (_ & E & _). assert (m = S k) as -> by lia.  congruence.
    + exfalso. rewrite (Op1 i x D2 Ei) in O. cbn in O. lia.
    + destruct Hr as [(bs & _ & ->)|[->| ->]]; reflexivity.
  - destruct (IH G Hp Hq Hu) as (p1 & q1 & P1 & P2 & P3 & P4 & P5 & P6).
    destruct (Put N1 i x (over x) p1 q1 P1 P2 P3 P5 P6 D2 D3 (fun fd => eq_refl) (fun _ => eq_refl)) as (p' & q' & A1 & A2 & A3 & A4 & A5).
    exists p', q'. cbn [with_proc procs up]. auto 10.
Qed.

(** ** Nothing is stuck *)

Lemma pipe_reader n N j : good n N -> n <= j -> held n (PipeR j) N ->
  (exists k p, j = n + Z.of_nat k /\ (S k < up N)%nat /\ nth_error (procs N) (S k) = Some p /\ live p = true /\ object_at p 0 = Some (PipeR j)) \/
  (0 < up N < List.length (procs N))%nat.
Proof.
  intros (Hw & _ & _) Hj [(k & p & H1 & H2 & H3 & fd & H4)|[H1 H2]]; [left|right; exact H1].
  destruct (proj1 (Hw k p fd j H2 Hj) H4) as (-> & Ej & Hk). destruct k as [|k]; [lia|].
  exists k, p. split; [lia|]. auto.
Qed.
Lemma pipe_writer n N k : good n N -> held n (PipeW (n + Z.of_nat k)) N ->
  exists p, (k < up N)%nat /\ nth_error (procs N) k = Some p /\ live p = true /\ object_at p 1 = Some (PipeW (n + Z.of_nat k)).
Proof.
  intros (Hw & _ & _) [(i & p & H1 & H2 & H3 & fd & H4)|[_ H]]; [|discriminate].
  destruct (proj2 (Hw i p fd (n + Z.of_nat k) H2 ltac:(lia)) H4) as (-> & Ej & _). assert (i = k) as -> by lia. exists p. auto.
Qed.

(** A process that runs, and that the pipe after it does not keep from writing:
    it can make a step, or one before it can. *)
Lemma chain n cap N : good n N -> (0 < cap)%nat -> forall k p, (k < up N)%nat -> nth_error (procs N) k = Some p -> live p = true ->
  (forall j, n <= j -> object_at p 1 = Some (PipeW j) -> ~ held n (PipeR j) N \/ held n (PipeR j) N /\ pipes N j = []) ->
  exists N', net_step n cap N N'.
Proof.
  intros G Hcap. induction k as [k IH] using lt_wf_ind. intros p Hk E Hl Hout.
  destruct (code p (past p)) as [bs| |] eqn:Ec.
  - assert (D : doing N k p (Write bs)) by (split; [exact Hk|split; [exact E|split; [exact Hl|exact Ec]]]).
    destruct (object_at p 1) as [[x|j|j|f h]|] eqn:Eo.
    + eexists. eapply ns_write_other; [exact D|rewrite Eo; exact I|left; reflexivity].
    + destruct (Z_lt_le_dec j n).
      * eexists. eapply ns_write_other; [exact D|rewrite Eo; assumption|left; reflexivity].
      * eexists. eapply ns_write_read; eassumption.
    + destruct (Z_lt_le_dec j n) as [Hj|Hj].
      * eexists. eapply ns_write_other; [exact D|rewrite Eo; assumption|left; reflexivity].
      * destruct (Hout j Hj eq_refl) as [Hh|[Hh Hp]].
        -- eexists. eapply ns_broken; eassumption.
        -- eexists. apply (ns_write n cap N k p (firstn 1 bs) (skipn 1 bs) j); auto.
           ++ rewrite firstn_skipn. exact D.
           ++ destruct bs; [reflexivity|discriminate].
           ++ left. rewrite Hp. cbn [List.length]. rewrite firstn_length. lia.
    + eexists. eapply ns_write_other; [exact D|rewrite Eo; exact I|left; reflexivity].
    + eexists. eapply ns_write_other; [exact D|rewrite Eo; exact I|left; reflexivity].
  - assert (D : doing N k p Read) by (split; [exact Hk|split; [exact E|split; [exact Hl|exact Ec]]]).
    destruct (object_at p 0) as [[x|j|j|f h]|] eqn:Eo.
    + eexists. eapply ns_read_other; [exact D|rewrite Eo; exact I|right; left; reflexivity].
    + destruct (Z_lt_le_dec j n) as [Hj|Hj].
      * eexists. eapply ns_read_other; [exact D|rewrite Eo; assumption|right; left; reflexivity].
      * destruct (pipes N j) as [|c l] eqn:Ep.
        -- destruct (proj1 (proj1 G k p 0 j E Hj) Eo) as (_ & Ej & Hk0). destruct k as [|k]; [lia|].
           assert (j = n + Z.of_nat k) as -> by lia.
           assert (Dec : held n (PipeW (n + Z.of_nat k)) N \/ ~ held n (PipeW (n + Z.of_nat k)) N).
           { destruct (nth_error (procs N) k) as [x|] eqn:Ex.
             - destruct (live x) eqn:Lx.
               + assert (Dd : {object_at x 1 = Some (PipeW (n + Z.of_nat k))} + {object_at x 1 <> Some (PipeW (n + Z.of_nat k))}).
                 { destruct (object_at x 1) as [[y|i|i|f h]|]; try (right; discriminate).
                   destruct (Z.eq_dec i (n + Z.of_nat k)) as [->|]; [left; reflexivity|right; congruence]. }
                 destruct Dd as [Dd|Dd].
                 * left. left. exists k, x. split; [lia|]. split; [exact Ex|]. split; [exact Lx|exists 1; exact Dd].
                 * right. intros Hh. apply (pipe_writer n N k G) in Hh as (y & _ & Ey & _ & Oy). congruence.
               + right. intros Hh. apply (pipe_writer n N k G) in Hh as (y & _ & Ey & Ly & _). congruence.
             - right. intros Hh. apply (pipe_writer n N k G) in Hh as (y & _ & Ey & _). congruence. }
           destruct Dec as [Hh|Hh].
           ++ destruct (pipe_writer n N k G Hh) as (x & X1 & X2 & X3 & X4).
              apply (IH k ltac:(lia) x X1 X2 X3). intros i Hi Oi. rewrite X4 in Oi. injection Oi as <-. right.
              split; [|exact Ep]. left. exists (S k), p. split; [exact Hk|]. split; [exact E|]. split; [exact Hl|exists 0; exact Eo].
           ++ eexists. eapply ns_end; eassumption.
        -- eexists. apply (ns_read n cap N k p [c] l j); auto; discriminate.
    + destruct (Z_lt_le_dec j n).
      * eexists. eapply ns_read_other; [exact D|rewrite Eo; assumption|right; left; reflexivity].
      * eexists. eapply ns_read_write; eassumption.
    + eexists. eapply ns_read_other; [exact D|rewrite Eo; exact I|right; left; reflexivity].
    + eexists. eapply ns_read_other; [exact D|rewrite Eo; exact I|right; left; reflexivity].
  - eexists. apply ns_stop. split; [exact Hk|split; [exact E|split; [exact Hl|exact Ec]]].
Qed.

Lemma greatest (l : list proc) k p : nth_error l k = Some p -> live p = true ->
  exists i q, nth_error l i = Some q /\ live q = true /\ forall j x, (i < j)%nat -> nth_error l j = Some x -> live x = false.
Proof.
  intros E H. assert (Hex : exists m, (k + m = List.length l)%nat).
  { exists (List.length l - k)%nat. assert (k < List.length l)%nat by (apply nth_error_Some; congruence). lia. }
  destruct Hex as [m Em]. revert k p E H Em. induction m as [m IH] using lt_wf_ind. intros k p E H Em.
  assert (D : (exists j x, (k < j)%nat /\ nth_error l j = Some x /\ live x = true) \/
              forall j x, (k < j)%nat -> nth_error l j = Some x -> live x = false).
  { clear. revert k. induction l as [|y l IHl]; intros k; [right; intros [|j] x _ E; discriminate|].
    destruct k as [|k].
    - destruct (existsb live l) eqn:Ex.
      + apply existsb_exists in Ex as (x & Hin & Hx). apply In_nth_error in Hin as [j Hj]. left. exists (S j), x. split; [lia|]. auto.
      + right. intros [|j] x Hj E; [lia|]. cbn in E. destruct (live x) eqn:Lx; [|reflexivity].
        assert (existsb live l = true) by (apply existsb_exists; exists x; split; [exact (nth_error_In l j E)|exact Lx]). congruence.
    - destruct (IHl k) as [(j & x & J1 & J2 & J3)|Hn].
      + left. exists (S j), x. split; [lia|]. auto.
      + right. intros [|j] x Hj E; [lia|]. exact (Hn j x ltac:(lia) E). }
  destruct D as [(j & x & J1 & J2 & J3)|Hn].
  - assert (j < List.length l)%nat by (apply nth_error_Some; congruence).
    exact (IH (List.length l - j)%nat ltac:(lia) j x J2 J3 ltac:(lia)).
  - exists k, p. auto.
Qed.

Lemma good_progress n cap N : good n N -> (0 < cap)%nat -> (exists k p, nth_error (procs N) k = Some p /\ live p = true) ->
  exists N', net_step n cap N N'.
Proof.
  intros G Hcap (k0 & p0 & E0 & L0).
  destruct (Nat.le_gt_cases (List.length (procs N)) (up N)) as [Hu|Hu]; [|eexists; apply ns_start; exact Hu].
  destruct (greatest _ _ _ E0 L0) as (k & p & E & Hl & Hlast).
  assert (Hk : (k < List.length (procs N))%nat) by (apply nth_error_Some; congruence).
  apply (chain n cap N G Hcap k p ltac:(lia) E Hl). intros j Hj Oj. left. intros Hh.
  destruct (proj2 (proj1 G k p 1 j E Hj) Oj) as (_ & -> & _).
  destruct (pipe_reader n N _ G Hj Hh) as [(i & x & Ei & _ & Ex & Lx & _)|[_ Hlt]]; [|lia].
  assert (i = k) as -> by lia. specialize (Hlast (S k) x ltac:(lia) Ex). congruence.
Qed.

(** ** The line *)

Lemma run_tables n cap N N' : net_run n cap N N' -> List.length (procs N') = List.length (procs N) /\
  forall k p', nth_error (procs N') k = Some p' -> exists p, nth_error (procs N) k = Some p /\ p_tab p' = p_tab p.
Proof.
  assert (P : forall k p q (l : list proc), nth_error l k = Some p -> p_tab q = p_tab p ->
    List.length (put k q l) = List.length l /\
    forall i x, nth_error (put k q l) i = Some x -> exists y, nth_error l i = Some y /\ p_tab x = p_tab y).
  { intros k p q l E Et. split; [apply put_length|]. intros i x Hx.
    destruct (put_get k i q p l x E Hx) as [[-> ->]|[_ Hx']]; eauto. }
  intros H. induction H as [N|N N1 N2 H [IH1 IH2] Hs|N N1 k p a H [IH1 IH2] (D1 & D2 & _)].
  - split; [reflexivity|]. eauto.
  - assert (Q : List.length (procs N2) = List.length (procs N1) /\
      forall i x, nth_error (procs N2) i = Some x -> exists y, nth_error (procs N1) i = Some y /\ p_tab x = p_tab y).
    { destruct Hs as [N1 Hu|N1 k p a b j (D1 & D2 & D3 & D4)|N1 k p bs j (D1 & D2 & D3 & D4)|N1 k p bs r (D1 & D2 & D3 & D4)
                     |N1 k p bs j (D1 & D2 & D3 & D4)|N1 k p a b j (D1 & D2 & D3 & D4)|N1 k p j (D1 & D2 & D3 & D4)
                     |N1 k p r (D1 & D2 & D3 & D4)|N1 k p j (D1 & D2 & D3 & D4)|N1 k p (D1 & D2 & D3 & D4)];
        cbn [procs with_proc with_pipe]; try (apply (P k p); [exact D2|reflexivity]).
      split; [reflexivity|]. eauto. }
    destruct Q as [Q1 Q2]. split; [congruence|]. intros i x Hx. destruct (Q2 i x Hx) as (y & Hy & Ey).
    destruct (IH2 i y Hy) as (z & Hz & Ez). exists z. split; [exact Hz|congruence].
  - destruct (P k p (over p) (procs N1) D2 eq_refl) as [Q1 Q2]. split; [cbn; congruence|]. intros i x Hx.
    destruct (Q2 i x Hx) as (y & Hy & Ey). destruct (IH2 i y Hy) as (z & Hz & Ez). exists z. split; [exact Hz|congruence].
Qed.

(** What a process started by the shell has open once it runs its program, or
    nothing if it never does. *)
Definition opened (o : out unit) (s : shell) (fd : Z) : option desc :=
  match o with OExec _ _ _ => kept (nget fd (fds (im s))) | _ => None end.
(** [ps] are the processes that the line started, each with the descriptors it has
    when its program starts; the programs may be any. *)
Definition processes_of (s s' : shell) (len : nat) (ps : list proc) : Prop :=
  List.length ps = len /\
  forall new, trace s' = new ++ trace s -> forall k p, nth_error ps k = Some p ->
    past p = [] /\ live p = true /\
    exists img c r w2 m o2 s2, nth_error (forks new) k = Some (img, c, r) /\ run_child w2 m img c = (o2, s2) /\
      forall fd, p_tab p fd = opened o2 s2 fd.

Lemma line_tables w d b bg scs scs' s o s' ps :
  scs <> [] -> wf_pipeline (Pipeline b (map CSimple scs) bg) -> Forall2 (program (im s)) scs scs' ->
  table (fds (im s)) -> nget 0 (fds (im s)) <> None -> nget 1 (fds (im s)) <> None ->
  exec_text w (S d) (r_pipeline (Pipeline b (map CSimple scs) bg)) s = (o, s') ->
  processes_of s s' (List.length scs') ps ->
  forall k p, nth_error ps k = Some p -> past p = [] /\ live p = true /\ exists sc, nth_error scs' k = Some sc /\
    ((forall fd, p_tab p fd = None) \/
     forall fd, p_tab p fd = kept (redirected (redirections_in sc) (piped (fds (im s)) (next_pipe (im s)) (List.length scs') k) fd)).
Proof.
  intros Hne Hw HF Ht H0 H1 H [Hlen Hps] k p Hp.
  destruct (exec_programs w d b bg scs scs' s o s' Hne Hw HF Ht H) as (new & E & _).
  destruct (Hps new E k p Hp) as (P1 & P2 & img & c & r & w2 & m & o2 & s2 & Hk & Hrun & Htab).
  split; [exact P1|]. split; [exact P2|].
  assert (Hk' : forall new', trace s' = new' ++ trace s -> nth_error (forks new') k = Some (img, c, r)).
  { intros new' E'. rewrite E in E'. apply app_inv_tail in E'. subst new'. exact Hk. }
  destruct (PropertiesPipe.C70_program_runs w d b bg scs scs' s o s' k img c r w2 m o2 s2 Hne Hw HF Ht H0 H1 H Hk' Hrun)
    as (sc & Hsc & [(path & e & tr & -> & _ & _ & Hfd & _)|[[-> _]|[-> _]]]); exists sc; (split; [exact Hsc|]).
  - right. intros fd. rewrite Htab. exact (Hfd fd).
  - left. exact Htab.
  - left. exact Htab.
Qed.

Lemma redirected_end rs t fd d j : redirected rs t fd = Some d -> d_obj d = PipeR j \/ d_obj d = PipeW j -> t fd = Some d.
Proof.
  unfold redirected. intros H Hd.
  destruct (Z.eqb fd 0); [destruct (find _ _); [injection H as <-; destruct Hd; discriminate|exact H]|].
  destruct (Z.eqb fd 1); [destruct (find _ _); [injection H as <-; destruct Hd; discriminate|exact H]|exact H].
Qed.

Lemma line_wired w d b bg scs scs' s o s' ps :
  scs <> [] -> wf_pipeline (Pipeline b (map CSimple scs) bg) -> Forall2 (program (im s)) scs scs' ->
  table (fds (im s)) -> no_future_pipe (fds (im s)) (next_pipe (im s)) ->
  nget 0 (fds (im s)) <> None -> nget 1 (fds (im s)) <> None ->
  exec_text w (S d) (r_pipeline (Pipeline b (map CSimple scs) bg)) s = (o, s') ->
  processes_of s s' (List.length scs') ps -> good (next_pipe (im s)) (Net ps O (fun _ => [])).
Proof.
  intros Hne Hw HF Ht Hn H0 H1 H Hps.
  pose proof (line_tables w d b bg scs scs' s o s' ps Hne Hw HF Ht H0 H1 H Hps) as HT.
  apply starting_good.
  - split; [reflexivity|]. split; [reflexivity|]. intros k p Hp. destruct (HT k p Hp) as (P1 & P2 & _). auto.
  - intros k p fd j Hp Hj. cbn [procs] in *. destruct (HT k p Hp) as (_ & _ & sc & _ & Htab). rewrite (proj1 Hps). unfold object_at.
    destruct Htab as [Htab|Htab]; rewrite Htab; [split; discriminate|].
    destruct (redirected _ _ fd) as [dd|] eqn:Er; [|split; discriminate]. unfold kept. destruct (d_cloexec dd); [split; discriminate|].
    assert (Hd : d_obj dd = PipeR j \/ d_obj dd = PipeW j -> _ ) by (intros Hd; exact (redirected_end _ _ _ _ _ Er Hd)).
    split; intros Eo; injection Eo as Eo.
    + exact (proj1 (PropertiesPipe.C46_ends _ _ _ _ _ _ _ Hn Hj (Hd (or_introl Eo))) Eo).
    + exact (proj2 (PropertiesPipe.C46_ends _ _ _ _ _ _ _ Hn Hj (Hd (or_intror Eo))) Eo).
Qed.

Lemma line_objects w d b bg scs scs' s o s' ps cap N k p q scp scq :
  scs <> [] -> wf_pipeline (Pipeline b (map CSimple scs) bg) -> Forall2 (program (im s)) scs scs' ->
  table (fds (im s)) -> no_future_pipe (fds (im s)) (next_pipe (im s)) ->
  nget 0 (fds (im s)) <> None -> nget 1 (fds (im s)) <> None ->
  exec_text w (S d) (r_pipeline (Pipeline b (map CSimple scs) bg)) s = (o, s') ->
  processes_of s s' (List.length scs') ps ->
  net_run (next_pipe (im s)) cap (Net ps O (fun _ => [])) N ->
  nth_error (procs N) k = Some p -> nth_error (procs N) (S k) = Some q ->
  nth_error scs' k = Some scp -> nth_error scs' (S k) = Some scq ->
  p_tab p 1 <> None -> p_tab q 0 <> None ->
  (forall x, In x (redirections_in scp) -> is_input x = true) ->
  (forall x, In x (redirections_in scq) -> is_input x = false) ->
  object_at p 1 = Some (PipeW (next_pipe (im s) + Z.of_nat k)) /\ object_at q 0 = Some (PipeR (next_pipe (im s) + Z.of_nat k)).
Proof.
  intros Hne Hw HF Ht Hn H0 H1 H Hps Hrun Hp Hq Hscp Hscq Hop Hoq Rp Rq.
  destruct (run_tables _ _ _ _ Hrun) as [_ HT]. cbn [procs] in HT.
  pose proof (line_tables w d b bg scs scs' s o s' ps Hne Hw HF Ht H0 H1 H Hps) as HL.
  assert (Op : object_at p 1 = Some (PipeW (next_pipe (im s) + Z.of_nat k))).
  { destruct (HT k p Hp) as (p0 & Hp0 & Et). unfold object_at. rewrite Et in *.
    destruct (HL k p0 Hp0) as (_ & _ & sc & Hsc & [Hnone|Htab]); [rewrite Hnone in Hop; congruence|].
    rewrite Hscp in Hsc. injection Hsc as <-. rewrite Htab. unfold redirected. cbn [Z.eqb].
    destruct (find _ _) as [x|] eqn:Ef.
    - apply find_some in Ef as [Hin Hx]. apply in_rev in Hin. rewrite (Rp x Hin) in Hx. discriminate.
    - unfold piped. cbn [Z.eqb]. destruct (Nat.eqb_spec (S k) (List.length scs')) as [El|El]; [|reflexivity].
      assert (S k < List.length scs')%nat by (apply nth_error_Some; congruence). lia. }
  assert (Oq : object_at q 0 = Some (PipeR (next_pipe (im s) + Z.of_nat k))).
  { destruct (HT (S k) q Hq) as (q0 & Hq0 & Et). unfold object_at. rewrite Et in *.
    destruct (HL (S k) q0 Hq0) as (_ & _ & sc & Hsc & [Hnone|Htab]); [rewrite Hnone in Hoq; congruence|].
    rewrite Hscq in Hsc. injection Hsc as <-. rewrite Htab. unfold redirected. cbn [Z.eqb].
    destruct (find _ _) as [x|] eqn:Ef.
    - apply find_some in Ef as [Hin Hx]. apply in_rev in Hin. rewrite (Rq x Hin) in Hx. discriminate.
    - reflexivity. }
  split; [exact Op|exact Oq].
Qed.

(** ** C139 *)

(** A line that is a pipeline of programs, of any length; programs that read and
    write as they like; pipes of any size; any order of the steps, some of them
    taken while the shell is still starting the rest, and any process killed at any
    moment.  Where a command writes to the pipe and the next one reads from it
    (neither has redirected that end), the next one has read what the command has
    written, from the beginning, in order and without gaps, but for what is still in
    the pipe.  It sees the end of its input only when the command has ended and it has
    read everything.  A write fails with a broken pipe only when the next one has
    ended. *)
Theorem C139_flow : forall w d b bg scs scs' s o s' ps cap N k p q scp scq,
  scs <> [] -> wf_pipeline (Pipeline b (map CSimple scs) bg) -> Forall2 (program (im s)) scs scs' ->
  table (fds (im s)) -> no_future_pipe (fds (im s)) (next_pipe (im s)) ->
  nget 0 (fds (im s)) <> None -> nget 1 (fds (im s)) <> None ->
  exec_text w (S d) (r_pipeline (Pipeline b (map CSimple scs) bg)) s = (o, s') ->
  processes_of s s' (List.length scs') ps ->
  net_run (next_pipe (im s)) cap (Net ps O (fun _ => [])) N ->
  nth_error (procs N) k = Some p -> nth_error (procs N) (S k) = Some q ->
  nth_error scs' k = Some scp -> nth_error scs' (S k) = Some scq ->
  p_tab p 1 <> None -> p_tab q 0 <> None ->
  (forall x, In x (redirections_in scp) -> is_input x = true) ->
  (forall x, In x (redirections_in scq) -> is_input x = false) ->
  received q ++ pipes N (next_pipe (im s) + Z.of_nat k) = sent p /\
  (In Ended (past q) -> live p = false /\ received q = sent p) /\
  (In Broken (past p) -> live q = false).
Proof.
  intros w d b bg scs scs' s o s' ps cap N k p q scp scq Hne Hw HF Ht Hn H0 H1 H Hps Hrun Hp Hq Hscp Hscq Hop Hoq Rp Rq.
  pose proof (line_wired w d b bg scs scs' s o s' ps Hne Hw HF Ht Hn H0 H1 H Hps) as G.
  apply (run_good _ _ _ _ Hrun) in G as (_ & _ & Hf).
  destruct (line_objects w d b bg scs scs' s o s' ps cap N k p q scp scq Hne Hw HF Ht Hn H0 H1 H Hps Hrun Hp Hq Hscp Hscq Hop Hoq Rp Rq) as [Op Oq].
  destruct (Hf k p q Hp Hq Op Oq) as (F1 & F2 & F3). split; [exact F1|]. split; [|exact F3].
  intros Hin. destruct (F2 Hin) as [F4 F5]. split; [exact F4|]. rewrite F5, app_nil_r in F1. exact F1.
Qed.

(** And the other way round: when the command has ended and everything has been read,
    a read sees the end of the input; when the next one has ended, a write fails with
    a broken pipe.  Neither waits for anything else. *)
Theorem C139_ends_seen : forall w d b bg scs scs' s o s' ps cap N k p q scp scq,
  scs <> [] -> wf_pipeline (Pipeline b (map CSimple scs) bg) -> Forall2 (program (im s)) scs scs' ->
  table (fds (im s)) -> no_future_pipe (fds (im s)) (next_pipe (im s)) ->
  nget 0 (fds (im s)) <> None -> nget 1 (fds (im s)) <> None ->
  exec_text w (S d) (r_pipeline (Pipeline b (map CSimple scs) bg)) s = (o, s') ->
  processes_of s s' (List.length scs') ps ->
  net_run (next_pipe (im s)) cap (Net ps O (fun _ => [])) N ->
  nth_error (procs N) k = Some p -> nth_error (procs N) (S k) = Some q ->
  nth_error scs' k = Some scp -> nth_error scs' (S k) = Some scq ->
  p_tab p 1 <> None -> p_tab q 0 <> None ->
  (forall x, In x (redirections_in scp) -> is_input x = true) ->
  (forall x, In x (redirections_in scq) -> is_input x = false) ->
  (live p = false -> received q = sent p -> doing N (S k) q Read ->
     net_step (next_pipe (im s)) cap N (with_proc (S k) (returns Ended q) N)) /\
  (forall bs, live q = false -> doing N k p (Write bs) ->
     net_step (next_pipe (im s)) cap N (with_proc k (returns Broken p) N)).
Proof.
  intros w d b bg scs scs' s o s' ps cap N k p q scp scq Hne Hw HF Ht Hn H0 H1 H Hps Hrun Hp Hq Hscp Hscq Hop Hoq Rp Rq.
  pose proof (line_wired w d b bg scs scs' s o s' ps Hne Hw HF Ht Hn H0 H1 H Hps) as G.
  apply (run_good _ _ _ _ Hrun) in G. pose proof G as (_ & Hlate & Hf).
  destruct (line_objects w d b bg scs scs' s o s' ps cap N k p q scp scq Hne Hw HF Ht Hn H0 H1 H Hps Hrun Hp Hq Hscp Hscq Hop Hoq Rp Rq) as [Op Oq].
  split.
  - intros Lp Er D. apply (ns_end _ _ _ _ _ (next_pipe (im s) + Z.of_nat k)); [exact D|exact Oq|lia| |].
    + destruct (Hf k p q Hp Hq Op Oq) as (F1 & _). rewrite Er in F1. rewrite <- (app_nil_r (sent p)) in F1 at 2.
      apply app_inv_head in F1. exact F1.
    + intros Hh. apply (pipe_writer _ N k G) in Hh as (x & _ & Ex & Lx & _). congruence.
  - intros bs Lq D. apply (ns_broken _ _ _ _ _ bs (next_pipe (im s) + Z.of_nat k)); [exact D|exact Op|lia|].
    assert (Hu : (S k < up N)%nat).
    { destruct (Nat.lt_ge_cases (S k) (up N)) as [Hu|Hu]; [exact Hu|]. destruct (Hlate (S k) q Hu Hq) as [_ L]. congruence. }
    intros [(i & x & X1 & X2 & X3 & fd & X4)|[_ E]]; [|injection E as E; lia].
    destruct (proj1 (proj1 G i x fd (next_pipe (im s) + Z.of_nat k) X2 ltac:(lia)) X4) as (_ & E & _).
    assert (i = S k) as -> by lia. congruence.
Qed.

(** A command is never ahead of the next one by more than a pipe holds, and it writes
    nothing more once the next one has ended, however the run goes on. *)
Theorem C139_ahead : forall w d b bg scs scs' s o s' ps cap N k p q scp scq,
  scs <> [] -> wf_pipeline (Pipeline b (map CSimple scs) bg) -> Forall2 (program (im s)) scs scs' ->
  table (fds (im s)) -> no_future_pipe (fds (im s)) (next_pipe (im s)) ->
  nget 0 (fds (im s)) <> None -> nget 1 (fds (im s)) <> None ->
  exec_text w (S d) (r_pipeline (Pipeline b (map CSimple scs) bg)) s = (o, s') ->
  processes_of s s' (List.length scs') ps ->
  net_run (next_pipe (im s)) cap (Net ps O (fun _ => [])) N ->
  nth_error (procs N) k = Some p -> nth_error (procs N) (S k) = Some q ->
  nth_error scs' k = Some scp -> nth_error scs' (S k) = Some scq ->
  p_tab p 1 <> None -> p_tab q 0 <> None ->
  (forall x, In x (redirections_in scp) -> is_input x = true) ->
  (forall x, In x (redirections_in scq) -> is_input x = false) ->
  (List.length (sent p) <= List.length (received q) + cap)%nat /\
  forall N' p', live q = false -> net_run (next_pipe (im s)) cap N N' -> nth_error (procs N') k = Some p' -> sent p' = sent p.
Proof.
  intros w d b bg scs scs' s o s' ps cap N k p q scp scq Hne Hw HF Ht Hn H0 H1 H Hps Hrun Hp Hq Hscp Hscq Hop Hoq Rp Rq.
  pose proof (line_wired w d b bg scs scs' s o s' ps Hne Hw HF Ht Hn H0 H1 H Hps) as G0.
  pose proof (run_good _ _ _ _ Hrun G0) as G. pose proof G as (Hwi & Hlate & Hf).
  destruct (line_objects w d b bg scs scs' s o s' ps cap N k p q scp scq Hne Hw HF Ht Hn H0 H1 H Hps Hrun Hp Hq Hscp Hscq Hop Hoq Rp Rq) as [Op Oq].
  split.
  - destruct (Hf k p q Hp Hq Op Oq) as (F1 & _). rewrite <- F1, app_length.
    pose proof (run_room _ _ _ _ Hrun (fun j => Nat.le_0_l cap) (next_pipe (im s) + Z.of_nat k)). lia.
  - intros N' p' Lq R Hp'.
    assert (Hu : (S k < up N)%nat).
    { destruct (Nat.lt_ge_cases (S k) (up N)) as [Hu|Hu]; [exact Hu|]. destruct (Hlate (S k) q Hu Hq) as [_ L]. congruence. }
    destruct (run_frozen _ _ _ _ R G k p q Hp Hq Op Lq Hu) as (p1 & q1 & P1 & _ & _ & _ & _ & P5). congruence.
Qed.

(** What a pipeline computes.  When every command has read its whole input and ended,
    and each has turned what it read into what it wrote by some function, the last has
    written what the functions make of what the first has read, one after the other. *)
Theorem C139_composition : forall w d b bg scs scs' s o s' ps cap N (fs : list (list BinNums.N -> list BinNums.N)) first last,
  scs <> [] -> wf_pipeline (Pipeline b (map CSimple scs) bg) -> Forall2 (program (im s)) scs scs' ->
  table (fds (im s)) -> no_future_pipe (fds (im s)) (next_pipe (im s)) ->
  nget 0 (fds (im s)) <> None -> nget 1 (fds (im s)) <> None ->
  exec_text w (S d) (r_pipeline (Pipeline b (map CSimple scs) bg)) s = (o, s') ->
  processes_of s s' (List.length scs') ps ->
  net_run (next_pipe (im s)) cap (Net ps O (fun _ => [])) N ->
  (forall sc, In sc scs' -> redirections_in sc = []) -> (forall p, In p ps -> p_tab p 0 <> None /\ p_tab p 1 <> None) ->
  List.length fs = List.length scs' ->
  (forall k p f, nth_error (procs N) k = Some p -> nth_error fs k = Some f ->
     live p = false /\ ((0 < k)%nat -> In Ended (past p)) /\ sent p = f (received p)) ->
  nth_error (procs N) 0 = Some first -> nth_error (procs N) (List.length scs' - 1) = Some last ->
  sent last = fold_left (fun x f => f x) fs (received first).
Proof.
  intros w d b bg scs scs' s o s' ps cap N fs first last Hne Hw HF Ht Hn H0 H1 H Hps Hrun Hnr Hop Hlen Hfs Hfirst Hlast.
  pose proof (run_tables _ _ _ _ Hrun) as [HlenN HT]. cbn [procs] in HlenN, HT. rewrite (proj1 Hps) in HlenN.
  assert (Step : forall k p, nth_error (procs N) k = Some p -> sent p = fold_left (fun x f => f x) (firstn (S k) fs) (received first)).
  { induction k as [|k IH]; intros p Hp.
    - rewrite Hfirst in Hp. injection Hp as <-. destruct fs as [|f fs]; [destruct scs' as [|x l]; [inversion HF; subst; contradiction|discriminate]|].
      destruct (Hfs 0%nat first f Hfirst eq_refl) as (_ & _ & E). exact E.
    - assert (Hk : (S k < List.length (procs N))%nat) by (apply nth_error_Some; congruence).
      destruct (nth_error (procs N) k) as [p0|] eqn:E0; [|apply nth_error_None in E0; lia].
      destruct (nth_error scs' k) as [sc0|] eqn:S0; [|apply nth_error_None in S0; lia].
      destruct (nth_error scs' (S k)) as [sc1|] eqn:S1; [|apply nth_error_None in S1; lia].
      destruct (nth_error fs (S k)) as [f|] eqn:Ef; [|apply nth_error_None in Ef; lia].
      assert (Tab : forall i x, nth_error (procs N) i = Some x -> p_tab x 0 <> None /\ p_tab x 1 <> None).
      { intros i x Hx. destruct (HT i x Hx) as (y & Hy & ->). apply Hop. exact (nth_error_In _ _ Hy). }
      destruct (Hfs (S k) p f Hp Ef) as (_ & He & Es). specialize (He ltac:(lia)).
      destruct (C139_flow w d b bg scs scs' s o s' ps cap N k p0 p sc0 sc1 Hne Hw HF Ht Hn H0 H1 H Hps Hrun E0 Hp S0 S1) as (_ & F & _).
      + exact (proj2 (Tab _ _ E0)).
      + exact (proj1 (Tab _ _ Hp)).
      + intros x Hx. rewrite (Hnr sc0 (nth_error_In _ _ S0)) in Hx. destruct Hx.
      + intros x Hx. rewrite (Hnr sc1 (nth_error_In _ _ S1)) in Hx. destruct Hx.
      + destruct (F He) as [_ Er]. rewrite Es, Er, (IH p0 eq_refl).
        assert (Eq : firstn (S (S k)) fs = firstn (S k) fs ++ [f]).
        { clear -Ef. revert fs Ef. induction (S k) as [|m IHm]; intros [|g fs] Ef; try discriminate; cbn in Ef.
          - injection Ef as ->. reflexivity.
          - cbn [firstn app]. f_equal. exact (IHm fs Ef). }
        rewrite Eq, fold_left_app. reflexivity. }
  rewrite (Step _ last Hlast). f_equal. apply firstn_all2. lia.
Qed.

(** What the shell itself has open of the pipes while it starts the processes, which
    is what [held] says of it: when the [k]-th is started, the read end of the pipe
    before it, and both ends of the pipe after it, which is new; no write end of an
    older pipe.  When all have been started it has none. *)
Theorem C139_shell_ends : forall w d b bg scs scs' s o s',
  scs <> [] -> wf_pipeline (Pipeline b (map CSimple scs) bg) -> Forall2 (program (im s)) scs scs' ->
  table (fds (im s)) -> no_future_pipe (fds (im s)) (next_pipe (im s)) ->
  exec_text w (S d) (r_pipeline (Pipeline b (map CSimple scs) bg)) s = (o, s') ->
  exists new, trace s' = new ++ trace s /\
    (forall k img c r j, nth_error (forks new) k = Some (img, c, r) -> next_pipe (im s) <= j ->
       ((exists fd dd, nget fd (fds img) = Some dd /\ d_obj dd = PipeR j) <->
          ((0 < k)%nat /\ j = next_pipe (im s) + Z.of_nat k - 1) \/ (S k <> List.length scs' /\ j = next_pipe (im s) + Z.of_nat k)) /\
       ((exists fd dd, nget fd (fds img) = Some dd /\ d_obj dd = PipeW j) <->
          S k <> List.length scs' /\ j = next_pipe (im s) + Z.of_nat k)) /\
    (List.length (forks new) = List.length scs' ->
       forall fd dd j, nget fd (fds (im s')) = Some dd -> d_obj dd = PipeR j \/ d_obj dd = PipeW j -> j < next_pipe (im s)).
Proof.
  intros w d b bg scs scs' s o s' Hne Hw HF Ht Hn H.
  destruct (exec_programs w d b bg scs scs' s o s' Hne Hw HF Ht H) as (new & E & Hc & _ & Hr).
  exists new. split; [exact E|]. split.
  - intros k img c r j Hk Hj. destruct (Hc k _ Hk) as (_ & _ & _ & _ & (_ & A1 & A2 & A3)).
    assert (Old : forall fd dd, nget fd (fds (im s)) = Some dd -> d_obj dd = PipeR j \/ d_obj dd = PipeW j -> False).
    { intros fd dd E1 E2. specialize (Hn fd dd j E1 E2). lia. }
    destruct (Nat.eqb_spec (S k) (List.length scs')) as [El|El]; (split; [split|split]).
    + intros (fd & dd & E1 & E2). rewrite A3 in E1. destruct (Z.eqb fd (c_prev c)).
      * destruct k; [discriminate|]. injection E1 as <-. injection E2 as <-. left. lia.
      * exfalso. exact (Old fd dd E1 (or_introl E2)).
    + intros [[K1 K2]|[K _]]; [|contradiction]. destruct k as [|k]; [lia|]. exists (c_prev c). eexists.
      rewrite A3, Z.eqb_refl. split; [reflexivity|]. cbn [d_obj]. f_equal. lia.
    + intros (fd & dd & E1 & E2). rewrite A3 in E1. destruct (Z.eqb fd (c_prev c)).
      * destruct k; [discriminate|]. injection E1 as <-. discriminate.
      * exfalso. exact (Old fd dd E1 (or_intror E2)).
    + intros [K _]. contradiction.
    + intros (fd & dd & E1 & E2). rewrite A3 in E1. destruct (Z.eqb fd (c_prev c)); [|destruct (Z.eqb fd (fst _)); [|destruct (Z.eqb fd (snd _))]].
      * destruct k; [discriminate|]. injection E1 as <-. injection E2 as <-. left. lia.
      * injection E1 as <-. injection E2 as <-. right. split; [exact El|reflexivity].
      * injection E1 as <-. discriminate.
      * exfalso. exact (Old fd dd E1 (or_introl E2)).
    + intros [[K1 K2]|[_ K]].
      * destruct k as [|k]; [lia|]. exists (c_prev c). eexists. rewrite A3, Z.eqb_refl. split; [reflexivity|]. cbn [d_obj]. f_equal. lia.
      * exists (fst (c_pipe c)). eexists. rewrite A3, Z.eqb_refl. destruct (Z.eqb_spec (fst (c_pipe c)) (c_prev c)); [lia|].
        split; [reflexivity|]. cbn [d_obj]. f_equal. lia.
    + intros (fd & dd & E1 & E2). rewrite A3 in E1. destruct (Z.eqb fd (c_prev c)); [|destruct (Z.eqb fd (fst _)); [|destruct (Z.eqb fd (snd _))]].
      * destruct k; [discriminate|]. injection E1 as <-. discriminate.
      * injection E1 as <-. discriminate.
      * injection E1 as <-. injection E2 as <-. split; [exact El|reflexivity].
      * exfalso. exact (Old fd dd E1 (or_intror E2)).
    + intros [_ K]. exists (snd (c_pipe c)). eexists. rewrite A3, Z.eqb_refl.
      destruct (Z.eqb_spec (snd (c_pipe c)) (c_prev c)); [lia|]. destruct (Z.eqb_spec (snd (c_pipe c)) (fst (c_pipe c))); [lia|].
      split; [reflexivity|]. cbn [d_obj]. f_equal. lia.
  - intros El fd dd j E1 E2. destruct Hr as [[_ Hr]|(_ & Hr & _)]; [|lia]. rewrite Hr in E1. exact (Hn fd dd j E1 E2).
Qed.

(** Under the same circumstances and with pipes that hold at least one byte, the
    pipeline is never stuck: as long as one of its processes runs, or is yet to be
    started, a step is possible, and this without anything being killed.  The
    commands may have redirections and some may not exist. *)
Theorem C139_no_deadlock : forall w d b bg scs scs' s o s' ps cap N k p,
  scs <> [] -> wf_pipeline (Pipeline b (map CSimple scs) bg) -> Forall2 (program (im s)) scs scs' ->
  table (fds (im s)) -> no_future_pipe (fds (im s)) (next_pipe (im s)) ->
  nget 0 (fds (im s)) <> None -> nget 1 (fds (im s)) <> None ->
  exec_text w (S d) (r_pipeline (Pipeline b (map CSimple scs) bg)) s = (o, s') ->
  processes_of s s' (List.length scs') ps -> (0 < cap)%nat ->
  net_run (next_pipe (im s)) cap (Net ps O (fun _ => [])) N ->
  nth_error (procs N) k = Some p -> live p = true ->
  exists N', net_step (next_pipe (im s)) cap N N'.
Proof.
  intros w d b bg scs scs' s o s' ps cap N k p Hne Hw HF Ht Hn H0 H1 H Hps Hcap Hrun Hp Hl.
  pose proof (line_wired w d b bg scs scs' s o s' ps Hne Hw HF Ht Hn H0 H1 H Hps) as G.
  apply (run_good _ _ _ _ Hrun) in G. apply (good_progress _ cap N G Hcap). eauto.
Qed.

Import PropertiesEval PropertiesPipe.
(** [a x | b | c y] where [a] writes two bytes, [b] copies its input to its output
    and [c] reads until the end and then writes how much it has read, over pipes that
    hold one byte. *)
Definition ex_tab (o0 o1 : object) (fd : Z) : option desc :=
  kept (nget fd [(0, Desc o0 false); (1, Desc o1 false); (2, Desc (Other 2) false)]).
Definition ex_a (h : list result) : action :=
  match h with [] => Write [7; 8]%N | [Took _] => Write [8]%N | _ => Stop end.
Definition ex_b (h : list result) : action :=
  match rev h with Gave bs :: _ => Write bs | [] | Took _ :: _ => Read | _ => Stop end.
Definition ex_c (h : list result) : action :=
  match rev h with Ended :: rest => Write [N.of_nat (List.length rest)] | [] | Gave _ :: _ => Read | _ => Stop end.
Definition ex_line (ca cb cc : list result -> action) : list proc :=
  [Proc (ex_tab (Other 0) (PipeW 0)) ca [] true; Proc (ex_tab (PipeR 0) (PipeW 1)) cb [] true;
   Proc (ex_tab (PipeR 1) (Other 1)) cc [] true].
Definition ex_ps : list proc := ex_line ex_a ex_b ex_c.
Definition ex_child (f : image * child * option positive) := run_child ex_os 3 (fst (fst f)) (snd (fst f)).
Definition ex_open (o0 o1 : object) : fdtable := [(0, Desc o0 false); (1, Desc o1 false); (2, Desc (Other 2) false)].
Lemma ex_children :
  map (fun f => (match fst (ex_child f) with OExec _ _ _ => true | _ => false end, fds (im (snd (ex_child f)))))
      (forks (trace (snd (exec_text ex_os 5 (lit " a x | b | c y") ex_shell)))) =
  [(true, ex_open (Other 0) (PipeW 0)); (true, ex_open (PipeR 0) (PipeW 1)); (true, ex_open (PipeR 1) (Other 1))].
Proof. vm_compute. reflexivity. Qed.
Lemma ex_processes ca cb cc t : t = lit " a x | b | c y" ->
  processes_of ex_shell (snd (exec_text ex_os 5 t ex_shell)) (List.length ex_three') (ex_line ca cb cc).
Proof.
  intros ->. split; [reflexivity|]. intros new E k p Hp.
  assert (En : new = trace (snd (exec_text ex_os 5 (lit " a x | b | c y") ex_shell))).
  { change (trace ex_shell) with (@nil event) in E. rewrite app_nil_r in E. symmetry. exact E. }
  subst new. clear E. pose proof (f_equal (fun l => nth_error l k) ex_children) as Hc. cbn beta in Hc. rewrite nth_error_map in Hc.
  destruct (nth_error (forks _) k) as [f|].
  - assert (Hf : exists t, Some (true, t) = Some (match fst (ex_child f) with OExec _ _ _ => true | _ => false end, fds (im (snd (ex_child f)))) /\
                 past p = [] /\ live p = true /\ forall fd, p_tab p fd = kept (nget fd t)).
    { cbn [option_map] in Hc. rewrite Hc. destruct k as [|[|[|k]]]; cbn in Hp; [injection Hp as <-..|destruct k; discriminate];
        (eexists; split; [reflexivity|]); split; [reflexivity|split; [reflexivity|reflexivity]|reflexivity|split; [reflexivity|reflexivity]|reflexivity|split; [reflexivity|reflexivity]]. }
    destruct Hf as (t & Et & P1 & P2 & Htab). injection Et as Eo Et.
    split; [exact P1|]. split; [exact P2|]. destruct f as [[img c] r]. unfold ex_child in *. cbn [fst snd] in *.
    destruct (run_child ex_os 3 img c) as [o2 s2] eqn:Er. exists img, c, r, ex_os, 3%nat, o2, s2.
    split; [reflexivity|]. split; [exact Er|]. intros fd. rewrite Htab. cbn [fst snd] in *. destruct o2; try discriminate.
    cbn [opened]. rewrite <- Et. reflexivity.
  - destruct k as [|[|[|k]]]; cbn in Hc, Hp; try discriminate. destruct k; discriminate.
Qed.
Lemma run_cons n cap N N1 N2 : net_step n cap N N1 -> net_run n cap N1 N2 -> net_run n cap N N2.
Proof.
  intros H R. induction R as [N1|N1 N3 N4 R IH Hs|N1 N3 k p a R IH D].
  - eapply nr_step; [apply nr_refl|exact H].
  - eapply nr_step; [exact (IH H)|exact Hs].
  - eapply nr_kill; [exact (IH H)|exact D].
Qed.
Ltac ex_doing := split; [vm_compute; lia|split; [reflexivity|split; reflexivity]].
Ltac ex_nobody :=
  intros [(k & p & Hk & E & L & fd & O)|[Hk E]]; [|discriminate];
  destruct k as [|[|[|k]]]; cbn in E; [injection E as <-..|destruct k; discriminate]; try discriminate L;
  unfold object_at in O; cbn in O; unfold ex_tab, kept in O; cbn in O;
  repeat (match type of O with context [Z.eqb ?a ?b] => destruct (Z.eqb a b) end; cbn in O); discriminate O.
Example C139_example :
  exists N, net_run 0 1 (Net ex_ps O (fun _ => [])) N /\
    map received (procs N) = [[]; [7; 8]; [7; 8]]%N /\ map sent (procs N) = [[7; 8]; [7; 8]; [2]]%N /\
    map live (procs N) = [false; false; false] /\ map past (procs N) =
      [[Took 1; Took 1]; [Gave [7%N]; Took 1; Gave [8%N]; Took 1; Ended]; [Gave [7%N]; Gave [8%N]; Ended; Took 1]].
Proof.
  eexists. split.
  - eapply run_cons; [apply ns_start; cbn; lia|].
    eapply run_cons; [eapply (ns_write 0 1 _ 0 _ [7%N] [8%N] 0); [ex_doing|reflexivity|lia|right; split; [cbn; lia|reflexivity]|discriminate|left; cbn; lia]|].
    eapply run_cons; [apply ns_start; cbn; lia|].
    eapply run_cons; [apply ns_start; cbn; lia|].
    eapply run_cons; [eapply (ns_read 0 1 _ 1 _ [7%N] [] 0); [ex_doing|reflexivity|lia|reflexivity|discriminate]|].
    eapply run_cons; [eapply (ns_write 0 1 _ 0 _ [8%N] [] 0); [ex_doing|reflexivity|lia| |discriminate|left; cbn; lia]|].
    { left. exists 1%nat. eexists. split; [cbn; lia|]. split; [reflexivity|]. split; [reflexivity|exists 0; reflexivity]. }
    eapply run_cons; [eapply (ns_write 0 1 _ 1 _ [7%N] [] 1); [ex_doing|reflexivity|lia| |discriminate|left; cbn; lia]|].
    { left. exists 2%nat. eexists. split; [cbn; lia|]. split; [reflexivity|]. split; [reflexivity|exists 0; reflexivity]. }
    eapply run_cons; [eapply (ns_read 0 1 _ 2 _ [7%N] [] 1); [ex_doing|reflexivity|lia|reflexivity|discriminate]|].
    eapply run_cons; [eapply (ns_read 0 1 _ 1 _ [8%N] [] 0); [ex_doing|reflexivity|lia|reflexivity|discriminate]|].
    eapply run_cons; [eapply (ns_write 0 1 _ 1 _ [8%N] [] 1); [ex_doing|reflexivity|lia| |discriminate|left; cbn; lia]|].
    { left. exists 2%nat. eexists. split; [cbn; lia|]. split; [reflexivity|]. split; [reflexivity|exists 0; reflexivity]. }
    eapply run_cons; [eapply (ns_stop 0 1 _ 0); ex_doing|].
    eapply run_cons; [eapply (ns_end 0 1 _ 1 _ 0); [ex_doing|reflexivity|lia|reflexivity|ex_nobody]|].
    eapply run_cons; [eapply (ns_stop 0 1 _ 1); ex_doing|].
    eapply run_cons; [eapply (ns_read 0 1 _ 2 _ [8%N] [] 1); [ex_doing|reflexivity|lia|reflexivity|discriminate]|].
    eapply run_cons; [eapply (ns_end 0 1 _ 2 _ 1); [ex_doing|reflexivity|lia|reflexivity|ex_nobody]|].
    eapply run_cons; [eapply (ns_write_other 0 1 _ 2 _ [2%N] (Took 1)); [ex_doing|exact I|left; reflexivity]|].
    eapply run_cons; [eapply (ns_stop 0 1 _ 2); ex_doing|].
    apply nr_refl.
  - split; [|split; [|split]]; vm_compute; reflexivity.
Qed.
(** The functions of C139_composition for it. *)
Example C139_example_functions :
  fold_left (fun x f => f x) [fun _ => [7; 8]%N; fun x => x; fun x => [N.of_nat (List.length x)]] [] = [2%N].
Proof. reflexivity. Qed.
(** The line, the shell and the processes meet the hypotheses of the theorems. *)
Example C139_meets :
  ex_three <> [] /\ wf_pipeline (Pipeline false (map CSimple ex_three) false) /\
  Forall2 (program (im ex_shell)) ex_three ex_three' /\ table (fds (im ex_shell)) /\
  no_future_pipe (fds (im ex_shell)) (next_pipe (im ex_shell)) /\
  nget 0 (fds (im ex_shell)) <> None /\ nget 1 (fds (im ex_shell)) <> None /\
  processes_of ex_shell (snd (exec_text ex_os 5 (r_pipeline (Pipeline false (map CSimple ex_three) false)) ex_shell)) (List.length ex_three') ex_ps /\
  Forall (fun sc => redirections_in sc = []) ex_three' /\ Forall (fun p => p_tab p 0 <> None /\ p_tab p 1 <> None) ex_ps.
Proof.
  destruct C46_example as (E1 & E2 & E3 & _).
  split; [discriminate|]. split; [exact E2|]. split.
  { clear -E3. induction E3 as [|x x' l l' Hx HF IH]; constructor; [apply (program_same (im ex_shell5)); [reflexivity..|exact Hx]|exact IH]. }
  split; [split; [repeat constructor; cbn; lia|]|].
  { intros fd dd E. cbn in E. repeat (match type of E with context [Z.eqb fd ?b] => destruct (Z.eqb_spec fd b); [lia|] end). discriminate. }
  split.
  { intros fd dd k E Ek. cbn in E.
    repeat (match type of E with context [Z.eqb fd ?b] => destruct (Z.eqb fd b); [injection E as <-; destruct Ek; discriminate|] end). discriminate. }
  split; [discriminate|]. split; [discriminate|]. split.
  { apply ex_processes. exact E1. }
  split; [repeat constructor|]. repeat constructor; vm_compute; discriminate.
Qed.

Print Assumptions C139_flow.
Print Assumptions C139_ends_seen.
Print Assumptions C139_ahead.
Print Assumptions C139_composition.
Print Assumptions C139_shell_ends.
Print Assumptions C139_no_deadlock.
