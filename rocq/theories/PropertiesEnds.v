(** Property C141: a pipeline comes to its end. *)
From Verif Require Import Base BaseFacts Lexer LexerSpec Ast Parser GrammarSpec.
From Verif Require Import Context Alias Expand ExpandSpec Jobs Shell Builtins Eval EvalSpec RunSpec PipeSpec PipeLaws PipeRun Net PropertiesNet.
From Verif Require PropertiesEval PropertiesPipe.
Local Open Scope Z_scope.

(** ** Programs that end *)

(** What is left of a number of bytes, if there is a limit, after [m] of them. *)
Definition spent (b : option nat) (m : nat) (b' : option nat) : Prop :=
  match b, b' with None, None => True | Some x, Some y => x = (m + y)%nat | _, _ => False end.
(** The program ends after finitely many more calls, whatever they return: if there
    is a limit [i], as long as its reads give it no more than that many bytes, and if
    there is a limit [o], as long as its writes take no more. *)
Inductive ends (c : list result -> action) : option nat -> option nat -> list result -> Prop :=
| ends_stop i o h : c h = Stop -> ends c i o h
| ends_read i o h : c h = Read ->
    (forall bs i', bs <> [] -> spent i (List.length bs) i' -> ends c i' o (h ++ [Gave bs])) ->
    ends c i o (h ++ [Ended]) -> ends c i o (h ++ [Failed]) -> ends c i o h
| ends_write i o h bs : c h = Write bs ->
    (forall m o', (m <= List.length bs)%nat -> (m = O -> bs = []) -> spent o m o' -> ends c i o' (h ++ [Took m])) ->
    ends c i o (h ++ [Broken]) -> ends c i o (h ++ [Failed]) -> ends c i o h.
(** It does so whatever the limits are: on any finite input, if [fi]; when its output
    is taken only up to some point, if [fo]; in any case, if neither. *)
Definition tame (fi fo : bool) (c : list result -> action) (h : list result) : Prop :=
  forall x y, ends c (if fi then Some x else None) (if fo then Some y else None) h.

(** The process [k] of the line comes to its end: its program ends on any finite
    input, and the input is none of the pipes, or comes from a process that comes to
    its end; or it ends when its output is not taken any more, and this goes to a
    process that comes to its end; or both are needed; or none. *)
Inductive settles (n : Z) (ps : list proc) : nat -> Prop :=
| settle k p fi fo : nth_error ps k = Some p -> tame fi fo (code p) (past p) ->
    (forall k' j, fi = true -> object_at p 0 = Some (PipeR j) -> n <= j -> k = S k' -> settles n ps k') ->
    (fo = true -> object_at p 1 = Some (PipeW (n + Z.of_nat k))) ->
    (fo = true -> settles n ps (S k)) ->
    settles n ps k.

(** ** What can happen *)

(** A step, or the end of a process by a signal. *)
Definition move (n : Z) (cap : nat) (N N' : net) : Prop :=
  net_step n cap N N' \/ exists k p a, doing N k p a /\ N' = with_proc k (over p) N.
(** What has come into the line from outside, from the terminal or a file, is at most
    [limit] bytes for each process. *)
Definition supplied (n : Z) (limit : nat) (N : net) : Prop :=
  forall k p, nth_error (procs N) k = Some p -> elsewhere n (object_at p 0) -> (List.length (received p) <= limit)%nat.
Definition goes (n : Z) (cap limit : nat) (N N' : net) : Prop := move n cap N N' /\ supplied n limit N'.
(** Whatever happens, [P] will hold at some point, and until then something can
    happen. *)
Inductive inevitable (R : net -> net -> Prop) (P : net -> Prop) (N : net) : Prop :=
| now : P N -> inevitable R P N
| later : (exists N', R N N') -> (forall N', R N N' -> inevitable R P N') -> inevitable R P N.

(** ** Programs *)

Definition reply (c : list result -> action) (h : list result) (r : result) : Prop :=
  match r with
  | Gave bs => c h = Read /\ bs <> []
  | Ended => c h = Read
  | Took m => exists bs, c h = Write bs /\ (m <= List.length bs)%nat /\ (m = O -> bs = [])
  | Broken => exists bs, c h = Write bs
  | Failed => c h <> Stop
  end.
Definition gain (r : result) : nat := match r with Gave bs => List.length bs | _ => O end.
Definition loss (r : result) : nat := match r with Took m => m | _ => O end.
Lemma spent_0 b b' : spent b 0 b' -> b' = b.
Proof. destruct b, b'; cbn; intros H; try contradiction; congruence. Qed.
Lemma ends_reply c i o i' o' h r : ends c i o h -> reply c h r -> spent i (gain r) i' -> spent o (loss r) o' -> ends c i' o' (h ++ [r]).
Proof.
  intros H Hr Hi Ho. destruct H as [i o h E|i o h E G1 G2 G3|i o h bs E G1 G2 G3]; destruct r as [b| |m| |]; cbn [reply gain loss] in *;
    try (apply spent_0 in Hi; subst i'); try (apply spent_0 in Ho; subst o'); try assumption;
    try (destruct Hr as (? & Hr & _); congruence); try (destruct Hr as (? & Hr); congruence); try congruence; try (destruct Hr; congruence).
  - apply G1; [exact (proj2 Hr)|exact Hi].
  - destruct Hr as (b & Eb & Hm & Hz). rewrite E in Eb. injection Eb as <-. apply G1; assumption.
Qed.
Lemma tame_reply fi fo c h r : tame fi fo c h -> reply c h r -> tame fi fo c (h ++ [r]).
Proof.
  intros H Hr x y. eapply ends_reply; [exact (H (gain r + x)%nat (loss r + y)%nat)|exact Hr|destruct fi; exact I || reflexivity|destruct fo; exact I || reflexivity].
Qed.

(** Where a process is: its program, whether it runs, what it can still read and
    write, and what it has been told. *)
Notation place := ((list result -> action) * bool * option nat * option nat * list result)%type.
Inductive below : place -> place -> Prop :=
| below_over c i o h : below (c, false, i, o, h) (c, true, i, o, h)
| below_reply c i o i' o' h r : reply c h r -> spent i (gain r) i' -> spent o (loss r) o' -> below (c, true, i', o', h ++ [r]) (c, true, i, o, h).
Lemma over_acc c i o h : Acc below (c, false, i, o, h).
Proof. constructor. intros y H. inversion H. Qed.
Lemma ends_acc c i o h : ends c i o h -> Acc below (c, true, i, o, h).
Proof.
  intros H. induction H as [i o h E|i o h E G1 I1 G2 I2 G3 I3|i o h bs E G1 I1 G2 I2 G3 I3]; constructor; intros y Hy; inversion Hy as [|? ? ? i' o' ? r Hr Hi Ho]; subst; try apply over_acc;
    destruct r as [b| |m| |]; cbn [reply gain loss] in *;
    try (apply spent_0 in Hi; subst i'); try (apply spent_0 in Ho; subst o'); try assumption;
    try (destruct Hr as (? & Hr & _); congruence); try (destruct Hr as (? & Hr); congruence); try congruence; try (destruct Hr; congruence).
  - apply I1; [exact (proj2 Hr)|exact Hi].
  - destruct Hr as (b & Eb & Hm & Hz). rewrite E in Eb. injection Eb as <-. apply I1; assumption.
Qed.

(** ** Steps *)

Section Run.
Context (n : Z) (cap limit : nat).

(** What a step of the process [k] is. *)
Inductive acts (k : nat) (N N' : net) : Prop :=
| acts_over p : nth_error (procs N) k = Some p -> live p = true -> (k < up N)%nat -> N' = with_proc k (over p) N -> acts k N N'
| acts_reply p r : nth_error (procs N) k = Some p -> live p = true -> (k < up N)%nat -> reply (code p) (past p) r ->
    up N' = up N -> procs N' = put k (returns r p) (procs N) ->
    (forall j, j <> n + Z.of_nat k -> (object_at p 0 = Some (PipeR j) -> j < n) -> pipes N' j = pipes N j) ->
    (forall j, object_at p 0 = Some (PipeR j) -> n <= j -> List.length (pipes N j) = (gain r + List.length (pipes N' j))%nat) ->
    (object_at p 1 = Some (PipeW (n + Z.of_nat k)) ->
       List.length (pipes N' (n + Z.of_nat k)) = (loss r + List.length (pipes N (n + Z.of_nat k)))%nat /\
       ((loss r + List.length (pipes N (n + Z.of_nat k)) <= cap)%nat \/ loss r = O)) -> acts k N N'.
Definition starts (N N' : net) : Prop := (up N < List.length (procs N))%nat /\ N' = Net (procs N) (S (up N)) (pipes N).

Lemma move_kinds N N' : good n N -> move n cap N N' -> starts N N' \/ exists k, acts k N N'.
Proof.
  intros (Hw & _ & _) [H|(k & p & a & (D1 & D2 & D3 & D4) & ->)]; [|right; exists k; eapply acts_over; eauto].
  assert (Same : forall k p r, (k < up N)%nat -> nth_error (procs N) k = Some p -> live p = true -> reply (code p) (past p) r ->
    (forall j, object_at p 0 = Some (PipeR j) -> n <= j -> gain r = O) ->
    (object_at p 1 = Some (PipeW (n + Z.of_nat k)) -> loss r = O) -> acts k N (with_proc k (returns r p) N)).
  { intros k p r D1 D2 D3 Hr Hg Hl. eapply (acts_reply k N _ p r); auto.
    - intros j E Hj. rewrite (Hg j E Hj). reflexivity.
    - intros E. rewrite (Hl E). auto. }
  destruct H as [N Hu|N k p a b j (D1 & D2 & D3 & D4) O Hj Hh He Hr|N k p bs j (D1 & D2 & D3 & D4) O Hj Hh|N k p bs r (D1 & D2 & D3 & D4) O Hr
                |N k p bs j (D1 & D2 & D3 & D4) O Hj|N k p a b j (D1 & D2 & D3 & D4) O Hj Hp Ha|N k p j (D1 & D2 & D3 & D4) O Hj Hp Hh
                |N k p r (D1 & D2 & D3 & D4) O Hr|N k p j (D1 & D2 & D3 & D4) O Hj|N k p (D1 & D2 & D3 & D4)];
    [left; split; [exact Hu|reflexivity]|right; exists k..].
  - destruct (proj2 (Hw k p 1 j D2 Hj) O) as (_ & -> & _).
    eapply (acts_reply k N _ p (Took (List.length a))); auto.
    + exists (a ++ b). split; [exact D4|]. rewrite app_length. split; [lia|]. intros E. apply length_zero_iff_nil in E. rewrite (He E), E. reflexivity.
    + intros i Hi _. cbn [pipes with_pipe]. destruct (Z.eqb_spec i (n + Z.of_nat k)); [contradiction|reflexivity].
    + intros i Ei Hni. destruct (proj1 (Hw k p 0 i D2 Hni) Ei) as (_ & Ej & _). cbn [pipes with_pipe gain].
      destruct (Z.eqb_spec i (n + Z.of_nat k)); [lia|reflexivity].
    + intros _. cbn [pipes with_pipe loss]. rewrite Z.eqb_refl, app_length. split; [lia|]. destruct Hr as [Hr| ->]; [left; lia|right; reflexivity].
  - apply Same; auto. cbn. eauto.
  - apply Same; auto.
    + destruct Hr as [->| ->]; cbn; [|congruence]. exists bs. split; [exact D4|]. split; [lia|]. intros E. apply length_zero_iff_nil in E. exact E.
    + intros j _ _. destruct Hr as [->| ->]; reflexivity.
    + intros E. rewrite E in O. cbn in O. lia.
  - apply Same; auto. cbn. congruence.
  - destruct (proj1 (Hw k p 0 j D2 Hj) O) as (_ & Ej & Hk).
    eapply (acts_reply k N _ p (Gave a)); auto.
    + split; assumption.
    + intros i _ Hi. cbn [pipes with_pipe]. destruct (Z.eqb_spec i j) as [->|]; [|reflexivity]. specialize (Hi O). lia.
    + intros i Ei _. rewrite O in Ei. injection Ei as <-. cbn [pipes with_pipe gain]. rewrite Z.eqb_refl, Hp, app_length. reflexivity.
    + intros _. cbn [pipes with_pipe loss]. destruct (Z.eqb_spec (n + Z.of_nat k) j); [lia|]. auto.
  - apply Same; auto.
  - apply Same; auto.
    + destruct Hr as [(bs & Hb & ->)|[->| ->]]; cbn; [auto|exact D4|congruence].
    + intros j E Hj. rewrite E in O. cbn in O. lia.
    + intros _. destruct Hr as [(bs & _ & ->)|[->| ->]]; reflexivity.
  - apply Same; auto. cbn. congruence.
  - eapply acts_over; eauto.
Qed.

(** ** Processes in the order of their dependence *)

Definition outside (p : proc) : bool :=
  match object_at p 0 with Some (PipeR j) | Some (PipeW j) => Z.ltb j n | _ => true end.
Lemma outside_elsewhere p : outside p = true <-> elsewhere n (object_at p 0).
Proof. unfold outside, elsewhere. destruct (object_at p 0) as [[x|j|j|f h]|]; rewrite ?Z.ltb_lt; tauto. Qed.
Definition ids (l : list (nat * (bool * bool))) : list nat := map fst l.
Definition rests (ks : list nat) (k : nat) (fi fo : bool) (N : net) : Prop :=
  exists p, nth_error (procs N) k = Some p /\ tame fi fo (code p) (past p) /\
    (fi = true -> outside p = true \/ exists k', k = S k' /\ In k' ks) /\
    (fo = true -> object_at p 1 = Some (PipeW (n + Z.of_nat k)) /\ In (S k) ks).
Fixpoint order (l : list (nat * (bool * bool))) (N : net) : Prop :=
  match l with
  | [] => True
  | (k, (fi, fo)) :: l' => ~ In k (ids l') /\ rests (ids l') k fi fo N /\ order l' N
  end.
Lemma rests_acts ks k fi fo i N N' : rests ks k fi fo N -> acts i N N' -> rests ks k fi fo N'.
Proof.
  intros (p & E & Ht & Hi & Ho) A. destruct (Nat.eq_dec k i) as [->|Hne].
  - destruct A as [q Eq _ _ ->|q r Eq _ _ Hr _ Ep _ _ _]; rewrite E in Eq; injection Eq as <-.
    + exists (over p). cbn [with_proc procs]. rewrite (put_same i (over p) p _ E). auto.
    + exists (returns r p). rewrite Ep, (put_same i (returns r p) p _ E). split; [reflexivity|]. split; [|auto].
      exact (tame_reply fi fo _ _ r Ht Hr).
  - exists p. split; [|auto]. destruct A as [q Eq _ _ ->|q r Eq _ _ Hr _ Ep _ _ _]; [cbn [with_proc procs]|rewrite Ep]; rewrite put_other by exact Hne; exact E.
Qed.
Lemma order_acts l i N N' : order l N -> acts i N N' -> order l N'.
Proof.
  intros H A. induction l as [|[k [fi fo]] l IH]; [exact I|]. destruct H as (H1 & H2 & H3).
  split; [exact H1|]. split; [exact (rests_acts _ k fi fo i N N' H2 A)|exact (IH H3)].
Qed.
Lemma order_starts l N N' : order l N -> starts N N' -> order l N'.
Proof.
  intros H [_ ->]. induction l as [|[k [fi fo]] l IH]; [exact I|]. destruct H as (H1 & H2 & H3). split; [exact H1|]. split; [exact H2|exact (IH H3)].
Qed.

(** What the process [k] can still do. *)
Definition within (k : nat) (fi fo : bool) (N : net) : place :=
  match nth_error (procs N) k with
  | Some p => (code p, live p,
      if fi then Some (if outside p then limit - List.length (received p) else List.length (pipes N (n + Z.of_nat k - 1)))%nat else None,
      if fo then Some (cap - List.length (pipes N (n + Z.of_nat k)))%nat else None,
      past p)
  | None => (fun _ => Stop, true, None, None, [])
  end.
Lemma within_acc ks k fi fo N : rests ks k fi fo N -> Acc below (within k fi fo N).
Proof.
  intros (p & E & Ht & _). unfold within. rewrite E. destruct (live p); [|apply over_acc]. apply ends_acc.
  specialize (Ht (if outside p then limit - List.length (received p) else List.length (pipes N (n + Z.of_nat k - 1)))%nat
                 (cap - List.length (pipes N (n + Z.of_nat k)))%nat).
  exact Ht.
Qed.
Lemma within_less ks k fi fo N N' : good n N -> rests ks k fi fo N -> supplied n limit N' -> acts k N N' -> below (within k fi fo N') (within k fi fo N).
Proof.
  intros (Hw & _) (p & E & _ & Hi & Ho) Hs A. unfold within. rewrite E.
  destruct A as [q Eq Hl _ ->|q r Eq Hl _ Hr _ Ep Hp1 Hp2 Hp3]; rewrite E in Eq; injection Eq as <-.
  - cbn [with_proc procs]. rewrite (put_same k (over p) p _ E), Hl. apply below_over.
  - rewrite Ep, (put_same k (returns r p) p _ E), Hl. cbn [returns code live past]. rewrite Hl. apply below_reply; [exact Hr| |].
    + destruct fi; [|exact I]. cbn [spent]. change (outside (returns r p)) with (outside p). destruct (outside p) eqn:Eo.
      * apply outside_elsewhere in Eo. specialize (Hs k (returns r p)). rewrite Ep, (put_same k (returns r p) p _ E) in Hs.
        specialize (Hs eq_refl Eo). rewrite received_returns, app_length in Hs |- *. destruct r; cbn [gain List.length] in *; lia.
      * destruct (Hi eq_refl) as [F|_]; [congruence|]. unfold outside in Eo.
        destruct (object_at p 0) as [[x|j|j|f h]|] eqn:Eob; try discriminate; apply Z.ltb_ge in Eo.
        -- destruct (proj1 (Hw k p 0 j E Eo) Eob) as (_ & -> & Hk). exact (Hp2 _ eq_refl Eo).
        -- destruct (proj2 (Hw k p 0 j E Eo) Eob) as (F & _). discriminate.
    + destruct fo; [|exact I]. cbn [spent]. destruct (Ho eq_refl) as [Oo _]. destruct (Hp3 Oo) as [L [R|R]]; lia.
Qed.
Lemma within_same ks k fi fo i N N' : good n N -> rests ks k fi fo N -> acts i N N' -> i <> k -> ~ In i ks -> within k fi fo N' = within k fi fo N.
Proof.
  intros (Hw & _) (p & E & _ & Hi & Ho) A Hne Hn. unfold within.
  assert (Ep : nth_error (procs N') k = nth_error (procs N) k).
  { destruct A as [q Eq _ _ ->|q r Eq _ _ Hr _ Ep _ _ _]; [cbn [with_proc procs]|rewrite Ep]; apply put_other; congruence. }
  rewrite Ep, E. destruct A as [q Eq _ _ ->|q r Eq _ _ Hr _ _ Hp1 Hp2 Hp3]; [reflexivity|].
  assert (Same : forall j, j <> n + Z.of_nat i -> (n <= j -> j <> n + Z.of_nat i - 1) -> pipes N' j = pipes N j).
  { intros j Hj Hj'. apply Hp1; [exact Hj|]. intros Oq. destruct (Z_lt_le_dec j n) as [|Hnj]; [assumption|].
    destruct (proj1 (Hw i q 0 j Eq Hnj) Oq) as (_ & F & _). specialize (Hj' Hnj). lia. }
  assert (E1 : fi = true -> outside p = false -> pipes N' (n + Z.of_nat k - 1) = pipes N (n + Z.of_nat k - 1)).
  { intros -> Eo. destruct (Hi eq_refl) as [F|(k' & -> & Hin)]; [congruence|]. assert (i <> k') by (intros ->; contradiction).
    apply Same; [lia|intros _; lia]. }
  assert (E2 : fo = true -> pipes N' (n + Z.of_nat k) = pipes N (n + Z.of_nat k)).
  { intros ->. destruct (Ho eq_refl) as [_ Hin]. assert (i <> S k) by (intros ->; contradiction). apply Same; [lia|intros _; lia]. }
  destruct fi, fo; try rewrite (E2 eq_refl); try reflexivity; (destruct (outside p); [reflexivity|rewrite (E1 eq_refl eq_refl); reflexivity]).
Qed.

(** ** Every run is finite *)

Definition fine (full : list (nat * (bool * bool))) (N : net) : Prop :=
  good n N /\ order full N /\ forall k, (k < List.length (procs N))%nat -> In k (ids full).
Lemma acts_size i N N' : acts i N N' -> up N' = up N /\ List.length (procs N') = List.length (procs N).
Proof. intros [p E _ _ ->|p r E _ _ _ Eu Ep _ _ _]; [cbn [with_proc up procs]|rewrite Ep]; rewrite put_length; auto. Qed.
Lemma fine_acts full i N N' : fine full N -> acts i N N' -> good n N' -> fine full N'.
Proof.
  intros (_ & HO & Hall) A HG. split; [exact HG|]. split; [exact (order_acts full i N N' HO A)|]. destruct (acts_size i N N' A) as [_ ->]. exact Hall.
Qed.
Lemma fine_starts full N N' : fine full N -> starts N N' -> good n N' -> fine full N'.
Proof.
  intros (_ & HO & Hall) S HG. split; [exact HG|]. split; [exact (order_starts full N N' HO S)|]. destruct S as [_ ->]. exact Hall.
Qed.
Definition others (ks : list nat) (N' N : net) : Prop := exists i, ~ In i ks /\ acts i N N' /\ supplied n limit N' /\ good n N'.
Lemma peel full k fi fo l : (forall N, order full N -> order ((k, (fi, fo)) :: l) N) ->
  (forall N, fine full N -> Acc (others (k :: ids l)) N) -> forall N, fine full N -> Acc (others (ids l)) N.
Proof.
  intros Hsub H.
  assert (G : forall x, Acc below x -> forall N, Acc (others (k :: ids l)) N -> fine full N -> within k fi fo N = x -> Acc (others (ids l)) N).
  { intros x Hx. induction Hx as [x _ IHx]. intros N HN. induction HN as [N _ IHN]. intros HF Ew. pose proof HF as (HG & HO & _).
    constructor. intros N' (i & Hi & A & Hs & HG'). pose proof (Hsub N HO) as (Hk & Hr & _).
    pose proof (fine_acts full i N N' HF A HG') as HF'.
    destruct (Nat.eq_dec i k) as [->|Hne].
    - apply (IHx (within k fi fo N')); [rewrite <- Ew; exact (within_less _ k fi fo N N' HG Hr Hs A)|exact (H N' HF')|exact HF'|reflexivity].
    - apply IHN; [exists i; split; [intros [F|F]; [congruence|contradiction]|auto]|exact HF'|].
      rewrite (within_same _ k fi fo i N N' HG Hr A Hne Hi). exact Ew. }
  intros N HN. apply (G (within k fi fo N)); [|exact (H N HN)|exact HN|reflexivity].
  destruct HN as (_ & HO & _). destruct (Hsub N HO) as (_ & Hr & _). exact (within_acc _ k fi fo N Hr).
Qed.
Lemma all_acc full : forall N, fine full N -> Acc (others []) N.
Proof.
  assert (G : forall l pre, full = pre ++ l -> (forall N, fine full N -> Acc (others (ids l)) N) -> forall N, fine full N -> Acc (others []) N).
  { induction l as [|[k [fi fo]] l IH]; intros pre Ef H; [exact H|].
    apply (IH (pre ++ [(k, (fi, fo))])); [rewrite <- app_assoc; exact Ef|]. apply (peel full k fi fo l); [|exact H].
    intros N HO. rewrite Ef in HO. clear -HO. induction pre as [|[k0 [f1 f2]] pre IH]; [exact HO|]. destruct HO as (_ & _ & HO). exact (IH HO). }
  apply (G full []); [reflexivity|]. intros N HN. constructor. intros N' (i & Hi & A & _). exfalso. apply Hi.
  apply (proj2 (proj2 HN) i). apply nth_error_Some. destruct A as [p E _ _ _|p r E _ _ _ _ _ _ _ _]; congruence.
Qed.
Lemma move_good N N' : move n cap N N' -> good n N -> good n N'.
Proof. intros [H|(k & p & a & (D1 & D2 & _) & ->)] G; [exact (step_good n cap N N' H G)|exact (good_over n N k p G D1 D2)]. Qed.
Lemma goes_acc full : forall N, fine full N -> Acc (fun N' N => goes n cap limit N N') N.
Proof.
  assert (G : forall m N, Acc (others []) N -> fine full N -> (List.length (procs N) - up N = m)%nat -> Acc (fun N' N => goes n cap limit N N') N).
  { intros m. induction m as [m IHm] using lt_wf_ind. intros N HN. induction HN as [N _ IHN]. intros HF Em. pose proof HF as (HG & _).
    constructor. intros N' [Hm Hs]. pose proof (move_good N N' Hm HG) as HG'.
    destruct (move_kinds N N' HG Hm) as [S|[k A]].
    - pose proof (fine_starts full N N' HF S HG') as HF'.
      apply (IHm (List.length (procs N') - up N')%nat); [|exact (all_acc full N' HF')|exact HF'|reflexivity].
      destruct S as [Hu ->]. cbn [procs up]. lia.
    - apply IHN; [exists k; cbn [In]; auto|exact (fine_acts full k N N' HF A HG')|].
      destruct (acts_size k N N' A) as [-> ->]. exact Em. }
  intros N HN. exact (G _ N (all_acc full N HN) HN eq_refl).
Qed.

Lemma settles_order ps N k : procs N = ps -> wired n ps -> settles n ps k -> forall l, order l N ->
  exists l', order l' N /\ incl (ids l) (ids l') /\ In k (ids l').
Proof.
  intros Ep Hw H. induction H as [k p fi fo E Ht Hi IHi Ho Hs IHs]. intros l Hl.
  assert (A : exists l1, order l1 N /\ incl (ids l) (ids l1) /\ (fi = true -> outside p = true \/ exists k', k = S k' /\ In k' (ids l1))).
  { destruct fi; [|exists l; split; [exact Hl|split; [apply incl_refl|discriminate]]].
    destruct (outside p) eqn:Eo; [exists l; split; [exact Hl|split; [apply incl_refl|auto]]|].
    unfold outside in Eo. destruct (object_at p 0) as [[x|j|j|f h]|] eqn:Eob; try discriminate; apply Z.ltb_ge in Eo.
    - destruct (proj1 (Hw k p 0 j E Eo) Eob) as (_ & _ & Hk). destruct k as [|k]; [lia|].
      destruct (IHi k j eq_refl eq_refl Eo eq_refl l Hl) as (l1 & L1 & L2 & L3). exists l1. split; [exact L1|]. split; [exact L2|].
      intros _. right. exists k. auto.
    - destruct (proj2 (Hw k p 0 j E Eo) Eob) as (F & _). discriminate. }
  destruct A as (l1 & A1 & A2 & A3).
  assert (B : exists l2, order l2 N /\ incl (ids l1) (ids l2) /\ (fo = true -> In (S k) (ids l2))).
  { destruct fo; [|exists l1; split; [exact A1|split; [apply incl_refl|discriminate]]].
    destruct (IHs eq_refl l1 A1) as (l2 & L1 & L2 & L3). exists l2. auto. }
  destruct B as (l2 & B1 & B2 & B3).
  destruct (in_dec Nat.eq_dec k (ids l2)) as [Hin|Hin].
  - exists l2. split; [exact B1|]. split; [|exact Hin]. exact (incl_tran A2 B2).
  - exists ((k, (fi, fo)) :: l2). cbn [order ids map fst]. split; [split; [exact Hin|split; [|exact B1]]|split; [apply incl_tl; exact (incl_tran A2 B2)|left; reflexivity]].
    exists p. rewrite Ep. split; [exact E|]. split; [exact Ht|]. split.
    + intros F. destruct (A3 F) as [G|(k' & G1 & G2)]; [left; exact G|right; exists k'; split; [exact G1|exact (B2 _ G2)]].
    + intros F. split; [exact (Ho F)|exact (B3 F)].
Qed.
Lemma settles_all N : wired n (procs N) -> (forall k, (k < List.length (procs N))%nat -> settles n (procs N) k) ->
  exists l, order l N /\ forall k, (k < List.length (procs N))%nat -> In k (ids l).
Proof.
  intros Hw H. assert (G : forall m, (m <= List.length (procs N))%nat -> exists l, order l N /\ forall k, (k < m)%nat -> In k (ids l)).
  { induction m as [|m IH]; intros Hm; [exists []; split; [exact I|lia]|]. destruct (IH ltac:(lia)) as (l & L1 & L2).
    destruct (settles_order (procs N) N m eq_refl Hw (H m ltac:(lia)) l L1) as (l' & M1 & M2 & M3).
    exists l'. split; [exact M1|]. intros k Hk. destruct (Nat.eq_dec k m) as [->|]; [exact M3|]. apply M2, L2. lia. }
  exact (G _ (le_n _)).
Qed.

(** ** Something can happen *)

Definition done (N : net) : Prop := forall p, In p (procs N) -> live p = false.
Lemma goes_progress N : good n N -> (0 < cap)%nat -> supplied n limit N -> (exists k p, nth_error (procs N) k = Some p /\ live p = true) ->
  exists N', goes n cap limit N N'.
Proof.
  intros G Hcap Hs Hl. destruct (good_progress n cap N G Hcap Hl) as [N' H].
  assert (Put : forall k p q N1, nth_error (procs N) k = Some p -> procs N1 = put k q (procs N) -> object_at q 0 = object_at p 0 ->
    (received q = received p \/ ~ elsewhere n (object_at p 0)) -> supplied n limit N1).
  { intros k p q N1 E E1 Eo Er i x Hx Ox. rewrite E1 in Hx. destruct (put_get k i q p _ x E Hx) as [[-> ->]|[_ Hx']]; [|exact (Hs i x Hx' Ox)].
    rewrite Eo in Ox. destruct Er as [->|F]; [exact (Hs k p E Ox)|contradiction]. }
  assert (Quiet : forall k p r N1, nth_error (procs N) k = Some p -> procs N1 = put k (returns r p) (procs N) -> gain r = O -> supplied n limit N1).
  { intros k p r N1 E E1 Hg. apply (Put k p (returns r p) N1 E E1 eq_refl). left. rewrite received_returns.
    destruct r as [[|c l]| | | |]; try discriminate; apply app_nil_r. }
  destruct H as [N Hu|N k p a b j D O Hj Hh He Hr|N k p bs j D O Hj Hh|N k p bs r D O Hr
                |N k p bs j D O Hj|N k p a b j D O Hj Hp Ha|N k p j D O Hj Hp Hh
                |N k p r D O Hr|N k p j D O Hj|N k p D]; try pose proof (proj1 (proj2 D)) as D2.
  - eexists. split; [left; apply ns_start; exact Hu|exact Hs].
  - eexists. split; [left; eapply (ns_write n cap N k p a b j); eassumption|]. eapply (Quiet k p); [exact D2|reflexivity|reflexivity].
  - eexists. split; [left; eapply ns_broken; eassumption|]. eapply (Quiet k p); [exact D2|reflexivity|reflexivity].
  - eexists. split; [left; eapply ns_write_other; eassumption|]. eapply (Quiet k p); [exact D2|reflexivity|destruct Hr as [->| ->]; reflexivity].
  - eexists. split; [left; eapply ns_write_read; eassumption|]. eapply (Quiet k p); [exact D2|reflexivity|reflexivity].
  - eexists. split; [left; eapply (ns_read n cap N k p a b j); eassumption|].
    eapply (Put k p); [exact D2|reflexivity|reflexivity|]. right. rewrite O. cbn. lia.
  - eexists. split; [left; eapply ns_end; eassumption|]. eapply (Quiet k p); [exact D2|reflexivity|reflexivity].
  - eexists. split; [left; eapply (ns_read_other n cap N k p Ended); [exact D|exact O|auto]|]. eapply (Quiet k p); [exact D2|reflexivity|reflexivity].
  - eexists. split; [left; eapply ns_read_write; eassumption|]. eapply (Quiet k p); [exact D2|reflexivity|reflexivity].
  - eexists. split; [left; apply ns_stop; exact D|]. eapply (Put k p (over p)); [exact D2|reflexivity|reflexivity|left; reflexivity].
Qed.
Lemma comes_to_end N : good n N -> (0 < cap)%nat -> supplied n limit N ->
  (forall k, (k < List.length (procs N))%nat -> settles n (procs N) k) -> inevitable (goes n cap limit) done N.
Proof.
  intros HG Hcap Hs Hset. destruct (settles_all N (proj1 HG) Hset) as (full & HO & Hall).
  assert (HF : fine full N) by (split; [exact HG|split; [exact HO|exact Hall]]).
  pose proof (goes_acc full N HF) as HA. clear Hset HG HO Hall.
  revert HF Hs. induction HA as [N _ IH]. intros HF Hs. pose proof HF as (HG & _).
  destruct (existsb live (procs N)) eqn:Ex.
  - apply existsb_exists in Ex as (p & Hin & Hp). apply In_nth_error in Hin as [k Hk].
    apply later; [apply (goes_progress N HG Hcap Hs); eauto|]. intros N' HN. pose proof HN as [Hm Hs'].
    apply IH; [exact HN| |exact Hs']. pose proof (move_good N N' Hm HG) as HG'.
    destruct (move_kinds N N' HG Hm) as [S|[i A]]; [exact (fine_starts full N N' HF S HG')|exact (fine_acts full i N N' HF A HG')].
  - apply now. intros p Hin. destruct (live p) eqn:Lp; [|reflexivity].
    assert (existsb live (procs N) = true) by (apply existsb_exists; eauto). congruence.
Qed.
End Run.

(** ** C141 *)

(** A line that is a pipeline of programs, of any length, with redirections or
    without, over pipes of any size but 0.  If each of its processes comes to its end
    in the sense of [settles], and finitely much comes in from outside, then all of
    them end: whatever the order of the steps, and whichever of the processes are
    killed, there is no run that goes on for ever and none that gets stuck. *)
Theorem C141_ends : forall w d b bg scs scs' s o s' ps cap limit,
  scs <> [] -> wf_pipeline (Pipeline b (map CSimple scs) bg) -> Forall2 (program (im s)) scs scs' ->
  table (fds (im s)) -> no_future_pipe (fds (im s)) (next_pipe (im s)) ->
  nget 0 (fds (im s)) <> None -> nget 1 (fds (im s)) <> None ->
  exec_text w (S d) (r_pipeline (Pipeline b (map CSimple scs) bg)) s = (o, s') ->
  processes_of s s' (List.length scs') ps -> (0 < cap)%nat ->
  (forall k, (k < List.length ps)%nat -> settles (next_pipe (im s)) ps k) ->
  inevitable (goes (next_pipe (im s)) cap limit) (fun N => forall p, In p (procs N) -> live p = false) (Net ps O (fun _ => [])).
Proof.
  intros w d b bg scs scs' s o s' ps cap limit Hne Hw HF Ht Hn H0 H1 H Hps Hcap Hset.
  pose proof (line_wired w d b bg scs scs' s o s' ps Hne Hw HF Ht Hn H0 H1 H Hps) as G.
  apply (comes_to_end (next_pipe (im s)) cap limit _ G Hcap); [|exact Hset].
  intros k p Hp _. cbn [procs] in Hp.
  destruct (line_tables w d b bg scs scs' s o s' ps Hne Hw HF Ht H0 H1 H Hps k p Hp) as (P & _). unfold received. rewrite P. cbn. lia.
Qed.

(** One program that ends by itself is enough, such as [head]: those before it end
    when their output is not taken any more, and those after it at the end of their
    input. *)
Theorem C141_one_ends : forall w d b bg scs scs' s o s' ps cap limit i p0,
  scs <> [] -> wf_pipeline (Pipeline b (map CSimple scs) bg) -> Forall2 (program (im s)) scs scs' ->
  table (fds (im s)) -> no_future_pipe (fds (im s)) (next_pipe (im s)) ->
  nget 0 (fds (im s)) <> None -> nget 1 (fds (im s)) <> None ->
  exec_text w (S d) (r_pipeline (Pipeline b (map CSimple scs) bg)) s = (o, s') ->
  processes_of s s' (List.length scs') ps -> (0 < cap)%nat ->
  (forall sc, In sc scs' -> redirections_in sc = []) -> (forall p, In p ps -> p_tab p 0 <> None /\ p_tab p 1 <> None) ->
  nth_error ps i = Some p0 -> tame false false (code p0) [] ->
  (forall k p, nth_error ps k = Some p -> (k < i)%nat -> tame false true (code p) []) ->
  (forall k p, nth_error ps k = Some p -> (i < k)%nat -> tame true false (code p) []) ->
  inevitable (goes (next_pipe (im s)) cap limit) (fun N => forall p, In p (procs N) -> live p = false) (Net ps O (fun _ => [])).
Proof.
  intros w d b bg scs scs' s o s' ps cap limit i p0 Hne Hw HF Ht Hn H0 H1 H Hps Hcap Hred Hop Hi Hp0 Hbefore Hafter.
  apply (C141_ends w d b bg scs scs' s o s' ps cap limit Hne Hw HF Ht Hn H0 H1 H Hps Hcap).
  pose proof (proj1 Hps) as Hlen.
  assert (Past : forall k p, nth_error ps k = Some p -> past p = []).
  { intros k p Hp. exact (proj1 (line_tables w d b bg scs scs' s o s' ps Hne Hw HF Ht H0 H1 H Hps k p Hp)). }
  assert (Ei : (i < List.length ps)%nat) by (apply nth_error_Some; congruence).
  assert (Mid : settles (next_pipe (im s)) ps i).
  { apply (settle _ _ i p0 false false Hi); [rewrite (Past i p0 Hi); exact Hp0|discriminate..]. }
  assert (Out : forall k p, nth_error ps k = Some p -> (S k < List.length ps)%nat -> object_at p 1 = Some (PipeW (next_pipe (im s) + Z.of_nat k))).
  { intros k p Hp Hk. destruct (nth_error ps (S k)) as [q|] eqn:Eq; [|apply nth_error_None in Eq; lia].
    destruct (nth_error scs' k) as [scp|] eqn:E1; [|apply nth_error_None in E1; lia].
    destruct (nth_error scs' (S k)) as [scq|] eqn:E2; [|apply nth_error_None in E2; lia].
    apply (line_objects w d b bg scs scs' s o s' ps cap (Net ps O (fun _ => [])) k p q scp scq Hne Hw HF Ht Hn H0 H1 H Hps (nr_refl _ _ _) Hp Eq E1 E2).
    - exact (proj2 (Hop p (nth_error_In _ _ Hp))).
    - exact (proj1 (Hop q (nth_error_In _ _ Eq))).
    - intros x Hx. rewrite (Hred scp (nth_error_In _ _ E1)) in Hx. destruct Hx.
    - intros x Hx. rewrite (Hred scq (nth_error_In _ _ E2)) in Hx. destruct Hx. }
  assert (Up : forall m, (m <= i)%nat -> settles (next_pipe (im s)) ps (i - m)).
  { induction m as [|m IH]; intros Hm; [rewrite Nat.sub_0_r; exact Mid|].
    destruct (nth_error ps (i - S m)) as [p|] eqn:Ep; [|apply nth_error_None in Ep; lia].
    apply (settle _ _ _ p false true Ep); [rewrite (Past _ p Ep); apply (Hbefore _ p Ep); lia|discriminate|intros _; apply (Out _ p Ep); lia|].
    intros _. replace (S (i - S m)) with (i - m)%nat by lia. apply IH. lia. }
  assert (Down : forall m, (i + m < List.length ps)%nat -> settles (next_pipe (im s)) ps (i + m)).
  { induction m as [|m IH]; intros Hm; [rewrite Nat.add_0_r; exact Mid|].
    destruct (nth_error ps (i + S m)) as [p|] eqn:Ep; [|apply nth_error_None in Ep; lia].
    apply (settle _ _ _ p true false Ep); [rewrite (Past _ p Ep); apply (Hafter _ p Ep); lia| |discriminate..].
    intros k' j _ _ _ Ek. replace k' with (i + m)%nat by lia. apply IH. lia. }
  intros k Hk. destruct (Nat.le_gt_cases k i) as [Hki|Hki].
  - replace k with (i - (i - k))%nat by lia. apply Up. lia.
  - replace k with (i + (k - i))%nat by lia. apply Down. lia.
Qed.

Import PropertiesEval PropertiesPipe.
(** [a x | b | c y] where [a] writes [y] and a newline for ever, as [yes] does, [b]
    copies two bytes, as [head -c2], and [c] copies its input, as [cat]. *)
Definition ex_yes (h : list result) : action := match rev h with Broken :: _ | Failed :: _ => Stop | _ => Write [121; 10]%N end.
Definition ex_head (h : list result) : action := match rev h with [] => Read | Gave bs :: _ => Write (firstn 2 bs) | _ => Stop end.
Definition ex_cat : list result -> action := ex_b.
Example C141_example :
  tame false true ex_yes [] /\ tame false false ex_head [] /\ tame true false ex_cat [] /\
  inevitable (goes 0 1 0) (fun N => forall p, In p (procs N) -> live p = false) (Net (ex_line ex_yes ex_head ex_cat) O (fun _ => [])).
Proof.
  assert (A : tame false true ex_yes []).
  { intros _ y. assert (G : forall y h, match rev h with [] | Took _ :: _ => True | _ => False end -> ends ex_yes None (Some y) h).
    { clear. induction y as [y IH] using lt_wf_ind. intros h Hh. apply (ends_write _ _ _ h [121; 10]%N).
      - unfold ex_yes. destruct (rev h) as [|[b| |m| |] l]; try contradiction; reflexivity.
      - intros m o' Hm Hz Hs. destruct o' as [y'|]; [|destruct Hs]. cbn [spent] in Hs. apply IH; [|rewrite rev_app_distr; exact I].
        destruct m as [|m]; [specialize (Hz eq_refl); discriminate|lia].
      - apply ends_stop. unfold ex_yes. rewrite rev_app_distr. reflexivity.
      - apply ends_stop. unfold ex_yes. rewrite rev_app_distr. reflexivity. }
    apply G. exact I. }
  assert (B : tame false false ex_head []).
  { intros _ _. apply ends_read; [reflexivity| |apply ends_stop; reflexivity|apply ends_stop; reflexivity].
    intros bs i' _ Hs. destruct i'; [destruct Hs|]. apply (ends_write _ _ _ _ (firstn 2 bs)); [reflexivity| |apply ends_stop; reflexivity|apply ends_stop; reflexivity].
    intros m o' _ _ Ho. apply ends_stop. reflexivity. }
  assert (C : tame true false ex_cat []).
  { intros x _. assert (G : forall x h, match rev h with [] | Took _ :: _ => True | _ => False end -> ends ex_cat (Some x) None h).
    { clear. induction x as [x IH] using lt_wf_ind. intros h Hh. apply ends_read.
      - unfold ex_cat, ex_b. destruct (rev h) as [|[b| |m| |] l]; try contradiction; reflexivity.
      - intros bs i' Hb Hs. destruct i' as [x'|]; [|destruct Hs]. cbn [spent] in Hs. apply (ends_write _ _ _ _ bs).
        + unfold ex_cat, ex_b. rewrite rev_app_distr. reflexivity.
        + intros m o' _ _ Ho. destruct o'; [destruct Ho|]. apply IH; [|rewrite rev_app_distr; exact I].
          destruct bs; [contradiction|cbn [List.length] in Hs; lia].
        + apply ends_stop. unfold ex_cat, ex_b. rewrite rev_app_distr. reflexivity.
        + apply ends_stop. unfold ex_cat, ex_b. rewrite rev_app_distr. reflexivity.
      - apply ends_stop. unfold ex_cat, ex_b. rewrite rev_app_distr. reflexivity.
      - apply ends_stop. unfold ex_cat, ex_b. rewrite rev_app_distr. reflexivity. }
    apply G. exact I. }
  split; [exact A|]. split; [exact B|]. split; [exact C|].
  destruct C139_meets as (M1 & M2 & M3 & M4 & M5 & M6 & M7 & _ & M9 & _). destruct C46_example as (E1 & _).
  destruct (exec_text ex_os 5 (r_pipeline (Pipeline false (map CSimple ex_three) false)) ex_shell) as [o s'] eqn:Er.
  assert (P : processes_of ex_shell s' (List.length ex_three') (ex_line ex_yes ex_head ex_cat)).
  { pose proof (ex_processes ex_yes ex_head ex_cat _ E1) as P. rewrite Er in P. exact P. }
  apply (C141_one_ends ex_os 4 false false ex_three ex_three' ex_shell o s' (ex_line ex_yes ex_head ex_cat) 1 0 1
           (Proc (ex_tab (PipeR 0) (PipeW 1)) ex_head [] true) M1 M2 M3 M4 M5 M6 M7 Er P (le_n 1)).
  - rewrite Forall_forall in M9. exact M9.
  - intros p [<-|[<-|[<-|[]]]]; split; vm_compute; discriminate.
  - reflexivity.
  - exact B.
  - intros [|[|k]] p Hp Hk; try lia. injection Hp as <-. exact A.
  - intros [|[|[|k]]] p Hp Hk; try lia; cbn in Hp; [injection Hp as <-; exact C|destruct k; discriminate].
Qed.
(** A program that goes on writing when nobody reads keeps the line from ending. *)
Definition ex_deaf (h : list result) : action := Write [7]%N.
Example C141_needed : ~ tame false true ex_deaf [].
Proof.
  intros H. specialize (H O O). remember None as i. remember (Some O) as o. clear Heqi Heqo.
  induction H as [i o h E|i o h E _ _ _ _ _|i o h bs E _ _ H IH _ _]; [discriminate..|exact IH].
Qed.

Print Assumptions C141_ends.
Print Assumptions C141_one_ends.
