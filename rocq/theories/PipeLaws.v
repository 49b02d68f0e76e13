(** Pipelines: the descriptors of the shell and of the commands it starts. *)
From Verif Require Import Base BaseFacts Ast Parser Context Alias Expand ExpandSpec ExpandFacts ExpandLaws.
From Verif Require Import Jobs Shell Builtins Eval EvalSpec EvalFacts EvalLaws PipeSpec.
Local Open Scope Z_scope.

(** ** Descriptor tables *)

Lemma lowest_from_spec (t : fdtable) : nsorted t -> forall k, k <= lowest_from k t /\ nget (lowest_from k t) t = None.
Proof.
  induction 1 as [|k0 v t Hlt Hs IH]; intros k; cbn [lowest_from nget]; [split; [lia|reflexivity]|].
  assert (Hbig : forall x, x <= k0 -> nget x t = None).
  { intros x Hx. apply nget_None_notIn. intros Hin. unfold nkeys in Hin. apply in_map_iff in Hin. destruct Hin as ((a & b) & Ha & Hin).
    rewrite Forall_forall in Hlt. specialize (Hlt _ Hin). cbn in Hlt, Ha. lia. }
  destruct (Z.eqb_spec k0 k) as [->|Hne].
  - destruct (IH (k + 1)) as [H1 H2]. split; [lia|]. destruct (Z.eqb_spec (lowest_from (k + 1) t) k); [lia|exact H2].
  - destruct (Z.ltb_spec k0 k).
    + destruct (IH k) as [H1 H2]. split; [lia|]. destruct (Z.eqb_spec (lowest_from k t) k0); [lia|exact H2].
    + split; [lia|]. destruct (Z.eqb_spec k k0); [lia|]. apply Hbig. lia.
Qed.
Lemma lowest_spec t : nsorted t -> 0 <= lowest t /\ nget (lowest t) t = None.
Proof. intros H. apply lowest_from_spec, H. Qed.

Lemma lowest_least t : nsorted t -> forall x, 0 <= x < lowest t -> nget x t <> None.
Proof.
  unfold lowest. generalize 0. intros k H. revert k. induction H as [|k0 v t Hlt Hs IH]; intros k x Hx; cbn [lowest_from nget] in *; [lia|].
  destruct (Z.eqb_spec k0 k) as [->|Hne].
  - destruct (Z.eqb_spec x k); [discriminate|]. apply (IH (k + 1)). lia.
  - destruct (Z.ltb_spec k0 k); [|lia]. destruct (Z.eqb_spec x k0); [discriminate|]. apply (IH k). lia.
Qed.

Lemma table_ninsert k d t : table t -> 0 <= k -> table (ninsert k d t).
Proof.
  intros [Hs Hn] Hk. split; [apply nsorted_ninsert, Hs|]. intros fd d' H.
  rewrite nget_ninsert in H by exact Hs. destruct (Z.eqb_spec fd k); [lia|]. eapply Hn, H.
Qed.
Lemma table_nremove k t : table t -> table (nremove k t).
Proof.
  intros [Hs Hn]. split; [apply nsorted_nremove, Hs|]. intros fd d' H.
  rewrite nget_nremove in H. destruct (Z.eqb_spec fd k); [discriminate|]. eapply Hn, H.
Qed.
Lemma table_open t fd : table t -> nget fd t <> None -> 0 <= fd.
Proof. intros [_ Hn] H. destruct (nget fd t) as [d|] eqn:E; [|congruence]. apply (Hn fd d E). Qed.

Lemma close_ok a i tr : nget a (fds i) <> None ->
  sys_close a (Shell i tr) = (OOk tt, Shell (with_fds (nremove a (fds i)) i) tr).
Proof. intros H. unfold sys_close, try_, fd_close. cbn [im trace]. destruct (nget a (fds i)); [reflexivity|congruence]. Qed.
Lemma close_ignored_open a i tr : nget a (fds i) <> None ->
  sys_close_ignored a (Shell i tr) = (OOk tt, Shell (with_fds (nremove a (fds i)) i) tr).
Proof. intros H. unfold sys_close_ignored, change, fd_close. cbn [im trace]. destruct (nget a (fds i)); [reflexivity|congruence]. Qed.
Lemma close_ignored_not a i tr : nget a (fds i) = None -> sys_close_ignored a (Shell i tr) = (OOk tt, Shell i tr).
Proof. intros H. unfold sys_close_ignored, change, fd_close. cbn [im trace]. rewrite H. reflexivity. Qed.
Lemma dup2_ok a b d i tr : nget a (fds i) = Some d -> a <> b ->
  sys_dup2 a b (Shell i tr) = (OOk tt, Shell (with_fds (ninsert b (Desc (d_obj d) false) (fds i)) i) tr).
Proof.
  intros H Hab. unfold sys_dup2, try_, fd_dup2. cbn [im trace]. rewrite H.
  destruct (Z.eqb_spec a b); [congruence|reflexivity].
Qed.
Lemma dup2_self a d i tr : nget a (fds i) = Some d -> sys_dup2 a a (Shell i tr) = (OOk tt, Shell i tr).
Proof.
  intros H. unfold sys_dup2, try_, fd_dup2. cbn [im trace]. rewrite H, Z.eqb_refl. destruct i. reflexivity.
Qed.

Lemma close_ok' a t i tr : nget a t <> None ->
  sys_close a (Shell (with_fds t i) tr) = (OOk tt, Shell (with_fds (nremove a t) i) tr).
Proof. intros H. apply (close_ok a (with_fds t i) tr H). Qed.
Lemma dup2_ok' a b d t i tr : nget a t = Some d -> a <> b ->
  sys_dup2 a b (Shell (with_fds t i) tr) = (OOk tt, Shell (with_fds (ninsert b (Desc (d_obj d) false) t) i) tr).
Proof. intros H Hab. apply (dup2_ok a b d (with_fds t i) tr H Hab). Qed.

(** ** One child *)

(** The descriptors when the [k]-th command of [len] is started: the read end of
    the pipe before it, and both ends of the pipe after it, besides [t0]. *)
Definition at_fork (t0 : fdtable) (n0 : Z) (len k : nat) (prev : Z) (pip : Z * Z) (t : fdtable) : Prop :=
  table t /\
  (match k with O => prev = -1 | S _ => 0 <= prev /\ nget prev t0 = None end) /\
  (if Nat.eqb (S k) len then snd pip = -1
   else 0 <= fst pip /\ 0 <= snd pip /\ nget (fst pip) t0 = None /\ nget (snd pip) t0 = None /\
        fst pip < snd pip /\ fst pip <> prev /\ snd pip <> prev) /\
  forall fd, nget fd t =
    if Z.eqb fd prev then match k with O => None | S k' => Some (Desc (PipeR (n0 + Z.of_nat k')) false) end
    else if Nat.eqb (S k) len then nget fd t0
    else if Z.eqb fd (fst pip) then Some (Desc (PipeR (n0 + Z.of_nat k)) false)
    else if Z.eqb fd (snd pip) then Some (Desc (PipeW (n0 + Z.of_nat k)) false)
    else nget fd t0.

Ltac eqbs := repeat match goal with
  | |- context [Z.eqb ?a ?b] => destruct (Z.eqb_spec a b); subst; try lia
  end.
Ltac eqbs_in H := repeat match type of H with
  | context [Z.eqb ?a ?b] => destruct (Z.eqb_spec a b); subst; try lia
  end.

Lemma wire_ok t0 n0 len k c i tr : table t0 -> at_fork t0 n0 len k (c_prev c) (c_pipe c) (fds i) ->
  exists t, wire_child c (Shell i tr) = (OOk tt, Shell (with_fds t i) tr) /\ table t /\
    forall fd, nget fd t = piped t0 n0 len k fd.
Proof.
  intros Ht0 (Ht & Hprev & Hpip & Hget). unfold wire_child. destruct (c_pipe c) as [pr pw]. cbn [fst snd] in *.
  set (prev := c_prev c) in *. clearbody prev. 
  (* the read end of the new pipe *)
  assert (S1 : exists t1, (if Z.leb 0 pw then sys_close pr else ret tt) (Shell i tr) = (OOk tt, Shell (with_fds t1 i) tr) /\
    table t1 /\ forall fd, nget fd t1 = if Z.eqb fd prev then match k with O => None | S k' => Some (Desc (PipeR (n0 + Z.of_nat k')) false) end
    else if Nat.eqb (S k) len then nget fd t0
    else if Z.eqb fd pw then Some (Desc (PipeW (n0 + Z.of_nat k)) false) else nget fd t0).
  { destruct (Nat.eqb (S k) len).
    - subst pw. cbn. exists (fds i). split; [destruct i; reflexivity|]. split; [exact Ht|exact Hget].
    - destruct Hpip as (H1 & H2 & H3 & H4 & H5 & H6 & H7). destruct (Z.leb_spec 0 pw); [|lia].
      eexists. split; [apply close_ok; rewrite Hget; eqbs; discriminate|].
      split; [apply table_nremove, Ht|]. intros fd. rewrite nget_nremove, Hget. eqbs; auto. }
  destruct S1 as (t1 & E1 & Ht1 & Hg1). rewrite (seq_ok _ _ _ _ _ E1). clear E1 Hget.
  (* standard input *)
  assert (S2 : exists t2, (if Z.ltb 0 prev then sys_dup2 prev 0 ;; sys_close prev else ret tt) (Shell (with_fds t1 i) tr) = (OOk tt, Shell (with_fds t2 i) tr) /\
    table t2 /\ forall fd, nget fd t2 = if Z.eqb fd 0 then piped t0 n0 len k 0
    else if Nat.eqb (S k) len then nget fd t0
    else if Z.eqb fd pw then Some (Desc (PipeW (n0 + Z.of_nat k)) false) else nget fd t0).
  { destruct k as [|k].
    - subst prev. cbn [Z.ltb Z.compare]. exists t1. split; [reflexivity|]. split; [exact Ht1|]. intros fd. rewrite Hg1.
      unfold piped. cbn [Z.eqb].
      assert (Hneg : nget (-1) t0 = None) by (destruct (nget (-1) t0) eqn:E; [apply (proj2 Ht0) in E; lia|reflexivity]).
      destruct (Nat.eqb 1 len); [subst pw|destruct Hpip as (H1 & H2 & H3 & H4 & H5 & H6 & H7)]; eqbs; auto.
    - destruct Hprev as [Hp1 Hp2]. destruct (Z.ltb_spec 0 prev).
      + eexists. split.
        { erewrite seq_ok; [|eapply dup2_ok'; [rewrite Hg1, Z.eqb_refl; reflexivity|lia]].
          apply close_ok'. rewrite nget_ninsert by apply Ht1. rewrite Hg1. eqbs; discriminate. }
        cbn [fds with_fds d_obj]. split; [apply table_nremove, table_ninsert; [exact Ht1|lia]|].
        intros fd. rewrite nget_nremove, nget_ninsert by apply Ht1. rewrite Hg1.
        unfold piped. change (Z.eqb 0 0) with true. cbv iota.
        destruct (Nat.eqb (S (S k)) len); [subst pw|destruct Hpip as (H1 & H2 & H3 & H4 & H5 & H6 & H7)]; eqbs; auto.
      + assert (prev = 0) by lia. subst prev. exists t1. split; [reflexivity|]. split; [exact Ht1|]. intros fd. rewrite Hg1.
        unfold piped. change (Z.eqb 0 0) with true. cbv iota. reflexivity. }
  destruct S2 as (t2 & E2 & Ht2 & Hg2). rewrite (seq_ok _ _ _ _ _ E2). clear E2 Hg1.
  (* standard output *)
  destruct (Nat.eqb (S k) len) eqn:El.
  - subst pw. cbn [Z.ltb Z.compare]. exists t2. split; [reflexivity|]. split; [exact Ht2|]. intros fd. rewrite Hg2.
    unfold piped. rewrite El. eqbs; auto.
  - destruct Hpip as (H1 & H2 & H3 & H4 & H5 & H6 & H7). destruct (Z.ltb_spec 1 pw).
    + eexists. split.
      { erewrite seq_ok; [|eapply dup2_ok'; [rewrite Hg2; eqbs; reflexivity|lia]].
        apply close_ok'. rewrite nget_ninsert by apply Ht2. rewrite Hg2. eqbs; discriminate. }
      cbn [fds with_fds d_obj]. split; [apply table_nremove, table_ninsert; [exact Ht2|lia]|].
      intros fd. rewrite nget_nremove, nget_ninsert by apply Ht2. rewrite Hg2. unfold piped. rewrite El.
      change (Z.eqb 0 0) with true. cbv iota. eqbs; auto.
    + assert (pw = 1) by lia. subst pw. exists t2. split; [reflexivity|]. split; [exact Ht2|]. intros fd. rewrite Hg2.
      unfold piped. rewrite El. change (Z.eqb 0 0) with true. cbv iota. eqbs; auto.
Qed.

(** ** All children *)

Lemma forks_app a b : forks (a ++ b) = forks b ++ forks a.
Proof. unfold forks. rewrite flat_map_app, rev_app_distr. reflexivity. Qed.

(** The process while it starts a pipeline. *)
Definition launching (i0 : image) (jc : job_control) (t : fdtable) (n : Z) : image :=
  with_next_pipe n (with_fds t (with_js (with_jobs jc (js i0)) i0)).

(** The descriptors before the [k]-th command is started. *)
Definition between (t0 : fdtable) (n0 : Z) (k : nat) (prev : Z) (t : fdtable) : Prop :=
  table t /\
  (match k with O => prev = -1 | S _ => 0 <= prev /\ nget prev t0 = None end) /\
  forall fd, nget fd t =
    if Z.eqb fd prev then match k with O => None | S k' => Some (Desc (PipeR (n0 + Z.of_nat k')) false) end
    else nget fd t0.

Section Launch.
Context (w : os) (id : Z) (bg : bool) (i0 : image) (t0 : fdtable) (n0 : Z) (len : nat).
Hypothesis Ht0 : table t0.

Definition child_ok (k : nat) (pc : process * simple_command) (f : image * child * option positive) : Prop :=
  let '(img, c, r) := f in
  c_cmd c = snd pc /\ c_proc c = fst pc /\ c_bg c = bg /\
  exists jc t n, img = launching i0 jc t n /\ at_fork t0 n0 len k (c_prev c) (c_pipe c) t.
Fixpoint children_ok (k : nat) (cs : list (process * simple_command)) (l : list (image * child * option positive)) : Prop :=
  match l, cs with
  | [], _ => True
  | f :: l', pc :: cs' => child_ok k pc f /\ children_ok (S k) cs' l'
  | _, [] => False
  end.

Lemma make_pipe_ok prev k jc t tr : between t0 n0 k prev t ->
  match make_pipe w (Shell (launching i0 jc t (n0 + Z.of_nat k)) tr) with
  | (OOk pip, s1) => exists t1, s1 = Shell (launching i0 jc t1 (n0 + Z.of_nat (S k))) (EPipe (n0 + Z.of_nat k) :: tr) /\
      (S k <> len -> at_fork t0 n0 len k prev pip t1)
  | (o, s1) => o = OErr (EText (lit "Failed to create pipe")) /\ s1 = Shell (launching i0 jc t (n0 + Z.of_nat k)) tr
  end.
Proof.
  intros (Ht & Hp & Hg). unfold make_pipe, bind, ask. cbn [trace]. destruct (r_pipe (w tr)); [|split; reflexivity].
  cbn [im fds launching with_next_pipe with_fds next_pipe trace].
  destruct (lowest_spec t (proj1 Ht)) as [L1 L2].
  set (r := lowest t) in *.
  assert (Ht1 : table (ninsert r (Desc (PipeR (n0 + Z.of_nat k)) false) t)) by (apply table_ninsert; assumption).
  destruct (lowest_spec _ (proj1 Ht1)) as [L3 L4].
  set (v := lowest (ninsert r (Desc (PipeR (n0 + Z.of_nat k)) false) t)) in *.
  assert (Hrv : r < v).
  { destruct (Z.lt_ge_cases r v) as [|Hge]; [assumption|exfalso].
    rewrite nget_ninsert in L4 by apply Ht. destruct (Z.eqb_spec v r); [discriminate|].
    apply (lowest_least t (proj1 Ht) v); [lia|exact L4]. }
  clearbody v r.
  rewrite nget_ninsert in L4 by apply Ht. destruct (Z.eqb_spec v r) as [|Hvr]; [discriminate|].
  exists (ninsert v (Desc (PipeW (n0 + Z.of_nat k)) false) (ninsert r (Desc (PipeR (n0 + Z.of_nat k)) false) t)). split.
  - replace (n0 + Z.of_nat (S k)) with (n0 + Z.of_nat k + 1) by lia. reflexivity.
  - intros Hl. apply Nat.eqb_neq in Hl. unfold at_fork. rewrite Hl. cbn [fst snd].
    split; [apply table_ninsert; assumption|]. split; [exact Hp|].
    rewrite Hg in L2, L4.
    assert (Hpr : r <> prev) by (intros ->; rewrite Z.eqb_refl in L2; destruct k; [cbn in Hp; lia|discriminate]).
    assert (Hpv : v <> prev) by (intros ->; rewrite Z.eqb_refl in L4; destruct k; [cbn in Hp; lia|discriminate]).
    split.
    + destruct (Z.eqb_spec r prev); [congruence|]. destruct (Z.eqb_spec v prev); [congruence|]. repeat split; auto.
    + intros fd. rewrite nget_ninsert by apply Ht1. rewrite nget_ninsert by apply Ht. rewrite Hg. eqbs; auto; congruence.
Qed.

Lemma launch_ok cs : forall k prev pip jc t tr o s', (k + List.length cs = len)%nat -> (cs = [] -> False) ->
  between t0 n0 k prev t -> (k = 0%nat -> pip = (-1, -1)) ->
  launch w id bg k cs prev pip (Shell (launching i0 jc t (n0 + Z.of_nat k)) tr) = (o, s') ->
  exists new jc' t' n', s' = Shell (launching i0 jc' t' n') (new ++ tr) /\ children_ok k cs (forks new) /\
    ((o = OOk tt /\ List.length (forks new) = List.length cs /\ table t' /\ forall fd, nget fd t' = nget fd t0) \/
     (o = OErr (EText (lit "Failed to create pipe")) /\ (S (List.length (forks new)) < List.length cs)%nat /\
      exists prev', between t0 n0 (k + List.length (forks new)) prev' t')).
Proof.
  induction cs as [|[p sc] cs IH]; intros k prev pip jc t tr o s' Hlen Hne Hb Hpip H; [contradiction (Hne eq_refl)|clear Hne].
  cbn [launch] in H. destruct cs as [|pc cs].
  - (* the last one *)
    rewrite (bind_ok (ret (fst pip, -1)) _ _ _ _ eq_refl) in H.
    cbn [List.length] in Hlen.
    assert (Haf : at_fork t0 n0 len k prev (fst pip, -1) t).
    { destruct Hb as (H1 & H2 & H3). split; [exact H1|]. split; [exact H2|].
      replace (Nat.eqb (S k) len) with true by (symmetry; apply Nat.eqb_eq; lia). split; [reflexivity|exact H3]. }
    set (i := launching i0 jc t (n0 + Z.of_nat k)) in *.
    set (c := Child sc p prev (fst pip, -1) bg) in *.
    set (r := r_fork (w tr)) in *.
    rewrite (bind_ok (fork_child w c) _ (Shell i tr) r (Shell i (EFork i c r :: tr)) eq_refl) in H.
    set (jc1 := match r with Some q => started id k (Zpos q) jc | None => jc end).
    assert (E1 : (match r with Some q => on_jobs (started id k (Zpos q)) | None => ret tt end) (Shell i (EFork i c r :: tr))
                 = (OOk tt, Shell (launching i0 jc1 t (n0 + Z.of_nat k)) (EFork i c r :: tr))).
    { subst jc1. destruct r; reflexivity. }
    rewrite (seq_ok _ _ _ _ _ E1) in H. clear E1.
    destruct Hb as (Hb1 & Hb2 & Hb3).
    assert (E2 : exists t1, (if Z.leb 0 prev then sys_close prev else ret tt) (Shell (launching i0 jc1 t (n0 + Z.of_nat k)) (EFork i c r :: tr))
                 = (OOk tt, Shell (launching i0 jc1 t1 (n0 + Z.of_nat k)) (EFork i c r :: tr)) /\ table t1 /\ forall fd, nget fd t1 = nget fd t0).
    { destruct k as [|k].
      - subst prev. exists t. split; [reflexivity|]. split; [exact Hb1|]. intros fd. rewrite Hb3. eqbs; [|reflexivity].
        destruct (nget (-1) t0) eqn:E; [apply (proj2 Ht0) in E; lia|reflexivity].
      - destruct Hb2 as [Hb2 Hb4]. destruct (Z.leb_spec 0 prev); [|lia]. eexists.
        split; [apply (close_ok prev (launching i0 jc1 t (n0 + Z.of_nat (S k)))); cbn; rewrite Hb3, Z.eqb_refl; discriminate|].
        split; [apply table_nremove, Hb1|]. intros fd. cbn. rewrite nget_nremove, Hb3. eqbs; auto. }
    destruct E2 as (t1 & E2 & Ht1 & Hg1). rewrite (seq_ok _ _ _ _ _ E2) in H. clear E2.
    assert (E3 : sys_close_ignored (snd (fst pip, -1)) (Shell (launching i0 jc1 t1 (n0 + Z.of_nat k)) (EFork i c r :: tr))
                 = (OOk tt, Shell (launching i0 jc1 t1 (n0 + Z.of_nat k)) (EFork i c r :: tr))).
    { apply close_ignored_not. cbn. destruct (nget (-1) t1) eqn:E; [apply (proj2 Ht1) in E; lia|reflexivity]. }
    rewrite (seq_ok _ _ _ _ _ E3) in H. cbn [launch] in H. injection H as <- <-.
    exists [EFork i c r], jc1, t1, (n0 + Z.of_nat k). split; [reflexivity|]. split.
    + cbn. split; [|exact I]. repeat split. exists jc, t, (n0 + Z.of_nat k). split; [reflexivity|exact Haf].
    + left. split; [reflexivity|]. split; [reflexivity|]. split; assumption.
  - (* another one follows *)
    assert (Hl : S k <> len) by (cbn [List.length] in Hlen; lia).
    pose proof (make_pipe_ok prev k jc t tr Hb) as HP.
    destruct (make_pipe w (Shell (launching i0 jc t (n0 + Z.of_nat k)) tr)) as [o1 s1] eqn:EP.
    destruct o1 as [pip1| | | | | | ].
    2-7: destruct HP as [HP1 ->]; try discriminate HP1.
    2: { rewrite (bind_fails _ _ _ _ _ EP I) in H. injection H as <- <-. injection HP1 as ->.
         exists [], jc, t, (n0 + Z.of_nat k). split; [reflexivity|]. split; [exact I|]. right. split; [reflexivity|].
         split; [cbn; lia|]. exists prev. rewrite Nat.add_0_r. exact Hb. }
    destruct HP as (t1 & -> & Haf). specialize (Haf Hl). rewrite (bind_ok _ _ _ _ _ EP) in H. clear EP.
    set (tr1 := EPipe (n0 + Z.of_nat k) :: tr) in *.
    set (i := launching i0 jc t1 (n0 + Z.of_nat (S k))) in *.
    set (c := Child sc p prev pip1 bg) in *.
    set (r := r_fork (w tr1)) in *.
    rewrite (bind_ok (fork_child w c) _ (Shell i tr1) r (Shell i (EFork i c r :: tr1)) eq_refl) in H.
    set (jc1 := match r with Some q => started id k (Zpos q) jc | None => jc end).
    assert (E1 : (match r with Some q => on_jobs (started id k (Zpos q)) | None => ret tt end) (Shell i (EFork i c r :: tr1))
                 = (OOk tt, Shell (launching i0 jc1 t1 (n0 + Z.of_nat (S k))) (EFork i c r :: tr1))).
    { subst jc1. destruct r; reflexivity. }
    rewrite (seq_ok _ _ _ _ _ E1) in H. clear E1.
    pose proof Haf as (A1 & A2 & A3 & A4).
    replace (Nat.eqb (S k) len) with false in A3 by (symmetry; apply Nat.eqb_neq; exact Hl).
    assert (A4' : forall fd, nget fd t1 =
      if Z.eqb fd prev then match k with O => None | S k' => Some (Desc (PipeR (n0 + Z.of_nat k')) false) end
      else if Z.eqb fd (fst pip1) then Some (Desc (PipeR (n0 + Z.of_nat k)) false)
      else if Z.eqb fd (snd pip1) then Some (Desc (PipeW (n0 + Z.of_nat k)) false)
      else nget fd t0).
    { intros fd. rewrite A4. replace (Nat.eqb (S k) len) with false by (symmetry; apply Nat.eqb_neq; exact Hl). reflexivity. }
    clear A4. destruct A3 as (P1 & P2 & P3 & P4 & P5 & P6 & P7).
    assert (E2 : exists t2, (if Z.leb 0 prev then sys_close prev else ret tt) (Shell (launching i0 jc1 t1 (n0 + Z.of_nat (S k))) (EFork i c r :: tr1))
                 = (OOk tt, Shell (launching i0 jc1 t2 (n0 + Z.of_nat (S k))) (EFork i c r :: tr1)) /\ table t2 /\
                 forall fd, nget fd t2 = if Z.eqb fd (fst pip1) then Some (Desc (PipeR (n0 + Z.of_nat k)) false)
                   else if Z.eqb fd (snd pip1) then Some (Desc (PipeW (n0 + Z.of_nat k)) false)
                   else nget fd t0).
    { destruct k as [|k].
      - subst prev. exists t1. split; [reflexivity|]. split; [exact A1|]. intros fd. rewrite A4'. eqbs; auto.
        destruct (nget (-1) t0) eqn:E; [apply (proj2 Ht0) in E; lia|reflexivity].
      - destruct A2 as [A2 A5]. destruct (Z.leb_spec 0 prev); [|lia]. eexists.
        split; [apply (close_ok prev (launching i0 jc1 t1 (n0 + Z.of_nat (S (S k))))); cbn; rewrite A4', Z.eqb_refl; discriminate|].
        split; [apply table_nremove, A1|]. intros fd. cbn. rewrite nget_nremove, A4'. eqbs; auto. }
    destruct E2 as (t2 & E2 & Ht2 & Hg2). rewrite (seq_ok _ _ _ _ _ E2) in H. clear E2.
    set (t3 := nremove (snd pip1) t2).
    assert (E3 : sys_close_ignored (snd pip1) (Shell (launching i0 jc1 t2 (n0 + Z.of_nat (S k))) (EFork i c r :: tr1))
                 = (OOk tt, Shell (launching i0 jc1 t3 (n0 + Z.of_nat (S k))) (EFork i c r :: tr1))).
    { apply (close_ignored_open (snd pip1) (launching i0 jc1 t2 (n0 + Z.of_nat (S k)))). cbn. rewrite Hg2. eqbs; discriminate. }
    rewrite (seq_ok _ _ _ _ _ E3) in H. clear E3.
    assert (Hb' : between t0 n0 (S k) (fst pip1) t3).
    { split; [apply table_nremove, Ht2|]. split; [split; assumption|]. intros fd. subst t3. rewrite nget_nremove, Hg2. eqbs; auto. }
    apply IH in H; [|cbn [List.length] in *; lia|discriminate|exact Hb'|discriminate].
    destruct H as (new & jc' & t' & n' & -> & Hch & Hres).
    exists (new ++ [EFork i c r; EPipe (n0 + Z.of_nat k)]), jc', t', n'. split; [rewrite <- app_assoc; reflexivity|].
    rewrite forks_app. change (forks [EFork i c r; EPipe (n0 + Z.of_nat k)]) with [(i, c, r)]. split.
    + cbn [app children_ok]. split; [|exact Hch]. repeat split. exists jc, t1, (n0 + Z.of_nat (S k)). split; [reflexivity|exact Haf].
    + cbn [app List.length] in *. destruct Hres as [(R1 & R2 & R3 & R4)|(R1 & R2 & prev' & R3)]; [left|right].
      * split; [exact R1|]. split; [congruence|]. split; assumption.
      * split; [exact R1|]. split; [lia|]. exists prev'. rewrite Nat.add_succ_r. exact R3.
Qed.
End Launch.
