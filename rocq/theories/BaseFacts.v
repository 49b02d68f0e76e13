(** Lemmas about the primitives of [Base]. *)
From Verif Require Import Base.

Lemma str_eqb_spec a b : reflect (a = b) (str_eqb a b).
Proof.
  revert b; induction a as [|x a IH]; intros [|y b]; cbn; try (constructor; congruence).
  destruct (N.eqb_spec x y) as [->|Hn]; cbn.
  - destruct (IH b) as [->|Hn]; constructor; congruence.
  - constructor; congruence.
Qed.

Lemma str_eqb_refl a : str_eqb a a = true.
Proof. destruct (str_eqb_spec a a); congruence. Qed.

Lemma str_eqb_eq a b : str_eqb a b = true <-> a = b.
Proof. destruct (str_eqb_spec a b); split; congruence. Qed.

Lemma str_eqb_neq a b : str_eqb a b = false <-> a <> b.
Proof. destruct (str_eqb_spec a b); split; congruence. Qed.

Lemma str_eq_dec (a b : str) : {a = b} + {a <> b}.
Proof. decide equality; apply N.eq_dec. Qed.

Lemma len_utf8_pos c : 1 <= len_utf8 c.
Proof. unfold len_utf8; repeat destruct (_ <? _)%N; lia. Qed.

Lemma len_utf8_le4 c : len_utf8 c <= 4.
Proof. unfold len_utf8; repeat destruct (_ <? _)%N; lia. Qed.

Lemma blen_app a b : blen (a ++ b) = blen a + blen b.
Proof. induction a as [|c a IH]; cbn; [reflexivity|]; rewrite IH; lia. Qed.

Lemma blen_length s : List.length s <= blen s.
Proof. induction s as [|c s IH]; cbn; [lia|]; pose proof (len_utf8_pos c); lia. Qed.

Lemma blen_nil s : blen s = 0 -> s = [].
Proof. destruct s as [|c s]; cbn; [reflexivity|]; pose proof (len_utf8_pos c); lia. Qed.

Lemma drop_bytes_app a b : drop_bytes (blen a) (a ++ b) = Some b.
Proof.
  induction a as [|c a IH]; cbn [blen app].
  - destruct b; reflexivity.
  - pose proof (len_utf8_pos c).
    destruct (len_utf8 c + blen a) as [|n] eqn:E; [lia|].
    cbn [drop_bytes]. rewrite <- E.
    replace (len_utf8 c <=? len_utf8 c + blen a) with true by (symmetry; apply Nat.leb_le; lia).
    replace (len_utf8 c + blen a - len_utf8 c) with (blen a) by lia. exact IH.
Qed.

Lemma take_bytes_app a b : take_bytes (blen a) (a ++ b) = Some a.
Proof.
  induction a as [|c a IH]; cbn [blen app].
  - destruct b; reflexivity.
  - pose proof (len_utf8_pos c).
    destruct (len_utf8 c + blen a) as [|n] eqn:E; [lia|].
    cbn [take_bytes]. rewrite <- E.
    replace (len_utf8 c <=? len_utf8 c + blen a) with true by (symmetry; apply Nat.leb_le; lia).
    replace (len_utf8 c + blen a - len_utf8 c) with (blen a) by lia.
    rewrite IH; reflexivity.
Qed.

Lemma slice_app a b c : slice (a ++ b ++ c) (blen a) (blen a + blen b) = Some b.
Proof.
  unfold slice.
  replace (blen a <=? blen a + blen b) with true by (symmetry; apply Nat.leb_le; lia).
  rewrite drop_bytes_app.
  replace (blen a + blen b - blen a) with (blen b) by lia.
  apply take_bytes_app.
Qed.

Lemma drop_bytes_some n s r : drop_bytes n s = Some r -> exists p, s = p ++ r /\ blen p = n.
Proof.
  revert n; induction s as [|c s IH]; intros n H.
  - destruct n; cbn in H; [|discriminate]. injection H as <-. exists []; auto.
  - destruct n as [|n]; cbn [drop_bytes] in H.
    + injection H as <-. exists []; auto.
    + destruct (Nat.leb_spec (len_utf8 c) (S n)) as [Hle|]; [|discriminate].
      apply IH in H as (p & -> & Hp). exists (c :: p); cbn [app blen]; split; [reflexivity|lia].
Qed.

Lemma take_bytes_some n s r : take_bytes n s = Some r -> exists q, s = r ++ q /\ blen r = n.
Proof.
  revert n r; induction s as [|c s IH]; intros n r H.
  - destruct n; cbn in H; [|discriminate]. injection H as <-. exists []; auto.
  - destruct n as [|n]; cbn [take_bytes] in H.
    + injection H as <-. exists (c :: s); auto.
    + destruct (Nat.leb_spec (len_utf8 c) (S n)) as [Hle|]; [|discriminate].
      destruct (take_bytes (S n - len_utf8 c) s) as [r'|] eqn:E; [|discriminate].
      injection H as <-. apply IH in E as (q & -> & Hq). exists q; cbn [app blen]; split; [reflexivity|lia].
Qed.

(** A slice succeeds exactly on character boundaries, and returns the text between. *)
Lemma slice_some_iff s a b r :
  slice s a b = Some r <-> exists p q, s = p ++ r ++ q /\ blen p = a /\ a + blen r = b.
Proof.
  split.
  - unfold slice. destruct (Nat.leb_spec a b) as [Hle|]; [|discriminate].
    destruct (drop_bytes a s) as [t|] eqn:E; [|discriminate]. intros H.
    apply drop_bytes_some in E as (p & -> & Hp). apply take_bytes_some in H as (q & -> & Hq).
    exists p, q; repeat split; lia.
  - intros (p & q & -> & <- & <-). apply slice_app.
Qed.

Lemma starts_with_app p s : starts_with p (p ++ s) = true.
Proof. induction p as [|c p IH]; cbn; [reflexivity|]; rewrite N.eqb_refl; exact IH. Qed.

Lemma starts_with_iff p s : starts_with p s = true <-> exists r, s = p ++ r.
Proof.
  split.
  - revert s; induction p as [|c p IH]; intros s H; [exists s; reflexivity|].
    destruct s as [|d s]; cbn in H; [discriminate|].
    apply andb_true_iff in H as [Hc H]. apply N.eqb_eq in Hc as ->.
    apply IH in H as (r & ->). exists r; reflexivity.
  - intros (r & ->); apply starts_with_app.
Qed.

Lemma ends_with_iff p s : ends_with p s = true <-> exists r, s = r ++ p.
Proof.
  unfold ends_with; rewrite starts_with_iff; split; intros (r & H).
  - exists (rev r). rewrite <- (rev_involutive s), H, rev_app_distr, rev_involutive; reflexivity.
  - exists (rev r). subst s; rewrite rev_app_distr; reflexivity.
Qed.

Lemma contains_char_In c s : contains_char c s = true <-> In c s.
Proof.
  unfold contains_char; rewrite existsb_exists; split.
  - intros (x & Hx & He). apply N.eqb_eq in He; subst; exact Hx.
  - intros H; exists c; split; [exact H|apply N.eqb_refl].
Qed.

Lemma contains_char_notIn c s : contains_char c s = false <-> ~ In c s.
Proof.
  rewrite <- contains_char_In. destruct (contains_char c s); split; congruence.
Qed.

Lemma contains_char_app c a b : contains_char c (a ++ b) = contains_char c a || contains_char c b.
Proof. apply existsb_app. Qed.

Lemma contains_str_iff p s : contains_str p s = true <-> exists a b, s = a ++ p ++ b.
Proof.
  split.
  - induction s as [|c s IH]; cbn [contains_str].
    + rewrite orb_false_r, starts_with_iff. intros (r & Hr). exists [], r; exact Hr.
    + rewrite orb_true_iff, starts_with_iff. intros [(r & Hr)|H].
      * exists [], r; exact Hr.
      * apply IH in H as (a & b & ->). exists (c :: a), b; reflexivity.
  - intros (a & b & ->). induction a as [|c a IH]; cbn [app].
    + destruct (p ++ b) eqn:E; cbn [contains_str]; rewrite <- E, starts_with_app; reflexivity.
    + cbn [contains_str]. rewrite IH, orb_true_r; reflexivity.
Qed.

(** [split_char] *)
Lemma split_char_nonempty c s : split_char c s <> [].
Proof.
  induction s as [|x s IH]; cbn; [discriminate|].
  destruct (N.eqb x c); [discriminate|]. destruct (split_char c s); [congruence|discriminate].
Qed.

Lemma split_char_app c a s :
  ~ In c a -> split_char c (a ++ c :: s) = a :: split_char c s.
Proof.
  induction a as [|x a IH]; intros H; cbn [app split_char].
  - rewrite N.eqb_refl; reflexivity.
  - destruct (N.eqb_spec x c) as [->|Hn]; [exfalso; apply H; left; reflexivity|].
    rewrite IH by (intros Hi; apply H; right; exact Hi). reflexivity.
Qed.

Lemma split_char_none c a : ~ In c a -> split_char c a = [a].
Proof.
  induction a as [|x a IH]; intros H; cbn [split_char]; [reflexivity|].
  destruct (N.eqb_spec x c) as [->|Hn]; [exfalso; apply H; left; reflexivity|].
  rewrite IH by (intros Hi; apply H; right; exact Hi). reflexivity.
Qed.

(** Every string is its pieces joined by the separator; no piece contains it. *)
Lemma split_char_join c s : join [c] (split_char c s) = s.
Proof.
  induction s as [|x s IH]; cbn [split_char]; [reflexivity|].
  destruct (N.eqb_spec x c) as [->|Hn].
  - destruct (split_char c s) as [|w ws] eqn:E; [exfalso; eapply split_char_nonempty; eassumption|].
    cbn [join app] in *. rewrite IH. reflexivity.
  - destruct (split_char c s) as [|w ws] eqn:E; [exfalso; eapply split_char_nonempty; eassumption|].
    rewrite <- IH. destruct ws; reflexivity.
Qed.

Lemma split_char_pieces c s : Forall (fun w => ~ In c w) (split_char c s).
Proof.
  induction s as [|x s IH]; cbn [split_char].
  - constructor; [intros []|constructor].
  - destruct (N.eqb_spec x c) as [->|Hn].
    + constructor; [intros []|exact IH].
    + destruct (split_char c s) as [|w ws].
      * constructor; [intros [H|[]]; congruence|constructor].
      * inversion IH as [|? ? Hw Hws]; subst. constructor; [intros [H|H]; [congruence|auto]|exact Hws].
Qed.

(** string maps *)
Section StrMapFacts.
  Context {V : Type}.
  Implicit Types (m : smap V) (k : str) (v : V).

  Lemma sget_sremove_eq k m : sget k (sremove k m) = None.
  Proof.
    induction m as [|[k' v] m IH]; cbn; [reflexivity|].
    destruct (str_eqb_spec k k') as [->|Hn]; [exact IH|].
    cbn. destruct (str_eqb_spec k k'); [congruence|exact IH].
  Qed.

  Lemma sget_sremove_neq k k' m : k <> k' -> sget k' (sremove k m) = sget k' m.
  Proof.
    intros Hn; induction m as [|[k2 v] m IH]; cbn; [reflexivity|].
    destruct (str_eqb_spec k k2) as [->|H2].
    - rewrite IH. destruct (str_eqb_spec k' k2); [congruence|reflexivity].
    - cbn. rewrite IH. reflexivity.
  Qed.

  Lemma sget_sinsert_eq k v m : sget k (sinsert k v m) = Some v.
  Proof. unfold sinsert; cbn. rewrite str_eqb_refl; reflexivity. Qed.

  Lemma sget_sinsert_neq k k' v m : k <> k' -> sget k' (sinsert k v m) = sget k' m.
  Proof.
    intros Hn; unfold sinsert; cbn. destruct (str_eqb_spec k' k); [congruence|].
    apply sget_sremove_neq; exact Hn.
  Qed.

  Lemma sget_sinsert k k' v m :
    sget k' (sinsert k v m) = if str_eqb k' k then Some v else sget k' m.
  Proof.
    destruct (str_eqb_spec k' k) as [->|Hn]; [apply sget_sinsert_eq|].
    apply sget_sinsert_neq; congruence.
  Qed.

  Lemma sget_sremove k k' m :
    sget k' (sremove k m) = if str_eqb k' k then None else sget k' m.
  Proof.
    destruct (str_eqb_spec k' k) as [->|Hn]; [apply sget_sremove_eq|].
    apply sget_sremove_neq; congruence.
  Qed.
End StrMapFacts.

(** numeric maps *)
Definition nkeys {V} (m : nmap V) : list Z := map fst m.

Inductive nsorted {V : Type} : nmap V -> Prop :=
| nsorted_nil : nsorted []
| nsorted_cons k v m :
    Forall (fun kv => (k < fst kv)%Z) m -> nsorted m -> nsorted ((k, v) :: m).

Section NatMapFacts.
  Context {V : Type}.
  Implicit Types (m : nmap V) (k : Z) (v : V).

  Lemma nget_ninsert k k' v m :
    nsorted m -> nget k' (ninsert k v m) = if Z.eqb k' k then Some v else nget k' m.
  Proof.
    induction 1 as [|k2 v2 m Hlt Hs IH]; cbn; [destruct (Z.eqb k' k); reflexivity|].
    destruct (Z.ltb_spec k k2) as [Hk|Hk].
    - cbn. destruct (Z.eqb_spec k' k); [reflexivity|]. destruct (Z.eqb k' k2); reflexivity.
    - destruct (Z.eqb_spec k k2) as [->|Hne].
      + cbn. destruct (Z.eqb k' k2) eqn:E; reflexivity.
      + cbn. rewrite IH. destruct (Z.eqb_spec k' k2); [|reflexivity].
        destruct (Z.eqb_spec k' k); [lia|reflexivity].
  Qed.

  Lemma nget_nremove k k' m :
    nget k' (nremove k m) = if Z.eqb k' k then None else nget k' m.
  Proof.
    induction m as [|[k2 v2] m IH]; cbn; [destruct (Z.eqb k' k); reflexivity|].
    destruct (Z.eqb_spec k k2) as [->|Hne].
    - rewrite IH. destruct (Z.eqb_spec k' k2); reflexivity.
    - cbn. rewrite IH. destruct (Z.eqb_spec k' k2); [|reflexivity].
      destruct (Z.eqb_spec k' k); [lia|reflexivity].
  Qed.

  Lemma Forall_ninsert (P : Z * V -> Prop) k v m :
    P (k, v) -> Forall P m -> Forall P (ninsert k v m).
  Proof.
    intros Hp; induction 1 as [|[k2 v2] m Hx Hm IH]; cbn; [auto|].
    destruct (Z.ltb k k2); [auto|]. destruct (Z.eqb k k2); auto.
  Qed.

  Lemma Forall_nremove (P : Z * V -> Prop) k m : Forall P m -> Forall P (nremove k m).
  Proof.
    induction 1 as [|[k2 v2] m Hx Hm IH]; cbn; [constructor|].
    destruct (Z.eqb k k2); auto.
  Qed.

  Lemma nsorted_ninsert k v m : nsorted m -> nsorted (ninsert k v m).
  Proof.
    induction 1 as [|k2 v2 m Hlt Hs IH]; cbn.
    - constructor; constructor.
    - destruct (Z.ltb_spec k k2) as [Hk|Hk].
      + constructor; [|constructor; assumption].
        constructor; [cbn; lia|]. eapply Forall_impl; [|exact Hlt]. cbn; intros; lia.
      + destruct (Z.eqb_spec k k2) as [->|Hne]; constructor; try assumption.
        apply Forall_ninsert; [cbn; lia|exact Hlt].
  Qed.

  Lemma nsorted_nremove k m : nsorted m -> nsorted (nremove k m).
  Proof.
    induction 1 as [|k2 v2 m Hlt Hs IH]; cbn; [constructor|].
    destruct (Z.eqb k k2); [exact IH|]. constructor; [apply Forall_nremove; exact Hlt|exact IH].
  Qed.

  Lemma nget_In k v m : nget k m = Some v -> In (k, v) m.
  Proof.
    induction m as [|[k2 v2] m IH]; cbn; [discriminate|].
    destruct (Z.eqb_spec k k2) as [->|Hne]; intros H; [injection H as ->; left; reflexivity|right; auto].
  Qed.

  Lemma nsorted_In_nget k v m : nsorted m -> In (k, v) m -> nget k m = Some v.
  Proof.
    induction 1 as [|k2 v2 m Hlt Hs IH]; cbn; [intros []|].
    intros [H|H].
    - injection H as -> ->. rewrite Z.eqb_refl; reflexivity.
    - destruct (Z.eqb_spec k k2) as [->|Hne]; [|auto].
      rewrite Forall_forall in Hlt. apply Hlt in H; cbn in H; lia.
  Qed.

  Lemma nget_None_notIn k m : nget k m = None <-> ~ In k (nkeys m).
  Proof.
    induction m as [|[k2 v2] m IH]; cbn; [tauto|].
    destruct (Z.eqb_spec k k2) as [->|Hne]; split; [discriminate|intros H; exfalso; auto| |].
    - intros H [E|E]; [congruence|]. apply IH in H; auto.
    - intros H; apply IH; auto.
  Qed.
End NatMapFacts.
