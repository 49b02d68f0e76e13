(** The effect of collecting statuses, and the text of the job list. *)
From Verif Require Import Base BaseFacts Jobs JobsSpec JobsFacts JobsLaws.
Local Open Scope Z_scope.

(** ** Reaping *)

Lemma report_has p w j w0 : has_pid p (hit_job p w w0 j) <-> has_pid p j.
Proof. symmetry. apply same_job_has, hit_job_same. Qed.

Lemma hit_job_reap p w w0 j : unfinished j -> has_pid p j -> reap_job p w j (hit_job p w w0 j).
Proof.
  intros Hu Hp. unfold reap_job. cbn [job_id background hit_job].
  split; [reflexivity|]. split; [reflexivity|]. split; [intros _|intros Hn; destruct Hn; split; assumption].
  split; [reflexivity|]. cbn [processes hit_job state changed]. rewrite state_after_finished.
  split.
  - intros Hn. destruct (existsb no_status (map (report p w) (processes j))) eqn:E.
    + cbn. split; reflexivity.
    + exfalso. apply Hn. apply no_status_all. exact E.
  - intros Ha. apply no_status_all in Ha. rewrite Ha. split; [|split].
    + destruct (existsb stoppedb _); reflexivity.
    + intros Hs. apply stoppedb_some in Hs. rewrite Hs. reflexivity.
    + intros Hs. apply stoppedb_none in Hs. rewrite Hs. reflexivity.
Qed.

Lemma untouched_reap p w j : ~ (unfinished j /\ has_pid p j) -> reap_job p w j j.
Proof. intros H. unfold reap_job. repeat split; intros; tauto. Qed.

Lemma passed_reap p w w0 j : ~ (unfinished j /\ has_pid p j) -> reap_job p w j (with_stop_status w0 j).
Proof. intros H. unfold reap_job. cbn. repeat split; intros; tauto. Qed.

Lemma only_one_tail p k j t : nsorted ((k, j) :: t) -> only_one_with p ((k, j) :: t) -> only_one_with p t.
Proof.
  intros Hs H a b x y Ha Hb Hx Hy. inversion Hs as [|? ? ? Hlt _]; subst.
  assert (G : forall c z, nget c t = Some z -> nget c ((k, j) :: t) = Some z).
  { intros c z Hc. cbn. destruct (Z.eqb_spec c k) as [->|]; [|exact Hc].
    apply nget_In in Hc. rewrite Forall_forall in Hlt. apply Hlt in Hc. cbn in Hc. lia. }
  eapply H; eauto.
Qed.

Lemma only_one_head p k j t :
  nsorted ((k, j) :: t) -> only_one_with p ((k, j) :: t) -> unfinished j -> has_pid p j ->
  forall k' j', nget k' t = Some j' -> ~ (unfinished j' /\ has_pid p j').
Proof.
  intros Hs H Hu Hp k' j' E Hj'. inversion Hs as [|? ? ? Hlt _]; subst.
  assert (Hk : k < k'). { apply nget_In in E. rewrite Forall_forall in Hlt. apply Hlt in E. exact E. }
  assert (k = k'); [|lia]. apply (H k k' j j').
  - cbn. rewrite Z.eqb_refl. reflexivity.
  - cbn. destruct (Z.eqb_spec k' k); [lia|exact E].
  - auto.
  - exact Hj'.
Qed.

Lemma visited_reap p w t t' r :
  visited p w t t' r -> nsorted t -> only_one_with p t -> forall k, orel (reap_job p w) (nget k t) (nget k t').
Proof.
  induction 1 as [|k j t t' r Hf Hv IH|k j w0 t t' r Hu Hp Hf Hv IH|k j w0 t Hu Hp Hf]; intros Hs Ho k'; [exact I| | |];
    pose proof (only_one_tail _ _ _ _ Hs Ho) as Ho'; pose proof (only_one_head _ _ _ _ Hs Ho) as Hh;
    inversion Hs as [|? ? ? Hlt Hs']; subst; cbn; destruct (Z.eqb_spec k' k) as [->|Hn]; cbn; auto.
  - apply untouched_reap. intros [Hu _]. contradiction.
  - apply passed_reap. tauto.
  - apply hit_job_reap; assumption.
  - specialize (Hh Hu Hp k'). destruct (nget k' t) as [j'|] eqn:E; cbn; [|exact I].
    apply untouched_reap. apply Hh. reflexivity.
Qed.

(** Which job is found. *)
Lemma visited_first p w t t' r :
  visited p w t t' r -> nsorted t -> (forall k j, nget k t = Some j -> job_id j = k) ->
  match r with
  | Some (k, _) => exists j, first_with p t k j
  | None => forall k j, nget k t = Some j -> ~ (unfinished j /\ has_pid p j)
  end.
Proof.
  induction 1 as [|k j t t' r Hf Hv IH|k j w0 t t' r Hu Hp Hf Hv IH|k j w0 t Hu Hp Hf]; intros Hs Hid.
  - intros k j E. discriminate.
  - inversion Hs as [|? ? ? Hlt Hs']; subst. rewrite Forall_forall in Hlt.
    assert (G : forall c z, nget c t = Some z -> nget c ((k, j) :: t) = Some z /\ k < c).
    { intros c z Hc. pose proof (Hlt _ (nget_In _ _ _ Hc)) as L. cbn in *.
      destruct (Z.eqb_spec c k); [lia|auto]. }
    specialize (IH Hs' (fun c z Hc => Hid c z (proj1 (G c z Hc)))).
    destruct r as [[k0 st]|].
    + destruct IH as (j0 & E0 & Hu0 & Hp0 & Hmin). exists j0. split; [apply G; exact E0|].
      split; [exact Hu0|]. split; [exact Hp0|]. intros k' j' Hk' E'. cbn in E'.
      destruct (Z.eqb_spec k' k) as [->|Hn]; [|apply (Hmin k' j' Hk' E')].
      injection E' as <-. intros [H _]. contradiction.
    + intros k' j' E'. cbn in E'. destruct (Z.eqb_spec k' k) as [->|Hn]; [|apply (IH k' j' E')].
      injection E' as <-. intros [H _]. contradiction.
  - inversion Hs as [|? ? ? Hlt Hs']; subst. rewrite Forall_forall in Hlt.
    assert (G : forall c z, nget c t = Some z -> nget c ((k, j) :: t) = Some z /\ k < c).
    { intros c z Hc. pose proof (Hlt _ (nget_In _ _ _ Hc)) as L. cbn in *.
      destruct (Z.eqb_spec c k); [lia|auto]. }
    specialize (IH Hs' (fun c z Hc => Hid c z (proj1 (G c z Hc)))).
    destruct r as [[k0 st]|].
    + destruct IH as (j0 & E0 & Hu0 & Hp0 & Hmin). exists j0. split; [apply G; exact E0|].
      split; [exact Hu0|]. split; [exact Hp0|]. intros k' j' Hk' E'. cbn in E'.
      destruct (Z.eqb_spec k' k) as [->|Hn]; [|apply (Hmin k' j' Hk' E')].
      injection E' as <-. intros [_ H]. contradiction.
    + intros k' j' E'. cbn in E'. destruct (Z.eqb_spec k' k) as [->|Hn]; [|apply (IH k' j' E')].
      injection E' as <-. intros [_ H]. contradiction.
  - assert (E : nget k ((k, j) :: t) = Some j) by (cbn; rewrite Z.eqb_refl; reflexivity).
    rewrite (Hid k j E). exists j. repeat split; auto. intros k' j' Hk' E'. cbn in E'.
    inversion Hs as [|? ? ? Hlt Hs']; subst. rewrite Forall_forall in Hlt.
    destruct (Z.eqb_spec k' k); [lia|]. apply nget_In in E'. apply Hlt in E'. cbn in E'. lia.
Qed.

Lemma first_with_unique p t k k' j j' : first_with p t k j -> first_with p t k' j' -> k = k'.
Proof.
  intros (E & Hu & Hp & Hm) (E' & Hu' & Hp' & Hm').
  destruct (Z.lt_trichotomy k k') as [L|[L|L]]; [|exact L|].
  - exfalso. apply (Hm' k j L E). auto.
  - exfalso. apply (Hm k' j' L E'). auto.
Qed.

(** ** When it crashes *)

Lemma first_status_report p w j :
  first_status (map (report p w) (processes j)) = None <-> nothing_first p j.
Proof.
  unfold nothing_first. destruct (processes j) as [|q ps]; cbn; [tauto|].
  unfold report. destruct (Z.eqb_spec (p_pid q) p) as [E|E]; cbn.
  - split; [discriminate|tauto].
  - tauto.
Qed.

Lemma nsorted_app_lt {V} (a : nmap V) k v b :
  nsorted (a ++ (k, v) :: b) -> Forall (fun kv => fst kv < k) a.
Proof.
  induction a as [|[k0 v0] a IH]; cbn; [constructor|]. intros H. inversion H as [|? ? ? Hlt Hs]; subst.
  constructor; [|apply IH; exact Hs]. rewrite Forall_forall in Hlt.
  apply (Hlt (k, v)). apply in_or_app. right. left. reflexivity.
Qed.

Lemma nget_split {V} k (v : V) m : nget k m = Some v -> exists a b, m = a ++ (k, v) :: b.
Proof.
  induction m as [|[k' v'] m IH]; cbn; [discriminate|]. destruct (Z.eqb_spec k k') as [->|Hn].
  - intros H. injection H as ->. exists [], m. reflexivity.
  - intros H. destruct (IH H) as (a & b & ->). exists ((k', v') :: a), b. reflexivity.
Qed.

Lemma visit_none_trips p w t : nsorted t -> (visit p w t = None <-> exists k j, trips p t k j).
Proof.
  intros Hs. rewrite visit_none. split.
  - intros (a & k & j & b & E & Ha & Hu & Hf). exists k, j. subst t.
    assert (G : nget k (a ++ (k, j) :: b) = Some j).
    { apply nsorted_In_nget; [exact Hs|]. apply in_or_app. right; left; reflexivity. }
    split; [exact G|]. split; [exact Hu|]. split; [apply (first_status_report p w); exact Hf|].
    intros k' j' Hk' E'. rewrite Forall_forall in Ha.
    apply nget_In in E'. apply in_app_or in E'. destruct E' as [H|[H|H]].
    + apply (Ha _ H).
    + injection H as -> _. lia.
    + exfalso. assert (Hs2 : nsorted ((k, j) :: b)).
      { clear -Hs. induction a as [|x a IH]; cbn in Hs; [exact Hs|]. inversion Hs; subst; auto. }
      inversion Hs2 as [|? ? ? Hlt _]; subst. rewrite Forall_forall in Hlt. apply Hlt in H. cbn in H. lia.
  - intros (k & j & E & Hu & Hn & Hm). destruct (nget_split _ _ _ E) as (a & b & ->).
    exists a, k, j, b. split; [reflexivity|]. split; [|split; [exact Hu|apply first_status_report; exact Hn]].
    pose proof (nsorted_app_lt a k j b Hs) as L. rewrite Forall_forall in L. apply Forall_forall.
    intros [k' j'] Hin. cbn. apply (Hm k' j'); [apply (L _ Hin)|].
    apply nsorted_In_nget; [exact Hs|]. apply in_or_app. left. exact Hin.
Qed.

(** ** The whole of [wait_one] *)

Definition intr (n : nat) (as_ : list answer) : list answer := repeat AIntr n ++ as_.

Lemma wait_process_intr n as_ : wait_process (intr n as_) = wait_process as_.
Proof. induction n as [|n IH]; cbn; [reflexivity|]. exact IH. Qed.

Lemma event_ws_pid w p : event_of w p -> ws_pid w = Some p.
Proof. destruct 1; reflexivity. Qed.

Lemma event_pid_of w p : event_of w p ->
  match w with Exited p _ | Signaled p _ _ | Stopped p _ => p | _ => (-1) end = p.
Proof. destruct 1; reflexivity. Qed.

Definition after_found (found : option (Z * job_state)) (jc : job_control) : job_control :=
  match found with
  | Some (k, SStopped) => set_current_job k jc
  | _ => jc
  end.

Lemma wait_one_event ps4 id n w p rest s :
  event_of w p ->
  wait_one ps4 id (intr n (AStatus w :: rest)) s =
  match visit p w (job_table (jobs s)) with
  | None => WPanic
  | Some (t, found) =>
      let jc := after_found found (put_table t (jobs s)) in
      let s' := Jst jc false false (printed s) in
      match found with
      | Some (k, _) =>
          if Z.eqb k id then
            match format_status ps4 w jc with
            | None => WPanic
            | Some None => WDone (RPid p) s' rest
            | Some (Some t) => WDone (RPid p) (print t s') rest
            end
          else WDone (RPid p) s' rest
      | None => WDone (RPid p) s' rest
      end
  end.
Proof.
  intros Hw. unfold wait_one. rewrite wait_process_intr. cbn [wait_process].
  rewrite (event_ws_pid _ _ Hw). rewrite (event_pid_of _ _ Hw). cbn [jobs with_sigchld with_masked].
  destruct (visit p w (job_table (jobs s))) as [[t [[k []]|]]|]; reflexivity.
Qed.

(** ** The first process decides *)

(** [first_done id p s]: the first process of the job is [p] and the job carries
    what has been reported about it. *)
Definition first_done (id : Z) (p : pid) (s : jst) : Prop :=
  exists j q ps v, nget id (job_table (jobs s)) = Some j /\ processes j = q :: ps /\ p_pid q = p /\
    p_status q = Some v /\ event_of v p /\ stop_status j = v.

Lemma visited_first_done p1 w p t t' r id j q ps v :
  visited p w t t' r -> event_of w p \/ p <> p1 ->
  nget id t = Some j -> processes j = q :: ps -> p_pid q = p1 -> p_status q = Some v -> event_of v p1 ->
  stop_status j = v ->
  exists j' q' ps' v', nget id t' = Some j' /\ processes j' = q' :: ps' /\ p_pid q' = p1 /\
    p_status q' = Some v' /\ event_of v' p1 /\ stop_status j' = v'.
Proof.
  intros H Hw. induction H as [|k j0 t t' r Hf Hv IH|k j0 w0 t t' r Hu Hp Hf Hv IH|k j0 w0 t Hu Hp Hf];
    cbn [nget]; intros E Ep Eq Es He Est; [discriminate| | |];
    destruct (Z.eqb_spec id k) as [->|Hn]; auto.
  - injection E as ->. exists j, q, ps, v. auto 10.
  - injection E as ->. exists (with_stop_status w0 j), q, ps, v. rewrite Ep in Hf. cbn in Hf.
    cbn [processes with_stop_status stop_status].
    assert (w0 = v) by congruence. subst w0. auto 10.
  - injection E as ->. unfold hit_job. rewrite Ep in *. cbn [map first_status] in Hf.
    exists (hit_job p w w0 j), (report p w q), (map (report p w) ps), w0.
    split; [unfold hit_job; rewrite Ep; reflexivity|].
    split; [cbn [processes hit_job]; rewrite Ep; reflexivity|].
    split; [rewrite report_pid; exact Eq|]. split; [exact Hf|]. split; [|reflexivity].
    unfold report in Hf. destruct (Z.eqb_spec (p_pid q) p) as [E1|E1]; cbn in Hf.
    + injection Hf as <-. destruct Hw as [Hw|Hw]; [congruence|congruence].
    + congruence.
  - exists j, q, ps, v. auto 10.
Qed.

Lemma wait_one_first_done ps4 id as_ s r s' rest p1 :
  p1 <> -1 -> first_done id p1 s -> wait_one ps4 id as_ s = WDone r s' rest -> first_done id p1 s'.
Proof.
  intros Hp1 (j & q & ps & v & E & Ep & Eq & Es & He & Est). unfold wait_one.
  destruct (wait_process as_) as [[[w|] r0]|]; [| |discriminate].
  2:{ intros H. injection H as _ <- _. exists j, q, ps, v. auto 10. }
  destruct (ws_pid w) as [x|] eqn:Ew.
  2:{ intros H. injection H as _ <- _. exists j, q, ps, v. auto 10. }
  set (p := match w with Exited p _ | Signaled p _ _ | Stopped p _ => p | _ => (-1) end).
  cbn [jobs with_sigchld with_masked].
  destruct (visit p w (job_table (jobs s))) as [[t found]|] eqn:Ev; [|discriminate].
  apply visit_some in Ev.
  assert (Hw : event_of w p \/ p <> p1).
  { unfold p. destruct w; try (left; constructor); right; congruence. }
  destruct (visited_first_done p1 w p _ _ _ id j q ps v Ev Hw E Ep Eq Es He Est)
    as (j' & q' & ps' & v' & H1 & H2 & H3 & H4 & H5 & H6).
  set (jc := match found with Some (k, SStopped) => set_current_job k (put_table t (jobs s)) | _ => put_table t (jobs s) end).
  assert (Hjc : job_table jc = t) by (unfold jc; destruct found as [[k []]|]; reflexivity).
  clearbody jc. cbn [jobs with_jobs with_masked].
  assert (G : forall s1, job_table (jobs s1) = t -> first_done id p1 s1).
  { intros s1 Hs1. exists j', q', ps', v'. rewrite Hs1. auto 10. }
  destruct found as [[k st]|].
  - destruct (Z.eqb k id).
    + destruct (format_status ps4 w jc) as [[m|]|]; [| |discriminate]; intros H; injection H as _ <- _; apply G; exact Hjc.
    + intros H; injection H as _ <- _; apply G; exact Hjc.
  - intros H; injection H as _ <- _; apply G; exact Hjc.
Qed.

Lemma wait_loop_first_done ps4 n : forall id as_ s s' rest p1,
  p1 <> -1 -> first_done id p1 s -> wait_loop ps4 n id as_ s = WDone tt s' rest -> first_done id p1 s'.
Proof.
  induction n as [|n IH]; intros id as_ s s' rest p1 Hp F; cbn [wait_loop]; [discriminate|].
  destruct (wait_one ps4 id as_ s) as [[q| |] s1 r1| |] eqn:E1; try discriminate.
  - intros H. eapply IH; [exact Hp| |exact H]. eapply wait_one_first_done; eauto.
  - intros H. injection H as <- <-. eapply wait_one_first_done; eauto.
  - intros H. injection H as <- <-. eapply wait_one_first_done; eauto.
Qed.

(** ** Text *)

Lemma commands_text_join ps : NoDup (map p_pid ps) -> commands_text ps = join (lit " | ") (map p_cmd ps).
Proof.
  intros Hd. unfold commands_text.
  assert (G : forall a l, NoDup (map p_pid (l ++ a)) ->
     List.concat (map (fun p => p_cmd p ++ if Z.eqb (p_pid p) (p_pid (last (l ++ a) p)) then [] else lit " | ") a)
     = join (lit " | ") (map p_cmd a)).
  { clear. induction a as [|q a IH]; intros l Hd; [reflexivity|].
    cbn [map List.concat]. destruct a as [|q' a].
    - cbn [map List.concat join]. rewrite last_last, Z.eqb_refl, !app_nil_r. reflexivity.
    - assert (El : forall d, last (l ++ q :: q' :: a) d = last (q' :: a) d).
      { intros d. clear. replace (l ++ q :: q' :: a) with ((l ++ [q]) ++ q' :: a) by (rewrite <- app_assoc; reflexivity).
        generalize (l ++ [q]) as m. intros m. induction m as [|x m IH]; [reflexivity|].
        change ((x :: m) ++ q' :: a) with (x :: (m ++ q' :: a)).
        destruct (m ++ q' :: a) as [|y z] eqn:E; [destruct m; discriminate|]. cbn [last]. exact IH. }
      assert (Hne : Z.eqb (p_pid q) (p_pid (last (l ++ q :: q' :: a) q)) = false).
      { apply Z.eqb_neq. rewrite El. rewrite map_app in Hd. cbn [map] in Hd.
        apply NoDup_remove_2 in Hd. intros E. apply Hd. apply in_or_app. right. rewrite E.
        change (p_pid q' :: map p_pid a) with (map p_pid (q' :: a)). apply in_map.
        assert (Hx : q' :: a <> []) by discriminate. revert Hx. generalize (q' :: a) as b. clear.
        intros b Hb. destruct (exists_last Hb) as (x & y & ->). rewrite last_last. apply in_or_app. right. left. reflexivity. }
      rewrite Hne. specialize (IH (l ++ [q])).
      replace ((l ++ [q]) ++ q' :: a) with (l ++ q :: q' :: a) in IH by (rewrite <- app_assoc; reflexivity).
      rewrite IH by exact Hd.
      change (join (lit " | ") (p_cmd q :: map p_cmd (q' :: a)))
        with (p_cmd q ++ lit " | " ++ join (lit " | ") (map p_cmd (q' :: a))).
      rewrite app_assoc. reflexivity. }
  apply (G ps []). exact Hd.
Qed.

Lemma state_text_word s : state_text s = state_word s.
Proof. destruct s; reflexivity. Qed.
