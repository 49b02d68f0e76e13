(** A wait that is told about several processes. *)
From Verif Require Import Base BaseFacts Jobs JobsSpec JobsFacts JobsLaws JobsWait JobsPipe.
Local Open Scope Z_scope.

(** ** The crash *)

Definition alike (t u : nmap job) : Prop := forall k, 
  match nget k t, nget k u with
  | None, None => True
  | Some j, Some j' => processes j' = processes j /\ state j' = state j
  | _, _ => False
  end.

Lemma alike_sym t u : alike t u -> alike u t.
Proof. intros H k. specialize (H k). destruct (nget k t), (nget k u); try tauto. destruct H; split; congruence. Qed.

Lemma alike_has t u : alike t u -> forall p k j j', nget k t = Some j -> nget k u = Some j' ->
  (unfinished j <-> unfinished j') /\ (has_pid p j <-> has_pid p j') /\ (nothing_first p j <-> nothing_first p j').
Proof.
  intros H p k j j' E E'. specialize (H k). rewrite E, E' in H. destruct H as [Hp Hs].
  unfold unfinished, has_pid, nothing_first. rewrite Hp, Hs. tauto.
Qed.

Lemma alike_none t u p k : alike t u ->
  (forall k' j', k' < k -> nget k' t = Some j' -> ~ (unfinished j' /\ has_pid p j')) ->
  forall k' j', k' < k -> nget k' u = Some j' -> ~ (unfinished j' /\ has_pid p j').
Proof.
  intros H N k' j' L E. pose proof (H k') as Hk. rewrite E in Hk. destruct (nget k' t) as [j|] eqn:Et; [|contradiction].
  destruct (alike_has t u H p k' j j' Et E) as (A & B & _). rewrite <- A, <- B. exact (N k' j L Et).
Qed.

Lemma alike_trips t u p : alike t u -> (exists k j, trips p t k j) -> (exists k j, trips p u k j).
Proof.
  intros H (k & j & E & Hu & Hn & Hb). pose proof (H k) as Hk. rewrite E in Hk.
  destruct (nget k u) as [j'|] eqn:Eu; [|contradiction]. destruct (alike_has t u H p k j j' E Eu) as (A & _ & C).
  exists k, j'. split; [exact Eu|]. split; [tauto|]. split; [tauto|]. exact (alike_none t u p k H Hb).
Qed.

Lemma alike_first t u p k j j' : alike t u -> nget k t = Some j -> nget k u = Some j' ->
  first_with p t k j -> first_with p u k j'.
Proof.
  intros H E E' (_ & Hu & Hp & Hb). destruct (alike_has t u H p k j j' E E') as (A & B & _).
  split; [exact E'|]. split; [tauto|]. split; [tauto|]. exact (alike_none t u p k H Hb).
Qed.

Lemma alike_collected t u p w t' : alike t u -> collected p w t t' -> collected p w u t'.
Proof.
  intros H C k. specialize (C k). pose proof (H k) as Hk.
  destruct (nget k t) as [j|] eqn:E; destruct (nget k u) as [j'|] eqn:E'; try contradiction; [|exact C].
  destruct (nget k t') as [j2|]; [|exact C]. destruct C as [C1 C2]. destruct Hk as [Hp Hs]. rewrite Hp, Hs. split; intros F.
  - apply C1. exact (alike_first u t p k j' j (alike_sym _ _ H) E' E F).
  - apply C2. intros F'. apply F. exact (alike_first t u p k j j' H E E' F').
Qed.

Lemma alike_stumbles ws t : stumbles ws t -> forall u, alike t u -> stumbles ws u.
Proof.
  intros C u H. destruct C as [w p ws t k j He Ht|w p ws t t' He Hc C].
  - destruct (alike_trips t u p H (ex_intro _ k (ex_intro _ j Ht))) as (k' & j' & Ht'). eapply sb_now; eassumption.
  - eapply sb_later; [exact He| |exact C]. eapply alike_collected; eassumption.
Qed.

(** What [visit] does to each job. *)
Lemma visited_at p w t t' r : visited p w t t' r -> nsorted t -> (forall k j, nget k t = Some j -> job_id j = k) ->
  forall k, match nget k t, nget k t' with
  | None, None => True
  | Some j, Some j' => (exists st, r = Some (k, st)) /\ (exists w0, j' = hit_job p w w0 j) \/
                       (forall st, r <> Some (k, st)) /\ processes j' = processes j /\ state j' = state j
  | _, _ => False
  end.
Proof.
  induction 1 as [|k0 j0 t t' r Hf Hv IH|k0 j0 w0 t t' r Hu Hp Hf Hv IH|k0 j0 w0 t Hu Hp Hf]; intros Hs Hid k; [exact I| | |];
    inversion Hs as [|? ? ? Hlt Hs']; subst; rewrite Forall_forall in Hlt; cbn [nget];
    assert (G : forall c z, nget c t = Some z -> k0 < c) by (intros c z Hc; exact (Hlt _ (nget_In _ _ _ Hc)));
    assert (Hid' : forall c z, nget c t = Some z -> job_id z = c)
      by (intros c z Hc; apply Hid; cbn; destruct (Z.eqb_spec c k0) as [->|]; [apply G in Hc; lia|exact Hc]).
  1,2: specialize (IH Hs' Hid'); destruct (Z.eqb_spec k k0) as [->|]; [|apply IH];
    right; split; [|split; reflexivity]; intros st ->; pose proof (visited_first _ _ _ _ _ Hv Hs' Hid') as (j1 & E1 & _);
    apply G in E1; lia.
  destruct (Z.eqb_spec k k0) as [->|Hn].
  - left. split; [|eauto]. eexists. f_equal. f_equal. apply Hid. cbn. rewrite Z.eqb_refl. reflexivity.
  - destruct (nget k t) as [j|] eqn:E; [|exact I]. right. split; [|split; reflexivity].
    intros st F. injection F as F _. apply Hn. rewrite <- F. apply Hid. cbn. rewrite Z.eqb_refl. reflexivity.
Qed.

Lemma visited_first_iff p w t t' r k j : visited p w t t' r -> nsorted t -> (forall k j, nget k t = Some j -> job_id j = k) ->
  nget k t = Some j -> first_with p t k j <-> exists st, r = Some (k, st).
Proof.
  intros Hv Hs Hid E. pose proof (visited_first _ _ _ _ _ Hv Hs Hid) as V. split.
  - intros F. destruct r as [[k1 st]|].
    + destruct V as (j1 & F1). rewrite (first_with_unique _ _ _ _ _ _ F F1). eauto.
    + destruct F as (_ & Hu & Hp & _). destruct (V k j E). auto.
  - intros (st & ->). destruct V as (j1 & F1). pose proof F1 as (E1 & _). congruence.
Qed.

Lemma visited_collected p w t t' r : visited p w t t' r -> nsorted t -> (forall k j, nget k t = Some j -> job_id j = k) ->
  collected p w t t'.
Proof.
  intros Hv Hs Hid k. pose proof (visited_at _ _ _ _ _ Hv Hs Hid k) as V.
  destruct (nget k t) as [j|] eqn:E; destruct (nget k t') as [j'|]; try contradiction; [|exact I].
  pose proof (visited_first_iff _ _ _ _ _ k j Hv Hs Hid E) as F. destruct V as [[V1 (w0 & ->)]|[V1 V2]].
  - split; [intros _|intros N; destruct (N (proj2 F V1))]. cbn [hit_job processes state]. rewrite state_after_finished.
    split; [reflexivity|]. split; [|split].
    + intros N. destruct (existsb no_status _) eqn:En; [reflexivity|]. destruct N. apply no_status_all. exact En.
    + intros A B. apply no_status_all in A. apply stoppedb_some in B. rewrite A, B. reflexivity.
    + intros A B. apply no_status_all in A. apply stoppedb_none in B. rewrite A, B. reflexivity.
  - split; [intros F'|intros _; exact V2]. apply F in F'. destruct F' as (st & ->). destruct (V1 st eq_refl).
Qed.

Lemma collected_alike p w t t' t1 r : visited p w t t1 r -> nsorted t -> (forall k j, nget k t = Some j -> job_id j = k) ->
  collected p w t t' -> alike t' t1.
Proof.
  intros Hv Hs Hid C k. pose proof (visited_collected _ _ _ _ _ Hv Hs Hid k) as C1. specialize (C k).
  destruct (nget k t) as [j|] eqn:E.
  2:{ destruct (nget k t'), (nget k t1); try contradiction; exact I. }
  destruct (nget k t') as [j'|]; [|contradiction]. destruct (nget k t1) as [j1|]; [|contradiction].
  destruct C as [Ca Cb], C1 as [Da Db].
  assert (D : first_with p t k j \/ ~ first_with p t k j).
  { rewrite (visited_first_iff _ _ _ _ _ k j Hv Hs Hid E). destruct r as [[k1 st]|]; [|right; intros (? & ?); discriminate].
    destruct (Z.eq_dec k1 k) as [->|N]; [left; eauto|right; intros (st' & F); injection F; intros; contradiction]. }
  destruct D as [D|D].
  - destruct (Ca D) as (A1 & A2 & A3 & A4), (Da D) as (B1 & B2 & B3 & B4). split; [congruence|].
    rewrite A1 in *. rewrite B1 in *. set (ps := map (report p w) (processes j)) in *.
    destruct (existsb no_status ps) eqn:En.
    + assert (N : ~ all_reported ps) by (rewrite <- no_status_all, En; discriminate). rewrite (A2 N), (B2 N). reflexivity.
    + apply no_status_all in En. destruct (existsb stoppedb ps) eqn:Es.
      * apply stoppedb_some in Es. rewrite (A3 En Es), (B3 En Es). reflexivity.
      * apply stoppedb_none in Es. rewrite (A4 En Es), (B4 En Es). reflexivity.
  - destruct (Cb D), (Db D). split; congruence.
Qed.

Lemma wait_one_skip ps4 id as_ s : wait_one ps4 id (AIntr :: as_) s = wait_one ps4 id as_ s.
Proof. reflexivity. Qed.

Lemma loop_status v id w0 q as_ fuel s : event_of w0 q -> basic (jobs s) ->
  (forall fuel s, (List.length as_ < fuel)%nat -> basic (jobs s) -> Forall (fun w => exists p, event_of w p) (heard as_) ->
     wait_loop (Some v) fuel id as_ s = WPanic <-> stumbles (heard as_) (job_table (jobs s))) ->
  (List.length as_ < fuel)%nat -> Forall (fun w => exists p, event_of w p) (heard as_) ->
  wait_loop (Some v) (S fuel) id (AStatus w0 :: as_) s = WPanic <-> stumbles (w0 :: heard as_) (job_table (jobs s)).
Proof.
  intros Hev B IH Hf He'. cbn [wait_loop].
  pose proof (wait_one_event (Some v) id 0 w0 q as_ s Hev) as W. cbn [intr repeat app] in W.
  destruct (visit q w0 (job_table (jobs s))) as [[t found]|] eqn:Ev.
  2:{ rewrite W. split; [intros _|reflexivity]. apply (visit_none_trips q w0 _ (b_sorted _ B)) in Ev.
      destruct Ev as (k & j & Ht). eapply sb_now; eassumption. }
  cbv zeta in W. set (jc := after_found found (put_table t (jobs s))) in W.
  assert (Hjc : job_table jc = t) by (unfold jc, after_found; destruct found as [[? []]|]; reflexivity).
  clearbody jc. assert (Hnp : format_status (Some v) w0 jc <> None).
  { clear - Hev. destruct Hev; cbn [format_status]; [discriminate| |]; destruct (get_job_pid p jc); discriminate. }
  assert (W' : exists s1, wait_one (Some v) id (AStatus w0 :: as_) s = WDone (RPid q) s1 as_ /\ job_table (jobs s1) = t).
  { rewrite W. destruct found as [[k st]|]; [destruct (Z.eqb k id)|];
      [destruct (format_status (Some v) w0 jc) as [[x|]|]; [| |contradiction]| |]; eexists; (split; [reflexivity|]); exact Hjc. }
  destruct W' as (s1 & W1 & W2). rewrite W1.
  assert (B1 : basic (jobs s1)) by (eapply tweak_basic; [exact B|]; eapply wait_one_tweak; [exact B|exact W1]).
  rewrite (IH fuel s1 Hf B1 He'), W2. pose proof (visit_some _ _ _ _ _ Ev) as Hv. split.
  - intros C. eapply sb_later; [exact Hev| |exact C]. exact (visited_collected _ _ _ _ _ Hv (b_sorted _ B) (b_ids _ B)).
  - intros C. inversion C as [w1 p1 ws t0 k j He1 Ht|w1 p1 ws t0 t' He1 Hc C']; subst;
      (assert (p1 = q) by (inversion He1; subst; inversion Hev; congruence); subst p1).
    + exfalso. assert (N : visit q w0 (job_table (jobs s)) = None) by (apply (visit_none_trips q w0 _ (b_sorted _ B)); eauto). congruence.
    + exact (alike_stumbles _ _ C' _ (collected_alike _ _ _ _ _ _ Hv (b_sorted _ B) (b_ids _ B) Hc)).
Qed.

(** The loop stumbles exactly when one of the statuses it is told does. *)
Lemma loop_stumbles v id : forall as_ fuel s, (List.length as_ < fuel)%nat -> basic (jobs s) ->
  Forall (fun w => exists p, event_of w p) (heard as_) ->
  wait_loop (Some v) fuel id as_ s = WPanic <-> stumbles (heard as_) (job_table (jobs s)).
Proof.
  induction as_ as [|a as_ IH]; intros fuel s Hf B He; (destruct fuel as [|fuel]; [cbn in Hf; lia|]).
  - cbn. split; [discriminate|inversion 1].
  - cbn [List.length] in Hf. destruct a as [w| |].
    + destruct w as [q c|q g c|q g|q|].
      4:{ cbn [heard] in He. inversion He as [|? ? (p & Hp) _]. inversion Hp. }
      4:{ cbn. split; [discriminate|inversion 1]. }
      all: refine (loop_status v id _ q as_ fuel s _ B IH _ _); [constructor|lia|]; cbn [heard] in He; inversion He; assumption.
    + cbn [wait_loop heard]. rewrite wait_one_skip. exact (IH (S fuel) s ltac:(lia) B He).
    + cbn. split; [discriminate|inversion 1].
Qed.

Lemma wait_stumbles v id as_ s : basic (jobs s) -> Forall (fun w => exists p, event_of w p) (heard as_) ->
  (exists j, nget id (job_table (jobs s)) = Some j /\ state j = Running) ->
  wait_for_job (Some v) id as_ s = WPanic <-> stumbles (heard as_) (job_table (jobs s)).
Proof.
  intros B He (j & Hg & Hr). unfold wait_for_job, do_wait, get_job at 1. rewrite Hg, Hr. cbn [state_eqb negb andb].
  rewrite <- (loop_stumbles v id as_ (S (List.length as_)) s (Nat.lt_succ_diag_r _) B He).
  destruct (wait_loop _ _ _ _ _) as [[] s' r| |] eqn:El; [|split; reflexivity|split; discriminate].
  pose proof (tw_jobs _ _ (wait_loop_tweak _ _ _ _ _ _ _ B El) id) as T. rewrite Hg in T. unfold get_job.
  destruct (nget id (job_table (jobs s'))) as [j'|]; [|destruct T].
  destruct (_ || _); split; discriminate.
Qed.

(** ** What it leaves *)

(** The state goes with what the processes have reported. *)
Definition fits (j : job) : Prop :=
  (all_reported (processes j) /\ some_stopped (processes j) -> state j = SStopped) /\
  (all_reported (processes j) /\ ~ some_stopped (processes j) -> state j = Finished) /\
  (~ all_reported (processes j) -> state j = Running).
Definition settled (id : Z) (s : jst) (j : job) : Prop :=
  first_status (processes j) = Some (stop_status j) /\ fits j /\
  (all_reported (processes j) /\ some_stopped (processes j) -> current_job (jobs s) = Some id).

Lemma wait_one_mine v id e p rest s j w0 : event_of e p -> nsorted (job_table (jobs s)) ->
  nget id (job_table (jobs s)) = Some j -> job_id j = id -> unfinished j -> has_pid p j ->
  first_status (map (report p e) (processes j)) = Some w0 ->
  (forall k j', nget k (job_table (jobs s)) = Some j' -> k <> id -> at_rest p j') ->
  exists s', wait_one (Some v) id (AStatus e :: rest) s = WDone (RPid p) s' rest /\
    jobs s' = after_found (Some (id, state_after (map (report p e) (processes j)) Finished))
                (put_table (ninsert id (hit_job p e w0 j) (job_table (jobs s))) (jobs s)).
Proof.
  intros He Hs Hg Hid Hu Hp Hf Ho. change (AStatus e :: rest) with (intr 0 (AStatus e :: rest)).
  rewrite (wait_one_event (Some v) id 0 e p rest s He).
  rewrite (visit_own p e id j w0 Hid Hu Hp Hf _ Hs Hg Ho). cbv zeta. rewrite Z.eqb_refl.
  set (jc := after_found _ _).
  assert (Hnp : format_status (Some v) e jc <> None).
  { destruct He; cbn [format_status]; [discriminate| |]; destruct (get_job_pid p jc); discriminate. }
  destruct (format_status (Some v) e jc) as [[t|]|]; [| |contradiction]; eexists; (split; [reflexivity|]); reflexivity.
Qed.

Lemma reported_more p w ps : all_reported ps -> all_reported (map (report p w) ps).
Proof.
  intros H q Hq. apply in_map_iff in Hq. destruct Hq as (x & <- & Hx). unfold report.
  destruct (Z.eqb (p_pid x) p); [discriminate|exact (H x Hx)].
Qed.

Lemma hit_fits p w w0 j : unfinished j -> (state j = Running \/ fits j) -> fits (hit_job p w w0 j).
Proof.
  intros Hu HI. unfold fits. cbn [hit_job processes state]. rewrite state_after_finished.
  split; [|split].
  - intros [A B]. apply no_status_all in A. apply stoppedb_some in B. rewrite A, B. reflexivity.
  - intros [A B]. apply no_status_all in A. apply stoppedb_none in B. rewrite A, B. reflexivity.
  - intros N. destruct (existsb no_status _) eqn:En; [|destruct N; apply no_status_all; exact En]. cbn.
    destruct HI as [HI|(_ & _ & HI)]; [exact HI|]. apply HI. intros A. apply N, reported_more, A.
Qed.

Lemma learnt_unfinished w p ws ps' j q : learnt (w :: ws) (processes j) ps' -> In q (processes j) -> p_pid q = p ->
  (p_status q = None \/ exists v g, p_status q = Some (Stopped v g)) -> (state j = Running \/ fits j) -> unfinished j.
Proof.
  intros _ Hq _ Hs HI. unfold unfinished. destruct HI as [->|(F1 & F2 & F3)]; [intros [E|E]; discriminate|].
  assert (D : all_reported (processes j) \/ ~ all_reported (processes j)).
  { rewrite <- no_status_all. destruct (existsb no_status _); [right; discriminate|left; reflexivity]. }
  destruct D as [D|D]; [|rewrite (F3 D); intros [E|E]; discriminate].
  destruct Hs as [Hs|(v & g & Hs)]; [destruct (D q Hq Hs)|].
  assert (St : state j = SStopped) by (apply F1; split; [exact D|]; exists q, v, g; auto).
  rewrite St. intros [E|E]; discriminate.
Qed.

Lemma loop_learnt v id pids : forall as_ fuel s j ps', (List.length as_ < fuel)%nat -> ends as_ ->
  learnt (heard as_) (processes j) ps' ->
  nsorted (job_table (jobs s)) -> nget id (job_table (jobs s)) = Some j -> job_id j = id ->
  map p_pid (processes j) = pids -> (state j = Running \/ fits j) ->
  (forall k j' q, nget k (job_table (jobs s)) = Some j' -> k <> id -> In q pids -> at_rest q j') ->
  heard as_ <> [] \/ settled id s j ->
  exists s' r j', wait_loop (Some v) fuel id as_ s = WDone tt s' r /\
    nsorted (job_table (jobs s')) /\ nget id (job_table (jobs s')) = Some j' /\
    processes j' = ps' /\ job_id j' = id /\ background j' = background j /\ settled id s' j' /\
    (forall k, k <> id -> nget k (job_table (jobs s')) = nget k (job_table (jobs s))).
Proof.
  induction as_ as [|a as_ IH]; intros fuel s j ps' Hf Hend HL Hs Hg Hid Hp HI Ho Hd; [destruct Hend|].
  cbn [List.length] in Hf. destruct fuel as [|fuel]; [lia|].
  assert (Last : heard (a :: as_) = [] -> a = AFail \/ a = AStatus StillAlive ->
    exists s' r j', wait_loop (Some v) (S fuel) id (a :: as_) s = WDone tt s' r /\
      nsorted (job_table (jobs s')) /\ nget id (job_table (jobs s')) = Some j' /\
      processes j' = ps' /\ job_id j' = id /\ background j' = background j /\ settled id s' j' /\
      (forall k, k <> id -> nget k (job_table (jobs s')) = nget k (job_table (jobs s)))).
  { intros Hn Ha. rewrite Hn in *. inversion HL; subst ps'. destruct Hd as [Hd|Hd]; [contradiction|].
    pose proof (wait_one_end v id 0 a as_ s Ha) as W. cbn [repeat app] in W. cbn [wait_loop]. rewrite W.
    exists (Jst (jobs s) (match a with AFail => true | _ => false end) false (printed s)), as_, j.
    split; [destruct Ha as [-> | ->]; reflexivity|]. unfold settled in *. cbn [jobs]. auto 10. }
  destruct a as [w| |].
  - assert (Hw : w = StillAlive \/ w <> StillAlive) by (destruct w; (left; reflexivity) || (right; discriminate)).
    destruct Hw as [->|Hw]; [apply Last; auto|]. clear Last.
    assert (Hh : heard (AStatus w :: as_) = w :: heard as_) by (destruct w; try reflexivity; contradiction).
    assert (Hend' : ends as_) by (destruct w; try exact Hend; contradiction). clear Hend. rewrite Hh in *. clear Hh Hd.
    pose proof HL as HL0. inversion HL as [|w1 p ws ps ps1 q q0 qs He Hq Eq Hst Em Hn HL1]; subst w1 ws ps ps1.
    pose proof (learnt_unfinished w p _ _ j q HL0 Hq Eq Hst HI) as Hu.
    destruct (p_status q0) as [w0|] eqn:E0; [|contradiction].
    assert (Hfs : first_status (map (report p w) (processes j)) = Some w0) by (rewrite Em; exact E0).
    assert (Hhas : has_pid p j) by (exists q; auto).
    assert (Hin : In p pids) by (rewrite <- Hp, <- Eq; apply in_map; exact Hq).
    destruct (wait_one_mine v id w p as_ s j w0 He Hs Hg Hid Hu Hhas Hfs (fun k j' E N => Ho k j' p E N Hin)) as (s1 & W1 & W2).
    cbn [wait_loop]. rewrite W1.
    assert (T1 : job_table (jobs s1) = ninsert id (hit_job p w w0 j) (job_table (jobs s)))
      by (rewrite W2; unfold after_found; destruct (state_after _ _); reflexivity).
    assert (G1 : forall k, nget k (job_table (jobs s1)) = if Z.eqb k id then Some (hit_job p w w0 j) else nget k (job_table (jobs s)))
      by (intros k; rewrite T1; apply nget_ninsert, Hs).
    pose proof (hit_fits p w w0 j Hu HI) as HF.
    destruct (IH fuel s1 (hit_job p w w0 j) ps') as (s' & r & j' & R1 & R2 & R3 & R4 & R5 & R6 & R7 & R8).
    + lia.
    + exact Hend'.
    + exact HL1.
    + rewrite T1. apply nsorted_ninsert, Hs.
    + rewrite G1, Z.eqb_refl. reflexivity.
    + exact Hid.
    + cbn [hit_job processes]. rewrite report_pids. exact Hp.
    + right. exact HF.
    + intros k j' q' E N. rewrite G1 in E. destruct (Z.eqb_spec k id); [contradiction|]. exact (Ho k j' q' E N).
    + right. split; [|split].
      * cbn [hit_job processes stop_status]. exact Hfs.
      * exact HF.
      * cbn [hit_job processes]. intros [A B]. apply no_status_all in A. apply stoppedb_some in B.
        rewrite W2, state_after_finished, A, B. reflexivity.
    + exists s', r, j'. split; [exact R1|]. split; [exact R2|]. split; [exact R3|]. split; [exact R4|]. split; [exact R5|].
      split; [exact R6|]. split; [exact R7|]. intros k Hk. rewrite (R8 k Hk), G1. destruct (Z.eqb_spec k id); [contradiction|reflexivity].
  - cbn [wait_loop heard ends] in *. rewrite wait_one_skip. exact (IH (S fuel) s j ps' ltac:(lia) Hend HL Hs Hg Hid Hp HI Ho Hd).
  - apply Last; auto.
Qed.

(** The wait for a running job, when at least one of its processes reports. *)
Lemma wait_learnt v id as_ s j ps' : ends as_ -> heard as_ <> [] -> learnt (heard as_) (processes j) ps' ->
  nsorted (job_table (jobs s)) -> nget id (job_table (jobs s)) = Some j -> job_id j = id -> state j = Running ->
  (forall k j' q, nget k (job_table (jobs s)) = Some j' -> k <> id -> In q (map p_pid (processes j)) -> at_rest q j') ->
  exists st s' r, wait_for_job (Some v) id as_ s = WDone st s' r /\ first_status ps' = Some st /\
    (forall k, k <> id -> nget k (job_table (jobs s')) = nget k (job_table (jobs s))) /\
    ((all_reported ps' /\ ~ some_stopped ps') \/ is_exited st = true -> nget id (job_table (jobs s')) = None) /\
    (~ (all_reported ps' /\ ~ some_stopped ps') -> is_exited st = false ->
       exists j', nget id (job_table (jobs s')) = Some j' /\ processes j' = ps' /\ job_id j' = id /\ stop_status j' = st /\
         background j' = background j /\
         (all_reported ps' -> state j' = SStopped /\ current_job (jobs s') = Some id) /\ (~ all_reported ps' -> state j' = Running)).
Proof.
  intros Hend Hne HL Hs Hg Hid Hr Ho.
  destruct (loop_learnt v id _ as_ (S (List.length as_)) s j ps' (Nat.lt_succ_diag_r _) Hend HL Hs Hg Hid eq_refl (or_introl Hr) Ho (or_introl Hne))
    as (s1 & r & j1 & R1 & R2 & R3 & R4 & R5 & R6 & (S1 & (F1 & F2 & F3) & S3) & R8). rewrite R4 in *.
  unfold wait_for_job, do_wait, get_job at 1. rewrite Hg, Hr. cbn [state_eqb negb andb]. rewrite R1. unfold get_job. rewrite R3.
  assert (Dr : all_reported ps' \/ ~ all_reported ps').
  { rewrite <- no_status_all. destruct (existsb no_status _); [right; discriminate|left; reflexivity]. }
  assert (Ds : some_stopped ps' \/ ~ some_stopped ps').
  { rewrite <- stoppedb_some. destruct (existsb stoppedb _); [left; reflexivity|right; discriminate]. }
  assert (Gone : (all_reported ps' /\ ~ some_stopped ps') \/ is_exited (stop_status j1) = true <->
                 state_eqb (state j1) Finished || is_exited (stop_status j1) = true).
  { split.
    - intros [A|A]; [rewrite (F2 A); reflexivity|rewrite A; apply Bool.orb_true_r].
    - intros A. apply Bool.orb_true_iff in A. destruct A as [A|A]; [left|right; exact A].
      destruct (state_eqb_spec (state j1) Finished) as [E|]; [|discriminate].
      destruct Dr as [Dr|Dr]; [|rewrite (F3 Dr) in E; discriminate].
      destruct Ds as [Ds|Ds]; [rewrite (F1 (conj Dr Ds)) in E; discriminate|auto]. }
  destruct (state_eqb (state j1) Finished || is_exited (stop_status j1)) eqn:Ef.
  - exists (stop_status j1). eexists _, r. split; [reflexivity|]. split; [exact S1|].
    cbn [shell_delete_job with_masked with_jobs jobs].
    assert (Hk : is_stopped (stop_status j1) = false /\ match processes j1 with q :: _ => forall a b, p_status q <> Some (Stopped a b) | [] => True end).
    { destruct (proj2 Gone eq_refl) as [[A B]|A].
      - rewrite R4. destruct ps' as [|q0 qs]; [discriminate|]. cbn in S1. 
        assert (N : forall a b, p_status q0 <> Some (Stopped a b)) by (intros a b E; apply B; exists q0, a, b; split; [left; reflexivity|exact E]).
        split; [|exact N]. destruct (stop_status j1); try reflexivity. destruct (N _ _ S1).
      - split; [destruct (stop_status j1); try discriminate A; reflexivity|]. rewrite R4. destruct ps' as [|q0 qs]; [exact I|].
        cbn in S1. intros a b E. rewrite E in S1. injection S1 as S1. rewrite <- S1 in A. discriminate. }
    destruct Hk as [K1 K2].
    assert (D : (forall k, k <> id -> nget k (job_table (delete_job id (jobs s1))) = nget k (job_table (jobs s1))) /\
                nget id (job_table (delete_job id (jobs s1))) = None).
    { destruct (delete_job_deletion id (jobs s1)) as [E|j0 E Ep|j0 p0 ps st E Ep Est Hst|j0 p0 ps E Ep Hp Hst]; rewrite R3 in E; try discriminate;
        injection E as <-; cbn [job_table put_table].
      - split; [intros k Hk|]; rewrite nget_nremove; [destruct (Z.eqb_spec k id); [contradiction|reflexivity]|rewrite Z.eqb_refl; reflexivity].
      - exfalso. rewrite Ep in K2. destruct (p_status p0) as [[]|] eqn:E0; subst st; try congruence.
      - split; [intros k Hk|]; rewrite nget_nremove; [destruct (Z.eqb_spec k id); [contradiction|reflexivity]|rewrite Z.eqb_refl; reflexivity]. }
    destruct D as [D1 D2]. split; [intros k Hk; rewrite (D1 k Hk); apply R8, Hk|]. split; [intros _; exact D2|].
    intros N1 N2. destruct (proj2 Gone eq_refl) as [A|A]; [contradiction|congruence].
  - exists (stop_status j1), s1, r. split; [reflexivity|]. split; [exact S1|]. split; [exact R8|].
    split; [intros A; apply Gone in A; discriminate|]. intros N1 N2. exists j1. split; [exact R3|]. split; [exact R4|]. split; [exact R5|].
    split; [reflexivity|]. split; [exact R6|]. split; [|exact F3].
    intros A. destruct Ds as [Ds|Ds]; [|destruct N1; auto]. split; [exact (F1 (conj A Ds))|exact (S3 (conj A Ds))].
Qed.

Lemma wait_for_job_basic v id as_ s st s' r : basic (jobs s) -> wait_for_job (Some v) id as_ s = WDone st s' r -> nsorted (job_table (jobs s')).
Proof.
  intros B. unfold wait_for_job. destruct (do_wait (Some v) id as_ s) as [[] s1 r1| |] eqn:Ed; try discriminate.
  pose proof (b_sorted _ (tweak_basic _ _ B (do_wait_tweak _ _ _ _ _ _ B Ed))) as S1.
  destruct (get_job id (jobs s1)) as [j|]; [|discriminate]. destruct (_ || _); intros E; injection E as _ <- _; [|exact S1].
  cbn [shell_delete_job with_masked with_jobs jobs].
  destruct (delete_job_deletion id (jobs s1)); cbn [job_table put_table]; try exact S1; try (apply nsorted_nremove, S1).
  apply nsorted_ninsert, nsorted_nremove, S1.
Qed.
