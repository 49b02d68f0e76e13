(** Lemmas about the model of src/jobs.rs. *)
From Verif Require Import Base BaseFacts Jobs JobsSpec.
Local Open Scope Z_scope.

(** ** Boolean reflections *)

Lemma state_eqb_spec a b : reflect (a = b) (state_eqb a b).
Proof. destruct a, b; constructor; congruence. Qed.

Lemma passes_spec j : reflect (~ unfinished j) (borrowed j || state_eqb (state j) Finished).
Proof. unfold borrowed, unfinished. destruct (state j); constructor; intuition congruence. Qed.
Lemma unfinished_dec j : Decidable.decidable (unfinished j).
Proof. unfold Decidable.decidable, unfinished. destruct (state j); intuition congruence. Qed.
Lemma looks_spec j : unfinished j <-> (borrowed j || state_eqb (state j) Finished) = false.
Proof. unfold borrowed, unfinished. destruct (state j); cbn; intuition congruence. Qed.

Definition has_pidb (p : pid) (ps : list process) : bool := existsb (fun q => Z.eqb (p_pid q) p) ps.

Lemma has_pidb_true p j : has_pidb p (processes j) = true <-> has_pid p j.
Proof.
  unfold has_pidb, has_pid. rewrite existsb_exists. split; intros (q & Hq & E); exists q; (split; [exact Hq|]).
  - apply Z.eqb_eq; exact E.
  - apply Z.eqb_eq; exact E.
Qed.

Lemma has_pidb_false p j : has_pidb p (processes j) = false <-> ~ has_pid p j.
Proof. rewrite <- has_pidb_true. destruct (has_pidb p (processes j)); split; congruence. Qed.

Definition no_status (q : process) : bool := match p_status q with None => true | Some _ => false end.
Definition stoppedb (q : process) : bool :=
  match p_status q with Some (Stopped _ _) => true | _ => false end.

Lemma no_status_all ps : existsb no_status ps = false <-> all_reported ps.
Proof.
  unfold all_reported. induction ps as [|q ps IH]; cbn; [split; [intros _ ? []|reflexivity]|].
  rewrite Bool.orb_false_iff, IH. unfold no_status at 1. split.
  - intros [Hq H] q' [<-|Hin]; [destruct (p_status q); congruence|auto].
  - intros H. split; [|auto]. specialize (H q (or_introl eq_refl)). destruct (p_status q); congruence.
Qed.

Lemma stoppedb_some ps : existsb stoppedb ps = true <-> some_stopped ps.
Proof.
  unfold some_stopped. rewrite existsb_exists. split.
  - intros (q & Hin & H). unfold stoppedb in H.
    destruct (p_status q) as [[]|] eqn:E; try discriminate. eauto.
  - intros (q & v & s & Hin & H). exists q. split; [exact Hin|]. unfold stoppedb. rewrite H. reflexivity.
Qed.

Lemma stoppedb_none ps : existsb stoppedb ps = false <-> ~ some_stopped ps.
Proof. rewrite <- stoppedb_some. destruct (existsb stoppedb ps); split; congruence. Qed.

(** ** One job *)

Lemma report_pid p w q : p_pid (report p w q) = p_pid q.
Proof. unfold report. destruct (Z.eqb (p_pid q) p); reflexivity. Qed.

Lemma report_id p w ps : has_pidb p ps = false -> map (report p w) ps = ps.
Proof.
  unfold has_pidb. induction ps as [|q ps IH]; cbn; [reflexivity|].
  intros H. apply Bool.orb_false_iff in H as [H1 H2]. rewrite IH by exact H2.
  unfold report. rewrite H1. reflexivity.
Qed.

Definition state_after (ps : list process) (st : job_state) : job_state :=
  if state_eqb st Running then Running
  else if existsb no_status ps then Running
  else if existsb stoppedb ps then SStopped else st.

Lemma scan_eq p w ps : forall st hit,
  scan p w ps st hit = (map (report p w) ps, hit || has_pidb p ps, state_after (map (report p w) ps) st).
Proof.
  induction ps as [|q ps IH]; intros st hit.
  - cbn. rewrite Bool.orb_false_r. unfold state_after; cbn. destruct st; reflexivity.
  - cbn [scan map has_pidb existsb].
    assert (Eq : (if Z.eqb (p_pid q) p then with_status w q else q) = report p w q) by reflexivity.
    rewrite Eq. clear Eq.
    match goal with |- context[scan p w ps ?a ?b] => rewrite (IH a b) end.
    f_equal; [f_equal|].
    + rewrite Bool.orb_assoc. reflexivity.
    + unfold state_after. cbn [existsb]. unfold no_status at 2, stoppedb at 2.
      destruct (p_status (report p w q)) as [v|] eqn:Ev; cbn.
      * unfold is_stopped. destruct (state_eqb_spec st Running) as [->|Hn]; cbn; [reflexivity|].
        destruct v; cbn; destruct (state_eqb st Running) eqn:Es; cbn;
          try (destruct (state_eqb_spec st Running); [contradiction|discriminate]);
          destruct (existsb no_status _); try reflexivity; destruct (existsb stoppedb _); reflexivity.
      * destruct (state_eqb st Running); reflexivity.
Qed.

Lemma state_after_finished ps :
  state_after ps Finished =
    if existsb no_status ps then Running else if existsb stoppedb ps then SStopped else Finished.
Proof. reflexivity. Qed.

(** The job [wait_one] stops at, after the collection. *)
Definition hit_job (p : pid) (w : wait_status) (w0 : wait_status) (j : job) : job :=
  let ps := map (report p w) (processes j) in
  let st := state_after ps Finished in
  Job ps (job_id j) w0 (if state_eqb st Running then state j else st) (background j)
      (if state_eqb st Running then changed j else true).

Definition first_status (ps : list process) : option wait_status :=
  match ps with [] => None | q :: _ => p_status q end.

Inductive visited (p : pid) (w : wait_status) : nmap job -> nmap job -> option (Z * job_state) -> Prop :=
| v_nil : visited p w [] [] None
| v_fin k j t t' r : ~ unfinished j -> visited p w t t' r -> visited p w ((k, j) :: t) ((k, j) :: t') r
| v_pass k j w0 t t' r :
    unfinished j -> ~ has_pid p j -> first_status (processes j) = Some w0 ->
    visited p w t t' r -> visited p w ((k, j) :: t) ((k, with_stop_status w0 j) :: t') r
| v_hit k j w0 t :
    unfinished j -> has_pid p j -> first_status (map (report p w) (processes j)) = Some w0 ->
    visited p w ((k, j) :: t) ((k, hit_job p w w0 j) :: t)
      (Some (job_id j, state_after (map (report p w) (processes j)) Finished)).

Lemma visit_some p w t : forall t' r, visit p w t = Some (t', r) -> visited p w t t' r.
Proof.
  induction t as [|[k j] t IH]; intros t' r; cbn [visit].
  - intros H. injection H as <- <-. constructor.
  - destruct (passes_spec j) as [Ef|Ef]; [|apply Decidable.not_not in Ef; [|apply unfinished_dec]].
    + destruct (visit p w t) as [[t1 r1]|]; [|discriminate]. intros H. injection H as <- <-.
      constructor; auto.
    + rewrite scan_eq. cbn [orb].
      destruct (map (report p w) (processes j)) as [|p0 ps0] eqn:Em; [discriminate|].
      destruct (p_status p0) as [w0|] eqn:E0; [|discriminate].
      destruct (has_pidb p (processes j)) eqn:Eh.
      * intros H. injection H as <- <-. rewrite <- Em.
        assert (Hh : with_stop_status w0 (with_processes (p0 :: ps0) j) =
                     Job (p0 :: ps0) (job_id j) w0 (state j) (background j) (changed j)) by reflexivity.
        replace (if state_eqb (state_after (map (report p w) (processes j)) Finished) Running
                 then with_stop_status w0 (with_processes (map (report p w) (processes j)) j)
                 else with_state (state_after (map (report p w) (processes j)) Finished)
                        (with_changed true (with_stop_status w0 (with_processes (map (report p w) (processes j)) j))))
          with (hit_job p w w0 j).
        2:{ unfold hit_job. destruct (state_eqb _ Running); reflexivity. }
        apply v_hit; [exact Ef|apply has_pidb_true; exact Eh|].
        rewrite Em. cbn. exact E0.
      * destruct (visit p w t) as [[t1 r1]|]; [|discriminate]. intros H. injection H as <- <-.
        rewrite <- Em. rewrite (report_id p w _ Eh).
        replace (with_stop_status w0 (with_processes (processes j) j)) with (with_stop_status w0 j)
          by (destruct j; reflexivity).
        apply v_pass; [exact Ef|apply has_pidb_false; exact Eh| |auto].
        rewrite <- (report_id p w _ Eh), Em. cbn. exact E0.
Qed.

Lemma visit_none p w t :
  visit p w t = None <->
  exists a k j b, t = a ++ (k, j) :: b /\
    Forall (fun kj => ~ (unfinished (snd kj) /\ has_pid p (snd kj))) a /\
    unfinished j /\ first_status (map (report p w) (processes j)) = None.
Proof.
  induction t as [|[k j] t IH]; cbn [visit].
  - split; [discriminate|]. intros (a & ? & ? & ? & E & _). destruct a; discriminate.
  - destruct (passes_spec j) as [Ef|Ef]; [|apply Decidable.not_not in Ef; [|apply unfinished_dec]].
    + destruct (visit p w t) as [[t1 r1]|].
      * split; [discriminate|]. intros (a & k' & j' & b & E & Ha & Hu & Hf).
        exfalso. destruct a as [|x a]; cbn in E.
        { injection E as <- <- <-; contradiction. }
        injection E as <- E.
        assert (Hc : Some (t1, r1) = None); [|discriminate].
        apply IH. exists a, k', j', b. inversion Ha; auto.
      * split; [intros _|reflexivity]. destruct (proj1 IH eq_refl) as (a & k' & j' & b & E & Ha & Hu & Hf).
        exists ((k, j) :: a), k', j', b. subst t. repeat split; auto. constructor; [|exact Ha].
        cbn. tauto.
    + rewrite scan_eq. cbn [orb].
      destruct (map (report p w) (processes j)) as [|p0 ps0] eqn:Em.
      { split; [intros _|reflexivity]. exists [], k, j, t. repeat split; auto. rewrite Em; reflexivity. }
      destruct (p_status p0) as [w0|] eqn:E0.
      2:{ split; [intros _|reflexivity]. exists [], k, j, t. repeat split; auto. rewrite Em; exact E0. }
      assert (Hnot : forall t0, (exists a k' j' b, (k, j) :: t = a ++ (k', j') :: b /\
         Forall (fun kj => ~ (unfinished (snd kj) /\ has_pid p (snd kj))) a /\
         unfinished j' /\ first_status (map (report p w) (processes j')) = None) ->
         (~ (unfinished j /\ has_pid p j) /\ exists a k' j' b, t = a ++ (k', j') :: b /\
         Forall (fun kj => ~ (unfinished (snd kj) /\ has_pid p (snd kj))) a /\
         unfinished j' /\ first_status (map (report p w) (processes j')) = None) \/ t0 = false).
      { intros t0 (a & k' & j' & b & E & Ha & Hu & Hf). left.
        destruct a as [|x a]; cbn in E.
        - injection E as <- <- <-. rewrite Em in Hf. cbn in Hf. congruence.
        - injection E as <- E. inversion Ha as [|? ? H1 H2]; subst. split; [exact H1|]. exists a, k', j', b. auto. }
      destruct (has_pidb p (processes j)) eqn:Eh.
      * split; [discriminate|]. intros H. exfalso. destruct (Hnot true H) as [[Hn _]|]; [|discriminate].
        apply Hn. split; [exact Ef|apply has_pidb_true; exact Eh].
      * destruct (visit p w t) as [[t1 r1]|].
        -- split; [discriminate|]. intros H. exfalso. destruct (Hnot true H) as [[_ H']|]; [|discriminate].
           apply IH in H'. discriminate.
        -- split; [intros _|reflexivity]. destruct (proj1 IH eq_refl) as (a & k' & j' & b & E & Ha & Hu & Hf).
           exists ((k, j) :: a), k', j', b. subst t. repeat split; auto. constructor; [|exact Ha].
           cbn. intros [_ Hp]. apply has_pidb_true in Hp. congruence.
Qed.

(** ** Same jobs, other statuses *)

Definition same_process (q q' : process) : Prop :=
  p_pid q' = p_pid q /\ p_argv q' = p_argv q /\ p_argv0 q' = p_argv0 q /\ p_cmd q' = p_cmd q.
Definition same_job (j j' : job) : Prop :=
  job_id j' = job_id j /\ background j' = background j /\ Forall2 same_process (processes j) (processes j').

Lemma same_process_refl q : same_process q q.
Proof. repeat split. Qed.
Lemma Forall2_refl {A} (R : A -> A -> Prop) l : (forall x, R x x) -> Forall2 R l l.
Proof. intros H. induction l; auto. Qed.
Lemma same_job_refl j : same_job j j.
Proof. repeat split. apply Forall2_refl, same_process_refl. Qed.
Lemma same_process_trans a b c : same_process a b -> same_process b c -> same_process a c.
Proof. unfold same_process. intros; intuition congruence. Qed.
Lemma Forall2_trans {A} (R : A -> A -> Prop) :
  (forall x y z, R x y -> R y z -> R x z) -> forall a b c, Forall2 R a b -> Forall2 R b c -> Forall2 R a c.
Proof.
  intros Ht a b c H. revert c. induction H; intros c Hc; inversion Hc; subst; constructor; eauto.
Qed.
Lemma same_job_trans a b c : same_job a b -> same_job b c -> same_job a c.
Proof.
  intros (H1 & H2 & H3) (H4 & H5 & H6). repeat split; try congruence.
  eapply Forall2_trans; eauto using same_process_trans.
Qed.

Lemma report_same p w ps : Forall2 same_process ps (map (report p w) ps).
Proof.
  induction ps as [|q ps IH]; cbn; constructor; [|exact IH].
  unfold report. destruct (Z.eqb (p_pid q) p); repeat split.
Qed.

Lemma set_status_same p w ps : Forall2 same_process ps (set_status_in p w ps).
Proof.
  induction ps as [|q ps IH]; cbn; [constructor|].
  destruct (Z.eqb (p_pid q) p); constructor; auto using same_process_refl; [repeat split|].
  apply Forall2_refl, same_process_refl.
Qed.

Lemma same_job_pids j j' : same_job j j' -> map p_pid (processes j') = map p_pid (processes j).
Proof.
  intros (_ & _ & H). induction H as [|q q' ps ps' Hq _ IH]; cbn; [reflexivity|].
  rewrite IH. f_equal. apply Hq.
Qed.

(** ** Tables *)

Definition orel {A} (R : A -> A -> Prop) (a b : option A) : Prop :=
  match a, b with
  | None, None => True
  | Some x, Some y => R x y
  | _, _ => False
  end.

Record tweak (jc jc' : job_control) : Prop := Tweak {
  tw_sorted : nsorted (job_table jc');
  tw_jobs : forall k, orel same_job (nget k (job_table jc)) (nget k (job_table jc'));
  tw_bg : background_jobs jc' = background_jobs jc;
  tw_pid : pid_to_job jc' = pid_to_job jc;
  tw_next : next_job_id jc' = next_job_id jc;
  tw_current : current_job jc' = current_job jc \/
               exists k, current_job jc' = Some k /\ live k jc'
}.

Lemma orel_refl {A} (R : A -> A -> Prop) x : (forall a, R a a) -> orel R x x.
Proof. destruct x; cbn; auto. Qed.

Lemma tweak_refl jc : nsorted (job_table jc) -> tweak jc jc.
Proof. intros H. constructor; auto. intros k. apply orel_refl, same_job_refl. Qed.

Lemma tweak_live jc jc' k : tweak jc jc' -> live k jc <-> live k jc'.
Proof.
  intros H. pose proof (tw_jobs _ _ H k) as E. unfold live.
  destruct (nget k (job_table jc)), (nget k (job_table jc')); cbn in E; try contradiction;
    split; intros [? ?]; eauto; discriminate.
Qed.

Lemma tweak_trans a b c : tweak a b -> tweak b c -> tweak a c.
Proof.
  intros H1 H2. constructor.
  - apply H2.
  - intros k. pose proof (tw_jobs _ _ H1 k) as E1. pose proof (tw_jobs _ _ H2 k) as E2.
    destruct (nget k (job_table a)), (nget k (job_table b)), (nget k (job_table c)); cbn in *;
      try contradiction; auto. eapply same_job_trans; eauto.
  - rewrite (tw_bg _ _ H2). apply H1.
  - rewrite (tw_pid _ _ H2). apply H1.
  - rewrite (tw_next _ _ H2). apply H1.
  - destruct (tw_current _ _ H2) as [E|H]; [|right; exact H].
    rewrite E. destruct (tw_current _ _ H1) as [E1|(k & E1 & Hl)]; [left; exact E1|].
    right. exists k. split; [exact E1|]. apply (proj1 (tweak_live _ _ k H2)); exact Hl.
Qed.

(** The basic invariant: the table is sorted, jobs carry their own number, and
    the next number is above them all. *)
Record basic (jc : job_control) : Prop := Basic {
  b_sorted : nsorted (job_table jc);
  b_ids : forall k j, nget k (job_table jc) = Some j -> job_id j = k;
  b_next : forall k, live k jc -> 1 <= k < next_job_id jc;
  b_next1 : 1 <= next_job_id jc;
  b_bg : nsorted (background_jobs jc);
  b_pid : nsorted (pid_to_job jc)
}.

Lemma tweak_basic jc jc' : basic jc -> tweak jc jc' -> basic jc'.
Proof.
  intros B T. constructor.
  - apply T.
  - intros k j E. pose proof (tw_jobs _ _ T k) as H. rewrite E in H.
    destruct (nget k (job_table jc)) as [j0|] eqn:E0; [|contradiction].
    destruct H as (H & _). rewrite H. apply (b_ids _ B); exact E0.
  - intros k Hl. rewrite (tw_next _ _ T). apply (b_next _ B). apply (proj2 (tweak_live _ _ k T)); exact Hl.
  - rewrite (tw_next _ _ T). apply (b_next1 _ B).
  - rewrite (tw_bg _ _ T). apply B.
  - rewrite (tw_pid _ _ T). apply B.
Qed.

Lemma basic_new : basic jc_new.
Proof.
  constructor; cbn; try constructor; try lia; try discriminate;
    destruct H as [j Hj]; discriminate.
Qed.

(** put_job *)
Lemma put_job_tweak id j j' jc :
  nsorted (job_table jc) -> nget id (job_table jc) = Some j -> same_job j j' -> tweak jc (put_job id j' jc).
Proof.
  intros Hs E Hj. constructor; cbn; auto.
  - apply nsorted_ninsert; exact Hs.
  - intros k. rewrite nget_ninsert by exact Hs. destruct (Z.eqb_spec k id) as [->|Hn].
    + rewrite E. exact Hj.
    + apply orel_refl, same_job_refl.
Qed.

(** visited *)
Lemma visited_keys p w t t' r : visited p w t t' r -> map fst t' = map fst t.
Proof. induction 1; cbn; congruence. Qed.

Lemma nsorted_keys {V W} (a : nmap V) (b : nmap W) : map fst a = map fst b -> nsorted a -> nsorted b.
Proof.
  revert b. induction a as [|[k v] a IH]; intros [|[k' v'] b] E H; try discriminate; [constructor|].
  cbn in E. injection E as -> E. inversion H as [|? ? ? Hlt Hs]; subst. constructor; [|apply IH; auto].
  clear -Hlt E. revert b E. induction Hlt as [|x a Hx Ha IHa]; intros [|y b] E; try discriminate; [constructor|].
  cbn in E. injection E as E1 E2. constructor; [rewrite <- E1; exact Hx|apply IHa; exact E2].
Qed.

Lemma hit_job_same p w w0 j : same_job j (hit_job p w w0 j).
Proof. repeat split. apply report_same. Qed.

Lemma visited_jobs p w t t' r : visited p w t t' r -> forall k, orel same_job (nget k t) (nget k t').
Proof.
  induction 1 as [|k j t t' r Hf Hv IH|k j w0 t t' r Hu Hp Hf Hv IH|k j w0 t Hu Hp Hf]; intros k'; cbn; [exact I| | |];
    destruct (Z.eqb_spec k' k) as [->|Hn]; cbn; auto.
  - apply same_job_refl.
  - repeat split. apply Forall2_refl, same_process_refl.
  - apply hit_job_same.
  - apply orel_refl, same_job_refl.
Qed.

Lemma visited_found p w t t' k st :
  visited p w t t' (Some (k, st)) -> exists k0 j, In (k0, j) t /\ job_id j = k.
Proof.
  remember (Some (k, st)) as r eqn:Er. induction 1 as [|k0 j t t' r Hf Hv IH|k0 j w0 t t' r Hu Hp Hf Hv IH|k0 j w0 t Hu Hp Hf].
  - discriminate.
  - destruct (IH Er) as (k1 & j1 & Hin & E). exists k1, j1. cbn; auto.
  - destruct (IH Er) as (k1 & j1 & Hin & E). exists k1, j1. cbn; auto.
  - injection Er as <- _. exists k0, j. cbn; auto.
Qed.

(** ** Waiting only tweaks *)

Lemma wait_one_tweak ps4 id as_ s r s' rest :
  basic (jobs s) -> wait_one ps4 id as_ s = WDone r s' rest -> tweak (jobs s) (jobs s').
Proof.
  intros B. unfold wait_one.
  destruct (wait_process as_) as [[[w|] r0]|]; [| |discriminate].
  2:{ intros H. injection H as _ <- _. apply tweak_refl, B. }
  destruct (ws_pid w) as [q|] eqn:Ew.
  2:{ intros H. injection H as _ <- _. apply tweak_refl, B. }
  set (p := match w with Exited p _ | Signaled p _ _ | Stopped p _ => p | _ => (-1) end).
  cbn [jobs with_sigchld with_masked].
  destruct (visit p w (job_table (jobs s))) as [[t found]|] eqn:Ev; [|discriminate].
  apply visit_some in Ev.
  assert (Hs : nsorted t).
  { eapply nsorted_keys; [|apply B]. symmetry. eapply visited_keys; exact Ev. }
  assert (T0 : forall c, (c = current_job (jobs s) \/ exists k, c = Some k /\ exists j, nget k t = Some j) ->
     tweak (jobs s) (JobControl t (background_jobs (jobs s)) (pid_to_job (jobs s)) c (next_job_id (jobs s)))).
  { intros c Hc. constructor; cbn; auto. apply (visited_jobs _ _ _ _ _ Ev). }
  set (jc := match found with Some (k, SStopped) => set_current_job k (put_table t (jobs s)) | _ => put_table t (jobs s) end).
  assert (T : tweak (jobs s) jc).
  { unfold jc. destruct found as [[k []]|]; try (apply T0; left; reflexivity).
    apply T0. right. exists k. split; [reflexivity|].
    destruct (visited_found _ _ _ _ _ _ Ev) as (k0 & j & Hin & E).
    pose proof (nsorted_In_nget k0 j _ (b_sorted _ B) Hin) as G.
    assert (k0 = k) by (rewrite <- E; symmetry; apply (b_ids _ B); exact G). subst k0.
    pose proof (visited_jobs _ _ _ _ _ Ev k) as O. rewrite G in O.
    destruct (nget k t); [eauto|contradiction]. }
  clearbody jc. cbn [jobs with_jobs with_masked].
  destruct found as [[k st]|].
  - destruct (Z.eqb k id).
    + destruct (format_status ps4 w jc) as [[m|]|]; [| |discriminate]; intros H; injection H as _ <- _; exact T.
    + intros H; injection H as _ <- _; exact T.
  - intros H; injection H as _ <- _; exact T.
Qed.

Lemma wait_loop_tweak ps4 n : forall id as_ s s' rest,
  basic (jobs s) -> wait_loop ps4 n id as_ s = WDone tt s' rest -> tweak (jobs s) (jobs s').
Proof.
  induction n as [|n IH]; intros id as_ s s' rest B; cbn [wait_loop]; [discriminate|].
  destruct (wait_one ps4 id as_ s) as [[q| |] s1 r1| |] eqn:E1; try discriminate.
  - intros H. pose proof (wait_one_tweak _ _ _ _ _ _ _ B E1) as T1.
    eapply tweak_trans; [exact T1|]. eapply IH; [|exact H]. eapply tweak_basic; eauto.
  - intros H. injection H as <- <-. eapply wait_one_tweak; eauto.
  - intros H. injection H as <- <-. eapply wait_one_tweak; eauto.
Qed.

Lemma do_wait_tweak ps4 id as_ s s' rest :
  basic (jobs s) -> do_wait ps4 id as_ s = WDone tt s' rest -> tweak (jobs s) (jobs s').
Proof.
  intros B. unfold do_wait. destruct (_ && _).
  - intros H. injection H as <- <-. apply tweak_refl, B.
  - apply wait_loop_tweak; exact B.
Qed.

Lemma wait_process_consumes as_ r rest :
  wait_process as_ = Some (r, rest) -> (List.length rest < List.length as_)%nat.
Proof.
  induction as_ as [|a as_ IH]; cbn; [discriminate|].
  destruct a; [| |]; intros H; [injection H as _ <-; lia|specialize (IH H); lia|injection H as _ <-; lia].
Qed.

Lemma wait_one_consumes ps4 id as_ s r s' rest :
  wait_one ps4 id as_ s = WDone r s' rest -> (List.length rest < List.length as_)%nat.
Proof.
  unfold wait_one. destruct (wait_process as_) as [[[w|] r0]|] eqn:E; [| |discriminate];
    apply wait_process_consumes in E.
  - destruct (ws_pid w); [|intros H; injection H as _ _ <-; exact E].
    destruct (visit _ _ _) as [[t found]|]; [|discriminate].
    destruct found as [[k st]|].
    + destruct (Z.eqb k id); [destruct (format_status _ _ _) as [[m|]|]; [| |discriminate]|];
        intros H; injection H as _ _ <-; exact E.
    + intros H; injection H as _ _ <-; exact E.
  - intros H; injection H as _ _ <-; exact E.
Qed.

(** The budget of [wait_loop] is never what stops it. *)
Lemma wait_loop_fuel ps4 : forall n m id as_ s,
  (List.length as_ < n)%nat -> (List.length as_ < m)%nat -> wait_loop ps4 n id as_ s = wait_loop ps4 m id as_ s.
Proof.
  induction n as [|n IH]; intros m id as_ s Hn Hm; [lia|].
  destruct m as [|m]; [lia|]. cbn [wait_loop].
  destruct (wait_one ps4 id as_ s) as [[q| |] s1 r1| |] eqn:E1; try reflexivity.
  apply wait_one_consumes in E1. apply IH; lia.
Qed.

(** ** Deleting *)

Lemma nget_fold_remove {V} (ps : list process) (m : nmap V) k :
  nget k (fold_left (fun m p => nremove (p_pid p) m) ps m) =
  if existsb (fun q => Z.eqb (p_pid q) k) ps then None else nget k m.
Proof.
  revert m. induction ps as [|q ps IH]; intros m; cbn; [reflexivity|].
  rewrite IH, nget_nremove. rewrite (Z.eqb_sym (p_pid q) k).
  destruct (Z.eqb k (p_pid q)), (existsb _ ps); reflexivity.
Qed.

Lemma nsorted_fold_remove {V} (ps : list process) (m : nmap V) :
  nsorted m -> nsorted (fold_left (fun m p => nremove (p_pid p) m) ps m).
Proof. revert m. induction ps as [|q ps IH]; cbn; intros m H; [exact H|]. apply IH, nsorted_nremove, H. Qed.

Lemma nget_fold_insert (ps : list process) (id : Z) (m : nmap Z) k :
  nsorted m ->
  nget k (fold_left (fun m p => ninsert (p_pid p) id m) ps m) =
  if existsb (fun q => Z.eqb (p_pid q) k) ps then Some id else nget k m.
Proof.
  revert m. induction ps as [|q ps IH]; intros m H; cbn; [reflexivity|].
  rewrite IH by (apply nsorted_ninsert; exact H). rewrite nget_ninsert by exact H.
  rewrite (Z.eqb_sym (p_pid q) k). destruct (Z.eqb k (p_pid q)), (existsb _ ps); reflexivity.
Qed.

Lemma nsorted_fold_insert (ps : list process) id (m : nmap Z) :
  nsorted m -> nsorted (fold_left (fun m p => ninsert (p_pid p) id m) ps m).
Proof. revert m. induction ps as [|q ps IH]; cbn; intros m H; [exact H|]. apply IH, nsorted_ninsert, H. Qed.

Lemma next_id_after_above t k : nsorted t -> (exists j, nget k t = Some j) -> k < next_id_after t.
Proof.
  intros Hs [j Hj]. apply nget_In in Hj.
  assert (H : forall t d, nsorted t -> forall k (j : job), In (k, j) t -> k <= fst (last t d)).
  { clear. intros t d Hs. induction Hs as [|k v t Hlt Hs IH]; intros k' j'; cbn [In]; [intros []|].
    intros Hin. destruct t as [|[k2 v2] t].
    - destruct Hin as [E|[]]. injection E as <- _. cbn. lia.
    - change (last ((k, v) :: (k2, v2) :: t) d) with (last ((k2, v2) :: t) d).
      destruct Hin as [E|Hin]; [|eapply IH; exact Hin].
      injection E as <- _. inversion Hlt as [|x y Hx Hy]; subst. cbn in Hx.
      specialize (IH k2 v2 (or_introl eq_refl)). lia. }
  unfold next_id_after. destruct t as [|x t]; [destruct Hj|].
  specialize (H _ (0, job_new [] 0 false) Hs k j Hj). lia.
Qed.

Lemma next_id_after_pos t : nsorted t -> (forall k j, nget k t = Some j -> 1 <= k) -> 1 <= next_id_after t.
Proof.
  intros Hs H. unfold next_id_after. destruct t as [|[k j] t]; [lia|].
  assert (1 <= k) by (apply (H k j); cbn; rewrite Z.eqb_refl; reflexivity).
  pose proof (next_id_after_above ((k, j) :: t) k Hs) as Hn. cbn [next_id_after] in Hn.
  assert (Hx : exists j0, nget k ((k, j) :: t) = Some j0) by (exists j; cbn; rewrite Z.eqb_refl; reflexivity).
  specialize (Hn Hx). lia.
Qed.

(** The three ways a deletion goes. *)
Inductive deletion (id : Z) (jc : job_control) : job_control -> Prop :=
| del_absent : nget id (job_table jc) = None -> deletion id jc jc
| del_empty j : nget id (job_table jc) = Some j -> processes j = [] ->
    deletion id jc (put_table (nremove id (job_table jc)) jc)
| del_kept j p0 ps jst : nget id (job_table jc) = Some j -> processes j = p0 :: ps ->
    jst = (match p_status p0 with Some (Stopped a b) => Stopped a b | _ => stop_status j end) ->
    is_stopped jst = true ->
    deletion id jc (put_table (ninsert id (Job (processes j) (job_id j) jst SStopped (background j) (changed j))
                                 (nremove id (job_table jc))) jc)
| del_removed j p0 ps : nget id (job_table jc) = Some j -> processes j = p0 :: ps ->
    (forall a b, p_status p0 <> Some (Stopped a b)) -> is_stopped (stop_status j) = false ->
    deletion id jc (JobControl (nremove id (job_table jc))
      (if background j then nremove id (background_jobs jc) else background_jobs jc)
      (fold_left (fun m p => nremove (p_pid p) m) (processes j) (pid_to_job jc))
      (current_job jc) (next_id_after (nremove id (job_table jc)))).

Lemma delete_job_deletion id jc : deletion id jc (delete_job id jc).
Proof.
  unfold delete_job. destruct (nget id (job_table jc)) as [j|] eqn:E; [|apply del_absent; exact E].
  destruct (processes j) as [|p0 ps] eqn:Ep; [eapply del_empty; eauto|].
  assert (Hn : note_stop p0 j = match p_status p0 with
             | Some (Stopped a b) => with_stop_status (Stopped a b) (with_state SStopped j)
             | _ => j end).
  { unfold note_stop. destruct (p_status p0) as [[]|]; reflexivity. }
  destruct (is_stopped (stop_status (note_stop p0 j))) eqn:Es.
  - replace (with_state SStopped (note_stop p0 j))
      with (Job (processes j) (job_id j) (match p_status p0 with Some (Stopped a b) => Stopped a b | _ => stop_status j end)
              SStopped (background j) (changed j))
      by (rewrite Hn; destruct (p_status p0) as [[]|]; reflexivity).
    eapply del_kept; [exact E|exact Ep|reflexivity|].
    rewrite Hn in Es. destruct (p_status p0) as [[]|]; cbn in Es; auto.
  - assert (Hp : forall a b, p_status p0 <> Some (Stopped a b)).
    { intros a b F. rewrite Hn, F in Es. cbn in Es. discriminate. }
    assert (Hj : note_stop p0 j = j).
    { rewrite Hn. destruct (p_status p0) as [[| |a b| |]|]; try reflexivity. destruct (Hp a b eq_refl). }
    rewrite Hj. rewrite Hj in Es. eapply del_removed; eauto.
Qed.

Lemma delete_basic id jc : basic jc -> basic (delete_job id jc).
Proof.
  intros B. destruct (delete_job_deletion id jc) as [E|j E Ep|j p0 ps st E Ep Est Hst|j p0 ps E Ep Hp Hst].
  - exact B.
  - constructor; cbn; try apply (b_next1 _ B); try apply B; [apply nsorted_nremove, B| |].
    + intros k j0. rewrite nget_nremove. destruct (Z.eqb k id); [discriminate|]. apply B.
    + intros k [j0 H]. cbn in H. rewrite nget_nremove in H. destruct (Z.eqb k id); [discriminate|].
      apply (b_next _ B). exists j0. exact H.
  - constructor; cbn; try apply (b_next1 _ B); try apply B; [apply nsorted_ninsert, nsorted_nremove, B| |].
    + intros k j0. rewrite nget_ninsert by (apply nsorted_nremove, B). rewrite nget_nremove.
      destruct (Z.eqb_spec k id) as [->|]; [|apply B]. intros H. injection H as <-. cbn. apply (b_ids _ B); exact E.
    + intros k [j0 H]. cbn in H. rewrite nget_ninsert, nget_nremove in H by (apply nsorted_nremove, B).
      apply (b_next _ B). destruct (Z.eqb_spec k id) as [->|]; [exists j; exact E|exists j0; exact H].
  - assert (Hs : nsorted (nremove id (job_table jc))) by apply nsorted_nremove, B.
    assert (Hl : forall k j0, nget k (nremove id (job_table jc)) = Some j0 -> nget k (job_table jc) = Some j0).
    { intros k j0. rewrite nget_nremove. destruct (Z.eqb k id); [discriminate|auto]. }
    constructor; cbn; auto.
    + intros k j0 H. apply (b_ids _ B), Hl, H.
    + intros k [j0 H]. cbn in H. split; [apply (b_next _ B); exists j0; apply Hl, H|].
      apply next_id_after_above; [exact Hs|eauto].
    + apply next_id_after_pos; [exact Hs|]. intros k j0 H. apply (b_next _ B). exists j0. apply Hl, H.
    + destruct (background j); [apply nsorted_nremove|]; apply B.
    + apply nsorted_fold_remove, B.
Qed.

(** ** What an operation can do to the jobs *)

Inductive moves : job_control -> job_control -> Prop :=
| moves_refl jc : moves jc jc
| moves_tweak a b c : tweak a b -> moves b c -> moves a c
| moves_delete id a c : moves (delete_job id a) c -> moves a c.

Lemma moves_trans a b c : moves a b -> moves b c -> moves a c.
Proof. induction 1; intros; eauto using moves. Qed.

Lemma moves_basic a b : basic a -> moves a b -> basic b.
Proof.
  intros B H. revert B. induction H; intros B; auto.
  - apply IHmoves. eapply tweak_basic; eauto.
  - apply IHmoves. apply delete_basic; exact B.
Qed.

Lemma wait_for_job_moves ps4 id as_ s st s' rest :
  basic (jobs s) -> wait_for_job ps4 id as_ s = WDone st s' rest -> moves (jobs s) (jobs s').
Proof.
  intros B. unfold wait_for_job.
  destruct (do_wait ps4 id as_ s) as [[] s1 r1| |] eqn:E; try discriminate.
  pose proof (do_wait_tweak _ _ _ _ _ _ B E) as T.
  destruct (get_job id (jobs s1)) as [j|]; [|discriminate].
  destruct (state_eqb (state j) Finished || is_exited (stop_status j)).
  - intros H. injection H as _ <- _. eapply moves_tweak; [exact T|].
    cbn. apply moves_delete with id. apply moves_refl.
  - intros H. injection H as _ <- _. eapply moves_tweak; [exact T|]. apply moves_refl.
Qed.

Lemma wait_sigchld_moves ps4 id w as_ s s' rest :
  basic (jobs s) -> wait_for_job_sigchld ps4 id w as_ s = WDone tt s' rest -> moves (jobs s) (jobs s').
Proof.
  intros B. unfold wait_for_job_sigchld.
  destruct (get_job id (jobs s)) as [j|] eqn:E; [|discriminate].
  assert (G : match wait_for_job ps4 id as_ (with_masked true s) with
              | WDone _ s' r => WDone tt (with_masked false s') r
              | WPanic => WPanic
              | WBlock => WBlock
              end = WDone tt s' rest -> moves (jobs s) (jobs s')).
  { destruct (wait_for_job ps4 id as_ (with_masked true s)) as [st s1 r1| |] eqn:Ew; try discriminate.
    intros H. injection H as <- _. cbn.
    exact (wait_for_job_moves ps4 id as_ (with_masked true s) st s1 r1 B Ew). }
  destruct (processes j) as [|q [|q' ps]]; [exact G| |exact G].
  intros H. injection H as <- _. cbn.
  eapply moves_tweak; [|apply moves_delete with id; apply moves_refl].
  eapply put_job_tweak; [apply B|exact E|]. repeat split. cbn. apply Forall2_refl, same_process_refl.
Qed.

Lemma sig_chld_moves ps4 as_ s s' rest :
  basic (jobs s) -> sig_chld ps4 as_ s = WDone tt s' rest -> moves (jobs s) (jobs s').
Proof.
  intros B. unfold sig_chld.
  cbn [jobs with_sigchld].
  assert (G : forall p w msg r,
    match nget p (pid_to_job (jobs s)) with
    | None => WDone tt (with_sigchld true s) r
    | Some id =>
        match get_job id (jobs s) with
        | None => WDone tt (with_sigchld true s) r
        | Some j =>
            let s1 := with_jobs (put_job id (set_process_status p w j) (jobs s)) (with_sigchld true s) in
            if background j then
              let s2 := match msg with
                        | None => s1
                        | Some m => print (lit "Job [" ++ Z_to_str (job_id j) ++ lit "] (" ++ Z_to_str p ++ lit ") " ++ m) s1
                        end in
              match wait_for_job_sigchld ps4 id w r s2 with
              | WDone _ s3 r' => WDone tt (with_masked (masked s) s3) r'
              | WPanic => WPanic
              | WBlock => WBlock
              end
            else WDone tt s1 r
        end
    end = WDone tt s' rest -> moves (jobs s) (jobs s')).
  { intros p w msg r. destruct (nget p (pid_to_job (jobs s))) as [id|].
    2:{ intros H. injection H as <- _. apply moves_refl. }
    destruct (get_job id (jobs s)) as [j|] eqn:Ej.
    2:{ intros H. injection H as <- _. apply moves_refl. }
    assert (T : tweak (jobs s) (put_job id (set_process_status p w j) (jobs s))).
    { eapply put_job_tweak; [apply B|exact Ej|]. repeat split. cbn. apply set_status_same. }
    cbv zeta. destruct (background j).
    - match goal with |- context[wait_for_job_sigchld ps4 id w r ?x] => set (s2 := x) end.
      assert (E2 : jobs s2 = put_job id (set_process_status p w j) (jobs s)).
      { unfold s2. destruct msg; reflexivity. }
      destruct (wait_for_job_sigchld ps4 id w r s2) as [[] s3 r3| |] eqn:Ew; try discriminate.
      intros H. injection H as <- _. cbn.
      eapply moves_tweak; [exact T|]. rewrite <- E2.
      eapply wait_sigchld_moves; [|exact Ew]. rewrite E2. eapply tweak_basic; eauto.
    - intros H. injection H as <- _. cbn. eapply moves_tweak; [exact T|apply moves_refl]. }
  destruct as_ as [|[w| |] r]; [discriminate| | |];
    try (intros H; injection H as <- _; apply moves_refl).
  destruct w; try (intros H; injection H as <- _; apply moves_refl).
  - apply (G p _ None).
  - apply (G p _ (Some _)).
  - apply (G p _ (Some _)).
Qed.
