(** Waiting for a job of several processes. *)
From Verif Require Import Base BaseFacts Jobs JobsSpec JobsFacts JobsLaws JobsWait.
Local Open Scope Z_scope.

(** The answers of [waitpid]: each status after some interrupted calls. *)
Definition answers (es : list (nat * wait_status)) (tail : list answer) : list answer :=
  fold_right (fun ne l => repeat AIntr (fst ne) ++ AStatus (snd ne) :: l) tail es.

Lemma visit_own p w id j w0 : job_id j = id -> unfinished j -> has_pid p j ->
  first_status (map (report p w) (processes j)) = Some w0 ->
  forall t, nsorted t -> nget id t = Some j ->
  (forall k j', nget k t = Some j' -> k <> id -> at_rest p j') ->
  visit p w t = Some (ninsert id (hit_job p w w0 j) t, Some (id, state_after (map (report p w) (processes j)) Finished)).
Proof.
  intros Hid Hu Hp Hf. induction t as [|[k0 j0] t IH]; intros Hs E Ho; [discriminate|].
  inversion Hs as [|? ? ? Hlt Hs']; subst k m v. cbn [nget] in E. cbn [visit ninsert].
  destruct (Z.eqb_spec id k0) as [<-|Hn].
  - injection E as ->. rewrite (proj1 (looks_spec j) Hu).
    rewrite scan_eq. cbn [orb]. apply has_pidb_true in Hp. rewrite Hp.
    destruct (map (report p w) (processes j)) as [|x xs] eqn:Em; [discriminate|]. cbn in Hf. rewrite Hf.
    rewrite Z.ltb_irrefl, Hid. unfold hit_job. rewrite Em, Hid.
    destruct (state_eqb (state_after (x :: xs) Finished) Running); unfold with_stop_status, with_processes, with_state, with_changed; cbn;
      rewrite ?Hid; reflexivity.
  - assert (L : k0 < id). { apply nget_In in E. rewrite Forall_forall in Hlt. apply Hlt in E. exact E. }
    assert (Ho' : forall k1 j1, nget k1 t = Some j1 -> k1 <> id -> at_rest p j1).
    { intros k1 j1 E1. apply Ho. cbn. destruct (Z.eqb_spec k1 k0) as [->|]; [|exact E1].
      apply nget_In in E1. rewrite Forall_forall in Hlt. apply Hlt in E1. cbn in E1. lia. }
    rewrite (IH Hs' E Ho').
    destruct (Z.ltb_spec id k0); [lia|].
    destruct (borrowed j0 || state_eqb (state j0) Finished) eqn:Ef; [reflexivity|].
    destruct (Ho k0 j0) as [Hf0|(q0 & ps0 & Eq & Es & Hnp)]; [cbn; rewrite Z.eqb_refl; reflexivity|congruence| |].
    + apply looks_spec in Ef. contradiction.
    + apply has_pidb_false in Hnp. rewrite scan_eq, (report_id p w _ Hnp), Hnp, Eq. cbn [orb]. rewrite Es.
      rewrite <- Eq. destruct j0; reflexivity.
Qed.

Lemma wait_one_own v id n e p rest s j w0 : event_of e p -> nsorted (job_table (jobs s)) ->
  nget id (job_table (jobs s)) = Some j -> job_id j = id -> unfinished j -> has_pid p j ->
  first_status (map (report p e) (processes j)) = Some w0 ->
  (forall k j', nget k (job_table (jobs s)) = Some j' -> k <> id -> at_rest p j') ->
  exists s', wait_one (Some v) id (repeat AIntr n ++ AStatus e :: rest) s = WDone (RPid p) s' rest /\
    job_table (jobs s') = ninsert id (hit_job p e w0 j) (job_table (jobs s)) /\ masked s' = false /\ got_sigchld s' = false.
Proof.
  intros He Hs Hg Hid Hu Hp Hf Ho. change (repeat AIntr n ++ AStatus e :: rest) with (intr n (AStatus e :: rest)).
  rewrite (wait_one_event (Some v) id n e p rest s He).
  rewrite (visit_own p e id j w0 Hid Hu Hp Hf _ Hs Hg Ho). cbv zeta. rewrite Z.eqb_refl.
  set (jc := after_found _ _).
  assert (Hj : job_table jc = ninsert id (hit_job p e w0 j) (job_table (jobs s))).
  { unfold jc, after_found. destruct (state_after _ _); reflexivity. }
  assert (Hnp : format_status (Some v) e jc <> None).
  { destruct He; cbn [format_status]; [discriminate| |]; destruct (get_job_pid p jc); discriminate. }
  destruct (format_status (Some v) e jc) as [[t|]|]; [| |contradiction]; eexists; (split; [reflexivity|]); repeat split; exact Hj.
Qed.

Lemma wait_one_end v id m a rest s : a = AFail \/ a = AStatus StillAlive ->
  wait_one (Some v) id (repeat AIntr m ++ a :: rest) s =
  WDone (match a with AFail => RFail | _ => RNone end)
    (Jst (jobs s) (match a with AFail => true | _ => false end) false (printed s)) rest.
Proof.
  intros Ha. change (repeat AIntr m ++ a :: rest) with (intr m (a :: rest)).
  unfold wait_one. rewrite wait_process_intr. destruct Ha as [-> | ->]; reflexivity.
Qed.

Lemma report_other p w x : p_pid x <> p -> report p w x = x.
Proof. intros H. unfold report. destruct (Z.eqb_spec (p_pid x) p); [contradiction|reflexivity]. Qed.
Lemma report_pids p w ps : map p_pid (map (report p w) ps) = map p_pid ps.
Proof. rewrite map_map. apply map_ext. intros x. apply report_pid. Qed.

(** What the job looks like once its first process has reported [e1]. *)
Record led (id : Z) (pids : list Z) (e1 : wait_status) (j : job) : Prop := {
  led_id : job_id j = id;
  led_pids : map p_pid (processes j) = pids;
  led_status : stop_status j = e1;
  led_first : first_status (processes j) = Some e1;
  led_running : existsb no_status (processes j) = true -> state j = Running;
  led_fin : is_stopped e1 = true -> state j <> Finished }.

Lemma stopped_state ps e1 : first_status ps = Some e1 -> is_stopped e1 = true -> state_after ps Finished <> Finished.
Proof.
  intros Hf He. rewrite state_after_finished. destruct (existsb no_status ps); [discriminate|].
  destruct ps as [|x ps]; [discriminate|]. cbn in Hf. cbn [existsb]. unfold stoppedb at 1. rewrite Hf. destruct e1; discriminate.
Qed.

(** The next report, of another process that had reported nothing. *)
Lemma led_hit id pids e1 j p e : led id pids e1 j -> NoDup pids -> event_of e p ->
  (exists x, In x (processes j) /\ p_pid x = p /\ p_status x = None) ->
  first_status (map (report p e) (processes j)) = Some e1 /\ unfinished j /\ has_pid p j /\
  led id pids e1 (hit_job p e e1 j) /\
  (forall x, p_pid x <> p -> In x (processes j) -> In x (processes (hit_job p e e1 j))).
Proof.
  intros [L1 L2 L3 L4 L5 L6] Hd He (x & Hx & Ex & Hs).
  assert (Hne : match processes j with [] => True | y :: _ => p_pid y <> p end).
  { destruct (processes j) as [|y ys] eqn:Ep; [exact I|]. intros Ey. cbn in L4.
    destruct Hx as [->|Hx]; [congruence|]. rewrite <- L2 in Hd. cbn in Hd. inversion Hd as [|? ? Hn _]; subst.
    apply Hn. rewrite Ey. apply in_map. exact Hx. }
  assert (Hf : first_status (map (report p e) (processes j)) = Some e1).
  { destruct (processes j) as [|y ys]; [discriminate|]. cbn. rewrite report_other by exact Hne. exact L4. }
  assert (Hn : existsb no_status (processes j) = true).
  { apply existsb_exists. exists x. split; [exact Hx|]. unfold no_status. rewrite Hs. reflexivity. }
  split; [exact Hf|]. split; [unfold unfinished; rewrite (L5 Hn); intros [E|E]; discriminate|].
  split; [exists x; auto|]. split.
  - constructor; cbn [hit_job job_id processes stop_status state].
    + exact L1.
    + rewrite report_pids. exact L2.
    + reflexivity.
    + exact Hf.
    + intros E. rewrite state_after_finished, E. cbn. exact (L5 Hn).
    + intros E. pose proof (stopped_state _ _ Hf E) as N. destruct (state_eqb _ Running); [exact (L6 E)|exact N].
  - intros y Hy Iy. cbn [hit_job processes]. apply in_map_iff. exists y. split; [apply report_other; exact Hy|exact Iy].
Qed.

Lemma wait_rest v id pids e1 m a rest : NoDup pids -> a = AFail \/ a = AStatus StillAlive ->
  forall es qs fuel s j, (List.length es < fuel)%nat -> Forall2 (fun ne q => event_of (snd ne) q) es qs -> NoDup qs ->
  nsorted (job_table (jobs s)) -> nget id (job_table (jobs s)) = Some j -> led id pids e1 j ->
  (forall q, In q qs -> exists x, In x (processes j) /\ p_pid x = q /\ p_status x = None) ->
  (forall k j' q, nget k (job_table (jobs s)) = Some j' -> k <> id -> In q pids -> at_rest q j') ->
  exists s' j', wait_loop (Some v) fuel id (answers es (repeat AIntr m ++ a :: rest)) s = WDone tt s' rest /\
    nsorted (job_table (jobs s')) /\ nget id (job_table (jobs s')) = Some j' /\ led id pids e1 j' /\
    (forall k, k <> id -> nget k (job_table (jobs s')) = nget k (job_table (jobs s))).
Proof.
  intros Hd Ha. induction es as [|[n e] es IH]; intros qs fuel s j Hf HF Hq Hs Hg L Hw Ho.
  - destruct fuel as [|fuel]; [lia|]. cbn [answers fold_right wait_loop]. rewrite wait_one_end by exact Ha.
    exists (Jst (jobs s) (match a with AFail => true | _ => false end) false (printed s)), j.
    split; [destruct Ha as [-> | ->]; reflexivity|]. cbn [jobs]. auto.
  - destruct fuel as [|fuel]; [cbn in Hf; lia|]. inversion HF as [|? q ? qs' He HF']; subst. cbn [fst snd] in He.
    inversion Hq as [|? ? Hq1 Hq2]; subst.
    destruct (led_hit id pids e1 j q e L Hd He (Hw q (or_introl eq_refl))) as (F1 & F2 & F3 & F4 & F5).
    assert (Hin : In q pids) by (rewrite <- (led_pids _ _ _ _ L); destruct F3 as (x & X1 & <-); apply in_map; exact X1).
    cbn [answers fold_right wait_loop fst snd]. fold (answers es (repeat AIntr m ++ a :: rest)).
    destruct (wait_one_own v id n e q (answers es (repeat AIntr m ++ a :: rest)) s j e1 He Hs Hg (led_id _ _ _ _ L) F2 F3 F1
      (fun k j' E N => Ho k j' q E N Hin)) as (s1 & W1 & W2 & _).
    rewrite W1.
    assert (G1 : forall k, nget k (job_table (jobs s1)) = if Z.eqb k id then Some (hit_job q e e1 j) else nget k (job_table (jobs s))).
    { intros k. rewrite W2. apply nget_ninsert, Hs. }
    destruct (IH qs' fuel s1 (hit_job q e e1 j)) as (s' & j' & R1 & R2 & R3 & R4 & R5).
    + cbn in Hf. lia.
    + exact HF'.
    + exact Hq2.
    + rewrite W2. apply nsorted_ninsert, Hs.
    + rewrite G1, Z.eqb_refl. reflexivity.
    + exact F4.
    + intros q' Hq'. destruct (Hw q' (or_intror Hq')) as (x & X1 & X2 & X3). exists x. split; [|auto]. apply F5; [|exact X1].
      rewrite X2. intros ->. contradiction.
    + intros k j' q' E N. rewrite G1 in E. destruct (Z.eqb_spec k id); [contradiction|]. apply Ho with k; assumption.
    + exists s', j'. split; [exact R1|]. split; [exact R2|]. split; [exact R3|]. split; [exact R4|].
      intros k Hk. rewrite (R5 k Hk), G1. destruct (Z.eqb_spec k id); [contradiction|reflexivity].
Qed.

Lemma length_answers es tail : (List.length es + List.length tail <= List.length (answers es tail))%nat.
Proof.
  induction es as [|[n e] es IH]; [cbn; lia|]. cbn [answers fold_right fst snd]. fold (answers es tail).
  rewrite app_length. cbn [List.length] in *. lia.
Qed.

(** The whole wait: the first process reports first, then any others. *)
Lemma wait_led v id n1 e1 es qs m a rest s j q ps :
  nsorted (job_table (jobs s)) -> nget id (job_table (jobs s)) = Some j -> job_id j = id -> state j = Running ->
  processes j = q :: ps -> NoDup (map p_pid (q :: ps)) -> Forall (fun x => p_status x = None) (q :: ps) ->
  event_of e1 (p_pid q) -> Forall2 (fun ne q => event_of (snd ne) q) es qs -> NoDup qs -> incl qs (map p_pid ps) ->
  (forall k j' x, nget k (job_table (jobs s)) = Some j' -> k <> id -> In x (q :: ps) -> at_rest (p_pid x) j') ->
  a = AFail \/ a = AStatus StillAlive ->
  exists s' j', do_wait (Some v) id (answers ((n1, e1) :: es) (repeat AIntr m ++ a :: rest)) s = WDone tt s' rest /\
    nsorted (job_table (jobs s')) /\ nget id (job_table (jobs s')) = Some j' /\ led id (map p_pid (q :: ps)) e1 j' /\
    (forall k, k <> id -> nget k (job_table (jobs s')) = nget k (job_table (jobs s))).
Proof.
  intros Hs Hg Hid Hr Ep Hd Hn He HF Hq Hi Ho Ha.
  unfold do_wait, get_job. rewrite Hg, Hr. cbn [state_eqb negb andb].
  set (as_ := answers ((n1, e1) :: es) _).
  assert (Hfuel : exists f, List.length as_ = S f /\ (List.length es < f)%nat).
  { unfold as_. pose proof (length_answers es (repeat AIntr m ++ a :: rest)) as L. rewrite app_length in L. cbn [List.length] in L.
    exists (n1 + List.length (answers es (repeat AIntr m ++ a :: rest)))%nat.
    cbn [answers fold_right fst snd]. fold (answers es (repeat AIntr m ++ a :: rest)). rewrite app_length, repeat_length. cbn [List.length]. lia. }
  destruct Hfuel as (f & -> & Hf). cbn [wait_loop].
  assert (Hrq : p_status (report (p_pid q) e1 q) = Some e1) by (unfold report; rewrite Z.eqb_refl; reflexivity).
  assert (Hfs : first_status (map (report (p_pid q) e1) (processes j)) = Some e1) by (rewrite Ep; cbn; exact Hrq).
  unfold as_. cbn [answers fold_right fst snd]. fold (answers es (repeat AIntr m ++ a :: rest)).
  destruct (wait_one_own v id n1 e1 (p_pid q) (answers es (repeat AIntr m ++ a :: rest)) s j e1 He Hs Hg Hid) as (s1 & W1 & W2 & _).
  - unfold unfinished. rewrite Hr. intros [E|E]; discriminate.
  - exists q. rewrite Ep. split; [left|]; reflexivity.
  - exact Hfs.
  - intros k j' E N. apply (Ho k j' q E N). left. reflexivity.
  - rewrite W1.
    assert (G1 : forall k, nget k (job_table (jobs s1)) = if Z.eqb k id then Some (hit_job (p_pid q) e1 e1 j) else nget k (job_table (jobs s))).
    { intros k. rewrite W2. apply nget_ninsert, Hs. }
    destruct (wait_rest v id (map p_pid (q :: ps)) e1 m a rest Hd Ha es qs (S f) s1 (hit_job (p_pid q) e1 e1 j))
      as (s' & j' & R1 & R2 & R3 & R4 & R5).
    + lia.
    + exact HF.
    + exact Hq.
    + rewrite W2. apply nsorted_ninsert, Hs.
    + rewrite G1, Z.eqb_refl. reflexivity.
    + constructor; cbn [hit_job job_id processes stop_status state].
      * exact Hid.
      * rewrite report_pids, Ep. reflexivity.
      * reflexivity.
      * exact Hfs.
      * intros E. rewrite state_after_finished, E. exact Hr.
      * intros E. pose proof (stopped_state _ _ Hfs E) as N. destruct (state_eqb _ Running); [rewrite Hr; discriminate|exact N].
    + intros q' Hq'. apply Hi in Hq'. apply in_map_iff in Hq'. destruct Hq' as (x & <- & Hx). exists x.
      assert (Hne : p_pid x <> p_pid q).
      { cbn in Hd. inversion Hd as [|? ? Hd1 _]; subst. intros E. apply Hd1. rewrite <- E. apply in_map. exact Hx. }
      split; [|split; [reflexivity|]].
      * cbn [hit_job processes]. rewrite Ep. cbn [map]. right. apply in_map_iff. exists x. split; [apply report_other; exact Hne|exact Hx].
      * rewrite Forall_forall in Hn. apply Hn. right. exact Hx.
    + intros k j' q' E N Hin. rewrite G1 in E. destruct (Z.eqb_spec k id); [contradiction|].
      apply in_map_iff in Hin. destruct Hin as (x & <- & Hx). apply Ho with k; assumption.
    + exists s', j'. split; [exact R1|]. split; [exact R2|]. split; [exact R3|]. split; [exact R4|].
      intros k Hk. rewrite (R5 k Hk), G1. destruct (Z.eqb_spec k id); [contradiction|reflexivity].
Qed.

(** Deleting it afterwards: it is gone unless its first process is stopped. *)
Lemma delete_led id pids e1 j jc : nsorted (job_table jc) -> nget id (job_table jc) = Some j -> led id pids e1 j ->
  nsorted (job_table (delete_job id jc)) /\
  (forall k, k <> id -> nget k (job_table (delete_job id jc)) = nget k (job_table jc)) /\
  match e1 with
  | Stopped _ _ => exists j', nget id (job_table (delete_job id jc)) = Some j' /\ map p_pid (processes j') = pids /\ state j' = SStopped
  | _ => nget id (job_table (delete_job id jc)) = None
  end.
Proof.
  intros Hs Hg [L1 L2 L3 L4 L5 L6].
  destruct (delete_job_deletion id jc) as [E|j0 E Ep|j0 p0 ps st E Ep Est Hst|j0 p0 ps E Ep Hp Hst]; rewrite Hg in E; try discriminate;
    injection E as <-; [rewrite Ep in L4; discriminate| |]; cbn [job_table put_table].
  - rewrite Ep in L4. cbn in L4. rewrite L4 in Est.
    assert (S' : nsorted (nremove id (job_table jc))) by (apply nsorted_nremove, Hs).
    assert (Hst' : st = e1) by (rewrite Est, L3; destruct e1; reflexivity). subst st.
    split; [apply nsorted_ninsert, S'|]. split.
    + intros k Hk. rewrite nget_ninsert by exact S'. destruct (Z.eqb_spec k id); [contradiction|]. rewrite nget_nremove.
      destruct (Z.eqb_spec k id); [contradiction|reflexivity].
    + rewrite Hst'. rewrite Hst' in Hst. destruct e1; try discriminate Hst. rewrite nget_ninsert by exact S'. rewrite Z.eqb_refl.
      eexists. split; [reflexivity|]. split; [exact L2|reflexivity].
  - rewrite Ep in L4. cbn in L4.
    split; [apply nsorted_nremove, Hs|]. split.
    + intros k Hk. rewrite nget_nremove. destruct (Z.eqb_spec k id); [contradiction|reflexivity].
    + rewrite L3 in Hst. destruct e1; try discriminate Hst; rewrite nget_nremove, Z.eqb_refl; reflexivity.
Qed.

(** [wait_for_job] followed by the [delete_job] of src/eval.rs:274. *)
Lemma wait_then_delete v id n1 e1 es qs m a rest s j q ps :
  nsorted (job_table (jobs s)) -> nget id (job_table (jobs s)) = Some j -> job_id j = id -> state j = Running ->
  processes j = q :: ps -> NoDup (map p_pid (q :: ps)) -> Forall (fun x => p_status x = None) (q :: ps) ->
  event_of e1 (p_pid q) -> Forall2 (fun ne q => event_of (snd ne) q) es qs -> NoDup qs -> incl qs (map p_pid ps) ->
  (forall k j' x, nget k (job_table (jobs s)) = Some j' -> k <> id -> In x (q :: ps) -> at_rest (p_pid x) j') ->
  a = AFail \/ a = AStatus StillAlive ->
  exists s', wait_for_job (Some v) id (answers ((n1, e1) :: es) (repeat AIntr m ++ a :: rest)) s = WDone e1 s' rest /\
    (forall k, k <> id -> nget k (job_table (delete_job id (jobs s'))) = nget k (job_table (jobs s))) /\
    match e1 with
    | Stopped _ _ => exists j', nget id (job_table (delete_job id (jobs s'))) = Some j' /\
        map p_pid (processes j') = map p_pid (q :: ps) /\ state j' = SStopped
    | _ => nget id (job_table (delete_job id (jobs s'))) = None
    end.
Proof.
  intros Hs Hg Hid Hr Ep Hd Hn He HF Hq Hi Ho Ha.
  destruct (wait_led v id n1 e1 es qs m a rest s j q ps Hs Hg Hid Hr Ep Hd Hn He HF Hq Hi Ho Ha) as (s1 & j1 & R1 & R2 & R3 & R4 & R5).
  destruct (delete_led id (map p_pid (q :: ps)) e1 j1 (jobs s1) R2 R3 R4) as (D1 & D2 & D3).
  unfold wait_for_job. rewrite R1. unfold get_job. rewrite R3. rewrite (led_status _ _ _ _ R4).
  destruct (state_eqb (state j1) Finished || is_exited e1) eqn:Ef.
  - eexists. split; [reflexivity|]. cbn [jobs shell_delete_job with_masked with_jobs].
    assert (E : nget id (job_table (delete_job id (jobs s1))) = None).
    { destruct e1; try exact D3. exfalso. apply (led_fin _ _ _ _ R4 eq_refl). cbn in Ef. rewrite Bool.orb_false_r in Ef.
      destruct (state_eqb_spec (state j1) Finished); [assumption|discriminate]. }
    assert (E' : delete_job id (delete_job id (jobs s1)) = delete_job id (jobs s1)) by (unfold delete_job at 1; rewrite E; reflexivity).
    rewrite E'. split; [intros k Hk; rewrite (D2 k Hk); apply R5, Hk|]. rewrite E in *.
    destruct e1; try reflexivity. destruct D3 as (j' & F & _). discriminate.
  - exists s1. split; [reflexivity|]. split; [intros k Hk; rewrite (D2 k Hk); apply R5, Hk|]. exact D3.
Qed.

(** The first report is not of the first process, or another job in front has one
    that has reported nothing: the wait does not survive. *)
Lemma wait_crash ps4 id n e p rest s : nsorted (job_table (jobs s)) -> event_of e p ->
  (exists j, nget id (job_table (jobs s)) = Some j /\ state j = Running) ->
  (exists k j, trips p (job_table (jobs s)) k j) ->
  wait_for_job ps4 id (repeat AIntr n ++ AStatus e :: rest) s = WPanic.
Proof.
  intros Hs He (j & Hg & Hr) Ht. unfold wait_for_job, do_wait, get_job. rewrite Hg, Hr. cbn [state_eqb negb andb wait_loop].
  change (repeat AIntr n ++ AStatus e :: rest) with (intr n (AStatus e :: rest)).
  rewrite (wait_one_event ps4 id n e p rest s He). apply (visit_none_trips p e _ Hs) in Ht. rewrite Ht. reflexivity.
Qed.
