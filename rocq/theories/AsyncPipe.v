(** Waiting for a pipeline while signals arrive. *)
From Verif Require Import Base BaseFacts Lexer Ast Parser GrammarSpec Context Alias Expand ExpandSpec Jobs JobsSpec JobsFacts JobsLaws.
From Verif Require Import JobsWait JobsPipe JobsReports.
From Verif Require Import Shell Builtins Eval Main Async EvalSpec EvalFacts EvalLaws EvalKeeps RunSpec RunLaws PipeSpec PipeLaws PipeRun AsyncLaws AsyncRun.
From Verif Require GrammarFacts PropertiesProgram PropertiesStatus PropertiesWait.
Import PropertiesStatus.
Local Open Scope Z_scope.

(** ** The table while the pipeline is waited for *)

(** The job [id] once its first process has reported [e1]: what is still to be
    known of the others does not matter to what is left when it is gone. *)
Record ran (id : Z) (pids : list Z) (e1 : wait_status) (j : job) : Prop := {
  ran_id : job_id j = id;
  ran_pids : map p_pid (processes j) = pids;
  ran_status : stop_status j = e1;
  ran_first : first_status (processes j) = Some e1;
  ran_bg : background j = false;
  ran_stop : ~ some_stopped (processes j) }.
(** Nothing but the job [id] has changed. *)
Record drops (id : Z) (pids : list Z) (e1 : wait_status) (jc0 jc : job_control) : Prop := {
  dr_sorted : nsorted (job_table jc);
  dr_rest : nremove id (job_table jc) = nremove id (job_table jc0);
  dr_bg : background_jobs jc = background_jobs jc0;
  dr_pid : pid_to_job jc = pid_to_job jc0;
  dr_cur : current_job jc = current_job jc0;
  dr_job : exists j, nget id (job_table jc) = Some j /\ ran id pids e1 j }.

Lemma nremove_ninsert {V} k (v : V) m : nsorted m -> nremove k (ninsert k v m) = nremove k m.
Proof.
  induction 1 as [|k2 v2 m Hlt Hs IH]; cbn; [rewrite Z.eqb_refl; reflexivity|].
  destruct (Z.ltb_spec k k2) as [L|L].
  - cbn. rewrite Z.eqb_refl. reflexivity.
  - destruct (Z.eqb_spec k k2) as [->|N]; cbn; [rewrite Z.eqb_refl; reflexivity|].
    destruct (Z.eqb_spec k k2); [contradiction|]. rewrite IH. reflexivity.
Qed.
Lemma nremove_get {V} k k' (a b : nmap V) : nremove k a = nremove k b -> k' <> k -> nget k' a = nget k' b.
Proof.
  intros E N. pose proof (nget_nremove k k' a) as A. pose proof (nget_nremove k k' b) as B.
  destruct (Z.eqb_spec k' k); [contradiction|]. congruence.
Qed.

(** What is left when the job is gone. *)
Definition dropped (id : Z) (pids : list Z) (jc : job_control) : job_control :=
  JobControl (nremove id (job_table jc)) (background_jobs jc) (fold_left (fun m p => nremove p m) pids (pid_to_job jc))
    (current_job jc) (next_id_after (nremove id (job_table jc))).
Lemma delete_drops id pids e1 jc0 jc : drops id pids e1 jc0 jc -> is_stopped e1 = false -> delete_job id jc = dropped id pids jc0.
Proof.
  intros [D1 D2 D3 D4 D5 (j & Ej & [R1 R2 R3 R4 R5 R6])] Hs. unfold delete_job. rewrite Ej.
  destruct (processes j) as [|p0 ps] eqn:Ep; [discriminate|]. cbn in R4.
  assert (En : note_stop p0 j = j) by (unfold note_stop; rewrite R4, Hs; reflexivity).
  rewrite En, R3, Hs, R5, Ep. unfold dropped. rewrite D2, D3, D4, D5. f_equal.
  rewrite <- R2. generalize (pid_to_job jc0). generalize (p0 :: ps). clear. intros l. induction l as [|p l IH]; intros m; [reflexivity|].
  cbn [map fold_left]. apply IH.
Qed.
Lemma delete_dropped id pids jc : delete_job id (dropped id pids jc) = dropped id pids jc.
Proof. unfold delete_job, dropped at 1. cbn [job_table]. rewrite nget_nremove, Z.eqb_refl. reflexivity. Qed.

Lemma visit_nothing p w t : nsorted t -> (forall k j, nget k t = Some j -> at_rest p j) -> visit p w t = Some (t, None).
Proof.
  induction 1 as [|k j t Hlt Hs IH]; intros Ho; [reflexivity|]. cbn [visit].
  assert (IH' : visit p w t = Some (t, None)).
  { apply IH. intros k1 j1 E1. apply Ho with k1. cbn. destruct (Z.eqb_spec k1 k) as [->|]; [|exact E1].
    apply nget_In in E1. rewrite Forall_forall in Hlt. apply Hlt in E1. cbn in E1. lia. }
  rewrite IH'. destruct (borrowed j || state_eqb (state j) Finished) eqn:Ef; [reflexivity|].
  destruct (Ho k j) as [Hf0|(q0 & ps0 & Eq & Es & Hnp)]; [cbn; rewrite Z.eqb_refl; reflexivity| |].
  - apply looks_spec in Ef. contradiction.
  - apply has_pidb_false in Hnp. rewrite scan_eq, (report_id p w _ Hnp), Hnp, Eq. cbn [orb]. rewrite Es.
    rewrite <- Eq. destruct j; reflexivity.
Qed.

(** A report of one of the other processes, which does not stop. *)
Definition other (pids : list Z) (a : answer) : Prop :=
  a = AIntr \/ exists e p, a = AStatus e /\ event_of e p /\ In p (tl pids) /\ is_stopped e = false.
(** None of the processes is killed: there is nothing to print. *)
Definition unkilled (a : answer) : Prop := match a with AStatus (Signaled _ _ _) => False | _ => True end.

Section Waiting.
Context (v : str) (id : Z) (pids : list Z) (e1 : wait_status) (jc0 : job_control).
Context (Hd : NoDup pids) (Hpid : forall p, In p pids -> nget p (pid_to_job jc0) = Some id).
Context (Hrest : forall k j p, nget k (job_table jc0) = Some j -> k <> id -> In p pids -> at_rest p j).

Lemma first_kept p e j : ran id pids e1 j -> In p (tl pids) -> first_status (map (report p e) (processes j)) = Some e1.
Proof.
  intros [R1 R2 R3 R4 R5 R6] Hp. destruct (processes j) as [|q ps]; [discriminate|]. cbn in *. rewrite report_other; [exact R4|].
  intros E. rewrite <- R2 in Hp, Hd. cbn in Hp, Hd. inversion Hd as [|? ? N _]; subst. apply N. exact Hp.
Qed.
Lemma stop_kept p e ps : ~ some_stopped ps -> is_stopped e = false -> ~ some_stopped (map (report p e) ps).
Proof.
  intros Hn He (q & a & s & Hq & Es). apply in_map_iff in Hq. destruct Hq as (x & <- & Hx). unfold report in Es.
  destruct (Z.eqb (p_pid x) p).
  - cbn in Es. injection Es as ->. discriminate.
  - apply Hn. exists x, a, s. auto.
Qed.
Lemma put_drops jc j' : drops id pids e1 jc0 jc -> ran id pids e1 j' ->
  drops id pids e1 jc0 (put_table (ninsert id j' (job_table jc)) jc).
Proof.
  intros [D1 D2 D3 D4 D5 D6] R. constructor; cbn [put_table job_table background_jobs pid_to_job current_job]; try assumption.
  - apply nsorted_ninsert, D1.
  - rewrite nremove_ninsert by exact D1. exact D2.
  - exists j'. rewrite nget_ninsert by exact D1. rewrite Z.eqb_refl. auto.
Qed.
Lemma tl_in p : In p (tl pids) -> In p pids.
Proof. destruct pids; [intros []|right; assumption]. Qed.
Lemma state_not_stopped ps : ~ some_stopped ps -> state_after ps Finished <> SStopped.
Proof.
  intros H. rewrite state_after_finished. destruct (existsb no_status ps); [discriminate|].
  apply stoppedb_none in H. rewrite H. discriminate.
Qed.
Lemma one_drops s e p r : drops id pids e1 jc0 (jobs s) -> event_of e p -> In p (tl pids) -> is_stopped e = false ->
  exists s', wait_one (Some v) id (AStatus e :: r) s = WDone (RPid p) s' r /\ drops id pids e1 jc0 (jobs s') /\
    (unkilled (AStatus e) -> printed s' = printed s).
Proof.
  intros D He Hp Hs. pose proof D as [D1 D2 D3 D4 D5 (j & Ej & R)].
  change (AStatus e :: r) with (intr 0 (AStatus e :: r)). rewrite (wait_one_event (Some v) id 0 e p r s He).
  assert (Ho : forall k j', nget k (job_table (jobs s)) = Some j' -> k <> id -> at_rest p j').
  { intros k j' E N. rewrite (nremove_get id k _ _ D2 N) in E. exact (Hrest k j' p E N (tl_in p Hp)). }
  destruct (unfinished_dec j) as [Hu|Hu].
  - assert (Hh : has_pid p j) by (apply has_pid_map; rewrite (ran_pids _ _ _ _ R); apply tl_in, Hp).
    rewrite (visit_own p e id j e1 (ran_id _ _ _ _ R) Hu Hh (first_kept p e j R Hp) _ D1 Ej Ho). cbv zeta. rewrite Z.eqb_refl.
    set (st := state_after _ _).
    assert (Hst : st <> SStopped) by (apply state_not_stopped, stop_kept; [apply R|exact Hs]).
    assert (Ea : after_found (Some (id, st)) (put_table (ninsert id (hit_job p e e1 j) (job_table (jobs s))) (jobs s))
      = put_table (ninsert id (hit_job p e e1 j) (job_table (jobs s))) (jobs s)) by (unfold after_found; destruct st; [reflexivity..|contradiction]).
    rewrite Ea. set (jc := put_table _ _).
    assert (Dj : drops id pids e1 jc0 jc).
    { apply put_drops; [exact D|]. destruct R as [R1 R2 R3 R4 R5 R6].
      constructor; cbn [hit_job job_id processes stop_status background]; try assumption; try reflexivity.
      - rewrite report_pids. exact R2.
      - apply first_kept; [constructor; assumption|exact Hp].
      - apply stop_kept; assumption. }
    assert (Hnp : format_status (Some v) e jc <> None).
    { destruct He; cbn [format_status]; [discriminate| |]; destruct (get_job_pid p jc); discriminate. }
    assert (Hpr : unkilled (AStatus e) -> format_status (Some v) e jc = Some None).
    { destruct He; [reflexivity|intros []|discriminate]. }
    destruct (format_status (Some v) e jc) as [[t|]|]; [| |contradiction]; eexists; (split; [reflexivity|]); (split; [exact Dj|]);
      [intros U; discriminate (Hpr U)|reflexivity].
  - rewrite (visit_nothing p e _ D1).
    + cbv zeta. eexists. split; [reflexivity|]. split; [|reflexivity]. cbn [jobs after_found].
      destruct (jobs s); exact D.
    + intros k j' E. destruct (Z.eq_dec k id) as [->|N]; [|exact (Ho k j' E N)]. rewrite Ej in E. injection E as <-. left. exact Hu.
Qed.
Lemma chld_drops s a r : drops id pids e1 jc0 (jobs s) -> other pids a \/ silent a ->
  exists s', (forall n, handled (Some v) n (a :: r) s = WDone tt s' r) /\ drops id pids e1 jc0 (jobs s') /\ printed s' = printed s.
Proof.
  intros D [[->|(e & p & -> & He & Hp & Hs)]|[->| ->]];
    try (eexists; split; [reflexivity|]; split; [exact D|reflexivity]).
  pose proof D as [D1 D2 D3 D4 D5 (j & Ej & R)].
  assert (Hn : nget p (pid_to_job (jobs s)) = Some id) by (rewrite D4; apply Hpid, tl_in, Hp).
  assert (Hg : get_job id (jobs s) = Some j) by exact Ej.
  assert (R' : ran id pids e1 (set_process_status p e j)).
  { destruct R as [R1 R2 R3 R4 R5 R6]. constructor; cbn [set_process_status with_processes job_id processes stop_status background]; try assumption.
    - rewrite <- R2. clear. induction (processes j) as [|x l IH]; [reflexivity|]. cbn [set_status_in map].
      destruct (Z.eqb _ _); cbn; [reflexivity|]. rewrite IH. reflexivity.
    - destruct (processes j) as [|q ps]; [discriminate|]. cbn [set_status_in].
      destruct (Z.eqb_spec (p_pid q) p) as [Eq|]; [|exact R4]. exfalso. rewrite <- R2 in Hp, Hd. cbn in Hp, Hd.
      inversion Hd as [|? ? N _]; subst. apply N. exact Hp.
    - intros (q & a & sg & Hq & Es). clear -R6 Hq Es Hs. revert R6 Hq. induction (processes j) as [|x l IH]; intros R6 Hq; [destruct Hq|].
      cbn [set_status_in] in Hq. destruct (Z.eqb (p_pid x) p).
      + destruct Hq as [<-|Hq].
        * cbn in Es. injection Es as ->. discriminate.
        * apply R6. exists q, a, sg. split; [right; exact Hq|exact Es].
      + destruct Hq as [<-|Hq].
        * apply R6. exists x, a, sg. split; [left; reflexivity|exact Es].
        * apply IH; [|exact Hq]. intros (q' & a' & s' & X & Y). apply R6. exists q', a', s'. split; [right; exact X|exact Y]. }
  assert (Dj : drops id pids e1 jc0 (put_job id (set_process_status p e j) (jobs s))).
  { pose proof (put_drops (jobs s) _ D R') as X. exact X. }
  assert (Hdel : deletes (Some v) (AStatus e :: r) s = false).
  { destruct He; cbn [deletes about]; unfold get_job_pid; rewrite Hn; fold (get_job id (jobs s)); rewrite Hg, (ran_bg _ _ _ _ R); reflexivity. }
  unfold handled. rewrite Hdel. unfold sig_chld. cbn [jobs with_sigchld].
  destruct He as [p c|p sg dd|p sg]; try discriminate Hs; rewrite Hn, Hg, (ran_bg _ _ _ _ R);
    (eexists; split; [reflexivity|]; split; [exact Dj|reflexivity]).
Qed.

(** Answers: reports of the others, then nothing. *)
Definition plenty (ks : arrivals) (as_ : list answer) : Prop :=
  exists mid rest, as_ = mid ++ rest /\ Forall (other pids) mid /\ Forall silent rest /\ (load ks < List.length rest)%nat.

Definition quiet (as_ : list answer) (s s' : jst) (r : list answer) : Prop :=
  Forall unkilled as_ -> Forall unkilled r /\ printed s' = printed s.

Lemma plenty_less ks ks' as_ : (load ks <= load ks')%nat -> plenty ks' as_ -> plenty ks as_.
Proof. intros Hl (mid & rest & E & F1 & F2 & L). exists mid, rest. repeat split; auto. lia. Qed.
Lemma plenty_cons k ks as_ : plenty (k :: ks) as_ -> plenty ks as_.
Proof. apply plenty_less. destruct k; cbn; lia. Qed.
Lemma plenty_next n ks as_ : plenty (Sig n :: ks) as_ ->
  exists a r, as_ = a :: r /\ (other pids a \/ silent a) /\ plenty ks r.
Proof.
  intros (mid & rest & -> & F1 & F2 & L). cbn in L. destruct mid as [|a mid].
  - destruct rest as [|a rest]; [cbn in L; lia|]. inversion F2; subst. exists a, rest. split; [reflexivity|]. split; [auto|].
    exists [], rest. repeat split; auto. cbn in L. lia.
  - inversion F1; subst. exists a, (mid ++ rest). split; [reflexivity|]. split; [auto|]. exists mid, rest. repeat split; auto. lia.
Qed.
Lemma in_sigint_drops l : forall ks as_ s, plenty (Int l :: ks) as_ -> drops id pids e1 jc0 (jobs s) ->
  exists s' r, in_sigint (handled (Some v)) l as_ s = WDone tt s' r /\ plenty ks r /\ drops id pids e1 jc0 (jobs s') /\
    (List.length r <= List.length as_)%nat /\ quiet as_ s s' r.
Proof.
  induction l as [|n l IH]; intros ks as_ s Hp D; cbn [in_sigint].
  - exists s, as_. split; [reflexivity|]. split; [apply (plenty_cons _ _ _ Hp)|]. unfold quiet. auto.
  - apply (plenty_less (Sig n :: Int l :: ks)) in Hp; [|cbn; lia].
    apply plenty_next in Hp. destruct Hp as (a & r & -> & Ha & Hp).
    destruct (chld_drops s a r D Ha) as (s1 & E1 & D1 & Q1). rewrite E1.
    destruct (IH ks r s1 Hp D1) as (s' & r' & E2 & P2 & D2 & L & Q2). exists s', r'.
    split; [exact E2|]. split; [exact P2|]. split; [exact D2|]. split; [cbn; lia|].
    intros U. inversion U as [|x y _ U']; subst x y. destruct (Q2 U') as [U2 P]. split; [exact U2|]. congruence.
Qed.
Lemma deliver_drops ks : forall as_ s, plenty ks as_ -> drops id pids e1 jc0 (jobs s) ->
  exists ks' s' r, deliver (Some v) ks as_ s = WDone ks' s' r /\ plenty ks' r /\ drops id pids e1 jc0 (jobs s') /\
    (List.length r <= List.length as_)%nat /\ quiet as_ s s' r.
Proof.
  induction ks as [|k ks IH]; intros as_ s Hp D; cbn [deliver]; [exists [], s, as_; unfold quiet; auto 10|].
  destruct k as [n|l|].
  3: { exists ks, s, as_; split; [reflexivity|]; split; [apply (plenty_cons _ _ _ Hp)|unfold quiet; auto 10]. }
  - destruct (masked s).
    + apply IH; [apply (plenty_cons _ _ _ Hp)|exact D].
    + apply plenty_next in Hp. destruct Hp as (a & r & -> & Ha & Hp).
      destruct (chld_drops s a r D Ha) as (s1 & E1 & D1 & Q1). rewrite E1.
      destruct (IH r s1 Hp D1) as (ks' & s' & r' & E2 & P2 & D2 & L & Q2). exists ks', s', r'.
      split; [exact E2|]. split; [exact P2|]. split; [exact D2|]. split; [cbn; lia|].
      intros U. inversion U as [|x y _ U']; subst x y. destruct (Q2 U') as [U2 P]. split; [exact U2|]. congruence.
  - destruct (in_sigint_drops l ks as_ s Hp D) as (s1 & r1 & E1 & P1 & D1 & L1 & Q1). rewrite E1.
    destruct (IH r1 s1 P1 D1) as (ks' & s' & r' & E2 & P2 & D2 & L & Q2). exists ks', s', r'.
    split; [exact E2|]. split; [exact P2|]. split; [exact D2|]. split; [lia|].
    intros U. destruct (Q1 U) as [U1 X1]. destruct (Q2 U1) as [U2 X2]. split; [exact U2|]. congruence.
Qed.
Lemma turn_drops ks as_ s : plenty ks as_ -> drops id pids e1 jc0 (jobs s) ->
  exists x s' r, wait_one (Some v) id as_ s = WDone x s' r /\ drops id pids e1 jc0 (jobs s') /\
    (List.length r < List.length as_)%nat /\
    match x with RPid _ => plenty ks r | _ => Forall silent r /\ (load ks <= List.length r)%nat end /\ quiet as_ s s' r.
Proof.
  intros (mid & rest & -> & F1 & F2 & L) D. induction F1 as [|a mid Ha F1 IH].
  - destruct rest as [|a rest]; [cbn in L; lia|]. cbn [app]. inversion F2 as [|x y Ha F2']; subst x y.
    rewrite wait_one_silent by exact Ha. eexists _, _, _. split; [reflexivity|]. split; [exact D|]. split; [cbn; lia|].
    cbn in L. split; [destruct Ha as [->| ->]; (split; [exact F2'|lia])|].
    intros U. inversion U. split; [assumption|reflexivity].
  - destruct Ha as [->|(e & p & -> & He & Hp & Hs)].
    + cbn [app]. rewrite wait_one_skip. destruct IH as (x & s' & r & E & D' & L' & M & Q). exists x, s', r.
      split; [exact E|]. split; [exact D'|]. split; [cbn; lia|]. split; [exact M|]. intros U. inversion U. apply Q. assumption.
    + cbn [app]. destruct (one_drops s e p (mid ++ rest) D He Hp Hs) as (s' & E & D' & Q).
      exists (RPid p), s', (mid ++ rest). split; [exact E|]. split; [exact D'|]. split; [cbn; lia|]. split; [exists mid, rest; auto|].
      intros U. inversion U. auto.
Qed.
Lemma loop_drops fuel : forall ks as_ s, (List.length as_ < fuel)%nat -> plenty ks as_ -> drops id pids e1 jc0 (jobs s) ->
  exists ks' s' r, wait_loop_async (Some v) fuel id ks as_ s = WDone ks' s' r /\ drops id pids e1 jc0 (jobs s') /\
    Forall silent r /\ (load ks' <= List.length r)%nat /\ (Forall unkilled as_ -> printed s' = printed s).
Proof.
  induction fuel as [|fuel IH]; intros ks as_ s Lf Hp D; [lia|]. cbn [wait_loop_async].
  destruct (turn_drops ks as_ s Hp D) as (x & s1 & r & E & D1 & L & M & Q). rewrite E. destruct x as [p| |].
  - destruct (deliver_drops ks r s1 M D1) as (ks' & s2 & r2 & E2 & P2 & D2 & L2 & Q2). rewrite E2.
    destruct (IH ks' r2 s2) as (ks3 & s3 & r3 & E3 & D3 & F3 & L3 & Q3); [lia|exact P2|exact D2|].
    exists ks3, s3, r3. split; [exact E3|]. split; [exact D3|]. split; [exact F3|]. split; [exact L3|].
    intros U. destruct (Q U) as [U1 P1]. destruct (Q2 U1) as [U2 P2']. rewrite (Q3 U2). congruence.
  - destruct M as [F M]. destruct (deliver_silent (Some v) ks r s1 F M) as (ks' & s2 & r2 & E2 & F2 & (B1 & B2 & B3) & L2).
    exists ks', s2, r2. split; [exact E2|]. split; [rewrite B1; exact D1|]. split; [exact F2|]. split; [lia|].
    intros U. destruct (Q U) as [_ P1]. congruence.
  - destruct M as [F M]. destruct (deliver_silent (Some v) ks r s1 F M) as (ks' & s2 & r2 & E2 & F2 & (B1 & B2 & B3) & L2).
    exists ks', s2, r2. split; [exact E2|]. split; [rewrite B1; exact D1|]. split; [exact F2|]. split; [lia|].
    intros U. destruct (Q U) as [_ P1]. congruence.
Qed.
End Waiting.

(** The whole wait: [jc0] is the table when it begins; signals are blocked until
    the first process has been collected. *)
Lemma wait_pipe_async v id ps n1 e1 mid rest ks s :
  let pids := map p_pid ps in
  nsorted (job_table (jobs s)) -> nget id (job_table (jobs s)) = Some (Job ps id StillAlive Running false false) ->
  NoDup pids -> Forall (fun x => p_status x = None) ps ->
  (forall p, In p pids -> nget p (pid_to_job (jobs s)) = Some id) ->
  (forall k j p, nget k (job_table (jobs s)) = Some j -> k <> id -> In p pids -> at_rest p j) ->
  match ps with q :: _ => event_of e1 (p_pid q) | [] => False end -> is_stopped e1 = false ->
  Forall (other pids) mid -> Forall silent rest -> Forall childish ks -> (load ks < List.length rest)%nat -> masked s = true ->
  exists s' r, wait_for_job_async (Some v) id ks (repeat AIntr n1 ++ AStatus e1 :: mid ++ rest) s = WDone e1 s' r /\
    delete_job id (jobs s') = dropped id pids (jobs s) /\
    (Forall unkilled (AStatus e1 :: mid) -> printed s' = printed s).
Proof.
  intros pids Hs Hg Hd Hn Hpid Hrest He1 Hst Hmid Hsil Hch Hl Hm.
  destruct ps as [|q ps]; [contradiction|].
  unfold wait_for_job_async. set (as_ := repeat AIntr n1 ++ AStatus e1 :: mid ++ rest).
  destruct (deliver_masked (Some v) ks Hch as_ s Hm) as (ks0 & E0 & L0). rewrite E0.
  unfold do_wait_async, get_job. rewrite Hg. cbn [state state_eqb negb andb].
  set (j0 := Job (q :: ps) id StillAlive Running false false) in *.
  assert (Hq : report (p_pid q) e1 q = with_status e1 q) by (unfold report; rewrite Z.eqb_refl; reflexivity).
  assert (Hf : first_status (map (report (p_pid q) e1) (processes j0)) = Some e1) by (cbn [processes j0 map first_status]; rewrite Hq; reflexivity).
  assert (Hns : ~ some_stopped (map (report (p_pid q) e1) (processes j0))).
  { apply stop_kept; [|exact Hst]. intros (x & a & b & Hx & Es). cbn [processes j0] in Hx. rewrite Forall_forall in Hn. rewrite (Hn x Hx) in Es. discriminate. }
  cbn [wait_loop_async].
  change (wait_one (Some v) id as_ s) with (wait_one (Some v) id (intr n1 (AStatus e1 :: mid ++ rest)) s).
  rewrite (wait_one_event (Some v) id n1 e1 (p_pid q) (mid ++ rest) s He1).
  rewrite (visit_own (p_pid q) e1 id j0 e1).
  2: reflexivity.
  2: { intros [E|E]; discriminate. }
  2: { exists q. split; [left; reflexivity|reflexivity]. }
  2: exact Hf.
  2: exact Hs.
  2: exact Hg.
  2: { intros k j' E N. apply (Hrest k j' (p_pid q) E N). left. reflexivity. }
  cbv zeta. rewrite Z.eqb_refl. set (st := state_after _ _). pose proof (state_not_stopped _ Hns) as Hst2. fold st in Hst2.
  assert (Ea : after_found (Some (id, st)) (put_table (ninsert id (hit_job (p_pid q) e1 e1 j0) (job_table (jobs s))) (jobs s))
      = put_table (ninsert id (hit_job (p_pid q) e1 e1 j0) (job_table (jobs s))) (jobs s)) by (unfold after_found; destruct st; [reflexivity..|contradiction]).
  rewrite Ea. set (jc := put_table _ _).
  assert (Dj : drops id pids e1 (jobs s) jc).
  { constructor; try reflexivity.
    - apply nsorted_ninsert, Hs.
    - apply nremove_ninsert, Hs.
    - exists (hit_job (p_pid q) e1 e1 j0). cbn [jc put_table job_table]. rewrite nget_ninsert by exact Hs. rewrite Z.eqb_refl.
      split; [reflexivity|]. constructor; cbn [hit_job job_id processes stop_status background j0]; try reflexivity.
      + rewrite report_pids. reflexivity.
      + exact Hf.
      + exact Hns. }
  assert (Hnp : format_status (Some v) e1 jc <> None).
  { destruct He1; cbn [format_status]; [discriminate| |]; destruct (get_job_pid p jc); discriminate. }
  assert (Hp : plenty pids ks0 (mid ++ rest)) by (exists mid, rest; repeat split; auto; lia).
  assert (Hur : Forall unkilled (AStatus e1 :: mid) -> Forall unkilled (mid ++ rest)).
  { intros U. inversion U as [|x y _ U']; subst x y. apply Forall_app. split; [exact U'|]. eapply Forall_impl; [|exact Hsil].
    intros a [->| ->]; exact I. }
  assert (G : forall s1, jobs s1 = jc -> exists ks' s' r,
    match deliver (Some v) ks0 (mid ++ rest) s1 with
    | WDone ks' s2 r2 => wait_loop_async (Some v) (List.length as_) id ks' r2 s2
    | x => x
    end = WDone ks' s' r /\ drops id pids e1 (jobs s) (jobs s') /\ Forall silent r /\ (load ks' <= List.length r)%nat /\
      (Forall unkilled (AStatus e1 :: mid) -> printed s' = printed s1)).
  { intros s1 E1. rewrite <- E1 in Dj.
    destruct (deliver_drops v id pids e1 (jobs s) Hd Hpid Hrest ks0 (mid ++ rest) s1 Hp Dj) as (ks1 & s2 & r2 & E2 & P2 & D2 & L2 & Q2).
    rewrite E2.
    destruct (loop_drops v id pids e1 (jobs s) Hd Hpid Hrest (List.length as_) ks1 r2 s2) as (ks3 & s3 & r3 & E3 & D3 & F3 & L3 & Q3); try assumption.
    { unfold as_. rewrite app_length, repeat_length. cbn [List.length]. lia. }
    exists ks3, s3, r3. split; [exact E3|]. split; [exact D3|]. split; [exact F3|]. split; [exact L3|].
    intros U. destruct (Q2 (Hur U)) as [U2 P]. rewrite (Q3 U2). exact P. }
  assert (W : exists ks' s' r,
    match match format_status (Some v) e1 jc with
          | None => WPanic
          | Some None => WDone (RPid (p_pid q)) (Jst jc false false (printed s)) (mid ++ rest)
          | Some (Some t) => WDone (RPid (p_pid q)) (print t (Jst jc false false (printed s))) (mid ++ rest)
          end with
    | WDone (RPid _) s' r =>
        match deliver (Some v) ks0 r s' with
        | WDone ks' s2 r2 => wait_loop_async (Some v) (List.length as_) id ks' r2 s2
        | x => x
        end
    | WDone _ s' r => deliver (Some v) ks0 r s'
    | WPanic => WPanic
    | WBlock => WBlock
    end = WDone ks' s' r /\ drops id pids e1 (jobs s) (jobs s') /\ Forall silent r /\ (load ks' <= List.length r)%nat /\
      (Forall unkilled (AStatus e1 :: mid) -> printed s' = printed s)).
  { assert (Hpr : unkilled (AStatus e1) -> format_status (Some v) e1 jc = Some None) by (destruct He1; [reflexivity|intros []|discriminate]).
    destruct (format_status (Some v) e1 jc) as [[t|]|]; [| |contradiction].
    - destruct (G (print t (Jst jc false false (printed s))) eq_refl) as (ks1 & s1 & r1 & E1 & D1 & F1 & L1 & Q1).
      exists ks1, s1, r1. split; [exact E1|]. split; [exact D1|]. split; [exact F1|]. split; [exact L1|].
      intros U. inversion U as [|x y U1 _]; subst x y. discriminate (Hpr U1).
    - exact (G (Jst jc false false (printed s)) eq_refl). }
  destruct W as (ks1 & s1 & r1 & E1 & D1 & F1 & L1 & Q1). rewrite E1. clear E1 G Hnp Dj Hp.
  pose proof D1 as [_ _ _ _ _ (j1 & Ej1 & R1)]. rewrite Ej1, (ran_status _ _ _ _ R1). cbv zeta.
  destruct (_ || _)%bool.
  - unfold delete_async.
    destruct (deliver_borrowed_silent ks1 r1 (shell_delete_job id s1) F1 L1) as (ks2 & s2 & r2 & E2 & F2 & (B1 & _ & B3) & L2).
    rewrite E2. destruct (deliver_silent (Some v) ks2 r2 s2 F2) as (ks3 & s3 & r3 & E3 & F3 & (C1 & _ & C3) & L3); [lia|].
    rewrite E3. exists s3, r3. split; [reflexivity|]. split; [|intros U; rewrite C3, B3; exact (Q1 U)]. rewrite C1, B1. cbn [shell_delete_job jobs with_masked with_jobs].
    rewrite (delete_drops id pids e1 (jobs s) (jobs s1) D1 Hst). apply delete_dropped.
  - exists s1, r1. split; [reflexivity|]. split; [exact (delete_drops id pids e1 (jobs s) (jobs s1) D1 Hst)|exact Q1].
Qed.

(** ** Starting the processes *)

(** The last event is the start of a process, and every process started is known
    to belong to the job. *)
Lemma launch_known w id bg cs : forall i prev pip s s',
  launch w id bg i cs prev pip s = (OOk tt, s') -> basic (jobs (js (im s))) -> get_job id (jobs (js (im s))) <> None ->
  exists new, trace s' = new ++ trace s /\ (cs <> [] -> exists i c r new', new = EFork i c r :: new') /\
    (forall p, In p (PropertiesProgram.fork_pids new) -> p <> -1 -> nget p (pid_to_job (jobs (js (im s')))) = Some id) /\
    (forall p, nget p (pid_to_job (jobs (js (im s)))) = Some id -> nget p (pid_to_job (jobs (js (im s')))) = Some id).
Proof.
  induction cs as [|[p sc] cs IH]; intros i prev pip s s' H B Hj.
  - injection H as <-. exists []. split; [reflexivity|]. split; [intros E; contradiction|]. split; [intros p []|auto].
  - cbn [launch] in H. apply bind_inv_ok in H. destruct H as (pip1 & s1 & E1 & H).
    assert (K1 : js (im s1) = js (im s) /\ exists new, trace s1 = new ++ trace s /\ forks new = []).
    { destruct cs as [|pc cs].
      - injection E1 as _ <-. split; [reflexivity|]. exists []. split; reflexivity.
      - unfold make_pipe, bind, ask in E1. destruct (r_pipe (w (trace s))); [|discriminate]. injection E1 as _ <-. split; [reflexivity|].
        exists [EPipe (next_pipe (im s))]. split; reflexivity. }
    destruct K1 as (J1 & new1 & T1 & F1).
    apply bind_inv_ok in H. destruct H as (r & s2 & E2 & H).
    set (c := Child sc p prev pip1 bg) in *.
    assert (K2 : im s2 = im s1 /\ trace s2 = EFork (im s1) c r :: trace s1).
    { unfold fork_child, bind, ask, look, note, seq, ret in E2. injection E2 as <- <-. split; reflexivity. }
    destruct K2 as (I2 & T2). clear E2.
    apply seq_inv_ok in H. destruct H as (u3 & s3 & E3 & H).
    apply seq_inv_ok in H. destruct H as (u4 & s4 & E4 & H).
    apply seq_inv_ok in H. destruct H as (u5 & s5 & E5 & H).
    assert (K4 : js (im s4) = js (im s3) /\ trace s4 = trace s3).
    { destruct (Z.leb 0 prev); [|injection E4 as _ <-; split; reflexivity].
      unfold sys_close, try_ in E4. destruct (fd_close _ _); [|discriminate]. injection E4 as _ <-. split; reflexivity. }
    assert (K5 : js (im s5) = js (im s4) /\ trace s5 = trace s4).
    { unfold sys_close_ignored, change in E5. injection E5 as _ <-. cbn [im trace]. destruct (fd_close _ _); split; reflexivity. }
    destruct K4 as (J4 & T4). destruct K5 as (J5 & T5). rewrite J4 in J5. rewrite T4 in T5.
    assert (K3 : trace s3 = trace s2 /\ basic (jobs (js (im s3))) /\ get_job id (jobs (js (im s3))) <> None /\
      (forall q, r = Some q -> nget (Zpos q) (pid_to_job (jobs (js (im s3)))) = Some id) /\
      (forall p, nget p (pid_to_job (jobs (js (im s)))) = Some id -> nget p (pid_to_job (jobs (js (im s3)))) = Some id)).
    { rewrite <- J1 in Hj, B |- *. destruct r as [q|].
      - unfold on_jobs, change in E3. injection E3 as _ <-. cbn [im js with_js jobs with_jobs trace]. rewrite I2.
        split; [reflexivity|]. split; [apply started_basic, B|]. unfold started.
        destruct (get_job id (jobs (js (im s1)))) as [j|] eqn:Ej; [|contradiction].
        cbn [update_pid_table put_job pid_to_job job_table get_job].
        split; [unfold get_job; cbn; rewrite nget_ninsert by apply B; rewrite Z.eqb_refl; discriminate|].
        split; [intros q' E; injection E as <-|intros p' E]; rewrite nget_ninsert by apply B; [rewrite Z.eqb_refl; reflexivity|].
        destruct (Z.eqb _ _); [reflexivity|exact E].
      - injection E3 as _ <-. rewrite I2. split; [reflexivity|]. split; [exact B|]. split; [exact Hj|]. split; [discriminate|auto]. }
    destruct K3 as (T3 & B3 & G3 & P3 & M3).
    destruct (IH (S i) _ _ s5 s' H) as (new & R1 & R2 & R3 & R4); [rewrite J5; assumption..|].
    rewrite T5, T3, T2, T1 in R1.
    exists (new ++ EFork (im s1) c r :: new1). split; [rewrite R1, <- app_assoc; reflexivity|]. split.
    { intros _. destruct cs as [|pc cs].
      - injection H as <-. rewrite T5, T3, T2, T1 in R1. exists (im s1), c, r, new1.
        change (EFork (im s1) c r :: new1 ++ trace s) with ([] ++ EFork (im s1) c r :: new1 ++ trace s) in R1 at 1.
        apply app_inv_tail in R1. subst new. reflexivity.
      - destruct R2 as (i1 & c1 & r1 & new' & ->); [discriminate|]. eexists _, _, _, _. reflexivity. }
    rewrite J5 in R4. split.
    + intros x Hx Nx. unfold PropertiesProgram.fork_pids in Hx. rewrite forks_app, PropertiesWait.forks_cons, F1 in Hx.
      cbn [app map In snd] in Hx. destruct Hx as [Hx|Hx]; [|exact (R3 x Hx Nx)]. destruct r as [q|]; [|congruence]. subst x. apply R4, (P3 q eq_refl).
    + intros x Hx. apply R4, M3, Hx.
Qed.

(** The same processes are started in the same way if the shell differs in the flag
    only. *)
Section Launching.
Context (w : os) (qs : list positive) (tr : list event) (id : Z) (bg : bool).
Context (Hpipe : forall t, r_pipe (w t) = true).
Context (Hfork : forall new, (List.length (forks new) < List.length qs)%nat -> r_fork (w (new ++ tr)) = nth_error qs (List.length (forks new))).

Definition twin (k : nat) (s s' : shell) : Prop :=
  alike s s' /\ (exists a, trace s = a ++ tr /\ List.length (forks a) = k) /\ (exists a, trace s' = a ++ tr /\ List.length (forks a) = k).

Lemma alike_im s s' : alike s s' -> exists b, im s' = with_js (Jst (jobs (js (im s))) (masked (js (im s))) b (printed (js (im s)))) (im s).
Proof.
  intros [E (B1 & B2 & B3)]. exists (got_sigchld (js (im s'))). rewrite E at 1. f_equal. rewrite <- B1, <- B2, <- B3. destruct (js (im s')); reflexivity.
Qed.

Lemma launch_twin cs : forall i prev pip s s' s1 k, twin k s s' -> (k + List.length cs <= List.length qs)%nat ->
  launch w id bg i cs prev pip s = (OOk tt, s1) ->
  exists s1', launch w id bg i cs prev pip s' = (OOk tt, s1') /\ twin (k + List.length cs) s1 s1'.
Proof.
  induction cs as [|[p sc] cs IH]; intros i prev pip s s' s1 k (A & (a & Ta & Ka) & (a' & Ta' & Ka')) L H.
  - injection H as <-. exists s'. split; [reflexivity|]. rewrite Nat.add_0_r. split; [exact A|]. split; eauto.
  - cbn [launch] in H |- *.
    apply bind_inv_ok in H. destruct H as (pip1 & s2 & E2 & H).
    assert (K2 : exists s2', (match cs with [] => ret (fst pip, -1) | _ => make_pipe w end) s' = (OOk pip1, s2') /\ twin k s2 s2').
    { destruct cs as [|pc cs].
      - injection E2 as <- <-. exists s'. split; [reflexivity|]. split; [exact A|]. split; eauto.
      - unfold make_pipe, bind, ask in E2 |- *. rewrite Hpipe in *. injection E2 as <- <-.
        destruct (alike_im s s' A) as [b Eb]. rewrite Eb. eexists. split; [reflexivity|].
        split; [split; [reflexivity|repeat split]|].
        split; [exists (EPipe (next_pipe (im s)) :: a)|exists (EPipe (next_pipe (im s)) :: a')]; cbn [trace];
          (split; [rewrite ?Ta, ?Ta'; reflexivity|rewrite PropertiesWait.forks_cons, app_length; cbn; lia]). }
    clear E2 A Ta Ka Ta' Ka' a a'. destruct K2 as (s2' & E2 & (A & (a & Ta & Ka) & (a' & Ta' & Ka'))).
    rewrite (bind_ok _ _ _ _ _ E2). clear E2 s'.
    apply bind_inv_ok in H. destruct H as (r & s3 & E3 & H).
    cbn [List.length] in L.
    assert (Er : r = nth_error qs k) by (unfold fork_child, bind, ask, look, note, seq, ret in E3; injection E3 as <- _; rewrite Ta, <- Ka; apply Hfork; lia).
    assert (K3 : exists s3', fork_child w (Child sc p prev pip1 bg) s2' = (OOk r, s3') /\ twin (S k) s3 s3').
    { unfold fork_child, bind, ask, look, note, seq, ret in E3 |- *. injection E3 as _ <-.
      assert (Er' : r_fork (w (trace s2')) = r) by (rewrite Ta', Er, <- Ka'; apply Hfork; lia). rewrite Er'.
      eexists. split; [reflexivity|]. split; [exact A|].
      split; [eexists (EFork _ _ _ :: a)|eexists (EFork _ _ _ :: a')]; cbn [trace];
        (split; [rewrite ?Ta, ?Ta'; reflexivity|rewrite PropertiesWait.forks_cons, app_length; cbn; lia]). }
    clear E3 A Ta Ka Ta' Ka' a a'. destruct K3 as (s3' & E3 & (A & (a & Ta & Ka) & (a' & Ta' & Ka'))).
    rewrite (bind_ok _ _ _ _ _ E3). clear E3 s2 s2'.
    apply seq_inv_ok in H. destruct H as ([] & s4 & E4 & H).
    assert (K4 : exists s4', (match r with Some q => on_jobs (started id i (Zpos q)) | None => ret tt end) s3' = (OOk tt, s4') /\
      alike s4 s4' /\ trace s4 = trace s3 /\ trace s4' = trace s3').
    { destruct r as [q|].
      - unfold on_jobs, change in E4 |- *. injection E4 as <-. destruct (alike_im s3 s3' A) as [b Eb]. rewrite Eb.
        eexists. split; [reflexivity|]. split; [split; [reflexivity|repeat split]|]. split; reflexivity.
      - injection E4 as <-. exists s3'. auto. }
    destruct K4 as (s4' & F4 & A4 & T4 & T4'). rewrite (seq_ok _ _ _ _ _ F4). clear E4 F4 A.
    apply seq_inv_ok in H. destruct H as ([] & s5 & E5 & H).
    assert (K5 : exists s5', (if Z.leb 0 prev then sys_close prev else ret tt) s4' = (OOk tt, s5') /\
      alike s5 s5' /\ trace s5 = trace s4 /\ trace s5' = trace s4').
    { destruct (Z.leb 0 prev); [|injection E5 as <-; exists s4'; auto].
      unfold sys_close, try_ in E5 |- *. destruct (alike_im s4 s4' A4) as [b Eb]. rewrite Eb.
      cbn [fds with_js]. destruct (fd_close prev (fds (im s4))); [|discriminate]. injection E5 as <-.
      eexists. split; [reflexivity|]. split; [split; [reflexivity|repeat split]|]. split; reflexivity. }
    destruct K5 as (s5' & F5 & A5 & T5 & T5'). rewrite (seq_ok _ _ _ _ _ F5). clear E5 F5 A4.
    apply seq_inv_ok in H. destruct H as ([] & s6 & E6 & H).
    assert (K6 : exists s6', sys_close_ignored (snd pip1) s5' = (OOk tt, s6') /\
      alike s6 s6' /\ trace s6 = trace s5 /\ trace s6' = trace s5').
    { unfold sys_close_ignored, change in E6 |- *. destruct (alike_im s5 s5' A5) as [b Eb]. rewrite Eb.
      cbn [fds with_js]. injection E6 as <-. destruct (fd_close (snd pip1) (fds (im s5)));
      (eexists; split; [reflexivity|]; split; [split; [reflexivity|repeat split]|]; split; reflexivity). }
    destruct K6 as (s6' & F6 & A6 & T6 & T6'). rewrite (seq_ok _ _ _ _ _ F6). clear E6 F6 A5.
    cbn [List.length]. rewrite Nat.add_succ_r. apply (IH (S i) (fst pip1) pip1 s6 s6' s1 (S k)).
    + split; [exact A6|]. split; [exists a; split; [congruence|exact Ka]|exists a'; split; [congruence|exact Ka']].
    + lia.
    + exact H.
Qed.
End Launching.

(** ** The whole pipeline *)

(** A system that gives the processes of the next pipeline the numbers [qs] and
    makes pipes: after the last of them was started, [waitpid] reports [e1] for the
    first one (after any number of interrupted calls), then reports of the others
    that end, then nothing; otherwise there is nothing to report. *)
Record ending (w : os) (sg : point -> list event -> arrivals) (tr : list event) (qs : list positive)
    (n1 : nat) (e1 : wait_status) (mid rest : list answer) : Prop := {
  en_pipe : forall t, r_pipe (w t) = true;
  en_fork : forall new, (List.length (forks new) < List.length qs)%nat ->
    r_fork (w (new ++ tr)) = nth_error qs (List.length (forks new));
  en_waits : forall i c r new, List.length (forks (EFork i c r :: new)) = List.length qs ->
    r_waits (w ((EFork i c r :: new) ++ tr)) = repeat AIntr n1 ++ AStatus e1 :: mid ++ rest;
  en_first : match qs with q :: _ => event_of e1 (Zpos q) | [] => False end;
  en_ends : is_stopped e1 = false;
  en_mid : Forall (other (map Zpos qs)) mid;
  en_rest : Forall silent rest;
  en_starts : starts_undisturbed sg;
  en_wait : undisturbed sg PWait;
  en_enough : forall t, (load (sg PWait t) < List.length rest)%nat;
  en_silent : forall p t, at_rest_now t ->
    Forall silent (r_waits (w t)) /\ (load (sg p t) <= List.length (r_waits (w t)))%nat }.

(** Two shells that differ in the flag GOT_SIGCHLD, the history and what has been
    printed only. *)
Definition likewise (s s' : shell) : Prop :=
  im s' = with_js (js (im s')) (im s) /\ jobs (js (im s')) = jobs (js (im s)) /\ masked (js (im s')) = masked (js (im s)).

Section Pipe.
Context (w : os) (sg : point -> list event -> arrivals) (tr : list event) (qs : list positive).
Context (n1 : nat) (e1 : wait_status) (mid rest : list answer) (O : ending w sg tr qs n1 e1 mid rest).

Lemma finish_pipe id ps v s1 s1' :
  alike s1 s1' -> masked (js (im s1)) = true ->
  (exists i c r new, trace s1 = (EFork i c r :: new) ++ tr /\ List.length (forks (EFork i c r :: new)) = List.length qs) ->
  (exists i c r new, trace s1' = (EFork i c r :: new) ++ tr /\ List.length (forks (EFork i c r :: new)) = List.length qs) ->
  expand_var (cm (im s1)) (lit "PS4") = Some v ->
  nsorted (job_table (jobs (js (im s1)))) ->
  nget id (job_table (jobs (js (im s1)))) = Some (Job ps id StillAlive Running false false) ->
  map p_pid ps = map Zpos qs -> NoDup qs -> Forall (fun x => p_status x = None) ps ->
  (forall p, In p (map Zpos qs) -> nget p (pid_to_job (jobs (js (im s1)))) = Some id) ->
  (forall k j p, nget k (job_table (jobs (js (im s1)))) = Some j -> k <> id -> In p (map Zpos qs) -> at_rest p j) ->
  exists s0 s', finish w false id s1 = (OOk (status_after e1 (exit_status (im s1))), s0) /\
    finish_async w sg false id s1' = (OOk (status_after e1 (exit_status (im s1))), s') /\
    likewise s0 s' /\ (Forall unkilled (AStatus e1 :: mid) -> alike s0 s') /\ at_rest_now (trace s').
Proof.
  intros [Ai (B1 & B2 & B3)] Hm (i1 & c1 & r1 & new1 & T1 & K1) (i2 & c2 & r2 & new2 & T2 & K2) Hv Hs Hg Hps Hd Hn Hpid Hrest.
  assert (Hq : match ps with q :: _ => event_of e1 (p_pid q) | [] => False end).
  { pose proof (en_first _ _ _ _ _ _ _ _ O) as X. destruct qs as [|q l]; [contradiction|]. destruct ps as [|p ps']; [discriminate|].
    cbn in Hps. injection Hps as -> _. exact X. }
  assert (Hmid : Forall (other (map p_pid ps)) mid) by (rewrite Hps; apply O).
  assert (Hd' : NoDup (map p_pid ps)) by (rewrite Hps; apply PropertiesWait.map_pos_nodup, Hd).
  rewrite <- Hps in Hpid, Hrest.
  destruct (wait_pipe_async v id ps n1 e1 mid rest [] (js (im s1)) Hs Hg Hd' Hn Hpid Hrest Hq (en_ends _ _ _ _ _ _ _ _ O) Hmid
    (en_rest _ _ _ _ _ _ _ _ O)) as (t & u & W1 & W2 & W3); [constructor| |exact Hm|].
  { pose proof (en_enough _ _ _ _ _ _ _ _ O []). cbn. lia. }
  rewrite wait_quiet in W1.
  rewrite <- B1 in Hs, Hg, Hpid, Hrest.
  destruct (wait_pipe_async v id ps n1 e1 mid rest (arriving sg PWait s1') (js (im s1')) Hs Hg Hd' Hn Hpid Hrest Hq (en_ends _ _ _ _ _ _ _ _ O) Hmid
    (en_rest _ _ _ _ _ _ _ _ O)) as (t' & u' & V1 & V2 & V3); [| |congruence|].
  { pose proof (en_wait _ _ _ _ _ _ _ _ O (trace s1')). unfold arriving. destruct (_ && _)%bool; [assumption|constructor]. }
  { pose proof (en_enough _ _ _ _ _ _ _ _ O (trace s1')). unfold arriving. destruct (_ && _)%bool; [assumption|cbn; lia]. }
  unfold finish, finish_async.
  assert (X1 : wait_job w id s1 = (OOk e1, Shell (with_js t (im s1)) (EWait id :: trace s1))).
  { unfold wait_job. rewrite Hv. rewrite T1 at 1. rewrite (en_waits _ _ _ _ _ _ _ _ O _ _ _ _ K1), W1. reflexivity. }
  assert (X2 : wait_job_async w sg id s1' = (OOk e1, Shell (with_js t' (im s1')) (EWait id :: trace s1'))).
  { unfold wait_job_async. assert (Ec : cm (im s1') = cm (im s1)) by (rewrite Ai; reflexivity). rewrite Ec, Hv.
    rewrite T2 at 1. rewrite (en_waits _ _ _ _ _ _ _ _ O _ _ _ _ K2), V1. reflexivity. }
  set (s3 := Shell (with_js t (im s1)) (EWait id :: trace s1)) in *.
  set (s3' := Shell (with_js t' (im s1')) (EWait id :: trace s1')) in *.
  destruct (delete_silent w sg (en_silent _ _ _ _ _ _ _ _ O) id s3' I) as (s4' & D & [A4 (C1 & C2 & C3)] & R4).
  set (s4 := Shell (with_js (shell_delete_job id t) (im s1)) (EWait id :: trace s1)).
  assert (A5 : likewise s4 s4').
  { split; [|split].
    - rewrite A4. cbn [im s4 s3']. rewrite Ai. destruct (im s1); reflexivity.
    - rewrite C1. cbn. rewrite V2, W2, B1. reflexivity.
    - rewrite C2. reflexivity. }
  assert (P5 : Forall unkilled (AStatus e1 :: mid) -> printed (js (im s4')) = printed (js (im s4))).
  { intros U. rewrite C3. cbn. rewrite (V3 U), (W3 U). exact B3. }
  set (k := match e1 with Exited _ c => set_exit_status c | _ => ret tt end).
  assert (Hk : forall s, k s = (OOk tt, Shell (match e1 with Exited _ c => with_exit c (im s) | _ => im s end) (trace s))).
  { intros [i0 t0]. unfold k. destruct e1; reflexivity. }
  set (f := fun i => match e1 with Exited _ c => with_exit c i | _ => i end).
  assert (Ef : forall i, js (f i) = js i) by (intros i; unfold f; destruct e1; reflexivity).
  assert (Hx : exit_status (f (im s4)) = status_after e1 (exit_status (im s1))) by (unfold f; destruct e1; reflexivity).
  assert (Hx' : exit_status (f (im s4')) = status_after e1 (exit_status (im s1))).
  { rewrite <- Hx. destruct A5 as [A5 _]. rewrite A5. unfold f. destruct e1; destruct (im s4); reflexivity. }
  exists (Shell (with_js (with_masked false (js (f (im s4)))) (f (im s4))) (trace s4)),
    (Shell (with_js (with_masked false (js (f (im s4')))) (f (im s4'))) (trace s4')).
  assert (L : likewise (Shell (with_js (with_masked false (js (f (im s4)))) (f (im s4))) (trace s4))
    (Shell (with_js (with_masked false (js (f (im s4')))) (f (im s4'))) (trace s4'))).
  { destruct A5 as [A5 (G1 & G2)]. split.
    + cbn [im]. rewrite !Ef. cbn [js with_js]. rewrite A5 at 2. unfold f. destruct e1; destruct (im s4); reflexivity.
    + cbn [im js with_js]. rewrite !Ef. split; [exact G1|reflexivity]. }
  split; [|split; [|split; [exact L|split; [|exact R4]]]].
  - assert (E : (st <- wait_job w id ;; sh_delete_job id ;; match st with Exited _ c => set_exit_status c | _ => ret tt end) s1
      = (OOk tt, Shell (f (im s4)) (trace s4))).
    { rewrite (bind_ok _ _ _ _ _ X1). rewrite (seq_ok (sh_delete_job id) _ s3 tt s4 eq_refl). exact (Hk s4). }
    rewrite (seq_ok _ _ _ _ _ E). unfold interrupts_on, get_exit_code, seq, bind, change, look. cbn [im]. unfold with_js at 1. cbn [exit_status].
    rewrite Hx. reflexivity.
  - assert (E : (st <- wait_job_async w sg id ;; sh_delete_async w sg id ;; match st with Exited _ c => set_exit_status c | _ => ret tt end) s1'
      = (OOk tt, Shell (f (im s4')) (trace s4'))).
    { rewrite (bind_ok _ _ _ _ _ X2). rewrite (seq_ok _ _ _ _ _ D). exact (Hk s4'). }
    rewrite (seq_ok _ _ _ _ _ E).
    unfold interrupts_on, get_exit_code, seq, bind, change, look. cbn [im]. unfold with_js at 1. cbn [exit_status]. rewrite Hx'. reflexivity.
  - intros U. destruct L as (L1 & L2 & L3). split; [exact L1|]. split; [exact L2|]. split; [exact L3|].
    cbn [im js with_js printed with_masked]. rewrite !Ef. exact (P5 U).
Qed.
End Pipe.

Theorem pipeline_async w sg d b scs scs' s v qs n1 e1 mid rest : scs <> [] ->
  wf_pipeline (Pipeline b (map CSimple scs) false) -> Forall2 (program (im s)) scs scs' ->
  table (fds (im s)) -> basic (jobs (js (im s))) -> at_rest_now (trace s) ->
  ending w sg (trace s) qs n1 e1 mid rest -> List.length qs = List.length scs -> NoDup qs ->
  (forall k j p, nget k (job_table (jobs (js (im s)))) = Some j -> In p qs -> at_rest (Zpos p) j) ->
  expand_var (cm (im s)) (lit "PS4") = Some v ->
  let c := status_after e1 (exit_status (im s)) in
  exists s0 s', exec_text w (S d) (r_pipeline (Pipeline b (map CSimple scs) false)) s = (OOk c, s0) /\
    exec_text_async w sg (S d) (r_pipeline (Pipeline b (map CSimple scs) false)) s = (OOk c, s') /\
    likewise s0 s' /\ (Forall unkilled (AStatus e1 :: mid) -> alike s0 s').
Proof.
  intros Hne Hw HF Ht HB Hr O Hl Hd Hrest Hv c.
  assert (Hne' : scs' <> []) by (destruct HF; [congruence|discriminate]).
  assert (Hlen : List.length scs' = List.length scs) by (clear -HF; induction HF; cbn; congruence).
  rewrite exec_pipeline, exec_pipeline_async by exact Hw.
  rewrite (pipeline_programs w _ b scs scs' false s Hne HF), (programs_async w sg _ b scs scs' false s (su_functions _ (en_starts _ _ _ _ _ _ _ _ O)) Hne HF).
  destruct (signals_silent w sg (en_silent _ _ _ _ _ _ _ _ O) PStart s Hr) as (sA & EA & AA & RA).
  rewrite (seq_ok _ _ _ _ _ EA).
  rewrite run_job_split by (destruct scs'; [congruence|discriminate]).
  unfold bind at 1. rewrite run_job_async_split by (first [exact (en_starts _ _ _ _ _ _ _ _ O)|reflexivity|destruct scs'; [congruence|discriminate]]).
  destruct (PropertiesWait.launched_at w scs' s Hne' Ht HB (en_pipe _ _ _ _ _ _ _ _ O))
    as (s1 & ps & new & H1 & M1 & T1 & _ & F1 & _ & Hh & Cm & Ex & B1 & G1 & P1 & N1).
  set (id := next_job_id (jobs (js (im s)))) in *.
  assert (Q1 : quietly s sA) by (apply (quietly_signals w sg PStart s _ sA EA (or_introl eq_refl))).
  destruct Q1 as (_ & nA & TA & KA).
  assert (Aw : alike (PropertiesWait.before_launch scs' s) (PropertiesWait.before_launch scs' sA)).
  { destruct AA as [Ai (J1 & J2 & J3)]. split.
    - cbn [PropertiesWait.before_launch im launching blocked with_next_pipe with_fds with_js js]. unfold created.
      cbn [im blocked js with_js with_masked jobs]. rewrite J1, Ai. destruct (im s); reflexivity.
    - unfold created. repeat split; cbn; unfold created; cbn; rewrite ?J1; [reflexivity|exact J3]. }
  destruct (launch_twin w qs (trace s) id false (en_pipe _ _ _ _ _ _ _ _ O) (en_fork _ _ _ _ _ _ _ _ O) (map entry scs') 0 (-1) (-1, -1)
    (PropertiesWait.before_launch scs' s) (PropertiesWait.before_launch scs' sA) s1 0) as (s1' & H1' & A1 & _ & (nB & TB & KB)).
  { split; [exact Aw|]. split; [exists []; split; reflexivity|]. exists nA. split; [exact TA|]. rewrite KA. reflexivity. }
  { rewrite map_length. lia. }
  { exact H1. }
  assert (Eid : next_job_id (jobs (js (im (blocked sA)))) = id) by (destruct AA as [_ (J1 & _)]; cbn; rewrite J1; reflexivity).
  change (next_job_id (jobs (js (im (blocked s))))) with id. rewrite Eid.
  unfold seq at 1, bind at 1.
  match goal with |- context [launch w id false 0 (map entry scs') (-1) (-1, -1) ?x] => change x with (PropertiesWait.before_launch scs' s) end.
  rewrite H1.
  unfold seq at 1, bind at 1.
  match goal with |- context [launch w id false 0 (map entry scs') (-1) (-1, -1) ?x] => change x with (PropertiesWait.before_launch scs' sA) end.
  rewrite H1'.
  (* the state of the processes *)
  assert (Bc : basic (jobs (js (im (PropertiesWait.before_launch scs' s))))) by (apply create_basic; exact HB).
  assert (Gc : get_job id (jobs (js (im (PropertiesWait.before_launch scs' s)))) <> None).
  { change (jobs (js (im (PropertiesWait.before_launch scs' s)))) with (create_job (map fst (map entry scs')) false (jobs (js (im s)))).
    unfold get_job. rewrite create_get by exact HB. fold id. rewrite Z.eqb_refl. discriminate. }
  destruct (launch_known w id false (map entry scs') 0 (-1) (-1, -1) _ s1 H1 Bc Gc) as (new' & T1' & HN & HK & _).
  change (trace (PropertiesWait.before_launch scs' s)) with (trace s) in T1'.
  assert (new' = new) by (rewrite T1 in T1'; apply app_inv_tail in T1'; congruence). subst new'.
  assert (Bc' : basic (jobs (js (im (PropertiesWait.before_launch scs' sA))))) by (destruct Aw as [_ (Jw & _)]; rewrite Jw; exact Bc).
  assert (Gc' : get_job id (jobs (js (im (PropertiesWait.before_launch scs' sA)))) <> None) by (destruct Aw as [_ (Jw & _)]; rewrite Jw; exact Gc).
  destruct (launch_known w id false (map entry scs') 0 (-1) (-1, -1) _ s1' H1' Bc' Gc') as (newA & TA' & HNA & _ & _).
  change (trace (PropertiesWait.before_launch scs' sA)) with (trace sA) in TA'.
  assert (E2 : newA ++ nA = nB) by (rewrite TA', TA, app_assoc in TB; apply app_inv_tail in TB; exact TB).
  rewrite map_length in KB. cbn [Nat.add] in KB. rewrite <- E2 in KB.
  assert (Hpq : map p_pid ps = map Zpos qs).
  { rewrite P1, (PropertiesWait.honest_pids w (trace s) qs new (en_fork _ _ _ _ _ _ _ _ O) Hh) by lia. rewrite F1, Hlen, <- Hl, firstn_all. reflexivity. }
  assert (Hme : map entry scs' <> []) by (destruct scs'; [congruence|discriminate]).
  destruct (HN Hme) as (i1 & c1 & r1 & n1' & ->). destruct (HNA Hme) as (i2 & c2 & r2 & n2' & ->).
  destruct (finish_pipe w sg (trace s) qs n1 e1 mid rest O id ps v s1 s1' A1 M1) as (s0 & s' & E1 & E1' & L1 & L2 & L3).
  - exists i1, c1, r1, n1'. split; [exact T1|]. rewrite F1. lia.
  - exists i2, c2, r2, (n2' ++ nA). split; [rewrite TA', TA, app_assoc; reflexivity|]. cbn [app] in KB. rewrite KB. lia.
  - rewrite Cm. exact Hv.
  - apply B1.
  - rewrite G1, Z.eqb_refl. reflexivity.
  - exact Hpq.
  - exact Hd.
  - exact N1.
  - intros p Hp. apply HK; [rewrite <- P1, Hpq; exact Hp|]. apply in_map_iff in Hp. destruct Hp as (x & <- & _). discriminate.
  - intros k j p Hk Hn Hp. rewrite G1 in Hk. destruct (Z.eqb_spec k id); [contradiction|].
    apply in_map_iff in Hp. destruct Hp as (x & <- & Hx). exact (Hrest k j x Hk Hx).
  - rewrite Ex in E1, E1'.
    destruct (signals_silent w sg (en_silent _ _ _ _ _ _ _ _ O) PEnd s' L3) as (s5 & E5 & [A5 (J5 & M5 & P5)] & _).
    exists s0, s5. split; [exact E1|]. split; [rewrite E1'; unfold seq, bind; rewrite E5; reflexivity|].
    assert (Lw : likewise s0 s5).
    { destruct L1 as (L1a & L1b & L1c). split; [rewrite A5, L1a at 1; destruct (im s0); reflexivity|]. split; congruence. }
    split; [exact Lw|]. intros U. eapply alike_trans; [exact (L2 U)|]. split; [exact A5|]. repeat split; assumption.
Qed.
