(** The tables of process numbers and of jobs agree also when signals arrive in the
    middle of a command. *)
From Verif Require Import Base BaseFacts Ast Parser Context Alias Expand Jobs JobsSpec JobsFacts JobsLaws Shell Builtins Eval Async.
From Verif Require Import EvalSpec EvalFacts EvalLaws EvalKeeps EvalStack EvalJobs EvalPids EvalExact AsyncLaws.
From Verif Require Main PropertiesAsync.
Local Open Scope Z_scope.

Lemma step_numbers o s s' : calm o = true -> basic (jobs s) -> step o s = Some s' ->
  forall id l, numbers (jobs s') id = Some l -> numbers (jobs s) id = Some l.
Proof.
  intros C B Hst. pose proof (step_effect _ _ _ B Hst) as He. clear Hst.
  destruct He as [cmds bg|id i q|o jc Hm|fg killed id j Ej]; [discriminate|discriminate|exact (moves_numbers _ _ Hm B)|].
  intros k l. unfold numbers, put_job. cbn [job_table put_table]. rewrite nget_ninsert by apply B.
  unfold get_job in Ej. destruct (Z.eqb_spec k id) as [->|_]; [rewrite Ej|]; auto.
Qed.
Lemma went_numbers s s' : went s s' -> basic (jobs s) -> forall id l, numbers (jobs s') id = Some l -> numbers (jobs s) id = Some l.
Proof.
  intros (ops & C & H). revert s C H. induction ops as [|o ops IH]; intros s C H B id l E; cbn in *; [injection H as <-; exact E|].
  apply andb_true_iff in C. destruct C as [C1 C2]. destruct (step o s) as [s1|] eqn:E1; [|discriminate].
  eapply step_numbers; [exact C1|exact B|exact E1|]. apply (IH s1 C2 H); [|exact E].
  eapply effect_basic; [exact B|eapply step_effect; [exact B|exact E1]].
Qed.
Lemma went_exact s s' : went (js (im s)) (js (im s')) -> later (trace s) (trace s') -> ours s s'.
Proof.
  intros (ops & C & H) L X. destruct X as ([B D] & M & G). unfold exact.
  revert C H B D M G. generalize (js (im s)) as a. intros a C H B D M G.
  assert (K : (basic (jobs (js (im s'))) /\ distinct (jobs (js (im s')))) /\ (forall p, p <> -1 -> mine p (jobs (js (im s')))) /\
    forall p, p <> -1 -> nget p (pid_to_job (jobs (js (im s')))) <> None -> In p (given (trace s))).
  { revert a C H B D M G. generalize (js (im s')) as b. intros b. induction ops as [|o ops IH]; intros a C H B D M G; cbn in *; [injection H as <-; auto|].
    apply andb_true_iff in C. destruct C as [C1 C2]. destruct (step o a) as [a1|] eqn:E1; [|discriminate].
    assert (So : starts_one o = false) by (destruct o; [reflexivity|discriminate|reflexivity..]).
    apply (IH a1 C2 H).
    - eapply effect_basic; [exact B|eapply step_effect; [exact B|exact E1]].
    - eapply step_distinct; eassumption.
    - intros p Hp. eapply (step_mine p Hp); [exact So|exact B|apply M, Hp|exact E1].
    - intros p Hp Hk. apply G; [exact Hp|]. eapply step_keys; [exact Hp|exact So|exact B|exact E1|exact Hk]. }
  destruct K as (K1 & K2 & K3). split; [exact K1|]. split; [exact K2|]. intros p Hp Hk. apply (given_later _ _ L), K3; assumption.
Qed.
Lemma jobs_exact s s' : jobs_only s s' -> ours s s'.
Proof. intros (_ & W & L). exact (went_exact _ _ W L). Qed.

Section Launch.
Context (w : os) (sg : point -> list event -> arrivals) (Hnew : forall t q, r_fork (w t) = Some q -> ~ In (Zpos q) (given t)).

(** If the job is still there, its processes from the one with the index [i] have no
    number yet. *)
Definition awaits (id : Z) (i m : nat) (s : shell) : Prop :=
  forall l, numbers (jobs (js (im s))) id = Some l -> List.length l = (i + m)%nat /\ forall n p, (i <= n)%nat -> nth_error l n = Some p -> p = -1.
Definition goes (id : Z) (i m : nat) (s s' : shell) : Prop := exact s /\ awaits id i m s -> exact s' /\ awaits id i m s'.
Lemma goes_pre id i m : preorder (goes id i m).
Proof. constructor; unfold goes; auto. Qed.
Lemma goes_jobs id i m s s' : jobs_only s s' -> goes id i m s s'.
Proof.
  intros J (X & W). split; [exact (jobs_exact _ _ J X)|]. destruct J as (_ & J & _). intros l E. apply W. eapply went_numbers; [exact J|apply X|exact E].
Qed.
Lemma goes_same id i m s s' : js (im s') = js (im s) -> later (trace s) (trace s') -> goes id i m s s'.
Proof. intros E L (X & W). split; [exact (ours_same _ _ E L X)|]. unfold awaits. rewrite E. exact W. Qed.
Lemma awaits_next id i m s : awaits id i (S m) s -> awaits id (S i) m s.
Proof. intros W l E. destruct (W l E) as [H1 H2]. split; [lia|]. intros n p Hn. apply H2. lia. Qed.
Lemma map_set_pid_at i p ps : map p_pid (set_pid_at i p ps) = firstn i (map p_pid ps) ++ match skipn i (map p_pid ps) with [] => [] | _ :: r => p :: r end.
Proof. revert i. induction ps as [|x ps IH]; intros [|i]; cbn; try reflexivity. rewrite IH. reflexivity. Qed.

(** A number the system just gave is entered. *)
Lemma enter_exact id i m s q : basic (jobs (js (im s))) -> distinct (jobs (js (im s))) -> (forall p, p <> -1 -> mine p (jobs (js (im s)))) ->
  (forall p, p <> -1 -> nget p (pid_to_job (jobs (js (im s)))) <> None -> In p (given (trace s)) /\ p <> Zpos q) ->
  In (Zpos q) (given (trace s)) -> awaits id i (S m) s ->
  let s' := Shell (with_js (with_jobs (started id i (Zpos q) (jobs (js (im s)))) (js (im s))) (im s)) (trace s) in
  exact s' /\ awaits id (S i) m s'.
Proof.
  intros B D H1 H2 Hq Hw s'. unfold s'. destruct (get_job id (jobs (js (im s)))) as [j|] eqn:Ej.
  2:{ assert (E : started id i (Zpos q) (jobs (js (im s))) = jobs (js (im s))) by (unfold started; rewrite Ej; reflexivity).
      unfold exact, awaits. cbn [im trace js with_js jobs with_jobs]. rewrite E. split; [|apply awaits_next in Hw; exact Hw].
      split; [split; assumption|]. split; [exact H1|]. intros p Hp Hk. apply (H2 p Hp Hk). }
  assert (Hno : forall k j1, nget k (job_table (jobs (js (im s)))) = Some j1 -> ~ has_pid (Zpos q) j1).
  { intros k j1 E1 Hh.
    assert (X : nget (Zpos q) (pid_to_job (jobs (js (im s)))) = Some k) by (apply H1; [discriminate|exists j1; split; assumption]).
    destruct (H2 (Zpos q)) as [_ F]; [discriminate|rewrite X; discriminate|]. apply F. reflexivity. }
  unfold get_job in Ej. destruct (Hw (map p_pid (processes j))) as [Hlen Hfree]; [unfold numbers; rewrite Ej; reflexivity|].
  rewrite map_length in Hlen.
  destruct (nth_error (processes j) i) as [x|] eqn:Ex; [|apply nth_error_None in Ex; lia].
  pose proof (Hfree i (p_pid x) (Nat.le_refl i) (map_nth_error p_pid i _ Ex)) as Hx.
  split.
  - split; [split; [apply started_basic, B|exact (started_distinct id i (Zpos q) _ B D Hno)]|]. split.
    + intros p Hp. refine (_ : mine p (started id i (Zpos q) (jobs (js (im s))))).
      assert (P : pids_ok (jobs (with_jobs (started id i (Zpos q) (jobs (js (im s)))) (js (im s))))).
      { eapply (step_pids (OStart id i (Zpos q)) (js (im s)) _ B); [intros p1 k1 Hp1; apply (H1 p1 Hp1)| |reflexivity].
        split; [reflexivity|]. split; [|exists j, x; split; [exact Ej|split; assumption]].
        intros (k1 & j1 & q1 & F1 & F2 & F3). apply (Hno k1 j1 F1). exists q1. split; assumption. }
      intros k. exact (P p k Hp).
    + intros p Hp Hk. cbn [trace]. destruct (Z.eq_dec p (Zpos q)) as [->|N]; [exact Hq|]. apply H2; [exact Hp|].
      revert Hk. change (nget p (pid_to_job (started id i (Zpos q) (jobs (js (im s))))) <> None -> nget p (pid_to_job (jobs (js (im s)))) <> None).
      unfold started, get_job. rewrite Ej. cbn [pid_to_job update_pid_table put_job].
      rewrite nget_ninsert by apply B. destruct (Z.eqb_spec p (Zpos q)); [congruence|auto].
  - intros l. change (numbers (started id i (Zpos q) (jobs (js (im s)))) id = Some l -> List.length l = (S i + m)%nat /\ forall n p, (S i <= n)%nat -> nth_error l n = Some p -> p = -1).
    unfold numbers. rewrite (started_get _ _ _ _ j _ B Ej), Z.eqb_refl. cbn [option_map with_processes processes]. intros E. injection E as <-.
    split; [rewrite map_length, set_pid_at_length; lia|]. intros n p Hn E. apply (Hfree n p); [lia|].
    rewrite nth_error_map in E |- *. rewrite set_pid_at_after in E by lia. exact E.
Qed.

(** Between the fork and the entry the number is given, and in no table. *)
Definition pending (id : Z) (i m : nat) (r : option positive) (s : shell) : Prop :=
  exact s /\ awaits id i m s /\
  match r with Some q => In (Zpos q) (given (trace s)) /\ nget (Zpos q) (pid_to_job (jobs (js (im s)))) = None | None => True end.
Lemma went_keys s s' p : p <> -1 -> went s s' -> basic (jobs s) -> nget p (pid_to_job (jobs s)) = None -> nget p (pid_to_job (jobs s')) = None.
Proof.
  intros Hp (ops & C & H). revert s C H. induction ops as [|o ops IH]; intros s C H B E; cbn in *; [injection H as <-; exact E|].
  apply andb_true_iff in C. destruct C as [C1 C2]. destruct (step o s) as [s1|] eqn:E1; [|discriminate].
  apply (IH s1 C2 H); [eapply effect_basic; [exact B|eapply step_effect; [exact B|exact E1]]|].
  destruct (nget p (pid_to_job (jobs s1))) as [x|] eqn:Ex; [|reflexivity]. exfalso.
  apply (step_keys o s s1 p Hp) in E1; [congruence| |exact B|congruence]. destruct o; [reflexivity|discriminate|reflexivity..].
Qed.
Lemma pending_jobs id i m r s s' : jobs_only s s' -> pending id i m r s -> pending id i m r s'.
Proof.
  intros J (X & W & P). destruct (goes_jobs id i m _ _ J (conj X W)) as [X' W']. split; [exact X'|]. split; [exact W'|].
  destruct r as [q|]; [|exact I]. destruct P as [P1 P2]. destruct J as (_ & J & L). split; [apply (given_later _ _ L), P1|].
  eapply went_keys; [discriminate|exact J|apply X|exact P2].
Qed.
Lemma fork_pending id i m c s o s' : fork_child w c s = (o, s') -> exact s -> awaits id i m s -> exists r, o = OOk r /\ pending id i m r s'.
Proof.
  intros H X W. unfold fork_child, ask, bind, look, note, seq, ret, bind in H. injection H as <- <-.
  exists (r_fork (w (trace s))). split; [reflexivity|]. split; [|split; [exact W|]].
  - revert X. apply ours_same; [reflexivity|eexists [_]; reflexivity].
  - destruct (r_fork (w (trace s))) as [q|] eqn:Eq; [|exact I]. cbn [trace im js]. split; [left; reflexivity|].
    destruct (nget (Zpos q) (pid_to_job (jobs (js (im s))))) as [k|] eqn:E; [|reflexivity]. exfalso.
    apply (Hnew _ _ Eq). apply X; [discriminate|congruence].
Qed.
Lemma enter_pending id i m r s o s' : start_one id i r s = (o, s') -> pending id i (S m) r s -> o = OOk tt /\ exact s' /\ awaits id (S i) m s'.
Proof.
  intros H (([B D] & M & G) & W & P). destruct r as [q|]; cbn [start_one] in H.
  - destruct P as [P1 P2]. unfold on_jobs, change in H. injection H as <- <-. split; [reflexivity|].
    apply enter_exact; try assumption. intros p Hp Hk. split; [apply G; assumption|]. intros ->. apply Hk, P2.
  - injection H as <- <-. split; [reflexivity|]. split; [split; [split; assumption|split; assumption]|apply awaits_next, W].
Qed.
Lemma launch_async_exact id bg cs : forall i prev pip s o s', launch_async w sg id bg i cs prev pip s = (o, s') ->
  exact s -> awaits id i (List.length cs) s -> exact s'.
Proof.
  induction cs as [|[p0 sc] cs IH]; intros i prev pip s o s' H X W; cbn [launch_async List.length] in *.
  - injection H as <- <-. exact X.
  - assert (K1 : forall pip1 : Z * Z, keeps true (goes id i (S (List.length cs))) (match cs with [] => ret (fst pip1, -1) | _ => make_pipe w end)).
    { intros pip1. destruct cs; [apply (keeps_ret _ _ (goes_pre _ _ _))|]. unfold make_pipe. repeat keep_step (goes_pre id i (S (List.length (p :: cs)))).
      apply keeps_raw. intros s0. apply goes_same; same_or_grown. }
    apply bind_inv in H. destruct H as [(pip' & s1 & H1 & H)|(o1 & H1 & F & ->)].
    2:{ apply (K1 pip _ _ _ H1 (or_introl eq_refl) (conj X W)). }
    destruct (K1 pip _ _ _ H1 (or_introl eq_refl) (conj X W)) as [X1 W1].
    apply bind_inv in H. destruct H as [(r & s2 & H2 & H)|(o1 & H2 & F & ->)].
    2:{ destruct (fork_pending id i _ _ _ _ _ H2 X1 W1) as (r & -> & _). destruct F. }
    destruct (fork_pending id i _ _ _ _ _ H2 X1 W1) as (r' & Er & P2). injection Er as <-.
    apply seq_inv in H. destruct H as [([] & s3 & H3 & H)|(o1 & H3 & F & ->)].
    2:{ apply (pending_jobs _ _ _ _ _ _ (signals_job_jobs _ _ _ _ _ _ _ H3) P2). }
    pose proof (pending_jobs _ _ _ _ _ _ (signals_job_jobs _ _ _ _ _ _ _ H3) P2) as P3.
    change (match r with Some q => on_jobs (started id i (Z.pos q)) | None => ret tt end) with (start_one id i r) in H.
    apply seq_inv in H. destruct H as [([] & s4 & H4 & H)|(o1 & H4 & F & ->)].
    2:{ destruct (enter_pending _ _ _ _ _ _ _ H4 P3) as (-> & _). destruct F. }
    destruct (enter_pending _ _ _ _ _ _ _ H4 P3) as (_ & X4 & W4).
    assert (K : keeps true (goes id (S i) (List.length cs)) (signals_job w sg PEntered id)).
    { intros a b c E _. apply goes_jobs. eapply signals_job_jobs; exact E. }
    apply seq_inv in H. destruct H as [([] & s5 & H5 & H)|(o1 & H5 & F & ->)].
    2:{ apply (K _ _ _ H5 (or_introl eq_refl) (conj X4 W4)). }
    destruct (K _ _ _ H5 (or_introl eq_refl) (conj X4 W4)) as [X5 W5].
    assert (K2 : keeps true (goes id (S i) (List.length cs)) (if Z.leb 0 prev then sys_close prev else ret tt)).
    { destruct (Z.leb 0 prev); [|apply (keeps_ret _ _ (goes_pre _ _ _))]. unfold sys_close. apply (keeps_try _ _ (goes_pre _ _ _)). intros s0 y Hy. destruct (fd_close _ _); [|discriminate].
      injection Hy as <-. apply goes_same; same_or_grown. }
    apply seq_inv in H. destruct H as [([] & s6 & H6 & H)|(o1 & H6 & F & ->)].
    2:{ apply (K2 _ _ _ H6 (or_introl eq_refl) (conj X5 W5)). }
    destruct (K2 _ _ _ H6 (or_introl eq_refl) (conj X5 W5)) as [X6 W6].
    assert (K3 : keeps true (goes id (S i) (List.length cs)) (sys_close_ignored (snd pip'))).
    { apply keeps_change. intros s0. apply goes_same; [apply close_ignored_js|grown]. }
    apply seq_inv in H. destruct H as [([] & s7 & H7 & H)|(o1 & H7 & F & ->)].
    2:{ apply (K3 _ _ _ H7 (or_introl eq_refl) (conj X6 W6)). }
    destruct (K3 _ _ _ H7 (or_introl eq_refl) (conj X6 W6)) as [X7 W7].
    exact (IH _ _ _ _ _ _ H X7 W7).
Qed.
Lemma run_job_async_exact bg cs : Forall fresh cs -> keepo (run_job_async w sg bg cs).
Proof.
  intros Hf. destruct (fresh_new _ Hf) as [cmds Ec].
  intros s o s' H _ X. pose proof (proj1 (proj1 X)) as Hb. unfold run_job_async in H.
  unfold bind at 1, look in H. unfold seq at 1, bind at 1, on_jobs, change in H. rewrite Ec in H. cbv beta iota in H.
  set (id := next_job_id (jobs (js (im s)))) in *.
  match type of H with _ ?x = _ => set (s1 := x) in * end.
  assert (X1 : exact s1) by (revert X; apply ours_one with (OCreate cmds bg); same_or_grown).
  assert (L1 : awaits id 0 (List.length cs) s1).
  { intros l. unfold numbers. cbn [s1 im js with_js with_jobs jobs]. rewrite create_get by exact Hb. fold id. rewrite Z.eqb_refl.
    cbn [option_map job_new processes]. intros E. injection E as <-. split; [rewrite map_length, <- Ec, map_length; reflexivity|].
    intros n p _ Hq. apply nth_error_In in Hq. eapply new_pids; exact Hq. }
  apply seq_inv in H. destruct H as [([] & s2 & H1 & H2)|(o1 & H1 & F & ->)].
  2: { exact (launch_async_exact _ _ _ _ _ _ _ _ _ H1 X1 L1). }
  pose proof (launch_async_exact _ _ _ _ _ _ _ _ _ H1 X1 L1) as X2. clear H1.
  revert X2. revert H2. generalize s2. clear. intros s2 H2.
  revert s2 o s' H2.
  match goal with |- forall s2 o s', ?m s2 = _ -> _ => enough (K : keepo m) by (intros s2 o s' H; exact (K s2 o s' H (or_introl eq_refl))) end.
  repeat keep_step ours_pre; try exact (keeps_look _ _ ours_pre (fun i => get_job id (jobs (js i)))); try (apply ka_delete; exact jobs_exact); try (apply ka_wait; exact jobs_exact); try apply (keeps_look _ _ ours_pre);
    apply keeps_change; intros s3; first [apply ours_same; [reflexivity|grown] | eapply ours_one with (OPrint _); [reflexivity|grown|reflexivity] | eapply ours_one with (OMask _); [reflexivity|grown|reflexivity]].
Qed.
Theorem evaluate_async_exact n l : keepo (evaluate_async w sg n l).
Proof.
  apply (ka_evaluate ours ours_pre true jobs_exact).
  - intros rec Hr cs. apply ko_builtin. exact Hr.
  - intros name b. ko.
  - intros rec Hr cs. apply ko_run_functions. exact Hr.
  - apply run_job_async_exact.
Qed.
End Launch.

Theorem main_async_exact w sg (Hnew : forall t q, r_fork (w t) = Some q -> ~ In (Zpos q) (given t)) n k args ins : keepo (main_async w sg n k args ins).
Proof.
  apply (PropertiesAsync.ks_main_async _ _ ours_pre).
  - apply (evaluate_exact w Hnew).
  - apply (evaluate_async_exact w sg Hnew).
  - intros A f bad m Hb Hm. apply (keeps_bind _ _ ours_pre); [apply ko_open|].
    intros [h|]; [apply ko_while; exact Hm|exact Hb].
  - intros s t f E. apply ours_same; same_or_grown.
  - intros t. apply keeps_change. intros s. apply ours_one with (o := OPrint t); same_or_grown.
  - apply keeps_change. intros s. apply ours_same; same_or_grown.
  - intros f. apply (keeps_try_cm _ _ _ ours_pre). intros s m E. apply ours_same; same_or_grown.
  - apply keeps_change. intros s. apply ours_same; same_or_grown.
  - apply keeps_raw. intros s. apply ours_same; same_or_grown.
  - apply keeps_raw. intros s. unfold child_signal_async.
    destruct (_ || _)%bool; [apply ours_same; same_or_grown|].
    destruct (deliver _ _ _ _) as [x j r| |] eqn:E; [|apply ours_same; same_or_grown|apply ours_same; same_or_grown].
    apply deliver_went in E. apply went_exact; [exact E|same_or_grown].
  - intros f. apply ko_open.
Qed.
