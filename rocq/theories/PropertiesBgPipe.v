(** A pipeline in the background that ends while the shell is at the prompt
    (C84). *)
From Verif Require Import Base BaseFacts Ast Parser Context Expand Jobs JobsSpec JobsFacts JobsWait JobsPipe Shell Eval EvalLaws.
From Verif Require Import Main MainSpec MainLaws PropertiesEval PropertiesMain PropertiesSession Async AsyncRun.
Local Open Scope Z_scope.

(** Job [id] is a pipeline in the background, of the processes [q :: ps], none of
    which has reported anything; the other jobs have been seen to end or to stop. *)
Record going (jc : job_control) (id : Z) (q : process) (ps : list process) : Prop := {
  g_sorted : nsorted (job_table jc);
  g_job : exists j, nget id (job_table jc) = Some j /\ job_id j = id /\ state j = Running /\ background j = true /\ processes j = q :: ps;
  g_several : ps <> [];
  g_pids : NoDup (map p_pid (q :: ps));
  g_new : Forall (fun x => p_status x = None) (q :: ps);
  g_known : forall x, In x (q :: ps) -> nget (p_pid x) (pid_to_job jc) = Some id;
  g_others : forall k j x, nget k (job_table jc) = Some j -> k <> id -> In x (q :: ps) -> at_rest (p_pid x) j }.

Lemma set_status_report p e ps : NoDup (map p_pid ps) -> set_status_in p e ps = map (report p e) ps.
Proof.
  induction ps as [|x l IH]; intros Hd; cbn; [reflexivity|]. inversion Hd as [|? ? Hn Hd']; subst. unfold report at 1.
  destruct (Z.eqb_spec (p_pid x) p) as [E|E]; [|rewrite IH by exact Hd'; reflexivity].
  f_equal. symmetry. apply report_id. unfold has_pidb. destruct (existsb _ l) eqn:Ex; [|reflexivity].
  exfalso. apply Hn. apply existsb_exists in Ex. destruct Ex as (y & Hy & Ey). apply Z.eqb_eq in Ey. rewrite E, <- Ey. apply in_map, Hy.
Qed.

(** What the handler goes on to do. *)
Lemma handler_waits ps4 e x s id q ps : going (jobs s) id q ps -> event_of e (p_pid x) -> In x (q :: ps) ->
  exists s1 j1, (forall r, sig_chld ps4 (AStatus e :: r) s =
      match wait_for_job ps4 id r (with_masked true s1) with
      | WDone _ s2 r' => WDone tt (with_masked (masked s) s2) r'
      | WPanic => WPanic
      | WBlock => WBlock
      end) /\
    nsorted (job_table (jobs s1)) /\ nget id (job_table (jobs s1)) = Some j1 /\ job_id j1 = id /\ state j1 = Running /\
    background j1 = true /\ processes j1 = map (report (p_pid x) e) (q :: ps) /\ got_sigchld s1 = true /\
    pid_to_job (jobs s1) = pid_to_job (jobs s) /\
    (forall k, k <> id -> nget k (job_table (jobs s1)) = nget k (job_table (jobs s))).
Proof.
  intros [Hs (j & Hg & Hid & Hr & Hb & Ep) Hm Hd Hn Hk Ho] He Hx.
  set (j1 := set_process_status (p_pid x) e j).
  assert (P1 : processes j1 = map (report (p_pid x) e) (q :: ps)).
  { unfold j1, set_process_status, with_processes. cbn [processes]. rewrite Ep. apply set_status_report, Hd. }
  set (s0 := with_jobs (put_job id j1 (jobs s)) (with_sigchld true s)).
  assert (G1 : forall k, nget k (job_table (put_job id j1 (jobs s))) = if Z.eqb k id then Some j1 else nget k (job_table (jobs s))).
  { intros k. unfold put_job. cbn. apply nget_ninsert, Hs. }
  exists (match e with
     | Signaled _ _ _ => print (lit "Job [" ++ Z_to_str (job_id j) ++ lit "] (" ++ Z_to_str (p_pid x) ++ lit ") " ++ lit "terminated by signal") s0
     | Stopped _ _ => print (lit "Job [" ++ Z_to_str (job_id j) ++ lit "] (" ++ Z_to_str (p_pid x) ++ lit ") " ++ lit "stopped by signal") s0
     | _ => s0 end), j1.
  assert (E0 : forall t, jobs (print t s0) = jobs s0) by reflexivity.
  split.
  - intros r. pose proof (Hk x Hx) as Hkx. unfold sig_chld. cbn [jobs with_sigchld]. remember (p_pid x) as px.
    assert (Lone : forall (A : Type) (f : A) g, match processes j1 with [_] => f | _ => g end = g).
    { intros A f g. rewrite P1. destruct ps as [|x2 ps2]; [contradiction|]. reflexivity. }
    assert (Gi : get_job id (put_job id j1 (jobs s)) = Some j1) by (unfold get_job; rewrite G1, Z.eqb_refl; reflexivity).
    destruct He; rewrite Hkx; unfold get_job at 1; rewrite Hg, Hb; unfold wait_for_job_sigchld; cbn [jobs with_jobs print s0];
      fold j1; rewrite Gi, Lone; fold s0;
      match goal with |- context [wait_for_job ps4 id r ?z] => destruct (wait_for_job ps4 id r z) as [a s2 r2| |] end; reflexivity.
  - assert (X : forall z, jobs z = jobs s0 -> got_sigchld z = true ->
      nsorted (job_table (jobs z)) /\ nget id (job_table (jobs z)) = Some j1 /\ job_id j1 = id /\ state j1 = Running /\
      background j1 = true /\ processes j1 = map (report (p_pid x) e) (q :: ps) /\ got_sigchld z = true /\
      pid_to_job (jobs z) = pid_to_job (jobs s) /\
      (forall k, k <> id -> nget k (job_table (jobs z)) = nget k (job_table (jobs s)))).
    { intros z E Z. rewrite E. unfold s0. cbn [jobs with_jobs].
      split; [apply nsorted_ninsert, Hs|]. split; [rewrite G1, Z.eqb_refl; reflexivity|].
      split; [exact Hid|]. split; [exact Hr|]. split; [exact Hb|]. split; [exact P1|]. split; [exact Z|]. split; [reflexivity|].
      intros k N. rewrite G1. destruct (Z.eqb_spec k id); [contradiction|reflexivity]. }
    destruct He; apply X; reflexivity.
Qed.

(** The wait in the handler, once the first process has reported. *)
Lemma led_after id q ps e1 j : NoDup (map p_pid (q :: ps)) -> event_of e1 (p_pid q) ->
  job_id j = id -> state j = Running -> processes j = map (report (p_pid q) e1) (q :: ps) ->
  led id (map p_pid (q :: ps)) e1 (with_stop_status e1 j).
Proof.
  intros Hd He Hid Hr Ep.
  constructor; cbn [with_stop_status job_id processes stop_status state]; auto.
  - rewrite Ep. apply report_pids.
  - rewrite Ep. cbn. unfold report. rewrite Z.eqb_refl. reflexivity.
  - intros _. rewrite Hr. discriminate.
Qed.
Lemma fresh_after q ps e1 x : NoDup (map p_pid (q :: ps)) -> Forall (fun x => p_status x = None) (q :: ps) -> In x ps ->
  exists y, In y (map (report (p_pid q) e1) (q :: ps)) /\ p_pid y = p_pid x /\ p_status y = None.
Proof.
  intros Hd Hn Hx. exists x. split; [|split; [reflexivity|]].
  - right. apply in_map_iff. exists x. split; [|exact Hx]. apply report_other. intros E. cbn in Hd. inversion Hd as [|? ? N _]; subst.
    apply N. rewrite <- E. apply in_map, Hx.
  - rewrite Forall_forall in Hn. apply Hn. right. exact Hx.
Qed.

(** The end of the wait. *)
Lemma wait_again v id n2 e2 es x xs m a rest s1 j1 q ps e1 :
  NoDup (map p_pid (q :: ps)) -> Forall (fun x => p_status x = None) (q :: ps) -> event_of e1 (p_pid q) ->
  nsorted (job_table (jobs s1)) -> nget id (job_table (jobs s1)) = Some j1 -> job_id j1 = id -> state j1 = Running ->
  processes j1 = map (report (p_pid q) e1) (q :: ps) ->
  (forall k j' y, nget k (job_table (jobs s1)) = Some j' -> k <> id -> In y (q :: ps) -> at_rest (p_pid y) j') ->
  event_of e2 (p_pid x) -> Forall2 (fun ne y => event_of (snd ne) (p_pid y)) es xs -> NoDup (map p_pid (x :: xs)) -> incl (x :: xs) ps ->
  a = AFail \/ a = AStatus StillAlive ->
  exists s' j', do_wait (Some v) id (answers ((n2, e2) :: es) (repeat AIntr m ++ a :: rest)) s1 = WDone tt s' rest /\
    nsorted (job_table (jobs s')) /\ nget id (job_table (jobs s')) = Some j' /\ led id (map p_pid (q :: ps)) e1 j' /\
    (forall k, k <> id -> nget k (job_table (jobs s')) = nget k (job_table (jobs s1))).
Proof.
  intros Hd Hn He1 Hs Hg Hid Hr Ep Ho He2 HF Hq Hi Ha.
  pose proof (led_after id q ps e1 j1 Hd He1 Hid Hr Ep) as L.
  assert (Hx : In x ps) by (apply Hi; left; reflexivity).
  destruct (led_hit id (map p_pid (q :: ps)) e1 (with_stop_status e1 j1) (p_pid x) e2 L Hd He2) as (F1 & F2 & F3 & F4 & F5).
  { cbn [with_stop_status processes]. rewrite Ep. apply fresh_after; assumption. }
  change (hit_job (p_pid x) e2 e1 (with_stop_status e1 j1)) with (hit_job (p_pid x) e2 e1 j1) in *.
  cbn [with_stop_status processes] in F1, F5.
  unfold do_wait, get_job. rewrite Hg, Hr. cbn [state_eqb negb andb]. set (as_ := answers ((n2, e2) :: es) _).
  assert (Hfuel : exists f, List.length as_ = S f /\ (List.length es < f)%nat).
  { unfold as_. pose proof (length_answers es (repeat AIntr m ++ a :: rest)) as L'. rewrite app_length in L'. cbn [List.length] in L'.
    exists (n2 + List.length (answers es (repeat AIntr m ++ a :: rest)))%nat.
    cbn [answers fold_right fst snd]. fold (answers es (repeat AIntr m ++ a :: rest)). rewrite app_length, repeat_length. cbn [List.length]. lia. }
  destruct Hfuel as (f & -> & Hf). cbn [wait_loop].
  unfold as_. cbn [answers fold_right fst snd]. fold (answers es (repeat AIntr m ++ a :: rest)).
  assert (Hu : unfinished j1) by (unfold unfinished; rewrite Hr; intros [E|E]; discriminate).
  destruct (wait_one_own v id n2 e2 (p_pid x) (answers es (repeat AIntr m ++ a :: rest)) s1 j1 e1 He2 Hs Hg Hid Hu F3 F1
    (fun k j' E N => Ho k j' x E N (or_intror Hx))) as (s2 & W1 & W2 & _).
  rewrite W1.
  assert (G1 : forall k, nget k (job_table (jobs s2)) = if Z.eqb k id then Some (hit_job (p_pid x) e2 e1 j1) else nget k (job_table (jobs s1))).
  { intros k. rewrite W2. apply nget_ninsert, Hs. }
  destruct (wait_rest v id (map p_pid (q :: ps)) e1 m a rest Hd Ha es (map p_pid xs) (S f) s2 (hit_job (p_pid x) e2 e1 j1))
    as (s' & j' & R1 & R2 & R3 & R4 & R5).
  - lia.
  - clear -HF. induction HF; cbn; constructor; auto.
  - inversion Hq; assumption.
  - rewrite W2. apply nsorted_ninsert, Hs.
  - rewrite G1, Z.eqb_refl. reflexivity.
  - exact F4.
  - intros p Hp. apply in_map_iff in Hp. destruct Hp as (y & <- & Hy).
    destruct (fresh_after q ps e1 y Hd Hn (Hi y (or_intror Hy))) as (z & Z1 & Z2 & Z3). exists z. split; [|auto].
    apply F5; [|rewrite Ep; exact Z1]. rewrite Z2. intros E. cbn in Hq. inversion Hq as [|? ? N _]; subst. apply N. rewrite <- E. apply in_map, Hy.
  - intros k j' p E N Hp. rewrite G1 in E. destruct (Z.eqb_spec k id); [contradiction|].
    apply in_map_iff in Hp. destruct Hp as (y & <- & Hy). apply Ho with k; assumption.
  - exists s', j'. split; [exact R1|]. split; [exact R2|]. split; [exact R3|]. split; [exact R4|].
    intros k Hk. rewrite (R5 k Hk), G1. destruct (Z.eqb_spec k id); [contradiction|reflexivity].
Qed.

(** A wait that is told of no end. *)
Lemma wait_one_nothing v id m s : wait_one v id (repeat AIntr m) s = WBlock.
Proof. rewrite <- (app_nil_r (repeat AIntr m)). change (repeat AIntr m ++ []) with (intr m []). unfold wait_one. rewrite wait_process_intr. reflexivity. Qed.
Lemma wait_forever v id q ps e1 m :
  NoDup (map p_pid (q :: ps)) ->
  forall es xs fuel s j, Forall2 (fun ne y => event_of (snd ne) (p_pid y)) es xs -> NoDup (map p_pid xs) -> incl xs ps ->
  nsorted (job_table (jobs s)) -> nget id (job_table (jobs s)) = Some j ->
  led id (map p_pid (q :: ps)) e1 (with_stop_status e1 j) -> unfinished j ->
  (forall y, In y xs -> exists z, In z (processes j) /\ p_pid z = p_pid y /\ p_status z = None) ->
  (forall k j' y, nget k (job_table (jobs s)) = Some j' -> k <> id -> In y (q :: ps) -> at_rest (p_pid y) j') ->
  wait_loop (Some v) fuel id (answers es (repeat AIntr m)) s = WBlock.
Proof.
  intros Hd. induction es as [|[n e] es IH]; intros xs fuel s j HF Hq Hi Hs Hg L Hu Hw Ho.
  - destruct fuel as [|fuel]; [reflexivity|]. cbn [answers fold_right wait_loop]. rewrite wait_one_nothing. reflexivity.
  - destruct fuel as [|fuel]; [reflexivity|]. inversion HF as [|? x ? xs' He HF']; subst. cbn [fst snd] in He.
    cbn in Hq. inversion Hq as [|? ? Hq1 Hq2]; subst.
    destruct (led_hit id (map p_pid (q :: ps)) e1 (with_stop_status e1 j) (p_pid x) e L Hd He (Hw x (or_introl eq_refl))) as (F1 & F2 & F3 & F4 & F5).
    change (hit_job (p_pid x) e e1 (with_stop_status e1 j)) with (hit_job (p_pid x) e e1 j) in *.
    cbn [with_stop_status processes] in F1, F5.
    assert (Hx : In x ps) by (apply Hi; left; reflexivity).
    cbn [answers fold_right wait_loop fst snd]. fold (answers es (repeat AIntr m)).
    destruct (wait_one_own v id n e (p_pid x) (answers es (repeat AIntr m)) s j e1 He Hs Hg (led_id _ _ _ _ L) Hu F3 F1
      (fun k j' E N => Ho k j' x E N (or_intror Hx))) as (s1 & W1 & W2 & _).
    rewrite W1.
    assert (G1 : forall k, nget k (job_table (jobs s1)) = if Z.eqb k id then Some (hit_job (p_pid x) e e1 j) else nget k (job_table (jobs s))).
    { intros k. rewrite W2. apply nget_ninsert, Hs. }
    destruct xs' as [|x2 xs2].
    { inversion HF'; subst. destruct fuel as [|fuel]; [reflexivity|]. cbn [answers fold_right wait_loop]. rewrite wait_one_nothing. reflexivity. }
    assert (Hw' : forall y, In y (x2 :: xs2) -> exists z, In z (processes (hit_job (p_pid x) e e1 j)) /\ p_pid z = p_pid y /\ p_status z = None).
    { intros y Hy. destruct (Hw y (or_intror Hy)) as (z & Z1 & Z2 & Z3). exists z. split; [|auto]. apply F5; [|exact Z1].
      rewrite Z2. intros E. apply Hq1. rewrite <- E. apply in_map. exact Hy. }
    apply (IH (x2 :: xs2) fuel s1 (hit_job (p_pid x) e e1 j)); try assumption.
    + intros y Hy. apply Hi. right. exact Hy.
    + rewrite W2. apply nsorted_ninsert, Hs.
    + rewrite G1, Z.eqb_refl. reflexivity.
    + unfold unfinished. rewrite (led_running _ _ _ _ F4); [intros [E|E]; discriminate|].
      destruct (Hw' x2 (or_introl eq_refl)) as (z & Z1 & _ & Z3). apply existsb_exists. exists z. split; [exact Z1|]. unfold no_status. rewrite Z3. reflexivity.
    + intros k j' y E N Hy. rewrite G1 in E. destruct (Z.eqb_spec k id); [contradiction|]. apply Ho with k; assumption.
Qed.

(** ** What the shell does at the prompt *)

Lemma child_at_prompt w n ins s j r : has_prompt s -> listening s ->
  sig_chld (expand_var (cm (im s)) (lit "PS4")) (r_waits (w (trace s))) (js (im s)) = WDone tt j r ->
  interactive_loop w n (TChild :: ins) s = interactive_loop w n ins (Shell (with_js j (im s)) (EWait (-1) :: trace s)).
Proof.
  intros Hp Hl Hs. unfold has_prompt in Hp. destruct (get_var (lit "PS1") (cm (im s))) as [v|] eqn:E; [|congruence].
  destruct (interactive_loop w n ins _) as [o s'] eqn:Er. apply loop_session. apply loop_session in Er.
  eapply session_child; [exact E|exact Hl|exact Hs|exact Er].
Qed.

Lemma pipe_handled w s id q ps c ne es x xs m rest :
  get_var (lit "PS4") (cm (im s)) <> None -> going (jobs (js (im s))) id q ps ->
  Forall2 (fun ne y => event_of (snd ne) (p_pid y)) (ne :: es) (x :: xs) -> NoDup (map p_pid (x :: xs)) -> incl (x :: xs) ps ->
  r_waits (w (trace s)) = AStatus (Exited (p_pid q) c) :: answers (ne :: es) (repeat AIntr m ++ AFail :: rest) ->
  exists j, sig_chld (expand_var (cm (im s)) (lit "PS4")) (r_waits (w (trace s))) (js (im s)) = WDone tt j rest /\
    nget id (job_table (jobs j)) = None /\
    (forall k, k <> id -> nget k (job_table (jobs j)) = nget k (job_table (jobs (js (im s))))) /\
    masked j = masked (js (im s)).
Proof.
  destruct ne as [n2 e2]. intros Hv G HF Hq Hi Hw.
  set (ps4 := expand_var (cm (im s)) (lit "PS4")).
  assert (exists v, ps4 = Some v) as [v E4].
  { unfold ps4, expand_var. destruct (get_var (lit "PS4") (cm (im s))) as [u|]; [eexists; reflexivity|congruence]. }
  destruct (handler_waits ps4 (Exited (p_pid q) c) q (js (im s)) id q ps G) as (s1 & j1 & Hh & H1 & H2 & H3 & H4 & H5 & H6 & H7 & H8 & H9);
    [constructor|left; reflexivity|].
  pose proof (g_others _ _ _ _ G) as Ho.
  assert (event_of e2 (p_pid x) /\ Forall2 (fun ne y => event_of (snd ne) (p_pid y)) es xs) as [He2 HF'] by (inversion HF; auto).
  destruct (wait_again v id n2 e2 es x xs m AFail rest (with_masked true s1) j1 q ps (Exited (p_pid q) c) (g_pids _ _ _ _ G) (g_new _ _ _ _ G))
    as (s2 & j2 & R1 & R2 & R3 & R4 & R5); try assumption; try (left; reflexivity).
  { constructor. }
  { intros k j' y E N. cbn [jobs with_masked] in E. rewrite (H9 k N) in E. apply (Ho k j' y E N). }
  destruct (delete_led id (map p_pid (q :: ps)) (Exited (p_pid q) c) j2 (jobs s2) R2 R3 R4) as (D1 & D2 & D3).
  assert (Hsig : exists j, sig_chld ps4 (r_waits (w (trace s))) (js (im s)) = WDone tt j rest /\
    jobs j = delete_job id (jobs s2) /\ masked j = masked (js (im s))).
  { rewrite Hw, Hh, E4. unfold wait_for_job. rewrite R1. unfold get_job. rewrite R3, (led_status _ _ _ _ R4). cbn [is_exited].
    rewrite Bool.orb_true_r. eexists. split; [reflexivity|]. split; reflexivity. }
  destruct Hsig as (j & Es & Ej & Em).
  exists j. rewrite Ej. split; [exact Es|]. split; [exact D3|]. split; [|exact Em].
  intros k N. rewrite (D2 k N), (R5 k N). apply H9, N.
Qed.

(** The first program of the pipeline exits, and then others do, are killed or are
    stopped, in any order, until there is nothing left to wait for: the job is gone,
    the other jobs are as they were, and the next line is read. *)
Theorem C84_pipeline_partial : forall w n ins s id q ps c ne es x xs m rest,
  has_prompt s -> listening s -> get_var (lit "PS4") (cm (im s)) <> None -> going (jobs (js (im s))) id q ps ->
  Forall2 (fun ne y => event_of (snd ne) (p_pid y)) (ne :: es) (x :: xs) -> NoDup (map p_pid (x :: xs)) -> incl (x :: xs) ps ->
  r_waits (w (trace s)) = AStatus (Exited (p_pid q) c) :: answers (ne :: es) (repeat AIntr m ++ AFail :: rest) ->
  exists s1, interactive_loop w n (TChild :: ins) s = interactive_loop w n ins s1 /\
    nget id (job_table (jobs (js (im s1)))) = None /\
    (forall k, k <> id -> nget k (job_table (jobs (js (im s1)))) = nget k (job_table (jobs (js (im s))))) /\
    im s1 = with_js (js (im s1)) (im s) /\ listening s1.
Proof.
  intros w n ins s id q ps c ne es x xs m rest Hp Hl Hv G HF Hq Hi Hw.
  destruct (pipe_handled w s id q ps c ne es x xs m rest Hv G HF Hq Hi Hw) as (j & Es & H1 & H2 & Em).
  eexists. split; [exact (child_at_prompt w n ins s j rest Hp Hl Es)|]. cbn [im js with_js].
  split; [exact H1|]. split; [exact H2|]. split; [reflexivity|].
  destruct Hl as (L1 & L2 & L3). split; [cbn; rewrite Em; exact L1|]. split; assumption.
Qed.

(** The full statement fails.  Once the first program has ended the shell waits in
    the handler for everything else, so a pipeline in the background whose other
    programs go on makes the prompt deaf: nothing that is typed is run. *)
Theorem C84_pipeline_refuted : forall w n ins s id q ps e1 es xs m,
  has_prompt s -> listening s -> get_var (lit "PS4") (cm (im s)) <> None -> going (jobs (js (im s))) id q ps ->
  event_of e1 (p_pid q) ->
  Forall2 (fun ne y => event_of (snd ne) (p_pid y)) es xs -> NoDup (map p_pid xs) -> incl xs ps ->
  r_waits (w (trace s)) = AStatus e1 :: answers es (repeat AIntr m) ->
  interactive_loop w n (TChild :: ins) s = (OBlock, s).
Proof.
  intros w n ins s id q ps e1 es xs m Hp Hl Hv G He1 HF Hq Hi Hw.
  set (ps4 := expand_var (cm (im s)) (lit "PS4")).
  assert (exists v, ps4 = Some v) as [v E4].
  { unfold ps4, expand_var. destruct (get_var (lit "PS4") (cm (im s))) as [u|]; [eexists; reflexivity|congruence]. }
  destruct (handler_waits ps4 e1 q (js (im s)) id q ps G He1 (or_introl eq_refl)) as (s1 & j1 & Hh & H1 & H2 & H3 & H4 & H5 & H6 & H7 & H8 & H9).
  pose proof (g_others _ _ _ _ G) as Ho.
  apply loop_session. unfold has_prompt in Hp. destruct (get_var (lit "PS1") (cm (im s))) as [u|] eqn:E; [|congruence].
  eapply session_child_hangs; [exact E|exact Hl|]. fold ps4. rewrite Hw, Hh, E4.
  unfold wait_for_job, do_wait, get_job. cbn [jobs with_masked]. rewrite H2, H4. cbn [state_eqb negb andb].
  rewrite (wait_forever v id q ps e1 m (g_pids _ _ _ _ G) es xs _ (with_masked true s1) j1 HF Hq Hi H1 H2); [reflexivity| | | |].
  - apply led_after; auto. exact (g_pids _ _ _ _ G).
  - unfold unfinished. rewrite H4. intros [X|X]; discriminate.
  - intros y Hy. rewrite H6. apply fresh_after; [exact (g_pids _ _ _ _ G)|exact (g_new _ _ _ _ G)|apply Hi, Hy].
  - intros k j' y X N. cbn [jobs with_masked] in X. rewrite (H9 k N) in X. apply (Ho k j' y X N).
Qed.

(** And it is the end of the shell when two of the other programs report before the
    first one does. *)
Theorem C84_pipeline_order_refuted : forall w n ins s id q ps e1 e2 x y m rest,
  has_prompt s -> listening s -> going (jobs (js (im s))) id q ps ->
  In x ps -> In y ps -> event_of e1 (p_pid x) -> event_of e2 (p_pid y) ->
  r_waits (w (trace s)) = AStatus e1 :: repeat AIntr m ++ AStatus e2 :: rest ->
  interactive_loop w n (TChild :: ins) s = (OPanic, s).
Proof.
  intros w n ins s id q ps e1 e2 x y m rest Hp Hl G Hx Hy He1 He2 Hw.
  set (ps4 := expand_var (cm (im s)) (lit "PS4")).
  destruct (handler_waits ps4 e1 x (js (im s)) id q ps G He1 (or_intror Hx)) as (s1 & j1 & Hh & H1 & H2 & H3 & H4 & H5 & H6 & H7 & H8 & H9).
  pose proof (g_others _ _ _ _ G) as Ho. pose proof (g_pids _ _ _ _ G) as Hd.
  assert (Hne : forall z, In z ps -> p_pid q <> p_pid z).
  { intros z Hz X. cbn in Hd. inversion Hd as [|? ? N _]; subst. apply N. rewrite X. apply in_map, Hz. }
  apply loop_session. unfold has_prompt in Hp. destruct (get_var (lit "PS1") (cm (im s))) as [u|] eqn:E; [|congruence].
  eapply session_child_panics; [exact E|exact Hl|]. fold ps4. rewrite Hw, Hh.
  rewrite (wait_crash ps4 id m e2 (p_pid y) rest (with_masked true s1) H1 He2); [reflexivity|exists j1; auto|].
  exists id, j1. split; [exact H2|]. split; [unfold unfinished; rewrite H4; intros [X|X]; discriminate|]. split.
  - unfold nothing_first. rewrite H6. cbn [map]. rewrite report_other by (apply Hne, Hx). split; [apply Hne, Hy|].
    pose proof (g_new _ _ _ _ G) as N. inversion N. assumption.
  - intros k j' Hk X [U P]. cbn [jobs with_masked] in X. rewrite (H9 k) in X by lia.
    destruct (Ho k j' y X) as [Y|(z & zs & _ & _ & Y)]; [lia|right; exact Hy|contradiction|contradiction].
Qed.

(** The first of these again, with any number of signals before the handler has
    returned and after it: they change nothing, as there is nobody left to report. *)
Lemma inside_silent k : forall as_ s, Forall silent as_ -> (k <= List.length as_)%nat ->
  exists s' r, inside k as_ s = WDone tt s' r /\ Forall silent r /\ (List.length as_ <= List.length r + k)%nat /\ but_flag s s'.
Proof.
  induction k as [|k IH]; intros as_ s Hf Hl; cbn [inside].
  - exists s, as_. split; [reflexivity|]. split; [exact Hf|]. split; [lia|apply but_flag_refl].
  - destruct as_ as [|a r]; [cbn in Hl; lia|]. inversion Hf as [|x y Ha Hf']; subst x y.
    assert (borrowed_signal (a :: r) s = WDone tt (with_sigchld true s) r) as -> by (destruct Ha as [->| ->]; reflexivity).
    destruct (IH r (with_sigchld true s) Hf') as (s' & r' & E & F & L & B); [cbn in Hl; lia|]. exists s', r'.
    split; [exact E|]. split; [exact F|]. split; [cbn; lia|]. exact B.
Qed.
Theorem C84_pipeline_signals_partial : forall w sg n ins s id q ps c ne es x xs m k ks rest,
  has_prompt s -> listening s -> get_var (lit "PS4") (cm (im s)) <> None -> going (jobs (js (im s))) id q ps ->
  Forall2 (fun ne y => event_of (snd ne) (p_pid y)) (ne :: es) (x :: xs) -> NoDup (map p_pid (x :: xs)) -> incl (x :: xs) ps ->
  r_waits (w (trace s)) = AStatus (Exited (p_pid q) c) :: answers (ne :: es) (repeat AIntr m ++ AFail :: rest) ->
  sg PPrompt (trace s) = Sig k :: ks -> Forall silent rest -> (k + load ks <= List.length rest)%nat ->
  exists s1, interactive_loop_async w sg n (TChild :: ins) s = interactive_loop_async w sg n ins s1 /\
    nget id (job_table (jobs (js (im s1)))) = None /\
    (forall k, k <> id -> nget k (job_table (jobs (js (im s1)))) = nget k (job_table (jobs (js (im s))))) /\
    im s1 = with_js (js (im s1)) (im s) /\ listening s1.
Proof.
  intros w sg n ins s id q ps c ne es x xs m k ks rest Hp Hl Hv G HF Hq Hi Hw Hg Hsil Hlen.
  destruct (pipe_handled w s id q ps c ne es x xs m rest Hv G HF Hq Hi Hw) as (j & Es & Hgone & Hoth & Em).
  assert (Hhand : exists j' r, handled (expand_var (cm (im s)) (lit "PS4")) k (r_waits (w (trace s))) (js (im s)) = WDone tt j' r /\
    but_flag j j' /\ Forall silent r /\ (load ks <= List.length r)%nat).
  { unfold handled. rewrite Es. cbn [interrupted]. destruct (deletes _ _ _).
    - destruct (inside_silent k rest j Hsil) as (s' & r & E & F & L & B); [lia|]. exists s', r. split; [exact E|]. split; [exact B|]. split; [exact F|lia].
    - exists j, rest. split; [reflexivity|]. split; [apply but_flag_refl|]. split; [exact Hsil|lia]. }
  destruct Hhand as (j' & r & Eh & B & Fr & Lr).
  destruct (deliver_silent (expand_var (cm (im s)) (lit "PS4")) ks r j' Fr Lr) as (ks' & j2 & r2 & Ed & _ & B2 & _).
  pose proof (but_flag_trans _ _ _ B B2) as (B3 & B4 & _).
  exists (Shell (with_js j2 (im s)) (EWait (-1) :: trace s)). cbn [im js with_js]. rewrite B3.
  split; [|split; [exact Hgone|split; [exact Hoth|split; [reflexivity|]]]].
  - cbn [interactive_loop_async]. rewrite (bind_ok (look cm) _ s (cm (im s)) s eq_refl).
    unfold has_prompt in Hp. unfold expand_var at 1. destruct (get_var (lit "PS1") (cm (im s))) as [v|]; [clear Hp|congruence].
    rewrite (seq_ok (unwrap (Some (value v))) _ s (value v) s eq_refl).
    apply seq_ok with (a := tt). destruct Hl as (L1 & L2 & L3). unfold child_signal_async. rewrite L1, L2, L3, Hg. cbn [orb negb deliver]. rewrite L1.
    rewrite Eh, Ed. reflexivity.
  - destruct Hl as (L1 & L2 & L3). split; [cbn; rewrite B4, Em; exact L1|]. split; assumption.
Qed.

(** If another child of the shell ends, is killed or is stopped just when the handler deletes
    the job of the pipeline, the shell crashes (as with a single program,
    C84_together_refuted). *)
Lemma pipe_deletes v jst0 id q ps c ne es x xs m rest : going (jobs jst0) id q ps ->
  Forall2 (fun ne y => event_of (snd ne) (p_pid y)) (ne :: es) (x :: xs) -> NoDup (map p_pid (x :: xs)) -> incl (x :: xs) ps ->
  deletes (Some v) (AStatus (Exited (p_pid q) c) :: answers (ne :: es) (repeat AIntr m ++ AFail :: rest)) jst0 = true.
Proof.
  destruct ne as [n2 e2]. intros [Hs (j & Hg & Hid & Hr & Hb & Ep) Hm Hd Hn Hk Ho] HF Hq Hi.
  assert (event_of e2 (p_pid x) /\ Forall2 (fun ne y => event_of (snd ne) (p_pid y)) es xs) as [He2 HF'] by (inversion HF; auto).
  cbn [deletes about]. unfold get_job_pid. rewrite (Hk q (or_introl eq_refl)), Hg, Hid, Hb. cbn [andb].
  set (e := Exited (p_pid q) c). set (j1 := set_process_status (p_pid q) e j).
  assert (P1 : processes j1 = map (report (p_pid q) e) (q :: ps)).
  { unfold j1, set_process_status, with_processes. cbn [processes]. rewrite Ep. apply set_status_report, Hd. }
  assert (G1 : forall k, nget k (job_table (put_job id j1 (jobs jst0))) = if Z.eqb k id then Some j1 else nget k (job_table (jobs jst0))).
  { intros k. unfold put_job. cbn. apply nget_ninsert, Hs. }
  set (s1 := with_masked true (with_jobs (put_job id j1 (jobs jst0)) (with_sigchld true jst0))).
  destruct (wait_again v id n2 e2 es x xs m AFail rest s1 j1 q ps e Hd Hn) as (s2 & j2 & R1 & R2 & R3 & R4 & R5);
    try assumption; try (left; reflexivity).
  { constructor. }
  { apply nsorted_ninsert, Hs. }
  { change (nget id (job_table (put_job id j1 (jobs jst0))) = Some j1). rewrite G1, Z.eqb_refl. reflexivity. }
  { intros k j' y E N. change (nget k (job_table (put_job id j1 (jobs jst0))) = Some j') in E. rewrite G1 in E.
    destruct (Z.eqb_spec k id); [contradiction|]. apply (Ho k j' y E N). }
  rewrite Ep. destruct ps as [|x2 ps2]; [contradiction|].
  rewrite R1. unfold get_job. rewrite R3, (led_status _ _ _ _ R4). cbn [is_exited e]. apply Bool.orb_true_r.
Qed.
Theorem C84_pipeline_together_refuted : forall w sg n ins s id q ps c ne es x xs m k ks e p rest,
  has_prompt s -> listening s -> get_var (lit "PS4") (cm (im s)) <> None -> going (jobs (js (im s))) id q ps ->
  Forall2 (fun ne y => event_of (snd ne) (p_pid y)) (ne :: es) (x :: xs) -> NoDup (map p_pid (x :: xs)) -> incl (x :: xs) ps ->
  r_waits (w (trace s)) = AStatus (Exited (p_pid q) c) :: answers (ne :: es) (repeat AIntr m ++ AFail :: AStatus e :: rest) ->
  event_of e p -> sg PPrompt (trace s) = Sig (S k) :: ks ->
  interactive_loop_async w sg n (TChild :: ins) s = (OPanic, s).
Proof.
  intros w sg n ins s id q ps c ne es x xs m k ks e p rest Hp (L1 & L2 & L3) Hv G HF Hq Hi Hw He Hg.
  destruct (pipe_handled w s id q ps c ne es x xs m (AStatus e :: rest) Hv G HF Hq Hi Hw) as (j & Es & _).
  assert (exists v, expand_var (cm (im s)) (lit "PS4") = Some v) as [v E4].
  { unfold expand_var. destruct (get_var (lit "PS4") (cm (im s))) as [u|]; [eexists; reflexivity|congruence]. }
  assert (E : child_signal_async w sg s = (OPanic, s)).
  { unfold child_signal_async. rewrite L1, L2, L3, Hg. cbn [orb negb deliver]. rewrite L1. unfold handled. rewrite Es.
    rewrite Hw, E4, (pipe_deletes v _ id q ps c ne es x xs m _ G HF Hq Hi). cbn [interrupted inside]. destruct He; reflexivity. }
  cbn [interactive_loop_async]. rewrite (bind_ok (look cm) _ s (cm (im s)) s eq_refl).
  unfold has_prompt in Hp. unfold expand_var at 1. destruct (get_var (lit "PS1") (cm (im s))) as [u|]; [clear Hp|congruence].
  rewrite (seq_ok (unwrap (Some (value u))) _ s (value u) s eq_refl).
  unfold seq, bind. rewrite E. reflexivity.
Qed.

(** [a x | b y | c z &] typed at the prompt. *)
Definition pipe_os (l : list answer) : os := fun t =>
  let r := PropertiesEval.ex_reports 0 in
  Reports (r_isfile r) (fun _ _ => false) (r_read r) (r_chdir r) (r_cwd r) (r_kill r) (r_pipe r)
    (Some match t with EFork _ _ (Some p) :: _ | _ :: EFork _ _ (Some p) :: _ | _ :: _ :: EFork _ _ (Some p) :: _ => Pos.succ p | _ => 100%positive end) (r_exec r) (r_getpid r)
    l (r_subst r).
Definition piped (l : list answer) (ins : list typed) : out unit * shell :=
  main (pipe_os l) 5 0 (words ["rsh"]%string) (TLine (lit "a x | b y | c z &") :: ins) (Shell ex_fresh []).
Definition ex_process (p : pid) (n a : str) : process := Process p [n; a] n n None.
Example C84_pipeline_example :
  let a := ex_process 100 (lit "a") (lit "x") in let b := ex_process 101 (lit "b") (lit "y") in let c := ex_process 102 (lit "c") (lit "z") in
  let l1 := [AStatus (Exited 100 0); AStatus (Exited 102 3); AIntr; AStatus (Exited 101 0); AFail] in
  let l2 := [AStatus (Exited 100 0); AStatus (Exited 102 3)] in
  let l3 := [AStatus (Exited 101 0); AStatus (Exited 102 3)] in
  (forall l, let s := snd (piped l []) in
     has_prompt s /\ listening s /\ get_var (lit "PS4") (cm (im s)) <> None /\ going (jobs (js (im s))) 1 a [b; c] /\
     r_waits (pipe_os l (trace s)) = l) /\
  l1 = AStatus (Exited (p_pid a) 0) :: answers [(0%nat, Exited 102 3); (1%nat, Exited 101 0)] (repeat AIntr 0 ++ [AFail]) /\
  Forall2 (fun ne y => event_of (snd ne) (p_pid y)) [(0%nat, Exited 102 3); (1%nat, Exited 101 0)] [c; b] /\
  NoDup (map p_pid [c; b]) /\ incl [c; b] [b; c] /\
  l2 = AStatus (Exited (p_pid a) 0) :: answers [(0%nat, Exited 102 3)] (repeat AIntr 0) /\
  l3 = AStatus (Exited (p_pid b) 0) :: repeat AIntr 0 ++ AStatus (Exited (p_pid c) 3) :: [] /\
  (forall l, let x := piped l [TChild; TLine (lit "X=1")] in
     (l = l1 -> nget 1 (job_table (jobs (js (im (snd x))))) = None /\ get_var (lit "X") (cm (im (snd x))) = Some (Var (lit "1") false)) /\
     (l = l2 -> fst x = OBlock /\ get_var (lit "X") (cm (im (snd x))) = None) /\
     (l = l3 -> fst x = OPanic)).
Proof.
  cbv zeta. split.
  - intros l. set (s := snd (piped l [])).
    assert (Ej : job_table (jobs (js (im s))) = [(1, Job [ex_process 100 (lit "a") (lit "x"); ex_process 101 (lit "b") (lit "y"); ex_process 102 (lit "c") (lit "z")] 1 StillAlive Running true false)])
      by (vm_compute; reflexivity).
    assert (Ep : pid_to_job (jobs (js (im s))) = [(-1, 1); (100, 1); (101, 1); (102, 1)]) by (vm_compute; reflexivity).
    split; [vm_compute; discriminate|]. split; [vm_compute; auto|]. split; [vm_compute; discriminate|]. split; [|vm_compute; reflexivity].
    clearbody s. constructor; rewrite ?Ej, ?Ep.
    + repeat constructor.
    + eexists. split; [reflexivity|]. repeat split.
    + discriminate.
    + repeat constructor; cbn; intuition discriminate.
    + repeat constructor.
    + intros x [<-|[<-|[<-|[]]]]; reflexivity.
    + intros k j x H N. cbn in H. destruct (Z.eqb_spec k 1); [contradiction|discriminate].
  - split; [reflexivity|]. split; [repeat constructor|]. split; [repeat constructor; cbn; intuition discriminate|].
    split; [intros x [<-|[<-|[]]]; cbn; auto|]. split; [reflexivity|]. split; [reflexivity|].
    intros l. split; [intros ->; vm_compute; split; reflexivity|]. split; intros ->; vm_compute; try split; reflexivity.
Qed.
(** With signals. *)
Example C84_pipeline_signals_example :
  let l := [AStatus (Exited 100 0); AStatus (Exited 102 3); AIntr; AStatus (Exited 101 0); AFail; AFail; AFail; AFail; AFail] in
  let sg p (_ : list event) := match p with PPrompt => [Sig 1; Sig 0; Int [2%nat]] | _ => [] end in
  let r := main_async (pipe_os l) sg 5 0 (words ["rsh"]%string) [TLine (lit "a x | b y | c z &"); TChild; TLine (lit "X=1")] (Shell ex_fresh []) in
  (1 + load [Sig 0; Int [2%nat]] <= List.length [AFail; AFail; AFail; AFail])%nat /\
  nget 1 (job_table (jobs (js (im (snd r))))) = None /\ get_var (lit "X") (cm (im (snd r))) = Some (Var (lit "1") false).
Proof. split; [cbn; lia|]. vm_compute. split; reflexivity. Qed.

(** A fourth program, [d &], ends when the pipeline does. *)
Example C84_pipeline_together_example :
  let l last := [AStatus (Exited 100 0); AStatus (Exited 102 3); AIntr; AStatus (Exited 101 0); AFail; last; AFail] in
  let sg k p (_ : list event) := match p with PPrompt => [Sig k] | _ => [] end in
  let r k last := fst (main_async (pipe_os (l last)) (sg k) 5 0 (words ["rsh"]%string) [TLine (lit "a x | b y | c z &"); TLine (lit "d z &"); TChild; TClosed] (Shell ex_fresh [])) in
  event_of (Exited 103 0) 103 /\
  r 0%nat (AStatus (Exited 103 0)) = OOk tt /\ r 1%nat (AStatus (Exited 103 0)) = OPanic /\ r 1%nat AFail = OOk tt.
Proof. split; [constructor|]. vm_compute. repeat split. Qed.

Print Assumptions C84_pipeline_partial.
Print Assumptions C84_pipeline_signals_partial.
Print Assumptions C84_pipeline_refuted.
Print Assumptions C84_pipeline_order_refuted.
Print Assumptions C84_pipeline_together_refuted.
