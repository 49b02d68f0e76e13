(** Property C138: signals while [fg] waits. *)
From Verif Require Import Base BaseFacts Lexer LexerSpec Ast Parser GrammarSpec Context Alias Expand ExpandSpec ExpandFacts ExpandLaws Jobs Shell Builtins Eval Main.
From Verif Require Import Async EvalSpec EvalFacts EvalLaws RunSpec RunLaws PipeSpec PipeLaws JobsSpec JobsFacts JobsLaws AsyncLaws AsyncRun.
From Verif Require JobsWait PropertiesEval PropertiesMain PropertiesJobs PropertiesRun PropertiesBuiltins PropertiesCrash PropertiesAsync.
Import PropertiesCrash PropertiesBuiltins PropertiesRun PropertiesEval PropertiesMain PropertiesAsync.
Local Open Scope Z_scope.

(** ** C138 *)

(** The job of [fg] in the foreground. *)
Definition in_front (j : job) (t : jst) : jst :=
  print (lit "[" ++ Z_to_str (job_id j) ++ lit "] " ++ job_text (continued false j)) (with_jobs (put_job (job_id j) (continued false j) (jobs t)) t).
Definition fg_starts (j : job) (s : shell) : shell :=
  Shell (with_js (in_front j (js (im s))) (im s)) (rev (map (fun p => EKill (p_pid p)) (processes j)) ++ trace s).

Lemma fg_runs w sg b n j s : basic (jobs (js (im s))) -> named_job b n (jobs (js (im s))) = Some j ->
  state j <> Waiting -> (forall p, In p (processes j) -> r_kill (w (trace s)) (p_pid p) = true) ->
  fg_or_bg w true b n s = (wait_job w (job_id j) ;; ret tt) (fg_starts j s) /\
  fg_or_bg_async w sg true b n s = (wait_job_async w sg (job_id j) ;; ret tt) (fg_starts j s).
Proof.
  intros B Hj Hu Hk. destruct (named_job_in _ _ _ _ Hj) as [k Hin]. pose proof (b_ids _ B k j Hin) as Hid. subst k.
  unfold fg_or_bg, fg_or_bg_async.
  set (found := if b then get_job n (jobs (js (im s))) else get_job_pid (to_i32 n) (jobs (js (im s)))).
  rewrite !(bind_ok (look (fun i => if b then get_job n (jobs (js i)) else get_job_pid (to_i32 n) (jobs (js i)))) _ s found s eq_refl).
  assert (Hf : found = named_job b n (jobs (js (im s)))) by (unfold found, named_job; destruct b; reflexivity).
  rewrite Hf, Hj. clear found Hf.
  assert (Eb : borrowed j = false) by (unfold borrowed; destruct (state j); try reflexivity; congruence). rewrite Eb. cbv iota.
  rewrite !(bind_ok (ask w r_kill) _ s (r_kill (w (trace s))) s eq_refl).
  assert (Ea : forallb (fun p => r_kill (w (trace s)) (p_pid p)) (processes j) = true) by (apply forallb_forall; exact Hk).
  set (t1 := rev (map (fun p => EKill (p_pid p)) (processes j)) ++ trace s).
  assert (E1 : (fun s0 => (OOk tt, Shell (im s0) (rev (map EKill (sent (r_kill (w (trace s))) (processes j))) ++ trace s0))) s = (OOk tt, Shell (im s) t1)).
  { rewrite (sent_all _ _ Ea), map_map. reflexivity. }
  assert (E2 : try_ (fun i => match resume true (r_kill (w (trace s))) (job_id j) (js i) with Some s => Some (with_js s i) | None => None end) (Shell (im s) t1)
    = (OOk tt, fg_starts j s)).
  { unfold try_, resume, get_job. cbn [im]. rewrite Hin. cbn [processes with_background with_state]. rewrite Ea. reflexivity. }
  rewrite !(seq_ok _ _ _ _ _ E1), !(seq_ok _ _ _ _ _ E2). split; reflexivity.
Qed.
Lemma fgbg_line_async w sg d n ws vs s : n = lit "fg" \/ n = lit "bg" -> sget n (al (im s)) = None ->
  Forall written_arg ws -> Forall2 (ordinary (expand_var (cm (im s)))) ws vs ->
  exec_text_async w sg (S d) (r_words (n :: ws)) s =
  (signals w sg PStart ;; fun s1 => (fgbg_async w sg (SimpleCommand None n (Some (Suffix [] vs))) ;; signals w sg PEnd ;; ret 0) (blocked s1)) s.
Proof.
  intros Hn Ha Hf Ho.
  assert (Hb : check_if_builtin n = true /\ n <> []) by (destruct Hn as [-> | ->]; split; try reflexivity; discriminate).
  destruct Hb as [Hb Hne]. destruct (builtin_word n Hb Hne) as [H1 H2].
  destruct (args_line n ws Hne H1 Hf) as [W1 W2].
  refine (eq_trans (f_equal (fun t => exec_text_async w sg (S d) t s) (eq_sym W2)) _).
  rewrite (exec_pipeline_async w sg d _ s W1). unfold eval_pipeline_async. apply seq_same. intros [] s1 E1.
  apply signals_jobs in E1. destruct E1 as [E1 _].
  assert (Ha1 : plain_name (al (im (blocked s1))) n) by (apply H2; change (al (im (blocked s1))) with (al (im s1)); rewrite E1; exact Ha).
  assert (Ho1 : Forall2 (ordinary (expand_var (cm (im (blocked s1))))) ws vs) by (change (cm (im (blocked s1))) with (cm (im s1)); rewrite E1; exact Ho).
  rewrite (seq_ok interrupts_off _ s1 tt (blocked s1) eq_refl).
  cbn [gather_async eval_command_async]. unfold eval_simple_command_async.
  replace (check_if_builtin (sc_name (words_cmd n ws))) with true by (symmetry; exact Hb).
  unfold eval_builtin_async, seq, bind.
  rewrite (expand_plain w sg _ _ _ (expand_words w n ws vs (blocked s1) Ha1 Ho1)). cbn [sc_name].
  replace (str_eqb n (lit "fg") || str_eqb n (lit "bg"))%bool with true by (destruct Hn as [-> | ->]; reflexivity).
  destruct (fgbg_async w sg _ (blocked s1)) as [[]]; reflexivity.
Qed.
(** [fg] on a job, up to its wait. *)
Lemma fg_line_async w sg d ws x xs s b n j : sget (lit "fg") (al (im s)) = None ->
  Forall written_arg ws -> Forall2 (ordinary (expand_var (cm (im s)))) ws (x :: xs) -> designates x b n ->
  (forall s1, signals w sg PStart s = (OOk tt, s1) ->
    basic (jobs (js (im s1))) /\ named_job b n (jobs (js (im s1))) = Some j /\
    (forall p, In p (processes j) -> r_kill (w (trace s1)) (p_pid p) = true)) -> state j <> Waiting ->
  exec_text_async w sg (S d) (r_words (lit "fg" :: ws)) s =
  (signals w sg PStart ;; fun s1 => (wait_job_async w sg (job_id j) ;; interrupts_on ;; signals w sg PEnd ;; ret 0) (fg_starts j (blocked s1))) s.
Proof.
  intros Ha Hw Ho Hx Hs Hu. rewrite (fgbg_line_async w sg d (lit "fg") ws (x :: xs) s (or_introl eq_refl) Ha Hw Ho).
  apply seq_same. intros [] s1 E1. destruct (Hs s1 E1) as (B & Hj & Hk).
  unfold fgbg_async. cbn [words_of sc_suffix word_list]. unfold seq at 1, bind at 1.
  rewrite (seq_ok interrupts_off _ (blocked s1) tt (blocked s1)) by reflexivity.
  rewrite (bind_ok (word_at 0 (x :: xs)) _ (blocked s1) x (blocked s1) eq_refl).
  apply job_arg_iff in Hx. rewrite Hx. cbn [unwrap]. rewrite (bind_ok (ret (b, n)) _ (blocked s1) (b, n) (blocked s1) eq_refl).
  cbn [fst snd sc_name]. change (str_eqb (lit "fg") (lit "fg")) with true.
  destruct (fg_runs w sg b n j (blocked s1) B Hj Hu Hk) as [_ E].
  unfold seq, bind. rewrite E. unfold seq, bind. destruct (wait_job_async w sg (job_id j) _) as [[] s2]; reflexivity.
Qed.

(** The last event of the history is not the signal of [fg], nor the start of a
    process. *)
Definition not_continued (tr : list event) : Prop := match tr with EKill _ :: _ | EFork _ _ _ :: _ => False | _ => True end.
(** A system that answers about the process [q] of the job: after it was continued
    [e] is reported, after any number of interrupted calls, and otherwise nothing;
    no SIGINT while the shell waits. *)
Record fg_child (w : os) (sg : point -> list event -> arrivals) (q : Z) (n : nat) (e : wait_status) (rest : list answer) : Prop := {
  fc_kill : forall tr, r_kill (w tr) q = true;
  fc_event : event_of e q;
  fc_waits : forall tr, r_waits (w (EKill q :: tr)) = repeat AIntr n ++ AStatus e :: rest;
  fc_rest : Forall silent rest;
  fc_wait : undisturbed sg PWait;
  fc_enough : forall tr, (load (sg PWait tr) < List.length rest)%nat;
  fc_silent : forall p tr, not_continued tr ->
    Forall silent (r_waits (w tr)) /\ (load (sg p tr) <= List.length (r_waits (w tr)))%nat
}.

Lemma signals_here w sg p s : Forall silent (r_waits (w (trace s))) -> (load (sg p (trace s)) <= List.length (r_waits (w (trace s))))%nat ->
  exists s', signals w sg p s = (OOk tt, s') /\ alike s s' /\ (not_continued (trace s) -> not_continued (trace s')).
Proof.
  intros F L. unfold signals, taken. destruct (_ && _)%bool; [exists s; auto using alike_refl|].
  destruct (arriving sg p s) as [|k ks] eqn:E; [exists s; auto using alike_refl|].
  assert (Hs : sg p (trace s) = k :: ks).
  { unfold arriving in E. destruct (handlers (im s) && negb (forked (im s)))%bool; [exact E|discriminate]. }
  rewrite Hs in L.
  destruct (deliver_silent (expand_var (cm (im s)) (lit "PS4")) (k :: ks) (r_waits (w (trace s))) (js (im s)) F L) as (ks' & t & r & Ed & _ & B & _).
  rewrite Ed. eexists. split; [reflexivity|]. split; [split; [reflexivity|exact B]|intros _; exact I].
Qed.

(** [fg] on a job of one process, when every other job is finished or stopped:
    signals at any moment, also during the wait, make no difference.  (Full
    statement: for every job and every schedule.) *)
Theorem C138_same_partial : forall w sg d ws x xs s b n j q v k e rest, sget (lit "fg") (al (im s)) = None ->
  Forall written_arg ws -> Forall2 (ordinary (expand_var (cm (im s)))) ws (x :: xs) ->
  basic (jobs (js (im s))) -> designates x b n -> named_job b n (jobs (js (im s))) = Some j ->
  state j <> Waiting -> processes j = [q] ->
  (forall k' j', nget k' (job_table (jobs (js (im s)))) = Some j' -> k' <> job_id j -> at_rest (p_pid q) j') ->
  expand_var (cm (im s)) (lit "PS4") = Some v -> fg_child w sg (p_pid q) k e rest -> not_continued (trace s) ->
  exists s0 s', exec_text w (S d) (r_words (lit "fg" :: ws)) s = (OOk 0, s0) /\
    exec_text_async w sg (S d) (r_words (lit "fg" :: ws)) s = (OOk 0, s') /\ alike s0 s'.
Proof.
  intros w sg d ws x xs s b n j q v k e rest Ha Hw Ho B Hx Hj Hu Hps Hothers Hv C Hr.
  destruct (fc_silent _ _ _ _ _ _ C PStart (trace s) Hr) as [F0 L0].
  destruct (signals_here w sg PStart s F0 L0) as (s1 & E1 & [Ai (J1 & M1 & P1)] & R1).
  assert (Hk : forall tr p, In p (processes j) -> r_kill (w tr) (p_pid p) = true).
  { intros tr p. rewrite Hps. intros [<-|[]]. apply (fc_kill _ _ _ _ _ _ C). }
  (* the wait without signals *)
  set (t0 := js (im (fg_starts j (blocked s)))).
  assert (Hb0 : basic (jobs t0)).
  { destruct (named_job_in _ _ _ _ Hj) as [k0 Hin]. pose proof (b_ids _ B k0 j Hin) as Hid.
    unfold t0. cbn [fg_starts im js with_js in_front print with_jobs jobs]. change (js (im (blocked s))) with (with_masked true (js (im s))). cbn [jobs with_masked].
    rewrite Hid. eapply put_flags_basic; [exact B|exact Hin|reflexivity]. }
  assert (Hget : forall k', nget k' (job_table (jobs t0)) = if Z.eqb k' (job_id j) then Some (continued false j) else nget k' (job_table (jobs (js (im s))))).
  { intros k'. unfold t0. cbn. rewrite nget_ninsert by apply B. reflexivity. }
  destruct rest as [|a rest]; [pose proof (fc_enough _ _ _ _ _ _ C []); cbn in *; lia|].
  pose proof (fc_rest _ _ _ _ _ _ C) as Hrest. pose proof (Forall_inv Hrest) as Hsil.
  destruct (PropertiesJobs.C41_single_partial v (job_id j) k e 0 a rest t0 (continued false j) q Hb0 (fc_event _ _ _ _ _ _ C)) as (t & W1 & _ & _).
  { rewrite Hget, Z.eqb_refl. reflexivity. }
  { reflexivity. }
  { exact Hps. }
  { intros k' j' Hk' Hne. rewrite Hget in Hk'. destruct (Z.eqb_spec k' (job_id j)); [congruence|]. exact (Hothers k' j' Hk' Hne). }
  { destruct Hsil; auto. }
  cbn [repeat app] in W1.
  assert (Ew : forall tr, r_waits (w (rev (map (fun p => EKill (p_pid p)) (processes j)) ++ tr)) = repeat AIntr k ++ AStatus e :: a :: rest).
  { intros tr. rewrite Hps. cbn [map rev app]. apply (fc_waits _ _ _ _ _ _ C). }
  exists (Shell (masked_as false (with_js t (im s))) (EWait (job_id j) :: trace (fg_starts j (blocked s)))).
  (* the wait with signals *)
  set (u0 := js (im (fg_starts j (blocked s1)))).
  assert (Hu0 : jobs u0 = jobs t0 /\ printed u0 = printed t0 /\ masked u0 = true).
  { unfold u0, t0. cbn. rewrite J1, P1. auto. }
  destruct Hu0 as (U1 & U2 & U3).
  destruct (wait_event_async (Some v) (job_id j) k e (p_pid q) (a :: rest) t0 e t rest u0 (arriving sg PWait (fg_starts j (blocked s1)))
    (fc_event _ _ _ _ _ _ C)) as (u & r' & V1 & V2 & V3); auto.
  { exists (continued false j). split; [unfold get_job; rewrite Hget, Z.eqb_refl; reflexivity|reflexivity]. }
  { unfold arriving. destruct (handlers _ && _)%bool; [|constructor]. exact (fc_wait _ _ _ _ _ _ C _). }
  { unfold arriving. destruct (handlers _ && _)%bool; [|cbn; lia]. apply (fc_enough _ _ _ _ _ _ C). }
  set (s2 := Shell (with_js (with_masked false u) (im s1)) (EWait (job_id j) :: trace (fg_starts j (blocked s1)))).
  destruct (fc_silent _ _ _ _ _ _ C PEnd (trace s2) I) as [F2 L2].
  destruct (signals_here w sg PEnd s2 F2 L2) as (s3 & E3 & A3 & _).
  exists s3. split; [|split].
  - rewrite (exec_args_line w d (lit "fg") ws (x :: xs) s eq_refl ltac:(discriminate) Ha Hw Ho), call_fg.
    unfold fgbg. rewrite (seq_ok interrupts_off _ (blocked s) tt (blocked s)) by reflexivity.
    cbn [words_of sc_suffix word_list]. rewrite (bind_ok (word_at 0 (x :: xs)) _ (blocked s) x (blocked s) eq_refl).
    apply job_arg_iff in Hx. rewrite Hx. cbn [unwrap]. rewrite (bind_ok (ret (b, n)) _ (blocked s) (b, n) (blocked s) eq_refl).
    cbn [fst snd sc_name]. change (str_eqb (lit "fg") (lit "fg")) with true.
    destruct (fg_runs w sg b n j (blocked s) B Hj Hu (Hk _)) as [E _]. unfold seq at 1, bind at 1. rewrite E.
    unfold seq, bind, wait_job. cbn [trace fg_starts]. rewrite Ew. change (cm (im (fg_starts j (blocked s)))) with (cm (im s)). rewrite Hv.
    fold t0. rewrite W1. reflexivity.
  - rewrite (fg_line_async w sg d ws x xs s b n j Ha Hw Ho Hx); [|intros s1' E1'; assert (s1' = s1) as -> by congruence; rewrite J1; auto|exact Hu].
    rewrite (seq_ok _ _ _ _ _ E1).
    assert (Ewait : wait_job_async w sg (job_id j) (fg_starts j (blocked s1)) =
      (OOk e, Shell (with_js u (im (fg_starts j (blocked s1)))) (EWait (job_id j) :: trace (fg_starts j (blocked s1))))).
    { unfold wait_job_async. change (trace (fg_starts j (blocked s1))) with (rev (map (fun p => EKill (p_pid p)) (processes j)) ++ trace s1) at 1.
      rewrite Ew. change (cm (im (fg_starts j (blocked s1)))) with (cm (im s1)).
      replace (cm (im s1)) with (cm (im s)) by (rewrite Ai; reflexivity). rewrite Hv. fold u0. rewrite V1. reflexivity. }
    rewrite (seq_ok _ _ _ _ _ Ewait).
    rewrite (seq_ok interrupts_on _ _ tt s2) by reflexivity.
    rewrite (seq_ok _ _ _ _ _ E3). reflexivity.
  - eapply alike_trans; [|exact A3]. split; cbn.
    + rewrite Ai. reflexivity.
    + repeat split; assumption.
Qed.

Lemma fg_no_start w sg d ws x xs s b n j : sget (lit "fg") (al (im s)) = None ->
  Forall written_arg ws -> Forall2 (ordinary (expand_var (cm (im s)))) ws (x :: xs) -> designates x b n ->
  basic (jobs (js (im s))) -> named_job b n (jobs (js (im s))) = Some j -> state j <> Waiting ->
  (forall p, In p (processes j) -> r_kill (w (trace s)) (p_pid p) = true) -> sg PStart (trace s) = [] ->
  exec_text_async w sg (S d) (r_words (lit "fg" :: ws)) s =
  (wait_job_async w sg (job_id j) ;; interrupts_on ;; signals w sg PEnd ;; ret 0) (fg_starts j (blocked s)).
Proof.
  intros Ha Hw Ho Hx B Hj Hu Hk H0.
  assert (E0 : signals w sg PStart s = (OOk tt, s)).
  { unfold signals, taken, arriving. rewrite H0. destruct (handlers (im s) && negb (forked (im s)))%bool; destruct (masked (js (im s))); reflexivity. }
  rewrite (fg_line_async w sg d ws x xs s b n j Ha Hw Ho Hx); [|intros s1 E1; assert (s1 = s) as -> by congruence; auto|exact Hu].
  rewrite (seq_ok _ _ _ _ _ E0). reflexivity.
Qed.
Lemma in_front_get j t k : basic (jobs t) ->
  nget k (job_table (jobs (in_front j t))) = if Z.eqb k (job_id j) then Some (continued false j) else nget k (job_table (jobs t)).
Proof. intros B. cbn. rewrite nget_ninsert by apply B. reflexivity. Qed.

(** A second child ends just when the shell deletes the job that [fg] has waited
    for: the shell crashes. *)
Theorem C138_second_refuted : forall w sg d ws x xs s b n j q v e a e2 p2 rest k ks, sget (lit "fg") (al (im s)) = None ->
  Forall written_arg ws -> Forall2 (ordinary (expand_var (cm (im s)))) ws (x :: xs) ->
  basic (jobs (js (im s))) -> designates x b n -> named_job b n (jobs (js (im s))) = Some j ->
  state j <> Waiting -> processes j = [q] -> r_kill (w (trace s)) (p_pid q) = true ->
  (forall k' j', nget k' (job_table (jobs (js (im s)))) = Some j' -> k' <> job_id j -> at_rest (p_pid q) j') ->
  expand_var (cm (im s)) (lit "PS4") = Some v -> handlers (im s) = true -> forked (im s) = false -> sg PStart (trace s) = [] ->
  let tr := EKill (p_pid q) :: trace s in
  r_waits (w tr) = AStatus e :: a :: AStatus e2 :: rest -> event_of e (p_pid q) -> is_stopped e = false -> silent a -> event_of e2 p2 ->
  sg PWait tr = Pause :: Pause :: Pause :: Sig k :: ks ->
  exec_text_async w sg (S d) (r_words (lit "fg" :: ws)) s = (OPanic, fg_starts j (blocked s)).
Proof.
  intros w sg d ws x xs s b n j q v e a e2 p2 rest k ks Ha Hw Ho B Hx Hj Hu Hps Hk Hothers Hv Hh Hf H0 tr Ew He Hns Hsil He2 Hsg.
  rewrite (fg_no_start w sg d ws x xs s b n j Ha Hw Ho Hx B Hj Hu); [|rewrite Hps; intros p [<-|[]]; exact Hk|exact H0].
  enough (E : wait_job_async w sg (job_id j) (fg_starts j (blocked s)) = (OPanic, fg_starts j (blocked s))) by (unfold seq, bind; rewrite E; reflexivity).
  assert (Htr : trace (fg_starts j (blocked s)) = tr) by (unfold fg_starts; cbn [trace]; rewrite Hps; reflexivity).
  unfold wait_job_async, arriving. rewrite Htr, Ew, Hsg.
  change (handlers (im (fg_starts j (blocked s)))) with (handlers (im s)). change (forked (im (fg_starts j (blocked s)))) with (forked (im s)).
  change (cm (im (fg_starts j (blocked s)))) with (cm (im s)). rewrite Hh, Hf, Hv. cbn [andb negb].
  set (t0 := js (im (fg_starts j (blocked s)))).
  assert (Hb0 : basic (jobs t0)).
  { destruct (named_job_in _ _ _ _ Hj) as [k0 Hin]. pose proof (b_ids _ B k0 j Hin) as Hid.
    unfold t0. cbn [fg_starts im js with_js in_front print with_jobs jobs]. change (js (im (blocked s))) with (with_masked true (js (im s))). cbn [jobs with_masked].
    rewrite Hid. eapply put_flags_basic; [exact B|exact Hin|reflexivity]. }
  assert (Hget : forall k', nget k' (job_table (jobs t0)) = if Z.eqb k' (job_id j) then Some (continued false j) else nget k' (job_table (jobs (js (im s))))).
  { intros k'. exact (in_front_get j (with_masked true (js (im s))) k' B). }
  destruct (PropertiesJobs.C41_single_partial v (job_id j) 0 e 0 a (AStatus e2 :: rest) t0 (continued false j) q Hb0 He) as (t & W1 & _ & W3).
  { rewrite Hget, Z.eqb_refl. reflexivity. }
  { reflexivity. }
  { exact Hps. }
  { intros k' j' Hk' Hne. rewrite Hget in Hk'. destruct (Z.eqb_spec k' (job_id j)); [congruence|]. exact (Hothers k' j' Hk' Hne). }
  { destruct Hsil; auto. }
  assert (Hgone : nget (job_id j) (job_table (jobs t)) = None) by (destruct e; try exact (proj1 W3); discriminate).
  clear W3. cbn [repeat app] in W1.
  assert (Hrun : match get_job (job_id j) (jobs t0) with Some j0 => state_eqb (state j0) Running | None => false end = true).
  { unfold get_job. rewrite Hget, Z.eqb_refl. reflexivity. }
  unfold wait_for_job, do_wait in W1. rewrite Hrun in W1. cbn [negb andb List.length wait_loop] in W1.
  unfold wait_for_job_async, do_wait_async. cbn [deliver]. rewrite Hrun. cbn [negb andb List.length wait_loop_async].
  destruct (wait_one (Some v) (job_id j) (AStatus e :: a :: AStatus e2 :: rest) t0) as [y s1 r1| |] eqn:E1; try discriminate.
  assert (Hy : exists q', y = RPid q' /\ r1 = a :: AStatus e2 :: rest).
  { change (AStatus e :: a :: AStatus e2 :: rest) with (JobsWait.intr 0 (AStatus e :: a :: AStatus e2 :: rest)) in E1.
    rewrite (JobsWait.wait_one_event (Some v) (job_id j) 0 e (p_pid q) _ t0 He) in E1.
    destruct (visit (p_pid q) e (job_table (jobs t0))) as [[t1 [[k0 st0]|]]|]; try discriminate; cbv zeta in E1.
    - destruct (Z.eqb k0 (job_id j)); [|injection E1 as <- _ <-; eauto].
      destruct (format_status (Some v) e _) as [[tx|]|]; try discriminate; injection E1 as <- _ <-; eauto.
    - injection E1 as <- _ <-; eauto. }
  destruct Hy as (q' & -> & ->).
  rewrite (wait_one_silent (Some v) (job_id j) a (AStatus e2 :: rest) s1 Hsil) in W1.
  cbn [deliver wait_loop_async]. rewrite (wait_one_silent (Some v) (job_id j) a (AStatus e2 :: rest) s1 Hsil).
  assert (W2 : match get_job (job_id j) (jobs s1) with
    | Some j1 => if (state_eqb (state j1) Finished || is_exited (stop_status j1))%bool
                then WDone (stop_status j1) (shell_delete_job (job_id j) (Jst (jobs s1) (match a with AFail => true | _ => false end) false (printed s1))) (AStatus e2 :: rest)
                else WDone (stop_status j1) (Jst (jobs s1) (match a with AFail => true | _ => false end) false (printed s1)) (AStatus e2 :: rest)
    | None => WPanic end = WDone e t (AStatus e2 :: rest)).
  { destruct Hsil as [->| ->]; exact W1. }
  clear W1.
  assert (Hd : forall t' r', exists m, delete_async (job_id j) (Sig k :: ks) (AStatus e2 :: r') t' = m /\ m = WPanic).
  { intros t' r'. eexists. split; [reflexivity|]. destruct He2; reflexivity. }
  destruct (get_job (job_id j) (jobs s1)) as [j1|] eqn:Ej1; [|discriminate].
  destruct (state_eqb (state j1) Finished || is_exited (stop_status j1))%bool eqn:Eb.
  2: { exfalso. injection W2 as _ <-. cbn [jobs] in Hgone. unfold get_job in Ej1. congruence. }
  destruct Hsil as [->| ->]; cbn [deliver]; cbn [jobs]; rewrite Ej1, Eb;
    match goal with |- context [delete_async _ _ _ ?t'] => destruct (Hd t' rest) as (m & -> & ->) end; reflexivity.
Qed.

(** A SIGINT while [fg] waits, and the job ends before its handler has returned:
    the handler takes the report, the wait ends without it, and the job stays in
    the list as running for ever. *)
Theorem C138_interrupt_refuted : forall w sg d ws x xs s b n j q v e m rest, sget (lit "fg") (al (im s)) = None ->
  Forall written_arg ws -> Forall2 (ordinary (expand_var (cm (im s)))) ws (x :: xs) ->
  basic (jobs (js (im s))) -> designates x b n -> named_job b n (jobs (js (im s))) = Some j ->
  state j <> Waiting -> processes j = [q] -> r_kill (w (trace s)) (p_pid q) = true ->
  nget (p_pid q) (pid_to_job (jobs (js (im s)))) = Some (job_id j) -> is_exited (stop_status j) = false ->
  expand_var (cm (im s)) (lit "PS4") = Some v -> handlers (im s) = true -> forked (im s) = false -> sg PStart (trace s) = [] ->
  let tr := EKill (p_pid q) :: trace s in
  r_waits (w tr) = AStatus e :: AFail :: rest -> event_of e (p_pid q) -> sg PWait tr = [Int [m]] -> sg PEnd (EWait (job_id j) :: tr) = [] ->
  exists s', exec_text_async w sg (S d) (r_words (lit "fg" :: ws)) s = (OOk 0, s') /\
    nget (job_id j) (job_table (jobs (js (im s')))) = Some (Job [report (p_pid q) e q] (job_id j) (stop_status j) Running false (changed j)).
Proof.
  intros w sg d ws x xs s b n j q v e m rest Ha Hw Ho B Hx Hj Hu Hps Hk Hpid Hst Hv Hh Hf H0 tr Ew He Hsg Hend.
  rewrite (fg_no_start w sg d ws x xs s b n j Ha Hw Ho Hx B Hj Hu); [|rewrite Hps; intros p [<-|[]]; exact Hk|exact H0].
  set (t0 := js (im (fg_starts j (blocked s)))).
  set (t1 := with_jobs (put_job (job_id j) (set_process_status (p_pid q) e (continued false j)) (jobs t0)) (with_sigchld true t0)).
  assert (Hget : nget (job_id j) (job_table (jobs t0)) = Some (continued false j)).
  { change t0 with (in_front j (with_masked true (js (im s)))). rewrite in_front_get by exact B. rewrite Z.eqb_refl. reflexivity. }
  assert (Hpid0 : nget (p_pid q) (pid_to_job (jobs t0)) = Some (job_id j)) by exact Hpid.
  assert (Hget1 : nget (job_id j) (job_table (jobs t1)) = Some (set_process_status (p_pid q) e (continued false j))).
  { cbn. rewrite nget_ninsert, Z.eqb_refl; [reflexivity|]. apply nsorted_ninsert, B. }
  assert (Hhand : handled (Some v) m (AStatus e :: AFail :: rest) t0 = WDone tt t1 (AFail :: rest)).
  { unfold handled.
    assert (Hdel : deletes (Some v) (AStatus e :: AFail :: rest) t0 = false).
    { remember (p_pid q) as pq. destruct He; cbn [deletes about]; unfold get_job_pid; rewrite Hpid0, Hget; reflexivity. }
    rewrite Hdel. unfold sig_chld. cbn [jobs with_sigchld]. unfold get_job.
    unfold t1. remember (p_pid q) as pq. destruct He; rewrite Hpid0, Hget; reflexivity. }
  assert (Htr : trace (fg_starts j (blocked s)) = tr) by (unfold fg_starts; cbn [trace]; rewrite Hps; reflexivity).
  assert (E : wait_job_async w sg (job_id j) (fg_starts j (blocked s)) =
    (OOk (stop_status j), Shell (with_js (Jst (jobs t1) true false (printed t1)) (im (fg_starts j (blocked s)))) (EWait (job_id j) :: tr))).
  { unfold wait_job_async, arriving. rewrite Htr, Ew, Hsg.
    change (handlers (im (fg_starts j (blocked s)))) with (handlers (im s)). change (forked (im (fg_starts j (blocked s)))) with (forked (im s)).
    change (cm (im (fg_starts j (blocked s)))) with (cm (im s)). rewrite Hh, Hf, Hv. cbn [andb negb]. fold t0.
    unfold wait_for_job_async. cbn [deliver in_sigint]. rewrite Hhand. unfold do_wait_async, get_job. rewrite Hget1.
    cbn [set_process_status state continued with_processes state_eqb negb andb wait_loop_async List.length].
    rewrite (wait_one_silent (Some v) (job_id j) AFail rest t1 (or_introl eq_refl)). cbn [deliver jobs]. rewrite Hget1.
    cbn [set_process_status state continued with_processes stop_status state_eqb orb]. rewrite Hst. reflexivity. }
  rewrite (seq_ok _ _ _ _ _ E). rewrite (seq_ok interrupts_on _ _ tt (Shell (with_js (Jst (jobs t1) false false (printed t1)) (im (fg_starts j (blocked s)))) (EWait (job_id j) :: tr))) by reflexivity.
  assert (E2 : forall s2, trace s2 = EWait (job_id j) :: tr -> signals w sg PEnd s2 = (OOk tt, s2)).
  { intros s2 H. unfold signals, taken, arriving. rewrite H, Hend. destruct (handlers (im s2) && negb (forked (im s2)))%bool; destruct (masked (js (im s2))); reflexivity. }
  rewrite (seq_ok _ _ _ _ _ (E2 (Shell (with_js (Jst (jobs t1) false false (printed t1)) (im (fg_starts j (blocked s)))) (EWait (job_id j) :: tr)) eq_refl)). eexists. split; [reflexivity|]. cbn [im js with_js jobs]. rewrite Hget1.
  unfold set_process_status, continued, with_processes. cbn. rewrite Hps. cbn. unfold report. rewrite Z.eqb_refl. reflexivity.
Qed.

(** [cat] was stopped; [fg] is told [as_]. *)
Definition fg_os (as_ : list answer) : os := fun t =>
  let r := ex_reports 0 in
  Reports (r_isfile r) (fun _ _ => false) (r_read r) (r_chdir r) (r_cwd r) (r_kill r) (r_pipe r) (Some 101%positive) (r_exec r) (r_getpid r)
    (match t with EKill _ :: _ => as_ | EFork _ _ _ :: _ => [AStatus (Stopped 101 SIGTSTP); AFail] | _ => repeat AFail 9 end) (r_subst r).
Definition fg_shell : shell := snd (exec_text (fg_os []) 5 (lit " cat") (Shell (at_prompt ex_image) [])).
Lemma fg_one : designates (lit "%1") true 1.
Proof. apply des_job. exists (lit "1"), 1%N. split; [left; reflexivity|]. split; [discriminate|]. split; [reflexivity|]. split; [reflexivity|lia]. Qed.
Example C138_example :
  let line := lit " fg %1" in
  let as_ := [AIntr; AStatus (Exited 101 3)] ++ repeat AFail 9 in
  let sg := (fun p _ => match p with PWait => [Sig 0; Pause; Sig 1; Pause; Sig 2] | PStart | PEnd => [Int [1%nat; 0%nat]; Sig 0] | _ => [] end) in
  line = r_words [lit "fg"; lit "%1"] /\ fg_child (fg_os as_) sg 101 1 (Exited 101 3) (repeat AFail 9) /\ not_continued (trace fg_shell) /\
  (exists j q, named_job true 1 (jobs (js (im fg_shell))) = Some j /\ state j = SStopped /\ processes j = [q] /\ p_pid q = 101 /\
     is_exited (stop_status j) = false /\ nget 101 (pid_to_job (jobs (js (im fg_shell)))) = Some 1) /\
  (exists s', exec_text_async (fg_os as_) sg 5 line fg_shell = (OOk 0, s') /\ job_table (jobs (js (im s'))) = []) /\
  fst (exec_text_async (fg_os [AStatus (Exited 101 3); AStatus StillAlive; AStatus (Exited 102 0)]) (at_point PWait [Pause; Pause; Pause; Sig 0]) 5 line fg_shell) = OPanic /\
  (exists s', exec_text_async (fg_os (AStatus (Exited 101 3) :: repeat AFail 9)) (at_point PWait [Int [0%nat]]) 5 line fg_shell = (OOk 0, s') /\
     map (fun x => state (snd x)) (job_table (jobs (js (im s')))) = [Running]) /\
  fst (main_async (fg_os [AStatus (Exited 101 3); AStatus StillAlive; AStatus (Exited 102 0)])
    (fun p tr => match p, tr with PWait, EKill _ :: _ => [Pause; Pause; Pause; Sig 0] | _, _ => [] end) 5 0 (words ["rsh"]%string)
    [TLine (lit "cat"); TLine line; TClosed] (Shell ex_fresh [])) = OPanic.
Proof.
  cbn zeta. split; [reflexivity|]. split.
  { split; try (intros; reflexivity).
    - constructor.
    - repeat constructor.
    - intros tr. cbn. repeat constructor.
    - intros tr. cbn. lia.
    - intros p tr H. split; [destruct tr as [|[] tr]; try destruct H; repeat constructor|]. destruct tr as [|[] tr]; try destruct H; destruct p; cbn; lia. }
  split; [exact I|]. split; [do 2 eexists; vm_compute; repeat split; reflexivity|].
  split; [eexists; split; [vm_compute; reflexivity|reflexivity]|]. split; [vm_compute; reflexivity|].
  split; [eexists; split; [vm_compute; reflexivity|reflexivity]|vm_compute; reflexivity].
Qed.

Print Assumptions C138_same_partial.
Print Assumptions C138_second_refuted.
Print Assumptions C138_interrupt_refuted.
