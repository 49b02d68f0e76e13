(** Properties C95-C102: job control commands, and how commands are put
    together. *)
From Verif Require Import Base BaseFacts Lexer LexerSpec Ast Parser GrammarSpec.
From Verif Require Import Context.
From Verif Require ContextSpec ContextFacts ContextLaws.
From Verif Require Import Alias Expand ExpandSpec ExpandFacts ExpandLaws Jobs Shell Builtins Eval.
From Verif Require Import EvalSpec EvalFacts EvalLaws EvalKeeps RunSpec RunLaws.
From Verif Require Import PipeSpec PipeLaws ChildLaws PipeRun JobsSpec JobsFacts JobsLaws JobsWait.
From Verif Require Import PropertiesCrash PropertiesBuiltins.
From Verif Require EvalStack EvalJobs EvalForked JobsPipe.
From Verif Require Import JobsReports.
From Verif Require PropertiesEval PropertiesJobs PropertiesContext.
Local Open Scope Z_scope.

(** ** C95 *)

(** The job [j] continued in the background or in the foreground. *)
Definition continued (bg : bool) (j : job) : job :=
  Job (processes j) (job_id j) (stop_status j) Running bg (changed j).
(** What is printed about it. *)
Definition continued_line (bg : bool) (j : job) : str :=
  lit "[" ++ Z_to_str (job_id j) ++ lit "] Running " ++ join (lit " | ") (map p_cmd (processes j)) ++ if bg then lit " &" else [].
(** The shell [s'] after the job [j] was continued in [s]: every process of it was
    sent the signal, in order, nothing else happened to any table. *)
Definition after_continue (bg : bool) (j : job) (s s' : shell) : Prop :=
  trace s' = rev (map (fun p => EKill (p_pid p)) (processes j)) ++ trace s /\
  (forall k, nget k (job_table (jobs (js (im s')))) =
     if Z.eqb k (job_id j) then Some (continued bg j) else nget k (job_table (jobs (js (im s))))) /\
  pid_to_job (jobs (js (im s'))) = pid_to_job (jobs (js (im s))) /\
  background_jobs (jobs (js (im s'))) = background_jobs (jobs (js (im s))) /\
  current_job (jobs (js (im s'))) = current_job (jobs (js (im s))) /\
  next_job_id (jobs (js (im s'))) = next_job_id (jobs (js (im s))) /\
  got_sigchld (js (im s')) = got_sigchld (js (im s)) /\
  printed (js (im s')) = printed (js (im s)) ++ [continued_line bg j] /\
  basic (jobs (js (im s'))) /\
  im s' = with_js (js (im s')) (im s).

Lemma named_job_in b n jc j : named_job b n jc = Some j -> exists k, nget k (job_table jc) = Some j.
Proof.
  unfold named_job. destruct b; [intros H; exists n; exact H|].
  destruct (nget _ (pid_to_job jc)) as [id|]; [intros H; exists id; exact H|discriminate].
Qed.

Lemma sent_all killed ps : forallb (fun p => killed (p_pid p)) ps = true -> sent killed ps = map p_pid ps.
Proof.
  induction ps as [|p ps IH]; [reflexivity|]. cbn. intros H. apply andb_true_iff in H. destruct H as [-> H].
  rewrite (IH H). reflexivity.
Qed.
Lemma fg_or_bg_runs w fg b n j s : basic (jobs (js (im s))) -> named_job b n (jobs (js (im s))) = Some j ->
  state j <> Waiting -> NoDup (map p_pid (processes j)) ->
  (forall p, In p (processes j) -> r_kill (w (trace s)) (p_pid p) = true) ->
  exists s1, after_continue (negb fg) j s s1 /\ masked (js (im s1)) = masked (js (im s)) /\
    fg_or_bg w fg b n s = (if fg then (wait_job w (job_id j) ;; ret tt) s1 else (OOk tt, s1)).
Proof.
  intros B Hj Hu Hd Hk. destruct (named_job_in _ _ _ _ Hj) as [k Hin]. pose proof (b_ids _ B k j Hin) as Hid.
  unfold fg_or_bg.
  set (found := if b then get_job n (jobs (js (im s))) else get_job_pid (to_i32 n) (jobs (js (im s)))).
  rewrite (bind_ok (look (fun i => if b then get_job n (jobs (js i)) else get_job_pid (to_i32 n) (jobs (js i)))) _ s found s eq_refl).
  assert (Hf : found = named_job b n (jobs (js (im s)))) by (unfold found, named_job; destruct b; reflexivity).
  rewrite Hf, Hj. clear found Hf.
  assert (Eb : borrowed j = false) by (unfold borrowed; destruct (state j); try reflexivity; congruence). rewrite Eb. cbv iota.
  rewrite (bind_ok (ask w r_kill) _ s (r_kill (w (trace s))) s eq_refl).
  assert (Ea : forallb (fun p => r_kill (w (trace s)) (p_pid p)) (processes j) = true) by (apply forallb_forall; exact Hk).
  set (j1 := with_background (negb fg) (with_state Running j)).
  set (st := print (lit "[" ++ Z_to_str (job_id j1) ++ lit "] " ++ job_text j1) (with_jobs (put_job (job_id j) j1 (jobs (js (im s)))) (js (im s)))).
  set (t1 := rev (map (fun p => EKill (p_pid p)) (processes j)) ++ trace s).
  rewrite (seq_ok (fun s0 => (OOk tt, Shell (im s0) (rev (map EKill (sent (r_kill (w (trace s))) (processes j))) ++ trace s0))) _ s tt (Shell (im s) t1)).
  2:{ rewrite (sent_all _ _ Ea), map_map. reflexivity. }
  rewrite (seq_ok (try_ _) _ (Shell (im s) t1) tt (Shell (with_js st (im s)) t1)).
  2:{ unfold try_, resume, get_job. cbn [im]. rewrite Hid, Hin. fold j1. change (processes j1) with (processes j). rewrite Ea, <- Hid. reflexivity. }
  eexists. split; [|split; [|destruct fg; reflexivity]]; [|reflexivity].
  unfold after_continue. cbn [im trace js with_js st print with_jobs jobs put_job job_table pid_to_job background_jobs current_job
    next_job_id got_sigchld printed].
  repeat (split; [try reflexivity|]); try reflexivity.
  - intros k'. rewrite nget_ninsert by apply B. reflexivity.
  - unfold job_text. change (processes j1) with (processes j). rewrite (commands_text_join _ Hd), state_text_word.
    reflexivity.
  - change (basic (put_job (job_id j) j1 (jobs (js (im s))))). rewrite Hid.
    eapply put_flags_basic; [exact B|exact Hin|reflexivity].
Qed.

(** [bg %n] and [bg pid]: the job, and only it, is continued in the background and
    shown. *)
Theorem C95_bg : forall w d ws x xs s b n j, sget (lit "bg") (al (im s)) = None ->
  Forall written_arg ws -> Forall2 (ordinary (expand_var (cm (im s)))) ws (x :: xs) ->
  basic (jobs (js (im s))) -> designates x b n -> named_job b n (jobs (js (im s))) = Some j ->
  state j <> Waiting -> NoDup (map p_pid (processes j)) ->
  (forall p, In p (processes j) -> r_kill (w (trace s)) (p_pid p) = true) ->
  exists s', exec_text w (S d) (r_words (lit "bg" :: ws)) s = (OOk 0, s') /\ after_continue true j s s' /\
    masked (js (im s')) = false.
Proof.
  intros w d ws x xs s b n j Ha Hw Ho B Hx Hj Hu Hd Hk.
  rewrite (exec_args_line w d (lit "bg") ws (x :: xs) s eq_refl ltac:(discriminate) Ha Hw Ho), call_bg.
  unfold fgbg. rewrite (seq_ok interrupts_off _ (blocked s) tt (blocked s)) by reflexivity.
  cbn [words_of sc_suffix word_list]. rewrite (bind_ok (word_at 0 (x :: xs)) _ (blocked s) x (blocked s) eq_refl).
  apply job_arg_iff in Hx. rewrite Hx. cbn [unwrap]. rewrite (bind_ok (ret (b, n)) _ (blocked s) (b, n) (blocked s) eq_refl).
  cbn [fst snd sc_name]. change (str_eqb (lit "bg") (lit "fg")) with false.
  destruct (fg_or_bg_runs w false b n j (blocked s) B Hj Hu Hd Hk) as (s1 & (A1 & A2 & A3 & A4 & A5 & A6 & A7 & A8 & A10 & A9) & _ & E).
  rewrite (seq_ok _ _ _ _ _ E). eexists. split; [reflexivity|].
  split; [|reflexivity]. cbn [negb] in *. unfold after_continue. cbn [im trace js with_js with_masked jobs got_sigchld printed].
  repeat (split; [assumption|]). rewrite A9. reflexivity.
Qed.

(** [fg %n] and [fg pid]: the same in the foreground, and then the job is waited
    for, with the signals blocked until then.  The result is 0 whatever the job's
    status is. *)
Theorem C95_fg_partial : forall w d ws x xs s b n j, sget (lit "fg") (al (im s)) = None ->
  Forall written_arg ws -> Forall2 (ordinary (expand_var (cm (im s)))) ws (x :: xs) ->
  basic (jobs (js (im s))) -> designates x b n -> named_job b n (jobs (js (im s))) = Some j ->
  state j <> Waiting -> NoDup (map p_pid (processes j)) ->
  (forall p, In p (processes j) -> r_kill (w (trace s)) (p_pid p) = true) ->
  exists s1, after_continue false j s s1 /\ masked (js (im s1)) = true /\
    exec_text w (S d) (r_words (lit "fg" :: ws)) s =
    match wait_for_job (expand_var (cm (im s)) (lit "PS4")) (job_id j) (r_waits (w (trace s1))) (js (im s1)) with
    | WDone _ t _ => (OOk 0, Shell (masked_as false (with_js t (im s))) (EWait (job_id j) :: trace s1))
    | WPanic => (OPanic, s1)
    | WBlock => (OBlock, s1)
    end.
Proof.
  intros w d ws x xs s b n j Ha Hw Ho B Hx Hj Hu Hd Hk.
  rewrite (exec_args_line w d (lit "fg") ws (x :: xs) s eq_refl ltac:(discriminate) Ha Hw Ho), call_fg.
  unfold fgbg. rewrite (seq_ok interrupts_off _ (blocked s) tt (blocked s)) by reflexivity.
  cbn [words_of sc_suffix word_list]. rewrite (bind_ok (word_at 0 (x :: xs)) _ (blocked s) x (blocked s) eq_refl).
  apply job_arg_iff in Hx. rewrite Hx. cbn [unwrap]. rewrite (bind_ok (ret (b, n)) _ (blocked s) (b, n) (blocked s) eq_refl).
  cbn [fst snd sc_name]. change (str_eqb (lit "fg") (lit "fg")) with true.
  destruct (fg_or_bg_runs w true b n j (blocked s) B Hj Hu Hd Hk) as (s1 & (A1 & A2 & A3 & A4 & A5 & A6 & A7 & A8 & A10 & A9) & Hm & E).
  assert (Hc : im s1 = with_js (js (im s1)) (im s)) by (rewrite A9; reflexivity).
  exists s1. split; [unfold after_continue; repeat (split; [assumption|]); exact Hc|]. split; [exact Hm|].
  unfold seq at 1, bind at 1. rewrite E. unfold seq, bind, wait_job.
  replace (cm (im s1)) with (cm (im s)) by (rewrite Hc; reflexivity).
  destruct (wait_for_job _ _ _ _) as [st t r| |]; try reflexivity.
  cbn. rewrite Hc. reflexivity.
Qed.

(** When the job is a single process and every other job is finished or stopped:
    the wait ends with the next event of the process; then the job is gone, or
    stopped again and current, and the other jobs are as before. *)
Theorem C95_fg_single : forall w d ws x xs s b n j q v k e m a rest, sget (lit "fg") (al (im s)) = None ->
  Forall written_arg ws -> Forall2 (ordinary (expand_var (cm (im s)))) ws (x :: xs) ->
  basic (jobs (js (im s))) -> designates x b n -> named_job b n (jobs (js (im s))) = Some j ->
  state j <> Waiting -> processes j = [q] -> r_kill (w (trace s)) (p_pid q) = true ->
  (forall k' j', nget k' (job_table (jobs (js (im s)))) = Some j' -> k' <> job_id j -> at_rest (p_pid q) j') ->
  expand_var (cm (im s)) (lit "PS4") = Some v ->
  r_waits (w (EKill (p_pid q) :: trace s)) = repeat AIntr k ++ AStatus e :: repeat AIntr m ++ a :: rest ->
  event_of e (p_pid q) -> a = AFail \/ a = AStatus StillAlive ->
  exists s', exec_text w (S d) (r_words (lit "fg" :: ws)) s = (OOk 0, s') /\
    trace s' = EWait (job_id j) :: EKill (p_pid q) :: trace s /\ masked (js (im s')) = false /\
    exit_status (im s') = exit_status (im s) /\
    (forall k', k' <> job_id j -> nget k' (job_table (jobs (js (im s')))) = nget k' (job_table (jobs (js (im s))))) /\
    match e with
    | Stopped _ _ =>
        nget (job_id j) (job_table (jobs (js (im s')))) = Some (Job [report (p_pid q) e q] (job_id j) e SStopped false true) /\
        current_job (jobs (js (im s'))) = Some (job_id j)
    | _ => nget (job_id j) (job_table (jobs (js (im s')))) = None
    end.
Proof.
  intros w d ws x xs s b n j q v k e m a rest Ha Hw Ho B Hx Hj Hu Hps Hk Hothers Hv Hwt He Hend.
  destruct (C95_fg_partial w d ws x xs s b n j Ha Hw Ho B Hx Hj Hu) as (s1 & (A1 & A2 & A3 & A4 & A5 & A6 & A7 & A8 & A10 & A9) & Hm & E).
  { rewrite Hps. constructor; [intros []|constructor]. }
  { rewrite Hps. intros p [<-|[]]. exact Hk. }
  rewrite Hps in A1. cbn [map rev app] in A1. rewrite E, A1, Hwt, Hv.
  assert (Hj1 : nget (job_id j) (job_table (jobs (js (im s1)))) = Some (continued false j)) by (rewrite A2, Z.eqb_refl; reflexivity).
  destruct (PropertiesJobs.C41_single_partial v (job_id j) k e m a rest (js (im s1)) (continued false j) q A10 He Hj1 eq_refl Hps)
    as (t & W1 & W2 & W3).
  { intros k' j' Hk' Hne. rewrite A2 in Hk'. destruct (Z.eqb_spec k' (job_id j)); [congruence|]. exact (Hothers k' j' Hk' Hne). }
  { exact Hend. }
  rewrite W1. eexists. split; [reflexivity|]. cbn [trace im]. split; [reflexivity|]. split; [reflexivity|]. split; [reflexivity|].
  cbn [masked_as js with_js with_masked jobs]. split.
  - intros k' Hne. rewrite (W2 k' Hne), A2. destruct (Z.eqb_spec k' (job_id j)); [congruence|reflexivity].
  - destruct e; try exact (proj1 W3). exact W3.
Qed.

(** Whatever is reported about its processes while [fg] waits, when every other job
    is finished or stopped: the job is gone when all its processes have ended, but
    also when only its first has exited; otherwise it is kept, with what was
    reported, and is stopped and current when nothing of it runs. *)
Theorem C95_fg_wait : forall w d ws x xs s b n j v ps', sget (lit "fg") (al (im s)) = None ->
  Forall written_arg ws -> Forall2 (ordinary (expand_var (cm (im s)))) ws (x :: xs) ->
  basic (jobs (js (im s))) -> designates x b n -> named_job b n (jobs (js (im s))) = Some j ->
  state j <> Waiting -> NoDup (map p_pid (processes j)) ->
  (forall p, In p (processes j) -> r_kill (w (trace s)) (p_pid p) = true) ->
  (forall k' j' q, nget k' (job_table (jobs (js (im s)))) = Some j' -> k' <> job_id j -> In q (map p_pid (processes j)) -> at_rest q j') ->
  expand_var (cm (im s)) (lit "PS4") = Some v ->
  let kills := rev (map (fun p => EKill (p_pid p)) (processes j)) in
  let as_ := r_waits (w (kills ++ trace s)) in
  ends as_ -> heard as_ <> [] -> learnt (heard as_) (processes j) ps' ->
  let ended := all_reported ps' /\ ~ some_stopped ps' in
  let first_exited := exists q qs p c, ps' = q :: qs /\ p_status q = Some (Exited p c) in
  exists s', exec_text w (S d) (r_words (lit "fg" :: ws)) s = (OOk 0, s') /\
    trace s' = EWait (job_id j) :: kills ++ trace s /\ masked (js (im s')) = false /\
    exit_status (im s') = exit_status (im s) /\
    (forall k', k' <> job_id j -> nget k' (job_table (jobs (js (im s')))) = nget k' (job_table (jobs (js (im s))))) /\
    (ended \/ first_exited -> nget (job_id j) (job_table (jobs (js (im s')))) = None) /\
    (~ ended -> ~ first_exited -> exists j', nget (job_id j) (job_table (jobs (js (im s')))) = Some j' /\
       processes j' = ps' /\ background j' = false /\
       (all_reported ps' -> state j' = SStopped /\ current_job (jobs (js (im s'))) = Some (job_id j)) /\
       (~ all_reported ps' -> state j' = Running)).
Proof.
  intros w d ws x xs s b n j v ps' Ha Hw Ho B Hx Hj Hu Hd Hk Hothers Hv kills as_ Hend Hne HL ended first_exited.
  destruct (C95_fg_partial w d ws x xs s b n j Ha Hw Ho B Hx Hj Hu Hd Hk) as (s1 & (A1 & A2 & A3 & A4 & A5 & A6 & A7 & A8 & A10 & A9) & Hm & E).
  rewrite E, A1, Hv. fold kills. fold as_.
  assert (Hj1 : nget (job_id j) (job_table (jobs (js (im s1)))) = Some (continued false j)) by (rewrite A2, Z.eqb_refl; reflexivity).
  destruct (wait_learnt v (job_id j) as_ (js (im s1)) (continued false j) ps' Hend Hne HL (b_sorted _ A10) Hj1 eq_refl eq_refl)
    as (st & t & r & W1 & W2 & W3 & W4 & W5).
  { intros k' j' q Hk' Hn. rewrite A2 in Hk'. destruct (Z.eqb_spec k' (job_id j)); [congruence|]. exact (Hothers k' j' q Hk' Hn). }
  assert (Hfe : first_exited <-> is_exited st = true).
  { unfold first_exited. destruct ps' as [|q0 qs]; [discriminate|]. cbn in W2. split.
    - intros (q & qs' & p & c & F & G). injection F as -> ->. rewrite W2 in G. injection G as ->. reflexivity.
    - intros F. destruct st as [p c| | | |]; try discriminate. exists q0, qs, p, c. auto. }
  rewrite W1. eexists. split; [reflexivity|]. cbn [trace im]. split; [reflexivity|]. split; [reflexivity|]. split; [reflexivity|].
  cbn [masked_as js with_js with_masked jobs]. split; [|split].
  - intros k' Hn. rewrite (W3 k' Hn), A2. destruct (Z.eqb_spec k' (job_id j)); [congruence|reflexivity].
  - intros [F|F]; apply W4; [left; exact F|right; apply Hfe, F].
  - intros N1 N2. destruct (W5 N1) as (j' & R1 & R2 & R3 & R4 & R5 & R6 & R7).
    { destruct (is_exited st) eqn:Es; [|reflexivity]. destruct N2. exact (proj2 Hfe eq_refl). }
    exists j'. split; [exact R1|]. split; [exact R2|]. split; [exact R5|]. split; [exact R6|exact R7].
Qed.

(** ** C53: [fg] *)

(** When the job could be continued: [fg] crashes exactly when one of the statuses
    reported while it waits reaches, before the process it is about, a job whose
    first process has reported nothing. *)
Theorem C53_fg_wait : forall w d ws x xs s b n j v, sget (lit "fg") (al (im s)) = None ->
  Forall written_arg ws -> Forall2 (ordinary (expand_var (cm (im s)))) ws (x :: xs) ->
  basic (jobs (js (im s))) -> designates x b n -> named_job b n (jobs (js (im s))) = Some j ->
  state j <> Waiting -> NoDup (map p_pid (processes j)) ->
  (forall p, In p (processes j) -> r_kill (w (trace s)) (p_pid p) = true) ->
  expand_var (cm (im s)) (lit "PS4") = Some v ->
  let as_ := r_waits (w (rev (map (fun p => EKill (p_pid p)) (processes j)) ++ trace s)) in
  Forall (fun e => exists q, event_of e q) (heard as_) ->
  fst (exec_text w (S d) (r_words (lit "fg" :: ws)) s) = OPanic <->
  stumbles (heard as_) (ninsert (job_id j) (continued false j) (job_table (jobs (js (im s))))).
Proof.
  intros w d ws x xs s b n j v Ha Hw Ho B Hx Hj Hu Hd Hk Hv as_ He.
  destruct (C95_fg_partial w d ws x xs s b n j Ha Hw Ho B Hx Hj Hu Hd Hk) as (s1 & (A1 & A2 & A3 & A4 & A5 & A6 & A7 & A8 & A10 & A9) & Hm & E).
  rewrite E, A1, Hv. fold as_.
  assert (Hj1 : nget (job_id j) (job_table (jobs (js (im s1)))) = Some (continued false j)) by (rewrite A2, Z.eqb_refl; reflexivity).
  assert (K : alike (ninsert (job_id j) (continued false j) (job_table (jobs (js (im s))))) (job_table (jobs (js (im s1))))).
  { intros k. rewrite nget_ninsert by apply B. rewrite A2. destruct (Z.eqb k (job_id j)); [split; reflexivity|].
    destruct (nget k (job_table (jobs (js (im s))))); [split; reflexivity|exact I]. }
  transitivity (stumbles (heard as_) (job_table (jobs (js (im s1))))).
  2:{ split; intros C; eapply alike_stumbles; [exact C|apply alike_sym, K|exact C|exact K]. }
  rewrite <- (wait_stumbles v (job_id j) as_ (js (im s1)) A10 He (ex_intro _ _ (conj Hj1 eq_refl))).
  match goal with |- fst (match ?r with _ => _ end) = _ <-> _ => transitivity (r = WPanic); [destruct r; cbn [fst]; split; intros F; first [reflexivity|discriminate F]|reflexivity] end.
Qed.

(** When it could not: no argument, one that designates nothing, a process that
    cannot be signalled, or the job of the shell that runs [fg]. *)
Theorem C53_fg_before : forall w d ws vs s, sget (lit "fg") (al (im s)) = None ->
  Forall written_arg ws -> Forall2 (ordinary (expand_var (cm (im s)))) ws vs ->
  (forall k j, nget k (job_table (jobs (js (im s)))) = Some j -> job_id j = k) ->
  (forall x xs b n j, vs = x :: xs -> designates x b n -> named_job b n (jobs (js (im s))) = Some j ->
     unresumable (w (trace s)) j) ->
  fst (exec_text w (S d) (r_words (lit "fg" :: ws)) s) = OPanic <-> crashes (im s) (w (trace s)) "fg" vs.
Proof.
  intros w d ws vs s Ha Hw Ho Hids Hno.
  rewrite (exec_args_line w d (lit "fg") ws vs s eq_refl ltac:(discriminate) Ha Hw Ho), crash_lift, call_fg.
  unfold fgbg. rewrite (seq_ok interrupts_off _ (blocked s) tt (blocked s)) by reflexivity.
  cbn [words_of sc_suffix word_list]. destruct vs as [|x xs].
  { cbn. split; [intros _; apply cr_missing; cbn; auto|reflexivity]. }
  rewrite (bind_ok (word_at 0 (x :: xs)) _ (blocked s) x (blocked s) eq_refl).
  destruct (job_arg x) as [[b n]|] eqn:Ea.
  2:{ cbn. split; [|reflexivity]. intros _. apply cr_designator; [cbn; auto|]. apply job_arg_none. exact Ea. }
  cbn [unwrap]. rewrite (bind_ok (ret (b, n)) _ (blocked s) (b, n) (blocked s) eq_refl). cbn [fst snd sc_name].
  change (str_eqb (lit "fg") (lit "fg")) with true. apply job_arg_iff in Ea.
  assert (Hnj : named_job b n (jobs (js (im s))) = if b then get_job n (jobs (js (im (blocked s)))) else get_job_pid (to_i32 n) (jobs (js (im (blocked s)))))
    by (unfold named_job; destruct b; reflexivity).
  unfold fg_or_bg, seq at 1, bind at 1.
  rewrite (bind_ok (look (fun i => if b then get_job n (jobs (js i)) else get_job_pid (to_i32 n) (jobs (js i)))) _ (blocked s) _ (blocked s) eq_refl).
  rewrite <- Hnj. destruct (named_job b n (jobs (js (im s)))) as [j|] eqn:Ej.
  - pose proof (Hno x xs b n j eq_refl Ea Ej) as Hr.
    assert (HR : crashes (im s) (w (trace s)) "fg" (x :: xs)) by (eapply cr_kill; [cbn; auto|exact Ea|exact Ej|exact Hr]).
    split; [intros _; exact HR|]. intros _.
    destruct Hr as [Hr|(p & Hp & Hr)]; [unfold borrowed; rewrite Hr; reflexivity|].
    destruct (borrowed j); [reflexivity|].
    rewrite (bind_ok (ask w r_kill) _ (blocked s) (r_kill (w (trace s))) (blocked s) eq_refl).
    destruct (named_job_in _ _ _ _ Ej) as [k Hin].
    unfold seq at 1, bind at 1. cbv beta iota.
    unfold seq at 1, bind at 1, try_, resume, get_job. cbn [im]. change (jobs (js (im (blocked s)))) with (jobs (js (im s))).
    rewrite (Hids k j Hin), Hin. cbn [processes with_background with_state].
    destruct (forallb (fun p0 => r_kill (w (trace s)) (p_pid p0)) (processes j)) eqn:Eb; [|reflexivity].
    rewrite forallb_forall in Eb. rewrite (Eb p Hp) in Hr. discriminate.
  - cbn. split; [discriminate|]. intros H. exfalso. inversion H; subst.
    + match goal with H : In _ _ |- _ => cbn in H; intuition discriminate end.
    + match goal with H : forall b k, ~ designates x b k |- _ => exact (H b n Ea) end.
    + match goal with H : designates x ?b' ?k', H' : named_job ?b' ?k' _ = Some _ |- _ =>
        apply job_arg_iff in H; apply job_arg_iff in Ea; rewrite Ea in H; injection H as <- <-; rewrite Ej in H'; discriminate end.
Qed.

(** A job that does not exist is an error (and the signals stay blocked). *)
Theorem C95_unknown : forall w d name ws x xs s b n, In name [lit "fg"; lit "bg"] -> sget name (al (im s)) = None ->
  Forall written_arg ws -> Forall2 (ordinary (expand_var (cm (im s)))) ws (x :: xs) ->
  designates x b n -> named_job b n (jobs (js (im s))) = None ->
  exec_text w (S d) (r_words (name :: ws)) s =
  (OErr (EText (if b then lit "No job with that jid" else lit "No job with that pid")), Shell (masked_as true (im s)) (trace s)).
Proof.
  intros w d name ws x xs s b n Hname Ha Hw Ho Hx Hj.
  assert (Hb : check_if_builtin name = true /\ name <> []).
  { destruct Hname as [<-|[<-|[]]]; split; try reflexivity; discriminate. }
  rewrite (exec_args_line w d name ws (x :: xs) s (proj1 Hb) (proj2 Hb) Ha Hw Ho).
  assert (Hcall : call_builtin w (evaluate w d) (SimpleCommand None name (Some (Suffix [] (x :: xs)))) =
    fgbg w (SimpleCommand None name (Some (Suffix [] (x :: xs))))).
  { destruct Hname as [<-|[<-|[]]]; [apply call_fg|apply call_bg]. }
  rewrite Hcall. clear Hcall Hname Hb. unfold fgbg. rewrite (seq_ok interrupts_off _ (blocked s) tt (blocked s)) by reflexivity.
  cbn [words_of sc_suffix word_list]. rewrite (bind_ok (word_at 0 (x :: xs)) _ (blocked s) x (blocked s) eq_refl).
  apply job_arg_iff in Hx. rewrite Hx. cbn [unwrap]. rewrite (bind_ok (ret (b, n)) _ (blocked s) (b, n) (blocked s) eq_refl).
  cbn [fst snd sc_name]. unfold fg_or_bg.
  set (found := if b then get_job n (jobs (js (im s))) else get_job_pid (to_i32 n) (jobs (js (im s)))).
  assert (Hf : found = None) by (rewrite <- Hj; unfold found, named_job; destruct b; reflexivity).
  unfold seq at 1, bind at 1.
  rewrite (bind_ok (look (fun i => if b then get_job n (jobs (js i)) else get_job_pid (to_i32 n) (jobs (js i)))) _ (blocked s) found (blocked s) eq_refl).
  rewrite Hf. destruct b; reflexivity.
Qed.

(** The first command is stopped, the second one ends, then the first one is
    continued and ends with 5, which is not seen. *)
Definition ex_stops : os := fun t =>
  let r := PropertiesEval.ex_reports 0 in
  Reports (r_isfile r) (r_open r) (r_read r) (r_chdir r) (r_cwd r) (r_kill r) (r_pipe r)
    (Some match t with [] => 101%positive | _ => 102%positive end) (r_exec r) (r_getpid r)
    (match t with
     | EFork _ _ (Some 101%positive) :: _ => [AStatus (Stopped 101 SIGTSTP); AStatus StillAlive]
     | EFork _ _ _ :: _ => [AStatus (Exited 102 0); AStatus StillAlive]
     | EKill _ :: _ => [AIntr; AStatus (Exited 101 5); AFail]
     | _ => []
     end) (r_subst r).
Example C95_example :
  let run t := exec_text ex_stops 5 t PropertiesEval.ex_shell in
  let s1 := snd (run (lit " cat ; ls")) in
  fst (run (lit " cat ; ls")) = OOk 0 /\ designates (lit "%1") true 1 /\ designates (lit "101") false 101 /\
  (exists j, named_job true 1 (jobs (js (im s1))) = Some j /\ named_job false 101 (jobs (js (im s1))) = Some j /\
     state j = SStopped /\ map p_pid (processes j) = [101] /\ at_rest 102 j) /\
  (exists s2, exec_text ex_stops 5 (lit " fg %1") s1 = (OOk 0, s2) /\ job_table (jobs (js (im s2))) = [] /\
     exists l, printed (js (im s2)) = l ++ [lit "[1] Running cat"]) /\
  (exists s2, exec_text ex_stops 5 (lit " bg 101") s1 = (OOk 0, s2) /\ (exists l, printed (js (im s2)) = l ++ [lit "[1] Running cat &"])) /\
  fst (exec_text ex_stops 5 (lit " fg %2") s1) = OErr (EText (lit "No job with that jid")).
Proof.
  cbn zeta. split; [vm_compute; reflexivity|]. split; [|split; [|split; [|split; [|split]]]].
  - apply des_job. exists (lit "1"), 1%N. split; [left; reflexivity|]. split; [discriminate|]. split; [reflexivity|]. split; [reflexivity|lia].
  - apply des_pid; [intros [t E]; discriminate|]. exists (lit "101"), 101%N.
    split; [left; reflexivity|]. split; [discriminate|]. split; [reflexivity|]. split; [reflexivity|lia].
  - eexists. split; [vm_compute; reflexivity|]. split; [vm_compute; reflexivity|]. split; [reflexivity|]. split; [reflexivity|].
    right. do 2 eexists. split; [reflexivity|]. split; [reflexivity|]. intros (q & [<-|[]] & E). discriminate.
  - eexists. split; [vm_compute; reflexivity|]. split; [reflexivity|]. eexists. vm_compute. instantiate (1 := [_]). reflexivity.
  - eexists. split; [vm_compute; reflexivity|]. eexists. vm_compute. instantiate (1 := [_]). reflexivity.
  - vm_compute. reflexivity.
Qed.

(** [cat | sort] is stopped, and [fg] is told [es]. *)
Definition ex_two (es : list wait_status) : os := fun t =>
  let r := PropertiesEval.ex_reports 0 in
  let n := List.length (filter (fun e => match e with EFork _ _ _ => true | _ => false end) t) in
  Reports (r_isfile r) (r_open r) (r_read r) (r_chdir r) (r_cwd r) (r_kill r) (r_pipe r)
    (Some (101 + Pos.of_succ_nat n - 1)%positive) (r_exec r) (r_getpid r)
    (match t with
     | EKill _ :: _ => AIntr :: map AStatus es ++ [AStatus StillAlive]
     | _ => [AStatus (Stopped 101 SIGTSTP); AStatus (Stopped 102 SIGTSTP); AStatus StillAlive]
     end) (r_subst r).
Definition two_stopped : shell := snd (exec_text (ex_two []) 5 (lit "cat | sort") PropertiesEval.ex_shell).
Definition fg_two (es : list wait_status) :=
  let '(o, s) := exec_text (ex_two es) 5 (lit "fg %1") two_stopped in
  (o, map (fun kj => (fst kj, state (snd kj), map p_status (processes (snd kj)))) (job_table (jobs (js (im s))))).
Example C95_wait_example :
  (exists j, named_job true 1 (jobs (js (im two_stopped))) = Some j /\
     let ws := [Exited 102 0; Stopped 101 SIGTSTP] in
     exists ps', learnt ws (processes j) ps' /\ map p_status ps' = [Some (Stopped 101 SIGTSTP); Some (Exited 102 0)] /\
       heard (r_waits (ex_two ws (rev (map (fun p => EKill (p_pid p)) (processes j)) ++ trace two_stopped))) = ws) /\
  fg_two [Exited 102 0; Stopped 101 SIGTSTP] = (OOk 0, [(1, SStopped, [Some (Stopped 101 SIGTSTP); Some (Exited 102 0)])]) /\
  fg_two [Stopped 101 SIGTSTP; Stopped 102 SIGTSTP; Exited 101 7; Exited 102 0] = (OOk 0, []) /\
  fg_two [Signaled 101 SIGKILL false; Stopped 102 SIGTSTP] =
    (OOk 0, [(1, SStopped, [Some (Signaled 101 SIGKILL false); Some (Stopped 102 SIGTSTP)])]).
Proof.
  split; [|vm_compute; auto].
  eexists. split; [vm_compute; reflexivity|]. cbn zeta. eexists. split; [|split; [|vm_compute; reflexivity]].
  - eapply le_one; [constructor|right; left; reflexivity|reflexivity|right; do 2 eexists; reflexivity|reflexivity|discriminate|].
    eapply le_one; [constructor|left; reflexivity|reflexivity|right; do 2 eexists; reflexivity|reflexivity|discriminate|].
    apply le_nil.
  - reflexivity.
Qed.

(** Refuted: a job of which a process is stopped is not always kept. *)
Theorem C95_lost_refuted :
  fg_two [Exited 101 0; Stopped 102 SIGTSTP] = (OOk 0, []) /\ fg_two [] = (OOk 0, [(1, Running, [Some (Stopped 101 SIGTSTP); Some (Stopped 102 SIGTSTP)])]).
Proof. split; vm_compute; reflexivity. Qed.

(** [cat] is stopped and two programs run in the background.  When the second of
    them ends while [cat] is continued, the shell crashes; not when the first or
    [cat] does, nor when [cat] stops again; and the second may end after the first. *)
Definition ex_three (es : list wait_status) : os := fun t =>
  let r := PropertiesEval.ex_reports 0 in
  let n := List.length (filter (fun e => match e with EFork _ _ _ => true | _ => false end) t) in
  Reports (r_isfile r) (r_open r) (r_read r) (r_chdir r) (r_cwd r) (fun p => Z.ltb p 103) (r_pipe r)
    (Some (101 + Pos.of_succ_nat n - 1)%positive) (r_exec r) (r_getpid r)
    (match t with EKill _ :: _ => map AStatus es ++ [AFail] | _ => [AStatus (Stopped 101 SIGTSTP); AFail] end) (r_subst r).
Definition three_jobs : shell := 
  fold_left (fun s t => snd (exec_text (ex_three []) 5 (lit t) s)) ["cat"; "ls &"; "sort &"]%string PropertiesEval.ex_shell.
Definition fg_after (es : list wait_status) (line : string) := fst (exec_text (ex_three es) 5 (lit line) three_jobs).
Example C53_fg_example :
  map (fun kj => (fst kj, state (snd kj), map p_pid (processes (snd kj)))) (job_table (jobs (js (im three_jobs)))) =
    [(1, SStopped, [101]); (2, Running, [102]); (3, Running, [103])] /\
  fg_after [Exited 103 0] "fg %1" = OPanic /\
  fg_after [Exited 102 0] "fg %1" = OOk 0 /\ fg_after [Exited 101 0] "fg %1" = OOk 0 /\ fg_after [Stopped 101 SIGTSTP] "fg %1" = OOk 0 /\
  fg_after [Exited 101 0] "fg %3" = OPanic /\ crashes (im three_jobs) (ex_three [Exited 101 0] (trace three_jobs)) "fg" [lit "%3"] /\
  fg_after [Exited 102 0; Exited 103 0; Exited 101 0] "fg %1" = OOk 0 /\ fg_after [Exited 101 0; Exited 103 0] "fg %1" = OPanic /\
  fg_after [Exited 101 0] "fg %4" <> OPanic.
Proof.
  repeat (split; [vm_compute; reflexivity|]). split; [|split; [vm_compute; reflexivity|split; [vm_compute; reflexivity|vm_compute; discriminate]]].
  eapply (cr_kill _ _ _ _ _ true 3).
  - cbn. auto.
  - apply des_job. exists (lit "3"), 3%N. split; [left; reflexivity|]. split; [discriminate|]. split; [reflexivity|]. split; [reflexivity|lia].
  - vm_compute. reflexivity.
  - right. eexists. split; [left; reflexivity|reflexivity].
Qed.

(** ** C96 *)

Lemma expand_no_words out m log p n : plain_name [] n ->
  expand out [] m log (SimpleCommand p n None) = expand out [] m log (SimpleCommand p n (Some (Suffix [] []))).
Proof.
  intros (Hn & _ & Hd & _). unfold expand. change (alias_lookup [] ?c) with (Some c). cbn iota.
  unfold expand_vars. cbn [sc_prefix sc_name sc_suffix].
  destruct (match p with Some q => _ | None => _ end) as [pre|]; [|reflexivity].
  assert (E : expand_word m n = n).
  { unfold expand_word. destruct (starts_with (lit "$") n) eqn:E; [|reflexivity].
    exfalso. apply Hd. apply starts_with_iff in E. destruct E as [t ->]. exists t. reflexivity. }
  rewrite E. unfold eval_words. cbn [sc_prefix sc_name sc_suffix].
  assert (E0 : str_eqb n [] = false) by (apply str_eqb_neq; exact Hn). rewrite E0. reflexivity.
Qed.

Lemma alias_words w (n : str) ws text (c : str) args s :
  sget n (al (im s)) = Some text -> fields text (c :: args) -> plain_name (al (im s)) c ->
  expand_command w (words_cmd n ws) s = expand_command w (words_cmd c (ws ++ args)) s.
Proof.
  intros Ha Hf Hc. 
  assert (Hx : forall out m log, expand out (al (im s)) m log (words_cmd n ws) = expand out (al (im s)) m log (words_cmd c (ws ++ args))).
  { intros out m log.
    pose proof (fun x => alias_expand out (al (im s)) m log _ _ (ar_none (al (im s)) (SimpleCommand None c x) (proj1 (proj2 Hc)))) as HN.
    assert (HA : forall x, expand out (al (im s)) m log (SimpleCommand None n x) =
      expand out [] m log (SimpleCommand None c (Some (Suffix (redirs_of x) (ExpandSpec.words_of x ++ args))))).
    { intros x. apply alias_expand. exact (ar_some (al (im s)) (SimpleCommand None n x) text c args Ha Hf). }
    unfold words_cmd. rewrite HA, HN. destruct ws as [|y ws]; cbn [redirs_of ExpandSpec.words_of s_redirect word_list app]; [|reflexivity].
    destruct args as [|z args]; [|reflexivity]. symmetry. apply expand_no_words.
    destruct Hc as (H1 & H2 & H3 & H4). split; [exact H1|]. split; [reflexivity|]. split; assumption. }
  unfold expand_command. rewrite Hx. reflexivity.
Qed.

(** The line [n ws] where [n] is an alias for the words [c args]: the same as the
    line [c ws args], if both [n] and [c] are builtins or neither is. *)
Theorem C96_alias_partial : forall w d (n : str) ws text (c : str) args s, n <> [] ->
  written_word n -> Forall written_arg ws -> written_word c -> Forall written_arg args ->
  sget n (al (im s)) = Some text -> fields text (c :: args) -> plain_name (al (im s)) c ->
  check_if_builtin n = check_if_builtin c ->
  exec_text w (S d) (r_words (n :: ws)) s = exec_text w (S d) (r_words (c :: ws ++ args)) s.
Proof.
  intros w d n ws text c args s Hn Hwn Hws Hwc Hargs Ha Hf Hc Hb.
  destruct (args_line n ws Hn Hwn Hws) as [A1 A2].
  destruct (args_line c (ws ++ args) (proj1 Hc) Hwc) as [B1 B2]; [apply Forall_app; split; assumption|].
  rewrite <- A2, <- B2, !exec_pipeline by assumption.
  pose proof (alias_words w n ws text c args (blocked s) Ha Hf Hc) as He.
  unfold eval_pipeline. rewrite !(seq_ok interrupts_off _ s tt (blocked s) eq_refl). cbn [gather eval_command].
  unfold eval_simple_command. cbn [words_cmd sc_name]. unfold words_cmd in *. rewrite Hb.
  unfold eval_builtin. destruct (check_if_builtin c); unfold bind, seq; unfold bind; rewrite He; reflexivity.
Qed.

Lemma run_single w p sc s o s' : run_job w false [(p, sc)] s = (o, s') ->
  exists i ch r, c_cmd ch = sc /\ c_proc ch = p /\
    (trace s' = EFork i ch r :: trace s \/ exists k, trace s' = EWait k :: EFork i ch r :: trace s).
Proof.
  intros H. rewrite run_job_split in H by discriminate. set (id := next_job_id (jobs (js (im s)))) in *.
  set (s1 := Shell _ (trace s)) in H. set (c0 := Child sc p (-1) (-1, -1) false).
  set (r := r_fork (w (trace s))).
  set (s2 := Shell (im s1) (EFork (im s1) c0 r :: trace s)).
  assert (Hl : exists i3, launch w id false 0 [(p, sc)] (-1) (-1, -1) s1 = (OOk tt, Shell i3 (trace s2))).
  { cbn [launch]. rewrite (bind_ok (ret (fst (-1, -1), -1)) _ s1 (-1, -1) s1 eq_refl).
    rewrite (bind_ok (fork_child w c0) _ s1 r s2 eq_refl).
    set (s3 := match r with Some q => Shell (with_js (with_jobs (started id 0 (Zpos q) (jobs (js (im s2)))) (js (im s2))) (im s2)) (trace s2) | None => s2 end).
    rewrite (seq_ok (match r with Some q => on_jobs (started id 0 (Zpos q)) | None => ret tt end) _ s2 tt s3) by (unfold s3; destruct r; reflexivity).
    cbn [Z.leb Z.compare]. rewrite (seq_ok (ret tt) _ s3 tt s3 eq_refl).
    unfold sys_close_ignored, change, seq, bind. cbn [snd fst]. eexists.
    assert (Ht : trace s3 = trace s2) by (unfold s3; destruct r; reflexivity). rewrite Ht. reflexivity. }
  destruct Hl as [i3 Hl]. rewrite (seq_ok _ _ _ _ _ Hl) in H. exists (im s1), c0, r. split; [reflexivity|]. split; [reflexivity|].
  unfold finish, seq, bind, wait_job in H. cbn [im trace] in H.
  destruct (wait_for_job _ id _ (js i3)) as [st t rest| |].
  - right. exists id. destruct st; injection H as _ <-; reflexivity.
  - left. injection H as _ <-. reflexivity.
  - left. injection H as _ <-. reflexivity.
Qed.

(** But an alias for a builtin, e.g. [alias go=cd], starts a program that has the
    name of the builtin. *)
Theorem C96_program_refuted : forall w d (n : str) ws vs text (c : str) args vs2 s o s', n <> [] ->
  written_word n -> Forall written_arg ws -> Forall2 (ordinary (expand_var (cm (im s)))) ws vs ->
  sget n (al (im s)) = Some text -> fields text (c :: args) -> plain_name (al (im s)) c ->
  Forall2 (ordinary (expand_var (cm (im s)))) args vs2 -> (forall x, In x (List.concat (c :: vs ++ vs2)) -> x <> 0%N) ->
  check_if_builtin n = false -> check_if_builtin c = true -> is_function c (cm (im s)) = false ->
  exec_text w (S d) (r_words (n :: ws)) s = (o, s') ->
  exists i ch r, c_cmd ch = SimpleCommand None c (Some (Suffix [] (vs ++ vs2))) /\ p_argv (c_proc ch) = c :: vs ++ vs2 /\
    (trace s' = EFork i ch r :: trace s \/ exists k, trace s' = EWait k :: EFork i ch r :: trace s).
Proof.
  intros w d n ws vs text c args vs2 s o s' Hn Hwn Hws Ho Ha Hf Hc Ho2 Hz Hbn Hbc Hfun H.
  destruct (args_line n ws Hn Hwn Hws) as [A1 A2]. rewrite <- A2, exec_pipeline in H by assumption.
  unfold eval_pipeline in H. rewrite (seq_ok interrupts_off _ s tt (blocked s) eq_refl) in H. cbn [gather eval_command] in H.
  set (sc := SimpleCommand None c (Some (Suffix [] (vs ++ vs2)))) in *.
  assert (E : gather w (evaluate w d) [CSimple (words_cmd n ws)] (blocked s) = (OOk [(process_new (c :: vs ++ vs2) c c, sc)], blocked s)).
  { cbn [gather eval_command]. unfold eval_simple_command. change (sc_name (words_cmd n ws)) with n. rewrite Hbn. unfold bind.
    rewrite (alias_words w n ws text c args (blocked s) Ha Hf Hc).
    rewrite (expand_words w c (ws ++ args) (vs ++ vs2) (blocked s) Hc) by (apply Forall2_app; assumption).
    rewrite (argv_words None c [] (vs ++ vs2) Hz). reflexivity. }
  cbn [gather eval_command] in E. rewrite (bind_ok _ _ _ _ _ E) in H.
  assert (E2 : run_functions (evaluate w d) [(process_new (c :: vs ++ vs2) c c, sc)] (blocked s) =
    (OOk [(process_new (c :: vs ++ vs2) c c, sc)], blocked s)).
  { cbn [run_functions snd sc_name sc]. unfold bind at 1, look. change (cm (im (blocked s))) with (cm (im s)). rewrite Hfun. reflexivity. }
  rewrite (bind_ok _ _ _ _ _ E2) in H. destruct (run_single _ _ _ _ _ _ H) as (i & ch & r & C1 & C2 & C3).
  exists i, ch, r. split; [exact C1|]. split; [rewrite C2; reflexivity|]. exact C3.
Qed.

(** And a builtin whose name is an alias for a program cannot be run at all, nor can
    the program. *)
Theorem C96_builtin_refuted : forall w d (n : str) ws vs text (c : str) args vs2 s, n <> [] ->
  Forall written_arg ws -> Forall2 (ordinary (expand_var (cm (im s)))) ws vs ->
  sget n (al (im s)) = Some text -> fields text (c :: args) -> plain_name (al (im s)) c ->
  Forall2 (ordinary (expand_var (cm (im s)))) args vs2 ->
  check_if_builtin n = true -> check_if_builtin c = false ->
  exec_text w (S d) (r_words (n :: ws)) s = (OErr (EText (lit "Not a builtin")), Shell (masked_as true (im s)) (trace s)).
Proof.
  intros w d n ws vs text c args vs2 s Hn Hws Ho Ha Hf Hc Ho2 Hbn Hbc.
  destruct (builtin_word n Hbn Hn) as [Hwn _].
  destruct (args_line n ws Hn Hwn Hws) as [A1 A2]. rewrite <- A2, exec_pipeline by assumption.
  unfold eval_pipeline. rewrite (seq_ok interrupts_off _ s tt (blocked s) eq_refl). cbn [gather eval_command].
  unfold eval_simple_command. change (sc_name (words_cmd n ws)) with n. rewrite Hbn. unfold eval_builtin, seq, bind.
  rewrite (alias_words w n ws text c args (blocked s) Ha Hf Hc).
  rewrite (expand_words w c (ws ++ args) (vs ++ vs2) (blocked s) Hc) by (apply Forall2_app; assumption).
  assert (E : call_builtin w (evaluate w d) (SimpleCommand None c (Some (Suffix [] (vs ++ vs2)))) (blocked s) =
    (OErr (EText (lit "Not a builtin")), blocked s)).
  { unfold check_if_builtin, builtin_names in Hbc. cbn [existsb] in Hbc.
    repeat (apply Bool.orb_false_iff in Hbc; destruct Hbc as [?E Hbc]).
    unfold call_builtin. cbn [sc_name].
    repeat match goal with E : str_eqb c _ = false |- _ => rewrite E; clear E end. reflexivity. }
  rewrite E. reflexivity.
Qed.

Example C96_example :
  let al0 := [(lit "go", lit "cd"); (lit "ll", lit "ls -l"); (lit "pwd", lit "ls")] in
  let s0 := Shell (with_al al0 PropertiesEval.ex_image) [] in
  let run t := exec_text PropertiesEval.ex_os 5 t s0 in
  let started t := rev (flat_map (fun e => match e with EFork _ c _ => [p_argv (c_proc c)] | EChdir d => [[lit "chdir"; d]] | _ => [] end) (trace (snd (run t)))) in
  fields (lit "ls -l") [lit "ls"; lit "-l"] /\ fields (lit "cd") [lit "cd"] /\ plain_name al0 (lit "ls") /\ plain_name al0 (lit "cd") /\
  started (lit " ll x") = [[lit "ls"; lit "x"; lit "-l"]] /\ started (lit " cd /d") = [[lit "chdir"; lit "/d"]] /\
  started (lit " go /d") = [[lit "cd"; lit "/d"]] /\ fst (run (lit " pwd")) = OErr (EText (lit "Not a builtin")).
Proof.
  cbn zeta. split; [apply fields_iff; reflexivity|]. split; [apply fields_iff; reflexivity|].
  split; [|split; [|vm_compute; repeat split]];
  (split; [discriminate|]; split; [reflexivity|]; split; [intros [t E]; discriminate|]; intros c H; cbn in H; unfold space;
   repeat match goal with H : _ \/ _ |- _ => destruct H as [<-|H] end; try contradiction;
    (split; [vm_compute; discriminate|cbn; intuition discriminate])).
Qed.

(** ** C97 *)

(** [! pipeline] does what the pipeline does, and has the same result: the status
    is not inverted. *)
Theorem C97_bang_refuted : forall w d cs s, wf_pipeline (Pipeline true cs false) ->
  r_pipeline (Pipeline true cs false) = lit " !" ++ r_pipeline (Pipeline false cs false) /\
  exec_text w d (r_pipeline (Pipeline true cs false)) s = exec_text w d (r_pipeline (Pipeline false cs false)) s.
Proof.
  intros w d cs s H. split; [reflexivity|].
  assert (H' : wf_pipeline (Pipeline false cs false)).
  { destruct H as (H1 & H2 & _). split; [exact H1|]. split; [exact H2|]. intros [E _]. discriminate. }
  destruct d as [|d]; [|rewrite !exec_pipeline by assumption; reflexivity].
  change (r_pipeline (Pipeline true cs false)) with (render [AoOne (Pipeline true cs false)]).
  change (r_pipeline (Pipeline false cs false)) with (render [AoOne (Pipeline false cs false)]).
  rewrite !exec_render by (first [discriminate | constructor; [assumption|constructor]]). reflexivity.
Qed.
Example C97_example :
  fst (PropertiesEval.ex_run " false") = OOk 1 /\ fst (PropertiesEval.ex_run " ! false") = OOk 1 /\
  PropertiesEval.ran_commands (trace (snd (PropertiesEval.ex_run " ! false && ls"))) = [lit "false"].
Proof. vm_compute. repeat split. Qed.

(** ** C98 *)

(** A group of commands in braces is accepted but never run: it is an error, the
    state is as before except that the signals stay blocked. *)
Theorem C98_group_refuted : forall w d body cs bang bg s, wf_pipeline (Pipeline bang (CGroup body :: cs) bg) ->
  exec_text w (S d) (r_pipeline (Pipeline bang (CGroup body :: cs) bg)) s =
  (OErr (EText (lit "Not implemented")), Shell (masked_as true (im s)) (trace s)).
Proof. intros w d body cs bang bg s H. rewrite exec_pipeline by exact H. reflexivity. Qed.
Example C98_example :
  let g := Pipeline false [CGroup [AoOne (Pipeline false [CSimple (words_cmd (lit "ls") [])] false)]] false in
  wf_pipeline g /\ fst (exec_text PropertiesEval.ex_os 5 (r_pipeline g) PropertiesEval.ex_shell) = OErr (EText (lit "Not implemented")) /\
  PropertiesEval.ran_commands (trace (snd (PropertiesEval.ex_run " ls"))) = [lit "ls"].
Proof.
  cbn zeta. split; [|vm_compute; repeat split].
  assert (W : Forall written_word [lit "ls"]) by (apply Forall_cons; [spelled|apply Forall_nil]).
  destruct (words_line (lit "ls") [] ltac:(discriminate) W) as [Wl _].
  split; [discriminate|]. split; [|intros [E _]; discriminate]. split; [|exact I]. split; [discriminate|].
  split; [exact Wl|exact I].
Qed.

(** ** C99 *)

(** A command that is an error ends the whole line: nothing after it is run,
    whatever the operators are, and the line is that error. *)
Theorem C99_error_refuted : forall w d p0 rest s e s1, wf_pipeline p0 -> Forall (fun cp => wf_pipeline (snd cp)) rest ->
  exec_text w d (r_pipeline p0) s = (OErr e, s1) ->
  exec_text w d (chain_text p0 rest) s = (OErr e, s1) /\
  forall l, Forall wf_andor l -> exec_text w d (render (tree_of p0 rest :: l)) s = (OErr e, s1).
Proof.
  intros w d p0 rest s e s1 H0 H E.
  assert (E1 : exec_text w d (chain_text p0 rest) s = (OErr e, s1)).
  { apply exec_chain; [exact H0|exact H|]. eexists. apply whole_stop; [exact E|exact I]. }
  split; [exact E1|]. intros l Hl.
  apply (exec_list w d _ 0); [discriminate|constructor; [apply wf_tree; assumption|exact Hl]|].
  eexists. apply in_order_stop; [rewrite text_tree; exact E1|exact I].
Qed.
(** So [cd dir || p] does not run [p] when it fails. *)
Theorem C99_or_refuted : forall w d x v p s, sget (lit "cd") (al (im s)) = None -> written_arg x ->
  ordinary (expand_var (cm (im s))) x v -> wf_pipeline p -> r_chdir (w (trace s)) v = false ->
  exec_text w (S d) (r_words [lit "cd"; x] ++ lit " ||" ++ r_pipeline p) s = (OErr EOs, Shell (masked_as true (im s)) (trace s)).
Proof.
  intros w d x v p s Ha Hx Ho Hp Hc.
  destruct (args_line (lit "cd") [x] ltac:(discriminate) (proj1 (builtin_word (lit "cd") eq_refl ltac:(discriminate))) (Forall_cons _ Hx (Forall_nil _))) as [A1 A2].
  pose proof (C99_error_refuted w (S d) (Pipeline false [CSimple (words_cmd (lit "cd") [x])] false) [(COr, p)] s EOs
    (Shell (masked_as true (im s)) (trace s)) A1 (Forall_cons (COr, p) Hp (Forall_nil _))) as [E _].
  - rewrite A2, (C89_cd_partial w d x v [] [] s Ha); [rewrite Hc; reflexivity|constructor; [exact Hx|constructor]|constructor; [exact Ho|constructor]].
  - unfold chain_text in E. cbn [map List.concat fst snd r_cond] in E. rewrite A2, app_nil_r in E. exact E.
Qed.
(** A builtin that succeeds has status 0. *)
Theorem C99_success_partial : forall w d x v p s, sget (lit "cd") (al (im s)) = None -> written_arg x ->
  ordinary (expand_var (cm (im s))) x v -> wf_pipeline p -> r_chdir (w (trace s)) v = true ->
  let s1 := Shell (masked_as false (im s)) (EChdir v :: trace s) in
  exec_text w (S d) (r_words [lit "cd"; x] ++ lit " &&" ++ r_pipeline p) s = exec_text w (S d) (r_pipeline p) s1 /\
  exec_text w (S d) (r_words [lit "cd"; x] ++ lit " ||" ++ r_pipeline p) s = (OOk 0, s1).
Proof.
  intros w d x v p s Ha Hx Ho Hp Hc s1.
  destruct (args_line (lit "cd") [x] ltac:(discriminate) (proj1 (builtin_word (lit "cd") eq_refl ltac:(discriminate))) (Forall_cons _ Hx (Forall_nil _))) as [A1 A2].
  assert (E : exec_text w (S d) (r_pipeline (Pipeline false [CSimple (words_cmd (lit "cd") [x])] false)) s = (OOk 0, s1)).
  { rewrite A2, (C89_cd_partial w d x v [] [] s Ha); [rewrite Hc; reflexivity|constructor; [exact Hx|constructor]|constructor; [exact Ho|constructor]]. }
  split.
  - destruct (exec_text w (S d) (r_pipeline p) s1) as [o s2] eqn:E2.
    pose proof (exec_chain w (S d) (Pipeline false [CSimple (words_cmd (lit "cd") [x])] false) [(CAnd, p)] s o s2 A1
      (Forall_cons (CAnd, p) Hp (Forall_nil _))) as HC.
    unfold chain_text in HC. cbn [map List.concat fst snd r_cond] in HC. rewrite A2, app_nil_r in HC. apply HC.
    destruct o as [z|e| |c|q0 u e| |].
    1:{ eexists. eapply whole_run; [exact E|]. eapply chain_run; [reflexivity|exact E2|]. apply chain_end. }
    all: eexists; eapply whole_run; [exact E|]; apply chain_stop; [reflexivity|exact E2|exact I].
  - pose proof (exec_chain w (S d) (Pipeline false [CSimple (words_cmd (lit "cd") [x])] false) [(COr, p)] s (OOk 0) s1 A1
      (Forall_cons (COr, p) Hp (Forall_nil _))) as HC.
    unfold chain_text in HC. cbn [map List.concat fst snd r_cond] in HC. rewrite A2, app_nil_r in HC. apply HC.
    eexists. eapply whole_run; [exact E|]. apply chain_skip; [|apply chain_end]. cbn. intros F. apply F. reflexivity.
Qed.

Example C99_example :
  let run t := fun ok => let w := fun tr => let r := PropertiesEval.ex_os tr in
    Reports (r_isfile r) (r_open r) (r_read r) (fun _ => ok) (r_cwd r) (r_kill r) (r_pipe r) (r_fork r) (r_exec r) (r_getpid r) (r_waits r) (r_subst r) in
    exec_text w 5 t PropertiesEval.ex_shell in
  let started r := PropertiesEval.ran_commands (trace (snd r)) in
  fst (run (lit " cd /x || ls") false) = OErr EOs /\ started (run (lit " cd /x || ls") false) = [] /\
  fst (run (lit " cd /x ; ls") false) = OErr EOs /\ started (run (lit " cd /x ; ls") false) = [] /\
  started (run (lit " cd /x || ls") true) = [] /\ started (run (lit " cd /x && ls") true) = [lit "ls"].
Proof. vm_compute. repeat split. Qed.

(** ** C100 *)

(** The rest of a pipeline after a builtin, an assignment or a definition is never
    run, and such a pipeline is not put into the background. *)
Theorem C100_rest_refuted : forall w d b c cs bg s, wf_pipeline (Pipeline b (c :: cs) bg) ->
  match c with CSimple sc => check_if_builtin (sc_name sc) = true | _ => True end ->
  exec_text w (S d) (r_pipeline (Pipeline b (c :: cs) bg)) s = exec_text w (S d) (r_pipeline (Pipeline false [c] false)) s.
Proof.
  intros w d b c cs bg s H Hc.
  assert (H' : wf_pipeline (Pipeline false [c] false)).
  { destruct H as (_ & [H2 _] & _). split; [discriminate|]. split; [split; [exact H2|exact I]|]. intros [E _]. discriminate. }
  rewrite !exec_pipeline by assumption. unfold eval_pipeline. unfold seq, bind.
  change (interrupts_off s) with ((OOk tt, blocked s) : out unit * shell). cbn [gather].
  destruct c as [sc|body|name body redirs]; cbn [eval_command]; [|reflexivity|reflexivity].
  unfold eval_simple_command. rewrite Hc. unfold seq, bind.
  destruct (eval_builtin w (evaluate w d) sc (blocked s)) as [[]]; reflexivity.
Qed.
(** The programs in front of it are started after it has run, not together with it,
    and are connected to each other only: the children are those of the pipeline
    without the builtin, in the state the builtin has left. *)
Theorem C100_before_refuted : forall w d b scs scs' bg sc cs s st s1 o s', scs <> [] ->
  wf_pipeline (Pipeline b (map CSimple scs ++ CSimple sc :: cs) bg) -> check_if_builtin (sc_name sc) = true ->
  Forall2 (program (im s)) scs scs' ->
  exec_text w (S d) (r_pipeline (Pipeline false [CSimple sc] false)) s = (OOk st, s1) ->
  Forall2 (program (im s1)) scs scs' -> table (fds (im s1)) ->
  exec_text w (S d) (r_pipeline (Pipeline b (map CSimple scs ++ CSimple sc :: cs) bg)) s = (o, s') ->
  exists new, trace s' = new ++ trace s1 /\
    (forall k f, nth_error (forks new) k = Some f -> started_child s1 bg scs' k f) /\
    finishing (with_fds (fds (im s')) (with_next_pipe (next_pipe (im s')) (im s1))) (im s') /\
    ((List.length (forks new) = List.length scs /\ forall fd, nget fd (fds (im s')) = nget fd (fds (im s1))) \/
     (o = OErr (EText (lit "Failed to create pipe")) /\ (S (List.length (forks new)) < List.length scs)%nat)).
Proof.
  intros w d b scs scs' bg sc cs s st s1 o s' Hne H Hb HF E HF1 Ht X.
  assert (Hall : forall l1 l2, all (l1 ++ l2) -> all l1 /\ all l2).
  { clear. induction l1 as [|x l1 IH]; intros l2 H; [split; [exact I|exact H]|]. destruct H as [H1 H2].
    destruct (IH _ H2) as [A B]. split; [split; assumption|exact B]. }
  assert (H2 : wf_pipeline (Pipeline false [CSimple sc] false)).
  { destruct H as (_ & H2 & H3). rewrite map_app in H2. destruct (Hall _ _ H2) as [A [B _]].
    split; [discriminate|]. split; [split; [exact B|exact I]|]. intros [Y _]. discriminate. }
  rewrite exec_pipeline in E by exact H2. rewrite exec_pipeline in X by exact H.
  unfold eval_pipeline in E, X. rewrite (seq_ok interrupts_off _ s tt (blocked s) eq_refl) in E. rewrite (seq_ok interrupts_off _ s tt (blocked s) eq_refl) in X.
  cbn [gather eval_command] in E. unfold eval_simple_command in E. rewrite Hb in E. unfold seq, bind in E.
  destruct (eval_builtin w (evaluate w d) sc (blocked s)) as [ob sb] eqn:Eb.
  assert (Hob : ob = OOk tt /\ sb = s1) by (destruct ob as [[]|e| |c|p v e| |]; cbn in E; try discriminate; injection E as _ <-; auto).
  destruct Hob as [-> ->]. clear E.
  assert (HFb : Forall2 (program (im (blocked s))) scs scs').
  { clear -HF. induction HF as [|x x' l l' Hx HF IH]; constructor; [apply (program_same (im s)); [reflexivity..|exact Hx]|exact IH]. }
  assert (G : gather w (evaluate w d) (map CSimple scs ++ CSimple sc :: cs) (blocked s) = (OOk (map entry scs'), s1)).
  { clear -HFb Eb Hb. induction HFb as [|x x' l l' Hx HF IH]; cbn [map app gather eval_command]; unfold eval_simple_command.
    - rewrite Hb. unfold seq, bind. rewrite Eb. reflexivity.
    - destruct (program_kind _ _ _ Hx) as (H1 & H2 & H3). rewrite H1. unfold bind.
      rewrite (expand_program w x x' _ Hx), (program_argv _ _ _ Hx). cbn [unwrap ret]. unfold ret at 1. rewrite IH. reflexivity. }
  rewrite (bind_ok _ _ _ _ _ G) in X.
  assert (Hne' : scs' <> []) by (destruct HF; [congruence|discriminate]).
  assert (X' : run_job w bg (map entry scs') s1 = (o, s')).
  { destruct scs' as [|y scs']; [congruence|]. destruct bg; [exact X|].
    assert (N : run_functions (evaluate w d) (map entry (y :: scs')) s1 = (OOk (map entry (y :: scs')), s1)).
    { apply no_functions. clear -HF1. remember (y :: scs') as l eqn:El. clear El.
      induction HF1 as [|x x' l l' Hx HF IH]; constructor; [exact (proj2 (proj2 (program_kind _ _ _ Hx)))|exact IH]. }
    cbn [map] in *. rewrite (bind_ok _ _ _ _ _ N) in X. exact X. }
  destruct (job_programs w bg scs' s1 o s' Hne' Ht X') as (new & N1 & N2 & N3 & N4).
  assert (Hl : List.length scs = List.length scs') by (clear -HF; induction HF; cbn; congruence).
  exists new. split; [exact N1|]. split; [exact N2|]. split; [exact N3|]. rewrite Hl.
  destruct N4 as [N4|(N4 & N5 & _)]; [left; exact N4|right; split; assumption].
Qed.

Example C100_example :
  let run t := exec_text PropertiesEval.ex_os 5 t PropertiesEval.ex_shell in
  let started t := rev (flat_map (fun e => match e with EFork _ c _ => [sc_name (c_cmd c)] | EChdir d => [lit "chdir"] | _ => [] end) (trace (snd (run t)))) in
  started (lit " cd /d | wc") = [lit "chdir"] /\ started (lit " ls | cd /d | wc") = [lit "chdir"; lit "ls"] /\
  started (lit " cd /d &") = [lit "chdir"] /\ started (lit " ls | wc") = [lit "ls"; lit "wc"] /\
  printed (js (im (snd (run (lit " pwd | wc"))))) = [lit "/"] /\
  table (fds (im PropertiesEval.ex_shell)) /\
  (let s1 := snd (run (lit " cd /d")) in
   program (im PropertiesEval.ex_shell) (words_cmd (lit "ls") []) (SimpleCommand None (lit "ls") (Some (Suffix [] []))) /\ program (im s1) (words_cmd (lit "ls") []) (SimpleCommand None (lit "ls") (Some (Suffix [] [])))).
Proof.
  cbn zeta. split; [reflexivity|]. split; [reflexivity|]. split; [reflexivity|]. split; [reflexivity|]. split; [vm_compute; reflexivity|].
  split.
  { split; [cbn; repeat constructor; cbn; lia|]. intros fd dd E. cbn in E.
    destruct (Z.eqb_spec fd 0); [lia|]. destruct (Z.eqb_spec fd 1); [lia|]. destruct (Z.eqb_spec fd 2); [lia|discriminate]. }
  split; (apply program_bare; try reflexivity; try discriminate; [|cbn; intuition discriminate]); 
  (split; [discriminate|]; split; [reflexivity|]; split; [intros [t E]; discriminate|]; intros c H; cbn in H; unfold space;
   repeat match goal with H : _ \/ _ |- _ => destruct H as [<-|H] end; try contradiction;
    (split; [vm_compute; discriminate|cbn; intuition discriminate])).
Qed.

(** ** C101 *)

(** The shell [s'] once the body of a function has come to its end in [s2]: the
    scope of the call is gone and the status is 0; no job, file, alias or variable
    of the environment has changed. *)
Definition after_body (s2 s' : shell) : Prop :=
  ContextSpec.perform ContextSpec.OPop (cm (im s2)) = Some (cm (im s')) /\ exit_status (im s') = 0 /\
  trace s' = trace s2 /\ al (im s') = al (im s2) /\ env (im s') = env (im s2) /\ fds (im s') = fds (im s2) /\
  (forall k, nget k (job_table (jobs (js (im s')))) = nget k (job_table (jobs (js (im s2))))) /\
  pid_to_job (jobs (js (im s'))) = pid_to_job (jobs (js (im s2))) /\
  background_jobs (jobs (js (im s'))) = background_jobs (jobs (js (im s2))) /\
  printed (js (im s')) = printed (js (im s2)) /\ masked (js (im s')) = false.

(** The facts the call itself leaves in the job table. *)
Definition numbered (s2 s' : shell) : Prop :=
  let id := next_job_id (jobs (js (im s2))) in
  next_job_id (jobs (js (im s'))) = id + 1 /\ current_job (jobs (js (im s'))) = Some id /\
  get_job id (jobs (js (im s'))) = None.

Lemma call_runs w d (n : str) (ws : list str) vs body redirs s m1 o s2 : check_if_builtin n = false -> plain_name (al (im s)) n ->
  written_word n -> Forall written_arg ws -> Forall2 (ordinary (expand_var (cm (im s)))) ws vs ->
  (forall c, In c (List.concat (n :: vs)) -> c <> 0%N) ->
  get_function n (cm (im s)) = Some (FunctionBody body redirs) -> body <> [] -> Forall wf_andor body ->
  forked (im s) = false -> ContextSpec.cm_wf (cm (im s)) -> basic (jobs (js (im s))) ->
  ContextSpec.performs (ContextLaws.entry n vs) (cm (im s)) = Some m1 ->
  exec_text w (S d) (render body) (Shell (with_cm m1 (im s)) (trace s)) = (o, s2) ->
  match o with
  | OOk _ | OErr _ => exists s', exec_text w (S (S d)) (r_words (n :: ws)) s = (OOk 0, s') /\ after_body s2 s' /\ numbered s2 s'
  | _ => exec_text w (S (S d)) (r_words (n :: ws)) s = (o, s2)
  end.
Proof.
  intros Hb Hn Hw Hws Ho Hz Hf Hne Hwf Hfk Hcm Hjb Hp H.
  rewrite exec_render in H by assumption.
  rewrite <- (evaluate_blocked w d body (Shell (with_cm m1 (im s)) (trace s)) Hne) in H.
  pose proof Hp as Hp0. rewrite <- ContextLaws.enter_performs in Hp.
  destruct (args_line n ws (proj1 Hn) Hw Hws) as [A1 A2]. rewrite <- A2, exec_pipeline by exact A1.
  unfold eval_pipeline. rewrite (seq_ok interrupts_off _ s tt (blocked s) eq_refl).
  rewrite (bind_ok _ _ _ _ _ (gather_words w (evaluate w (S d)) n ws vs (blocked s) Hb Hn Ho Hz)).
  cbn [run_functions snd sc_name].
  set (sc := SimpleCommand None n (Some (Suffix [] vs))).
  set (sb := blocked (Shell (with_cm m1 (im s)) (trace s))) in *.
  assert (Hif : is_function n (cm (im (blocked s))) = true).
  { apply PropertiesContext.C30_is_function. change (cm (im (blocked s))) with (cm (im s)). rewrite Hf. discriminate. }
  assert (Hcall : forall o0 s3, catch (evaluate w (S d) body) sb = (o0, s3) ->
    eval_function (evaluate w (S d)) sc (blocked s) =
    match o0 with
    | OOk _ => (OOk true, Shell (with_cm (match pop_context (cm (im s3)) with Some m' => m' | None => cm (im s3) end) (im s3)) (trace s3))
    | _ => (lift o0, s3)
    end).
  { intros o0 s3 E. unfold eval_function. rewrite (bind_ok (look cm) _ (blocked s) (cm (im s)) (blocked s) eq_refl).
    change (sc_name sc) with n. rewrite Hf.
    rewrite (seq_ok (try_cm _) _ (blocked s) tt sb).
    2:{ unfold try_cm, try_. change (cm (im (blocked s))) with (cm (im s)). unfold words_of, sc. cbn [sc_suffix word_list]. rewrite Hp. reflexivity. }
    cbn [fb_body]. unfold seq at 1. unfold bind at 1. rewrite E. destruct o0; reflexivity. }
  unfold catch in Hcall. rewrite H in Hcall.
  set (after := Shell (with_cm (match pop_context (cm (im s2)) with Some m' => m' | None => cm (im s2) end) (im s2)) (trace s2)).
  assert (Hend : returns o -> exists s', (set_exit_status 0 ;; (pcs <- ret [] ;; run_job w false pcs)) after = (OOk 0, s') /\ after_body s2 s' /\ numbered s2 s').
  { intros Hr. clear Hcall.
    pose proof (EvalStack.evaluate_grown w (S d) body sb o s2 H (or_intror Hr)) as Hg.
    pose proof (EvalStack.enter_stack _ _ _ _ Hp) as Hst.
    destruct Hg as (new & extra & _ & Hs & _); [cbn; rewrite Hst; destruct (stack (cm (im s))); discriminate|].
    assert (Hpop : exists m', pop_context (cm (im s2)) = Some m').
    { unfold pop_context. rewrite Hs. change (stack (cm (im sb))) with (stack m1). rewrite Hst, !app_length.
      pose proof (ContextSpec.wf_nonempty _ Hcm). destruct (Nat.eqb_spec (List.length (stack (cm (im s))) + List.length [List.length (heap (cm (im s)))] + List.length extra) 1) as [E|_]; [|eexists; reflexivity].
      destruct (stack (cm (im s))); [congruence|]. cbn in E. lia. }
    destruct Hpop as [m' Hpop]. unfold after. rewrite Hpop.
    assert (Hb2 : basic (jobs (js (im s2)))).
    { destruct (EvalJobs.evaluate_worked w (S d) body sb o s2 H (or_introl eq_refl)) as [ops E]; [exact Hjb|].
      exact (JobsLaws.run_basic ops (js (im sb)) _ Hjb E). }
    set (id := next_job_id (jobs (js (im s2)))).
    assert (Hid : nget id (job_table (jobs (js (im s2)))) = None).
    { destruct (nget id (job_table (jobs (js (im s2))))) as [j|] eqn:E; [|reflexivity].
      pose proof (b_next _ Hb2 id (ex_intro _ j E)). unfold id in *. lia. }
    set (jc := jobs (js (im s2))) in *.
    set (jd := delete_job id (create_job [] false jc)).
    assert (Hjd : (forall k, nget k (job_table jd) = nget k (job_table jc)) /\ pid_to_job jd = pid_to_job jc /\
      background_jobs jd = background_jobs jc /\ next_job_id jd = id + 1 /\ current_job jd = Some id).
    { unfold jd, delete_job. cbn [create_job job_table]. fold id. rewrite nget_ninsert by apply Hb2. rewrite Z.eqb_refl.
      cbn [processes job_new put_table job_table pid_to_job background_jobs next_job_id current_job create_job fold_left].
      split; [|repeat split]. intros k. rewrite nget_nremove by (apply nsorted_ninsert, Hb2).
      rewrite nget_ninsert by apply Hb2. destruct (Z.eqb_spec k id) as [->|]; [symmetry; exact Hid|reflexivity]. }
    destruct Hjd as (J1 & J2 & J3 & J4 & J5).
    exists (Shell (with_js (with_masked false (shell_delete_job id (with_jobs (create_job [] false jc) (js (im s2))))) (with_exit 0 (with_cm m' (im s2)))) (trace s2)).
    split; [reflexivity|]. split.
    - unfold after_body. split; [exact Hpop|]. do 5 (split; [reflexivity|]). split; [exact J1|]. split; [exact J2|]. split; [exact J3|].
      split; reflexivity.
    - unfold numbered. cbv zeta. change (next_job_id (jobs (js (im s2)))) with id. split; [exact J4|]. split; [exact J5|].
      unfold get_job. change (nget id (job_table jd) = None). rewrite J1. exact Hid. }
  assert (Hk : forked (im s2) = false).
  { rewrite (EvalForked.evaluate_still w (S d) body sb o s2 H (or_introl eq_refl)). exact Hfk. }
  assert (Hrun : forall r, (forall o0 s3, (OOk r : out (Z + err), s2) = (o0, s3) -> eval_function (evaluate w (S d)) sc (blocked s) =
      match o0 with
      | OOk _ => (OOk true, Shell (with_cm (match pop_context (cm (im s3)) with Some m' => m' | None => cm (im s3) end) (im s3)) (trace s3))
      | _ => (lift o0, s3)
      end) -> eval_function (evaluate w (S d)) sc (blocked s) = (OOk true, after)).
  { intros r E. exact (E _ _ eq_refl). }
  assert (Hfn : forall (k : list (process * simple_command) -> M Z), (pcs <- (m <- look cm ;;
      (if is_function n m then ok <- eval_function (evaluate w (S d)) sc;; (if ok : bool then f <- look forked;; (if f : bool then stop (OExit 0) else set_exit_status 0;; ret []) else stop (OExit 1))
       else rest <- ret [] ;; ret ((process_new (n :: vs) n n, sc) :: rest)));; k pcs) (blocked s) =
      match eval_function (evaluate w (S d)) sc (blocked s) with
      | (OOk true, s3) => if forked (im s3) then (OExit 0, s3) else (set_exit_status 0 ;; k []) s3
      | (OOk false, s3) => (OExit 1, s3)
      | (o, s3) => (lift o, s3)
      end).
  { intros k. unfold bind at 1, look at 1, bind at 1. rewrite Hif. unfold bind at 1.
    destruct (eval_function (evaluate w (S d)) sc (blocked s)) as [[[]|e| |c|p v e| |] s3]; try reflexivity.
    unfold bind, look, seq. destruct (forked (im s3)); reflexivity. }
  rewrite Hfn. clear Hfn.
  destruct o as [z|e| |c|p v e| |].
  1,2: rewrite (Hrun _ Hcall); change (forked (im after)) with (forked (im s2)); rewrite Hk; exact (Hend I).
  all: rewrite (Hcall _ _ eq_refl); reflexivity.
Qed.

(** A function call runs the body, as if it had been typed, in a new scope where
    [$0], [$1] ... are set; when it comes to its end the scope is taken away again.
    Missing: it is no command of a longer pipeline, and see below. *)
Theorem C101_call_partial : forall w d (n : str) (ws : list str) vs body redirs s m1 o s2, check_if_builtin n = false -> plain_name (al (im s)) n ->
  written_word n -> Forall written_arg ws -> Forall2 (ordinary (expand_var (cm (im s)))) ws vs ->
  (forall c, In c (List.concat (n :: vs)) -> c <> 0%N) ->
  get_function n (cm (im s)) = Some (FunctionBody body redirs) -> body <> [] -> Forall wf_andor body ->
  forked (im s) = false -> ContextSpec.cm_wf (cm (im s)) -> basic (jobs (js (im s))) ->
  ContextSpec.performs (ContextLaws.entry n vs) (cm (im s)) = Some m1 ->
  exec_text w (S d) (render body) (Shell (with_cm m1 (im s)) (trace s)) = (o, s2) ->
  match o with
  | OOk _ | OErr _ => exists s', exec_text w (S (S d)) (r_words (n :: ws)) s = (OOk 0, s') /\ after_body s2 s'
  | _ => exec_text w (S (S d)) (r_words (n :: ws)) s = (o, s2)
  end.
Proof.
  intros w d n ws vs body redirs s m1 o s2 H1 H2 H3 H4 H5 H6 H7 H8 H9 H10 H11 H12 H13 H14.
  pose proof (call_runs w d n ws vs body redirs s m1 o s2 H1 H2 H3 H4 H5 H6 H7 H8 H9 H10 H11 H12 H13 H14) as H.
  destruct o; try exact H; destruct H as (s' & A & B & _); exists s'; split; assumption.
Qed.
(** The status of the body is lost, an error inside it as well, a job number is used
    up and the current job is one that does not exist. *)
Theorem C101_status_refuted : forall w d (n : str) (ws : list str) vs body redirs s m1 o s2, check_if_builtin n = false -> plain_name (al (im s)) n ->
  written_word n -> Forall written_arg ws -> Forall2 (ordinary (expand_var (cm (im s)))) ws vs ->
  (forall c, In c (List.concat (n :: vs)) -> c <> 0%N) ->
  get_function n (cm (im s)) = Some (FunctionBody body redirs) -> body <> [] -> Forall wf_andor body ->
  forked (im s) = false -> ContextSpec.cm_wf (cm (im s)) -> basic (jobs (js (im s))) ->
  ContextSpec.performs (ContextLaws.entry n vs) (cm (im s)) = Some m1 ->
  exec_text w (S d) (render body) (Shell (with_cm m1 (im s)) (trace s)) = (o, s2) -> returns o ->
  exists s', exec_text w (S (S d)) (r_words (n :: ws)) s = (OOk 0, s') /\
    next_job_id (jobs (js (im s'))) = next_job_id (jobs (js (im s2))) + 1 /\
    current_job (jobs (js (im s'))) = Some (next_job_id (jobs (js (im s2)))) /\
    get_job (next_job_id (jobs (js (im s2)))) (jobs (js (im s'))) = None.
Proof.
  intros w d n ws vs body redirs s m1 o s2 H1 H2 H3 H4 H5 H6 H7 H8 H9 H10 H11 H12 H13 H14 Hr.
  pose proof (call_runs w d n ws vs body redirs s m1 o s2 H1 H2 H3 H4 H5 H6 H7 H8 H9 H10 H11 H12 H13 H14) as H.
  destruct o; try contradiction; destruct H as (s' & A & _ & B); exists s'; (split; [exact A|exact B]).
Qed.

Example C101_example :
  let body := [AoOne (Pipeline false [CSimple (words_cmd (lit "ls") [lit "$1"])] false); AoOne (Pipeline false [CSimple (words_cmd (lit "false") [])] false)] in
  let s := snd (exec_text PropertiesEval.ex_os 5 (lit " f ( ) { ls $1 ; false ; }") PropertiesEval.ex_shell) in
  let r := exec_text PropertiesEval.ex_os 5 (lit " f /d") s in
  exists m1, ContextSpec.performs (ContextLaws.entry (lit "f") [lit "/d"]) (cm (im s)) = Some m1 /\
  get_function (lit "f") (cm (im s)) = Some (FunctionBody body None) /\ render body = lit " ls $1 ; false" /\
  fst (exec_text PropertiesEval.ex_os 4 (render body) (Shell (with_cm m1 (im s)) (trace s))) = OOk 1 /\
  fst r = OOk 0 /\ expand_var (cm (im (snd r))) (lit "1") = None /\
  rev (flat_map (fun e => match e with EFork _ c _ => [p_argv (c_proc c)] | _ => [] end) (trace (snd r))) = [[lit "ls"; lit "/d"]; [lit "false"]] /\
  current_job (jobs (js (im (snd r)))) = Some 1 /\ get_job 1 (jobs (js (im (snd r)))) = None.
Proof. cbn zeta. eexists. split; [vm_compute; reflexivity|]. vm_compute. repeat split. Qed.

(** ** C102 *)

(** Of several assignments on one line only the first is done. *)
Theorem C102_several_refuted : forall w d (a : str) (more : list str) s, Forall written_assignment (a :: more) ->
  (forall x, In x (a :: more) -> ~ In (ch "$") x) -> sget [] (al (im s)) = None ->
  exec_text w (S d) (r_words (a :: more)) s = exec_text w (S d) (r_words [a]) s.
Proof.
  intros w d a more s Hf Hd Ha. rewrite (exec_assign w d a more s Hf Hd Ha).
  rewrite (exec_assign w d a [] s); [reflexivity|constructor; [inversion Hf; assumption|constructor]| |exact Ha].
  intros x [<-|[]]. apply Hd. left. reflexivity.
Qed.
(** One assignment is the operation on the variables, and nothing else. *)
Theorem C102_assign_partial : forall w d (a : str) s o s', written_assignment a -> ~ In (ch "$") a -> sget [] (al (im s)) = None ->
  exec_text w (S d) (r_words [a]) s = (o, s') ->
  trace s' = trace s /\ im s' = with_cm (cm (im s')) (masked_as true (im s)) /\
  match ContextSpec.perform (ContextSpec.OAssign a) (cm (im s)) with
  | Some m => o = OOk 0 /\ cm (im s') = m
  | None => o = OPanic /\ cm (im s') = cm (im s)
  end.
Proof.
  intros w d a s o s' Hf Hd Ha H. rewrite (exec_assign w d a [] s) in H; [|constructor; [exact Hf|constructor]| |exact Ha].
  2:{ intros x [<-|[]]. exact Hd. }
  cbn [ContextSpec.perform]. destruct (add_var a (cm (im s))); injection H as <- <-; repeat split.
Qed.
Example C102_example :
  let run t := cm (im (snd (exec_text PropertiesEval.ex_os 5 t PropertiesEval.ex_shell))) in
  expand_var (run (lit " A=1 B=2")) (lit "A") = Some (lit "1") /\ expand_var (run (lit " A=1 B=2")) (lit "B") = None /\
  expand_var (run (lit " A=1 ; B=2")) (lit "B") = Some (lit "2").
Proof. vm_compute. repeat split. Qed.

Print Assumptions C95_bg.
Print Assumptions C95_fg_partial.
Print Assumptions C95_fg_single.
Print Assumptions C95_fg_wait.
Print Assumptions C95_lost_refuted.
Print Assumptions C53_fg_wait.
Print Assumptions C53_fg_before.
Print Assumptions C95_unknown.
Print Assumptions C96_alias_partial.
Print Assumptions C96_program_refuted.
Print Assumptions C96_builtin_refuted.
Print Assumptions C97_bang_refuted.
Print Assumptions C98_group_refuted.
Print Assumptions C99_error_refuted.
Print Assumptions C99_or_refuted.
Print Assumptions C99_success_partial.
Print Assumptions C100_rest_refuted.
Print Assumptions C100_before_refuted.
Print Assumptions C101_call_partial.
Print Assumptions C101_status_refuted.
Print Assumptions C102_several_refuted.
Print Assumptions C102_assign_partial.
