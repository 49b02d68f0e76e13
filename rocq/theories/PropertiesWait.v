(** Properties C40-C42 for whole lines: foreground pipelines of programs. *)
From Verif Require Import Base BaseFacts Lexer LexerSpec Ast Parser GrammarSpec.
From Verif Require Import Context Alias Expand ExpandSpec ExpandFacts ExpandLaws Jobs Shell Builtins Eval.
From Verif Require Import EvalSpec EvalFacts EvalLaws EvalKeeps RunSpec RunLaws PipeSpec PipeLaws ChildLaws PipeRun.
From Verif Require Import JobsSpec JobsFacts JobsLaws JobsPipe JobsReports.
From Verif Require PropertiesJobs PropertiesEval PropertiesStatus PropertiesProgram EvalFds.
Import PropertiesProgram PropertiesStatus.
Local Open Scope Z_scope.

(** ** What the system answers *)

(** Every process the shell started has the number the system gave at that moment. *)
Definition honest (w : os) (s s' : shell) : Prop :=
  exists new, trace s' = new ++ trace s /\
    forall a i c r b, new = a ++ EFork i c r :: b -> r = r_fork (w (b ++ trace s)).
Lemma honest_pre w : preorder (honest w).
Proof.
  split.
  - intros s. exists []. split; [reflexivity|]. intros a i c r b E. destruct a; discriminate.
  - intros s1 s2 s3 (n1 & T1 & H1) (n2 & T2 & H2). exists (n2 ++ n1). split; [rewrite T2, T1, app_assoc; reflexivity|].
    intros a i c r b E. apply app_eq_app in E. destruct E as (l & [[E1 E2]|[E1 E2]]).
    + destruct l as [|x l].
      * cbn in E2. rewrite (H1 [] i c r b (eq_sym E2)). reflexivity.
      * cbn in E2. injection E2 as <- ->. subst n2. rewrite (H2 a i c r l eq_refl), T1, app_assoc. reflexivity.
    + rewrite (H1 l i c r b E2). reflexivity.
Qed.
Lemma honest_quiet w s s' : trace s' = trace s -> honest w s s'.
Proof. intros E. exists []. split; [exact E|]. intros a i c r b F. destruct a; discriminate. Qed.
Lemma honest_launch w id bg cs : forall i prev pip, keeps true (honest w) (launch w id bg i cs prev pip).
Proof.
  pose proof (honest_pre w) as P.
  induction cs as [|[p sc] cs IH]; intros i prev pip; cbn [launch]; [apply (keeps_ret _ _ P)|].
  apply (keeps_bind _ _ P).
  { destruct cs; [apply (keeps_ret _ _ P)|]. intros s o s' H _. unfold make_pipe, bind, ask in H.
    destruct (r_pipe (w (trace s))); injection H as _ <-; [|apply (pre_refl _ P)].
    exists [EPipe (next_pipe (im s))]. split; [reflexivity|]. intros a i0 c r b E. destruct a as [|x [|]]; discriminate. }
  intros pip1. apply (keeps_bind _ _ P).
  { intros s o s' H _. unfold fork_child, bind, ask, look, note, seq, ret in H. injection H as _ <-.
    eexists [_]. split; [reflexivity|]. intros a i0 c r b E. destruct a as [|x [|]]; [|discriminate..]. injection E as _ _ <- <-. reflexivity. }
  intros r. apply (keeps_seq _ _ P).
  { destruct r; [|apply (keeps_ret _ _ P)]. apply keeps_change. intros s. apply honest_quiet. reflexivity. }
  apply (keeps_seq _ _ P).
  { destruct (Z.leb 0 prev); [|apply (keeps_ret _ _ P)]. unfold sys_close. intros s o s' H _. apply honest_quiet.
    unfold try_ in H. destruct (fd_close _ _); injection H as _ <-; reflexivity. }
  apply (keeps_seq _ _ P).
  { apply keeps_change. intros s. apply honest_quiet. reflexivity. }
  apply IH.
Qed.

(** The system gives the processes of the next pipeline the numbers [qs], makes
    pipes, and then answers [as_] to the calls of [waitpid]. *)
Record answering (w : os) (tr : list event) (qs : list positive) (as_ : list answer) : Prop := {
  an_pipe : forall t, r_pipe (w t) = true;
  an_fork : forall new, (List.length (forks new) < List.length qs)%nat ->
    r_fork (w (new ++ tr)) = nth_error qs (List.length (forks new));
  an_waits : forall new, List.length (forks new) = List.length qs -> r_waits (w (new ++ tr)) = as_ }.

Lemma forks_cons e t : forks (e :: t) = forks t ++ match e with EFork i c r => [(i, c, r)] | _ => [] end.
Proof. change (e :: t) with ([e] ++ t). rewrite forks_app. destruct e; reflexivity. Qed.
Lemma honest_pids w tr qs new :
  (forall new, (List.length (forks new) < List.length qs)%nat -> r_fork (w (new ++ tr)) = nth_error qs (List.length (forks new))) ->
  (forall a i c r b, new = a ++ EFork i c r :: b -> r = r_fork (w (b ++ tr))) ->
  (List.length (forks new) <= List.length qs)%nat ->
  fork_pids new = map Zpos (firstn (List.length (forks new)) qs).
Proof.
  intros Hf. induction new as [|e new IH]; intros Hh Hl; [reflexivity|].
  assert (Hh' : forall a i c r b, new = a ++ EFork i c r :: b -> r = r_fork (w (b ++ tr))).
  { intros a i c r b E. apply (Hh (e :: a) i c r b). rewrite E. reflexivity. }
  unfold fork_pids in *. rewrite forks_cons in *. rewrite app_length in Hl |- *. rewrite map_app.
  destruct e; try (cbn [List.length app map] in *; rewrite Nat.add_0_r in *; rewrite app_nil_r, IH by (assumption || lia); reflexivity).
  cbn [List.length map snd] in *. rewrite IH by (assumption || lia).
  rewrite (Hh [] _ _ _ new eq_refl), Hf by lia.
  destruct (nth_error qs (List.length (forks new))) as [q|] eqn:E.
  - assert (G : forall n (l : list positive), nth_error l n = Some q -> firstn (n + 1) l = firstn n l ++ [q]).
    { clear. induction n as [|n IH]; intros [|x l] E; try discriminate; cbn in *; [congruence|]. rewrite (IH l E). reflexivity. }
    rewrite (G _ _ E), map_app. reflexivity.
  - apply nth_error_None in E. lia.
Qed.

Lemma map_pos_nodup (l : list positive) : NoDup l -> NoDup (map Zpos l).
Proof.
  induction 1 as [|x l Hn _ IH]; constructor; [|exact IH]. intros H. apply in_map_iff in H. destruct H as (y & E & Hy). congruence.
Qed.

(** The shell when the processes of a pipeline have been started. *)
Definition before_launch (scs' : list simple_command) (s : shell) : shell :=
  Shell (launching (im (blocked s)) (created false (map fst (map entry scs')) (blocked s)) (fds (im (blocked s))) (next_pipe (im (blocked s))))
    (trace (blocked s)).
Lemma launched_at w scs' s : scs' <> [] ->
  table (fds (im s)) -> basic (jobs (js (im s))) -> (forall t, r_pipe (w t) = true) ->
  let id := next_job_id (jobs (js (im s))) in
  exists s1 ps new, launch w id false 0 (map entry scs') (-1) (-1, -1) (before_launch scs' s) = (OOk tt, s1) /\
    masked (js (im s1)) = true /\
    trace s1 = new ++ trace s /\ no_wait new /\ List.length (forks new) = List.length scs' /\
    (forall k f, nth_error (forks new) k = Some f -> started_child s false scs' k f) /\
    (forall a i c r b, new = a ++ EFork i c r :: b -> r = r_fork (w (b ++ trace s))) /\
    cm (im s1) = cm (im s) /\ exit_status (im s1) = exit_status (im s) /\
    basic (jobs (js (im s1))) /\
    (forall k, nget k (job_table (jobs (js (im s1)))) =
       if Z.eqb k id then Some (Job ps id StillAlive Running false false) else nget k (job_table (jobs (js (im s))))) /\
    map p_pid ps = fork_pids new /\ Forall (fun p => p_status p = None) ps.
Proof.
  intros Hne Ht HB HA id.
  assert (Hne' : map entry scs' <> []) by (destruct scs'; [congruence|discriminate]).
  set (jc := created false (map fst (map entry scs')) (blocked s)).
  set (s0 := before_launch scs' s).
  destruct (launch w id false 0 (map entry scs') (-1) (-1, -1) s0) as [o s1] eqn:H1.
  pose proof H1 as L. unfold s0, before_launch in L. fold jc in L. rewrite <- (Z.add_0_r (next_pipe (im (blocked s)))) in L. change 0 with (Z.of_nat 0) in L.
  apply (launch_ok w id false (im (blocked s)) (fds (im s)) (next_pipe (im s)) (List.length scs') Ht) in L;
    [|rewrite map_length; reflexivity|intros E; contradiction| |reflexivity].
  2:{ split; [exact Ht|]. split; [reflexivity|]. intros fd. destruct (Z.eqb_spec fd (-1)) as [->|]; [|reflexivity].
      change (fds (im (blocked s))) with (fds (im s)). destruct (nget (-1) (fds (im s))) eqn:E; [apply (proj2 Ht) in E; lia|reflexivity]. }
  destruct L as (new0 & jc' & t' & n' & Es1 & Hch & [(R1 & R2 & _)|(R1 & R2 & _)]); subst o.
  2:{ destruct (EvalFds.launch_no_error w id false HA _ _ _ _ _ _ _ H1). }
  assert (Hcr : forall k, nget k (job_table jc) =
    if Z.eqb k id then Some (job_new (map fst (map entry scs')) id false) else nget k (job_table (jobs (js (im s))))).
  { intros k. unfold jc, created. rewrite create_get by exact HB. reflexivity. }
  assert (Bjc : basic jc) by (apply create_basic; exact HB).
  destruct (launch_job w id false (map entry scs') 0 (-1) (-1, -1) s0 s1
    (job_new (map fst (map entry scs')) id false) [] H1) as (new & ps & Q1 & Q2 & Q3 & Q3b & Q3c & Q4 & Q5 & Q6 & Q7 & Q8 & Q9).
  { exact Bjc. }
  { change (jobs (js (im s0))) with jc. unfold get_job. rewrite Hcr, Z.eqb_refl. reflexivity. }
  { reflexivity. }
  { reflexivity. }
  { clear. induction scs' as [|x l IH]; constructor; [reflexivity|exact IH]. }
  change (jobs (js (im s0))) with jc in *. cbn [app] in Q5. change (trace s0) with (trace s) in Q1.
  destruct (honest_launch w id false (map entry scs') 0 (-1) (-1, -1) s0 _ s1 H1 (or_introl eq_refl)) as (new2 & T2 & Hh).
  change (trace s0) with (trace s) in T2, Hh.
  assert (new2 = new) by (rewrite Q1 in T2; apply app_inv_tail in T2; congruence). subst new2.
  assert (new0 = new). { rewrite Es1 in Q1. cbn [trace] in Q1. change (trace (blocked s)) with (trace s) in Q1. apply app_inv_tail in Q1. exact Q1. }
  subst new0. rewrite map_length in R2.
  exists s1, ps, new. split; [reflexivity|]. split; [rewrite Es1; reflexivity|].
  split; [exact Q1|]. split; [exact Q2|]. split; [exact R2|]. split.
  { intros k f Hk. destruct (children_nth _ _ _ _ _ _ _ _ Hch k f Hk) as (pc & Hn & C). cbn [Nat.add] in C.
    destruct f as [[img c] r]. destruct C as (C1 & C2 & C3 & jc1 & t & n & -> & C4). rewrite nth_error_map in Hn.
    destruct (nth_error scs' k) as [sc|] eqn:En; [|discriminate]. cbn in Hn. injection Hn as <-. cbn [entry fst snd] in C1, C2.
    cbn [started_child]. rewrite C1. split; [exact En|]. split; [exact C2|]. split; [exact C3|]. split; [repeat split|exact C4]. }
  split; [exact Hh|].
  split; [rewrite Es1; reflexivity|]. split; [rewrite Q9; reflexivity|].
  split.
  { destruct (EvalJobs.ks_launch w id false (map entry scs') 0 (-1) (-1, -1) s0 _ s1 H1 (or_introl eq_refl)) as [K _].
    destruct (K Bjc) as [ops E]. apply (run_basic ops (js (im s0)) (js (im s1)) Bjc E). }
  split; [intros k; rewrite Q5, Hcr; destruct (Z.eqb k id); reflexivity|].
  split; [exact Q4|].
  clear -Q3c. assert (K : Forall (fun x => x = None) (map p_status ps)).
  { rewrite Q3c, map_map. clear. induction scs' as [|x l IH]; constructor; [reflexivity|exact IH]. }
  clear Q3c. induction ps as [|p ps IH]; constructor; inversion K; subst; auto.
Qed.


(** The shell just before it waits for the pipeline. *)
Lemma foreground_at w d b scs scs' s : scs <> [] ->
  wf_pipeline (Pipeline b (map CSimple scs) false) -> Forall2 (program (im s)) scs scs' ->
  table (fds (im s)) -> basic (jobs (js (im s))) -> (forall t, r_pipe (w t) = true) ->
  let id := next_job_id (jobs (js (im s))) in
  exists s1 ps new, exec_text w (S d) (r_pipeline (Pipeline b (map CSimple scs) false)) s = finish w false id s1 /\
    trace s1 = new ++ trace s /\ no_wait new /\ List.length (forks new) = List.length scs /\
    (forall k f, nth_error (forks new) k = Some f -> started_child s false scs' k f) /\
    (forall a i c r b, new = a ++ EFork i c r :: b -> r = r_fork (w (b ++ trace s))) /\
    cm (im s1) = cm (im s) /\ exit_status (im s1) = exit_status (im s) /\
    basic (jobs (js (im s1))) /\
    (forall k, nget k (job_table (jobs (js (im s1)))) =
       if Z.eqb k id then Some (Job ps id StillAlive Running false false) else nget k (job_table (jobs (js (im s))))) /\
    map p_pid ps = fork_pids new /\ Forall (fun p => p_status p = None) ps.
Proof.
  intros Hne Hw HF Ht HB HA id.
  rewrite exec_pipeline by exact Hw.
  rewrite (pipeline_programs w _ b scs scs' false s Hne HF).
  assert (Hne' : scs' <> []) by (destruct HF; [congruence|discriminate]).
  rewrite run_job_split by (destruct scs'; [congruence|discriminate]).
  assert (Hlen : List.length scs' = List.length scs) by (clear -HF; induction HF; cbn; congruence).
  destruct (launched_at w scs' s Hne' Ht HB HA) as (s1 & ps & new & H1 & _ & Q1 & Q2 & Q3 & Q). rewrite Hlen in Q3.
  exists s1, ps, new. split; [exact (seq_ok _ _ _ _ _ H1)|]. auto.
Qed.

Lemma foreground w d b scs scs' s qs as_ : scs <> [] ->
  wf_pipeline (Pipeline b (map CSimple scs) false) -> Forall2 (program (im s)) scs scs' ->
  table (fds (im s)) -> basic (jobs (js (im s))) -> answering w (trace s) qs as_ -> List.length qs = List.length scs ->
  let id := next_job_id (jobs (js (im s))) in
  exists s1 ps, exec_text w (S d) (r_pipeline (Pipeline b (map CSimple scs) false)) s = finish w false id s1 /\
    r_waits (w (trace s1)) = as_ /\ cm (im s1) = cm (im s) /\ exit_status (im s1) = exit_status (im s) /\
    basic (jobs (js (im s1))) /\
    (forall k, nget k (job_table (jobs (js (im s1)))) =
       if Z.eqb k id then Some (Job ps id StillAlive Running false false) else nget k (job_table (jobs (js (im s))))) /\
    map p_pid ps = map Zpos qs /\ Forall (fun p => p_status p = None) ps.
Proof.
  intros Hne Hw HF Ht HB HA Hl id.
  destruct (foreground_at w d b scs scs' s Hne Hw HF Ht HB (an_pipe _ _ _ _ HA))
    as (s1 & ps & new & E & Q1 & _ & R2 & _ & Hh & C1 & C2 & C3 & C4 & Q4 & C5). rewrite <- Hl in R2.
  exists s1, ps. split; [exact E|]. split; [rewrite Q1; apply (an_waits _ _ _ _ HA); exact R2|].
  split; [exact C1|]. split; [exact C2|]. split; [exact C3|]. split; [exact C4|]. split; [|exact C5].
  rewrite Q4, (honest_pids w (trace s) qs new (an_fork _ _ _ _ HA) Hh) by lia. rewrite R2, firstn_all. reflexivity.
Qed.

(** ** C42, C76: the status of a foreground pipeline *)

(** The wait for a pipeline whose first process reports first. *)
Lemma finish_first w id s s1 v pids q1 qs ps n1 e1 es rs m a rest :
  expand_var (cm (im s)) (lit "PS4") = Some v -> cm (im s1) = cm (im s) -> exit_status (im s1) = exit_status (im s) ->
  basic (jobs (js (im s1))) ->
  (forall k, nget k (job_table (jobs (js (im s1)))) =
     if Z.eqb k id then Some (Job ps id StillAlive Running false false) else nget k (job_table (jobs (js (im s))))) ->
  map p_pid ps = pids -> Forall (fun p => p_status p = None) ps -> pids = q1 :: qs ->
  r_waits (w (trace s1)) = answers ((n1, e1) :: es) (repeat AIntr m ++ a :: rest) -> NoDup pids ->
  event_of e1 q1 -> Forall2 (fun ne r => event_of (snd ne) r) es rs -> NoDup rs -> incl rs qs ->
  (forall k j q, nget k (job_table (jobs (js (im s)))) = Some j -> In q pids -> at_rest q j) ->
  a = AFail \/ a = AStatus StillAlive ->
  exists s', finish w false id s1 = (OOk (status_after e1 (exit_status (im s))), s') /\
    exit_status (im s') = status_after e1 (exit_status (im s)) /\ masked (js (im s')) = false /\
    trace s' = EWait id :: trace s1 /\
    (forall k, k <> id -> nget k (job_table (jobs (js (im s')))) = nget k (job_table (jobs (js (im s))))) /\
    match e1 with
    | Stopped _ _ => exists j, nget id (job_table (jobs (js (im s')))) = Some j /\
        state j = SStopped /\ map p_pid (processes j) = pids
    | _ => nget id (job_table (jobs (js (im s')))) = None
    end.
Proof.
  intros Hv Hcm Hst B1 Hg Hp Hn -> Hwt Hd He1 Hes Hrs Hin Hrest Ha.
  destruct ps as [|p1 ps]; [discriminate|]. pose proof Hp as Hp'. cbn [map] in Hp'. injection Hp' as Ep1 Eps.
  destruct (wait_then_delete v id n1 e1 es rs m a rest (js (im s1)) (Job (p1 :: ps) id StillAlive Running false false) p1 ps)
    as (j3 & W1 & W2 & W3).
  - apply B1.
  - rewrite Hg, Z.eqb_refl. reflexivity.
  - reflexivity.
  - reflexivity.
  - reflexivity.
  - rewrite Hp. exact Hd.
  - exact Hn.
  - rewrite Ep1. exact He1.
  - exact Hes.
  - exact Hrs.
  - rewrite Eps. exact Hin.
  - intros k j' x Hk Hn' Hx. rewrite Hg in Hk. destruct (Z.eqb_spec k id); [contradiction|].
    apply (Hrest k j' (p_pid x) Hk). rewrite <- Hp. apply in_map. exact Hx.
  - exact Ha.
  - unfold finish.
    assert (Hwj : wait_job w id s1 = (OOk e1, Shell (with_js j3 (im s1)) (EWait id :: trace s1))).
    { unfold wait_job. rewrite Hcm, Hv, Hwt, W1. reflexivity. }
    assert (Hfin : forall (st : Z) (i : image), exit_status i = st -> jobs (js i) = delete_job id (jobs j3) ->
      (forall k, k <> id -> nget k (job_table (jobs (js i))) = nget k (job_table (jobs (js (im s))))) /\
      match e1 with
      | Stopped _ _ => exists j, nget id (job_table (jobs (js i))) = Some j /\ state j = SStopped /\ map p_pid (processes j) = q1 :: qs
      | _ => nget id (job_table (jobs (js i))) = None
      end).
    { intros st i _ Ej. rewrite Ej. split.
      - intros k Hk. rewrite (W2 k Hk), Hg. destruct (Z.eqb_spec k id); [contradiction|reflexivity].
      - destruct e1; try exact W3. destruct W3 as (j & Q1 & Q2 & Q3). exists j. split; [exact Q1|].
        split; [exact Q3|]. rewrite Q2. cbn [map]. rewrite Ep1, Eps. reflexivity. }
    set (s4 := Shell (with_js (shell_delete_job id j3) (im s1)) (EWait id :: trace s1)).
    assert (E : (st <- wait_job w id ;; sh_delete_job id ;; match st with Exited _ c => set_exit_status c | _ => ret tt end) s1
      = (OOk tt, Shell (with_exit (status_after e1 (exit_status (im s))) (im s4)) (trace s4))).
    { rewrite (bind_ok _ _ _ _ _ Hwj). rewrite (seq_ok (sh_delete_job id) _ (Shell (with_js j3 (im s1)) (EWait id :: trace s1)) tt s4 eq_refl).
      destruct He1; cbn [status_after]; rewrite <- ?Hst; reflexivity. }
    rewrite (seq_ok _ _ _ _ _ E). eexists. split; [reflexivity|]. cbn [im exit_status]. split; [reflexivity|]. split; [reflexivity|].
    split; [reflexivity|].
    apply (Hfin (status_after e1 (exit_status (im s)))); reflexivity.
Qed.

(** Whatever the length of the pipeline: if the first process reports first, its
    report is the status of the pipeline, whichever other processes report after it
    and in whatever order; the other jobs stay, and the job is gone unless it is
    stopped. *)
Theorem C42_first_partial : forall w d b scs scs' s v q1 qs n1 e1 es rs m a rest, scs <> [] ->
  wf_pipeline (Pipeline b (map CSimple scs) false) -> Forall2 (program (im s)) scs scs' ->
  table (fds (im s)) -> basic (jobs (js (im s))) -> expand_var (cm (im s)) (lit "PS4") = Some v ->
  answering w (trace s) (q1 :: qs) (answers ((n1, e1) :: es) (repeat AIntr m ++ a :: rest)) ->
  List.length (q1 :: qs) = List.length scs -> NoDup (q1 :: qs) ->
  event_of e1 (Zpos q1) -> Forall2 (fun ne r => event_of (snd ne) (Zpos r)) es rs -> NoDup rs -> incl rs qs ->
  (forall k j q, nget k (job_table (jobs (js (im s)))) = Some j -> In q (q1 :: qs) -> at_rest (Zpos q) j) ->
  a = AFail \/ a = AStatus StillAlive ->
  exists s', exec_text w (S d) (r_pipeline (Pipeline b (map CSimple scs) false)) s = (OOk (status_after e1 (exit_status (im s))), s') /\
    exit_status (im s') = status_after e1 (exit_status (im s)) /\ masked (js (im s')) = false /\
    (forall k, k <> next_job_id (jobs (js (im s))) ->
       nget k (job_table (jobs (js (im s')))) = nget k (job_table (jobs (js (im s))))) /\
    match e1 with
    | Stopped _ _ => exists j, nget (next_job_id (jobs (js (im s)))) (job_table (jobs (js (im s')))) = Some j /\
        state j = SStopped /\ map p_pid (processes j) = map Zpos (q1 :: qs)
    | _ => nget (next_job_id (jobs (js (im s)))) (job_table (jobs (js (im s')))) = None
    end.
Proof.
  intros w d b scs scs' s v q1 qs n1 e1 es rs m a rest Hne Hw HF Ht HB Hv HA Hl Hd He1 Hes Hrs Hin Hrest Ha.
  destruct (foreground w d b scs scs' s (q1 :: qs) _ Hne Hw HF Ht HB HA Hl) as (s1 & ps & E & Hwt & Hcm & Hst & B1 & Hg & Hp & Hn).
  set (id := next_job_id (jobs (js (im s)))) in *. rewrite E. clear E.
  destruct (finish_first w id s s1 v _ (Zpos q1) (map Zpos qs) ps n1 e1 es (map Zpos rs) m a rest Hv Hcm Hst B1 Hg Hp Hn eq_refl Hwt)
    as (s' & F1 & F2 & F3 & _ & F4 & F5).
  - apply map_pos_nodup. exact Hd.
  - exact He1.
  - clear -Hes. induction Hes; constructor; auto.
  - apply map_pos_nodup. exact Hrs.
  - intros x Hx. apply in_map_iff in Hx. destruct Hx as (y & <- & Hy). apply in_map, Hin, Hy.
  - intros k j q Hk Hq. change (Zpos q1 :: map Zpos qs) with (map Zpos (q1 :: qs)) in Hq. apply in_map_iff in Hq.
    destruct Hq as (y & <- & Hy). eapply Hrest; eassumption.
  - exact Ha.
  - exists s'. auto.
Qed.

(** ** C76: pipelines *)

(** When the first process of a pipeline has ended and another one stops, the job
    is forgotten: the stopped process can not be continued. *)
Theorem C76_later_refuted : forall w d b scs scs' s v q1 qs n1 c es rs m a rest n q sg, scs <> [] ->
  wf_pipeline (Pipeline b (map CSimple scs) false) -> Forall2 (program (im s)) scs scs' ->
  table (fds (im s)) -> basic (jobs (js (im s))) -> expand_var (cm (im s)) (lit "PS4") = Some v ->
  answering w (trace s) (q1 :: qs) (answers ((n1, Exited (Zpos q1) c) :: es) (repeat AIntr m ++ a :: rest)) ->
  List.length (q1 :: qs) = List.length scs -> NoDup (q1 :: qs) ->
  Forall2 (fun ne r => event_of (snd ne) (Zpos r)) es rs -> NoDup rs -> incl rs qs ->
  In (n, Stopped (Zpos q) sg) es ->
  (forall k j q, nget k (job_table (jobs (js (im s)))) = Some j -> In q (q1 :: qs) -> at_rest (Zpos q) j) ->
  a = AFail \/ a = AStatus StillAlive ->
  exists s', exec_text w (S d) (r_pipeline (Pipeline b (map CSimple scs) false)) s = (OOk c, s') /\ In q qs /\
    forall k j, nget k (job_table (jobs (js (im s')))) = Some j -> has_pid (Zpos q) j -> ~ unfinished j.
Proof.
  intros w d b scs scs' s v q1 qs n1 c es rs m a rest n q sg Hne Hw HF Ht HB Hv HA Hl Hd Hes Hrs Hin Hsg Hrest Ha.
  destruct (C42_first_partial w d b scs scs' s v q1 qs n1 _ es rs m a rest Hne Hw HF Ht HB Hv HA Hl Hd (ev_exited _ c) Hes Hrs Hin Hrest Ha)
    as (s' & E & _ & _ & K & N).
  assert (Hq : In q qs).
  { apply Hin. clear -Hes Hsg. induction Hes as [|ne r es rs He Hes IH]; [destruct Hsg|]. destruct Hsg as [->|Hsg]; [|right; exact (IH Hsg)].
    left. cbn in He. inversion He. reflexivity. }
  exists s'. split; [exact E|]. split; [exact Hq|]. intros k j Hk Hp.
  destruct (Z.eq_dec k (next_job_id (jobs (js (im s))))) as [->|Hkn]; [rewrite N in Hk; discriminate|].
  rewrite (K k Hkn) in Hk. destruct (Hrest k j q Hk (or_intror Hq)) as [F|(x & xs & _ & _ & F)]; [exact F|contradiction].
Qed.

(** ** C40, C41: the crash of the wait *)

Lemma foreground_crash w d b scs scs' s qs n e p rest : scs <> [] ->
  wf_pipeline (Pipeline b (map CSimple scs) false) -> Forall2 (program (im s)) scs scs' ->
  table (fds (im s)) -> basic (jobs (js (im s))) ->
  answering w (trace s) qs (repeat AIntr n ++ AStatus e :: rest) -> List.length qs = List.length scs -> event_of e p ->
  (forall k j, nget k (job_table (jobs (js (im s)))) = Some j -> unfinished j -> ~ has_pid p j) ->
  (exists k j q ps, nget k (job_table (jobs (js (im s)))) = Some j /\ unfinished j /\ processes j = q :: ps /\ p_status q = None) \/
  hd_error (map Zpos qs) <> Some p ->
  fst (exec_text w (S d) (r_pipeline (Pipeline b (map CSimple scs) false)) s) = OPanic.
Proof.
  intros Hne Hw HF Ht HB HA Hl He Hno Hcase.
  destruct (foreground w d b scs scs' s qs _ Hne Hw HF Ht HB HA Hl) as (s1 & ps & E & Hwt & Hcm & Hst & B1 & Hg & Hp & Hn).
  set (id := next_job_id (jobs (js (im s)))) in *. rewrite E. clear E.
  assert (Hbelow : forall k j, nget k (job_table (jobs (js (im s)))) = Some j -> k < id).
  { intros k j E. assert (1 <= k < next_job_id (jobs (js (im s)))) by (apply (b_next _ HB); exists j; exact E). unfold id. lia. }
  assert (Hw' : forall ps4, wait_for_job ps4 id (repeat AIntr n ++ AStatus e :: rest) (js (im s1)) = WPanic).
  { intros ps4. apply (wait_crash ps4 id n e p rest (js (im s1))); [apply B1|exact He| |].
    - exists (Job ps id StillAlive Running false false). rewrite Hg, Z.eqb_refl. split; reflexivity.
    - destruct Hcase as [(k & j & q & qs' & Ek & Hu & Eq & Hs)|Hh].
      + exists k, j. assert (k < id) by (eapply Hbelow; exact Ek). split; [rewrite Hg; destruct (Z.eqb_spec k id); [lia|exact Ek]|].
        split; [exact Hu|]. split.
        * unfold nothing_first. rewrite Eq. split; [|exact Hs]. intros F. apply (Hno k j Ek Hu). exists q. rewrite Eq. split; [left; reflexivity|exact F].
        * intros k' j' Hk E [Hu' Hp']. rewrite Hg in E. destruct (Z.eqb_spec k' id); [lia|]. exact (Hno k' j' E Hu' Hp').
      + exists id, (Job ps id StillAlive Running false false). split; [rewrite Hg, Z.eqb_refl; reflexivity|].
        split; [intros [F|F]; discriminate|]. split.
        * unfold nothing_first. cbn [processes]. rewrite <- Hp in Hh. destruct ps as [|q ps]; cbn in Hh |- *.
          { destruct qs; [destruct scs; [congruence|discriminate]|discriminate]. }
          split; [intros F; apply Hh; rewrite F; reflexivity|]. inversion Hn; assumption.
        * intros k' j' Hk E [Hu' Hp']. rewrite Hg in E. destruct (Z.eqb_spec k' id); [lia|]. exact (Hno k' j' E Hu' Hp'). }
  unfold finish, seq, bind, wait_job. rewrite Hwt, Hw'. reflexivity.
Qed.

(** The first report the shell gets is of another process than the first of the
    pipeline (as when [b] of [a | b] ends before [a]): the shell crashes. *)
Theorem C41_order_refuted : forall w d b scs scs' s qs n e p rest, scs <> [] ->
  wf_pipeline (Pipeline b (map CSimple scs) false) -> Forall2 (program (im s)) scs scs' ->
  table (fds (im s)) -> basic (jobs (js (im s))) ->
  answering w (trace s) qs (repeat AIntr n ++ AStatus e :: rest) -> List.length qs = List.length scs -> event_of e p ->
  (forall k j, nget k (job_table (jobs (js (im s)))) = Some j -> unfinished j -> ~ has_pid p j) ->
  hd_error (map Zpos qs) <> Some p ->
  fst (exec_text w (S d) (r_pipeline (Pipeline b (map CSimple scs) false)) s) = OPanic.
Proof. intros. eapply foreground_crash; try eassumption. right. assumption. Qed.

(** Some job is unfinished and its first process has reported nothing (as after
    [a &]): the shell crashes at the first report of any foreground pipeline. *)
Theorem C42_running_refuted : forall w d b scs scs' s qs n e p rest k j q ps, scs <> [] ->
  wf_pipeline (Pipeline b (map CSimple scs) false) -> Forall2 (program (im s)) scs scs' ->
  table (fds (im s)) -> basic (jobs (js (im s))) ->
  answering w (trace s) qs (repeat AIntr n ++ AStatus e :: rest) -> List.length qs = List.length scs -> event_of e p ->
  (forall k j, nget k (job_table (jobs (js (im s)))) = Some j -> unfinished j -> ~ has_pid p j) ->
  nget k (job_table (jobs (js (im s)))) = Some j -> unfinished j -> processes j = q :: ps -> p_status q = None ->
  fst (exec_text w (S d) (r_pipeline (Pipeline b (map CSimple scs) false)) s) = OPanic.
Proof. intros. eapply foreground_crash; try eassumption. left. exists k, j, q, ps. auto. Qed.

(** Exactly: whatever jobs there are and whatever is reported while the shell waits,
    it crashes when one of the reports reaches, before the process it is about, a
    job whose first process has reported nothing, and not otherwise.  [ps] are the
    processes of the pipeline when it has been started. *)
Theorem C40_pipeline_exact : forall w d b scs scs' s v qs as_, scs <> [] ->
  wf_pipeline (Pipeline b (map CSimple scs) false) -> Forall2 (program (im s)) scs scs' ->
  table (fds (im s)) -> basic (jobs (js (im s))) -> expand_var (cm (im s)) (lit "PS4") = Some v ->
  answering w (trace s) qs as_ -> List.length qs = List.length scs ->
  Forall (fun e => exists q, event_of e q) (heard as_) ->
  let id := next_job_id (jobs (js (im s))) in
  exists ps, map p_pid ps = map Zpos qs /\ Forall (fun p => p_status p = None) ps /\
    (fst (exec_text w (S d) (r_pipeline (Pipeline b (map CSimple scs) false)) s) = OPanic <->
     stumbles (heard as_) (ninsert id (Job ps id StillAlive Running false false) (job_table (jobs (js (im s)))))).
Proof.
  intros w d b scs scs' s v qs as_ Hne Hw HF Ht HB Hv HA Hl He id.
  destruct (foreground w d b scs scs' s qs as_ Hne Hw HF Ht HB HA Hl) as (s1 & ps & E & Hwt & Hcm & Hst & B1 & Hg & Hp & Hn).
  fold id in E, Hg. exists ps. split; [exact Hp|]. split; [exact Hn|]. rewrite E.
  assert (Hj : exists j, nget id (job_table (jobs (js (im s1)))) = Some j /\ state j = Running)
    by (eexists; rewrite Hg, Z.eqb_refl; split; reflexivity).
  pose proof (wait_stumbles v id as_ (js (im s1)) B1 He Hj) as W.
  assert (K : alike (ninsert id (Job ps id StillAlive Running false false) (job_table (jobs (js (im s))))) (job_table (jobs (js (im s1))))).
  { intros k. rewrite nget_ninsert by apply HB. rewrite Hg. destruct (Z.eqb k id); [split; reflexivity|].
    destruct (nget k (job_table (jobs (js (im s))))); [split; reflexivity|exact I]. }
  transitivity (stumbles (heard as_) (job_table (jobs (js (im s1))))).
  2:{ split; intros C; eapply alike_stumbles; [exact C|apply alike_sym, K|exact C|exact K]. }
  rewrite <- W. unfold finish, seq, bind, wait_job. rewrite Hcm, Hv, Hwt.
  destruct (wait_for_job (Some v) id as_ (js (im s1))) as [st t r| |]; [|split; reflexivity|split; discriminate].
  destruct st; split; discriminate.
Qed.

(** Whatever is reported about the processes of the pipeline when every other job
    is finished or stopped, the first process reporting first: the status is what
    the first process reported last, and the job is gone unless its first process
    is stopped. *)
Theorem C42_reports_partial : forall w d b scs scs' s v qs as_, scs <> [] ->
  wf_pipeline (Pipeline b (map CSimple scs) false) -> Forall2 (program (im s)) scs scs' ->
  table (fds (im s)) -> basic (jobs (js (im s))) -> expand_var (cm (im s)) (lit "PS4") = Some v ->
  answering w (trace s) qs as_ -> List.length qs = List.length scs ->
  (forall k j q, nget k (job_table (jobs (js (im s)))) = Some j -> In q qs -> at_rest (Zpos q) j) ->
  ends as_ -> heard as_ <> [] ->
  let id := next_job_id (jobs (js (im s))) in
  exists ps, map p_pid ps = map Zpos qs /\ Forall (fun p => p_status p = None) ps /\
    forall q0 rest st, learnt (heard as_) ps (q0 :: rest) -> p_status q0 = Some st ->
    exists s', exec_text w (S d) (r_pipeline (Pipeline b (map CSimple scs) false)) s = (OOk (status_after st (exit_status (im s))), s') /\
      exit_status (im s') = status_after st (exit_status (im s)) /\ masked (js (im s')) = false /\
      (forall k, k <> id -> nget k (job_table (jobs (js (im s')))) = nget k (job_table (jobs (js (im s))))) /\
      match st with
      | Stopped _ _ => exists j, nget id (job_table (jobs (js (im s')))) = Some j /\ state j = SStopped /\ processes j = q0 :: rest
      | _ => nget id (job_table (jobs (js (im s')))) = None
      end.
Proof.
  intros w d b scs scs' s v qs as_ Hne Hw HF Ht HB Hv HA Hl Hrest Hend Hh id.
  destruct (foreground w d b scs scs' s qs as_ Hne Hw HF Ht HB HA Hl) as (s1 & ps & E & Hwt & Hcm & Hst & B1 & Hg & Hp & Hn).
  fold id in E, Hg. exists ps. split; [exact Hp|]. split; [exact Hn|]. intros q0 rest st HL Hq0. rewrite E.
  destruct (wait_learnt v id as_ (js (im s1)) (Job ps id StillAlive Running false false) (q0 :: rest) Hend Hh HL (b_sorted _ B1))
    as (st' & t & r & W1 & W2 & W3 & W4 & W5).
  { rewrite Hg, Z.eqb_refl. reflexivity. }
  { reflexivity. }
  { reflexivity. }
  { cbn [processes]. rewrite Hp. intros k j' q Hk Hkn Hq. apply in_map_iff in Hq. destruct Hq as (q' & <- & Hq).
    rewrite Hg in Hk. destruct (Z.eqb_spec k id); [contradiction|]. exact (Hrest k j' q' Hk Hq). }
  cbn in W2. assert (st' = st) by congruence. subst st'.
  assert (D : (forall k, k <> id -> nget k (job_table (delete_job id (jobs t))) = nget k (job_table (jobs t))) /\
    match st with
    | Stopped _ _ => exists j, nget id (job_table (delete_job id (jobs t))) = Some j /\ state j = SStopped /\ processes j = q0 :: rest
    | _ => nget id (job_table (delete_job id (jobs t))) = None
    end).
  { assert (Sd : nsorted (job_table (jobs t))).
    { apply (wait_for_job_basic v id as_ (js (im s1)) st t r B1 W1). }
    assert (Gone : nget id (job_table (jobs t)) = None -> delete_job id (jobs t) = jobs t) by (intros G; unfold delete_job; rewrite G; reflexivity).
    assert (Dr : (all_reported (q0 :: rest) /\ ~ some_stopped (q0 :: rest)) \/ ~ (all_reported (q0 :: rest) /\ ~ some_stopped (q0 :: rest))).
    { rewrite <- no_status_all, <- stoppedb_none. destruct (existsb no_status (q0 :: rest)); [right; intros []; discriminate|].
      destruct (existsb stoppedb (q0 :: rest)); [right; intros []; discriminate|left; auto]. }
    destruct Dr as [Dr|Dr].
    { assert (G := W4 (or_introl Dr)). rewrite (Gone G). split; [reflexivity|]. destruct st; try exact G.
      destruct Dr as [_ Dr]. destruct Dr. exists q0. do 2 eexists. split; [left; reflexivity|exact Hq0]. }
    destruct (is_exited st) eqn:Ex.
    { assert (G := W4 (or_intror eq_refl)). rewrite (Gone G). split; [reflexivity|]. destruct st; try exact G. discriminate. }
    destruct (W5 Dr eq_refl) as (j1 & R1 & R2 & R3 & R4 & _).
    destruct (delete_job_deletion id (jobs t)) as [F|j0 F Ep|j0 p0 ps0 st0 F Ep Est Hst0|j0 p0 ps0 F Ep Hp0 Hst0]; rewrite R1 in F; try discriminate;
      injection F as <-; rewrite R2 in Ep; try discriminate; injection Ep as <- <-; cbn [job_table put_table].
    - assert (Sr : nsorted (nremove id (job_table (jobs t)))) by (apply nsorted_nremove, Sd).
      split.
      + intros k Hk. rewrite nget_ninsert by exact Sr. destruct (Z.eqb_spec k id); [contradiction|]. rewrite nget_nremove.
        destruct (Z.eqb_spec k id); [contradiction|reflexivity].
      + rewrite Hq0, R4 in Est. destruct st; subst st0; try discriminate Hst0.
        rewrite nget_ninsert by exact Sr. rewrite Z.eqb_refl. eexists. split; [reflexivity|]. split; [reflexivity|exact R2].
    - split; [intros k Hk; rewrite nget_nremove; destruct (Z.eqb_spec k id); [contradiction|reflexivity]|].
      rewrite Hq0 in Hp0. destruct st; try (rewrite nget_nremove, Z.eqb_refl; reflexivity). destruct (Hp0 _ _ eq_refl). }
  destruct D as [D1 D2]. unfold finish.
  assert (Hwj : wait_job w id s1 = (OOk st, Shell (with_js t (im s1)) (EWait id :: trace s1))).
  { unfold wait_job. rewrite Hcm, Hv, Hwt, W1. reflexivity. }
  set (s4 := Shell (with_js (shell_delete_job id t) (im s1)) (EWait id :: trace s1)).
  assert (E1 : (st <- wait_job w id ;; sh_delete_job id ;; match st with Exited _ c => set_exit_status c | _ => ret tt end) s1
    = (OOk tt, Shell (with_exit (status_after st (exit_status (im s))) (im s4)) (trace s4))).
  { rewrite (bind_ok _ _ _ _ _ Hwj). rewrite (seq_ok (sh_delete_job id) _ (Shell (with_js t (im s1)) (EWait id :: trace s1)) tt s4 eq_refl).
    destruct st; cbn [status_after]; rewrite <- ?Hst; reflexivity. }
  rewrite (seq_ok _ _ _ _ _ E1). eexists. split; [reflexivity|]. split; [reflexivity|]. split; [reflexivity|].
  split; [|exact D2]. intros k Hk. change (nget k (job_table (delete_job id (jobs t))) = nget k (job_table (jobs (js (im s))))).
  rewrite (D1 k Hk), (W3 k Hk), Hg. destruct (Z.eqb_spec k id); [contradiction|reflexivity].
Qed.

(** Three programs with the numbers 100, 101 and 102, or in whatever job: the
    answers to [waitpid] are [as_]. *)
Definition ex_answers (as_ : list answer) : os := fun t =>
  let r := PropertiesEval.ex_reports 0 in
  Reports (r_isfile r) (r_open r) (r_read r) (r_chdir r) (r_cwd r) (r_kill r) true
    (nth_error [100%positive; 101%positive; 102%positive] (List.length (forks t))) (r_exec r) (r_getpid r) as_ (r_subst r).
Definition ex_three : list simple_command := map (fun n => words_cmd (lit n) [lit "x"]) ["a"; "b"; "c"]%string.
Definition ex_names : list simple_command := map (fun n => SimpleCommand None (lit n) (Some (Suffix [] [lit "x"]))) ["a"; "b"; "c"]%string.
Definition ex_first : list answer := answers [(1%nat, Exited 100 3); (0%nat, Exited 102 0); (2%nat, Exited 101 1)] [AFail].
Definition ex_late : list answer := answers [(1%nat, Exited 101 3); (0%nat, Exited 100 0)] [AFail].

Lemma ex_program n : In n ["a"; "b"; "c"]%string ->
  program PropertiesEval.ex_image (words_cmd (lit n) [lit "x"]) (SimpleCommand None (lit n) (Some (Suffix [] [lit "x"]))).
Proof.
  intros Hn. apply program_words; [destruct Hn as [<-|[<-|[<-|[]]]]; reflexivity| |destruct Hn as [<-|[<-|[<-|[]]]]; reflexivity
    |intros q a E; destruct Hn as [<-|[<-|[<-|[]]]]; discriminate| | |].
  - split; [destruct Hn as [<-|[<-|[<-|[]]]]; discriminate|]. split; [destruct Hn as [<-|[<-|[<-|[]]]]; reflexivity|].
    split; [intros [t E]; destruct Hn as [<-|[<-|[<-|[]]]]; discriminate|].
    intros c Hc. destruct Hn as [<-|[<-|[<-|[]]]]; destruct Hc as [<-|[]]; split; vm_compute; intuition discriminate.
  - destruct Hn as [<-|[<-|[<-|[]]]]; discriminate.
  - constructor; [apply o_plain; intros [t E]; discriminate|constructor].
  - destruct Hn as [<-|[<-|[<-|[]]]]; cbn; intros c [<-|[<-|[]]]; discriminate.
Qed.
Lemma ex_wf : wf_pipeline (Pipeline false (map CSimple ex_three) false).
Proof.
  assert (W : forall n, In n ["a"; "b"; "c"]%string -> wf_command (CSimple (words_cmd (lit n) [lit "x"]))).
  { intros n Hn. assert (Ws : Forall written_word [lit n; lit "x"]) by (destruct Hn as [<-|[<-|[<-|[]]]]; (repeat (apply Forall_cons; [spelled|]); apply Forall_nil)).
    destruct (words_line (lit n) [lit "x"] ltac:(destruct Hn as [<-|[<-|[<-|[]]]]; discriminate) Ws) as [Wl _]. destruct Wl as (_ & Wl & _).
    cbn [wf_pipeline all fold_right] in Wl. apply Wl. }
  cbn [wf_pipeline all fold_right ex_three map]. split; [discriminate|]. split; [|intros [E _]; discriminate].
  split; [apply (W "a"%string); cbn; auto|]. split; [apply (W "b"%string); cbn; auto|].
  split; [apply (W "c"%string); cbn; auto|exact I].
Qed.
Example C42_first_example :
  wf_pipeline (Pipeline false (map CSimple ex_three) false) /\ Forall2 (program PropertiesEval.ex_image) ex_three ex_names /\
  answering (ex_answers ex_first) (trace PropertiesEval.ex_shell) [100%positive; 101%positive; 102%positive] ex_first /\
  r_pipeline (Pipeline false (map CSimple ex_three) false) = lit " a x | b x | c x" /\
  fst (exec_text (ex_answers ex_first) 5 (lit " a x | b x | c x") PropertiesEval.ex_shell) = OOk 3.
Proof.
  split; [exact ex_wf|]. split; [repeat (apply Forall2_cons; [apply ex_program; cbn; auto|]); apply Forall2_nil|].
  split; [|split; vm_compute; reflexivity].
  split; [reflexivity| |reflexivity]. intros new _. cbn [ex_answers r_fork]. rewrite forks_app. reflexivity.
Qed.
Definition ex_later : list answer := answers [(0%nat, Exited 100 0); (0%nat, Stopped 102 SIGTSTP); (0%nat, Exited 101 0)] [AFail].
Example C76_later_example :
  answering (ex_answers ex_later) (trace PropertiesEval.ex_shell) [100%positive; 101%positive; 102%positive] ex_later /\
  fst (exec_text (ex_answers ex_later) 5 (lit " a x | b x | c x") PropertiesEval.ex_shell) = OOk 0 /\
  job_table (jobs (js (im (snd (exec_text (ex_answers ex_later) 5 (lit " a x | b x | c x") PropertiesEval.ex_shell))))) = [].
Proof.
  split; [|split; vm_compute; reflexivity].
  split; [reflexivity| |reflexivity]. intros new _. cbn [ex_answers r_fork]. rewrite forks_app. reflexivity.
Qed.
Example C41_order_example :
  answering (ex_answers ex_late) (trace PropertiesEval.ex_shell) [100%positive; 101%positive; 102%positive] ex_late /\
  fst (exec_text (ex_answers ex_late) 5 (lit " a x | b x | c x") PropertiesEval.ex_shell) = OPanic.
Proof.
  split; [|vm_compute; reflexivity].
  split; [reflexivity| |reflexivity]. intros new _. cbn [ex_answers r_fork]. rewrite forks_app. reflexivity.
Qed.
(** [a &] and then [b]: the shell crashes when [b] ends. *)
Example C42_running_example :
  let w := ex_answers [AStatus (Exited 101 0)] in
  let '(o, s) := exec_text w 5 (lit "a x &") PropertiesEval.ex_shell in
  o = OOk 0 /\ map (fun kj => (fst kj, state (snd kj), map p_status (processes (snd kj)))) (job_table (jobs (js (im s)))) = [(1, Running, [None])] /\
  fst (exec_text w 5 (lit " b x") s) = OPanic.
Proof. vm_compute. repeat split. Qed.

(** The first process stops, is continued and ends while the others end: nothing is
    lost; the last report of [a x] is the status.  With [b x] first it crashes. *)
Definition ex_twice : list answer :=
  map AStatus [Stopped 100 SIGTSTP; Exited 101 1; Exited 102 0; Exited 100 7] ++ [AFail].
Example C42_reports_example :
  heard ex_twice = [Stopped 100 SIGTSTP; Exited 101 1; Exited 102 0; Exited 100 7] /\ ends ex_twice /\
  answering (ex_answers ex_twice) (trace PropertiesEval.ex_shell) [100%positive; 101%positive; 102%positive] ex_twice /\
  (let ps := map (fun q => Process q [] [] [] None) [100; 101; 102] in
   exists ps', learnt (heard ex_twice) ps ps' /\ map p_status ps' = [Some (Exited 100 7); Some (Exited 101 1); Some (Exited 102 0)] /\
     ~ stumbles (heard ex_twice) [(1, Job ps 1 StillAlive Running false false)]) /\
  fst (exec_text (ex_answers ex_twice) 5 (lit " a x | b x | c x") PropertiesEval.ex_shell) = OOk 7.
Proof.
  split; [reflexivity|]. split; [exact I|]. split; [|split; [|vm_compute; reflexivity]].
  { split; [reflexivity| |reflexivity]. intros new _. cbn [ex_answers r_fork]. rewrite forks_app. reflexivity. }
  cbn zeta. eexists. split; [|split].
  - eapply le_one; [constructor|left; reflexivity|reflexivity|left; reflexivity|reflexivity|discriminate|].
    eapply le_one; [constructor|right; left; reflexivity|reflexivity|left; reflexivity|reflexivity|discriminate|].
    eapply le_one; [constructor|do 2 right; left; reflexivity|reflexivity|left; reflexivity|reflexivity|discriminate|].
    eapply le_one; [constructor|left; reflexivity|reflexivity|right; do 2 eexists; reflexivity|reflexivity|discriminate|].
    apply le_nil.
  - reflexivity.
  - set (t := [(1, _)]). intros C.
    apply (wait_stumbles [] 1 ex_twice (Jst (JobControl t [] [] None 2) false false [])) in C.
    + vm_compute in C. discriminate.
    + split; cbn; [repeat constructor| | |lia|constructor|constructor].
      * intros k j. destruct (Z.eqb_spec k 1) as [->|]; [|discriminate]. intros E. injection E as <-. reflexivity.
      * intros k (j & E). cbn in E. destruct (Z.eqb_spec k 1); [lia|discriminate].
    + repeat constructor; eexists; constructor.
    + eexists. split; reflexivity.
Qed.

Print Assumptions C40_pipeline_exact.
Print Assumptions C42_reports_partial.
Print Assumptions C42_first_partial.
Print Assumptions C41_order_refuted.
Print Assumptions C42_running_refuted.
Print Assumptions C76_later_refuted.
