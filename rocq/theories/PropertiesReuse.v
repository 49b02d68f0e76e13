(** Property C144: the status of a program whose process number was already in use
    in the table of jobs; and C69, what is said when a number is no longer known. *)
From Verif Require Import Base BaseFacts Lexer LexerSpec Ast Parser GrammarSpec.
From Verif Require Import Context Alias Expand ExpandSpec ExpandFacts ExpandLaws Jobs Shell Builtins Eval.
From Verif Require Import EvalSpec EvalFacts EvalLaws EvalKeeps RunSpec RunLaws PipeSpec PipeLaws ChildLaws PipeRun.
From Verif Require Import JobsSpec JobsFacts JobsLaws JobsWait JobsPipe JobsReports.
From Verif Require PropertiesJobs PropertiesEval PropertiesStatus PropertiesProgram PropertiesWait EvalFds.
Import PropertiesProgram PropertiesStatus PropertiesWait.
Local Open Scope Z_scope.

(** A job after the one that has the number is not touched. *)
Lemma visited_after p w t t' k st : visited p w t t' (Some (k, st)) -> nsorted t ->
  (forall k j, nget k t = Some j -> job_id j = k) -> forall c, k < c -> nget c t' = nget c t.
Proof.
  intros H. remember (Some (k, st)) as r eqn:Er.
  induction H as [|k0 j0 t t' r Hf Hv IH|k0 j0 w0 t t' r Hu Hp Hf Hv IH|k0 j0 w0 t Hu Hp Hf]; intros Hs Hid c Hc; [discriminate| | |];
    inversion Hs as [|? ? ? Hlt Hs']; subst; rewrite Forall_forall in Hlt; cbn [nget];
    assert (G : forall c z, nget c t = Some z -> k0 < c) by (intros c0 z Hz; exact (Hlt _ (nget_In _ _ _ Hz)));
    assert (Hid' : forall c z, nget c t = Some z -> job_id z = c)
      by (intros c0 z Hz; apply Hid; cbn; destruct (Z.eqb_spec c0 k0) as [->|]; [apply G in Hz; lia|exact Hz]).
  1,2: pose proof (visited_first _ _ _ _ _ Hv Hs' Hid') as (j1 & E1 & _); apply G in E1;
    destruct (Z.eqb_spec c k0) as [->|]; [lia|]; apply IH; auto.
  injection Er as Ek _. assert (E : job_id j0 = k0) by (apply Hid; cbn; rewrite Z.eqb_refl; reflexivity).
  destruct (Z.eqb_spec c k0) as [->|]; [lia|reflexivity].
Qed.

(** The wait for a job whose only process has a number that a job before it has. *)
Lemma wait_elsewhere v id n e q m a rest s p k1 j1 : basic (jobs s) -> event_of e q ->
  nget id (job_table (jobs s)) = Some (Job [p] id StillAlive Running false false) -> p_status p = None ->
  first_with q (job_table (jobs s)) k1 j1 -> k1 < id ->
  (forall k j, nget k (job_table (jobs s)) = Some j -> k < id -> unfinished j -> first_status (processes j) <> None) ->
  a = AFail \/ a = AStatus StillAlive ->
  exists s' rest', wait_for_job (Some v) id (repeat AIntr n ++ AStatus e :: repeat AIntr m ++ a :: rest) s = WDone StillAlive s' rest' /\
    nget id (job_table (jobs s')) = Some (Job [p] id StillAlive Running false false) /\
    collected q e (job_table (jobs s)) (job_table (jobs s')) /\ printed s' = printed s.
Proof.
  intros B He Hid Hp0 Hf Hlt Hok Ha.
  destruct (visit q e (job_table (jobs s))) as [[t' r]|] eqn:Ev.
  2:{ exfalso. apply (visit_none_trips _ _ _ (b_sorted _ B)) in Ev. destruct Ev as (k & j & E & Hu & Hn & Hb).
      destruct (Z.lt_ge_cases k1 k) as [L|L].
      - destruct Hf as (F1 & F2 & F3 & _). apply (Hb k1 j1 L F1). auto.
      - apply (Hok k j E ltac:(lia) Hu). unfold nothing_first in Hn. destruct (processes j) as [|x xs]; [reflexivity|apply Hn]. }
  pose proof (visit_some _ _ _ _ _ Ev) as V.
  pose proof (proj1 (visited_first_iff _ _ _ _ _ k1 j1 V (b_sorted _ B) (b_ids _ B) (proj1 Hf)) Hf) as (st & ->).
  pose proof (visited_after _ _ _ _ _ _ V (b_sorted _ B) (b_ids _ B) id Hlt) as Hk. rewrite Hid in Hk.
  pose proof (visited_collected _ _ _ _ _ V (b_sorted _ B) (b_ids _ B)) as C.
  set (jc := after_found (Some (k1, st)) (put_table t' (jobs s))).
  assert (Hjc : job_table jc = t') by (unfold jc; destruct st; reflexivity).
  unfold wait_for_job, do_wait, get_job. rewrite Hid. cbn [state state_eqb negb andb].
  set (as1 := repeat AIntr m ++ a :: rest).
  change (repeat AIntr n ++ AStatus e :: as1) with (intr n (AStatus e :: as1)).
  assert (Hlen : exists l, List.length (intr n (AStatus e :: as1)) = S l).
  { unfold intr. rewrite app_length. cbn. exists (List.length (repeat AIntr n) + List.length as1)%nat. lia. }
  destruct Hlen as (l & Hlen). rewrite Hlen. cbn [wait_loop].
  rewrite (wait_one_event (Some v) id n e q as1 s He), Ev. fold jc. cbv zeta. clearbody jc.
  destruct (Z.eqb_spec k1 id) as [->|_]; [lia|].
  pose proof (wait_one_end v id m a rest (Jst jc false false (printed s)) Ha) as W. fold as1 in W.
  assert (Hl : (1 <= l)%nat).
  { destruct l; [|lia]. exfalso. subst as1. clear -Hlen. unfold intr in Hlen. rewrite app_length in Hlen. cbn in Hlen.
    rewrite app_length in Hlen. cbn in Hlen. lia. }
  destruct l as [|l]; [lia|]. cbn [wait_loop]. rewrite W.
  assert (Hend : forall mk, exists s' rest',
    match nget id (job_table (jobs (Jst jc mk false (printed s)))) with
    | None => WPanic
    | Some j => if state_eqb (state j) Finished || is_exited (stop_status j)
        then WDone (stop_status j) (shell_delete_job id (Jst jc mk false (printed s))) rest
        else WDone (stop_status j) (Jst jc mk false (printed s)) rest
    end = WDone StillAlive s' rest' /\
    nget id (job_table (jobs s')) = Some (Job [p] id StillAlive Running false false) /\
    collected q e (job_table (jobs s)) (job_table (jobs s')) /\ printed s' = printed s).
  { intros mk. cbn [jobs]. rewrite Hjc, Hk. cbn [state stop_status is_exited state_eqb orb]. do 2 eexists. split; [reflexivity|]. cbn [jobs printed]. rewrite Hjc. auto. }
  destruct Ha as [-> | ->]; apply Hend.
Qed.

(** ** C144: a process number that is in the table already *)

(** If the number of a new program is still in an unfinished job of the table (say
    that of a process of a stopped pipeline that ended long ago), the report about the
    program goes to that job: the program counts as if it had never ended, the
    status stays that of the command before it, and nothing is said. *)
Theorem C144_lost_refuted : forall w d b sc sc' s v q k1 j1 n e m a rest,
  wf_pipeline (Pipeline b [CSimple sc] false) -> program (im s) sc sc' ->
  table (fds (im s)) -> basic (jobs (js (im s))) -> expand_var (cm (im s)) (lit "PS4") = Some v ->
  answering w (trace s) [q] (repeat AIntr n ++ AStatus e :: repeat AIntr m ++ a :: rest) ->
  event_of e (Zpos q) -> a = AFail \/ a = AStatus StillAlive ->
  first_with (Zpos q) (job_table (jobs (js (im s)))) k1 j1 ->
  (forall k j, nget k (job_table (jobs (js (im s)))) = Some j -> unfinished j ->
     exists p ps, processes j = p :: ps /\ p_status p <> None) ->
  exists s', exec_text w (S d) (r_pipeline (Pipeline b [CSimple sc] false)) s = (OOk (exit_status (im s)), s') /\
    exit_status (im s') = exit_status (im s) /\ 
    nget (next_job_id (jobs (js (im s)))) (job_table (jobs (js (im s')))) = None /\
    exists j1', nget k1 (job_table (jobs (js (im s')))) = Some j1' /\
      processes j1' = map (report (Zpos q) e) (processes j1).
Proof.
  intros w d b sc sc' s v q k1 j1 n e m a rest Hw HP Ht HB Hv HA He Ha Hf Hok.
  destruct (foreground w d b [sc] [sc'] s [q] _ ltac:(discriminate) Hw (Forall2_cons _ _ HP (Forall2_nil _)) Ht HB HA eq_refl)
    as (s1 & ps & E & Hwt & Hcm & Hst & B1 & Hg & Hp & Hn).
  set (id := next_job_id (jobs (js (im s)))) in *. cbn [map] in E. rewrite E. clear E.
  destruct ps as [|p [|]]; try discriminate. cbn in Hp. inversion Hn as [|? ? Hp0 _]. subst.
  assert (L : forall k j, nget k (job_table (jobs (js (im s)))) = Some j -> k < id).
  { intros k j Hk. apply (b_next _ HB k). exists j. exact Hk. }
  assert (Hf1 : first_with (Zpos q) (job_table (jobs (js (im s1)))) k1 j1).
  { destruct Hf as (F1 & F2 & F3 & F4). pose proof (L _ _ F1) as Hl. split; [|split; [exact F2|split; [exact F3|]]].
    - rewrite Hg. destruct (Z.eqb_spec k1 id); [lia|exact F1].
    - intros k' j' Hk' E'. rewrite Hg in E'. destruct (Z.eqb_spec k' id); [lia|]. exact (F4 k' j' Hk' E'). }
  destruct (wait_elsewhere v id n e (Zpos q) m a rest (js (im s1)) p k1 j1 B1 He) as (j3 & rest' & W1 & W2 & W3 & _).
  - rewrite Hg, Z.eqb_refl. reflexivity.
  - exact Hp0.
  - exact Hf1.
  - exact (L _ _ (proj1 Hf)).
  - intros k j Hk Hl Hu. rewrite Hg in Hk. destruct (Z.eqb_spec k id); [lia|].
    destruct (Hok k j Hk Hu) as (x & xs & Ex & Hx). rewrite Ex. exact Hx.
  - exact Ha.
  - unfold finish.
    assert (Hwj : wait_job w id s1 = (OOk StillAlive, Shell (with_js j3 (im s1)) (EWait id :: trace s1))).
    { unfold wait_job. rewrite Hcm, Hv, Hwt, W1. reflexivity. }
    set (s4 := Shell (with_js (shell_delete_job id j3) (im s1)) (EWait id :: trace s1)).
    assert (E : (st <- wait_job w id ;; sh_delete_job id ;; match st with Exited _ c => set_exit_status c | _ => ret tt end) s1
      = (OOk tt, s4)).
    { rewrite (bind_ok _ _ _ _ _ Hwj). exact (seq_ok (sh_delete_job id) _ (Shell (with_js j3 (im s1)) (EWait id :: trace s1)) tt s4 eq_refl). }
    rewrite (seq_ok _ _ _ _ _ E).
    assert (Hdel : forall k, nget k (job_table (delete_job id (jobs j3))) =
      if Z.eqb k id then None else nget k (job_table (jobs j3))).
    { intros k. unfold delete_job. rewrite W2. cbn [processes note_stop]. unfold note_stop. rewrite Hp0.
      cbn [stop_status is_stopped job_table]. apply nget_nremove. }
    eexists. split; [unfold seq, interrupts_on, get_exit_code; rewrite <- Hst; reflexivity|]. cbn [im exit_status].
    split; [exact Hst|].
    split; [change (nget id (job_table (delete_job id (jobs j3))) = None); rewrite Hdel, Z.eqb_refl; reflexivity|].
    pose proof (W3 k1) as C. rewrite (proj1 Hf1) in C. destruct (nget k1 (job_table (jobs j3))) as [j1'|] eqn:E1; [|contradiction].
    exists j1'. split; [|apply C; exact Hf1].
    change (nget k1 (job_table (delete_job id (jobs j3))) = Some j1'). rewrite Hdel, E1.
    destruct (Z.eqb_spec k1 id) as [->|]; [|reflexivity]. pose proof (L _ _ (proj1 Hf)). lia.
Qed.

(** ** The witness *)

(** The system gives the numbers 100 and 101 to the first two programs, and [q] and
    103 to the next two.  Of the first two, the first stops and the second ends; the
    third fails. *)
Definition ex_reusing (q : positive) : os := fun t =>
  let r := PropertiesEval.ex_reports 0 in
  Reports (r_isfile r) (r_open r) (r_read r) (r_chdir r) (r_cwd r) (r_kill r) true
    (nth_error [100%positive; 101%positive; q; 103%positive] (List.length (forks t))) (r_exec r) (r_getpid r)
    (match List.length (forks t) with
     | 2%nat => [AStatus (Stopped 100 SIGTSTP); AStatus (Exited 101 0); AFail]
     | 3%nat => [AStatus (Exited (Zpos q) 1); AFail]
     | _ => [AStatus (Exited 103 0); AFail]
     end) (r_subst r).
Definition ex_stopped (q : positive) : shell := snd (exec_text (ex_reusing q) 5 (lit " a x | b x") PropertiesEval.ex_shell).

(** A program that failed counts as one that succeeded when its number was that of a
    process that had ended long before: what follows [&&] is run.  With any number
    that is new, it is not. *)
Theorem C144_reuse_refuted :
  let failing q := exec_text (ex_reusing q) 5 (lit " c x && a x") (ex_stopped q) in
  (forall q, fst (exec_text (ex_reusing q) 5 (lit " a x | b x") PropertiesEval.ex_shell) = OOk 0) /\
  (forall q new, List.length (forks new) = 1%nat ->
     r_waits (ex_reusing q (new ++ trace (ex_stopped q))) = [AStatus (Exited (Zpos q) 1); AFail]) /\
  fst (failing 101%positive) = OOk 0 /\ List.length (forks (trace (snd (failing 101%positive)))) = 4%nat /\
  fst (failing 102%positive) = OOk 1 /\ List.length (forks (trace (snd (failing 102%positive)))) = 3%nat.
Proof.
  cbv zeta. split; [intros q; vm_compute; reflexivity|]. split.
  - intros q new E. unfold ex_reusing at 1. cbn [r_waits]. rewrite forks_app, app_length, E. reflexivity.
  - repeat match goal with |- _ /\ _ => split end; vm_compute; reflexivity.
Qed.

Lemma program_same i i' sc sc' : al i' = al i -> cm i' = cm i -> program i sc sc' -> program i' sc sc'.
Proof. intros E1 E2 H. destruct H; constructor; rewrite ?E1, ?E2; assumption. Qed.

Example C144_lost_example :
  let s := ex_stopped 101 in let sc := words_cmd (lit "c") [lit "x"] in
  wf_pipeline (Pipeline false [CSimple sc] false) /\
  program (im s) sc (SimpleCommand None (lit "c") (Some (Suffix [] [lit "x"]))) /\
  table (fds (im s)) /\ basic (jobs (js (im s))) /\ expand_var (cm (im s)) (lit "PS4") <> None /\
  answering (ex_reusing 101) (trace s) [101%positive] (repeat AIntr 0 ++ AStatus (Exited 101 1) :: repeat AIntr 0 ++ AFail :: []) /\
  (exists k1 j1, first_with 101 (job_table (jobs (js (im s)))) k1 j1) /\
  (forall k j, nget k (job_table (jobs (js (im s)))) = Some j -> unfinished j ->
     exists p ps, processes j = p :: ps /\ p_status p <> None) /\
  r_pipeline (Pipeline false [CSimple sc] false) = lit " c x" /\
  fst (exec_text (ex_reusing 101) 5 (lit " c x") s) = OOk 0.
Proof.
  cbv zeta. set (sc := words_cmd (lit "c") [lit "x"]).
  assert (Wf : wf_pipeline (Pipeline false [CSimple sc] false)).
  { pose proof ex_wf as W. cbn [wf_pipeline all fold_right ex_three map] in *. destruct W as (_ & (_ & _ & W & _) & _).
    split; [discriminate|]. split; [split; [exact W|exact I]|intros [E _]; discriminate]. }
  split; [exact Wf|].
  split; [apply (program_same PropertiesEval.ex_image); [vm_compute; reflexivity|vm_compute; reflexivity|apply ex_program; cbn; auto]|].
  split.
  { split; [vm_compute; repeat constructor|].
    assert (E : exists t, fds (im (ex_stopped 101)) = t /\ forallb (fun fd => Z.leb 0 (fst fd)) t = true) by (eexists; split; vm_compute; reflexivity).
    destruct E as (t & -> & E). intros fd d0 H. apply nget_In in H. rewrite forallb_forall in E. apply E in H. apply Z.leb_le in H. exact H. }
  split.
  { apply (run_basic [OCreate [([lit "a"; lit "x"], lit "a", lit "a"); ([lit "b"; lit "x"], lit "b", lit "b")] false; OStart 1 0 100; OStart 1 1 101;
      OWait PropertiesJobs.ps4_default 1 [AStatus (Stopped 100 SIGTSTP); AStatus (Exited 101 0); AFail]; ODelete 1; OMask false] jst0); [exact basic_new|].
    vm_compute. reflexivity. }
  split; [intros Y; vm_compute in Y; discriminate Y|].
  split.
  { split; [reflexivity| |].
    - intros new Hn. cbn [List.length] in Hn. assert (E : List.length (forks new) = 0%nat) by lia.
      cbn [ex_reusing r_fork]. rewrite forks_app, app_length, E. reflexivity.
    - intros new E. cbn [List.length] in E. unfold ex_reusing. cbn [r_waits]. rewrite forks_app, app_length, E. reflexivity. }
  assert (T : exists j, job_table (jobs (js (im (ex_stopped 101)))) = [(1, j)] /\ state j = SStopped /\
    exists a0 b0, processes j = [a0; b0] /\ p_status a0 = Some (Stopped 100 SIGTSTP) /\ p_pid b0 = 101).
  { eexists. split; [vm_compute; reflexivity|]. split; [reflexivity|]. do 2 eexists. split; [reflexivity|]. split; reflexivity. }
  destruct T as (j & T & Tj & a0 & b0 & Tp & Ta & Tb). rewrite T.
  split.
  { exists 1, j. split; [reflexivity|]. split; [intros [F|F]; congruence|].
    split; [exists b0; rewrite Tp; split; [right; left; reflexivity|exact Tb]|].
    intros k' j' Hk E. cbn in E. destruct (Z.eqb_spec k' 1); [lia|discriminate]. }
  split.
  { intros k j' E _. cbn in E. destruct (Z.eqb k 1); [|discriminate]. injection E as <-. exists a0, [b0]. split; [exact Tp|congruence]. }
  split; vm_compute; reflexivity.
Qed.

(** ** C144: a number that no unfinished job has *)

(** If no unfinished job of the table has the number of the new program, its status
    is its own, however many jobs are stopped. *)
Theorem C144_own_partial : forall w d b sc sc' s v q n e m a rest,
  wf_pipeline (Pipeline b [CSimple sc] false) -> program (im s) sc sc' ->
  table (fds (im s)) -> basic (jobs (js (im s))) -> expand_var (cm (im s)) (lit "PS4") = Some v ->
  answering w (trace s) [q] (repeat AIntr n ++ AStatus e :: repeat AIntr m ++ a :: rest) ->
  event_of e (Zpos q) -> a = AFail \/ a = AStatus StillAlive ->
  (forall k j, nget k (job_table (jobs (js (im s)))) = Some j -> unfinished j ->
     ~ has_pid (Zpos q) j /\ exists p ps, processes j = p :: ps /\ p_status p = Some (stop_status j)) ->
  exists s', exec_text w (S d) (r_pipeline (Pipeline b [CSimple sc] false)) s = (OOk (status_after e (exit_status (im s))), s') /\
    exit_status (im s') = status_after e (exit_status (im s)) /\
    (forall k, k <> next_job_id (jobs (js (im s))) ->
       nget k (job_table (jobs (js (im s')))) = nget k (job_table (jobs (js (im s))))).
Proof.
  intros w d b sc sc' s v q n e m a rest Hw HP Ht HB Hv HA He Ha Hok.
  destruct (C42_first_partial w d b [sc] [sc'] s v q [] n e [] [] m a rest ltac:(discriminate) Hw
    (Forall2_cons _ _ HP (Forall2_nil _)) Ht HB Hv HA eq_refl ltac:(repeat constructor; intros []) He (Forall2_nil _) (NoDup_nil _)
    (incl_nil_l _)) as (s' & F1 & F2 & _ & F3 & _).
  - intros k j x Hk [<-|[]]. destruct (unfinished_dec j) as [Hu|Hu]; [|left; exact Hu].
    destruct (Hok k j Hk Hu) as (Hn & p & ps & E1 & E2). right. exists p, ps. auto.
  - exact Ha.
  - exists s'. auto.
Qed.
Example C144_own_example :
  let s := ex_stopped 102 in
  (forall k j, nget k (job_table (jobs (js (im s)))) = Some j -> unfinished j ->
     ~ has_pid 102 j /\ exists p ps, processes j = p :: ps /\ p_status p = Some (stop_status j)) /\
  answering (ex_reusing 102) (trace s) [102%positive] (repeat AIntr 0 ++ AStatus (Exited 102 1) :: repeat AIntr 0 ++ AFail :: []) /\
  List.length (job_table (jobs (js (im s)))) = 1%nat /\ fst (exec_text (ex_reusing 102) 5 (lit " c x") s) = OOk 1.
Proof.
  cbv zeta. split; [|split; [|split; vm_compute; reflexivity]].
  - assert (T : exists j, job_table (jobs (js (im (ex_stopped 102)))) = [(1, j)] /\
      exists a0 b0, processes j = [a0; b0] /\ p_status a0 = Some (stop_status j) /\ p_pid a0 = 100 /\ p_pid b0 = 101).
    { eexists. split; [vm_compute; reflexivity|]. do 2 eexists. split; [reflexivity|]. split; [reflexivity|]. split; reflexivity. }
    destruct T as (j & T & a0 & b0 & Tp & Ta & Pa & Pb). rewrite T. intros k j' E _. cbn in E. destruct (Z.eqb k 1); [|discriminate].
    injection E as <-. split; [|exists a0, [b0]; auto]. intros (x & Hx & Ex). rewrite Tp in Hx. destruct Hx as [<-|[<-|[]]]; congruence.
  - split; [reflexivity| |].
    + intros new Hn. cbn [List.length] in Hn. assert (E : List.length (forks new) = 0%nat) by lia.
      cbn [ex_reusing r_fork]. rewrite forks_app, app_length, E. reflexivity.
    + intros new E. cbn [List.length] in E. unfold ex_reusing. cbn [r_waits]. rewrite forks_app, app_length, E. reflexivity.
Qed.

(** ** C69: a number that is not known any more *)

(** The deletion of one job forgets the numbers of its processes, also those another
    job has.  About a process whose number is not known nothing is said, and the wait
    goes on, whatever PS4 is. *)
Theorem C69_forgotten : forall ps4 id n w p rest s r s' rest',
  event_of w p -> nget p (pid_to_job (jobs s)) = None ->
  wait_one ps4 id (repeat AIntr n ++ AStatus w :: rest) s = WDone r s' rest' ->
  r = RPid p /\ rest' = rest /\ printed s' = printed s.
Proof.
  intros ps4 id n w p rest s r s' rest' Hw Hp. change (repeat AIntr n ++ AStatus w :: rest) with (intr n (AStatus w :: rest)).
  rewrite (wait_one_event ps4 id n w p rest s Hw).
  destruct (visit p w (job_table (jobs s))) as [[t found]|]; [|discriminate]. cbv zeta.
  destruct found as [[k st]|]; [|intros H; injection H as <- <- <-; auto].
  destruct (Z.eqb k id); [|intros H; injection H as <- <- <-; auto].
  assert (E : format_status ps4 w (after_found (Some (k, st)) (put_table t (jobs s))) = Some None).
  { destruct Hw; cbn [format_status]; [reflexivity| |]; unfold get_job_pid;
      replace (pid_to_job (after_found (Some (k, st)) (put_table t (jobs s)))) with (pid_to_job (jobs s)) by (destruct st; reflexivity);
      rewrite Hp; reflexivity. }
  rewrite E. intros H; injection H as <- <- <-; auto.
Qed.
(** Two stopped jobs had the same number; when the second was deleted, the number was
    forgotten, and the end of the first is not reported. *)
Example C69_forgotten_example :
  exists s s' rest, run [OCreate [PropertiesJobs.ex_cat; PropertiesJobs.ex_ls] false; OStart 1 0 100; OStart 1 1 101;
      OWait PropertiesJobs.ps4_default 1 [AStatus (Stopped 100 SIGTSTP); AStatus (Exited 101 0); AFail];
      OCreate [PropertiesJobs.ex_cat] false; OStart 2 0 101; OWait PropertiesJobs.ps4_default 2 [AStatus (Exited 101 0); AFail]; ODelete 2] jst0 = Some s /\
    nget 101 (pid_to_job (jobs s)) = None /\ has_pid 101 (match nget 1 (job_table (jobs s)) with Some j => j | None => job_new [] 0 false end) /\
    wait_one PropertiesJobs.ps4_default 1 (repeat AIntr 1 ++ AStatus (Signaled 101 SIGSEGV true) :: [AFail]) s = WDone (RPid 101) s' rest.
Proof.
  do 3 eexists. split; [vm_compute; reflexivity|]. split; [vm_compute; reflexivity|].
  split; [eexists; split; [right; left; reflexivity|reflexivity]|vm_compute; reflexivity].
Qed.

Print Assumptions C144_lost_refuted.
Print Assumptions C144_reuse_refuted.
Print Assumptions C144_own_partial.
Print Assumptions C69_forgotten.
