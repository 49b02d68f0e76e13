(** Properties C115 and C117: the core language when signals arrive at any moment. *)
From Verif Require Import Base BaseFacts Lexer LexerSpec Ast Parser GrammarSpec.
From Verif Require Import Context.
From Verif Require ContextSpec ContextFacts ContextLaws PropertiesContext.
From Verif Require Import Alias Expand ExpandSpec ExpandFacts ExpandLaws Jobs JobsSpec Shell Builtins Eval Async.
From Verif Require Import EvalSpec EvalFacts EvalLaws EvalKeeps RunSpec RunLaws PipeSpec PipeLaws ChildLaws PipeRun.
From Verif Require Import JobsFacts JobsLaws JobsPipe AsyncLaws AsyncRun AsyncPipe.
From Verif Require Import PropertiesProgram.
From Verif Require PropertiesEval PropertiesStatus PropertiesWait EvalJobs MainSpec Main MainLaws PropertiesMain PropertiesSession PropertiesAsync.
From Verif Require Import EvalFds.
From Verif Require Import PropertiesBuiltins.
From Verif Require Import CoreSpec PropertiesCore.
Local Open Scope Z_scope.

(** The system of C117, when a SIGCHLD may arrive at every moment, any number of
    times, and a SIGINT between commands.  When the reports of the programs that were started are over
    [waitpid] says that there is nothing to report, at least as often as it may be asked; and so it
    does when no program has been started since the shell last waited. *)
Record system_signals (w : os) (sg : point -> list event -> arrivals) (old : nmap job) (code : world) : Prop := {
  ss_pipe : forall t, r_pipe (w t) = true;
  ss_chdir : forall t p, r_chdir (w t) p = reachable code (directories t) p;
  ss_fork : forall t, exists q, r_fork (w t) = Some q /\ ~ In (Zpos q) (fork_pids (recent t)) /\
    forall k j, nget k old = Some j -> at_rest (Zpos q) j;
  ss_wait : forall t q qs, fork_pids (recent t) = q :: qs -> NoDup (q :: qs) ->
    let status k := code (programs_of (before t)) (programs_since t) k in
    exists n es rs m rest,
      r_waits (w t) = answers ((n, Exited q (status 0%nat)) :: es) (repeat AIntr m ++ rest) /\
      Forall2 (fun ne r => exists k, nth_error qs k = Some r /\ snd ne = Exited r (status (S k))) es rs /\ NoDup rs /\
      Forall silent rest /\ (load (sg PWait t) < List.length rest)%nat;
  ss_silent : forall p t, fork_pids (recent t) = [] ->
    Forall silent (r_waits (w t)) /\ (load (sg p t) < List.length (r_waits (w t)))%nat;
  ss_files : forall f text t, contents code f = Some text -> r_open (w t) f for_reading = true /\ r_read (w t) f = Some text;
  ss_starts : starts_undisturbed sg;
  ss_waiting : undisturbed sg PWait }.

Lemma system_of w sg old code : system_signals w sg old code -> system w old code.
Proof.
  intros []. split; auto. intros t q qs E Hd. destruct (ss_wait0 t q qs E Hd) as (n & es & rs & m & rest & H1 & H2 & H3 & H4 & H5).
  destruct rest as [|a rest]; [cbn in H5; lia|]. inversion H4; subst. exists n, es, rs, m, a, rest. auto.
Qed.

(** At most one call of [waitpid] more. *)
Definition waited (s s' : shell) : Prop := trace s' = trace s \/ trace s' = EWait (-1) :: trace s.

Section Signals.
Context (w : os) (sg : point -> list event -> arrivals) (old : nmap job) (code : world).
Context (H : system_signals w sg old code).

Lemma quiet_forks t : forks (recent t) = [] -> fork_pids (recent t) = [].
Proof. unfold fork_pids. intros ->. reflexivity. Qed.
Lemma taken_quiet p (f : option str -> arrivals -> list answer -> jst -> wres arrivals) s : forks (recent (trace s)) = [] ->
  (forall ps4 ks as_ s, Forall silent as_ -> (load ks <= List.length as_)%nat ->
    exists ks' s' r, f ps4 ks as_ s = WDone ks' s' r /\ Forall silent r /\ but_flag s s' /\
      (List.length as_ + load ks' <= List.length r + load ks)%nat) ->
  exists s', taken w sg p f s = (OOk tt, s') /\ alike s s' /\ waited s s'.
Proof.
  intros Ht Hf. unfold taken. destruct (_ && _)%bool; [exists s; split; [reflexivity|]; split; [apply alike_refl|left; reflexivity]|].
  destruct (arriving sg p s) as [|k ks] eqn:E; [exists s; split; [reflexivity|]; split; [apply alike_refl|left; reflexivity]|].
  assert (Hs : sg p (trace s) = k :: ks).
  { unfold arriving in E. destruct (_ && _)%bool; [exact E|discriminate]. }
  destruct (ss_silent _ _ _ _ H p (trace s) (quiet_forks _ Ht)) as [F L]. rewrite Hs in L.
  destruct (Hf (expand_var (cm (im s)) (lit "PS4")) (k :: ks) (r_waits (w (trace s))) (js (im s)) F) as (ks' & j & r & Ed & _ & B & _); [lia|].
  rewrite Ed. eexists. split; [reflexivity|]. split; [split; [reflexivity|exact B]|right; reflexivity].
Qed.
Lemma signals_quiet p s : forks (recent (trace s)) = [] -> exists s', signals w sg p s = (OOk tt, s') /\ alike s s' /\ waited s s'.
Proof. intros Ht. apply taken_quiet; [exact Ht|]. intros. apply deliver_silent; assumption. Qed.
Lemma delete_quiet id s : forks (recent (trace s)) = [] ->
  exists s', sh_delete_async w sg id s = (OOk tt, s') /\
    alike (Shell (with_js (shell_delete_job id (js (im s))) (im s)) (trace s)) s' /\ waited s s'.
Proof.
  intros Ht. unfold sh_delete_async. set (s1 := Shell (with_js (shell_delete_job id (js (im s))) (im s)) (trace s)).
  rewrite (seq_ok (sh_delete_job id) _ s tt s1 eq_refl).
  apply (taken_quiet PDelete (fun _ => deliver_borrowed) s1); [exact Ht|]. intros. apply deliver_borrowed_silent; assumption.
Qed.
Lemma prompt_quiet s : forks (recent (trace s)) = [] -> exists s', child_signal_async w sg s = (OOk tt, s') /\ alike s s' /\ waited s s'.
Proof.
  intros Ht. unfold child_signal_async. destruct (_ || _)%bool; [exists s; split; [reflexivity|]; split; [apply alike_refl|left; reflexivity]|].
  destruct (ss_silent _ _ _ _ H PPrompt (trace s) (quiet_forks _ Ht)) as [F L].
  match goal with |- context [deliver _ ?x _ _] => set (ks := x) end.
  assert (Lk : (load ks <= List.length (r_waits (w (trace s))))%nat).
  { unfold ks. destruct (sg PPrompt (trace s)); cbn [load] in L |- *; lia. }
  destruct (deliver_silent (expand_var (cm (im s)) (lit "PS4")) ks (r_waits (w (trace s))) (js (im s)) F Lk) as (ks' & j & r & Ed & _ & B & _).
  rewrite Ed. eexists. split; [reflexivity|]. split; [split; [reflexivity|exact B]|right; reflexivity].
Qed.

(** The wait for a pipeline, with and without signals. *)
Lemma finish_same id ps v s1 c s0 n q st es rs m rest :
  masked (js (im s1)) = true -> expand_var (cm (im s1)) (lit "PS4") = Some v ->
  basic (jobs (js (im s1))) ->
  nget id (job_table (jobs (js (im s1)))) = Some (Job ps id StillAlive Running false false) ->
  NoDup (map p_pid ps) -> Forall (fun x => p_status x = None) ps ->
  (forall p, In p (map p_pid ps) -> nget p (pid_to_job (jobs (js (im s1)))) = Some id) ->
  (forall k j p, nget k (job_table (jobs (js (im s1)))) = Some j -> k <> id -> In p (map p_pid ps) -> at_rest p j) ->
  hd_error (map p_pid ps) = Some q ->
  r_waits (w (trace s1)) = answers ((n, Exited q st) :: es) (repeat AIntr m ++ rest) ->
  Forall2 (fun ne r => exists c, In r (tl (map p_pid ps)) /\ snd ne = Exited r c) es rs ->
  Forall silent rest -> (load (sg PWait (trace s1)) < List.length rest)%nat ->
  finish w false id s1 = (OOk c, s0) ->
  exists s', finish_async w sg false id s1 = (OOk c, s') /\ likewise s0 s' /\ waited s0 s'.
Proof.
  intros Hm Hv B Hg Hd Hn Hpid Hrest Hhd Hw Hes Hsil Hl Hfin.
  set (mid := answers es (repeat AIntr m)).
  assert (Hmid : Forall (other (map p_pid ps)) mid).
  { unfold mid. clear -Hes. induction Hes as [|[k e] r es rs (c & Hin & E) _ IH].
    - cbn. apply Forall_forall. intros a Ha. apply repeat_spec in Ha. left. exact Ha.
    - cbn [answers fold_right fst snd]. apply Forall_app. split; [apply Forall_forall; intros a Ha; apply repeat_spec in Ha; left; exact Ha|].
      constructor; [|exact IH]. cbn in E. subst e. right. exists (Exited r c), r. split; [reflexivity|]. split; [constructor|]. split; [exact Hin|reflexivity]. }
  assert (Ea : r_waits (w (trace s1)) = repeat AIntr n ++ AStatus (Exited q st) :: mid ++ rest).
  { rewrite Hw. cbn [answers fold_right fst snd]. do 2 f_equal. unfold mid. clear. induction es as [|x es IH]; [reflexivity|].
    cbn [answers fold_right]. rewrite <- app_assoc. cbn [app]. do 2 f_equal. exact IH. }
  assert (Hq : match ps with x :: _ => event_of (Exited q st) (p_pid x) | [] => False end).
  { destruct ps as [|x ps']; [discriminate|]. cbn in Hhd. injection Hhd as ->. constructor. }
  set (e1 := Exited q st) in *.
  destruct (wait_pipe_async v id ps n e1 mid rest [] (js (im s1)) (b_sorted _ B) Hg Hd Hn Hpid Hrest Hq eq_refl Hmid Hsil) as (t & u & W1 & W2 & W3); [constructor| |exact Hm|].
  { cbn. lia. }
  rewrite wait_quiet in W1.
  destruct (wait_pipe_async v id ps n e1 mid rest (arriving sg PWait s1) (js (im s1)) (b_sorted _ B) Hg Hd Hn Hpid Hrest Hq eq_refl Hmid Hsil) as (t' & u' & V1 & V2 & V3); [| |exact Hm|].
  { pose proof (ss_waiting _ _ _ _ H (trace s1)). unfold arriving. destruct (_ && _)%bool; [assumption|constructor]. }
  { unfold arriving. destruct (_ && _)%bool; [assumption|cbn; lia]. }
  assert (X1 : wait_job w id s1 = (OOk e1, Shell (with_js t (im s1)) (EWait id :: trace s1))).
  { unfold wait_job. rewrite Hv, Ea, W1. reflexivity. }
  assert (X2 : wait_job_async w sg id s1 = (OOk e1, Shell (with_js t' (im s1)) (EWait id :: trace s1))).
  { unfold wait_job_async. rewrite Hv, Ea, V1. reflexivity. }
  set (s3 := Shell (with_js t (im s1)) (EWait id :: trace s1)) in *.
  set (s3' := Shell (with_js t' (im s1)) (EWait id :: trace s1)) in *.
  destruct (delete_quiet id s3' eq_refl) as (s4' & D & [A4 (C1 & C2 & C3)] & R4).
  set (s4 := Shell (with_js (shell_delete_job id t) (im s1)) (EWait id :: trace s1)).
  assert (A5 : likewise s4 s4').
  { split; [|split].
    - rewrite A4. cbn [im s4 s3']. destruct (im s1); reflexivity.
    - rewrite C1. cbn. rewrite V2, W2. reflexivity.
    - rewrite C2. reflexivity. }
  unfold finish in Hfin. unfold finish_async.
  assert (E : (st <- wait_job w id ;; sh_delete_job id ;; match st with Exited _ c => set_exit_status c | _ => ret tt end) s1
      = (OOk tt, Shell (with_exit st (im s4)) (trace s4))).
  { rewrite (bind_ok _ _ _ _ _ X1). rewrite (seq_ok (sh_delete_job id) _ s3 tt s4 eq_refl). reflexivity. }
  rewrite (seq_ok _ _ _ _ _ E) in Hfin.
  assert (E' : (st <- wait_job_async w sg id ;; sh_delete_async w sg id ;; match st with Exited _ c => set_exit_status c | _ => ret tt end) s1
      = (OOk tt, Shell (with_exit st (im s4')) (trace s4'))).
  { rewrite (bind_ok _ _ _ _ _ X2). rewrite (seq_ok _ _ _ _ _ D). reflexivity. }
  rewrite (seq_ok _ _ _ _ _ E').
  change ((OOk st, Shell (with_js (with_masked false (js (with_exit st (im s4)))) (with_exit st (im s4))) (trace s4)) = (OOk c, s0)) in Hfin.
  injection Hfin as <- <-.
  exists (Shell (with_js (with_masked false (js (with_exit st (im s4')))) (with_exit st (im s4'))) (trace s4')).
  split; [reflexivity|]. split; [|exact R4].
  destruct A5 as [A5 (G1 & G2)]. split; [|split; [exact G1|reflexivity]].
  assert (G : forall a b x, b = with_js (js b) a -> with_js x (with_exit st b) = with_js x (with_js (with_masked false (js (with_exit st a))) (with_exit st a))).
  { intros a b x F. rewrite F. destruct a; reflexivity. }
  exact (G (im s4) (im s4') _ A5).
Qed.
End Signals.

Lemma pids_positive w old code (Hsys : system w old code) new : forall tr,
  (forall a i c r b, new = a ++ EFork i c r :: b -> r = r_fork (w (b ++ tr))) -> forall x, In x (fork_pids new) -> x <> -1.
Proof.
  induction new as [|e new IH]; intros tr Hh x Hx; [destruct Hx|].
  assert (Hh' : forall a i c r b, new = a ++ EFork i c r :: b -> r = r_fork (w (b ++ tr))).
  { intros a i c r b E. apply (Hh (e :: a) i c r b). rewrite E. reflexivity. }
  unfold fork_pids in *. rewrite PropertiesWait.forks_cons, map_app in Hx. apply in_app_iff in Hx. destruct Hx as [Hx|Hx]; [exact (IH tr Hh' x Hx)|].
  destruct e; try destruct Hx. pose proof (Hh [] _ _ _ new eq_refl) as Er. destruct (sys_fork _ _ _ Hsys (new ++ tr)) as (q & E1 & _).
  rewrite Er, E1 in H. cbn in H. subst x. discriminate. destruct H.
Qed.

Section Steps.
Context (w : os) (sg : point -> list event -> arrivals) (aliases_ : aliases) (functions_ : str -> option function_body) (readonly : str -> bool).
Context (old : nmap job) (t0 : fdtable) (k : nat) (code : world).
Notation agrees := (agrees aliases_ functions_ readonly old t0 k false).
Notation fits := (fits code).
Notation comm_ok := (comm_ok aliases_ functions_ readonly).
Notation prog_ok := (prog_ok aliases_ functions_).
Notation chain_ok := (chain_ok aliases_ functions_ readonly).
Context (Hsg : system_signals w sg old code).

(** A signal that has nothing to tell leaves the state as it is. *)
Lemma agrees_waited m s s' : agrees m s -> likewise s s' -> waited s s' -> agrees m s'.
Proof.
  intros A (E & Ej & _) Ht. destruct A.
  assert (Hf : forks (trace s') = forks (trace s)).
  { destruct Ht as [->| ->]; [reflexivity|]. rewrite PropertiesWait.forks_cons, app_nil_r. reflexivity. }
  assert (Hp : programs_of (trace s') = programs_of (trace s)) by (destruct Ht as [->| ->]; reflexivity).
  assert (Hd : directories (trace s') = directories (trace s)) by (destruct Ht as [->| ->]; reflexivity).
  assert (Hr : forks (recent (trace s')) = []) by (destruct Ht as [->| ->]; [exact ag_quiet|reflexivity]).
  assert (Hc : cm (im s') = cm (im s)) by (rewrite E; reflexivity).
  assert (Ha : al (im s') = al (im s)) by (rewrite E; reflexivity).
  assert (He : env (im s') = env (im s)) by (rewrite E; reflexivity).
  assert (Hk : forked (im s') = forked (im s)) by (rewrite E; reflexivity).
  assert (Hfd : fds (im s') = fds (im s)) by (rewrite E; reflexivity).
  split; rewrite ?Hf, ?Hp, ?Hd, ?Hc, ?Ha, ?He, ?Hk, ?Hfd, ?Ej; auto.
  rewrite E. exact ag_fds.
Qed.
Lemma alike_likewise s s' : alike s s' -> likewise s s'.
Proof. intros [E (H1 & H2 & _)]. split; [exact E|]. split; assumption. Qed.

Lemma signals_agree p m s : agrees m s -> exists s', signals w sg p s = (OOk tt, s') /\ agrees m s'.
Proof.
  intros A. destruct (signals_quiet w sg old code Hsg p s (ag_quiet _ _ _ _ _ _ _ _ _ A)) as (s' & E & A1 & T1).
  exists s'. split; [exact E|]. exact (agrees_waited m s s' A (alike_likewise _ _ A1) T1).
Qed.

(** A builtin, when the signals before it have been taken. *)
Lemma builtin_async rec rec' b sc sc' s s1 st s0 : signals w sg PStart s = (OOk tt, s1) ->
  check_if_builtin (sc_name sc) = true -> expand_command w sc (blocked s1) = (OOk sc', blocked s1) ->
  str_eqb (sc_name sc') (lit "fg") || str_eqb (sc_name sc') (lit "bg") = false ->
  call_builtin w rec' sc' = call_builtin w rec sc' ->
  eval_pipeline w rec (Pipeline b [CSimple sc] false) s1 = (OOk st, s0) ->
  eval_pipeline_async w sg rec' (Pipeline b [CSimple sc] false) s = (signals w sg PEnd ;; ret st) s0.
Proof.
  intros Es Hb Hx Hn Hc H. unfold eval_pipeline_async. rewrite (seq_ok _ _ _ _ _ Es).
  unfold eval_pipeline in H. rewrite (seq_ok interrupts_off _ s1 tt (blocked s1) eq_refl) in H. rewrite (seq_ok interrupts_off _ s1 tt (blocked s1) eq_refl).
  cbn [gather eval_command] in H. cbn [gather_async eval_command_async].
  unfold eval_simple_command in H. unfold eval_simple_command_async. rewrite Hb in H |- *.
  unfold eval_builtin in H. unfold eval_builtin_async. unfold seq, bind in H |- *. rewrite Hx in H.
  rewrite (expand_plain w sg sc sc' _ Hx), Hn, Hc.
  destruct (call_builtin w rec sc' (blocked s1)) as [[] s2]; cbn in H |- *; try discriminate. injection H as <- <-. reflexivity.
Qed.

Lemma step_builtin d c m s st m' : agrees m s -> comm_ok c -> fits m c -> settled k m c -> step code c m = (st, m') ->
  match c with Run _ _ => False | _ => True end ->
  exists s', eval_pipeline_async w sg (evaluate_async w sg d) (comm_pipe c) s = (OOk st, s') /\ agrees m' s'.
Proof.
  intros A Hok Hf Hset E Hc. destruct (signals_agree PStart m s A) as (s1 & E1 & A1).
  destruct (step_agrees w _ _ _ _ _ _ k false (system_of _ _ _ _ Hsg) d c m s1 st m' A1 Hok Hf Hset E) as (s0 & H0 & A0).
  rewrite exec_pipeline in H0 by (eapply comm_tree; exact Hok).
  destruct (signals_agree PEnd m' s0 A0) as (s' & E' & A').
  exists s'. split; [|exact A'].
  assert (Hend : (signals w sg PEnd ;; ret st) s0 = (OOk st, s')) by (rewrite (seq_ok _ _ _ _ _ E'); reflexivity).
  rewrite <- Hend. pose proof A1 as [].
  assert (Hal : forall n, check_if_builtin n = true -> n <> [] -> sget n aliases_ = None -> plain_name (al (im (blocked s1))) n).
  { intros n Hn Hne Hs. destruct (builtin_word n Hn Hne) as [_ B]. apply B. cbn. congruence. }
  destruct c as [x v|x v|x|dir|p more]; [| | | |destruct Hc]; cbn [comm_pipe] in *.
  - destruct Hok as (Hx & Hv & R & Ha). destruct (value_word x v Hx Hv) as (W1 & W2 & _).
    set (a := x ++ lit "=" ++ arg_text v) in *.
    apply (builtin_async (evaluate w d) _ false _ (SimpleCommand (Some (Prefix [] [a])) [] None) s s1 st s0); [exact E1|reflexivity| | | |exact H0].
    + unfold expand_command, expand. change (al (im (blocked s1))) with (al (im s1)). rewrite ag_aliases.
      unfold alias_lookup, lookup_alias. cbn [sc_name]. rewrite Ha.
      unfold expand_vars. cbn [sc_prefix assignment]. rewrite (literal_assignments _ [a]) by (intros y [<-|[]]; exact W2).
      cbn [sc_name sc_suffix]. unfold eval_words. cbn. destruct s1; reflexivity.
    + reflexivity.
    + reflexivity.
  - destruct Hok as (Hx & Hv & R & Ha & Hnp).
    destruct (value_word x v Hx Hv) as (W1 & W2 & W3 & W4 & W5 & W5b & W6 & W7 & W8 & W9).
    set (a := x ++ lit "=" ++ arg_text v) in *.
    eapply builtin_async; [exact E1|reflexivity| | | |exact H0].
    + apply (expand_words w (lit "export") [a] [a]); [apply Hal; [reflexivity|discriminate|exact Ha]|].
      constructor; [exact (o_plain _ _ W7 W8 W9)|constructor].
    + reflexivity.
    + rewrite !call_export. unfold export_cmd. cbn [words_of sc_suffix word_list].
      destruct (contains_str (lit "-p") a); [reflexivity|]. destruct (str_eqb_spec a (lit "context")) as [F|_]; [|reflexivity].
      rewrite F in W6. cbn in W6. intuition discriminate.
  - destruct Hok as (Hx & R & Ha & Hps). destruct (identifier_facts x Hx) as (X1 & X2 & X3 & X4 & X5 & X6 & X7 & X8).
    assert (Hb : forall c, In c (lit "$'""") -> ~ begins c x).
    { intros c0 Hc0 [t Et]. assert (In c0 x) as Hin by (rewrite Et; left; reflexivity). destruct (X3 c0 Hin) as [Q _]. cbn in Hc0, Q.
      destruct Hc0 as [<-|Hc0]; [exact (X7 Hin)|]. apply Q. tauto. }
    eapply builtin_async; [exact E1|reflexivity| | | |exact H0].
    + apply (expand_words w (lit "unset") [x] [x]); [apply Hal; [reflexivity|discriminate|exact Ha]|].
      constructor; [apply o_plain; apply Hb; cbn; tauto|constructor].
    + reflexivity.
    + reflexivity.
  - destruct Hok as [Ha Hs]. destruct Hf as [Hf _]. destruct (arg_ordinary _ _ _ _ _ _ _ m s1 dir A1 Ha Hf) as (Ho & _).
    eapply builtin_async; [exact E1|reflexivity| | | |exact H0].
    + apply (expand_words w (lit "cd") [arg_text dir] [arg_value m dir]); [apply Hal; [reflexivity|discriminate|exact Hs]|].
      constructor; [exact Ho|constructor].
    + reflexivity.
    + reflexivity.
Qed.

Lemma step_programs d p more m s st m' : agrees m s -> comm_ok (Run p more) -> fits m (Run p more) -> step code (Run p more) m = (st, m') ->
  exists s', eval_pipeline_async w sg (evaluate_async w sg d) (comm_pipe (Run p more)) s = (OOk st, s') /\ agrees m' s'.
Proof.
  intros A0 Hok Hf E. pose proof (system_of _ _ _ _ Hsg) as Hsys.
  destruct (signals_agree PStart m s A0) as (sA & E1 & A).
  destruct (step_agrees w _ _ _ _ _ _ k false Hsys d (Run p more) m sA st m' A Hok Hf I E) as (s0 & H0 & A').
  destruct (comm_tree _ _ _ _ Hok) as [Hwf Ht]. cbn [comm_ok] in Hok. destruct Hf as [Hfit _].
  set (ps := p :: more) in *. set (scs := map prog_cmd ps). set (scs' := map (prog_done m) ps).
  assert (HP : forall i, cm i = cm (im sA) -> al i = al (im sA) -> Forall2 (program i) scs scs').
  { intros i Hi1 Hi2. unfold scs, scs'. clearbody ps. clear -A Hok Hfit Hi1 Hi2. induction Hok as [|q l Hq _ IH]; [constructor|].
    destruct (prog_program _ _ _ _ _ _ _ m sA q A Hq) as [G1 G2]; [intros x Hx; exact (Hfit q x (or_introl eq_refl) Hx)|].
    constructor; [apply (program_same (im sA)); [rewrite Hi2; reflexivity|rewrite Hi1; reflexivity|exact G1]|].
    apply IH. intros q' x H1 H2; exact (Hfit q' x (or_intror H1) H2). }
  assert (HPs : Forall2 (program (im s)) scs scs').
  { destruct (signals_quiet w sg old code Hsg PStart s (ag_quiet _ _ _ _ _ _ _ _ _ A0)) as (sB & EB & [AB _] & _). rewrite E1 in EB. injection EB as <-.
    apply HP; rewrite AB; reflexivity. }
  pose proof (HP (im sA) eq_refl eq_refl) as HPA.
  change (comm_pipe (Run p more)) with (Pipeline false (map CSimple scs) false) in *.
  assert (Hne : scs <> []) by discriminate. assert (Hne' : scs' <> []) by discriminate.
  pose proof A as [].
  assert (Hps : exists v, expand_var (cm (im sA)) (lit "PS4") = Some v).
  { unfold expand_var. rewrite ag_vars by exact ps4_identifier. destruct (CoreSpec.vars m (lit "PS4")) as [v|] eqn:V; [|congruence].
    exists v. reflexivity. }
  destruct Hps as [v4 Hps].
  destruct (PropertiesWait.launched_at w scs' sA Hne' (proj1 ag_fds) ag_basic (sys_pipe _ _ _ Hsys))
    as (s1 & jps & new & L & Hm & T1 & Hnw & Hlen & Hch & Hh & C1 & C2 & C3 & C4 & C5 & C6).
  set (id := next_job_id (jobs (js (im sA)))) in *.
  (* without signals *)
  rewrite exec_pipeline in H0 by exact Hwf. rewrite (pipeline_programs w _ false scs scs' false sA Hne HPA) in H0.
  rewrite run_job_split in H0 by (destruct scs'; [congruence|discriminate]).
  change (Shell _ _) with (PropertiesWait.before_launch scs' sA) in H0. change (next_job_id (jobs (js (im (blocked sA))))) with id in H0.
  rewrite (seq_ok _ _ _ _ _ L) in H0.
  (* with signals *)
  rewrite (programs_async w sg _ false scs scs' false s (su_functions _ (ss_starts _ _ _ _ Hsg)) Hne HPs).
  rewrite (seq_ok _ _ _ _ _ E1). unfold bind at 1.
  rewrite (run_job_async_split w sg false (map entry scs') (blocked sA) (ss_starts _ _ _ _ Hsg)) by (first [reflexivity|destruct scs'; [congruence|discriminate]]).
  change (Shell (launching _ _ _ _) _) with (PropertiesWait.before_launch scs' sA). change (next_job_id (jobs (js (im (blocked sA))))) with id.
  rewrite (seq_ok _ _ _ _ _ L).
  (* the processes *)
  destruct (recent_app new (trace sA) Hnw) as [R1 R2]. destruct (fresh_pids w old code Hsys new (trace sA) Hnw ag_quiet Hh) as [Hnd Hrest].
  assert (Q3 : fork_pids (recent (trace s1)) = fork_pids new).
  { unfold fork_pids. rewrite T1, R1, forks_app, ag_quiet. reflexivity. }
  destruct (fork_pids new) as [|q qs] eqn:Eq.
  { unfold fork_pids in Eq. apply map_eq_nil in Eq. rewrite Eq in Hlen. discriminate. }
  destruct (ss_wait _ _ _ _ Hsg (trace s1) q qs Q3 Hnd) as (n & es & rs & mi & rest & W1 & W2 & W3 & W4 & W5). cbv zeta in W1, W2.
  destruct (launch_known w id false (map entry scs') 0 (-1) (-1, -1) _ _ L) as (new' & T1' & _ & Hk & _).
  { apply create_basic. exact ag_basic. }
  { unfold get_job, PropertiesWait.before_launch. cbn [im js launching with_next_pipe with_fds with_js with_jobs jobs]. unfold created.
    rewrite create_get by exact ag_basic. change (next_job_id (jobs (js (im (blocked sA))))) with id. rewrite Z.eqb_refl. discriminate. }
  change (trace (PropertiesWait.before_launch scs' sA)) with (trace sA) in T1'. rewrite T1 in T1'. apply app_inv_tail in T1'. subst new'.
  rewrite Eq in Hk. pose proof (pids_positive w old code Hsys new (trace sA) Hh) as Hpos. rewrite Eq in Hpos.
  destruct (finish_same w sg old code Hsg id jps v4 s1 st s0 n q (code (programs_of (before (trace s1))) (programs_since (trace s1)) 0%nat) es rs mi rest) as (s2 & F & Fl & Fw); try eassumption.
  - rewrite C1. exact Hps.
  - rewrite C4, Z.eqb_refl. reflexivity.
  - rewrite C5. exact Hnd.
  - rewrite C5. intros x Hx. exact (Hk x Hx (Hpos x Hx)).
  - rewrite C5. intros k' j x Hj Hne2 Hx. rewrite C4 in Hj. apply Z.eqb_neq in Hne2. rewrite Hne2 in Hj.
    apply (Hrest x Hx k'). rewrite <- ag_jobs. exact Hj.
  - rewrite C5. reflexivity.
  - rewrite C5. cbn [tl]. clear -W2. induction W2 as [|x r es rs (k & E1 & E2) _ IH]; constructor; [|exact IH].
    eexists. split; [eapply nth_error_In, E1|exact E2].
  - rewrite F. destruct (signals_agree PEnd m' s2 (agrees_waited m' s0 s2 A' Fl Fw)) as (s' & E' & A2).
    exists s'. split; [rewrite (seq_ok _ _ _ _ _ E'); reflexivity|exact A2].
Qed.

Lemma step_async d c m s st m' : agrees m s -> comm_ok c -> fits m c -> settled k m c -> step code c m = (st, m') ->
  exists s', eval_pipeline_async w sg (evaluate_async w sg d) (comm_pipe c) s = (OOk st, s') /\ agrees m' s'.
Proof.
  intros A Hok Hf Hset E. destruct c as [x v|x v|x|dir|p more]; [apply (step_builtin d _ m); auto..|apply (step_programs d p more m); auto].
Qed.

End Steps.

Section Scripts.
Context (w : os) (sg : point -> list event -> arrivals) (aliases_ : aliases) (functions_ : str -> option function_body) (readonly : str -> bool).
Context (old : nmap job) (t0 : fdtable) (code : world).
Notation agrees := (agrees aliases_ functions_ readonly old t0 0 false).
Notation fits := (fits code).
Notation comm_ok := (comm_ok aliases_ functions_ readonly).
Notation prog_ok := (prog_ok aliases_ functions_).
Notation chain_ok := (chain_ok aliases_ functions_ readonly).
Context (Hsg : system_signals w sg old code).

Lemma step_top d c m s st m' : agrees m s -> comm_ok c -> fits m c -> step code c m = (st, m') ->
  exists s', eval_pipeline_async w sg (evaluate_async w sg d) (comm_pipe c) s = (OOk st, s') /\ agrees m' s'.
Proof. intros A Hok Hf E. exact (step_async w sg aliases_ functions_ readonly old t0 0 code Hsg d c m s st m' A Hok Hf (settled_top m c) E). Qed.

Lemma more_async d rest : Forall (fun oc => comm_ok (snd oc)) rest -> forall a s0 st m s st' m', agrees m s -> always_more code fits rest st m ->
  eval_and_or_async w sg (evaluate_async w sg d) a s0 = (OOk st, s) -> run_more code rest st m = (st', m') ->
  exists s', eval_and_or_async w sg (evaluate_async w sg d) (fold_left (fun a cp => AoMore a (fst cp) (snd cp)) (more_pipes rest) a) s0 = (OOk st', s') /\ agrees m' s'.
Proof.
  induction 1 as [|[o c] rest Hc _ IH]; intros a s0 st m s st' m' A Hf Ha E; cbn [run_more always_more more_pipes map fst snd fold_left] in *.
  - injection E as <- <-. exists s. auto.
  - assert (Hn : forall x s1, (if goes_on o st then eval_pipeline_async w sg (evaluate_async w sg d) (comm_pipe c) s else (OOk st, s)) = (OOk x, s1) ->
      eval_and_or_async w sg (evaluate_async w sg d) (AoMore a o (comm_pipe c)) s0 = (OOk x, s1)).
    { intros x s1 Hx. cbn [eval_and_or_async]. rewrite (bind_ok _ _ _ _ _ Ha). destruct o; cbn [goes_on] in Hx; destruct (Z.eqb st 0); exact Hx. }
    destruct (goes_on o st).
    + destruct Hf as [Hf0 Hf]. destruct (step code c m) as [st1 m1] eqn:E1. destruct (step_top d c m s st1 m1 A Hc Hf0 E1) as (s1 & H1 & H2).
      exact (IH _ s0 st1 m1 s1 st' m' H2 Hf (Hn _ _ H1) E).
    + exact (IH _ s0 st m s st' m' A Hf (Hn _ _ eq_refl) E).
Qed.
Lemma chain_async d l m s st m' : chain_ok l -> agrees m s -> always_chain code fits l m -> run_chain code l m = (st, m') ->
  exists s', eval_and_or_async w sg (evaluate_async w sg d) (chain_tree l) s = (OOk st, s') /\ agrees m' s'.
Proof.
  intros [H0 Hr] A [Hf0 Hf] E. unfold run_chain in E. destruct (step code (fst l) m) as [st1 m1] eqn:E1.
  destruct (step_top d (fst l) m s st1 m1 A H0 Hf0 E1) as (s1 & K1 & K2).
  exact (more_async d (snd l) Hr (AoOne (comm_pipe (fst l))) s st1 m1 s1 st m' K2 Hf K1 E).
Qed.
Lemma script_async d sc : Forall chain_ok sc -> forall st0 m s st m', agrees m s -> always code fits sc m -> run_script code sc st0 m = (st, m') ->
  exists s', parse_tree_async w sg (evaluate_async w sg d) st0 (map chain_tree sc) s = (OOk st, s') /\ agrees m' s'.
Proof.
  induction 1 as [|l sc Hl _ IH]; intros st0 m s st m' A Hf E; cbn [run_script always map parse_tree_async] in *.
  - injection E as <- <-. exists s. auto.
  - destruct Hf as [Hf0 Hf]. destruct (run_chain code l m) as [st1 m1] eqn:E1. destruct (chain_async d l m s st1 m1 Hl A Hf0 E1) as (s1 & H1 & H2).
    destruct (IH st1 m1 s1 st m' H2 Hf E) as (s' & H3 & H4). exists s'. split; [|exact H4]. rewrite (bind_ok _ _ _ _ _ H1). exact H3.
Qed.

(** Every script of the core language means the same whenever signals arrive. *)
Theorem C117_signals_partial : forall d sc st0 m s st m', agrees m s -> Forall chain_ok sc -> sc <> [] -> always code fits sc m ->
  run_script code sc st0 m = (st, m') ->
  exists s', exec_text_async w sg (S d) (script_text sc) s = (OOk st, s') /\ agrees m' s'.
Proof.
  intros d sc st0 m s st m' A Hok Hne Hf E.
  destruct (script_async d sc Hok (-1) m s st m' A Hf) as (s' & H1 & H2); [destruct sc; [congruence|exact E]|].
  exists s'. split; [|exact H2]. unfold exec_text_async. rewrite (proj1 (script_parses _ _ _ sc Hok Hne)). exact H1.
Qed.

(** Scripts typed one after the other, with the signals that arrive in between. *)
Inductive typing : list script -> list Main.typed -> Prop :=
| typing_closed ins : typing [] (Main.TClosed :: ins)
| typing_line sc scs ins : typing scs ins -> typing (sc :: scs) (Main.TLine (script_text sc) :: ins)
| typing_child scs ins : typing scs ins -> typing scs (Main.TChild :: ins)
| typing_interrupted scs ins : typing scs ins -> typing scs (Main.TInterrupted :: ins).

Lemma line_agrees d sc st0 m s st m' : Forall chain_ok sc -> agrees m s -> always code fits sc m -> run_script code sc st0 m = (st, m') ->
  exists s', run_line_async w sg (S d) (script_text sc) s = (OOk tt, s') /\ agrees m' s'.
Proof.
  intros Hok A Hf E. destruct sc as [|l sc].
  - injection E as <- <-. exists s. split; [reflexivity|exact A].
  - destruct (C117_signals_partial d (l :: sc) st0 m s st m' A Hok ltac:(discriminate) Hf E) as (s' & H1 & H2). exists s'. split; [|exact H2].
    unfold exec_text_async in H1. unfold run_line_async.
    destruct (script_parses _ _ _ (l :: sc) Hok ltac:(discriminate)) as [P _]. rewrite P in H1 |- *.
    destruct (script_text (l :: sc)) as [|ch0 t0']; [discriminate P|].
    unfold catch, seq, bind. rewrite H1. reflexivity.
Qed.
Lemma typed_agrees d scs ins : typing scs ins -> Forall (Forall chain_ok) scs -> Forall (leaves (lit "PS1")) scs -> forall st0 m s st m',
  agrees m s -> CoreSpec.vars m (lit "PS1") <> None -> always code fits (List.concat scs) m ->
  run_script code (List.concat scs) st0 m = (st, m') ->
  exists s', interactive_loop_async w sg (S d) ins s = (OOk tt, s') /\ agrees m' s'.
Proof.
  induction 1 as [ins|sc scs ins _ IH|scs ins _ IH|scs ins _ IH]; intros Hok Hl st0 m s st m' A Hps Hf E;
    (assert (P : exists v, expand_var (cm (im s)) (lit "PS1") = Some v) by
       (unfold expand_var; rewrite (ag_vars _ _ _ _ _ _ _ _ _ A (lit "PS1") ps1_identifier); destruct (CoreSpec.vars m (lit "PS1")); [eexists; reflexivity|congruence]));
    destruct P as [v P]; cbn [interactive_loop_async];
    rewrite (bind_ok (look cm) _ s (cm (im s)) s eq_refl), P, (seq_ok (unwrap (Some v)) _ s v s eq_refl).
  - injection E as <- <-. exists (RunSpec.saved s). split; [reflexivity|]. destruct A. split; assumption.
  - inversion Hl as [|? ? Hl1 Hl2]; subst. inversion Hok as [|? ? Ho1 Ho2]; subst. cbn [List.concat] in *.
    rewrite run_script_app in E. destruct (always_app _ _ _ _ st0 _ Hf) as [Hf1 Hf2].
    pose proof (script_leaves code _ sc Hl1 st0 m Hps) as Hps1.
    destruct (run_script code sc st0 m) as [st1 m1] eqn:E1. cbn [snd] in Hf2, Hps1.
    destruct (line_agrees d sc st0 m s st1 m1 Ho1 A Hf1 E1) as (s1 & K1 & K2). rewrite (seq_ok _ _ _ _ _ K1).
    exact (IH Ho2 Hl2 st1 m1 s1 st m' K2 Hps1 Hf2 E).
  - destruct (prompt_quiet w sg old code Hsg s (ag_quiet _ _ _ _ _ _ _ _ _ A)) as (s1 & K1 & K2 & K3). rewrite (seq_ok _ _ _ _ _ K1).
    exact (IH Hok Hl st0 m s1 st m' (agrees_waited aliases_ functions_ readonly old t0 0 m s s1 A (alike_likewise _ _ K2) K3) Hps Hf E).
  - exact (IH Hok Hl st0 m s st m' A Hps Hf E).
Qed.
End Scripts.

Lemma main_async_begins w sg n k args ins s t f c' :
  Main.parse_args args (cm (im s)) = Some (t, f) -> Main.f_cm f = MainLaws.one_scope c' ->
  ContextSpec.unsettable (MainSpec.numbered 0 (Main.script_name f)) = false -> MainSpec.no_startup_files w ->
  exists s1, main_async w sg n k args ins s =
      match t with
      | Some t => Main.read_from_args w n t
      | None => if Main.interactive f then change Main.at_prompt ;; interactive_loop_async w sg n ins else Main.script_loop w n k (Main.script_name f)
      end s1 /\ trace s1 = trace s /\
    im s1 = with_cm (MainLaws.two_scopes c' (ctx_put_var (lit "0") (Var (MainSpec.kept (Main.script_name f)) false) empty_context)) (with_js (js (im s1)) (im s)) /\
    jobs (js (im s1)) = jobs (js (im s)) /\ masked (js (im s1)) = masked (js (im s)).
Proof.
  intros Hp Hf Hu Hn. unfold main_async.
  rewrite (bind_ok (look cm) _ s (cm (im s)) s eq_refl). rewrite Hp.
  rewrite (bind_ok (unwrap (Some (t, f))) _ s (t, f) s eq_refl). cbn [fst snd]. cbv zeta.
  set (s0 := Shell (with_cm (Main.f_cm f) (im s)) (trace s)).
  rewrite (seq_ok (on_cm (fun _ => Main.f_cm f)) _ s tt s0 eq_refl).
  destruct (MainLaws.say_all_ok (Main.shown f) s0) as (s2 & E2 & Ht2 & Hi2 & Hj2 & Hm2). rewrite (seq_ok _ _ s0 tt s2 E2).
  assert (Hcm : cm (im s2) = MainLaws.one_scope c') by (rewrite Hi2; exact Hf).
  set (s3 := Shell (with_cm (push_context_new (cm (im s2))) (im s2)) (trace s2)).
  set (s4 := Shell (with_cm (MainLaws.two_scopes c' (ctx_put_var (lit "0") (Var (MainSpec.kept (Main.script_name f)) false) empty_context)) (im s2)) (trace s2)).
  assert (Hs : Main.set_up w n (Main.script_name f) s2 = (OOk tt, s4)).
  { unfold Main.set_up. rewrite (seq_ok (on_cm push_context_new) _ s2 tt s3 eq_refl).
    assert (E3 : try_cm (add_var_pos (lit "0=" ++ Main.script_name f) 1) s3 = (OOk tt, s4)).
    { unfold try_cm, try_. cbn [s3 im cm with_cm]. rewrite Hcm, MainLaws.arg0, Hu. reflexivity. }
    rewrite (seq_ok _ _ s3 tt s4 E3). rewrite (seq_ok _ _ s4 tt s4 (MainLaws.startup_none w n _ s4 (proj1 (Hn _)))).
    apply MainLaws.startup_none. apply Hn. }
  rewrite (seq_ok _ _ s2 tt s4 Hs). exists s4. split; [destruct t; reflexivity|]. split; [exact Ht2|].
  split; [|split; [exact Hj2|exact Hm2]]. cbn [s4 im]. rewrite Hi2. reflexivity.
Qed.

(** A whole session, whenever signals arrive: in the commands, between them and at
    the prompt.  The programs that are started are those the meaning of what was typed says, in that
    order, with these arguments, this environment and these files. *)
Theorem C117_signals_typed_partial : forall w sg code n k args ins root cwd ppid pid env fds scs st m',
  MainSpec.asks args MainSpec.Prompt -> MainSpec.no_startup_files w -> system_signals w sg [] code ->
  NoDup (map fst env) -> table fds -> no_future_pipe fds 0 -> nget 0 fds <> None -> nget 1 fds <> None ->
  Forall (Forall (chain_ok [] (fun _ => None) (fun _ => false))) scs -> Forall (leaves (lit "PS1")) scs -> typing scs ins ->
  always code (fits code) (List.concat scs) (at_start root cwd ppid pid env) ->
  run_script code (List.concat scs) 0 (at_start root cwd ppid pid env) = (st, m') ->
  exists s', main_async w sg (S n) k args ins (Shell (Main.fresh_image root cwd ppid pid env fds) []) = (OOk tt, s') /\
    programs_of (trace s') = started m' /\ directories (trace s') = visited m' /\ Forall (executes fds) (forks (trace s')) /\ linked (forks (trace s')) /\
    Shell.env (im s') = environment m' /\ forall x, identifier x -> expand_var (cm (im s')) x = CoreSpec.vars m' x.
Proof.
  intros w sg code n k args ins root cwd ppid pid env fds scs st m' Ha Hns Hsg Hnd Ht Hf H0 H1 Hok Hl Hty Hfit E.
  set (s := Shell (Main.fresh_image root cwd ppid pid env fds) []).
  set (c := Context (default_vars root cwd ppid pid env) [] []).
  assert (Hc : cm (im s) = MainLaws.one_scope c) by reflexivity.
  pose proof (MainLaws.parse_args_asks args _ (cm (im s)) Ha) as Hp. cbn [MainLaws.wanted_front] in Hp.
  destruct (main_async_begins w sg (S n) k args ins s _ _ c Hp Hc eq_refl Hns) as (s1 & Em & Htr & Hi & Hj & Hm).
  set (s2 := Shell (Main.at_prompt (im s1)) (trace s1)).
  assert (A : agrees [] (fun _ => None) (fun _ => false) [] fds 0 false (at_start root cwd ppid pid env) s2).
  { assert (A1 : agrees [] (fun _ => None) (fun _ => false) [] fds 0 false (at_start root cwd ppid pid env) s1) by (eapply agrees_start; eauto).
    destruct A1. split; assumption. }
  assert (Hps : CoreSpec.vars (at_start root cwd ppid pid env) (lit "PS1") <> None).
  { cbn [at_start CoreSpec.vars]. destruct (sget (lit "PS1") env); discriminate. }
  destruct (typed_agrees w sg [] _ _ [] fds code Hsg n scs ins Hty Hok Hl 0 _ s2 st m' A Hps Hfit E) as (s' & Hs & A').
  exists s'. split; [|split; [exact (ag_started _ _ _ _ _ _ _ _ _ A')|split; [exact (ag_visited _ _ _ _ _ _ _ _ _ A')|split; [exact (ag_executes _ _ _ _ _ _ _ _ _ A')|split; [exact (ag_linked _ _ _ _ _ _ _ _ _ A')|split; [exact (ag_env _ _ _ _ _ _ _ _ _ A')|]]]]]].
  - rewrite Em. cbn [Main.interactive]. rewrite (seq_ok (change Main.at_prompt) _ s1 tt s2 eq_refl). exact Hs.
  - intros x Hx. unfold expand_var. rewrite (ag_vars _ _ _ _ _ _ _ _ _ A' x Hx). destruct (CoreSpec.vars m' x); reflexivity.
Qed.

(** ** An example *)

(** Signals arrive at every moment. *)
Definition ex_signals_os : os := fun t =>
  let r := ex_system t in
  Reports (r_isfile r) (r_open r) (r_read r) (r_chdir r) (r_cwd r) (r_kill r) (r_pipe r) (r_fork r) (r_exec r) (r_getpid r)
    (answers (ex_answers (ex_code (programs_of (before t)) (programs_since t)) 0 (fork_pids (recent t)))
       [AFail; AStatus StillAlive; AFail; AFail; AFail; AFail; AFail; AFail; AFail; AFail]) (r_subst r).
Lemma ex_signals_ok : system_signals ex_signals_os PropertiesAsync.often [] ex_code.
Proof.
  pose proof ex_system_ok as S. destruct S. split; try assumption.
  - intros t q qs E Hd. cbv zeta. eexists 0%nat, _, qs, 0%nat, _. split; [|split; [|split; [inversion Hd; assumption|split]]].
    + unfold ex_signals_os. cbn [r_waits]. rewrite E. reflexivity.
    + apply ex_answers_ok. reflexivity.
    + repeat (constructor; [first [left; reflexivity|right; reflexivity]|]). constructor.
    + cbn. lia.
  - intros p t E. unfold ex_signals_os. cbn [r_waits]. rewrite E. cbn [ex_answers answers List.app].
    split; [repeat (constructor; [first [left; reflexivity|right; reflexivity]|]); constructor|destruct p; cbn; lia].
  - apply PropertiesAsync.anytime_starts. repeat constructor.
  - apply PropertiesAsync.anytime_starts. repeat constructor.
Qed.
Definition ex_typing : list Main.typed :=
  Main.TChild :: Main.TLine (script_text (nth 0 ex_lines [])) :: Main.TInterrupted :: Main.TChild ::
  Main.TLine (script_text (nth 1 ex_lines [])) :: Main.TLine (script_text (nth 2 ex_lines [])) :: Main.TChild :: [Main.TClosed].
Example C117_signals_example :
  List.concat ex_lines = ex_script /\ Forall (Forall (chain_ok [] (fun _ => None) (fun _ => false))) ex_lines /\
  Forall (leaves (lit "PS1")) ex_lines /\ typing ex_lines ex_typing /\
  MainSpec.no_startup_files ex_signals_os /\ system_signals ex_signals_os PropertiesAsync.often [] ex_code /\
  PropertiesAsync.often PWait [] = [Pause; Sig 0; Pause; Sig 1; Sig 0]%nat /\ PropertiesAsync.often PStart [] = [Int [0; 1]; Sig 0]%nat /\
  let m := snd (run_script ex_code ex_script 0 (at_start false (lit "/") (lit "1") (lit "2") [(lit "HOME", lit "/h")])) in
  let r := main_async ex_signals_os PropertiesAsync.often 5 0 [lit "rsh"] ex_typing (Shell PropertiesMain.ex_fresh []) in
  fst r = OOk tt /\ List.length (started m) = 6%nat /\ programs_of (trace (snd r)) = started m.
Proof.
  destruct C117_lines_example as (E1 & E2 & E3 & _). split; [exact E1|]. split; [eapply Forall_impl; [|exact E2]; intros sc [_ H]; exact H|].
  split; [exact E3|]. split; [repeat constructor|]. split; [intros t; split; reflexivity|]. split; [exact ex_signals_ok|].
  split; [reflexivity|]. split; [reflexivity|]. vm_compute. repeat split.
Qed.

Print Assumptions C117_signals_partial.
Print Assumptions C117_signals_typed_partial.
