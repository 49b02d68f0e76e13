(** Programs and signals: what a pipeline of programs does, whenever signals
    arrive. *)
From Verif Require Import Base BaseFacts Lexer Ast Parser GrammarSpec Context Alias Expand ExpandSpec Jobs JobsSpec JobsFacts JobsLaws.
From Verif Require Import Shell Builtins Eval Main Async EvalSpec EvalFacts EvalLaws EvalKeeps RunSpec RunLaws PipeSpec PipeLaws PipeRun AsyncLaws.
From Verif Require JobsWait PropertiesJobs GrammarFacts.
Local Open Scope Z_scope.

(** A text given to the shell while signals arrive; as [exec_text]. *)
Definition exec_text_async (w : os) (sg : point -> list event -> arrivals) (n : nat) (t : str) : M Z :=
  match parse t with
  | Some c => eval_async w sg n c
  | None => stop (OErr EParse)
  end.

(** ** Blocked signals *)

Lemma taken_masked w sg p f s : undisturbed sg p -> masked (js (im s)) = true -> taken w sg p f s = (OOk tt, s).
Proof.
  intros Hu H. unfold taken. rewrite H.
  assert (E : interrupting (arriving sg p s) = false).
  { unfold arriving. destruct (_ && _)%bool; [|reflexivity]. induction (Hu (trace s)) as [|k ks Hk _ IH]; [reflexivity|].
    cbn [interrupting existsb]. destruct k as [?|[|? ?]|]; [exact IH|destruct Hk|destruct Hk|exact IH]. }
  rewrite E. reflexivity.
Qed.
Lemma signals_masked w sg p s : undisturbed sg p -> masked (js (im s)) = true -> signals w sg p s = (OOk tt, s).
Proof. apply taken_masked. Qed.
Lemma signals_job_masked w sg p id s : undisturbed sg p -> masked (js (im s)) = true -> signals_job w sg p id s = (OOk tt, s).
Proof. apply taken_masked. Qed.
(** No SIGINT arrives while the processes of a job are started. *)
Record starts_undisturbed (sg : point -> list event -> arrivals) : Prop := {
  su_functions : undisturbed sg PFunctions;
  su_forked : undisturbed sg PForked;
  su_entered : undisturbed sg PEntered
}.

(** The mask is the same. *)
Definition same_mask (s s' : shell) : Prop := masked (js (im s')) = masked (js (im s)).
Lemma same_mask_pre : preorder same_mask.
Proof. constructor; unfold same_mask; congruence. Qed.
Lemma mask_pipe w : keeps true same_mask (make_pipe w).
Proof. unfold make_pipe. repeat keep_step same_mask_pre. apply keeps_raw. intros s. reflexivity. Qed.
Lemma mask_close a : keeps true same_mask (sys_close a).
Proof.
  apply (keeps_try _ _ same_mask_pre). intros s i E. destruct (fd_close a (fds (im s))); [|discriminate].
  injection E as <-. reflexivity.
Qed.
Lemma mask_close_ignored a : keeps true same_mask (sys_close_ignored a).
Proof. apply keeps_change. intros s. unfold same_mask. cbn [im]. destruct (fd_close a (fds (im s))); reflexivity. Qed.

Lemma bind_same {A B} (m : M A) (k1 k2 : A -> M B) s :
  (forall a s', m s = (OOk a, s') -> k1 a s' = k2 a s') -> bind m k1 s = bind m k2 s.
Proof. intros H. unfold bind. destruct (m s) as [[] s1]; try reflexivity. apply H. reflexivity. Qed.
Lemma seq_same {A B} (m : M A) (k1 k2 : M B) s :
  (forall a s', m s = (OOk a, s') -> k1 s' = k2 s') -> seq m k1 s = seq m k2 s.
Proof. intros H. apply bind_same. exact H. Qed.

(** While signals are blocked the processes of a job are started as if there
    were none. *)
Lemma launch_masked w sg id bg cs : starts_undisturbed sg -> forall i prev pip s, masked (js (im s)) = true ->
  launch_async w sg id bg i cs prev pip s = launch w id bg i cs prev pip s.
Proof.
  intros U. induction cs as [|[p sc] cs IH]; intros i prev pip s Hm; cbn [launch launch_async]; [reflexivity|].
  apply bind_same. intros pip' s1 H1.
  assert (M1 : masked (js (im s1)) = true).
  { destruct cs; [injection H1 as _ <-; exact Hm|]. apply (fun H => mask_pipe _ _ _ _ H (or_introl eq_refl)) in H1. unfold same_mask in H1. congruence. }
  apply bind_same. intros r s2 H2.
  assert (M2 : masked (js (im s2)) = true).
  { unfold fork_child, ask, bind, seq, look, note, ret in H2. unfold bind in H2. injection H2 as _ <-. exact M1. }
  rewrite (seq_ok _ _ _ _ _ (signals_job_masked w sg PForked id s2 (su_forked _ U) M2)). apply seq_same. intros [] s3 H3.
  assert (M3 : masked (js (im s3)) = true).
  { destruct r; injection H3 as <-; exact M2. }
  rewrite (seq_ok _ _ _ _ _ (signals_job_masked w sg PEntered id s3 (su_entered _ U) M3)). apply seq_same. intros [] s4 H4.
  assert (M4 : masked (js (im s4)) = true).
  { destruct (Z.leb 0 prev); [|injection H4 as <-; exact M3]. apply (fun H => mask_close _ _ _ _ H (or_introl eq_refl)) in H4. unfold same_mask in H4. congruence. }
  apply seq_same. intros [] s5 H5. apply IH. apply (fun H => mask_close_ignored _ _ _ _ H (or_introl eq_refl)) in H5. unfold same_mask in H5. congruence.
Qed.
Lemma launch_mask w id bg cs : forall i prev pip, keeps true same_mask (launch w id bg i cs prev pip).
Proof.
  induction cs as [|[p sc] cs IH]; intros i prev pip; cbn [launch]; [apply (keeps_ret _ _ same_mask_pre)|].
  unfold fork_child. repeat keep_step same_mask_pre; try apply IH; try apply mask_pipe; try apply mask_close; try apply mask_close_ignored.
  - apply keeps_note. intros s. reflexivity.
  - apply keeps_change. intros s. reflexivity.
Qed.

(** ** A pipeline of programs *)

Lemma exec_pipeline_async w sg d p s : wf_pipeline p ->
  exec_text_async w sg (S d) (r_pipeline p) s = eval_pipeline_async w sg (evaluate_async w sg d) p s.
Proof.
  intros H. unfold exec_text_async. change (r_pipeline p) with (render [AoOne p]).
  rewrite (GrammarFacts.render_parse [AoOne p]) by (try discriminate; repeat constructor; exact H).
  cbn. unfold bind, ret. destruct (eval_pipeline_async w sg (evaluate_async w sg d) p s) as [[]]; reflexivity.
Qed.
Lemma blocked_program s scs scs' : Forall2 (program (im s)) scs scs' -> Forall2 (program (im (blocked s))) scs scs'.
Proof.
  intros H. induction H as [|x x' l l' Hx HF IH]; constructor; [apply (program_same (im s)); [reflexivity..|exact Hx]|exact IH].
Qed.
Lemma expand_plain w sg sc sc' s : expand_command w sc s = (OOk sc', s) -> expand_async w sg sc s = (OOk sc', s).
Proof.
  intros H. pose proof H as E. unfold expand_async. unfold expand_command in E. destruct (expand _ _ _ _ _) as [[sc1 [|x l]]|]; try exact H.
  injection E as _ E. apply (f_equal (fun s => List.length (trace s))) in E. cbn in E. lia.
Qed.
Lemma gather_async_programs w sg rec s scs scs' : Forall2 (program (im s)) scs scs' ->
  gather_async w sg rec (map CSimple scs) s = (OOk (map entry scs'), s).
Proof.
  induction 1 as [|sc sc' scs scs' H HF IH]; [reflexivity|]. cbn [map gather_async eval_command_async]. unfold eval_simple_command_async.
  destruct (program_kind _ _ _ H) as (H1 & H2 & H3). rewrite H1. unfold bind.
  rewrite (expand_plain w sg sc sc' s (expand_program w sc sc' s H)), (program_argv _ _ _ H). cbn [unwrap ret]. unfold ret at 1. rewrite IH. reflexivity.
Qed.
Lemma programs_async w sg rec b scs scs' bg s : undisturbed sg PFunctions -> scs <> [] -> Forall2 (program (im s)) scs scs' ->
  eval_pipeline_async w sg rec (Pipeline b (map CSimple scs) bg) s =
  (signals w sg PStart ;; fun s1 => (st <- run_job_async w sg bg (map entry scs') ;; signals w sg PEnd ;; ret st) (blocked s1)) s.
Proof.
  intros U Hne H. unfold eval_pipeline_async. apply seq_same. intros [] s1 H1.
  apply signals_jobs in H1. destruct H1 as [E _].
  assert (Hp : Forall2 (program (im s1)) scs scs').
  { clear Hne. induction H as [|x x' l l' Hx HF IH]; constructor; [apply (program_same (im s)); [rewrite E; reflexivity..|exact Hx]|exact IH]. }
  rewrite (seq_ok interrupts_off _ s1 tt (blocked s1) eq_refl).
  rewrite (bind_ok _ _ _ _ _ (gather_async_programs w sg rec (blocked s1) scs scs' (blocked_program _ _ _ Hp))).
  pose proof (blocked_program _ _ _ Hp) as Hb.
  destruct Hp as [|sc sc' scs scs' P1 Hp]; [congruence|].
  assert (Er : (if bg then ret (map entry (sc' :: scs')) else run_functions rec (map entry (sc' :: scs'))) (blocked s1)
    = (OOk (map entry (sc' :: scs')), blocked s1)).
  { destruct bg; [reflexivity|]. apply no_functions. clear -Hb.
    induction Hb as [|x x' l l' Hx HF IH]; constructor; [exact (proj2 (proj2 (program_kind _ _ _ Hx)))|exact IH]. }
  assert (Ej : forall s0, (pcs <- (if bg then ret (map entry (sc' :: scs')) else run_functions rec (map entry (sc' :: scs'))) ;;
     signals w sg PFunctions ;; run_job_async w sg bg pcs) (blocked s1) = s0 -> run_job_async w sg bg (map entry (sc' :: scs')) (blocked s1) = s0).
  { intros s0. rewrite (bind_ok _ _ _ _ _ Er). rewrite (seq_ok _ _ _ _ _ (signals_masked w sg PFunctions (blocked s1) U eq_refl)). auto. }
  unfold bind at 1. cbn [map] in *. rewrite <- (Ej _ eq_refl). reflexivity.
Qed.

(** The rest of a job after its processes have been started. *)
Definition finish_async (w : os) (sg : point -> list event -> arrivals) (bg : bool) (id : Z) : M Z :=
  (if bg then
     j <- look (fun i => get_job id (jobs (js i))) ;;
     j <- unwrap j ;;
     say (lit "[" ++ Z_to_str (job_id j) ++ lit "] ("
          ++ Z_to_str match processes j with p :: _ => p_pid p | [] => -1 end
          ++ lit ") " ++ job_text j)
   else
     st <- wait_job_async w sg id ;;
     sh_delete_async w sg id ;;
     match st with
     | Exited _ c => set_exit_status c
     | _ => ret tt
     end) ;;
  interrupts_on ;;
  get_exit_code.
Lemma run_job_async_split w sg bg cs s : starts_undisturbed sg -> cs <> [] -> masked (js (im s)) = true ->
  run_job_async w sg bg cs s =
  (launch w (next_job_id (jobs (js (im s)))) bg 0 cs (-1) (-1, -1) ;; finish_async w sg bg (next_job_id (jobs (js (im s)))))
    (Shell (launching (im s) (created bg (map fst cs) s) (fds (im s)) (next_pipe (im s))) (trace s)).
Proof.
  intros U Hne Hm. unfold run_job_async.
  rewrite (bind_ok (look (fun i => next_job_id (jobs (js i)))) _ s _ s eq_refl).
  set (id := next_job_id (jobs (js (im s)))).
  set (s1 := Shell (launching (im s) (created bg (map fst cs) s) (fds (im s)) (next_pipe (im s))) (trace s)).
  rewrite (seq_ok (on_jobs (create_job (map fst cs) bg)) _ s tt s1).
  - unfold seq at 1, bind at 1. rewrite launch_masked by assumption. destruct cs as [|c cs]; [congruence|]. reflexivity.
  - unfold s1. destruct s as [i tr], i. reflexivity.
Qed.

(** Nothing is started afterwards. *)
Lemma trace_taken w sg p f s o s' : taken w sg p f s = (o, s') -> exists new, trace s' = new ++ trace s /\ forks new = [].
Proof.
  unfold taken. destruct (_ && _)%bool; [intros H; injection H as _ <-; exists []; split; reflexivity|].
  destruct (arriving sg p s); [intros H; injection H as _ <-; exists []; split; reflexivity|].
  destruct (f _ _ _ _); intros H; injection H as _ <-; [exists [EWait (-1)]|exists []|exists []]; split; reflexivity.
Qed.
Definition quietly (s s' : shell) : Prop := finishing (im s) (im s') /\ exists new, trace s' = new ++ trace s /\ forks new = [].
Lemma quietly_pre : preorder quietly.
Proof.
  constructor.
  - intros s. split; [repeat split|]. exists []. split; reflexivity.
  - intros a b c [(A1 & A2 & A3 & A4 & A5 & A6 & A7 & A8) (n1 & E1 & F1)] [(B1 & B2 & B3 & B4 & B5 & B6 & B7 & B8) (n2 & E2 & F2)].
    split; [repeat split; congruence|]. exists (n2 ++ n1). rewrite E2, E1, app_assoc, forks_app, F1, F2. split; reflexivity.
Qed.
Lemma quietly_taken w sg p f :
  (forall ps4 ks as_ j ks' j' r, f ps4 ks as_ j = WDone ks' j' r -> went j j') -> keeps true quietly (taken w sg p f).
Proof.
  intros Hf s o s' H _. split; [|eapply trace_taken; exact H].
  apply taken_jobs in H; [|exact Hf]. destruct H as [E _]. rewrite E. repeat split.
Qed.
Lemma quietly_finish w sg bg id : keeps true quietly (finish_async w sg bg id).
Proof.
  unfold finish_async, sh_delete_async, sh_delete_job, interrupts_on, say, set_exit_status, get_exit_code.
  repeat keep_step quietly_pre; try (apply keeps_change; intros s; split; [repeat split|exists []; split; reflexivity]).
  - intros s o s' H _. split.
    + apply wait_async_jobs in H. destruct H as [E _]. rewrite E. repeat split.
    + unfold wait_job_async in H. destruct (wait_for_job_async _ _ _ _ _); injection H as _ <-;
        [exists [EWait id]|exists []|exists []]; split; reflexivity.
  - apply quietly_taken. intros. eapply deliver_borrowed_went; eassumption.
Qed.
Lemma quietly_signals w sg p : keeps true quietly (signals w sg p).
Proof. apply quietly_taken. intros. eapply deliver_went; eassumption. Qed.

Lemma job_programs_async w sg bg scs' s o s' : starts_undisturbed sg -> scs' <> [] -> table (fds (im s)) -> masked (js (im s)) = true ->
  run_job_async w sg bg (map entry scs') s = (o, s') ->
  exists new, trace s' = new ++ trace s /\
    (forall k f, nth_error (forks new) k = Some f -> started_child s bg scs' k f) /\
    finishing (with_fds (fds (im s')) (with_next_pipe (next_pipe (im s')) (im s))) (im s') /\
    ((List.length (forks new) = List.length scs' /\ forall fd, nget fd (fds (im s')) = nget fd (fds (im s))) \/
     (o = OErr (EText (lit "Failed to create pipe")) /\ (S (List.length (forks new)) < List.length scs')%nat /\
      exists prev, between (fds (im s)) (next_pipe (im s)) (List.length (forks new)) prev (fds (im s')))).
Proof.
  intros U Hne Ht Hm H.
  assert (Hne' : map entry scs' <> []) by (destruct scs'; [congruence|discriminate]).
  rewrite run_job_async_split in H by assumption.
  apply seq_inv in H. destruct H as [([] & s1 & H1 & H2)|(o1 & H1 & Hf & ->)].
  - (* as without signals, up to here *)
    destruct (finish w bg (next_job_id (jobs (js (im s)))) s1) as [o2 s2] eqn:E2.
    assert (Hs : run_job w bg (map entry scs') s = (o2, s2)).
    { rewrite run_job_split by assumption. rewrite (seq_ok _ _ _ _ _ H1). exact E2. }
    destruct (job_programs w bg scs' s o2 s2 Hne Ht Hs) as (new & T1 & C1 & F1 & D1).
    apply finish_keeps in E2. destruct E2 as (F2 & new2 & T2 & K2).
    apply (fun H => quietly_finish _ _ _ _ _ _ _ H (or_introl eq_refl)) in H2. destruct H2 as (F3 & new3 & T3 & K3).
    assert (Hn : exists new1, trace s1 = new1 ++ trace s /\ forks new1 = forks new).
    { rewrite T2 in T1. clear -T1 K2 H1.
      assert (L : later (trace s) (trace s1)).
      { pose proof (loc_launch w w (next_job_id (jobs (js (im s)))) bg (map entry scs') 0 (-1) (-1, -1)
          (Shell (launching (im s) (created bg (map fst (map entry scs')) s) (fds (im s)) (next_pipe (im s))) (trace s))) as [L _].
        rewrite H1 in L. exact L. }
      destruct L as [n1 L]. exists n1. split; [exact L|]. rewrite L in T1. rewrite app_assoc in T1. apply app_inv_tail in T1.
      rewrite <- T1, forks_app, K2, app_nil_r. reflexivity. }
    destruct Hn as (new1 & T4 & K4). exists (new3 ++ new1).
    split; [rewrite T3, T4, app_assoc; reflexivity|]. rewrite forks_app, K3, app_nil_r, K4.
    split; [exact C1|].
    destruct F1 as (a1 & a2 & a3 & a4 & a5 & a6 & a7 & a8), F2 as (b1 & b2 & b3 & b4 & b5 & b6 & b7 & b8), F3 as (c1 & c2 & c3 & c4 & c5 & c6 & c7 & c8).
    cbn in a1, a2, a3, a4, a6, a7, a8.
    split; [repeat split; cbn; congruence|].
    destruct D1 as [(D1 & D2)|(D1 & D2 & prev & D3)].
    + left. split; [exact D1|]. intros fd. rewrite c5, <- b5. apply D2.
    + exfalso. rewrite <- K4 in D2. clear -D2 H1 T4 Hne' Ht D1 Hs Hm C1 K4.
      (* a job whose processes were all started *)
      rewrite run_job_split in Hs by assumption. rewrite (seq_ok _ _ _ _ _ H1) in Hs.
      unfold finish in Hs. destruct bg.
      * subst o2. unfold seq, bind, look in Hs. destruct (get_job (next_job_id (jobs (js (im s)))) (jobs (js (im s1)))); discriminate Hs.
      * subst o2. unfold seq, bind, wait_job in Hs.
        destruct (wait_for_job _ _ _ _) as [st j r| |]; [|discriminate Hs|discriminate Hs].
        destruct st; discriminate Hs.
  - assert (Hs : run_job w bg (map entry scs') s = (lift o1, s')).
    { rewrite run_job_split by assumption. unfold seq, bind. rewrite H1. destruct o1; try reflexivity.
      contradiction. }
    exact (job_programs w bg scs' s _ s' Hne Ht Hs).
Qed.

(** ** A single program *)

(** Answers of [waitpid] after the last child. *)
Definition silent (a : answer) : Prop := a = AFail \/ a = AStatus StillAlive.
(** Everything but the flag GOT_SIGCHLD. *)
Definition but_flag (s s' : jst) : Prop := jobs s' = jobs s /\ masked s' = masked s /\ printed s' = printed s.

Lemma but_flag_refl s : but_flag s s.
Proof. repeat split. Qed.
Lemma but_flag_trans a b c : but_flag a b -> but_flag b c -> but_flag a c.
Proof. intros (A1 & A2 & A3) (B1 & B2 & B3). repeat split; congruence. Qed.

(** As many children may be asked about. *)
Fixpoint load (ks : arrivals) : nat :=
  match ks with
  | [] => O
  | Int l :: ks' => S (List.length l + load ks')
  | _ :: ks' => S (load ks')
  end.

Lemma in_sigint_silent h l : (forall n a as_ s, silent a -> h n (a :: as_) s = WDone tt (with_sigchld true s) as_) ->
  forall as_ s, Forall silent as_ -> (List.length l <= List.length as_)%nat ->
  exists s' r, in_sigint h l as_ s = WDone tt s' r /\ Forall silent r /\ but_flag s s' /\
    List.length as_ = (List.length r + List.length l)%nat.
Proof.
  intros Hh. induction l as [|n l IH]; intros as_ s Hf Hl; cbn [in_sigint].
  - exists s, as_. repeat split; auto.
  - destruct as_ as [|a as_]; [cbn in Hl; lia|]. inversion Hf as [|x y Ha Hf']; subst x y. rewrite Hh by exact Ha.
    destruct (IH as_ (with_sigchld true s) Hf') as (s' & r & E & F & B & L); [cbn in Hl; lia|].
    exists s', r. split; [exact E|]. split; [exact F|]. split; [destruct B as (B1 & B2 & B3); repeat split; assumption|]. cbn. lia.
Qed.
Lemma handled_silent ps4 n a as_ s : silent a -> handled ps4 n (a :: as_) s = WDone tt (with_sigchld true s) as_.
Proof. intros [->| ->]; reflexivity. Qed.
Lemma borrowed_silent a as_ s : silent a -> borrowed_signal (a :: as_) s = WDone tt (with_sigchld true s) as_.
Proof. intros [->| ->]; reflexivity. Qed.
Lemma deliver_silent ps4 ks : forall as_ s, Forall silent as_ -> (load ks <= List.length as_)%nat ->
  exists ks' s' r, deliver ps4 ks as_ s = WDone ks' s' r /\ Forall silent r /\ but_flag s s' /\
    (List.length as_ + load ks' <= List.length r + load ks)%nat.
Proof.
  induction ks as [|k ks IH]; intros as_ s Hf Hl; cbn [deliver].
  - exists [], s, as_. repeat split; auto.
  - destruct k as [n|l|]; cbn [load] in *.
    + destruct (masked s) eqn:Em.
      * destruct (IH as_ s Hf) as (ks' & s' & r & E & F & B & L); [lia|].
        exists ks', s', r. split; [exact E|]. split; [exact F|]. split; [exact B|]. lia.
      * destruct as_ as [|a as_]; [cbn in Hl; lia|]. inversion Hf as [|x y Ha Hf']; subst x y. rewrite handled_silent by exact Ha.
        destruct (IH as_ (with_sigchld true s) Hf') as (ks' & s' & r & E & F & B & L); [cbn in Hl; lia|].
        exists ks', s', r. split; [exact E|]. split; [exact F|].
        split; [destruct B as (B1 & B2 & B3); repeat split; assumption|]. cbn. lia.
    + destruct (in_sigint_silent (handled ps4) l (handled_silent ps4) as_ s Hf) as (s1 & r1 & E1 & F1 & B1 & L1); [lia|]. rewrite E1.
      destruct (IH r1 s1 F1) as (ks' & s' & r & E & F & B & L); [lia|]. exists ks', s', r. split; [exact E|]. split; [exact F|].
      split; [eapply but_flag_trans; eassumption|]. lia.
    + exists ks, s, as_. repeat split; auto. lia.
Qed.
Lemma deliver_borrowed_silent ks : forall as_ s, Forall silent as_ -> (load ks <= List.length as_)%nat ->
  exists ks' s' r, deliver_borrowed ks as_ s = WDone ks' s' r /\ Forall silent r /\ but_flag s s' /\
    (List.length as_ + load ks' <= List.length r + load ks)%nat.
Proof.
  induction ks as [|k ks IH]; intros as_ s Hf Hl; cbn [deliver_borrowed].
  - exists [], s, as_. repeat split; auto.
  - destruct k as [n|l|]; cbn [load] in *.
    + destruct as_ as [|a as_]; [cbn in Hl; lia|]. inversion Hf as [|x y Ha Hf']; subst x y. rewrite borrowed_silent by exact Ha.
      destruct (IH as_ (with_sigchld true s) Hf') as (ks' & s' & r & E & F & B & L); [cbn in Hl; lia|].
      exists ks', s', r. split; [exact E|]. split; [exact F|].
      split; [destruct B as (B1 & B2 & B3); repeat split; assumption|]. cbn. lia.
    + destruct (in_sigint_silent (fun _ => borrowed_signal) l (fun _ => borrowed_silent) as_ s Hf) as (s1 & r1 & E1 & F1 & B1 & L1); [lia|].
      rewrite E1. destruct (IH r1 s1 F1) as (ks' & s' & r & E & F & B & L); [lia|]. exists ks', s', r. split; [exact E|]. split; [exact F|].
      split; [eapply but_flag_trans; eassumption|]. lia.
    + exists ks, s, as_. repeat split; auto. lia.
Qed.
Lemma deliver_masked ps4 ks : Forall childish ks -> forall as_ s, masked s = true ->
  exists ks', deliver ps4 ks as_ s = WDone ks' s as_ /\ (load ks' <= load ks)%nat.
Proof.
  induction 1 as [|k ks Hk _ IH]; intros as_ s Hm; cbn [deliver].
  - exists []. split; reflexivity.
  - destruct k; [|destruct Hk|exists ks; split; [reflexivity|cbn; lia]]. rewrite Hm. destruct (IH as_ s Hm) as (ks' & E & L).
    exists ks'. split; [exact E|cbn; lia].
Qed.
Lemma wait_one_silent ps4 id a as_ s : silent a ->
  wait_one ps4 id (a :: as_) s = WDone (match a with AFail => RFail | _ => RNone end)
    (Jst (jobs s) (match a with AFail => true | _ => false end) false (printed s)) as_.
Proof. intros [->| ->]; reflexivity. Qed.
Lemma wait_one_flags ps4 id as_ s s' : jobs s' = jobs s -> printed s' = printed s ->
  wait_one ps4 id as_ s' = wait_one ps4 id as_ s.
Proof. intros E1 E2. destruct s, s'. cbn in E1, E2. subst. reflexivity. Qed.

(** Waiting for the only event: the signals make no difference. *)
Lemma wait_event_async ps4 id n e p rest s0 st t r s ks :
  event_of e p -> (exists j, get_job id (jobs s0) = Some j /\ state j = Running) ->
  jobs s = jobs s0 -> printed s = printed s0 -> masked s = true ->
  wait_for_job ps4 id (repeat AIntr n ++ AStatus e :: rest) s0 = WDone st t r ->
  Forall silent rest -> Forall childish ks -> (load ks < List.length rest)%nat ->
  exists s' r', wait_for_job_async ps4 id ks (repeat AIntr n ++ AStatus e :: rest) s = WDone st s' r' /\
    jobs s' = jobs t /\ printed s' = printed t.
Proof.
  intros He (j & Ej & Hr) Hj Hp Hm H Hs Hc Hl.
  unfold wait_for_job, do_wait in H. rewrite Ej, Hr in H. cbn [state_eqb negb andb] in H.
  unfold wait_for_job_async. destruct (deliver_masked ps4 ks Hc (repeat AIntr n ++ AStatus e :: rest) s Hm) as (ks0 & E0 & L0).
  rewrite E0. unfold do_wait_async. rewrite Hj, Ej, Hr. cbn [state_eqb negb andb].
  set (as_ := repeat AIntr n ++ AStatus e :: rest) in *.
  assert (Hlen : exists f, List.length as_ = S f) by (unfold as_; rewrite app_length; cbn; rewrite Nat.add_succ_r; eauto).
  destruct Hlen as [f Hlen]. rewrite Hlen in *. cbn [wait_loop wait_loop_async] in *.
  rewrite (wait_one_flags ps4 id as_ s0 s Hj Hp).
  destruct (wait_one ps4 id as_ s0) as [x s1 r1| |] eqn:E1; try discriminate.
  assert (Hx : exists q, x = RPid q /\ r1 = rest).
  { unfold as_ in E1. change (repeat AIntr n ++ AStatus e :: rest) with (JobsWait.intr n (AStatus e :: rest)) in E1.
    rewrite (JobsWait.wait_one_event ps4 id n e p rest s0 He) in E1.
    destruct (visit p e (job_table (jobs s0))) as [[t1 [[k0 st0]|]]|]; try discriminate; cbv zeta in E1.
    - destruct (Z.eqb k0 id); [|injection E1 as <- _ <-; eauto].
      destruct (format_status ps4 e _) as [[tx|]|]; try discriminate; injection E1 as <- _ <-; eauto.
    - injection E1 as <- _ <-; eauto. }
  destruct Hx as (q & -> & ->).
  destruct rest as [|a rest]; [cbn in Hl; lia|].
  pose proof Hs as Hs2. inversion Hs2 as [|x y Ha Hs']; subst x y.
  rewrite wait_one_silent in H by exact Ha.
  destruct (deliver_silent ps4 ks0 (a :: rest) s1 Hs) as (ks1 & s2 & r2 & D1 & F1 & (B1 & B2 & B3) & L1); [lia|].
  rewrite D1. destruct r2 as [|a2 r2]; [cbn in L1, Hl; lia|].
  inversion F1 as [|x y Ha2 F1']; subst x y. rewrite wait_one_silent by exact Ha2.
  set (s3 := Jst (jobs s2) (match a2 with AFail => true | _ => false end) false (printed s2)).
  destruct (deliver_silent ps4 ks1 r2 s3 F1') as (ks2 & s4 & r4 & D2 & F2 & (C1 & C2 & C3) & L2); [cbn in L1, Hl; lia|].
  assert (H' : match get_job id (jobs s1) with
    | Some j => if (state_eqb (state j) Finished || is_exited (stop_status j))%bool
                then WDone (stop_status j) (shell_delete_job id (Jst (jobs s1) (match a with AFail => true | _ => false end) false (printed s1))) rest
                else WDone (stop_status j) (Jst (jobs s1) (match a with AFail => true | _ => false end) false (printed s1)) rest
    | None => WPanic end = WDone st t r).
  { destruct Ha as [->| ->]; exact H. }
  clear H. cbn [jobs printed s3] in C1, C3.
  assert (Hg : jobs s4 = jobs s1) by congruence.
  assert (Hpr : printed s4 = printed s1) by congruence.
  assert (Hmatch : match a2 with AFail => RFail | _ => RNone end = RFail \/ match a2 with AFail => RFail | _ => RNone end = RNone).
  { destruct Ha2 as [->| ->]; auto. }
  assert (Hd : (match match a2 with AFail => RFail | _ => RNone end with
      | RPid _ => match deliver ps4 ks1 r2 s3 with WDone ks' s5 r5 => wait_loop_async ps4 f id ks' r5 s5 | x => x end
      | _ => deliver ps4 ks1 r2 s3 end) = WDone ks2 s4 r4).
  { destruct Hmatch as [E|E]; rewrite E; exact D2. }
  match goal with |- exists s' r', match ?x with _ => _ end = _ /\ _ => replace x with (WDone ks2 s4 r4) end.
  rewrite Hg. destruct (get_job id (jobs s1)) as [j1|]; [|discriminate]. cbv zeta.
  destruct (_ || _)%bool.
  - injection H' as <- <- <-. unfold delete_async.
    destruct (deliver_borrowed_silent ks2 r4 (shell_delete_job id s4) F2) as (ks5 & s5 & r5 & D3 & F3 & (G1 & G2 & G3) & L3);
      [cbn in *; lia|].
    rewrite D3. destruct (deliver_silent ps4 ks5 r5 s5 F3) as (ks6 & s6 & r6 & D4 & F4 & (K1 & K2 & K3) & L4); [cbn in *; lia|].
    rewrite D4. exists s6, r6. split; [reflexivity|]. cbn in *. split; congruence.
  - injection H' as <- <- <-. exists s4, r4. split; [reflexivity|]. cbn. split; congruence.
Qed.

(** Two shells that differ in the flag GOT_SIGCHLD and the history only. *)
Definition alike (s s' : shell) : Prop := im s' = with_js (js (im s')) (im s) /\ but_flag (js (im s)) (js (im s')).
Lemma alike_refl s : alike s s.
Proof. split; [destruct s as [[] ?]; reflexivity|apply but_flag_refl]. Qed.
Lemma alike_trans a b c : alike a b -> alike b c -> alike a c.
Proof.
  intros [A1 A2] [B1 B2]. split; [|eapply but_flag_trans; eassumption]. rewrite B1, A1. destruct (im a); reflexivity.
Qed.

(** The last event of the history is not the start of a process. *)
Definition at_rest_now (tr : list event) : Prop := match tr with EFork _ _ _ :: _ => False | _ => True end.

(** A system in which one process is started, with the pid [q]: [waitpid] reports
    [e] for it after it was started (after any number of interrupted calls), and
    otherwise that there is nothing to report. *)
Record one_child (w : os) (sg : point -> list event -> arrivals) (q : positive) (n : nat) (e : wait_status) (rest : list answer) : Prop := {
  oc_fork : forall tr, r_fork (w tr) = Some q;
  oc_event : event_of e (Zpos q);
  oc_waits : forall i c tr, r_waits (w (EFork i c (Some q) :: tr)) = repeat AIntr n ++ AStatus e :: rest;
  oc_rest : Forall silent rest;
  oc_starts : starts_undisturbed sg;
  oc_wait : undisturbed sg PWait;
  oc_enough : forall tr, (load (sg PWait tr) < List.length rest)%nat;
  oc_silent : forall p tr, at_rest_now tr ->
    Forall silent (r_waits (w tr)) /\ (load (sg p tr) <= List.length (r_waits (w tr)))%nat
}.

Section Quiet.
Context (w : os) (sg : point -> list event -> arrivals).
Context (Hsil : forall p tr, at_rest_now tr ->
  Forall silent (r_waits (w tr)) /\ (load (sg p tr) <= List.length (r_waits (w tr)))%nat).

Lemma taken_silent p (f : option str -> arrivals -> list answer -> jst -> wres arrivals) s : at_rest_now (trace s) ->
  (forall ps4 ks as_ s, Forall silent as_ -> (load ks <= List.length as_)%nat ->
    exists ks' s' r, f ps4 ks as_ s = WDone ks' s' r /\ Forall silent r /\ but_flag s s' /\
      (List.length as_ + load ks' <= List.length r + load ks)%nat) ->
  exists s', taken w sg p f s = (OOk tt, s') /\ alike s s' /\ at_rest_now (trace s').
Proof.
  intros Ht Hf. unfold taken. destruct (_ && _)%bool; [exists s; auto using alike_refl|].
  destruct (arriving sg p s) as [|k ks] eqn:E; [exists s; auto using alike_refl|].
  assert (Hs : sg p (trace s) = k :: ks).
  { unfold arriving in E. destruct (_ && _)%bool; [exact E|discriminate]. }
  destruct (Hsil p (trace s) Ht) as [F L]. rewrite Hs in L.
  destruct (Hf (expand_var (cm (im s)) (lit "PS4")) (k :: ks) (r_waits (w (trace s))) (js (im s)) F L) as (ks' & j & r & Ed & _ & B & _).
  rewrite Ed. eexists. split; [reflexivity|]. split; [split; [reflexivity|exact B]|exact I].
Qed.
Lemma signals_silent p s : at_rest_now (trace s) ->
  exists s', signals w sg p s = (OOk tt, s') /\ alike s s' /\ at_rest_now (trace s').
Proof. intros H. apply taken_silent; [exact H|]. intros. apply deliver_silent; assumption. Qed.
Lemma delete_silent id s : at_rest_now (trace s) ->
  exists s', sh_delete_async w sg id s = (OOk tt, s') /\
    alike (Shell (with_js (shell_delete_job id (js (im s))) (im s)) (trace s)) s' /\ at_rest_now (trace s').
Proof.
  intros H. unfold sh_delete_async.
  rewrite (seq_ok (sh_delete_job id) _ s tt (Shell (with_js (shell_delete_job id (js (im s))) (im s)) (trace s)) eq_refl).
  apply taken_silent; [exact H|]. intros. apply deliver_borrowed_silent; assumption.
Qed.
End Quiet.

Section OneChild.
Context (w : os) (sg : point -> list event -> arrivals) (q : positive) (n : nat) (e : wait_status) (rest : list answer).
Context (O : one_child w sg q n e rest).

(** What follows the start of the process. *)
Lemma finish_alike id s2 s2' t r :
  alike s2 s2' -> masked (js (im s2')) = true ->
  (exists i c tr, trace s2 = EFork i c (Some q) :: tr) -> (exists i c tr, trace s2' = EFork i c (Some q) :: tr) ->
  (exists j, get_job id (jobs (js (im s2))) = Some j /\ state j = Running) ->
  wait_for_job (expand_var (cm (im s2)) (lit "PS4")) id (repeat AIntr n ++ AStatus e :: rest) (js (im s2)) = WDone e t r ->
  exists c s0 s', finish w false id s2 = (OOk c, s0) /\ finish_async w sg false id s2' = (OOk c, s') /\ alike s0 s' /\ at_rest_now (trace s').
Proof.
  intros [Ai (B1 & B2 & B3)] Hm (i1 & c1 & tr1 & T1) (i2 & c2 & tr2 & T2) Hj Hw.
  unfold finish, finish_async.
  assert (W1 : wait_job w id s2 = (OOk e, Shell (with_js t (im s2)) (EWait id :: trace s2))).
  { unfold wait_job. assert (Er : r_waits (w (trace s2)) = repeat AIntr n ++ AStatus e :: rest) by (rewrite T1; apply (oc_waits _ _ _ _ _ _ O)).
    rewrite Er, Hw. reflexivity. }
  assert (W2 : exists t', wait_job_async w sg id s2' = (OOk e, Shell (with_js t' (im s2')) (EWait id :: trace s2')) /\
     jobs t' = jobs t /\ printed t' = printed t).
  { unfold wait_job_async. assert (Ec : cm (im s2') = cm (im s2)) by (rewrite Ai; reflexivity). rewrite Ec.
    assert (Er : r_waits (w (trace s2')) = repeat AIntr n ++ AStatus e :: rest) by (rewrite T2; apply (oc_waits _ _ _ _ _ _ O)).
    rewrite Er.
    destruct (wait_event_async (expand_var (cm (im s2)) (lit "PS4")) id n e (Zpos q) rest (js (im s2)) e t r (js (im s2'))
      (arriving sg PWait s2') (oc_event _ _ _ _ _ _ O) Hj B1 B3 Hm Hw (oc_rest _ _ _ _ _ _ O)) as (t' & r' & E1 & E2 & E3).
    { unfold arriving. pose proof (oc_wait _ _ _ _ _ _ O (trace s2')). destruct (_ && _)%bool; [assumption|constructor]. }
    { unfold arriving. pose proof (oc_enough _ _ _ _ _ _ O (trace s2')). destruct (_ && _)%bool; [assumption|cbn; lia]. }
    exists t'. rewrite E1. auto. }
  destruct W2 as (t' & W2 & J & Pr).
  set (s3 := Shell (with_js t (im s2)) (EWait id :: trace s2)) in *.
  set (s3' := Shell (with_js t' (im s2')) (EWait id :: trace s2')) in *.
  destruct (delete_silent w sg (oc_silent _ _ _ _ _ _ O) id s3' I) as (s4' & D & [A4 (C1 & C2 & C3)] & R4).
  set (s4 := Shell (with_js (shell_delete_job id t) (im s2)) (EWait id :: trace s2)).
  assert (A5 : alike s4 s4').
  { split.
    - rewrite A4. cbn [im s4 s3']. rewrite Ai. destruct (im s2); reflexivity.
    - cbn in C1, C2, C3. repeat split; cbn; [rewrite C1, J; reflexivity|exact C2|rewrite C3; exact Pr]. }
  set (k := match e with Exited _ c => set_exit_status c | _ => ret tt end).
  assert (Hk : forall s, k s = (OOk tt, Shell (match e with Exited _ c => with_exit c (im s) | _ => im s end) (trace s))).
  { intros [i tr]. unfold k. destruct e; reflexivity. }
  set (f := fun i => match e with Exited _ c => with_exit c i | _ => i end).
  exists (exit_status (f (im s4))), (Shell (with_js (with_masked false (js (f (im s4)))) (f (im s4))) (trace s4)),
    (Shell (with_js (with_masked false (js (f (im s4')))) (f (im s4'))) (trace s4')).
  assert (Ef : forall i, js (f i) = js i) by (intros i; unfold f; destruct e; reflexivity).
  split; [|split; [|split]].
  - assert (E : (st <- wait_job w id ;; sh_delete_job id ;; match st with Exited _ c => set_exit_status c | _ => ret tt end) s2
      = (OOk tt, Shell (f (im s4)) (trace s4))).
    { rewrite (bind_ok _ _ _ _ _ W1). rewrite (seq_ok (sh_delete_job id) _ s3 tt s4 eq_refl). exact (Hk s4). }
    rewrite (seq_ok _ _ _ _ _ E). reflexivity.
  - assert (E : (st <- wait_job_async w sg id ;; sh_delete_async w sg id ;; match st with Exited _ c => set_exit_status c | _ => ret tt end) s2'
      = (OOk tt, Shell (f (im s4')) (trace s4'))).
    { rewrite (bind_ok _ _ _ _ _ W2). rewrite (seq_ok _ _ _ _ _ D). exact (Hk s4'). }
    rewrite (seq_ok _ _ _ _ _ E).
    assert (Ex : exit_status (f (im s4')) = exit_status (f (im s4))).
    { destruct A5 as [A5 _]. rewrite A5. unfold f. destruct e; destruct (im s4); reflexivity. }
    unfold interrupts_on, get_exit_code, seq, bind, change, look. cbn [im]. unfold with_js at 1. cbn [exit_status]. rewrite Ex. reflexivity.
  - destruct A5 as [A5 (G1 & G2 & G3)]. split.
    + cbn [im]. rewrite !Ef. cbn [js with_js]. rewrite A5 at 2. unfold f. destruct e; destruct (im s4); reflexivity.
    + cbn [im js with_js]. rewrite !Ef. repeat split; [exact G1|exact G3].
  - exact R4.
Qed.
End OneChild.

Lemma launch_single w id sc' p0 i jc tr q : table (fds i) -> r_fork (w tr) = Some q ->
  launch w id false 0 [(p0, sc')] (-1) (-1, -1) (Shell (launching i jc (fds i) (next_pipe i)) tr) =
  (OOk tt, Shell (launching i (started id 0 (Zpos q) jc) (fds i) (next_pipe i))
     (EFork (launching i jc (fds i) (next_pipe i)) (Child sc' p0 (-1) (-1, -1) false) (Some q) :: tr)).
Proof.
  intros Ht Hf. cbn [launch].
  set (s1 := Shell (launching i jc (fds i) (next_pipe i)) tr).
  rewrite (bind_ok (ret (fst (-1, -1), -1)) _ s1 (-1, -1) s1 eq_refl).
  set (c0 := Child sc' p0 (-1) (-1, -1) false).
  assert (Hfk : fork_child w c0 s1 = (OOk (Some q), Shell (im s1) (EFork (im s1) c0 (Some q) :: tr))).
  { unfold fork_child, ask, bind, look, note, seq, ret. cbn [trace s1]. unfold bind. rewrite Hf. reflexivity. }
  rewrite (bind_ok _ _ _ _ _ Hfk).
  set (s2 := Shell (launching i (started id 0 (Zpos q) jc) (fds i) (next_pipe i)) (EFork (im s1) c0 (Some q) :: tr)).
  rewrite (seq_ok (on_jobs (started id 0 (Zpos q))) _ (Shell (im s1) (EFork (im s1) c0 (Some q) :: tr)) tt s2 eq_refl). cbn [Z.leb Z.compare].
  rewrite (seq_ok (ret tt) _ s2 tt s2 eq_refl).
  rewrite (seq_ok (sys_close_ignored (snd (-1, -1))) _ s2 tt s2); [reflexivity|].
  unfold sys_close_ignored, change. cbn [snd fst]. unfold fd_close. cbn [im s2].
  destruct (nget (-1) (fds (launching i (started id 0 (Zpos q) jc) (fds i) (next_pipe i)))) as [dd|] eqn:En; [|reflexivity].
  exfalso. apply (proj2 Ht) in En. lia.
Qed.

Theorem single_async w sg d b sc sc' s v q n e rest :
  one_child w sg q n e rest -> at_rest_now (trace s) ->
  wf_pipeline (Pipeline b [CSimple sc] false) -> program (im s) sc sc' -> table (fds (im s)) ->
  basic (jobs (js (im s))) -> (forall k j, nget k (job_table (jobs (js (im s)))) = Some j -> at_rest (Zpos q) j) ->
  expand_var (cm (im s)) (lit "PS4") = Some v ->
  exists c s0 s', exec_text w (S d) (r_pipeline (Pipeline b [CSimple sc] false)) s = (OOk c, s0) /\
    exec_text_async w sg (S d) (r_pipeline (Pipeline b [CSimple sc] false)) s = (OOk c, s') /\ alike s0 s'.
Proof.
  intros O Hr Hw Hp Ht B Hfin Hv.
  rewrite exec_pipeline, exec_pipeline_async by exact Hw.
  rewrite (pipeline_programs w _ b [sc] [sc'] false s) by (try discriminate; repeat constructor; exact Hp).
  change [CSimple sc] with (map CSimple [sc]).
  rewrite (programs_async w sg _ b [sc] [sc'] false s (su_functions _ (oc_starts _ _ _ _ _ _ O))) by (try discriminate; repeat constructor; exact Hp).
  destruct (signals_silent w sg (oc_silent _ _ _ _ _ _ O) PStart s Hr) as (s1 & E1 & [A1 (J1 & M1 & P1)] & R1).
  rewrite (seq_ok _ _ _ _ _ E1).
  rewrite run_job_split by discriminate.
  unfold bind at 1. rewrite run_job_async_split by (first [exact (oc_starts _ _ _ _ _ _ O)|discriminate|reflexivity]).
  assert (Eid : next_job_id (jobs (js (im (blocked s1)))) = next_job_id (jobs (js (im (blocked s))))) by (cbn; rewrite J1; reflexivity).
  assert (Ejc : created false (map fst (map entry [sc'])) (blocked s1) = created false (map fst (map entry [sc'])) (blocked s)).
  { unfold created. cbn [im blocked js with_js with_masked jobs]. rewrite J1. reflexivity. }
  rewrite Eid, Ejc. set (id := next_job_id (jobs (js (im (blocked s))))).
  set (jc := created false (map fst (map entry [sc'])) (blocked s)).
  set (p0 := process_new (sc_name sc' :: words_in sc') (sc_name sc') (sc_name sc')).
  change (map entry [sc']) with [(p0, sc')].
  assert (Ht1 : table (fds (im (blocked s1)))) by (cbn; rewrite A1; exact Ht).
  unfold seq at 1, bind at 1. rewrite (launch_single w id sc' p0 (im (blocked s)) jc (trace (blocked s)) q Ht (oc_fork _ _ _ _ _ _ O _)).
  unfold seq at 1, bind at 1. rewrite (launch_single w id sc' p0 (im (blocked s1)) jc (trace (blocked s1)) q Ht1 (oc_fork _ _ _ _ _ _ O _)).
  set (jc1 := started id 0 (Zpos q) jc).
  match goal with |- context [finish w false id ?x] => set (s2 := x) end.
  match goal with |- context [finish_async w sg false id ?x] => set (s2' := x) end.
  (* the table *)
  assert (Bc : basic jc) by (apply create_basic; exact B).
  assert (Bj : basic jc1) by (apply started_basic; exact Bc).
  set (j1 := Job [with_pid (Zpos q) p0] id StillAlive Running false false).
  assert (Hcg : forall k, nget k (job_table jc) = if Z.eqb k id then Some (job_new [p0] id false) else nget k (job_table (jobs (js (im s))))).
  { intros k. unfold jc, created. rewrite create_get by exact B. reflexivity. }
  assert (Hg : forall k, nget k (job_table jc1) = if Z.eqb k id then Some j1 else nget k (job_table (jobs (js (im s))))).
  { intros k. unfold jc1. rewrite (started_get id 0 (Zpos q) jc (job_new [p0] id false) k Bc).
    - rewrite Hcg. destruct (Z.eqb k id); reflexivity.
    - rewrite Hcg, Z.eqb_refl. reflexivity. }
  destruct rest as [|a rest']; [pose proof (oc_enough _ _ _ _ _ _ O []) as L; cbn in L; lia|].
  pose proof (oc_rest _ _ _ _ _ _ O) as Hsil. inversion Hsil as [|x y Ha Hsil']; subst x y.
  destruct (PropertiesJobs.C41_single_partial v id n e 0 a rest' (js (im s2)) j1 (with_pid (Zpos q) p0)) as (s3 & W1 & W2 & W3).
  - exact Bj.
  - exact (oc_event _ _ _ _ _ _ O).
  - cbn [js im s2 launching with_next_pipe with_fds with_js with_jobs jobs]. rewrite Hg, Z.eqb_refl. reflexivity.
  - reflexivity.
  - reflexivity.
  - intros k j Hk Hne. cbn [js im s2 launching with_next_pipe with_fds with_js with_jobs jobs] in Hk. rewrite Hg in Hk.
    destruct (Z.eqb_spec k id); [congruence|]. exact (Hfin k j Hk).
  - exact Ha.
  - cbn [repeat app] in W1.
    destruct (finish_alike w sg q n e (a :: rest') O id s2 s2' s3 rest') as (c & s0 & s' & F1 & F2 & F3 & F4).
    + split.
      * cbn [im s2 s2' launching blocked with_next_pipe with_fds with_js]. rewrite A1. destruct (im s); reflexivity.
      * repeat split. exact P1.
    + reflexivity.
    + eexists _, _, _. reflexivity.
    + eexists _, _, _. reflexivity.
    + exists j1. split; [|reflexivity]. unfold get_job. cbn [js im s2 launching with_next_pipe with_fds with_js with_jobs jobs].
      rewrite Hg, Z.eqb_refl. reflexivity.
    + change (cm (im s2)) with (cm (im s)). rewrite Hv. exact W1.
    + destruct (signals_silent w sg (oc_silent _ _ _ _ _ _ O) PEnd s' F4) as (s5 & E5 & A5 & _).
      exists c, s0, s5. split; [exact F1|]. split.
      * rewrite F2. unfold seq, bind. rewrite E5. reflexivity.
      * eapply alike_trans; [exact F3|exact A5].
Qed.

(** ** Pipelines of programs, whenever signals arrive *)

Lemma signals_fail w sg p s o s' : signals w sg p s = (o, s') -> fails o -> (o = OPanic \/ o = OBlock) /\ s' = s.
Proof.
  unfold signals, taken. destruct (_ && _)%bool; [intros H; injection H as <- _; contradiction|].
  destruct (arriving sg p s); [intros H; injection H as <- _; contradiction|].
  destruct (deliver _ _ _ _); intros H F; injection H as <- <-; [contradiction| |]; auto.
Qed.
Lemma started_same s s1 bg scs' k f : im s1 = with_js (js (im s1)) (im s) -> started_child (blocked s1) bg scs' k f -> started_child s bg scs' k f.
Proof.
  intros E. destruct f as [[img c] r]. unfold started_child. intros (C1 & C2 & C3 & (F1 & F2 & F3 & F4 & F5 & F6 & F7 & F8) & C5).
  split; [exact C1|]. split; [exact C2|]. split; [exact C3|].
  assert (G1 : fds (im (blocked s1)) = fds (im s)) by (cbn; rewrite E; reflexivity).
  assert (G2 : next_pipe (im (blocked s1)) = next_pipe (im s)) by (cbn; rewrite E; reflexivity).
  split; [|rewrite <- G1, <- G2; exact C5].
  cbn in F1, F2, F3, F4, F6, F8. rewrite E in F1, F2, F3, F4, F6, F8. repeat split; assumption.
Qed.
Lemma exec_programs_async w sg d b bg scs scs' s o s' : starts_undisturbed sg -> scs <> [] -> wf_pipeline (Pipeline b (map CSimple scs) bg) ->
  Forall2 (program (im s)) scs scs' -> table (fds (im s)) ->
  exec_text_async w sg (S d) (r_pipeline (Pipeline b (map CSimple scs) bg)) s = (o, s') ->
  exists new, trace s' = new ++ trace s /\
    (forall k f, nth_error (forks new) k = Some f -> started_child s bg scs' k f) /\
    finishing (with_fds (fds (im s')) (with_next_pipe (next_pipe (im s')) (im s))) (im s') /\
    ((List.length (forks new) = List.length scs' /\ forall fd, nget fd (fds (im s')) = nget fd (fds (im s))) \/
     (o = OErr (EText (lit "Failed to create pipe")) /\ (S (List.length (forks new)) < List.length scs')%nat /\
      exists prev, between (fds (im s)) (next_pipe (im s)) (List.length (forks new)) prev (fds (im s'))) \/
     ((o = OPanic \/ o = OBlock) /\ s' = s)).
Proof.
  intros U Hne Hw HF Ht H. rewrite exec_pipeline_async in H by exact Hw.
  rewrite (programs_async w sg _ b scs scs' bg s (su_functions _ U) Hne HF) in H.
  apply seq_inv in H. destruct H as [([] & s1 & H1 & H2)|(o1 & H1 & Hf & ->)].
  2: { destruct (signals_fail _ _ _ _ _ _ H1 Hf) as [Ho ->]. exists []. split; [reflexivity|].
    split; [intros [|k] f E; discriminate|]. split; [repeat split|]. right. right.
    split; [destruct Ho as [->| ->]; auto|reflexivity]. }
  assert (Q1 : quietly s s1) by (apply (quietly_signals w sg PStart s _ s1 H1 (or_introl eq_refl))).
  apply signals_jobs in H1. destruct H1 as [E1 _]. destruct Q1 as (_ & n1 & T1 & K1).
  assert (Ht1 : table (fds (im (blocked s1)))) by (cbn; rewrite E1; exact Ht).
  assert (Hne' : scs' <> []) by (destruct HF; [congruence|discriminate]).
  assert (Hb : forall fd, nget fd (fds (im (blocked s1))) = nget fd (fds (im s))) by (intros fd; cbn; rewrite E1; reflexivity).
  assert (Hnp : next_pipe (im (blocked s1)) = next_pipe (im s)) by (cbn; rewrite E1; reflexivity).
  assert (Hfd : fds (im (blocked s1)) = fds (im s)) by (cbn; rewrite E1; reflexivity).
  assert (Hfin : forall i', finishing (with_fds (fds i') (with_next_pipe (next_pipe i') (im (blocked s1)))) i' ->
    finishing (with_fds (fds i') (with_next_pipe (next_pipe i') (im s))) i').
  { intros i' (F1 & F2 & F3 & F4 & F5 & F6 & F7 & F8). cbn in *. rewrite E1 in *. cbn in *. repeat split; auto. }
  apply bind_inv in H2. destruct H2 as [(st & s2 & H2 & H3)|(o1 & H2 & Hf & ->)].
  - destruct (job_programs_async w sg bg scs' (blocked s1) _ s2 U Hne' Ht1 eq_refl H2) as (new & T2 & C2 & F2 & D2).
    assert (Q3 : quietly s2 s').
    { assert (K : keeps true quietly (signals w sg PEnd ;; ret st)).
      { apply (keeps_seq _ _ quietly_pre); [apply quietly_signals|apply (keeps_ret _ _ quietly_pre)]. }
      exact (K _ _ _ H3 (or_introl eq_refl)). }
    destruct Q3 as ((a1 & a2 & a3 & a4 & a5 & a6 & a7 & a8) & n3 & T3 & K3).
    exists (n3 ++ new ++ n1). split; [rewrite T3, T2; cbn [blocked trace]; rewrite T1, !app_assoc; reflexivity|].
    rewrite !forks_app, K1, K3, app_nil_r. cbn [app].
    split; [intros k f Hk; apply (started_same s s1); [exact E1|apply C2, Hk]|].
    split; [apply Hfin in F2; destruct F2 as (b1 & b2 & b3 & b4 & b5 & b6 & b7 & b8); cbn in *; repeat split; cbn; congruence|].
    destruct D2 as [[D2 D3]|(D2 & _)]; [|discriminate]. left. split; [exact D2|]. intros fd. rewrite a5, D3. apply Hb.
  - destruct (job_programs_async w sg bg scs' (blocked s1) _ s' U Hne' Ht1 eq_refl H2) as (new & T2 & C2 & F2 & D2).
    exists (new ++ n1). split; [rewrite T2; cbn [blocked trace]; rewrite T1, !app_assoc; reflexivity|].
    rewrite !forks_app, K1. cbn [app].
    split; [intros k f Hk; apply (started_same s s1); [exact E1|apply C2, Hk]|].
    split; [exact (Hfin _ F2)|].
    destruct D2 as [[D2 D3]|(-> & D3 & prev & D4)]; [left; split; [exact D2|]; intros fd; rewrite D3; apply Hb|].
    right. left. split; [reflexivity|]. split; [exact D3|]. exists prev. rewrite <- Hfd, <- Hnp. exact D4.
Qed.

(** A SIGCHLD is taken: they are not blocked, or the handler of SIGINT is run. *)
Definition gets_through (b : bool) (k : arrival) : Prop :=
  match k with Sig _ => b = false | Int l => l <> [] | Pause => False end.
(** A process that is started while signals are not blocked, or while a SIGINT
    lets them through: its own signal is fatal once its pid is entered. *)
Lemma unmasked_crash w sg id sc p prev i s q ps4 k ks e as_ s3 :
  gets_through (masked (js (im s))) k -> handlers (im s) = true -> forked (im s) = false -> basic (jobs (js (im s))) ->
  (exists j, get_job id (jobs (js (im s))) = Some j /\ (i < List.length (processes j))%nat) ->
  r_fork (w (trace s)) = Some q -> ps4 = expand_var (cm (im s)) (lit "PS4") ->
  s3 = Shell (im s) (EFork (im s) (Child sc p prev (-1, -1) false) (Some q) :: trace s) ->
  sg PForked (trace s3) = [] -> sg PEntered (trace s3) = k :: ks ->
  r_waits (w (trace s3)) = AStatus e :: as_ -> event_of e (Zpos q) ->
  exists s', launch_async w sg id false i [(p, sc)] prev (-1, -1) s = (OPanic, s').
Proof.
  intros Hm Hh Hk B (j & Ej & Li) Hf -> -> Hs1 Hs2 Hw He. cbn [launch_async].
  rewrite (bind_ok (ret (fst (-1, -1), -1)) _ s (-1, -1) s eq_refl).
  set (c0 := Child sc p prev (-1, -1) false) in *.
  set (s3 := Shell (im s) (EFork (im s) c0 (Some q) :: trace s)) in *.
  assert (Hfk : fork_child w c0 s = (OOk (Some q), s3)).
  { unfold fork_child, ask, bind, look, note, seq, ret. unfold bind. rewrite Hf. reflexivity. }
  rewrite (bind_ok _ _ _ _ _ Hfk).
  assert (E1 : signals_job w sg PForked id s3 = (OOk tt, s3)).
  { unfold signals_job, taken, arriving. rewrite Hs1. cbn [im s3]. rewrite Hh, Hk. destruct (_ && _)%bool; reflexivity. }
  rewrite (seq_ok _ _ _ _ _ E1).
  set (s4 := Shell (with_js (with_jobs (started id i (Zpos q) (jobs (js (im s)))) (js (im s))) (im s)) (trace s3)).
  rewrite (seq_ok (on_jobs (started id i (Zpos q))) _ s3 tt s4 eq_refl).
  assert (E2 : signals_job w sg PEntered id s4 = (OPanic, s4)).
  { assert (Ep : nget (Zpos q) (pid_to_job (started id i (Zpos q) (jobs (js (im s))))) = Some id /\
                 get_job id (started id i (Zpos q) (jobs (js (im s)))) <> None).
    { unfold started. rewrite Ej. cbn. split.
      - rewrite nget_ninsert; [rewrite Z.eqb_refl; reflexivity|]. apply B.
      - unfold get_job. cbn. rewrite nget_ninsert by apply B. rewrite Z.eqb_refl. discriminate. }
    destruct Ep as [Ep1 Ep2].
    assert (Eown : match AStatus e :: as_ with
             | AStatus (Exited p0 _) :: _ | AStatus (Signaled p0 _ _) :: _ | AStatus (Stopped p0 _) :: _ =>
                 match nget p0 (pid_to_job (started id i (Zpos q) (jobs (js (im s))))), get_job id (started id i (Zpos q) (jobs (js (im s)))) with
                 | Some k, Some _ => Z.eqb k id
                 | _, _ => false
                 end
             | _ => false
             end = true).
    { destruct He; rewrite Ep1; (destruct (get_job id (started id i _ _)); [apply Z.eqb_refl|congruence]). }
    assert (Eh : forall ps4 n, handled_job ps4 id n (AStatus e :: as_) (with_jobs (started id i (Zpos q) (jobs (js (im s)))) (js (im s))) = WPanic).
    { intros ps4 n. unfold handled_job, sig_chld_borrowed. cbn [jobs with_jobs]. rewrite Eown. reflexivity. }
    unfold signals_job, taken, arriving. cbn [im s4 js with_js masked with_jobs handlers forked trace]. rewrite Hh, Hk, Hs2.
    cbn [andb negb]. rewrite Hw. destruct k as [n|[|n l]|]; [|contradiction (Hm eq_refl)| |destruct Hm].
    - cbn in Hm. rewrite Hm. cbn [andb deliver_job masked with_jobs]. rewrite Hm, Eh. reflexivity.
    - cbn [interrupting existsb orb negb]. rewrite andb_false_r. cbn [deliver_job in_sigint]. rewrite Eh. reflexivity. }
  unfold seq at 1, bind at 1. rewrite E2. eexists. reflexivity.
Qed.

(** A line with one program: SIGINT between the entry of its pid and the wait. *)
Lemma interrupt_crash w sg d b sc sc' s q n l ks e as_ :
  wf_pipeline (Pipeline b [CSimple sc] false) -> program (im s) sc sc' -> basic (jobs (js (im s))) ->
  handlers (im s) = true -> forked (im s) = false ->
  undisturbed sg PFunctions -> sg PStart (trace s) = [] -> r_fork (w (trace s)) = Some q ->
  (forall i c, let tr := EFork i c (Some q) :: trace s in
    sg PForked tr = [] /\ sg PEntered tr = Int (n :: l) :: ks /\ r_waits (w tr) = AStatus e :: as_) ->
  event_of e (Zpos q) ->
  exists s', exec_text_async w sg (S d) (r_pipeline (Pipeline b [CSimple sc] false)) s = (OPanic, s').
Proof.
  intros Hw Hp B Hh Hk Hu H0 Hf Ht He. rewrite exec_pipeline_async by exact Hw.
  rewrite (programs_async w sg _ b [sc] [sc'] false s Hu) by (try discriminate; repeat constructor; exact Hp).
  assert (E0 : signals w sg PStart s = (OOk tt, s)).
  { unfold signals, taken, arriving. rewrite H0. destruct (_ && negb (forked _))%bool; destruct (_ && _)%bool; reflexivity. }
  rewrite (seq_ok _ _ _ _ _ E0). unfold bind at 1.
  set (id := next_job_id (jobs (js (im s)))). cbn [map]. unfold entry at 1. set (p0 := ChildLaws.proc_of sc').
  set (jc := create_job [p0] false (jobs (js (im s)))).
  set (s1 := Shell (with_js (with_jobs jc (js (im (blocked s)))) (im (blocked s))) (trace s)).
  assert (Ej : exists j, get_job id jc = Some j /\ (0 < List.length (processes j))%nat).
  { exists (job_new [p0] id false). split; [|cbn; lia]. unfold get_job, jc. rewrite create_get by exact B.
    fold id. rewrite Z.eqb_refl. reflexivity. }
  destruct (Ht (im s1) (Child sc' p0 (-1) (-1, -1) false)) as (T1 & T2 & T3).
  destruct (unmasked_crash w sg id sc' p0 (-1) 0 s1 q _ (Int (n :: l)) ks e as_ _
    (fun H => ltac:(discriminate H)) Hh Hk (create_basic _ _ _ B) Ej Hf eq_refl eq_refl T1 T2 T3 He) as [s' E].
  assert (Er : run_job_async w sg false [(p0, sc')] (blocked s) = (OPanic, s')).
  { unfold run_job_async. rewrite (bind_ok (look (fun i => next_job_id (jobs (js i)))) _ (blocked s) id (blocked s) eq_refl).
    rewrite (seq_ok (on_jobs (create_job (map fst [(p0, sc')]) false)) _ (blocked s) tt s1 eq_refl).
    unfold seq at 1, bind at 1. rewrite E. reflexivity. }
  rewrite Er. exists s'. reflexivity.
Qed.
