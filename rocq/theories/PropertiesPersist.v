(** Properties C118 and C119: the environment during a session; processes that cannot
    be created. *)
From Verif Require Import Base BaseFacts Lexer LexerSpec Ast Parser GrammarSpec.
From Verif Require Import Context Alias Expand ExpandSpec ExpandFacts ExpandLaws Jobs Shell Builtins Eval.
From Verif Require Import EvalSpec EvalFacts EvalLaws EvalKeeps RunSpec RunLaws PipeSpec PipeLaws ChildLaws PipeRun EvalFds EvalEnv.
From Verif Require Import JobsSpec JobsFacts JobsLaws JobsWait Main MainSpec MainLaws MainKeeps PropertiesBuiltins.
From Verif Require PropertiesMain PropertiesSession PropertiesEval PropertiesStatus PropertiesWait.
Local Open Scope Z_scope.

(** ** C118 *)

Lemma child_carried w : keeps true carried (child_signal w).
Proof.
  apply keeps_raw. intros s. unfold child_signal. destruct (_ || _)%bool; [apply carried_same; reflexivity|].
  destruct (sig_chld _ _ _); [eapply carried_event; reflexivity|apply carried_same; reflexivity|apply carried_same; reflexivity].
Qed.
Lemma main_carried w n k args ins : keeps true carried (main w n k args ins).
Proof.
  apply (ks_main _ _ carried_pre).
  - apply evaluate_carried.
  - intros A p bad m Hb Hm. apply (keeps_bind _ _ carried_pre); [apply ke_open|]. intros [f|]; [apply ke_while; exact Hm|exact Hb].
  - intros s t f _. apply carried_same; reflexivity.
  - intros t. apply keeps_change. intros s. apply carried_same; reflexivity.
  - apply keeps_change. intros s. apply carried_same; reflexivity.
  - intros p. unfold try_cm. apply (keeps_try _ _ carried_pre). intros s i E. destruct (add_var_pos _ _ _); [|discriminate].
    injection E as <-. apply carried_same; reflexivity.
  - apply keeps_change. intros s. apply carried_same; reflexivity.
  - apply keeps_raw. intros s. eapply carried_event; reflexivity.
  - apply child_carried.
  - intros p. apply ke_open.
Qed.

(** Every process a session starts gets an environment with all the names of the one
    the shell was started with; and one that programs can be given. *)
Theorem C118_inherited : forall w n k args ins root cwd ppid pid env fds o s' i c r,
  main w n k args ins (Shell (fresh_image root cwd ppid pid env fds) []) = (o, s') -> In (i, c, r) (forks (trace s')) ->
  (forall x, sget x env <> None -> sget x (Shell.env i) <> None) /\ (proper env -> proper (Shell.env i)).
Proof.
  intros w n k args ins root cwd ppid pid env fds o s' i c r H Hin.
  destruct (main_carried w n k args ins _ o s' H (or_introl eq_refl)) as [_ (new & Htr & Hf)].
  cbn [trace] in Htr. rewrite app_nil_r in Htr. subst new. rewrite Forall_forall in Hf. exact (Hf _ Hin).
Qed.
(** After [export], all processes that are started in the rest of the session get the
    names, whatever is typed. *)
Theorem C118_exported : forall w d ws y ys kvs n ins s o s', PropertiesSession.has_prompt s ->
  sget (lit "export") (al (im s)) = None -> Forall written_arg ws -> Forall2 (ordinary (expand_var (cm (im s)))) ws (y :: ys) ->
  ContextSpec.cm_wf (cm (im s)) -> no_p y -> definitions (y :: ys) kvs -> n = S d ->
  interactive_loop w n (TLine (r_words (lit "export" :: ws)) :: ins) s = (o, s') ->
  exists new, trace s' = new ++ trace s /\
    forall i c r x v, In (i, c, r) (forks new) -> In (x, v) kvs -> sget x (env i) <> None.
Proof.
  intros w d ws y ys kvs n ins s o s' Hps Ha Hw Ho Hwf Hp Hd -> H.
  destruct (C91_export_partial w d ws y ys kvs s Ha Hw Ho Hwf Hp Hd) as (s1 & E & He & _ & _ & _ & _ & _ & _ & Htr).
  cbn [interactive_loop] in H. rewrite (bind_ok (look cm) _ s (cm (im s)) s eq_refl) in H.
  unfold PropertiesSession.has_prompt in Hps. unfold expand_var at 1 in H. destruct (get_var (lit "PS1") (cm (im s))) as [v1|]; [|congruence].
  rewrite (seq_ok (unwrap (Some _)) _ s _ s eq_refl) in H.
  assert (El : run_line w (S d) (r_words (lit "export" :: ws)) s = (OOk tt, s1)).
  { rewrite run_line_eq, drop_error, E. unfold exec_text in E. destruct (parse _); [reflexivity|discriminate]. }
  rewrite (seq_ok _ _ _ _ _ El) in H.
  assert (K : keeps true carried (interactive_loop w (S d) ins)).
  { apply (ks_loop _ _ carried_pre); [apply evaluate_carried|apply keeps_raw; intros s0; eapply carried_event; reflexivity|apply child_carried]. }
  destruct (K _ _ _ H (or_introl eq_refl)) as [_ (new & Hn & Hf)]. exists new. split; [rewrite Hn, Htr; reflexivity|].
  intros i c r x v Hin Hkv. rewrite Forall_forall in Hf. destruct (Hf _ Hin) as [G _]. apply G. rewrite He.
  assert (Hl : last_of x kvs <> None).
  { clear -Hkv. induction kvs as [|[k u] kvs IH]; [destruct Hkv|]. cbn [last_of]. destruct (last_of x kvs) eqn:L; [discriminate|].
    destruct Hkv as [Hkv|Hkv]; [injection Hkv as -> ->; rewrite str_eqb_refl; discriminate|]. destruct (IH Hkv eq_refl). }
  destruct (last_of x kvs); [discriminate|congruence].
Qed.
Example C118_example :
  let s := Shell PropertiesMain.ex_fresh [] in
  let lines := [TLine (lit " export A=1"); TLine (lit "unset A"); TLine (lit "f() { cat | wc ; }"); TLine (lit "f"); TClosed] in
  let s' := snd (main (PropertiesMain.plain_os "") 5 0 [lit "rsh"] lines s) in
  fst (main (PropertiesMain.plain_os "") 5 0 [lit "rsh"] lines s) = OOk tt /\
  r_words [lit "export"; lit "A=1"] = lit " export A=1" /\ PropertiesSession.has_prompt s /\
  definitions [lit "A=1"] [(lit "A", lit "1")] /\ no_p (lit "A=1") /\ proper (env (im s)) /\
  map (fun f => let '(i, _, _) := f in (sget (lit "A") (env i), sget (lit "HOME") (env i))) (forks (trace s')) =
    [(Some (lit "1"), Some (lit "/h")); (Some (lit "1"), Some (lit "/h"))].
Proof.
  split; [vm_compute; reflexivity|]. split; [reflexivity|]. split; [discriminate|]. split.
  { apply Forall2_cons; [|apply Forall2_nil]. split; [split; [reflexivity|split; [reflexivity|cbn; auto]]|]. split; [discriminate|].
    split; [intros F; cbn in F; intuition discriminate|]. split; [intros F; cbn in F; intuition discriminate|reflexivity]. }
  split; [intros a b E; apply (f_equal (contains_str (lit "-p"))) in E;
    assert (G : contains_str (lit "-p") (a ++ lit "-p" ++ b) = true) by (apply contains_str_iff; exists a, b; reflexivity);
    rewrite G in E; discriminate|].
  split; [|vm_compute; reflexivity]. split; [repeat constructor; cbn; intuition discriminate|].
  repeat constructor; cbn; intuition discriminate.
Qed.

(** ** C119 *)

Lemma wait_no_children v id n rest s j : nget id (job_table (jobs s)) = Some j -> state j = Running -> stop_status j = StillAlive ->
  wait_for_job v id (repeat AIntr n ++ AFail :: rest) s = WDone StillAlive (with_sigchld false (with_masked true s)) rest.
Proof.
  intros Hj Hs Ht. unfold wait_for_job, do_wait, get_job. rewrite Hj, Hs. cbn [state_eqb negb andb].
  cbn [wait_loop]. unfold wait_one. change (repeat AIntr n ++ AFail :: rest) with (intr n (AFail :: rest)).
  rewrite wait_process_intr. cbn [wait_process]. cbn [jobs with_sigchld with_masked]. rewrite Hj, Ht, Hs. reflexivity.
Qed.

(** A program that cannot be started, since no process can be created: nothing is
    run, the status stays what it was, and nothing is said. *)
Theorem C119_fork_refuted : forall w d b sc sc' s n rest,
  wf_pipeline (Pipeline b [CSimple sc] false) -> program (im s) sc sc' -> table (fds (im s)) ->
  basic (jobs (js (im s))) -> r_fork (w (trace s)) = None ->
  (forall i c, r_waits (w (EFork i c None :: trace s)) = repeat AIntr n ++ AFail :: rest) ->
  exists s', exec_text w (S d) (r_pipeline (Pipeline b [CSimple sc] false)) s = (OOk (exit_status (im s)), s') /\
    exit_status (im s') = exit_status (im s) /\ printed (js (im s')) = printed (js (im s)) /\
    forall k, nget k (job_table (jobs (js (im s')))) = nget k (job_table (jobs (js (im s)))).
Proof.
  intros w d b sc sc' s n rest Hw Hp Ht B Hf Hwt.
  rewrite exec_pipeline by exact Hw.
  rewrite (pipeline_programs w _ b [sc] [sc'] false s) by (try discriminate; repeat constructor; exact Hp).
  rewrite run_job_split by discriminate.
  set (id := next_job_id (jobs (js (im (blocked s))))).
  change (im (blocked s)) with (with_js (with_masked true (js (im s))) (im s)).
  set (i0 := with_js (with_masked true (js (im s))) (im s)).
  change (trace (blocked s)) with (trace s).
  set (p0 := process_new (sc_name sc' :: words_in sc') (sc_name sc') (sc_name sc')).
  set (jc := created false (map fst (map entry [sc'])) (blocked s)).
  set (c0 := Child sc' p0 (-1) (-1, -1) false).
  set (s1 := Shell (launching i0 jc (fds i0) (next_pipe i0)) (trace s)).
  set (s2 := Shell (launching i0 jc (fds i0) (next_pipe i0)) (EFork (im s1) c0 None :: trace s)).
  assert (Hl : launch w id false 0 (map entry [sc']) (-1) (-1, -1) s1 = (OOk tt, s2)).
  { cbn [map launch entry]. rewrite (bind_ok (ret (fst (-1, -1), -1)) _ s1 (-1, -1) s1 eq_refl).
    assert (Hfk : fork_child w (Child sc' p0 (-1) (-1, -1) false) s1 = (OOk None, s2)).
    { unfold fork_child, ask, bind, look, note, seq, ret. cbn [trace s1]. unfold bind. rewrite Hf. reflexivity. }
    unfold p0 in Hfk. rewrite (bind_ok _ _ _ _ _ Hfk). cbv iota.
    rewrite (seq_ok (ret tt) _ s2 tt s2 eq_refl). cbn [Z.leb Z.compare].
    rewrite (seq_ok (ret tt) _ s2 tt s2 eq_refl).
    rewrite (seq_ok (sys_close_ignored (snd (-1, -1))) _ s2 tt s2); [reflexivity|].
    unfold sys_close_ignored, change. cbn [snd fst]. unfold fd_close. cbn [im s2].
    destruct (nget (-1) (fds (launching i0 jc (fds i0) (next_pipe i0)))) as [dd|] eqn:En; [|reflexivity].
    exfalso. apply (proj2 Ht) in En. lia. }
  unfold id in Hl. rewrite (seq_ok _ _ _ _ _ Hl). fold id.
  assert (Bc : basic jc) by (apply create_basic; exact B).
  assert (Hcg : forall k, nget k (job_table jc) = if Z.eqb k id then Some (job_new [p0] id false) else nget k (job_table (jobs (js (im s))))).
  { intros k. unfold jc, created. rewrite create_get by exact B. reflexivity. }
  assert (Hfresh : nget id (job_table (jobs (js (im s)))) = None).
  { destruct (nget id (job_table (jobs (js (im s))))) as [j|] eqn:E; [|reflexivity].
    assert (1 <= id < next_job_id (jobs (js (im s)))) by (apply (b_next _ B); exists j; exact E). unfold id in *. cbn in *. lia. }
  assert (Hid : nget id (job_table jc) = Some (job_new [p0] id false)) by (rewrite Hcg, Z.eqb_refl; reflexivity).
  unfold finish.
  set (s3 := with_sigchld false (with_masked true (js (im s2)))).
  assert (Hwj : wait_job w id s2 = (OOk StillAlive, Shell (with_js s3 (im s2)) (EWait id :: trace s2))).
  { unfold wait_job. cbn [trace s2]. rewrite Hwt, (wait_no_children _ id n rest (js (im s2)) _ Hid eq_refl eq_refl). reflexivity. }
  set (s4 := Shell (with_js (shell_delete_job id s3) (im s2)) (EWait id :: trace s2)).
  assert (E : (st <- wait_job w id ;; sh_delete_job id ;; match st with Exited _ c => set_exit_status c | _ => ret tt end) s2 = (OOk tt, s4)).
  { rewrite (bind_ok _ _ _ _ _ Hwj). rewrite (seq_ok (sh_delete_job id) _ (Shell (with_js s3 (im s2)) (EWait id :: trace s2)) tt s4 eq_refl). reflexivity. }
  rewrite (seq_ok _ _ _ _ _ E). eexists. split; [reflexivity|]. split; [reflexivity|]. split; [reflexivity|].
  intros k. change (nget k (job_table (delete_job id jc)) = nget k (job_table (jobs (js (im s))))).
  unfold delete_job. rewrite Hid. cbn [processes job_new map]. cbn [job_table].
  change (is_stopped (stop_status (note_stop p0 (job_new [p0] id false)))) with false. cbn [job_table].
  rewrite nget_nremove, Hcg. destruct (Z.eqb_spec k id) as [->|]; [symmetry; exact Hfresh|reflexivity].
Qed.

Import PropertiesEval.
(** No process can be created, and there are none. *)
Definition ex_full : os := fun t =>
  let r := ex_reports 0 in
  Reports (r_isfile r) (r_open r) (r_read r) (r_chdir r) (r_cwd r) (r_kill r) (r_pipe r) None (r_exec r) (r_getpid r) [AIntr; AFail] (r_subst r).
Example C119_example :
  wf_pipeline (Pipeline false [CSimple (words_cmd (lit "a") [lit "x"])] false) /\
  program ex_image (words_cmd (lit "a") [lit "x"]) (SimpleCommand None (lit "a") (Some (Suffix [] [lit "x"]))) /\
  table (fds ex_image) /\ basic (jobs (js ex_image)) /\
  r_pipeline (Pipeline false [CSimple (words_cmd (lit "a") [lit "x"])] false) = lit " a x" /\
  fst (exec_text ex_full 5 (lit " a x") ex_shell) = OOk 0 /\
  map (fun f => p_argv (c_proc (snd (fst f)))) (forks (trace (snd (exec_text ex_full 5 (lit " a x && b") ex_shell)))) = [[lit "a"; lit "x"]; [lit "b"]].
Proof.
  destruct PropertiesStatus.C42_example as (H1 & H2 & H3 & H4 & _ & H5 & _).
  split; [exact H1|]. split; [exact H2|]. split; [exact H3|]. split; [exact H4|]. split; [exact H5|]. split; vm_compute; reflexivity.
Qed.

(** ** C121 *)

(** The system has no pipe for the first of a pipeline: nothing is started and an
    error is returned, but the job stays among the jobs, running, with processes
    that do not exist, and signals stay blocked. *)
Theorem C121_job_refuted : forall w d b bg x y scs x' y' scs' s,
  wf_pipeline (Pipeline b (map CSimple (x :: y :: scs)) bg) ->
  Forall2 (program (im s)) (x :: y :: scs) (x' :: y' :: scs') ->
  basic (jobs (js (im s))) -> r_pipe (w (trace s)) = false ->
  exists s' j, exec_text w (S d) (r_pipeline (Pipeline b (map CSimple (x :: y :: scs)) bg)) s
      = (OErr (EText (lit "Failed to create pipe")), s') /\
    trace s' = trace s /\ finishing (im s) (im s') /\ masked (js (im s')) = true /\ basic (jobs (js (im s'))) /\
    nget (next_job_id (jobs (js (im s)))) (job_table (jobs (js (im s')))) = Some j /\
    unfinished j /\ processes j <> [] /\ Forall (fun q => p_status q = None /\ p_pid q = -1) (processes j) /\
    (forall k, k <> next_job_id (jobs (js (im s))) ->
       nget k (job_table (jobs (js (im s')))) = nget k (job_table (jobs (js (im s))))).
Proof.
  intros w d b bg x y scs x' y' scs' s Hw HF B Hp.
  rewrite exec_pipeline by exact Hw.
  rewrite (pipeline_programs w _ b (x :: y :: scs) (x' :: y' :: scs') bg s) by (try discriminate; exact HF).
  rewrite run_job_split by discriminate.
  set (ps := map fst (map entry (x' :: y' :: scs'))).
  set (s1 := Shell (launching (im (blocked s)) (created bg ps (blocked s)) (fds (im (blocked s))) (next_pipe (im (blocked s)))) (trace (blocked s))).
  assert (Hl : launch w (next_job_id (jobs (js (im (blocked s))))) bg 0 (map entry (x' :: y' :: scs')) (-1) (-1, -1) s1
    = (OErr (EText (lit "Failed to create pipe")), s1)).
  { cbn [map launch entry]. unfold make_pipe, bind, ask. change (trace s1) with (trace s). rewrite Hp. reflexivity. }
  exists s1, (job_new ps (next_job_id (jobs (js (im s)))) bg).
  split; [unfold seq, bind; rewrite Hl; reflexivity|].
  split; [reflexivity|]. split; [repeat split|]. split; [reflexivity|].
  assert (Bc : basic (created bg ps (blocked s))) by (apply create_basic; exact B).
  assert (Hg : forall k, nget k (job_table (created bg ps (blocked s))) =
    if Z.eqb k (next_job_id (jobs (js (im s)))) then Some (job_new ps (next_job_id (jobs (js (im s)))) bg) else nget k (job_table (jobs (js (im s))))).
  { intros k. unfold created. rewrite create_get by exact B. reflexivity. }
  split; [exact Bc|]. split; [etransitivity; [apply Hg|rewrite Z.eqb_refl; reflexivity]|].
  split; [unfold unfinished; cbn; intros [F|F]; discriminate|]. split; [discriminate|]. split.
  - apply Forall_forall. intros q Hq. cbn [processes job_new] in Hq. unfold ps in Hq. rewrite map_map in Hq.
    apply in_map_iff in Hq. destruct Hq as (sc & <- & _). split; reflexivity.
  - intros k Hk. etransitivity; [apply Hg|]. destruct (Z.eqb_spec k (next_job_id (jobs (js (im s))))); [contradiction|reflexivity].
Qed.

(** Whatever the system does afterwards ([w2]), the shell crashes at the first report
    of the next foreground pipeline. *)
Theorem C121_crash_refuted : forall w d b bg x y scs x' y' scs' s w2 d2 b2 cs cs' qs n e p rest,
  wf_pipeline (Pipeline b (map CSimple (x :: y :: scs)) bg) ->
  Forall2 (program (im s)) (x :: y :: scs) (x' :: y' :: scs') ->
  table (fds (im s)) -> basic (jobs (js (im s))) -> r_pipe (w (trace s)) = false ->
  cs <> [] -> wf_pipeline (Pipeline b2 (map CSimple cs) false) -> Forall2 (program (im s)) cs cs' ->
  PropertiesWait.answering w2 (trace s) qs (repeat AIntr n ++ AStatus e :: rest) ->
  List.length qs = List.length cs -> event_of e p -> 0 < p ->
  (forall k j, nget k (job_table (jobs (js (im s)))) = Some j -> unfinished j -> ~ has_pid p j) ->
  fst (exec_text w2 (S d2) (r_pipeline (Pipeline b2 (map CSimple cs) false))
    (snd (exec_text w (S d) (r_pipeline (Pipeline b (map CSimple (x :: y :: scs)) bg)) s))) = OPanic.
Proof.
  intros w d b bg x y scs x' y' scs' s w2 d2 b2 cs cs' qs n e p rest Hw HF Ht B Hp Hne Hw2 HF2 Ha Hl He Hp0 Hno.
  destruct (C121_job_refuted w d b bg x y scs x' y' scs' s Hw HF B Hp) as (s' & j & E & Et & Hf & _ & B' & Hj & Hu & Hps & Hall & Hk).
  rewrite E. cbn [snd]. destruct (processes j) as [|q ps] eqn:Ej; [congruence|].
  destruct Hf as (Hcm & Hal & _ & _ & Hfd & _).
  eapply (PropertiesWait.C42_running_refuted w2 d2 b2 cs cs' s' qs n e p rest); try eassumption.
  - clear -HF2 Hcm Hal. induction HF2; constructor; [|assumption]. eapply program_same; eassumption.
  - rewrite Hfd. exact Ht.
  - rewrite Et. exact Ha.
  - intros k jk Hjk Huk. destruct (Z.eq_dec k (next_job_id (jobs (js (im s))))) as [->|Hkn].
    + rewrite Hj in Hjk. injection Hjk as <-. intros (r & Hr & Er). rewrite Ej in Hr. rewrite Forall_forall in Hall.
      destruct (Hall r Hr). lia.
    + rewrite (Hk k Hkn) in Hjk. exact (Hno k jk Hjk Huk).
  - inversion Hall. tauto.
Qed.

Import PropertiesWait.
(** No pipe can be made. *)
Definition ex_no_pipe : os := fun t =>
  let r := ex_reports 0 in
  Reports (r_isfile r) (r_open r) (r_read r) (r_chdir r) (r_cwd r) (r_kill r) false (r_fork r) (r_exec r) (r_getpid r) (r_waits r) (r_subst r).
Example C121_example :
  wf_pipeline (Pipeline false (map CSimple ex_three) false) /\
  Forall2 (program (im ex_shell)) ex_three ex_names /\ table (fds (im ex_shell)) /\ basic (jobs (js (im ex_shell))) /\
  answering (ex_answers ex_first) (trace ex_shell) [100%positive; 101%positive; 102%positive] ex_first /\
  ex_first = repeat AIntr 1 ++ AStatus (Exited 100 3) :: tl (tl ex_first) /\
  fst (exec_text ex_no_pipe 1 (lit " a x | b x | c x") ex_shell) = OErr (EText (lit "Failed to create pipe")) /\
  fst (exec_text (ex_answers ex_first) 1 (lit " a x | b x | c x") ex_shell) = OOk 3 /\
  fst (exec_text (ex_answers ex_first) 1 (lit " a x | b x | c x") (snd (exec_text ex_no_pipe 1 (lit " a x | b x | c x") ex_shell))) = OPanic.
Proof.
  destruct C42_first_example as (H1 & H2 & H3 & _). split; [exact H1|]. split; [exact H2|].
  destruct C119_example as (_ & _ & Ht & Hb & _). split; [exact Ht|]. split; [exact Hb|].
  split; [exact H3|]. split; [reflexivity|].
  split; [vm_compute; reflexivity|]. split; vm_compute; reflexivity.
Qed.

Print Assumptions C118_inherited.
Print Assumptions C118_exported.
Print Assumptions C119_fork_refuted.
Print Assumptions C121_job_refuted.
Print Assumptions C121_crash_refuted.
