(** When the system gives no number twice, the number of every process stands for its
    job, at every moment of every run. *)
From Verif Require Import Base BaseFacts Ast Parser Context Alias Expand Jobs JobsSpec JobsFacts JobsLaws Shell Builtins Eval.
From Verif Require Import EvalSpec EvalFacts EvalLaws EvalKeeps EvalStack EvalJobs EvalPids.
From Verif Require Main MainKeeps.
Local Open Scope Z_scope.

(** The numbers the system has given. *)
Definition given (t : list event) : list Z := flat_map (fun e => match e with EFork _ _ (Some q) => [Zpos q] | _ => [] end) t.
(** The numbers of the processes of a job. *)
Definition numbers (jc : job_control) (id : Z) : option (list Z) := option_map (fun j => map p_pid (processes j)) (nget id (job_table jc)).
(** No two processes of a job have the same number. *)
Definition distinct (jc : job_control) : Prop := forall id l, numbers jc id = Some l ->
  forall a b p, nth_error l a = Some p -> nth_error l b = Some p -> p <> -1 -> a = b.
Definition exact (s : shell) : Prop :=
  (basic (jobs (js (im s))) /\ distinct (jobs (js (im s)))) /\ (forall p, p <> -1 -> mine p (jobs (js (im s)))) /\
  (forall p, p <> -1 -> nget p (pid_to_job (jobs (js (im s)))) <> None -> In p (given (trace s))).

(** A job that is there after such operations was there before, with the same numbers. *)
Lemma moves_numbers a b : moves a b -> basic a -> forall id l, numbers b id = Some l -> numbers a id = Some l.
Proof.
  induction 1 as [jc|jc jc' jc'' T M IH|d jc jc' M IH]; intros B id l H; [exact H| |].
  - specialize (IH (tweak_basic _ _ B T) id l H). unfold numbers in *. pose proof (tw_jobs _ _ T id) as O.
    destruct (nget id (job_table jc)) as [j|], (nget id (job_table jc')) as [j'|]; cbn in *; try contradiction; try discriminate.
    rewrite <- (same_job_pids _ _ O). exact IH.
  - specialize (IH (delete_basic d _ B) id l H). revert IH. unfold numbers.
    destruct (delete_job_deletion d jc) as [E|j E Ep|j p0 ps st E Ep Est Hst|j p0 ps E Ep Hp Hst]; cbn [job_table put_table].
    + auto.
    + rewrite nget_nremove. destruct (Z.eqb id d); [discriminate|auto].
    + rewrite nget_ninsert by (apply nsorted_nremove, B). rewrite nget_nremove. destruct (Z.eqb_spec id d) as [->|_]; [rewrite E; auto|auto].
    + rewrite nget_nremove. destruct (Z.eqb id d); [discriminate|auto].
Qed.
Lemma step_distinct o s s' : starts_one o = false -> basic (jobs s) -> step o s = Some s' -> distinct (jobs s) -> distinct (jobs s').
Proof.
  intros Hno B Hst D. pose proof (step_effect _ _ _ B Hst) as He. clear Hst.
  destruct He as [cmds bg|id i q|o jc Hm|fg killed id j Ej]; [|discriminate| |].
  - intros id l. unfold numbers. rewrite create_get by exact B. destruct (Z.eqb id (next_job_id (jobs s))); [|apply D].
    cbn [option_map job_new processes]. intros E. injection E as <-. intros x y p Hx _ Hp. apply nth_error_In, new_pids in Hx. contradiction.
  - intros id l E. apply (D id l). exact (moves_numbers _ _ Hm B id l E).
  - intros k l. unfold numbers, put_job. cbn [job_table put_table]. rewrite nget_ninsert by apply B.
    unfold get_job in Ej. pose proof (D k) as Dk. unfold numbers in Dk. destruct (Z.eqb_spec k id) as [->|_]; [rewrite Ej in Dk|]; exact (Dk l).
Qed.
Lemma set_pid_at_length i p ps : List.length (set_pid_at i p ps) = List.length ps.
Proof. revert i. induction ps as [|x ps IH]; intros [|i]; cbn; auto. Qed.
Lemma set_pid_at_other i p ps n : n <> i -> nth_error (set_pid_at i p ps) n = nth_error ps n.
Proof. revert i n. induction ps as [|x ps IH]; intros [|i] [|n] H; cbn; auto; try lia. Qed.
Lemma set_pid_at_after i p ps n : (i < n)%nat -> nth_error (set_pid_at i p ps) n = nth_error ps n.
Proof. intros H. apply set_pid_at_other. lia. Qed.
Lemma started_distinct id i q jc : basic jc -> distinct jc -> (forall k j, nget k (job_table jc) = Some j -> ~ has_pid q j) -> distinct (started id i q jc).
Proof.
  intros B D Hno. destruct (get_job id jc) as [j|] eqn:Ej; [|unfold started; rewrite Ej; exact D].
  intros k l. unfold numbers. rewrite (started_get _ _ _ _ j _ B Ej). destruct (Z.eqb_spec k id) as [->|_]; [|apply D].
  cbn [option_map with_processes processes]. intros E. injection E as <-.
  assert (Dj := D id (map p_pid (processes j))). unfold numbers in Dj. unfold get_job in Ej. rewrite Ej in Dj. specialize (Dj eq_refl).
  assert (N : forall n, nth_error (map p_pid (processes j)) n <> Some q).
  { intros n En. apply nth_error_In, in_map_iff in En. destruct En as (x & E1 & E2). apply (Hno _ _ Ej). exists x. split; assumption. }
  assert (S1 : forall n p, n <> i -> nth_error (map p_pid (set_pid_at i q (processes j))) n = Some p -> nth_error (map p_pid (processes j)) n = Some p).
  { intros n p Hn. rewrite !nth_error_map, set_pid_at_other by exact Hn. auto. }
  assert (S2 : forall p, nth_error (map p_pid (set_pid_at i q (processes j))) i = Some p -> p = q).
  { intros p. rewrite nth_error_map. clear. revert i. induction (processes j) as [|x l IH]; intros [|i]; cbn; try discriminate; [intros E; injection E as <-; reflexivity|apply IH]. }
  intros a b p Ha Hb Hp. destruct (Nat.eq_dec a i) as [->|Na], (Nat.eq_dec b i) as [->|Nb]; [reflexivity| | |].
  - apply S2 in Ha. subst p. destruct (N b (S1 b q Nb Hb)).
  - apply S2 in Hb. subst p. destruct (N a (S1 a q Na Ha)).
  - exact (Dj a b p (S1 _ _ Na Ha) (S1 _ _ Nb Hb) Hp).
Qed.

(** No operation but a start brings a number. *)
Lemma moves_keys a b : moves a b -> forall p, nget p (pid_to_job b) <> None -> nget p (pid_to_job a) <> None.
Proof.
  induction 1 as [jc|jc jc' jc'' T M IH|id jc jc' M IH]; intros p H; auto.
  - rewrite <- (tw_pid _ _ T). apply IH, H.
  - specialize (IH p H). revert IH. destruct (delete_job_deletion id jc); cbn; auto. rewrite nget_fold_remove. destruct (existsb _ _); [congruence|auto].
Qed.
Lemma step_keys o s s' p : p <> -1 -> starts_one o = false -> basic (jobs s) -> step o s = Some s' ->
  nget p (pid_to_job (jobs s')) <> None -> nget p (pid_to_job (jobs s)) <> None.
Proof.
  intros Hp Hno B Hst. pose proof (step_effect _ _ _ B Hst) as He. clear Hst.
  destruct He as [cmds bg|id i q|o jc Hm|fg killed id j Ej]; [|discriminate|exact (moves_keys _ _ Hm p)|auto].
  cbn [pid_to_job create_job]. rewrite nget_fold_insert by apply B.
  change (existsb (fun q0 => Z.eqb (p_pid q0) p) (map new_process cmds)) with (has_pidb p (map new_process cmds)).
  destruct (has_pidb p (map new_process cmds)) eqn:Eh; [|auto].
  exfalso. apply Hp. apply (has_pidb_true p (job_new (map new_process cmds) 0 false)) in Eh.
  rewrite has_pid_map in Eh. eapply new_pids; exact Eh.
Qed.

Lemma given_later t t' : later t t' -> incl (given t) (given t').
Proof. intros [new ->] p H. unfold given in *. rewrite flat_map_app. apply in_or_app. right. exact H. Qed.
Definition ours (s s' : shell) : Prop := exact s -> exact s'.
Lemma ours_pre : preorder ours.
Proof. constructor; unfold ours; auto. Qed.
Lemma ours_same s s' : js (im s') = js (im s) -> later (trace s) (trace s') -> ours s s'.
Proof.
  intros E L (B & H1 & H2). unfold exact. rewrite E. split; [exact B|]. split; [exact H1|]. intros p Hp Hk. apply (given_later _ _ L), H2; assumption.
Qed.
Lemma ours_one o s s' : starts_one o = false -> later (trace s) (trace s') -> (basic (jobs (js (im s))) -> step o (js (im s)) = Some (js (im s'))) -> ours s s'.
Proof.
  intros Ho L E ([B D] & H1 & H2). pose proof (E B) as Es. split; [split; [eapply effect_basic; [exact B|eapply step_effect; [exact B|exact Es]]|eapply step_distinct; eassumption]|]. split.
  - intros p Hp. eapply (step_mine p Hp); [exact Ho|exact B|apply H1, Hp|exact Es].
  - intros p Hp Hk. apply (given_later _ _ L). apply H2; [exact Hp|]. eapply step_keys; [exact Hp|exact Ho|exact B|exact Es|exact Hk].
Qed.
Ltac grown := first [exists []; reflexivity | eexists; reflexivity | eexists [_]; reflexivity].
Ltac same_or_grown := first [reflexivity | grown].

Notation keepo := (keeps true ours).
Ltac ours_leaf :=
  match goal with
  | |- keeps _ _ interrupts_off => apply keeps_change; intro; apply ours_one with (OMask true); same_or_grown
  | |- keeps _ _ interrupts_on => apply keeps_change; intro; apply ours_one with (OMask false); same_or_grown
  | |- keeps _ _ (say ?t) => apply keeps_change; intro; apply ours_one with (OPrint t); same_or_grown
  | |- keeps _ _ (sh_delete_job ?t) => apply keeps_change; intro; apply ours_one with (ODelete t); same_or_grown
  | |- keeps _ _ (change _) => apply keeps_change; intro; apply ours_same; same_or_grown
  | |- keeps _ _ (on_cm _) => apply keeps_change; intro; apply ours_same; same_or_grown
  | |- keeps _ _ (set_exit_status _) => apply keeps_change; intro; apply ours_same; same_or_grown
  | |- keeps _ _ get_exit_code => apply (keeps_look _ _ ours_pre)
  | |- keeps _ _ (note _) => apply keeps_note; intro; apply ours_same; same_or_grown
  | |- keeps _ _ (try_cm _) => apply (keeps_try_cm _ _ _ ours_pre); intros; apply ours_same; same_or_grown
  | |- keeps _ _ (expand_command _ _) => apply (keeps_expand _ _ ours_pre); intros; apply ours_same; same_or_grown
  | |- keeps _ _ (fun s => (OOk _, Shell (im s) _)) => apply keeps_raw; intro; apply ours_same; same_or_grown
  end.
Ltac ko := repeat first [ours_leaf|keep_step ours_pre].

Lemma ko_pipe w : keepo (make_pipe w).
Proof. unfold make_pipe. ko. apply keeps_raw. intros s. apply ours_same; same_or_grown. Qed.
Lemma ko_open w f h : keepo (sys_open w f h).
Proof. unfold sys_open. ko. apply keeps_raw. intros s. apply ours_same; same_or_grown. Qed.
Lemma ko_close_ignored a : keepo (sys_close_ignored a).
Proof. apply keeps_change. intros s. apply ours_same; [apply close_ignored_js|grown]. Qed.
Lemma ko_while {A} f (m : M A) : keepo m -> keepo (while_open f m).
Proof. intros H. unfold while_open. ko; apply ko_close_ignored. Qed.
Lemma ko_say_all ts : keepo (say_all ts).
Proof. induction ts; cbn [say_all]; ko. Qed.
Lemma ko_lookup w c : keepo (sh_lookup_command w c).
Proof. unfold sh_lookup_command. ko. Qed.
Lemma ko_set_env k v : keepo (set_env k v).
Proof.
  unfold set_env. apply (keeps_try _ _ ours_pre). intros s i H. destruct (_ || _)%bool; [discriminate|].
  injection H as <-. apply ours_same; same_or_grown.
Qed.
Lemma ko_execve w a v e : keepo (temp_execve w a v e).
Proof. unfold temp_execve, fork_reset. ko. apply ko_lookup. Qed.
Lemma ko_sys_close a : keepo (sys_close a).
Proof.
  unfold sys_close. apply (keeps_try _ _ ours_pre). intros s i H. destruct (fd_close _ _); [|discriminate].
  injection H as <-. apply ours_same; same_or_grown.
Qed.

(** Waiting for a job that exists. *)
Lemma wait_ours w id s o s' : (basic (jobs (js (im s))) -> get_job id (jobs (js (im s))) <> None) ->
  wait_job w id s = (o, s') -> ours s s'.
Proof.
  intros Hj H Hm. unfold wait_job in H.
  destruct (wait_for_job _ _ _ _) as [st j r| |] eqn:E; injection H as <- <-; [|assumption|assumption].
  pose proof (proj1 (proj1 Hm)) as Hb. specialize (Hj Hb).
  eapply (ours_one (OWait (expand_var (cm (im s)) (lit "PS4")) id (r_waits (w (trace s)))) s (Shell (with_js j (im s)) (EWait id :: trace s)) eq_refl); [exists [EWait id]; reflexivity| |exact Hm].
  intros _. cbn [step]. destruct (get_job id (jobs (js (im s)))); [|congruence]. rewrite E. reflexivity.
Qed.

Section Rec.
Context (w : os) (Hnew : forall t q, r_fork (w t) = Some q -> ~ In (Zpos q) (given t)) (rec : list and_or -> M Z).
Hypothesis Hrec : forall l, keepo (rec l).

Lemma ko_complete c : keepo (eval_complete rec c).
Proof. unfold eval_complete. ko. Qed.
Lemma ko_parse_text t : keepo (parse_text t).
Proof. unfold parse_text. ko. Qed.

Lemma ko_fg_or_bg fg by_job n : keepo (fg_or_bg w fg by_job n).
Proof.
  intros s o s' H _ Hm. pose proof (proj1 (proj1 Hm)) as Hb. unfold fg_or_bg in H. unfold bind at 1, look in H.
  destruct (if by_job then _ else _) as [j|] eqn:Ej.
  2: { unfold fail in H. destruct by_job; cbn in H; injection H as <- <-; assumption. }
  destruct (borrowed j); [cbn in H; injection H as <- <-; assumption|].
  apply (found_job _ _ _ _ Hb) in Ej. unfold bind at 1, ask in H.
  set (killed := r_kill (w (trace s))) in *.
  unfold seq at 1, bind at 1 in H. cbv beta iota in H.
  unfold seq at 1, bind at 1, try_ in H. cbn [im] in H.
  destruct (resume fg killed (job_id j) (js (im s))) as [j1|] eqn:Er.
  2: { cbn in H. injection H as <- <-. revert Hm. apply (ours_same s); [reflexivity|eexists; reflexivity]. }
  assert (W : forall s1, js (im s1) = j1 -> later (trace s) (trace s1) -> ours s s1).
  { intros s1 E HL. apply ours_one with (OResume fg killed (job_id j)); [reflexivity|exact HL|]. intros _. cbn. rewrite Er, E. reflexivity. }
  destruct fg; [|injection H as <- <-; apply W; [reflexivity|eexists; reflexivity|exact Hm]].
  assert (L : get_job (job_id j) (jobs j1) <> None).
  { apply resume_spec in Er. destruct Er as [[E _]|(j2 & E & E1)]; [congruence|]. rewrite E1.
    unfold get_job, put_job. cbn. rewrite nget_ninsert by apply Hb. rewrite Z.eqb_refl. discriminate. }
  match type of H with _ ?x = _ => set (s1 := x) in * end.
  assert (W1 : ours s s1) by (apply W; [reflexivity|eexists; reflexivity]).
  apply seq_inv in H. destruct H as [(st & s2 & H1 & H2)|(o1 & H1 & F & ->)].
  - injection H2 as <- <-. eapply (pre_trans _ ours_pre); [exact W1| |exact Hm].
    eapply wait_ours; [intros _; exact L|exact H1].
  - eapply (pre_trans _ ours_pre); [exact W1| |exact Hm]. eapply wait_ours; [intros _; exact L|exact H1].
Qed.
Lemma ko_fgbg sc : keepo (fgbg w sc).
Proof. unfold fgbg, word_at, fail. ko. apply ko_fg_or_bg. Qed.

Lemma ko_context_file f : keepo (create_context_from_file w rec f).
Proof.
  unfold create_context_from_file. ko; [apply ko_open|]. apply ko_while. ko; first [apply ko_parse_text|apply ko_complete].
Qed.
Lemma ko_export_words ws : keepo (export_words ws).
Proof. induction ws; cbn [export_words]; unfold export_word; ko; apply ko_set_env. Qed.
Lemma ko_export sc : keepo (export_cmd w rec sc).
Proof.
  unfold export_cmd, print_env, export_context, fail.
  ko; first [apply ko_say_all|apply ko_context_file|apply ko_export_words].
Qed.
Lemma ko_source_args args : forall i, keepo (source_args i args).
Proof. induction args; intros i; cbn [source_args]; ko; apply IHargs. Qed.
Lemma ko_source sc : keepo (source_cmd w rec sc).
Proof.
  unfold source_cmd, fail. ko; try apply ko_source_args; try apply ko_lookup; try apply ko_open.
  apply ko_while. ko; first [apply ko_parse_text|apply ko_complete].
Qed.
Lemma ko_exec sc : keepo (exec_cmd w sc).
Proof. unfold exec_cmd, exec_opts1, exec_opts2, word_at, fail. cbv zeta. ko; apply ko_execve. Qed.
Lemma ko_builtin sc : keepo (call_builtin w rec sc).
Proof.
  unfold call_builtin. cbv zeta.
  repeat match goal with |- keeps _ _ (if ?b then _ else _) => destruct b end;
    first [apply ko_fgbg|apply ko_export|apply ko_exec|apply ko_source|idtac];
    unfold change_directory, quit, save_history, return_cmd, jobs_cmd, alias_cmd, unalias_cmd, eval_cmd, unset_cmd, pwd, readonly_cmd, readonly_print,
      print_vars, print_readonly_functions, assignment_cmd, display_aliases, word_at, fail; ko;
    try apply ko_say_all; try apply ko_parse_text; try apply ko_complete.
  apply (keeps_try _ _ ours_pre). intros ? ? Hx. destruct (alias_builtin _ _); [|discriminate].
  injection Hx as <-. apply ours_same; same_or_grown.
Qed.
Lemma ko_function sc : keepo (eval_function rec sc).
Proof. unfold eval_function. ko. Qed.
Lemma ko_command c : keepo (eval_command w rec c).
Proof. unfold eval_command, eval_simple_command, eval_builtin. ko. apply ko_builtin. Qed.
Lemma ko_gather cs : keepo (gather w rec cs).
Proof. induction cs; cbn [gather]; ko. apply ko_command. Qed.
Lemma ko_run_functions cs : keepo (run_functions rec cs).
Proof. induction cs; cbn [run_functions]; ko. apply ko_function. Qed.


(** The processes of the job from the one with the index [i] have no number yet. *)
Definition waits_for (id : Z) (i m : nat) (s : shell) : Prop :=
  exists j, get_job id (jobs (js (im s))) = Some j /\ List.length (processes j) = (i + m)%nat /\
    forall n q, (i <= n)%nat -> nth_error (processes j) n = Some q -> p_pid q = -1.
Lemma waits_same id i m s s' : js (im s') = js (im s) -> waits_for id i m s -> waits_for id i m s'.
Proof. intros E. unfold waits_for. rewrite E. auto. Qed.
Lemma waits_next id i m s : waits_for id i (S m) s -> waits_for id (S i) m s.
Proof. intros (j & H1 & H2 & H3). exists j. split; [exact H1|]. split; [lia|]. intros n q Hn. apply H3. lia. Qed.
Definition start_one (id : Z) (i : nat) (r : option positive) : M unit := match r with Some q => on_jobs (started id i (Zpos q)) | None => ret tt end.
Lemma fork_starts id i m c s o s' : (r <- fork_child w c ;; start_one id i r) s = (o, s') -> exact s -> waits_for id i (S m) s ->
  o = OOk tt /\ exact s' /\ waits_for id (S i) m s'.
Proof.
  intros H ([B D] & H1 & H2) Hw. unfold fork_child, ask, bind, look, note, seq, ret, bind in H.
  destruct (r_fork (w (trace s))) as [q|] eqn:Eq.
  2:{ injection H as <- <-. split; [reflexivity|]. split; [|apply waits_next, Hw]. split; [split; assumption|]. split; [exact H1|exact H2]. }
  unfold start_one, on_jobs, change in H. cbn [im trace] in H. injection H as <- <-. split; [reflexivity|].
  assert (Hno : forall k j, nget k (job_table (jobs (js (im s)))) = Some j -> ~ has_pid (Zpos q) j).
  { intros k j Ej Hh. apply (Hnew _ _ Eq). apply H2; [discriminate|].
    assert (X : nget (Zpos q) (pid_to_job (jobs (js (im s)))) = Some k) by (apply H1; [discriminate|exists j; split; assumption]). rewrite X. discriminate. }
  destruct Hw as (j & Ej & Hlen & Hfree).
  destruct (nth_error (processes j) i) as [x|] eqn:Ex; [|apply nth_error_None in Ex; lia].
  pose proof (Hfree i x (Nat.le_refl i) Ex) as Hx.
  split; [|exists (with_processes (set_pid_at i (Zpos q) (processes j)) j); split; [|split]].
  - split; [split; [apply started_basic, B|exact (started_distinct id i (Zpos q) _ B D Hno)]|]. split.
    + intros p Hp. refine (_ : mine p (started id i (Zpos q) (jobs (js (im s))))).
      assert (P : pids_ok (jobs (with_jobs (started id i (Zpos q) (jobs (js (im s)))) (js (im s))))).
      { eapply (step_pids (OStart id i (Zpos q)) (js (im s)) _ B); [intros p1 k1 Hp1; apply (H1 p1 Hp1)| |reflexivity].
        split; [reflexivity|]. split; [|exists j, x; split; [exact Ej|split; assumption]].
        intros (k1 & j1 & q1 & F1 & F2 & F3). apply (Hno k1 j1 F1). exists q1. split; assumption. }
      intros k. exact (P p k Hp).
    + intros p Hp Hk. cbn [given flat_map trace app]. destruct (Z.eq_dec p (Zpos q)) as [->|N]; [left; reflexivity|]. right. apply H2; [exact Hp|].
      revert Hk. change (nget p (pid_to_job (started id i (Zpos q) (jobs (js (im s))))) <> None -> nget p (pid_to_job (jobs (js (im s)))) <> None).
      unfold started. rewrite Ej. cbn [pid_to_job update_pid_table put_job].
      rewrite nget_ninsert by apply B. destruct (Z.eqb_spec p (Zpos q)); [congruence|auto].
  - change (nget id (job_table (started id i (Zpos q) (jobs (js (im s))))) = Some (with_processes (set_pid_at i (Zpos q) (processes j)) j)).
    rewrite (started_get _ _ _ _ j _ B Ej), Z.eqb_refl. reflexivity.
  - cbn [with_processes processes]. rewrite set_pid_at_length. lia.
  - intros n y Hn. cbn [with_processes processes]. rewrite set_pid_at_after by lia. apply Hfree. lia.
Qed.
Definition stays (id : Z) (i m : nat) (s s' : shell) : Prop := exact s -> waits_for id i m s -> exact s' /\ waits_for id i m s'.
Lemma stays_pre id i m : preorder (stays id i m).
Proof. constructor; unfold stays; [auto|]. intros a b c H1 H2 E L. destruct (H1 E L) as [E1 L1]. exact (H2 E1 L1). Qed.
Lemma stays_same id i m s s' : js (im s') = js (im s) -> later (trace s) (trace s') -> stays id i m s s'.
Proof. intros E L X W. split; [exact (ours_same _ _ E L X)|exact (waits_same _ _ _ _ _ E W)]. Qed.
Lemma launch_exact id bg cs : forall i prev pip s o s', launch w id bg i cs prev pip s = (o, s') -> exact s -> waits_for id i (List.length cs) s ->
  exact s' /\ get_job id (jobs (js (im s'))) <> None.
Proof.
  assert (G : forall i m s, waits_for id i m s -> get_job id (jobs (js (im s))) <> None) by (intros i m s (j & E & _); congruence).
  induction cs as [|[p0 sc] cs IH]; intros i prev pip s o s' H X W; cbn [launch List.length] in *.
  - injection H as <- <-. split; [exact X|exact (G _ _ _ W)].
  - assert (K1 : forall pip1 : Z * Z, keeps true (stays id i (S (List.length cs))) (match cs with [] => ret (fst pip1, -1) | _ => make_pipe w end)).
    { intros pip1. destruct cs; [apply (keeps_ret _ _ (stays_pre _ _ _))|]. unfold make_pipe. repeat keep_step (stays_pre id i (S (List.length (p :: cs)))).
      apply keeps_raw. intros s0. apply stays_same; same_or_grown. }
    apply bind_inv in H. destruct H as [(pip' & s1 & H1 & H)|(o1 & H1 & F & ->)].
    2:{ destruct (K1 pip _ _ _ H1 (or_introl eq_refl) X W) as [X1 W1]. split; [exact X1|exact (G _ _ _ W1)]. }
    destruct (K1 pip _ _ _ H1 (or_introl eq_refl) X W) as [X1 W1].
    assert (H' : ((r <- fork_child w (Child sc p0 prev pip' bg) ;; start_one id i r) ;;
        ((if Z.leb 0 prev then sys_close prev else ret tt) ;; sys_close_ignored (snd pip') ;; launch w id bg (S i) cs (fst pip') pip')) s1 = (o, s')).
    { rewrite <- H. unfold start_one, seq, bind. destruct (fork_child w (Child sc p0 prev pip' bg) s1) as [[] s2]; reflexivity. }
    clear H. apply seq_inv in H'. destruct H' as [([] & s2 & H2 & H)|(o1 & H2 & F & ->)].
    2:{ destruct (fork_starts _ _ _ _ _ _ _ H2 X1 W1) as [-> _]. destruct F. }
    destruct (fork_starts _ _ _ _ _ _ _ H2 X1 W1) as (_ & X2 & W2).
    assert (K2 : keeps true (stays id (S i) (List.length cs)) (if Z.leb 0 prev then sys_close prev else ret tt)).
    { destruct (Z.leb 0 prev); [|apply (keeps_ret _ _ (stays_pre _ _ _))]. unfold sys_close. apply (keeps_try _ _ (stays_pre _ _ _)). intros s0 y Hy. destruct (fd_close _ _); [|discriminate].
      injection Hy as <-. apply stays_same; same_or_grown. }
    apply seq_inv in H. destruct H as [([] & s3 & H3 & H)|(o1 & H3 & F & ->)].
    2:{ destruct (K2 _ _ _ H3 (or_introl eq_refl) X2 W2) as [X3 W3]. split; [exact X3|exact (G _ _ _ W3)]. }
    destruct (K2 _ _ _ H3 (or_introl eq_refl) X2 W2) as [X3 W3].
    assert (K3 : keeps true (stays id (S i) (List.length cs)) (sys_close_ignored (snd pip'))).
    { apply keeps_change. intros s0. apply stays_same; [apply close_ignored_js|grown]. }
    apply seq_inv in H. destruct H as [([] & s4 & H4 & H)|(o1 & H4 & F & ->)].
    2:{ destruct (K3 _ _ _ H4 (or_introl eq_refl) X3 W3) as [X4 W4]. split; [exact X4|exact (G _ _ _ W4)]. }
    destruct (K3 _ _ _ H4 (or_introl eq_refl) X3 W3) as [X4 W4].
    exact (IH _ _ _ _ _ _ H X4 W4).
Qed.

Lemma run_job_ours bg pcs : Forall fresh pcs -> keepo (run_job w bg pcs).
Proof.
  intros Hf. destruct (fresh_new _ Hf) as [cmds Ec]. unfold run_job.
  intros s o s' H _ Hm. pose proof (proj1 (proj1 Hm)) as Hb. unfold bind at 1, look at 1 in H. set (id := next_job_id (jobs (js (im s)))) in *.
  rewrite Ec in H. unfold seq at 1, on_jobs, change, bind at 1 in H.
  set (s1 := Shell _ (trace s)) in H.
  assert (W1 : ours s s1) by (apply ours_one with (OCreate cmds bg); same_or_grown).
  pose proof (W1 Hm) as X1.
  assert (L1 : waits_for id 0 (List.length pcs) s1).
  { exists (job_new (map new_process cmds) id bg). split; [|split].
    - unfold get_job. cbn [s1 im js with_js with_jobs jobs]. rewrite create_get by exact Hb. unfold id. rewrite Z.eqb_refl. reflexivity.
    - cbn [job_new processes]. rewrite <- Ec, map_length. reflexivity.
    - intros n q _ Hq. apply nth_error_In in Hq. apply (new_pids cmds). apply in_map. exact Hq. }
  apply seq_inv in H. destruct H as [([] & s2 & H1 & H2)|(o1 & H1 & F & ->)].
  2: { apply (launch_exact _ _ _ _ _ _ _ _ _ H1 X1 L1). }
  destruct (launch_exact _ _ _ _ _ _ _ _ _ H1 X1 L1) as [X2 L3].
  assert (W3 : ours s2 s'); [|exact (W3 X2)].
  apply seq_inv in H2. destruct H2 as [([] & s3 & H3 & H4)|(o1 & H3 & F & ->)].
  - eapply (pre_trans _ ours_pre) with s3.
    + destruct pcs as [|pc pcs].
      * assert (K : keepo (sh_delete_job id)) by ko. apply (K _ _ _ H3). left; reflexivity.
      * destruct bg.
        -- match type of H3 with ?m _ = _ => assert (K : keepo m) by ko end. apply (K _ _ _ H3). left; reflexivity.
        -- apply bind_inv_ok in H3. destruct H3 as (st & s4 & H3 & H5).
           eapply (pre_trans _ ours_pre); [eapply wait_ours; [intros _; exact L3|exact H3]|].
           match type of H5 with ?m _ = _ => assert (K : keepo m) by ko end. apply (K _ _ _ H5). left; reflexivity.
    + match type of H4 with ?m _ = _ => assert (K : keepo m) by ko end. apply (K _ _ _ H4). left; reflexivity.
  - destruct pcs as [|pc pcs].
    + assert (K : keepo (sh_delete_job id)) by ko. apply (K _ _ _ H3). left; reflexivity.
    + destruct bg.
      * match type of H3 with ?m _ = _ => assert (K : keepo m) by ko end. apply (K _ _ _ H3). left; reflexivity.
      * apply bind_inv in H3. destruct H3 as [(st & s4 & H3 & H5)|(o2 & H3 & F2 & _)].
        -- eapply (pre_trans _ ours_pre); [eapply wait_ours; [intros _; exact L3|exact H3]|].
           match type of H5 with ?m _ = _ => assert (K : keepo m) by ko end. apply (K _ _ _ H5). left; reflexivity.
        -- eapply wait_ours; [intros _; exact L3|exact H3].
Qed.
Lemma ko_pipeline pl : keepo (eval_pipeline w rec pl).
Proof.
  destruct pl as [b cs bg]. unfold eval_pipeline. apply (keeps_seq _ _ ours_pre); [ko|].
  apply keeps_bind_after; [apply ko_gather|]. intros s pcs s1 o s' H1 H2 _.
  eapply (pre_trans _ ours_pre); [eapply ko_gather; [exact H1|left; reflexivity]|].
  apply gather_fresh in H1. destruct pcs as [|pc pcs]; [injection H2 as <- <-; apply (pre_refl _ ours_pre)|].
  apply bind_inv in H2. destruct H2 as [(pcs' & s2 & H3 & H4)|(o2 & H3 & F2 & _)].
  - assert (Hf : Forall fresh pcs').
    { destruct bg; [injection H3 as <- _; exact H1|]. apply run_functions_incl in H3.
      rewrite Forall_forall in H1 |- *. intros x Hx. apply H1, H3, Hx. }
    eapply (pre_trans _ ours_pre); [|eapply (run_job_ours _ _ Hf); [exact H4|left; reflexivity]].
    destruct bg; [injection H3 as _ <-; apply (pre_refl _ ours_pre)|].
    eapply ko_run_functions; [exact H3|left; reflexivity].
  - destruct bg; [injection H3 as _ <-; apply (pre_refl _ ours_pre)|]. eapply ko_run_functions; [exact H3|left; reflexivity].
Qed.
Lemma ko_and_or a : keepo (eval_and_or w rec a).
Proof. induction a; cbn [eval_and_or]; ko; apply ko_pipeline. Qed.
Lemma ko_tree l : forall st, keepo (parse_tree_from w rec st l).
Proof. induction l; intros st; cbn [parse_tree_from]; ko; [apply ko_and_or|apply IHl]. Qed.
End Rec.

Theorem evaluate_exact w (Hnew : forall t q, r_fork (w t) = Some q -> ~ In (Zpos q) (given t)) n : forall l, keepo (evaluate w n l).
Proof.
  induction n as [|n IH]; intros l; cbn [evaluate].
  - apply (keeps_stop _ _ ours_pre).
  - apply (ko_tree w Hnew). exact IH.
Qed.
Lemma child_exact w : keepo (Main.child_signal w).
Proof.
  apply keeps_raw. intros s. unfold Main.child_signal. destruct (_ || _)%bool; [apply ours_same; same_or_grown|].
  destruct (sig_chld _ _ _) as [x j r| |] eqn:E; [|apply ours_same; same_or_grown|apply ours_same; same_or_grown].
  eapply ours_one with (o := OSig _ _); [reflexivity|eexists [_]; reflexivity|]. intros _. unfold step. rewrite E. reflexivity.
Qed.
Theorem main_exact w (Hnew : forall t q, r_fork (w t) = Some q -> ~ In (Zpos q) (given t)) n k args ins : keepo (Main.main w n k args ins).
Proof.
  apply (MainKeeps.ks_main _ _ ours_pre).
  - apply (evaluate_exact w Hnew).
  - intros A f bad m Hb Hm. apply (keeps_bind _ _ ours_pre); [apply ko_open|].
    intros [h|]; [apply ko_while; exact Hm|exact Hb].
  - intros s t f E. apply ours_same; same_or_grown.
  - intros t. apply keeps_change. intros s. apply ours_one with (o := OPrint t); same_or_grown.
  - apply keeps_change. intros s. apply ours_same; same_or_grown.
  - intros f. apply (keeps_try_cm _ _ _ ours_pre). intros s m E. apply ours_same; same_or_grown.
  - apply keeps_change. intros s. apply ours_same; same_or_grown.
  - apply keeps_raw. intros s. apply ours_same; same_or_grown.
  - apply child_exact.
  - intros f. apply ko_open.
Qed.
