(** The descriptors of the shell across any run. *)
From Verif Require Import Base BaseFacts Ast Parser Context Alias Expand Jobs Shell Builtins Eval.
From Verif Require Import EvalSpec EvalFacts EvalLaws EvalKeeps EvalStack PipeSpec PipeLaws.
Local Open Scope Z_scope.

(** ** Any relation that only the descriptors matter for *)

Section Leaves.
Context (all : bool) (R : shell -> shell -> Prop) (P : preorder R).
Hypothesis Rsame : forall s s', fds (im s') = fds (im s) -> next_pipe (im s') = next_pipe (im s) -> R s s'.

Ltac leaf :=
  match goal with
  | |- keeps _ _ interrupts_off => apply keeps_change; intro; apply Rsame; reflexivity
  | |- keeps _ _ interrupts_on => apply keeps_change; intro; apply Rsame; reflexivity
  | |- keeps _ _ (say _) => apply keeps_change; intro; apply Rsame; reflexivity
  | |- keeps _ _ (sh_delete_job _) => apply keeps_change; intro; apply Rsame; reflexivity
  | |- keeps _ _ (change _) => apply keeps_change; intro; apply Rsame; reflexivity
  | |- keeps _ _ (on_cm _) => apply keeps_change; intro; apply Rsame; reflexivity
  | |- keeps _ _ (on_jobs _) => apply keeps_change; intro; apply Rsame; reflexivity
  | |- keeps _ _ (set_exit_status _) => apply keeps_change; intro; apply Rsame; reflexivity
  | |- keeps _ _ get_exit_code => apply (keeps_look _ _ P)
  | |- keeps _ _ (note _) => apply keeps_note; intro; apply Rsame; reflexivity
  | |- keeps _ _ (try_cm _) => apply (keeps_try_cm _ _ _ P); intros; apply Rsame; reflexivity
  | |- keeps _ _ (wait_job _ _) => apply (keeps_wait _ _ P); intros; apply Rsame; reflexivity
  | |- keeps _ _ (expand_command _ _) => apply (keeps_expand _ _ P); intros; apply Rsame; reflexivity
  | |- keeps _ _ (fun s => (OOk _, Shell (im s) _)) => apply keeps_raw; intro; apply Rsame; reflexivity
  end.
Ltac kf := repeat first [leaf|keep_step P].

Lemma kf_say_all ts : keeps all R (say_all ts).
Proof. induction ts; cbn [say_all]; kf. Qed.
Lemma kf_lookup w c : keeps all R (sh_lookup_command w c).
Proof. unfold sh_lookup_command. kf. Qed.
Lemma kf_set_env k v : keeps all R (set_env k v).
Proof.
  unfold set_env. apply (keeps_try _ _ P). intros s i H. destruct (_ || _)%bool; [discriminate|].
  injection H as <-. apply Rsame; reflexivity.
Qed.
Lemma kf_execve w a v e : keeps all R (temp_execve w a v e).
Proof. unfold temp_execve, fork_reset. kf. apply kf_lookup. Qed.

Section Rec.
Context (w : os) (rec : list and_or -> M Z).
Hypothesis Hrec : forall l, keeps all R (rec l).
(** A file that is open while something runs. *)
Hypothesis Hfile : forall A p (bad m : M A), keeps all R bad -> keeps all R m ->
  keeps all R (f <- sys_open w p for_reading ;; match f with None => bad | Some f => while_open f m end).
Hypothesis Hlaunch : forall id bg cs, keeps all R (launch w id bg 0 cs (-1) (-1, -1)).

Lemma kf_complete c : keeps all R (eval_complete rec c).
Proof. unfold eval_complete. kf. Qed.
Lemma kf_parse_text t : keeps all R (parse_text t).
Proof. unfold parse_text. kf. Qed.
Lemma kf_fg_or_bg fg by_job n : keeps all R (fg_or_bg w fg by_job n).
Proof.
  unfold fg_or_bg, fail. kf.
  apply (keeps_try _ _ P). intros s i H. destruct (resume _ _ _ _); [|discriminate]. injection H as <-. apply Rsame; reflexivity.
Qed.
Lemma kf_fgbg sc : keeps all R (fgbg w sc).
Proof. unfold fgbg, word_at, fail. kf; apply kf_fg_or_bg. Qed.
Lemma kf_context_file f : keeps all R (create_context_from_file w rec f).
Proof.
  unfold create_context_from_file. apply Hfile; [kf|]. kf; first [apply kf_parse_text|apply kf_complete].
Qed.
Lemma kf_export_words ws : keeps all R (export_words ws).
Proof. induction ws; cbn [export_words]; unfold export_word; kf; apply kf_set_env. Qed.
Lemma kf_export sc : keeps all R (export_cmd w rec sc).
Proof.
  unfold export_cmd, print_env, export_context, fail.
  kf; first [apply kf_say_all|apply kf_context_file|apply kf_export_words].
Qed.
Lemma kf_source_args args : forall i, keeps all R (source_args i args).
Proof. induction args; intros i; cbn [source_args]; kf; apply IHargs. Qed.
Lemma kf_source sc : keeps all R (source_cmd w rec sc).
Proof.
  unfold source_cmd, fail. destruct (words_of sc) as [[|file args]|]; [kf| |kf].
  apply (keeps_seq _ _ P); [apply kf_source_args|].
  apply (keeps_bind _ _ P); [kf; apply kf_lookup|]. intros path. apply Hfile; [kf|].
  kf; first [apply kf_parse_text|apply kf_complete].
Qed.
Lemma kf_exec sc : keeps all R (exec_cmd w sc).
Proof. unfold exec_cmd, exec_opts1, exec_opts2, word_at, fail. cbv zeta. kf; apply kf_execve. Qed.
Lemma kf_builtin sc : keeps all R (call_builtin w rec sc).
Proof.
  unfold call_builtin. cbv zeta.
  repeat match goal with |- keeps _ _ (if ?b then _ else _) => destruct b end;
    first [apply kf_fgbg|apply kf_export|apply kf_exec|apply kf_source|idtac];
    unfold change_directory, quit, save_history, return_cmd, jobs_cmd, alias_cmd, unalias_cmd, eval_cmd, unset_cmd, pwd, readonly_cmd, readonly_print,
      print_vars, print_readonly_functions, assignment_cmd, display_aliases, word_at, fail; kf;
    try apply kf_say_all; try apply kf_parse_text; try apply kf_complete.
  apply (keeps_try _ _ P). intros ? ? Hx. destruct (alias_builtin _ _); [|discriminate].
  injection Hx as <-. apply Rsame; reflexivity.
Qed.
Lemma kf_function sc : keeps all R (eval_function rec sc).
Proof. unfold eval_function. kf. Qed.
Lemma kf_command c : keeps all R (eval_command w rec c).
Proof. unfold eval_command, eval_simple_command, eval_builtin. kf. apply kf_builtin. Qed.
Lemma kf_gather cs : keeps all R (gather w rec cs).
Proof. induction cs; cbn [gather]; kf. apply kf_command. Qed.
Lemma kf_run_functions cs : keeps all R (run_functions rec cs).
Proof. induction cs; cbn [run_functions]; kf. apply kf_function. Qed.
Lemma kf_run_job bg cs : keeps all R (run_job w bg cs).
Proof. unfold run_job. kf; apply Hlaunch. Qed.
Lemma kf_pipeline p : keeps all R (eval_pipeline w rec p).
Proof. unfold eval_pipeline. kf; first [apply kf_gather|apply kf_run_functions|apply kf_run_job]. Qed.
Lemma kf_and_or a : keeps all R (eval_and_or w rec a).
Proof. induction a; cbn [eval_and_or]; kf; apply kf_pipeline. Qed.
Lemma kf_tree l : forall st, keeps all R (parse_tree_from w rec st l).
Proof. induction l; intros st; cbn [parse_tree_from]; kf; [apply kf_and_or|apply IHl]. Qed.
End Rec.

Lemma kf_evaluate w n :
  (forall A p (bad m : M A), keeps all R bad -> keeps all R m ->
    keeps all R (f <- sys_open w p for_reading ;; match f with None => bad | Some f => while_open f m end)) ->
  (forall id bg cs, keeps all R (launch w id bg 0 cs (-1) (-1, -1))) ->
  forall l, keeps all R (evaluate w n l).
Proof.
  intros H1 H2. induction n as [|n IH]; intros l; cbn [evaluate].
  - apply (keeps_stop _ _ P).
  - apply kf_tree; assumption.
Qed.
End Leaves.

(** ** Well-formed tables *)

Definition sound (i : image) : Prop := table (fds i) /\ no_future_pipe (fds i) (next_pipe i).
Definition soundly (s s' : shell) : Prop := sound (im s) -> sound (im s').
Lemma soundly_pre : preorder soundly.
Proof. constructor; unfold soundly; auto. Qed.
Lemma soundly_same s s' : fds (im s') = fds (im s) -> next_pipe (im s') = next_pipe (im s) -> soundly s s'.
Proof. intros E1 E2. unfold soundly, sound. rewrite E1, E2. auto. Qed.

Lemma sound_remove a t n : table t /\ no_future_pipe t n -> table (nremove a t) /\ no_future_pipe (nremove a t) n.
Proof.
  intros [H1 H2]. split; [apply table_nremove, H1|]. intros fd d k H. rewrite nget_nremove in H.
  destruct (Z.eqb fd a); [discriminate|]. apply (H2 fd d k H).
Qed.
Lemma sound_insert a d0 t n : table t /\ no_future_pipe t n -> 0 <= a ->
  (forall k, d_obj d0 = PipeR k \/ d_obj d0 = PipeW k -> k < n) ->
  table (ninsert a d0 t) /\ no_future_pipe (ninsert a d0 t) n.
Proof.
  intros [H1 H2] Ha Hd. split; [apply table_ninsert; assumption|]. intros fd d k H. rewrite nget_ninsert in H by apply H1.
  destruct (Z.eqb fd a); [injection H as <-; apply Hd|]. apply (H2 fd d k H).
Qed.
Lemma soundly_close_ignored a : keeps true soundly (sys_close_ignored a).
Proof.
  apply keeps_change. intros s H. cbn [im]. unfold fd_close. destruct (nget a (fds (im s))); [|exact H].
  apply sound_remove, H.
Qed.
Lemma soundly_close a : keeps true soundly (sys_close a).
Proof.
  apply (keeps_try _ _ soundly_pre). intros s i E H. unfold fd_close in E. destruct (nget a (fds (im s))); [|discriminate].
  injection E as <-. apply sound_remove, H.
Qed.
Lemma soundly_open w p h : keeps true soundly (sys_open w p h).
Proof.
  unfold sys_open. apply (keeps_bind _ _ soundly_pre); [apply (keeps_ask _ _ soundly_pre)|]. intros [|]; [|apply (keeps_ret _ _ soundly_pre)].
  apply keeps_raw. intros s H. cbn [snd im with_fds fds next_pipe]. apply sound_insert; [exact H|apply lowest_spec, H|].
  cbn. intros k [E|E]; discriminate.
Qed.
Lemma soundly_pipe w : keeps true soundly (make_pipe w).
Proof.
  unfold make_pipe. apply (keeps_bind _ _ soundly_pre); [apply (keeps_ask _ _ soundly_pre)|]. intros [|]; [|apply (keeps_stop _ _ soundly_pre)].
  apply keeps_raw. intros s H. cbn [snd im with_fds with_next_pipe fds next_pipe]. destruct H as [H1 H2].
  set (n := next_pipe (im s)) in *. set (t := fds (im s)) in *. clearbody n t. unfold sound. cbn.
  assert (H0 : table t /\ no_future_pipe t (n + 1)) by (split; [exact H1|]; intros fd d k Hg Hk; specialize (H2 fd d k Hg Hk); lia).
  assert (H3 : table (ninsert (lowest t) (Desc (PipeR n) false) t) /\ no_future_pipe (ninsert (lowest t) (Desc (PipeR n) false) t) (n + 1)).
  { apply sound_insert; [exact H0|apply lowest_spec, H1|]. cbn. intros k [E|E]; [injection E; lia|discriminate]. }
  apply sound_insert; [exact H3|apply lowest_spec, H3|]. cbn. intros k [E|E]; [discriminate|injection E; lia].
Qed.
Lemma soundly_launch w id bg cs : forall k prev pip, keeps true soundly (launch w id bg k cs prev pip).
Proof.
  induction cs as [|[p sc] cs IH]; intros k prev pip; cbn [launch]; [apply (keeps_ret _ _ soundly_pre)|].
  unfold fork_child. repeat keep_step soundly_pre; try apply IH; try apply soundly_pipe; try apply soundly_close; try apply soundly_close_ignored.
  - apply keeps_note. intros s. apply soundly_same; reflexivity.
  - apply keeps_change. intros s. apply soundly_same; reflexivity.
Qed.
Theorem evaluate_sound w n l s o s' : evaluate w n l s = (o, s') -> sound (im s) -> sound (im s').
Proof.
  intros H. refine (kf_evaluate true soundly soundly_pre soundly_same w n _ _ l s o s' H (or_introl eq_refl)).
  - intros A p bad m Hb Hm. apply (keeps_bind _ _ soundly_pre); [apply soundly_open|]. intros [f|]; [|exact Hb].
    unfold while_open. repeat keep_step soundly_pre. apply soundly_close_ignored.
  - intros. apply soundly_launch.
Qed.

(** ** The same descriptors *)

Definition restored (s s' : shell) : Prop :=
  table (fds (im s)) -> table (fds (im s')) /\ forall fd, nget fd (fds (im s')) = nget fd (fds (im s)).
Lemma restored_pre : preorder restored.
Proof.
  constructor; unfold restored.
  - auto.
  - intros a b c Hab Hbc Ha. destruct (Hab Ha) as [Hb E1]. destruct (Hbc Hb) as [Hc E2]. split; [exact Hc|].
    intros fd. rewrite E2. apply E1.
Qed.
Lemma restored_same s s' : fds (im s') = fds (im s) -> next_pipe (im s') = next_pipe (im s) -> restored s s'.
Proof. intros E _. unfold restored. rewrite E. auto. Qed.

Lemma launch_no_error w id bg : (forall tr, r_pipe (w tr) = true) ->
  forall cs k prev pip s e s', launch w id bg k cs prev pip s <> (OErr e, s').
Proof.
  intros Hp. induction cs as [|[p sc] cs IH]; intros k prev pip s e s' H; cbn [launch] in H; [discriminate|].
  apply bind_inv in H. destruct H as [(pip1 & s1 & H1 & H)|(o1 & H1 & F & E)].
  2: { destruct cs; [injection H1 as <- _; contradiction|]. unfold make_pipe, bind, ask in H1. rewrite Hp in H1.
       injection H1 as <- _. contradiction. }
  apply bind_inv in H. destruct H as [(r & s2 & H2 & H)|(o1 & H2 & F & E)]; [|cbn in H2; injection H2 as <- _; contradiction].
  apply seq_inv in H. destruct H as [(u & s3 & H3 & H)|(o1 & H3 & F & E)]; [|destruct r; injection H3 as <- _; contradiction].
  apply seq_inv in H. destruct H as [(u4 & s4 & H4 & H)|(o1 & H4 & F & E)].
  2: { destruct (Z.leb 0 prev); [|injection H4 as <- _; contradiction]. unfold sys_close, try_ in H4.
       destruct (fd_close _ _); injection H4 as <- _; [contradiction|discriminate]. }
  apply seq_inv in H. destruct H as [(u5 & s5 & H5 & H)|(o1 & H5 & F & E)]; [|injection H5 as <- _; contradiction].
  exact (IH _ _ _ _ _ _ H).
Qed.

Theorem evaluate_restored w n l s o s' : (forall tr, r_pipe (w tr) = true) ->
  evaluate w n l s = (o, s') -> returns o -> restored s s'.
Proof.
  intros Hpipe H Ho. refine (kf_evaluate false restored restored_pre restored_same w n _ _ l s o s' H (or_intror Ho)).
  - clear. intros A p bad m Hb Hm s o s' H Ho.
    destruct Ho as [Ho|Ho]; [discriminate|]. unfold sys_open in H. unfold bind at 1 2, ask, ret in H.
    destruct (r_open (w (trace s)) p for_reading).
    + intros Ht. cbn [im fds trace] in H. destruct (lowest_spec _ (proj1 Ht)) as [L1 L2]. set (f := lowest (fds (im s))) in *.
      match type of H with while_open f m ?x = _ => set (s1 := x) in * end.
      assert (Hg1 : forall fd, nget fd (fds (im s1)) = if Z.eqb fd f then Some (Desc (OpenFile p for_reading) true) else nget fd (fds (im s))).
      { intros fd. cbn. apply nget_ninsert, Ht. }
      assert (Ht1 : table (fds (im s1))) by (cbn; apply table_ninsert; assumption).
      unfold while_open in H. apply bind_inv in H. destruct H as [(r & s2 & H1 & H2)|(o1 & H1 & F & ->)].
      * assert (R12 : restored s1 s2).
        { apply catch_inv in H1. destruct H1 as [(a & H1 & _)|[(e & H1 & _)|(o1 & H1 & F & E)]].
          - eapply Hm; [exact H1|right; exact I].
          - eapply Hm; [exact H1|right; exact I].
          - exfalso. destruct o1; cbn in F, E; try discriminate; tauto. }
        destruct (R12 Ht1) as [Ht2 Hg2].
        assert (E2 : exists s3, sys_close_ignored f s2 = (OOk tt, s3) /\ fds (im s3) = nremove f (fds (im s2))).
        { unfold sys_close_ignored, change, fd_close. eexists. split; [reflexivity|]. cbn [im].
          rewrite Hg2, Hg1, Z.eqb_refl. reflexivity. }
        destruct E2 as (s3 & E2 & E3). rewrite (seq_ok _ _ _ _ _ E2) in H2.
        assert (s' = s3) by (destruct r; injection H2 as _ <-; reflexivity). subst s'.
        rewrite E3. split; [apply table_nremove, Ht2|]. intros fd. rewrite nget_nremove, Hg2, Hg1.
        destruct (Z.eqb_spec fd f) as [->|]; [symmetry; exact L2|reflexivity].
      * exfalso. apply catch_inv in H1. destruct H1 as [(a & _ & ->)|[(e & _ & ->)|(o2 & _ & F2 & ->)]]; [contradiction|contradiction|].
        destruct o2; cbn in *; tauto.
    + exact (Hb _ _ _ H (or_intror Ho)).
  - intros id bg cs s1 o1 s1' H1 Ho1 Ht. destruct cs as [|c cs]; [injection H1 as _ <-; auto|].
    assert (E1 : s1 = Shell (launching (im s1) (jobs (js (im s1))) (fds (im s1)) (next_pipe (im s1) + Z.of_nat 0)) (trace s1)).
    { destruct s1 as [i tr]. cbn [im trace Z.of_nat]. rewrite Z.add_0_r. destruct i as [? ? j ? ? ? ? ? ?], j. reflexivity. }
    pose proof (launch_no_error w id bg Hpipe (c :: cs) 0 (-1) (-1, -1) s1) as Hno. rewrite H1 in Hno.
    rewrite E1 in H1.
    apply (launch_ok w id bg (im s1) (fds (im s1)) (next_pipe (im s1)) (List.length (c :: cs)) Ht) in H1; [|reflexivity|discriminate| |reflexivity].
    + destruct H1 as (new & jc' & t' & n' & -> & _ & [(R1 & R2 & R3 & R4)|(R1 & _)]); [split; [exact R3|exact R4]|].
      exfalso. rewrite R1 in Hno. exact (Hno _ _ eq_refl).
    + split; [exact Ht|]. split; [reflexivity|]. intros fd. destruct (Z.eqb_spec fd (-1)) as [->|]; [|reflexivity].
      destruct (nget (-1) (fds (im s1))) eqn:E; [apply (proj2 Ht) in E; lia|reflexivity].
Qed.
