(** Property C146: the numbers that new jobs get. *)
From Verif Require Import Base BaseFacts Ast Parser Context Alias Expand Jobs JobsSpec JobsFacts JobsLaws Shell.
From Verif Require MainSpec Main PropertiesJobs PropertiesMain PropertiesCore PropertiesCoreJobs.
Local Open Scope Z_scope.

Definition starts_something (o : op) : Prop := match o with OCreate [] _ => False | _ => True end.

Definition tight (jc : job_control) : Prop :=
  (forall k j, nget k (job_table jc) = Some j -> processes j <> []) /\ (next_job_id jc = 1 \/ live (next_job_id jc - 1) jc).

Lemma tweak_tight a b : tweak a b -> tight a -> tight b.
Proof.
  intros T [H1 H2]. split.
  - intros k j E. pose proof (tw_jobs _ _ T k) as J. rewrite E in J. destruct (nget k (job_table a)) as [j0|] eqn:E0; [|contradiction].
    destruct J as (_ & _ & J). intros F. rewrite F in J. inversion J as [X|]. apply (H1 k j0 E0). symmetry. exact X.
  - rewrite (tw_next _ _ T). destruct H2 as [H2|H2]; [left; exact H2|right]. apply (proj1 (tweak_live _ _ _ T)), H2.
Qed.
Lemma delete_tight id jc : basic jc -> tight jc -> tight (delete_job id jc).
Proof.
  intros B [H1 H2]. pose proof (b_sorted _ B) as Hs.
  destruct (nget id (job_table jc)) as [j|] eqn:E.
  2: { assert (X : delete_job id jc = jc) by (unfold delete_job; rewrite E; reflexivity). rewrite X. split; assumption. }
  destruct (processes j) as [|q ps] eqn:Ep; [destruct (H1 _ _ E Ep)|].
  destruct (delete_job_deletion id jc) as [E'|j' E' Ep'|j' p0 ps' st E' Ep' Est Hst|j' p0 ps' E' Ep' Hp Hst];
    [split; assumption|rewrite E in E'; injection E' as <-; congruence| |].
  - split.
    + intros k j0. cbn. rewrite nget_ninsert, nget_nremove by (apply nsorted_nremove; exact Hs).
      destruct (Z.eqb_spec k id); [|apply H1]. intros X. injection X as <-. cbn. rewrite Ep'. discriminate.
    + cbn [next_job_id put_table]. destruct H2 as [H2|[j0 H2]]; [left; exact H2|right]. unfold live. cbn.
      rewrite nget_ninsert, nget_nremove by (apply nsorted_nremove; exact Hs). destruct (Z.eqb _ id); eauto.
  - split.
    + intros k j0. cbn. rewrite nget_nremove. destruct (Z.eqb k id); [discriminate|apply H1].
    + cbn [next_job_id]. unfold live. cbn [job_table]. unfold next_id_after.
      destruct (nremove id (job_table jc)) as [|x t] eqn:Et; [left; reflexivity|right].
      assert (Hne : x :: t <> []) by discriminate. destruct (exists_last Hne) as (a & [k0 j0] & Ea).
      assert (Hsr : nsorted (x :: t)) by (rewrite <- Et; apply nsorted_nremove; exact Hs).
      exists j0. rewrite Ea, last_last. cbn [fst]. replace (k0 + 1 - 1) with k0 by lia.
      apply nsorted_In_nget; [rewrite <- Ea; exact Hsr|]. apply in_or_app. right. left. reflexivity.
Qed.
Lemma moves_tight a b : moves a b -> basic a -> tight a -> tight b.
Proof.
  induction 1 as [|a b c T _ IH|id a c _ IH]; intros B H; [exact H| |].
  - apply IH; [eapply tweak_basic; eauto|eapply tweak_tight; eauto].
  - apply IH; [apply delete_basic, B|apply delete_tight; assumption].
Qed.
Lemma put_tight id j jc : basic jc -> tight jc -> nget id (job_table jc) <> None -> processes j <> [] -> tight (put_job id j jc).
Proof.
  intros B [H1 H2] Hl Hp. pose proof (b_sorted _ B) as Hs. split.
  - intros k j0. cbn. rewrite nget_ninsert by exact Hs. destruct (Z.eqb k id); [intros X; injection X as <-; exact Hp|apply H1].
  - cbn [put_job put_table next_job_id]. destruct H2 as [H2|[j0 H2]]; [left; exact H2|right]. unfold live, put_job, put_table. cbn [job_table].
    rewrite nget_ninsert by exact Hs. destruct (Z.eqb _ id); eauto.
Qed.
Lemma effect_tight s o jc : basic (jobs s) -> starts_something o -> tight (jobs s) -> effect s o jc -> tight jc.
Proof.
  intros B Ho H E. destruct E as [cmds bg|id i p|o jc E|fg killed id j Ej].
  - pose proof (b_sorted _ B) as Hs. destruct H as [H1 H2]. split.
    + intros k j. cbn. rewrite nget_ninsert by exact Hs. destruct (Z.eqb k _); [|apply H1]. intros X. injection X as <-. cbn.
      destruct cmds; [destruct Ho|discriminate].
    + right. unfold live, create_job. cbn [next_job_id job_table]. rewrite nget_ninsert by exact Hs.
      replace (next_job_id (jobs s) + 1 - 1) with (next_job_id (jobs s)) by lia. rewrite Z.eqb_refl. eauto.
  - unfold Jobs.started. destruct (get_job id (jobs s)) as [j|] eqn:Ej; [|exact H]. unfold get_job in Ej.
    destruct H as [H1 H2]. pose proof (H1 _ _ Ej) as Hp.
    assert (T : tight (put_job id (with_processes (set_pid_at i p (processes j)) j) (jobs s))).
    { apply put_tight; [exact B|split; assumption|congruence|]. cbn. destruct (processes j), i; cbn; congruence. }
    exact T.
  - eapply moves_tight; eauto.
  - apply put_tight; [exact B|exact H|unfold get_job in Ej; congruence|]. cbn. apply (proj1 H _ _ Ej).
Qed.
Lemma run_tight os : forall s s', basic (jobs s) -> Forall starts_something os -> tight (jobs s) -> run os s = Some s' -> tight (jobs s').
Proof.
  induction os as [|o os IH]; intros s s' B Ho H E; cbn [run] in E; [injection E as <-; exact H|].
  destruct (step o s) as [s1|] eqn:E1; [|discriminate]. inversion Ho as [|? ? Ho1 Ho2]; subst.
  pose proof (step_effect _ _ _ B E1) as Ef. apply (IH s1 s'); [eapply effect_basic; eauto|exact Ho2|eapply effect_tight; eauto|exact E].
Qed.

(** Whatever happens to the jobs, as long as each of them has a process.  Missing for
    the full statement: calls of functions ([C146_number_refuted]). *)
Theorem C146_number_partial : forall os s cmds bg, run os jst0 = Some s -> Forall starts_something os ->
  exists id, nget id (job_table (jobs s)) = None /\ (forall k, live k (jobs s) -> k < id) /\ (id = 1 \/ live (id - 1) (jobs s)) /\
    exists s' j, step (OCreate cmds bg) s = Some s' /\ nget id (job_table (jobs s')) = Some j /\ processes j = map new_process cmds.
Proof.
  intros os s cmds bg E Ho. pose proof (reachable_basic _ _ E) as B.
  assert (T : tight (jobs s)).
  { apply (run_tight os jst0 s basic_new Ho); [|exact E]. split; [discriminate|left; reflexivity]. }
  exists (next_job_id (jobs s)). split; [|split; [intros k Hk; apply (b_next _ B) in Hk; lia|split; [apply T|]]].
  - destruct (nget _ _) as [j|] eqn:X; [|reflexivity]. pose proof (b_next _ B (next_job_id (jobs s)) (ex_intro _ j X)). lia.
  - eexists _, _. split; [reflexivity|]. cbn. rewrite nget_ninsert by apply B. rewrite Z.eqb_refl. split; reflexivity.
Qed.

(** A function that runs no program takes a number all the same: nothing is running
    and nothing is stopped, and the next program is job 2. *)
Definition ex_lines : list str := map lit ["f ( ) { A=1 ; }"; "f"; "vi x"]%string.
Theorem C146_number_refuted :
  MainSpec.asks [lit "rsh"] MainSpec.Prompt /\ MainSpec.no_startup_files PropertiesCoreJobs.ex_terminal /\
  let after ls := snd (Main.main PropertiesCoreJobs.ex_terminal 5 0 [lit "rsh"] (map Main.TLine ls) (Shell PropertiesMain.ex_fresh [])) in
  job_table (jobs (js (im (after (firstn 2 ex_lines))))) = [] /\
  map (fun kj => (fst kj, state (snd kj), map p_argv (processes (snd kj)))) (job_table (jobs (js (im (after ex_lines))))) = [(2, SStopped, [map lit ["vi"; "x"]%string])] /\
  map (fun kj => (fst kj, state (snd kj), map p_argv (processes (snd kj)))) (job_table (jobs (js (im (after (skipn 2 ex_lines)))))) = [(1, SStopped, [map lit ["vi"; "x"]%string])].
Proof.
  split; [apply MainSpec.asks_bare|]. split; [exact PropertiesCoreJobs.ex_terminal_plain|]. vm_compute. repeat split.
Qed.

Definition ex_history : list op :=
  [OCreate [PropertiesJobs.ex_ls] true; OStart 1 0 100; OCreate [PropertiesJobs.ex_cat; PropertiesJobs.ex_ls] false; OStart 2 0 101; OStart 2 1 102;
   OCreate [PropertiesJobs.ex_cat] false; OStart 3 0 103; ODelete 3; OSig (Some (lit "+ ")) [AStatus (Exited 100 0); AFail]].
Example C146_number_example :
  Forall starts_something ex_history /\ exists s, run ex_history jst0 = Some s /\ map fst (job_table (jobs s)) = [2] /\
    option_map (fun s' => map fst (job_table (jobs s'))) (step (OCreate [PropertiesJobs.ex_cat] true) s) = Some [2; 3].
Proof. split; [repeat constructor|]. eexists. split; [vm_compute; reflexivity|]. split; vm_compute; reflexivity. Qed.

Print Assumptions C146_number_partial.
Print Assumptions C146_number_refuted.
