(** Invariants of histories, and the effect of waiting. *)
From Verif Require Import Base BaseFacts Jobs JobsSpec JobsFacts.
Local Open Scope Z_scope.

(** ** Single operations *)

Lemma create_get ps bg jc k :
  basic jc -> nget k (job_table (create_job ps bg jc)) =
  if Z.eqb k (next_job_id jc) then Some (job_new ps (next_job_id jc) bg) else nget k (job_table jc).
Proof. intros B. cbn. apply nget_ninsert, B. Qed.

Lemma create_basic ps bg jc : basic jc -> basic (create_job ps bg jc).
Proof.
  intros B. pose proof (b_next1 _ B) as N1. constructor; cbn.
  - apply nsorted_ninsert, B.
  - intros k j. rewrite nget_ninsert by apply B. destruct (Z.eqb_spec k (next_job_id jc)) as [->|Hn].
    + intros H. injection H as <-. reflexivity.
    + apply B.
  - intros k [j H]. cbn in H. rewrite nget_ninsert in H by apply B.
    destruct (Z.eqb_spec k (next_job_id jc)) as [->|Hn]; [lia|].
    assert (1 <= k < next_job_id jc) by (apply (b_next _ B); exists j; exact H). lia.
  - lia.
  - destruct bg; [apply nsorted_ninsert|]; apply B.
  - apply nsorted_fold_insert, B.
Qed.

Lemma started_get id i p jc j k :
  basic jc -> nget id (job_table jc) = Some j ->
  nget k (job_table (started id i p jc)) =
  if Z.eqb k id then Some (with_processes (set_pid_at i p (processes j)) j) else nget k (job_table jc).
Proof. intros B E. unfold started, get_job. rewrite E. cbn. apply nget_ninsert, B. Qed.

Lemma started_basic id i p jc : basic jc -> basic (started id i p jc).
Proof.
  intros B. unfold started, get_job. destruct (nget id (job_table jc)) as [j|] eqn:E; [|exact B].
  constructor; cbn.
  - apply nsorted_ninsert, B.
  - intros k j0. rewrite nget_ninsert by apply B. destruct (Z.eqb_spec k id) as [->|Hn]; [|apply B].
    intros H. injection H as <-. cbn. apply (b_ids _ B); exact E.
  - intros k [j0 H]. cbn in H. rewrite nget_ninsert in H by apply B. apply (b_next _ B).
    destruct (Z.eqb_spec k id) as [->|Hn]; [exists j; exact E|exists j0; exact H].
  - apply (b_next1 _ B).
  - apply B.
  - apply nsorted_ninsert, B.
Qed.

Lemma put_flags_basic id j j' jc :
  basic jc -> nget id (job_table jc) = Some j -> job_id j' = job_id j -> basic (put_job id j' jc).
Proof.
  intros B E Ei. constructor; cbn.
  - apply nsorted_ninsert, B.
  - intros k j0. rewrite nget_ninsert by apply B. destruct (Z.eqb_spec k id) as [->|Hn]; [|apply B].
    intros H. injection H as <-. rewrite Ei. apply (b_ids _ B); exact E.
  - intros k [j0 H]. cbn in H. rewrite nget_ninsert in H by apply B. apply (b_next _ B).
    destruct (Z.eqb_spec k id) as [->|Hn]; [exists j; exact E|exists j0; exact H].
  - apply (b_next1 _ B).
  - apply B.
  - apply B.
Qed.

Lemma resume_spec fg killed id s s' :
  resume fg killed id s = Some s' ->
  (get_job id (jobs s) = None /\ s' = s) \/
  (exists j, get_job id (jobs s) = Some j /\
     jobs s' = put_job id (with_background (negb fg) (with_state Running j)) (jobs s)).
Proof.
  unfold resume. destruct (get_job id (jobs s)) as [j|].
  - destruct (forallb _ _); [|discriminate]. intros H. injection H as <-. right. exists j. auto.
  - intros H. injection H as <-. left. auto.
Qed.

(** What an operation does to the jobs. *)
Inductive effect (s : jst) : op -> job_control -> Prop :=
| e_create cmds bg : effect s (OCreate cmds bg) (create_job (map new_process cmds) bg (jobs s))
| e_start id i p : effect s (OStart id i p) (started id i p (jobs s))
| e_moves o jc : moves (jobs s) jc -> effect s o jc
| e_resume fg killed id j : get_job id (jobs s) = Some j ->
    effect s (OResume fg killed id) (put_job id (with_background (negb fg) (with_state Running j)) (jobs s)).

Lemma state_of_tweak id st jc : basic jc -> tweak jc (with_state_of id st jc).
Proof.
  intros B. unfold with_state_of. destruct (get_job id jc) as [j|] eqn:E; [|apply tweak_refl, B].
  eapply put_job_tweak; [apply B|exact E|]. repeat split. cbn. apply Forall2_refl, same_process_refl.
Qed.
Lemma sig_borrowed_moves ps4 id as_ s s' rest :
  basic (jobs s) -> sig_chld_borrowed ps4 id as_ s = WDone tt s' rest -> moves (jobs s) (jobs s').
Proof.
  intros B H. unfold sig_chld_borrowed in H. cbv zeta in H.
  match type of H with (if ?b then _ else _) = _ => destruct b; [discriminate|] end.
  match type of H with context [sig_chld ps4 as_ ?x] => destruct (sig_chld ps4 as_ x) as [[] s1 r| |] eqn:E; try discriminate end.
  injection H as <- _. pose proof (state_of_tweak id Finished _ B) as T.
  pose proof (tweak_basic _ _ B T) as B1. apply sig_chld_moves in E; [|exact B1]. cbn [jobs with_jobs] in E |- *.
  eapply moves_tweak; [exact T|]. eapply moves_trans; [exact E|].
  eapply moves_tweak; [apply state_of_tweak; eapply moves_basic; eauto|apply moves_refl].
Qed.

Lemma step_effect o s s' : basic (jobs s) -> step o s = Some s' -> effect s o (jobs s').
Proof.
  intros B. destruct o as [cmds bg|id i p|id|ps4 id as_|ps4 id as_|ps4 as_|ps4 id as_|fg killed id|b|t]; cbn [step].
  - intros H. injection H as <-. apply e_create.
  - intros H. injection H as <-. apply e_start.
  - intros H. injection H as <-. apply e_moves. apply moves_delete with id. apply moves_refl.
  - destruct (get_job id (jobs s)); [|discriminate].
    destruct (wait_for_job ps4 id as_ s) as [st s1 r| |] eqn:E; try discriminate.
    intros H. injection H as <-. apply e_moves. eapply wait_for_job_moves; eauto.
  - destruct (wait_one ps4 id as_ s) as [x s1 r| |] eqn:E; try discriminate.
    intros H. injection H as <-. apply e_moves. eapply moves_tweak; [eapply wait_one_tweak; eauto|apply moves_refl].
  - destruct (sig_chld ps4 as_ s) as [[] s1 r| |] eqn:E; try discriminate.
    intros H. injection H as <-. apply e_moves. eapply sig_chld_moves; eauto.
  - destruct (sig_chld_borrowed ps4 id as_ s) as [[] s1 r| |] eqn:E; try discriminate.
    intros H. injection H as <-. apply e_moves. eapply sig_borrowed_moves; eauto.
  - intros H. apply resume_spec in H as [[_ ->]|(j & Ej & ->)].
    + apply e_moves, moves_refl.
    + apply e_resume. exact Ej.
  - intros H. injection H as <-. apply e_moves, moves_refl.
  - intros H. injection H as <-. apply e_moves, moves_refl.
Qed.

Lemma effect_basic s o jc : basic (jobs s) -> effect s o jc -> basic jc.
Proof.
  intros B H. destruct H as [cmds bg|id i p|o jc H|fg killed id j Ej].
  - apply create_basic, B.
  - apply started_basic, B.
  - eapply moves_basic; eauto.
  - eapply put_flags_basic; [exact B|exact Ej|reflexivity].
Qed.

Lemma run_basic os : forall s s', basic (jobs s) -> run os s = Some s' -> basic (jobs s').
Proof.
  induction os as [|o os IH]; intros s s' B; cbn [run].
  - intros H. injection H as <-. exact B.
  - destruct (step o s) as [s1|] eqn:E; [|discriminate]. intros H. eapply IH; [|exact H].
    eapply effect_basic; [exact B|]. eapply step_effect; eauto.
Qed.

Lemma reachable_basic os s : run os jst0 = Some s -> basic (jobs s).
Proof. apply run_basic. exact basic_new. Qed.

(** ** Process ids *)

Definition pids_ok (jc : job_control) : Prop :=
  forall p k, p <> -1 ->
    (nget p (pid_to_job jc) = Some k <-> exists j, nget k (job_table jc) = Some j /\ has_pid p j).

Lemma has_pid_map p j : has_pid p j <-> In p (map p_pid (processes j)).
Proof. unfold has_pid. rewrite in_map_iff. split; intros (q & H1 & H2); exists q; auto. Qed.

Lemma same_job_has j j' p : same_job j j' -> has_pid p j <-> has_pid p j'.
Proof. intros H. rewrite !has_pid_map. rewrite (same_job_pids _ _ H). reflexivity. Qed.

Lemma tweak_pids jc jc' : tweak jc jc' -> pids_ok jc -> pids_ok jc'.
Proof.
  intros T H p k Hp. rewrite (tw_pid _ _ T), (H p k Hp).
  pose proof (tw_jobs _ _ T k) as O.
  destruct (nget k (job_table jc)) as [j|], (nget k (job_table jc')) as [j'|]; cbn in O; try contradiction.
  - split; intros (j0 & E & Hh); injection E as <-; eexists; (split; [reflexivity|]);
      apply (same_job_has _ _ p O); exact Hh.
  - split; intros (j0 & E & _); discriminate.
Qed.

Lemma delete_pids id jc : basic jc -> pids_ok jc -> pids_ok (delete_job id jc).
Proof.
  intros B H. destruct (delete_job_deletion id jc) as [E|j E Ep|j p0 ps st E Ep Est Hst|j p0 ps E Ep Hp Hst].
  - exact H.
  - intros p k Hp. cbn. rewrite (H p k Hp), nget_nremove. destruct (Z.eqb_spec k id) as [->|Hn]; [|reflexivity].
    split; intros (j0 & E0 & q & Hq & _); [|discriminate].
    rewrite E in E0. injection E0 as <-. rewrite Ep in Hq. destruct Hq.
  - intros p k Hp. cbn. rewrite (H p k Hp), nget_ninsert, nget_nremove by (apply nsorted_nremove, B).
    destruct (Z.eqb_spec k id) as [->|Hn]; [|reflexivity]. rewrite E.
    split; intros (j0 & E0 & Hh); injection E0 as <-; eexists; (split; [reflexivity|exact Hh]).
  - intros q k Hq. cbn. rewrite nget_fold_remove, nget_nremove.
    change (existsb (fun q0 => Z.eqb (p_pid q0) q) (processes j)) with (has_pidb q (processes j)).
    destruct (has_pidb q (processes j)) eqn:Eh.
    + split; [discriminate|]. destruct (Z.eqb_spec k id) as [->|Hn]; intros (j0 & E0 & Hh); [discriminate|].
      exfalso. apply Hn.
      assert (K : nget q (pid_to_job jc) = Some k) by (apply H; [exact Hq|eauto]).
      assert (K' : nget q (pid_to_job jc) = Some id)
        by (apply H; [exact Hq|exists j; split; [exact E|apply has_pidb_true; exact Eh]]).
      congruence.
    + rewrite (H q k Hq). destruct (Z.eqb_spec k id) as [->|Hn]; [|reflexivity].
      split; intros (j0 & E0 & Hh); [|discriminate].
      rewrite E in E0. injection E0 as <-. apply has_pidb_true in Hh. congruence.
Qed.

Lemma moves_pids a b : moves a b -> basic a -> pids_ok a -> pids_ok b.
Proof.
  induction 1; intros B P; auto.
  - apply IHmoves; [eapply tweak_basic; eauto|eapply tweak_pids; eauto].
  - apply IHmoves; [apply delete_basic; exact B|apply delete_pids; assumption].
Qed.

Lemma set_pid_at_in i p ps q : nth_error ps i = Some q -> p_pid q = -1 ->
  forall x, x <> -1 -> In x (map p_pid (set_pid_at i p ps)) <-> x = p \/ In x (map p_pid ps).
Proof.
  revert i. induction ps as [|q0 ps IH]; intros [|i] E Hq x Hx; try discriminate; cbn in *.
  - injection E as ->. intuition congruence.
  - rewrite (IH i E Hq x Hx). intuition congruence.
Qed.

Lemma new_pids cmds p : In p (map p_pid (map new_process cmds)) -> p = -1.
Proof.
  induction cmds as [|[[argv argv0] cmd] cmds IH]; cbn; [intros []|]. intros [<-|H]; auto.
Qed.

Lemma step_pids o s s' :
  basic (jobs s) -> pids_ok (jobs s) -> op_ok o s -> step o s = Some s' -> pids_ok (jobs s').
Proof.
  intros B P Hok Hst. pose proof (step_effect _ _ _ B Hst) as He. clear Hst.
  destruct He as [cmds bg|id i p|o jc Hm|fg killed id j Ej].
  - intros p k Hp. cbn [pid_to_job create_job].
    rewrite nget_fold_insert by apply B.
    change (existsb (fun q0 => Z.eqb (p_pid q0) p) (map new_process cmds)) with (has_pidb p (map new_process cmds)).
    destruct (has_pidb p (map new_process cmds)) eqn:Eh.
    { exfalso. apply Hp. apply (has_pidb_true p (job_new (map new_process cmds) 0 false)) in Eh.
      rewrite has_pid_map in Eh. eapply new_pids; exact Eh. }
    rewrite (P p k Hp). rewrite create_get by exact B.
    destruct (Z.eqb_spec k (next_job_id (jobs s))) as [->|Hn]; [|reflexivity].
    split; intros (j & E & Hh).
    + exfalso. assert (1 <= next_job_id (jobs s) < next_job_id (jobs s)) by (apply (b_next _ B); exists j; exact E). lia.
    + injection E as <-. exfalso. apply Hp. apply has_pid_map in Hh. eapply new_pids; exact Hh.
  - destruct Hok as (Hp & Hfresh & j & q & Ej & Eq & Hq).
    intros x k Hx. rewrite (started_get _ _ _ _ j _ B Ej).
    unfold started, get_job. rewrite Ej. cbn [pid_to_job update_pid_table put_job].
    rewrite nget_ninsert by apply B.
    destruct (Z.eqb_spec x p) as [->|Hxp].
    + split.
      * intros H. injection H as <-. rewrite Z.eqb_refl. eexists. split; [reflexivity|].
        apply has_pid_map. cbn. apply (set_pid_at_in i p _ q Eq Hq p Hx). auto.
      * intros (j0 & E0 & Hh). destruct (Z.eqb_spec k id) as [->|Hn]; [reflexivity|].
        exfalso. apply Hfresh. destruct Hh as (q0 & H1 & H2). exists k, j0, q0. auto.
    + rewrite (P x k Hx). destruct (Z.eqb_spec k id) as [->|Hn]; [|reflexivity].
      split; intros (j0 & E0 & Hh).
      * rewrite Ej in E0. injection E0 as <-. eexists. split; [reflexivity|].
        apply has_pid_map in Hh. apply has_pid_map. cbn. apply (set_pid_at_in i p _ q Eq Hq x Hx). auto.
      * injection E0 as <-. exists j. split; [exact Ej|]. apply has_pid_map in Hh. apply has_pid_map.
        cbn in Hh. apply (set_pid_at_in i p _ q Eq Hq x Hx) in Hh. destruct Hh; [contradiction|assumption].
  - eapply moves_pids; eauto.
  - intros p k Hp. cbn. rewrite nget_ninsert by apply B. rewrite (P p k Hp).
    destruct (Z.eqb_spec k id) as [->|Hn]; [|reflexivity]. unfold get_job in Ej. rewrite Ej.
    split; intros (j0 & E0 & Hh); injection E0 as <-; eexists; (split; [reflexivity|exact Hh]).
Qed.

Lemma run_pids os : forall s s',
  basic (jobs s) -> pids_ok (jobs s) -> run_ok os s -> run os s = Some s' -> pids_ok (jobs s').
Proof.
  induction os as [|o os IH]; intros s s' B P; cbn [run run_ok].
  - intros _ H. injection H as <-. exact P.
  - intros [Ho Hr]. destruct (step o s) as [s1|] eqn:E; [|discriminate]. intros H.
    eapply IH; [| |exact Hr|exact H].
    + eapply effect_basic; [exact B|]. eapply step_effect; eauto.
    + eapply step_pids; eauto.
Qed.

Lemma pids_ok_new : pids_ok jc_new.
Proof. intros p k _. split; [discriminate|]. intros (j & E & _). discriminate. Qed.

Lemma reachable_pids os s : run_ok os jst0 -> run os jst0 = Some s -> pids_ok (jobs s).
Proof. apply run_pids; [exact basic_new|exact pids_ok_new]. Qed.

(** ** Background marks *)

Definition marks_ok (jc : job_control) : Prop :=
  forall k, is_background_job k jc = true <-> exists j, nget k (job_table jc) = Some j /\ background j = true.

(** Histories without a change between foreground and background, and without
    a background job that has no process. *)
Definition op_plain (o : op) (s : jst) : Prop :=
  match o with
  | OCreate cmds bg => bg = true -> cmds <> []
  | OResume fg _ id => forall j, get_job id (jobs s) = Some j -> background j = negb fg
  | _ => True
  end.
Fixpoint run_plain (os : list op) (s : jst) : Prop :=
  match os with
  | [] => True
  | o :: os' => op_plain o s /\ match step o s with Some s' => run_plain os' s' | None => True end
  end.

Definition marks_inv (jc : job_control) : Prop :=
  marks_ok jc /\ forall k j, nget k (job_table jc) = Some j -> background j = true -> processes j <> [].

Lemma is_background_get k jc : is_background_job k jc = true <-> nget k (background_jobs jc) <> None.
Proof. unfold is_background_job. destruct (nget k (background_jobs jc)); split; congruence. Qed.

Lemma tweak_marks jc jc' : tweak jc jc' -> marks_inv jc -> marks_inv jc'.
Proof.
  intros T [M N]. split.
  - intros k. unfold is_background_job. rewrite (tw_bg _ _ T). fold (is_background_job k jc). rewrite (M k).
    pose proof (tw_jobs _ _ T k) as O.
    destruct (nget k (job_table jc)) as [j|], (nget k (job_table jc')) as [j'|]; cbn in O; try contradiction.
    + destruct O as (_ & Hb & _). split; intros (j0 & E & H); injection E as <-; eexists; (split; [reflexivity|congruence]).
    + split; intros (j0 & E & _); discriminate.
  - intros k j' E Hb. pose proof (tw_jobs _ _ T k) as O. rewrite E in O.
    destruct (nget k (job_table jc)) as [j|] eqn:Ej; [|contradiction].
    destruct O as (_ & Hb' & Hf). intros Hnil. rewrite Hnil in Hf. inversion Hf as [H0|]; subst.
    apply (N k j Ej); [congruence|auto].
Qed.

Lemma delete_marks id jc : basic jc -> marks_inv jc -> marks_inv (delete_job id jc).
Proof.
  intros B [M N]. destruct (delete_job_deletion id jc) as [E|j E Ep|j p0 ps st E Ep Est Hst|j p0 ps E Ep Hp Hst].
  - split; assumption.
  - split.
    + intros k. unfold is_background_job. cbn. fold (is_background_job k jc). rewrite (M k), nget_nremove.
      destruct (Z.eqb_spec k id) as [->|Hn]; [|reflexivity].
      split; intros (j0 & E0 & Hb); [|discriminate]. rewrite E in E0. injection E0 as <-.
      destruct (N id j E Hb Ep).
    + intros k j0. cbn. rewrite nget_nremove. destruct (Z.eqb k id); [discriminate|apply N].
  - split.
    + intros k. unfold is_background_job. cbn. fold (is_background_job k jc).
      rewrite (M k), nget_ninsert, nget_nremove by (apply nsorted_nremove, B).
      destruct (Z.eqb_spec k id) as [->|Hn]; [|reflexivity]. rewrite E.
      split; intros (j0 & E0 & H); injection E0 as <-; eexists; (split; [reflexivity|exact H]).
    + intros k j0. cbn. rewrite nget_ninsert, nget_nremove by (apply nsorted_nremove, B).
      destruct (Z.eqb_spec k id) as [->|Hn]; [|apply N]. intros H. injection H as <-. cbn. apply (N id j E).
  - split.
    + intros k. rewrite is_background_get. cbn. rewrite nget_nremove.
      destruct (Z.eqb_spec k id) as [->|Hn].
      * split; [|intros (j0 & E0 & _); discriminate]. intros H. exfalso. apply H.
        destruct (background j) eqn:Eb; [rewrite nget_nremove, Z.eqb_refl; reflexivity|].
        destruct (nget id (background_jobs jc)) eqn:Ei; [|reflexivity].
        assert (F : is_background_job id jc = true) by (apply is_background_get; congruence).
        apply M in F as (j0 & E0 & Hb). congruence.
      * rewrite <- (M k), is_background_get.
        destruct (background j); [|reflexivity]. rewrite nget_nremove.
        destruct (Z.eqb_spec k id); [contradiction|reflexivity].
    + intros k j0. cbn. rewrite nget_nremove. destruct (Z.eqb k id); [discriminate|apply N].
Qed.

Lemma moves_marks a b : moves a b -> basic a -> marks_inv a -> marks_inv b.
Proof.
  induction 1; intros B P; auto.
  - apply IHmoves; [eapply tweak_basic; eauto|eapply tweak_marks; eauto].
  - apply IHmoves; [apply delete_basic; exact B|apply delete_marks; assumption].
Qed.

Lemma set_pid_at_nil i p ps : set_pid_at i p ps = [] -> ps = [].
Proof. destruct ps, i; cbn; congruence. Qed.

Lemma step_marks o s s' :
  basic (jobs s) -> marks_inv (jobs s) -> op_plain o s -> step o s = Some s' -> marks_inv (jobs s').
Proof.
  intros B P Hok Hst. pose proof (step_effect _ _ _ B Hst) as He. clear Hst.
  destruct He as [cmds bg|id i p|o jc Hm|fg killed id j Ej].
  - destruct P as [M N].
    assert (Hfresh : nget (next_job_id (jobs s)) (job_table (jobs s)) = None).
    { destruct (nget (next_job_id (jobs s)) (job_table (jobs s))) as [j|] eqn:Ej; [|reflexivity].
      assert (1 <= next_job_id (jobs s) < next_job_id (jobs s)) by (apply (b_next _ B); exists j; exact Ej). lia. }
    split.
    + intros k. rewrite is_background_get. rewrite create_get by exact B. cbn [background_jobs create_job].
      destruct (Z.eqb_spec k (next_job_id (jobs s))) as [->|Hn].
      * destruct bg; [rewrite nget_ninsert, Z.eqb_refl by apply B|]; split; intros H.
        -- eexists; split; [reflexivity|reflexivity].
        -- discriminate.
        -- exfalso. apply is_background_get in H. apply M in H as (j & E & _). congruence.
        -- destruct H as (j & E & Hb). injection E as <-. discriminate.
      * rewrite <- (M k), is_background_get. destruct bg; [|reflexivity].
        rewrite nget_ninsert by apply B. destruct (Z.eqb_spec k (next_job_id (jobs s))); [contradiction|reflexivity].
    + intros k j. rewrite create_get by exact B.
      destruct (Z.eqb_spec k (next_job_id (jobs s))) as [->|Hn]; [|apply N].
      intros H. injection H as <-. cbn. intros Hb E. apply map_eq_nil in E. exact (Hok Hb E).
  - unfold started, get_job. destruct (nget id (job_table (jobs s))) as [j|] eqn:Ej; [|exact P].
    destruct P as [M N]. split.
    + intros k. unfold is_background_job. cbn. fold (is_background_job k (jobs s)). rewrite (M k).
      rewrite nget_ninsert by apply B. destruct (Z.eqb_spec k id) as [->|Hn]; [|reflexivity]. rewrite Ej.
      split; intros (j0 & E0 & H); injection E0 as <-; eexists; (split; [reflexivity|exact H]).
    + intros k j0. cbn. rewrite nget_ninsert by apply B. destruct (Z.eqb_spec k id) as [->|Hn]; [|apply N].
      intros H. injection H as <-. cbn. intros Hb E. apply set_pid_at_nil in E. exact (N id j Ej Hb E).
  - eapply moves_marks; eauto.
  - cbn in Hok. specialize (Hok j Ej). destruct P as [M N]. unfold get_job in Ej. split.
    + intros k. unfold is_background_job. cbn. fold (is_background_job k (jobs s)). rewrite (M k).
      rewrite nget_ninsert by apply B. destruct (Z.eqb_spec k id) as [->|Hn]; [|reflexivity]. rewrite Ej.
      split; intros (j0 & E0 & H); injection E0 as <-; eexists; (split; [reflexivity|cbn in *; congruence]).
    + intros k j0. cbn. rewrite nget_ninsert by apply B. destruct (Z.eqb_spec k id) as [->|Hn]; [|apply N].
      intros H. injection H as <-. cbn. intros Hb. apply (N id j Ej). congruence.
Qed.

Lemma run_marks os : forall s s',
  basic (jobs s) -> marks_inv (jobs s) -> run_plain os s -> run os s = Some s' -> marks_inv (jobs s').
Proof.
  induction os as [|o os IH]; intros s s' B P; cbn [run run_plain].
  - intros _ H. injection H as <-. exact P.
  - intros [Ho Hr]. destruct (step o s) as [s1|] eqn:E; [|discriminate]. intros H.
    eapply IH; [| |exact Hr|exact H].
    + eapply effect_basic; [exact B|]. eapply step_effect; eauto.
    + eapply step_marks; eauto.
Qed.

Lemma marks_new : marks_inv jc_new.
Proof. split; [intros k; split; [discriminate|intros (j & E & _); discriminate]|intros; discriminate]. Qed.

(** ** The current job *)

Definition current_live (jc : job_control) : Prop :=
  forall k, current_job jc = Some k -> live k jc.

Lemma get_current_job_live jc : get_current_job jc <> None <-> current_live jc.
Proof.
  unfold get_current_job, current_live, live. destruct (current_job jc) as [k|]; [|split; [intros _ k; discriminate|discriminate]].
  destruct (nget k (job_table jc)) as [j|] eqn:E; split; intros H.
  - intros k' Ek. injection Ek as <-. eauto.
  - discriminate.
  - congruence.
  - destruct (H k eq_refl) as [j Hj]. congruence.
Qed.

(** Whatever happens, a current job that is no longer live was current before:
    the shell never makes a dead job current. *)
Lemma delete_current id jc : current_job (delete_job id jc) = current_job jc.
Proof. destruct (delete_job_deletion id jc); reflexivity. Qed.

Lemma delete_live id jc k : basic jc -> k <> id -> live k (delete_job id jc) <-> live k jc.
Proof.
  intros B Hk. unfold live.
  destruct (delete_job_deletion id jc) as [E|j E Ep|j p0 ps st E Ep Est Hst|j p0 ps E Ep Hp Hst]; cbn.
  - reflexivity.
  - rewrite nget_nremove. destruct (Z.eqb_spec k id); [contradiction|reflexivity].
  - rewrite nget_ninsert, nget_nremove by (apply nsorted_nremove, B). destruct (Z.eqb_spec k id); [contradiction|reflexivity].
  - rewrite nget_nremove. destruct (Z.eqb_spec k id); [contradiction|reflexivity].
Qed.

Lemma delete_live_sub id jc k : basic jc -> live k (delete_job id jc) -> live k jc.
Proof.
  intros B. destruct (Z.eqb_spec k id) as [->|Hn]; [|apply delete_live; assumption].
  unfold live. destruct (delete_job_deletion id jc) as [E|j E Ep|j p0 ps st E Ep Est Hst|j p0 ps E Ep Hp Hst]; cbn; eauto.
Qed.

Lemma moves_live_sub a b : moves a b -> basic a -> forall k, live k b -> live k a.
Proof.
  induction 1 as [jc|a b c T Hm IH|id a c Hm IH]; intros B k Hk; auto.
  - apply (proj2 (tweak_live _ _ k T)). apply IH; [eapply tweak_basic; eauto|exact Hk].
  - apply (delete_live_sub id); [exact B|]. apply IH; [apply delete_basic; exact B|exact Hk].
Qed.

Lemma moves_current a b :
  moves a b -> basic a -> current_live a -> (forall k, live k a -> live k b) -> current_live b.
Proof.
  induction 1 as [jc|a b c T Hm IH|id a c Hm IH]; intros B C Hl; auto.
  - pose proof (tweak_basic _ _ B T) as B1. apply IH; [exact B1| |].
    + intros k Hk. destruct (tw_current _ _ T) as [E|(k0 & E & Hk0)].
      * apply (proj1 (tweak_live _ _ k T)). apply C. congruence.
      * rewrite E in Hk. injection Hk as <-. exact Hk0.
    + intros k Hk. apply Hl. apply (proj2 (tweak_live _ _ k T)); exact Hk.
  - pose proof (delete_basic id _ B) as B1. apply IH; [exact B1| |].
    + intros k Hk. rewrite delete_current in Hk. pose proof (C k Hk) as Hka.
      apply (moves_live_sub _ _ Hm B1). apply Hl. exact Hka.
    + intros k Hk. apply Hl. eapply delete_live_sub; eauto.
Qed.

(** An operation that removes no job keeps the current job live. *)
Lemma step_current o s s' :
  basic (jobs s) -> current_live (jobs s) -> step o s = Some s' ->
  (forall k, live k (jobs s) -> live k (jobs s')) -> current_live (jobs s').
Proof.
  intros B C Hst Hl. pose proof (step_effect _ _ _ B Hst) as He. clear Hst.
  destruct He as [cmds bg|id i p|o jc Hm|fg killed id j Ej].
  - intros k Hk. cbn in Hk. injection Hk as <-. eexists. rewrite create_get by exact B. rewrite Z.eqb_refl. reflexivity.
  - intros k Hk. apply Hl, C. unfold started in Hk. destruct (get_job id (jobs s)); exact Hk.
  - eapply moves_current; eauto.
  - intros k Hk. apply Hl, C. exact Hk.
Qed.

(** ** Deciding [run_ok] on concrete histories *)

Definition pid_usedb (p : pid) (jc : job_control) : bool :=
  existsb (fun kj => existsb (fun q => Z.eqb (p_pid q) p) (processes (snd kj))) (job_table jc).

Definition op_okb (o : op) (s : jst) : bool :=
  match o with
  | OStart id i p =>
      Z.ltb 0 p && negb (pid_usedb p (jobs s)) &&
      match nget id (job_table (jobs s)) with
      | Some j => match nth_error (processes j) i with Some q => Z.eqb (p_pid q) (-1) | None => false end
      | None => false
      end
  | _ => true
  end.

Fixpoint run_okb (os : list op) (s : jst) : bool :=
  match os with
  | [] => true
  | o :: os' => op_okb o s && match step o s with Some s' => run_okb os' s' | None => true end
  end.

Lemma pid_usedb_false p jc : pid_usedb p jc = false -> ~ pid_used p jc.
Proof.
  intros H (k & j & q & Hj & Hq & Hp).
  assert (T : pid_usedb p jc = true); [|congruence].
  apply existsb_exists. exists (k, j). split; [apply nget_In; exact Hj|].
  apply existsb_exists. exists q. split; [exact Hq|]. apply Z.eqb_eq; exact Hp.
Qed.

Lemma op_okb_ok o s : op_okb o s = true -> op_ok o s.
Proof.
  destruct o; cbn [op_okb op_ok]; auto. rewrite !Bool.andb_true_iff. intros [[H1 H2] H3].
  split; [apply Z.ltb_lt; exact H1|]. split.
  - apply pid_usedb_false. destruct (pid_usedb p (jobs s)); [discriminate|reflexivity].
  - destruct (nget id (job_table (jobs s))) as [j|]; [|discriminate].
    destruct (nth_error (processes j) i) as [q|] eqn:E; [|discriminate].
    exists j, q. split; [reflexivity|]. split; [exact E|]. apply Z.eqb_eq. exact H3.
Qed.

Lemma run_okb_ok os : forall s, run_okb os s = true -> run_ok os s.
Proof.
  induction os as [|o os IH]; intros s; cbn [run_okb run_ok]; [auto|].
  rewrite Bool.andb_true_iff. intros [H1 H2]. split; [apply op_okb_ok; exact H1|].
  destruct (step o s); [apply IH; exact H2|exact I].
Qed.
