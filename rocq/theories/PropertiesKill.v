(** Property C122: whom the shell signals. *)
From Verif Require Import Base BaseFacts Ast Parser Context Alias Expand Jobs JobsSpec JobsFacts Shell Builtins Eval.
From Verif Require Import EvalSpec EvalFacts EvalLaws EvalKeeps EvalStack PipeSpec EvalFds EvalKill RunSpec Main MainSpec MainLaws MainKeeps.
From Verif Require PropertiesMain PropertiesSession PropertiesEval PropertiesRun PropertiesPersist.
Local Open Scope Z_scope.

Ltac same := apply hunts_same; [reflexivity|reflexivity|reflexivity|quiet].
Lemma child_hunts loose w : keeps true (hunts loose) (child_signal w).
Proof.
  apply keeps_raw. intros s. unfold child_signal. destruct (_ || _)%bool; [same|].
  destruct (sig_chld _ _ _) as [[] j r| |] eqn:E; [|same|same].
  apply hunts_moves; [|reflexivity|reflexivity|quiet]. intros B. cbn. eapply sig_chld_moves; eassumption.
Qed.
Lemma main_hunts loose w n k args ins : (forall bg pcs, Forall EvalJobs.fresh pcs -> keeps true (hunts loose) (run_job w bg pcs)) ->
  keeps true (hunts loose) (main w n k args ins).
Proof.
  intros Hj. apply (ks_main _ _ (hunts_pre loose)).
  - apply evaluate_hunts, Hj.
  - intros A p bad m Hb Hm. apply (keeps_bind _ _ (hunts_pre loose)); [apply kk_open|]. intros [f|]; [apply kk_while; exact Hm|exact Hb].
  - intros s t f _. same.
  - intros t. apply keeps_change. intros s. apply hunts_moves; [intros _; apply moves_refl|reflexivity|reflexivity|quiet].
  - apply keeps_change. intros s. same.
  - intros p. apply (keeps_try_cm _ _ _ (hunts_pre loose)). intros. same.
  - apply keeps_change. intros s. same.
  - apply keeps_raw. intros s. same.
  - apply child_hunts.
  - intros p. apply kk_open.
Qed.
Lemma aimed_split loose post p pre : aimed loose (post ++ EKill p :: pre) -> mine loose pre p.
Proof. induction post as [|e post IH]; cbn [app aimed]; [intros [H _]; apply H; reflexivity|intros [_ H]; exact (IH H)]. Qed.
Lemma born_in p tr : In p (born tr) <-> exists i c q, In (EFork i c (Some q)) tr /\ p = Zpos q.
Proof.
  unfold born. rewrite in_flat_map. split.
  - intros (e & He & H). destruct e as [| | | |i c [q|]| | | | | |]; cbn in H; try tauto. destruct H as [<-|[]]. eauto.
  - intros (i & c & q & H & ->). exists (EFork i c (Some q)). split; [exact H|left; reflexivity].
Qed.
Lemma fresh_inv loose root cwd ppid pid env fds : table fds -> no_future_pipe fds 0 ->
  inv loose (Shell (fresh_image root cwd ppid pid env fds) []).
Proof.
  intros Ht Hn. constructor.
  - apply basic_new.
  - split; [exact Ht|exact Hn].
  - intros k j q Hk. discriminate.
  - exact I.
Qed.

(** In a session during which pipes and processes can be made, every signal goes to a
    process that the shell has started before. *)
Theorem C122_own_partial : forall w n k args ins root cwd ppid pid env fds o s' post p pre,
  table fds -> no_future_pipe fds 0 -> (forall tr, r_fork (w tr) <> None) -> (forall tr, r_pipe (w tr) = true) ->
  main w n k args ins (Shell (fresh_image root cwd ppid pid env fds) []) = (o, s') ->
  trace s' = post ++ EKill p :: pre ->
  exists i c q, In (EFork i c (Some q)) pre /\ p = Zpos q.
Proof.
  intros w n k args ins root cwd ppid pid env fds o s' post p pre Ht Hn Hfk Hpp H E.
  assert (K : keeps true (hunts false) (main w n k args ins)) by (apply main_hunts; intros; apply job_strict; assumption).
  specialize (K _ _ _ H (or_introl eq_refl) (fresh_inv false _ _ _ _ _ _ Ht Hn)).
  apply i_aimed in K. rewrite E in K. apply aimed_split in K. destruct K as [K|[F _]]; [|discriminate]. apply born_in, K.
Qed.
(** Whatever the system does, it goes to such a process, or to every process of the
    system. *)
Theorem C122_any_partial : forall w n k args ins root cwd ppid pid env fds o s' post p pre,
  table fds -> no_future_pipe fds 0 ->
  main w n k args ins (Shell (fresh_image root cwd ppid pid env fds) []) = (o, s') ->
  trace s' = post ++ EKill p :: pre ->
  (exists i c q, In (EFork i c (Some q)) pre /\ p = Zpos q) \/ p = -1.
Proof.
  intros w n k args ins root cwd ppid pid env fds o s' post p pre Ht Hn H E.
  assert (K : keeps true (hunts true) (main w n k args ins)) by (apply main_hunts; intros; apply job_loose; assumption).
  specialize (K _ _ _ H (or_introl eq_refl) (fresh_inv true _ _ _ _ _ _ Ht Hn)).
  apply i_aimed in K. rewrite E in K. apply aimed_split in K. destruct K as [K|[_ F]]; [left; apply born_in, K|right; exact F].
Qed.

Import PropertiesMain.
(** A system without pipes or without processes. *)
Definition poor (pipe fork : bool) : os := fun t =>
  let r := plain_os "" t in
  Reports (r_isfile r) (r_open r) (r_read r) (r_chdir r) (r_cwd r) (fun _ => true) pipe (if fork then Some 100%positive else None)
    (r_exec r) (r_getpid r) (r_waits r) (r_subst r).
Definition killed_in (w : os) (lines : list string) : list event :=
  filter (fun e => match e with EKill _ => true | _ => false end)
    (trace (snd (main w 5 0 (words ["rsh"]%string) (map (fun l => TLine (lit l)) lines) (Shell ex_fresh [])))).
(** After a pipeline that could not be connected, or a command in the background that
    could not be started, [bg] and [fg] signal every process of the system. *)
Theorem C122_everyone_refuted :
  killed_in (poor false true) ["ls | wc"; "bg %1"]%string = [EKill (-1); EKill (-1)] /\
  killed_in (poor true false) ["ls &"; "fg %1"]%string = [EKill (-1)].
Proof. split; vm_compute; reflexivity. Qed.
Example C122_example :
  table ex_fds /\ no_future_pipe ex_fds 0 /\ (forall tr, r_fork (poor true true tr) <> None) /\ (forall tr, r_pipe (poor true true tr) = true) /\
  killed_in (poor true true) ["ls &"; "bg %1"]%string = [EKill 100].
Proof.
  split; [|split; [|split; [|split]]]; [| |discriminate|reflexivity|vm_compute; reflexivity].
  - split; [repeat constructor|]. intros fd d H. unfold ex_fds in H. cbn [nget] in H.
    repeat match type of H with context [Z.eqb fd ?k] => destruct (Z.eqb_spec fd k); [lia|] end. discriminate.
  - intros fd d k H Hd. unfold ex_fds in H. cbn [nget] in H.
    repeat match type of H with context [Z.eqb fd ?k] => destruct (Z.eqb fd k); [injection H as <-; destruct Hd; discriminate|] end. discriminate.
Qed.

Print Assumptions C122_own_partial.
Print Assumptions C122_any_partial.
Print Assumptions C122_everyone_refuted.
