(** Property C140: whom Ctrl-C and Ctrl-Z reach. *)
From Verif Require Import Base BaseFacts Ast Parser Context Alias Expand Jobs Shell Builtins Eval Subst Groups.
From Verif Require Import EvalSpec EvalFacts EvalLaws EvalKeeps PipeSpec EvalOpens RunSpec Main MainSpec MainLaws MainKeeps PropertiesFiles.
From Verif Require PropertiesMain PropertiesKill ChildLaws EvalStack.
Local Open Scope Z_scope.

Lemma group_app g a b : group_after g (a ++ b) = group_after (group_after g b) a.
Proof. induction a as [|e a IH]; [reflexivity|]. destruct e; cbn [app group_after]; try exact IH. reflexivity. Qed.
Lemma group_still g tr : Forall (fun e => forall p q, e <> ESetpgid p q) tr -> group_after g tr = g.
Proof. induction 1 as [|e tr He H IH]; [reflexivity|]. destruct e; cbn [group_after]; try exact IH. exfalso. eapply He. reflexivity. Qed.
Lemma calm_still e : calm e -> forall p q, e <> ESetpgid p q.
Proof. intros H p q ->. exact H. Qed.

(** What a child does after it has made its own group, if it does. *)
Lemma child_tail w n c : c_bg c = false -> @keeps true (owns c) unit
  (wire_child c ;; eval_prefix_suffix w (c_cmd c) ;;
   m <- look cm ;;
   if is_function (sc_name (c_cmd c)) m then
     ok <- eval_function (evaluate w n) (c_cmd c) ;; stop (OExit (if ok : bool then 0 else 1))
   else
     v <- look env ;;
     r <- catch (temp_execve w (p_argv0 (c_proc c)) (p_argv (c_proc c)) v) ;;
     match r with inl _ => stop OPanic | inr _ => stop (OExit 1) end).
Proof.
  intros _. apply (keeps_seq _ _ (owns_pre c)); [apply calmly_owns, wire_calmly|].
  apply (keeps_seq _ _ (owns_pre c)); [apply owns_prefix_suffix|].
  apply calmly_owns. kc; [apply kc_function, evaluate_calmly|apply kc_execve].
Qed.
Lemma child_group w n i c o s g : run_child w n i c = (o, s) ->
  group_after g (trace s) = if c_bg c then r_getpid (w []) else g.
Proof.
  intros H. pose (c' := Child (c_cmd c) (c_proc c) (c_prev c) (c_pipe c) false).
  assert (Own : forall e, own c' e -> forall p q, e <> ESetpgid p q).
  { intros e [K|[(r & _ & ->)|[K _]]] p q; [exact (calm_still e K p q)|discriminate|discriminate]. }
  destruct (c_bg c) eqn:Eb.
  - unfold run_child, child_main in H.
    rewrite (seq_ok (change (with_forked true)) _ (Shell i []) tt (Shell (with_forked true i) []) eq_refl) in H.
    erewrite (seq_ok (on_jobs hold_job)) in H by reflexivity. rewrite Eb in H.
    erewrite (seq_ok (p <- ask w r_getpid ;; note (ESetpgid p p))) in H by reflexivity.
    destruct (child_tail w n c' eq_refl _ _ _ H (or_introl eq_refl)) as (new & E & F). cbn [trace] in E.
    rewrite E, group_app. cbn [group_after]. apply group_still. eapply Forall_impl; [|exact F]. exact Own.
  - apply child_own in H. apply group_still. eapply Forall_impl; [|exact H].
    intros e [K|[(r & _ & ->)|[K _]]] p q; [exact (calm_still e K p q)|discriminate|congruence].
Qed.

(** The nearest ancestor (or the process itself) that was started with [&]. *)
Definition behind (l : list (child * Z)) : option Z :=
  match find (fun x => c_bg (fst x)) l with Some x => Some (snd x) | None => None end.

(** ** C140 *)

(** Every process of every session: its group is that of the terminal as long as neither
    it nor an ancestor was started with [&]; otherwise the nearest one that was is the
    leader of its group.  Nothing else matters: not [fg], not [bg], not stopping. *)
Theorem C140_groups : forall w n k args ins i o s' g0 l g tr,
  main w n k args ins (Shell i []) = (o, s') -> member g0 (trace s') l g tr ->
  g = match behind l with Some p => p | None => g0 end.
Proof.
  intros w n k args ins i o s' g0 l g tr H M.
  induction M as [|l g tr j log cc wp p s0 w2 m out s M IH He Hcc Hp Hr|l g tr j c q w2 m out s M IH He Hpid Hr].
  - apply main_calm in H. apply group_still. eapply Forall_impl; [|exact H]. exact calm_still.
  - apply subst_calm in Hr. rewrite group_still; [exact IH|]. eapply Forall_impl; [|exact Hr]. exact calm_still.
  - rewrite (child_group _ _ _ _ _ _ g Hr). unfold behind in *. cbn [find fst]. destruct (c_bg c); [cbn [snd]; apply Hpid|exact IH].
Qed.
(** A key of the terminal reaches exactly the processes none of whose ancestors was
    started with [&]. *)
Theorem C140_reached_partial : forall w n k args ins i o s' g0 l g tr,
  main w n k args ins (Shell i []) = (o, s') -> member g0 (trace s') l g tr ->
  Forall (fun x => snd x <> g0) l ->
  (g = g0 <-> Forall (fun x => c_bg (fst x) = false) l).
Proof.
  intros w n k args ins i o s' g0 l g tr H M Hne. rewrite (C140_groups _ _ _ _ _ _ _ _ _ _ _ _ H M). clear M H g tr.
  unfold behind. induction Hne as [|x l Hx Hne IH]; cbn [find].
  - split; [constructor|reflexivity].
  - destruct (c_bg (fst x)) eqn:Eb.
    + split; [intros E; contradiction|]. intros F. inversion F as [|? ? F1 F2]; subst. congruence.
    + rewrite IH. split; [intros F; constructor; assumption|]. intros F. inversion F; assumption.
Qed.

(** Every process that the shell itself starts is a member. *)
Lemma member_start w n k args ins i o s' g0 j c q : main w n k args ins (Shell i []) = (o, s') -> In (EFork j c (Some q)) (trace s') ->
  exists tr, member g0 (trace s') [(c, Zpos q)] (if c_bg c then Zpos q else g0) tr.
Proof.
  intros H He.
  pose (w2 := (fun t => let r := PropertiesMain.plain_os "" t in
    Reports (r_isfile r) (r_open r) (r_read r) (r_chdir r) (r_cwd r) (r_kill r) (r_pipe r) (r_fork r) (r_exec r) (Zpos q) (r_waits r) (r_subst r)) : os).
  destruct (run_child w2 5 j c) as [o2 s2] eqn:Er. exists (trace s2).
  pose proof (member_child g0 (trace s') [] _ _ j c q w2 5 o2 s2 (member_shell g0 (trace s')) He (fun t => eq_refl) Er) as M.
  rewrite (child_group _ _ _ _ _ _ _ Er) in M.
  rewrite (group_still g0 (trace s')) in M; [exact M|]. apply main_calm in H. eapply Forall_impl; [|exact H]. exact calm_still.
Qed.

Import PropertiesMain.
(** A system on which the processes get the numbers 100, 101, ..., and what is reported
    while the shell waits is [st]. *)
Definition numbered (st : list answer) : os := fun t =>
  let r := plain_os "" t in
  Reports (r_isfile r) (r_open r) (r_read r) (r_chdir r) (r_cwd r) (fun _ => true) true
    (Some (Pos.of_nat (100 + List.length (filter (fun e => match e with EFork _ _ _ => true | _ => false end) t))%nat))
    (r_exec r) (r_getpid r) st (r_subst r).
Definition session (st : list answer) (ls : list string) : out unit * shell :=
  main (numbered st) 5 0 (words ["rsh"]%string) (map (fun l => TLine (lit l)) ls) (Shell ex_fresh []).
(** What of an event is of interest here. *)
Inductive seen := Start (name : str) (bg : bool) (p : option positive) | Wait (id : Z) | Continue (p : pid) | Else.
Definition see (e : event) : seen :=
  match e with EFork _ c r => Start (sc_name (c_cmd c)) (c_bg c) r | EWait id => Wait id | EKill p => Continue p | _ => Else end.
Lemma started_group st ls name bg q g0 : In (Start name bg (Some q)) (map see (trace (snd (session st ls)))) ->
  exists c tr, sc_name (c_cmd c) = name /\ c_bg c = bg /\ member g0 (trace (snd (session st ls))) [(c, Zpos q)] (if bg then Zpos q else g0) tr.
Proof.
  intros H. apply in_map_iff in H as (e & E & He). destruct e as [| | | |j c r| | | | | |]; try discriminate. injection E as <- <- ->.
  destruct (session st ls) as [o s'] eqn:Es. cbn [snd] in *. unfold session in Es.
  destruct (member_start _ _ _ _ _ _ _ _ g0 _ _ _ Es He) as [tr M]. exists c, tr. auto.
Qed.

(** [cat &], then [fg %1]: the shell waits for the job as for any other, but its process
    is in a group of its own.  Ctrl-C and Ctrl-Z do not reach it, and the terminal does
    not let it read (it is stopped by SIGTTIN, whatever the user does). *)
Theorem C140_fg_refuted : forall g0,
  let top := trace (snd (session [AStatus (Exited 100 0); AFail] ["cat &"; "fg %1"]%string)) in
  map see top = [Wait 1; Continue 100; Start (lit "cat") true (Some 100%positive)] /\
  exists c tr, sc_name (c_cmd c) = lit "cat" /\ member g0 top [(c, 100)] 100 tr.
Proof.
  intros g0 top. assert (E : map see top = [Wait 1; Continue 100; Start (lit "cat") true (Some 100%positive)]) by (vm_compute; reflexivity).
  split; [exact E|]. destruct (started_group [AStatus (Exited 100 0); AFail] ["cat &"; "fg %1"]%string (lit "cat") true 100 g0) as (c & tr & C1 & _ & C3).
  - fold top. rewrite E. right. right. left. reflexivity.
  - exists c, tr. split; [exact C1|exact C3].
Qed.

(** [cat], Ctrl-Z, [bg %1]: the job runs on in the background, but in the group of the
    terminal.  The next Ctrl-C, meant for something else, ends it, and it takes what is
    typed away from the shell. *)
Theorem C140_bg_refuted : forall g0,
  let top := trace (snd (session [AStatus (Stopped 100 SIGTSTP); AFail] ["cat"; "bg %1"]%string)) in
  map see top = [Continue 100; Wait 1; Start (lit "cat") false (Some 100%positive)] /\
  exists c tr, sc_name (c_cmd c) = lit "cat" /\ member g0 top [(c, 100)] g0 tr.
Proof.
  intros g0 top. assert (E : map see top = [Continue 100; Wait 1; Start (lit "cat") false (Some 100%positive)]) by (vm_compute; reflexivity).
  split; [exact E|]. destruct (started_group [AStatus (Stopped 100 SIGTSTP); AFail] ["cat"; "bg %1"]%string (lit "cat") false 100 g0) as (c & tr & C1 & _ & C3).
  - fold top. rewrite E. right. right. left. reflexivity.
  - exists c, tr. split; [exact C1|exact C3].
Qed.

(** [cat | wc &]: the two processes of one job are in two groups. *)
Theorem C140_one_group_refuted : forall g0,
  let top := trace (snd (session [] ["cat | wc &"]%string)) in
  exists c1 tr1 c2 tr2, sc_name (c_cmd c1) = lit "cat" /\ sc_name (c_cmd c2) = lit "wc" /\
    member g0 top [(c1, 100)] 100 tr1 /\ member g0 top [(c2, 101)] 101 tr2 /\
    map (fun kj => map p_pid (processes (snd kj))) (job_table (jobs (js (im (snd (session [] ["cat | wc &"]%string)))))) = [[100; 101]].
Proof.
  intros g0 top.
  assert (E : filter (fun x => match x with Start _ _ _ => true | _ => false end) (map see top) =
    [Start (lit "wc") true (Some 101%positive); Start (lit "cat") true (Some 100%positive)]) by (vm_compute; reflexivity).
  assert (I1 : In (Start (lit "cat") true (Some 100%positive)) (map see top)).
  { apply (proj1 (filter_In (fun x => match x with Start _ _ _ => true | _ => false end) _ _)). rewrite E. right. left. reflexivity. }
  assert (I2 : In (Start (lit "wc") true (Some 101%positive)) (map see top)).
  { apply (proj1 (filter_In (fun x => match x with Start _ _ _ => true | _ => false end) _ _)). rewrite E. left. reflexivity. }
  destruct (started_group [] ["cat | wc &"]%string _ _ _ g0 I1) as (c1 & tr1 & C1 & _ & M1).
  destruct (started_group [] ["cat | wc &"]%string _ _ _ g0 I2) as (c2 & tr2 & C2 & _ & M2).
  exists c1, tr1, c2, tr2. split; [exact C1|]. split; [exact C2|]. split; [exact M1|]. split; [exact M2|]. vm_compute. reflexivity.
Qed.

(** The two processes of a pipeline in the foreground are reached. *)
Example C140_example : forall g0,
  let top := trace (snd (session [AStatus (Exited 100 0); AStatus (Exited 101 0); AFail] ["cat | wc"]%string)) in
  (exists c tr, sc_name (c_cmd c) = lit "cat" /\ member g0 top [(c, 100)] g0 tr) /\
  (exists c tr, sc_name (c_cmd c) = lit "wc" /\ member g0 top [(c, 101)] g0 tr).
Proof.
  intros g0 top.
  assert (I : In (Start (lit "cat") false (Some 100%positive)) (map see top) /\ In (Start (lit "wc") false (Some 101%positive)) (map see top)).
  { assert (E : exists b, map see top = Wait 1 :: Start (lit "wc") false (Some 101%positive) :: Start (lit "cat") false (Some 100%positive) :: b).
    { eexists. vm_compute. reflexivity. }
    destruct E as (b & ->). cbn [In]. auto. }
  destruct I as [I1 I2].
  destruct (started_group [AStatus (Exited 100 0); AStatus (Exited 101 0); AFail] ["cat | wc"]%string _ _ _ g0 I1) as (c1 & tr1 & C1 & _ & M1).
  destruct (started_group [AStatus (Exited 100 0); AStatus (Exited 101 0); AFail] ["cat | wc"]%string _ _ _ g0 I2) as (c2 & tr2 & C2 & _ & M2).
  split; [exists c1, tr1; split; [exact C1|exact M1]|exists c2, tr2; split; [exact C2|exact M2]].
Qed.

Print Assumptions C140_groups.
Print Assumptions C140_reached_partial.
Print Assumptions C140_fg_refuted.
Print Assumptions C140_bg_refuted.
Print Assumptions C140_one_group_refuted.
