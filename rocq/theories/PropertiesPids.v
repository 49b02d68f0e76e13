(** Property C147: the number of a process stands for its job. *)
From Verif Require Import Base BaseFacts Ast Context Alias Expand Jobs JobsSpec JobsFacts JobsLaws Shell Builtins Eval Main Async.
From Verif Require Import EvalSpec EvalFacts EvalKeeps EvalPids EvalExact EvalExactAsync.
From Verif Require PropertiesMain PropertiesCoreJobs.
Local Open Scope Z_scope.

(** The system gives no number to two processes. *)
Definition once (w : os) : Prop := forall t q, r_fork (w t) = Some q -> ~ In (Zpos q) (given t).

Lemma exact_find jc p j : basic jc -> mine p jc ->
  (get_job_pid p jc = Some j <-> exists k, nget k (job_table jc) = Some j /\ exists q, In q (processes j) /\ p_pid q = p).
Proof.
  intros B M. unfold get_job_pid. split.
  - destruct (nget p (pid_to_job jc)) as [k|] eqn:E; [|discriminate]. intros Ej. apply M in E. destruct E as (j1 & E1 & Hh).
    rewrite Ej in E1. injection E1 as <-. exists k. split; [exact Ej|exact Hh].
  - intros (k & Ej & Hh). assert (X : nget p (pid_to_job jc) = Some k) by (apply M; exists j; split; assumption). rewrite X. exact Ej.
Qed.
Lemma exact_session w n k args ins root cwd ppid pid env fds o s' : once w ->
  main w n k args ins (Shell (fresh_image root cwd ppid pid env fds) []) = (o, s') -> exact s'.
Proof.
  intros Hw H. apply (main_exact w Hw n k args ins _ _ _ H (or_introl eq_refl)). split; [split; [apply basic_new|intros id l; discriminate]|]. split.
  - intros p Hp k1. split; [discriminate|]. intros (j & E & _). discriminate.
  - intros p Hp F. destruct (F eq_refl).
Qed.

Lemma exact_async w sg n k args ins root cwd ppid pid env fds o s' : once w ->
  main_async w sg n k args ins (Shell (fresh_image root cwd ppid pid env fds) []) = (o, s') -> exact s'.
Proof.
  intros Hw H. apply (main_async_exact w sg Hw n k args ins _ _ _ H (or_introl eq_refl)). split; [split; [apply basic_new|intros id l; discriminate]|]. split.
  - intros p Hp k1. split; [discriminate|]. intros (j & E & _). discriminate.
  - intros p Hp F. destruct (F eq_refl).
Qed.

(** A number is looked up and gives the job one of whose processes has it; there is at
    most one such job, and one process in it; and the numbers in the table are those that the system gave. *)
Definition numbers_lead (s : shell) : Prop :=
  let jc := jobs (js (im s)) in
  (forall p j, p <> -1 -> (get_job_pid p jc = Some j <-> exists id, nget id (job_table jc) = Some j /\ exists q, In q (processes j) /\ p_pid q = p)) /\
  (forall a b ja jb q r, nget a (job_table jc) = Some ja -> nget b (job_table jc) = Some jb -> In q (processes ja) -> In r (processes jb) ->
     p_pid q = p_pid r -> p_pid q <> -1 -> a = b) /\
  (forall a j m n q r, nget a (job_table jc) = Some j -> nth_error (processes j) m = Some q -> nth_error (processes j) n = Some r ->
     p_pid q = p_pid r -> p_pid q <> -1 -> m = n) /\
  (forall a j q, nget a (job_table jc) = Some j -> In q (processes j) -> p_pid q <> -1 ->
     exists d c g, In (EFork d c (Some g)) (trace s) /\ p_pid q = Zpos g).
Lemma exact_lead s : exact s -> numbers_lead s.
Proof.
  intros ([B D] & M & G). unfold numbers_lead. set (jc := jobs (js (im s))) in *. split; [|split; [|split]].
  - intros p j Hp. apply exact_find; [exact B|apply M, Hp].
  - intros a b ja jb q r Ea Eb Hq Hr E Hp.
    assert (X : nget (p_pid q) (pid_to_job jc) = Some a) by (apply M; [exact Hp|exists ja; split; [exact Ea|exists q; auto]]).
    assert (Y : nget (p_pid q) (pid_to_job jc) = Some b) by (apply M; [exact Hp|exists jb; split; [exact Eb|exists r; auto]]). congruence.
  - intros a j m n q r Ea Hm Hn E Hp. apply (D a (map p_pid (processes j))) with (p_pid q); [unfold numbers; rewrite Ea; reflexivity|..|exact Hp];
      rewrite nth_error_map; [rewrite Hm|rewrite Hn, E]; reflexivity.
  - intros a j q Ea Hq Hp.
    assert (X : nget (p_pid q) (pid_to_job jc) = Some a) by (apply M; [exact Hp|exists j; split; [exact Ea|exists q; auto]]).
    assert (I : In (p_pid q) (given (trace s))) by (apply G; [exact Hp|rewrite X; discriminate]).
    unfold given in I. apply in_flat_map in I. destruct I as (e & He & I). destruct e as [| | | |d c [g|]| | | | | |]; try destruct I.
    + exists d, c, g. split; [exact He|]. symmetry. assumption.
    + contradiction.
Qed.

(** In every session, however it goes on or ends. *)
Theorem C147_session : forall w n k args ins root cwd ppid pid env fds o s', once w ->
  main w n k args ins (Shell (fresh_image root cwd ppid pid env fds) []) = (o, s') -> numbers_lead s'.
Proof. intros *. intros Hw H. eapply exact_lead, exact_session; eassumption. Qed.
(** Also when signals arrive in the middle of commands: between a fork and the moment
    its number is entered, while the shell waits, while it deletes a job. *)
Theorem C147_signals : forall w sg n k args ins root cwd ppid pid env fds o s', once w ->
  main_async w sg n k args ins (Shell (fresh_image root cwd ppid pid env fds) []) = (o, s') -> numbers_lead s'.
Proof. intros *. intros Hw H. eapply exact_lead, exact_async; eassumption. Qed.

(** So [fg] and [bg] with the number of a process are [fg] and [bg] with the number of
    its job. *)
Theorem C147_by_process : forall w sg n k args ins root cwd ppid pid env fds o s', once w ->
  main_async w sg n k args ins (Shell (fresh_image root cwd ppid pid env fds) []) = (o, s') ->
  forall id j q, nget id (job_table (jobs (js (im s')))) = Some j -> In q (processes j) -> p_pid q <> -1 -> to_i32 (p_pid q) = p_pid q ->
  forall fg, fg_or_bg w fg false (p_pid q) s' = fg_or_bg w fg true id s' /\ fg_or_bg_async w sg fg false (p_pid q) s' = fg_or_bg_async w sg fg true id s'.
Proof.
  intros w sg n k args ins root cwd ppid pid env fds o s' Hw H id j q Ej Hq Hp Hi fg.
  destruct (exact_async _ _ _ _ _ _ _ _ _ _ _ _ _ _ Hw H) as ([B _] & M & _). unfold fg_or_bg, fg_or_bg_async, bind at 1 3 5 7, look. cbv iota. rewrite Hi.
  assert (X : get_job_pid (p_pid q) (jobs (js (im s'))) = Some j) by (apply (exact_find _ _ _ B (M _ Hp)); eauto).
  unfold bind, look. rewrite X. unfold get_job. rewrite Ej. split; reflexivity.
Qed.

(** A report reaches the job of its process: when a child ended or was stopped while the
    shell is at its prompt, nothing happens to a job that it does not belong to (unless
    the handler begins to wait for the rest of a background pipeline, C84), and when it
    belongs to none, nothing happens to any. *)
Lemma delete_other id k jc : basic jc -> k <> id -> nget k (job_table (delete_job id jc)) = nget k (job_table jc).
Proof.
  intros B Hk. assert (E : Z.eqb k id = false) by (apply Z.eqb_neq; exact Hk).
  destruct (delete_job_deletion id jc); cbn [job_table put_table]; rewrite ?nget_ninsert by (apply nsorted_nremove, B); rewrite ?nget_nremove, ?E; reflexivity.
Qed.
Lemma set_process_status_same p e j : same_job j (set_process_status p e j).
Proof. repeat split. cbn. apply set_status_same. Qed.
Lemma set_status_others p e ps m x : nth_error ps m = Some x -> p_pid x <> p -> nth_error (set_status_in p e ps) m = Some x.
Proof.
  revert m. induction ps as [|y ps IH]; intros [|m] H N; cbn in *; try discriminate.
  - injection H as ->. destruct (Z.eqb_spec (p_pid x) p); [contradiction|reflexivity].
  - destruct (Z.eqb (p_pid y) p); [exact H|exact (IH m H N)].
Qed.
Lemma set_status_its p e ps : (forall a b, nth_error (map p_pid ps) a = Some p -> nth_error (map p_pid ps) b = Some p -> a = b) ->
  forall x, In x (set_status_in p e ps) -> p_pid x = p -> p_status x = Some e.
Proof.
  induction ps as [|y ps IH]; intros D x Hx Hp; cbn in *; [destruct Hx|]. destruct (Z.eqb_spec (p_pid y) p) as [Ey|Ny].
  - destruct Hx as [<-|Hx]; [reflexivity|]. apply (in_map p_pid) in Hx. rewrite Hp in Hx. apply In_nth_error in Hx. destruct Hx as [m Hm].
    assert (F : O = S m) by (apply D; [cbn; congruence|exact Hm]). discriminate.
  - destruct Hx as [<-|Hx]; [contradiction|]. apply IH; [|exact Hx|exact Hp]. intros a b Ha Hb.
    assert (F : S a = S b) by (apply D; assumption). congruence.
Qed.
Theorem C147_report : forall w sg n k args ins root cwd ppid pid env fds o s', once w ->
  main_async w sg n k args ins (Shell (fresh_image root cwd ppid pid env fds) []) = (o, s') ->
  forall ps4 e p r j' r', event_of e p -> p <> -1 -> sig_chld ps4 (AStatus e :: r) (js (im s')) = WDone tt j' r' ->
  ((forall id j, nget id (job_table (jobs (js (im s')))) = Some j -> ~ has_pid p j) -> jobs j' = jobs (js (im s'))) /\
  (forall id j, nget id (job_table (jobs (js (im s')))) = Some j -> has_pid p j -> background j = false \/ List.length (processes j) = 1%nat ->
    (forall a, a <> id -> nget a (job_table (jobs j')) = nget a (job_table (jobs (js (im s'))))) /\
    (background j = false -> exists j1, nget id (job_table (jobs j')) = Some j1 /\ map p_pid (processes j1) = map p_pid (processes j) /\
       (forall x, In x (processes j1) -> p_pid x = p -> p_status x = Some e) /\
       forall m x, nth_error (processes j) m = Some x -> p_pid x <> p -> nth_error (processes j1) m = Some x)).
Proof.
  intros w sg n k args ins root cwd ppid pid env fds o s' Hw H ps4 e p r j' r' He Hp E.
  destruct (exact_async _ _ _ _ _ _ _ _ _ _ _ _ _ _ Hw H) as ([B D] & M & _). specialize (M p Hp). set (s := js (im s')) in *. clearbody s. clear H.
  split.
  - intros Hno. assert (X : nget p (pid_to_job (jobs s)) = None).
    { destruct (nget p (pid_to_job (jobs s))) as [id|] eqn:X; [|reflexivity]. apply M in X. destruct X as (j & Ej & Hh). destruct (Hno id j Ej Hh). }
    unfold sig_chld in E. destruct He; cbn [with_sigchld jobs] in E; rewrite X in E; injection E as <- _; reflexivity.
  - intros id j Ej Hh Hb. assert (X : nget p (pid_to_job (jobs s)) = Some id) by (apply M; exists j; split; assumption).
    assert (G : get_job id (jobs s) = Some j) by exact Ej.
    set (jc1 := put_job id (set_process_status p e j) (jobs s)) in *.
    assert (N1 : nget id (job_table jc1) = Some (set_process_status p e j)).
    { unfold jc1, put_job. cbn. rewrite nget_ninsert by apply B. rewrite Z.eqb_refl. reflexivity. }
    assert (O1 : forall a, a <> id -> nget a (job_table jc1) = nget a (job_table (jobs s))).
    { intros a Ha. unfold jc1, put_job. cbn. rewrite nget_ninsert by apply B. apply Z.eqb_neq in Ha. rewrite Ha. reflexivity. }
    assert (B1 : basic jc1) by (eapply tweak_basic; [exact B|eapply put_job_tweak; [apply B|exact Ej|apply set_process_status_same]]).
    assert (Sg : forall msg, (if background j then
        match wait_for_job_sigchld ps4 id e r (match msg with None => with_jobs jc1 (with_sigchld true s) | Some m => print (lit "Job [" ++ Z_to_str (job_id j) ++ lit "] (" ++ Z_to_str p ++ lit ") " ++ m) (with_jobs jc1 (with_sigchld true s)) end) with
        | WDone _ s3 r' => WDone tt (with_masked (masked s) s3) r' | WPanic => WPanic | WBlock => WBlock end
      else WDone tt (with_jobs jc1 (with_sigchld true s)) r) = WDone tt j' r' ->
      (forall a, a <> id -> nget a (job_table (jobs j')) = nget a (job_table (jobs s))) /\ (background j = false -> jobs j' = jc1)).
    { intros msg Es. destruct (background j) eqn:Eb.
      - split; [|discriminate]. destruct Hb as [Hb|Hb]; [discriminate|].
        unfold wait_for_job_sigchld in Es.
        match type of Es with context [get_job id (jobs ?x)] => assert (Ex : jobs x = jc1) by (destruct msg; reflexivity); rewrite Ex in Es end.
        unfold get_job in Es. rewrite N1 in Es.
        assert (Hl : List.length (processes (set_process_status p e j)) = 1%nat).
        { rewrite <- Hb, <- (map_length p_pid (processes j)), <- (map_length p_pid). f_equal. apply same_job_pids, set_process_status_same. }
        destruct (processes (set_process_status p e j)) as [|x [|y l]]; try discriminate.
        injection Es as <- _. intros a Ha. cbn [with_masked jobs shell_delete_job with_jobs].
        rewrite delete_other; [|eapply put_flags_basic; [exact B1|exact N1|reflexivity]|exact Ha].
        unfold put_job at 1. cbn [job_table]. rewrite nget_ninsert by apply B1. apply Z.eqb_neq in Ha as Ha'. rewrite Ha'. apply O1, Ha.
      - injection Es as <- _. split; [exact O1|reflexivity]. }
    assert (K : (forall a, a <> id -> nget a (job_table (jobs j')) = nget a (job_table (jobs s))) /\ (background j = false -> jobs j' = jc1)).
    { unfold sig_chld in E. destruct He; cbn [with_sigchld jobs] in E; rewrite X, G in E; [apply (Sg None)|apply (Sg (Some (lit "terminated by signal")))|apply (Sg (Some (lit "stopped by signal")))]; exact E. }
    split; [apply K|]. intros Hf. exists (set_process_status p e j). rewrite (proj2 K Hf). split; [exact N1|].
    split; [apply same_job_pids, set_process_status_same|]. cbn [set_process_status with_processes processes]. split.
    + apply set_status_its. intros a b Ha Hc. apply (D id (map p_pid (processes j))) with p; try assumption. unfold numbers. rewrite Ej. reflexivity.
    + intros m x. apply set_status_others.
Qed.

(** Whatever is run: when no job has two meanings before, none has after. *)
Theorem C147_kept : forall w n l s o s' p, basic (jobs (js (im s))) -> p <> -1 ->
  (forall t q, r_fork (w t) = Some q -> Zpos q <> p) ->
  (forall j, get_job_pid p (jobs (js (im s))) = Some j <-> exists k, nget k (job_table (jobs (js (im s)))) = Some j /\ exists q, In q (processes j) /\ p_pid q = p) ->
  (forall k, nget p (pid_to_job (jobs (js (im s)))) = Some k -> nget k (job_table (jobs (js (im s)))) <> None) ->
  evaluate w n l s = (o, s') ->
  forall j, get_job_pid p (jobs (js (im s'))) = Some j <-> exists k, nget k (job_table (jobs (js (im s')))) = Some j /\ exists q, In q (processes j) /\ p_pid q = p.
Proof.
  intros w n l s o s' p B Hp Hn H1 H2 H j.
  assert (M : mine p (jobs (js (im s)))).
  { intros k. split.
    - intros E. destruct (nget k (job_table (jobs (js (im s))))) as [j1|] eqn:E1; [|destruct (H2 k E E1)]. exists j1. split; [reflexivity|].
      assert (X : get_job_pid p (jobs (js (im s))) = Some j1) by (unfold get_job_pid; rewrite E; exact E1).
      apply H1 in X. destruct X as (k2 & _ & X). exact X.
    - intros (j1 & E1 & Hh). assert (X : get_job_pid p (jobs (js (im s))) = Some j1) by (apply H1; exists k; split; assumption).
      unfold get_job_pid in X. destruct (nget p (pid_to_job (jobs (js (im s))))) as [k2|] eqn:E2; [|discriminate].
      apply (b_ids _ B) in X. apply (b_ids _ B) in E1. congruence. }
  destruct (evaluate_ours p Hp w Hn n l s o s' H (or_introl eq_refl) B M) as [B' M'].
  apply exact_find; assumption.
Qed.

(** A session in which a program is stopped, a pipeline is started in the background and
    another program is stopped. *)
Definition ex_once : os := fun t =>
  let r := PropertiesCoreJobs.ex_terminal t in
  Reports (r_isfile r) (r_open r) (r_read r) (r_chdir r) (r_cwd r) (r_kill r) (r_pipe r)
    (Some (Z.to_pos (1 + fold_right Z.max 99 (given t)))) (r_exec r) (r_getpid r) (r_waits r) (r_subst r).
Lemma ex_once_once : once ex_once.
Proof.
  intros t q E. assert (Eq : q = Z.to_pos (1 + fold_right Z.max 99 (given t))) by (unfold ex_once in E; cbn [r_fork] in E; congruence). subst q. clear E.
  assert (B : 99 <= fold_right Z.max 99 (given t) /\ forall p, In p (given t) -> p <= fold_right Z.max 99 (given t)).
  { induction (given t) as [|x l IH]; cbn; [split; [lia|intros p []]|]. destruct IH as [I1 I2]. split; [lia|].
    intros p [->|Hp]; [lia|]. specialize (I2 p Hp). lia. }
  intros Hi. destruct B as [B1 B2]. apply B2 in Hi. rewrite Z2Pos.id in Hi by lia. lia.
Qed.
Definition ex_session := main ex_once 5 0 [lit "rsh"] (map (fun t => TLine (lit t)) ["vi x"; "ls | cat &"; "less y"; "bg %1"]%string)
  (Shell PropertiesMain.ex_fresh []).
Example C147_session_example : once ex_once /\
  map (fun kj => (fst kj, map p_pid (processes (snd kj)))) (job_table (jobs (js (im (snd ex_session))))) = [(1, [100]); (2, [101; 102]); (3, [103])] /\
  map (fun p => option_map job_id (get_job_pid p (jobs (js (im (snd ex_session)))))) [100; 101; 102; 103; 104] = [Some 1; Some 2; Some 2; Some 3; None] /\
  to_i32 102 = 102 /\ fg_or_bg ex_once false false 102 (snd ex_session) = fg_or_bg ex_once false true 2 (snd ex_session).
Proof. split; [exact ex_once_once|]. vm_compute. repeat split. Qed.
(** The same with signals between every fork and the entry of its number, and at the
    beginning of every command: what is reported about the programs is taken by the
    handler, and of the jobs the second is left. *)
Definition ex_signals (p : point) (t : list event) : arrivals := match p with PForked => [Int [0%nat]] | PStart => [Sig 0] | _ => [] end.
Definition ex_async := main_async ex_once ex_signals 5 0 [lit "rsh"] (map (fun t => TLine (lit t)) ["vi x"; "ls | cat &"; "less y"; "bg %1"]%string)
  (Shell PropertiesMain.ex_fresh []).
Example C147_signals_example : once ex_once /\
  map (fun kj => (fst kj, map p_pid (processes (snd kj)))) (job_table (jobs (js (im (snd ex_async))))) = [(1, [101; 102])] /\
  map (fun p => option_map job_id (get_job_pid p (jobs (js (im (snd ex_async)))))) [100; 101; 102; 103; 104] = [None; Some 1; Some 1; None; None] /\
  fg_or_bg_async ex_once ex_signals false false 102 (snd ex_async) = fg_or_bg_async ex_once ex_signals false true 1 (snd ex_async).
Proof. split; [exact ex_once_once|]. vm_compute. repeat split. Qed.
Definition ex_session2 := main_async ex_once (fun _ _ => []) 5 0 [lit "rsh"] (map (fun t => TLine (lit t)) ["vi x"; "less y"; "bg %1"]%string)
  (Shell PropertiesMain.ex_fresh []).
(** A program that was continued ends, one that is stopped is killed, and one that belongs
    to no job ends. *)
Definition after_report (e : wait_status) : option (list (Z * list (option wait_status))) :=
  match sig_chld None [AStatus e] (js (im (snd ex_session2))) with
  | WDone _ j _ => Some (map (fun kj => (fst kj, map p_status (processes (snd kj)))) (job_table (jobs j)))
  | _ => None end.
Example C147_report_example :
  map (fun kj => (fst kj, map p_pid (processes (snd kj)), map p_status (processes (snd kj)), background (snd kj))) (job_table (jobs (js (im (snd ex_session2))))) =
    [(1, [100], [Some (Stopped 100 SIGTSTP)], true); (2, [101], [Some (Stopped 101 SIGTSTP)], false)] /\
  after_report (Exited 100 0) = Some [(2, [Some (Stopped 101 SIGTSTP)])] /\
  after_report (Signaled 101 SIGKILL false) = Some [(1, [Some (Stopped 100 SIGTSTP)]); (2, [Some (Signaled 101 SIGKILL false)])] /\
  after_report (Exited 102 0) = Some [(1, [Some (Stopped 100 SIGTSTP)]); (2, [Some (Stopped 101 SIGTSTP)])].
Proof. vm_compute. repeat split. Qed.
Definition ex_then : os := fun t =>
  let r := ex_once t in
  Reports (r_isfile r) (r_open r) (r_read r) (r_chdir r) (r_cwd r) (r_kill r) (r_pipe r) (Some 200%positive) (r_exec r) (r_getpid r) (r_waits r) (r_subst r).
Example C147_kept_example : (forall t q, r_fork (ex_then t) = Some q -> Zpos q <> 100) /\
  match Parser.parse (lit "ls | cat &") with
  | Some (Some l) => let s' := snd (evaluate ex_then 3 l (snd ex_session)) in
      map fst (job_table (jobs (js (im s')))) = [1; 2; 3; 4] /\ option_map job_id (get_job_pid 100 (jobs (js (im s')))) = Some 1
  | _ => False end.
Proof. split; [intros t q E; injection E as <-; discriminate|]. vm_compute. repeat split. Qed.

Print Assumptions C147_session.
Print Assumptions C147_signals.
Print Assumptions C147_by_process.
Print Assumptions C147_report.
Print Assumptions C147_kept.
