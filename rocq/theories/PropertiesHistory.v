(** Property C127, and a part of C124: the history of the lines typed, which is saved in
    a file. *)
From Verif Require Import Base BaseFacts Ast Parser Context Alias Expand Jobs Shell Builtins Eval.
From Verif Require Import EvalSpec EvalFacts EvalLaws EvalKeeps EvalSaved EvalEnds RunSpec RunLaws Main MainSpec MainLaws MainKeeps.
From Verif Require Import Subst PropertiesFiles.
From Verif Require EvalForked PropertiesMain PropertiesEval PropertiesKill.
Local Open Scope Z_scope.

Definition history_file : str := lit "history.txt".

(** ** The parts of a session *)

Lemma main_split w n k args ins s t f : parse_args args (cm (im s)) = Some (t, f) ->
  main w n k args ins s = (say_all (shown f) ;; set_up w n (script_name f) ;; goes_on w n k ins t f) (Shell (with_cm (f_cm f) (im s)) (trace s)).
Proof.
  intros Hp. unfold main. rewrite (bind_ok (look cm) _ s (cm (im s)) s eq_refl). rewrite Hp.
  rewrite (bind_ok (unwrap (Some (t, f))) _ s (t, f) s eq_refl). cbn [fst snd]. cbv zeta.
  rewrite (seq_ok (on_cm (fun _ => f_cm f)) _ s tt (Shell (with_cm (f_cm f) (im s)) (trace s)) eq_refl). reflexivity.
Qed.

(** Where the history is to be saved. *)
Lemma save_placed ok : keeps true (placed ok ok) save_history.
Proof. apply keeps_raw. intros s. apply placed_one; [reflexivity|exact (fun x => x)]. Qed.
Lemma child_placed' ok w : keeps true (placed ok ok) (child_signal w).
Proof.
  apply keeps_raw. intros s. unfold child_signal. destruct (_ || _)%bool; [apply placed_same; reflexivity|].
  destruct (sig_chld _ _ _); [apply placed_one; [reflexivity|exact (fun _ => I)]|apply placed_same; reflexivity|apply placed_same; reflexivity].
Qed.
Lemma open_placed ok w A p (bad m : M A) : keeps true (placed ok ok) bad -> keeps true (placed ok ok) m ->
  keeps true (placed ok ok) (f <- sys_open w p for_reading ;; match f with None => bad | Some f => while_open f m end).
Proof.
  intros Hb Hm. apply (keeps_bind _ _ (placed_pre ok ok)); [apply kv_open|]. intros [f|]; [apply kv_while; exact Hm|exact Hb].
Qed.
Lemma setup_placed ok w n p : keeps true (placed ok ok) (set_up w n p).
Proof.
  apply (ks_setup _ _ (placed_pre ok ok)).
  - apply evaluate_placed, quit_placed.
  - intros A q bad m. apply open_placed.
  - apply keeps_change. intros s. apply placed_same; reflexivity.
  - apply (EvalStack.keeps_try_cm _ _ _ (placed_pre ok ok)). intros s m E. apply placed_same; reflexivity.
Qed.
Lemma say_placed ok t : keeps true (placed ok ok) (say t).
Proof. apply keeps_change. intros s. apply placed_same; reflexivity. Qed.
Lemma goes_on_placed (ok : str -> Prop) w n k ins t f : (t = None -> interactive f = true -> ok history_file) ->
  keeps true (placed ok ok) (goes_on w n k ins t f).
Proof.
  intros H. unfold goes_on. destruct t as [t|].
  - apply (ks_args _ _ (placed_pre ok ok)). apply evaluate_placed, quit_placed.
  - destruct (interactive f).
    + apply (keeps_seq _ _ (placed_pre ok ok)).
      * apply keeps_change. intros s _. split; [apply H; reflexivity|]. exists []. split; [reflexivity|constructor].
      * apply (ks_loop _ _ (placed_pre ok ok)); [apply evaluate_placed, quit_placed|apply save_placed|apply child_placed'].
    + unfold script_loop. keep (placed_pre ok ok); [apply kv_open|].
      apply (ks_lines _ _ (placed_pre ok ok)). apply evaluate_placed, quit_placed.
Qed.
Lemma main_placed (ok : str -> Prop) w n k args ins s t f : parse_args args (cm (im s)) = Some (t, f) ->
  (t = None -> interactive f = true -> ok history_file) -> placed ok ok s (snd (main w n k args ins s)).
Proof.
  intros Hp Hf. destruct (main w n k args ins s) as [o s'] eqn:E. rewrite (main_split _ _ _ _ _ _ _ _ Hp) in E.
  assert (K : keeps true (placed ok ok) (say_all (shown f) ;; set_up w n (script_name f) ;; goes_on w n k ins t f)).
  { apply (keeps_seq _ _ (placed_pre ok ok)).
    { generalize (shown f). clear. induction l as [|x l IH]; cbn [say_all]; keep (placed_pre ok ok). apply say_placed. }
    apply (keeps_seq _ _ (placed_pre ok ok)); [apply setup_placed|apply goes_on_placed, Hf]. }
  cbn [snd]. exact (K _ _ _ E (or_introl eq_refl)).
Qed.

(** ** C124 *)

Lemma inside_here ok top c tr : Forall (here ok ok) top -> inside top c tr -> Forall (here ok ok) tr.
Proof.
  intros Ht H. induction H as [|o tr i log cc wp p s0 w n out s HI IH He _ Hp Hr|o tr i c r w n out s HI IH He Hr].
  - exact Ht.
  - rewrite Forall_forall in IH. specialize (IH _ He). cbn [here] in IH.
    destruct (subst_pipe_placed true ok ok wp _ _ _ Hp (or_introl eq_refl) IH) as [K _].
    destruct (subst_placed true ok ok (quit_placed ok) w n p cc _ _ _ Hr (or_introl eq_refl) K) as (_ & new & E & F).
    cbn [trace] in E. rewrite app_nil_r in E. rewrite E. exact F.
  - rewrite Forall_forall in IH. specialize (IH _ He). cbn [here] in IH.
    destruct (child_placed true ok ok (quit_placed ok) w n c _ _ _ Hr (or_introl eq_refl) IH) as (_ & new & E & F).
    cbn [trace] in E. rewrite app_nil_r in E. rewrite E. exact F.
Qed.

(** The file in which the history is saved is the same for all processes of a session at
    the prompt; otherwise it has no name. *)
Theorem C124_history : forall w n k args ins root cwd ppid pid env fds o s' c tr p want,
  asks args want -> main w n k args ins (Shell (fresh_image root cwd ppid pid env fds) []) = (o, s') ->
  inside (trace s') c tr -> In (ESave p) tr -> p = [] \/ p = history_file /\ want = Prompt.
Proof.
  intros w n k args ins root cwd ppid pid env fds o s' c tr p want Ha H HI He.
  set (s := Shell (fresh_image root cwd ppid pid env fds) []) in *.
  set (ok := fun p => p = [] \/ p = history_file /\ want = Prompt).
  assert (K : Forall (here ok ok) (trace s')).
  { destruct (parse_args args (cm (im s))) as [[t f]|] eqn:Hp.
    2:{ rewrite (main_no_front _ _ _ _ _ _ Hp) in H. injection H as <- <-. constructor. }
    assert (Hf : t = None -> interactive f = true -> ok history_file).
    { intros -> Hi. right. split; [reflexivity|]. pose proof (parse_args_asks args want (cm (im s)) Ha) as Hq. rewrite Hp in Hq.
      destruct want as [|x|file as_]; [reflexivity|destruct Hq as [out Hq]; discriminate|]. cbn [wanted_front] in Hq.
      destruct (store 1 as_ (cm (im s))); [|discriminate]. injection Hq as ->. discriminate. }
    destruct (main_placed ok w n k args ins s t f Hp Hf) as (_ & new & E & F); [left; reflexivity|].
    rewrite H in E. cbn [snd] in E. unfold s in E. cbn [trace] in E. rewrite app_nil_r in E. rewrite E. exact F. }
  apply (inside_here ok _ _ _ K) in HI. rewrite Forall_forall in HI. exact (HI _ He).
Qed.

(** ** C127 *)

Lemma text_clean w n t : clean (exec_text w n t).
Proof.
  unfold exec_text. destruct (parse t) as [[l|]|]; [apply evaluate_clean|apply clean_quiet, quiet_ret|apply clean_quiet, quiet_stop; discriminate].
Qed.
Lemma text_location w n t s o s' : exec_text w n t s = (o, s') -> history_location (im s') = history_location (im s).
Proof.
  intros H. set (ok := fun p => p = history_location (im s)).
  assert (K : keeps true (placed ok ok) (exec_text w n t)) by (apply (ks_text _ _ (placed_pre ok ok)), evaluate_placed, quit_placed).
  exact (proj1 (K _ _ _ H (or_introl eq_refl) eq_refl)).
Qed.
Lemma text_forked w n t s o s' : exec_text w n t s = (o, s') -> forked (im s') = forked (im s).
Proof.
  intros H. assert (K : keeps true EvalForked.still (exec_text w n t)) by (apply (ks_text _ _ EvalForked.still_pre), EvalForked.evaluate_still).
  exact (K _ _ _ H (or_introl eq_refl)).
Qed.

(** The history is saved at most once, at the very end: when the input is closed, or when
    the shell exits. *)
Definition ends (o : out unit) (s' : shell) (new : list event) : Prop :=
  nosave new /\ o <> OOk tt /\ (forall c, o = OExit c -> forked (im s') = true) \/
  exists t, new = ESave (history_location (im s')) :: t /\ nosave t.
Lemma session_ends w n ins s o s' : session w n ins s o s' ->
  history_location (im s') = history_location (im s) /\ forked (im s') = forked (im s) /\
  exists new, trace s' = new ++ trace s /\ ends o s' new.
Proof.
  assert (Hnil : forall s o, o = OPanic \/ o = OBlock -> history_location (im s) = history_location (im s) /\ forked (im s) = forked (im s) /\
    exists new, trace s = new ++ trace s /\ ends o s new).
  { clear. intros s o Ho. split; [reflexivity|]. split; [reflexivity|]. exists []. split; [reflexivity|]. left. split; [apply nosave_nil|].
    destruct Ho as [-> | ->]; split; discriminate. }
  assert (Hsav : forall s, history_location (im (saved s)) = history_location (im s) /\ forked (im (saved s)) = forked (im s) /\
    exists new, trace (saved s) = new ++ trace s /\ ends (OOk tt) (saved s) new).
  { clear. intros s. split; [reflexivity|]. split; [reflexivity|]. exists [ESave (history_location (im s))]. split; [reflexivity|].
    right. exists []. split; [reflexivity|apply nosave_nil]. }
  assert (Hmore : forall s s1 n1 o s', history_location (im s1) = history_location (im s) -> forked (im s1) = forked (im s) ->
    trace s1 = n1 ++ trace s -> nosave n1 ->
    history_location (im s') = history_location (im s1) /\ forked (im s') = forked (im s1) /\ (exists new, trace s' = new ++ trace s1 /\ ends o s' new) ->
    history_location (im s') = history_location (im s) /\ forked (im s') = forked (im s) /\ exists new, trace s' = new ++ trace s /\ ends o s' new).
  { clear. intros s s1 n1 o s' E1 E2 T1 N1 (E3 & E4 & new & T2 & X). split; [congruence|]. split; [congruence|].
    exists (new ++ n1). rewrite T2, T1, app_assoc. split; [reflexivity|]. destruct X as [(N2 & X1 & X2)|(t & -> & N2)].
    - left. split; [apply nosave_app; assumption|]. split; assumption.
    - right. exists (t ++ n1). split; [reflexivity|apply nosave_app; assumption]. }
  induction 1; try (apply Hnil; tauto); try apply Hsav; try assumption.
  - pose proof (text_location _ _ _ _ _ _ H1) as L. pose proof (text_forked _ _ _ _ _ _ H1) as F.
    destruct (text_clean _ _ _ _ _ _ H1) as (n1 & T1 & [[N1 _]|[G _]]); [|contradiction].
    exact (Hmore _ _ _ _ _ L F T1 N1 IHsession).
  - pose proof (text_location _ _ _ _ _ _ H1) as L. pose proof (text_forked _ _ _ _ _ _ H1) as F.
    split; [exact L|]. split; [exact F|].
    destruct (text_clean _ _ _ _ _ _ H1) as (n1 & T1 & [[N1 X1]|[_ X1]]); exists n1; (split; [exact T1|]).
    + left. split; [exact N1|]. split; [destruct r; try discriminate; destruct (H2 I)|].
      intros c E. apply (X1 c). destruct r; cbn in E; try discriminate. congruence.
    + right. exact X1.
  - refine (Hmore s (Shell (with_js j (im s)) (EWait (-1) :: trace s)) [EWait (-1)] o s' eq_refl eq_refl eq_refl _ IHsession).
    apply nosave_cons; [discriminate|apply nosave_nil].
Qed.

(** However a session at the prompt ends: the history is saved at most once, at the very
    end; and it is saved if the input is closed or the shell exits.  Missing: the other
    ways to end. *)
Theorem C127_saved_partial : forall w n k args ins root cwd ppid pid env fds o s',
  asks args Prompt -> no_startup_files w ->
  main w n k args ins (Shell (fresh_image root cwd ppid pid env fds) []) = (o, s') ->
  (forall a p b, trace s' = a ++ ESave p :: b -> p = history_file /\ a = [] /\ forall q, ~ In (ESave q) b) /\
  (o = OOk tt \/ (exists c, o = OExit c) -> exists b, trace s' = ESave history_file :: b).
Proof.
  intros w n k args ins root cwd ppid pid env fds o s' Ha Hn H.
  set (s := Shell (fresh_image root cwd ppid pid env fds) []) in *.
  set (c := Context (default_vars root cwd ppid pid env) [] []).
  pose proof (parse_args_asks args _ (cm (im s)) Ha) as Hp. cbn [wanted_front] in Hp.
  destruct (main_begins w n k args ins s _ _ c Hp eq_refl eq_refl Hn) as (s1 & Em & Htr & Hi & _ & _).
  rewrite Em in H. cbn [goes_on interactive] in H.
  rewrite (seq_ok (change at_prompt) _ s1 tt (Shell (at_prompt (im s1)) (trace s1)) eq_refl) in H. apply loop_session, session_ends in H.
  destruct H as (L & F & new & T & X). cbn [im trace] in *. rewrite Htr in T. cbn [s trace] in T. rewrite app_nil_r in T.
  change (history_location (at_prompt (im s1))) with history_file in L. change (forked (at_prompt (im s1))) with (forked (im s1)) in F.
  rewrite Hi in F. change (forked (with_cm _ _)) with false in F. unfold ends in X. rewrite L, F in X. rewrite T.
  destruct X as [(N & X1 & X2)|(t & -> & N)].
  - split.
    + intros a p b E. exfalso. apply (N p). rewrite E. apply in_elt.
    + intros [->|[cc ->]]; [congruence|]. discriminate (X2 cc eq_refl).
  - split.
    + intros a p b E. destruct a as [|e a]; cbn [app] in E; injection E.
      * intros; subst. split; [reflexivity|]. split; [reflexivity|exact N].
      * intros; subst. exfalso. apply (N p), in_elt.
    + intros _. exists t. reflexivity.
Qed.

Import PropertiesMain.
Definition typing (ls : list string) (more : list typed) : out unit * shell :=
  main (plain_os "") 5 0 (words ["rsh"]%string) (map (fun l => TLine (lit l)) ls ++ more) (Shell ex_fresh []).
Example C127_example :
  asks (words ["rsh"]%string) Prompt /\ no_startup_files (plain_os "") /\
  fst (typing ["A=1"; "cat x"]%string [TClosed]) = OOk tt /\ hd_error (trace (snd (typing ["A=1"; "cat x"]%string [TClosed]))) = Some (ESave history_file) /\
  fst (typing ["f() { exit 3; }"; "false"; "f"; "cat x"]%string [TClosed]) = OExit 3 /\
  hd_error (trace (snd (typing ["f() { exit 3; }"; "false"; "f"; "cat x"]%string [TClosed]))) = Some (ESave history_file) /\
  List.length (trace (snd (typing ["f() { exit 3; }"; "false"; "f"; "cat x"]%string [TClosed]))) = 3%nat.
Proof. split; [apply asks_bare|]. split; [apply plain_no_startup|]. vm_compute. repeat split. Qed.

(** A session that ends in any other way leaves no history: the shell crashes, is
    replaced by a program, or hangs. *)
Theorem C127_lost_refuted : exists w, no_startup_files w /\
  (exists s', main w 5 0 (words ["rsh"]%string) [TLine (lit "cat x"); TLine (lit "cd"); TClosed] (Shell ex_fresh []) = (OPanic, s') /\ nosave (trace s')) /\
  (exists p a v s', main w 5 0 (words ["rsh"]%string) [TLine (lit "cat x"); TLine (lit "exec cat x"); TClosed] (Shell ex_fresh []) = (OExec p a v, s') /\ nosave (trace s')).
Proof.
  exists (plain_os ""). split; [apply plain_no_startup|]. split.
  - eexists. split; [vm_compute; reflexivity|]. intros p H. cbn in H. intuition discriminate.
  - do 4 eexists. split; [vm_compute; reflexivity|]. intros p H. cbn in H. intuition discriminate.
Qed.

(** The file is looked for in the directory the shell is in when it ends. *)
Theorem C127_directory_refuted : exists w s', no_startup_files w /\
  main w 5 0 (words ["rsh"]%string) [TLine (lit "cd /tmp"); TClosed] (Shell ex_fresh []) = (OOk tt, s') /\
  trace s' = [ESave history_file; EChdir (lit "/tmp")].
Proof. exists (plain_os ""). eexists. split; [apply plain_no_startup|]. split; vm_compute; reflexivity. Qed.

(** A function that exits in the background: its process, too, saves the history of the
    session, in the same file, and the session goes on. *)
Theorem C127_twice_refuted : exists w s' c tr, no_startup_files w /\
  main w 5 0 (words ["rsh"]%string) (map (fun l => TLine (lit l)) ["f() { exit 3; }"; "f &"]%string ++ [TClosed]) (Shell ex_fresh []) = (OOk tt, s') /\
  inside (trace s') (Some c) tr /\ In (ESave history_file) tr /\ In (ESave history_file) (trace s').
Proof.
  set (top := trace (snd (main (PropertiesKill.poor true true) 5 0 (words ["rsh"]%string)
    (map (fun l => TLine (lit l)) ["f() { exit 3; }"; "f &"]%string ++ [TClosed]) (Shell ex_fresh [])))).
  destruct (first_child top) as [[i1 c1]|] eqn:E1; [|vm_compute in E1; discriminate].
  destruct (first_in _ _ _ E1) as [r1 I1].
  assert (H1 : inside top (Some c1) (trace (snd (child_of top)))).
  { eapply inside_child; [apply inside_shell|exact I1|]. unfold child_of. rewrite E1. apply surjective_pairing. }
  exists (PropertiesKill.poor true true).
  exists (snd (main (PropertiesKill.poor true true) 5 0 (words ["rsh"]%string)
    (map (fun l => TLine (lit l)) ["f() { exit 3; }"; "f &"]%string ++ [TClosed]) (Shell ex_fresh []))), c1, (trace (snd (child_of top))).
  split; [|split; [|split; [exact H1|split]]].
  - intros t. split; reflexivity.
  - vm_compute. reflexivity.
  - vm_compute. left. reflexivity.
  - vm_compute. left. reflexivity.
Qed.

(** Commands given with [-c]: there is no file. *)
Example C124_history_example :
  asks (words ["rsh"; "-c"; "exit"; "2"]%string) (Commands (lit "exit 2")) /\
  trace (snd (main (plain_os "") 5 0 (words ["rsh"; "-c"; "exit"; "2"]%string) [] (Shell ex_fresh []))) = [ESave []].
Proof.
  split; [|vm_compute; reflexivity].
  apply (asks_commands (lit "rsh") [] (lit "-c") (words ["exit"; "2"]%string)); [discriminate| |constructor|].
  - intros (t & E & _). discriminate.
  - exists (lit "c"). split; [reflexivity|left; reflexivity].
Qed.

Print Assumptions C124_history.
Print Assumptions C127_saved_partial.
Print Assumptions C127_lost_refuted.
Print Assumptions C127_directory_refuted.
Print Assumptions C127_twice_refuted.
