(** Properties C123 and C124: what the processes of a session do, and the files that
    are written. *)
From Verif Require Import Base BaseFacts Ast Parser Context Alias Expand Jobs JobsSpec JobsFacts Shell Builtins Eval.
From Verif Require Import EvalSpec EvalFacts EvalLaws EvalKeeps PipeSpec EvalOpens RunSpec Main MainSpec MainLaws MainKeeps.
From Verif Require Import Subst.
From Verif Require ChildLaws EvalStack PropertiesMain PropertiesSession PropertiesEval PropertiesRun PropertiesKill.
Local Open Scope Z_scope.

(** The processes of a session: the shell, whose events are [top], those it started for
    commands and for command substitutions, those these started, and so on.  What the
    system answers to one of them has nothing to do with what it answers to the others.
    A copy of a shell starts on a substitution with a pipe more than the shell had before
    the command. *)
Inductive inside (top : list event) : option child -> list event -> Prop :=
| inside_shell : inside top None top
| inside_subst o tr i log cc wp p s0 w n out s :
    inside top o tr -> In (ESubst i log) tr -> In cc log -> subst_pipe wp (Shell i []) = (OOk p, s0) ->
    run_subst w n (im s0) p cc = (out, s) -> inside top None (trace s)
| inside_child o tr i c r w n out s :
    inside top o tr -> In (EFork i c r) tr -> run_child w n i c = (out, s) -> inside top (Some c) (trace s).

Lemma main_calmly w n k args ins : keeps true calmly (main w n k args ins).
Proof.
  apply (ks_main _ _ calmly_pre).
  - apply evaluate_calmly.
  - intros A p bad m Hb Hm. apply (keeps_bind _ _ calmly_pre); [apply kc_open|]. intros [f|]; [apply kc_while; exact Hm|exact Hb].
  - intros. same.
  - intros t. kc.
  - kc.
  - intros p. kc.
  - kc.
  - apply keeps_raw. intros s. apply calmly_one. exact I.
  - apply keeps_raw. intros s. unfold child_signal. destruct (_ || _)%bool; [same|]. destruct (sig_chld _ _ _); first [same|apply calmly_one; exact I].
  - intros p. apply kc_open.
Qed.
Lemma main_calm w n k args ins i o s' : main w n k args ins (Shell i []) = (o, s') -> Forall calm (trace s').
Proof.
  intros H. destruct (main_calmly _ _ _ _ _ _ _ _ H (or_introl eq_refl)) as (new & E & F). cbn [trace] in E. rewrite app_nil_r in E.
  rewrite E. exact F.
Qed.

Lemma subst_calm w n i p cc o s : run_subst w n i p cc = (o, s) -> Forall calm (trace s).
Proof.
  intros H. assert (K : keeps true calmly (subst_child w n p cc)).
  { unfold subst_child, eval, eval_complete, sys_dup2. kc; apply evaluate_calmly. }
  destruct (K _ _ _ H (or_introl eq_refl)) as (new & E & F). cbn [trace] in E. rewrite app_nil_r in E. rewrite E. exact F.
Qed.

(** ** A child *)

Section Child.
Context (c : child).
(** Besides, a child opens the files of its redirections. *)
Definition own (e : event) : Prop :=
  calm e \/ (exists r, In r (redirections_in (c_cmd c)) /\ e = EOpen (filename r) (opens_as r)) \/
  (c_bg c = true /\ exists p, e = ESetpgid p p).
Definition owns (s s' : shell) : Prop := exists new, trace s' = new ++ trace s /\ Forall own new.
Lemma owns_pre : preorder owns.
Proof.
  constructor; [exists []; split; [reflexivity|constructor]|].
  intros a b d (n1 & E1 & F1) (n2 & E2 & F2). exists (n2 ++ n1). rewrite E2, E1, app_assoc. split; [reflexivity|apply Forall_app; auto].
Qed.
Lemma calmly_owns {A} (m : M A) : keeps true calmly m -> keeps true owns m.
Proof.
  intros H s o s' E Ho. destruct (H _ _ _ E Ho) as (new & E1 & F). exists new. split; [exact E1|].
  eapply Forall_impl; [|exact F]. intros e He. left. exact He.
Qed.
Lemma owns_redirect w rs : incl rs (redirections_in (c_cmd c)) -> keeps true owns (eval_redirect w rs).
Proof.
  induction rs as [|r rs IH]; intros Hi; cbn [eval_redirect]; [apply (keeps_ret _ _ owns_pre)|].
  apply (keeps_bind _ _ owns_pre).
  - unfold sys_open. apply (keeps_bind _ _ owns_pre); [apply (keeps_ask _ _ owns_pre)|]. intros [|]; [|apply (keeps_ret _ _ owns_pre)].
    apply keeps_raw. intros s. eexists [_]. split; [reflexivity|]. constructor; [|constructor]. right. left. exists r.
    split; [apply Hi; left; reflexivity|]. rewrite ChildLaws.opens_how. reflexivity.
  - intros f. apply (keeps_bind _ _ owns_pre); [apply (keeps_unwrap _ _ owns_pre)|]. intros f'. apply (keeps_seq _ _ owns_pre).
    + apply calmly_owns. unfold sys_dup2. calm_try.
    + apply IH. intros x Hx. apply Hi. right. exact Hx.
Qed.
Lemma calmly_assignment ws : keeps true calmly (eval_assignment ws).
Proof. induction ws as [|x ws IH]; cbn [eval_assignment]; kc. Qed.
Lemma owns_prefix_suffix w : keeps true owns (eval_prefix_suffix w (c_cmd c)).
Proof.
  unfold eval_prefix_suffix. apply (keeps_seq _ _ owns_pre).
  - destruct (sc_prefix (c_cmd c)) as [p|] eqn:E; [|apply (keeps_ret _ _ owns_pre)]. apply (keeps_seq _ _ owns_pre).
    + apply owns_redirect. unfold redirections_in. rewrite E. apply incl_appl, incl_refl.
    + apply calmly_owns, calmly_assignment.
  - destruct (sc_suffix (c_cmd c)) as [p|] eqn:E; [|apply (keeps_ret _ _ owns_pre)].
    apply owns_redirect. unfold redirections_in. rewrite E. apply incl_appr, incl_refl.
Qed.
Lemma wire_calmly : keeps true calmly (wire_child c).
Proof. unfold wire_child. destruct (c_pipe c) as [pr pw]. kc; unfold sys_dup2; calm_try. Qed.
Lemma child_owns w n : keeps true owns (child_main w (evaluate w n) c).
Proof.
  unfold child_main. do 2 (apply (keeps_seq _ _ owns_pre); [apply calmly_owns; kc|]). apply (keeps_seq _ _ owns_pre).
  { destruct (c_bg c) eqn:Eb; [|apply (keeps_ret _ _ owns_pre)]. apply (keeps_bind _ _ owns_pre); [apply (keeps_ask _ _ owns_pre)|].
    intros p. apply keeps_note. intros s. eexists [_]. split; [reflexivity|]. constructor; [|constructor]. right. right. eauto. }
  apply (keeps_seq _ _ owns_pre); [apply calmly_owns, wire_calmly|].
  apply (keeps_seq _ _ owns_pre); [apply owns_prefix_suffix|].
  apply calmly_owns. kc; [apply kc_function, evaluate_calmly|apply kc_execve].
Qed.
End Child.
Lemma child_own w n i c o s : run_child w n i c = (o, s) -> Forall (own c) (trace s).
Proof.
  intros H. destruct (child_owns _ _ _ _ _ _ H (or_introl eq_refl)) as (new & E & F). cbn [trace] in E. rewrite app_nil_r in E.
  rewrite E. exact F.
Qed.
Lemma inside_calm w n k args ins i o s' c tr : main w n k args ins (Shell i []) = (o, s') -> inside (trace s') c tr ->
  forall e, In e tr -> match c with None => calm e | Some c => own c e end.
Proof.
  intros H HI. destruct HI as [|? ? ? ? ? ? ? ? ? ? ? ? ? ? ? ? Hc|? ? ? ? ? ? ? ? ? ? ? Hc]; intros e He.
  - apply main_calm in H. rewrite Forall_forall in H. exact (H e He).
  - apply subst_calm in Hc. rewrite Forall_forall in Hc. exact (Hc e He).
  - apply child_own in Hc. rewrite Forall_forall in Hc. exact (Hc e He).
Qed.
Lemma inside_fork w n k args ins i o s' c tr j d r : main w n k args ins (Shell i []) = (o, s') -> inside (trace s') c tr ->
  In (EFork j d r) tr -> c_proc d = ChildLaws.proc_of (c_cmd d) /\ argv (c_cmd d) = Some (p_argv (c_proc d)).
Proof.
  intros H HI He. specialize (inside_calm _ _ _ _ _ _ _ _ _ _ H HI _ He). destruct c as [c|]; [|exact (fun x => x)].
  intros [K|[(x & _ & K)|(_ & p & K)]]; [exact K|discriminate|discriminate].
Qed.

(** ** C124 *)

(** Whatever is opened by a process of a session in a way that could change it is the
    file of an output redirection of the command of that process.  The shell itself
    opens files for reading only. *)
Theorem C124_files : forall w n k args ins i o s' c tr p h,
  main w n k args ins (Shell i []) = (o, s') -> inside (trace s') c tr -> In (EOpen p h) tr ->
  h_write h = true \/ h_append h = true \/ h_create h = true \/ h_truncate h = true ->
  exists c' r, c = Some c' /\ In r (redirections_in (c_cmd c')) /\ redirect r <> RInput /\ p = filename r.
Proof.
  intros w n k args ins i o s' c tr p h H HI He Hh. pose proof (inside_calm _ _ _ _ _ _ _ _ _ _ H HI _ He) as K.
  destruct c as [c|].
  - destruct K as [K|[(r & Hr & K)|(_ & q & K)]]; [|injection K as -> ->|discriminate].
    + cbn in K. subst h. cbn in Hh. destruct Hh as [F|[F|[F|F]]]; discriminate.
    + exists c, r. split; [reflexivity|]. split; [exact Hr|]. split; [|reflexivity]. intros Er. unfold opens_as in Hh. rewrite Er in Hh.
      cbn in Hh. destruct Hh as [F|[F|[F|F]]]; discriminate.
  - cbn in K. subst h. cbn in Hh. destruct Hh as [F|[F|[F|F]]]; discriminate.
Qed.

(** ** C123 *)

(** Parts of a program that do not return. *)
Definition gone {A} (m : M A) : Prop := forall s o s', m s = (o, s') -> ~ returns o.
Definition firm {A} (m : M A) : Prop := forall s e s', m s <> (OErr e, s').
Lemma gone_bind {A B} (m : M A) (k : A -> M B) : firm m -> (forall a, gone (k a)) -> gone (bind m k).
Proof.
  intros Hm Hk s o s' H. apply bind_inv in H. destruct H as [(a & s1 & _ & H2)|(o1 & H1 & F & ->)]; [exact (Hk _ _ _ _ H2)|].
  destruct o1; cbn in *; try tauto. exfalso. exact (Hm _ _ _ H1).
Qed.
Lemma firm_bind {A B} (m : M A) (k : A -> M B) : firm m -> (forall a, firm (k a)) -> firm (bind m k).
Proof.
  intros Hm Hk s e s' H. apply bind_inv in H. destruct H as [(a & s1 & _ & H2)|(o1 & H1 & F & E)]; [exact (Hk _ _ _ _ H2)|].
  destruct o1; cbn in *; try discriminate. exact (Hm _ _ _ H1).
Qed.
Lemma firm_catch {A} (m : M A) : firm (catch m).
Proof.
  intros s e s' H. apply catch_inv in H. destruct H as [(a & _ & H)|[(x & _ & H)|(o1 & _ & F & H)]]; try discriminate.
  destruct o1; cbn in *; try discriminate; tauto.
Qed.
Lemma firm_try f : firm (try_ f).
Proof. intros s e s' H. unfold try_ in H. destruct (f (im s)); discriminate. Qed.
Lemma firm_unwrap {A} (x : option A) : firm (unwrap x).
Proof. intros s e s' H. destruct x; discriminate. Qed.
Lemma firm_if {A} (b : bool) (x y : M A) : firm x -> firm y -> firm (if b then x else y).
Proof. destruct b; auto. Qed.
Ltac firmly := repeat first
  [ match goal with |- forall _, _ => intro | |- firm (catch _) => apply firm_catch | |- firm (try_ _) => apply firm_try
                  | |- firm (unwrap _) => apply firm_unwrap | |- firm (bind _ _) => apply firm_bind
                  | |- firm (if _ then _ else _) => apply firm_if | |- firm (seq _ _) => apply firm_bind
                  | |- firm (ret _) => intros ? ? ? ?; discriminate | |- firm (look _) => intros ? ? ? ?; discriminate
                  | |- firm (ask _ _) => intros ? ? ? ?; discriminate | |- firm (change _) => intros ? ? ? ?; discriminate
                  | |- firm (on_cm _) => intros ? ? ? ?; discriminate | |- firm (on_jobs _) => intros ? ? ? ?; discriminate | |- firm (note _) => intros ? ? ? ?; discriminate
                  | |- firm (stop OPanic) => intros ? ? ? ?; discriminate
                  | |- firm (match ?x with _ => _ end) => destruct x end ].
Lemma firm_open w p h : firm (sys_open w p h).
Proof. unfold sys_open. firmly. intros ? ? ? ?; discriminate. Qed.
Lemma firm_redirect w rs : firm (eval_redirect w rs).
Proof. induction rs; cbn [eval_redirect]; unfold sys_dup2; firmly; [apply firm_open|assumption]. Qed.
Lemma firm_assignment ws : firm (eval_assignment ws).
Proof. induction ws; cbn [eval_assignment]; unfold set_env; firmly. assumption. Qed.
Lemma firm_function rec sc : firm (eval_function rec sc).
Proof. unfold eval_function, try_cm. firmly. Qed.
Lemma firm_wire c : firm (wire_child c).
Proof. unfold wire_child, sys_dup2, sys_close. firmly. Qed.
Lemma firm_prefix_suffix w sc : firm (eval_prefix_suffix w sc).
Proof. unfold eval_prefix_suffix. firmly; first [apply firm_redirect|apply firm_assignment]. Qed.

(** A process that was started for a command, or for a substitution, never comes back as
    a second shell: it executes a program, exits or crashes (or goes on for ever). *)
Theorem C123_ends : forall w n i o s',
  (exists c, run_child w n i c = (o, s')) \/ (exists p cc, run_subst w n i p cc = (o, s')) ->
  (forall x, o <> OOk x) /\ (forall e, o <> OErr e).
Proof.
  intros w n i o s' [[c H]|(p & cc & H)].
  2:{ assert (K : gone (subst_child w n p cc)).
      { unfold subst_child, sys_dup2, sys_close. do 5 (apply gone_bind; [firmly|intro]). intros s o' s1 E. injection E as <- <-. exact (fun x => x). }
      apply K in H. split; intros x ->; exact (H I). }
  assert (K : gone (child_main w (evaluate w n) c)).
  { unfold child_main. repeat first [apply gone_bind; [|intro]|match goal with |- gone (seq _ _) => apply gone_bind; [|intro] end].
    all: try solve [firmly; first [apply firm_wire|apply firm_prefix_suffix]].
    destruct (is_function _ _).
    - apply gone_bind; [apply firm_function|]. intros b s o' s1 E. injection E as <- <-. exact (fun x => x).
    - apply gone_bind; [firmly|]. intros v. apply gone_bind; [firmly|].
      intros [x|x] s o' s1 E; injection E as <- <-; exact (fun x => x). }
  apply K in H. split; intros x ->; exact (H I).
Qed.

(** What it executes, when the command does not name a function, is the program of that
    name with the words of the command. *)
Definition unmoved (s s' : shell) : Prop := cm (im s') = cm (im s).
Lemma unmoved_pre : preorder unmoved.
Proof. constructor; unfold unmoved; [reflexivity|]. intros a b c H1 H2. rewrite H2. exact H1. Qed.
Ltac unmoved_try := apply (keeps_try _ _ unmoved_pre); intros ? ? Hx;
  match type of Hx with match ?x with _ => _ end = _ => destruct x; [|discriminate] | (if ?x then _ else _) = _ => destruct x; [discriminate|] end;
  injection Hx as <-; reflexivity.
Ltac ku := repeat first
  [ match goal with
    | |- keeps _ _ (change _) => apply keeps_change; intro; reflexivity
    | |- keeps _ _ (on_jobs _) => unfold on_jobs
    | |- keeps _ _ (note _) => apply keeps_note; intro; reflexivity
    | |- keeps _ _ (set_env _ _) => unfold set_env; unmoved_try
    | |- keeps _ _ (sys_close _) => unfold sys_close; unmoved_try
    | |- keeps _ _ (sys_dup2 _ _) => unfold sys_dup2; unmoved_try
    | |- keeps _ _ (sys_open _ _ _) => unfold sys_open
    | |- keeps _ _ (fun s => (OOk _, Shell _ _)) => apply keeps_raw; intro; reflexivity
    end | keep_step unmoved_pre ].
Lemma unmoved_redirect w rs : keeps true unmoved (eval_redirect w rs).
Proof. induction rs as [|r rs IH]; cbn [eval_redirect]; ku. Qed.
Lemma unmoved_assignment ws : keeps true unmoved (eval_assignment ws).
Proof. induction ws as [|x ws IH]; cbn [eval_assignment]; ku. Qed.
Lemma execve_exec w a av v s path av' v' s' : temp_execve w a av v s = (OExec path av' v', s') ->
  av' = av /\ v' = v /\ lookup_command (r_isfile (w (EReset :: trace s))) a (cm (im s)) = Some (Some path) /\
  r_exec (w (EReset :: trace s)) path av = true.
Proof.
  unfold temp_execve, fork_reset, sh_lookup_command, seq, bind, interrupts_on, on_jobs, change, note, ask, look, unwrap, stop.
  cbn [im trace cm with_handlers with_js].
  destruct (lookup_command _ a (cm (im s))) as [[p|]|] eqn:E; cbn [ret]; try discriminate.
  destruct (contains_char 0%N p); [discriminate|]. cbn [ret]. destruct (r_exec _ p av) eqn:Ex; intros H; [|discriminate].
  injection H as <- <- <- _. auto.
Qed.
Lemma catch_exec {A} (m : M A) s path av v s' : catch m s = (OExec path av v, s') -> m s = (OExec path av v, s').
Proof.
  intros H. apply catch_inv in H. destruct H as [(a & _ & H)|[(x & _ & H)|(o1 & H1 & F & H)]]; try discriminate.
  destruct o1; cbn in H; try discriminate. injection H as <- <- <-. exact H1.
Qed.
Lemma bind_exec {A B} (m : M A) (k : A -> M B) s path av v s' : (forall path av v s', m s <> (OExec path av v, s')) ->
  bind m k s = (OExec path av v, s') -> exists a s1, m s = (OOk a, s1) /\ k a s1 = (OExec path av v, s').
Proof.
  intros Hm H. apply bind_inv in H. destruct H as [(a & s1 & H1 & H2)|(o1 & H1 & F & E)]; [eauto|].
  destruct o1; cbn in E; try discriminate. exfalso. exact (Hm _ _ _ _ H1).
Qed.
(** Parts of a program that execute nothing. *)
Definition tame {A} (m : M A) : Prop := forall s path av v s', m s <> (OExec path av v, s').
Lemma tame_bind {A B} (m : M A) (k : A -> M B) : tame m -> (forall a, tame (k a)) -> tame (bind m k).
Proof.
  intros Hm Hk s path av v s' H. apply bind_exec in H; [|exact (Hm s)]. destruct H as (a & s1 & _ & H). exact (Hk _ _ _ _ _ _ H).
Qed.
Lemma tame_try f : tame (try_ f).
Proof. intros s path av v s' H. unfold try_ in H. destruct (f (im s)); discriminate. Qed.
Lemma tame_unwrap {A} (x : option A) : tame (unwrap x).
Proof. intros s path av v s' H. destruct x; discriminate. Qed.
Ltac tamely := repeat first
  [ match goal with |- forall _, _ => intro | |- tame (try_ _) => apply tame_try | |- tame (unwrap _) => apply tame_unwrap | |- tame (seq _ _) => apply tame_bind | |- tame (bind _ _) => apply tame_bind
                  | |- tame (ret _) => intros ? ? ? ? ? ?; discriminate | |- tame (look _) => intros ? ? ? ? ? ?; discriminate
                  | |- tame (ask _ _) => intros ? ? ? ? ? ?; discriminate | |- tame (change _) => intros ? ? ? ? ? ?; discriminate
                  | |- tame (note _) => intros ? ? ? ? ? ?; discriminate
                  | |- tame (stop OPanic) => intros ? ? ? ? ? ?; discriminate
                  | |- tame (if ?x then _ else _) => destruct x
                  | |- tame (match ?x with _ => _ end) => destruct x end ].
Lemma tame_redirect w rs : tame (eval_redirect w rs).
Proof. induction rs; cbn [eval_redirect]; unfold sys_dup2, sys_open; tamely; [intros ? ? ? ? ? ?; discriminate|assumption]. Qed.
Lemma tame_assignment ws : tame (eval_assignment ws).
Proof. induction ws; cbn [eval_assignment]; unfold set_env; tamely. assumption. Qed.

Theorem C123_program : forall w n k args ins i o s' c tr j d r w' n' path av v s1,
  main w n k args ins (Shell i []) = (o, s') -> inside (trace s') c tr -> In (EFork j d r) tr ->
  is_function (sc_name (c_cmd d)) (cm j) = false ->
  run_child w' n' j d = (OExec path av v, s1) ->
  av = sc_name (c_cmd d) :: words_in (c_cmd d) /\ Forall (fun a => ~ In 0%N a) av /\
  exists t, lookup_command (r_isfile (w' t)) (sc_name (c_cmd d)) (cm j) = Some (Some path) /\ r_exec (w' t) path av = true.
Proof.
  intros w n k args ins i o s' c tr j d r w' n' path av v s1 H HI He Hf Hr.
  destruct (inside_fork _ _ _ _ _ _ _ _ _ _ _ _ _ H HI He) as [Ep Ea].
  unfold run_child, child_main in Hr.
  assert (Hg : keeps true unmoved (wire_child d)) by (unfold wire_child; destruct (c_pipe d); ku).
  assert (Hp : keeps true unmoved (eval_prefix_suffix w' (c_cmd d))).
  { unfold eval_prefix_suffix. ku; first [apply unmoved_redirect|apply unmoved_assignment]. }
  apply bind_exec in Hr; [|cbn; discriminate]. destruct Hr as (x1 & t1 & K1 & Hr).
  assert (U1 : unmoved (Shell j []) t1) by (injection K1 as _ <-; reflexivity).
  apply bind_exec in Hr; [|cbn; discriminate]. destruct Hr as (x0 & t0 & K0 & Hr).
  assert (U0 : unmoved t1 t0) by (injection K0 as _ <-; reflexivity).
  apply bind_exec in Hr; [|destruct (c_bg d); cbn; discriminate]. destruct Hr as (x2 & t2 & K2 & Hr).
  assert (U2 : unmoved t0 t2) by (destruct (c_bg d); injection K2 as _ <-; reflexivity).
  apply bind_exec in Hr; [|assert (T : tame (wire_child d)) by (unfold wire_child, sys_dup2, sys_close; destruct (c_pipe d); tamely); exact (T _)].
  destruct Hr as (x3 & t3 & K3 & Hr). assert (U3 : unmoved t2 t3) by (eapply Hg; [exact K3|left; reflexivity]).
  apply bind_exec in Hr.
  2:{ assert (T : tame (eval_prefix_suffix w' (c_cmd d))) by (unfold eval_prefix_suffix; tamely; first [apply tame_redirect|apply tame_assignment]). exact (T _). }
  destruct Hr as (x4 & t4 & K4 & Hr). assert (U4 : unmoved t3 t4) by (eapply Hp; [exact K4|left; reflexivity]).
  assert (Em : cm (im t4) = cm j) by (unfold unmoved in *; rewrite U4, U3, U2, U0, U1; reflexivity).
  unfold bind at 1, look at 1 in Hr. rewrite Em, Hf in Hr. unfold bind at 1, look at 1 in Hr.
  apply bind_inv in Hr. destruct Hr as [([x|x] & t5 & _ & Hr)|(o1 & Hr & F & E)]; [discriminate|discriminate|].
  destruct o1; cbn in E; try discriminate. injection E as <- <- <-.
  apply catch_exec, execve_exec in Hr. destruct Hr as (-> & _ & Hl & Hx). rewrite Em in Hl. rewrite Ep in Ea, Hl, Hx |- *.
  cbn [ChildLaws.proc_of process_new p_argv p_argv0] in *. split; [reflexivity|]. split.
  - unfold argv in Ea. cbv zeta in Ea. destruct (existsb _ _) eqn:X; [discriminate|]. clear -X. apply Forall_forall. intros a Ha Hn.
    assert (existsb (contains_char 0%N) (sc_name (c_cmd d) :: words_in (c_cmd d)) = true); [|unfold words_in in *; congruence].
    apply existsb_exists. exists a. split; [exact Ha|]. apply contains_char_In. exact Hn.
  - exists (EReset :: trace t4). split; [exact Hl|exact Hx].
Qed.

(** A function in the background, in which a program's output goes to a file: the file is
    opened by the process of the program, which was started by the process of the
    function. *)
Import PropertiesMain.
Definition ex_session : list event :=
  trace (snd (main (PropertiesKill.poor true true) 5 0 (words ["rsh"]%string)
                   (map (fun l => TLine (lit l)) ["f() { sort x >> y; }"; "f a &"]%string) (Shell ex_fresh []))).
Definition first_child (tr : list event) : option (image * child) :=
  match filter (fun e => match e with EFork _ _ _ => true | _ => false end) tr with EFork i c _ :: _ => Some (i, c) | _ => None end.
Definition child_of (tr : list event) : out unit * shell :=
  match first_child tr with Some (i, c) => run_child (PropertiesKill.poor true true) 5 i c | None => (OFuel, Shell ex_fresh []) end.
Lemma first_in tr i c : first_child tr = Some (i, c) -> exists r, In (EFork i c r) tr.
Proof.
  unfold first_child. destruct (filter _ tr) as [|e l] eqn:E; [discriminate|].
  assert (He : In e tr) by (assert (In e (e :: l)) as H by (left; reflexivity); rewrite <- E in H; apply filter_In in H; apply H).
  destruct e; try discriminate. intros H. injection H as <- <-. eauto.
Qed.
Example C123_example :
  exists o tr c1 c2, inside ex_session (Some c1) tr /\ inside ex_session (Some c2) o /\
    sc_name (c_cmd c1) = lit "f" /\ sc_name (c_cmd c2) = lit "sort" /\
    In (EOpen (lit "y") (How false true true true false)) o /\ words_in (c_cmd c2) = words ["x"]%string /\
    fst (child_of tr) = OExec (lit "/bin/sort") (words ["sort"; "x"]%string) [(lit "HOME", lit "/h")].
Proof.
  destruct (first_child ex_session) as [[i1 c1]|] eqn:E1; [|vm_compute in E1; discriminate].
  destruct (first_in _ _ _ E1) as [r1 I1].
  set (s1 := child_of ex_session). assert (H1 : inside ex_session (Some c1) (trace (snd s1))).
  { eapply inside_child; [apply inside_shell|exact I1|]. unfold s1, child_of. rewrite E1. apply surjective_pairing. }
  destruct (first_child (trace (snd s1))) as [[i2 c2]|] eqn:E2; [|vm_compute in E2; discriminate].
  destruct (first_in _ _ _ E2) as [r2 I2].
  set (s2 := child_of (trace (snd s1))). assert (H2 : inside ex_session (Some c2) (trace (snd s2))).
  { eapply inside_child; [exact H1|exact I2|]. unfold s2, child_of. rewrite E2. apply surjective_pairing. }
  exists (trace (snd s2)), (trace (snd s1)), c1, c2. split; [exact H1|]. split; [exact H2|].
  vm_compute in E1. injection E1 as _ <-. vm_compute in E2. injection E2 as _ <-.
  clear. split; [vm_compute; reflexivity|]. split; [vm_compute; reflexivity|]. split; [|split; vm_compute; reflexivity].
  vm_compute. right. left. reflexivity.
Qed.

Print Assumptions C123_ends.
Print Assumptions C123_program.
Print Assumptions C124_files.
