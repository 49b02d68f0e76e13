(** Property C117: the core language. *)
From Verif Require Import Base BaseFacts Lexer LexerSpec Ast Parser GrammarSpec.
From Verif Require Import Context.
From Verif Require ContextSpec ContextFacts ContextLaws PropertiesContext.
From Verif Require Import Alias Expand ExpandSpec ExpandFacts ExpandLaws Jobs JobsSpec Shell Builtins Eval.
From Verif Require Import EvalSpec EvalFacts EvalLaws EvalKeeps RunSpec RunLaws PipeSpec PipeLaws ChildLaws PipeRun.
From Verif Require Import JobsFacts JobsLaws JobsPipe.
From Verif Require Import PropertiesProgram.
From Coq Require Permutation.
From Verif Require PropertiesEval PropertiesStatus PropertiesWait EvalJobs MainSpec Main MainLaws PropertiesMain PropertiesSession.
From Verif Require Import EvalFds.
From Verif Require Import PropertiesBuiltins.
From Verif Require Import CoreSpec.
Local Open Scope Z_scope.

(** ** When the shell is in the state of the machine *)

(** What a process the shell has started was to be, as it was when it was created,
    after the directory was changed to [at_] and nothing else. *)
Notation birth := (image * child * option positive)%type.
Definition process_start (at_ : list str) (f : birth) : start :=
  let '(i, c, _) := f in
  let rs := redirections_in (c_cmd c) in
  Start (p_argv (c_proc c))
    (fold_left (fun e a => sinsert (ContextSpec.upto (ch "=") a) (ContextSpec.upto (ch "=") (ContextSpec.past (ch "=") a)) e)
       (assignments_in (c_cmd c)) (env i))
    match find is_input (rev rs) with
    | Some r => FromFile (filename r)
    | None => if Z.leb 0 (c_prev c) then FromPrevious else Terminal
    end
    match find (fun r => negb (is_input r)) (rev rs) with
    | Some r => match redirect r with RAppend => AddedTo (filename r) | _ => Replacing (filename r) end
    | None => if Z.leb 0 (snd (c_pipe c)) then ToNext else Screen
    end
    at_.
(** Where the shell has gone, the first directory first, and the programs it has
    started; the last event is the first one in the list. *)
Fixpoint directories (t : list event) : list str :=
  match t with
  | [] => []
  | EChdir p :: t' => directories t' ++ [p]
  | _ :: t' => directories t'
  end.
Fixpoint programs_of (t : list event) : list start :=
  match t with
  | [] => []
  | EFork i c r :: t' => programs_of t' ++ [process_start (directories t') (i, c, r)]
  | _ :: t' => programs_of t'
  end.

(** When the process executes a program, on any system, it is that one: the first
    file of that name on the path, with those arguments and that environment, the
    signals as usual, and the files it should have, besides those of the shell; until
    then it stays in its directory.  And
    it does so when there is such a program and the files can be opened. *)
Definition executes (t0 : fdtable) (f : birth) : Prop :=
  let '(i, c, _) := f in
  (forall w n path, (forall t g h, r_open (w t) g h = true) -> (forall t a, r_exec (w t) path a = true) -> ~ In 0%N path ->
    (forall t, lookup_command (r_isfile (w t)) (hd [] (argv (process_start [] f))) (cm i) = Some (Some path)) ->
    exists s', run_child w n i c = (OExec path (argv (process_start [] f)) (environ (process_start [] f)), s')) /\
  forall w n path av e s', run_child w n i c = (OExec path av e, s') ->
    let st := process_start [] f in
    av = argv st /\ e = environ st /\
    (exists tr, lookup_command (r_isfile (w tr)) (hd [] av) (cm i) = Some (Some path)) /\
    masked (js (im s')) = false /\ handlers (im s') = false /\ (forall p, ~ In (EChdir p) (trace s')) /\
    kept (nget 0 (fds (im s'))) =
      match input st with
      | Terminal => kept (nget 0 t0)
      | FromFile g => Some (Desc (OpenFile g (How true false false false false)) false)
      | FromPrevious => nget (c_prev c) (fds i)
      end /\
    kept (nget 1 (fds (im s'))) =
      match output st with
      | Screen => kept (nget 1 t0)
      | AddedTo g => Some (Desc (OpenFile g (How false true true true false)) false)
      | Replacing g => Some (Desc (OpenFile g (How false true false true true)) false)
      | ToNext => nget (snd (c_pipe c)) (fds i)
      end /\
    forall fd, fd <> 0 -> fd <> 1 -> kept (nget fd (fds (im s'))) = kept (nget fd t0).
(** A process that reads from the previous one has the other end of its pipe. *)
Definition linked (l : list birth) : Prop :=
  forall k i1 c1 r1 i2 c2 r2, nth_error l k = Some (i1, c1, r1) -> nth_error l (S k) = Some (i2, c2, r2) -> 0 <= c_prev c2 ->
    exists x, nget (snd (c_pipe c1)) (fds i1) = Some (Desc (PipeW x) false) /\
      nget (c_prev c2) (fds i2) = Some (Desc (PipeR x) false).

(** What happened since the shell last waited, and before. *)
Fixpoint recent (t : list event) : list event :=
  match t with [] => [] | EWait _ :: _ => [] | e :: t' => e :: recent t' end.
Fixpoint before (t : list event) : list event :=
  match t with [] => [] | EWait _ :: _ => t | _ :: t' => before t' end.
(** The programs that were started since then. *)
Definition programs_since (t : list event) : list start := skipn (List.length (programs_of (before t))) (programs_of t).

(** The bindings of a variable, the innermost first. *)
Definition somes {A} (col : list (option A)) : list A := flat_map (fun b => match b with Some x => [x] | None => [] end) col.

Section Agreement.
(** What does not change: the aliases, the functions, which variables are read-only, the jobs that were there before, and the open files. *)
Context (aliases_ : aliases) (functions_ : str -> option function_body) (readonly : str -> bool) (old : nmap job) (t0 : fdtable).
(** How many calls of functions are being made, and whether this is a process that the shell has started. *)
Context (inner : nat) (apart : bool).

(** Every variable is in one scope only, and in none of a call; those of the
    environment are in the outermost one.  The parameters are in the innermost one. *)
Record agrees (m : machine) (s : shell) : Prop := {
  ag_wf : ContextSpec.cm_wf (cm (im s));
  ag_vars : forall x, identifier x ->
    get_var x (cm (im s)) = match CoreSpec.vars m x with Some v => Some (Var v (readonly x)) | None => None end;
  ag_once : forall x, identifier x -> tl (PropertiesContext.bindings x (cm (im s))) = [];
  ag_global : forall x, identifier x -> sget x (environment m) <> None -> global x (cm (im s)) <> None;
  ag_inner : forall x, identifier x -> firstn inner (ContextLaws.column x (cm (im s))) = repeat None inner;
  ag_position : forall x, position x -> somes (ContextLaws.column x (cm (im s))) = match CoreSpec.vars m x with Some v => [(v, false)] | None => [] end;
  ag_outer : forall x, position x -> inner <> 0%nat -> somes (tl (ContextLaws.column x (cm (im s)))) = [];
  ag_depth : (inner < List.length (stack (cm (im s))))%nat;
  ag_forked : forked (im s) = apart;
  ag_ps4 : CoreSpec.vars m (lit "PS4") <> None;
  ag_env : env (im s) = environment m;
  ag_started : programs_of (trace s) = started m;
  ag_visited : directories (trace s) = visited m;
  ag_executes : Forall (executes t0) (forks (trace s));
  ag_linked : linked (forks (trace s));
  ag_quiet : forks (recent (trace s)) = [];
  ag_aliases : al (im s) = aliases_;
  ag_functions : forall n, ContextSpec.unqualified n -> get_function n (cm (im s)) = functions_ n;
  ag_bodies : forall n, firstn inner (ContextSpec.definitions n (cm (im s))) = repeat None inner;
  ag_fds : sound (im s);
  ag_files : forall fd, nget fd (fds (im s)) = nget fd t0;
  ag_open : nget 0 t0 <> None /\ nget 1 t0 <> None;
  ag_basic : basic (jobs (js (im s)));
  ag_jobs : forall k, nget k (job_table (jobs (js (im s)))) = nget k old }.

(** Commands in the range of the theorem.  Redirections need an argument before
    them, and [>] is left out. *)
Definition prog_ok (p : prog) : Prop :=
  Forall (fun xv => identifier (fst xv) /\ exists u, snd xv = Plain u /\ plain_word u) (settings p) /\
  plain_word (name p) /\ plain_name aliases_ (name p) /\ check_if_builtin (name p) = false /\ functions_ (name p) = None /\
  ContextSpec.unqualified (name p) /\ Forall arg_ok (arguments p) /\
  Forall (fun r => match r with Input f | Append f => plain_word f | Output _ => False end) (redirs p) /\
  (arguments p = [] -> redirs p = []).
Definition comm_ok (c : comm) : Prop :=
  match c with
  | Assign x v => identifier x /\ value_ok v /\ readonly x = false /\ sget [] aliases_ = None
  | Export x v => identifier x /\ value_ok v /\ readonly x = false /\ sget (lit "export") aliases_ = None /\
      no_p (x ++ lit "=" ++ arg_text v)
  | Unset x => identifier x /\ readonly x = false /\ sget (lit "unset") aliases_ = None /\ x <> lit "PS4"
  | Cd d => arg_ok d /\ sget (lit "cd") aliases_ = None
  | Run p more => Forall prog_ok (p :: more)
  end.
End Agreement.

(** The system: every program can be started, its number is not that of a program of
    the same pipeline or of a job in the table; the programs exit with the status
    [code] says, the first one of a pipeline first, the others in any order.  Each
    report comes after any number of interrupted calls.  The directories that can be
    changed to are those [code] says. *)
Record system (w : os) (old : nmap job) (code : world) : Prop := {
  sys_pipe : forall t, r_pipe (w t) = true;
  sys_chdir : forall t p, r_chdir (w t) p = reachable code (directories t) p;
  sys_fork : forall t, exists q, r_fork (w t) = Some q /\ ~ In (Zpos q) (fork_pids (recent t)) /\
    forall k j, nget k old = Some j -> at_rest (Zpos q) j;
  sys_wait : forall t q qs, fork_pids (recent t) = q :: qs -> NoDup (q :: qs) ->
    let status k := code (programs_of (before t)) (programs_since t) k in
    exists n es rs m a rest,
      r_waits (w t) = answers ((n, Exited q (status 0%nat)) :: es) (repeat AIntr m ++ a :: rest) /\
      Forall2 (fun ne r => exists k, nth_error qs k = Some r /\ snd ne = Exited r (status (S k))) es rs /\ NoDup rs /\
      (a = AFail \/ a = AStatus StillAlive);
  sys_files : forall f text t, contents code f = Some text -> r_open (w t) f for_reading = true /\ r_read (w t) f = Some text }.

(** ** Words *)

Lemma plain_written w : plain_word w -> written_word w.
Proof. destruct w as [|c r]; intros [H1 [H2 H3]]; [destruct H1|]. destruct H1 as (A & B & C). apply ww_plain; assumption. Qed.
Lemma identifier_char c : letter c \/ digit c -> word_char c /\ ~ In c (lit "#'""-:") /\ c <> 0%N.
Proof.
  intros H. assert (G : (48 <= c <= 57 \/ 65 <= c <= 90 \/ 97 <= c <= 122 \/ c = 95)%N).
  { unfold letter, digit in H. change (ch "_") with 95%N in H. tauto. }
  split; [split|split].
  - intros Hin. cbn in Hin. repeat (destruct Hin as [<-|Hin]; [lia|]). destruct Hin.
  - unfold is_whitespace. rewrite !orb_false_iff, !andb_false_iff, !N.eqb_neq, !N.leb_gt. lia.
  - intros Hin. cbn in Hin. repeat (destruct Hin as [<-|Hin]; [lia|]). destruct Hin.
  - lia.
Qed.
Lemma identifier_facts x : identifier x ->
  written_word x /\ Forall word_char x /\ (forall c, In c x -> ~ In c (lit "#'""-:") /\ c <> 0%N) /\ x <> [] /\
  ContextSpec.unqualified x /\ ~ In (ch "=") x /\ ~ In (ch "$") x /\ (forall u, ContextSpec.unsettable (x ++ u) = false).
Proof.
  intros [H R]. destruct x as [|c r]; [destruct H|]. destruct H as [Hc Hr].
  assert (F : forall y, In y (c :: r) -> letter y \/ digit y).
  { intros y [<-|Hy]; [left; exact Hc|]. rewrite Forall_forall in Hr. exact (Hr y Hy). }
  assert (W : Forall word_char (c :: r)) by (apply Forall_forall; intros y Hy; apply identifier_char, F, Hy).
  assert (G : forall y, In y (c :: r) -> ~ In y (lit "#'""-:") /\ y <> 0%N) by (intros y Hy; apply identifier_char, F, Hy).
  assert (M : forall y, In y metachars -> ~ In y (c :: r)).
  { intros y Hy Hin. rewrite Forall_forall in W. destruct (W y Hin) as [W1 _]. exact (W1 Hy). }
  split; [|split; [exact W|split; [exact G|split; [discriminate|split; [|split; [|split]]]]]].
  - inversion W; subst. apply ww_plain; auto. intros Hin. apply (proj1 (G c (or_introl eq_refl))). cbn in Hin |- *. tauto.
  - apply ContextLaws.cut_at_In. intros Hin. apply (proj1 (G _ Hin)). cbn. tauto.
  - apply M. cbn. tauto.
  - apply M. cbn. tauto.
  - intros u. cbn [ContextSpec.unsettable app]. replace (is_digit c) with false; [reflexivity|].
    unfold is_digit, to_digit. destruct ((48 <=? c)%N && (c <=? 57)%N) eqn:E; [|reflexivity].
    apply andb_true_iff in E. rewrite !N.leb_le in E. unfold letter in Hc. change (ch "_") with 95%N in Hc. lia.
Qed.

Lemma position_facts x : position x -> Forall word_char x /\ ContextSpec.unqualified x /\ ~ identifier x.
Proof.
  unfold position, positional. rewrite !andb_true_iff. intros [[H1 H2] _]. rewrite forallb_forall in H1.
  assert (D : forall c, In c x -> digit c).
  { intros c Hc. apply H1 in Hc. apply andb_true_iff in Hc. rewrite !N.leb_le in Hc. exact Hc. }
  split; [|split].
  - apply Forall_forall. intros c Hc. apply (identifier_char c). right. exact (D c Hc).
  - unfold ContextSpec.unqualified. clear -D. induction x as [|a r IH]; [reflexivity|]. cbn [ContextSpec.cut_at]. destruct r as [|b r]; [reflexivity|].
    assert (Ha : digit a) by (apply D; left; reflexivity). unfold digit in Ha.
    replace (N.eqb a (ch ":")) with false by (symmetry; apply N.eqb_neq; change (ch ":") with 58%N; lia). cbn [andb].
    rewrite IH by (intros c Hc; apply D; right; exact Hc). reflexivity.
  - intros [H _]. destruct x as [|c r]; [exact H|]. destruct H as [H _]. pose proof (D c (or_introl eq_refl)) as Hc. unfold letter in H. unfold digit in Hc.
    change (ch "_") with 95%N in H. lia.
Qed.
Lemma ps4_identifier : identifier (lit "PS4").
Proof.
  split; [|intros t Hin; cbn in Hin; intuition congruence]. cbn. split; [left; vm_compute; split; discriminate|].
  apply Forall_cons; [left; left; vm_compute; split; discriminate|].
  apply Forall_cons; [right; vm_compute; split; discriminate|apply Forall_nil].
Qed.
Lemma metachar_not_in c w : In c metachars -> Forall word_char w -> ~ In c w.
Proof. intros Hc W Hin. rewrite Forall_forall in W. exact (proj1 (W c Hin) Hc). Qed.
Lemma plain_chars w : plain_word w -> Forall word_char w.
Proof. destruct w as [|c r]; intros [H _]; [destruct H|]. constructor; tauto. Qed.
Lemma arg_written a : arg_ok a -> written_word (arg_text a).
Proof.
  destruct a as [w|t|t|x]; cbn [arg_ok arg_text].
  - apply plain_written.
  - intros [H _]. apply (ww_quoted (lit "'") (ch "'") t); [cbn; tauto|exact H].
  - intros H. apply (ww_quoted (lit """") (ch """") t); [cbn; tauto|]. intros Hin. apply (proj1 (H _ Hin)). cbn. tauto.
  - intros H. apply ww_dollar. destruct H as [H|H]; [apply identifier_facts, H|apply position_facts, H].
Qed.

Lemma value_word x v : identifier x -> value_ok v ->
  let a := x ++ lit "=" ++ arg_text v in
  written_assignment a /\ ~ In (ch "$") a /\ ContextSpec.target a = x /\ ContextSpec.unsettable a = false /\
  (forall m, ContextSpec.assigned a = arg_value m v) /\ (forall m, ~ In 0%N (arg_value m v)) /\ In (ch "=") a /\ ~ begins (ch "$") a /\
  ~ begins (ch "'") a /\ ~ begins (ch """") a.
Proof.
  intros Hx Hv a. destruct (identifier_facts x Hx) as (X1 & X2 & X3 & X4 & X5 & X6 & X7 & X8).
  assert (Ht : ContextSpec.target a = x).
  { unfold ContextSpec.target, a. apply (ContextLaws.upto_app (ch "=") x). apply contains_char_notIn, X6. }
  assert (Hp : ContextSpec.past (ch "=") a = arg_text v).
  { unfold a. apply (ContextLaws.past_app (ch "=") x). apply contains_char_notIn, X6. }
  assert (Hne : forall t, ~ In (ch "=") t -> ContextSpec.upto (ch "=") t = t).
  { clear. induction t as [|c t IH]; intros H; [reflexivity|]. cbn [ContextSpec.upto].
    destruct (N.eqb_spec c (ch "=")) as [->|_]; [exfalso; apply H; left; reflexivity|]. rewrite IH; [reflexivity|]. intros F. apply H. right. exact F. }
  assert (Hb : forall c, In c (lit "$'""") -> ~ begins c a).
  { intros c Hc [t E]. destruct x as [|y x]; [congruence|]. unfold a in E. cbn [app] in E. injection E as -> _.
    inversion X2; subst. destruct (X3 c (or_introl eq_refl)) as [Q _]. cbn in Hc, Q.
    destruct Hc as [<-|Hc]; [apply X7; left; reflexivity|]. apply Q. tauto. }
  assert (Hq : forall q t, In q (lit "'""") -> ContextSpec.unquote (q :: t ++ [q]) = t).
  { intros q t Hq. unfold ContextSpec.unquote. assert (E : (N.eqb q (ch """") || N.eqb q (ch "'")) = true).
    { apply orb_true_iff. rewrite !N.eqb_eq. cbn in Hq. intuition. }
    rewrite E. change (q :: t ++ [q]) with ((q :: t) ++ [q]). rewrite last_last, N.eqb_refl. cbn [andb]. apply removelast_last. }
  destruct Hv as [Hv Hv'].
  assert (Hval : (forall m, ContextSpec.assigned a = arg_value m v) /\ (forall m, ~ In 0%N (arg_value m v)) /\ ~ In (ch "$") (arg_text v)).
  { unfold ContextSpec.assigned. rewrite Hp. destruct v as [w|t|t|y]; [| | |destruct Hv']; cbn [arg_ok arg_text arg_value] in *.
    - pose proof (plain_chars w Hv) as W. split; [intros _|split; [intros _ F; exact (proj2 (proj1 (proj2 Hv) _ F) eq_refl)|apply metachar_not_in; [cbn; tauto|exact W]]].
      rewrite (Hne w) by (apply metachar_not_in; [cbn; tauto|exact W]).
      destruct w as [|c r]; [destruct Hv as [[] _]|]. destruct Hv as [(_ & Q & _) _].
      unfold ContextSpec.unquote.
      destruct (N.eqb_spec c (ch """")) as [->|_]; [exfalso; apply Q; cbn; tauto|].
      destruct (N.eqb_spec c (ch "'")) as [->|_]; [exfalso; apply Q; cbn; tauto|]. reflexivity.
    - destruct Hv as [Q Z]. destruct Hv' as (V1 & V2).
      assert (E : lit "'" ++ t ++ lit "'" = ch "'" :: t ++ [ch "'"]) by reflexivity.
      rewrite E. split; [|split; [intros _; exact Z|]].
      + intros _. rewrite Hne; [|intros [F|F]; [discriminate|apply in_app_iff in F; destruct F as [F|[F|[]]]; [exact (V1 F)|discriminate]]].
        apply Hq; cbn; tauto.
      + intros [F|F]; [discriminate|apply in_app_iff in F; destruct F as [F|[F|[]]]; [exact (V2 F)|discriminate]].
    - destruct Hv' as (V1 & V2).
      assert (E : lit """" ++ t ++ lit """" = ch """" :: t ++ [ch """"]) by reflexivity.
      rewrite E. split; [|split; [intros _ F; exact (proj2 (Hv _ F) eq_refl)|]].
      + intros _. rewrite Hne; [|intros [F|F]; [discriminate|apply in_app_iff in F; destruct F as [F|[F|[]]]; [exact (V1 F)|discriminate]]].
        apply Hq; cbn; tauto.
      + intros [F|F]; [discriminate|apply in_app_iff in F; destruct F as [F|[F|[]]]; [exact (V2 F)|discriminate]]. }
  destruct Hval as (Hval & Hnul & Hdol).
  split; [exists x, (arg_text v); split; [reflexivity|split; [exact X1|apply arg_written, Hv]]|].
  split; [intros F; apply in_app_iff in F; destruct F as [F|[F|F]]; [exact (X7 F)|discriminate|exact (Hdol F)]|].
  split; [exact Ht|]. split; [apply X8|]. split; [exact Hval|]. split; [exact Hnul|]. split; [apply in_or_app; right; left; reflexivity|].
  split; [apply Hb; cbn; tauto|]. split; apply Hb; cbn; tauto.
Qed.

(** ** The tree of a command *)

Definition redir_of (r : redir) : io_redirect :=
  match r with
  | Input f => IoRedirect None RInput f
  | Append f => IoRedirect None RAppend f
  | Output f => IoRedirect None ROutput f
  end.
Definition setting_text (xv : str * arg) : str := fst xv ++ lit "=" ++ arg_text (snd xv).
Definition prog_prefix (p : prog) : option prefix :=
  match settings p with [] => None | l => Some (Prefix [] (map setting_text l)) end.
Definition prog_cmd (p : prog) : simple_command :=
  SimpleCommand (prog_prefix p) (name p)
    match arguments p, redirs p with
    | [], [] => None
    | l, rs => Some (Suffix (map redir_of rs) (map arg_text l))
    end.
(** After expansion. *)
Definition prog_done (m : machine) (p : prog) : simple_command :=
  SimpleCommand (prog_prefix p) (name p) (Some (Suffix (map redir_of (redirs p)) (map (arg_value m) (arguments p)))).
Definition comm_pipe (c : comm) : pipeline :=
  match c with
  | Assign x v => Pipeline false [CSimple (SimpleCommand (Some (Prefix [] [x ++ lit "=" ++ arg_text v])) [] None)] false
  | Export x v => Pipeline false [CSimple (words_cmd (lit "export") [x ++ lit "=" ++ arg_text v])] false
  | Unset x => Pipeline false [CSimple (words_cmd (lit "unset") [x])] false
  | Cd dir => Pipeline false [CSimple (words_cmd (lit "cd") [arg_text dir])] false
  | Run p more => Pipeline false (map CSimple (map prog_cmd (p :: more))) false
  end.
Lemma spaced_app a b : spaced (a ++ b) = spaced a ++ spaced b.
Proof. unfold spaced. rewrite map_app, concat_app. reflexivity. Qed.
Lemma setting_word x u : identifier x -> plain_word u ->
  let a := setting_text (x, Plain u) in
  written_assignment a /\ ~ In (ch "$") a /\ ContextSpec.upto (ch "=") a = x /\ ContextSpec.upto (ch "=") (ContextSpec.past (ch "=") a) = u.
Proof.
  intros Hx Hu a. destruct (value_word x (Plain u) Hx (conj Hu I)) as (W1 & W2 & W3 & _). fold a in W1, W2, W3.
  split; [exact W1|]. split; [exact W2|]. split; [exact W3|].
  destruct (identifier_facts x Hx) as (_ & _ & _ & _ & _ & X6 & _).
  unfold a, setting_text. cbn [fst snd arg_text]. change (x ++ lit "=" ++ u) with (x ++ ch "=" :: u).
  rewrite (ContextLaws.past_app (ch "=") x) by (apply contains_char_notIn, X6).
  assert (Hne : ~ In (ch "=") u) by (apply metachar_not_in; [cbn; tauto|apply plain_chars, Hu]).
  clear -Hne. induction u as [|c u IH]; [reflexivity|]. cbn [ContextSpec.upto].
  destruct (N.eqb_spec c (ch "=")) as [->|_]; [exfalso; apply Hne; left; reflexivity|]. rewrite IH; [reflexivity|]. intros F. apply Hne. right. exact F.
Qed.
Lemma prog_tree al_ f p : prog_ok al_ f p -> wf_command (CSimple (prog_cmd p)) /\ r_command (CSimple (prog_cmd p)) = spaced (prog_words p).
Proof.
  intros (Hs & Hn & Hpn & _ & _ & _ & Ha & Hr & Hne). split.
  - cbn [wf_command]. split; [|split; [|left; apply plain_written, Hn]]; unfold prog_cmd, prog_prefix; cbn [sc_prefix sc_suffix].
    + destruct (settings p) as [|xv l]; [exact I|]. cbn [opt]. split; [right; discriminate|]. split; [|constructor]. cbn [assignment].
      apply Forall_map. eapply Forall_impl; [|exact Hs]. intros [x v] (Hx & u & E & Hu). cbn [fst snd] in *. subst v. apply setting_word; assumption.
    + assert (G : Forall (fun w => written_word w \/ written_assignment w) (map arg_text (arguments p)) /\ Forall wf_redir (map redir_of (redirs p))).
      { split; apply Forall_map.
        - eapply Forall_impl; [|exact Ha]. intros a H. left. apply arg_written, H.
        - eapply Forall_impl; [|exact Hr]. intros [g|g|g] H; try contradiction; (split; [apply plain_written, H|exact I]). }
      destruct (arguments p) as [|a l]; [rewrite (Hne eq_refl); exact I|].
      cbn [opt]. split; [right; discriminate|exact G].
  - cbn [r_command]. unfold r_simple, prog_cmd, prog_prefix, prog_words. cbn [sc_prefix sc_name sc_suffix].
    rewrite spaced_app. f_equal.
    { destruct (settings p) as [|xv l]; [reflexivity|]. cbn [assignment p_redirect]. change (r_redirs []) with (@nil char). rewrite app_nil_r. reflexivity. }
    change (name p :: map arg_text (arguments p) ++ List.concat (map redir_words (redirs p))) with
      ([name p] ++ (map arg_text (arguments p) ++ List.concat (map redir_words (redirs p)))). rewrite spaced_app. f_equal.
    { destruct (name p); [destruct Hn as [[] _]|]. unfold spaced. cbn [map List.concat]. rewrite app_nil_r. reflexivity. }
    rewrite spaced_app. assert (R : forall rs, r_redirs (map redir_of rs) = spaced (List.concat (map redir_words rs))).
    { induction rs as [|r rs IH]; [reflexivity|]. cbn [map List.concat]. rewrite spaced_app, <- IH. unfold r_redirs. cbn [map List.concat].
      f_equal. destruct r; unfold r_redir, spaced; cbn [redir_of io_number redirect filename op_text redir_words map List.concat]; rewrite app_nil_r; reflexivity. }
    destruct (arguments p) as [|a l]; [rewrite (Hne eq_refl); reflexivity|]. cbn [word_list s_redirect]. rewrite R. reflexivity.
Qed.
Lemma comm_tree al_ f ro c : comm_ok al_ f ro c -> wf_pipeline (comm_pipe c) /\ r_pipeline (comm_pipe c) = comm_text c.
Proof.
  destruct c as [x v|x v|x|dir|p more]; cbn [comm_ok comm_pipe]; intros H.
  - destruct H as (Hx & Hv & _). destruct (value_word x v Hx Hv) as (W & _).
    exact (assign_line _ [] (Forall_cons _ W (Forall_nil _))).
  - destruct H as (Hx & Hv & _). destruct (value_word x v Hx Hv) as (W & _).
    apply args_line; [discriminate|apply builtin_word; [reflexivity|discriminate]|]. constructor; [right; exact W|constructor].
  - destruct H as (Hx & _). apply args_line; [discriminate|apply builtin_word; [reflexivity|discriminate]|].
    constructor; [left; apply identifier_facts, Hx|constructor].
  - destruct H as (Ha & _). apply args_line; [discriminate|apply builtin_word; [reflexivity|discriminate]|].
    constructor; [left; apply arg_written, Ha|constructor].
  - split.
    + cbn [wf_pipeline]. split; [discriminate|]. split; [|intros [E _]; discriminate].
      clear -H. induction H as [|q l Hq _ IH]; [exact I|]. split; [|exact IH]. eapply prog_tree, Hq.
    + cbn [r_pipeline comm_text app]. rewrite app_nil_r. inversion H as [|? ? H1 H2]; subst. destruct (prog_tree _ _ _ H1) as [_ E].
      revert p H H1 E. induction H2 as [|q l Hq _ IH]; intros p H H1 E; cbn [map joined List.concat] in *; [rewrite app_nil_r; exact E|].
      rewrite E. f_equal. rewrite <- app_assoc. f_equal. inversion H; subst. eapply IH; [eassumption|exact Hq|eapply prog_tree, Hq].
Qed.
(** ** Steps *)

Lemma first_somes {A} (col : list (option A)) : ContextSpec.first_some col = hd_error (somes col).
Proof. induction col as [|[a|] col IH]; [reflexivity|reflexivity|exact IH]. Qed.
Lemma somes_bound {A} (b : A) col : tl (somes col) = [] -> col <> [] -> somes (ContextLaws.bound (Some b) col) = [b].
Proof.
  intros Ho Hne. unfold ContextLaws.bound. destruct (ContextSpec.replace_first (Some b) col) as [c|] eqn:E.
  - clear Hne. revert c Ho E. induction col as [|[x|] col IH]; intros c Ho E; cbn [ContextSpec.replace_first] in E; [discriminate| |].
    + injection E as <-. cbn in Ho |- *. fold (somes col) in Ho |- *. rewrite Ho. reflexivity.
    + destruct (ContextSpec.replace_first (Some b) col) as [c'|]; [|discriminate]. injection E as <-. exact (IH c' Ho eq_refl).
  - destruct col as [|o col]; [congruence|]. assert (N : somes (o :: col) = []).
    { clear -E. revert E. generalize (o :: col). induction l as [|[x|] l IH]; cbn [ContextSpec.replace_first]; intros E; [reflexivity|discriminate|].
      destruct (ContextSpec.replace_first (Some b) l); [discriminate|]. apply IH, E. }
    cbn in N |- *. fold (somes col) in N |- *. destruct o; [discriminate|]. cbn in N. rewrite N. reflexivity.
Qed.
Lemma somes_app {A} (a b : list (option A)) : somes (a ++ b) = somes a ++ somes b.
Proof. unfold somes. apply flat_map_app. Qed.

Lemma get_var_somes y m : ContextSpec.cm_wf m -> ContextSpec.unqualified y ->
  option_map ContextSpec.binding_of (get_var y m) = hd_error (somes (ContextLaws.column y m)).
Proof. intros H Hy. rewrite ContextLaws.get_var_column by assumption. apply first_somes. Qed.
Lemma global_last y m : ContextSpec.cm_wf m -> exists col, ContextLaws.column y m = col ++ [option_map ContextSpec.binding_of (global y m)].
Proof.
  intros H. unfold ContextLaws.column, global, get_env_context. pose proof (ContextSpec.wf_nonempty _ H) as Hne.
  destruct (stack m) as [|l st]; [congruence|]. cbn [rev hd]. rewrite map_app. eexists. reflexivity.
Qed.
Lemma get_function_same n m m' : ContextSpec.unqualified n -> ContextSpec.definitions n m' = ContextSpec.definitions n m ->
  get_function n m' = get_function n m.
Proof. intros Hn E. rewrite !ContextLaws.get_function_definitions by exact Hn. rewrite E. reflexivity. Qed.
Lemma not_function n m : get_function n m = None -> is_function n m = false.
Proof. intros H. destruct (is_function n m) eqn:E; [|reflexivity]. apply PropertiesContext.C30_is_function in E. congruence. Qed.
(** Putting a variable in the outermost scope. *)
Lemma export_column x v m : ContextSpec.cm_wf m ->
  let mm := update (get_env_context m) (ctx_put_var x v (deref (get_env_context m) m)) m in
  exists col, ContextLaws.column x m = col ++ [option_map ContextSpec.binding_of (global x m)] /\
    ContextLaws.column x mm = col ++ [Some (ContextSpec.binding_of v)].
Proof.
  intros H mm. unfold ContextLaws.column, mm, global, get_env_context.
  pose proof (ContextSpec.wf_nonempty _ H) as Hne. pose proof (ContextSpec.wf_nodup _ H) as Hnd. pose proof (ContextSpec.wf_stack _ H) as Hlt.
  destruct m as [hp st ex]. cbn [stack heap] in *. destruct st as [|l st]; [congruence|]. cbn [stack update rev hd] in *.
  inversion Hnd as [|? ? Hni Hnd' E1]. inversion Hlt as [|? ? Hl Hlt' E2].
  rewrite !map_app. cbn [map]. eexists. split; [reflexivity|]. f_equal.
  - apply map_ext_in. intros l' Hl'. apply in_rev in Hl'. f_equal. f_equal. rewrite ContextFacts.deref_update by exact Hl.
    destruct (Nat.eqb_spec l' l) as [->|_]; [contradiction|reflexivity].
  - rewrite ContextFacts.deref_update by exact Hl. rewrite Nat.eqb_refl. unfold ctx_get_var, ctx_put_var. cbn [Context.vars].
    rewrite sget_sinsert_eq. reflexivity.
Qed.
Lemma sremove_absent {V} k (t : smap V) : sget k t = None -> sremove k t = t.
Proof.
  induction t as [|[k' v] t IH]; [reflexivity|]. cbn [sget sremove]. destruct (str_eqb k k'); [discriminate|]. intros H. rewrite IH by exact H. reflexivity.
Qed.

Section Steps.
Context (w : os) (aliases_ : aliases) (functions_ : str -> option function_body) (readonly : str -> bool) (old : nmap job) (t0 : fdtable) (code : world).
Context (inner : nat) (apart : bool).
Notation agrees := (agrees aliases_ functions_ readonly old t0 inner apart).
Notation fits := (fits code).
Notation comm_ok := (comm_ok aliases_ functions_ readonly).
Notation prog_ok := (prog_ok aliases_ functions_).
Context (Hsys : system w old code).

Lemma agrees_somes m s x : agrees m s -> identifier x ->
  somes (ContextLaws.column x (cm (im s))) = match CoreSpec.vars m x with Some v => [(v, readonly x)] | None => [] end.
Proof.
  intros A Hx. destruct A. pose proof (identifier_facts x Hx) as (_ & _ & _ & _ & X5 & _).
  pose proof (get_var_somes x (cm (im s)) ag_wf0 X5) as G. rewrite (ag_vars0 x Hx) in G. pose proof (ag_once0 x Hx) as O.
  change (PropertiesContext.bindings x (cm (im s))) with (somes (ContextLaws.column x (cm (im s)))) in O.
  destruct (somes (ContextLaws.column x (cm (im s)))) as [|b r]; cbn [tl hd_error] in *.
  - destruct (CoreSpec.vars m x); [discriminate|reflexivity].
  - subst r. destruct (CoreSpec.vars m x); [|discriminate]. injection G as <-. reflexivity.
Qed.

(** The state after a command that writes the variable [x]. *)
Lemma agrees_write m s x o mm v e : agrees m s -> identifier x -> readonly x = false ->
  ContextSpec.perform o (cm (im s)) = Some mm -> ContextLaws.writes o = Some x -> ContextLaws.fwrites o = None ->
  o <> ContextSpec.OPush -> o <> ContextSpec.OPop -> (forall ns, o <> ContextSpec.OPopExport ns) ->
  somes (ContextLaws.column x mm) = match v with Some u => [(u, false)] | None => [] end ->
  (sget x e <> None -> global x mm <> None) ->
  (forall y, y <> x -> sget y e = sget y (environment m)) ->
  (v = None -> x <> lit "PS4") ->
  firstn inner (ContextLaws.column x mm) = repeat None inner ->
  agrees (Machine (set_var x v (CoreSpec.vars m)) e (started m) (visited m)) (Shell (with_env e (with_cm mm (masked_as true (im s)))) (trace s)).
Proof.
  intros A Hx R Hp Hw Hfw N1 N2 N3 Hsom Hg He Hps Hin. pose proof A as [].
  pose proof (ContextFacts.perform_wf _ _ _ ag_wf0 Hp) as Hwf.
  assert (Hcol : forall y, y <> x -> ContextLaws.column y mm = ContextLaws.column y (cm (im s))).
  { intros y Hy. rewrite (ContextLaws.perform_column o _ _ y ag_wf0 Hp) by congruence. destruct o; try reflexivity; congruence. }
  assert (Hdef : forall n, ContextSpec.definitions n mm = ContextSpec.definitions n (cm (im s))).
  { intros n. rewrite (ContextLaws.perform_definitions o _ _ n ag_wf0 Hp) by congruence. destruct o; try reflexivity; congruence. }
  split; cbn [im trace cm env al js with_env with_cm masked_as with_js fds next_pipe CoreSpec.vars environment started visited]; try assumption.
  - intros y Hy. pose proof (identifier_facts y Hy) as (_ & _ & _ & _ & Y5 & _). unfold set_var. destruct (str_eqb_spec y x) as [->|N].
    + apply ContextLaws.binding_of_inj. rewrite get_var_somes, Hsom, R by assumption. destruct v; reflexivity.
    + apply ContextLaws.binding_of_inj. rewrite get_var_somes, Hcol by assumption.
      rewrite (agrees_somes m s y A Hy). destruct (CoreSpec.vars m y); reflexivity.
  - intros y Hy. change (PropertiesContext.bindings y mm) with (somes (ContextLaws.column y mm)).
    destruct (str_eqb_spec y x) as [->|N]; [rewrite Hsom; destruct v; reflexivity|]. rewrite Hcol by exact N. exact (ag_once0 y Hy).
  - intros y Hy Hsy. destruct (str_eqb_spec y x) as [->|N]; [exact (Hg Hsy)|]. rewrite He in Hsy by exact N.
    pose proof (ag_global0 y Hy Hsy) as G. destruct (global_last y mm Hwf) as [c1 E1]. destruct (global_last y (cm (im s)) ag_wf0) as [c2 E2].
    rewrite Hcol in E1 by exact N. rewrite E2 in E1. apply app_inj_tail in E1. destruct E1 as [_ E1].
    intros F. rewrite F in E1. destruct (global y (cm (im s))); [discriminate|]. congruence.
  - intros y Hy. destruct (str_eqb_spec y x) as [->|N]; [exact Hin|]. rewrite Hcol by exact N. auto.
  - intros y Hy. assert (N : y <> x) by (intros ->; exact (proj2 (proj2 (position_facts x Hy)) Hx)). rewrite Hcol by exact N.
    unfold set_var. destruct (str_eqb_spec y x) as [->|_]; [congruence|auto].
  - intros y Hy. assert (N : y <> x) by (intros ->; exact (proj2 (proj2 (position_facts x Hy)) Hx)). rewrite Hcol by exact N. auto.
  - pose proof (ContextLaws.perform_height o _ _ ag_wf0 Hp) as Hh. unfold ContextLaws.height_after in Hh.
    destruct o; try (rewrite Hh; exact ag_depth0); exfalso; [exact (N1 eq_refl)|exact (N2 eq_refl)|exact (N3 _ eq_refl)].
  - unfold set_var. destruct (str_eqb_spec (lit "PS4") x) as [E|_]; [destruct v; [discriminate|]; exfalso; apply Hps; [reflexivity|congruence]|assumption].
  - reflexivity.
  - intros n Hn. rewrite (get_function_same n (cm (im s)) mm Hn (Hdef n)). auto.
  - intros n. rewrite Hdef. auto.
Qed.

(** In a function, no new variable is assigned to. *)
Definition settled (m : machine) (c : comm) : Prop :=
  match c with Assign x _ => inner = 0%nat \/ CoreSpec.vars m x <> None | _ => True end.

Lemma step_assign d x v m s : agrees m s -> comm_ok (Assign x v) -> fits m (Assign x v) -> settled m (Assign x v) ->
  exists s', exec_text w (S d) (comm_text (Assign x v)) s = (OOk 0, s') /\ agrees (snd (step code (Assign x v) m)) s'.
Proof.
  intros A (Hx & Hv & R & Hal) Hfit Hset. cbn [fits settled] in Hfit, Hset. destruct (value_word x v Hx Hv) as (W1 & W2 & W3 & W4 & W5 & _).
  destruct (identifier_facts x Hx) as (X1 & X2 & X3 & X4 & X5 & _).
  set (a := x ++ lit "=" ++ arg_text v) in *. pose proof A as [].
  pose proof (exec_assign w d a [] s (Forall_cons _ W1 (Forall_nil _))) as E.
  specialize (E ltac:(intros y [<-|[]]; exact W2) ltac:(congruence)).
  change (exec_text w (S d) (comm_text (Assign x v)) s =
    match add_var a (cm (im s)) with
    | Some m => (OOk 0, Shell (with_cm m (masked_as true (im s))) (trace s))
    | None => (OPanic, Shell (masked_as true (im s)) (trace s))
    end) in E. rewrite E. clear E.
  specialize (W5 m).
  pose proof (agrees_somes m s x A Hx) as Hs.
  assert (Hcol : ContextSpec.first_some (ContextLaws.column x (cm (im s))) =
    match CoreSpec.vars m x with Some u => Some (u, false) | None => None end).
  { rewrite first_somes, Hs, R. destruct (CoreSpec.vars m x); reflexivity. }
  destruct (add_var a (cm (im s))) as [mm|] eqn:Em.
  2: { exfalso. pose proof (ContextFacts.perform_meaning (ContextSpec.OAssign a) (cm (im s)) ag_wf0 I) as HM.
       cbn [ContextSpec.perform] in HM. rewrite Em in HM. cbn [ContextSpec.meaning] in HM. rewrite W3 in HM.
       rewrite ContextLaws.lookup_column, <- ContextLaws.column_env, Hcol, W4 in HM.
       destruct (CoreSpec.vars m x); exact HM. }
  pose proof (ContextLaws.assign_column a _ _ ag_wf0 Em) as HA. rewrite W3, Hcol, W5 in HA.
  eexists. split; [reflexivity|]. cbn [step snd]. rewrite Hfit.
  replace (with_cm mm (masked_as true (im s))) with (with_env (environment m) (with_cm mm (masked_as true (im s)))) by (rewrite <- ag_env0; reflexivity).
  apply (agrees_write m s x (ContextSpec.OAssign a)); auto; try discriminate.
  - cbn [ContextLaws.writes]. rewrite W3. reflexivity.
  - transitivity (somes (ContextLaws.bound (Some (arg_value m v, false)) (ContextLaws.column x (cm (im s))))).
    + rewrite HA. destruct (CoreSpec.vars m x); reflexivity.
    + apply somes_bound; [rewrite Hs; destruct (CoreSpec.vars m x); reflexivity|apply ContextLaws.column_nonempty; assumption].
  - destruct Hset as [->|Hset]; [reflexivity|]. destruct (CoreSpec.vars m x) as [u|] eqn:V; [|congruence]. rewrite HA.
    assert (Hne : ContextSpec.first_some (ContextLaws.column x (cm (im s))) <> None) by (rewrite Hcol; discriminate).
    pose proof (ag_inner0 x Hx) as Hin. clear -Hin Hne.
    revert Hin Hne. generalize inner (ContextLaws.column x (cm (im s))). intros k col. revert k.
    unfold ContextLaws.bound. induction col as [|b col IH]; intros k Hin Hne; [cbn in Hne; congruence|].
    destruct k as [|k]; [reflexivity|]. cbn [firstn repeat] in Hin. injection Hin as -> Hin. cbn [ContextSpec.first_some] in Hne.
    specialize (IH k Hin Hne). cbn [ContextSpec.replace_first].
    destruct (ContextSpec.replace_first (Some (arg_value m v, false)) col) as [c|] eqn:E; [cbn [firstn repeat]; f_equal; exact IH|].
    exfalso. clear -E Hne. induction col as [|[y|] col IH]; cbn in *; try congruence. apply IH; [|exact Hne].
    destruct (ContextSpec.replace_first _ col); [discriminate|reflexivity].
Qed.

Lemma step_export d x v m s : agrees m s -> comm_ok (Export x v) -> fits m (Export x v) ->
  exists s', exec_text w (S d) (comm_text (Export x v)) s = (OOk 0, s') /\ agrees (snd (step code (Export x v) m)) s'.
Proof.
  intros A (Hx & Hv & R & Hal & Hnp) Hfit. cbn [fits] in Hfit.
  destruct (value_word x v Hx Hv) as (W1 & W2 & W3 & W4 & W5 & W5b & W6 & W7 & W8 & W9).
  destruct (identifier_facts x Hx) as (X1 & X2 & X3 & X4 & X5 & X6 & X7 & X8).
  set (a := x ++ lit "=" ++ arg_text v) in *. pose proof A as [].
  specialize (W5 m). specialize (W5b m).
  change (comm_text (Export x v)) with (r_words [lit "export"; a]).
  rewrite (exec_args_line w d (lit "export") [a] [a] s eq_refl ltac:(discriminate) ltac:(congruence)
    (Forall_cons _ (or_intror W1) (Forall_nil _)) (Forall2_cons _ _ (o_plain _ _ W7 W8 W9) (Forall2_nil _))), call_export.
  unfold export_cmd. cbn [words_of sc_suffix word_list].
  destruct (contains_str (lit "-p") a) eqn:E.
  { apply contains_str_iff in E. destruct E as (b & c & E). destruct (Hnp b c E). }
  destruct (str_eqb_spec a (lit "context")) as [F|Hc].
  { rewrite F in W6. cbn in W6. intuition discriminate. }
  cbn [export_words]. set (v0 := arg_value m v) in *.
  pose proof (export_word_gives a x v0 (blocked s) (conj W3 (conj W5 W6)) X4 (fun Z => proj2 (X3 _ Z) eq_refl) W5b W4
    (ContextSpec.wf_nonempty _ ag_wf0)) as G.
  rewrite (seq_ok _ _ _ _ _ G). eexists. split; [reflexivity|].
  change (cm (im (blocked s))) with (cm (im s)). change (env (im (blocked s))) with (env (im s)). rewrite ag_env0.
  destruct (export_column x (Var v0 false) (cm (im s)) ag_wf0) as (col & C1 & C2).
  set (mm := update _ _ (cm (im s))) in *.
  cbn [step snd]. fold v0.
  assert (Hp : ContextSpec.perform (ContextSpec.OAssignAt 0 a) (cm (im s)) = Some mm).
  { cbn [ContextSpec.perform]. unfold add_var_pos, mm, get_env_context. pose proof (ContextSpec.wf_nonempty _ ag_wf0) as Hne.
    destruct (stack (cm (im s))) as [|l0 st]; [congruence|].
    cbn [nth_error hd]. rewrite ContextFacts.ctx_set_spec, W4, W3, W5. reflexivity. }
  change (agrees (Machine (set_var x (Some v0) (CoreSpec.vars m)) (sinsert x v0 (environment m)) (started m) (visited m))
    (Shell (with_env (sinsert x v0 (environment m)) (with_cm mm (masked_as true (im s)))) (trace s))).
  assert (Hcol : somes col = []).
  { pose proof (agrees_somes m s x A Hx) as Hs. rewrite C1, somes_app in Hs. destruct Hfit as [V|V].
    - rewrite V in Hs. apply app_eq_nil in Hs. apply Hs.
    - pose proof (ag_global0 x Hx V) as Hg. destruct (global x (cm (im s))); [|congruence]. cbn in Hs.
      destruct (somes col) as [|y [|]]; [reflexivity| |]; destruct (CoreSpec.vars m x); discriminate. }
  apply (agrees_write m s x (ContextSpec.OAssignAt 0 a)); auto; try discriminate.
  - cbn [ContextLaws.writes]. rewrite W3. reflexivity.
  - rewrite C2, somes_app, Hcol. reflexivity.
  - intros _ F. destruct (global_last x mm (ContextFacts.perform_wf _ _ _ ag_wf0 Hp)) as [c1 E1]. rewrite F, C2 in E1.
    apply app_inj_tail in E1. destruct E1; discriminate.
  - intros y Hy. apply sget_sinsert_neq. congruence.
  - pose proof (ag_inner0 x Hx) as Hin. rewrite C1 in Hin. rewrite C2.
    assert (L : (inner <= List.length col)%nat).
    { pose proof (ContextLaws.column_length x (cm (im s))) as Hl. rewrite C1, app_length in Hl. cbn in Hl. lia. }
    rewrite firstn_app in Hin |- *. replace (inner - List.length col)%nat with 0%nat in * by lia. exact Hin.
Qed.

Lemma step_unset d x m s : agrees m s -> comm_ok (Unset x) -> fits m (Unset x) ->
  exists s', exec_text w (S d) (comm_text (Unset x)) s = (OOk 0, s') /\ agrees (snd (step code (Unset x) m)) s'.
Proof.
  intros A (Hx & R & Hal & Hps) Hfit. cbn [fits] in Hfit. destruct (identifier_facts x Hx) as (X1 & X2 & X3 & X4 & X5 & X6 & X7 & X8).
  pose proof A as [].
  assert (Hb : forall c, In c (lit "$'""") -> ~ begins c x).
  { intros c Hc [t E]. assert (In c x) as Hin by (rewrite E; left; reflexivity). destruct (X3 c Hin) as [Q _]. cbn in Hc, Q.
    destruct Hc as [<-|Hc]; [exact (X7 Hin)|]. apply Q. tauto. }
  assert (Hdash : ~ In (ch "-") x) by (intros F; apply (proj1 (X3 _ F)); cbn; tauto).
  change (comm_text (Unset x)) with (r_words [lit "unset"; x]).
  rewrite (exec_args_line w d (lit "unset") [x] [x] s eq_refl ltac:(discriminate) ltac:(congruence) (Forall_cons _ (or_introl X1) (Forall_nil _))
    (Forall2_cons _ _ (o_plain _ _ (Hb (ch "$") ltac:(cbn; tauto)) (Hb (ch "'") ltac:(cbn; tauto)) (Hb (ch """") ltac:(cbn; tauto))) (Forall2_nil _))), call_unset.
  rewrite (unset_asks_runs [x] UVariable x _ (ua_plain x [] Hdash)). eexists. split; [reflexivity|].
  destruct (PropertiesContext.C29_unset_innermost x _ ag_wf0 X5) as (_ & U & _).
  set (mm := remove_var x (cm (im s))) in *.
  change (agrees (Machine (set_var x None (CoreSpec.vars m)) (sremove x (environment m)) (started m) (visited m))
    (Shell (with_cm mm (masked_as true (im s))) (trace s))).
  rewrite (sremove_absent x _ Hfit).
  replace (with_cm mm (masked_as true (im s))) with (with_env (environment m) (with_cm mm (masked_as true (im s))))
    by (rewrite <- ag_env0; reflexivity).
  apply (agrees_write m s x (ContextSpec.OUnset x)); auto; try discriminate.
  - cbn [ContextLaws.writes]. rewrite (proj2 (ContextFacts.namespaced_none x) X5). reflexivity.
  - exact (eq_trans U (ag_once0 x Hx)).
  - pose proof (ContextLaws.unset_column x (cm (im s)) ag_wf0 X5) as HU. fold mm in HU. pose proof (ag_inner0 x Hx) as Hin. rewrite HU.
    clear -Hin. revert Hin. generalize inner (ContextLaws.column x (cm (im s))). intros k col. revert k.
    induction col as [|b col IH]; intros k Hin; [exact Hin|]. destruct k as [|k]; [reflexivity|]. cbn [firstn repeat] in Hin. injection Hin as -> Hin.
    specialize (IH k Hin). cbn [ContextSpec.replace_first].
    destruct (ContextSpec.replace_first None col) as [c|]; cbn [firstn repeat]; f_equal; assumption.
Qed.

Lemma fields_one v : shown v -> fields v = [v].
Proof.
  intros [Hne Hc]. unfold fields. assert (K : forall u acc, (forall c, In c u -> blank c = false) -> acc ++ u <> [] -> fields_from acc u = [acc ++ u]).
  { clear. induction u as [|c u IH]; intros acc Hb Hn; cbn [fields_from].
    - rewrite app_nil_r in *. destruct acc; [congruence|reflexivity].
    - rewrite (Hb c (or_introl eq_refl)), IH; [rewrite <- app_assoc; reflexivity|intros c' F; apply Hb; right; exact F|].
      rewrite <- app_assoc. exact Hn. }
  apply (K v []); [intros c F; apply (Hc c F)|]. destruct v; [destruct Hne|discriminate].
Qed.

Lemma arg_ordinary m s a : agrees m s -> arg_ok a -> (forall x, a = Dollar x -> exists v, CoreSpec.vars m x = Some v /\ shown v) ->
  ordinary (expand_var (cm (im s))) (arg_text a) (arg_value m a) /\ ~ In 0%N (arg_value m a) /\ arg_fields m a = [arg_value m a].
Proof.
  intros A Ha Hu. destruct a as [u|t|t|x]; cbn [arg_ok arg_text arg_value arg_fields] in *.
  - destruct u as [|c r]; [destruct Ha as [[] _]|]. destruct Ha as [(Hc & Q & Hr) [Z _]].
    split; [|split; [intros F; exact (proj2 (Z _ F) eq_refl)|reflexivity]].
    apply o_plain; intros [t [= -> _]].
    + apply (proj1 Hc). cbn. tauto.
    + apply Q. cbn. tauto.
    + apply Q. cbn. tauto.
  - split; [apply o_single, Ha|]. split; [apply Ha|reflexivity].
  - split; [apply o_double; intros c F G; apply (proj1 (Ha c F)); cbn in G |- *; tauto|].
    split; [intros F; exact (proj2 (Ha _ F) eq_refl)|reflexivity].
  - destruct A. destruct (Hu x eq_refl) as (v & V & Hsh). unfold value_of. rewrite V.
    assert (Hg : expand_var (cm (im s)) x = Some v).
    { unfold expand_var. destruct Ha as [Ha|Ha]; [rewrite ag_vars0, V by exact Ha; reflexivity|].
      pose proof (get_var_somes x (cm (im s)) ag_wf0 (proj1 (proj2 (position_facts x Ha)))) as G. rewrite (ag_position0 x Ha), V in G.
      destruct (get_var x (cm (im s))) as [[vv rr]|]; [|discriminate]. injection G as -> _. reflexivity. }
    split; [|split; [intros F; exact (proj2 (proj2 (proj2 Hsh _ F)) eq_refl)|apply fields_one, Hsh]].
    apply o_set; [exact Hg| |]; intros [t ->]; apply Hsh; cbn; tauto.
Qed.

Lemma step_cd d dir m s : agrees m s -> comm_ok (Cd dir) -> fits m (Cd dir) ->
  exists s', exec_text w (S d) (comm_text (Cd dir)) s = (OOk (fst (step code (Cd dir) m)), s') /\ agrees (snd (step code (Cd dir) m)) s'.
Proof.
  intros A [Ha Hal] [Hfit Hr]. pose proof A as []. destruct (arg_ordinary m s dir A Ha Hfit) as (Ho & _).
  change (comm_text (Cd dir)) with (r_words [lit "cd"; arg_text dir]).
  rewrite (C89_cd_partial w d _ (arg_value m dir) [] [] s ltac:(congruence) (Forall_cons _ (or_introl (arg_written _ Ha)) (Forall_nil _))
    (Forall2_cons _ _ Ho (Forall2_nil _))).
  rewrite (sys_chdir _ _ _ Hsys), ag_visited0. cbn [step]. rewrite Hr. eexists. split; [reflexivity|].
  cbn [fst snd]. split; cbn [im trace cm env al js masked_as with_js fds next_pipe CoreSpec.vars environment started visited]; auto.
  cbn [directories]. rewrite ag_visited0. reflexivity.
Qed.

Lemma no_wait_tail e new : no_wait (e :: new) -> no_wait new.
Proof. intros H k F. exact (H k (or_intror F)). Qed.
Lemma programs_app new t : no_wait new ->
  directories (new ++ t) = directories t /\ programs_of (new ++ t) = programs_of t ++ map (process_start (directories t)) (forks new).
Proof.
  induction new as [|e new IH]; intros H; [cbn; rewrite app_nil_r; split; reflexivity|].
  destruct (IH (no_wait_tail _ _ H)) as [I1 I2]. rewrite PropertiesWait.forks_cons, map_app.
  destruct e; cbn [app directories programs_of map]; rewrite ?app_nil_r, ?I1, ?I2; try (split; reflexivity).
  - destruct (H _ (or_introl eq_refl)).
  - rewrite <- app_assoc. split; reflexivity.
Qed.
Lemma programs_before t : forks (recent t) = [] -> programs_of (before t) = programs_of t.
Proof.
  induction t as [|e t IH]; [reflexivity|]. destruct e; cbn [recent before programs_of]; try rewrite PropertiesWait.forks_cons; try rewrite app_nil_r; auto.
  intros F. apply app_eq_nil in F. destruct F; discriminate.
Qed.
Lemma recent_app new t : no_wait new -> recent (new ++ t) = new ++ recent t /\ before (new ++ t) = before t.
Proof.
  induction new as [|e new IH]; intros H; [split; reflexivity|].
  destruct IH as [I1 I2]; [exact (no_wait_tail _ _ H)|].
  destruct e; cbn [app recent before]; try (rewrite I1, I2; split; reflexivity).
  destruct (H _ (or_introl eq_refl)).
Qed.
Lemma recent_before t : recent t ++ before t = t.
Proof. induction t as [|e t IH]; [reflexivity|]. destruct e; cbn [recent before app]; rewrite ?IH; reflexivity. Qed.

Lemma fresh_pids new tr : no_wait new -> forks (recent tr) = [] ->
  (forall a i c r b, new = a ++ EFork i c r :: b -> r = r_fork (w (b ++ tr))) ->
  NoDup (fork_pids new) /\ forall q, In q (fork_pids new) -> forall k j, nget k old = Some j -> at_rest q j.
Proof.
  induction new as [|e new IH]; intros Hn Hq Hh; [split; [constructor|intros q []]|].
  pose proof (no_wait_tail _ _ Hn) as Hn'.
  assert (Hh' : forall a i c r b, new = a ++ EFork i c r :: b -> r = r_fork (w (b ++ tr))).
  { intros a i c r b E. apply (Hh (e :: a) i c r b). rewrite E. reflexivity. }
  destruct (IH Hn' Hq Hh') as [I1 I2]. unfold fork_pids in *. rewrite PropertiesWait.forks_cons, map_app.
  destruct e; try (cbn [map]; rewrite app_nil_r; split; assumption).
  pose proof (Hh [] _ _ _ new eq_refl) as Er. destruct (sys_fork _ _ _ Hsys (new ++ tr)) as (q & E1 & E2 & E3).
  rewrite (proj1 (recent_app new tr Hn')) in E2. unfold fork_pids in E2. rewrite forks_app, Hq in E2. cbn [app] in E2.
  rewrite Er, E1. cbn [map snd]. split.
  - apply (Permutation.Permutation_NoDup (Permutation.Permutation_cons_append _ _)). constructor; assumption.
  - intros q' Hq'. apply in_app_iff in Hq'. destruct Hq' as [Hq'|[<-|[]]]; [exact (I2 q' Hq')|exact E3].
Qed.

Lemma nth_error_same {A} (l l' : list A) : List.length l = List.length l' ->
  (forall k a b, nth_error l k = Some a -> nth_error l' k = Some b -> a = b) -> l = l'.
Proof.
  revert l'. induction l as [|x l IH]; intros [|y l'] H1 H2; try discriminate; [reflexivity|].
  f_equal; [exact (H2 0%nat x y eq_refl eq_refl)|]. apply IH; [injection H1; auto|]. intros k. exact (H2 (S k)).
Qed.
Lemma starts_nth m ps : forall first k p, nth_error ps k = Some p ->
  nth_error (starts_of m first ps) k = Some (start_of m (first && Nat.eqb k 0) (Nat.eqb (S k) (List.length ps)) p).
Proof.
  induction ps as [|q ps IH]; intros first k p H; [destruct k; discriminate|]. destruct k as [|k]; cbn [nth_error starts_of] in *.
  - injection H as ->. rewrite andb_true_r. destruct ps; reflexivity.
  - rewrite (IH false k p H), andb_false_r. cbn [List.length Nat.eqb andb]. reflexivity.
Qed.
Lemma starts_length m ps : forall first, List.length (starts_of m first ps) = List.length ps.
Proof. induction ps as [|q ps IH]; intros first; [reflexivity|]. cbn [starts_of List.length]. rewrite IH. reflexivity. Qed.

Lemma redirs_in m p : redirections_in (prog_done m p) = map redir_of (redirs p).
Proof. unfold redirections_in, prog_done, prog_prefix. cbn [sc_prefix sc_suffix s_redirect]. destruct (settings p); reflexivity. Qed.
Lemma input_find rs d : input_of rs d = match find is_input (rev (map redir_of rs)) with Some r => FromFile (filename r) | None => d end.
Proof.
  unfold input_of. rewrite <- fold_left_rev_right, <- map_rev. induction (rev rs) as [|r l IH]; [reflexivity|].
  cbn [fold_right map find]. destruct r; cbn [redir_of is_input redirect]; [reflexivity|exact IH..].
Qed.
Lemma output_find rs d : output_of rs d = match find (fun r => negb (is_input r)) (rev (map redir_of rs)) with
  | Some r => match redirect r with RAppend => AddedTo (filename r) | _ => Replacing (filename r) end | None => d end.
Proof.
  unfold output_of. rewrite <- fold_left_rev_right, <- map_rev. induction (rev rs) as [|r l IH]; [reflexivity|].
  cbn [fold_right map find]. destruct r; cbn [redir_of is_input redirect negb]; [exact IH|reflexivity..].
Qed.
Lemma assignments_done m p : assignments_in (prog_done m p) = map setting_text (settings p).
Proof. unfold assignments_in, prog_done, prog_prefix. cbn [sc_prefix]. destruct (settings p); reflexivity. Qed.
Lemma settings_fold m p e : prog_ok p ->
  fold_left (fun e a => sinsert (ContextSpec.upto (ch "=") a) (ContextSpec.upto (ch "=") (ContextSpec.past (ch "=") a)) e) (map setting_text (settings p)) e =
  fold_left (fun e xv => sinsert (fst xv) (arg_value m (snd xv)) e) (settings p) e.
Proof.
  intros (Hs & _). revert e. induction Hs as [|[x v] l (Hx & u & E & Hu) _ IH]; intros e; [reflexivity|]. cbn [fst snd] in *. subst v.
  cbn [map fold_left]. destruct (setting_word x u Hx Hu) as (_ & _ & E1 & E2). rewrite E1, E2. apply IH.
Qed.
Lemma assigned_fold e l e' : assigned e l e' ->
  e' = fold_left (fun e a => sinsert (ContextSpec.upto (ch "=") a) (ContextSpec.upto (ch "=") (ContextSpec.past (ch "=") a)) e) l e.
Proof.
  induction 1 as [e|e k v rest ws e' Hk Hv Hr H IH]; [reflexivity|]. cbn [fold_left].
  change (k ++ lit "=" ++ v ++ rest) with (k ++ ch "=" :: v ++ rest).
  rewrite (ContextLaws.upto_app (ch "=") k) by (apply contains_char_notIn, Hk).
  rewrite (ContextLaws.past_app (ch "=") k) by (apply contains_char_notIn, Hk).
  replace (ContextSpec.upto (ch "=") (v ++ rest)) with v; [exact IH|].
  destruct Hr as [->|[t ->]]; [|rewrite (ContextLaws.upto_app (ch "=") v) by (apply contains_char_notIn, Hv); reflexivity].
  rewrite app_nil_r. clear -Hv. induction v as [|c v IH]; [reflexivity|]. cbn [ContextSpec.upto].
  destruct (N.eqb_spec c (ch "=")) as [->|_]; [exfalso; apply Hv; left; reflexivity|]. f_equal. apply IH. intros F. apply Hv. right. exact F.
Qed.

(** The programs of a line, and what they are when they have been expanded. *)
Lemma prog_program m s p : agrees m s -> prog_ok p ->
  (forall x, In (Dollar x) (arguments p) -> exists v, CoreSpec.vars m x = Some v /\ shown v) ->
  program (im s) (prog_cmd p) (prog_done m p) /\ List.concat (map (arg_fields m) (arguments p)) = map (arg_value m) (arguments p).
Proof.
  intros A Hok Hfit. pose proof Hok as (Hs & Hn & Hpn & Hb & Hf & Hq & Hargs & Hr & Hne). pose proof A as [].
  assert (Hall : Forall2 (ordinary (expand_var (cm (im s)))) (map arg_text (arguments p)) (map (arg_value m) (arguments p)) /\
    Forall (fun v => ~ In 0%N v) (map (arg_value m) (arguments p)) /\ List.concat (map (arg_fields m) (arguments p)) = map (arg_value m) (arguments p)).
  { clear -A Hargs Hfit. induction Hargs as [|a l H1 _ IH]; [split; [|split]; constructor|].
    destruct (arg_ordinary m s a A H1) as (G1 & G2 & G3); [intros x ->; apply Hfit; left; reflexivity|].
    destruct IH as (I1 & I2 & I3); [intros x F; apply Hfit; right; exact F|].
    split; [constructor; assumption|]. split; [constructor; assumption|]. cbn [map List.concat]. rewrite G3, I3. reflexivity. }
  destruct Hall as (Ho & Hz & Hfl). split; [|exact Hfl].
  assert (Hz' : forall c, In c (List.concat (name p :: map (arg_value m) (arguments p))) -> c <> 0%N).
  { intros c Hc ->. apply in_concat in Hc. destruct Hc as (v & [<-|Hv] & Hc); [exact (proj2 (proj1 (proj2 Hn) _ Hc) eq_refl)|].
    rewrite Forall_forall in Hz. exact (Hz v Hv Hc). }
  assert (Hd : forall q a, prog_prefix p = Some q -> In a (assignment q) -> ~ In (ch "$") a).
  { intros q a E Ha. unfold prog_prefix in E. destruct (settings p) as [|xv l] eqn:El; [discriminate|]. injection E as <-. cbn [assignment] in Ha.
    apply (in_map_iff setting_text (xv :: l) a) in Ha. destruct Ha as ([x v] & <- & Hin). rewrite Forall_forall in Hs. destruct (Hs _ Hin) as (Hx & u & E & Hu).
    cbn [fst snd] in *. subst v. apply setting_word; assumption. }
  unfold prog_cmd, prog_done. destruct (arguments p) as [|a l] eqn:Ea.
  - rewrite (Hne eq_refl). apply program_bare; [exact Hb|rewrite ag_aliases0; exact Hpn|apply not_function; rewrite ag_functions0 by exact Hq; exact Hf|exact Hd|exact I|
      intros F; exact (proj2 (proj1 (proj2 Hn) _ F) eq_refl)].
  - apply program_words; [exact Hb|rewrite ag_aliases0; exact Hpn|apply not_function; rewrite ag_functions0 by exact Hq; exact Hf|exact Hd|discriminate|exact Ho|exact Hz'].
Qed.

Lemma child_start m s ps k p f : agrees m s -> prog_ok p -> List.concat (map (arg_fields m) (arguments p)) = map (arg_value m) (arguments p) ->
  nth_error ps k = Some p -> started_child s false (map (prog_done m) ps) k f ->
  process_start (visited m) f = start_of m (Nat.eqb k 0) (Nat.eqb (S k) (List.length ps)) p.
Proof.
  intros A Hp Hfl Hk Hc. destruct f as [[i c] r]. destruct Hc as (C1 & C2 & _ & (_ & _ & _ & C4 & _) & (_ & T1 & T2 & _)).
  rewrite nth_error_map, Hk in C1. cbn [option_map] in C1. injection C1 as C1. cbn [env with_fds with_next_pipe] in C4.
  unfold process_start, start_of. rewrite C2, <- C1, redirs_in, assignments_done, <- input_find, <- output_find, Hfl, C4, (ag_env _ _ _ _ _ _ _ _ _ A), (settings_fold m) by exact Hp.
  rewrite map_length in T2. f_equal.
  - f_equal. destruct k as [|k]; [rewrite T1; reflexivity|]. destruct T1 as [T1 _]. apply Z.leb_le in T1. rewrite T1. reflexivity.
  - f_equal. destruct (Nat.eqb (S k) (List.length ps)); [rewrite T2; reflexivity|]. destruct T2 as (_ & T2 & _). apply Z.leb_le in T2. rewrite T2. reflexivity.
Qed.

Lemma child_executes m s ps k p f : agrees m s -> prog_ok p ->
  nth_error ps k = Some p -> started_child s false (map (prog_done m) ps) k f -> executes t0 f.
Proof.
  intros A Hp Hk Hc. destruct f as [[i c] r]. pose proof A as [].
  destruct Hc as (C1 & C2 & _ & (C5 & _ & _ & C4 & _) & Haf).
  rewrite nth_error_map, Hk in C1. cbn [option_map] in C1. injection C1 as C1. cbn [env cm with_fds with_next_pipe] in C4, C5.
  set (n0 := next_pipe (im s)) in *. set (len := List.length (map (prog_done m) ps)) in *.
  assert (Hpi : forall fd, piped (fds (im s)) n0 len k fd = piped t0 n0 len k fd).
  { intros fd. unfold piped. rewrite ag_files0. reflexivity. }
  assert (P0 : nget 0 (fds (im s)) <> None /\ nget 1 (fds (im s)) <> None) by (rewrite !ag_files0; exact ag_open0).
  pose proof Hp as (Hs & Hn & Hpn & Hb & Hf & Hq & Hargs & Hr & Hne).
  assert (Hnf : is_function (sc_name (c_cmd c)) (cm i) = false).
  { rewrite <- C1, C5. cbn [prog_done sc_name]. apply not_function. rewrite ag_functions0 by exact Hq. exact Hf. }
  assert (H01 : redirections_in (c_cmd c) = [] \/ piped (fds (im s)) n0 len k 0 <> None /\ piped (fds (im s)) n0 len k 1 <> None).
  { right. unfold piped. cbn [Z.eqb]. split; [destruct k; [apply P0|discriminate]|]. change (1 =? 0) with false. cbn [Z.eqb Pos.eqb].
    destruct (Nat.eqb (S k) len); [apply P0|discriminate]. }
  pose proof (fun w2 n o s2 => child_outcome w2 (evaluate w2 n) c i [] (fds (im s)) n0 len k o s2 C2 Hnf (proj1 ag_fds0) Haf H01) as Hout.
  split.
  { intros w2 n path Ho Hx Hz Hlk. destruct (run_child w2 n i c) as [o s2] eqn:Er. exists s2. f_equal.
    change (hd [] (argv (process_start [] (i, c, r)))) with (hd [] (p_argv (c_proc c))) in Hlk. rewrite C2 in Hlk.
    change (hd [] (p_argv (proc_of (c_cmd c)))) with (sc_name (c_cmd c)) in Hlk.
    destruct (Hout w2 n o s2 Er) as [[_ [(x & t & _ & F)|[(x & Hx1 & F)|(t & [F|(path' & F1 & F2)])]]]|[[_ (t & [F|(path' & F1 & F2)])]|(path' & e' & tr1 & E & Ha & Hl & _)]].
    - rewrite Ho in F. discriminate.
    - exfalso. apply F. rewrite <- C1, assignments_done in Hx1. apply in_map_iff in Hx1. destruct Hx1 as ([y v] & <- & Hin).
      rewrite Forall_forall in Hs. destruct (Hs _ Hin) as (Hy & u & E & Hu). cbn [fst snd] in *. subst v.
      destruct (identifier_facts y Hy) as (_ & _ & Y3 & Y4 & _ & Y6 & _).
      exists y, u, []. split; [unfold setting_text; rewrite app_nil_r; reflexivity|]. split; [exact Y6|].
      split; [apply metachar_not_in; [cbn; tauto|apply plain_chars, Hu]|]. split; [left; reflexivity|]. split; [exact Y4|].
      split; [intros G; exact (proj2 (Y3 _ G) eq_refl)|]. intros G. exact (proj2 (proj1 (proj2 Hu) _ G) eq_refl).
    - rewrite Hlk in F. discriminate.
    - rewrite Hlk in F1. injection F1 as <-. contradiction.
    - rewrite Hlk in F. discriminate.
    - rewrite Hlk in F1. injection F1 as <-. rewrite Hx in F2. discriminate.
    - rewrite Hlk in Hl. injection Hl as <-. rewrite E. unfold process_start. cbn [argv environ]. rewrite <- (assigned_fold _ _ _ Ha), C2. reflexivity. }
  intros w2 n path av e s2 H.
  destruct (Hout w2 n _ _ H) as [[F _]|[[F _]|(path' & e' & tr1 & E & Ha & Hl & Hfd & Hm & Hh & new & Etr & Hcd)]]; try discriminate.
  injection E as <- -> <-.
  destruct Haf as (_ & T1 & T2 & T3).
  cbn zeta. unfold process_start. cbn [argv environ input output].
  split; [rewrite C2; reflexivity|]. split; [apply assigned_fold, Ha|]. split; [exists tr1; exact Hl|]. split; [exact Hm|]. split; [exact Hh|]. split; [intros q; rewrite Etr, app_nil_r; apply Hcd|].
  rewrite <- C1, redirs_in in Hfd |- *.
  split; [|split].
  - rewrite (Hfd 0). unfold redirected. cbn [Z.eqb]. destruct (find is_input _) as [r0|] eqn:Ef.
    + apply find_some in Ef. destruct Ef as [_ Ef]. unfold is_input, opens_as in *. destruct (redirect r0); [reflexivity|discriminate..].
    + unfold piped. cbn [Z.eqb]. destruct k as [|k]; [rewrite T1; cbn [Z.leb Z.compare]; rewrite ag_files0; reflexivity|].
      destruct T1 as [T1 _]. apply Z.leb_le in T1. rewrite T1. rewrite T3, Z.eqb_refl. reflexivity.
  - rewrite (Hfd 1). unfold redirected. change (1 =? 0) with false. change (1 =? 1) with true. cbn iota.
    destruct (find (fun r => negb (is_input r)) _) as [r0|] eqn:Ef.
    + apply find_some in Ef. destruct Ef as [Ei Ef]. apply in_rev, in_map_iff in Ei. destruct Ei as (x & <- & Hx).
      rewrite Forall_forall in Hr. specialize (Hr x Hx). destruct x; [discriminate|reflexivity|contradiction].
    + unfold piped. change (1 =? 0) with false. change (1 =? 1) with true. cbn iota.
      destruct (Nat.eqb (S k) len); [rewrite T2; cbn [Z.leb Z.compare]; rewrite ag_files0; reflexivity|].
      destruct T2 as (_ & T2 & _ & _ & T5 & _ & T6). apply Z.leb_le in T2. rewrite T2. rewrite T3.
      destruct (Z.eqb_spec (snd (c_pipe c)) (c_prev c)); [contradiction|]. destruct (Z.eqb_spec (snd (c_pipe c)) (fst (c_pipe c))); [lia|].
      rewrite Z.eqb_refl. reflexivity.
  - intros fd F0 F1. rewrite (Hfd fd). unfold redirected, piped. apply Z.eqb_neq in F0, F1. rewrite F0, F1, ag_files0. reflexivity.
Qed.

Lemma linked_app a b : linked a -> linked b -> (forall i c r, hd_error b = Some (i, c, r) -> c_prev c = -1) -> linked (a ++ b).
Proof.
  intros Ha Hb Hh k i1 c1 r1 i2 c2 r2 H1 H2 Hp. destruct (Nat.lt_ge_cases (S k) (List.length a)) as [L|L].
  - rewrite nth_error_app1 in H1, H2 by lia. eapply Ha; eassumption.
  - rewrite (nth_error_app2 a b L) in H2. destruct (Nat.eq_dec (S k) (List.length a)) as [E|E].
    + rewrite E, Nat.sub_diag in H2. rewrite (Hh i2 c2 r2) in Hp by (destruct b; exact H2). lia.
    + rewrite nth_error_app2 in H1 by lia. replace (S k - List.length a)%nat with (S (k - List.length a)) in H2 by lia. eapply Hb; eassumption.
Qed.
Lemma linked_new s scs' l : List.length l = List.length scs' -> (forall k f, nth_error l k = Some f -> started_child s false scs' k f) ->
  linked l /\ forall i c r, hd_error l = Some (i, c, r) -> c_prev c = -1.
Proof.
  intros Hl H. split.
  - intros k i1 c1 r1 i2 c2 r2 H1 H2 Hp. pose proof (H _ _ H1) as (_ & _ & _ & _ & (_ & T1 & T2 & T3)).
    pose proof (H _ _ H2) as (_ & _ & _ & _ & (_ & U1 & U2 & U3)).
    assert (L : (S k < List.length scs')%nat) by (rewrite <- Hl; apply nth_error_Some; intros F; discriminate (eq_trans (eq_sym F) H2)).
    exists (next_pipe (im s) + Z.of_nat k). split.
    + rewrite T3. destruct (Nat.eqb_spec (S k) (List.length scs')); [lia|]. destruct T2 as (_ & T2 & _ & _ & T5 & _ & T6).
      destruct (Z.eqb_spec (snd (c_pipe c1)) (c_prev c1)); [contradiction|]. destruct (Z.eqb_spec (snd (c_pipe c1)) (fst (c_pipe c1))); [lia|].
      rewrite Z.eqb_refl. reflexivity.
    + rewrite U3, Z.eqb_refl. reflexivity.
  - intros i c r E. destruct l as [|f l]; [discriminate|]. cbn in E. injection E as ->. destruct (H 0%nat _ eq_refl) as (_ & _ & _ & _ & (_ & T1 & _)). exact T1.
Qed.

Lemma step_first d p more m s : agrees m s -> comm_ok (Run p more) ->
  (forall q x, In q (p :: more) -> In (Dollar x) (arguments q) -> exists v, CoreSpec.vars m x = Some v /\ shown v) ->
  exists s', exec_text w (S d) (comm_text (Run p more)) s = (OOk (code (started m) (starts_of m true (p :: more)) 0%nat), s') /\
    agrees (snd (step code (Run p more) m)) s'.
Proof.
  intros A Hok Hfit. destruct (comm_tree _ _ _ _ Hok) as [Hwf Ht]. cbn [comm_ok] in Hok.
  pose proof A as []. set (ps := p :: more) in *. set (scs := map prog_cmd ps). set (scs' := map (prog_done m) ps).
  assert (HP : Forall2 (program (im s)) scs scs' /\ Forall (fun q => List.concat (map (arg_fields m) (arguments q)) = map (arg_value m) (arguments q)) ps).
  { unfold scs, scs'. clearbody ps. clear -A Hok Hfit. induction Hok as [|q l Hq _ IH]; [split; constructor|].
    destruct (prog_program m s q A Hq) as [G1 G2]; [intros x Hx; exact (Hfit q x (or_introl eq_refl) Hx)|].
    destruct IH as [I1 I2]; [intros q' x H1 H2; exact (Hfit q' x (or_intror H1) H2)|]. split; constructor; assumption. }
  destruct HP as [HP Hfl].
  assert (Hps : exists v, expand_var (cm (im s)) (lit "PS4") = Some v).
  { unfold expand_var. rewrite ag_vars0 by exact ps4_identifier. destruct (CoreSpec.vars m (lit "PS4")) as [v|] eqn:V; [|congruence].
    exists v. reflexivity. }
  destruct Hps as [v4 Hps].
  change (comm_pipe (Run p more)) with (Pipeline false (map CSimple scs) false) in Hwf, Ht.
  destruct (PropertiesWait.foreground_at w d false scs scs' s ltac:(discriminate) Hwf HP (proj1 ag_fds0) ag_basic0 (sys_pipe _ _ _ Hsys))
    as (s1 & jps & new & E & T1 & Hnw & Hlen & Hch & Hh & E1 & E2 & E3 & E4 & E5 & E6).
  set (id := next_job_id (jobs (js (im s)))) in *.
  destruct (recent_app new (trace s) Hnw) as [R1 R2]. destruct (fresh_pids new (trace s) Hnw ag_quiet0 Hh) as [Hnd Hrest].
  assert (Hlen' : List.length (forks new) = List.length ps) by (rewrite Hlen; apply map_length).
  destruct (fork_pids new) as [|q qs] eqn:Eq.
  { unfold fork_pids in Eq. apply map_eq_nil in Eq. rewrite Eq in Hlen'. discriminate. }
  assert (Hkids : forall k f, nth_error (forks new) k = Some f -> exists q, nth_error ps k = Some q /\ prog_ok q /\
    List.concat (map (arg_fields m) (arguments q)) = map (arg_value m) (arguments q) /\ started_child s false (map (prog_done m) ps) k f).
  { intros k f Hk. destruct (nth_error ps k) as [p'|] eqn:Ep.
    - exists p'. apply nth_error_In in Ep. rewrite Forall_forall in Hok, Hfl. auto.
    - apply nth_error_None in Ep. rewrite <- Hlen' in Ep. apply nth_error_None in Ep. congruence. }
  assert (Hprog : map (process_start (visited m)) (forks new) = starts_of m true ps).
  { apply nth_error_same; [rewrite map_length, starts_length; exact Hlen'|]. intros k a b Ha Hb'. rewrite nth_error_map in Ha.
    destruct (nth_error (forks new) k) as [f|] eqn:Ef; [|discriminate]. injection Ha as <-. destruct (Hkids k f Ef) as (p' & K1 & K2 & K3 & K4).
    rewrite (starts_nth m ps true k p' K1) in Hb'. injection Hb' as <-. exact (child_start m s ps k p' f A K2 K3 K1 K4). }
  destruct (programs_app new (trace s) Hnw) as [P1 P2]. rewrite ag_visited0 in P1, P2. rewrite ag_started0, Hprog in P2.
  assert (Hrec : programs_since (trace s1) = starts_of m true ps /\ programs_of (before (trace s1)) = started m /\ fork_pids (recent (trace s1)) = q :: qs).
  { unfold programs_since. rewrite T1, R1, R2, P2, (programs_before _ ag_quiet0), ag_started0. unfold fork_pids in *. rewrite forks_app, ag_quiet0. cbn [app].
    split; [rewrite skipn_app, skipn_all, Nat.sub_diag; reflexivity|]. split; [reflexivity|exact Eq]. }
  destruct Hrec as (Q1 & Q2 & Q3).
  destruct (sys_wait _ _ _ Hsys (trace s1) q qs Q3 Hnd) as (n & es & rs & mi & a & rest & W1 & W2 & W3 & W4). cbv zeta in W1, W2. rewrite Q1, Q2 in W1, W2.
  destruct (PropertiesWait.finish_first w id s s1 v4 (q :: qs) q qs jps n _ es rs mi a rest Hps E1 E2 E3 E4 E5 E6 eq_refl W1 Hnd)
    as (s' & F & Fst & Fm & Ftr & J1 & J2).
  { constructor. }
  { clear -W2. induction W2 as [|x r es rs (k & _ & E) _ IH]; constructor; [|exact IH]. rewrite E. constructor. }
  { exact W3. }
  { clear -W2. induction W2 as [|x r es rs (k & E & _) _ IH]; intros y Hy; [destruct Hy|]. destruct Hy as [<-|Hy]; [|exact (IH y Hy)]. eapply nth_error_In, E. }
  { intros k j q' Hk Hq'. apply (Hrest q' Hq' k). rewrite <- ag_jobs0. exact Hk. }
  { exact W4. }
  rewrite F in E. cbn [PropertiesStatus.status_after] in E, Fst. rewrite Ht in E. exists s'. split.
  { rewrite E. reflexivity. }
  rewrite <- Ht in E.
  destruct (exec_programs w d false false scs scs' s _ s' ltac:(discriminate) Hwf HP (proj1 ag_fds0) E) as (new' & Htr & _ & Hfin & [[_ Hfds]|[G _]]); [|discriminate].
  clear Htr new'. destruct Hfin as (F1 & F2 & F3 & F4 & F5 & F6 & F7 & F8). cbn [cm al env with_fds with_next_pipe] in F1, F2, F4.
  assert (Hev : exec_text w (S d) (r_pipeline (Pipeline false (map CSimple scs) false)) s = evaluate w (S d) [AoOne (Pipeline false (map CSimple scs) false)] s).
  { rewrite exec_pipeline by exact Hwf. symmetry. rewrite evaluate_one. reflexivity. }
  rewrite Hev in E.
  assert (Hforks : forks (trace s') = forks (trace s) ++ forks new).
  { rewrite Ftr, T1, PropertiesWait.forks_cons, app_nil_r, forks_app. reflexivity. }
  cbn [step snd]. fold ps. split; cbn [CoreSpec.vars environment started visited]; rewrite ?F1, ?F2, ?F4, ?Hforks; auto.
  - rewrite (EvalForked.evaluate_still w (S d) _ s _ s' E (or_introl eq_refl)). exact ag_forked0.
  - rewrite Ftr, T1. exact P2.
  - rewrite Ftr, T1. exact P1.
  - apply Forall_app. split; [exact ag_executes0|]. apply Forall_forall. intros f Hf. apply In_nth_error in Hf. destruct Hf as [k Hk].
    destruct (Hkids k f Hk) as (p' & K1 & K2 & K3 & K4). exact (child_executes m s ps k p' f A K2 K1 K4).
  - destruct (linked_new s (map (prog_done m) ps) (forks new)) as [L1 L2]; [rewrite map_length; exact Hlen'|exact Hch|]. apply linked_app; assumption.
  - rewrite Ftr. reflexivity.
  - exact (evaluate_sound _ _ _ _ _ _ E ag_fds0).
  - intros fd. rewrite Hfds. apply ag_files0.
  - destruct (EvalJobs.evaluate_worked w (S d) _ s _ s' E (or_introl eq_refl) ag_basic0) as (os & Hr).
    exact (run_basic os _ _ ag_basic0 Hr).
  - intros k. rewrite <- ag_jobs0. destruct (Z.eq_dec k id) as [->|Hk]; [|exact (J1 k Hk)].
    rewrite J2. destruct (nget id (job_table (jobs (js (im s))))) as [j|] eqn:Ej; [|reflexivity].
    exfalso. assert (1 <= id < id) by (apply (b_next _ ag_basic0); exists j; exact Ej). lia.
Qed.


Lemma step_run d p more m s : agrees m s -> comm_ok (Run p more) -> fits m (Run p more) ->
  exists s', exec_text w (S d) (comm_text (Run p more)) s = (OOk (fst (step code (Run p more) m)), s') /\
    agrees (snd (step code (Run p more) m)) s'.
Proof.
  intros A Hok [Hfit Hst]. destruct (step_first d p more m s A Hok Hfit) as (s' & E & A'). exists s'. split; [|exact A'].
  rewrite E, Hst. reflexivity.
Qed.

Lemma step_agrees d c m s st m' : agrees m s -> comm_ok c -> fits m c -> settled m c -> step code c m = (st, m') ->
  exists s', exec_text w (S d) (r_pipeline (comm_pipe c)) s = (OOk st, s') /\ agrees m' s'.
Proof.
  intros A Hok Hf Hset E. rewrite (proj2 (comm_tree _ _ _ _ Hok)).
  destruct c as [x v|x v|x|dir|p more].
  - destruct (step_assign d x v m s A Hok Hf Hset) as (s' & H1 & H2). rewrite E in H2. injection E as <- _. exists s'. auto.
  - destruct (step_export d x v m s A Hok Hf) as (s' & H1 & H2). rewrite E in H2. injection E as <- _. exists s'. auto.
  - destruct (step_unset d x m s A Hok Hf) as (s' & H1 & H2). rewrite E in H2. injection E as <- _. exists s'. auto.
  - destruct (step_cd d dir m s A Hok Hf) as (s' & H1 & H2). rewrite E in H1, H2. exists s'. auto.
  - destruct (step_run d p more m s A Hok Hf) as (s' & H1 & H2). rewrite E in H1, H2. exists s'. auto.
Qed.

End Steps.

Section Scripts.
Context (w : os) (aliases_ : aliases) (functions_ : str -> option function_body) (readonly : str -> bool) (old : nmap job) (t0 : fdtable) (code : world).
Notation agrees := (agrees aliases_ functions_ readonly old t0 0 false).
Notation fits := (fits code).
Notation comm_ok := (comm_ok aliases_ functions_ readonly).
Notation prog_ok := (prog_ok aliases_ functions_).
Context (Hsys : system w old code).

Lemma settled_top m c : settled 0 m c.
Proof. destruct c; cbn; auto. Qed.

Definition chain_ok (l : CoreSpec.chain) : Prop := comm_ok (fst l) /\ Forall (fun oc => comm_ok (snd oc)) (snd l).
Definition more_pipes (rest : list (cond * comm)) : list (cond * pipeline) := map (fun oc => (fst oc, comm_pipe (snd oc))) rest.
Definition chain_tree (l : CoreSpec.chain) : and_or := tree_of (comm_pipe (fst l)) (more_pipes (snd l)).

Lemma chain_facts l : chain_ok l -> wf_andor (chain_tree l) /\ r_andor (chain_tree l) = chain_words l /\
  wf_pipeline (comm_pipe (fst l)) /\ Forall (fun cp => wf_pipeline (snd cp)) (more_pipes (snd l)).
Proof.
  intros [H0 Hr]. assert (W0 : wf_pipeline (comm_pipe (fst l))) by (eapply comm_tree; exact H0).
  assert (W : Forall (fun cp => wf_pipeline (snd cp)) (more_pipes (snd l))).
  { unfold more_pipes. apply Forall_map. eapply Forall_impl; [|exact Hr]. intros oc H. eapply comm_tree. exact H. }
  split; [apply wf_tree; assumption|]. split; [|split; assumption].
  unfold chain_tree. rewrite text_tree. unfold chain_text, chain_words. rewrite (proj2 (comm_tree _ _ _ _ H0)). f_equal.
  clear -Hr. induction Hr as [|[o c] r H _ IH]; [reflexivity|]. cbn [more_pipes map List.concat fst snd] in *. fold (more_pipes r).
  rewrite IH. f_equal. rewrite (proj2 (comm_tree _ _ _ _ H)). destruct o; reflexivity.
Qed.

Lemma more_agrees d rest : Forall (fun oc => comm_ok (snd oc)) rest -> forall st m s st' m', agrees m s -> always_more code fits rest st m ->
  run_more code rest st m = (st', m') ->
  exists ran s', EvalSpec.chain (fun p => exec_text w (S d) (r_pipeline p)) st s (more_pipes rest) ran (OOk st') s' /\ agrees m' s'.
Proof.
  induction 1 as [|[o c] rest Hc _ IH]; intros st m s st' m' A Hf E; cbn [run_more always_more more_pipes map fst snd] in *.
  - injection E as <- <-. exists [], s. split; [constructor|exact A].
  - destruct (goes_on o st) eqn:G.
    + destruct Hf as [Hf0 Hf]. destruct (step code c m) as [st1 m1] eqn:E1. destruct (step_agrees w _ _ _ _ _ _ 0 false Hsys d c m s st1 m1 A Hc Hf0 (settled_top m c) E1) as (s1 & H1 & H2).
      destruct (IH st1 m1 s1 st' m' H2 Hf E) as (ran & s' & H3 & H4). eexists _, s'. split; [|exact H4].
      eapply chain_run; [|exact H1|exact H3]. destruct o; cbn in G |- *; [apply Z.eqb_eq, G|apply negb_true_iff, Z.eqb_neq in G; exact G].
    + destruct (IH st m s st' m' A Hf E) as (ran & s' & H3 & H4). eexists _, s'. split; [|exact H4].
      eapply chain_skip; [|exact H3]. destruct o; cbn in G |- *; [apply Z.eqb_neq, G|apply negb_false_iff, Z.eqb_eq in G; intros F; exact (F G)].
Qed.

Lemma chain_agrees d l m s st m' : chain_ok l -> agrees m s -> always_chain code fits l m -> run_chain code l m = (st, m') ->
  exists s', exec_text w (S d) (r_andor (chain_tree l)) s = (OOk st, s') /\ agrees m' s'.
Proof.
  intros Hok A [Hf0 Hf] E. destruct (chain_facts l Hok) as (W1 & W2 & W3 & W4). destruct Hok as [H0 Hr].
  unfold run_chain in E. destruct (step code (fst l) m) as [st1 m1] eqn:E1.
  destruct (step_agrees w _ _ _ _ _ _ 0 false Hsys d (fst l) m s st1 m1 A H0 Hf0 (settled_top m _) E1) as (s1 & K1 & K2).
  destruct (more_agrees d (snd l) Hr st1 m1 s1 st m' K2 Hf E) as (ran & s' & K3 & K4).
  exists s'. split; [|exact K4]. unfold chain_tree. rewrite text_tree. apply exec_chain; try assumption.
  eexists. eapply whole_run; eassumption.
Qed.

Lemma script_agrees d sc : Forall chain_ok sc -> forall st0 m s st m', agrees m s -> always code fits sc m -> run_script code sc st0 m = (st, m') ->
  exists ran s', in_order (fun a => exec_text w (S d) (r_andor a)) st0 s (map chain_tree sc) ran (OOk st) s' /\ agrees m' s'.
Proof.
  induction 1 as [|l sc Hl _ IH]; intros st0 m s st m' A Hf E; cbn [run_script always map] in *.
  - injection E as <- <-. exists [], s. split; [constructor|exact A].
  - destruct Hf as [Hf0 Hf]. destruct (run_chain code l m) as [st1 m1] eqn:E1. destruct (chain_agrees d l m s st1 m1 Hl A Hf0 E1) as (s1 & H1 & H2).
    destruct (IH st1 m1 s1 st m' H2 Hf E) as (ran & s' & H3 & H4). eexists _, s'. split; [eapply in_order_run; eassumption|exact H4].
Qed.
Lemma script_render sc : Forall chain_ok sc -> render (map chain_tree sc) = script_text sc.
Proof.
  unfold render. induction 1 as [|l sc Hl Hsc IH]; [reflexivity|]. destruct (chain_facts l Hl) as (_ & E & _).
  destruct sc as [|l2 sc]; cbn [map joined script_text] in *; rewrite ?E; [reflexivity|]. rewrite IH. reflexivity.
Qed.

(** Every script of the core language, run by the shell, does what its meaning says:
    it starts the same programs in the same order, with the same arguments, the same
    environment and the same input and output, connected by pipes, in the same
    directory, ends with the same
    status, and leaves the same variables. *)
Theorem C117_core_partial : forall d sc st0 m s st m', agrees m s -> Forall chain_ok sc -> sc <> [] -> always code fits sc m ->
  run_script code sc st0 m = (st, m') ->
  exists s', exec_text w (S d) (script_text sc) s = (OOk st, s') /\ agrees m' s'.
Proof.
  intros d sc st0 m s st m' A Hok Hne Hf E. destruct (script_agrees d sc Hok st0 m s st m' A Hf E) as (ran & s' & H1 & H2).
  exists s'. split; [|exact H2]. rewrite <- (script_render sc Hok). apply (exec_list w (S d) _ st0).
  - destruct sc; [congruence|discriminate].
  - apply Forall_map. eapply Forall_impl; [|exact Hok]. intros l Hl. apply chain_facts, Hl.
  - exists ran. exact H1.
Qed.

(** ** What is left out *)

(** The status of a pipeline is that of its first program, not that of the last. *)
Theorem C117_pipeline_refuted : forall d p more m s, agrees m s -> comm_ok (Run p more) ->
  (forall q x, In q (p :: more) -> In (Dollar x) (arguments q) -> exists v, CoreSpec.vars m x = Some v /\ shown v) ->
  let ps := starts_of m true (p :: more) in
  code (started m) ps 0%nat <> code (started m) ps (List.length more) ->
  exists s', exec_text w (S d) (comm_text (Run p more)) s = (OOk (code (started m) ps 0%nat), s') /\
    code (started m) ps 0%nat <> fst (step code (Run p more) m).
Proof.
  intros d p more m s A Hok Hfit ps Hne. destruct (step_first w _ _ _ _ _ _ 0 false Hsys d p more m s A Hok Hfit) as (s' & E & _). exists s'. split; [exact E|exact Hne].
Qed.

(** Assigning to an exported variable does not change what programs get. *)
Theorem C117_assign_refuted : forall d x v u m s, agrees m s -> comm_ok (Assign x v) -> sget x (environment m) = Some u ->
  exists s', exec_text w (S d) (comm_text (Assign x v)) s = (OOk 0, s') /\
    expand_var (cm (im s')) x = Some (arg_value m v) /\ sget x (env (im s')) = Some u /\
    sget x (environment (snd (step code (Assign x v) m))) = Some (arg_value m v).
Proof.
  intros d x v u m s A Hok Hu. pose proof A as [].
  set (m1 := Machine (CoreSpec.vars m) (sremove x (environment m)) (started m) (visited m)).
  set (s1 := Shell (with_env (sremove x (environment m)) (im s)) (trace s)).
  assert (A1 : agrees m1 s1).
  { split; cbn [im trace cm env al js with_env fds next_pipe CoreSpec.vars environment started s1 m1]; auto.
    intros y Hy Hs. apply ag_global0; [exact Hy|]. intros F. apply Hs. rewrite sget_sremove. destruct (str_eqb y x); [reflexivity|exact F]. }
  destruct (step_assign w _ _ _ _ _ code 0 false d x v m1 s1 A1 Hok) as (s2 & E & A2).
  { cbn [fits m1 environment]. rewrite sget_sremove, str_eqb_refl. reflexivity. }
  { apply settled_top. }
  destruct Hok as (Hx & Hv & R & Hal). destruct (value_word x v Hx Hv) as (W1 & W2 & _).
  set (a := x ++ lit "=" ++ arg_text v) in *.
  pose proof (exec_assign w d a [] s (Forall_cons _ W1 (Forall_nil _))) as E0.
  specialize (E0 ltac:(intros y [<-|[]]; exact W2) ltac:(congruence)).
  pose proof (exec_assign w d a [] s1 (Forall_cons _ W1 (Forall_nil _))) as E1.
  specialize (E1 ltac:(intros y [<-|[]]; exact W2) ltac:(cbn; congruence)).
  change (exec_text w (S d) (comm_text (Assign x v)) s1 =
    match add_var a (cm (im s)) with
    | Some m => (OOk 0, Shell (with_cm m (masked_as true (im s1))) (trace s))
    | None => (OPanic, Shell (masked_as true (im s1)) (trace s))
    end) in E1. rewrite E in E1.
  change (exec_text w (S d) (comm_text (Assign x v)) s =
    match add_var a (cm (im s)) with
    | Some m => (OOk 0, Shell (with_cm m (masked_as true (im s))) (trace s))
    | None => (OPanic, Shell (masked_as true (im s)) (trace s))
    end) in E0.
  destruct (add_var a (cm (im s))) as [mm|]; [|discriminate]. injection E1 as E1.
  eexists. split; [exact E0|]. cbn [im cm env with_cm]. split; [|split].
  - pose proof (ag_vars _ _ _ _ _ _ _ _ _ A2 x Hx) as G. rewrite E1 in G. cbn [im cm with_cm step snd CoreSpec.vars] in G.
    unfold set_var in G. rewrite str_eqb_refl in G. unfold expand_var. rewrite G. destruct v; reflexivity.
  - cbn. rewrite ag_env0. exact Hu.
  - cbn [step snd environment]. rewrite Hu. apply sget_sinsert_eq.
Qed.

(** Unsetting an exported variable does not take it from the environment. *)
Theorem C117_unset_refuted : forall d x u m s, agrees m s -> comm_ok (Unset x) -> sget x (environment m) = Some u ->
  exists s', exec_text w (S d) (comm_text (Unset x)) s = (OOk 0, s') /\ sget x (env (im s')) = Some u /\
    sget x (environment (snd (step code (Unset x) m))) = None.
Proof.
  intros d x u m s A (Hx & R & Hal & Hps) Hu. destruct (identifier_facts x Hx) as (X1 & X2 & X3 & X4 & X5 & X6 & X7 & X8).
  pose proof A as [].
  assert (Hb : forall c, In c (lit "$'""") -> ~ begins c x).
  { intros c Hc [t E]. assert (In c x) as Hin by (rewrite E; left; reflexivity). destruct (X3 c Hin) as [Q _]. cbn in Hc, Q.
    destruct Hc as [<-|Hc]; [exact (X7 Hin)|]. apply Q. tauto. }
  assert (Hdash : ~ In (ch "-") x) by (intros F; apply (proj1 (X3 _ F)); cbn; tauto).
  destruct (C92_unset_partial w d [x] [x] UVariable x s ltac:(congruence) (Forall_cons _ (or_introl X1) (Forall_nil _))
    (Forall2_cons _ _ (o_plain _ _ (Hb (ch "$") ltac:(cbn; tauto)) (Hb (ch "'") ltac:(cbn; tauto)) (Hb (ch """") ltac:(cbn; tauto))) (Forall2_nil _))
    ag_wf0 (ua_plain x [] Hdash) (or_intror X5)) as (s' & E & _ & _ & Him & _).
  exists s'. split; [exact E|]. split; [rewrite Him; cbn; rewrite ag_env0; exact Hu|]. cbn [step snd environment]. apply sget_sremove_eq.
Qed.

(** A change to a directory that is not there ends the whole line: what follows [||]
    does not run. *)
Theorem C117_cd_refuted : forall d dir rest m s, agrees m s -> chain_ok (Cd dir, rest) ->
  (forall x, dir = Dollar x -> exists v, CoreSpec.vars m x = Some v /\ shown v) ->
  reachable code (visited m) (arg_value m dir) = false ->
  exists s', exec_text w (S d) (chain_words (Cd dir, rest)) s = (OErr EOs, s') /\ trace s' = trace s /\
    fst (step code (Cd dir) m) = 1.
Proof.
  intros d dir rest m s A Hok Hfit Hr. pose proof A as []. destruct (chain_facts _ Hok) as (_ & W2 & W3 & W4). pose proof Hok as [[Ha Hal] _].
  destruct (arg_ordinary _ _ _ _ _ _ _ m s dir A Ha Hfit) as (Ho & _).
  eexists. split; [|split; [|cbn [step]; rewrite Hr; reflexivity]].
  - rewrite <- W2. unfold chain_tree. rewrite text_tree. apply exec_chain; [exact W3|exact W4|].
    eexists. apply whole_stop; [|exact I]. rewrite (proj2 (comm_tree _ _ _ _ (proj1 Hok))). cbn [fst].
    change (comm_text (Cd dir)) with (r_words [lit "cd"; arg_text dir]).
    rewrite (C89_cd_partial w d _ (arg_value m dir) [] [] s ltac:(congruence) (Forall_cons _ (or_introl (arg_written _ Ha)) (Forall_nil _))
      (Forall2_cons _ _ Ho (Forall2_nil _))).
    rewrite (sys_chdir _ _ _ Hsys), ag_visited0, Hr. reflexivity.
  - reflexivity.
Qed.

(** Exporting a variable that was assigned: programs get the new value, the shell
    keeps the old one. *)
Theorem C117_export_refuted : forall d x v u m s, agrees m s -> comm_ok (Export x v) -> CoreSpec.vars m x = Some u ->
  global x (cm (im s)) = None ->
  exists s', exec_text w (S d) (comm_text (Export x v)) s = (OOk 0, s') /\
    expand_var (cm (im s')) x = Some u /\ sget x (env (im s')) = Some (arg_value m v) /\
    CoreSpec.vars (snd (step code (Export x v) m)) x = Some (arg_value m v).
Proof.
  intros d x v u m s A (Hx & Hv & R & Hal & Hnp) Hu Hg.
  destruct (value_word x v Hx Hv) as (W1 & W2 & W3 & W4 & W5 & W5b & W6 & W7 & W8 & W9).
  destruct (identifier_facts x Hx) as (X1 & X2 & X3 & X4 & X5 & X6 & X7 & X8).
  set (a := x ++ lit "=" ++ arg_text v) in *. pose proof A as [].
  specialize (W5 m). specialize (W5b m).
  change (comm_text (Export x v)) with (r_words [lit "export"; a]).
  rewrite (exec_args_line w d (lit "export") [a] [a] s eq_refl ltac:(discriminate) ltac:(congruence)
    (Forall_cons _ (or_intror W1) (Forall_nil _)) (Forall2_cons _ _ (o_plain _ _ W7 W8 W9) (Forall2_nil _))), call_export.
  unfold export_cmd. cbn [words_of sc_suffix word_list].
  destruct (contains_str (lit "-p") a) eqn:E.
  { apply contains_str_iff in E. destruct E as (b & c & E). destruct (Hnp b c E). }
  destruct (str_eqb_spec a (lit "context")) as [F|Hc].
  { rewrite F in W6. cbn in W6. intuition discriminate. }
  cbn [export_words]. set (v0 := arg_value m v) in *.
  pose proof (export_word_gives a x v0 (blocked s) (conj W3 (conj W5 W6)) X4 (fun Z => proj2 (X3 _ Z) eq_refl) W5b W4
    (ContextSpec.wf_nonempty _ ag_wf0)) as G.
  rewrite (seq_ok _ _ _ _ _ G). eexists. split; [reflexivity|].
  change (cm (im (blocked s))) with (cm (im s)). change (env (im (blocked s))) with (env (im s)).
  destruct (export_column x (Var v0 false) (cm (im s)) ag_wf0) as (col & C1 & C2).
  set (mm := update _ _ (cm (im s))) in *. cbn [im cm env with_env with_cm].
  assert (Hp : ContextSpec.perform (ContextSpec.OAssignAt 0 a) (cm (im s)) = Some mm).
  { cbn [ContextSpec.perform]. unfold add_var_pos, mm, get_env_context. pose proof (ContextSpec.wf_nonempty _ ag_wf0) as Hne.
    destruct (stack (cm (im s))) as [|l0 st]; [congruence|].
    cbn [nth_error hd]. rewrite ContextFacts.ctx_set_spec, W4, W3, W5. reflexivity. }
  pose proof (ContextFacts.perform_wf _ _ _ ag_wf0 Hp) as Hwf.
  split; [|split; [apply sget_sinsert_eq|cbn [step snd CoreSpec.vars]; unfold set_var; rewrite str_eqb_refl; reflexivity]].
  pose proof (agrees_somes _ _ _ _ _ _ _ m s x A Hx) as Hs. rewrite C1, Hg, Hu, somes_app in Hs. cbn in Hs. rewrite app_nil_r in Hs.
  pose proof (get_var_somes x mm Hwf X5) as Gv. rewrite C2, somes_app, Hs in Gv. cbn in Gv.
  unfold expand_var. destruct (get_var x mm) as [[vv rr]|]; [|discriminate]. injection Gv as -> _. reflexivity.
Qed.
End Scripts.

(** ** [rsh -c script] *)

(** The variables of a shell that starts: those of the environment, and these. *)
Definition defaults (root : bool) (cwd ppid pid : str) : smap str :=
  [(lit "PATH", lit "/bin:/usr/local/sbin:/usr/local/bin:/usr/sbin:/usr/bin:/sbin:/bin"); (lit "PWD", cwd);
   (lit "PS1", if root then lit "# " else lit "$ "); (lit "PS2", lit "> "); (lit "PS4", lit "+ "); (lit "PPID", ppid); (lit "PID", pid)].
Definition at_start (root : bool) (cwd ppid pid : str) (env : smap str) : machine :=
  Machine (fun x => match sget x env with Some v => Some v | None => sget x (defaults root cwd ppid pid) end) env [] [].

Lemma sget_default_vars root cwd ppid pid env x : NoDup (map fst env) ->
  sget x (default_vars root cwd ppid pid env) =
  match CoreSpec.vars (at_start root cwd ppid pid env) x with Some v => Some (Var v false) | None => None end.
Proof.
  intros Hnd. cbn [at_start CoreSpec.vars].
  assert (Hfold : forall (env : smap str) m0 n, NoDup (map fst env) ->
    sget n (fold_left (fun m kv => sinsert (fst kv) (Var (snd kv) false) m) env m0) =
    match sget n env with Some v => Some (Var v false) | None => sget n m0 end).
  { clear. induction env as [|[k v] env IH]; intros m0 n Hnd; [reflexivity|].
    cbn [fold_left fst snd map] in *. inversion Hnd as [|? ? H1 H2]; subst. rewrite IH by assumption. cbn [sget].
    rewrite sget_sinsert. destruct (str_eqb_spec n k) as [->|Hne]; [|reflexivity].
    destruct (sget k env) eqn:G; [|reflexivity]. exfalso. apply H1.
    clear -G. induction env as [|[k' v'] env IH]; [discriminate|]. cbn in *.
    destruct (str_eqb_spec k k') as [->|]; [left; reflexivity|right; apply IH, G]. }
  unfold default_vars. rewrite Hfold by exact Hnd. destruct (sget x env) as [v|] eqn:Ex; [reflexivity|].
  rewrite !sget_sinsert. unfold defaults. cbn [sget].
  destruct (str_eqb_spec x (lit "PID")) as [->|]; [reflexivity|].
  destruct (str_eqb_spec x (lit "PPID")) as [->|]; [reflexivity|].
  destruct (str_eqb_spec x (lit "PS4")) as [->|]; [reflexivity|].
  destruct (str_eqb_spec x (lit "PS2")) as [->|]; [reflexivity|].
  destruct (str_eqb_spec x (lit "PS1")) as [->|]; [reflexivity|].
  destruct (str_eqb_spec x (lit "PWD")) as [->|].
  - rewrite Ex. cbn [sget]. rewrite sget_sinsert_eq. reflexivity.
  - destruct (str_eqb_spec x (lit "PATH")) as [->|].
    + rewrite Ex. destruct (sget (lit "PWD") env); [|rewrite sget_sinsert_neq by discriminate]; apply sget_sinsert_eq.
    + destruct (sget (lit "PWD") env), (sget (lit "PATH") env); rewrite ?sget_sinsert_neq by congruence; reflexivity.
Qed.

Lemma agrees_start root cwd ppid pid env fds j c s1 :
  NoDup (map fst env) -> table fds -> no_future_pipe fds 0 -> nget 0 fds <> None -> nget 1 fds <> None ->
  im s1 = with_cm (MainLaws.two_scopes (Context (default_vars root cwd ppid pid env) [] []) (ctx_put_var (lit "0") c empty_context))
    (with_js j (Main.fresh_image root cwd ppid pid env fds)) -> trace s1 = [] -> jobs j = jc_new ->
  agrees [] (fun _ => None) (fun _ => false) [] fds 0 false (at_start root cwd ppid pid env) s1.
Proof.
  intros Hnd Ht Hf H0 H1 Him Htr Hj.
  assert (Hcol' : forall x, x <> [48%N] -> ContextLaws.column x (cm (im s1)) =
    [None; option_map ContextSpec.binding_of (sget x (default_vars root cwd ppid pid env))]).
  { intros x Hx. rewrite Him. cbn. unfold ctx_put_var, ctx_get_var. cbn [Context.vars empty_context sinsert sremove sget].
    replace (str_eqb x [48%N]) with false; [reflexivity|]. symmetry. destruct (str_eqb_spec x [48%N]) as [->|_]; [congruence|reflexivity]. }
  assert (Hcol : forall x, identifier x -> ContextLaws.column x (cm (im s1)) =
    [None; option_map ContextSpec.binding_of (sget x (default_vars root cwd ppid pid env))]).
  { intros x Hx. apply Hcol'. intros ->. destruct Hx as [[Hx _] _]. unfold letter in Hx. change (ch "_") with 95%N in Hx. lia. }
  assert (Hwf : ContextSpec.cm_wf (cm (im s1))).
  { rewrite Him. constructor; cbn.
    - discriminate.
    - repeat constructor; cbn; intuition discriminate.
    - repeat constructor.
    - constructor.
    - repeat constructor. }
  split; rewrite ?Htr; auto; try exact (Forall_nil _).
  - intros x Hx. pose proof (identifier_facts x Hx) as (_ & _ & _ & _ & X5 & _). apply ContextLaws.binding_of_inj.
    rewrite get_var_somes, Hcol by assumption. rewrite sget_default_vars by exact Hnd. destruct (CoreSpec.vars _ x); reflexivity.
  - intros x Hx. change (PropertiesContext.bindings x (cm (im s1))) with (somes (ContextLaws.column x (cm (im s1)))).
    rewrite Hcol by exact Hx. destruct (sget x (default_vars root cwd ppid pid env)); reflexivity.
  - intros x Hx Hs. destruct (global_last x (cm (im s1)) Hwf) as [col E]. rewrite Hcol in E by exact Hx.
    rewrite sget_default_vars in E by exact Hnd. cbn [at_start environment CoreSpec.vars] in *. destruct (sget x env); [|congruence].
    change [None; ?b] with ([None] ++ [b]) in E. apply app_inj_tail in E. destruct E as [_ E]. intros F. rewrite F in E. discriminate.
  - intros x Hx. rewrite Hcol' by (intros ->; discriminate Hx).
    rewrite sget_default_vars by exact Hnd. destruct (CoreSpec.vars _ x); reflexivity.
  - intros x _ F. contradiction F. reflexivity.
  - rewrite Him. cbn. lia.
  - rewrite Him. reflexivity.
  - cbn [at_start CoreSpec.vars]. destruct (sget (lit "PS4") env); discriminate.
  - rewrite Him. reflexivity.
  - intros k i1 c1 r1 i2 c2 r2 E. destruct k; discriminate.
  - rewrite Him. reflexivity.
  - intros n Hn. rewrite ContextLaws.get_function_definitions by exact Hn. rewrite Him. reflexivity.
  - rewrite Him. split; assumption.
  - rewrite Him. reflexivity.
  - rewrite Him. cbn [js with_cm with_js]. rewrite Hj. exact basic_new.
  - intros k. rewrite Him. cbn [js with_cm with_js]. rewrite Hj. reflexivity.
Qed.

(** A shell started as [rsh -c script] starts the programs the meaning of the script
    says, in that order, with these arguments and this environment. *)
Theorem C117_dash_c_partial : forall w code n k args ins root cwd ppid pid env fds sc st m',
  MainSpec.asks args (MainSpec.Commands (script_text sc)) -> MainSpec.no_startup_files w -> system w [] code ->
  NoDup (map fst env) -> table fds -> no_future_pipe fds 0 -> nget 0 fds <> None -> nget 1 fds <> None ->
  Forall (chain_ok [] (fun _ => None) (fun _ => false)) sc -> sc <> [] ->
  always code (fits code) sc (at_start root cwd ppid pid env) ->
  run_script code sc 0 (at_start root cwd ppid pid env) = (st, m') ->
  exists s', Main.main w (S n) k args ins (Shell (Main.fresh_image root cwd ppid pid env fds) []) = (OOk tt, s') /\
    programs_of (trace s') = started m' /\ directories (trace s') = visited m' /\ Forall (executes fds) (forks (trace s')) /\ linked (forks (trace s')) /\
    Shell.env (im s') = environment m' /\ forall x, identifier x -> expand_var (cm (im s')) x = CoreSpec.vars m' x.
Proof.
  intros w code n k args ins root cwd ppid pid env fds sc st m' Ha Hns Hsys Hnd Ht Hf H0 H1 Hok Hne Hfit E.
  set (s := Shell (Main.fresh_image root cwd ppid pid env fds) []).
  set (c := Context (default_vars root cwd ppid pid env) [] []).
  assert (Hc : cm (im s) = MainLaws.one_scope c) by reflexivity.
  destruct (MainLaws.parse_args_asks args _ (cm (im s)) Ha) as [out Hp].
  destruct (MainLaws.main_begins w (S n) k args ins s _ _ c Hp Hc eq_refl Hns) as (s1 & Em & Htr & Hi & Hj & Hm).
  assert (A : agrees [] (fun _ => None) (fun _ => false) [] fds 0 false (at_start root cwd ppid pid env) s1).
  { eapply agrees_start; eauto. }
  destruct (C117_core_partial w [] (fun _ => None) (fun _ => false) [] fds code Hsys n sc 0 _ s1 st m' A Hok Hne Hfit E) as (s' & Ex & A').
  exists s'. split; [|split; [exact (ag_started _ _ _ _ _ _ _ _ _ A')|split; [exact (ag_visited _ _ _ _ _ _ _ _ _ A')|split; [exact (ag_executes _ _ _ _ _ _ _ _ _ A')|split; [exact (ag_linked _ _ _ _ _ _ _ _ _ A')|split; [exact (ag_env _ _ _ _ _ _ _ _ _ A')|]]]]]].
  - rewrite Em. cbn [MainLaws.goes_on]. unfold Main.read_from_args. unfold exec_text in Ex.
    destruct (parse (script_text sc)) as [cc|]; [|discriminate].
    rewrite (bind_ok (unwrap (Some cc)) _ s1 cc s1 eq_refl). rewrite MainLaws.drop_error, Ex. reflexivity.
  - intros x Hx. unfold expand_var. rewrite (ag_vars _ _ _ _ _ _ _ _ _ A' x Hx). destruct (CoreSpec.vars m' x); reflexivity.
Qed.

(** ** Several lines *)

Lemma executes_kept t t' f : (forall fd, kept (nget fd t) = kept (nget fd t')) -> executes t f -> executes t' f.
Proof.
  destruct f as [[i c] r]. intros H [Hl Hx]. split; [exact Hl|]. intros w n path av e s' E. destruct (Hx w n path av e s' E) as (K1 & K2 & K3 & K4 & K5 & K5b & K6 & K7 & K8).
  do 6 (split; [assumption|]). split; [rewrite K6; destruct (input _); try reflexivity; apply H|].
  split; [rewrite K7; destruct (output _); try reflexivity; apply H|]. intros fd F0 F1. rewrite K8 by assumption. apply H.
Qed.

Lemma run_script_app code a : forall b st m, run_script code (a ++ b) st m = let '(st1, m1) := run_script code a st m in run_script code b st1 m1.
Proof.
  induction a as [|l a IH]; intros b st m; [reflexivity|]. cbn [app run_script]. destruct (run_chain code l m). apply IH.
Qed.
Lemma always_app code P a : forall b st m, always code P (a ++ b) m ->
  always code P a m /\ always code P b (snd (run_script code a st m)).
Proof.
  induction a as [|l a IH]; intros b st m; cbn [app always run_script]; [auto|].
  destruct (run_chain code l m) as [st1 m1] eqn:E. intros [H1 H2]. destruct (IH b st1 m1 H2) as [H3 H4]. auto.
Qed.

(** A script in which no command unsets [x]. *)
Definition leaves (x : str) (sc : script) : Prop :=
  Forall (fun l => fst l <> Unset x /\ Forall (fun oc => snd oc <> Unset x) (snd l)) sc.
Lemma step_leaves code x c m : c <> Unset x -> CoreSpec.vars m x <> None -> CoreSpec.vars (snd (step code c m)) x <> None.
Proof.
  intros Hc Hm. destruct c as [y v|y v|y|dir|p more]; cbn [step snd CoreSpec.vars]; unfold set_var; try exact Hm;
    try (destruct (reachable _ _ _); exact Hm); destruct (str_eqb_spec x y) as [->|_]; try discriminate; try exact Hm. congruence.
Qed.
Lemma more_leaves code x rest : Forall (fun oc => snd oc <> Unset x) rest -> forall st m, CoreSpec.vars m x <> None ->
  CoreSpec.vars (snd (run_more code rest st m)) x <> None.
Proof.
  induction 1 as [|[o c] rest Hc _ IH]; intros st m Hm; cbn [run_more]; [exact Hm|]. destruct (CoreSpec.goes_on o st); [|apply IH, Hm].
  pose proof (step_leaves code x c m Hc Hm) as K. destruct (step code c m). apply IH, K.
Qed.
Lemma script_leaves code x sc : leaves x sc -> forall st m, CoreSpec.vars m x <> None ->
  CoreSpec.vars (snd (run_script code sc st m)) x <> None.
Proof.
  induction 1 as [|l sc [H1 H2] _ IH]; intros st m Hm; cbn [run_script]; [exact Hm|].
  assert (K : CoreSpec.vars (snd (run_chain code l m)) x <> None).
  { unfold run_chain. pose proof (step_leaves code x (fst l) m H1 Hm) as K. destruct (step code (fst l) m). apply more_leaves; assumption. }
  destruct (run_chain code l m). apply IH, K.
Qed.
Lemma ps1_identifier : identifier (lit "PS1").
Proof.
  split; [|intros t Hin; cbn in Hin; intuition congruence]. cbn. split; [left; vm_compute; split; discriminate|].
  apply Forall_cons; [left; left; vm_compute; split; discriminate|].
  apply Forall_cons; [right; vm_compute; split; discriminate|apply Forall_nil].
Qed.

Section Lines.
Context (w : os) (aliases_ : aliases) (functions_ : str -> option function_body) (readonly : str -> bool) (old : nmap job) (t0 : fdtable) (code : world).
Context (Hsys : system w old code).
Notation agrees := (agrees aliases_ functions_ readonly old t0 0 false).
Notation fits := (fits code).
Notation chain_ok := (chain_ok aliases_ functions_ readonly).

Lemma script_parses sc : Forall chain_ok sc -> sc <> [] ->
  parse (script_text sc) = Some (Some (map chain_tree sc)) /\ parse (script_text sc ++ [10%N]) = Some (Some (map chain_tree sc)).
Proof.
  intros Hok Hne. rewrite <- (script_render _ _ _ sc Hok).
  assert (Hw : Forall wf_andor (map chain_tree sc)).
  { apply Forall_map. eapply Forall_impl; [|exact Hok]. intros l Hl. eapply chain_facts, Hl. }
  assert (Hm : map chain_tree sc <> []) by (destruct sc; [congruence|discriminate]).
  split; [exact (GrammarFacts.render_parse _ Hm Hw)|exact (GrammarFacts.render_parse_newline _ Hm Hw)].
Qed.
Lemma session_agrees d scs : Forall (Forall chain_ok) scs -> Forall (leaves (lit "PS1")) scs -> forall st0 m s st m',
  agrees m s -> CoreSpec.vars m (lit "PS1") <> None -> always code fits (List.concat scs) m ->
  run_script code (List.concat scs) st0 m = (st, m') ->
  exists s', MainSpec.session w (S d) (map (fun sc => Main.TLine (script_text sc)) scs ++ [Main.TClosed]) s (OOk tt) s' /\ agrees m' s'.
Proof.
  intros Hok Hl. induction Hok as [|sc scs Hsc _ IH]; intros st0 m s st m' A Hps Hf E;
    (assert (P : exists v, get_var (lit "PS1") (cm (im s)) = Some v) by
       (rewrite (ag_vars _ _ _ _ _ _ _ _ _ A (lit "PS1") ps1_identifier); destruct (CoreSpec.vars m (lit "PS1")); [eauto|congruence]));
    destruct P as [v P]; cbn [List.concat map app] in *.
  - injection E as <- <-. exists (saved s). split; [|destruct A; split; assumption]. eapply MainSpec.session_closed. exact P.
  - inversion Hl as [|? ? Hl1 Hl2]; subst. rewrite run_script_app in E. destruct (always_app _ _ _ _ st0 _ Hf) as [Hf1 Hf2].
    pose proof (script_leaves code _ sc Hl1 st0 m Hps) as Hps1.
    destruct (run_script code sc st0 m) as [st1 m1] eqn:E1. cbn [snd] in Hf2, Hps1.
    assert (K : exists s1, exec_text w (S d) (script_text sc) s = (OOk st1, s1) /\ agrees m1 s1 \/ (sc = [] /\ s1 = s /\ agrees m1 s1)).
    { destruct sc as [|l sc].
      - injection E1 as <- <-. exists s. right. auto.
      - destruct (C117_core_partial w aliases_ functions_ readonly old t0 code Hsys d (l :: sc) st0 m s st1 m1 A Hsc ltac:(discriminate) Hf1 E1) as (s1 & K1 & K2).
        exists s1. left. auto. }
    destruct K as (s1 & [[K1 K2]|(-> & -> & K2)]).
    + destruct (IH Hl2 st1 m1 s1 st m' K2 Hps1 Hf2 E) as (s' & S' & A'). exists s'. split; [|exact A'].
      eapply MainSpec.session_line; [exact P| |exact K1|exact I|exact S'].
      intros F. unfold exec_text in K1. rewrite F in K1. discriminate.
    + destruct (IH Hl2 st1 m1 s st m' K2 Hps1 Hf2 E) as (s' & S' & A'). exists s'. split; [|exact A'].
      eapply (MainSpec.session_line w (S d) [] _ s v _ s); [exact P|discriminate|reflexivity|exact I|exact S'].
Qed.
Lemma lines_agree d scs : Forall (fun sc => sc <> [] /\ Forall chain_ok sc) scs -> forall st0 m s st m',
  agrees m s -> always code fits (List.concat scs) m -> run_script code (List.concat scs) st0 m = (st, m') ->
  exists s', MainSpec.lines_run w (S d) (map (fun sc => script_text sc ++ [10%N]) scs) s s' /\ agrees m' s'.
Proof.
  induction 1 as [|sc scs [Hne Hsc] _ IH]; intros st0 m s st m' A Hf E; cbn [List.concat map] in *.
  - injection E as <- <-. exists s. split; [constructor|exact A].
  - rewrite run_script_app in E. destruct (always_app _ _ _ _ st0 _ Hf) as [Hf1 Hf2].
    destruct (run_script code sc st0 m) as [st1 m1] eqn:E1. cbn [snd] in Hf2.
    destruct (C117_core_partial w aliases_ functions_ readonly old t0 code Hsys d sc st0 m s st1 m1 A Hsc Hne Hf1 E1) as (s1 & K1 & K2).
    destruct (IH st1 m1 s1 st m' K2 Hf2 E) as (s' & S' & A'). exists s'. split; [|exact A'].
    destruct (script_parses sc Hsc Hne) as [P1 P2].
    apply (MainSpec.lines_next w (S d) _ _ s (OOk st1) s1 s'); [| |exact I|exact S'].
    + rewrite P2. discriminate.
    + unfold exec_text in K1 |- *. rewrite P2. rewrite P1 in K1. exact K1.
Qed.
End Lines.

(** Scripts typed at the prompt, one after the other, and then the end of the input. *)
Theorem C117_typed_partial : forall w code n k args root cwd ppid pid env fds scs st m',
  MainSpec.asks args MainSpec.Prompt -> MainSpec.no_startup_files w -> system w [] code ->
  NoDup (map fst env) -> table fds -> no_future_pipe fds 0 -> nget 0 fds <> None -> nget 1 fds <> None ->
  Forall (Forall (chain_ok [] (fun _ => None) (fun _ => false))) scs -> Forall (leaves (lit "PS1")) scs ->
  always code (fits code) (List.concat scs) (at_start root cwd ppid pid env) ->
  run_script code (List.concat scs) 0 (at_start root cwd ppid pid env) = (st, m') ->
  exists s', Main.main w (S n) k args (map (fun sc => Main.TLine (script_text sc)) scs ++ [Main.TClosed])
      (Shell (Main.fresh_image root cwd ppid pid env fds) []) = (OOk tt, s') /\
    programs_of (trace s') = started m' /\ directories (trace s') = visited m' /\ Forall (executes fds) (forks (trace s')) /\ linked (forks (trace s')) /\
    Shell.env (im s') = environment m' /\ forall x, identifier x -> expand_var (cm (im s')) x = CoreSpec.vars m' x.
Proof.
  intros w code n k args root cwd ppid pid env fds scs st m' Ha Hns Hsys Hnd Ht Hf H0 H1 Hok Hl Hfit E.
  set (s := Shell (Main.fresh_image root cwd ppid pid env fds) []).
  set (c := Context (default_vars root cwd ppid pid env) [] []).
  assert (Hc : cm (im s) = MainLaws.one_scope c) by reflexivity.
  pose proof (MainLaws.parse_args_asks args _ (cm (im s)) Ha) as Hp. cbn [MainLaws.wanted_front] in Hp.
  destruct (MainLaws.main_begins w (S n) k args (map (fun sc => Main.TLine (script_text sc)) scs ++ [Main.TClosed]) s _ _ c Hp Hc eq_refl Hns)
    as (s1 & Em & Htr & Hi & Hj & Hm).
  set (s2 := Shell (Main.at_prompt (im s1)) (trace s1)).
  assert (A : agrees [] (fun _ => None) (fun _ => false) [] fds 0 false (at_start root cwd ppid pid env) s2).
  { assert (A1 : agrees [] (fun _ => None) (fun _ => false) [] fds 0 false (at_start root cwd ppid pid env) s1) by (eapply agrees_start; eauto).
    destruct A1. split; assumption. }
  assert (Hps : CoreSpec.vars (at_start root cwd ppid pid env) (lit "PS1") <> None).
  { cbn [at_start CoreSpec.vars]. destruct (sget (lit "PS1") env); discriminate. }
  destruct (session_agrees w [] _ _ [] fds code Hsys n scs Hok Hl 0 _ s2 st m' A Hps Hfit E) as (s' & Hs & A').
  exists s'. split; [|split; [exact (ag_started _ _ _ _ _ _ _ _ _ A')|split; [exact (ag_visited _ _ _ _ _ _ _ _ _ A')|split; [exact (ag_executes _ _ _ _ _ _ _ _ _ A')|split; [exact (ag_linked _ _ _ _ _ _ _ _ _ A')|split; [exact (ag_env _ _ _ _ _ _ _ _ _ A')|]]]]]].
  - rewrite Em. cbn [MainLaws.goes_on Main.interactive]. rewrite (seq_ok (change Main.at_prompt) _ s1 tt s2 eq_refl).
    apply MainLaws.loop_session. exact Hs.
  - intros x Hx. unfold expand_var. rewrite (ag_vars _ _ _ _ _ _ _ _ _ A' x Hx). destruct (CoreSpec.vars m' x); reflexivity.
Qed.

(** The same in a file, some commands on each line.  (The shell then goes on reading
    for ever: C55.) *)
Theorem C117_file_partial : forall w code n k args ins root cwd ppid pid env fds file scs st m',
  MainSpec.asks args (MainSpec.Script file []) -> ~ MainSpec.too_many_digits 0 file -> MainSpec.no_startup_files w -> system w [] code ->
  (forall t, r_open (w t) file for_reading = true) ->
  (forall t, r_read (w t) file = Some (List.concat (map (fun sc => script_text sc ++ [10%N]) scs))) ->
  NoDup (map fst env) -> table fds -> no_future_pipe fds 0 -> nget 0 fds <> None -> nget 1 fds <> None ->
  Forall (fun sc => sc <> [] /\ Forall (chain_ok [] (fun _ => None) (fun _ => false)) sc) scs ->
  Forall (fun sc => ~ In 10%N (script_text sc)) scs ->
  always code (fits code) (List.concat scs) (at_start root cwd ppid pid env) ->
  run_script code (List.concat scs) 0 (at_start root cwd ppid pid env) = (st, m') ->
  exists s', Main.main w (S n) (List.length scs + k) args ins (Shell (Main.fresh_image root cwd ppid pid env fds) []) = (OFuel, s') /\
    programs_of (trace s') = started m' /\ directories (trace s') = visited m' /\ Forall (executes fds) (forks (trace s')) /\ linked (forks (trace s')) /\
    Shell.env (im s') = environment m' /\ forall x, identifier x -> expand_var (cm (im s')) x = CoreSpec.vars m' x.
Proof.
  intros w code n k args ins root cwd ppid pid env fds file scs st m' Ha Hd Hns Hsys Ho Hr Hnd Ht Hf H0 H1 Hok Hnl Hfit E.
  set (s := Shell (Main.fresh_image root cwd ppid pid env fds) []).
  set (c := Context (default_vars root cwd ppid pid env) [] []).
  assert (Hc : cm (im s) = MainLaws.one_scope c) by reflexivity.
  pose proof (MainLaws.parse_args_asks args _ (cm (im s)) Ha) as Hp. cbn [MainLaws.wanted_front MainLaws.store] in Hp.
  destruct (MainLaws.main_begins w (S n) (List.length scs + k) args ins s _ _ c Hp Hc) as (s1 & Em & Htr & Hi & Hj & Hm).
  { cbn [Main.script_name]. apply not_true_is_false. exact Hd. }
  { exact Hns. }
  set (s2 := PropertiesMain.opened file s1).
  assert (A1 : agrees [] (fun _ => None) (fun _ => false) [] fds 0 false (at_start root cwd ppid pid env) s1) by (eapply agrees_start; eauto).
  assert (Hkept : forall fd, kept (nget fd (Shell.fds (im s2))) = kept (nget fd fds)).
  { intros fd. cbn [s2 PropertiesMain.opened im Shell.fds with_fds]. rewrite Hi. change (Shell.fds (with_cm _ _)) with fds.
    rewrite nget_ninsert by apply Ht. destruct (Z.eqb_spec fd (lowest fds)) as [->|_]; [|reflexivity].
    rewrite (proj2 (lowest_spec fds (proj1 Ht))). reflexivity. }
  assert (A : agrees [] (fun _ => None) (fun _ => false) [] (Shell.fds (im s2)) 0 false (at_start root cwd ppid pid env) s2).
  { assert (Q : sound (im s2)).
    { assert (E2 : sys_open w file for_reading s1 = (OOk (Some (lowest (Shell.fds (im s1)))), s2)).
      { unfold sys_open. rewrite (bind_ok _ _ s1 true s1); [reflexivity|]. unfold ask. rewrite Ho. reflexivity. }
      exact (soundly_open w file for_reading s1 _ s2 E2 (or_introl eq_refl) (ag_fds _ _ _ _ _ _ _ _ _ A1)). }
    destruct A1. split; try assumption; [change (forks (trace s2)) with (forks (trace s1)); rewrite Htr; apply Forall_nil|reflexivity|].
    cbn [s2 PropertiesMain.opened im Shell.fds with_fds]. rewrite Hi. change (Shell.fds (with_cm _ _)) with fds. rewrite !nget_ninsert by apply Ht.
    split; [destruct (0 =? lowest fds); [discriminate|exact H0]|destruct (1 =? lowest fds); [discriminate|exact H1]]. }
  destruct (lines_agree w [] _ _ [] (Shell.fds (im s2)) code Hsys n scs Hok 0 _ s2 st m' A Hfit E) as (s' & Hs & A').
  exists s'. split; [|split; [exact (ag_started _ _ _ _ _ _ _ _ _ A')|split; [exact (ag_visited _ _ _ _ _ _ _ _ _ A')|split; [eapply Forall_impl; [|exact (ag_executes _ _ _ _ _ _ _ _ _ A')]; intros f; apply executes_kept; exact Hkept|split; [exact (ag_linked _ _ _ _ _ _ _ _ _ A')|split; [exact (ag_env _ _ _ _ _ _ _ _ _ A')|]]]]]].
  - rewrite Em. cbn [MainLaws.goes_on Main.interactive Main.script_name].
    rewrite <- (map_length (fun sc => script_text sc ++ [10%N]) scs).
    apply (PropertiesMain.C55_terminates_refuted w (S n) file _ _ s1 s' (conj (Ho _) (Hr _))); [|exact Hs].
    clear -Hnl. induction Hnl as [|sc scs H _ IH]; [constructor|]. cbn [map List.concat].
    rewrite <- app_assoc. apply PropertiesMain.cut_line; assumption.
  - intros x Hx. unfold expand_var. rewrite (ag_vars _ _ _ _ _ _ _ _ _ A' x Hx). destruct (CoreSpec.vars m' x); reflexivity.
Qed.

(** ** An example *)

(** Deciding the conditions. *)
Definition none_of (l : list char) (t : str) : bool := forallb (fun c => negb (contains_char c l)) t.
Definition word_char_b (c : char) : bool := negb (contains_char c metachars) && negb (is_whitespace c).
Definition unreserved_b (w : str) : bool := forallb (fun p => negb (str_eqb (fst p) w)) reserved.
Definition plain_word_b (w : str) : bool :=
  match w with [] => false | c :: r => word_char_b c && negb (contains_char c (lit "#'""")) && forallb word_char_b r end &&
  none_of (0%N :: lit "?[~\") w && unreserved_b w.
Definition letter_b (c : char) : bool := ((65 <=? c) && (c <=? 90) || (97 <=? c) && (c <=? 122) || (c =? 95))%N.
Definition identifier_b (x : str) : bool :=
  match x with [] => false | c :: r => letter_b c && forallb (fun d => letter_b d || ((48 <=? d) && (d <=? 57))%N) r end && unreserved_b x.
Definition shown_b (v : str) : bool :=
  match v with [] => false | c :: _ => negb (contains_char c (lit "'""")) end && none_of (0%N :: lit "*?[\") v && forallb (fun c => negb (blank c)) v.
Definition fits_b (code : world) (m : machine) (c : comm) : bool :=
  match c with
  | Assign x _ | Unset x => match sget x (environment m) with None => true | Some _ => false end
  | Export x _ => match CoreSpec.vars m x with None => true | Some _ => false end || match sget x (environment m) with None => false | Some _ => true end
  | Cd dir =>
      match dir with Dollar x => match CoreSpec.vars m x with Some v => shown_b v | None => false end | _ => true end &&
      reachable code (visited m) (arg_value m dir)
  | Run p more =>
      forallb (fun q => forallb (fun a => match a with Dollar x => match CoreSpec.vars m x with Some v => shown_b v | None => false end | _ => true end) (arguments q)) (p :: more) &&
      let ps := starts_of m true (p :: more) in Z.eqb (code (started m) ps 0%nat) (code (started m) ps (List.length more))
  end.
Lemma none_of_true l t : none_of l t = true -> forall c, In c t -> ~ In c l.
Proof.
  unfold none_of. rewrite forallb_forall. intros H c Hc. specialize (H c Hc). apply negb_true_iff in H.
  apply contains_char_notIn. exact H.
Qed.
Lemma word_char_b_true c : word_char_b c = true -> word_char c.
Proof.
  unfold word_char_b. rewrite andb_true_iff, !negb_true_iff. intros [H1 H2]. split; [apply contains_char_notIn, H1|exact H2].
Qed.
Lemma unreserved_b_true w : unreserved_b w = true -> forall t, ~ In (w, t) reserved.
Proof.
  unfold unreserved_b. rewrite forallb_forall. intros H t Hin. specialize (H _ Hin). cbn [fst] in H. rewrite str_eqb_refl in H. discriminate.
Qed.
Lemma plain_word_b_true w : plain_word_b w = true -> plain_word w.
Proof.
  unfold plain_word_b, plain_word. rewrite !andb_true_iff. intros [[H1 H2] H3]. split; [|split; [|apply unreserved_b_true, H3]].
  - destruct w as [|c r]; [discriminate|]. rewrite !andb_true_iff in H1. destruct H1 as [[H1 H4] H5].
    split; [apply word_char_b_true, H1|]. split; [apply contains_char_notIn, negb_true_iff, H4|].
    apply Forall_forall. intros d Hd. rewrite forallb_forall in H5. apply word_char_b_true, H5, Hd.
  - intros c Hc. pose proof (none_of_true _ _ H2 c Hc) as N. split; [intros F; apply N; right; exact F|intros ->; apply N; left; reflexivity].
Qed.
Lemma letter_b_true c : letter_b c = true -> letter c.
Proof.
  unfold letter_b, letter. change (ch "_") with 95%N. rewrite !orb_true_iff, !andb_true_iff, !N.leb_le, N.eqb_eq. tauto.
Qed.
Lemma identifier_b_true x : identifier_b x = true -> identifier x.
Proof.
  unfold identifier_b, identifier. rewrite andb_true_iff. intros [H1 H2]. split; [|apply unreserved_b_true, H2].
  destruct x as [|c r]; [discriminate|]. apply andb_true_iff in H1. destruct H1 as [H1 H3]. split; [apply letter_b_true, H1|].
  apply Forall_forall. intros d Hd. rewrite forallb_forall in H3. specialize (H3 d Hd). apply orb_true_iff in H3.
  destruct H3 as [H3|H3]; [left; apply letter_b_true, H3|right]. unfold digit. rewrite andb_true_iff, !N.leb_le in H3. exact H3.
Qed.
Lemma shown_b_true v : shown_b v = true -> shown v.
Proof.
  unfold shown_b, shown. rewrite !andb_true_iff. intros [[H1 H2] H3]. split.
  - destruct v; [discriminate|]. apply contains_char_notIn, negb_true_iff, H1.
  - intros c Hc. rewrite forallb_forall in H3. pose proof (H3 c Hc) as B. apply negb_true_iff in B.
    pose proof (none_of_true _ _ H2 c Hc) as N. split; [exact B|]. split; [intros F; apply N; right; exact F|intros ->; apply N; left; reflexivity].
Qed.
Lemma fits_b_true code m c : fits_b code m c = true -> fits code m c.
Proof.
  destruct c as [x v|x v|x|dir|p more]; cbn [fits_b fits].
  - destruct (sget x (environment m)); [discriminate|reflexivity].
  - destruct (CoreSpec.vars m x); [|left; reflexivity]. cbn [orb]. destruct (sget x (environment m)); [right; discriminate|discriminate].
  - destruct (sget x (environment m)); [discriminate|reflexivity].
  - rewrite andb_true_iff. intros [H E]. split; [|exact E]. intros x ->. destruct (CoreSpec.vars m x) as [v|]; [|discriminate].
    exists v. split; [reflexivity|apply shown_b_true, H].
  - rewrite andb_true_iff, forallb_forall, Z.eqb_eq. intros [H E]. split; [|exact E]. intros q x Hq Hx. specialize (H q Hq).
    rewrite forallb_forall in H. specialize (H _ Hx). cbn in H. destruct (CoreSpec.vars m x) as [v|]; [|discriminate].
    exists v. split; [reflexivity|apply shown_b_true, H].
Qed.
Lemma always_mono code (P Q : machine -> comm -> Prop) : (forall m c, P m c -> Q m c) -> forall sc m, always code P sc m -> always code Q sc m.
Proof.
  intros H. assert (K : forall rest st m, always_more code P rest st m -> always_more code Q rest st m).
  { induction rest as [|[o c] rest IH]; intros st m; cbn [always_more]; [auto|]. destruct (goes_on o st); [|apply IH].
    destruct (step code c m). intros [H1 H2]. auto. }
  induction sc as [|l sc IH]; intros m; cbn [always]; [auto|]. unfold always_chain.
  destruct (step code (fst l) m) as [st1 m1] eqn:E. intros [[H1 H2] H3]. split; [auto|]. destruct (run_chain code l m). auto.
Qed.

(** [false] exits with 1, everything else with 0; there is no directory [nowhere], and
    nothing is known of the files. *)
Definition ex_code : world :=
  World (fun _ ps k => match nth_error ps k with Some p => if str_eqb (hd [] (argv p)) (lit "false") then 1 else 0 | None => 0 end)
    (fun _ p => negb (str_eqb p (lit "nowhere"))) (fun _ => None).
Fixpoint ex_answers (status : nat -> Z) (k : nat) (qs : list Z) : list (nat * wait_status) :=
  match qs with [] => [] | q :: qs' => (k, Exited q (status k)) :: ex_answers status (S k) qs' end.
Definition ex_system : os := fun t =>
  let r := PropertiesMain.plain_os "" t in
  Reports (r_isfile r) (r_open r) (r_read r) (fun p => negb (str_eqb p (lit "nowhere"))) (r_cwd r) (r_kill r) true
    (Some (Z.to_pos (1 + fold_right Z.max 99 (fork_pids (recent t))))) (r_exec r) (r_getpid r)
    (answers (ex_answers (ex_code (programs_of (before t)) (programs_since t)) 0 (fork_pids (recent t))) [AIntr; AFail]) (r_subst r).
Lemma fresh_max l : 99 <= fold_right Z.max 99 l /\ forall q, In q l -> q <= fold_right Z.max 99 l.
Proof.
  induction l as [|x l [I1 I2]]; [split; [cbn; lia|intros q []]|]. cbn [fold_right]. split; [lia|].
  intros q [<-|H]; [lia|]. specialize (I2 q H). lia.
Qed.
Lemma ex_answers_ok status qs k : forall l, (forall j, nth_error qs j = nth_error l (k + j)) ->
  Forall2 (fun ne r => exists j, nth_error l j = Some r /\ snd ne = Exited r (status (S j))) (ex_answers status (S k) qs) qs.
Proof.
  revert k. induction qs as [|q qs IH]; intros k l H; constructor.
  - exists k. split; [rewrite <- (Nat.add_0_r k), <- H; reflexivity|reflexivity].
  - apply (IH (S k)). intros j. rewrite Nat.add_succ_comm, <- H. reflexivity.
Qed.
Lemma ex_system_ok : system ex_system [] ex_code.
Proof.
  split.
  - reflexivity.
  - reflexivity.
  - intros t. eexists. split; [reflexivity|]. destruct (fresh_max (fork_pids (recent t))) as [M1 M2].
    rewrite Z2Pos.id by lia. split; [intros F; apply M2 in F; lia|discriminate].
  - intros t q qs E Hd. cbv zeta. eexists 0%nat, _, qs, 1%nat, AFail, []. split; [|split; [|split; [inversion Hd; assumption|left; reflexivity]]].
    + unfold ex_system. cbn [r_waits]. rewrite E. reflexivity.
    + apply ex_answers_ok. reflexivity.
  - discriminate.
Qed.
Definition bare (n : string) (args : list arg) : prog := Prog [] (lit n) args [].
Definition ex_script : script :=
  [ (Assign (lit "A") (Plain (lit "hello")), []);
    (Export (lit "B") (Single (lit "b c")),
      [(CAnd, Run (bare "echo" [Dollar (lit "A"); Double (lit "x  y")])
                [bare "tr" [Plain (lit "a"); Plain (lit "b")];
                 Prog [(lit "C", Plain (lit "1"))] (lit "sort") [Plain (lit "-r")] [Append (lit "log"); Append (lit "out")]]);
       (COr, Run (bare "never" []) [])]);
    (Run (bare "false" []) [], [(CAnd, Run (bare "never" []) []); (COr, Run (bare "echo" [Dollar (lit "HOME"); Single []]) [])]);
    (Cd (Single (lit "/a b")), [(CAnd, Cd (Plain (lit "sub")))]);
    (Unset (lit "A"), [(CAnd, Run (Prog [] (lit "false") [Plain (lit "1")] [Input (lit "data"); Append (lit "out")]) [])]) ].
Ltac a_word := apply plain_word_b_true; vm_compute; reflexivity.
Ltac an_identifier := apply identifier_b_true; vm_compute; reflexivity.
Ltac a_name := split; [discriminate|split; [reflexivity|split; [intros [t E]; discriminate|
  intros c F; cbn in F; repeat (destruct F as [<-|F]; [split; [intros G; vm_compute in G; intuition discriminate|intros G; cbn in G; intuition discriminate]|]); destruct F]]].
Ltac a_program := split; [apply Forall_nil|]; split; [a_word|]; split; [a_name|]; split; [reflexivity|]; split; [reflexivity|];
  split; [reflexivity|]; split; [|split; [|try reflexivity; discriminate]].
Ltac simple := apply Forall_cons; [|apply Forall_nil]; a_program; [|apply Forall_nil].
Lemma ex_script_ok : Forall (chain_ok [] (fun _ => None) (fun _ => false)) ex_script.
Proof.
  unfold ex_script. apply Forall_cons; [|apply Forall_cons; [|apply Forall_cons; [|apply Forall_cons; [|apply Forall_cons; [|apply Forall_nil]]]]];
    (split; [cbn [fst snd]|cbn [fst snd]; repeat match goal with |- @Forall (cond * comm) _ _ => (apply Forall_cons; [cbn [snd]|]) || apply Forall_nil end]).
  - split; [an_identifier|]. split; [split; [a_word|exact I]|]. split; reflexivity.
  - split; [an_identifier|]. split; [split; [split; intros F; cbn in F; intuition discriminate|split; intros F; cbn in F; intuition discriminate]|].
    split; [reflexivity|]. split; [reflexivity|]. intros a b E. apply (f_equal (contains_str (lit "-p"))) in E.
    assert (G : contains_str (lit "-p") (a ++ lit "-p" ++ b) = true) by (apply contains_str_iff; exists a, b; reflexivity).
    rewrite G in E. discriminate.
  - apply Forall_cons; [|apply Forall_cons; [|apply Forall_cons; [|apply Forall_nil]]].
    + a_program; [|apply Forall_nil]. apply Forall_cons; [left; an_identifier|apply Forall_cons; [|apply Forall_nil]].
      intros c F; cbn in F; repeat (destruct F as [<-|F]; [split; [intros G; cbn in G; intuition discriminate|discriminate]|]); destruct F.
    + a_program; [|apply Forall_nil]. apply Forall_cons; [a_word|apply Forall_cons; [a_word|apply Forall_nil]].
    + split; [apply Forall_cons; [split; [an_identifier|eexists; split; [reflexivity|a_word]]|apply Forall_nil]|].
      split; [a_word|]. split; [a_name|]. do 3 (split; [reflexivity|]). split; [apply Forall_cons; [a_word|apply Forall_nil]|].
      split; [|discriminate]. apply Forall_cons; [a_word|apply Forall_cons; [a_word|apply Forall_nil]].
  - simple. apply Forall_nil.
  - simple. apply Forall_nil.
  - simple. apply Forall_nil.
  - simple. apply Forall_cons; [left; an_identifier|apply Forall_cons; [|apply Forall_nil]].
    split; intros F; cbn in F; intuition discriminate.
  - split; [split; intros F; cbn in F; intuition discriminate|reflexivity].
  - split; [a_word|reflexivity].
  - split; [an_identifier|]. split; [reflexivity|]. split; [reflexivity|discriminate].
  - apply Forall_cons; [|apply Forall_nil]. a_program; [apply Forall_cons; [a_word|apply Forall_nil]|].
    apply Forall_cons; [a_word|apply Forall_cons; [a_word|apply Forall_nil]].
Qed.
Lemma ex_table : table PropertiesMain.ex_fds.
Proof.
  split; [repeat constructor; cbn; lia|]. intros fd dd E. cbn in E.
  destruct (Z.eqb_spec fd 0); [lia|]. destruct (Z.eqb_spec fd 1); [lia|]. destruct (Z.eqb_spec fd 2); [lia|discriminate].
Qed.
Lemma ex_no_future : no_future_pipe PropertiesMain.ex_fds 0.
Proof.
  intros fd dd kk E. cbn in E. destruct (Z.eqb fd 0); [injection E as <-; intros [F|F]; discriminate|].
  destruct (Z.eqb fd 1); [injection E as <-; intros [F|F]; discriminate|].
  destruct (Z.eqb fd 2); [injection E as <-; intros [F|F]; discriminate|discriminate].
Qed.
Example C117_example :
  script_text ex_script =
    lit " A=hello ; export B='b c' && echo $A ""x  y"" | tr a b | C=1 sort -r >> log >> out || never ; false && never || echo $HOME '' ; cd '/a b' && cd sub ; unset A && false 1 < data >> out" /\
  MainSpec.asks [lit "rsh"; lit "-c"; script_text ex_script] (MainSpec.Commands (script_text ex_script)) /\
  MainSpec.no_startup_files ex_system /\ system ex_system [] ex_code /\
  table PropertiesMain.ex_fds /\ no_future_pipe PropertiesMain.ex_fds 0 /\
  Forall (chain_ok [] (fun _ => None) (fun _ => false)) ex_script /\
  always ex_code (fits ex_code) ex_script (at_start false (lit "/") (lit "1") (lit "2") [(lit "HOME", lit "/h")]) /\
  let '(st, m) := run_script ex_code ex_script 0 (at_start false (lit "/") (lit "1") (lit "2") [(lit "HOME", lit "/h")]) in
  st = 1 /\
  started m = [Start (map lit ["echo"; "hello"; "x  y"]%string) [(lit "B", lit "b c"); (lit "HOME", lit "/h")] Terminal ToNext [];
               Start (map lit ["tr"; "a"; "b"]%string) [(lit "B", lit "b c"); (lit "HOME", lit "/h")] FromPrevious ToNext [];
               Start (map lit ["sort"; "-r"]%string) [(lit "C", lit "1"); (lit "B", lit "b c"); (lit "HOME", lit "/h")] FromPrevious (AddedTo (lit "out")) [];
               Start (map lit ["false"]%string) [(lit "B", lit "b c"); (lit "HOME", lit "/h")] Terminal Screen [];
               Start (map lit ["echo"; "/h"; ""]%string) [(lit "B", lit "b c"); (lit "HOME", lit "/h")] Terminal Screen [];
               Start (map lit ["false"; "1"]%string) [(lit "B", lit "b c"); (lit "HOME", lit "/h")] (FromFile (lit "data")) (AddedTo (lit "out")) (map lit ["/a b"; "sub"]%string)] /\
  CoreSpec.vars m (lit "A") = None /\
  let s' := snd (Main.main ex_system 5 0 [lit "rsh"; lit "-c"; script_text ex_script] [] (Shell PropertiesMain.ex_fresh [])) in
  programs_of (trace s') = started m.
Proof.
  split; [reflexivity|]. split.
  { apply (MainSpec.asks_commands (lit "rsh") [] (lit "-c") [script_text ex_script]).
    - discriminate.
    - intros (t & E & _). discriminate.
    - constructor.
    - eexists. split; [reflexivity|]. cbn. auto. }
  split; [intros t; split; reflexivity|]. split; [exact ex_system_ok|].
  split; [exact ex_table|]. split; [exact ex_no_future|].
  split.
  { exact ex_script_ok. }
  split.
  { apply (always_mono ex_code (fun m c => fits_b ex_code m c = true)); [exact (fits_b_true ex_code)|]. vm_compute. repeat split. }
  vm_compute. repeat split.
Qed.

(** The same script, typed on three lines and in a file of three lines. *)
Definition ex_lines : list script := [firstn 1 ex_script; firstn 3 (skipn 1 ex_script); skipn 4 ex_script].
Definition ex_file_system : os := fun t =>
  let r := ex_system t in
  Reports (r_isfile r) (fun f h => str_eqb f (lit "file")) (fun _ => Some (List.concat (map (fun sc => script_text sc ++ [10%N]) ex_lines)))
    (r_chdir r) (r_cwd r) (r_kill r) (r_pipe r) (r_fork r) (r_exec r) (r_getpid r) (r_waits r) (r_subst r).
Example C117_lines_example :
  List.concat ex_lines = ex_script /\ Forall (fun sc => sc <> [] /\ Forall (chain_ok [] (fun _ => None) (fun _ => false)) sc) ex_lines /\
  Forall (leaves (lit "PS1")) ex_lines /\ Forall (fun sc => ~ In 10%N (script_text sc)) ex_lines /\
  MainSpec.no_startup_files ex_file_system /\ system ex_file_system [] ex_code /\
  let m := snd (run_script ex_code ex_script 0 (at_start false (lit "/") (lit "1") (lit "2") [(lit "HOME", lit "/h")])) in
  let typed := snd (Main.main ex_system 5 0 [lit "rsh"] (map (fun sc => Main.TLine (script_text sc)) ex_lines ++ [Main.TClosed]) (Shell PropertiesMain.ex_fresh [])) in
  let file := snd (Main.main ex_file_system 5 4 [lit "rsh"; lit "file"] [] (Shell PropertiesMain.ex_fresh [])) in
  List.length (started m) = 6%nat /\ programs_of (trace typed) = started m /\ programs_of (trace file) = started m.
Proof.
  split; [reflexivity|]. split.
  { pose proof ex_script_ok as H. change ex_script with (List.concat ex_lines) in H. cbn [ex_lines List.concat] in H.
    rewrite !Forall_app in H. destruct H as (H1 & H2 & H3 & _).
    repeat (apply Forall_cons; [split; [discriminate|assumption]|]). apply Forall_nil. }
  split; [repeat (apply Forall_cons; [repeat (apply Forall_cons; [split; [discriminate|repeat (apply Forall_cons; [discriminate|]); apply Forall_nil]|]); apply Forall_nil|]); apply Forall_nil|].
  split; [repeat (apply Forall_cons; [rewrite <- contains_char_notIn; vm_compute; reflexivity|]); apply Forall_nil|].
  split; [intros t; split; reflexivity|]. split; [|vm_compute; repeat split].
  destruct ex_system_ok. split; first [assumption|discriminate].
Qed.

(** A pipeline whose first program fails. *)
Definition ex_begun : shell :=
  Shell (with_cm (MainLaws.two_scopes (Context (default_vars false (lit "/") (lit "1") (lit "2") [(lit "HOME", lit "/h")]) [] []) (ctx_put_var (lit "0") (Var (lit "rsh") false) empty_context))
    (with_js (js PropertiesMain.ex_fresh) (Main.fresh_image false (lit "/") (lit "1") (lit "2") [(lit "HOME", lit "/h")] PropertiesMain.ex_fds))) [].
Definition ex_failing : comm := Run (bare "false" []) [bare "echo" []].
Example C117_pipeline_example :
  comm_text ex_failing = lit " false | echo" /\
  agrees [] (fun _ => None) (fun _ => false) [] PropertiesMain.ex_fds 0 false (at_start false (lit "/") (lit "1") (lit "2") [(lit "HOME", lit "/h")]) ex_begun /\
  comm_ok [] (fun _ => None) (fun _ => false) ex_failing /\
  fst (step ex_code ex_failing (at_start false (lit "/") (lit "1") (lit "2") [(lit "HOME", lit "/h")])) = 0 /\
  fst (exec_text ex_system 5 (comm_text ex_failing) ex_begun) = OOk 1.
Proof.
  split; [reflexivity|]. split.
  { eapply agrees_start; try reflexivity; try discriminate.
    - repeat constructor. intros [].
    - exact ex_table.
    - exact ex_no_future. }
  split; [apply Forall_cons; [a_program; apply Forall_nil|apply Forall_cons; [a_program; apply Forall_nil|apply Forall_nil]]|].
  split; vm_compute; reflexivity.
Qed.

(** A directory that is not there. *)
Example C117_cd_example :
  chain_words (Cd (Plain (lit "nowhere")), [(COr, Run (bare "echo" []) [])]) = lit " cd nowhere || echo" /\
  chain_ok [] (fun _ => None) (fun _ => false) (Cd (Plain (lit "nowhere")), [(COr, Run (bare "echo" []) [])]) /\
  let m := at_start false (lit "/") (lit "1") (lit "2") [(lit "HOME", lit "/h")] in
  reachable ex_code (visited m) (lit "nowhere") = false /\
  map argv (started (snd (run_chain ex_code (Cd (Plain (lit "nowhere")), [(COr, Run (bare "echo" []) [])]) m))) = [[lit "echo"]] /\
  fst (exec_text ex_system 5 (lit " cd nowhere || echo") ex_begun) = OErr EOs /\
  trace (snd (exec_text ex_system 5 (lit " cd nowhere || echo") ex_begun)) = [].
Proof.
  split; [reflexivity|]. split; [|vm_compute; repeat split].
  split; [split; [a_word|reflexivity]|]. apply Forall_cons; [|apply Forall_nil]. apply Forall_cons; [a_program; apply Forall_nil|apply Forall_nil].
Qed.

Print Assumptions C117_pipeline_refuted.
Print Assumptions C117_lines_example.
Print Assumptions C117_pipeline_example.
Print Assumptions C117_core_partial.
Print Assumptions C117_dash_c_partial.
Print Assumptions C117_typed_partial.
Print Assumptions C117_file_partial.
Print Assumptions C117_assign_refuted.
Print Assumptions C117_unset_refuted.
Print Assumptions C117_cd_refuted.
Print Assumptions C117_cd_example.
Print Assumptions C117_export_refuted.
Print Assumptions C117_example.
