(** Properties C46, C47 and C70-C74: pipelines, redirections and programs. *)
From Verif Require Import Base BaseFacts Lexer LexerSpec Ast Parser GrammarSpec.
From Verif Require Import Context Alias Expand ExpandSpec ExpandFacts ExpandLaws Jobs Shell Builtins Eval.
From Verif Require Import EvalSpec EvalFacts EvalLaws EvalKeeps RunSpec RunLaws PipeSpec PipeLaws ChildLaws PipeRun EvalFds.
From Verif Require PropertiesEval.
Local Open Scope Z_scope.

(** ** C46 *)

(** A line that is a pipeline of programs, of any length and from any table of
    descriptors.  The [k]-th process started is the [k]-th command, and its
    descriptors are connected as they should be.  Either all of them are started
    and the shell has the descriptors it had before, or a pipe could not be
    made. *)
Theorem C46_wiring_partial : forall w d b bg scs scs' s o s',
  scs <> [] -> wf_pipeline (Pipeline b (map CSimple scs) bg) -> Forall2 (program (im s)) scs scs' ->
  table (fds (im s)) ->
  exec_text w (S d) (r_pipeline (Pipeline b (map CSimple scs) bg)) s = (o, s') ->
  exists new, trace s' = new ++ trace s /\
    (forall k img c r, nth_error (forks new) k = Some (img, c, r) ->
       nth_error scs' k = Some (c_cmd c) /\
       forall tr, exists t, wire_child c (Shell img tr) = (OOk tt, Shell (with_fds t img) tr) /\
         forall fd, nget fd t = piped (fds (im s)) (next_pipe (im s)) (List.length scs') k fd) /\
    ((List.length (forks new) = List.length scs' /\ forall fd, nget fd (fds (im s')) = nget fd (fds (im s))) \/
     (o = OErr (EText (lit "Failed to create pipe")) /\ (S (List.length (forks new)) < List.length scs')%nat /\
      match List.length (forks new) with
      | O => forall fd, nget fd (fds (im s')) = nget fd (fds (im s))
      | S k => exists left_open, nget left_open (fds (im s)) = None /\
          forall fd, nget fd (fds (im s')) =
            if Z.eqb fd left_open then Some (Desc (PipeR (next_pipe (im s) + Z.of_nat k)) false) else nget fd (fds (im s))
      end)).
Proof.
  intros w d b bg scs scs' s o s' Hne Hw HF Ht H.
  destruct (exec_programs w d b bg scs scs' s o s' Hne Hw HF Ht H) as (new & E & Hc & _ & Hr).
  exists new. split; [exact E|]. split.
  - intros k img c r Hk. destruct (Hc k _ Hk) as (C1 & C2 & C3 & C4 & C5). split; [exact C1|]. intros tr.
    destruct (wire_ok _ _ _ k c img tr Ht C5) as (t & W1 & W2 & W3). exists t. split; [exact W1|exact W3].
  - destruct Hr as [Hr|(R1 & R2 & prev & R3 & R4 & R5)]; [left; exact Hr|right; split; [exact R1|split; [exact R2|]]].
    destruct (List.length (forks new)) as [|k].
    + intros fd. rewrite R5. destruct (Z.eqb_spec fd prev) as [->|]; [|reflexivity].
      destruct (nget prev (fds (im s))) eqn:En; [apply (proj2 Ht) in En; lia|reflexivity].
    + exists prev. split; [apply R4|exact R5].
Qed.

(** What the table of a child means: a pipe made for this pipeline is open in
    exactly one place, the pipe between commands [k] and [k+1] as the standard
    output of [k] and the standard input of [k+1]; in no child is another end of
    it open. *)
Theorem C46_ends : forall t n len k fd d j, no_future_pipe t n -> n <= j ->
  piped t n len k fd = Some d ->
  (d_obj d = PipeR j -> fd = 0 /\ j = n + Z.of_nat k - 1 /\ (0 < k)%nat) /\
  (d_obj d = PipeW j -> fd = 1 /\ j = n + Z.of_nat k /\ S k <> len).
Proof.
  intros t n len k fd d j Hn Hj H. unfold piped in H.
  assert (Hold : nget fd t = Some d -> (d_obj d = PipeR j -> False) /\ (d_obj d = PipeW j -> False)).
  { intros E. split; intros Ed; specialize (Hn fd d j E); [assert (j < n) by auto|assert (j < n) by auto]; lia. }
  destruct (Z.eqb_spec fd 0) as [->|].
  - destruct k as [|k]; [split; intros Ed; exfalso; destruct (Hold H); auto|].
    injection H as <-. cbn [d_obj]. split; intros Ed; [injection Ed as <-; split; [reflexivity|]; split; lia|discriminate].
  - destruct (Z.eqb_spec fd 1) as [->|].
    + destruct (Nat.eqb_spec (S k) len) as [El|El]; [split; intros Ed; exfalso; destruct (Hold H); auto|].
      injection H as <-. cbn [d_obj]. split; intros Ed; [discriminate|injection Ed as <-; split; [reflexivity|]; split; [lia|exact El]].
    + split; intros Ed; exfalso; destruct (Hold H); auto.
Qed.

(** The hypotheses on the table hold throughout: they hold for a new shell and
    are preserved by every run, whatever it ends with. *)
Theorem C46_tables : forall w d t s o s', exec_text w d t s = (o, s') ->
  table (fds (im s)) -> no_future_pipe (fds (im s)) (next_pipe (im s)) ->
  table (fds (im s')) /\ no_future_pipe (fds (im s')) (next_pipe (im s')).
Proof.
  intros w d t s o s' H H1 H2. unfold exec_text in H. destruct (parse t) as [[l|]|].
  - cbn [eval eval_complete] in H. exact (evaluate_sound w d l s o s' H (conj H1 H2)).
  - injection H as _ <-. auto.
  - injection H as _ <-. auto.
Qed.

Import PropertiesEval.
(** [a x | b | c y] with descriptors 0 and 5 open. *)
Definition ex_table : fdtable := [(0, Desc (Other 0) false); (5, Desc (Other 5) false)].
Definition ex_shell5 : shell := Shell (with_fds ex_table ex_image) [].
Definition ex_three : list simple_command :=
  [words_cmd (lit "a") [lit "x"]; words_cmd (lit "b") []; words_cmd (lit "c") [lit "y"]].
Definition ex_three' : list simple_command :=
  [SimpleCommand None (lit "a") (Some (Suffix [] [lit "x"])); SimpleCommand None (lit "b") (Some (Suffix [] []));
   SimpleCommand None (lit "c") (Some (Suffix [] [lit "y"]))].
Definition ex_tables (s' : shell) : list fdtable :=
  map (fun f => fds (im (snd (wire_child (snd (fst f)) (Shell (fst (fst f)) []))))) (forks (trace s')).

Lemma plain_one c : c <> ch "$" -> ~ space c -> ~ In c (lit "'""") -> plain_name [] [c].
Proof.
  intros H1 H2 H3. split; [discriminate|]. split; [reflexivity|]. split; [intros [t E]; injection E; congruence|].
  intros x [<-|[]]. split; assumption.
Qed.
Example C46_example :
  r_pipeline (Pipeline false (map CSimple ex_three) false) = lit " a x | b | c y" /\
  wf_pipeline (Pipeline false (map CSimple ex_three) false) /\
  Forall2 (program (im ex_shell5)) ex_three ex_three' /\
  table (fds (im ex_shell5)) /\ no_future_pipe (fds (im ex_shell5)) (next_pipe (im ex_shell5)) /\
  ex_tables (snd (exec_text ex_os 5 (lit " a x | b | c y") ex_shell5)) =
  [ [(0, Desc (Other 0) false); (1, Desc (PipeW 0) false); (5, Desc (Other 5) false)];
    [(0, Desc (PipeR 0) false); (1, Desc (PipeW 1) false); (5, Desc (Other 5) false)];
    [(0, Desc (PipeR 1) false); (5, Desc (Other 5) false)] ] /\
  fds (im (snd (exec_text ex_os 5 (lit " a x | b | c y") ex_shell5))) = ex_table.
Proof.
  assert (W : forall n ws, In (words_cmd n ws) ex_three -> Forall written_word (n :: ws)).
  { intros n ws [E|[E|[E|[]]]]; injection E as <- E; destruct ws as [|x [|y ws]]; try discriminate; try injection E as <-;
      repeat (apply Forall_cons; [spelled|]); apply Forall_nil. }
  split; [vm_compute; reflexivity|]. split; [|split; [|split; [|split; [|split]]]].
  - assert (Hw : forall sc, In sc ex_three -> wf_command (CSimple sc)).
    { intros sc Hin. assert (E : exists n ws, sc = words_cmd n ws /\ n <> []).
      { destruct Hin as [<-|[<-|[<-|[]]]]; eexists; eexists; (split; [reflexivity|discriminate]). }
      destruct E as (n & ws & -> & Hn). destruct (words_line n ws Hn (W n ws Hin)) as [Wl _]. destruct Wl as (_ & [Wl _] & _). exact Wl. }
    cbn [wf_pipeline map all fold_right]. split; [discriminate|]. split; [|intros [E _]; discriminate].
    split; [apply (Hw (words_cmd (lit "a") [lit "x"])); cbn; auto|].
    split; [apply (Hw (words_cmd (lit "b") [])); cbn; auto|].
    split; [apply (Hw (words_cmd (lit "c") [lit "y"])); cbn; auto|exact I].
  - assert (P : forall c, In c (lit "abc") -> plain_name [] [c]).
    { intros c Hc. apply plain_one; cbn in Hc; repeat (destruct Hc as [<-|Hc]; [vm_compute; intuition discriminate|]); contradiction. }
    assert (O : forall c, c <> ch "$" -> c <> ch "'" -> c <> ch """" -> ordinary (expand_var ex_cm) [c] [c]).
    { intros c H1 H2 H3. apply o_plain; intros [t E]; injection E; congruence. }
    constructor; [|constructor; [|constructor; [|constructor]]].
    + apply program_words; [reflexivity|apply P; cbn; auto|reflexivity|intros q a E; discriminate|discriminate| |].
      * constructor; [apply O; discriminate|constructor].
      * cbn. intros c [<-|[<-|[]]]; discriminate.
    + apply program_bare; [reflexivity|apply P; cbn; auto|reflexivity|intros q a E; discriminate|exact I|cbn; intuition discriminate].
    + apply program_words; [reflexivity|apply P; cbn; auto|reflexivity|intros q a E; discriminate|discriminate| |].
      * constructor; [apply O; discriminate|constructor].
      * cbn. intros c [<-|[<-|[]]]; discriminate.
  - split; [repeat constructor; cbn; lia|]. intros fd dd E. cbn in E.
    destruct (Z.eqb_spec fd 0); [lia|]. destruct (Z.eqb_spec fd 5); [lia|discriminate].
  - intros fd dd k E Ek. cbn in E. destruct (Z.eqb fd 0); [injection E as <-; destruct Ek; discriminate|].
    destruct (Z.eqb fd 5); [injection E as <-; destruct Ek; discriminate|discriminate].
  - vm_compute. reflexivity.
  - vm_compute. reflexivity.
Qed.

(** When a pipe cannot be made, the read end of the pipe before it stays open in
    the shell, and the command that was to read from it has not been started. *)
Definition ex_two_pipes : os := fun t =>
  let r := ex_reports 0 in
  Reports (r_isfile r) (r_open r) (r_read r) (r_chdir r) (r_cwd r) (r_kill r)
    (match t with [] => true | _ => false end) (r_fork r) (r_exec r) (r_getpid r) (r_waits r) (r_subst r).
Theorem C46_leak_refuted :
  fst (exec_text ex_two_pipes 5 (lit " a x | b | c y") ex_shell5) = OErr (EText (lit "Failed to create pipe")) /\
  ran_commands (trace (snd (exec_text ex_two_pipes 5 (lit " a x | b | c y") ex_shell5))) = [lit "a"] /\
  fds (im (snd (exec_text ex_two_pipes 5 (lit " a x | b | c y") ex_shell5))) =
    [(0, Desc (Other 0) false); (1, Desc (PipeR 0) false); (5, Desc (Other 5) false)].
Proof. split; [vm_compute; reflexivity|]. split; vm_compute; reflexivity. Qed.

(** ** C47 *)

(** The redirections and assignments of a command, with standard input and
    output open: what a program will have open is what it should have, and the
    files are opened in the order written.  Missing: the number in front of a
    redirection is not used, and standard input and output have to be open. *)
Theorem C47_redirections_partial : forall w sc s, table (fds (im s)) ->
  nget 0 (fds (im s)) <> None -> nget 1 (fds (im s)) <> None ->
  match eval_prefix_suffix w sc s with
  | (OOk _, s') =>
      (forall fd, kept (nget fd (fds (im s'))) = kept (redirected (redirections_in sc) (fun fd => nget fd (fds (im s))) fd)) /\
      exists new, trace s' = new ++ trace s /\
        rev new = map (fun r => EOpen (filename r) (opens_as r)) (redirections_in sc)
  | (o, _) =>
      o = OPanic /\
      ((exists r tr, In r (redirections_in sc) /\ r_open (w tr) (filename r) (opens_as r) = false) \/
       exists a, In a (assignments_in sc) /\ ~ assignable a)
  end.
Proof.
  intros w sc [i tr] Ht H0 H1. cbn [im trace] in *.
  destruct (prefix_suffix_ok w sc i tr Ht (or_intror (conj H0 H1))) as [(s1 & E & HB)|(t & e & new & E & Ha & Ht' & Hk & Hn)]; rewrite E.
  - split; [reflexivity|exact HB].
  - split; [exact Hk|]. exists new. split; [reflexivity|exact Hn].
Qed.

(** The last one counts; redirections of the other kind do not matter. *)
Theorem C47_last : forall rs t,
  (forall pre r post, rs = pre ++ r :: post -> redirect r = RInput -> (forall x, In x post -> redirect x <> RInput) ->
     redirected rs t 0 = Some (Desc (OpenFile (filename r) (opens_as r)) false)) /\
  (forall pre r post, rs = pre ++ r :: post -> redirect r <> RInput -> (forall x, In x post -> redirect x = RInput) ->
     redirected rs t 1 = Some (Desc (OpenFile (filename r) (opens_as r)) false)) /\
  ((forall x, In x rs -> redirect x <> RInput) -> redirected rs t 0 = t 0) /\
  ((forall x, In x rs -> redirect x = RInput) -> redirected rs t 1 = t 1) /\
  (forall fd, fd <> 0 -> fd <> 1 -> redirected rs t fd = t fd).
Proof.
  intros rs t.
  assert (Hnone : forall f l, (forall x, In x l -> f x = false) -> @find io_redirect f (rev l) = None).
  { intros f l Hl. destruct (find f (rev l)) as [x|] eqn:E; [|reflexivity]. apply find_some in E. destruct E as [E1 E2].
    rewrite <- in_rev in E1. rewrite (Hl x E1) in E2. discriminate. }
  assert (Hlast : forall f pre r post, f r = true -> (forall x, In x post -> f x = false) ->
    @find io_redirect f (rev (pre ++ r :: post)) = Some r).
  { intros f pre r post Hr Hp. rewrite rev_app_distr. cbn [rev]. rewrite !find_app, (Hnone f post Hp). cbn. rewrite Hr. reflexivity. }
  unfold redirected. split; [|split; [|split; [|split]]].
  - intros pre r post -> Hr Hp. rewrite (Hlast is_input pre r post); [reflexivity|unfold is_input; rewrite Hr; reflexivity|].
    intros x Hx. specialize (Hp x Hx). unfold is_input. destruct (redirect x); congruence.
  - intros pre r post -> Hr Hp. rewrite (Hlast (fun r => negb (is_input r)) pre r post); [reflexivity| |].
    + unfold is_input. destruct (redirect r); [congruence|reflexivity..].
    + intros x Hx. unfold is_input. rewrite (Hp x Hx). reflexivity.
  - intros Hp. cbn [Z.eqb]. rewrite Hnone; [reflexivity|]. intros x Hx. specialize (Hp x Hx). unfold is_input. destruct (redirect x); congruence.
  - intros Hp. cbn [Z.eqb]. rewrite (Hnone (fun r => negb (is_input r))); [reflexivity|]. intros x Hx. unfold is_input. rewrite (Hp x Hx). reflexivity.
  - intros fd H0 H1. destruct (Z.eqb_spec fd 0); [congruence|]. destruct (Z.eqb_spec fd 1); [congruence|]. reflexivity.
Qed.

Definition ex_redirs : simple_command :=
  SimpleCommand (Some (Prefix [IoRedirect None ROutput (lit "one")] [lit "A=b"])) (lit "a")
    (Some (Suffix [IoRedirect None RInput (lit "in1"); IoRedirect (Some 2) RAppend (lit "two"); IoRedirect None RInput (lit "in2")] [lit "x"])).
Example C47_example :
  table (fds (im ex_shell)) /\
  match eval_prefix_suffix ex_os ex_redirs ex_shell with
  | (OOk _, s') =>
      after_exec (fds (im s')) =
      [(0, Desc (OpenFile (lit "in2") (How true false false false false)) false);
       (1, Desc (OpenFile (lit "two") (How false true true true false)) false); (2, Desc (Other 2) false)] /\
      rev (trace s') = [EOpen (lit "one") (How false true false true false); EOpen (lit "in1") for_reading;
                        EOpen (lit "two") (How false true true true false); EOpen (lit "in2") for_reading]
  | _ => False
  end.
Proof.
  split; [|vm_compute; split; reflexivity].
  split; [repeat constructor; cbn; lia|]. intros fd dd E. cbn in E.
  destruct (Z.eqb_spec fd 0); [lia|]. destruct (Z.eqb_spec fd 1); [lia|]. destruct (Z.eqb_spec fd 2); [lia|discriminate].
Qed.

(** A number in front of a redirection changes nothing: [2> f] redirects standard
    output.  And with standard input closed, [< f] has no effect for a program:
    the file is opened on descriptor 0 itself and closed when the program is
    executed. *)
Theorem C47_numbers_refuted :
  (forall w rs s, eval_redirect w rs s = eval_redirect w (map (fun r => IoRedirect None (redirect r) (filename r)) rs) s) /\
  (forall w f s s', table (fds (im s)) -> nget 0 (fds (im s)) = None ->
     eval_redirect w [IoRedirect None RInput f] s = (OOk tt, s') -> kept (nget 0 (fds (im s'))) = None).
Proof.
  split.
  - intros w rs. induction rs as [|r rs IH]; intros s; [reflexivity|]. cbn [map eval_redirect redirect filename].
    unfold bind, seq. destruct (sys_open w (filename r) (redirect_how (redirect r)) s) as [[f| | | | | |] s1]; try reflexivity.
    destruct (unwrap f s1) as [[f1| | | | | |] s2]; try reflexivity. unfold bind.
    destruct (sys_dup2 f1 (redirect_target (redirect r)) s2) as [[u| | | | | |] s3]; try reflexivity. apply IH.
  - intros w f [i tr] s' Ht H0 H. cbn [im] in *. cbn [eval_redirect redirect filename redirect_how redirect_target] in H.
    unfold sys_open in H. unfold bind at 1 2, ask, ret in H.
    destruct (r_open (w (trace {| im := i; trace := tr |})) f for_reading); [|discriminate].
    assert (L : lowest (fds i) = 0).
    { destruct (lowest_spec _ (proj1 Ht)) as [L1 L2]. destruct (Z.eq_dec (lowest (fds i)) 0) as [E|E]; [exact E|].
      exfalso. apply (lowest_least _ (proj1 Ht) 0); [lia|exact H0]. }
    cbn [im trace] in H. rewrite L in H. unfold unwrap, bind at 1, ret in H.
    rewrite (seq_ok _ _ _ tt (Shell (with_fds (ninsert 0 (Desc (OpenFile f for_reading) true) (fds i)) i) (EOpen f for_reading :: tr))) in H.
    + cbn in H. injection H as <-. cbn [im fds with_fds]. rewrite nget_ninsert by apply Ht. reflexivity.
    + apply (dup2_self 0 (Desc (OpenFile f for_reading) true)). cbn [fds with_fds]. rewrite nget_ninsert by apply Ht. reflexivity.
Qed.

(** ** C70 *)

(** The [k]-th process of such a line, in its own image, on any system: when it
    executes a program, it is the first file on the path named like the command,
    with exactly the words of the command, the environment of the shell with the
    assignments of the command, the signal handlers gone and nothing blocked, and
    the descriptors it should have.  When it does not, a file could not be opened,
    an assignment cannot be made, or there is no such program. *)
Theorem C70_program_runs : forall w d b bg scs scs' s o s' k img c r w2 m o2 s2,
  scs <> [] -> wf_pipeline (Pipeline b (map CSimple scs) bg) -> Forall2 (program (im s)) scs scs' ->
  table (fds (im s)) -> nget 0 (fds (im s)) <> None -> nget 1 (fds (im s)) <> None ->
  exec_text w (S d) (r_pipeline (Pipeline b (map CSimple scs) bg)) s = (o, s') ->
  (forall new, trace s' = new ++ trace s -> nth_error (forks new) k = Some (img, c, r)) ->
  run_child w2 m img c = (o2, s2) ->
  exists sc, nth_error scs' k = Some sc /\
  ((exists path e tr, o2 = OExec path (sc_name sc :: words_in sc) e /\
      lookup_command (r_isfile (w2 tr)) (sc_name sc) (cm (im s)) = Some (Some path) /\
      assigned (env (im s)) (assignments_in sc) e /\
      (forall fd, kept (nget fd (fds (im s2))) =
         kept (redirected (redirections_in sc) (piped (fds (im s)) (next_pipe (im s)) (List.length scs') k) fd)) /\
      masked (js (im s2)) = false /\ handlers (im s2) = false) \/
   (o2 = OExit 1 /\ exists tr, lookup_command (r_isfile (w2 tr)) (sc_name sc) (cm (im s)) = Some None \/
      exists path, lookup_command (r_isfile (w2 tr)) (sc_name sc) (cm (im s)) = Some (Some path) /\
        r_exec (w2 tr) path (sc_name sc :: words_in sc) = false) \/
   (o2 = OPanic /\
     ((exists x tr, In x (redirections_in sc) /\ r_open (w2 tr) (filename x) (opens_as x) = false) \/
      (exists a, In a (assignments_in sc) /\ ~ assignable a) \/
      exists tr, lookup_command (r_isfile (w2 tr)) (sc_name sc) (cm (im s)) = None \/
        exists path, lookup_command (r_isfile (w2 tr)) (sc_name sc) (cm (im s)) = Some (Some path) /\ In 0%N path))).
Proof.
  intros w d b bg scs scs' s o s' k img c r w2 m o2 s2 Hne Hw HF Ht H0 H1 H Hk Hrun.
  destruct (exec_programs w d b bg scs scs' s o s' Hne Hw HF Ht H) as (new & E & Hc & _ & _).
  specialize (Hk new E). destruct (Hc k _ Hk) as (C1 & C2 & C3 & C4 & C5). exists (c_cmd c). split; [exact C1|].
  destruct C4 as (D1 & D2 & D3 & D4 & D5 & D6 & D7). cbn in D1, D4.
  assert (Hf : is_function (sc_name (c_cmd c)) (cm img) = false).
  { rewrite D1. clear -HF C1. revert k C1. induction HF as [|x x' l l' Hx HF IH]; intros [|k] E; try discriminate.
    - injection E as <-. exact (proj2 (proj2 (program_kind _ _ _ Hx))).
    - exact (IH k E). }
  unfold run_child in Hrun.
  apply (child_outcome w2 (evaluate w2 m) c img [] (fds (im s)) (next_pipe (im s)) (List.length scs') k o2 s2 C2 Hf Ht C5) in Hrun.
  - rewrite D1, D4 in Hrun. destruct Hrun as [Hrun|[Hrun|Hrun]]; [right; right; exact Hrun|right; left; exact Hrun|left].
    destruct Hrun as (path & e & tr & R1 & R2 & R3 & R4 & R5). exists path, e, tr. tauto.
  - right. unfold piped. cbn [Z.eqb]. split; [destruct k; [exact H0|discriminate]|destruct (Nat.eqb _ _); [exact H1|discriminate]].
Qed.

Example C70_example :
  match forks (trace (snd (ex_run " A=b a x > out | c y"))) with
  | [(i1, c1, _); (i2, c2, _)] =>
      fst (run_child ex_os 3 i1 c1) = OExec (lit "/bin/a") [lit "a"; lit "x"] [(lit "A", lit "b")] /\
      after_exec (fds (im (snd (run_child ex_os 3 i1 c1)))) =
        [(0, Desc (Other 0) false); (1, Desc (OpenFile (lit "out") (How false true false true false)) false); (2, Desc (Other 2) false)] /\
      fst (run_child ex_os 3 i2 c2) = OExec (lit "/bin/c") [lit "c"; lit "y"] [] /\
      after_exec (fds (im (snd (run_child ex_os 3 i2 c2)))) =
        [(0, Desc (PipeR 0) false); (1, Desc (Other 1) false); (2, Desc (Other 2) false)]
  | _ => False
  end.
Proof. vm_compute. split; [reflexivity|]. split; [reflexivity|]. split; reflexivity. Qed.

(** ** C71 *)

(** A pipeline of programs changes nothing of the shell but its jobs, its last
    status and the number of pipes made. *)
Theorem C71_shell_unchanged : forall w d b bg scs scs' s o s',
  scs <> [] -> wf_pipeline (Pipeline b (map CSimple scs) bg) -> Forall2 (program (im s)) scs scs' ->
  table (fds (im s)) ->
  exec_text w (S d) (r_pipeline (Pipeline b (map CSimple scs) bg)) s = (o, s') ->
  cm (im s') = cm (im s) /\ al (im s') = al (im s) /\ env (im s') = env (im s) /\
  handlers (im s') = handlers (im s) /\ forked (im s') = forked (im s).
Proof.
  intros w d b bg scs scs' s o s' Hne Hw HF Ht H.
  destruct (exec_programs w d b bg scs scs' s o s' Hne Hw HF Ht H) as (new & _ & _ & F & _).
  destruct F as (F1 & F2 & F3 & F4 & F5 & F6 & F7 & F8). tauto.
Qed.
Example C71_example :
  let s' := snd (ex_run " A=b a x > out | c y") in
  env (im s') = [] /\ cm (im s') = ex_cm /\ js (im s') <> js (im ex_shell) /\ next_pipe (im s') <> next_pipe (im ex_shell).
Proof. vm_compute. repeat split; discriminate. Qed.

(** ** C72 *)

(** Whatever is run (functions, [eval], [source], pipelines), and whether it ends
    with a status or an error, the shell has the descriptors it had before, as
    long as pipes can be made. *)
Theorem C72_descriptors_partial : forall w d t s o s', (forall tr, r_pipe (w tr) = true) -> table (fds (im s)) ->
  exec_text w d t s = (o, s') -> returns o -> forall fd, nget fd (fds (im s')) = nget fd (fds (im s)).
Proof.
  intros w d t s o s' Hp Ht H Ho. unfold exec_text in H. destruct (parse t) as [[l|]|].
  - cbn [eval eval_complete] in H. exact (proj2 (evaluate_restored w d l s o s' Hp H Ho Ht)).
  - injection H as _ <-. reflexivity.
  - injection H as _ <-. reflexivity.
Qed.
Example C72_example :
  returns (fst (ex_run "f ( ) { a | b | c ; source x ; } ; f ; source nowhere ; a | b")) /\
  existsb (fun e => match e with EOpen _ _ => true | _ => false end) (trace (snd (ex_run "f ( ) { a | b | c ; source x ; } ; f ; source nowhere ; a | b"))) = true /\
  fds (im (snd (ex_run "f ( ) { a | b | c ; source x ; } ; f ; source nowhere ; a | b"))) = fds (im ex_shell).
Proof. split; [vm_compute; exact I|]. split; vm_compute; reflexivity. Qed.
(** Without it, a descriptor is lost for every failure. *)
Theorem C72_leak_refuted :
  let s1 := snd (exec_text ex_two_pipes 5 (lit " a x | b | c y") ex_shell5) in
  fst (exec_text ex_two_pipes 5 (lit " a x | b | c y") ex_shell5) = OErr (EText (lit "Failed to create pipe")) /\
  nget 1 (fds (im ex_shell5)) = None /\ nget 1 (fds (im s1)) = Some (Desc (PipeR 0) false).
Proof. split; [vm_compute; reflexivity|]. split; vm_compute; reflexivity. Qed.

(** ** C73 *)

(** [>] never truncates: no file is ever opened with truncation, whatever the
    redirections. *)
Theorem C73_truncate_refuted : forall w sc s s' f h, table (fds (im s)) ->
  nget 0 (fds (im s)) <> None -> nget 1 (fds (im s)) <> None ->
  eval_prefix_suffix w sc s = (OOk tt, s') ->
  (exists new, trace s' = new ++ trace s /\ In (EOpen f h) new) -> h_truncate h = false.
Proof.
  intros w sc s s' f h Ht H0 H1 H (new & E & Hin).
  pose proof (C47_redirections_partial w sc s Ht H0 H1) as HC. rewrite H in HC.
  destruct HC as (_ & new' & E' & Hm). rewrite E in E'. apply app_inv_tail in E'. subst new'.
  apply in_rev in Hin. rewrite Hm in Hin. apply in_map_iff in Hin. destruct Hin as (r & Er & _). injection Er as _ <-.
  unfold opens_as. destruct (redirect r); reflexivity.
Qed.
Example C73_example :
  match eval_prefix_suffix ex_os ex_redirs ex_shell with
  | (OOk _, s') => In (EOpen (lit "one") (How false true false true false)) (trace s')
  | _ => False
  end.
Proof. vm_compute. auto. Qed.

(** ** C74 *)

Lemma assigned_reads : forall e asg e', assigned e asg e' ->
  forall k, 
  (forall pre v post, asg = pre ++ (k ++ lit "=" ++ v) :: post -> ~ In (ch "=") k -> ~ In (ch "=") v ->
     (forall a, In a post -> forall u, a <> k ++ lit "=" ++ u) -> sget k e' = Some v) /\
  ((forall a, In a asg -> forall u, a <> k ++ lit "=" ++ u) -> sget k e' = sget k e).
Proof.
  assert (Hcut : forall k k' v v' : str, k ++ lit "=" ++ v = k' ++ lit "=" ++ v' -> ~ In (ch "=") k -> ~ In (ch "=") k' -> k = k' /\ v = v').
  { induction k as [|x k IH]; intros [|y k'] v v' E H1 H2; cbn in E.
    - injection E as <-. auto.
    - injection E as <- _. exfalso. apply H2. left. reflexivity.
    - injection E as -> _. exfalso. apply H1. left. reflexivity.
    - injection E as -> E. destruct (IH k' v v' E) as [-> ->]; [intros H; apply H1; right; exact H|intros H; apply H2; right; exact H|auto]. }
  induction 1 as [e|e k' v' rest ws e' Hk Hv Hrest Ha IH]; intros k.
  - split; [intros pre v post E; destruct pre; discriminate|reflexivity].
  - split.
    + intros pre v post E Hk0 Hv0 Hp. destruct pre as [|x pre].
      * cbn [app] in E. injection E as E ->. destruct (Hcut _ _ _ _ E Hk Hk0) as [-> Er].
        rewrite (proj2 (IH k) Hp). 
        assert (v' = v).
        { destruct Hrest as [->|[u ->]]; [rewrite app_nil_r in Er; exact Er|].
          exfalso. apply Hv0. rewrite <- Er. apply in_or_app. right. left. reflexivity. }
        subst v'. rewrite sget_sinsert. rewrite str_eqb_refl. reflexivity.
      * injection E as E1 E2. exact (proj1 (IH k) pre v post E2 Hk0 Hv0 Hp).
    + intros Hno. rewrite (proj2 (IH k)) by (intros a Hin; apply Hno; right; exact Hin).
      rewrite sget_sinsert. destruct (str_eqb k k') eqn:Ek; [|reflexivity]. apply str_eqb_eq in Ek. subst k'.
      exfalso. apply (Hno _ (or_introl eq_refl) (v' ++ rest)). reflexivity.
Qed.
(** An assignment in front of a command reaches the environment of the program,
    the last one for each name, and the environment of the shell stays as it is
    (C71).  Missing: a value that contains an equals sign. *)
Theorem C74_assignment_partial : forall w d b bg scs scs' s o s' k img c r w2 m path argv e s2,
  scs <> [] -> wf_pipeline (Pipeline b (map CSimple scs) bg) -> Forall2 (program (im s)) scs scs' ->
  table (fds (im s)) -> nget 0 (fds (im s)) <> None -> nget 1 (fds (im s)) <> None ->
  exec_text w (S d) (r_pipeline (Pipeline b (map CSimple scs) bg)) s = (o, s') ->
  (forall new, trace s' = new ++ trace s -> nth_error (forks new) k = Some (img, c, r)) ->
  run_child w2 m img c = (OExec path argv e, s2) ->
  exists sc, nth_error scs' k = Some sc /\ forall name,
  (forall pre v post, assignments_in sc = pre ++ (name ++ lit "=" ++ v) :: post -> ~ In (ch "=") name -> ~ In (ch "=") v ->
     (forall a, In a post -> forall u, a <> name ++ lit "=" ++ u) -> sget name e = Some v) /\
  ((forall a, In a (assignments_in sc) -> forall u, a <> name ++ lit "=" ++ u) -> sget name e = sget name (env (im s))).
Proof.
  intros w d b bg scs scs' s o s' k img c r w2 m path argv e s2 Hne Hw HF Ht H0 H1 H Hk Hrun.
  destruct (C70_program_runs w d b bg scs scs' s o s' k img c r w2 m _ s2 Hne Hw HF Ht H0 H1 H Hk Hrun) as (sc & Hsc & HC).
  exists sc. split; [exact Hsc|].
  destruct HC as [(p & e' & tr & E & _ & Ha & _)|[[E _]|[E _]]]; [|discriminate|discriminate].
  injection E as _ _ ->. exact (assigned_reads _ _ _ Ha).
Qed.

Example C74_example :
  match forks (trace (snd (ex_run " A=1 B=2 A=3 a x"))) with
  | [(i, c, _)] => fst (run_child ex_os 3 i c) = OExec (lit "/bin/a") [lit "a"; lit "x"] [(lit "A", lit "3"); (lit "B", lit "2")]
  | _ => False
  end.
Proof. vm_compute. reflexivity. Qed.

(** What follows a second equals sign is lost.  In a line this takes quotes, and
    the quotes are passed to the program as part of the value. *)
Theorem C74_value_cut_refuted : forall e name v rest e', ~ In (ch "=") name -> ~ In (ch "=") v ->
  assigned e [name ++ lit "=" ++ v ++ lit "=" ++ rest] e' -> sget name e' = Some v.
Proof.
  assert (Hcut : forall k k' v v' : str, k ++ lit "=" ++ v = k' ++ lit "=" ++ v' -> ~ In (ch "=") k -> ~ In (ch "=") k' -> k = k' /\ v = v').
  { induction k as [|x k IH]; intros [|y k'] v v' E H1 H2; cbn in E.
    - injection E as <-. auto.
    - injection E as <- _. exfalso. apply H2. left. reflexivity.
    - injection E as -> _. exfalso. apply H1. left. reflexivity.
    - injection E as -> E. destruct (IH k' v v' E) as [-> ->]; [intros H; apply H1; right; exact H|intros H; apply H2; right; exact H|auto]. }
  intros e name v rest e' Hn Hv H. inversion H as [|e0 k0 v0 r0 ws e1 Hk0 Hv0 Hr0 Hrest]. subst.
  inversion Hrest; subst.
  match goal with E : _ = _ |- _ => apply Hcut in E; [destruct E as [-> E]|assumption|assumption] end.
  destruct Hr0 as [->|[u ->]].
  - exfalso. apply Hv0. rewrite app_nil_r in *. subst v0. apply in_or_app. right. left. reflexivity.
  - match goal with E : _ = _ |- _ => apply Hcut in E; [destruct E as [-> _]|assumption|assumption] end.
    apply sget_sinsert_eq.
Qed.
Example C74_refuted_example :
  match forks (trace (snd (ex_run " A='1=2' a x"))) with
  | [(i, c, _)] => fst (run_child ex_os 3 i c) = OExec (lit "/bin/a") [lit "a"; lit "x"] [(lit "A", lit "'1")]
  | _ => False
  end.
Proof. vm_compute. reflexivity. Qed.

Print Assumptions C46_wiring_partial.
Print Assumptions C46_ends.
Print Assumptions C46_tables.
Print Assumptions C46_leak_refuted.
Print Assumptions C47_redirections_partial.
Print Assumptions C47_last.
Print Assumptions C47_numbers_refuted.
Print Assumptions C70_program_runs.
Print Assumptions C71_shell_unchanged.
Print Assumptions C72_descriptors_partial.
Print Assumptions C72_leak_refuted.
Print Assumptions C73_truncate_refuted.
Print Assumptions C74_assignment_partial.
Print Assumptions C74_value_cut_refuted.
