(** Command substitution: what it does to the shell (C111), what it captures
    (C112), and how much output it can take (C113). *)
From Verif Require Import Base BaseFacts Ast Parser Grammar GrammarSpec.
From Verif Require Import Context Alias Expand ExpandSpec Jobs Shell Builtins Eval Subst.
From Verif Require Import EvalSpec EvalFacts EvalLaws RunSpec RunLaws PipeSpec PipeLaws ChildLaws PipeRun.
From Verif Require Import PropertiesEval PropertiesPipe.
Local Open Scope Z_scope.

(** ** C111 *)

(** The descriptors while the copy of the shell is started. *)
Lemma subst_pipe_ok w s o s1 : table (fds (im s)) -> subst_pipe w s = (o, s1) ->
  (o = OPanic /\ r_pipe (w (trace s)) = false /\ s1 = s) \/
  (r_pipe (w (trace s)) = true /\
   exists pr pw t, o = OOk (pr, pw) /\ 0 <= pr /\ 0 <= pw /\ pr <> pw /\
   nget pr (fds (im s)) = None /\ nget pw (fds (im s)) = None /\ table t /\
   (forall fd, nget fd t = if Z.eqb fd pr then Some (Desc (PipeR (next_pipe (im s))) false)
      else if Z.eqb fd pw then Some (Desc (PipeW (next_pipe (im s))) false) else nget fd (fds (im s))) /\
   s1 = Shell (with_next_pipe (next_pipe (im s) + 1) (with_fds t (im s))) (EPipe (next_pipe (im s)) :: trace s)).
Proof.
  intros Ht H. destruct s as [i tr]. cbn [im trace] in *. unfold subst_pipe, make_pipe, bind, catch, ask in H. cbn [trace] in H.
  destruct (r_pipe (w tr)).
  2: { cbn in H. injection H as <- <-. left. auto. }
  cbn [im trace] in H. right. split; [reflexivity|]. cbn [ret] in H. unfold ret in H. injection H as <- <-.
  destruct (lowest_spec _ (proj1 Ht)) as [L1 L2]. set (r := lowest (fds i)) in *.
  assert (Ht1 : table (ninsert r (Desc (PipeR (next_pipe i)) false) (fds i))) by (apply table_ninsert; assumption).
  destruct (lowest_spec _ (proj1 Ht1)) as [L3 L4].
  set (v := lowest (ninsert r (Desc (PipeR (next_pipe i)) false) (fds i))) in *. clearbody v r.
  rewrite nget_ninsert in L4 by apply Ht. destruct (Z.eqb_spec v r) as [|Hvr]; [discriminate|].
  exists r, v, (ninsert v (Desc (PipeW (next_pipe i)) false) (ninsert r (Desc (PipeR (next_pipe i)) false) (fds i))).
  split; [reflexivity|]. do 2 (split; [assumption|]). split; [congruence|].
  do 2 (split; [assumption|]). split; [apply table_ninsert; assumption|]. split; [|reflexivity].
  intros fd. rewrite nget_ninsert by apply Ht1. rewrite nget_ninsert by apply Ht. eqbs; auto; congruence.
Qed.

(** A command substitution either gives a text or ends the shell, and it ends it
    exactly when there is no pipe, no process, or nothing that can be read.  When
    it gives a text, nothing in the shell has changed, whatever the commands do:
    variables, functions, aliases, jobs, status, environment, mask and output are
    the same, and the same descriptors are open. *)
Theorem C111_unchanged : forall w log c s o s',
  table (fds (im s)) -> substitute w log c s = (o, s') ->
  ((exists t, o = OOk t) /\
    (forall fd, nget fd (fds (im s')) = nget fd (fds (im s))) /\
    im s' = with_next_pipe (next_pipe (im s) + 1) (with_fds (fds (im s')) (im s))) \/
  (o = OPanic /\
    (r_pipe (w (trace s)) = false \/
     r_fork (w (EPipe (next_pipe (im s)) :: trace s)) = None \/
     r_subst (w (EPipe (next_pipe (im s)) :: trace s)) log c = None)).
Proof.
  intros w log c s o s' Ht H. unfold substitute in H. apply bind_inv in H. destruct H as [(p & s1 & H1 & H2)|(o1 & H1 & F & ->)].
  - destruct (subst_pipe_ok _ _ _ _ Ht H1) as [(E & _)|(_ & pr & pw & t & E & P1 & P2 & P3 & P4 & P5 & T & Hg & ->)]; [discriminate|].
    injection E as ->. unfold subst_parent in H2. cbn [fst snd] in H2. unfold bind at 1, ask in H2. cbn [trace] in H2.
    destruct (r_fork (w (EPipe (next_pipe (im s)) :: trace s))) eqn:Ef.
    2: { cbn in H2. injection H2 as <- <-. right. auto. }
    set (i1 := with_next_pipe (next_pipe (im s) + 1) (with_fds t (im s))) in *.
    set (tr := EPipe (next_pipe (im s)) :: trace s) in *.
    assert (C1 : nget pw (fds i1) <> None) by (change (fds i1) with t; rewrite Hg; eqbs; discriminate).
    rewrite (seq_ok _ _ _ _ _ (close_ok pw i1 tr C1)) in H2.
    set (i2 := with_fds (nremove pw (fds i1)) i1) in *.
    unfold bind at 1, ask in H2. cbn [trace] in H2. destruct (r_subst (w tr) log c) as [x|] eqn:Es.
    2: { cbn in H2. injection H2 as <- <-. right. auto. }
    rewrite (bind_ok (unwrap (Some x)) _ _ x (Shell i2 tr) eq_refl) in H2.
    assert (C2 : nget pr (fds i2) <> None) by (change (fds i2) with (nremove pw t); rewrite nget_nremove, Hg; eqbs; discriminate).
    rewrite (seq_ok _ _ _ _ _ (close_ok pr i2 tr C2)) in H2.
    set (i3 := with_fds (nremove pr (fds i2)) i2) in *.
    assert (G3 : forall fd, nget fd (fds i3) = nget fd (fds (im s))).
    { intros fd. change (fds i3) with (nremove pr (nremove pw t)). rewrite !nget_nremove, Hg. eqbs; auto; congruence. }
    assert (C3 : nget pr (fds i3) = None) by (rewrite G3; exact P4).
    rewrite (seq_ok _ _ _ _ _ (close_ignored_not pr i3 tr C3)) in H2.
    cbn [ret] in H2. unfold ret in H2. injection H2 as <- <-. left. split; [eauto|]. split; [exact G3|].
    cbn [im]. destruct (im s). reflexivity.
  - destruct (subst_pipe_ok _ _ _ _ Ht H1) as [(-> & E & ->)|(_ & pr & pw & t & -> & _)].
    + right. cbn. auto.
    + contradiction F.
Qed.

Example C111_example :
  let '(o, s) := substitute ex_os [] None ex_shell in
  o = OOk (lit "out") /\ fds (im s) = fds (im ex_shell) /\ next_pipe (im s) = next_pipe (im ex_shell) + 1.
Proof. vm_compute. repeat split. Qed.

(** ** C112 *)

(** The descriptors with which the copy runs the commands: those of the shell,
    but standard output and standard error are the pipe. *)
Definition capturing (t : fdtable) (n : Z) (fd : Z) : option desc :=
  if Z.eqb fd 1 || Z.eqb fd 2 then Some (Desc (PipeW n) false) else nget fd t.

Lemma subst_child_wired wc n s w pr pw s1 c : table (fds (im s)) -> 
  nget 0 (fds (im s)) <> None -> nget 1 (fds (im s)) <> None -> nget 2 (fds (im s)) <> None ->
  subst_pipe w s = (OOk (pr, pw), s1) ->
  exists t, table t /\ (forall fd, nget fd t = capturing (fds (im s)) (next_pipe (im s)) fd) /\
    run_subst wc n (im s1) (pr, pw) c =
    (catch (Eval.eval wc n c) ;; stop (OExit 0)) (Shell (with_next_pipe (next_pipe (im s) + 1) (with_fds t (im s))) []).
Proof.
  intros Ht H0 H1 H2 H.
  destruct (subst_pipe_ok _ _ _ _ Ht H) as [(E & _)|(_ & pr' & pw' & t & E & P1 & P2 & P3 & P4 & P5 & T & Hg & ->)]; [discriminate|].
  injection E as -> ->.
  assert (Hr : forall x, 0 <= x <= 2 -> pr' <> x /\ pw' <> x).
  { intros x Hx. assert (x = 0 \/ x = 1 \/ x = 2) as [->|[->| ->]] by lia; split; congruence. }
  destruct (Hr 0) as [R0 W0]; [lia|]. destruct (Hr 1) as [R1 W1]; [lia|]. destruct (Hr 2) as [R2 W2]; [lia|].
  unfold run_subst, subst_child. cbn [im fst snd].
  set (i1 := with_next_pipe (next_pipe (im s) + 1) (with_fds t (im s))).
  set (n0 := next_pipe (im s)) in *.
  change i1 with (with_fds t i1).
  assert (Gw : nget pw' t = Some (Desc (PipeW n0) false)) by (rewrite Hg; eqbs; reflexivity).
  rewrite (seq_ok _ _ _ _ _ (dup2_ok' pw' 1 _ t i1 [] Gw W1)). cbn [d_obj].
  set (t1 := ninsert 1 (Desc (PipeW n0) false) t).
  assert (T1 : table t1) by (apply table_ninsert; [exact T|lia]).
  assert (Gw1 : nget pw' t1 = Some (Desc (PipeW n0) false)).
  { unfold t1. rewrite nget_ninsert by apply T. rewrite Gw. eqbs; reflexivity. }
  rewrite (seq_ok _ _ _ _ _ (dup2_ok' pw' 2 _ t1 i1 [] Gw1 W2)). cbn [d_obj].
  set (t2 := ninsert 2 (Desc (PipeW n0) false) t1).
  assert (T2 : table t2) by (apply table_ninsert; [exact T1|lia]).
  assert (G2 : forall fd, nget fd t2 = if Z.eqb fd 2 then Some (Desc (PipeW n0) false) else if Z.eqb fd 1 then Some (Desc (PipeW n0) false) else nget fd t).
  { intros fd. unfold t2, t1. rewrite nget_ninsert by apply T1. unfold t1. rewrite nget_ninsert by apply T. reflexivity. }
  assert (C1 : nget pw' t2 <> None) by (rewrite G2, Gw; eqbs; discriminate).
  rewrite (seq_ok _ _ _ _ _ (close_ok' pw' t2 i1 [] C1)).
  assert (C2 : nget pr' (nremove pw' t2) <> None) by (rewrite nget_nremove, G2, Hg; eqbs; discriminate).
  rewrite (seq_ok _ _ _ _ _ (close_ok' pr' (nremove pw' t2) i1 [] C2)).
  exists (nremove pr' (nremove pw' t2)). split; [apply table_nremove, table_nremove, T2|]. split; [|reflexivity].
  intros fd. unfold capturing. rewrite !nget_nremove, G2, Hg. eqbs; cbn [orb]; auto; congruence.
Qed.

(** What the [k]-th of [len] programs in a command substitution has open before
    its own redirections: standard error is the pipe the shell reads from, and so
    is the standard output of the last program. *)
Definition captured (t : fdtable) (n : Z) (len k : nat) (fd : Z) : option desc :=
  if Z.eqb fd 0 then match k with O => nget 0 t | S k' => Some (Desc (PipeR (n + 1 + Z.of_nat k')) false) end
  else if Z.eqb fd 1 then
    if Nat.eqb (S k) len then Some (Desc (PipeW n) false) else Some (Desc (PipeW (n + 1 + Z.of_nat k)) false)
  else if Z.eqb fd 2 then Some (Desc (PipeW n) false)
  else nget fd t.

(** A pipeline of programs in a command substitution: the last one has the pipe
    as its standard output, unless it is redirected; the output of the others
    goes to the next program.  Apart from that only standard error refers to the
    pipe, and nobody but the shell can read from it.  Missing: that standard
    error is left alone, see below. *)
Theorem C112_captured_partial : forall w s pr pw s1 wc d b bg scs scs' c o s2 k img ch r w2 m path av e s3,
  table (fds (im s)) -> no_future_pipe (fds (im s)) (next_pipe (im s)) ->
  nget 0 (fds (im s)) <> None -> nget 1 (fds (im s)) <> None -> nget 2 (fds (im s)) <> None ->
  subst_pipe w s = (OOk (pr, pw), s1) ->
  scs <> [] -> wf_pipeline (Pipeline b (map CSimple scs) bg) -> Forall2 (program (im s)) scs scs' ->
  parse (r_pipeline (Pipeline b (map CSimple scs) bg)) = Some c ->
  run_subst wc (S d) (im s1) (pr, pw) c = (o, s2) ->
  nth_error (forks (trace s2)) k = Some (img, ch, r) ->
  run_child w2 m img ch = (OExec path av e, s3) ->
  exists sc, nth_error scs' k = Some sc /\ av = sc_name sc :: words_in sc /\
  (forall fd, kept (nget fd (fds (im s3))) =
    kept (redirected (redirections_in sc) (captured (fds (im s)) (next_pipe (im s)) (List.length scs) k) fd)) /\
  (forall fd x, kept (nget fd (fds (im s3))) = Some x -> d_obj x <> PipeR (next_pipe (im s)) /\
    (d_obj x = PipeW (next_pipe (im s)) -> fd = 2 \/ fd = 1 /\ S k = List.length scs)).
Proof.
  intros w s pr pw s1 wc d b bg scs scs' c o s2 k img ch r w2 m path av e s3 Ht Hfut H0 H1 H2 Hp Hne Hw HF Hc Hrun Hk Hx.
  destruct (subst_child_wired wc (S d) s w pr pw s1 c Ht H0 H1 H2 Hp) as (t & T & Hg & E). rewrite E in Hrun. clear E.
  set (sc0 := Shell (with_next_pipe (next_pipe (im s) + 1) (with_fds t (im s))) []) in *.
  assert (HF' : Forall2 (program (im sc0)) scs scs').
  { clear -HF. induction HF as [|x x' l l' Hx HF IH]; constructor; [apply (program_same (im s)); [reflexivity..|exact Hx]|exact IH]. }
  apply seq_inv in Hrun.
  assert (Hex : exists o1 , exec_text wc (S d) (r_pipeline (Pipeline b (map CSimple scs) bg)) sc0 = (o1, s2)).
  { unfold exec_text. rewrite Hc. destruct Hrun as [(a & s4 & Q1 & Q2)|(o1 & Q1 & _ & _)].
    - cbn in Q2. injection Q2 as _ <-. unfold catch in Q1. destruct (Eval.eval wc (S d) c sc0) as [[]]; cbn in Q1; injection Q1 as _ <-; eauto.
    - unfold catch in Q1. destruct (Eval.eval wc (S d) c sc0) as [[]]; cbn in Q1; injection Q1 as _ <-; eauto. }
  destruct Hex as (o1 & Hex).
  assert (G0 : nget 0 (fds (im sc0)) <> None) by (cbn [sc0 im fds with_fds with_next_pipe]; rewrite Hg; exact H0).
  assert (G1 : nget 1 (fds (im sc0)) <> None) by (cbn [sc0 im fds with_fds with_next_pipe]; rewrite Hg; discriminate).
  assert (Hk' : forall new, trace s2 = new ++ trace sc0 -> nth_error (forks new) k = Some (img, ch, r)).
  { intros new En. cbn [sc0 trace] in En. rewrite app_nil_r in En. rewrite <- En. exact Hk. }
  destruct (C70_program_runs wc d b bg scs scs' sc0 o1 s2 k img ch r w2 m _ s3 Hne Hw HF' T G0 G1 Hex Hk' Hx) as (sc & N & HC).
  exists sc. split; [exact N|].
  destruct HC as [(p' & e' & tr & E & _ & _ & Hfd & _)|[[E _]|[E _]]]; [|discriminate|discriminate].
  injection E as _ -> _. split; [reflexivity|].
  assert (Hall : forall fd, kept (nget fd (fds (im s3))) =
    kept (redirected (redirections_in sc) (captured (fds (im s)) (next_pipe (im s)) (List.length scs) k) fd)).
  { intros fd. rewrite Hfd. apply redirected_kept.
    unfold piped, captured. cbn [sc0 im fds with_fds with_next_pipe next_pipe].
    assert (El : List.length scs' = List.length scs) by (clear -HF; induction HF; cbn; congruence).
    rewrite El. rewrite !Hg. unfold capturing. f_equal.
    destruct (Z.eqb_spec fd 0) as [->|]; [destruct k; reflexivity|].
    destruct (Z.eqb_spec fd 1) as [->|]; [reflexivity|]. cbn [orb]. reflexivity. }
  split; [exact Hall|]. intros fd x Hx2. rewrite Hall in Hx2. clear -Hx2 Hfut.
  set (n := next_pipe (im s)) in *. set (t := fds (im s)) in *.
  assert (Hk : forall y : option desc, kept y = Some x -> y = Some x).
  { intros [y|] E; cbn in E; [destruct (d_cloexec y); [discriminate|exact E]|discriminate]. }
  apply Hk in Hx2. clear Hk.
  assert (Hcap : captured t n (List.length scs) k fd = Some x -> d_obj x <> PipeR n /\ (d_obj x = PipeW n -> fd = 2 \/ fd = 1 /\ S k = List.length scs)).
  { unfold captured. clear Hx2. intros E.
    assert (Hold : nget fd t = Some x -> d_obj x <> PipeR n /\ (d_obj x = PipeW n -> False)).
    { intros Eo. split; [intros Er; assert (n < n) by (apply (Hfut fd x n Eo); auto); lia|
        intros Er; assert (n < n) by (apply (Hfut fd x n Eo); auto); lia]. }
    destruct (Z.eqb_spec fd 0) as [->|].
    { destruct k as [|k']; [destruct (Hold E); tauto|]. injection E as <-. cbn. split; [intros Er; injection Er; lia|discriminate]. }
    destruct (Z.eqb_spec fd 1) as [->|].
    { destruct (Nat.eqb_spec (S k) (List.length scs)); injection E as <-; cbn; (split; [discriminate|]); [tauto|].
      intros Er. injection Er. lia. }
    destruct (Z.eqb_spec fd 2) as [->|].
    { injection E as <-. cbn. split; [discriminate|auto]. }
    destruct (Hold E). tauto. }
  unfold redirected in Hx2. destruct (Z.eqb_spec fd 0) as [->|].
  { destruct (find is_input (rev (redirections_in sc))); [|exact (Hcap Hx2)]. injection Hx2 as <-. cbn. split; discriminate. }
  destruct (Z.eqb_spec fd 1) as [->|].
  { destruct (find _ (rev (redirections_in sc))); [|exact (Hcap Hx2)]. injection Hx2 as <-. cbn. split; discriminate. }
  exact (Hcap Hx2).
Qed.

(** Standard error is captured as well: for every program of every such
    pipeline, whatever its redirections are. *)
Theorem C112_stderr_refuted : forall w s pr pw s1 wc d b bg scs scs' c o s2 k img ch r w2 m path av e s3,
  table (fds (im s)) -> no_future_pipe (fds (im s)) (next_pipe (im s)) ->
  nget 0 (fds (im s)) <> None -> nget 1 (fds (im s)) <> None -> nget 2 (fds (im s)) <> None ->
  subst_pipe w s = (OOk (pr, pw), s1) ->
  scs <> [] -> wf_pipeline (Pipeline b (map CSimple scs) bg) -> Forall2 (program (im s)) scs scs' ->
  parse (r_pipeline (Pipeline b (map CSimple scs) bg)) = Some c ->
  run_subst wc (S d) (im s1) (pr, pw) c = (o, s2) ->
  nth_error (forks (trace s2)) k = Some (img, ch, r) ->
  run_child w2 m img ch = (OExec path av e, s3) ->
  kept (nget 2 (fds (im s3))) = Some (Desc (PipeW (next_pipe (im s))) false) /\
  nget pr (fds (im s1)) = Some (Desc (PipeR (next_pipe (im s))) false).
Proof.
  intros w s pr pw s1 wc d b bg scs scs' c o s2 k img ch r w2 m path av e s3 Ht Hfut H0 H1 H2 Hp Hne Hw HF Hc Hrun Hk Hx.
  destruct (C112_captured_partial w s pr pw s1 wc d b bg scs scs' c o s2 k img ch r w2 m path av e s3 Ht Hfut H0 H1 H2 Hp Hne Hw HF Hc Hrun Hk Hx)
    as (sc & _ & _ & E & _). split; [rewrite E; reflexivity|].
  destruct (subst_pipe_ok _ _ _ _ Ht Hp) as [(E1 & _)|(_ & pr' & pw' & t & E1 & P1 & P2 & P3 & P4 & P5 & T & Hg & ->)]; [discriminate|].
  injection E1 as -> ->. cbn [im fds with_next_pipe with_fds]. rewrite Hg, Z.eqb_refl. reflexivity.
Qed.

Example C112_example :
  match parse (lit "a x | b 2> f"), subst_pipe ex_os ex_shell with
  | Some c, (OOk p, s1) =>
      let '(o, s2) := run_subst ex_os 5 (im s1) p c in
      o = OExit 0 /\
      match forks (trace s2) with
      | [(i1, c1, _); (i2, c2, _)] =>
          after_exec (fds (im (snd (run_child ex_os 3 i1 c1)))) =
            [(0, Desc (Other 0) false); (1, Desc (PipeW 1) false); (2, Desc (PipeW 0) false)] /\
          after_exec (fds (im (snd (run_child ex_os 3 i2 c2)))) =
            [(0, Desc (PipeR 1) false); (1, Desc (PipeW 0) false); (2, Desc (PipeW 0) false)]
      | _ => False
      end
  | _, _ => False
  end.
Proof. vm_compute. repeat split. Qed.

(** ** C113 *)

(** What is true at any moment. *)
Lemma flow_inv cap bytes f : flow_steps cap (flow_start bytes) f ->
  got f ++ in_pipe f ++ to_write f = bytes /\ (List.length (in_pipe f) <= cap)%nat /\
  (ended f = true -> to_write f = [] /\ (List.length bytes <= cap)%nat) /\ (at_ f <> Waiting -> ended f = true) /\
  (at_ f = Waiting -> got f = []) /\ (at_ f = Finished -> in_pipe f = []).
Proof.
  remember (flow_start bytes) as f0. induction 1 as [|f g h Hs IH Hst]; subst.
  - cbn. repeat split; auto; try discriminate; try lia; congruence.
  - specialize (IH eq_refl). destruct IH as (I1 & I2 & I3 & I4 & I5 & I6).
    inversion Hst; subst g h; cbn [got in_pipe to_write ended at_] in *.
    + rewrite <- app_assoc. repeat split; auto; try discriminate; try (rewrite app_length; lia).
      intros ->. specialize (I4 ltac:(discriminate)). discriminate.
    + rewrite !app_nil_r in *. repeat split; auto.
      destruct r; [rewrite (I5 eq_refl) in *; cbn [app] in *; rewrite <- I1; exact I2|specialize (I4 ltac:(discriminate)); discriminate..].
    + repeat split; auto; try discriminate; apply I3; reflexivity.
    + rewrite <- !app_assoc in *. rewrite app_length in I2.
      split; [exact I1|]. split; [lia|]. split; [exact I3|]. split; [auto|]. split; discriminate.
    + split; [exact I1|]. split; [exact I2|]. split; [exact I3|]. split; [auto|]. split; [discriminate|auto].
Qed.

(** The shell gets past a substitution only when everything the commands write
    fits into the pipe, since it waits for them before it reads.  Otherwise both
    processes end up waiting for each other: no run gets past it, and every run
    can only go on to a state in which neither process can move. *)
Theorem C113_size_refuted : forall cap bytes, (cap < List.length bytes)%nat ->
  forall f, flow_steps cap (flow_start bytes) f ->
  at_ f = Waiting /\ ended f = false /\
  exists g, flow_steps cap f g /\ at_ g = Waiting /\ in_pipe g = firstn cap bytes /\ forall h, ~ flow_step cap g h.
Proof.
  intros cap bytes Hb f H. destruct (flow_inv _ _ _ H) as (I1 & I2 & I3 & I4 & I5 & I6).
  assert (E : ended f = false) by (destruct (ended f); [destruct (I3 eq_refl); lia|reflexivity]).
  assert (A : at_ f = Waiting) by (destruct (at_ f); [reflexivity|rewrite I4 in E by discriminate; discriminate..]).
  split; [exact A|]. split; [exact E|].
  destruct f as [t p e a g]. cbn [got in_pipe to_write ended at_] in *. subst e a. rewrite (I5 eq_refl) in *. cbn [app] in I1.
  set (room := (cap - List.length p)%nat).
  assert (Hlen : List.length bytes = (List.length p + List.length t)%nat) by (rewrite <- I1; apply app_length).
  assert (Hp : in_pipe (Flow (skipn room t) (p ++ firstn room t) false Waiting []) = firstn cap bytes).
  { cbn [in_pipe]. rewrite <- I1, firstn_app. rewrite (firstn_all2 p) by lia. reflexivity. }
  exists (Flow (skipn room t) (p ++ firstn room t) false Waiting []). split; [|split; [reflexivity|split; [exact Hp|]]].
  - destruct (Nat.eq_dec room 0) as [Er|Er].
    + rewrite Er. cbn [firstn skipn]. rewrite app_nil_r. constructor.
    + eapply fs_step; [constructor|].
      replace (Flow t p false Waiting []) with (Flow (firstn room t ++ skipn room t) p false Waiting []) by (rewrite firstn_skipn; reflexivity).
      apply f_write.
      * intros E0. apply (f_equal (@List.length N)) in E0. rewrite firstn_length in E0. cbn in E0. lia.
      * rewrite firstn_length. lia.
  - cbn [in_pipe] in Hp. intros h Hs. inversion Hs; subst.
    + match goal with L : (_ + _ <= cap)%nat |- _ => rewrite Hp, firstn_length in L; rename L into L0 end.
      match goal with N0 : ?a <> [] |- _ => destruct a; [congruence|cbn in L0; lia] end.
    + match goal with E0 : [] = skipn room t |- _ => apply (f_equal (@List.length N)) in E0; rewrite skipn_length in E0; cbn in E0 end.
      lia.
Qed.

(** When it fits, no run can go on for ever or get stuck before the shell has
    read everything, and then it has read exactly what was written. *)
Theorem C113_fits_partial : forall cap bytes, (List.length bytes <= cap)%nat ->
  (forall f, flow_steps cap (flow_start bytes) f -> at_ f = Finished -> got f = bytes) /\
  (forall f, flow_steps cap (flow_start bytes) f -> at_ f <> Finished -> exists g, flow_step cap f g) /\
  (forall run : nat -> flow, run O = flow_start bytes -> ~ forall i, flow_step cap (run i) (run (S i))).
Proof.
  intros cap bytes Hb. split; [|split].
  - intros f H Hf. destruct (flow_inv _ _ _ H) as (I1 & I2 & I3 & I4 & I5 & I6).
    rewrite (I6 Hf) in I1. destruct I3 as [I3 _]; [apply I4; rewrite Hf; discriminate|]. rewrite I3 in I1.
    cbn [app] in I1. rewrite app_nil_r in I1. exact I1.
  - intros f H Hf. destruct (flow_inv _ _ _ H) as (I1 & I2 & I3 & I4 & I5 & I6).
    destruct f as [t p e a g]. cbn [got in_pipe to_write ended at_] in *. destruct e.
    + destruct a; [eexists; apply f_waited| |congruence]. destruct p as [|x p]; [eexists; apply f_done|].
      eexists. apply (f_read cap t [x] p). discriminate.
    + destruct t as [|x t]; [eexists; apply f_end|].
      eexists. rewrite <- (app_nil_r (x :: t)). apply f_write; [discriminate|].
      rewrite <- I1 in Hb. rewrite !app_length in Hb. lia.
  - intros run H0 Hs.
    pose (measure := fun f => (2 * List.length (to_write f) + List.length (in_pipe f) + (if ended f then 0 else 1)
      + match at_ f with Waiting => 2 | Reading => 1 | Finished => 0 end)%nat).
    assert (Hdec : forall f g, flow_step cap f g -> (measure g < measure f)%nat).
    { intros f g Hst. inversion Hst; subst; unfold measure; cbn [to_write in_pipe ended at_]; rewrite ?app_length; try lia;
        (match goal with N0 : ?a <> [] |- _ => destruct a; [congruence|cbn [List.length]; lia] end). }
    assert (Hm : forall i, (measure (run i) + i <= measure (run O))%nat).
    { induction i as [|i IH]; [lia|]. specialize (Hdec _ _ (Hs i)). lia. }
    specialize (Hm (S (measure (run O)))). lia.
Qed.

(** A pipe of two bytes: three are too many. *)
Example C113_example :
  flow_steps 2 (flow_start [1; 2; 3]%N) (Flow [3]%N [1; 2]%N false Waiting []) /\
  (exists f, flow_steps 2 (flow_start [1; 2]%N) f /\ at_ f = Finished /\ got f = [1; 2]%N).
Proof.
  split.
  - eapply fs_step; [apply fs_refl|]. apply (f_write 2 [1; 2]%N [3]%N [] Waiting []); [discriminate|cbn; lia].
  - exists (Flow [] [] true Finished [1; 2]%N). split; [|split; reflexivity].
    eapply fs_step; [eapply fs_step; [eapply fs_step; [eapply fs_step; [eapply fs_step; [apply fs_refl|]|]|]|]|].
    + apply (f_write 2 [1; 2]%N [] [] Waiting []); [discriminate|cbn; lia].
    + apply f_end.
    + apply f_waited.
    + apply (f_read 2 [] [1; 2]%N []). discriminate.
    + apply f_done.
Qed.

Print Assumptions C111_unchanged.
Print Assumptions C112_captured_partial.
Print Assumptions C112_stderr_refuted.
Print Assumptions C113_size_refuted.
Print Assumptions C113_fits_partial.
