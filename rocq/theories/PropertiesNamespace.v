(** Property C120: [export context], and C53 for it. *)
From Verif Require Import Base BaseFacts Lexer LexerSpec Ast Parser GrammarSpec.
From Verif Require Import Context.
From Verif Require ContextSpec ContextFacts ContextLaws.
From Verif Require Import Alias Expand ExpandSpec ExpandFacts ExpandLaws Jobs Shell Builtins Eval.
From Verif Require Import EvalSpec EvalFacts EvalLaws EvalKeeps RunSpec RunLaws.
From Verif Require Import PropertiesCrash PropertiesBuiltins.
From Verif Require EvalStack EvalHistory PropertiesEval PropertiesContext.
Local Open Scope Z_scope.

(** ** Vocabulary *)

(** The state in which the file is run: it is open, the signals are blocked, and
    there is a new scope. *)
Definition inside (file : str) (s : shell) : shell :=
  Shell (with_cm (push_context_new (cm (im s)))
     (with_fds (ninsert (lowest (fds (im s))) (Desc (OpenFile file for_reading) true) (fds (im s))) (masked_as true (im s))))
    (EOpen file for_reading :: trace s).
(** The file can be opened and read, and its text is [t]. *)
Definition file_text (w : os) (s : shell) (file t : str) : Prop :=
  r_open (w (trace s)) file for_reading = true /\ r_read (w (EOpen file for_reading :: trace s)) file = Some t.
(** The file is run, and the shell crashes. *)
Definition crashes_inside (w : os) (d : nat) (file : str) (s : shell) : Prop :=
  exists t c, file_text w s file t /\ parse t = Some c /\ fst (exec_text w d t (inside file s)) = OPanic.

(** ** Facts *)

Lemma open_inside w file s : r_open (w (trace s)) file for_reading = true ->
  sys_open w file for_reading (blocked s) = (OOk (Some (lowest (fds (im s)))),
    Shell (with_fds (ninsert (lowest (fds (im s))) (Desc (OpenFile file for_reading) true) (fds (im s))) (masked_as true (im s)))
      (EOpen file for_reading :: trace s)).
Proof. intros H. unfold sys_open, ask, bind. change (trace (blocked s)) with (trace s). rewrite H. reflexivity. Qed.

(** The file was read and is a command. *)
Lemma load_runs w d file s t c : file_text w s file t -> parse t = Some c ->
  create_context_from_file w (evaluate w d) file (blocked s) =
  match exec_text w d t (inside file s) with
  | (OOk _, s2) =>
      match pop_context (cm (im s2)) with
      | Some m' => (OOk (get_context (cm (im s2))), snd (sys_close_ignored (lowest (fds (im s)))
                      (Shell (with_cm m' (im s2)) (ENamespace true :: trace s2))))
      | None => (OPanic, s2)
      end
  | (OErr e, s2) => (OErr (EFile e), snd (sys_close_ignored (lowest (fds (im s))) (Shell (im s2) (ENamespace false :: trace s2))))
  | (o, s2) => (lift o, s2)
  end.
Proof.
  intros [Hopen Hread] Hparse. unfold create_context_from_file. rewrite (bind_ok _ _ _ _ _ (open_inside w file s Hopen)).
  set (f := lowest (fds (im s))). unfold while_open, catch at 1, bind at 1.
  set (s1 := Shell _ (EOpen file for_reading :: trace s)).
  rewrite (bind_ok (ask w (fun r => r_read r file)) _ s1 (Some t) s1) by (unfold ask; change (trace s1) with (EOpen file for_reading :: trace s); rewrite Hread; reflexivity).
  unfold parse_text. rewrite Hparse. rewrite (bind_ok (ret c) _ s1 c s1 eq_refl).
  rewrite (seq_ok (on_cm push_context_new) _ s1 tt (inside file s) eq_refl).
  unfold exec_text. rewrite Hparse. unfold eval, bind at 1, catch.
  destruct (eval_complete (evaluate w d) c (inside file s)) as [[z|e| |z|p v e| |] s2]; try reflexivity.
  rewrite (bind_ok (look cm) _ s2 (cm (im s2)) s2 eq_refl). destruct (pop_context (cm (im s2))) as [m'|] eqn:Ep; [|reflexivity].
  cbn [unwrap]. rewrite (bind_ok (ret m') _ s2 m' s2 eq_refl). reflexivity.
Qed.
(** It was not. *)
Lemma load_fails w d file s : (forall t c, file_text w s file t -> parse t <> Some c) ->
  exists e s2, create_context_from_file w (evaluate w d) file (blocked s) = (OErr e, s2).
Proof.
  intros Hno. unfold create_context_from_file. destruct (r_open (w (trace s)) file for_reading) eqn:Hopen.
  2:{ unfold sys_open, ask, bind. change (trace (blocked s)) with (trace s). rewrite Hopen. do 2 eexists. reflexivity. }
  rewrite (bind_ok _ _ _ _ _ (open_inside w file s Hopen)).
  set (f := lowest (fds (im s))). unfold while_open, catch at 1, bind at 1.
  set (s1 := Shell _ (EOpen file for_reading :: trace s)).
  rewrite (bind_ok (ask w (fun r => r_read r file)) _ s1 (r_read (w (EOpen file for_reading :: trace s)) file) s1 eq_refl).
  destruct (r_read (w (EOpen file for_reading :: trace s)) file) as [t|] eqn:Hread; [|do 2 eexists; reflexivity].
  unfold parse_text. destruct (parse t) as [c|] eqn:Hparse; [|do 2 eexists; reflexivity].
  exfalso. apply (Hno t c); [split; assumption|exact Hparse].
Qed.
(** The scope of the file is on top of the stack at the end, so it can be left. *)
Lemma inside_pops w d file s t st s2 : stack (cm (im s)) <> [] -> exec_text w d t (inside file s) = (OOk st, s2) ->
  exists m', pop_context (cm (im s2)) = Some m'.
Proof.
  intros Hs H. unfold exec_text in H. destruct (parse t) as [c|]; [|discriminate].
  assert (K : EvalStack.grown (inside file s) s2).
  { eapply (EvalStack.kg_complete (evaluate w d)); [exact (EvalStack.evaluate_grown w d)|exact H|right; exact I]. }
  destruct K as (new & extra & _ & E & _).
  - cbn. destruct (stack (cm (im s))); discriminate.
  - unfold pop_context. destruct (Nat.eqb_spec (List.length (stack (cm (im s2)))) 1) as [E1|_]; [exfalso|eauto].
    rewrite E in E1. cbn [inside im cm with_cm push_context_new stack] in E1. rewrite !app_length in E1. cbn in E1.
    destruct (stack (cm (im s))); [congruence|]. cbn in E1. lia.
Qed.
Lemma load_crash w d file s : stack (cm (im s)) <> [] ->
  fst (create_context_from_file w (evaluate w d) file (blocked s)) = OPanic <-> crashes_inside w d file s.
Proof.
  intros Hs.
  assert (Hdec : (exists t c, file_text w s file t /\ parse t = Some c) \/ (forall t c, file_text w s file t -> parse t <> Some c)).
  { unfold file_text. destruct (r_open (w (trace s)) file for_reading); [|right; intros t c [F _]; discriminate].
    destruct (r_read (w (EOpen file for_reading :: trace s)) file) as [t|]; [|right; intros t c [_ F]; discriminate].
    destruct (parse t) as [c|] eqn:E; [left; exists t, c; auto|]. right. intros t' c [_ E']. injection E' as <-. congruence. }
  destruct Hdec as [(t & c & Ht & Hc)|Hno].
  - rewrite (load_runs w d file s t c Ht Hc). transitivity (fst (exec_text w d t (inside file s)) = OPanic).
    + destruct (exec_text w d t (inside file s)) as [[z|e| |z|p v e| |] s2] eqn:E; try (cbn; split; congruence).
      destruct (inside_pops w d file s t z s2 Hs E) as [m' ->]. cbn. split; discriminate.
    + split; [intros H; exists t, c; auto|]. intros (t' & c' & [H1 H2] & _ & H). destruct Ht as [_ Ht]. rewrite H2 in Ht. injection Ht as ->. exact H.
  - destruct (load_fails w d file s Hno) as (e & s2 & ->). cbn. split; [discriminate|].
    intros (t & c & Ht & Hc & _). destruct (Hno t c Ht Hc).
Qed.

(** ** C53: [export context] *)

(** The word names the file for the namespace. *)
Definition names (x ns file : str) : Prop :=
  In (ch "=") x /\ ContextSpec.upto (ch "=") x = ns /\ ContextSpec.upto (ch "=") (ContextSpec.past (ch "=") x) = file.

Lemma names_split x ns file : names x ns file ->
  contains_char (ch "=") x = true /\ nth 0 (split_char (ch "=") x) [] = ns /\ nth 1 (split_char (ch "=") x) [] = file.
Proof.
  intros (Hin & <- & <-). apply contains_char_In in Hin. split; [exact Hin|].
  rewrite ContextFacts.split_char_upto, Hin. split; [reflexivity|]. cbn [nth]. rewrite ContextFacts.split_char_upto. reflexivity.
Qed.

(** [export context ...] crashes exactly when the file it reads crashes the shell,
    or for [self] when $0 is not set in the innermost scope. *)
Theorem C53_context_crash : forall w d (ws vs : list str) s, sget (lit "export") (al (im s)) = None ->
  Forall written_arg ws -> Forall2 (ordinary (expand_var (cm (im s)))) ws (lit "context" :: vs) -> stack (cm (im s)) <> [] ->
  fst (exec_text w (S d) (r_words (lit "export" :: ws)) s) = OPanic <->
  exists x xs, vs = x :: xs /\
    ((exists ns file, names x ns file /\ file <> lit "self" /\ crashes_inside w d file s) \/
     (x = lit "self" /\ sget (lit "0") (vars (deref (get_context (cm (im s))) (cm (im s)))) = None) \/
     (~ In (ch "=") x /\ x <> lit "self" /\ crashes_inside w d (lit "context") s)).
Proof.
  intros w d ws vs s Ha Hw Ho Hs.
  rewrite (exec_args_line w d (lit "export") ws (lit "context" :: vs) s eq_refl ltac:(discriminate) Ha Hw Ho), crash_lift, call_export.
  unfold export_cmd. cbn [words_of sc_suffix word_list]. change (contains_str (lit "-p") (lit "context")) with false.
  change (str_eqb (lit "context") (lit "context")) with true. cbn iota. unfold export_context.
  destruct vs as [|x xs]; [cbn; split; [discriminate|intros (x & xs & E & _); discriminate]|].
  assert (HL : forall file ns, fst ((l <- create_context_from_file w (evaluate w d) file ;; on_cm (add_context ns l)) (blocked s)) = OPanic <-> crashes_inside w d file s).
  { intros file ns. rewrite <- load_crash by exact Hs. unfold bind.
    destruct (create_context_from_file w (evaluate w d) file (blocked s)) as [[l| | | | | |] s2]; cbn; split; congruence. }
  destruct (contains_char (ch "=") x) eqn:E.
  - apply contains_char_In in E.
    assert (Hn : names x (ContextSpec.upto (ch "=") x) (ContextSpec.upto (ch "=") (ContextSpec.past (ch "=") x))) by (split; [exact E|split; reflexivity]).
    destruct (names_split _ _ _ Hn) as (_ & -> & ->).
    destruct (str_eqb_spec (ContextSpec.upto (ch "=") (ContextSpec.past (ch "=") x)) (lit "self")) as [Es|Es].
    + cbn. split; [discriminate|]. intros (y & ys & Ey & H). injection Ey as <- <-.
      destruct H as [(ns & file & (_ & <- & <-) & F & _)|[[-> _]|[F _]]]; [destruct (F Es)| |contradiction]. cbn in E. intuition discriminate.
    + rewrite HL. split.
      * intros H. exists x, xs. split; [reflexivity|]. left. do 2 eexists. split; [exact Hn|]. auto.
      * intros (y & ys & Ey & H). injection Ey as <- <-.
        destruct H as [(ns & file & (_ & <- & <-) & _ & H)|[[-> _]|[F _]]]; [exact H| |contradiction]. cbn in E. intuition discriminate.
  - apply contains_char_notIn in E. destruct (str_eqb_spec x (lit "self")) as [->|Es].
    + rewrite (bind_ok (look cm) _ (blocked s) (cm (im s)) (blocked s) eq_refl). unfold bind, ctx_get_var.
      destruct (sget (lit "0") (vars (deref (get_context (cm (im s))) (cm (im s))))) as [v|] eqn:Ev; cbn; split; try discriminate; try reflexivity.
      * intros (y & ys & Ey & H). injection Ey as <- <-. destruct H as [(ns & file & (F & _) & _)|[[_ F]|(_ & F & _)]]; [contradiction|discriminate|congruence].
      * intros _. do 2 eexists. split; [reflexivity|]. auto.
    + rewrite HL. split.
      * intros H. exists x, xs. split; [reflexivity|]. auto.
      * intros (y & ys & Ey & H). injection Ey as <- <-. destruct H as [(ns & file & (F & _) & _)|[[F _]|(_ & _ & H)]]; [contradiction|congruence|exact H].
Qed.

(** ** C120 *)

(** [export context ns=file]: the file is run in a scope of its own, and
    afterwards [ns::x] is the variable or function [x] of that scope.  The other
    namespaces are as the file left them. *)
Theorem C120_file_partial : forall w d (ws : list str) (x : str) (more : list str) ns file s t c st s2,
  sget (lit "export") (al (im s)) = None ->
  Forall written_arg ws -> Forall2 (ordinary (expand_var (cm (im s)))) ws (lit "context" :: x :: more) ->
  names x ns file -> file <> lit "self" -> ContextSpec.cm_wf (cm (im s)) ->
  file_text w s file t -> parse t = Some c -> exec_text w d t (inside file s) = (OOk st, s2) ->
  exists s', exec_text w (S d) (r_words (lit "export" :: ws)) s = (OOk 0, s') /\
    trace s' = ENamespace true :: trace s2 /\
    (forall n y, ContextSpec.qualified n ns y ->
       get_var n (cm (im s')) = sget y (vars (deref (get_context (cm (im s2))) (cm (im s2)))) /\
       get_function n (cm (im s')) = sget y (functions (deref (get_context (cm (im s2))) (cm (im s2))))) /\
    (forall n ns' y, ns' <> ns -> ContextSpec.qualified n ns' y -> get_var n (cm (im s')) = get_var n (cm (im s2))) /\
    stack (cm (im s2)) = stack (cm (im s')) ++ [get_context (cm (im s2))] /\ heap (cm (im s')) = heap (cm (im s2)) /\
    al (im s') = al (im s2) /\ js (im s') = js (im s2) /\ env (im s') = env (im s2) /\ exit_status (im s') = exit_status (im s2).
Proof.
  intros w d ws x more ns file s t c st s2 Ha Hw Ho Hn Hself Hwf Ht Hc H.
  rewrite (exec_args_line w d (lit "export") ws (lit "context" :: x :: more) s eq_refl ltac:(discriminate) Ha Hw Ho), call_export.
  unfold export_cmd. cbn [words_of sc_suffix word_list]. change (contains_str (lit "-p") (lit "context")) with false.
  change (str_eqb (lit "context") (lit "context")) with true. cbn iota. unfold export_context.
  destruct (names_split _ _ _ Hn) as (-> & -> & ->).
  destruct (str_eqb_spec file (lit "self")) as [F|_]; [contradiction|].
  unfold bind. rewrite (load_runs w d file s t c Ht Hc), H.
  destruct (inside_pops w d file s t st s2 (ContextSpec.wf_nonempty _ Hwf) H) as [m' Ep]. rewrite Ep.
  assert (Hwf2 : ContextSpec.cm_wf (cm (im s2))).
  { unfold exec_text in H. rewrite Hc in H.
    assert (K : EvalHistory.history (inside file s) s2).
    { eapply (EvalHistory.kh_complete (evaluate w d)); [exact (EvalHistory.evaluate_history w d)|exact H|left; reflexivity]. }
    assert (W1 : ContextSpec.cm_wf (cm (im (inside file s)))) by (apply (ContextFacts.perform_wf ContextSpec.OPush (cm (im s))); [exact Hwf|reflexivity]).
    destruct (K W1) as [ops E]. exact (ContextFacts.performs_wf _ _ _ W1 E). }
  destruct (ContextFacts.pop_split _ _ Hwf2 Ep) as (P1 & P2 & P3 & _).
  assert (P4 : ContextSpec.perform (ContextSpec.OPopExport ns) (cm (im s2)) = Some (add_context ns (get_context (cm (im s2))) m')).
  { cbn [ContextSpec.perform]. rewrite Ep. reflexivity. }
  eexists. split; [reflexivity|]. cbn [snd sys_close_ignored change on_cm im trace].
  assert (HC : forall f i, cm (match fd_close f (fds i) with Some t0 => with_fds t0 i | None => i end) = cm i /\
     al (match fd_close f (fds i) with Some t0 => with_fds t0 i | None => i end) = al i /\
     js (match fd_close f (fds i) with Some t0 => with_fds t0 i | None => i end) = js i /\
     env (match fd_close f (fds i) with Some t0 => with_fds t0 i | None => i end) = env i /\
     exit_status (match fd_close f (fds i) with Some t0 => with_fds t0 i | None => i end) = exit_status i).
  { intros f i. destruct (fd_close f (fds i)); repeat split; reflexivity. }
  destruct (HC (lowest (fds (im s))) (with_cm m' (im s2))) as (C1 & C2 & C3 & C4 & C5).
  cbn [cm with_cm al js env exit_status] in *. rewrite C1, C2, C3, C4, C5. clear C1 C2 C3 C4 C5 HC.
  split; [reflexivity|]. split; [|split; [|split; [|split; [|auto]]]].
  - intros n y Hq. split.
    + apply (proj1 (PropertiesContext.C28_pop_export ns _ _ Hwf2 P4) n y Hq).
    + apply ContextFacts.namespaced_some in Hq. unfold get_function. rewrite Hq. unfold get_context_by_name, add_context, deref.
      cbn [exported heap]. rewrite sget_sinsert_eq, P2. reflexivity.
  - apply (PropertiesContext.C28_pop_export ns _ _ Hwf2 P4).
  - cbn [add_context stack]. rewrite <- (rev_involutive (stack (cm (im s2)))), P1. cbn [rev]. rewrite rev_involutive. reflexivity.
  - exact P2.
Qed.

(** A line that assigns. *)
Definition define_line (a : str) : and_or := AoOne (Pipeline false [CSimple (SimpleCommand (Some (Prefix [] [a])) [] None)] false).

Lemma exec_defines w d (as_ : list str) : as_ <> [] -> Forall (fun a => written_assignment a /\ ~ In (ch "$") a) as_ ->
  forall s m, sget [] (al (im s)) = None -> ContextSpec.performs (map ContextSpec.OAssign as_) (cm (im s)) = Some m ->
  exists st s', exec_text w (S d) (render (map define_line as_)) s = (OOk st, s') /\ cm (im s') = m.
Proof.
  intros Hne Hf s m Ha Hm.
  assert (Hwf : Forall wf_andor (map define_line as_)).
  { rewrite Forall_map. eapply Forall_impl; [|exact Hf]. intros a [Hw _]. apply (assign_line a [] (Forall_cons _ Hw (Forall_nil _))). }
  assert (K : forall st s, sget [] (al (im s)) = None -> ContextSpec.performs (map ContextSpec.OAssign as_) (cm (im s)) = Some m ->
    exists ran st' s', in_order (fun a => exec_text w (S d) (r_andor a)) st s (map define_line as_) ran (OOk st') s' /\ cm (im s') = m).
  { clear Hne Ha Hm s Hwf. induction Hf as [|a as_ [Hw Hd] Hf IH]; intros st s Ha Hm.
    - injection Hm as <-. do 3 eexists. split; [apply in_order_end|reflexivity].
    - cbn [map ContextSpec.performs ContextSpec.perform] in Hm. destruct (add_var a (cm (im s))) as [m1|] eqn:E; [|discriminate].
      pose proof (exec_assign w d a [] s (Forall_cons _ Hw (Forall_nil _)) ltac:(intros x [<-|[]]; exact Hd) Ha) as E1. rewrite E in E1.
      destruct (IH 0 (Shell (with_cm m1 (masked_as true (im s))) (trace s)) Ha Hm) as (ran & st' & s' & H1 & H2).
      exists ((define_line a, OOk 0) :: ran), st', s'. split; [|exact H2]. cbn [map]. eapply in_order_run; [|exact H1].
      destruct (assign_line a [] (Forall_cons _ Hw (Forall_nil _))) as [_ W2]. cbn zeta in W2.
      change (r_andor (define_line a)) with (r_pipeline (Pipeline false [CSimple (SimpleCommand (Some (Prefix [] [a])) [] None)] false)).
      rewrite W2. exact E1. }
  destruct (K 0 s Ha Hm) as (ran & st' & s' & H1 & H2). exists st', s'. split; [|exact H2].
  apply (exec_list w (S d) (map define_line as_) 0 s (OOk st') s').
  - destruct as_; [congruence|discriminate].
  - exact Hwf.
  - exists ran. exact H1.
Qed.
Definition defined (a : str) : str * str := (ContextSpec.target a, ContextSpec.assigned a).

Lemma first_none {A} (base : list (option A)) : Forall (eq None) base -> ContextSpec.first_some base = None /\ forall b, ContextSpec.replace_first b base = None.
Proof.
  induction 1 as [|x base <- H [IH1 IH2]]; [split; reflexivity|]. cbn. split; [exact IH1|]. intros b. rewrite IH2. reflexivity.
Qed.
Lemma defines_column as_ : forall m m' n h base, ContextSpec.cm_wf m -> ContextSpec.performs (map ContextSpec.OAssign as_) m = Some m' ->
  ContextLaws.column n m = h :: base -> (forall v, h <> Some (v, true)) ->
  (In n (map ContextSpec.target as_) -> Forall (eq None) base) ->
  ContextLaws.column n m' = (match last_of n (map defined as_) with Some v => Some (v, false) | None => h end) :: base.
Proof.
  induction as_ as [|a as_ IH]; intros m m' n h base Hwf Hm Hc Hh Hb.
  - injection Hm as <-. exact Hc.
  - cbn [map ContextSpec.performs] in Hm. destruct (ContextSpec.perform (ContextSpec.OAssign a) m) as [m1|] eqn:E; [|discriminate].
    cbn [map last_of defined]. pose proof (ContextFacts.perform_wf _ _ _ Hwf E) as Hwf1.
    destruct (str_eqb_spec n (ContextSpec.target a)) as [->|Hne].
    + specialize (Hb (or_introl eq_refl)). pose proof (ContextLaws.assign_column a m m1 Hwf E) as C1. rewrite Hc in C1.
      assert (C2 : ContextLaws.column (ContextSpec.target a) m1 = Some (ContextSpec.assigned a, false) :: base).
      { rewrite C1. destruct (first_none base Hb) as [F1 F2]. unfold ContextLaws.bound. cbn [ContextSpec.first_some ContextSpec.replace_first].
        destruct h as [[v [|]]|]; [destruct (Hh v eq_refl)|reflexivity|]. rewrite F1, F2. reflexivity. }
      rewrite (IH m1 m' _ _ base Hwf1 Hm C2 ltac:(discriminate) (fun _ => Hb)).
      fold defined. destruct (last_of _ (map defined as_)); reflexivity.
    + pose proof (ContextLaws.perform_column _ _ _ n Hwf E) as C1. cbn [ContextLaws.writes] in C1. specialize (C1 ltac:(congruence)).
      rewrite (IH m1 m' n h base Hwf1 Hm (eq_trans C1 Hc) Hh (fun H => Hb (or_intror H))).
      fold defined. destruct (last_of _ (map defined as_)); reflexivity.
Qed.
Lemma defines_perform as_ : Forall (fun a => ContextSpec.unsettable a = false) as_ -> forall m, ContextSpec.cm_wf m ->
  exists m', ContextSpec.performs (map ContextSpec.OAssign as_) m = Some m'.
Proof.
  induction 1 as [|a as_ Ha H IH]; intros m Hwf; [exists m; reflexivity|]. cbn [map ContextSpec.performs].
  pose proof (ContextFacts.perform_meaning (ContextSpec.OAssign a) m Hwf I) as HM. cbn [ContextSpec.meaning] in HM. rewrite Ha in HM.
  destruct (ContextSpec.perform (ContextSpec.OAssign a) m) as [m1|] eqn:E.
  - apply IH. exact (ContextFacts.perform_wf _ _ _ Hwf E).
  - exfalso. destruct (ContextSpec.lookup _ _) as [[v [|]]|]; destruct HM.
Qed.
Lemma none_column m n : ContextSpec.cm_wf m -> ContextSpec.unqualified n -> get_var n m = None -> Forall (eq None) (ContextLaws.column n m).
Proof.
  intros Hwf Hq H. pose proof (ContextLaws.get_var_column n m Hwf Hq) as E. rewrite H in E. cbn in E. revert E.
  induction (ContextLaws.column n m) as [|[b|] col IH]; intros E; [constructor|discriminate|]. constructor; [reflexivity|exact (IH E)].
Qed.
Lemma top_column n m x col : ContextSpec.cm_wf m -> ContextLaws.column n m = x :: col ->
  option_map ContextSpec.binding_of (sget n (vars (deref (get_context m) m))) = x.
Proof.
  intros Hwf H. unfold ContextLaws.column in H.
  destruct (rev (stack m)) as [|l r] eqn:E; [discriminate|]. cbn [map] in H. injection H as H1 _.
  replace (get_context m) with l; [exact H1|]. unfold get_context. rewrite <- (rev_involutive (stack m)), E. cbn [rev]. rewrite last_last. reflexivity.
Qed.

Lemma exec_wf w d t s st s' : exec_text w d t s = (OOk st, s') -> ContextSpec.cm_wf (cm (im s)) -> ContextSpec.cm_wf (cm (im s')).
Proof.
  unfold exec_text. destruct (parse t) as [c|]; [|discriminate]. intros H Hwf.
  assert (K : EvalHistory.history s s').
  { eapply (EvalHistory.kh_complete (evaluate w d)); [exact (EvalHistory.evaluate_history w d)|exact H|left; reflexivity]. }
  destruct (K Hwf) as [ops E]. exact (ContextFacts.performs_wf _ _ _ Hwf E).
Qed.

(** A file of definitions, of names the shell does not have: [ns::n] is the last
    value the file gives to [n], and the shell's own variables are as before. *)
Theorem C120_definitions_partial : forall w d (ws : list str) (x : str) (more : list str) ns file s t (as_ : list str),
  sget (lit "export") (al (im s)) = None -> sget [] (al (im s)) = None ->
  Forall written_arg ws -> Forall2 (ordinary (expand_var (cm (im s)))) ws (lit "context" :: x :: more) ->
  names x ns file -> file <> lit "self" -> ContextSpec.cm_wf (cm (im s)) ->
  file_text w s file t -> parse t = parse (render (map define_line as_)) -> as_ <> [] ->
  Forall (fun a => written_assignment a /\ ~ In (ch "$") a /\ ContextSpec.unsettable a = false /\
                   ContextSpec.unqualified (ContextSpec.target a) /\ get_var (ContextSpec.target a) (cm (im s)) = None) as_ ->
  exists s', exec_text w (S (S d)) (r_words (lit "export" :: ws)) s = (OOk 0, s') /\
    (forall q n, ContextSpec.qualified q ns n -> expand_var (cm (im s')) q = last_of n (map defined as_)) /\
    (forall n, ContextSpec.unqualified n -> get_var n (cm (im s')) = get_var n (cm (im s))).
Proof.
  intros w d ws x more ns file s t as_ Ha Ha0 Hw Ho Hn Hself Hwf Ht Hp Hne Hf.
  set (m0 := push_context_new (cm (im s))).
  assert (P0 : ContextSpec.perform ContextSpec.OPush (cm (im s)) = Some m0) by reflexivity.
  assert (Hwf0 : ContextSpec.cm_wf m0) by exact (ContextFacts.perform_wf _ _ _ Hwf P0).
  assert (Hu : Forall (fun a => ContextSpec.unsettable a = false) as_) by (eapply Forall_impl; [|exact Hf]; intros a H; apply H).
  destruct (defines_perform as_ Hu m0 Hwf0) as [m1 Hm1].
  assert (Hr : Forall (fun a => written_assignment a /\ ~ In (ch "$") a) as_) by (eapply Forall_impl; [|exact Hf]; intros a H; split; apply H).
  destruct (exec_defines w d as_ Hne Hr (inside file s) m1 Ha0 Hm1) as (st & s2 & E & Hcm).
  assert (Hl : map define_line as_ <> []) by (destruct as_; [congruence|discriminate]).
  assert (Hwl : Forall wf_andor (map define_line as_)).
  { rewrite Forall_map. eapply Forall_impl; [|exact Hr]. intros a [H _]. apply (assign_line a [] (Forall_cons _ H (Forall_nil _))). }
  pose proof (GrammarFacts.render_parse _ Hl Hwl) as Hparse. rewrite Hparse in Hp.
  assert (E' : exec_text w (S d) t (inside file s) = (OOk st, s2)).
  { unfold exec_text in *. rewrite Hparse in E. rewrite Hp. exact E. }
  destruct (C120_file_partial w (S d) ws x more ns file s t _ st s2 Ha Hw Ho Hn Hself Hwf Ht Hp E') as (s' & R & _ & V1 & _ & S1 & S2 & _).
  rewrite Hcm in *. clear Hcm.
  pose proof (ContextFacts.performs_wf _ _ _ Hwf0 Hm1) as Hwf1.
  assert (HC : forall n, (In n (map ContextSpec.target as_) -> Forall (eq None) (ContextLaws.column n (cm (im s)))) ->
    ContextLaws.column n m1 = (match last_of n (map defined as_) with Some v => Some (v, false) | None => None end) :: ContextLaws.column n (cm (im s))).
  { intros n HN. apply (defines_column as_ m0 m1 n None _ Hwf0 Hm1); [|discriminate|exact HN].
    apply (ContextLaws.perform_column ContextSpec.OPush _ _ n Hwf P0). discriminate. }
  assert (HN : forall n, In n (map ContextSpec.target as_) -> Forall (eq None) (ContextLaws.column n (cm (im s)))).
  { intros n Hin. apply in_map_iff in Hin. destruct Hin as (a & <- & Hin). rewrite Forall_forall in Hf. destruct (Hf a Hin) as (_ & _ & _ & H1 & H2).
    apply none_column; assumption. }
  exists s'. split; [exact R|]. split.
  - intros q n Hq. destruct (V1 q n Hq) as [V _]. unfold expand_var. rewrite V.
    pose proof (top_column n m1 _ _ Hwf1 (HC n (HN n))) as T.
    destruct (sget n (vars (deref (get_context m1) m1))) as [[v r]|], (last_of n (map defined as_)); cbn in T; try discriminate; [|reflexivity].
    injection T as -> _. reflexivity.
  - intros n Hq. pose proof (exec_wf _ _ _ _ _ _ R Hwf) as Hwf'.
    apply ContextLaws.binding_of_inj. rewrite (ContextLaws.get_var_column n _ Hwf' Hq), (ContextLaws.get_var_column n _ Hwf Hq). f_equal.
    pose proof (HC n (HN n)) as C1. unfold ContextLaws.column in C1 |- *. rewrite S1, rev_app_distr in C1. cbn [rev app map] in C1.
    injection C1 as _ C1. rewrite <- C1. apply map_ext. intros l. unfold deref. rewrite S2. reflexivity.
Qed.

(** [export context ns=self]: [ns::x] is the variable or function [x] of the
    innermost scope, and nothing else changes. *)
Theorem C120_self : forall w d (ws : list str) (x : str) (more : list str) ns s,
  sget (lit "export") (al (im s)) = None ->
  Forall written_arg ws -> Forall2 (ordinary (expand_var (cm (im s)))) ws (lit "context" :: x :: more) ->
  names x ns (lit "self") -> ContextSpec.cm_wf (cm (im s)) ->
  exists s', exec_text w (S d) (r_words (lit "export" :: ws)) s = (OOk 0, s') /\ trace s' = trace s /\
    (forall n y, ContextSpec.qualified n ns y ->
       get_var n (cm (im s')) = sget y (vars (deref (get_context (cm (im s))) (cm (im s)))) /\
       get_function n (cm (im s')) = sget y (functions (deref (get_context (cm (im s))) (cm (im s))))) /\
    (forall n ns' y, ns' <> ns -> ContextSpec.qualified n ns' y -> get_var n (cm (im s')) = get_var n (cm (im s))) /\
    (forall n, ContextSpec.unqualified n -> get_var n (cm (im s')) = get_var n (cm (im s))).
Proof.
  intros w d ws x more ns s Ha Hw Ho Hn Hwf.
  rewrite (exec_args_line w d (lit "export") ws (lit "context" :: x :: more) s eq_refl ltac:(discriminate) Ha Hw Ho), call_export.
  unfold export_cmd. cbn [words_of sc_suffix word_list]. change (contains_str (lit "-p") (lit "context")) with false.
  change (str_eqb (lit "context") (lit "context")) with true. cbn iota. unfold export_context.
  destruct (names_split _ _ _ Hn) as (-> & -> & ->).
  change (str_eqb (lit "self") (lit "self")) with true. cbn iota.
  destruct (PropertiesContext.C28_export ns (cm (im s)) Hwf) as (m' & E & V1 & V2 & V3). injection E as <-.
  eexists. split; [reflexivity|]. split; [reflexivity|]. split; [|split; [exact V3|exact V2]].
  intros n y Hq. split; [exact (V1 n y Hq)|].
  apply ContextFacts.namespaced_some in Hq. unfold get_function. cbn [im cm snd on_cm change with_cm]. rewrite Hq.
  unfold get_context_by_name, add_context. cbn [exported]. rewrite sget_sinsert_eq. reflexivity.
Qed.

(** The word after [context] without an equals sign: whatever it is, it is the
    file called [context] that is read, and the namespace is called so too. *)
Theorem C120_name_refuted : forall w d (ws ws' : list str) (x : str) (more more' : list str) s,
  sget (lit "export") (al (im s)) = None ->
  Forall written_arg ws -> Forall2 (ordinary (expand_var (cm (im s)))) ws (lit "context" :: x :: more) ->
  Forall written_arg ws' -> Forall2 (ordinary (expand_var (cm (im s)))) ws' (lit "context" :: lit "context=context" :: more') ->
  ~ In (ch "=") x -> x <> lit "self" ->
  exec_text w (S d) (r_words (lit "export" :: ws)) s = exec_text w (S d) (r_words (lit "export" :: ws')) s.
Proof.
  intros w d ws ws' x more more' s Ha Hw Ho Hw' Ho' Hx Hself.
  rewrite (exec_args_line w d (lit "export") ws _ s eq_refl ltac:(discriminate) Ha Hw Ho), call_export.
  rewrite (exec_args_line w d (lit "export") ws' _ s eq_refl ltac:(discriminate) Ha Hw' Ho'), call_export.
  f_equal. unfold export_cmd. cbn [words_of sc_suffix word_list]. change (contains_str (lit "-p") (lit "context")) with false.
  change (str_eqb (lit "context") (lit "context")) with true. cbn iota. unfold export_context.
  apply contains_char_notIn in Hx. rewrite Hx. destruct (str_eqb_spec x (lit "self")) as [F|_]; [contradiction|]. reflexivity.
Qed.

(** A file that fails leaves its scope behind: there is one scope more than
    before, and what the file had defined is visible in the shell. *)
Theorem C120_failure_refuted : forall w d (ws : list str) (x : str) (more : list str) ns file s t c e s2,
  sget (lit "export") (al (im s)) = None ->
  Forall written_arg ws -> Forall2 (ordinary (expand_var (cm (im s)))) ws (lit "context" :: x :: more) ->
  names x ns file -> file <> lit "self" -> stack (cm (im s)) <> [] ->
  file_text w s file t -> parse t = Some c -> exec_text w d t (inside file s) = (OErr e, s2) ->
  exists e' s', exec_text w (S d) (r_words (lit "export" :: ws)) s = (OErr e', s') /\ cm (im s') = cm (im s2) /\
    (List.length (stack (cm (im s))) < List.length (stack (cm (im s'))))%nat.
Proof.
  intros w d ws x more ns file s t c e s2 Ha Hw Ho Hn Hself Hs Ht Hc H.
  rewrite (exec_args_line w d (lit "export") ws (lit "context" :: x :: more) s eq_refl ltac:(discriminate) Ha Hw Ho), call_export.
  unfold export_cmd. cbn [words_of sc_suffix word_list]. change (contains_str (lit "-p") (lit "context")) with false.
  change (str_eqb (lit "context") (lit "context")) with true. cbn iota. unfold export_context.
  destruct (names_split _ _ _ Hn) as (-> & -> & ->).
  destruct (str_eqb_spec file (lit "self")) as [F|_]; [contradiction|].
  unfold bind. rewrite (load_runs w d file s t c Ht Hc), H.
  assert (HC : forall f i, cm (match fd_close f (fds i) with Some t0 => with_fds t0 i | None => i end) = cm i).
  { intros f i. destruct (fd_close f (fds i)); reflexivity. }
  do 2 eexists. split; [reflexivity|]. cbn [snd sys_close_ignored change im]. rewrite HC. split; [reflexivity|].
  unfold exec_text in H. rewrite Hc in H.
  assert (K : EvalStack.grown (inside file s) s2).
  { eapply (EvalStack.kg_complete (evaluate w d)); [exact (EvalStack.evaluate_grown w d)|exact H|right; exact I]. }
  destruct K as (new & extra & _ & E & _).
  - cbn. destruct (stack (cm (im s))); discriminate.
  - rewrite E. cbn [inside im cm with_cm push_context_new stack]. rewrite !app_length. cbn. lia.
Qed.

(** *** Examples *)

(** A system in which the file [lib] holds these lines, [bad] the line [fg], and
    [context] a definition. *)
Definition lib_reports (lib : string) : reports :=
  let r := PropertiesEval.ex_reports 0 in
  Reports (r_isfile r) (r_open r)
    (fun p => if str_eqb p (lit "lib") then Some (lit lib) else if str_eqb p (lit "bad") then Some (lit "fg")
              else if str_eqb p (lit "context") then Some (lit "C=9") else None)
    (r_chdir r) (r_cwd r) (r_kill r) (r_pipe r) (r_fork r) (r_exec r) (r_getpid r) (r_waits r) (r_subst r).
Definition lib_os (lib : string) : os := fun _ => lib_reports lib.
Definition lib_run (lib line : string) := exec_text (lib_os lib) 5 (lit line) PropertiesEval.ex_shell.
Definition reads (s : shell) (ns : list string) : list (option str) := map (fun n => expand_var (cm (im s)) (lit n)) ns.

Example C120_definitions_example :
  fst (lib_run "A=1; B=2; A=3" "export context l=lib") = OOk 0 /\
  reads (snd (lib_run "A=1; B=2; A=3" "export context l=lib")) ["l::A"; "l::B"; "A"; "l::PATH"; "PATH"]%string =
    [Some (lit "3"); Some (lit "2"); None; None; Some (lit "/bin")].
Proof. vm_compute. repeat split. Qed.
Example C53_context_example :
  fst (lib_run "A=1" "export context b=bad") = OPanic /\ fst (lib_run "A=1" "export context b=none") <> OPanic /\
  fst (lib_run "A=1" "export context self") = OPanic /\ fst (lib_run "A=1" "export context") <> OPanic /\ 
  fst (lib_run "A=1" "export context l=lib") = OOk 0 /\ fst (lib_run "A=1" "export context l=self") = OOk 0.
Proof. vm_compute. repeat split; discriminate. Qed.
Example C120_name_example :
  fst (lib_run "A=1" "export context lib") = OOk 0 /\
  reads (snd (lib_run "A=1" "export context lib")) ["lib::A"; "context::A"; "context::C"]%string = [None; None; Some (lit "9")].
Proof. vm_compute. repeat split. Qed.
Example C120_failure_example :
  (exists e, fst (lib_run "A=1; export context; B=2" "export context l=lib") = OErr e) /\
  reads (snd (lib_run "A=1; export context; B=2" "export context l=lib")) ["l::A"; "A"; "B"]%string = [None; Some (lit "1"); None].
Proof. vm_compute. split; [eexists|]; reflexivity. Qed.
Example C120_self_example : let s := snd (lib_run "A=1" "B=2") in
  reads (snd (exec_text (lib_os "A=1") 5 (lit "export context me=self") s)) ["me::B"; "B"; "me::PATH"]%string = [Some (lit "2"); Some (lit "2"); None].
Proof. vm_compute. repeat split. Qed.

(** What the file defines is not its own when the shell has a variable of that
    name: the shell's variable is overwritten, and the namespace has none. *)
Theorem C120_isolation_refuted : ~ forall w d (ws : list str) (x : str) (more : list str) ns file s t (as_ : list str),
  sget (lit "export") (al (im s)) = None -> sget [] (al (im s)) = None ->
  Forall written_arg ws -> Forall2 (ordinary (expand_var (cm (im s)))) ws (lit "context" :: x :: more) ->
  names x ns file -> file <> lit "self" -> ContextSpec.cm_wf (cm (im s)) ->
  file_text w s file t -> parse t = parse (render (map define_line as_)) -> as_ <> [] ->
  Forall (fun a => written_assignment a /\ ~ In (ch "$") a /\ ContextSpec.unsettable a = false /\
                   ContextSpec.unqualified (ContextSpec.target a)) as_ ->
  exists s', exec_text w (S (S d)) (r_words (lit "export" :: ws)) s = (OOk 0, s') /\
    ((forall q n, ContextSpec.qualified q ns n -> expand_var (cm (im s')) q = last_of n (map defined as_)) \/
     (forall n, ContextSpec.unqualified n -> get_var n (cm (im s')) = get_var n (cm (im s)))).
Proof.
  intros H.
  assert (Wp : written_assignment (lit "PATH=x")) by (exists (lit "PATH"), (lit "x"); split; [reflexivity|]; split; spelled).
  assert (Wl : written_assignment (lit "l=lib")) by (exists (lit "l"), (lit "lib"); split; [reflexivity|]; split; spelled).
  assert (Hb : forall c a v, a <> c -> ~ begins c (a :: v)) by (intros c a v Hne [u E]; injection E; congruence).
  destruct (H (lib_os "PATH=x") 3%nat [lit "context"; lit "l=lib"] (lit "l=lib") [] (lit "l") (lit "lib") PropertiesEval.ex_shell
    (lit "PATH=x") [lit "PATH=x"]) as (s' & E & V).
  - reflexivity.
  - reflexivity.
  - apply Forall_cons; [left; spelled|]. apply Forall_cons; [right; exact Wl|]. apply Forall_nil.
  - apply Forall2_cons; [|apply Forall2_cons; [|apply Forall2_nil]]; apply o_plain; apply Hb; discriminate.
  - split; [right; left; reflexivity|]. split; reflexivity.
  - discriminate.
  - constructor; cbn.
    + discriminate.
    + repeat constructor; cbn; intuition discriminate.
    + repeat constructor.
    + constructor.
    + repeat constructor.
  - split; reflexivity.
  - vm_compute. reflexivity.
  - discriminate.
  - apply Forall_cons; [|apply Forall_nil]. split; [exact Wp|]. split; [cbn; intuition discriminate|]. split; [reflexivity|].
    reflexivity.
  - assert (Es : s' = snd (exec_text (lib_os "PATH=x") 5 (r_words [lit "export"; lit "context"; lit "l=lib"]) PropertiesEval.ex_shell)) by (rewrite E; reflexivity).
    assert (F : expand_var (cm (im s')) (lit "l::PATH") = None /\ get_var (lit "PATH") (cm (im s')) = Some (Var (lit "x") false)).
    { rewrite Es. vm_compute. split; reflexivity. }
    clear E Es. destruct F as [F1 F2]. destruct V as [V|V].
    + assert (Q : ContextSpec.qualified (lit "l::PATH") (lit "l") (lit "PATH")) by (exists (lit "PATH"); split; reflexivity).
      pose proof (eq_trans (eq_sym F1) (V _ _ Q)) as F. vm_compute in F. discriminate.
    + pose proof (eq_trans (eq_sym F2) (V (lit "PATH") eq_refl)) as F. vm_compute in F. discriminate.
Qed.

Print Assumptions C53_context_crash.
Print Assumptions C120_file_partial.
Print Assumptions C120_definitions_partial.
Print Assumptions C120_self.
Print Assumptions C120_name_refuted.
Print Assumptions C120_isolation_refuted.
Print Assumptions C120_failure_refuted.
