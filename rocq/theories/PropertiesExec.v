(** Properties C57 and C77: the exec command. *)
From Verif Require Import Base BaseFacts Lexer LexerSpec Ast Parser GrammarSpec.
From Verif Require Import Context Alias Expand ExpandSpec ExpandFacts ExpandLaws Jobs Shell Builtins Eval.
From Verif Require Import EvalSpec EvalFacts EvalLaws EvalKeeps RunSpec RunLaws PipeSpec PipeLaws ChildLaws.
From Verif Require ContextSpec PropertiesContext PropertiesEval.
Local Open Scope Z_scope.

(** A word that cannot be taken for an option. *)
Definition quiet (c : str) : Prop :=
  ~ In (ch "-") c \/ (~ In (ch "c") c /\ ~ In (ch "l") c /\ ~ In (ch "a") c).
Definition says (o : str) (c : char) (b : bool) : Prop := b = true <-> In c o.
(** The words after [exec]: no option, one option word with some of the letters c
    and l, or one with the letter a, which takes a name. *)
Inductive exec_words : list str -> bool -> bool -> option str -> str -> list str -> Prop :=
| xw_plain c args : quiet c -> exec_words (c :: args) false false None c args
| xw_flags o e d c args : In (ch "-") o -> ~ In (ch "a") o -> says o (ch "c") e -> says o (ch "l") d -> e || d = true -> quiet c ->
    exec_words (o :: c :: args) e d None c args
| xw_name o e d name c args : In (ch "-") o -> In (ch "a") o -> says o (ch "c") e -> says o (ch "l") d -> quiet c ->
    exec_words (o :: name :: c :: args) e d (Some name) c args.
(** The arguments the program should get. *)
Definition exec_argv (dash : bool) (name : option str) (c : str) (args : list str) : list str :=
  ((if dash then lit "-" else []) ++ match name with Some n => n | None => c end) :: args.

Lemma quiet_opts2 c pos ws o : quiet c -> nth_error ws pos = Some c -> x_pos o = pos -> forall s, exec_opts2 ws o s = (OOk o, s).
Proof.
  intros Hq Hn <- s. unfold exec_opts2, word_at. rewrite Hn.
  rewrite (bind_ok (unwrap (Some c)) _ s c s eq_refl).
  destruct (contains_char (ch "-") c) eqn:E1; [|reflexivity].
  destruct Hq as [Hq|(Q1 & Q2 & Q3)]; [apply contains_char_In in E1; contradiction|].
  apply contains_char_notIn in Q1, Q2, Q3. rewrite Q1. cbn zeta. rewrite Hn.
  rewrite (bind_ok (unwrap (Some c)) _ s c s eq_refl). rewrite Q2. rewrite Hn.
  rewrite (bind_ok (unwrap (Some c)) _ s c s eq_refl). rewrite Q3. reflexivity.
Qed.
Lemma says_contains o c b : says o c b -> contains_char c o = b.
Proof.
  intros H. destruct b; [apply contains_char_In, H; reflexivity|]. apply contains_char_notIn. intros Hin. apply H in Hin. discriminate.
Qed.

Lemma exec_words_opts ws e d name c args : exec_words ws e d name c args ->
  exists o, x_empty o = e /\ nth_error ws (x_pos o) = Some c /\ exec_args ws o = exec_argv d name c args /\
    forall s, (o <- exec_opts1 ws ;; exec_opts2 ws o) s = (OOk o, s).
Proof.
  assert (K : forall ws o c, (forall s, exec_opts1 ws s = (OOk o, s)) -> nth_error ws (x_pos o) = Some c -> quiet c ->
    forall s, (o <- exec_opts1 ws ;; exec_opts2 ws o) s = (OOk o, s)).
  { intros ws' o c' H1 Hn Hq s. rewrite (bind_ok _ _ _ _ _ (H1 s)). exact (quiet_opts2 c' _ ws' o Hq Hn eq_refl s). }
  intros H. destruct H as [c args Hq|o e d c args H1 H2 He Hd Hed Hq|o e d name c args H1 H2 He Hd Hq].
  - exists (ExecOpts false false false 0). split; [reflexivity|]. split; [reflexivity|]. split; [reflexivity|].
    apply (K _ _ c); [|reflexivity|exact Hq]. intros s. unfold exec_opts1, word_at. cbn [nth_error].
    rewrite (bind_ok (unwrap (Some c)) _ s c s eq_refl). destruct (contains_char (ch "-") c) eqn:E; [|reflexivity].
    destruct Hq as [Hq|(Q1 & Q2 & Q3)]; [apply contains_char_In in E; contradiction|].
    apply contains_char_notIn in Q1, Q2, Q3. rewrite Q1, Q2, Q3. reflexivity.
  - apply contains_char_In in H1. apply contains_char_notIn in H2. apply says_contains in He. apply says_contains in Hd.
    exists (ExecOpts e d false 1). split; [reflexivity|]. split; [reflexivity|]. split.
    { unfold exec_args, exec_argv. cbn. destruct d; reflexivity. }
    apply (K _ _ c); [|reflexivity|exact Hq]. intros s. unfold exec_opts1, word_at. cbn [nth_error].
    rewrite (bind_ok (unwrap (Some o)) _ s o s eq_refl). rewrite H1, H2, He, Hd, Hed. reflexivity.
  - apply contains_char_In in H1. apply contains_char_In in H2. apply says_contains in He. apply says_contains in Hd.
    exists (ExecOpts e d true 2). split; [reflexivity|]. split; [reflexivity|]. split.
    { unfold exec_args, exec_argv. cbn. destruct d; reflexivity. }
    apply (K _ _ c); [|reflexivity|exact Hq]. intros s. unfold exec_opts1, word_at. cbn [nth_error].
    rewrite (bind_ok (unwrap (Some o)) _ s o s eq_refl). rewrite H1, H2, He, Hd. reflexivity.
Qed.

Lemma run_exec w rec p s0 ws e d name c args i tr : exec_words ws e d name c args ->
  (forall x, In x (List.concat ws) -> x <> 0%N) ->
  call_builtin w rec (SimpleCommand p (lit "exec") (Some (Suffix s0 ws))) (Shell i tr) =
  temp_execve w c (exec_argv d name c args) (if e then [] else env i) (Shell i tr).
Proof.
  intros H Hz. rewrite call_exec. destruct (exec_words_opts _ _ _ _ _ _ H) as (o & E1 & E2 & E3 & E4).
  unfold exec_cmd. cbn [words_of sc_suffix word_list]. specialize (E4 (Shell i tr)).
  assert (Hne : ws <> []) by (destruct H; discriminate).
  unfold bind at 1 in E4. unfold bind at 1. destruct (exec_opts1 ws (Shell i tr)) as [[o1| | | | | |] s1] eqn:Eo; try discriminate.
  destruct ws as [|x ws]; [congruence|]. rewrite Eo. cbv beta iota. rewrite (bind_ok _ _ _ _ _ E4).
  rewrite E3.
  replace (existsb (contains_char 0%N) (exec_argv d name c args)) with false.
  - unfold word_at. rewrite E2. rewrite (bind_ok (unwrap (Some c)) _ (Shell i tr) c (Shell i tr) eq_refl).
    rewrite (bind_ok (look env) _ (Shell i tr) (env i) (Shell i tr) eq_refl). rewrite E1. reflexivity.
  - symmetry. apply not_true_is_false. intros Hx. apply existsb_exists in Hx. destruct Hx as (y & Hy & Hc).
    apply contains_char_In in Hc. clear -H Hz Hy Hc.
    assert (G : forall v, In v (x :: ws) -> ~ In 0%N v).
    { intros v Hv Hin. apply (Hz 0%N); [|reflexivity]. apply in_concat. exists v. split; assumption. }
    unfold exec_argv in Hy. destruct Hy as [<-|Hy].
    + apply in_app_or in Hc. destruct Hc as [Hc|Hc]; [destruct d; [destruct Hc as [Hc|[]]; discriminate|destruct Hc]|].
      inversion H; subst; (eapply G; [|exact Hc]); cbn; auto.
    + apply (G y); [|exact Hc]. inversion H; subst; cbn; auto.
Qed.

(** ** C57 *)

(** [exec] with words read as above: the program that is found on the path is
    executed with exactly those arguments and that environment, or an error is
    reported.  Missing: other words that contain a dash. *)
Theorem C57_exec_partial : forall w n ws vs e d name c args s, sget (lit "exec") (al (im s)) = None ->
  Forall written_word ws -> Forall2 (ordinary (expand_var (cm (im s)))) ws vs ->
  (forall x, In x (List.concat vs) -> x <> 0%N) ->
  exec_words vs e d name c args ->
  let argv := exec_argv d name c args in
  let v := if e then [] else env (im s) in
  exists s' o, exec_text w (S n) (r_words (lit "exec" :: ws)) s = (o, s') /\
  match lookup_command (r_isfile (w (EReset :: trace s))) c (cm (im s)) with
  | None => o = OPanic
  | Some None => o = OErr (EText (c ++ lit ": Command not found"))
  | Some (Some path) =>
      (In 0%N path /\ o = OPanic) \/ (~ In 0%N path /\ o = if r_exec (w (EReset :: trace s)) path argv then OExec path argv v else OErr EOs)
  end.
Proof.
  intros w n ws vs e d name c args s Ha Hw Ho Hz Hx argv v.
  rewrite (exec_builtin' w n (lit "exec") ws vs s) by (auto; discriminate).
  destruct s as [i tr]. unfold blocked. cbn [im trace] in *.
  erewrite run_exec by eassumption. rewrite execve_result.
  set (i1 := with_js (with_masked true (js i)) i) in *. change (cm i1) with (cm i). fold argv. 
  replace (if e then [] else env i1) with v by reflexivity.
  destruct (lookup_command (r_isfile (w (EReset :: tr))) c (cm i)) as [[path|]|] eqn:El; cbn [lift].
  - destruct (contains_char 0%N path) eqn:Ez.
    + eexists. eexists. split; [reflexivity|]. left. split; [apply contains_char_In; exact Ez|reflexivity].
    + destruct (r_exec (w (EReset :: tr)) path argv); (eexists; eexists; split; [reflexivity|]; right; split; [apply contains_char_notIn; exact Ez|reflexivity]).
  - eexists. eexists. split; reflexivity.
  - eexists. eexists. split; reflexivity.
Qed.

(** *** Every list of words *)

(** What [exec] makes of its words: it runs a program; it says that a name is
    missing; or it runs out of words and crashes. *)
Inductive reading := Runs (e d : bool) (name : option str) (c : str) (args : list str) | Missing | Breaks.
(** The word in front is dropped if it has this letter. *)
Inductive letter (k : char) : list str -> option (bool * list str) -> Prop :=
| le_yes (x : str) (ws : list str) : In k x -> letter k (x :: ws) (Some (true, ws))
| le_no (x : str) (ws : list str) : ~ In k x -> letter k (x :: ws) (Some (false, x :: ws))
| le_end : letter k [] None.
(** The letters of the second option word; each letter is looked for in the word
    that is then in front.  A name given before is replaced by the last word that
    was dropped. *)
Inductive read_second (e d : bool) (name : option str) : list str -> reading -> Prop :=
| rs_no (c : str) (args : list str) : ~ In (ch "-") c -> read_second e d name (c :: args) (Runs e d name c args)
| rs_end1 (x : str) (ws : list str) b : In (ch "-") x -> letter (ch "c") (x :: ws) (Some (b, [])) -> read_second e d name (x :: ws) Breaks
| rs_end2 (x : str) (ws : list str) b (ws1 : list str) b' : In (ch "-") x -> letter (ch "c") (x :: ws) (Some (b, ws1)) -> letter (ch "l") ws1 (Some (b', [])) ->
    read_second e d name (x :: ws) Breaks
| rs_plain (x : str) (ws : list str) b (ws1 : list str) b' (c : str) (args : list str) : In (ch "-") x -> letter (ch "c") (x :: ws) (Some (b, ws1)) -> letter (ch "l") ws1 (Some (b', c :: args)) ->
    ~ In (ch "a") c ->
    read_second e d name (x :: ws) (Runs (e || b) (d || b')
      (match name with Some n => Some (if b' then hd [] ws1 else if b then x else n) | None => None end) c args)
| rs_name (x : str) (ws : list str) b (ws1 : list str) b' (o : str) (n : str) (c : str) (args : list str) : In (ch "-") x -> letter (ch "c") (x :: ws) (Some (b, ws1)) -> letter (ch "l") ws1 (Some (b', o :: n :: c :: args)) ->
    In (ch "a") o -> read_second e d name (x :: ws) (Runs (e || b) (d || b') (Some n) c args)
| rs_missing (x : str) (ws : list str) b (ws1 : list str) b' (o : str) (ws2 : list str) : In (ch "-") x -> letter (ch "c") (x :: ws) (Some (b, ws1)) -> letter (ch "l") ws1 (Some (b', o :: ws2)) ->
    In (ch "a") o -> (List.length ws2 <= 1)%nat -> read_second e d name (x :: ws) Missing.
Inductive exec_reads : list str -> reading -> Prop :=
| er_plain (x : str) (ws : list str) r : ~ In (ch "-") x \/ (~ In (ch "c") x /\ ~ In (ch "l") x /\ ~ In (ch "a") x) ->
    read_second false false None (x :: ws) r -> exec_reads (x :: ws) r
| er_flags (o : str) (ws : list str) e d r : In (ch "-") o -> ~ In (ch "a") o -> says o (ch "c") e -> says o (ch "l") d -> e || d = true ->
    read_second e d None ws r -> exec_reads (o :: ws) r
| er_break (o : str) e d : In (ch "-") o -> ~ In (ch "a") o -> says o (ch "c") e -> says o (ch "l") d -> e || d = true -> exec_reads [o] Breaks
| er_name (o : str) (name : str) (ws : list str) e d r : In (ch "-") o -> In (ch "a") o -> says o (ch "c") e -> says o (ch "l") d ->
    read_second e d (Some name) ws r -> exec_reads (o :: name :: ws) r
| er_missing (o : str) (ws : list str) : In (ch "-") o -> In (ch "a") o -> (List.length ws <= 1)%nat -> exec_reads (o :: ws) Missing.

Lemma says_dec o k : says o k (contains_char k o).
Proof. unfold says. apply contains_char_In. Qed.
(** Every list of words has a reading. *)
Lemma reads_total vs : vs <> [] -> exists r, exec_reads vs r.
Proof.
  assert (S : forall e d name ws, ws <> [] -> exists r, read_second e d name ws r).
  { intros e d name [|x ws] Hne; [congruence|]. destruct (contains_char (ch "-") x) eqn:E.
    2:{ apply contains_char_notIn in E. eexists. apply rs_no, E. }
    apply contains_char_In in E.
    assert (L : forall k (ys : list str), ys <> [] -> exists b zs, letter k ys (Some (b, zs))).
    { intros k [|y ys] Hy; [congruence|]. destruct (contains_char k y) eqn:Ek.
      - apply contains_char_In in Ek. do 2 eexists. apply le_yes, Ek.
      - apply contains_char_notIn in Ek. do 2 eexists. apply le_no, Ek. }
    destruct (L (ch "c") (x :: ws) Hne) as (b & ws1 & L1). destruct ws1 as [|y ws1]; [eexists; eapply rs_end1; eassumption|].
    destruct (L (ch "l") (y :: ws1) ltac:(discriminate)) as (b' & ws2 & L2).
    destruct ws2 as [|o ws2]; [eexists; eapply rs_end2; eassumption|].
    destruct (contains_char (ch "a") o) eqn:Eo.
    - apply contains_char_In in Eo. destruct ws2 as [|n [|c args]].
      + eexists. eapply rs_missing; try eassumption. cbn. lia.
      + eexists. eapply rs_missing; try eassumption. cbn. lia.
      + eexists. eapply rs_name; eassumption.
    - apply contains_char_notIn in Eo. eexists. eapply rs_plain; eassumption. }
  intros Hvs. destruct vs as [|x ws]; [congruence|].
  destruct (contains_char (ch "-") x) eqn:E.
  2:{ apply contains_char_notIn in E. destruct (S false false None (x :: ws) ltac:(discriminate)) as [r Hr]. exists r. apply er_plain; auto. }
  apply contains_char_In in E. destruct (contains_char (ch "a") x) eqn:Ea.
  - apply contains_char_In in Ea. destruct ws as [|n [|c args]].
    + eexists. apply er_missing; try assumption. cbn. lia.
    + eexists. apply er_missing; try assumption. cbn. lia.
    + destruct (S (contains_char (ch "c") x) (contains_char (ch "l") x) (Some n) (c :: args) ltac:(discriminate)) as [r Hr].
      exists r. eapply er_name; try eassumption; apply says_dec.
  - apply contains_char_notIn in Ea. destruct (contains_char (ch "c") x || contains_char (ch "l") x) eqn:Ecl.
    + destruct ws as [|y ws].
      * eexists. eapply er_break; try eassumption; apply says_dec.
      * destruct (S (contains_char (ch "c") x) (contains_char (ch "l") x) None (y :: ws) ltac:(discriminate)) as [r Hr].
        exists r. eapply er_flags; try eassumption; apply says_dec.
    + apply orb_false_iff in Ecl. destruct Ecl as [E1 E2]. apply contains_char_notIn in E1, E2.
      destruct (S false false None (x :: ws) ltac:(discriminate)) as [r Hr]. exists r. apply er_plain; auto.
Qed.

Lemma letter_yes k x ws b zs : letter k (x :: ws) (Some (b, zs)) -> contains_char k x = b /\ zs = if b then ws else x :: ws.
Proof.
  intros H. inversion H; subst.
  - split; [apply contains_char_In; assumption|reflexivity].
  - split; [apply contains_char_notIn; assumption|reflexivity].
Qed.
Lemma skipn_nth {A} n (l : list A) x r : skipn n l = x :: r -> nth_error l n = Some x /\ skipn (S n) l = r.
Proof.
  revert l. induction n as [|n IH]; intros [|y l] H; cbn in H; try discriminate.
  - injection H as <- <-. split; reflexivity.
  - destruct (IH l H) as [H1 H2]. split; [exact H1|]. exact H2.
Qed.
Lemma skipn_nil {A} n (l : list A) : skipn n l = [] -> nth_error l n = None.
Proof. revert l. induction n as [|n IH]; intros [|y l] H; cbn in *; try discriminate; auto. Qed.

Definition said (ws : list str) (o : exec_opts) (name : option str) : Prop :=
  match name with
  | Some n => x_rename o = true /\ exists p, x_pos o = S p /\ nth_error ws p = Some n
  | None => x_rename o = false
  end.
Lemma said_args ws o name c args : said ws o name -> skipn (x_pos o) ws = c :: args -> exec_args ws o = exec_argv (x_dash o) name c args.
Proof.
  intros Hs Hk. unfold exec_args, exec_argv. rewrite Hk. f_equal. destruct name as [n|]; cbn [said] in Hs.
  - destruct Hs as (-> & p & -> & Hn). replace (S p - 1)%nat with p by lia. pose proof (nth_error_nth ws p ([] : str) Hn) as E. unfold str in *. rewrite E. destruct (x_dash o); reflexivity.
  - rewrite Hs. destruct (x_dash o); reflexivity.
Qed.
Definition opts_are (ws : list str) (r : reading) (m : M exec_opts) : Prop := forall s,
  match r with
  | Runs e d name c args => exists o, m s = (OOk o, s) /\ x_empty o = e /\ nth_error ws (x_pos o) = Some c /\ exec_args ws o = exec_argv d name c args
  | Missing => m s = (OErr (EText (lit "exec -a needs an argument")), s)
  | Breaks => m s = (OPanic, s)
  end.
Lemma opts2_steps (ws : list str) e d rn p (x : str) s : nth_error ws p = Some x -> In (ch "-") x ->
  let b := contains_char (ch "c") x in let p1 := if b then S p else p in
  exec_opts2 ws (ExecOpts e d rn p) s =
  match nth_error ws p1 with
  | None => (OPanic, s)
  | Some y =>
      let b' := contains_char (ch "l") y in let p2 := if b' then S p1 else p1 in
      match nth_error ws p2 with
      | None => (OPanic, s)
      | Some z =>
          if contains_char (ch "a") z then
            if Nat.leb (List.length ws) (S (S p2)) then (OErr (EText (lit "exec -a needs an argument")), s)
            else (OOk (ExecOpts (e || b) (d || b') true (S (S p2))), s)
          else (OOk (ExecOpts (e || b) (d || b') rn p2), s)
      end
  end.
Proof.
  intros N1 Hd b p1. apply contains_char_In in Hd. unfold exec_opts2. cbn [x_pos]. unfold word_at. rewrite N1.
  rewrite (bind_ok (unwrap (Some x)) _ s x s eq_refl). rewrite Hd. fold b.
  assert (Eo : (if b then ExecOpts true (x_dash (ExecOpts e d rn p)) (x_rename (ExecOpts e d rn p)) (S p) else ExecOpts e d rn p) = ExecOpts (e || b) d rn p1).
  { unfold p1. destruct b; [rewrite orb_true_r|rewrite orb_false_r]; reflexivity. }
  cbv zeta. rewrite Eo. cbn [x_pos x_empty x_dash x_rename]. destruct (nth_error ws p1) as [y|]; [|reflexivity].
  rewrite (bind_ok (unwrap (Some y)) _ s y s eq_refl). set (b' := contains_char (ch "l") y). set (p2 := if b' then S p1 else p1).
  assert (Eo' : (if b' then ExecOpts (e || b) true rn (S p1) else ExecOpts (e || b) d rn p1) = ExecOpts (e || b) (d || b') rn p2).
  { unfold p2. destruct b'; [rewrite orb_true_r|rewrite orb_false_r]; reflexivity. }
  rewrite Eo'. cbn [x_pos x_empty x_dash x_rename]. destruct (nth_error ws p2) as [z|]; [|reflexivity].
  rewrite (bind_ok (unwrap (Some z)) _ s z s eq_refl). destruct (contains_char (ch "a") z); [|reflexivity].
  destruct (Nat.leb _ _); reflexivity.
Qed.
Lemma letter_at k (ws : list str) p (x : str) rest b zs : skipn p ws = x :: rest -> letter k (x :: rest) (Some (b, zs)) ->
  contains_char k x = b /\ skipn (if b then S p else p) ws = zs.
Proof.
  intros Hk L. destruct (skipn_nth _ _ _ _ Hk) as [_ K]. inversion L; subst.
  - split; [apply contains_char_In; assumption|reflexivity].
  - split; [apply contains_char_notIn; assumption|exact Hk].
Qed.
Lemma second_opts (ws : list str) o rest name r : skipn (x_pos o) ws = rest -> said ws o name -> read_second (x_empty o) (x_dash o) name rest r ->
  opts_are ws r (exec_opts2 ws o).
Proof.
  intros Hk Hn H s. destruct o as [e d rn p]. cbn [x_pos x_empty x_dash] in *.
  assert (HX : exists x ws', rest = x :: ws') by (destruct H; eauto). destruct HX as (x & ws' & ->).
  destruct (skipn_nth _ _ _ _ Hk) as [N1 K1]. pose proof (opts2_steps ws e d rn p x s N1) as HS. cbv zeta in HS.
  inversion H as [c args Hd|x0 ws0 b Hd L1|x0 ws0 b ws1 b' Hd L1 L2|x0 ws0 b ws1 b' c args Hd L1 L2 Ha|x0 ws0 b ws1 b' o n c args Hd L1 L2 Ha|x0 ws0 b ws1 b' o ws2 Hd L1 L2 Ha Hle]; subst.
  { unfold exec_opts2. cbn [x_pos]. unfold word_at. rewrite N1. rewrite (bind_ok (unwrap (Some x)) _ s x s eq_refl).
    apply contains_char_notIn in Hd. rewrite Hd. eexists. split; [reflexivity|]. split; [reflexivity|]. split; [exact N1|].
    exact (said_args ws (ExecOpts e d rn p) name _ _ Hn Hk). }
  all: specialize (HS Hd); destruct (letter_at _ _ _ _ _ _ _ Hk L1) as [B1 K2]; rewrite B1 in HS.
  { rewrite (skipn_nil _ _ K2) in HS. exact HS. }
  all: destruct ws1 as [|y ws1]; [inversion L2|]; destruct (skipn_nth _ _ _ _ K2) as [N2 K2']; rewrite N2 in HS;
    destruct (letter_at _ _ _ _ _ _ _ K2 L2) as [B2 K3]; rewrite B2 in HS.
  { rewrite (skipn_nil _ _ K3) in HS. exact HS. }
  all: destruct (skipn_nth _ _ _ _ K3) as [N3 K3']; rewrite N3 in HS.
  - apply contains_char_notIn in Ha. rewrite Ha in HS. eexists. split; [exact HS|]. split; [reflexivity|]. split; [exact N3|].
    apply (said_args ws (ExecOpts (e || b) (d || b') rn (if b' then S (if b then S p else p) else if b then S p else p))); [|exact K3].
    destruct name as [n|]; cbn [said x_rename x_pos] in Hn |- *; [|exact Hn]. destruct Hn as (-> & q & -> & Hq). split; [reflexivity|].
    destruct b'; [eexists; split; [reflexivity|exact N2]|]. destruct b; [eexists; split; [reflexivity|exact N1]|]. eauto.
  - apply contains_char_In in Ha. rewrite Ha in HS.
    set (p2 := if b' then S (if b then S p else p) else if b then S p else p) in *.
    destruct (skipn_nth _ _ _ _ K3') as [N4 K4]. destruct (skipn_nth _ _ _ _ K4) as [N5 K5].
    assert (Hlen : (S (S p2) < List.length ws)%nat) by (apply nth_error_Some; congruence).
    destruct (Nat.leb_spec (List.length ws) (S (S p2))); [lia|].
    eexists. split; [exact HS|]. split; [reflexivity|]. split; [exact N5|].
    apply (said_args ws (ExecOpts (e || b) (d || b') true (S (S p2)))); [|exact K4]. split; [reflexivity|]. eexists. split; [reflexivity|exact N4].
  - apply contains_char_In in Ha. rewrite Ha in HS.
    set (p2 := if b' then S (if b then S p else p) else if b then S p else p) in *.
    destruct (Nat.leb_spec (List.length ws) (S (S p2))) as [_|Hlt]; [exact HS|]. exfalso.
    assert (E : List.length (skipn (S p2) ws) = (List.length ws - S p2)%nat) by apply skipn_length. rewrite K3' in E. lia.
Qed.
Lemma reads_opts (ws : list str) r : ws <> [] -> exec_reads ws r -> opts_are ws r (o <- exec_opts1 ws ;; exec_opts2 ws o).
Proof.
  intros Hne H.
  assert (G : forall o name rest, (forall s, exec_opts1 ws s = (OOk o, s)) -> skipn (x_pos o) ws = rest -> said ws o name ->
     read_second (x_empty o) (x_dash o) name rest r -> opts_are ws r (o <- exec_opts1 ws ;; exec_opts2 ws o)).
  { intros o name rest H1 H2 H3 H4 s. rewrite (bind_ok _ _ _ _ _ (H1 s)). exact (second_opts ws o rest name r H2 H3 H4 s). }
  inversion H as [x ws' r' Hx H2|o ws' e d r' H1 H2 He Hd Hed H3|o e d H1 H2 He Hd Hed|o name ws' e d r' H1 H2 He Hd H3|o ws' H1 H2 Hle]; subst.
  - apply (G (ExecOpts false false false 0) None (x :: ws')); [|reflexivity|reflexivity|exact H2].
    intros s. unfold exec_opts1, word_at. cbn [nth_error]. rewrite (bind_ok (unwrap (Some x)) _ s x s eq_refl).
    destruct (contains_char (ch "-") x) eqn:E; [|reflexivity].
    destruct Hx as [Hx|(Q1 & Q2 & Q3)]; [apply contains_char_In in E; contradiction|].
    apply contains_char_notIn in Q1, Q2, Q3. rewrite Q1, Q2, Q3. reflexivity.
  - apply contains_char_In in H1. apply contains_char_notIn in H2. apply says_contains in He. apply says_contains in Hd.
    apply (G (ExecOpts e d false 1) None ws'); [|reflexivity|reflexivity|exact H3].
    intros s. unfold exec_opts1, word_at. cbn [nth_error]. rewrite (bind_ok (unwrap (Some o)) _ s o s eq_refl). rewrite H1, H2, He, Hd, Hed. reflexivity.
  - apply contains_char_In in H1. apply contains_char_notIn in H2. apply says_contains in He. apply says_contains in Hd.
    intros s. rewrite (bind_ok _ _ s (ExecOpts e d false 1) s).
    + reflexivity.
    + unfold exec_opts1, word_at. cbn [nth_error]. rewrite (bind_ok (unwrap (Some o)) _ s o s eq_refl). rewrite H1, H2, He, Hd, Hed. reflexivity.
  - apply contains_char_In in H1. apply contains_char_In in H2. apply says_contains in He. apply says_contains in Hd.
    assert (Hw : ws' <> []) by (intros ->; inversion H3).
    apply (G (ExecOpts e d true 2) (Some name) ws'); [|reflexivity|split; [reflexivity|exists 1%nat; split; reflexivity]|exact H3].
    intros s. unfold exec_opts1, word_at. cbn [nth_error]. rewrite (bind_ok (unwrap (Some o)) _ s o s eq_refl). rewrite H1, H2, He, Hd.
    destruct ws'; [congruence|]. reflexivity.
  - apply contains_char_In in H1. apply contains_char_In in H2. intros s. unfold bind at 1, exec_opts1, word_at. cbn [nth_error].
    rewrite (bind_ok (unwrap (Some o)) _ s o s eq_refl). rewrite H1, H2.
    destruct (Nat.leb_spec (List.length (o :: ws')) 2) as [_|F]; [reflexivity|cbn in F; lia].
Qed.

(** [exec] with any words: exactly what their reading says. *)
Theorem C57_words_partial : forall w n ws vs r s, sget (lit "exec") (al (im s)) = None ->
  Forall written_arg ws -> Forall2 (ordinary (expand_var (cm (im s)))) ws vs -> vs <> [] -> exec_reads vs r ->
  exists s' o, exec_text w (S n) (r_words (lit "exec" :: ws)) s = (o, s') /\
  match r with
  | Missing => o = OErr (EText (lit "exec -a needs an argument")) /\ s' = blocked s
  | Breaks => o = OPanic
  | Runs e d name c args =>
      let argv := exec_argv d name c args in
      if existsb (contains_char 0%N) argv then o = OPanic else
      match lookup_command (r_isfile (w (EReset :: trace s))) c (cm (im s)) with
      | None => o = OPanic
      | Some None => o = OErr (EText (c ++ lit ": Command not found"))
      | Some (Some path) =>
          o = if contains_char 0%N path then OPanic
              else if r_exec (w (EReset :: trace s)) path argv then OExec path argv (if e then [] else env (im s)) else OErr EOs
      end
  end.
Proof.
  intros w n ws vs r s Ha Hw Ho Hne Hr.
  rewrite (exec_args_line w n (lit "exec") ws vs s eq_refl ltac:(discriminate) Ha Hw Ho), call_exec.
  unfold exec_cmd. cbn [words_of sc_suffix word_list].
  pose proof (reads_opts vs r Hne Hr (blocked s)) as HO. destruct vs as [|x vs]; [congruence|].
  assert (Hseq : forall (k : exec_opts -> M unit) s, (o <- exec_opts1 (x :: vs) ;; o <- exec_opts2 (x :: vs) o ;; k o) s =
     match (o <- exec_opts1 (x :: vs) ;; exec_opts2 (x :: vs) o) s with (OOk o, s') => k o s' | (o, s') => (lift o, s') end).
  { intros k s0. unfold bind. destruct (exec_opts1 (x :: vs) s0) as [[o| | | | | |] s1]; try reflexivity. }
  rewrite Hseq. destruct r as [e d name c args| |].
  - destruct HO as (o & E & E1 & E2 & E3). rewrite E, E3. cbv zeta. destruct (existsb (contains_char 0%N) (exec_argv d name c args)).
    { do 2 eexists. split; reflexivity. }
    unfold word_at. rewrite E2, E1. rewrite (bind_ok (unwrap (Some c)) _ (blocked s) c (blocked s) eq_refl).
    rewrite (bind_ok (look env) _ (blocked s) (env (im s)) (blocked s) eq_refl).
    destruct s as [i tr]. unfold blocked. cbn [im trace]. rewrite execve_result.
    set (i1 := with_js (with_masked true (js i)) i) in *. change (cm i1) with (cm i).
    destruct (lookup_command (r_isfile (w (EReset :: tr))) c (cm i)) as [[path|]|]; cbn [lift].
    + destruct (contains_char 0%N path); [do 2 eexists; split; reflexivity|].
      destruct (r_exec (w (EReset :: tr)) path (exec_argv d name c args)); do 2 eexists; split; reflexivity.
    + do 2 eexists; split; reflexivity.
    + do 2 eexists; split; reflexivity.
  - rewrite HO. do 2 eexists. split; [reflexivity|]. split; reflexivity.
  - rewrite HO. do 2 eexists. split; reflexivity.
Qed.
(** It crashes exactly when the words run out, when an argument or the path has a
    NUL character, and when there is no PATH. *)
Theorem C53_exec_crash : forall w n ws vs s, sget (lit "exec") (al (im s)) = None ->
  Forall written_arg ws -> Forall2 (ordinary (expand_var (cm (im s)))) ws vs -> vs <> [] ->
  fst (exec_text w (S n) (r_words (lit "exec" :: ws)) s) = OPanic <->
  exec_reads vs Breaks \/
  exists e d name c args, exec_reads vs (Runs e d name c args) /\
    ((exists a, In a (exec_argv d name c args) /\ In 0%N a) \/ PropertiesContext.path_value (cm (im s)) = None \/
     exists path, lookup_command (r_isfile (w (EReset :: trace s))) c (cm (im s)) = Some (Some path) /\ In 0%N path).
Proof.
  intros w n ws vs s Ha Hw Ho Hne.
  assert (R : forall e d name c args, exec_reads vs (Runs e d name c args) ->
    fst (exec_text w (S n) (r_words (lit "exec" :: ws)) s) = OPanic <->
    ((exists a, In a (exec_argv d name c args) /\ In 0%N a) \/ PropertiesContext.path_value (cm (im s)) = None \/
     exists path, lookup_command (r_isfile (w (EReset :: trace s))) c (cm (im s)) = Some (Some path) /\ In 0%N path)).
  { intros e d name c args Hr. destruct (C57_words_partial w n ws vs _ s Ha Hw Ho Hne Hr) as (s' & o & E & H). rewrite E. cbn [fst]. cbv zeta in H.
    destruct (existsb (contains_char 0%N) (exec_argv d name c args)) eqn:Ez.
    { split; [|intros _; exact H]. intros _. left. apply existsb_exists in Ez. destruct Ez as (a & Hin & Hc). exists a. split; [exact Hin|]. apply contains_char_In, Hc. }
    assert (Nz : ~ exists a, In a (exec_argv d name c args) /\ In 0%N a).
    { intros (a & Hin & Hc). apply contains_char_In in Hc. apply not_true_iff_false in Ez. apply Ez, existsb_exists. exists a. auto. }
    rewrite <- (PropertiesContext.C32_lookup_panics (r_isfile (w (EReset :: trace s))) c (cm (im s))).
    destruct (lookup_command (r_isfile (w (EReset :: trace s))) c (cm (im s))) as [[path|]|].
    - destruct (contains_char 0%N path) eqn:Ep.
      + apply contains_char_In in Ep. split; [intros _; right; right; eauto|intros _; exact H].
      + apply contains_char_notIn in Ep. split; [intros F; rewrite H in F; destruct (r_exec _ _ _); discriminate|].
        intros [F|[F|(p & F & Hp)]]; [contradiction|discriminate|]. injection F as <-. contradiction.
    - split; [congruence|]. intros [F|[F|(p & F & Hp)]]; [contradiction|discriminate|discriminate].
    - split; [auto|intros _; exact H]. }
  split.
  - intros HP. destruct (reads_total vs Hne) as [r Hr]. destruct r as [e d name c args| |].
    + right. exists e, d, name, c, args. split; [exact Hr|]. apply (R _ _ _ _ _ Hr). exact HP.
    + destruct (C57_words_partial w n ws vs _ s Ha Hw Ho Hne Hr) as (s' & o & E & H & _). rewrite E in HP. cbn in HP. congruence.
    + left. exact Hr.
  - intros [Hr|(e & d & name & c & args & Hr & H)].
    + destruct (C57_words_partial w n ws vs _ s Ha Hw Ho Hne Hr) as (s' & o & E & H). rewrite E. exact H.
    + apply (R _ _ _ _ _ Hr). exact H.
Qed.

Import PropertiesEval.
Definition ex_exec (t : string) := fst (exec_text ex_os 5 (lit t) (Shell (with_env [(lit "A", lit "b")] ex_image) [])).
Example C57_example :
  exec_words [lit "-cla"; lit "n"; lit "ls"; lit "-l"; lit "x"] true true (Some (lit "n")) (lit "ls") [lit "-l"; lit "x"] /\
  ex_exec " exec -cla n ls -l x" = OExec (lit "/bin/ls") [lit "-n"; lit "-l"; lit "x"] [] /\
  ex_exec " exec ls -l x" = OExec (lit "/bin/ls") [lit "ls"; lit "-l"; lit "x"] [(lit "A", lit "b")] /\
  ex_exec " exec -l ls" = OExec (lit "/bin/ls") [lit "-ls"] [(lit "A", lit "b")].
Proof.
  split; [|split; [vm_compute; reflexivity|split; vm_compute; reflexivity]].
  apply xw_name; [cbn; auto|cbn; auto|split; cbn; auto|split; cbn; auto|]. left. cbn. intuition discriminate.
Qed.

(** Two option words; a name given first is lost; words run out. *)
Example C57_words_example :
  exec_reads [lit "-a"; lit "n"; lit "-c"; lit "id"; lit "x"] (Runs true false (Some (lit "-c")) (lit "id") [lit "x"]) /\
  ex_exec " exec -a n -c id x" = OExec (lit "/bin/id") [lit "-c"; lit "x"] [] /\
  exec_reads [lit "-c"; lit "-a"; lit "n"; lit "ls"] (Runs true false (Some (lit "n")) (lit "ls") []) /\
  ex_exec " exec -c -a n ls" = OExec (lit "/bin/ls") [lit "n"] [] /\
  exec_reads [lit "-c"] Breaks /\ ex_exec " exec -c" = OPanic /\
  exec_reads [lit "x-cl"; lit "y"] (Runs true true None (lit "y") []) /\ ex_exec " exec x-cl y" = OExec (lit "/bin/y") [lit "-y"] [].
Proof.
  assert (I : forall c o, contains_char c o = true -> In c o) by (intros c o; apply contains_char_In).
  assert (N : forall c o, contains_char c o = false -> ~ In c o) by (intros c o; apply contains_char_notIn).
  assert (Y : forall o c, contains_char c o = true -> says o c true) by (intros o c H; split; auto).
  assert (F : forall o c, contains_char c o = false -> says o c false) by (intros o c H; split; [discriminate|intros G; destruct (N _ _ H G)]).
  split; [|split; [vm_compute; reflexivity|split; [|split; [vm_compute; reflexivity|split; [|split; [vm_compute; reflexivity|split; [|vm_compute; reflexivity]]]]]]].
  - eapply (er_name _ _ _ false false); [apply I; reflexivity|apply I; reflexivity|apply F; reflexivity|apply F; reflexivity|].
    apply (rs_plain false false (Some (lit "n")) (lit "-c") [lit "id"; lit "x"] true [lit "id"; lit "x"] false (lit "id") [lit "x"]); [apply I; reflexivity|apply le_yes, I; reflexivity|apply le_no, N; reflexivity|apply N; reflexivity].
  - eapply (er_flags _ _ true false); [apply I; reflexivity|apply N; reflexivity|apply Y; reflexivity|apply F; reflexivity|reflexivity|].
    apply (rs_name true false None (lit "-a") [lit "n"; lit "ls"] false [lit "-a"; lit "n"; lit "ls"] false (lit "-a") (lit "n") (lit "ls") []); [apply I; reflexivity|apply le_no, N; reflexivity|apply le_no, N; reflexivity|apply I; reflexivity].
  - eapply (er_break _ true false); [apply I; reflexivity|apply N; reflexivity|apply Y; reflexivity|apply F; reflexivity|reflexivity].
  - eapply (er_flags _ _ true true); [apply I; reflexivity|apply N; reflexivity|apply Y; reflexivity|apply Y; reflexivity|reflexivity|].
    apply rs_no, N. reflexivity.
Qed.

(** A command whose name contains a dash and an a, with one argument, is taken for
    an option and never run; and of two option words the second is misread when
    the command contains an a. *)
Theorem C57_dash_refuted :
  (forall w n x1 x2 c arg s, sget (lit "exec") (al (im s)) = None ->
     written_word x1 -> written_word x2 -> ordinary (expand_var (cm (im s))) x1 c -> ordinary (expand_var (cm (im s))) x2 arg ->
     In (ch "-") c -> In (ch "a") c ->
     exec_text w (S n) (r_words [lit "exec"; x1; x2]) s = (OErr (EText (lit "exec -a needs an argument")), blocked s)) /\
  ex_exec " exec apt-get update" = OErr (EText (lit "exec -a needs an argument")) /\
  ex_exec " exec -c -l cat x y" = OExec (lit "/bin/y") [lit "-x"] [].
Proof.
  split; [|split; vm_compute; reflexivity].
  intros w n x1 x2 c arg s Ha W1 W2 O1 O2 H1 H2.
  rewrite (exec_builtin' w n (lit "exec") [x1; x2] [c; arg] s); [|reflexivity|discriminate|exact Ha| |].
  - rewrite call_exec. unfold exec_cmd. cbn [words_of sc_suffix word_list]. unfold exec_opts1, word_at. cbn [nth_error].
    apply contains_char_In in H1, H2. unfold bind, unwrap, ret. rewrite H1, H2. reflexivity.
  - constructor; [exact W1|]. constructor; [exact W2|]. constructor.
  - constructor; [exact O1|]. constructor; [exact O2|]. constructor.
Qed.

(** ** C77 *)

(** When the program cannot be executed, the shell goes on without its signal
    handlers: from then on an interrupt kills it and ended children are not
    noticed. *)
Theorem C77_failed_exec_refuted : forall w n ws vs e d name c args s er s', sget (lit "exec") (al (im s)) = None ->
  Forall written_word ws -> Forall2 (ordinary (expand_var (cm (im s)))) ws vs ->
  (forall x, In x (List.concat vs) -> x <> 0%N) -> exec_words vs e d name c args ->
  exec_text w (S n) (r_words (lit "exec" :: ws)) s = (OErr er, s') ->
  handlers (im s') = false /\ masked (js (im s')) = false /\ cm (im s') = cm (im s) /\ env (im s') = env (im s) /\
  fds (im s') = fds (im s) /\ jobs (js (im s')) = jobs (js (im s)).
Proof.
  intros w n ws vs e d name c args s er s' Ha Hw Ho Hz Hx H.
  rewrite (exec_builtin' w n (lit "exec") ws vs s) in H by (auto; discriminate).
  destruct s as [i tr]. unfold blocked in H. cbn [im trace] in *.
  erewrite run_exec in H by eassumption. rewrite execve_result in H.
  destruct (lookup_command _ _ _) as [[path|]|]; cbn in H.
  - destruct (contains_char 0%N path); [discriminate|]. destruct (r_exec _ _ _); [discriminate|].
    injection H as _ <-. cbn. repeat split; reflexivity.
  - injection H as _ <-. cbn. repeat split; reflexivity.
  - discriminate.
Qed.
Definition ex_missing : os := fun t =>
  let r := ex_reports 0 in
  Reports (fun _ => false) (r_open r) (r_read r) (r_chdir r) (r_cwd r) (r_kill r) (r_pipe r) (r_fork r) (r_exec r) (r_getpid r) (r_waits r) (r_subst r).
Example C77_example :
  fst (exec_text ex_missing 5 (lit " exec nothere x") ex_shell) = OErr (EText (lit "nothere: Command not found")) /\
  handlers (im ex_shell) = true /\ handlers (im (snd (exec_text ex_missing 5 (lit " exec nothere x") ex_shell))) = false.
Proof. split; [vm_compute; reflexivity|]. split; vm_compute; reflexivity. Qed.

Print Assumptions C57_exec_partial.
Print Assumptions C57_words_partial.
Print Assumptions C53_exec_crash.
Print Assumptions C57_dash_refuted.
Print Assumptions C77_failed_exec_refuted.
