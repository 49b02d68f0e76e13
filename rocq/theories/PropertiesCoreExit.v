(** Property C142: [exit] and [exec] in scripts of the core language. *)
From Verif Require Import Base BaseFacts Lexer LexerSpec Ast Parser GrammarSpec.
From Verif Require Import Context.
From Verif Require ContextSpec ContextFacts ContextLaws PropertiesContext.
From Verif Require Import Alias Expand ExpandSpec ExpandFacts ExpandLaws Jobs JobsSpec Shell Builtins Eval.
From Verif Require Import EvalSpec EvalFacts EvalLaws EvalKeeps RunSpec RunLaws PipeSpec PipeLaws ChildLaws PipeRun.
From Verif Require Import PropertiesProgram.
From Verif Require LexerFacts PropertiesEval PropertiesExec MainSpec Main MainLaws PropertiesMain PropertiesSession.
From Verif Require Import EvalFds.
From Verif Require Import PropertiesBuiltins.
From Verif Require Import CoreSpec PropertiesCore CoreExitSpec.
Local Open Scope Z_scope.

(** ** Numbers *)

Lemma decimal_digits ds : Forall digit ds -> forall acc, exists v, digits_value acc ds = Some v /\ decimal (Z.of_N acc) ds = Z.of_N v.
Proof.
  induction 1 as [|c ds Hc _ IH]; intros acc; [exists acc; split; reflexivity|].
  cbn [digits_value decimal]. unfold to_digit. unfold digit in Hc.
  replace ((48 <=? c) && (c <=? 57))%N with true by (symmetry; apply andb_true_iff; split; apply N.leb_le; lia).
  replace (10 * Z.of_N acc + (Z.of_N c - 48)) with (Z.of_N (10 * acc + (c - 48))) by lia. apply IH.
Qed.
Lemma number_numeral s : a_number s -> numeral s (number s).
Proof.
  intros [(ds & Hs & Hne & Hd) Hr]. destruct (decimal_digits ds Hd 0) as (v & E1 & E2).
  destruct Hs as [->|[->| ->]].
  - left. exists ds, v. split; [left; reflexivity|]. split; [exact Hne|]. split; [exact E1|]. split; [|apply Hr].
    destruct Hd as [|c ds Hc Hd]; [congruence|]. unfold number. unfold digit in Hc.
    destruct (N.eqb_spec c (ch "-")) as [->|_]; [exfalso; cbn in Hc; lia|]. destruct (N.eqb_spec c (ch "+")) as [->|_]; [exfalso; cbn in Hc; lia|exact E2].
  - right. exists ds, v. split; [reflexivity|]. split; [exact Hne|]. split; [exact E1|]. split; [|apply Hr].
    unfold number. rewrite N.eqb_refl. change 0 with (Z.of_N 0). rewrite E2. reflexivity.
  - left. exists ds, v. split; [right; reflexivity|]. split; [exact Hne|]. split; [exact E1|]. split; [|apply Hr].
    change (number (ch "+" :: ds)) with (decimal 0 ds). exact E2.
Qed.

(** ** The status the shell remembers *)

(** What a pipeline ends with is 0 or what the shell remembers. *)
Lemma pipeline_status w d p s st s' : wf_pipeline p -> exec_text w (S d) (r_pipeline p) s = (OOk st, s') -> st = 0 \/ st = exit_status (im s').
Proof.
  intros Hw H. rewrite exec_pipeline in H by exact Hw. destruct p as [bang cs bg]. unfold eval_pipeline in H.
  apply seq_inv_ok in H. destruct H as (? & s1 & _ & H). apply bind_inv_ok in H. destruct H as (pcs & s2 & _ & H).
  destruct pcs as [|pc pcs]; [left; injection H as <- _; reflexivity|]. right.
  apply bind_inv_ok in H. destruct H as (pcs' & s3 & _ & H). unfold run_job in H.
  apply bind_inv_ok in H. destruct H as (id & s4 & _ & H). apply seq_inv_ok in H. destruct H as (? & s5 & _ & H).
  apply seq_inv_ok in H. destruct H as (? & s6 & _ & H). apply seq_inv_ok in H. destruct H as (? & s7 & _ & H).
  apply seq_inv_ok in H. destruct H as (? & s8 & _ & H). injection H as <- <-. reflexivity.
Qed.
Lemma chain_status w d st s rest ran o s' : Forall (fun cp => wf_pipeline (snd cp)) rest ->
  EvalSpec.chain (fun p => exec_text w (S d) (r_pipeline p)) st s rest ran o s' ->
  st = 0 \/ st = exit_status (im s) -> forall st', o = OOk st' -> st' = 0 \/ st' = exit_status (im s').
Proof.
  intros Hw H. induction H as [st s|st s c p rest ran o s' _ _ IH|st s c p rest st1 s1 ran o s' _ Hp _ IH|st s c p rest o s' _ _ Hf]; intros Hst st' E.
  - injection E as <-. exact Hst.
  - inversion Hw; subst. apply IH; auto.
  - inversion Hw; subst. apply IH; auto. eapply pipeline_status; eassumption.
  - subst o. destruct Hf.
Qed.
Lemma chain_then (run : pipeline -> M Z) st s a ran st1 s1 : EvalSpec.chain run st s a ran (OOk st1) s1 -> forall b ran2 o s2,
  EvalSpec.chain run st1 s1 b ran2 o s2 -> EvalSpec.chain run st s (a ++ b) (ran ++ ran2) o s2.
Proof.
  intros H. remember (OOk st1) as o1 eqn:E. revert E.
  induction H as [st s|st s c p rest ran o s' Hn _ IH|st s c p rest st2 s2 ran o s' Hn Hp _ IH|st s c p rest o s' _ _ Hf]; intros E b ran2 o2 sb H2.
  - injection E as ->. exact H2.
  - cbn [app]. apply chain_skip; auto.
  - cbn [app]. eapply chain_run; eauto.
  - subst o. destruct Hf.
Qed.

Section Leaving.
Context (w : os) (aliases_ : aliases) (functions_ : str -> option function_body) (readonly : str -> bool) (old : nmap job) (t0 : fdtable) (code : world).
Context (Hsys : system w old code).
Notation agrees := (agrees aliases_ functions_ readonly old t0 0 false).
Notation chain_ok := (chain_ok aliases_ functions_ readonly).

(** [exit] without a number is in the range only behind [||]. *)
Definition leave_ok (e : leave) : Prop :=
  match e with
  | Exit a => arg_ok a /\ sget (lit "exit") aliases_ = None
  | ExitSame => sget (lit "exit") aliases_ = None
  | Exec n args => plain_word n /\ PropertiesExec.quiet n /\ Forall arg_ok args /\ sget (lit "exec") aliases_ = None
  end.
Definition item_ok (i : item) : Prop :=
  match i with
  | Go l => chain_ok l
  | Leave e => leave_ok e /\ e <> ExitSame
  | Unless l o e => chain_ok l /\ leave_ok e /\ (e = ExitSame -> o = COr)
  end.

(** How the shell ends.  When it is to become a program, it does so if there is one
    of that name on the path and the system agrees; with the signals as usual. *)
Definition ends_so {A} (r : result) (o : out A) (s' : shell) : Prop :=
  match r with
  | Ends _ _ => exists v, o = OOk v
  | Exits z _ => o = OExit z
  | Becomes av e _ =>
      masked (js (im s')) = false /\ handlers (im s') = false /\
      (forall path, lookup_command (r_isfile (w (trace s'))) (hd [] av) (cm (im s')) = Some (Some path) -> ~ In 0%N path ->
         r_exec (w (trace s')) path av = true -> o = OExec path av e) /\
      (forall path av' e', o = OExec path av' e' ->
         lookup_command (r_isfile (w (trace s'))) (hd [] av) (cm (im s')) = Some (Some path) /\ av' = av /\ e' = e)
  end.

Definition leave_pipe (e : leave) : pipeline :=
  match leave_words e with
  | [] => Pipeline false [] false
  | n :: ws => Pipeline false [CSimple (words_cmd n ws)] false
  end.
Lemma leave_tree e : leave_ok e -> wf_pipeline (leave_pipe e) /\ r_pipeline (leave_pipe e) = leave_text e.
Proof.
  intros H. destruct e as [a| |n args]; cbn [leave_pipe leave_words]; unfold leave_text; cbn [leave_words].
  - apply (words_line (lit "exit") [arg_text a]); [discriminate|]. apply Forall_cons; [spelled|]. apply Forall_cons; [apply arg_written, H|apply Forall_nil].
  - apply (words_line (lit "exit") []); [discriminate|]. apply Forall_cons; [spelled|apply Forall_nil].
  - destruct H as (Hn & _ & Ha & _). apply (words_line (lit "exec") (n :: map arg_text args)); [discriminate|].
    apply Forall_cons; [spelled|]. apply Forall_cons; [apply plain_written, Hn|]. apply Forall_map. eapply Forall_impl; [|exact Ha]. apply arg_written.
Qed.

Lemma leave_run k ap d e st m s : PropertiesCore.agrees aliases_ functions_ readonly old t0 k ap m s -> leave_ok e -> leave_fits m e -> (e = ExitSame -> st = exit_status (im s)) ->
  exists o s', exec_text w (S d) (r_pipeline (leave_pipe e)) s = (o, s') /\ fails o /\ ends_so (left_by e st m) o s' /\ PropertiesCore.agrees aliases_ functions_ readonly old t0 k ap m s'.
Proof.
  intros A Hok Hf Hst. pose proof A as []. rewrite (proj2 (leave_tree e Hok)). destruct e as [a| |n args]; unfold leave_text; cbn [leave_words leave_ok leave_fits left_by] in *.
  - destruct Hok as [Ha Hal]. destruct Hf as [Hv Hn]. destruct (arg_ordinary _ _ _ _ _ _ _ m s a A Ha Hv) as (Ho & _).
    destruct (PropertiesEval.C52_exit w d s ltac:(congruence)) as [E _].
    specialize (E _ _ _ (arg_written _ Ha) Ho (number_numeral _ Hn)). change (spaced _) with (r_words [lit "exit"; arg_text a]).
    rewrite E. do 2 eexists. split; [reflexivity|]. split; [exact I|]. split; [reflexivity|]. split; assumption.
  - destruct (PropertiesEval.C52_exit w d s ltac:(congruence)) as [_ E]. change (spaced _) with (r_words [lit "exit"]). rewrite E, <- (Hst eq_refl).
    do 2 eexists. split; [reflexivity|]. split; [exact I|]. split; [reflexivity|]. split; assumption.
  - destruct Hok as (Hn & Hq & Ha & Hal).
    assert (Hargs : Forall2 (ordinary (expand_var (cm (im s)))) (map arg_text args) (map (arg_value m) args) /\
      ~ In 0%N (List.concat (map (arg_value m) args)) /\ List.concat (map (arg_fields m) args) = map (arg_value m) args).
    { clear -A Ha Hf. induction Ha as [|a args H _ IH]; [split; [constructor|split; [intros []|reflexivity]]|].
      destruct IH as (I1 & I2 & I3); [intros x F; apply Hf; right; exact F|].
      destruct (arg_ordinary _ _ _ _ _ _ _ m s a A H) as (O1 & O2 & O3); [intros x ->; apply Hf; left; reflexivity|].
      cbn [map List.concat]. split; [constructor; assumption|]. split; [|rewrite O3, I3; reflexivity].
      intros F. apply in_app_or in F. tauto. }
    destruct Hargs as (I1 & I2 & I3).
    destruct (arg_ordinary _ _ _ _ _ _ _ m s (Plain n) A Hn) as (O1 & O2 & _); [discriminate|]. cbn [arg_text arg_value] in O1, O2.
    change (spaced _) with (r_words (lit "exec" :: n :: map arg_text args)).
    assert (W : Forall written_word (n :: map arg_text args)).
    { apply Forall_cons; [apply plain_written, Hn|]. apply Forall_map. eapply Forall_impl; [|exact Ha]. apply arg_written. }
    rewrite (exec_builtin' w d (lit "exec") _ (n :: map (arg_value m) args) s eq_refl ltac:(discriminate) ltac:(congruence) W (Forall2_cons _ _ O1 I1)).
    destruct s as [i tr]. unfold blocked. cbn [im trace] in *.
    rewrite (PropertiesExec.run_exec w _ None [] _ false false None n (map (arg_value m) args) _ tr (PropertiesExec.xw_plain n _ Hq)).
    2:{ intros x F ->. apply in_app_or in F. tauto. }
    rewrite execve_result. unfold PropertiesExec.exec_argv. cbn [app]. rewrite I3.
    set (i1 := with_js (with_masked true (js i)) i). set (av := n :: map (arg_value m) args).
    match goal with |- context[(_, ?x)] => set (s2 := x) end.
    assert (A2 : PropertiesCore.agrees aliases_ functions_ readonly old t0 k ap m s2) by (split; assumption).
    change (cm i1) with (cm i). change (env i1) with (env i).
    assert (L : forall p, lookup_command (r_isfile (w (trace s2))) n (cm (im s2)) = Some (Some p) -> lookup_command (r_isfile (w (EReset :: tr))) n (cm i) = Some (Some p)) by (intros p F; exact F).
    destruct (lookup_command (r_isfile (w (EReset :: tr))) n (cm i)) as [[path|]|] eqn:El.
    + destruct (contains_char 0%N path) eqn:Ez; [|match goal with |- context[r_exec ?x path ?y] => destruct (r_exec x path y) eqn:Ex end]; cbn [lift];
        do 2 eexists; (split; [reflexivity|]); (split; [exact I|]); (split; [|exact A2]); (split; [reflexivity|]); (split; [reflexivity|]).
      * split; [|discriminate]. intros p G F _. apply L in G. injection G as <-. apply contains_char_In in Ez. contradiction.
      * split; [intros p G _ _; apply L in G; injection G as <-; rewrite <- ag_env; reflexivity|].
        intros p av' e' [= <- <- <-]. rewrite <- ag_env. split; [exact El|]. split; reflexivity.
      * split; [|discriminate]. intros p G _ F. apply L in G. injection G as <-. assert (F' := eq_trans (eq_sym Ex) F). discriminate.
    + do 2 eexists. split; [reflexivity|]. split; [exact I|]. split; [|exact A2]. split; [reflexivity|]. split; [reflexivity|].
      split; [|discriminate]. intros p G. apply L in G. discriminate.
    + do 2 eexists. split; [reflexivity|]. split; [exact I|]. split; [|exact A2]. split; [reflexivity|]. split; [reflexivity|].
      split; [|discriminate]. intros p G. apply L in G. discriminate.
Qed.

Definition item_tree (i : item) : and_or :=
  match i with
  | Go l => chain_tree l
  | Leave e => AoOne (leave_pipe e)
  | Unless l o e => tree_of (comm_pipe (fst l)) (more_pipes (snd l) ++ [(o, leave_pipe e)])
  end.
Lemma item_facts i : item_ok i -> wf_andor (item_tree i) /\ r_andor (item_tree i) = item_text i.
Proof.
  intros H. destruct i as [l|e|l o e]; cbn [item_tree item_text item_ok] in *.
  - destruct (chain_facts _ _ _ l H) as (W1 & W2 & _). split; assumption.
  - exact (leave_tree e (proj1 H)).
  - destruct H as (Hl & He & _). destruct (chain_facts _ _ _ l Hl) as (W1 & W2 & W3 & W4). destruct (leave_tree e He) as [V1 V2].
    split.
    + apply wf_tree; [exact W3|]. apply Forall_app. split; [exact W4|]. apply Forall_cons; [exact V1|apply Forall_nil].
    + rewrite <- W2, text_tree. unfold chain_tree. rewrite text_tree. unfold chain_text. rewrite map_app, concat_app, app_assoc. f_equal.
      cbn [map List.concat fst snd]. rewrite app_nil_r, V2. destruct o; reflexivity.
Qed.

Lemma chain_runs d l m s st m' : chain_ok l -> agrees m s -> always_chain code (fits code) l m -> run_chain code l m = (st, m') ->
  exists st1 s1 ran s', exec_text w (S d) (r_pipeline (comm_pipe (fst l))) s = (OOk st1, s1) /\
    EvalSpec.chain (fun p => exec_text w (S d) (r_pipeline p)) st1 s1 (more_pipes (snd l)) ran (OOk st) s' /\ agrees m' s' /\
    (st = 0 \/ st = exit_status (im s')).
Proof.
  intros Hok A [Hf0 Hf] E. destruct (chain_facts _ _ _ l Hok) as (W1 & W2 & W3 & W4). destruct Hok as [H0 Hr].
  unfold run_chain in E. destruct (step code (fst l) m) as [st1 m1] eqn:E1.
  destruct (step_agrees w _ _ _ _ _ _ 0 false Hsys d (fst l) m s st1 m1 A H0 Hf0 (settled_top m _) E1) as (s1 & K1 & K2).
  destruct (more_agrees w _ _ _ _ _ _ Hsys d (snd l) Hr st1 m1 s1 st m' K2 Hf E) as (ran & s' & K3 & K4).
  exists st1, s1, ran, s'. split; [exact K1|]. split; [exact K3|]. split; [exact K4|].
  eapply chain_status; [exact W4|exact K3| |reflexivity]. eapply pipeline_status; [exact W3|exact K1].
Qed.

Lemma items_agree d l : Forall item_ok l -> forall st0 m s, agrees m s -> items_fit code l m ->
  exists ran o s', in_order (fun a => exec_text w (S d) (r_andor a)) st0 s (map item_tree l) ran o s' /\
    agrees (final (run_items code l st0 m)) s' /\ ends_so (run_items code l st0 m) o s' /\
    (forall st m', run_items code l st0 m = Ends st m' -> o = OOk st).
Proof.
  induction 1 as [|i l Hi _ IH]; intros st0 m s A Hf.
  - exists [], (OOk st0), s. split; [constructor|]. split; [exact A|]. split; [eexists; reflexivity|]. intros st m' [= -> _]. reflexivity.
  - assert (LE : forall e st mm, final (left_by e st mm) = mm) by (intros [| |] ? ?; reflexivity).
    assert (NE : forall e st mm st' m', left_by e st mm <> Ends st' m') by (intros [| |] ? ? ? ?; discriminate).
    destruct i as [c|e|c o e]; cbn [run_items items_fit item_ok map item_tree] in *.
    + destruct Hf as [Hf0 Hf]. destruct (run_chain code c m) as [st1 m1] eqn:E1. cbn [snd] in Hf.
      destruct (chain_agrees w _ _ _ _ _ _ Hsys d c m s st1 m1 Hi A Hf0 E1) as (s1 & H1 & H2).
      destruct (IH st1 m1 s1 H2 Hf) as (ran & o & s' & H3 & H4). exists ((chain_tree c, OOk st1) :: ran), o, s'. split; [eapply in_order_run; eassumption|exact H4].
    + destruct Hi as [He Hne]. destruct (leave_run 0 false d e st0 m s A He Hf) as (o & s' & R1 & R2 & R3 & R4); [intros F; contradiction|].
      exists [(AoOne (leave_pipe e), o)], o, s'. split; [apply in_order_stop; assumption|]. rewrite LE. split; [exact R4|]. split; [exact R3|].
      intros st m' F. destruct (NE _ _ _ _ _ F).
    + destruct Hf as [Hf0 Hf]. destruct Hi as (Hc & He & Hs). destruct (run_chain code c m) as [st1 m1] eqn:E1.
      destruct (chain_facts _ _ _ c Hc) as (W1 & W2 & W3 & W4).
      destruct (chain_runs d c m s st1 m1 Hc A Hf0 E1) as (st2 & s2 & ran & s3 & C1 & C2 & C3 & C4).
      assert (W5 : Forall (fun cp => wf_pipeline (snd cp)) (more_pipes (snd c) ++ [(o, leave_pipe e)])).
      { apply Forall_app. split; [exact W4|]. apply Forall_cons; [apply leave_tree, He|apply Forall_nil]. }
      destruct (goes_on o st1) eqn:G.
      * assert (Hw : EvalSpec.wanted o st1) by (destruct o; cbn in G |- *; [apply Z.eqb_eq, G|apply negb_true_iff, Z.eqb_neq in G; exact G]).
        destruct (leave_run 0 false d e st1 m1 s3 C3 He Hf) as (r & s' & R1 & R2 & R3 & R4).
        { intros F. specialize (Hs F). subst o. cbn in G. apply negb_true_iff, Z.eqb_neq in G. destruct C4; [contradiction|assumption]. }
        exists [(tree_of (comm_pipe (fst c)) (more_pipes (snd c) ++ [(o, leave_pipe e)]), r)], r, s'.
        split; [|rewrite LE; split; [exact R4|]; split; [exact R3|]; intros st m' F; destruct (NE _ _ _ _ _ F)].
        apply in_order_stop; [|exact R2]. rewrite text_tree. apply exec_chain; [exact W3|exact W5|].
        eexists. eapply whole_run; [exact C1|]. eapply chain_then; [exact C2|]. eapply chain_stop; eassumption.
      * assert (Hw : ~ EvalSpec.wanted o st1) by (destruct o; cbn in G |- *; [apply Z.eqb_neq, G|apply negb_false_iff, Z.eqb_eq in G; intros F; exact (F G)]).
        destruct (IH st1 m1 s3 C3 Hf) as (ran2 & r & s' & H3 & H4).
        eexists _, r, s'. split; [|exact H4]. eapply in_order_run; [|exact H3].
        rewrite text_tree. apply exec_chain; [exact W3|exact W5|].
        eexists. eapply whole_run; [exact C1|]. eapply chain_then; [exact C2|]. apply chain_skip; [exact Hw|constructor].
Qed.

Lemma items_render l : Forall item_ok l -> render (map item_tree l) = items_text l.
Proof.
  intros H. unfold render, items_text. f_equal. rewrite map_map. apply map_ext_in. intros i Hi. rewrite Forall_forall in H. apply item_facts, H, Hi.
Qed.
Lemma items_parse l : Forall item_ok l -> l <> [] -> 
  parse (items_text l) = Some (Some (map item_tree l)) /\ parse (items_text l ++ [10%N]) = Some (Some (map item_tree l)).
Proof.
  intros Hok Hne. rewrite <- (items_render l Hok).
  assert (Hw : Forall wf_andor (map item_tree l)).
  { apply Forall_map. eapply Forall_impl; [|exact Hok]. intros i Hi. apply item_facts, Hi. }
  assert (Hm : map item_tree l <> []) by (destruct l; [congruence|discriminate]).
  split; [exact (GrammarFacts.render_parse _ Hm Hw)|exact (GrammarFacts.render_parse_newline _ Hm Hw)].
Qed.

(** A script that leaves the shell does so where its meaning says, with that status
    or as that program; what was to be done before has been done, and nothing else. *)
Theorem C142_core_partial : forall d l st0 m s, agrees m s -> Forall item_ok l -> l <> [] -> items_fit code l m ->
  let r := run_items code l st0 m in
  exists o s', exec_text w (S d) (items_text l) s = (o, s') /\ ends_so r o s' /\ agrees (final r) s' /\
    forall st m', r = Ends st m' -> o = OOk st.
Proof.
  intros d l st0 m s A Hok Hne Hf r. destruct (items_agree d l Hok st0 m s A Hf) as (ran & o & s' & H1 & H2 & H3 & H4).
  exists o, s'. split; [|split; [exact H3|split; [exact H2|exact H4]]]. rewrite <- (items_render l Hok). apply (exec_list w (S d) _ st0).
  - destruct l; [congruence|discriminate].
  - apply Forall_map. eapply Forall_impl; [|exact Hok]. intros i Hi. apply item_facts, Hi.
  - exists ran. exact H1.
Qed.
End Leaving.

(** ** The shell as it is started *)

Lemma after_exec_kept t : nsorted t -> forall fd, nget fd (after_exec t) = kept (nget fd t).
Proof.
  unfold after_exec. induction t as [|[k d] t IH]; intros Hs fd; [reflexivity|]. cbn [filter snd nget].
  inversion Hs as [|? ? ? Hall Hs']; subst.
  assert (Hlt : nget k t = None).
  { clear -Hall. induction Hall as [|[j e] t H _ IH]; [reflexivity|]. cbn [nget fst] in *. destruct (Z.eqb_spec k j); [lia|exact IH]. }
  destruct (d_cloexec d) eqn:Ec; cbn [negb nget]; destruct (Z.eqb_spec fd k) as [->|_]; try (apply IH; exact Hs').
  - cbn [kept]. rewrite Ec, IH by exact Hs'. rewrite Hlt. reflexivity.
  - cbn [kept]. rewrite Ec. reflexivity.
Qed.

(** What has been done: the programs that were started, the directory, the environment
    and the variables; and what a program that takes the place of the shell has open. *)
Definition did (fds : fdtable) (m : machine) (s' : shell) : Prop :=
  programs_of (trace s') = started m /\ directories (trace s') = visited m /\ Forall (executes fds) (forks (trace s')) /\ linked (forks (trace s')) /\
  (forall fd, nget fd (after_exec (Shell.fds (im s'))) = kept (nget fd fds)) /\
  Shell.env (im s') = environment m /\ forall x, identifier x -> expand_var (cm (im s')) x = CoreSpec.vars m x.
Lemma agrees_did al_ fs ro old fds fds' k ap m s : (forall fd, kept (nget fd fds') = kept (nget fd fds)) ->
  agrees al_ fs ro old fds' k ap m s -> did fds m s.
Proof.
  intros Hk A. split; [exact (ag_started _ _ _ _ _ _ _ _ _ A)|]. split; [exact (ag_visited _ _ _ _ _ _ _ _ _ A)|].
  split; [eapply Forall_impl; [|exact (ag_executes _ _ _ _ _ _ _ _ _ A)]; intros f; apply executes_kept; exact Hk|].
  split; [exact (ag_linked _ _ _ _ _ _ _ _ _ A)|].
  split; [intros fd; rewrite after_exec_kept by exact (proj1 (proj1 (ag_fds _ _ _ _ _ _ _ _ _ A))); rewrite (ag_files _ _ _ _ _ _ _ _ _ A); apply Hk|].
  split; [exact (ag_env _ _ _ _ _ _ _ _ _ A)|].
  intros x Hx. unfold expand_var. rewrite (ag_vars _ _ _ _ _ _ _ _ _ A x Hx). destruct (CoreSpec.vars m x); reflexivity.
Qed.

Lemma ends_lifted {A} w r (o : out A) s' : ends_so w r o s' -> ends_so w r (match o with OOk _ | OErr _ => OOk tt | o => lift o end) s'.
Proof.
  intros H. destruct r as [st m|z m|av e m]; cbn [ends_so] in *.
  - destruct H as [v ->]. eexists. reflexivity.
  - subst o. reflexivity.
  - destruct H as (M1 & M2 & M3 & M4). split; [exact M1|]. split; [exact M2|]. split.
    + intros p Q1 Q2 Q3. rewrite (M3 p Q1 Q2 Q3). reflexivity.
    + intros p av' e' E. apply M4. destruct o; try discriminate. cbn [lift] in E. injection E as -> -> ->. reflexivity.
Qed.

(** [rsh -c script]. *)
Theorem C142_dash_c_partial : forall w code n k args ins root cwd ppid pid env fds l,
  MainSpec.asks args (MainSpec.Commands (items_text l)) -> MainSpec.no_startup_files w -> system w [] code ->
  NoDup (map fst env) -> table fds -> no_future_pipe fds 0 -> nget 0 fds <> None -> nget 1 fds <> None ->
  Forall (item_ok [] (fun _ => None) (fun _ => false)) l -> l <> [] ->
  items_fit code l (at_start root cwd ppid pid env) ->
  let r := run_items code l 0 (at_start root cwd ppid pid env) in
  exists o s', Main.main w (S n) k args ins (Shell (Main.fresh_image root cwd ppid pid env fds) []) = (o, s') /\
    ends_so w r o s' /\ did fds (final r) s'.
Proof.
  intros w code n k args ins root cwd ppid pid env fds l Ha Hns Hsys Hnd Ht Hf H0 H1 Hok Hne Hfit r.
  set (s := Shell (Main.fresh_image root cwd ppid pid env fds) []).
  set (c := Context (default_vars root cwd ppid pid env) [] []).
  assert (Hc : cm (im s) = MainLaws.one_scope c) by reflexivity.
  destruct (MainLaws.parse_args_asks args _ (cm (im s)) Ha) as [out Hp].
  destruct (MainLaws.main_begins w (S n) k args ins s _ _ c Hp Hc eq_refl Hns) as (s1 & Em & Htr & Hi & Hj & Hm).
  assert (A : agrees [] (fun _ => None) (fun _ => false) [] fds 0 false (at_start root cwd ppid pid env) s1).
  { eapply agrees_start; eauto. }
  destruct (C142_core_partial w [] (fun _ => None) (fun _ => false) [] fds code Hsys n l 0 _ s1 A Hok Hne Hfit) as (o & s' & Ex & Hr & A' & _).
  fold r in Hr, A'. rewrite Em. cbn [MainLaws.goes_on]. unfold Main.read_from_args. unfold exec_text in Ex.
  destruct (items_parse _ _ _ l Hok Hne) as [P _]. rewrite P in Ex |- *.
  rewrite (bind_ok (unwrap (Some (Some (map item_tree l)))) _ s1 _ s1 eq_refl). rewrite MainLaws.drop_error, Ex.
  exists match o with OOk _ | OErr _ => OOk tt | o => lift o end, s'.
  split; [destruct o; reflexivity|]. split; [apply ends_lifted, Hr|eapply agrees_did; [|exact A']; reflexivity].
Qed.

Lemma run_items_app code a : forall b st m, run_items code (a ++ b) st m =
  match run_items code a st m with Ends st' m' => run_items code b st' m' | r => r end.
Proof.
  induction a as [|[c|e|c o e] a IH]; intros b st m; cbn [app run_items]; [reflexivity| | |].
  - destruct (run_chain code c m) as [st1 m1]. apply IH.
  - destruct e; reflexivity.
  - destruct (run_chain code c m) as [st1 m1]. destruct (goes_on o st1); [destruct e; reflexivity|apply IH].
Qed.
Lemma items_fit_app code a : forall b st m, items_fit code (a ++ b) m -> items_fit code a m /\
  match run_items code a st m with Ends _ m' => items_fit code b m' | _ => True end.
Proof.
  induction a as [|[c|e|c o e] a IH]; intros b st m; cbn [app run_items items_fit]; [tauto| | |].
  - intros [H1 H2]. destruct (run_chain code c m) as [st1 m1]. cbn [snd] in H2 |- *. destruct (IH b st1 m1 H2). tauto.
  - intros H. split; [exact H|]. destruct e; exact I.
  - intros [H1 H2]. destruct (run_chain code c m) as [st1 m1]. destruct (goes_on o st1).
    + split; [tauto|]. destruct e; exact I.
    + destruct (IH b st1 m1 H2). tauto.
Qed.
(** [x] keeps a value. *)
Definition item_leaves (x : str) (i : item) : Prop :=
  match i with Go l | Unless l _ _ => leaves x [l] | Leave _ => True end.
Lemma items_leave code x l : Forall (item_leaves x) l -> forall st m, CoreSpec.vars m x <> None ->
  CoreSpec.vars (final (run_items code l st m)) x <> None.
Proof.
  assert (K : forall c m, leaves x [c] -> CoreSpec.vars m x <> None -> CoreSpec.vars (snd (run_chain code c m)) x <> None).
  { intros c m H Hv. pose proof (script_leaves code x [c] H 0 m Hv) as G. cbn [run_script] in G. destruct (run_chain code c m). exact G. }
  assert (LE : forall e st mm, final (left_by e st mm) = mm) by (intros [| |] ? ?; reflexivity).
  induction 1 as [|[c|e|c o e] l Hi _ IH]; intros st m Hv; cbn [run_items item_leaves] in *; [exact Hv| | |].
  - specialize (K c m Hi Hv). destruct (run_chain code c m) as [st1 m1]. apply IH, K.
  - rewrite LE. exact Hv.
  - specialize (K c m Hi Hv). destruct (run_chain code c m) as [st1 m1]. destruct (goes_on o st1); [rewrite LE; exact K|apply IH, K].
Qed.

(** How the shell ends, where it ends so: when it is to become a program, provided that
    there is one of that name on the path and the system agrees.  (If not, the shell goes
    on with the next line.) *)
Definition leaves_by (w : os) (r : result) (at_end : out unit) (s' : shell) (P : out unit -> Prop) : Prop :=
  match r with
  | Ends _ _ => P at_end
  | Exits z _ => P (OExit z)
  | Becomes av e _ =>
      masked (js (im s')) = false /\ handlers (im s') = false /\
      forall path, lookup_command (r_isfile (w (trace s'))) (hd [] av) (cm (im s')) = Some (Some path) -> ~ In 0%N path ->
        r_exec (w (trace s')) path av = true -> P (OExec path av e)
  end.
Lemma leaves_by_mono w r e s' (P Q : out unit -> Prop) : (forall o, P o -> Q o) -> leaves_by w r e s' P -> leaves_by w r e s' Q.
Proof.
  intros H. destruct r; cbn [leaves_by]; [apply H|apply H|]. intros (M1 & M2 & M3). split; [exact M1|]. split; [exact M2|].
  intros p Q1 Q2 Q3. apply H, M3; assumption.
Qed.

Section Lines.
Context (w : os) (aliases_ : aliases) (functions_ : str -> option function_body) (readonly : str -> bool) (old : nmap job) (t0 : fdtable) (code : world).
Context (Hsys : system w old code).
Notation agrees := (agrees aliases_ functions_ readonly old t0 0 false).
Notation item_ok := (item_ok aliases_ functions_ readonly).

Lemma lines_leave d ls : Forall (fun l => l <> [] /\ Forall item_ok l) ls -> forall st0 m s, agrees m s ->
  items_fit code (List.concat ls) m ->
  match run_items code (List.concat ls) st0 m with
  | Ends st m' => exists s', MainSpec.lines_run w (S d) (map (fun l => items_text l ++ [10%N]) ls) s s' /\ agrees m' s'
  | r => exists done l rest s1 o s', map (fun l => items_text l ++ [10%N]) ls = done ++ l :: rest /\
      MainSpec.lines_run w (S d) done s s1 /\ parse l <> None /\ exec_text w (S d) l s1 = (o, s') /\ ends_so w r o s' /\ agrees (final r) s'
  end.
Proof.
  induction 1 as [|l ls [Hne Hl] _ IH]; intros st0 m s A Hf; cbn [List.concat map] in *.
  - exists s. split; [constructor|exact A].
  - rewrite run_items_app. destruct (items_fit_app _ _ _ st0 _ Hf) as [Hf1 Hf2].
    destruct (C142_core_partial w aliases_ functions_ readonly old t0 code Hsys d l st0 m s A Hl Hne Hf1) as (o & s1 & E & Ho & A1 & He).
    destruct (items_parse _ _ _ l Hl Hne) as [P1 P2].
    assert (E2 : exec_text w (S d) (items_text l ++ [10%N]) s = (o, s1)) by (unfold exec_text in E |- *; rewrite P2; rewrite P1 in E; exact E).
    assert (P3 : parse (items_text l ++ [10%N]) <> None) by (rewrite P2; discriminate).
    destruct (run_items code l st0 m) as [st m1|z m1|av e m1]; cbn [final ends_so] in *.
    + rewrite (He st m1 eq_refl) in E2. specialize (IH st m1 s1 A1 Hf2). destruct (run_items code (List.concat ls) st m1) as [st2 m2|z m2|av e m2].
      * destruct IH as (s' & I1 & I2). exists s'. split; [|exact I2]. exact (MainSpec.lines_next w (S d) _ _ s (OOk st) s1 s' P3 E2 I I1).
      * destruct IH as (done & x & rest & s2 & o2 & s' & I1 & I2 & I3). exists ((items_text l ++ [10%N]) :: done), x, rest, s2, o2, s'.
        split; [cbn [app]; rewrite I1; reflexivity|]. split; [exact (MainSpec.lines_next w (S d) _ _ s (OOk st) s1 s2 P3 E2 I I2)|exact I3].
      * destruct IH as (done & x & rest & s2 & o2 & s' & I1 & I2 & I3). exists ((items_text l ++ [10%N]) :: done), x, rest, s2, o2, s'.
        split; [cbn [app]; rewrite I1; reflexivity|]. split; [exact (MainSpec.lines_next w (S d) _ _ s (OOk st) s1 s2 P3 E2 I I2)|exact I3].
    + exists [], (items_text l ++ [10%N]), (map (fun l => items_text l ++ [10%N]) ls), s, o, s1.
      split; [reflexivity|]. split; [constructor|]. auto.
    + exists [], (items_text l ++ [10%N]), (map (fun l => items_text l ++ [10%N]) ls), s, o, s1.
      split; [reflexivity|]. split; [constructor|]. auto.
Qed.

Lemma session_leaves d ls : Forall (fun l => l <> [] /\ Forall item_ok l) ls -> Forall (Forall (item_leaves (lit "PS1"))) ls -> forall st0 m s,
  agrees m s -> CoreSpec.vars m (lit "PS1") <> None -> items_fit code (List.concat ls) m ->
  exists s', agrees (final (run_items code (List.concat ls) st0 m)) s' /\
    leaves_by w (run_items code (List.concat ls) st0 m) (OOk tt) s'
      (fun o => MainSpec.session w (S d) (map (fun l => Main.TLine (items_text l)) ls ++ [Main.TClosed]) s o s').
Proof.
  intros Hok Hv. induction Hok as [|l ls [Hne Hl] _ IH]; intros st0 m s A Hps Hf;
    (assert (P : exists v, get_var (lit "PS1") (cm (im s)) = Some v) by
       (rewrite (ag_vars _ _ _ _ _ _ _ _ _ A (lit "PS1") ps1_identifier); destruct (CoreSpec.vars m (lit "PS1")); [eauto|congruence]));
    destruct P as [v P]; cbn [List.concat map app] in *.
  - exists (saved s). split; [destruct A; split; assumption|eapply MainSpec.session_closed; exact P].
  - inversion Hv as [|? ? Hv1 Hv2]; subst. rewrite run_items_app. destruct (items_fit_app _ _ _ st0 _ Hf) as [Hf1 Hf2].
    pose proof (items_leave code _ l Hv1 st0 m Hps) as Hps1.
    destruct (C142_core_partial w aliases_ functions_ readonly old t0 code Hsys d l st0 m s A Hl Hne Hf1) as (o & s1 & E & Ho & A1 & He).
    destruct (items_parse _ _ _ l Hl Hne) as [P1 _]. assert (P3 : parse (items_text l) <> None) by (rewrite P1; discriminate).
    destruct (run_items code l st0 m) as [st m1|z m1|av e m1]; cbn [final ends_so] in *.
    + rewrite (He st m1 eq_refl) in E. destruct (IH Hv2 st m1 s1 A1 Hps1 Hf2) as (s' & I1 & I2). exists s'. split; [exact I1|].
      eapply leaves_by_mono; [|exact I2]. intros o2 K. eapply MainSpec.session_line; [exact P|exact P3|exact E|exact I|exact K].
    + subst o. exists s1. split; [exact A1|]. apply (MainSpec.session_last_line w (S d) _ _ s v (OExit z) s1 P P3 E). intros [].
    + exists s1. split; [exact A1|]. destruct Ho as (M1 & M2 & M3 & _). split; [exact M1|]. split; [exact M2|]. intros p Q1 Q2 Q3.
      rewrite (M3 p Q1 Q2 Q3) in E. apply (MainSpec.session_last_line w (S d) _ _ s v (OExec p av e) s1 P P3 E). intros [].
Qed.
End Lines.

(** The same typed at the prompt, some commands on each line, and then the end of the
    input. *)
Theorem C142_typed_partial : forall w code n k args root cwd ppid pid env fds ls,
  MainSpec.asks args MainSpec.Prompt -> MainSpec.no_startup_files w -> system w [] code ->
  NoDup (map fst env) -> table fds -> no_future_pipe fds 0 -> nget 0 fds <> None -> nget 1 fds <> None ->
  Forall (fun l => l <> [] /\ Forall (item_ok [] (fun _ => None) (fun _ => false)) l) ls -> Forall (Forall (item_leaves (lit "PS1"))) ls ->
  items_fit code (List.concat ls) (at_start root cwd ppid pid env) ->
  let r := run_items code (List.concat ls) 0 (at_start root cwd ppid pid env) in
  exists s', did fds (final r) s' /\
    leaves_by w r (OOk tt) s' (fun o => Main.main w (S n) k args (map (fun l => Main.TLine (items_text l)) ls ++ [Main.TClosed])
      (Shell (Main.fresh_image root cwd ppid pid env fds) []) = (o, s')).
Proof.
  intros w code n k args root cwd ppid pid env fds ls Ha Hns Hsys Hnd Ht Hf H0 H1 Hok Hl Hfit r.
  set (s := Shell (Main.fresh_image root cwd ppid pid env fds) []).
  set (c := Context (default_vars root cwd ppid pid env) [] []).
  assert (Hc : cm (im s) = MainLaws.one_scope c) by reflexivity.
  pose proof (MainLaws.parse_args_asks args _ (cm (im s)) Ha) as Hp. cbn [MainLaws.wanted_front] in Hp.
  destruct (MainLaws.main_begins w (S n) k args (map (fun l => Main.TLine (items_text l)) ls ++ [Main.TClosed]) s _ _ c Hp Hc eq_refl Hns)
    as (s1 & Em & Htr & Hi & Hj & Hm).
  set (s2 := Shell (Main.at_prompt (im s1)) (trace s1)).
  assert (A : agrees [] (fun _ => None) (fun _ => false) [] fds 0 false (at_start root cwd ppid pid env) s2).
  { assert (A1 : agrees [] (fun _ => None) (fun _ => false) [] fds 0 false (at_start root cwd ppid pid env) s1) by (eapply agrees_start; eauto).
    destruct A1. split; assumption. }
  assert (Hps : CoreSpec.vars (at_start root cwd ppid pid env) (lit "PS1") <> None).
  { cbn [at_start CoreSpec.vars]. destruct (sget (lit "PS1") env); discriminate. }
  destruct (session_leaves w [] _ _ [] fds code Hsys n ls Hok Hl 0 _ s2 A Hps Hfit) as (s' & K1 & K2).
  assert (L : forall o s', MainSpec.session w (S n) (map (fun l => Main.TLine (items_text l)) ls ++ [Main.TClosed]) s2 o s' ->
    Main.main w (S n) k args (map (fun l => Main.TLine (items_text l)) ls ++ [Main.TClosed]) s = (o, s')).
  { intros o x Hs. rewrite Em. cbn [MainLaws.goes_on Main.interactive]. rewrite (seq_ok (change Main.at_prompt) _ s1 tt s2 eq_refl).
    apply MainLaws.loop_session. exact Hs. }
  exists s'. split; [eapply agrees_did; [|exact K1]; reflexivity|]. eapply leaves_by_mono; [|exact K2]. intros o Hs. apply L, Hs.
Qed.

(** The same in a file.  A script that comes to its end without [exit] goes on for ever
    (C55). *)
Theorem C142_file_partial : forall w code n k args ins root cwd ppid pid env fds file ls,
  MainSpec.asks args (MainSpec.Script file []) -> ~ MainSpec.too_many_digits 0 file -> MainSpec.no_startup_files w -> system w [] code ->
  (forall t, r_open (w t) file for_reading = true) ->
  (forall t, r_read (w t) file = Some (List.concat (map (fun l => items_text l ++ [10%N]) ls))) ->
  NoDup (map fst env) -> table fds -> no_future_pipe fds 0 -> nget 0 fds <> None -> nget 1 fds <> None ->
  Forall (fun l => l <> [] /\ Forall (item_ok [] (fun _ => None) (fun _ => false)) l) ls ->
  Forall (fun l => ~ In 10%N (items_text l)) ls ->
  items_fit code (List.concat ls) (at_start root cwd ppid pid env) ->
  let r := run_items code (List.concat ls) 0 (at_start root cwd ppid pid env) in
  exists s', did fds (final r) s' /\
    leaves_by w r OFuel s' (fun o => Main.main w (S n) (List.length ls + k) args ins
      (Shell (Main.fresh_image root cwd ppid pid env fds) []) = (o, s')).
Proof.
  intros w code n k args ins root cwd ppid pid env fds file ls Ha Hd Hns Hsys Ho Hr Hnd Ht Hf H0 H1 Hok Hnl Hfit r.
  set (s := Shell (Main.fresh_image root cwd ppid pid env fds) []).
  set (c := Context (default_vars root cwd ppid pid env) [] []).
  assert (Hc : cm (im s) = MainLaws.one_scope c) by reflexivity.
  pose proof (MainLaws.parse_args_asks args _ (cm (im s)) Ha) as Hp. cbn [MainLaws.wanted_front MainLaws.store] in Hp.
  destruct (MainLaws.main_begins w (S n) (List.length ls + k) args ins s _ _ c Hp Hc) as (s1 & Em & Htr & Hi & Hj & Hm).
  { cbn [Main.script_name]. apply not_true_is_false. exact Hd. }
  { exact Hns. }
  set (s2 := PropertiesMain.opened file s1).
  assert (A1 : agrees [] (fun _ => None) (fun _ => false) [] fds 0 false (at_start root cwd ppid pid env) s1) by (eapply agrees_start; eauto).
  assert (Hkept : forall fd, kept (nget fd (Shell.fds (im s2))) = kept (nget fd fds)).
  { intros fd. cbn [s2 PropertiesMain.opened im Shell.fds with_fds]. rewrite Hi. change (Shell.fds (with_cm _ _)) with fds.
    rewrite nget_ninsert by apply Ht. destruct (Z.eqb_spec fd (lowest fds)) as [->|_]; [|reflexivity].
    rewrite (proj2 (lowest_spec fds (proj1 Ht))). reflexivity. }
  assert (A : agrees [] (fun _ => None) (fun _ => false) [] (Shell.fds (im s2)) 0 false (at_start root cwd ppid pid env) s2).
  { assert (Q : sound (im s2)).
    { assert (E2 : sys_open w file for_reading s1 = (OOk (Some (lowest (Shell.fds (im s1)))), s2)).
      { unfold sys_open. rewrite (bind_ok _ _ s1 true s1); [reflexivity|]. unfold ask. rewrite Ho. reflexivity. }
      exact (soundly_open w file for_reading s1 _ s2 E2 (or_introl eq_refl) (ag_fds _ _ _ _ _ _ _ _ _ A1)). }
    destruct A1. split; try assumption; [change (forks (trace s2)) with (forks (trace s1)); rewrite Htr; apply Forall_nil|reflexivity|].
    cbn [s2 PropertiesMain.opened im Shell.fds with_fds]. rewrite Hi. change (Shell.fds (with_cm _ _)) with fds. rewrite !nget_ninsert by apply Ht.
    split; [destruct (0 =? lowest fds); [discriminate|exact H0]|destruct (1 =? lowest fds); [discriminate|exact H1]]. }
  assert (Hcut : PropertiesMain.cut_into (List.concat (map (fun l => items_text l ++ [10%N]) ls)) (map (fun l => items_text l ++ [10%N]) ls)).
  { clear -Hnl. induction Hnl as [|l ls H _ IH]; [constructor|]. cbn [map List.concat].
    rewrite <- app_assoc. apply PropertiesMain.cut_line; assumption. }
  pose proof (lines_leave w [] _ _ [] (Shell.fds (im s2)) code Hsys n ls Hok 0 _ s2 A Hfit) as K.
  assert (L : forall done l rest s3 o s', map (fun l => items_text l ++ [10%N]) ls = done ++ l :: rest -> MainSpec.lines_run w (S n) done s2 s3 ->
    parse l <> None -> exec_text w (S n) l s3 = (o, s') -> ~ returns o ->
    Main.main w (S n) (List.length ls + k) args ins s = (lift o, s')).
  { intros done l rest s3 o s' K1 K2 K3 K4 K5. rewrite Em. cbn [MainLaws.goes_on Main.interactive Main.script_name].
    replace (List.length ls + k)%nat with (List.length done + S (List.length rest + k))%nat.
    2:{ apply (f_equal (@List.length str)) in K1. rewrite map_length, app_length in K1. cbn [List.length] in K1. lia. }
    pose proof (Hr (EOpen file for_reading :: trace s1)) as Hr1. rewrite K1 in Hcut, Hr1.
    exact (PropertiesMain.C55_lines_in_order_partial w (S n) file _ done l rest s1 s3 o s' (conj (Ho _) Hr1) Hcut K2 K3 K4 K5 _). }
  fold r in K. destruct r as [st m'|z m'|av e m'].
  - destruct K as (s' & K1 & K2). exists s'. split; [eapply agrees_did; [exact Hkept|exact K2]|]. cbn [leaves_by].
    rewrite Em. cbn [MainLaws.goes_on Main.interactive Main.script_name]. rewrite <- (map_length (fun l => items_text l ++ [10%N]) ls).
    exact (PropertiesMain.C55_terminates_refuted w (S n) file _ _ s1 s' (conj (Ho _) (Hr _)) Hcut K1 k).
  - destruct K as (done & l & rest & s3 & o & s' & K1 & K2 & K3 & K4 & K5 & K6). exists s'. split; [eapply agrees_did; [exact Hkept|exact K6]|].
    cbn [ends_so leaves_by] in *. subst o. apply (L done l rest s3 _ s' K1 K2 K3 K4). intros [].
  - destruct K as (done & l & rest & s3 & o & s' & K1 & K2 & K3 & K4 & (M1 & M2 & M3 & _) & K6). exists s'. split; [eapply agrees_did; [exact Hkept|exact K6]|].
    split; [exact M1|]. split; [exact M2|]. intros p Q1 Q2 Q3. specialize (M3 p Q1 Q2 Q3). subst o. apply (L done l rest s3 _ s' K1 K2 K3 K4). intros [].
Qed.

(** ** What is left out *)

Lemma assign_status w al_ fs ro old t0 d x v m s s1 : agrees al_ fs ro old t0 0 false m s -> comm_ok al_ fs ro (Assign x v) ->
  exec_text w (S d) (r_pipeline (comm_pipe (Assign x v))) s = (OOk 0, s1) -> exit_status (im s1) = exit_status (im s).
Proof.
  intros A Hok H. rewrite (proj2 (comm_tree _ _ _ _ Hok)) in H. destruct Hok as (Hx & Hv & R & Hal). destruct (value_word x v Hx Hv) as (W1 & W2 & _).
  pose proof (exec_assign w d _ [] s (Forall_cons _ W1 (Forall_nil _))) as E.
  specialize (E ltac:(intros y [<-|[]]; exact W2) ltac:(rewrite (ag_aliases _ _ _ _ _ _ _ _ _ A); exact Hal)).
  assert (F := eq_trans (eq_sym E) H). clear E H. revert F. destruct (add_var _ (cm (im s))); [|discriminate]. intros [= <-]. reflexivity.
Qed.
(** [exit] without a number behind an assignment exits with the status of the last
    program, not with 0. *)
Theorem C142_status_refuted : forall w aliases_ functions_ readonly old t0 code, system w old code ->
  forall d x v m s, agrees aliases_ functions_ readonly old t0 0 false m s -> comm_ok aliases_ functions_ readonly (Assign x v) ->
  fits code m (Assign x v) -> sget (lit "exit") aliases_ = None ->
  (exists s', exec_text w (S d) (items_text [Go (Assign x v, []); Leave ExitSame]) s = (OExit (exit_status (im s)), s')) /\
  exists m', run_items code [Go (Assign x v, []); Leave ExitSame] 0 m = Exits 0 m'.
Proof.
  intros w al_ fs ro old t0 code Hsys d x v m s A Hok Hf Hal. split; [|eexists; reflexivity].
  destruct (leave_tree al_ fs ro ExitSame Hal) as [V1 V2]. assert (Hc : chain_ok al_ fs ro (Assign x v, [])) by (split; [exact Hok|apply Forall_nil]).
  destruct (chain_facts _ _ _ _ Hc) as (W1 & W2 & W3 & _).
  assert (E : items_text [Go (Assign x v, []); Leave ExitSame] = render [chain_tree (Assign x v, []); AoOne (leave_pipe ExitSame)]).
  { unfold items_text, render. cbn [map joined item_text]. rewrite W2. change (r_andor (AoOne (leave_pipe ExitSame))) with (r_pipeline (leave_pipe ExitSame)). rewrite V2. reflexivity. }
  assert (K : exists s1, exec_text w (S d) (r_andor (chain_tree (Assign x v, []))) s = (OOk 0, s1) /\ agrees al_ fs ro old t0 0 false (snd (step code (Assign x v) m)) s1 /\
    exit_status (im s1) = exit_status (im s)).
  { destruct (step_agrees w _ _ _ _ _ _ 0 false Hsys d _ m s 0 _ A Hok Hf (settled_top m _) eq_refl) as (s1 & K1 & K2).
    exists s1. split; [exact K1|]. split; [exact K2|]. exact (assign_status w al_ fs ro old t0 d x v m s s1 A Hok K1). }
  destruct K as (s1 & K1 & K2 & K3).
  destruct (PropertiesEval.C52_exit w d s1) as [_ K4]; [rewrite (ag_aliases _ _ _ _ _ _ _ _ _ K2); exact Hal|].
  eexists. rewrite E. apply (exec_list w (S d) _ 0); [discriminate|apply Forall_cons; [exact W1|apply Forall_cons; [exact V1|apply Forall_nil]]|].
  eexists. eapply in_order_run; [exact K1|]. apply in_order_stop; [|exact I].
  change (r_andor (AoOne (leave_pipe ExitSame))) with (r_pipeline (leave_pipe ExitSame)). rewrite V2, <- K3. exact K4.
Qed.

(** A shell that is told to exit before it has run anything ends with 0, whatever it
    was started with; nothing is started. *)
Theorem C142_first_partial : forall w d k args ins root cwd ppid pid env fds,
  MainSpec.asks args (MainSpec.Commands (items_text [Leave ExitSame])) -> MainSpec.no_startup_files w ->
  exists s', Main.main w (S d) k args ins (Shell (Main.fresh_image root cwd ppid pid env fds) []) = (OExit 0, s') /\
    forks (trace s') = [] /\ programs_of (trace s') = [].
Proof.
  intros w d k args ins root cwd ppid pid env fds Ha Hns.
  set (s := Shell (Main.fresh_image root cwd ppid pid env fds) []).
  set (c := Context (default_vars root cwd ppid pid env) [] []).
  assert (Hc : cm (im s) = MainLaws.one_scope c) by reflexivity.
  destruct (MainLaws.parse_args_asks args _ (cm (im s)) Ha) as [out Hp].
  destruct (MainLaws.main_begins w (S d) k args ins s _ _ c Hp Hc eq_refl Hns) as (s1 & Em & Htr & Hi & Hj & Hm).
  destruct (PropertiesEval.C52_exit w d s1) as [_ K]; [rewrite Hi; reflexivity|].
  eexists. split.
  - rewrite Em. cbn [MainLaws.goes_on]. unfold Main.read_from_args.
    change (items_text [Leave ExitSame]) with (r_words [lit "exit"]). unfold exec_text in K.
    destruct (parse (r_words [lit "exit"])) as [pc|] eqn:P; [|vm_compute in P; discriminate].
    rewrite (bind_ok (unwrap (Some pc)) _ s1 _ s1 eq_refl). rewrite MainLaws.drop_error.
    change (RunSpec.exec_text) with exec_text in K. rewrite K. rewrite Hi. reflexivity.
  - change (trace (saved (blocked s1))) with (ESave (history_location (im s1)) :: trace s1). rewrite Htr. split; reflexivity.
Qed.

(** ** An example *)

Definition ex_items : list item :=
  [ Go (Assign (lit "A") (Plain (lit "-3")), []);
    Unless (Run (bare "true" []) [], []) COr (Exit (Plain (lit "5")));
    Unless (Cd (Plain (lit "sub")), [(CAnd, Run (bare "echo" [Dollar (lit "A")]) [])]) COr ExitSame;
    Unless (Run (bare "false" []) [], [(COr, Run (bare "echo" []) [])]) CAnd (Exit (Dollar (lit "A")));
    Go (Run (bare "never" []) [], []) ].
(** The last command fails, and [exit] has no number. *)
Definition ex_items2 : list item :=
  [ Unless (Run (bare "false" []) [], []) COr ExitSame; Go (Run (bare "never" []) [], []) ].
Definition ex_items3 : list item :=
  [ Go (Export (lit "B") (Plain (lit "b")), []);
    Unless (Run (bare "echo" []) [], []) CAnd (Exec (lit "echo") [Double (lit "x y"); Dollar (lit "HOME")]);
    Go (Run (bare "never" []) [], []) ].
Notation ex_m := (at_start false (lit "/") (lit "1") (lit "2") [(lit "HOME", lit "/h")]).
Notation ex_main t := (Main.main ex_system 5 0 [lit "rsh"; lit "-c"; t] [] (Shell PropertiesMain.ex_fresh [])).


(** Deciding the conditions. *)
Definition digits_b (ds : str) : bool := negb (str_eqb ds []) && forallb (fun c => (48 <=? c)%N && (c <=? 57)%N) ds.
Definition a_number_b (s : str) : bool :=
  match s with c :: ds => digits_b (if N.eqb c (ch "-") || N.eqb c (ch "+") then ds else s) | [] => false end &&
  ((-2147483648 <=? number s) && (number s <=? 2147483647)).
Lemma a_number_b_true s : a_number_b s = true -> a_number s.
Proof.
  intros H. apply andb_true_iff in H. destruct H as [H1 H2]. apply andb_true_iff in H2. destruct H2 as [H2 H3].
  apply Z.leb_le in H2, H3. split; [|lia]. destruct s as [|c ds]; [discriminate|].
  assert (K : forall x, digits_b x = true -> x <> [] /\ Forall digit x).
  { intros x Hx. apply andb_true_iff in Hx. destruct Hx as [X1 X2]. split; [intros ->; discriminate|].
    apply Forall_forall. intros d F. rewrite forallb_forall in X2. specialize (X2 d F). apply andb_true_iff in X2. destruct X2 as [X2 X3].
    apply N.leb_le in X2, X3. split; assumption. }
  destruct (N.eqb_spec c (ch "-")) as [->|Hm]; [exists ds; split; [tauto|apply K, H1]|].
  destruct (N.eqb_spec c (ch "+")) as [->|Hp]; [exists ds; split; [tauto|apply K, H1]|].
  exists (c :: ds). split; [tauto|apply K, H1].
Qed.
Definition set_b (m : machine) (a : arg) : bool :=
  match a with Dollar x => match CoreSpec.vars m x with Some v => shown_b v | None => false end | _ => true end.
Lemma set_b_true m a : set_b m a = true -> forall x, a = Dollar x -> exists v, CoreSpec.vars m x = Some v /\ shown v.
Proof. intros H x ->. cbn in H. destruct (CoreSpec.vars m x) as [v|]; [|discriminate]. exists v. split; [reflexivity|apply shown_b_true, H]. Qed.
Definition leave_fits_b (m : machine) (e : leave) : bool :=
  match e with
  | Exit a => set_b m a && a_number_b (arg_value m a)
  | ExitSame => true
  | Exec n args => forallb (set_b m) args
  end.
Lemma leave_fits_b_true m e : leave_fits_b m e = true -> leave_fits m e.
Proof.
  destruct e as [a| |n args]; cbn; intros H; [apply andb_true_iff in H; split; [apply set_b_true, H|apply a_number_b_true, H]|exact I|].
  intros x Hx. rewrite forallb_forall in H. exact (set_b_true m _ (H _ Hx) x eq_refl).
Qed.
Fixpoint items_fit_b (code : world) (l : list item) (m : machine) : Prop :=
  let fit c := always_chain code (fun m c => fits_b code m c = true) c m in
  match l with
  | [] => True
  | Go c :: l' => fit c /\ items_fit_b code l' (snd (run_chain code c m))
  | Leave e :: _ => leave_fits_b m e = true
  | Unless c o e :: l' =>
      fit c /\ let '(st', m') := run_chain code c m in
      if CoreSpec.goes_on o st' then leave_fits_b m' e = true else items_fit_b code l' m'
  end.
Lemma items_fit_b_true code l : forall m, items_fit_b code l m -> items_fit code l m.
Proof.
  assert (K : forall c m, always_chain code (fun m c => fits_b code m c = true) c m -> always_chain code (fits code) c m).
  { intros c m H. assert (G : always code (fits code) [c] m); [|exact (proj1 G)].
    apply (always_mono code (fun m c => fits_b code m c = true)); [exact (fits_b_true code)|]. split; [exact H|]. destruct (run_chain code c m). exact I. }
  induction l as [|[c|e|c o e] l IH]; intros m; cbn [items_fit_b items_fit]; [tauto| | |].
  - intros [H1 H2]. split; [apply K, H1|apply IH, H2].
  - apply leave_fits_b_true.
  - intros [H1 H2]. split; [apply K, H1|]. destruct (run_chain code c m) as [st m']. destruct (CoreSpec.goes_on o st); [apply leave_fits_b_true, H2|apply IH, H2].
Qed.

Example C142_example :
  items_text ex_items = lit " A=-3 ; true || exit 5 ; cd sub && echo $A || exit ; false || echo && exit $A ; never" /\
  items_text ex_items2 = lit " false || exit ; never" /\
  items_text ex_items3 = lit " export B=b ; echo && exec echo ""x y"" $HOME ; never" /\
  Forall (fun l => Forall (item_ok [] (fun _ => None) (fun _ => false)) l /\ items_fit ex_code l ex_m) [ex_items; ex_items2; ex_items3] /\
  (exists m, run_items ex_code ex_items 0 ex_m = Exits (-3) m /\ map argv (started m) = map (map lit) [["true"]; ["echo"; "-3"]; ["false"]; ["echo"]]%string /\
     visited m = [lit "sub"]) /\
  fst (ex_main (items_text ex_items)) = OExit (-3) /\
  (exists m, run_items ex_code ex_items2 0 ex_m = Exits 1 m) /\ fst (ex_main (items_text ex_items2)) = OExit 1 /\
  (exists m, run_items ex_code ex_items3 0 ex_m = Becomes (map lit ["echo"; "x y"; "/h"]%string) [(lit "B", lit "b"); (lit "HOME", lit "/h")] m) /\
  fst (ex_main (items_text ex_items3)) = OExec (lit "/bin/echo") (map lit ["echo"; "x y"; "/h"]%string) [(lit "B", lit "b"); (lit "HOME", lit "/h")].
Proof.
  split; [reflexivity|]. split; [reflexivity|]. split; [reflexivity|]. split.
  { apply Forall_cons; [|apply Forall_cons; [|apply Forall_cons; [|apply Forall_nil]]]; (split; [|apply items_fit_b_true; vm_compute; repeat split]);
      repeat (apply Forall_cons; [cbn [item_ok leave_ok]|]); try apply Forall_nil;
      repeat match goal with |- _ /\ (_ -> _ = _) => split; [|first [intros _; reflexivity|discriminate]] end;
      repeat match goal with
      | |- chain_ok _ _ _ _ => split; cbn [fst snd]
      | |- chain_ok _ _ _ _ /\ _ => split
      | |- @Forall (cond * comm) _ _ => (apply Forall_cons; [cbn [snd]|]) || apply Forall_nil
      | |- comm_ok _ _ _ (Run _ _) => simple
      | |- comm_ok _ _ _ (Cd _) => split; [a_word|reflexivity]
      | |- comm_ok _ _ _ (Assign _ _) => split; [an_identifier|]; split; [split; [a_word|exact I]|]; split; reflexivity
      | |- @Forall arg _ _ => (apply Forall_cons; [first [left; an_identifier|a_word]|]) || apply Forall_nil
      end.
    - split; [split; [a_word|reflexivity]|discriminate].
    - split; [reflexivity|reflexivity].
    - split; [split; [left; an_identifier|reflexivity]|discriminate].
    - split; [reflexivity|reflexivity].
    - split; [an_identifier|]. split; [split; [a_word|exact I]|]. split; [reflexivity|]. split; [reflexivity|].
      intros a b E. apply (f_equal (contains_str (lit "-p"))) in E.
      assert (G : contains_str (lit "-p") (a ++ lit "-p" ++ b) = true) by (apply contains_str_iff; exists a, b; reflexivity).
      rewrite G in E. discriminate.
    - split; [|discriminate]. split; [a_word|]. split; [left; intros F; cbn in F; intuition discriminate|]. split; [|reflexivity].
      apply Forall_cons; [|apply Forall_cons; [left; an_identifier|apply Forall_nil]].
      intros c F; cbn in F; repeat (destruct F as [<-|F]; [split; [intros G; cbn in G; intuition discriminate|discriminate]|]); destruct F. }
  split; [eexists; split; [vm_compute; reflexivity|vm_compute; split; reflexivity]|]. split; [vm_compute; reflexivity|].
  split; [eexists; vm_compute; reflexivity|]. split; [vm_compute; reflexivity|].
  split; [eexists; vm_compute; reflexivity|]. vm_compute; reflexivity.
Qed.

(** The first script, typed on three lines and in a file of three lines. *)
Definition ex_item_lines : list (list item) := [firstn 2 ex_items; firstn 2 (skipn 2 ex_items); skipn 4 ex_items].
Definition ex_item_system : os := fun t =>
  let r := ex_system t in
  Reports (r_isfile r) (r_open r) (fun _ => Some (List.concat (map (fun l => items_text l ++ [10%N]) ex_item_lines)))
    (r_chdir r) (r_cwd r) (r_kill r) (r_pipe r) (r_fork r) (r_exec r) (r_getpid r) (r_waits r) (r_subst r).
Example C142_lines_example :
  List.concat ex_item_lines = ex_items /\ Forall (fun l => l <> []) ex_item_lines /\ Forall (fun l => ~ In 10%N (items_text l)) ex_item_lines /\
  Forall (Forall (item_leaves (lit "PS1"))) ex_item_lines /\
  MainSpec.no_startup_files ex_item_system /\ system ex_item_system [] ex_code /\ (forall t, r_open (ex_item_system t) (lit "file") for_reading = true) /\
  fst (Main.main ex_system 5 0 [lit "rsh"] (map (fun l => Main.TLine (items_text l)) ex_item_lines ++ [Main.TClosed]) (Shell PropertiesMain.ex_fresh [])) = OExit (-3) /\
  fst (Main.main ex_item_system 5 3 [lit "rsh"; lit "file"] [] (Shell PropertiesMain.ex_fresh [])) = OExit (-3) /\
  fst (Main.main ex_system 5 0 [lit "rsh"] (map (fun l => Main.TLine (items_text l)) [firstn 1 ex_items3; skipn 1 ex_items3] ++ [Main.TClosed]) (Shell PropertiesMain.ex_fresh [])) =
    OExec (lit "/bin/echo") (map lit ["echo"; "x y"; "/h"]%string) [(lit "B", lit "b"); (lit "HOME", lit "/h")].
Proof.
  split; [reflexivity|]. split; [repeat constructor; discriminate|].
  split; [repeat (apply Forall_cons; [intros F; vm_compute in F; intuition discriminate|]); apply Forall_nil|].
  split; [repeat constructor; discriminate|]. split; [intros t; split; reflexivity|]. split; [destruct ex_system_ok; split; first [assumption|discriminate]|].
  split; [reflexivity|]. split; [vm_compute; reflexivity|]. split; vm_compute; reflexivity.
Qed.

(** [false ; A=1 ; exit] *)
Example C142_status_example :
  comm_ok [] (fun _ => None) (fun _ => false) (Assign (lit "A") (Plain (lit "1"))) /\
  fits ex_code ex_m (Assign (lit "A") (Plain (lit "1"))) /\
  fst (ex_main (lit "false ; A=1 ; exit")) = OExit 1 /\
  fst (ex_main (lit " exit")) = OExit 0.
Proof.
  split; [split; [an_identifier|]; split; [split; [a_word|exact I]|]; split; reflexivity|]. split; [reflexivity|]. vm_compute. split; reflexivity.
Qed.

Print Assumptions C142_core_partial.
Print Assumptions C142_dash_c_partial.
Print Assumptions C142_typed_partial.
Print Assumptions C142_file_partial.
Print Assumptions C142_first_partial.
Print Assumptions C142_status_refuted.
Print Assumptions C142_example.
Print Assumptions C142_lines_example.
Print Assumptions C142_status_example.
