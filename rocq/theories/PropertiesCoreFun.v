(** Property C125: functions in the core language. *)
From Verif Require Import Base BaseFacts Lexer LexerSpec Ast Parser GrammarSpec.
From Verif Require Import Context.
From Verif Require ContextSpec ContextFacts ContextLaws PropertiesContext.
From Verif Require Import Alias Expand ExpandSpec ExpandFacts ExpandLaws Jobs JobsSpec Shell Builtins Eval.
From Verif Require Import EvalSpec EvalFacts EvalLaws EvalKeeps RunSpec RunLaws PipeSpec PipeLaws ChildLaws PipeRun.
From Verif Require Import JobsFacts JobsLaws JobsPipe.
From Verif Require PropertiesProgram PropertiesRun PropertiesTyped EvalStack EvalForked.
From Verif Require PropertiesEval EvalJobs MainSpec Main MainLaws PropertiesMain GrammarFacts.
From Verif Require Import EvalFds.
From Verif Require Import CoreSpec CoreExitSpec CoreFunSpec PropertiesCore PropertiesCoreExit.
Local Open Scope Z_scope.

(** ** Trees *)

Section FInd.
  Variable P : fcomm -> Prop.
  Hypothesis h_do : forall c, P (Do c).
  Hypothesis h_quit : forall e, P (Quit e).
  Hypothesis h_source : forall f body, Forall (fun l => P (fst l) /\ Forall (fun oc => P (snd oc)) (snd l)) body -> P (Source f body).
  Hypothesis h_eval : forall body, Forall (fun l => P (fst l) /\ Forall (fun oc => P (snd oc)) (snd l)) body -> P (EvalText body).
  Hypothesis h_define : forall f body, Forall (fun l => P (fst l) /\ Forall (fun oc => P (snd oc)) (snd l)) body -> P (Define f body).
  Fixpoint fcomm_ind' (c : fcomm) : P c :=
    match c with
    | Do c => h_do c
    | Quit e => h_quit e
    | Source f body =>
        h_source f body ((fix go (b : list (fcomm * list (cond * fcomm))) : Forall (fun l => P (fst l) /\ Forall (fun oc => P (snd oc)) (snd l)) b :=
          match b with
          | [] => Forall_nil _
          | (c0, rest) :: b' => Forall_cons (c0, rest) (conj (fcomm_ind' c0)
              ((fix go2 (r : list (cond * fcomm)) : Forall (fun oc => P (snd oc)) r :=
                match r with [] => Forall_nil _ | (o, c) :: r' => Forall_cons (o, c) (fcomm_ind' c) (go2 r') end) rest)) (go b')
          end) body)
    | EvalText body =>
        h_eval body ((fix go (b : list (fcomm * list (cond * fcomm))) : Forall (fun l => P (fst l) /\ Forall (fun oc => P (snd oc)) (snd l)) b :=
          match b with
          | [] => Forall_nil _
          | (c0, rest) :: b' => Forall_cons (c0, rest) (conj (fcomm_ind' c0)
              ((fix go2 (r : list (cond * fcomm)) : Forall (fun oc => P (snd oc)) r :=
                match r with [] => Forall_nil _ | (o, c) :: r' => Forall_cons (o, c) (fcomm_ind' c) (go2 r') end) rest)) (go b')
          end) body)
    | Define f body =>
        h_define f body ((fix go (b : list (fcomm * list (cond * fcomm))) : Forall (fun l => P (fst l) /\ Forall (fun oc => P (snd oc)) (snd l)) b :=
          match b with
          | [] => Forall_nil _
          | (c0, rest) :: b' => Forall_cons (c0, rest) (conj (fcomm_ind' c0)
              ((fix go2 (r : list (cond * fcomm)) : Forall (fun oc => P (snd oc)) r :=
                match r with [] => Forall_nil _ | (o, c) :: r' => Forall_cons (o, c) (fcomm_ind' c) (go2 r') end) rest)) (go b')
          end) body)
    end.
End FInd.

Fixpoint ftree (c : fcomm) : pipeline :=
  match c with
  | Do c => comm_pipe c
  | Quit e => leave_pipe e
  | Source f _ => Pipeline false [CSimple (words_cmd (lit ".") [f])] false
  | EvalText body => Pipeline false [CSimple (words_cmd (lit "eval") [sq (fscript_text body)])] false
  | Define f body =>
      Pipeline false [CFunction f (map (fun l => match l with (c0, rest) =>
        tree_of (ftree c0) (map (fun oc => match oc with (o, c) => (o, ftree c) end) rest) end) body) None] false
  end.
Definition fpipes (rest : list (cond * fcomm)) : list (cond * pipeline) := map (fun oc => (fst oc, ftree (snd oc))) rest.
Definition fchain_tree (l : fchain) : and_or := tree_of (ftree (fst l)) (fpipes (snd l)).
Lemma ftree_define f body : ftree (Define f body) = Pipeline false [CFunction f (map fchain_tree body) None] false.
Proof.
  cbn [ftree]. do 3 f_equal. apply map_ext. intros [c0 rest]. unfold fchain_tree, fpipes. cbn [fst snd]. f_equal.
  apply map_ext. intros [o c]. reflexivity.
Qed.
Lemma text_define f body : fcomm_text (Define f body) = lit " " ++ f ++ lit " ( ) {" ++ fscript_text body ++ lit " ; }".
Proof.
  cbn [fcomm_text]. unfold fscript_text. do 4 f_equal. f_equal. apply map_ext. intros [c0 rest]. unfold fchain_text. cbn [fst snd]. f_equal.
  f_equal. apply map_ext. intros [o c]. reflexivity.
Qed.
Lemma text_eval body : fcomm_text (EvalText body) = spaced [lit "eval"; sq (fscript_text body)].
Proof.
  cbn [fcomm_text]. unfold sq, fscript_text. cbn [spaced]. do 3 f_equal. f_equal. f_equal. f_equal. apply map_ext. intros [c0 rest]. unfold fchain_text. cbn [fst snd]. f_equal.
  f_equal. apply map_ext. intros [o c]. reflexivity.
Qed.

(** What can be typed. *)
Section Typed.
Context (aliases_ : aliases) (readonly : str -> bool).
Fixpoint fcomm_ok (c : fcomm) : Prop :=
  match c with
  | Do c => comm_ok aliases_ (fun _ => None) readonly c
  | Quit e => leave_ok aliases_ e /\ e <> ExitSame
  | Source f body =>
      plain_word f /\ In (ch "/") f /\ sget (lit ".") aliases_ = None /\ body <> [] /\
      all (map (fun l => match l with (c0, rest) => fcomm_ok c0 /\ all (map (fun oc => match oc with (o, c) => fcomm_ok c end) rest) end) body)
  | EvalText body =>
      ~ In (ch "'") (fscript_text body) /\ sget (lit "eval") aliases_ = None /\ body <> [] /\
      all (map (fun l => match l with (c0, rest) => fcomm_ok c0 /\ all (map (fun oc => match oc with (o, c) => fcomm_ok c end) rest) end) body)
  | Define f body =>
      plain_word f /\ ContextSpec.unqualified f /\ body <> [] /\
      all (map (fun l => match l with (c0, rest) => fcomm_ok c0 /\ all (map (fun oc => match oc with (o, c) => fcomm_ok c end) rest) end) body)
  end.
Definition fchain_ok (l : fchain) : Prop := fcomm_ok (fst l) /\ Forall (fun oc => fcomm_ok (snd oc)) (snd l).
Lemma all_iff {A} (f : A -> Prop) l : all (map f l) <-> Forall f l.
Proof. induction l as [|a l IH]; cbn; [split; auto|]. split; [intros [H1 H2]; constructor; tauto|intros H; inversion H; tauto]. Qed.
Lemma define_ok f body : fcomm_ok (Define f body) <-> plain_word f /\ ContextSpec.unqualified f /\ body <> [] /\ Forall fchain_ok body.
Proof.
  cbn [fcomm_ok]. rewrite all_iff. split; intros (H1 & H2 & H3 & H4); (split; [exact H1|]; split; [exact H2|]; split; [exact H3|]);
    (eapply Forall_impl; [|exact H4]); intros [c0 rest]; unfold fchain_ok; cbn [fst snd]; intros [K1 K2]; (split; [exact K1|]); revert K2; rewrite all_iff;
    apply Forall_impl; intros [o c] K; exact K.
Qed.

Lemma source_ok f body : fcomm_ok (Source f body) <->
  plain_word f /\ In (ch "/") f /\ sget (lit ".") aliases_ = None /\ body <> [] /\ Forall fchain_ok body.
Proof.
  cbn [fcomm_ok]. rewrite all_iff. split; intros (H0 & H1 & H2 & H3 & H4); (split; [exact H0|]; split; [exact H1|]; split; [exact H2|]; split; [exact H3|]);
    (eapply Forall_impl; [|exact H4]); intros [c0 rest]; unfold fchain_ok; cbn [fst snd]; intros [K1 K2]; (split; [exact K1|]); revert K2; rewrite all_iff;
    apply Forall_impl; intros [o c] K; exact K.
Qed.

Lemma eval_ok body : fcomm_ok (EvalText body) <->
  ~ In (ch "'") (fscript_text body) /\ sget (lit "eval") aliases_ = None /\ body <> [] /\ Forall fchain_ok body.
Proof.
  cbn [fcomm_ok]. rewrite all_iff. split; intros (H1 & H2 & H3 & H4); (split; [exact H1|]; split; [exact H2|]; split; [exact H3|]);
    (eapply Forall_impl; [|exact H4]); intros [c0 rest]; unfold fchain_ok; cbn [fst snd]; intros [K1 K2]; (split; [exact K1|]); revert K2; rewrite all_iff;
    apply Forall_impl; intros [o c] K; exact K.
Qed.

Lemma fcomm_facts c : fcomm_ok c -> wf_pipeline (ftree c) /\ r_pipeline (ftree c) = fcomm_text c.
Proof.
  induction c as [c|e|f body _|body _|f body IH] using fcomm_ind'; intros H.
  - exact (comm_tree _ _ _ _ H).
  - exact (leave_tree aliases_ (fun _ => None) readonly e (proj1 H)).
  - apply source_ok in H. destruct H as (H1 & _). cbn [ftree fcomm_text].
    destruct (args_line (lit ".") [f] ltac:(discriminate)) as [A1 A2]; [spelled|apply Forall_cons; [left; apply plain_written, H1|apply Forall_nil]|].
    split; [exact A1|rewrite A2; reflexivity].
  - apply eval_ok in H. destruct H as (H1 & _). cbn [ftree]. rewrite text_eval.
    destruct (args_line (lit "eval") [sq (fscript_text body)] ltac:(discriminate)) as [A1 A2];
      [spelled|apply Forall_cons; [left; apply ww_quoted; [cbn; auto|exact H1]|apply Forall_nil]|].
    split; [exact A1|rewrite A2; reflexivity].
  - apply define_ok in H. destruct H as (H1 & _ & H3 & H4). rewrite ftree_define, text_define.
    assert (Hb : Forall (fun l => wf_andor (fchain_tree l) /\ r_andor (fchain_tree l) = fchain_text l) body).
    { clear -IH H4. induction H4 as [|[c0 rest] body [K1 K2] _ IHb]; [constructor|]. inversion_clear IH as [|? ? [I1 I2] I3]. constructor; [|exact (IHb I3)].
      cbn [fst snd] in *. destruct (I1 K1) as [W1 T1].
      assert (Hr : Forall (fun cp => wf_pipeline (snd cp)) (fpipes rest) /\
        List.concat (map (fun cp => r_cond (fst cp) ++ r_pipeline (snd cp)) (fpipes rest)) = List.concat (map (fun oc => cond_text (fst oc) ++ fcomm_text (snd oc)) rest)).
      { clear -I2 K2. induction rest as [|[o c] rest IHr]; [split; [constructor|reflexivity]|].
        inversion_clear I2 as [|? ? I2a I2b]. inversion_clear K2 as [|? ? K2a K2b]. cbn [snd] in *. destruct (I2a K2a) as [W T]. destruct (IHr K2b I2b) as [W' T'].
        split; [constructor; [exact W|exact W']|]. cbn [fpipes map List.concat fst snd]. fold (fpipes rest). rewrite T, T'. destruct o; reflexivity. }
      destruct Hr as [W2 T2]. split; [apply wf_tree; assumption|]. unfold fchain_tree. rewrite text_tree. unfold chain_text, fchain_text. cbn [fst snd].
      rewrite T1. f_equal. rewrite <- T2. reflexivity. }
    split.
    + cbn [wf_pipeline map all fold_right wf_command opt]. split; [discriminate|]. split; [|intros [E _]; discriminate]. split; [|exact I].
      split; [apply plain_written, H1|]. split; [destruct body; [congruence|discriminate]|]. split; [|exact I].
      rewrite all_iff. apply Forall_map. eapply Forall_impl; [|exact Hb]. intros l [K _]. exact K.
    + cbn [r_pipeline map joined r_command app]. rewrite !app_nil_r. unfold fscript_text. rewrite map_map.
      rewrite (map_ext_Forall (fun l => r_andor (fchain_tree l)) fchain_text); [reflexivity|]. eapply Forall_impl; [|exact Hb]. intros l [_ K]. exact K.
Qed.
Lemma fchain_facts l : fchain_ok l -> wf_andor (fchain_tree l) /\ r_andor (fchain_tree l) = fchain_text l /\
  wf_pipeline (ftree (fst l)) /\ Forall (fun cp => wf_pipeline (snd cp)) (fpipes (snd l)).
Proof.
  intros [H0 Hr]. destruct (fcomm_facts _ H0) as [W0 T0].
  assert (W : Forall (fun cp => wf_pipeline (snd cp)) (fpipes (snd l))).
  { unfold fpipes. apply Forall_map. eapply Forall_impl; [|exact Hr]. intros oc H. apply fcomm_facts. exact H. }
  split; [apply wf_tree; assumption|]. split; [|split; assumption].
  unfold fchain_tree. rewrite text_tree. unfold chain_text, fchain_text. rewrite T0. f_equal.
  clear -Hr. induction Hr as [|[o c] r H _ IH]; [reflexivity|]. cbn [fpipes map List.concat fst snd] in *. fold (fpipes r).
  rewrite IH. f_equal. rewrite (proj2 (fcomm_facts _ H)). destruct o; reflexivity.
Qed.
Lemma fscript_render sc : Forall fchain_ok sc -> render (map fchain_tree sc) = fscript_text sc.
Proof.
  intros H. unfold render, fscript_text. rewrite map_map. rewrite (map_ext_Forall (fun l => r_andor (fchain_tree l)) fchain_text); [reflexivity|].
  eapply Forall_impl; [|exact H]. intros l K. apply fchain_facts, K.
Qed.
Lemma fscript_parses sc : Forall fchain_ok sc -> sc <> [] ->
  parse (fscript_text sc) = Some (Some (map fchain_tree sc)) /\ parse (fscript_text sc ++ [10%N]) = Some (Some (map fchain_tree sc)).
Proof.
  intros Hok Hne. rewrite <- (fscript_render sc Hok).
  assert (Hw : Forall wf_andor (map fchain_tree sc)).
  { apply Forall_map. eapply Forall_impl; [|exact Hok]. intros l Hl. apply fchain_facts, Hl. }
  assert (Hm : map fchain_tree sc <> []) by (destruct sc; [congruence|discriminate]).
  split; [exact (GrammarFacts.render_parse _ Hm Hw)|exact (GrammarFacts.render_parse_newline _ Hm Hw)].
Qed.
Lemma file_parses scs : Forall (fun sc => sc <> []) scs -> List.concat scs <> [] -> Forall fchain_ok (List.concat scs) ->
  parse (file_text scs) = Some (Some (map fchain_tree (List.concat scs))).
Proof.
  intros Hne Hc Hok. rewrite concat_map. rewrite Forall_concat in Hok.
  replace (file_text scs) with (GrammarFacts.on_lines (map (map fchain_tree) scs)).
  - apply GrammarFacts.lines_parse; [destruct scs; [destruct (Hc eq_refl)|discriminate]|]. apply Forall_map. rewrite Forall_forall in *. intros sc Hsc. split.
    + specialize (Hne sc Hsc). destruct sc; [congruence|discriminate].
    + apply Forall_map. eapply Forall_impl; [|exact (Hok sc Hsc)]. intros l Hl. apply fchain_facts, Hl.
  - unfold GrammarFacts.on_lines, file_text. rewrite map_map. f_equal. apply map_ext_in. intros sc Hsc. rewrite fscript_render; [reflexivity|].
    rewrite Forall_forall in Hok. apply Hok, Hsc.
Qed.
End Typed.

(** ** Entering a call *)

Lemma param_position i : (0 < i)%N -> position (N_to_str i).
Proof.
  intros Hi. unfold position, positional. rewrite !andb_true_iff, !negb_true_iff.
  pose proof (GrammarFacts.uint_digits_is_digit (N.to_uint i)) as D. fold (N_to_str i) in D. split; [split|].
  - apply forallb_forall. intros c Hc. rewrite Forall_forall in D. specialize (D c Hc). rewrite andb_true_iff, !N.leb_le. exact D.
  - apply str_eqb_neq. destruct (PropertiesTyped.N_to_str_digit i) as (c & r & E & _). rewrite E. discriminate.
  - apply str_eqb_neq. change (lit "0") with (N_to_str 0). intros E. apply ContextLaws.N_to_str_inj in E. lia.
Qed.
Lemma parameters_position args : forall i x, (0 < i)%N -> sget x (parameters i args) <> None -> position x.
Proof.
  induction args as [|a args IH]; intros i x Hi H; cbn [parameters sget] in H; [congruence|].
  destruct (str_eqb_spec x (N_to_str i)) as [->|_]; [apply param_position, Hi|]. apply (IH (i + 1)%N x); [lia|exact H].
Qed.
Lemma parameters_other args : forall i j, (j < i)%N -> sget (N_to_str j) (parameters i args) = None.
Proof.
  induction args as [|a args IH]; intros i j Hj; [reflexivity|]. cbn [parameters sget].
  destruct (str_eqb_spec (N_to_str j) (N_to_str i)) as [E|_]; [apply ContextLaws.N_to_str_inj in E; lia|]. apply IH. lia.
Qed.
Lemma unquote_plain a : match a with c :: _ => ~ In c (lit "'""") | [] => True end -> ContextSpec.unquote a = a.
Proof.
  destruct a as [|c r]; [reflexivity|]. intros H. cbn [ContextSpec.unquote].
  destruct (N.eqb_spec c (ch """")) as [->|_]; [exfalso; apply H; right; left; reflexivity|].
  destruct (N.eqb_spec c (ch "'")) as [->|_]; [exfalso; apply H; left; reflexivity|]. reflexivity.
Qed.
Lemma upto_none c a : ~ In c a -> ContextSpec.upto c a = a.
Proof.
  induction a as [|x a IH]; intros H; [reflexivity|]. cbn [ContextSpec.upto].
  destruct (N.eqb_spec x c) as [->|_]; [exfalso; apply H; left; reflexivity|]. rewrite IH; [reflexivity|]. intros F. apply H. right. exact F.
Qed.

Lemma somes_nil {A} (col : list (option A)) : somes col = [] -> ContextSpec.first_some col = None /\ forall b, ContextSpec.replace_first b col = None.
Proof.
  induction col as [|[x|] col IH]; cbn; intros H; [split; reflexivity|discriminate|]. destruct (IH H) as [H1 H2]. split; [exact H1|].
  intros b. rewrite H2. reflexivity.
Qed.

Lemma params_column args : forall i m m', ContextSpec.cm_wf m -> (0 < i)%N -> ContextSpec.performs (ContextLaws.params i args) m = Some m' ->
  (forall j a, nth_error args j = Some a -> passes (i + N.of_nat j) a) ->
  forall x col, ContextLaws.column x m = None :: col -> (position x -> somes col = []) ->
  ContextLaws.column x m' = match sget x (parameters i args) with Some v => Some (v, false) | None => None end :: col.
Proof.
  induction args as [|a args IH]; intros i m m' Hwf Hi Hp Ha x col Hx Hcol; cbn [ContextLaws.params parameters sget] in *.
  - injection Hp as <-. exact Hx.
  - destruct (Ha 0%nat a eq_refl) as (P1 & P2 & P3 & _). rewrite (proj2 (str_eqb_neq _ _) P2) in Hp. cbn [ContextSpec.performs] in Hp.
    destruct (ContextSpec.perform (ContextSpec.OAssign (ContextLaws.param i a)) m) as [m0|] eqn:E; [|discriminate].
    pose proof (ContextFacts.perform_wf _ _ _ Hwf E) as Hwf0.
    assert (Ha' : forall j b, nth_error args j = Some b -> passes (i + 1 + N.of_nat j) b).
    { intros j b Hj. specialize (Ha (S j) b Hj). replace (i + N.of_nat (S j))%N with (i + 1 + N.of_nat j)%N in Ha by lia. exact Ha. }
    destruct (str_eqb_spec x (N_to_str i)) as [->|N].
    + pose proof (ContextLaws.assign_column _ _ _ Hwf E) as A. rewrite ContextLaws.param_target, ContextLaws.param_assigned, Hx in A.
      specialize (Hcol (param_position i Hi)). destruct (somes_nil col Hcol) as [S1 S2]. cbn [ContextSpec.first_some] in A. rewrite S1 in A.
      unfold ContextLaws.bound in A. cbn [ContextSpec.replace_first] in A. rewrite S2 in A. rewrite upto_none, unquote_plain in A by assumption.
      rewrite <- A. apply (ContextLaws.performs_keeps (ContextLaws.params (i + 1) args)) with (m := m0); auto.
      * apply ContextLaws.params_balanced.
      * intros o Ho. destruct (ContextLaws.params_writes _ _ _ Ho) as (j & Hj & ->). intros Hc.
        assert (Hj' : N_to_str j = N_to_str i) by congruence. apply ContextLaws.N_to_str_inj in Hj'. lia.
    + apply (IH (i + 1)%N m0 m' Hwf0); auto; [lia|]. rewrite (ContextLaws.perform_column _ _ _ x Hwf E); [exact Hx|].
      cbn [ContextLaws.writes]. rewrite ContextLaws.param_target. congruence.
Qed.
Lemma params_definitions args : forall i m m' n, ContextSpec.cm_wf m -> ContextSpec.performs (ContextLaws.params i args) m = Some m' ->
  ContextSpec.definitions n m' = ContextSpec.definitions n m /\ ContextSpec.cm_wf m'.
Proof.
  induction args as [|a args IH]; intros i m m' n Hwf Hp; cbn [ContextLaws.params] in Hp.
  - injection Hp as <-. split; [reflexivity|exact Hwf].
  - destruct (str_eqb a (lit "&")); [injection Hp as <-; split; [reflexivity|exact Hwf]|]. cbn [ContextSpec.performs] in Hp.
    destruct (ContextSpec.perform (ContextSpec.OAssign (ContextLaws.param i a)) m) as [m0|] eqn:E; [|discriminate].
    pose proof (ContextFacts.perform_wf _ _ _ Hwf E) as Hwf0. destruct (IH _ _ _ n Hwf0 Hp) as [H1 H2]. split; [|exact H2].
    rewrite H1. rewrite (ContextLaws.perform_definitions _ _ _ n Hwf E) by discriminate. reflexivity.
Qed.
Lemma entry_facts f args m m1 : ContextSpec.cm_wf m -> ContextSpec.performs (ContextLaws.entry f args) m = Some m1 ->
  (forall i a, nth_error args i = Some a -> passes (1 + N.of_nat i) a) -> (forall x, position x -> somes (ContextLaws.column x m) = []) ->
  ContextSpec.cm_wf m1 /\ (forall n, ContextSpec.definitions n m1 = None :: ContextSpec.definitions n m) /\
  forall x, x <> lit "0" -> ContextLaws.column x m1 = match sget x (parameters 1 args) with Some v => Some (v, false) | None => None end :: ContextLaws.column x m.
Proof.
  intros Hwf Hp Ha Hpos. destruct (ContextLaws.entry_head f args m m1 Hwf Hp) as (m0 & P0 & H0 & E0).
  pose proof (ContextFacts.wf_push m Hwf) as Hwp.
  split; [exact (proj2 (params_definitions args 1 m0 m1 [] H0 E0))|]. split.
  - intros n. rewrite (proj1 (params_definitions args 1 m0 m1 n H0 E0)).
    rewrite (ContextLaws.perform_definitions _ _ _ n Hwp P0) by discriminate.
    exact (ContextLaws.perform_definitions ContextSpec.OPush m _ n Hwf eq_refl ltac:(discriminate)).
  - intros x Hx. apply (params_column args 1%N m0 m1 H0); auto; [lia|].
    rewrite (ContextLaws.perform_column _ _ _ x Hwp P0).
    + apply ContextLaws.push_column, Hwf.
    + cbn [ContextLaws.writes]. rewrite ContextLaws.param_target. change (N_to_str 0) with (lit "0"). congruence.
Qed.
Lemma entry_made f args m : ContextSpec.cm_wf m -> (ContextSpec.digits_of (lit "0=" ++ f) <= 18446744073709551615)%N ->
  (forall i a, nth_error args i = Some a -> passes (1 + N.of_nat i) a) -> exists m1, ContextSpec.performs (ContextLaws.entry f args) m = Some m1.
Proof.
  intros Hwf Hn Ha. destruct (ContextSpec.performs (ContextLaws.entry f args) m) as [m1|] eqn:E; [exists m1; reflexivity|].
  exfalso. apply PropertiesTyped.entry_none in E; [|exact Hwf]. destruct E as [[E _]|(k & a & Ek & Hd & _)]; [lia|].
  destruct (Ha k a Ek) as (_ & _ & _ & H). lia.
Qed.

(** ** Commands *)

Section Steps.
Context (w : os) (aliases_ : aliases) (readonly : str -> bool) (old : nmap job) (t0 : fdtable) (code : world).
Notation fcomm_ok := (fcomm_ok aliases_ readonly).
Notation fchain_ok := (fchain_ok aliases_ readonly).

(** What the shell keeps of the functions. *)
Definition table_of (t : str -> option fscript) (n : str) : option function_body :=
  match t n with Some b => Some (FunctionBody (map fchain_tree b) None) | None => None end.
(** The shell is in the state of the machine, [k] calls deep; [apart]: it is a process that
    a shell has started for a function. *)
Record fagrees (apart : bool) (k : nat) (fm : fmachine) (s : shell) : Prop := {
  fa_core : agrees aliases_ (table_of (funs fm)) readonly old t0 k apart (core fm) s;
  fa_bodies : forall f b, funs fm f = Some b -> b <> [] /\ Forall fchain_ok b;
  fa_params : forall x, position x -> CoreSpec.vars (core fm) x = sget x (parameters 1 (params fm)) }.

Lemma identifier_not_positional x : identifier x -> positional x = false.
Proof. intros H. destruct (positional x) eqn:E; [|reflexivity]. exfalso. exact (proj2 (proj2 (position_facts x E)) H). Qed.
Lemma identifier_not_zero x : identifier x -> x <> lit "0".
Proof. change (lit "0") with [48%N]. intros Hx ->. destruct Hx as [[Hx _] _]. unfold letter in Hx. change (ch "_") with 95%N in Hx. lia. Qed.
Lemma position_not_zero x : position x -> x <> lit "0".
Proof. intros Hx ->. discriminate Hx. Qed.
Lemma parameter_not_identifier x args : identifier x -> sget x (parameters 1 args) = None.
Proof.
  intros Hx. destruct (sget x (parameters 1 args)) eqn:E; [|reflexivity]. exfalso.
  apply (proj2 (proj2 (position_facts x (parameters_position args 1%N x ltac:(lia) ltac:(congruence)))) Hx).
Qed.

Lemma agrees_entered fs k ap m s f args m1 : agrees aliases_ fs readonly old t0 k ap m s -> ContextSpec.performs (ContextLaws.entry f args) (cm (im s)) = Some m1 ->
  (forall i a, nth_error args i = Some a -> passes (1 + N.of_nat i) a) -> (forall x, position x -> CoreSpec.vars m x = None) ->
  agrees aliases_ fs readonly old t0 (S k) ap (entered args m) (Shell (with_cm m1 (im s)) (trace s)).
Proof.
  intros A Hp Ha Hpos. pose proof A as [].
  assert (Hnone : forall x, position x -> somes (ContextLaws.column x (cm (im s))) = []).
  { intros x Hx. rewrite ag_position by exact Hx. rewrite Hpos by exact Hx. reflexivity. }
  destruct (entry_facts f args _ m1 ag_wf Hp Ha Hnone) as (Hwf & Hdef & Hcol).
  assert (Hid : forall x, identifier x -> ContextLaws.column x m1 = None :: ContextLaws.column x (cm (im s))).
  { intros x Hx. rewrite Hcol by (apply identifier_not_zero, Hx). rewrite parameter_not_identifier by exact Hx. reflexivity. }
  split; cbn [im trace cm env al js with_cm fds next_pipe forked entered CoreSpec.vars environment started]; try assumption.
  - intros x Hx. pose proof (identifier_facts x Hx) as (_ & _ & _ & _ & X5 & _). rewrite identifier_not_positional by exact Hx.
    rewrite <- ag_vars by exact Hx. apply ContextLaws.binding_of_inj. rewrite !ContextLaws.get_var_column by assumption. rewrite Hid by exact Hx. reflexivity.
  - intros x Hx. change (PropertiesContext.bindings x m1) with (somes (ContextLaws.column x m1)). rewrite Hid by exact Hx. exact (ag_once x Hx).
  - intros x Hx Hs. pose proof (ag_global x Hx Hs) as G. destruct (global_last x m1 Hwf) as [c1 E1]. destruct (global_last x (cm (im s)) ag_wf) as [c2 E2].
    rewrite Hid in E1 by exact Hx. rewrite E2 in E1. rewrite app_comm_cons in E1. apply app_inj_tail in E1. destruct E1 as [_ E1].
    intros F. rewrite F in E1. destruct (PropertiesBuiltins.global x (cm (im s))); [discriminate|]. congruence.
  - intros x Hx. rewrite Hid by exact Hx. cbn [firstn repeat]. rewrite ag_inner by exact Hx. reflexivity.
  - intros x Hx. rewrite Hcol by (apply position_not_zero, Hx). change (positional x) with (positional x). unfold position in Hx. rewrite Hx.
    destruct (sget x (parameters 1 args)); cbn [somes flat_map app]; fold (somes (ContextLaws.column x (cm (im s)))); rewrite (Hnone x Hx); reflexivity.
  - intros x Hx _. rewrite Hcol by (apply position_not_zero, Hx). exact (Hnone x Hx).
  - rewrite <- ContextLaws.enter_performs in Hp. rewrite (EvalStack.enter_stack _ _ _ _ Hp), app_length. cbn. lia.
  - intros n Hn. rewrite <- ag_functions by exact Hn. rewrite !ContextLaws.get_function_definitions by exact Hn. rewrite Hdef. reflexivity.
  - intros n. rewrite Hdef. cbn [firstn repeat]. rewrite ag_bodies. reflexivity.
Qed.

Lemma first_none {A} k (l : list (option A)) : (S k < List.length l)%nat -> firstn (S k) l = repeat None (S k) -> exists l', l = None :: l' /\ firstn k l' = repeat None k.
Proof. destruct l as [|b l]; cbn; [lia|]. intros _ [= -> H]. exists l. auto. Qed.
Lemma column_length x m : List.length (ContextLaws.column x m) = List.length (stack m).
Proof. unfold ContextLaws.column. rewrite map_length, rev_length. reflexivity. Qed.

Lemma agrees_returned fs k ap m m' s2 s' : agrees aliases_ fs readonly old t0 (S k) ap m' s2 -> PropertiesRun.after_body s2 s' ->
  basic (jobs (js (im s'))) -> sound (im s') -> forked (im s') = ap -> (forall x, position x -> CoreSpec.vars m x = None) ->
  agrees aliases_ fs readonly old t0 k ap (returned m m') s'.
Proof.
  intros A Hb Hbas Hs Hf Hpos. pose proof A as []. destruct Hb as (B1 & B2 & B3 & B4 & B5 & B6 & B7 & B8 & B9 & _).
  pose proof (ContextFacts.perform_wf _ _ _ ag_wf B1) as Hwf.
  assert (Hcol : forall x, ContextLaws.column x (cm (im s')) = tl (ContextLaws.column x (cm (im s2)))).
  { intros x. exact (ContextLaws.perform_column _ _ _ x ag_wf B1 ltac:(discriminate)). }
  assert (Hdef : forall n, ContextSpec.definitions n (cm (im s')) = tl (ContextSpec.definitions n (cm (im s2)))).
  { intros n. exact (ContextLaws.perform_definitions _ _ _ n ag_wf B1 ltac:(discriminate)). }
  assert (Hid : forall x, identifier x -> ContextLaws.column x (cm (im s2)) = None :: ContextLaws.column x (cm (im s')) /\
    firstn k (ContextLaws.column x (cm (im s'))) = repeat None k).
  { intros x Hx. rewrite Hcol. destruct (first_none k (ContextLaws.column x (cm (im s2)))) as (l & E & F); [rewrite column_length; assumption|exact (ag_inner x Hx)|].
    rewrite E. split; [reflexivity|exact F]. }
  assert (Hfn : forall n, ContextSpec.definitions n (cm (im s2)) = None :: ContextSpec.definitions n (cm (im s')) /\
    firstn k (ContextSpec.definitions n (cm (im s'))) = repeat None k).
  { intros n. rewrite Hdef. destruct (first_none k (ContextSpec.definitions n (cm (im s2)))) as (l & E & F);
      [unfold ContextSpec.definitions; rewrite map_length, rev_length; assumption|exact (ag_bodies n)|].
    rewrite E. split; [reflexivity|exact F]. }
  split; rewrite ?B3, ?B4, ?B5, ?B6; cbn [returned CoreSpec.vars environment started]; try assumption.
  - intros x Hx. pose proof (identifier_facts x Hx) as (_ & _ & _ & _ & X5 & _). rewrite identifier_not_positional by exact Hx.
    rewrite <- ag_vars by exact Hx. apply ContextLaws.binding_of_inj. rewrite !ContextLaws.get_var_column by assumption. rewrite (proj1 (Hid x Hx)). reflexivity.
  - intros x Hx. pose proof (ag_once x Hx) as O. change (PropertiesContext.bindings x ?c) with (somes (ContextLaws.column x c)) in O |- *.
    rewrite (proj1 (Hid x Hx)) in O. exact O.
  - intros x Hx Hsx. pose proof (ag_global x Hx Hsx) as G. destruct (global_last x (cm (im s2)) ag_wf) as [c1 E1]. destruct (global_last x (cm (im s')) Hwf) as [c2 E2].
    rewrite (proj1 (Hid x Hx)), E2 in E1. rewrite app_comm_cons in E1. apply app_inj_tail in E1. destruct E1 as [_ E1].
    intros F. rewrite F in E1. destruct (PropertiesBuiltins.global x (cm (im s2))); [discriminate|]. congruence.
  - intros x Hx. exact (proj2 (Hid x Hx)).
  - intros x Hx. unfold position in Hx. rewrite Hx. rewrite Hpos by exact Hx. rewrite Hcol. exact (ag_outer x Hx ltac:(lia)).
  - intros x Hx _. rewrite Hcol. pose proof (ag_outer x Hx ltac:(lia)) as O. destruct (tl (ContextLaws.column x (cm (im s2)))) as [|b l]; [reflexivity|].
    cbn [tl]. destruct b; [discriminate|exact O].
  - pose proof (ContextLaws.perform_height _ _ _ ag_wf B1) as Hh. cbn [ContextLaws.height_after] in Hh. rewrite Hh. lia.
  - intros n Hn. rewrite <- ag_functions by exact Hn. rewrite !ContextLaws.get_function_definitions by exact Hn. rewrite (proj1 (Hfn n)). reflexivity.
  - intros n. exact (proj2 (Hfn n)).
  - intros j. rewrite B7. exact (ag_jobs j).
Qed.

Lemma fstep_define d f body ap k fm s : fcomm_ok (Define f body) -> k = 0%nat \/ funs fm f <> None -> fagrees ap k fm s ->
  exists s', exec_text w (S d) (r_pipeline (ftree (Define f body))) s = (OOk 0, s') /\
    fagrees ap k (FMachine (core fm) (set_fun f body (funs fm)) (params fm)) s'.
Proof.
  intros Hok Hset [A Hb Hp]. pose proof (proj1 (fcomm_facts _ _ _ Hok)) as Hwf. apply define_ok in Hok. destruct Hok as (H1 & H2 & H3 & H4).
  rewrite ftree_define in *. rewrite exec_pipeline by exact Hwf. eexists. split; [reflexivity|].
  pose proof A as []. set (b := FunctionBody (map fchain_tree body) None).
  destruct (PropertiesContext.C30_function_table f b _ ag_wf H2) as (_ & D1 & D2 & _ & D3 & D4).
  split; cbn [core funs params]; [|intros g bb|exact Hp].
  - assert (Hcol : forall y, ContextLaws.column y (add_function f b (cm (im s))) = ContextLaws.column y (cm (im s))).
    { intros y. exact (ContextLaws.perform_column (ContextSpec.ODefine f b) _ _ y ag_wf eq_refl ltac:(discriminate)). }
    pose proof (ContextFacts.perform_wf (ContextSpec.ODefine f b) _ _ ag_wf eq_refl) as Hwf'.
    split; cbn [im trace cm env al js with_cm PropertiesBuiltins.masked_as with_js fds next_pipe forked]; try assumption.
    + intros x Hx. rewrite (proj1 (D4 x)). auto.
    + intros x Hx. pose proof (ag_once x Hx) as O. change (PropertiesContext.bindings x ?c) with (somes (ContextLaws.column x c)) in O |- *.
      rewrite Hcol. exact O.
    + intros x Hx Hs. pose proof (ag_global x Hx Hs) as G. destruct (global_last x _ Hwf') as [c1 E1]. destruct (global_last x (cm (im s)) ag_wf) as [c2 E2].
      rewrite Hcol, E2 in E1. apply app_inj_tail in E1. destruct E1 as [_ E1].
      intros F. rewrite F in E1. destruct (PropertiesBuiltins.global x (cm (im s))); [discriminate|]. congruence.
    + intros x Hx. rewrite Hcol. auto.
    + intros x Hx. rewrite Hcol. auto.
    + intros x Hx. rewrite Hcol. auto.
    + intros n Hn. unfold table_of, set_fun. destruct (str_eqb_spec n f) as [->|N]; [exact D2|].
      rewrite (get_function_same n (cm (im s)) _ Hn (proj1 (D3 n N))). exact (ag_functions n Hn).
    + intros n. destruct (str_eqb_spec n f) as [->|N]; [|rewrite (proj1 (D3 n N)); auto]. rewrite D1.
      destruct Hset as [->|Hset]; [reflexivity|].
      assert (Hne : ContextSpec.first_some (ContextSpec.definitions f (cm (im s))) <> None).
      { rewrite <- ContextLaws.get_function_definitions by exact H2. rewrite ag_functions by exact H2. unfold table_of. destruct (funs fm f); [discriminate|congruence]. }
      pose proof (ag_bodies f) as Hin. clear -Hin Hne. revert Hin Hne. generalize (ContextSpec.definitions f (cm (im s))). intros l. revert k.
      unfold ContextSpec.define. induction l as [|o l IH]; intros k Hin Hne; [cbn in Hne; congruence|].
      destruct k as [|k]; [reflexivity|]. cbn [firstn repeat] in Hin. injection Hin as -> Hin. cbn [ContextSpec.first_some] in Hne.
      specialize (IH k Hin Hne). cbn [ContextSpec.replace_first].
      destruct (ContextSpec.replace_first (Some b) l) as [c|] eqn:E; [cbn [firstn repeat]; f_equal; exact IH|].
      exfalso. clear -E Hne. induction l as [|[y|] l IH]; cbn in *; try congruence. apply IH; [|exact Hne].
      destruct (ContextSpec.replace_first _ l); [discriminate|reflexivity].
  - unfold set_fun. destruct (str_eqb_spec g f) as [->|_]; [intros [= <-]; split; assumption|apply Hb].
Qed.

Lemma comm_ok_table fs c : comm_ok aliases_ (fun _ => None) readonly c ->
  match c with Run p more => forall q, In q (p :: more) -> fs (name q) = None | _ => True end -> comm_ok aliases_ fs readonly c.
Proof.
  destruct c as [x v|x v|x|dir|p more]; try (intros H _; exact H). cbn [comm_ok]. intros H Hn. rewrite Forall_forall in *. intros q Hq.
  destruct (H q Hq) as (H1 & H2 & H3 & H4 & _ & H6). split; [exact H1|]. split; [exact H2|]. split; [exact H3|]. split; [exact H4|].
  split; [exact (Hn q Hq)|exact H6].
Qed.
Lemma step_positional c m x : comm_ok aliases_ (fun _ => None) readonly c -> position x ->
  CoreSpec.vars (snd (step code c m)) x = CoreSpec.vars m x.
Proof.
  intros Hok Hx. destruct c as [y v|y v|y|dir|p more]; cbn [step snd CoreSpec.vars]; try reflexivity; try (destruct (reachable _ _ _); reflexivity); unfold set_var;
    (destruct (str_eqb_spec x y) as [->|_]; [|reflexivity]); exfalso; exact (proj2 (proj2 (position_facts y Hx)) (proj1 Hok)).
Qed.

Section Loop.
Context (one : fcomm -> fmachine -> outcome) (d k : nat) (ap : bool).
Hypothesis Hone : forall c fm vs st fm' s, one c fm = Some (vs, Goes st fm') -> Forall (allowed code) vs -> fcomm_ok c -> fagrees ap k fm s ->
  exists s', exec_text w (S d) (r_pipeline (ftree c)) s = (OOk st, s') /\ fagrees ap k fm' s'.

Lemma followed_some r g vs st fm : followed r g = Some (vs, Goes st fm) ->
  exists v1 st1 fm1 v2, r = Some (v1, Goes st1 fm1) /\ g st1 fm1 = Some (v2, Goes st fm) /\ vs = v1 ++ v2.
Proof.
  unfold followed. destruct r as [[v1 [st1 fm1|r1]]|]; [|discriminate|discriminate]. destruct (g st1 fm1) as [[v2 x]|] eqn:E; [|discriminate].
  intros [= <- ->]. exists v1, st1, fm1, v2. auto.
Qed.
Lemma frun_more_agrees rest : Forall (fun oc => fcomm_ok (snd oc)) rest -> forall st fm s vs st' fm', fagrees ap k fm s ->
  frun_more one rest st fm = Some (vs, Goes st' fm') -> Forall (allowed code) vs ->
  exists ran s', EvalSpec.chain (fun p => exec_text w (S d) (r_pipeline p)) st s (fpipes rest) ran (OOk st') s' /\ fagrees ap k fm' s'.
Proof.
  induction 1 as [|[o c] rest Hc _ IH]; intros st fm s vs st' fm' A E Hv; cbn [frun_more fpipes map fst snd] in *.
  - injection E as <- <- <-. exists [], s. split; [constructor|exact A].
  - destruct (goes_on o st) eqn:G.
    + apply followed_some in E. destruct E as (v1 & st1 & fm1 & v2 & E1 & E2 & ->). apply Forall_app in Hv. destruct Hv as [Hv1 Hv2].
      destruct (Hone c fm v1 st1 fm1 s E1 Hv1 Hc A) as (s1 & H1 & H2).
      destruct (IH st1 fm1 s1 v2 st' fm' H2 E2 Hv2) as (ran & s' & H3 & H4). eexists _, s'. split; [|exact H4].
      eapply chain_run; [|exact H1|exact H3]. destruct o; cbn in G |- *; [apply Z.eqb_eq, G|apply negb_true_iff, Z.eqb_neq in G; exact G].
    + destruct (IH st fm s vs st' fm' A E Hv) as (ran & s' & H3 & H4). eexists _, s'. split; [|exact H4].
      eapply chain_skip; [|exact H3]. destruct o; cbn in G |- *; [apply Z.eqb_neq, G|apply negb_false_iff, Z.eqb_eq in G; intros F; exact (F G)].
Qed.
Lemma frun_chain_agrees l fm s vs st fm' : fchain_ok l -> fagrees ap k fm s -> frun_chain one l fm = Some (vs, Goes st fm') -> Forall (allowed code) vs ->
  exists s', exec_text w (S d) (r_andor (fchain_tree l)) s = (OOk st, s') /\ fagrees ap k fm' s'.
Proof.
  intros Hok A E Hv. destruct (fchain_facts _ _ l Hok) as (W1 & W2 & W3 & W4). destruct Hok as [H0 Hr].
  apply followed_some in E. destruct E as (v1 & st1 & fm1 & v2 & E1 & E2 & ->). apply Forall_app in Hv. destruct Hv as [Hv1 Hv2].
  destruct (Hone (fst l) fm v1 st1 fm1 s E1 Hv1 H0 A) as (s1 & K1 & K2).
  destruct (frun_more_agrees (snd l) Hr st1 fm1 s1 v2 st fm' K2 E2 Hv2) as (ran & s' & K3 & K4).
  exists s'. split; [|exact K4]. unfold fchain_tree. rewrite text_tree. apply exec_chain; try assumption.
  eexists. eapply whole_run; eassumption.
Qed.
Lemma frun_script_agrees sc : Forall fchain_ok sc -> forall st0 fm s vs st fm', fagrees ap k fm s ->
  frun_script one sc st0 fm = Some (vs, Goes st fm') -> Forall (allowed code) vs ->
  exists ran s', in_order (fun a => exec_text w (S d) (r_andor a)) st0 s (map fchain_tree sc) ran (OOk st) s' /\ fagrees ap k fm' s'.
Proof.
  induction 1 as [|l sc Hl _ IH]; intros st0 fm s vs st fm' A E Hv; cbn [frun_script map] in *.
  - injection E as <- <- <-. exists [], s. split; [constructor|exact A].
  - apply followed_some in E. destruct E as (v1 & st1 & fm1 & v2 & E1 & E2 & ->). apply Forall_app in Hv. destruct Hv as [Hv1 Hv2].
    destruct (frun_chain_agrees l fm s v1 st1 fm1 Hl A E1 Hv1) as (s1 & H1 & H2).
    destruct (IH st1 fm1 s1 v2 st fm' H2 E2 Hv2) as (ran & s' & H3 & H4). eexists _, s'. split; [eapply in_order_run; eassumption|exact H4].
Qed.
Lemma frun_script_runs sc st0 fm s vs st fm' : sc <> [] -> Forall fchain_ok sc -> fagrees ap k fm s ->
  frun_script one sc st0 fm = Some (vs, Goes st fm') -> Forall (allowed code) vs ->
  exists s', exec_text w (S d) (fscript_text sc) s = (OOk st, s') /\ fagrees ap k fm' s'.
Proof.
  intros Hne Hok A E Hv. destruct (frun_script_agrees sc Hok st0 fm s vs st fm' A E Hv) as (ran & s' & H1 & H2).
  exists s'. split; [|exact H2]. rewrite <- (fscript_render _ _ sc Hok). apply (exec_list w (S d) _ st0).
  - destruct sc; [congruence|discriminate].
  - apply Forall_map. eapply Forall_impl; [|exact Hok]. intros l Hl. apply (fchain_facts _ _ l Hl).
  - exists ran. exact H1.
Qed.
End Loop.

Context (Hsys : system w old code).

Lemma concat_fields m args : (forall a, In a args -> arg_fields m a = [arg_value m a]) -> List.concat (map (arg_fields m) args) = map (arg_value m) args.
Proof.
  induction args as [|a args IH]; intros H; [reflexivity|]. cbn [map List.concat]. rewrite (H a) by (left; reflexivity).
  rewrite IH by (intros b Hb; apply H; right; exact Hb). reflexivity.
Qed.
Lemma called_some fm c b args : called fm c = Some (b, args) -> exists n ars, c = Run (Prog [] n ars []) [] /\ funs fm n = Some b /\
  args = List.concat (map (arg_fields (core fm)) ars).
Proof.
  unfold called. destruct c as [| | | |[ss n ars rs] more]; try discriminate. destruct ss; [|discriminate]. destruct rs; [|discriminate]. destruct more; [|discriminate].
  destruct (funs fm n) eqn:E; [|discriminate]. intros [= <- <-]. exists n, ars. auto.
Qed.

(** A call, given what the body does. *)
Lemma call_text d k fs m s g ars body m1 o s2 : agrees aliases_ fs readonly old t0 k false m s -> comm_ok aliases_ (fun _ => None) readonly (Run (Prog [] g ars []) []) ->
  fs g = Some (FunctionBody (map fchain_tree body) None) -> body <> [] -> Forall fchain_ok body ->
  (forall x, In (Dollar x) ars -> exists u, CoreSpec.vars m x = Some u /\ shown u) ->
  List.concat (map (arg_fields m) ars) = map (arg_value m) ars /\
  (ContextSpec.performs (ContextLaws.entry g (map (arg_value m) ars)) (cm (im s)) = Some m1 ->
   exec_text w (S d) (fscript_text body) (Shell (with_cm m1 (im s)) (trace s)) = (o, s2) ->
   (returns o -> exists s', exec_text w (S (S d)) (comm_text (Run (Prog [] g ars []) [])) s = (OOk 0, s') /\ PropertiesRun.after_body s2 s' /\
     basic (jobs (js (im s'))) /\ sound (im s') /\ forked (im s') = false) /\
   (~ returns o -> exec_text w (S (S d)) (comm_text (Run (Prog [] g ars []) [])) s = (o, s2))).
Proof.
  intros A Hok0 Hg Hbne Hbok Hdol. pose proof A as []. pose proof Hok0 as Hok. cbn [comm_ok] in Hok. inversion_clear Hok as [|? ? Hok1 _].
  destruct Hok1 as (_ & O2 & O3 & O4 & _ & O6 & O7 & _). cbn [name arguments] in *.
  assert (Hord : forall a, In a ars -> ordinary (expand_var (cm (im s))) (arg_text a) (arg_value m a) /\ ~ In 0%N (arg_value m a) /\
    arg_fields m a = [arg_value m a]).
  { intros a Ha. rewrite Forall_forall in O7. eapply arg_ordinary; [exact A|exact (O7 a Ha)|]. intros x ->. exact (Hdol x Ha). }
  split; [apply concat_fields; intros a Ha; apply Hord, Ha|]. intros Hm1 R1.
  assert (Hrun : exec_text w (S d) (render (map fchain_tree body)) (Shell (with_cm m1 (im s)) (trace s)) = (o, s2)).
  { rewrite (fscript_render _ _ body Hbok). exact R1. }
  assert (C : match o with
    | OOk _ | OErr _ => exists s', exec_text w (S (S d)) (r_words (g :: map arg_text ars)) s = (OOk 0, s') /\ PropertiesRun.after_body s2 s' /\ PropertiesRun.numbered s2 s'
    | _ => exec_text w (S (S d)) (r_words (g :: map arg_text ars)) s = (o, s2) end).
  { apply (PropertiesRun.call_runs w d g (map arg_text ars) (map (arg_value m) ars) (map fchain_tree body) None s m1 o s2); auto.
    { rewrite ag_aliases. exact O3. }
    { apply plain_written, O2. }
    { apply Forall_map. eapply Forall_impl; [|exact O7]. intros a Ha. left. apply arg_written, Ha. }
    { clear -Hord. induction ars as [|a ars IHa]; [constructor|]. cbn [map]. constructor; [apply Hord; left; reflexivity|].
      apply IHa. intros b Hb. apply Hord. right. exact Hb. }
    { intros c F. cbn [List.concat] in F. apply in_app_or in F. destruct F as [F|F].
      - destruct g; [destruct F|]. destruct O2 as [_ [Z _]]. exact (proj2 (Z c F)).
      - apply in_concat in F. destruct F as (v & Fv & F). apply in_map_iff in Fv. destruct Fv as (a & <- & Ha). intros ->. exact (proj1 (proj2 (Hord a Ha)) F). }
    { rewrite ag_functions by exact O6. exact Hg. }
    { destruct body; [congruence|discriminate]. }
    { apply Forall_map. eapply Forall_impl; [|exact Hbok]. intros l Hl. apply (fchain_facts _ _ l Hl). } }
  destruct (comm_tree _ _ _ _ Hok0) as [T1 T2].
  assert (T3 : comm_text (Run (Prog [] g ars []) []) = r_words (g :: map arg_text ars)).
  { cbn [comm_text prog_words settings map app name arguments redirs List.concat]. rewrite !app_nil_r. reflexivity. }
  rewrite T3. split; [|intros Hr; destruct o; try (destruct (Hr I)); exact C].
  intros Hr. assert (C' : exists s', exec_text w (S (S d)) (r_words (g :: map arg_text ars)) s = (OOk 0, s') /\ PropertiesRun.after_body s2 s' /\ PropertiesRun.numbered s2 s').
  { destruct o; try (destruct Hr); exact C. }
  destruct C' as (s' & C1 & C2 & _). exists s'.
  split; [exact C1|]. split; [exact C2|]. rewrite <- T3, <- T2 in C1.
  assert (Hev : exec_text w (S (S d)) (r_pipeline (comm_pipe (Run (Prog [] g ars []) []))) s = evaluate w (S (S d)) [AoOne (comm_pipe (Run (Prog [] g ars []) []))] s).
  { rewrite exec_pipeline by exact T1. symmetry. rewrite evaluate_one. reflexivity. }
  rewrite Hev in C1. split; [|split].
  - destruct (EvalJobs.evaluate_worked w _ _ s _ s' C1 (or_introl eq_refl) ag_basic) as (os & Hr1). exact (run_basic os _ _ ag_basic Hr1).
  - exact (evaluate_sound _ _ _ _ _ _ C1 ag_fds).
  - rewrite (EvalForked.evaluate_still w _ _ s _ s' C1 (or_introl eq_refl)). exact ag_forked.
Qed.

(** ** Files *)

Definition file_opened (path : str) (s : shell) : shell :=
  Shell (with_fds (ninsert (lowest (fds (im s))) (Desc (OpenFile path for_reading) true) (fds (im s)))
           (with_cm (cm (im s)) (PropertiesBuiltins.masked_as true (im s)))) (EOpen path for_reading :: trace s).
(** While the file is open, a program that is started does not see it. *)
Lemma agrees_opened fs k ap m s path : agrees aliases_ fs readonly old t0 k ap m s ->
  agrees aliases_ fs readonly old (fds (im (file_opened path s))) k ap m (file_opened path s) /\
  (forall fd, kept (nget fd (fds (im (file_opened path s)))) = kept (nget fd t0)).
Proof.
  intros A. pose proof A as []. pose proof (lowest_spec (fds (im s)) (proj1 (proj1 ag_fds))) as [Hl0 Hl].
  assert (G : forall fd, nget fd (fds (im (file_opened path s))) = if Z.eqb fd (lowest (fds (im s))) then Some (Desc (OpenFile path for_reading) true) else nget fd t0).
  { intros fd. cbn [file_opened im Shell.fds with_fds]. rewrite nget_ninsert by apply ag_fds. rewrite ag_files. reflexivity. }
  assert (K : forall fd, kept (nget fd (fds (im (file_opened path s)))) = kept (nget fd t0)).
  { intros fd. rewrite G. destruct (Z.eqb_spec fd (lowest (fds (im s)))) as [->|_]; [|reflexivity]. rewrite <- ag_files, Hl. reflexivity. }
  split; [|exact K]. split; try assumption.
  - eapply Forall_impl; [|exact ag_executes]. intros f. apply executes_kept. intros fd. symmetry. apply K.
  - cbn [file_opened im]. apply sound_insert; [exact ag_fds|exact Hl0|]. cbn. intros j [E|E]; discriminate.
  - reflexivity.
  - split; rewrite G; [destruct (Z.eqb 0 _)|destruct (Z.eqb 1 _)]; try discriminate; apply ag_open.
Qed.
Lemma agrees_closed fs k ap m s path fs' m' s2 : agrees aliases_ fs readonly old t0 k ap m s ->
  agrees aliases_ fs' readonly old (fds (im (file_opened path s))) k ap m' s2 ->
  agrees aliases_ fs' readonly old t0 k ap m' (PropertiesBuiltins.closing (lowest (fds (im s))) s2).
Proof.
  intros A B. destruct (agrees_opened fs k ap m s path A) as [_ K]. pose proof A as []. pose proof (lowest_spec (fds (im s)) (proj1 (proj1 ag_fds))) as [Hl0 Hl].
  assert (G : forall fd, nget fd (fds (im (file_opened path s))) = if Z.eqb fd (lowest (fds (im s))) then Some (Desc (OpenFile path for_reading) true) else nget fd t0).
  { intros fd. cbn [file_opened im Shell.fds with_fds]. rewrite nget_ninsert by apply ag_fds. rewrite ag_files. reflexivity. }
  assert (Hopen := ag_open). assert (Hf0 := ag_files). clear A ag_wf ag_vars ag_once ag_global ag_inner ag_position ag_outer ag_depth ag_forked ag_ps4 ag_env ag_started ag_visited ag_executes ag_linked ag_quiet
    ag_aliases ag_functions ag_bodies ag_fds ag_files ag_open ag_basic ag_jobs. destruct B.
  unfold PropertiesBuiltins.closing, fd_close. rewrite ag_files, G, Z.eqb_refl.
  split; cbn [im trace cm env al js with_fds forked]; try assumption.
  - eapply Forall_impl; [|exact ag_executes]. intros f. apply executes_kept. exact K.
  - apply sound_remove, ag_fds.
  - intros fd. cbn [Shell.fds with_fds]. rewrite nget_nremove. destruct (Z.eqb_spec fd (lowest (fds (im s)))) as [->|N]; [rewrite <- Hf0; symmetry; exact Hl|].
    rewrite ag_files, G. destruct (Z.eqb_spec fd (lowest (fds (im s)))); [contradiction|reflexivity].
Qed.

(** [. file], given what the text of the file does. *)
Lemma source_text d k ap fs m s f body : agrees aliases_ fs readonly old t0 k ap m s -> fcomm_ok (Source f body) ->
  (exists scs, Forall (fun sc => sc <> []) scs /\ body = List.concat scs /\ contents code f = Some (file_text scs)) ->
  exec_text w (S d) (fcomm_text (Source f body)) s =
  match exec_text w d (fscript_text body) (file_opened f s) with
  | (OOk _, s2) => (OOk 0, PropertiesBuiltins.closing (lowest (fds (im s))) s2)
  | (OErr e, s2) => (OErr (EString e), PropertiesBuiltins.closing (lowest (fds (im s))) s2)
  | r => r
  end.
Proof.
  intros A Hok (scs & Hne & Hb & Hc). apply source_ok in Hok. destruct Hok as (H1 & H2 & H3 & H4 & H5). pose proof A as [].
  destruct (fscript_parses aliases_ readonly body H5 H4) as [P1 _].
  assert (P2 : parse (file_text scs) = Some (Some (map fchain_tree body))) by (subst body; apply (file_parses aliases_ readonly scs Hne H4 H5)).
  destruct (arg_ordinary _ _ _ _ _ _ _ m s (Plain f) A H1 ltac:(discriminate)) as (Ho & _). cbn [arg_text arg_value] in Ho.
  pose proof (sys_files w old code Hsys f _ (trace s) Hc) as [F1 _].
  pose proof (sys_files w old code Hsys f _ (EOpen f for_reading :: trace s) Hc) as [_ F2].
  change (fcomm_text (Source f body)) with (r_words [lit "."; f]).
  rewrite (PropertiesBuiltins.C94_source_partial w d (lit ".") f f [] [] s (cm (im s)) f (file_text scs) _
    (or_introl eq_refl) ltac:(congruence) (Forall_cons _ (or_introl (plain_written _ H1)) (Forall_nil _)) (Forall2_cons _ _ Ho (Forall2_nil _))
    (Forall_nil _) eq_refl (or_introl (conj H2 eq_refl)) F1 F2 P2).
  cbv zeta. unfold exec_text. rewrite P1, P2. reflexivity.
Qed.
(** [eval 'text']. *)
Lemma eval_text d k ap fs m s body : agrees aliases_ fs readonly old t0 k ap m s -> fcomm_ok (EvalText body) ->
  exec_text w (S (S d)) (fcomm_text (EvalText body)) s =
  match exec_text w (S d) (fscript_text body) s with
  | (OOk _, s2) => (OOk 0, s2)
  | (OErr e, s2) => (OErr (EString e), s2)
  | r => r
  end.
Proof.
  intros A Hok. apply eval_ok in Hok. destruct Hok as (H1 & H2 & H3 & H4). pose proof A as [].
  rewrite text_eval, <- (fscript_render _ _ body H4).
  change (spaced [lit "eval"; sq (render (map fchain_tree body))]) with (r_words [lit "eval"; sq (render (map fchain_tree body))]).
  apply PropertiesEval.C50_eval_partial.
  - congruence.
  - destruct body; [congruence|discriminate].
  - apply Forall_map. eapply Forall_impl; [|exact H4]. intros l Hl. apply (fchain_facts _ _ l Hl).
  - rewrite (fscript_render _ _ body H4). exact H1.
Qed.

End Steps.

Section AnyFiles.
Context (w : os) (aliases_ : aliases) (readonly : str -> bool) (old : nmap job) (code : world) (Hsys : system w old code).
Notation fcomm_ok := (fcomm_ok aliases_ readonly).
Notation fagrees := (fagrees aliases_ readonly old).

Lemma fstep_agrees_any n : forall t0 d ap k c fm vs st fm' s, (n <= d)%nat -> n = 0%nat \/ ap = false -> fstep code n k c fm = Some (vs, Goes st fm') -> Forall (allowed code) vs -> fcomm_ok c ->
  fagrees t0 ap k fm s -> exists s', exec_text w (S d) (r_pipeline (ftree c)) s = (OOk st, s') /\ fagrees t0 ap k fm' s'.
Proof.
  induction n as [|n IH]; intros t0 d ap k c fm vs st fm' s Hd Hap E Hv Hok A.
  1,2: destruct c as [c|e|f body|body|f body]; [|discriminate| | |cbn [fstep] in E; injection E as <- <- <-; inversion_clear Hv as [|? ? Hv1 _];
    apply fstep_define; [exact Hok|exact Hv1|exact A]].
  2,3: discriminate.
  3: { cbn [fstep] in E. destruct Hap as [Hap| ->]; [discriminate|]. destruct d as [|d]; [lia|].
    destruct (frun_script (fstep code n k) body 0 fm) as [[v1 [st1 fm1|r1]]|] eqn:E1; [|discriminate|discriminate].
    injection E as <- <- <-. inversion_clear Hv as [|? ? Hv0 Hv1]. cbn [allowed v_comm v_before v_calls v_status] in Hv0. destruct Hv0 as [-> Hc].
    destruct A as [A Hb Hp]. pose proof (source_text w aliases_ readonly old t0 code Hsys (S d) k false _ _ s f body A Hok Hc) as Ht.
    pose proof (proj2 (fcomm_facts _ _ _ Hok)) as T. pose proof Hok as Hok1. apply source_ok in Hok1. destruct Hok1 as (_ & _ & _ & Hne & Hbok).
    destruct (agrees_opened aliases_ readonly old t0 _ k false _ s f A) as [A1 _].
    destruct (frun_script_runs w aliases_ readonly old (fds (im (file_opened f s))) code (fstep code n k) d k false) with (sc := body) (st0 := 0) (fm := fm)
      (s := file_opened f s) (vs := v1) (st := 0) (fm' := fm1) as (s2 & R1 & [R2 R3 R4]); auto.
    { intros c fm0 vs0 st0 fm0' s0 F1 F2 F3 F4. apply (IH _ d false k c fm0 vs0 st0 fm0' s0); auto. lia. }
    { split; assumption. }
    rewrite T, Ht, R1. eexists. split; [reflexivity|]. split; [|exact R3|exact R4].
    exact (agrees_closed aliases_ readonly old t0 _ k false _ s f _ _ s2 A R2). }
  3: { cbn [fstep] in E. destruct Hap as [Hap| ->]; [discriminate|]. destruct d as [|d]; [lia|].
    destruct (frun_script (fstep code n k) body 0 fm) as [[v1 [st1 fm1|r1]]|] eqn:E1; [|discriminate|discriminate].
    injection E as <- <- <-. inversion_clear Hv as [|? ? Hv0 Hv1]. cbn [allowed v_comm v_before v_calls v_status] in Hv0. subst st1.
    pose proof (eval_text w aliases_ readonly old t0 d k false _ _ s body (fa_core _ _ _ _ _ _ _ _ A) Hok) as Ht.
    pose proof (proj2 (fcomm_facts _ _ _ Hok)) as T. pose proof Hok as Hok1. apply eval_ok in Hok1. destruct Hok1 as (_ & _ & Hne & Hbok).
    destruct (frun_script_runs w aliases_ readonly old t0 code (fstep code n k) d k false) with (sc := body) (st0 := 0) (fm := fm)
      (s := s) (vs := v1) (st := 0) (fm' := fm1) as (s2 & R1 & R2); auto.
    { intros c fm0 vs0 st0 fm0' s0 F1 F2 F3 F4. apply (IH _ d false k c fm0 vs0 st0 fm0' s0); auto. lia. }
    rewrite T, Ht, R1. eexists. split; [reflexivity|exact R2]. }
  1,2: cbn [fstep] in E; destruct (called fm c) as [[body args]|] eqn:Hc.
  - discriminate.
  - destruct (step code c (core fm)) as [st1 m1] eqn:E1. injection E as <- <- <-. inversion_clear Hv as [|? ? Hv1 _].
    cbn [allowed v_comm v_before v_calls] in Hv1. rewrite Hc in Hv1. destruct Hv1 as [Hf Hx]. destruct A as [A Hb Hp]. cbn [PropertiesCoreFun.fcomm_ok] in Hok.
    destruct (step_agrees w _ (table_of (funs fm)) _ _ _ code k ap Hsys d c (core fm) s st1 m1 A) as (s' & H1 & H2); auto.
    { apply comm_ok_table; [exact Hok|]. destruct c; try exact I. intros q Hq. unfold table_of. rewrite (Hx q Hq). reflexivity. }
    { destruct c; try exact I. exact Hx. }
    exists s'. split; [exact H1|]. split; cbn [core funs params]; [exact H2|exact Hb|]. intros x Hpos. rewrite <- Hp by exact Hpos.
    rewrite <- (step_positional aliases_ readonly code c (core fm) x Hok Hpos), E1. reflexivity.
  - destruct Hap as [Hap| ->]; [discriminate|]. destruct d as [|d]; [lia|].
    destruct (frun_script (fstep code n (S k)) body 0 (FMachine (entered args (core fm)) (funs fm) args)) as [[v1 [st1 fm1|r1]]|] eqn:E1; [|discriminate|discriminate].
    injection E as <- <- <-. inversion_clear Hv as [|? ? Hv0 Hv1]. cbn [allowed v_comm v_before v_calls v_status] in Hv0. rewrite Hc in Hv0.
    destruct (called_some fm c body args Hc) as (g & ars & -> & Hg & Hargs). destruct Hv0 as (-> & Hpar & Hdig & Hpass & Hdol). cbn [name arguments] in Hdig, Hdol.
    destruct A as [A Hb Hp]. pose proof A as []. cbn [PropertiesCoreFun.fcomm_ok] in Hok.
    assert (Hnone : forall x, position x -> CoreSpec.vars (core fm) x = None) by (intros x Hx; rewrite Hp, Hpar by exact Hx; reflexivity).
    destruct (entry_made g args (cm (im s)) ag_wf Hdig Hpass) as [m1 Hm1].
    destruct (Hb g body Hg) as [Hbne Hbok].
    pose proof (agrees_entered _ _ _ _ _ k _ _ s g args m1 A Hm1 Hpass Hnone) as A1.
    destruct (frun_script_runs w aliases_ readonly old t0 code (fstep code n (S k)) d (S k) false) with (sc := body) (st0 := 0) (fm := FMachine (entered args (core fm)) (funs fm) args)
      (s := Shell (with_cm m1 (im s)) (trace s)) (vs := v1) (st := 0) (fm' := fm1) as (s2 & R1 & [R2 R3 R4]); auto.
    { intros c fm0 vs0 st0 fm0' s0 F1 F2 F3 F4. apply (IH t0 d false (S k) c fm0 vs0 st0 fm0' s0); auto. lia. }
    { split; cbn [core funs params]; [exact A1|exact Hb|]. intros x Hx. cbn [entered CoreSpec.vars]. unfold position in Hx. rewrite Hx. reflexivity. }
    destruct (call_text w aliases_ readonly old t0 d k _ _ s g ars body m1 (OOk 0) s2 A Hok) as [Hv Hcall]; auto.
    { unfold table_of. rewrite Hg. reflexivity. }
    rewrite Hv in Hargs. subst args. destruct (proj1 (Hcall Hm1 R1) I) as (s' & C1 & C2 & C3 & C4 & C5).
    exists s'. cbn [ftree]. rewrite (proj2 (comm_tree _ _ _ _ Hok)). split; [exact C1|].
    split; cbn [core funs params].
    + apply (agrees_returned _ _ _ _ _ k _ _ _ s2 s' R2 C2); auto.
    + exact R3.
    + intros x Hx. cbn [returned CoreSpec.vars]. rewrite <- Hp by exact Hx. unfold position in Hx. rewrite Hx. reflexivity.
  - destruct (step code c (core fm)) as [st1 m1] eqn:E1. injection E as <- <- <-. inversion_clear Hv as [|? ? Hv1 _].
    cbn [allowed v_comm v_before v_calls] in Hv1. rewrite Hc in Hv1. destruct Hv1 as [Hf Hx]. destruct A as [A Hb Hp]. cbn [PropertiesCoreFun.fcomm_ok] in Hok.
    destruct (step_agrees w _ (table_of (funs fm)) _ _ _ code k ap Hsys d c (core fm) s st1 m1 A) as (s' & H1 & H2); auto.
    { apply comm_ok_table; [exact Hok|]. destruct c; try exact I. intros q Hq. unfold table_of. rewrite (Hx q Hq). reflexivity. }
    { destruct c; try exact I. exact Hx. }
    exists s'. split; [exact H1|]. split; cbn [core funs params]; [exact H2|exact Hb|]. intros x Hpos. rewrite <- Hp by exact Hpos.
    rewrite <- (step_positional aliases_ readonly code c (core fm) x Hok Hpos), E1. reflexivity.
Qed.

End AnyFiles.

Section Whole.
Context (w : os) (aliases_ : aliases) (readonly : str -> bool) (old : nmap job) (t0 : fdtable) (code : world).
Notation fcomm_ok := (fcomm_ok aliases_ readonly).
Notation fchain_ok := (fchain_ok aliases_ readonly).
Notation fagrees := (fagrees aliases_ readonly old t0).
Context (Hsys : system w old code).
Lemma fstep_agrees n : forall d ap k c fm vs st fm' s, (n <= d)%nat -> n = 0%nat \/ ap = false -> fstep code n k c fm = Some (vs, Goes st fm') -> Forall (allowed code) vs -> fcomm_ok c ->
  fagrees ap k fm s -> exists s', exec_text w (S d) (r_pipeline (ftree c)) s = (OOk st, s') /\ fagrees ap k fm' s'.
Proof. exact (fstep_agrees_any w aliases_ readonly old code Hsys n t0). Qed.

(** A script with functions, run by the shell, does what its meaning says: it starts
    the same programs in the same order, with the same arguments, environment, input
    and output, ends with the same status and leaves the same variables and functions. *)
Theorem C125_functions_partial : forall n d sc fm s vs st fm', (n <= d)%nat -> fagrees false 0 fm s -> Forall fchain_ok sc -> sc <> [] ->
  frun code n sc fm = Some (vs, Goes st fm') -> Forall (allowed code) vs ->
  exists s', exec_text w (S d) (fscript_text sc) s = (OOk st, s') /\ fagrees false 0 fm' s'.
Proof.
  intros n d sc fm s vs st fm' Hd A Hok Hne E Hv. apply (frun_script_runs w aliases_ readonly old t0 code (fstep code n 0) d 0 false) with (st0 := 0) (fm := fm) (vs := vs); auto.
  intros c fm0 vs0 st0 fm0' s0 F1 F2 F3 F4. apply (fstep_agrees n d false 0 c fm0 vs0 st0 fm0' s0); auto.
Qed.

(** ** What is left out *)

Lemma column_some x m b : ContextSpec.cm_wf m -> ContextSpec.unqualified x -> ContextSpec.first_some (ContextLaws.column x m) = b ->
  expand_var m x = option_map fst b.
Proof.
  intros Hwf Hx E. unfold expand_var. pose proof (ContextLaws.get_var_column x m Hwf Hx) as G. rewrite E in G.
  rewrite <- G. destruct (get_var x m) as [[v r]|]; reflexivity.
Qed.
Lemma replace_some {A} (b : option A) col : ContextSpec.first_some col <> None -> exists c, ContextSpec.replace_first b col = Some c /\
  (forall a, b = Some a -> ContextSpec.first_some c = Some a).
Proof.
  induction col as [|[x|] col IH]; cbn; intros H; [congruence| |].
  - exists (b :: col). split; [reflexivity|]. intros a ->. reflexivity.
  - destruct (IH H) as (c & E & F). rewrite E. exists (None :: c). split; [reflexivity|]. exact F.
Qed.
(** What a call does to the variables if the body is an assignment. *)
Lemma call_assigns d k fm s g ars x v : fagrees false k fm s -> comm_ok aliases_ (fun _ => None) readonly (Run (Prog [] g ars []) []) ->
  funs fm g = Some [(Do (Assign x v), [])] -> comm_ok aliases_ (fun _ => None) readonly (Assign x v) ->
  (forall y, In (Dollar y) ars -> exists u, CoreSpec.vars (core fm) y = Some u /\ shown u) ->
  (ContextSpec.digits_of (lit "0=" ++ g) <= 18446744073709551615)%N ->
  (forall i a, nth_error (map (arg_value (core fm)) ars) i = Some a -> passes (1 + N.of_nat i) a) ->
  exists m1 m2 s', ContextSpec.performs (ContextLaws.entry g (map (arg_value (core fm)) ars)) (cm (im s)) = Some m1 /\ ContextSpec.cm_wf m1 /\
    ContextSpec.perform (ContextSpec.OAssign (x ++ lit "=" ++ arg_text v)) m1 = Some m2 /\ ContextSpec.cm_wf m2 /\
    ContextSpec.perform ContextSpec.OPop m2 = Some (cm (im s')) /\ ContextSpec.cm_wf (cm (im s')) /\
    exec_text w (S (S d)) (comm_text (Run (Prog [] g ars []) [])) s = (OOk 0, s') /\
    List.concat (map (arg_fields (core fm)) ars) = map (arg_value (core fm)) ars.
Proof.
  intros [A Hb Hp] Hok Hg Hasg Hdol Hdig Hpass. destruct (Hb g _ Hg) as [Hbne Hbok]. pose proof A as [].
  destruct (entry_made g (map (arg_value (core fm)) ars) (cm (im s)) ag_wf Hdig Hpass) as [m1 Hm1].
  pose proof (ContextFacts.performs_wf _ _ _ ag_wf Hm1) as Hw1.
  destruct Hasg as (Hx & Hv & R & Hal). destruct (value_word x v Hx Hv) as (W1 & W2 & W3 & W4 & W5 & _).
  set (a := x ++ lit "=" ++ arg_text v) in *.
  destruct (ContextSpec.perform (ContextSpec.OAssign a) m1) as [m2|] eqn:Em2.
  2: { apply PropertiesTyped.assign_none in Em2; [|exact Hw1]. destruct Em2 as [F _]. congruence. }
  pose proof (ContextFacts.perform_wf _ _ _ Hw1 Em2) as Hw2.
  pose proof (PropertiesBuiltins.exec_assign w d a [] (Shell (with_cm m1 (im s)) (trace s)) (Forall_cons _ W1 (Forall_nil _))) as E.
  specialize (E ltac:(intros y [<-|[]]; exact W2) ltac:(cbn; congruence)).
  cbn [im cm with_cm trace] in E. change (ContextSpec.perform (ContextSpec.OAssign a) m1) with (add_var a m1) in Em2. rewrite Em2 in E.
  destruct (call_text w aliases_ readonly old t0 d k _ _ s g ars [(Do (Assign x v), [])] m1 (OOk 0) (Shell (with_cm m2 (PropertiesBuiltins.masked_as true (with_cm m1 (im s)))) (trace s)) A Hok) as [Hf Hcall]; auto.
  { unfold table_of. rewrite Hg. reflexivity. }
  edestruct (fun R => proj1 (Hcall Hm1 R) I) as (s' & C1 & C2 & _).
  { rewrite <- E. f_equal. unfold fscript_text. cbn [map joined]. unfold fchain_text. cbn [fst snd map List.concat]. rewrite app_nil_r. reflexivity. }
  exists m1, m2, s'. pose proof (proj1 C2) as P. cbn [im cm with_cm] in P.
  split; [exact Hm1|]. split; [exact Hw1|]. split; [exact Em2|]. split; [exact Hw2|]. split; [exact P|].
  split; [exact (ContextFacts.perform_wf _ _ _ Hw2 P)|]. split; [exact C1|exact Hf].
Qed.

(** A variable that a function is the first to assign to is gone after the call. *)
Theorem C125_variable_refuted : forall d k fm s g x v, fagrees false k fm s -> comm_ok aliases_ (fun _ => None) readonly (Run (Prog [] g [] []) []) ->
  funs fm g = Some [(Do (Assign x v), [])] -> comm_ok aliases_ (fun _ => None) readonly (Assign x v) ->
  (ContextSpec.digits_of (lit "0=" ++ g) <= 18446744073709551615)%N -> params fm = [] -> CoreSpec.vars (core fm) x = None ->
  (exists vs fm', fstep code 1 k (Do (Run (Prog [] g [] []) [])) fm = Some (vs, Goes 0 fm') /\ CoreSpec.vars (core fm') x <> None) /\
  exists s', exec_text w (S (S d)) (comm_text (Run (Prog [] g [] []) [])) s = (OOk 0, s') /\ expand_var (cm (im s')) x = None.
Proof.
  intros d k fm s g x v A Hok Hg Hasg Hdig Hpar Hx. split.
  - do 2 eexists. cbn [fstep called]. rewrite Hg. cbn [map List.concat frun_script frun_chain fst snd called followed step frun_more app core funs]. split; [reflexivity|].
    cbn [core returned CoreSpec.vars]. rewrite identifier_not_positional by apply Hasg. unfold set_var. rewrite str_eqb_refl. discriminate.
  - destruct (call_assigns d k fm s g [] x v A Hok Hg Hasg) as (m1 & m2 & s' & Hm1 & Hw1 & Em2 & Hw2 & P & Hw3 & C & _); auto.
    { intros y []. }
    { intros [|i] a E; discriminate. }
    exists s'. split; [exact C|]. destruct A as [A Hb Hp]. pose proof A as []. cbn [map] in Hm1.
    destruct (entry_facts g [] (cm (im s)) m1 ag_wf Hm1) as (_ & _ & Hcol).
    { intros [|i] a E; discriminate. }
    { intros y Hy. rewrite ag_position by exact Hy. rewrite Hp, Hpar by exact Hy. reflexivity. }
    destruct Hasg as (Hi & Hv & _). pose proof (identifier_facts x Hi) as (_ & _ & _ & _ & X5 & _).
    destruct (value_word x v Hi Hv) as (_ & _ & W3 & _).
    pose proof (agrees_somes _ _ _ _ _ _ _ (core fm) s x A Hi) as Hs. rewrite Hx in Hs. destruct (somes_nil _ Hs) as [S1 S2].
    rewrite (column_some x _ None Hw3 X5); [reflexivity|].
    rewrite (ContextLaws.perform_column _ _ _ x Hw2 P) by discriminate.
    pose proof (ContextLaws.assign_column _ _ _ Hw1 Em2) as H2. rewrite W3, Hcol in H2 by (apply identifier_not_zero, Hi). cbn [parameters sget] in H2.
    cbn [ContextSpec.first_some] in H2. rewrite S1 in H2. unfold ContextLaws.bound in H2. cbn [ContextSpec.replace_first] in H2. rewrite S2 in H2.
    rewrite H2. exact S1.
Qed.

(** A call within a function changes the parameters of that function: after [g a], [$1]
    is [a], not what it was. *)
Theorem C125_parameter_refuted : forall d k fm s g a x v u us old_value, fagrees false k fm s -> comm_ok aliases_ (fun _ => None) readonly (Run (Prog [] g [a] []) []) ->
  funs fm g = Some [(Do (Assign x v), [])] -> comm_ok aliases_ (fun _ => None) readonly (Assign x v) -> CoreSpec.vars (core fm) x = Some old_value ->
  (forall y, a = Dollar y -> exists z, CoreSpec.vars (core fm) y = Some z /\ shown z) ->
  (ContextSpec.digits_of (lit "0=" ++ g) <= 18446744073709551615)%N -> passes 1 (arg_value (core fm) a) -> params fm = u :: us ->
  (exists vs fm', fstep code 1 k (Do (Run (Prog [] g [a] []) [])) fm = Some (vs, Goes 0 fm') /\ CoreSpec.vars (core fm') (lit "1") = Some u) /\
  exists s', exec_text w (S (S d)) (comm_text (Run (Prog [] g [a] []) [])) s = (OOk 0, s') /\ expand_var (cm (im s')) (lit "1") = Some (arg_value (core fm) a).
Proof.
  intros d k fm s g a x v u us ov A Hok Hg Hasg Hx Hdol Hdig Hpass Hpar.
  assert (H1 : CoreSpec.vars (core fm) (lit "1") = Some u).
  { rewrite (fa_params _ _ _ _ _ _ _ _ A) by reflexivity. rewrite Hpar. reflexivity. }
  split.
  - do 2 eexists. cbn [fstep called]. rewrite Hg. cbn [frun_script frun_chain fst snd called followed step frun_more app core funs]. split; [reflexivity|].
    cbn [core returned CoreSpec.vars]. change (positional (lit "1")) with true. exact H1.
  - destruct (call_assigns d k fm s g [a] x v A Hok Hg Hasg) as (m1 & m2 & s' & Hm1 & Hw1 & Em2 & Hw2 & P & Hw3 & C & _); auto.
    { intros y [->|[]]. apply Hdol. reflexivity. }
    { intros [|[|i]] b E; try discriminate. injection E as <-. exact Hpass. }
    exists s'. split; [exact C|]. destruct A as [A Hb Hp]. pose proof A as []. cbn [map] in Hm1.
    destruct (ContextLaws.entry_head g _ _ m1 ag_wf Hm1) as (m0 & P0 & H0 & E0).
    destruct Hpass as (P1 & P2 & P3 & _). cbn [ContextLaws.params] in E0. rewrite (proj2 (str_eqb_neq _ _) P2) in E0. cbn [ContextSpec.performs] in E0.
    destruct (ContextSpec.perform (ContextSpec.OAssign (ContextLaws.param 1 (arg_value (core fm) a))) m0) as [m1'|] eqn:E1; [|discriminate]. injection E0 as ->.
    destruct Hasg as (Hi & Hv & _). destruct (value_word x v Hi Hv) as (_ & _ & W3 & _).
    change (lit "1") with (N_to_str 1) in *.
    assert (Hc0 : ContextLaws.column (N_to_str 1) m0 = None :: ContextLaws.column (N_to_str 1) (cm (im s))).
    { rewrite (ContextLaws.perform_column _ _ _ (N_to_str 1) (ContextFacts.wf_push _ ag_wf) P0); [apply ContextLaws.push_column, ag_wf|].
      cbn [ContextLaws.writes]. rewrite ContextLaws.param_target. discriminate. }
    pose proof (ag_position (N_to_str 1) eq_refl) as Hs. rewrite H1 in Hs.
    assert (Hf : ContextSpec.first_some (ContextLaws.column (N_to_str 1) (cm (im s))) = Some (u, false)) by (rewrite first_somes, Hs; reflexivity).
    pose proof (ContextLaws.assign_column _ _ _ H0 E1) as H2. rewrite ContextLaws.param_target, ContextLaws.param_assigned, Hc0 in H2.
    rewrite upto_none, unquote_plain in H2 by assumption. cbn [ContextSpec.first_some] in H2. rewrite Hf in H2. unfold ContextLaws.bound in H2. cbn [ContextSpec.replace_first] in H2.
    destruct (replace_some (Some (arg_value (core fm) a, false)) (ContextLaws.column (N_to_str 1) (cm (im s)))) as (c & Ec & Fc); [congruence|].
    rewrite Ec in H2.
    rewrite (column_some (N_to_str 1) _ (Some (arg_value (core fm) a, false)) Hw3 (ContextLaws.N_to_str_unqualified 1)); [reflexivity|].
    rewrite (ContextLaws.perform_column _ _ _ (N_to_str 1) Hw2 P) by discriminate.
    rewrite (ContextLaws.perform_column _ _ _ (N_to_str 1) Hw1 Em2).
    + rewrite H2. apply Fc. reflexivity.
    + cbn [ContextLaws.writes]. rewrite W3. intros [= ->]. exact (proj2 (proj2 (position_facts (N_to_str 1) eq_refl)) Hi).
Qed.

(** A function that a function is the first to define is gone after the call. *)
Theorem C125_definition_refuted : forall d k fm s g h body, fagrees false k fm s -> comm_ok aliases_ (fun _ => None) readonly (Run (Prog [] g [] []) []) ->
  funs fm g = Some [(Define h body, [])] ->
  (ContextSpec.digits_of (lit "0=" ++ g) <= 18446744073709551615)%N -> params fm = [] -> funs fm h = None ->
  (exists vs fm', fstep code 1 k (Do (Run (Prog [] g [] []) [])) fm = Some (vs, Goes 0 fm') /\ funs fm' h = Some body) /\
  exists s', exec_text w (S (S d)) (comm_text (Run (Prog [] g [] []) [])) s = (OOk 0, s') /\ get_function h (cm (im s')) = None.
Proof.
  intros d k fm s g h body A Hok Hg Hdig Hpar Hh. split.
  - do 2 eexists. cbn [fstep called]. rewrite Hg. cbn [map List.concat frun_script frun_chain fst snd followed frun_more app core funs params]. split; [reflexivity|].
    cbn [funs]. unfold set_fun. rewrite str_eqb_refl. reflexivity.
  - destruct A as [A Hb Hp]. pose proof A as []. destruct (Hb g _ Hg) as [Hbne Hbok]. inversion_clear Hbok as [|? ? [Hd _] _]. cbn [fst] in Hd.
    assert (Hno : forall i b, nth_error ([] : list str) i = Some b -> passes (1 + N.of_nat i) b) by (intros [|i] b E; discriminate).
    destruct (entry_made g [] (cm (im s)) ag_wf Hdig Hno) as [m1 Hm1].
    destruct (entry_facts g [] (cm (im s)) m1 ag_wf Hm1 Hno) as (Hw1 & Hdef & _).
    { intros y Hy. rewrite ag_position by exact Hy. rewrite Hp, Hpar by exact Hy. reflexivity. }
    pose proof (fcomm_facts _ _ _ Hd) as [Hwf Ht]. pose proof Hd as Hd0. apply define_ok in Hd. destruct Hd as (D1 & D2 & D3 & D4).
    set (b := FunctionBody (map fchain_tree body) None).
    set (s2 := Shell (with_cm (add_function h b m1) (im (blocked (Shell (with_cm m1 (im s)) (trace s))))) (trace s)).
    assert (Hrun : exec_text w (S d) (fscript_text [(Define h body, [])]) (Shell (with_cm m1 (im s)) (trace s)) = (OOk 0, s2)).
    { replace (fscript_text [(Define h body, [])]) with (fcomm_text (Define h body))
        by (unfold fscript_text; cbn [map joined]; unfold fchain_text; cbn [fst snd map List.concat]; rewrite app_nil_r; reflexivity).
      rewrite <- Ht. rewrite ftree_define in *. rewrite exec_pipeline by exact Hwf. reflexivity. }
    destruct (call_text w aliases_ readonly old t0 d k _ _ s g [] [(Define h body, [])] m1 (OOk 0) s2 A Hok) as [_ Hcall].
    { unfold table_of. rewrite Hg. reflexivity. }
    { discriminate. }
    { constructor; [|constructor]. split; [exact Hd0|constructor]. }
    { intros y []. }
    destruct (proj1 (Hcall Hm1 Hrun) I) as (s' & C1 & C2 & _). exists s'. split; [exact C1|].
    pose proof (proj1 C2) as P. cbn [s2 im cm with_cm] in P.
    pose proof (ContextFacts.perform_wf (ContextSpec.ODefine h b) _ _ Hw1 eq_refl) as Hw2.
    rewrite ContextLaws.get_function_definitions by exact D2.
    rewrite (ContextLaws.perform_definitions _ _ _ h Hw2 P) by discriminate.
    destruct (PropertiesContext.C30_function_table h b m1 Hw1 D2) as (_ & F1 & _). rewrite F1, Hdef.
    assert (Hn : ContextSpec.first_some (ContextSpec.definitions h (cm (im s))) = None).
    { rewrite <- ContextLaws.get_function_definitions by exact D2. rewrite ag_functions by exact D2. unfold table_of. rewrite Hh. reflexivity. }
    unfold ContextSpec.define. cbn [ContextSpec.replace_first].
    assert (Hr : ContextSpec.replace_first (Some b) (ContextSpec.definitions h (cm (im s))) = None).
    { clear -Hn. induction (ContextSpec.definitions h (cm (im s))) as [|[y|] l IH]; cbn in *; [reflexivity|discriminate|]. rewrite (IH Hn). reflexivity. }
    rewrite Hr. exact Hn.
Qed.
End Whole.

(** ** Whole shells *)

Definition machine_at_start (root : bool) (cwd ppid pid : str) (env : smap str) : fmachine :=
  FMachine (at_start root cwd ppid pid env) (fun _ => None) [].
Lemma fagrees_start root cwd ppid pid env fds s1 : (forall x, position x -> sget x env = None) ->
  agrees [] (fun _ => None) (fun _ => false) [] fds 0 false (at_start root cwd ppid pid env) s1 ->
  fagrees [] (fun _ => false) [] fds false 0 (machine_at_start root cwd ppid pid env) s1.
Proof.
  intros He A. split; [exact A|discriminate|]. intros x Hx. cbn [machine_at_start core params parameters sget at_start CoreSpec.vars].
  rewrite (He x Hx).
  destruct (sget x (defaults root cwd ppid pid)) eqn:E; [|reflexivity]. exfalso. apply (proj2 (proj2 (position_facts x Hx))).
  unfold defaults in E. cbn [sget] in E.
  repeat match type of E with (if str_eqb x ?n then _ else _) = _ => destruct (str_eqb_spec x n) as [->|_]; [apply identifier_b_true; vm_compute; reflexivity|] end.
  discriminate.
Qed.

(** A shell started as [rsh -c script]. *)
Theorem C125_dash_c_partial : forall w code n d k args ins root cwd ppid pid env fds sc vs st fm', (n <= d)%nat ->
  MainSpec.asks args (MainSpec.Commands (fscript_text sc)) -> MainSpec.no_startup_files w -> system w [] code ->
  NoDup (map fst env) -> (forall x, position x -> sget x env = None) -> table fds -> no_future_pipe fds 0 -> nget 0 fds <> None -> nget 1 fds <> None ->
  Forall (fchain_ok [] (fun _ => false)) sc -> sc <> [] ->
  frun code n sc (machine_at_start root cwd ppid pid env) = Some (vs, Goes st fm') -> Forall (allowed code) vs ->
  exists s', Main.main w (S d) k args ins (Shell (Main.fresh_image root cwd ppid pid env fds) []) = (OOk tt, s') /\
    programs_of (trace s') = started (core fm') /\ directories (trace s') = visited (core fm') /\ Forall (executes fds) (forks (trace s')) /\ linked (forks (trace s')) /\
    Shell.env (im s') = environment (core fm') /\ forall x, identifier x -> expand_var (cm (im s')) x = CoreSpec.vars (core fm') x.
Proof.
  intros w code n d k args ins root cwd ppid pid env fds sc vs st fm' Hd Ha Hns Hsys Hnd He Ht Hf H0 H1 Hok Hne E Hv.
  set (s := Shell (Main.fresh_image root cwd ppid pid env fds) []).
  set (c := Context (default_vars root cwd ppid pid env) [] []).
  assert (Hc : cm (im s) = MainLaws.one_scope c) by reflexivity.
  destruct (MainLaws.parse_args_asks args _ (cm (im s)) Ha) as [out Hp].
  destruct (MainLaws.main_begins w (S d) k args ins s _ _ c Hp Hc eq_refl Hns) as (s1 & Em & Htr & Hi & Hj & Hm).
  assert (A : fagrees [] (fun _ => false) [] fds false 0 (machine_at_start root cwd ppid pid env) s1).
  { apply fagrees_start; [exact He|]. eapply agrees_start; eauto. }
  destruct (C125_functions_partial w [] (fun _ => false) [] fds code Hsys n d sc _ s1 vs st fm' Hd A Hok Hne E Hv) as (s' & Ex & [A' _ _]).
  exists s'. split; [|split; [exact (ag_started _ _ _ _ _ _ _ _ _ A')|split; [exact (ag_visited _ _ _ _ _ _ _ _ _ A')|split; [exact (ag_executes _ _ _ _ _ _ _ _ _ A')|split; [exact (ag_linked _ _ _ _ _ _ _ _ _ A')|split; [exact (ag_env _ _ _ _ _ _ _ _ _ A')|]]]]]].
  - rewrite Em. cbn [MainLaws.goes_on]. unfold Main.read_from_args. unfold exec_text in Ex.
    destruct (parse (fscript_text sc)) as [cc|]; [|discriminate].
    rewrite (bind_ok (unwrap (Some cc)) _ s1 cc s1 eq_refl). rewrite MainLaws.drop_error, Ex. reflexivity.
  - intros x Hx. unfold expand_var. rewrite (ag_vars _ _ _ _ _ _ _ _ _ A' x Hx). destruct (CoreSpec.vars (core fm') x); reflexivity.
Qed.

(** Scripts one after the other. *)
Lemma followed_app r g h : followed (followed r g) h = followed r (fun st fm => followed (g st fm) h).
Proof.
  destruct r as [[v1 [st1 fm1|r1]]|]; [|reflexivity|reflexivity]. cbn [followed]. destruct (g st1 fm1) as [[v2 [st2 fm2|r2]]|]; [|reflexivity|reflexivity]. cbn [followed].
  destruct (h st2 fm2) as [[v3 x]|]; [|reflexivity]. rewrite app_assoc. reflexivity.
Qed.
Lemma followed_ext r g h : (forall st fm, g st fm = h st fm) -> followed r g = followed r h.
Proof. intros H. destruct r as [[v [st fm|r]]|]; [|reflexivity|reflexivity]. cbn [followed]. rewrite H. reflexivity. Qed.
Lemma frun_script_app one a : forall b st fm, frun_script one (a ++ b) st fm = followed (frun_script one a st fm) (frun_script one b).
Proof.
  induction a as [|l a IH]; intros b st fm; cbn [app frun_script].
  - cbn [followed]. destruct (frun_script one b st fm) as [[v x]|]; reflexivity.
  - rewrite followed_app. apply followed_ext. intros st1 fm1. apply IH.
Qed.

(** A variable that is not unset keeps having a value. *)
Definition does_not_unset (x : str) (v : visit) : Prop := v_comm v <> Do (Unset x).
Section Kept.
Context (code : world) (x : str) (Hx : positional x = false).
Definition keeps_set (one : fcomm -> fmachine -> outcome) : Prop := forall c fm vs st fm', one c fm = Some (vs, Goes st fm') ->
  Forall (does_not_unset x) vs -> CoreSpec.vars (core fm) x <> None -> CoreSpec.vars (core fm') x <> None.
Lemma more_set one rest : keeps_set one -> forall st fm vs st' fm', frun_more one rest st fm = Some (vs, Goes st' fm') ->
  Forall (does_not_unset x) vs -> CoreSpec.vars (core fm) x <> None -> CoreSpec.vars (core fm') x <> None.
Proof.
  intros H. induction rest as [|[o c] rest IH]; intros st fm vs st' fm' E Hv Hs; cbn [frun_more] in E.
  - injection E as <- <- <-. exact Hs.
  - destruct (goes_on o st); [|exact (IH _ _ _ _ _ E Hv Hs)]. apply followed_some in E. destruct E as (v1 & st1 & fm1 & v2 & E1 & E2 & ->).
    apply Forall_app in Hv. destruct Hv as [Hv1 Hv2]. exact (IH _ _ _ _ _ E2 Hv2 (H _ _ _ _ _ E1 Hv1 Hs)).
Qed.
Lemma script_set one sc : keeps_set one -> forall st fm vs st' fm', frun_script one sc st fm = Some (vs, Goes st' fm') ->
  Forall (does_not_unset x) vs -> CoreSpec.vars (core fm) x <> None -> CoreSpec.vars (core fm') x <> None.
Proof.
  intros H. induction sc as [|l sc IH]; intros st fm vs st' fm' E Hv Hs; cbn [frun_script] in E.
  - injection E as <- <- <-. exact Hs.
  - apply followed_some in E. destruct E as (v1 & st1 & fm1 & v2 & E1 & E2 & ->). apply Forall_app in Hv. destruct Hv as [Hv1 Hv2].
    refine (IH _ _ _ _ _ E2 Hv2 _). unfold frun_chain in E1. apply followed_some in E1. destruct E1 as (u1 & st3 & fm3 & u2 & E3 & E4 & ->).
    apply Forall_app in Hv1. destruct Hv1 as [Hu1 Hu2]. exact (more_set one (snd l) H _ _ _ _ _ E4 Hu2 (H _ _ _ _ _ E3 Hu1 Hs)).
Qed.
Lemma fstep_set n : forall k, keeps_set (fstep code n k).
Proof.
  induction n as [|n IH]; intros k c fm vs st fm' E Hv Hs; (destruct c as [c|e|f body|body|f body]; cbn [fstep] in E; [|discriminate| | |injection E as <- <- <-; exact Hs]);
    try (destruct (called fm c) as [[body args]|];
      [|destruct (step code c (core fm)) as [st1 m1] eqn:E1; injection E as <- <- <-; cbn [core]; inversion_clear Hv as [|? ? Hv1 _];
        change m1 with (snd (st1, m1)); rewrite <- E1; apply step_leaves; [intros ->; apply Hv1; reflexivity|exact Hs]]).
  1-3: discriminate.
  - destruct (frun_script (fstep code n (S k)) body 0 _) as [[v1 [st1 fm1|r1]]|] eqn:E1; [|discriminate|discriminate]. injection E as <- <- <-.
    inversion_clear Hv as [|? ? _ Hv1]. cbn [core returned CoreSpec.vars]. rewrite Hx.
    refine (script_set _ body (IH (S k)) _ _ _ _ _ E1 Hv1 _). cbn [core entered CoreSpec.vars]. rewrite Hx. exact Hs.
  - destruct (frun_script (fstep code n k) body 0 fm) as [[v1 [st1 fm1|r1]]|] eqn:E1; [|discriminate|discriminate]. injection E as <- <- <-.
    inversion_clear Hv as [|? ? _ Hv1]. exact (script_set _ body (IH k) _ _ _ _ _ E1 Hv1 Hs).
  - destruct (frun_script (fstep code n k) body 0 fm) as [[v1 [st1 fm1|r1]]|] eqn:E1; [|discriminate|discriminate]. injection E as <- <- <-.
    inversion_clear Hv as [|? ? _ Hv1]. exact (script_set _ body (IH k) _ _ _ _ _ E1 Hv1 Hs).
Qed.
End Kept.

Section Lines.
Context (w : os) (aliases_ : aliases) (readonly : str -> bool) (old : nmap job) (t0 : fdtable) (code : world).
Context (Hsys : system w old code) (n d : nat) (Hd : (n <= d)%nat).
Notation fagrees := (fagrees aliases_ readonly old t0 false 0).
Notation fchain_ok := (fchain_ok aliases_ readonly).

Lemma run_line sc st0 fm s vs st fm' : fagrees fm s -> Forall fchain_ok sc -> sc <> [] ->
  frun_script (fstep code n 0) sc st0 fm = Some (vs, Goes st fm') -> Forall (allowed code) vs ->
  exists s', exec_text w (S d) (fscript_text sc) s = (OOk st, s') /\ fagrees fm' s'.
Proof.
  intros A Hok Hne E Hv. eapply (frun_script_runs w aliases_ readonly old t0 code (fstep code n 0) d 0 false); eauto.
  intros c fm0 vs0 st1 fm0' s0 F1 F2 F3 F4. apply (fstep_agrees w aliases_ readonly old t0 code Hsys n d false 0 c fm0 vs0 st1 fm0' s0); auto.
Qed.
Lemma fsession_agrees scs : Forall (fun sc => sc <> [] /\ Forall fchain_ok sc) scs -> forall st0 fm s vs st fm',
  fagrees fm s -> CoreSpec.vars (core fm) (lit "PS1") <> None -> frun_script (fstep code n 0) (List.concat scs) st0 fm = Some (vs, Goes st fm') ->
  Forall (allowed code) vs -> Forall (does_not_unset (lit "PS1")) vs ->
  exists s', MainSpec.session w (S d) (map (fun sc => Main.TLine (fscript_text sc)) scs ++ [Main.TClosed]) s (OOk tt) s' /\ fagrees fm' s'.
Proof.
  induction 1 as [|sc scs [Hne Hsc] _ IH]; intros st0 fm s vs st fm' A Hps E Hv Hl;
    (assert (P : exists v, get_var (lit "PS1") (cm (im s)) = Some v) by
       (rewrite (ag_vars _ _ _ _ _ _ _ _ _ (fa_core _ _ _ _ _ _ _ _ A) (lit "PS1") ps1_identifier); destruct (CoreSpec.vars (core fm) (lit "PS1")); [eauto|congruence]));
    destruct P as [v P]; cbn [List.concat map app] in *.
  - injection E as <- <- <-. exists (saved s). split; [|destruct A as [B1 B2 B3]; split; [destruct B1; split; assumption|assumption..]]. eapply MainSpec.session_closed. exact P.
  - rewrite frun_script_app in E. apply followed_some in E. destruct E as (v1 & st1 & fm1 & v2 & E1 & E2 & ->).
    apply Forall_app in Hv. destruct Hv as [Hv1 Hv2]. apply Forall_app in Hl. destruct Hl as [Hl1 Hl2].
    destruct (run_line sc st0 fm s v1 st1 fm1 A Hsc Hne E1 Hv1) as (s1 & K1 & K2).
    pose proof (script_set (lit "PS1") _ sc (fstep_set code (lit "PS1") eq_refl n 0) _ _ _ _ _ E1 Hl1 Hps) as Hps1.
    destruct (IH st1 fm1 s1 v2 st fm' K2 Hps1 E2 Hv2 Hl2) as (s' & S' & A'). exists s'. split; [|exact A'].
    eapply MainSpec.session_line; [exact P| |exact K1|exact I|exact S'].
    intros F. unfold exec_text in K1. rewrite F in K1. discriminate.
Qed.
Lemma flines_agree scs : Forall (fun sc => sc <> [] /\ Forall fchain_ok sc) scs -> forall st0 fm s vs st fm',
  fagrees fm s -> frun_script (fstep code n 0) (List.concat scs) st0 fm = Some (vs, Goes st fm') -> Forall (allowed code) vs ->
  exists s', MainSpec.lines_run w (S d) (map (fun sc => fscript_text sc ++ [10%N]) scs) s s' /\ fagrees fm' s'.
Proof.
  induction 1 as [|sc scs [Hne Hsc] _ IH]; intros st0 fm s vs st fm' A E Hv; cbn [List.concat map] in *.
  - injection E as <- <- <-. exists s. split; [constructor|exact A].
  - rewrite frun_script_app in E. apply followed_some in E. destruct E as (v1 & st1 & fm1 & v2 & E1 & E2 & ->).
    apply Forall_app in Hv. destruct Hv as [Hv1 Hv2].
    destruct (run_line sc st0 fm s v1 st1 fm1 A Hsc Hne E1 Hv1) as (s1 & K1 & K2).
    destruct (IH st1 fm1 s1 v2 st fm' K2 E2 Hv2) as (s' & S' & A'). exists s'. split; [|exact A'].
    destruct (fscript_parses aliases_ readonly sc Hsc Hne) as [P1 P2].
    apply (MainSpec.lines_next w (S d) _ _ s (OOk st1) s1 s'); [| |exact I|exact S'].
    + rewrite P2. discriminate.
    + unfold exec_text in K1 |- *. rewrite P2. rewrite P1 in K1. exact K1.
Qed.
End Lines.

(** Scripts typed at the prompt, one after the other, and then the end of the input:
    functions defined on one line can be called on the next. *)
Theorem C125_typed_partial : forall w code n d k args root cwd ppid pid env fds scs vs st fm', (n <= d)%nat ->
  MainSpec.asks args MainSpec.Prompt -> MainSpec.no_startup_files w -> system w [] code ->
  NoDup (map fst env) -> (forall x, position x -> sget x env = None) -> table fds -> no_future_pipe fds 0 -> nget 0 fds <> None -> nget 1 fds <> None ->
  Forall (fun sc => sc <> [] /\ Forall (fchain_ok [] (fun _ => false)) sc) scs ->
  frun code n (List.concat scs) (machine_at_start root cwd ppid pid env) = Some (vs, Goes st fm') ->
  Forall (allowed code) vs -> Forall (does_not_unset (lit "PS1")) vs ->
  exists s', Main.main w (S d) k args (map (fun sc => Main.TLine (fscript_text sc)) scs ++ [Main.TClosed])
      (Shell (Main.fresh_image root cwd ppid pid env fds) []) = (OOk tt, s') /\
    programs_of (trace s') = started (core fm') /\ directories (trace s') = visited (core fm') /\ Forall (executes fds) (forks (trace s')) /\ linked (forks (trace s')) /\
    Shell.env (im s') = environment (core fm') /\ forall x, identifier x -> expand_var (cm (im s')) x = CoreSpec.vars (core fm') x.
Proof.
  intros w code n d k args root cwd ppid pid env fds scs vs st fm' Hd Ha Hns Hsys Hnd He Ht Hf H0 H1 Hok E Hv Hl.
  set (s := Shell (Main.fresh_image root cwd ppid pid env fds) []).
  set (c := Context (default_vars root cwd ppid pid env) [] []).
  assert (Hc : cm (im s) = MainLaws.one_scope c) by reflexivity.
  pose proof (MainLaws.parse_args_asks args _ (cm (im s)) Ha) as Hp. cbn [MainLaws.wanted_front] in Hp.
  destruct (MainLaws.main_begins w (S d) k args (map (fun sc => Main.TLine (fscript_text sc)) scs ++ [Main.TClosed]) s _ _ c Hp Hc eq_refl Hns)
    as (s1 & Em & Htr & Hi & Hj & Hm).
  set (s2 := Shell (Main.at_prompt (im s1)) (trace s1)).
  assert (A : fagrees [] (fun _ => false) [] fds false 0 (machine_at_start root cwd ppid pid env) s2).
  { apply fagrees_start; [exact He|].
    assert (A1 : agrees [] (fun _ => None) (fun _ => false) [] fds 0 false (at_start root cwd ppid pid env) s1) by (eapply agrees_start; eauto).
    destruct A1. split; assumption. }
  assert (Hps : CoreSpec.vars (core (machine_at_start root cwd ppid pid env)) (lit "PS1") <> None).
  { cbn [machine_at_start core at_start CoreSpec.vars]. destruct (sget (lit "PS1") env); discriminate. }
  destruct (fsession_agrees w [] _ [] fds code Hsys n d Hd scs Hok 0 _ s2 vs st fm' A Hps E Hv Hl) as (s' & Hs & [A' _ _]).
  exists s'. split; [|split; [exact (ag_started _ _ _ _ _ _ _ _ _ A')|split; [exact (ag_visited _ _ _ _ _ _ _ _ _ A')|split; [exact (ag_executes _ _ _ _ _ _ _ _ _ A')|split; [exact (ag_linked _ _ _ _ _ _ _ _ _ A')|split; [exact (ag_env _ _ _ _ _ _ _ _ _ A')|]]]]]].
  - rewrite Em. cbn [MainLaws.goes_on Main.interactive]. rewrite (seq_ok (change Main.at_prompt) _ s1 tt s2 eq_refl).
    apply MainLaws.loop_session. exact Hs.
  - intros x Hx. unfold expand_var. rewrite (ag_vars _ _ _ _ _ _ _ _ _ A' x Hx). destruct (CoreSpec.vars (core fm') x); reflexivity.
Qed.

(** ** Scripts without functions *)

Definition lifted (sc : script) : fscript := map (fun l => (Do (fst l), map (fun oc => (fst oc, Do (snd oc))) (snd l))) sc.
Lemma lifted_text sc : fscript_text (lifted sc) = script_text sc.
Proof.
  unfold fscript_text, lifted. rewrite map_map. induction sc as [|l sc IH]; [reflexivity|]. cbn [map script_text].
  assert (E : fchain_text (Do (fst l), map (fun oc => (fst oc, Do (snd oc))) (snd l)) = chain_words l).
  { unfold fchain_text, chain_words. cbn [fst snd fcomm_text]. f_equal. rewrite map_map. reflexivity. }
  destruct sc as [|l2 sc]; cbn [map joined script_text] in *; rewrite E; [reflexivity|]. rewrite IH. reflexivity.
Qed.
Lemma not_called m ps c : called (FMachine m (fun _ => None) ps) c = None.
Proof. destruct c as [| | | |[[|] ? ? [|]] [|]]; reflexivity. Qed.
Lemma lifted_more code n rest : forall st m, exists vs, frun_more (fstep code n 0) (map (fun oc => (fst oc, Do (snd oc))) rest) st (FMachine m (fun _ => None) []) =
  Some (vs, Goes (fst (run_more code rest st m)) (FMachine (snd (run_more code rest st m)) (fun _ => None) [])).
Proof.
  induction rest as [|[o c] rest IH]; intros st m; [exists []; reflexivity|]. cbn [map frun_more run_more fst snd].
  destruct (goes_on o st); [|apply IH].
  assert (E : fstep code n 0 (Do c) (FMachine m (fun _ => None) []) = Some ([Visit 0 (FMachine m (fun _ => None) []) (Do c) (fst (step code c m))], Goes (fst (step code c m)) (FMachine (snd (step code c m)) (fun _ => None) []))).
  { destruct n; cbn [fstep]; rewrite not_called; cbn [core]; destruct (step code c m); reflexivity. }
  rewrite E. cbn [followed]. destruct (step code c m) as [st1 m1]. cbn [fst snd]. destruct (IH st1 m1) as [vs Evs]. rewrite Evs. eexists. reflexivity.
Qed.
(** Without functions, the meaning is that of CoreSpec. *)
Theorem C125_extends : forall code n sc m, fscript_text (lifted sc) = script_text sc /\
  exists vs, frun code n (lifted sc) (FMachine m (fun _ => None) []) =
    Some (vs, Goes (fst (run_script code sc 0 m)) (FMachine (snd (run_script code sc 0 m)) (fun _ => None) [])).
Proof.
  intros code n sc m. split; [apply lifted_text|]. unfold frun.
  enough (H : forall st m, exists vs, frun_script (fstep code n 0) (lifted sc) st (FMachine m (fun _ => None) []) =
    Some (vs, Goes (fst (run_script code sc st m)) (FMachine (snd (run_script code sc st m)) (fun _ => None) []))) by apply H.
  clear m.
  induction sc as [|l sc IH]; intros st m; [exists []; reflexivity|]. cbn [lifted map frun_script run_script]. unfold frun_chain, run_chain. cbn [fst snd].
  assert (E : fstep code n 0 (Do (fst l)) (FMachine m (fun _ => None) []) = Some ([Visit 0 (FMachine m (fun _ => None) []) (Do (fst l)) (fst (step code (fst l) m))], Goes (fst (step code (fst l) m)) (FMachine (snd (step code (fst l) m)) (fun _ => None) []))).
  { destruct n; cbn [fstep]; rewrite not_called; cbn [core]; destruct (step code (fst l) m); reflexivity. }
  rewrite E. cbn [followed]. destruct (step code (fst l) m) as [st1 m1]. cbn [fst snd].
  destruct (lifted_more code n (snd l) st1 m1) as [vs1 E1]. rewrite E1. cbn [followed]. destruct (run_more code (snd l) st1 m1) as [st2 m2]. cbn [fst snd].
  destruct (IH st2 m2) as [vs2 E2]. unfold lifted in E2. rewrite E2. eexists. reflexivity.
Qed.

(** ** Examples *)

Definition passes_b (i : N) (a : str) : bool :=
  negb (contains_char (ch "=") a) && negb (str_eqb a (lit "&")) && match a with c :: _ => negb (contains_char c (lit "'""")) | [] => true end &&
  (ContextSpec.digits_of (N_to_str i ++ lit "=" ++ a) <=? 18446744073709551615)%N.
Fixpoint all_pass_b (i : N) (args : list str) : bool :=
  match args with [] => true | a :: args' => passes_b i a && all_pass_b (i + 1)%N args' end.
Definition is_nil {A} (l : list A) : bool := match l with [] => true | _ => false end.
Definition is_some {A} (o : option A) : bool := match o with Some _ => true | None => false end.
Definition known_b (m : machine) (a : arg) : bool := match a with Dollar x => match CoreSpec.vars m x with Some v => shown_b v | None => false end | _ => true end.
Definition allowed_b (code : world) (v : visit) : bool :=
  match v_comm v with
  | Quit e => leave_fits_b (core (v_before v)) e
  | Source file body => Z.eqb (v_status v) 0 && match contents code file with
      | Some t => str_eqb t (fscript_text body ++ [10%N]) && negb (is_nil body) || str_eqb t (file_text (map (fun l => [l]) body))
      | None => false
      end
  | EvalText _ => Z.eqb (v_status v) 0
  | Define f _ => Nat.eqb (v_calls v) 0 || is_some (funs (v_before v) f)
  | Do c =>
      match called (v_before v) c, c with
      | Some (_, args), Run p _ =>
          Z.eqb (v_status v) 0 && match params (v_before v) with [] => true | _ => false end &&
          (ContextSpec.digits_of (lit "0=" ++ name p) <=? 18446744073709551615)%N && all_pass_b 1 args && forallb (known_b (core (v_before v))) (arguments p)
      | _, _ =>
          fits_b code (core (v_before v)) c &&
          match c with
          | Assign x _ => Nat.eqb (v_calls v) 0 || is_some (CoreSpec.vars (core (v_before v)) x)
          | Run p more => forallb (fun q => negb (is_some (funs (v_before v) (name q)))) (p :: more)
          | _ => true
          end
      end
  end.
Lemma passes_b_true i a : passes_b i a = true -> passes i a.
Proof.
  unfold passes_b, passes. rewrite !andb_true_iff, !negb_true_iff, N.leb_le. intros [[[H1 H2] H3] H4]. split; [apply contains_char_notIn, H1|].
  split; [apply str_eqb_neq, H2|]. split; [|exact H4]. destruct a; [exact I|]. apply contains_char_notIn, negb_true_iff, H3.
Qed.
Lemma all_pass_b_true args : forall i, all_pass_b i args = true -> forall j a, nth_error args j = Some a -> passes (i + N.of_nat j) a.
Proof.
  induction args as [|b args IH]; intros i H [|j] a E; try discriminate; cbn [all_pass_b nth_error] in *; apply andb_true_iff in H; destruct H as [H1 H2].
  - injection E as <-. rewrite N.add_0_r. apply passes_b_true, H1.
  - specialize (IH _ H2 j a E). replace (i + N.of_nat (S j))%N with (i + 1 + N.of_nat j)%N by lia. exact IH.
Qed.
Lemma is_some_true {A} (o : option A) : is_some o = true -> o <> None.
Proof. destruct o; discriminate. Qed.
Lemma allowed_b_true code v : allowed_b code v = true -> allowed code v.
Proof.
  destruct v as [k fm c st]. unfold allowed_b, allowed. cbn [v_comm v_before v_calls v_status]. destruct c as [c|e|f b|b|f b]; [|apply leave_fits_b_true| |intros H; apply Z.eqb_eq, H|].
  - assert (Hrest : fits_b code (core fm) c &&
        match c with
        | Assign x _ => Nat.eqb k 0 || is_some (CoreSpec.vars (core fm) x)
        | Run p more => forallb (fun q => negb (is_some (funs fm (name q)))) (p :: more)
        | _ => true
        end = true -> fits code (core fm) c /\
        match c with
        | Assign x _ => k = 0%nat \/ CoreSpec.vars (core fm) x <> None
        | Run p more => forall q, In q (p :: more) -> funs fm (name q) = None
        | _ => True
        end).
    { rewrite andb_true_iff. intros [H1 H2]. split; [apply fits_b_true, H1|]. destruct c as [x v|x v|x|dir|p more]; try exact I.
      - apply orb_true_iff in H2. destruct H2 as [H2|H2]; [left; apply Nat.eqb_eq, H2|right; apply is_some_true, H2].
      - rewrite forallb_forall in H2. intros q Hq. specialize (H2 q Hq). destruct (funs fm (name q)); [discriminate|reflexivity]. }
    destruct (called fm c) as [[body args]|] eqn:E; [|destruct c; exact Hrest].
    destruct c as [x v|x v|x|dir|p more]; try exact Hrest. clear Hrest. rewrite !andb_true_iff, Z.eqb_eq, N.leb_le. intros [[[[H1 H2] H3] H4] H5].
    split; [exact H1|]. split; [destruct (params fm); [reflexivity|discriminate]|]. split; [exact H3|]. split; [apply (all_pass_b_true args 1%N H4)|].
    intros x Hx. rewrite forallb_forall in H5. specialize (H5 _ Hx). cbn [known_b] in H5. destruct (CoreSpec.vars (core fm) x) as [u|]; [|discriminate].
    exists u. split; [reflexivity|apply shown_b_true, H5].
  - rewrite andb_true_iff, Z.eqb_eq. intros [H1 H2]. split; [exact H1|]. destruct (contents code f) as [t|]; [|discriminate].
    apply orb_true_iff in H2. destruct H2 as [H2|H2].
    + apply andb_true_iff in H2. destruct H2 as [H2 H3]. apply str_eqb_eq in H2. exists [b].
      split; [constructor; [destruct b; [discriminate|discriminate]|constructor]|]. unfold file_text. cbn [map List.concat]. rewrite !app_nil_r. split; [reflexivity|f_equal; exact H2].
    + apply str_eqb_eq in H2. exists (map (fun l => [l]) b). split; [apply Forall_map, Forall_forall; discriminate|]. split; [|f_equal; exact H2].
      clear. induction b; [reflexivity|]. cbn [map List.concat app]. f_equal. assumption.
  - rewrite orb_true_iff. intros [H|H]; [left; apply Nat.eqb_eq, H|right; apply is_some_true, H].
Qed.
Lemma all_allowed code vs : forallb (allowed_b code) vs = true -> Forall (allowed code) vs.
Proof. rewrite forallb_forall, Forall_forall. intros H v Hv. apply allowed_b_true, H, Hv. Qed.

Definition once (c : fcomm) : fchain := (c, []).
Definition ex_env : smap str := [(lit "HOME", lit "/h")].
Definition ex_machine : fmachine := machine_at_start false (lit "/") (lit "1") (lit "2") ex_env.
Definition call (n : string) (args : list arg) : fcomm := Do (Run (bare n args) []).
Definition ex_fscript : fscript :=
  [ once (Do (Assign (lit "X") (Plain (lit "0"))));
    once (Define (lit "say") [(call "echo" [Dollar (lit "1"); Dollar (lit "X")], [(CAnd, Do (Assign (lit "X") (Plain (lit "2"))))])]);
    once (Define (lit "both")
      [once (call "say" [Plain (lit "c"); Single (lit "d e")]);
       once (Define (lit "say") [once (call "echo" [Plain (lit "again"); Dollar (lit "2")])]);
       (call "false" [], [(CAnd, call "never" []); (COr, call "say" [Plain (lit "f"); Dollar (lit "X")])])]);
    (call "say" [Dollar (lit "HOME"); Single (lit "b c")], [(CAnd, call "both" []); (COr, call "never" [])]);
    once (call "say" [Plain (lit "h"); Plain (lit "i")]) ].
Ltac ok_chains := repeat match goal with
  | |- Forall (fchain_ok _ _) [] => apply Forall_nil
  | |- Forall (fchain_ok _ _) (_ :: _) => apply Forall_cons; [split; cbn [fst snd]|]
  | |- @Forall (cond * fcomm) _ [] => apply Forall_nil
  | |- @Forall (cond * fcomm) _ (_ :: _) => apply Forall_cons; [cbn [snd]|]
  end.
Ltac ok_args := repeat first [apply Forall_nil | apply Forall_cons; [first [a_word | left; an_identifier | right; reflexivity | split; intros F; cbn in F; intuition discriminate]|]].
Ltac ok_call := simple; ok_args.
Ltac ok_assign := split; [an_identifier|]; split; [split; [a_word|exact I]|]; split; reflexivity.
Ltac ok_define := apply define_ok; split; [a_word|]; split; [reflexivity|]; split; [discriminate|].
Lemma ex_fscript_ok : Forall (fchain_ok [] (fun _ => false)) ex_fscript.
Proof.
  unfold ex_fscript, once, call. ok_chains.
  - ok_assign.
  - ok_define. ok_chains; [ok_call|ok_assign].
  - ok_define. ok_chains.
    + ok_call.
    + ok_define. ok_chains. ok_call.
    + ok_call.
    + ok_call.
    + ok_call.
  - ok_call.
  - ok_call.
  - ok_call.
  - ok_call.
Qed.
Definition ex_rsh_c (t : str) : shell := snd (Main.main ex_system 5 0 [lit "rsh"; lit "-c"; t] [] (Shell PropertiesMain.ex_fresh [])).
Lemma ex_asks t : MainSpec.asks [lit "rsh"; lit "-c"; t] (MainSpec.Commands t).
Proof.
  apply (MainSpec.asks_commands (lit "rsh") [] (lit "-c") [t]).
  - discriminate.
  - intros (u & E & _). discriminate.
  - constructor.
  - eexists. split; [reflexivity|]. cbn. auto.
Qed.
Lemma ex_no_parameters : forall x, position x -> sget x ex_env = None.
Proof.
  intros x Hx. unfold ex_env. cbn [sget]. destruct (str_eqb_spec x (lit "HOME")) as [->|_]; [discriminate Hx|reflexivity].
Qed.
Example C125_example :
  fscript_text ex_fscript =
    lit " X=0 ; say ( ) { echo $1 $X && X=2 ; } ; both ( ) { say c 'd e' ; say ( ) { echo again $2 ; } ; false && never || say f $X ; } ; say $HOME 'b c' && both || never ; say h i" /\
  MainSpec.asks [lit "rsh"; lit "-c"; fscript_text ex_fscript] (MainSpec.Commands (fscript_text ex_fscript)) /\
  MainSpec.no_startup_files ex_system /\ system ex_system [] ex_code /\ (forall x, position x -> sget x ex_env = None) /\
  table PropertiesMain.ex_fds /\ no_future_pipe PropertiesMain.ex_fds 0 /\
  Forall (fchain_ok [] (fun _ => false)) ex_fscript /\
  exists vs fm', frun ex_code 2 ex_fscript ex_machine = Some (vs, Goes 0 fm') /\ Forall (allowed ex_code) vs /\ List.length vs = 16%nat /\
    map argv (started (core fm')) = [map lit ["echo"; "/h"; "0"]; map lit ["echo"; "c"; "2"]; [lit "false"];
      map lit ["echo"; "again"; "2"]; map lit ["echo"; "again"; "i"]]%string /\
    CoreSpec.vars (core fm') (lit "X") = Some (lit "2") /\ CoreSpec.vars (core fm') (lit "1") = None /\
    programs_of (trace (ex_rsh_c (fscript_text ex_fscript))) = started (core fm').
Proof.
  split; [reflexivity|]. split; [apply ex_asks|]. split; [intros t; split; reflexivity|]. split; [exact ex_system_ok|]. split; [exact ex_no_parameters|].
  split; [exact ex_table|]. split; [exact ex_no_future|]. split; [exact ex_fscript_ok|].
  do 2 eexists. split; [vm_compute; reflexivity|]. split; [apply all_allowed; vm_compute; reflexivity|]. vm_compute. repeat split.
Qed.
(** The same script, one command to a line. *)
Definition ex_flines : list fscript := map (fun l => [l]) ex_fscript.
Example C125_typed_example :
  List.concat ex_flines = ex_fscript /\ Forall (fun sc => sc <> [] /\ Forall (fchain_ok [] (fun _ => false)) sc) ex_flines /\
  MainSpec.asks [lit "rsh"] MainSpec.Prompt /\
  exists vs fm', frun ex_code 2 (List.concat ex_flines) ex_machine = Some (vs, Goes 0 fm') /\ Forall (does_not_unset (lit "PS1")) vs /\
    List.length (started (core fm')) = 5%nat /\
    programs_of (trace (snd (Main.main ex_system 5 0 [lit "rsh"] (map (fun sc => Main.TLine (fscript_text sc)) ex_flines ++ [Main.TClosed])
      (Shell PropertiesMain.ex_fresh [])))) = started (core fm').
Proof.
  split; [reflexivity|]. split.
  { unfold ex_flines. apply Forall_map. eapply Forall_impl; [|exact ex_fscript_ok]. intros l Hl. split; [discriminate|]. apply Forall_cons; [exact Hl|apply Forall_nil]. }
  split; [apply MainSpec.asks_bare|].
  do 2 eexists. split; [vm_compute; reflexivity|]. split; [repeat (apply Forall_cons; [discriminate|]); apply Forall_nil|]. vm_compute. repeat split.
Qed.
(** A script that reads commands from files: [/lib], in the middle of it, and [./more],
    from within a function; [./more] itself reads [/lib]. *)
Definition ex_lib : fscript :=
  [ once (Define (lit "inc") [once (call "echo" [Dollar (lit "1"); Dollar (lit "X")]); once (Do (Assign (lit "X") (Plain (lit "2"))))]);
    once (Do (Assign (lit "X") (Plain (lit "1")))) ].
Definition ex_more : fscript :=
  [ (call "false" [], [(COr, Source (lit "/lib") ex_lib)]); once (call "true" []) ].
Definition ex_source_code : world :=
  World ex_code (reachable ex_code) (fun f => if str_eqb f (lit "/lib") then Some (file_text (map (fun l => [l]) ex_lib))
    else if str_eqb f (lit "./more") then Some (fscript_text ex_more ++ [10%N]) else None).
Definition ex_source_system : os := fun t =>
  let r := ex_system t in
  Reports (r_isfile r) (r_open r) (contents ex_source_code) (r_chdir r) (r_cwd r) (r_kill r) (r_pipe r) (r_fork r) (r_exec r) (r_getpid r) (r_waits r) (r_subst r).
Lemma ex_source_system_ok : system ex_source_system [] ex_source_code.
Proof. destruct ex_system_ok as [S1 S2 S3 S4 S5]. split; [exact S1|exact S2|exact S3|exact S4|]. intros f text t E. split; [|exact E].
  cbn [contents ex_source_code] in E. destruct (str_eqb f (lit "/lib")) eqn:E1; [apply str_eqb_eq in E1; subst f; reflexivity|].
  destruct (str_eqb f (lit "./more")) eqn:E2; [apply str_eqb_eq in E2; subst f; reflexivity|discriminate].
Qed.
Definition ex_sources : fscript :=
  [ once (Do (Assign (lit "X") (Plain (lit "0"))));
    (Source (lit "/lib") ex_lib, [(CAnd, call "inc" [Plain (lit "a")])]);
    once (call "inc" [Plain (lit "b")]);
    once (Define (lit "again") [once (Source (lit "./more") ex_more); once (call "echo" [Dollar (lit "X")])]);
    (call "again" [], [(CAnd, call "inc" [Plain (lit "c")])]) ].
Ltac ok_source := apply source_ok; split; [a_word|]; split; [cbn; tauto|]; split; [reflexivity|]; split; [discriminate|].
Lemma ex_lib_ok : Forall (fchain_ok [] (fun _ => false)) ex_lib.
Proof.
  unfold ex_lib, once, call. ok_chains.
  - ok_define. ok_chains; [ok_call|ok_assign].
  - ok_assign.
Qed.
Lemma ex_more_ok : Forall (fchain_ok [] (fun _ => false)) ex_more.
Proof.
  unfold ex_more, once, call. ok_chains; [ok_call| |ok_call]. ok_source. exact ex_lib_ok.
Qed.
Lemma ex_sources_ok : Forall (fchain_ok [] (fun _ => false)) ex_sources.
Proof.
  unfold ex_sources, once, call. ok_chains.
  - ok_assign.
  - ok_source. exact ex_lib_ok.
  - ok_call.
  - ok_call.
  - ok_define. ok_chains; [|ok_call]. ok_source. exact ex_more_ok.
  - ok_call.
  - ok_call.
Qed.
Example C125_source_example :
  fscript_text ex_sources = lit " X=0 ; . /lib && inc a ; inc b ; again ( ) { . ./more ; echo $X ; } ; again && inc c" /\
  contents ex_source_code (lit "/lib") = Some (lit " inc ( ) { echo $1 $X ; X=2 ; }" ++ [10%N] ++ lit " X=1" ++ [10%N]) /\
  contents ex_source_code (lit "./more") = Some (lit " false || . /lib ; true" ++ [10%N]) /\
  MainSpec.no_startup_files ex_source_system /\ system ex_source_system [] ex_source_code /\ Forall (fchain_ok [] (fun _ => false)) ex_sources /\
  let s' := snd (Main.main ex_source_system 5 0 [lit "rsh"; lit "-c"; fscript_text ex_sources] [] (Shell PropertiesMain.ex_fresh [])) in
  exists vs fm', frun ex_source_code 3 ex_sources ex_machine = Some (vs, Goes 0 fm') /\ Forall (allowed ex_source_code) vs /\
    map argv (started (core fm')) = map (map lit) [["echo"; "a"; "1"]; ["echo"; "b"; "2"]; ["false"]; ["true"]; ["echo"; "1"]; ["echo"; "c"; "1"]]%string /\
    CoreSpec.vars (core fm') (lit "X") = Some (lit "2") /\
    programs_of (trace s') = started (core fm') /\ Shell.fds (im s') = PropertiesMain.ex_fds /\ CoreSpec.vars (core fm') (lit "X") = expand_var (cm (im s')) (lit "X").
Proof.
  split; [reflexivity|]. split; [reflexivity|]. split; [reflexivity|]. split; [intros t; split; reflexivity|]. split; [exact ex_source_system_ok|]. split; [exact ex_sources_ok|].
  cbv zeta. do 2 eexists. split; [vm_compute; reflexivity|]. split; [apply all_allowed; vm_compute; reflexivity|]. vm_compute. repeat split.
Qed.
(** [eval] in a script, and in a function. *)
Definition ex_evals : fscript :=
  [ once (EvalText [once (Do (Assign (lit "X") (Plain (lit "0")))); (call "false" [], [(COr, call "true" [])])]);
    (EvalText [once (Define (lit "inc") [once (call "echo" [Dollar (lit "1"); Dollar (lit "X")]); once (Do (Assign (lit "X") (Plain (lit "1"))))])], [(CAnd, call "inc" [Plain (lit "a")])]);
    once (Define (lit "more") [once (Source (lit "/lib") ex_lib); once (call "echo" [Dollar (lit "X")])]);
    once (EvalText [once (call "more" []); once (call "inc" [Plain (lit "b")])]) ].
Ltac ok_eval := apply eval_ok; split; [intros F; vm_compute in F; intuition discriminate|]; split; [reflexivity|]; split; [discriminate|].
Lemma ex_evals_ok : Forall (fchain_ok [] (fun _ => false)) ex_evals.
Proof.
  unfold ex_evals, once, call. ok_chains.
  - ok_eval. ok_chains; [ok_assign|ok_call|ok_call].
  - ok_eval. ok_chains. ok_define. ok_chains; [ok_call|ok_assign].
  - ok_call.
  - ok_define. ok_chains; [|ok_call]. ok_source. exact ex_lib_ok.
  - ok_eval. ok_chains; ok_call.
Qed.
Example C125_eval_example :
  fscript_text ex_evals = lit " eval ' X=0 ; false || true' ; eval ' inc ( ) { echo $1 $X ; X=1 ; }' && inc a ; more ( ) { . /lib ; echo $X ; } ; eval ' more ; inc b'" /\
  Forall (fchain_ok [] (fun _ => false)) ex_evals /\
  let s' := snd (Main.main ex_source_system 5 0 [lit "rsh"; lit "-c"; fscript_text ex_evals] [] (Shell PropertiesMain.ex_fresh [])) in
  exists vs fm', frun ex_source_code 3 ex_evals ex_machine = Some (vs, Goes 0 fm') /\ Forall (allowed ex_source_code) vs /\
    map argv (started (core fm')) = map (map lit) [["false"]; ["true"]; ["echo"; "a"; "0"]; ["echo"; "1"]; ["echo"; "b"; "1"]]%string /\
    CoreSpec.vars (core fm') (lit "X") = Some (lit "2") /\
    programs_of (trace s') = started (core fm') /\ Shell.fds (im s') = PropertiesMain.ex_fds /\ CoreSpec.vars (core fm') (lit "X") = expand_var (cm (im s')) (lit "X").
Proof.
  split; [reflexivity|]. split; [exact ex_evals_ok|].
  cbv zeta. do 2 eexists. split; [vm_compute; reflexivity|]. split; [apply all_allowed; vm_compute; reflexivity|]. vm_compute. repeat split.
Qed.
Example C125_extends_example :
  fscript_text (lifted ex_script) = script_text ex_script /\ List.length (lifted ex_script) = 5%nat /\
  exists vs m', frun ex_code 0 (lifted ex_script) ex_machine = Some (vs, Goes 1 (FMachine m' (fun _ => None) [])) /\ List.length (started m') = 6%nat.
Proof. split; [reflexivity|]. split; [reflexivity|]. do 2 eexists. split; vm_compute; reflexivity. Qed.

(** What is left out: [f] sets [X] for the first time; [k] calls [g b] and then uses
    [$1]; [h] defines [i]. *)
Definition ex_left_out : fscript :=
  [ once (Do (Assign (lit "Y") (Plain (lit "0"))));
    once (Define (lit "f") [once (Do (Assign (lit "X") (Plain (lit "1"))))]);
    once (Define (lit "g") [once (Do (Assign (lit "Y") (Plain (lit "1"))))]);
    once (Define (lit "h") [once (Define (lit "i") [once (call "echo" [])])]) ].
Lemma ex_left_out_ok : Forall (fchain_ok [] (fun _ => false)) ex_left_out.
Proof.
  unfold ex_left_out, once, call. ok_chains; [ok_assign|ok_define; ok_chains; ok_assign|ok_define; ok_chains; ok_assign|].
  ok_define. ok_chains. ok_define. ok_chains. ok_call.
Qed.
Lemma ex_begun_agrees : fagrees [] (fun _ => false) [] PropertiesMain.ex_fds false 0 ex_machine ex_begun.
Proof.
  apply fagrees_start; [exact ex_no_parameters|]. eapply agrees_start; try reflexivity; try discriminate.
  - repeat constructor. intros [].
  - exact ex_table.
  - exact ex_no_future.
Qed.
Definition ex_defined : fmachine := match frun ex_code 0 ex_left_out ex_machine with Some (_, Goes _ fm) => fm | _ => ex_machine end.
Lemma ex_defined_agrees : fagrees [] (fun _ => false) [] PropertiesMain.ex_fds false 0 ex_defined (snd (exec_text ex_system 1 (fscript_text ex_left_out) ex_begun)).
Proof.
  destruct (frun ex_code 0 ex_left_out ex_machine) as [[vs [st fm|r]]|] eqn:E; [|vm_compute in E; discriminate|vm_compute in E; discriminate].
  assert (Hv : Forall (allowed ex_code) vs).
  { apply all_allowed. assert (F : match frun ex_code 0 ex_left_out ex_machine with Some (v, _) => forallb (allowed_b ex_code) v | None => false end = true) by (vm_compute; reflexivity).
    rewrite E in F. exact F. }
  destruct (C125_functions_partial ex_system [] (fun _ => false) [] PropertiesMain.ex_fds ex_code ex_system_ok 0 0 ex_left_out ex_machine ex_begun vs st fm
    (le_n 0) ex_begun_agrees ex_left_out_ok ltac:(discriminate) E Hv) as (s' & R & A).
  unfold ex_defined. rewrite E, R. exact A.
Qed.
Example C125_variable_example :
  fcomm_text (call "f" []) = lit " f" /\ funs ex_defined (lit "f") = Some [once (Do (Assign (lit "X") (Plain (lit "1"))))] /\
  comm_ok [] (fun _ => None) (fun _ => false) (Run (bare "f" []) []) /\ comm_ok [] (fun _ => None) (fun _ => false) (Assign (lit "X") (Plain (lit "1"))) /\
  params ex_defined = [] /\ CoreSpec.vars (core ex_defined) (lit "X") = None /\
  map argv (programs_of (trace (ex_rsh_c (lit "f ( ) { X=1 ; echo $X ; } ; f ; echo $X")))) = [map lit ["echo"; "1"]; map lit ["echo"; "$X"]]%string.
Proof.
  split; [reflexivity|]. split; [reflexivity|]. split; [ok_call|]. split; [ok_assign|]. split; [reflexivity|]. split; vm_compute; reflexivity.
Qed.
(** Within a call with the parameter [a]. *)
Definition ex_inside : fmachine := FMachine (entered [lit "a"] (core ex_defined)) (funs ex_defined) [lit "a"].
Lemma ex_inside_agrees : exists s, fagrees [] (fun _ => false) [] PropertiesMain.ex_fds false 1 ex_inside s.
Proof.
  destruct ex_defined_agrees as [A Hb Hp]. set (s := snd (exec_text ex_system 1 (fscript_text ex_left_out) ex_begun)) in *.
  assert (Ha : forall i a, nth_error [lit "a"] i = Some a -> passes (1 + N.of_nat i) a) by (apply (all_pass_b_true [lit "a"] 1%N); reflexivity).
  pose proof (ag_wf _ _ _ _ _ _ _ _ _ A) as Hwf.
  destruct (entry_made (lit "k") [lit "a"] (cm (im s)) Hwf) as [m1 E]; [vm_compute; discriminate|exact Ha|].
  exists (Shell (with_cm m1 (im s)) (trace s)). split; cbn [ex_inside core funs params].
  - eapply agrees_entered; [exact A|exact E|exact Ha|]. intros x Hx. rewrite Hp by exact Hx. reflexivity.
  - exact Hb.
  - intros x Hx. cbn [entered CoreSpec.vars]. unfold position in Hx. rewrite Hx. reflexivity.
Qed.
Example C125_parameter_example :
  fcomm_text (call "g" [Plain (lit "b")]) = lit " g b" /\ (exists s, fagrees [] (fun _ => false) [] PropertiesMain.ex_fds false 1 ex_inside s) /\
  funs ex_inside (lit "g") = Some [once (Do (Assign (lit "Y") (Plain (lit "1"))))] /\
  comm_ok [] (fun _ => None) (fun _ => false) (Run (bare "g" [Plain (lit "b")]) []) /\ comm_ok [] (fun _ => None) (fun _ => false) (Assign (lit "Y") (Plain (lit "1"))) /\
  params ex_inside = [lit "a"] /\ CoreSpec.vars (core ex_inside) (lit "Y") = Some (lit "0") /\ passes 1 (arg_value (core ex_inside) (Plain (lit "b"))) /\
  map argv (programs_of (trace (ex_rsh_c (lit "g ( ) { true ; } ; k ( ) { g b ; echo $1 ; } ; k a")))) = [[lit "true"]; map lit ["echo"; "b"]]%string.
Proof.
  split; [reflexivity|]. split; [exact ex_inside_agrees|]. split; [reflexivity|]. split; [ok_call|]. split; [ok_assign|]. split; [reflexivity|].
  split; [vm_compute; reflexivity|]. split; [apply passes_b_true; vm_compute; reflexivity|vm_compute; reflexivity].
Qed.
Example C125_definition_example :
  funs ex_defined (lit "h") = Some [once (Define (lit "i") [once (call "echo" [])])] /\ funs ex_defined (lit "i") = None /\
  comm_ok [] (fun _ => None) (fun _ => false) (Run (bare "h" []) []) /\
  map argv (programs_of (trace (ex_rsh_c (lit "h ( ) { i ( ) { echo ; } ; i ; } ; h ; i")))) = [[lit "echo"]; [lit "i"]].
Proof. split; [reflexivity|]. split; [reflexivity|]. split; [ok_call|vm_compute; reflexivity]. Qed.

Print Assumptions C125_functions_partial.
Print Assumptions C125_dash_c_partial.
Print Assumptions C125_typed_partial.
Print Assumptions C125_extends.
Print Assumptions C125_variable_refuted.
Print Assumptions C125_parameter_refuted.
Print Assumptions C125_definition_refuted.
Print Assumptions C125_example.
Print Assumptions C125_typed_example.
Print Assumptions C125_source_example.
Print Assumptions C125_eval_example.
Print Assumptions C125_extends_example.
Print Assumptions C125_variable_example.
Print Assumptions C125_parameter_example.
Print Assumptions C125_definition_example.
