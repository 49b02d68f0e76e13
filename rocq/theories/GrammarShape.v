(** What every derivation of the grammar looks like: first token, last token,
    which tokens stand next to each other, balanced braces. *)
From Verif Require Import Base Lexer LexerSpec Ast Grammar TextSpec.

Fixpoint chain (ts : list token) : Prop :=
  match ts with
  | x :: ((y :: _) as r) => may_follow x y = true /\ chain r
  | _ => True
  end.

Definition shape (F L : token -> bool) (ts : list token) : Prop :=
  ts <> [] /\ F (hd TEOF ts) = true /\ L (last ts TEOF) = true /\ chain ts /\
  (forall n, depth n ts = Some n).

Lemma depth_app a b n : depth n (a ++ b) = match depth n a with Some k => depth k b | None => None end.
Proof.
  revert n; induction a as [|x a IH]; intros n; [reflexivity|].
  destruct x; cbn; try apply IH. destruct n; [reflexivity|apply IH].
Qed.

Lemma chain_app a b : chain a -> chain b -> a <> [] -> b <> [] ->
  may_follow (last a TEOF) (hd TEOF b) = true -> chain (a ++ b).
Proof.
  intros Ha Hb Na Nb H. induction a as [|x a IH]; [congruence|].
  destruct a as [|y a].
  - destruct b as [|z b]; [congruence|]. cbn in *. auto.
  - cbn in Ha. destruct Ha as [Hxy Ha]. change (last (x :: y :: a) TEOF) with (last (y :: a) TEOF) in H.
    specialize (IH Ha ltac:(discriminate) H). split; [exact Hxy|exact IH].
Qed.

Lemma hd_app (a b : list token) d : a <> [] -> hd d (a ++ b) = hd d a.
Proof. destruct a; [congruence|reflexivity]. Qed.
Lemma last_app' (a b : list token) d : b <> [] -> last (a ++ b) d = last b d.
Proof.
  intros H. induction a as [|x a IH]; [reflexivity|]. cbn [app last]. rewrite IH.
  destruct (a ++ b) eqn:E; [|reflexivity]. apply app_eq_nil in E as [_ E]. congruence.
Qed.

Lemma shape_app F1 L1 F2 L2 a b : shape F1 L1 a -> shape F2 L2 b ->
  (forall x y, L1 x = true -> F2 y = true -> may_follow x y = true) -> shape F1 L2 (a ++ b).
Proof.
  intros (Na & Ha & La & Ca & Da) (Nb & Hb & Lb & Cb & Db) H. repeat split.
  - destruct a; [congruence|discriminate].
  - rewrite hd_app; assumption.
  - rewrite last_app'; assumption.
  - apply chain_app; auto.
  - intros n. rewrite depth_app, Da. apply Db.
Qed.

Lemma shape_weak F L F' L' a : shape F L a ->
  (forall x, F x = true -> F' x = true) -> (forall x, L x = true -> L' x = true) -> shape F' L' a.
Proof. intros (Na & Ha & La & Ca & Da) HF HL. repeat split; auto. Qed.

(** Which tokens a kind of phrase can begin and end with. *)
Definition just (t : token) (x : token) : bool :=
  match t, x with
  | TSemiColon, TSemiColon | TNewlineList, TNewlineList | TEOF, TEOF | TAmpersand, TAmpersand
  | TBang, TBang | TAnd, TAnd | TOr, TOr | TPipe, TPipe | TEquals, TEquals
  | TLess, TLess | TGreater, TGreater | TDoubleGreater, TDoubleGreater
  | TOpenParen, TOpenParen | TCloseParen, TCloseParen
  | TNumber _, TNumber _ | TWord _, TWord _ => true
  | _, _ => false
  end.
Definition opens_file (t : token) : bool := match t with TLess | TGreater | TDoubleGreater => true | _ => false end.
Definition plain_word (t : token) : bool := match t with TWord _ => true | _ => false end.
Definition ends_command (t : token) : bool := is_word t || match t with TCloseBrace => true | _ => false end.
Definition ends_pipeline (t : token) : bool := ends_command t || match t with TAmpersand => true | _ => false end.
Definition open_brace (t : token) : bool := match t with TOpenBrace => true | _ => false end.
Definition close_brace (t : token) : bool := match t with TCloseBrace => true | _ => false end.
Definition begins_body (t : token) : bool := starts_pipeline t || match t with TNewlineList => true | _ => false end.
Definition closes_body (t : token) : bool := ends_pipeline t || ends_line t.
Definition prefix_start (t : token) : bool := starts_redirection t || plain_word t.
Definition suffix_start (t : token) : bool := starts_redirection t || is_word t.

Lemma shape_one F L t : F t = true -> L t = true -> (forall n, depth n [t] = Some n) -> shape F L [t].
Proof. intros. repeat split; auto; discriminate. Qed.

Ltac cases := let x := fresh "x" in let y := fresh "y" in let A := fresh "A" in let B := fresh "B" in
  intros x y A B; destruct x; try discriminate A; destruct y; try discriminate B; reflexivity.
Ltac weak := let x := fresh "x" in let A := fresh "A" in
  intros x A; destruct x; try discriminate A; try reflexivity; exact A.
Ltac one := apply (shape_one _ _); reflexivity.

Lemma shape_cons F L F2 t b : F t = true -> (forall n, depth n [t] = Some n) -> shape F2 L b ->
  (forall y, F2 y = true -> may_follow t y = true) -> shape F L (t :: b).
Proof.
  intros Ht Hd (Nb & Hb & Lb & Cb & Db) H. repeat split.
  - discriminate.
  - exact Ht.
  - change (t :: b) with ([t] ++ b). rewrite last_app'; assumption.
  - destruct b as [|y b]; [exact I|]. split; [apply H; exact Hb|exact Cb].
  - intros n. change (t :: b) with ([t] ++ b). rewrite depth_app, Hd. apply Db.
Qed.

Lemma GWord_shape ts w : GWord ts w -> shape is_word is_word ts.
Proof. destruct 1; one. Qed.
Ltac cons_case := let y := fresh "y" in let B := fresh "B" in
  intros y B; destruct y; try discriminate B; reflexivity.
Lemma GIOFile_shape ts v : GIOFile ts v -> shape opens_file is_word ts.
Proof. destruct 1 as [ts w H|ts w H|ts w H]; apply GWord_shape in H; apply (shape_cons _ _ is_word); auto. Qed.
Lemma GIORedirect_shape ts v : GIORedirect ts v -> shape starts_redirection is_word ts.
Proof.
  destruct 1 as [ts k f H|n ts k f H]; apply GIOFile_shape in H.
  - eapply shape_weak; [exact H|weak|weak].
  - eapply shape_cons; [reflexivity|reflexivity|exact H|cons_case].
Qed.
Lemma GRedirectList_shape ts v : GRedirectList ts v -> shape starts_redirection is_word ts.
Proof.
  induction 1 as [ts r H|t1 t2 rl r H1 IH H2]; [eauto using GIORedirect_shape|].
  eapply shape_app; [exact IH|exact (GIORedirect_shape _ _ H2)|cases].
Qed.
Lemma GAssignment_shape ts v : GAssignment ts v -> shape plain_word is_word ts.
Proof.
  destruct 1 as [var ts val H]. apply GWord_shape in H.
  eapply shape_cons with (F2 := just TEquals); [reflexivity|reflexivity| |cons_case].
  eapply shape_cons; [reflexivity|reflexivity|exact H|cons_case].
Qed.
Lemma GPrefix_shape ts v : GPrefix ts v -> shape prefix_start is_word ts.
Proof.
  induction 1 as [ts r H|t1 t2 p r H1 IH H2|ts r H|t1 t2 p r H1 IH H2].
  - eapply shape_weak; [exact (GIORedirect_shape _ _ H)|weak|weak].
  - eapply shape_app; [exact IH|exact (GIORedirect_shape _ _ H2)|cases].
  - eapply shape_weak; [exact (GAssignment_shape _ _ H)|weak|weak].
  - eapply shape_app; [exact IH|exact (GAssignment_shape _ _ H2)|cases].
Qed.
Lemma GSuffix_shape ts v : GSuffix ts v -> shape suffix_start is_word ts.
Proof.
  induction 1 as [ts r H|t1 t2 p r H1 IH H2|w|t1 t2 p w H1 IH H2|ts r H|t1 t2 p r H1 IH H2].
  - eapply shape_weak; [exact (GIORedirect_shape _ _ H)|weak|weak].
  - eapply shape_app; [exact IH|exact (GIORedirect_shape _ _ H2)|cases].
  - one.
  - eapply shape_app; [exact IH|exact (GWord_shape _ _ H2)|cases].
  - eapply shape_weak; [exact (GAssignment_shape _ _ H)|weak|weak].
  - eapply shape_app; [exact IH|exact (GAssignment_shape _ _ H2)|cases].
Qed.
Lemma GSimple_shape ts v : GSimple ts v -> shape starts_command is_word ts.
Proof.
  destruct 1 as [t1 t2 t3 p w s H1 H2 H3|t1 t2 p w H1 H2|t2 t3 w s H2 H3|t2 w H2|t1 p H1];
    try apply GPrefix_shape in H1; try apply GWord_shape in H2; try apply GSuffix_shape in H3.
  - eapply shape_weak; [eapply shape_app; [exact H1|eapply shape_app; [exact H2|exact H3|cases]|cases]|weak|weak].
  - eapply shape_weak; [eapply shape_app; [exact H1|exact H2|cases]|weak|weak].
  - eapply shape_weak; [eapply shape_app; [exact H2|exact H3|cases]|weak|weak].
  - eapply shape_weak; [exact H2|weak|weak].
  - eapply shape_weak; [exact H1|weak|weak].
Qed.
Lemma GSeparator_shape ts : GSeparator ts -> shape ends_line ends_line ts.
Proof. destruct 1; repeat split; discriminate. Qed.
Lemma GCmdSepOp_shape ts : GCmdSepOp ts -> shape ends_line ends_line ts /\ (ts = [TSemiColon] \/ ts = [TNewlineList]).
Proof. destruct 1; split; auto; one. Qed.

Scheme GAndOr_m := Induction for GAndOr Sort Prop
  with GPipeline_m := Induction for GPipeline Sort Prop
  with GPipelineSeq_m := Induction for GPipelineSeq Sort Prop
  with GCommand_m := Induction for GCommand Sort Prop
  with GBrace_m := Induction for GBrace Sort Prop
  with GTerm_m := Induction for GTerm Sort Prop
  with GCompoundList_m := Induction for GCompoundList Sort Prop
  with GFunction_m := Induction for GFunction Sort Prop
  with GBody_m := Induction for GBody Sort Prop.
Combined Scheme G_mutind from GAndOr_m, GPipeline_m, GPipelineSeq_m, GCommand_m, GBrace_m, GTerm_m,
  GCompoundList_m, GFunction_m, GBody_m.

Lemma shape_tail F L L2 a t : shape F L a -> L2 t = true -> (forall n, depth n [t] = Some n) ->
  (forall x, L x = true -> may_follow x t = true) -> shape F L2 (a ++ [t]).
Proof.
  intros H Ht Hd HL. destruct H as (Na & Ha & La & Ca & Da). repeat split.
  - destruct a; discriminate.
  - rewrite hd_app; assumption.
  - rewrite last_app' by discriminate. exact Ht.
  - apply chain_app; auto; [exact I|discriminate].
  - intros n. rewrite depth_app, Da. apply Hd.
Qed.

Lemma brace_shape ts : shape begins_body closes_body ts -> shape open_brace close_brace (TOpenBrace :: ts ++ [TCloseBrace]).
Proof.
  intros (Na & Ha & La & Ca & Da). repeat split.
  - discriminate.
  - change (TOpenBrace :: ts ++ [TCloseBrace]) with ((TOpenBrace :: ts) ++ [TCloseBrace]).
    rewrite last_app' by discriminate. reflexivity.
  - destruct ts as [|y ts]; [congruence|]. split.
    + cbn in Ha. destruct y; try discriminate Ha; reflexivity.
    + change (chain ((y :: ts) ++ [TCloseBrace])). apply chain_app; auto; [exact I|discriminate|].
      destruct (last (y :: ts) TEOF); try discriminate La; reflexivity.
  - intros n. cbn [depth]. rewrite depth_app, Da. reflexivity.
Qed.

Ltac sh := solve [reflexivity|cases|cons_case|weak].
Lemma phrases :
  (forall ts a, GAndOr ts a -> shape starts_pipeline ends_pipeline ts) /\
  (forall ts p, GPipeline ts p -> shape starts_pipeline ends_pipeline ts) /\
  (forall ts cs, GPipelineSeq ts cs -> shape starts_command ends_command ts) /\
  (forall ts c, GCommand ts c -> shape starts_command ends_command ts) /\
  (forall ts b, GBrace ts b -> shape open_brace close_brace ts) /\
  (forall ts b, GTerm ts b -> shape starts_pipeline ends_pipeline ts) /\
  (forall ts b, GCompoundList ts b -> shape begins_body closes_body ts) /\
  (forall ts n b r, GFunction ts n b r -> shape plain_word ends_command ts) /\
  (forall ts b r, GBody ts b r -> shape open_brace ends_command ts).
Proof.
  apply G_mutind.
  - auto.
  - intros t1 t2 a p _ IH1 _ IH2.
    eapply shape_app with (F2 := just TAnd); [exact IH1| |sh]. eapply shape_cons; [sh|sh|exact IH2|sh].
  - intros t1 t2 a p _ IH1 _ IH2.
    eapply shape_app with (F2 := just TAnd); [exact IH1| |sh].
    eapply shape_cons with (F2 := just TNewlineList); [sh|sh| |sh]. eapply shape_cons; [sh|sh|exact IH2|sh].
  - intros t1 t2 a p _ IH1 _ IH2.
    eapply shape_app with (F2 := just TOr); [exact IH1| |sh]. eapply shape_cons; [sh|sh|exact IH2|sh].
  - intros t1 t2 a p _ IH1 _ IH2.
    eapply shape_app with (F2 := just TOr); [exact IH1| |sh].
    eapply shape_cons with (F2 := just TNewlineList); [sh|sh| |sh]. eapply shape_cons; [sh|sh|exact IH2|sh].
  - intros ts cs _ IH. eapply shape_weak; [exact IH|weak|weak].
  - intros ts cs _ IH. eapply shape_cons; [sh|sh| |].
    + eapply shape_weak; [exact IH|intros x A; exact A|weak].
    + sh.
  - intros ts cs _ IH. eapply shape_tail; [eapply shape_weak; [exact IH|weak|intros x A; exact A]|sh|sh|sh].
  - intros ts cs _ IH. eapply shape_cons with (F2 := starts_command); [sh|sh| |sh].
    eapply shape_tail; [exact IH|sh|sh|sh].
  - auto.
  - intros t1 t2 cs c _ IH1 _ IH2. eapply shape_app with (F2 := just TPipe); [exact IH1| |sh].
    eapply shape_cons; [sh|sh|exact IH2|sh].
  - intros ts sc H. eapply shape_weak; [exact (GSimple_shape _ _ H)|weak|weak].
  - intros ts n b r _ IH. eapply shape_weak; [exact IH|weak|weak].
  - intros ts b _ IH. eapply shape_weak; [exact IH|weak|weak].
  - intros ts b _ IH. apply brace_shape; exact IH.
  - intros t1 t2 t3 l a _ IH1 H2 _ IH3. apply GSeparator_shape in H2.
    eapply shape_app; [exact IH1| |].
    + eapply shape_app; [exact H2|exact IH3|sh].
    + sh.
  - auto.
  - intros ts l _ IH. eapply shape_weak; [exact IH|weak|weak].
  - intros ts l _ IH. eapply shape_cons; [sh|sh| |].
    + eapply shape_weak; [exact IH|intros x A; exact A|weak].
    + sh.
  - intros t1 t2 l _ IH H2. apply GSeparator_shape in H2.
    eapply shape_weak; [eapply shape_app; [exact IH|exact H2|sh]|weak|weak].
  - intros t1 t2 l _ IH H2. apply GSeparator_shape in H2.
    eapply shape_cons with (F2 := starts_pipeline); [sh|sh| |sh].
    eapply shape_weak; [eapply shape_app; [exact IH|exact H2|sh]|weak|weak].
  - intros name ts b r _ IH.
    eapply shape_cons with (F2 := just TOpenParen); [sh|sh| |sh].
    eapply shape_cons with (F2 := just TCloseParen); [sh|sh| |sh].
    eapply shape_cons with (F2 := just TNewlineList); [sh|sh| |sh].
    eapply shape_cons; [sh|sh|exact IH|sh].
  - intros name ts b r _ IH.
    eapply shape_cons with (F2 := just TOpenParen); [sh|sh| |sh].
    eapply shape_cons with (F2 := just TCloseParen); [sh|sh| |sh].
    eapply shape_cons; [sh|sh|exact IH|sh].
  - intros ts b _ IH. eapply shape_weak; [exact IH|weak|weak].
  - intros t1 t2 b rl _ IH H2. apply GRedirectList_shape in H2.
    eapply shape_weak; [eapply shape_app; [exact IH|exact H2|sh]|weak|weak].
Qed.

Lemma GList_shape ts l : GList ts l -> shape starts_pipeline ends_pipeline ts.
Proof.
  induction 1 as [t1 t2 t3 l a H1 IH H2 H3|ts a H].
  - apply GCmdSepOp_shape in H2 as [H2 _]. apply phrases in H3.
    eapply shape_app; [exact IH| |].
    + eapply shape_app; [exact H2|exact H3|sh].
    + sh.
  - apply phrases in H. exact H.
Qed.

Theorem GComplete_shape ts v : GComplete ts v -> shape may_begin closes_body ts.
Proof.
  destruct 1 as [t1 t2 l H1 H2|t1 t2 l H1 H2|ts l H1|ts H1];
    try apply GSeparator_shape in H1; try apply GList_shape in H1;
    try apply GSeparator_shape in H2; try apply GList_shape in H2.
  - eapply shape_weak; [eapply shape_app; [exact H1|exact H2|sh]|weak|weak].
  - eapply shape_weak; [eapply shape_app; [exact H1|exact H2|sh]|weak|weak].
  - eapply shape_weak; [exact H1|weak|weak].
  - eapply shape_weak; [exact H1|weak|weak].
Qed.

(** Reading off pairs. *)
Lemma chain_pair ts a x y b : chain ts -> ts = a ++ x :: y :: b -> may_follow x y = true.
Proof.
  revert ts; induction a as [|z a IH]; intros ts H ->.
  - cbn in H. tauto.
  - apply (IH (a ++ x :: y :: b)); [|reflexivity]. cbn [app] in H.
    destruct (a ++ x :: y :: b); [exact I|cbn in H; tauto].
Qed.
