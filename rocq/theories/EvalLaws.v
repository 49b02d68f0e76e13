(** Chains and lists of commands. *)
From Verif Require Import Base Ast Parser Context Alias Expand Jobs Shell Builtins Eval EvalSpec EvalFacts.
Local Open Scope Z_scope.

Lemma lift_fails {A B} (o : out A) : fails o -> fails (lift o : out B).
Proof. destruct o; cbn; auto. Qed.
Lemma lift_id (o : out Z) : fails o -> lift o = o.
Proof. destruct o; cbn; [contradiction|..]; reflexivity. Qed.
Lemma wanted_dec c st : {wanted c st} + {~ wanted c st}.
Proof. destruct c; cbn; destruct (Z.eq_dec st 0); auto; right; congruence. Qed.

(** [bind] when the first part does, or does not, return a value. *)
Lemma bind_ok {A B} (m : M A) (k : A -> M B) s a s1 : m s = (OOk a, s1) -> bind m k s = k a s1.
Proof. intros H. unfold bind. rewrite H. reflexivity. Qed.
Lemma bind_fails {A B} (m : M A) (k : A -> M B) s o s1 : m s = (o, s1) -> fails o -> bind m k s = (lift o, s1).
Proof. intros H F. unfold bind. rewrite H. destruct o; [contradiction|..]; reflexivity. Qed.
Lemma seq_ok {A B} (m : M A) (k : M B) s a s1 : m s = (OOk a, s1) -> seq m k s = k s1.
Proof. intros H. unfold seq. rewrite (bind_ok _ _ _ _ _ H). reflexivity. Qed.
Lemma seq_fails {A B} (m : M A) (k : M B) s o s1 : m s = (o, s1) -> fails o -> seq m k s = (lift o, s1).
Proof. intros H F. unfold seq. apply (bind_fails _ _ _ _ _ H F). Qed.

(** The ways a sequence can have ended. *)
Lemma bind_inv {A B} (m : M A) (k : A -> M B) s o s' : bind m k s = (o, s') ->
  (exists a s1, m s = (OOk a, s1) /\ k a s1 = (o, s')) \/
  (exists o1, m s = (o1, s') /\ fails o1 /\ o = lift o1).
Proof.
  unfold bind. intros H. destruct (m s) as [o1 s1] eqn:E.
  destruct o1 as [a|e| |c|p v e| |]; [left; eauto|..];
    right; injection H as <- <-; eexists; (split; [reflexivity|]); cbn; auto.
Qed.
Lemma seq_inv {A B} (m : M A) (k : M B) s o s' : seq m k s = (o, s') ->
  (exists a s1, m s = (OOk a, s1) /\ k s1 = (o, s')) \/
  (exists o1, m s = (o1, s') /\ fails o1 /\ o = lift o1).
Proof. unfold seq. intros H. destruct (bind_inv _ _ _ _ _ H) as [(a & s1 & H1 & H2)|H1]; eauto. Qed.
Lemma bind_inv_ok {A B} (m : M A) (k : A -> M B) s b s' : bind m k s = (OOk b, s') ->
  exists a s1, m s = (OOk a, s1) /\ k a s1 = (OOk b, s').
Proof.
  intros H. destruct (bind_inv _ _ _ _ _ H) as [H1|(o1 & _ & F & E)]; [exact H1|].
  destruct o1; cbn in *; try contradiction; discriminate.
Qed.
Lemma seq_inv_ok {A B} (m : M A) (k : M B) s b s' : seq m k s = (OOk b, s') ->
  exists a s1, m s = (OOk a, s1) /\ k s1 = (OOk b, s').
Proof. apply bind_inv_ok. Qed.
Lemma catch_inv {A} (m : M A) s o s' : catch m s = (o, s') ->
  (exists a, m s = (OOk a, s') /\ o = OOk (inl a)) \/
  (exists e, m s = (OErr e, s') /\ o = OOk (inr e)) \/
  (exists o1, m s = (o1, s') /\ ~ returns o1 /\ o = lift o1).
Proof.
  unfold catch. intros H. destruct (m s) as [o1 s1] eqn:E.
  destruct o1 as [a|e| |c|p v e| |]; injection H as <- <-; [left; eauto|right; left; eauto|..];
    right; right; eexists; (split; [reflexivity|]); cbn; auto.
Qed.

Section Chains.
Context (run : pipeline -> M Z).

Fixpoint fold_chain (st : Z) (rest : list (cond * pipeline)) : M Z :=
  match rest with
  | [] => ret st
  | (c, p) :: rest' =>
      if wanted_dec c st then st1 <- run p ;; fold_chain st1 rest' else fold_chain st rest'
  end.

Lemma chain_fold rest : forall st s o s',
  fold_chain st rest s = (o, s') <-> exists ran, chain run st s rest ran o s'.
Proof.
  induction rest as [|[c p] rest IH]; intros st s o s'; cbn [fold_chain].
  - split.
    + intros H. injection H as <- <-. exists []. apply chain_end.
    + intros [ran H]. inversion H; subst. reflexivity.
  - destruct (wanted_dec c st) as [Hw|Hw].
    + split.
      * intros H. apply bind_inv in H. destruct H as [(st1 & s1 & H1 & H2)|(o1 & H1 & F & ->)].
        -- apply IH in H2. destruct H2 as [ran H2]. eexists. eapply chain_run; eassumption.
        -- rewrite (lift_id _ F). eexists. eapply chain_stop; eassumption.
      * intros [ran H]. inversion H; subst; [contradiction|..].
        -- erewrite bind_ok; [|eassumption]. apply IH. eauto.
        -- erewrite bind_fails; [|eassumption|assumption]. rewrite lift_id by assumption. reflexivity.
    + rewrite IH. split; intros [ran H].
      * eexists. apply chain_skip; eassumption.
      * inversion H; subst; try contradiction. eauto.
Qed.

Lemma fold_chain_snoc rest : forall c p st s,
  fold_chain st (rest ++ [(c, p)]) s =
  bind (fold_chain st rest) (fun st1 => if wanted_dec c st1 then run p else ret st1) s.
Proof.
  induction rest as [|[c0 p0] rest IH]; intros c p st s; cbn [fold_chain app].
  - unfold bind, ret. destruct (wanted_dec c st); [|reflexivity].
    destruct (run p s) as [[]]; reflexivity.
  - destruct (wanted_dec c0 st); [|apply IH].
    unfold bind at 1. unfold bind at 1. unfold bind at 1. destruct (run p0 s) as [[a|e| |x|p1 v e| |] s1]; cbn; try reflexivity. apply IH.
Qed.
End Chains.

Section Trees.
Context (w : os) (rec : list and_or -> M Z).
Notation run := (eval_pipeline w rec).

Lemma and_or_fold a : forall s,
  eval_and_or w rec a s = bind (run (fst (links a))) (fun st => fold_chain run st (snd (links a))) s.
Proof.
  induction a as [p|a IH c p]; intros s.
  - cbn [eval_and_or links fst snd fold_chain]. unfold bind, ret. destruct (eval_pipeline w rec p s) as [[]]; reflexivity.
  - cbn [eval_and_or links fst snd]. unfold bind at 1. rewrite IH. unfold bind.
    destruct (eval_pipeline w rec (fst (links a)) s) as [[st|e| |x|p1 v e| |] s1]; cbn [lift]; try reflexivity.
    rewrite fold_chain_snoc. unfold bind.
    destruct (fold_chain run st (snd (links a)) s1) as [[st1|e| |x|p1 v e| |] s2]; cbn [lift]; try reflexivity.
    destruct c; destruct (wanted_dec _ st1) as [Hw|Hw]; cbn in Hw; destruct (Z.eqb_spec st1 0); try reflexivity; lia.
Qed.

Lemma and_or_whole a s o s' :
  eval_and_or w rec a s = (o, s') <-> exists ran, whole_chain run s (fst (links a)) (snd (links a)) ran o s'.
Proof.
  rewrite and_or_fold. split.
  - intros H. apply bind_inv in H. destruct H as [(st1 & s1 & H1 & H2)|(o1 & H1 & F & ->)].
    + apply chain_fold in H2. destruct H2 as [ran H2]. eexists. eapply whole_run; eassumption.
    + rewrite (lift_id _ F). eexists. eapply whole_stop; eassumption.
  - intros [ran H]. destruct H as [st1 s1 ran o s' H1 H2|o s' H1 F].
    + erewrite bind_ok by eassumption. apply chain_fold. eauto.
    + erewrite bind_fails by eassumption. rewrite lift_id by assumption. reflexivity.
Qed.

Lemma tree_in_order l : forall st s o s',
  parse_tree_from w rec st l s = (o, s') <-> exists ran, in_order (eval_and_or w rec) st s l ran o s'.
Proof.
  induction l as [|a l IH]; intros st s o s'; cbn [parse_tree_from].
  - split.
    + intros H. injection H as <- <-. exists []. apply in_order_end.
    + intros [ran H]. inversion H; subst. reflexivity.
  - split.
    + intros H. apply bind_inv in H. destruct H as [(st1 & s1 & H1 & H2)|(o1 & H1 & F & ->)].
      * apply IH in H2. destruct H2 as [ran H2]. eexists. eapply in_order_run; eassumption.
      * rewrite (lift_id _ F). eexists. eapply in_order_stop; eassumption.
    + intros [ran H]. inversion H; subst.
      * erewrite bind_ok by eassumption. apply IH. eauto.
      * erewrite bind_fails by eassumption. rewrite lift_id by assumption. reflexivity.
Qed.
End Trees.

(** The outcome is that of the last part that was run. *)
Lemma chain_last run st s rest ran o s' : chain run st s rest ran o s' ->
  o = match rev ran with [] => OOk st | (_, o1) :: _ => o1 end.
Proof.
  induction 1 as [| |st s c p rest st1 s1 ran o s' _ _ _ IH|]; cbn; auto.
  rewrite IH. destruct (rev ran) as [|[q x] r]; reflexivity.
Qed.
Lemma whole_last run s p rest ran o s' : whole_chain run s p rest ran o s' ->
  exists before q, ran = before ++ [(q, o)].
Proof.
  destruct 1 as [st1 s1 ran o s' _ H|o s' _ _].
  - apply chain_last in H. destruct ran as [|x ran] using rev_ind.
    + cbn in H. subst o. exists [], p. reflexivity.
    + rewrite rev_app_distr in H. cbn in H. destruct x as [q x]. subst o. exists ((p, OOk st1) :: ran), q. reflexivity.
  - exists [], p. reflexivity.
Qed.
Lemma in_order_last {A} (run : A -> M Z) st s l ran o s' : in_order run st s l ran o s' -> l <> [] ->
  exists before a, ran = before ++ [(a, o)] /\ map fst before ++ [a] = firstn (List.length ran) l /\
    (forall x ox, In (x, ox) before -> exists z, ox = OOk z) /\ (~ fails o -> List.length ran = List.length l).
Proof.
  induction 1 as [|st s a l st1 s1 ran o s' _ H IH|st s a l o s' _ F]; intros Hl; [congruence|..].
  - destruct l as [|b l].
    + inversion H; subst. exists [], a. cbn. repeat split; auto. intros x ox [].
    + destruct IH as (before & x & -> & E1 & E2 & E3); [discriminate|].
      exists ((a, OOk st1) :: before), x. cbn [map app fst List.length firstn]. rewrite E1.
      split; [reflexivity|]. split; [reflexivity|]. split.
      * intros y oy [Hy|Hy]; [injection Hy as <- <-; eauto|eauto].
      * intros F. f_equal. exact (E3 F).
  - exists [], a. cbn. repeat split; auto; [intros x ox []|contradiction].
Qed.
