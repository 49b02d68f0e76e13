(** Histories of operations on variables and scopes, and what each operation
    leaves alone. *)
From Verif Require Import Base BaseFacts Ast Context ContextSpec ContextFacts.
From Verif Require GrammarFacts.

(** ** Histories *)

Lemma lookup_same : forall n e e', same_env e e' -> lookup n e = lookup n e'.
Proof.
  intros n e e' H. induction H as [|f g e e' Hfg H IH]; cbn; [reflexivity|].
  rewrite Hfg, IH. reflexivity.
Qed.

Lemma put_same : forall n b f g, (forall y : str, f y = g y) -> forall y, put n b f y = put n b g y.
Proof. intros n b f g H y. unfold put. rewrite H. reflexivity. Qed.

Definition same_opt (a b : option env) : Prop :=
  match a, b with Some x, Some y => same_env x y | None, None => True | _, _ => False end.

Lemma rebind_same : forall n b e e', same_env e e' -> same_opt (rebind n b e) (rebind n b e').
Proof.
  intros n b e e' H. induction H as [|f g e e' Hfg H IH]; cbn; [exact I|].
  rewrite Hfg. destruct (g n).
  - constructor; [apply put_same, Hfg|exact H].
  - destruct (rebind n b e), (rebind n b e'); cbn in *; try contradiction; auto.
    constructor; auto.
Qed.

Lemma bind_same : forall n b e e', same_env e e' -> same_env (bind n b e) (bind n b e').
Proof.
  intros n b e e' H. unfold bind. pose proof (rebind_same n b e e' H) as HR.
  destruct (rebind n b e), (rebind n b e'); cbn in HR; try contradiction; [exact HR|].
  destruct H as [|f g e e' Hfg H]; constructor; auto. apply put_same, Hfg.
Qed.

Lemma same_rev : forall e e', same_env e e' -> same_env (rev e) (rev e').
Proof.
  intros e e' H. induction H as [|f g e e' Hfg H IH]; cbn; [constructor|].
  apply same_app; [exact IH|]. constructor; [exact Hfg|constructor].
Qed.
Lemma same_firstn : forall k e e', same_env e e' -> same_env (firstn k e) (firstn k e').
Proof.
  intros k e e' H. revert k. induction H as [|f g e e' Hfg H IH]; intros [|k]; cbn; constructor; auto.
  exact (IH k).
Qed.
Lemma same_skipn : forall k e e', same_env e e' -> same_env (skipn k e) (skipn k e').
Proof.
  intros k e e' H. revert k. induction H as [|f g e e' Hfg H IH]; intros [|k]; cbn; [constructor|constructor|constructor; auto|exact (IH k)].
Qed.
Lemma same_nth : forall k e e', same_env e e' ->
  match nth_error e k, nth_error e' k with
  | Some f, Some g => forall n, f n = g n
  | None, None => True
  | _, _ => False
  end.
Proof.
  intros k e e' H. revert k. induction H as [|f g e e' Hfg H IH]; intros [|k]; cbn; auto.
  apply IH.
Qed.
Lemma same_length : forall e e', same_env e e' -> List.length e = List.length e'.
Proof. intros e e' H. induction H; cbn; auto. Qed.

Lemma bind_at_same : forall k n b e e', same_env e e' -> same_env (bind_at k n b e) (bind_at k n b e').
Proof.
  intros k n b e e' H. unfold bind_at. pose proof (same_rev _ _ H) as HR.
  pose proof (same_nth k _ _ HR) as HN.
  destruct (nth_error (rev e) k), (nth_error (rev e') k); try contradiction; [|exact H].
  apply same_rev, same_app; [apply same_firstn, HR|].
  constructor; [apply put_same, HN|]. apply same_skipn, HR.
Qed.

Lemma meaning_same : forall o e e', same_env e e' -> same_opt (meaning o e) (meaning o e').
Proof.
  intros o e e' H.
  assert (HL : forall n, lookup n e = lookup n e') by (intros; apply lookup_same, H).
  pose proof (same_length _ _ H) as Hlen.
  destruct o; cbn [meaning]; try exact H.
  - rewrite HL. destruct (lookup (target set) e') as [[v [|]]|]; [exact H| |];
      (destruct (unsettable set); [exact I|apply bind_same, H]).
  - rewrite Hlen. destruct (unsettable set || _); [exact I|]. apply bind_at_same, H.
  - destruct (unsettable set); [exact I|apply bind_same, H].
  - rewrite HL. destruct (lookup n e') as [[v ro]|]; [apply bind_same, H|exact I].
  - pose proof (rebind_same n None e e' H) as HR.
    destruct (rebind n None e), (rebind n None e'); cbn in HR; try contradiction; [exact HR|exact H].
  - constructor; auto.
  - inversion H as [|f g e1 e1' Hfg H1]; [exact I|]. subst.
    inversion H1 as [|f' g' e2 e2' Hfg' H2]; [exact I|]. subst. exact H1.
  - inversion H as [|f g e1 e1' Hfg H1]; [exact I|]. subst.
    inversion H1 as [|f' g' e2 e2' Hfg' H2]; [exact I|]. subst. exact H1.
Qed.

Lemma meanings_same : forall os e e', same_env e e' -> same_opt (meanings os e) (meanings os e').
Proof.
  induction os as [|o os IH]; intros e e' H; cbn; [exact H|].
  pose proof (meaning_same o e e' H) as HM.
  destruct (meaning o e), (meaning o e'); cbn in HM; try contradiction; [apply IH, HM|exact I].
Qed.

Lemma performs_meanings : forall os m, cm_wf m -> Forall plain_op os ->
  related (performs os m) (meanings os (env_of m)).
Proof.
  induction os as [|o os IH]; intros m H HF; cbn; [apply same_refl|].
  inv HF. pose proof (perform_meaning o m H H2) as HM.
  destruct (perform o m) as [m1|] eqn:P; destruct (meaning o (env_of m)) as [e1|];
    cbn in HM; try contradiction; [|exact I].
  pose proof (IH m1 (perform_wf _ _ _ H P) H3) as HI.
  pose proof (meanings_same os _ _ HM) as HS.
  destruct (performs os m1), (meanings os (env_of m1)), (meanings os e1);
    cbn in *; try contradiction; auto.
  eapply same_trans; eassumption.
Qed.

(** ** What an operation leaves alone *)

(** The variable an operation writes, if any. *)
Definition writes (o : op) : option str :=
  match o with
  | OAssign set | OAssignAt _ set => Some (target set)
  | OReadonlyAssign set =>
      match namespaced set with Some (_, x) => Some (target x) | None => Some (target set) end
  | OReadonly n | OUnset n =>
      match namespaced n with Some (_, x) => Some x | None => Some n end
  | _ => None
  end.

Lemma cell_update : forall l c m l' y,
  (ctx_get_var y c = ctx_get_var y (deref l m)) ->
  ctx_get_var y (deref l' (update l c m)) = ctx_get_var y (deref l' m).
Proof.
  intros l c m l' y Hy.
  destruct (Nat.lt_ge_cases l (List.length (heap m))) as [Hl|Hl].
  - rewrite deref_update by exact Hl.
    destruct (Nat.eqb_spec l' l) as [->|]; auto.
  - unfold deref, update, hget. cbn [heap].
    replace (hset l c (heap m)) with (heap m); [reflexivity|].
    clear Hy. generalize (heap m), Hl. clear Hl. intros h. revert l.
    induction h as [|x h IH]; intros [|l] Hl; cbn in *; try lia; auto.
    f_equal. apply IH. lia.
Qed.

Lemma get_put_neq : forall n v c y, y <> n -> ctx_get_var y (ctx_put_var n v c) = ctx_get_var y c.
Proof. intros n v c y H. unfold ctx_get_var, ctx_put_var. cbn. apply sget_sinsert_neq. auto. Qed.
Lemma get_remove_neq : forall n c y, y <> n -> ctx_get_var y (ctx_remove_var n c) = ctx_get_var y c.
Proof. intros n c y H. unfold ctx_get_var, ctx_remove_var. cbn. apply sget_sremove_neq. auto. Qed.

Lemma cell_update_opt : forall l c m m' l' y,
  update_opt l c m = Some m' ->
  (forall c', c = Some c' -> ctx_get_var y c' = ctx_get_var y (deref l m)) ->
  ctx_get_var y (deref l' m') = ctx_get_var y (deref l' m).
Proof.
  intros l [c|] m m' l' y E H; cbn in E; [|discriminate]. inv E. apply cell_update. auto.
Qed.
Lemma ctx_set_neq : forall ro set c c' y, ctx_set ro set c = Some c' -> y <> target set ->
  ctx_get_var y c' = ctx_get_var y c.
Proof.
  intros ro set c c' y E Hy. rewrite ctx_set_spec in E. destruct (unsettable set); [discriminate|].
  inv E. apply get_put_neq, Hy.
Qed.
Lemma ctx_mark_neq : forall n c c' y, ctx_mark_readonly n c = Some c' -> y <> n ->
  ctx_get_var y c' = ctx_get_var y c.
Proof.
  intros n c c' y E Hy. unfold ctx_mark_readonly in E. destruct (ctx_get_var n c); [|discriminate].
  inv E. apply get_put_neq, Hy.
Qed.

(** In every scope, on the stack or not, the variables an operation does not
    write keep their binding. *)
Lemma perform_cells : forall o m m' y l, cm_wf m -> perform o m = Some m' ->
  writes o <> Some y ->
  l < List.length (heap m) ->
  ctx_get_var y (deref l m') = ctx_get_var y (deref l m).
Proof.
  intros o m m' y l H E Hw Hl. destruct o; cbn [perform writes] in *.
  - assert (Hy : y <> target set) by congruence.
    unfold add_var in E. rewrite set_name_target in E.
    destruct (innermost _ m) as [k|].
    + destruct (ctx_get_var (target set) (deref k m)) as [[v [|]]|]; [inv E; reflexivity| |];
      (eapply cell_update_opt; [exact E|]; intros c' Hc'; eapply ctx_set_neq; eassumption).
    + eapply cell_update_opt; [exact E|]. intros c' Hc'. eapply ctx_set_neq; eassumption.
  - assert (Hy : y <> target set) by congruence.
    unfold add_var_pos in E. destruct (nth_error _ _); [|discriminate].
    eapply cell_update_opt; [exact E|]. intros c' Hc'. eapply ctx_set_neq; eassumption.
  - unfold add_var_readonly in E. destruct (namespaced set) as [[ns x]|].
    + destruct (get_context_by_name ns m); [|inv E; reflexivity].
      eapply cell_update_opt; [exact E|]. intros c' Hc'. eapply ctx_set_neq; [eassumption|congruence].
    + eapply cell_update_opt; [exact E|]. intros c' Hc'. eapply ctx_set_neq; [eassumption|congruence].
  - unfold set_var_readonly in E. destruct (namespaced n) as [[ns x]|].
    + destruct (get_context_by_name ns m); [|inv E; reflexivity].
      eapply cell_update_opt; [exact E|]. intros c' Hc'. eapply ctx_mark_neq; [eassumption|congruence].
    + eapply cell_update_opt; [exact E|]. intros c' Hc'. eapply ctx_mark_neq; [eassumption|congruence].
  - inv E. unfold remove_var. destruct (namespaced n) as [[ns x]|].
    + destruct (get_context_by_name ns m); [|reflexivity].
      apply cell_update. apply get_remove_neq. congruence.
    + destruct (innermost _ m); [|reflexivity].
      apply cell_update. apply get_remove_neq. congruence.
  - inv E. unfold remove_function. destruct (namespaced n) as [[ns x]|].
    + destruct (get_context_by_name ns m); [|reflexivity]. apply cell_update. reflexivity.
    + destruct (innermost _ m); [|reflexivity]. apply cell_update. reflexivity.
  - inv E. unfold add_function. apply cell_update. unfold ctx_get_var.
    rewrite ctx_add_function_vars. reflexivity.
  - inv E. apply cell_update. unfold ctx_get_var.
    rewrite ctx_add_function_vars. reflexivity.
  - inv E. unfold deref, push_context_new, hget. cbn [heap]. rewrite app_nth1 by exact Hl. reflexivity.
  - destruct (pop_split m m' H E) as (_ & Hh & _). unfold deref. rewrite Hh. reflexivity.
  - destruct (pop_context m) as [m1|] eqn:P; [|discriminate]. inv E.
    destruct (pop_split m m1 H P) as (_ & Hh & _). unfold deref. cbn [heap add_context].
    rewrite Hh. reflexivity.
  - inv E. reflexivity.
  - inv E. reflexivity.
Qed.

(** What each scope of the stack binds [y] to, innermost first. *)
Definition column (y : str) (m : cmgr) : list (option binding) :=
  map (fun l => option_map binding_of (ctx_get_var y (deref l m))) (rev (stack m)).

Lemma column_env : forall y m, column y m = map (fun f => f y) (env_of m).
Proof. intros y m. unfold column, env_of. rewrite map_map. reflexivity. Qed.

(** How an operation changes the scope stack itself. *)
Lemma perform_stack : forall o m m', cm_wf m -> perform o m = Some m' ->
  match o with
  | OPush => stack m' = stack m ++ [List.length (heap m)]
  | OPop | OPopExport _ => rev (stack m) = get_context m :: rev (stack m')
  | _ => stack m' = stack m
  end.
Proof.
  intros o m m' H E. destruct o; cbn [perform] in *.
  - unfold add_var in E. destruct (innermost _ m).
    + destruct (ctx_get_var _ _) as [[v [|]]|]; [inv E; reflexivity| |];
      (unfold update_opt in E; destruct (ctx_set _ _ _); inv E; reflexivity).
    + unfold update_opt in E; destruct (ctx_set _ _ _); inv E; reflexivity.
  - unfold add_var_pos in E. destruct (nth_error _ _); [|discriminate].
    unfold update_opt in E; destruct (ctx_set _ _ _); inv E; reflexivity.
  - unfold add_var_readonly in E. destruct (namespaced set) as [[ns x]|].
    + destruct (get_context_by_name ns m); [|inv E; reflexivity].
      unfold update_opt in E; destruct (ctx_set _ _ _); inv E; reflexivity.
    + unfold update_opt in E; destruct (ctx_set _ _ _); inv E; reflexivity.
  - unfold set_var_readonly in E. destruct (namespaced n) as [[ns x]|].
    + destruct (get_context_by_name ns m); [|inv E; reflexivity].
      unfold update_opt in E; destruct (ctx_mark_readonly _ _); inv E; reflexivity.
    + unfold update_opt in E; destruct (ctx_mark_readonly _ _); inv E; reflexivity.
  - inv E. unfold remove_var. destruct (namespaced n) as [[ns x]|].
    + destruct (get_context_by_name ns m); reflexivity.
    + destruct (innermost _ m); reflexivity.
  - inv E. unfold remove_function. destruct (namespaced n) as [[ns x]|].
    + destruct (get_context_by_name ns m); reflexivity.
    + destruct (innermost _ m); reflexivity.
  - inv E. reflexivity.
  - inv E. reflexivity.
  - inv E. reflexivity.
  - apply pop_split in E; [|exact H]. apply E.
  - destruct (pop_context m) as [m1|] eqn:P; [|discriminate]. inv E.
    apply pop_split in P; [|exact H]. apply P.
  - inv E. reflexivity.
  - inv E. reflexivity.
Qed.

Lemma perform_column : forall o m m' y, cm_wf m -> perform o m = Some m' ->
  writes o <> Some y ->
  column y m' = match o with
                | OPush => None :: column y m
                | OPop | OPopExport _ => tl (column y m)
                | _ => column y m
                end.
Proof.
  intros o m m' y H E Hw.
  assert (HC : forall l, In l (stack m) ->
    option_map binding_of (ctx_get_var y (deref l m')) =
    option_map binding_of (ctx_get_var y (deref l m))).
  { intros l Hl. f_equal. eapply perform_cells; eauto. apply stack_lt; auto. }
  pose proof (perform_stack o m m' H E) as HS. unfold column.
  assert (HK : stack m' = stack m ->
    map (fun l => option_map binding_of (ctx_get_var y (deref l m'))) (rev (stack m')) =
    map (fun l => option_map binding_of (ctx_get_var y (deref l m))) (rev (stack m))).
  { intros ->. apply map_ext_in. intros l Hl. apply HC. apply in_rev, Hl. }
  assert (HP : rev (stack m) = get_context m :: rev (stack m') ->
    map (fun l => option_map binding_of (ctx_get_var y (deref l m'))) (rev (stack m')) =
    tl (map (fun l => option_map binding_of (ctx_get_var y (deref l m))) (rev (stack m)))).
  { intros Hr. rewrite Hr. cbn [map tl]. apply map_ext_in. intros l Hl. apply HC.
    apply in_rev. rewrite Hr. right. exact Hl. }
  destruct o; auto.
  rewrite HS, rev_app_distr. cbn [rev app map].
  cbn [perform] in E. inv E. f_equal.
  - unfold deref, push_context_new, hget. cbn [heap]. rewrite app_nth2 by lia.
    rewrite Nat.sub_diag. reflexivity.
  - apply map_ext_in. intros l Hl. apply HC. apply in_rev, Hl.
Qed.

Lemma lookup_column : forall y e, lookup y e = first_some (map (fun f => f y) e).
Proof. intros y e. induction e as [|f e IH]; cbn; [reflexivity|]. destruct (f y); auto. Qed.

Lemma get_var_column : forall y m, cm_wf m -> unqualified y ->
  option_map binding_of (get_var y m) = first_some (column y m).
Proof. intros y m H Hy. rewrite lookup_get_var by assumption. rewrite lookup_column, column_env. reflexivity. Qed.

Lemma binding_of_inj : forall a b, option_map binding_of a = option_map binding_of b -> a = b.
Proof.
  intros [[v r]|] [[v' r']|] H; cbn in H; try discriminate; [|reflexivity].
  inv H. reflexivity.
Qed.

(** ** Columns of the written variable *)

Lemma column_put : forall y n b f, put n b f y = if str_eqb y n then b else f y.
Proof. reflexivity. Qed.

Lemma rebind_column : forall n b e,
  option_map (map (fun f => f n)) (rebind n b e) = replace_first b (map (fun f => f n) e).
Proof.
  intros n b e. induction e as [|f e IH]; cbn; [reflexivity|].
  destruct (f n) eqn:E.
  - cbn. unfold put. rewrite str_eqb_refl. reflexivity.
  - rewrite <- IH. destruct (rebind n b e); cbn; [rewrite E|]; reflexivity.
Qed.

Definition bound {A} (b : option A) (col : list (option A)) : list (option A) :=
  match replace_first b col with
  | Some col' => col'
  | None => match col with [] => [] | _ :: col' => b :: col' end
  end.

Lemma bind_column : forall n b e,
  map (fun f => f n) (bind n b e) = bound b (map (fun f => f n) e).
Proof.
  intros n b e. unfold bind, bound. rewrite <- rebind_column.
  destruct (rebind n b e); cbn; [reflexivity|].
  destruct e as [|f e]; cbn; [reflexivity|]. unfold put. rewrite str_eqb_refl. reflexivity.
Qed.

Lemma same_column : forall n e e', same_env e e' ->
  map (fun f => f n) e = map (fun f => f n) e'.
Proof. intros n e e' H. induction H as [|f g e e' Hfg H IH]; cbn; [reflexivity|]. rewrite Hfg, IH. reflexivity. Qed.

Lemma column_nonempty : forall n m, cm_wf m -> column n m <> [].
Proof.
  intros n m H E. apply map_eq_nil in E.
  apply (wf_nonempty m H). rewrite <- (rev_involutive (stack m)), E. reflexivity.
Qed.

(** The column of the name written by an unqualified operation. *)
Lemma assign_column : forall set m m', cm_wf m -> perform (OAssign set) m = Some m' ->
  column (target set) m' =
  match first_some (column (target set) m) with
  | Some (_, true) => column (target set) m
  | _ => bound (Some (assigned set, false)) (column (target set) m)
  end.
Proof.
  intros set m m' H E. pose proof (perform_meaning (OAssign set) m H I) as HM.
  rewrite E in HM. cbn [meaning] in HM. rewrite lookup_column, <- column_env in HM.
  rewrite !column_env in *.
  destruct (first_some _) as [[v [|]]|]; cbn [related] in HM.
  - apply same_column, HM.
  - destruct (unsettable set); [contradiction|]. rewrite <- bind_column. apply same_column, HM.
  - destruct (unsettable set); [contradiction|]. rewrite <- bind_column. apply same_column, HM.
Qed.

Lemma readonly_assign_column : forall set m m', cm_wf m -> unqualified set ->
  perform (OReadonlyAssign set) m = Some m' ->
  column (target set) m' = bound (Some (assigned set, true)) (column (target set) m).
Proof.
  intros set m m' H Hq E. pose proof (perform_meaning (OReadonlyAssign set) m H Hq) as HM.
  rewrite E in HM. cbn [meaning] in HM. rewrite !column_env.
  destruct (unsettable set); [contradiction|]. rewrite <- bind_column. apply same_column, HM.
Qed.

Lemma readonly_column : forall n m m', cm_wf m -> unqualified n ->
  perform (OReadonly n) m = Some m' ->
  exists v r, first_some (column n m) = Some (v, r) /\
    column n m' = bound (Some (v, true)) (column n m).
Proof.
  intros n m m' H Hq E. pose proof (perform_meaning (OReadonly n) m H Hq) as HM.
  rewrite E in HM. cbn [meaning] in HM. rewrite lookup_column, <- column_env in HM.
  destruct (first_some (column n m)) as [[v r]|]; [|contradiction].
  exists v, r. split; [reflexivity|]. rewrite !column_env, <- bind_column. apply same_column, HM.
Qed.

Lemma unset_column : forall n m, cm_wf m -> unqualified n ->
  column n (remove_var n m) =
  match replace_first None (column n m) with Some c => c | None => column n m end.
Proof.
  intros n m H Hq. pose proof (perform_meaning (OUnset n) m H Hq) as HM.
  cbn [perform meaning] in HM.
  rewrite !column_env, <- rebind_column.
  destruct (rebind n None (env_of m)); cbn [related option_map] in *; apply same_column, HM.
Qed.

Lemma first_some_bound : forall {A} (b : A) col, col <> [] -> first_some (bound (Some b) col) = Some b.
Proof.
  intros A b col Hne. unfold bound.
  destruct (replace_first (Some b) col) as [c|] eqn:E.
  - clear Hne. revert c E. induction col as [|[x|] col IH]; cbn; intros c E; [discriminate|inv E; reflexivity|].
    destruct (replace_first (Some b) col); [|discriminate]. inv E. cbn. auto.
  - destruct col; [congruence|]. reflexivity.
Qed.

(** ** Histories and columns *)

Definition height_after (o : op) (h : nat) : nat :=
  match o with OPush => S h | OPop | OPopExport _ => pred h | _ => h end.
(** The history never pops the scope at depth [d] (counted from the outermost,
    which is [0]), when it starts with [h] scopes. *)
Fixpoint keeps_scope (d h : nat) (os : list op) : Prop :=
  match os with
  | [] => d < h
  | o :: os' => d < h /\ keeps_scope d (height_after o h) os'
  end.

Lemma column_length : forall n m, List.length (column n m) = List.length (stack m).
Proof. intros. unfold column. rewrite map_length, rev_length. reflexivity. Qed.

Lemma perform_height : forall o m m', cm_wf m -> perform o m = Some m' ->
  List.length (stack m') = height_after o (List.length (stack m)).
Proof.
  intros o m m' H E. pose proof (perform_stack o m m' H E) as HS.
  destruct o; cbn [height_after]; try (rewrite HS; reflexivity).
  - rewrite HS, app_length. cbn. lia.
  - apply (f_equal (@List.length nat)) in HS. cbn in HS. rewrite !rev_length in HS. lia.
  - apply (f_equal (@List.length nat)) in HS. cbn in HS. rewrite !rev_length in HS. lia.
Qed.

(** Operations that can change a binding of [n] although it is read-only. *)
Definition overrides (n : str) (o : op) : Prop :=
  writes o = Some n /\ forall set, o <> OAssign set.

Lemma first_some_app_none : forall {A} (a b : list (option A)),
  Forall (fun x => x = None) a -> first_some (a ++ b) = first_some b.
Proof. intros A a b H. induction H as [|x a Hx H IH]; cbn; [reflexivity|]. subst x. exact IH. Qed.

Lemma writes_dec : forall o n, writes o = Some n \/ writes o <> Some n.
Proof.
  intros o n. destruct (writes o) as [w|]; [|right; discriminate].
  destruct (str_eq_dec w n) as [->|Hn]; [left; reflexivity|right; congruence].
Qed.

Lemma readonly_column_kept : forall os m m' n v inner outer, cm_wf m ->
  column n m = inner ++ Some (v, true) :: outer -> Forall (fun x => x = None) inner ->
  (forall o, In o os -> ~ overrides n o) ->
  keeps_scope (List.length outer) (List.length (stack m)) os ->
  performs os m = Some m' ->
  exists inner', column n m' = inner' ++ Some (v, true) :: outer /\ Forall (fun x => x = None) inner'.
Proof.
  induction os as [|o os IH]; intros m m' n v inner outer H Hc Hin Hno Hk E.
  { cbn in E. inv E. exists inner. auto. }
  cbn [performs] in E. destruct (perform o m) as [m1|] eqn:P; [|discriminate].
  cbn [keeps_scope] in Hk. destruct Hk as [Hd Hk].
  pose proof (perform_height o m m1 H P) as Hh. rewrite <- Hh in Hk.
  pose proof (perform_wf o m m1 H P) as H1.
  assert (Hd1 : List.length outer < List.length (stack m1)).
  { destruct os; cbn [keeps_scope] in Hk; tauto. }
  assert (Hstep : exists inner', column n m1 = inner' ++ Some (v, true) :: outer /\
                                 Forall (fun x => x = None) inner').
  { destruct (writes_dec o n) as [Hw|Hw].
    - destruct o; cbn [writes] in Hw; try discriminate;
        try (exfalso; refine (Hno _ (or_introl eq_refl) (conj Hw _)); intros; discriminate).
      inv Hw. pose proof (assign_column set m m1 H P) as HA. rewrite Hc in HA.
      rewrite first_some_app_none in HA by exact Hin. cbn in HA. eauto.
    - pose proof (perform_column o m m1 n H P Hw) as HC. rewrite Hc in HC.
      destruct o; try (exists inner; split; assumption).
      + exists (None :: inner). split; [exact HC|]. constructor; auto.
      + destruct inner as [|x inner].
        * exfalso. pose proof (column_length n m1) as HL. rewrite HC in HL. cbn in HL. rewrite <- HL in Hd1. exact (Nat.lt_irrefl _ Hd1).
        * exists inner. split; [exact HC|]. inv Hin. assumption.
      + destruct inner as [|x inner].
        * exfalso. pose proof (column_length n m1) as HL. rewrite HC in HL. cbn in HL. rewrite <- HL in Hd1. exact (Nat.lt_irrefl _ Hd1).
        * exists inner. split; [exact HC|]. inv Hin. assumption. }
  destruct Hstep as (inner1 & Hc1 & Hin1).
  eapply IH; eauto. intros o' Ho'. apply Hno. right. exact Ho'.
Qed.

(** ** Leaving a scope *)

Lemma performs_app : forall a b m,
  performs (a ++ b) m = match performs a m with Some m' => performs b m' | None => None end.
Proof.
  induction a as [|o a IH]; intros b m; cbn; [reflexivity|].
  destruct (perform o m); [apply IH|reflexivity].
Qed.

Lemma performs_column_balanced : forall os, balanced os -> forall m m' y, cm_wf m ->
  performs os m = Some m' -> (forall o, In o os -> writes o <> Some y) ->
  column y m' = column y m.
Proof.
  intros os HB. induction HB as [|o os N1 N2 N3 HB IH|os os' HB1 IH1 HB2 IH2]; intros m m' y H E Hw.
  - cbn in E. inv E. reflexivity.
  - cbn [performs] in E. destruct (perform o m) as [m1|] eqn:P; [|discriminate].
    rewrite (IH m1 m' y (perform_wf _ _ _ H P) E (fun o' Ho' => Hw o' (or_intror Ho'))).
    rewrite (perform_column o m m1 y H P (Hw o (or_introl eq_refl))).
    destruct o; try reflexivity; try congruence; exfalso; eapply N3; reflexivity.
  - cbn [performs perform] in E.
    set (mp := push_context_new m) in *.
    assert (Hp : cm_wf mp) by (apply wf_push, H).
    assert (Hcp : column y mp = None :: column y m).
    { apply (perform_column OPush m mp y H eq_refl). discriminate. }
    rewrite performs_app in E. destruct (performs os mp) as [m1|] eqn:E1; [|discriminate].
    assert (H1 : cm_wf m1) by (eapply performs_wf; eassumption).
    assert (Hc1 : column y m1 = column y mp).
    { apply (IH1 mp m1 y Hp E1). intros o Ho. apply Hw. right. apply in_or_app. left. exact Ho. }
    cbn [performs] in E. destruct (perform OPop m1) as [m2|] eqn:P2; [|discriminate].
    assert (H2 : cm_wf m2) by (eapply perform_wf; eassumption).
    rewrite (IH2 m2 m' y H2 E).
    + rewrite (perform_column OPop m1 m2 y H1 P2) by discriminate. rewrite Hc1, Hcp. reflexivity.
    + intros o Ho. apply Hw. right. apply in_or_app. right. right. exact Ho.
Qed.

(** Operations that bind [n] only through the scope search (not in a scope given
    by its position or by a namespace). *)
Definition scoped (n : str) (o : op) : Prop :=
  writes o = Some n ->
  match o with
  | OAssign _ => True
  | OReadonlyAssign set => unqualified set
  | OReadonly x | OUnset x => unqualified x
  | _ => False
  end.

Lemma replace_first_app : forall {A} (b : option A) pre post, Forall (fun x => x = None) post ->
  replace_first b (pre ++ post) = option_map (fun p => p ++ post) (replace_first b pre).
Proof.
  intros A b pre post H. induction pre as [|[x|] pre IH]; cbn.
  - induction H as [|x post Hx H IH]; cbn; [reflexivity|]. subst x. rewrite IH. reflexivity.
  - reflexivity.
  - rewrite IH. destruct (replace_first b pre); reflexivity.
Qed.
Lemma replace_first_length : forall {A} (b : option A) l l',
  replace_first b l = Some l' -> List.length l' = List.length l.
Proof.
  intros A b l. induction l as [|[x|] l IH]; cbn; intros l' E; [discriminate|inv E; reflexivity|].
  destruct (replace_first b l); [|discriminate]. inv E. cbn. rewrite (IH l0); auto.
Qed.
Lemma bound_app : forall {A} (b : option A) pre post, Forall (fun x => x = None) post -> pre <> [] ->
  bound b (pre ++ post) = bound b pre ++ post /\ List.length (bound b pre) = List.length pre.
Proof.
  intros A b pre post H Hne. unfold bound. rewrite replace_first_app by exact H.
  destruct (replace_first b pre) as [p|] eqn:E; cbn.
  - split; [reflexivity|]. eapply replace_first_length, E.
  - destruct pre; [congruence|]. cbn. auto.
Qed.

Lemma scoped_step : forall o m m' n pre post, cm_wf m -> perform o m = Some m' ->
  o <> OPush -> o <> OPop -> (forall ns, o <> OPopExport ns) -> scoped n o ->
  column n m = pre ++ post -> pre <> [] -> Forall (fun x => x = None) post ->
  exists pre', column n m' = pre' ++ post /\ List.length pre' = List.length pre.
Proof.
  intros o m m' n pre post H P N1 N2 N3 Hs Hc Hne Hpost.
  destruct (writes_dec o n) as [Hw|Hw].
  - specialize (Hs Hw). destruct o; try contradiction; cbn [writes] in Hw.
    + inv Hw. pose proof (assign_column set m m' H P) as HA. rewrite Hc in HA.
      destruct (bound_app (Some (assigned set, false)) pre post Hpost Hne) as [HB1 HB2].
      destruct (first_some _) as [[v [|]]|]; [exists pre; auto| |]; rewrite HB1 in HA; eauto.
    + pose proof (proj2 (namespaced_none set) Hs) as Hnn. rewrite Hnn in Hw. inv Hw.
      pose proof (readonly_assign_column set m m' H Hs P) as HA. rewrite Hc in HA.
      destruct (bound_app (Some (assigned set, true)) pre post Hpost Hne) as [HB1 HB2].
      rewrite HB1 in HA; eauto.
    + pose proof (proj2 (namespaced_none _) Hs) as Hnn. rewrite Hnn in Hw. inv Hw.
      destruct (readonly_column n m m' H Hs P) as (v & r & Hf & HA). rewrite Hc in HA.
      destruct (bound_app (Some (v, true)) pre post Hpost Hne) as [HB1 HB2].
      rewrite HB1 in HA; eauto.
    + pose proof (proj2 (namespaced_none _) Hs) as Hnn. rewrite Hnn in Hw. inv Hw.
      cbn [perform] in P. inv P. rewrite unset_column by assumption. rewrite Hc.
      rewrite replace_first_app by exact Hpost.
      destruct (replace_first None pre) as [p|] eqn:E; cbn.
      * exists p. split; [reflexivity|]. eapply replace_first_length, E.
      * exists pre. auto.
  - rewrite (perform_column o m m' n H P Hw).
    destruct o; try (exists pre; auto; fail); try congruence; exfalso; eapply N3; reflexivity.
Qed.

Lemma scoped_balanced : forall os, balanced os -> forall m m' n pre post, cm_wf m ->
  performs os m = Some m' -> (forall o, In o os -> scoped n o) ->
  column n m = pre ++ post -> pre <> [] -> Forall (fun x => x = None) post ->
  exists pre', column n m' = pre' ++ post /\ List.length pre' = List.length pre.
Proof.
  intros os HB. induction HB as [|o os N1 N2 N3 HB IH|os os' HB1 IH1 HB2 IH2];
    intros m m' n pre post H E Hs Hc Hne Hpost.
  - cbn in E. inv E. exists pre. auto.
  - cbn [performs] in E. destruct (perform o m) as [m1|] eqn:P; [|discriminate].
    destruct (scoped_step o m m1 n pre post H P N1 N2 N3 (Hs o (or_introl eq_refl)) Hc Hne Hpost)
      as (p1 & Hc1 & Hl1).
    destruct (IH m1 m' n p1 post (perform_wf _ _ _ H P) E (fun o' Ho' => Hs o' (or_intror Ho')) Hc1)
      as (p2 & Hc2 & Hl2); auto.
    + intros ->. destruct pre; cbn in Hl1; [congruence|lia].
    + exists p2. split; [exact Hc2|lia].
  - cbn [performs perform] in E.
    set (mp := push_context_new m) in *.
    assert (Hp : cm_wf mp) by (apply wf_push, H).
    assert (Hcp : column n mp = (None :: pre) ++ post).
    { cbn. rewrite <- Hc. apply (perform_column OPush m mp n H eq_refl). discriminate. }
    rewrite performs_app in E. destruct (performs os mp) as [m1|] eqn:E1; [|discriminate].
    assert (H1 : cm_wf m1) by (eapply performs_wf; eassumption).
    destruct (IH1 mp m1 n (None :: pre) post Hp E1) as (p1 & Hc1 & Hl1); auto.
    { intros o Ho. apply Hs. right. apply in_or_app. left. exact Ho. }
    { discriminate. }
    cbn [performs] in E. destruct (perform OPop m1) as [m2|] eqn:P2; [|discriminate].
    assert (H2 : cm_wf m2) by (eapply perform_wf; eassumption).
    assert (Hc2 : column n m2 = tl p1 ++ post).
    { rewrite (perform_column OPop m1 m2 n H1 P2) by discriminate. rewrite Hc1.
      destruct p1; [cbn in Hl1; lia|reflexivity]. }
    destruct (IH2 m2 m' n (tl p1) post H2 E) as (p2 & Hc3 & Hl3); auto.
    { intros o Ho. apply Hs. right. apply in_or_app. right. right. exact Ho. }
    { destruct p1 as [|x [|y p1]]; cbn in *; try lia; [|discriminate].
      destruct pre; [congruence|cbn in Hl1; lia]. }
    exists p2. split; [exact Hc3|]. destruct p1; cbn in *; lia.
Qed.

(** ** Functions *)

Definition fwrites (o : op) : option str :=
  match o with
  | ODefine n _ | OExportFunction n _ => Some n
  | OUnsetFunction n => match namespaced n with Some (_, x) => Some x | None => Some n end
  | _ => None
  end.

Lemma fcell_update : forall l c m l' y,
  (ctx_get_function y c = ctx_get_function y (deref l m)) ->
  ctx_get_function y (deref l' (update l c m)) = ctx_get_function y (deref l' m).
Proof.
  intros l c m l' y Hy.
  destruct (Nat.lt_ge_cases l (List.length (heap m))) as [Hl|Hl].
  - rewrite deref_update by exact Hl.
    destruct (Nat.eqb_spec l' l) as [->|]; auto.
  - unfold deref, update, hget. cbn [heap].
    replace (hset l c (heap m)) with (heap m); [reflexivity|].
    clear Hy. generalize (heap m), Hl. clear Hl. intros h. revert l.
    induction h as [|x h IH]; intros [|l] Hl; cbn in *; try lia; auto.
    f_equal. apply IH. lia.
Qed.

Lemma fcell_update_opt : forall l c m m' l' y,
  update_opt l c m = Some m' ->
  (forall c', c = Some c' -> ctx_get_function y c' = ctx_get_function y (deref l m)) ->
  ctx_get_function y (deref l' m') = ctx_get_function y (deref l' m).
Proof.
  intros l [c|] m m' l' y E H; cbn in E; [|discriminate]. inv E. apply fcell_update. auto.
Qed.
Lemma ctx_set_functions : forall ro set c c' y, ctx_set ro set c = Some c' ->
  ctx_get_function y c' = ctx_get_function y c.
Proof.
  intros ro set c c' y E. rewrite ctx_set_spec in E. destruct (unsettable set); [discriminate|].
  inv E. reflexivity.
Qed.
Lemma ctx_mark_functions : forall n c c' y, ctx_mark_readonly n c = Some c' ->
  ctx_get_function y c' = ctx_get_function y c.
Proof.
  intros n c c' y E. unfold ctx_mark_readonly in E. destruct (ctx_get_var n c); [|discriminate].
  inv E. reflexivity.
Qed.
Lemma ctx_add_function_neq : forall n b c y, y <> n ->
  ctx_get_function y (ctx_add_function n b c) = ctx_get_function y c.
Proof.
  intros n b c y H. unfold ctx_add_function, ctx_get_function. destruct (existsb _ _); [reflexivity|].
  cbn. apply sget_sinsert_neq. auto.
Qed.
Lemma ctx_remove_function_neq : forall n c y, y <> n ->
  ctx_get_function y (ctx_remove_function n c) = ctx_get_function y c.
Proof. intros n c y H. unfold ctx_get_function, ctx_remove_function. cbn. apply sget_sremove_neq. auto. Qed.

Lemma perform_fcells : forall o m m' y l, cm_wf m -> perform o m = Some m' ->
  fwrites o <> Some y -> l < List.length (heap m) ->
  ctx_get_function y (deref l m') = ctx_get_function y (deref l m).
Proof.
  intros o m m' y l H E Hw Hl. destruct o; cbn [perform fwrites] in *.
  - unfold add_var in E.
    destruct (innermost _ m) as [k|].
    + destruct (ctx_get_var _ (deref k m)) as [[v [|]]|]; [inv E; reflexivity| |];
      (eapply fcell_update_opt; [exact E|]; intros c' Hc'; eapply ctx_set_functions; eassumption).
    + eapply fcell_update_opt; [exact E|]. intros c' Hc'. eapply ctx_set_functions; eassumption.
  - unfold add_var_pos in E. destruct (nth_error _ _); [|discriminate].
    eapply fcell_update_opt; [exact E|]. intros c' Hc'. eapply ctx_set_functions; eassumption.
  - unfold add_var_readonly in E. destruct (namespaced set) as [[ns x]|].
    + destruct (get_context_by_name ns m); [|inv E; reflexivity].
      eapply fcell_update_opt; [exact E|]. intros c' Hc'. eapply ctx_set_functions; eassumption.
    + eapply fcell_update_opt; [exact E|]. intros c' Hc'. eapply ctx_set_functions; eassumption.
  - unfold set_var_readonly in E. destruct (namespaced n) as [[ns x]|].
    + destruct (get_context_by_name ns m); [|inv E; reflexivity].
      eapply fcell_update_opt; [exact E|]. intros c' Hc'. eapply ctx_mark_functions; eassumption.
    + eapply fcell_update_opt; [exact E|]. intros c' Hc'. eapply ctx_mark_functions; eassumption.
  - inv E. unfold remove_var. destruct (namespaced n) as [[ns x]|].
    + destruct (get_context_by_name ns m); [|reflexivity]. apply fcell_update. reflexivity.
    + destruct (innermost _ m); [|reflexivity]. apply fcell_update. reflexivity.
  - inv E. unfold remove_function. destruct (namespaced n) as [[ns x]|].
    + destruct (get_context_by_name ns m); [|reflexivity]. apply fcell_update.
      apply ctx_remove_function_neq. congruence.
    + destruct (innermost _ m); [|reflexivity]. apply fcell_update.
      apply ctx_remove_function_neq. congruence.
  - inv E. unfold add_function. apply fcell_update. apply ctx_add_function_neq. congruence.
  - inv E. apply fcell_update. apply ctx_add_function_neq. congruence.
  - inv E. unfold deref, push_context_new, hget. cbn [heap]. rewrite app_nth1 by exact Hl. reflexivity.
  - destruct (pop_split m m' H E) as (_ & Hh & _). unfold deref. rewrite Hh. reflexivity.
  - destruct (pop_context m) as [m1|] eqn:P; [|discriminate]. inv E.
    destruct (pop_split m m1 H P) as (_ & Hh & _). unfold deref. cbn [heap add_context].
    rewrite Hh. reflexivity.
  - inv E. reflexivity.
  - inv E. reflexivity.
Qed.

Lemma perform_definitions : forall o m m' y, cm_wf m -> perform o m = Some m' ->
  fwrites o <> Some y ->
  definitions y m' = match o with
                | OPush => None :: definitions y m
                | OPop | OPopExport _ => tl (definitions y m)
                | _ => definitions y m
                end.
Proof.
  intros o m m' y H E Hw.
  assert (HC : forall l, In l (stack m) ->
    ctx_get_function y (deref l m') = ctx_get_function y (deref l m)).
  { intros l Hl. eapply perform_fcells; eauto. apply stack_lt; auto. }
  pose proof (perform_stack o m m' H E) as HS. unfold definitions.
  assert (HK : stack m' = stack m ->
    map (fun l => ctx_get_function y (deref l m')) (rev (stack m')) =
    map (fun l => ctx_get_function y (deref l m)) (rev (stack m))).
  { intros ->. apply map_ext_in. intros l Hl. apply HC. apply in_rev, Hl. }
  assert (HP : rev (stack m) = get_context m :: rev (stack m') ->
    map (fun l => ctx_get_function y (deref l m')) (rev (stack m')) =
    tl (map (fun l => ctx_get_function y (deref l m)) (rev (stack m)))).
  { intros Hr. rewrite Hr. cbn [map tl]. apply map_ext_in. intros l Hl. apply HC.
    apply in_rev. rewrite Hr. right. exact Hl. }
  destruct o; auto.
  rewrite HS, rev_app_distr. cbn [rev app map].
  cbn [perform] in E. inv E. f_equal.
  - unfold deref, push_context_new, hget. cbn [heap]. rewrite app_nth2 by lia.
    rewrite Nat.sub_diag. reflexivity.
  - apply map_ext_in. intros l Hl. apply HC. apply in_rev, Hl.
Qed.

Lemma first_some_find : forall {A B} (F : A -> option B) l,
  first_some (map F l) =
  match find (fun x => match F x with Some _ => true | None => false end) l with
  | Some x => F x
  | None => None
  end.
Proof.
  intros A B F l. induction l as [|a l IH]; cbn; [reflexivity|].
  destruct (F a) eqn:E; [rewrite E; reflexivity|exact IH].
Qed.

Lemma get_function_definitions : forall n m, unqualified n ->
  get_function n m = first_some (definitions n m).
Proof.
  intros n m Hn. apply namespaced_none in Hn. unfold get_function, definitions. rewrite Hn.
  rewrite first_some_find. reflexivity.
Qed.

Lemma replace_first_split : forall {A} (b : option A) l1 x l2,
  Forall (fun y => y = None) l1 -> x <> None ->
  replace_first b (l1 ++ x :: l2) = Some (l1 ++ b :: l2).
Proof.
  intros A b l1 x l2 H Hx. induction H as [|y l1 Hy H IH]; cbn.
  - destruct x; [reflexivity|congruence].
  - subst y. rewrite IH. reflexivity.
Qed.
Lemma replace_first_none : forall {A} (b : option A) l,
  Forall (fun y => y = None) l -> replace_first b l = None.
Proof. intros A b l H. induction H as [|y l Hy H IH]; cbn; [reflexivity|]. subst y. rewrite IH. reflexivity. Qed.

Lemma no_functions : forall n m s, Forall (fun y => has_function n (deref y m) = false) s ->
  Forall (fun y => y = None) (map (fun l => ctx_get_function n (deref l m)) s).
Proof.
  intros n m s H. apply Forall_map. eapply Forall_impl; [|exact H].
  intros y Hy. cbn in Hy. unfold has_function in Hy.
  destruct (ctx_get_function n (deref y m)); [discriminate|reflexivity].
Qed.

Lemma ctx_add_function_eq : forall n b c, readonly_functions c = [] ->
  ctx_get_function n (ctx_add_function n b c) = Some b.
Proof.
  intros n b c H. unfold ctx_add_function. rewrite H. cbn. unfold ctx_get_function. cbn.
  rewrite str_eqb_refl. reflexivity.
Qed.

Lemma add_function_definitions : forall n b m, cm_wf m ->
  definitions n (add_function n b m) = define b (definitions n m).
Proof.
  intros n b m H. unfold add_function, define.
  destruct (innermost (has_function n) m) as [l|] eqn:E.
  - destruct (innermost_split _ _ _ E) as (s1 & s2 & Hs & HF & Hl).
    unfold definitions.
    rewrite (map_update_split (ctx_get_function n) m s1 l s2 _ H Hs), Hs, map_app. cbn [map].
    rewrite replace_first_split; [|apply no_functions, HF|].
    + rewrite ctx_add_function_eq; [reflexivity|]. apply deref_functions, H.
    + unfold has_function in Hl. intros E'. rewrite E' in Hl. discriminate.
  - apply innermost_none in E. apply no_functions in E.
    destruct (get_context_head m H) as [s Hs].
    unfold definitions.
    rewrite (map_update_split (ctx_get_function n) m [] (get_context m) s _ H Hs).
    rewrite (replace_first_none _ _ E), Hs. cbn [map app].
    rewrite ctx_add_function_eq; [reflexivity|]. apply deref_functions, H.
Qed.

Lemma remove_function_definitions : forall n m, cm_wf m -> unqualified n ->
  definitions n (remove_function n m) =
  match replace_first None (definitions n m) with Some d => d | None => definitions n m end.
Proof.
  intros n m H Hn. apply namespaced_none in Hn. unfold remove_function. rewrite Hn.
  destruct (innermost (has_function n) m) as [l|] eqn:E.
  - destruct (innermost_split _ _ _ E) as (s1 & s2 & Hs & HF & Hl).
    unfold definitions.
    rewrite (map_update_split (ctx_get_function n) m s1 l s2 _ H Hs), Hs, map_app. cbn [map].
    rewrite replace_first_split; [|apply no_functions, HF|].
    + unfold ctx_get_function at 2. unfold ctx_remove_function. cbn [functions].
      rewrite sget_sremove_eq. reflexivity.
    + unfold has_function in Hl. intros E'. rewrite E' in Hl. discriminate.
  - apply innermost_none in E. apply no_functions in E.
    unfold definitions. rewrite (replace_first_none _ _ E). reflexivity.
Qed.

(** ** Function calls *)

Lemma upto_app : forall c a b, contains_char c a = false -> upto c (a ++ c :: b) = a.
Proof.
  intros c a b. induction a as [|x a IH]; cbn; [rewrite N.eqb_refl; reflexivity|].
  rewrite (N.eqb_sym c x). destruct (N.eqb x c); cbn; [discriminate|]. intros H. rewrite IH; auto.
Qed.
Lemma past_app : forall c a b, contains_char c a = false -> past c (a ++ c :: b) = b.
Proof.
  intros c a b. induction a as [|x a IH]; cbn; [rewrite N.eqb_refl; reflexivity|].
  rewrite (N.eqb_sym c x). destruct (N.eqb x c); cbn; [discriminate|]. intros H. rewrite IH; auto.
Qed.

Lemma cut_at_In : forall s, ~ In (ch ":") s -> cut_at s = None.
Proof.
  apply (two_step_ind (fun s => ~ In (ch ":") s -> cut_at s = None)); [reflexivity|reflexivity|].
  intros x y r IH _ Hn. rewrite cut_at_eq.
  destruct (N.eqb x (ch ":")) eqn:E.
  - apply N.eqb_eq in E. exfalso. apply Hn. left. exact E.
  - cbn [andb]. rewrite IH; [reflexivity|]. intros Hin. apply Hn. right. exact Hin.
Qed.

(** The string assigned for parameter [i]. *)
Definition param (i : N) (a : str) : str := N_to_str i ++ lit "=" ++ a.

Lemma N_to_str_notIn : forall i c, ~ (48 <= c <= 57)%N -> ~ In c (N_to_str i).
Proof.
  intros i c Hc Hin. pose proof (GrammarFacts.uint_digits_is_digit (N.to_uint i)) as HF.
  rewrite Forall_forall in HF. apply Hc, HF, Hin.
Qed.
Lemma N_to_str_no_eq : forall i, contains_char (ch "=") (N_to_str i) = false.
Proof. intros i. apply contains_char_notIn. apply N_to_str_notIn. cbn. lia. Qed.
Lemma N_to_str_unqualified : forall i, unqualified (N_to_str i).
Proof. intros i. apply cut_at_In. apply N_to_str_notIn. cbn. lia. Qed.
Lemma N_to_str_inj : forall i j, N_to_str i = N_to_str j -> i = j.
Proof.
  intros i j H. pose proof (GrammarFacts.N_to_str_value i) as Hi. rewrite H in Hi.
  rewrite GrammarFacts.N_to_str_value in Hi. congruence.
Qed.
Lemma param_target : forall i a, target (param i a) = N_to_str i.
Proof. intros i a. unfold target, param. apply upto_app, N_to_str_no_eq. Qed.
Lemma param_assigned : forall i a, assigned (param i a) = unquote (upto (ch "=") a).
Proof.
  intros i a. unfold assigned, param. change (lit "=" ++ a) with (ch "=" :: a).
  rewrite past_app by apply N_to_str_no_eq. reflexivity.
Qed.

(** Entering a call as a history of operations. *)
Fixpoint params (i : N) (args : list str) : list op :=
  match args with
  | [] => []
  | a :: args' => if str_eqb a (lit "&") then [] else OAssign (param i a) :: params (i + 1) args'
  end.
Lemma bind_args_performs : forall args i m, bind_args i args m = performs (params i args) m.
Proof.
  induction args as [|a args IH]; intros i m; cbn [bind_args params]; [reflexivity|].
  destruct (str_eqb a (lit "&")); [reflexivity|]. cbn [performs perform]. unfold param.
  destruct (add_var _ m); [apply IH|reflexivity].
Qed.
Definition entry (name : str) (args : list str) : list op :=
  OPush :: OAssign (param 0 name) :: params 1 args.
Lemma enter_performs : forall name args m, enter_function name args m = performs (entry name args) m.
Proof.
  intros name args m. unfold enter_function, entry. cbn [performs perform].
  change (lit "0=" ++ name) with (param 0 name).
  destruct (add_var _ _); [apply bind_args_performs|reflexivity].
Qed.

Lemma params_writes : forall args i o, In o (params i args) ->
  exists j, (i <= j < i + N.of_nat (List.length args))%N /\ writes o = Some (N_to_str j).
Proof.
  induction args as [|a args IH]; intros i o Hin; cbn [params] in Hin; [contradiction|].
  destruct (str_eqb a (lit "&")); [contradiction|]. destruct Hin as [<-|Hin].
  - exists i. split; [cbn [List.length]; lia|]. cbn. rewrite param_target. reflexivity.
  - destruct (IH _ _ Hin) as (j & Hj & Hw). exists j. split; [cbn [List.length]; lia|exact Hw].
Qed.

Lemma params_scoped : forall args i n o, In o (params i args) -> scoped n o.
Proof.
  induction args as [|a args IH]; intros i n o Hin; cbn [params] in Hin; [contradiction|].
  destruct (str_eqb a (lit "&")); [contradiction|]. destruct Hin as [<-|Hin]; [|eauto].
  intros _. exact I.
Qed.
Lemma params_balanced : forall args i, balanced (params i args).
Proof.
  induction args as [|a args IH]; intros i; cbn [params]; [constructor|].
  destruct (str_eqb a (lit "&")); [constructor|].
  apply bal_step; [discriminate|discriminate|discriminate|apply IH].
Qed.

Lemma get_var_of_column : forall n m b, cm_wf m -> unqualified n ->
  first_some (column n m) = Some b -> get_var n m = Some (Var (fst b) (snd b)).
Proof.
  intros n m [v r] H Hn Hf. pose proof (get_var_column n m H Hn) as HG. rewrite Hf in HG.
  apply binding_of_inj. rewrite HG. reflexivity.
Qed.
Lemma not_readonly_column : forall n m, cm_wf m -> unqualified n ->
  (forall v, get_var n m <> Some (Var v true)) ->
  forall v, first_some (column n m) <> Some (v, true).
Proof. intros n m H Hn Hr v E. apply (get_var_of_column n m _ H Hn) in E. exact (Hr v E). Qed.

Lemma assign_reads : forall set m m', cm_wf m -> perform (OAssign set) m = Some m' ->
  (forall v, first_some (column (target set) m) <> Some (v, true)) ->
  first_some (column (target set) m') = Some (assigned set, false).
Proof.
  intros set m m' H P Hr. rewrite (assign_column set m m' H P).
  pose proof (column_nonempty (target set) m H) as Hne.
  destruct (first_some (column (target set) m)) as [[v [|]]|] eqn:E.
  - exfalso. apply (Hr v). reflexivity.
  - apply first_some_bound, Hne.
  - apply first_some_bound, Hne.
Qed.

Lemma performs_keeps : forall os y, balanced os -> (forall o, In o os -> writes o <> Some y) ->
  forall m m', cm_wf m -> performs os m = Some m' -> column y m' = column y m.
Proof. intros. eapply performs_column_balanced; eassumption. Qed.

Lemma params_reads : forall args i k a m m', cm_wf m ->
  performs (params i args) m = Some m' -> Forall (fun x => x <> lit "&") args ->
  nth_error args k = Some a ->
  (forall v, first_some (column (N_to_str (i + N.of_nat k)) m) <> Some (v, true)) ->
  first_some (column (N_to_str (i + N.of_nat k)) m') = Some (unquote (upto (ch "=") a), false).
Proof.
  induction args as [|x args IH]; intros i k a m m' H E HF Hk Hr; [destruct k; discriminate|].
  inv HF. cbn [params] in E. rewrite (proj2 (str_eqb_neq x (lit "&")) H2) in E.
  cbn [performs] in E. destruct (perform (OAssign (param i x)) m) as [m1|] eqn:P; [|discriminate].
  pose proof (perform_wf _ _ _ H P) as H1.
  destruct k as [|k]; cbn in Hk.
  - inv Hk. rewrite N.add_0_r in *.
    rewrite (performs_keeps (params (i + 1) args) (N_to_str i) (params_balanced _ _)) with (m := m1); auto.
    + rewrite <- (param_target i a), <- (param_assigned i a). apply assign_reads with (m := m); auto.
      rewrite param_target. exact Hr.
    + intros o Ho. destruct (params_writes _ _ _ Ho) as (j & Hj & ->). intros Hc.
      assert (Hj' : N_to_str j = N_to_str i) by congruence. apply N_to_str_inj in Hj'. lia.
  - replace (i + N.of_nat (S k))%N with (i + 1 + N.of_nat k)%N in * by lia.
    eapply IH; eauto. intros v. rewrite (perform_column (OAssign (param i x)) m m1); auto.
    cbn [writes]. rewrite param_target. intros Hc.
    assert (Hj' : N_to_str i = N_to_str (i + 1 + N.of_nat k)) by congruence.
    apply N_to_str_inj in Hj'. lia.
Qed.

Lemma entry_head : forall name args m m', cm_wf m -> performs (entry name args) m = Some m' ->
  exists m0, perform (OAssign (param 0 name)) (push_context_new m) = Some m0 /\ cm_wf m0 /\
    performs (params 1 args) m0 = Some m'.
Proof.
  intros name args m m' H E. cbn [entry performs] in E. cbn [perform] in E.
  destruct (add_var (param 0 name) (push_context_new m)) as [m0|] eqn:P; [|discriminate].
  exists m0. split; [exact P|]. split; [|exact E].
  eapply (perform_wf (OAssign (param 0 name))); [|exact P]. apply wf_push, H.
Qed.

Lemma push_column : forall y m, cm_wf m -> column y (push_context_new m) = None :: column y m.
Proof. intros y m H. apply (perform_column OPush m _ y H eq_refl). discriminate. Qed.
