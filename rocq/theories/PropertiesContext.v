(** Properties C24-C32: variables, scopes, namespaces, functions, PATH. *)
From Verif Require Import Base BaseFacts Ast Context ContextSpec ContextFacts ContextLaws.

(** A small state used in the examples: two scopes; [A] is bound in both, [0] in
    the inner one. *)
Definition ex_state : cmgr :=
  Cmgr [Context [(lit "A", Var (lit "out") false); (lit "PATH", Var (lit "/bin:/usr/bin") false)] [] [];
        Context [(lit "A", Var (lit "in") false); (lit "0", Var (lit "rsh") false)] [] []]
       [0; 1] [].
Lemma ex_state_wf : cm_wf ex_state.
Proof.
  constructor; cbn.
  - discriminate.
  - repeat constructor; cbn; intuition discriminate.
  - repeat constructor.
  - constructor.
  - repeat constructor.
Qed.

(** ** C24 *)

(** Any history of unqualified operations behaves like the stack of maps: it
    crashes exactly when the specification says so, and otherwise every read
    gives what the specification gives. *)
Theorem C24_stack_of_maps : forall os m, cm_wf m -> Forall plain_op os ->
  match performs os m, meanings os (env_of m) with
  | Some m', Some e =>
      cm_wf m' /\ same_env (env_of m') e /\
      forall n, unqualified n -> option_map binding_of (get_var n m') = lookup n e
  | None, None => True
  | _, _ => False
  end.
Proof.
  intros os m H HF. pose proof (performs_meanings os m H HF) as HR.
  destruct (performs os m) as [m'|] eqn:E, (meanings os (env_of m)) as [e|]; cbn in HR; auto.
  pose proof (performs_wf _ _ _ H E) as H'.
  split; [exact H'|]. split; [exact HR|]. intros n Hn.
  rewrite lookup_get_var by assumption. apply lookup_same, HR.
Qed.

(** Read after write. *)
Theorem C24_read_after_assign : forall set m m', cm_wf m -> unqualified (target set) ->
  perform (OAssign set) m = Some m' ->
  (exists v, get_var (target set) m = Some (Var v true) /\ m' = m) \/
  (get_var (target set) m' = Some (Var (assigned set) false)).
Proof.
  intros set m m' H Hq P.
  destruct (get_var (target set) m) as [[v [|]]|] eqn:G.
  - left. exists v. split; [reflexivity|].
    pose proof (get_var_column _ _ H Hq) as HG. rewrite G in HG. cbn in HG.
    cbn [perform] in P. unfold add_var in P. rewrite set_name_target in P.
    unfold get_var in G. rewrite (proj2 (namespaced_none _) Hq) in G.
    destruct (innermost _ m); [|discriminate]. rewrite G in P. congruence.
  - right. apply (get_var_of_column _ _ (assigned set, false)); [eapply perform_wf; eassumption|exact Hq|].
    apply assign_reads with (m := m); auto. apply not_readonly_column; auto. congruence.
  - right. apply (get_var_of_column _ _ (assigned set, false)); [eapply perform_wf; eassumption|exact Hq|].
    apply assign_reads with (m := m); auto. apply not_readonly_column; auto. congruence.
Qed.

(** No operation changes what is seen for another name (leaving a scope is the
    only operation that may hide names it does not mention). *)
Theorem C24_other_names : forall o m m' y, cm_wf m -> perform o m = Some m' ->
  o <> OPop -> (forall ns, o <> OPopExport ns) -> writes o <> Some y -> unqualified y ->
  get_var y m' = get_var y m.
Proof.
  intros o m m' y H P N1 N2 Hw Hy. apply binding_of_inj.
  rewrite !get_var_column; auto; [|eapply perform_wf; eassumption].
  rewrite (perform_column o m m' y H P Hw).
  destruct o; try reflexivity; try congruence; exfalso; eapply N2; reflexivity.
Qed.

Example C24_example :
  let os := [OAssign (lit "A=new"); OPush; OAssign (lit "B='x y'"); OReadonly (lit "A");
             OAssign (lit "A=lost"); OUnset (lit "B"); OPop; OAssignAt 0 (lit "A=global")] in
  Forall plain_op os /\
  exists m', performs os ex_state = Some m' /\
    get_var (lit "A") m' = Some (Var (lit "new") true) /\ get_var (lit "B") m' = None.
Proof.
  split; [repeat constructor|]. eexists. split; [vm_compute; reflexivity|].
  split; vm_compute; reflexivity.
Qed.

(** ** C25 *)

(** A read-only variable keeps its value and its mark, and stays the one that is
    read, through every history that does not redeclare, export or unset it, for
    as long as its scope exists.  In particular plain assignments, in the same
    or in inner scopes, never change or shadow it. *)
Theorem C25_readonly_kept_partial : forall os m m' n v inner outer, cm_wf m -> unqualified n ->
  column n m = inner ++ Some (v, true) :: outer -> Forall (fun x => x = None) inner ->
  (forall o, In o os -> ~ overrides n o) ->
  keeps_scope (List.length outer) (List.length (stack m)) os ->
  performs os m = Some m' ->
  get_var n m' = Some (Var v true).
Proof.
  intros os m m' n v inner outer H Hn Hc Hin Hno Hk E.
  destruct (readonly_column_kept os m m' n v inner outer H Hc Hin Hno Hk E) as (inner' & Hc' & Hin').
  apply (get_var_of_column n m' (v, true)); [eapply performs_wf; eassumption|exact Hn|].
  rewrite Hc', first_some_app_none by exact Hin'. reflexivity.
Qed.

(** [export N=w], [readonly N=w] and [unset N] do change a read-only variable. *)
Theorem C25_readonly_refuted : forall n v w m,
  cm_wf m -> n <> [] -> (forall c, In c n -> is_digit c = false /\ c <> ch "=" /\ c <> ch ":") ->
  (forall c, In c w -> c <> ch "=" /\ c <> ch ":") -> unquote w = w ->
  column n m = [Some (v, true)] ->
  (exists m', perform (OAssignAt 0 (n ++ lit "=" ++ w)) m = Some m' /\ get_var n m' = Some (Var w false)) /\
  (exists m', perform (OReadonlyAssign (n ++ lit "=" ++ w)) m = Some m' /\ get_var n m' = Some (Var w true)) /\
  (exists m', perform (OUnset n) m = Some m' /\ get_var n m' = None).
Proof.
  intros n v w m H Hne Hn Hw Hq Hc.
  set (set := n ++ lit "=" ++ w).
  assert (Hneq : contains_char (ch "=") n = false).
  { apply contains_char_notIn. intros Hin. apply Hn in Hin. tauto. }
  assert (Hweq : contains_char (ch "=") w = false).
  { apply contains_char_notIn. intros Hin. apply Hw in Hin. tauto. }
  assert (Ht : target set = n) by (apply upto_app, Hneq).
  assert (Ha : assigned set = w).
  { unfold assigned, set. change (lit "=" ++ w) with (ch "=" :: w).
    rewrite past_app by exact Hneq. rewrite upto_notIn by exact Hweq. exact Hq. }
  assert (Hun : unqualified n).
  { apply cut_at_In. intros Hin. apply Hn in Hin. tauto. }
  assert (Hset : unqualified set).
  { apply cut_at_In. unfold set. rewrite !in_app_iff. intros [Hin|[Hin|Hin]].
    - apply Hn in Hin. tauto.
    - cbn in Hin. destruct Hin as [Hin|[]]. discriminate.
    - apply Hw in Hin. tauto. }
  assert (Hs : unsettable set = false).
  { unfold set. destruct n as [|c n]; [congruence|]. cbn.
    destruct (Hn c (or_introl eq_refl)) as [-> _]. reflexivity. }
  assert (Hlen : List.length (stack m) = 1).
  { rewrite <- (column_length n m), Hc. reflexivity. }
  destruct (stack m) as [|l [|l' s]] eqn:Est; cbn in Hlen; try lia.
  assert (Hl : l < List.length (heap m)) by (apply stack_lt; [exact H|rewrite Est; left; reflexivity]).
  split; [|split].
  - cbn [perform]. unfold add_var_pos. rewrite Est. cbn [nth_error]. rewrite ctx_set_spec, Hs.
    eexists. split; [reflexivity|].
    apply (get_var_of_column n _ (w, false)); [apply wf_update; [exact H|]|exact Hun|].
    + cbn. apply deref_functions, H.
    + rewrite Ht, Ha. unfold column. cbn [stack update]. rewrite Est. cbn [rev app map].
      rewrite deref_update, Nat.eqb_refl by exact Hl.
      unfold ctx_get_var, ctx_put_var. cbn. rewrite str_eqb_refl. reflexivity.
  - pose proof (perform_meaning (OReadonlyAssign set) m H Hset) as HM.
    destruct (perform (OReadonlyAssign set) m) as [m'|] eqn:P; cbn [meaning] in HM; rewrite Hs in HM;
      [|contradiction].
    exists m'. split; [reflexivity|].
    apply (get_var_of_column n _ (w, true)); [eapply perform_wf; eassumption|exact Hun|].
    pose proof (readonly_assign_column set m m' H Hset P) as HC. rewrite Ht, Ha, Hc in HC.
    rewrite HC. reflexivity.
  - eexists. split; [reflexivity|].
    assert (HC : column n (remove_var n m) = [None]) by (rewrite unset_column, Hc by assumption; reflexivity).
    pose proof (get_var_column n (remove_var n m)) as HG.
    rewrite HC in HG. apply binding_of_inj. apply HG; [|exact Hun].
    apply (perform_wf (OUnset n) m _ H eq_refl).
Qed.

Example C25_example :
  let m := Cmgr [Context [(lit "R", Var (lit "1") true)] [] []] [0] [] in
  cm_wf m /\ column (lit "R") m = [Some (lit "1", true)] /\
  exists m', performs [OPush; OAssign (lit "R=2"); OPop; OAssign (lit "R=3")] m = Some m' /\
    get_var (lit "R") m' = Some (Var (lit "1") true) /\
    keeps_scope 0 1 [OPush; OAssign (lit "R=2"); OPop; OAssign (lit "R=3")].
Proof.
  split; [|split; [reflexivity|]].
  - constructor; cbn; [discriminate|repeat constructor; intros []|repeat constructor|constructor|repeat constructor].
  - eexists. split; [vm_compute; reflexivity|]. split; [vm_compute; reflexivity|]. cbn. lia.
Qed.

(** ** C26 *)

(** A scope is pushed, used by any balanced history, and popped.  (1) Every
    variable of every scope of the caller that the history does not write is as
    before.  (2) A name that had no binding, and that the history binds only
    through the scope search, has no binding again. *)
Theorem C26_scope_exit : forall os m m', cm_wf m -> balanced os ->
  performs (OPush :: os ++ [OPop]) m = Some m' ->
  stack m' = stack m /\
  (forall y, (forall o, In o os -> writes o <> Some y) -> column y m' = column y m) /\
  (forall n, unqualified n -> get_var n m = None -> (forall o, In o os -> scoped n o) ->
     get_var n m' = None).
Proof.
  intros os m m' H HB E.
  assert (HB' : balanced (OPush :: os ++ [OPop])) by (apply bal_scope; [exact HB|constructor]).
  split; [|split].
  - (* the stack *)
    assert (HG : forall os, balanced os -> forall m m', cm_wf m -> performs os m = Some m' -> stack m' = stack m).
    { clear. intros os HB. induction HB as [|o os N1 N2 N3 HB IH|os os' HB1 IH1 HB2 IH2]; intros m m' H E.
      - cbn in E. inv E. reflexivity.
      - cbn [performs] in E. destruct (perform o m) as [m1|] eqn:P; [|discriminate].
        rewrite (IH m1 m' (perform_wf _ _ _ H P) E).
        pose proof (perform_stack o m m1 H P) as HS.
        destruct o; try exact HS; try congruence; exfalso; eapply N3; reflexivity.
      - cbn [performs perform] in E. rewrite performs_app in E.
        pose proof (wf_push m H) as Hp.
        destruct (performs os (push_context_new m)) as [m1|] eqn:E1; [|discriminate].
        pose proof (performs_wf _ _ _ Hp E1) as H1. pose proof (IH1 _ _ Hp E1) as HS1.
        cbn [performs] in E. destruct (perform OPop m1) as [m2|] eqn:P; [|discriminate].
        rewrite (IH2 m2 m' (perform_wf _ _ _ H1 P) E).
        pose proof (perform_stack OPop m1 m2 H1 P) as HS. cbn in HS. rewrite HS1 in HS. cbn in HS.
        rewrite rev_app_distr in HS. cbn in HS. inv HS.
        apply (f_equal (@rev nat)) in H3. rewrite !rev_involutive in H3. auto. }
    eapply HG; eassumption.
  - intros y Hy. eapply performs_column_balanced; try eassumption.
    intros o [<-|Ho]; [discriminate|]. apply in_app_or in Ho. destruct Ho as [Ho|[<-|[]]]; [auto|discriminate].
  - intros n Hn G Hs.
    pose proof (get_var_column n m H Hn) as HG. rewrite G in HG. cbn in HG.
    assert (HN : Forall (fun x => x = None) (column n m)).
    { symmetry in HG. clear -HG. induction (column n m) as [|[x|] l IH]; cbn in HG; [constructor|discriminate|].
      constructor; auto. }
    cbn [performs perform] in E. rewrite performs_app in E.
    pose proof (wf_push m H) as Hp.
    destruct (performs os (push_context_new m)) as [m1|] eqn:E1; [|discriminate].
    pose proof (performs_wf _ _ _ Hp E1) as H1.
    destruct (scoped_balanced os HB (push_context_new m) m1 n [None] (column n m) Hp E1 Hs)
      as (pre & Hpre & Hl); auto.
    { rewrite push_column by exact H. reflexivity. }
    { discriminate. }
    cbn [performs] in E. destruct (perform OPop m1) as [m2|] eqn:P; [|discriminate]. inv E.
    pose proof (get_var_column n m' (perform_wf _ _ _ H1 P) Hn) as HG'.
    rewrite (perform_column OPop m1 m' n H1 P) in HG' by discriminate.
    rewrite Hpre in HG'. destruct pre as [|x [|y pre]]; cbn in Hl; try lia. cbn in HG'.
    rewrite <- (app_nil_r (column n m)), first_some_app_none in HG' by exact HN. cbn in HG'.
    destruct (get_var n m'); [discriminate|reflexivity].
Qed.

Example C26_example :
  balanced [OAssign (lit "N=1"); OPush; OAssign (lit "A=2"); OPop] /\
  exists m', performs (OPush :: [OAssign (lit "N=1"); OPush; OAssign (lit "A=2"); OPop] ++ [OPop]) ex_state
             = Some m' /\ get_var (lit "N") m' = None /\ get_var (lit "A") m' = Some (Var (lit "2") false).
Proof.
  split.
  - apply bal_step; [discriminate|discriminate|discriminate|].
    apply (bal_scope [OAssign (lit "A=2")] []); [|constructor].
    apply bal_step; [discriminate|discriminate|discriminate|constructor].
  - eexists. split; [vm_compute; reflexivity|]. split; vm_compute; reflexivity.
Qed.

(** ** C27 *)

(** Inside the call, each parameter reads as its argument (cut at its first
    ['='] and without surrounding quotes), unless a scope of the caller has made
    a variable of that name read-only. *)
Theorem C27_arguments_bound_partial : forall name args m m', cm_wf m ->
  enter_function name args m = Some m' -> Forall (fun a => a <> lit "&") args ->
  ((forall v, get_var (lit "0") m <> Some (Var v true)) ->
   get_var (lit "0") m' = Some (Var (unquote (upto (ch "=") name)) false)) /\
  (forall k a, nth_error args k = Some a ->
   (forall v, get_var (N_to_str (1 + N.of_nat k)) m <> Some (Var v true)) ->
   get_var (N_to_str (1 + N.of_nat k)) m' = Some (Var (unquote (upto (ch "=") a)) false)).
Proof.
  intros name args m m' H E HF. rewrite enter_performs in E.
  destruct (entry_head name args m m' H E) as (m0 & P0 & H0 & E0).
  pose proof (wf_push m H) as Hp.
  assert (H' : cm_wf m') by exact (performs_wf _ _ _ H E).
  split.
  - intros Hr. change (lit "0") with (N_to_str 0) in *.
    apply (get_var_of_column _ _ (unquote (upto (ch "=") name), false)); auto.
    { apply N_to_str_unqualified. }
    rewrite (performs_keeps (params 1 args) (N_to_str 0) (params_balanced _ _)) with (m := m0); auto.
    + rewrite <- (param_target 0 name), <- (param_assigned 0 name). apply (assign_reads (param 0 name) (push_context_new m)); auto.
      rewrite param_target, push_column by exact H. cbn [first_some].
      apply not_readonly_column; auto. apply N_to_str_unqualified.
    + intros o Ho. destruct (params_writes _ _ _ Ho) as (j & Hj & ->). intros Hc.
      assert (Hj' : N_to_str j = N_to_str 0) by congruence. apply N_to_str_inj in Hj'. lia.
  - intros k a Hk Hr.
    apply (get_var_of_column _ _ (unquote (upto (ch "=") a), false)); auto.
    { apply N_to_str_unqualified. }
    apply (params_reads args 1 k a m0 m' H0 E0 HF Hk).
    rewrite (perform_column _ _ _ (N_to_str (1 + N.of_nat k)) Hp P0).
    + rewrite push_column by exact H. cbn [first_some].
      apply not_readonly_column; auto. apply N_to_str_unqualified.
    + cbn [writes]. rewrite param_target. intros Hc.
      assert (Hj' : N_to_str 0 = N_to_str (1 + N.of_nat k)) by congruence. apply N_to_str_inj in Hj'. lia.
Qed.

(** If no scope of the caller binds [$0] ... [$k], then after the call (whatever
    balanced work its body does on other variables) every variable of the caller
    is as before. *)
Theorem C27_arguments_local_partial : forall name args body m m1 m2 m', cm_wf m ->
  enter_function name args m = Some m1 ->
  balanced body -> performs body m1 = Some m2 -> pop_context m2 = Some m' ->
  (forall i, (i <= N.of_nat (List.length args))%N -> get_var (N_to_str i) m = None) ->
  (forall y, (forall o, In o body -> writes o <> Some y) ->
     unqualified y -> get_var y m' = get_var y m).
Proof.
  intros name args body m m1 m2 m' H E HB Eb Ep Hfree y Hy Hq.
  rewrite enter_performs in E.
  assert (Hall : performs (OPush :: (OAssign (param 0 name) :: params 1 args ++ body) ++ [OPop]) m = Some m').
  { change (OPush :: (OAssign (param 0 name) :: params 1 args ++ body) ++ [OPop])
      with (OPush :: OAssign (param 0 name) :: (params 1 args ++ body) ++ [OPop]).
    rewrite <- app_assoc.
    change (OPush :: OAssign (param 0 name) :: params 1 args ++ body ++ [OPop])
      with (entry name args ++ body ++ [OPop]).
    rewrite performs_app, E, performs_app, Eb. cbn. rewrite Ep. reflexivity. }
  assert (HBa : forall a b, balanced a -> balanced b -> balanced (a ++ b)).
  { intros a b Ha. revert b. induction Ha as [|o os N1 N2 N3 Ha IH|os os' Ha IH1 Hb IH2]; intros b Hbb; cbn.
    - exact Hbb.
    - apply bal_step; auto.
    - rewrite <- app_assoc. cbn. apply bal_scope; auto. }
  destruct (C26_scope_exit (OAssign (param 0 name) :: params 1 args ++ body) m m' H) as (_ & HK & HN); auto.
  { apply bal_step; [discriminate|discriminate|discriminate|]. apply HBa; [apply params_balanced|exact HB]. }
  destruct (existsb (fun i => str_eqb y (N_to_str (N.of_nat i))) (List.seq 0 (S (List.length args)))) eqn:Ex.
  - apply existsb_exists in Ex. destruct Ex as (i & Hi & Hyi). apply in_seq in Hi.
    apply str_eqb_eq in Hyi. subst y.
    rewrite Hfree by lia. apply HN; [exact Hq|apply Hfree; lia|].
    intros o [<-|Ho]; [intros _; exact I|]. apply in_app_or in Ho. destruct Ho as [Ho|Ho].
    + eapply params_scoped, Ho.
    + intros Hc. exfalso. exact (Hy o Ho Hc).
  - apply binding_of_inj. rewrite !get_var_column; auto; [|eapply performs_wf; eassumption].
    rewrite HK; [reflexivity|].
    assert (Hni : forall j, (j < 1 + N.of_nat (List.length args))%N -> Some (N_to_str j) <> Some y).
    { intros j Hj Hc. inv Hc. revert Ex. apply not_false_iff_true, existsb_exists.
      exists (N.to_nat j). split; [apply in_seq; lia|]. rewrite N2Nat.id. apply str_eqb_refl. }
    intros o [<-|Ho].
    + cbn [writes]. rewrite param_target. apply Hni. lia.
    + apply in_app_or in Ho. destruct Ho as [Ho|Ho]; [|apply Hy, Ho].
      destruct (params_writes _ _ _ Ho) as (j & Hj & ->). apply Hni. lia.
Qed.

(** But the start-up code binds [$0] (main.rs:52), and then every call destroys
    it: after the call the caller's [$0] is the function's name. *)
Theorem C27_arguments_local_refuted : forall name args m m1 m' v, cm_wf m ->
  get_var (lit "0") m = Some (Var v false) ->
  enter_function name args m = Some m1 -> pop_context m1 = Some m' ->
  get_var (lit "0") m' = Some (Var (unquote (upto (ch "=") name)) false).
Proof.
  intros name args m m1 m' v H G E Ep. rewrite enter_performs in E.
  destruct (entry_head name args m m1 H E) as (m0 & P0 & H0 & E0).
  pose proof (wf_push m H) as Hp. change (lit "0") with (N_to_str 0) in *.
  assert (H1 : cm_wf m1) by exact (performs_wf _ _ _ H E).
  pose proof (N_to_str_unqualified 0) as Hq.
  assert (Hk : column (N_to_str 0) m1 = column (N_to_str 0) m0).
  { apply (performs_keeps (params 1 args) (N_to_str 0) (params_balanced _ _)); auto.
    intros o Ho. destruct (params_writes _ _ _ Ho) as (j & Hj & ->). intros Hc.
    assert (Hj' : N_to_str j = N_to_str 0) by congruence. apply N_to_str_inj in Hj'. lia. }
  pose proof (assign_column _ _ _ Hp P0) as HA. rewrite param_target, param_assigned, push_column in HA by exact H.
  cbn [first_some] in HA.
  pose proof (get_var_column (N_to_str 0) m H Hq) as HG. rewrite G in HG. cbn [option_map binding_of value is_readonly] in HG.
  rewrite <- HG in HA.
  set (b := (unquote (upto (ch "=") name), false)) in *.
  assert (HB : bound (Some b) (None :: column (N_to_str 0) m) = None :: bound (Some b) (column (N_to_str 0) m)).
  { unfold bound. cbn [replace_first].
    destruct (replace_first (Some b) (column (N_to_str 0) m)) as [c|] eqn:R; [reflexivity|].
    exfalso. symmetry in HG. clear -HG R. induction (column (N_to_str 0) m) as [|[x|] l IH]; cbn in *; try discriminate.
    destruct (replace_first (Some b) l); [discriminate|]. auto. }
  apply (get_var_of_column _ _ b); [eapply (perform_wf OPop); eassumption|exact Hq|].
  rewrite (perform_column OPop m1 m' (N_to_str 0) H1 Ep) by discriminate.
  rewrite Hk, HA, HB. cbn [tl]. apply first_some_bound, column_nonempty, H.
Qed.

Example C27_example : exists m1 m',
  enter_function (lit "f") [lit "one"; lit "two"] ex_state = Some m1 /\
  get_var (lit "2") m1 = Some (Var (lit "two") false) /\
  pop_context m1 = Some m' /\
  get_var (lit "0") ex_state = Some (Var (lit "rsh") false) /\
  get_var (lit "0") m' = Some (Var (lit "f") false) /\ get_var (lit "2") m' = None.
Proof.
  eexists. eexists. split; [vm_compute; reflexivity|].
  repeat split; vm_compute; reflexivity.
Qed.

(** ** C28 *)

(** An unqualified read does not look at the exported namespaces at all. *)
Theorem C28_unqualified_reads : forall n m ex, unqualified n ->
  get_var n m = get_var n (Cmgr (heap m) (stack m) ex) /\
  get_function n m = get_function n (Cmgr (heap m) (stack m) ex) /\
  is_function n m = is_function n (Cmgr (heap m) (stack m) ex).
Proof.
  intros n m ex Hn. apply namespaced_none in Hn.
  unfold get_var, get_function, is_function. rewrite Hn. auto.
Qed.

(** [ns::x] is read in the scope exported under [ns]: two states with the same
    such scope agree on it, and without such a scope the read fails. *)
Theorem C28_qualified_reads : forall n ns x m, qualified n ns x ->
  match sget ns (exported m) with
  | None => get_var n m = None /\ get_function n m = None /\ is_function n m = false
  | Some l =>
      (forall m' l', sget ns (exported m') = Some l' -> deref l' m' = deref l m ->
         get_var n m' = get_var n m /\ get_function n m' = get_function n m) /\
      get_var n m = sget x (vars (deref l m)) /\
      get_function n m = sget x (functions (deref l m))
  end.
Proof.
  intros n ns x m Hn. apply namespaced_some in Hn.
  unfold get_var, get_function, is_function, get_context_by_name. rewrite Hn.
  destruct (sget ns (exported m)) as [l|]; [|auto].
  split; [|split; reflexivity]. intros m' l' Hl' Hd. rewrite Hl', Hd. auto.
Qed.

(** Exporting the current scope makes its variables readable under the new
    namespace, exactly them, and changes no unqualified read and no other
    namespace. *)
Theorem C28_export : forall ns m, cm_wf m ->
  exists m', perform (OExport ns) m = Some m' /\
  (forall n x, qualified n ns x -> get_var n m' = sget x (vars (deref (get_context m) m))) /\
  (forall n, unqualified n -> get_var n m' = get_var n m) /\
  (forall n ns' x, ns' <> ns -> qualified n ns' x -> get_var n m' = get_var n m).
Proof.
  intros ns m H. eexists. split; [reflexivity|]. split; [|split].
  - intros n x Hn. apply namespaced_some in Hn. unfold get_var. rewrite Hn.
    unfold get_context_by_name, add_context. cbn [exported]. rewrite sget_sinsert_eq. reflexivity.
  - intros n Hn. symmetry. apply (C28_unqualified_reads n m (exported (add_context ns (get_context m) m)) Hn).
  - intros n ns' x Hne Hn. apply namespaced_some in Hn. unfold get_var. rewrite Hn.
    unfold get_context_by_name, add_context. cbn [exported]. rewrite sget_sinsert_neq by congruence. reflexivity.
Qed.

(** Leaving a scope under a namespace ([export context ns=file]) gives exactly the
    variables of that scope. *)
Theorem C28_pop_export : forall ns m m', cm_wf m -> perform (OPopExport ns) m = Some m' ->
  (forall n x, qualified n ns x -> get_var n m' = sget x (vars (deref (get_context m) m))) /\
  (forall n ns' x, ns' <> ns -> qualified n ns' x -> get_var n m' = get_var n m).
Proof.
  intros ns m m' H E. cbn [perform] in E.
  destruct (pop_context m) as [m1|] eqn:P; [|discriminate]. inv E.
  destruct (pop_split m m1 H P) as (_ & Hh & He & _).
  split.
  - intros n x Hn. apply namespaced_some in Hn. unfold get_var. rewrite Hn.
    unfold get_context_by_name, add_context, deref. cbn [exported heap]. rewrite sget_sinsert_eq, Hh. reflexivity.
  - intros n ns' x Hne Hn. apply namespaced_some in Hn. unfold get_var. rewrite Hn.
    unfold get_context_by_name, add_context, deref. cbn [exported heap].
    rewrite sget_sinsert_neq by congruence. rewrite He, Hh. reflexivity.
Qed.

(** [unset -C ns] makes every [ns::x] unreadable and nothing else. *)
Theorem C28_unexport : forall ns m,
  exists m', perform (OUnexport ns) m = Some m' /\
  (forall n x, qualified n ns x -> get_var n m' = None) /\
  (forall n, unqualified n -> get_var n m' = get_var n m) /\
  (forall n ns' x, ns' <> ns -> qualified n ns' x -> get_var n m' = get_var n m).
Proof.
  intros ns m. eexists. split; [reflexivity|]. split; [|split].
  - intros n x Hn. apply namespaced_some in Hn. unfold get_var. rewrite Hn.
    unfold get_context_by_name, remove_context. cbn [exported]. rewrite sget_sremove_eq. reflexivity.
  - intros n Hn. symmetry. apply (C28_unqualified_reads n m (exported (remove_context ns m)) Hn).
  - intros n ns' x Hne Hn. apply namespaced_some in Hn. unfold get_var. rewrite Hn.
    unfold get_context_by_name, remove_context. cbn [exported]. rewrite sget_sremove_neq by congruence. reflexivity.
Qed.

Example C28_example :
  qualified (lit "ns::A") (lit "ns") (lit "A") /\ unqualified (lit "A") /\
  exists m', performs [OExport (lit "ns"); OPop] ex_state = Some m' /\
    get_var (lit "ns::A") m' = Some (Var (lit "in") false) /\
    get_var (lit "A") m' = Some (Var (lit "out") false) /\
    get_var (lit "other::A") m' = None.
Proof.
  split; [eexists; split; reflexivity|]. split; [reflexivity|].
  eexists. split; [vm_compute; reflexivity|]. repeat split; vm_compute; reflexivity.
Qed.

(** ** C29 *)

(** The bindings of a name, innermost first. *)
Definition bindings (n : str) (m : cmgr) : list binding :=
  flat_map (fun b => match b with Some x => [x] | None => [] end) (column n m).

Theorem C29_unset_innermost : forall n m, cm_wf m -> unqualified n ->
  option_map binding_of (get_var n m) = hd_error (bindings n m) /\
  bindings n (remove_var n m) = tl (bindings n m) /\
  option_map binding_of (get_var n (remove_var n m)) = hd_error (tl (bindings n m)) /\
  (forall y l, y <> n -> l < List.length (heap m) ->
     ctx_get_var y (deref l (remove_var n m)) = ctx_get_var y (deref l m)) /\
  (forall f l, l < List.length (heap m) ->
     ctx_get_function f (deref l (remove_var n m)) = ctx_get_function f (deref l m)) /\
  stack (remove_var n m) = stack m /\ exported (remove_var n m) = exported m.
Proof.
  intros n m H Hn.
  assert (HF : forall c : list (option binding),
    first_some c = hd_error (flat_map (fun b => match b with Some x => [x] | None => [] end) c)).
  { induction c as [|[x|] c IH]; cbn; auto. }
  pose proof (perform_wf (OUnset n) m _ H eq_refl) as H'.
  assert (HB : bindings n (remove_var n m) = tl (bindings n m)).
  { unfold bindings. rewrite unset_column by assumption. clear.
    induction (column n m) as [|[x|] c IH]; cbn; [reflexivity|reflexivity|].
    destruct (replace_first None c); cbn in *; exact IH. }
  split; [rewrite get_var_column by assumption; apply HF|].
  split; [exact HB|]. split; [|split; [|split; [|split]]].
  - rewrite get_var_column by assumption. rewrite HF. fold (bindings n (remove_var n m)). rewrite HB. reflexivity.
  - intros y l Hy Hl. apply (perform_cells (OUnset n) m _ y l H eq_refl); [|exact Hl].
    cbn [writes]. rewrite (proj2 (namespaced_none n) Hn). congruence.
  - intros f l Hl. apply (perform_fcells (OUnset n) m _ f l H eq_refl); [|exact Hl]. discriminate.
  - exact (perform_stack (OUnset n) m _ H eq_refl).
  - unfold remove_var. rewrite (proj2 (namespaced_none n) Hn).
    destruct (innermost _ m); reflexivity.
Qed.

Example C29_example : bindings (lit "A") ex_state = [(lit "in", false); (lit "out", false)] /\
  get_var (lit "A") (remove_var (lit "A") ex_state) = Some (Var (lit "out") false).
Proof. split; vm_compute; reflexivity. Qed.

(** ** C30 *)

Theorem C30_function_table : forall n b m, cm_wf m -> unqualified n ->
  get_function n m = first_some (definitions n m) /\
  definitions n (add_function n b m) = define b (definitions n m) /\
  get_function n (add_function n b m) = Some b /\
  definitions n (remove_function n m) =
    match replace_first None (definitions n m) with Some d => d | None => definitions n m end /\
  (forall y, y <> n -> definitions y (add_function n b m) = definitions y m /\
                       definitions y (remove_function n m) = definitions y m) /\
  (forall v, get_var v (add_function n b m) = get_var v m /\ get_var v (remove_function n m) = get_var v m).
Proof.
  intros n b m H Hn.
  pose proof (perform_wf (ODefine n b) m _ H eq_refl) as Hd.
  pose proof (perform_wf (OUnsetFunction n) m _ H eq_refl) as Hu.
  split; [apply get_function_definitions, Hn|].
  split; [apply add_function_definitions, H|].
  split.
  { rewrite get_function_definitions by exact Hn. rewrite add_function_definitions by exact H.
    apply (first_some_bound b (definitions n m)).
    intros E. apply map_eq_nil in E. apply (wf_nonempty m H).
    rewrite <- (rev_involutive (stack m)), E. reflexivity. }
  split; [apply remove_function_definitions; assumption|].
  split.
  - intros y Hy. split.
    + apply (perform_definitions (ODefine n b) m _ y H eq_refl). cbn. congruence.
    + apply (perform_definitions (OUnsetFunction n) m _ y H eq_refl). cbn [fwrites].
      rewrite (proj2 (namespaced_none n) Hn). congruence.
  - assert (HG : forall o m', perform o m = Some m' -> writes o = None -> stack m' = stack m ->
               exported m' = exported m -> forall v, get_var v m' = get_var v m).
    { intros o m' P Hw Hs He v. unfold get_var. destruct (namespaced v) as [[ns x]|].
      - unfold get_context_by_name. rewrite He. destruct (sget ns (exported m)) as [l|] eqn:G; [|reflexivity].
        eapply perform_cells; eauto; [congruence|]. eapply exported_lt; eauto.
      - assert (HC : forall l, In l (rev (stack m)) -> ctx_get_var v (deref l m') = ctx_get_var v (deref l m)).
        { intros l Hl. eapply perform_cells; eauto; [congruence|]. apply stack_lt; auto. apply in_rev, Hl. }
        unfold innermost, has_var. rewrite Hs. revert HC. generalize (rev (stack m)). clear.
        intros s HC. induction s as [|l s IH]; cbn; [reflexivity|].
        rewrite (HC l (or_introl eq_refl)).
        destruct (ctx_get_var v (deref l m)) eqn:G; [rewrite (HC l (or_introl eq_refl)); congruence|].
        apply IH. intros l' Hl'. apply HC. right. exact Hl'. }
    intros v. split.
    + apply (HG (ODefine n b) _ eq_refl eq_refl); reflexivity.
    + apply (HG (OUnsetFunction n) _ eq_refl eq_refl); unfold remove_function;
        rewrite (proj2 (namespaced_none n) Hn); destruct (innermost _ m); reflexivity.
Qed.

Theorem C30_is_function : forall n m, is_function n m = true <-> get_function n m <> None.
Proof.
  intros n m. unfold is_function, get_function. destruct (namespaced n) as [[ns x]|].
  - destruct (get_context_by_name ns m) as [l|]; [|split; [discriminate|congruence]].
    unfold has_function. destruct (ctx_get_function x (deref l m)); split; congruence.
  - destruct (innermost (has_function n) m) as [l|] eqn:E; [|split; [discriminate|congruence]].
    apply innermost_In in E. destruct E as [_ E]. unfold has_function in E.
    destruct (ctx_get_function n (deref l m)); [|discriminate]. split; congruence.
Qed.

Example C30_example : let b := FunctionBody [] None in
  get_function (lit "f") (add_function (lit "f") b ex_state) = Some b /\
  definitions (lit "f") (add_function (lit "f") b ex_state) = [Some b; None] /\
  is_function (lit "g") (add_function (lit "f") b ex_state) = false.
Proof. repeat split. Qed.

(** ** C31 *)

(** The global scope stays at the bottom of the stack through every history, and
    popping it is refused. *)
Theorem C31_global_scope : forall os m m', cm_wf m -> performs os m = Some m' ->
  stack m' <> [] /\ get_env_context m' = get_env_context m /\
  (List.length (stack m') = 1 <-> perform OPop m' = None).
Proof.
  intros os m m' H E.
  assert (Hpop : forall m, cm_wf m -> (List.length (stack m) = 1 <-> perform OPop m = None)).
  { intros x Hx. cbn. unfold pop_context. destruct (Nat.eqb_spec (List.length (stack x)) 1); split; congruence. }
  assert (Hbot : forall os m m', cm_wf m -> performs os m = Some m' -> get_env_context m' = get_env_context m).
  { clear. induction os as [|o os IH]; intros m m' H E; cbn in E; [inv E; reflexivity|].
    destruct (perform o m) as [m1|] eqn:P; [|discriminate].
    rewrite (IH m1 m' (perform_wf _ _ _ H P) E).
    pose proof (perform_stack o m m1 H P) as HS. unfold get_env_context.
    pose proof (wf_nonempty m H) as Hn. pose proof (wf_nonempty m1 (perform_wf _ _ _ H P)) as Hn1.
    assert (HR : rev (stack m) = get_context m :: rev (stack m1) -> hd 0 (stack m1) = hd 0 (stack m)).
    { intros HR. apply (f_equal (@rev nat)) in HR. cbn in HR. rewrite !rev_involutive in HR. rewrite HR.
      destruct (stack m1); [congruence|]. reflexivity. }
    destruct o; try (rewrite HS; reflexivity); auto.
    rewrite HS. destruct (stack m); [congruence|]. reflexivity. }
  pose proof (performs_wf _ _ _ H E) as H'.
  split; [apply (wf_nonempty m' H')|]. split; [eapply Hbot; eassumption|]. apply Hpop, H'.
Qed.

Example C31_example : performs [OPush; OPop; OPop; OPop] ex_state = None /\
  exists m', performs [OPush; OPop; OPop] ex_state = Some m'.
Proof. split; [reflexivity|]. eexists. reflexivity. Qed.

(** ** C32 *)

(** [ds] are the entries of the PATH value [p]. *)
Definition path_entries (p : str) (ds : list str) : Prop :=
  p = join (lit ":") ds /\ ds <> [] /\ Forall (fun d => ~ In (ch ":") d) ds.
(** PATH is read in the outermost scope. *)
Definition path_value (m : cmgr) : option str :=
  option_map value (ctx_get_var (lit "PATH") (deref (get_env_context m) m)).

Lemma split_char_of_join : forall c ds, ds <> [] -> Forall (fun d => ~ In c d) ds ->
  split_char c (join [c] ds) = ds.
Proof.
  intros c ds Hne HF. induction HF as [|d ds Hd HF IH]; [congruence|].
  destruct ds as [|d' ds].
  - cbn. apply split_char_none, Hd.
  - change (join [c] (d :: d' :: ds)) with (d ++ c :: join [c] (d' :: ds)).
    rewrite split_char_app by exact Hd. rewrite IH by discriminate. reflexivity.
Qed.

Lemma entries_split : forall p ds, path_entries p ds <-> ds = split_char (ch ":") p.
Proof.
  intros p ds. split.
  - intros (-> & Hne & HF). symmetry. apply split_char_of_join; assumption.
  - intros ->. split; [symmetry; apply split_char_join|]. split; [apply split_char_nonempty|].
    apply split_char_pieces.
Qed.

Theorem C32_lookup_found : forall isfile cmd m q,
  lookup_command isfile cmd m = Some (Some q) <->
  exists p pre d post, path_value m = Some p /\ path_entries p (pre ++ d :: post) /\
    q = d ++ lit "/" ++ cmd /\ isfile q = true /\
    Forall (fun d' => isfile (d' ++ lit "/" ++ cmd) = false) pre.
Proof.
  intros isfile cmd m q. unfold lookup_command, path_value.
  destruct (ctx_get_var _ _) as [v|]; cbn [option_map].
  - split.
    + intros E. injection E as E. destruct (find_split _ _ _ E) as (l1 & l2 & Hs & HF & Hq).
      apply map_eq_app in Hs. destruct Hs as (pre & rest & Hds & <- & Hr).
      apply map_eq_cons in Hr. destruct Hr as (d & post & -> & <- & <-).
      exists (value v), pre, d, post.
      split; [reflexivity|]. split; [apply entries_split; symmetry; exact Hds|].
      split; [reflexivity|]. split; [exact Hq|]. rewrite Forall_map in HF. exact HF.
    + intros (p & pre & d & post & Hp & He & -> & Hq & HF). injection Hp as <-.
      apply entries_split in He. rewrite <- He. f_equal. clear He.
      induction HF as [|x pre Hx HF IH]; cbn [app map find]; [rewrite Hq; reflexivity|].
      rewrite Hx. apply IH.
  - split; [discriminate|]. intros (p & pre & d & post & Hp & _). discriminate.
Qed.

Theorem C32_lookup_not_found : forall isfile cmd m,
  lookup_command isfile cmd m = Some None <->
  exists p ds, path_value m = Some p /\ path_entries p ds /\
    Forall (fun d => isfile (d ++ lit "/" ++ cmd) = false) ds.
Proof.
  intros isfile cmd m. unfold lookup_command, path_value.
  destruct (ctx_get_var _ _) as [v|]; cbn [option_map].
  - split.
    + intros E. injection E as E. exists (value v), (split_char (ch ":") (value v)).
      split; [reflexivity|]. split; [apply entries_split; reflexivity|].
      apply Forall_forall. intros d Hd. eapply find_none in E; [exact E|].
      apply (in_map (fun d => d ++ lit "/" ++ cmd)), Hd.
    + intros (p & ds & Hp & He & HF). injection Hp as <-. apply entries_split in He. subst ds.
      f_equal. induction HF as [|x ds Hx HF IH]; cbn [map find]; [reflexivity|].
      rewrite Hx. exact IH.
  - split; [discriminate|]. intros (p & ds & Hp & _). discriminate.
Qed.

(** The remaining case: without a PATH in the outermost scope the shell panics. *)
Theorem C32_lookup_panics : forall isfile cmd m,
  lookup_command isfile cmd m = None <-> path_value m = None.
Proof.
  intros isfile cmd m. unfold lookup_command, path_value.
  destruct (ctx_get_var _ _); cbn; split; congruence.
Qed.

Example C32_example :
  let isfile p := str_eqb p (lit "/usr/bin/ls") || str_eqb p (lit "/bin/cat") in
  path_entries (lit "/bin:/usr/bin") [lit "/bin"; lit "/usr/bin"] /\
  lookup_command isfile (lit "ls") ex_state = Some (Some (lit "/usr/bin/ls")) /\
  lookup_command isfile (lit "cat") ex_state = Some (Some (lit "/bin/cat")) /\
  lookup_command isfile (lit "vi") ex_state = Some None.
Proof. split; [apply entries_split; reflexivity|]. repeat split; vm_compute; reflexivity. Qed.

(** ** C61 *)

(** [n=v] stores [v] (without one pair of surrounding quotes) when [v] contains no
    ['=']. *)
Theorem C61_whole_value_partial : forall n v m m', cm_wf m -> unqualified n ->
  ~ In (ch "=") n -> ~ In (ch "=") v ->
  (forall w, get_var n m <> Some (Var w true)) ->
  add_var (n ++ lit "=" ++ v) m = Some m' ->
  get_var n m' = Some (Var (unquote v) false).
Proof.
  intros n v m m' H Hq Hn Hv Hr P.
  assert (Ht : target (n ++ lit "=" ++ v) = n).
  { apply upto_app. apply contains_char_notIn, Hn. }
  assert (Ha : assigned (n ++ lit "=" ++ v) = unquote v).
  { unfold assigned. change (lit "=" ++ v) with (ch "=" :: v).
    rewrite past_app by (apply contains_char_notIn, Hn).
    rewrite upto_notIn by (apply contains_char_notIn, Hv). reflexivity. }
  destruct (C24_read_after_assign (n ++ lit "=" ++ v) m m' H) as [(w & Hw & _)|HG].
  - rewrite Ht. exact Hq.
  - exact P.
  - exfalso. apply (Hr w). rewrite <- Ht at 1. exact Hw.
  - rewrite Ht, Ha in HG. exact HG.
Qed.

(** When [v] is [a=b], only [a] is stored. *)
Theorem C61_whole_value_refuted : forall n a b m m', cm_wf m -> unqualified n ->
  ~ In (ch "=") n -> ~ In (ch "=") a ->
  (forall w, get_var n m <> Some (Var w true)) ->
  add_var (n ++ lit "=" ++ a ++ lit "=" ++ b) m = Some m' ->
  get_var n m' = Some (Var (unquote a) false).
Proof.
  intros n a b m m' H Hq Hn Ha' Hr P.
  set (v := a ++ lit "=" ++ b) in *.
  assert (Ht : target (n ++ lit "=" ++ v) = n).
  { apply upto_app. apply contains_char_notIn, Hn. }
  assert (Ha : assigned (n ++ lit "=" ++ v) = unquote a).
  { unfold assigned. change (lit "=" ++ v) with (ch "=" :: v).
    rewrite past_app by (apply contains_char_notIn, Hn).
    unfold v. change (lit "=" ++ b) with (ch "=" :: b).
    rewrite upto_app by (apply contains_char_notIn, Ha'). reflexivity. }
  destruct (C24_read_after_assign (n ++ lit "=" ++ v) m m' H) as [(w & Hw & _)|HG].
  - rewrite Ht. exact Hq.
  - exact P.
  - exfalso. apply (Hr w). rewrite <- Ht at 1. exact Hw.
  - rewrite Ht, Ha in HG. exact HG.
Qed.

Example C61_example : exists m',
  add_var (lit "A='x=y'") ex_state = Some m' /\ get_var (lit "A") m' = Some (Var (lit "'x") false).
Proof. eexists. split; vm_compute; reflexivity. Qed.

(** ** C62 *)

(** Assigning or defining a qualified name never becomes visible under that name:
    the read looks in the namespace, the write does not. *)
Theorem C62_qualified_write_refuted : forall n ns x v b m m', cm_wf m ->
  qualified n ns x -> ~ In (ch "=") n -> sget ns (exported m) = None ->
  add_var (n ++ lit "=" ++ v) m = Some m' ->
  get_var n m' = None /\ get_function n (add_function n b m) = None.
Proof.
  intros n ns x v b m m' H Hq Hn Hns P. apply namespaced_some in Hq.
  assert (He : exported m' = exported m).
  { unfold add_var in P. destruct (innermost _ m).
    - destruct (ctx_get_var _ _) as [[w [|]]|]; [inv P; reflexivity| |];
      (unfold update_opt in P; destruct (ctx_set _ _ _); inv P; reflexivity).
    - unfold update_opt in P; destruct (ctx_set _ _ _); inv P; reflexivity. }
  unfold get_var, get_function, get_context_by_name. rewrite Hq, He.
  unfold add_function, update. cbn [exported]. rewrite Hns. auto.
Qed.

(** An unqualified assignment that is not refused can be read back at once. *)
Theorem C62_read_back_partial : forall n v m m', cm_wf m -> unqualified n -> ~ In (ch "=") n ->
  add_var (n ++ lit "=" ++ v) m = Some m' -> get_var n m' <> None.
Proof.
  intros n v m m' H Hq Hn P.
  assert (Ht : target (n ++ lit "=" ++ v) = n).
  { apply upto_app. apply contains_char_notIn, Hn. }
  destruct (C24_read_after_assign (n ++ lit "=" ++ v) m m' H) as [(w & Hw & ->)|HG].
  - rewrite Ht. exact Hq.
  - exact P.
  - rewrite Ht in Hw. congruence.
  - rewrite Ht in HG. congruence.
Qed.

Example C62_example : exists m', qualified (lit "a::b") (lit "a") (lit "b") /\
  add_var (lit "a::b=1") ex_state = Some m' /\ get_var (lit "a::b") m' = None.
Proof. eexists. split; [eexists; split; reflexivity|]. split; vm_compute; reflexivity. Qed.

(** ** C63 *)

(** At start every variable of the environment is visible with its value and
    writable; PATH and PWD get a default only when the environment lacks them. *)
Theorem C63_startup_environment : forall root cwd ppid pid env, NoDup (map fst env) ->
  let m := cm_default root cwd ppid pid env in
  cm_wf m /\
  (forall n v, In (n, v) env -> unqualified n -> get_var n m = Some (Var v false)) /\
  (~ In (lit "PATH") (map fst env) -> get_var (lit "PATH") m =
     Some (Var (lit "/bin:/usr/local/sbin:/usr/local/bin:/usr/sbin:/usr/bin:/sbin:/bin") false)) /\
  (~ In (lit "PWD") (map fst env) -> get_var (lit "PWD") m = Some (Var cwd false)) /\
  (~ In (lit "PS1") (map fst env) ->
     get_var (lit "PS1") m = Some (Var (if root then lit "# " else lit "$ ") false)).
Proof.
  intros root cwd ppid pid env Hnd m.
  assert (Hget : forall n, unqualified n -> get_var n m = sget n (default_vars root cwd ppid pid env)).
  { intros n Hn. unfold get_var. rewrite (proj2 (namespaced_none n) Hn).
    unfold m, cm_default, innermost, has_var, ctx_get_var, deref, hget. cbn [stack rev app find heap nth vars].
    destruct (sget n (default_vars root cwd ppid pid env)) eqn:E; [exact E|reflexivity]. }
  assert (Hfold : forall (env : smap str) m0 n, NoDup (map fst env) ->
    sget n (fold_left (fun m kv => sinsert (fst kv) (Var (snd kv) false) m) env m0) =
    match sget n env with Some v => Some (Var v false) | None => sget n m0 end).
  { clear. induction env as [|[k v] env IH]; intros m0 n Hnd; [reflexivity|].
    cbn [fold_left fst snd map] in *. inv Hnd. rewrite IH by assumption. cbn [sget].
    rewrite sget_sinsert. destruct (str_eqb_spec n k) as [->|Hne].
    - destruct (sget k env) eqn:G; [|reflexivity]. exfalso. apply H1.
      clear -G. induction env as [|[k' v'] env IH]; [discriminate|]. cbn in *.
      destruct (str_eqb_spec k k') as [->|]; [left; reflexivity|right; apply IH, G].
    - reflexivity. }
  assert (Hin : forall n (v : str) (env : smap str), NoDup (map fst env) -> In (n, v) env -> sget n env = Some v).
  { clear. intros n v env. induction env as [|[k w] env IH]; intros Hnd Hin; [contradiction|].
    cbn in *. inv Hnd. destruct Hin as [Hin|Hin].
    - inv Hin. rewrite str_eqb_refl. reflexivity.
    - destruct (str_eqb_spec n k) as [->|]; [|auto]. exfalso. apply H1. apply (in_map fst) in Hin. exact Hin. }
  assert (Hout : forall n (env : smap str), ~ In n (map fst env) -> sget n env = None).
  { clear. intros n env Hn. induction env as [|[k w] env IH]; [reflexivity|]. cbn in *.
    destruct (str_eqb_spec n k) as [->|]; [exfalso; auto|auto]. }
  split; [|split; [|split; [|split]]].
  - constructor; cbn; [discriminate|repeat constructor; intros []|repeat constructor|constructor|repeat constructor].
  - intros n v Hnv Hn. rewrite Hget by exact Hn. unfold default_vars. rewrite Hfold by exact Hnd.
    rewrite (Hin n v env Hnd Hnv). reflexivity.
  - intros Hn. rewrite Hget by reflexivity. unfold default_vars. rewrite Hfold by exact Hnd.
    rewrite (Hout _ _ Hn). destruct (sget (lit "PWD") env); reflexivity.
  - intros Hn. rewrite Hget by reflexivity. unfold default_vars. rewrite Hfold by exact Hnd.
    rewrite (Hout _ _ Hn). reflexivity.
  - intros Hn. rewrite Hget by reflexivity. unfold default_vars. rewrite Hfold by exact Hnd.
    rewrite (Hout _ _ Hn). reflexivity.
Qed.

Example C63_example :
  let m := cm_default false (lit "/home/u") (lit "1") (lit "2")
             [(lit "PATH", lit "/opt"); (lit "PS1", lit "> ")] in
  get_var (lit "PATH") m = Some (Var (lit "/opt") false) /\
  get_var (lit "PS1") m = Some (Var (lit "> ") false) /\
  get_var (lit "PWD") m = Some (Var (lit "/home/u") false).
Proof. repeat split; vm_compute; reflexivity. Qed.

Print Assumptions C24_stack_of_maps.
Print Assumptions C24_read_after_assign.
Print Assumptions C24_other_names.
Print Assumptions C25_readonly_kept_partial.
Print Assumptions C25_readonly_refuted.
Print Assumptions C26_scope_exit.
Print Assumptions C27_arguments_bound_partial.
Print Assumptions C27_arguments_local_partial.
Print Assumptions C27_arguments_local_refuted.
Print Assumptions C28_unqualified_reads.
Print Assumptions C28_qualified_reads.
Print Assumptions C28_export.
Print Assumptions C28_pop_export.
Print Assumptions C28_unexport.
Print Assumptions C29_unset_innermost.
Print Assumptions C30_function_table.
Print Assumptions C30_is_function.
Print Assumptions C31_global_scope.
Print Assumptions C32_lookup_found.
Print Assumptions C32_lookup_not_found.
Print Assumptions C32_lookup_panics.
Print Assumptions C61_whole_value_partial.
Print Assumptions C61_whole_value_refuted.
Print Assumptions C62_qualified_write_refuted.
Print Assumptions C62_read_back_partial.
Print Assumptions C63_startup_environment.
