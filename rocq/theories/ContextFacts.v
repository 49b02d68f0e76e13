(** Proofs about the model of src/context.rs. *)
From Verif Require Import Base BaseFacts Ast Context ContextSpec.

Ltac inv H := inversion H; subst; clear H.

(** ** Reading assignment strings *)

Lemma split_char_upto : forall c s,
  split_char c s = upto c s :: (if contains_char c s then split_char c (past c s) else []).
Proof.
  intros c s. induction s as [|x s IH]; cbn; [reflexivity|].
  rewrite (N.eqb_sym c x).
  destruct (N.eqb x c) eqn:E; cbn; [reflexivity|].
  unfold contains_char in IH. rewrite IH. reflexivity.
Qed.

Lemma past_notIn : forall c s, contains_char c s = false -> past c s = [].
Proof.
  intros c s. induction s as [|x s IH]; cbn; [reflexivity|].
  rewrite (N.eqb_sym c x).
  destruct (N.eqb x c) eqn:E; cbn; [discriminate|]. exact IH.
Qed.
Lemma upto_notIn : forall c s, contains_char c s = false -> upto c s = s.
Proof.
  intros c s. induction s as [|x s IH]; cbn; [reflexivity|].
  rewrite (N.eqb_sym c x).
  destruct (N.eqb x c) eqn:E; cbn; [discriminate|]. intros H. rewrite IH; auto.
Qed.

Lemma set_name_target : forall set, set_name set = target set.
Proof. intros set. unfold set_name. rewrite split_char_upto. reflexivity. Qed.

Lemma split_set_spec : forall set,
  split_set set = (target set, upto (ch "=") (past (ch "=") set)).
Proof.
  intros set. unfold split_set, target.
  destruct (contains_char (ch "=") set) eqn:E.
  - rewrite split_char_upto, E, split_char_upto. reflexivity.
  - rewrite past_notIn, upto_notIn by exact E. reflexivity.
Qed.

Lemma starts_with_one : forall q s, starts_with [q] s = match s with x :: _ => N.eqb q x | [] => false end.
Proof. intros q [|x s]; cbn; [reflexivity|]. destruct (N.eqb q x); reflexivity. Qed.

Lemma ends_with_one : forall q s,
  ends_with [q] s = match s with [] => false | _ => N.eqb q (last s q) end.
Proof.
  intros q s. unfold ends_with. cbn [rev app].
  rewrite starts_with_one.
  destruct s as [|x s] using rev_ind; [reflexivity|].
  rewrite rev_app_distr. cbn [rev app]. rewrite last_last.
  destruct s; reflexivity.
Qed.

Lemma last_indep : forall {A} (l : list A) d d', l <> [] -> last l d = last l d'.
Proof.
  intros A l d d'. induction l as [|x l IH]; [congruence|]. intros _.
  destruct l as [|y l]; [reflexivity|]. cbn in *. apply IH. discriminate.
Qed.

Lemma trim_quotes_unquote : forall v, trim_quotes v = unquote v.
Proof.
  intros v. unfold trim_quotes, unquote.
  change (lit """") with [ch """"]. change (lit "'") with [ch "'"].
  rewrite !starts_with_one, !ends_with_one.
  destruct v as [|q r]; [reflexivity|].
  rewrite (last_indep (q :: r) (ch """") q), (last_indep (q :: r) (ch "'") q) by discriminate.
  rewrite (N.eqb_sym q (ch """")), (N.eqb_sym q (ch "'")).
  unfold drop_ends. cbn [tl].
  destruct (N.eqb (ch """") q) eqn:E1.
  - apply N.eqb_eq in E1. subst q.
    change (N.eqb (ch "'") (ch """")) with false.
    rewrite (N.eqb_sym (last (ch """" :: r) (ch """"))).
    destruct (N.eqb (ch """") (last (ch """" :: r) (ch """"))); reflexivity.
  - destruct (N.eqb (ch "'") q) eqn:E2; [|reflexivity].
    apply N.eqb_eq in E2. subst q.
    rewrite (N.eqb_sym (last (ch "'" :: r) (ch "'"))).
    destruct (N.eqb (ch "'") (last (ch "'" :: r) (ch "'"))); reflexivity.
Qed.

Lemma digits_value_filter : forall s acc,
  digits_value acc (filter is_digit s) =
  Some (fold_left (fun n c => if is_digit c then 10 * n + (c - 48) else n)%N s acc).
Proof.
  induction s as [|c s IH]; intros acc; cbn; [reflexivity|].
  destruct (is_digit c) eqn:E; [|apply IH].
  cbn. unfold is_digit in E. unfold to_digit in *.
  destruct ((48 <=? c) && (c <=? 57))%N; [|discriminate].
  apply IH.
Qed.

Lemma parse_unsigned_digits : forall max c s, is_digit c = true ->
  parse_unsigned max (c :: s) =
  match digits_value 0 (c :: s) with
  | Some n => if (n <=? max)%N then Some n else None
  | None => None
  end.
Proof.
  intros max c s Hc. unfold parse_unsigned.
  destruct (N.eqb c (ch "+")) eqn:E.
  - apply N.eqb_eq in E. subst c. discriminate.
  - reflexivity.
Qed.

Lemma key_ok_spec : forall set, key_ok set = negb (unsettable set).
Proof.
  intros [|c s]; [reflexivity|]. unfold key_ok, unsettable.
  destruct (is_digit c) eqn:E; [|reflexivity]. cbn [andb].
  unfold parse_usize. cbn [filter]. rewrite E.
  rewrite parse_unsigned_digits by exact E.
  pose proof (digits_value_filter (c :: s) 0) as H. cbn [filter] in H. rewrite E in H.
  rewrite H. unfold digits_of, usize_max.
  set (d := fold_left _ _ _).
  change 0xFFFFFFFFFFFFFFFF%N with 18446744073709551615%N.
  destruct (d <=? 18446744073709551615)%N eqn:L.
  - apply N.leb_le in L.
    destruct (18446744073709551615 <? d)%N eqn:L'; [|reflexivity].
    apply N.ltb_lt in L'. lia.
  - apply N.leb_gt in L.
    destruct (18446744073709551615 <? d)%N eqn:L'; [reflexivity|].
    apply N.ltb_ge in L'. lia.
Qed.

Lemma ctx_set_spec : forall ro set c,
  ctx_set ro set c =
  if unsettable set then None
  else Some (ctx_put_var (target set) (Var (assigned set) ro) c).
Proof.
  intros ro set c. unfold ctx_set. rewrite split_set_spec, key_ok_spec, trim_quotes_unquote.
  destruct (unsettable set); reflexivity.
Qed.

(** ** Qualified names *)

Lemma two_step_ind : forall (P : str -> Prop),
  P [] -> (forall x, P [x]) -> (forall x y r, P (y :: r) -> P r -> P (x :: y :: r)) ->
  forall s, P s.
Proof.
  intros P H0 H1 H2 s. enough (H : P s /\ forall x, P (x :: s)) by tauto.
  induction s as [|y r [IHa IHb]]; [auto|]. split; [apply IHb|].
  intros x. apply H2; auto.
Qed.

Lemma split_dcolon_eq : forall x y r,
  split_dcolon (x :: y :: r) =
  if N.eqb x (ch ":") && N.eqb y (ch ":") then [] :: split_dcolon r
  else match split_dcolon (y :: r) with [] => [[x]] | w :: ws => (x :: w) :: ws end.
Proof. reflexivity. Qed.
Lemma cut_at_eq : forall x y r,
  cut_at (x :: y :: r) =
  if N.eqb x (ch ":") && N.eqb y (ch ":") then Some ([], r)
  else match cut_at (y :: r) with Some (a, b) => Some (x :: a, b) | None => None end.
Proof. reflexivity. Qed.
Lemma contains_str_eq : forall p x s,
  contains_str p (x :: s) = starts_with p (x :: s) || contains_str p s.
Proof. reflexivity. Qed.

Lemma split_dcolon_cut : forall s,
  split_dcolon s = match cut_at s with
                   | Some (a, b) => a :: split_dcolon b
                   | None => [s]
                   end.
Proof.
  apply two_step_ind; [reflexivity|reflexivity|]. intros x y r IH _.
  rewrite split_dcolon_eq, cut_at_eq, IH.
  destruct (N.eqb x (ch ":") && N.eqb y (ch ":")); [reflexivity|].
  destruct (cut_at (y :: r)) as [[a b]|]; reflexivity.
Qed.

Lemma contains_dcolon : forall s,
  contains_str (lit "::") s = match cut_at s with Some _ => true | None => false end.
Proof.
  apply two_step_ind.
  - reflexivity.
  - intros x. cbn. destruct x as [|p]; [reflexivity|]. destruct (Pos.eqb _ p); reflexivity.
  - intros x y r IH _. rewrite contains_str_eq, cut_at_eq, IH.
    change (starts_with (lit "::") (x :: y :: r))
      with (N.eqb (ch ":") x && (N.eqb (ch ":") y && true)).
    rewrite (N.eqb_sym (ch ":") x), (N.eqb_sym (ch ":") y), andb_true_r.
    destruct (N.eqb x (ch ":") && N.eqb y (ch ":")); [reflexivity|].
    destruct (cut_at (y :: r)) as [[a b]|]; reflexivity.
Qed.

Lemma namespaced_none : forall n, namespaced n = None <-> unqualified n.
Proof.
  intros n. unfold namespaced, unqualified. rewrite contains_dcolon, split_dcolon_cut.
  destruct (cut_at n) as [[a b]|]; [|tauto].
  rewrite split_dcolon_cut. destruct (cut_at b) as [[? ?]|]; split; discriminate.
Qed.

Lemma namespaced_some : forall n ns x, namespaced n = Some (ns, x) <-> qualified n ns x.
Proof.
  intros n ns x. unfold namespaced, qualified. rewrite contains_dcolon, split_dcolon_cut.
  destruct (cut_at n) as [[a b]|].
  - rewrite split_dcolon_cut.
    destruct (cut_at b) as [[a' b']|] eqn:E; split.
    + intros H. inv H. exists b. rewrite E. auto.
    + intros (rest & H & ->). inv H. rewrite E. reflexivity.
    + intros H. inv H. exists x. rewrite E. auto.
    + intros (rest & H & ->). inv H. rewrite E. reflexivity.
  - split; [discriminate|]. intros (rest & H & _). discriminate.
Qed.

(** ** The heap *)

Lemma hset_length : forall l c h, List.length (hset l c h) = List.length h.
Proof. induction l as [|l IH]; intros c [|x h]; cbn; auto. Qed.

Lemma hget_hset : forall l l' c h, l < List.length h ->
  hget l' (hset l c h) = if Nat.eqb l' l then c else hget l' h.
Proof.
  unfold hget. induction l as [|l IH]; intros l' c [|x h] Hl; cbn in *; try lia.
  - destruct l'; reflexivity.
  - destruct l' as [|l']; cbn; [reflexivity|]. apply IH. lia.
Qed.

Lemma Forall_hset : forall (P : context -> Prop) l c h,
  Forall P h -> P c -> Forall P (hset l c h).
Proof.
  intros P l c h HF Hc. revert l. induction HF as [|x h Hx HF IH]; intros [|l]; cbn; auto.
Qed.

Lemma deref_update : forall l l' c m, l < List.length (heap m) ->
  deref l' (update l c m) = if Nat.eqb l' l then c else deref l' m.
Proof. intros l l' c m H. unfold deref, update. cbn. apply hget_hset, H. Qed.

Lemma deref_functions : forall l m, cm_wf m -> readonly_functions (deref l m) = [].
Proof.
  intros l m H. unfold deref, hget.
  destruct (nth_in_or_default l (heap m) empty_context) as [Hin| ->]; [|reflexivity].
  pose proof (wf_functions m H) as HF. rewrite Forall_forall in HF. apply HF, Hin.
Qed.

Lemma wf_update : forall l c m, cm_wf m -> readonly_functions c = [] -> cm_wf (update l c m).
Proof.
  intros l c m [A B C D E] Hc. constructor; cbn; auto; try rewrite hset_length; auto.
  apply Forall_hset; auto.
Qed.

Lemma stack_lt : forall m l, cm_wf m -> In l (stack m) -> l < List.length (heap m).
Proof.
  intros m l H Hin. pose proof (wf_stack m H) as HF. rewrite Forall_forall in HF. auto.
Qed.

Lemma exported_lt : forall m ns l, cm_wf m -> get_context_by_name ns m = Some l ->
  l < List.length (heap m).
Proof.
  intros m ns l H Hget. pose proof (wf_exported m H) as HF. rewrite Forall_forall in HF.
  unfold get_context_by_name in Hget.
  assert (Hin : exists k, In (k, l) (exported m)).
  { clear -Hget. induction (exported m) as [|[k v] t IH]; cbn in Hget; [discriminate|].
    destruct (str_eqb ns k).
    - inv Hget. exists k. left. reflexivity.
    - destruct (IH Hget) as [k' Hk']. exists k'. right. exact Hk'. }
  destruct Hin as [k Hk]. apply (HF _ Hk).
Qed.

Lemma innermost_In : forall t m l, innermost t m = Some l ->
  In l (stack m) /\ t (deref l m) = true.
Proof.
  intros t m l H. unfold innermost in H. apply find_some in H. destruct H as [H1 H2].
  rewrite <- in_rev in H1. auto.
Qed.

Lemma get_context_In : forall m, cm_wf m -> In (get_context m) (stack m).
Proof.
  intros m H. unfold get_context. pose proof (wf_nonempty m H) as Hne.
  destruct (exists_last Hne) as (l & a & ->). rewrite last_last.
  apply in_or_app. right. left. reflexivity.
Qed.
Lemma get_env_context_In : forall m, cm_wf m -> In (get_env_context m) (stack m).
Proof.
  intros m H. unfold get_env_context. pose proof (wf_nonempty m H) as Hne.
  destruct (stack m); [congruence|]. left. reflexivity.
Qed.

Lemma ctx_add_function_ro : forall n b c,
  readonly_functions c = [] -> readonly_functions (ctx_add_function n b c) = [].
Proof. intros n b c H. unfold ctx_add_function. rewrite H. reflexivity. Qed.
Lemma ctx_remove_function_ro : forall n c,
  readonly_functions c = [] -> readonly_functions (ctx_remove_function n c) = [].
Proof. intros n c H. cbn. rewrite H. reflexivity. Qed.

Lemma update_opt_wf : forall l c m m', cm_wf m ->
  (forall c', c = Some c' -> readonly_functions c' = []) ->
  update_opt l c m = Some m' -> cm_wf m'.
Proof.
  intros l [c|] m m' H Hc E; cbn in E; [|discriminate]. inv E.
  apply wf_update; auto.
Qed.

Lemma ctx_set_ro : forall b set c c', readonly_functions c = [] ->
  ctx_set b set c = Some c' -> readonly_functions c' = [].
Proof.
  intros b set c c' H E. rewrite ctx_set_spec in E. destruct (unsettable set); [discriminate|].
  inv E. exact H.
Qed.
Lemma ctx_mark_ro : forall n c c', readonly_functions c = [] ->
  ctx_mark_readonly n c = Some c' -> readonly_functions c' = [].
Proof.
  intros n c c' H E. unfold ctx_mark_readonly in E. destruct (ctx_get_var n c); [|discriminate].
  inv E. exact H.
Qed.

Lemma Forall_sremove : forall {V} (P : str * V -> Prop) k m,
  Forall P m -> Forall P (sremove k m).
Proof.
  intros V P k m H. induction H as [|[k' v] m Hx H IH]; cbn; [constructor|].
  destruct (str_eqb k k'); auto.
Qed.
Lemma Forall_sinsert : forall {V} (P : str * V -> Prop) k v m,
  Forall P m -> P (k, v) -> Forall P (sinsert k v m).
Proof. intros V P k v m H Hv. constructor; auto. apply Forall_sremove, H. Qed.

Lemma wf_push : forall m, cm_wf m -> cm_wf (push_context_new m).
Proof.
  intros m [A B C D E]. constructor; cbn.
  - destruct (stack m); discriminate.
  - rewrite Forall_forall in C.
    assert (Hn : ~ In (List.length (heap m)) (stack m)) by (intros Hin; apply C in Hin; lia).
    clear A C D E. induction (stack m) as [|x s IH]; cbn.
    + constructor; [intros []|constructor].
    + inv B. constructor.
      * rewrite in_app_iff. cbn. intros [Hin|[Hin|[]]]; [contradiction|].
        apply Hn. left. symmetry. exact Hin.
      * apply IH; auto. intros Hin. apply Hn. right. exact Hin.
  - rewrite app_length. cbn. apply Forall_app. split.
    + eapply Forall_impl; [|exact C]. cbn. intros; lia.
    + constructor; [lia|constructor].
  - rewrite app_length. cbn. eapply Forall_impl; [|exact D]. cbn. intros; lia.
  - apply Forall_app. split; [exact E|]. constructor; [reflexivity|constructor].
Qed.

Lemma removelast_In : forall {A} (l : list A) x, In x (removelast l) -> In x l.
Proof.
  intros A l x. induction l as [|a l IH]; cbn; [auto|].
  destruct l as [|b l]; [intros []|]. intros [H|H]; [left; exact H|right; apply IH, H].
Qed.
Lemma NoDup_removelast : forall {A} (l : list A), NoDup l -> NoDup (removelast l).
Proof.
  intros A l H. induction H as [|x l Hx H IH]; cbn; [constructor|].
  destruct l as [|b l]; [constructor|]. constructor; [|exact IH].
  intros Hin. apply Hx, removelast_In, Hin.
Qed.

Lemma wf_pop : forall m m', cm_wf m -> pop_context m = Some m' -> cm_wf m'.
Proof.
  intros m m' [A B C D E] H. unfold pop_context in H.
  destruct (Nat.eqb_spec (List.length (stack m)) 1) as [|Hne]; [discriminate|].
  inv H. constructor; cbn; auto.
  - destruct (stack m) as [|x [|y s]]; cbn in *; try congruence.
  - apply NoDup_removelast, B.
  - rewrite Forall_forall in *. intros l Hl. apply C, removelast_In, Hl.
Qed.

Theorem perform_wf : forall o m m', cm_wf m -> perform o m = Some m' -> cm_wf m'.
Proof.
  intros o m m' H E. destruct o; cbn in E.
  - unfold add_var in E.
    destruct (innermost _ m) as [l|] eqn:I.
    + destruct (ctx_get_var _ _) as [[v [|]]|] eqn:G; [inv E; exact H| |];
      (eapply update_opt_wf; [exact H| |exact E]; intros c' Hc';
       eapply ctx_set_ro; [|exact Hc']; apply deref_functions, H).
    + eapply update_opt_wf; [exact H| |exact E]. intros c' Hc'.
      eapply ctx_set_ro; [|exact Hc']. apply deref_functions, H.
  - unfold add_var_pos in E. destruct (nth_error _ _); [|discriminate].
    eapply update_opt_wf; [exact H| |exact E]. intros c' Hc'.
    eapply ctx_set_ro; [|exact Hc']. apply deref_functions, H.
  - unfold add_var_readonly in E. destruct (namespaced set) as [[ns x]|].
    + destruct (get_context_by_name ns m); [|inv E; exact H].
      eapply update_opt_wf; [exact H| |exact E]. intros c' Hc'.
      eapply ctx_set_ro; [|exact Hc']. apply deref_functions, H.
    + eapply update_opt_wf; [exact H| |exact E]. intros c' Hc'.
      eapply ctx_set_ro; [|exact Hc']. apply deref_functions, H.
  - unfold set_var_readonly in E. destruct (namespaced n) as [[ns x]|].
    + destruct (get_context_by_name ns m); [|inv E; exact H].
      eapply update_opt_wf; [exact H| |exact E]. intros c' Hc'.
      eapply ctx_mark_ro; [|exact Hc']. apply deref_functions, H.
    + eapply update_opt_wf; [exact H| |exact E]. intros c' Hc'.
      eapply ctx_mark_ro; [|exact Hc']. apply deref_functions, H.
  - inv E. unfold remove_var. destruct (namespaced n) as [[ns x]|].
    + destruct (get_context_by_name ns m); [|exact H].
      apply wf_update; [exact H|]. apply deref_functions, H.
    + destruct (innermost _ m); [|exact H].
      apply wf_update; [exact H|]. apply deref_functions, H.
  - inv E. unfold remove_function. destruct (namespaced n) as [[ns x]|].
    + destruct (get_context_by_name ns m); [|exact H].
      apply wf_update; [exact H|]. apply ctx_remove_function_ro, deref_functions, H.
    + destruct (innermost _ m); [|exact H].
      apply wf_update; [exact H|]. apply ctx_remove_function_ro, deref_functions, H.
  - inv E. unfold add_function. apply wf_update; [exact H|].
    apply ctx_add_function_ro, deref_functions, H.
  - inv E. apply wf_update; [exact H|].
    apply ctx_add_function_ro, deref_functions, H.
  - inv E. apply wf_push, H.
  - eapply wf_pop; eassumption.
  - destruct (pop_context m) as [m1|] eqn:P; [|discriminate]. inv E.
    pose proof (wf_pop m m1 H P) as [A B C D F].
    constructor; cbn; auto.
    apply Forall_sinsert; [exact D|]. cbn.
    unfold pop_context in P. destruct (_ =? 1)%nat; [discriminate|]. inv P. cbn.
    apply stack_lt; [exact H|]. apply get_context_In, H.
  - inv E. destruct H as [A B C D F]. constructor; cbn; auto.
    apply Forall_sinsert; [exact D|]. cbn.
    apply stack_lt; [constructor; auto|]. apply get_context_In. constructor; auto.
  - inv E. destruct H as [A B C D F]. constructor; cbn; auto.
    apply Forall_sremove, D.
Qed.

Theorem performs_wf : forall os m m', cm_wf m -> performs os m = Some m' -> cm_wf m'.
Proof.
  induction os as [|o os IH]; intros m m' H E; cbn in E; [inv E; exact H|].
  destruct (perform o m) as [m1|] eqn:P; [|discriminate].
  eapply IH; [|exact E]. eapply perform_wf; eassumption.
Qed.

(** ** The stack of maps *)

Lemma find_split : forall {A} (t : A -> bool) l x, find t l = Some x ->
  exists l1 l2, l = l1 ++ x :: l2 /\ Forall (fun y => t y = false) l1 /\ t x = true.
Proof.
  intros A t l x. induction l as [|a l IH]; cbn; [discriminate|].
  destruct (t a) eqn:E.
  - intros H. inv H. exists [], l. auto.
  - intros H. destruct (IH H) as (l1 & l2 & -> & HF & Hx).
    exists (a :: l1), l2. auto.
Qed.

Lemma innermost_split : forall t m l, innermost t m = Some l ->
  exists s1 s2, rev (stack m) = s1 ++ l :: s2 /\
    Forall (fun y => t (deref y m) = false) s1 /\ t (deref l m) = true.
Proof. intros t m l H. apply (find_split (fun l => t (deref l m))). exact H. Qed.

Lemma innermost_none : forall t m, innermost t m = None ->
  Forall (fun y => t (deref y m) = false) (rev (stack m)).
Proof.
  intros t m H. apply Forall_forall. intros y Hy.
  exact (find_none (fun l => t (deref l m)) _ H y Hy).
Qed.

Lemma innermost_split_iff : forall t m s1 l s2, rev (stack m) = s1 ++ l :: s2 ->
  Forall (fun y => t (deref y m) = false) s1 -> t (deref l m) = true ->
  innermost t m = Some l.
Proof.
  intros t m s1 l s2 Hs HF Hl. unfold innermost. rewrite Hs. clear Hs.
  induction HF as [|y s1 Hy HF IH]; cbn.
  - rewrite Hl. reflexivity.
  - rewrite Hy. exact IH.
Qed.

Lemma get_context_head : forall m, cm_wf m -> exists s, rev (stack m) = get_context m :: s.
Proof.
  intros m H. unfold get_context. pose proof (wf_nonempty m H) as Hne.
  destruct (exists_last Hne) as (l & a & ->). rewrite last_last, rev_app_distr.
  exists (rev l). reflexivity.
Qed.

Lemma map_update_notIn : forall {B} (F : context -> B) l c m s,
  l < List.length (heap m) -> ~ In l s ->
  map (fun y => F (deref y (update l c m))) s = map (fun y => F (deref y m)) s.
Proof.
  intros B F l c m s Hl Hn. apply map_ext_in. intros y Hy.
  rewrite deref_update by exact Hl.
  destruct (Nat.eqb_spec y l) as [->|]; [contradiction|reflexivity].
Qed.

Lemma map_update_split : forall {B} (F : context -> B) m s1 l s2 c, cm_wf m ->
  rev (stack m) = s1 ++ l :: s2 ->
  map (fun y => F (deref y (update l c m))) (rev (stack (update l c m))) =
  map (fun y => F (deref y m)) s1 ++ F c :: map (fun y => F (deref y m)) s2.
Proof.
  intros B F m s1 l s2 c H Hs. cbn [stack update]. rewrite Hs, map_app. cbn [map].
  assert (Hl : l < List.length (heap m)).
  { apply stack_lt; [exact H|]. apply in_rev. rewrite Hs. apply in_or_app. right. left. reflexivity. }
  assert (Hnd : NoDup (s1 ++ l :: s2)).
  { rewrite <- Hs. apply NoDup_rev, (wf_nodup m H). }
  apply NoDup_remove_2 in Hnd. rewrite in_app_iff in Hnd.
  rewrite !map_update_notIn by tauto.
  rewrite deref_update by exact Hl. rewrite Nat.eqb_refl. reflexivity.
Qed.

Lemma env_update : forall m s1 l s2 c, cm_wf m -> rev (stack m) = s1 ++ l :: s2 ->
  env_of (update l c m) =
  map (fun y => frame_of (deref y m)) s1 ++ frame_of c :: map (fun y => frame_of (deref y m)) s2.
Proof. intros. unfold env_of. apply (map_update_split frame_of); assumption. Qed.

Lemma env_split : forall m s1 l s2, rev (stack m) = s1 ++ l :: s2 ->
  env_of m = map (fun y => frame_of (deref y m)) s1 ++
             frame_of (deref l m) :: map (fun y => frame_of (deref y m)) s2.
Proof. intros m s1 l s2 H. unfold env_of. rewrite H, map_app. reflexivity. Qed.

Lemma same_refl : forall e, same_env e e.
Proof. unfold same_env. induction e; constructor; auto. Qed.
Lemma same_sym : forall e e', same_env e e' -> same_env e' e.
Proof. intros e e' H. induction H; constructor; auto. Qed.
Lemma same_trans : forall a b c, same_env a b -> same_env b c -> same_env a c.
Proof.
  intros a b c H. revert c. induction H as [|f g a b Hfg H IH]; intros c H'; inv H'; constructor.
  - intros n. rewrite Hfg. auto.
  - apply IH. assumption.
Qed.
Lemma same_app : forall a a' b b', same_env a a' -> same_env b b' -> same_env (a ++ b) (a' ++ b').
Proof. intros. apply Forall2_app; assumption. Qed.
Lemma same_middle : forall a b f g, (forall n, f n = g n) -> same_env (a ++ f :: b) (a ++ g :: b).
Proof.
  intros a b f g H. apply same_app; [apply same_refl|]. constructor; [exact H|apply same_refl].
Qed.

Lemma frame_put : forall n v c y,
  frame_of (ctx_put_var n v c) y = put n (Some (binding_of v)) (frame_of c) y.
Proof.
  intros n v c y. unfold frame_of, ctx_put_var, put, ctx_get_var. cbn [vars].
  rewrite sget_sinsert. destruct (str_eqb y n); reflexivity.
Qed.
Lemma frame_remove : forall n c y,
  frame_of (ctx_remove_var n c) y = put n None (frame_of c) y.
Proof.
  intros n c y. unfold frame_of, ctx_remove_var, put, ctx_get_var. cbn [vars].
  rewrite sget_sremove. destruct (str_eqb y n); reflexivity.
Qed.

Lemma has_var_frame : forall n c, has_var n c = match frame_of c n with Some _ => true | None => false end.
Proof. intros n c. unfold has_var, frame_of. destruct (ctx_get_var n c); reflexivity. Qed.

Lemma lookup_app : forall n a f b, Forall (fun g : frame => g n = None) a ->
  lookup n (a ++ f :: b) = match f n with Some x => Some x | None => lookup n b end.
Proof.
  intros n a f b H. induction H as [|g a Hg H IH]; cbn; [reflexivity|]. rewrite Hg. exact IH.
Qed.
Lemma lookup_none : forall n a, Forall (fun g : frame => g n = None) a -> lookup n a = None.
Proof. intros n a H. induction H as [|g a Hg H IH]; cbn; [reflexivity|]. rewrite Hg. exact IH. Qed.
Lemma rebind_app : forall n b a f r, Forall (fun g : frame => g n = None) a ->
  f n <> None -> rebind n b (a ++ f :: r) = Some (a ++ put n b f :: r).
Proof.
  intros n b a f r H Hf. induction H as [|g a Hg H IH]; cbn.
  - destruct (f n); [reflexivity|congruence].
  - rewrite Hg, IH. reflexivity.
Qed.
Lemma rebind_none : forall n b a, Forall (fun g : frame => g n = None) a -> rebind n b a = None.
Proof.
  intros n b a H. induction H as [|g a Hg H IH]; cbn; [reflexivity|]. rewrite Hg, IH. reflexivity.
Qed.

Lemma innermost_frames : forall n m s1,
  Forall (fun y => has_var n (deref y m) = false) s1 ->
  Forall (fun g : frame => g n = None) (map (fun y => frame_of (deref y m)) s1).
Proof.
  intros n m s1 H. apply Forall_map. eapply Forall_impl; [|exact H].
  intros y Hy. cbn in Hy. rewrite has_var_frame in Hy.
  destruct (frame_of (deref y m) n); [discriminate|reflexivity].
Qed.

(** The innermost binding of a name, in the model and in the stack of maps. *)
Lemma innermost_env : forall n m, cm_wf m ->
  match innermost (has_var n) m with
  | Some l => exists a b, rev (stack m) = a ++ l :: b /\
      Forall (fun g : frame => g n = None) (map (fun y => frame_of (deref y m)) a) /\
      exists v, ctx_get_var n (deref l m) = Some v /\
        lookup n (env_of m) = Some (binding_of v) /\
        forall x, rebind n x (env_of m) =
          Some (map (fun y => frame_of (deref y m)) a ++ put n x (frame_of (deref l m))
                :: map (fun y => frame_of (deref y m)) b)
  | None => lookup n (env_of m) = None /\ (forall x, rebind n x (env_of m) = None)
  end.
Proof.
  intros n m H. destruct (innermost (has_var n) m) as [l|] eqn:E.
  - destruct (innermost_split _ _ _ E) as (a & b & Hs & HF & Hl).
    exists a, b. split; [exact Hs|].
    pose proof (innermost_frames n m a HF) as HF'. split; [exact HF'|].
    unfold has_var in Hl. destruct (ctx_get_var n (deref l m)) as [v|] eqn:G; [|discriminate].
    exists v. split; [reflexivity|].
    assert (Hfn : frame_of (deref l m) n = Some (binding_of v)).
    { unfold frame_of. rewrite G. reflexivity. }
    rewrite (env_split m a l b Hs). split.
    + rewrite lookup_app by exact HF'. rewrite Hfn. reflexivity.
    + intros x. apply rebind_app; [exact HF'|]. rewrite Hfn. discriminate.
  - apply innermost_none in E. apply innermost_frames in E.
    split; [apply lookup_none, E|]. intros x. apply rebind_none, E.
Qed.

Lemma env_of_nonempty : forall m, cm_wf m -> exists s,
  rev (stack m) = get_context m :: s /\
  env_of m = frame_of (deref (get_context m) m) :: map (fun y => frame_of (deref y m)) s.
Proof.
  intros m H. destruct (get_context_head m H) as [s Hs]. exists s. split; [exact Hs|].
  unfold env_of. rewrite Hs. reflexivity.
Qed.

(** Binding in the scope found by the search, or in the current one. *)
Lemma bind_env : forall n m v, cm_wf m ->
  let l := match innermost (has_var n) m with Some l => l | None => get_context m end in
  same_env (env_of (update l (ctx_put_var n v (deref l m)) m))
           (bind n (Some (binding_of v)) (env_of m)).
Proof.
  intros n m v H. pose proof (innermost_env n m H) as HI.
  destruct (innermost (has_var n) m) as [l|]; cbn zeta; unfold bind.
  - destruct HI as (a & b & Hs & HF & w & G & Hlk & Hrb).
    rewrite (Hrb _), (env_update m a l b _ H Hs).
    apply same_middle. intros y. apply frame_put.
  - destruct HI as [Hlk Hrb]. rewrite Hrb.
    destruct (env_of_nonempty m H) as (s & Hs & ->).
    rewrite (env_update m [] (get_context m) s _ H Hs). cbn.
    constructor; [intros y; apply frame_put|apply same_refl].
Qed.

Lemma lookup_get_var : forall n m, cm_wf m -> unqualified n ->
  option_map binding_of (get_var n m) = lookup n (env_of m).
Proof.
  intros n m H Hn. unfold get_var. apply namespaced_none in Hn. rewrite Hn.
  pose proof (innermost_env n m H) as HI.
  destruct (innermost (has_var n) m) as [l|].
  - destruct HI as (a & b & Hs & HF & w & G & Hlk & Hrb). rewrite G, Hlk. reflexivity.
  - destruct HI as [-> _]. reflexivity.
Qed.

Definition related (r : option cmgr) (x : option env) : Prop :=
  match r, x with
  | Some m, Some e => same_env (env_of m) e
  | None, None => True
  | _, _ => False
  end.

(** The rest of the state: the other scopes of the heap are untouched. *)
Lemma env_same_stack : forall m m', stack m' = stack m ->
  (forall l, In l (stack m) -> frame_of (deref l m') = frame_of (deref l m)) ->
  env_of m' = env_of m.
Proof.
  intros m m' Hs HF. unfold env_of. rewrite Hs. apply map_ext_in. intros l Hl.
  apply HF. apply in_rev. exact Hl.
Qed.

Lemma frame_of_vars : forall c c', vars c = vars c' -> frame_of c = frame_of c'.
Proof. intros c c' H. unfold frame_of, ctx_get_var. rewrite H. reflexivity. Qed.

Lemma env_update_vars : forall l c m, cm_wf m -> l < List.length (heap m) ->
  vars c = vars (deref l m) -> env_of (update l c m) = env_of m.
Proof.
  intros l c m H Hl Hv. apply env_same_stack; [reflexivity|].
  intros y _. apply frame_of_vars. rewrite deref_update by exact Hl.
  destruct (Nat.eqb_spec y l) as [->|]; auto.
Qed.

Lemma ctx_add_function_vars : forall n b c, vars (ctx_add_function n b c) = vars c.
Proof. intros n b c. unfold ctx_add_function. destruct (existsb _ _); reflexivity. Qed.

Lemma pop_split : forall m m', cm_wf m -> pop_context m = Some m' ->
  rev (stack m) = get_context m :: rev (stack m') /\ heap m' = heap m /\
  exported m' = exported m /\ stack m' <> [].
Proof.
  intros m m' H P. unfold pop_context in P.
  destruct (Nat.eqb_spec (List.length (stack m)) 1) as [|Hne]; [discriminate|].
  inv P. cbn. split; [|split; [reflexivity|split; [reflexivity|]]].
  - unfold get_context. destruct (exists_last (wf_nonempty m H)) as (l & a & ->).
    rewrite last_last, removelast_last, rev_app_distr. reflexivity.
  - pose proof (wf_nonempty m H) as Hn. clear H.
    destruct (stack m) as [|x [|y s]]; cbn in *; congruence.
Qed.

Lemma pop_env : forall m, cm_wf m -> related (pop_context m) (meaning OPop (env_of m)).
Proof.
  intros m H. destruct (pop_context m) as [m'|] eqn:P; cbn.
  - destruct (pop_split m m' H P) as (Hs & Hh & _ & Hne).
    unfold env_of. rewrite Hs. cbn [map].
    destruct (rev (stack m')) as [|x s] eqn:Er.
    + apply (f_equal (@rev nat)) in Er. rewrite rev_involutive in Er. contradiction.
    + cbn [map]. unfold deref. rewrite Hh. apply same_refl.
  - unfold pop_context in P.
    destruct (Nat.eqb_spec (List.length (stack m)) 1) as [Hl|]; [|discriminate].
    unfold env_of. destruct (stack m) as [|x [|y s]]; cbn in Hl; try lia. cbn. exact I.
Qed.

Lemma nth_error_split_rev : forall {A} (l : list A) pos x, nth_error l pos = Some x ->
  l = firstn pos l ++ x :: skipn (S pos) l.
Proof.
  intros A l. induction l as [|a l IH]; intros [|pos] x H; cbn in *; try discriminate.
  - inv H. reflexivity.
  - f_equal. apply IH, H.
Qed.

Theorem perform_meaning : forall o m, cm_wf m -> plain_op o ->
  related (perform o m) (meaning o (env_of m)).
Proof.
  intros o m H Hp. destruct o; cbn [perform meaning plain_op] in *.
  - (* OAssign *)
    unfold add_var. rewrite set_name_target.
    pose proof (innermost_env (target set) m H) as HI.
    pose proof (bind_env (target set) m (Var (assigned set) false) H) as HB.
    destruct (innermost (has_var (target set)) m) as [l|].
    + destruct HI as (a & b & Hs & HF & w & G & Hlk & Hrb). rewrite G, Hlk.
      destruct w as [v ro]. cbn [binding_of value is_readonly].
      destruct ro; [apply same_refl|].
      rewrite ctx_set_spec. destruct (unsettable set); [exact I|]. exact HB.
    + destruct HI as [Hlk Hrb]. rewrite Hlk, ctx_set_spec.
      destruct (unsettable set); [exact I|]. exact HB.
  - (* OAssignAt *)
    unfold add_var_pos.
    assert (Hlen : List.length (env_of m) = List.length (stack m)).
    { unfold env_of. rewrite map_length, rev_length. reflexivity. }
    destruct (nth_error (stack m) pos) as [l|] eqn:En.
    + assert (Hlt : pos < List.length (stack m)) by (apply nth_error_Some; congruence).
      replace (List.length (env_of m) <=? pos)%nat with false
        by (symmetry; apply Nat.leb_gt; lia).
      rewrite orb_false_r, ctx_set_spec.
      destruct (unsettable set); [exact I|]. cbn [update_opt related].
      unfold bind_at.
      assert (Hrev : rev (env_of m) = map (fun y => frame_of (deref y m)) (stack m)).
      { unfold env_of. rewrite map_rev, rev_involutive. reflexivity. }
      rewrite Hrev, nth_error_map, En. cbn [option_map].
      pose proof (nth_error_split_rev _ _ _ En) as Hsplit.
      assert (Hs : rev (stack m) = rev (skipn (S pos) (stack m)) ++ l :: rev (firstn pos (stack m))).
      { rewrite Hsplit at 1. rewrite rev_app_distr. cbn [rev]. rewrite <- app_assoc. reflexivity. }
      rewrite (env_update m _ l _ _ H Hs).
      rewrite rev_app_distr. cbn [rev]. rewrite <- app_assoc. cbn [app].
      rewrite firstn_map, skipn_map, !map_rev.
      apply same_middle. intros y. apply frame_put.
    + assert (Hge : List.length (stack m) <= pos) by (apply nth_error_None; exact En).
      replace (List.length (env_of m) <=? pos)%nat with true
        by (symmetry; apply Nat.leb_le; lia).
      rewrite orb_true_r. exact I.
  - (* OReadonlyAssign *)
    unfold add_var_readonly. apply namespaced_none in Hp. rewrite Hp, set_name_target, ctx_set_spec.
    destruct (unsettable set); [exact I|].
    exact (bind_env (target set) m (Var (assigned set) true) H).
  - (* OReadonly *)
    unfold set_var_readonly. apply namespaced_none in Hp. rewrite Hp.
    pose proof (innermost_env n m H) as HI.
    destruct (innermost (has_var n) m) as [l|] eqn:Ei.
    + destruct HI as (a & b & Hs & HF & w & G & Hlk & Hrb).
      unfold ctx_mark_readonly. rewrite G, Hlk. destruct w as [v ro]. cbn [binding_of value is_readonly].
      pose proof (bind_env n m (Var v true) H) as HB. rewrite Ei in HB. exact HB.
    + destruct HI as [Hlk Hrb]. rewrite Hlk. unfold ctx_mark_readonly.
      destruct (env_of_nonempty m H) as (s & Hs & He). rewrite He in Hlk. cbn in Hlk.
      unfold frame_of at 1 in Hlk.
      destruct (ctx_get_var n (deref (get_context m) m)); [discriminate|exact I].
  - (* OUnset *)
    unfold remove_var. apply namespaced_none in Hp. rewrite Hp.
    pose proof (innermost_env n m H) as HI.
    destruct (innermost (has_var n) m) as [l|].
    + destruct HI as (a & b & Hs & HF & w & G & Hlk & Hrb). rewrite Hrb.
      cbn [related]. rewrite (env_update m a l b _ H Hs).
      apply same_middle. intros y. apply frame_remove.
    + destruct HI as [_ Hrb]. rewrite Hrb. apply same_refl.
  - (* OUnsetFunction *)
    cbn [related]. unfold remove_function. destruct (namespaced n) as [[ns x]|].
    + destruct (get_context_by_name ns m) as [l|] eqn:G; [|apply same_refl].
      rewrite env_update_vars; [apply same_refl|exact H|eapply exported_lt; eassumption|reflexivity].
    + destruct (innermost _ m) as [l|] eqn:I'; [|apply same_refl].
      rewrite env_update_vars; [apply same_refl|exact H| |reflexivity].
      apply stack_lt; [exact H|]. eapply innermost_In, I'.
  - (* ODefine *)
    cbn [related]. unfold add_function.
    rewrite env_update_vars; [apply same_refl|exact H| |apply ctx_add_function_vars].
    apply stack_lt; [exact H|].
    destruct (innermost _ m) as [l|] eqn:I'; [eapply innermost_In, I'|apply get_context_In, H].
  - (* OExportFunction *)
    cbn [related].
    rewrite env_update_vars; [apply same_refl|exact H| |apply ctx_add_function_vars].
    apply stack_lt; [exact H|]. apply get_env_context_In, H.
  - (* OPush *)
    cbn [related]. unfold env_of, push_context_new. cbn [stack]. rewrite rev_app_distr. cbn.
    constructor.
    + intros y. unfold deref, hget. cbn [heap]. rewrite app_nth2 by lia.
      rewrite Nat.sub_diag. reflexivity.
    + erewrite map_ext_in; [apply same_refl|].
      cbn beta. intros l Hl. apply in_rev in Hl. apply stack_lt in Hl; [|exact H].
      unfold deref, hget. cbn [heap]. rewrite app_nth1 by exact Hl. reflexivity.
  - exact (pop_env m H).
  - pose proof (pop_env m H) as HP. cbn [meaning] in HP.
    destruct (pop_context m) as [m1|]; exact HP.
  - apply same_refl.
  - apply same_refl.
Qed.
