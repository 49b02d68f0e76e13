(** Lemmas about command lines, startup and sessions. *)
From Verif Require Import Base BaseFacts Ast Parser Context Alias Expand Jobs Shell Builtins Eval EvalSpec EvalFacts EvalLaws.
From Verif Require Import RunSpec Main MainSpec.
From Verif Require ContextSpec ContextFacts ContextLaws.
Local Open Scope Z_scope.

(** ** Command lines *)

Lemma dash_arg a : command_option a <-> (exists t, a = ch "-" :: t) /\ parse_dash_arg a = true.
Proof.
  unfold command_option, parse_dash_arg. split.
  - intros (t & -> & H). split; [eauto|]. cbn [tl]. apply contains_char_In. exact H.
  - intros ((t & ->) & H). exists t. split; [reflexivity|]. apply contains_char_In. exact H.
Qed.
Lemma other_option_word a : other_option a -> exists t, a = ch "-" :: t /\ parse_dash_arg a = false.
Proof.
  intros [[t ->] H]. exists t. split; [reflexivity|]. destruct (parse_dash_arg (ch "-" :: t)) eqn:E; [|reflexivity].
  exfalso. apply H. apply dash_arg. eauto.
Qed.
Lemma head_dash c t : option_word (c :: t) <-> c = ch "-".
Proof. split; [intros [t' E]; injection E as -> _; reflexivity|intros ->; exists t; reflexivity]. Qed.

Definition nonempty (a : str) : bool := match a with [] => false | _ => true end.
(** The words shown while the command line is read. *)
Definition announce (ws : list str) : list str := map (fun a => lit "arg: " ++ a) ws.

(** The arguments of a script, stored one after the other. *)
Fixpoint store (i : N) (args : list str) (m : cmgr) : option cmgr :=
  match args with
  | [] => Some m
  | a :: args' => match add_var_pos (numbered i a) 0 m with Some m' => store (i + 1) args' m' | None => None end
  end.

Lemma scan_load args : forall i p f,
  scan_args args (ScanState true true i p) f =
  if forallb nonempty args then
    match store i args (f_cm f) with
    | Some m => Some (None, Front (interactive f) (script_name f) m (shown f ++ announce args))
    | None => None
    end
  else None.
Proof.
  induction args as [|a args IH]; intros i p f.
  - cbn. rewrite app_nil_r. destruct f; reflexivity.
  - cbn [scan_args forallb]. destruct a as [|c a']; [reflexivity|]. cbn [nonempty andb].
    cbn [non_interactive_mode load_args negb]. rewrite !andb_false_r. cbn [andb store].
    unfold set_input_args, show at 1, numbered. cbn [index pos f_cm].
    destruct (add_var_pos (N_to_str i ++ lit "=" ++ c :: a') 0 (f_cm f)) as [m|].
    + rewrite IH. cbn [f_cm interactive script_name shown show].
      destruct (forallb nonempty args); [|reflexivity]. destruct (store (i + 1) args m); [|reflexivity].
      f_equal. f_equal. f_equal. cbn [announce map]. rewrite <- app_assoc. reflexivity.
    + destruct (forallb nonempty args); reflexivity.
Qed.

Lemma scan_options opts : Forall other_option opts -> forall rest p f, 
  scan_args (opts ++ rest) (ScanState false false 1 p) f =
  scan_args rest (ScanState false false 1 (p + List.length opts)) (Front (interactive f) (script_name f) (f_cm f) (shown f ++ announce opts)).
Proof.
  induction 1 as [|a opts Ha _ IH]; intros rest p f.
  - cbn. rewrite app_nil_r, Nat.add_0_r. destruct f; reflexivity.
  - destruct (other_option_word a Ha) as (t & -> & Ed). cbn [app scan_args non_interactive_mode load_args index pos].
    rewrite N.eqb_refl. cbn [negb andb]. rewrite Ed, IH. cbn [interactive script_name f_cm shown show].
    f_equal; [f_equal; cbn; lia|]. f_equal. cbn [announce map]. rewrite <- app_assoc. reflexivity.
Qed.

Lemma scan_script file args p f : file <> [] -> ~ option_word file ->
  scan_args (file :: args) (ScanState false false 1 (S p)) f =
  if forallb nonempty args then
    match store 1 args (f_cm f) with
    | Some m => Some (None, Front false file m (shown f ++ announce (file :: args)))
    | None => None
    end
  else None.
Proof.
  intros Hf Ho. cbn [scan_args]. destruct file as [|c t]; [congruence|]. rewrite head_dash in Ho.
  destruct (N.eqb_spec c (ch "-")) as [E|_]; [contradiction|]. cbn [andb non_interactive_mode load_args negb pos Nat.eqb].
  cbn [andb]. rewrite scan_load. cbn [interactive script_name f_cm shown show set_script_name index].
  destruct (forallb nonempty args); [|reflexivity]. destruct (store 1 args (f_cm f)); [|reflexivity].
  f_equal. f_equal. f_equal. cbn [announce map]. rewrite <- app_assoc. reflexivity.
Qed.
Lemma scan_first p rest f : p <> [] -> ~ command_option p ->
  scan_args (p :: rest) (ScanState false false 1 0) f =
  scan_args rest (ScanState false false 1 1) (Front (interactive f) (script_name f) (f_cm f) (shown f ++ announce [p])).
Proof.
  intros Hp Hc. cbn [scan_args]. destruct p as [|c t]; [congruence|].
  cbn [non_interactive_mode load_args negb pos Nat.eqb andb index]. rewrite andb_true_r.
  destruct (N.eqb_spec c (ch "-")) as [->|_]; [|reflexivity].
  destruct (parse_dash_arg (ch "-" :: t)) eqn:E; [|reflexivity]. exfalso. apply Hc. apply dash_arg. eauto.
Qed.
Lemma scan_command d rest l i p f : command_option d ->
  scan_args (d :: rest) (ScanState false l i p) f = Some (Some p, show (lit "arg: " ++ d) f).
Proof.
  intros Hd. apply dash_arg in Hd. destruct Hd as [[t ->] E]. cbn [scan_args]. rewrite N.eqb_refl. cbn [negb andb non_interactive_mode].
  rewrite E. reflexivity.
Qed.

Definition wanted_front (args : list str) (r : request) (m : cmgr) : option (option str * front) :=
  match r with
  | Prompt => Some (None, Front true (lit "rsh") m (if Nat.eqb (List.length args) 1 then [] else announce args))
  | Commands t => None
  | Script file as_ =>
      match store 1 as_ m with
      | Some m' => Some (None, Front false file m' (announce args))
      | None => None
      end
  end.
Lemma announce_app a b : announce (a ++ b) = announce a ++ announce b.
Proof. apply map_app. Qed.

Lemma nonempty_forallb args : Forall (fun a : str => a <> []) args ->
  forallb nonempty args = true.
Proof. induction 1 as [|a args Ha _ IH]; [reflexivity|]. cbn. destruct a; [congruence|exact IH]. Qed.

Lemma parse_args_asks args r m : asks args r ->
  match r with
  | Commands t => exists out, parse_args args m = Some (Some t, Front false (lit "rsh") m out)
  | _ => parse_args args m = wanted_front args r m
  end.
Proof.
  intros H. destruct H as [|p|d ws Hw Hd|p opts Hp Hc Ho Hf|p opts d ws Hp Hc Hf Hd|p opts file args Hp Hc Hf Hn Hfile Ha].
  - reflexivity.
  - reflexivity.
  - unfold parse_args. destruct ws as [|x ws]; [congruence|]. cbn [List.length Nat.eqb].
    rewrite (scan_command d _ _ _ _ _ Hd). eexists. reflexivity.
  - unfold parse_args, wanted_front. destruct opts as [|x opts]; [congruence|]. cbn [List.length Nat.eqb].
    rewrite (scan_first p _ _ Hp Hc). rewrite <- (app_nil_r (x :: opts)) at 1.
    rewrite (scan_options _ Hf). reflexivity.
  - unfold parse_args. rewrite app_comm_cons. rewrite (proj2 (Nat.eqb_neq _ _)).
    2:{ rewrite app_length. cbn [List.length]. lia. }
    cbn [app]. rewrite (scan_first p _ _ Hp Hc), (scan_options _ Hf), (scan_command d _ _ _ _ _ Hd).
    assert (Hs : skipn (S (1 + List.length opts)) (p :: opts ++ d :: ws) = ws).
    { cbn [plus skipn]. clear. induction opts as [|x opts IH]; [reflexivity|exact IH]. }
    match goal with |- context [skipn ?a ?b] => replace (skipn a b) with ws by (symmetry; exact Hs) end.
    eexists. reflexivity.
  - unfold parse_args, wanted_front. rewrite app_comm_cons. rewrite (proj2 (Nat.eqb_neq _ _)).
    2:{ rewrite app_length. cbn [List.length]. lia. }
    cbn [app]. rewrite (scan_first p _ _ Hp Hc), (scan_options _ Hf).
    rewrite (scan_script file args (List.length opts) _ Hn Hfile). cbn [f_cm shown].
    rewrite (nonempty_forallb _ Ha). destruct (store 1 args m) as [m'|]; [|reflexivity].
    do 2 f_equal. f_equal. cbn [announce map app]. f_equal. unfold announce. rewrite map_app. reflexivity.
Qed.

Lemma split_options rest :
  exists opts tail, rest = opts ++ tail /\ Forall other_option opts /\
    match tail with [] => True | x :: _ => ~ other_option x end.
Proof.
  induction rest as [|x rest IH].
  - exists [], []. split; [reflexivity|]. split; [constructor|exact I].
  - assert (Hd : other_option x \/ ~ other_option x).
    { destruct x as [|c t]; [right; intros [[t E] _]; discriminate|].
      destruct (N.eqb_spec c (ch "-")) as [->|Hn].
      - destruct (parse_dash_arg (ch "-" :: t)) eqn:E.
        + right. intros [_ H]. apply H. apply dash_arg. eauto.
        + left. split; [eexists; reflexivity|]. intros H. apply dash_arg in H. destruct H as [_ H]. congruence.
      - right. intros [H _]. apply head_dash in H. contradiction. }
    destruct Hd as [Hd|Hd].
    + destruct IH as (opts & tail & -> & Hf & Ht). exists (x :: opts), tail. split; [reflexivity|]. split; [constructor; assumption|exact Ht].
    + exists [], (x :: rest). split; [reflexivity|]. split; [constructor|exact Hd].
Qed.
Lemma command_dec a : command_option a \/ ~ command_option a.
Proof.
  destruct a as [|c t]; [right; intros (t & E & _); discriminate|].
  destruct (N.eqb_spec c (ch "-")) as [->|Hn].
  - destruct (parse_dash_arg (ch "-" :: t)) eqn:E.
    + left. apply dash_arg. eauto.
    + right. intros H. apply dash_arg in H. destruct H as [_ H]. congruence.
  - right. intros H. apply dash_arg in H. destruct H as [H _]. apply head_dash in H. contradiction.
Qed.
(** A command line that asks for nothing makes the shell crash. *)
Lemma asks_or_crash args m : (exists r, asks args r) \/ parse_args args m = None.
Proof.
  destruct args as [|p rest]; [left; eexists; constructor|]. destruct rest as [|x rest']; [left; eexists; constructor|].
  destruct (command_dec p) as [Hc|Hc]; [left; eexists; apply asks_login; [discriminate|exact Hc]|].
  assert (Hp : p = [] \/ p <> []) by (destruct p; [left; reflexivity|right; discriminate]).
  destruct Hp as [->|Hp]; [right; reflexivity|].
  destruct (split_options (x :: rest')) as (opts & tail & E & Hf & Ht). rewrite E.
  destruct tail as [|y tail].
  - left. eexists. rewrite app_nil_r in *. apply asks_prompt; auto. rewrite <- E. discriminate.
  - destruct (command_dec y) as [Hy|Hy]; [left; eexists; apply asks_commands; assumption|].
    assert (Hey : y = [] \/ y <> []) by (destruct y; [left; reflexivity|right; discriminate]).
    assert (Hl : Nat.eqb (List.length (p :: opts ++ y :: tail)) 1 = false).
    { apply Nat.eqb_neq. cbn [List.length]. rewrite app_length. cbn [List.length]. lia. }
    destruct Hey as [->|Hey].
    + right. unfold parse_args. rewrite Hl, (scan_first p _ _ Hp Hc), (scan_options _ Hf). reflexivity.
    + assert (Hoy : ~ option_word y) by (intros H; apply Ht; split; assumption).
      destruct (forallb nonempty tail) eqn:Ea.
      * left. eexists. apply asks_script; auto. rewrite forallb_forall in Ea. apply Forall_forall.
        intros a Hin. specialize (Ea a Hin). destruct a; [discriminate|discriminate].
      * right. unfold parse_args. rewrite Hl, (scan_first p _ _ Hp Hc), (scan_options _ Hf).
        rewrite (scan_script y tail (List.length opts) _ Hey Hoy), Ea. reflexivity.
Qed.

(** ** The first scopes *)

Definition one_scope (c : context) : cmgr := Cmgr [c] [0%nat] [].
Definition two_scopes (c d : context) : cmgr := Cmgr [c; d] [0%nat; 1%nat] [].

Lemma store_step i a c : add_var_pos (numbered i a) 0 (one_scope c) =
  if ContextSpec.unsettable (numbered i a) then None
  else Some (one_scope (ctx_put_var (N_to_str i) (Var (kept a) false) c)).
Proof.
  unfold add_var_pos. cbn [one_scope stack nth_error]. rewrite ContextFacts.ctx_set_spec.
  destruct (ContextSpec.unsettable (numbered i a)) eqn:E; [reflexivity|].
  replace (ContextSpec.target (numbered i a)) with (N_to_str i) by (symmetry; apply ContextLaws.param_target).
  replace (ContextSpec.assigned (numbered i a)) with (kept a) by (symmetry; apply ContextLaws.param_assigned).
  reflexivity.
Qed.
Lemma get_put x y v c : ctx_get_var x (ctx_put_var y v c) = if str_eqb x y then Some v else ctx_get_var x c.
Proof. unfold ctx_get_var, ctx_put_var. cbn [vars]. apply sget_sinsert. Qed.

Lemma store_one args : forall i c,
  (forall j a, nth_error args j = Some a -> ~ too_many_digits (i + N.of_nat j) a) ->
  exists c', store i args (one_scope c) = Some (one_scope c') /\
    (forall j a, nth_error args j = Some a -> ctx_get_var (N_to_str (i + N.of_nat j)) c' = Some (Var (kept a) false)) /\
    (forall x, (forall j, (j < List.length args)%nat -> x <> N_to_str (i + N.of_nat j)) -> ctx_get_var x c' = ctx_get_var x c).
Proof.
  induction args as [|a args IH]; intros i c H.
  - exists c. split; [reflexivity|]. split; [intros [|j]; discriminate|reflexivity].
  - cbn [store]. rewrite store_step. pose proof (H 0%nat a eq_refl) as H0. cbn in H0. rewrite N.add_0_r in H0.
    unfold too_many_digits in H0. apply not_true_is_false in H0. rewrite H0.
    destruct (IH (i + 1)%N (ctx_put_var (N_to_str i) (Var (kept a) false) c)) as (c' & E & Hs & Hk).
    { intros j b Hj. specialize (H (S j) b Hj). replace (i + 1 + N.of_nat j)%N with (i + N.of_nat (S j))%N by lia. exact H. }
    exists c'. split; [exact E|]. split.
    + intros [|j] b Hj.
      * cbn in Hj. injection Hj as <-. cbn [N.of_nat]. rewrite N.add_0_r. rewrite Hk.
        -- rewrite get_put, str_eqb_refl. reflexivity.
        -- intros j _ Ej. apply ContextLaws.N_to_str_inj in Ej. lia.
      * replace (i + N.of_nat (S j))%N with (i + 1 + N.of_nat j)%N by lia. apply Hs. exact Hj.
    + intros x Hx. rewrite Hk.
      * rewrite get_put. destruct (str_eqb_spec x (N_to_str i)) as [->|_]; [|reflexivity].
        exfalso. apply (Hx 0%nat); [cbn; lia|]. cbn [N.of_nat]. rewrite N.add_0_r. reflexivity.
      * intros j Hj. replace (i + 1 + N.of_nat j)%N with (i + N.of_nat (S j))%N by lia. apply Hx. cbn [List.length]. lia.
Qed.
Lemma store_fails args : forall i c j a, nth_error args j = Some a -> too_many_digits (i + N.of_nat j) a ->
  store i args (one_scope c) = None.
Proof.
  induction args as [|b args IH]; intros i c j a Hj Ht; [destruct j; discriminate|].
  cbn [store]. rewrite store_step. destruct (ContextSpec.unsettable (numbered i b)) eqn:Eb; [reflexivity|].
  destruct j as [|j].
  - cbn in Hj. injection Hj as <-. cbn [N.of_nat] in Ht. rewrite N.add_0_r in Ht. unfold too_many_digits in Ht. congruence.
  - eapply IH; [exact Hj|]. replace (i + 1 + N.of_nat j)%N with (i + N.of_nat (S j))%N by lia. exact Ht.
Qed.

Lemma two_get x c d : get_var x (two_scopes c d) =
  match namespaced x with
  | Some _ => None
  | None => match ctx_get_var x d with Some v => Some v | None => ctx_get_var x c end
  end.
Proof.
  unfold get_var. destruct (namespaced x) as [[ns y]|]; [reflexivity|].
  replace (innermost (has_var x) (two_scopes c d)) with (if has_var x d then Some 1%nat else if has_var x c then Some 0%nat else None)
    by reflexivity.
  unfold has_var. destruct (ctx_get_var x d) eqn:E; [exact E|]. destruct (ctx_get_var x c) eqn:E2; [exact E2|reflexivity].
Qed.
Lemma one_get x c : get_var x (one_scope c) = match namespaced x with Some _ => None | None => ctx_get_var x c end.
Proof.
  unfold get_var. destruct (namespaced x) as [[ns y]|]; [reflexivity|].
  replace (innermost (has_var x) (one_scope c)) with (if has_var x c then Some 0%nat else None) by reflexivity.
  unfold has_var. destruct (ctx_get_var x c) eqn:E2; [exact E2|reflexivity].
Qed.

(** The first scope of the session with [$0] in it. *)
Lemma arg0 script c : add_var_pos (lit "0=" ++ script) 1 (push_context_new (one_scope c)) =
  if ContextSpec.unsettable (numbered 0 script) then None
  else Some (two_scopes c (ctx_put_var (lit "0") (Var (kept script) false) empty_context)).
Proof.
  unfold add_var_pos. cbn [push_context_new one_scope stack heap app List.length nth_error].
  rewrite ContextFacts.ctx_set_spec. change (lit "0=" ++ script) with (numbered 0 script).
  destruct (ContextSpec.unsettable (numbered 0 script)) eqn:E; [reflexivity|].
  replace (ContextSpec.target (numbered 0 script)) with (lit "0") by (symmetry; apply (ContextLaws.param_target 0)).
  replace (ContextSpec.assigned (numbered 0 script)) with (kept script) by (symmetry; apply ContextLaws.param_assigned).
  reflexivity.
Qed.

(** ** Startup *)

Lemma say_all_ok ts : forall s, exists s', say_all ts s = (OOk tt, s') /\ trace s' = trace s /\
  im s' = with_js (js (im s')) (im s) /\ jobs (js (im s')) = jobs (js (im s)) /\ masked (js (im s')) = masked (js (im s)).
Proof.
  induction ts as [|t ts IH]; intros s.
  - exists s. repeat split. destruct s as [[] ?]; reflexivity.
  - cbn [say_all]. destruct (IH (Shell (with_js (print t (js (im s))) (im s)) (trace s))) as (s' & E & Ht & Hi & Hj & Hm).
    exists s'. split; [rewrite (seq_ok (say t) _ s tt _ eq_refl); exact E|]. split; [exact Ht|]. split; [exact Hi|]. split; [exact Hj|exact Hm].
Qed.

Lemma startup_none w n file s : r_open (w (trace s)) file for_reading = false -> read_startup w n file s = (OOk tt, s).
Proof.
  intros H. unfold read_startup. erewrite (bind_ok _ _ s None s); [reflexivity|].
  unfold sys_open. erewrite (bind_ok _ _ s false s); [reflexivity|]. unfold ask. rewrite H. reflexivity.
Qed.

Definition goes_on (w : os) (n k : nat) (ins : list typed) (t : option str) (f : front) : M unit :=
  match t with
  | Some t => read_from_args w n t
  | None => if interactive f then change at_prompt ;; interactive_loop w n ins else script_loop w n k (script_name f)
  end.

Lemma main_begins w n k args ins s t f c' :
  parse_args args (cm (im s)) = Some (t, f) -> f_cm f = one_scope c' ->
  ContextSpec.unsettable (numbered 0 (script_name f)) = false -> no_startup_files w ->
  exists s1, main w n k args ins s = goes_on w n k ins t f s1 /\ trace s1 = trace s /\
    im s1 = with_cm (two_scopes c' (ctx_put_var (lit "0") (Var (kept (script_name f)) false) empty_context)) (with_js (js (im s1)) (im s)) /\
    jobs (js (im s1)) = jobs (js (im s)) /\ masked (js (im s1)) = masked (js (im s)).
Proof.
  intros Hp Hf Hu Hn. unfold main.
  rewrite (bind_ok (look cm) _ s (cm (im s)) s eq_refl). rewrite Hp.
  rewrite (bind_ok (unwrap (Some (t, f))) _ s (t, f) s eq_refl). cbn [fst snd]. cbv zeta.
  set (s0 := Shell (with_cm (f_cm f) (im s)) (trace s)).
  rewrite (seq_ok (on_cm (fun _ => f_cm f)) _ s tt s0 eq_refl).
  destruct (say_all_ok (shown f) s0) as (s2 & E2 & Ht2 & Hi2 & Hj2 & Hm2). rewrite (seq_ok _ _ s0 tt s2 E2).
  assert (Hcm : cm (im s2) = one_scope c') by (rewrite Hi2; exact Hf).
  set (s3 := Shell (with_cm (push_context_new (cm (im s2))) (im s2)) (trace s2)).
  set (s4 := Shell (with_cm (two_scopes c' (ctx_put_var (lit "0") (Var (kept (script_name f)) false) empty_context)) (im s2)) (trace s2)).
  assert (Hs : set_up w n (script_name f) s2 = (OOk tt, s4)).
  { unfold set_up. rewrite (seq_ok (on_cm push_context_new) _ s2 tt s3 eq_refl).
    assert (E3 : try_cm (add_var_pos (lit "0=" ++ script_name f) 1) s3 = (OOk tt, s4)).
    { unfold try_cm, try_. cbn [s3 im cm with_cm]. rewrite Hcm, arg0, Hu. reflexivity. }
    rewrite (seq_ok _ _ s3 tt s4 E3). rewrite (seq_ok _ _ s4 tt s4 (startup_none w n _ s4 (proj1 (Hn _)))).
    apply startup_none. apply Hn. }
  rewrite (seq_ok _ _ s2 tt s4 Hs). exists s4. split; [reflexivity|]. split; [exact Ht2|].
  split; [|split; [exact Hj2|exact Hm2]]. cbn [s4 im]. rewrite Hi2. reflexivity.
Qed.

Lemma main_no_front w n k args ins s : parse_args args (cm (im s)) = None -> main w n k args ins s = (OPanic, s).
Proof.
  intros Hp. unfold main. rewrite (bind_ok (look cm) _ s (cm (im s)) s eq_refl). rewrite Hp. reflexivity.
Qed.
Lemma main_no_arg0 w n k args ins s t f c' :
  parse_args args (cm (im s)) = Some (t, f) -> f_cm f = one_scope c' ->
  ContextSpec.unsettable (numbered 0 (script_name f)) = true ->
  exists s1, main w n k args ins s = (OPanic, s1) /\ trace s1 = trace s.
Proof.
  intros Hp Hf Hu. unfold main.
  rewrite (bind_ok (look cm) _ s (cm (im s)) s eq_refl). rewrite Hp.
  rewrite (bind_ok (unwrap (Some (t, f))) _ s (t, f) s eq_refl). cbn [fst snd]. cbv zeta.
  set (s0 := Shell (with_cm (f_cm f) (im s)) (trace s)).
  rewrite (seq_ok (on_cm (fun _ => f_cm f)) _ s tt s0 eq_refl).
  destruct (say_all_ok (shown f) s0) as (s2 & E2 & Ht2 & Hi2 & Hj2 & Hm2). rewrite (seq_ok _ _ s0 tt s2 E2).
  assert (Hcm : cm (im s2) = one_scope c') by (rewrite Hi2; exact Hf).
  set (s3 := Shell (with_cm (push_context_new (cm (im s2))) (im s2)) (trace s2)).
  exists s3. split; [|exact Ht2]. rewrite (seq_fails (set_up w n (script_name f)) _ s2 OPanic s3); [reflexivity| |exact I].
  unfold set_up. rewrite (seq_ok (on_cm push_context_new) _ s2 tt s3 eq_refl).
  apply (seq_fails _ _ s3 OPanic s3); [|exact I].
  unfold try_cm, try_. cbn [s3 im cm with_cm]. rewrite Hcm, arg0, Hu. reflexivity.
Qed.

Lemma begun_from script args s s1 c c' :
  cm (im s) = one_scope c ->
  (forall j a, nth_error args j = Some a -> ctx_get_var (N_to_str (1 + N.of_nat j)) c' = Some (Var (kept a) false)) ->
  (forall x, (forall j, (j < List.length args)%nat -> x <> N_to_str (1 + N.of_nat j)) -> ctx_get_var x c' = ctx_get_var x c) ->
  trace s1 = trace s ->
  im s1 = with_cm (two_scopes c' (ctx_put_var (lit "0") (Var (kept script) false) empty_context)) (with_js (js (im s1)) (im s)) ->
  jobs (js (im s1)) = jobs (js (im s)) -> masked (js (im s1)) = masked (js (im s)) ->
  begun script args s s1.
Proof.
  intros Hc Ha Ho Ht Hi Hj Hm.
  assert (Hcm : cm (im s1) = two_scopes c' (ctx_put_var (lit "0") (Var (kept script) false) empty_context)) by (rewrite Hi; reflexivity).
  constructor; try assumption; try (rewrite Hi; reflexivity).
  - intros i a Hn. rewrite Hcm, two_get.
    pose proof (ContextLaws.N_to_str_unqualified (1 + N.of_nat i)) as Hu. apply ContextFacts.namespaced_none in Hu. rewrite Hu.
    rewrite get_put. change (lit "0") with (N_to_str 0).
    destruct (str_eqb_spec (N_to_str (1 + N.of_nat i)) (N_to_str 0)) as [E|_].
    + apply ContextLaws.N_to_str_inj in E. lia.
    + apply Ha. exact Hn.
  - intros x Hx. rewrite Hcm, Hc, two_get, one_get. destruct (namespaced x); [reflexivity|].
    rewrite get_put. destruct (str_eqb_spec x (lit "0")) as [->|_]; [exfalso; apply (Hx 0%nat); [lia|reflexivity]|].
    cbn. apply Ho. intros j Hj2. replace (1 + N.of_nat j)%N with (N.of_nat (S j)) by lia. apply Hx. lia.
Qed.

(** ** Lines *)

Lemma run_line_eq w n t s : run_line w n t s =
  match parse t with
  | None => (OOk tt, s)
  | Some _ => (catch (exec_text w n t) ;; ret tt) s
  end.
Proof.
  unfold run_line, exec_text. destruct t as [|c t]; [reflexivity|]. destruct (parse (c :: t)); reflexivity.
Qed.
Lemma drop_error {A} (m : M A) s : (catch m ;; ret tt) s =
  match m s with
  | (OOk _, s') | (OErr _, s') => (OOk tt, s')
  | (o, s') => (lift o, s')
  end.
Proof. unfold seq, bind, catch. destruct (m s) as [[| | | | | |] s']; reflexivity. Qed.

Lemma listening_dec s : listening s <-> (masked (js (im s)) || negb (handlers (im s)) || forked (im s)) = false.
Proof.
  unfold listening. destruct (masked (js (im s))), (handlers (im s)), (forked (im s)); cbn; intuition congruence.
Qed.

Lemma loop_session w n ins : forall s o s', interactive_loop w n ins s = (o, s') <-> session w n ins s o s'.
Proof.
  assert (HP : forall ins s, interactive_loop w n ins s =
    match get_var (lit "PS1") (cm (im s)) with
    | None => (OPanic, s)
    | Some _ =>
        match ins with
        | [] => (OBlock, s)
        | TLine t :: ins' => (run_line w n t ;; interactive_loop w n ins') s
        | TInterrupted :: ins' => interactive_loop w n ins' s
        | TClosed :: _ => (OOk tt, saved s)
        | TFailed :: _ => (OOk tt, saved s)
        | TChild :: ins' => (child_signal w ;; interactive_loop w n ins') s
        end
    end).
  { clear. intros ins s. destruct ins as [|i ins]; cbn [interactive_loop]; unfold bind at 1, look, expand_var;
      destruct (get_var (lit "PS1") (cm (im s))); try reflexivity; destruct i; reflexivity. }
  induction ins as [|i ins IH]; intros s o s'.
  - rewrite HP. split.
    + destruct (get_var (lit "PS1") (cm (im s))) eqn:E; intros H; injection H as <- <-;
        [eapply session_waits; exact E|apply session_no_prompt; exact E].
    + intros H. inversion H; subst; rewrite H0; reflexivity.
  - rewrite HP. destruct (get_var (lit "PS1") (cm (im s))) as [v|] eqn:E.
    2:{ split; [intros H; injection H as <- <-; apply session_no_prompt; exact E|]. intros H. inversion H; subst; try congruence. }
    destruct i as [t| | | |].
    + destruct (parse t) as [c|] eqn:Ep.
      * assert (Hr : run_line w n t s = match exec_text w n t s with
                                        | (OOk _, s') | (OErr _, s') => (OOk tt, s')
                                        | (o, s') => (lift o, s')
                                        end).
        { rewrite run_line_eq, Ep. apply drop_error. }
        destruct (exec_text w n t s) as [r s1] eqn:Er. split.
        -- intros H. destruct r.
           all: try (rewrite (seq_ok _ _ s tt s1 Hr) in H; apply IH in H; eapply session_line; [exact E|congruence|exact Er|exact I|exact H]).
           all: rewrite (seq_fails _ _ s _ s1 Hr I) in H; injection H as <- <-.
           all: match type of Er with _ = (?x, _) => apply (session_last_line w n t ins s v x s1) end; try assumption; [congruence|intros []].
        -- intros H. inversion H; subst; try congruence.
           ++ match goal with K : exec_text w n t s = (_, _), L : session _ _ ins _ _ _ |- _ =>
                rewrite Er in K; injection K as -> ->; apply IH in L end.
              destruct r0; try contradiction; rewrite (seq_ok _ _ s tt s2 Hr); assumption.
           ++ match goal with K : exec_text w n t s = (_, _) |- _ => rewrite Er in K; injection K as -> -> end.
              match goal with K : ~ returns ?x |- _ => destruct x; try (exfalso; apply K; exact I) end;
                rewrite (seq_fails _ _ s _ _ Hr I); reflexivity.
      * assert (Hr : run_line w n t s = (OOk tt, s)) by (rewrite run_line_eq, Ep; reflexivity).
        rewrite (seq_ok _ _ s tt s Hr). rewrite IH. split.
        -- intros H. eapply session_not_a_command; eassumption.
        -- intros H. inversion H; subst; try congruence.
    + rewrite IH. split; [intros H; eapply session_interrupted; eassumption|intros H; inversion H; subst; congruence].
    + split; [intros H; injection H as <- <-; eapply session_closed; eassumption|intros H; inversion H; subst; congruence].
    + split; [intros H; injection H as <- <-; eapply session_failed; eassumption|intros H; inversion H; subst; congruence].
    + assert (Hd : listening s \/ ~ listening s) by (rewrite listening_dec; destruct (_ || _)%bool; [right; discriminate|left; reflexivity]).
      destruct Hd as [Hl|Hl].
      * assert (Hc : child_signal w s =
          match sig_chld (expand_var (cm (im s)) (lit "PS4")) (r_waits (w (trace s))) (js (im s)) with
          | WDone _ j _ => (OOk tt, Shell (with_js j (im s)) (EWait (-1) :: trace s))
          | WPanic => (OPanic, s)
          | WBlock => (OBlock, s)
          end).
        { unfold child_signal. rewrite (proj1 (listening_dec s) Hl). reflexivity. }
        destruct (sig_chld _ _ _) as [x j r| |] eqn:Es.
        -- rewrite (seq_ok _ _ s tt _ Hc), IH. split.
           ++ intros H. eapply session_child; eassumption.
           ++ intros H. inversion H; subst; try congruence.
        -- rewrite (seq_fails _ _ s _ s Hc I). split.
           ++ intros H. injection H as <- <-. eapply session_child_panics; eassumption.
           ++ intros H. inversion H; subst; try congruence; try contradiction; reflexivity.
        -- rewrite (seq_fails _ _ s _ s Hc I). split.
           ++ intros H. injection H as <- <-. eapply session_child_hangs; eassumption.
           ++ intros H. inversion H; subst; try congruence; try contradiction; reflexivity.
      * assert (Hc : child_signal w s = (OOk tt, s)).
        { unfold child_signal. rewrite listening_dec in Hl. apply not_false_is_true in Hl. rewrite Hl. reflexivity. }
        rewrite (seq_ok _ _ s tt s Hc), IH. split.
        -- intros H. eapply session_deaf; eassumption.
        -- intros H. inversion H; subst; try congruence; try contradiction.
Qed.
