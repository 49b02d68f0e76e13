(** Properties C33, C53 and C103: more commands, as typed by the user. *)
From Verif Require Import Base BaseFacts Lexer LexerSpec Ast Parser GrammarSpec.
From Verif Require Import Context.
From Verif Require ContextSpec ContextFacts ContextLaws.
From Verif Require Import Alias Expand ExpandSpec ExpandFacts ExpandLaws Jobs Shell Builtins Eval.
From Verif Require Import EvalSpec EvalFacts EvalLaws EvalKeeps RunSpec RunLaws.
From Verif Require Import JobsSpec PropertiesCrash PropertiesBuiltins.
From Verif Require EvalStack PropertiesEval PropertiesExpand PropertiesContext.
Local Open Scope Z_scope.

(** ** C33, as typed *)

(** The text occurs inside the word. *)
Definition within (t x : str) : Prop := exists a b, x = a ++ t ++ b.
Lemma within_bool t x : contains_str t x = true <-> within t x.
Proof. unfold within. rewrite contains_str_iff. tauto. Qed.
Lemma not_within t x : ~ within t x -> contains_str t x = false.
Proof. intros H. apply not_true_is_false. rewrite within_bool. exact H. Qed.
(** ... the same shell with other aliases. *)
Definition aliased (a : aliases) (s : shell) : shell := Shell (with_al a (masked_as true (im s))) (trace s).

(** [alias d1 d2 ...] changes the table of aliases and nothing else (but the
    signals stay blocked): the last definition of a name is the one that counts,
    names that are not mentioned keep theirs. *)
Theorem C33_alias_line : forall w d (x : str) (more : list str) (v : str) (vs : list str) s, sget (lit "alias") (al (im s)) = None ->
  Forall written_arg (x :: more) -> Forall2 (ordinary (expand_var (cm (im s)))) (x :: more) (v :: vs) ->
  ~ within (lit "-p") v ->
  exists a, exec_text w (S d) (r_words (lit "alias" :: x :: more)) s = (OOk 0, aliased a s) /\
  forall n,
    (forall ws1 e ws2 t, v :: vs = ws1 ++ e :: ws2 -> defines e n t -> (forall e' t', In e' ws2 -> ~ defines e' n t') ->
       sget n a = Some t) /\
    ((forall e t, In e (v :: vs) -> ~ defines e n t) -> sget n a = sget n (al (im s))).
Proof.
  intros w d x more v vs s Ha Hw Ho Hp.
  destruct (PropertiesExpand.C33_define_partial v vs (al (im s)) Hp) as (a & E & H). exists a. split; [|exact H].
  rewrite (exec_args_line w d (lit "alias") (x :: more) (v :: vs) s eq_refl ltac:(discriminate) Ha Hw Ho), call_alias.
  unfold alias_cmd. cbn [words_of sc_suffix word_list].
  rewrite (bind_ok (word_at 0 (v :: vs)) _ (blocked s) v (blocked s) eq_refl). rewrite (not_within _ _ Hp).
  unfold try_. cbv beta. change (al (im (blocked s))) with (al (im s)). cbn [perform_alias] in E.
  unfold str, char in *. rewrite E. reflexivity.
Qed.

(** [unalias name] removes that alias and no other. *)
Theorem C33_unalias_line : forall w d (x v : str) s, sget (lit "unalias") (al (im s)) = None ->
  written_arg x -> ordinary (expand_var (cm (im s))) x v -> ~ within (lit "-a") v ->
  exists a, exec_text w (S d) (r_words [lit "unalias"; x]) s = (OOk 0, aliased a s) /\
  sget v a = None /\ forall n, n <> v -> sget n a = sget n (al (im s)).
Proof.
  intros w d x v s Ha Hw Ho Hp.
  destruct (PropertiesExpand.C33_forget_partial v (al (im s)) Hp) as (a & E & H1 & H2). exists a. split; [|split; assumption].
  rewrite (exec_args_line w d (lit "unalias") [x] [v] s eq_refl ltac:(discriminate) Ha (Forall_cons _ Hw (Forall_nil _)) (Forall2_cons _ _ Ho (Forall2_nil _))), call_unalias.
  unfold unalias_cmd. cbn [words_of sc_suffix word_list].
  rewrite (bind_ok (look al) _ (blocked s) (al (im s)) (blocked s) eq_refl).
  cbn [perform_alias] in E. destruct (unalias_builtin [v] (al (im s))) as [[b a']|] eqn:Eu; [|discriminate].
  cbn in E. injection E as ->. cbn [unalias_builtin] in Eu. injection Eu as <- _. reflexivity.
Qed.

(** Several names at once, which every other shell accepts, are an error and remove
    nothing. *)
Theorem C33_unalias_many_refuted : forall w d (x y : str) (more : list str) (vs : list str) s, sget (lit "unalias") (al (im s)) = None ->
  Forall written_arg (x :: y :: more) -> Forall2 (ordinary (expand_var (cm (im s)))) (x :: y :: more) vs ->
  exec_text w (S d) (r_words (lit "unalias" :: x :: y :: more)) s =
  (OErr (EText (lit "unalias only takes one argument")), aliased (al (im s)) s).
Proof.
  intros w d x y more vs s Ha Hw Ho.
  rewrite (exec_args_line w d (lit "unalias") (x :: y :: more) vs s eq_refl ltac:(discriminate) Ha Hw Ho), call_unalias.
  inversion Ho as [|x' v1 l l1 O1 Ho1]; subst. inversion Ho1 as [|y' v2 l l2 O2 Ho2]; subst. reflexivity.
Qed.

(** [unalias -a] removes all of them. *)
Theorem C33_unalias_all : forall w d (x v : str) s, sget (lit "unalias") (al (im s)) = None ->
  written_arg x -> ordinary (expand_var (cm (im s))) x v -> within (lit "-a") v ->
  exec_text w (S d) (r_words [lit "unalias"; x]) s = (OOk 0, aliased [] s).
Proof.
  intros w d x v s Ha Hw Ho Hp.
  rewrite (exec_args_line w d (lit "unalias") [x] [v] s eq_refl ltac:(discriminate) Ha (Forall_cons _ Hw (Forall_nil _)) (Forall2_cons _ _ Ho (Forall2_nil _))), call_unalias.
  unfold unalias_cmd. cbn [words_of sc_suffix word_list unalias_builtin].
  rewrite (bind_ok (look al) _ (blocked s) (al (im s)) (blocked s) eq_refl).
  rewrite (proj2 (within_bool _ _) Hp). reflexivity.
Qed.

(** [alias -p] prints one line for each alias, and changes nothing else. *)
Lemma say_all_prints ts : forall s, say_all ts s = (OOk tt, Shell (with_js (Jst (jobs (js (im s))) (masked (js (im s))) (got_sigchld (js (im s))) (printed (js (im s)) ++ ts)) (im s)) (trace s)).
Proof.
  induction ts as [|t ts IH]; intros s.
  - cbn [say_all]. rewrite app_nil_r. destruct s as [[? ? [? ? ? ?] ? ? ? ? ? ? ?] ?]. reflexivity.
  - cbn [say_all]. rewrite (seq_ok (say t) _ s tt (Shell (with_js (print t (js (im s))) (im s)) (trace s)) eq_refl), IH.
    cbn. rewrite <- app_assoc. reflexivity.
Qed.
Definition printing_all (ts : list str) (s : shell) : shell :=
  Shell (with_js (Jst (jobs (js (im s))) true (got_sigchld (js (im s))) (printed (js (im s)) ++ ts)) (im s)) (trace s).
Theorem C33_list_line : forall w d (x : str) (more : list str) (v : str) (vs : list str) s, sget (lit "alias") (al (im s)) = None ->
  Forall written_arg (x :: more) -> Forall2 (ordinary (expand_var (cm (im s)))) (x :: more) (v :: vs) ->
  within (lit "-p") v -> NoDup (map fst (al (im s))) ->
  exists ts, exec_text w (S d) (r_words (lit "alias" :: x :: more)) s = (OOk 0, printing_all ts s) /\
  (forall t, In t ts <-> exists n u, sget n (al (im s)) = Some u /\ t = lit "alias " ++ n ++ lit "='" ++ u ++ lit "'") /\
  List.length ts = List.length (al (im s)).
Proof.
  intros w d x more v vs s Ha Hw Ho Hp Hnd.
  set (f := fun kv : str * str => lit "alias " ++ fst kv ++ lit "='" ++ snd kv ++ lit "'").
  exists (map f (al (im s))). split; [|split].
  - rewrite (exec_args_line w d (lit "alias") (x :: more) (v :: vs) s eq_refl ltac:(discriminate) Ha Hw Ho), call_alias.
    unfold alias_cmd. cbn [words_of sc_suffix word_list].
    rewrite (bind_ok (word_at 0 (v :: vs)) _ (blocked s) v (blocked s) eq_refl). rewrite (proj2 (within_bool _ _) Hp).
    unfold display_aliases. rewrite (bind_ok (look al) _ (blocked s) (al (im s)) (blocked s) eq_refl).
    rewrite say_all_prints. reflexivity.
  - intros t. rewrite in_map_iff. clear -Hnd. assert (G : forall n u, sget n (al (im s)) = Some u <-> In (n, u) (al (im s))).
    { induction (al (im s)) as [|[k u'] l IH]; [cbn; split; [discriminate|contradiction]|]. intros n u. cbn [sget In].
      cbn [map fst] in Hnd. inversion Hnd as [|? ? Hk Hl]; subst. specialize (IH Hl).
      destruct (str_eqb_spec n k) as [->|Hne].
      - split; [intros E; injection E as ->; left; reflexivity|]. intros [E|E]; [injection E as ->; reflexivity|].
        exfalso. apply Hk. apply in_map_iff. exists (k, u). split; [reflexivity|exact E].
      - rewrite IH. split; [right; assumption|]. intros [E|E]; [injection E as -> ->; congruence|exact E]. }
    split.
    + intros ([n u] & <- & Hin). exists n, u. split; [apply G; exact Hin|reflexivity].
    + intros (n & u & E & ->). exists (n, u). split; [reflexivity|apply G; exact E].
  - apply map_length.
Qed.

Example C33_line_example :
  let s0 := PropertiesEval.ex_shell in
  let run t s := exec_text PropertiesEval.ex_os 5 t s in
  let s1 := snd (run (lit " alias l='ls -l' g=cat") s0) in
  let s2 := snd (run (lit " unalias l") s1) in
  sget (lit "l") (al (im s1)) = Some (lit "ls -l") /\ sget (lit "g") (al (im s1)) = Some (lit "cat") /\
  sget (lit "l") (al (im s2)) = None /\ sget (lit "g") (al (im s2)) = Some (lit "cat") /\
  NoDup (map fst (al (im s1))) /\
  In (lit "alias l='ls -l'") (printed (js (im (snd (run (lit " alias -p") s1))))) /\
  fst (run (lit " unalias l g") s1) = OErr (EText (lit "unalias only takes one argument")) /\
  al (im (snd (run (lit " unalias -a") s1))) = [].
Proof.
  cbn zeta. do 4 (split; [vm_compute; reflexivity|]). split.
  - vm_compute. repeat constructor; cbn; intuition discriminate.
  - split; [vm_compute; auto|]. split; vm_compute; reflexivity.
Qed.

(** ** C53: export and source *)

(** The definitions [export] cannot take: no name, a NUL, or (src/context.rs:529) a
    text that starts with a digit and whose digits together are too big a number. *)
Definition undefinable (y : str) : Prop :=
  ContextSpec.unsettable y = true \/ ContextSpec.target y = [] \/ In 0%N (ContextSpec.target y) \/ In 0%N (ContextSpec.assigned y).

Lemma undefinable_dec y : undefinable y \/ ~ undefinable y.
Proof.
  unfold undefinable. destruct (ContextSpec.unsettable y); [tauto|].
  destruct (ContextSpec.target y) as [|c k] eqn:E; [tauto|].
  destruct (in_dec N.eq_dec 0%N (c :: k)); [tauto|].
  destruct (in_dec N.eq_dec 0%N (ContextSpec.assigned y)); [tauto|]. right. intros [H|[H|H]]; [discriminate|discriminate|tauto].
Qed.
Lemma export_word_crash x s : In (ch "=") x -> stack (cm (im s)) <> [] ->
  undefinable x -> fst (export_word x s) = OPanic.
Proof.
  intros Hin Hs Hu. unfold export_word. rewrite (proj2 (contains_char_In _ _) Hin).
  assert (Hsp : split_char (ch "=") x = ContextSpec.upto (ch "=") x :: split_char (ch "=") (ContextSpec.past (ch "=") x)).
  { rewrite ContextFacts.split_char_upto. rewrite (proj2 (contains_char_In _ _) Hin). reflexivity. }
  assert (E0 : nth 0 (split_char (ch "=") x) [] = ContextSpec.target x) by (rewrite Hsp; reflexivity).
  assert (E1 : trim_quotes (nth 1 (split_char (ch "=") x) []) = ContextSpec.assigned x).
  { rewrite Hsp. rewrite ContextFacts.split_char_upto. cbn [nth]. rewrite ContextFacts.trim_quotes_unquote. reflexivity. }
  cbv zeta. rewrite E0, E1. unfold seq, bind, try_cm, try_, add_var_pos.
  destruct (stack (cm (im s))) as [|l st] eqn:Est; [congruence|]. cbn [nth_error]. rewrite ContextFacts.ctx_set_spec.
  destruct (ContextSpec.unsettable x) eqn:Ex; [reflexivity|]. cbn [update_opt].
  destruct Hu as [Hu|[Hu|[Hu|Hu]]]; [congruence| | |]; unfold set_env, try_.
  - rewrite Hu. reflexivity.
  - rewrite (proj2 (contains_char_In 0%N (ContextSpec.target x)) Hu), orb_true_r. reflexivity.
  - rewrite (proj2 (contains_char_In 0%N (ContextSpec.assigned x)) Hu), orb_true_r. reflexivity.
Qed.
(** What one word of [export] does to the variables: a definition is assigned in
    the outermost scope, and so is the value of a variable that is named; the name
    of a function makes it a function of that scope. *)
Definition exports (m : cmgr) (x : str) (m' : cmgr) : Prop :=
  (In (ch "=") x /\ ~ undefinable x /\ ContextSpec.perform (ContextSpec.OAssignAt 0 x) m = Some m') \/
  (~ In (ch "=") x /\ exists v, expand_var m x = Some v /\ ContextSpec.perform (ContextSpec.OAssignAt 0 (x ++ lit "=" ++ v)) m = Some m') \/
  (~ In (ch "=") x /\ expand_var m x = None /\
     m' = match get_function x m with
          | Some b => update (get_env_context m) (ctx_add_function x b (deref (get_env_context m) m)) m
          | None => m
          end).
(** When [export] with these words crashes: one of the definitions cannot be taken,
    or a named variable cannot be stored under its name. *)
Inductive export_crashes : cmgr -> list str -> Prop :=
| ex_definition m x xs : In (ch "=") x -> undefinable x -> export_crashes m (x :: xs)
| ex_value m x xs v : ~ In (ch "=") x -> expand_var m x = Some v -> ContextSpec.unsettable (x ++ lit "=" ++ v) = true ->
    export_crashes m (x :: xs)
| ex_after m m' x xs : exports m x m' -> export_crashes m' xs -> export_crashes m (x :: xs).

Lemma pos_zero set m : stack m <> [] ->
  add_var_pos set 0 m = update_opt (get_env_context m) (ctx_set false set (deref (get_env_context m) m)) m.
Proof. intros Hs. unfold add_var_pos, get_env_context. destruct (stack m); [congruence|reflexivity]. Qed.
(** One word: it crashes as the definition above says, or has the effect above and
    no other. *)
Lemma export_word_cases x s : stack (cm (im s)) <> [] ->
  (fst (export_word x s) = OPanic /\
     ((In (ch "=") x /\ undefinable x) \/
      (~ In (ch "=") x /\ exists v, expand_var (cm (im s)) x = Some v /\ ContextSpec.unsettable (x ++ lit "=" ++ v) = true))) \/
  (exists s1, export_word x s = (OOk tt, s1) /\ exports (cm (im s)) x (cm (im s1)) /\ stack (cm (im s1)) = stack (cm (im s)) /\
     ~ (In (ch "=") x /\ undefinable x) /\
     forall v, ~ In (ch "=") x -> expand_var (cm (im s)) x = Some v -> ContextSpec.unsettable (x ++ lit "=" ++ v) = false).
Proof.
  intros Hs. destruct (in_dec N.eq_dec (ch "=") x) as [Hin|Hin].
  - destruct (undefinable_dec x) as [Hu|Hu].
    + left. split; [exact (export_word_crash x s Hin Hs Hu)|]. left. auto.
    + right. pose proof Hu as Hu'. unfold undefinable in Hu'.
      assert (E := export_word_gives x (ContextSpec.target x) (ContextSpec.assigned x) s
        (conj eq_refl (conj eq_refl Hin)) ltac:(tauto) ltac:(tauto) ltac:(tauto)
        ltac:(apply not_true_is_false; tauto) Hs).
      eexists. split; [exact E|]. split; [|split; [reflexivity|split; [tauto|intros v F; contradiction]]].
      left. split; [exact Hin|]. split; [exact Hu|]. cbn [ContextSpec.perform im cm with_cm with_env].
      rewrite pos_zero by exact Hs. rewrite ContextFacts.ctx_set_spec.
      replace (ContextSpec.unsettable x) with false by (symmetry; apply not_true_is_false; tauto). reflexivity.
  - unfold export_word. rewrite (proj2 (contains_char_notIn _ _) Hin).
    rewrite (bind_ok (look cm) _ s (cm (im s)) s eq_refl). destruct (expand_var (cm (im s)) x) as [v|] eqn:Ev.
    + destruct (ContextSpec.unsettable (x ++ lit "=" ++ v)) eqn:Eu.
      * left. split; [|right; split; [exact Hin|exists v; auto]].
        apply try_cm_crash. apply update_opt_none, ctx_set_none. exact Eu.
      * right. unfold try_cm, try_.
        destruct (update_opt (get_env_context (cm (im s))) (ctx_set false (x ++ lit "=" ++ v) (deref (get_env_context (cm (im s))) (cm (im s)))) (cm (im s))) as [m'|] eqn:Em.
        2:{ apply update_opt_none, ctx_set_none in Em. congruence. }
        eexists. split; [reflexivity|]. cbn [im cm with_cm].
        split; [right; left; split; [exact Hin|]; exists v; split; [exact Ev|]; cbn [ContextSpec.perform]; rewrite pos_zero by exact Hs; exact Em|].
        split; [exact (EvalStack.update_opt_stack _ _ _ _ Em)|]. split; [tauto|]. intros v' _ E. injection E as <-. exact Eu.
    + right. destruct (get_function x (cm (im s))) as [b|] eqn:Eg.
      * eexists. split; [reflexivity|]. split; [right; right; split; [exact Hin|]; split; [exact Ev|]; rewrite Eg; reflexivity|].
        split; [reflexivity|]. split; [tauto|]. intros v _ F. discriminate.
      * eexists. split; [reflexivity|]. split; [right; right; split; [exact Hin|]; split; [exact Ev|]; rewrite Eg; reflexivity|].
        split; [reflexivity|]. split; [tauto|]. intros v _ F. discriminate.
Qed.
Lemma exports_fun m x m1 m2 : exports m x m1 -> exports m x m2 -> m1 = m2.
Proof.
  intros [(A & B & C)|[(A & v & B & C)|(A & B & C)]] [(A' & B' & C')|[(A' & v' & B' & C')|(A' & B' & C')]];
    try contradiction; try congruence.
Qed.
Lemma export_words_crash ys : forall s, stack (cm (im s)) <> [] ->
  fst (export_words ys s) = OPanic <-> export_crashes (cm (im s)) ys.
Proof.
  induction ys as [|y ys IH]; intros s Hs.
  - cbn. split; [discriminate|]. intros E. inversion E.
  - cbn [export_words]. destruct (export_word_cases y s Hs) as [(E & H)|(s1 & E & Hx & Hst & Hd & Hv)].
    + unfold seq, bind. destruct (export_word y s) as [o s1]. cbn in E. subst o. cbn. split; [intros _|reflexivity].
      destruct H as [[H1 H2]|(H1 & v & H2 & H3)]; [apply ex_definition; assumption|eapply ex_value; eassumption].
    + rewrite (seq_ok _ _ _ _ _ E). rewrite IH by (rewrite Hst; exact Hs). split; [intros H; eapply ex_after; eassumption|].
      intros H. inversion H as [? ? ? H1 H2|? ? ? v H1 H2 H3|? m' ? ? H1 H2]; subst; [tauto|rewrite (Hv v H1 H2) in H3; discriminate|].
      rewrite (exports_fun _ _ _ _ Hx H1). exact H2.
Qed.

(** [export x1 ...], for words that are definitions or names, crashes exactly in
    these cases. *)
Theorem C53_export_crash : forall w d (ws : list str) (y : str) (ys : list str) s, sget (lit "export") (al (im s)) = None ->
  Forall written_arg ws -> Forall2 (ordinary (expand_var (cm (im s)))) ws (y :: ys) -> stack (cm (im s)) <> [] ->
  ~ within (lit "-p") y -> y <> lit "context" ->
  fst (exec_text w (S d) (r_words (lit "export" :: ws)) s) = OPanic <-> export_crashes (cm (im s)) (y :: ys).
Proof.
  intros w d ws y ys s Ha Hw Ho Hs Hp Hc.
  rewrite (exec_args_line w d (lit "export") ws (y :: ys) s eq_refl ltac:(discriminate) Ha Hw Ho), crash_lift, call_export.
  unfold export_cmd. cbn [words_of sc_suffix word_list]. rewrite (not_within _ _ Hp).
  destruct (str_eqb_spec y (lit "context")) as [F|_]; [contradiction|].
  apply (export_words_crash (y :: ys) (blocked s) Hs).
Qed.
(** The first word asks for the listing, or there is none: no crash. *)
Theorem C53_export_list : forall w d (ws vs : list str) s, sget (lit "export") (al (im s)) = None ->
  Forall written_arg ws -> Forall2 (ordinary (expand_var (cm (im s)))) ws vs ->
  (forall y ys, vs = y :: ys -> within (lit "-p") y) ->
  fst (exec_text w (S d) (r_words (lit "export" :: ws)) s) = OOk 0.
Proof.
  intros w d ws vs s Ha Hw Ho Hp.
  rewrite (exec_args_line w d (lit "export") ws vs s eq_refl ltac:(discriminate) Ha Hw Ho), call_export.
  unfold export_cmd, print_env. cbn [words_of sc_suffix word_list].
  assert (HS : forall ts s, fst (match say_all ts s with (OOk _, s') => (@OOk Z 0, s') | (o, s') => (lift o, s') end) = OOk 0).
  { intros ts s'. pose proof (say_all_ok ts s') as E. destruct (say_all ts s') as [o s2]. cbn in E. subst o. reflexivity. }
  destruct vs as [|y ys].
  - rewrite (bind_ok (look env) _ (blocked s) (env (im (blocked s))) (blocked s) eq_refl). apply HS.
  - rewrite (proj2 (within_bool _ _) (Hp y ys eq_refl)).
    rewrite (bind_ok (look env) _ (blocked s) (env (im (blocked s))) (blocked s) eq_refl). apply HS.
Qed.

Example C53_export_example :
  fst (exec_text PropertiesEval.ex_os 5 (lit " export A=1 1B=18446744073709551616") PropertiesEval.ex_shell) = OPanic /\
  fst (exec_text PropertiesEval.ex_os 5 (lit " export A=1 B=18446744073709551616") PropertiesEval.ex_shell) = OOk 0 /\
  fst (exec_text PropertiesEval.ex_os 5 (lit " export A=1 B A") PropertiesEval.ex_shell) = OOk 0 /\
  fst (exec_text PropertiesEval.ex_os 5 (lit " export -p A") PropertiesEval.ex_shell) = OOk 0 /\
  undefinable (lit "1B=18446744073709551616") /\ ~ undefinable (lit "B=18446744073709551616").
Proof.
  do 4 (split; [vm_compute; reflexivity|]). split; [left; vm_compute; reflexivity|].
  intros [H|[H|[H|H]]]; vm_compute in H; intuition discriminate.
Qed.

(** ** Arguments that are too long numbers *)

(** The [k]-th of the arguments, counted from 0, has too many digits to be stored
    as parameter [i+k], no earlier one is an ampersand, and the parameter is not
    readonly. *)
Definition overflows (i : N) (args : list str) (m : cmgr) (k : nat) : Prop :=
  exists a, nth_error args k = Some a /\ (18446744073709551615 < ContextSpec.digits_of (N_to_str (i + N.of_nat k) ++ lit "=" ++ a))%N /\
  (forall j b, (j <= k)%nat -> nth_error args j = Some b -> b <> lit "&") /\
  forall v, get_var (N_to_str (i + N.of_nat k)) m <> Some (Var v true).

Lemma N_to_str_digit i : exists c r, N_to_str i = c :: r /\ is_digit c = true.
Proof.
  pose proof (GrammarFacts.uint_digits_is_digit (N.to_uint i)) as HF. fold (N_to_str i) in HF.
  destruct (N_to_str i) as [|c r] eqn:E; [exfalso|].
  - revert E. clear. unfold N_to_str. intros E.
    assert (H : N.to_uint i <> Decimal.Nil) by (destruct i as [|p]; [discriminate|apply DecimalPos.Unsigned.to_uint_nonnil]).
    destruct (N.to_uint i); cbn in E; congruence.
  - exists c, r. split; [reflexivity|]. inversion HF; subst. unfold is_digit. match goal with K : (48 <= c <= 57)%N |- _ => destruct K as [K1 K2] end.
    unfold to_digit. rewrite (proj2 (N.leb_le _ _) K1), (proj2 (N.leb_le _ _) K2). reflexivity.
Qed.
Lemma param_unsettable i a : ContextSpec.unsettable (ContextLaws.param i a) = true <->
  (18446744073709551615 < ContextSpec.digits_of (N_to_str i ++ lit "=" ++ a))%N.
Proof.
  unfold ContextLaws.param. destruct (N_to_str_digit i) as (c & r & -> & Hc).
  cbn [app ContextSpec.unsettable]. rewrite Hc. cbn [andb]. apply N.ltb_lt.
Qed.
Lemma assign_none set m : ContextSpec.cm_wf m -> ContextSpec.perform (ContextSpec.OAssign set) m = None <->
  ContextSpec.unsettable set = true /\ forall v, ContextSpec.first_some (ContextLaws.column (ContextSpec.target set) m) <> Some (v, true).
Proof.
  intros H. pose proof (ContextFacts.perform_meaning (ContextSpec.OAssign set) m H I) as HM. cbn [ContextSpec.meaning] in HM.
  rewrite ContextLaws.lookup_column, <- ContextLaws.column_env in HM.
  destruct (ContextSpec.perform (ContextSpec.OAssign set) m) as [m1|].
  - split; [discriminate|]. intros [Hu Hr].
    destruct (ContextSpec.first_some _) as [[v [|]]|]; [destruct (Hr v eq_refl)| |]; rewrite Hu in HM; destruct HM.
  - split; [|reflexivity]. intros _.
    destruct (ContextSpec.first_some _) as [[v [|]]|]; [destruct HM| |];
      (destruct (ContextSpec.unsettable set); [|destruct HM]); split; congruence.
Qed.
Lemma params_none args : forall i m, ContextSpec.cm_wf m ->
  ContextSpec.performs (ContextLaws.params i args) m = None <-> exists k, overflows i args m k.
Proof.
  induction args as [|x args IH]; intros i m H.
  - cbn. split; [discriminate|]. intros (k & a & E & _). destruct k; discriminate.
  - cbn [ContextLaws.params]. destruct (str_eqb_spec x (lit "&")) as [->|Hx].
    { cbn. split; [discriminate|]. intros (k & a & _ & _ & F & _). destruct (F 0%nat (lit "&") ltac:(lia) eq_refl eq_refl). }
    cbn [ContextSpec.performs].
    pose proof (assign_none (ContextLaws.param i x) m H) as HA. rewrite param_unsettable, ContextLaws.param_target in HA.
    pose proof (ContextLaws.N_to_str_unqualified i) as Hq.
    destruct (ContextSpec.perform (ContextSpec.OAssign (ContextLaws.param i x)) m) as [m1|] eqn:P.
    + rewrite (IH (i + 1)%N m1 (ContextFacts.perform_wf _ _ _ H P)).
      assert (G : forall k v, get_var (N_to_str (i + 1 + N.of_nat k)) m1 = Some (Var v true) <-> get_var (N_to_str (i + 1 + N.of_nat k)) m = Some (Var v true)).
      { intros k v. pose proof (ContextLaws.N_to_str_unqualified (i + 1 + N.of_nat k)) as Hq'.
        assert (E : get_var (N_to_str (i + 1 + N.of_nat k)) m1 = get_var (N_to_str (i + 1 + N.of_nat k)) m); [|rewrite E; tauto].
        apply ContextLaws.binding_of_inj. rewrite !ContextLaws.get_var_column by (auto; exact (ContextFacts.perform_wf _ _ _ H P)).
        rewrite (ContextLaws.perform_column _ _ _ (N_to_str (i + 1 + N.of_nat k)) H P); [reflexivity|].
        cbn [ContextLaws.writes]. rewrite ContextLaws.param_target. intros Hc.
        assert (Hj' : N_to_str i = N_to_str (i + 1 + N.of_nat k)) by congruence. apply ContextLaws.N_to_str_inj in Hj'. lia. }
      split.
      * intros (k & a & E & Hd & F & Hr). exists (S k), a. replace (i + N.of_nat (S k))%N with (i + 1 + N.of_nat k)%N by lia.
        split; [exact E|]. split; [exact Hd|]. split.
        -- intros [|j] b Hj Eb; [injection Eb as <-; exact Hx|]. apply (F j b); [lia|exact Eb].
        -- intros v Hv. apply G in Hv. exact (Hr v Hv).
      * intros ([|k] & a & E & Hd & F & Hr).
        -- exfalso. cbn in E. injection E as <-. cbn [N.of_nat] in *. rewrite N.add_0_r in *.
           assert (N : @None cmgr = Some m1); [|discriminate]. symmetry. rewrite <- P.
           assert (Q : Some m1 = None); [|congruence]. apply HA. split; [exact Hd|].
           apply ContextLaws.not_readonly_column; assumption.
        -- exists k, a. replace (i + N.of_nat (S k))%N with (i + 1 + N.of_nat k)%N in * by lia.
           split; [exact E|]. split; [exact Hd|]. split; [intros j b Hj Eb; apply (F (S j) b); [lia|exact Eb]|].
           intros v Hv. apply G in Hv. exact (Hr v Hv).
    + split; [|reflexivity]. intros _. destruct (proj1 HA eq_refl) as [Hd Hr]. exists 0%nat, x. cbn [N.of_nat nth_error]. rewrite N.add_0_r.
      split; [reflexivity|]. split; [exact Hd|]. split.
      * intros j b Hj Eb. replace j with 0%nat in Eb by lia. injection Eb as <-. exact Hx.
      * intros v Hv. apply (Hr v). rewrite <- ContextLaws.get_var_column by assumption. rewrite Hv. reflexivity.
Qed.

(** [source file a1 ...] crashes exactly when a parameter cannot be stored, PATH is
    needed and not set, the file is not text, or a command in the file crashes. *)
Theorem C53_source_crash : forall w d (name x : str) (more : list str) (file : str) (args : list str) s, In name [lit "."; lit "source"] ->
  sget name (al (im s)) = None ->
  Forall written_arg (x :: more) -> Forall2 (ordinary (expand_var (cm (im s)))) (x :: more) (file :: args) ->
  Forall (fun a => a <> lit "&") args -> ContextSpec.cm_wf (cm (im s)) ->
  fst (exec_text w (S d) (r_words (name :: x :: more)) s) = OPanic <->
  (exists k, overflows 1 args (cm (im s)) k) \/
  exists m, ContextSpec.performs (ContextLaws.params 1 args) (cm (im s)) = Some m /\
    ((~ In (ch "/") file /\ lookup_command (r_isfile (w (trace s))) file m = None) \/
     exists path, source_path (w (trace s)) m file path /\ r_open (w (trace s)) path for_reading = true /\
       (r_read (w (EOpen path for_reading :: trace s)) path = None \/
        exists t c, r_read (w (EOpen path for_reading :: trace s)) path = Some t /\ parse t = Some c /\
          fst (exec_text w d t (Shell (with_fds (ninsert (lowest (fds (im s))) (Desc (OpenFile path for_reading) true) (fds (im s)))
                     (with_cm m (masked_as true (im s)))) (EOpen path for_reading :: trace s))) = OPanic)).
Proof.
  intros w d name x more file args s Hname Ha Hw Ho Hamp Hwf.
  assert (Hb : check_if_builtin name = true /\ name <> []).
  { destruct Hname as [<-|[<-|[]]]; split; try reflexivity; discriminate. }
  rewrite <- params_none by exact Hwf.
  destruct (ContextSpec.performs (ContextLaws.params 1 args) (cm (im s))) as [m|] eqn:Hm.
  - transitivity ((~ In (ch "/") file /\ lookup_command (r_isfile (w (trace s))) file m = None) \/
     exists path, source_path (w (trace s)) m file path /\ r_open (w (trace s)) path for_reading = true /\
       (r_read (w (EOpen path for_reading :: trace s)) path = None \/
        exists t c, r_read (w (EOpen path for_reading :: trace s)) path = Some t /\ parse t = Some c /\
          fst (exec_text w d t (Shell (with_fds (ninsert (lowest (fds (im s))) (Desc (OpenFile path for_reading) true) (fds (im s)))
                     (with_cm m (masked_as true (im s)))) (EOpen path for_reading :: trace s))) = OPanic)).
    2:{ split; [intros H; right; exists m; split; [reflexivity|exact H]|]. intros [F|(m' & E & H)]; [discriminate|]. injection E as <-. exact H. }
    assert (Hcase : (exists path, source_path (w (trace s)) m file path) \/ (~ In (ch "/") file /\ lookup_command (r_isfile (w (trace s))) file m = None)).
    { unfold source_path. destruct (in_dec N.eq_dec (ch "/") file) as [Hin|Hin]; [left; exists file; tauto|].
      destruct (lookup_command (r_isfile (w (trace s))) file m) as [[p|]|] eqn:El; [left; exists p; auto|left; exists file; auto|right; auto]. }
    destruct Hcase as [(path & Hp)|[Hin Hl]].
    + assert (Hun : forall q, source_path (w (trace s)) m file q -> q = path).
      { intros q Hq. destruct Hq as [[A ->]|[A Hq]], Hp as [[B ->]|[B Hp]]; try tauto.
        destruct Hq as [Hq|[Hq ->]], Hp as [Hp|[Hp ->]]; congruence. }
      assert (Hno : ~ (~ In (ch "/") file /\ lookup_command (r_isfile (w (trace s))) file m = None)).
      { intros [A B]. destruct Hp as [[C _]|[_ [C|[C _]]]]; congruence. }
      destruct (r_open (w (trace s)) path for_reading) eqn:Hopen.
      * destruct (r_read (w (EOpen path for_reading :: trace s)) path) as [t|] eqn:Hread.
        -- destruct (parse t) as [c|] eqn:Hparse.
           ++ pose proof (C94_source_partial w d name x file more args s m path t c Hname Ha Hw Ho Hamp Hm Hp Hopen Hread Hparse) as E.
              cbv zeta in E. rewrite E.
              set (r := exec_text w d t _). transitivity (fst r = OPanic).
              { destruct r as [[] s2]; cbn; split; congruence. }
              split.
              ** intros H. right. exists path. split; [exact Hp|]. split; [exact Hopen|]. right. exists t, c. auto.
              ** intros [H|(q & Hq & _ & [H|(t' & c' & H1 & H2 & H3)])]; [contradiction| |]; apply Hun in Hq; subst q; [congruence|].
                 rewrite Hread in H1. injection H1 as <-. exact H3.
           ++ pose proof (proj2 (C94_errors w d name x file more args s m path Hname Ha Hw Ho Hamp Hm Hp) t Hopen Hread Hparse) as E.
              cbv zeta in E. rewrite E. cbn [fst]. split; [discriminate|].
              intros [H|(q & Hq & _ & [H|(t' & c' & H1 & H2 & H3)])]; [contradiction| |]; apply Hun in Hq; subst q; congruence.
        -- split; [intros _; right; exists path; auto|]. intros _.
           rewrite (exec_args_line w d name (x :: more) (file :: args) s (proj1 Hb) (proj2 Hb) Ha Hw Ho), crash_lift.
           assert (Hcall : call_builtin w (evaluate w d) (SimpleCommand None name (Some (Suffix [] (file :: args)))) =
             source_cmd w (evaluate w d) (SimpleCommand None name (Some (Suffix [] (file :: args))))).
           { destruct Hname as [<-|[<-|[]]]; [apply call_dot|apply call_source]. }
           rewrite Hcall. unfold source_cmd. cbn [words_of sc_suffix word_list].
           set (s0 := Shell (with_cm m (im (blocked s))) (trace s)).
           assert (E0 : source_args 1 args (blocked s) = (OOk tt, s0)).
           { rewrite (source_args_performs args Hamp 1 (blocked s)). change (cm (im (blocked s))) with (cm (im s)). rewrite Hm. reflexivity. }
           rewrite (seq_ok _ _ _ _ _ E0).
           assert (E1 : (if contains_char (ch "/") file then ret file
               else p <- sh_lookup_command w file ;; ret match p with Some q => q | None => file end) s0 = (OOk path, s0)).
           { destruct Hp as [[Hin ->]|[Hin Hl]].
             - rewrite (proj2 (contains_char_In _ _) Hin). reflexivity.
             - rewrite (proj2 (contains_char_notIn _ _) Hin). unfold sh_lookup_command, ask, look, bind. cbn [trace s0 im cm with_cm].
               destruct Hl as [Hl|[Hl ->]]; rewrite Hl; reflexivity. }
           rewrite (bind_ok _ _ _ _ _ E1). unfold sys_open, ask. unfold bind at 1. unfold bind at 1. cbn [trace s0]. rewrite Hopen.
           unfold while_open, catch, bind. cbn. rewrite Hread. reflexivity.
      * pose proof (proj1 (C94_errors w d name x file more args s m path Hname Ha Hw Ho Hamp Hm Hp) Hopen) as E.
        rewrite E. cbn [fst]. split; [discriminate|].
        intros [H|(q & Hq & H & _)]; [contradiction|]. apply Hun in Hq; subst q. congruence.
    + split; [intros _; left; auto|]. intros _.
      rewrite (exec_args_line w d name (x :: more) (file :: args) s (proj1 Hb) (proj2 Hb) Ha Hw Ho), crash_lift.
      assert (Hcall : call_builtin w (evaluate w d) (SimpleCommand None name (Some (Suffix [] (file :: args)))) =
        source_cmd w (evaluate w d) (SimpleCommand None name (Some (Suffix [] (file :: args))))).
      { destruct Hname as [<-|[<-|[]]]; [apply call_dot|apply call_source]. }
      rewrite Hcall. unfold source_cmd. cbn [words_of sc_suffix word_list].
      set (s0 := Shell (with_cm m (im (blocked s))) (trace s)).
      assert (E0 : source_args 1 args (blocked s) = (OOk tt, s0)).
      { rewrite (source_args_performs args Hamp 1 (blocked s)). change (cm (im (blocked s))) with (cm (im s)). rewrite Hm. reflexivity. }
      rewrite (seq_ok _ _ _ _ _ E0). rewrite (proj2 (contains_char_notIn _ _) Hin).
      unfold sh_lookup_command, ask, look, bind. cbn [trace s0 im cm with_cm]. rewrite Hl. reflexivity.
  - split; [intros _; left; reflexivity|]. intros _.
    rewrite (exec_args_line w d name (x :: more) (file :: args) s (proj1 Hb) (proj2 Hb) Ha Hw Ho), crash_lift.
    assert (Hcall : call_builtin w (evaluate w d) (SimpleCommand None name (Some (Suffix [] (file :: args)))) =
      source_cmd w (evaluate w d) (SimpleCommand None name (Some (Suffix [] (file :: args))))).
    { destruct Hname as [<-|[<-|[]]]; [apply call_dot|apply call_source]. }
    rewrite Hcall. unfold source_cmd. cbn [words_of sc_suffix word_list].
    assert (K : forall i s, ContextSpec.performs (ContextLaws.params i args) (cm (im s)) = None -> fst (source_args i args s) = OPanic).
    { clear -Hamp. induction Hamp as [|a args Ha H IH]; intros i s E; [discriminate|].
      cbn [ContextLaws.params] in E. rewrite (proj2 (str_eqb_neq a (lit "&")) Ha) in E. cbn [ContextSpec.performs ContextSpec.perform] in E.
      cbn [source_args]. change (N_to_str i ++ lit "=" ++ a) with (ContextLaws.param i a).
      unfold seq, bind, try_cm, try_. destruct (add_var (ContextLaws.param i a) (cm (im s))) as [m1|] eqn:E1; [|reflexivity].
      apply (IH (i + 1)%N (Shell (with_cm m1 (im s)) (trace s))). exact E. }
    specialize (K 1%N (blocked s) Hm). unfold seq, bind at 1. destruct (source_args 1 args (blocked s)) as [o s1]. cbn in K. subst o. reflexivity.
Qed.

Example C53_source_example :
  let w := fun _ : list event => Reports (fun _ => true) (fun _ _ => true) (fun _ => Some (lit "ls $1")) (fun _ => true) (Some (lit "/"))
          (fun _ => true) true (Some 100%positive) (fun _ _ => true) 100 [AStatus (Exited 100 0); AFail] (fun _ _ => None) in
  fst (exec_text w 5 (lit " source /f 20231117123456789012") PropertiesEval.ex_shell) = OPanic /\
  fst (exec_text w 5 (lit " source /f 2023") PropertiesEval.ex_shell) = OOk 0 /\
  overflows 1 [lit "20231117123456789012"] (cm (im PropertiesEval.ex_shell)) 0.
Proof.
  cbn zeta. split; [vm_compute; reflexivity|]. split; [vm_compute; reflexivity|].
  exists (lit "20231117123456789012"). split; [reflexivity|]. split; [vm_compute; reflexivity|]. split.
  - intros [|j] b Hj E; [|lia]. injection E as <-. discriminate.
  - intros v. vm_compute. discriminate.
Qed.

(** ** C103: the arguments of a function *)

(** The name of the function does not fit into $0. *)
Definition name_overflows (n : str) (m : cmgr) : Prop :=
  (18446744073709551615 < ContextSpec.digits_of (lit "0=" ++ n))%N /\ forall v, get_var (lit "0") m <> Some (Var v true).

Lemma push_get x m : ContextSpec.cm_wf m -> ContextSpec.unqualified x -> get_var x (push_context_new m) = get_var x m.
Proof.
  intros H Hx. apply ContextLaws.binding_of_inj.
  rewrite !ContextLaws.get_var_column by (auto; apply ContextFacts.wf_push; exact H).
  rewrite ContextLaws.push_column by exact H. reflexivity.
Qed.
Lemma assign_get set x m m' : ContextSpec.cm_wf m -> ContextSpec.perform (ContextSpec.OAssign set) m = Some m' ->
  ContextSpec.unqualified x -> ContextSpec.target set <> x -> get_var x m' = get_var x m.
Proof.
  intros H P Hx Hne. apply ContextLaws.binding_of_inj.
  rewrite !ContextLaws.get_var_column by (auto; exact (ContextFacts.perform_wf _ _ _ H P)).
  rewrite (ContextLaws.perform_column _ _ _ x H P); [reflexivity|]. cbn. congruence.
Qed.
Lemma overflows_ext i args m m' k : (forall v, get_var (N_to_str (i + N.of_nat k)) m = Some (Var v true) <-> get_var (N_to_str (i + N.of_nat k)) m' = Some (Var v true)) ->
  overflows i args m k <-> overflows i args m' k.
Proof.
  intros H. split; intros (a & E & Hd & F & Hr); exists a; (split; [exact E|]); (split; [exact Hd|]); (split; [exact F|]);
    intros v Hv; apply H in Hv; exact (Hr v Hv).
Qed.
Lemma entry_none n vs m : ContextSpec.cm_wf m ->
  ContextSpec.performs (ContextLaws.entry n vs) m = None <-> name_overflows n m \/ exists k, overflows 1 vs m k.
Proof.
  intros H. unfold ContextLaws.entry. cbn [ContextSpec.performs].
  change (ContextSpec.perform ContextSpec.OPush m) with (Some (push_context_new m)). cbv iota.
  pose proof (ContextFacts.wf_push m H) as Hp.
  pose proof (assign_none (ContextLaws.param 0 n) (push_context_new m) Hp) as HA.
  rewrite param_unsettable, ContextLaws.param_target in HA.
  change (N_to_str 0 ++ lit "=" ++ n) with (lit "0=" ++ n) in HA.
  pose proof (ContextLaws.N_to_str_unqualified 0) as Hq.
  assert (HN : (forall v, ContextSpec.first_some (ContextLaws.column (N_to_str 0) (push_context_new m)) <> Some (v, true)) <->
               (forall v, get_var (lit "0") m <> Some (Var v true))).
  { rewrite ContextLaws.push_column by exact H. cbn [ContextSpec.first_some].
    rewrite <- (ContextLaws.get_var_column (N_to_str 0) m H Hq). change (N_to_str 0) with (lit "0"). split; intros F v E.
    - apply (F v). rewrite E. reflexivity.
    - destruct (get_var (lit "0") m) as [[u r]|] eqn:Eg; [|discriminate]. cbn in E. injection E as -> ->. exact (F v eq_refl). }
  rewrite HN in HA. fold (name_overflows n m) in HA.
  destruct (ContextSpec.perform (ContextSpec.OAssign (ContextLaws.param 0 n)) (push_context_new m)) as [m1|] eqn:P.
  - rewrite (params_none vs 1 m1 (ContextFacts.perform_wf _ _ _ Hp P)).
    assert (Hext : forall k, overflows 1 vs m1 k <-> overflows 1 vs m k).
    { intros k. apply overflows_ext. intros v. pose proof (ContextLaws.N_to_str_unqualified (1 + N.of_nat k)) as Hq'.
      rewrite (assign_get _ (N_to_str (1 + N.of_nat k)) _ _ Hp P Hq').
      - rewrite push_get by assumption. tauto.
      - rewrite ContextLaws.param_target. intros E. apply ContextLaws.N_to_str_inj in E. lia. }
    split; [intros (k & Hk); right; exists k; apply Hext; exact Hk|].
    intros [F|(k & Hk)]; [|exists k; apply Hext; exact Hk]. apply HA in F. discriminate.
  - split; [|reflexivity]. intros _. left. apply HA. reflexivity.
Qed.

(** Calling a function with an argument (or under a name) whose digits, read
    together, are too big a number crashes the shell: [f 20231117123456789012]. *)
Theorem C103_digits_refuted : forall w d (n : str) (ws : list str) vs body s, check_if_builtin n = false -> plain_name (al (im s)) n ->
  written_word n -> Forall written_arg ws -> Forall2 (ordinary (expand_var (cm (im s)))) ws vs ->
  (forall c, In c (List.concat (n :: vs)) -> c <> 0%N) ->
  get_function n (cm (im s)) = Some body -> ContextSpec.cm_wf (cm (im s)) ->
  name_overflows n (cm (im s)) \/ (exists k, overflows 1 vs (cm (im s)) k) ->
  exec_text w (S (S d)) (r_words (n :: ws)) s = (OPanic, blocked s).
Proof.
  intros w d n ws vs body s Hb Hn Hw Hws Ho Hz Hf Hcm Hov.
  apply (entry_none n vs (cm (im s)) Hcm) in Hov. rewrite <- ContextLaws.enter_performs in Hov.
  destruct (args_line n ws (proj1 Hn) Hw Hws) as [A1 A2]. rewrite <- A2, exec_pipeline by exact A1.
  unfold eval_pipeline. rewrite (seq_ok interrupts_off _ s tt (blocked s) eq_refl).
  rewrite (bind_ok _ _ _ _ _ (gather_words w (evaluate w (S d)) n ws vs (blocked s) Hb Hn Ho Hz)).
  cbn [run_functions snd sc_name].
  assert (Hif : is_function n (cm (im (blocked s))) = true).
  { apply PropertiesContext.C30_is_function. change (cm (im (blocked s))) with (cm (im s)). rewrite Hf. discriminate. }
  unfold bind at 1, look at 1. unfold bind at 1. unfold bind at 1. rewrite Hif. unfold bind at 1.
  unfold eval_function. rewrite (bind_ok (look cm) _ (blocked s) (cm (im s)) (blocked s) eq_refl). cbn [sc_name].
  rewrite Hf. unfold seq at 1, bind at 1. unfold try_cm, try_. change (cm (im (blocked s))) with (cm (im s)).
  unfold words_of. cbn [sc_suffix word_list]. rewrite Hov. reflexivity.
Qed.

(** Otherwise the call is made, and $k is the k-th argument - up to its first equals
    sign, without quotes around it, and only as far as the first argument that is an
    ampersand.  (C101 says what happens then.) *)
Theorem C103_arguments_partial : forall n vs m, ContextSpec.cm_wf m ->
  ~ name_overflows n m -> (forall k, ~ overflows 1 vs m k) ->
  exists m1, ContextSpec.performs (ContextLaws.entry n vs) m = Some m1 /\
  forall k a, nth_error vs k = Some a -> (forall b, In b vs -> b <> lit "&") ->
    (forall v, get_var (N_to_str (1 + N.of_nat k)) m <> Some (Var v true)) ->
    expand_var m1 (N_to_str (1 + N.of_nat k)) = Some (ContextSpec.unquote (ContextSpec.upto (ch "=") a)).
Proof.
  intros n vs m H Hn Hk.
  destruct (ContextSpec.performs (ContextLaws.entry n vs) m) as [m1|] eqn:E.
  - exists m1. split; [reflexivity|]. intros k a Ek Ha Hr.
    rewrite <- ContextLaws.enter_performs in E.
    destruct (PropertiesContext.C27_arguments_bound_partial n vs m m1 H E) as [_ HB].
    { apply Forall_forall. exact Ha. }
    unfold expand_var. rewrite (HB k a Ek Hr). reflexivity.
  - exfalso. apply entry_none in E; [|exact H]. destruct E as [E|[k E]]; [exact (Hn E)|exact (Hk k E)].
Qed.
(** In particular an argument [x=y] loses its end: [f x=y] sees [x]. *)
Theorem C103_equals_refuted : forall n vs m m1 k x y, ContextSpec.cm_wf m ->
  ContextSpec.performs (ContextLaws.entry n vs) m = Some m1 ->
  nth_error vs k = Some (x ++ ch "=" :: y) -> ~ In (ch "=") x -> ContextSpec.unquote x = x -> (forall b, In b vs -> b <> lit "&") ->
  (forall v, get_var (N_to_str (1 + N.of_nat k)) m <> Some (Var v true)) ->
  expand_var m1 (N_to_str (1 + N.of_nat k)) = Some x.
Proof.
  intros n vs m m1 k x y H E Ek Hx Hu Ha Hr. rewrite <- ContextLaws.enter_performs in E.
  destruct (PropertiesContext.C27_arguments_bound_partial n vs m m1 H E) as [_ HB].
  { apply Forall_forall. exact Ha. }
  unfold expand_var. rewrite (HB k _ Ek Hr). cbn [value]. rewrite ContextLaws.upto_app by (apply contains_char_notIn; exact Hx). rewrite Hu. reflexivity.
Qed.
(** ... and the arguments from an ampersand on (quoted, say) are dropped. *)
Theorem C103_ampersand_refuted : forall n vs vs' m, (forall b, In b vs -> b <> lit "&") ->
  ContextSpec.performs (ContextLaws.entry n (vs ++ lit "&" :: vs')) m = ContextSpec.performs (ContextLaws.entry n vs) m.
Proof.
  intros n vs vs' m H. unfold ContextLaws.entry.
  assert (E : forall i, ContextLaws.params i (vs ++ lit "&" :: vs') = ContextLaws.params i vs); [|rewrite E; reflexivity].
  induction vs as [|a vs IH]; intros i; [reflexivity|]. cbn [app ContextLaws.params].
  destruct (str_eqb_spec a (lit "&")) as [->|_]; [reflexivity|]. rewrite IH; [reflexivity|]. intros b Hb. apply H. right. exact Hb.
Qed.

Example C103_example :
  let s := snd (exec_text PropertiesEval.ex_os 5 (lit " f ( ) { ls $1 $2 $3 ; }") PropertiesEval.ex_shell) in
  let ran t := let r := exec_text PropertiesEval.ex_os 5 t s in
    (fst r, rev (flat_map (fun e => match e with EFork _ c _ => [p_argv (c_proc c)] | _ => [] end) (trace (snd r)))) in
  ran (lit " f 20231117123456789012") = (OPanic, []) /\
  overflows 1 [lit "20231117123456789012"] (cm (im s)) 0 /\ ContextSpec.cm_wf (cm (im s)) /\
  ran (lit " f a b=c 'd e'") = (OOk 0, [[lit "ls"; lit "a"; lit "b"; lit "d e"]]) /\
  ran (lit " f a '&' b") = (OOk 0, [[lit "ls"; lit "a"; lit "$2"; lit "$3"]]).
Proof.
  cbn zeta. split; [vm_compute; reflexivity|]. split.
  - exists (lit "20231117123456789012"). split; [reflexivity|]. split; [vm_compute; reflexivity|]. split.
    + intros [|j] b Hj E; [|lia]. injection E as <-. discriminate.
    + intros v. vm_compute. discriminate.
  - split; [|split; vm_compute; reflexivity].
    vm_compute. constructor; cbn; repeat constructor; cbn; try discriminate; intuition (try discriminate; lia).
Qed.

Print Assumptions C33_alias_line.
Print Assumptions C33_unalias_line.
Print Assumptions C33_unalias_many_refuted.
Print Assumptions C33_unalias_all.
Print Assumptions C33_list_line.
Print Assumptions C53_export_crash.
Print Assumptions C53_export_list.
Print Assumptions C53_source_crash.
Print Assumptions C103_digits_refuted.
Print Assumptions C103_arguments_partial.
Print Assumptions C103_equals_refuted.
Print Assumptions C103_ampersand_refuted.
