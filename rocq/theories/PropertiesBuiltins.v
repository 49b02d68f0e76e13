(** Properties C89-C94: the builtins, as commands typed by the user. *)
From Verif Require Import Base BaseFacts Lexer LexerSpec Ast Parser GrammarSpec.
From Verif Require Import Context.
From Verif Require ContextSpec ContextFacts ContextLaws.
From Verif Require Import Alias Expand ExpandSpec ExpandFacts ExpandLaws Jobs Shell Builtins Eval.
From Verif Require Import EvalSpec EvalFacts EvalLaws EvalKeeps RunSpec RunLaws.
From Verif Require PropertiesEval PropertiesContext PropertiesCrash.
Local Open Scope Z_scope.

(** Two commands on one line: the second one runs in the state the first one
    leaves. *)
Lemma exec_two w d a b s st s1 : wf_andor a -> wf_andor b -> exec_text w d (r_andor a) s = (OOk st, s1) ->
  exec_text w d (r_andor a ++ lit " ;" ++ r_andor b) s = exec_text w d (r_andor b) s1.
Proof.
  intros Ha Hb E. change (r_andor a ++ lit " ;" ++ r_andor b) with (render [a; b]).
  destruct (exec_text w d (r_andor b) s1) as [o s'] eqn:E'.
  apply (exec_list w d [a; b] 0); [discriminate|apply Forall_cons; [exact Ha|apply Forall_cons; [exact Hb|apply Forall_nil]]|].
  destruct o as [z|e| |c|p v e| |].
  1:{ eexists. eapply in_order_run; [exact E|]. eapply in_order_run; [exact E'|]. apply in_order_end. }
  all: eexists; eapply in_order_run; [exact E|]; apply in_order_stop; [exact E'|exact I].
Qed.
Lemma exec_two_args w d (n : str) (ws : list str) (n' : str) (ws' : list str) s st s1 : n <> [] -> n' <> [] -> written_word n -> written_word n' ->
  Forall written_arg ws -> Forall written_arg ws' -> exec_text w d (r_words (n :: ws)) s = (OOk st, s1) ->
  exec_text w d (r_words (n :: ws) ++ lit " ;" ++ r_words (n' :: ws')) s = exec_text w d (r_words (n' :: ws')) s1.
Proof.
  intros N1 N2 W1 W2 F1 F2 E. destruct (args_line n ws N1 W1 F1) as [A1 A2]. destruct (args_line n' ws' N2 W2 F2) as [B1 B2].
  pose proof (exec_two w d (AoOne (Pipeline false [CSimple (words_cmd n ws)] false))
    (AoOne (Pipeline false [CSimple (words_cmd n' ws')] false)) s st s1 A1 B1) as H.
  cbn [r_andor] in H. rewrite A2, B2 in H. apply H, E.
Qed.

(** The same process, with the given signal mask. *)
Definition masked_as (b : bool) (i : image) : image := with_js (with_masked b (js i)) i.
(** ... and with one more line printed. *)
Definition printing (t : str) (i : image) : image :=
  with_js (Jst (jobs (js i)) (masked (js i)) (got_sigchld (js i)) (printed (js i) ++ [t])) i.

(** ** C89 *)

(** [cd dir ...]: the system is asked to change to the value of the first
    argument; on success nothing else changes, on failure it is an error and the
    signals stay blocked. *)
Theorem C89_cd_partial : forall w d x v more vs s, sget (lit "cd") (al (im s)) = None ->
  Forall written_arg (x :: more) -> Forall2 (ordinary (expand_var (cm (im s)))) (x :: more) (v :: vs) ->
  exec_text w (S d) (r_words (lit "cd" :: x :: more)) s =
  if r_chdir (w (trace s)) v then (OOk 0, Shell (masked_as false (im s)) (EChdir v :: trace s))
  else (OErr EOs, Shell (masked_as true (im s)) (trace s)).
Proof.
  intros w d x v more vs s Ha Hw Ho.
  rewrite (exec_args_line w d (lit "cd") (x :: more) (v :: vs) s eq_refl ltac:(discriminate) Ha Hw Ho), call_cd.
  unfold change_directory. rewrite (seq_ok interrupts_off _ (blocked s) tt (blocked s)) by reflexivity.
  cbn [words_of sc_suffix word_list]. unfold word_at. cbn [nth_error unwrap].
  rewrite (bind_ok (ret v) _ (blocked s) v (blocked s) eq_refl).
  unfold ask, bind at 1. change (trace (blocked s)) with (trace s).
  destruct (r_chdir (w (trace s)) v); reflexivity.
Qed.

(** Not so without an argument: [cd] does not go home but crashes, whatever HOME
    is.  And the variable PWD keeps its old value. *)
Theorem C89_home_refuted : forall w d s h, sget (lit "cd") (al (im s)) = None ->
  sget (lit "HOME") (env (im s)) = Some h ->
  exec_text w (S d) (r_words [lit "cd"]) s = (OPanic, Shell (masked_as true (im s)) (trace s)).
Proof.
  intros w d s h Ha _.
  rewrite (exec_args_line w d (lit "cd") [] [] s eq_refl ltac:(discriminate) Ha (Forall_nil _) (Forall2_nil _)), call_cd.
  reflexivity.
Qed.
Theorem C89_pwd_refuted : forall w d x v s, sget (lit "cd") (al (im s)) = None ->
  written_arg x -> ordinary (expand_var (cm (im s))) x v -> r_chdir (w (trace s)) v = true ->
  exists s', exec_text w (S d) (r_words [lit "cd"; x]) s = (OOk 0, s') /\ trace s' = EChdir v :: trace s /\
    expand_var (cm (im s')) (lit "PWD") = expand_var (cm (im s)) (lit "PWD") /\
    sget (lit "PWD") (env (im s')) = sget (lit "PWD") (env (im s)).
Proof.
  intros w d x v s Ha Hx Ho Hc. eexists. split.
  - rewrite (C89_cd_partial w d x v [] [] s Ha); [rewrite Hc; reflexivity|..]; constructor; auto.
  - repeat split.
Qed.

Example C89_example :
  ordinary (expand_var PropertiesEval.ex_cm) (lit "'/a b'") (lit "/a b") /\ written_arg (lit "'/a b'") /\
  lit " cd '/a b'" = r_words [lit "cd"; lit "'/a b'"] /\
  trace (snd (PropertiesEval.ex_run " cd '/a b'")) = [EChdir (lit "/a b")].
Proof.
  split; [apply (o_single _ (lit "/a b")); cbn; intuition discriminate|].
  split; [left; apply (ww_quoted (lit "'") (ch "'") (lit "/a b")); cbn; intuition discriminate|].
  split; [reflexivity|]. vm_compute. reflexivity.
Qed.

(** ** C90 *)

(** [pwd] prints the directory the system reports and changes nothing else (but
    leaves the signals blocked); if there is none it crashes. *)
Theorem C90_pwd_partial : forall w d ws vs s, sget (lit "pwd") (al (im s)) = None ->
  Forall written_arg ws -> Forall2 (ordinary (expand_var (cm (im s)))) ws vs ->
  exec_text w (S d) (r_words (lit "pwd" :: ws)) s =
  match r_cwd (w (trace s)) with
  | Some dir => (OOk 0, Shell (printing dir (masked_as true (im s))) (trace s))
  | None => (OPanic, Shell (masked_as true (im s)) (trace s))
  end.
Proof.
  intros w d ws vs s Ha Hw Ho.
  rewrite (exec_args_line w d (lit "pwd") ws vs s eq_refl ltac:(discriminate) Ha Hw Ho), call_pwd.
  unfold pwd, ask, bind. change (trace (blocked s)) with (trace s).
  destruct (r_cwd (w (trace s))); reflexivity.
Qed.

(** On a system that remembers where it was sent, [cd dir ; pwd] prints [dir]. *)
Theorem C90_after_cd : forall w d x v s, sget (lit "cd") (al (im s)) = None -> sget (lit "pwd") (al (im s)) = None ->
  written_arg x -> ordinary (expand_var (cm (im s))) x v -> r_chdir (w (trace s)) v = true ->
  r_cwd (w (EChdir v :: trace s)) = Some v ->
  exec_text w (S d) (r_words [lit "cd"; x] ++ lit " ;" ++ r_words [lit "pwd"]) s =
  (OOk 0, Shell (printing v (masked_as true (im s))) (EChdir v :: trace s)).
Proof.
  intros w d x v s Ha1 Ha2 Hx Ho Hc Hp.
  pose proof (proj1 (builtin_word (lit "cd") eq_refl ltac:(discriminate))) as W1.
  pose proof (proj1 (builtin_word (lit "pwd") eq_refl ltac:(discriminate))) as W2.
  rewrite (exec_two_args w (S d) (lit "cd") [x] (lit "pwd") [] s 0 (Shell (masked_as false (im s)) (EChdir v :: trace s)));
    [|discriminate|discriminate|exact W1|exact W2|constructor; [exact Hx|constructor]|constructor|].
  - rewrite (C90_pwd_partial w d [] []); [|exact Ha2|constructor|constructor].
    cbn [trace]. rewrite Hp. reflexivity.
  - rewrite (C89_cd_partial w d x v [] [] s Ha1); [rewrite Hc; reflexivity|..]; constructor; auto.
Qed.
Example C90_example :
  printed (js (im (snd (exec_text (fun t => match t with EChdir p :: _ =>
      Reports (fun _ => true) (fun _ _ => true) (fun _ => None) (fun _ => true) (Some p)
          (fun _ => true) true None (fun _ _ => true) 100 [] (fun _ _ => None)
    | _ => PropertiesEval.ex_reports 0 end) 3 (lit " cd /x ; pwd") PropertiesEval.ex_shell)))) = [lit "/x"].
Proof. vm_compute. reflexivity. Qed.

(** ** C91 *)

(** The variables of the global scope. *)
Definition global (n : str) (m : cmgr) : option var := ctx_get_var n (deref (get_env_context m) m).
(** [y] is [name=...]: what it defines.  The value ends at a second equals sign. *)
Definition gives (y n v : str) : Prop :=
  ContextSpec.target y = n /\ ContextSpec.assigned y = v /\ In (ch "=") y.
(** The words [ys] give these names these values; none of them crashes. *)
Definition definitions (ys : list str) (kvs : list (str * str)) : Prop :=
  Forall2 (fun y kv => gives y (fst kv) (snd kv) /\ fst kv <> [] /\ ~ In 0%N (fst kv) /\ ~ In 0%N (snd kv) /\
                       ContextSpec.unsettable y = false) ys kvs.
(** The last value given to a name. *)
Fixpoint last_of (n : str) (kvs : list (str * str)) : option str :=
  match kvs with
  | [] => None
  | (k, v) :: kvs' =>
      match last_of n kvs' with
      | Some u => Some u
      | None => if str_eqb n k then Some v else None
      end
  end.
(** No "-p" anywhere in it. *)
Definition no_p (y : str) : Prop := forall a b, y <> a ++ lit "-p" ++ b.

Lemma upto_no c s : ~ In c (ContextSpec.upto c s).
Proof.
  induction s as [|x s IH]; cbn; [tauto|]. destruct (N.eqb_spec x c); cbn; [tauto|]. intros [H|H]; [congruence|tauto].
Qed.

Lemma export_word_gives x k v s : gives x k v -> k <> [] -> ~ In 0%N k -> ~ In 0%N v ->
  ContextSpec.unsettable x = false -> stack (cm (im s)) <> [] ->
  export_word x s =
  (OOk tt, Shell (with_env (sinsert k v (env (im s)))
     (with_cm (update (get_env_context (cm (im s)))
        (ctx_put_var k (Var v false) (deref (get_env_context (cm (im s))) (cm (im s)))) (cm (im s))) (im s))) (trace s)).
Proof.
  intros (<- & <- & Hin) Hk Hn Hv Hu Hs. unfold export_word.
  rewrite (proj2 (contains_char_In _ _) Hin).
  assert (Hsp : split_char (ch "=") x = ContextSpec.upto (ch "=") x :: split_char (ch "=") (ContextSpec.past (ch "=") x)).
  { rewrite ContextFacts.split_char_upto. rewrite (proj2 (contains_char_In _ _) Hin). reflexivity. }
  assert (E0 : nth 0 (split_char (ch "=") x) [] = ContextSpec.target x) by (rewrite Hsp; reflexivity).
  assert (E1 : trim_quotes (nth 1 (split_char (ch "=") x) []) = ContextSpec.assigned x).
  { rewrite Hsp. rewrite ContextFacts.split_char_upto. cbn [nth]. rewrite ContextFacts.trim_quotes_unquote. reflexivity. }
  rewrite E0, E1.
  unfold seq. rewrite (bind_ok (try_cm (add_var_pos x 0)) _ s tt
     (Shell (with_cm (update (get_env_context (cm (im s)))
        (ctx_put_var (ContextSpec.target x) (Var (ContextSpec.assigned x) false) (deref (get_env_context (cm (im s))) (cm (im s)))) (cm (im s))) (im s)) (trace s))).
  - unfold set_env, try_. cbn [im].
    destruct (str_eqb_spec (ContextSpec.target x) []) as [E|_]; [congruence|].
    rewrite (proj2 (contains_char_notIn (ch "=") (ContextSpec.target x)) (upto_no (ch "=") x)).
    rewrite (proj2 (contains_char_notIn 0%N (ContextSpec.target x)) Hn).
    rewrite (proj2 (contains_char_notIn 0%N (ContextSpec.assigned x)) Hv). reflexivity.
  - unfold try_cm, try_, add_var_pos, get_env_context. destruct (stack (cm (im s))) as [|l st]; [congruence|].
    cbn [nth_error hd]. rewrite ContextFacts.ctx_set_spec, Hu. reflexivity.
Qed.

Lemma export_words_gives ys kvs s : definitions ys kvs -> ContextSpec.cm_wf (cm (im s)) ->
  exists s', export_words ys s = (OOk tt, s') /\
    (forall n, sget n (env (im s')) = match last_of n kvs with Some v => Some v | None => sget n (env (im s)) end) /\
    (forall n, global n (cm (im s')) = match last_of n kvs with Some v => Some (Var v false) | None => global n (cm (im s)) end) /\
    (forall l, l <> get_env_context (cm (im s)) -> deref l (cm (im s')) = deref l (cm (im s))) /\
    (forall f, ctx_get_function f (deref (get_env_context (cm (im s))) (cm (im s'))) =
               ctx_get_function f (deref (get_env_context (cm (im s))) (cm (im s)))) /\
    stack (cm (im s')) = stack (cm (im s)) /\ exported (cm (im s')) = exported (cm (im s)) /\
    im s' = with_env (env (im s')) (with_cm (cm (im s')) (im s)) /\ trace s' = trace s.
Proof.
  intros H. revert s. induction H as [|y [k v] ys kvs (Hg & Hk & Hn & Hv & Hu) H IH]; intros s Hwf.
  - exists s. cbn. repeat (split; [reflexivity|]). split; [destruct s as [[] ?]; reflexivity|reflexivity].
  - cbn [fst snd] in *. cbn [export_words].
    pose proof (ContextSpec.wf_nonempty _ Hwf) as Hs.
    rewrite (seq_ok _ _ _ _ _ (export_word_gives y k v s Hg Hk Hn Hv Hu Hs)).
    set (m := cm (im s)) in *. set (l := get_env_context m) in *.
    assert (Hl : (l < List.length (heap m))%nat).
    { pose proof (ContextSpec.wf_stack _ Hwf) as HF. unfold l, get_env_context. fold m in Hs. destruct (stack m); [congruence|]. inversion HF; assumption. }
    set (m1 := update l (ctx_put_var k (Var v false) (deref l m)) m).
    set (s1 := Shell (with_env (sinsert k v (env (im s))) (with_cm m1 (im s))) (trace s)).
    assert (Hwf1 : ContextSpec.cm_wf (cm (im s1))).
    { apply (ContextFacts.perform_wf (ContextSpec.OAssignAt 0 y) m); [exact Hwf|].
      cbn. unfold add_var_pos. unfold m1, l, get_env_context. fold m in Hs. destruct (stack m) as [|l0 st] eqn:Es; [congruence|].
      cbn [nth_error hd]. rewrite ContextFacts.ctx_set_spec, Hu. destruct Hg as (<- & <- & _). reflexivity. }
    destruct (IH s1 Hwf1) as (s' & E & H1 & H2 & H3 & H4 & H5 & H6 & H7 & H8).
    exists s'. split; [exact E|].
    change (get_env_context (cm (im s1))) with l in *.
    split; [|split; [|split; [|split; [|split; [|split; [|split]]]]]].
    + intros n. rewrite H1. cbn [last_of]. destruct (last_of n kvs); [reflexivity|]. cbn [env im s1 with_env].
      destruct (str_eqb_spec n k) as [->|Hne]; [apply sget_sinsert_eq|apply sget_sinsert_neq; congruence].
    + intros n. rewrite H2. cbn [last_of]. destruct (last_of n kvs); [reflexivity|].
      unfold global. change (get_env_context (cm (im s1))) with l. change (get_env_context (cm (im s))) with l.
      change (cm (im s1)) with m1. unfold m1. rewrite ContextFacts.deref_update by exact Hl. rewrite Nat.eqb_refl.
      destruct (str_eqb_spec n k) as [->|Hne].
      * unfold ctx_get_var, ctx_put_var. cbn [vars]. apply sget_sinsert_eq.
      * apply ContextLaws.get_put_neq. exact Hne.
    + intros l' Hl'. rewrite H3 by exact Hl'. change (cm (im s1)) with m1. unfold m1.
      rewrite ContextFacts.deref_update by exact Hl. destruct (Nat.eqb_spec l' l); [congruence|reflexivity].
    + intros f. rewrite H4. change (cm (im s1)) with m1. unfold m1.
      rewrite ContextFacts.deref_update by exact Hl. rewrite Nat.eqb_refl. reflexivity.
    + rewrite H5. reflexivity.
    + rewrite H6. reflexivity.
    + rewrite H7. reflexivity.
    + rewrite H8. reflexivity.
Qed.

(** [export n1=v1 n2=v2 ...]: each name has its value in the environment and in the
    global scope, the last one if it is given twice; nothing else changes. *)
Theorem C91_export_partial : forall w d ws y ys kvs s, sget (lit "export") (al (im s)) = None ->
  Forall written_arg ws -> Forall2 (ordinary (expand_var (cm (im s)))) ws (y :: ys) ->
  ContextSpec.cm_wf (cm (im s)) -> no_p y -> definitions (y :: ys) kvs ->
  exists s', exec_text w (S d) (r_words (lit "export" :: ws)) s = (OOk 0, s') /\
    (forall n, sget n (env (im s')) = match last_of n kvs with Some v => Some v | None => sget n (env (im s)) end) /\
    (forall n, global n (cm (im s')) = match last_of n kvs with Some v => Some (Var v false) | None => global n (cm (im s)) end) /\
    (forall l, l <> get_env_context (cm (im s)) -> deref l (cm (im s')) = deref l (cm (im s))) /\
    (forall f, ctx_get_function f (deref (get_env_context (cm (im s))) (cm (im s'))) =
               ctx_get_function f (deref (get_env_context (cm (im s))) (cm (im s)))) /\
    stack (cm (im s')) = stack (cm (im s)) /\ exported (cm (im s')) = exported (cm (im s)) /\
    im s' = with_env (env (im s')) (with_cm (cm (im s')) (masked_as true (im s))) /\ trace s' = trace s.
Proof.
  intros w d ws y ys kvs s Ha Hw Ho Hwf Hp Hd.
  rewrite (exec_args_line w d (lit "export") ws (y :: ys) s eq_refl ltac:(discriminate) Ha Hw Ho), call_export.
  unfold export_cmd. cbn [words_of sc_suffix word_list].
  destruct (contains_str (lit "-p") y) eqn:E.
  { apply contains_str_iff in E. destruct E as (a & b & ->). destruct (Hp a b eq_refl). }
  destruct (str_eqb_spec y (lit "context")) as [->|Hc].
  { inversion Hd as [|? ? ? ? H1 H2]; subst. destruct H1 as ((_ & _ & Hin) & _). cbn in Hin. intuition discriminate. }
  destruct (export_words_gives (y :: ys) kvs (blocked s) Hd Hwf) as (s' & E1 & R).
  rewrite E1. exists s'. split; [reflexivity|]. exact R.
Qed.

(** But anything that has "-p" in it is taken for the option -p: the environment
    is printed and nothing is exported.  E.g. [export DIR=/my-project]. *)
Theorem C91_dash_refuted : forall w d ws a b ys s, sget (lit "export") (al (im s)) = None ->
  Forall written_arg ws -> Forall2 (ordinary (expand_var (cm (im s)))) ws ((a ++ lit "-p" ++ b) :: ys) ->
  exists s', exec_text w (S d) (r_words (lit "export" :: ws)) s = (OOk 0, s') /\
    env (im s') = env (im s) /\ cm (im s') = cm (im s) /\
    printed (js (im s')) = printed (js (im s)) ++ map (fun kv => fst kv ++ lit "=" ++ snd kv) (env (im s)).
Proof.
  intros w d ws a b ys s Ha Hw Ho.
  rewrite (exec_args_line w d (lit "export") ws _ s eq_refl ltac:(discriminate) Ha Hw Ho), call_export.
  unfold export_cmd. cbn [words_of sc_suffix word_list].
  assert (E : contains_str (lit "-p") (a ++ lit "-p" ++ b) = true) by (apply contains_str_iff; exists a, b; reflexivity).
  rewrite E. unfold print_env. rewrite (bind_ok (look env) _ (blocked s) (env (im s)) (blocked s) eq_refl).
  assert (K : forall ts s, exists s', say_all ts s = (OOk tt, s') /\ env (im s') = env (im s) /\ cm (im s') = cm (im s) /\
    printed (js (im s')) = printed (js (im s)) ++ ts).
  { clear. induction ts as [|t ts IH]; intros s; cbn [say_all].
    - exists s. rewrite app_nil_r. auto.
    - rewrite (seq_ok (say t) _ s tt (Shell (with_js (print t (js (im s))) (im s)) (trace s)) eq_refl).
      destruct (IH (Shell (with_js (print t (js (im s))) (im s)) (trace s))) as (s' & E & H1 & H2 & H3). exists s'. split; [exact E|].
      split; [exact H1|]. split; [exact H2|]. rewrite H3. cbn. rewrite <- app_assoc. reflexivity. }
  destruct (K (map (fun kv => fst kv ++ lit "=" ++ snd kv) (env (im s))) (blocked s)) as (s' & E1 & H1 & H2 & H3).
  rewrite E1. exists s'. repeat split; assumption.
Qed.

(** And [export name] gives nothing to programs, whatever the value of the variable
    is: it is copied to the global scope only. *)
Theorem C91_name_refuted : forall w d x n v s, sget (lit "export") (al (im s)) = None ->
  written_arg x -> ordinary (expand_var (cm (im s))) x n -> no_p n -> n <> lit "context" -> ~ In (ch "=") n ->
  n <> [] -> (forall c, In c n -> is_digit c = false) -> ContextSpec.cm_wf (cm (im s)) ->
  expand_var (cm (im s)) n = Some v ->
  exists s', exec_text w (S d) (r_words [lit "export"; x]) s = (OOk 0, s') /\ env (im s') = env (im s) /\
    global n (cm (im s')) = Some (Var (ContextSpec.assigned (n ++ lit "=" ++ v)) false).
Proof.
  intros w d x n v s Ha Hx Ho Hp Hc Heq Hn Hdig Hwf Hv.
  rewrite (exec_args_line w d (lit "export") [x] [n] s eq_refl ltac:(discriminate) Ha (Forall_cons _ Hx (Forall_nil _))
     (Forall2_cons _ _ Ho (Forall2_nil _))), call_export.
  unfold export_cmd. cbn [words_of sc_suffix word_list].
  destruct (contains_str (lit "-p") n) eqn:E.
  { apply contains_str_iff in E. destruct E as (a & b & ->). destruct (Hp a b eq_refl). }
  destruct (str_eqb_spec n (lit "context")); [congruence|].
  cbn [export_words]. unfold export_word. rewrite (proj2 (contains_char_notIn _ _) Heq).
  set (m := cm (im s)) in *. set (l := get_env_context m).
  assert (Hu : ContextSpec.unsettable (n ++ lit "=" ++ v) = false).
  { unfold ContextSpec.unsettable. destruct n as [|c n']; [congruence|]. cbn [app]. rewrite (Hdig c (or_introl eq_refl)). reflexivity. }
  assert (Ht : ContextSpec.target (n ++ lit "=" ++ v) = n) by (apply ContextLaws.upto_app, contains_char_notIn, Heq).
  set (m1 := update l (ctx_put_var n (Var (ContextSpec.assigned (n ++ lit "=" ++ v)) false) (deref l m)) m).
  assert (E1 : (m0 <- look cm ;;
      match expand_var m0 n with
      | Some v => try_cm (fun m => update_opt (get_env_context m)
                           (ctx_set false (n ++ lit "=" ++ v) (deref (get_env_context m) m)) m)
      | None =>
        match get_function n m0 with
        | Some b => on_cm (fun m => update (get_env_context m) (ctx_add_function n b (deref (get_env_context m) m)) m)
        | None => ret tt
        end
      end) (blocked s) = (OOk tt, Shell (with_cm m1 (im (blocked s))) (trace s))).
  { rewrite (bind_ok (look cm) _ (blocked s) m (blocked s) eq_refl). rewrite Hv.
    unfold try_cm, try_. change (cm (im (blocked s))) with m. cbn beta.
    rewrite ContextFacts.ctx_set_spec, Hu, Ht. reflexivity. }
  unfold seq. rewrite (bind_ok _ _ _ _ _ E1). eexists. split; [reflexivity|]. split; [reflexivity|].
  unfold global. cbn [im cm with_cm]. change (get_env_context m1) with l. unfold m1. rewrite ContextFacts.deref_update.
  - rewrite Nat.eqb_refl. unfold ctx_get_var, ctx_put_var. cbn [vars]. apply sget_sinsert_eq.
  - pose proof (ContextSpec.wf_stack _ Hwf) as HF. pose proof (ContextSpec.wf_nonempty _ Hwf) as HN.
    unfold l, get_env_context. destruct (stack m); [congruence|]. inversion HF; assumption.
Qed.

(** A line of assignments. *)
Lemma assign_line (a : str) (more : list str) : Forall written_assignment (a :: more) ->
  let p := Pipeline false [CSimple (SimpleCommand (Some (Prefix [] (a :: more))) [] None)] false in
  wf_pipeline p /\ r_pipeline p = r_words (a :: more).
Proof.
  intros H p. split.
  - cbn. split; [discriminate|]. split; [|intros [E _]; discriminate]. split; [|exact I].
    split; [|split; [exact I|right; split; [reflexivity|split; [discriminate|reflexivity]]]].
    cbn. split; [right; discriminate|]. split; [exact H|constructor].
  - cbn [r_pipeline p map joined r_command app]. unfold r_simple. cbn [sc_prefix sc_name sc_suffix assignment p_redirect app].
    unfold r_redirs. cbn [map List.concat]. rewrite !app_nil_r. reflexivity.
Qed.
Lemma exec_assign w d (a : str) (more : list str) s : Forall written_assignment (a :: more) ->
  (forall x, In x (a :: more) -> ~ In (ch "$") x) -> sget [] (al (im s)) = None ->
  exec_text w (S d) (r_words (a :: more)) s =
  match add_var a (cm (im s)) with
  | Some m => (OOk 0, Shell (with_cm m (masked_as true (im s))) (trace s))
  | None => (OPanic, Shell (masked_as true (im s)) (trace s))
  end.
Proof.
  intros Hf Hd Ha. destruct (assign_line a more Hf) as [W1 W2]. rewrite <- W2, exec_pipeline by exact W1.
  unfold eval_pipeline. rewrite (seq_ok interrupts_off _ s tt (blocked s) eq_refl).
  cbn [gather eval_command]. unfold eval_simple_command. cbn [sc_name]. change (check_if_builtin []) with true. cbn iota.
  unfold eval_builtin.
  assert (E : expand_command w (SimpleCommand (Some (Prefix [] (a :: more))) [] None) (blocked s) =
    (OOk (SimpleCommand (Some (Prefix [] (a :: more))) [] None), blocked s)).
  { unfold expand_command, expand. change (al (im (blocked s))) with (al (im s)).
    unfold alias_lookup, lookup_alias. cbn [sc_name]. rewrite Ha.
    unfold expand_vars. cbn [sc_prefix assignment]. rewrite (literal_assignments _ (a :: more) Hd).
    cbn [sc_name sc_suffix]. unfold eval_words. cbn. destruct s; reflexivity. }
  unfold seq, bind. rewrite E.
  change (call_builtin w (evaluate w d) (SimpleCommand (Some (Prefix [] (a :: more))) [] None))
    with (assignment_cmd (SimpleCommand (Some (Prefix [] (a :: more))) [] None)).
  unfold assignment_cmd. cbn [sc_prefix unwrap].
  rewrite (bind_ok (ret (Prefix [] (a :: more))) _ (blocked s) _ _ eq_refl). cbn [assignment nth_error unwrap].
  rewrite (bind_ok (ret a) _ (blocked s) a (blocked s) eq_refl).
  unfold try_cm, try_. change (cm (im (blocked s))) with (cm (im s)).
  destruct (add_var a (cm (im s))); reflexivity.
Qed.

(** An exported variable that is assigned again keeps its old value in the
    environment. *)
Theorem C91_reassign_refuted : forall w d a s m, written_assignment a -> ~ In (ch "$") a ->
  sget [] (al (im s)) = None -> add_var a (cm (im s)) = Some m ->
  exists s', exec_text w (S d) (r_words [a]) s = (OOk 0, s') /\ cm (im s') = m /\ env (im s') = env (im s).
Proof.
  intros w d a s m Hw Hd Ha E. eexists. split.
  - rewrite (exec_assign w d a [] s); [rewrite E; reflexivity|constructor; [exact Hw|constructor]| |exact Ha].
    intros x [<-|[]]. exact Hd.
  - split; reflexivity.
Qed.

Example C91_example :
  let run t := exec_text PropertiesEval.ex_os 5 t PropertiesEval.ex_shell in
  definitions [lit "A=1"; lit "B=""x y"""; lit "A=2"] [(lit "A", lit "1"); (lit "B", lit "x y"); (lit "A", lit "2")] /\
  no_p (lit "A=1") /\
  env (im (snd (run (lit " export A=1 B=""x y"" A=2")))) = [(lit "A", lit "2"); (lit "B", lit "x y")] /\
  env (im (snd (run (lit " export D=/my-proj")))) = [] /\
  env (im (snd (run (lit " A=1 ; export A")))) = [] /\
  env (im (snd (run (lit " export A=1 ; A=2")))) = [(lit "A", lit "1")].
Proof.
  cbn zeta. split; [|split; [|repeat split]].
  - repeat (constructor; [repeat split; try (vm_compute; reflexivity); try discriminate; cbn; intuition discriminate|]). constructor.
  - intros a b E. destruct a as [|? [|? [|? [|? a]]]]; cbn in E; congruence.
Qed.

(** ** C92 *)

(** What the words after [unset] ask for; further words are not looked at. *)
Inductive unset_kind := UVariable | UFunction | UNamespace.
Inductive unset_asks : list str -> unset_kind -> str -> Prop :=
| ua_plain n more : ~ In (ch "-") n -> unset_asks (n :: more) UVariable n
| ua_variable n more : unset_asks (lit "-v" :: n :: more) UVariable n
| ua_function n more : unset_asks (lit "-f" :: n :: more) UFunction n
| ua_namespace n more : unset_asks (lit "-c" :: n :: more) UNamespace n.
(** What should then be gone. *)
Definition unset_done (k : unset_kind) (n : str) (m m' : cmgr) : Prop :=
  match k with
  | UVariable =>
      PropertiesContext.bindings n m' = tl (PropertiesContext.bindings n m) /\
      (forall y, y <> n -> ContextSpec.unqualified y -> get_var y m' = get_var y m) /\
      (forall f, ContextSpec.definitions f m' = ContextSpec.definitions f m) /\ exported m' = exported m
  | UFunction =>
      ContextSpec.definitions n m' =
        match ContextSpec.replace_first None (ContextSpec.definitions n m) with
        | Some l => l
        | None => ContextSpec.definitions n m
        end /\
      (forall y, y <> n -> ContextSpec.definitions y m' = ContextSpec.definitions y m) /\
      (forall v, get_var v m' = get_var v m) /\ exported m' = exported m
  | UNamespace =>
      (forall q x, ContextSpec.qualified q n x -> get_var q m' = None) /\
      (forall q ns x, ns <> n -> ContextSpec.qualified q ns x -> get_var q m' = get_var q m) /\
      (forall y, ContextSpec.unqualified y -> get_var y m' = get_var y m) /\
      (forall f, ContextSpec.definitions f m' = ContextSpec.definitions f m)
  end.

Lemma unset_asks_runs vs k n s : unset_asks vs k n ->
  unset_cmd (SimpleCommand None (lit "unset") (Some (Suffix [] vs))) s =
  on_cm match k with UVariable => remove_var n | UFunction => remove_function n | UNamespace => remove_context n end s.
Proof.
  intros H. unfold unset_cmd. cbn [words_of sc_suffix word_list].
  destruct H as [n more H|n more|n more|n more]; try reflexivity.
  unfold unset_flags. rewrite (proj2 (contains_char_notIn _ _) H). reflexivity.
Qed.

Theorem C92_unset_partial : forall w d ws vs k n s, sget (lit "unset") (al (im s)) = None ->
  Forall written_arg ws -> Forall2 (ordinary (expand_var (cm (im s)))) ws vs ->
  ContextSpec.cm_wf (cm (im s)) -> unset_asks vs k n -> (k = UNamespace \/ ContextSpec.unqualified n) ->
  exists s', exec_text w (S d) (r_words (lit "unset" :: ws)) s = (OOk 0, s') /\
    unset_done k n (cm (im s)) (cm (im s')) /\ stack (cm (im s')) = stack (cm (im s)) /\
    im s' = with_cm (cm (im s')) (masked_as true (im s)) /\ trace s' = trace s.
Proof.
  intros w d ws vs k n s Ha Hw Ho Hwf Hk Hn.
  rewrite (exec_args_line w d (lit "unset") ws vs s eq_refl ltac:(discriminate) Ha Hw Ho), call_unset.
  rewrite (unset_asks_runs vs k n _ Hk). eexists. split; [reflexivity|].
  cbn [im trace cm with_cm]. change (cm (im (blocked s))) with (cm (im s)).
  set (m := cm (im s)) in *.
  assert (Hd : forall l m', (forall f l, (l < List.length (heap m))%nat -> ctx_get_function f (deref l m') = ctx_get_function f (deref l m)) ->
    stack m' = stack m -> ContextSpec.definitions l m' = ContextSpec.definitions l m).
  { intros f m' Hf Hs. unfold ContextSpec.definitions. rewrite Hs. apply map_ext_in. intros l Hl. apply Hf.
    pose proof (ContextSpec.wf_stack _ Hwf) as HF. rewrite Forall_forall in HF. apply HF, in_rev, Hl. }
  destruct k.
  - destruct Hn as [Hn|Hn]; [discriminate|].
    destruct (PropertiesContext.C29_unset_innermost n m Hwf Hn) as (_ & H2 & _ & H4 & H5 & H6 & H7).
    split; [|split; [exact H6|split; reflexivity]].
    split; [exact H2|]. split; [|split; [intros f; apply Hd; assumption|exact H7]].
    intros y Hy Hq. apply (PropertiesContext.C24_other_names (ContextSpec.OUnset n) m); auto; try discriminate.
    cbn [ContextLaws.writes]. rewrite (proj2 (ContextFacts.namespaced_none n) Hn). congruence.
  - destruct Hn as [Hn|Hn]; [discriminate|].
    destruct (PropertiesContext.C30_function_table n (FunctionBody [] None) m Hwf Hn) as (_ & _ & _ & H4 & H5 & H6).
    assert (Hst : stack (remove_function n m) = stack m /\ exported (remove_function n m) = exported m).
    { unfold remove_function. destruct (namespaced n) as [[ns x]|]; [destruct (get_context_by_name ns m); split; reflexivity|].
      destruct (innermost (has_function n) m); split; reflexivity. }
    split; [|split; [apply Hst|split; reflexivity]].
    split; [exact H4|]. split; [intros y Hy; apply H5, Hy|]. split; [intros v; apply H6|apply Hst].
  - destruct (PropertiesContext.C28_unexport n m) as (m' & E & H1 & H2 & H3). injection E as <-.
    split; [|split; [reflexivity|split; reflexivity]].
    split; [exact H1|]. split; [exact H3|]. split; [exact H2|]. reflexivity.
Qed.

(** Only the first name is unset; a name with a dash is an error or a crash; and
    the environment of programs never changes. *)
Theorem C92_unset_refuted : forall w d x v s, sget (lit "unset") (al (im s)) = None -> written_arg x ->
  ordinary (expand_var (cm (im s))) x v ->
  (forall ws vs, Forall written_arg ws -> Forall2 (ordinary (expand_var (cm (im s)))) ws vs -> ~ In (ch "-") v ->
     exec_text w (S d) (r_words (lit "unset" :: x :: ws)) s = exec_text w (S d) (r_words [lit "unset"; x]) s) /\
  (In (ch "-") v -> exec_text w (S d) (r_words [lit "unset"; x]) s = (OPanic, Shell (masked_as true (im s)) (trace s)) \/
     exec_text w (S d) (r_words [lit "unset"; x]) s =
       (OErr (EText (lit "unset: invalid option")), Shell (masked_as true (im s)) (trace s))) /\
  (forall ws vs, Forall written_arg ws -> Forall2 (ordinary (expand_var (cm (im s)))) ws vs ->
     env (im (snd (exec_text w (S d) (r_words (lit "unset" :: x :: ws)) s))) = env (im s)).
Proof.
  intros w d x v s Ha Hx Ho.
  assert (E : forall ws vs, Forall written_arg ws -> Forall2 (ordinary (expand_var (cm (im s)))) ws vs ->
    exec_text w (S d) (r_words (lit "unset" :: x :: ws)) s =
    match unset_cmd (SimpleCommand None (lit "unset") (Some (Suffix [] (v :: vs)))) (blocked s) with
    | (OOk _, s') => (OOk 0, s')
    | (o, s') => (lift o, s')
    end).
  { intros ws vs Hw Hv. rewrite (exec_args_line w d (lit "unset") (x :: ws) (v :: vs) s eq_refl ltac:(discriminate) Ha), call_unset;
      [reflexivity|constructor; assumption|constructor; assumption]. }
  split; [|split].
  - intros ws vs Hw Hv Hd. rewrite (E ws vs Hw Hv), (E [] [] (Forall_nil _) (Forall2_nil _)).
    rewrite !(unset_asks_runs _ UVariable v) by (apply ua_plain, Hd). reflexivity.
  - intros Hd. rewrite (E [] [] (Forall_nil _) (Forall2_nil _)). unfold unset_cmd. cbn [words_of sc_suffix word_list].
    unfold unset_flags. rewrite (proj2 (contains_char_In _ _) Hd).
    destruct (contains_char (ch "f") v), (contains_char (ch "c") v), (contains_char (ch "v") v); cbn iota;
      first [right; reflexivity | left; reflexivity].
  - intros ws vs Hw Hv. rewrite (E ws vs Hw Hv). unfold unset_cmd. cbn [words_of sc_suffix word_list].
    destruct (unset_flags v) as [[f [|[|pos]]]|]; [| | |reflexivity].
    + reflexivity.
    + destruct vs; reflexivity.
    + unfold word_at. destruct (nth_error (v :: vs) (S (S pos))); reflexivity.
Qed.

Example C92_example :
  let run t := exec_text PropertiesEval.ex_os 5 t PropertiesEval.ex_shell in
  unset_asks [lit "A"; lit "B"] UVariable (lit "A") /\
  ContextSpec.unqualified (lit "A") /\
  expand_var (cm (im (snd (run (lit " A=1 ; B=2 ; unset A B"))))) (lit "A") = None /\
  expand_var (cm (im (snd (run (lit " A=1 ; B=2 ; unset A B"))))) (lit "B") = Some (lit "2") /\
  is_function (lit "f") (cm (im (snd (run (lit " f ( ) { a } ; unset -f f"))))) = false /\
  env (im (snd (run (lit " export A=1 ; unset A")))) = [(lit "A", lit "1")] /\
  fst (run (lit " unset my-func")) = OPanic.
Proof. split; [constructor; cbn; intuition discriminate|]. vm_compute. repeat split. Qed.

(** ** C93 *)

Lemma readonly_plain y more s : ~ In (ch "-") y ->
  readonly_cmd (SimpleCommand None (lit "readonly") (Some (Suffix [] (y :: more)))) s =
  (if contains_char (ch "=") y then try_cm (add_var_readonly y) else try_cm (set_var_readonly y)) s.
Proof.
  intros H. unfold readonly_cmd. cbn [words_of sc_suffix word_list].
  unfold readonly_flags. rewrite (proj2 (contains_char_notIn _ _) H). cbn [word_at nth_error unwrap].
  rewrite (bind_ok (word_at 0 (y :: more)) _ s y s eq_refl). rewrite (proj2 (contains_char_notIn _ _) H). reflexivity.
Qed.

Lemma cut_at_app a b : ContextSpec.cut_at (a ++ b) = None -> ContextSpec.cut_at a = None.
Proof.
  induction a as [|x a IH]; [reflexivity|]. destruct a as [|y a]; [reflexivity|].
  change ((x :: y :: a) ++ b) with (x :: y :: (a ++ b)). intros H.
  change (ContextSpec.cut_at (x :: y :: (a ++ b))) with
    (if N.eqb x (ch ":") && N.eqb y (ch ":") then Some ([], a ++ b)
     else match ContextSpec.cut_at (y :: (a ++ b)) with Some (u, v) => Some (x :: u, v) | None => None end) in H.
  change (ContextSpec.cut_at (x :: y :: a)) with
    (if N.eqb x (ch ":") && N.eqb y (ch ":") then Some ([], a)
     else match ContextSpec.cut_at (y :: a) with Some (u, v) => Some (x :: u, v) | None => None end).
  destruct (N.eqb x (ch ":") && N.eqb y (ch ":")); [discriminate|].
  rewrite IH; [reflexivity|]. change ((y :: a) ++ b) with (y :: (a ++ b)).
  destruct (ContextSpec.cut_at (y :: (a ++ b))) as [[u v]|]; [discriminate|reflexivity].
Qed.
Lemma upto_prefix c s : exists r, s = ContextSpec.upto c s ++ r.
Proof.
  induction s as [|x s [r IH]]; [exists []; reflexivity|]. cbn. destruct (N.eqb x c); [exists (x :: s); reflexivity|].
  exists r. cbn. rewrite <- IH. reflexivity.
Qed.
Lemma target_unqualified y : ContextSpec.unqualified y -> ContextSpec.unqualified (ContextSpec.target y).
Proof.
  unfold ContextSpec.unqualified, ContextSpec.target. intros H. destruct (upto_prefix (ch "=") y) as [r E].
  rewrite E in H. exact (cut_at_app _ _ H).
Qed.

(** [readonly n=v]: the variable has the value and is read-only, other variables
    are as before. *)
Theorem C93_value_partial : forall w d x y more vs s, sget (lit "readonly") (al (im s)) = None ->
  Forall written_arg (x :: more) -> Forall2 (ordinary (expand_var (cm (im s)))) (x :: more) (y :: vs) ->
  ContextSpec.cm_wf (cm (im s)) -> In (ch "=") y -> ~ In (ch "-") y -> ContextSpec.unqualified y ->
  ContextSpec.unsettable y = false ->
  exists s', exec_text w (S d) (r_words (lit "readonly" :: x :: more)) s = (OOk 0, s') /\
    get_var (ContextSpec.target y) (cm (im s')) = Some (Var (ContextSpec.assigned y) true) /\
    (forall n, n <> ContextSpec.target y -> ContextSpec.unqualified n -> get_var n (cm (im s')) = get_var n (cm (im s))) /\
    ContextSpec.cm_wf (cm (im s')) /\
    im s' = with_cm (cm (im s')) (masked_as true (im s)) /\ trace s' = trace s.
Proof.
  intros w d x y more vs s Ha Hw Ho Hwf Heq Hdash Hq Hu. pose proof (target_unqualified y Hq) as Hqt.
  rewrite (exec_args_line w d (lit "readonly") (x :: more) (y :: vs) s eq_refl ltac:(discriminate) Ha Hw Ho), call_readonly.
  rewrite (readonly_plain y vs _ Hdash), (proj2 (contains_char_In _ _) Heq). unfold try_cm, try_.
  change (cm (im (blocked s))) with (cm (im s)). set (m := cm (im s)) in *.
  pose proof (PropertiesContext.C24_stack_of_maps [ContextSpec.OReadonlyAssign y] m Hwf
    (Forall_cons (ContextSpec.OReadonlyAssign y) Hq (Forall_nil _))) as H.
  cbn [ContextSpec.performs ContextSpec.perform ContextSpec.meanings ContextSpec.meaning] in H. rewrite Hu in H.
  destruct (add_var_readonly y m) as [m'|] eqn:E; [|destruct H].
  destruct H as (Hwf' & _ & Hr). eexists. split; [reflexivity|]. cbn [im cm with_cm trace].
  split; [|split; [|split; [exact Hwf'|split; reflexivity]]].
  - pose proof (Hr _ Hqt) as Hr'. apply ContextLaws.binding_of_inj. rewrite Hr'.
    rewrite ContextLaws.lookup_column, ContextLaws.bind_column.
    rewrite ContextLaws.first_some_bound; [reflexivity|]. rewrite <- ContextLaws.column_env. apply ContextLaws.column_nonempty, Hwf.
  - intros n Hn Hqn. apply (PropertiesContext.C24_other_names (ContextSpec.OReadonlyAssign y) m); auto; try discriminate.
    cbn [ContextLaws.writes]. rewrite (proj2 (ContextFacts.namespaced_none y) Hq). congruence.
Qed.

(** [readonly n]: a variable keeps its value and becomes read-only. *)
Theorem C93_mark_partial : forall w d x n v b more vs s, sget (lit "readonly") (al (im s)) = None ->
  Forall written_arg (x :: more) -> Forall2 (ordinary (expand_var (cm (im s)))) (x :: more) (n :: vs) ->
  ContextSpec.cm_wf (cm (im s)) -> ~ In (ch "=") n -> ~ In (ch "-") n -> ContextSpec.unqualified n ->
  get_var n (cm (im s)) = Some (Var v b) ->
  exists s', exec_text w (S d) (r_words (lit "readonly" :: x :: more)) s = (OOk 0, s') /\
    get_var n (cm (im s')) = Some (Var v true) /\
    (forall y, y <> n -> ContextSpec.unqualified y -> get_var y (cm (im s')) = get_var y (cm (im s))) /\
    ContextSpec.cm_wf (cm (im s')) /\
    im s' = with_cm (cm (im s')) (masked_as true (im s)) /\ trace s' = trace s.
Proof.
  intros w d x n v b more vs s Ha Hw Ho Hwf Heq Hdash Hq Hv.
  rewrite (exec_args_line w d (lit "readonly") (x :: more) (n :: vs) s eq_refl ltac:(discriminate) Ha Hw Ho), call_readonly.
  rewrite (readonly_plain n vs _ Hdash), (proj2 (contains_char_notIn _ _) Heq). unfold try_cm, try_.
  change (cm (im (blocked s))) with (cm (im s)). set (m := cm (im s)) in *.
  pose proof (PropertiesContext.C24_stack_of_maps [ContextSpec.OReadonly n] m Hwf
    (Forall_cons (ContextSpec.OReadonly n) Hq (Forall_nil _))) as H.
  cbn [ContextSpec.performs ContextSpec.perform ContextSpec.meanings ContextSpec.meaning] in H.
  rewrite <- (ContextFacts.lookup_get_var n m Hwf Hq), Hv in H. cbn [option_map ContextSpec.binding_of] in H.
  destruct (set_var_readonly n m) as [m'|] eqn:E; [|destruct H].
  destruct H as (Hwf' & _ & Hr). eexists. split; [reflexivity|]. cbn [im cm with_cm trace].
  split; [|split; [|split; [exact Hwf'|split; reflexivity]]].
  - apply ContextLaws.binding_of_inj. rewrite (Hr n Hq).
    rewrite ContextLaws.lookup_column, ContextLaws.bind_column.
    rewrite ContextLaws.first_some_bound; [reflexivity|]. rewrite <- ContextLaws.column_env. apply ContextLaws.column_nonempty, Hwf.
  - intros y Hn Hqn. apply (PropertiesContext.C24_other_names (ContextSpec.OReadonly n) m); auto; try discriminate.
    cbn [ContextLaws.writes]. rewrite (proj2 (ContextFacts.namespaced_none n) Hq). congruence.
Qed.

(** Afterwards an assignment to it has no effect (and no error is reported). *)
Theorem C93_kept : forall w d (x y a u : str) s, sget (lit "readonly") (al (im s)) = None -> sget [] (al (im s)) = None ->
  written_arg x -> ordinary (expand_var (cm (im s))) x y ->
  ContextSpec.cm_wf (cm (im s)) -> In (ch "=") y -> ~ In (ch "-") y -> ContextSpec.unqualified y ->
  ContextSpec.unsettable y = false ->
  a = ContextSpec.target y ++ lit "=" ++ u -> written_assignment a -> ~ In (ch "$") a ->
  exists s', exec_text w (S d) (r_words [lit "readonly"; x] ++ lit " ;" ++ r_words [a]) s = (OOk 0, s') /\
    get_var (ContextSpec.target y) (cm (im s')) = Some (Var (ContextSpec.assigned y) true).
Proof.
  intros w d x y a u s Ha Ha0 Hx Ho Hwf Heq Hdash Hq Hu Hau Hwa Hda.
  destruct (C93_value_partial w d x y [] [] s Ha (Forall_cons _ Hx (Forall_nil _)) (Forall2_cons _ _ Ho (Forall2_nil _))
    Hwf Heq Hdash Hq Hu) as (s1 & E1 & G1 & _ & Hwf1 & Him & _).
  pose proof (proj1 (builtin_word (lit "readonly") eq_refl ltac:(discriminate))) as W.
  destruct (args_line (lit "readonly") [x] ltac:(discriminate) W (Forall_cons _ Hx (Forall_nil _))) as [A1 A2].
  destruct (assign_line a [] (Forall_cons _ Hwa (Forall_nil _))) as [B1 B2]. cbn zeta in B1, B2.
  pose proof (exec_two w (S d) (AoOne (Pipeline false [CSimple (words_cmd (lit "readonly") [x])] false))
    (AoOne (Pipeline false [CSimple (SimpleCommand (Some (Prefix [] [a])) [] None)] false)) s 0 s1 A1 B1) as H.
  cbn [r_andor] in H. rewrite A2, B2 in H. rewrite (H E1).
  assert (Ha1 : sget [] (al (im s1)) = None) by (rewrite Him; exact Ha0).
  rewrite (exec_assign w d a [] s1 (Forall_cons _ Hwa (Forall_nil _)));
    [|intros z [<-|[]]; exact Hda|exact Ha1].
  assert (Ht : ContextSpec.target a = ContextSpec.target y).
  { subst a. apply ContextLaws.upto_app. apply contains_char_notIn, upto_no. }
  assert (E : add_var a (cm (im s1)) = Some (cm (im s1))).
  { pose proof (PropertiesContext.C24_stack_of_maps [ContextSpec.OAssign a] (cm (im s1)) Hwf1
      (Forall_cons (ContextSpec.OAssign a) I (Forall_nil _))) as K.
    cbn [ContextSpec.performs ContextSpec.perform ContextSpec.meanings ContextSpec.meaning] in K.
    rewrite Ht in K. rewrite <- (ContextFacts.lookup_get_var _ _ Hwf1 (target_unqualified y Hq)), G1 in K.
    cbn [option_map ContextSpec.binding_of value is_readonly] in K.
    destruct (add_var a (cm (im s1))) as [m'|] eqn:E; [|destruct K].
    destruct (PropertiesContext.C24_read_after_assign a (cm (im s1)) m' Hwf1) as [(v & _ & ->)|G].
    - rewrite Ht. apply target_unqualified, Hq.
    - exact E.
    - reflexivity.
    - exfalso. destruct K as (_ & _ & K). pose proof (K _ (target_unqualified y Hq)) as K'. rewrite Ht in G. rewrite G in K'.
      rewrite <- (ContextFacts.lookup_get_var _ _ Hwf1 (target_unqualified y Hq)), G1 in K'. discriminate. }
  rewrite E. eexists. split; [reflexivity|]. exact G1.
Qed.

(** [readonly ns::n=v]: the variable of the namespace has the value and is
    read-only, other names of namespaces are as before.  When there is no such
    namespace nothing happens, and nothing is reported. *)
Theorem C93_namespace_partial : forall w d x y ns set more vs s, sget (lit "readonly") (al (im s)) = None ->
  Forall written_arg (x :: more) -> Forall2 (ordinary (expand_var (cm (im s)))) (x :: more) (y :: vs) ->
  ContextSpec.cm_wf (cm (im s)) -> In (ch "=") y -> ~ In (ch "-") y -> ContextSpec.qualified y ns set ->
  ContextSpec.unsettable set = false ->
  exists s', exec_text w (S d) (r_words (lit "readonly" :: x :: more)) s = (OOk 0, s') /\
    (forall q, ContextSpec.qualified q ns (ContextSpec.target set) ->
       get_var q (cm (im s')) = match sget ns (exported (cm (im s))) with Some _ => Some (Var (ContextSpec.assigned set) true) | None => None end) /\
    (forall q n' x', ContextSpec.qualified q n' x' -> x' <> ContextSpec.target set -> get_var q (cm (im s')) = get_var q (cm (im s))) /\
    (sget ns (exported (cm (im s))) = None -> im s' = masked_as true (im s)) /\
    im s' = with_cm (cm (im s')) (masked_as true (im s)) /\ trace s' = trace s.
Proof.
  intros w d x y ns set more vs s Ha Hw Ho Hwf Heq Hdash Hq Hu.
  rewrite (exec_args_line w d (lit "readonly") (x :: more) (y :: vs) s eq_refl ltac:(discriminate) Ha Hw Ho), call_readonly.
  rewrite (readonly_plain y vs _ Hdash), (proj2 (contains_char_In _ _) Heq). unfold try_cm, try_.
  change (cm (im (blocked s))) with (cm (im s)). set (m := cm (im s)) in *.
  apply ContextFacts.namespaced_some in Hq. unfold add_var_readonly. rewrite Hq. unfold get_context_by_name.
  destruct (sget ns (exported m)) as [l|] eqn:El.
  - assert (Hl : (l < List.length (heap m))%nat).
    { exact (ContextFacts.exported_lt m ns l Hwf El). }
    unfold update_opt. rewrite ContextFacts.ctx_set_spec, Hu. eexists. split; [reflexivity|]. cbn [im cm with_cm trace].
    split; [|split; [|split; [discriminate|split; reflexivity]]].
    + intros q Hqq. apply ContextFacts.namespaced_some in Hqq. unfold get_var, get_context_by_name. rewrite Hqq. cbn [exported update]. rewrite El.
      rewrite ContextFacts.deref_update by exact Hl. rewrite Nat.eqb_refl. unfold ctx_get_var, ctx_put_var. cbn [vars]. apply sget_sinsert_eq.
    + intros q n' x' Hqq Hne. apply ContextFacts.namespaced_some in Hqq. unfold get_var, get_context_by_name. rewrite Hqq. cbn [exported update].
      destruct (sget n' (exported m)) as [l'|]; [|reflexivity]. rewrite ContextFacts.deref_update by exact Hl.
      destruct (Nat.eqb_spec l' l) as [->|_]; [apply ContextLaws.get_put_neq, Hne|reflexivity].
  - eexists. split; [reflexivity|]. cbn [im cm with_cm trace]. split; [|split; [reflexivity|split; [|split; reflexivity]]].
    + intros q Hqq. apply ContextFacts.namespaced_some in Hqq. unfold get_var, get_context_by_name. rewrite Hqq, El. reflexivity.
    + intros _. unfold blocked, m. destruct (im s); reflexivity.
Qed.

Example C93_namespace_example :
  let run t := exec_text PropertiesEval.ex_os 5 t PropertiesEval.ex_shell in
  let y := lit "lib::A=1" in
  (In (ch "=") y /\ ~ In (ch "-") y /\ ContextSpec.qualified y (lit "lib") (lit "A=1") /\ ContextSpec.unsettable (lit "A=1") = false) /\
  sget (lit "lib") (exported (cm (im (snd (run (lit " export context 'lib=self'")))))) <> None /\
  get_var (lit "lib::A") (cm (im (snd (run (lit " export context 'lib=self' ; readonly lib::A=1"))))) = Some (Var (lit "1") true) /\
  get_var (lit "lib::A") (cm (im (snd (run (lit " readonly lib::A=1"))))) = None.
Proof.
  cbn zeta. split; [split; [cbn; tauto|split; [cbn; intuition discriminate|split; [eexists; split; reflexivity|reflexivity]]]|].
  split; [vm_compute; discriminate|]. vm_compute. repeat split.
Qed.

(** A value with a dash in it is taken for an option: the variable is not set.
    Only the first name is marked. *)
Theorem C93_dash_refuted : forall w d x y s, sget (lit "readonly") (al (im s)) = None -> written_arg x ->
  ordinary (expand_var (cm (im s))) x y -> In (ch "-") y ->
  exists o, exec_text w (S d) (r_words [lit "readonly"; x]) s = (o, Shell (masked_as true (im s)) (trace s)) /\
    (o = OPanic \/ o = OErr (EText (lit "readonly: invalid option"))).
Proof.
  intros w d x y s Ha Hx Ho Hd.
  rewrite (exec_args_line w d (lit "readonly") [x] [y] s eq_refl ltac:(discriminate) Ha (Forall_cons _ Hx (Forall_nil _))
     (Forall2_cons _ _ Ho (Forall2_nil _))), call_readonly.
  unfold readonly_cmd. cbn [words_of sc_suffix word_list]. unfold readonly_flags. rewrite (proj2 (contains_char_In _ _) Hd).
  destruct (contains_char (ch "f") y), (contains_char (ch "c") y), (contains_char (ch "v") y), (contains_char (ch "p") y); cbn iota;
    (eexists; split; [reflexivity|]; first [left; reflexivity | right; reflexivity]).
Qed.

Example C93_example :
  let run t := cm (im (snd (exec_text PropertiesEval.ex_os 5 t PropertiesEval.ex_shell))) in
  let y := lit "A=1" in
  (In (ch "=") y /\ ~ In (ch "-") y /\ ContextSpec.unqualified y /\ ContextSpec.unsettable y = false) /\
  get_var (lit "A") (run (lit " readonly A=1 ; A=2")) = Some (Var (lit "1") true) /\
  get_var (lit "A") (run (lit " A=1 ; readonly A ; A=2")) = Some (Var (lit "1") true) /\
  get_var (lit "A") (run (lit " readonly A=x-y")) = None.
Proof.
  cbn zeta. split; [split; [cbn; tauto|split; [cbn; intuition discriminate|split; reflexivity]]|]. vm_compute. repeat split.
Qed.

(** ** C94 *)

Lemma source_args_performs args : Forall (fun a => a <> lit "&") args -> forall i s,
  source_args i args s =
  match ContextSpec.performs (ContextLaws.params i args) (cm (im s)) with
  | Some m => (OOk tt, Shell (with_cm m (im s)) (trace s))
  | None => source_args i args s
  end.
Proof.
  induction 1 as [|a args Ha H IH]; intros i s.
  - destruct s as [[] t]. reflexivity.
  - cbn [ContextLaws.params]. rewrite (proj2 (str_eqb_neq a (lit "&")) Ha).
    cbn [ContextSpec.performs ContextSpec.perform].
    change (N_to_str i ++ lit "=" ++ a) with (ContextLaws.param i a).
    destruct (add_var (ContextLaws.param i a) (cm (im s))) as [m1|] eqn:E; [|reflexivity].
    cbn [source_args]. change (N_to_str i ++ lit "=" ++ a) with (ContextLaws.param i a).
    rewrite (seq_ok (try_cm (add_var (ContextLaws.param i a))) _ s tt (Shell (with_cm m1 (im s)) (trace s)))
      by (unfold try_cm, try_; rewrite E; reflexivity).
    rewrite IH. cbn [im cm with_cm trace].
    destruct (ContextSpec.performs (ContextLaws.params (i + 1) args) m1); reflexivity.
Qed.

(** The file a name stands for: itself if it has a slash in it or is not found on
    PATH, otherwise the first one on PATH. *)
Definition source_path (r : reports) (m : cmgr) (file path : str) : Prop :=
  (In (ch "/") file /\ path = file) \/
  (~ In (ch "/") file /\
   (lookup_command (r_isfile r) file m = Some (Some path) \/
    (lookup_command (r_isfile r) file m = Some None /\ path = file))).
(** A descriptor closed. *)
Definition closing (f : Z) (s : shell) : shell :=
  Shell (match fd_close f (fds (im s)) with Some t => with_fds t (im s) | None => im s end) (trace s).

(** [source file a1 ...] and [. file a1 ...]: the text of the file is run as if it
    had been typed, in this shell, with $1 ... set to the arguments.  Missing: the
    status is 0 whatever the file does. *)
Theorem C94_source_partial : forall w d name x file more args s m path t c, In name [lit "."; lit "source"] ->
  sget name (al (im s)) = None ->
  Forall written_arg (x :: more) -> Forall2 (ordinary (expand_var (cm (im s)))) (x :: more) (file :: args) ->
  Forall (fun a => a <> lit "&") args -> ContextSpec.performs (ContextLaws.params 1 args) (cm (im s)) = Some m ->
  source_path (w (trace s)) m file path ->
  r_open (w (trace s)) path for_reading = true -> r_read (w (EOpen path for_reading :: trace s)) path = Some t ->
  parse t = Some c ->
  let f := lowest (fds (im s)) in
  let s1 := Shell (with_fds (ninsert f (Desc (OpenFile path for_reading) true) (fds (im s)))
                     (with_cm m (masked_as true (im s)))) (EOpen path for_reading :: trace s) in
  exec_text w (S d) (r_words (name :: x :: more)) s =
  match exec_text w d t s1 with
  | (OOk _, s2) => (OOk 0, closing f s2)
  | (OErr e, s2) => (OErr (EString e), closing f s2)
  | r => r
  end.
Proof.
  intros w d name x file more args s m path t c Hname Ha Hw Ho Hamp Hm Hp Hopen Hread Hparse f s1.
  assert (Hb : check_if_builtin name = true /\ name <> []).
  { destruct Hname as [<-|[<-|[]]]; split; try reflexivity; discriminate. }
  rewrite (exec_args_line w d name (x :: more) (file :: args) s (proj1 Hb) (proj2 Hb) Ha Hw Ho).
  assert (Hcall : call_builtin w (evaluate w d) (SimpleCommand None name (Some (Suffix [] (file :: args)))) =
    source_cmd w (evaluate w d) (SimpleCommand None name (Some (Suffix [] (file :: args))))).
  { destruct Hname as [<-|[<-|[]]]; [apply call_dot|apply call_source]. }
  rewrite Hcall. clear Hcall Hname Hb. unfold source_cmd. cbn [words_of sc_suffix word_list].
  set (s0 := Shell (with_cm m (im (blocked s))) (trace s)).
  assert (E0 : source_args 1 args (blocked s) = (OOk tt, s0)).
  { rewrite (source_args_performs args Hamp 1 (blocked s)). change (cm (im (blocked s))) with (cm (im s)). rewrite Hm. reflexivity. }
  rewrite (seq_ok _ _ _ _ _ E0).
  assert (E1 : (if contains_char (ch "/") file then ret file
               else p <- sh_lookup_command w file ;; ret match p with Some q => q | None => file end) s0 = (OOk path, s0)).
  { destruct Hp as [[Hin ->]|[Hin Hl]].
    - rewrite (proj2 (contains_char_In _ _) Hin). reflexivity.
    - rewrite (proj2 (contains_char_notIn _ _) Hin). unfold sh_lookup_command, ask, look, bind. cbn [trace s0 im cm with_cm].
      destruct Hl as [Hl|[Hl ->]]; rewrite Hl; reflexivity. }
  rewrite (bind_ok _ _ _ _ _ E1).
  assert (E2 : sys_open w path for_reading s0 = (OOk (Some f), s1)).
  { unfold sys_open, ask, bind. cbn [trace s0]. rewrite Hopen. reflexivity. }
  rewrite (bind_ok _ _ _ _ _ E2). unfold while_open.
  assert (E3 : (t <- ask w (fun r => r_read r path) ;; t <- unwrap t ;; c <- parse_text t ;;
            r <- catch (eval_complete (evaluate w d) c) ;;
            match r with inl _ => ret tt | inr e => stop (OErr (EString e)) end) s1 =
     match exec_text w d t s1 with
     | (OOk _, s2) => (OOk tt, s2)
     | (OErr e, s2) => (OErr (EString e), s2)
     | (o, s2) => (lift o, s2)
     end).
  { unfold ask at 1, bind at 1. change (trace s1) with (EOpen path for_reading :: trace s). rewrite Hread.
    cbn [unwrap]. rewrite (bind_ok (ret t) _ s1 t s1 eq_refl). unfold parse_text. rewrite Hparse.
    rewrite (bind_ok (ret c) _ s1 c s1 eq_refl). unfold exec_text. rewrite Hparse. unfold eval, bind, catch.
    destruct (eval_complete (evaluate w d) c s1) as [[] s2]; reflexivity. }
  clearbody f s1. unfold catch at 1, bind at 1. rewrite E3.
  destruct (exec_text w d t s1) as [[] s2]; reflexivity.
Qed.

(** While the file runs, $k is the k-th argument (without quotes, cut at an equals
    sign). *)
Theorem C94_arguments : forall args k a m m', ContextSpec.cm_wf m -> Forall (fun a => a <> lit "&") args ->
  ContextSpec.performs (ContextLaws.params 1 args) m = Some m' -> nth_error args k = Some a ->
  (forall v, get_var (N_to_str (1 + N.of_nat k)) m <> Some (Var v true)) ->
  expand_var m' (N_to_str (1 + N.of_nat k)) = Some (ContextSpec.unquote (ContextSpec.upto (ch "=") a)).
Proof.
  intros args k a m m' Hwf Hamp Hm Hk Hr. unfold expand_var.
  pose proof (ContextLaws.N_to_str_unqualified (1 + N.of_nat k)) as Hq.
  rewrite (ContextLaws.get_var_of_column (N_to_str (1 + N.of_nat k)) m' (ContextSpec.unquote (ContextSpec.upto (ch "=") a), false)); [reflexivity| |exact Hq|].
  - exact (ContextFacts.performs_wf _ _ _ Hwf Hm).
  - apply (ContextLaws.params_reads args 1 k a m m'); auto.
    apply ContextLaws.not_readonly_column; auto.
Qed.

(** When the file cannot be opened it is an error; when it is not a command, too.
    In both cases the parameters have been overwritten. *)
Theorem C94_errors : forall w d name x file more args s m path, In name [lit "."; lit "source"] ->
  sget name (al (im s)) = None ->
  Forall written_arg (x :: more) -> Forall2 (ordinary (expand_var (cm (im s)))) (x :: more) (file :: args) ->
  Forall (fun a => a <> lit "&") args -> ContextSpec.performs (ContextLaws.params 1 args) (cm (im s)) = Some m ->
  source_path (w (trace s)) m file path ->
  (r_open (w (trace s)) path for_reading = false ->
   exec_text w (S d) (r_words (name :: x :: more)) s =
   (OErr (EText (name ++ lit " " ++ file ++ lit ": No such file or directory")),
    Shell (with_cm m (masked_as true (im s))) (trace s))) /\
  (forall t, r_open (w (trace s)) path for_reading = true -> r_read (w (EOpen path for_reading :: trace s)) path = Some t ->
   parse t = None ->
   let f := lowest (fds (im s)) in
   exec_text w (S d) (r_words (name :: x :: more)) s =
   (OErr EParse, closing f (Shell (with_fds (ninsert f (Desc (OpenFile path for_reading) true) (fds (im s)))
                     (with_cm m (masked_as true (im s)))) (EOpen path for_reading :: trace s)))).
Proof.
  intros w d name x file more args s m path Hname Ha Hw Ho Hamp Hm Hp.
  assert (Hb : check_if_builtin name = true /\ name <> []).
  { destruct Hname as [<-|[<-|[]]]; split; try reflexivity; discriminate. }
  rewrite (exec_args_line w d name (x :: more) (file :: args) s (proj1 Hb) (proj2 Hb) Ha Hw Ho).
  assert (Hcall : call_builtin w (evaluate w d) (SimpleCommand None name (Some (Suffix [] (file :: args)))) =
    source_cmd w (evaluate w d) (SimpleCommand None name (Some (Suffix [] (file :: args))))).
  { destruct Hname as [<-|[<-|[]]]; [apply call_dot|apply call_source]. }
  rewrite Hcall. clear Hcall Hname Hb. unfold source_cmd. cbn [words_of sc_suffix word_list].
  set (s0 := Shell (with_cm m (im (blocked s))) (trace s)).
  assert (E0 : source_args 1 args (blocked s) = (OOk tt, s0)).
  { rewrite (source_args_performs args Hamp 1 (blocked s)). change (cm (im (blocked s))) with (cm (im s)). rewrite Hm. reflexivity. }
  rewrite (seq_ok _ _ _ _ _ E0).
  assert (E1 : (if contains_char (ch "/") file then ret file
               else p <- sh_lookup_command w file ;; ret match p with Some q => q | None => file end) s0 = (OOk path, s0)).
  { destruct Hp as [[Hin ->]|[Hin Hl]].
    - rewrite (proj2 (contains_char_In _ _) Hin). reflexivity.
    - rewrite (proj2 (contains_char_notIn _ _) Hin). unfold sh_lookup_command, ask, look, bind. cbn [trace s0 im cm with_cm].
      destruct Hl as [Hl|[Hl ->]]; rewrite Hl; reflexivity. }
  rewrite (bind_ok _ _ _ _ _ E1). split.
  - intros Hopen. unfold sys_open, ask, bind. cbn [trace s0]. rewrite Hopen. reflexivity.
  - intros t Hopen Hread Hparse. set (f := lowest (fds (im s))).
    set (s1 := Shell (with_fds (ninsert f (Desc (OpenFile path for_reading) true) (fds (im s)))
                     (with_cm m (masked_as true (im s)))) (EOpen path for_reading :: trace s)).
    assert (E2 : sys_open w path for_reading s0 = (OOk (Some f), s1)).
    { unfold sys_open, ask, bind. cbn [trace s0]. rewrite Hopen. reflexivity. }
    rewrite (bind_ok _ _ _ _ _ E2). unfold while_open.
    assert (E3 : (t <- ask w (fun r => r_read r path) ;; t <- unwrap t ;; c <- parse_text t ;;
            r <- catch (eval_complete (evaluate w d) c) ;;
            match r with inl _ => ret tt | inr e => stop (OErr (EString e)) end) s1 = (OErr EParse, s1)).
    { unfold ask at 1, bind at 1. change (trace s1) with (EOpen path for_reading :: trace s). rewrite Hread.
      cbn [unwrap]. rewrite (bind_ok (ret t) _ s1 t s1 eq_refl). unfold parse_text. rewrite Hparse. reflexivity. }
    clearbody f s1. unfold catch at 1, bind at 1. rewrite E3.
    unfold sys_close_ignored, change, seq, bind, closing. destruct (fd_close f (fds (im s1))); reflexivity.
Qed.

(** The parameters are not restored: after [. file a] with an empty file, $1 is
    a. *)
Theorem C94_restored_refuted : forall w d x file more args s m path, sget (lit ".") (al (im s)) = None ->
  Forall written_arg (x :: more) -> Forall2 (ordinary (expand_var (cm (im s)))) (x :: more) (file :: args) ->
  Forall (fun a => a <> lit "&") args -> ContextSpec.performs (ContextLaws.params 1 args) (cm (im s)) = Some m ->
  source_path (w (trace s)) m file path ->
  r_open (w (trace s)) path for_reading = true -> r_read (w (EOpen path for_reading :: trace s)) path = Some [] ->
  exists s', exec_text w (S d) (r_words (lit "." :: x :: more)) s = (OOk 0, s') /\ cm (im s') = m.
Proof.
  intros w d x file more args s m path Ha Hw Ho Hamp Hm Hp Hopen Hread.
  rewrite (C94_source_partial w d (lit ".") x file more args s m path [] None (or_introl eq_refl) Ha Hw Ho Hamp Hm Hp Hopen Hread eq_refl).
  eexists. split; [reflexivity|]. unfold closing. cbn [im trace]. destruct (fd_close _ _); reflexivity.
Qed.

Example C94_example :
  let w : os := fun t => Reports (fun _ => true) (fun _ _ => true)
     (fun p => if str_eqb p (lit "/f") then Some (lit " X=7 ; unset Y") else if str_eqb p (lit "/bad") then Some (lit " | ") else Some [])
     (fun _ => true) None (fun _ => true) true (Some 100%positive) (fun _ _ => true) 100 [] (fun _ _ => None) in
  let run t := exec_text w 5 t PropertiesEval.ex_shell in
  let var t n := expand_var (cm (im (snd (run t)))) n in
  source_path (w []) PropertiesEval.ex_cm (lit "prog") (lit "/bin/prog") /\
  fst (run (lit " Y=1 ; . /f")) = OOk 0 /\ var (lit " Y=1 ; . /f") (lit "X") = Some (lit "7") /\
  var (lit " Y=1 ; . /f") (lit "Y") = None /\
  var (lit " . /e a b") (lit "2") = Some (lit "b") /\
  fst (run (lit " source /bad")) = OErr EParse.
Proof.
  cbn zeta. split; [|vm_compute; repeat split].
  right. split; [cbn; intuition discriminate|]. left. vm_compute. reflexivity.
Qed.

Print Assumptions C89_cd_partial.
Print Assumptions C89_home_refuted.
Print Assumptions C89_pwd_refuted.
Print Assumptions C90_pwd_partial.
Print Assumptions C90_after_cd.
Print Assumptions C91_export_partial.
Print Assumptions C91_dash_refuted.
Print Assumptions C91_name_refuted.
Print Assumptions C91_reassign_refuted.
Print Assumptions C92_unset_partial.
Print Assumptions C92_unset_refuted.
Print Assumptions C93_value_partial.
Print Assumptions C93_mark_partial.
Print Assumptions C93_namespace_partial.
Print Assumptions C93_namespace_example.
Print Assumptions C93_kept.
Print Assumptions C93_dash_refuted.
Print Assumptions C94_source_partial.
Print Assumptions C94_arguments.
Print Assumptions C94_errors.
Print Assumptions C94_restored_refuted.
