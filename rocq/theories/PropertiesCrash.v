(** Property C53: when the built-in commands crash. *)
From Verif Require Import Base BaseFacts Lexer LexerSpec LexerFacts Ast Parser GrammarSpec.
From Verif Require Import Context Alias Expand ExpandSpec ExpandFacts ExpandLaws Jobs Shell Builtins Eval.
From Verif Require Import EvalSpec EvalFacts EvalLaws EvalKeeps RunSpec RunLaws.
From Verif Require ContextSpec ContextFacts PropertiesEval.
Local Open Scope Z_scope.

(** ** Vocabulary *)

(** A decimal number that fits 32 bits, with an optional plus sign. *)
Definition count_text (x : str) (n : Z) : Prop :=
  exists ds v, (x = ds \/ x = ch "+" :: ds) /\ ds <> [] /\ digits_value 0 ds = Some v /\ n = Z.of_N v /\ n <= 4294967295.
(** The argument of [fg] and [bg]: a job number after a percent sign, or a process
    number. *)
Inductive designates : str -> bool -> Z -> Prop :=
| des_job t n : count_text t n -> designates (ch "%" :: t) true n
| des_pid t n : ~ begins (ch "%") t -> count_text t n -> designates t false n.
Definition named_job (by_number : bool) (n : Z) (jc : job_control) : option job :=
  if by_number then nget n (job_table jc)
  else match nget (if Z.ltb n 2147483648 then n else n - 4294967296) (pid_to_job jc) with
       | Some id => nget id (job_table jc)
       | None => None
       end.
Definition one_of (x : str) (cs : string) : Prop := exists c, In c (lit cs) /\ In c x.

(** Some variable is readonly, in a scope of the stack or in an exported one. *)
Definition some_readonly (m : cmgr) : Prop :=
  exists l k v, (In l (stack m) \/ In l (map snd (exported m))) /\ In (k, Var v true) (vars (deref l m)).
(** The word cannot be made readonly: the variable is not set, or the value has
    too many digits for a name that starts with a digit. *)
Inductive unmarkable (m : cmgr) (x : str) : Prop :=
| um_unset : ~ In (ch "=") x -> get_var x m = None ->
    (forall ns y, ContextSpec.qualified x ns y -> get_context_by_name ns m <> None) -> unmarkable m x
| um_value : In (ch "=") x -> ContextSpec.unqualified x -> ContextSpec.unsettable x = true -> unmarkable m x
| um_inside ns y : In (ch "=") x -> ContextSpec.qualified x ns y ->
    get_context_by_name ns m <> None -> ContextSpec.unsettable y = true -> unmarkable m x.
(** When [readonly] crashes: an option alone; a word that cannot be made readonly,
    as the first one or after an option with [c] or [v]; a listing while something
    is readonly. *)
Inductive readonly_crashes (m : cmgr) : list str -> Prop :=
| ro_alone x : In (ch "-") x -> one_of x "fcvp" -> readonly_crashes m [x]
| ro_word x xs : ~ In (ch "-") x -> unmarkable m x -> readonly_crashes m (x :: xs)
| ro_option x y ys : In (ch "-") x -> one_of x "cv" -> ~ In (ch "f") x -> ~ In (ch "-") y -> unmarkable m y ->
    readonly_crashes m (x :: y :: ys)
| ro_list x y ys : In (ch "-") x -> In (ch "p") x -> ~ one_of x "fcv" -> ~ In (ch "-") y -> some_readonly m ->
    readonly_crashes m (x :: y :: ys)
| ro_list_option x y ys : In (ch "-") x -> one_of x "vp" -> ~ one_of x "fc" -> In (ch "-") y -> In (ch "p") y -> some_readonly m ->
    readonly_crashes m (x :: y :: ys)
| ro_list_context x y z zs : In (ch "-") x -> In (ch "c") x -> ~ In (ch "f") x -> In (ch "-") y -> In (ch "p") y -> some_readonly m ->
    readonly_crashes m (x :: y :: z :: zs).

(** A job that cannot be resumed: a signal cannot be sent to one of its processes, or
    it is the job of the process itself, which is a forked child. *)
Definition unresumable (r : reports) (j : job) : Prop :=
  state j = Waiting \/ exists p, In p (processes j) /\ r_kill r (p_pid p) = false.

(** When a built-in command with these arguments crashes. *)
Inductive crashes (i : image) (r : reports) : string -> list str -> Prop :=
| cr_missing n : In n ["cd"; "fg"; "bg"; "alias"; "unalias"; "eval"]%string -> crashes i r n []
| cr_number n x xs : In n ["exit"; "return"]%string -> (forall z, ~ numeral x z) -> crashes i r n (x :: xs)
| cr_jobs xs k j : nget k (job_table (jobs (js i))) = Some j -> crashes i r "jobs" xs
| cr_designator n x xs : In n ["fg"; "bg"]%string -> (forall b k, ~ designates x b k) -> crashes i r n (x :: xs)
| cr_kill n x xs b k j : In n ["fg"; "bg"]%string -> designates x b k -> named_job b k (jobs (js i)) = Some j ->
    unresumable r j -> crashes i r n (x :: xs)
| cr_cwd xs : r_cwd r = None -> crashes i r "pwd" xs
| cr_unset x : In (ch "-") x -> one_of x "fcv" -> crashes i r "unset" [x]
| cr_readonly vs : readonly_crashes (cm i) vs -> crashes i r "readonly" vs.

(** The commands for which this is the whole story. *)
Definition settled (n : string) : Prop :=
  In n ["cd"; "exit"; "return"; "jobs"; "bg"; "alias"; "unalias"; "unset"; "pwd"; "readonly"]%string.

(** ** Facts *)

Lemma parse_u32_iff x n : parse_u32 x = Some n <-> count_text x (Z.of_N n).
Proof.
  unfold parse_u32, parse_unsigned, count_text. split.
  - intros H. destruct x as [|c x]; [discriminate|].
    destruct (N.eqb_spec c (ch "+")) as [->|Hc].
    + destruct x as [|d x]; [discriminate|]. destruct (digits_value 0 (d :: x)) as [v|] eqn:E; [|discriminate].
      destruct (N.leb_spec v 0xFFFFFFFF); [|discriminate]. injection H as <-. exists (d :: x), v.
      split; [right; reflexivity|]. split; [discriminate|]. split; [exact E|]. split; [reflexivity|lia].
    + destruct (digits_value 0 (c :: x)) as [v|] eqn:E; [|discriminate].
      destruct (N.leb_spec v 0xFFFFFFFF); [|discriminate]. injection H as <-. exists (c :: x), v.
      split; [left; reflexivity|]. split; [discriminate|]. split; [exact E|]. split; [reflexivity|lia].
  - intros (ds & v & Hx & Hne & E & Ev & Hle). apply N2Z.inj in Ev. subst v.
    assert (Hb : match x with c :: s' => if N.eqb c (ch "+") then s' else x | [] => [] end = ds).
    { destruct Hx as [->| ->]; [|reflexivity]. destruct ds as [|c ds]; [reflexivity|].
      destruct (N.eqb_spec c (ch "+")) as [->|]; [|reflexivity]. cbn in E. discriminate. }
    rewrite Hb. destruct ds as [|c ds]; [congruence|]. rewrite E.
    destruct (N.leb_spec n 0xFFFFFFFF); [reflexivity|lia].
Qed.

Lemma job_arg_iff x b n : job_arg x = Some (b, n) <-> designates x b n.
Proof.
  split.
  - unfold job_arg. destruct x as [|c x]; [discriminate|]. destruct (N.eqb_spec c (ch "%")) as [->|Hc].
    + destruct (parse_u32 x) as [k|] eqn:E; [|discriminate]. intros H. injection H as <- <-. constructor. apply parse_u32_iff, E.
    + destruct (parse_u32 (c :: x)) as [k|] eqn:E; [|discriminate]. intros H. injection H as <- <-. constructor.
      * intros [t Ht]. injection Ht. intros _ Hc'. apply Hc. exact Hc'.
      * apply parse_u32_iff, E.
  - intros H. destruct H as [t n H|t n Hb H].
    + cbn [job_arg]. rewrite N.eqb_refl. assert (E : n = Z.of_N (Z.to_N n)) by (destruct H as (ds & v & _ & _ & _ & -> & _); lia).
      rewrite E in H |- *. apply parse_u32_iff in H. rewrite H. reflexivity.
    + assert (E : n = Z.of_N (Z.to_N n)) by (destruct H as (ds & v & _ & _ & _ & -> & _); lia).
      rewrite E in H |- *. assert (Hne : t <> []).
      { intros ->. destruct H as (ds & v & [<-|Hx] & Hne & _); [congruence|discriminate]. }
      apply parse_u32_iff in H. destruct t as [|c t]; [congruence|]. cbn [job_arg].
      destruct (N.eqb_spec c (ch "%")) as [->|Hc]; [|rewrite H; reflexivity]. exfalso. apply Hb. exists t. reflexivity.
Qed.
Lemma job_arg_none x : job_arg x = None <-> forall b n, ~ designates x b n.
Proof.
  split.
  - intros H b n Hd. apply job_arg_iff in Hd. congruence.
  - intros H. destruct (job_arg x) as [[b n]|] eqn:E; [|reflexivity]. apply job_arg_iff in E. destruct (H b n E).
Qed.

Lemma crash_lift (r : out unit * shell) :
  fst (match r with (OOk _, s') => (@OOk Z 0, s') | (o, s') => (lift o, s') end) = OPanic <-> fst r = OPanic.
Proof. destruct r as [[a| | | | | |] s']; cbn; split; congruence. Qed.

Lemma fg_or_bg_crash w b n s :
  (forall k j, nget k (job_table (jobs (js (im s)))) = Some j -> job_id j = k) ->
  fst (fg_or_bg w false b n s) = OPanic <->
  exists j, named_job b n (jobs (js (im s))) = Some j /\ unresumable (w (trace s)) j.
Proof.
  intros Hids. unfold fg_or_bg.
  set (found := if b then get_job n (jobs (js (im s))) else get_job_pid (to_i32 n) (jobs (js (im s)))).
  rewrite (bind_ok (look (fun i => if b then get_job n (jobs (js i)) else get_job_pid (to_i32 n) (jobs (js i)))) _ s found s eq_refl).
  assert (Hf : found = named_job b n (jobs (js (im s)))) by (unfold found, named_job; destruct b; reflexivity).
  rewrite <- Hf. destruct found as [j|] eqn:Ej; [|cbn; split; [discriminate|intros (j & E & _); discriminate]].
  assert (Hin : exists k, nget k (job_table (jobs (js (im s)))) = Some j).
  { rewrite Hf in Ej. destruct s as [i tr]. symmetry in Hf. unfold named_job in Hf. cbn [im] in *. destruct b; [exists n; exact Hf|].
    destruct (nget (if n <? 2147483648 then n else n - 4294967296) (pid_to_job (jobs (js i)))) as [id|]; [exists id; exact Hf|discriminate]. }
  destruct Hin as [k Hk]. pose proof (Hids k j Hk) as Hid. subst k. unfold borrowed.
  destruct (state_eqb (state j) Waiting) eqn:Eb.
  { cbn. split; [|reflexivity]. intros _. exists j. split; [reflexivity|]. left. destruct (state j); try discriminate. reflexivity. }
  rewrite (bind_ok (ask w r_kill) _ s (r_kill (w (trace s))) s eq_refl).
  unfold seq at 1, bind at 1. cbv beta iota.
  unfold seq at 1, bind at 1, try_. unfold resume, get_job. cbn [im]. rewrite Hk. cbn [negb].
  cbn [processes with_background with_state].
  destruct (forallb (fun p => r_kill (w (trace s)) (p_pid p)) (processes j)) eqn:Ea.
  - cbn. split; [discriminate|]. intros (j' & E & Hb). injection E as <-.
    destruct Hb as [Hb|(p & Hp & Hr)]; [rewrite Hb in Eb; discriminate|]. rewrite forallb_forall in Ea. rewrite (Ea p Hp) in Hr. discriminate.
  - cbn. split; [|reflexivity]. intros _. exists j.
    assert (Hex : exists p, In p (processes j) /\ r_kill (w (trace s)) (p_pid p) = false).
    { clear -Ea. induction (processes j) as [|p l IH]; [discriminate|]. cbn in Ea.
      destruct (r_kill (w (trace s)) (p_pid p)) eqn:E; [|exists p; split; [left; reflexivity|exact E]].
      destruct (IH Ea) as (q & H1 & H2). exists q. split; [right; exact H1|exact H2]. }
    split; [reflexivity|]. right. exact Hex.
Qed.

Lemma one_of_bool x (cs : list char) : existsb (fun c => contains_char c x) cs = true <-> exists c, In c cs /\ In c x.
Proof.
  rewrite existsb_exists. split; intros (c & H1 & H2); exists c; (split; [exact H1|]); apply contains_char_In; exact H2.
Qed.

Lemma get_var_marks x m : stack m <> [] -> set_var_readonly x m = None <->
  (get_var x m = None /\ forall ns y, ContextSpec.qualified x ns y -> get_context_by_name ns m <> None).
Proof.
  intros Hs. unfold set_var_readonly, get_var. destruct (namespaced x) as [[ns y]|] eqn:En.
  - apply ContextFacts.namespaced_some in En.
    destruct (get_context_by_name ns m) as [l|] eqn:El.
    + unfold ctx_mark_readonly. destruct (ctx_get_var y (deref l m)) as [v|] eqn:Ev; cbn; split; try discriminate.
      * intros [F _]. discriminate.
      * intros _. split; [reflexivity|]. intros ns' y' Hq. apply ContextFacts.namespaced_some in En, Hq. rewrite En in Hq. injection Hq as <- <-. congruence.
      * reflexivity.
    + split; [discriminate|]. intros [_ F]. destruct (F ns y En El).
  - assert (Hno : forall ns y, ~ ContextSpec.qualified x ns y).
    { intros ns y Hq. apply ContextFacts.namespaced_some in Hq. congruence. }
    destruct (innermost (has_var x) m) as [l|] eqn:Ei.
    + unfold ctx_mark_readonly. destruct (ctx_get_var x (deref l m)) as [v|] eqn:Ev; cbn; split; try discriminate.
      * intros [F _]; discriminate.
      * intros _. split; [reflexivity|]. intros ns y Hq. destruct (Hno ns y Hq).
      * reflexivity.
    + unfold ctx_mark_readonly. split; [intros _; split; [reflexivity|intros ns y Hq; destruct (Hno ns y Hq)]|]. intros _.
      destruct (ctx_get_var x (deref (get_context m) m)) as [v|] eqn:Ev; [|reflexivity]. exfalso.
      unfold innermost in Ei. assert (Hin : In (get_context m) (rev (stack m))).
      { apply -> in_rev. unfold get_context. destruct (stack m) as [|a l]; [congruence|]. clear.
        revert a. induction l as [|b l IH]; intros a; [left; reflexivity|]. right. exact (IH b). }
      apply (find_none _ _ Ei) in Hin. unfold has_var in Hin. rewrite Ev in Hin. discriminate.
Qed.

Lemma ctx_set_none ro set c : ctx_set ro set c = None <-> ContextSpec.unsettable set = true.
Proof. unfold ctx_set. destruct (split_set set). rewrite ContextFacts.key_ok_spec. destruct (ContextSpec.unsettable set); cbn; split; congruence. Qed.
Lemma update_opt_none l c m : update_opt l c m = None <-> c = None.
Proof. destruct c; cbn; split; congruence. Qed.

Lemma add_readonly_crash x m : add_var_readonly x m = None <->
  (ContextSpec.unqualified x /\ ContextSpec.unsettable x = true) \/
  exists ns y, ContextSpec.qualified x ns y /\ get_context_by_name ns m <> None /\ ContextSpec.unsettable y = true.
Proof.
  unfold add_var_readonly. destruct (namespaced x) as [[ns y]|] eqn:En.
  - assert (Hnu : ~ ContextSpec.unqualified x) by (intros H; apply ContextFacts.namespaced_none in H; congruence).
    destruct (get_context_by_name ns m) as [l|] eqn:El.
    + rewrite update_opt_none, ctx_set_none. split.
      * intros H. right. exists ns, y. split; [apply ContextFacts.namespaced_some; exact En|]. split; [congruence|exact H].
      * intros [[H _]|(ns' & y' & Hq & _ & H)]; [contradiction|]. apply ContextFacts.namespaced_some in Hq.
        rewrite En in Hq. injection Hq as <- <-. exact H.
    + split; [discriminate|]. intros [[H _]|(ns' & y' & Hq & Hg & H)]; [contradiction|]. apply ContextFacts.namespaced_some in Hq.
      rewrite En in Hq. injection Hq as <- <-. congruence.
  - cbv zeta. rewrite update_opt_none, ctx_set_none. split.
    + intros H. left. split; [apply ContextFacts.namespaced_none; exact En|exact H].
    + intros [[_ H]|(ns & y & Hq & _)]; [exact H|]. apply ContextFacts.namespaced_some in Hq. congruence.
Qed.

Definition cmd_of (n : string) (vs : list str) : simple_command := SimpleCommand None (lit n) (Some (Suffix [] vs)).

Lemma try_cm_crash f s : fst (try_cm f s) = OPanic <-> f (cm (im s)) = None.
Proof. unfold try_cm, try_. destruct (f (cm (im s))); cbn; split; congruence. Qed.
Lemma say_all_ok ts : forall s, fst (say_all ts s) = OOk tt.
Proof. induction ts as [|t ts IH]; intros s; [reflexivity|]. cbn [say_all]. rewrite (seq_ok (say t) _ s tt _ eq_refl). apply IH. Qed.

Lemma fold_kept (vs : list (str * var)) : forall acc : smap var,
  fold_left (fun acc nv => if is_readonly (snd nv) then sinsert (fst nv) (snd nv) acc else acc) vs acc = [] <->
  acc = [] /\ forall k v, ~ In (k, Var v true) vs.
Proof.
  induction vs as [|[k [v b]] vs IH]; intros acc; cbn [fold_left].
  - split; [intros H; split; [exact H|intros k v []]|]. intros [H _]. exact H.
  - rewrite IH. cbn [snd fst is_readonly]. destruct b.
    + split.
      * intros [F _]. exfalso. destruct acc as [|[k' v'] acc]; cbn in F; [discriminate|]. destruct (str_eqb k k'); discriminate.
      * intros [_ F]. destruct (F k v). left. reflexivity.
    + split; (intros [H1 H2]; split; [exact H1|]); intros k' v' Hin.
      * destruct Hin as [E|Hin]; [discriminate|]. exact (H2 k' v' Hin).
      * apply (H2 k' v'). right. exact Hin.
Qed.
Lemma collect_kept (cs : list context) : collect is_readonly cs <> [] <-> exists c k v, In c cs /\ In (k, Var v true) (vars c).
Proof.
  assert (H : forall acc, fold_left (fun acc c =>
      fold_left (fun acc nv => if is_readonly (snd nv) then sinsert (fst nv) (snd nv) acc else acc) (vars c) acc) cs acc = [] <->
    acc = [] /\ forall c, In c cs -> forall k v, ~ In (k, Var v true) (vars c)).
  { induction cs as [|c cs IH]; intros acc; cbn [fold_left].
    - split; [intros H; split; [exact H|intros c []]|]. intros [H _]. exact H.
    - rewrite IH, fold_kept. split.
      + intros [[H1 H2] H3]. split; [exact H1|]. intros c' [<-|Hc]; [exact H2|exact (H3 c' Hc)].
      + intros [H1 H2]. split; [split; [exact H1|apply H2; left; reflexivity]|]. intros c' Hc. apply H2. right. exact Hc. }
  unfold collect. specialize (H []).
  match type of H with ?l = [] <-> _ => change (l <> [] <-> exists c k v, In c cs /\ In (k, Var v true) (vars c)); destruct l as [|e m] eqn:E end.
  - split; [intros F; congruence|]. intros (c & k & v & H1 & H2). destruct (proj2 (proj1 H eq_refl) c H1 k v H2).
  - split; [|discriminate]. intros _. clear E.
    assert (Hn : ~ Forall (fun c => Forall (fun nv => is_readonly (snd nv) = false) (vars c)) cs).
    { intros HF. assert (F : e :: m = []); [|discriminate]. apply H. split; [reflexivity|]. intros c Hc k v Hin.
      rewrite Forall_forall in HF. specialize (HF c Hc). rewrite Forall_forall in HF. specialize (HF _ Hin). discriminate. }
    apply neg_Forall_Exists_neg in Hn.
    2:{ intros c. apply Forall_dec. intros nv. destruct (is_readonly (snd nv)); [right; discriminate|left; reflexivity]. }
    apply Exists_exists in Hn. destruct Hn as (c & Hc & Hn).
    apply neg_Forall_Exists_neg in Hn.
    2:{ intros nv. destruct (is_readonly (snd nv)); [right; discriminate|left; reflexivity]. }
    apply Exists_exists in Hn. destruct Hn as ([k [v b]] & Hin & Hb). cbn in Hb. destruct b; [|congruence].
    exists c, k, v. auto.
Qed.
Lemma all_readonly_kept m : all_readonly_vars m <> [] <-> some_readonly m.
Proof.
  unfold all_readonly_vars, some_readonly. rewrite collect_kept. split.
  - intros (c & k & v & Hc & Hin). apply in_app_or in Hc. destruct Hc as [Hc|Hc]; apply in_map_iff in Hc.
    + destruct Hc as (l & <- & Hl). exists l, k, v. auto.
    + destruct Hc as (nl & <- & Hl). exists (snd nl), k, v. split; [right; apply in_map; exact Hl|exact Hin].
  - intros (l & k & v & [Hl|Hl] & Hin); exists (deref l m), k, v; (split; [|exact Hin]); apply in_or_app.
    + left. apply in_map_iff. exists l. auto.
    + right. apply in_map_iff in Hl. destruct Hl as (nl & <- & Hl). apply in_map_iff. exists nl. auto.
Qed.
Lemma sget_in {V} k (v : V) m : sget k m = Some v -> In v (map snd m).
Proof.
  induction m as [|[k' v'] m IH]; [discriminate|]. cbn. destruct (str_eqb k k'); [intros E; injection E as ->; left; reflexivity|].
  intros H. right. exact (IH H).
Qed.
Lemma context_kept ns m : all_readonly_vars_context ns m <> [] -> some_readonly m.
Proof.
  unfold all_readonly_vars_context. destruct (get_context_by_name ns m) as [l|] eqn:E; [|congruence].
  rewrite collect_kept. intros (c & k & v & [<-|[]] & Hin). exists l, k, v. split; [right; exact (sget_in _ _ _ E)|exact Hin].
Qed.
Lemma print_vars_crash vs s : fst (print_vars vs s) = OPanic <-> vs <> [].
Proof. destruct vs; cbn; split; congruence. Qed.
Lemma print_vars_ok s : print_vars [] s = (OOk tt, s).
Proof. reflexivity. Qed.
Lemma list_crash f pos ws s : (pos <= List.length ws)%nat ->
  fst (readonly_print f pos ws s) = OPanic <->
  some_readonly (cm (im s)) /\ f <> FFunction /\ (f = FContext -> (pos < List.length ws)%nat).
Proof.
  intros Hpos. unfold readonly_print. rewrite (bind_ok (look cm) _ s (cm (im s)) s eq_refl).
  rewrite <- all_readonly_kept. destruct f.
  - destruct (all_readonly_vars (cm (im s))) as [|e m]; cbn; split; try discriminate; try reflexivity.
    + intros [F _]. congruence.
    + intros _. split; [discriminate|]. split; [discriminate|]. discriminate.
  - unfold print_readonly_functions. rewrite (bind_ok (look cm) _ s (cm (im s)) s eq_refl), say_all_ok. split; [discriminate|tauto].
  - destruct (Nat.eqb_spec (List.length ws) pos) as [E|E].
    + split; [discriminate|]. intros (_ & _ & F). specialize (F eq_refl). lia.
    + destruct (nth_error ws pos) as [ns|] eqn:En; [|apply nth_error_None in En; lia].
      rewrite (bind_ok (word_at pos ws) _ s ns s) by (unfold word_at; rewrite En; reflexivity).
      unfold seq, bind. destruct (all_readonly_vars_context ns (cm (im s))) as [|e m] eqn:Ec.
      * rewrite print_vars_ok. rewrite print_vars_crash. split; [intros H; split; [exact H|]; split; [discriminate|lia]|tauto].
      * cbn. split; [|reflexivity]. intros _. split; [|split; [discriminate|lia]].
        apply all_readonly_kept, (context_kept ns). congruence.
Qed.
(** The crash of each command, one by one. *)
Section Each.
Context (w : os) (rec : list and_or -> M Z).
Notation call n vs := (call_builtin w rec (cmd_of n vs)).

Lemma cd_crash vs s : fst (call "cd" vs s) = OPanic <-> vs = [].
Proof.
  unfold cmd_of. rewrite call_cd. unfold change_directory. rewrite (seq_ok interrupts_off _ s tt (blocked s) eq_refl).
  cbn [words_of sc_suffix word_list]. destruct vs as [|x xs]; [cbn; tauto|].
  rewrite (bind_ok (word_at 0 (x :: xs)) _ (blocked s) x (blocked s) eq_refl).
  rewrite (bind_ok (ask w (fun r => r_chdir r x)) _ (blocked s) _ (blocked s) eq_refl).
  destruct (r_chdir (w (trace (blocked s))) x); cbn; split; discriminate.
Qed.
Lemma number_crash n vs s : In n ["exit"; "return"]%string ->
  fst (call n vs s) = OPanic <-> exists x xs, vs = x :: xs /\ forall z, ~ numeral x z.
Proof.
  intros [<-|[<-|[]]]; unfold cmd_of.
  - rewrite call_exit. unfold quit. cbn [words_of sc_suffix word_list]. destruct vs as [|x xs].
    + cbn. split; [discriminate|intros (x & xs & E & _); discriminate].
    + unfold bind. destruct (parse_i32 x) as [z|] eqn:E; cbn.
      * split; [discriminate|]. intros (y & ys & Ey & H). injection Ey as <- <-. apply parse_i32_iff in E. destruct (H z E).
      * split; [|reflexivity]. intros _. exists x, xs. split; [reflexivity|]. intros z Hz. apply parse_i32_iff in Hz. congruence.
  - rewrite call_return. unfold return_cmd. cbn [words_of sc_suffix word_list]. destruct vs as [|x xs].
    + cbn. split; [discriminate|intros (x & xs & E & _); discriminate].
    + unfold bind. destruct (parse_i32 x) as [z|] eqn:E; cbn.
      * split; [discriminate|]. intros (y & ys & Ey & H). injection Ey as <- <-. apply parse_i32_iff in E. destruct (H z E).
      * split; [|reflexivity]. intros _. exists x, xs. split; [reflexivity|]. intros z Hz. apply parse_i32_iff in Hz. congruence.
Qed.
Lemma jobs_crash vs s : fst (call "jobs" vs s) = OPanic <-> exists k j, nget k (job_table (jobs (js (im s)))) = Some j.
Proof.
  unfold cmd_of. rewrite call_jobs. unfold jobs_cmd. rewrite (bind_ok (look js) _ s (js (im s)) s eq_refl). unfold bind, display_jobs.
  destruct (job_table (jobs (js (im s)))) as [|[k j] t]; cbn.
  - split; [discriminate|intros (k & j & E); discriminate].
  - split; [|reflexivity]. intros _. exists k, j. rewrite Z.eqb_refl. reflexivity.
Qed.
Lemma bg_crash vs s : (forall k j, nget k (job_table (jobs (js (im s)))) = Some j -> job_id j = k) ->
  fst (call "bg" vs s) = OPanic <->
  vs = [] \/ exists x xs, vs = x :: xs /\ ((forall b k, ~ designates x b k) \/
    exists b k j, designates x b k /\ named_job b k (jobs (js (im s))) = Some j /\ unresumable (w (trace s)) j).
Proof.
  intros Hids. unfold cmd_of. rewrite call_bg. unfold fgbg. rewrite (seq_ok interrupts_off _ s tt (blocked s) eq_refl).
  cbn [words_of sc_suffix word_list]. destruct vs as [|x xs]; [cbn; tauto|].
  rewrite (bind_ok (word_at 0 (x :: xs)) _ (blocked s) x (blocked s) eq_refl).
  destruct (job_arg x) as [[b k]|] eqn:Ea.
  - cbn [unwrap]. rewrite (bind_ok (ret (b, k)) _ (blocked s) (b, k) (blocked s) eq_refl). cbn [fst snd sc_name].
    change (str_eqb (lit "bg") (lit "fg")) with false.
    pose proof (fg_or_bg_crash w b k (blocked s) Hids) as HC. change (jobs (js (im (blocked s)))) with (jobs (js (im s))) in HC.
    change (trace (blocked s)) with (trace s) in HC.
    assert (HL : fst ((fg_or_bg w false b k ;; interrupts_on) (blocked s)) = OPanic <-> fst (fg_or_bg w false b k (blocked s)) = OPanic).
    { unfold seq, bind. destruct (fg_or_bg w false b k (blocked s)) as [[u| | | | | |] s1]; cbn; split; congruence. }
    rewrite HL, HC. apply job_arg_iff in Ea. split.
    + intros (j & H). right. exists x, xs. split; [reflexivity|]. right. exists b, k, j. tauto.
    + intros [F|(y & ys & Ey & [F|(b' & k' & j & Hd & H)])]; [discriminate| |].
      * injection Ey as <- <-. destruct (F b k Ea).
      * injection Ey as <- <-. apply job_arg_iff in Ea, Hd. rewrite Ea in Hd. injection Hd as <- <-. exists j. exact H.
  - cbn. split; [|reflexivity]. intros _. right. exists x, xs. split; [reflexivity|]. left. apply job_arg_none. exact Ea.
Qed.
Lemma alias_crash vs s : fst (call "alias" vs s) = OPanic <-> vs = [].
Proof.
  unfold cmd_of. rewrite call_alias. unfold alias_cmd. cbn [words_of sc_suffix word_list]. destruct vs as [|x xs]; [cbn; tauto|].
  rewrite (bind_ok (word_at 0 (x :: xs)) _ s x s eq_refl). destruct (contains_str (lit "-p") x) eqn:E.
  - unfold display_aliases. rewrite (bind_ok (look al) _ s (al (im s)) s eq_refl). rewrite say_all_ok. split; discriminate.
  - unfold try_, alias_builtin. rewrite E. cbn. split; discriminate.
Qed.
Lemma unalias_crash vs s : fst (call "unalias" vs s) = OPanic <-> vs = [].
Proof.
  unfold cmd_of. rewrite call_unalias. unfold unalias_cmd. cbn [words_of sc_suffix word_list].
  rewrite (bind_ok (look al) _ s (al (im s)) s eq_refl). destruct vs as [|x [|y xs]]; cbn; [tauto| |]; split; discriminate.
Qed.
Lemma pwd_crash vs s : fst (call "pwd" vs s) = OPanic <-> r_cwd (w (trace s)) = None.
Proof.
  unfold cmd_of. rewrite call_pwd. unfold pwd. rewrite (bind_ok (ask w r_cwd) _ s _ s eq_refl).
  destruct (r_cwd (w (trace s))); cbn; split; congruence.
Qed.
Lemma unset_crash vs s : fst (call "unset" vs s) = OPanic <-> exists x, vs = [x] /\ In (ch "-") x /\ one_of x "fcv".
Proof.
  unfold cmd_of. rewrite call_unset. unfold unset_cmd. cbn [words_of sc_suffix word_list].
  destruct vs as [|x xs]; [cbn; split; [discriminate|intros (x & E & _); discriminate]|].
  unfold one_of. unfold unset_flags. 
  assert (HO := one_of_bool x (lit "fcv")). cbn [lit existsb] in HO.
  change (existsb (fun c => contains_char c x) (lit "fcv")) with
    (contains_char (ch "f") x || (contains_char (ch "c") x || (contains_char (ch "v") x || false))) in HO.
  destruct (contains_char (ch "-") x) eqn:E1.
  - assert (H1 : In (ch "-") x) by (apply contains_char_In; exact E1).
    assert (HP : forall fl : flag, fst ((y <- word_at 1 (x :: xs) ;;
          on_cm match fl with FVariable => remove_var y | FFunction => remove_function y | FContext => remove_context y end) s) = OPanic
        <-> xs = []).
    { intros fl. destruct xs as [|y xs]; cbn; [tauto|]. split; discriminate. }
    destruct (contains_char (ch "f") x) eqn:Ef; [|destruct (contains_char (ch "c") x) eqn:Ec; [|destruct (contains_char (ch "v") x) eqn:Ev]].
    + etransitivity; [exact (HP FFunction)|]. split; [intros ->; exists x; split; [reflexivity|]; split; [exact H1|apply HO; reflexivity]|].
      intros (y & E & _). injection E as _ ->. reflexivity.
    + etransitivity; [exact (HP FContext)|]. split; [intros ->; exists x; split; [reflexivity|]; split; [exact H1|apply HO; reflexivity]|].
      intros (y & E & _). injection E as _ ->. reflexivity.
    + etransitivity; [exact (HP FVariable)|]. split; [intros ->; exists x; split; [reflexivity|]; split; [exact H1|apply HO; reflexivity]|].
      intros (y & E & _). injection E as _ ->. reflexivity.
    + split; [discriminate|]. intros (y & E & _ & H). injection E as <- ->. apply HO in H. discriminate.
  - split; [discriminate|]. intros (y & E & H & _). injection E as <- ->. apply contains_char_In in H. congruence.
Qed.
Lemma eval_crash x xs s : fst (call "eval" (x :: xs) s) = OPanic <->
  exists c, parse (x ++ [10%N]) = Some c /\ fst (eval_complete rec c s) = OPanic.
Proof.
  unfold cmd_of. rewrite call_eval. unfold eval_cmd. cbn [words_of sc_suffix word_list].
  rewrite (bind_ok (word_at 0 (x :: xs)) _ s x s eq_refl). unfold parse_text.
  destruct (parse (x ++ [10%N])) as [c|]; [|cbn; split; [discriminate|intros (c & E & _); discriminate]].
  rewrite (bind_ok (ret c) _ s c s eq_refl). unfold bind, catch.
  destruct (eval_complete rec c s) as [o s1] eqn:E. split.
  - intros H. exists c. split; [reflexivity|]. rewrite E. destruct o; cbn in *; congruence.
  - intros (c' & Ec & H). injection Ec as <-. rewrite E in H. cbn in H. subst o. reflexivity.
Qed.
Lemma mark_crash y s : stack (cm (im s)) <> [] ->
  fst ((if contains_char (ch "=") y then try_cm (add_var_readonly y) else try_cm (set_var_readonly y)) s) = OPanic <->
  unmarkable (cm (im s)) y.
Proof.
  intros Hs. destruct (contains_char (ch "=") y) eqn:E; rewrite try_cm_crash.
  - apply contains_char_In in E. rewrite add_readonly_crash. split.
    + intros [[H1 H2]|(ns & z & H1 & H2 & H3)]; [apply um_value; assumption|eapply um_inside; eassumption].
    + intros [H| |]; [contradiction|left; split; assumption|]. right. do 2 eexists. split; [eassumption|]. split; assumption.
  - apply contains_char_notIn in E. rewrite get_var_marks by exact Hs. split.
    + intros [H1 H2]. apply um_unset; assumption.
    + intros [? H1 H2|H|? ? H]; [split; assumption|contradiction..].
Qed.
Lemma readonly_crash vs s : stack (cm (im s)) <> [] ->
  fst (call "readonly" vs s) = OPanic <-> readonly_crashes (cm (im s)) vs.
Proof.
  intros Hs. unfold cmd_of. rewrite call_readonly. unfold readonly_cmd. cbn [words_of sc_suffix word_list].
  destruct vs as [|x xs]; [cbn; split; [discriminate|intros H; inversion H]|]. cbv zeta.
  unfold readonly_flags. destruct (contains_char (ch "-") x) eqn:Ex.
  2:{ apply contains_char_notIn in Ex. rewrite (bind_ok (word_at 0 (x :: xs)) _ s x s eq_refl).
      rewrite (proj2 (contains_char_notIn _ _) Ex).
      rewrite mark_crash by exact Hs. split; [intros H; apply ro_word; assumption|].
      intros H. inversion H; subst; try contradiction; assumption. }
  apply contains_char_In in Ex.
  assert (Hof : forall cs : string, one_of x cs <-> existsb (fun c => contains_char c x) (lit cs) = true) by (intros cs; symmetry; apply one_of_bool).
  set (b := readonly_crashes (cm (im s)) (x :: xs)).
  assert (Hb : b <-> match xs with
     | [] => one_of x "fcvp"
     | y :: ys => (one_of x "cv" /\ ~ In (ch "f") x /\ ~ In (ch "-") y /\ unmarkable (cm (im s)) y) \/
         (some_readonly (cm (im s)) /\ ((In (ch "p") x /\ ~ one_of x "fcv" /\ ~ In (ch "-") y) \/
            (In (ch "-") y /\ In (ch "p") y /\ ((one_of x "vp" /\ ~ one_of x "fc") \/ (In (ch "c") x /\ ~ In (ch "f") x /\ ys <> [])))))
     end).
  { unfold b. destruct xs as [|y ys].
    - split; [intros H; inversion H; subst; [assumption|contradiction]|]. intros H. apply ro_alone; assumption.
    - split.
      + intros H. inversion H; subst; try contradiction; [left|right..]; auto 10. split; [assumption|]. right. split; [assumption|]. split; [assumption|].
        right. split; [assumption|]. split; [assumption|discriminate].
      + intros [(H1 & H2 & H3 & H4)|(H0 & [(H1 & H2 & H3)|(H1 & H2 & [(H3 & H4)|(H3 & H4 & H5)])])].
        * apply ro_option; assumption.
        * apply ro_list; assumption.
        * apply ro_list_option; assumption.
        * destruct ys; [congruence|]. apply ro_list_context; assumption. }
  clearbody b. rewrite Hb. clear Hb b.
  assert (H4 := Hof "fcvp"%string). assert (H3 := Hof "fcv"%string). assert (Hcv := Hof "cv"%string).
  assert (Hvp := Hof "vp"%string). assert (Hfc := Hof "fc"%string). clear Hof.
  change (existsb (fun c => contains_char c x) (lit "fcvp")) with
    (contains_char (ch "f") x || (contains_char (ch "c") x || (contains_char (ch "v") x || (contains_char (ch "p") x || false)))) in H4.
  change (existsb (fun c => contains_char c x) (lit "fcv")) with
    (contains_char (ch "f") x || (contains_char (ch "c") x || (contains_char (ch "v") x || false))) in H3.
  change (existsb (fun c => contains_char c x) (lit "cv")) with (contains_char (ch "c") x || (contains_char (ch "v") x || false)) in Hcv.
  change (existsb (fun c => contains_char c x) (lit "vp")) with (contains_char (ch "v") x || (contains_char (ch "p") x || false)) in Hvp.
  change (existsb (fun c => contains_char c x) (lit "fc")) with (contains_char (ch "f") x || (contains_char (ch "c") x || false)) in Hfc.
  assert (Hf := contains_char_In (ch "f") x). assert (Hc := contains_char_In (ch "c") x). assert (Hp := contains_char_In (ch "p") x).
  destruct xs as [|y ys].
  { clear -H4. destruct (contains_char (ch "f") x), (contains_char (ch "c") x), (contains_char (ch "v") x), (contains_char (ch "p") x);
      cbn in *; split; intuition congruence. }
  assert (Hy := contains_char_In (ch "-") y). assert (Hq := contains_char_In (ch "p") y).
  assert (HM := mark_crash y s Hs).
  assert (HL : forall f pos, (pos <= S (S (List.length ys)))%nat -> fst (readonly_print f pos (x :: y :: ys) s) = OPanic <->
    some_readonly (cm (im s)) /\ f <> FFunction /\ (f = FContext -> (pos < S (S (List.length ys)))%nat))
    by (intros f pos; apply (list_crash f pos (x :: y :: ys) s)).
  assert (HW : forall k : str -> M unit, (y0 <- word_at 1 (x :: y :: ys) ;; k y0) s = k y s) by (intros k; reflexivity).
  assert (HN : ys <> [] <-> (2 < S (S (List.length ys)))%nat) by (destruct ys; cbn; split; try congruence; lia).
  assert (HF : fst (print_readonly_functions s) = OPanic <-> False).
  { unfold print_readonly_functions. rewrite (bind_ok (look cm) _ s (cm (im s)) s eq_refl), say_all_ok. split; [discriminate|tauto]. }
  destruct (contains_char (ch "f") x) eqn:E1; [|destruct (contains_char (ch "c") x) eqn:E2; [|destruct (contains_char (ch "v") x) eqn:E3; [|destruct (contains_char (ch "p") x) eqn:E4]]];
    cbn [orb] in *; rewrite ?HW; try (destruct (contains_char (ch "-") y) eqn:E5; [destruct (contains_char (ch "p") y) eqn:E6|]);
    cbn [fail stop fst]; rewrite ?HL, ?HM, ?HF by lia; clear HW HL HM HF.
  all: assert (D1 : FVariable <> FFunction) by discriminate; assert (D2 : FContext <> FFunction) by discriminate;
    assert (D3 : FVariable <> FContext) by discriminate; assert (D4 : FFunction = FFunction) by reflexivity;
    assert (D5 : FContext = FContext) by reflexivity;
    assert (D6 : (1 < S (S (List.length ys)))%nat) by lia;
    assert (D7 : @OErr unit (EText (lit "readonly: invalid option")) <> OPanic) by discriminate.
  all: clear E1; try clear E2; try clear E3; try clear E4; try clear E5; try clear E6.
  all: repeat match goal with
       | H : true = true <-> _ |- _ => apply (fun f => proj1 f eq_refl) in H
       | H : _ <-> true = true |- _ => apply (fun f => proj2 f eq_refl) in H
       | H : false = true <-> ?P |- _ => assert (~ P) by (intros F; apply H in F; discriminate F); clear H
       | H : ?P <-> false = true |- _ => assert (~ P) by (intros F; apply H in F; discriminate F); clear H
       end.
  all: tauto.
Qed.
End Each.

(** ** C53 *)

(** A line with a built-in command crashes the shell exactly when [crashes] says
    so.  Missing: [fg] (it waits), [export], [exec], [eval] and [source]; see
    below and PropertiesTyped.v. *)
Theorem C53_crash_exact_partial : forall w d n ws vs s, settled n -> sget (lit n) (al (im s)) = None ->
  Forall written_arg ws -> Forall2 (ordinary (expand_var (cm (im s)))) ws vs ->
  (forall k j, nget k (job_table (jobs (js (im s)))) = Some j -> job_id j = k) -> stack (cm (im s)) <> [] ->
  fst (exec_text w (S d) (r_words (lit n :: ws)) s) = OPanic <-> crashes (im s) (w (trace s)) n vs.
Proof.
  intros w d n ws vs s Hset Ha Hw Ho Hids Hst.
  assert (Hb : check_if_builtin (lit n) = true /\ lit n <> []).
  { unfold settled in Hset. cbn in Hset. repeat (destruct Hset as [<-|Hset]; [split; [reflexivity|discriminate]|]). destruct Hset. }
  rewrite (exec_args_line w d (lit n) ws vs s (proj1 Hb) (proj2 Hb) Ha Hw Ho), crash_lift. clear Hb Ha Hw Ho ws.
  change (SimpleCommand None (lit n) (Some (Suffix [] vs))) with (cmd_of n vs).
  change (jobs (js (im s))) with (jobs (js (im (blocked s)))) in Hids.
  change (stack (cm (im s)) <> []) with (stack (cm (im (blocked s))) <> []) in Hst.
  unfold settled in Hset. cbn in Hset. repeat destruct Hset as [<-|Hset]; [..|destruct Hset].
  - rewrite cd_crash. split; [intros ->; apply cr_missing; cbn; auto|]. intros H. inversion H; subst; cbn in *; try reflexivity; intuition discriminate.
  - rewrite number_crash by (cbn; auto). split; [intros (x & xs & -> & H); apply cr_number; [cbn; auto|exact H]|].
      intros H. inversion H; subst; cbn in *; try (intuition discriminate). eauto.
  - rewrite number_crash by (cbn; auto). split; [intros (x & xs & -> & H); apply cr_number; [cbn; auto|exact H]|].
      intros H. inversion H; subst; cbn in *; try (intuition discriminate). eauto.
  - rewrite jobs_crash. split; [intros (k & j & H); apply (cr_jobs _ _ vs k j); exact H|].
      intros H. inversion H; subst; cbn in *; try (intuition discriminate). eauto.
  - rewrite bg_crash by exact Hids. split.
    * intros [->|(x & xs & -> & [H|(b & k & j & H1 & H2 & H3)])].
        -- apply cr_missing; cbn; auto.
        -- apply cr_designator; [cbn; auto|exact H].
        -- eapply cr_kill; [cbn; auto|exact H1|exact H2|exact H3].
    * intros H. inversion H; subst; cbn in *; try (intuition discriminate).
        -- right. eexists. eexists. split; [reflexivity|]. left. assumption.
        -- right. eexists. eexists. split; [reflexivity|]. right. do 3 eexists. split; [eassumption|]. split; eassumption.
  - rewrite alias_crash. split; [intros ->; apply cr_missing; cbn; auto|]. intros H. inversion H; subst; cbn in *; try reflexivity; intuition discriminate.
  - rewrite unalias_crash. split; [intros ->; apply cr_missing; cbn; auto 10|]. intros H. inversion H; subst; cbn in *; try reflexivity; intuition discriminate.
  - rewrite unset_crash. split; [intros (x & -> & H1 & H2); apply cr_unset; assumption|].
      intros H. inversion H; subst; cbn in *; try (intuition discriminate). eexists. split; [reflexivity|]. split; assumption.
  - rewrite pwd_crash. split; [intros H; apply cr_cwd; exact H|].
      intros H. inversion H; subst; cbn in *; try assumption; intuition discriminate.
  - rewrite readonly_crash by exact Hst. split; [intros H; apply cr_readonly; exact H|].
      intros H. inversion H; subst; cbn in *; try assumption; intuition discriminate.
Qed.

(** The hypotheses hold for [bg %1], which does not crash; [bg %x] and
    [readonly a] do, and listing the readonly variables when there is one. *)
Example C53_example :
  (exists vs, vs = [lit "%1"] /\ settled "bg" /\ ~ crashes (im PropertiesEval.ex_shell) (PropertiesEval.ex_os []) "bg" vs) /\
  fst (exec_text PropertiesEval.ex_os 5 (r_words [lit "bg"; lit "%1"]) PropertiesEval.ex_shell) <> OPanic /\
  fst (exec_text PropertiesEval.ex_os 5 (r_words [lit "bg"; lit "%x"]) PropertiesEval.ex_shell) = OPanic /\
  fst (exec_text PropertiesEval.ex_os 5 (r_words [lit "readonly"; lit "a=1"]) PropertiesEval.ex_shell) = OOk 0 /\
  fst (exec_text PropertiesEval.ex_os 5 (r_words [lit "readonly"; lit "a"]) PropertiesEval.ex_shell) = OPanic /\
  fst (exec_text PropertiesEval.ex_os 5 (lit " readonly -p -p") PropertiesEval.ex_shell) = OOk 0 /\
  fst (exec_text PropertiesEval.ex_os 5 (lit " readonly a=1 ; readonly -p -p") PropertiesEval.ex_shell) = OPanic /\
  fst (exec_text PropertiesEval.ex_os 5 (lit " readonly -v a=1 ; readonly -c -p") PropertiesEval.ex_shell) <> OPanic /\
  fst (exec_text PropertiesEval.ex_os 5 (lit " readonly -v a=1 ; readonly -c -p x") PropertiesEval.ex_shell) = OPanic.
Proof.
  split; [|repeat split; try (vm_compute; reflexivity); vm_compute; discriminate].
  exists [lit "%1"]. split; [reflexivity|]. split; [cbn; auto 10|].
  intros H. inversion H; subst; cbn in *; try (intuition discriminate);
    [|match goal with E : named_job ?b _ _ = Some _ |- _ => destruct b; discriminate E end].
  match goal with D : forall b k, ~ designates _ b k |- _ => apply (D true 1) end. apply des_job.
  exists (lit "1"), 1%N. split; [left; reflexivity|]. split; [discriminate|]. split; [reflexivity|]. split; [reflexivity|lia].
Qed.

(** [eval] crashes exactly when it has no argument or the evaluation of its text
    crashes. *)
Theorem C53_eval_crash : forall w d ws vs s, sget (lit "eval") (al (im s)) = None ->
  Forall written_arg ws -> Forall2 (ordinary (expand_var (cm (im s)))) ws vs ->
  fst (exec_text w (S d) (r_words (lit "eval" :: ws)) s) = OPanic <->
  vs = [] \/ exists x xs c, vs = x :: xs /\ parse (x ++ [10%N]) = Some c /\ fst (eval_complete (evaluate w d) c (blocked s)) = OPanic.
Proof.
  intros w d ws vs s Ha Hw Ho.
  rewrite (exec_args_line w d (lit "eval") ws vs s eq_refl ltac:(discriminate) Ha Hw Ho), crash_lift.
  change (SimpleCommand None (lit "eval") (Some (Suffix [] vs))) with (cmd_of "eval" vs).
  destruct vs as [|x xs]; [unfold cmd_of; rewrite call_eval; cbn; tauto|]. rewrite eval_crash. split.
  - intros (c & H). right. exists x, xs, c. tauto.
  - intros [F|(y & ys & c & E & H)]; [discriminate|]. injection E as <- <-. exists c. exact H.
Qed.

(** The full statement, that no line makes the shell crash, is false: [cd] alone
    does, in every state. *)
Theorem C53_crash_refuted : forall w d s, sget (lit "cd") (al (im s)) = None ->
  fst (exec_text w (S d) (lit " cd") s) = OPanic.
Proof.
  intros w d s Ha. change (lit " cd") with (r_words [lit "cd"]).
  rewrite (exec_args_line w d (lit "cd") [] [] s eq_refl ltac:(discriminate) Ha (Forall_nil _) (Forall2_nil _)), crash_lift.
  apply (cd_crash w (evaluate w d) [] (blocked s)). reflexivity.
Qed.

Print Assumptions C53_crash_exact_partial.
Print Assumptions C53_eval_crash.
Print Assumptions C53_crash_refuted.
