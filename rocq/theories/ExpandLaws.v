(** Consequences of the expansion specification used by the property file. *)
From Verif Require Import Base BaseFacts Lexer LexerSpec Ast Parser GrammarSpec Context Alias Expand ExpandSpec ExpandFacts.

(** ** Text *)

Lemma unique_split : forall (k : char) (p q u v : str), ~ In k p -> ~ In k q ->
  p ++ k :: q = u ++ k :: v -> p = u /\ q = v.
Proof.
  intros k. induction p as [|c p IH]; intros q u v Hp Hq E.
  - destruct u as [|d u]; cbn in E; [injection E as ->; auto|].
    injection E as <- ->. exfalso. apply Hq, in_app_iff. right. left. reflexivity.
  - destruct u as [|d u]; cbn in E.
    + injection E as -> _. exfalso. apply Hp. left. reflexivity.
    + injection E as <- E. destruct (IH q u v) as [-> ->]; auto. intros H. apply Hp. right. exact H.
Qed.

Lemma body_fun w t t' : body w t -> body w t' -> t = t'.
Proof.
  intros H H'. assert (Hw : w <> []) by (inv H; discriminate).
  apply body_iff in H; [|exact Hw]. apply body_iff in H'; [|exact Hw]. congruence.
Qed.

Lemma inside_app out log : forall s, (forall d, In d s -> ~ In d (lit "$`")) ->
  forall u o log', inside out log u o log' -> inside out log (s ++ u) (s ++ o) log'.
Proof.
  intros s Hs u o log' H. induction s as [|d s IH]; [exact H|]. cbn [app]. apply in_plain.
  - apply Hs. left. reflexivity.
  - apply IH. intros e He. apply Hs. right. exact He.
Qed.

Lemma inside_dollar_end out : forall t, (forall d, In d t -> ~ In d (lit "$`")) ->
  forall log o log', ~ inside out log (t ++ lit "$") o log'.
Proof.
  induction t as [|c t IH]; intros Ht log o log' H.
  - remember ([] ++ lit "$") as s eqn:E. change (s = [ch "$"]) in E.
    destruct H; cbn in E; try discriminate.
    injection E as -> _. apply H. left. reflexivity.
  - assert (H1 : c <> ch "$") by (intros ->; apply (Ht (ch "$")); left; reflexivity).
    assert (H2 : c <> ch "`") by (intros ->; apply (Ht (ch "`")); [left; reflexivity|right; left; reflexivity]).
    remember ((c :: t) ++ lit "$") as s eqn:E. change (s = c :: t ++ lit "$") in E.
    destruct H; cbn in E; (discriminate || injection E as E E');
      try (apply H1; symmetry; exact E); try (apply H2; symmetry; exact E).
    subst. apply (IH (fun d Hd => Ht d (or_intror Hd)) _ _ _ H0).
Qed.

(** ** One argument in an arbitrary command *)

Lemma append_all_app f : forall a b log,
  append_all f log (a ++ b) =
  match append_all f log a with
  | None => None
  | Some (va, log1) =>
      match append_all f log1 b with
      | None => None
      | Some (vb, log2) => Some (va ++ vb, log2)
      end
  end.
Proof.
  induction a as [|w a IH]; intros b log; cbn [app append_all].
  - destruct (append_all f log b) as [[vb log2]|]; reflexivity.
  - destruct (f log w) as [[v log1]|]; [|reflexivity]. rewrite IH.
    destruct (append_all f log1 a) as [[va log2]|]; [|reflexivity].
    destruct (append_all f log2 b) as [[vb log3]|]; [|reflexivity]. rewrite app_assoc. reflexivity.
Qed.

Lemma body_sq t : body (sq t) t.
Proof. exact (bd_both (ch "'") t (ch "'")). Qed.

Lemma body_dq t : body (dq t) t.
Proof. exact (bd_both (ch """") t (ch """")). Qed.

Lemma sq_begins t : begins (ch "'") (sq t).
Proof. exists (t ++ lit "'"). reflexivity. Qed.

Lemma dq_begins t : begins (ch """") (dq t).
Proof. exists (t ++ lit """"). reflexivity. Qed.

Lemma begins_other c d w : begins c w -> c <> d -> ~ begins d w.
Proof. intros H Hn H'. apply Hn, (begins_inj _ _ _ H H'). Qed.

Lemma inside_plain out log t : (forall c, In c t -> ~ In c (lit "$`")) -> inside out log t t log.
Proof.
  induction t as [|c t IH]; intros H; [apply in_end|].
  apply in_plain; [apply H; left; reflexivity|]. apply IH. intros d Hd. apply H. right. exact Hd.
Qed.

Lemma substitutes_special w : substitutes w -> In (ch "$") w \/ In (ch "`") w.
Proof.
  intros [(a & b & ->)|H]; [left|right; exact H]. rewrite in_app_iff. right. left. reflexivity.
Qed.

Lemma dq_special c t : In c (dq t) -> c <> ch """" -> In c t.
Proof.
  unfold dq. rewrite !in_app_iff. intros [H|[H|H]] Hn; [|exact H|]; destruct H as [H|[]]; exfalso; apply Hn; symmetry; exact H.
Qed.

Lemma plain_not_substitutes t : (forall c, In c t -> ~ In c (lit """$`")) -> ~ substitutes (dq t).
Proof.
  intros H Hs. apply substitutes_special in Hs. destruct Hs as [Hs|Hs]; apply dq_special in Hs; try discriminate;
    apply H in Hs; apply Hs; cbn; tauto.
Qed.

Lemma ordinary_means out vars w v : ordinary vars w v ->
  exists w1, variable vars w w1 /\ forall log, argument out log w1 [v] log.
Proof.
  intros H. inv H.
  - exists v. split; [apply v_other; assumption|]. intros log. apply arg_plain; assumption.
  - exists (sq v). split; [apply v_other, (begins_other (ch "'")); [apply sq_begins|discriminate]|].
    intros log. apply arg_single; [apply sq_begins|apply body_sq].
  - exists (dq v). split; [apply v_other, (begins_other (ch """")); [apply dq_begins|discriminate]|].
    intros log. apply arg_double; [apply dq_begins|].
    apply (dq_text out log (dq v) v); [apply plain_not_substitutes; assumption|apply body_dq|].
    apply inside_plain. intros c Hc Hin. apply (H0 c Hc). right. exact Hin.
  - exists v. split; [apply v_set; assumption|]. intros log. apply arg_plain; assumption.
  - exists (ch "$" :: x). split; [apply v_unset; assumption|]. intros log.
    apply arg_plain; apply (begins_other (ch "$")); try discriminate; eexists; reflexivity.
Qed.

Lemma ordinary_evals out m w v : ordinary (expand_var m) w v ->
  forall log, eval_word out log (expand_word m w) = Some ([v], log).
Proof.
  intros H log. destruct (ordinary_means out _ w v H) as (w1 & Hv & Ha).
  apply variable_iff in Hv. rewrite Hv. apply argument_iff, Ha.
Qed.

(** The command word after aliases and variables. *)
Definition command_word (al : aliases) (vars : str -> option str) (name n2 : str) : Prop :=
  exists n1, (sget name al = None /\ n1 = name \/
              exists text args, sget name al = Some text /\ fields text (n1 :: args)) /\
             variable vars n1 n2.

Lemma argument_in_context : forall out al m log p name rs ws1 ws2,
  (forall n, command_word al (expand_var m) name n -> n <> []) ->
  (forall w v, ordinary (expand_var m) w v ->
     expand out al m log (SimpleCommand p name (Some (Suffix rs (ws1 ++ w :: ws2)))) = None) \/
  (exists p' n' before after log', forall w v, ordinary (expand_var m) w v ->
     expand out al m log (SimpleCommand p name (Some (Suffix rs (ws1 ++ w :: ws2)))) =
     Some (SimpleCommand p' n' (Some (Suffix rs (before ++ v :: after))), log')).
Proof.
  intros out al m log p name rs ws1 ws2 Hn.
  assert (Hal : (forall ws, alias_lookup al (SimpleCommand p name (Some (Suffix rs ws))) = None) \/
    (exists n1 args, forall ws, alias_lookup al (SimpleCommand p name (Some (Suffix rs ws))) =
       Some (SimpleCommand p n1 (Some (Suffix rs (ws ++ args))))) /\
    (exists n1 args, (forall ws, alias_lookup al (SimpleCommand p name (Some (Suffix rs ws))) =
       Some (SimpleCommand p n1 (Some (Suffix rs (ws ++ args))))) /\ expand_word m n1 <> [])).
  { unfold alias_lookup, lookup_alias. cbn [sc_name sc_prefix sc_suffix s_redirect word_list].
    destruct (sget name al) as [text|] eqn:E.
    - destruct (split_whitespace text) as [|n1 args] eqn:Es; [left; reflexivity|]. right.
      assert (Hr : forall ws : list str, Some (SimpleCommand p n1 (Some (Suffix rs (ws ++ match match args with [] => None | _ => Some args end with Some a => a | None => [] end)))) = Some (SimpleCommand p n1 (Some (Suffix rs (ws ++ args))))).
      { intros ws. destruct args; reflexivity. }
      split; exists n1, args; [exact Hr|]. split; [exact Hr|]. apply Hn. exists n1. split.
      + right. exists text, args. split; [exact E|]. apply fields_iff, Es.
      + apply variable_iff. reflexivity.
    - right. split; exists name, []; [|split]; try (intros ws; rewrite app_nil_r; reflexivity).
      apply Hn. exists name. split; [left; split; [exact E|reflexivity]|]. apply variable_iff. reflexivity. }
  unfold expand.
  destruct Hal as [Hal|[_ (n1 & args & Hal & Hne)]].
  { left. intros w v _. rewrite Hal. reflexivity. }
  setoid_rewrite Hal. clear Hal.
  assert (Hvr : forall ws, expand_vars m (SimpleCommand p n1 (Some (Suffix rs ws))) =
    match expand_vars m (SimpleCommand p n1 None) with
    | None => None
    | Some sc => Some (SimpleCommand (sc_prefix sc) (expand_word m n1) (Some (Suffix rs (map (expand_word m) ws))))
    end).
  { intros ws. unfold expand_vars. cbn [sc_prefix sc_name sc_suffix].
    destruct p as [p|]; [destruct (expand_assignments m (assignment p))|]; reflexivity. }
  setoid_rewrite Hvr. clear Hvr.
  destruct (expand_vars m (SimpleCommand p n1 None)) as [sc|]; [|left; reflexivity].
  set (p' := sc_prefix sc). set (n2 := expand_word m n1) in *. clearbody p' n2.
  unfold eval_words. cbn [sc_name sc_prefix sc_suffix].
  destruct (str_eqb_spec n2 []) as [->|_]; [congruence|].
  destruct (if starts_with (lit "'") n2 then _ else _) as [[n3 log0]|]; [|left; reflexivity].
  destruct (split_whitespace_ig_qts n3) as [ps|]; [|left; reflexivity].
  destruct (append_all (eval_name_piece out) log0 ps) as [[[|n4 extra] log1]|]; try (left; reflexivity).
  assert (Hap : forall w v, ordinary (expand_var m) w v ->
    append_all (eval_word out) log1 (map (expand_word m) ((ws1 ++ w :: ws2) ++ args)) =
    match append_all (eval_word out) log1 (map (expand_word m) ws1) with
    | None => None
    | Some (va, l1) =>
        match append_all (eval_word out) l1 (map (expand_word m) (ws2 ++ args)) with
        | None => None
        | Some (vb, l2) => Some (va ++ v :: vb, l2)
        end
    end).
  { intros w v Ho. rewrite <- app_assoc. cbn [app]. rewrite map_app. cbn [map].
    rewrite append_all_app. destruct (append_all (eval_word out) log1 (map (expand_word m) ws1)) as [[va l1]|];
      [|reflexivity].
    cbn [append_all]. rewrite (ordinary_evals out m w v Ho).
    destruct (append_all (eval_word out) l1 (map (expand_word m) (ws2 ++ args))) as [[vb l2]|]; reflexivity. }
  assert (Hcons : forall w, exists x xs, map (expand_word m) ((ws1 ++ w :: ws2) ++ args) = x :: xs).
  { intros w. destruct ws1; eexists; eexists; reflexivity. }
  destruct (append_all (eval_word out) log1 (map (expand_word m) ws1)) as [[va l1]|];
    [destruct (append_all (eval_word out) l1 (map (expand_word m) (ws2 ++ args))) as [[vb l2]|]|].
  - right. exists p', n4, (extra ++ va), vb, l2. intros w v Ho. specialize (Hap w v Ho).
    destruct (Hcons w) as (x & xs & Ex). rewrite Ex in *. rewrite Hap. rewrite <- app_assoc. reflexivity.
  - left. intros w v Ho. specialize (Hap w v Ho).
    destruct (Hcons w) as (x & xs & Ex). rewrite Ex in *. rewrite Hap. reflexivity.
  - left. intros w v Ho. specialize (Hap w v Ho).
    destruct (Hcons w) as (x & xs & Ex). rewrite Ex in *. rewrite Hap. reflexivity.
Qed.

(** ** Whole ordinary commands *)

Lemma plain_closed n : (forall c, In c n -> ~ space c /\ ~ In c (lit "'""")) -> closed_text n.
Proof.
  induction n as [|c n IH]; intros H; [constructor|].
  destruct (H c (or_introl eq_refl)). apply ct_char; auto.
  apply IH. intros d Hd. apply H. right. exact Hd.
Qed.

Lemma plain_name_pieces al n : plain_name al n -> unquoted_name n n /\ pieces n [n].
Proof.
  intros (Hne & _ & _ & H). split.
  - apply un_plain. intros [t ->]. destruct (H (ch "'") (or_introl eq_refl)) as [_ Hq]. apply Hq. left. reflexivity.
  - destruct n as [|c n]; [congruence|]. apply (p_last (c :: n)), ot_closed, plain_closed, H.
Qed.

Lemma plain_name_piece out log al n : plain_name al n -> all_of (name_piece out) log [n] [n] log.
Proof.
  intros (Hne & _ & _ & H).
  apply (all_cons (name_piece out) log n [] [n] log [] log); [|constructor].
  apply np_plain. intros [t ->]. destruct (H (ch """") (or_introl eq_refl)) as [_ Hq]. apply Hq. right. left. reflexivity.
Qed.

Lemma ordinary_all out m log ws vs : Forall2 (ordinary (expand_var m)) ws vs ->
  append_all (eval_word out) log (map (expand_word m) ws) = Some (vs, log).
Proof.
  induction 1 as [|w v ws vs H Hs IH]; [reflexivity|]. cbn [map append_all].
  rewrite (ordinary_evals out m w v H), IH. reflexivity.
Qed.

(** A prefix in which nothing is expanded. *)
Definition literal_prefix (p : option prefix) : Prop :=
  match p with Some p => forall a, In a (assignment p) -> ~ In (ch "$") a | None => True end.

Lemma literal_assignments m ws : (forall a, In a ws -> ~ In (ch "$") a) -> expand_assignments m ws = Some ws.
Proof.
  intros H. apply assignments_iff. induction ws as [|w ws IH]; constructor.
  - apply aw_plain, H. left. reflexivity.
  - apply IH. intros a Ha. apply H. right. exact Ha.
Qed.

Lemma plain_alias al p n s : plain_name al n -> alias_lookup al (SimpleCommand p n s) = Some (SimpleCommand p n s).
Proof. intros (_ & H & _). apply alias_iff, ar_none, H. Qed.

Lemma plain_vars m al p n s : plain_name al n -> literal_prefix p ->
  expand_vars m (SimpleCommand p n s) =
  Some (SimpleCommand p n (match s with Some s => Some (Suffix (s_redirect s) (map (expand_word m) (word_list s))) | None => None end)).
Proof.
  intros (Hne & _ & Hd & _) Hp. unfold expand_vars. cbn [sc_prefix sc_name sc_suffix].
  assert (En : expand_word m n = n) by (apply variable_iff, v_other, Hd). rewrite En.
  destruct p as [[pr pa]|]; [|reflexivity]. cbn [assignment p_redirect].
  rewrite literal_assignments by exact Hp. reflexivity.
Qed.

Lemma plain_eval out log al p n s : plain_name al n ->
  eval_words out log (SimpleCommand p n s) =
  match s with
  | Some (Suffix rs (w :: ws)) =>
      match append_all (eval_word out) log (w :: ws) with
      | Some (vs, log') => Some (SimpleCommand p n (Some (Suffix rs vs)), log')
      | None => None
      end
  | _ => Some (SimpleCommand p n (Some (Suffix [] [])), log)
  end.
Proof.
  intros H. pose proof (plain_name_pieces al n H) as [Hu Hp].
  unfold eval_words. cbn [sc_prefix sc_name sc_suffix].
  destruct (str_eqb_spec n []) as [->|Hne]; [destruct H; congruence|].
  assert (Eu : (if starts_with (lit "'") n then cut_quotes out log n else Some (n, log)) = Some (n, log))
    by (apply unquoted_name_iff; auto).
  rewrite Eu. apply split_pieces in Hp. rewrite Hp.
  pose proof (plain_name_piece out log al n H) as Ha. apply (all_iff _ _ (name_piece_iff out)) in Ha. rewrite Ha.
  destruct s as [[rs [|w ws]]|]; try reflexivity.
Qed.

Lemma plain_expand out al m log p n s : plain_name al n -> literal_prefix p ->
  expand out al m log (SimpleCommand p n s) =
  match s with
  | Some (Suffix rs (w :: ws)) =>
      match append_all (eval_word out) log (map (expand_word m) (w :: ws)) with
      | Some (vs, log') => Some (SimpleCommand p n (Some (Suffix rs vs)), log')
      | None => None
      end
  | _ => Some (SimpleCommand p n (Some (Suffix [] [])), log)
  end.
Proof.
  intros H Hp. unfold expand. rewrite plain_alias by exact H. rewrite (plain_vars m al) by assumption.
  rewrite (plain_eval out log al) by exact H.
  destruct s as [[rs [|w ws]]|]; reflexivity.
Qed.

Lemma ordinary_command out al m log p n rs ws vs : plain_name al n -> literal_prefix p -> ws <> [] ->
  Forall2 (ordinary (expand_var m)) ws vs ->
  expand out al m log (SimpleCommand p n (Some (Suffix rs ws))) =
  Some (SimpleCommand p n (Some (Suffix rs vs)), log).
Proof.
  intros H Hp Hw Ho. rewrite plain_expand by assumption.
  destruct ws as [|w ws]; [congruence|]. rewrite (ordinary_all out m log _ vs Ho). reflexivity.
Qed.

Lemma argv_words p n rs vs : (forall c, In c (List.concat (n :: vs)) -> c <> 0%N) ->
  argv (SimpleCommand p n (Some (Suffix rs vs))) = Some (n :: vs).
Proof.
  intros H. unfold argv. cbn [sc_name sc_suffix word_list].
  match goal with |- (if ?b then _ else _) = _ => destruct b eqn:E; [|reflexivity] end.
  apply existsb_exists in E. destruct E as (w & Hw & Hc). apply contains_char_In in Hc.
  exfalso. apply (H 0%N); [|reflexivity]. apply in_concat. exists w. split; assumption.
Qed.

Lemma argv_nul sc : argv sc = None <->
  exists w, In w (sc_name sc :: words_of (sc_suffix sc)) /\ In 0%N w.
Proof.
  unfold argv, words_of. destruct (existsb (contains_char 0%N) (sc_name sc :: _)) eqn:E.
  - split; [|reflexivity]. intros _. apply existsb_exists in E. destruct E as (w & Hw & Hc).
    exists w. split; [exact Hw|]. apply contains_char_In, Hc.
  - split; [discriminate|]. intros (w & Hw & Hc). exfalso.
    assert (Ht : existsb (contains_char 0%N) (sc_name sc :: match sc_suffix sc with Some s => word_list s | None => [] end) = true).
    { apply existsb_exists. exists w. split; [exact Hw|]. apply contains_char_In, Hc. }
    rewrite Ht in E. discriminate.
Qed.

(** ** Aliases *)

Lemma alias_expand out al m log sc sc1 : alias_replaced al sc sc1 ->
  expand out al m log sc = expand out [] m log sc1.
Proof.
  intros H. apply alias_iff in H. unfold expand. rewrite H.
  change (alias_lookup [] sc1) with (Some sc1). reflexivity.
Qed.

(** ** The alias table *)

Lemma ends_with1 c s : ends_with [c] s = true <-> exists r, s = r ++ [c].
Proof. apply ends_with_iff. Qed.

Lemma stripped_iff s t : stripped s t <-> trim_quotes s = t.
Proof.
  unfold trim_quotes. change (lit """") with [ch """"]. change (lit "'") with [ch "'"].
  assert (Hq : forall q, starts_with [q] s && ends_with [q] s = true <-> s = [q] \/ exists t, s = q :: t ++ [q]).
  { intros q. rewrite andb_true_iff, ends_with1, starts_with_iff. split.
    - intros [[a ->] [r E]]. cbn [app] in *. destruct r as [|d r]; cbn [app] in E; [left; congruence|].
      right. exists r. cbn in E. congruence.
    - intros [->|[u ->]]; split; try (eexists; reflexivity).
      + exists []. reflexivity.
      + exists (q :: u). reflexivity. }
  destruct ((starts_with [ch """"] s && ends_with [ch """"] s) || (starts_with [ch "'"] s && ends_with [ch "'"] s)) eqn:E.
  - assert (Hs : exists q, In q (lit "'""") /\ (s = [q] \/ exists t, s = q :: t ++ [q])).
    { apply orb_true_iff in E. destruct E as [E|E]; apply Hq in E; eexists; (split; [|exact E]); cbn; tauto. }
    destruct Hs as (q & Hin & Hs). split.
    + intros H. inv H; unfold drop_ends; cbn [tl].
      * apply snoc_removelast.
      * reflexivity.
      * exfalso. destruct Hs as [->|[u ->]]; [apply H1; eauto|eapply H0; eauto].
    + intros <-. destruct Hs as [->|[u ->]]; unfold drop_ends; cbn [tl].
      * apply st_lone, Hin.
      * rewrite snoc_removelast. apply st_pair, Hin.
  - apply orb_false_iff in E. destruct E as [E1 E2].
    assert (Hno : forall q, In q (lit "'""") -> ~ (s = [q] \/ exists t, s = q :: t ++ [q])).
    { intros q Hin H. apply Hq in H. destruct Hin as [<-|[<-|[]]].
      - change (N_of_ascii "'") with (ch "'") in H. congruence.
      - change (N_of_ascii """") with (ch """") in H. congruence. }
    split.
    + intros H. inv H.
      * exfalso. eapply Hno; eauto.
      * exfalso. eapply Hno; eauto.
      * reflexivity.
    + intros <-. apply st_none.
      * intros q u Hin ->. eapply Hno; eauto.
      * intros (q & Hin & ->). eapply Hno; eauto.
Qed.

Lemma defines_split w n v : defines w n v <-> exists u, split_char (ch "=") w = [n; u] /\ trim_quotes u = v.
Proof.
  split.
  - intros (u & -> & Hn & Hu & Hs). exists u. split; [|apply stripped_iff, Hs].
    rewrite split_char_app by exact Hn. rewrite split_char_none by exact Hu. reflexivity.
  - intros (u & E & Hs). exists u.
    pose proof (split_char_pieces (ch "=") w) as Hp. rewrite E in Hp. inv Hp. inv H2.
    pose proof (split_char_join (ch "=") w) as Hj. rewrite E in Hj.
    split; [symmetry; exact Hj|]. split; [assumption|]. split; [assumption|]. apply stripped_iff. reflexivity.
Qed.

Lemma defines_fun w n v n' v' : defines w n v -> defines w n' v' -> n = n' /\ v = v'.
Proof.
  rewrite !defines_split. intros (u & E & <-) (u' & E' & <-). rewrite E in E'. inv E'. auto.
Qed.

Lemma defines_dec w : (exists n v, defines w n v) \/ (forall n v, ~ defines w n v).
Proof.
  destruct (split_char (ch "=") w) as [|n [|u [|x r]]] eqn:E.
  - right. intros n v H. apply defines_split in H. destruct H as (u & E' & _). congruence.
  - right. intros n' v H. apply defines_split in H. destruct H as (u & E' & _). congruence.
  - left. exists n, (trim_quotes u). apply defines_split. exists u. auto.
  - right. intros n' v H. apply defines_split in H. destruct H as (u' & E' & _). congruence.
Qed.

Lemma add_alias_defines w n v al : defines w n v -> add_alias w al = sinsert n v al.
Proof.
  intros H. apply defines_split in H. destruct H as (u & E & <-). unfold add_alias. rewrite E. reflexivity.
Qed.

Lemma add_alias_other w al : (forall n v, ~ defines w n v) -> add_alias w al = al.
Proof.
  intros H. unfold add_alias. destruct (split_char (ch "=") w) as [|n [|u [|x r]]] eqn:E; try reflexivity.
  exfalso. apply (H n (trim_quotes u)). apply defines_split. exists u. auto.
Qed.

(** One word of an [alias] command. *)
Definition alias_word (al : aliases) (w : str) : aliases :=
  if contains_char (ch "=") w then add_alias w al else al.

Lemma alias_word_add al w : alias_word al w = add_alias w al.
Proof.
  unfold alias_word. destruct (contains_char (ch "=") w) eqn:E; [reflexivity|].
  unfold add_alias. rewrite split_char_none by (apply contains_char_notIn, E). reflexivity.
Qed.

Lemma alias_words_other : forall ws al n, (forall w v, In w ws -> ~ defines w n v) ->
  sget n (fold_left alias_word ws al) = sget n al.
Proof.
  induction ws as [|w ws IH]; intros al n H; [reflexivity|]. cbn [fold_left].
  rewrite IH by (intros w' v Hw; apply H; right; exact Hw). rewrite alias_word_add.
  destruct (defines_dec w) as [(n' & v' & Hd)|Hd].
  - rewrite (add_alias_defines w n' v' al Hd). apply sget_sinsert_neq.
    intros ->. apply (H w v' (or_introl eq_refl) Hd).
  - rewrite add_alias_other by exact Hd. reflexivity.
Qed.

Lemma alias_words_last : forall ws1 w ws2 al n v, defines w n v ->
  (forall w' v', In w' ws2 -> ~ defines w' n v') ->
  sget n (fold_left alias_word (ws1 ++ w :: ws2) al) = Some v.
Proof.
  intros ws1 w ws2 al n v Hd Ho. rewrite fold_left_app. cbn [fold_left].
  rewrite alias_words_other by exact Ho. rewrite alias_word_add, (add_alias_defines w n v _ Hd).
  apply sget_sinsert_eq.
Qed.
