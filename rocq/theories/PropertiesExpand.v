(** Properties C15-C23, C33 and C64-C67: quoting, variables, aliases,
    substitution. *)
From Verif Require Import Base BaseFacts Lexer LexerSpec Ast Parser GrammarSpec Context Alias Expand ExpandSpec
  ExpandFacts ExpandLaws.
From Verif Require GrammarFacts.

(** Every expansion is described by the specification, and every expansion the
    specification describes happens; whatever is not described is a crash. *)
Theorem expansion_exact : forall out al m log sc sc' log',
  expand out al m log sc = Some (sc', log') <-> expands out al (expand_var m) log sc sc' log'.
Proof. exact expand_iff. Qed.

(** A state for the examples: [A] is [b c], [E] is empty, [Q] is ['x']. *)
Definition ex_vars : cmgr :=
  Cmgr [Context [(lit "A", Var (lit "b c") false); (lit "E", Var [] false); (lit "Q", Var (lit "'x'") false)] [] []]
       [0] [].
Definition ex_out : oracle := fun _ _ => Some (lit " one two").
Definition ex_aliases : aliases := [(lit "ll", lit "ls -l"); (lit "e", lit " ")].

(** ** C15, C16, C17: one argument in an arbitrary command *)

(** Everything except the argument itself is independent of the text [t]: the
    command, the arguments before and after, the redirections, and the commands
    run for substitutions. *)
Theorem C15_single_quotes : forall out al m log p name rs ws1 ws2,
  (forall n, command_word al (expand_var m) name n -> n <> []) ->
  (forall t, ~ In (ch "'") t ->
     expand out al m log (SimpleCommand p name (Some (Suffix rs (ws1 ++ sq t :: ws2)))) = None) \/
  (exists p' n' before after log', forall t, ~ In (ch "'") t ->
     expand out al m log (SimpleCommand p name (Some (Suffix rs (ws1 ++ sq t :: ws2)))) =
     Some (SimpleCommand p' n' (Some (Suffix rs (before ++ t :: after))), log')).
Proof.
  intros out al m log p name rs ws1 ws2 H.
  destruct (argument_in_context out al m log p name rs ws1 ws2 H) as [Hn|(p' & n' & before & after & log' & Hs)].
  - left. intros t Ht. exact (Hn _ _ (o_single _ t Ht)).
  - right. exists p', n', before, after, log'. intros t Ht. exact (Hs _ _ (o_single _ t Ht)).
Qed.

(** A whole line: the arguments the program gets are the values of the words of
    the line, one each and in order. *)
Theorem C15_whole_line : forall out al m log n ws vs,
  plain_name al n -> ws <> [] -> Forall written_word (n :: ws) ->
  Forall2 (ordinary (expand_var m)) ws vs ->
  (forall c, In c (List.concat (n :: vs)) -> c <> 0%N) ->
  exists sc sc', line_of (n :: ws) sc /\
    expand out al m log sc = Some (sc', log) /\ argv sc' = Some (n :: vs).
Proof.
  intros out al m log n ws vs Hn Hw Hf Ho Hz.
  exists (SimpleCommand None n (Some (Suffix [] ws))), (SimpleCommand None n (Some (Suffix [] vs))).
  split; [|split].
  - unfold line_of. inv Hf.
    pose proof (GrammarFacts.render_parse [AoOne (Pipeline false [CSimple (SimpleCommand None n (Some (Suffix [] ws)))] false)]) as H.
    replace (render _) with (r_words (n :: ws)) in H.
    + apply H; [discriminate|]. constructor; [|constructor]. 
      cbn [wf_andor wf_pipeline map all fold_right wf_command].
      assert (Hws : wf_suffix (Suffix [] ws)).
      { split; [right; exact Hw|]. split; [|constructor]. cbn [word_list].
        rewrite Forall_forall in *. intros w Hin. left. auto. }
      split; [discriminate|]. split; [split; [|exact I]|intros [E _]; discriminate].
      split; [exact I|]. split; [exact Hws|]. left. assumption.
    + unfold render. cbn [map joined r_andor r_pipeline r_command]. unfold r_simple.
      cbn [sc_prefix sc_name sc_suffix word_list s_redirect]. destruct n as [|c n]; [destruct Hn; congruence|].
      unfold r_redirs. cbn [map List.concat app]. rewrite !app_nil_r. reflexivity.
  - apply ordinary_command; auto. exact I.
  - apply argv_words, Hz.
Qed.

Example C15_example :
  let ws := [lit "a"; lit "'$A `x` "" '"; lit """two words"""; lit "$A"; lit "$none"] in
  let vs := [lit "a"; lit "$A `x` "" "; lit "two words"; lit "b c"; lit "$none"] in
  Forall2 (ordinary (expand_var ex_vars)) ws vs /\
  (exists sc sc', line_of (lit "echo" :: ws) sc /\
    expand ex_out ex_aliases ex_vars [] sc = Some (sc', []) /\ argv sc' = Some (lit "echo" :: vs)).
Proof.
  assert (Hc : forall c w, match w with d :: _ => d <> c | [] => True end -> ~ begins c w).
  { intros c w H [t ->]. congruence. }
  split.
  - repeat apply Forall2_cons; [| | | | |apply Forall2_nil].
    + apply o_plain; apply Hc; discriminate.
    + apply (o_single _ (lit "$A `x` "" ")). cbn. intuition discriminate.
    + apply (o_double _ (lit "two words")). cbn. intros c Hc1 Hc2.
      repeat match goal with H : _ \/ _ |- _ => destruct H as [<-|H] end; try contradiction; intuition discriminate.
    + apply (o_set _ (lit "A")); [reflexivity|apply Hc; discriminate|apply Hc; discriminate].
    + apply (o_unset _ (lit "none")). reflexivity.
  - eexists. eexists. split; [vm_compute; reflexivity|]. split; vm_compute; reflexivity.
Qed.

Theorem C16_double_quotes : forall out al m log p name rs ws1 ws2,
  (forall n, command_word al (expand_var m) name n -> n <> []) ->
  (forall t, (forall c, In c t -> ~ In c (lit """$`")) ->
     expand out al m log (SimpleCommand p name (Some (Suffix rs (ws1 ++ dq t :: ws2)))) = None) \/
  (exists p' n' before after log', forall t, (forall c, In c t -> ~ In c (lit """$`")) ->
     expand out al m log (SimpleCommand p name (Some (Suffix rs (ws1 ++ dq t :: ws2)))) =
     Some (SimpleCommand p' n' (Some (Suffix rs (before ++ t :: after))), log')).
Proof.
  intros out al m log p name rs ws1 ws2 H.
  destruct (argument_in_context out al m log p name rs ws1 ws2 H) as [Hn|(p' & n' & before & after & log' & Hs)].
  - left. intros t Ht. exact (Hn _ _ (o_double _ t Ht)).
  - right. exists p', n', before, after, log'. intros t Ht. exact (Hs _ _ (o_double _ t Ht)).
Qed.

Example C16_example :
  (forall n, command_word ex_aliases (expand_var ex_vars) (lit "ll") n -> n <> []) /\
  expand ex_out ex_aliases ex_vars []
    (SimpleCommand None (lit "ll") (Some (Suffix [] [lit """$(x)"""; lit """a  'b' ;"""; lit "$A"]))) =
  Some (SimpleCommand None (lit "ls") (Some (Suffix [] [lit "one"; lit "two"; lit "a  'b' ;"; lit "b c"; lit "-l"])),
        [Some [AoOne (Pipeline false [CSimple (SimpleCommand None (lit "x") None)] false)]]).
Proof.
  split; [|vm_compute; reflexivity].
  intros n (n1 & [[E _]|(text & args & E & F)] & V); [discriminate|].
  vm_compute in E. injection E as <-. apply fields_iff in F. vm_compute in F. injection F as <- <-.
  inv V; discriminate.
Qed.

(** The value of a variable is taken as it is when it does not begin with a
    quote; an unset variable is left as written. *)
Theorem C17_variable_partial : forall out al m log p name rs ws1 ws2,
  (forall n, command_word al (expand_var m) name n -> n <> []) ->
  (forall x v, (expand_var m x = Some v /\ ~ begins (ch "'") v /\ ~ begins (ch """") v \/
                expand_var m x = None /\ v = ch "$" :: x) ->
     expand out al m log (SimpleCommand p name (Some (Suffix rs (ws1 ++ (ch "$" :: x) :: ws2)))) = None) \/
  (exists p' n' before after log', forall x v,
     (expand_var m x = Some v /\ ~ begins (ch "'") v /\ ~ begins (ch """") v \/
      expand_var m x = None /\ v = ch "$" :: x) ->
     expand out al m log (SimpleCommand p name (Some (Suffix rs (ws1 ++ (ch "$" :: x) :: ws2)))) =
     Some (SimpleCommand p' n' (Some (Suffix rs (before ++ v :: after))), log')).
Proof.
  intros out al m log p name rs ws1 ws2 H.
  assert (Ho : forall x v, (expand_var m x = Some v /\ ~ begins (ch "'") v /\ ~ begins (ch """") v \/
                expand_var m x = None /\ v = ch "$" :: x) -> ordinary (expand_var m) (ch "$" :: x) v).
  { intros x v [(E & H1 & H2)|[E ->]]; [apply o_set|apply o_unset]; assumption. }
  destruct (argument_in_context out al m log p name rs ws1 ws2 H) as [Hn|(p' & n' & before & after & log' & Hs)].
  - left. intros x v Hx. exact (Hn _ _ (Ho x v Hx)).
  - right. exists p', n', before, after, log'. intros x v Hx. exact (Hs _ _ (Ho x v Hx)).
Qed.

(** A value that begins with a quote is unquoted once more: the argument is not
    the value. *)
Theorem C17_quoted_value_refuted : forall out al m log n x t, plain_name al n ->
  expand_var m x = Some (sq t) ->
  expand out al m log (SimpleCommand None n (Some (Suffix [] [ch "$" :: x]))) =
  Some (SimpleCommand None n (Some (Suffix [] [t])), log) /\ t <> sq t.
Proof.
  intros out al m log n x t Hn Hx. split.
  - rewrite plain_expand by (auto; exact I). cbn [map append_all].
    assert (Ev : expand_word m (ch "$" :: x) = sq t) by (apply variable_iff, v_set, Hx).
    rewrite Ev. assert (Ea : eval_word out log (sq t) = Some ([t], log)).
    { apply argument_iff, arg_single; [apply sq_begins|apply body_sq]. }
    rewrite Ea. reflexivity.
  - intros E. apply (f_equal (@List.length _)) in E. unfold sq in E. rewrite !app_length in E. cbn in E. lia.
Qed.

(** ... and such a value is an ordinary one to have. *)
Example C17_example :
  option_map (expand_var) (add_var (lit "Q=""'x y'""") ex_vars) <> None /\
  (exists m, add_var (lit "Q=""'x y'""") ex_vars = Some m /\ expand_var m (lit "Q") = Some (sq (lit "x y"))) /\
  plain_name ex_aliases (lit "echo").
Proof.
  split; [vm_compute; discriminate|]. split.
  - eexists. split; vm_compute; reflexivity.
  - split; [discriminate|]. split; [reflexivity|]. split; [intros [t E]; discriminate|].
    intros c H. cbn in H. unfold space.
    repeat match goal with H : _ \/ _ |- _ => destruct H as [<-|H] end; try contradiction;
      (split; [vm_compute; discriminate|cbn; intuition discriminate]).
Qed.

(** ** C18: inside double quotes *)

(** A variable reference inside double quotes is not replaced, whatever its
    value; instead the first character of its name is lost. *)
Theorem C18_variable_refuted : forall out al m log n a c x, plain_name al n ->
  ~ In c (lit """$`(") -> (forall d, In d (a ++ x) -> ~ In d (lit """$`")) ->
  expand out al m log (SimpleCommand None n (Some (Suffix [] [dq (a ++ ch "$" :: c :: x)]))) =
  Some (SimpleCommand None n (Some (Suffix [] [a ++ ch "$" :: x])), log).
Proof.
  intros out al m log n a c x Hn Hc Hp.
  rewrite plain_expand by (auto; exact I). cbn [map append_all].
  assert (Ev : expand_word m (dq (a ++ ch "$" :: c :: x)) = dq (a ++ ch "$" :: c :: x)).
  { apply variable_iff, v_other, (begins_other (ch """")); [apply dq_begins|discriminate]. }
  rewrite Ev. clear Ev.
  assert (Hd : forall d, In d (lit """$`") -> ~ In d (a ++ x)) by (intros d H1 H2; exact (Hp d H2 H1)).
  assert (Ha : forall d, In d (lit """$`") -> ~ In d a) by (intros d H1 H2; apply (Hd d H1), in_app_iff; auto).
  assert (Hx : forall d, In d (lit """$`") -> ~ In d x) by (intros d H1 H2; apply (Hd d H1), in_app_iff; auto).
  assert (Ea : eval_word out log (dq (a ++ ch "$" :: c :: x)) = Some ([a ++ ch "$" :: x], log)).
  { apply argument_iff, arg_double; [apply dq_begins|].
    apply (dq_text out log _ (a ++ ch "$" :: c :: x)).
    - intros [(u & v & E)|Hs].
      + unfold dq in E. rewrite <- app_assoc in E. cbn [app] in E.
        change (lit "$(" ++ v) with (ch "$" :: ch "(" :: v) in E.
        rewrite app_assoc in E. apply unique_split in E.
        * destruct E as [_ E]. injection E as E _. apply Hc. right. right. right. left. symmetry. exact E.
        * rewrite in_app_iff. intros [[H|[]]|H]; [discriminate|]. apply (Ha (ch "$")); [right; left; reflexivity|exact H].
        * intros [H|H]; [apply Hc; right; left; symmetry; exact H|].
          rewrite in_app_iff in H. destruct H as [H|[H|[]]]; [|discriminate].
          apply (Hx (ch "$")); [right; left; reflexivity|exact H].
      + apply dq_special in Hs; [|discriminate]. rewrite in_app_iff in Hs.
        destruct Hs as [Hs|[Hs|[Hs|Hs]]].
        * apply (Ha (ch "`")); [right; right; left; reflexivity|exact Hs].
        * discriminate.
        * apply Hc. right. right. left. symmetry. exact Hs.
        * apply (Hx (ch "`")); [right; right; left; reflexivity|exact Hs].
    - apply body_dq.
    - apply inside_app.
      + intros d H1 H2. apply (Ha d); [right; exact H2|exact H1].
      + apply in_dollar; [intros ->; apply Hc; right; right; right; left; reflexivity|].
        apply inside_plain. intros d H1 H2. apply (Hx d); [right; exact H2|exact H1]. }
  rewrite Ea. reflexivity.
Qed.

(** A dollar sign at the end of a double-quoted text crashes the shell. *)
Theorem C18_crash_refuted : forall out al m log n t, plain_name al n ->
  (forall c, In c t -> ~ In c (lit """$`")) ->
  expand out al m log (SimpleCommand None n (Some (Suffix [] [dq (t ++ lit "$")]))) = None.
Proof.
  intros out al m log n t Hn Ht.
  destruct (expand out al m log (SimpleCommand None n (Some (Suffix [] [dq (t ++ lit "$")])))) as [[sc' log']|] eqn:E;
    [|reflexivity].
  exfalso. rewrite plain_expand in E by (auto; exact I). cbn [map append_all] in E.
  assert (Ev : expand_word m (dq (t ++ lit "$")) = dq (t ++ lit "$")).
  { apply variable_iff, v_other, (begins_other (ch """")); [apply dq_begins|discriminate]. }
  rewrite Ev in E. clear Ev.
  destruct (eval_word out log (dq (t ++ lit "$"))) as [[vs l]|] eqn:Ea; [|discriminate].
  apply argument_iff in Ea.
  assert (Hi : exists o l, inside out log (t ++ lit "$") o l).
  { inv Ea.
    - exfalso. apply H0. apply dq_begins.
    - pose proof (begins_inj _ _ _ H (dq_begins _)). discriminate.
    - inv H0; pose proof (body_fun _ _ _ H2 (body_dq _)); subst; eauto. }
  destruct Hi as (o & l' & Hi). revert Hi. apply (inside_dollar_end out t).
  intros d H1 H2. apply (Ht d H1). right. exact H2.
Qed.

Example C18_example :
  expand ex_out ex_aliases ex_vars [] (SimpleCommand None (lit "echo") (Some (Suffix [] [lit """x $HOME y"""]))) =
  Some (SimpleCommand None (lit "echo") (Some (Suffix [] [lit "x $OME y"])), []) /\
  expand ex_out ex_aliases ex_vars [] (SimpleCommand None (lit "echo") (Some (Suffix [] [lit """5$"""]))) = None.
Proof. split; vm_compute; reflexivity. Qed.

(** What does work: a command substitution inside double quotes is replaced by
    the trimmed output of the command, which is run exactly once.  Missing from
    the full statement: variables, and a [$] that starts no substitution. *)
Theorem C18_substitution_partial : forall out al m log n a cmd b c buf o, plain_name al n ->
  (forall d, In d (a ++ b) -> ~ In d (lit """$`")) -> ~ In (ch ")") cmd ->
  parse cmd = Some c -> out log c = Some buf -> trimmed buf o ->
  (a <> [] \/ ~ begins (ch "$") (o ++ b) /\ ~ begins (ch "`") (o ++ b)) ->
  exists vs,
    expand out al m log (SimpleCommand None n (Some (Suffix [] [dq (a ++ lit "$(" ++ cmd ++ lit ")" ++ b)]))) =
    Some (SimpleCommand None n (Some (Suffix [] vs)), log ++ [c]) /\
    (~ In (ch " ") (a ++ o ++ b) /\ vs = [a ++ o ++ b] \/ In (ch " ") (a ++ o ++ b) /\ fields (a ++ o ++ b) vs).
Proof.
  intros out al m log n a cmd b c buf o Hn Hp Hcmd Hparse Hout Htr Hag.
  set (t := a ++ lit "$(" ++ cmd ++ lit ")" ++ b).
  assert (Hi : inside out log t (a ++ o ++ b) (log ++ [c])).
  { unfold t. apply inside_app.
    - intros d H1 H2. apply (Hp d); [apply in_app_iff; auto|right; exact H2].
    - apply (in_paren out log cmd b o (log ++ [c]) b (log ++ [c])); [exact Hcmd| |].
      + apply (runs_intro out log cmd c buf); assumption.
      + apply inside_plain. intros d H1 H2. apply (Hp d); [apply in_app_iff; auto|right; exact H2]. }
  assert (Hs : substitutes (dq t)).
  { left. exists (lit """" ++ a), (cmd ++ lit ")" ++ b ++ lit """"). unfold dq, t.
    rewrite <- !app_assoc. reflexivity. }
  assert (Ha : again out (log ++ [c]) (a ++ o ++ b) (a ++ o ++ b) (log ++ [c])).
  { apply ag_none; intros r E.
    - destruct a as [|d a].
      + destruct Hag as [Hag|[Hag _]]; [congruence|]. apply Hag. cbn [app] in E. rewrite E.
        exists (ch "(" :: r). reflexivity.
      + cbn in E. injection E as E _. apply (Hp d); [left; reflexivity|]. right. left. symmetry. exact E.
    - destruct a as [|d a].
      + destruct Hag as [Hag|[_ Hag]]; [congruence|]. apply Hag. cbn [app] in E. rewrite E.
        exists r. reflexivity.
      + cbn in E. injection E as E _. apply (Hp d); [left; reflexivity|]. right. right. left. symmetry. exact E. }
  assert (Hd : exists vs, double_quoted out log (dq t) vs (log ++ [c]) /\
    (~ In (ch " ") (a ++ o ++ b) /\ vs = [a ++ o ++ b] \/ In (ch " ") (a ++ o ++ b) /\ fields (a ++ o ++ b) vs)).
  { destruct (in_dec N.eq_dec (ch " ") (a ++ o ++ b)) as [Hsp|Hsp].
    - exists (split_whitespace (a ++ o ++ b)). split.
      + apply (dq_fields out log (dq t) t (a ++ o ++ b) (log ++ [c]) (a ++ o ++ b)); auto.
        * apply body_dq.
        * apply fields_iff. reflexivity.
      + right. split; [exact Hsp|]. apply fields_iff. reflexivity.
    - exists [a ++ o ++ b]. split; [|left; auto].
      apply (dq_one out log (dq t) t (a ++ o ++ b) (log ++ [c])); auto. apply body_dq. }
  destruct Hd as (vs & Hd & Hv). exists vs. split; [|exact Hv].
  rewrite plain_expand by (auto; exact I). cbn [map append_all].
  assert (Ev : expand_word m (dq t) = dq t).
  { apply variable_iff, v_other, (begins_other (ch """")); [apply dq_begins|discriminate]. }
  rewrite Ev.
  assert (Ea : eval_word out log (dq t) = Some (vs, log ++ [c])).
  { apply argument_iff, arg_double; [apply dq_begins|exact Hd]. }
  rewrite Ea. rewrite app_nil_r. reflexivity.
Qed.

Example C18_substitution_example :
  trimmed (lit " one two") (lit "one two") /\
  expand ex_out ex_aliases ex_vars [] (SimpleCommand None (lit "echo") (Some (Suffix [] [lit """<$(x y)>"""]))) =
  Some (SimpleCommand None (lit "echo") (Some (Suffix [] [lit "<one"; lit "two>"])),
        [Some [AoOne (Pipeline false [CSimple (SimpleCommand None (lit "x") (Some (Suffix [] [lit "y"])))] false)]]).
Proof. split; [apply str_trim_iff|]; vm_compute; reflexivity. Qed.

(** ** C19: assignments *)

(** [NAME=$other] is left as it is, whatever the value of [other] is. *)
Theorem C19_assignment_refuted : forall out al m log name other p n s sc' log',
  ~ In (ch "=") name -> ~ In (ch "=") other -> expand_var m (ch "$" :: other) = None ->
  expand out al m log (SimpleCommand (Some (Prefix p [name ++ lit "=" ++ lit "$" ++ other])) n s) = Some (sc', log') ->
  sc_prefix sc' = Some (Prefix p [name ++ lit "=" ++ lit "$" ++ other]).
Proof.
  intros out al m log name other p n s sc' log' Hn Ho Hv E.
  apply expand_iff in E. destruct E as (sc1 & sc2 & H1 & H2 & H3).
  assert (E1 : sc_prefix sc1 = Some (Prefix p [name ++ lit "=" ++ lit "$" ++ other])) by (inv H1; reflexivity).
  assert (E3 : sc_prefix sc' = sc_prefix sc2) by (inv H3; reflexivity).
  rewrite E3. inv H2. cbn [sc_prefix] in *. subst p0.
  destruct p' as [[pr pa]|]; [|contradiction]. cbn in H. destruct H as [-> H].
  inversion H as [|w0 w' ws0 ws' Hw Hws E5 E6]. inversion Hws. subst.
  assert (Ha : assignment_word (expand_var m) (name ++ lit "=" ++ lit "$" ++ other)
                 (name ++ ch "=" :: match expand_var m (lit "$" ++ other) with Some v => v | None => lit "$" ++ other end)).
  { apply aw_set.
    - rewrite !in_app_iff. right. right. left. left. reflexivity.
    - exact Hn.
    - intros [Hx|Hx]; [discriminate|exact (Ho Hx)].
    - left. reflexivity. }
  pose proof (eq_trans (eq_sym (proj2 (assignment_iff _ _ _) Hw)) (proj2 (assignment_iff _ _ _) Ha)) as E.
  injection E as ->.
  match goal with |- context [match ?x with Some _ => _ | None => _ end] =>
    replace x with (@None str) by (symmetry; exact Hv) end.
  reflexivity.
Qed.

(** Assignments without [$] are passed on unchanged; redirections in front of
    the command always survive. *)
Theorem C19_assignment_partial : forall out al m log p n s sc' log',
  (forall a, In a (assignment p) -> ~ In (ch "$") a) ->
  expand out al m log (SimpleCommand (Some p) n s) = Some (sc', log') -> sc_prefix sc' = Some p.
Proof.
  intros out al m log p n s sc' log' Hp E.
  apply expand_iff in E. destruct E as (sc1 & sc2 & H1 & H2 & H3).
  assert (E1 : sc_prefix sc1 = Some p) by (inv H1; reflexivity).
  assert (E3 : sc_prefix sc' = sc_prefix sc2) by (inv H3; reflexivity).
  rewrite E3. inv H2. cbn [sc_prefix] in *. subst p0.
  destruct p' as [[pr pa]|]; [|contradiction]. cbn in H. destruct H as [-> H].
  apply assignments_iff in H. rewrite literal_assignments in H by exact Hp. injection H as <-.
  destruct p; reflexivity.
Qed.

Example C19_example :
  expand_var ex_vars (lit "A") = Some (lit "b c") /\
  line_of [lit "X=$A"] (SimpleCommand (Some (Prefix [] [lit "X=$A"])) [] None) /\
  expand ex_out ex_aliases ex_vars [] (SimpleCommand (Some (Prefix [] [lit "X=$A"])) [] None) =
  Some (SimpleCommand (Some (Prefix [] [lit "X=$A"])) [] None, []).
Proof. split; [|split]; vm_compute; reflexivity. Qed.

(** ** C20: aliases *)

(** The command word is replaced by the alias's first word, the remaining words
    are added to the arguments, nothing else changes, and the result is treated
    like a command that was typed without aliases. *)
Theorem C20_alias : forall out al m log p n s text c args,
  sget n al = Some text -> fields text (c :: args) ->
  expand out al m log (SimpleCommand p n s) =
  expand out [] m log (SimpleCommand p c (Some (Suffix (redirs_of s) (words_of s ++ args)))).
Proof.
  intros out al m log p n s text c args H F. apply alias_expand.
  exact (ar_some al (SimpleCommand p n s) text c args H F).
Qed.

Theorem C20_not_an_alias : forall out al m log p n s, sget n al = None ->
  expand out al m log (SimpleCommand p n s) = expand out [] m log (SimpleCommand p n s).
Proof. intros out al m log p n s H. apply alias_expand, ar_none, H. Qed.

(** With ordinary words: every word of the user and of the alias, once each. *)
Theorem C20_alias_arguments : forall out al m log n rs ws vs text c args vs2,
  sget n al = Some text -> fields text (c :: args) -> plain_name [] c -> ws ++ args <> [] ->
  Forall2 (ordinary (expand_var m)) ws vs -> Forall2 (ordinary (expand_var m)) args vs2 ->
  expand out al m log (SimpleCommand None n (Some (Suffix rs ws))) =
  Some (SimpleCommand None c (Some (Suffix rs (vs ++ vs2))), log).
Proof.
  intros out al m log n rs ws vs text c args vs2 H F Hc Hne Ho Ho2.
  rewrite (C20_alias out al m log None n _ text c args H F).
  apply ordinary_command; [exact Hc|exact I|exact Hne|]. apply Forall2_app; assumption.
Qed.

Example C20_example :
  sget (lit "ll") ex_aliases = Some (lit "ls -l") /\ fields (lit "ls -l") [lit "ls"; lit "-l"] /\
  plain_name [] (lit "ls").
Proof.
  split; [reflexivity|]. split; [apply fields_iff; reflexivity|].
  split; [discriminate|]. split; [reflexivity|]. split; [intros [t E]; discriminate|].
  intros c H. cbn in H. unfold space.
  repeat match goal with H : _ \/ _ |- _ => destruct H as [<-|H] end; try contradiction;
    (split; [vm_compute; discriminate|cbn; intuition discriminate]).
Qed.

(** C67: the alias's own words come after the user's, not before. *)
Theorem C67_alias_order_refuted : forall out al m log n w text c args,
  sget n al = Some text -> fields text (c :: args) -> plain_name [] c ->
  args <> [] -> ordinary (expand_var m) w w -> Forall2 (ordinary (expand_var m)) args args -> ~ In w args ->
  expand out al m log (SimpleCommand None n (Some (Suffix [] [w]))) <>
  Some (SimpleCommand None c (Some (Suffix [] (args ++ [w]))), log).
Proof.
  intros out al m log n w text c args H F Hc Hne Hw Ha Hin.
  rewrite (C20_alias_arguments out al m log n [] [w] [w] text c args args); auto; [|discriminate].
  intros [= E]. destruct args as [|a args]; [congruence|]. cbn in E. injection E as -> _.
  apply Hin. left. reflexivity.
Qed.

(** ... but all of them are there, the alias's in order. *)
Theorem C67_alias_order_partial : forall out al m log n text c args,
  sget n al = Some text -> fields text (c :: args) -> plain_name [] c -> args <> [] ->
  Forall2 (ordinary (expand_var m)) args args ->
  expand out al m log (SimpleCommand None n None) =
  Some (SimpleCommand None c (Some (Suffix [] args)), log).
Proof.
  intros out al m log n text c args H F Hc Hne Ha.
  rewrite (C20_alias out al m log None n None text c args H F). cbn [redirs_of words_of app].
  apply ordinary_command; auto. exact I.
Qed.

Example C67_example :
  expand ex_out ex_aliases ex_vars [] (SimpleCommand None (lit "ll") (Some (Suffix [] [lit "x"]))) =
  Some (SimpleCommand None (lit "ls") (Some (Suffix [] [lit "x"; lit "-l"])), []).
Proof. vm_compute. reflexivity. Qed.

(** ** C21: redirections *)

(** Redirections are kept when the command has an argument. *)
Theorem C21_redirections_partial : forall out al m log p n rs ws sc' log', ws <> [] ->
  expand out al m log (SimpleCommand p n (Some (Suffix rs ws))) = Some (sc', log') ->
  redirs_of (sc_suffix sc') = rs /\
  option_map p_redirect (sc_prefix sc') = option_map p_redirect p.
Proof.
  intros out al m log p n rs ws sc' log' Hw E.
  apply expand_iff in E. destruct E as (sc1 & sc2 & H1 & H2 & H3).
  assert (E1 : sc_prefix sc1 = p /\ exists ws1, sc_suffix sc1 = Some (Suffix rs ws1) /\ ws1 <> []).
  { inv H1; (split; [reflexivity|]).
    - exists ws. split; [reflexivity|exact Hw].
    - eexists. split; [reflexivity|]. cbn. destruct ws; [congruence|discriminate]. }
  destruct E1 as (Ep & ws1 & Es & Hne).
  inversion H2; subst sc1 sc2. cbn [sc_prefix sc_suffix] in Ep, Es. subst p0 s. clear H1.
  destruct s' as [[rs' ws']|]; [|contradiction]. cbn in H4. destruct H4 as [-> H4].
  assert (Hne' : ws' <> []) by (intros ->; inv H4; congruence).
  assert (Hpre : option_map p_redirect p' = option_map p_redirect p).
  { destruct p as [p|], p' as [p'|]; try contradiction; [|reflexivity]. destruct H as [E _]. cbn. f_equal. exact E. }
  inv H3.
  - split; [reflexivity|exact Hpre].
  - exfalso. match goal with Hx : _ \/ _ |- _ => destruct Hx as [Hx|[? Hx]]; [discriminate|]; congruence end.
  - split; [reflexivity|exact Hpre].
Qed.

(** ... and lost when it has none. *)
Theorem C21_redirections_refuted : forall out al m log n rs, plain_name al n ->
  expand out al m log (SimpleCommand None n (Some (Suffix rs []))) =
  Some (SimpleCommand None n (Some (Suffix [] [])), log).
Proof. intros out al m log n rs Hn. rewrite plain_expand by (auto; exact I). reflexivity. Qed.

Example C21_example :
  parse (lit "ls > f") =
    Some (Some [AoOne (Pipeline false [CSimple (SimpleCommand None (lit "ls")
      (Some (Suffix [IoRedirect None ROutput (lit "f")] [])))] false)]) /\
  expand ex_out ex_aliases ex_vars [] (SimpleCommand None (lit "ls") (Some (Suffix [IoRedirect None ROutput (lit "f")] []))) =
    Some (SimpleCommand None (lit "ls") (Some (Suffix [] [])), []) /\
  expand ex_out ex_aliases ex_vars [] (SimpleCommand None (lit "ls") (Some (Suffix [IoRedirect None ROutput (lit "f")] [lit "-l"]))) =
    Some (SimpleCommand None (lit "ls") (Some (Suffix [IoRedirect None ROutput (lit "f")] [lit "-l"])), []).
Proof. split; [|split]; vm_compute; reflexivity. Qed.

(** ** C22: crashes *)

(** An ordinary command never crashes the shell. *)
Theorem C22_no_crash_partial : forall out al m log p n rs ws vs, plain_name al n -> literal_prefix p ->
  Forall2 (ordinary (expand_var m)) ws vs ->
  (forall c, In c (List.concat (n :: vs)) -> c <> 0%N) ->
  exists sc', expand out al m log (SimpleCommand p n (Some (Suffix rs ws))) = Some (sc', log) /\
    argv sc' = Some (n :: vs).
Proof.
  intros out al m log p n rs ws vs Hn Hp Ho Hz. destruct ws as [|w ws].
  - inv Ho. exists (SimpleCommand p n (Some (Suffix [] []))). split; [|apply argv_words, Hz].
    rewrite plain_expand by assumption. reflexivity.
  - exists (SimpleCommand p n (Some (Suffix rs vs))). split; [|apply argv_words, Hz].
    apply ordinary_command; auto. discriminate.
Qed.

(** The ways in which a command crashes the shell; each one is a line that can
    be typed. *)
Theorem C22_crash_refuted : forall out m log,
  (* the empty word as a command *)
  (exists sc, line_of [lit "''"] sc /\ expand out [] m log sc = None) /\
  (* a wide blank in a quoted command word *)
  (exists sc, line_of [sq [97; 0x3000; 98]%N] sc /\ expand out [] m log sc = None) /\
  (* a dollar sign before the closing double quote *)
  (exists sc, line_of [lit "echo"; lit """5$"""] sc /\ expand out [] m log sc = None) /\
  (* a syntax error in a substitution *)
  (exists sc, line_of [lit "echo"; lit """`|`"""] sc /\ expand out [] m log sc = None) /\
  (* a blank alias *)
  (exists sc al, line_of [lit "e"] sc /\ add_alias (lit "e=") [] = al /\ expand out al m log sc = None).
Proof.
  intros out m log.
  split; [eexists; split; [vm_compute; reflexivity|]; vm_compute; reflexivity|].
  split; [eexists; split; [vm_compute; reflexivity|]; vm_compute; reflexivity|].
  split; [eexists; split; [vm_compute; reflexivity|]; vm_compute; reflexivity|].
  split; [eexists; split; [vm_compute; reflexivity|]; vm_compute; reflexivity|].
  eexists. eexists. split; [vm_compute; reflexivity|]. split; [reflexivity|]. vm_compute. reflexivity.
Qed.

(** Of an expanded command the program gets the name and the words as they are,
    and the shell crashes exactly when a NUL character is among them. *)
Theorem C22_argv : forall sc,
  (argv sc = None <-> exists w, In w (sc_name sc :: words_of (sc_suffix sc)) /\ In 0%N w) /\
  forall ws, argv sc = Some ws -> ws = sc_name sc :: words_of (sc_suffix sc).
Proof.
  intro sc. split; [apply argv_nul|]. intros ws. unfold argv, words_of.
  destruct (existsb _ _); [discriminate|]. congruence.
Qed.
Example C22_argv_example :
  argv (SimpleCommand None (lit "cat") (Some (Suffix [] [[97; 0]%N]))) = None /\
  argv (SimpleCommand None (lit "cat") (Some (Suffix [] [lit "-n"; lit "f"]))) = Some [lit "cat"; lit "-n"; lit "f"].
Proof. split; vm_compute; reflexivity. Qed.

Example C22_example : exists sc', expand ex_out ex_aliases ex_vars []
    (SimpleCommand (Some (Prefix [] [lit "X=1"])) (lit "cp") (Some (Suffix [] [lit "'a b'"; lit "$A"]))) = Some (sc', []) /\
  argv sc' = Some [lit "cp"; lit "a b"; lit "b c"].
Proof. eexists. split; [vm_compute; reflexivity|]. vm_compute. reflexivity. Qed.

(** ** C23: quote-aware splitting *)

Theorem C23_split_partial : forall s ps, split_whitespace_ig_qts s = Some ps <-> pieces s ps.
Proof. exact split_pieces. Qed.

(** Gluing the pieces back together with the blanks gives the text: nothing else
    is lost. *)
Theorem C23_nothing_lost_partial : forall s ps, split_whitespace_ig_qts s = Some ps ->
  exists seps, Forall space seps /\
    s = List.concat (map (fun pc => fst pc ++ [snd pc]) (combine ps seps)) ++ List.concat (skipn (List.length seps) ps) /\
    List.length ps <= S (List.length seps) <= S (List.length ps).
Proof.
  intros s ps H. apply split_pieces in H. induction H as [s H|p c s ps Hp Hc H1 H (seps & Hs & E & Hl)].
  - exists []. split; [constructor|]. destruct s; cbn; [auto with arith|]. rewrite app_nil_r. auto with arith.
  - exists (c :: seps). split; [constructor; assumption|]. cbn [combine map List.concat List.length skipn fst snd].
    rewrite <- !app_assoc. rewrite <- E. split; [reflexivity|]. lia.
Qed.

Theorem C23_wide_blank_refuted : forall s, split_whitespace_ig_qts s = None <-> wide_blank s.
Proof. exact split_panics. Qed.

Example C23_example :
  pieces (lit "a 'b c' d""e f""") [lit "a"; lit "'b c'"; lit "d""e f"""] /\ wide_blank (97 :: [0x3000])%N.
Proof.
  split; [apply split_pieces|apply split_panics]; vm_compute; reflexivity.
Qed.

(** ** C64: substituted output is data *)

(** The output of a command substitution that itself begins with [$(] is run as
    a command again. *)
Theorem C64_output_run_again_refuted : forall out al m log n cmd c buf t c2 buf2 o2, plain_name al n ->
  ~ In (ch ")") cmd -> parse cmd = Some c -> out log c = Some buf -> trimmed buf (lit "$(" ++ t ++ lit ")") ->
  parse t = Some c2 -> out (log ++ [c]) c2 = Some buf2 -> trimmed buf2 o2 -> ~ In (ch " ") o2 ->
  expand out al m log (SimpleCommand None n (Some (Suffix [] [dq (lit "$(" ++ cmd ++ lit ")")]))) =
  Some (SimpleCommand None n (Some (Suffix [] [o2])), log ++ [c; c2]).
Proof.
  intros out al m log n cmd c buf t c2 buf2 o2 Hn Hcmd Hp Ho Ht Hp2 Ho2 Ht2 Hsp.
  set (w := lit "$(" ++ cmd ++ lit ")").
  rewrite plain_expand by (auto; exact I). cbn [map append_all].
  assert (Ev : expand_word m (dq w) = dq w).
  { apply variable_iff, v_other, (begins_other (ch """")); [apply dq_begins|discriminate]. }
  rewrite Ev.
  assert (Ea : eval_word out log (dq w) = Some ([o2], (log ++ [c]) ++ [c2])).
  { apply argument_iff, arg_double; [apply dq_begins|].
    apply (dq_one out log (dq w) w (lit "$(" ++ t ++ lit ")") (log ++ [c])).
    - left. exists (lit """"), (cmd ++ lit ")" ++ lit """"). unfold dq, w. rewrite <- !app_assoc. reflexivity.
    - apply body_dq.
    - unfold w. pose proof (in_paren out log cmd [] (lit "$(" ++ t ++ lit ")") (log ++ [c]) [] (log ++ [c])) as H.
      rewrite !app_nil_r in H. apply H; [exact Hcmd| |apply in_end].
      apply (runs_intro out log cmd c buf); assumption.
    - apply ag_paren.
      match goal with |- runs _ _ ?x _ _ => replace x with t by (symmetry; apply snoc_removelast) end. apply (runs_intro out _ t c2 buf2); assumption.
    - exact Hsp. }
  rewrite Ea, <- app_assoc. reflexivity.
Qed.

(** Output that does not begin like a substitution is only data. *)
Theorem C64_output_is_data_partial : forall out al m log n cmd c buf o, plain_name al n ->
  ~ In (ch ")") cmd -> parse cmd = Some c -> out log c = Some buf -> trimmed buf o ->
  ~ begins (ch "$") o -> ~ begins (ch "`") o ->
  exists vs, expand out al m log (SimpleCommand None n (Some (Suffix [] [dq (lit "$(" ++ cmd ++ lit ")")]))) =
    Some (SimpleCommand None n (Some (Suffix [] vs)), log ++ [c]) /\
    (vs = [o] /\ ~ In (ch " ") o \/ fields o vs).
Proof.
  intros out al m log n cmd c buf o Hn Hcmd Hp Ho Ht Hd Hb.
  destruct (C18_substitution_partial out al m log n [] cmd [] c buf o Hn) as (vs & E & Hv); auto.
  - right. rewrite app_nil_r. auto.
  - exists vs. cbn [app] in *. rewrite !app_nil_r in *. split; [exact E|]. tauto.
Qed.

Example C64_example :
  let out : oracle := fun log _ => match log with [] => Some (lit "$(rm f)") | _ => Some (lit "removed") end in
  expand out [] ex_vars [] (SimpleCommand None (lit "echo") (Some (Suffix [] [lit """$(cat msg)"""]))) =
  Some (SimpleCommand None (lit "echo") (Some (Suffix [] [lit "removed"])),
    [Some [AoOne (Pipeline false [CSimple (SimpleCommand None (lit "cat") (Some (Suffix [] [lit "msg"])))] false)];
     Some [AoOne (Pipeline false [CSimple (SimpleCommand None (lit "rm") (Some (Suffix [] [lit "f"])))] false)]]).
Proof. vm_compute. reflexivity. Qed.

(** ** C65: substitution outside quotes *)

(** An unquoted substitution is not performed: it is passed on as it was written
    (as long as no variable has the rest of the word as its name). *)
Theorem C65_unquoted_refuted : forall out al m log n cmd, plain_name al n ->
  expand_var m (lit "(" ++ cmd ++ lit ")") = None ->
  expand out al m log (SimpleCommand None n (Some (Suffix [] [lit "$(" ++ cmd ++ lit ")"]))) =
    Some (SimpleCommand None n (Some (Suffix [] [lit "$(" ++ cmd ++ lit ")"])), log) /\
  expand out al m log (SimpleCommand None n (Some (Suffix [] [lit "`" ++ cmd ++ lit "`"]))) =
    Some (SimpleCommand None n (Some (Suffix [] [lit "`" ++ cmd ++ lit "`"])), log).
Proof.
  intros out al m log n cmd Hn Hv. split; apply ordinary_command; auto; try exact I; try discriminate;
    (constructor; [|constructor]).
  - exact (o_unset (expand_var m) (lit "(" ++ cmd ++ lit ")") Hv).
  - apply o_plain; intros [t E]; discriminate.
Qed.

Example C65_example :
  exists sc, line_of [lit "echo"; lit "$(date)"; lit "`date`"] sc /\
    expand ex_out [] ex_vars [] sc = Some (sc, []).
Proof. eexists. split; [vm_compute; reflexivity|]. vm_compute. reflexivity. Qed.

(** ** C66: a quoted command word *)

(** A single-quoted command word is split at its blanks. *)
Theorem C66_quoted_command_refuted : forall out m log a b,
  a <> [] -> b <> [] -> (forall c, In c (a ++ b) -> ~ space c /\ ~ In c (lit "'""")) ->
  expand out [] m log (SimpleCommand None (sq (a ++ lit " " ++ b)) None) =
  Some (SimpleCommand None a (Some (Suffix [] [b])), log).
Proof.
  intros out m log a b Ha Hb H. apply expand_iff.
  exists (SimpleCommand None (sq (a ++ lit " " ++ b)) None), (SimpleCommand None (sq (a ++ lit " " ++ b)) None).
  split; [apply ar_none; reflexivity|]. split.
  - apply vr; [exact I| |exact I]. apply v_other, (begins_other (ch "'")); [apply sq_begins|discriminate].
  - assert (Hs : forall s, (forall c, In c s -> In c (a ++ b)) -> closed_text s).
    { intros s Hs. apply plain_closed. intros c Hc. apply H, Hs, Hc. }
    assert (Hnp : forall s, (forall c, In c s -> In c (a ++ b)) -> name_piece out log s [s] log).
    { intros s Hs'. apply np_plain. intros [t ->]. destruct (H (ch """")) as [_ Hq].
      - apply Hs'. left. reflexivity.
      - apply Hq. right. left. reflexivity. }
    apply (qr_no_args out log None _ None (a ++ lit " " ++ b) [a; b] a [b] log).
    + discriminate.
    + left. reflexivity.
    + apply un_single; [apply sq_begins|apply body_sq].
    + replace [b] with (nonempty b) by (destruct b; [congruence|reflexivity]).
      apply (p_more a (ch " ") b (nonempty b)); [apply Hs| reflexivity|reflexivity|].
      * intros c Hc. apply in_app_iff. auto.
      * apply p_last, ot_closed, Hs. intros c Hc. apply in_app_iff. auto.
    + change [a; b] with ([a] ++ [b]).
      apply (all_cons (name_piece out) log a [b] [a] log [b] log).
      * apply Hnp. intros c Hc. apply in_app_iff. auto.
      * apply (all_cons (name_piece out) log b [] [b] log [] log); [|constructor].
        apply Hnp. intros c Hc. apply in_app_iff. auto.
Qed.

(** A quoted command word without blanks and quotes is the command. *)
Theorem C66_quoted_command_partial : forall out m log n, plain_name [] n ->
  expand out [] m log (SimpleCommand None (sq n) None) = Some (SimpleCommand None n (Some (Suffix [] [])), log).
Proof.
  intros out m log n Hn. apply expand_iff.
  exists (SimpleCommand None (sq n) None), (SimpleCommand None (sq n) None).
  split; [apply ar_none; reflexivity|]. split.
  - apply vr; [exact I| |exact I]. apply v_other, (begins_other (ch "'")); [apply sq_begins|discriminate].
  - apply (qr_no_args out log None _ None n [n] n [] log).
    + discriminate.
    + left. reflexivity.
    + apply un_single; [apply sq_begins|apply body_sq].
    + apply (plain_name_pieces [] n Hn).
    + apply (plain_name_piece out log [] n Hn).
Qed.

Example C66_example :
  exists sc, line_of [lit "'my prog'"] sc /\
    expand ex_out [] ex_vars [] sc = Some (SimpleCommand None (lit "my") (Some (Suffix [] [lit "prog"])), []).
Proof. eexists. split; [vm_compute; reflexivity|]. vm_compute. reflexivity. Qed.

(** ** C33: the alias table *)

(** A command [alias w1 w2 ...] whose first word does not contain [-p] gives each
    name the value of its last accepted definition and keeps every other name. *)
Theorem C33_define_partial : forall w ws al, ~ (exists a b, w = a ++ lit "-p" ++ b) ->
  exists al', perform_alias (ADefine (w :: ws)) al = Some al' /\
  forall n,
    (forall ws1 d ws2 v, w :: ws = ws1 ++ d :: ws2 -> defines d n v -> (forall d' v', In d' ws2 -> ~ defines d' n v') ->
       sget n al' = Some v) /\
    ((forall d v, In d (w :: ws) -> ~ defines d n v) -> sget n al' = sget n al).
Proof.
  intros w ws al Hp. cbn [perform_alias alias_builtin].
  assert (E : contains_str (lit "-p") w = false).
  { destruct (contains_str (lit "-p") w) eqn:E; [|reflexivity]. apply contains_str_iff in E. contradiction. }
  rewrite E. eexists. split; [reflexivity|]. intros n. split.
  - intros ws1 d ws2 v Ew Hd Ho. rewrite Ew. apply (alias_words_last ws1 d ws2 al n v Hd Ho).
  - intros H. apply (alias_words_other (w :: ws) al n H).
Qed.

(** [unalias n] removes exactly [n], when [n] does not contain [-a]. *)
Theorem C33_forget_partial : forall n al, ~ (exists a b, n = a ++ lit "-a" ++ b) ->
  exists al', perform_alias (AForget n) al = Some al' /\
    sget n al' = None /\ (forall n', n' <> n -> sget n' al' = sget n' al).
Proof.
  intros n al Hp. cbn [perform_alias unalias_builtin option_map snd].
  assert (E : contains_str (lit "-a") n = false).
  { destruct (contains_str (lit "-a") n) eqn:E; [|reflexivity]. apply contains_str_iff in E. contradiction. }
  rewrite E. eexists. split; [reflexivity|]. unfold remove_alias. split.
  - apply sget_sremove_eq.
  - intros n' H. apply sget_sremove_neq. congruence.
Qed.

Theorem C33_forget_all : forall al, exists al', perform_alias AForgetAll al = Some al' /\ forall n, sget n al' = None.
Proof. intros al. eexists. split; [reflexivity|]. reflexivity. Qed.

(** Histories: the last accepted definition of a name is the one in force as
    long as the commands after it neither define nor remove the name. *)
Definition leaves_alone (n : str) (o : alias_op) : Prop :=
  match o with
  | ADefine ws => forall d v, In d ws -> ~ defines d n v
  | AForget x => x <> n /\ ~ (exists a b, x = a ++ lit "-a" ++ b)
  | AForgetAll => False
  end.

Theorem C33_history_partial : forall os al al' n, perform_aliases os al = Some al' ->
  Forall (leaves_alone n) os -> sget n al' = sget n al.
Proof.
  induction os as [|o os IH]; intros al al' n E H; cbn [perform_aliases] in E; [congruence|].
  inv H. destruct (perform_alias o al) as [al1|] eqn:E1; [|discriminate].
  rewrite (IH al1 al' n E H3). clear IH E H3. destruct o as [ws|x|]; cbn [leaves_alone] in H2.
  - cbn [perform_alias] in E1. destruct ws as [|w ws]; [discriminate|]. cbn [alias_builtin] in E1.
    destruct (contains_str (lit "-p") w); injection E1 as <-; [reflexivity|].
    apply (alias_words_other (w :: ws) al n H2).
  - destruct H2 as [Hn Ha]. destruct (C33_forget_partial x al Ha) as (al2 & E2 & _ & Ho).
    rewrite E1 in E2. injection E2 as <-. apply Ho. congruence.
  - contradiction.
Qed.

(** A definition whose first word contains [-p] anywhere is ignored, and an
    [unalias] of a name containing [-a] anywhere removes every alias; a value
    containing [=] is refused. *)
Theorem C33_dash_p_refuted : forall a b ws al, perform_alias (ADefine ((a ++ lit "-p" ++ b) :: ws)) al = Some al.
Proof.
  intros a b ws al. cbn [perform_alias alias_builtin].
  rewrite (proj2 (contains_str_iff (lit "-p") (a ++ lit "-p" ++ b))) by eauto. reflexivity.
Qed.

Theorem C33_dash_a_refuted : forall a b al, perform_alias (AForget (a ++ lit "-a" ++ b)) al = Some [].
Proof.
  intros a b al. cbn [perform_alias unalias_builtin].
  rewrite (proj2 (contains_str_iff (lit "-a") (a ++ lit "-a" ++ b))) by eauto. reflexivity.
Qed.

Theorem C33_equals_refuted : forall n u r al, add_alias (n ++ ch "=" :: u ++ ch "=" :: r) al = al.
Proof.
  intros n u r al. apply add_alias_other. intros n' v (u' & E & Hn & Hu & _).
  destruct (unique_split (ch "=") n' u' n (u ++ ch "=" :: r) Hn Hu (eq_sym E)) as [_ ->].
  apply Hu, in_app_iff. right. left. reflexivity.
Qed.

Example C33_example :
  (exists al, perform_aliases [ADefine [lit "ll='ls -l'"; lit "g=git"]; AForget (lit "g"); ADefine [lit "ll=""ls -a"""]] [] = Some al /\
     sget (lit "ll") al = Some (lit "ls -a") /\ sget (lit "g") al = None) /\
  perform_alias (ADefine [lit "md='mkdir -p'"]) [] = Some [] /\
  perform_alias (AForget (lit "my-app")) ex_aliases = Some [].
Proof.
  split; [eexists; split; [vm_compute; reflexivity|]|]; split; vm_compute; reflexivity.
Qed.

Print Assumptions expansion_exact.
Print Assumptions C15_single_quotes.
Print Assumptions C15_whole_line.
Print Assumptions C16_double_quotes.
Print Assumptions C17_variable_partial.
Print Assumptions C17_quoted_value_refuted.
Print Assumptions C18_variable_refuted.
Print Assumptions C18_crash_refuted.
Print Assumptions C18_substitution_partial.
Print Assumptions C19_assignment_refuted.
Print Assumptions C19_assignment_partial.
Print Assumptions C20_alias.
Print Assumptions C20_not_an_alias.
Print Assumptions C20_alias_arguments.
Print Assumptions C67_alias_order_refuted.
Print Assumptions C67_alias_order_partial.
Print Assumptions C21_redirections_partial.
Print Assumptions C21_redirections_refuted.
Print Assumptions C22_no_crash_partial.
Print Assumptions C22_crash_refuted.
Print Assumptions C22_argv.
Print Assumptions C23_split_partial.
Print Assumptions C23_nothing_lost_partial.
Print Assumptions C23_wide_blank_refuted.
Print Assumptions C64_output_run_again_refuted.
Print Assumptions C64_output_is_data_partial.
Print Assumptions C65_unquoted_refuted.
Print Assumptions C66_quoted_command_refuted.
Print Assumptions C66_quoted_command_partial.
Print Assumptions C33_define_partial.
Print Assumptions C33_forget_partial.
Print Assumptions C33_forget_all.
Print Assumptions C33_history_partial.
Print Assumptions C33_dash_p_refuted.
Print Assumptions C33_dash_a_refuted.
Print Assumptions C33_equals_refuted.
