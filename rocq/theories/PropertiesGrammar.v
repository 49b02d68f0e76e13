(** Properties C09-C14: parsing. *)
From Verif Require Import Base Lexer LexerSpec LexerFacts LexerLaws Ast Grammar Parser ParserFacts GrammarSpec GrammarFacts.

(** C09: the parser accepts exactly the token sequences the grammar derives, with
    the tree the grammar gives them, and a sequence has at most one tree. *)
Theorem C09_parser_is_grammar : forall ts v, parse_tokens ts = Some v <-> GComplete ts v.
Proof. exact parse_tokens_iff. Qed.

Theorem C09_unambiguous : forall ts v v', GComplete ts v -> GComplete ts v' -> v = v'.
Proof. exact grammar_unambiguous. Qed.

Example C09_example :
  GComplete [TWord (lit "a"); TPipe; TWord (lit "b"); TEOF]
    (Some [AoOne (Pipeline false [CSimple (SimpleCommand None (lit "a") None);
                                  CSimple (SimpleCommand None (lit "b") None)] false)]).
Proof. apply C09_parser_is_grammar. vm_compute; reflexivity. Qed.

(** C10: a well-formed tree written as text is read back as the same tree. *)
Theorem C10_round_trip : forall l, l <> [] -> Forall wf_andor l -> parse (render l) = Some (Some l).
Proof. exact render_parse. Qed.

Definition C10_tree : list and_or :=
  [AoMore
    (AoOne (Pipeline true
      [CSimple (SimpleCommand (Some (Prefix [] [lit "A='b c'"])) (lit "ls")
         (Some (Suffix [IoRedirect (Some 2%Z) RAppend (lit "f")] [lit "$x"; lit "k=v"])));
       CGroup [AoOne (Pipeline false [CSimple (SimpleCommand (Some (Prefix [] [lit "Z=1"])) [] None)] true)]] false))
    COr
    (Pipeline false [CFunction (lit "f") [AoOne (Pipeline false [CSimple (SimpleCommand None (lit "g") None)] false)] None] false)].

Ltac plain := apply ww_plain;
  [split; [cbn; intros Hx; decompose [or] Hx; (contradiction || discriminate)|reflexivity]
  |cbn; intros Hx; decompose [or] Hx; (contradiction || discriminate)
  |repeat constructor; cbn; intros Hx; decompose [or] Hx; (contradiction || discriminate)
  |cbn; intros ? Hx; decompose [or] Hx; (contradiction || discriminate)].

Example C10_example : Forall wf_andor C10_tree /\
  render C10_tree = lit " ! A='b c' ls $x k=v 2>> f | { Z=1 & ; } || f ( ) { g ; }".
Proof.
  split; [|vm_compute; reflexivity].
  assert (HA : written_assignment (lit "A='b c'")).
  { exists (lit "A"), (lit "'b c'"). split; [reflexivity|]. split; [plain|].
    apply (ww_quoted (lit "'") (ch "'") (lit "b c")); [cbn; tauto|].
    cbn; intros Hx; decompose [or] Hx; (contradiction || discriminate). }
  assert (HK : written_assignment (lit "k=v")) by (exists (lit "k"), (lit "v"); split; [reflexivity|split; plain]).
  assert (HZ : written_assignment (lit "Z=1")) by (exists (lit "Z"), (lit "1"); split; [reflexivity|split; plain]).
  assert (HX : written_word (lit "$x"))
    by (apply ww_dollar; repeat constructor; cbn; intros Hx; decompose [or] Hx; (contradiction || discriminate)).
  constructor; [|constructor]. cbn. unfold wf_simple, wf_prefix, wf_suffix, wf_redir; cbn.
  repeat match goal with
         | |- _ /\ _ => split
         | |- Forall _ [] => constructor
         | |- Forall _ (_ :: _) => constructor
         | |- True => exact I
         | |- ~ (_ /\ _) => intros [? ?]; discriminate
         | |- (_ <= _)%Z => lia
         | |- _ <> _ => discriminate
         | |- _ = _ => reflexivity
         | |- written_assignment _ => assumption
         | |- written_word _ => first [assumption | plain]
         end; auto; try (left; plain); try (right; discriminate); try (left; discriminate); try discriminate.
  - cbn; lia.
  - right. repeat split; discriminate.
Qed.

(** C11: the accepted texts are exactly commands grouped by [|] into pipelines,
    pipelines grouped by [&&]/[||] from the left into and-or chains, chains grouped
    by [;]/newline into the list. *)
Theorem C11_grouping : forall ts l, parse_tokens ts = Some (Some l) <->
  exists pre body post, ts = pre ++ body ++ post /\ flat_list body l /\
    (pre = [] /\ (post = [] \/ GSeparator post) \/ GSeparator pre /\ post = []).
Proof. exact parse_flat. Qed.

Example C11_example : exists l, parse (lit "a | b && c || d ; e && f | g") = Some (Some l) /\
  let w x := CSimple (SimpleCommand None (lit x) None) in
  l = [AoMore (AoMore (AoOne (Pipeline false [w "a"; w "b"]%string false)) CAnd (Pipeline false [w "c"%string] false))
              COr (Pipeline false [w "d"%string] false);
       AoMore (AoOne (Pipeline false [w "e"%string] false)) CAnd (Pipeline false [w "f"; w "g"]%string false)].
Proof. eexists; split; [vm_compute; reflexivity|reflexivity]. Qed.

(** C12 is false of the code: nothing can be read after a leading empty or
    comment line, and a comment line between two commands is a syntax error. *)
Theorem C12_blank_lines_refuted :
  (forall s l, parse (newline :: s) <> Some (Some l)) /\
  (forall body s l, ~ In newline body -> parse (ch "#" :: body ++ newline :: s) <> Some (Some l)) /\
  (exists a c b l, parse (a ++ newline :: b) = Some (Some l) /\ ~ In newline c /\
     parse (a ++ newline :: ch "#" :: c ++ newline :: b) = None).
Proof.
  split; [exact parse_leading_newline|]. split; [exact parse_leading_comment|].
  exists (lit "a"), (lit "c"), (lit "b"). eexists. split; [vm_compute; reflexivity|].
  split; [|vm_compute; reflexivity]. cbn; intros [H|[]]; discriminate.
Qed.

(** What does hold: more newlines directly after a line, and a comment at the end
    of a line, change nothing.  Missing from C12: lines holding only blanks or a
    comment, and lines before the first command. *)
Theorem C12_blank_lines_partial : forall a nls b ta,
  tokens (a ++ [newline]) = Some (ta ++ [TNewlineList; TEOF]) -> Forall (eq newline) nls ->
  parse (a ++ newline :: nls ++ b) = parse (a ++ newline :: b).
Proof. exact parse_more_newlines. Qed.

Theorem C12_line_comment_partial : forall a g body b ta,
  tokens (a ++ [newline]) = Some (ta ++ [TNewlineList; TEOF]) ->
  tokens (a ++ g ++ ch "#" :: body ++ [newline]) = Some (ta ++ [TNewlineList; TEOF]) ->
  parse (a ++ (g ++ ch "#" :: body) ++ newline :: b) = parse (a ++ newline :: b).
Proof. exact parse_line_comment. Qed.

Example C12_example :
  tokens (lit "ls x" ++ [newline]) = Some ([TWord (lit "ls"); TWord (lit "x")] ++ [TNewlineList; TEOF]) /\
  tokens (lit "ls x" ++ lit " " ++ ch "#" :: lit "y" ++ [newline]) =
    Some ([TWord (lit "ls"); TWord (lit "x")] ++ [TNewlineList; TEOF]).
Proof. split; vm_compute; reflexivity. Qed.

(** C13: of all the ways to write a terminator before the end of input, exactly
    the grammar's separators are accepted, and they do not change the meaning. *)
Theorem C13_terminators_partial : forall t l s,
  parse_tokens (t ++ [TEOF]) = Some (Some l) ->
  (forall t', t <> t' ++ [TSemiColon] /\ t <> t' ++ [TNewlineList]) ->
  In s [[TSemiColon]; [TNewlineList]; [TNewlineList; TNewlineList]; [TSemiColon; TNewlineList; TNewlineList]] ->
  parse_tokens (t ++ s ++ [TEOF]) = Some (Some l).
Proof.
  intros t l s H Hn Hs. apply accepted_list in H; [|exact Hn].
  apply (list_tail t l (s ++ [TEOF]) H).
  - cbn in Hs. decompose [or] Hs; subst; try contradiction; repeat constructor; cbn; auto.
  - destruct s; discriminate.
  - cbn in Hs. decompose [or] Hs; subst; try contradiction; constructor.
Qed.

(** A newline separates commands as a semicolon does: however the commands are put
    on lines, they are read as the same list. *)
Theorem C13_lines_partial : forall ls, ls <> [] -> Forall (fun l => l <> [] /\ Forall wf_andor l) ls ->
  parse (List.concat (map (fun l => render l ++ [newline]) ls)) = parse (render (List.concat ls)) /\
  parse (render (List.concat ls)) = Some (Some (List.concat ls)).
Proof.
  intros ls Hne Hok. pose proof (lines_parse ls Hne Hok) as P. unfold on_lines in P.
  assert (R : parse (render (List.concat ls)) = Some (Some (List.concat ls))).
  { apply render_parse.
    - destruct Hok as [|l ls [Hl _] _]; [congruence|]. destruct l; [congruence|discriminate].
    - apply Forall_concat. eapply Forall_impl; [|exact Hok]. intros l Hl. apply Hl. }
  split; [rewrite P, R; reflexivity|exact R].
Qed.
Example C13_lines_example :
  let w x := AoOne (Pipeline false [CSimple (SimpleCommand None (lit x) None)] false) in
  let ls := [[w "a"; w "b"]; [w "c"]]%string in
  List.concat (map (fun l => render l ++ [newline]) ls) = lit " a ; b" ++ [newline] ++ lit " c" ++ [newline] /\
  render (List.concat ls) = lit " a ; b ; c" /\ ls <> [] /\ Forall (fun l => l <> [] /\ Forall wf_andor l) ls.
Proof.
  cbv zeta. split; [reflexivity|]. split; [reflexivity|]. split; [discriminate|].
  repeat first [apply Forall_nil | apply Forall_cons | split; [discriminate|] | split; [repeat split; auto; left; plain|] ].
  all: repeat split; auto; try discriminate; try (intros [F _]; discriminate); try (left; left; plain).
Qed.

(** ... but a semicolon followed by a newline is always a syntax error. *)
Theorem C13_semicolon_newline_refuted :
  (forall t l, parse_tokens (t ++ [TEOF]) = Some (Some l) ->
     (forall t', t <> t' ++ [TSemiColon] /\ t <> t' ++ [TNewlineList]) ->
     parse_tokens (t ++ [TSemiColon; TNewlineList; TEOF]) = None) /\
  (exists l, parse (lit "ls") = Some (Some l) /\ parse (lit "ls;" ++ [newline]) = None).
Proof.
  split.
  - intros t l H Hn. apply accepted_list in H; [|exact Hn].
    destruct (parse_tokens (t ++ [TSemiColon; TNewlineList; TEOF])) as [v|] eqn:E; [|reflexivity].
    apply (list_tail t l [TSemiColon; TNewlineList; TEOF] H) in E as [Hs _].
    + inversion Hs.
    + repeat constructor; cbn; auto.
    + discriminate.
  - eexists; split; vm_compute; reflexivity.
Qed.

Example C13_example : exists l, parse_tokens ([TWord (lit "ls")] ++ [TEOF]) = Some (Some l) /\
  (forall t', [TWord (lit "ls")] <> t' ++ [TSemiColon] /\ [TWord (lit "ls")] <> t' ++ [TNewlineList]).
Proof.
  eexists. split; [vm_compute; reflexivity|]. intros t'.
  split; intros H; apply (app_inj_tail [] t') in H as [_ H]; discriminate.
Qed.

(** C14: without [!], a pipeline is marked background exactly when [&] follows. *)
Theorem C14_background_partial : forall cts cs (amp : bool), cts <> [] -> Forall2 GCommand cts cs ->
  parse_tokens (joined [TPipe] cts ++ (if amp then [TAmpersand] else []) ++ [TEOF]) =
  Some (Some [AoOne (Pipeline false cs amp)]).
Proof.
  intros cts cs amp Hne Hf. apply parse_flat.
  exists [], (joined [TPipe] cts ++ (if amp then [TAmpersand] else [])), [TEOF].
  split; [rewrite <- app_assoc; reflexivity|]. split; [|left; split; [reflexivity|right; constructor]].
  exists (joined [TPipe] cts ++ (if amp then [TAmpersand] else [])), (AoOne (Pipeline false cs amp)), [].
  cbn. rewrite app_nil_r. split; [reflexivity|]. split; [|split; [constructor|reflexivity]].
  exists (joined [TPipe] cts ++ (if amp then [TAmpersand] else [])), (Pipeline false cs amp), [].
  cbn. rewrite app_nil_r. split; [reflexivity|]. split; [|split; [constructor|reflexivity]].
  exists false, cts, cs, amp. rewrite andb_true_r. cbn. auto.
Qed.

(** With [!] the marker is lost: the pipeline runs in the foreground. *)
Theorem C14_bang_background_refuted : forall cts cs, cts <> [] -> Forall2 GCommand cts cs ->
  parse_tokens (TBang :: joined [TPipe] cts ++ [TAmpersand; TEOF]) =
  Some (Some [AoOne (Pipeline true cs false)]).
Proof.
  intros cts cs Hne Hf. apply parse_flat.
  exists [], (TBang :: joined [TPipe] cts ++ [TAmpersand]), [TEOF].
  split; [cbn; rewrite <- app_assoc; reflexivity|]. split; [|left; split; [reflexivity|right; constructor]].
  exists (TBang :: joined [TPipe] cts ++ [TAmpersand]), (AoOne (Pipeline true cs false)), [].
  cbn. rewrite app_nil_r. split; [reflexivity|]. split; [|split; [constructor|reflexivity]].
  exists (TBang :: joined [TPipe] cts ++ [TAmpersand]), (Pipeline true cs false), [].
  cbn. rewrite app_nil_r. split; [reflexivity|]. split; [|split; [constructor|reflexivity]].
  exists true, cts, cs, true. cbn. auto.
Qed.

Example C14_example :
  Forall2 GCommand [[TWord (lit "a")]] [CSimple (SimpleCommand None (lit "a") None)] /\
  exists cs, parse (lit "! a &") = Some (Some [AoOne (Pipeline true cs false)]).
Proof.
  split; [|eexists; vm_compute; reflexivity].
  constructor; [|constructor]. constructor. apply g_sc_w. constructor.
Qed.

Print Assumptions C09_parser_is_grammar.
Print Assumptions C09_unambiguous.
Print Assumptions C10_round_trip.
Print Assumptions C11_grouping.
Print Assumptions C12_blank_lines_refuted.
Print Assumptions C12_blank_lines_partial.
Print Assumptions C12_line_comment_partial.
Print Assumptions C13_lines_partial.
Print Assumptions C13_terminators_partial.
Print Assumptions C13_semicolon_newline_refuted.
Print Assumptions C14_background_partial.
Print Assumptions C14_bang_background_refuted.
