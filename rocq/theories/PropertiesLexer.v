(** Properties C01-C08: tokenising. *)
From Verif Require Import Base BaseFacts Lexer LexerSpec LexerFacts LexerLaws.

(** C01: tokenising any text finishes without a panic; the end marker occurs
    exactly once, last; the exhausted tokeniser stays exhausted. *)
Theorem C01_lexing_total : forall s, exists is lx,
  lex s = DDone (is ++ [IOk 0 TEOF 0]) lx /\
  Forall (fun i => strip i <> Some TEOF) is /\
  next_item lx = SEnd lx.
Proof. exact lex_total. Qed.

Example C01_example :
  exists lx, lex (lit "a 'b c' ; *") =
    DDone [IOk 0 (TWord (lit "a")) 1; IOk 2 (TWord (lit "'b c'")) 7; IOk 8 TSemiColon 9;
           IErr 10 (ch "*") 11; IOk 0 TEOF 0] lx.
Proof. eexists; vm_compute; reflexivity. Qed.

(** C02: spans are non-empty, inside the text, in order, non-overlapping, and a
    word token's text is the slice between its positions. *)
Theorem C02_spans_faithful : forall s is lx, lex s = DDone is lx ->
  exists ts, is = ts ++ [IOk 0 TEOF 0] /\
    Forall (item_span_ok s) ts /\
    ForallOrdPairs (fun i j => istop i <= istart j) ts.
Proof. exact lex_spans. Qed.

(** two-byte characters shift byte positions *)
Example C02_example :
  exists lx, lex [233; 32; 233; 97]%N =
    DDone [IOk 0 (TWord [233%N]) 2; IOk 3 (TWord [233; 97]%N) 6; IOk 0 TEOF 0] lx.
Proof. eexists; vm_compute; reflexivity. Qed.

(** C03: the text is the concatenation of the sources of the items, separated
    only by blanks and comments; errors are only reported for characters that
    start nothing. *)
Theorem C03_nothing_dropped : forall s is lx, lex s = DDone is lx -> covers 0 s is.
Proof. exact lex_covers. Qed.

Example C03_example :
  tokens (lit "a|b # c") = Some [TWord (lit "a"); TPipe; TWord (lit "b"); TEOF].
Proof. vm_compute; reflexivity. Qed.

(** The model computes exactly the declarative token stream of [LexerSpec]. *)
Theorem C03_lex_refines_spec : forall s is, stream s is <-> exists lx, lex s = DDone is lx.
Proof.
  intros s is. split; [intros H; eexists; apply lex_iff; exact H|].
  intros (lx & H). destruct (stream_total s) as (is' & H'). pose proof (stream_lex _ _ H') as E.
  rewrite H in E. injection E as -> _. exact H'.
Qed.

(** C04: quoted text is one word token, verbatim, up to the first closer. *)
Theorem C04_quoted_verbatim : forall o c body rest, In (o, c) quotes -> ~ In c body ->
  tokens (o ++ body ++ c :: rest) = option_map (cons (TWord (o ++ body ++ [c]))) (tokens rest).
Proof. exact tokens_quoted. Qed.

Theorem C04_unterminated : forall o c body, In (o, c) quotes -> ~ In c body ->
  tokens (o ++ body) = Some [TWord (o ++ body); TEOF].
Proof. exact tokens_unterminated. Qed.

Example C04_example :
  tokens (lit "'a;b|for'x") = Some [TWord (lit "'a;b|for'"); TWord (lit "x"); TEOF].
Proof. vm_compute; reflexivity. Qed.

(** C05: blanks and comments before a token do not matter, newline runs are one
    token, and what a complete line means does not depend on the next lines. *)
Theorem C05_blanks : forall bl s, Forall blank bl -> tokens (bl ++ s) = tokens s.
Proof. exact tokens_blanks. Qed.

Theorem C05_comment : forall body s,
  ~ In newline body -> not_before (fun c => c <> newline) s ->
  tokens (ch "#" :: body ++ s) = tokens s.
Proof. exact tokens_comment. Qed.

Theorem C05_newline_run : forall nls s,
  nls <> [] -> Forall (eq newline) nls -> not_before (eq newline) s ->
  tokens (nls ++ s) = option_map (cons TNewlineList) (tokens s).
Proof. exact tokens_newlines. Qed.

Theorem C05_lines_independent : forall a b ta,
  tokens (a ++ [newline]) = Some (ta ++ [TNewlineList; TEOF]) ->
  tokens (a ++ newline :: b) = option_map (app ta) (tokens (newline :: b)).
Proof. exact tokens_line. Qed.

Example C05_example :
  tokens (lit "a b # x" ++ [newline]) = Some ([TWord (lit "a"); TWord (lit "b")] ++ [TNewlineList; TEOF]).
Proof. vm_compute; reflexivity. Qed.

(** C06: a maximal run of word characters is the reserved word it spells, and
    otherwise an ordinary word or a descriptor number. *)
Theorem C06_reserved_exact : forall w rest t, word_run w rest -> In t (map snd reserved) ->
  (exists is lx, lex (w ++ rest) = DDone (IOk 0 t (blen w) :: is) lx) <-> In (w, t) reserved.
Proof.
  intros w rest t Hw Ht. rewrite (lex_word_run w rest t Hw). apply word_token_reserved; exact Ht.
Qed.

Theorem C06_word_otherwise : forall w rest x, word_run w rest ->
  (exists is lx, lex (w ++ rest) = DDone (IOk 0 (TWord x) (blen w) :: is) lx) <->
  x = w /\ (forall t, ~ In (w, t) reserved) /\ ~ (redirect_follows rest /\ exists n, numeral w n).
Proof. intros w rest x Hw. rewrite (lex_word_run w rest _ Hw). apply word_token_word. Qed.

Example C06_example : word_run (lit "done") (lit ";") /\
  tokens (lit "done;doner") = Some [TDone; TSemiColon; TWord (lit "doner"); TEOF].
Proof.
  split; [|vm_compute; reflexivity].
  assert (Hw : forall c, In c (lit "done") -> word_char c).
  { intros c Hc. apply word_continue_iff. cbn in Hc. decompose [or] Hc; subst; reflexivity || contradiction. }
  cbn [word_run lit List.map list_ascii_of_string]. split; [apply Hw; cbn; tauto|]. split; [|split].
  - clear Hw. cbn. intros H; decompose [or] H; (contradiction || discriminate).
  - apply Forall_forall. intros c Hc. apply Hw. cbn in *; tauto.
  - cbn. apply word_continue_false_iff. reflexivity.
Qed.

(** C07: a run is a descriptor number exactly when < or > follows directly and
    it is a decimal numeral in the range of a 32-bit integer. *)
Theorem C07_descriptor_number : forall w rest n, word_run w rest ->
  (exists is lx, lex (w ++ rest) = DDone (IOk 0 (TNumber n) (blen w) :: is) lx) <->
  redirect_follows rest /\ numeral w n.
Proof. intros w rest n Hw. rewrite (lex_word_run w rest _ Hw). apply word_token_number. Qed.

Theorem C07_range : forall w n, numeral w n -> (- 2147483648 <= n <= 2147483647)%Z.
Proof. intros w n [(ds & v & _ & _ & _ & -> & H)|(ds & v & _ & _ & _ & -> & H)]; lia. Qed.

Example C07_example :
  tokens (lit "2>x 3 2147483648<") =
  Some [TNumber 2; TGreater; TWord (lit "x"); TWord (lit "3"); TWord (lit "2147483648"); TLess; TEOF].
Proof. vm_compute; reflexivity. Qed.

(** C08: blank-separated words come back exactly. *)
Theorem C08_words_round_trip : forall ws s, spaced ws s -> tokens s = Some (map TWord ws ++ [TEOF]).
Proof. exact tokens_spaced. Qed.

Example C08_example : spaced [lit "'x y'"; lit "`z`"] (lit " 'x y'  `z`").
Proof.
  change (lit " 'x y'  `z`") with ([32%N] ++ (lit "'" ++ lit "x y" ++ [ch "'"]) ++ [32%N;32%N] ++ (lit "`" ++ lit "z" ++ [ch "`"]) ++ []).
  constructor.
  - repeat constructor; discriminate.
  - constructor; [cbn; tauto|cbn; intros H; decompose [or] H; (contradiction || discriminate)].
  - constructor.
    + repeat constructor; discriminate.
    + constructor; [cbn; tauto|cbn; intros H; decompose [or] H; (contradiction || discriminate)].
    + constructor; constructor.
    + congruence.
  - intros _. split; [reflexivity|discriminate].
Qed.

Print Assumptions C01_lexing_total.
Print Assumptions C02_spans_faithful.
Print Assumptions C03_nothing_dropped.
Print Assumptions C03_lex_refines_spec.
Print Assumptions C04_quoted_verbatim.
Print Assumptions C04_unterminated.
Print Assumptions C05_blanks.
Print Assumptions C05_comment.
Print Assumptions C05_newline_run.
Print Assumptions C05_lines_independent.
Print Assumptions C06_reserved_exact.
Print Assumptions C06_word_otherwise.
Print Assumptions C07_descriptor_number.
Print Assumptions C08_words_round_trip.
Print Assumptions C07_range.
