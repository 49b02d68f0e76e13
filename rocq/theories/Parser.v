(** An executable parser for the grammar of src/grammar.lalrpop.

    LALRPOP generates an LR(1) automaton from the grammar; by LALRPOP's
    contract it accepts exactly the grammar's language and runs the actions of
    the derivation.  The automaton itself is not modelled; this recursive
    descent parser is proved (ParserFacts.v) to accept exactly the language of
    Grammar.v with the same values, so it is a faithful stand-in for
    [grammar::CompleteCommandParser::new().parse(..)] (src/eval.rs:18-20,
    src/ast.rs:398-400, src/main.rs:247-250).  Each function cites the
    non-terminal it recognises. *)
From Verif Require Import Base Lexer Ast.

(** [Word], [CmdName], [CmdWord] (grammar.lalrpop:189-202). *)
Definition p_word (ts : list token) : option (str * list token) :=
  match ts with
  | TWord w :: r => Some (w, r)
  | TSubshell w :: r => Some (w, r)
  | _ => None
  end.

(** [IOFile] (grammar.lalrpop:169-173). *)
Definition p_iofile (ts : list token) : option (redirect_type * str * list token) :=
  match ts with
  | TLess :: r => match p_word r with Some (w, r') => Some (RInput, w, r') | None => None end
  | TGreater :: r => match p_word r with Some (w, r') => Some (ROutput, w, r') | None => None end
  | TDoubleGreater :: r => match p_word r with Some (w, r') => Some (RAppend, w, r') | None => None end
  | _ => None
  end.

(** [IORedirect] (grammar.lalrpop:164-167). *)
Definition p_redir (ts : list token) : option (io_redirect * list token) :=
  match ts with
  | TNumber n :: r =>
      match p_iofile r with Some (k, f, r') => Some (IoRedirect (Some n) k f, r') | None => None end
  | _ => match p_iofile ts with Some (k, f, r') => Some (IoRedirect None k f, r') | None => None end
  end.

(** [Assignment] (grammar.lalrpop:180-187). *)
Definition p_assign (ts : list token) : option (str * list token) :=
  match ts with
  | TWord v :: TEquals :: r =>
      match p_word r with Some (w, r') => Some (v ++ lit "=" ++ w, r') | None => None end
  | _ => None
  end.

(** [RedirectList] (grammar.lalrpop:175-178), possibly empty; [k] bounds the
    iterations by the number of tokens. *)
Fixpoint p_redirs (k : nat) (acc : list io_redirect) (ts : list token) : list io_redirect * list token :=
  match k with
  | 0 => (acc, ts)
  | S k' => match p_redir ts with
            | Some (r, ts') => p_redirs k' (acc ++ [r]) ts'
            | None => (acc, ts)
            end
  end.

(** [Prefix] (grammar.lalrpop:148-153), possibly empty. *)
Fixpoint p_prefix (k : nat) (p : prefix) (ts : list token) : prefix * list token :=
  match k with
  | 0 => (p, ts)
  | S k' =>
      match p_redir ts with
      | Some (r, ts') => p_prefix k' (Prefix (p_redirect p ++ [r]) (assignment p)) ts'
      | None =>
          match p_assign ts with
          | Some (a, ts') => p_prefix k' (Prefix (p_redirect p) (assignment p ++ [a])) ts'
          | None => (p, ts)
          end
      end
  end.

(** A [Suffix] without items (grammar.lalrpop:155-162 has none; here it stands
    for an absent one). *)
Definition suffix_empty (s : suffix) : bool :=
  match s_redirect s, word_list s with [], [] => true | _, _ => false end.
(** A [Prefix] without items (grammar.lalrpop:148-153 has none; here it stands
    for an absent one). *)
Definition prefix_empty (p : prefix) : bool :=
  match p_redirect p, assignment p with [], [] => true | _, _ => false end.

(** [Suffix] (grammar.lalrpop:155-162), possibly empty.  A suffix cannot begin
    with a Subshell token (line 158 names the terminal "Word"). *)
Fixpoint p_suffix (k : nat) (s : suffix) (ts : list token) : suffix * list token :=
  match k with
  | 0 => (s, ts)
  | S k' =>
      match p_redir ts with
      | Some (r, ts') => p_suffix k' (Suffix (s_redirect s ++ [r]) (word_list s)) ts'
      | None =>
          match p_assign ts with
          | Some (a, ts') => p_suffix k' (Suffix (s_redirect s) (word_list s ++ [a])) ts'
          | None =>
              match ts with
              | TWord w :: ts' => p_suffix k' (Suffix (s_redirect s) (word_list s ++ [w])) ts'
              | TSubshell w :: ts' =>
                  if suffix_empty s then (s, ts)
                  else p_suffix k' (Suffix (s_redirect s) (word_list s ++ [w])) ts'
              | _ => (s, ts)
              end
          end
      end
  end.

(** The [Option] around [Suffix] in grammar.lalrpop:140-146. *)
Definition opt_suffix (s : suffix) : option suffix := if suffix_empty s then None else Some s.
(** The [Option] around [Prefix] in grammar.lalrpop:140-146. *)
Definition opt_prefix (p : prefix) : option prefix := if prefix_empty p then None else Some p.

(** [SimpleCommand] (grammar.lalrpop:140-146). *)
Definition p_simple (ts : list token) : option (simple_command * list token) :=
  let (p, ts1) := p_prefix (List.length ts) (Prefix [] []) ts in
  match p_word ts1 with
  | Some (w, ts2) =>
      let (s, ts3) := p_suffix (List.length ts2) (Suffix [] []) ts2 in
      Some (SimpleCommand (opt_prefix p) w (opt_suffix s), ts3)
  | None =>
      if prefix_empty p then None else Some (SimpleCommand (Some p) [] None, ts1)
  end.

(** [Separator] (grammar.lalrpop:212-222), longest match. *)
Definition p_separator (ts : list token) : option (list token) :=
  match ts with
  | TSemiColon :: TNewlineList :: TNewlineList :: TEOF :: r => Some r
  | TSemiColon :: TNewlineList :: TNewlineList :: r => Some r
  | TSemiColon :: TEOF :: r => Some r
  | TSemiColon :: r => Some r
  | TNewlineList :: TNewlineList :: TEOF :: r => Some r
  | TNewlineList :: TNewlineList :: r => Some r
  | TNewlineList :: TEOF :: r => Some r
  | TNewlineList :: r => Some r
  | TEOF :: r => Some r
  | _ => None
  end.

(** An optional "newline_list". It stands after the operators of
    grammar.lalrpop. *)
Definition skip_nl (ts : list token) : list token :=
  match ts with TNewlineList :: r => r | _ => ts end.

(** Can this token start an [AndOr]?. The first tokens of grammar.lalrpop's
    [AndOr]. *)
Definition starts_command (ts : list token) : bool :=
  match ts with
  | (TWord _ | TSubshell _ | TNumber _ | TLess | TGreater | TDoubleGreater | TBang | TOpenBrace) :: _ => true
  | _ => false
  end.

Section Rec.
  (** The parser for [CompoundList] (brace bodies), one nesting level down. *)
  Variable p_clist : list token -> option (list and_or * list token).

  (** [BraceGroup] (grammar.lalrpop:120-122). *)
  Definition p_brace (ts : list token) : option (list and_or * list token) :=
    match ts with
    | TOpenBrace :: r =>
        match p_clist r with
        | Some (b, TCloseBrace :: r') => Some (b, r')
        | _ => None
        end
    | _ => None
    end.

  (** [Command] (grammar.lalrpop:89-94), [FunctionDefinition] (129-132),
      [FunctionBody] (134-137). *)
  Definition p_command (ts : list token) : option (command * list token) :=
    match ts with
    | TOpenBrace :: _ =>
        match p_brace ts with Some (b, r) => Some (CGroup b, r) | None => None end
    | TWord name :: TOpenParen :: r =>
        match r with
        | TCloseParen :: r1 =>
            match p_brace (skip_nl r1) with
            | Some (b, r2) =>
                match p_redirs (List.length r2) [] r2 with
                | ([], r3) => Some (CFunction name b None, r3)
                | (rl, r3) => Some (CFunction name b (Some rl), r3)
                end
            | None => None
            end
        | _ => None
        end
    | _ => match p_simple ts with Some (sc, r) => Some (CSimple sc, r) | None => None end
    end.

  (** [PipelineSeq] (grammar.lalrpop:84-87). *)
  Fixpoint p_seq (k : nat) (acc : list command) (ts : list token) : option (list command * list token) :=
    match p_command ts with
    | None => None
    | Some (c, TPipe :: r) =>
        match k with
        | 0 => None
        | S k' => p_seq k' (acc ++ [c]) r
        end
    | Some (c, r) => Some (acc ++ [c], r)
    end.

  (** [Pipeline] (grammar.lalrpop:77-82): with "!" the background flag is always
      false, even when "&" follows (line 81). *)
  Definition p_pipeline (ts : list token) : option (pipeline * list token) :=
    let (bang, ts1) := match ts with TBang :: r => (true, r) | _ => (false, ts) end in
    match p_seq (List.length ts1) [] ts1 with
    | Some (cs, TAmpersand :: r) => Some (Pipeline bang cs (negb bang), r)
    | Some (cs, r) => Some (Pipeline bang cs false, r)
    | None => None
    end.

  (** [AndOr] (grammar.lalrpop:69-75): the tail of a left-associative chain. *)
  Fixpoint p_andor_tail (k : nat) (a : and_or) (ts : list token) : option (and_or * list token) :=
    match k with
    | 0 => Some (a, ts)
    | S k' =>
        match ts with
        | TAnd :: r =>
            match p_pipeline (skip_nl r) with
            | Some (p, r') => p_andor_tail k' (AoMore a CAnd p) r'
            | None => None
            end
        | TOr :: r =>
            match p_pipeline (skip_nl r) with
            | Some (p, r') => p_andor_tail k' (AoMore a COr p) r'
            | None => None
            end
        | _ => Some (a, ts)
        end
    end.

  Definition p_andor (ts : list token) : option (and_or * list token) :=
    match p_pipeline ts with
    | Some (p, r) => p_andor_tail (List.length r) (AoOne p) r
    | None => None
    end.

  (** [Term] (grammar.lalrpop:104-111) followed by an optional [Separator]. *)
  Fixpoint p_term_tail (k : nat) (l : list and_or) (ts : list token) : option (list and_or * list token) :=
    match k with
    | 0 => Some (l, ts)
    | S k' =>
        match p_separator ts with
        | None => Some (l, ts)
        | Some r =>
            if starts_command r then
              match p_andor r with
              | Some (a, r') => p_term_tail k' (l ++ [a]) r'
              | None => None
              end
            else Some (l, r)
        end
    end.

  (** [List] (grammar.lalrpop:60-67). *)
  Fixpoint p_list_tail (k : nat) (l : list and_or) (ts : list token) : option (list and_or * list token) :=
    match k with
    | 0 => Some (l, ts)
    | S k' =>
        match ts with
        | (TSemiColon | TNewlineList) :: r =>
            if starts_command r then
              match p_andor r with
              | Some (a, r') => p_list_tail k' (l ++ [a]) r'
              | None => None
              end
            else Some (l, ts)
        | _ => Some (l, ts)
        end
    end.
End Rec.

(** [CompoundList] (grammar.lalrpop:113-118); [n] bounds the nesting of braces
    by the number of tokens. *)
Fixpoint p_clist (n : nat) (ts : list token) : option (list and_or * list token) :=
  match n with
  | 0 => None
  | S n' =>
      match p_andor (p_clist n') (skip_nl ts) with
      | Some (a, r) => p_term_tail (p_clist n') (List.length r) [a] r
      | None => None
      end
  end.

(** [List] (grammar.lalrpop:60-67). *)
Definition p_list (n : nat) (ts : list token) : option (list and_or * list token) :=
  match p_andor (p_clist n) ts with
  | Some (a, r) => p_list_tail (p_clist n) (List.length r) [a] r
  | None => None
  end.

(** [CompleteCommand] (grammar.lalrpop:53-58), on the whole token sequence. *)
Definition parse_tokens (ts : list token) : option complete_command :=
  let n := List.length ts in
  match p_separator ts with
  | Some [] => Some None
  | Some r =>
      match p_list n r with
      | Some (l, []) => Some (Some l)
      | _ => None
      end
  | None =>
      match p_list n ts with
      | Some (l, []) => Some (Some l)
      | Some (l, r) =>
          match p_separator r with
          | Some [] => Some (Some l)
          | _ => None
          end
      | None => None
      end
  end.

(** Lexing and parsing a text (src/eval.rs:18-20); [None] is [Err]. *)
Definition parse (s : str) : option complete_command :=
  match tokens s with
  | Some ts => parse_tokens ts
  | None => None
  end.
