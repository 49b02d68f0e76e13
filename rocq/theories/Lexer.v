(** Model of src/lexer.rs: the tokeniser.

    The iterator is modelled with its real state (input text, remaining
    [CharIndices], one character of look-ahead, the [send_eof] flag), byte
    positions and byte-indexed slices; a slice that is not on a character
    boundary is a panic. *)
From Verif Require Import Base.

(** src/lexer.rs:25-70 [enum Token].  The variants Space, Tab, Newline, Comment,
    BackTick, Until and Subshell exist in the code but are never constructed by
    the lexer; [TUntil] and [TSubshell] are kept because the grammar names
    them as terminals. The other five are left out. *)
Inductive token :=
| TNewlineList | TSemiColon | TPipe | TDollar | TOpenParen | TCloseParen
| TOpenBrace | TCloseBrace | TGreater | TLess | TDoubleGreater | TDoubleLess
| TGreaterAnd | TLessAnd | TAmpersand | TEquals | TAnd | TOr | TBang
| TFor | TIn | TWhile | TUntil | TIf | TThen | TElse | TElif | TFi | TDo | TDone
| TCase | TEsac | TEOF
| TSubshell (s : str)
| TNumber (n : Z)
| TWord (s : str).

(** src/lexer.rs:6 [Span] and 9-12 [Error]: what one call of [next] yields. *)
Inductive item :=
| IOk (start : nat) (t : token) (stop : nat)
| IErr (start : nat) (c : char) (stop : nat).   (* Error::UnrecognizedChar *)

(** src/lexer.rs:124-130 [struct Lexer]. *)
Record lexer := Lexer {
  send_eof : bool;
  input : str;
  chars : list (nat * char);
  lookahead : option (nat * char * nat)
}.

(** src/lexer.rs:136, 256: [n.map(|n| (n.0, n.1, n.0 + n.1.len_utf8()))]. *)
Definition look (n : nat * char) : nat * char * nat :=
  (fst n, snd n, fst n + len_utf8 (snd n)).

(** [chars.next()] followed by the mapping above. Lines src/lexer.rs:135-136
    and 255-256. *)
Definition next_char (cs : list (nat * char)) : option (nat * char * nat) * list (nat * char) :=
  match cs with
  | [] => (None, [])
  | n :: cs' => (Some (look n), cs')
  end.

(** src/lexer.rs:133-143 [Lexer::new]. *)
Definition lexer_new (s : str) : lexer :=
  let (la, cs) := next_char (char_indices s) in Lexer false s cs la.

(** src/lexer.rs:252-261 [advance]. *)
Definition advance (lx : lexer) : option (nat * char * nat) * lexer :=
  match lookahead lx with
  | Some sce =>
      let (la, cs) := next_char (chars lx) in
      (Some sce, Lexer (send_eof lx) (input lx) cs la)
  | None => (None, lx)
  end.

(** Characters the lexer has not consumed yet: the bound for its loops.
    (src/lexer.rs:146-250 has no bound; it loops until a token is found.) *)
Definition remaining (lx : lexer) : nat :=
  match lookahead lx with
  | None => 0
  | Some _ => S (List.length (chars lx))
  end.

(** The loop of src/lexer.rs:263-275 [take_until]: advance until the look-ahead
    satisfies [terminate]; result: lexer and end position.  The loop is bounded
    by [remaining]; with 0 characters left the look-ahead is [None] and the
    Rust loop exits as well. *)
Fixpoint take_until_loop (n : nat) (terminate : char -> bool) (lx : lexer) (stop : nat)
  : lexer * nat :=
  match n with
  | 0 => (lx, stop)
  | S n' =>
      match lookahead lx with
      | None => (lx, stop)
      | Some (_, c, _) =>
          if terminate c then (lx, stop)
          else match advance lx with
               | (Some (_, _, e), lx') => take_until_loop n' terminate lx' e
               | (None, lx') => take_until_loop n' terminate lx' stop
               end
      end
  end.

(** src/lexer.rs:263-275 [take_until]; [None] is a slicing panic. *)
Definition take_until (lx : lexer) (start stop : nat) (terminate : char -> bool)
  : option (lexer * str * nat) :=
  let (lx', e) := take_until_loop (remaining lx) terminate lx stop in
  match slice (input lx) start e with
  | Some w => Some (lx', w, e)
  | None => None
  end.

(** The loop of src/lexer.rs:277-291 [take_until_alt]: as above but the
    terminating character is consumed too. *)
Fixpoint take_until_alt_loop (n : nat) (terminate : char -> bool) (lx : lexer) (stop : nat)
  : lexer * nat :=
  match n with
  | 0 => (lx, stop)
  | S n' =>
      match lookahead lx with
      | None => (lx, stop)
      | Some (_, c, _) =>
          match advance lx with
          | (Some (_, _, e), lx') =>
              if terminate c then (lx', e) else take_until_alt_loop n' terminate lx' e
          | (None, lx') => take_until_alt_loop n' terminate lx' stop
          end
      end
  end.

(** src/lexer.rs:277-291 [take_until_alt]. *)
Definition take_until_alt (lx : lexer) (start stop : nat) (terminate : char -> bool)
  : option (lexer * str * nat) :=
  let (lx', e) := take_until_alt_loop (remaining lx) terminate lx stop in
  match slice (input lx) start e with
  | Some w => Some (lx', w, e)
  | None => None
  end.

(** src/lexer.rs:312-317 [take_while]. *)
Definition take_while (lx : lexer) (start stop : nat) (keep_going : char -> bool) :=
  take_until lx start stop (fun c => negb (keep_going c)).

(** src/lexer.rs:407-412 [is_word_continue]. *)
Definition is_word_continue (c : char) : bool :=
  if existsb (N.eqb c) [ch ";"; ch "&"; ch "|"; ch "("; ch ")"; ch "{"; ch "}"; ch "<";
                        ch ">"; ch "!"; ch "$"; ch "`"; ch "*"; ch "="]
  then false else negb (is_whitespace c).

(** src/lexer.rs:397-405 [is_word_start]. *)
Definition is_word_start (c : char) : bool :=
  if ((ch "a" <=? c) && (c <=? ch "z") || (ch "A" <=? c) && (c <=? ch "Z")
      || (c =? ch "_") || (ch "0" <=? c) && (c <=? ch "9")
      || (c =? ch """") || (c =? ch "'"))%N
  then true else is_word_continue c.

(** One call of [next]: an item with the new lexer, exhaustion, or a panic.
    [SFuel] only bounds the recursion of the model and is never returned when
    the fuel exceeds [remaining] (Lexer facts). The result type of
    src/lexer.rs:146-250. *)
Inductive step :=
| SItem (lx : lexer) (i : item)
| SEnd (lx : lexer)
| SPanic
| SFuel.

(** src/lexer.rs:319-328 [single_quote], [double_quote] and 330-346 [subshell]:
    a word up to and including the closing character. *)
Definition quoted (closer : char) (lx : lexer) (start stop : nat) : step :=
  match take_until_alt lx start stop (fun c => N.eqb c closer) with
  | Some (lx', w, e) => SItem lx' (IOk start (TWord w) e)
  | None => SPanic
  end.

(** The loop of src/lexer.rs:348-357 [newline_list]. *)
Fixpoint newline_loop (n : nat) (lx : lexer) : lexer :=
  match n with
  | 0 => lx
  | S n' =>
      match lookahead lx with
      | Some (_, c, _) =>
          if N.eqb c 10 then newline_loop n' (snd (advance lx)) else lx
      | None => lx
      end
  end.

(** src/lexer.rs:348-357 [newline_list]: the span of the first newline. *)
Definition newline_list (lx : lexer) (start stop : nat) : step :=
  SItem (newline_loop (remaining lx) lx) (IOk start TNewlineList stop).

(** src/lexer.rs:383-393 [num_or_word]. *)
Definition num_or_word (lx : lexer) (w : str) : token :=
  match lookahead lx with
  | Some (_, c, _) =>
      if N.eqb c (ch "<") || N.eqb c (ch ">")
      then match parse_i32 w with
           | Some n => TNumber n
           | None => TWord w
           end
      else TWord w
  | None => TWord w
  end.

(** src/lexer.rs:359-381 [word]. *)
Definition word (lx : lexer) (start stop : nat) : step :=
  match take_while lx start stop is_word_continue with
  | None => SPanic
  | Some (lx', w, e) =>
      let t :=
        if str_eqb w (lit "for") then TFor
        else if str_eqb w (lit "in") then TIn
        else if str_eqb w (lit "while") then TWhile
        else if str_eqb w (lit "if") then TIf
        else if str_eqb w (lit "then") then TThen
        else if str_eqb w (lit "else") then TElse
        else if str_eqb w (lit "elif") then TElif
        else if str_eqb w (lit "fi") then TFi
        else if str_eqb w (lit "do") then TDo
        else if str_eqb w (lit "done") then TDone
        else if str_eqb w (lit "case") then TCase
        else if str_eqb w (lit "esac") then TEsac
        else num_or_word lx' w in
      SItem lx' (IOk start t e)
  end.

(** The loop of src/lexer.rs:190-195: skip a comment, not its newline. *)
Fixpoint comment_loop (n : nat) (lx : lexer) : lexer :=
  match n with
  | 0 => lx
  | S n' =>
      match lookahead lx with
      | Some (_, c, _) =>
          if N.eqb c 10 then lx else comment_loop n' (snd (advance lx))
      | None => lx
      end
  end.

(** The match arms of src/lexer.rs:153-235, in order. *)
Inductive cclass :=
| CNewline | CSemi | CPipe | CAmp | CTick | CDollar | CHash | COParen | CCParen
| COBrace | CCBrace | CGt | CLt | CEq | CDq | CSq | CBang | CWord | CBlank | CBad.

(** Which arm of src/lexer.rs:153-235 a character takes. *)
Definition classify (c : char) : cclass :=
  if N.eqb c 10 then CNewline
  else if N.eqb c (ch ";") then CSemi
  else if N.eqb c (ch "|") then CPipe
  else if N.eqb c (ch "&") then CAmp
  else if N.eqb c (ch "`") then CTick
  else if N.eqb c (ch "$") then CDollar
  else if N.eqb c (ch "#") then CHash
  else if N.eqb c (ch "(") then COParen
  else if N.eqb c (ch ")") then CCParen
  else if N.eqb c (ch "{") then COBrace
  else if N.eqb c (ch "}") then CCBrace
  else if N.eqb c (ch ">") then CGt
  else if N.eqb c (ch "<") then CLt
  else if N.eqb c (ch "=") then CEq
  else if N.eqb c (ch """") then CDq
  else if N.eqb c (ch "'") then CSq
  else if N.eqb c (ch "!") then CBang
  else if is_word_start c then CWord
  else if is_whitespace c then CBlank
  else CBad.

(** Is the look-ahead this character? ([match self.lookahead { Some((_, 'c',
    _)) => ..]) Lines src/lexer.rs:153-235. *)
Definition peek_is (lx : lexer) (c : char) : bool :=
  match lookahead lx with
  | Some (_, c', _) => N.eqb c' c
  | None => false
  end.

(** src/lexer.rs:149-248 [Iterator::next].  The [while let]/[continue] loop and
    the recursive call after a comment (line 196) are both recursion here. *)
Fixpoint next (fuel : nat) (lx : lexer) : step :=
  match fuel with
  | 0 => SFuel
  | S f =>
      match advance lx with
      | (None, _) =>
          (* lines 239-246 *)
          if send_eof lx then SEnd lx
          else SItem (Lexer true (input lx) (chars lx) (lookahead lx)) (IOk 0 TEOF 0)
      | (Some (start, c, stop), lx1) =>
          let one t := SItem lx1 (IOk start t stop) in
          (* a two-character operator reports the end of its first character *)
          let two t := SItem (snd (advance lx1)) (IOk start t stop) in
          match classify c with
          | CNewline => newline_list lx1 start stop
          | CSemi => one TSemiColon
          | CPipe => if peek_is lx1 (ch "|") then two TOr else one TPipe
          | CAmp => if peek_is lx1 (ch "&") then two TAnd else one TAmpersand
          | CTick => quoted (ch "`") lx1 start stop
          | CDollar =>
              if peek_is lx1 (ch "(") then quoted (ch ")") lx1 start stop
              else if peek_is lx1 (ch "{") then one TDollar
              else word lx1 start stop
          | CHash => next f (comment_loop (remaining lx1) lx1)
          | COParen => one TOpenParen
          | CCParen => one TCloseParen
          | COBrace => one TOpenBrace
          | CCBrace => one TCloseBrace
          | CGt => if peek_is lx1 (ch ">") then two TDoubleGreater
                   else if peek_is lx1 (ch "&") then two TGreaterAnd
                   else one TGreater
          | CLt => if peek_is lx1 (ch "<") then two TDoubleLess
                   else if peek_is lx1 (ch "&") then two TLessAnd
                   else one TLess
          | CEq => one TEquals
          | CDq => quoted (ch """") lx1 start stop
          | CSq => quoted (ch "'") lx1 start stop
          | CBang => one TBang
          | CWord => word lx1 start stop
          | CBlank => next f lx1
          | CBad => SItem lx1 (IErr start c stop)
          end
      end
  end.

(** One call of the iterator, with enough fuel. Line src/lexer.rs:146. *)
Definition next_item (lx : lexer) : step := next (S (remaining lx)) lx.

(** Draining the iterator: [Ok (items, final state)], a panic, or out of fuel.
    What the generated parser sees of src/lexer.rs:146-250. *)
Inductive drained :=
| DDone (is : list item) (lx : lexer)
| DPanic
| DFuel.

(** Calling the iterator of src/lexer.rs:146-250 until it ends. *)
Fixpoint drain (fuel : nat) (lx : lexer) : drained :=
  match fuel with
  | 0 => DFuel
  | S f =>
      match next_item lx with
      | SEnd lx' => DDone [] lx'
      | SItem lx' i =>
          match drain f lx' with
          | DDone is lx'' => DDone (i :: is) lx''
          | DPanic => DPanic
          | DFuel => DFuel
          end
      | SPanic => DPanic
      | SFuel => DFuel
      end
  end.

(** The whole token stream of a text (what the generated parser pulls,
    src/eval.rs:18-20 and src/main.rs:247-250). *)
Definition lex (s : str) : drained := drain (S (S (List.length s))) (lexer_new s).

(** The tokens of a text without positions; [None] when the lexer reports an
    error (or, never, panics). The parser stops at the first error
    (src/main.rs:247-250). *)
Fixpoint ok_tokens (is : list item) : option (list token) :=
  match is with
  | [] => Some []
  | IOk _ t _ :: is' => match ok_tokens is' with Some ts => Some (t :: ts) | None => None end
  | IErr _ _ _ :: _ => None
  end.

(** The token sequence that the grammar of src/grammar.lalrpop is given. *)
Definition tokens (s : str) : option (list token) :=
  match lex s with
  | DDone is _ => ok_tokens is
  | _ => None
  end.
