(** Vocabulary for what may stand where in a line.  Neither the lexer model nor
    the parser is mentioned. *)
From Verif Require Import Base Lexer LexerSpec.

(** Tokens with no meaning to this shell: compound statements, here-documents,
    descriptor copies, [${]. *)
Definition unsupported : list token :=
  [TFor; TIn; TWhile; TUntil; TIf; TThen; TElse; TElif; TFi; TDo; TDone; TCase; TEsac;
   TDoubleLess; TGreaterAnd; TLessAnd; TDollar].

Definition is_word (t : token) : bool := match t with TWord _ | TSubshell _ => true | _ => false end.
Definition starts_redirection (t : token) : bool :=
  match t with TNumber _ | TLess | TGreater | TDoubleGreater => true | _ => false end.
Definition starts_command (t : token) : bool :=
  is_word t || starts_redirection t || match t with TOpenBrace => true | _ => false end.
Definition starts_pipeline (t : token) : bool :=
  starts_command t || match t with TBang => true | _ => false end.
Definition ends_line (t : token) : bool :=
  match t with TSemiColon | TNewlineList | TEOF => true | _ => false end.
(** What may stand after a finished pipeline. *)
Definition after_pipeline (t : token) : bool :=
  ends_line t || match t with TAnd | TOr | TCloseBrace => true | _ => false end.
(** What may stand after a finished command. *)
Definition after_command (t : token) : bool :=
  after_pipeline t || match t with TPipe | TAmpersand => true | _ => false end.

(** [may_follow x y]: [y] can stand right after [x] in a line. *)
Definition may_follow (x y : token) : bool :=
  match x with
  | TWord _ => is_word y || starts_redirection y || after_command y ||
               match y with TEquals | TOpenParen => true | _ => false end
  | TSubshell _ => is_word y || starts_redirection y || after_command y
  | TNumber _ => match y with TLess | TGreater | TDoubleGreater => true | _ => false end
  | TLess | TGreater | TDoubleGreater | TEquals => is_word y
  | TOpenParen => match y with TCloseParen => true | _ => false end
  | TCloseParen => match y with TOpenBrace | TNewlineList => true | _ => false end
  | TOpenBrace => starts_pipeline y || match y with TNewlineList => true | _ => false end
  | TCloseBrace => starts_redirection y || after_command y
  | TPipe | TBang => starts_command y
  | TAmpersand => after_pipeline y
  | TAnd | TOr => starts_pipeline y || match y with TNewlineList => true | _ => false end
  | TSemiColon | TNewlineList | TEOF =>
      starts_pipeline y || match y with TNewlineList | TEOF | TCloseBrace => true | _ => false end
  | _ => false
  end.

(** What a line may begin with. *)
Definition may_begin (t : token) : bool := starts_pipeline t || ends_line t.

(** How deep in braces reading ends; [None]: a brace is closed that was not
    opened. *)
Fixpoint depth (n : nat) (ts : list token) : option nat :=
  match ts with
  | [] => Some n
  | TOpenBrace :: ts' => depth (S n) ts'
  | TCloseBrace :: ts' => match n with O => None | S n' => depth n' ts' end
  | _ :: ts' => depth n ts'
  end.

(** [reading a rest]: with [a ++ rest] to read, a token or a gap ends right after
    [a]; [is] is what [a] consists of. *)
Definition reading (a rest : str) (is : list item) : Prop := exists q, scans 0 (a ++ rest) is q rest.
