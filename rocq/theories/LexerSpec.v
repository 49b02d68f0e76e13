(** Specification of tokenisation, independent of the lexer model: no lexer
    state, no look-ahead buffer, no slicing.  A token is described by the text
    it covers and by what may follow it. *)
From Verif Require Import Base Lexer.

(** Characters that end a word. *)
Definition metachars : str := lit ";&|(){}<>!$`*=".
Definition word_char (c : char) : Prop := ~ In c metachars /\ is_whitespace c = false.
Definition newline : char := 10%N.
Definition blank (c : char) : Prop := is_whitespace c = true /\ c <> newline.

(** The text [s] does not begin with a character satisfying [P]. *)
Definition not_before (P : char -> Prop) (s : str) : Prop :=
  match s with [] => True | c :: _ => ~ P c end.

Definition reserved : list (str * token) :=
  [(lit "for", TFor); (lit "in", TIn); (lit "while", TWhile); (lit "if", TIf);
   (lit "then", TThen); (lit "else", TElse); (lit "elif", TElif); (lit "fi", TFi);
   (lit "do", TDo); (lit "done", TDone); (lit "case", TCase); (lit "esac", TEsac)].

(** Operators that never depend on what follows. *)
Definition simple_ops : list (char * token) :=
  [(ch ";", TSemiColon); (ch "(", TOpenParen); (ch ")", TCloseParen);
   (ch "{", TOpenBrace); (ch "}", TCloseBrace); (ch "=", TEquals); (ch "!", TBang)].

(** Two-character operators. *)
Definition double_ops : list (str * token) :=
  [(lit "||", TOr); (lit "&&", TAnd); (lit ">>", TDoubleGreater); (lit ">&", TGreaterAnd);
   (lit "<<", TDoubleLess); (lit "<&", TLessAnd)].

(** One-character operators, with the characters that must not follow. *)
Definition prefix_ops : list (char * token * str) :=
  [(ch "|", TPipe, lit "|"); (ch "&", TAmpersand, lit "&");
   (ch ">", TGreater, lit ">&"); (ch "<", TLess, lit "<&")].

(** Openers of quoted text and their closers. *)
Definition quotes : list (str * char) :=
  [(lit "'", ch "'"); (lit """", ch """"); (lit "`", ch "`"); (lit "$(", ch ")")].

(** Decimal numeral with optional sign that denotes [n], in 32-bit range. *)
Definition numeral (w : str) (n : Z) : Prop :=
  (exists ds v, (w = ds \/ w = ch "+" :: ds) /\ ds <> [] /\
     digits_value 0 ds = Some v /\ n = Z.of_N v /\ (n <= 2147483647)%Z)
  \/ (exists ds v, w = ch "-" :: ds /\ ds <> [] /\
     digits_value 0 ds = Some v /\ n = (- Z.of_N v)%Z /\ (- 2147483648 <= n)%Z).

Definition redirect_follows (rest : str) : Prop :=
  exists c r, rest = c :: r /\ (c = ch "<" \/ c = ch ">").

(** The meaning of a maximal run of word characters. *)
Inductive word_token (w rest : str) : token -> Prop :=
| wt_reserved t : In (w, t) reserved -> word_token w rest t
| wt_number n :
    (forall t, ~ In (w, t) reserved) -> redirect_follows rest -> numeral w n ->
    word_token w rest (TNumber n)
| wt_word :
    (forall t, ~ In (w, t) reserved) ->
    (~ redirect_follows rest \/ (forall n, ~ numeral w n)) ->
    word_token w rest (TWord w).

(** [token_here text rest t len]: reading [text ++ rest] yields token [t]
    covering [text], with a reported span of [len] bytes. *)
Inductive token_here : str -> str -> token -> nat -> Prop :=
| th_newlines nls rest :
    nls <> [] -> Forall (eq newline) nls -> not_before (eq newline) rest ->
    token_here nls rest TNewlineList 1
| th_simple c t rest : In (c, t) simple_ops -> token_here [c] rest t 1
| th_double cc t rest : In (cc, t) double_ops -> token_here cc rest t 1
| th_prefix c t no rest :
    In (c, t, no) prefix_ops -> not_before (fun d => In d no) rest ->
    token_here [c] rest t 1
| th_dollar rest : token_here [ch "$"] (ch "{" :: rest) TDollar 1
| th_quoted o c body rest :
    In (o, c) quotes -> ~ In c body ->
    token_here (o ++ body ++ [c]) rest (TWord (o ++ body ++ [c])) (blen (o ++ body ++ [c]))
| th_unterminated o c body :
    In (o, c) quotes -> ~ In c body ->
    token_here (o ++ body) [] (TWord (o ++ body)) (blen (o ++ body))
| th_word c w rest t :
    word_char c -> ~ In c (lit "#'""") -> Forall word_char w -> not_before word_char rest ->
    word_token (c :: w) rest t ->
    token_here (c :: w) rest t (blen (c :: w))
| th_dollar_word w rest :
    Forall word_char w -> not_before word_char rest ->
    not_before (fun d => In d (lit "({")) (w ++ rest) ->
    token_here (ch "$" :: w) rest (TWord (ch "$" :: w)) (blen (ch "$" :: w)).

(** [scans p s is q r]: tokenising from byte position [p] with [s] ahead yields
    the items [is] and arrives at position [q] with [r] ahead. *)
Inductive scans : nat -> str -> list item -> nat -> str -> Prop :=
| sc_done p s : scans p s [] p s
| sc_blank p c s is q r :
    blank c -> scans (p + len_utf8 c) s is q r -> scans p (c :: s) is q r
| sc_comment p body s is q r :
    ~ In newline body -> not_before (fun c => c <> newline) s ->
    scans (p + S (blen body)) s is q r ->
    scans p (ch "#" :: body ++ s) is q r
| sc_token p text s t len is q r :
    token_here text s t len -> scans (p + blen text) s is q r ->
    scans p (text ++ s) (IOk p t (p + len) :: is) q r
| sc_error p s is q r :
    scans (p + 1) s is q r ->
    scans p (ch "*" :: s) (IErr p (ch "*") (p + 1) :: is) q r.

(** The complete token stream of a text. *)
Definition stream (s : str) (is : list item) : Prop :=
  exists ts, scans 0 s ts (blen s) [] /\ is = ts ++ [IOk 0 TEOF 0].

(** ** Vocabulary for the property statements *)

Definition strip (i : item) : option token :=
  match i with IOk _ t _ => Some t | IErr _ _ _ => None end.

Definition istart (i : item) : nat := match i with IOk a _ _ | IErr a _ _ => a end.
Definition istop (i : item) : nat := match i with IOk _ _ b | IErr _ _ b => b end.

(** What a token's source text is. *)
Inductive source : token -> str -> Prop :=
| src_word w : source (TWord w) w
| src_number n w : numeral w n -> source (TNumber n) w
| src_reserved t w : In (w, t) reserved -> source t w
| src_simple t c : In (c, t) simple_ops -> source t [c]
| src_double t w : In (w, t) double_ops -> source t w
| src_prefix t c no : In (c, t, no) prefix_ops -> source t [c]
| src_dollar : source TDollar (lit "$")
| src_newlines w : w <> [] -> Forall (eq newline) w -> source TNewlineList w.

Definition item_span_ok (s : str) (i : item) : Prop :=
  istart i < istop i <= blen s /\
  exists pre src post, s = pre ++ src ++ post /\ blen pre = istart i /\
    match i with
    | IOk a t b => source t src /\ b <= a + blen src /\
                   (forall w, t = TWord w -> slice s a b = Some w)
    | IErr a c b => src = [c] /\ b = a + blen src
    end.

(** Skipped text: blanks, and comments running up to a newline or the end. *)
Inductive gap : str -> str -> Prop :=
| gap_nil s : gap [] s
| gap_blank c g s : blank c -> gap g s -> gap (c :: g) s
| gap_comment body g s : ~ In newline body -> not_before (fun c => c <> newline) (g ++ s) ->
    gap g s -> gap (ch "#" :: body ++ g) s.

(** [covers p s is]: the items [is] account for every character of [s]. *)
Inductive covers : nat -> str -> list item -> Prop :=
| cov_end p g : gap g [] -> covers p g [IOk 0 TEOF 0]
| cov_token p g src s t stop is :
    gap g (src ++ s) -> src <> [] -> source t src -> covers (p + blen g + blen src) s is ->
    covers p (g ++ src ++ s) (IOk (p + blen g) t stop :: is)
| cov_error p g c s stop is :
    gap g (c :: s) -> ~ word_char c -> ~ blank c -> covers (p + blen g + len_utf8 c) s is ->
    covers p (g ++ c :: s) (IErr (p + blen g) c stop :: is).

(** A maximal run of word characters that starts a token. *)
Definition word_run (w rest : str) : Prop :=
  match w with
  | [] => False
  | c :: w' => word_char c /\ ~ In c (lit "#'""") /\ Forall word_char w' /\ not_before word_char rest
  end.

(** A word as the user writes it: plain, [$]-word, or fully quoted. *)
Inductive written_word : str -> Prop :=
| ww_plain c w : word_char c -> ~ In c (lit "#'""") -> Forall word_char w ->
    (forall t, ~ In (c :: w, t) reserved) -> written_word (c :: w)
| ww_dollar w : Forall word_char w -> written_word (ch "$" :: w)
| ww_quoted o c body : In (o, c) quotes -> ~ In c body -> written_word (o ++ body ++ [c]).

Inductive spaced : list str -> str -> Prop :=
| sp_nil bl : Forall blank bl -> spaced [] bl
| sp_cons bl w ws s : Forall blank bl -> written_word w -> spaced ws s ->
    (ws <> [] -> match s with [] => False | c :: _ => blank c end) ->
    spaced (w :: ws) (bl ++ w ++ s).
