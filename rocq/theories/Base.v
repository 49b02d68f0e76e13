(** Base: the parts of Rust's core and standard library that rsh relies on.

    Nothing here is specific to rsh.  Each definition names the Rust item whose
    documented behaviour it transcribes; the rsh call sites are cited in the
    files that use it. *)
From Coq Require Export List Bool NArith ZArith Lia Arith String Ascii.
From Coq Require Decimal.
Export ListNotations.

(** Rust [char]: a Unicode scalar value, represented by its code point. Rust
    [&str]/[String]: a finite sequence of characters (UTF-8 encoded; byte
    positions are recovered with [len_utf8]). First use: src/lexer.rs:134-136.
    *)
Definition char := N.
(** Rust [&str] and [String], as in src/lexer.rs:120-143. *)
Definition str := list char.

(** String and character literals (ASCII only). The code has them as literals,
    e.g. src/lexer.rs:153-235. *)
Definition ch (a : ascii) : char := N_of_ascii a.
(** Text literals of the code, e.g. src/lexer.rs:360-380. *)
Definition lit (x : string) : str := List.map N_of_ascii (list_ascii_of_string x).

Arguments ch _%char_scope.
Arguments lit _%string_scope.

(** Rust [PartialEq for str]. Used wherever the code compares texts or matches
    on them, e.g. src/eval.rs:431-449. *)
Fixpoint str_eqb (a b : str) : bool :=
  match a, b with
  | [], [] => true
  | x :: a', y :: b' => N.eqb x y && str_eqb a' b'
  | _, _ => false
  end.

(** Rust [char::len_utf8]. Called at src/lexer.rs:136 and 256. *)
Definition len_utf8 (c : char) : nat :=
  if (c <? 0x80)%N then 1
  else if (c <? 0x800)%N then 2
  else if (c <? 0x10000)%N then 3 else 4.

(** Rust [str::len] (bytes). Implicit in the byte positions of
    src/lexer.rs:252-309. *)
Fixpoint blen (s : str) : nat :=
  match s with [] => 0 | c :: s' => len_utf8 c + blen s' end.

(** Rust [char::is_whitespace]: the Unicode property White_Space. Called at
    src/lexer.rs:233, 410 and src/ast.rs:225. *)
Definition is_whitespace (c : char) : bool :=
  ((9 <=? c) && (c <=? 13) || (c =? 32) || (c =? 0x85) || (c =? 0xA0)
   || (c =? 0x1680) || ((0x2000 <=? c) && (c <=? 0x200A))
   || (c =? 0x2028) || (c =? 0x2029) || (c =? 0x202F) || (c =? 0x205F)
   || (c =? 0x3000))%N.

(** Byte-indexed slicing [&s[a..b]]. [None] is the panic Rust raises when an
    index is out of range or not on a character boundary. The slices are those
    of src/lexer.rs:269-290 and src/ast.rs:227, 244, 330. *)
Fixpoint drop_bytes (n : nat) (s : str) {struct s} : option str :=
  match n with
  | 0 => Some s
  | _ => match s with
         | [] => None
         | c :: s' => if len_utf8 c <=? n then drop_bytes (n - len_utf8 c) s' else None
         end
  end.

(** The other half of a slice, src/lexer.rs:269-290 and src/ast.rs:227. *)
Fixpoint take_bytes (n : nat) (s : str) {struct s} : option str :=
  match n with
  | 0 => Some []
  | _ => match s with
         | [] => None
         | c :: s' => if len_utf8 c <=? n
                      then match take_bytes (n - len_utf8 c) s' with
                           | Some r => Some (c :: r) | None => None end
                      else None
         end
  end.

(** [&s[a..b]], src/lexer.rs:269-290 and src/ast.rs:227. *)
Definition slice (s : str) (a b : nat) : option str :=
  if a <=? b then
    match drop_bytes a s with
    | Some r => take_bytes (b - a) r
    | None => None
    end
  else None.

(** Rust [str::char_indices]. Called at src/lexer.rs:134 and src/ast.rs:218.
    *)
Fixpoint char_indices_from (i : nat) (s : str) : list (nat * char) :=
  match s with [] => [] | c :: s' => (i, c) :: char_indices_from (i + len_utf8 c) s' end.
(** [s.char_indices()], src/lexer.rs:134 and src/ast.rs:218. *)
Definition char_indices (s : str) := char_indices_from 0 s.

(** Rust [str::contains(char)], [starts_with], [ends_with], [contains(&str)].
    Called e.g. at src/builtins.rs:219 and 424-433. *)
Definition contains_char (c : char) (s : str) : bool := existsb (N.eqb c) s.

(** [str::starts_with], e.g. src/ast.rs:302 and src/completion.rs:116. *)
Fixpoint starts_with (p s : str) : bool :=
  match p, s with
  | [], _ => true
  | x :: p', y :: s' => N.eqb x y && starts_with p' s'
  | _ :: _, [] => false
  end.

(** [str::ends_with], e.g. src/context.rs:492. *)
Definition ends_with (p s : str) : bool := starts_with (rev p) (rev s).

(** [str::contains] of a text, e.g. src/builtins.rs:213 and
    src/context.rs:117. *)
Fixpoint contains_str (p s : str) : bool :=
  starts_with p s || match s with [] => false | _ :: s' => contains_str p s' end.

(** Rust [str::split(char)]: always at least one piece. Called e.g. at
    src/context.rs:240, 303, 521 and src/eval.rs:385. *)
Fixpoint split_char (c : char) (s : str) : list str :=
  match s with
  | [] => [[]]
  | x :: s' =>
      if N.eqb x c then [] :: split_char c s'
      else match split_char c s' with
           | [] => [[x]]  (* unreachable: split_char is never empty *)
           | w :: ws => (x :: w) :: ws
           end
  end.

(** Rust [str::split("::")] - leftmost, non-overlapping matches. Called at
    src/context.rs:118, 141, 164, 187, 207, 256 and 278. *)
Fixpoint split_dcolon (s : str) : list str :=
  match s with
  | [] => [[]]
  | x :: s' =>
      match s' with
      | y :: s'' =>
          if N.eqb x (ch ":") && N.eqb y (ch ":") then [] :: split_dcolon s''
          else match split_dcolon s' with
               | [] => [[x]]
               | w :: ws => (x :: w) :: ws
               end
      | [] => [[x]]
      end
  end.

(** Rust [str::split_whitespace]: maximal runs of non-whitespace. Called at
    src/shell.rs:178 and src/ast.rs:638. *)
Fixpoint split_whitespace_aux (acc : str) (s : str) : list str :=
  match s with
  | [] => match acc with [] => [] | _ => [rev acc] end
  | c :: s' =>
      if is_whitespace c
      then match acc with
           | [] => split_whitespace_aux [] s'
           | _ => rev acc :: split_whitespace_aux [] s'
           end
      else split_whitespace_aux (c :: acc) s'
  end.
(** [s.split_whitespace()], src/shell.rs:178 and src/ast.rs:638. *)
Definition split_whitespace (s : str) : list str := split_whitespace_aux [] s.

(** Rust [str::trim]. Called at src/ast.rs:408. *)
Fixpoint trim_start (s : str) : str :=
  match s with
  | [] => []
  | c :: s' => if is_whitespace c then trim_start s' else s
  end.
(** [s.trim()], src/ast.rs:408. *)
Definition str_trim (s : str) : str := rev (trim_start (rev (trim_start s))).

(** [let mut chars = w.chars(); chars.next(); chars.next_back();
    chars.collect()]: drop the first character, then the last of what is left.
    Lines src/ast.rs:556-559, src/context.rs:493-496, src/shell.rs:338-341 and
    src/builtins.rs:37-40. *)
Definition drop_ends (w : str) : str := removelast (tl w).

(** The private [trim] helper that appears four times in rsh with the same text
    (src/builtins.rs:35-45, src/context.rs:491-501, src/shell.rs:336-346,
    src/var.rs:202-212): strip one pair of surrounding quotes. *)
Definition trim_quotes (w : str) : str :=
  if (starts_with (lit """") w && ends_with (lit """") w)
     || (starts_with (lit "'") w && ends_with (lit "'") w)
  then drop_ends w else w.

(** Rust [char::to_digit(10)]. Called at src/context.rs:529-531 and 552-554.
    *)
Definition to_digit (c : char) : option N :=
  if ((48 <=? c) && (c <=? 57))%N then Some (c - 48)%N else None.
(** [to_digit(10).is_some()], src/context.rs:529 and 552. *)
Definition is_digit (c : char) : bool :=
  match to_digit c with Some _ => true | None => false end.

(** Value of a digit string, [None] on a non-digit. Part of the parses of
    src/lexer.rs:386, src/context.rs:532 and src/builtins.rs:76. *)
Fixpoint digits_value (acc : N) (s : str) : option N :=
  match s with
  | [] => Some acc
  | c :: s' => match to_digit c with
               | Some d => digits_value (10 * acc + d)%N s'
               | None => None
               end
  end.

(** Rust [str::parse] for unsigned types: optional '+', at least one digit,
    error above [max]. Called at src/context.rs:532 and
    src/builtins.rs:118-121. *)
Definition parse_unsigned (max : N) (s : str) : option N :=
  let body := match s with
              | c :: s' => if N.eqb c (ch "+") then s' else s
              | [] => [] end in
  match body with
  | [] => None
  | _ => match digits_value 0 body with
         | Some v => if (v <=? max)%N then Some v else None
         | None => None
         end
  end.
(** [usize::MAX] on a 64-bit machine (src/context.rs:532). *)
Definition usize_max : N := 0xFFFFFFFFFFFFFFFF.
(** [parse::<usize>], src/context.rs:532 and 555. *)
Definition parse_usize := parse_unsigned usize_max.
(** [parse::<u32>], src/builtins.rs:118 and 121. *)
Definition parse_u32 := parse_unsigned 0xFFFFFFFF.

(** Rust [str::parse::<i32>]. Called at src/lexer.rs:386 and
    src/builtins.rs:76, 91. *)
Definition parse_i32 (s : str) : option Z :=
  match s with
  | [] => None
  | c :: s' =>
      if N.eqb c (ch "-") then
        match s' with
        | [] => None
        | _ => match digits_value 0 s' with
               | Some v => if (v <=? 0x80000000)%N then Some (- Z.of_N v)%Z else None
               | None => None
               end
        end
      else
        let body := if N.eqb c (ch "+") then s' else s in
        match body with
        | [] => None
        | _ => match digits_value 0 body with
               | Some v => if (v <=? 0x7FFFFFFF)%N then Some (Z.of_N v) else None
               | None => None
               end
        end
  end.

(** Rust [ToString] for unsigned and signed integers. Called e.g. at
    src/context.rs:532 and in the formats of src/jobs.rs:251-259. *)
Fixpoint uint_digits (d : Decimal.uint) : str :=
  match d with
  | Decimal.Nil => []
  | Decimal.D0 d => 48%N :: uint_digits d
  | Decimal.D1 d => 49%N :: uint_digits d
  | Decimal.D2 d => 50%N :: uint_digits d
  | Decimal.D3 d => 51%N :: uint_digits d
  | Decimal.D4 d => 52%N :: uint_digits d
  | Decimal.D5 d => 53%N :: uint_digits d
  | Decimal.D6 d => 54%N :: uint_digits d
  | Decimal.D7 d => 55%N :: uint_digits d
  | Decimal.D8 d => 56%N :: uint_digits d
  | Decimal.D9 d => 57%N :: uint_digits d
  end.
(** [ToString] of an unsigned number, src/context.rs:532 and src/eval.rs:575.
    *)
Definition N_to_str (n : N) : str := uint_digits (N.to_uint n).
(** [Display] of a signed number, src/jobs.rs:251-259. *)
Definition Z_to_str (z : Z) : str :=
  if (z <? 0)%Z then ch "-" :: N_to_str (Z.abs_N z) else N_to_str (Z.to_N z).

(** Rust [<[String]>::join]. Called at src/main.rs:138. *)
Fixpoint join (sep : str) (ws : list str) : str :=
  match ws with
  | [] => []
  | [w] => w
  | w :: ws' => w ++ sep ++ join sep ws'
  end.

(** Rust [HashMap<String, V>]/[HashSet<String>]: an association list with at
    most one entry per key.  Iteration order of a HashMap is unspecified, and
    nothing in the model depends on it. *)
Section StrMap.
  Context {V : Type}.
  Definition smap := list (str * V).
  Fixpoint sget (k : str) (m : smap) : option V :=
    match m with
    | [] => None
    | (k', v) :: m' => if str_eqb k k' then Some v else sget k m'
    end.
  Fixpoint sremove (k : str) (m : smap) : smap :=
    match m with
    | [] => []
    | (k', v) :: m' => if str_eqb k k' then sremove k m' else (k', v) :: sremove k m'
    end.
  Definition sinsert (k : str) (v : V) (m : smap) : smap := (k, v) :: sremove k m.
End StrMap.
Arguments smap V : clear implicits.

(** Rust [BTreeMap<K, V>] for a numeric key: an association list kept sorted by
    strictly increasing key, so iteration order is key order.  Also used (with
    no reliance on the order) for [HashMap] with a numeric key. *)
Section NatMap.
  Context {V : Type}.
  Definition nmap := list (Z * V).
  Fixpoint nget (k : Z) (m : nmap) : option V :=
    match m with
    | [] => None
    | (k', v) :: m' => if Z.eqb k k' then Some v else nget k m'
    end.
  Fixpoint nremove (k : Z) (m : nmap) : nmap :=
    match m with
    | [] => []
    | (k', v) :: m' => if Z.eqb k k' then nremove k m' else (k', v) :: nremove k m'
    end.
  Fixpoint ninsert (k : Z) (v : V) (m : nmap) : nmap :=
    match m with
    | [] => [(k, v)]
    | (k', v') :: m' =>
        if Z.ltb k k' then (k, v) :: m
        else if Z.eqb k k' then (k, v) :: m'
        else (k', v') :: ninsert k v m'
    end.
End NatMap.
Arguments nmap V : clear implicits.
