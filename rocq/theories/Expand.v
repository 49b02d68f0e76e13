(** Model of the expansion of a simple command, src/ast.rs:207-249 and 252-768.

    [remove_whitespace], [recombine_double_quotes], [expand_subshells],
    [remove_double_quotes] and [remove_single_quotes] (src/ast.rs:421-550,
    707-732) are never called and are left out. *)
From Verif Require Import Base Ast Parser Context Alias.

(** Command substitution runs a forked copy of the shell (src/ast.rs:398-418)
    and yields what it wrote.  The child is abstracted by an oracle, given the
    commands substituted before and the command to run; its answer is the text
    read from the pipe, or [None] when one of the [unwrap]/[expect] of lines
    398-407 fails (no pipe, no process, interrupted wait, text that is not
    UTF-8).  A child that fills the pipe blocks both processes for ever, since
    the parent waits before it reads (lines 405-406); the oracle answers only
    for children that do not. *)
Definition ran := list complete_command.
(** See [ran]: src/ast.rs:398-418. *)
Definition oracle := ran -> complete_command -> option str.

(** src/ast.rs:200-205 [QuoteType]. *)
Inductive quote_type := QNone | QSingle | QDouble.

(** The loop of src/ast.rs:218-242; [None] is a slicing panic. *)
Fixpoint split_loop (input : str) (cs : list (nat * char)) (q : quote_type) (start : nat)
    (splits : list str) : option (nat * list str) :=
  match cs with
  | [] => Some (start, splits)
  | (i, c) :: cs' =>
      match q with
      | QNone =>
          if N.eqb c (ch "'") then split_loop input cs' QSingle start splits
          else if N.eqb c (ch """") then split_loop input cs' QDouble start splits
          else if is_whitespace c then
            match slice input start i with
            | Some w => split_loop input cs' QNone (i + 1) (splits ++ [w])
            | None => None
            end
          else split_loop input cs' QNone start splits
      | QSingle => split_loop input cs' (if N.eqb c (ch "'") then QNone else QSingle) start splits
      | QDouble => split_loop input cs' (if N.eqb c (ch """") then QNone else QDouble) start splits
      end
  end.

(** src/ast.rs:212-248 [split_whitespace_ig_qts]. *)
Definition split_whitespace_ig_qts (s : str) : option (list str) :=
  match split_loop s (char_indices s) QNone 0 [] with
  | None => None
  | Some (start, splits) =>
      if start <? blen s then
        match slice s start (blen s) with
        | Some w => Some (splits ++ [w])
        | None => None
        end
      else Some splits
  end.

(** src/ast.rs:253-279 [alias_lookup]; [None] is the panic of [lookup_alias]. *)
Definition alias_lookup (al : aliases) (sc : simple_command) : option simple_command :=
  match lookup_alias (sc_name sc) al with
  | None => None
  | Some None => Some sc
  | Some (Some (name, args_opt)) =>
      let args := match args_opt with Some a => a | None => [] end in
      Some (SimpleCommand (sc_prefix sc) name
              (Some match sc_suffix sc with
                    | Some s => Suffix (s_redirect s) (word_list s ++ args)
                    | None => Suffix [] args
                    end))
  end.

(** src/shell.rs:300-309 [expand_variable]. *)
Definition expand_var (m : cmgr) (x : str) : option str :=
  match get_var x m with Some v => Some (value v) | None => None end.

(** The body of the loop of src/ast.rs:284-299; [None] is the panic of the
    second [split.next().unwrap()]. *)
Definition expand_assignment (m : cmgr) (w : str) : option str :=
  if contains_str (lit "$") w then
    match split_char (ch "=") w with
    | var :: val :: _ =>
        let val := match expand_var m val with Some e => e | None => val end in
        Some (var ++ lit "=" ++ val)
    | _ => None
    end
  else Some w.

(** src/ast.rs:302-311 and the body of the loop of lines 315-326. *)
Definition expand_word (m : cmgr) (w : str) : str :=
  if starts_with (lit "$") w
  then match expand_var m (tl w) with Some e => e | None => w end
  else w.

(** The loop of src/ast.rs:282-300. *)
Fixpoint expand_assignments (m : cmgr) (ws : list str) : option (list str) :=
  match ws with
  | [] => Some []
  | w :: ws' =>
      match expand_assignment m w with
      | None => None
      | Some e => match expand_assignments m ws' with
                  | None => None
                  | Some es => Some (e :: es)
                  end
      end
  end.

(** src/ast.rs:281-338 [expand_vars]. *)
Definition expand_vars (m : cmgr) (sc : simple_command) : option simple_command :=
  match match sc_prefix sc with
        | None => Some None
        | Some p => match expand_assignments m (assignment p) with
                    | Some a => Some (Some (Prefix (p_redirect p) a))
                    | None => None
                    end
        end with
  | None => None
  | Some pre =>
      Some (SimpleCommand pre (expand_word m (sc_name sc))
              match sc_suffix sc with
              | None => None
              | Some s => Some (Suffix (s_redirect s) (map (expand_word m) (word_list s)))
              end)
  end.

(** [while let Some(c) = chars.next() { push c; if c == closer { break } }]
    (src/ast.rs:349-355, 362-368): the text up to and including [closer], and
    what is left. *)
Fixpoint take_through (closer : char) (cs : str) : str * str :=
  match cs with
  | [] => ([], [])
  | c :: cs' =>
      if N.eqb c closer then ([c], cs')
      else let (a, b) := take_through closer cs' in (c :: a, b)
  end.

(** src/ast.rs:341-372 [create_subshell]: the text collected and the characters
    left; [None] is [panic!("Unexpected EOF")].  A character after [$] that is
    not an opening parenthesis is consumed and lost. *)
Definition create_subshell (chr : char) (cs : str) : option (str * str) :=
  if N.eqb chr (ch "$") then
    match cs with
    | [] => None
    | c :: cs' =>
        if N.eqb c (ch "(")
        then let (a, b) := take_through (ch ")") cs' in Some (chr :: c :: a, b)
        else Some ([chr], cs')
    end
  else let (a, b) := take_through (ch "`") cs in Some (chr :: a, b).

(** src/ast.rs:391-418: parse and run a command, collect and trim its output.
    [None]: the parse error or a system error is unwrapped. *)
Definition run_subshell (out : oracle) (log : ran) (text : str) : option (str * ran) :=
  match parse text with
  | None => None
  | Some ast =>
      match out log ast with
      | None => None
      | Some buf => Some (str_trim buf, log ++ [ast])
      end
  end.

(** src/ast.rs:374-419 [eval_subshell]. *)
Definition eval_subshell (out : oracle) (log : ran) (s : str) : option (str * ran) :=
  if starts_with (lit "$(") s then run_subshell out log (removelast (skipn 2 s))
  else if starts_with (lit "`") s then run_subshell out log (drop_ends s)
  else Some (s, log).

(** The loop of src/ast.rs:563-573.  Each turn consumes at least one character,
    so [n = length cs] turns suffice. *)
Fixpoint cut_loop (out : oracle) (n : nat) (log : ran) (cs new_word : str) : option (str * ran) :=
  match n, cs with
  | S n', c :: cs' =>
      if N.eqb c (ch "$") || N.eqb c (ch "`") then
        match create_subshell c cs' with
        | None => None
        | Some (sub, rest) =>
            match eval_subshell out log sub with
            | None => None
            | Some (o, log') => cut_loop out n' log' rest (new_word ++ o)
            end
        end
      else cut_loop out n' log cs' (new_word ++ [c])
  | _, _ => Some (new_word, log)
  end.

(** src/ast.rs:552-580 [cut_quotes]. *)
Definition cut_quotes (out : oracle) (log : ran) (w : str) : option (str * ran) :=
  let body := drop_ends w in
  if starts_with (lit """") w then cut_loop out (List.length body) log body []
  else Some (body, log).

(** src/ast.rs:627-644 [eval_double_quotes]. *)
Definition eval_double_quotes (out : oracle) (log : ran) (w : str) : option (list str * ran) :=
  match cut_quotes out log w with
  | None => None
  | Some (nw, log1) =>
      if negb (contains_str (lit "$(") w) && negb (contains_str (lit "`") w) then Some ([nw], log1)
      else match eval_subshell out log1 nw with
           | None => None
           | Some (e, log2) =>
               if contains_str (lit " ") e then Some (split_whitespace e, log2) else Some ([e], log2)
           end
  end.

(** The body of the loop of src/ast.rs:590-597. *)
Definition eval_name_piece (out : oracle) (log : ran) (w : str) : option (list str * ran) :=
  if starts_with (lit """") w then eval_double_quotes out log w else Some ([w], log).

(** The body of the loop of src/ast.rs:609-621. *)
Definition eval_word (out : oracle) (log : ran) (w : str) : option (list str * ran) :=
  if starts_with (lit """") w then eval_double_quotes out log w
  else if starts_with (lit "'") w then
    match cut_quotes out log w with Some (nw, log') => Some ([nw], log') | None => None end
  else Some ([w], log).

(** A loop that appends what each word becomes. The loops of
    src/ast.rs:590-620. *)
Fixpoint append_all (f : ran -> str -> option (list str * ran)) (log : ran) (ws : list str)
  : option (list str * ran) :=
  match ws with
  | [] => Some ([], log)
  | w :: ws' =>
      match f log w with
      | None => None
      | Some (vs, log1) =>
          match append_all f log1 ws' with
          | None => None
          | Some (vs', log2) => Some (vs ++ vs', log2)
          end
      end
  end.

(** src/ast.rs:582-625 [eval]; besides the panics above, [words.remove(0)]
    panics when there is no word. *)
Definition eval_words (out : oracle) (log : ran) (sc : simple_command) : option (simple_command * ran) :=
  if str_eqb (sc_name sc) [] then Some (sc, log) else
  match (if starts_with (lit "'") (sc_name sc) then cut_quotes out log (sc_name sc)
         else Some (sc_name sc, log)) with
  | None => None
  | Some (name, log0) =>
      match split_whitespace_ig_qts name with
      | None => None
      | Some pieces =>
          match append_all (eval_name_piece out) log0 pieces with
          | None => None
          | Some ([], _) => None
          | Some (n :: words, log1) =>
              match sc_suffix sc with
              | None => Some (SimpleCommand (sc_prefix sc) n (Some (Suffix [] words)), log1)
              | Some (Suffix _ []) => Some (SimpleCommand (sc_prefix sc) n (Some (Suffix [] words)), log1)
              | Some (Suffix rs ws) =>
                  match append_all (eval_word out) log1 ws with
                  | None => None
                  | Some (ws', log2) =>
                      Some (SimpleCommand (sc_prefix sc) n (Some (Suffix rs (words ++ ws'))), log2)
                  end
              end
          end
      end
  end.

(** src/eval.rs:354-356 and 468-470: the three steps applied to every command. *)
Definition expand (out : oracle) (al : aliases) (m : cmgr) (log : ran) (sc : simple_command)
  : option (simple_command * ran) :=
  match alias_lookup al sc with
  | None => None
  | Some sc1 =>
      match expand_vars m sc1 with
      | None => None
      | Some sc2 => eval_words out log sc2
      end
  end.

(** src/ast.rs:736-747 [argv]; [None] is the panic of [CString::new(..).unwrap()]
    on a NUL character. *)
Definition argv (sc : simple_command) : option (list str) :=
  let ws := sc_name sc :: match sc_suffix sc with Some s => word_list s | None => [] end in
  if existsb (contains_char 0%N) ws then None else Some ws.
