(** Model of the alias table of src/shell.rs. *)
From Verif Require Import Base.

(** src/shell.rs:88 [aliases: HashMap<String, String>]. *)
Definition aliases := smap str.

(** src/shell.rs:385-392 [add_alias] for [&str] (the only variant that is
    called, src/builtins.rs:222).  The message "Invalid alias" is not modelled. *)
Definition add_alias (input : str) (al : aliases) : aliases :=
  match split_char (ch "=") input with
  | [n; v] => sinsert n (trim_quotes v) al
  | _ => al
  end.

(** src/shell.rs:173-188 [lookup_alias].  The outer [None] is the panic of
    [args.next().unwrap()] on an alias text with no word in it. *)
Definition lookup_alias (command : str) (al : aliases) : option (option (str * option (list str))) :=
  match sget command al with
  | None => Some None
  | Some text =>
      match split_whitespace text with
      | [] => None
      | c :: args => Some (Some (c, match args with [] => None | _ => Some args end))
      end
  end.

(** src/shell.rs:432-435 [remove_alias] and 426-429 [clear_aliases]. *)
Definition remove_alias (n : str) (al : aliases) : aliases := sremove n al.
(** src/shell.rs:426-429 [clear_aliases]. *)
Definition clear_aliases (al : aliases) : aliases := [].

(** The table part of src/builtins.rs:208-226 [alias], given the (expanded)
    suffix words; the suffix is always present after src/ast.rs:582 [eval].
    The outer [None] is the panic of [word[0]].  The listing printed by
    [display_aliases] is not modelled. *)
Definition alias_builtin (words : list str) (al : aliases) : option aliases :=
  match words with
  | [] => None
  | w0 :: _ =>
      if contains_str (lit "-p") w0 then Some al
      else Some (fold_left (fun al w => if contains_char (ch "=") w then add_alias w al else al) words al)
  end.

(** src/builtins.rs:232-245 [unalias].  [None] is the panic of [word[0]],
    [Some (false, _)] the error "unalias only takes one argument". *)
Definition unalias_builtin (words : list str) (al : aliases) : option (bool * aliases) :=
  match words with
  | [] => None
  | [w] => Some (true, if contains_str (lit "-a") w then clear_aliases al else remove_alias w al)
  | _ => Some (false, al)
  end.
