(** Model of src/completion.rs:62-127: completion of command names.

    Not modelled: the highlighting of lines 29-48 and what the line editor does
    with the candidates.  File names are texts; a name that is not UTF-8 is one
    of the entries that cannot be read. *)
From Verif Require Import Base.

(** A directory as [fs::read_dir] yields it (lines 108-114): [None] when it
    cannot be read; an entry is [None] when reading it fails or its name is not
    UTF-8. *)
Definition directory := option (list (option str)).

(** The loop of lines 112-123 over one directory; [None] is a panic (line 113
    or 114). *)
Fixpoint add_entries (line : str) (l : list (option str)) (entries : list str) : option (list str) :=
  match l with
  | [] => Some entries
  | None :: _ => None
  | Some name :: l' =>
      if negb (starts_with line name) then add_entries line l' entries
      else if existsb (str_eqb name) entries then add_entries line l' entries
      else add_entries line l' (entries ++ [name])
  end.

(** The loop of lines 107-124. *)
Fixpoint add_directories (fs : str -> directory) (line : str) (paths : list str) (entries : list str) : option (list str) :=
  match paths with
  | [] => Some entries
  | p :: paths' =>
      match fs p with
      | None => add_directories fs line paths' entries
      | Some l =>
          match add_entries line l entries with
          | None => None
          | Some entries' => add_directories fs line paths' entries'
          end
      end
  end.

(** src/completion.rs:99-127 [command_complete]; [path] is [PATH] in the process
    environment, [None] when it is not there or not UTF-8. *)
Definition command_complete (path : option str) (fs : str -> directory) (line : str) : option (list str) :=
  match path with
  | None => None
  | Some p => add_directories fs line (split_char (ch ":") p) []
  end.

(** [str::cmp]: the order of the bytes, which for UTF-8 is that of the
    characters. Used at src/completion.rs:79. *)
Fixpoint str_leb (a b : str) : bool :=
  match a, b with
  | [], _ => true
  | _ :: _, [] => false
  | x :: a', y :: b' => if N.eqb x y then str_leb a' b' else N.ltb x y
  end.
(** [Vec::sort_by] (line 79), a stable sort. *)
Fixpoint insert_sorted (a : str) (l : list str) : list str :=
  match l with
  | [] => [a]
  | b :: l' => if str_leb a b then a :: l else b :: insert_sorted a l'
  end.
(** [Vec::sort_by], src/completion.rs:79. *)
Definition sort (l : list str) : list str := fold_right insert_sorted [] l.

(** src/completion.rs:94-96 [complete], 76-81 [complete_cmd] and 83-87
    [complete_cmd_unsorted]: the position in the line the candidate replaces from,
    and the candidates (what is displayed and what is inserted are the same). *)
Definition complete (path : option str) (fs : str -> directory) (line : str) (pos : nat) : option (nat * list str) :=
  match command_complete path fs line with
  | None => None
  | Some matches => Some (O, sort matches)
  end.
