(** Vocabulary for pipelines, redirections and the processes that are started. *)
From Verif Require Import Base BaseFacts Ast Parser Context Alias Expand ExpandSpec Jobs Shell Builtins Eval.
Local Open Scope Z_scope.

(** ** Descriptor tables *)

(** The descriptors of a process: each at most once, none negative. *)
Definition table (t : fdtable) : Prop := nsorted t /\ forall fd d, nget fd t = Some d -> 0 <= fd.

(** No descriptor refers to a pipe that is yet to be made. *)
Definition no_future_pipe (t : fdtable) (n : Z) : Prop :=
  forall fd d k, nget fd t = Some d -> d_obj d = PipeR k \/ d_obj d = PipeW k -> k < n.

(** What the [k]-th of [len] commands of a pipeline should have open before its
    own redirections, when the shell has [t] and [n] pipes have been made: its
    standard input comes from the pipe before it and its standard output goes to
    the pipe after it; everything else is as in the shell. *)
Definition piped (t : fdtable) (n : Z) (len k : nat) (fd : Z) : option desc :=
  if Z.eqb fd 0 then
    match k with O => nget fd t | S k' => Some (Desc (PipeR (n + Z.of_nat k')) false) end
  else if Z.eqb fd 1 then
    if Nat.eqb (S k) len then nget fd t else Some (Desc (PipeW (n + Z.of_nat k)) false)
  else nget fd t.

(** The processes started, in order: the parent's image at the fork, what the
    child was to do, and the process id. *)
Definition forks (t : list event) : list (image * child * option positive) :=
  rev (flat_map (fun e => match e with EFork i c r => [(i, c, r)] | _ => [] end) t).

(** What survives execve(2). *)
Definition kept (d : option desc) : option desc :=
  match d with Some d' => if d_cloexec d' then None else Some d' | None => None end.

(** ** Redirections *)

Definition is_input (r : io_redirect) : bool := match redirect r with RInput => true | _ => false end.

(** How the file of a redirection is opened. *)
Definition opens_as (r : io_redirect) : how :=
  match redirect r with
  | RInput => How true false false false false
  | ROutput => How false true false true false
  | RAppend => How false true true true false
  end.

(** What a program should have open after the redirections [rs], when it would
    have [t] without them: the last [<] and the last [>] or [>>] count. *)
Definition redirected (rs : list io_redirect) (t : Z -> option desc) (fd : Z) : option desc :=
  if Z.eqb fd 0 then
    match find is_input (rev rs) with
    | Some r => Some (Desc (OpenFile (filename r) (opens_as r)) false)
    | None => t fd
    end
  else if Z.eqb fd 1 then
    match find (fun r => negb (is_input r)) (rev rs) with
    | Some r =>
        Some (Desc (OpenFile (filename r) (opens_as r)) false)
    | None => t fd
    end
  else t fd.

(** ** Commands that are programs *)

(** A command that is neither a builtin, nor an alias, nor a function, and the
    words it is run with.  (Without a word the redirections behind the name are
    lost, see C21.) *)
Inductive program (i : image) : simple_command -> simple_command -> Prop :=
| program_words p n rs ws vs :
    check_if_builtin n = false -> plain_name (al i) n -> is_function n (cm i) = false ->
    (forall q a, p = Some q -> In a (assignment q) -> ~ In (ch "$") a) ->
    ws <> [] -> Forall2 (ordinary (expand_var (cm i))) ws vs ->
    (forall c, In c (List.concat (n :: vs)) -> c <> 0%N) ->
    program i (SimpleCommand p n (Some (Suffix rs ws))) (SimpleCommand p n (Some (Suffix rs vs)))
| program_bare p n s :
    check_if_builtin n = false -> plain_name (al i) n -> is_function n (cm i) = false ->
    (forall q a, p = Some q -> In a (assignment q) -> ~ In (ch "$") a) ->
    match s with Some (Suffix _ (_ :: _)) => False | _ => True end ->
    ~ In 0%N n ->
    program i (SimpleCommand p n s) (SimpleCommand p n (Some (Suffix [] []))).

Definition words_in (sc : simple_command) : list str :=
  match sc_suffix sc with Some s => word_list s | None => [] end.
Definition assignments_in (sc : simple_command) : list str :=
  match sc_prefix sc with Some p => assignment p | None => [] end.
Definition redirections_in (sc : simple_command) : list io_redirect :=
  match sc_prefix sc with Some p => p_redirect p | None => [] end
  ++ match sc_suffix sc with Some s => s_redirect s | None => [] end.

(** The environment [e] with assignments [NAME=VALUE] added from left to right. *)
Inductive assigned : smap str -> list str -> smap str -> Prop :=
| assigned_nil e : assigned e [] e
| assigned_cons e k v rest ws e' :
    ~ In (ch "=") k -> ~ In (ch "=") v -> (rest = [] \/ begins (ch "=") rest) ->
    assigned (sinsert k v e) ws e' -> assigned e ((k ++ lit "=" ++ v ++ rest) :: ws) e'.

(** [NAME=VALUE] with a name and a value the environment can hold. *)
Definition assignable (a : str) : Prop :=
  exists k v rest, a = k ++ lit "=" ++ v ++ rest /\ ~ In (ch "=") k /\ ~ In (ch "=") v /\
    (rest = [] \/ begins (ch "=") rest) /\ k <> [] /\ ~ In 0%N k /\ ~ In 0%N v.
