(** Model of command substitution, src/ast.rs:369-420: the pipe, the forked copy
    of the shell that runs the commands, and the shell that waits for it.

    Expand.v takes the text read from the pipe from an oracle and says nothing
    about the two processes; here they are spelled out.  Simplifications: what
    programs write is not modelled (only who has which descriptor); in the
    transitions at the end one process writes, and bytes are not split into
    characters. *)
From Verif Require Import Base Ast Parser Context Alias Expand Jobs Shell Builtins Eval.
Local Open Scope Z_scope.

(** [pipe().unwrap()], src/ast.rs:398. *)
Definition subst_pipe (w : os) : M (Z * Z) :=
  r <- catch (make_pipe w) ;;
  match r with
  | inl p => ret p
  | inr _ => stop OPanic
  end.

(** src/ast.rs:400-410, the shell: [fork().expect(..)], the write end is closed,
    then [waitpid], [read_to_string] (together the oracle), the read end is
    closed; the [File] of line 404 owns the same descriptor and closes it again
    when it is dropped, which fails unnoticed (in a build with debug assertions
    newer versions of the standard library abort instead). *)
Definition subst_parent (w : os) (log : ran) (p : Z * Z) (c : complete_command) : M str :=
  r <- ask w r_fork ;;
  match r with
  | None => stop OPanic
  | Some _ =>
      sys_close (snd p) ;;
      t <- ask w (fun a => r_subst a log c) ;;
      t <- unwrap t ;;
      sys_close (fst p) ;;
      sys_close_ignored (fst p) ;;
      ret (str_trim t)
  end.

(** src/ast.rs:398-410 in the shell. *)
Definition substitute (w : os) (log : ran) (c : complete_command) : M str :=
  p <- subst_pipe w ;;
  subst_parent w log p c.

(** src/ast.rs:412-416: the copy of the shell makes the pipe its standard output
    and standard error, runs the commands and ends with status 0, whatever they
    return.  Unlike src/eval.rs:613 it does not note that it is a copy. *)
Definition subst_child (w : os) (n : nat) (p : Z * Z) (c : complete_command) : M unit :=
  sys_dup2 (snd p) 1 ;;
  sys_dup2 (snd p) 2 ;;
  sys_close (snd p) ;;
  sys_close (fst p) ;;
  catch (eval w n c) ;;
  stop (OExit 0).

(** What that copy does, started from the image of the shell (src/ast.rs:412). *)
Definition run_subst (w : os) (n : nat) (i : image) (p : Z * Z) (c : complete_command) : out unit * shell :=
  subst_child w n p c (Shell i []).

(** ** The pipe between the two processes *)

(** Where the shell is: in [waitpid] (src/ast.rs:405), in [read_to_string]
    (line 406), past it. *)
Inductive reader := Waiting | Reading | Finished.

(** What the commands have still to write, what is in the pipe, whether the copy
    has ended, where the shell is and what it has read (src/ast.rs:400-418). *)
Record flow := Flow { to_write : list N; in_pipe : list N; ended : bool; at_ : reader; got : list N }.

(** The state after the fork (src/ast.rs:400). *)
Definition flow_start (bytes : list N) : flow := Flow bytes [] false Waiting [].

(** One step of either process; the pipe holds [cap] bytes.  The copy writes some
    bytes when there is room for them, and ends when it has written all (line
    417); the shell leaves [waitpid] when the copy has ended (line 405), then
    takes bytes out of the pipe and is done when the pipe is empty and nobody can
    write to it (line 406). *)
Inductive flow_step (cap : nat) : flow -> flow -> Prop :=
| f_write a b p r g : a <> [] -> (List.length p + List.length a <= cap)%nat ->
    flow_step cap (Flow (a ++ b) p false r g) (Flow b (p ++ a) false r g)
| f_end p r g : flow_step cap (Flow [] p false r g) (Flow [] p true r g)
| f_waited t p g : flow_step cap (Flow t p true Waiting g) (Flow t p true Reading g)
| f_read t a p e g : a <> [] -> flow_step cap (Flow t (a ++ p) e Reading g) (Flow t p e Reading (g ++ a))
| f_done t g : flow_step cap (Flow t [] true Reading g) (Flow t [] true Finished g).

(** Any number of steps of src/ast.rs:400-418. *)
Inductive flow_steps (cap : nat) : flow -> flow -> Prop :=
| fs_refl f : flow_steps cap f f
| fs_step f g h : flow_steps cap f g -> flow_step cap g h -> flow_steps cap f h.
