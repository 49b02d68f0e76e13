(** When the signal handler can run, and what it would find: the borrows of
    [SHELL] (src/shell.rs:47, a [RefCell]) and the signal mask.

    Simplified: only the borrows of [SHELL] itself, not those of the single jobs
    and of [TRAP_DATA]; the handler counts as one step, because it runs with all
    signals blocked (src/trap.rs:399).  It unblocks them when it deletes a job;
    what happens then is in Async.v. *)
From Verif Require Import Base.

(** The functions of src/shell.rs:412-692 that borrow [SHELL]. *)
Inductive call :=
| c_add_alias | c_lookup_alias | c_clear_aliases | c_remove_alias | c_display_aliases |
c_save_history | c_load_history | c_set_history_location | c_get_readline | c_create_job | c_get_job
| c_delete_job | c_display_jobs | c_get_current_job | c_get_job_table | c_set_current_job |
c_background_jobs | c_is_background_job | c_update_pid_table | c_lookup_command | c_is_interactive |
c_set_interactive | c_set_script_name | c_get_script_name | c_set_input_args | c_push_context |
c_push_context_new | c_pop_context | c_add_context | c_remove_context | c_get_current_context |
c_get_env_context | c_add_var | c_add_readonly_var | c_set_readonly_var | c_remove_var |
c_add_var_context | c_expand_var | c_print_readonly_vars | c_print_readonly_vars_context |
c_set_arg_0 | c_add_function | c_is_function | c_get_function | c_remove_function |
c_print_readonly_functions.

(** How [SHELL] is borrowed: [borrow] or [borrow_mut], in the line after the
    head of each function. *)
Inductive access := Shared | Exclusive.
(** src/shell.rs:412-692, function by function. *)
Definition access_of (c : call) : access :=
  match c with
    | c_lookup_alias | c_display_aliases | c_save_history | c_load_history | c_get_readline |
  c_get_job | c_display_jobs | c_get_current_job | c_background_jobs | c_is_background_job |
  c_lookup_command | c_is_interactive | c_get_script_name | c_get_current_context |
  c_get_env_context | c_print_readonly_vars | c_print_readonly_vars_context | c_is_function |
  c_get_function | c_print_readonly_functions => Shared
  | _ => Exclusive
  end.

(** What happens one after the other. The parts of a function of
    src/shell.rs:412-692. *)
Inductive step :=
| Block                   (* src/trap.rs:137-145 [interrupts_off] *)
| Unblock                 (* src/trap.rs:147-149 [interrupts_on] *)
| Take (a : access)       (* [SHELL.get().borrow()] or [borrow_mut()] *)
| Work                    (* the rest of the function *)
| Drop (a : access).      (* the end of the function *)

(** src/shell.rs:488-496 for [delete_job]; the other functions borrow, work, and
    give the borrow back. *)
Definition steps_of (c : call) : list step :=
  match c with
  | c_delete_job => [Block; Take Exclusive; Work; Unblock; Drop Exclusive]
  | _ => [Take (access_of c); Work; Drop (access_of c)]
  end.

(** The borrow flag of the [RefCell] of src/shell.rs:47 and the signal mask.
    *)
Record bst := Bst {
  blocked : bool;         (* the signal is blocked *)
  shared : nat;           (* the number of shared borrows *)
  exclusive : bool        (* whether there is a mutable one *)
}.

(** One step; [None] is the panic of a [RefCell]. src/shell.rs:47. *)
Definition do_step (x : step) (s : bst) : option bst :=
  match x with
  | Block => Some (Bst true (shared s) (exclusive s))
  | Unblock => Some (Bst false (shared s) (exclusive s))
  | Take Shared => if exclusive s then None else Some (Bst (blocked s) (S (shared s)) false)
  | Take Exclusive =>
      if exclusive s then None else match shared s with O => Some (Bst (blocked s) O true) | _ => None end
  | Work => Some s
  | Drop Shared => Some (Bst (blocked s) (pred (shared s)) (exclusive s))
  | Drop Exclusive => Some (Bst (blocked s) (shared s) false)
  end.

(** SIGCHLD (src/trap.rs:180-278, src/jobs.rs:404-433): the handler looks the
    job up ([get_job], line 255), and for the end of a background job ([ends])
    takes it out of the table ([delete_job]).  The mask is restored when the
    handler returns. *)
Definition handler (ends : bool) (s : bst) : option bst :=
  match do_step (Take Shared) s with
  | None => None
  | Some _ =>
      if ends then match do_step (Take Exclusive) s with None => None | Some _ => Some s end
      else Some s
  end.

(** A run: before each step a signal may arrive ([Some ends]); a blocked
    signal waits. The handler is src/trap.rs:180-278. *)
Definition arrives (e : option bool) (s : bst) : option bst :=
  match e with
  | Some ends => if blocked s then Some s else handler ends s
  | None => Some s
  end.
(** The steps of functions of src/shell.rs:412-692, with signals in between.
    *)
Fixpoint run (xs : list step) (signals : list (option bool)) (s : bst) : option bst :=
  match xs with
  | [] => arrives (hd None signals) s
  | x :: xs' =>
      match arrives (hd None signals) s with
      | None => None
      | Some s1 =>
          match do_step x s1 with
          | None => None
          | Some s2 => run xs' (tl signals) s2
          end
      end
  end.
