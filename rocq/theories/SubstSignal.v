(** Signals during a command substitution, src/ast.rs:400-410: the shell of Subst.v
    with the signals of Trap.v.

    The shell waits with [waitpid(child, None).unwrap()] (src/ast.rs:405).  A signal
    that is caught ends that call with [EINTR], since handlers are set up without
    [SA_RESTART] (src/trap.rs:394-404); [read_to_string] (line 406) tries again.  The
    jobs, which the handler of SIGCHLD looks at, are left to Async.v. *)
From Verif Require Import Base Jobs Subst.
From Verif Require Trap.

(** The shell in the middle of a substitution, or what ended it.  src/ast.rs:400-410. *)
Inductive live := Live (t : Trap.trap_state) (f : flow) | Crashed | KilledBy (s : signal).

(** A signal arrives.  A blocked one is held back (src/trap.rs:137-145); a child
    that has ended is returned by [waitpid] all the same, so that a caught signal
    does harm only before (src/ast.rs:405). *)
Definition struck (writable : bool) (s : signal) (t : Trap.trap_state) (f : flow) : live :=
  if Trap.masked t s then Live t f
  else
    match Trap.deliver writable s t with
    | Trap.Panicked => Crashed
    | Trap.Killed s' => KilledBy s'
    | Trap.Halted t' => Live t' f
    | Trap.Goes t' =>
        match Trap.actions t s, at_ f, ended f with
        | Trap.OnSig, Waiting, false => Crashed
        | _, _, _ => Live t' f
        end
    end.

(** Steps of the two processes and signals of the kind [allowed], in any order.
    src/ast.rs:400-418. *)
Inductive live_steps (cap : nat) (writable : bool) (allowed : signal -> flow -> Prop) : live -> live -> Prop :=
| ls_refl x : live_steps cap writable allowed x x
| ls_flow x t f g : live_steps cap writable allowed x (Live t f) -> flow_step cap f g -> live_steps cap writable allowed x (Live t g)
| ls_signal x s t f : live_steps cap writable allowed x (Live t f) -> allowed s f ->
    live_steps cap writable allowed x (struck writable s t f).
