(** Model of src/trap.rs:137-149 and 180-290 together with the kernel's set of
    signals that wait because they are blocked: what becomes of a signal that is
    sent to the shell while the shell has signals blocked.

    Simplified: a signal arrives between the steps of the shell and not while a
    handler runs; signals of the same kind that wait are one (as the kernel has
    it); what the handler of SIGCHLD does with the jobs is left out (Jobs.v). *)
From Verif Require Import Base Jobs Trap.

(** The process: the globals of src/trap.rs:29-43 with the kernel's tables
    ([Trap.trap_state]), the signals that wait, and those the process has got so
    far (with [writable] of src/trap.rs:208), first to last. *)
Record process := Process {
  signals : trap_state;
  held : signal -> bool;
  heard : list (bool * signal)
}.
(** How things stand after a step: the process goes on, a signal has ended it
    (the default action), or it has crashed (src/trap.rs:208). *)
Inductive standing := Lives (p : process) | Dies (s : signal) | Crashes.

(** A signal is delivered: src/trap.rs:180-278, or the default action.  A process
    that is stopped goes on when it is continued. *)
Definition take (w : bool) (s : signal) (p : process) : standing :=
  match deliver w s (signals p) with
  | Goes t | Halted t => Lives (Process t (held p) (heard p ++ [(w, s)]))
  | Killed k => Dies k
  | Panicked => Crashes
  end.
(** The kernel delivers those signals of a list that wait, as after
    src/trap.rs:148 and 295. *)
Fixpoint let_in (w : bool) (order : list signal) (p : process) : standing :=
  match order with
  | [] => Lives p
  | s :: order' =>
      if held p s then
        match take w s (Process (signals p) (upd (held p) s false) (heard p)) with
        | Lives p' => let_in w order' p'
        | x => x
        end
      else let_in w order' p
  end.
(** A signal is sent to the shell.  The handler of SIGINT clears the mask
    (src/trap.rs:281-296), so that the signals that wait come in while it runs;
    when it returns the mask is what it was.  The kernel chooses [order]. *)
Definition send (w : bool) (s : signal) (order : list signal) (p : process) : standing :=
  if masked (signals p) s then Lives (Process (signals p) (upd (held p) s true) (heard p))
  else
    match take w s p with
    | Lives p' =>
        match s, actions (signals p) s with
        | SIGINT, OnSig => let_in w (order ++ all_signals) p'
        | _, _ => Lives p'
        end
    | x => x
    end.

(** What happens to the shell: src/trap.rs:137-145 and 147-149 are called, or a
    signal is sent. *)
Inductive happening :=
| Off
| On (w : bool) (order : list signal)
| Send (w : bool) (s : signal) (order : list signal).
(** One of them: src/trap.rs:137-149, or the kernel. *)
Definition step (e : happening) (p : process) : standing :=
  match e with
  | Off => Lives (Process (interrupts_off (signals p)) (held p) (heard p))
  | On w order => let_in w (order ++ all_signals) (Process (interrupts_on (signals p)) (held p) (heard p))
  | Send w s order => send w s order p
  end.
(** All of them, until the shell is gone.  The calls are those of src/eval.rs:123
    and 298, among others. *)
Fixpoint goes_through (h : list happening) (p : process) : standing :=
  match h with
  | [] => Lives p
  | e :: h' => match step e p with Lives p' => goes_through h' p' | x => x end
  end.
