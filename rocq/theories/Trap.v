(** Model of src/trap.rs: which signals the shell catches, ignores or leaves
    alone, and what its handler records.  What the handler does with the jobs
    (src/trap.rs:224-278) is in Jobs.v, and where it may interrupt the shell is
    in Borrow.v.

    Simplified: [TRAP_DATA] is not borrowed at the moment a signal arrives.
    [None] stands for a panic. *)
From Verif Require Import Base Jobs.
Local Open Scope Z_scope.

(** The signals of the type in Jobs.v, in numerical order. The numbers of
    src/trap.rs:133 and 309. *)
Definition all_signals : list signal :=
  [SIGHUP; SIGINT; SIGQUIT; SIGILL; SIGTRAP; SIGABRT; SIGBUS; SIGFPE;
   SIGKILL; SIGUSR1; SIGSEGV; SIGUSR2; SIGPIPE; SIGALRM; SIGTERM; SIGSTKFLT;
   SIGCHLD; SIGCONT; SIGSTOP; SIGTSTP; SIGTTIN; SIGTTOU; SIGURG; SIGXCPU;
   SIGXFSZ; SIGVTALRM; SIGPROF; SIGWINCH; SIGIO; SIGPWR; SIGSYS].

(** [Signal::try_from(n).unwrap()], src/trap.rs:133 and 309. *)
Definition try_from (n : Z) : option signal :=
  if n <=? 0 then None else nth_error all_signals (Z.to_nat (n - 1)).

(** [Signal] as a key of a [HashMap], src/trap.rs:78-80, by its number. *)
Definition signal_num (s : signal) : positive :=
  match s with
  | SIGHUP => 1 | SIGINT => 2 | SIGQUIT => 3 | SIGILL => 4 | SIGTRAP => 5 | SIGABRT => 6
  | SIGBUS => 7 | SIGFPE => 8 | SIGKILL => 9 | SIGUSR1 => 10 | SIGSEGV => 11 | SIGUSR2 => 12
  | SIGPIPE => 13 | SIGALRM => 14 | SIGTERM => 15 | SIGSTKFLT => 16 | SIGCHLD => 17
  | SIGCONT => 18 | SIGSTOP => 19 | SIGTSTP => 20 | SIGTTIN => 21 | SIGTTOU => 22
  | SIGURG => 23 | SIGXCPU => 24 | SIGXFSZ => 25 | SIGVTALRM => 26 | SIGPROF => 27
  | SIGWINCH => 28 | SIGIO => 29 | SIGPWR => 30 | SIGSYS => 31
  end.
(** [insert] into a [HashMap] or assignment to a place of a vector,
    src/trap.rs:76-85. *)
Definition upd {A} (f : signal -> A) (s : signal) (x : A) : signal -> A :=
  fun s' => if Pos.eqb (signal_num s) (signal_num s') then x else f s'.

(** src/trap.rs:18-27; [S_RESET] is not used. *)
Inductive mode := S_DFL | S_CATCH | S_IGN | S_HARD_IGN.
(** Comparison of the constants of src/trap.rs:18-27. *)
Definition mode_eqb (a b : mode) : bool :=
  match a, b with
  | S_DFL, S_DFL | S_CATCH, S_CATCH | S_IGN, S_IGN | S_HARD_IGN, S_HARD_IGN => true
  | _, _ => false
  end.

(** [nix::sys::signal::SigHandler]; the only handler is [on_sig]. Lines
    src/trap.rs:380-390. *)
Inductive disposition := SigDfl | SigIgn | OnSig.

(** The globals of src/trap.rs:29-43, the fields of [TrapData] (lines 76-85),
    and what the kernel keeps for the process.  [got] has 32 places in the code,
    one more than there are signals.  [SUPRESS_SIGINT] and [BLOCK_SIGNALS] are
    never set and left out. *)
Record trap_state := TrapState {
  traps : signal -> option str;           (* [traps] *)
  modes : signal -> option mode;          (* [signal_mode] *)
  got : signal -> bool;                   (* [got_sig] *)
  pending : option signal;                (* [pending_signal] *)
  got_chld : bool;                        (* [GOT_SIGCHLD] *)
  int_pending : bool;                     (* [SIGINT_PENDING] *)
  static_pending : option signal;         (* [PENDING_SIGNAL] *)
  actions : signal -> disposition;        (* the kernel's table *)
  masked : signal -> bool                 (* the kernel's signal mask *)
}.

(** [signal_mode], src/trap.rs:76-85. *)
Definition with_modes f t :=
  TrapState (traps t) f (got t) (pending t) (got_chld t) (int_pending t) (static_pending t) (actions t) (masked t).
(** [got_sig], src/trap.rs:76-85. *)
Definition with_got f t :=
  TrapState (traps t) (modes t) f (pending t) (got_chld t) (int_pending t) (static_pending t) (actions t) (masked t).
(** [pending_signal], src/trap.rs:76-85. *)
Definition with_pending p t :=
  TrapState (traps t) (modes t) (got t) p (got_chld t) (int_pending t) (static_pending t) (actions t) (masked t).
(** [GOT_SIGCHLD], src/trap.rs:30. *)
Definition with_chld b t :=
  TrapState (traps t) (modes t) (got t) (pending t) b (int_pending t) (static_pending t) (actions t) (masked t).
(** [SIGINT_PENDING], src/trap.rs:29-43. *)
Definition with_int b t :=
  TrapState (traps t) (modes t) (got t) (pending t) (got_chld t) b (static_pending t) (actions t) (masked t).
(** The kernel's table, changed at src/trap.rs:357 and 403. *)
Definition with_actions f t :=
  TrapState (traps t) (modes t) (got t) (pending t) (got_chld t) (int_pending t) (static_pending t) f (masked t).
(** The kernel's mask, changed at src/trap.rs:137-149. *)
Definition with_masked f t :=
  TrapState (traps t) (modes t) (got t) (pending t) (got_chld t) (int_pending t) (static_pending t) (actions t) f.

(** The state of a new process: src/trap.rs:30-38 and 89-96, the dispositions
    inherited from the parent, and SIGPIPE ignored, which Rust's runtime does
    before [main]. *)
Definition initial (inherited : signal -> disposition) : trap_state :=
  TrapState (fun _ => None) (fun _ => None) (fun _ => false) None false false None
    (upd inherited SIGPIPE SigIgn) (fun _ => false).

(** src/trap.rs:101-111. *)
Definition is_trap_set (s : signal) (t : trap_state) : bool :=
  match traps t s with Some _ => true | None => false end.

(** [signal::sigaction(...).unwrap()]: the kernel refuses SIGKILL and SIGSTOP.
    Lines src/trap.rs:357 and 403. *)
Definition sigaction (s : signal) (d : disposition) (t : trap_state) : option trap_state :=
  match s with
  | SIGKILL | SIGSTOP => None
  | _ => Some (with_actions (upd (actions t) s d) t)
  end.

(** src/trap.rs:137-149 and 414-417 [interrupts_off], [interrupts_on],
    [sig_clear_mask].  The kernel never blocks SIGKILL and SIGSTOP. *)
Definition interrupts_off (t : trap_state) : trap_state :=
  with_masked (fun s => match s with SIGINT | SIGTSTP | SIGKILL | SIGSTOP => false | _ => true end) t.
(** src/trap.rs:147-149 [interrupts_on]. *)
Definition interrupts_on (t : trap_state) : trap_state := with_masked (fun _ => false) t.

(** src/trap.rs:158-174. *)
Definition set_got_sigchld (b : bool) (t : trap_state) : trap_state := with_chld b t.
(** src/trap.rs:158-174 [get_pending_signal]. *)
Definition get_pending_signal (t : trap_state) : option signal := static_pending t.

(** src/trap.rs:317-347: what is to be done with a signal. *)
Definition action_for (forked : bool) (s : signal) (t : trap_state) : mode :=
  let action := if is_trap_set s t then S_CATCH else S_DFL in
  let action :=
    if mode_eqb action S_DFL && negb forked then
      match s with
      | SIGINT | SIGTSTP => S_CATCH
      | SIGQUIT | SIGTERM => S_IGN
      | SIGTTOU => S_IGN
      | _ => action
      end
    else action in
  match s with SIGCHLD => S_CATCH | _ => action end.

(** src/trap.rs:380-390. *)
Definition handler_for (m : mode) : disposition :=
  match m with S_CATCH => OnSig | S_IGN => SigIgn | _ => SigDfl end.

(** src/trap.rs:305-405 [set_signal]. *)
Definition set_signal (forked : bool) (n : Z) (t : trap_state) : option trap_state :=
  match try_from n with
  | None => None
  | Some s =>
      let action := action_for forked s t in
      let done :=
        match modes t s with
        | Some m => mode_eqb m S_HARD_IGN || mode_eqb m action
        | None => false
        end in
      if done then Some t
      else
        let t := if forked then t else with_modes (upd (modes t) s (Some action)) t in
        sigaction s (handler_for action) t
  end.

(** src/trap.rs:180-218 [on_sig], without the work on the jobs of line 191;
    [writable]: whether [write(0, "\n")] succeeds, line 208.  The change of the
    mask in [on_sigint] (lines 281-290) is undone when the handler returns; what
    it lets through until then is in Async.v. *)
Definition on_sig (writable forked : bool) (s : signal) (t : trap_state) : option trap_state :=
  if forked then Some t
  else
    let t1 := match s with SIGCHLD => with_chld true t | _ => t end in
    match s, is_trap_set SIGCHLD t1 with
    | SIGCHLD, false => Some t1
    | _, _ =>
        let t2 := with_pending (Some s) (with_got (upd (got t1) s true) t1) in
        match s, is_trap_set SIGINT t2 with
        | SIGINT, false => if writable then Some (with_int true (with_int false t2)) else None
        | _, _ => Some t2
        end
    end.

(** src/trap.rs:441-462 [remove_handlers]. *)
Definition remove_handlers (t : trap_state) : option trap_state :=
  fold_left (fun r s => match r with Some t' => sigaction s SigDfl t' | None => None end)
    [SIGINT; SIGQUIT; SIGTERM; SIGTSTP; SIGTTIN; SIGTTOU; SIGCHLD] (Some (with_masked (fun _ => false) t)).

(** src/main.rs:71-73, what an interactive shell sets up. *)
Definition set_up (t : trap_state) : option trap_state :=
  match set_signal false 17 t with
  | None => None
  | Some t1 =>
      match set_signal false 20 t1 with
      | None => None
      | Some t2 => set_signal false 2 t2
      end
  end.

(** The kernel's default action, signal(7). It has no counterpart in src/. *)
Inductive default := Kill | Ignore | Stop.
(** signal(7); it has no counterpart in src/. *)
Definition default_action (s : signal) : default :=
  match s with
  | SIGCHLD | SIGURG | SIGWINCH | SIGCONT => Ignore
  | SIGSTOP | SIGTSTP | SIGTTIN | SIGTTOU => Stop
  | _ => Kill
  end.

(** What a signal that arrives does to the shell. What the set-up of
    src/trap.rs:305-410 leads to. *)
Inductive fate := Goes (t : trap_state) | Killed (s : signal) | Halted (t : trap_state) | Panicked.

(** The kernel's delivery of a signal that is not blocked. [on_sig] is
    src/trap.rs:180-278. *)
Definition deliver (writable : bool) (s : signal) (t : trap_state) : fate :=
  match actions t s with
  | OnSig => match on_sig writable false s t with Some t' => Goes t' | None => Panicked end
  | SigIgn => Goes t
  | SigDfl =>
      match default_action s with Kill => Killed s | Ignore => Goes t | Stop => Halted t end
  end.

(** The kernel's execve(2): signals that are caught get their default back,
    ignored ones stay ignored, the mask stays. As after src/eval.rs:639 and 669.
    *)
Definition execve (t : trap_state) : signal -> disposition :=
  fun s => match actions t s with OnSig => SigDfl | d => d end.
