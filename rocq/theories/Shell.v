(** The state of the whole shell process and the primitives the evaluator is
    written with.

    [image] is what a process owns and a forked child inherits; [trace] is the
    history of what the process has asked the operating system to do (newest
    first), which has no counterpart in the code and exists only so that
    theorems can talk about it.  What the operating system answers is a function
    of that history ([os]), so nothing is assumed about it beyond the types.

    Not modelled: the line editor and the history file, the fields of [Shell]
    that are never used (src/shell.rs:71-87), standard error, and a SIGCHLD
    handler interrupting the evaluator (its effect on the jobs is modelled in
    Jobs.v as an operation of its own). *)
From Verif Require Import Base Ast Parser Context Alias Expand Jobs.
Local Open Scope Z_scope.

(** ** Descriptors *)

(** The options of [OpenOptions] that src/eval.rs:397-419 and [File::open] use. *)
Record how := How { h_read : bool; h_write : bool; h_append : bool; h_create : bool; h_truncate : bool }.

(** What a descriptor refers to: an end of the [n]-th pipe made by the process
    and its ancestors, a file opened by the process, anything else.
    Descriptors are made at src/eval.rs:191 and 397-421. *)
Inductive object :=
| Other (n : Z)
| PipeR (n : Z)
| PipeW (n : Z)
| OpenFile (path : str) (h : how).

(** An open descriptor; [d_cloexec]: closed when a program is executed. Rust
    opens files that way (src/eval.rs:397-421); pipes (src/eval.rs:191) are
    not closed. *)
Record desc := Desc { d_obj : object; d_cloexec : bool }.
(** The descriptors that src/eval.rs:191-260 works on. *)
Definition fdtable := nmap desc.

(** The lowest descriptor from [k] on that is not open; the kernel hands out
    that one. For src/eval.rs:191 and 397-421. *)
Fixpoint lowest_from (k : Z) (t : fdtable) : Z :=
  match t with
  | [] => k
  | (k', _) :: t' => if Z.eqb k' k then lowest_from (k + 1) t' else if Z.ltb k' k then lowest_from k t' else k
  end.
(** The descriptor that open(2) and pipe(2) return (src/eval.rs:191 and
    397-421). *)
Definition lowest (t : fdtable) : Z := lowest_from 0 t.

(** dup2(2) and close(2); [None] is EBADF. [dup2 a a] changes nothing, not
    even the close-on-exec flag. Called at src/eval.rs:212-220, 254-257 and
    402-421. *)
Definition fd_dup2 (a b : Z) (t : fdtable) : option fdtable :=
  match nget a t with
  | None => None
  | Some d => Some (if Z.eqb a b then t else ninsert b (Desc (d_obj d) false) t)
  end.
(** close(2), src/eval.rs:212-220 and 254-257. *)
Definition fd_close (a : Z) (t : fdtable) : option fdtable :=
  match nget a t with
  | None => None
  | Some _ => Some (nremove a t)
  end.

(** The table a program sees after execv(2) (src/eval.rs:639) or execve(2)
    (src/eval.rs:669). *)
Definition after_exec (t : fdtable) : fdtable := filter (fun kd => negb (d_cloexec (snd kd))) t.

(** ** State *)

(** [cm], [al]: the context manager and the aliases (src/shell.rs:88,90);
    [js]: the jobs, the signal mask, GOT_SIGCHLD and standard output;
    [exit_status]: src/eval.rs:21; [forked]: src/shell.rs:26; [env]: the
    environment of the process; [fds]: its descriptors; [handlers]: the signal
    handlers installed by src/main.rs:71-73 are in place; [next_pipe]: the
    number the next pipe gets (bookkeeping, see [object]); [history_location]:
    src/shell.rs:87. *)
Record image := Image {
  cm : cmgr;
  al : aliases;
  js : jst;
  exit_status : Z;
  forked : bool;
  env : smap str;
  fds : fdtable;
  handlers : bool;
  next_pipe : Z;
  history_location : str
}.

(** What src/eval.rs:188-249 knows about the child it is about to fork. *)
Record child := Child {
  c_cmd : simple_command;
  c_proc : process;
  c_prev : Z;
  c_pipe : Z * Z;
  c_bg : bool
}.

(** Calls to the operating system. Made in src/eval.rs, src/builtins.rs,
    src/jobs.rs and src/ast.rs:398-418; each function that records one cites
    its lines. *)
Inductive event :=
| ESubst (i : image) (cs : ran)         (* command substitutions run, by copies of i *)
| EChdir (p : str)
| EOpen (p : str) (h : how)
| EPipe (n : Z)
| EFork (i : image) (c : child) (r : option positive)
| EWait (id : Z)
| EKill (p : pid)                       (* SIGCONT *)
| ESetpgid (p g : Z)
| EReset                                (* signal handlers removed *)
| ENamespace (ok : bool)                (* a file evaluated as a namespace *)
| ESave (p : str).                      (* the line editor asked to save the history in p *)

(** What the operating system reports at some moment. The answers to the calls
    of src/eval.rs, src/builtins.rs, src/jobs.rs:630 and src/ast.rs:398-418.
    *)
Record reports := Reports {
  r_isfile : str -> bool;
  r_open : str -> how -> bool;
  r_read : str -> option str;
  r_chdir : str -> bool;
  r_cwd : option str;
  r_kill : pid -> bool;
  r_pipe : bool;
  r_fork : option positive;
  r_exec : str -> list str -> bool;
  r_getpid : Z;
  r_waits : list answer;
  r_subst : oracle
}.
(** The operating system: its answers depend on what it was asked before.  It
    has no counterpart in src/. *)
Definition os := list event -> reports.

(** A process (src/shell.rs:62-91 and the globals named at [image]) with its
    history, which src/ does not have. *)
Record shell := Shell { im : image; trace : list event }.

(** ** Outcomes *)

(** Errors: a fixed text, an error of the system, a syntax error
    (src/builtins.rs:264,387,696), an error inside a file
    (src/builtins.rs:273) or a string (src/builtins.rs:395,704). *)
Inductive err := EText (t : str) | EOs | EParse | EFile (e : err) | EString (e : err).

(** [OExec]: the process image is replaced by a program; [OBlock]: a wait
    never returns; [OFuel]: the evaluation budget of the model ran out. [OOk]
    and [OErr] are the [Result] of src/eval.rs:45; the others have no value in
    Rust. *)
Inductive out (A : Type) :=
| OOk (a : A)
| OErr (e : err)
| OPanic
| OExit (code : Z)
| OExec (path : str) (argv : list str) (env : smap str)
| OBlock
| OFuel.
Arguments OOk {A} _.
Arguments OErr {A} _.
Arguments OPanic {A}.
Arguments OExit {A} _.
Arguments OExec {A} _ _ _.
Arguments OBlock {A}.
Arguments OFuel {A}.

(** An outcome that is not a normal return carries over to the caller. The [?]
    of src/eval.rs and src/builtins.rs, and unwinding. *)
Definition lift {A B} (o : out A) : out B :=
  match o with
  | OOk _ => OPanic                     (* not used on [OOk] *)
  | OErr e => OErr e
  | OPanic => OPanic
  | OExit c => OExit c
  | OExec p a v => OExec p a v
  | OBlock => OBlock
  | OFuel => OFuel
  end.

(** Code that may change the shell. The functions of src/eval.rs and
    src/builtins.rs have this type. *)
Definition M (A : Type) := shell -> out A * shell.
(** [Ok(a)], as at the end of the functions of src/builtins.rs. *)
Definition ret {A} (a : A) : M A := fun s => (OOk a, s).
(** [Err(..)], [panic!], [exit] (src/builtins.rs:77) or [execv]
    (src/eval.rs:639 and 669). *)
Definition stop {A} (o : out A) : M A := fun s => (o, s).
(** Sequencing with [?], as in src/eval.rs:60-69. *)
Definition bind {A B} (m : M A) (k : A -> M B) : M B :=
  fun s => match m s with
           | (OOk a, s') => k a s'
           | (o, s') => (lift o, s')
           end.
(** Sequencing with [?], as in src/eval.rs:60-69, without a result. *)
Definition seq {A B} (m : M A) (k : M B) : M B := bind m (fun _ => k).
Notation "x <- m ;; k" := (bind m (fun x => k)) (at level 61, m at next level, right associativity).
Notation "m ;; k" := (seq m k) (at level 61, right associativity).

(** A [Result] that is inspected or dropped instead of propagated. As at
    src/eval.rs:600, src/builtins.rs:273 and src/main.rs:230-236. *)
Definition catch {A} (m : M A) : M (A + err) :=
  fun s => match m s with
           | (OOk a, s') => (OOk (inl a), s')
           | (OErr e, s') => (OOk (inr e), s')
           | (o, s') => (lift o, s')
           end.

(** Reading and changing the process. The getters of src/shell.rs:412-692. *)
Definition look {A} (f : image -> A) : M A := fun s => (OOk (f (im s)), s).
(** The setters of src/shell.rs:412-692. *)
Definition change (f : image -> image) : M unit := fun s => (OOk tt, Shell (f (im s)) (trace s)).
(** An operation that panics on [None]. The setters of src/shell.rs:412-692
    with an [unwrap] inside. *)
Definition try_ (f : image -> option image) : M unit :=
  fun s => match f (im s) with
           | Some i => (OOk tt, Shell i (trace s))
           | None => (OPanic, s)
           end.
(** Bookkeeping: a call of the operating system is recorded.  Nothing in src/
    corresponds to it. *)
Definition note (e : event) : M unit := fun s => (OOk tt, Shell (im s) (e :: trace s)).
(** The answer of the operating system to a call of src/eval.rs,
    src/builtins.rs or src/jobs.rs. *)
Definition ask {A} (w : os) (f : reports -> A) : M A := fun s => (OOk (f (w (trace s))), s).
(** [Option::unwrap]. As at src/eval.rs:397-421. *)
Definition unwrap {A} (o : option A) : M A := match o with Some a => ret a | None => stop OPanic end.

(** Field updates. [context_manager], src/shell.rs:88-90. *)
Definition with_cm (x : cmgr) (i : image) : image :=
  Image x (al i) (js i) (exit_status i) (forked i) (env i) (fds i) (handlers i) (next_pipe i) (history_location i).
(** Field [aliases], src/shell.rs:88-90. *)
Definition with_al (x : aliases) (i : image) : image :=
  Image (cm i) x (js i) (exit_status i) (forked i) (env i) (fds i) (handlers i) (next_pipe i) (history_location i).
(** Field [job_control], src/shell.rs:62-91, with the mask and output. *)
Definition with_js (x : jst) (i : image) : image :=
  Image (cm i) (al i) x (exit_status i) (forked i) (env i) (fds i) (handlers i) (next_pipe i) (history_location i).
(** The global of src/eval.rs:21. *)
Definition with_exit (x : Z) (i : image) : image :=
  Image (cm i) (al i) (js i) x (forked i) (env i) (fds i) (handlers i) (next_pipe i) (history_location i).
(** The global of src/shell.rs:26. *)
Definition with_forked (x : bool) (i : image) : image :=
  Image (cm i) (al i) (js i) (exit_status i) x (env i) (fds i) (handlers i) (next_pipe i) (history_location i).
(** The environment, changed by [set_var] at src/eval.rs:386 and
    src/builtins.rs:356. *)
Definition with_env (x : smap str) (i : image) : image :=
  Image (cm i) (al i) (js i) (exit_status i) (forked i) x (fds i) (handlers i) (next_pipe i) (history_location i).
(** The descriptors, changed at src/eval.rs:191-260 and 391-428. *)
Definition with_fds (x : fdtable) (i : image) : image :=
  Image (cm i) (al i) (js i) (exit_status i) (forked i) (env i) x (handlers i) (next_pipe i) (history_location i).
(** The signal handlers, removed at src/trap.rs:441-462. *)
Definition with_handlers (x : bool) (i : image) : image :=
  Image (cm i) (al i) (js i) (exit_status i) (forked i) (env i) (fds i) x (next_pipe i) (history_location i).
(** Bookkeeping for the pipes of src/eval.rs:191. *)
Definition with_next_pipe (x : Z) (i : image) : image :=
  Image (cm i) (al i) (js i) (exit_status i) (forked i) (env i) (fds i) (handlers i) x (history_location i).
(** Field [history_location], src/shell.rs:87. *)
Definition with_history_location (x : str) (i : image) : image :=
  Image (cm i) (al i) (js i) (exit_status i) (forked i) (env i) (fds i) (handlers i) (next_pipe i) x.

(** src/trap.rs:137-145 [interrupts_off] and 147-149 [interrupts_on]. *)
Definition interrupts_off : M unit := change (fun i => with_js (with_masked true (js i)) i).
(** src/trap.rs:147-149 [interrupts_on]. *)
Definition interrupts_on : M unit := change (fun i => with_js (with_masked false (js i)) i).

(** src/eval.rs:30-34 [set_exit_status] and 36-40 [get_exit_code]. *)
Definition set_exit_status (c : Z) : M unit := change (with_exit c).
(** src/eval.rs:36-40 [get_exit_code]. *)
Definition get_exit_code : M Z := look exit_status.

(** [println!]/[print!]. As at src/builtins.rs:100, 164, 198, 293 and 407. *)
Definition say (t : str) : M unit := change (fun i => with_js (print t (js i)) i).

(** An operation of the context manager, or of the jobs. Functions of
    src/shell.rs:560-692 that cannot panic. *)
Definition on_cm (f : cmgr -> cmgr) : M unit := change (fun i => with_cm (f (cm i)) i).
(** Functions of src/shell.rs:560-692 that may panic. *)
Definition try_cm (f : cmgr -> option cmgr) : M unit :=
  try_ (fun i => match f (cm i) with Some m => Some (with_cm m i) | None => None end).
(** Functions of src/shell.rs:460-535. *)
Definition on_jobs (f : job_control -> job_control) : M unit :=
  change (fun i => with_js (with_jobs (f (jobs (js i))) (js i)) i).

(** src/shell.rs:488-496 [delete_job]. *)
Definition sh_delete_job (id : Z) : M unit := change (fun i => with_js (shell_delete_job id (js i)) i).

(** src/jobs.rs:442-464 [wait_for_job] with the answers the system gives. *)
Definition wait_job (w : os) (id : Z) : M wait_status :=
  fun s =>
    match wait_for_job (expand_var (cm (im s)) (lit "PS4")) id (r_waits (w (trace s))) (js (im s)) with
    | WDone st j _ => (OOk st, Shell (with_js j (im s)) (EWait id :: trace s))
    | WPanic => (OPanic, s)
    | WBlock => (OBlock, s)
    end.

(** [std::env::set_var]: panics on an empty name, an ['='] or a NUL in the
    name and a NUL in the value. Called at src/eval.rs:386 and
    src/builtins.rs:356. *)
Definition set_env (k v : str) : M unit :=
  try_ (fun i =>
    if str_eqb k [] || contains_char (ch "=") k || contains_char 0%N k || contains_char 0%N v then None
    else Some (with_env (sinsert k v (env i)) i)).

(** pipe(2): the read end gets the lowest free descriptor, the write end the
    next one.  A failure is the error of src/eval.rs:192-194. *)
Definition make_pipe (w : os) : M (Z * Z) :=
  ok <- ask w r_pipe ;;
  if ok : bool then
    fun s =>
      let t := fds (im s) in
      let n := next_pipe (im s) in
      let r := lowest t in
      let t1 := ninsert r (Desc (PipeR n) false) t in
      let v := lowest t1 in
      let t2 := ninsert v (Desc (PipeW n) false) t1 in
      (OOk (r, v), Shell (with_next_pipe (n + 1) (with_fds t2 (im s))) (EPipe n :: trace s))
  else stop (OErr (EText (lit "Failed to create pipe"))).

(** [dup2(..).unwrap()], [close(..).unwrap()], and the ignored [close] of
    src/eval.rs:257-260. *)
Definition sys_dup2 (a b : Z) : M unit :=
  try_ (fun i => match fd_dup2 a b (fds i) with Some t => Some (with_fds t i) | None => None end).
(** [close(..).unwrap()], src/eval.rs:212-220 and 254. *)
Definition sys_close (a : Z) : M unit :=
  try_ (fun i => match fd_close a (fds i) with Some t => Some (with_fds t i) | None => None end).
(** The [close] of src/eval.rs:257-260. *)
Definition sys_close_ignored (a : Z) : M unit :=
  change (fun i => match fd_close a (fds i) with Some t => with_fds t i | None => i end).

(** open(2) as Rust does it, with close-on-exec; [None] when it fails. Called
    at src/eval.rs:397-421, src/builtins.rs:256, 675-681 and src/main.rs:253.
    *)
Definition sys_open (w : os) (p : str) (h : how) : M (option Z) :=
  ok <- ask w (fun r => r_open r p h) ;;
  if ok : bool then
    fun s =>
      let t := fds (im s) in
      let f := lowest t in
      (OOk (Some f), Shell (with_fds (ninsert f (Desc (OpenFile p h) true) t) (im s)) (EOpen p h :: trace s))
  else ret None.

(** [File::open]. As at src/builtins.rs:256 and src/main.rs:253. *)
Definition for_reading : how := How true false false false false.

(** Code run while a file is open; the file is closed when it returns. The
    [File] of src/builtins.rs:256-280 and 674-710. *)
Definition while_open {A} (f : Z) (m : M A) : M A :=
  r <- catch m ;;
  sys_close_ignored f ;;
  match r with inl a => ret a | inr e => stop (OErr e) end.

(** The expansion of a command (Expand.v); substitutions are recorded. The
    calls of src/eval.rs:333-368 and 452-482. *)
Definition expand_command (w : os) (sc : simple_command) : M simple_command :=
  fun s =>
    match expand (r_subst (w (trace s))) (al (im s)) (cm (im s)) [] sc with
    | None => (OPanic, s)
    | Some (sc', log) => (OOk sc', Shell (im s) (match log with [] => trace s | _ => ESubst (im s) log :: trace s end))
    end.

(** src/shell.rs:537-540 [lookup_command]. *)
Definition sh_lookup_command (w : os) (c : str) : M (option str) :=
  r <- ask w r_isfile ;;
  m <- look cm ;;
  unwrap (lookup_command r c m).

(** src/jobs.rs:708-710 [fork_reset] and src/trap.rs:441-462 [remove_handlers]:
    the mask is cleared and the handlers are removed. *)
Definition fork_reset : M unit :=
  interrupts_on ;; change (with_handlers false) ;; note EReset.

(** src/eval.rs:651-678 [temp_execve] and 621-648 [temp_exec] (with the
    environment of the process). *)
Definition temp_execve (w : os) (argv0 : str) (argv : list str) (v : smap str) : M unit :=
  fork_reset ;;
  p <- sh_lookup_command w argv0 ;;
  match p with
  | None => stop (OErr (EText (argv0 ++ lit ": Command not found")))
  | Some path =>
      if contains_char 0%N path then stop OPanic else
      ok <- ask w (fun r => r_exec r path argv) ;;
      if ok : bool then stop (OExec path argv v) else stop (OErr EOs)
  end.
