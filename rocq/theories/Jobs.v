(** Model of src/jobs.rs, of the job part of src/shell.rs and of the SIGCHLD
    handler of src/trap.rs.

    A job is reachable through an [Rc<RefCell<Job>>] that is shared between the
    table and the callers; the callers only keep handles of jobs that are in the
    table, so a handle is modelled by the job's number.  The [RefCell] borrow
    flags are modelled where they matter: [display_jobs], and the job a forked
    child belongs to ([borrowed]).
    Job numbers are unbounded integers instead of [usize]. *)
From Verif Require Import Base.
Local Open Scope Z_scope.

(** [nix::sys::signal::Signal] on Linux, in numerical order from 1 to 31. Used
    by src/jobs.rs:668-705 and src/trap.rs. *)
Inductive signal :=
| SIGHUP | SIGINT | SIGQUIT | SIGILL | SIGTRAP | SIGABRT | SIGBUS | SIGFPE
| SIGKILL | SIGUSR1 | SIGSEGV | SIGUSR2 | SIGPIPE | SIGALRM | SIGTERM | SIGSTKFLT
| SIGCHLD | SIGCONT | SIGSTOP | SIGTSTP | SIGTTIN | SIGTTOU | SIGURG | SIGXCPU
| SIGXFSZ | SIGVTALRM | SIGPROF | SIGWINCH | SIGIO | SIGPWR | SIGSYS.

(** [impl Display for Signal]. Used in the texts of src/jobs.rs:681-700. *)
Definition signal_name (s : signal) : str :=
  lit (match s with
  | SIGHUP => "SIGHUP" | SIGINT => "SIGINT" | SIGQUIT => "SIGQUIT" | SIGILL => "SIGILL"
  | SIGTRAP => "SIGTRAP" | SIGABRT => "SIGABRT" | SIGBUS => "SIGBUS" | SIGFPE => "SIGFPE"
  | SIGKILL => "SIGKILL" | SIGUSR1 => "SIGUSR1" | SIGSEGV => "SIGSEGV" | SIGUSR2 => "SIGUSR2"
  | SIGPIPE => "SIGPIPE" | SIGALRM => "SIGALRM" | SIGTERM => "SIGTERM" | SIGSTKFLT => "SIGSTKFLT"
  | SIGCHLD => "SIGCHLD" | SIGCONT => "SIGCONT" | SIGSTOP => "SIGSTOP" | SIGTSTP => "SIGTSTP"
  | SIGTTIN => "SIGTTIN" | SIGTTOU => "SIGTTOU" | SIGURG => "SIGURG" | SIGXCPU => "SIGXCPU"
  | SIGXFSZ => "SIGXFSZ" | SIGVTALRM => "SIGVTALRM" | SIGPROF => "SIGPROF" | SIGWINCH => "SIGWINCH"
  | SIGIO => "SIGIO" | SIGPWR => "SIGPWR" | SIGSYS => "SIGSYS"
  end).

(** [nix::unistd::Pid]; -1 stands for a process that is not started. As at
    src/jobs.rs:308-310. *)
Definition pid := Z.

(** [nix::sys::wait::WaitStatus]; the ptrace variants need PTRACE and are left
    out. As returned at src/jobs.rs:630. *)
Inductive wait_status :=
| Exited (p : pid) (code : Z)
| Signaled (p : pid) (s : signal) (core : bool)
| Stopped (p : pid) (s : signal)
| Continued (p : pid)
| StillAlive.

(** [WaitStatus::pid]. Called at src/jobs.rs:643. *)
Definition ws_pid (w : wait_status) : option pid :=
  match w with
  | Exited p _ | Signaled p _ _ | Stopped p _ | Continued p => Some p
  | StillAlive => None
  end.

(** [matches!(_, WaitStatus::Stopped(_,_))], src/jobs.rs:164, and
    [matches!(_, WaitStatus::Exited(_,_))], src/jobs.rs:457. *)
Definition is_stopped (w : wait_status) : bool := match w with Stopped _ _ => true | _ => false end.
(** [matches!(_, WaitStatus::Exited(_,_))], src/jobs.rs:457. *)
Definition is_exited (w : wait_status) : bool := match w with Exited _ _ => true | _ => false end.

(** src/jobs.rs:262-268 [JobState]. *)
Inductive job_state := Waiting | Running | Finished | SStopped.
(** [PartialEq] of [JobState], derived at src/jobs.rs:262. *)
Definition state_eqb (a b : job_state) : bool :=
  match a, b with
  | Waiting, Waiting | Running, Running | Finished, Finished | SStopped, SStopped => true
  | _, _ => false
  end.

(** src/jobs.rs:285-297 [Process]; a NUL-free [CString] is its text. *)
Record process := Process {
  p_pid : pid;
  p_argv : list str;
  p_argv0 : str;
  p_cmd : str;
  p_status : option wait_status
}.

(** src/jobs.rs:308-310 [Process::new]. *)
Definition process_new (argv : list str) (argv0 cmd : str) : process := Process (-1) argv argv0 cmd None.

(** src/jobs.rs:321-341 [Job].  The fields [sigint], [waited] and [used] are
    never written after lines 357-359 and never read; they are left out. *)
Record job := Job {
  processes : list process;
  job_id : Z;
  stop_status : wait_status;
  state : job_state;
  background : bool;
  changed : bool
}.

(** src/jobs.rs:352-364 [Job::new]. *)
Definition job_new (ps : list process) (id : Z) (bg : bool) : job := Job ps id StillAlive Running bg false.

(** Field updates, as in [job.borrow_mut().field = ...]. Lines
    src/jobs.rs:377-384. *)
Definition with_processes (ps : list process) (j : job) : job :=
  Job ps (job_id j) (stop_status j) (state j) (background j) (changed j).
(** Assignment to [stop_status], src/jobs.rs:164-166 and 219-221. *)
Definition with_stop_status (w : wait_status) (j : job) : job :=
  Job (processes j) (job_id j) w (state j) (background j) (changed j).
(** Assignment to [state], src/jobs.rs:164-166 and 540-546. *)
Definition with_state (s : job_state) (j : job) : job :=
  Job (processes j) (job_id j) (stop_status j) s (background j) (changed j).
(** Assignment to [background], src/builtins.rs:159 and 192. *)
Definition with_background (b : bool) (j : job) : job :=
  Job (processes j) (job_id j) (stop_status j) (state j) b (changed j).
(** Assignment to [changed], src/jobs.rs:542. *)
Definition with_changed (b : bool) (j : job) : job :=
  Job (processes j) (job_id j) (stop_status j) (state j) (background j) b.

(** src/jobs.rs:313-315 [set_pid] and 380. *)
Definition with_pid (p : pid) (q : process) : process :=
  Process p (p_argv q) (p_argv0 q) (p_cmd q) (p_status q).
(** src/jobs.rs:380. *)
Definition with_status (w : wait_status) (q : process) : process :=
  Process (p_pid q) (p_argv q) (p_argv0 q) (p_cmd q) (Some w).

(** src/jobs.rs:377-384 [set_process_status]: the first process with that pid. *)
Fixpoint set_status_in (p : pid) (w : wait_status) (ps : list process) : list process :=
  match ps with
  | [] => []
  | q :: ps' => if Z.eqb (p_pid q) p then with_status w q :: ps' else q :: set_status_in p w ps'
  end.
(** src/jobs.rs:377-384 [set_process_status]. *)
Definition set_process_status (p : pid) (w : wait_status) (j : job) : job :=
  with_processes (set_status_in p w (processes j)) j.

(** src/jobs.rs:35-48 [JobControl]; [jobctl] is never used.  [background_jobs]
    maps a number to itself (line 74), so only the keys are kept. *)
Record job_control := JobControl {
  job_table : nmap job;
  background_jobs : nmap Z;
  pid_to_job : nmap Z;
  current_job : option Z;
  next_job_id : Z
}.

(** src/jobs.rs:53-62 [JobControl::new]. *)
Definition jc_new : job_control := JobControl [] [] [] None 1.

(** src/jobs.rs:66-84 [create_job]: the new number is [next_job_id]; the last
    [unwrap]s cannot fail. *)
Definition create_job (ps : list process) (bg : bool) (jc : job_control) : job_control :=
  let id := next_job_id jc in
  JobControl
    (ninsert id (job_new ps id bg) (job_table jc))
    (if bg then ninsert id id (background_jobs jc) else background_jobs jc)
    (fold_left (fun m p => ninsert (p_pid p) id m) ps (pid_to_job jc))
    (Some id)
    (id + 1).

(** src/jobs.rs:87-89 [update_pid_table]. *)
Definition update_pid_table (id : Z) (p : pid) (jc : job_control) : job_control :=
  JobControl (job_table jc) (background_jobs jc) (ninsert p id (pid_to_job jc)) (current_job jc) (next_job_id jc).

(** src/jobs.rs:92-94 [background_jobs], 96-98 [is_background_job]. *)
Definition has_background_jobs (jc : job_control) : bool :=
  match background_jobs jc with [] => true | _ => false end.
(** src/jobs.rs:96-98 [is_background_job]. *)
Definition is_background_job (id : Z) (jc : job_control) : bool :=
  match nget id (background_jobs jc) with Some _ => true | None => false end.

(** src/jobs.rs:101-107 [get_current_job]; the outer [None] is the panic of the
    [unwrap]. *)
Definition get_current_job (jc : job_control) : option (option job) :=
  match current_job jc with
  | None => Some None
  | Some id => match nget id (job_table jc) with Some j => Some (Some j) | None => None end
  end.

(** src/jobs.rs:110-112 [set_current_job]. *)
Definition set_current_job (id : Z) (jc : job_control) : job_control :=
  JobControl (job_table jc) (background_jobs jc) (pid_to_job jc) (Some id) (next_job_id jc).

(** Updating a job through its handle. As in [job.borrow_mut()],
    src/jobs.rs:513-545. *)
Definition put_job (id : Z) (j : job) (jc : job_control) : job_control :=
  JobControl (ninsert id j (job_table jc)) (background_jobs jc) (pid_to_job jc) (current_job jc) (next_job_id jc).
(** A change of [job_table], src/jobs.rs:205-242. *)
Definition put_table (t : nmap job) (jc : job_control) : job_control :=
  JobControl t (background_jobs jc) (pid_to_job jc) (current_job jc) (next_job_id jc).

(** src/jobs.rs:130-136 [update_next_job_id]. *)
Definition next_id_after (t : nmap job) : Z :=
  match t with [] => 1 | _ => fst (last t (0, job_new [] 0 false)) + 1 end%Z.

(** src/jobs.rs:162-168 and 217-223: the state of a job about to be deleted. *)
Definition note_stop (p0 : process) (j : job) : job :=
  match p_status p0 with
  | Some w => if is_stopped w then with_stop_status w (with_state SStopped j) else j
  | None => j
  end.

(** src/jobs.rs:205-242 [delete_job(JobId)]. *)
Definition delete_job (id : Z) (jc : job_control) : job_control :=
  match nget id (job_table jc) with
  | None => jc
  | Some j =>
      let t := nremove id (job_table jc) in
      match processes j with
      | [] => put_table t jc
      | p0 :: _ =>
          let j1 := note_stop p0 j in
          if is_stopped (stop_status j1) then put_table (ninsert id (with_state SStopped j1) t) jc
          else
            JobControl t
              (if background j1 then nremove id (background_jobs jc) else background_jobs jc)
              (fold_left (fun m p => nremove (p_pid p) m) (processes j1) (pid_to_job jc))
              (current_job jc) (next_id_after t)
      end
  end.

(** src/jobs.rs:148-186 [delete_job(Pid)]; [None] is the panic of
    [processes[0]].  Never called in rsh. *)
Definition delete_job_pid (p : pid) (jc : job_control) : option job_control :=
  match nget p (pid_to_job jc) with
  | None => Some jc
  | Some id =>
      match nget id (job_table jc) with
      | None => Some jc
      | Some j => match processes j with [] => None | _ => Some (delete_job id jc) end
      end
  end.

(** src/jobs.rs:190-199 and 245-247 [get_job]. *)
Definition get_job (id : Z) (jc : job_control) : option job := nget id (job_table jc).
(** src/jobs.rs:190-199 [get_job(Pid)]. *)
Definition get_job_pid (p : pid) (jc : job_control) : option job :=
  match nget p (pid_to_job jc) with
  | None => None
  | Some id => nget id (job_table jc)
  end.

(** src/jobs.rs:115-127 [clear_completed_jobs].  Never called in rsh. *)
Definition clear_completed_jobs (jc : job_control) : job_control :=
  fold_left (fun jc id => delete_job id jc)
    (map fst (filter (fun kj => state_eqb (state (snd kj)) Finished) (job_table jc))) jc.

(** A forked child inherits the mutable borrow of the job it belongs to
    (src/eval.rs:177-264) and never gives it back.  The code never puts a job in
    the state [Waiting] (src/jobs.rs:263); in the model it marks such a job: its
    fields can no longer be read. *)
Definition borrowed (j : job) : bool := state_eqb (state j) Waiting.
(** The table of a child that src/eval.rs:202 has just forked: its job is the
    one made last (src/eval.rs:175, src/jobs.rs:77). *)
Definition hold_job (jc : job_control) : job_control :=
  match current_job jc with
  | None => jc
  | Some id =>
      match get_job id jc with
      | None => jc
      | Some j => put_job id (with_state Waiting j) jc
      end
  end.

(** ** Text *)

(** src/jobs.rs:271-280 [impl Display for JobState]. *)
Definition state_text (s : job_state) : str :=
  lit (match s with
  | Waiting => "Waiting" | Running => "Running" | Finished => "Done" | SStopped => "Stopped"
  end).

(** src/jobs.rs:388-402 [impl Display for Job]: the separator is written after
    each process whose pid differs from that of the last one (lines 299-304). *)
Definition commands_text (ps : list process) : str :=
  List.concat (map (fun p =>
    p_cmd p ++ if Z.eqb (p_pid p) (p_pid (last ps p)) then [] else lit " | ") ps).
(** src/jobs.rs:388-402 [impl Display for Job]. *)
Definition job_text (j : job) : str :=
  state_text (state j) ++ lit " " ++ commands_text (processes j) ++ (if background j then lit " &" else []).

(** src/jobs.rs:251-259 [impl Display for JobControl], given the value of PS4. *)
Definition table_text (ps4 : str) (t : nmap job) : str :=
  List.concat (map (fun kj =>
    lit "[" ++ Z_to_str (fst kj) ++ lit "] " ++ ps4 ++ job_text (snd kj) ++ [10%N]) t).

(** src/shell.rs:499-502 [display_jobs] and 218-220: the shell is borrowed for
    the whole call, and formatting a job calls [shell::expand_var], which
    borrows it mutably (src/shell.rs:642-645): the [RefCell] panics as soon as
    there is a job to format.  [None] is that panic. *)
Definition display_jobs (jc : job_control) : option str :=
  match job_table jc with
  | [] => Some []
  | _ => None
  end.

(** ** Waiting *)

(** What one [waitpid] call answers: a status, EINTR, or another error (in
    practice ECHILD). The theorems quantify over the list of answers; a list
    that runs out stands for a call that never returns. Line src/jobs.rs:630.
    *)
Inductive answer := AStatus (w : wait_status) | AIntr | AFail.

(** The shell state that waiting depends on: the jobs, the signal mask
    ([masked]: everything but SIGINT and SIGTSTP is blocked,
    src/trap.rs:137-145), the flag GOT_SIGCHLD (src/trap.rs:30), and what has
    been printed. *)
Record jst := Jst {
  jobs : job_control;
  masked : bool;
  got_sigchld : bool;
  printed : list str
}.

(** Field updates; [print] is [println!] (src/jobs.rs:563) or [write_all]
    (src/trap.rs:265). *)
Definition with_jobs (jc : job_control) (s : jst) : jst := Jst jc (masked s) (got_sigchld s) (printed s).
(** The signal mask, src/trap.rs:137-149. *)
Definition with_masked (b : bool) (s : jst) : jst := Jst (jobs s) b (got_sigchld s) (printed s).
(** The flag of src/trap.rs:30. *)
Definition with_sigchld (b : bool) (s : jst) : jst := Jst (jobs s) (masked s) b (printed s).
(** [println!] (src/jobs.rs:486, 563) or [write_all] (src/trap.rs:265). *)
Definition print (t : str) (s : jst) : jst := Jst (jobs s) (masked s) (got_sigchld s) (printed s ++ [t]).

(** Results: done, a panic, or a call that never returns. The functions of
    src/jobs.rs:442-614. *)
Inductive wres (A : Type) :=
| WDone (a : A) (s : jst) (rest : list answer)
| WPanic
| WBlock.
Arguments WDone {A} _ _ _.
Arguments WPanic {A}.
Arguments WBlock {A}.

(** src/shell.rs:488-496 [shell::delete_job]. *)
Definition shell_delete_job (id : Z) (s : jst) : jst := with_masked false (with_jobs (delete_job id (jobs s)) s).

(** src/jobs.rs:620-664 [wait_process].  EINTR repeats the call (line 637); any
    other answer is returned: [StillAlive] at line 634, an error or a status
    with a pid at line 643, so lines 647-660 are never reached. *)
Fixpoint wait_process (as_ : list answer) : option (option wait_status * list answer) :=
  match as_ with
  | [] => None
  | AIntr :: r => wait_process r
  | AFail :: r => Some (None, r)
  | AStatus w :: r => Some (Some w, r)
  end.

(** src/jobs.rs:520-536, the loop over the processes of one job: the new
    processes, whether one of them has the pid, and the computed state. *)
Fixpoint scan (p : pid) (w : wait_status) (ps : list process) (st : job_state) (hit : bool)
  : list process * bool * job_state :=
  match ps with
  | [] => ([], hit, st)
  | q :: ps' =>
      let here := Z.eqb (p_pid q) p in
      let q' := if here then with_status w q else q in
      let st := match p_status q' with None => Running | Some _ => st end in
      let st := if state_eqb st Running then st
                else match p_status q' with
                     | Some v => if is_stopped v then SStopped else st
                     | None => st
                     end in
      let '(rest, hit', st') := scan p w ps' st (hit || here) in
      (q' :: rest, hit', st')
  end.

(** src/jobs.rs:512-553, the loop over the table: the new table, and the job
    that has the pid with its computed state.  A job that is borrowed is passed
    over ([try_borrow], line 513).  [None] is the panic of line 537:
    a job without processes, or whose first process has no status. *)
Fixpoint visit (p : pid) (w : wait_status) (t : nmap job) : option (nmap job * option (Z * job_state)) :=
  match t with
  | [] => Some ([], None)
  | (k, j) :: t' =>
      if borrowed j || state_eqb (state j) Finished then
        match visit p w t' with
        | None => None
        | Some (t1, r) => Some ((k, j) :: t1, r)
        end
      else
        let '(ps, hit, st) := scan p w (processes j) Finished false in
        match ps with
        | [] => None
        | p0 :: _ =>
            match p_status p0 with
            | None => None
            | Some w0 =>
                let j1 := with_stop_status w0 (with_processes ps j) in
                if hit then
                  let j2 := if state_eqb st Running then j1 else with_state st (with_changed true j1) in
                  Some ((k, j2) :: t', Some (job_id j, st))
                else
                  match visit p w t' with
                  | None => None
                  | Some (t1, r) => Some ((k, j1) :: t1, r)
                  end
            end
        end
  end.

(** src/jobs.rs:668-705 [format_status] with [sig_only = true]: the text, if
    any; the outer [None] is the panic of [expand_var("PS4").unwrap()].  The job
    is not taken to be [borrowed]: the processes of that job are not children of
    the process that waits. *)
Definition format_status (ps4 : option str) (w : wait_status) (jc : job_control) : option (option str) :=
  let head p more :=
    match get_job_pid p jc with
    | None => Some None
    | Some j =>
        match ps4 with
        | None => None
        | Some v =>
            Some (Some (lit "[" ++ Z_to_str (job_id j) ++ lit "] " ++ v ++ [9; 9]%N ++ job_text j ++ lit " " ++ more))
        end
    end in
  match w with
  | Signaled p s core =>
      head p (lit "(" ++ signal_name s ++ lit ")" ++ if core then lit " (core dumped)" else [])
  | Stopped p s => head p (lit "(" ++ signal_name s ++ lit ")")
  | _ => Some None
  end.

(** The three results of [wait_one]: a child was reaped, none is ready, error.
    The return values of src/jobs.rs:467-568. *)
Inductive reaped := RPid (p : pid) | RNone | RFail.

(** src/jobs.rs:467-568 [wait_one], for the job with number [id].  ([job] is
    never [None]: every caller of [wait_for_job] passes a job.) *)
Definition wait_one (ps4 : option str) (id : Z) (as_ : list answer) (s : jst) : wres reaped :=
  let s := with_sigchld false (with_masked true s) in
  match wait_process as_ with
  | None => WBlock
  | Some (None, r) => WDone RFail s r
  | Some (Some w, r) =>
      match ws_pid w with
      | None => WDone RNone (with_masked false s) r
      | Some _ =>
          let p := match w with Exited p _ | Signaled p _ _ | Stopped p _ => p | _ => (-1)%Z end in
          match visit p w (job_table (jobs s)) with
          | None => WPanic
          | Some (t, found) =>
              let jc := put_table t (jobs s) in
              let jc := match found with
                        | Some (k, SStopped) => set_current_job k jc
                        | _ => jc
                        end in
              let s := with_masked false (with_jobs jc s) in
              match found with
              | Some (k, _) =>
                  if Z.eqb k id then
                    match format_status ps4 w jc with
                    | None => WPanic
                    | Some None => WDone (RPid p) s r
                    | Some (Some t) => WDone (RPid p) (print t s) r
                    end
                  else WDone (RPid p) s r
              | None => WDone (RPid p) s r
              end
          end
      end
  end.

(** The loop of src/jobs.rs:586-611.  Every turn takes at least one answer, so
    [S (length as_)] turns suffice.  Whether a call blocks only decides which
    answers are possible, so [block] does not appear here. *)
Fixpoint wait_loop (ps4 : option str) (n : nat) (id : Z) (as_ : list answer) (s : jst) : wres unit :=
  match n with
  | O => WBlock
  | S n' =>
      match wait_one ps4 id as_ s with
      | WPanic => WPanic
      | WBlock => WBlock
      | WDone (RPid _) s' r => wait_loop ps4 n' id r s'
      | WDone _ s' r => WDone tt s' r
      end
  end.

(** src/jobs.rs:571-614 [do_wait], called with DOWAIT_BLOCK; its result is not
    used.  A job that is not Running is only waited for if SIGCHLD has been seen. *)
Definition do_wait (ps4 : option str) (id : Z) (as_ : list answer) (s : jst) : wres unit :=
  let running := match get_job id (jobs s) with Some j => state_eqb (state j) Running | None => false end in
  if negb running && negb (got_sigchld s) then WDone tt s as_
  else wait_loop ps4 (S (List.length as_)) id as_ s.

(** src/jobs.rs:442-464 [wait_for_job]. *)
Definition wait_for_job (ps4 : option str) (id : Z) (as_ : list answer) (s : jst) : wres wait_status :=
  match do_wait ps4 id as_ s with
  | WPanic => WPanic
  | WBlock => WBlock
  | WDone _ s' r =>
      match get_job id (jobs s') with
      | None => WPanic       (* not reached: the job of the handle is in the table *)
      | Some j =>
          let status := stop_status j in
          if state_eqb (state j) Finished || is_exited status
          then WDone status (shell_delete_job id s') r
          else WDone status s' r
      end
  end.

(** src/jobs.rs:413-433 [wait_for_job_sigchld]; its result is not used. *)
Definition wait_for_job_sigchld (ps4 : option str) (id : Z) (w : wait_status) (as_ : list answer) (s : jst)
  : wres unit :=
  match get_job id (jobs s) with
  | None => WPanic           (* not reached: the job of the handle is in the table *)
  | Some j =>
      match processes j with
      | [_] =>
          let jc := put_job id (with_state Finished (with_stop_status w j)) (jobs s) in
          WDone tt (shell_delete_job id (with_jobs jc s)) as_
      | _ =>
          match wait_for_job ps4 id as_ (with_masked true s) with
          | WDone _ s' r => WDone tt (with_masked false s') r
          | WPanic => WPanic
          | WBlock => WBlock
          end
      end
  end.

(** src/trap.rs:224-278 [sig_chld], run by [on_sig] (src/trap.rs:180-218) on a
    SIGCHLD in an interactive shell.  The flag GOT_SIGCHLD is set first.  The
    mask is restored by the kernel when the handler returns. *)
Definition sig_chld (ps4 : option str) (as_ : list answer) (s0 : jst) : wres unit :=
  let s := with_sigchld true s0 in
  let handle p w msg r :=
    match nget p (pid_to_job (jobs s)) with
    | None => WDone tt s r
    | Some id =>
        match get_job id (jobs s) with
        | None => WDone tt s r
        | Some j =>
            let s1 := with_jobs (put_job id (set_process_status p w j) (jobs s)) s in
            if background j then
              let s2 := match msg with
                        | None => s1
                        | Some m => print (lit "Job [" ++ Z_to_str (job_id j) ++ lit "] (" ++ Z_to_str p ++ lit ") " ++ m) s1
                        end in
              match wait_for_job_sigchld ps4 id w r s2 with
              | WDone _ s3 r' => WDone tt (with_masked (masked s0) s3) r'
              | x => x
              end
            else WDone tt s1 r
        end
    end in
  match as_ with
  | [] => WBlock
  | AIntr :: r | AFail :: r => WDone tt s r
  | AStatus w :: r =>
      match w with
      | Exited p _ => handle p w None r
      | Signaled p _ _ => handle p w (Some (lit "terminated by signal")) r
      | Stopped p _ => handle p w (Some (lit "stopped by signal")) r
      | Continued _ | StillAlive => WDone tt s r
      end
  end.

(** The job of src/eval.rs:177 while it is mutably borrowed: [try_borrow] of
    src/jobs.rs:513 fails, and the job is passed over like a finished one. *)
Definition with_state_of (id : Z) (st : job_state) (jc : job_control) : job_control :=
  match get_job id jc with
  | None => jc
  | Some j => put_job id (with_state st j) jc
  end.

(** The handler while the job [id] is mutably borrowed (src/eval.rs:177-264):
    [borrow_mut] of src/trap.rs:259 panics for one of its own processes. *)
Definition sig_chld_borrowed (ps4 : option str) (id : Z) (as_ : list answer) (s : jst) : wres unit :=
  let own := match as_ with
             | AStatus (Exited p _) :: _ | AStatus (Signaled p _ _) :: _ | AStatus (Stopped p _) :: _ =>
                 match nget p (pid_to_job (jobs s)), get_job id (jobs s) with
                 | Some k, Some _ => Z.eqb k id
                 | _, _ => false
                 end
             | _ => false
             end in
  if own then WPanic
  else
    let st := match get_job id (jobs s) with Some j => state j | None => Running end in
    match sig_chld ps4 as_ (with_jobs (with_state_of id Finished (jobs s)) s) with
    | WDone _ s' r => WDone tt (with_jobs (with_state_of id st (jobs s')) s') r
    | x => x
    end.

(** ** Job control commands *)

(** src/builtins.rs:153-167 and 188-199, [fg] and [bg] once the job is found.
    [killed p]: [kill(p, SIGCONT)] succeeds; otherwise its [unwrap] panics. *)
Definition resume (fg : bool) (killed : pid -> bool) (id : Z) (s : jst) : option jst :=
  match get_job id (jobs s) with
  | None => Some s           (* the caller has found the job *)
  | Some j =>
      let j1 := with_background (negb fg) (with_state Running j) in
      if forallb (fun p => killed (p_pid p)) (processes j1)
      then Some (print (lit "[" ++ Z_to_str (job_id j1) ++ lit "] " ++ job_text j1)
                       (with_jobs (put_job id j1 (jobs s)) s))
      else None
  end.

(** src/eval.rs:605-613 [temp_fork] in the parent and src/eval.rs:247-249: the
    [i]-th process of the job gets its pid. *)
Fixpoint set_pid_at (i : nat) (p : pid) (ps : list process) : list process :=
  match ps, i with
  | [], _ => []
  | q :: ps', O => with_pid p q :: ps'
  | q :: ps', S i' => q :: set_pid_at i' p ps'
  end.
(** src/eval.rs:247-249, with src/jobs.rs:87-89 and 313-315. *)
Definition started (id : Z) (i : nat) (p : pid) (jc : job_control) : job_control :=
  match get_job id jc with
  | None => jc               (* not reached: the job has just been created *)
  | Some j => update_pid_table id p (put_job id (with_processes (set_pid_at i p (processes j)) j) jc)
  end.
