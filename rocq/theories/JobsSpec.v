(** Vocabulary for the job properties: histories of job-control operations, and
    what a table should look like after each of them. *)
From Verif Require Import Base BaseFacts Jobs.
Local Open Scope Z_scope.

(** ** Histories *)

(** The operations that touch the jobs of a shell: a pipeline creates a job
    (src/eval.rs:175), records the pid of a started process (src/eval.rs:247),
    deletes the job (src/eval.rs:274,291), waits for it (src/eval.rs:268,
    src/builtins.rs:166) or, when signals arrive in between, collects one child
    (src/jobs.rs:467), SIGCHLD arrives (src/trap.rs:224), also while a job is
    borrowed (src/eval.rs:177-264), [fg] or [bg]
    resumes a job (src/builtins.rs:138-201); and the two that touch what goes
    with them: the signal mask (src/trap.rs:137-149) and standard output.  [ps4]
    is the value of PS4 at that moment. *)
Inductive op :=
| OCreate (cmds : list (list str * str * str)) (bg : bool)
| OStart (id : Z) (i : nat) (p : pid)
| ODelete (id : Z)
| OWait (ps4 : option str) (id : Z) (as_ : list answer)
| OWaitOne (ps4 : option str) (id : Z) (as_ : list answer)
| OSig (ps4 : option str) (as_ : list answer)
| OSigJob (ps4 : option str) (id : Z) (as_ : list answer)
| OResume (fg : bool) (killed : pid -> bool) (id : Z)
| OMask (b : bool)
| OPrint (t : str).

Definition new_process (c : list str * str * str) : process :=
  match c with (argv, argv0, cmd) => process_new argv argv0 cmd end.

(** One operation; [None] when the shell does not survive it (a panic or a wait
    that never returns) or when it is about a job that does not exist. *)
Definition step (o : op) (s : jst) : option jst :=
  match o with
  | OCreate cmds bg => Some (with_jobs (create_job (map new_process cmds) bg (jobs s)) s)
  | OStart id i p => Some (with_jobs (started id i p (jobs s)) s)
  | ODelete id => Some (shell_delete_job id s)
  | OWait ps4 id as_ =>
      match get_job id (jobs s) with
      | None => None
      | Some _ => match wait_for_job ps4 id as_ s with WDone _ s' _ => Some s' | _ => None end
      end
  | OWaitOne ps4 id as_ => match wait_one ps4 id as_ s with WDone _ s' _ => Some s' | _ => None end
  | OSig ps4 as_ => match sig_chld ps4 as_ s with WDone _ s' _ => Some s' | _ => None end
  | OSigJob ps4 id as_ => match sig_chld_borrowed ps4 id as_ s with WDone _ s' _ => Some s' | _ => None end
  | OResume fg killed id => resume fg killed id s
  | OMask b => Some (with_masked b s)
  | OPrint t => Some (print t s)
  end.

Fixpoint run (os : list op) (s : jst) : option jst :=
  match os with
  | [] => Some s
  | o :: os' => match step o s with Some s' => run os' s' | None => None end
  end.

(** A shell that has just started. *)
Definition jst0 : jst := Jst jc_new false false [].

Definition live (id : Z) (jc : job_control) : Prop := exists j, nget id (job_table jc) = Some j.

(** Histories in which process ids are used as the system hands them out: a
    process gets its pid once, and no process of a live job has it already. *)
Definition pid_used (p : pid) (jc : job_control) : Prop :=
  exists k j q, nget k (job_table jc) = Some j /\ In q (processes j) /\ p_pid q = p.
Definition op_ok (o : op) (s : jst) : Prop :=
  match o with
  | OStart id i p =>
      0 < p /\ ~ pid_used p (jobs s) /\
      exists j q, nget id (job_table (jobs s)) = Some j /\ nth_error (processes j) i = Some q /\ p_pid q = -1
  | _ => True
  end.
Fixpoint run_ok (os : list op) (s : jst) : Prop :=
  match os with
  | [] => True
  | o :: os' => op_ok o s /\ match step o s with Some s' => run_ok os' s' | None => True end
  end.

(** ** Reaping *)

(** The event a status reports about a child. *)
Inductive event_of : wait_status -> pid -> Prop :=
| ev_exited p c : event_of (Exited p c) p
| ev_signaled p s d : event_of (Signaled p s d) p
| ev_stopped p s : event_of (Stopped p s) p.

Definition has_pid (p : pid) (j : job) : Prop := exists q, In q (processes j) /\ p_pid q = p.
(** A job that a collection looks at: it is not finished, and it is not the job of
    the process itself, which a forked child cannot touch. *)
Definition unfinished (j : job) : Prop := ~ (state j = Finished \/ state j = Waiting).

(** A job that an event of the process [p] is not about: it is not looked at, or its
    first process has reported something, which is the status of the job (as it is
    for a stopped job), and [p] is not one of its processes. *)
Definition at_rest (p : pid) (j : job) : Prop :=
  ~ unfinished j \/
  exists q ps, processes j = q :: ps /\ p_status q = Some (stop_status j) /\ ~ has_pid p j.

(** The processes of a job after [w] has been reported for [p]. *)
Definition report (p : pid) (w : wait_status) (q : process) : process :=
  if Z.eqb (p_pid q) p then Process (p_pid q) (p_argv q) (p_argv0 q) (p_cmd q) (Some w) else q.

Definition all_reported (ps : list process) : Prop := forall q, In q ps -> p_status q <> None.
Definition some_stopped (ps : list process) : Prop :=
  exists q v s, In q ps /\ p_status q = Some (Stopped v s).

(** What happens to a job when [w] is collected for [p]. *)
Definition reap_job (p : pid) (w : wait_status) (j j' : job) : Prop :=
  job_id j' = job_id j /\ background j' = background j /\
  (unfinished j /\ has_pid p j ->
     processes j' = map (report p w) (processes j) /\
     (~ all_reported (processes j') -> state j' = state j /\ changed j' = changed j) /\
     (all_reported (processes j') ->
        changed j' = true /\
        (some_stopped (processes j') -> state j' = SStopped) /\
        (~ some_stopped (processes j') -> state j' = Finished))) /\
  (~ (unfinished j /\ has_pid p j) ->
     processes j' = processes j /\ state j' = state j /\ changed j' = changed j).

(** The job that is found first, the one [wait_one] stops at. *)
Definition first_with (p : pid) (t : nmap job) (k : Z) (j : job) : Prop :=
  nget k t = Some j /\ unfinished j /\ has_pid p j /\
  forall k' j', k' < k -> nget k' t = Some j' -> ~ (unfinished j' /\ has_pid p j').
Definition only_one_with (p : pid) (t : nmap job) : Prop :=
  forall k k' j j', nget k t = Some j -> nget k' t = Some j' ->
    unfinished j /\ has_pid p j -> unfinished j' /\ has_pid p j' -> k = k'.

(** A job that makes the collection of [p] crash: it is looked at (no job with a
    smaller number has [p]) and its first process has nothing to report. *)
Definition nothing_first (p : pid) (j : job) : Prop :=
  match processes j with
  | [] => True
  | q :: _ => p_pid q <> p /\ p_status q = None
  end.
Definition trips (p : pid) (t : nmap job) (k : Z) (j : job) : Prop :=
  nget k t = Some j /\ unfinished j /\ nothing_first p j /\
  forall k' j', k' < k -> nget k' t = Some j' -> ~ (unfinished j' /\ has_pid p j').

(** ** A whole wait *)

(** What a wait is told: the statuses up to an error or the answer that nothing has
    happened; calls that were interrupted are repeated. *)
Fixpoint heard (as_ : list answer) : list wait_status :=
  match as_ with
  | AIntr :: r => heard r
  | [] | AFail :: _ | AStatus StillAlive :: _ => []
  | AStatus w :: r => w :: heard r
  end.
(** Whether it ends. *)
Fixpoint ends (as_ : list answer) : Prop :=
  match as_ with
  | [] => False
  | AFail :: _ | AStatus StillAlive :: _ => True
  | _ :: r => ends r
  end.

(** The processes and the state of the jobs after [w] has been collected for [p]:
    those of the first job that has [p] change, and no other. *)
Definition collected (p : pid) (w : wait_status) (t t' : nmap job) : Prop := forall k,
  match nget k t, nget k t' with
  | None, None => True
  | Some j, Some j' =>
      (first_with p t k j ->
         processes j' = map (report p w) (processes j) /\
         (~ all_reported (processes j') -> state j' = state j) /\
         (all_reported (processes j') -> some_stopped (processes j') -> state j' = SStopped) /\
         (all_reported (processes j') -> ~ some_stopped (processes j') -> state j' = Finished)) /\
      (~ first_with p t k j -> processes j' = processes j /\ state j' = state j)
  | _, _ => False
  end.
(** One of the statuses finds a job that makes its collection crash. *)
Inductive stumbles : list wait_status -> nmap job -> Prop :=
| sb_now w p ws t k j : event_of w p -> trips p t k j -> stumbles (w :: ws) t
| sb_later w p ws t t' : event_of w p -> collected p w t t' -> stumbles ws t' -> stumbles (w :: ws) t.

(** [ps'] is what is known about the processes [ps] of a job when [ws] have been
    collected for them: each is about a process that had not ended, and the first
    process reports before the others. *)
Inductive learnt : list wait_status -> list process -> list process -> Prop :=
| le_nil ps : learnt [] ps ps
| le_one w p ws ps ps' q q0 qs : event_of w p ->
    In q ps -> p_pid q = p -> (p_status q = None \/ exists v g, p_status q = Some (Stopped v g)) ->
    map (report p w) ps = q0 :: qs -> p_status q0 <> None ->
    learnt ws (map (report p w) ps) ps' -> learnt (w :: ws) ps ps'.

(** ** The listing *)

Definition state_word (s : job_state) : str :=
  match s with
  | Waiting => lit "Waiting" | Running => lit "Running" | Finished => lit "Done" | SStopped => lit "Stopped"
  end.
Definition job_line (ps4 : str) (j : job) : str :=
  lit "[" ++ Z_to_str (job_id j) ++ lit "] " ++ ps4 ++ state_word (state j) ++ lit " "
  ++ join (lit " | ") (map p_cmd (processes j)) ++ (if background j then lit " &" else []) ++ [10%N].
