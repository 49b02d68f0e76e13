(** The evaluator with SIGCHLD and SIGINT arriving in the middle of commands.

    Eval.v runs commands as if no signal arrived before the next prompt.  Here
    the handler of src/trap.rs:180-278 is run, any number of times, at every
    moment at which the signals are not blocked: between pipelines, between the
    functions of a pipeline and its programs, around each [fork] when nothing is
    blocked, after each child that is collected, and inside [shell::delete_job]
    while the shell is borrowed; and a command substitution is interrupted.  When signals arrive is decided by a schedule.

    [delete_job] unblocks the signals before it gives the shell back, also when
    the handler itself calls it, so that the handler may be interrupted by itself.

    SIGINT is never blocked (src/trap.rs:137-145), and its handler unblocks all
    signals (lines 281-300) until it returns: a SIGCHLD that was held back is then
    taken, whatever the shell is doing.

    Simplifications: a signal that arrives while the handler runs is otherwise
    taken after it; a signal inside one of the other functions of src/shell.rs is
    left to Borrow.v; [write] of src/trap.rs:208 succeeds (see Trap.v); a signal
    that is held back when a SIGINT arrives is one of the schedule; signals between the
    other steps of a single builtin, and between the start of a background job and the
    line about it are not modelled. *)
From Verif Require Import Base Ast Parser Context Alias Expand Jobs Shell Builtins Eval Main.
Local Open Scope Z_scope.

(** The moments at which signals may be taken: before a pipeline
    (src/eval.rs:123), after its functions were called (line 168), after a
    [fork] (line 199), after the pid has been entered (line 251), in the wait
    (line 268 and src/builtins.rs:166), in [delete_job] (lines 274 and 291), at the
    end (line 298), at the prompt (src/main.rs:189), and in the [waitpid] of a
    command substitution (src/ast.rs:405). *)
Inductive point := PStart | PSubst | PFunctions | PForked | PEntered | PWait | PDelete | PEnd | PPrompt.

(** What arrives at such a moment: [Sig n] is a SIGCHLD and [n] more of them when
    its handler deletes a job; [Int l] is a SIGINT with the SIGCHLDs [l] taken
    during its handler; [Pause] ends the moment, the rest is for the next moment
    of the same call.  src/trap.rs:180-218. *)
Inductive arrival := Sig (inside : nat) | Int (within : list nat) | Pause.
(** All that arrives during one call.  src/trap.rs:180-218. *)
Definition arrivals := list arrival.

(** A signal while the shell is borrowed: [shell::get_job] (src/trap.rs:255)
    panics as soon as a child has something to report. *)
Definition borrowed_signal (as_ : list answer) (s : jst) : wres unit :=
  match as_ with
  | [] => WBlock
  | AStatus (Exited _ _) :: _ | AStatus (Signaled _ _ _) :: _ | AStatus (Stopped _ _) :: _ => WPanic
  | _ :: r => WDone tt (with_sigchld true s) r
  end.
(** [n] signals at src/shell.rs:495, in a [delete_job] that was called by the
    handler (src/jobs.rs:426 and 461). *)
Fixpoint inside (n : nat) (as_ : list answer) (s : jst) : wres unit :=
  match n with
  | O => WDone tt s as_
  | S n' => match borrowed_signal as_ s with WDone _ s' r => inside n' r s' | x => x end
  end.
(** The process that a status is about, src/trap.rs:234-253. *)
Definition about (e : wait_status) : option pid :=
  match e with
  | Exited p _ | Signaled p _ _ | Stopped p _ => Some p
  | Continued _ | StillAlive => None
  end.
(** Whether the handler calls [delete_job]: for a background job with one process
    (src/jobs.rs:420-426), and for one with more when it is over after the wait
    (src/jobs.rs:429 and 457-461). *)
Definition deletes (ps4 : option str) (as_ : list answer) (s : jst) : bool :=
  match as_ with
  | AStatus e :: r =>
      match about e with
      | None => false
      | Some p =>
          match get_job_pid p (jobs s) with
          | None => false
          | Some j =>
              let id := job_id j in
              background j &&
              match processes j with
              | [_] => true
              | _ =>
                  match do_wait ps4 id r (with_masked true (with_jobs (put_job id (set_process_status p e j) (jobs s)) (with_sigchld true s))) with
                  | WDone _ s' _ =>
                      match get_job id (jobs s') with
                      | Some j' => state_eqb (state j') Finished || is_exited (stop_status j')
                      | None => false
                      end
                  | _ => false
                  end
              end
          end
      end
  | _ => false
  end.
(** The handler, interrupted [n] times when it calls [delete_job].
    src/trap.rs:224-278. *)
Definition interrupted (n : nat) (d : bool) (x : wres unit) : wres unit :=
  match x with
  | WDone _ s r => if d then inside n r s else WDone tt s r
  | x => x
  end.

(** SIGCHLDs during the handler of SIGINT, which has unblocked them
    (src/trap.rs:281-300); [h] is what happens at each of them.  The mask is as
    before when the handler returns. *)
Fixpoint in_sigint (h : nat -> list answer -> jst -> wres unit) (l : list nat) (as_ : list answer) (s : jst) : wres unit :=
  match l with
  | [] => WDone tt s as_
  | n :: l' => match h n as_ s with WDone _ s' r => in_sigint h l' r s' | x => x end
  end.
(** [sig_chld] (src/trap.rs:224-278) with [n] signals inside. *)
Definition handled (ps4 : option str) (n : nat) (as_ : list answer) (s : jst) : wres unit :=
  interrupted n (deletes ps4 as_ s) (sig_chld ps4 as_ s).
(** The same while the job [id] is mutably borrowed (src/eval.rs:177-264). *)
Definition handled_job (ps4 : option str) (id : Z) (n : nat) (as_ : list answer) (s : jst) : wres unit :=
  interrupted n (deletes ps4 as_ (with_jobs (with_state_of id Finished (jobs s)) s)) (sig_chld_borrowed ps4 id as_ s).

(** Signals while nothing is borrowed: [sig_chld] (src/trap.rs:224-278) is run
    for each of them unless they are blocked. *)
Fixpoint deliver (ps4 : option str) (ks : arrivals) (as_ : list answer) (s : jst) : wres arrivals :=
  match ks with
  | [] => WDone [] s as_
  | Pause :: ks' => WDone ks' s as_
  | Sig n :: ks' =>
      if masked s then deliver ps4 ks' as_ s
      else match handled ps4 n as_ s with
           | WDone _ s' r => deliver ps4 ks' r s'
           | WPanic => WPanic
           | WBlock => WBlock
           end
  | Int l :: ks' =>
      match in_sigint (handled ps4) l as_ s with
      | WDone _ s' r => deliver ps4 ks' r s'
      | WPanic => WPanic
      | WBlock => WBlock
      end
  end.

(** Signals at src/shell.rs:495, where [delete_job] has unblocked them but still
    has the shell borrowed. *)
Fixpoint deliver_borrowed (ks : arrivals) (as_ : list answer) (s : jst) : wres arrivals :=
  match ks with
  | [] => WDone [] s as_
  | Pause :: ks' => WDone ks' s as_
  | Sig _ :: ks' =>
      match borrowed_signal as_ s with
      | WDone _ s' r => deliver_borrowed ks' r s'
      | WPanic => WPanic
      | WBlock => WBlock
      end
  | Int l :: ks' =>
      match in_sigint (fun _ => borrowed_signal) l as_ s with
      | WDone _ s' r => deliver_borrowed ks' r s'
      | WPanic => WPanic
      | WBlock => WBlock
      end
  end.

(** src/shell.rs:488-496 [delete_job]. *)
Definition delete_async (id : Z) (ks : arrivals) (as_ : list answer) (s : jst) : wres arrivals :=
  deliver_borrowed ks as_ (shell_delete_job id s).

(** Signals while the job [id] is mutably borrowed (src/eval.rs:177-264). *)
Fixpoint deliver_job (ps4 : option str) (id : Z) (ks : arrivals) (as_ : list answer) (s : jst) : wres arrivals :=
  match ks with
  | [] => WDone [] s as_
  | Pause :: ks' => WDone ks' s as_
  | Sig n :: ks' =>
      if masked s then deliver_job ps4 id ks' as_ s
      else match handled_job ps4 id n as_ s with
           | WDone _ s' r => deliver_job ps4 id ks' r s'
           | WPanic => WPanic
           | WBlock => WBlock
           end
  | Int l :: ks' =>
      match in_sigint (handled_job ps4 id) l as_ s with
      | WDone _ s' r => deliver_job ps4 id ks' r s'
      | WPanic => WPanic
      | WBlock => WBlock
      end
  end.

(** The loop of src/jobs.rs:586-611; signals are taken after each [wait_one]. *)
Fixpoint wait_loop_async (ps4 : option str) (n : nat) (id : Z) (ks : arrivals) (as_ : list answer) (s : jst)
  : wres arrivals :=
  match n with
  | O => WBlock
  | S n' =>
      match wait_one ps4 id as_ s with
      | WPanic => WPanic
      | WBlock => WBlock
      | WDone (RPid _) s' r =>
          match deliver ps4 ks r s' with
          | WDone ks' s2 r2 => wait_loop_async ps4 n' id ks' r2 s2
          | x => x
          end
      | WDone _ s' r => deliver ps4 ks r s'
      end
  end.

(** src/jobs.rs:571-614 [do_wait]. *)
Definition do_wait_async (ps4 : option str) (id : Z) (ks : arrivals) (as_ : list answer) (s : jst) : wres arrivals :=
  let running := match get_job id (jobs s) with Some j => state_eqb (state j) Running | None => false end in
  if negb running && negb (got_sigchld s) then WDone ks s as_
  else wait_loop_async ps4 (S (List.length as_)) id ks as_ s.

(** src/jobs.rs:442-464 [wait_for_job], for a job that is not in the background,
    so that the handler cannot take it out of the table. *)
Definition wait_for_job_async (ps4 : option str) (id : Z) (ks : arrivals) (as_ : list answer) (s : jst)
  : wres wait_status :=
  match deliver ps4 ks as_ s with
  | WPanic => WPanic
  | WBlock => WBlock
  | WDone ks0 s0 r0 =>
      match do_wait_async ps4 id ks0 r0 s0 with
      | WPanic => WPanic
      | WBlock => WBlock
      | WDone ks' s' r =>
          match get_job id (jobs s') with
          | None => WPanic       (* not reached: the job of the handle is in the table *)
          | Some j =>
              let status := stop_status j in
              if state_eqb (state j) Finished || is_exited status
              then match delete_async id ks' r s' with
                   | WDone ks2 s2 r2 =>
                       match deliver ps4 ks2 r2 s2 with
                       | WDone _ s3 r3 => WDone status s3 r3
                       | WPanic => WPanic
                       | WBlock => WBlock
                       end
                   | WPanic => WPanic
                   | WBlock => WBlock
                   end
              else WDone status s' r
          end
      end
  end.

Section Async.
Context (w : os) (sg : point -> list event -> arrivals).

(** The handler is there and does something: src/trap.rs:184-189 and the calls of
    [set_signal] in src/main.rs:71-73.  Without it SIGCHLD has no effect; that a
    SIGINT then ends the shell is not modelled. *)
Definition arriving (p : point) (s : shell) : arrivals :=
  if handlers (im s) && negb (forked (im s)) then sg p (trace s) else [].

(** A SIGINT whose handler takes a SIGCHLD, src/trap.rs:206-217. *)
Definition interrupting (ks : arrivals) : bool :=
  existsb (fun k => match k with Int (_ :: _) => true | _ => false end) ks.
(** Any of the above as a step of the shell; if nothing arrives, or the signals
    are blocked and no SIGINT lets them through, nothing happens.
    src/trap.rs:180-278. *)
Definition taken (p : point) (f : option str -> arrivals -> list answer -> jst -> wres arrivals) : M unit :=
  fun s =>
    if masked (js (im s)) && negb (interrupting (arriving p s)) then (OOk tt, s)
    else
      match arriving p s with
      | [] => (OOk tt, s)
      | ks =>
          match f (expand_var (cm (im s)) (lit "PS4")) ks (r_waits (w (trace s))) (js (im s)) with
          | WDone _ j _ => (OOk tt, Shell (with_js j (im s)) (EWait (-1) :: trace s))
          | WPanic => (OPanic, s)
          | WBlock => (OBlock, s)
          end
      end.

(** Signals between the steps of src/eval.rs:114-301. *)
Definition signals (p : point) : M unit := taken p deliver.
(** Signals in the loop of src/eval.rs:188-263. *)
Definition signals_job (p : point) (id : Z) : M unit := taken p (fun ps4 => deliver_job ps4 id).
(** src/shell.rs:488-496 [delete_job], called at src/eval.rs:274 and 291. *)
Definition sh_delete_async (id : Z) : M unit :=
  sh_delete_job id ;;
  taken PDelete (fun _ => deliver_borrowed).

(** src/jobs.rs:442-464 [wait_for_job], called at src/eval.rs:268 and
    src/builtins.rs:166. *)
Definition wait_job_async (id : Z) : M wait_status :=
  fun s =>
    match wait_for_job_async (expand_var (cm (im s)) (lit "PS4")) id (arriving PWait s) (r_waits (w (trace s))) (js (im s)) with
    | WDone st j _ => (OOk st, Shell (with_js j (im s)) (EWait id :: trace s))
    | WPanic => (OPanic, s)
    | WBlock => (OBlock, s)
    end.

(** The loop of src/eval.rs:188-263. *)
Fixpoint launch_async (id : Z) (bg : bool) (i : nat) (cs : list (process * simple_command)) (prev : Z) (pip : Z * Z)
  : M unit :=
  match cs with
  | [] => ret tt
  | (p, sc) :: cs' =>
      pip <- match cs' with
             | [] => ret (fst pip, -1)
             | _ => make_pipe w
             end ;;
      r <- fork_child w (Child sc p prev pip bg) ;;
      signals_job PForked id ;;
      match r with
      | Some q => on_jobs (started id i (Zpos q))
      | None => ret tt
      end ;;
      signals_job PEntered id ;;
      (if Z.leb 0 prev then sys_close prev else ret tt) ;;
      sys_close_ignored (snd pip) ;;
      launch_async id bg (S i) cs' (fst pip) pip
  end.

(** src/eval.rs:173-300. *)
Definition run_job_async (bg : bool) (cs : list (process * simple_command)) : M Z :=
  id <- look (fun i => next_job_id (jobs (js i))) ;;
  on_jobs (create_job (map fst cs) bg) ;;
  launch_async id bg 0 cs (-1) (-1, -1) ;;
  match cs with
  | [] => sh_delete_async id
  | _ =>
      if bg then
        j <- look (fun i => get_job id (jobs (js i))) ;;
        j <- unwrap j ;;
        say (lit "[" ++ Z_to_str (job_id j) ++ lit "] ("
             ++ Z_to_str match processes j with p :: _ => p_pid p | [] => -1 end
             ++ lit ") " ++ job_text j)
      else
        st <- wait_job_async id ;;
        sh_delete_async id ;;
        match st with
        | Exited _ c => set_exit_status c
        | _ => ret tt
        end
  end ;;
  interrupts_on ;;
  get_exit_code.

(** A handler runs while the shell is in [waitpid]; it was set up without
    [SA_RESTART] (src/trap.rs:395-399), so the call fails with [EINTR]. *)
Definition cut_short (b : bool) (ks : arrivals) : bool :=
  existsb (fun k => match k with Sig _ => negb b | Int _ => true | Pause => false end) ks.
(** The expansion of a command, as in Shell.v; [waitpid(child, None).unwrap()] of
    src/ast.rs:405 panics when it is cut short.  Of several substitutions the
    moment is not told apart; SIGTSTP, which does the same as SIGINT here, is not
    a case of its own; signals while the pipe is read (line 406) are left out,
    [read_to_string] goes on after them. *)
Definition expand_async (sc : simple_command) : M simple_command :=
  fun s =>
    match expand (r_subst (w (trace s))) (al (im s)) (cm (im s)) [] sc with
    | Some (_, _ :: _) =>
        if cut_short (masked (js (im s))) (arriving PSubst s) then (OPanic, s) else expand_command w sc s
    | _ => expand_command w sc s
    end.

(** src/builtins.rs:138-168 [fg] and 173-201 [bg], as in Builtins.v; [fg] takes the
    job out of the background before it waits for it. *)
Definition fg_or_bg_async (fg : bool) (by_job : bool) (n : Z) : M unit :=
  j <- look (fun i => if by_job then get_job n (Jobs.jobs (js i)) else get_job_pid (to_i32 n) (Jobs.jobs (js i))) ;;
  match j with
  | None => fail (if by_job then lit "No job with that jid" else lit "No job with that pid")
  | Some j =>
      if borrowed j then stop OPanic else
      killed <- ask w r_kill ;;
      (fun s => (OOk tt, Shell (im s) (rev (map EKill (sent killed (processes j))) ++ trace s))) ;;
      try_ (fun i => match resume fg killed (job_id j) (js i) with
                     | Some s => Some (with_js s i)
                     | None => None
                     end) ;;
      if fg then wait_job_async (job_id j) ;; ret tt else ret tt
  end.
(** src/builtins.rs:108-133 [fgbg]. *)
Definition fgbg_async (sc : simple_command) : M unit :=
  interrupts_off ;;
  match words_of sc with
  | None => fail (lit "fgbg needs an argument")
  | Some ws =>
      x <- word_at 0 ws ;;
      a <- unwrap (job_arg x) ;;
      fg_or_bg_async (str_eqb (sc_name sc) (lit "fg")) (fst a) (snd a) ;;
      interrupts_on
  end.

Section Rec.
Context (rec : list and_or -> M Z).

(** src/eval.rs:452-482 [eval_builtin]. *)
Definition eval_builtin_async (sc : simple_command) : M unit :=
  sc' <- expand_async sc ;;
  if str_eqb (sc_name sc') (lit "fg") || str_eqb (sc_name sc') (lit "bg") then fgbg_async sc' else call_builtin w rec sc'.
(** src/eval.rs:333-368 [eval_simple_command]. *)
Definition eval_simple_command_async (sc : simple_command) : M (option (process * simple_command)) :=
  if check_if_builtin (sc_name sc) then eval_builtin_async sc ;; ret None
  else
    sc' <- expand_async sc ;;
    v <- unwrap (argv sc') ;;
    ret (Some (process_new v (sc_name sc') (sc_name sc'), sc')).
(** src/eval.rs:306-321 [eval_command]. *)
Definition eval_command_async (c : command) : M (option (process * simple_command)) :=
  match c with
  | CSimple sc => eval_simple_command_async sc
  | _ => eval_command w rec c
  end.
(** The loop of src/eval.rs:124-134. *)
Fixpoint gather_async (cs : list command) : M (list (process * simple_command)) :=
  match cs with
  | [] => ret []
  | c :: cs' =>
      r <- eval_command_async c ;;
      match r with
      | None => ret []
      | Some pc => rest <- gather_async cs' ;; ret (pc :: rest)
      end
  end.

(** src/eval.rs:114-301 [eval_pipeline]. *)
Definition eval_pipeline_async (p : pipeline) : M Z :=
  let '(Pipeline _ cs bg) := p in
  signals PStart ;;
  interrupts_off ;;
  pcs <- gather_async cs ;;
  st <- match pcs with
        | [] => ret 0
        | _ =>
            pcs <- (if bg then ret pcs else run_functions rec pcs) ;;
            signals PFunctions ;;
            run_job_async bg pcs
        end ;;
  signals PEnd ;;
  ret st.

(** src/eval.rs:76-102 [eval_and_or]. *)
Fixpoint eval_and_or_async (a : and_or) : M Z :=
  match a with
  | AoOne p => eval_pipeline_async p
  | AoMore l c p =>
      st <- eval_and_or_async l ;;
      match c with
      | CAnd => if Z.eqb st 0 then eval_pipeline_async p else ret st
      | COr => if Z.eqb st 0 then ret st else eval_pipeline_async p
      end
  end.

(** src/eval.rs:60-69 [parse_tree]. *)
Fixpoint parse_tree_async (status : Z) (l : list and_or) : M Z :=
  match l with
  | [] => ret status
  | a :: l' => st <- eval_and_or_async a ;; parse_tree_async st l'
  end.
End Rec.

(** The evaluator, as [evaluate] in Eval.v.  src/eval.rs:60-600. *)
Fixpoint evaluate_async (n : nat) (l : list and_or) : M Z :=
  match n with
  | O => stop OFuel
  | S n' => parse_tree_async (evaluate_async n') (-1) l
  end.

(** src/eval.rs:45-55 [eval] on a whole command. *)
Definition eval_async (n : nat) (c : complete_command) : M Z := eval_complete (evaluate_async n) c.

(** src/main.rs:210-237: one line, as [run_line] in Main.v. *)
Definition run_line_async (n : nat) (t : str) : M unit :=
  match t with
  | [] => ret tt
  | _ =>
      match parse t with
      | None => ret tt
      | Some c => catch (eval_async n c) ;; ret tt
      end
  end.

(** src/trap.rs:180-218 [on_sig] for SIGCHLD, at the prompt, as in Main.v, and
    what arrives in its handler and after it. *)
Definition child_signal_async : M unit :=
  fun s =>
    if masked (js (im s)) || negb (handlers (im s)) || forked (im s) then (OOk tt, s)
    else match deliver (expand_var (cm (im s)) (lit "PS4"))
                 (match sg PPrompt (trace s) with [] => [Sig 0] | ks => ks end)
                 (r_waits (w (trace s))) (js (im s)) with
         | WDone _ j _ => (OOk tt, Shell (with_js j (im s)) (EWait (-1) :: trace s))
         | WPanic => (OPanic, s)
         | WBlock => (OBlock, s)
         end.

(** src/main.rs:180-246 [interactive_loop], as in Main.v. *)
Fixpoint interactive_loop_async (n : nat) (ins : list typed) : M unit :=
  m <- look cm ;;
  unwrap (expand_var m (lit "PS1")) ;;
  match ins with
  | [] => stop OBlock
  | TLine t :: ins' => run_line_async n t ;; interactive_loop_async n ins'
  | TInterrupted :: ins' => interactive_loop_async n ins'
  | TClosed :: _ => save_history
  | TFailed :: _ => save_history
  | TChild :: ins' => child_signal_async ;; interactive_loop_async n ins'
  end.

(** src/main.rs:35-86 [main]: handlers are there only in the interactive loop, so
    the startup files, [-c] and scripts are run as in Main.v. *)
Definition main_async (n k : nat) (args : list str) (ins : list typed) : M unit :=
  m <- look cm ;;
  r <- unwrap (parse_args args m) ;;
  let f := snd r in
  on_cm (fun _ => f_cm f) ;;
  say_all (shown f) ;;
  set_up w n (script_name f) ;;
  match fst r with
  | Some t => read_from_args w n t
  | None =>
      if interactive f then change at_prompt ;; interactive_loop_async n ins
      else script_loop w n k (script_name f)
  end.

(** The same program with signals at every point of it, handlers or not: that
    the startup files, [-c] and scripts are run as in Main.v is then a theorem
    about a process as it starts ([C114_everywhere]).
    src/main.rs:322-349 [read_user_profile] and 356-383 [read_rc]. *)
Definition read_startup_async (n : nat) (file : str) : M unit :=
  f <- sys_open w file for_reading ;;
  match f with
  | None => ret tt
  | Some f =>
      while_open f (
        t <- ask w (fun r => r_read r file) ;;
        match parse (match t with Some t => t | None => [] end) with
        | None => ret tt
        | Some c =>
            r <- catch (eval_async n c) ;;
            match r with inl _ => ret tt | inr _ => stop OPanic end
        end)
  end.
(** The loop of src/main.rs:255-268, as [script_lines] in Main.v. *)
Fixpoint script_lines_async (n k : nat) (ls : list str) : M unit :=
  match k with
  | O => stop OFuel
  | S k' =>
      c <- unwrap (parse (hd [] ls)) ;;
      catch (eval_async n c) ;;
      script_lines_async n k' (tl ls)
  end.
(** src/main.rs:252-269 [script_loop], as in Main.v. *)
Definition script_loop_async (n k : nat) (file : str) : M unit :=
  f <- sys_open w file for_reading ;;
  f <- unwrap f ;;
  t <- ask w (fun r => r_read r file) ;;
  t <- unwrap t ;;
  script_lines_async n k (lines_of t).
(** src/main.rs:272-279 [read_from_args]. *)
Definition read_from_args_async (n : nat) (t : str) : M unit :=
  c <- unwrap (parse t) ;;
  catch (eval_async n c) ;;
  ret tt.
(** src/main.rs:51-67 and src/shell.rs:661-666 [set_arg_0], as [set_up] in Main.v. *)
Definition set_up_async (n : nat) (script : str) : M unit :=
  on_cm push_context_new ;;
  try_cm (add_var_pos (lit "0=" ++ script) 1) ;;
  read_startup_async n (lit "~/.rshrc") ;;
  read_startup_async n (lit "~/.profile").
(** src/main.rs:35-86 [main]. *)
Definition main_everywhere (n k : nat) (args : list str) (ins : list typed) : M unit :=
  m <- look cm ;;
  r <- unwrap (parse_args args m) ;;
  let f := snd r in
  on_cm (fun _ => f_cm f) ;;
  say_all (shown f) ;;
  set_up_async n (script_name f) ;;
  match fst r with
  | Some t => read_from_args_async n t
  | None =>
      if interactive f then change at_prompt ;; interactive_loop_async n ins
      else script_loop_async n k (script_name f)
  end.
End Async.
