(** Model of src/eval.rs.

    The code expands commands in place, in the syntax tree; every tree is
    evaluated once (a function body is copied first, src/eval.rs:580), so the
    model does not need to store the expanded tree. *)
From Verif Require Import Base Ast Parser Context Alias Expand Jobs Shell Builtins.
Local Open Scope Z_scope.

Section Eval.
Context (w : os) (rec : list and_or -> M Z).

(** src/eval.rs:559-586 [eval_function]; [false]: no such function.  The result
    of the body (src/eval.rs:600) is dropped; so are the redirections of the
    definition and of the call. *)
Definition eval_function (sc : simple_command) : M bool :=
  m <- look cm ;;
  match get_function (sc_name sc) m with
  | None => ret false
  | Some b =>
      try_cm (enter_function (sc_name sc) match words_of sc with Some ws => ws | None => [] end) ;;
      catch (rec (fb_body b)) ;;
      on_cm (fun m => match pop_context m with Some m' => m' | None => m end) ;;
      ret true
  end.

(** src/eval.rs:452-482 [eval_builtin]. *)
Definition eval_builtin (sc : simple_command) : M unit :=
  sc' <- expand_command w sc ;;
  call_builtin w rec sc'.

(** src/eval.rs:333-368 [eval_simple_command]. *)
Definition eval_simple_command (sc : simple_command) : M (option (process * simple_command)) :=
  if check_if_builtin (sc_name sc) then eval_builtin sc ;; ret None
  else
    sc' <- expand_command w sc ;;
    v <- unwrap (argv sc') ;;
    ret (Some (process_new v (sc_name sc') (sc_name sc'), sc')).

(** src/eval.rs:306-321 [eval_command], 324-329 [eval_function_definition]. *)
Definition eval_command (c : command) : M (option (process * simple_command)) :=
  match c with
  | CSimple sc => eval_simple_command sc
  | CFunction name body redirs => on_cm (add_function name (FunctionBody body redirs)) ;; ret None
  | CGroup _ => stop (OErr (EText (lit "Not implemented")))
  end.

(** The loop of src/eval.rs:124-134. *)
Fixpoint gather (cs : list command) : M (list (process * simple_command)) :=
  match cs with
  | [] => ret []
  | c :: cs' =>
      r <- eval_command c ;;
      match r with
      | None => ret []
      | Some pc => rest <- gather cs' ;; ret (pc :: rest)
      end
  end.

(** The loops of src/eval.rs:143-168: functions are called at once, in order,
    and taken out of the pipeline. *)
Fixpoint run_functions (cs : list (process * simple_command)) : M (list (process * simple_command)) :=
  match cs with
  | [] => ret []
  | pc :: cs' =>
      m <- look cm ;;
      if is_function (sc_name (snd pc)) m then
        ok <- eval_function (snd pc) ;;
        if ok : bool then
          f <- look forked ;;
          if f : bool then stop (OExit 0)
          else set_exit_status 0 ;; run_functions cs'
        else stop (OExit 1)
      else rest <- run_functions cs' ;; ret (pc :: rest)
  end.

(** src/eval.rs:391-428 [eval_redirect]: the number before the operator is not
    used, the file is opened without truncation, the descriptor it is opened on
    stays open. *)
Definition redirect_how (t : redirect_type) : how :=
  match t with
  | RInput => for_reading
  | ROutput => How false true false true false
  | RAppend => How false true true true false
  end.
(** The descriptor of src/eval.rs:402, 411 and 421. *)
Definition redirect_target (t : redirect_type) : Z := match t with RInput => 0 | _ => 1 end.
(** The loop of src/eval.rs:391-428. *)
Fixpoint eval_redirect (rs : list io_redirect) : M unit :=
  match rs with
  | [] => ret tt
  | r :: rs' =>
      f <- sys_open w (filename r) (redirect_how (redirect r)) ;;
      f <- unwrap f ;;
      sys_dup2 f (redirect_target (redirect r)) ;;
      eval_redirect rs'
  end.

(** src/eval.rs:383-388 [eval_assignment]. *)
Fixpoint eval_assignment (ws : list str) : M unit :=
  match ws with
  | [] => ret tt
  | x :: ws' =>
      match split_char (ch "=") x with
      | k :: v :: _ => set_env k v ;; eval_assignment ws'
      | _ => stop OPanic
      end
  end.

(** src/eval.rs:371-380 [eval_prefix_suffix]. *)
Definition eval_prefix_suffix (sc : simple_command) : M unit :=
  match sc_prefix sc with
  | Some p => eval_redirect (p_redirect p) ;; eval_assignment (assignment p)
  | None => ret tt
  end ;;
  match sc_suffix sc with
  | Some s => eval_redirect (s_redirect s)
  | None => ret tt
  end.

(** src/eval.rs:202-249: what the child does; it never returns normally.
    [temp_fork] (line 613) has set the flag [forked]; the job stays borrowed
    (line 177). *)
Definition wire_child (c : child) : M unit :=
  let '(pr, pw) := c_pipe c in
  (if Z.leb 0 pw then sys_close pr else ret tt) ;;
  (if Z.ltb 0 (c_prev c) then sys_dup2 (c_prev c) 0 ;; sys_close (c_prev c) else ret tt) ;;
  (if Z.ltb 1 pw then sys_dup2 pw 1 ;; sys_close pw else ret tt).
(** src/eval.rs:202-249. *)
Definition child_main (c : child) : M unit :=
  change (with_forked true) ;;
  on_jobs hold_job ;;
  (if c_bg c then p <- ask w r_getpid ;; note (ESetpgid p p) else ret tt) ;;
  wire_child c ;;
  eval_prefix_suffix (c_cmd c) ;;
  m <- look cm ;;
  if is_function (sc_name (c_cmd c)) m then
    ok <- eval_function (c_cmd c) ;;
    stop (OExit (if ok : bool then 0 else 1))
  else
    v <- look env ;;
    r <- catch (temp_execve w (p_argv0 (c_proc c)) (p_argv (c_proc c)) v) ;;
    match r with
    | inl _ => stop OPanic              (* unreachable!() *)
    | inr _ => stop (OExit 1)
    end.

(** src/eval.rs:605-612 [temp_fork] in the parent. *)
Definition fork_child (c : child) : M (option positive) :=
  r <- ask w r_fork ;;
  i <- look (fun i => i) ;;
  note (EFork i c r) ;;
  ret r.

(** The loop of src/eval.rs:188-263; [id] is the job, [i] the number of the
    process in it, [prev] and [pip] the variables of lines 184-185.  The error
    of line 193 leaves the job in the table. *)
Fixpoint launch (id : Z) (bg : bool) (i : nat) (cs : list (process * simple_command)) (prev : Z) (pip : Z * Z)
  : M unit :=
  match cs with
  | [] => ret tt
  | (p, sc) :: cs' =>
      pip <- match cs' with
             | [] => ret (fst pip, -1)
             | _ => make_pipe w
             end ;;
      r <- fork_child (Child sc p prev pip bg) ;;
      match r with
      | Some q => on_jobs (started id i (Zpos q))
      | None => ret tt
      end ;;
      (if Z.leb 0 prev then sys_close prev else ret tt) ;;
      sys_close_ignored (snd pip) ;;
      launch id bg (S i) cs' (fst pip) pip
  end.

(** src/eval.rs:173-300: create the job, start it, wait for it or report it. *)
Definition run_job (bg : bool) (cs : list (process * simple_command)) : M Z :=
  id <- look (fun i => next_job_id (jobs (js i))) ;;
  on_jobs (create_job (map fst cs) bg) ;;
  launch id bg 0 cs (-1) (-1, -1) ;;
  match cs with
  | [] => sh_delete_job id
  | _ =>
      if bg then
        j <- look (fun i => get_job id (jobs (js i))) ;;
        j <- unwrap j ;;
        say (lit "[" ++ Z_to_str (job_id j) ++ lit "] ("
             ++ Z_to_str match processes j with p :: _ => p_pid p | [] => -1 end
             ++ lit ") " ++ job_text j)
      else
        st <- wait_job w id ;;
        sh_delete_job id ;;
        match st with
        | Exited _ c => set_exit_status c
        | _ => ret tt
        end
  end ;;
  interrupts_on ;;
  get_exit_code.

(** src/eval.rs:114-301 [eval_pipeline]; [bang] is ignored. *)
Definition eval_pipeline (p : pipeline) : M Z :=
  let '(Pipeline _ cs bg) := p in
  interrupts_off ;;
  pcs <- gather cs ;;
  match pcs with
  | [] => ret 0
  | _ =>
      pcs <- (if bg then ret pcs else run_functions pcs) ;;
      run_job bg pcs
  end.

(** src/eval.rs:76-102 [eval_and_or]. *)
Fixpoint eval_and_or (a : and_or) : M Z :=
  match a with
  | AoOne p => eval_pipeline p
  | AoMore l c p =>
      st <- eval_and_or l ;;
      match c with
      | CAnd => if Z.eqb st 0 then eval_pipeline p else ret st
      | COr => if Z.eqb st 0 then ret st else eval_pipeline p
      end
  end.

(** src/eval.rs:60-69 [parse_tree]. *)
Fixpoint parse_tree_from (status : Z) (l : list and_or) : M Z :=
  match l with
  | [] => ret status
  | a :: l' => st <- eval_and_or a ;; parse_tree_from st l'
  end.
(** src/eval.rs:60-69 [parse_tree]. *)
Definition parse_tree (l : list and_or) : M Z := parse_tree_from (-1) l.

End Eval.

(** The evaluator; [n] bounds the depth of nested function calls, [eval],
    [source] and [export context]. Running out of it is [OFuel]. In the code
    the functions of src/eval.rs:60-600 and src/builtins.rs call each other
    without a bound. *)
Fixpoint evaluate (w : os) (n : nat) (l : list and_or) : M Z :=
  match n with
  | O => stop OFuel
  | S n' => parse_tree w (evaluate w n') l
  end.

(** src/eval.rs:45-55 [eval] on a whole command. *)
Definition eval (w : os) (n : nat) (c : complete_command) : M Z := eval_complete (evaluate w n) c.

(** What a forked child does with its own copy of the process.
    src/eval.rs:202-249. *)
Definition run_child (w : os) (n : nat) (i : image) (c : child) : out unit * shell :=
  child_main w (evaluate w n) c (Shell i []).
