(** Model of src/builtins.rs.

    [rec] evaluates a list of commands ([eval::eval] of src/eval.rs:45-55 on a
    parsed text); Eval.v ties the knot.  [w] is the operating system.

    Indexing a vector out of bounds and [unwrap] on an error are [OPanic].
    The messages on standard error are not modelled, nor is the order in which
    the entries of a [HashMap] are printed (the model prints in the order of its
    lists). *)
From Verif Require Import Base Ast Parser Context Alias Expand Jobs Shell.
Local Open Scope Z_scope.

Section Builtins.
Context (w : os) (rec : list and_or -> M Z).

(** src/eval.rs:45-55 [eval]. *)
Definition eval_complete (c : complete_command) : M Z :=
  match c with
  | None => ret 0
  | Some l => rec l
  end.

(** [command.suffix.as_ref().map(|s| &s.word)]. As at src/builtins.rs:54. *)
Definition words_of (sc : simple_command) : option (list str) :=
  match sc_suffix sc with Some s => Some (word_list s) | None => None end.
(** [word[i]]. As at src/builtins.rs:76. *)
Definition word_at (i : nat) (ws : list str) : M str := unwrap (nth_error ws i).
(** [Err(Box::new(..))] with a text, as at src/builtins.rs:418-420. *)
Definition fail {A} (t : str) : M A := stop (OErr (EText t)).

(** src/builtins.rs:50-62 [change_directory]. *)
Definition change_directory (sc : simple_command) : M unit :=
  interrupts_off ;;
  path <- match words_of sc with
          | None => v <- look env ;; unwrap (sget (lit "HOME") v)
          | Some ws => word_at 0 ws
          end ;;
  ok <- ask w (fun r => r_chdir r path) ;;
  if ok : bool then note (EChdir path) ;; interrupts_on else stop (OErr EOs).

(** src/shell.rs:159-163 and 446-449 [save_history].  The event records the call;
    what the line editor does with it (rustyline: it writes the lines typed, if
    there are any, over the file) is not modelled, nor is the message that the
    call failed. *)
Definition save_history : M unit := p <- look history_location ;; note (ESave p).

(** src/builtins.rs:68-79 [quit]. *)
Definition quit (sc : simple_command) : M unit :=
  save_history ;;
  match words_of sc with
  | None | Some [] => c <- get_exit_code ;; stop (OExit c)
  | Some (x :: _) => c <- unwrap (parse_i32 x) ;; stop (OExit c)
  end.

(** src/builtins.rs:85-95 [return_cmd]. *)
Definition return_cmd (sc : simple_command) : M unit :=
  match words_of sc with
  | None | Some [] => ret tt
  | Some (x :: _) => c <- unwrap (parse_i32 x) ;; set_exit_status c
  end.

(** src/builtins.rs:99-103 [jobs]. *)
Definition jobs_cmd : M unit :=
  j <- look js ;;
  t <- unwrap (display_jobs (Jobs.jobs j)) ;;
  say t.

(** [id as i32] (src/builtins.rs:142,177). *)
Definition to_i32 (n : Z) : Z := if Z.ltb n 0x80000000 then n else n - 0x100000000.

(** src/builtins.rs:115-123: what the argument names.  [None]: a panic. *)
Definition job_arg (x : str) : option (bool * Z) :=
  match x with
  | [] => None
  | c :: r =>
      if N.eqb c (ch "%")
      then match parse_u32 r with Some n => Some (true, Z.of_N n) | None => None end
      else match parse_u32 x with Some n => Some (false, Z.of_N n) | None => None end
  end.

(** src/builtins.rs:161-163 and 194-196: the processes that are sent the signal, up
    to the first for which [kill] fails. *)
Fixpoint sent (killed : pid -> bool) (ps : list process) : list pid :=
  match ps with
  | [] => []
  | p :: ps' => if killed (p_pid p) then p_pid p :: sent killed ps' else []
  end.

(** src/builtins.rs:138-168 [fg] and 173-201 [bg]; the answers of the [kill]
    calls are read at one moment.  A job that is borrowed cannot be changed
    (lines 158 and 191). *)
Definition fg_or_bg (fg : bool) (by_job : bool) (n : Z) : M unit :=
  j <- look (fun i => if by_job then get_job n (Jobs.jobs (js i)) else get_job_pid (to_i32 n) (Jobs.jobs (js i))) ;;
  match j with
  | None => fail (if by_job then lit "No job with that jid" else lit "No job with that pid")
  | Some j =>
      if borrowed j then stop OPanic else
      killed <- ask w r_kill ;;
      (fun s => (OOk tt, Shell (im s) (rev (map EKill (sent killed (processes j))) ++ trace s))) ;;
      try_ (fun i => match resume fg killed (job_id j) (js i) with
                     | Some s => Some (with_js s i)
                     | None => None
                     end) ;;
      if fg then wait_job w (job_id j) ;; ret tt else ret tt
  end.

(** src/builtins.rs:108-133 [fgbg]. *)
Definition fgbg (sc : simple_command) : M unit :=
  interrupts_off ;;
  match words_of sc with
  | None => fail (lit "fgbg needs an argument")
  | Some ws =>
      x <- word_at 0 ws ;;
      a <- unwrap (job_arg x) ;;
      fg_or_bg (str_eqb (sc_name sc) (lit "fg")) (fst a) (snd a) ;;
      interrupts_on
  end.

(** src/shell.rs:191-195 [display_aliases]. *)
Fixpoint say_all (ts : list str) : M unit :=
  match ts with
  | [] => ret tt
  | t :: ts' => say t ;; say_all ts'
  end.
(** src/shell.rs:191-195 [display_aliases]. *)
Definition display_aliases : M unit :=
  a <- look al ;;
  say_all (map (fun kv => lit "alias " ++ fst kv ++ lit "='" ++ snd kv ++ lit "'") a).

(** src/builtins.rs:208-226 [alias]. *)
Definition alias_cmd (sc : simple_command) : M unit :=
  match words_of sc with
  | None => display_aliases
  | Some ws =>
      x <- word_at 0 ws ;;
      if contains_str (lit "-p") x then display_aliases
      else try_ (fun i => match alias_builtin ws (al i) with Some a => Some (with_al a i) | None => None end)
  end.

(** src/builtins.rs:232-245 [unalias]. *)
Definition unalias_cmd (sc : simple_command) : M unit :=
  match words_of sc with
  | None => fail (lit "unalias needs an argument")
  | Some ws =>
      a <- look al ;;
      r <- unwrap (unalias_builtin ws a) ;;
      if fst r : bool then change (with_al (snd r)) else fail (lit "unalias only takes one argument")
  end.

(** src/builtins.rs:261-266 and the same text at 384-389, 693-698: parse or
    report. *)
Definition parse_text (t : str) : M complete_command :=
  match parse t with Some c => ret c | None => stop (OErr EParse) end.

(** src/builtins.rs:255-278 [create_context_from_file]; the result is the
    location of the scope.  The event [ENamespace] records whether the scope was
    taken off the stack again. *)
Definition create_context_from_file (file : str) : M nat :=
  f <- sys_open w file for_reading ;;
  match f with
  | None => stop (OErr EOs)
  | Some f =>
      while_open f (
        t <- ask w (fun r => r_read r file) ;;
        match t with
        | None => stop (OErr EOs)
        | Some t =>
            c <- parse_text t ;;
            on_cm push_context_new ;;
            r <- catch (eval_complete c) ;;
            match r with
            | inr e => note (ENamespace false) ;; stop (OErr (EFile e))
            | inl _ =>
                m <- look cm ;;
                m' <- unwrap (pop_context m) ;;
                on_cm (fun _ => m') ;;
                note (ENamespace true) ;;
                ret (get_context m)
            end
        end)
  end.

(** src/builtins.rs:300-335: [export context ...]. *)
Definition export_context (ws : list str) : M unit :=
  match ws with
  | w0 :: w1 :: _ =>
      if contains_char (ch "=") w1 then
        let ns := nth 0 (split_char (ch "=") w1) [] in
        let file := nth 1 (split_char (ch "=") w1) [] in
        if str_eqb file (lit "self") then on_cm (fun m => add_context ns (get_context m) m)
        else l <- create_context_from_file file ;; on_cm (add_context ns l)
      else if str_eqb w1 (lit "self") then
        m <- look cm ;;
        v <- unwrap (ctx_get_var (lit "0") (deref (get_context m) m)) ;;
        on_cm (add_context (value v) (get_context m))
      else l <- create_context_from_file w0 ;; on_cm (add_context w0 l)
  | _ => fail (lit "export context needs an argument")
  end.

(** The body of the loop of src/builtins.rs:337-357. *)
Definition export_word (x : str) : M unit :=
  if contains_char (ch "=") x then
    let key := nth 0 (split_char (ch "=") x) [] in
    let v := nth 1 (split_char (ch "=") x) [] in
    try_cm (add_var_pos x 0) ;;
    set_env key (trim_quotes v)
  else
    m <- look cm ;;
    match expand_var m x with
    | Some v =>
        try_cm (fun m => update_opt (get_env_context m)
                           (ctx_set false (x ++ lit "=" ++ v) (deref (get_env_context m) m)) m)
    | None =>
        match get_function x m with
        | Some b => on_cm (fun m => update (get_env_context m) (ctx_add_function x b (deref (get_env_context m) m)) m)
        | None => ret tt
        end
    end.
(** The loop of src/builtins.rs:337-358. *)
Fixpoint export_words (ws : list str) : M unit :=
  match ws with
  | [] => ret tt
  | x :: ws' => export_word x ;; export_words ws'
  end.

(** src/builtins.rs:290-360 [export]. *)
Definition print_env : M unit :=
  v <- look env ;;
  say_all (map (fun kv => fst kv ++ lit "=" ++ snd kv) v).
(** src/builtins.rs:290-360 [export]. *)
Definition export_cmd (sc : simple_command) : M unit :=
  match words_of sc with
  | None | Some [] => print_env
  | Some (x :: ws) =>
      if contains_str (lit "-p") x then print_env
      else if str_eqb x (lit "context") then export_context (x :: ws)
      else export_words (x :: ws)
  end.

(** src/builtins.rs:363-369 [assignment]. *)
Definition assignment_cmd (sc : simple_command) : M unit :=
  p <- unwrap (sc_prefix sc) ;;
  a <- unwrap (nth_error (assignment p) 0) ;;
  try_cm (add_var a).

(** src/builtins.rs:375-401 [eval_cmd]. *)
Definition eval_cmd (sc : simple_command) : M unit :=
  match words_of sc with
  | None => fail (lit "eval needs an argument")
  | Some ws =>
      x <- word_at 0 ws ;;
      c <- parse_text (x ++ [10%N]) ;;
      r <- catch (eval_complete c) ;;
      match r with inl _ => ret tt | inr e => stop (OErr (EString e)) end
  end.

(** src/builtins.rs:405-409 [pwd]. *)
Definition pwd : M unit :=
  d <- ask w r_cwd ;;
  d <- unwrap d ;;
  say d.

(** src/builtins.rs:411-415 [Flags]. *)
Inductive flag := FVariable | FFunction | FContext.

(** src/builtins.rs:417-457 [unset]. *)
Definition unset_flags (x : str) : option (flag * nat) :=
  if contains_char (ch "-") x then
    if contains_char (ch "f") x then Some (FFunction, 1%nat)
    else if contains_char (ch "c") x then Some (FContext, 1%nat)
    else if contains_char (ch "v") x then Some (FVariable, 1%nat)
    else None
  else Some (FVariable, 0%nat).
(** src/builtins.rs:417-457 [unset]. *)
Definition unset_cmd (sc : simple_command) : M unit :=
  match words_of sc with
  | None | Some [] => fail (lit "unset needs an argument")
  | Some (x :: ws) =>
      match unset_flags x with
      | None => fail (lit "unset: invalid option")
      | Some (f, pos) =>
          y <- word_at pos (x :: ws) ;;
          on_cm match f with
                | FVariable => remove_var y
                | FFunction => remove_function y
                | FContext => remove_context y
                end
      end
  end.

(** src/shell.rs:646-657 [print_readonly_vars(_context)]: the formatter of a
    variable (src/context.rs:49-53) calls [to_string], which calls the
    formatter: printing a variable overflows the stack, which kills the process. *)
Definition print_vars (vs : smap var) : M unit :=
  match vs with
  | [] => ret tt
  | _ => stop OPanic
  end.
(** src/shell.rs:687-692 [print_readonly_functions] and src/context.rs:371-380. *)
Definition readonly_names (m : cmgr) : list str :=
  nodup (list_eq_dec N.eq_dec)
    (flat_map (fun l => readonly_functions (deref l m)) (stack m ++ map snd (exported m))).
(** src/shell.rs:687-692 [print_readonly_functions]. *)
Definition print_readonly_functions : M unit := m <- look cm ;; say_all (readonly_names m).

(** src/builtins.rs:464-487: the options of [readonly]; [None]: invalid. *)
Definition readonly_flags (x : str) : option (flag * bool * nat) :=
  if contains_char (ch "-") x then
    if contains_char (ch "f") x then Some (FFunction, false, 1%nat)
    else if contains_char (ch "c") x then Some (FContext, false, 1%nat)
    else if contains_char (ch "v") x then Some (FVariable, false, 1%nat)
    else if contains_char (ch "p") x then Some (FVariable, true, 1%nat)
    else None
  else Some (FVariable, false, 0%nat).

(** src/builtins.rs:499-521: the listing. *)
Definition readonly_print (f : flag) (pos : nat) (ws : list str) : M unit :=
  m <- look cm ;;
  match f with
  | FVariable => print_vars (all_readonly_vars m) ;; print_vars (all_readonly_vars m)
  | FContext =>
      if Nat.eqb (List.length ws) pos then fail (lit "readonly needs an argument")
      else ns <- word_at pos ws ;;
           print_vars (all_readonly_vars_context ns m) ;; print_vars (all_readonly_vars m)
  | FFunction => print_readonly_functions
  end.

(** src/builtins.rs:459-544 [readonly]. *)
Definition readonly_cmd (sc : simple_command) : M unit :=
  match words_of sc with
  | None | Some [] => fail (lit "readonly needs an argument")
  | Some (x :: ws) =>
      let all := x :: ws in
      match readonly_flags x with
      | None => fail (lit "readonly: invalid option")
      | Some (f, p, pos) =>
          y <- word_at pos all ;;
          if contains_char (ch "-") y then
            if contains_char (ch "p") y then readonly_print f (S pos) all
            else fail (lit "readonly: invalid option")
          else if p then readonly_print f pos all
          else match f with
               | FFunction => print_readonly_functions
               | _ =>
                   if contains_char (ch "=") y then try_cm (add_var_readonly y)
                   else try_cm (set_var_readonly y)
               end
      end
  end.

(** src/builtins.rs:554-592: the options of [exec], as the code reads them: the
    three flags and the position of the command. *)
Record exec_opts := ExecOpts { x_empty : bool; x_dash : bool; x_rename : bool; x_pos : nat }.
(** src/builtins.rs:559-574: the first word. *)
Definition exec_opts1 (ws : list str) : M exec_opts :=
  x <- word_at 0 ws ;;
  if contains_char (ch "-") x then
    let c := contains_char (ch "c") x in
    let l := contains_char (ch "l") x in
    if contains_char (ch "a") x then
      if Nat.leb (List.length ws) 2 then fail (lit "exec -a needs an argument")
      else ret (ExecOpts c l true 2)
    else ret (ExecOpts c l false (if c || l then 1 else 0)%nat)
  else ret (ExecOpts false false false 0).
(** src/builtins.rs:576-592: the word after it. *)
Definition exec_opts2 (ws : list str) (o : exec_opts) : M exec_opts :=
  x <- word_at (x_pos o) ws ;;
  if contains_char (ch "-") x then
    let o := if contains_char (ch "c") x then ExecOpts true (x_dash o) (x_rename o) (S (x_pos o)) else o in
    x <- word_at (x_pos o) ws ;;
    let o := if contains_char (ch "l") x then ExecOpts (x_empty o) true (x_rename o) (S (x_pos o)) else o in
    x <- word_at (x_pos o) ws ;;
    if contains_char (ch "a") x then
      let o := ExecOpts (x_empty o) (x_dash o) true (S (S (x_pos o))) in
      if Nat.leb (List.length ws) (x_pos o) then fail (lit "exec -a needs an argument") else ret o
    else ret o
  else ret o.

(** src/builtins.rs:596-624: the argument vector.  [pos - 1] underflows only if
    [x_rename] is set with [x_pos = 0], which does not happen. *)
Definition exec_args (ws : list str) (o : exec_opts) : list str :=
  match skipn (x_pos o) ws with
  | [] => []
  | x :: args =>
      let shown := if x_rename o then nth (x_pos o - 1) ws [] else x in
      (if x_dash o then ch "-" :: shown else shown) :: args
  end.

(** src/builtins.rs:546-646 [exec_cmd]. *)
Definition exec_cmd (sc : simple_command) : M unit :=
  match words_of sc with
  | None | Some [] => fail (lit "exec needs an argument")
  | Some ws =>
      o <- exec_opts1 ws ;;
      o <- exec_opts2 ws o ;;
      if existsb (contains_char 0%N) (exec_args ws o) then stop OPanic else
      argv0 <- word_at (x_pos o) ws ;;
      v <- look env ;;
      temp_execve w argv0 (exec_args ws o) (if x_empty o then [] else v)
  end.

(** src/builtins.rs:669-671: positional parameters of [source]. *)
Fixpoint source_args (i : N) (args : list str) : M unit :=
  match args with
  | [] => ret tt
  | a :: args' => try_cm (add_var (N_to_str i ++ lit "=" ++ a)) ;; source_args (i + 1)%N args'
  end.

(** src/builtins.rs:648-710 [source].  The two calls of [lookup_command] (lines
    677, 678) are one: the file system is assumed not to change in between. *)
Definition source_cmd (sc : simple_command) : M unit :=
  match words_of sc with
  | None | Some [] => fail (lit "source needs an argument")
  | Some (file :: args) =>
      source_args 1 args ;;
      path <- (if contains_char (ch "/") file then ret file
               else p <- sh_lookup_command w file ;;
                    ret match p with Some q => q | None => file end) ;;
      f <- sys_open w path for_reading ;;
      match f with
      | None => fail (sc_name sc ++ lit " " ++ file ++ lit ": No such file or directory")
      | Some f =>
          while_open f (
            t <- ask w (fun r => r_read r path) ;;
            t <- unwrap t ;;
            c <- parse_text t ;;
            r <- catch (eval_complete c) ;;
            match r with inl _ => ret tt | inr e => stop (OErr (EString e)) end)
      end
  end.

(** src/eval.rs:484-551 [call_builtin]. *)
Definition call_builtin (sc : simple_command) : M unit :=
  let is x := str_eqb (sc_name sc) (lit x) in
  if is "cd"%string then change_directory sc
  else if is "exit"%string then quit sc
  else if is "return"%string then return_cmd sc
  else if is "jobs"%string then jobs_cmd
  else if is "fg"%string || is "bg"%string then fgbg sc
  else if is "alias"%string then alias_cmd sc
  else if is "unalias"%string then unalias_cmd sc
  else if is "export"%string then export_cmd sc
  else if is "eval"%string then eval_cmd sc
  else if is "unset"%string then unset_cmd sc
  else if is "pwd"%string then pwd
  else if is "readonly"%string then readonly_cmd sc
  else if is "exec"%string then exec_cmd sc
  else if is "."%string || is "source"%string then source_cmd sc
  else if is ""%string then assignment_cmd sc
  else fail (lit "Not a builtin").

End Builtins.

(** src/eval.rs:431-449 [check_if_builtin]. *)
Definition builtin_names : list string :=
  ["cd"; "exit"; "return"; "jobs"; "fg"; "bg"; "alias"; "unalias"; "export"; "eval"; "unset"; "pwd";
   "readonly"; "exec"; "."; "source"; ""]%string.
(** src/eval.rs:431-449 [check_if_builtin]. *)
Definition check_if_builtin (name : str) : bool := existsb (fun x => str_eqb name (lit x)) builtin_names.
