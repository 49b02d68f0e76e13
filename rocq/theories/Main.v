(** Model of src/main.rs: the command line, the startup files, and the three
    ways the shell reads its input.

    Not modelled: the line editor's own behaviour and the history file (lines
    75, 183-184, 245), the messages about syntax errors and failed commands
    (lines 223, 235), and the switch for log output (line 166). *)
From Verif Require Import Base Ast Parser Context Alias Expand Jobs Shell Builtins Eval.
Local Open Scope Z_scope.

(** ** The command line *)

(** What src/main.rs:93-145 changes and returns: the fields [interactive] and
    [script_name] of the shell (src/shell.rs:64-65), the variables, what is
    printed, and the text to evaluate. *)
Record front := Front {
  interactive : bool;
  script_name : str;
  f_cm : cmgr;
  shown : list str
}.

(** The variables of the loop of src/main.rs:101-105. *)
Record scan_state := ScanState {
  non_interactive_mode : bool;
  load_args : bool;
  index : N;
  pos : nat
}.

(** src/main.rs:151-176 [parse_dash_arg] on a word that starts with a dash. *)
Definition parse_dash_arg (arg : str) : bool := contains_char (ch "c") (tl arg).

(** src/shell.rs:553-557 [set_script_name]. *)
Definition set_script_name (n : str) (f : front) : front := Front false n (f_cm f) (shown f).
(** src/shell.rs:566-572 [set_input_args] (and 349-351, [add_var]); [None] is a
    panic. *)
Definition set_input_args (a : str) (i : N) (f : front) : option front :=
  match add_var_pos (N_to_str i ++ lit "=" ++ a) 0 (f_cm f) with
  | Some m => Some (Front (interactive f) (script_name f) m (shown f))
  | None => None
  end.
(** [println!]. Lines src/main.rs:108 and 136. *)
Definition show (t : str) (f : front) : front := Front (interactive f) (script_name f) (f_cm f) (shown f ++ [t]).

(** The loop of src/main.rs:107-129: the new state, and the position at which
    [break] left the loop, if it did.  [None]: a panic, at line 109 on an empty
    word. *)
Fixpoint scan_args (args : list str) (v : scan_state) (f : front) : option (option nat * front) :=
  match args with
  | [] => Some (None, f)
  | arg :: args' =>
      let f := show (lit "arg: " ++ arg) f in
      let next := ScanState (non_interactive_mode v) (load_args v) (index v) (S (pos v)) in
      match arg with
      | [] => None
      | c :: _ =>
          if N.eqb c (ch "-") && negb (non_interactive_mode v) then
            if parse_dash_arg arg then Some (Some (pos v), f) else scan_args args' next f
          else if non_interactive_mode v && negb (load_args v) then
            scan_args args' (ScanState (non_interactive_mode v) true (index v) (S (pos v))) (set_script_name arg f)
          else if load_args v then
            match set_input_args arg (index v) f with
            | None => None
            | Some f' => scan_args args' (ScanState (non_interactive_mode v) (load_args v) (index v + 1) (S (pos v))) f'
            end
          else if negb (Nat.eqb (pos v) 0) then
            scan_args args' (ScanState true true (index v) (S (pos v))) (set_script_name arg f)
          else scan_args args' next f
      end
  end.

(** [{:?}] of a vector of strings (line 136); the escapes of control characters
    other than newline, tab, return and NUL are left out. *)
Definition debug_char (c : char) : str :=
  if N.eqb c (ch """") then [92; 34]%N else if N.eqb c 92 then [92; 92]%N
  else if N.eqb c 10 then lit "\n" else if N.eqb c 9 then lit "\t" else if N.eqb c 13 then lit "\r"
  else if N.eqb c 0 then lit "\0" else [c].
(** [{:?}] of the vector (src/main.rs:136). *)
Definition debug_list (ws : list str) : str :=
  lit "[" ++ join (lit ", ") (map (fun w => lit """" ++ List.concat (map debug_char w) ++ lit """") ws) ++ lit "]".

(** src/main.rs:93-145 [parse_args], with the shell as src/shell.rs:117-137
    makes it. *)
Definition parse_args (args : list str) (m : cmgr) : option (option str * front) :=
  let f := Front true (lit "rsh") m [] in
  if Nat.eqb (List.length args) 1 then Some (None, f)
  else match scan_args args (ScanState false false 1 0) f with
       | None => None
       | Some (None, f) => Some (None, f)
       | Some (Some p, f) =>
           let rest := skipn (S p) args in
           Some (Some (join (lit " ") rest),
                 show (debug_list rest) (Front false (script_name f) (f_cm f) (shown f)))
       end.

Section Main.
Context (w : os) (n : nat).

(** ** Startup files *)

(** src/main.rs:322-349 [read_user_profile] and 356-383 [read_rc].  The text is
    empty when it cannot be read. *)
Definition read_startup (file : str) : M unit :=
  f <- sys_open w file for_reading ;;
  match f with
  | None => ret tt
  | Some f =>
      while_open f (
        t <- ask w (fun r => r_read r file) ;;
        match parse (match t with Some t => t | None => [] end) with
        | None => ret tt
        | Some c =>
            r <- catch (eval w n c) ;;
            match r with inl _ => ret tt | inr _ => stop OPanic end
        end)
  end.

(** ** Input *)

(** What happens while the shell waits for a line (line 189): the user types a
    line or an interrupt, closes the input, the editor fails, or SIGCHLD
    arrives. *)
Inductive typed := TLine (t : str) | TInterrupted | TClosed | TFailed | TChild.

(** src/trap.rs:180-218 [on_sig] for SIGCHLD, at the prompt.  A signal that is
    blocked or for which no handler is installed does nothing here (that a
    blocked one is delivered later, in the middle of a command, is in Async.v). *)
Definition child_signal : M unit :=
  fun s =>
    if masked (js (im s)) || negb (handlers (im s)) || forked (im s) then (OOk tt, s)
    else match sig_chld (expand_var (cm (im s)) (lit "PS4")) (r_waits (w (trace s))) (js (im s)) with
         | WDone _ j _ => (OOk tt, Shell (with_js j (im s)) (EWait (-1) :: trace s))
         | WPanic => (OPanic, s)
         | WBlock => (OBlock, s)
         end.

(** src/main.rs:210-237: one line. *)
Definition run_line (t : str) : M unit :=
  match t with
  | [] => ret tt
  | _ =>
      match parse t with
      | None => ret tt
      | Some c => catch (eval w n c) ;; ret tt
      end
  end.

(** src/main.rs:180-246 [interactive_loop].  When the list of what happens runs
    out, the shell waits for ever. *)
Fixpoint interactive_loop (ins : list typed) : M unit :=
  m <- look cm ;;
  unwrap (expand_var m (lit "PS1")) ;;
  match ins with
  | [] => stop OBlock
  | TLine t :: ins' => run_line t ;; interactive_loop ins'
  | TInterrupted :: ins' => interactive_loop ins'
  | TClosed :: _ => save_history
  | TFailed :: _ => save_history
  | TChild :: ins' => child_signal ;; interactive_loop ins'
  end.

(** [BufRead::read_line]: the lines of a text with their newlines. *)
Fixpoint lines_of (t : str) : list str :=
  match t with
  | [] => []
  | c :: t' =>
      if N.eqb c 10 then [c] :: lines_of t'
      else match lines_of t' with
           | [] => [[c]]
           | l :: ls => (c :: l) :: ls
           end
  end.

(** The loop of src/main.rs:255-268, [k] turns of it; the loop has no exit.
    After the last line [read_line] yields the empty text. *)
Fixpoint script_lines (k : nat) (ls : list str) : M unit :=
  match k with
  | O => stop OFuel
  | S k' =>
      c <- unwrap (parse (hd [] ls)) ;;
      catch (eval w n c) ;;
      script_lines k' (tl ls)
  end.

(** src/main.rs:252-269 [script_loop].  The file is read at once, so a line that
    is not UTF-8 stops the shell before the first line and not when it is reached. *)
Definition script_loop (k : nat) (file : str) : M unit :=
  f <- sys_open w file for_reading ;;
  f <- unwrap f ;;
  t <- ask w (fun r => r_read r file) ;;
  t <- unwrap t ;;
  script_lines k (lines_of t).

(** src/main.rs:272-279 [read_from_args]. *)
Definition read_from_args (t : str) : M unit :=
  c <- unwrap (parse t) ;;
  catch (eval w n c) ;;
  ret tt.

(** ** The program *)

(** src/main.rs:51-67 and src/shell.rs:661-666 [set_arg_0]. *)
Definition set_up (script : str) : M unit :=
  on_cm push_context_new ;;
  try_cm (add_var_pos (lit "0=" ++ script) 1) ;;
  read_startup (lit "~/.rshrc") ;;
  read_startup (lit "~/.profile").

(** src/main.rs:71-75, src/shell.rs:166-168 and 458-461: the handlers are installed
    and the history is to be kept in
    a file of the current directory. *)
Definition at_prompt (i : image) : image := with_history_location (lit "history.txt") (with_handlers true i).

(** src/main.rs:35-86 [main]; [k]: see [script_lines]. *)
Definition main (k : nat) (args : list str) (ins : list typed) : M unit :=
  m <- look cm ;;
  a <- unwrap (parse_args args m) ;;
  let f := snd a in
  on_cm (fun _ => f_cm f) ;;
  say_all (shown f) ;;
  set_up (script_name f) ;;
  match fst a with
  | Some t => read_from_args t
  | None =>
      if interactive f then change at_prompt ;; interactive_loop ins
      else script_loop k (script_name f)
  end.

End Main.

(** The process as it starts: the shell of src/shell.rs:117-137, no signal
    blocked, no handler installed; [fds] and [env] are inherited. *)
Definition fresh_image (root : bool) (cwd ppid pid : str) (env : smap str) (fds : fdtable) : image :=
  Image (cm_default root cwd ppid pid env) [] (Jst jc_new false false []) 0 false env fds false 0 [].

(** The exit status of the process: src/builtins.rs:72-78 for [exit], 101 for a
    panic, 0 when [main] returns. *)
Definition exit_code (o : out unit) : option Z :=
  match o with
  | OOk _ => Some 0
  | OExit c => Some c
  | OPanic => Some 101
  | _ => None
  end.
