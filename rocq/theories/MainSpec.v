(** Vocabulary for whole sessions: what a command line asks for, what the shell
    looks like when it begins, and what a session is. *)
From Verif Require Import Base Ast Parser Context Alias Expand Jobs Shell Builtins Eval EvalSpec RunSpec Main.
From Verif Require ContextSpec JobsSpec.
Local Open Scope Z_scope.

(** ** Command lines *)

Definition option_word (a : str) : Prop := exists t, a = ch "-" :: t.
(** An option word that contains the option [c]. *)
Definition command_option (a : str) : Prop := exists t, a = ch "-" :: t /\ In (ch "c") t.
Definition other_option (a : str) : Prop := option_word a /\ ~ command_option a.

(** What the user asks for. *)
Inductive request :=
| Prompt
| Commands (t : str)
| Script (file : str) (args : list str).

Inductive asks : list str -> request -> Prop :=
| asks_nothing : asks [] Prompt
| asks_bare p : asks [p] Prompt
| asks_login d ws : ws <> [] -> command_option d -> asks (d :: ws) (Commands (join (lit " ") ws))
| asks_prompt p opts :
    p <> [] -> ~ command_option p -> opts <> [] -> Forall other_option opts -> asks (p :: opts) Prompt
| asks_commands p opts d ws :
    p <> [] -> ~ command_option p -> Forall other_option opts -> command_option d ->
    asks (p :: opts ++ d :: ws) (Commands (join (lit " ") ws))
| asks_script p opts file args :
    p <> [] -> ~ command_option p -> Forall other_option opts -> file <> [] -> ~ option_word file ->
    Forall (fun a => a <> []) args -> asks (p :: opts ++ file :: args) (Script file args).

(** The [i]-th argument as the shell stores it: [i=a]. *)
Definition numbered (i : N) (a : str) : str := N_to_str i ++ lit "=" ++ a.
(** The texts the shell cannot store. *)
Definition too_many_digits (i : N) (a : str) : Prop := ContextSpec.unsettable (numbered i a) = true.
(** What is kept of an argument: the text before the first ['='], without one
    pair of quotes. *)
Definition kept (a : str) : str := ContextSpec.unquote (ContextSpec.upto (ch "=") a).

(** The shell [s1] is [s] at the moment it starts to read commands. *)
Record begun (script : str) (args : list str) (s s1 : shell) : Prop := {
  bg_trace : trace s1 = trace s;
  bg_al : al (im s1) = al (im s);
  bg_status : exit_status (im s1) = exit_status (im s);
  bg_forked : forked (im s1) = forked (im s);
  bg_env : env (im s1) = env (im s);
  bg_fds : fds (im s1) = fds (im s);
  bg_pipe : next_pipe (im s1) = next_pipe (im s);
  bg_history : history_location (im s1) = history_location (im s);
  bg_jobs : jobs (js (im s1)) = jobs (js (im s));
  bg_masked : masked (js (im s1)) = masked (js (im s));
  bg_scopes : List.length (stack (cm (im s1))) = 2%nat;
  bg_zero : get_var (lit "0") (cm (im s1)) = Some (Var (kept script) false);
  bg_args : forall i a, nth_error args i = Some a ->
    get_var (N_to_str (1 + N.of_nat i)) (cm (im s1)) = Some (Var (kept a) false);
  bg_others : forall x, (forall i, (i <= List.length args)%nat -> x <> N_to_str (N.of_nat i)) ->
    get_var x (cm (im s1)) = get_var x (cm (im s))
}.

(** There are no files to read at the start. *)
Definition no_startup_files (w : os) : Prop :=
  forall t, r_open (w t) (lit "~/.rshrc") for_reading = false /\ r_open (w t) (lit "~/.profile") for_reading = false.

(** ** Sessions at the prompt *)

(** Whether the SIGCHLD handler can run. *)
Definition listening (s : shell) : Prop :=
  masked (js (im s)) = false /\ handlers (im s) = true /\ forked (im s) = false.

Section Session.
Context (w : os) (n : nat).

(** A session: what was typed, how it ended, and the shell at the end. *)
Inductive session : list typed -> shell -> out unit -> shell -> Prop :=
| session_no_prompt ins s :
    get_var (lit "PS1") (cm (im s)) = None -> session ins s OPanic s
| session_waits s v :
    get_var (lit "PS1") (cm (im s)) = Some v -> session [] s OBlock s
| session_closed ins s v :
    get_var (lit "PS1") (cm (im s)) = Some v -> session (TClosed :: ins) s (OOk tt) (saved s)
| session_failed ins s v :
    get_var (lit "PS1") (cm (im s)) = Some v -> session (TFailed :: ins) s (OOk tt) (saved s)
| session_interrupted ins s v o s' :
    get_var (lit "PS1") (cm (im s)) = Some v -> session ins s o s' -> session (TInterrupted :: ins) s o s'
| session_not_a_command t ins s v o s' :
    get_var (lit "PS1") (cm (im s)) = Some v -> parse t = None ->
    session ins s o s' -> session (TLine t :: ins) s o s'
| session_line t ins s v r s1 o s' :
    get_var (lit "PS1") (cm (im s)) = Some v -> parse t <> None -> exec_text w n t s = (r, s1) -> returns r ->
    session ins s1 o s' -> session (TLine t :: ins) s o s'
| session_last_line t ins s v r s1 :
    get_var (lit "PS1") (cm (im s)) = Some v -> parse t <> None -> exec_text w n t s = (r, s1) -> ~ returns r ->
    session (TLine t :: ins) s (lift r) s1
| session_deaf ins s v o s' :
    get_var (lit "PS1") (cm (im s)) = Some v -> ~ listening s ->
    session ins s o s' -> session (TChild :: ins) s o s'
| session_child ins s v x j r o s' :
    get_var (lit "PS1") (cm (im s)) = Some v -> listening s ->
    sig_chld (expand_var (cm (im s)) (lit "PS4")) (r_waits (w (trace s))) (js (im s)) = WDone x j r ->
    session ins (Shell (with_js j (im s)) (EWait (-1) :: trace s)) o s' -> session (TChild :: ins) s o s'
| session_child_panics ins s v :
    get_var (lit "PS1") (cm (im s)) = Some v -> listening s ->
    sig_chld (expand_var (cm (im s)) (lit "PS4")) (r_waits (w (trace s))) (js (im s)) = WPanic ->
    session (TChild :: ins) s OPanic s
| session_child_hangs ins s v :
    get_var (lit "PS1") (cm (im s)) = Some v -> listening s ->
    sig_chld (expand_var (cm (im s)) (lit "PS4")) (r_waits (w (trace s))) (js (im s)) = WBlock ->
    session (TChild :: ins) s OBlock s.

(** The lines of a script, one after the other; the shell after the last one. *)
Inductive lines_run : list str -> shell -> shell -> Prop :=
| lines_end s : lines_run [] s s
| lines_next l ls s r s1 s' :
    parse l <> None -> exec_text w n l s = (r, s1) -> returns r -> lines_run ls s1 s' -> lines_run (l :: ls) s s'.

End Session.
