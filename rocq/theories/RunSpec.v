(** Vocabulary for whole lines: what is written, and what it stands for. *)
From Verif Require Import Base Ast Parser LexerSpec GrammarSpec Context Alias Expand Jobs Shell Builtins Eval EvalSpec.
Local Open Scope Z_scope.

(** A text given to the shell, as src/main.rs:218-230 and 272-278 do.  An input
    that is not a command is an error. *)
Definition exec_text (w : os) (n : nat) (t : str) : M Z :=
  match parse t with
  | Some c => eval w n c
  | None => stop (OErr EParse)
  end.

(** [p0 op p1 op p2 ...] *)
Definition chain_text (p0 : pipeline) (rest : list (cond * pipeline)) : str :=
  r_pipeline p0 ++ List.concat (map (fun cp => r_cond (fst cp) ++ r_pipeline (snd cp)) rest).

(** A simple command with these words. *)
Definition words_cmd (n : str) (ws : list str) : simple_command :=
  SimpleCommand None n match ws with [] => None | _ => Some (Suffix [] ws) end.

(** The reported facts are the same along a run. *)
Definition reports_same (w1 w2 : os) (t t' : list event) : Prop :=
  forall older newer, t' = newer ++ older -> (exists mid, older = mid ++ t) -> w1 older = w2 older.

(** An argument as it may be written: a word, or [name=value]. *)
Definition written_arg (x : str) : Prop := written_word x \/ written_assignment x.

(** The shell once it has asked for its history to be saved. *)
Definition saved (s : shell) : shell := Shell (im s) (ESave (history_location (im s)) :: trace s).
