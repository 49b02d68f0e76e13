(** Process groups, and whom the keys of the terminal reach.

    The only call that changes a group is that of src/eval.rs:202-208.  The terminal's
    foreground group is changed by tcsetpgrp(3), which src/ never calls: it stays the
    group in which the shell was started. *)
From Verif Require Import Base Ast Jobs Shell Eval Subst.
Local Open Scope Z_scope.

(** The group of a process that had the group [g] when it began and has made the calls
    [tr], the last one first.  src/eval.rs:207. *)
Fixpoint group_after (g : Z) (tr : list event) : Z :=
  match tr with
  | [] => g
  | ESetpgid _ g' :: _ => g'
  | _ :: tr' => group_after g tr'
  end.

(** The processes of a session with their groups.  The shell's own events are [top] and
    it was started in the group [g0], that of the terminal.  A process is given by the
    commands for which it and its ancestors were started, nearest first, each with its
    number (getpid(2) answers with it).  A copy of a shell that runs a substitution
    (src/ast.rs:400-419) counts as that shell.  src/eval.rs:200-208. *)
Inductive member (g0 : Z) (top : list event) : list (child * Z) -> Z -> list event -> Prop :=
| member_shell : member g0 top [] (group_after g0 top) top
| member_subst l g tr i log cc wp p s0 w n out s :
    member g0 top l g tr -> In (ESubst i log) tr -> In cc log -> subst_pipe wp (Shell i []) = (OOk p, s0) ->
    run_subst w n (im s0) p cc = (out, s) -> member g0 top l (group_after g (trace s)) (trace s)
| member_child l g tr i c q w n out s :
    member g0 top l g tr -> In (EFork i c (Some q)) tr -> (forall t, r_getpid (w t) = Zpos q) ->
    run_child w n i c = (out, s) -> member g0 top ((c, Zpos q) :: l) (group_after g (trace s)) (trace s).
