(** Sessions in which programs are stopped and brought back. *)
From Verif Require Import Base Ast Jobs Shell RunSpec GrammarSpec CoreSpec CoreExitSpec CoreFunSpec.
Local Open Scope Z_scope.

(** What is typed. *)
Inductive item :=
| Line (sc : fscript)              (* commands of CoreFunSpec, on one line *)
| Stops (k : Z) (p : prog)         (* a program that is stopped; the shell gives it the number [k] *)
| Resumes (t : str) (k : Z)        (* fg %t, where [t] is the number [k] *)
| Again (t : str) (k : Z)          (* the same, and the program is stopped once more *)
| Lets (t : str) (k : Z)           (* bg %t *)
| Over (k : Z).                    (* nothing is typed; the program, which runs in the background, ends *)
Definition item_text (i : item) : str :=
  match i with
  | Line sc => fscript_text sc
  | Stops _ p => comm_text (Run p [])
  | Resumes t _ | Again t _ => r_words [lit "fg"; ch "%" :: t]
  | Lets t _ => r_words [lit "bg"; ch "%" :: t]
  | Over _ => []
  end.

(** A program that has been started, and not ended. *)
Definition launched (p : prog) (m : machine) : machine :=
  Machine (vars m) (environment m) (started m ++ starts_of m true [p]) (visited m).

Section Runs.
Context (code : world) (n : nat).
(** What it means.  The first numbers are those of the programs that were stopped and
    are not over, the second those of them that run in the background.  A program is
    started once, when it is typed; bringing it back changes nothing but the numbers. *)
Inductive jruns : list item -> fmachine -> list Z -> list Z -> list visit -> fmachine -> list Z -> list Z -> Prop :=
| jr_end fm held going : jruns [] fm held going [] fm held going
| jr_line sc l fm held going vs st fm1 vs' fm2 held2 going2 : frun_script (fstep code n 0) sc 0 fm = Some (vs, Goes st fm1) ->
    jruns l fm1 held going vs' fm2 held2 going2 -> jruns (Line sc :: l) fm held going (vs ++ vs') fm2 held2 going2
| jr_stops k p l fm held going vs fm2 held2 going2 : funs fm (name p) = None ->
    (forall x, In (Dollar x) (arguments p) -> exists v, vars (core fm) x = Some v /\ shown v) ->
    jruns l (FMachine (launched p (core fm)) (funs fm) (params fm)) (k :: held) going vs fm2 held2 going2 ->
    jruns (Stops k p :: l) fm held going vs fm2 held2 going2
| jr_resumes t k l fm held going vs fm2 held2 going2 : In k held ->
    jruns l fm (List.remove Z.eq_dec k held) (List.remove Z.eq_dec k going) vs fm2 held2 going2 ->
    jruns (Resumes t k :: l) fm held going vs fm2 held2 going2
| jr_again t k l fm held going vs fm2 held2 going2 : In k held ->
    jruns l fm held (List.remove Z.eq_dec k going) vs fm2 held2 going2 -> jruns (Again t k :: l) fm held going vs fm2 held2 going2
| jr_lets t k l fm held going vs fm2 held2 going2 : In k held ->
    jruns l fm held (k :: going) vs fm2 held2 going2 -> jruns (Lets t k :: l) fm held going vs fm2 held2 going2
| jr_over k l fm held going vs fm2 held2 going2 : In k held -> In k going ->
    jruns l fm (List.remove Z.eq_dec k held) (List.remove Z.eq_dec k going) vs fm2 held2 going2 ->
    jruns (Over k :: l) fm held going vs fm2 held2 going2.
End Runs.
