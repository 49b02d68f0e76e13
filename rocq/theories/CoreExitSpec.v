(** Scripts in the language of CoreSpec that leave the shell: [exit] and [exec], alone
    or behind a chain of commands, and what they mean, stated without the shell. *)
From Verif Require Import Base Ast GrammarSpec CoreSpec.
Local Open Scope Z_scope.

Inductive leave :=
| Exit (a : arg)                         (* exit a *)
| ExitSame                               (* exit *)
| Exec (n : str) (args : list arg).      (* exec n a1 ... ak *)
Inductive item :=
| Go (l : chain)                         (* l *)
| Leave (e : leave)                      (* exit a *)
| Unless (l : chain) (o : cond) (e : leave).  (* l op exit a *)

(** ** What is typed *)

Definition leave_words (e : leave) : list str :=
  match e with
  | Exit a => [lit "exit"; arg_text a]
  | ExitSame => [lit "exit"]
  | Exec n args => lit "exec" :: n :: map arg_text args
  end.
Definition leave_text (e : leave) : str := spaced (leave_words e).
Definition item_text (i : item) : str :=
  match i with
  | Go l => chain_words l
  | Leave e => leave_text e
  | Unless l o e => chain_words l ++ cond_text o ++ leave_text e
  end.
Definition items_text (l : list item) : str := joined (lit " ;") (map item_text l).

(** ** What it means *)

(** A decimal number, which may have a sign. *)
Fixpoint decimal (acc : Z) (s : str) : Z :=
  match s with [] => acc | c :: s' => decimal (10 * acc + (Z.of_N c - 48)) s' end.
Definition number (s : str) : Z :=
  match s with
  | c :: s' => if N.eqb c (ch "-") then - decimal 0 s' else if N.eqb c (ch "+") then decimal 0 s' else decimal 0 s
  | [] => 0
  end.
Definition a_number (s : str) : Prop :=
  (exists ds, (s = ds \/ s = ch "-" :: ds \/ s = ch "+" :: ds) /\ ds <> [] /\ Forall digit ds) /\
  -2147483648 <= number s <= 2147483647.

(** The script comes to its end with a status; the shell exits with a status; or it
    becomes a program, with these arguments and this environment. *)
Inductive result :=
| Ends (st : Z) (m : machine)
| Exits (z : Z) (m : machine)
| Becomes (av : list str) (e : smap str) (m : machine).
Definition final (r : result) : machine := match r with Ends _ m | Exits _ m | Becomes _ _ m => m end.

Section Meaning.
Context (code : world).

(** [st] is the status of the command before. *)
Definition left_by (e : leave) (st : Z) (m : machine) : result :=
  match e with
  | Exit a => Exits (number (arg_value m a)) m
  | ExitSame => Exits st m
  | Exec n args => Becomes (n :: List.concat (map (arg_fields m) args)) (environment m) m
  end.
Fixpoint run_items (l : list item) (st : Z) (m : machine) : result :=
  match l with
  | [] => Ends st m
  | Go c :: l' => let '(st', m') := run_chain code c m in run_items l' st' m'
  | Leave e :: _ => left_by e st m
  | Unless c o e :: l' =>
      let '(st', m') := run_chain code c m in
      if goes_on o st' then left_by e st' m' else run_items l' st' m'
  end.

(** ** What is in the range of the theorems *)

Definition leave_fits (m : machine) (e : leave) : Prop :=
  match e with
  | Exit a => (forall x, a = Dollar x -> exists v, vars m x = Some v /\ shown v) /\ a_number (arg_value m a)
  | ExitSame => True
  | Exec n args => forall x, In (Dollar x) args -> exists v, vars m x = Some v /\ shown v
  end.
Fixpoint items_fit (l : list item) (m : machine) : Prop :=
  match l with
  | [] => True
  | Go c :: l' => always_chain code (fits code) c m /\ items_fit l' (snd (run_chain code c m))
  | Leave e :: _ => leave_fits m e
  | Unless c o e :: l' =>
      always_chain code (fits code) c m /\
      let '(st', m') := run_chain code c m in
      if goes_on o st' then leave_fits m' e else items_fit l' m'
  end.
End Meaning.
