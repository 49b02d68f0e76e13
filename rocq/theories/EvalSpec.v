(** Vocabulary for the evaluator: chains, lists, and what a call may leave
    behind. *)
From Verif Require Import Base Ast Parser Context Alias Expand Jobs Shell.
Local Open Scope Z_scope.

(** Outcomes after which the shell goes on: a status or an error message. *)
Definition returns {A} (o : out A) : Prop :=
  match o with OOk _ | OErr _ => True | _ => False end.
(** Outcomes that are not a status. *)
Definition fails {A} (o : out A) : Prop := match o with OOk _ => False | _ => True end.

(** ** Chains *)

(** [p1 op p2 op ...] read from left to right: the first pipeline, then the
    others with the operator in front of each. *)
Fixpoint links (a : and_or) : pipeline * list (cond * pipeline) :=
  match a with
  | AoOne p => (p, [])
  | AoMore l c p => (fst (links l), snd (links l) ++ [(c, p)])
  end.

(** When a pipeline after an operator is run, given the status so far. *)
Definition wanted (c : cond) (st : Z) : Prop :=
  match c with CAnd => st = 0 | COr => st <> 0 end.

Section Chains.
Context (run : pipeline -> M Z).

(** The rest of a chain from status [st] and state [s]: [ran] are the pipelines
    that were run, with their statuses; [o] is the outcome and [s'] the final
    state. *)
Inductive chain : Z -> shell -> list (cond * pipeline) -> list (pipeline * out Z) -> out Z -> shell -> Prop :=
| chain_end st s : chain st s [] [] (OOk st) s
| chain_skip st s c p rest ran o s' :
    ~ wanted c st -> chain st s rest ran o s' -> chain st s ((c, p) :: rest) ran o s'
| chain_run st s c p rest st1 s1 ran o s' :
    wanted c st -> run p s = (OOk st1, s1) -> chain st1 s1 rest ran o s' ->
    chain st s ((c, p) :: rest) ((p, OOk st1) :: ran) o s'
| chain_stop st s c p rest o s' :
    wanted c st -> run p s = (o, s') -> fails o -> chain st s ((c, p) :: rest) [(p, o)] o s'.

(** A whole chain. *)
Inductive whole_chain (s : shell) (p : pipeline) (rest : list (cond * pipeline))
  : list (pipeline * out Z) -> out Z -> shell -> Prop :=
| whole_run st1 s1 ran o s' :
    run p s = (OOk st1, s1) -> chain st1 s1 rest ran o s' ->
    whole_chain s p rest ((p, OOk st1) :: ran) o s'
| whole_stop o s' : run p s = (o, s') -> fails o -> whole_chain s p rest [(p, o)] o s'.
End Chains.

(** ** Lists *)

(** The elements of a list run one after the other; [ran] are those that were
    run, with their outcomes.  A list without elements has the status [st]. *)
Section Lists.
Context {A : Type} (run : A -> M Z).
Inductive in_order : Z -> shell -> list A -> list (A * out Z) -> out Z -> shell -> Prop :=
| in_order_end st s : in_order st s [] [] (OOk st) s
| in_order_run st s a l st1 s1 ran o s' :
    run a s = (OOk st1, s1) -> in_order st1 s1 l ran o s' ->
    in_order st s (a :: l) ((a, OOk st1) :: ran) o s'
| in_order_stop st s a l o s' :
    run a s = (o, s') -> fails o -> in_order st s (a :: l) [(a, o)] o s'.
End Lists.

(** ** Scopes *)

(** Files that were evaluated as a namespace and ended in an error. *)
Fixpoint failures (t : list event) : nat :=
  match t with
  | [] => 0%nat
  | ENamespace false :: t' => S (failures t')
  | _ :: t' => failures t'
  end.
