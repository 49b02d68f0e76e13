(** Specification vocabulary for variables and scopes.

    The abstract picture is a list of finite maps, innermost scope first.  It
    does not mention heaps, locations or association lists. *)
From Verif Require Import Base Ast Context.

(** ** Reading a [name=value] string *)

(** The text before the first [c], and the text after it. *)
Fixpoint upto (c : char) (s : str) : str :=
  match s with
  | [] => []
  | x :: s' => if N.eqb x c then [] else x :: upto c s'
  end.
Fixpoint past (c : char) (s : str) : str :=
  match s with
  | [] => []
  | x :: s' => if N.eqb x c then s' else past c s'
  end.

(** One pair of surrounding quotes removed. *)
Definition unquote (v : str) : str :=
  match v with
  | q :: r =>
      if (N.eqb q (ch """") || N.eqb q (ch "'")) && N.eqb (last v q) q
      then removelast r else v
  | [] => []
  end.

(** What an assignment string assigns: the name before the first ['='], and the
    text between the first and the second ['='], without its quotes. *)
Definition target (set : str) : str := upto (ch "=") set.
Definition assigned (set : str) : str := unquote (upto (ch "=") (past (ch "=") set)).

(** The strings on which setting a variable panics: the empty one, and those
    starting with a digit whose digits, read together, exceed a [usize]. *)
Definition digits_of (s : str) : N :=
  fold_left (fun n c => if is_digit c then 10 * n + (c - 48) else n)%N s 0%N.
Definition unsettable (set : str) : bool :=
  match set with
  | [] => true
  | c :: _ => is_digit c && (18446744073709551615 <? digits_of set)%N
  end.

(** ** Qualified names *)

(** The text before and after the first "::". *)
Fixpoint cut_at (s : str) : option (str * str) :=
  match s with
  | [] => None
  | x :: r =>
      match r with
      | y :: r' =>
          if N.eqb x (ch ":") && N.eqb y (ch ":") then Some ([], r')
          else match cut_at r with Some (a, b) => Some (x :: a, b) | None => None end
      | [] => None
      end
  end.
Definition unqualified (n : str) : Prop := cut_at n = None.
Definition qualified (n ns x : str) : Prop :=
  exists rest, cut_at n = Some (ns, rest) /\
    x = match cut_at rest with Some (a, _) => a | None => rest end.

(** ** Stacks of maps *)

(** A binding: a value and whether it is read-only. *)
Notation binding := (str * bool)%type (only parsing).
Definition frame := str -> option binding.
Definition env := list frame.

Definition put (n : str) (b : option binding) (f : frame) : frame :=
  fun y => if str_eqb y n then b else f y.

(** A read sees the innermost binding. *)
Fixpoint lookup (n : str) (e : env) : option binding :=
  match e with
  | [] => None
  | f :: e' => match f n with Some b => Some b | None => lookup n e' end
  end.

(** Replace the innermost binding of [n]; if there is none, use the innermost
    scope. *)
Fixpoint rebind (n : str) (b : option binding) (e : env) : option env :=
  match e with
  | [] => None
  | f :: e' =>
      match f n with
      | Some _ => Some (put n b f :: e')
      | None => match rebind n b e' with Some e'' => Some (f :: e'') | None => None end
      end
  end.
Definition bind (n : str) (b : option binding) (e : env) : env :=
  match rebind n b e with
  | Some e' => e'
  | None => match e with [] => [] | f :: e' => put n b f :: e' end
  end.
(** Bind [n] in the scope at depth [pos], counted from the outermost one. *)
Definition bind_at (pos : nat) (n : str) (b : option binding) (e : env) : env :=
  match nth_error (rev e) pos with
  | Some f => rev (firstn pos (rev e) ++ put n b f :: skipn (S pos) (rev e))
  | None => e
  end.

(** ** Operations *)

(** The ways in which the rest of the shell changes the variables, functions and
    scopes. *)
Inductive op :=
| OAssign (set : str)                       (* add_var *)
| OAssignAt (pos : nat) (set : str)         (* add_var_pos *)
| OReadonlyAssign (set : str)               (* add_var_readonly *)
| OReadonly (n : str)                       (* set_var_readonly *)
| OUnset (n : str)                          (* remove_var *)
| OUnsetFunction (n : str)                  (* remove_function *)
| ODefine (n : str) (b : function_body)     (* add_function *)
| OExportFunction (n : str) (b : function_body) (* get_env_context().add_function *)
| OPush                                     (* push_context_new *)
| OPop                                      (* pop_context *)
| OPopExport (ns : str)                     (* pop_context, then add_context of it *)
| OExport (ns : str)                        (* add_context of the current scope *)
| OUnexport (ns : str).                     (* remove_context *)

(** The code's operations. *)
Definition perform (o : op) (m : cmgr) : option cmgr :=
  match o with
  | OAssign set => add_var set m
  | OAssignAt pos set => add_var_pos set pos m
  | OReadonlyAssign set => add_var_readonly set m
  | OReadonly n => set_var_readonly n m
  | OUnset n => Some (remove_var n m)
  | OUnsetFunction n => Some (remove_function n m)
  | ODefine n b => Some (add_function n b m)
  | OExportFunction n b =>
      let l := get_env_context m in Some (update l (ctx_add_function n b (deref l m)) m)
  | OPush => Some (push_context_new m)
  | OPop => pop_context m
  | OPopExport ns =>
      match pop_context m with
      | Some m' => Some (add_context ns (get_context m) m')
      | None => None
      end
  | OExport ns => Some (add_context ns (get_context m) m)
  | OUnexport ns => Some (remove_context ns m)
  end.
Fixpoint performs (os : list op) (m : cmgr) : option cmgr :=
  match os with
  | [] => Some m
  | o :: os' => match perform o m with Some m' => performs os' m' | None => None end
  end.

(** What they should do to the stack of maps, for unqualified names.  [None] is a
    crash. *)
Definition meaning (o : op) (e : env) : option env :=
  match o with
  | OAssign set =>
      match lookup (target set) e with
      | Some (_, true) => Some e
      | _ => if unsettable set then None
             else Some (bind (target set) (Some (assigned set, false)) e)
      end
  | OAssignAt pos set =>
      if unsettable set || (List.length e <=? pos)%nat then None
      else Some (bind_at pos (target set) (Some (assigned set, false)) e)
  | OReadonlyAssign set =>
      if unsettable set then None
      else Some (bind (target set) (Some (assigned set, true)) e)
  | OReadonly n =>
      match lookup n e with
      | Some (v, _) => Some (bind n (Some (v, true)) e)
      | None => None
      end
  | OUnset n => match rebind n None e with Some e' => Some e' | None => Some e end
  | OPush => Some ((fun _ => None) :: e)
  | OPop | OPopExport _ =>
      match e with
      | _ :: (_ :: _) as e' => Some e'
      | _ => None
      end
  | OUnsetFunction _ | ODefine _ _ | OExportFunction _ _ | OExport _ | OUnexport _ => Some e
  end.
Fixpoint meanings (os : list op) (e : env) : option env :=
  match os with
  | [] => Some e
  | o :: os' => match meaning o e with Some e' => meanings os' e' | None => None end
  end.

(** The stack of maps a state stands for. *)
Definition binding_of (v : var) : binding := (value v, is_readonly v).
Definition frame_of (c : context) : frame := fun n => option_map binding_of (ctx_get_var n c).
Definition env_of (m : cmgr) : env := map (fun l => frame_of (deref l m)) (rev (stack m)).
Definition same_env (e e' : env) : Prop := Forall2 (fun f g => forall n, f n = g n) e e'.

(** The name an operation reads in the scope stack is unqualified. *)
Definition plain_op (o : op) : Prop :=
  match o with
  | OReadonlyAssign set => unqualified set
  | OReadonly n | OUnset n => unqualified n
  | _ => True
  end.

(** States the shell can be in: at least one scope, no scope twice on the stack,
    every reachable scope allocated, no function marked read-only (nothing calls
    [make_readonly_func]). *)
Record cm_wf (m : cmgr) : Prop := {
  wf_nonempty : stack m <> [];
  wf_nodup : NoDup (stack m);
  wf_stack : Forall (fun l => l < List.length (heap m)) (stack m);
  wf_exported : Forall (fun nl => snd nl < List.length (heap m)) (exported m);
  wf_functions : Forall (fun c => readonly_functions c = []) (heap m)
}.

(** ** Functions *)

(** What each scope of the stack, innermost first, defines as function [n]. *)
Definition definitions (n : str) (m : cmgr) : list (option function_body) :=
  map (fun l => ctx_get_function n (deref l m)) (rev (stack m)).
Fixpoint first_some {A} (l : list (option A)) : option A :=
  match l with
  | [] => None
  | Some a :: _ => Some a
  | None :: l' => first_some l'
  end.
(** Replace the innermost definition, or use the innermost scope. *)
Fixpoint replace_first {A} (a : option A) (l : list (option A)) : option (list (option A)) :=
  match l with
  | [] => None
  | Some _ :: l' => Some (a :: l')
  | None :: l' => match replace_first a l' with Some l'' => Some (None :: l'') | None => None end
  end.
Definition define {A} (a : A) (l : list (option A)) : list (option A) :=
  match replace_first (Some a) l with
  | Some l' => l'
  | None => match l with [] => [] | _ :: l' => Some a :: l' end
  end.

(** ** Balanced histories: every scope pushed is popped again, none other is. *)
Inductive balanced : list op -> Prop :=
| bal_nil : balanced []
| bal_step o os : o <> OPush -> o <> OPop -> (forall ns, o <> OPopExport ns) ->
    balanced os -> balanced (o :: os)
| bal_scope os os' : balanced os -> balanced os' -> balanced (OPush :: os ++ OPop :: os').
