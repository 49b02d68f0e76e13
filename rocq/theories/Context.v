(** Model of src/context.rs: variables, functions, scopes and namespaces.

    The Rust code keeps every scope in an [Rc<RefCell<Context>>], and the same
    scope can be reachable from the scope stack and from the table of exported
    namespaces.  The model keeps the scopes in a heap (a list indexed by
    location) and lets the stack and the table hold locations, so an update made
    through one of them is seen through the other, as in the code.

    Simplifications.  A [Var] is also behind an [Rc<RefCell<_>>], but no code
    path stores one [Var] in two scopes, so variables are stored by value.
    [Var::name] always equals the key it is stored under (line 614), so only the
    value and the mark are kept.  The [RefCell] borrow flags are not modelled:
    every borrow in this file ends before the next one starts.
    A result [None] of an operation is a Rust panic. *)
From Verif Require Import Base Ast.

(** src/context.rs:19-23 [Var]. *)
Record var := Var { value : str; is_readonly : bool }.

(** src/ast.rs:182-185 [FunctionBody] (the compound command is always a brace
    group, see Ast.v). *)
Record function_body := FunctionBody {
  fb_body : list and_or;
  fb_redirs : option (list io_redirect)
}.

(** src/context.rs:430-436 [Context]; the hash set is a list. *)
Record context := Context {
  vars : smap var;
  functions : smap function_body;
  readonly_functions : list str
}.

(** src/context.rs:504-512 [Context::default]. *)
Definition empty_context : context := Context [] [] [].

(** src/context.rs:448-450 [Context::get_var]. *)
Definition ctx_get_var (n : str) (c : context) : option var := sget n (vars c).

(** src/context.rs:609-616 [ContextUtils<Var>::add_var]. *)
Definition ctx_put_var (n : str) (v : var) (c : context) : context :=
  Context (sinsert n v (vars c)) (functions c) (readonly_functions c).

(** src/context.rs:452-454 [Context::remove_var]. *)
Definition ctx_remove_var (n : str) (c : context) : context :=
  Context (sremove n (vars c)) (functions c) (readonly_functions c).

(** src/context.rs:457-459 [Context::get_function]. *)
Definition ctx_get_function (n : str) (c : context) : option function_body :=
  sget n (functions c).

(** src/context.rs:461-464 [Context::remove_function]. *)
Definition ctx_remove_function (n : str) (c : context) : context :=
  Context (vars c) (sremove n (functions c))
          (filter (fun m => negb (str_eqb n m)) (readonly_functions c)).

(** src/context.rs:467-473 [Context::add_function]; the message printed when the
    function is read-only is not modelled. *)
Definition ctx_add_function (n : str) (b : function_body) (c : context) : context :=
  if existsb (str_eqb n) (readonly_functions c) then c
  else Context (vars c) (sinsert n b (functions c)) (readonly_functions c).

(** src/context.rs:520-525, 543-548: the name and the raw value of a
    [name=value] string: the first two pieces around ['=']. *)
Definition split_set (set : str) : str * str :=
  if contains_char (ch "=") set then
    match split_char (ch "=") set with
    | n :: v :: _ => (n, v)
    | _ => (set, [])               (* unreachable: there is an '=' *)
    end
  else (set, []).

(** src/context.rs:529-536, 552-559: the value of [key] is never used, but
    computing it panics on an empty string, and, if the string starts with a
    digit, when all its digits together do not fit a [usize]. *)
Definition key_ok (set : str) : bool :=
  match set with
  | [] => false
  | c :: _ =>
      if is_digit c
      then match parse_usize (filter is_digit set) with Some _ => true | None => false end
      else true
  end.

(** src/context.rs:519-540 [add_var(&str)] ([ro = false]) and 542-564
    [add_var_readonly(&str)] ([ro = true]). *)
Definition ctx_set (ro : bool) (set : str) (c : context) : option context :=
  let '(n, v) := split_set set in
  if key_ok set then Some (ctx_put_var n (Var (trim_quotes v) ro) c) else None.

(** src/context.rs:56-64 [ContextManager]; [stack] is [context_stack] in the
    same order (outermost scope first), [exported] is [exported_contexts]. *)
Record cmgr := Cmgr {
  heap : list context;
  stack : list nat;
  exported : smap nat
}.

(** Reading a cell of the heap: [borrow] of an [Rc<RefCell<Context>>]
    (src/context.rs:56-64). *)
Definition hget (l : nat) (h : list context) : context := nth l h empty_context.
(** Writing a cell of the heap: [borrow_mut] of an [Rc<RefCell<Context>>]
    (src/context.rs:56-64). *)
Fixpoint hset (l : nat) (c : context) (h : list context) : list context :=
  match h, l with
  | [], _ => []
  | _ :: h', O => c :: h'
  | x :: h', S l' => x :: hset l' c h'
  end.

(** Dereferencing and updating a scope through its [Rc]. As in
    src/context.rs:128-132. *)
Definition deref (l : nat) (m : cmgr) : context := hget l (heap m).
(** [context.borrow_mut()] followed by a change, as in src/context.rs:243-251.
    *)
Definition update (l : nat) (c : context) (m : cmgr) : cmgr :=
  Cmgr (hset l c (heap m)) (stack m) (exported m).

(** src/context.rs:384-418 [ContextManager::default]: one scope, built from the
    defaults and then the environment ([env], in any order without repeated
    keys).  [root], [cwd], [ppid], [pid] stand for the calls of lines 389, 400,
    405, 406. *)
Definition default_vars (root : bool) (cwd ppid pid : str) (env : smap str) : smap var :=
  let put n v m := sinsert n (Var v false) m in
  let m := [] in
  let m := match sget (lit "PATH") env with
           | None => put (lit "PATH")
               (lit "/bin:/usr/local/sbin:/usr/local/bin:/usr/sbin:/usr/bin:/sbin:/bin") m
           | Some _ => m end in
  let m := match sget (lit "PWD") env with None => put (lit "PWD") cwd m | Some _ => m end in
  let m := put (lit "PS1") (if root then lit "# " else lit "$ ") m in
  let m := put (lit "PS2") (lit "> ") m in
  let m := put (lit "PS4") (lit "+ ") m in
  let m := put (lit "PPID") ppid m in
  let m := put (lit "PID") pid m in
  fold_left (fun m kv => put (fst kv) (snd kv) m) env m.
(** src/context.rs:384-418 [ContextManager::default]. *)
Definition cm_default (root : bool) (cwd ppid pid : str) (env : smap str) : cmgr :=
  Cmgr [Context (default_vars root cwd ppid pid env) [] []] [O] [].

(** src/context.rs:76-78 [push_context_new]. *)
Definition push_context_new (m : cmgr) : cmgr :=
  Cmgr (heap m ++ [empty_context]) (stack m ++ [List.length (heap m)]) (exported m).

(** src/context.rs:83-88 [pop_context]. *)
Definition pop_context (m : cmgr) : option cmgr :=
  if (List.length (stack m) =? 1)%nat then None
  else Some (Cmgr (heap m) (removelast (stack m)) (exported m)).

(** src/context.rs:91-93 [get_context], 99-101 [get_env_context]; the [unwrap]
    cannot fail on a non-empty stack. *)
Definition get_context (m : cmgr) : nat := last (stack m) O.
(** src/context.rs:99-101 [get_env_context]. *)
Definition get_env_context (m : cmgr) : nat := hd O (stack m).

(** src/context.rs:94-96 [remove_context], 104-106 [add_context], 109-111
    [get_context_by_name]. *)
Definition remove_context (n : str) (m : cmgr) : cmgr :=
  Cmgr (heap m) (stack m) (sremove n (exported m)).
(** src/context.rs:104-106 [add_context]. *)
Definition add_context (n : str) (l : nat) (m : cmgr) : cmgr :=
  Cmgr (heap m) (stack m) (sinsert n l (exported m)).
(** src/context.rs:109-111 [get_context_by_name]. *)
Definition get_context_by_name (n : str) (m : cmgr) : option nat := sget n (exported m).

(** src/context.rs:117-120 and the same test in every lookup: a name with "::"
    is cut at the first two occurrences; what follows the second is ignored. *)
Definition namespaced (n : str) : option (str * str) :=
  if contains_str (lit "::") n then
    match split_dcolon n with
    | a :: b :: _ => Some (a, b)
    | _ => None                    (* unreachable: there is a "::" *)
    end
  else None.

(** The search loop of lines 128-132, 149-154, 174-178, 195-200, 217-221,
    229-234, 243-251, 267-272, 286-292: the innermost scope of the stack for
    which the test holds. *)
Definition innermost (test : context -> bool) (m : cmgr) : option nat :=
  find (fun l => test (deref l m)) (rev (stack m)).

(** The test of src/context.rs:129 and the other loops over variables. *)
Definition has_var (n : str) (c : context) : bool :=
  match ctx_get_var n c with Some _ => true | None => false end.
(** The test of src/context.rs:150 and the other loops over functions. *)
Definition has_function (n : str) (c : context) : bool :=
  match ctx_get_function n c with Some _ => true | None => false end.

(** src/context.rs:116-135 [get_var]. *)
Definition get_var (n : str) (m : cmgr) : option var :=
  match namespaced n with
  | Some (ns, x) =>
      match get_context_by_name ns m with
      | Some l => ctx_get_var x (deref l m)
      | None => None
      end
  | None =>
      match innermost (has_var n) m with
      | Some l => ctx_get_var n (deref l m)
      | None => None
      end
  end.

(** src/context.rs:139-156 [remove_var]. *)
Definition remove_var (n : str) (m : cmgr) : cmgr :=
  match namespaced n with
  | Some (ns, x) =>
      match get_context_by_name ns m with
      | Some l => update l (ctx_remove_var x (deref l m)) m
      | None => m
      end
  | None =>
      match innermost (has_var n) m with
      | Some l => update l (ctx_remove_var n (deref l m)) m
      | None => m
      end
  end.

(** src/context.rs:162-181 [get_function]. *)
Definition get_function (n : str) (m : cmgr) : option function_body :=
  match namespaced n with
  | Some (ns, x) =>
      match get_context_by_name ns m with
      | Some l => ctx_get_function x (deref l m)
      | None => None
      end
  | None =>
      match innermost (has_function n) m with
      | Some l => ctx_get_function n (deref l m)
      | None => None
      end
  end.

(** src/context.rs:185-202 [remove_function]. *)
Definition remove_function (n : str) (m : cmgr) : cmgr :=
  match namespaced n with
  | Some (ns, x) =>
      match get_context_by_name ns m with
      | Some l => update l (ctx_remove_function x (deref l m)) m
      | None => m
      end
  | None =>
      match innermost (has_function n) m with
      | Some l => update l (ctx_remove_function n (deref l m)) m
      | None => m
      end
  end.

(** src/context.rs:205-224 [is_function]. *)
Definition is_function (n : str) (m : cmgr) : bool :=
  match namespaced n with
  | Some (ns, x) =>
      match get_context_by_name ns m with
      | Some l => has_function x (deref l m)
      | None => false
      end
  | None =>
      match innermost (has_function n) m with
      | Some _ => true
      | None => false
      end
  end.

(** src/context.rs:228-236 [add_function]: the name is not split at "::". *)
Definition add_function (n : str) (b : function_body) (m : cmgr) : cmgr :=
  let l := match innermost (has_function n) m with
           | Some l => l
           | None => get_context m
           end in
  update l (ctx_add_function n b (deref l m)) m.

(** src/context.rs:240-241, 264-265: the part of a [name=value] string before
    the first ['=']. *)
Definition set_name (set : str) : str := hd [] (split_char (ch "=") set).

(** [update] for an operation that may panic (src/context.rs:519-569). *)
Definition update_opt (l : nat) (c : option context) (m : cmgr) : option cmgr :=
  match c with Some c => Some (update l c m) | None => None end.

(** src/context.rs:239-253 [add_var]: the name is not split at "::". *)
Definition add_var (set : str) (m : cmgr) : option cmgr :=
  match innermost (has_var (set_name set)) m with
  | Some l =>
      match ctx_get_var (set_name set) (deref l m) with
      | Some (Var _ true) => Some m
      | _ => update_opt l (ctx_set false set (deref l m)) m
      end
  | None => update_opt (get_context m) (ctx_set false set (deref (get_context m) m)) m
  end.

(** src/context.rs:254-274 [add_var_readonly]: the whole [name=value] string is
    tested for "::". *)
Definition add_var_readonly (set : str) (m : cmgr) : option cmgr :=
  match namespaced set with
  | Some (ns, x) =>
      match get_context_by_name ns m with
      | Some l => update_opt l (ctx_set true x (deref l m)) m
      | None => Some m
      end
  | None =>
      let l := match innermost (has_var (set_name set)) m with
               | Some l => l
               | None => get_context m
               end in
      update_opt l (ctx_set true set (deref l m)) m
  end.

(** Lines 282, 289, 293: [get_var(n).unwrap().borrow_mut().readonly = true].
    In src/context.rs. *)
Definition ctx_mark_readonly (n : str) (c : context) : option context :=
  match ctx_get_var n c with
  | Some v => Some (ctx_put_var n (Var (value v) true) c)
  | None => None
  end.

(** src/context.rs:276-294 [set_var_readonly]. *)
Definition set_var_readonly (n : str) (m : cmgr) : option cmgr :=
  match namespaced n with
  | Some (ns, x) =>
      match get_context_by_name ns m with
      | Some l => update_opt l (ctx_mark_readonly x (deref l m)) m
      | None => Some m
      end
  | None =>
      let l := match innermost (has_var n) m with
               | Some l => l
               | None => get_context m
               end in
      update_opt l (ctx_mark_readonly n (deref l m)) m
  end.

(** src/context.rs:297-299 [add_var_pos]: panics when there is no such scope;
    ignores the read-only mark. *)
Definition add_var_pos (set : str) (pos : nat) (m : cmgr) : option cmgr :=
  match nth_error (stack m) pos with
  | Some l => update_opt l (ctx_set false set (deref l m)) m
  | None => None
  end.

(** src/context.rs:302-313 [lookup_command]; [isfile] stands for
    [std::fs::metadata(path)] succeeding on a regular file.  The outer [None] is
    the panic when PATH is unset in the outermost scope. *)
Definition lookup_command (isfile : str -> bool) (cmd : str) (m : cmgr)
  : option (option str) :=
  match ctx_get_var (lit "PATH") (deref (get_env_context m) m) with
  | None => None
  | Some p =>
      Some (find isfile
             (map (fun d => d ++ lit "/" ++ cmd) (split_char (ch ":") (value p))))
  end.

(** src/context.rs:318-331 [all_vars], 332-349 [all_readonly_vars]: one map over
    the stack, inner scopes overriding outer ones, then over the exported scopes
    (in the unspecified order of the hash map; the model uses the order of its
    list).  The result of the Rust code is sorted by name; the model's is not. *)
Definition collect (keep : var -> bool) (cs : list context) : smap var :=
  fold_left (fun acc c =>
    fold_left (fun acc nv => if keep (snd nv) then sinsert (fst nv) (snd nv) acc else acc)
              (vars c) acc) cs [].
(** src/context.rs:318-331 [all_vars]. *)
Definition all_vars (m : cmgr) : smap var :=
  collect (fun _ => true)
    (map (fun l => deref l m) (stack m) ++ map (fun nl => deref (snd nl) m) (exported m)).
(** src/context.rs:332-349 [all_readonly_vars]. *)
Definition all_readonly_vars (m : cmgr) : smap var :=
  collect is_readonly
    (map (fun l => deref l m) (stack m) ++ map (fun nl => deref (snd nl) m) (exported m)).
(** src/context.rs:350-360 [all_readonly_vars_context]. *)
Definition all_readonly_vars_context (ns : str) (m : cmgr) : smap var :=
  match get_context_by_name ns m with
  | Some l => collect is_readonly [deref l m]
  | None => []
  end.

(** src/eval.rs:566-578, the part of [eval_function] that enters the call: a new
    scope, then [$0] and the positional parameters are assigned through
    [add_var].  Parameters after an argument ["&"] are not bound. *)
Fixpoint bind_args (i : N) (args : list str) (m : cmgr) : option cmgr :=
  match args with
  | [] => Some m
  | a :: args' =>
      if str_eqb a (lit "&") then Some m
      else match add_var (N_to_str i ++ lit "=" ++ a) m with
           | Some m' => bind_args (i + 1)%N args' m'
           | None => None
           end
  end.
(** src/eval.rs:566-578. *)
Definition enter_function (name : str) (args : list str) (m : cmgr) : option cmgr :=
  match add_var (lit "0=" ++ name) (push_context_new m) with
  | Some m' => bind_args 1 args m'
  | None => None
  end.
