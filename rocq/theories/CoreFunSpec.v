(** Functions in the language of CoreSpec: definitions and calls, and what they mean,
    stated without the shell.  [exit], [exec], [.] and [eval] are commands like others. *)
From Verif Require Import Base Ast GrammarSpec ContextSpec CoreSpec CoreExitSpec.
Local Open Scope Z_scope.

Inductive fcomm :=
| Do (c : comm)                                                    (* a command of CoreSpec, or a call *)
| Quit (e : leave)                                                 (* exit a, exec n a1 ... ak *)
| Source (file : str) (body : list (fcomm * list (cond * fcomm)))  (* . file, where the file has l1 ; ... ; lk in it *)
| EvalText (body : list (fcomm * list (cond * fcomm)))             (* eval 'l1 ; ... ; lk' *)
| Define (f : str) (body : list (fcomm * list (cond * fcomm))).    (* f ( ) { l1 ; ... ; lk ; } *)
Definition fchain := (fcomm * list (cond * fcomm))%type.
Definition fscript := list fchain.

(** ** What is typed *)

Fixpoint fcomm_text (c : fcomm) : str :=
  match c with
  | Do c => comm_text c
  | Quit e => leave_text e
  | Source file _ => spaced [lit "."; file]
  | EvalText body =>
      spaced [lit "eval"; lit "'" ++
        joined (lit " ;") (map (fun l => match l with (c0, rest) =>
          fcomm_text c0 ++ List.concat (map (fun oc => match oc with (o, c) => cond_text o ++ fcomm_text c end) rest) end) body) ++ lit "'"]
  | Define f body =>
      lit " " ++ f ++ lit " ( ) {" ++
      joined (lit " ;") (map (fun l => match l with (c0, rest) =>
        fcomm_text c0 ++ List.concat (map (fun oc => match oc with (o, c) => cond_text o ++ fcomm_text c end) rest) end) body) ++
      lit " ; }"
  end.
Definition fchain_text (l : fchain) : str :=
  fcomm_text (fst l) ++ List.concat (map (fun oc => cond_text (fst oc) ++ fcomm_text (snd oc)) (snd l)).
Definition fscript_text (s : fscript) : str := joined (lit " ;") (map fchain_text s).
(** A file with some commands on each line. *)
Definition file_text (scs : list fscript) : str := List.concat (map (fun sc => fscript_text sc ++ [10%N]) scs).

(** ** What it means *)

(** The functions, and the parameters of the innermost call, which are also the
    values of [1], [2], ... *)
Record fmachine := FMachine {
  core : machine;
  funs : str -> option fscript;
  params : list str }.

(** [1], [2], ... and their values. *)
Fixpoint parameters (i : N) (args : list str) : smap str :=
  match args with
  | [] => []
  | a :: args' => (N_to_str i, a) :: parameters (i + 1)%N args'
  end.
(** In a call, [1], [2], ... are the parameters and nothing else; afterwards they are
    what they were.  All other variables are shared. *)
Definition entered (args : list str) (m : machine) : machine :=
  Machine (fun x => if positional x then sget x (parameters 1 args) else vars m x) (environment m) (started m) (visited m).
Definition returned (m m' : machine) : machine :=
  Machine (fun x => if positional x then vars m x else vars m' x) (environment m') (started m') (visited m').
Definition set_fun (f : str) (b : fscript) (t : str -> option fscript) : str -> option fscript :=
  fun g => if str_eqb g f then Some b else t g.

(** A command that is the name of a function, with arguments, is a call. *)
Definition called (fm : fmachine) (c : comm) : option (fscript * list str) :=
  match c with
  | Run (Prog [] n args []) [] =>
      match funs fm n with
      | Some b => Some (b, List.concat (map (arg_fields (core fm)) args))
      | None => None
      end
  | _ => None
  end.

(** A command that was carried out: in how many calls, in what state, and the status
    it ended with (0 if the shell was left there). *)
Record visit := Visit {
  v_calls : nat;
  v_before : fmachine;
  v_comm : fcomm;
  v_status : Z }.

(** The status and the state at the end; or how the shell was left. *)
Inductive fate :=
| Goes (st : Z) (fm : fmachine)
| Gone (r : result).
(** The commands carried out, and how it ends; [None]: more calls within calls than
    allowed. *)
Definition outcome := option (list visit * fate).
Definition followed (r : outcome) (k : Z -> fmachine -> outcome) : outcome :=
  match r with
  | Some (v1, Goes st fm) => match k st fm with Some (v2, x) => Some (v1 ++ v2, x) | None => None end
  | Some (v1, Gone r) => Some (v1, Gone r)
  | None => None
  end.

Section Meaning.
Context (code : world).

Section Loops.
Context (one : fcomm -> fmachine -> outcome).
Fixpoint frun_more (rest : list (cond * fcomm)) (st : Z) (fm : fmachine) : outcome :=
  match rest with
  | [] => Some ([], Goes st fm)
  | (o, c) :: rest' => if goes_on o st then followed (one c fm) (frun_more rest') else frun_more rest' st fm
  end.
Definition frun_chain (l : fchain) (fm : fmachine) : outcome := followed (one (fst l) fm) (frun_more (snd l)).
Fixpoint frun_script (s : fscript) (st : Z) (fm : fmachine) : outcome :=
  match s with
  | [] => Some ([], Goes st fm)
  | l :: s' => followed (frun_chain l fm) (frun_script s')
  end.
End Loops.

(** [n]: how deep calls, files and [eval]s may go from here; [k]: in how many calls this is. *)
Fixpoint fstep (n k : nat) (c : fcomm) (fm : fmachine) : outcome :=
  match c with
  | Define f body => Some ([Visit k fm c 0], Goes 0 (FMachine (core fm) (set_fun f body (funs fm)) (params fm)))
  | Quit e => Some ([Visit k fm c 0], Gone (left_by e 0 (core fm)))
  | Source _ body | EvalText body =>
      match n with
      | O => None
      | S n' =>
          match frun_script (fstep n' k) body 0 fm with
          | Some (v, Goes st fm') => Some (Visit k fm c st :: v, Goes st fm')
          | Some (v, Gone r) => Some (Visit k fm c 0 :: v, Gone r)
          | None => None
          end
      end
  | Do c0 =>
      match called fm c0 with
      | None => let '(st, m) := step code c0 (core fm) in Some ([Visit k fm c st], Goes st (FMachine m (funs fm) (params fm)))
      | Some (body, args) =>
          match n with
          | O => None
          | S n' =>
              match frun_script (fstep n' (S k)) body 0 (FMachine (entered args (core fm)) (funs fm) args) with
              | Some (v, Goes st fm') => Some (Visit k fm c st :: v, Goes st (FMachine (returned (core fm) (core fm')) (funs fm') (params fm)))
              | Some (v, Gone r) => Some (Visit k fm c 0 :: v, Gone r)
              | None => None
              end
          end
      end
  end.
Definition frun (n : nat) (sc : fscript) (fm : fmachine) : outcome := frun_script (fstep n 0) sc 0 fm.

(** ** What is in the range of the theorems *)

(** An argument that can be handed over as the parameter [i]. *)
Definition passes (i : N) (a : str) : Prop :=
  ~ In (ch "=") a /\ a <> lit "&" /\ match a with c :: _ => ~ In c (lit "'""") | [] => True end /\
  (digits_of (N_to_str i ++ lit "=" ++ a) <= 18446744073709551615)%N.
(** Calls are made outside of functions with parameters, and end with status 0; a
    function only assigns to variables that have a value, and only defines functions
    again; pipelines, and commands with settings or redirections, contain no calls;
    files that are sourced are there, with a newline behind each line; what is read
    from files and by [eval] ends with status 0.
    The rest is as in CoreSpec. *)
Definition allowed (v : visit) : Prop :=
  match v_comm v with
  | Quit e => leave_fits (core (v_before v)) e
  | Source file body => v_status v = 0 /\ exists scs, Forall (fun sc => sc <> []) scs /\ body = List.concat scs /\ contents code file = Some (file_text scs)
  | EvalText _ => v_status v = 0
  | Define f _ => v_calls v = 0%nat \/ funs (v_before v) f <> None
  | Do c =>
      match called (v_before v) c, c with
      | Some (_, args), Run p _ =>
          v_status v = 0 /\ params (v_before v) = [] /\
          (digits_of (lit "0=" ++ name p) <= 18446744073709551615)%N /\
          (forall i a, nth_error args i = Some a -> passes (1 + N.of_nat i) a) /\
          (forall x, In (Dollar x) (arguments p) -> exists u, vars (core (v_before v)) x = Some u /\ shown u)
      | _, _ =>
          fits code (core (v_before v)) c /\
          match c with
          | Assign x _ => v_calls v = 0%nat \/ vars (core (v_before v)) x <> None
          | Run p more => forall q, In q (p :: more) -> funs (v_before v) (name q) = None
          | _ => True
          end
      end
  end.
End Meaning.
