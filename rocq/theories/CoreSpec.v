(** A small language and its meaning, stated without the shell: programs with
    literal, quoted and variable arguments, redirections and settings of their own,
    in pipelines; assignments, [export], [unset] and [cd]; joined by [&&], [||] and [;]. *)
From Verif Require Import Base Ast LexerSpec.
Local Open Scope Z_scope.

Inductive arg :=
| Plain (w : str)        (* abc *)
| Single (t : str)       (* 'a b c' *)
| Double (t : str)       (* "a b c" *)
| Dollar (x : str).      (* $x *)

Inductive redir :=
| Input (f : str)        (* < f *)
| Append (f : str)       (* >> f *)
| Output (f : str).      (* > f *)

(** [x=v ... n a1 ... ak < f ...] *)
Record prog := Prog {
  settings : list (str * arg);
  name : str;
  arguments : list arg;
  redirs : list redir }.

Inductive comm :=
| Assign (x : str) (v : arg)          (* x=v *)
| Export (x : str) (v : arg)          (* export x=v *)
| Unset (x : str)                     (* unset x *)
| Cd (d : arg)                        (* cd d *)
| Run (p : prog) (more : list prog).  (* p | p1 | ... | pk *)

(** [c0 op c1 op c2 ...], and [l1 ; l2 ; ...] *)
Definition chain := (comm * list (cond * comm))%type.
Definition script := list chain.

(** ** What is typed *)

Definition arg_text (a : arg) : str :=
  match a with
  | Plain w => w
  | Single t => lit "'" ++ t ++ lit "'"
  | Double t => lit """" ++ t ++ lit """"
  | Dollar x => lit "$" ++ x
  end.
Definition comm_words (c : comm) : list str :=
  match c with
  | Assign x v => [x ++ lit "=" ++ arg_text v]
  | Export x v => [lit "export"; x ++ lit "=" ++ arg_text v]
  | Unset x => [lit "unset"; x]
  | Cd d => [lit "cd"; arg_text d]
  | Run _ _ => []
  end.
Definition redir_words (r : redir) : list str :=
  match r with Input f => [lit "<"; f] | Append f => [lit ">>"; f] | Output f => [lit ">"; f] end.
Definition prog_words (p : prog) : list str :=
  map (fun xv => fst xv ++ lit "=" ++ arg_text (snd xv)) (settings p) ++ name p :: map arg_text (arguments p) ++
  List.concat (map redir_words (redirs p)).
Definition spaced (ws : list str) : str := List.concat (map (fun w => lit " " ++ w) ws).
Definition comm_text (c : comm) : str :=
  match c with
  | Run p more => spaced (prog_words p) ++ List.concat (map (fun q => lit " |" ++ spaced (prog_words q)) more)
  | _ => spaced (comm_words c)
  end.
Definition cond_text (c : cond) : str := match c with CAnd => lit " &&" | COr => lit " ||" end.
Definition chain_words (l : chain) : str :=
  comm_text (fst l) ++ List.concat (map (fun cc => cond_text (fst cc) ++ comm_text (snd cc)) (snd l)).
Fixpoint script_text (s : script) : str :=
  match s with
  | [] => []
  | [l] => chain_words l
  | l :: s' => chain_words l ++ lit " ;" ++ script_text s'
  end.

(** ** What it means *)

(** Where a program reads from and writes to.  The previous and the next one are
    those of the same pipeline. *)
Inductive source := Terminal | FromFile (f : str) | FromPrevious.
Inductive sink := Screen | AddedTo (f : str) | Replacing (f : str) | ToNext.

(** A program that was started: its arguments, the name first, its environment, its
    standard input and output, and where: the directories that were changed to until
    then, one after the other, from the one at the beginning. *)
Record start := Start {
  argv : list str;
  environ : smap str;
  input : source;
  output : sink;
  place : list str }.

Record machine := Machine {
  vars : str -> option str;
  environment : smap str;
  started : list start;
  visited : list str }.

(** What is outside: the status that each program of a pipeline exits with, which may
    depend on the whole pipeline and on all programs that were started before;
    which directories can be changed to from where one is; and the text of the files
    that are sourced. *)
Record world := World {
  exits :> list start -> list start -> nat -> Z;
  reachable : list str -> str -> bool;
  contents : str -> option str }.

(** Words that are made from a value: the parts between blanks. *)
Definition blank (c : char) : bool := (N.eqb c 32 || N.eqb c 9 || N.eqb c 10)%N.
Fixpoint fields_from (acc s : str) : list str :=
  match s with
  | [] => match acc with [] => [] | _ => [acc] end
  | c :: s' =>
      if blank c then match acc with [] => fields_from [] s' | _ => acc :: fields_from [] s' end
      else fields_from (acc ++ [c]) s'
  end.
Definition fields (s : str) : list str := fields_from [] s.

Section Meaning.
Context (code : world).

Definition value_of (m : machine) (x : str) : str := match vars m x with Some v => v | None => [] end.
(** The value of a word in an assignment. *)
Definition arg_value (m : machine) (a : arg) : str :=
  match a with Plain w => w | Single t | Double t => t | Dollar x => value_of m x end.
(** The arguments a word stands for. *)
Definition arg_fields (m : machine) (a : arg) : list str :=
  match a with Dollar x => fields (value_of m x) | _ => [arg_value m a] end.
Definition set_var (x : str) (v : option str) (f : str -> option str) : str -> option str :=
  fun y => if str_eqb y x then v else f y.

(** The last redirection counts. *)
Definition input_of (rs : list redir) (d : source) : source :=
  fold_left (fun a r => match r with Input f => FromFile f | _ => a end) rs d.
Definition output_of (rs : list redir) (d : sink) : sink :=
  fold_left (fun a r => match r with Append f => AddedTo f | Output f => Replacing f | Input _ => a end) rs d.
Definition start_of (m : machine) (first last : bool) (p : prog) : start :=
  Start (name p :: List.concat (map (arg_fields m) (arguments p)))
    (fold_left (fun e xv => sinsert (fst xv) (arg_value m (snd xv)) e) (settings p) (environment m))
    (input_of (redirs p) (if first then Terminal else FromPrevious))
    (output_of (redirs p) (if last then Screen else ToNext))
    (visited m).
Fixpoint starts_of (m : machine) (first : bool) (ps : list prog) : list start :=
  match ps with
  | [] => []
  | p :: ps' => start_of m first match ps' with [] => true | _ => false end p :: starts_of m false ps'
  end.

Definition step (c : comm) (m : machine) : Z * machine :=
  match c with
  | Assign x v =>
      (0, Machine (set_var x (Some (arg_value m v)) (vars m))
            match sget x (environment m) with Some _ => sinsert x (arg_value m v) (environment m) | None => environment m end
            (started m) (visited m))
  | Export x v =>
      (0, Machine (set_var x (Some (arg_value m v)) (vars m)) (sinsert x (arg_value m v) (environment m)) (started m) (visited m))
  | Unset x => (0, Machine (set_var x None (vars m)) (sremove x (environment m)) (started m) (visited m))
  | Cd d =>
      let p := arg_value m d in
      if reachable code (visited m) p then (0, Machine (vars m) (environment m) (started m) (visited m ++ [p])) else (1, m)
  | Run p more =>
      let ps := starts_of m true (p :: more) in
      (code (started m) ps (List.length more), Machine (vars m) (environment m) (started m ++ ps) (visited m))
  end.

(** [&&] goes on after the status 0, [||] after any other. *)
Definition goes_on (c : cond) (st : Z) : bool :=
  match c with CAnd => Z.eqb st 0 | COr => negb (Z.eqb st 0) end.
Fixpoint run_more (rest : list (cond * comm)) (st : Z) (m : machine) : Z * machine :=
  match rest with
  | [] => (st, m)
  | (o, c) :: rest' =>
      if goes_on o st then let '(st', m') := step c m in run_more rest' st' m' else run_more rest' st m
  end.
Definition run_chain (l : chain) (m : machine) : Z * machine :=
  let '(st, m') := step (fst l) m in run_more (snd l) st m'.
Fixpoint run_script (s : script) (st : Z) (m : machine) : Z * machine :=
  match s with
  | [] => (st, m)
  | l :: s' => let '(st', m') := run_chain l m in run_script s' st' m'
  end.

(** A condition [P] on the commands that are carried out, and the states they are
    carried out in. *)
Fixpoint always_more (P : machine -> comm -> Prop) (rest : list (cond * comm)) (st : Z) (m : machine) : Prop :=
  match rest with
  | [] => True
  | (o, c) :: rest' =>
      if goes_on o st then P m c /\ let '(st', m') := step c m in always_more P rest' st' m' else always_more P rest' st m
  end.
Definition always_chain (P : machine -> comm -> Prop) (l : chain) (m : machine) : Prop :=
  P m (fst l) /\ let '(st, m') := step (fst l) m in always_more P (snd l) st m'.
Fixpoint always (P : machine -> comm -> Prop) (s : script) (m : machine) : Prop :=
  match s with
  | [] => True
  | l :: s' => always_chain P l m /\ let '(_, m') := run_chain l m in always P s' m'
  end.
End Meaning.

(** ** What can be typed *)

Definition letter (c : char) : Prop := (65 <= c <= 90)%N \/ (97 <= c <= 122)%N \/ c = ch "_".
Definition digit (c : char) : Prop := (48 <= c <= 57)%N.
Definition identifier (x : str) : Prop :=
  match x with
  | [] => False
  | c :: r => letter c /\ Forall (fun d => letter d \/ digit d) r
  end /\ forall t, ~ In (x, t) reserved.
(** The name of a parameter of a function: a number other than 0. *)
Definition positional (x : str) : bool :=
  forallb (fun c => (48 <=? c)%N && (c <=? 57)%N) x && negb (str_eqb x []) && negb (str_eqb x (lit "0")).
Definition position (x : str) : Prop := positional x = true.
(** A word without special characters, which does not begin with a quote or [#]. *)
Definition plain_word (w : str) : Prop :=
  match w with
  | [] => False
  | c :: r => word_char c /\ ~ In c (lit "#'""") /\ Forall word_char r
  end /\ (forall c, In c w -> ~ In c (lit "?[~\") /\ c <> 0%N) /\ forall t, ~ In (w, t) reserved.

Definition arg_ok (a : arg) : Prop :=
  match a with
  | Plain w => plain_word w
  | Single t => ~ In (ch "'") t /\ ~ In 0%N t
  | Double t => (forall c, In c t -> ~ In c (lit """$`\") /\ c <> 0%N)
  | Dollar x => identifier x \/ position x
  end.
(** Values do not contain [=] or [$] and do not begin with a quote. *)
Definition value_ok (a : arg) : Prop :=
  arg_ok a /\
  match a with
  | Plain w => True
  | Single t | Double t => ~ In (ch "=") t /\ ~ In (ch "$") t
  | Dollar _ => False
  end.
(** A value that is one word. *)
Definition shown (v : str) : Prop :=
  match v with c :: _ => ~ In c (lit "'""") | [] => False end /\
  forall c, In c v -> blank c = false /\ ~ In c (lit "*?[\") /\ c <> 0%N.

Section Fits.
Context (code : world).

(** Commands that fit the state: a variable in the environment is not assigned to or
    unset; one that is not there, but has a value, is not exported; variables are
    used that have a value, which is one word; the directory can be changed to; and
    the first program of a pipeline exits with the same status as the last. *)
Definition fits (m : machine) (c : comm) : Prop :=
  match c with
  | Assign x _ | Unset x => sget x (environment m) = None
  | Export x _ => vars m x = None \/ sget x (environment m) <> None
  | Cd d => (forall x, d = Dollar x -> exists v, vars m x = Some v /\ shown v) /\ reachable code (visited m) (arg_value m d) = true
  | Run p more =>
      (forall q x, In q (p :: more) -> In (Dollar x) (arguments q) -> exists v, vars m x = Some v /\ shown v) /\
      let ps := starts_of m true (p :: more) in
      code (started m) ps 0%nat = code (started m) ps (List.length more)
  end.
End Fits.
