(** The processes of a pipeline while they run, with the descriptors that
    src/eval.rs:188-263 gave them.

    The programs are arbitrary: what one does next is a function of what its reads
    and writes have returned so far.  Pipes behave as in pipe(7): a write waits for
    room, a read waits for bytes; a read of an empty pipe whose write end nobody
    holds is the end of the input; a write to a pipe whose read end nobody holds
    fails or kills the writer.  Of the descriptors only 0 and 1 are used. *)
From Verif Require Import Base Shell.
Local Open Scope Z_scope.

(** What read(2) and write(2) return: bytes, the end of the input, how many bytes
    were taken, EPIPE, another error.  They have no counterpart in src/. *)
Inductive result := Gave (bs : list N) | Ended | Took (n : nat) | Broken | Failed.
(** What a program does next.  It has no counterpart in src/. *)
Inductive action := Write (bs : list N) | Read | Stop.

(** A process after src/eval.rs:669 ([execve]): its descriptors, its program, what
    its calls have returned so far, and whether it still runs. *)
Record proc := Proc { p_tab : Z -> option desc; code : list result -> action; past : list result; live : bool }.
(** src/eval.rs:669. *)
Definition returns (r : result) (p : proc) : proc := Proc (p_tab p) (code p) (past p ++ [r]) (live p).
(** Its end, which closes all descriptors (exit(2)).  src/eval.rs:669. *)
Definition over (p : proc) : proc := Proc (p_tab p) (code p) (past p) false.

(** The processes of the line, how many of them have been started (the loop of
    src/eval.rs:188-263) and what is in the pipes. *)
Record net := Net { procs : list proc; up : nat; pipes : Z -> list N }.

(** The process [k] replaced by [p].  src/eval.rs:188-263. *)
Fixpoint put (k : nat) (p : proc) (l : list proc) : list proc :=
  match l, k with
  | [], _ => []
  | _ :: l', O => p :: l'
  | q :: l', S k' => q :: put k' p l'
  end.
(** The process [k] replaced.  src/eval.rs:188-263. *)
Definition with_proc (k : nat) (p : proc) (N : net) : net := Net (put k p (procs N)) (up N) (pipes N).
(** The content of the pipe [j] replaced.  src/eval.rs:191. *)
Definition with_pipe (j : Z) (bs : list N) (N : net) : net := Net (procs N) (up N) (fun i => if Z.eqb i j then bs else pipes N i).

(** What a descriptor of a process is for.  src/eval.rs:219-249. *)
Definition object_at (p : proc) (fd : Z) : option object :=
  match p_tab p fd with Some d => Some (d_obj d) | None => None end.
(** A running process has [o] open.  src/eval.rs:219-249. *)
Definition holds (o : object) (p : proc) : Prop := live p = true /\ exists fd, object_at p fd = Some o.

Section Pipeline.
(** The pipes of the line have the numbers from [n] on, and each has room for [cap]
    bytes (src/eval.rs:191). *)
Context (n : Z) (cap : nat).

(** Somebody has [o] open: a process that has been started, or the shell, which
    between two turns of the loop keeps the read end of the last pipe
    (src/eval.rs:253-260).  A turn of the loop is one step here.  Within it the shell
    and the new process also have the other ends open for a moment: the write end
    of the new pipe, whose reader has not been started, and the read end of the
    pipe before, which the new process has open as well. *)
Definition held (o : object) (N : net) : Prop :=
  (exists k p, (k < up N)%nat /\ nth_error (procs N) k = Some p /\ holds o p) \/
  ((0 < up N < List.length (procs N))%nat /\ o = PipeR (n + Z.of_nat (up N) - 1)).

(** The process [k] is at the action [a].  src/eval.rs:669. *)
Definition doing (N : net) (k : nat) (p : proc) (a : action) : Prop :=
  (k < up N)%nat /\ nth_error (procs N) k = Some p /\ live p = true /\ code p (past p) = a.
(** Not an end of a pipe of this line.  src/eval.rs:191. *)
Definition elsewhere (o : option object) : Prop :=
  match o with Some (PipeR j) | Some (PipeW j) => j < n | _ => True end.

(** One step: the shell starts the next process (src/eval.rs:188-263), or a process
    makes a step of its own. *)
Inductive net_step : net -> net -> Prop :=
| ns_start N : (up N < List.length (procs N))%nat -> net_step N (Net (procs N) (S (up N)) (pipes N))
| ns_write N k p a b j : doing N k p (Write (a ++ b)) -> object_at p 1 = Some (PipeW j) -> n <= j -> held (PipeR j) N ->
    (a = [] -> b = []) -> (List.length (pipes N j) + List.length a <= cap)%nat \/ a = [] ->
    net_step N (with_pipe j (pipes N j ++ a) (with_proc k (returns (Took (List.length a)) p) N))
| ns_broken N k p bs j : doing N k p (Write bs) -> object_at p 1 = Some (PipeW j) -> n <= j -> ~ held (PipeR j) N ->
    net_step N (with_proc k (returns Broken p) N)
| ns_write_other N k p bs r : doing N k p (Write bs) -> elsewhere (object_at p 1) -> r = Took (List.length bs) \/ r = Failed ->
    net_step N (with_proc k (returns r p) N)
| ns_write_read N k p bs j : doing N k p (Write bs) -> object_at p 1 = Some (PipeR j) -> n <= j ->
    net_step N (with_proc k (returns Failed p) N)
| ns_read N k p a b j : doing N k p Read -> object_at p 0 = Some (PipeR j) -> n <= j -> pipes N j = a ++ b -> a <> [] ->
    net_step N (with_pipe j b (with_proc k (returns (Gave a) p) N))
| ns_end N k p j : doing N k p Read -> object_at p 0 = Some (PipeR j) -> n <= j -> pipes N j = [] -> ~ held (PipeW j) N ->
    net_step N (with_proc k (returns Ended p) N)
| ns_read_other N k p r : doing N k p Read -> elsewhere (object_at p 0) -> (exists bs, bs <> [] /\ r = Gave bs) \/ r = Ended \/ r = Failed ->
    net_step N (with_proc k (returns r p) N)
| ns_read_write N k p j : doing N k p Read -> object_at p 0 = Some (PipeW j) -> n <= j ->
    net_step N (with_proc k (returns Failed p) N)
| ns_stop N k p : doing N k p Stop -> net_step N (with_proc k (over p) N).

(** Any number of steps; a process may also be killed at any moment, by a signal or
    by a write that fails.  src/eval.rs:188-263. *)
Inductive net_run : net -> net -> Prop :=
| nr_refl N : net_run N N
| nr_step N N1 N2 : net_run N N1 -> net_step N1 N2 -> net_run N N2
| nr_kill N N1 k p a : net_run N N1 -> doing N1 k p a -> net_run N (with_proc k (over p) N1).
End Pipeline.

(** What a process has read.  src/eval.rs:669. *)
Definition received (p : proc) : list N :=
  flat_map (fun r => match r with Gave bs => bs | _ => [] end) (past p).
(** What a process has written: of each write as much as was taken.
    src/eval.rs:669. *)
Fixpoint sent_after (c : list result -> action) (before rest : list result) : list N :=
  match rest with
  | [] => []
  | r :: rest' =>
      match r, c before with
      | Took m, Write bs => firstn m bs
      | _, _ => []
      end ++ sent_after c (before ++ [r]) rest'
  end.
(** The same from the beginning.  src/eval.rs:669. *)
Definition sent (p : proc) : list N := sent_after (code p) [] (past p).
