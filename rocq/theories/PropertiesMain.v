(** Command lines and scripts (C54, C55). *)
From Verif Require Import Base BaseFacts Ast Parser Context Alias Expand Jobs Shell Builtins Eval EvalSpec EvalFacts EvalLaws EvalKeeps.
From Verif Require Import RunSpec Main MainSpec MainLaws MainKeeps PropertiesEval.
From Verif Require ContextSpec ContextFacts ContextLaws JobsSpec JobsFacts EvalHistory EvalJobs EvalFds PipeSpec.
Local Open Scope Z_scope.

(** ** Examples *)

(** A system without startup files. *)
Definition plain_reports (r : reports) (text : str) : reports :=
  Reports (r_isfile r) (fun p _ => negb (starts_with (lit "~") p)) (fun _ => Some text) (r_chdir r) (r_cwd r) (r_kill r)
          (r_pipe r) (r_fork r) (r_exec r) (r_getpid r) (r_waits r) (r_subst r).
Definition plain_os (text : string) : os := fun t => plain_reports (ex_os t) (lit text).
Lemma plain_no_startup text : no_startup_files (plain_os text).
Proof. intros t. split; reflexivity. Qed.
Definition ex_fds : fdtable := [(0, Desc (Other 0) false); (1, Desc (Other 1) false); (2, Desc (Other 2) false)].
Definition ex_fresh : image := fresh_image false (lit "/") (lit "1") (lit "2") [(lit "HOME", lit "/h")] ex_fds.
Definition words (l : list string) : list str := map lit l.

(** * C54: the command line *)

(** [rsh -c w1 w2 ...] runs the text of the words, with blanks in between. *)
Theorem C54_commands : forall w n k args ins root cwd ppid pid env fds t,
  asks args (Commands t) -> no_startup_files w ->
  let s := Shell (fresh_image root cwd ppid pid env fds) [] in
  exists s1, begun (lit "rsh") [] s s1 /\
    (parse t <> None -> main w n k args ins s =
       match exec_text w n t s1 with
       | (OOk _, s') | (OErr _, s') => (OOk tt, s')
       | (o, s') => (lift o, s')
       end) /\
    (parse t = None -> main w n k args ins s = (OPanic, s1)).
Proof.
  intros w n k args ins root cwd ppid pid env fds t Ha Hn s.
  set (c := Context (default_vars root cwd ppid pid env) [] []).
  assert (Hc : cm (im s) = one_scope c) by reflexivity.
  destruct (parse_args_asks args (Commands t) (cm (im s)) Ha) as [out Hp].
  destruct (main_begins w n k args ins s _ _ c Hp Hc eq_refl Hn) as (s1 & E & Ht & Hi & Hj & Hm).
  exists s1. split.
  - apply (begun_from (lit "rsh") [] s s1 c c); auto. intros [|j] a Hj'; discriminate.
  - rewrite E. cbn [goes_on]. unfold read_from_args. split; intros Hpt.
    + destruct (parse t) as [cc|] eqn:Et; [|congruence]. rewrite (bind_ok (unwrap (Some cc)) _ s1 cc s1 eq_refl).
      rewrite drop_error. unfold exec_text. rewrite Et. reflexivity.
    + rewrite Hpt. reflexivity.
Qed.
Example C54_commands_example :
  asks (words ["rsh"; "-x"; "-ec"; "X=1"; "&&"; "true"]%string) (Commands (lit "X=1 && true")) /\
  exists s', main (plain_os "") 5 0 (words ["rsh"; "-x"; "-ec"; "X=1"; "&&"; "true"]%string) [] (Shell ex_fresh []) = (OOk tt, s') /\
    expand_var (cm (im s')) (lit "X") = Some (lit "1") /\ ran_commands (trace s') = [lit "true"].
Proof.
  split.
  - apply (asks_commands (lit "rsh") (words ["-x"]%string) (lit "-ec") (words ["X=1"; "&&"; "true"]%string)).
    + discriminate.
    + intros (t & E & _). discriminate.
    + constructor; [|constructor]. split; [eexists; reflexivity|]. intros (t & E & H). injection E as <-. cbn in H. intuition discriminate.
    + eexists. split; [reflexivity|]. cbn. auto.
  - eexists. split; [vm_compute; reflexivity|]. split; vm_compute; reflexivity.
Qed.

(** [rsh script a1 a2 ...] runs the script with [$0] the script and [$i] the
    text of [ai] before its first ['='] and without one pair of quotes.  Missing
    for the full statement: the rest of such arguments (see [C54_refuted]). *)
Theorem C54_script_partial : forall w n k args ins root cwd ppid pid env fds file as_,
  asks args (Script file as_) -> no_startup_files w ->
  ~ too_many_digits 0 file -> (forall i a, nth_error as_ i = Some a -> ~ too_many_digits (1 + N.of_nat i) a) ->
  let s := Shell (fresh_image root cwd ppid pid env fds) [] in
  exists s1, begun file as_ s s1 /\ main w n k args ins s = script_loop w n k file s1 /\
    (forall i a, nth_error as_ i = Some a -> ContextSpec.unquote a = a -> ~ In (ch "=") a ->
       expand_var (cm (im s1)) (N_to_str (1 + N.of_nat i)) = Some a).
Proof.
  intros w n k args ins root cwd ppid pid env fds file as_ Ha Hn H0 Hd s.
  set (c := Context (default_vars root cwd ppid pid env) [] []).
  assert (Hc : cm (im s) = one_scope c) by reflexivity.
  pose proof (parse_args_asks args (Script file as_) (cm (im s)) Ha) as Hp. cbn [wanted_front] in Hp. rewrite Hc in Hp.
  destruct (store_one as_ 1 c Hd) as (c' & E' & Hs & Hk). rewrite E', <- Hc in Hp.
  destruct (main_begins w n k args ins s _ _ c' Hp eq_refl) as (s1 & E & Ht & Hi & Hj & Hm).
  { cbn [script_name]. apply not_true_is_false. exact H0. }
  { exact Hn. }
  assert (Hb : begun file as_ s s1) by (apply (begun_from file as_ s s1 c c'); auto).
  exists s1. split; [exact Hb|]. split; [rewrite E; reflexivity|].
  intros i a Hia Hq He. unfold expand_var. rewrite (bg_args _ _ _ _ Hb i a Hia). cbn [value]. f_equal.
  unfold kept. rewrite ContextFacts.upto_notIn by (apply contains_char_notIn; exact He). exact Hq.
Qed.
Example C54_script_example :
  asks (words ["rsh"; "-e"; "file"; "one"; "-c"]%string) (Script (lit "file") (words ["one"; "-c"]%string)) /\
  let s' := snd (main (plain_os "A=$1
") 5 3 (words ["rsh"; "-e"; "file"; "one"; "-c"]%string) [] (Shell ex_fresh [])) in
  expand_var (cm (im s')) (lit "2") = Some (lit "-c") /\ expand_var (cm (im s')) (lit "0") = Some (lit "file") /\
  trace s' = [EOpen (lit "file") for_reading].
Proof.
  split.
  - apply (asks_script (lit "rsh") (words ["-e"]%string) (lit "file") (words ["one"; "-c"]%string)); try discriminate.
    + intros (t & E & _). discriminate.
    + constructor; [|constructor]. split; [eexists; reflexivity|]. intros (t & E & H). injection E as <-. cbn in H. intuition discriminate.
    + intros [t E]. discriminate.
    + repeat constructor; discriminate.
  - split; [vm_compute; reflexivity|]. split; vm_compute; reflexivity.
Qed.

(** Without [-c] and without a script the shell is interactive. *)
Theorem C54_prompt : forall w n k args ins root cwd ppid pid env fds,
  asks args Prompt -> no_startup_files w ->
  let s := Shell (fresh_image root cwd ppid pid env fds) [] in
  exists s1, begun (lit "rsh") [] s s1 /\
    main w n k args ins s = interactive_loop w n ins (Shell (at_prompt (im s1)) (trace s1)).
Proof.
  intros w n k args ins root cwd ppid pid env fds Ha Hn s.
  set (c := Context (default_vars root cwd ppid pid env) [] []).
  assert (Hc : cm (im s) = one_scope c) by reflexivity.
  pose proof (parse_args_asks args Prompt (cm (im s)) Ha) as Hp. cbn [wanted_front] in Hp.
  destruct (main_begins w n k args ins s _ _ c Hp Hc eq_refl Hn) as (s1 & E & Ht & Hi & Hj & Hm).
  exists s1. split; [|rewrite E; reflexivity].
  apply (begun_from (lit "rsh") [] s s1 c c); auto. intros [|j] a Hj'; discriminate.
Qed.
Example C54_prompt_example :
  asks (words ["-rsh"]%string) Prompt /\ asks (words ["rsh"; "-i"; "-l"]%string) Prompt /\
  fst (main (plain_os "") 5 0 (words ["rsh"; "-i"; "-l"]%string) [TLine (lit "exit 3"); TLine (lit "true")] (Shell ex_fresh [])) = OExit 3.
Proof.
  split; [constructor|]. split; [|vm_compute; reflexivity].
  apply (asks_prompt (lit "rsh") (words ["-i"; "-l"]%string)); try discriminate.
  - intros (t & E & _). discriminate.
  - constructor; [|constructor; [|constructor]]; (split; [eexists; reflexivity|]); intros (t & E & H); injection E as <-; cbn in H; intuition discriminate.
Qed.

(** Exactly the other command lines crash the shell before it has done anything:
    those with an empty word where a word is looked at, and scripts with a name
    or an argument that has too many digits. *)
Definition bad_digits (file : str) (as_ : list str) : Prop :=
  too_many_digits 0 file \/ exists i a, nth_error as_ i = Some a /\ too_many_digits (1 + N.of_nat i) a.
Theorem C54_crash : forall w n k args ins root cwd ppid pid env fds,
  let s := Shell (fresh_image root cwd ppid pid env fds) [] in
  (~ exists r, asks args r) \/ (exists file as_, asks args (Script file as_) /\ bad_digits file as_) ->
  exists s1, main w n k args ins s = (OPanic, s1) /\ trace s1 = [].
Proof.
  intros w n k args ins root cwd ppid pid env fds s H.
  set (c := Context (default_vars root cwd ppid pid env) [] []).
  assert (Hc : cm (im s) = one_scope c) by reflexivity.
  destruct H as [H|(file & as_ & Ha & Hb)].
  - destruct (asks_or_crash args (cm (im s))) as [H'|E]; [contradiction|].
    exists s. split; [apply main_no_front; exact E|reflexivity].
  - pose proof (parse_args_asks args (Script file as_) (cm (im s)) Ha) as Hp. cbn [wanted_front] in Hp. rewrite Hc in Hp.
    assert (Hd : (exists i a, nth_error as_ i = Some a /\ too_many_digits (1 + N.of_nat i) a) \/
                 forall i a, nth_error as_ i = Some a -> ~ too_many_digits (1 + N.of_nat i) a).
    { clear. generalize 1%N as k. induction as_ as [|a as_ IH]; intros k; [right; intros [|i] a H; discriminate|].
      destruct (ContextSpec.unsettable (numbered k a)) eqn:E.
      - left. exists 0%nat, a. split; [reflexivity|]. unfold too_many_digits. rewrite N.add_0_r. exact E.
      - destruct (IH (k + 1)%N) as [(i & b & H1 & H2)|H].
        + left. exists (S i), b. split; [exact H1|]. replace (k + N.of_nat (S i))%N with (k + 1 + N.of_nat i)%N by lia. exact H2.
        + right. intros [|i] b Hb.
          * cbn in Hb. injection Hb as <-. unfold too_many_digits. rewrite N.add_0_r. congruence.
          * replace (k + N.of_nat (S i))%N with (k + 1 + N.of_nat i)%N by lia. apply H. exact Hb. }
    destruct Hd as [(i & a & H1 & H2)|Hd].
    + rewrite (store_fails as_ 1 c i a H1 H2), <- Hc in Hp. exists s. split; [apply main_no_front; exact Hp|reflexivity].
    + destruct Hb as [Hb|(i & a & H1 & H2)]; [|exfalso; exact (Hd i a H1 H2)].
      destruct (store_one as_ 1 c Hd) as (c' & E' & _ & _). rewrite E', <- Hc in Hp.
      destruct (main_no_arg0 w n k args ins s _ _ c' Hp eq_refl Hb) as (s1 & E & Ht). exists s1. split; [exact E|exact Ht].
Qed.
Example C54_crash_example :
  (~ exists r, asks (words ["rsh"; "file"; ""]%string) r) /\
  (exists file as_, asks (words ["rsh"; "file"; "12345678901234567890"]%string) (Script file as_) /\ bad_digits file as_).
Proof.
  split.
  - intros [r H]. pose proof (parse_args_asks _ r (one_scope empty_context) H) as Hp. destruct r as [|t|f a].
    + discriminate Hp.
    + destruct Hp as [out Hp]. discriminate Hp.
    + cbn [wanted_front] in Hp.
      inversion H as [| | | | |p opts file args Hq Hc Hf Hn Hfile Ha [E E0] [E1 E2]].
      destruct opts as [|x opts]; cbn [app] in E0.
      * injection E0 as _ Ea. rewrite <- E2, Ea in Ha. inversion Ha as [|? ? Hx]. apply Hx. reflexivity.
      * injection E0 as Ex _. inversion Hf as [|? ? [[t' Ho] _]]. subst x. discriminate.
  - exists (lit "file"), (words ["12345678901234567890"]%string). split.
    + apply (asks_script (lit "rsh") [] (lit "file") (words ["12345678901234567890"]%string)); try discriminate.
      * intros (t & E & _). discriminate.
      * constructor.
      * intros [t E]. discriminate.
      * repeat constructor; discriminate.
    + right. exists 0%nat. eexists. split; [reflexivity|]. vm_compute. reflexivity.
Qed.

(** The full statement fails for scripts: an argument with an ['='] is cut off
    there, one in quotes loses them, an empty one crashes the shell. *)
Theorem C54_refuted :
  (forall a, In a (words ["a=b"; "'x'"]%string) -> let s' := snd (main (plain_os "") 5 1 (words ["rsh"; "file"]%string ++ [a]) [] (Shell ex_fresh [])) in
     exists v, expand_var (cm (im s')) (lit "1") = Some v /\ v <> a) /\
  fst (main (plain_os "") 5 1 (words ["rsh"; "file"; ""]%string) [] (Shell ex_fresh [])) = OPanic.
Proof.
  split; [|vm_compute; reflexivity].
  intros a [<-|[<-|[]]]; (eexists; split; [vm_compute; reflexivity|discriminate]).
Qed.

(** * C55: scripts *)

(** A text cut into lines: every line but the last ends with its only newline. *)
Inductive cut_into : str -> list str -> Prop :=
| cut_none : cut_into [] []
| cut_last l : l <> [] -> ~ In 10%N l -> cut_into l [l]
| cut_line l t ls : ~ In 10%N l -> cut_into t ls -> cut_into (l ++ [10%N] ++ t) ((l ++ [10%N]) :: ls).
Lemma lines_of_cut t ls : cut_into t ls -> lines_of t = ls.
Proof.
  induction 1 as [|l Hne Hl|l t ls Hl Hc IH].
  - reflexivity.
  - induction l as [|c l IH]; [congruence|]. cbn [lines_of].
    destruct (N.eqb_spec c 10) as [->|_]; [exfalso; apply Hl; left; reflexivity|].
    destruct l as [|d l]; [reflexivity|]. rewrite IH; [reflexivity|discriminate|]. intros H. apply Hl. right. exact H.
  - induction l as [|c l IHl]; cbn [app lines_of].
    + rewrite N.eqb_refl. f_equal. exact IH.
    + destruct (N.eqb_spec c 10) as [->|_]; [exfalso; apply Hl; left; reflexivity|].
      cbn [app] in IHl. rewrite IHl; [reflexivity|]. intros H. apply Hl. right. exact H.
Qed.
Lemma cut_exists t : exists ls, cut_into t ls.
Proof.
  assert (H : forall n t, (List.length t <= n)%nat -> exists ls, cut_into t ls).
  { clear. induction n as [|n IH]; intros t Hl.
    - destruct t; [eexists; constructor|cbn in Hl; lia].
    - destruct (in_dec N.eq_dec 10%N t) as [Hin|Hn].
      + assert (Hs : exists l r, t = l ++ [10%N] ++ r /\ ~ In 10%N l).
        { clear -Hin. induction t as [|c t IHt]; [destruct Hin|]. destruct (N.eq_dec c 10%N) as [->|Hc].
          - exists [], t. split; [reflexivity|intros []].
          - destruct Hin as [Hin|Hin]; [congruence|]. destruct (IHt Hin) as (l & r & -> & Hl). exists (c :: l), r.
            split; [reflexivity|]. intros [H|H]; [congruence|contradiction]. }
        destruct Hs as (l & r & -> & Hn). destruct (IH r) as [ls Hls].
        { unfold char in *. rewrite !app_length in Hl. cbn [List.length] in Hl. lia. }
        eexists. constructor; eassumption.
      + destruct t as [|c t]; [eexists; constructor|]. eexists. apply cut_last; [discriminate|exact Hn]. }
  exact (H _ t (le_n _)).
Qed.

Lemma script_line w n k l ls s r s1 : parse l <> None -> exec_text w n l s = (r, s1) ->
  script_lines w n (S k) (l :: ls) s = if (match r with OOk _ | OErr _ => true | _ => false end) then script_lines w n k ls s1 else (lift r, s1).
Proof.
  intros Hp He. cbn [script_lines hd tl]. unfold exec_text in He. destruct (parse l) as [c|]; [|congruence].
  rewrite (bind_ok (unwrap (Some c)) _ s c s eq_refl).
  assert (Hc : catch (eval w n c) s = match r with OOk a => (OOk (inl a), s1) | OErr e => (OOk (inr e), s1) | o => (lift o, s1) end).
  { unfold catch. rewrite He. destruct r; reflexivity. }
  destruct r.
  1: exact (seq_ok _ _ s _ s1 Hc). 1: exact (seq_ok _ _ s _ s1 Hc).
  all: rewrite (seq_fails _ _ s _ s1 Hc I); reflexivity.
Qed.
Lemma script_eof w n k s : script_lines w n k [] s = (OFuel, s).
Proof.
  induction k as [|k IH]; [reflexivity|]. cbn [script_lines hd tl].
  change (parse []) with (Some (@None (list and_or))). exact IH.
Qed.
Lemma lines_all w n ls s s' : lines_run w n ls s s' -> forall rest k,
  script_lines w n (List.length ls + k) (ls ++ rest) s = script_lines w n k rest s'.
Proof.
  induction 1 as [s|l ls s r s1 s' Hp He Hr _ IH]; intros rest k; [reflexivity|].
  cbn [List.length plus app]. rewrite (script_line w n _ l (ls ++ rest) s r s1 Hp He). destruct r; try contradiction; apply IH.
Qed.

(** The file a script is read from. *)
Definition reads (w : os) (s : shell) (file text : str) : Prop :=
  r_open (w (trace s)) file for_reading = true /\ r_read (w (EOpen file for_reading :: trace s)) file = Some text.
(** The shell after it has opened the script. *)
Definition opened (file : str) (s : shell) : shell :=
  Shell (with_fds (ninsert (lowest (fds (im s))) (Desc (OpenFile file for_reading) true) (fds (im s))) (im s)) (EOpen file for_reading :: trace s).
Lemma script_reads w n k file text ls s : reads w s file text -> cut_into text ls ->
  script_loop w n k file s = script_lines w n k ls (opened file s).
Proof.
  intros [Ho Hr] Hc. unfold script_loop.
  rewrite (bind_ok _ _ s (Some (lowest (fds (im s)))) (opened file s)).
  2:{ unfold sys_open. rewrite (bind_ok _ _ s true s); [reflexivity|]. unfold ask. rewrite Ho. reflexivity. }
  rewrite (bind_ok (unwrap (Some _)) _ (opened file s) (lowest (fds (im s))) (opened file s) eq_refl).
  rewrite (bind_ok (ask w (fun r => r_read r file)) _ (opened file s) (Some text) (opened file s)).
  2:{ unfold ask. cbn [opened trace]. rewrite Hr. reflexivity. }
  rewrite (bind_ok (unwrap (Some text)) _ (opened file s) text (opened file s) eq_refl).
  rewrite (lines_of_cut _ _ Hc). reflexivity.
Qed.

(** The lines of a script are run in order, each as if it were typed alone; a
    line that ends or crashes the shell is the last one.  Missing for the full
    statement: the end (see [C55_terminates_refuted]). *)
Theorem C55_lines_in_order_partial : forall w n file text done l rest s s1 r s2, reads w s file text ->
  cut_into text (done ++ l :: rest) -> lines_run w n done (opened file s) s1 ->
  parse l <> None -> exec_text w n l s1 = (r, s2) -> ~ returns r ->
  forall k, script_loop w n (List.length done + S k) file s = (lift r, s2).
Proof.
  intros w n file text done l rest s s1 r s2 Hr Hc Hd Hp He Hn k.
  rewrite (script_reads w n _ file text _ s Hr Hc), (lines_all w n done _ s1 Hd).
  rewrite (script_line w n k l rest s1 r s2 Hp He). destruct r; try reflexivity; exfalso; apply Hn; exact I.
Qed.
Example C55_example :
  reads (plain_os "A=1
true
exit 4
false
") (Shell ex_fresh []) (lit "file") (lit "A=1
true
exit 4
false
") /\
  exists s', script_loop (plain_os "A=1
true
exit 4
false
") 5 10 (lit "file") (Shell ex_fresh []) = (OExit 4, s') /\ ran_commands (trace s') = [lit "true"].
Proof.
  split; [split; [reflexivity|reflexivity]|]. eexists. split; vm_compute; reflexivity.
Qed.
(** A line that is not a command by itself crashes the shell. *)
Theorem C55_bad_line_partial : forall w n file text done l rest s s1, reads w s file text ->
  cut_into text (done ++ l :: rest) -> lines_run w n done (opened file s) s1 -> parse l = None ->
  forall k, script_loop w n (List.length done + S k) file s = (OPanic, s1).
Proof.
  intros w n file text done l rest s s1 Hr Hc Hd Hp k.
  rewrite (script_reads w n _ file text _ s Hr Hc), (lines_all w n done _ s1 Hd). cbn [script_lines hd]. rewrite Hp. reflexivity.
Qed.
(** The full statement fails for every script whose commands all terminate: the
    loop goes on for ever at the end of the file, without doing anything. *)
Theorem C55_terminates_refuted : forall w n file text ls s s', reads w s file text ->
  cut_into text ls -> lines_run w n ls (opened file s) s' ->
  forall k, script_loop w n (List.length ls + k) file s = (OFuel, s').
Proof.
  intros w n file text ls s s' Hr Hc Hd k. rewrite (script_reads w n _ file text _ s Hr Hc).
  rewrite <- (app_nil_r ls) at 2. rewrite (lines_all w n ls _ s' Hd). apply script_eof.
Qed.
(** No script ever comes to its end. *)
Theorem C55_no_end_refuted : forall w n k file s o s', script_loop w n k file s = (o, s') -> o <> OOk tt.
Proof.
  intros w n k file s o s' H ->. unfold script_loop in H.
  apply bind_inv_ok in H. destruct H as (f & s1 & _ & H). apply bind_inv_ok in H. destruct H as (f' & s2 & _ & H).
  apply bind_inv_ok in H. destruct H as (t & s3 & _ & H). apply bind_inv_ok in H. destruct H as (t' & s4 & _ & H).
  revert H. generalize (lines_of t') as ls, s4 as s0. clear. induction k as [|k IH]; intros ls s0 H; [discriminate|].
  cbn [script_lines] in H. apply bind_inv_ok in H. destruct H as (c & s1 & _ & H). apply seq_inv_ok in H.
  destruct H as (r & s2 & _ & H). exact (IH _ _ H).
Qed.
Example C55_refuted_example :
  lines_run (plain_os "A=1
") 5 [lit "A=1
"] (opened (lit "file") (Shell ex_fresh [])) (snd (exec_text (plain_os "A=1
") 5 (lit "A=1
") (opened (lit "file") (Shell ex_fresh [])))) /\
  cut_into (lit "A=1
") [lit "A=1
"].
Proof.
  split.
  - eapply lines_next; [discriminate|vm_compute; reflexivity|exact I|]. vm_compute. constructor.
  - apply (cut_line (lit "A=1") [] []); [intros H; cbn in H; intuition discriminate|constructor].
Qed.

Print Assumptions C54_commands.
Print Assumptions C54_script_partial.
Print Assumptions C54_prompt.
Print Assumptions C54_crash.
Print Assumptions C54_refuted.
Print Assumptions C55_lines_in_order_partial.
Print Assumptions C55_bad_line_partial.
Print Assumptions C55_terminates_refuted.
Print Assumptions C55_no_end_refuted.
