(** Property C137: signals during a command substitution. *)
From Verif Require Import Base BaseFacts Lexer LexerSpec Ast Parser GrammarSpec Context Alias Expand ExpandSpec ExpandFacts ExpandLaws Jobs Shell Builtins Eval Main.
From Verif Require Import Async EvalSpec EvalFacts EvalLaws RunSpec RunLaws PipeSpec AsyncLaws AsyncRun Subst SubstSignal.
From Verif Require Trap PropertiesSubst PropertiesEval PropertiesMain PropertiesAsync.
Import PropertiesEval PropertiesMain PropertiesAsync.
Local Open Scope Z_scope.

(** ** C137 *)

(** *** The two processes *)

Lemma kept_goes writable s t t' : Trap.deliver writable s t = Trap.Goes t' -> Trap.masked t' = Trap.masked t /\ Trap.actions t' = Trap.actions t.
Proof.
  unfold Trap.deliver. destruct (Trap.actions t s).
  - destruct (Trap.default_action s); intros H; try discriminate. injection H as <-. auto.
  - intros H. injection H as <-. auto.
  - unfold Trap.on_sig. cbn match. intros H.
    repeat match type of H with context [match ?x with _ => _ end] => is_var x; destruct x; cbn match zeta in H
           | context [Trap.is_trap_set ?a ?b] => destruct (Trap.is_trap_set a b) end;
      try discriminate H; injection H as <-; split; reflexivity.
Qed.
Lemma kept_halted writable s t t' : Trap.deliver writable s t = Trap.Halted t' -> t' = t.
Proof.
  unfold Trap.deliver. destruct (Trap.actions t s).
  - destruct (Trap.default_action s); intros H; try discriminate. injection H as <-. auto.
  - discriminate.
  - destruct (Trap.on_sig _ _ _ _); discriminate.
Qed.
(** What a signal never changes: which ones are blocked, what is done about them,
    and how far the two processes are. *)
Lemma struck_kept writable s t f t' f' : struck writable s t f = Live t' f' ->
  f' = f /\ Trap.masked t' = Trap.masked t /\ Trap.actions t' = Trap.actions t.
Proof.
  unfold struck. destruct (Trap.masked t s); [intros H; injection H as <- <-; auto|].
  destruct (Trap.deliver writable s t) as [t1|s1|t1|] eqn:E; try discriminate.
  - apply kept_goes in E. destruct E as [E1 E2].
    destruct (Trap.actions t s), (at_ f), (ended f); intros H; try discriminate; injection H as <- <-; auto.
  - apply kept_halted in E. subst t1. intros H. injection H as <- <-. auto.
Qed.
Lemma lives_kept cap writable allowed t f x : live_steps cap writable allowed (Live t f) x ->
  forall t' f', x = Live t' f' -> flow_steps cap f f' /\ Trap.masked t' = Trap.masked t /\ Trap.actions t' = Trap.actions t.
Proof.
  remember (Live t f) as y eqn:Ey. intros H. induction H as [x|x t1 f1 g H IH Hs|x s t1 f1 H IH Ha]; intros t' f' E; subst x.
  - injection E as <- <-. split; [constructor|auto].
  - injection E as <- <-. destruct (IH eq_refl _ _ eq_refl) as (I1 & I2). split; [econstructor; eassumption|exact I2].
  - destruct (IH eq_refl _ _ eq_refl) as (I1 & I2 & I3). apply struck_kept in E. destruct E as (-> & E2 & E3).
    split; [exact I1|]. rewrite E2, E3. auto.
Qed.

(** The state of the signals in an interactive shell that runs a command. *)
Definition at_work (inherited : signal -> Trap.disposition) (t : Trap.trap_state) : Prop :=
  (forall s, inherited s <> Trap.OnSig) /\ exists t0, Trap.set_up (Trap.initial inherited) = Some t0 /\ t = Trap.interrupts_off t0.
Lemma at_work_actions inherited t : at_work inherited t ->
  (forall s, Trap.masked t s = false <-> s = SIGINT \/ s = SIGTSTP \/ s = SIGKILL \/ s = SIGSTOP) /\
  Trap.actions t SIGINT = Trap.OnSig /\ Trap.actions t SIGTSTP = Trap.OnSig /\ Trap.actions t SIGSTOP <> Trap.OnSig.
Proof.
  intros [Hi (t0 & H & ->)]. injection H as <-. split.
  - intros s. cbn. destruct s; intuition congruence.
  - split; [reflexivity|]. split; [reflexivity|]. exact (Hi SIGSTOP).
Qed.

(** As long as the commands of the substitution run, Ctrl-C and Ctrl-Z crash the
    shell, whatever has happened before.  (Full statement: the substitution is
    abandoned and the shell goes on.) *)
Theorem C137_signal_refuted : forall inherited t0 cap writable (allowed : signal -> flow -> Prop) bytes t f, at_work inherited t0 ->
  live_steps cap writable allowed (Live t0 (flow_start bytes)) (Live t f) -> ended f = false ->
  struck writable SIGINT t f = Crashed /\ struck writable SIGTSTP t f = Crashed.
Proof.
  intros inherited t0 cap writable allowed bytes t f Hw H He.
  destruct (lives_kept _ _ _ _ _ _ H t f eq_refl) as (Hf & Em & Ea).
  destruct (at_work_actions _ _ Hw) as (Hm & A1 & A2 & _). rewrite <- Ea in A1, A2.
  assert (Hat : at_ f = Waiting).
  { destruct (PropertiesSubst.flow_inv _ _ _ Hf) as (_ & _ & _ & I4 & _). destruct (at_ f); [reflexivity|rewrite I4 in He by discriminate; discriminate..]. }
  assert (M1 : Trap.masked t SIGINT = false) by (rewrite Em; apply Hm; auto).
  assert (M2 : Trap.masked t SIGTSTP = false) by (rewrite Em; apply Hm; auto).
  unfold struck, Trap.deliver. rewrite M1, M2, A1, A2, Hat, He. split.
  - destruct (Trap.on_sig writable false SIGINT t); reflexivity.
  - destruct (Trap.on_sig writable false SIGTSTP t); reflexivity.
Qed.
(** All other signals leave it alone, and so do these two once the commands have
    ended: whatever arrives, the shell is not ended, and it reads what it would
    have read. *)
Theorem C137_signal_partial : forall inherited t0 cap bytes (allowed : signal -> flow -> Prop) x, at_work inherited t0 ->
  (forall s f, allowed s f -> s <> SIGKILL /\ (s = SIGINT \/ s = SIGTSTP -> ended f = true)) ->
  live_steps cap true allowed (Live t0 (flow_start bytes)) x ->
  exists t f, x = Live t f /\ flow_steps cap (flow_start bytes) f /\
    ((List.length bytes <= cap)%nat -> at_ f = Finished -> got f = bytes).
Proof.
  intros inherited t0 cap bytes allowed x Hw Hall H.
  assert (G : exists t f, x = Live t f).
  { remember (Live t0 (flow_start bytes)) as y eqn:Ey. induction H as [x|x t f g H IH Hs|x s t f H IH Ha].
    - subst x. eauto.
    - eauto.
    - subst x. destruct (lives_kept _ _ _ _ _ _ H t f eq_refl) as (_ & Em & Ea).
      destruct (at_work_actions _ _ Hw) as (Hm & A1 & A2 & A3). rewrite <- Ea in A1, A2, A3. destruct (Hall _ _ Ha) as [Hk Hi].
      unfold struck. destruct (Trap.masked t s) eqn:M; [eauto|]. rewrite Em in M. apply Hm in M.
      destruct M as [-> |[-> |[-> | ->]]].
      + rewrite A1, (Hi (or_introl eq_refl)). unfold Trap.deliver. rewrite A1. unfold Trap.on_sig. cbn match zeta.
        repeat match goal with |- context [Trap.is_trap_set ?a ?b] => destruct (Trap.is_trap_set a b) end; destruct (at_ f); eauto.
      + rewrite A2, (Hi (or_intror eq_refl)). unfold Trap.deliver. rewrite A2. unfold Trap.on_sig. cbn match zeta.
        repeat match goal with |- context [Trap.is_trap_set ?a ?b] => destruct (Trap.is_trap_set a b) end; destruct (at_ f); eauto.
      + congruence.
      + unfold Trap.deliver. destruct (Trap.actions t SIGSTOP); [|eauto|congruence]. eauto. }
  destruct G as (t & f & ->). exists t, f. split; [reflexivity|]. destruct (lives_kept _ _ _ _ _ _ H t f eq_refl) as (Hf & _).
  split; [exact Hf|]. intros Hc Hd. exact (proj1 (PropertiesSubst.C113_fits_partial cap bytes Hc) f Hf Hd).
Qed.
Definition ex_t0 : Trap.trap_state :=
  match Trap.set_up (Trap.initial (fun _ => Trap.SigDfl)) with Some t => Trap.interrupts_off t | None => Trap.initial (fun _ => Trap.SigDfl) end.
Definition ex_t1 : Trap.trap_state :=
  match struck true SIGINT ex_t0 (Flow [] [1%N] true Waiting []) with Live t _ => t | _ => ex_t0 end.
Lemma ex_struck : struck true SIGINT ex_t0 (Flow [] [1%N] true Waiting []) = Live ex_t1 (Flow [] [1%N] true Waiting []).
Proof. vm_compute. reflexivity. Qed.
Example C137_signal_example :
  at_work (fun _ => Trap.SigDfl) ex_t0 /\
  struck true SIGCHLD ex_t0 (flow_start [1%N]) = Live ex_t0 (flow_start [1%N]) /\
  struck true SIGINT ex_t0 (flow_start [1%N]) = Crashed /\
  live_steps 2 true (fun s f => s = SIGINT /\ ended f = true) (Live ex_t0 (flow_start [1%N])) (Live ex_t1 (Flow [] [] true Subst.Finished [1%N])).
Proof.
  split.
  - split; [discriminate|]. eexists. split; reflexivity.
  - split; [vm_compute; reflexivity|]. split; [vm_compute; reflexivity|].
    eapply ls_flow; [|apply (f_done 2 [])].
    eapply ls_flow; [|apply (f_read 2 [] [1%N] [] true []); discriminate].
    eapply ls_flow; [|apply (f_waited 2 [])].
    cbn [app]. rewrite <- ex_struck. apply ls_signal; [|split; reflexivity].
    eapply ls_flow; [|apply (f_end 2 [1%N])].
    eapply ls_flow; [apply ls_refl|]. apply (f_write 2 [1%N] [] []); [discriminate|cbn; lia].
Qed.

(** *** The evaluator *)

Lemma subshell_log out log s o log' : eval_subshell out log s = Some (o, log') -> exists l, log' = log ++ l.
Proof.
  unfold eval_subshell, run_subshell. intros H.
  repeat match type of H with
         | (if ?b then _ else _) = _ => destruct b
         | match ?x with _ => _ end = _ => destruct x
         end; try discriminate; injection H as <- <-; eauto. exists []. rewrite app_nil_r. reflexivity.
Qed.
Lemma cut_log out n : forall log cs nw o log', cut_loop out n log cs nw = Some (o, log') -> exists l, log' = log ++ l.
Proof.
  induction n as [|n IH]; intros log cs nw o log' H; cbn [cut_loop] in H.
  - exists []. rewrite app_nil_r. destruct cs; injection H as _ <-; reflexivity.
  - destruct cs as [|c cs]; [exists []; rewrite app_nil_r; injection H as _ <-; reflexivity|].
    destruct (_ || _)%bool; [|eapply IH; exact H].
    destruct (create_subshell c cs) as [[sub rest]|]; [|discriminate].
    destruct (eval_subshell out log sub) as [[o1 log1]|] eqn:E; [|discriminate].
    apply subshell_log in E. destruct E as (l1 & ->). apply IH in H. destruct H as (l2 & ->). exists (l1 ++ l2). apply eq_sym, app_assoc.
Qed.
Lemma word_log out log x vs log' : eval_word out log x = Some (vs, log') -> exists l, log' = log ++ l.
Proof.
  assert (Hc : forall nw log1, cut_quotes out log x = Some (nw, log1) -> exists l, log1 = log ++ l).
  { intros nw log1 H. unfold cut_quotes in H. destruct (starts_with _ x); [eapply cut_log; exact H|].
    exists []. rewrite app_nil_r. injection H as _ <-. reflexivity. }
  unfold eval_word, eval_double_quotes. intros H. destruct (starts_with (lit """") x).
  - destruct (cut_quotes out log x) as [[nw log1]|]; [|discriminate]. destruct (Hc _ _ eq_refl) as (l1 & ->).
    destruct (_ && _)%bool; [injection H as _ <-; eauto|].
    destruct (eval_subshell out (log ++ l1) nw) as [[e log2]|] eqn:E; [|discriminate].
    apply subshell_log in E. destruct E as (l2 & ->). exists (l1 ++ l2). rewrite app_assoc. destruct (contains_str _ e); injection H as _ <-; reflexivity.
  - destruct (starts_with (lit "'") x).
    + destruct (cut_quotes out log x) as [[nw log1]|]; [|discriminate]. injection H as _ <-. eauto.
    + injection H as _ <-. exists []. rewrite app_nil_r. reflexivity.
Qed.
Lemma words_log out ws : forall log vs log', append_all (eval_word out) log ws = Some (vs, log') -> exists l, log' = log ++ l.
Proof.
  induction ws as [|x ws IH]; intros log vs log' H; cbn [append_all] in H.
  - injection H as _ <-. exists []. rewrite app_nil_r. reflexivity.
  - destruct (eval_word out log x) as [[v1 log1]|] eqn:E; [|discriminate]. apply word_log in E. destruct E as (l1 & ->).
    destruct (append_all (eval_word out) (log ++ l1) ws) as [[v2 log2]|] eqn:E; [|discriminate]. apply IH in E. destruct E as (l2 & ->).
    injection H as _ <-. exists (l1 ++ l2). apply eq_sym, app_assoc.
Qed.
(** A word with a substitution in it runs something. *)
Lemma cut_runs out a cmd b : (forall c, In c a -> c <> ch "$" /\ c <> ch "`") -> ~ In (ch ")") cmd ->
  forall n log nw o log', (List.length (a ++ lit "$(" ++ cmd ++ lit ")" ++ b) <= n)%nat ->
  cut_loop out n log (a ++ lit "$(" ++ cmd ++ lit ")" ++ b) nw = Some (o, log') -> log' <> [].
Proof.
  intros Ha Hc. induction a as [|x a IH]; intros n log nw o log' Hn H; (destruct n as [|n]; [cbn in Hn; lia|]).
  - change ([] ++ lit "$(" ++ cmd ++ lit ")" ++ b) with (ch "$" :: ch "(" :: cmd ++ ch ")" :: b) in H. cbn [cut_loop] in H.
    change (N.eqb (ch "$") (ch "$") || N.eqb (ch "$") (ch "`"))%bool with true in H. cbn match in H.
    unfold create_subshell in H. change (N.eqb (ch "$") (ch "$")) with true in H. cbn match in H.
    change (N.eqb (ch "(") (ch "(")) with true in H. cbn match in H. rewrite (take_through_in (ch ")") cmd b Hc) in H.
    unfold eval_subshell in H. change (starts_with (lit "$(") (ch "$" :: ch "(" :: cmd ++ [ch ")"])) with true in H. cbn match in H.
    unfold run_subshell in H. destruct (parse _) as [ast|]; [|discriminate]. destruct (out log ast); [|discriminate].
    apply cut_log in H. destruct H as (l & ->). destruct log; discriminate.
  - cbn [app cut_loop] in H. destruct (Ha x (or_introl eq_refl)) as [H1 H2]. apply N.eqb_neq in H1, H2. rewrite H1, H2 in H. cbn [orb] in H.
    eapply IH; [intros c Hin; apply Ha; right; exact Hin| |exact H]. cbn [app List.length] in Hn. lia.
Qed.
Lemma substitution_runs out log a cmd b vs log' : (forall c, In c a -> c <> ch "$" /\ c <> ch "`") -> ~ In (ch ")") cmd ->
  eval_word out log (dq (a ++ lit "$(" ++ cmd ++ lit ")" ++ b)) = Some (vs, log') -> log' <> [].
Proof.
  intros Ha Hc H. set (x := dq _) in *. unfold eval_word in H. change (starts_with (lit """") x) with true in H. cbn match in H.
  unfold eval_double_quotes, cut_quotes in H. change (starts_with (lit """") x) with true in H. cbn match in H.
  assert (Ed : drop_ends x = a ++ lit "$(" ++ cmd ++ lit ")" ++ b).
  { apply body_iff; [discriminate|]. apply body_dq. }
  rewrite Ed in H. destruct (cut_loop _ _ _ _ _) as [[nw log1]|] eqn:E; [|discriminate].
  apply (cut_runs out a cmd b Ha Hc) in E; [|lia].
  destruct (_ && _)%bool; [injection H as _ <-; exact E|].
  destruct (eval_subshell out log1 nw) as [[e log2]|] eqn:E2; [|discriminate]. apply subshell_log in E2. destruct E2 as (l & ->).
  assert (log' = log1 ++ l) as -> by (destruct (contains_str _ e); injection H as _ <-; reflexivity).
  destruct log1; [congruence|discriminate].
Qed.

(** A typed line with a substitution in double quotes: a SIGINT while it runs
    crashes the shell, at the program or builtin [n] and whatever the line
    contains besides. *)
Theorem C137_interrupt_refuted : forall w sg d n ws a cmd b more s l, plain_name (al (im s)) n ->
  Forall written_word (n :: ws ++ more) -> (forall c, In c a -> c <> ch "$" /\ c <> ch "`") ->
  ~ In (ch """") (a ++ cmd ++ b) -> ~ In (ch ")") cmd ->
  handlers (im s) = true -> forked (im s) = false -> sg PStart (trace s) = [] -> In (Int l) (sg PSubst (trace s)) ->
  exec_text_async w sg (S d) (r_words (n :: ws ++ dq (a ++ lit "$(" ++ cmd ++ lit ")" ++ b) :: more)) s = (OPanic, blocked s).
Proof.
  intros w sg d n ws a cmd b more s l Hn Hw Ha Hq Hc Hh Hf H0 Hi.
  set (x := dq (a ++ lit "$(" ++ cmd ++ lit ")" ++ b)).
  assert (Hx : written_word x).
  { apply ww_quoted; [cbn; auto|]. intros H. rewrite !in_app_iff in H. destruct H as [H|[H|[H|[H|H]]]].
    - apply Hq. rewrite !in_app_iff. auto.
    - cbn in H. intuition discriminate.
    - apply Hq. rewrite !in_app_iff. auto.
    - cbn in H. intuition discriminate.
    - apply Hq. rewrite !in_app_iff. auto. }
  assert (Ex : expand_async w sg (words_cmd n (ws ++ x :: more)) (blocked s) = (OPanic, blocked s)).
  { assert (Hs : cut_short (masked (js (im (blocked s)))) (arriving sg PSubst (blocked s)) = true).
    { unfold arriving. change (handlers (im (blocked s))) with (handlers (im s)). change (forked (im (blocked s))) with (forked (im s)).
      change (trace (blocked s)) with (trace s). rewrite Hh, Hf. cbn [andb negb]. apply existsb_exists. exists (Int l). auto. }
    unfold expand_async. rewrite Hs. unfold expand_command, words_cmd. change (cm (im (blocked s))) with (cm (im s)).
    change (al (im (blocked s))) with (al (im s)). change (trace (blocked s)) with (trace s).
    destruct (ws ++ x :: more) as [|y k] eqn:El; [destruct ws; discriminate|].
    rewrite plain_expand by (auto; exact I). rewrite <- El. clear El.
    destruct (append_all (eval_word (r_subst (w (trace s)))) [] (map (expand_word (cm (im s))) (ws ++ x :: more))) as [[vs log]|] eqn:E; [|reflexivity].
    assert (Hl : log <> []).
    { rewrite map_app, append_all_app in E.
      destruct (append_all _ [] (map (expand_word (cm (im s))) ws)) as [[va log1]|]; [|discriminate].
      cbn [map append_all] in E. change (expand_word (cm (im s)) x) with x in E.
      destruct (eval_word (r_subst (w (trace s))) log1 x) as [[vx log2]|] eqn:E2; [|discriminate].
      apply (substitution_runs _ _ a cmd b _ _ Ha Hc) in E2.
      destruct (append_all _ log2 _) as [[v3 log3]|] eqn:E3; [|discriminate]. apply words_log in E3. destruct E3 as (l3 & ->).
      injection E as _ <-. destruct log2; [congruence|discriminate]. }
    destruct log; [congruence|reflexivity]. }
  assert (Hall : Forall written_word (n :: ws ++ x :: more)).
  { apply Forall_cons; [exact (Forall_inv Hw)|]. apply Forall_inv_tail in Hw. apply Forall_app in Hw as [H1 H2].
    apply Forall_app. split; [exact H1|]. apply Forall_cons; assumption. }
  destruct (words_line n (ws ++ x :: more) (proj1 Hn) Hall) as [Hwf El]. refine (eq_trans (f_equal (fun t => exec_text_async w sg (S d) t s) (eq_sym El)) _).
  rewrite (exec_pipeline_async w sg d _ s Hwf). unfold eval_pipeline_async.
  assert (E0 : signals w sg PStart s = (OOk tt, s)).
  { unfold signals, taken, arriving. rewrite H0. destruct (handlers (im s) && negb (forked (im s)))%bool; destruct (masked (js (im s))); reflexivity. }
  rewrite (seq_ok _ _ _ _ _ E0). rewrite (seq_ok interrupts_off _ s tt (blocked s) eq_refl).
  unfold bind at 1. cbn [gather_async eval_command_async]. unfold bind at 1, eval_simple_command_async.
  destruct (check_if_builtin (sc_name (words_cmd n (ws ++ x :: more)))).
  - unfold seq, bind at 1, eval_builtin_async, bind at 1. rewrite Ex. reflexivity.
  - unfold bind at 1. rewrite Ex. reflexivity.
Qed.
(** SIGCHLDs while substitutions run make no difference to anything. *)
Theorem C137_children_partial : forall w sg n k args ins s,
  (forall p tr, p <> PSubst -> sg p tr = []) -> undisturbed sg PSubst -> fst (main w n k args ins s) <> OFuel ->
  main_async w sg n k args ins s = main w n k args ins s.
Proof. intros w sg n k args ins s Hq Hu. apply (agrees_main w sg Hq Hu). Qed.
Example C137_example :
  let line := lit " echo ""<$(a b)>"" c" in
  let s := Shell (at_prompt ex_image) [] in
  line = r_words (lit "echo" :: [] ++ dq (lit "<" ++ lit "$(" ++ lit "a b" ++ lit ")" ++ lit ">") :: [lit "c"]) /\
  fst (exec_text_async ex_os (at_point PSubst [Sig 0; Int [0]%nat]) 5 line s) = OPanic /\
  fst (exec_text_async ex_os (at_point PSubst [Sig 0]) 5 line s) = OOk 0 /\
  fst (exec_text_async ex_os (at_point PSubst [Int []]) 5 (lit "echo c") s) = OOk 0 /\
  fst (main_async (plain_os "x") (at_point PSubst [Int []]) 5 0 (words ["rsh"]%string) [TLine (lit "b"); TLine line; TClosed] (Shell ex_fresh [])) = OPanic /\
  fst (main_async (plain_os "x") (at_point PSubst [Sig 1; Sig 0]) 5 0 (words ["rsh"]%string) [TLine (lit "b"); TLine line; TClosed] (Shell ex_fresh [])) = OOk tt.
Proof. vm_compute. repeat split; reflexivity. Qed.

Print Assumptions C137_signal_refuted.
Print Assumptions C137_signal_partial.
Print Assumptions C137_interrupt_refuted.
Print Assumptions C137_children_partial.
