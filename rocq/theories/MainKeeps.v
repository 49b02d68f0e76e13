(** What holds throughout a session, whatever is typed and whatever the
    operating system answers. *)
From Verif Require Import Base BaseFacts Ast Parser Context Alias Expand Jobs Shell Builtins Eval EvalSpec EvalFacts EvalLaws EvalKeeps.
From Verif Require Import RunSpec Main MainSpec MainLaws.
From Verif Require ContextSpec ContextFacts ContextLaws JobsSpec JobsFacts JobsLaws EvalStack EvalHistory EvalJobs EvalFds.
Local Open Scope Z_scope.

Section Sessions.
Context (all : bool) (R : shell -> shell -> Prop) (P : preorder R) (w : os) (n : nat).
Context (He : forall l, keeps all R (evaluate w n l)).

Lemma ks_eval c : keeps all R (eval w n c).
Proof. unfold eval, eval_complete. destruct c; [apply He|apply (keeps_ret _ _ P)]. Qed.
Lemma ks_text t : keeps all R (exec_text w n t).
Proof. unfold exec_text. destruct (parse t); [apply ks_eval|apply (keeps_stop _ _ P)]. Qed.
Lemma ks_line t : keeps all R (run_line w n t).
Proof.
  unfold run_line. destruct t; [apply (keeps_ret _ _ P)|]. destruct (parse _); [|apply (keeps_ret _ _ P)].
  apply (keeps_seq _ _ P); [apply keeps_catch; apply ks_eval|apply (keeps_ret _ _ P)].
Qed.
Lemma ks_loop : keeps all R save_history -> keeps all R (child_signal w) -> forall ins, keeps all R (interactive_loop w n ins).
Proof.
  intros Hv Hc. induction ins as [|i ins IH]; cbn [interactive_loop]; keep P; try apply ks_line; auto.
Qed.
Lemma ks_lines k : forall ls, keeps all R (script_lines w n k ls).
Proof. induction k as [|k IH]; intros ls; cbn [script_lines]; keep P; try apply ks_eval. Qed.
Lemma ks_args t : keeps all R (read_from_args w n t).
Proof. unfold read_from_args. keep P. apply ks_eval. Qed.

(** The rest of the program, given what it does besides. *)
Context (Hopen : forall A p (bad : M A) m, keeps all R bad -> keeps all R m ->
  keeps all R (f <- sys_open w p for_reading ;; match f with None => bad | Some f => while_open f m end)).
Lemma ks_startup p : keeps all R (read_startup w n p).
Proof. unfold read_startup. apply Hopen; keep P. apply ks_eval. Qed.
Lemma ks_setup p : keeps all R (on_cm push_context_new) -> keeps all R (try_cm (add_var_pos (lit "0=" ++ p) 1)) ->
  keeps all R (set_up w n p).
Proof.
  intros H1 H2. unfold set_up. apply (keeps_seq _ _ P); [exact H1|]. apply (keeps_seq _ _ P); [exact H2|].
  apply (keeps_seq _ _ P); apply ks_startup.
Qed.
Lemma ks_main k args ins :
  (forall s t f, parse_args args (cm (im s)) = Some (t, f) -> R s (Shell (with_cm (f_cm f) (im s)) (trace s))) ->
  (forall t, keeps all R (say t)) -> keeps all R (on_cm push_context_new) ->
  (forall p, keeps all R (try_cm (add_var_pos (lit "0=" ++ p) 1))) ->
  keeps all R (change at_prompt) -> keeps all R save_history -> keeps all R (child_signal w) ->
  (forall p, keeps all R (sys_open w p for_reading)) ->
  keeps all R (main w n k args ins).
Proof.
  intros Hf Hs Hp Ha Hh Hv Hc Ho. unfold main. intros s o s' H Hall.
  rewrite (bind_ok (look cm) _ s (cm (im s)) s eq_refl) in H.
  destruct (parse_args args (cm (im s))) as [[t f]|] eqn:E.
  2:{ injection H as <- <-. apply (pre_refl _ P). }
  rewrite (bind_ok (unwrap (Some (t, f))) _ s (t, f) s eq_refl) in H. cbn [fst snd] in H. cbv zeta in H.
  rewrite (seq_ok (on_cm (fun _ => f_cm f)) _ s tt (Shell (with_cm (f_cm f) (im s)) (trace s)) eq_refl) in H.
  eapply (pre_trans _ P); [apply (Hf s t f E)|]. revert H Hall. generalize (Shell (with_cm (f_cm f) (im s)) (trace s)) as s0.
  intros s0 H Hall. revert H Hall.
  assert (K : keeps all R (say_all (shown f) ;; set_up w n (script_name f) ;;
    match t with
    | Some t => read_from_args w n t
    | None => if interactive f then change at_prompt ;; interactive_loop w n ins else script_loop w n k (script_name f)
    end)).
  { apply (keeps_seq _ _ P).
    { generalize (shown f). clear -Hs P. induction l as [|x l IH]; cbn [say_all]; keep P. }
    apply (keeps_seq _ _ P); [apply ks_setup; auto|]. destruct t as [t|]; [apply ks_args|].
    destruct (interactive f); [apply (keeps_seq _ _ P); [exact Hh|apply ks_loop; assumption]|].
    unfold script_loop. keep P; first [apply Ho|apply ks_lines]. }
  apply K.
Qed.
End Sessions.

(** ** Variables and scopes *)

Lemma store_performs args : forall i m m', store i args m = Some m' -> exists ops, ContextSpec.performs ops m = Some m'.
Proof.
  induction args as [|a args IH]; intros i m m' H; cbn [store] in H.
  - injection H as <-. exists []. reflexivity.
  - destruct (add_var_pos (numbered i a) 0 m) as [m1|] eqn:E; [|discriminate]. destruct (IH _ _ _ H) as [ops Ho].
    exists (ContextSpec.OAssignAt 0 (numbered i a) :: ops). cbn [ContextSpec.performs ContextSpec.perform]. rewrite E. exact Ho.
Qed.
Lemma front_performs args m t f : parse_args args m = Some (t, f) -> exists ops, ContextSpec.performs ops m = Some (f_cm f).
Proof.
  intros H. destruct (asks_or_crash args m) as [[r Hr]|E]; [|congruence].
  apply (parse_args_asks args r m) in Hr. destruct r as [|c|file as_].
  - rewrite H in Hr. cbn in Hr. injection Hr as _ ->. exists []. reflexivity.
  - destruct Hr as [out Hr]. rewrite H in Hr. injection Hr as _ ->. exists []. reflexivity.
  - rewrite H in Hr. cbn in Hr. destruct (store 1 as_ m) as [m'|] eqn:E; [|discriminate].
    injection Hr as _ ->. cbn [f_cm]. eapply store_performs. exact E.
Qed.

Theorem main_history w n k args ins : keeps true EvalHistory.history (main w n k args ins).
Proof.
  apply (ks_main _ _ EvalHistory.history_pre).
  - apply EvalHistory.evaluate_history.
  - intros A p bad m Hb Hm. apply (keeps_bind _ _ EvalHistory.history_pre); [apply EvalHistory.kh_open|].
    intros [f|]; [apply EvalHistory.kh_while; exact Hm|exact Hb].
  - intros s t f E _. exact (front_performs _ _ _ _ E).
  - intros t. apply keeps_change. intros s. apply EvalHistory.history_same. reflexivity.
  - apply keeps_change. intros s. apply EvalHistory.history_one with ContextSpec.OPush. reflexivity.
  - intros p. apply (EvalStack.keeps_try_cm _ _ _ EvalHistory.history_pre). intros s m E.
    apply EvalHistory.history_one with (ContextSpec.OAssignAt 1 (lit "0=" ++ p)). intros _. exact E.
  - apply keeps_change. intros s. apply EvalHistory.history_same. reflexivity.
  - apply keeps_raw. intros s. apply EvalHistory.history_same. reflexivity.
  - apply keeps_raw. intros s. apply EvalHistory.history_same. unfold child_signal.
    destruct (_ || _)%bool; [reflexivity|]. destruct (sig_chld _ _ _); reflexivity.
  - intros p. apply EvalHistory.kh_open.
Qed.

(** ** Jobs *)

Lemma child_worked w : keeps true EvalJobs.worked (child_signal w).
Proof.
  apply keeps_raw. intros s. unfold child_signal. destruct (_ || _)%bool; [apply EvalJobs.worked_same; reflexivity|].
  destruct (sig_chld _ _ _) as [x j r| |] eqn:E; [|apply EvalJobs.worked_same; reflexivity|apply EvalJobs.worked_same; reflexivity].
  eapply EvalJobs.worked_one with (o := JobsSpec.OSig _ _). intros _. unfold JobsSpec.step. rewrite E. reflexivity.
Qed.
Theorem main_worked w n k args ins : keeps true EvalJobs.worked (main w n k args ins).
Proof.
  apply (ks_main _ _ EvalJobs.worked_pre).
  - apply EvalJobs.evaluate_worked.
  - intros A p bad m Hb Hm. apply (keeps_bind _ _ EvalJobs.worked_pre); [apply EvalJobs.kw_open|].
    intros [f|]; [apply EvalJobs.kw_while; exact Hm|exact Hb].
  - intros s t f E. apply EvalJobs.worked_same. reflexivity.
  - intros t. apply keeps_change. intros s. apply EvalJobs.worked_one with (o := JobsSpec.OPrint t). reflexivity.
  - apply keeps_change. intros s. apply EvalJobs.worked_same. reflexivity.
  - intros p. apply (EvalStack.keeps_try_cm _ _ _ EvalJobs.worked_pre). intros s m E. apply EvalJobs.worked_same. reflexivity.
  - apply keeps_change. intros s. apply EvalJobs.worked_same. reflexivity.
  - apply keeps_raw. intros s. apply EvalJobs.worked_same. reflexivity.
  - apply child_worked.
  - intros p. apply EvalJobs.kw_open.
Qed.
