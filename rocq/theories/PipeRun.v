(** Lines that are pipelines of programs. *)
From Verif Require Import Base BaseFacts Ast Parser Grammar GrammarSpec.
From Verif Require Import Context Alias Expand ExpandSpec ExpandFacts ExpandLaws.
From Verif Require Import Jobs Shell Builtins Eval EvalSpec EvalFacts EvalLaws RunSpec RunLaws PipeSpec PipeLaws ChildLaws.
Local Open Scope Z_scope.

Lemma expand_program w sc sc' s : program (im s) sc sc' -> expand_command w sc s = (OOk sc', s).
Proof.
  intros H. unfold expand_command. inversion H as [p n rs ws vs Hb Hn Hf Hp Hw Ho Hz|p n sfx Hb Hn Hf Hp Hs Hz]; subst.
  - rewrite (ordinary_command (r_subst (w (trace s))) (al (im s)) (cm (im s)) [] p n rs ws vs Hn); [destruct s; reflexivity| |exact Hw|exact Ho].
    destruct p as [q|]; [intros a Ha; exact (Hp q a eq_refl Ha)|exact I].
  - rewrite (plain_expand (r_subst (w (trace s))) (al (im s)) (cm (im s)) [] p n sfx Hn).
    + destruct sfx as [[rs [|x ws]]|]; [destruct s; reflexivity|contradiction|destruct s; reflexivity].
    + destruct p as [q|]; [intros a Ha; exact (Hp q a eq_refl Ha)|exact I].
Qed.
Lemma program_argv i sc sc' : program i sc sc' -> argv sc' = Some (sc_name sc' :: words_in sc').
Proof.
  intros H. inversion H as [p n rs ws vs Hb Hn Hf Hp Hw Ho Hz|p n sfx Hb Hn Hf Hp Hs Hz]; subst; unfold words_in; cbn [sc_name sc_suffix word_list].
  - apply argv_words, Hz.
  - apply argv_words. cbn [List.concat]. rewrite app_nil_r. intros c Hc ->. exact (Hz Hc).
Qed.
Lemma program_kind i sc sc' : program i sc sc' ->
  check_if_builtin (sc_name sc) = false /\ sc_name sc' = sc_name sc /\ is_function (sc_name sc') (cm i) = false.
Proof. intros H. inversion H; subst; auto. Qed.

Lemma program_same i i' sc sc' : al i' = al i -> cm i' = cm i -> program i sc sc' -> program i' sc sc'.
Proof.
  intros Ha Hc H. inversion H as [p n rs ws vs Hb Hn Hf Hp Hw Ho Hz|p n sfx Hb Hn Hf Hp Hs Hz]; subst.
  - apply (program_words i' p n rs ws vs); rewrite ?Ha, ?Hc; assumption.
  - apply (program_bare i' p n sfx); rewrite ?Ha, ?Hc; assumption.
Qed.

Definition entry (sc : simple_command) : process * simple_command := (proc_of sc, sc).

Lemma gather_programs w rec s scs scs' : Forall2 (program (im s)) scs scs' ->
  gather w rec (map CSimple scs) s = (OOk (map entry scs'), s).
Proof.
  induction 1 as [|sc sc' scs scs' H HF IH]; [reflexivity|]. cbn [map gather eval_command]. unfold eval_simple_command.
  destruct (program_kind _ _ _ H) as (H1 & H2 & H3). rewrite H1. unfold bind.
  rewrite (expand_program w sc sc' s H), (program_argv _ _ _ H). cbn [unwrap ret]. unfold ret at 1. rewrite IH. reflexivity.
Qed.
Lemma no_functions rec s scs' : Forall (fun sc => is_function (sc_name sc) (cm (im s)) = false) scs' ->
  run_functions rec (map entry scs') s = (OOk (map entry scs'), s).
Proof.
  induction 1 as [|sc scs' H HF IH]; [reflexivity|]. cbn [map run_functions].
  rewrite (bind_ok (look cm) _ s (cm (im s)) s eq_refl). cbn [snd entry]. rewrite H. unfold bind. rewrite IH. reflexivity.
Qed.

Lemma pipeline_programs w rec b scs scs' bg s : scs <> [] -> Forall2 (program (im s)) scs scs' ->
  eval_pipeline w rec (Pipeline b (map CSimple scs) bg) s = run_job w bg (map entry scs') (blocked s).
Proof.
  intros Hne H. unfold eval_pipeline. rewrite (seq_ok interrupts_off _ s tt (blocked s) eq_refl).
  assert (H' : Forall2 (program (im (blocked s))) scs scs').
  { clear -H. induction H as [|x x' l l' Hx HF IH]; constructor; [apply (program_same (im s)); [reflexivity..|exact Hx]|exact IH]. }
  rewrite (bind_ok _ _ _ _ _ (gather_programs w rec (blocked s) scs scs' H')). clear H'.
  destruct H as [|sc sc' scs scs' H1 H]; [congruence|].
  destruct bg; [reflexivity|].
  assert (E : run_functions rec (map entry (sc' :: scs')) (blocked s) = (OOk (map entry (sc' :: scs')), blocked s)).
  { apply no_functions. constructor; [exact (proj2 (proj2 (program_kind _ _ _ H1)))|].
    clear -H. induction H as [|x x' l l' Hx HF IH]; constructor; [exact (proj2 (proj2 (program_kind _ _ _ Hx)))|exact IH]. }
  cbn [map] in *. exact (bind_ok _ _ _ _ _ E).
Qed.

(** The job is created, started, and then reported or waited for. *)
Definition finish (w : os) (bg : bool) (id : Z) : M Z :=
  (if bg then
     j <- look (fun i => get_job id (jobs (js i))) ;;
     j <- unwrap j ;;
     say (lit "[" ++ Z_to_str (job_id j) ++ lit "] ("
          ++ Z_to_str match processes j with p :: _ => p_pid p | [] => -1 end
          ++ lit ") " ++ job_text j)
   else
     st <- wait_job w id ;;
     sh_delete_job id ;;
     match st with
     | Exited _ c => set_exit_status c
     | _ => ret tt
     end) ;;
  interrupts_on ;;
  get_exit_code.

Definition created (bg : bool) (ps : list process) (s : shell) : job_control :=
  create_job ps bg (jobs (js (im s))).
Lemma run_job_split w bg cs s : cs <> [] ->
  run_job w bg cs s =
  (launch w (next_job_id (jobs (js (im s)))) bg 0 cs (-1) (-1, -1) ;; finish w bg (next_job_id (jobs (js (im s)))))
    (Shell (launching (im s) (created bg (map fst cs) s) (fds (im s)) (next_pipe (im s))) (trace s)).
Proof.
  intros Hne. unfold run_job.
  rewrite (bind_ok (look (fun i => next_job_id (jobs (js i)))) _ s _ s eq_refl).
  set (id := next_job_id (jobs (js (im s)))).
  rewrite (seq_ok (on_jobs (create_job (map fst cs) bg)) _ s tt
    (Shell (launching (im s) (created bg (map fst cs) s) (fds (im s)) (next_pipe (im s))) (trace s))).
  - destruct cs as [|c cs]; [congruence|]. reflexivity.
  - destruct s as [i tr], i. reflexivity.
Qed.

(** Only jobs, mask, output and status change after the start. *)
Definition finishing (i i' : image) : Prop :=
  cm i' = cm i /\ al i' = al i /\ forked i' = forked i /\ env i' = env i /\ fds i' = fds i /\
  handlers i' = handlers i /\ next_pipe i' = next_pipe i /\ history_location i' = history_location i.
Lemma finish_keeps w bg id s o s' : finish w bg id s = (o, s') -> finishing (im s) (im s') /\
  exists new, trace s' = new ++ trace s /\ forks new = [].
Proof.
  intros H. unfold finish in H.
  assert (Hin : forall (m : M unit) (o : out Z) s', (m ;; interrupts_on ;; get_exit_code) s = (o, s') ->
    (forall o1 s1, m s = (o1, s1) -> finishing (im s) (im s1) /\ exists new, trace s1 = new ++ trace s /\ forks new = []) ->
    finishing (im s) (im s') /\ exists new, trace s' = new ++ trace s /\ forks new = []).
  { clear. intros m o s' H Hm. apply seq_inv in H. destruct H as [(u & s1 & H1 & H2)|(o1 & H1 & _ & _)].
    - destruct (Hm _ _ H1) as [Hf Ht]. cbn in H2. injection H2 as _ <-. split; [exact Hf|exact Ht].
    - exact (Hm _ _ H1). }
  apply (Hin _ _ _ H). clear H Hin. intros o1 s1 H. destruct bg.
  - unfold bind, look in H. destruct (get_job id (jobs (js (im s)))) as [j|]; cbn in H; injection H as _ <-;
      (split; [repeat split|exists []; split; reflexivity]).
  - unfold bind, wait_job in H. destruct (wait_for_job _ id _ _) as [st j rest| |].
    + assert (Hf : forall o2 s2, ((sh_delete_job id ;; match st with Exited _ c => set_exit_status c | _ => ret tt end)
        (Shell (with_js j (im s)) (EWait id :: trace s)) : out unit * shell) = (o2, s2) -> finishing (im s) (im s2) /\ exists new, trace s2 = new ++ trace s /\ forks new = []).
      { intros o2 s2 H2. destruct st; cbn in H2; injection H2 as _ <-; (split; [repeat split|exists [EWait id]; split; reflexivity]). }
      exact (Hf _ _ H).
    + cbn in H. injection H as _ <-. split; [repeat split|exists []; split; reflexivity].
    + cbn in H. injection H as _ <-. split; [repeat split|exists []; split; reflexivity].
Qed.

(** A child the shell has started, as the [k]-th of a pipeline of the programs
    [scs']. *)
Definition started_child (s : shell) (bg : bool) (scs' : list simple_command) (k : nat)
  (f : image * child * option positive) : Prop :=
  let '(img, c, r) := f in
  nth_error scs' k = Some (c_cmd c) /\ c_proc c = proc_of (c_cmd c) /\ c_bg c = bg /\
  finishing (with_fds (fds img) (with_next_pipe (next_pipe img) (im s))) img /\
  at_fork (fds (im s)) (next_pipe (im s)) (List.length scs') k (c_prev c) (c_pipe c) (fds img).

Lemma children_nth bg i0 t0 n0 len cs l k0 : children_ok bg i0 t0 n0 len k0 cs l ->
  forall k f, nth_error l k = Some f -> exists pc, nth_error cs k = Some pc /\ child_ok bg i0 t0 n0 len (k0 + k) pc f.
Proof.
  revert k0 cs. induction l as [|x l IH]; intros k0 cs H k f Hk; [destruct k; discriminate|].
  destruct cs as [|pc cs]; [contradiction|]. destruct H as [H1 H2].
  destruct k as [|k]; cbn in Hk.
  - injection Hk as <-. exists pc. split; [reflexivity|]. rewrite Nat.add_0_r. exact H1.
  - destruct (IH _ _ H2 k f Hk) as (pc' & E1 & E2). exists pc'. split; [exact E1|]. rewrite Nat.add_succ_r. exact E2.
Qed.

Lemma job_programs w bg scs' s o s' : scs' <> [] -> table (fds (im s)) ->
  run_job w bg (map entry scs') s = (o, s') ->
  exists new, trace s' = new ++ trace s /\
    (forall k f, nth_error (forks new) k = Some f -> started_child s bg scs' k f) /\
    finishing (with_fds (fds (im s')) (with_next_pipe (next_pipe (im s')) (im s))) (im s') /\
    ((List.length (forks new) = List.length scs' /\ forall fd, nget fd (fds (im s')) = nget fd (fds (im s))) \/
     (o = OErr (EText (lit "Failed to create pipe")) /\ (S (List.length (forks new)) < List.length scs')%nat /\
      exists prev, between (fds (im s)) (next_pipe (im s)) (List.length (forks new)) prev (fds (im s')))).
Proof.
  intros Hne Ht H.
  assert (Hne' : map entry scs' <> []) by (destruct scs'; [congruence|discriminate]).
  rewrite run_job_split in H by exact Hne'.
  set (i0 := im s) in H.
  change (fds i0) with (fds (im s)) in H. change (next_pipe i0) with (next_pipe (im s)) in H.
  set (id := next_job_id (jobs (js i0))) in *. set (jc := created bg (map fst (map entry scs')) s) in *.
  assert (Hb0 : between (fds (im s)) (next_pipe (im s)) 0 (-1) (fds (im s))).
  { split; [exact Ht|]. split; [reflexivity|]. intros fd. destruct (Z.eqb_spec fd (-1)) as [->|]; [|reflexivity].
    destruct (nget (-1) (fds (im s))) eqn:E; [apply (proj2 Ht) in E; lia|reflexivity]. }
  assert (Hfin : forall (jc' : job_control) t n (i' : image), finishing (launching i0 jc' t n) i' ->
    finishing (with_fds (fds i') (with_next_pipe (next_pipe i') (im s))) i').
  { intros jc' t n i' (F1 & F2 & F3 & F4 & F5 & F6 & F7 & F8). repeat split; auto. }
  assert (Hst : forall k f pc, nth_error (map entry scs') k = Some pc ->
    child_ok bg i0 (fds (im s)) (next_pipe (im s)) (List.length scs') k pc f -> started_child s bg scs' k f).
  { intros k [[img c] r] pc Hn (C1 & C2 & C3 & jc' & t & n & -> & C4). rewrite nth_error_map in Hn.
    destruct (nth_error scs' k) as [sc|] eqn:En; [|discriminate]. cbn in Hn. injection Hn as <-. cbn [entry fst snd] in C1, C2.
    cbn [started_child]. rewrite C1. split; [exact En|]. split; [exact C2|]. split; [exact C3|]. split; [|exact C4].
    apply (Hfin jc' t n). repeat split. }
  apply seq_inv in H. rewrite <- (Z.add_0_r (next_pipe (im s))) in H. change 0 with (Z.of_nat 0) in H.
  destruct H as [(u & s1 & H1 & H2)|(o1 & H1 & _ & ->)].
  - apply (launch_ok w id bg i0 (fds (im s)) (next_pipe (im s)) (List.length scs') Ht) in H1;
      [|rewrite map_length; reflexivity|intros E; contradiction|exact Hb0|reflexivity].
    destruct H1 as (new & jc' & t' & n' & -> & Hch & [(R1 & R2 & R3 & R4)|(R1 & _)]); [|discriminate R1].
    apply finish_keeps in H2. destruct H2 as (F & new2 & E2 & Ef). cbn [im trace] in *.
    exists (new2 ++ new). split; [rewrite E2; rewrite app_assoc; reflexivity|]. rewrite forks_app, Ef, app_nil_r.
    split; [intros k f Hk; destruct (children_nth _ _ _ _ _ _ _ _ Hch k f Hk) as (pc & P1 & P2); exact (Hst k f pc P1 P2)|].
    split; [exact (Hfin _ _ _ _ F)|]. left. split; [rewrite R2, map_length; reflexivity|].
    destruct F as (_ & _ & _ & _ & F & _). intros fd. rewrite F. apply R4.
  - apply (launch_ok w id bg i0 (fds (im s)) (next_pipe (im s)) (List.length scs') Ht) in H1;
      [|rewrite map_length; reflexivity|intros E; contradiction|exact Hb0|reflexivity].
    destruct H1 as (new & jc' & t' & n' & -> & Hch & Hres). cbn [im trace].
    exists new. split; [reflexivity|].
    split; [intros k f Hk; destruct (children_nth _ _ _ _ _ _ _ _ Hch k f Hk) as (pc & P1 & P2); exact (Hst k f pc P1 P2)|].
    split; [apply (Hfin jc' t' n'); repeat split|].
    destruct Hres as [(R1 & R2 & R3 & R4)|(R1 & R2 & prev & R3)].
    + left. split; [rewrite R2, map_length; reflexivity|exact R4].
    + right. rewrite R1. split; [reflexivity|]. rewrite map_length in R2. split; [exact R2|]. exists prev. exact R3.
Qed.

Lemma exec_programs w d b bg scs scs' s o s' : scs <> [] -> wf_pipeline (Pipeline b (map CSimple scs) bg) ->
  Forall2 (program (im s)) scs scs' -> table (fds (im s)) ->
  exec_text w (S d) (r_pipeline (Pipeline b (map CSimple scs) bg)) s = (o, s') ->
  exists new, trace s' = new ++ trace s /\
    (forall k f, nth_error (forks new) k = Some f -> started_child s bg scs' k f) /\
    finishing (with_fds (fds (im s')) (with_next_pipe (next_pipe (im s')) (im s))) (im s') /\
    ((List.length (forks new) = List.length scs' /\ forall fd, nget fd (fds (im s')) = nget fd (fds (im s))) \/
     (o = OErr (EText (lit "Failed to create pipe")) /\ (S (List.length (forks new)) < List.length scs')%nat /\
      exists prev, between (fds (im s)) (next_pipe (im s)) (List.length (forks new)) prev (fds (im s')))).
Proof.
  intros Hne Hw HF Ht H. rewrite exec_pipeline in H by exact Hw.
  rewrite (pipeline_programs w _ b scs scs' bg s Hne HF) in H.
  apply (job_programs w bg scs' (blocked s) o s'); [destruct HF; [congruence|discriminate]|exact Ht|exact H].
Qed.
