(** Properties C104-C110: where programs are found, special parameters, commands
    in the background, and what builtins and functions ignore. *)
From Verif Require Import Base BaseFacts Lexer LexerSpec Ast Parser GrammarSpec.
From Verif Require Import Context.
From Verif Require ContextSpec ContextFacts ContextLaws.
From Verif Require Import Alias Expand ExpandSpec ExpandFacts ExpandLaws Jobs JobsSpec Shell Builtins Eval.
From Verif Require Import EvalSpec EvalFacts EvalLaws EvalKeeps RunSpec RunLaws PipeSpec PipeLaws ChildLaws PipeRun.
From Verif Require Import JobsFacts JobsLaws JobsWait.
From Verif Require PropertiesEval PropertiesContext PropertiesPipe PropertiesRun EvalFds.
From Verif Require Import PropertiesBuiltins.
Local Open Scope Z_scope.

(** ** C108 *)

(** What a builtin does depends on its words only. *)
Lemma builtin_words w rec p n rs vs : n <> [] ->
  call_builtin w rec (SimpleCommand p n (Some (Suffix rs vs))) = call_builtin w rec (SimpleCommand None n (Some (Suffix [] vs))).
Proof.
  intros Hn. unfold call_builtin. cbn [sc_name].
  destruct (str_eqb n (lit "cd")); [reflexivity|]. destruct (str_eqb n (lit "exit")); [reflexivity|].
  destruct (str_eqb n (lit "return")); [reflexivity|]. destruct (str_eqb n (lit "jobs")); [reflexivity|].
  destruct (str_eqb n (lit "fg") || str_eqb n (lit "bg")); [reflexivity|].
  destruct (str_eqb n (lit "alias")); [reflexivity|]. destruct (str_eqb n (lit "unalias")); [reflexivity|].
  destruct (str_eqb n (lit "export")); [reflexivity|]. destruct (str_eqb n (lit "eval")); [reflexivity|].
  destruct (str_eqb n (lit "unset")); [reflexivity|]. destruct (str_eqb n (lit "pwd")); [reflexivity|].
  destruct (str_eqb n (lit "readonly")); [reflexivity|]. destruct (str_eqb n (lit "exec")); [reflexivity|].
  destruct (str_eqb n (lit ".") || str_eqb n (lit "source")); [reflexivity|].
  destruct (str_eqb_spec n (lit "")) as [->|_]; [exfalso; apply Hn; reflexivity|]. reflexivity.
Qed.

(** The expansion keeps the words apart from what stands around them. *)
Lemma expand_dressed w p n rs ws vs s : plain_name (al (im s)) n -> literal_prefix p -> ws <> [] ->
  Forall2 (ordinary (expand_var (cm (im s)))) ws vs ->
  expand_command w (SimpleCommand p n (Some (Suffix rs ws))) s = (OOk (SimpleCommand p n (Some (Suffix rs vs))), s).
Proof.
  intros Hn Hp Hw Ho. unfold expand_command.
  rewrite (ordinary_command (r_subst (w (trace s))) (al (im s)) (cm (im s)) [] p n rs ws vs Hn Hp Hw Ho). destruct s; reflexivity.
Qed.
Lemma expand_dressed_bare w p n rs s : plain_name (al (im s)) n -> literal_prefix p ->
  expand_command w (SimpleCommand p n (Some (Suffix rs []))) s = (OOk (SimpleCommand p n (Some (Suffix [] []))), s).
Proof.
  intros Hn Hp. unfold expand_command.
  rewrite (plain_expand (r_subst (w (trace s))) (al (im s)) (cm (im s)) [] p n (Some (Suffix rs [])) Hn Hp). destruct s; reflexivity.
Qed.
Lemma expand_any w p n sfx ws vs s : plain_name (al (im s)) n -> literal_prefix p ->
  words_in (SimpleCommand p n sfx) = ws -> Forall2 (ordinary (expand_var (cm (im s)))) ws vs ->
  exists rs', expand_command w (SimpleCommand p n sfx) s = (OOk (SimpleCommand p n (Some (Suffix rs' vs))), s).
Proof.
  intros Hn Hp <- Ho. destruct sfx as [[rs ws]|]; cbn [words_in sc_suffix word_list] in Ho.
  - destruct ws as [|x ws].
    + inversion Ho; subst. exists []. apply expand_dressed_bare; assumption.
    + exists rs. apply expand_dressed; auto. discriminate.
  - inversion Ho; subst. exists []. unfold expand_command.
    rewrite (plain_expand (r_subst (w (trace s))) (al (im s)) (cm (im s)) [] p n None Hn Hp). destruct s; reflexivity.
Qed.

(** The redirections and assignments written around the words of a builtin or of a
    function call have no effect at all. *)
Theorem C108_ignored_refuted : forall w d p n sfx vs s,
  let sc := SimpleCommand p n sfx in
  wf_simple sc -> n <> [] -> plain_name (al (im s)) n -> literal_prefix p ->
  Forall2 (ordinary (expand_var (cm (im s)))) (words_in sc) vs ->
  check_if_builtin n = true \/ is_function n (cm (im s)) = true /\ (forall c, In c (List.concat (n :: vs)) -> c <> 0%N) ->
  exec_text w (S d) (r_pipeline (Pipeline false [CSimple sc] false)) s = exec_text w (S d) (r_words (n :: words_in sc)) s.
Proof.
  intros w d p n sfx vs s sc Hw Hne Hn Hp Ho Hk.
  rewrite exec_pipeline by (cbn; split; [discriminate|]; split; [split; [exact Hw|exact I]|intros [E _]; discriminate]).
  remember (words_in sc) as ws eqn:Ews. symmetry in Ews.
  destruct (args_line n ws Hne) as [A1 A2].
  { destruct Hw as (_ & _ & [Hw|[Hw _]]); [exact Hw|exfalso; apply Hne; exact Hw]. }
  { subst ws. destruct Hw as (_ & Hw & _). unfold sc, words_in. cbn [sc_suffix] in *. destruct sfx as [s1|]; [|constructor].
    destruct Hw as (_ & Hw & _). exact Hw. }
  rewrite <- A2, exec_pipeline by exact A1.
  destruct (expand_any w p n sfx ws vs (blocked s) Hn Hp Ews Ho) as [rs' E].
  assert (E' := expand_words w n ws vs (blocked s) Hn Ho).
  unfold eval_pipeline. rewrite !(seq_ok interrupts_off _ s tt (blocked s) eq_refl).
  destruct (check_if_builtin n) eqn:B.
  - cbn [gather eval_command]. unfold eval_simple_command.
    change (sc_name (words_cmd n ws)) with n. change (sc_name sc) with n.
    rewrite B. unfold sc. unfold eval_builtin. unfold seq, bind. rewrite E, E', builtin_words by exact Hne. reflexivity.
  - destruct Hk as [Hk|[Hk Hz]]; [discriminate|].
    assert (G : forall sc sc', sc_name sc = n -> check_if_builtin n = false ->
      expand_command w sc (blocked s) = (OOk sc', blocked s) -> argv sc' = Some (n :: vs) -> sc_name sc' = n ->
      gather w (evaluate w d) [CSimple sc] (blocked s) = (OOk [(process_new (n :: vs) n n, sc')], blocked s)).
    { intros c1 c2 N B' X V N'. cbn [gather eval_command]. unfold eval_simple_command. rewrite N, B'.
      unfold bind. rewrite X, V. cbn [unwrap ret]. rewrite N'. reflexivity. }
    rewrite (bind_ok _ _ (blocked s) _ _ (G sc (SimpleCommand p n (Some (Suffix rs' vs))) eq_refl B E (argv_words p n rs' vs Hz) eq_refl)).
    rewrite (bind_ok _ _ (blocked s) _ _ (G (words_cmd n ws) (SimpleCommand None n (Some (Suffix [] vs))) eq_refl B E' (argv_words None n [] vs Hz) eq_refl)).
    assert (F : forall sc, sc_name sc = n -> words_of sc = Some vs ->
      run_functions (evaluate w d) [(process_new (n :: vs) n n, sc)] (blocked s) =
      (ok <- match get_function n (cm (im s)) with
             | None => ret false
             | Some b =>
                 try_cm (enter_function n vs) ;;
                 catch (evaluate w d (fb_body b)) ;;
                 on_cm (fun m => match pop_context m with Some m' => m' | None => m end) ;;
                 ret true
             end ;;
       if ok : bool then
         f <- look forked ;;
         if f : bool then stop (OExit 0) else set_exit_status 0 ;; ret []
       else stop (OExit 1)) (blocked s)).
    { intros c1 N V. cbn [run_functions snd]. unfold eval_function. rewrite N, V.
      rewrite (bind_ok (look cm) _ (blocked s) (cm (im s)) (blocked s) eq_refl), Hk. reflexivity. }
    unfold bind. rewrite !F by reflexivity. reflexivity.
Qed.

(** ** C107 *)

(** The process numbers of the children the shell started; -1 when the system had
    none. *)
Definition fork_pids (t : list event) : list Z :=
  map (fun f => match snd f with Some q => Zpos q | None => -1 end) (forks t).
(** Nothing is waited for in between, and the directory stays the same. *)
Definition no_wait (t : list event) : Prop := 
  forall e, In e t -> match e with EWait _ | EChdir _ => False | _ => True end.

Lemma set_pid_done (done : list process) p (q : process) ps :
  set_pid_at (List.length done) p (done ++ q :: ps) = done ++ with_pid p q :: ps.
Proof. induction done as [|x done IH]; [reflexivity|]. cbn. rewrite IH. reflexivity. Qed.

Lemma launch_job w id bg cs : forall i prev pip s s' j done,
  launch w id bg i cs prev pip s = (OOk tt, s') ->
  basic (jobs (js (im s))) -> get_job id (jobs (js (im s))) = Some j ->
  processes j = done ++ map fst cs -> List.length done = i -> Forall (fun pc => p_pid (fst pc) = -1) cs ->
  exists new ps, trace s' = new ++ trace s /\ no_wait new /\
    map p_cmd ps = map (fun pc => p_cmd (fst pc)) cs /\ map p_argv ps = map (fun pc => p_argv (fst pc)) cs /\
    map p_status ps = map (fun pc => p_status (fst pc)) cs /\
    map p_pid ps = fork_pids new /\
    (forall k, nget k (job_table (jobs (js (im s')))) =
       if Z.eqb k id then Some (with_processes (done ++ ps) j) else nget k (job_table (jobs (js (im s))))) /\
    background_jobs (jobs (js (im s'))) = background_jobs (jobs (js (im s))) /\
    next_job_id (jobs (js (im s'))) = next_job_id (jobs (js (im s))) /\
    printed (js (im s')) = printed (js (im s)) /\ exit_status (im s') = exit_status (im s).
Proof.
  induction cs as [|[p sc] cs IH]; intros i prev pip s s' j done H B Hj Hp Hi Hf.
  - injection H as <-. exists [], []. cbn [map] in *. repeat (split; [first [reflexivity | intros k []]|]).
    split; [|repeat split]. intros k. destruct (Z.eqb_spec k id) as [->|]; [|reflexivity].
    unfold get_job in Hj. rewrite Hj, <- Hp. destruct j; reflexivity.
  - cbn [launch] in H. apply bind_inv_ok in H. destruct H as (pip1 & s1 & E1 & H).
    assert (K1 : js (im s1) = js (im s) /\ exit_status (im s1) = exit_status (im s) /\ exists new, trace s1 = new ++ trace s /\ no_wait new /\ forks new = []).
    { destruct cs as [|pc cs].
      - injection E1 as _ <-. repeat split. exists []. repeat split. intros k [].
      - unfold make_pipe, bind, ask in E1. destruct (r_pipe (w (trace s))); [|discriminate]. injection E1 as _ <-. repeat split.
        exists [EPipe (next_pipe (im s))]. repeat split. intros e [<-|[]]; exact I. }
    destruct K1 as (J1 & X1 & new1 & T1 & W1 & F1).
    apply bind_inv_ok in H. destruct H as (r & s2 & E2 & H).
    set (c := Child sc p prev pip1 bg) in *.
    assert (K2 : im s2 = im s1 /\ trace s2 = EFork (im s1) c r :: trace s1).
    { unfold fork_child, bind, ask, look, note, seq, ret in E2. injection E2 as <- <-. split; reflexivity. }
    destruct K2 as (I2 & T2). clear E2.
    apply seq_inv_ok in H. destruct H as (u3 & s3 & E3 & H).
    apply seq_inv_ok in H. destruct H as (u4 & s4 & E4 & H).
    apply seq_inv_ok in H. destruct H as (u5 & s5 & E5 & H).
    assert (K4 : js (im s4) = js (im s3) /\ exit_status (im s4) = exit_status (im s3) /\ trace s4 = trace s3).
    { destruct (Z.leb 0 prev); [|injection E4 as _ <-; repeat split].
      unfold sys_close, try_ in E4. destruct (fd_close _ _); [|discriminate]. injection E4 as _ <-. repeat split. }
    assert (K5 : js (im s5) = js (im s4) /\ exit_status (im s5) = exit_status (im s4) /\ trace s5 = trace s4).
    { unfold sys_close_ignored, change in E5. injection E5 as _ <-. cbn [im trace]. destruct (fd_close _ _); repeat split. }
    set (q := match r with Some q => with_pid (Zpos q) p | None => p end).
    set (j1 := with_processes (done ++ q :: map fst cs) j).
    assert (K3 : trace s3 = trace s2 /\ exit_status (im s3) = exit_status (im s2) /\ basic (jobs (js (im s3))) /\
      (forall k, nget k (job_table (jobs (js (im s3)))) = if Z.eqb k id then Some j1 else nget k (job_table (jobs (js (im s))))) /\
      background_jobs (jobs (js (im s3))) = background_jobs (jobs (js (im s))) /\
      next_job_id (jobs (js (im s3))) = next_job_id (jobs (js (im s))) /\
      printed (js (im s3)) = printed (js (im s))).
    { rewrite <- J1. rewrite <- J1 in Hj, B. subst q j1. destruct r as [q|].
      - unfold on_jobs, change in E3. injection E3 as _ <-. cbn [im js with_js jobs with_jobs trace exit_status printed].
        rewrite I2. split; [reflexivity|]. split; [reflexivity|]. unfold started. rewrite Hj, Hp. cbn [map fst].
        rewrite <- Hi, set_pid_done. split; [|split; [|repeat split]].
        + pose proof (started_basic id (List.length done) (Zpos q) _ B) as SB. unfold started in SB. rewrite Hj, Hp in SB. cbn [map fst] in SB.
          rewrite set_pid_done in SB. exact SB.
        + intros k. cbn. apply nget_ninsert, B.
      - injection E3 as _ <-. rewrite I2. split; [reflexivity|]. split; [reflexivity|]. split; [exact B|]. split; [|repeat split].
        intros k. destruct (Z.eqb_spec k id) as [->|]; [|reflexivity]. unfold get_job in Hj. rewrite Hj.
        cbn [map fst] in Hp. rewrite <- Hp. destruct j; reflexivity. }
    destruct K3 as (T3 & X3 & B3 & Q3 & G3 & N3 & P3). destruct K4 as (J4 & X4 & T4). destruct K5 as (J5 & X5 & T5).
    rewrite J4 in J5.
    destruct (IH (S i) _ _ s5 s' j1 (done ++ [q]) H) as (new & ps & R1 & R2 & R3 & R3b & R3c & R4 & R5 & R6 & R7 & R8 & R9).
    + rewrite J5. exact B3.
    + rewrite J5. unfold get_job. rewrite Q3, Z.eqb_refl. reflexivity.
    + cbn. rewrite <- app_assoc. reflexivity.
    + rewrite app_length. cbn. lia.
    + inversion Hf; assumption.
    + exists (new ++ EFork (im s1) c r :: new1), (q :: ps).
      split; [rewrite R1, T5, T4, T3, T2, T1, <- app_assoc; reflexivity|].
      split; [intros k Hk; apply in_app_or in Hk; destruct Hk as [Hk|[Hk|Hk]]; [exact (R2 k Hk)|subst k; exact I|exact (W1 k Hk)]|].
      split; [cbn [map fst]; rewrite R3; subst q; destruct r; reflexivity|].
      split; [cbn [map fst]; rewrite R3b; subst q; destruct r; reflexivity|].
      split; [cbn [map fst]; rewrite R3c; subst q; destruct r; reflexivity|].
      split.
      { unfold fork_pids. change (EFork (im s1) c r :: new1) with ([EFork (im s1) c r] ++ new1). rewrite !forks_app, F1. cbn [app map forks flat_map rev snd].
        rewrite R4. inversion Hf as [|? ? Hf1 _]; subst. cbn [fst] in Hf1. unfold q. destruct r; [reflexivity|]. rewrite Hf1. reflexivity. }
      split.
      { intros k. rewrite R5, J5, Q3. destruct (Z.eqb k id); [|reflexivity]. unfold j1, with_processes. cbn. rewrite <- app_assoc. reflexivity. }
      split; [rewrite R6, J5; exact G3|]. split; [rewrite R7, J5; exact N3|]. split; [rewrite R8, J5; exact P3|].
      rewrite R9, X5, X4, X3, I2. exact X1.
Qed.

(** A pipeline of programs in the background: the shell starts every program, waits
    for nothing, keeps the exit status it had, and has the pipeline in its table as
    a running job under the next number, with the process numbers and command names
    in order.  It prints one line about it. *)
Theorem C107_background : forall w d b scs scs' s st s', scs <> [] ->
  wf_pipeline (Pipeline b (map CSimple scs) true) -> Forall2 (program (im s)) scs scs' ->
  table (fds (im s)) -> basic (jobs (js (im s))) ->
  exec_text w (S d) (r_pipeline (Pipeline b (map CSimple scs) true)) s = (OOk st, s') ->
  let id := next_job_id (jobs (js (im s))) in
  exists new ps, trace s' = new ++ trace s /\ no_wait new /\ List.length (forks new) = List.length scs /\
    st = exit_status (im s) /\ exit_status (im s') = exit_status (im s) /\ masked (js (im s')) = false /\
    (forall k, get_job k (jobs (js (im s'))) =
       if Z.eqb k id then Some (Job ps id StillAlive Running true false) else get_job k (jobs (js (im s)))) /\
    nget id (background_jobs (jobs (js (im s')))) = Some id /\ next_job_id (jobs (js (im s'))) = id + 1 /\
    map p_pid ps = fork_pids new /\ map p_cmd ps = map sc_name scs' /\ 
    map p_argv ps = map (fun sc => sc_name sc :: words_in sc) scs' /\ Forall (fun p => p_status p = None) ps /\
    (NoDup (fork_pids new) ->
     printed (js (im s')) = printed (js (im s)) ++
       [lit "[" ++ Z_to_str id ++ lit "] (" ++ Z_to_str (hd (-1) (fork_pids new)) ++ lit ") Running " ++
        join (lit " | ") (map sc_name scs') ++ lit " &"]).
Proof.
  intros w d b scs scs' s st s' Hne Hw HF Ht HB H id.
  pose proof H as H0. apply (exec_programs w d b true scs scs' s) in H0; auto.
  destruct H0 as (new0 & T0 & _ & _ & [[L0 _]|[E0 _]]); [|discriminate].
  rewrite exec_pipeline in H by exact Hw.
  rewrite (pipeline_programs w _ b scs scs' true s Hne HF) in H.
  assert (Hne' : map entry scs' <> []) by (destruct HF; [congruence|discriminate]).
  rewrite run_job_split in H by exact Hne'.
  change (next_job_id (jobs (js (im (blocked s))))) with id in H.
  set (jc := created true (map fst (map entry scs')) (blocked s)) in H.
  set (s0 := Shell _ (trace (blocked s))) in H.
  apply seq_inv_ok in H. destruct H as ([] & s1 & H1 & H).
  assert (Hcr : forall k, nget k (job_table jc) =
    if Z.eqb k id then Some (job_new (map fst (map entry scs')) id true) else nget k (job_table (jobs (js (im s))))).
  { intros k. unfold jc, created, create_job. cbn. apply nget_ninsert, HB. }
  assert (Bjc : basic jc) by (apply create_basic; exact HB).
  destruct (launch_job w id true (map entry scs') 0 (-1) (-1, -1) s0 s1
    (job_new (map fst (map entry scs')) id true) [] H1) as (new & ps & R1 & R2 & R3 & R3b & R3c & R4 & R5 & R6 & R7 & R8 & R9).
  { exact Bjc. }
  { change (jobs (js (im s0))) with jc. unfold get_job. rewrite Hcr, Z.eqb_refl. reflexivity. }
  { reflexivity. }
  { reflexivity. }
  { clear. induction scs' as [|x l IH]; constructor; [reflexivity|exact IH]. }
  change (jobs (js (im s0))) with jc in *. cbn [app] in R5.
  assert (Hl : List.length ps = List.length scs').
  { rewrite <- (map_length p_cmd), R3, !map_length. reflexivity. }
  unfold finish in H.
  apply seq_inv_ok in H. destruct H as (u2 & s2 & H2 & H3).
  unfold bind, look, get_job in H2. rewrite R5, Z.eqb_refl in H2. cbn [unwrap ret] in H2. unfold say, change in H2. injection H2 as _ <-.
  unfold interrupts_on, get_exit_code, seq, bind, change, look in H3. injection H3 as Hst <-.
  cbn [im trace js with_js jobs exit_status with_masked masked printed print] in *.
  exists new, ps. split; [rewrite R1; reflexivity|]. split; [exact R2|].
  assert (T1 : trace s1 = new ++ trace s) by (rewrite R1; reflexivity).
  assert (new0 = new). { rewrite T1 in T0. apply app_inv_tail in T0. congruence. }
  subst new0. rewrite L0. 
  split; [clear -HF; induction HF; cbn; congruence|].
  split; [rewrite <- Hst, R9; reflexivity|]. split; [rewrite R9; reflexivity|]. split; [reflexivity|].
  split. { intros k. unfold get_job. rewrite R5, Hcr. destruct (Z.eqb k id); reflexivity. }
  split. { rewrite R6. unfold jc, created, create_job. cbn. rewrite nget_ninsert by apply HB. rewrite Z.eqb_refl. reflexivity. }
  split. { rewrite R7. reflexivity. }
  split; [exact R4|]. split; [rewrite R3, map_map; reflexivity|]. split; [rewrite R3b, map_map; reflexivity|]. split.
  { clear -R3c. assert (K : Forall (fun x => x = None) (map p_status ps)).
    { rewrite R3c, map_map. clear. induction scs' as [|x l IH]; constructor; [reflexivity|exact IH]. }
    clear R3c. induction ps as [|p ps IH]; constructor; inversion K; subst; auto. }
  intros Hd. rewrite R8. f_equal. f_equal.
  rewrite <- R4 in Hd |- *. unfold job_text. cbn [processes with_processes state job_new background job_id].
  rewrite (commands_text_join _ Hd), R3, map_map. cbn [state_text]. cbn [job_id with_processes job_new].
  assert (E : match ps with [] => -1 | p :: _ => p_pid p end = hd (-1) (map p_pid ps)) by (destruct ps; reflexivity).
  rewrite E. reflexivity.
Qed.

(** And this is what happens whenever pipes can be created. *)
Theorem C107_returns : forall w d b scs scs' s, scs <> [] ->
  wf_pipeline (Pipeline b (map CSimple scs) true) -> Forall2 (program (im s)) scs scs' ->
  table (fds (im s)) -> basic (jobs (js (im s))) ->
  (forall tr, r_pipe (w tr) = true) \/ List.length scs = 1%nat ->
  exists s', exec_text w (S d) (r_pipeline (Pipeline b (map CSimple scs) true)) s = (OOk (exit_status (im s)), s').
Proof.
  intros w d b scs scs' s Hne Hw HF Ht HB Hp.
  rewrite exec_pipeline by exact Hw.
  rewrite (pipeline_programs w _ b scs scs' true s Hne HF).
  assert (Hne' : map entry scs' <> []) by (destruct HF; [congruence|discriminate]).
  rewrite run_job_split by exact Hne'.
  set (id := next_job_id (jobs (js (im (blocked s))))).
  set (jc := created true (map fst (map entry scs')) (blocked s)).
  set (s0 := Shell _ (trace (blocked s))).
  destruct (launch w id true 0 (map entry scs') (-1) (-1, -1) s0) as [o s1] eqn:H1.
  assert (Ho : o = OOk tt).
  { pose proof H1 as L. unfold s0 in L. rewrite <- (Z.add_0_r (next_pipe (im (blocked s)))) in L. change 0 with (Z.of_nat 0) in L.
    apply (launch_ok w id true (im (blocked s)) (fds (im s)) (next_pipe (im s)) (List.length scs') Ht) in L;
      [|rewrite map_length; reflexivity|intros E; contradiction| |reflexivity].
    - destruct L as (new & jc' & t' & n' & _ & _ & [(R1 & _)|(R1 & R2 & _)]); [exact R1|]. subst o.
      destruct Hp as [Hp|Hp].
      + destruct (EvalFds.launch_no_error w id true Hp _ _ _ _ _ _ _ H1).
      + assert (List.length scs' = 1%nat) by (rewrite <- Hp; clear -HF; induction HF; cbn; congruence).
        rewrite map_length in R2. lia.
    - split; [exact Ht|]. split; [reflexivity|]. intros fd. destruct (Z.eqb_spec fd (-1)) as [->|]; [|reflexivity].
      change (fds (im (blocked s))) with (fds (im s)). destruct (nget (-1) (fds (im s))) eqn:E; [apply (proj2 Ht) in E; lia|reflexivity]. }
  subst o.
  destruct (launch_job w id true (map entry scs') 0 (-1) (-1, -1) s0 s1
    (job_new (map fst (map entry scs')) id true) [] H1) as (new & ps & R1 & R2 & R3 & R3b & R3c & R4 & R5 & R6 & R7 & R8 & R9).
  { apply create_basic. exact HB. }
  { change (jobs (js (im s0))) with jc. unfold get_job, jc, created, create_job. cbn [job_table]. rewrite nget_ninsert by apply HB.
    change (next_job_id (jobs (js (im (blocked s))))) with id. rewrite Z.eqb_refl. reflexivity. }
  { reflexivity. }
  { reflexivity. }
  { clear. induction scs' as [|x l IH]; constructor; [reflexivity|exact IH]. }
  rewrite (seq_ok _ _ _ _ _ H1). unfold finish.
  unfold seq, bind, look, get_job. rewrite R5, Z.eqb_refl. cbn [unwrap ret]. unfold say, change, ret.
  eexists. unfold interrupts_on, get_exit_code, change, look. cbn [im exit_status with_js]. rewrite R9. reflexivity.
Qed.

(** Every process gets a number of its own. *)
Definition ex_many : os := fun t =>
  let r := PropertiesEval.ex_os t in
  Reports (r_isfile r) (r_open r) (r_read r) (r_chdir r) (r_cwd r) (r_kill r) (r_pipe r)
    (Some (100 + Pos.of_nat (List.length t))%positive) (r_exec r) (r_getpid r) (r_waits r) (r_subst r).

Example C107_example :
  let scs := [words_cmd (lit "a") [lit "x"]; words_cmd (lit "b") []] in
  let l := Pipeline false (map CSimple scs) true in
  let s := PropertiesEval.ex_shell in
  let r := exec_text ex_many 5 (r_pipeline l) s in
  wf_pipeline l /\ r_pipeline l = lit " a x | b &" /\
  Forall2 (program (im s)) scs
    [SimpleCommand None (lit "a") (Some (Suffix [] [lit "x"])); SimpleCommand None (lit "b") (Some (Suffix [] []))] /\
  table (fds (im s)) /\ basic (jobs (js (im s))) /\ fst r = OOk 0 /\
  map fst (job_table (jobs (js (im (snd r))))) = [1] /\
  printed (js (im (snd r))) = [lit "[1] (101) Running a | b &"].
Proof.
  cbn zeta. split; [|split; [reflexivity|split; [|split; [|split; [|vm_compute; repeat split]]]]].
  - cbn. split; [discriminate|]. split; [|intros [E _]; discriminate].
    split; [|split; [|exact I]]; (split; [exact I|]; split; [|left; spelled]); [|exact I].
    split; [right; discriminate|]. split; [constructor; [left; spelled|constructor]|constructor].
  - assert (P : forall c, In c (lit "ab") -> plain_name [] [c]).
    { intros c Hc. apply PropertiesPipe.plain_one; cbn in Hc; repeat (destruct Hc as [<-|Hc]; [vm_compute; intuition discriminate|]); contradiction. }
    constructor; [|constructor; [|constructor]].
    + apply program_words; [reflexivity|apply P; cbn; auto|reflexivity|intros q a E; discriminate|discriminate| |].
      * constructor; [apply o_plain; intros [t E]; discriminate|constructor].
      * cbn. intros c [<-|[<-|[]]]; discriminate.
    + apply program_bare; [reflexivity|apply P; cbn; auto|reflexivity|intros q a E; discriminate|exact I|cbn; intuition discriminate].
  - split; [repeat constructor; cbn; lia|]. intros fd dd E. cbn in E.
    destruct (Z.eqb_spec fd 0); [lia|]. destruct (Z.eqb_spec fd 1); [lia|]. destruct (Z.eqb_spec fd 2); [lia|discriminate].
  - exact basic_new.
Qed.

(** ** C104 *)

(** A program is never the file that the command names, wherever its name has a
    slash: the file executed is an entry of PATH, a slash, and the name. *)
Theorem C104_path_refuted : forall w d b bg scs scs' s o s' k img c r w2 m path argv e s2,
  scs <> [] -> wf_pipeline (Pipeline b (map CSimple scs) bg) -> Forall2 (program (im s)) scs scs' ->
  table (fds (im s)) -> nget 0 (fds (im s)) <> None -> nget 1 (fds (im s)) <> None ->
  exec_text w (S d) (r_pipeline (Pipeline b (map CSimple scs) bg)) s = (o, s') ->
  (forall new, trace s' = new ++ trace s -> nth_error (forks new) k = Some (img, c, r)) ->
  run_child w2 m img c = (OExec path argv e, s2) ->
  exists sc p pre dir post tr, nth_error scs' k = Some sc /\
    PropertiesContext.path_value (cm (im s)) = Some p /\ PropertiesContext.path_entries p (pre ++ dir :: post) /\
    path = dir ++ lit "/" ++ sc_name sc /\ path <> sc_name sc /\
    r_isfile (w2 tr) path = true /\ Forall (fun d' => r_isfile (w2 tr) (d' ++ lit "/" ++ sc_name sc) = false) pre.
Proof.
  intros w d b bg scs scs' s o s' k img c r w2 m path argv e s2 Hne Hw HF Ht H0 H1 H Hk Hrun.
  destruct (PropertiesPipe.C70_program_runs w d b bg scs scs' s o s' k img c r w2 m _ s2 Hne Hw HF Ht H0 H1 H Hk Hrun)
    as (sc & Hsc & [(p & e' & tr & E & L & _)|[[E _]|[E _]]]); [|discriminate|discriminate].
  injection E as <- _ _. apply PropertiesContext.C32_lookup_found in L. destruct L as (v & pre & dir & post & L1 & L2 & L3 & L4 & L5).
  exists sc, v, pre, dir, post, tr. repeat (split; [assumption|]). split; [|split; assumption].
  subst path. intros E. apply (f_equal (@List.length char)) in E. rewrite !app_length in E. cbn in E. lia.
Qed.
(** If only the file named exists, the command is not found. *)
Theorem C104_absolute_refuted : forall w d b bg scs scs' s o s' k img c r w2 m o2 s2 sc p ds,
  scs <> [] -> wf_pipeline (Pipeline b (map CSimple scs) bg) -> Forall2 (program (im s)) scs scs' ->
  table (fds (im s)) -> nget 0 (fds (im s)) <> None -> nget 1 (fds (im s)) <> None ->
  exec_text w (S d) (r_pipeline (Pipeline b (map CSimple scs) bg)) s = (o, s') ->
  (forall new, trace s' = new ++ trace s -> nth_error (forks new) k = Some (img, c, r)) ->
  run_child w2 m img c = (o2, s2) ->
  nth_error scs' k = Some sc -> redirections_in sc = [] -> assignments_in sc = [] ->
  PropertiesContext.path_value (cm (im s)) = Some p -> PropertiesContext.path_entries p ds ->
  (forall tr f, r_isfile (w2 tr) f = true -> f = sc_name sc) ->
  o2 = OExit 1.
Proof.
  intros w d b bg scs scs' s o s' k img c r w2 m o2 s2 sc p ds Hne Hw HF Ht H0 H1 H Hk Hrun Hsc Hr Ha Hp Hds Hf.
  destruct (PropertiesPipe.C70_program_runs w d b bg scs scs' s o s' k img c r w2 m _ s2 Hne Hw HF Ht H0 H1 H Hk Hrun)
    as (sc' & Hsc' & HC). rewrite Hsc in Hsc'. injection Hsc' as <-.
  assert (N : forall tr q, lookup_command (r_isfile (w2 tr)) (sc_name sc) (cm (im s)) = Some (Some q) -> False).
  { intros tr q L. apply PropertiesContext.C32_lookup_found in L. destruct L as (v & pre & dir & post & L1 & L2 & L3 & L4 & L5).
    apply Hf in L4. subst q. apply (f_equal (@List.length char)) in L4. rewrite !app_length in L4. cbn in L4. lia. }
  destruct HC as [(q & e' & tr & E & L & _)|[[E _]|[E HC]]]; [destruct (N _ _ L)|exact E|].
  exfalso. destruct HC as [(x & tr & X & _)|[(a & X & _)|(tr & [L|(q & L & _)])]].
  - rewrite Hr in X. exact X.
  - rewrite Ha in X. exact X.
  - apply PropertiesContext.C32_lookup_panics in L. congruence.
  - exact (N _ _ L).
Qed.

(** Only /bin/ls exists.  With an empty entry in PATH it is found. *)
Definition ex_only (f : str) : os := fun t =>
  let r := PropertiesEval.ex_os t in
  Reports (fun p => str_eqb p f) (r_open r) (r_read r) (r_chdir r) (r_cwd r) (r_kill r) (r_pipe r)
    (r_fork r) (r_exec r) (r_getpid r) (r_waits r) (r_subst r).
Example C104_example :
  let child t f := match forks (trace (snd (PropertiesEval.ex_run t))) with
                   | [(i, c, _)] => Some (fst (run_child (ex_only f) 3 i c))
                   | _ => None
                   end in
  child " ls"%string (lit "/bin/ls") = Some (OExec (lit "/bin/ls") [lit "ls"] []) /\
  child " /bin/ls"%string (lit "/bin/ls") = Some (OExit 1) /\
  child " /bin/ls"%string (lit "/bin//bin/ls") = Some (OExec (lit "/bin//bin/ls") [lit "/bin/ls"] []) /\
  child " PATH=/usr: ; /bin/ls"%string (lit "//bin/ls") = Some (OExec (lit "//bin/ls") [lit "/bin/ls"] []).
Proof. vm_compute. repeat split. Qed.

(** ** C105 *)

(** The special parameters do not exist: a program gets their names as written,
    whatever the status of the last command is. *)
Theorem C105_special_refuted : forall w d (n x : str) st s, n <> [] -> written_word n -> plain_name (al (im s)) n ->
  check_if_builtin n = false -> is_function n (cm (im s)) = false -> ~ In 0%N n ->
  In x [lit "?"; lit "#"; lit "@"; lit "-"] -> expand_var (cm (im s)) x = None ->
  forall o s', exec_text w (S d) (r_words [n; ch "$" :: x]) (Shell (with_exit st (im s)) (trace s)) = (o, s') ->
  exists i c r new, trace s' = new ++ EFork i c r :: trace s /\ p_argv (c_proc c) = [n; ch "$" :: x].
Proof.
  intros w d n x st s Hne Hwn Hn Hb Hf Hz Hx Hv o s' H.
  assert (Hwx : written_word (ch "$" :: x)).
  { destruct Hx as [<-|[<-|[<-|[<-|[]]]]]; apply ww_dollar; repeat constructor; cbn; intuition discriminate. }
  destruct (args_line n [ch "$" :: x] Hne Hwn) as [W1 W2]; [constructor; [left; exact Hwx|constructor]|].
  rewrite <- W2, exec_pipeline in H by exact W1.
  set (s0 := Shell (with_exit st (im s)) (trace s)) in *.
  assert (HP : Forall2 (program (im s0)) [words_cmd n [ch "$" :: x]] [SimpleCommand None n (Some (Suffix [] [ch "$" :: x]))]).
  { constructor; [|constructor]. apply program_words; [exact Hb|exact Hn|exact Hf|intros q a E; discriminate|discriminate| |].
    - constructor; [apply o_unset; exact Hv|constructor].
    - intros c Hc. cbn [List.concat] in Hc. rewrite app_nil_r in Hc. apply in_app_or in Hc. destruct Hc as [Hc|Hc]; [intros ->; contradiction|].
      destruct Hx as [<-|[<-|[<-|[<-|[]]]]]; cbn in Hc; intuition (subst; discriminate). }
  pose proof (pipeline_programs w (evaluate w d) false [words_cmd n [ch "$" :: x]] _ false s0 ltac:(discriminate) HP) as E.
  cbn [map] in E. rewrite E in H. clear E.
  cbn [map entry] in H. destruct (PropertiesRun.run_single _ _ _ _ _ _ H) as (i & c & r & C1 & C2 & [T|(k & T)]).
  - exists i, c, r, []. split; [exact T|]. rewrite C2. reflexivity.
  - exists i, c, r, [EWait k]. split; [exact T|]. rewrite C2. reflexivity.
Qed.
(** And they do not exist in a shell that has just started, unless its environment has
    them. *)
Theorem C105_fresh_refuted : forall root cwd ppid pid env x, In x [lit "?"; lit "#"; lit "@"; lit "-"] ->
  (forall v, ~ In (x, v) env) -> expand_var (cm_default root cwd ppid pid env) x = None.
Proof.
  intros root cwd ppid pid env x Hx He. unfold expand_var, get_var, cm_default.
  assert (K : forall m, sget x m = None -> sget x (fold_left (fun m kv => sinsert (fst kv) (Var (snd kv) false) m) env m) = None).
  { clear -He. induction env as [|[k v] env IH]; intros m Hm; cbn [fold_left]; [exact Hm|].
    apply IH; [intros u Hu; apply (He u); right; exact Hu|]. cbn [fst snd]. rewrite sget_sinsert_neq; [exact Hm|].
    intros ->. apply (He v). left. reflexivity. }
  assert (D : sget x (default_vars root cwd ppid pid env) = None).
  { unfold default_vars. cbn zeta. apply K.
    assert (N : forall k v m, In k [lit "PATH"; lit "PWD"; lit "PS1"; lit "PS2"; lit "PS4"; lit "PPID"; lit "PID"] ->
      sget x m = None -> sget x (sinsert k (Var v false) m) = None).
    { intros k v m Hk Hm. rewrite sget_sinsert_neq; [exact Hm|]. intros ->.
      destruct Hx as [<-|[<-|[<-|[<-|[]]]]]; cbn in Hk; intuition discriminate. }
    repeat (apply N; [cbn; tauto|]). destruct (sget (lit "PWD") env); destruct (sget (lit "PATH") env);
      repeat (apply N; [cbn; tauto|]); reflexivity. }
  assert (Q : namespaced x = None) by (destruct Hx as [<-|[<-|[<-|[<-|[]]]]]; reflexivity).
  rewrite Q. unfold innermost. cbn [stack rev app find deref nth heap].
  change (deref 0 _) with (Context (default_vars root cwd ppid pid env) [] []).
  unfold has_var, ctx_get_var. cbn [vars]. rewrite D. reflexivity.
Qed.

Example C105_example :
  let argvs t := map (fun f => p_argv (c_proc (snd (fst f)))) (forks (trace (snd (PropertiesEval.ex_run t)))) in
  fst (PropertiesEval.ex_run " false") = OOk 1 /\
  argvs " false ; echo $?"%string = [[lit "false"]; [lit "echo"; lit "$?"]] /\
  argvs " echo $$"%string = [[lit "echo"; lit "$"; lit "$"]] /\
  fst (PropertiesEval.ex_run " echo $!") = OErr EParse /\
  expand_var PropertiesEval.ex_cm (lit "?") = None /\ plain_name [] (lit "e").
Proof.
  cbn zeta. repeat (split; [vm_compute; reflexivity|]). apply PropertiesPipe.plain_one; cbn; intuition discriminate.
Qed.

(** ** C106 *)

Lemma path_last m : ContextSpec.cm_wf m ->
  PropertiesContext.path_value m = option_map fst (last (ContextLaws.column (lit "PATH") m) None).
Proof.
  intros H. unfold PropertiesContext.path_value, ContextLaws.column, get_env_context.
  pose proof (ContextSpec.wf_nonempty _ H) as Hn. destruct (stack m) as [|l st]; [congruence|].
  cbn [hd rev]. rewrite map_app. cbn [map]. rewrite last_last. destruct (ctx_get_var _ _) as [[v r]|]; reflexivity.
Qed.

(** [PATH=v]: from now on programs are looked for in the directories of [v].  PATH
    must be a variable of the outermost scope, hidden by no other. *)
Theorem C106_path_assigned : forall w d (a v : str) s inner old,
  written_assignment a -> ~ In (ch "$") a -> sget [] (al (im s)) = None ->
  ContextSpec.target a = lit "PATH" -> ContextSpec.assigned a = v ->
  ContextSpec.cm_wf (cm (im s)) -> 
  ContextLaws.column (lit "PATH") (cm (im s)) = inner ++ [Some (old, false)] -> Forall (fun x => x = None) inner ->
  exists s1, exec_text w (S d) (r_words [a]) s = (OOk 0, s1) /\
    PropertiesContext.path_value (cm (im s1)) = Some v /\
    (forall y, y <> lit "PATH" -> ContextSpec.unqualified y -> get_var y (cm (im s1)) = get_var y (cm (im s))) /\
    env (im s1) = env (im s) /\
    (forall l, wf_andor l -> exec_text w (S d) (r_words [a] ++ lit " ;" ++ r_andor l) s = exec_text w (S d) (r_andor l) s1).
Proof.
  intros w d a v s inner old Hw Hd Ha Ht Hv Hwf Hc Hin.
  pose proof (exec_assign w d a [] s (Forall_cons _ Hw (Forall_nil _))) as E.
  specialize (E ltac:(intros x [<-|[]]; exact Hd) Ha).
  assert (Hfs : ContextSpec.first_some (ContextLaws.column (lit "PATH") (cm (im s))) = Some (old, false)).
  { rewrite Hc, ContextLaws.first_some_app_none by exact Hin. reflexivity. }
  assert (Hu : ContextSpec.unsettable a = false).
  { unfold ContextSpec.target in Ht. change (lit "PATH") with [80; 65; 84; 72]%N in Ht.
    destruct a as [|c a]; [discriminate|]. cbn [ContextSpec.upto] in Ht. cbn [ContextSpec.unsettable].
    destruct (N.eqb c (ch "=")); [discriminate|]. injection Ht as -> _. reflexivity. }
  destruct (add_var a (cm (im s))) as [m|] eqn:Em.
  2: { exfalso. pose proof (ContextFacts.perform_meaning (ContextSpec.OAssign a) (cm (im s)) Hwf I) as HM.
       cbn [ContextSpec.perform] in HM. rewrite Em in HM. cbn [ContextSpec.meaning] in HM. rewrite Ht in HM.
       rewrite ContextLaws.lookup_column, <- ContextLaws.column_env, Hfs, Hu in HM. exact HM. }
  pose proof (ContextFacts.perform_wf (ContextSpec.OAssign a) _ _ Hwf Em) as Hwf'.
  pose proof (ContextLaws.assign_column a _ _ Hwf Em) as HA. rewrite Ht, Hfs, Hv in HA.
  eexists. split; [exact E|]. cbn [im cm with_cm env trace]. split; [|split; [|split; [reflexivity|]]].
  - rewrite path_last by exact Hwf'. rewrite HA, Hc. unfold ContextLaws.bound.
    assert (K : ContextSpec.replace_first (Some (v, false)) (inner ++ [Some (old, false)]) = Some (inner ++ [Some (v, false)])).
    { clear -Hin. induction Hin as [|x l -> Hin IH]; [reflexivity|]. cbn [app ContextSpec.replace_first]. rewrite IH. reflexivity. }
    rewrite K, last_last. reflexivity.
  - intros y Hy Hq. apply (PropertiesContext.C24_other_names (ContextSpec.OAssign a) _ _ y Hwf Em); try discriminate; [|exact Hq].
    cbn. rewrite Ht. intros X. injection X as X. symmetry in X. contradiction.
  - intros l Hl. destruct (assign_line a [] (Forall_cons _ Hw (Forall_nil _))) as [A1 A2].
    pose proof (exec_two w (S d) (AoOne (Pipeline false [CSimple (SimpleCommand (Some (Prefix [] [a])) [] None)] false)) l s 0) as T.
    cbn [r_andor] in T. rewrite A2 in T. apply T; [exact A1|exact Hl|exact E].
Qed.
(** [export PATH=v] does the same, and also for the programs themselves; here PATH may
    be hidden. *)
Theorem C106_path_exported : forall w d x y v s, sget (lit "export") (al (im s)) = None ->
  written_arg x -> ordinary (expand_var (cm (im s))) x y -> gives y (lit "PATH") v -> no_p y -> ~ In 0%N v ->
  ContextSpec.cm_wf (cm (im s)) ->
  exists s1, exec_text w (S d) (r_words [lit "export"; x]) s = (OOk 0, s1) /\
    PropertiesContext.path_value (cm (im s1)) = Some v /\ sget (lit "PATH") (env (im s1)) = Some v.
Proof.
  intros w d x y v s Ha Hx Ho Hg Hp Hv Hwf.
  assert (Hu : ContextSpec.unsettable y = false).
  { destruct Hg as (Ht & _ & _). unfold ContextSpec.target in Ht. change (lit "PATH") with [80; 65; 84; 72]%N in Ht.
    destruct y as [|c y]; [discriminate|]. cbn [ContextSpec.upto] in Ht. cbn [ContextSpec.unsettable].
    destruct (N.eqb c (ch "=")); [discriminate|]. injection Ht as -> _. reflexivity. }
  assert (Hd : definitions [y] [(lit "PATH", v)]).
  { constructor; [|constructor]. cbn [fst snd]. split; [exact Hg|]. split; [discriminate|]. split; [cbn; intuition discriminate|].
    split; [exact Hv|exact Hu]. }
  destruct (C91_export_partial w d [x] y [] _ s Ha (Forall_cons _ Hx (Forall_nil _)) (Forall2_cons _ _ Ho (Forall2_nil _)) Hwf Hp Hd)
    as (s1 & E & H1 & H2 & _).
  exists s1. split; [exact E|]. cbn [last_of] in H1, H2. split.
  - change (PropertiesContext.path_value (cm (im s1))) with (option_map value (global (lit "PATH") (cm (im s1)))).
    rewrite H2, str_eqb_refl. reflexivity.
  - rewrite H1, str_eqb_refl. reflexivity.
Qed.

Example C106_example :
  let child t := match forks (trace (snd (PropertiesEval.ex_run t))) with
                 | [(i, c, _)] => Some (fst (run_child PropertiesEval.ex_os 3 i c))
                 | _ => None
                 end in
  written_assignment (lit "PATH=/opt/bin:/sbin") /\ ContextSpec.target (lit "PATH=/opt/bin:/sbin") = lit "PATH" /\
  ContextSpec.assigned (lit "PATH=/opt/bin:/sbin") = lit "/opt/bin:/sbin" /\ 
  ContextLaws.column (lit "PATH") PropertiesEval.ex_cm = [None; Some (lit "/bin", false)] /\
  child " ls"%string = Some (OExec (lit "/bin/ls") [lit "ls"] []) /\
  child " PATH=/opt/bin:/sbin ; ls"%string = Some (OExec (lit "/opt/bin/ls") [lit "ls"] []) /\
  child " export PATH=/opt/bin:/sbin ; ls"%string = Some (OExec (lit "/opt/bin/ls") [lit "ls"] [(lit "PATH", lit "/opt/bin:/sbin")]).
Proof.
  cbn zeta. split.
  - exists (lit "PATH"), (lit "/opt/bin:/sbin"). split; [reflexivity|]. split; spelled.
  - vm_compute. repeat split.
Qed.

(** ** C108, continued *)

(** Redirections with no command at all crash the shell. *)
Theorem C108_alone_refuted : forall w d rs s, Forall wf_redir rs -> rs <> [] -> sget [] (al (im s)) = None ->
  exec_text w (S d) (r_redirs rs) s = (OPanic, Shell (masked_as true (im s)) (trace s)).
Proof.
  intros w d rs s Hr Hne Ha.
  set (p := Pipeline false [CSimple (SimpleCommand (Some (Prefix rs [])) [] None)] false).
  assert (W : wf_pipeline p).
  { cbn. split; [discriminate|]. split; [|intros [E _]; discriminate]. split; [|exact I].
    split; [|split; [exact I|right; split; [reflexivity|split; [discriminate|reflexivity]]]].
    cbn. split; [left; exact Hne|]. split; [constructor|exact Hr]. }
  assert (E : r_pipeline p = r_redirs rs).
  { cbn [r_pipeline p map joined r_command app]. unfold r_simple. cbn [sc_prefix sc_name sc_suffix assignment p_redirect app].
    unfold r_words at 1. cbn [map List.concat]. rewrite !app_nil_r. reflexivity. }
  rewrite <- E, exec_pipeline by exact W.
  unfold eval_pipeline, p. rewrite (seq_ok interrupts_off _ s tt (blocked s) eq_refl).
  cbn [gather eval_command]. unfold eval_simple_command. cbn [sc_name]. change (check_if_builtin []) with true. cbn iota.
  unfold eval_builtin.
  assert (X : expand_command w (SimpleCommand (Some (Prefix rs [])) [] None) (blocked s) =
    (OOk (SimpleCommand (Some (Prefix rs [])) [] None), blocked s)).
  { unfold expand_command, expand. change (al (im (blocked s))) with (al (im s)).
    unfold alias_lookup, lookup_alias. cbn [sc_name]. rewrite Ha.
    unfold expand_vars. cbn [sc_prefix assignment expand_assignments].
    cbn [sc_name sc_suffix]. unfold eval_words. cbn. destruct s; reflexivity. }
  unfold seq, bind. rewrite X. reflexivity.
Qed.

Example C108_example :
  let opened t := flat_map (fun e => match e with EOpen f _ => [f] | _ => [] end) (trace (snd (PropertiesEval.ex_run t))) in
  let sc := SimpleCommand None (lit "pwd") (Some (Suffix [IoRedirect None ROutput (lit "f")] [])) in
  let fn := SimpleCommand (Some (Prefix [] [lit "A=1"])) (lit "g") (Some (Suffix [IoRedirect None ROutput (lit "f")] [lit "x"])) in
  wf_simple sc /\ r_pipeline (Pipeline false [CSimple sc] false) = lit " pwd > f" /\
  printed (js (im (snd (PropertiesEval.ex_run " pwd > f")))) = [lit "/"] /\ opened " pwd > f"%string = [] /\
  r_pipeline (Pipeline false [CSimple fn] false) = lit " A=1 g x > f" /\
  fst (PropertiesEval.ex_run " g() { pwd ; } ; A=1 g x > f") = OOk 0 /\
  printed (js (im (snd (PropertiesEval.ex_run " g() { pwd ; } ; A=1 g x > f")))) = [lit "/"] /\ opened " g() { pwd ; } ; A=1 g x > f"%string = [] /\
  fst (PropertiesEval.ex_run " > f") = OPanic.
Proof.
  cbn zeta. split.
  - split; [exact I|]. split; [|left; spelled]. split; [left; discriminate|]. split; [constructor|]. constructor; [split; [spelled|exact I]|constructor].
  - vm_compute. repeat split.
Qed.

(** ** C109 *)

(** A builtin is run before any function of its name is looked for: apart from those
    that run commands themselves, a builtin does the same whether or not anything
    else could be run at all. *)
Theorem C109_builtin_first_refuted : forall w d (n : str) ws vs s, check_if_builtin n = true -> n <> [] ->
  ~ In n [lit "eval"; lit "."; lit "source"; lit "export"] -> sget n (al (im s)) = None ->
  Forall written_arg ws -> Forall2 (ordinary (expand_var (cm (im s)))) ws vs ->
  exec_text w (S d) (r_words (n :: ws)) s = exec_text w 1 (r_words (n :: ws)) s.
Proof.
  intros w d n ws vs s Hb Hne Hno Ha Hw Ho.
  rewrite (exec_args_line w d n ws vs s Hb Hne Ha Hw Ho), (exec_args_line w 0 n ws vs s Hb Hne Ha Hw Ho).
  assert (K : forall rec rec', call_builtin w rec (SimpleCommand None n (Some (Suffix [] vs))) =
                               call_builtin w rec' (SimpleCommand None n (Some (Suffix [] vs)))).
  { intros rec rec'. unfold call_builtin. cbn [sc_name].
    destruct (str_eqb n (lit "cd")); [reflexivity|]. destruct (str_eqb n (lit "exit")); [reflexivity|].
    destruct (str_eqb n (lit "return")); [reflexivity|]. destruct (str_eqb n (lit "jobs")); [reflexivity|].
    destruct (str_eqb n (lit "fg") || str_eqb n (lit "bg")); [reflexivity|].
    destruct (str_eqb n (lit "alias")); [reflexivity|]. destruct (str_eqb n (lit "unalias")); [reflexivity|].
    destruct (str_eqb_spec n (lit "export")) as [->|_]; [exfalso; apply Hno; cbn; auto|].
    destruct (str_eqb_spec n (lit "eval")) as [->|_]; [exfalso; apply Hno; cbn; auto|].
    destruct (str_eqb n (lit "unset")); [reflexivity|]. destruct (str_eqb n (lit "pwd")); [reflexivity|].
    destruct (str_eqb n (lit "readonly")); [reflexivity|]. destruct (str_eqb n (lit "exec")); [reflexivity|].
    destruct (str_eqb_spec n (lit ".")) as [->|_]; [exfalso; apply Hno; cbn; auto|].
    destruct (str_eqb_spec n (lit "source")) as [->|_]; [exfalso; apply Hno; cbn; auto 6|].
    reflexivity. }
  rewrite (K (evaluate w d) (evaluate w 0)). reflexivity.
Qed.
(** A function called [cd] can be defined but never called. *)
Theorem C109_cd_refuted : forall w d body redirs (x v : str) s,
  let def := AoOne (Pipeline false [CFunction (lit "cd") body redirs] false) in
  wf_andor def -> ContextSpec.cm_wf (cm (im s)) -> sget (lit "cd") (al (im s)) = None ->
  written_arg x -> ordinary (expand_var (cm (im s))) x v ->
  exists s1, exec_text w (S d) (r_andor def) s = (OOk 0, s1) /\ trace s1 = trace s /\
    get_function (lit "cd") (cm (im s1)) = Some (FunctionBody body redirs) /\
    exec_text w (S d) (r_andor def ++ lit " ;" ++ r_words [lit "cd"; x]) s =
    if r_chdir (w (trace s)) v then (OOk 0, Shell (masked_as false (im s1)) (EChdir v :: trace s))
    else (OErr EOs, Shell (masked_as true (im s1)) (trace s)).
Proof.
  intros w d body redirs x v s def Hw Hwf Ha Hx Ho.
  destruct (PropertiesContext.C30_function_table (lit "cd") (FunctionBody body redirs) (cm (im s)) Hwf eq_refl)
    as (_ & _ & F1 & _ & _ & F2).
  set (s1 := Shell (with_cm (add_function (lit "cd") (FunctionBody body redirs) (cm (im s))) (masked_as true (im s))) (trace s)).
  assert (E1 : exec_text w (S d) (r_andor def) s = (OOk 0, s1)).
  { unfold def. cbn [r_andor]. rewrite exec_pipeline by exact Hw. reflexivity. }
  exists s1. split; [exact E1|]. split; [reflexivity|]. split; [exact F1|].
  destruct (args_line (lit "cd") [x] ltac:(discriminate) ltac:(spelled) (Forall_cons _ Hx (Forall_nil _))) as [A1 A2].
  rewrite <- A2.
  pose proof (exec_two w (S d) def (AoOne (Pipeline false [CSimple (words_cmd (lit "cd") [x])] false)) s 0 s1 Hw A1 E1) as T.
  cbn [r_andor] in T. cbn [r_andor]. rewrite T, A2.
  rewrite (C89_cd_partial w d x v [] [] s1 Ha (Forall_cons _ Hx (Forall_nil _))); [reflexivity|].
  constructor; [|constructor].
  assert (V : forall y, expand_var (cm (im s1)) y = expand_var (cm (im s)) y).
  { intros y. unfold expand_var. cbn [s1 im cm with_cm]. rewrite (proj1 (F2 y)). reflexivity. }
  clear -Ho V. destruct Ho; [apply o_plain|apply o_single|apply o_double|apply o_set|apply o_unset]; rewrite ?V; assumption.
Qed.

Example C109_example :
  let def := AoOne (Pipeline false [CFunction (lit "cd") [AoOne (Pipeline false [CSimple (words_cmd (lit "ls") [])] false)] None] false) in
  r_andor def = lit " cd ( ) { ls ; }" /\
  flat_map (fun e => match e with EChdir d => [d] | EFork _ c _ => [sc_name (c_cmd c)] | _ => [] end)
    (trace (snd (PropertiesEval.ex_run " cd ( ) { ls ; } ; cd /d"))) = [lit "/d"] /\
  flat_map (fun e => match e with EChdir d => [d] | EFork _ c _ => [sc_name (c_cmd c)] | _ => [] end)
    (trace (snd (PropertiesEval.ex_run " go ( ) { ls ; } ; go /d"))) = [lit "ls"].
Proof. vm_compute. repeat split. Qed.

(** ** C110 *)

(** An assignment in front of a builtin or a function is lost: the variable is as
    before, in the shell and for the programs, during the command and after it. *)
Theorem C110_assignment_refuted : forall w d (a : str) (more : list str) (n : str) (ws : list str) vs s,
  Forall written_assignment (a :: more) -> (forall x, In x (a :: more) -> ~ In (ch "$") x) ->
  n <> [] -> written_word n -> plain_name (al (im s)) n -> Forall written_arg ws ->
  Forall2 (ordinary (expand_var (cm (im s)))) ws vs ->
  check_if_builtin n = true \/ is_function n (cm (im s)) = true /\ (forall c, In c (List.concat (n :: vs)) -> c <> 0%N) ->
  exec_text w (S d) (r_words (a :: more ++ n :: ws)) s = exec_text w (S d) (r_words (n :: ws)) s.
Proof.
  intros w d a more n ws vs s Hf Hd Hne Hwn Hn Hws Ho Hk.
  assert (Hp : literal_prefix (Some (Prefix [] (a :: more)))) by exact Hd.
  set (sc := SimpleCommand (Some (Prefix [] (a :: more))) n match ws with [] => None | _ => Some (Suffix [] ws) end).
  assert (Ew : words_in sc = ws) by (destruct ws; reflexivity).
  assert (Hsc : wf_simple sc).
  { split; [|split; [|left; exact Hwn]].
    - cbn. split; [right; discriminate|]. split; [exact Hf|constructor].
    - cbn [sc sc_suffix]. destruct ws as [|y ws]; [exact I|]. split; [right; discriminate|]. split; [exact Hws|constructor]. }
  pose proof (C108_ignored_refuted w d (Some (Prefix [] (a :: more))) n match ws with [] => None | _ => Some (Suffix [] ws) end vs s) as H.
  cbn zeta in H. fold sc in H. rewrite Ew in H. rewrite <- (H Hsc Hne Hn Hp Ho Hk). f_equal.
  cbn [r_pipeline map joined r_command app]. unfold sc, r_simple. cbn [sc_prefix sc_name sc_suffix assignment p_redirect].
  unfold r_redirs at 1. cbn [map List.concat]. rewrite !app_nil_r.
  unfold r_words. rewrite (app_comm_cons more (n :: ws) a), map_app, concat_app. f_equal.
  destruct n as [|c n]; [congruence|]. cbn [map List.concat]. 
  destruct ws as [|y ws]; [reflexivity|]. cbn [word_list s_redirect]. unfold r_redirs. cbn [map List.concat]. rewrite ?app_nil_r. reflexivity.
Qed.
Example C110_example :
  let run t := snd (PropertiesEval.ex_run t) in
  let seen t := flat_map (fun e => match e with EFork i c _ => [(p_argv (c_proc c), fst (run_child PropertiesEval.ex_os 3 i c))] | _ => [] end)
                  (trace (run t)) in
  written_assignment (lit "A=1") /\ ~ In (ch "$") (lit "A=1") /\ plain_name [] (lit "g") /\
  is_function (lit "g") (cm (im (run " g ( ) { echo $A }"%string))) = true /\
  seen " A=1 echo x"%string = [([lit "echo"; lit "x"], OExec (lit "/bin/echo") [lit "echo"; lit "x"] [(lit "A", lit "1")])] /\
  seen " g ( ) { echo $A } ; A=1 g"%string = [([lit "echo"; lit "$A"], OExec (lit "/bin/echo") [lit "echo"; lit "$A"] [])] /\
  env (im (run " A=1 pwd"%string)) = [] /\ expand_var (cm (im (run " A=1 pwd"%string))) (lit "A") = None.
Proof.
  cbn zeta. split; [exists (lit "A"), (lit "1"); split; [reflexivity|]; split; spelled|].
  split; [cbn; intuition discriminate|]. split; [apply PropertiesPipe.plain_one; cbn; intuition discriminate|].
  vm_compute. repeat split.
Qed.

Print Assumptions C104_path_refuted.
Print Assumptions C104_absolute_refuted.
Print Assumptions C105_special_refuted.
Print Assumptions C105_fresh_refuted.
Print Assumptions C106_path_assigned.
Print Assumptions C106_path_exported.
Print Assumptions C107_background.
Print Assumptions C107_returns.
Print Assumptions C108_ignored_refuted.
Print Assumptions C108_alone_refuted.
Print Assumptions C109_builtin_first_refuted.
Print Assumptions C109_cd_refuted.
Print Assumptions C110_assignment_refuted.
