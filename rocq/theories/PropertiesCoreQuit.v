(** Property C142: [exit] and [exec] in scripts with functions. *)
From Verif Require Import Base BaseFacts Lexer LexerSpec Ast Parser GrammarSpec.
From Verif Require Import Context.
From Verif Require ContextSpec ContextFacts ContextLaws PropertiesContext.
From Verif Require Import Alias Expand ExpandSpec ExpandFacts ExpandLaws Jobs JobsSpec Shell Builtins Eval.
From Verif Require Import EvalSpec EvalFacts EvalLaws EvalKeeps RunSpec RunLaws PipeSpec PipeLaws ChildLaws PipeRun.
From Verif Require PropertiesProgram PropertiesRun.
From Verif Require MainSpec Main MainLaws PropertiesMain GrammarFacts.
From Verif Require Import EvalFds.
From Verif Require Import CoreSpec CoreExitSpec CoreFunSpec PropertiesCore PropertiesCoreExit PropertiesCoreFun.
Local Open Scope Z_scope.

(** How the shell is left: by an exit, or as a program, provided that there is one of
    that name on the path and the system agrees. *)
Definition gone {A} (w : os) (r : result) (s' : shell) (P : out A -> Prop) : Prop :=
  match r with
  | Ends _ _ => False
  | Exits z _ => P (OExit z)
  | Becomes av e _ =>
      masked (js (im s')) = false /\ handlers (im s') = false /\
      forall path, lookup_command (r_isfile (w (trace s'))) (hd [] av) (cm (im s')) = Some (Some path) -> ~ In 0%N path ->
        r_exec (w (trace s')) path av = true -> P (OExec path av e)
  end.
Lemma gone_mono {A B} w r s' (P : out A -> Prop) (Q : out B -> Prop) : (forall z, P (OExit z) -> Q (OExit z)) ->
  (forall p a e, P (OExec p a e) -> Q (OExec p a e)) -> gone w r s' P -> gone w r s' Q.
Proof.
  intros H1 H2. destruct r; cbn [gone]; [tauto|apply H1|]. intros (M1 & M2 & M3). split; [exact M1|]. split; [exact M2|].
  intros p Q1 Q2 Q3. apply H2, M3; assumption.
Qed.

Section Steps.
Context (w : os) (aliases_ : aliases) (readonly : str -> bool) (old : nmap job) (t0 : fdtable) (code : world).
Notation fcomm_ok := (fcomm_ok aliases_ readonly).
Notation fchain_ok := (fchain_ok aliases_ readonly).
Notation fagrees := (fagrees aliases_ readonly old t0).

(** The state the shell is left in, in some call; the files that are being read are open
    then, but not for other programs. *)
Definition last_state (ap : bool) (r : result) (s' : shell) : Prop :=
  exists fs k t1, (forall fd, kept (nget fd t1) = kept (nget fd t0)) /\ agrees aliases_ fs readonly old t1 k ap (final r) s'.

Lemma followed_gone r g vs x : followed r g = Some (vs, Gone x) -> r = Some (vs, Gone x) \/
  exists v1 st1 fm1 v2, r = Some (v1, Goes st1 fm1) /\ g st1 fm1 = Some (v2, Gone x) /\ vs = v1 ++ v2.
Proof.
  unfold followed. destruct r as [[v1 [st1 fm1|r1]]|]; [|intros [= -> ->]; left; reflexivity|discriminate].
  destruct (g st1 fm1) as [[v2 y]|] eqn:E; [|discriminate]. intros [= <- ->]. right. exists v1, st1, fm1, v2. auto.
Qed.

Section Loop.
Context (one : fcomm -> fmachine -> outcome) (d k : nat) (ap : bool).
Hypothesis Hone : forall c fm vs st fm' s, one c fm = Some (vs, Goes st fm') -> Forall (allowed code) vs -> fcomm_ok c -> fagrees ap k fm s ->
  exists s', exec_text w (S d) (r_pipeline (ftree c)) s = (OOk st, s') /\ fagrees ap k fm' s'.
Hypothesis Hleave : forall c fm vs r s, one c fm = Some (vs, Gone r) -> Forall (allowed code) vs -> fcomm_ok c -> fagrees ap k fm s ->
  exists s', last_state ap r s' /\ gone w r s' (fun o => exec_text w (S d) (r_pipeline (ftree c)) s = (o, s')).

Lemma frun_more_leaves rest : Forall (fun oc => fcomm_ok (snd oc)) rest -> forall st fm s vs r, fagrees ap k fm s ->
  frun_more one rest st fm = Some (vs, Gone r) -> Forall (allowed code) vs ->
  exists s', last_state ap r s' /\
    gone w r s' (fun o => exists ran, EvalSpec.chain (fun p => exec_text w (S d) (r_pipeline p)) st s (fpipes rest) ran o s').
Proof.
  induction 1 as [|[o c] rest Hc _ IH]; intros st fm s vs r A E Hv; cbn [frun_more fpipes map fst snd] in *; [discriminate|].
  destruct (goes_on o st) eqn:G.
  - assert (Hw : EvalSpec.wanted o st) by (destruct o; cbn in G |- *; [apply Z.eqb_eq, G|apply negb_true_iff, Z.eqb_neq in G; exact G]).
    apply followed_gone in E. destruct E as [E|(v1 & st1 & fm1 & v2 & E1 & E2 & ->)].
    + destruct (Hleave c fm vs r s E Hv Hc A) as (s' & L & K). exists s'. split; [exact L|]. eapply gone_mono; [| |exact K].
      * intros z Hz. eexists. eapply chain_stop; [exact Hw|exact Hz|exact I].
      * intros p a e Hz. eexists. eapply chain_stop; [exact Hw|exact Hz|exact I].
    + apply Forall_app in Hv. destruct Hv as [Hv1 Hv2]. destruct (Hone c fm v1 st1 fm1 s E1 Hv1 Hc A) as (s1 & H1 & H2).
      destruct (IH st1 fm1 s1 v2 r H2 E2 Hv2) as (s' & L & K). exists s'. split; [exact L|].
      eapply gone_mono; [| |exact K]; intros; cbn beta in *; match goal with F : exists _, _ |- _ => destruct F as [ran F]; eexists; eapply chain_run; eassumption end.
  - destruct (IH st fm s vs r A E Hv) as (s' & L & K). exists s'. split; [exact L|].
    eapply gone_mono; [| |exact K]; intros; cbn beta in *; match goal with F : exists _, _ |- _ => destruct F as [ran F]; eexists; eapply chain_skip; [|exact F];
      destruct o; cbn in G |- *; [apply Z.eqb_neq, G|apply negb_false_iff, Z.eqb_eq in G; intros X; exact (X G)] end.
Qed.
Lemma frun_chain_leaves l fm s vs r : fchain_ok l -> fagrees ap k fm s -> frun_chain one l fm = Some (vs, Gone r) -> Forall (allowed code) vs ->
  exists s', last_state ap r s' /\ gone w r s' (fun o => exec_text w (S d) (r_andor (fchain_tree l)) s = (o, s')).
Proof.
  intros Hok A E Hv. destruct (fchain_facts _ _ l Hok) as (W1 & W2 & W3 & W4). destruct Hok as [H0 Hr].
  apply followed_gone in E. destruct E as [E|(v1 & st1 & fm1 & v2 & E1 & E2 & ->)].
  - destruct (Hleave (fst l) fm vs r s E Hv H0 A) as (s' & L & K). exists s'. split; [exact L|].
    eapply gone_mono; [| |exact K]; intros; cbn beta in *; unfold fchain_tree; rewrite text_tree; apply exec_chain; try assumption; eexists; eapply whole_stop; [eassumption|exact I|eassumption|exact I].
  - apply Forall_app in Hv. destruct Hv as [Hv1 Hv2].
    destruct (Hone (fst l) fm v1 st1 fm1 s E1 Hv1 H0 A) as (s1 & K1 & K2).
    destruct (frun_more_leaves (snd l) Hr st1 fm1 s1 v2 r K2 E2 Hv2) as (s' & L & K). exists s'. split; [exact L|].
    eapply gone_mono; [| |exact K]; intros; cbn beta in *; unfold fchain_tree; rewrite text_tree; apply exec_chain; try assumption;
      match goal with F : exists _, _ |- _ => destruct F as [ran F]; eexists; eapply whole_run; eassumption end.
Qed.
Lemma frun_script_leaves sc : Forall fchain_ok sc -> forall st0 fm s vs r, fagrees ap k fm s ->
  frun_script one sc st0 fm = Some (vs, Gone r) -> Forall (allowed code) vs ->
  exists s', last_state ap r s' /\ gone w r s' (fun o => exists ran, in_order (fun a => exec_text w (S d) (r_andor a)) st0 s (map fchain_tree sc) ran o s').
Proof.
  induction 1 as [|l sc Hl _ IH]; intros st0 fm s vs r A E Hv; cbn [frun_script map] in *; [discriminate|].
  apply followed_gone in E. destruct E as [E|(v1 & st1 & fm1 & v2 & E1 & E2 & ->)].
  - destruct (frun_chain_leaves l fm s vs r Hl A E Hv) as (s' & L & K). exists s'. split; [exact L|].
    eapply gone_mono; [| |exact K]; intros; cbn beta in *; eexists; (apply in_order_stop; [eassumption|exact I]).
  - apply Forall_app in Hv. destruct Hv as [Hv1 Hv2].
    destruct (frun_chain_agrees w aliases_ readonly old t0 code one d k ap Hone l fm s v1 st1 fm1 Hl A E1 Hv1) as (s1 & H1 & H2).
    destruct (IH st1 fm1 s1 v2 r H2 E2 Hv2) as (s' & L & K). exists s'. split; [exact L|].
    eapply gone_mono; [| |exact K]; intros; cbn beta in *; match goal with F : exists _, _ |- _ => destruct F as [ran F]; eexists; eapply in_order_run; eassumption end.
Qed.
Lemma frun_script_left sc st0 fm s vs r : sc <> [] -> Forall fchain_ok sc -> fagrees ap k fm s ->
  frun_script one sc st0 fm = Some (vs, Gone r) -> Forall (allowed code) vs ->
  exists s', last_state ap r s' /\ gone w r s' (fun o => exec_text w (S d) (fscript_text sc) s = (o, s')).
Proof.
  intros Hne Hok A E Hv. destruct (frun_script_leaves sc Hok st0 fm s vs r A E Hv) as (s' & L & K).
  exists s'. split; [exact L|]. rewrite <- (fscript_render _ _ sc Hok).
  eapply gone_mono; [| |exact K]; intros; cbn beta in *; apply (exec_list w (S d) _ st0); try assumption;
    try (destruct sc; [congruence|discriminate]); (apply Forall_map; eapply Forall_impl; [|exact Hok]; intros l Hl; apply (fchain_facts _ _ l Hl)).
Qed.
End Loop.
End Steps.

Section AnyFiles.
Context (w : os) (aliases_ : aliases) (readonly : str -> bool) (old : nmap job) (code : world).
Notation fcomm_ok := (fcomm_ok aliases_ readonly).
Notation fchain_ok := (fchain_ok aliases_ readonly).
Notation fagrees := (fagrees aliases_ readonly old).
Notation last_state := (last_state aliases_ readonly old).
Context (Hsys : system w old code).

Lemma fstep_leaves n : forall t0 d ap k c fm vs r s, (n <= d)%nat -> n = 0%nat \/ ap = false -> fstep code n k c fm = Some (vs, Gone r) -> Forall (allowed code) vs -> fcomm_ok c ->
  fagrees t0 ap k fm s -> exists s', last_state t0 ap r s' /\ gone w r s' (fun o => exec_text w (S d) (r_pipeline (ftree c)) s = (o, s')).
Proof.
  assert (Q : forall t0 d ap k e fm vs r s, Some ([Visit k fm (Quit e) 0], Gone (left_by e 0 (core fm))) = Some (vs, Gone r) -> Forall (allowed code) vs -> fcomm_ok (Quit e) ->
    fagrees t0 ap k fm s -> exists s', last_state t0 ap r s' /\ gone w r s' (fun o => exec_text w (S d) (r_pipeline (ftree (Quit e))) s = (o, s'))).
  { intros t0 d ap k e fm vs r s [= <- <-] Hv [Hok Hne] [A Hb Hp]. inversion_clear Hv as [|? ? Hv1 _]. cbn [allowed v_comm v_before] in Hv1.
    destruct (leave_run w aliases_ (table_of (funs fm)) readonly old t0 k ap d e 0 (core fm) s A Hok Hv1) as (o & s' & R1 & R2 & R3 & R4); [intros F; contradiction|].
    exists s'. split; [exists (table_of (funs fm)), k, t0; split; [reflexivity|destruct e; exact R4]|]. cbn [ftree]. rewrite R1. destruct e as [a| |pn args]; cbn [left_by gone ends_so] in *.
    - subst o. reflexivity.
    - contradiction.
    - destruct R3 as (M1 & M2 & M3 & _). split; [exact M1|]. split; [exact M2|]. intros p Q1 Q2 Q3. rewrite (M3 p Q1 Q2 Q3). reflexivity. }
  induction n as [|n IH]; intros t0 d ap k c fm vs r s Hd Hap E Hv Hok A;
    (destruct c as [c|e|f body|body|f body]; [|exact (Q t0 d ap k e fm vs r s E Hv Hok A)| | |discriminate]); cbn [fstep] in E; try destruct (called fm c) as [[body args]|] eqn:Hc.
  1,3,4: discriminate.
  1,3: destruct (step code c (core fm)); discriminate.
  2: { destruct Hap as [Hap| ->]; [discriminate|]. destruct d as [|d]; [lia|].
    destruct (frun_script (fstep code n k) body 0 fm) as [[v1 [st1 fm1|r1]]|] eqn:E1; [discriminate| |discriminate].
    injection E as <- <-. inversion_clear Hv as [|? ? Hv0 Hv1]. cbn [allowed v_comm v_before v_calls v_status] in Hv0. destruct Hv0 as [_ Hc].
    destruct A as [A Hb Hp]. pose proof (source_text w aliases_ readonly old t0 code Hsys (S d) k false _ _ s f body A Hok Hc) as Ht.
    pose proof (proj2 (fcomm_facts _ _ _ Hok)) as T. pose proof Hok as Hok1. apply source_ok in Hok1. destruct Hok1 as (_ & _ & _ & Hne & Hbok).
    destruct (agrees_opened aliases_ readonly old t0 _ k false _ s f A) as [A1 Hk].
    destruct (frun_script_left w aliases_ readonly old (fds (im (file_opened f s))) code (fstep code n k) d k false) with (sc := body) (st0 := 0) (fm := fm)
      (s := file_opened f s) (vs := v1) (r := r1) as (s2 & (fs & k2 & t1 & Hk1 & L) & K); auto.
    { intros c fm0 vs0 st0 fm0' s0 F1 F2 F3 F4. apply (fstep_agrees_any w aliases_ readonly old code Hsys n _ d false k c fm0 vs0 st0 fm0' s0); auto. lia. }
    { intros c fm0 vs0 r0 s0 F1 F2 F3 F4. apply (IH _ d false k c fm0 vs0 r0 s0); auto. lia. }
    { split; assumption. }
    exists s2. split; [exists fs, k2, t1; split; [intros fd; rewrite Hk1; apply Hk|exact L]|].
    rewrite T, Ht. eapply gone_mono; [| |exact K]; cbn beta; intros; match goal with F : _ = _ |- _ => rewrite F end; reflexivity. }
  2: { destruct Hap as [Hap| ->]; [discriminate|]. destruct d as [|d]; [lia|].
    destruct (frun_script (fstep code n k) body 0 fm) as [[v1 [st1 fm1|r1]]|] eqn:E1; [discriminate| |discriminate].
    injection E as <- <-. inversion_clear Hv as [|? ? _ Hv1].
    pose proof (eval_text w aliases_ readonly old t0 d k false _ _ s body (fa_core _ _ _ _ _ _ _ _ A) Hok) as Ht.
    pose proof (proj2 (fcomm_facts _ _ _ Hok)) as T. pose proof Hok as Hok1. apply eval_ok in Hok1. destruct Hok1 as (_ & _ & Hne & Hbok).
    destruct (frun_script_left w aliases_ readonly old t0 code (fstep code n k) d k false) with (sc := body) (st0 := 0) (fm := fm)
      (s := s) (vs := v1) (r := r1) as (s2 & L & K); auto.
    { intros c fm0 vs0 st0 fm0' s0 F1 F2 F3 F4. apply (fstep_agrees w aliases_ readonly old t0 code Hsys n d false k c fm0 vs0 st0 fm0' s0); auto. lia. }
    { intros c fm0 vs0 r0 s0 F1 F2 F3 F4. apply (IH t0 d false k c fm0 vs0 r0 s0); auto. lia. }
    exists s2. split; [exact L|].
    rewrite T, Ht. eapply gone_mono; [| |exact K]; cbn beta; intros; match goal with F : _ = _ |- _ => rewrite F end; reflexivity. }
  destruct Hap as [Hap| ->]; [discriminate|]. destruct d as [|d]; [lia|].
  destruct (frun_script (fstep code n (S k)) body 0 (FMachine (entered args (core fm)) (funs fm) args)) as [[v1 [st1 fm1|r1]]|] eqn:E1; [discriminate| |discriminate].
  injection E as <- <-. inversion_clear Hv as [|? ? Hv0 Hv1]. cbn [allowed v_comm v_before v_calls v_status] in Hv0. rewrite Hc in Hv0.
  destruct (called_some fm c body args Hc) as (g & ars & -> & Hg & Hargs). destruct Hv0 as (_ & Hpar & Hdig & Hpass & Hdol). cbn [name arguments] in Hdig, Hdol.
  destruct A as [A Hb Hp]. pose proof A as []. cbn [PropertiesCoreFun.fcomm_ok] in Hok.
  assert (Hnone : forall x, position x -> CoreSpec.vars (core fm) x = None) by (intros x Hx; rewrite Hp, Hpar by exact Hx; reflexivity).
  destruct (entry_made g args (cm (im s)) ag_wf Hdig Hpass) as [m1 Hm1].
  destruct (Hb g body Hg) as [Hbne Hbok].
  pose proof (agrees_entered _ _ _ _ _ k _ _ s g args m1 A Hm1 Hpass Hnone) as A1.
  destruct (frun_script_left w aliases_ readonly old t0 code (fstep code n (S k)) d (S k) false) with (sc := body) (st0 := 0) (fm := FMachine (entered args (core fm)) (funs fm) args)
    (s := Shell (with_cm m1 (im s)) (trace s)) (vs := v1) (r := r1) as (s2 & L & K); auto.
  { intros c fm0 vs0 st0 fm0' s0 F1 F2 F3 F4. apply (fstep_agrees w aliases_ readonly old t0 code Hsys n d false (S k) c fm0 vs0 st0 fm0' s0); auto. lia. }
  { intros c fm0 vs0 r0 s0 F1 F2 F3 F4. apply (IH t0 d false (S k) c fm0 vs0 r0 s0); auto. lia. }
  { split; cbn [core funs params]; [exact A1|exact Hb|]. intros x Hx. cbn [entered CoreSpec.vars]. unfold position in Hx. rewrite Hx. reflexivity. }
  exists s2. split; [exact L|]. cbn [ftree]. rewrite (proj2 (comm_tree _ _ _ _ Hok)).
  assert (Hf : table_of (funs fm) g = Some (FunctionBody (map fchain_tree body) None)) by (unfold table_of; rewrite Hg; reflexivity).
  assert (Hval : List.concat (map (arg_fields (core fm)) ars) = map (arg_value (core fm)) ars).
  { exact (proj1 (call_text w aliases_ readonly old t0 d k _ _ s g ars body m1 (OOk 0) s2 A Hok Hf Hbne Hbok Hdol)). }
  rewrite Hval in Hargs. subst args.
  eapply gone_mono; [| |exact K].
  - intros z Hz. destruct (call_text w aliases_ readonly old t0 d k _ _ s g ars body m1 (OExit z) s2 A Hok Hf Hbne Hbok Hdol) as [_ Hcall].
    apply (proj2 (Hcall Hm1 Hz)). intros [].
  - intros p a e Hz. destruct (call_text w aliases_ readonly old t0 d k _ _ s g ars body m1 (OExec p a e) s2 A Hok Hf Hbne Hbok Hdol) as [_ Hcall].
    apply (proj2 (Hcall Hm1 Hz)). intros [].
Qed.

End AnyFiles.

Section Scripts.
Context (w : os) (aliases_ : aliases) (readonly : str -> bool) (old : nmap job) (t0 : fdtable) (code : world).
Notation fchain_ok := (fchain_ok aliases_ readonly).
Notation fagrees := (fagrees aliases_ readonly old t0).
Notation last_state := (last_state aliases_ readonly old t0).
Context (Hsys : system w old code).

Lemma script_left n d : (n <= d)%nat -> forall sc st0 fm s vs r, fagrees false 0 fm s -> Forall fchain_ok sc -> sc <> [] ->
  frun_script (fstep code n 0) sc st0 fm = Some (vs, Gone r) -> Forall (allowed code) vs ->
  exists s', last_state false r s' /\ gone w r s' (fun o => exec_text w (S d) (fscript_text sc) s = (o, s')).
Proof.
  intros Hd sc st0 fm s vs r A Hok Hne E Hv. apply (frun_script_left w aliases_ readonly old t0 code (fstep code n 0) d 0 false) with (st0 := st0) (fm := fm) (vs := vs); auto.
  - intros c fm0 vs0 st1 fm0' s0 F1 F2 F3 F4. apply (fstep_agrees w aliases_ readonly old t0 code Hsys n d false 0 c fm0 vs0 st1 fm0' s0); auto.
  - intros c fm0 vs0 r0 s0 F1 F2 F3 F4. apply (fstep_leaves w aliases_ readonly old code Hsys n t0 d false 0 c fm0 vs0 r0 s0); auto.
Qed.

(** A script with functions that leaves the shell, from however deep in calls, does so
    where its meaning says; what was to be done before has been done, and nothing else. *)
Theorem C142_functions_partial : forall n d sc fm s vs r, (n <= d)%nat -> fagrees false 0 fm s -> Forall fchain_ok sc -> sc <> [] ->
  frun code n sc fm = Some (vs, Gone r) -> Forall (allowed code) vs ->
  exists s', last_state false r s' /\ gone w r s' (fun o => exec_text w (S d) (fscript_text sc) s = (o, s')).
Proof. intros n d sc fm s vs r Hd A Hok Hne E Hv. exact (script_left n d Hd sc 0 fm s vs r A Hok Hne E Hv). Qed.
End Scripts.

(** ** Whole shells *)

(** A shell started as [rsh -c script]. *)
Theorem C142_functions_dash_c_partial : forall w code n d k args ins root cwd ppid pid env fds sc vs r, (n <= d)%nat ->
  MainSpec.asks args (MainSpec.Commands (fscript_text sc)) -> MainSpec.no_startup_files w -> system w [] code ->
  NoDup (map fst env) -> (forall x, position x -> sget x env = None) -> table fds -> no_future_pipe fds 0 -> nget 0 fds <> None -> nget 1 fds <> None ->
  Forall (fchain_ok [] (fun _ => false)) sc -> sc <> [] ->
  frun code n sc (machine_at_start root cwd ppid pid env) = Some (vs, Gone r) -> Forall (allowed code) vs ->
  exists s', did fds (final r) s' /\
    gone w r s' (fun o => Main.main w (S d) k args ins (Shell (Main.fresh_image root cwd ppid pid env fds) []) = (o, s')).
Proof.
  intros w code n d k args ins root cwd ppid pid env fds sc vs r Hd Ha Hns Hsys Hnd He Ht Hf H0 H1 Hok Hne E Hv.
  set (s := Shell (Main.fresh_image root cwd ppid pid env fds) []).
  set (c := Context (default_vars root cwd ppid pid env) [] []).
  assert (Hc : cm (im s) = MainLaws.one_scope c) by reflexivity.
  destruct (MainLaws.parse_args_asks args _ (cm (im s)) Ha) as [out Hp].
  destruct (MainLaws.main_begins w (S d) k args ins s _ _ c Hp Hc eq_refl Hns) as (s1 & Em & Htr & Hi & Hj & Hm).
  assert (A : fagrees [] (fun _ => false) [] fds false 0 (machine_at_start root cwd ppid pid env) s1).
  { apply fagrees_start; [exact He|]. eapply agrees_start; eauto. }
  destruct (C142_functions_partial w [] (fun _ => false) [] fds code Hsys n d sc _ s1 vs r Hd A Hok Hne E Hv) as (s' & (fs & k' & t1 & Hk1 & L) & K).
  exists s'. split; [eapply agrees_did; [exact Hk1|exact L]|].
  destruct (fscript_parses [] (fun _ => false) sc Hok Hne) as [P _]. unfold exec_text in K. rewrite P in K. rewrite Em. cbn [MainLaws.goes_on]. unfold Main.read_from_args. rewrite P.
  eapply gone_mono; [| |exact K]; intros; cbn beta in *; rewrite (bind_ok (unwrap (Some (Some (map fchain_tree sc)))) _ s1 _ s1 eq_refl);
    rewrite MainLaws.drop_error; match goal with F : _ = _ |- _ => rewrite F end; reflexivity.
Qed.

Section Lines.
Context (w : os) (aliases_ : aliases) (readonly : str -> bool) (old : nmap job) (t0 : fdtable) (code : world).
Context (Hsys : system w old code) (n d : nat) (Hd : (n <= d)%nat).
Notation fagrees := (fagrees aliases_ readonly old t0 false 0).
Notation fchain_ok := (fchain_ok aliases_ readonly).

Lemma fsession_left scs : Forall (fun sc => sc <> [] /\ Forall fchain_ok sc) scs -> forall st0 fm s vs r,
  fagrees fm s -> CoreSpec.vars (core fm) (lit "PS1") <> None -> frun_script (fstep code n 0) (List.concat scs) st0 fm = Some (vs, Gone r) ->
  Forall (allowed code) vs -> Forall (does_not_unset (lit "PS1")) vs ->
  exists s', last_state aliases_ readonly old t0 false r s' /\
    gone w r s' (fun o => MainSpec.session w (S d) (map (fun sc => Main.TLine (fscript_text sc)) scs ++ [Main.TClosed]) s o s').
Proof.
  induction 1 as [|sc scs [Hne Hsc] _ IH]; intros st0 fm s vs r A Hps E Hv Hl; cbn [List.concat map app] in *; [discriminate|].
  assert (P : exists v, get_var (lit "PS1") (cm (im s)) = Some v).
  { rewrite (ag_vars _ _ _ _ _ _ _ _ _ (fa_core _ _ _ _ _ _ _ _ A) (lit "PS1") ps1_identifier). destruct (CoreSpec.vars (core fm) (lit "PS1")); [eauto|congruence]. }
  destruct P as [v P]. destruct (fscript_parses aliases_ readonly sc Hsc Hne) as [P1 _].
  assert (P3 : parse (fscript_text sc) <> None) by (rewrite P1; discriminate).
  rewrite frun_script_app in E. apply followed_gone in E. destruct E as [E|(v1 & st1 & fm1 & v2 & E1 & E2 & ->)].
  - destruct (script_left w aliases_ readonly old t0 code Hsys n d Hd sc st0 fm s vs r A Hsc Hne E Hv) as (s' & L & K).
    exists s'. split; [exact L|]. eapply gone_mono; [| |exact K].
    + intros z Hz. exact (MainSpec.session_last_line w (S d) _ _ s v (OExit z) s' P P3 Hz (fun F => F)).
    + intros p a e Hz. exact (MainSpec.session_last_line w (S d) _ _ s v (OExec p a e) s' P P3 Hz (fun F => F)).
  - apply Forall_app in Hv. destruct Hv as [Hv1 Hv2]. apply Forall_app in Hl. destruct Hl as [Hl1 Hl2].
    destruct (run_line w aliases_ readonly old t0 code Hsys n d Hd sc st0 fm s v1 st1 fm1 A Hsc Hne E1 Hv1) as (s1 & K1 & K2).
    pose proof (script_set (lit "PS1") _ sc (fstep_set code (lit "PS1") eq_refl n 0) _ _ _ _ _ E1 Hl1 Hps) as Hps1.
    destruct (IH st1 fm1 s1 v2 r K2 Hps1 E2 Hv2 Hl2) as (s' & L & K). exists s'. split; [exact L|].
    eapply gone_mono; [| |exact K]; intros; cbn beta in *; eapply MainSpec.session_line; [exact P|exact P3|exact K1|exact I|eassumption|exact P|exact P3|exact K1|exact I|eassumption].
Qed.

Lemma flines_left scs : Forall (fun sc => sc <> [] /\ Forall fchain_ok sc) scs -> forall st0 fm s vs r,
  fagrees fm s -> frun_script (fstep code n 0) (List.concat scs) st0 fm = Some (vs, Gone r) -> Forall (allowed code) vs ->
  exists done l rest s1 s', map (fun sc => fscript_text sc ++ [10%N]) scs = done ++ l :: rest /\ MainSpec.lines_run w (S d) done s s1 /\ parse l <> None /\
    last_state aliases_ readonly old t0 false r s' /\ gone w r s' (fun o => exec_text w (S d) l s1 = (o, s')).
Proof.
  induction 1 as [|sc scs [Hne Hsc] _ IH]; intros st0 fm s vs r A E Hv; cbn [List.concat map] in *; [discriminate|].
  destruct (fscript_parses aliases_ readonly sc Hsc Hne) as [P1 P2]. assert (P3 : parse (fscript_text sc ++ [10%N]) <> None) by (rewrite P2; discriminate).
  rewrite frun_script_app in E. apply followed_gone in E. destruct E as [E|(v1 & st1 & fm1 & v2 & E1 & E2 & ->)].
  - destruct (script_left w aliases_ readonly old t0 code Hsys n d Hd sc st0 fm s vs r A Hsc Hne E Hv) as (s' & L & K).
    exists [], (fscript_text sc ++ [10%N]), (map (fun sc => fscript_text sc ++ [10%N]) scs), s, s'. split; [reflexivity|]. split; [constructor|].
    split; [exact P3|]. split; [exact L|]. eapply gone_mono; [| |exact K]; intros; cbn beta in *; unfold exec_text in *; rewrite P2; rewrite P1 in *; assumption.
  - apply Forall_app in Hv. destruct Hv as [Hv1 Hv2].
    destruct (run_line w aliases_ readonly old t0 code Hsys n d Hd sc st0 fm s v1 st1 fm1 A Hsc Hne E1 Hv1) as (s1 & K1 & K2).
    destruct (IH st1 fm1 s1 v2 r K2 E2 Hv2) as (done & x & rest & s2 & s' & I1 & I2 & I3).
    exists ((fscript_text sc ++ [10%N]) :: done), x, rest, s2, s'. split; [cbn [app]; rewrite I1; reflexivity|]. split; [|exact I3].
    apply (MainSpec.lines_next w (S d) _ _ s (OOk st1) s1 s2 P3); [|exact I|exact I2].
    unfold exec_text in K1 |- *. rewrite P2. rewrite P1 in K1. exact K1.
Qed.
End Lines.

(** The same typed at the prompt, some commands on each line: the shell is left on the
    line that says so; the lines after it are not read. *)
Theorem C142_functions_typed_partial : forall w code n d k args root cwd ppid pid env fds scs vs r, (n <= d)%nat ->
  MainSpec.asks args MainSpec.Prompt -> MainSpec.no_startup_files w -> system w [] code ->
  NoDup (map fst env) -> (forall x, position x -> sget x env = None) -> table fds -> no_future_pipe fds 0 -> nget 0 fds <> None -> nget 1 fds <> None ->
  Forall (fun sc => sc <> [] /\ Forall (fchain_ok [] (fun _ => false)) sc) scs ->
  frun code n (List.concat scs) (machine_at_start root cwd ppid pid env) = Some (vs, Gone r) ->
  Forall (allowed code) vs -> Forall (does_not_unset (lit "PS1")) vs ->
  exists s', did fds (final r) s' /\
    gone w r s' (fun o => Main.main w (S d) k args (map (fun sc => Main.TLine (fscript_text sc)) scs ++ [Main.TClosed])
      (Shell (Main.fresh_image root cwd ppid pid env fds) []) = (o, s')).
Proof.
  intros w code n d k args root cwd ppid pid env fds scs vs r Hd Ha Hns Hsys Hnd He Ht Hf H0 H1 Hok E Hv Hl.
  set (s := Shell (Main.fresh_image root cwd ppid pid env fds) []).
  set (c := Context (default_vars root cwd ppid pid env) [] []).
  assert (Hc : cm (im s) = MainLaws.one_scope c) by reflexivity.
  pose proof (MainLaws.parse_args_asks args _ (cm (im s)) Ha) as Hp. cbn [MainLaws.wanted_front] in Hp.
  destruct (MainLaws.main_begins w (S d) k args (map (fun sc => Main.TLine (fscript_text sc)) scs ++ [Main.TClosed]) s _ _ c Hp Hc eq_refl Hns)
    as (s1 & Em & Htr & Hi & Hj & Hm).
  set (s2 := Shell (Main.at_prompt (im s1)) (trace s1)).
  assert (A : fagrees [] (fun _ => false) [] fds false 0 (machine_at_start root cwd ppid pid env) s2).
  { apply fagrees_start; [exact He|].
    assert (A1 : agrees [] (fun _ => None) (fun _ => false) [] fds 0 false (at_start root cwd ppid pid env) s1) by (eapply agrees_start; eauto).
    destruct A1. split; assumption. }
  assert (Hps : CoreSpec.vars (core (machine_at_start root cwd ppid pid env)) (lit "PS1") <> None).
  { cbn [machine_at_start core at_start CoreSpec.vars]. destruct (sget (lit "PS1") env); discriminate. }
  destruct (fsession_left w [] _ [] fds code Hsys n d Hd scs Hok 0 _ s2 vs r A Hps E Hv Hl) as (s' & (fs & k' & t1 & Hk1 & L) & K).
  exists s'. split; [eapply agrees_did; [exact Hk1|exact L]|].
  rewrite Em. cbn [MainLaws.goes_on Main.interactive]. rewrite (seq_ok (change Main.at_prompt) _ s1 tt s2 eq_refl).
  eapply gone_mono; [| |exact K]; intros; cbn beta in *; apply MainLaws.loop_session; assumption.
Qed.

(** The same in a file. *)
Theorem C142_functions_file_partial : forall w code n d k args ins root cwd ppid pid env fds file scs vs r, (n <= d)%nat ->
  MainSpec.asks args (MainSpec.Script file []) -> ~ MainSpec.too_many_digits 0 file -> MainSpec.no_startup_files w -> system w [] code ->
  (forall t, r_open (w t) file for_reading = true) ->
  (forall t, r_read (w t) file = Some (List.concat (map (fun sc => fscript_text sc ++ [10%N]) scs))) ->
  NoDup (map fst env) -> (forall x, position x -> sget x env = None) -> table fds -> no_future_pipe fds 0 -> nget 0 fds <> None -> nget 1 fds <> None ->
  Forall (fun sc => sc <> [] /\ Forall (fchain_ok [] (fun _ => false)) sc) scs ->
  Forall (fun sc => ~ In 10%N (fscript_text sc)) scs ->
  frun code n (List.concat scs) (machine_at_start root cwd ppid pid env) = Some (vs, Gone r) -> Forall (allowed code) vs ->
  exists s', did fds (final r) s' /\
    gone w r s' (fun o => Main.main w (S d) (List.length scs + k) args ins (Shell (Main.fresh_image root cwd ppid pid env fds) []) = (o, s')).
Proof.
  intros w code n d k args ins root cwd ppid pid env fds file scs vs r Hd Ha Hdig Hns Hsys Ho Hr Hnd He Ht Hf H0 H1 Hok Hnl E Hv.
  set (s := Shell (Main.fresh_image root cwd ppid pid env fds) []).
  set (c := Context (default_vars root cwd ppid pid env) [] []).
  assert (Hc : cm (im s) = MainLaws.one_scope c) by reflexivity.
  pose proof (MainLaws.parse_args_asks args _ (cm (im s)) Ha) as Hp. cbn [MainLaws.wanted_front MainLaws.store] in Hp.
  destruct (MainLaws.main_begins w (S d) (List.length scs + k) args ins s _ _ c Hp Hc) as (s1 & Em & Htr & Hi & Hj & Hm).
  { cbn [Main.script_name]. apply not_true_is_false. exact Hdig. }
  { exact Hns. }
  set (s2 := PropertiesMain.opened file s1).
  assert (A1 : agrees [] (fun _ => None) (fun _ => false) [] fds 0 false (at_start root cwd ppid pid env) s1) by (eapply agrees_start; eauto).
  assert (Hkept : forall fd, kept (nget fd (Shell.fds (im s2))) = kept (nget fd fds)).
  { intros fd. cbn [s2 PropertiesMain.opened im Shell.fds with_fds]. rewrite Hi. change (Shell.fds (with_cm _ _)) with fds.
    rewrite nget_ninsert by apply Ht. destruct (Z.eqb_spec fd (lowest fds)) as [->|_]; [|reflexivity].
    rewrite (proj2 (lowest_spec fds (proj1 Ht))). reflexivity. }
  assert (A : agrees [] (fun _ => None) (fun _ => false) [] (Shell.fds (im s2)) 0 false (at_start root cwd ppid pid env) s2).
  { assert (Q : sound (im s2)).
    { assert (E2 : sys_open w file for_reading s1 = (OOk (Some (lowest (Shell.fds (im s1)))), s2)).
      { unfold sys_open. rewrite (bind_ok _ _ s1 true s1); [reflexivity|]. unfold ask. rewrite Ho. reflexivity. }
      exact (soundly_open w file for_reading s1 _ s2 E2 (or_introl eq_refl) (ag_fds _ _ _ _ _ _ _ _ _ A1)). }
    destruct A1. split; try assumption; [change (forks (trace s2)) with (forks (trace s1)); rewrite Htr; apply Forall_nil|reflexivity|].
    cbn [s2 PropertiesMain.opened im Shell.fds with_fds]. rewrite Hi. change (Shell.fds (with_cm _ _)) with fds. rewrite !nget_ninsert by apply Ht.
    split; [destruct (0 =? lowest fds); [discriminate|exact H0]|destruct (1 =? lowest fds); [discriminate|exact H1]]. }
  assert (Hcut : PropertiesMain.cut_into (List.concat (map (fun sc => fscript_text sc ++ [10%N]) scs)) (map (fun sc => fscript_text sc ++ [10%N]) scs)).
  { clear -Hnl. induction Hnl as [|l ls H _ IH]; [constructor|]. cbn [map List.concat].
    rewrite <- app_assoc. apply PropertiesMain.cut_line; assumption. }
  destruct (flines_left w [] _ [] (Shell.fds (im s2)) code Hsys n d Hd scs Hok 0 _ s2 vs r (fagrees_start root cwd ppid pid env _ s2 He A) E Hv)
    as (done & l & rest & s3 & s' & K1 & K2 & K3 & (fs & k' & t1 & Hk1 & K4) & K5).
  exists s'. split; [eapply agrees_did; [intros fd; rewrite Hk1; apply Hkept|exact K4]|].
  assert (L : forall o, exec_text w (S d) l s3 = (o, s') -> ~ returns o -> Main.main w (S d) (List.length scs + k) args ins s = (lift o, s')).
  { intros o K6 K7. rewrite Em. cbn [MainLaws.goes_on Main.interactive Main.script_name].
    replace (List.length scs + k)%nat with (List.length done + S (List.length rest + k))%nat.
    2:{ apply (f_equal (@List.length str)) in K1. rewrite map_length, app_length in K1. cbn [List.length] in K1. lia. }
    pose proof (Hr (EOpen file for_reading :: trace s1)) as Hr1. rewrite K1 in Hcut, Hr1.
    exact (PropertiesMain.C55_lines_in_order_partial w (S d) file _ done l rest s1 s3 o s' (conj (Ho _) Hr1) Hcut K2 K3 K6 K7 _). }
  eapply gone_mono; [| |exact K5].
  - intros z Hz. exact (L _ Hz (fun F => F)).
  - intros p a e Hz. exact (L _ Hz (fun F => F)).
Qed.

(** ** Examples *)
Definition ex_quits : fscript :=
  [ once (Do (Assign (lit "X") (Plain (lit "0"))));
    once (Define (lit "die") [once (call "echo" [Dollar (lit "X")]); once (Quit (Exit (Plain (lit "3")))); once (call "never" [])]);
    once (Define (lit "deep") [once (Do (Assign (lit "X") (Plain (lit "2")))); (call "true" [], [(COr, Quit (Exit (Plain (lit "4"))))]); once (call "die" []); once (call "never" [])]);
    (call "false" [], [(COr, call "deep" []); (CAnd, call "never" [])]);
    once (call "never" []) ].
Definition ex_becomes : fscript :=
  [ once (Define (lit "go") [once (call "true" []); once (Quit (Exec (lit "echo") [Dollar (lit "1"); Plain (lit "b")])); once (call "never" [])]);
    once (call "go" [Plain (lit "a")]); once (call "never" []) ].
Lemma ex_quits_ok : Forall (fchain_ok [] (fun _ => false)) ex_quits.
Proof.
  unfold ex_quits, once, call. ok_chains.
  - ok_assign.
  - ok_define. ok_chains; [ok_call| |ok_call]. split; [split; [a_word|reflexivity]|discriminate].
  - ok_define. ok_chains; [ok_assign|ok_call| |ok_call|ok_call]. split; [split; [a_word|reflexivity]|discriminate].
  - ok_call.
  - ok_call.
  - ok_call.
  - ok_call.
Qed.
Lemma ex_becomes_ok : Forall (fchain_ok [] (fun _ => false)) ex_becomes.
Proof.
  unfold ex_becomes, once, call. ok_chains.
  - ok_define. ok_chains; [ok_call| |ok_call]. split; [|discriminate]. split; [a_word|]. split; [left; intros F; cbn in F; intuition discriminate|].
    split; [ok_args|reflexivity].
  - ok_call.
  - ok_call.
Qed.
Definition ex_quit_main (t : str) := Main.main ex_system 5 0 [lit "rsh"; lit "-c"; t] [] (Shell PropertiesMain.ex_fresh []).
Example C142_functions_example :
  fscript_text ex_quits =
    lit " X=0 ; die ( ) { echo $X ; exit 3 ; never ; } ; deep ( ) { X=2 ; true || exit 4 ; die ; never ; } ; false || deep && never ; never" /\
  fscript_text ex_becomes = lit " go ( ) { true ; exec echo $1 b ; never ; } ; go a ; never" /\
  Forall (fchain_ok [] (fun _ => false)) ex_quits /\ Forall (fchain_ok [] (fun _ => false)) ex_becomes /\
  (exists vs m, frun ex_code 2 ex_quits ex_machine = Some (vs, Gone (Exits 3 m)) /\ Forall (allowed ex_code) vs /\
     map argv (started m) = map (map lit) [["false"]; ["true"]; ["echo"; "2"]]%string /\
     programs_of (trace (snd (ex_quit_main (fscript_text ex_quits)))) = started m) /\
  fst (ex_quit_main (fscript_text ex_quits)) = OExit 3 /\
  (exists vs m, frun ex_code 2 ex_becomes ex_machine = Some (vs, Gone (Becomes (map lit ["echo"; "a"; "b"]%string) ex_env m)) /\ Forall (allowed ex_code) vs /\
     map argv (started m) = [[lit "true"]]) /\
  fst (ex_quit_main (fscript_text ex_becomes)) = OExec (lit "/bin/echo") (map lit ["echo"; "a"; "b"]%string) ex_env.
Proof.
  split; [reflexivity|]. split; [reflexivity|]. split; [exact ex_quits_ok|]. split; [exact ex_becomes_ok|]. split.
  { do 2 eexists. split; [vm_compute; reflexivity|]. split; [apply all_allowed; vm_compute; reflexivity|]. vm_compute. split; reflexivity. }
  split; [vm_compute; reflexivity|]. split.
  { do 2 eexists. split; [vm_compute; reflexivity|]. split; [apply all_allowed; vm_compute; reflexivity|]. vm_compute. reflexivity. }
  vm_compute; reflexivity.
Qed.

(** The first one, a line for each command, typed and in a file. *)
Definition ex_quit_lines : list fscript := map (fun l => [l]) ex_quits.
Definition ex_quit_system : os := fun t =>
  let r := ex_system t in
  Reports (r_isfile r) (r_open r) (fun _ => Some (List.concat (map (fun sc => fscript_text sc ++ [10%N]) ex_quit_lines)))
    (r_chdir r) (r_cwd r) (r_kill r) (r_pipe r) (r_fork r) (r_exec r) (r_getpid r) (r_waits r) (r_subst r).
Example C142_functions_lines_example :
  List.concat ex_quit_lines = ex_quits /\ Forall (fun sc => sc <> [] /\ Forall (fchain_ok [] (fun _ => false)) sc) ex_quit_lines /\
  Forall (fun sc => ~ In 10%N (fscript_text sc)) ex_quit_lines /\
  MainSpec.no_startup_files ex_quit_system /\ system ex_quit_system [] ex_code /\ (forall t, r_open (ex_quit_system t) (lit "file") for_reading = true) /\
  (exists vs m, frun ex_code 2 (List.concat ex_quit_lines) ex_machine = Some (vs, Gone (Exits 3 m)) /\ Forall (does_not_unset (lit "PS1")) vs) /\
  fst (Main.main ex_system 5 0 [lit "rsh"] (map (fun sc => Main.TLine (fscript_text sc)) ex_quit_lines ++ [Main.TClosed]) (Shell PropertiesMain.ex_fresh [])) = OExit 3 /\
  fst (Main.main ex_quit_system 5 5 [lit "rsh"; lit "file"] [] (Shell PropertiesMain.ex_fresh [])) = OExit 3.
Proof.
  split; [reflexivity|]. split.
  { unfold ex_quit_lines. apply Forall_map. eapply Forall_impl; [|exact ex_quits_ok]. intros l Hl. split; [discriminate|]. apply Forall_cons; [exact Hl|apply Forall_nil]. }
  split; [repeat (apply Forall_cons; [intros F; vm_compute in F; intuition discriminate|]); apply Forall_nil|].
  split; [intros t; split; reflexivity|]. split; [destruct ex_system_ok; split; first [assumption|discriminate]|].
  split; [reflexivity|]. split.
  { do 2 eexists. split; [vm_compute; reflexivity|]. repeat (apply Forall_cons; [discriminate|]); apply Forall_nil. }
  split; vm_compute; reflexivity.
Qed.

(** The same from within a file that is read: it is still open then, but no program sees it. *)
Definition ex_quit_file : fscript :=
  [ once (call "echo" [Dollar (lit "X")]); (call "false" [], [(COr, Quit (Exec (lit "ls") [Plain (lit "b")]))]); once (call "never" []) ].
Definition ex_quit_code : world :=
  World ex_code (reachable ex_code) (fun f => if str_eqb f (lit "/lib") then Some (fscript_text ex_quit_file ++ [10%N]) else None).
Definition ex_quit_source_system : os := fun t =>
  let r := ex_system t in
  Reports (r_isfile r) (r_open r) (contents ex_quit_code) (r_chdir r) (r_cwd r) (r_kill r) (r_pipe r) (r_fork r) (r_exec r) (r_getpid r) (r_waits r) (r_subst r).
Definition ex_quit_source : fscript :=
  [ once (Do (Assign (lit "X") (Plain (lit "0"))));
    once (Define (lit "go") [(Source (lit "/lib") ex_quit_file, [(CAnd, call "never" [])])]);
    once (call "go" []); once (call "never" []) ].
Example C142_source_example :
  fscript_text ex_quit_source = lit " X=0 ; go ( ) { . /lib && never ; } ; go ; never" /\
  contents ex_quit_code (lit "/lib") = Some (lit " echo $X ; false || exec ls b ; never" ++ [10%N]) /\
  MainSpec.no_startup_files ex_quit_source_system /\ system ex_quit_source_system [] ex_quit_code /\ Forall (fchain_ok [] (fun _ => false)) ex_quit_source /\
  let r := Main.main ex_quit_source_system 5 0 [lit "rsh"; lit "-c"; fscript_text ex_quit_source] [] (Shell PropertiesMain.ex_fresh []) in
  (exists vs m, frun ex_quit_code 2 ex_quit_source ex_machine = Some (vs, Gone (Becomes (map lit ["ls"; "b"]%string) ex_env m)) /\ Forall (allowed ex_quit_code) vs /\
     map argv (started m) = map (map lit) [["echo"; "0"]; ["false"]]%string /\ programs_of (trace (snd r)) = started m) /\
  fst r = OExec (lit "/bin/ls") (map lit ["ls"; "b"]%string) ex_env /\
  Shell.fds (im (snd r)) <> PropertiesMain.ex_fds /\ after_exec (Shell.fds (im (snd r))) = PropertiesMain.ex_fds.
Proof.
  split; [reflexivity|]. split; [reflexivity|]. split; [intros t; split; reflexivity|].
  split; [destruct ex_system_ok as [S1 S2 S3 S4 S5]; split; [exact S1|exact S2|exact S3|exact S4|]; intros f text t E; split; [|exact E];
    cbn [contents ex_quit_code] in E; destruct (str_eqb f (lit "/lib")) eqn:E1; [apply str_eqb_eq in E1; subst f; reflexivity|discriminate]|].
  split.
  { unfold ex_quit_source, once, call. ok_chains; [ok_assign| |ok_call|ok_call].
    ok_define. ok_chains; [|ok_call]. ok_source. unfold ex_quit_file, once, call. ok_chains; [ok_call|ok_call| |ok_call].
    split; [|discriminate]. split; [a_word|]. split; [left; intros F; cbn in F; intuition discriminate|]. split; [ok_args|reflexivity]. }
  cbv zeta. split.
  { do 2 eexists. split; [vm_compute; reflexivity|]. split; [apply all_allowed; vm_compute; reflexivity|]. vm_compute. split; reflexivity. }
  split; [vm_compute; reflexivity|]. split; vm_compute; [discriminate|reflexivity].
Qed.
(** And from within [eval]. *)
Definition ex_quit_eval : fscript :=
  [ once (Do (Assign (lit "X") (Plain (lit "0"))));
    once (Define (lit "go") [(EvalText [once (call "echo" [Dollar (lit "1")]); (call "false" [], [(COr, Quit (Exit (Plain (lit "7"))))])], [(CAnd, call "never" [])])]);
    once (call "go" [Plain (lit "a")]); once (call "never" []) ].
Example C142_eval_example :
  fscript_text ex_quit_eval = lit " X=0 ; go ( ) { eval ' echo $1 ; false || exit 7' && never ; } ; go a ; never" /\
  Forall (fchain_ok [] (fun _ => false)) ex_quit_eval /\
  let r := Main.main ex_system 5 0 [lit "rsh"; lit "-c"; fscript_text ex_quit_eval] [] (Shell PropertiesMain.ex_fresh []) in
  (exists vs m, frun ex_code 2 ex_quit_eval ex_machine = Some (vs, Gone (Exits 7 m)) /\ Forall (allowed ex_code) vs /\
     map argv (started m) = map (map lit) [["echo"; "a"]; ["false"]]%string /\ programs_of (trace (snd r)) = started m) /\
  fst r = OExit 7.
Proof.
  split; [reflexivity|]. split.
  { unfold ex_quit_eval, once, call. ok_chains; [ok_assign| |ok_call|ok_call].
    ok_define. ok_chains; [|ok_call]. ok_eval. ok_chains; [ok_call|ok_call|].
    split; [|discriminate]. split; [a_word|reflexivity]. }
  cbv zeta. split; [|vm_compute; reflexivity].
  do 2 eexists. split; [vm_compute; reflexivity|]. split; [apply all_allowed; vm_compute; reflexivity|]. vm_compute. split; reflexivity.
Qed.

Print Assumptions C142_functions_partial.
Print Assumptions C142_functions_dash_c_partial.
Print Assumptions C142_functions_typed_partial.
Print Assumptions C142_functions_file_partial.
Print Assumptions C142_functions_example.
Print Assumptions C142_functions_lines_example.
Print Assumptions C142_source_example.
Print Assumptions C142_eval_example.
