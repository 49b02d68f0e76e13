(** Properties C80 and C125: startup files in the core language. *)
From Verif Require Import Base BaseFacts Lexer LexerSpec Ast Parser GrammarSpec.
From Verif Require Import Context Alias Expand ExpandSpec Jobs JobsSpec Shell Builtins Eval.
From Verif Require Import EvalSpec EvalFacts EvalLaws EvalKeeps RunSpec RunLaws PipeSpec.
From Verif Require MainSpec Main MainLaws PropertiesMain PropertiesSession PropertiesBuiltins.
From Verif Require Import EvalFds.
From Verif Require Import CoreSpec CoreExitSpec CoreFunSpec PropertiesCore PropertiesCoreExit PropertiesCoreFun PropertiesCoreQuit.
Local Open Scope Z_scope.

(** The startup file [file] is not there and [scs] is empty, or its lines are the
    scripts [scs]. *)
Definition startup (w : os) (code : world) (file : str) (scs : list fscript) : Prop :=
  match scs with
  | [] => forall t, r_open (w t) file for_reading = false
  | _ => contents code file = Some (file_text scs)
  end.

Section Startup.
Context (w : os) (aliases_ : aliases) (readonly : str -> bool) (old : nmap job) (t0 : fdtable) (code : world).
Context (Hsys : system w old code) (n d : nat) (Hd : (n <= d)%nat).
Notation fchain_ok := (fchain_ok aliases_ readonly).

Lemma agrees_unmasked fs k ap m s path t1 : agrees aliases_ fs readonly old t1 k ap m (file_opened path s) ->
  agrees aliases_ fs readonly old t1 k ap m (PropertiesMain.opened path s).
Proof. intros []. split; assumption. Qed.

Lemma startup_agrees file scs st0 fm s vs st fm' : fagrees aliases_ readonly old t0 false 0 fm s -> startup w code file scs ->
  Forall (fun sc => sc <> [] /\ Forall fchain_ok sc) scs -> frun_script (fstep code n 0) (List.concat scs) st0 fm = Some (vs, Goes st fm') -> Forall (allowed code) vs ->
  exists s', Main.read_startup w (S d) file s = (OOk tt, s') /\ fagrees aliases_ readonly old t0 false 0 fm' s'.
Proof.
  intros A Hs Hok E Hv. destruct scs as [|sc scs].
  - cbn [List.concat frun_script] in E. injection E as <- <- <-. exists s. split; [|exact A]. apply MainLaws.startup_none, Hs.
  - unfold startup in Hs. set (all := sc :: scs) in *.
    assert (Hne : Forall (fun sc => sc <> []) all) by (eapply Forall_impl; [|exact Hok]; intros x Hx; apply Hx).
    assert (Hall : Forall fchain_ok (List.concat all)) by (apply Forall_concat; eapply Forall_impl; [|exact Hok]; intros x Hx; apply Hx).
    assert (Hc : List.concat all <> []) by (inversion_clear Hne; cbn [all List.concat]; destruct sc; [congruence|discriminate]).
    pose proof (file_parses aliases_ readonly all Hne Hc Hall) as P2. destruct (fscript_parses aliases_ readonly _ Hall Hc) as [P1 _].
    pose proof (sys_files w old code Hsys file _ (trace s) Hs) as [F1 _].
    pose proof (sys_files w old code Hsys file _ (EOpen file for_reading :: trace s) Hs) as [_ F2].
    destruct A as [A Hb Hp]. destruct (agrees_opened aliases_ readonly old t0 _ 0 false _ s file A) as [A1 _].
    destruct (run_line w aliases_ readonly old (fds (im (file_opened file s))) code Hsys n d Hd (List.concat all) st0 fm (PropertiesMain.opened file s) vs st fm')
      as (s2 & R1 & [R2 R3 R4]); auto.
    { split; [apply agrees_unmasked; exact A1|exact Hb|exact Hp]. }
    exists (PropertiesSession.closed (lowest (fds (im s))) s2). split.
    + rewrite (PropertiesSession.startup_some w (S d) file (file_text all) s (OOk st) s2 (conj F1 F2)); [reflexivity|rewrite P2; discriminate|].
      unfold exec_text in R1 |- *. rewrite P2. rewrite P1 in R1. exact R1.
    + split; [|exact R3|exact R4]. exact (agrees_closed aliases_ readonly old t0 _ 0 false _ s file _ _ s2 A R2).
Qed.
Lemma both_agree rc profile fm s vs st fm' : fagrees aliases_ readonly old t0 false 0 fm s ->
  startup w code (lit "~/.rshrc") rc -> startup w code (lit "~/.profile") profile ->
  Forall (fun sc => sc <> [] /\ Forall fchain_ok sc) (rc ++ profile) ->
  frun code n (List.concat (rc ++ profile)) fm = Some (vs, Goes st fm') -> Forall (allowed code) vs ->
  exists s', (Main.read_startup w (S d) (lit "~/.rshrc") ;; Main.read_startup w (S d) (lit "~/.profile")) s = (OOk tt, s') /\ fagrees aliases_ readonly old t0 false 0 fm' s'.
Proof.
  intros A H1 H2 Hok E Hv. apply Forall_app in Hok. destruct Hok as [Hok1 Hok2].
  unfold frun in E. rewrite concat_app, frun_script_app in E. apply followed_some in E. destruct E as (v1 & st1 & fm1 & v2 & E1 & E2 & ->).
  apply Forall_app in Hv. destruct Hv as [Hv1 Hv2].
  destruct (startup_agrees _ rc 0 fm s v1 st1 fm1 A H1 Hok1 E1 Hv1) as (s1 & R1 & A1).
  destruct (startup_agrees _ profile st1 fm1 s1 v2 st fm' A1 H2 Hok2 E2 Hv2) as (s2 & R2 & A2).
  exists s2. split; [|exact A2]. rewrite (seq_ok _ _ s tt s1 R1). exact R2.
Qed.
(** A startup file that leaves the shell. *)
Lemma startup_left file scs st0 fm s vs r : fagrees aliases_ readonly old t0 false 0 fm s -> startup w code file scs ->
  Forall (fun sc => sc <> [] /\ Forall fchain_ok sc) scs -> frun_script (fstep code n 0) (List.concat scs) st0 fm = Some (vs, Gone r) -> Forall (allowed code) vs ->
  exists s', last_state aliases_ readonly old t0 false r s' /\ gone w r s' (fun o => Main.read_startup w (S d) file s = (o, s')).
Proof.
  intros A Hs Hok E Hv. destruct scs as [|sc scs]; [discriminate|].
  unfold startup in Hs. set (all := sc :: scs) in *.
  assert (Hne : Forall (fun sc => sc <> []) all) by (eapply Forall_impl; [|exact Hok]; intros x Hx; apply Hx).
  assert (Hall : Forall fchain_ok (List.concat all)) by (apply Forall_concat; eapply Forall_impl; [|exact Hok]; intros x Hx; apply Hx).
  assert (Hc : List.concat all <> []) by (inversion_clear Hne; cbn [all List.concat]; destruct sc; [congruence|discriminate]).
  pose proof (file_parses aliases_ readonly all Hne Hc Hall) as P2. destruct (fscript_parses aliases_ readonly _ Hall Hc) as [P1 _].
  pose proof (sys_files w old code Hsys file _ (trace s) Hs) as [F1 _].
  pose proof (sys_files w old code Hsys file _ (EOpen file for_reading :: trace s) Hs) as [_ F2].
  destruct A as [A Hb Hp]. destruct (agrees_opened aliases_ readonly old t0 _ 0 false _ s file A) as [A1 K1].
  destruct (script_left w aliases_ readonly old (fds (im (file_opened file s))) code Hsys n d Hd (List.concat all) st0 fm (PropertiesMain.opened file s) vs r)
    as (s2 & (fs & k' & t1 & Hk & L) & K); auto.
  { split; [apply agrees_unmasked; exact A1|exact Hb|exact Hp]. }
  exists s2. split.
  - exists fs, k', t1. split; [|exact L]. intros fd. rewrite Hk. apply K1.
  - unfold exec_text in K. rewrite P1 in K.
    eapply gone_mono; [| |exact K]; intros; cbn beta in *; (erewrite (PropertiesSession.startup_some w (S d) file (file_text all) s _ s2 (conj F1 F2));
      [|rewrite P2; discriminate|unfold exec_text; rewrite P2; eassumption]); reflexivity.
Qed.
Lemma both_left {A} rc profile fm s vs r (g : M A) : fagrees aliases_ readonly old t0 false 0 fm s ->
  startup w code (lit "~/.rshrc") rc -> startup w code (lit "~/.profile") profile ->
  Forall (fun sc => sc <> [] /\ Forall fchain_ok sc) (rc ++ profile) ->
  frun_script (fstep code n 0) (List.concat (rc ++ profile)) 0 fm = Some (vs, Gone r) -> Forall (allowed code) vs ->
  exists s', last_state aliases_ readonly old t0 false r s' /\
    gone w r s' (fun o => (Main.read_startup w (S d) (lit "~/.rshrc") ;; Main.read_startup w (S d) (lit "~/.profile") ;; g) s = (o, s')).
Proof.
  intros Ag H1 H2 Hok E Hv. apply Forall_app in Hok. destruct Hok as [Hok1 Hok2].
  rewrite concat_app, frun_script_app in E. apply followed_gone in E. destruct E as [E|(v1 & st1 & fm1 & v2 & E1 & E2 & ->)].
  - destruct (startup_left _ rc 0 fm s vs r Ag H1 Hok1 E Hv) as (s' & L & K). exists s'. split; [exact L|].
    eapply gone_mono; [| |exact K]; intros; cbn beta in *; (erewrite seq_fails; [|eassumption|exact I]); reflexivity.
  - apply Forall_app in Hv. destruct Hv as [Hv1 Hv2].
    destruct (startup_agrees _ rc 0 fm s v1 st1 fm1 Ag H1 Hok1 E1 Hv1) as (s1 & R1 & A1).
    destruct (startup_left _ profile st1 fm1 s1 v2 r A1 H2 Hok2 E2 Hv2) as (s' & L & K). exists s'. split; [exact L|].
    rewrite (seq_ok _ _ s tt s1 R1).
    eapply gone_mono; [| |exact K]; intros; cbn beta in *; (erewrite seq_fails; [|eassumption|exact I]); reflexivity.
Qed.
End Startup.

Lemma seq_assoc {A} (a b : M unit) (c : M A) s : (a ;; b ;; c) s = ((a ;; b) ;; c) s.
Proof. unfold seq, bind. destruct (a s) as [[| | | | | | ] s1]; reflexivity. Qed.

(** A session at the prompt of a shell with startup files, ended with the end of the
    input: it does what the lines of [~/.rshrc], those of [~/.profile] and those that
    are typed do, one after the other, as one script.  What the files define (variables
    and functions) is there at the prompt, and the files are closed again. *)
Theorem C80_core_partial : forall w code n d k args root cwd ppid pid env fds rc profile scs vs st fm', (n <= d)%nat ->
  MainSpec.asks args MainSpec.Prompt -> system w [] code ->
  startup w code (lit "~/.rshrc") rc -> startup w code (lit "~/.profile") profile ->
  NoDup (map fst env) -> (forall x, position x -> sget x env = None) -> table fds -> no_future_pipe fds 0 -> nget 0 fds <> None -> nget 1 fds <> None ->
  Forall (fun sc => sc <> [] /\ Forall (fchain_ok [] (fun _ => false)) sc) ((rc ++ profile) ++ scs) ->
  frun code n (List.concat ((rc ++ profile) ++ scs)) (machine_at_start root cwd ppid pid env) = Some (vs, Goes st fm') ->
  Forall (allowed code) vs -> Forall (does_not_unset (lit "PS1")) vs ->
  exists s', Main.main w (S d) k args (map (fun sc => Main.TLine (fscript_text sc)) scs ++ [Main.TClosed])
      (Shell (Main.fresh_image root cwd ppid pid env fds) []) = (OOk tt, s') /\
    programs_of (trace s') = started (core fm') /\ directories (trace s') = visited (core fm') /\ Forall (executes fds) (forks (trace s')) /\ linked (forks (trace s')) /\
    (forall fd, nget fd (Shell.fds (im s')) = nget fd fds) /\
    Shell.env (im s') = environment (core fm') /\ forall x, identifier x -> expand_var (cm (im s')) x = CoreSpec.vars (core fm') x.
Proof.
  intros w code n d k args root cwd ppid pid env fds rc profile scs vs st fm' Hd Ha Hsys Hrc Hpro Hnd He Ht Hf H0 H1 Hok E Hv Hl.
  set (s := Shell (Main.fresh_image root cwd ppid pid env fds) []).
  set (c := Context (default_vars root cwd ppid pid env) [] []).
  assert (Hc : cm (im s) = MainLaws.one_scope c) by reflexivity.
  pose proof (MainLaws.parse_args_asks args _ (cm (im s)) Ha) as Hp. cbn [MainLaws.wanted_front] in Hp.
  destruct (PropertiesSession.main_starts w (S d) k args (map (fun sc => Main.TLine (fscript_text sc)) scs ++ [Main.TClosed]) s _ _ c Hp Hc eq_refl)
    as (s1 & Em & Htr & Hi & Hj & Hm & _).
  assert (A : fagrees [] (fun _ => false) [] fds false 0 (machine_at_start root cwd ppid pid env) s1).
  { apply fagrees_start; [exact He|]. eapply agrees_start; eauto. }
  apply Forall_app in Hok. destruct Hok as [Hok1 Hok2].
  unfold frun in E. rewrite concat_app, frun_script_app in E. apply followed_some in E. destruct E as (v1 & st1 & fm1 & v2 & E1 & E2 & ->).
  apply Forall_app in Hv. destruct Hv as [Hv1 Hv2]. apply Forall_app in Hl. destruct Hl as [Hl1 Hl2].
  destruct (both_agree w [] _ [] fds code Hsys n d Hd rc profile _ s1 v1 st1 fm1 A Hrc Hpro Hok1 E1 Hv1) as (s2 & R & A2).
  assert (Hps : CoreSpec.vars (core (machine_at_start root cwd ppid pid env)) (lit "PS1") <> None).
  { cbn [machine_at_start core at_start CoreSpec.vars]. destruct (sget (lit "PS1") env); discriminate. }
  pose proof (script_set (lit "PS1") _ _ (fstep_set code (lit "PS1") eq_refl n 0) _ _ _ _ _ E1 Hl1 Hps) as Hps1.
  set (s3 := Shell (Main.at_prompt (im s2)) (trace s2)).
  assert (A3 : fagrees [] (fun _ => false) [] fds false 0 fm1 s3) by (destruct A2 as [[] B2 B3]; split; [split; assumption|assumption..]).
  destruct (fsession_agrees w [] _ [] fds code Hsys n d Hd scs Hok2 st1 _ s3 v2 st fm' A3 Hps1 E2 Hv2 Hl2) as (s' & Hs & [A' _ _]).
  exists s'. split; [|split; [exact (ag_started _ _ _ _ _ _ _ _ _ A')|split; [exact (ag_visited _ _ _ _ _ _ _ _ _ A')|split; [exact (ag_executes _ _ _ _ _ _ _ _ _ A')|split; [exact (ag_linked _ _ _ _ _ _ _ _ _ A')|split; [exact (ag_files _ _ _ _ _ _ _ _ _ A')|split; [exact (ag_env _ _ _ _ _ _ _ _ _ A')|]]]]]]].
  - rewrite Em, seq_assoc, (seq_ok _ _ s1 tt s2 R). cbn [MainLaws.goes_on Main.interactive]. rewrite (seq_ok (change Main.at_prompt) _ s2 tt s3 eq_refl).
    apply MainLaws.loop_session. exact Hs.
  - intros x Hx. unfold expand_var. rewrite (ag_vars _ _ _ _ _ _ _ _ _ A' x Hx). destruct (CoreSpec.vars (core fm') x); reflexivity.
Qed.

(** [rsh -c script] reads the startup files as well. *)
Theorem C80_core_dash_c_partial : forall w code n d k args ins root cwd ppid pid env fds rc profile sc vs st fm', (n <= d)%nat ->
  MainSpec.asks args (MainSpec.Commands (fscript_text sc)) -> system w [] code ->
  startup w code (lit "~/.rshrc") rc -> startup w code (lit "~/.profile") profile ->
  NoDup (map fst env) -> (forall x, position x -> sget x env = None) -> table fds -> no_future_pipe fds 0 -> nget 0 fds <> None -> nget 1 fds <> None ->
  Forall (fun sc => sc <> [] /\ Forall (fchain_ok [] (fun _ => false)) sc) (rc ++ profile) ->
  Forall (fchain_ok [] (fun _ => false)) sc -> sc <> [] ->
  frun code n (List.concat (rc ++ profile) ++ sc) (machine_at_start root cwd ppid pid env) = Some (vs, Goes st fm') -> Forall (allowed code) vs ->
  exists s', Main.main w (S d) k args ins (Shell (Main.fresh_image root cwd ppid pid env fds) []) = (OOk tt, s') /\
    programs_of (trace s') = started (core fm') /\ directories (trace s') = visited (core fm') /\ Forall (executes fds) (forks (trace s')) /\ linked (forks (trace s')) /\
    (forall fd, nget fd (Shell.fds (im s')) = nget fd fds) /\
    Shell.env (im s') = environment (core fm') /\ forall x, identifier x -> expand_var (cm (im s')) x = CoreSpec.vars (core fm') x.
Proof.
  intros w code n d k args ins root cwd ppid pid env fds rc profile sc vs st fm' Hd Ha Hsys Hrc Hpro Hnd He Ht Hf H0 H1 Hok1 Hok2 Hne E Hv.
  set (s := Shell (Main.fresh_image root cwd ppid pid env fds) []).
  set (c := Context (default_vars root cwd ppid pid env) [] []).
  assert (Hc : cm (im s) = MainLaws.one_scope c) by reflexivity.
  destruct (MainLaws.parse_args_asks args _ (cm (im s)) Ha) as [out Hp].
  destruct (PropertiesSession.main_starts w (S d) k args ins s _ _ c Hp Hc eq_refl) as (s1 & Em & Htr & Hi & Hj & Hm & _).
  assert (A : fagrees [] (fun _ => false) [] fds false 0 (machine_at_start root cwd ppid pid env) s1).
  { apply fagrees_start; [exact He|]. eapply agrees_start; eauto. }
  unfold frun in E. rewrite frun_script_app in E. apply followed_some in E. destruct E as (v1 & st1 & fm1 & v2 & E1 & E2 & ->).
  apply Forall_app in Hv. destruct Hv as [Hv1 Hv2].
  destruct (both_agree w [] _ [] fds code Hsys n d Hd rc profile _ s1 v1 st1 fm1 A Hrc Hpro Hok1 E1 Hv1) as (s2 & R & A2).
  destruct (run_line w [] _ [] fds code Hsys n d Hd sc st1 fm1 s2 v2 st fm' A2 Hok2 Hne E2 Hv2) as (s' & Ex & [A' _ _]).
  exists s'. split; [|split; [exact (ag_started _ _ _ _ _ _ _ _ _ A')|split; [exact (ag_visited _ _ _ _ _ _ _ _ _ A')|split; [exact (ag_executes _ _ _ _ _ _ _ _ _ A')|split; [exact (ag_linked _ _ _ _ _ _ _ _ _ A')|split; [exact (ag_files _ _ _ _ _ _ _ _ _ A')|split; [exact (ag_env _ _ _ _ _ _ _ _ _ A')|]]]]]]].
  - rewrite Em, seq_assoc, (seq_ok _ _ s1 tt s2 R). cbn [MainLaws.goes_on]. unfold Main.read_from_args. unfold exec_text in Ex.
    destruct (parse (fscript_text sc)) as [cc|]; [|discriminate].
    rewrite (bind_ok (unwrap (Some cc)) _ s2 cc s2 eq_refl). rewrite MainLaws.drop_error, Ex. reflexivity.
  - intros x Hx. unfold expand_var. rewrite (ag_vars _ _ _ _ _ _ _ _ _ A' x Hx). destruct (CoreSpec.vars (core fm') x); reflexivity.
Qed.

(** The same for sessions that are left by [exit] or [exec], in a startup file or at the
    prompt. *)
Theorem C80_left_partial : forall w code n d k args root cwd ppid pid env fds rc profile scs vs r, (n <= d)%nat ->
  MainSpec.asks args MainSpec.Prompt -> system w [] code ->
  startup w code (lit "~/.rshrc") rc -> startup w code (lit "~/.profile") profile ->
  NoDup (map fst env) -> (forall x, position x -> sget x env = None) -> table fds -> no_future_pipe fds 0 -> nget 0 fds <> None -> nget 1 fds <> None ->
  Forall (fun sc => sc <> [] /\ Forall (fchain_ok [] (fun _ => false)) sc) ((rc ++ profile) ++ scs) ->
  frun code n (List.concat ((rc ++ profile) ++ scs)) (machine_at_start root cwd ppid pid env) = Some (vs, Gone r) ->
  Forall (allowed code) vs -> Forall (does_not_unset (lit "PS1")) vs ->
  exists s', did fds (final r) s' /\
    gone w r s' (fun o => Main.main w (S d) k args (map (fun sc => Main.TLine (fscript_text sc)) scs ++ [Main.TClosed])
      (Shell (Main.fresh_image root cwd ppid pid env fds) []) = (o, s')).
Proof.
  intros w code n d k args root cwd ppid pid env fds rc profile scs vs r Hd Ha Hsys Hrc Hpro Hnd He Ht Hf H0 H1 Hok E Hv Hl.
  set (s := Shell (Main.fresh_image root cwd ppid pid env fds) []).
  set (c := Context (default_vars root cwd ppid pid env) [] []).
  assert (Hc : cm (im s) = MainLaws.one_scope c) by reflexivity.
  pose proof (MainLaws.parse_args_asks args _ (cm (im s)) Ha) as Hp. cbn [MainLaws.wanted_front] in Hp.
  destruct (PropertiesSession.main_starts w (S d) k args (map (fun sc => Main.TLine (fscript_text sc)) scs ++ [Main.TClosed]) s _ _ c Hp Hc eq_refl)
    as (s1 & Em & Htr & Hi & Hj & Hm & _).
  assert (A : fagrees [] (fun _ => false) [] fds false 0 (machine_at_start root cwd ppid pid env) s1).
  { apply fagrees_start; [exact He|]. eapply agrees_start; eauto. }
  apply Forall_app in Hok. destruct Hok as [Hok1 Hok2].
  unfold frun in E. rewrite concat_app, frun_script_app in E. apply followed_gone in E. destruct E as [E|(v1 & st1 & fm1 & v2 & E1 & E2 & ->)].
  - match type of Em with _ = (_ ;; _ ;; ?g) _ =>
      destruct (both_left w [] _ [] fds code Hsys n d Hd rc profile _ s1 vs r g A Hrc Hpro Hok1 E Hv) as (s' & (fs & k' & t1 & Hk1 & L) & K) end.
    exists s'. split; [eapply agrees_did; [exact Hk1|exact L]|]. rewrite Em. exact K.
  - apply Forall_app in Hv. destruct Hv as [Hv1 Hv2]. apply Forall_app in Hl. destruct Hl as [Hl1 Hl2].
    destruct (both_agree w [] _ [] fds code Hsys n d Hd rc profile _ s1 v1 st1 fm1 A Hrc Hpro Hok1 E1 Hv1) as (s2 & R & A2).
    assert (Hps : CoreSpec.vars (core (machine_at_start root cwd ppid pid env)) (lit "PS1") <> None).
    { cbn [machine_at_start core at_start CoreSpec.vars]. destruct (sget (lit "PS1") env); discriminate. }
    pose proof (script_set (lit "PS1") _ _ (fstep_set code (lit "PS1") eq_refl n 0) _ _ _ _ _ E1 Hl1 Hps) as Hps1.
    set (s3 := Shell (Main.at_prompt (im s2)) (trace s2)).
    assert (A3 : fagrees [] (fun _ => false) [] fds false 0 fm1 s3) by (destruct A2 as [[] B2 B3]; split; [split; assumption|assumption..]).
    destruct (fsession_left w [] _ [] fds code Hsys n d Hd scs Hok2 st1 _ s3 v2 r A3 Hps1 E2 Hv2 Hl2) as (s' & (fs & k' & t1 & Hk1 & L) & K).
    exists s'. split; [eapply agrees_did; [exact Hk1|exact L]|].
    rewrite Em, seq_assoc, (seq_ok _ _ s1 tt s2 R). cbn [MainLaws.goes_on Main.interactive]. rewrite (seq_ok (change Main.at_prompt) _ s2 tt s3 eq_refl).
    eapply gone_mono; [| |exact K]; intros; cbn beta in *; apply MainLaws.loop_session; assumption.
Qed.

(** [~/.rshrc] defines a function, [~/.profile] reads [/lib], which defines it again. *)
Definition ex_rc : list fscript :=
  [ [once (Do (Assign (lit "X") (Plain (lit "0")))); (call "false" [], [(COr, call "true" [])])];
    [once (Define (lit "more") [once (call "echo" [Dollar (lit "1"); Dollar (lit "X")])])] ].
Definition ex_profile : list fscript := [ [once (Source (lit "/lib") ex_lib)] ].
Definition ex_typed : list fscript := [ [(call "more" [Plain (lit "a")], [(CAnd, call "inc" [Plain (lit "b")])])]; [once (call "more" [Plain (lit "c")])] ].
Definition ex_rc_code : world :=
  World ex_code (reachable ex_code) (fun f => if str_eqb f (lit "~/.rshrc") then Some (file_text ex_rc)
    else if str_eqb f (lit "~/.profile") then Some (file_text ex_profile)
    else if str_eqb f (lit "/lib") then Some (file_text (map (fun l => [l]) ex_lib)) else None).
Definition ex_rc_system : os := fun t =>
  let r := ex_system t in
  Reports (r_isfile r) (fun f _ => match contents ex_rc_code f with Some _ => true | None => false end) (contents ex_rc_code) (r_chdir r) (r_cwd r) (r_kill r) (r_pipe r) (r_fork r) (r_exec r) (r_getpid r) (r_waits r) (r_subst r).
Lemma ex_rc_system_ok : system ex_rc_system [] ex_rc_code.
Proof.
  destruct ex_system_ok as [S1 S2 S3 S4 S5]. split; [exact S1|exact S2|exact S3|exact S4|].
  intros f text t E. split; [|exact E]. unfold ex_rc_system. cbn [r_open]. rewrite E. reflexivity.
Qed.
Lemma ex_rc_ok : Forall (fun sc => sc <> [] /\ Forall (fchain_ok [] (fun _ => false)) sc) ((ex_rc ++ ex_profile) ++ ex_typed).
Proof.
  unfold ex_rc, ex_profile, ex_typed, once, call. cbn [app]. repeat (apply Forall_cons; [split; [discriminate|]|]); [..|constructor]; ok_chains.
  1: ok_assign.
  3: { ok_define. ok_chains. ok_call. }
  3: { ok_source. exact ex_lib_ok. }
  all: ok_call.
Qed.
Example C80_core_example :
  contents ex_rc_code (lit "~/.rshrc") = Some (lit " X=0 ; false || true" ++ [10%N] ++ lit " more ( ) { echo $1 $X ; }" ++ [10%N]) /\
  contents ex_rc_code (lit "~/.profile") = Some (lit " . /lib" ++ [10%N]) /\
  system ex_rc_system [] ex_rc_code /\ startup ex_rc_system ex_rc_code (lit "~/.rshrc") ex_rc /\ startup ex_rc_system ex_rc_code (lit "~/.profile") ex_profile /\
  Forall (fun sc => sc <> [] /\ Forall (fchain_ok [] (fun _ => false)) sc) ((ex_rc ++ ex_profile) ++ ex_typed) /\
  let s' := snd (Main.main ex_rc_system 5 0 [lit "rsh"] (map (fun sc => Main.TLine (fscript_text sc)) ex_typed ++ [Main.TClosed]) (Shell PropertiesMain.ex_fresh [])) in
  exists vs fm', frun ex_rc_code 3 (List.concat ((ex_rc ++ ex_profile) ++ ex_typed)) ex_machine = Some (vs, Goes 0 fm') /\
    Forall (allowed ex_rc_code) vs /\ Forall (does_not_unset (lit "PS1")) vs /\
    map argv (started (core fm')) = map (map lit) [["false"]; ["true"]; ["echo"; "a"; "1"]; ["echo"; "b"; "1"]; ["echo"; "c"; "2"]]%string /\
    programs_of (trace s') = started (core fm') /\ Shell.fds (im s') = PropertiesMain.ex_fds.
Proof.
  split; [reflexivity|]. split; [reflexivity|]. split; [exact ex_rc_system_ok|]. split; [reflexivity|]. split; [reflexivity|]. split; [exact ex_rc_ok|].
  cbv zeta. do 2 eexists. split; [vm_compute; reflexivity|]. split; [apply all_allowed; vm_compute; reflexivity|].
  split; [repeat (constructor; [intros F; discriminate F|]); constructor|]. vm_compute. repeat split.
Qed.

(** [~/.profile] ends the shell from within functions of [~/.rshrc]; what is typed is
    not read. *)
Definition ex_quit_rc : list fscript := firstn 3 ex_quit_lines.
Definition ex_quit_profile : list fscript := firstn 1 (skipn 3 ex_quit_lines).
Definition ex_quit_rest : list fscript := skipn 4 ex_quit_lines.
Definition ex_quit_rc_code : world :=
  World ex_code (reachable ex_code) (fun f => if str_eqb f (lit "~/.rshrc") then Some (file_text ex_quit_rc)
    else if str_eqb f (lit "~/.profile") then Some (file_text ex_quit_profile) else None).
Definition ex_quit_rc_system : os := fun t =>
  let r := ex_system t in
  Reports (r_isfile r) (fun f _ => match contents ex_quit_rc_code f with Some _ => true | None => false end) (contents ex_quit_rc_code) (r_chdir r) (r_cwd r) (r_kill r) (r_pipe r) (r_fork r) (r_exec r) (r_getpid r) (r_waits r) (r_subst r).
Lemma ex_quit_rc_system_ok : system ex_quit_rc_system [] ex_quit_rc_code.
Proof.
  destruct ex_system_ok as [S1 S2 S3 S4 S5]. split; [exact S1|exact S2|exact S3|exact S4|].
  intros f text t E. split; [|exact E]. unfold ex_quit_rc_system. cbn [r_open]. rewrite E. reflexivity.
Qed.
Example C80_left_example :
  List.concat ((ex_quit_rc ++ ex_quit_profile) ++ ex_quit_rest) = ex_quits /\
  contents ex_quit_rc_code (lit "~/.profile") = Some (lit " false || deep && never" ++ [10%N]) /\
  system ex_quit_rc_system [] ex_quit_rc_code /\ startup ex_quit_rc_system ex_quit_rc_code (lit "~/.rshrc") ex_quit_rc /\
  startup ex_quit_rc_system ex_quit_rc_code (lit "~/.profile") ex_quit_profile /\
  Forall (fun sc => sc <> [] /\ Forall (fchain_ok [] (fun _ => false)) sc) ((ex_quit_rc ++ ex_quit_profile) ++ ex_quit_rest) /\
  let r := Main.main ex_quit_rc_system 5 0 [lit "rsh"] (map (fun sc => Main.TLine (fscript_text sc)) ex_quit_rest ++ [Main.TClosed]) (Shell PropertiesMain.ex_fresh []) in
  exists vs m, frun ex_quit_rc_code 2 (List.concat ((ex_quit_rc ++ ex_quit_profile) ++ ex_quit_rest)) ex_machine = Some (vs, Gone (Exits 3 m)) /\
    Forall (allowed ex_quit_rc_code) vs /\ Forall (does_not_unset (lit "PS1")) vs /\
    map argv (started m) = map (map lit) [["false"]; ["true"]; ["echo"; "2"]]%string /\ fst r = OExit 3 /\ programs_of (trace (snd r)) = started m.
Proof.
  split; [reflexivity|]. split; [reflexivity|]. split; [exact ex_quit_rc_system_ok|]. split; [reflexivity|]. split; [reflexivity|]. split.
  { pose proof ex_quits_ok as H. unfold ex_quits in H. repeat apply Forall_cons_iff in H as [? H].
    repeat (apply Forall_cons; [split; [discriminate|apply Forall_cons; [assumption|constructor]]|]). constructor. }
  cbv zeta. do 2 eexists. split; [vm_compute; reflexivity|]. split; [apply all_allowed; vm_compute; reflexivity|].
  split; [repeat (constructor; [intros F; discriminate F|]); constructor|]. vm_compute. repeat split.
Qed.

(** [rsh -c 'more a'] with the startup files above. *)
Example C80_core_dash_c_example :
  let sc := [(call "more" [Plain (lit "a")], [(CAnd, call "inc" [Plain (lit "b")])])] in
  fscript_text sc = lit " more a && inc b" /\ Forall (fchain_ok [] (fun _ => false)) sc /\
  let s' := snd (Main.main ex_rc_system 5 0 [lit "rsh"; lit "-c"; fscript_text sc] [] (Shell PropertiesMain.ex_fresh [])) in
  exists vs fm', frun ex_rc_code 3 (List.concat (ex_rc ++ ex_profile) ++ sc) ex_machine = Some (vs, Goes 0 fm') /\ Forall (allowed ex_rc_code) vs /\
    map argv (started (core fm')) = map (map lit) [["false"]; ["true"]; ["echo"; "a"; "1"]; ["echo"; "b"; "1"]]%string /\
    programs_of (trace s') = started (core fm') /\ Shell.fds (im s') = PropertiesMain.ex_fds.
Proof.
  cbv zeta. split; [reflexivity|]. split; [unfold call; ok_chains; ok_call|].
  do 2 eexists. split; [vm_compute; reflexivity|]. split; [apply all_allowed; vm_compute; reflexivity|]. vm_compute. repeat split.
Qed.

Print Assumptions C80_core_partial.
Print Assumptions C80_core_dash_c_partial.
Print Assumptions C80_left_partial.
