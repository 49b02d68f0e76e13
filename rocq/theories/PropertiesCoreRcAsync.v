(** Properties C80, C125, C142: startup files in the core language, with signals that
    arrive at any moment of the session, and in front of a script. *)
From Verif Require Import Base BaseFacts Lexer LexerSpec Ast Parser GrammarSpec.
From Verif Require Import Context Alias Expand ExpandSpec Jobs JobsSpec Shell Builtins Eval Async.
From Verif Require ContextSpec.
From Verif Require Import EvalSpec EvalFacts EvalLaws EvalKeeps RunSpec RunLaws PipeSpec.
From Verif Require MainSpec Main MainLaws PropertiesMain PropertiesSession PropertiesBuiltins PropertiesAsync.
From Verif Require Import EvalFds.
From Verif Require Import CoreSpec CoreExitSpec CoreFunSpec PropertiesCore PropertiesCoreExit PropertiesCoreFun PropertiesCoreQuit PropertiesCoreRc.
From Verif Require Import PropertiesCoreAsync PropertiesCoreFunAsync PropertiesCoreQuitAsync.
Local Open Scope Z_scope.

(** What comes before the startup files. *)
Lemma main_async_starts w sg n k args ins s t f c' :
  Main.parse_args args (cm (im s)) = Some (t, f) -> Main.f_cm f = MainLaws.one_scope c' ->
  ContextSpec.unsettable (MainSpec.numbered 0 (Main.script_name f)) = false ->
  exists s1, main_async w sg n k args ins s =
      (Main.read_startup w n (lit "~/.rshrc") ;; Main.read_startup w n (lit "~/.profile") ;;
       match t with
       | Some t => Main.read_from_args w n t
       | None => if Main.interactive f then change Main.at_prompt ;; interactive_loop_async w sg n ins else Main.script_loop w n k (Main.script_name f)
       end) s1 /\ trace s1 = trace s /\
    im s1 = with_cm (MainLaws.two_scopes c' (ctx_put_var (lit "0") (Var (MainSpec.kept (Main.script_name f)) false) empty_context)) (with_js (js (im s1)) (im s)) /\
    jobs (js (im s1)) = jobs (js (im s)) /\ masked (js (im s1)) = masked (js (im s)).
Proof.
  intros Hp Hf Hu. unfold main_async.
  rewrite (bind_ok (look cm) _ s (cm (im s)) s eq_refl). rewrite Hp.
  rewrite (bind_ok (unwrap (Some (t, f))) _ s (t, f) s eq_refl). cbn [fst snd]. cbv zeta.
  set (s0 := Shell (with_cm (Main.f_cm f) (im s)) (trace s)).
  rewrite (seq_ok (on_cm (fun _ => Main.f_cm f)) _ s tt s0 eq_refl).
  destruct (MainLaws.say_all_ok (Main.shown f) s0) as (s2 & E2 & Ht2 & Hi2 & Hj2 & Hm2). rewrite (seq_ok _ _ s0 tt s2 E2).
  assert (Hcm : cm (im s2) = MainLaws.one_scope c') by (rewrite Hi2; exact Hf).
  set (s3 := Shell (with_cm (push_context_new (cm (im s2))) (im s2)) (trace s2)).
  set (s4 := Shell (with_cm (MainLaws.two_scopes c' (ctx_put_var (lit "0") (Var (MainSpec.kept (Main.script_name f)) false) empty_context)) (im s2)) (trace s2)).
  exists s4. split.
  { unfold Main.set_up. set (rest := match t with Some t => _ | None => _ end).
    assert (E3 : try_cm (add_var_pos (lit "0=" ++ Main.script_name f) 1) s3 = (OOk tt, s4)).
    { unfold try_cm, try_. cbn [s3 im cm with_cm]. rewrite Hcm, MainLaws.arg0, Hu. reflexivity. }
    assert (E4 : (on_cm push_context_new ;; try_cm (add_var_pos (lit "0=" ++ Main.script_name f) 1) ;;
                  Main.read_startup w n (lit "~/.rshrc") ;; Main.read_startup w n (lit "~/.profile")) s2 =
                 (Main.read_startup w n (lit "~/.rshrc") ;; Main.read_startup w n (lit "~/.profile")) s4).
    { rewrite (seq_ok (on_cm push_context_new) _ s2 tt s3 eq_refl). apply (seq_ok _ _ s3 tt s4 E3). }
    unfold seq at 1, bind at 1. rewrite E4. unfold seq, bind. destruct (Main.read_startup w n (lit "~/.rshrc") s4) as [[| | | | | |] s5]; reflexivity. }
  split; [exact Ht2|]. split; [cbn [s4 im]; rewrite Hi2; reflexivity|]. split; [exact Hj2|exact Hm2].
Qed.

(** A session of a shell with startup files, whenever signals arrive once it is at the
    prompt: it does what the lines of the files and those that are typed do, one after
    the other, as one script. *)
Theorem C80_signals_partial : forall w sg code n d k args ins root cwd ppid pid env fds rc profile scs vs st fm', (n <= d)%nat ->
  MainSpec.asks args MainSpec.Prompt -> system_signals w sg [] code ->
  startup w code (lit "~/.rshrc") rc -> startup w code (lit "~/.profile") profile ->
  NoDup (map fst env) -> (forall x, position x -> sget x env = None) -> table fds -> no_future_pipe fds 0 -> nget 0 fds <> None -> nget 1 fds <> None ->
  Forall (fun sc => sc <> [] /\ Forall (fchain_ok [] (fun _ => false)) sc) ((rc ++ profile) ++ scs) -> ftyping scs ins ->
  frun code n (List.concat ((rc ++ profile) ++ scs)) (machine_at_start root cwd ppid pid env) = Some (vs, Goes st fm') ->
  Forall (allowed code) vs -> Forall (does_not_unset (lit "PS1")) vs ->
  exists s', main_async w sg (S d) k args ins (Shell (Main.fresh_image root cwd ppid pid env fds) []) = (OOk tt, s') /\
    programs_of (trace s') = started (core fm') /\ directories (trace s') = visited (core fm') /\ Forall (executes fds) (forks (trace s')) /\ linked (forks (trace s')) /\
    (forall fd, nget fd (Shell.fds (im s')) = nget fd fds) /\
    Shell.env (im s') = environment (core fm') /\ forall x, identifier x -> expand_var (cm (im s')) x = CoreSpec.vars (core fm') x.
Proof.
  intros w sg code n d k args ins root cwd ppid pid env fds rc profile scs vs st fm' Hd Ha Hsg Hrc Hpro Hnd He Ht Hf H0 H1 Hok Hty E Hv Hl.
  pose proof (system_of _ _ _ _ Hsg) as Hsys.
  set (s := Shell (Main.fresh_image root cwd ppid pid env fds) []).
  set (c := Context (default_vars root cwd ppid pid env) [] []).
  assert (Hc : cm (im s) = MainLaws.one_scope c) by reflexivity.
  pose proof (MainLaws.parse_args_asks args _ (cm (im s)) Ha) as Hp. cbn [MainLaws.wanted_front] in Hp.
  destruct (main_async_starts w sg (S d) k args ins s _ _ c Hp Hc eq_refl) as (s1 & Em & Htr & Hi & Hj & Hm).
  assert (A : fagrees [] (fun _ => false) [] fds false 0 (machine_at_start root cwd ppid pid env) s1).
  { apply fagrees_start; [exact He|]. eapply agrees_start; eauto. }
  apply Forall_app in Hok. destruct Hok as [Hok1 Hok2].
  unfold frun in E. rewrite concat_app, frun_script_app in E. apply followed_some in E. destruct E as (v1 & st1 & fm1 & v2 & E1 & E2 & ->).
  apply Forall_app in Hv. destruct Hv as [Hv1 Hv2]. apply Forall_app in Hl. destruct Hl as [Hl1 Hl2].
  destruct (both_agree w [] _ [] fds code Hsys n d Hd rc profile _ s1 v1 st1 fm1 A Hrc Hpro Hok1 E1 Hv1) as (s2 & R & A2).
  assert (Hps : CoreSpec.vars (core (machine_at_start root cwd ppid pid env)) (lit "PS1") <> None).
  { cbn [machine_at_start core at_start CoreSpec.vars]. destruct (sget (lit "PS1") env); discriminate. }
  pose proof (script_set (lit "PS1") _ _ (fstep_set code (lit "PS1") eq_refl n 0) _ _ _ _ _ E1 Hl1 Hps) as Hps1.
  set (s3 := Shell (Main.at_prompt (im s2)) (trace s2)).
  assert (A3 : fagrees [] (fun _ => false) [] fds false 0 fm1 s3) by (destruct A2 as [[] B2 B3]; split; [split; assumption|assumption..]).
  destruct (ftyped_async w sg [] _ [] fds code Hsg n d Hd scs ins Hty Hok2 st1 _ s3 v2 st fm' A3 Hps1 E2 Hv2 Hl2) as (s' & Hs & [A' _ _]).
  exists s'. split; [|split; [exact (ag_started _ _ _ _ _ _ _ _ _ A')|split; [exact (ag_visited _ _ _ _ _ _ _ _ _ A')|split; [exact (ag_executes _ _ _ _ _ _ _ _ _ A')|split; [exact (ag_linked _ _ _ _ _ _ _ _ _ A')|split; [exact (ag_files _ _ _ _ _ _ _ _ _ A')|split; [exact (ag_env _ _ _ _ _ _ _ _ _ A')|]]]]]]].
  - rewrite Em, seq_assoc, (seq_ok _ _ s1 tt s2 R). cbn [Main.interactive]. rewrite (seq_ok (change Main.at_prompt) _ s2 tt s3 eq_refl). exact Hs.
  - intros x Hx. unfold expand_var. rewrite (ag_vars _ _ _ _ _ _ _ _ _ A' x Hx). destruct (CoreSpec.vars (core fm') x); reflexivity.
Qed.

(** The same for sessions that are left by [exit] or [exec], in a startup file or at the
    prompt. *)
Theorem C80_signals_left_partial : forall w sg code n d k args ins root cwd ppid pid env fds rc profile scs vs r, (n <= d)%nat ->
  MainSpec.asks args MainSpec.Prompt -> system_signals w sg [] code ->
  startup w code (lit "~/.rshrc") rc -> startup w code (lit "~/.profile") profile ->
  NoDup (map fst env) -> (forall x, position x -> sget x env = None) -> table fds -> no_future_pipe fds 0 -> nget 0 fds <> None -> nget 1 fds <> None ->
  Forall (fun sc => sc <> [] /\ Forall (fchain_ok [] (fun _ => false)) sc) ((rc ++ profile) ++ scs) -> ftyping scs ins ->
  frun code n (List.concat ((rc ++ profile) ++ scs)) (machine_at_start root cwd ppid pid env) = Some (vs, Gone r) ->
  Forall (allowed code) vs -> Forall (does_not_unset (lit "PS1")) vs ->
  exists s', did fds (final r) s' /\
    gone w r s' (fun o => main_async w sg (S d) k args ins (Shell (Main.fresh_image root cwd ppid pid env fds) []) = (o, s')).
Proof.
  intros w sg code n d k args ins root cwd ppid pid env fds rc profile scs vs r Hd Ha Hsg Hrc Hpro Hnd He Ht Hf H0 H1 Hok Hty E Hv Hl.
  pose proof (system_of _ _ _ _ Hsg) as Hsys.
  set (s := Shell (Main.fresh_image root cwd ppid pid env fds) []).
  set (c := Context (default_vars root cwd ppid pid env) [] []).
  assert (Hc : cm (im s) = MainLaws.one_scope c) by reflexivity.
  pose proof (MainLaws.parse_args_asks args _ (cm (im s)) Ha) as Hp. cbn [MainLaws.wanted_front] in Hp.
  destruct (main_async_starts w sg (S d) k args ins s _ _ c Hp Hc eq_refl) as (s1 & Em & Htr & Hi & Hj & Hm).
  assert (A : fagrees [] (fun _ => false) [] fds false 0 (machine_at_start root cwd ppid pid env) s1).
  { apply fagrees_start; [exact He|]. eapply agrees_start; eauto. }
  apply Forall_app in Hok. destruct Hok as [Hok1 Hok2].
  unfold frun in E. rewrite concat_app, frun_script_app in E. apply followed_gone in E. destruct E as [E|(v1 & st1 & fm1 & v2 & E1 & E2 & ->)].
  - match type of Em with _ = (_ ;; _ ;; ?g) _ =>
      destruct (both_left w [] _ [] fds code Hsys n d Hd rc profile _ s1 vs r g A Hrc Hpro Hok1 E Hv) as (s' & (fs & k' & t1 & Hk1 & L) & K) end.
    exists s'. split; [eapply agrees_did; [exact Hk1|exact L]|]. rewrite Em. exact K.
  - apply Forall_app in Hv. destruct Hv as [Hv1 Hv2]. apply Forall_app in Hl. destruct Hl as [Hl1 Hl2].
    destruct (both_agree w [] _ [] fds code Hsys n d Hd rc profile _ s1 v1 st1 fm1 A Hrc Hpro Hok1 E1 Hv1) as (s2 & R & A2).
    assert (Hps : CoreSpec.vars (core (machine_at_start root cwd ppid pid env)) (lit "PS1") <> None).
    { cbn [machine_at_start core at_start CoreSpec.vars]. destruct (sget (lit "PS1") env); discriminate. }
    pose proof (script_set (lit "PS1") _ _ (fstep_set code (lit "PS1") eq_refl n 0) _ _ _ _ _ E1 Hl1 Hps) as Hps1.
    set (s3 := Shell (Main.at_prompt (im s2)) (trace s2)).
    assert (A3 : fagrees [] (fun _ => false) [] fds false 0 fm1 s3) by (destruct A2 as [[] B2 B3]; split; [split; assumption|assumption..]).
    destruct (ftyped_leaves_async w sg [] _ [] fds code Hsg n d Hd scs ins Hty Hok2 st1 _ s3 v2 r A3 Hps1 E2 Hv2 Hl2) as (s' & (fs & k' & t1 & Hk1 & L) & K).
    exists s'. split; [eapply agrees_did; [exact Hk1|exact L]|].
    rewrite Em, seq_assoc, (seq_ok _ _ s1 tt s2 R). cbn [Main.interactive]. rewrite (seq_ok (change Main.at_prompt) _ s2 tt s3 eq_refl). exact K.
Qed.

(** [rsh file] with startup files: what they define is there for the lines of the file. *)
Theorem C80_left_file_partial : forall w code n d k args ins root cwd ppid pid env fds rc profile file scs vs r, (n <= d)%nat ->
  MainSpec.asks args (MainSpec.Script file []) -> ~ ContextSpec.unsettable (MainSpec.numbered 0 file) = true -> system w [] code ->
  startup w code (lit "~/.rshrc") rc -> startup w code (lit "~/.profile") profile ->
  (forall t, r_open (w t) file for_reading = true) ->
  (forall t, r_read (w t) file = Some (List.concat (map (fun sc => fscript_text sc ++ [10%N]) scs))) ->
  NoDup (map fst env) -> (forall x, position x -> sget x env = None) -> table fds -> no_future_pipe fds 0 -> nget 0 fds <> None -> nget 1 fds <> None ->
  Forall (fun sc => sc <> [] /\ Forall (fchain_ok [] (fun _ => false)) sc) ((rc ++ profile) ++ scs) ->
  Forall (fun sc => ~ In 10%N (fscript_text sc)) scs ->
  frun code n (List.concat ((rc ++ profile) ++ scs)) (machine_at_start root cwd ppid pid env) = Some (vs, Gone r) -> Forall (allowed code) vs ->
  exists s', did fds (final r) s' /\
    gone w r s' (fun o => Main.main w (S d) (List.length scs + k) args ins (Shell (Main.fresh_image root cwd ppid pid env fds) []) = (o, s')).
Proof.
  intros w code n d k args ins root cwd ppid pid env fds rc profile file scs vs r Hd Ha Hdig Hsys Hrc Hpro Ho Hr Hnd He Ht Hf H0 H1 Hok Hnl E Hv.
  set (s := Shell (Main.fresh_image root cwd ppid pid env fds) []).
  set (c := Context (default_vars root cwd ppid pid env) [] []).
  assert (Hc : cm (im s) = MainLaws.one_scope c) by reflexivity.
  pose proof (MainLaws.parse_args_asks args _ (cm (im s)) Ha) as Hp. cbn [MainLaws.wanted_front MainLaws.store] in Hp.
  destruct (PropertiesSession.main_starts w (S d) (List.length scs + k) args ins s _ _ c Hp Hc) as (s1 & Em & Htr & Hi & Hj & Hm & _).
  { cbn [Main.script_name]. apply not_true_is_false. exact Hdig. }
  assert (A : fagrees [] (fun _ => false) [] fds false 0 (machine_at_start root cwd ppid pid env) s1).
  { apply fagrees_start; [exact He|]. eapply agrees_start; eauto. }
  apply Forall_app in Hok. destruct Hok as [Hok1 Hok2].
  unfold frun in E. rewrite concat_app, frun_script_app in E. apply followed_gone in E. destruct E as [E|(v1 & st1 & fm1 & v2 & E1 & E2 & ->)].
  - match type of Em with _ = (_ ;; _ ;; ?g) _ =>
      destruct (both_left w [] _ [] fds code Hsys n d Hd rc profile _ s1 vs r g A Hrc Hpro Hok1 E Hv) as (s' & (fs & k' & t1 & Hk1 & L) & K) end.
    exists s'. split; [eapply agrees_did; [exact Hk1|exact L]|]. rewrite Em. exact K.
  - apply Forall_app in Hv. destruct Hv as [Hv1 Hv2].
    destruct (both_agree w [] _ [] fds code Hsys n d Hd rc profile _ s1 v1 st1 fm1 A Hrc Hpro Hok1 E1 Hv1) as (s2 & R & [A2 B2 B3]).
    destruct (agrees_opened [] (fun _ => false) [] fds _ 0 false _ s2 file A2) as [A3 Hkept]. apply agrees_unmasked in A3.
    assert (Hcut : PropertiesMain.cut_into (List.concat (map (fun sc => fscript_text sc ++ [10%N]) scs)) (map (fun sc => fscript_text sc ++ [10%N]) scs)).
    { clear -Hnl. induction Hnl as [|l ls H _ IH]; [constructor|]. cbn [map List.concat].
      rewrite <- app_assoc. apply PropertiesMain.cut_line; assumption. }
    destruct (flines_left w [] _ [] (Shell.fds (im (file_opened file s2))) code Hsys n d Hd scs Hok2 st1 fm1 (PropertiesMain.opened file s2) v2 r) as (done & l & rest & s3 & s' & K1 & K2 & K3 & (fs & k' & t1 & Hk1 & K4) & K5); auto.
    { split; assumption. }
    exists s'. split; [eapply agrees_did; [intros fd; rewrite Hk1; apply Hkept|exact K4]|].
    assert (L : forall o, exec_text w (S d) l s3 = (o, s') -> ~ returns o -> Main.main w (S d) (List.length scs + k) args ins s = (lift o, s')).
    { intros o K6 K7. rewrite Em, seq_assoc, (seq_ok _ _ s1 tt s2 R). cbn [MainLaws.goes_on Main.interactive Main.script_name].
      replace (List.length scs + k)%nat with (List.length done + S (List.length rest + k))%nat.
      2:{ apply (f_equal (@List.length str)) in K1. rewrite map_length, app_length in K1. cbn [List.length] in K1. lia. }
      pose proof (Hr (EOpen file for_reading :: trace s2)) as Hr1. rewrite K1 in Hcut, Hr1.
      exact (PropertiesMain.C55_lines_in_order_partial w (S d) file _ done l rest s2 s3 o s' (conj (Ho _) Hr1) Hcut K2 K3 K6 K7 _). }
    eapply gone_mono; [| |exact K5].
    + intros z Hz. exact (L _ Hz (fun F => F)).
    + intros p a e Hz. exact (L _ Hz (fun F => F)).
Qed.

(** ** Examples *)

(** The functions come from the startup files; the rest is typed, or in a file. *)
Definition ex_start_rc : list fscript := firstn 2 ex_quit_lines.
Definition ex_start_profile : list fscript := firstn 1 (skipn 2 ex_quit_lines).
Definition ex_start_rest : list fscript := skipn 3 ex_quit_lines.
Definition ex_start_code : world :=
  World ex_code (reachable ex_code) (fun f => if str_eqb f (lit "~/.rshrc") then Some (file_text ex_start_rc)
    else if str_eqb f (lit "~/.profile") then Some (file_text ex_start_profile)
    else if str_eqb f (lit "file") then Some (file_text ex_start_rest) else None).
Definition ex_with (w : os) (code : world) : os := fun t =>
  let r := w t in
  Reports (r_isfile r) (fun f _ => match contents code f with Some _ => true | None => false end) (contents code)
    (r_chdir r) (r_cwd r) (r_kill r) (r_pipe r) (r_fork r) (r_exec r) (r_getpid r) (r_waits r) (r_subst r).
Lemma ex_start_signals_ok : system_signals (ex_with ex_signals_os ex_start_code) PropertiesAsync.often [] ex_start_code.
Proof.
  destruct ex_signals_ok as [S1 S2 S3 S4 S5 _ S7 S8]. split; [exact S1|exact S2|exact S3|exact S4|exact S5| |exact S7|exact S8].
  intros f text t E. split; [|exact E]. unfold ex_with. cbn [r_open]. rewrite E. reflexivity.
Qed.
Lemma ex_start_ok : Forall (fun sc => sc <> [] /\ Forall (fchain_ok [] (fun _ => false)) sc) ((ex_start_rc ++ ex_start_profile) ++ ex_start_rest).
Proof.
  pose proof ex_quits_ok as H. unfold ex_quits in H. repeat apply Forall_cons_iff in H as [? H].
  repeat (apply Forall_cons; [split; [discriminate|apply Forall_cons; [assumption|constructor]]|]). constructor.
Qed.
Example C80_signals_left_example :
  contents ex_start_code (lit "~/.rshrc") = Some (lit " X=0" ++ [10%N] ++ lit " die ( ) { echo $X ; exit 3 ; never ; }" ++ [10%N]) /\
  contents ex_start_code (lit "~/.profile") = Some (lit " deep ( ) { X=2 ; true || exit 4 ; die ; never ; }" ++ [10%N]) /\
  map fscript_text ex_start_rest = [lit " false || deep && never"; lit " never"] /\
  system_signals (ex_with ex_signals_os ex_start_code) PropertiesAsync.often [] ex_start_code /\
  startup (ex_with ex_signals_os ex_start_code) ex_start_code (lit "~/.rshrc") ex_start_rc /\
  startup (ex_with ex_signals_os ex_start_code) ex_start_code (lit "~/.profile") ex_start_profile /\
  Forall (fun sc => sc <> [] /\ Forall (fchain_ok [] (fun _ => false)) sc) ((ex_start_rc ++ ex_start_profile) ++ ex_start_rest) /\
  ftyping ex_start_rest (ex_quit_typing ex_start_rest) /\
  let r := main_async (ex_with ex_signals_os ex_start_code) PropertiesAsync.often 5 0 [lit "rsh"] (ex_quit_typing ex_start_rest) (Shell PropertiesMain.ex_fresh []) in
  exists vs m, frun ex_start_code 2 (List.concat ((ex_start_rc ++ ex_start_profile) ++ ex_start_rest)) ex_machine = Some (vs, Gone (Exits 3 m)) /\
    Forall (allowed ex_start_code) vs /\ Forall (does_not_unset (lit "PS1")) vs /\
    map argv (started m) = map (map lit) [["false"]; ["true"]; ["echo"; "2"]]%string /\ fst r = OExit 3 /\ programs_of (trace (snd r)) = started m.
Proof.
  split; [reflexivity|]. split; [reflexivity|]. split; [reflexivity|]. split; [exact ex_start_signals_ok|]. split; [reflexivity|]. split; [reflexivity|].
  split; [exact ex_start_ok|]. split; [apply ex_quit_typing_ok|].
  cbv zeta. do 2 eexists. split; [vm_compute; reflexivity|]. split; [apply all_allowed; vm_compute; reflexivity|].
  split; [apply none_unset; vm_compute; reflexivity|]. vm_compute. repeat split.
Qed.
Example C80_left_file_example :
  MainSpec.asks [lit "rsh"; lit "file"] (MainSpec.Script (lit "file") []) /\ ~ ContextSpec.unsettable (MainSpec.numbered 0 (lit "file")) = true /\
  system (ex_with ex_system ex_start_code) [] ex_start_code /\
  startup (ex_with ex_system ex_start_code) ex_start_code (lit "~/.rshrc") ex_start_rc /\
  startup (ex_with ex_system ex_start_code) ex_start_code (lit "~/.profile") ex_start_profile /\
  (forall t, r_open (ex_with ex_system ex_start_code t) (lit "file") for_reading = true) /\
  (forall t, r_read (ex_with ex_system ex_start_code t) (lit "file") = Some (List.concat (map (fun sc => fscript_text sc ++ [10%N]) ex_start_rest))) /\
  Forall (fun sc => ~ In 10%N (fscript_text sc)) ex_start_rest /\
  fst (Main.main (ex_with ex_system ex_start_code) 5 2 [lit "rsh"; lit "file"] [] (Shell PropertiesMain.ex_fresh [])) = OExit 3.
Proof.
  split.
  { apply (MainSpec.asks_script (lit "rsh") [] (lit "file") []); try discriminate; [intros (t & E & _); discriminate|constructor|intros [t E]; discriminate|constructor]. }
  split; [discriminate|]. split.
  { destruct ex_system_ok as [S1 S2 S3 S4 S5]. split; [exact S1|exact S2|exact S3|exact S4|].
    intros f text t E. split; [|exact E]. unfold ex_with. cbn [r_open]. rewrite E. reflexivity. }
  split; [reflexivity|]. split; [reflexivity|]. split; [reflexivity|]. split; [reflexivity|].
  split; [repeat (apply Forall_cons; [intros F; vm_compute in F; intuition discriminate|]); apply Forall_nil|].
  vm_compute. reflexivity.
Qed.

(** The startup files of [C80_core_example], with signals. *)
Example C80_signals_example :
  system_signals (ex_with ex_signals_os ex_rc_code) PropertiesAsync.often [] ex_rc_code /\
  startup (ex_with ex_signals_os ex_rc_code) ex_rc_code (lit "~/.rshrc") ex_rc /\ startup (ex_with ex_signals_os ex_rc_code) ex_rc_code (lit "~/.profile") ex_profile /\
  Forall (fun sc => sc <> [] /\ Forall (fchain_ok [] (fun _ => false)) sc) ((ex_rc ++ ex_profile) ++ ex_typed) /\ ftyping ex_typed (ex_quit_typing ex_typed) /\
  let r := main_async (ex_with ex_signals_os ex_rc_code) PropertiesAsync.often 5 0 [lit "rsh"] (ex_quit_typing ex_typed) (Shell PropertiesMain.ex_fresh []) in
  exists vs fm', frun ex_rc_code 3 (List.concat ((ex_rc ++ ex_profile) ++ ex_typed)) ex_machine = Some (vs, Goes 0 fm') /\
    Forall (allowed ex_rc_code) vs /\ Forall (does_not_unset (lit "PS1")) vs /\
    map argv (started (core fm')) = map (map lit) [["false"]; ["true"]; ["echo"; "a"; "1"]; ["echo"; "b"; "1"]; ["echo"; "c"; "2"]]%string /\
    fst r = OOk tt /\ programs_of (trace (snd r)) = started (core fm') /\ Shell.fds (im (snd r)) = PropertiesMain.ex_fds.
Proof.
  split.
  { destruct ex_signals_ok as [S1 S2 S3 S4 S5 _ S7 S8]. split; [exact S1|exact S2|exact S3|exact S4|exact S5| |exact S7|exact S8].
    intros f text t E. split; [|exact E]. unfold ex_with. cbn [r_open]. rewrite E. reflexivity. }
  split; [reflexivity|]. split; [reflexivity|]. split; [exact ex_rc_ok|]. split; [apply ex_quit_typing_ok|].
  cbv zeta. do 2 eexists. split; [vm_compute; reflexivity|]. split; [apply all_allowed; vm_compute; reflexivity|].
  split; [apply none_unset; vm_compute; reflexivity|]. vm_compute. repeat split.
Qed.

Print Assumptions C80_signals_partial.
Print Assumptions C80_signals_left_partial.
Print Assumptions C80_left_file_partial.
Print Assumptions C80_signals_example.
Print Assumptions C80_signals_left_example.
Print Assumptions C80_left_file_example.
