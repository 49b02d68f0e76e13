(** What a started program gets: its descriptors, environment and arguments. *)
From Verif Require Import Base BaseFacts Ast Parser Context Alias Expand ExpandSpec ExpandFacts ExpandLaws.
From Verif Require Import Jobs Shell Builtins Eval EvalSpec EvalFacts EvalLaws PipeSpec PipeLaws.
Local Open Scope Z_scope.

(** ** Redirections *)

Lemma find_app {A} (f : A -> bool) a b : find f (a ++ b) = match find f a with Some x => Some x | None => find f b end.
Proof. induction a as [|x a IH]; cbn [app find]; [reflexivity|]. destruct (f x); [reflexivity|exact IH]. Qed.

Lemma redirected_app a b t fd : redirected (a ++ b) t fd = redirected b (redirected a t) fd.
Proof.
  unfold redirected. rewrite rev_app_distr, !find_app. destruct (Z.eqb fd 0).
  - destruct (find is_input (rev b)); reflexivity.
  - destruct (Z.eqb fd 1); [|reflexivity]. destruct (find (fun r => negb (is_input r)) (rev b)); reflexivity.
Qed.
Lemma redirected_kept rs t u fd : kept (t fd) = kept (u fd) -> kept (redirected rs t fd) = kept (redirected rs u fd).
Proof.
  intros H. unfold redirected. destruct (Z.eqb fd 0); [destruct (find _ _); auto|].
  destruct (Z.eqb fd 1); [destruct (find _ _); auto|exact H].
Qed.
Lemma redirected_nil t fd : redirected [] t fd = t fd.
Proof. unfold redirected. cbn. destruct (Z.eqb fd 0); [reflexivity|]. destruct (Z.eqb fd 1); reflexivity. Qed.

Lemma opens_how r : opens_as r = redirect_how (redirect r).
Proof. unfold opens_as. destruct (redirect r); reflexivity. Qed.

(** One redirection. *)
Lemma redirect_one w r i tr : table (fds i) -> nget 0 (fds i) <> None -> nget 1 (fds i) <> None ->
  let h := opens_as r in
  if r_open (w tr) (filename r) h then
    exists t, (f <- sys_open w (filename r) h ;; f <- unwrap f ;; sys_dup2 f (redirect_target (redirect r))) (Shell i tr)
              = (OOk tt, Shell (with_fds t i) (EOpen (filename r) h :: tr)) /\
      table t /\ nget 0 t <> None /\ nget 1 t <> None /\
      forall fd, kept (nget fd t) = kept (redirected [r] (fun fd => nget fd (fds i)) fd)
  else (f <- sys_open w (filename r) h ;; f <- unwrap f ;; sys_dup2 f (redirect_target (redirect r))) (Shell i tr)
       = (OPanic, Shell i tr).
Proof.
  intros Ht H0 H1 h. unfold sys_open. destruct (r_open (w tr) (filename r) h) eqn:Eo.
  - destruct (lowest_spec _ (proj1 Ht)) as [L1 L2]. set (f := lowest (fds i)) in *.
    set (t1 := ninsert f (Desc (OpenFile (filename r) h) true) (fds i)).
    assert (Ht1 : table t1) by (apply table_ninsert; assumption).
    assert (Hf : nget f t1 = Some (Desc (OpenFile (filename r) h) true)) by (subst t1; rewrite nget_ninsert by apply Ht; rewrite Z.eqb_refl; reflexivity).
    assert (Hf0 : f <> 0) by congruence. assert (Hf1 : f <> 1) by congruence.
    set (g := redirect_target (redirect r)).
    assert (Hg : g = 0 \/ g = 1) by (subst g; destruct (redirect r); cbn; auto).
    exists (ninsert g (Desc (OpenFile (filename r) h) false) t1). split; [|split; [|split; [|split]]].
    + unfold bind, ask, ret, unwrap. cbn [trace im]. rewrite Eo.
      apply (dup2_ok' f g _ t1 i (EOpen (filename r) h :: tr) Hf). destruct Hg as [-> | ->]; assumption.
    + apply table_ninsert; [exact Ht1|destruct Hg; lia].
    + rewrite nget_ninsert by apply Ht1. subst t1. rewrite nget_ninsert by apply Ht. eqbs; try discriminate; auto.
    + rewrite nget_ninsert by apply Ht1. subst t1. rewrite nget_ninsert by apply Ht. eqbs; try discriminate; auto.
    + intros fd. rewrite nget_ninsert by apply Ht1. subst t1. rewrite nget_ninsert by apply Ht.
      unfold redirected, is_input. cbn [rev app find]. subst g. clear Hf. unfold opens_as in *.
      destruct (redirect r) eqn:Er; cbn [redirect_target negb] in *; eqbs; cbn [kept d_cloexec]; rewrite ?Er; auto; rewrite ?L2; auto; congruence.
  - unfold bind, ask, ret, unwrap. cbn [trace im]. rewrite Eo. reflexivity.
Qed.

Lemma redirect_ok w rs : forall i tr, table (fds i) -> nget 0 (fds i) <> None -> nget 1 (fds i) <> None ->
  (exists s', eval_redirect w rs (Shell i tr) = (OPanic, s') /\ exists r tr', In r rs /\ r_open (w tr') (filename r) (opens_as r) = false) \/
  exists t new, eval_redirect w rs (Shell i tr) = (OOk tt, Shell (with_fds t i) (new ++ tr)) /\
    table t /\ nget 0 t <> None /\ nget 1 t <> None /\
    (forall fd, kept (nget fd t) = kept (redirected rs (fun fd => nget fd (fds i)) fd)) /\
    rev new = map (fun r => EOpen (filename r) (opens_as r)) rs.
Proof.
  induction rs as [|r rs IH]; intros i tr Ht H0 H1; cbn [eval_redirect]; rewrite <- ?opens_how.
  - right. exists (fds i), []. split; [destruct i; reflexivity|]. split; [exact Ht|]. split; [exact H0|]. split; [exact H1|].
    split; [|reflexivity]. intros fd. rewrite redirected_nil. reflexivity.
  - pose proof (redirect_one w r i tr Ht H0 H1) as HR. cbv zeta in HR.
    destruct (r_open (w tr) (filename r) (opens_as r)) eqn:Eo.
    + destruct HR as (t & HR & Ht' & H0' & H1' & Hk).
      assert (E : (f <- sys_open w (filename r) (opens_as r) ;; f <- unwrap f ;; sys_dup2 f (redirect_target (redirect r)) ;; eval_redirect w rs) (Shell i tr)
                = eval_redirect w rs (Shell (with_fds t i) (EOpen (filename r) (opens_as r) :: tr))).
      { revert HR. unfold seq, bind. destruct (sys_open w _ _ _) as [[f| | | | | |] s1]; try discriminate.
        destruct (unwrap f s1) as [[f'| | | | | |] s2]; try discriminate.
        intros ->. reflexivity. }
      rewrite E. destruct (IH (with_fds t i) (EOpen (filename r) (opens_as r) :: tr) Ht' H0' H1')
        as [(s' & HP & r1 & tr1 & HI & HF)|(t' & new & HO & T1 & T2 & T3 & T4 & T5)].
      * left. exists s'. split; [exact HP|]. exists r1, tr1. split; [right; exact HI|exact HF].
      * right. exists t', (new ++ [EOpen (filename r) (opens_as r)]). rewrite <- app_assoc. split; [exact HO|].
        split; [exact T1|]. split; [exact T2|]. split; [exact T3|]. split.
        -- intros fd. rewrite T4. change (r :: rs) with ([r] ++ rs). rewrite redirected_app. apply redirected_kept. apply Hk.
        -- rewrite rev_app_distr. cbn [rev app map]. f_equal. exact T5.
    + left. exists (Shell i tr). split; [|exists r, tr; split; [left; reflexivity|exact Eo]]. revert HR. unfold seq, bind. destruct (sys_open w _ _ _) as [[f| | | | | |] s1]; try discriminate.
      * destruct (unwrap f s1) as [[f'| | | | | |] s2]; try discriminate; intros HR; [rewrite HR; reflexivity|exact HR].
      * intros HR. exact HR.
Qed.

(** ** Assignments *)

Lemma assignment_ok ws : forall i tr,
  (exists s', eval_assignment ws (Shell i tr) = (OPanic, s') /\ exists a, In a ws /\ ~ assignable a) \/
  exists e, eval_assignment ws (Shell i tr) = (OOk tt, Shell (with_env e i) tr) /\ assigned (env i) ws e.
Proof.
  induction ws as [|x ws IH]; intros i tr; cbn [eval_assignment].
  - right. exists (env i). split; [destruct i; reflexivity|constructor].
  - destruct (split_char (ch "=") x) as [|k [|v rest]] eqn:Es.
    + exfalso. exact (split_char_nonempty _ _ Es).
    + left. eexists. split; [reflexivity|]. exists x. split; [left; reflexivity|].
      intros (k' & v' & rest' & -> & Hk & _). cbn [lit] in Es. change (lit "=" ++ v' ++ rest') with (ch "=" :: v' ++ rest') in Es.
      rewrite split_char_app in Es by exact Hk. injection Es as _ Es. exact (split_char_nonempty _ _ Es).
    + unfold seq, bind, set_env, try_. cbn [im trace].
      destruct (str_eqb k [] || contains_char (ch "=") k || contains_char 0%N k || contains_char 0%N v) eqn:Eb.
      * left. eexists. split; [reflexivity|]. exists x. split; [left; reflexivity|].
        intros (k' & v' & rest' & -> & Hk & Hv & Hrest & Hne & Hk0 & Hv0).
        change (lit "=" ++ v' ++ rest') with (ch "=" :: v' ++ rest') in Es.
        rewrite split_char_app in Es by exact Hk. injection Es as <- Es.
        assert (v' = v).
        { destruct Hrest as [->|[u ->]].
          - rewrite app_nil_r, split_char_none in Es by exact Hv. congruence.
          - rewrite split_char_app in Es by exact Hv. congruence. }
        subst v'. apply orb_true_iff in Eb. rewrite !orb_true_iff in Eb. rewrite !contains_char_In in Eb.
        rewrite str_eqb_eq in Eb. tauto.
      * destruct (IH (with_env (sinsert k v (env i)) i) tr) as [(s' & HP & a & Hin & Ha)|(e & HO & Ha)].
        { left. exists s'. split; [exact HP|]. exists a. split; [right; exact Hin|exact Ha]. }
        right. exists e. split; [exact HO|].
        pose proof (split_char_pieces (ch "=") x) as Hp. rewrite Es in Hp. inversion Hp as [|? ? Hk Hp']; subst. inversion Hp' as [|? ? Hv _]; subst.
        pose proof (split_char_join (ch "=") x) as Hj. rewrite Es in Hj. rewrite <- Hj.
        destruct rest as [|y rest].
        -- cbn [join]. pose proof (assigned_cons (env i) k v [] ws e Hk Hv (or_introl eq_refl) Ha) as H.
           rewrite app_nil_r in H. exact H.
        -- apply (assigned_cons (env i) k v (ch "=" :: join [ch "="] (y :: rest)) ws e Hk Hv); [right; eexists; reflexivity|exact Ha].
Qed.

(** ** A program in a child *)

Definition proc_of (sc : simple_command) : process := process_new (sc_name sc :: words_in sc) (sc_name sc) (sc_name sc).

Definition redirect_none w i tr : eval_redirect w [] (Shell i tr) = (OOk tt, Shell i tr) := eq_refl.

Lemma redirect_any w rs i tr : table (fds i) -> rs = [] \/ nget 0 (fds i) <> None /\ nget 1 (fds i) <> None ->
  (exists s', eval_redirect w rs (Shell i tr) = (OPanic, s') /\ exists r tr', In r rs /\ r_open (w tr') (filename r) (opens_as r) = false) \/
  exists t new, eval_redirect w rs (Shell i tr) = (OOk tt, Shell (with_fds t i) (new ++ tr)) /\
    table t /\ (nget 0 (fds i) <> None /\ nget 1 (fds i) <> None -> nget 0 t <> None /\ nget 1 t <> None) /\
    (forall fd, kept (nget fd t) = kept (redirected rs (fun fd => nget fd (fds i)) fd)) /\
    rev new = map (fun r => EOpen (filename r) (opens_as r)) rs.
Proof.
  intros Ht [-> |[H0 H1]].
  - right. exists (fds i), []. split; [destruct i; reflexivity|]. split; [exact Ht|]. split; [auto|].
    split; [intros fd; rewrite redirected_nil; reflexivity|reflexivity].
  - destruct (redirect_ok w rs i tr Ht H0 H1) as [H|(t & new & H & T1 & T2 & T3 & T4 & T5)]; [left; exact H|].
    right. exists t, new. auto 10.
Qed.

(** Redirections and assignments of a command, then the program. *)
Lemma prefix_suffix_ok w sc i tr : table (fds i) ->
  redirections_in sc = [] \/ nget 0 (fds i) <> None /\ nget 1 (fds i) <> None ->
  (exists s', eval_prefix_suffix w sc (Shell i tr) = (OPanic, s') /\
    ((exists r tr', In r (redirections_in sc) /\ r_open (w tr') (filename r) (opens_as r) = false) \/
     exists a, In a (assignments_in sc) /\ ~ assignable a)) \/
  exists t e new, eval_prefix_suffix w sc (Shell i tr) = (OOk tt, Shell (with_env e (with_fds t i)) (new ++ tr)) /\
    assigned (env i) (assignments_in sc) e /\ table t /\
    (forall fd, kept (nget fd t) = kept (redirected (redirections_in sc) (fun fd => nget fd (fds i)) fd)) /\
    rev new = map (fun r => EOpen (filename r) (opens_as r)) (redirections_in sc).
Proof.
  intros Ht Hr. unfold eval_prefix_suffix, redirections_in, assignments_in in *.
  set (pr := match sc_prefix sc with Some p => p_redirect p | None => [] end) in *.
  set (sr := match sc_suffix sc with Some s => s_redirect s | None => [] end) in *.
  set (asg := match sc_prefix sc with Some p => assignment p | None => [] end).
  assert (E1 : match sc_prefix sc with Some p => eval_redirect w (p_redirect p) ;; eval_assignment (assignment p) | None => ret tt end (Shell i tr)
               = (eval_redirect w pr ;; eval_assignment asg) (Shell i tr)).
  { subst pr asg. destruct (sc_prefix sc); reflexivity. }
  assert (E2 : forall s, match sc_suffix sc with Some s => eval_redirect w (s_redirect s) | None => ret tt end s = eval_redirect w sr s).
  { subst sr. destruct (sc_suffix sc); reflexivity. }
  assert (Hpr : pr = [] \/ nget 0 (fds i) <> None /\ nget 1 (fds i) <> None)
    by (destruct Hr as [Hr|Hr]; [left; apply app_eq_nil in Hr; apply Hr|right; exact Hr]).
  assert (Hsr : sr = [] \/ nget 0 (fds i) <> None /\ nget 1 (fds i) <> None)
    by (destruct Hr as [Hr|Hr]; [left; apply app_eq_nil in Hr; apply Hr|right; exact Hr]).
  destruct (redirect_any w pr i tr Ht Hpr) as [(s1 & HP & r1 & tr1 & HI & HF)|(t & new & HO & T1 & T2 & T3 & T4)].
  - left. exists s1. split; [|left; exists r1, tr1; split; [apply in_or_app; left; exact HI|exact HF]]. unfold seq at 1, bind. rewrite E1. unfold seq, bind. rewrite HP. reflexivity.
  - destruct (assignment_ok asg (with_fds t i) (new ++ tr)) as [(s2 & HP & HB)|(e & HO2 & Ha)].
    + left. exists s2. split; [|right; exact HB]. unfold seq at 1, bind. rewrite E1. unfold seq, bind. rewrite HO, HP. reflexivity.
    + assert (Hsr' : sr = [] \/ nget 0 (fds (with_env e (with_fds t i))) <> None /\ nget 1 (fds (with_env e (with_fds t i))) <> None)
        by (destruct Hsr as [Hsr|Hsr]; [left; exact Hsr|right; apply T2, Hsr]).
      assert (E3 : forall k, seq (match sc_prefix sc with Some p => eval_redirect w (p_redirect p) ;; eval_assignment (assignment p) | None => ret tt end) k (Shell i tr)
                 = (k : M unit) (Shell (with_env e (with_fds t i)) (new ++ tr))).
      { intros k. unfold seq at 1, bind. rewrite E1. unfold seq, bind. rewrite HO, HO2. reflexivity. }
      rewrite E3, E2.
      destruct (redirect_any w sr (with_env e (with_fds t i)) (new ++ tr) T1 Hsr') as [(s3 & HP & r1 & tr1 & HI & HF)|(t' & new' & HO3 & U1 & U2 & U3 & U4)].
      * left. exists s3. split; [exact HP|]. left. exists r1, tr1. split; [apply in_or_app; right; exact HI|exact HF].
      * right. exists t', e, (new' ++ new). rewrite <- app_assoc. split; [exact HO3|]. split; [exact Ha|]. split; [exact U1|]. split.
        -- intros fd. rewrite U3, redirected_app. apply redirected_kept, T3.
        -- rewrite rev_app_distr, map_app, T4, U4. reflexivity.
Qed.

Lemma execve_result w n av v i tr :
  temp_execve w n av v (Shell i tr) =
  (match lookup_command (r_isfile (w (EReset :: tr))) n (cm i) with
   | None => OPanic
   | Some None => OErr (EText (n ++ lit ": Command not found"))
   | Some (Some path) =>
       if contains_char 0%N path then OPanic
       else if r_exec (w (EReset :: tr)) path av then OExec path av v else OErr EOs
   end, Shell (with_handlers false (with_js (with_masked false (js i)) i)) (EReset :: tr)).
Proof.
  unfold temp_execve.
  rewrite (seq_ok fork_reset _ (Shell i tr) tt (Shell (with_handlers false (with_js (with_masked false (js i)) i)) (EReset :: tr)) eq_refl).
  unfold sh_lookup_command, bind, ask, look. cbn [trace im].
  change (cm (with_handlers false (with_js (with_masked false (js i)) i))) with (cm i).
  destruct (lookup_command (r_isfile (w (EReset :: tr))) n (cm i)) as [[path|]|]; [|reflexivity..].
  cbn [unwrap]. unfold ret. destruct (contains_char 0%N path); [reflexivity|]. cbn [trace im].
  destruct (r_exec (w (EReset :: tr)) path av); reflexivity.
Qed.

Lemma child_outcome w rec c i tr t0 n0 len k o s2 :
  c_proc c = proc_of (c_cmd c) -> is_function (sc_name (c_cmd c)) (cm i) = false ->
  table t0 -> at_fork t0 n0 len k (c_prev c) (c_pipe c) (fds i) ->
  redirections_in (c_cmd c) = [] \/ piped t0 n0 len k 0 <> None /\ piped t0 n0 len k 1 <> None ->
  child_main w rec c (Shell i tr) = (o, s2) ->
  (o = OPanic /\
    ((exists r tr1, In r (redirections_in (c_cmd c)) /\ r_open (w tr1) (filename r) (opens_as r) = false) \/
     (exists a, In a (assignments_in (c_cmd c)) /\ ~ assignable a) \/
     exists tr1, lookup_command (r_isfile (w tr1)) (sc_name (c_cmd c)) (cm i) = None \/
       exists path, lookup_command (r_isfile (w tr1)) (sc_name (c_cmd c)) (cm i) = Some (Some path) /\ In 0%N path)) \/
  (o = OExit 1 /\ exists tr1, lookup_command (r_isfile (w tr1)) (sc_name (c_cmd c)) (cm i) = Some None \/
     exists path, lookup_command (r_isfile (w tr1)) (sc_name (c_cmd c)) (cm i) = Some (Some path) /\
       r_exec (w tr1) path (sc_name (c_cmd c) :: words_in (c_cmd c)) = false) \/
  exists path e tr1, o = OExec path (sc_name (c_cmd c) :: words_in (c_cmd c)) e /\
    assigned (env i) (assignments_in (c_cmd c)) e /\
    lookup_command (r_isfile (w tr1)) (sc_name (c_cmd c)) (cm i) = Some (Some path) /\
    (forall fd, kept (nget fd (fds (im s2))) = kept (redirected (redirections_in (c_cmd c)) (piped t0 n0 len k) fd)) /\
    masked (js (im s2)) = false /\ handlers (im s2) = false /\
    exists new, trace s2 = new ++ tr /\ forall p, ~ In (EChdir p) new.
Proof.
  intros Hp Hf Ht0 Haf Hr H. unfold child_main in H.
  rewrite (seq_ok (change (with_forked true)) _ (Shell i tr) tt (Shell (with_forked true i) tr) eq_refl) in H.
  rewrite (seq_ok (on_jobs hold_job) _ (Shell (with_forked true i) tr) tt
    (Shell (with_js (with_jobs (hold_job (jobs (js i))) (js i)) (with_forked true i)) tr) eq_refl) in H.
  set (i0 := with_js (with_jobs (hold_job (jobs (js i))) (js i)) (with_forked true i)) in *.
  assert (E1 : exists tr', (if c_bg c then p <- ask w r_getpid ;; note (ESetpgid p p) else ret tt) (Shell i0 tr)
      = (OOk tt, Shell i0 tr') /\ exists new0, tr' = new0 ++ tr /\ forall p, ~ In (EChdir p) new0).
  { destruct (c_bg c); eexists; (split; [reflexivity|]); [eexists [_]|exists []]; (split; [reflexivity|]); intros p; [intros [F|[]]; discriminate|intros []]. }
  destruct E1 as (tr' & E1 & new0 & Etr & Hn0). rewrite (seq_ok _ _ _ _ _ E1) in H. clear E1.
  destruct (wire_ok t0 n0 len k c i0 tr' Ht0 Haf) as (t & E2 & Ht & Hg).
  rewrite (seq_ok _ _ _ _ _ E2) in H. clear E2.
  set (i1 := with_fds t i0) in *.
  assert (Hr1 : redirections_in (c_cmd c) = [] \/ nget 0 (fds i1) <> None /\ nget 1 (fds i1) <> None)
    by (cbn [fds i1 with_fds]; rewrite !Hg; exact Hr).
  destruct (prefix_suffix_ok w (c_cmd c) i1 tr' Ht Hr1) as [(s3 & HP & HB)|(t1 & e & new & HO & Ha & Ht1 & Hk & Hop)].
  - left. rewrite (seq_fails _ _ _ _ _ HP I) in H. injection H as <- _. split; [reflexivity|]. tauto.
  - rewrite (seq_ok _ _ _ _ _ HO) in H. clear HO.
    set (i2 := with_env e (with_fds t1 i1)) in *.
    rewrite (bind_ok (look cm) _ (Shell i2 (new ++ tr')) (cm i2) (Shell i2 (new ++ tr')) eq_refl) in H.
    change (cm i2) with (cm i) in H. rewrite Hf in H.
    rewrite (bind_ok (look env) _ (Shell i2 (new ++ tr')) e (Shell i2 (new ++ tr')) eq_refl) in H.
    rewrite Hp in H. cbn [proc_of process_new p_argv0 p_argv] in H.
    unfold bind, catch in H. rewrite execve_result in H. change (cm i2) with (cm i) in H.
    set (tr1 := EReset :: new ++ tr') in *.
    destruct (lookup_command (r_isfile (w tr1)) (sc_name (c_cmd c)) (cm i)) as [[path|]|] eqn:El.
    + destruct (contains_char 0%N path) eqn:Ez.
      { left. injection H as <- _. split; [reflexivity|]. right; right. exists tr1. right. exists path. split; [exact El|].
        apply contains_char_In. exact Ez. }
      destruct (r_exec (w tr1) path (sc_name (c_cmd c) :: words_in (c_cmd c))) eqn:Ex.
      * injection H as <- <-. right; right. exists path, e, tr1. split; [reflexivity|]. split; [exact Ha|]. split; [exact El|].
        split; [|split; [reflexivity|split; [reflexivity|]]]; [intros fd; etransitivity; [exact (Hk fd)|]; apply redirected_kept; exact (f_equal kept (Hg fd))|].
        exists (EReset :: new ++ new0). split; [cbn [trace]; unfold tr1; rewrite Etr; cbn [app]; rewrite app_assoc; reflexivity|].
        intros p [F|F]; [discriminate|]. apply in_app_or in F. destruct F as [F|F]; [|exact (Hn0 p F)].
        apply in_rev in F. rewrite Hop in F. apply in_map_iff in F. destruct F as (x & F & _). discriminate.
      * injection H as <- _. right; left. split; [reflexivity|]. exists tr1. right. exists path. split; [exact El|exact Ex].
    + injection H as <- _. right; left. split; [reflexivity|]. exists tr1. left. exact El.
    + injection H as <- _. left. split; [reflexivity|]. right; right. exists tr1. left. exact El.
Qed.
