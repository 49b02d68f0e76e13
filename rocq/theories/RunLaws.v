(** Whole lines. *)
From Verif Require Import Base BaseFacts Lexer LexerSpec Ast Parser GrammarSpec.
From Verif Require GrammarFacts.
From Verif Require Import Context Alias Expand ExpandSpec ExpandFacts ExpandLaws Jobs Shell Builtins Eval.
From Verif Require Import EvalSpec EvalFacts EvalLaws RunSpec.
Local Open Scope Z_scope.

(** ** Chains and lists *)

Lemma chain_ext (run1 run2 : pipeline -> M Z) st s rest ran o s' :
  (forall c p, In (c, p) rest -> forall s, run1 p s = run2 p s) ->
  chain run1 st s rest ran o s' -> chain run2 st s rest ran o s'.
Proof.
  intros E H. revert E. induction H as [st s|st s c p rest ran o s' Hw H IH|st s c p rest st1 s1 ran o s' Hw Hr H IH|st s c p rest o s' Hw Hr F]; intros E.
  - apply chain_end.
  - apply chain_skip; [exact Hw|]. apply IH. intros c1 p1 Hin. apply (E c1). right. exact Hin.
  - apply chain_run with s1; [exact Hw| |apply IH; intros c1 p1 Hin; apply (E c1); right; exact Hin].
    rewrite <- (E c p (or_introl eq_refl)). exact Hr.
  - apply chain_stop; [exact Hw| |exact F]. rewrite <- (E c p (or_introl eq_refl)). exact Hr.
Qed.
Lemma whole_ext (run1 run2 : pipeline -> M Z) s p rest ran o s' :
  (forall s, run1 p s = run2 p s) -> (forall c p, In (c, p) rest -> forall s, run1 p s = run2 p s) ->
  whole_chain run1 s p rest ran o s' -> whole_chain run2 s p rest ran o s'.
Proof.
  intros E0 E H. destruct H as [st1 s1 ran o s' Hr H|o s' Hr F].
  - apply whole_run with s1; [rewrite <- E0; exact Hr|]. eapply chain_ext; eassumption.
  - apply whole_stop; [rewrite <- E0; exact Hr|exact F].
Qed.
Lemma in_order_ext {A} (run1 run2 : A -> M Z) st s l ran o s' :
  (forall a, In a l -> forall s, run1 a s = run2 a s) ->
  in_order run1 st s l ran o s' -> in_order run2 st s l ran o s'.
Proof.
  intros E H. revert E. induction H as [st s|st s a l st1 s1 ran o s' Hr H IH|st s a l o s' Hr F]; intros E.
  - apply in_order_end.
  - apply in_order_run with s1; [rewrite <- (E a (or_introl eq_refl)); exact Hr|].
    apply IH. intros b Hb. apply E. right. exact Hb.
  - apply in_order_stop; [rewrite <- (E a (or_introl eq_refl)); exact Hr|exact F].
Qed.

Lemma exec_render w d l s : l <> [] -> Forall wf_andor l -> exec_text w d (render l) s = evaluate w d l s.
Proof. intros Hl Hf. unfold exec_text. rewrite (GrammarFacts.render_parse l Hl Hf). reflexivity. Qed.
Lemma evaluate_one w d a s : evaluate w (S d) [a] s = eval_and_or w (evaluate w d) a s.
Proof.
  cbn [evaluate]. unfold parse_tree. cbn [parse_tree_from]. unfold bind, ret.
  destruct (eval_and_or w (evaluate w d) a s) as [[]]; reflexivity.
Qed.
Lemma exec_andor w d a s : wf_andor a -> exec_text w (S d) (r_andor a) s = eval_and_or w (evaluate w d) a s.
Proof.
  intros H. rewrite <- evaluate_one. change (r_andor a) with (render [a]).
  apply exec_render; [discriminate|]. constructor; [exact H|constructor].
Qed.
Lemma exec_pipeline w d p s : wf_pipeline p -> exec_text w (S d) (r_pipeline p) s = eval_pipeline w (evaluate w d) p s.
Proof. intros H. exact (exec_andor w d (AoOne p) s H). Qed.
Lemma exec_none w t s : forall c, parse t = Some (Some c) -> exec_text w 0 t s = (OFuel, s).
Proof. intros c H. unfold exec_text. rewrite H. reflexivity. Qed.

Definition tree_of (p0 : pipeline) (rest : list (cond * pipeline)) : and_or :=
  fold_left (fun a cp => AoMore a (fst cp) (snd cp)) rest (AoOne p0).
Lemma tree_of_snoc p0 rest c p : tree_of p0 (rest ++ [(c, p)]) = AoMore (tree_of p0 rest) c p.
Proof. unfold tree_of. rewrite fold_left_app. reflexivity. Qed.
Lemma links_tree p0 rest : links (tree_of p0 rest) = (p0, rest).
Proof.
  induction rest as [|[c p] rest IH] using rev_ind; [reflexivity|].
  rewrite tree_of_snoc. cbn [links]. rewrite IH. reflexivity.
Qed.
Lemma text_tree p0 rest : r_andor (tree_of p0 rest) = chain_text p0 rest.
Proof.
  unfold chain_text. induction rest as [|[c p] rest IH] using rev_ind; [cbn; symmetry; apply app_nil_r|].
  rewrite tree_of_snoc. cbn [r_andor]. rewrite IH, map_app, concat_app. cbn [map List.concat fst snd].
  rewrite !app_nil_r, !app_assoc. reflexivity.
Qed.
Lemma wf_tree p0 rest : wf_pipeline p0 -> Forall (fun cp => wf_pipeline (snd cp)) rest -> wf_andor (tree_of p0 rest).
Proof.
  intros H0. induction rest as [|[c p] rest IH] using rev_ind; intros H; [exact H0|].
  rewrite tree_of_snoc. apply Forall_app in H. destruct H as [H1 H2]. cbn [wf_andor]. split; [apply IH, H1|].
  inversion H2; assumption.
Qed.

Lemma exec_chain w d p0 rest s o s' : wf_pipeline p0 -> Forall (fun cp => wf_pipeline (snd cp)) rest ->
  exec_text w d (chain_text p0 rest) s = (o, s') <->
  exists ran, whole_chain (fun p => exec_text w d (r_pipeline p)) s p0 rest ran o s'.
Proof.
  intros H0 H. pose proof (wf_tree p0 rest H0 H) as Ht. rewrite <- text_tree. destruct d as [|d].
  - assert (Hone : forall p, wf_pipeline p -> forall s, exec_text w 0 (r_pipeline p) s = (OFuel, s)).
    { intros p Hp s0. apply (exec_none w _ _ [AoOne p]). change (r_pipeline p) with (render [AoOne p]).
      apply GrammarFacts.render_parse; [discriminate|]. constructor; [exact Hp|constructor]. }
    rewrite (exec_none w _ s [tree_of p0 rest]).
    2:{ change (r_andor (tree_of p0 rest)) with (render [tree_of p0 rest]).
        apply GrammarFacts.render_parse; [discriminate|]. constructor; [exact Ht|constructor]. }
    split.
    + intros E. injection E as <- <-. eexists. apply whole_stop; [apply Hone, H0|exact I].
    + intros [ran Hr]. inversion Hr as [st1 s1 ran1 o1 s2 Hr1|o1 s2 Hr1]; subst; rewrite Hone in Hr1 by exact H0; congruence.
  - rewrite exec_andor by exact Ht. rewrite and_or_whole, links_tree. cbn [fst snd].
    rewrite Forall_forall in H.
    split; intros [ran Hr]; exists ran; eapply whole_ext; try exact Hr.
    + intros s0. symmetry. apply exec_pipeline, H0.
    + intros c p Hin s0. symmetry. apply exec_pipeline. exact (H (c, p) Hin).
    + intros s0. apply exec_pipeline, H0.
    + intros c p Hin s0. apply exec_pipeline. exact (H (c, p) Hin).
Qed.

Lemma in_order_start {A} (run : A -> M Z) st st' s l ran o s' : l <> [] ->
  in_order run st s l ran o s' -> in_order run st' s l ran o s'.
Proof.
  intros Hl H. destruct H as [st s|st s a l st1 s1 ran o s' Hr H|st s a l o s' Hr F]; [congruence|..].
  - eapply in_order_run; eassumption.
  - eapply in_order_stop; eassumption.
Qed.
Lemma exec_list w d l st s o s' : l <> [] -> Forall wf_andor l ->
  exec_text w d (render l) s = (o, s') <->
  exists ran, in_order (fun a => exec_text w d (r_andor a)) st s l ran o s'.
Proof.
  intros Hl Hf. rewrite exec_render by assumption. destruct d as [|d].
  - assert (Hone : forall a, In a l -> forall s, exec_text w 0 (r_andor a) s = (OFuel, s)).
    { intros a Ha s0. rewrite Forall_forall in Hf. apply (exec_none w _ _ [a]). change (r_andor a) with (render [a]).
      apply GrammarFacts.render_parse; [discriminate|]. constructor; [apply Hf, Ha|constructor]. }
    cbn. destruct l as [|a l]; [congruence|]. split.
    + intros E. injection E as <- <-. eexists. apply in_order_stop; [apply Hone; left; reflexivity|exact I].
    + intros [ran Hr]. inversion Hr as [|st1 s1 a1 l1 st2 s2 ran1 o1 s3 Hr1|st1 s1 a1 l1 o1 s2 Hr1]; subst;
        rewrite Hone in Hr1 by (left; reflexivity); [discriminate Hr1|exact Hr1].
  - cbn [evaluate]. unfold parse_tree. rewrite tree_in_order. rewrite Forall_forall in Hf.
    split; intros [ran Hr]; exists ran.
    + eapply in_order_ext; [|exact (in_order_start _ (-1) st _ _ _ _ _ Hl Hr)].
      intros a Ha s0. symmetry. apply exec_andor, Hf, Ha.
    + eapply in_order_ext; [|exact (in_order_start _ st (-1) _ _ _ _ _ Hl Hr)].
      intros a Ha s0. apply exec_andor, Hf, Ha.
Qed.

(** ** Lines made of words *)

Lemma words_line n ws : n <> [] -> Forall written_word (n :: ws) ->
  wf_pipeline (Pipeline false [CSimple (words_cmd n ws)] false) /\
  r_pipeline (Pipeline false [CSimple (words_cmd n ws)] false) = r_words (n :: ws).
Proof.
  intros Hn Hf. inversion Hf as [|? ? Hw Hws]; subst. split.
  - cbn [wf_pipeline map all fold_right wf_command]. split; [discriminate|].
    split; [split; [|exact I]|intros [E _]; discriminate].
    split; [exact I|]. split; [|left; exact Hw]. unfold words_cmd. cbn [sc_suffix].
    destruct ws as [|x ws]; [exact I|]. cbn [opt]. split; [right; discriminate|].
    split; [|constructor]. cbn [word_list]. eapply Forall_impl; [|exact Hws]. cbn. auto.
  - cbn [r_pipeline map joined r_command app]. rewrite app_nil_r. unfold r_simple, words_cmd.
    cbn [sc_prefix sc_name sc_suffix app]. destruct n as [|c n]; [congruence|].
    destruct ws as [|x ws]; cbn [word_list s_redirect]; unfold r_words, r_redirs; cbn [map List.concat];
      rewrite ?app_nil_r; reflexivity.
Qed.
Lemma exec_words w d n ws s : n <> [] -> Forall written_word (n :: ws) ->
  exec_text w (S d) (r_words (n :: ws)) s =
  eval_pipeline w (evaluate w d) (Pipeline false [CSimple (words_cmd n ws)] false) s.
Proof.
  intros Hn Hf. destruct (words_line n ws Hn Hf) as [H1 H2]. rewrite <- H2. apply exec_pipeline, H1.
Qed.

(** The signals are blocked while a command runs. *)
Definition blocked (s : shell) : shell := Shell (with_js (with_masked true (js (im s))) (im s)) (trace s).

Lemma expand_words w n ws vs s : plain_name (al (im s)) n ->
  Forall2 (ordinary (expand_var (cm (im s)))) ws vs ->
  expand_command w (words_cmd n ws) s = (OOk (SimpleCommand None n (Some (Suffix [] vs))), s).
Proof.
  intros Hn Ho. unfold expand_command, words_cmd.
  destruct ws as [|x ws].
  - inversion Ho; subst. rewrite plain_expand by (auto; exact I). destruct s; reflexivity.
  - rewrite (ordinary_command (r_subst (w (trace s))) (al (im s)) (cm (im s)) [] None n [] (x :: ws) vs Hn I);
      [destruct s; reflexivity|discriminate|exact Ho].
Qed.

Lemma pipeline_builtin w rec n ws vs s : check_if_builtin n = true -> plain_name (al (im s)) n ->
  Forall2 (ordinary (expand_var (cm (im s)))) ws vs ->
  eval_pipeline w rec (Pipeline false [CSimple (words_cmd n ws)] false) s =
  match call_builtin w rec (SimpleCommand None n (Some (Suffix [] vs))) (blocked s) with
  | (OOk _, s') => (OOk 0, s')
  | (o, s') => (lift o, s')
  end.
Proof.
  intros Hb Hn Ho. unfold eval_pipeline. rewrite (seq_ok interrupts_off _ s tt (blocked s) eq_refl).
  cbn [gather eval_command]. unfold eval_simple_command.
  replace (check_if_builtin (sc_name (words_cmd n ws))) with true by (symmetry; exact Hb).
  unfold eval_builtin, seq, bind.
  rewrite (expand_words w n ws vs (blocked s) Hn Ho).
  destruct (call_builtin w rec _ (blocked s)) as [[]]; reflexivity.
Qed.
Lemma exec_builtin w d n ws vs s : check_if_builtin n = true -> plain_name (al (im s)) n ->
  Forall written_word (n :: ws) -> Forall2 (ordinary (expand_var (cm (im s)))) ws vs ->
  exec_text w (S d) (r_words (n :: ws)) s =
  match call_builtin w (evaluate w d) (SimpleCommand None n (Some (Suffix [] vs))) (blocked s) with
  | (OOk _, s') => (OOk 0, s')
  | (o, s') => (lift o, s')
  end.
Proof. intros Hb Hn Hf Ho. rewrite exec_words by (auto; apply Hn). apply pipeline_builtin; assumption. Qed.

(** Blocking the signals beforehand makes no difference. *)
Lemma pipeline_blocked w rec p s : eval_pipeline w rec p (blocked s) = eval_pipeline w rec p s.
Proof. destruct p as [b cs bg]. reflexivity. Qed.
Lemma and_or_blocked w rec a s : eval_and_or w rec a (blocked s) = eval_and_or w rec a s.
Proof.
  induction a as [p|a IH c p]; cbn [eval_and_or]; [apply pipeline_blocked|].
  unfold bind. rewrite IH. reflexivity.
Qed.
Lemma evaluate_blocked w d l s : l <> [] -> evaluate w (S d) l (blocked s) = evaluate w (S d) l s.
Proof.
  intros Hl. destruct l as [|a l]; [congruence|]. cbn [evaluate]. unfold parse_tree. cbn [parse_tree_from].
  unfold bind. rewrite and_or_blocked. reflexivity.
Qed.

(** ** External commands and functions *)

Lemma gather_external w rec sc cs s pcs s1 : check_if_builtin (sc_name sc) = false ->
  gather w rec (CSimple sc :: cs) s = (OOk pcs, s1) -> pcs <> [].
Proof.
  intros Hb H. cbn [gather eval_command] in H. unfold eval_simple_command in H. rewrite Hb in H.
  apply bind_inv_ok in H. destruct H as (r & s2 & H1 & H2).
  apply bind_inv_ok in H1. destruct H1 as (sc' & s3 & _ & H1).
  apply bind_inv_ok in H1. destruct H1 as (v & s4 & _ & H1). injection H1 as <- <-.
  apply bind_inv_ok in H2. destruct H2 as (rest & s5 & _ & H2). injection H2 as <- <-. discriminate.
Qed.
Lemma run_job_unblocked w bg pcs s st s' : run_job w bg pcs s = (OOk st, s') ->
  masked (js (im s')) = false /\ st = exit_status (im s').
Proof.
  intros H. unfold run_job in H.
  apply bind_inv_ok in H. destruct H as (id & s1 & _ & H).
  apply seq_inv_ok in H. destruct H as (u1 & s2 & _ & H).
  apply seq_inv_ok in H. destruct H as (u2 & s3 & _ & H).
  apply seq_inv_ok in H. destruct H as (u3 & s4 & _ & H).
  apply seq_inv_ok in H. destruct H as (u4 & s5 & H1 & H2).
  injection H1 as _ <-. injection H2 as <- <-. split; reflexivity.
Qed.
Lemma pipeline_unblocked w rec b sc cs bg s st s' : check_if_builtin (sc_name sc) = false ->
  eval_pipeline w rec (Pipeline b (CSimple sc :: cs) bg) s = (OOk st, s') ->
  masked (js (im s')) = false /\ st = exit_status (im s').
Proof.
  intros Hb H. unfold eval_pipeline in H. apply seq_inv_ok in H. destruct H as (u & s1 & _ & H).
  apply bind_inv_ok in H. destruct H as (pcs & s2 & H1 & H2).
  apply gather_external in H1; [|exact Hb]. destruct pcs as [|pc pcs]; [congruence|].
  apply bind_inv_ok in H2. destruct H2 as (pcs' & s3 & _ & H2).
  exact (run_job_unblocked _ _ _ _ _ _ H2).
Qed.

Lemma gather_words w rec n ws vs s : check_if_builtin n = false -> plain_name (al (im s)) n ->
  Forall2 (ordinary (expand_var (cm (im s)))) ws vs ->
  (forall c, In c (List.concat (n :: vs)) -> c <> 0%N) ->
  gather w rec [CSimple (words_cmd n ws)] s =
  (OOk [(process_new (n :: vs) n n, SimpleCommand None n (Some (Suffix [] vs)))], s).
Proof.
  intros Hb Hn Ho Hz. cbn [gather eval_command]. unfold eval_simple_command.
  replace (check_if_builtin (sc_name (words_cmd n ws))) with false by (symmetry; exact Hb).
  unfold bind. rewrite (expand_words w n ws vs s Hn Ho). rewrite (argv_words None n [] vs Hz). reflexivity.
Qed.

Lemma function_status w rec n ws vs s st s' : check_if_builtin n = false -> plain_name (al (im s)) n ->
  Forall2 (ordinary (expand_var (cm (im s)))) ws vs ->
  (forall c, In c (List.concat (n :: vs)) -> c <> 0%N) -> is_function n (cm (im s)) = true ->
  eval_pipeline w rec (Pipeline false [CSimple (words_cmd n ws)] false) s = (OOk st, s') ->
  st = 0 /\ exit_status (im s') = 0.
Proof.
  intros Hb Hn Ho Hz Hf H. unfold eval_pipeline in H. rewrite (seq_ok interrupts_off _ s tt (blocked s) eq_refl) in H.
  rewrite (bind_ok _ _ _ _ _ (gather_words w rec n ws vs (blocked s) Hb Hn Ho Hz)) in H.
  apply bind_inv_ok in H. destruct H as (pcs' & s3 & H1 & H2).
  cbn [run_functions] in H1. apply bind_inv_ok in H1. destruct H1 as (m & s4 & Hm & H1). injection Hm as <- <-.
  cbn [snd sc_name] in H1. change (cm (im (blocked s))) with (cm (im s)) in H1. rewrite Hf in H1.
  apply bind_inv_ok in H1. destruct H1 as (ok & s5 & _ & H1). destruct ok; [|discriminate].
  apply bind_inv_ok in H1. destruct H1 as (f & s6 & _ & H1). destruct f; [discriminate|].
  injection H1 as <- <-.
  unfold run_job in H2. cbn [launch map] in H2. cbn in H2. injection H2 as <- <-. split; reflexivity.
Qed.

(** ** Builtin names *)

Ltac spelled := first
  [ apply ww_plain; [split; [cbn; intuition discriminate|reflexivity]|cbn; intuition discriminate|
      repeat constructor; cbn; intuition discriminate|intros ?; cbn; intuition discriminate] ].
Lemma builtin_word n : check_if_builtin n = true -> n <> [] ->
  written_word n /\ (forall al, sget n al = None -> plain_name al n).
Proof.
  intros H Hn. unfold check_if_builtin in H. apply existsb_exists in H. destruct H as (x & Hin & E).
  apply str_eqb_eq in E. subst n.
  repeat (destruct Hin as [<-|Hin]; [split; [try (exfalso; apply Hn; reflexivity); spelled|
    intros al Ha; split; [exact Hn|]; split; [exact Ha|]; split; [intros [t E]; discriminate|];
    intros c Hc; cbn in Hc; repeat (destruct Hc as [<-|Hc]; [split; [discriminate|cbn; intuition discriminate]|]); contradiction]|]).
  destruct Hin.
Qed.
Lemma exec_builtin' w d n ws vs s : check_if_builtin n = true -> n <> [] -> sget n (al (im s)) = None ->
  Forall written_word ws -> Forall2 (ordinary (expand_var (cm (im s)))) ws vs ->
  exec_text w (S d) (r_words (n :: ws)) s =
  match call_builtin w (evaluate w d) (SimpleCommand None n (Some (Suffix [] vs))) (blocked s) with
  | (OOk _, s') => (OOk 0, s')
  | (o, s') => (lift o, s')
  end.
Proof.
  intros Hb Hn Ha Hf Ho. destruct (builtin_word n Hb Hn) as [H1 H2].
  apply exec_builtin; auto.
Qed.

Section Dispatch.
Context (w : os) (rec : list and_or -> M Z) (p : option prefix) (s : option suffix).
Notation cmd n := (SimpleCommand p (lit n) s).
Lemma call_cd : call_builtin w rec (cmd "cd") = change_directory w (cmd "cd").
Proof. reflexivity. Qed.
Lemma call_exit : call_builtin w rec (cmd "exit") = quit (cmd "exit").
Proof. reflexivity. Qed.
Lemma call_return : call_builtin w rec (cmd "return") = return_cmd (cmd "return").
Proof. reflexivity. Qed.
Lemma call_jobs : call_builtin w rec (cmd "jobs") = jobs_cmd.
Proof. reflexivity. Qed.
Lemma call_fg : call_builtin w rec (cmd "fg") = fgbg w (cmd "fg").
Proof. reflexivity. Qed.
Lemma call_bg : call_builtin w rec (cmd "bg") = fgbg w (cmd "bg").
Proof. reflexivity. Qed.
Lemma call_alias : call_builtin w rec (cmd "alias") = alias_cmd (cmd "alias").
Proof. reflexivity. Qed.
Lemma call_unalias : call_builtin w rec (cmd "unalias") = unalias_cmd (cmd "unalias").
Proof. reflexivity. Qed.
Lemma call_export : call_builtin w rec (cmd "export") = export_cmd w rec (cmd "export").
Proof. reflexivity. Qed.
Lemma call_eval : call_builtin w rec (cmd "eval") = eval_cmd rec (cmd "eval").
Proof. reflexivity. Qed.
Lemma call_unset : call_builtin w rec (cmd "unset") = unset_cmd (cmd "unset").
Proof. reflexivity. Qed.
Lemma call_pwd : call_builtin w rec (cmd "pwd") = pwd w.
Proof. reflexivity. Qed.
Lemma call_readonly : call_builtin w rec (cmd "readonly") = readonly_cmd (cmd "readonly").
Proof. reflexivity. Qed.
Lemma call_exec : call_builtin w rec (cmd "exec") = exec_cmd w (cmd "exec").
Proof. reflexivity. Qed.
Lemma call_dot : call_builtin w rec (cmd ".") = source_cmd w rec (cmd ".").
Proof. reflexivity. Qed.
Lemma call_source : call_builtin w rec (cmd "source") = source_cmd w rec (cmd "source").
Proof. reflexivity. Qed.
Lemma call_assignment : call_builtin w rec (cmd "") = assignment_cmd (cmd "").
Proof. reflexivity. Qed.
End Dispatch.

Lemma args_line (n : str) (ws : list str) : n <> [] -> written_word n -> Forall written_arg ws ->
  wf_pipeline (Pipeline false [CSimple (words_cmd n ws)] false) /\
  r_pipeline (Pipeline false [CSimple (words_cmd n ws)] false) = r_words (n :: ws).
Proof.
  intros Hn Hw Hws. split.
  - cbn [wf_pipeline map all fold_right wf_command]. split; [discriminate|].
    split; [split; [|exact I]|intros [E _]; discriminate].
    split; [exact I|]. split; [|left; exact Hw]. unfold words_cmd. cbn [sc_suffix].
    destruct ws as [|x ws]; [exact I|]. cbn [opt]. split; [right; discriminate|].
    split; [exact Hws|constructor].
  - cbn [r_pipeline map joined r_command app]. rewrite app_nil_r. unfold r_simple, words_cmd.
    cbn [sc_prefix sc_name sc_suffix app]. destruct n as [|c n]; [congruence|].
    destruct ws as [|x ws]; cbn [word_list s_redirect]; unfold r_words, r_redirs; cbn [map List.concat];
      rewrite ?app_nil_r; reflexivity.
Qed.
Lemma exec_args_line w d n ws vs s : check_if_builtin n = true -> n <> [] -> sget n (al (im s)) = None ->
  Forall written_arg ws -> Forall2 (ordinary (expand_var (cm (im s)))) ws vs ->
  exec_text w (S d) (r_words (n :: ws)) s =
  match call_builtin w (evaluate w d) (SimpleCommand None n (Some (Suffix [] vs))) (blocked s) with
  | (OOk _, s') => (OOk 0, s')
  | (o, s') => (lift o, s')
  end.
Proof.
  intros Hb Hn Ha Hf Ho. destruct (builtin_word n Hb Hn) as [H1 H2].
  destruct (args_line n ws Hn H1 Hf) as [W1 W2]. rewrite <- W2, exec_pipeline by exact W1.
  apply pipeline_builtin; auto.
Qed.
