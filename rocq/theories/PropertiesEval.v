(** Properties C44, C45 and C48-C52: evaluation of whole lines. *)
From Verif Require Import Base BaseFacts Lexer LexerSpec Ast Parser GrammarSpec.
From Verif Require GrammarFacts LexerFacts.
From Verif Require Import Context Alias Expand ExpandSpec ExpandFacts ExpandLaws Jobs Shell Builtins Eval.
From Verif Require Import EvalSpec EvalFacts EvalLaws EvalKeeps EvalStack RunSpec RunLaws.
Local Open Scope Z_scope.

(** ** A shell and a system for the examples *)

(** Every file exists; commands end with status 0, except [false]; the only
    process id is 100. *)
Definition ex_reports (code : Z) : reports :=
  Reports (fun _ => true) (fun _ _ => true) (fun _ => Some (lit "unset")) (fun _ => true) (Some (lit "/"))
          (fun _ => true) true (Some 100%positive) (fun _ _ => true) 100
          [AStatus (Exited 100 code); AFail] (fun _ _ => Some (lit "out")).
Definition ex_os : os := fun t =>
  ex_reports match t with
             | EFork _ c _ :: _ => if str_eqb (sc_name (c_cmd c)) (lit "false") then 1 else 0
             | _ => 0
             end.
Definition ex_cm : cmgr := Cmgr [Context [(lit "PATH", Var (lit "/bin") false); (lit "PS4", Var (lit "+ ") false)] [] []; Context [] [] []] [0; 1]%nat [].
Definition ex_image : image :=
  Image ex_cm [] (Jst jc_new false false []) 0 false [] [(0, Desc (Other 0) false); (1, Desc (Other 1) false); (2, Desc (Other 2) false)] true 0 (lit "history.txt").
Definition ex_shell : shell := Shell ex_image [].
(** The names of the commands a run has started, in order. *)
Definition ran_commands (t : list event) : list str :=
  rev (flat_map (fun e => match e with EFork _ c _ => [sc_name (c_cmd c)] | _ => [] end) t).
Definition ex_run (t : string) := exec_text ex_os 5 (lit t) ex_shell.

(** ** C44 *)

(** Running the text [p0 op p1 op ...] is running the pipelines, each as a line
    of its own, from left to right; which ones are run is decided by the operator
    in front and the status so far. *)
Theorem C44_chain : forall w d p0 rest s o s',
  wf_pipeline p0 -> Forall (fun cp => wf_pipeline (snd cp)) rest ->
  exec_text w d (chain_text p0 rest) s = (o, s') <->
  exists ran, whole_chain (fun p => exec_text w d (r_pipeline p)) s p0 rest ran o s'.
Proof. exact exec_chain. Qed.

(** The outcome is that of the last pipeline run. *)
Theorem C44_status : forall w d p0 rest s o s',
  wf_pipeline p0 -> Forall (fun cp => wf_pipeline (snd cp)) rest ->
  exec_text w d (chain_text p0 rest) s = (o, s') ->
  exists before q, whole_chain (fun p => exec_text w d (r_pipeline p)) s p0 rest (before ++ [(q, o)]) o s'.
Proof.
  intros w d p0 rest s o s' H0 H E. apply (exec_chain w d p0 rest s o s' H0 H) in E. destruct E as [ran E].
  destruct (whole_last _ _ _ _ _ _ _ E) as (before & q & ->). eauto.
Qed.

Example C44_example :
  let one x := Pipeline false [CSimple (words_cmd (lit x) [])] false in
  chain_text (one "false"%string) [(CAnd, one "a"%string); (COr, one "b"%string); (COr, one "c"%string); (CAnd, one "d"%string)]
    = lit " false && a || b || c && d" /\
  ran_commands (trace (snd (ex_run " false && a || b || c && d"))) = [lit "false"; lit "b"; lit "d"] /\
  fst (ex_run " false && a || b || c && d") = OOk 0 /\ fst (ex_run "true && false") = OOk 1.
Proof. split; [vm_compute; reflexivity|]. split; [vm_compute; reflexivity|]. split; vm_compute; reflexivity. Qed.

(** ** C45 *)

(** Running a list is running its elements, each as a line of its own, in order. *)
Theorem C45_list : forall w d l st s o s', l <> [] -> Forall wf_andor l ->
  exec_text w d (render l) s = (o, s') <->
  exists ran, in_order (fun a => exec_text w d (r_andor a)) st s l ran o s'.
Proof. exact exec_list. Qed.

(** The outcome is that of the last element run; all elements before it had a
    status, and if it has one, it is the last of the list. *)
Theorem C45_stops : forall w d l st s o s', l <> [] -> Forall wf_andor l ->
  exec_text w d (render l) s = (o, s') ->
  exists before a after,
    l = map fst before ++ a :: after /\ (forall x ox, In (x, ox) before -> exists z, ox = OOk z) /\
    (~ fails o -> after = []) /\
    in_order (fun a => exec_text w d (r_andor a)) st s l (before ++ [(a, o)]) o s'.
Proof.
  intros w d l st s o s' Hl Hf E. apply (exec_list w d l st s o s' Hl Hf) in E. destruct E as [ran E].
  destruct (in_order_last _ _ _ _ _ _ _ E Hl) as (before & a & -> & E1 & E2 & E3).
  exists before, a, (skipn (List.length (before ++ [(a, o)])) l).
  split; [|split; [exact E2|split; [|exact E]]].
  - rewrite <- (firstn_skipn (List.length (before ++ [(a, o)])) l) at 1. rewrite <- E1, <- app_assoc. reflexivity.
  - intros Ho. rewrite (E3 Ho). apply skipn_all.
Qed.

Example C45_example :
  ran_commands (trace (snd (ex_run "a ; false ; b"))) = [lit "a"; lit "false"; lit "b"] /\
  fst (ex_run "a ; b ; false") = OOk 1 /\
  ran_commands (trace (snd (ex_run "a ; exit 3 ; b"))) = [lit "a"] /\ fst (ex_run "a ; exit 3 ; b") = OExit 3 /\
  ran_commands (trace (snd (ex_run "a ; unset ; b"))) = [lit "a"] /\
  fst (ex_run "a ; unset ; b") = OErr (EText (lit "unset needs an argument")).
Proof.
  split; [vm_compute; reflexivity|]. split; [vm_compute; reflexivity|]. split; [vm_compute; reflexivity|].
  split; [vm_compute; reflexivity|]. split; vm_compute; reflexivity.
Qed.

(** ** C48 *)

(** A pipeline that starts with a command which is no builtin leaves the signals
    unblocked, if it has a status.  Missing: everything else, see below. *)
Theorem C48_unblocked_partial : forall w d b sc cs bg s st s',
  wf_pipeline (Pipeline b (CSimple sc :: cs) bg) -> check_if_builtin (sc_name sc) = false ->
  exec_text w d (r_pipeline (Pipeline b (CSimple sc :: cs) bg)) s = (OOk st, s') ->
  masked (js (im s')) = false.
Proof.
  intros w d b sc cs bg s st s' Hw Hb H. destruct d as [|d].
  - rewrite (exec_none w _ s [AoOne (Pipeline b (CSimple sc :: cs) bg)]) in H; [discriminate|].
    change (r_pipeline ?p) with (render [AoOne p]). apply GrammarFacts.render_parse; [discriminate|].
    constructor; [exact Hw|constructor].
  - rewrite exec_pipeline in H by exact Hw. apply (pipeline_unblocked _ _ _ _ _ _ _ _ _ Hb H).
Qed.

Example C48_example : exists s', ex_run "ls | wc" = (OOk 0, s') /\ masked (js (im s')) = false.
Proof. eexists. split; [vm_compute; reflexivity|]. vm_compute. reflexivity. Qed.

(** Defining a function, [return], [pwd]: the signals stay blocked after the
    command, whatever they were before; so they do after an error. *)
Lemma return_line : forall w d x v z s, sget (lit "return") (al (im s)) = None -> written_word x ->
  ordinary (expand_var (cm (im s))) x v -> numeral v z ->
  exec_text w (S d) (r_words [lit "return"; x]) s =
  (OOk 0, Shell (with_exit z (im (blocked s))) (trace s)).
Proof.
  intros w d x v z s Hn Hx Ho Hz.
  rewrite (exec_builtin' w d (lit "return") [x] [v] s); try reflexivity; try assumption; try discriminate.
  - unfold call_builtin. cbn. apply LexerFacts.parse_i32_iff in Hz. unfold return_cmd. cbn [words_of sc_suffix word_list].
    rewrite Hz. reflexivity.
  - constructor; [exact Hx|constructor].
  - constructor; [exact Ho|constructor].
Qed.
Theorem C48_blocked_refuted : forall w d s,
  (forall name body redirs, wf_command (CFunction name body redirs) ->
     exists s', exec_text w (S d) (r_pipeline (Pipeline false [CFunction name body redirs] false)) s = (OOk 0, s') /\
       masked (js (im s')) = true) /\
  (forall x v z, sget (lit "return") (al (im s)) = None -> written_word x ->
     ordinary (expand_var (cm (im s))) x v -> numeral v z ->
     exists s', exec_text w (S d) (r_words [lit "return"; x]) s = (OOk 0, s') /\ masked (js (im s')) = true) /\
  (forall dir, sget (lit "pwd") (al (im s)) = None -> r_cwd (w (trace s)) = Some dir ->
     exists s', exec_text w (S d) (r_words [lit "pwd"]) s = (OOk 0, s') /\ masked (js (im s')) = true) /\
  (sget (lit "unset") (al (im s)) = None ->
     exists e s', exec_text w (S d) (r_words [lit "unset"]) s = (OErr e, s') /\ masked (js (im s')) = true).
Proof.
  intros w d s. split; [|split; [|split]].
  - intros name body redirs Hw. eexists. rewrite exec_pipeline.
    + split; [reflexivity|]. reflexivity.
    + cbn [wf_pipeline map all fold_right]. split; [discriminate|]. split; [split; [exact Hw|exact I]|intros [E _]; discriminate].
  - intros x v z Ha Hx Ho Hz. eexists. split; [apply (return_line w d x v z s); assumption|reflexivity].
  - intros dir Ha Hd. eexists.
    rewrite (exec_builtin' w d (lit "pwd") [] [] s); try reflexivity; try assumption; try discriminate; try constructor.
    + unfold call_builtin. cbn. unfold pwd, bind, ask. change (trace (blocked s)) with (trace s). rewrite Hd. reflexivity.
    + reflexivity.
  - intros Ha. do 2 eexists.
    rewrite (exec_builtin' w d (lit "unset") [] [] s); try reflexivity; try assumption; try discriminate; try constructor; reflexivity.
Qed.

Example C48_refuted_example :
  map (fun t => masked (js (im (snd (ex_run t))))) ["f ( ) { ls ; }"; "return 3"; "pwd"; "unset"; "x=1"; "ls"]%string =
  [true; true; true; true; true; false].
Proof. vm_compute. reflexivity. Qed.

(** ** C49 *)

(** A run that returns leaves the scopes as they were, except that every file
    evaluated as a namespace which ended in an error leaves one more scope on the
    stack.  Missing: see below. *)
Theorem C49_balanced_partial : forall w d t s o s', stack (cm (im s)) <> [] ->
  exec_text w d t s = (o, s') -> returns o ->
  exists new extra, trace s' = new ++ trace s /\ stack (cm (im s')) = stack (cm (im s)) ++ extra /\
    List.length extra = failures new.
Proof.
  intros w d t s o s' Hs H Ho. unfold exec_text in H. destruct (parse t) as [[l|]|].
  - cbn [eval eval_complete] in H. apply (evaluate_grown w d l s o s' H (or_intror Ho) Hs).
  - injection H as <- <-. exists [], []. rewrite app_nil_r. auto.
  - injection H as <- <-. exists [], []. rewrite app_nil_r. auto.
Qed.

(** In particular, without such a file. *)
Theorem C49_balanced : forall w d t s o s' new, stack (cm (im s)) <> [] ->
  exec_text w d t s = (o, s') -> returns o -> trace s' = new ++ trace s -> ~ In (ENamespace false) new ->
  stack (cm (im s')) = stack (cm (im s)).
Proof.
  intros w d t s o s' new Hs H Ho Ht Hin. destruct (C49_balanced_partial w d t s o s' Hs H Ho) as (n & extra & E1 & E2 & E3).
  rewrite Ht in E1. apply app_inv_tail in E1. subst n.
  assert (Hz : failures new = 0%nat).
  { clear - Hin. induction new as [|e new IH]; [reflexivity|].
    assert (Hi : failures new = 0%nat) by (apply IH; intros Hx; apply Hin; right; exact Hx).
    destruct e as [| | | | | | | | |[]|]; cbn; try exact Hi. exfalso. apply Hin. left. reflexivity. }
  rewrite Hz in E3. destruct extra; [|discriminate]. rewrite E2, app_nil_r. reflexivity.
Qed.

Example C49_example :
  let r := ex_run "f ( ) { ls ; } ; f a ; g ( ) { f ; f ; } ; g" in
  fst r = OOk 0 /\ stack (cm (im (snd r))) = [0; 1]%nat /\
  ran_commands (trace (snd r)) = [lit "ls"; lit "ls"; lit "ls"].
Proof. split; [vm_compute; reflexivity|]. split; vm_compute; reflexivity. Qed.

(** A file that ends in an error. *)
Theorem C49_balanced_refuted : exists w d t s e s',
  exec_text w d t s = (OErr e, s') /\ stack (cm (im s)) = [0; 1]%nat /\ stack (cm (im s')) = [0; 1; 2]%nat.
Proof.
  exists ex_os, 5%nat, (lit "export context 'ns=file'"), ex_shell. eexists. eexists.
  split; [vm_compute; reflexivity|]. split; vm_compute; reflexivity.
Qed.

(** ** C50 *)

(** The text is run, with all its effects; the status of [eval] itself is 0 and
    errors are wrapped.  Missing: the status, texts of several words. *)
Theorem C50_eval_partial : forall w d l s, sget (lit "eval") (al (im s)) = None ->
  l <> [] -> Forall wf_andor l -> ~ In (ch "'") (render l) ->
  exec_text w (S (S d)) (r_words [lit "eval"; sq (render l)]) s =
  match exec_text w (S d) (render l) s with
  | (OOk _, s') => (OOk 0, s')
  | (OErr e, s') => (OErr (EString e), s')
  | r => r
  end.
Proof.
  intros w d l s Ha Hl Hf Hq.
  rewrite (exec_builtin' w (S d) (lit "eval") [sq (render l)] [render l] s); try reflexivity; try assumption; try discriminate.
  - rewrite call_eval.
    unfold eval_cmd. cbn [words_of sc_suffix word_list word_at nth_error unwrap]. unfold bind at 1, ret at 1.
    assert (Ep : parse_text (render l ++ [10%N]) = ret (Some l)).
    { unfold parse_text. pose proof (GrammarFacts.render_parse_newline l Hl Hf) as E.
      etransitivity; [|exact (eq_refl (ret (Some l)))]. replace (parse (render l ++ [10%N])) with (Some (Some l)) by (symmetry; exact E). reflexivity. }
    rewrite Ep. unfold bind at 1, ret at 1.
    rewrite (exec_render w (S d) l s Hl Hf). cbn [eval_complete]. unfold bind, catch. rewrite (evaluate_blocked w d l s Hl).
    destruct (evaluate w (S d) l s) as [[]]; reflexivity.
  - constructor; [|constructor]. apply ww_quoted; [cbn; auto|exact Hq].
  - constructor; [|constructor]. apply o_single, Hq.
Qed.

Example C50_example :
  let l := [AoOne (Pipeline false [CSimple (words_cmd (lit "a") [lit "b"])] false); AoOne (Pipeline false [CSimple (words_cmd (lit "false") [])] false)] in
  render l = lit " a b ; false" /\ Forall wf_andor l /\
  ran_commands (trace (snd (ex_run "eval ' a b ; false'"))) = [lit "a"; lit "false"] /\
  exit_status (im (snd (ex_run "eval ' a b ; false'"))) = 1.
Proof.
  split; [vm_compute; reflexivity|]. split; [|split; vm_compute; reflexivity].
  assert (Ha : written_word (lit "a")) by spelled. assert (Hb : written_word (lit "b")) by spelled.
  assert (Hf : written_word (lit "false")) by spelled.
  constructor; [|constructor; [|constructor]].
  - apply (words_line (lit "a") [lit "b"]); [discriminate|]. repeat (apply Forall_cons; [assumption|]); apply Forall_nil.
  - apply (words_line (lit "false") []); [discriminate|]. repeat (apply Forall_cons; [assumption|]); apply Forall_nil.
Qed.

(** The status is lost: after [eval 'false'] a [&&] goes on.  Only the first word
    is looked at.  A text that ends in a semicolon is a command by itself but not
    for [eval]. *)
Theorem C50_eval_refuted :
  (fst (ex_run "false") = OOk 1 /\ fst (ex_run "eval 'false'") = OOk 0 /\
   ran_commands (trace (snd (ex_run "eval 'false' && a"))) = [lit "false"; lit "a"]) /\
  (forall w d x v ws vs s, sget (lit "eval") (al (im s)) = None -> Forall written_word (x :: ws) ->
     Forall2 (ordinary (expand_var (cm (im s)))) (x :: ws) (v :: vs) ->
     exec_text w (S d) (r_words (lit "eval" :: x :: ws)) s = exec_text w (S d) (r_words [lit "eval"; x]) s) /\
  (fst (ex_run "a;") = OOk 0 /\ fst (ex_run "eval 'a;'") = OErr EParse).
Proof.
  split; [|split].
  - split; [vm_compute; reflexivity|]. split; vm_compute; reflexivity.
  - intros w d x v ws vs s Ha Hf Ho.
    inversion Hf as [|? ? Hx Hws]; subst. inversion Ho as [|? ? ? ? Ho1 Ho2]; subst.
    rewrite (exec_builtin' w d (lit "eval") (x :: ws) (v :: vs) s); try reflexivity; try assumption; try discriminate.
    rewrite (exec_builtin' w d (lit "eval") [x] [v] s); try reflexivity; try assumption; try discriminate.
    + constructor; [exact Hx|constructor].
    + constructor; [exact Ho1|constructor].
  - split; vm_compute; reflexivity.
Qed.

(** ** C51 *)

(** Two runs of a text from the same state on systems that report the same
    things have the same outcome and the same effects, and so has a run with a
    larger budget. *)
Theorem C51_deterministic : forall w1 w2 n m t s o s', (n <= m)%nat ->
  exec_text w1 n t s = (o, s') -> o <> OFuel -> reports_same w1 w2 (trace s) (trace s') ->
  exec_text w2 m t s = (o, s').
Proof.
  intros w1 w2 n m t s o s' Hnm H Ho Hag. unfold exec_text in *. destruct (parse t) as [[l|]|]; [|exact H|exact H].
  cbn [eval eval_complete] in *. unfold eval, eval_complete in *.
  destruct (loc_evaluate w1 w2 n m l Hnm s) as [_ E]. rewrite H in E. cbn [fst snd] in E. symmetry. apply E; [|exact Ho].
  intros u [mid Hu] [newer Hn]. apply (Hag u newer Hn). exists mid. exact Hu.
Qed.

(** What has happened is not forgotten. *)
Theorem C51_history_grows : forall w n t s, exists new, trace (snd (exec_text w n t s)) = new ++ trace s.
Proof.
  intros w n t s. unfold exec_text. destruct (parse t) as [[l|]|]; [|exists []; reflexivity|exists []; reflexivity].
  apply evaluate_later.
Qed.

(** A system that reports something else, but not along this run. *)
Example C51_example :
  let w2 : os := fun t => if Nat.ltb (List.length t) 5 then ex_os t else ex_reports 77 in
  reports_same ex_os w2 [] (trace (snd (ex_run "a && b"))) /\ fst (ex_run "a && b") <> OFuel /\
  exec_text w2 9 (lit "a && b") ex_shell = ex_run "a && b" /\
  exec_text w2 9 (lit "a && b && c && d") ex_shell <> ex_run "a && b && c && d".
Proof.
  split; [|split; [|split]].
  - intros older newer E _. assert (Hl : (List.length (newer ++ older) <= 4)%nat) by (rewrite <- E; vm_compute; lia).
    rewrite app_length in Hl. destruct (Nat.ltb_spec (List.length older) 5); [reflexivity|lia].
  - vm_compute. discriminate.
  - vm_compute. reflexivity.
  - intros E. apply (f_equal fst) in E. vm_compute in E. discriminate.
Qed.

(** ** C52 *)

(** [exit z] ends the shell with [z], [exit] with the last status. *)
Theorem C52_exit : forall w d s, sget (lit "exit") (al (im s)) = None ->
  (forall x v z, written_word x -> ordinary (expand_var (cm (im s))) x v -> numeral v z ->
     exec_text w (S d) (r_words [lit "exit"; x]) s = (OExit z, saved (blocked s))) /\
  exec_text w (S d) (r_words [lit "exit"]) s = (OExit (exit_status (im s)), saved (blocked s)).
Proof.
  intros w d s Ha. split.
  - intros x v z Hx Ho Hz.
    rewrite (exec_builtin' w d (lit "exit") [x] [v] s); try reflexivity; try assumption; try discriminate.
    + rewrite call_exit. apply LexerFacts.parse_i32_iff in Hz. unfold quit. cbn [words_of sc_suffix word_list].
      rewrite Hz. reflexivity.
    + constructor; [exact Hx|constructor].
    + constructor; [exact Ho|constructor].
  - rewrite (exec_builtin' w d (lit "exit") [] [] s); try reflexivity; try assumption; try discriminate; constructor.
Qed.

(** [return z] sets the status.  Missing: it does not end anything. *)
Theorem C52_return_partial : forall w d x v z s, sget (lit "return") (al (im s)) = None -> written_word x ->
  ordinary (expand_var (cm (im s))) x v -> numeral v z ->
  exec_text w (S d) (r_words [lit "return"; x]) s =
  (OOk 0, Shell (with_exit z (im (blocked s))) (trace s)).
Proof. exact return_line. Qed.

Example C52_example :
  ordinary (expand_var ex_cm) (lit "-7") (lit "-7") /\ numeral (lit "-7") (-7) /\
  fst (ex_run "exit -7") = OExit (-7) /\ fst (ex_run "false ; exit") = OExit 1 /\
  exit_status (im (snd (ex_run "return 7"))) = 7.
Proof.
  split; [apply o_plain; intros [t E]; discriminate|]. split; [apply LexerFacts.parse_i32_iff; vm_compute; reflexivity|].
  split; [vm_compute; reflexivity|]. split; vm_compute; reflexivity.
Qed.

(** What follows a [return] is run, as if the [return] were not there. *)
Theorem C52_return_refuted : forall w d x v z l s, sget (lit "return") (al (im s)) = None -> written_word x ->
  ordinary (expand_var (cm (im s))) x v -> numeral v z -> l <> [] -> Forall wf_andor l ->
  exec_text w (S d) (r_words [lit "return"; x] ++ lit " ;" ++ render l) s =
  exec_text w (S d) (render l) (Shell (with_exit z (im s)) (trace s)).
Proof.
  intros w d x v z l s Ha Hx Ho Hz Hl Hf.
  pose proof (proj1 (builtin_word (lit "return") eq_refl ltac:(discriminate))) as Hw.
  assert (Hww : Forall written_word [lit "return"; x]) by (repeat (apply Forall_cons; [assumption|]); apply Forall_nil).
  destruct (words_line (lit "return") [x]) as [W1 W2]; [discriminate|exact Hww|].
  set (a := AoOne (Pipeline false [CSimple (words_cmd (lit "return") [x])] false)) in *.
  assert (Er : r_words [lit "return"; x] ++ lit " ;" ++ render l = render (a :: l)).
  { unfold render. cbn [map]. destruct l as [|b l]; [congruence|].
    change (joined (lit " ;") (r_andor a :: map r_andor (b :: l))) with (r_andor a ++ lit " ;" ++ joined (lit " ;") (map r_andor (b :: l))).
    exact (f_equal (fun y => y ++ lit " ;" ++ joined (lit " ;") (map r_andor (b :: l))) (eq_sym W2)). }
  rewrite Er. rewrite exec_render; [|discriminate|constructor; [exact W1|exact Hf]].
  cbn [evaluate]. unfold parse_tree. cbn [parse_tree_from].
  assert (E1 : eval_and_or w (evaluate w d) a s = (OOk 0, blocked (Shell (with_exit z (im s)) (trace s)))).
  { etransitivity; [symmetry; exact (exec_words w d (lit "return") [x] s ltac:(discriminate) Hww)|]. etransitivity; [exact (return_line w d x v z s Ha Hx Ho Hz)|]. reflexivity. }
  rewrite (bind_ok _ _ _ _ _ E1). rewrite exec_render by assumption.
  rewrite <- evaluate_blocked by exact Hl. destruct l as [|b l]; [congruence|]. reflexivity.
Qed.

(** And the status of a function call is 0, whatever its body did. *)
Theorem C52_function_status_refuted : forall w d n ws vs s st s', check_if_builtin n = false ->
  plain_name (al (im s)) n -> Forall written_word (n :: ws) ->
  Forall2 (ordinary (expand_var (cm (im s)))) ws vs ->
  (forall c, In c (List.concat (n :: vs)) -> c <> 0%N) -> is_function n (cm (im s)) = true ->
  exec_text w (S d) (r_words (n :: ws)) s = (OOk st, s') -> st = 0 /\ exit_status (im s') = 0.
Proof.
  intros w d n ws vs s st s' Hb Hn Hf Ho Hz Hfn H. rewrite exec_words in H by (auto; apply Hn).
  eapply function_status; eassumption.
Qed.

Example C52_refuted_example :
  ran_commands (trace (snd (ex_run "f ( ) { return 7 ; a ; } ; f"))) = [lit "a"] /\
  fst (ex_run "f ( ) { return 7 ; } ; f") = OOk 0 /\ exit_status (im (snd (ex_run "f ( ) { return 7 ; } ; f"))) = 0.
Proof. split; [vm_compute; reflexivity|]. split; vm_compute; reflexivity. Qed.

Print Assumptions C44_chain.
Print Assumptions C44_status.
Print Assumptions C45_list.
Print Assumptions C45_stops.
Print Assumptions C48_unblocked_partial.
Print Assumptions C48_blocked_refuted.
Print Assumptions C49_balanced_partial.
Print Assumptions C49_balanced.
Print Assumptions C49_balanced_refuted.
Print Assumptions C50_eval_partial.
Print Assumptions C50_eval_refuted.
Print Assumptions C51_deterministic.
Print Assumptions C51_history_grows.
Print Assumptions C52_exit.
Print Assumptions C52_return_partial.
Print Assumptions C52_return_refuted.
Print Assumptions C52_function_status_refuted.
