(** Properties C128-C136: what the text of a line may contain, what is refused,
    and where words begin and end. *)
From Verif Require Import Base BaseFacts Lexer LexerSpec LexerFacts LexerLaws Ast Parser GrammarSpec GrammarFacts
  Context Alias Expand ExpandSpec ExpandFacts ExpandLaws Jobs Shell Builtins Eval EvalSpec EvalFacts EvalLaws RunSpec RunLaws
  Main TextSpec TextLaws.
From Verif Require PropertiesExpand PropertiesEval.
Local Open Scope Z_scope.

(** The program named first in the line gets these words. *)
Definition gets (out : oracle) (a : aliases) (m : cmgr) (log : ran) (text : str) (args : list str) : Prop :=
  exists sc sc', parse text = Some (Some [AoOne (Pipeline false [CSimple sc] false)]) /\
    expand out a m log sc = Some (sc', log) /\ argv sc' = Some args.

(** ** C128: what the shell does not support it refuses *)

Lemma unsupported_nowhere t : In t unsupported -> may_begin t = false /\ forall x, may_follow x t = false.
Proof.
  intros H. cbn in H. decompose [or] H; subst; try contradiction; (split; [reflexivity|]);
    intros x; destruct x; reflexivity.
Qed.

Lemma loop_no_prompt w n ins s : expand_var (cm (im s)) (lit "PS1") = None -> interactive_loop w n ins s = (OPanic, s).
Proof. intros E. destruct ins as [|[t| | | |] ins]; cbn [interactive_loop]; unfold bind at 1, look, seq; rewrite E; reflexivity. Qed.

(** A line that is not a command is skipped. *)
Lemma loop_skips w n t ins s : parse t = None ->
  interactive_loop w n (TLine t :: ins) s = interactive_loop w n ins s.
Proof.
  intros E. destruct (expand_var (cm (im s)) (lit "PS1")) as [p|] eqn:Ep.
  - cbn [interactive_loop]. unfold bind at 1, look. rewrite Ep.
    rewrite (seq_ok (unwrap (Some p)) _ s p s eq_refl).
    rewrite (seq_ok (run_line w n t) _ s tt s); [reflexivity|]. unfold run_line. rewrite E. destruct t; reflexivity.
  - rewrite !loop_no_prompt by exact Ep. reflexivity.
Qed.

(** Wherever a line has one of the tokens this shell has no rule for, outside
    quotes and comments, or a star, the line as a whole is not a command: typed,
    it changes nothing, and the session goes on. *)
Theorem C128_refused : forall w n ins s a u rest is,
  reading a (u ++ rest) is ->
  (exists t len, token_here u rest t len /\ In t unsupported) \/ u = lit "*" ->
  parse (a ++ u ++ rest) = None /\
  interactive_loop w n (TLine (a ++ u ++ rest) :: ins) s = interactive_loop w n ins s.
Proof.
  intros w n ins s a u rest is Ha H.
  assert (E : parse (a ++ u ++ rest) = None).
  { destruct H as [(t & len & Ht & Hi)| ->].
    - destruct (unsupported_nowhere t Hi) as [Hb Hf]. exact (refused_token a u rest is t len Ha Ht Hb Hf).
    - exact (refused_star a rest is Ha). }
  split; [exact E|]. apply loop_skips, E.
Qed.

Ltac ws := repeat (apply Forall_cons; [spelled|]); apply Forall_nil.

(** [cat <<EOF], [rm a 2>&1], [ls *] *)
Example C128_example :
  (exists is, reading (lit " cat ") (lit "<<" ++ lit "EOF") is /\
     token_here (lit "<<") (lit "EOF") TDoubleLess 1) /\
  map (fun t => parse (lit t)) ["cat <<EOF"; "rm a 2>&1"; "ls *"; "rm a; echo ${A}"; "if a; then b; fi"]%string =
  [None; None; None; None; None] /\
  (forall w n ins s, interactive_loop w n (TLine (lit "rm a; echo ${A}") :: ins) s = interactive_loop w n ins s) /\
  parse (lit "ls '*' '<<' # ${") <> None.
Proof.
  split; [|split; [vm_compute; reflexivity|split; [intros; apply loop_skips; vm_compute; reflexivity|vm_compute; discriminate]]].
  exists [IOk 1 (TWord (lit "cat")) 4]. split.
  - exists 5%nat. apply sc_blank; [exact blank_space|].
    apply (sc_token 1 (lit "cat") (lit " <<EOF") (TWord (lit "cat")) 3).
    + apply (written_word_here (lit "cat")); [spelled|]. right. exists 32%N, (lit "<<EOF"). split; reflexivity.
    + apply sc_blank; [exact blank_space|]. apply sc_done.
  - apply th_double. cbn. auto 10.
Qed.

(** ** C129: reserved words as arguments *)

Lemma reserved_here r t rest : In (r, t) reserved -> blank_start rest -> token_here r rest t (blen r).
Proof.
  intros H Hr.
  assert (Hnb : not_before word_char rest).
  { apply blank_start_not; [|exact Hr]. intros c Hc [_ Hd]. congruence. }
  assert (Hw : word_run r rest -> token_here r rest t (blen r)).
  { intros Hw. apply word_run_here; [exact Hw|]. apply wt_reserved, H. }
  apply Hw. clear Hw. destruct r as [|c r].
  - cbn in H. decompose [or] H; try contradiction; discriminate.
  - cbn in H. decompose [or] H; clear H; try contradiction;
      match goal with E : _ = _ |- _ => injection E as <- <- <- end;
      (split; [apply word_continue_iff; reflexivity|]);
      (split; [intros Hi; cbn in Hi; decompose [or] Hi; try discriminate; contradiction|]);
      (split; [|exact Hnb]); repeat (apply Forall_cons; [apply word_continue_iff; reflexivity|]); apply Forall_nil.
Qed.

Lemma blank_words ws : blank_start (r_words ws).
Proof. rewrite <- (app_nil_r (r_words ws)). apply r_words_start. left; reflexivity. Qed.

(** [echo done], with any command and any other arguments, is not a command. *)
Theorem C129_reserved_refuted : forall ws r t more, Forall written_word ws -> In (r, t) reserved ->
  parse (r_words (ws ++ r :: more)) = None.
Proof.
  intros ws r t more Hw Hr. rewrite r_words_app.
  replace (r_words ws ++ r_words (r :: more)) with ((r_words ws ++ lit " ") ++ r ++ r_words more)
    by (unfold r_words; cbn; rewrite <- app_assoc; reflexivity).
  destruct (scans_words ws (lit " " ++ r ++ r_words more) Hw) with (p := 0%nat) as (is & q & H).
  { right. exists 32%N, (r ++ r_words more). split; reflexivity. }
  apply refused_token with (is := is) (t := t) (len := blen r).
  - exists (q + 1)%nat. rewrite <- app_assoc. rewrite <- (app_nil_r is). eapply scans_app; [exact H|].
    apply sc_blank; [exact blank_space|]. change (len_utf8 32%N) with 1%nat. apply sc_done.
  - apply reserved_here; [exact Hr|apply blank_words].
  - cbn in Hr. decompose [or] Hr; try contradiction; match goal with E : _ = _ |- _ => injection E as <- <- end; reflexivity.
  - intros x. cbn in Hr.
    decompose [or] Hr; try contradiction; match goal with E : _ = _ |- _ => injection E as <- <- end; destruct x; reflexivity.
Qed.

(** Missing: the reserved word must be quoted. *)
Theorem C129_quoted_partial : forall out al m log n ws1 vs1 r t ws2 vs2, plain_name al n ->
  Forall written_word (n :: ws1 ++ ws2) ->
  Forall2 (ordinary (expand_var m)) ws1 vs1 -> Forall2 (ordinary (expand_var m)) ws2 vs2 ->
  (forall c, In c (List.concat (n :: vs1 ++ vs2)) -> c <> 0%N) -> In (r, t) reserved ->
  gets out al m log (r_words (n :: ws1 ++ sq r :: ws2)) (n :: vs1 ++ r :: vs2) /\
  gets out al m log (r_words (n :: ws1 ++ dq r :: ws2)) (n :: vs1 ++ r :: vs2).
Proof.
  intros out al m log n ws1 vs1 r t ws2 vs2 Hn Hw H1 H2 Hz Hr.
  assert (Hq : ~ In (ch "'") r /\ (forall c, In c r -> ~ In c (lit """$`") /\ c <> 0%N)).
  { cbn in Hr. decompose [or] Hr; clear Hr; try contradiction;
      match goal with E : _ = _ |- _ => injection E as <- <- end;
      (split; [intros Hi; cbn in Hi; decompose [or] Hi; try contradiction; discriminate|]);
      intros c Hc; cbn in Hc; decompose [or] Hc; try contradiction; subst;
      (split; [intros Hi; cbn in Hi; decompose [or] Hi; try contradiction; discriminate|discriminate]). }
  destruct Hq as [Hq Hd]. apply Forall_inv in Hw as Hnw. apply Forall_inv_tail in Hw. apply Forall_app in Hw as [Hw1 Hw2].
  assert (G : forall x, written_word x -> ordinary (expand_var m) x r ->
    gets out al m log (r_words (n :: ws1 ++ x :: ws2)) (n :: vs1 ++ r :: vs2)).
  { intros x Hx Ho.
    destruct (PropertiesExpand.C15_whole_line out al m log n (ws1 ++ x :: ws2) (vs1 ++ r :: vs2)) as (sc & sc' & A & B & C).
    - exact Hn.
    - destruct ws1; discriminate.
    - constructor; [exact Hnw|]. apply Forall_app. split; [exact Hw1|]. constructor; assumption.
    - apply Forall2_app; [exact H1|]. apply Forall2_cons; assumption.
    - intros c Hc. cbn [List.concat] in Hc. apply in_app_or in Hc as [Hc|Hc].
      + apply Hz. cbn. apply in_or_app. left; exact Hc.
      + rewrite concat_app in Hc. apply in_app_or in Hc as [Hc|Hc].
        * apply Hz. cbn. apply in_or_app. right. rewrite concat_app. apply in_or_app. left; exact Hc.
        * cbn in Hc. apply in_app_or in Hc as [Hc|Hc]; [apply (Hd c Hc)|].
          apply Hz. cbn. apply in_or_app. right. rewrite concat_app. apply in_or_app. right; exact Hc.
    - exists sc, sc'. auto. }
  split; apply G.
  - apply ww_quoted; [cbn; auto|exact Hq].
  - apply o_single, Hq.
  - apply ww_quoted; [cbn; auto|]. intros Hi. apply (proj1 (Hd _ Hi)). cbn. auto.
  - apply o_double. intros c Hc. apply (Hd c Hc).
Qed.

Example C129_example :
  plain_name [] (lit "echo") /\ Forall written_word [lit "echo"; lit "it"; lit "is"] /\ In (lit "done", TDone) reserved /\
  parse (lit "echo it is done") = None /\
  gets PropertiesExpand.ex_out [] PropertiesExpand.ex_vars [] (lit " echo it is 'done'")
    [lit "echo"; lit "it"; lit "is"; lit "done"].
Proof.
  split; [|split; [ws|split; [cbn; auto 20|split; [vm_compute; reflexivity|]]]].
  - split; [discriminate|]. split; [reflexivity|]. split; [intros [x E]; discriminate|].
    intros c Hc. cbn in Hc. decompose [or] Hc; try contradiction; subst;
      (split; [intros A; discriminate|intros Hi; cbn in Hi; decompose [or] Hi; try contradiction; discriminate]).
  - eexists _, _. split; [vm_compute; reflexivity|]. split; vm_compute; reflexivity.
Qed.

(** ** C130: misplaced operators are refused *)

(** Two tokens that cannot stand next to each other, anywhere in a line. *)
Theorem C130_neighbours : forall w n ins s a u g v rest is x y l1 l2, reading a (u ++ g ++ v ++ rest) is ->
  token_here u (g ++ v ++ rest) x l1 -> gap g (v ++ rest) -> token_here v rest y l2 -> may_follow x y = false ->
  parse (a ++ u ++ g ++ v ++ rest) = None /\
  interactive_loop w n (TLine (a ++ u ++ g ++ v ++ rest) :: ins) s = interactive_loop w n ins s.
Proof.
  intros w n ins s a u g v rest is x y l1 l2 Ha Hu Hg Hv Hf.
  assert (E := refused_pair a u g v rest is x y l1 l2 Ha Hu Hg Hv Hf). split; [exact E|apply loop_skips, E].
Qed.

(** The first token and the last. *)
Theorem C130_ends :
  (forall g u rest t len, gap g (u ++ rest) -> token_here u rest t len -> may_begin t = false ->
     parse (g ++ u ++ rest) = None) /\
  (forall a u g is t len, reading a (u ++ g) is -> token_here u g t len -> gap g [] -> may_follow t TEOF = false ->
     parse (a ++ u ++ g) = None).
Proof. split; [exact refused_first|exact refused_last]. Qed.

(** A semicolon or newline in front of a command: the line is refused, or it is
    nothing but separators. *)
Theorem C130_leading : forall g u rest t len, gap g (u ++ rest) -> token_here u rest t len -> ends_line t = true ->
  forall l, parse (g ++ u ++ rest) <> Some (Some l).
Proof.
  intros g u rest t len Hg Hu Ht l E. unfold parse in E.
  assert (Et := tokens_gap _ _ Hg). rewrite (tokens_one _ _ _ _ Hu) in Et.
  destruct (tokens (g ++ u ++ rest)) as [ts|] eqn:Ets; [|discriminate].
  destruct (tokens_eof _ _ Ets) as (ts' & Ee & _).
  pose proof (leading_newline ts l E (ex_intro _ ts' Ee)) as H.
  destruct (tokens rest) as [r|]; [|discriminate Et]. cbn in Et. injection Et as ->.
  destruct t; try discriminate Ht; try contradiction.
  exact (token_here_not_eof _ _ _ Hu).
Qed.

(** Braces are balanced in every command. *)
Theorem C130_braces : forall t c, parse t = Some c ->
  exists ts, tokens t = Some ts /\ depth 0 ts = Some 0%nat /\ forall ts1 ts2, ts = ts1 ++ ts2 -> depth 0 ts1 <> None.
Proof.
  intros t c E. destruct (parse_shape _ _ E) as (ts & E1 & _). exists ts. split; [exact E1|].
  pose proof (braces_balanced _ _ _ E E1) as Hd. split; [exact Hd|]. intros ts1 ts2 -> H.
  rewrite GrammarShape.depth_app, H in Hd. discriminate.
Qed.

(** The table of neighbours is exact: any two tokens it admits do stand next to
    each other in some command. *)
Definition before (x y : token) : list token :=
  match y with TCloseBrace => [TOpenBrace] | TSubshell _ => if is_word x then [TWord (lit "a"); TWord (lit "b")] else [] | _ => [] end ++
  match x with
  | TEquals | TPipe | TAmpersand | TAnd | TOr | TSemiColon | TNewlineList | TOpenParen => [TWord (lit "a")]
  | TCloseParen => [TWord (lit "a"); TOpenParen]
  | TCloseBrace => [TWord (lit "a"); TOpenParen; TCloseParen; TOpenBrace; TWord (lit "b")]
  | _ => []
  end.
Definition after (x y : token) : list token :=
  match y with
  | TNumber _ => [TLess; TWord (lit "c")]
  | TLess | TGreater | TDoubleGreater | TEquals | TPipe | TBang | TAnd | TOr => [TWord (lit "c")]
  | TOpenParen => [TCloseParen; TOpenBrace; TWord (lit "c"); TCloseBrace]
  | TCloseParen => [TOpenBrace; TWord (lit "c"); TCloseBrace]
  | TOpenBrace => [TWord (lit "c"); TCloseBrace]
  | TNewlineList =>
      match x with
      | TCloseParen => [TOpenBrace; TWord (lit "c"); TCloseBrace]
      | TAnd | TOr | TOpenBrace => [TWord (lit "c")]
      | TSemiColon => [TNewlineList]
      | _ => []
      end
  | _ => []
  end ++
  match x with TOpenBrace => [TCloseBrace] | _ => [] end.
Theorem C130_exact : forall x y, may_follow x y = true -> x <> TEOF ->
  exists ts1 ts2 v, parse_tokens (ts1 ++ x :: y :: ts2) = Some v.
Proof.
  intros x y H Hx. exists (before x y), (after x y).
  destruct x; try discriminate H; try congruence;
    (destruct y; try discriminate H);
    eexists; vm_compute; reflexivity.
Qed.

(** Lines with a misplaced operator, and lines that look similar and are fine. *)
Example C130_example :
  map (fun t => parse (lit t)) ["a | | b"; "| a"; "a |"; "a && ; b"; "a &&"; "a ;; b"; "&& a"; "a > | b"; "a >"; "{ a"; "a }"; "(a)"; "a (b)"; "! ! a"; "; a"]%string
  = [None; None; None; None; None; None; None; None; None; None; None; None; None; None; None] /\
  Forall (fun t => parse (lit t) <> None) ["a ;"; "a | b && c"; "! a"; "a () { b ; }"]%string /\
  (exists g v rest, gap g (v ++ rest) /\ token_here (lit "|") (g ++ v ++ rest) TPipe 1 /\ token_here v rest TPipe 1 /\
     may_follow TPipe TPipe = false /\ lit "a " ++ lit "|" ++ g ++ v ++ rest = lit "a | | b").
Proof.
  split; [vm_compute; reflexivity|]. split; [repeat (apply Forall_cons; [vm_compute; discriminate|]); apply Forall_nil|].
  exists (lit " "), (lit "|"), (lit " b"). split; [apply gap_blank; [exact blank_space|apply gap_nil]|].
  split; [apply (th_prefix _ _ (lit "|")); [cbn; auto 10|cbn; intuition discriminate]|].
  split; [apply (th_prefix _ _ (lit "|")); [cbn; auto 10|cbn; intuition discriminate]|].
  split; reflexivity.
Qed.

(** ** C131: [&] between commands *)

Lemma amp_here rest : blank_start rest -> token_here (lit "&") rest TAmpersand 1.
Proof.
  intros H. apply (th_prefix _ _ (lit "&")); [cbn; auto 10|]. apply blank_start_not; [|exact H].
  intros c Hc [<-|[]]. discriminate.
Qed.

(** [a ... & b ...] on one line is not a command, whatever the two commands. *)
Theorem C131_ampersand_refuted : forall ws v more, Forall written_word ws -> written_word v ->
  parse (r_words ws ++ lit " &" ++ r_words (v :: more)) = None.
Proof.
  intros ws v more Hw Hv.
  destruct (scans_words ws (lit " &" ++ r_words (v :: more)) Hw) with (p := 0%nat) as (is & q & H).
  { right. eexists 32%N, _. split; reflexivity. }
  replace (r_words ws ++ lit " &" ++ r_words (v :: more)) with ((r_words ws ++ lit " ") ++ lit "&" ++ lit " " ++ v ++ r_words more)
    by (rewrite <- app_assoc; reflexivity).
  apply refused_pair with (is := is) (x := TAmpersand) (y := TWord v) (l1 := 1%nat) (l2 := blen v).
  - exists (q + 1)%nat. rewrite <- app_assoc, <- (app_nil_r is). eapply scans_app; [exact H|].
    apply (sc_blank q 32%N (lit "&" ++ lit " " ++ v ++ r_words more)); [exact blank_space|].
    change (len_utf8 32%N) with 1%nat. apply sc_done.
  - apply amp_here. right. eexists 32%N, _. split; reflexivity.
  - apply gap_blank; [exact blank_space|apply gap_nil].
  - apply written_word_here; [exact Hv|apply blank_words].
  - reflexivity.
Qed.

(** Missing: a semicolon (or a newline) has to stand after the [&].  Then the first
    command is a background job and the second runs after it was started. *)
Theorem C131_semicolon_partial : forall w d p q s, wf_pipeline (Pipeline false p true) -> wf_pipeline q ->
  exec_text w (S d) (r_pipeline (Pipeline false p true) ++ lit " ;" ++ r_pipeline q) s =
  match exec_text w (S d) (r_pipeline (Pipeline false p true)) s with
  | (OOk _, s1) => exec_text w (S d) (r_pipeline q) s1
  | r => r
  end.
Proof.
  intros w d p q s Hp Hq.
  change (r_pipeline (Pipeline false p true) ++ lit " ;" ++ r_pipeline q)
    with (render [AoOne (Pipeline false p true); AoOne q]).
  rewrite exec_render; [|discriminate|repeat (apply Forall_cons; [assumption|]); apply Forall_nil].
  rewrite exec_pipeline by assumption. cbn [evaluate]. unfold parse_tree. cbn [parse_tree_from eval_and_or].
  unfold bind at 1. destruct (eval_pipeline w (evaluate w d) (Pipeline false p true) s) as [[] s1]; try reflexivity.
  rewrite exec_pipeline by assumption. unfold bind. destruct (eval_pipeline w (evaluate w d) q s1) as [[] s2]; reflexivity.
Qed.

Example C131_example :
  parse (lit "sleep 5 & echo a") = None /\
  (let p := Pipeline false [CSimple (words_cmd (lit "sleep") [lit "5"])] true in
   let q := Pipeline false [CSimple (words_cmd (lit "a") [])] false in
   wf_pipeline p /\ wf_pipeline q /\ r_pipeline p ++ lit " ;" ++ r_pipeline q = lit " sleep 5 & ; a") /\
  PropertiesEval.ran_commands (trace (snd (PropertiesEval.ex_run "a & ; b"))) = [lit "a"; lit "b"].
Proof.
  split; [vm_compute; reflexivity|]. split; [|vm_compute; reflexivity].
  cbv zeta. split; [|split].
  - split; [discriminate|]. split; [|intros [A _]; discriminate]. split; [|exact I].
    split; [exact I|]. split; [|left; spelled]. split; [right; discriminate|]. split; [|apply Forall_nil].
    apply Forall_cons; [left; spelled|apply Forall_nil].
  - apply (words_line (lit "a") []); [discriminate|]. ws.
  - vm_compute; reflexivity.
Qed.

(** ** C132: parts written together *)

(** A part ends at its closing quote, and a [$] or a backquote begins a part,
    wherever they stand; the parts are separate words: a blank between them makes
    no difference to any line.  (Full statement: parts written without a blank
    between them are one word.) *)
Theorem C132_parts_refuted : forall a u v is, reading a (u ++ v) is ->
  (exists o c body, In (o, c) quotes /\ ~ In c body /\ u = o ++ body ++ [c]) \/
  ((word_run u v \/ (exists x, u = ch "$" :: x /\ x <> [] /\ Forall word_char x)) /\
   exists c r, v = c :: r /\ In c (lit "$`")) ->
  parse (a ++ u ++ v) = parse (a ++ u ++ lit " " ++ v).
Proof.
  intros a u v is Ha [(o & c & body & Hq & Hb & ->)|[Hu (c & r & -> & Hc)]]; apply parse_same.
  - apply (blank_after a (o ++ body ++ [c]) v is (TWord (o ++ body ++ [c])) (blen (o ++ body ++ [c])) (blen (o ++ body ++ [c]))).
    + exact Ha.
    + apply th_quoted; assumption.
    + apply th_quoted; assumption.
  - assert (Hnb : not_before word_char (c :: r)).
    { intros [Hm _]. apply Hm. cbn in Hc. cbn. intuition. }
    destruct Hu as [Hu|(x & -> & Hne & Hx)].
    + destruct u as [|d u]; [contradiction|]. destruct Hu as (H1 & H2 & H3 & _).
      assert (Ht : exists t, word_token (d :: u) (c :: r) t /\ word_token (d :: u) (lit " " ++ c :: r) t).
      { destruct (reserved_dec (d :: u)) as [[t Ht]|Hn].
        - exists t. split; apply wt_reserved, Ht.
        - exists (TWord (d :: u)). split; (apply wt_word; [exact Hn|left]).
          + intros (k & z & E & [->| ->]); injection E as -> _; cbn in Hc; intuition discriminate.
          + intros (k & z & E & [->| ->]); discriminate. }
      destruct Ht as (t & T1 & T2).
      apply (blank_after a (d :: u) (c :: r) is t (blen (d :: u)) (blen (d :: u))); [exact Ha| |].
      * apply th_word; assumption.
      * apply th_word; auto. intros [_ E]. discriminate.
    + apply (blank_after a (ch "$" :: x) (c :: r) is (TWord (ch "$" :: x)) (blen (ch "$" :: x)) (blen (ch "$" :: x))); [exact Ha| |].
      * apply th_dollar_word; [exact Hx|exact Hnb|]. destruct x as [|e x]; [congruence|]. apply Forall_inv in Hx as [He _].
        intros Hi. apply He. cbn in Hi. cbn. intuition.
      * apply th_dollar_word; [exact Hx|intros [_ E]; discriminate|]. destruct x as [|e x]; [congruence|]. apply Forall_inv in Hx as [He _].
        intros Hi. apply He. cbn in Hi. cbn. intuition.
Qed.

(** A quote inside a word is an ordinary character: it neither protects anything
    nor disappears.  And a variable reference extends to the end of the word:
    with [x] set but nothing called [x t], [$x t] stays as it is written. *)
Theorem C132_inside_refuted :
  (forall out al m log n c b b' d e e', plain_name al n ->
     let w1 := c :: b ++ lit "'" ++ b' in let w2 := d :: e ++ lit "'" ++ e' in
     Forall written_word [n; w1; w2] -> ~ In c (lit "$'""") -> ~ In d (lit "$'""") ->
     (forall k, In k (n ++ w1 ++ w2) -> k <> 0%N) ->
     gets out al m log (r_words [n; w1; w2]) [n; w1; w2]) /\
  (forall out al m log n x t, plain_name al n -> written_word n -> Forall word_char (x ++ t) ->
     expand_var m (x ++ t) = None -> (forall k, In k (n ++ x ++ t) -> k <> 0%N) ->
     gets out al m log (r_words [n; ch "$" :: x ++ t]) [n; ch "$" :: x ++ t]).
Proof.
  split.
  - intros out al m log n c b b' d e e' Hn w1 w2 Hw C D Hz.
    destruct (PropertiesExpand.C15_whole_line out al m log n [w1; w2] [w1; w2]) as (sc & sc' & A & B & X).
    + exact Hn.
    + discriminate.
    + exact Hw.
    + repeat apply Forall2_cons; try apply Forall2_nil; apply o_plain; intros [z E]; injection E as E _; subst;
        solve [apply C; cbn; auto|apply D; cbn; auto].
    + intros k Hk. cbn [List.concat] in Hk. rewrite app_nil_r in Hk. exact (Hz k Hk).
    + exists sc, sc'. auto.
  - intros out al m log n x t Hn Hwn Hw Hx Hz.
    destruct (PropertiesExpand.C15_whole_line out al m log n [ch "$" :: x ++ t] [ch "$" :: x ++ t]) as (sc & sc' & A & B & C).
    + exact Hn.
    + discriminate.
    + apply Forall_cons; [exact Hwn|]. apply Forall_cons; [apply ww_dollar, Hw|apply Forall_nil].
    + apply Forall2_cons; [apply o_unset, Hx|apply Forall2_nil].
    + intros k Hk. cbn in Hk. rewrite app_nil_r in Hk. apply in_app_or in Hk as [Hk|[<-|Hk]].
      * apply Hz, in_or_app. auto.
      * discriminate.
      * apply Hz, in_or_app. auto.
    + exists sc, sc'. auto.
Qed.

Example C132_example :
  let g t := gets PropertiesExpand.ex_out [] PropertiesExpand.ex_vars [] (lit t) in
  g "echo 'a'b"%string [lit "echo"; lit "a"; lit "b"] /\
  g "echo $A$E"%string [lit "echo"; lit "b c"; lit ""] /\
  g "echo x'y z'"%string [lit "echo"; lit "x'y"; lit "z'"] /\
  g "echo $A.txt"%string [lit "echo"; lit "$A.txt"] /\
  (exists is, reading (lit " echo ") (lit "'a'" ++ lit "b") is).
Proof.
  cbv zeta. split; [eexists _, _; split; [vm_compute; reflexivity|split; vm_compute; reflexivity]|].
  split; [eexists _, _; split; [vm_compute; reflexivity|split; vm_compute; reflexivity]|].
  split; [eexists _, _; split; [vm_compute; reflexivity|split; vm_compute; reflexivity]|].
  split; [eexists _, _; split; [vm_compute; reflexivity|split; vm_compute; reflexivity]|].
  exists [IOk 1 (TWord (lit "echo")) 5]. exists 6%nat. apply sc_blank; [exact blank_space|].
  apply (sc_token 1 (lit "echo") (lit " 'a'b") (TWord (lit "echo")) 4).
  - apply (written_word_here (lit "echo")); [spelled|]. right. exists 32%N, (lit "'a'b"). split; reflexivity.
  - apply sc_blank; [exact blank_space|]. apply sc_done.
Qed.

(** ** C133: backslash *)

(** Words of ordinary characters, a backslash among them: what is written is what
    the program gets, one argument for each word. *)
Lemma plain_line out al m log n ws : plain_name al n -> ws <> [] -> Forall written_word (n :: ws) ->
  Forall (fun x => match x with c :: _ => ~ In c (lit "$'""") | [] => True end) ws ->
  (forall k, In k (List.concat (n :: ws)) -> k <> 0%N) -> gets out al m log (r_words (n :: ws)) (n :: ws).
Proof.
  intros Hn Hne Hw Hp Hz.
  destruct (PropertiesExpand.C15_whole_line out al m log n ws ws Hn Hne Hw) as (sc & sc' & A & B & C).
  - clear -Hp. induction Hp as [|x ws Hx _ IH]; [apply Forall2_nil|]. apply Forall2_cons; [|exact IH].
    apply o_plain; intros [z ->]; apply Hx; cbn; auto.
  - exact Hz.
  - exists sc, sc'. auto.
Qed.

(** [n a\ b]: the backslash stays, and the blank after it separates two arguments;
    [n a\c]: the backslash stays.  (Full statement: a backslash disappears and
    takes the meaning of the next character away.) *)
Theorem C133_backslash_refuted : forall out al m log n c a b, plain_name al n ->
  ~ In c (lit "$'""") -> (forall k, In k (n ++ c :: a ++ b) -> k <> 0%N) ->
  (Forall written_word [n; c :: a ++ lit "\"; b] -> (forall e b', b = e :: b' -> ~ In e (lit "$'""")) ->
   gets out al m log (lit " " ++ n ++ lit " " ++ (c :: a) ++ lit "\ " ++ b) [n; c :: a ++ lit "\"; b]) /\
  (Forall written_word [n; c :: a ++ lit "\" ++ b] ->
   gets out al m log (lit " " ++ n ++ lit " " ++ (c :: a) ++ lit "\" ++ b) [n; c :: a ++ lit "\" ++ b]).
Proof.
  intros out al m log n c a b Hn Hc Hz. split.
  - intros Hw Hb.
    replace (lit " " ++ n ++ lit " " ++ (c :: a) ++ lit "\ " ++ b) with (r_words [n; c :: a ++ lit "\"; b]).
    + apply plain_line; [exact Hn|discriminate|exact Hw| |].
      * apply Forall_cons; [exact Hc|]. apply Forall_cons; [|apply Forall_nil]. destruct b as [|e b]; [exact I|eauto].
      * intros k Hk. cbn in Hk. rewrite ?app_nil_r, ?in_app_iff in Hk. cbn in Hk. rewrite ?in_app_iff in Hk. cbn in Hk. rewrite ?app_nil_r in Hk.
        specialize (Hz k). rewrite in_app_iff in Hz. cbn in Hz. rewrite in_app_iff in Hz.
        decompose [or] Hk; subst; try contradiction; try discriminate; apply Hz; auto 10.
    + unfold r_words. cbn. rewrite ?app_nil_r, <- ?app_assoc. cbn. reflexivity.
  - intros Hw.
    replace (lit " " ++ n ++ lit " " ++ (c :: a) ++ lit "\" ++ b) with (r_words [n; c :: a ++ lit "\" ++ b]).
    + apply plain_line; [exact Hn|discriminate|exact Hw| |].
      * apply Forall_cons; [exact Hc|apply Forall_nil].
      * intros k Hk. cbn in Hk. rewrite ?app_nil_r, ?in_app_iff in Hk. cbn in Hk. rewrite ?in_app_iff in Hk. cbn in Hk. rewrite ?app_nil_r in Hk.
        specialize (Hz k). rewrite in_app_iff in Hz. cbn in Hz. rewrite in_app_iff in Hz.
        decompose [or] Hk; subst; try contradiction; try discriminate; apply Hz; auto 10.
    + unfold r_words. cbn. rewrite ?app_nil_r, <- ?app_assoc. cbn. reflexivity.
Qed.

(** Missing: everything outside single quotes.  Inside them a backslash is itself,
    as it should be. *)
Theorem C133_quoted_partial : forall out al m log n a b, plain_name al n -> written_word n ->
  ~ In (ch "'") (a ++ b) -> (forall k, In k (n ++ a ++ b) -> k <> 0%N) ->
  gets out al m log (lit " " ++ n ++ lit " '" ++ a ++ lit "\" ++ b ++ lit "'") [n; a ++ lit "\" ++ b].
Proof.
  intros out al m log n a b Hn Hwn Hq Hz.
  assert (Hq' : ~ In (ch "'") (a ++ lit "\" ++ b)).
  { intros Hi. apply in_app_or in Hi as [Hi|[Hi|Hi]]; [|discriminate|]; apply Hq, in_or_app; auto. }
  destruct (PropertiesExpand.C15_whole_line out al m log n [sq (a ++ lit "\" ++ b)] [a ++ lit "\" ++ b]) as (sc & sc' & A & B & C).
  - exact Hn.
  - discriminate.
  - apply Forall_cons; [exact Hwn|]. apply Forall_cons; [|apply Forall_nil]. apply ww_quoted; [cbn; auto|exact Hq'].
  - apply Forall2_cons; [apply o_single, Hq'|apply Forall2_nil].
  - intros k Hk. cbn in Hk. rewrite app_nil_r, !in_app_iff in Hk. cbn in Hk.
    specialize (Hz k). rewrite !in_app_iff in Hz. decompose [or] Hk; subst; try discriminate; apply Hz; auto.
  - exists sc, sc'. split; [|auto]. unfold line_of in A. rewrite <- A. f_equal.
    unfold r_words, sq. cbn. rewrite ?app_nil_r, <- ?app_assoc. cbn. rewrite <- ?app_assoc. reflexivity.
Qed.

Example C133_example :
  let g t := gets PropertiesExpand.ex_out [] PropertiesExpand.ex_vars [] (lit t) in
  Forall written_word [lit "cat"; lit "my\"; lit "file"] /\
  g " cat my\ file"%string [lit "cat"; lit "my\"; lit "file"] /\
  g " cat 'my\ file'"%string [lit "cat"; lit "my\ file"] /\
  g "echo \$A"%string [lit "echo"; lit "\"; lit "b c"] /\
  parse (lit "echo \*") = None.
Proof.
  cbv zeta. split; [ws|].
  split; [eexists _, _; split; [vm_compute; reflexivity|split; vm_compute; reflexivity]|].
  split; [eexists _, _; split; [vm_compute; reflexivity|split; vm_compute; reflexivity]|].
  split; [eexists _, _; split; [vm_compute; reflexivity|split; vm_compute; reflexivity]|vm_compute; reflexivity].
Qed.

(** ** C134: patterns and [~] *)

(** A star outside quotes makes a line that is not a command. *)
Theorem C134_star_refuted : forall ws a b, Forall written_word ws -> Forall word_char a ->
  match a with c :: _ => ~ In c (lit "#'""") | [] => True end ->
  parse (r_words ws ++ lit " " ++ a ++ lit "*" ++ b) = None.
Proof.
  intros ws a b Hw Ha Hc.
  destruct (scans_words ws (lit " " ++ a ++ lit "*" ++ b) Hw) with (p := 0%nat) as (is & q & H).
  { right. eexists 32%N, _. split; reflexivity. }
  assert (Hr : exists is', reading (r_words ws ++ lit " " ++ a) (ch "*" :: b) is').
  { destruct a as [|c a].
    - exists (is ++ []), (q + 1)%nat. rewrite <- app_assoc. eapply scans_app; [exact H|].
      cbn [app lit]. apply sc_blank; [exact blank_space|]. change (len_utf8 32%N) with 1%nat. apply sc_done.
    - assert (Ht : exists t, word_token (c :: a) (ch "*" :: b) t).
      { destruct (reserved_dec (c :: a)) as [[t Ht]|Hn]; [exists t; apply wt_reserved, Ht|].
        exists (TWord (c :: a)). apply wt_word; [exact Hn|left]. intros (k & z & E & [->| ->]); discriminate. }
      destruct Ht as [t Ht].
      exists (is ++ [IOk (q + 1) t (q + 1 + blen (c :: a))]), (q + 1 + blen (c :: a))%nat. rewrite <- !app_assoc.
      eapply scans_app; [exact H|]. cbn [lit app]. apply sc_blank; [exact blank_space|]. change (len_utf8 32%N) with 1%nat.
      apply (sc_token (q + 1) (c :: a) (ch "*" :: b) t (blen (c :: a))); [|apply sc_done].
      apply th_word; auto.
      + apply Forall_inv in Ha. exact Ha.
      + apply Forall_inv_tail in Ha. exact Ha.
      + intros [Hm _]. apply Hm. cbn. auto 20. }
  destruct Hr as [is' Hr]. pose proof (refused_star _ _ _ Hr) as E.
  rewrite <- !app_assoc in E. exact E.
Qed.

(** Missing: expansion.  [?], brackets and [~] reach the program as they are
    written (as they should when no file matches), whatever files there are. *)
Theorem C134_literal_partial : forall out al m log n ws, plain_name al n -> ws <> [] ->
  Forall written_word (n :: ws) ->
  Forall (fun x => match x with c :: _ => ~ In c (lit "$'""") | [] => True end) ws ->
  (forall k, In k (List.concat (n :: ws)) -> k <> 0%N) -> gets out al m log (r_words (n :: ws)) (n :: ws).
Proof. exact plain_line. Qed.

Example C134_example :
  Forall written_word [lit "rm"; lit "?.o"; lit "[a-z]"; lit "~/x"] /\
  gets PropertiesExpand.ex_out [] PropertiesExpand.ex_vars [] (r_words [lit "rm"; lit "?.o"; lit "[a-z]"; lit "~/x"])
    [lit "rm"; lit "?.o"; lit "[a-z]"; lit "~/x"] /\
  Forall word_char (lit "a.") /\ parse (lit " rm a.*") = None /\ parse (lit "rm 'a.*'") <> None.
Proof.
  split; [ws|]. split; [eexists _, _; split; [vm_compute; reflexivity|split; vm_compute; reflexivity]|].
  split; [repeat (apply Forall_cons; [apply word_continue_iff; reflexivity|]); apply Forall_nil|].
  split; [vm_compute; reflexivity|vm_compute; discriminate].
Qed.

(** ** C135: a syntax error inside other text *)

(** A text that is not a command, given to [eval]: an error, nothing is run, and
    nothing changes except that the signals stay blocked. *)
Theorem C135_eval_partial : forall w d t s, sget (lit "eval") (al (im s)) = None -> ~ In (ch "'") t ->
  parse (t ++ [10%N]) = None ->
  exec_text w (S d) (r_words [lit "eval"; sq t]) s = (OErr EParse, blocked s).
Proof.
  intros w d t s Ha Hq Hp.
  rewrite (exec_builtin' w d (lit "eval") [sq t] [t] s); try reflexivity; try assumption; try discriminate.
  - unfold call_builtin. cbn [sc_name]. cbv beta zeta.
    change (str_eqb (lit "eval") (lit "cd")) with false.
    change (str_eqb (lit "eval") (lit "exit")) with false.
    change (str_eqb (lit "eval") (lit "return")) with false.
    change (str_eqb (lit "eval") (lit "jobs")) with false.
    change (str_eqb (lit "eval") (lit "fg")) with false.
    change (str_eqb (lit "eval") (lit "bg")) with false.
    change (str_eqb (lit "eval") (lit "alias")) with false.
    change (str_eqb (lit "eval") (lit "unalias")) with false.
    change (str_eqb (lit "eval") (lit "export")) with false.
    change (str_eqb (lit "eval") (lit "eval")) with true. cbn [orb].
    unfold eval_cmd. cbn [words_of sc_suffix word_list word_at nth_error unwrap]. unfold bind at 1, ret at 1.
    unfold parse_text. rewrite Hp. reflexivity.
  - constructor; [|constructor]. apply ww_quoted; [cbn; auto|exact Hq].
  - constructor; [|constructor]. apply o_single, Hq.
Qed.

(** A text that is not a command, in a substitution: the shell crashes.  (Full
    statement: an error is reported and the shell goes on.) *)
Theorem C135_substitution_refuted : forall w d n ws vs t more s, plain_name (al (im s)) n ->
  Forall written_word (n :: ws ++ more) -> Forall2 (ordinary (expand_var (cm (im s)))) ws vs ->
  ~ In (ch """") t -> ~ In (ch ")") t -> parse t = None ->
  exec_text w (S d) (r_words (n :: ws ++ dq (lit "$(" ++ t ++ lit ")") :: more)) s = (OPanic, blocked s).
Proof.
  intros w d n ws vs t more s Hn Hw Ho Hq Hc Hp.
  set (bad := dq (lit "$(" ++ t ++ lit ")")).
  assert (Hbad : written_word bad).
  { apply ww_quoted; [cbn; auto|]. cbn. intros [E|[E|Hi]]; try discriminate.
    apply in_app_or in Hi as [Hi|[Hi|[]]]; [exact (Hq Hi)|discriminate]. }
  assert (He : forall log, eval_word (r_subst (w (trace s))) log bad = None).
  { intros log. unfold eval_word. change (starts_with (lit """") bad) with true. cbn match.
    unfold eval_double_quotes, cut_quotes. change (starts_with (lit """") bad) with true. cbn match.
    assert (Ed : drop_ends bad = lit "$(" ++ t ++ lit ")").
    { apply body_iff; [discriminate|]. apply body_dq. }
    rewrite Ed. change (lit "$(" ++ t ++ lit ")") with (ch "$" :: ch "(" :: t ++ [ch ")"]).
    cbn [List.length cut_loop].
    change (N.eqb (ch "$") (ch "$") || N.eqb (ch "$") (ch "`")) with true. cbn match.
    unfold create_subshell. change (N.eqb (ch "$") (ch "$")) with true. cbn match.
    change (N.eqb (ch "(") (ch "(")) with true. cbn match.
    change [ch ")"] with (ch ")" :: []). rewrite (take_through_in (ch ")") t [] Hc).
    unfold eval_subshell. change (starts_with (lit "$(") (ch "$" :: ch "(" :: t ++ [ch ")"])) with true. cbn match.
    unfold run_subshell. cbn [skipn]. rewrite removelast_last, Hp. reflexivity. }
  assert (Ex : expand_command w (words_cmd n (ws ++ bad :: more)) (blocked s) = (OPanic, blocked s)).
  { unfold expand_command, words_cmd. change (cm (im (blocked s))) with (cm (im s)).
    change (al (im (blocked s))) with (al (im s)). change (trace (blocked s)) with (trace s).
    assert (Ea : append_all (eval_word (r_subst (w (trace s)))) [] (map (expand_word (cm (im s))) (ws ++ bad :: more)) = None).
    { rewrite map_app, append_all_app.
      destruct (append_all _ [] (map (expand_word (cm (im s))) ws)) as [[va log1]|]; [|reflexivity].
      cbn [map append_all]. change (expand_word (cm (im s)) bad) with bad. rewrite He. reflexivity. }
    destruct (ws ++ bad :: more) as [|x l] eqn:El; [destruct ws; discriminate|].
    rewrite plain_expand by (auto; exact I). rewrite Ea. reflexivity. }
  rewrite exec_words.
  2: { destruct Hn; assumption. }
  2: { apply Forall_cons; [exact (Forall_inv Hw)|]. apply Forall_inv_tail in Hw. apply Forall_app in Hw as [H1 H2].
       apply Forall_app. split; [exact H1|]. apply Forall_cons; assumption. }
  unfold eval_pipeline. rewrite (seq_ok interrupts_off _ s tt (blocked s) eq_refl).
  unfold bind at 1. cbn [gather]. unfold bind at 1. cbn [eval_command]. unfold eval_simple_command.
  destruct (check_if_builtin (sc_name (words_cmd n (ws ++ bad :: more)))).
  - unfold seq, bind at 1, eval_builtin, bind at 1. rewrite Ex. reflexivity.
  - unfold bind at 1. rewrite Ex. reflexivity.
Qed.

Example C135_example :
  parse (lit "if a" ++ [10%N]) = None /\ parse (lit "a |") = None /\
  PropertiesEval.ex_run "eval 'a ; if b'" = (OErr EParse, blocked PropertiesEval.ex_shell) /\
  fst (PropertiesEval.ex_run "a ""$(b |)""") = OPanic /\
  PropertiesEval.ran_commands (trace (snd (PropertiesEval.ex_run "a ; b ""$(b |)"""))) = [lit "a"].
Proof.
  split; [vm_compute; reflexivity|]. split; [vm_compute; reflexivity|]. split; [vm_compute; reflexivity|].
  split; vm_compute; reflexivity.
Qed.

(** ** C136: [=] in arguments *)

Lemma reads_pair v u : written_word v -> written_word u ->
  reads (lit " " ++ v ++ lit "=" ++ u) [TWord v; TEquals; TWord u].
Proof.
  intros Hv Hu rest Hr.
  replace ((lit " " ++ v ++ lit "=" ++ u) ++ rest) with ([32%N] ++ v ++ (ch "=" :: (u ++ rest)))
    by (cbn; rewrite <- !app_assoc; reflexivity).
  rewrite tokens_blanks by (repeat constructor; discriminate).
  rewrite (tokens_one _ _ _ _ (written_word_equals v (u ++ rest) Hv)).
  change (ch "=" :: u ++ rest) with ([ch "="] ++ (u ++ rest)).
  rewrite (tokens_one [ch "="] (u ++ rest) TEquals 1) by (constructor; cbn; tauto).
  rewrite (tokens_one _ _ _ _ (written_word_here u rest Hu Hr)).
  destruct (tokens rest); reflexivity.
Qed.

(** Blanks around an equals sign are lost, and three arguments become one. *)
Theorem C136_equals_refuted : forall out al m log n x y, plain_name al n -> Forall written_word [n; x; y] ->
  ~ begins (ch "$") x -> ~ begins (ch "'") x -> ~ begins (ch """") x ->
  (forall k, In k (n ++ x ++ y) -> k <> 0%N) ->
  gets out al m log (r_words [n; x] ++ lit " =" ++ r_words [y]) [n; x ++ lit "=" ++ y] /\
  gets out al m log (r_words [n; x ++ lit "=" ++ y]) [n; x ++ lit "=" ++ y].
Proof.
  intros out al m log n x y Hn Hw B1 B2 B3 Hz.
  assert (Hwn := Forall_inv Hw). apply Forall_inv_tail in Hw. assert (Hx := Forall_inv Hw). apply Forall_inv_tail in Hw.
  assert (Hy := Forall_inv Hw). clear Hw.
  assert (Hne : x <> []) by (exact (written_word_nonempty x Hx)).
  assert (G : gets out al m log (r_words [n; x ++ lit "=" ++ y]) [n; x ++ lit "=" ++ y]).
  { destruct (args_line n [x ++ lit "=" ++ y]) as [W1 W2].
    - destruct Hn; assumption.
    - exact Hwn.
    - apply Forall_cons; [|apply Forall_nil]. right. exists x, y. auto.
    - exists (words_cmd n [x ++ lit "=" ++ y]), (SimpleCommand None n (Some (Suffix [] [x ++ lit "=" ++ y]))).
      split; [|split].
      + rewrite <- W2. apply (render_parse [AoOne (Pipeline false [CSimple (words_cmd n [x ++ lit "=" ++ y])] false)]); [discriminate|].
        apply Forall_cons; [exact W1|apply Forall_nil].
      + apply ordinary_command; [exact Hn|exact I|discriminate|]. apply Forall2_cons; [|apply Forall2_nil].
        destruct x as [|c x]; [congruence|].
        apply o_plain; intros [z E]; cbn in E; injection E as -> _; [apply B1|apply B2|apply B3]; eexists; reflexivity.
      + apply argv_words. intros k Hk. cbn in Hk. rewrite app_nil_r, !in_app_iff in Hk. cbn in Hk.
        specialize (Hz k). rewrite !in_app_iff in Hz. decompose [or] Hk; subst; try discriminate; apply Hz; auto. }
  split; [|exact G]. destruct G as (sc & sc' & A & B & C). exists sc, sc'. split; [|auto]. rewrite <- A. apply parse_same.
  assert (Hp1 : piece (lit " " ++ x)) by apply piece_cons. assert (Hp2 : piece (lit " " ++ y)) by apply piece_cons.
  assert (R1 : reads (lit " " ++ n) [TWord n]) by (apply reads_word, Hwn).
  assert (R2 : reads (lit " " ++ x) [TWord x]) by (apply reads_word, Hx).
  assert (R3 : reads (lit " " ++ y) [TWord y]) by (apply reads_word, Hy).
  assert (R4 : reads (lit " =") [TEquals]) by (apply (reads_simple (ch "=")); cbn; auto 10).
  assert (R5 : reads (lit " " ++ x ++ lit "=" ++ y) [TWord x; TEquals; TWord y]) by (apply reads_pair; assumption).
  assert (E1 := reads_app _ _ _ _ (reads_app _ _ _ _ (reads_app _ _ _ _ R1 R2 Hp1) R4 (piece_cons _)) R3 Hp2).
  assert (E2 := reads_app _ _ _ _ R1 R5 (piece_cons _)).
  specialize (E1 [] (or_introl eq_refl)). specialize (E2 [] (or_introl eq_refl)). rewrite app_nil_r in E1, E2.
  cbn [app] in E1, E2.
  replace (r_words [n; x] ++ lit " =" ++ r_words [y]) with (((lit " " ++ n) ++ lit " " ++ x) ++ lit " =" ++ lit " " ++ y).
  - replace (r_words [n; x ++ lit "=" ++ y]) with ((lit " " ++ n) ++ lit " " ++ x ++ lit "=" ++ y).
    + rewrite E2, <- E1. f_equal. rewrite <- !app_assoc. reflexivity.
    + unfold r_words. cbn. rewrite ?app_nil_r. reflexivity.
  - unfold r_words. cbn. rewrite ?app_nil_r, <- ?app_assoc. reflexivity.
Qed.

(** [x=] with nothing after it is not a command, whatever stands in front of it:
    not as an assignment of the empty text, not as an argument. *)
Theorem C136_empty_refuted : forall ws x bl, Forall written_word (ws ++ [x]) -> Forall blank bl ->
  parse (r_words (ws ++ [x]) ++ lit "=" ++ bl) = None.
Proof.
  intros ws x bl Hw Hb. apply Forall_app in Hw as [Hw Hx]. apply Forall_inv in Hx.
  destruct (scans_words ws (lit " " ++ x ++ lit "=" ++ bl) Hw) with (p := 0%nat) as (is & q & H).
  { right. eexists 32%N, _. split; reflexivity. }
  rewrite r_words_app. unfold r_words at 2. cbn [map List.concat]. rewrite app_nil_r, <- !app_assoc.
  replace (r_words ws ++ lit " " ++ x ++ lit "=" ++ bl) with ((r_words ws ++ lit " " ++ x) ++ lit "=" ++ bl)
    by (rewrite <- !app_assoc; reflexivity).
  apply refused_last with (is := is ++ [IOk (q + 1) (TWord x) (q + 1 + blen x)]) (x := TEquals) (l1 := 1%nat).
  - exists (q + 1 + blen x)%nat. rewrite <- !app_assoc. eapply scans_app; [exact H|].
    apply (sc_blank q 32%N (x ++ lit "=" ++ bl)); [exact blank_space|].
    change (len_utf8 32%N) with 1%nat. apply (sc_token (q + 1) x (lit "=" ++ bl)); [|apply sc_done].
    apply written_word_equals, Hx.
  - apply th_simple. cbn. auto 10.
  - clear -Hb. induction Hb as [|c bl Hc _ IH]; [apply gap_nil|apply gap_blank; assumption].
  - reflexivity.
Qed.

(** Missing: the two texts above.  One equals sign between two words, without
    blanks, is part of one argument. *)
Theorem C136_pair_partial : forall out al m log n ws vs, plain_name al n -> written_word n -> ws <> [] ->
  Forall written_arg ws -> Forall2 (ordinary (expand_var m)) ws vs ->
  (forall k, In k (List.concat (n :: vs)) -> k <> 0%N) -> gets out al m log (r_words (n :: ws)) (n :: vs).
Proof.
  intros out al m log n ws vs Hn Hwn Hne Hw Ho Hz.
  destruct (args_line n ws) as [W1 W2]; [destruct Hn; assumption|exact Hwn|exact Hw|].
  exists (words_cmd n ws), (SimpleCommand None n (Some (Suffix [] vs))). split; [|split].
  - rewrite <- W2. apply (render_parse [AoOne (Pipeline false [CSimple (words_cmd n ws)] false)]); [discriminate|].
    apply Forall_cons; [exact W1|apply Forall_nil].
  - unfold words_cmd. destruct ws as [|x ws]; [congruence|]. apply ordinary_command; [exact Hn|exact I|discriminate|exact Ho].
  - apply argv_words, Hz.
Qed.

Example C136_example :
  let g t := gets PropertiesExpand.ex_out [] PropertiesExpand.ex_vars [] (lit t) in
  Forall written_word [lit "test"; lit "a"; lit "b"] /\
  g " test a = b"%string [lit "test"; lit "a=b"] /\
  g " make CC=gcc 'a = b'"%string [lit "make"; lit "CC=gcc"; lit "a = b"] /\
  Forall written_arg [lit "CC=gcc"; lit "'a = b'"] /\
  parse (lit " A=") = None /\ parse (lit " test a == b") = None.
Proof.
  cbv zeta. split; [ws|].
  split; [eexists _, _; split; [vm_compute; reflexivity|split; vm_compute; reflexivity]|].
  split; [eexists _, _; split; [vm_compute; reflexivity|split; vm_compute; reflexivity]|].
  split; [|split; vm_compute; reflexivity].
  apply Forall_cons; [right; exists (lit "CC"), (lit "gcc"); split; [reflexivity|split; spelled]|].
  apply Forall_cons; [|apply Forall_nil]. left. apply (ww_quoted (lit "'") (ch "'") (lit "a = b")); [cbn; auto|].
  intros H. cbn in H. decompose [or] H; try contradiction; discriminate.
Qed.

Print Assumptions C128_refused.
Print Assumptions C129_reserved_refuted.
Print Assumptions C129_quoted_partial.
Print Assumptions C130_neighbours.
Print Assumptions C130_ends.
Print Assumptions C130_leading.
Print Assumptions C130_braces.
Print Assumptions C130_exact.
Print Assumptions C131_ampersand_refuted.
Print Assumptions C131_semicolon_partial.
Print Assumptions C132_parts_refuted.
Print Assumptions C132_inside_refuted.
Print Assumptions C133_backslash_refuted.
Print Assumptions C133_quoted_partial.
Print Assumptions C134_star_refuted.
Print Assumptions C134_literal_partial.
Print Assumptions C135_eval_partial.
Print Assumptions C135_substitution_refuted.
Print Assumptions C136_equals_refuted.
Print Assumptions C136_empty_refuted.
Print Assumptions C136_pair_partial.
