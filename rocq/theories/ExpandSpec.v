(** Specification of the expansion of simple commands: what each written form
    of a word stands for.  No loops, no byte positions, no quote automaton. *)
From Verif Require Import Base Lexer LexerSpec Ast Parser GrammarSpec Context Alias Expand.

(** ** Text *)

Definition space (c : char) : Prop := is_whitespace c = true.

(** [s] with the blanks around it removed. *)
Definition trimmed (s t : str) : Prop :=
  exists a b, s = a ++ t ++ b /\ Forall space a /\ Forall space b /\
    (forall c r, t = c :: r -> ~ space c) /\ (forall c r, t = r ++ [c] -> ~ space c).

(** The blank-separated fields of a text. *)
Inductive fields : str -> list str -> Prop :=
| f_end bl : Forall space bl -> fields bl []
| f_last bl w : Forall space bl -> w <> [] -> Forall (fun c => ~ space c) w -> fields (bl ++ w) [w]
| f_more bl w c s ws : Forall space bl -> w <> [] -> Forall (fun c => ~ space c) w ->
    space c -> fields s ws -> fields (bl ++ w ++ c :: s) (w :: ws).

(** ** Splitting at blanks outside quotes *)

(** Text without unquoted blanks in which every quote is closed. *)
Inductive closed_text : str -> Prop :=
| ct_nil : closed_text []
| ct_char c s : ~ space c -> ~ In c (lit "'""") -> closed_text s -> closed_text (c :: s)
| ct_single t s : ~ In (ch "'") t -> closed_text s -> closed_text (ch "'" :: t ++ ch "'" :: s)
| ct_double t s : ~ In (ch """") t -> closed_text s -> closed_text (ch """" :: t ++ ch """" :: s).

(** The same, with the last quote possibly left open. *)
Inductive open_text : str -> Prop :=
| ot_closed s : closed_text s -> open_text s
| ot_single s t : closed_text s -> ~ In (ch "'") t -> open_text (s ++ ch "'" :: t)
| ot_double s t : closed_text s -> ~ In (ch """") t -> open_text (s ++ ch """" :: t).

Definition nonempty (s : str) : list str := match s with [] => [] | _ => [s] end.

Inductive pieces : str -> list str -> Prop :=
| p_last s : open_text s -> pieces s (nonempty s)
| p_more p c s ps : closed_text p -> space c -> len_utf8 c = 1 -> pieces s ps -> pieces (p ++ c :: s) (p :: ps).

(** An unquoted blank of more than one byte, such as U+00A0 or U+3000. *)
Inductive wide_blank : str -> Prop :=
| wb_here p c s : closed_text p -> space c -> len_utf8 c <> 1 -> wide_blank (p ++ c :: s)
| wb_later p c s : closed_text p -> space c -> wide_blank s -> wide_blank (p ++ c :: s).

(** ** Command substitution *)

Section Meaning.
  Context (out : oracle).

  (** Running [text] as a command. *)
  Inductive runs (log : ran) (text : str) : str -> ran -> Prop :=
  | runs_intro c buf o : parse text = Some c -> out log c = Some buf -> trimmed buf o ->
      runs log text o (log ++ [c]).

  (** The meaning of the text between double quotes. *)
  Inductive inside : ran -> str -> str -> ran -> Prop :=
  | in_end log : inside log [] [] log
  | in_plain log c s o log' : ~ In c (lit "$`") -> inside log s o log' -> inside log (c :: s) (c :: o) log'
  | in_paren log t s o1 log1 o2 log2 : ~ In (ch ")") t -> runs log t o1 log1 -> inside log1 s o2 log2 ->
      inside log (lit "$(" ++ t ++ lit ")" ++ s) (o1 ++ o2) log2
  | in_tick log t s o1 log1 o2 log2 : ~ In (ch "`") t -> runs log t o1 log1 -> inside log1 s o2 log2 ->
      inside log (lit "`" ++ t ++ lit "`" ++ s) (o1 ++ o2) log2
  | in_paren_open log t o log' : ~ In (ch ")") t -> runs log (removelast t) o log' ->
      inside log (lit "$(" ++ t) o log'
  | in_tick_open log t o log' : ~ In (ch "`") t -> runs log (removelast t) o log' ->
      inside log (lit "`" ++ t) o log'
  | in_dollar log c s o log' : c <> ch "(" -> inside log s o log' ->
      inside log (ch "$" :: c :: s) (ch "$" :: o) log'.

  (** A result that itself looks like a substitution is run once more. *)
  Inductive again (log : ran) : str -> str -> ran -> Prop :=
  | ag_paren t o log' : runs log (removelast t) o log' -> again log (lit "$(" ++ t) o log'
  | ag_tick t o log' : runs log (removelast t) o log' -> again log (lit "`" ++ t) o log'
  | ag_none s : (forall t, s <> lit "$(" ++ t) -> (forall t, s <> lit "`" ++ t) -> again log s s log.

  Definition substitutes (w : str) : Prop := (exists a b, w = a ++ lit "$(" ++ b) \/ In (ch "`") w.

  (** What a double-quoted word becomes.  [body w t]: [t] is what is left of
      [w] without its first and last character. *)
  Inductive body : str -> str -> Prop :=
  | bd_lone c : body [c] []
  | bd_both c t d : body (c :: t ++ [d]) t.

  Inductive double_quoted (log : ran) (w : str) : list str -> ran -> Prop :=
  | dq_text t o log' : ~ substitutes w -> body w t -> inside log t o log' ->
      double_quoted log w [o] log'
  | dq_one t o log1 e log2 : substitutes w -> body w t -> inside log t o log1 ->
      again log1 o e log2 -> ~ In (ch " ") e -> double_quoted log w [e] log2
  | dq_fields t o log1 e log2 ws : substitutes w -> body w t -> inside log t o log1 ->
      again log1 o e log2 -> In (ch " ") e -> fields e ws -> double_quoted log w ws log2.

  Definition begins (c : char) (w : str) : Prop := exists t, w = c :: t.

  (** A word in the argument list, after variables. *)
  Inductive argument (log : ran) : str -> list str -> ran -> Prop :=
  | arg_plain w : ~ begins (ch "'") w -> ~ begins (ch """") w -> argument log w [w] log
  | arg_single w t : begins (ch "'") w -> body w t -> argument log w [t] log
  | arg_double w vs log' : begins (ch """") w -> double_quoted log w vs log' -> argument log w vs log'.

  (** A piece of the command word. *)
  Inductive name_piece (log : ran) : str -> list str -> ran -> Prop :=
  | np_plain w : ~ begins (ch """") w -> name_piece log w [w] log
  | np_double w vs log' : begins (ch """") w -> double_quoted log w vs log' -> name_piece log w vs log'.

  (** Several words, one after the other. *)
  Inductive all_of (means : ran -> str -> list str -> ran -> Prop) : ran -> list str -> list str -> ran -> Prop :=
  | all_nil log : all_of means log [] [] log
  | all_cons log w ws vs log1 vs' log2 : means log w vs log1 -> all_of means log1 ws vs' log2 ->
      all_of means log (w :: ws) (vs ++ vs') log2.

  (** The command word: single quotes around it are removed, then it is split. *)
  Inductive unquoted_name : str -> str -> Prop :=
  | un_plain w : ~ begins (ch "'") w -> unquoted_name w w
  | un_single w t : begins (ch "'") w -> body w t -> unquoted_name w t.

  Inductive quotes_removed (log : ran) : simple_command -> simple_command -> ran -> Prop :=
  | qr_no_name p s : quotes_removed log (SimpleCommand p [] s) (SimpleCommand p [] s) log
  | qr_no_args p name s name' ps n extra log1 :
      name <> [] -> (s = None \/ exists rs, s = Some (Suffix rs [])) ->
      unquoted_name name name' -> pieces name' ps -> all_of name_piece log ps (n :: extra) log1 ->
      quotes_removed log (SimpleCommand p name s) (SimpleCommand p n (Some (Suffix [] extra))) log1
  | qr_args p name rs ws name' ps n extra log1 vs log2 :
      name <> [] -> ws <> [] ->
      unquoted_name name name' -> pieces name' ps -> all_of name_piece log ps (n :: extra) log1 ->
      all_of argument log1 ws vs log2 ->
      quotes_removed log (SimpleCommand p name (Some (Suffix rs ws)))
                         (SimpleCommand p n (Some (Suffix rs (extra ++ vs)))) log2.
End Meaning.

(** ** Variables *)

Section Variables.
  Context (vars : str -> option str).

  (** [$x] as a whole word. *)
  Inductive variable : str -> str -> Prop :=
  | v_set x v : vars x = Some v -> variable (ch "$" :: x) v
  | v_unset x : vars x = None -> variable (ch "$" :: x) (ch "$" :: x)
  | v_other w : ~ begins (ch "$") w -> variable w w.

  (** A word [name=value] in front of the command: the value is looked up as a
      variable name as it stands, [$] included. *)
  Inductive assignment_word : str -> str -> Prop :=
  | aw_plain w : ~ In (ch "$") w -> assignment_word w w
  | aw_set w n u : In (ch "$") w -> ~ In (ch "=") n -> ~ In (ch "=") u ->
      (w = n ++ ch "=" :: u \/ exists r, w = n ++ ch "=" :: u ++ ch "=" :: r) ->
      assignment_word w (n ++ ch "=" :: match vars u with Some v => v | None => u end).

  Inductive variables_replaced : simple_command -> simple_command -> Prop :=
  | vr p p' name name' s s' :
      match p, p' with
      | None, None => True
      | Some p, Some p' => p_redirect p' = p_redirect p /\ Forall2 assignment_word (assignment p) (assignment p')
      | _, _ => False
      end ->
      variable name name' ->
      match s, s' with
      | None, None => True
      | Some s, Some s' => s_redirect s' = s_redirect s /\ Forall2 variable (word_list s) (word_list s')
      | _, _ => False
      end ->
      variables_replaced (SimpleCommand p name s) (SimpleCommand p' name' s').
End Variables.

(** ** Aliases *)

Definition words_of (s : option suffix) : list str := match s with Some s => word_list s | None => [] end.
Definition redirs_of (s : option suffix) : list io_redirect := match s with Some s => s_redirect s | None => [] end.

Inductive alias_replaced (al : aliases) : simple_command -> simple_command -> Prop :=
| ar_none sc : sget (sc_name sc) al = None -> alias_replaced al sc sc
| ar_some sc text n args : sget (sc_name sc) al = Some text -> fields text (n :: args) ->
    alias_replaced al sc
      (SimpleCommand (sc_prefix sc) n (Some (Suffix (redirs_of (sc_suffix sc)) (words_of (sc_suffix sc) ++ args)))).

(** ** The whole expansion *)

Definition expands (out : oracle) (al : aliases) (vars : str -> option str) (log : ran)
    (sc sc' : simple_command) (log' : ran) : Prop :=
  exists sc1 sc2, alias_replaced al sc sc1 /\ variables_replaced vars sc1 sc2 /\
    quotes_removed out log sc2 sc' log'.

(** ** Vocabulary for the property statements *)

Definition sq (t : str) : str := lit "'" ++ t ++ lit "'".
Definition dq (t : str) : str := lit """" ++ t ++ lit """".

(** Arguments as they are ordinarily written, and the single value each one has. *)
Inductive ordinary (vars : str -> option str) : str -> str -> Prop :=
| o_plain w : ~ begins (ch "$") w -> ~ begins (ch "'") w -> ~ begins (ch """") w -> ordinary vars w w
| o_single t : ~ In (ch "'") t -> ordinary vars (sq t) t
| o_double t : (forall c, In c t -> ~ In c (lit """$`")) -> ordinary vars (dq t) t
| o_set x v : vars x = Some v -> ~ begins (ch "'") v -> ~ begins (ch """") v -> ordinary vars (ch "$" :: x) v
| o_unset x : vars x = None -> ordinary vars (ch "$" :: x) (ch "$" :: x).

(** A command word that is not an alias and contains nothing special. *)
Definition plain_name (al : aliases) (n : str) : Prop :=
  n <> [] /\ sget n al = None /\ ~ begins (ch "$") n /\
  (forall c, In c n -> ~ space c /\ ~ In c (lit "'""")).

(** A line that consists of these words. *)
Definition line_of (ws : list str) (sc : simple_command) : Prop :=
  parse (r_words ws) = Some (Some [AoOne (Pipeline false [CSimple sc] false)]).

(** One alias or unalias command, with its arguments as the user wrote them. *)
Inductive alias_op :=
| ADefine (words : list str)    (* alias w1 w2 ... *)
| AForget (n : str)             (* unalias n *)
| AForgetAll.                   (* unalias -a *)

Definition perform_alias (o : alias_op) (al : aliases) : option aliases :=
  match o with
  | ADefine ws => alias_builtin ws al
  | AForget n => option_map snd (unalias_builtin [n] al)
  | AForgetAll => option_map snd (unalias_builtin [lit "-a"] al)
  end.

Fixpoint perform_aliases (os : list alias_op) (al : aliases) : option aliases :=
  match os with
  | [] => Some al
  | o :: os' => match perform_alias o al with Some al' => perform_aliases os' al' | None => None end
  end.

(** One pair of surrounding quotes removed. *)
Inductive stripped : str -> str -> Prop :=
| st_pair q t : In q (lit "'""") -> stripped (q :: t ++ [q]) t
| st_lone q : In q (lit "'""") -> stripped [q] []
| st_none s : (forall q t, In q (lit "'""") -> s <> q :: t ++ [q]) -> ~ (exists q, In q (lit "'""") /\ s = [q]) ->
    stripped s s.

(** [w] is a definition [n=v] that the table accepts. *)
Definition defines (w n v : str) : Prop :=
  exists u, w = n ++ ch "=" :: u /\ ~ In (ch "=") n /\ ~ In (ch "=") u /\ stripped u v.
