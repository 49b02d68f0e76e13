(** Vocabulary for the properties of the grammar: writing a syntax tree back as
    text, and a flat description of operator grouping.  Neither mentions the
    parser. *)
From Verif Require Import Base Lexer LexerSpec Ast Grammar.

(** [a1 sep a2 sep ... an] *)
Fixpoint joined {A} (sep : list A) (l : list (list A)) : list A :=
  match l with
  | [] => []
  | [a] => a
  | a :: l' => a ++ sep ++ joined sep l'
  end.

(** ** Rendering: every piece is written with a blank in front of it. *)

Definition op_text (k : redirect_type) : str :=
  match k with RInput => lit "<" | ROutput => lit ">" | RAppend => lit ">>" end.

Definition r_redir (r : io_redirect) : str :=
  lit " " ++ match io_number r with Some n => Z_to_str n | None => [] end
          ++ op_text (redirect r) ++ lit " " ++ filename r.

Definition r_words (ws : list str) : str := List.concat (map (fun w => lit " " ++ w) ws).
Definition r_redirs (rs : list io_redirect) : str := List.concat (map r_redir rs).

Definition r_simple (sc : simple_command) : str :=
  match sc_prefix sc with Some p => r_words (assignment p) ++ r_redirs (p_redirect p) | None => [] end ++
  match sc_name sc with [] => [] | n => lit " " ++ n end ++
  match sc_suffix sc with Some s => r_words (word_list s) ++ r_redirs (s_redirect s) | None => [] end.

Definition r_cond (c : cond) : str := match c with CAnd => lit " &&" | COr => lit " ||" end.

Fixpoint r_andor (a : and_or) : str :=
  match a with
  | AoOne p => r_pipeline p
  | AoMore l c p => r_andor l ++ r_cond c ++ r_pipeline p
  end
with r_pipeline (p : pipeline) : str :=
  match p with
  | Pipeline bang cs bg =>
      (if bang then lit " !" else []) ++ joined (lit " |") (map r_command cs) ++ (if bg then lit " &" else [])
  end
with r_command (c : command) : str :=
  match c with
  | CSimple sc => r_simple sc
  | CGroup body => lit " {" ++ joined (lit " ;") (map r_andor body) ++ lit " ; }"
  | CFunction name body redirs =>
      lit " " ++ name ++ lit " ( ) {" ++ joined (lit " ;") (map r_andor body) ++ lit " ; }"
      ++ match redirs with Some rs => r_redirs rs | None => [] end
  end.

Definition render (l : list and_or) : str := joined (lit " ;") (map r_andor l).

(** ** Well-formed trees *)

(** [name=value] where both sides are words *)
Definition written_assignment (a : str) : Prop :=
  exists v u, a = v ++ lit "=" ++ u /\ written_word v /\ written_word u.

Definition wf_redir (r : io_redirect) : Prop :=
  written_word (filename r) /\
  match io_number r with Some n => (- 2147483648 <= n <= 2147483647)%Z | None => True end.

Definition wf_prefix (p : prefix) : Prop :=
  (p_redirect p <> [] \/ assignment p <> []) /\
  Forall written_assignment (assignment p) /\ Forall wf_redir (p_redirect p).

Definition wf_suffix (s : suffix) : Prop :=
  (s_redirect s <> [] \/ word_list s <> []) /\
  Forall (fun w => written_word w \/ written_assignment w) (word_list s) /\ Forall wf_redir (s_redirect s).

Definition opt {A} (P : A -> Prop) (o : option A) : Prop := match o with Some a => P a | None => True end.

Definition wf_simple (sc : simple_command) : Prop :=
  opt wf_prefix (sc_prefix sc) /\ opt wf_suffix (sc_suffix sc) /\
  (written_word (sc_name sc) \/ sc_name sc = [] /\ sc_prefix sc <> None /\ sc_suffix sc = None).

Definition all (Ps : list Prop) : Prop := fold_right and True Ps.

(** The one tree shape that has no text: a negated background pipeline. *)
Fixpoint wf_andor (a : and_or) : Prop :=
  match a with
  | AoOne p => wf_pipeline p
  | AoMore l c p => wf_andor l /\ wf_pipeline p
  end
with wf_pipeline (p : pipeline) : Prop :=
  match p with
  | Pipeline bang cs bg => cs <> [] /\ all (map wf_command cs) /\ ~ (bang = true /\ bg = true)
  end
with wf_command (c : command) : Prop :=
  match c with
  | CSimple sc => wf_simple sc
  | CGroup body => body <> [] /\ all (map wf_andor body)
  | CFunction name body redirs =>
      written_word name /\ body <> [] /\ all (map wf_andor body) /\
      opt (fun rs => rs <> [] /\ Forall wf_redir rs) redirs
  end.

(** ** Operator grouping, flat *)

(** a pipeline: optional [!], commands separated by [|], optional [&] *)
Definition flat_pipeline (ts : list token) (p : pipeline) : Prop :=
  exists bang cts cs amp,
    ts = (if bang : bool then [TBang] else []) ++ joined [TPipe] cts ++ (if amp : bool then [TAmpersand] else []) /\
    cts <> [] /\ Forall2 GCommand cts cs /\
    p = Pipeline bang cs (amp && negb bang).

Definition cond_token (c : cond) : token := match c with CAnd => TAnd | COr => TOr end.

(** pipelines separated by [&&] or [||], each operator possibly followed by newlines *)
Record link := Link { l_cond : cond; l_nl : bool; l_toks : list token; l_pipe : pipeline }.
Definition link_tokens (k : link) : list token :=
  cond_token (l_cond k) :: (if l_nl k then [TNewlineList] else []) ++ l_toks k.

Definition flat_andor (ts : list token) (a : and_or) : Prop :=
  exists t0 p0 ks,
    ts = t0 ++ List.concat (map link_tokens ks) /\
    flat_pipeline t0 p0 /\ Forall (fun k => flat_pipeline (l_toks k) (l_pipe k)) ks /\
    a = fold_left (fun a k => AoMore a (l_cond k) (l_pipe k)) ks (AoOne p0).

(** and-or lists separated by [;] or newline *)
Definition flat_list (ts : list token) (l : list and_or) : Prop :=
  exists t0 a0 ks,
    ts = t0 ++ List.concat (map (fun k => (if fst (fst k) : bool then TSemiColon else TNewlineList) :: snd (fst k)) ks) /\
    flat_andor t0 a0 /\ Forall (fun k => flat_andor (snd (fst k)) (snd k)) ks /\
    l = a0 :: map snd ks.
