(** The grammar of src/grammar.lalrpop, one derivation relation per
    non-terminal and one constructor per production, in the file's order.
    [N ts v]: the token sequence [ts] derives from non-terminal [N] with value
    [v] (the result of the production's action). *)
From Verif Require Import Base Lexer Ast.

(** grammar.lalrpop:199-202 [Word] (also [CmdName] 189-192 and [CmdWord]
    194-197, which have the same two productions; [Subshell] 100-102). *)
Inductive GWord : list token -> str -> Prop :=
| g_word w : GWord [TWord w] w
| g_word_subshell w : GWord [TSubshell w] w.

(** grammar.lalrpop:169-173 [IOFile]. *)
Inductive GIOFile : list token -> redirect_type * str -> Prop :=
| g_in ts w : GWord ts w -> GIOFile (TLess :: ts) (RInput, w)
| g_out ts w : GWord ts w -> GIOFile (TGreater :: ts) (ROutput, w)
| g_app ts w : GWord ts w -> GIOFile (TDoubleGreater :: ts) (RAppend, w).

(** grammar.lalrpop:164-167 [IORedirect]. *)
Inductive GIORedirect : list token -> io_redirect -> Prop :=
| g_redir ts k f : GIOFile ts (k, f) -> GIORedirect ts (IoRedirect None k f)
| g_redir_num n ts k f : GIOFile ts (k, f) -> GIORedirect (TNumber n :: ts) (IoRedirect (Some n) k f).

(** grammar.lalrpop:175-178 [RedirectList]. *)
Inductive GRedirectList : list token -> list io_redirect -> Prop :=
| g_rl_one ts r : GIORedirect ts r -> GRedirectList ts [r]
| g_rl_more ts1 ts2 rl r : GRedirectList ts1 rl -> GIORedirect ts2 r -> GRedirectList (ts1 ++ ts2) (rl ++ [r]).

(** grammar.lalrpop:180-187 [Assignment]. *)
Inductive GAssignment : list token -> str -> Prop :=
| g_assign var ts val : GWord ts val ->
    GAssignment (TWord var :: TEquals :: ts) (var ++ lit "=" ++ val).

(** grammar.lalrpop:148-153 [Prefix]. *)
Inductive GPrefix : list token -> prefix -> Prop :=
| g_pf_redir ts r : GIORedirect ts r -> GPrefix ts (Prefix [r] [])
| g_pf_more_redir ts1 ts2 p r : GPrefix ts1 p -> GIORedirect ts2 r ->
    GPrefix (ts1 ++ ts2) (Prefix (p_redirect p ++ [r]) (assignment p))
| g_pf_assign ts a : GAssignment ts a -> GPrefix ts (Prefix [] [a])
| g_pf_more_assign ts1 ts2 p a : GPrefix ts1 p -> GAssignment ts2 a ->
    GPrefix (ts1 ++ ts2) (Prefix (p_redirect p) (assignment p ++ [a])).

(** grammar.lalrpop:155-162 [Suffix]. *)
Inductive GSuffix : list token -> suffix -> Prop :=
| g_sf_redir ts r : GIORedirect ts r -> GSuffix ts (Suffix [r] [])
| g_sf_more_redir ts1 ts2 p r : GSuffix ts1 p -> GIORedirect ts2 r ->
    GSuffix (ts1 ++ ts2) (Suffix (s_redirect p ++ [r]) (word_list p))
| g_sf_word w : GSuffix [TWord w] (Suffix [] [w])
| g_sf_more_word ts1 ts2 p w : GSuffix ts1 p -> GWord ts2 w ->
    GSuffix (ts1 ++ ts2) (Suffix (s_redirect p) (word_list p ++ [w]))
| g_sf_assign ts a : GAssignment ts a -> GSuffix ts (Suffix [] [a])
| g_sf_more_assign ts1 ts2 p a : GSuffix ts1 p -> GAssignment ts2 a ->
    GSuffix (ts1 ++ ts2) (Suffix (s_redirect p) (word_list p ++ [a])).

(** grammar.lalrpop:140-146 [SimpleCommand]. *)
Inductive GSimple : list token -> simple_command -> Prop :=
| g_sc_pws t1 t2 t3 p w s : GPrefix t1 p -> GWord t2 w -> GSuffix t3 s ->
    GSimple (t1 ++ t2 ++ t3) (SimpleCommand (Some p) w (Some s))
| g_sc_pw t1 t2 p w : GPrefix t1 p -> GWord t2 w ->
    GSimple (t1 ++ t2) (SimpleCommand (Some p) w None)
| g_sc_ws t2 t3 w s : GWord t2 w -> GSuffix t3 s ->
    GSimple (t2 ++ t3) (SimpleCommand None w (Some s))
| g_sc_w t2 w : GWord t2 w -> GSimple t2 (SimpleCommand None w None)
| g_sc_p t1 p : GPrefix t1 p -> GSimple t1 (SimpleCommand (Some p) [] None).

(** grammar.lalrpop:212-222 [Separator] (value unused). *)
Inductive GSeparator : list token -> Prop :=
| g_sep_semi : GSeparator [TSemiColon]
| g_sep_semi_nl_nl : GSeparator [TSemiColon; TNewlineList; TNewlineList]
| g_sep_semi_nl_nl_eof : GSeparator [TSemiColon; TNewlineList; TNewlineList; TEOF]
| g_sep_nl : GSeparator [TNewlineList]
| g_sep_eof : GSeparator [TEOF]
| g_sep_nl_eof : GSeparator [TNewlineList; TEOF]
| g_sep_nl_nl : GSeparator [TNewlineList; TNewlineList]
| g_sep_nl_nl_eof : GSeparator [TNewlineList; TNewlineList; TEOF]
| g_sep_semi_eof : GSeparator [TSemiColon; TEOF].

(** grammar.lalrpop:204-207 [CmdSepOp] (value unused). *)
Inductive GCmdSepOp : list token -> Prop :=
| g_op_semi : GCmdSepOp [TSemiColon]
| g_op_nl : GCmdSepOp [TNewlineList].

(** The mutually recursive part.
    grammar.lalrpop:69-75 [AndOr], 77-82 [Pipeline] ([CmdBackgroundOp] 208-210 is
    the single token "&"; note line 81: a banged background pipeline gets
    [background: false]), 84-87 [PipelineSeq], 89-94 [Command] with
    96-98 [CompoundCommand] and 120-122 [BraceGroup], 104-111 [Term],
    113-118 [CompoundList], 124-132 [FunctionDefinition], 134-137 [FunctionBody]. *)
Inductive GAndOr : list token -> and_or -> Prop :=
| g_ao_one ts p : GPipeline ts p -> GAndOr ts (AoOne p)
| g_ao_and t1 t2 a p : GAndOr t1 a -> GPipeline t2 p -> GAndOr (t1 ++ TAnd :: t2) (AoMore a CAnd p)
| g_ao_and_nl t1 t2 a p : GAndOr t1 a -> GPipeline t2 p ->
    GAndOr (t1 ++ TAnd :: TNewlineList :: t2) (AoMore a CAnd p)
| g_ao_or t1 t2 a p : GAndOr t1 a -> GPipeline t2 p -> GAndOr (t1 ++ TOr :: t2) (AoMore a COr p)
| g_ao_or_nl t1 t2 a p : GAndOr t1 a -> GPipeline t2 p ->
    GAndOr (t1 ++ TOr :: TNewlineList :: t2) (AoMore a COr p)
with GPipeline : list token -> pipeline -> Prop :=
| g_pl ts cs : GPipelineSeq ts cs -> GPipeline ts (Pipeline false cs false)
| g_pl_bang ts cs : GPipelineSeq ts cs -> GPipeline (TBang :: ts) (Pipeline true cs false)
| g_pl_bg ts cs : GPipelineSeq ts cs -> GPipeline (ts ++ [TAmpersand]) (Pipeline false cs true)
| g_pl_bang_bg ts cs : GPipelineSeq ts cs -> GPipeline (TBang :: ts ++ [TAmpersand]) (Pipeline true cs false)
with GPipelineSeq : list token -> list command -> Prop :=
| g_ps_one ts c : GCommand ts c -> GPipelineSeq ts [c]
| g_ps_more t1 t2 cs c : GPipelineSeq t1 cs -> GCommand t2 c -> GPipelineSeq (t1 ++ TPipe :: t2) (cs ++ [c])
with GCommand : list token -> command -> Prop :=
| g_cmd_simple ts sc : GSimple ts sc -> GCommand ts (CSimple sc)
| g_cmd_function ts n b r : GFunction ts n b r -> GCommand ts (CFunction n b r)
| g_cmd_group ts b : GBrace ts b -> GCommand ts (CGroup b)
with GBrace : list token -> list and_or -> Prop :=
| g_brace ts b : GCompoundList ts b -> GBrace (TOpenBrace :: ts ++ [TCloseBrace]) b
with GTerm : list token -> list and_or -> Prop :=
| g_term_more t1 t2 t3 l a : GTerm t1 l -> GSeparator t2 -> GAndOr t3 a -> GTerm (t1 ++ t2 ++ t3) (l ++ [a])
| g_term_one ts a : GAndOr ts a -> GTerm ts [a]
with GCompoundList : list token -> list and_or -> Prop :=
| g_cl ts l : GTerm ts l -> GCompoundList ts l
| g_cl_nl ts l : GTerm ts l -> GCompoundList (TNewlineList :: ts) l
| g_cl_sep t1 t2 l : GTerm t1 l -> GSeparator t2 -> GCompoundList (t1 ++ t2) l
| g_cl_nl_sep t1 t2 l : GTerm t1 l -> GSeparator t2 -> GCompoundList (TNewlineList :: t1 ++ t2) l
with GFunction : list token -> str -> list and_or -> option (list io_redirect) -> Prop :=
| g_fn_nl name ts b r : GBody ts b r ->
    GFunction (TWord name :: TOpenParen :: TCloseParen :: TNewlineList :: ts) name b r
| g_fn name ts b r : GBody ts b r ->
    GFunction (TWord name :: TOpenParen :: TCloseParen :: ts) name b r
with GBody : list token -> list and_or -> option (list io_redirect) -> Prop :=
| g_body ts b : GBrace ts b -> GBody ts b None
| g_body_redir t1 t2 b rl : GBrace t1 b -> GRedirectList t2 rl -> GBody (t1 ++ t2) b (Some rl).

(** grammar.lalrpop:60-67 [List]. *)
Inductive GList : list token -> list and_or -> Prop :=
| g_list_more t1 t2 t3 l a : GList t1 l -> GCmdSepOp t2 -> GAndOr t3 a -> GList (t1 ++ t2 ++ t3) (l ++ [a])
| g_list_one ts a : GAndOr ts a -> GList ts [a].

(** grammar.lalrpop:53-58 [CompleteCommand]. *)
Inductive GComplete : list token -> complete_command -> Prop :=
| g_sep_list t1 t2 l : GSeparator t1 -> GList t2 l -> GComplete (t1 ++ t2) (Some l)
| g_list_sep t1 t2 l : GList t1 l -> GSeparator t2 -> GComplete (t1 ++ t2) (Some l)
| g_list ts l : GList ts l -> GComplete ts (Some l)
| g_sep ts : GSeparator ts -> GComplete ts None.
