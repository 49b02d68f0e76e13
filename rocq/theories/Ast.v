(** Model of the syntax tree types of src/ast.rs that the grammar can build.

    The types for [for], [case], [if], [while], [until] and parenthesised
    sub-shells (src/ast.rs:84-98, 105-173) are never built by
    src/grammar.lalrpop and are left out. *)
From Verif Require Import Base.

(** src/ast.rs:794-799 [RedirectType], restricted to the three variants built by
    the grammar (lines 169-173 of grammar.lalrpop). *)
Inductive redirect_type := RInput | ROutput | RAppend.

(** src/ast.rs:787-792 [IoRedirect] and 802-806 [IoFile].  The grammar always
    builds [io_file: Some _] and [io_here: None], so the file part is inlined
    and [io_here] is dropped. *)
Record io_redirect := IoRedirect {
  io_number : option Z;
  redirect : redirect_type;
  filename : str
}.

(** src/ast.rs:771-774 [Prefix]. *)
Record prefix := Prefix { p_redirect : list io_redirect; assignment : list str }.

(** src/ast.rs:777-780 [Suffix]. *)
Record suffix := Suffix { s_redirect : list io_redirect; word_list : list str }.

(** src/ast.rs:194-198 [SimpleCommand]. *)
Record simple_command := SimpleCommand {
  sc_prefix : option prefix;
  sc_name : str;
  sc_suffix : option suffix
}.

(** src/ast.rs:37-40 [ConditionalExec]. *)
Inductive cond := CAnd | COr.

(** src/ast.rs:43-47 [AndOr]: the two [Option] fields are both [None] or both
    [Some] in every tree the grammar builds (grammar.lalrpop:69-75), hence the
    two constructors.
    src/ast.rs:50-57 [Pipeline], [PipeSequence].
    src/ast.rs:77-81 [Command]: the redirect list of [CompoundCommand] is always
    [None] (grammar.lalrpop:92); the only [CompoundCommand] is [BraceGroup]
    (lines 96-98), wrapping [CompoundList(Term(Vec<AndOr>))] (src/ast.rs:100-103, 188);
    src/ast.rs:176-185 [FunctionDefinition], [FunctionBody]. *)
Inductive and_or :=
| AoOne (p : pipeline)
| AoMore (l : and_or) (c : cond) (p : pipeline)
with pipeline :=
| Pipeline (bang : bool) (cs : list command) (background : bool)
with command :=
| CSimple (sc : simple_command)
| CGroup (body : list and_or)
| CFunction (name : str) (body : list and_or) (redirs : option (list io_redirect)).

(** src/ast.rs:14-19 [CompleteCommand], [List]. *)
Definition complete_command := option (list and_or).
