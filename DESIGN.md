# Formal model of rsh in Rocq (Coq 8.16.1)

The shell in /repo is read as text and modelled function by function in small
total Gallina functions; the properties of properties.jsonl are theorems about
that model.  Nothing of /repo is built or run.

## Method

* Texts are lists of Unicode scalar values; byte offsets are computed from the
  UTF-8 length of each character, so a slice off a character boundary is a
  *panic* in the model too.
* Panics, `Result` errors, the end of the process, a wait that never returns and
  exhausted fuel are explicit and different outcomes.
* Everything the operating system decides (files, directories, pids, statuses of
  children, pipes, output of a command substitution) is a function of the history
  of what the shell has asked for so far.  The theorems quantify over it, so
  nothing is assumed about the system except where a hypothesis says so.
* A forked child is a copy of the state; the history of system calls is kept in a
  trace, which the code does not have, so that theorems can speak about it.
* Every definition of the model carries a comment with the file and lines it
  models and what it leaves out.
* Specifications (`*Spec.v`) are written without the functions of the model.
  Properties files contain the theorem, a concrete non-trivial case that meets
  its hypotheses, and `Print Assumptions`.
* Where the code does not have the property, the theorem `..._refuted` proves that
  with a witness (or for every state, where that is so), and the part that does
  hold is proved under the suffix `_partial`.  The property keeps its full
  statement in properties.jsonl and has the status `partial`.

## Trusted base

* Coq's kernel (8.16.1), checked with `coqc`; no kernel check is switched off, no
  native or OCaml plugin is used; `vm_compute` appears in the concrete examples.
* Assumptions: every theorem named in MANIFEST.json prints "Closed under the
  global context": no axiom is used, not of the standard library either.
  `Print Assumptions` for each is at the end of its file.
* Library entries that a listing of loaded modules (`coqchk -o`) shows are the
  `Coq.ssr.ssrunder.Under_rel.*` parameters of Coq's own standard library, loaded
  with the prelude of ssreflect; no theorem depends on them.
* The transcription of the code into the model, by reading.  This is the part no
  tool has checked.  It was tested by looking for wrong programs that the theorems
  do not notice (seeded/LOG.jsonl).
* The contracts of what is not modelled: LALRPOP (the parser accepts the grammar's
  language and runs the actions of the derivation), Rust's standard library and
  `nix` (transcribed in Base.v, Shell.v, Jobs.v from their documentation), the
  operating system (types only).

## Files (rocq/theories)

| file | models |
|------|--------|
| Base.v | Rust's `char`, `str` and number primitives, maps, outcomes |
| Lexer.v | src/lexer.rs |
| Ast.v | the types of src/ast.rs |
| Grammar.v, Parser.v | src/grammar.lalrpop: derivation relations; executable parser proved equivalent |
| Context.v | src/context.rs |
| Alias.v | the alias table of src/shell.rs |
| Expand.v | src/ast.rs, `impl SimpleCommand` |
| Jobs.v | src/jobs.rs, the job part of src/shell.rs, the SIGCHLD handler of src/trap.rs |
| Shell.v | src/shell.rs: the state of the process and the system calls |
| Builtins.v | src/builtins.rs |
| Eval.v | src/eval.rs |
| Main.v | src/main.rs |
| Completion.v | src/completion.rs |
| Trap.v | src/trap.rs |
| Borrow.v | the `RefCell` borrows of src/shell.rs and src/trap.rs |
| Subst.v | src/ast.rs:369-420: command substitution as two processes and a pipe |
| Queue.v | src/trap.rs:137-149 and 180-300 with the kernel's set of signals that wait |
| SubstSignal.v | src/ast.rs:400-410 with the signals of src/trap.rs |
| Groups.v | process groups: src/eval.rs:202-208 |
| Net.v | the processes of a pipeline while they run, with the descriptors of src/eval.rs:188-263, and pipe(7) |
| Async.v | src/eval.rs and src/jobs.rs once more, with the handlers of SIGCHLD and SIGINT running in the middle of commands |

| file | contents |
|------|--------|
| *Spec.v | vocabulary of the statements, independent of the model |
| *Facts.v, *Laws.v, *Keeps.v, EvalStack.v, EvalHistory.v, EvalJobs.v, EvalFds.v, EvalForked.v, EvalEnv.v, EvalKill.v, EvalOpens.v, EvalSaved.v, EvalEnds.v, JobsWait.v, JobsPipe.v, JobsReports.v, PipeRun.v, AsyncRun.v, AsyncPipe.v, AsyncDeaf.v, GrammarShape.v | proofs |
| PropertiesLexer.v, PropertiesGrammar.v | C01-C14 |
| PropertiesContext.v | C24-C32, C61-C63 |
| PropertiesExpand.v | C15-C23, C33, C64-C67 |
| PropertiesJobs.v | C34-C41, C43, C68, C69 |
| PropertiesEval.v, PropertiesStatus.v | C42, C44, C45, C48-C53, C75, C76 |
| PropertiesPipe.v | C46, C47, C70-C74 |
| PropertiesExec.v | C57, C77 |
| PropertiesCrash.v | C53 |
| PropertiesMain.v, PropertiesSession.v | C54, C55, C78-C84 |
| PropertiesCompletion.v | C56, C85, C86 |
| PropertiesTrap.v, PropertiesBorrow.v | C58-C60, C87, C88 |
| PropertiesBuiltins.v | C89-C94 |
| PropertiesRun.v | C95-C102 |
| PropertiesProgram.v | C104-C110 |
| PropertiesSubst.v | C111-C113 |
| PropertiesAsync.v | C114-C116 |
| PropertiesWait.v | C40-C42, C76 for whole lines |
| PropertiesCore.v | C117 |
| PropertiesCoreFun.v | C125 |
| PropertiesBgFun.v | C126 |
| PropertiesBgPipe.v | C84, for pipelines in the background |
| PropertiesPersist.v | C118, C119, C121 |
| PropertiesKill.v | C122 |
| PropertiesFiles.v, PropertiesHistory.v | C123, C124, C127 |
| PropertiesTyped.v | C33, C53, C103, as lines typed by the user |
| PropertiesNamespace.v | C53 (export context), C120 |
| PropertiesText.v | C128-C136 |
| PropertiesInterrupt.v | C137 |
| PropertiesQueue.v, PropertiesHangup.v | C143 |
| PropertiesReuse.v | C144, C69: process numbers that are used again |
| PropertiesFg.v | C138 |
| PropertiesNet.v | C139 |
| PropertiesEnds.v | C141 |
| CoreExitSpec.v | exit and exec in the core language and their meaning, stated without the shell (C142) |
| PropertiesCoreExit.v | C142 |
| PropertiesCoreQuit.v | C142 with functions: `exit` and `exec` in bodies, however deep in calls |
| PropertiesCoreAsync.v | C115, C117: the core language when signals arrive at any moment, and at the prompt |
| PropertiesCoreFunAsync.v | C115, C125: the same with functions, files that are sourced and eval |
| PropertiesCoreQuitAsync.v | C142 when signals arrive at any moment: `exit` and `exec`, however deep |
| EvalPids.v | the number of a process stands for its job as long as the system does not give it to another, whatever is run |
| EvalExact.v | when the system gives no number twice, the table of process numbers and that of jobs agree, at every moment of every session |
| EvalExactAsync.v | the same when signals arrive in the middle of commands |
| PropertiesPids.v | C147: process numbers lead to their jobs |
| PropertiesOwn.v | C144 in whole sessions: the status of a program is its own when no number is given twice |
| EvalSame.v | what a command does depends only on what the system reports while it runs |
| CoreJobsSpec.v | the meaning of sessions in which programs are stopped, brought back and continued in the background |
| PropertiesCoreJobs.v | C145: programs that are stopped and brought back, or continued in the background, with commands of the core language in between |
| PropertiesNumber.v | C146: the numbers that new jobs get |
| PropertiesCoreRcAsync.v | C80 in front of all of that: startup files, then a session with signals, or a script |
| PropertiesCoreRc.v | C80, C125, C142 with startup files in the core language |
| PropertiesGroup.v | C140 |

## What of the code is modelled

| source | modelled | not modelled |
|--------|----------|--------------|
| lexer.rs | the iterator, with look-ahead, byte positions and slices | `fmt`; `take_until_seen_twice` (unused); token kinds that are never made |
| grammar.lalrpop | every production reachable from `CompleteCommand` | LALRPOP's tables and error messages |
| ast.rs | types that the grammar builds; expansion of simple commands (207-249, 252-768) | constructors and iterators of lists; `remove_whitespace`, `recombine_double_quotes`, `expand_subshells`, `remove_double_quotes`, `remove_single_quotes` (never called); the file's unit tests |
| context.rs | variables, functions, scopes, namespaces, reading the environment, PATH lookup | plain constructors; `make_readonly_func`, `push_context` of a single context and the `(&str, &str)` variants of `add_var` (not called) |
| shell.rs | state, aliases, jobs, scopes, parameters, PATH lookup; when and where the history is saved; which functions borrow the state (Borrow.v) | what the line editor writes to the history file; `load_history` (never called); the line editor object; fields that are never used (71-87) |
| jobs.rs | jobs, processes, forking and running jobs, waiting, collecting, display, terminal (an event of the trace) | the suspension inside the wait loop (647-660), which no answer of `waitpid` reaches; the answers are a stream, and an empty one is a wait that never ends |
| trap.rs | setting up signals, the handler, ignored signals, pending signals, reset in children | `sig_block_all`; the flag `BLOCK_SIGNALS`, which is never set |
| builtins.rs | all commands, their argument patterns, their errors and their panics | wording of the errors on standard error |
| eval.rs | pipelines, lists, conditions, simple commands, functions, redirections, pipes | `check_if_function` (unused); groups, loops and conditionals are `todo` in the code or have no production |
| main.rs | command line, startup files, script loop, prompt loop | the line editor; log output; `read_profile` (its call is commented out); messages about syntax errors |
| completion.rs | completion of names (62-127) | highlighting and hints |
| log.rs | nothing | writes to a log file only |
| var.rs | nothing | an older copy of context.rs; compiled but not used |
| parser.rs, exec.rs, process.rs | nothing | not compiled (commented out in main.rs) |

Other simplifications, each repeated at its definition: job numbers are unbounded;
one character is one scalar value; standard error is not recorded; writing to
standard output never fails (`println!` would panic); the model starts after
`Shell::new`, whose own panics (no working directory, no line editor) are left out; the borrow
of a job that a forked child inherits and never returns is a mark on the job (Jobs.v, `borrowed`); a signal
handler is an operation of its own (Jobs.v, Trap.v); that it can interrupt the
evaluator is modelled in Borrow.v (which borrows are active) and Async.v (nine moments of every
command, among them the waits of a command substitution and of `fg`, any number of signals at each, also inside the handler where it unblocks them; not elsewhere inside builtins and not inside a write to the job table); in the evaluator the text of a command substitution is an oracle, which
answers only for children that do not fill the pipe (the child and the pipe are
Subst.v).

Timing, memory safety of `unsafe` and `static mut`, and the kernel's own behaviour
cannot be expressed in this model.

## How the properties are proved

* C01-C08: an index-free specification lexer, a refinement theorem between it and
  the iterator, and the laws proved of the specification.
* C09-C14: the parser is sound and complete for the derivation relations; render and
  parse are inverse by induction on trees.
* C15-C23, C64-C67: a specification of what each written form expands to; the
  pipeline alias, variables, quotes is proved to meet it.
* C24-C32, C61-C63: a heap of scopes refines a stack of maps, for every history.
* C34-C43, C68, C69, C95: invariants of every history of operations; the streams of
  statuses are arbitrary.
* C44-C53, C70-C77, C89-C112: a fuelled evaluator; fuel monotonicity; relations
  between the states before and after that every step of every run keeps; exact
  execution lemmas for lines as the user types them.
* C54-C57, C78-C88: command lines, sessions by induction on what is typed, completion,
  signals as a map from signals to dispositions.
* C140: a property of every event of every process of a session (as for C122-C124).
* C113, C139, C141: invariants of transition systems of processes and bounded pipes (C141: every run
  is finite, by a lexicographic order of the processes); for C139 and C141 the
  descriptors of the processes are those that the evaluator is proved to give them.
* C114-C116: the same relations for the evaluator with signals; it is proved equal to the
  other one when no signal arrives, and for single programs whenever signals arrive.
* C117: a small language with its own meaning (CoreSpec.v): pipelines, redirections, settings,
  variables, `cd`, `&&`, `||` and `;`; and a relation between its states
  and the shell's that every command keeps; by induction on scripts, from `main` on.
* C142: the same language with `exit` and `exec`, alone or behind `&&` or `||` (CoreExitSpec.v); the meaning
  of C117 is used as it is. With functions, `exit` and `exec` are commands of C125 that end the run from any depth of calls and of
  files being read; what the shell has open then, a new program sees as the shell was given it.
* C125: the same language with functions (CoreFunSpec.v), whose meaning extends that of C117
  (`C125_extends`); by induction on the depth of calls. `eval 'commands'` is a command of it, and `. file`: the file is the text of
  commands, some on each line, and what it does is what its commands do, here and now (`contents` of the world
  gives the text; `sys_files` says that the system has such a file).

## Status of each property

| id | property | status | what is proved, what is missing |
|----|----------|--------|---|
| C01 | Lexing always finishes and never crashes | proved | the whole statement |
| C02 | Token positions and text are faithful | proved | the whole statement |
| C03 | No input is silently dropped by the tokeniser | proved | the whole statement |
| C04 | Quoted text is one token, verbatim | proved | the whole statement |
| C05 | Comments and blanks do not matter | proved | the whole statement |
| C06 | Reserved words are recognised exactly | proved | the whole statement |
| C07 | Descriptor numbers before redirections | proved | the whole statement |
| C08 | Words round-trip through the tokeniser | proved | the whole statement |
| C09 | The parser accepts exactly the grammar, with one meaning | proved | executable parser accepts exactly the derivation relations transcribed from grammar.lalrpop; trees unique |
| C10 | Syntax trees round-trip through text | proved | every well-formed tree; the only tree shape excluded is a negated background pipeline, which has no text |
| C11 | Operator grouping | proved | iff characterisation of every accepted token sequence |
| C12 | Blank and comment lines around commands are harmless | partial | full statement is false of the code (leading blank/comment line, comment line between commands are syntax errors); proved refutation and the part that holds |
| C13 | Statement terminators | partial | false for ';' followed by a newline at end of input; all other terminators proved |
| C14 | Background marker | partial | false for '! p &' (marker lost); proved for every pipeline without '!' |
| C15 | Single quotes protect every character | proved | a command whose name expands to nothing takes no arguments and is excluded |
| C16 | Double quotes keep plain text as one argument | proved | the whole statement |
| C17 | Variable references in arguments | partial | false for values that begin with a quote (unquoted once more); everything else proved, in every position |
| C18 | Variable references inside double quotes | partial | false of the code: the variable is not replaced and its first letter is lost, a final $ crashes; plain text and command substitution inside double quotes are proved |
| C19 | Variable references in assignments | partial | false of the code: the value is looked up including the $; assignments without $ are proved unchanged |
| C20 | Alias expansion | proved | the whole statement |
| C21 | Redirections survive expansion | partial | false for a command without arguments (its redirections are dropped); proved for all others |
| C22 | Expansion never crashes the shell | partial | false; five kinds of lines that crash, and proved that ordinary commands never do |
| C23 | Quote-aware splitting | partial | false for blanks of more than one byte (crash, exactly characterised) |
| C24 | Variables behave like a stack of maps | proved | refinement of every history of unqualified operations to a stack of maps |
| C25 | Read-only variables keep their value | partial | false for export/readonly/unset of the name; proved for every history without these |
| C26 | Scope exit restores the caller's variables | proved | the whole statement |
| C27 | Function arguments are local to the call | partial | the caller's $0 (always bound) is overwritten by every call; proved local when the caller has no such parameters |
| C28 | Namespaced reads are isolated | proved | the whole statement |
| C29 | unset removes exactly the innermost binding | proved | the whole statement |
| C30 | Function table | proved | names without '::'; qualified definitions are C62 |
| C31 | The global scope cannot be lost | proved | the whole statement |
| C32 | Command lookup follows PATH order | proved | exact characterisation, including the panic when PATH is unset |
| C33 | Alias table | partial | false for values containing '=', definitions containing -p, names containing -a, several names to unalias; proved for the rest, also as typed lines |
| C34 | Job numbers are unique | proved | the whole statement |
| C35 | Stopped jobs are never lost | partial | false for a job that was stopped once and has ended since: it can never be removed; the rest is proved |
| C36 | Process-to-job lookup | proved | the whole statement |
| C37 | Background marks | partial | false after fg and bg, and the 'any background jobs' query is inverted; proved for histories without fg/bg switches |
| C38 | Current job is a live job | partial | false once the current job has ended (crash); proved between removals |
| C39 | Reaping updates exactly the right process | proved | the whole statement |
| C40 | Waiting for a foreground job does not crash | partial | false; the crashes are characterised exactly, for one status and for every foreground pipeline and everything reported while it runs |
| C41 | A foreground pipeline is waited for completely | partial | false for pipelines (a crash for every pipeline whose first process is not the first to report), and for single commands when a background job ends; proved for a single command when no other job is running |
| C42 | Exit status of a command | partial | proved for one program run in the foreground while no other job is running (others may be stopped); false for pipelines, where the first command's status counts (proved for every pipeline and every order of the other reports), and while another job runs, when the shell crashes |
| C43 | Job listing | partial | the text is right, but the command that prints it crashes whenever there is a job |
| C44 | && and \|\| short-circuit | proved | the whole statement |
| C45 | Lists run in order | proved | the whole statement |
| C46 | Pipeline wiring | partial | proved for every pipeline of programs: each process has exactly its ends of the pipes, no process keeps another end; false for pipelines containing builtins or functions, which are not connected at all (C100, C101, C116), and when a pipe cannot be made the shell keeps one end of the previous one open |
| C47 | Redirections take effect in order | partial | proved with standard input and output open; false: the number in front of a redirection is ignored, and a redirection of a closed descriptor is lost |
| C48 | Signals are unblocked after every command | partial | false after a builtin or a function definition; proved for every pipeline that starts with an ordinary simple command |
| C49 | Function calls balance scopes | partial | false when 'export context' fails: one scope stays behind for each failure, exactly; proved for every other run, including recursion |
| C50 | eval builtin | partial | the effects are those of the text, but the status is lost, only the first word counts, and a trailing semicolon is refused |
| C51 | Evaluation is deterministic | proved | the whole statement |
| C52 | return and exit | partial | exit is right; return sets the status but ends nothing, and a function call's status is always 0 |
| C53 | Builtins never crash the shell | partial | false: many lines crash the shell; exactly which is proved for every built-in command: cd, exit, return, jobs, bg, alias, unalias, unset, pwd, readonly, eval, export, export context, source, exec and fg, for fg, whatever is reported while it waits |
| C54 | Command-line arguments | partial | -c is proved as stated; false for script arguments with '=' or quotes (cut), and empty ones (crash); exactly which command lines crash is proved |
| C55 | Scripts terminate | partial | false: the loop never ends after the last line, for every script; what the lines do is proved |
| C56 | Command completion | partial | false: the shell crashes when PATH is not in the environment or an entry of a directory cannot be read (exactly then); otherwise proved |
| C57 | exec passes arguments through | partial | false when the command or the word after an option contains a dash and one of c, l, a; what every list of words does is proved |
| C58 | Signal dispositions | partial | proved for each signal that is set up; false of the whole shell, which sets up only three signals |
| C59 | A pending signal is visible to the waiter | partial | false: the query never reports anything; what the handler records is proved |
| C60 | The signal handler never sees the shell mid-update | partial | proved while the signals are blocked and no job is deleted; false for delete_job and at the prompt |
| C61 | An assignment stores its whole value | partial | false when the value contains '=' |
| C62 | What is assigned can be read back | partial | false for names containing '::' |
| C63 | The environment is visible at start | proved | the whole statement |
| C64 | The output of a command substitution is data | partial | false when the output begins like a substitution |
| C65 | Command substitution outside quotes | partial | false: passed on as written; performed inside double quotes (C18_substitution_partial) |
| C66 | A quoted command word is one word | partial | false when the text contains a blank |
| C67 | An alias's words come before the user's arguments | partial | false: they come after |
| C68 | A job with a stopped process is not forgotten | partial | false when only a later process is stopped; proved for the first process |
| C69 | Reports about stopped and killed jobs | partial | proved for every process whose number the shell has for that job, which is every process unless the system uses the number of an ended process again (C144): when the job that used it last is deleted the number is forgotten, and nothing is said any more about the process of the other job |
| C70 | A program runs with what was written | proved | the whole statement |
| C71 | Running programs does not change the shell | proved | the whole statement |
| C72 | The shell's own files stay as they are | partial | proved for every run as long as pipes can be made; false otherwise, a descriptor is lost |
| C73 | An output redirection replaces the file | partial | false: the file is never truncated; what is opened is proved in C47_redirections_partial |
| C74 | An assignment in front of a command | partial | false for values containing '=' (cut off) and quoted values (the quotes are passed on); proved for the rest |
| C75 | A killed command does not look successful | partial | false: the status of the previous command stays |
| C76 | A stopped command stays in the job list | partial | proved for a single program, and for pipelines whose first process stops; false when the first has ended and another stops: the job is forgotten |
| C77 | A failed exec leaves the shell as it was | partial | false: handlers and mask are already reset when the command is not found |
| C78 | A failing command does not end an interactive session | partial | proved while PS1 is set; unsetting it crashes the shell at the next prompt |
| C79 | The shell's tables stay consistent during a whole session | partial | as stated, except that the part about files is for systems on which pipe(2) does not fail; it is false otherwise |
| C80 | Startup files | partial | false: the path ~/.rshrc is taken literally, and a failing file crashes the shell; what a readable file does is proved. For files in the core language with functions (C125, C142), a session does what the lines of the two files and the lines typed do, one after the other, including exit and exec in a startup file, in a script file, and in a session when signals arrive at any moment |
| C81 | Starting the shell prints nothing | partial | false for every command line with more than one word |
| C82 | The exit status of the shell | partial | false: the status is always 0 unless exit is run |
| C83 | A script means the same as its whole text | partial | proved for scripts with whole commands on each line that do not fail; false for commands over several lines |
| C84 | A background job that ends is noticed at the prompt | partial | false: after a line that leaves the signals blocked nothing is noticed; when the first program of a background pipeline ends the shell waits in the handler for all the others, and when two of the others report first it crashes; when two children end at about the same time the shell may crash |
| C85 | Completion completes the word at the cursor | partial | proved for the first word with the cursor at its end; false elsewhere |
| C86 | Completion offers what can be run | partial | proved when the variable PATH is the one of the environment; false otherwise |
| C87 | A signal from the terminal does not end the shell | partial | false for SIGQUIT, when descriptor 0 cannot be written, and after a failed exec |
| C88 | Programs start with the usual handling of signals | partial | false: SIGPIPE stays ignored |
| C89 | cd changes the directory | partial | proved for cd with an argument, both answers; false for cd alone (crash) and for PWD (not updated) |
| C90 | pwd prints the working directory | partial | proved except that the signals stay blocked and that the shell crashes when the system reports no directory |
| C91 | export makes variables visible to programs | partial | proved for name=value without -p in the first word; false for values with -p in them, for export name and for later assignments |
| C92 | unset removes what it names | partial | proved for the first name; false for further names, names with a dash and the environment |
| C93 | readonly protects variables | partial | proved for the first name and values without a dash; false for values with a dash |
| C94 | source runs a file in this shell | partial | proved except for the status, which is 0, and the parameters, which are not restored |
| C95 | fg and bg continue a job | partial | bg proved, for jobs other than the one of the process itself; fg proved except that its status is 0 whatever the job's is; what the wait leaves is proved for every job and whatever is reported, while no other job runs (a job whose first process exits while another is stopped is lost) |
| C96 | An alias stands for its text | partial | proved when both names or neither are builtins; false otherwise; the words of the alias come after the arguments |
| C97 | ! inverts the status | partial | false: the mark is ignored, for every pipeline |
| C98 | A group runs its commands | partial | false: not implemented, for every group |
| C99 | A failing builtin is a failing command | partial | false: an error ends the whole line; proved for builtins that succeed |
| C100 | Builtins work in pipelines | partial | false: what follows a builtin is dropped, what precedes it is run after it and not connected |
| C101 | A function call runs its body | partial | proved except for the status and the numbers of jobs |
| C102 | Several assignments on one line | partial | false: only the first is done; one assignment is proved |
| C103 | A function gets its arguments as written | partial | false: exactly which arguments crash the shell, are cut or dropped is proved |
| C104 | A program can be named by its path | partial | false: the file run is always an entry of PATH, a slash and the name; proved that it is the first such file |
| C105 | Special parameters | partial | false: these parameters do not exist; the program gets $? as written, whatever the status |
| C106 | PATH takes effect at once | proved | the whole statement |
| C107 | Background pipelines return at once | proved | the whole statement |
| C108 | Redirections apply to builtins and functions | partial | false: redirections have no effect at all on builtins and functions; alone they crash the shell |
| C109 | A function hides a builtin | partial | false: the builtin is run; for other names C101 |
| C110 | Assignments before builtins and functions | partial | false: they have no effect at all |
| C111 | A substitution leaves the shell as it is | proved | the whole statement |
| C112 | A substitution captures the standard output | partial | false: the standard error of every program goes into the text as well; the rest is proved |
| C113 | A substitution gives the whole output | partial | false: output larger than the pipe hangs both processes; proved for output that fits |
| C114 | A session with signals at any moment | proved | the whole statement |
| C115 | Signals do not change results | partial | false when a function precedes the program in the pipeline, when a program is stopped and then exits while the shell waits (the status is lost and the job stays), for the message about a killed program of a pipeline, and when ^C is pressed while the shell waits and the program exits because of it (its status is lost); proved, when no SIGINT arrives while processes are started or waited for, for a single program that reports once and for pipelines of any length whose programs end, the first one first, while the other jobs are finished or stopped; and for whole scripts and sessions in the core language, also with functions, files and eval (C117, C125), whenever signals arrive in the commands, between them and at the prompt |
| C116 | Signals do not disturb the start of a pipeline | partial | false after a function that ran a program, and when ^C is pressed while a program is started that is over at once (crash): the handler of SIGINT unblocks the signals; proved for pipelines of programs when no SIGINT arrives while they are started |
| C117 | Simple scripts mean what they should | partial | proved for scripts that do not assign to or unset exported variables, do not export variables that were assigned, use variables that have a one-word value, redirect with < and >> (programs that have arguments), change to directories that are there, and whose pipelines have the same status at both ends; down to execve: path, arguments, environment and open files of every process; and all of it again whenever SIGCHLDs arrive, and SIGINTs between commands; false for assigning to or unsetting an exported variable, for exporting an assigned one, for cd to a directory that is not there (the whole line ends), and for the status of a pipeline whose first and last program exit differently; > does not truncate (C73) and redirections of a command without arguments are lost (C21) |
| C118 | Exported variables reach every later program | proved | the whole statement |
| C119 | A command that cannot be started fails | partial | false: the failure is ignored, the status stays what it was, and nothing is said |
| C120 | Namespaces hold what their file defines | partial | self is proved as stated; files are proved when they end without an error and define names the shell does not have; false when the shell has a variable of that name (it is overwritten, the namespace has none), when the file fails (its scope stays), and for a file given without a name (the file called context is read) |
| C121 | A pipeline that cannot be connected leaves no trace | partial | false: the job stays in the table as running, signals stay blocked, and the shell crashes when the next foreground pipeline reports; proved for the first pipe of a pipeline. The error is returned |
| C122 | Signals go only to the shell's own processes | partial | proved while processes and pipes can be made; false otherwise: fg and bg of a job that was not started signal every process of the system |
| C123 | A process does its own command | proved | the whole statement |
| C124 | Only redirections write files | proved | the whole statement |
| C125 | Functions mean what their bodies mean | partial | false: a variable or a function that a call is the first to set is gone after it, and a call within a function changes the parameters of that function; the status of a call is always 0 (C52). Proved for the scripts in which none of this happens: calls within functions without parameters, assignments in functions to variables that have a value, calls that end with 0; also for scripts that read further commands from files with . (files in files, in functions), as far as the text of the files is known and they end with 0, and with eval 'commands' where the commands have no quotes and end with 0; and the same when signals arrive at any moment |
| C126 | A function in the background | partial | false: the process always ends with 0, and a function called in it ends it at once, so that the rest of the body is not run. Proved for bodies without calls, apart from the status |
| C127 | The history of a session is saved | partial | false: nothing is saved when the shell crashes or is replaced by a program; the file is that of the directory in which the shell ends; a process in which exit is run saves the history too. Proved: the shell itself saves it at most once, at the very end, and does so whenever the input is closed or the shell exits. What the line editor writes is not modelled |
| C128 | Syntax the shell lacks is refused as a whole | proved | the whole statement |
| C129 | Reserved words are ordinary words as arguments | partial | false: a line with an unquoted reserved word among the arguments is refused; proved for quoted ones |
| C130 | Misplaced operators are refused | proved | the whole statement |
| C131 | An ampersand separates commands | partial | false: a & b is refused; proved with a semicolon after the ampersand |
| C132 | Adjacent parts form one word | partial | false: a quoted part ends the word, a $ or backquote begins a new one, quotes in the middle of a word stay, and a parameter extends to the end of the word; proved for words of one part (C15) |
| C133 | A backslash takes the meaning from the next character | partial | false: the backslash is an ordinary character everywhere; proved within single quotes |
| C134 | Patterns and the tilde are expanded | partial | false: a line with an unquoted star is refused, and ?, [...] and ~ are passed as written; proved: what the program gets instead |
| C135 | A syntax error in nested text is reported and the shell goes on | partial | false: a substitution crashes the shell; with eval the error is reported and nothing changes, but signals stay blocked |
| C136 | The equals sign in arguments | partial | false: an equals sign with blanks around it joins its neighbours to one argument, and A= is refused; proved for one equals sign within an argument |
| C137 | Ctrl-C and Ctrl-Z during a command substitution | partial | false: the wait for the copy is not taken up again after a signal that is caught, and Ctrl-C or Ctrl-Z crashes the shell; proved for all other signals, and for these once the commands have ended |
| C138 | Signals while fg waits | partial | false: a second child that ends while the job is deleted crashes the shell; when the job ends while the handler of SIGINT runs, it stays in the list as running; proved for a job of one process, any SIGCHLDs, and no other child that ends |
| C139 | Data flows through a pipeline | proved | for pipelines of programs; the kernel's pipes are the model Net.v; the shell's builtins in a pipeline are C100 |
| C140 | Ctrl-C and Ctrl-Z reach the foreground job and nothing else | partial | false: fg and bg do not change the groups, so a job started with & is never reached, also after fg, and one that was stopped and continued with bg still is; each process of a pipeline started with & is a group of its own. Proved: the group of every process of every session, and exactly which are reached: those of which no ancestor was started with & |
| C141 | A pipeline comes to its end | proved | for pipelines of programs; the kernel's pipes are the model Net.v; a program that ignores a broken pipe is outside the hypotheses (C141_needed) |
| C142 | A script ends where it says | partial | false: exit without a number ends with the status of the last program, also when the command before was an assignment or a builtin, and a file without exit is read for ever (C55). Proved for exit with a number, exit without one behind \|\|, and exec without options or redirections; commands as in C117, with functions, sourced files and eval as in C125, left from however deep within, also when signals arrive at any moment; the program that takes the place of the shell has open what the shell was given; a shell told to exec what is not there goes on with the next line |
| C143 | Signals sent to the shell take effect | partial | false: ^C lets the signals in that wait while the command still runs, and after pwd, or any other line that leaves the signals blocked (C48), a hangup or kill does not end the shell at the prompt until the next program is run. Proved: nothing is lost or invented in any history; without ^C signals wait until they are unblocked; at the prompt after a pipeline of programs they take effect at once |
| C144 | Process numbers that are used again | partial | false: the report goes to the first unfinished job that lists the number, even in a process that has ended; the new program counts as if it had not ended and the status of the command before stays. Proved for every table in which no unfinished job lists the number, and so for every session, with signals at any moment, in which the system gives no number twice and the jobs that there are have stopped (C144_session_partial) |
| C145 | Stop a program, do something else, come back | partial | proved for single programs, which after they were stopped are brought back with fg, where they end or are stopped again, or continued with bg, where they end or are brought back later, when no other signal reaches the shell, the end of a program in the background arrives at the prompt while the handler can run (C84), and the system gives no number of a process of a job to another. Missing: pipelines that are stopped, and jobs started with &; the status of fg is C95, the numbers are C146 |
| C146 | Job numbers stay small | partial | false: a call of a function takes a number although it leaves no job; proved for histories in which every job has a process. When a job with processes is removed the numbers are right again (C35_removed_partial) |
| C147 | Process numbers lead to their jobs | proved | for every session, script and command given with -c from the start (C147_session), for every session with signals in the middle of commands (C147_signals, C147_by_process; the reports that reach the shell at its prompt, C147_report), and for every list of commands run by a shell in any state, for a number that the system does not give again (C147_kept). When a number is given twice: C144 |

## What the proofs found

Wrong results, in the words of a user; each is a theorem (`_refuted`, or an exact
characterisation).

* Text: a first line that is blank or a comment is a syntax error (C12); `;` before
  the last newline is (C13); `"$A"` is not expanded, a final `$` crashes (C18);
  `A=$B` assigns nothing useful (C19); redirections of a command without arguments
  are dropped (C21); `! p` is not negated (C97); `{ ...; }` is not implemented (C98);
  `A=1 B=2` assigns only A (C102); the number of `2>` is ignored (C47); `>` does not
  truncate (C73).
* Commands: the status of a function is always 0 (C52, C101), of `source` and `eval`
  too (C50, C94); variables and functions first set in a function are gone after the
  call, and a call in a function overwrites the function's own `$1` (C125); `return` ends nothing (C52); a failing builtin ends the whole line
  (C99); redirections and assignments at builtins and functions are ignored, `> f` alone
  crashes (C108, C110); a function cannot replace a builtin (C109); `/bin/ls` is looked
  for in PATH (C104); there is no `$?` (C105); what follows a builtin in a pipeline is dropped, what precedes it runs after
  it (C100); a builtin with `&` runs in the foreground.
* Crashes of the whole shell: `cd`, `alias`, `unalias`, `eval`, `fg` and `bg` without
  arguments, `jobs` as soon as there is a job, `unset`/`readonly`/`export` of many
  texts (C40, C53, exactly when); arguments of functions that are numbers too large
  (C103); `PATH` unset (C32, C56); `unset PS1` (C78); an empty script argument (C54);
  a startup file that fails (C80).
* Substitutions: they capture standard error too (C112); output larger than the pipe
  hangs the shell for ever (C113).
* Variables: `export NAME` does not reach programs, an exported variable that is
  assigned again keeps its old value there (C91); values are cut at `=` (C61, C74,
  C103); `unset` leaves the environment alone (C92); `x=1; export x=2` gives programs 2 and
  leaves `$x` at 1 (C117).
* Namespaces: a file loaded with `export context ns=file` overwrites the shell's variables instead of
  defining its own when the name is taken, leaves its scope behind when it fails, and `export context file`
  reads the file called `context` whatever is given (C120).
* Jobs: the statuses of pipelines are wrong (C41, C42, C68); `fg` and `bg` leave the
  marks as they were (C37); a job that was stopped once is never removed (C35); a line
  that leaves the signals blocked stops all notification (C84); the end of the first
  program of a background pipeline makes the handler wait for all the others.
* Signals: after a function in a pipeline has run a program, signals are not blocked while
  the rest is started; a program that ends at once then loses its status or crashes the shell
  (C115, C116).
* Failures: a process that cannot be created is not noticed, the command looks like the one before
  it (C119); when pipe(2) fails, the job stays in the table and the next command crashes the shell (C121);
  fg and bg of a job whose process was not created send SIGCONT to every process there is: kill(-1) (C122).
* Terminal: fg does not give the terminal to the job, bg does not take it away, and a pipeline in the
  background is as many process groups as it has processes (C140).
* Sessions: a script never ends (C55); the script's status is lost (C82); `~` in the
  startup file's name is literal (C80).

## Checks

* `coq_makefile -f _CoqProject -o Makefile && make -j4` in rocq.
* seeded/LOG.jsonl: wrong programs tried in a scratch copy, one line each, with the
  theorems that failed and the ones that were tightened because they had not.
  A theorem is listed as failed if its proof, or the proof of a lemma it uses, no
  longer goes through; that a proof fails does not show that the statement is false
  of the wrong program.  Where a file could not be built again at all, its theorems
  are not listed, and a note says so: eight attempts, among them fg without waiting
  under signals (Async.fg_or_bg_async), a substitution that is not cut short
  (Async.expand_async), and both edits of Net.held.  For five of the eight no
  theorem is known to fail.
