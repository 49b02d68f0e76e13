{"id": "C01", "title": "Lexing always finishes and never crashes", "statement": "Tokenising any text terminates, never panics (every text slice is taken on character boundaries), and yields a finite token stream in which the end-of-input marker appears exactly once, as the last item; afterwards the tokeniser keeps reporting that it is exhausted.", "quantifier": "every Unicode input string", "why_tests_cant": "Termination, absence of panics and 'exactly one EOF' range over all strings including multi-byte ones; tests only sample.", "anchors": ["src/lexer.rs: Lexer::new, Iterator::next, advance, take_until, take_until_alt, word, newline_list"]}
{"id": "C02", "title": "Token positions and text are faithful", "statement": "Every word token's text is exactly the slice of the input between the token's reported start and end; token start positions strictly increase, spans do not overlap and stay inside the input.", "quantifier": "every input string and every non-EOF token produced from it", "why_tests_cant": "It must hold at every offset of every input, including multi-byte characters.", "anchors": ["src/lexer.rs: Span, take_until, take_until_alt, word, single_quote, double_quote, subshell"]}
{"id": "C03", "title": "No input is silently dropped by the tokeniser", "statement": "The input is exactly the concatenation of the source texts of the tokens in order, separated only by skipped blanks and by comments (a # at token start up to, not including, the next newline); a character that can start no token is reported as an error, never skipped.", "quantifier": "every input string", "why_tests_cant": "A reconstruction law over all strings.", "anchors": ["src/lexer.rs: Iterator::next"]}
{"id": "C04", "title": "Quoted text is one token, verbatim", "statement": "A single- or double-quoted string, a $(...) and a `...` are each one word token containing every character up to and including the first matching closer, whatever metacharacters, blanks, newlines or reserved words it contains; tokenising then resumes right after the closer.", "quantifier": "every quoted body without its closing character, followed by every remaining input", "why_tests_cant": "The body and the continuation are arbitrary.", "anchors": ["src/lexer.rs: single_quote, double_quote, subshell, take_until_alt"]}
{"id": "C05", "title": "Comments and blanks do not matter", "statement": "Removing a comment, or adding/removing blanks (non-newline whitespace) in front of a token, does not change the sequence of tokens that follows; any run of consecutive newlines is one newline token.", "quantifier": "every comment text, blank run, newline run and continuation", "why_tests_cant": "Quantifies over all continuations.", "anchors": ["src/lexer.rs: Iterator::next ('#', whitespace), newline_list"]}
{"id": "C06", "title": "Reserved words are recognised exactly", "statement": "An unquoted maximal run of word characters becomes a reserved-word token exactly when it equals one of for,in,while,if,then,else,elif,fi,do,done,case,esac; any other run becomes a word (or a descriptor number).", "quantifier": "every run of word characters in every context", "why_tests_cant": "All words, including those with reserved words as prefixes.", "anchors": ["src/lexer.rs: word, num_or_word"]}
{"id": "C07", "title": "Descriptor numbers before redirections", "statement": "A run of word characters is read as a descriptor number exactly when it is directly followed by < or > and is a decimal numeral that fits in a signed 32-bit integer; otherwise it is an ordinary word.", "quantifier": "every run of word characters and every following character", "why_tests_cant": "Boundary at 2^31 and all spellings.", "anchors": ["src/lexer.rs: num_or_word"]}
{"id": "C08", "title": "Words round-trip through the tokeniser", "statement": "Writing any list of plain (non-reserved, metacharacter-free) or fully quoted words separated by blanks and tokenising the text gives back exactly those words, in order, followed by end of input.", "quantifier": "every list of words", "why_tests_cant": "Lists of unbounded length and content.", "anchors": ["src/lexer.rs"]}
{"id": "C09", "title": "The parser accepts exactly the grammar, with one meaning", "statement": "A token sequence is accepted exactly when it is derivable from the published grammar, and a derivable sequence has exactly one syntax tree (the grammar is unambiguous).", "quantifier": "every token sequence", "why_tests_cant": "Ambiguity and completeness range over all sentences.", "anchors": ["src/grammar.lalrpop: all productions"]}
{"id": "C10", "title": "Syntax trees round-trip through text", "statement": "Rendering any well-formed command tree (simple commands with arguments, assignments and redirections, pipelines, !, &, &&/|| chains, ; lists, brace groups, function definitions) to text and then tokenising and parsing the text gives back the same tree.", "quantifier": "every well-formed syntax tree", "why_tests_cant": "Trees of unbounded size and depth.", "anchors": ["src/lexer.rs", "src/grammar.lalrpop", "src/ast.rs"]}
{"id": "C11", "title": "Operator grouping", "statement": "In any accepted input | binds tighter than && and ||, which have equal precedence and associate to the left, and these bind tighter than ; and newline.", "quantifier": "every chain of pipelines and operators", "why_tests_cant": "Chains of any length.", "anchors": ["src/grammar.lalrpop: List, AndOr, Pipeline, PipelineSeq"]}
{"id": "C12", "title": "Blank and comment lines around commands are harmless", "statement": "Adding an empty line or a comment line before, between or after commands of a script does not change what the script means.", "quantifier": "every script and every place where a blank or comment line may be inserted", "why_tests_cant": "All scripts, all positions.", "anchors": ["src/grammar.lalrpop: CompleteCommand, List, Separator", "src/lexer.rs: newline_list"]}
{"id": "C13", "title": "Statement terminators", "statement": "A command list may be followed by a semicolon, by newlines, or by a semicolon and newlines before the end of the input without changing its meaning.", "quantifier": "every command list and every trailing terminator", "why_tests_cant": "All lists and terminator shapes.", "anchors": ["src/grammar.lalrpop: CompleteCommand, Separator"]}
{"id": "C14", "title": "Background marker", "statement": "A pipeline is run in the background exactly when it is followed by &.", "quantifier": "every pipeline, with or without a leading !", "why_tests_cant": "All pipelines.", "anchors": ["src/grammar.lalrpop: Pipeline"]}
{"id": "C15", "title": "Single quotes protect every character", "statement": "An argument written in single quotes reaches the command byte for byte as the text between the quotes, as exactly one argument, in the same position.", "quantifier": "every text without a single quote, every position in every argument list, every shell state", "why_tests_cant": "Arbitrary content and state.", "anchors": ["src/ast.rs: SimpleCommand::eval, cut_quotes, expand_vars, argv", "src/eval.rs: eval_simple_command"]}
{"id": "C16", "title": "Double quotes keep plain text as one argument", "statement": "An argument written in double quotes whose text contains no $ or backquote reaches the command unchanged as exactly one argument.", "quantifier": "every such text, position and shell state", "why_tests_cant": "Arbitrary content and state.", "anchors": ["src/ast.rs: eval_double_quotes, cut_quotes"]}
{"id": "C17", "title": "Variable references in arguments", "statement": "An argument $name is replaced by the current value of name as exactly one argument, and the other arguments keep their positions and values; a reference to an unset variable is left as written.", "quantifier": "every name, value, argument list and shell state", "why_tests_cant": "Arbitrary values, including ones with blanks.", "anchors": ["src/ast.rs: expand_vars", "src/shell.rs: expand_variable"]}
{"id": "C18", "title": "Variable references inside double quotes", "statement": "A $name inside double quotes is replaced by the value of name, and no double-quoted text can crash the shell.", "quantifier": "every double-quoted text", "why_tests_cant": "Arbitrary text.", "anchors": ["src/ast.rs: cut_quotes, create_subshell, eval_subshell"]}
{"id": "C19", "title": "Variable references in assignments", "statement": "NAME=$other assigns the current value of other.", "quantifier": "every pair of names and every shell state", "why_tests_cant": "All states.", "anchors": ["src/ast.rs: expand_vars", "src/builtins.rs: assignment"]}
{"id": "C20", "title": "Alias expansion", "statement": "When the command word is an alias, the command run is the first word of the alias text, and the alias's remaining words and the user's arguments are all passed exactly once each; nothing else about the command changes. A non-alias command word is unaffected.", "quantifier": "every alias table, command word and argument list", "why_tests_cant": "All tables and lists.", "anchors": ["src/ast.rs: alias_lookup", "src/shell.rs: lookup_alias"]}
{"id": "C21", "title": "Redirections survive expansion", "statement": "Every redirection written on a command is still attached to it when it is run.", "quantifier": "every simple command and shell state", "why_tests_cant": "All commands.", "anchors": ["src/ast.rs: SimpleCommand::eval"]}
{"id": "C22", "title": "Expansion never crashes the shell", "statement": "Expanding a command word and its arguments never panics.", "quantifier": "every simple command that parses, every shell state", "why_tests_cant": "All commands and states.", "anchors": ["src/ast.rs: eval, cut_quotes, split_whitespace_ig_qts, argv"]}
{"id": "C23", "title": "Quote-aware splitting", "statement": "Splitting a command word at blanks never splits inside quotes and loses no characters other than the blanks it splits at.", "quantifier": "every string", "why_tests_cant": "All strings, including multi-byte blanks.", "anchors": ["src/ast.rs: split_whitespace_ig_qts"]}
{"id": "C24", "title": "Variables behave like a stack of maps", "statement": "Any sequence of assignments, exports, unsets, readonly declarations and scope pushes/pops behaves exactly like an abstract stack of finite maps in which a read sees the innermost binding: a read returns the value of the last effective write to that binding and no operation changes the value seen for any other name.", "quantifier": "every sequence of operations and every name", "why_tests_cant": "Unbounded histories.", "anchors": ["src/context.rs: ContextManager, Context", "src/shell.rs"]}
{"id": "C25", "title": "Read-only variables keep their value", "statement": "Once a variable is read-only, its value and its read-only mark cannot be changed.", "quantifier": "every later history of operations", "why_tests_cant": "Unbounded histories.", "anchors": ["src/context.rs: add_var, add_var_readonly, add_var_pos, remove_var", "src/builtins.rs: readonly, export, unset"]}
{"id": "C26", "title": "Scope exit restores the caller's variables", "statement": "After a scope is pushed, used and popped, names first assigned inside it are unset again and bindings of outer scopes not assigned inside it are unchanged.", "quantifier": "every balanced sequence of operations inside the scope", "why_tests_cant": "Unbounded nested histories.", "anchors": ["src/context.rs: push_context_new, pop_context, add_var", "src/eval.rs: eval_function"]}
{"id": "C27", "title": "Function arguments are local to the call", "statement": "Calling a function binds $0, $1, ... to the function name and its arguments inside the call, and the caller's own $0, $1, ... are the same after the call.", "quantifier": "every function, argument list and caller state", "why_tests_cant": "All states.", "anchors": ["src/eval.rs: eval_function", "src/context.rs: add_var"]}
{"id": "C28", "title": "Namespaced reads are isolated", "statement": "An unqualified name is never resolved from an exported context, and ns::name is resolved only from the context exported under ns.", "quantifier": "every state and name", "why_tests_cant": "All states.", "anchors": ["src/context.rs: get_var, get_function, is_function"]}
{"id": "C29", "title": "unset removes exactly the innermost binding", "statement": "unset name removes the innermost binding of name and nothing else; a later read sees the next outer binding if there is one.", "quantifier": "every state and name", "why_tests_cant": "All states.", "anchors": ["src/context.rs: remove_var", "src/builtins.rs: unset"]}
{"id": "C30", "title": "Function table", "statement": "A function lookup returns the most recent definition in the innermost scope that has one; defining a function changes no other function and no variable; is_function agrees with get_function.", "quantifier": "every state, name and body", "why_tests_cant": "All states.", "anchors": ["src/context.rs: add_function, get_function, is_function, remove_function"]}
{"id": "C31", "title": "The global scope cannot be lost", "statement": "The scope stack is never empty: popping the last scope is refused (panic) and every other operation keeps at least the global scope.", "quantifier": "every sequence of operations", "why_tests_cant": "Unbounded histories.", "anchors": ["src/context.rs: pop_context, push_context_new"]}
{"id": "C32", "title": "Command lookup follows PATH order", "statement": "Looking up a command returns the first PATH entry (in order) that contains a regular file of that name, and nothing exactly when no entry does.", "quantifier": "every PATH value, command name and file system", "why_tests_cant": "All PATH values and file systems.", "anchors": ["src/context.rs: lookup_command"]}
{"id": "C33", "title": "Alias table", "statement": "After alias n=v the alias n expands to v with one pair of surrounding quotes removed until it is redefined or removed; unalias n removes only n; unalias -a removes all.", "quantifier": "every sequence of alias/unalias operations", "why_tests_cant": "Unbounded histories.", "anchors": ["src/shell.rs: add_alias, remove_alias, clear_aliases, lookup_alias"]}
{"id": "C34", "title": "Job numbers are unique", "statement": "A new job never replaces an existing one: its number is fresh, larger than every live job number, and every job is stored under its own number.", "quantifier": "every history of job creation, deletion, waiting and signal handling", "why_tests_cant": "Unbounded histories and interleavings.", "anchors": ["src/jobs.rs: create_job, delete_job, update_next_job_id"]}
{"id": "C35", "title": "Stopped jobs are never lost", "statement": "Deleting a job whose first process is stopped keeps it in the job list, marked Stopped, with the same number and processes; deleting any other job removes exactly that job.", "quantifier": "every job table and job number", "why_tests_cant": "All tables.", "anchors": ["src/jobs.rs: delete_job"]}
{"id": "C36", "title": "Process-to-job lookup", "statement": "Every started process of a live job is found under that job's number, and after the job is removed none of its process ids leads to any job.", "quantifier": "every history in which live processes have distinct ids", "why_tests_cant": "Unbounded histories.", "anchors": ["src/jobs.rs: update_pid_table, create_job, get_job, delete_job"]}
{"id": "C37", "title": "Background marks", "statement": "A job is reported as a background job exactly when it is live and runs in the background.", "quantifier": "every history including fg and bg", "why_tests_cant": "Unbounded histories.", "anchors": ["src/jobs.rs: is_background_job, background_jobs", "src/builtins.rs: fg, bg"]}
{"id": "C38", "title": "Current job is a live job", "statement": "Asking for the current job never crashes and returns a live job when there is one.", "quantifier": "every history", "why_tests_cant": "Unbounded histories.", "anchors": ["src/jobs.rs: get_current_job, set_current_job, delete_job"]}
{"id": "C39", "title": "Reaping updates exactly the right process", "statement": "When a child's status change is collected, exactly the process with that pid gets that status, no other process's status changes, and its job becomes Finished/Stopped only when no process of the job is still without a status.", "quantifier": "every job table and every wait result", "why_tests_cant": "All tables.", "anchors": ["src/jobs.rs: wait_one, set_process_status", "src/trap.rs: sig_chld"]}
{"id": "C40", "title": "Waiting for a foreground job does not crash", "statement": "Collecting a child's status never panics, whatever other jobs exist and in whichever order the children finish.", "quantifier": "every job table and finishing order", "why_tests_cant": "All schedules.", "anchors": ["src/jobs.rs: wait_one"]}
{"id": "C41", "title": "A foreground pipeline is waited for completely", "statement": "A foreground pipeline's wait returns only when every process of the pipeline has terminated or the pipeline has been stopped.", "quantifier": "every pipeline and every order of child status changes", "why_tests_cant": "All schedules.", "anchors": ["src/jobs.rs: do_wait, wait_for_job"]}
{"id": "C42", "title": "Exit status of a command", "statement": "After a foreground command that terminates normally the shell's exit status is that command's exit code; for a pipeline it is the last command's.", "quantifier": "every command and exit code, every prior state", "why_tests_cant": "All codes and states.", "anchors": ["src/eval.rs: eval_pipeline", "src/jobs.rs: wait_for_job, wait_one"]}
{"id": "C43", "title": "Job listing", "statement": "The job list shows every live job exactly once, in increasing job number, with its state and its commands joined by ' | ' and followed by ' &' exactly for background jobs.", "quantifier": "every job table", "why_tests_cant": "All tables.", "anchors": ["src/jobs.rs: Display for Job, Display for JobControl"]}
{"id": "C44", "title": "&& and || short-circuit", "statement": "In a chain p1 op p2 op ..., evaluated from left to right, a pipeline after && runs exactly when the status so far is zero, a pipeline after || exactly when it is non-zero, and the chain's status is that of the last pipeline run.", "quantifier": "every chain and every outcome of the pipelines", "why_tests_cant": "Chains of any length.", "anchors": ["src/eval.rs: eval_and_or"]}
{"id": "C45", "title": "Lists run in order", "statement": "The commands of a list run one after the other in source order, the list's status is that of the last one, and nothing runs after an error, exit or crash.", "quantifier": "every list and every outcome", "why_tests_cant": "Lists of any length.", "anchors": ["src/eval.rs: eval, parse_tree"]}
{"id": "C46", "title": "Pipeline wiring", "statement": "In a pipeline of n commands the i-th command's standard output is connected to the (i+1)-th command's standard input and to nothing else, no child keeps any other pipe end open, and the shell itself is left with exactly the descriptors it had before.", "quantifier": "every pipeline length and every initial descriptor table", "why_tests_cant": "Unbounded lengths.", "anchors": ["src/eval.rs: eval_pipeline"]}
{"id": "C47", "title": "Redirections take effect in order", "statement": "After all redirections of a command are applied standard input is the last file redirected with <, standard output the last file redirected with > or >>, and every other descriptor is unchanged; a redirected descriptor number is honoured.", "quantifier": "every list of redirections", "why_tests_cant": "Lists of any length.", "anchors": ["src/eval.rs: eval_redirect, eval_prefix_suffix"]}
{"id": "C48", "title": "Signals are unblocked after every command", "statement": "After evaluating any command that returns to the prompt, the shell has signals unblocked again.", "quantifier": "every command and state", "why_tests_cant": "All commands.", "anchors": ["src/eval.rs: eval_pipeline", "src/trap.rs: interrupts_off, interrupts_on"]}
{"id": "C49", "title": "Function calls balance scopes", "statement": "Evaluating any command, including (recursive) function calls, leaves the scope stack at the same depth with the same scopes.", "quantifier": "every command and state", "why_tests_cant": "Recursion of any depth.", "anchors": ["src/eval.rs: eval_function", "src/builtins.rs: create_context_from_file"]}
{"id": "C50", "title": "eval builtin", "statement": "eval 'text' does exactly what running text as a command does.", "quantifier": "every text and state", "why_tests_cant": "All texts.", "anchors": ["src/builtins.rs: eval_cmd"]}
{"id": "C51", "title": "Evaluation is deterministic", "statement": "The result of evaluating a command depends only on the shell state and on what the operating system reports; a longer evaluation budget never changes a completed result.", "quantifier": "every command, state and OS behaviour", "why_tests_cant": "All runs.", "anchors": ["src/eval.rs"]}
{"id": "C52", "title": "return and exit", "statement": "exit n terminates the shell with status n and exit without argument with the last status; return n sets the status and ends the function.", "quantifier": "every n and state", "why_tests_cant": "All states.", "anchors": ["src/builtins.rs: quit, return_cmd"]}
{"id": "C53", "title": "Builtins never crash the shell", "statement": "Invoking any builtin with any arguments either succeeds or reports an error; it never panics.", "quantifier": "every builtin, argument list and state", "why_tests_cant": "All argument lists.", "anchors": ["src/builtins.rs"]}
{"id": "C54", "title": "Command-line arguments", "statement": "rsh -c w1 w2 ... evaluates the words joined by blanks; rsh script a1 a2 ... runs script with $1=a1, $2=a2, ...", "quantifier": "every argument vector", "why_tests_cant": "All vectors.", "anchors": ["src/main.rs: parse_args, parse_dash_arg", "src/shell.rs: set_input_args"]}
{"id": "C55", "title": "Scripts terminate", "statement": "Running a script whose commands all terminate terminates.", "quantifier": "every script", "why_tests_cant": "Termination over all scripts.", "anchors": ["src/main.rs: script_loop"]}
{"id": "C56", "title": "Command completion", "statement": "Completing a prefix lists, sorted and without duplicates, exactly the names in readable PATH directories that start with the prefix.", "quantifier": "every PATH, directory contents and prefix", "why_tests_cant": "All file systems.", "anchors": ["src/completion.rs: command_complete, complete_cmd"]}
{"id": "C57", "title": "exec passes arguments through", "statement": "exec cmd args... runs cmd with exactly those arguments; -c empties the environment, -l prefixes argv[0] with '-', -a name replaces argv[0].", "quantifier": "every argument list", "why_tests_cant": "All lists.", "anchors": ["src/builtins.rs: exec_cmd"]}
{"id": "C58", "title": "Signal dispositions", "statement": "In an interactive shell without traps SIGINT, SIGTSTP and SIGCHLD are caught, SIGQUIT/SIGTERM/SIGTTOU are ignored and every other signal keeps its default; setting a signal up twice changes nothing.", "quantifier": "every signal and every trap table", "why_tests_cant": "All tables.", "anchors": ["src/trap.rs: set_signal"]}
{"id": "C59", "title": "A pending signal is visible to the waiter", "statement": "A signal recorded as pending is reported by the pending-signal query.", "quantifier": "every history of signals", "why_tests_cant": "All histories.", "anchors": ["src/trap.rs: set_pending_signal, get_pending_signal"]}
{"id": "C60", "title": "The signal handler never sees the shell mid-update", "statement": "The child-status handler never runs while the shell's state is mutably borrowed.", "quantifier": "every signal arrival time", "why_tests_cant": "All interleavings.", "anchors": ["src/shell.rs: delete_job and the other borrow_mut wrappers", "src/trap.rs: on_sig, sig_chld"]}
{"id": "C61", "title": "An assignment stores its whole value", "statement": "After name=value, a read of name gives the whole text after the first '=', without one pair of surrounding quotes.", "quantifier": "every name, value and state", "why_tests_cant": "All values.", "anchors": ["src/context.rs: Context::add_var, ContextManager::add_var"]}
{"id": "C62", "title": "What is assigned can be read back", "statement": "After an assignment to a name (or a function definition) that is not refused, reading that same name finds it.", "quantifier": "every name, value and state", "why_tests_cant": "All names, including ones containing '::'.", "anchors": ["src/context.rs: add_var, get_var, add_function, get_function"]}
{"id": "C63", "title": "The environment is visible at start", "statement": "In the initial state every variable of the process environment is a writable variable with the same value; PATH and PWD (and PS1) get a default only when the environment lacks them.", "quantifier": "every environment", "why_tests_cant": "All environments.", "anchors": ["src/context.rs: Default for ContextManager, convert_env"]}
{"id": "C64", "title": "The output of a command substitution is data", "statement": "What a substituted command prints becomes (part of) an argument; it is never itself run as a command.", "quantifier": "every command, output, argument and state", "why_tests_cant": "The output is decided by another program.", "anchors": ["src/ast.rs: eval_double_quotes, cut_quotes, eval_subshell"]}
{"id": "C65", "title": "Command substitution outside quotes", "statement": "An argument $(cmd) or `cmd` written without quotes is replaced by the output of cmd.", "quantifier": "every command text and state", "why_tests_cant": "All texts and states.", "anchors": ["src/ast.rs: SimpleCommand::eval, expand_subshells"]}
{"id": "C66", "title": "A quoted command word is one word", "statement": "A command word in single quotes names the command exactly as written between the quotes; the command gets no arguments from it.", "quantifier": "every text between the quotes", "why_tests_cant": "All texts.", "anchors": ["src/ast.rs: SimpleCommand::eval"]}
{"id": "C67", "title": "An alias's words come before the user's arguments", "statement": "If n is an alias for 'c a1 ... ak', then 'n x1 ... xm' runs c with a1 ... ak x1 ... xm in this order.", "quantifier": "every alias and argument list", "why_tests_cant": "All aliases and lists.", "anchors": ["src/ast.rs: alias_lookup"]}
{"id": "C68", "title": "A job with a stopped process is not forgotten", "statement": "While any process of a job is stopped, the job stays in the job list and can be resumed.", "quantifier": "every pipeline and every order of status changes", "why_tests_cant": "All pipelines and interleavings.", "anchors": ["src/jobs.rs: delete_job, wait_for_job"]}
{"id": "C69", "title": "Reports about stopped and killed jobs", "statement": "When a process of the job the shell is waiting for is stopped or killed by a signal, exactly one line is printed with the job's number, state, commands and the signal; exits and other jobs print nothing.", "quantifier": "every job table, signal and order of status changes", "why_tests_cant": "All tables and signals.", "anchors": ["src/jobs.rs: wait_one, format_status"]}
{"id": "C70", "title": "A program runs with what was written", "statement": "Each command of a pipeline that is a program is executed as the first file on PATH with its name, with exactly its words as arguments, the shell's environment plus its own assignments, its redirections on top of the pipe ends, default signal handling and no signal blocked; otherwise its process ends with a failure.", "quantifier": "every pipeline of programs, state and system", "why_tests_cant": "All pipelines, words, files and environments.", "anchors": ["src/eval.rs: eval_pipeline, eval_prefix_suffix, temp_fork, temp_execve"]}
{"id": "C71", "title": "Running programs does not change the shell", "statement": "Running a pipeline of programs, in the foreground or background, changes no variable, scope, function, alias, environment variable or signal handler of the shell.", "quantifier": "every pipeline of programs, state and system", "why_tests_cant": "All pipelines and states.", "anchors": ["src/eval.rs: eval_pipeline, temp_fork"]}
{"id": "C72", "title": "The shell's own files stay as they are", "statement": "After any line, whether it succeeded or failed, the shell has exactly the files open that it had before.", "quantifier": "every line, state and system", "why_tests_cant": "All lines, including recursion, and every pattern of failing system calls.", "anchors": ["src/eval.rs: eval_pipeline, eval_redirect", "src/builtins.rs: source"]}
{"id": "C73", "title": "An output redirection replaces the file", "statement": "After 'cmd > f', f contains what cmd wrote and nothing of its old content.", "quantifier": "every command and file", "why_tests_cant": "All files.", "anchors": ["src/eval.rs: eval_redirect"]}
{"id": "C74", "title": "An assignment in front of a command", "statement": "name=value in front of a program puts the whole value into the environment of that program and of nothing else.", "quantifier": "every name, value, command and state", "why_tests_cant": "All names and values.", "anchors": ["src/eval.rs: eval_prefix_suffix, eval_assignment", "src/ast.rs: expand_vars"]}
{"id": "C75", "title": "A killed command does not look successful", "statement": "After a foreground command was ended by a signal, the shell's status is not that of an earlier successful command, so that '&&', '||' and $? see the failure.", "quantifier": "every command, signal and state", "why_tests_cant": "All signals, previous statuses and job tables.", "anchors": ["src/jobs.rs: wait_for_job", "src/eval.rs: eval_pipeline"]}
{"id": "C76", "title": "A stopped command stays in the job list", "statement": "A foreground command that is stopped is still in the job table afterwards, with its processes and the current job pointing to it, so that fg and bg can resume it.", "quantifier": "every command, stop signal and state", "why_tests_cant": "All signals and job tables.", "anchors": ["src/jobs.rs: wait_for_job, delete_job", "src/eval.rs: eval_pipeline"]}
{"id": "C77", "title": "A failed exec leaves the shell as it was", "statement": "When 'exec cmd' cannot start cmd, the shell carries on with its variables, files, signal handlers and signal mask as they were.", "quantifier": "every command and state", "why_tests_cant": "All states and failing system calls.", "anchors": ["src/builtins.rs: exec", "src/trap.rs: remove_handlers"]}
{"id": "C78", "title": "A failing command does not end an interactive session", "statement": "At the prompt a command that fails and a line that is not a command are followed by another prompt; the session ends only when the input is closed or when exit (or exec) is run.", "quantifier": "every sequence of lines, interrupts and signals, every state and system", "why_tests_cant": "All sequences of inputs of any length.", "anchors": ["src/main.rs: interactive_loop"]}
{"id": "C79", "title": "The shell's tables stay consistent during a whole session", "statement": "Whatever is typed, run as a script or given with -c, and whatever the system answers, at every moment the scope stack is not empty, the job numbers are positive, different and smaller than the next one, all variables and jobs come from the documented operations, and at each prompt the same files are open as at the first.", "quantifier": "every command line, input, startup file, environment and system", "why_tests_cant": "All executions of the whole program.", "anchors": ["src/main.rs: main", "src/shell.rs", "src/context.rs", "src/jobs.rs"]}
{"id": "C80", "title": "Startup files", "statement": "The file .rshrc in the user's home directory is run before the first prompt; a failing command in it does not stop the shell from starting.", "quantifier": "every file content, environment and system", "why_tests_cant": "All contents of the files.", "anchors": ["src/main.rs: read_rc, read_user_profile"]}
{"id": "C81", "title": "Starting the shell prints nothing", "statement": "Before the first prompt the shell itself prints nothing.", "quantifier": "every command line", "why_tests_cant": "All argument vectors.", "anchors": ["src/main.rs: parse_args"]}
{"id": "C82", "title": "The exit status of the shell", "statement": "The exit status of 'rsh -c text' is that of the last command, or the one given to exit.", "quantifier": "every text, state and system", "why_tests_cant": "All texts and statuses.", "anchors": ["src/main.rs: main, read_from_args", "src/builtins.rs: exit"]}
{"id": "C83", "title": "A script means the same as its whole text", "statement": "Running a script does what the whole text, read as one list of commands, does; in particular commands may be spread over several lines.", "quantifier": "every script, state and system", "why_tests_cant": "All scripts.", "anchors": ["src/main.rs: script_loop"]}
{"id": "C84", "title": "A background job that ends is noticed at the prompt", "statement": "When a background job ends while the shell waits at the prompt, it disappears from the job list.", "quantifier": "every job, status, state and history of lines before", "why_tests_cant": "All histories before the signal arrives.", "anchors": ["src/main.rs: interactive_loop", "src/trap.rs: on_sig, sig_chld", "src/shell.rs: interrupts_off"]}
{"id": "C85", "title": "Completion completes the word at the cursor", "statement": "Accepting a candidate replaces the word before the cursor by a command name that starts with it, and leaves the rest of the line as it was.", "quantifier": "every line, cursor position, PATH and directory contents", "why_tests_cant": "All lines and cursor positions.", "anchors": ["src/completion.rs: complete"]}
{"id": "C86", "title": "Completion offers what can be run", "statement": "Every command that completion offers is found when it is run, and every command that would be found and starts with the prefix is offered.", "quantifier": "every PATH, file system and prefix", "why_tests_cant": "All file systems and all values of PATH.", "anchors": ["src/completion.rs: command_complete", "src/context.rs: lookup_command"]}
{"id": "C87", "title": "A signal from the terminal does not end the shell", "statement": "An interactive shell survives Ctrl-C, Ctrl-Z and Ctrl-\\ and the end of its children, in any order and number, and its handlers stay in place.", "quantifier": "every history of signals", "why_tests_cant": "All histories.", "anchors": ["src/trap.rs: on_sig, set_signal, remove_handlers", "src/main.rs: main"]}
{"id": "C88", "title": "Programs start with the usual handling of signals", "statement": "A program started by the shell has no signal blocked, and every signal is handled as it was when the shell was started; signals of job control have their default.", "quantifier": "every table of dispositions inherited by the shell, every signal", "why_tests_cant": "All tables.", "anchors": ["src/trap.rs: remove_handlers", "src/jobs.rs: fork_reset", "src/eval.rs: temp_exec, temp_execve"]}
{"id": "C89", "title": "cd changes the directory", "statement": "'cd dir' changes the working directory of the shell to dir, and fails without effect when it cannot; 'cd' alone goes to HOME; PWD names the new directory afterwards.", "quantifier": "every argument, state and answer of the system", "why_tests_cant": "All arguments (quoted, with variables), all states and both answers of chdir.", "anchors": ["src/builtins.rs: change_directory"]}
{"id": "C90", "title": "pwd prints the working directory", "statement": "'pwd' prints the directory the system reports and changes nothing else; after 'cd dir' it prints dir.", "quantifier": "every state and system", "why_tests_cant": "All states and directories.", "anchors": ["src/builtins.rs: pwd"]}
{"id": "C91", "title": "export makes variables visible to programs", "statement": "After 'export n1=v1 n2=v2 ...' each name has its last value in the environment and in the global scope and nothing else changes; 'export name' gives the current value; a later assignment is seen by programs, too.", "quantifier": "every list of definitions, every state", "why_tests_cant": "All lists of names and values, in particular values with special characters.", "anchors": ["src/builtins.rs: export", "src/shell.rs: add_var_context, get_env_context", "src/context.rs: add_var_pos"]}
{"id": "C92", "title": "unset removes what it names", "statement": "'unset [-v|-f|-c] name ...' removes exactly the named variables, functions or namespaces, also from the environment.", "quantifier": "every name, option and state", "why_tests_cant": "All states and names.", "anchors": ["src/builtins.rs: unset", "src/context.rs: remove_var, remove_function, remove_context"]}
{"id": "C93", "title": "readonly protects variables", "statement": "'readonly name=value' sets the variable and 'readonly name' keeps its value; afterwards no assignment changes it and other variables are as before.", "quantifier": "every name, value and state", "why_tests_cant": "All values, in particular with a dash in them, and all later assignments.", "anchors": ["src/builtins.rs: readonly", "src/context.rs: add_var_readonly, set_var_readonly"]}
{"id": "C94", "title": "source runs a file in this shell", "statement": "'. file args' runs the text of the file found by its path or on PATH as if it had been typed, with $1, $2 ... set to the arguments while it runs and restored afterwards; a file that cannot be read or parsed is an error.", "quantifier": "every file, text, argument list, state and system", "why_tests_cant": "All texts, and every effect their commands may have.", "anchors": ["src/builtins.rs: source", "src/context.rs: lookup_command"]}
{"id": "C95", "title": "fg and bg continue a job", "statement": "'bg %n' sends the continue signal to every process of job n, marks the job as running in the background and prints it; 'fg %n' does the same in the foreground, waits for the job and has its status; a job that does not exist is an error without effect.", "quantifier": "every job table, job, argument and answer of the system", "why_tests_cant": "All tables and all histories of events while waiting.", "anchors": ["src/builtins.rs: fgbg, fg, bg", "src/jobs.rs: wait_for_job"]}
{"id": "C96", "title": "An alias stands for its text", "statement": "A line that starts with an alias does what the line with the words of the alias in its place does, whatever the alias stands for.", "quantifier": "every alias table, alias text, argument list and state", "why_tests_cant": "All texts of aliases, in particular names of builtins.", "anchors": ["src/ast.rs: alias_lookup", "src/eval.rs: eval_simple_command", "src/eval.rs: check_if_builtin"]}
{"id": "C97", "title": "! inverts the status", "statement": "'! pipeline' has status 1 when the pipeline has status 0, and 0 otherwise.", "quantifier": "every pipeline, state and system", "why_tests_cant": "All pipelines and outcomes.", "anchors": ["src/eval.rs: eval_pipeline", "src/grammar.lalrpop: Pipeline"]}
{"id": "C98", "title": "A group runs its commands", "statement": "'{ list; }' runs the commands of the list in the current shell.", "quantifier": "every list, state and system", "why_tests_cant": "All lists.", "anchors": ["src/eval.rs: eval_command"]}
{"id": "C99", "title": "A failing builtin is a failing command", "statement": "When a builtin fails, '||' runs what follows it, '&&' does not, and the commands after ';' are run.", "quantifier": "every builtin call, continuation, state and system", "why_tests_cant": "All continuations of the line.", "anchors": ["src/eval.rs: eval_and_or, parse_tree, eval_builtin"]}
{"id": "C100", "title": "Builtins work in pipelines", "statement": "In a pipeline with a builtin all commands are run, connected to each other in the order written.", "quantifier": "every pipeline with a builtin at any position, every state and system", "why_tests_cant": "All pipelines.", "anchors": ["src/eval.rs: eval_pipeline"]}
{"id": "C101", "title": "A function call runs its body", "statement": "A function call runs the commands of the body as if typed, in a new scope with $0, $1 ... set; afterwards the scope is gone; the status is that of the body, and the job numbers are as before.", "quantifier": "every body, argument list, state and system", "why_tests_cant": "All bodies and all their effects.", "anchors": ["src/eval.rs: eval_function, eval_pipeline", "src/context.rs: push_context_new, pop_context"]}
{"id": "C102", "title": "Several assignments on one line", "statement": "'A=1 B=2' does all the assignments, in order, and nothing else.", "quantifier": "every list of assignments and every state", "why_tests_cant": "All lists and values.", "anchors": ["src/builtins.rs: assignment", "src/eval.rs: eval_builtin"]}
{"id": "C103", "title": "A function gets its arguments as written", "statement": "When a function is called with arguments, $1, $2 ... are exactly those arguments, whatever they are, and the call is made.", "quantifier": "every function, every list of arguments, every state", "why_tests_cant": "All arguments, including those that look like numbers, assignments or operators.", "anchors": ["src/eval.rs: eval_function", "src/context.rs: ContextManager::add_var, Context::add_var"]}
{"id": "C104", "title": "A program can be named by its path", "statement": "A command whose name contains a slash runs the file of that name, without a search.", "quantifier": "every pipeline of programs, every state, every file system, every child", "why_tests_cant": "All names, PATHs and file systems.", "anchors": ["src/eval.rs: temp_execve", "src/context.rs: lookup_command"]}
{"id": "C105", "title": "Special parameters", "statement": "$? is the status of the last command; $#, $@ and $- have their usual values.", "quantifier": "every state, status and command", "why_tests_cant": "All states and statuses.", "anchors": ["src/ast.rs: expand_vars", "src/shell.rs: expand_var", "src/context.rs: ContextManager::default"]}
{"id": "C106", "title": "PATH takes effect at once", "statement": "After 'PATH=v' or 'export PATH=v', where PATH is not read-only and is not hidden by a variable of an inner scope, programs are looked for in the directories of v; the assignment leaves the environment of programs as it was.", "quantifier": "every value, state, later command and file system", "why_tests_cant": "All values and all later commands.", "anchors": ["src/builtins.rs: assignment, export", "src/context.rs: add_var, lookup_command"]}
{"id": "C107", "title": "Background pipelines return at once", "statement": "'p1 | ... | pn &' starts every program, waits for none of them, leaves the status as it was, and enters the pipeline in the job table as a running background job under the next number, with the pids and command names in order; one line about it is printed.", "quantifier": "every pipeline of programs, every state and every answer of the system", "why_tests_cant": "All pipelines, tables and pids.", "anchors": ["src/eval.rs: eval_pipeline", "src/jobs.rs: create_job"]}
{"id": "C108", "title": "Redirections apply to builtins and functions", "statement": "'builtin args > f' and 'function args > f' send their output to f; '> f' alone creates f.", "quantifier": "every builtin, function, argument list, redirection and state", "why_tests_cant": "All builtins, redirections and states.", "anchors": ["src/eval.rs: eval_builtin, eval_function", "src/builtins.rs: assignment"]}
{"id": "C109", "title": "A function hides a builtin", "statement": "After a function has been defined with the name of a builtin, calling it runs the function.", "quantifier": "every builtin, body, argument list and state", "why_tests_cant": "All bodies and all builtins.", "anchors": ["src/eval.rs: eval_simple_command, check_if_builtin"]}
{"id": "C110", "title": "Assignments before builtins and functions", "statement": "In 'A=v command', where command is a builtin or a function, A has the value v while the command runs.", "quantifier": "every list of assignments, builtin, function, argument list and state", "why_tests_cant": "All values and commands.", "anchors": ["src/eval.rs: eval_builtin, eval_function, eval_prefix_suffix"]}
{"id": "C111", "title": "A substitution leaves the shell as it is", "statement": "Expanding \"$(command)\" gives a text, or panics exactly when there is no pipe, no process or nothing readable; nothing in the shell has changed after it, in particular not its descriptors, variables, scopes or status.", "quantifier": "every command, state, descriptor table and system", "why_tests_cant": "All states and all answers of the system.", "anchors": ["src/ast.rs: CommandSubstitution::expand"]}
{"id": "C112", "title": "A substitution captures the standard output", "statement": "In \"$(p1 | ... | pn)\" the standard output of the last program, and nothing else, goes into the text.", "quantifier": "every pipeline of programs, descriptor table, redirection and system", "why_tests_cant": "All pipelines and descriptor tables.", "anchors": ["src/ast.rs: CommandSubstitution::expand", "src/eval.rs: eval_pipeline, run_child"]}
{"id": "C113", "title": "A substitution gives the whole output", "statement": "However much the commands of a substitution write, the shell gets all of it.", "quantifier": "every output, every pipe capacity, every interleaving of the two processes", "why_tests_cant": "All interleavings and all sizes.", "anchors": ["src/ast.rs: CommandSubstitution::expand"]}
{"id": "C114", "title": "A session with signals at any moment", "statement": "Whenever SIGCHLD or SIGINT interrupts a command, the tables of the shell stay consistent: variables, functions and scopes are the result of the operations on them, jobs of theirs, and no descriptor is open twice; without signals the shell is the one of the other properties.", "quantifier": "every session, every schedule of signals, every system", "why_tests_cant": "All moments at which signals can arrive.", "anchors": ["src/trap.rs: on_sig", "src/jobs.rs: run_job, wait_for_job", "src/eval.rs: eval_pipeline"]}
{"id": "C115", "title": "Signals do not change results", "statement": "The exit status of a command and the state after it do not depend on when SIGCHLD or SIGINT arrives.", "quantifier": "every command that starts programs, every schedule of signals, every system", "why_tests_cant": "Depends on timing.", "anchors": ["src/trap.rs: on_sig", "src/jobs.rs: run_job, wait_for_job, mark_process_status"]}
{"id": "C116", "title": "Signals do not disturb the start of a pipeline", "statement": "Whenever SIGCHLD or SIGINT arrives, all processes of a pipeline are started and connected as without them.", "quantifier": "every pipeline, every schedule of signals, every system", "why_tests_cant": "Depends on timing.", "anchors": ["src/trap.rs: on_sig, interrupts_off", "src/jobs.rs: run_job, fork_process", "src/eval.rs: eval_pipeline"]}
{"id": "C117", "title": "Simple scripts mean what they should", "statement": "A script of pipelines of programs with literal, quoted and variable arguments, redirections and settings of their own, assignments, export, unset and cd, joined by ;, && and ||, starts exactly the programs that its meaning says, in the same order, with the same arguments, environments, standard input and output, connected by pipes as written, in the same directory; it ends with the same status and leaves the same variables.", "quantifier": "every such script, given with -c, typed on several lines or in a file, and every behaviour of the programs", "why_tests_cant": "All scripts of a language, with any number of commands, and programs whose statuses depend on everything that ran before.", "anchors": ["src/main.rs: main", "src/lexer.rs", "src/grammar.lalrpop", "src/ast.rs: SimpleCommand::expand", "src/eval.rs", "src/context.rs", "src/builtins.rs: export, unset, change_directory", "src/jobs.rs: wait_for_job"]}
{"id": "C118", "title": "Exported variables reach every later program", "statement": "Every process that a session starts has all names of the environment the shell was started with, and all names that were exported before, in an environment that can be given to programs.", "quantifier": "every session, everything that is typed or read from files, every answer of the system", "why_tests_cant": "All sessions.", "anchors": ["src/builtins.rs: export", "src/eval.rs: eval_pipeline", "src/main.rs: main"]}
{"id": "C119", "title": "A command that cannot be started fails", "statement": "When the system cannot create a process for a command, the command fails: its status is not 0, and the user is told.", "quantifier": "every program, every state of the shell", "why_tests_cant": "The system must run out of processes at the right moment.", "anchors": ["src/eval.rs: eval_pipeline, temp_fork", "src/jobs.rs: wait_for_job"]}
{"id": "C120", "title": "Namespaces hold what their file defines", "statement": "After export context ns=file, ns::x is what the file gave to x, and the shell's own variables are as before; with self, ns::x is the x of the current scope; export context file uses that file.", "quantifier": "every file and every state of the shell", "why_tests_cant": "All files, and all states of nested scopes in which they are read.", "anchors": ["src/builtins.rs: export, create_context_from_file", "src/context.rs: add_context, get_var, add_var", "src/shell.rs: push_context_new, pop_context"]}
{"id": "C121", "title": "A pipeline that cannot be connected leaves no trace", "statement": "When the system has no pipe left for a pipeline, the pipeline fails with an error and the shell goes on as if it had not been typed.", "quantifier": "every pipeline, every state of the shell", "why_tests_cant": "The system must run out of descriptors at the right moment.", "anchors": ["src/eval.rs: eval_pipeline", "src/jobs.rs: create_job, mark_process_status"]}
{"id": "C122", "title": "Signals go only to the shell's own processes", "statement": "fg and bg signal only processes that the shell has started before.", "quantifier": "every session, everything that is typed or read from files, every answer of the system", "why_tests_cant": "All sessions, and systems that run out of processes or descriptors.", "anchors": ["src/builtins.rs: fg, bg", "src/eval.rs: eval_pipeline, temp_fork", "src/jobs.rs: Process::new"]}
{"id": "C123", "title": "A process does its own command", "statement": "Every process that is started during a session, by the shell or by another of its processes, executes the program that its command names, with the words of the command, or the function of that name, or exits or crashes. Neither it nor the copy of the shell that runs a command substitution ever goes on as a second shell.", "quantifier": "every session, everything that is typed or read from files, every answer of the system to every process", "why_tests_cant": "All trees of processes, and all errors on the way from fork to execve.", "anchors": ["src/eval.rs: eval_pipeline, eval_prefix_suffix, eval_function, temp_execve", "src/ast.rs: argv, eval_subshell"]}
{"id": "C124", "title": "Only redirections write files", "statement": "The only files that a session opens for writing, or creates, are those of output redirections, each opened by the process of the command it was written for, and history.txt, in which the history of a session at the prompt is saved.", "quantifier": "every session, everything that is typed or read from files, every answer of the system to every process", "why_tests_cant": "All sessions and all trees of processes.", "anchors": ["src/eval.rs: eval_redirect, eval_pipeline", "src/builtins.rs: source, create_context_from_file", "src/main.rs: main, read_rc, script_loop", "src/shell.rs: save_history, set_history_location"]}
{"id": "C125", "title": "Functions mean what their bodies mean", "statement": "A script that defines and calls functions does what its text says: a call runs the body with $1, $2, ... as the arguments of the call, which have their former values again afterwards; variables and functions are shared with the caller; the programs are started in the same order, with the same words, environment, input and output, whether the script is given with -c, or typed line by line.", "quantifier": "every script of the language of CoreFunSpec, nested and repeated definitions and calls, every system", "why_tests_cant": "All scripts with functions; the state at the call depends on everything run before.", "anchors": ["src/eval.rs: eval_function, eval_function_definition, eval_simple_command", "src/context.rs: add_function, add_var, push_context_new, pop_context", "src/shell.rs: add_function, push_context_new, pop_context"]}
{"id": "C126", "title": "A function in the background", "statement": "A function called with an ampersand runs in a process of its own: the shell does not wait, keeps its status, variables, functions and files, and has a running job for it; the process starts the programs that the body means with the parameters of the call, in the same order, with the same words, environment, input and output, runs the body to its end, and ends with the status of the body.", "quantifier": "every call of a function in the language of CoreFunSpec, from every state, every system seen by the shell and by the process", "why_tests_cant": "All bodies and states; what the process does is seen by nobody but the system.", "anchors": ["src/eval.rs: eval_pipeline, eval_function, temp_fork", "src/jobs.rs: create_job"]}
{"id": "C127", "title": "The history of a session is saved", "statement": "However a session at the prompt ends, the history of the lines typed is saved, once, by the shell, at its end, in the file history.txt of the directory in which the shell was started.", "quantifier": "every session at the prompt, everything that is typed, every answer of the system, every end of the shell and of its processes", "why_tests_cant": "All sessions, however they end, and all processes that take part in them.", "anchors": ["src/main.rs: main, interactive_loop", "src/builtins.rs: quit", "src/shell.rs: save_history, set_history_location", "src/eval.rs: eval_pipeline, eval_function"]}
{"id": "C128", "title": "Syntax the shell lacks is refused as a whole", "statement": "A typed line that contains, outside quotes and comments, something for which this shell has no rule (a reserved word such as if or while, a here-document <<, a descriptor duplication >& or <&, ${ }, or an unquoted star) is refused as a whole: no part of it is run, nothing about the shell changes, and the next line is read.", "quantifier": "every line, wherever in it the construct stands and whatever is around it; every state of the shell", "why_tests_cant": "All texts around the construct; a test tries a few positions.", "anchors": ["src/grammar.lalrpop", "src/lexer.rs: next", "src/main.rs: interactive_loop"]}
{"id": "C129", "title": "Reserved words are ordinary words as arguments", "statement": "Reserved words have their meaning only where a command may begin; as arguments, as in echo done, they are passed to the program as written, quoted or not.", "quantifier": "every reserved word, every command, every position among the arguments", "why_tests_cant": "All arguments before and after.", "anchors": ["src/lexer.rs: lex_string", "src/grammar.lalrpop: Suffix"]}
{"id": "C130", "title": "Misplaced operators are refused", "statement": "A text in which two tokens stand next to each other that no command has in this order, that begins or ends with an operator that needs a command before or after it, or whose braces are not balanced, is refused as a whole, and nothing of it is run.", "quantifier": "every text, every pair of neighbouring tokens, every position, any blanks and comments between them", "why_tests_cant": "All texts around the pair; the grammar is a table-driven parser generated from rules that are mutually recursive.", "anchors": ["src/grammar.lalrpop", "src/lexer.rs: next", "src/main.rs: interactive_loop"]}
{"id": "C131", "title": "An ampersand separates commands", "statement": "a & b starts a in the background and then runs b, as a ; b runs a and then b.", "quantifier": "all pipelines, every state of the shell", "why_tests_cant": "All pipelines on both sides.", "anchors": ["src/grammar.lalrpop: Pipeline, List, AndOr", "src/eval.rs: eval_pipeline, eval_list"]}
{"id": "C132", "title": "Adjacent parts form one word", "statement": "Quoted and unquoted parts, parameters and substitutions that stand next to each other without a blank form one argument, and quotes within a word are removed.", "quantifier": "every word, every division of it into parts", "why_tests_cant": "All words; where a word ends depends on the characters on both sides.", "anchors": ["src/lexer.rs: lex_string, lex_quote, next", "src/context.rs: expand_var", "src/ast.rs: eval_word"]}
{"id": "C133", "title": "A backslash takes the meaning from the next character", "statement": "A backslash outside quotes makes the next character part of the word, whatever it is, and is removed; within single quotes it is an ordinary character.", "quantifier": "every text with a backslash", "why_tests_cant": "All texts around the backslash.", "anchors": ["src/lexer.rs: lex_string, lex_quote", "src/ast.rs: eval_word"]}
{"id": "C134", "title": "Patterns and the tilde are expanded", "statement": "An unquoted argument with *, ? or [...] becomes the names of the files that match it, and a leading ~ the home directory.", "quantifier": "every argument, every directory", "why_tests_cant": "All patterns and directories.", "anchors": ["src/lexer.rs: next", "src/grammar.lalrpop", "src/ast.rs: eval_word"]}
{"id": "C135", "title": "A syntax error in nested text is reported and the shell goes on", "statement": "When the text of eval or of a command substitution is not a command, the error is reported, the command fails, and the shell goes on unchanged.", "quantifier": "every text that is not a command, every command around it, every state of the shell", "why_tests_cant": "All texts and states.", "anchors": ["src/builtins.rs: eval", "src/ast.rs: eval_subshell", "src/main.rs: non_interactive, script_loop"]}
{"id": "C136", "title": "The equals sign in arguments", "statement": "An argument with an equals sign is passed to the program as written; an equals sign with blanks around it is an argument of its own, as in test a = b; A= gives A the empty value.", "quantifier": "every command, all words around the equals sign", "why_tests_cant": "All words; the lexer has a token of its own for the sign.", "anchors": ["src/lexer.rs: next", "src/grammar.lalrpop: Suffix, Prefix", "src/ast.rs: eval_word"]}
{"id": "C137", "title": "Ctrl-C and Ctrl-Z during a command substitution", "statement": "While the commands of a command substitution run, Ctrl-C and Ctrl-Z leave the shell running, and no other signal disturbs the substitution.", "quantifier": "every substitution, every size of its output, every order of the steps of the two processes, every signal at every moment, every command line with a substitution in double quotes", "why_tests_cant": "All interleavings of the two processes and the signals.", "anchors": ["src/ast.rs: eval_subshell (400-410)", "src/trap.rs: set_signal (394-404), interrupts_off, on_sig", "src/eval.rs: eval_pipeline"]}
{"id": "C138", "title": "Signals while fg waits", "statement": "While fg waits for a job, other children that end and Ctrl-C make no difference to what becomes of the job: when it has ended it is gone from the list, and the shell goes on.", "quantifier": "every job of one process, every state of the shell, every report about the process, every schedule of signals before, during and after the wait", "why_tests_cant": "All schedules of signals.", "anchors": ["src/builtins.rs: fg (138-168)", "src/jobs.rs: wait_for_job, do_wait", "src/trap.rs: on_sig, sig_chld, on_sigint", "src/shell.rs: delete_job"]}
{"id": "C139", "title": "Data flows through a pipeline", "statement": "In a pipeline of programs each command reads exactly what the one before it writes, in order and without gaps; it sees the end of its input when and only when the one before has ended and everything has been read; a write fails only when the reader is gone; and the pipeline never gets stuck, however much data passes and however small the pipes are.", "quantifier": "every number of programs, every behaviour of the programs, every size of the pipes, every order of their steps (also while the shell still starts the rest), every process killed at any moment, all redirections", "why_tests_cant": "All interleavings of any number of processes with arbitrary programs; a descriptor kept open in one place would show only as a pipeline that hangs now and then.", "anchors": ["src/eval.rs: eval_pipeline (184-263)", "src/eval.rs: temp_exec (655-680)"]}
{"id": "C140", "title": "Ctrl-C and Ctrl-Z reach the foreground job and nothing else", "statement": "The processes of a job form one process group, and the keys of the terminal reach exactly the job in the foreground: a pipeline run without &, or a job brought there by fg; not a job that was started with & or continued with bg.", "quantifier": "every session, every process of it however deeply nested (functions, substitutions), every sequence of fg, bg and stops", "why_tests_cant": "All sessions; groups belong to the kernel and cannot be seen from the shell's own tests.", "anchors": ["src/eval.rs: eval_pipeline (182, 202-208)", "src/builtins.rs: fg, bg (138-205)", "src/ast.rs: eval_subshell (400-419)"]}
{"id": "C141", "title": "A pipeline comes to its end", "statement": "A pipeline whose programs end, ends: it is enough that one of them ends by itself, such as head, that those before it end when their output is no longer taken, and that those after it end at the end of their input. No order of events makes it run for ever or get stuck.", "quantifier": "every number of programs, every behaviour of the programs that meets the conditions, every size of the pipes, every order of the steps, every process killed at any moment", "why_tests_cant": "Infinite runs cannot be observed; a read end kept open by the shell or by another process would keep yes | head from ending.", "anchors": ["src/eval.rs: eval_pipeline (184-263)", "src/eval.rs: temp_exec (655-680)"]}
{"id": "C142", "title": "A script ends where it says", "statement": "A script ends at the first exit it comes to, with the number given there, or with the status of the command before if there is none; cmd || exit n ends it only when cmd fails, cmd && exit n only when it succeeds. exec makes the shell the program, with the arguments written and the environment of that moment. Whatever comes after is not run; whatever came before has been.", "quantifier": "every script of the core language (programs, pipelines, assignments, export, unset, cd, &&, ||, ;) with any number of such commands in it, given with -c, typed or in a file, every behaviour of the programs", "why_tests_cant": "All scripts, all statuses of all programs; a test sees a few scripts only.", "anchors": ["src/builtins.rs: quit (68-79), exec_cmd (546-646)", "src/eval.rs: eval_and_or, eval_complete_command", "src/main.rs: interactive_loop, script_loop, read_from_args"]}
{"id": "C143", "title": "Signals sent to the shell take effect", "statement": "A signal that is sent to the shell is not lost and not invented. While the shell runs a command signals other than ^C and ^Z wait until the command is over; while it waits for a line they take effect at once: a hangup or kill ends it.", "quantifier": "every history of signals being sent, blocked and unblocked, every order in which the kernel delivers those that wait; at the prompt, every state of the shell and every line of the kinds named", "why_tests_cant": "A signal can arrive at any moment and in any number; that one is held back for ever shows only in what does not happen.", "anchors": ["src/trap.rs: interrupts_off, interrupts_on (137-149), on_sig, on_sigint (180-300)", "src/eval.rs: eval_pipeline", "src/main.rs: interactive_loop (180-246)"]}
{"id": "C144", "title": "Process numbers that are used again", "statement": "The status of a program is the one the program itself ended with, also when the system gives it a process number that an ended process of an older job had.", "quantifier": "every program started in the foreground, every table of jobs, every number the system gives, every end of the program", "why_tests_cant": "A test would need the system to use a number again while a stopped pipeline still lists it, which takes tens of thousands of processes.", "anchors": ["src/jobs.rs: wait_one (467-568)", "src/jobs.rs: delete_job (205-242)"]}
{"id": "C145", "title": "Stop a program, do something else, come back", "statement": "A program that is stopped with Ctrl-Z can be brought back with fg and its number, or continued with bg, where it runs until it ends or is brought back. In the meantime any commands can be run: they do what they would do if nothing had been stopped, and what they do has no effect on the stopped programs. A program is started once; each keeps its number until it ends, in whatever order; the jobs that are left are those that have not.", "quantifier": "every session of lines of the core language (with functions, files and eval), programs that are stopped, fg and bg, and ends of programs in the background, in every order and number; every behaviour of the programs; every end of the programs that are brought back", "why_tests_cant": "All interleavings of commands, stops and returns; a test shows one of them.", "anchors": ["src/jobs.rs: wait_for_job, delete_job, create_job", "src/builtins.rs: fg (138-170)", "src/eval.rs: eval_pipeline (182-263)", "src/main.rs: interactive_loop"]}
{"id": "C146", "title": "Job numbers stay small", "statement": "A new job gets the number one above the highest of the jobs that there are, and 1 if there are none.", "quantifier": "every history of jobs being created, started, waited for, deleted, continued and reported about", "why_tests_cant": "All histories; a number that is skipped shows only after a certain order of events.", "anchors": ["src/jobs.rs: create_job (66-84), delete_job (205-242), update_next_job_id (130-136)", "src/eval.rs: eval_pipeline (150-182)"]}
{"id": "C147", "title": "Process numbers lead to their jobs", "statement": "As long as the system gives no number to two processes, a process number that is looked up gives the job that the process belongs to, and no other; so fg and bg with the number of a process do what they do with the number of its job, and a report of the system about a process reaches its job and leaves the others alone, unless the shell waits in the handler for a background pipeline (C84). A number that no process of a job has gives no job.", "quantifier": "every session, script and command given with -c, every input, every answer of the system, every outcome; in sessions also every arrival of signals in the middle of commands", "why_tests_cant": "The table of process numbers is kept beside that of the jobs and is changed at five places; that they agree after every history cannot be tried out.", "anchors": ["src/jobs.rs: pid_to_job (41), create_job (66-84), update_pid_table (87-89), get_job_pid (149), delete_job (205-242)", "src/eval.rs: eval_pipeline (251)", "src/builtins.rs: fg, bg (138-201)"]}
