{
 "claims": [
  {
   "property": "C01",
   "status": "proved",
   "theorems": [
    "C01_lexing_total"
   ],
   "note": ""
  },
  {
   "property": "C02",
   "status": "proved",
   "theorems": [
    "C02_spans_faithful"
   ],
   "note": ""
  },
  {
   "property": "C03",
   "status": "proved",
   "theorems": [
    "C03_nothing_dropped",
    "C03_lex_refines_spec"
   ],
   "note": ""
  },
  {
   "property": "C04",
   "status": "proved",
   "theorems": [
    "C04_quoted_verbatim",
    "C04_unterminated"
   ],
   "note": ""
  },
  {
   "property": "C05",
   "status": "proved",
   "theorems": [
    "C05_blanks",
    "C05_comment",
    "C05_newline_run",
    "C05_lines_independent"
   ],
   "note": ""
  },
  {
   "property": "C06",
   "status": "proved",
   "theorems": [
    "C06_reserved_exact",
    "C06_word_otherwise"
   ],
   "note": ""
  },
  {
   "property": "C07",
   "status": "proved",
   "theorems": [
    "C07_descriptor_number",
    "C07_range"
   ],
   "note": ""
  },
  {
   "property": "C08",
   "status": "proved",
   "theorems": [
    "C08_words_round_trip"
   ],
   "note": ""
  },
  {
   "property": "C09",
   "status": "proved",
   "theorems": [
    "C09_parser_is_grammar",
    "C09_unambiguous"
   ],
   "note": "executable parser accepts exactly the derivation relations transcribed from grammar.lalrpop; trees unique"
  },
  {
   "property": "C10",
   "status": "proved",
   "theorems": [
    "C10_round_trip"
   ],
   "note": "every well-formed tree; the only tree shape excluded is a negated background pipeline, which has no text"
  },
  {
   "property": "C11",
   "status": "proved",
   "theorems": [
    "C11_grouping"
   ],
   "note": "iff characterisation of every accepted token sequence"
  },
  {
   "property": "C12",
   "status": "partial",
   "theorems": [
    "C12_blank_lines_refuted",
    "C12_blank_lines_partial",
    "C12_line_comment_partial"
   ],
   "note": "full statement is false of the code (leading blank/comment line, comment line between commands are syntax errors); proved refutation and the part that holds"
  },
  {
   "property": "C13",
   "status": "partial",
   "theorems": [
    "C13_terminators_partial",
    "C13_lines_partial",
    "C13_semicolon_newline_refuted"
   ],
   "note": "false for ';' followed by a newline at end of input; all other terminators proved"
  },
  {
   "property": "C14",
   "status": "partial",
   "theorems": [
    "C14_background_partial",
    "C14_bang_background_refuted"
   ],
   "note": "false for '! p &' (marker lost); proved for every pipeline without '!'"
  },
  {
   "property": "C15",
   "status": "proved",
   "theorems": [
    "C15_single_quotes",
    "C15_whole_line",
    "expansion_exact"
   ],
   "note": "a command whose name expands to nothing takes no arguments and is excluded"
  },
  {
   "property": "C16",
   "status": "proved",
   "theorems": [
    "C16_double_quotes",
    "expansion_exact"
   ],
   "note": ""
  },
  {
   "property": "C17",
   "status": "partial",
   "theorems": [
    "C17_variable_partial",
    "C17_quoted_value_refuted"
   ],
   "note": "false for values that begin with a quote (unquoted once more); everything else proved, in every position"
  },
  {
   "property": "C18",
   "status": "partial",
   "theorems": [
    "C18_variable_refuted",
    "C18_crash_refuted",
    "C18_substitution_partial"
   ],
   "note": "false of the code: the variable is not replaced and its first letter is lost, a final $ crashes; plain text and command substitution inside double quotes are proved"
  },
  {
   "property": "C19",
   "status": "partial",
   "theorems": [
    "C19_assignment_refuted",
    "C19_assignment_partial"
   ],
   "note": "false of the code: the value is looked up including the $; assignments without $ are proved unchanged"
  },
  {
   "property": "C20",
   "status": "proved",
   "theorems": [
    "C20_alias",
    "C20_not_an_alias",
    "C20_alias_arguments"
   ],
   "note": ""
  },
  {
   "property": "C21",
   "status": "partial",
   "theorems": [
    "C21_redirections_partial",
    "C21_redirections_refuted"
   ],
   "note": "false for a command without arguments (its redirections are dropped); proved for all others"
  },
  {
   "property": "C22",
   "status": "partial",
   "theorems": [
    "C22_no_crash_partial",
    "C22_crash_refuted",
    "C22_argv",
    "expansion_exact"
   ],
   "note": "false; five kinds of lines that crash, and proved that ordinary commands never do"
  },
  {
   "property": "C23",
   "status": "partial",
   "theorems": [
    "C23_split_partial",
    "C23_nothing_lost_partial",
    "C23_wide_blank_refuted"
   ],
   "note": "false for blanks of more than one byte (crash, exactly characterised)"
  },
  {
   "property": "C24",
   "status": "proved",
   "theorems": [
    "C24_stack_of_maps",
    "C24_read_after_assign",
    "C24_other_names"
   ],
   "note": "refinement of every history of unqualified operations to a stack of maps"
  },
  {
   "property": "C25",
   "status": "partial",
   "theorems": [
    "C25_readonly_kept_partial",
    "C25_readonly_refuted"
   ],
   "note": "false for export/readonly/unset of the name; proved for every history without these"
  },
  {
   "property": "C26",
   "status": "proved",
   "theorems": [
    "C26_scope_exit"
   ],
   "note": ""
  },
  {
   "property": "C27",
   "status": "partial",
   "theorems": [
    "C27_arguments_bound_partial",
    "C27_arguments_local_partial",
    "C27_arguments_local_refuted"
   ],
   "note": "the caller's $0 (always bound) is overwritten by every call; proved local when the caller has no such parameters"
  },
  {
   "property": "C28",
   "status": "proved",
   "theorems": [
    "C28_unqualified_reads",
    "C28_qualified_reads",
    "C28_export",
    "C28_pop_export",
    "C28_unexport"
   ],
   "note": ""
  },
  {
   "property": "C29",
   "status": "proved",
   "theorems": [
    "C29_unset_innermost"
   ],
   "note": ""
  },
  {
   "property": "C30",
   "status": "proved",
   "theorems": [
    "C30_function_table",
    "C30_is_function"
   ],
   "note": "names without '::'; qualified definitions are C62"
  },
  {
   "property": "C31",
   "status": "proved",
   "theorems": [
    "C31_global_scope"
   ],
   "note": ""
  },
  {
   "property": "C32",
   "status": "proved",
   "theorems": [
    "C32_lookup_found",
    "C32_lookup_not_found",
    "C32_lookup_panics"
   ],
   "note": "exact characterisation, including the panic when PATH is unset"
  },
  {
   "property": "C33",
   "status": "partial",
   "theorems": [
    "C33_define_partial",
    "C33_forget_partial",
    "C33_forget_all",
    "C33_history_partial",
    "C33_dash_p_refuted",
    "C33_dash_a_refuted",
    "C33_equals_refuted",
    "C33_alias_line",
    "C33_unalias_line",
    "C33_unalias_many_refuted",
    "C33_unalias_all",
    "C33_list_line"
   ],
   "note": "false for values containing '=', definitions containing -p, names containing -a, several names to unalias; proved for the rest, also as typed lines"
  },
  {
   "property": "C34",
   "status": "proved",
   "theorems": [
    "C34_unique"
   ],
   "note": ""
  },
  {
   "property": "C35",
   "status": "partial",
   "theorems": [
    "C35_stopped_kept",
    "C35_removed_partial",
    "C35_removed_refuted"
   ],
   "note": "false for a job that was stopped once and has ended since: it can never be removed; the rest is proved"
  },
  {
   "property": "C36",
   "status": "proved",
   "theorems": [
    "C36_lookup",
    "C36_find",
    "C36_gone"
   ],
   "note": ""
  },
  {
   "property": "C37",
   "status": "partial",
   "theorems": [
    "C37_marks_partial",
    "C37_marks_refuted",
    "C37_any_refuted"
   ],
   "note": "false after fg and bg, and the 'any background jobs' query is inverted; proved for histories without fg/bg switches"
  },
  {
   "property": "C38",
   "status": "partial",
   "theorems": [
    "C38_current_partial",
    "C38_current_new",
    "C38_current_refuted"
   ],
   "note": "false once the current job has ended (crash); proved between removals"
  },
  {
   "property": "C39",
   "status": "proved",
   "theorems": [
    "C39_reap",
    "C39_reap_history",
    "C39_job_status",
    "C39_handler_foreground",
    "C39_handler_background"
   ],
   "note": ""
  },
  {
   "property": "C40",
   "status": "partial",
   "theorems": [
    "C40_crash_exact",
    "C40_pipeline_exact",
    "C40_no_crash_partial",
    "C40_crash_refuted",
    "C40_background_refuted",
    "C42_running_refuted",
    "C41_order_refuted"
   ],
   "note": "false; the crashes are characterised exactly, for one status and for every foreground pipeline and everything reported while it runs"
  },
  {
   "property": "C41",
   "status": "partial",
   "theorems": [
    "C41_first_partial",
    "C41_single_partial",
    "C41_complete_refuted",
    "C41_order_refuted"
   ],
   "note": "false for pipelines (a crash for every pipeline whose first process is not the first to report), and for single commands when a background job ends; proved for a single command when no other job is running"
  },
  {
   "property": "C42",
   "status": "partial",
   "theorems": [
    "C42_status_partial",
    "C42_first_partial",
    "C42_reports_partial",
    "C42_pipeline_refuted",
    "C42_running_refuted"
   ],
   "note": "proved for one program run in the foreground while no other job is running (others may be stopped); false for pipelines, where the first command's status counts (proved for every pipeline and every order of the other reports), and while another job runs, when the shell crashes"
  },
  {
   "property": "C43",
   "status": "partial",
   "theorems": [
    "C43_listing_partial",
    "C43_jobs_refuted",
    "C43_same_pid_refuted"
   ],
   "note": "the text is right, but the command that prints it crashes whenever there is a job"
  },
  {
   "property": "C44",
   "status": "proved",
   "theorems": [
    "C44_chain",
    "C44_status"
   ],
   "note": ""
  },
  {
   "property": "C45",
   "status": "proved",
   "theorems": [
    "C45_list",
    "C45_stops"
   ],
   "note": ""
  },
  {
   "property": "C46",
   "status": "partial",
   "theorems": [
    "C46_wiring_partial",
    "C46_ends",
    "C46_tables",
    "C46_leak_refuted"
   ],
   "note": "proved for every pipeline of programs: each process has exactly its ends of the pipes, no process keeps another end; false for pipelines containing builtins or functions, which are not connected at all (C100, C101, C116), and when a pipe cannot be made the shell keeps one end of the previous one open"
  },
  {
   "property": "C47",
   "status": "partial",
   "theorems": [
    "C47_redirections_partial",
    "C47_last",
    "C47_numbers_refuted"
   ],
   "note": "proved with standard input and output open; false: the number in front of a redirection is ignored, and a redirection of a closed descriptor is lost"
  },
  {
   "property": "C48",
   "status": "partial",
   "theorems": [
    "C48_unblocked_partial",
    "C48_blocked_refuted"
   ],
   "note": "false after a builtin or a function definition; proved for every pipeline that starts with an ordinary simple command"
  },
  {
   "property": "C49",
   "status": "partial",
   "theorems": [
    "C49_balanced_partial",
    "C49_balanced",
    "C49_balanced_refuted"
   ],
   "note": "false when 'export context' fails: one scope stays behind for each failure, exactly; proved for every other run, including recursion"
  },
  {
   "property": "C50",
   "status": "partial",
   "theorems": [
    "C50_eval_partial",
    "C50_eval_refuted"
   ],
   "note": "the effects are those of the text, but the status is lost, only the first word counts, and a trailing semicolon is refused"
  },
  {
   "property": "C51",
   "status": "proved",
   "theorems": [
    "C51_deterministic",
    "C51_history_grows"
   ],
   "note": ""
  },
  {
   "property": "C52",
   "status": "partial",
   "theorems": [
    "C52_exit",
    "C52_return_partial",
    "C52_return_refuted",
    "C52_function_status_refuted"
   ],
   "note": "exit is right; return sets the status but ends nothing, and a function call's status is always 0"
  },
  {
   "property": "C53",
   "status": "partial",
   "theorems": [
    "C53_crash_exact_partial",
    "C53_eval_crash",
    "C53_export_crash",
    "C53_export_list",
    "C53_context_crash",
    "C53_source_crash",
    "C53_fg_before",
    "C53_fg_wait",
    "C53_exec_crash",
    "C53_crash_refuted"
   ],
   "note": "false: many lines crash the shell; exactly which is proved for every built-in command: cd, exit, return, jobs, bg, alias, unalias, unset, pwd, readonly, eval, export, export context, source, exec and fg, for fg, whatever is reported while it waits"
  },
  {
   "property": "C54",
   "status": "partial",
   "theorems": [
    "C54_commands",
    "C54_script_partial",
    "C54_prompt",
    "C54_crash",
    "C54_refuted"
   ],
   "note": "-c is proved as stated; false for script arguments with '=' or quotes (cut), and empty ones (crash); exactly which command lines crash is proved"
  },
  {
   "property": "C55",
   "status": "partial",
   "theorems": [
    "C55_lines_in_order_partial",
    "C55_bad_line_partial",
    "C55_terminates_refuted",
    "C55_no_end_refuted"
   ],
   "note": "false: the loop never ends after the last line, for every script; what the lines do is proved"
  },
  {
   "property": "C56",
   "status": "partial",
   "theorems": [
    "C56_candidates_partial",
    "C56_unique",
    "C56_crash_refuted"
   ],
   "note": "false: the shell crashes when PATH is not in the environment or an entry of a directory cannot be read (exactly then); otherwise proved"
  },
  {
   "property": "C57",
   "status": "partial",
   "theorems": [
    "C57_exec_partial",
    "C57_words_partial",
    "C57_dash_refuted"
   ],
   "note": "false when the command or the word after an option contains a dash and one of c, l, a; what every list of words does is proved"
  },
  {
   "property": "C58",
   "status": "partial",
   "theorems": [
    "C58_disposition_partial",
    "C58_twice",
    "C58_crash",
    "C58_startup_partial",
    "C58_refuted"
   ],
   "note": "proved for each signal that is set up; false of the whole shell, which sets up only three signals"
  },
  {
   "property": "C59",
   "status": "partial",
   "theorems": [
    "C59_never",
    "C59_recorded_partial",
    "C59_refuted"
   ],
   "note": "false: the query never reports anything; what the handler records is proved"
  },
  {
   "property": "C60",
   "status": "partial",
   "theorems": [
    "C60_blocked_partial",
    "C60_unblocked_refuted",
    "C60_unblocked_exact",
    "C60_delete_partial",
    "C60_delete_refuted",
    "C60_after_delete_refuted"
   ],
   "note": "proved while the signals are blocked and no job is deleted; false for delete_job and at the prompt"
  },
  {
   "property": "C61",
   "status": "partial",
   "theorems": [
    "C61_whole_value_partial",
    "C61_whole_value_refuted"
   ],
   "note": "false when the value contains '='"
  },
  {
   "property": "C62",
   "status": "partial",
   "theorems": [
    "C62_read_back_partial",
    "C62_qualified_write_refuted"
   ],
   "note": "false for names containing '::'"
  },
  {
   "property": "C63",
   "status": "proved",
   "theorems": [
    "C63_startup_environment"
   ],
   "note": ""
  },
  {
   "property": "C64",
   "status": "partial",
   "theorems": [
    "C64_output_run_again_refuted",
    "C64_output_is_data_partial"
   ],
   "note": "false when the output begins like a substitution"
  },
  {
   "property": "C65",
   "status": "partial",
   "theorems": [
    "C65_unquoted_refuted"
   ],
   "note": "false: passed on as written; performed inside double quotes (C18_substitution_partial)"
  },
  {
   "property": "C66",
   "status": "partial",
   "theorems": [
    "C66_quoted_command_refuted",
    "C66_quoted_command_partial"
   ],
   "note": "false when the text contains a blank"
  },
  {
   "property": "C67",
   "status": "partial",
   "theorems": [
    "C67_alias_order_refuted",
    "C67_alias_order_partial"
   ],
   "note": "false: they come after"
  },
  {
   "property": "C68",
   "status": "partial",
   "theorems": [
    "C68_stopped_pipeline_refuted",
    "C35_stopped_kept"
   ],
   "note": "false when only a later process is stopped; proved for the first process"
  },
  {
   "property": "C69",
   "status": "partial",
   "theorems": [
    "C69_report",
    "C69_forgotten"
   ],
   "note": "proved for every process whose number the shell has for that job, which is every process unless the system uses the number of an ended process again (C144): when the job that used it last is deleted the number is forgotten, and nothing is said any more about the process of the other job"
  },
  {
   "property": "C70",
   "status": "proved",
   "theorems": [
    "C70_program_runs"
   ],
   "note": ""
  },
  {
   "property": "C71",
   "status": "proved",
   "theorems": [
    "C71_shell_unchanged"
   ],
   "note": ""
  },
  {
   "property": "C72",
   "status": "partial",
   "theorems": [
    "C72_descriptors_partial",
    "C72_leak_refuted"
   ],
   "note": "proved for every run as long as pipes can be made; false otherwise, a descriptor is lost"
  },
  {
   "property": "C73",
   "status": "partial",
   "theorems": [
    "C73_truncate_refuted"
   ],
   "note": "false: the file is never truncated; what is opened is proved in C47_redirections_partial"
  },
  {
   "property": "C74",
   "status": "partial",
   "theorems": [
    "C74_assignment_partial",
    "C74_value_cut_refuted",
    "C71_shell_unchanged"
   ],
   "note": "false for values containing '=' (cut off) and quoted values (the quotes are passed on); proved for the rest"
  },
  {
   "property": "C75",
   "status": "partial",
   "theorems": [
    "C75_killed_refuted"
   ],
   "note": "false: the status of the previous command stays"
  },
  {
   "property": "C76",
   "status": "partial",
   "theorems": [
    "C76_stopped_partial",
    "C42_first_partial",
    "C76_later_refuted"
   ],
   "note": "proved for a single program, and for pipelines whose first process stops; false when the first has ended and another stops: the job is forgotten"
  },
  {
   "property": "C77",
   "status": "partial",
   "theorems": [
    "C77_failed_exec_refuted"
   ],
   "note": "false: handlers and mask are already reset when the command is not found"
  },
  {
   "property": "C78",
   "status": "partial",
   "theorems": [
    "C78_session",
    "C78_errors",
    "C78_ends",
    "C78_refuted"
   ],
   "note": "proved while PS1 is set; unsetting it crashes the shell at the next prompt"
  },
  {
   "property": "C79",
   "status": "partial",
   "theorems": [
    "C79_reachable",
    "C79_invariants",
    "C79_files_partial",
    "C72_leak_refuted"
   ],
   "note": "as stated, except that the part about files is for systems on which pipe(2) does not fail; it is false otherwise"
  },
  {
   "property": "C80",
   "status": "partial",
   "theorems": [
    "C80_startup_partial",
    "C80_profile_partial",
    "C80_syntax_error",
    "C80_core_partial",
    "C80_core_dash_c_partial",
    "C80_left_partial",
    "C80_left_file_partial",
    "C80_signals_partial",
    "C80_signals_left_partial",
    "C80_refuted"
   ],
   "note": "false: the path ~/.rshrc is taken literally, and a failing file crashes the shell; what a readable file does is proved. For files in the core language with functions (C125, C142), a session does what the lines of the two files and the lines typed do, one after the other, including exit and exec in a startup file, in a script file, and in a session when signals arrive at any moment"
  },
  {
   "property": "C81",
   "status": "partial",
   "theorems": [
    "C81_quiet_partial",
    "C81_refuted",
    "C81_commands_refuted",
    "C81_script_refuted"
   ],
   "note": "false for every command line with more than one word"
  },
  {
   "property": "C82",
   "status": "partial",
   "theorems": [
    "C82_exit_partial",
    "C82_status_refuted"
   ],
   "note": "false: the status is always 0 unless exit is run"
  },
  {
   "property": "C83",
   "status": "partial",
   "theorems": [
    "C83_whole_partial",
    "C83_refuted"
   ],
   "note": "proved for scripts with whole commands on each line that do not fail; false for commands over several lines"
  },
  {
   "property": "C84",
   "status": "partial",
   "theorems": [
    "C84_noticed_partial",
    "C84_refuted",
    "C84_function_refuted",
    "C84_together_refuted",
    "C84_nothing_partial",
    "C84_pipeline_partial",
    "C84_pipeline_signals_partial",
    "C84_pipeline_refuted",
    "C84_pipeline_order_refuted",
    "C84_pipeline_together_refuted"
   ],
   "note": "false: after a line that leaves the signals blocked nothing is noticed; when the first program of a background pipeline ends the shell waits in the handler for all the others, and when two of the others report first it crashes; when two children end at about the same time the shell may crash"
  },
  {
   "property": "C85",
   "status": "partial",
   "theorems": [
    "C85_first_word_partial",
    "C85_refuted"
   ],
   "note": "proved for the first word with the cursor at its end; false elsewhere"
  },
  {
   "property": "C86",
   "status": "partial",
   "theorems": [
    "C86_runnable_partial",
    "C86_all_partial",
    "C86_refuted"
   ],
   "note": "proved when the variable PATH is the one of the environment; false otherwise"
  },
  {
   "property": "C87",
   "status": "partial",
   "theorems": [
    "C87_survives_partial",
    "C87_refuted",
    "C87_not_restored"
   ],
   "note": "false for SIGQUIT, when descriptor 0 cannot be written, and after a failed exec"
  },
  {
   "property": "C88",
   "status": "partial",
   "theorems": [
    "C88_program_partial",
    "C88_refuted"
   ],
   "note": "false: SIGPIPE stays ignored"
  },
  {
   "property": "C89",
   "status": "partial",
   "theorems": [
    "C89_cd_partial",
    "C89_home_refuted",
    "C89_pwd_refuted"
   ],
   "note": "proved for cd with an argument, both answers; false for cd alone (crash) and for PWD (not updated)"
  },
  {
   "property": "C90",
   "status": "partial",
   "theorems": [
    "C90_pwd_partial",
    "C90_after_cd"
   ],
   "note": "proved except that the signals stay blocked and that the shell crashes when the system reports no directory"
  },
  {
   "property": "C91",
   "status": "partial",
   "theorems": [
    "C91_export_partial",
    "C91_dash_refuted",
    "C91_name_refuted",
    "C91_reassign_refuted"
   ],
   "note": "proved for name=value without -p in the first word; false for values with -p in them, for export name and for later assignments"
  },
  {
   "property": "C92",
   "status": "partial",
   "theorems": [
    "C92_unset_partial",
    "C92_unset_refuted"
   ],
   "note": "proved for the first name; false for further names, names with a dash and the environment"
  },
  {
   "property": "C93",
   "status": "partial",
   "theorems": [
    "C93_value_partial",
    "C93_mark_partial",
    "C93_namespace_partial",
    "C93_kept",
    "C93_dash_refuted"
   ],
   "note": "proved for the first name and values without a dash; false for values with a dash"
  },
  {
   "property": "C94",
   "status": "partial",
   "theorems": [
    "C94_source_partial",
    "C94_arguments",
    "C94_errors",
    "C94_restored_refuted"
   ],
   "note": "proved except for the status, which is 0, and the parameters, which are not restored"
  },
  {
   "property": "C95",
   "status": "partial",
   "theorems": [
    "C95_bg",
    "C95_fg_partial",
    "C95_fg_single",
    "C95_fg_wait",
    "C95_lost_refuted",
    "C95_unknown"
   ],
   "note": "bg proved, for jobs other than the one of the process itself; fg proved except that its status is 0 whatever the job's is; what the wait leaves is proved for every job and whatever is reported, while no other job runs (a job whose first process exits while another is stopped is lost)"
  },
  {
   "property": "C96",
   "status": "partial",
   "theorems": [
    "C96_alias_partial",
    "C96_program_refuted",
    "C96_builtin_refuted"
   ],
   "note": "proved when both names or neither are builtins; false otherwise; the words of the alias come after the arguments"
  },
  {
   "property": "C97",
   "status": "partial",
   "theorems": [
    "C97_bang_refuted"
   ],
   "note": "false: the mark is ignored, for every pipeline"
  },
  {
   "property": "C98",
   "status": "partial",
   "theorems": [
    "C98_group_refuted"
   ],
   "note": "false: not implemented, for every group"
  },
  {
   "property": "C99",
   "status": "partial",
   "theorems": [
    "C99_error_refuted",
    "C99_or_refuted",
    "C99_success_partial"
   ],
   "note": "false: an error ends the whole line; proved for builtins that succeed"
  },
  {
   "property": "C100",
   "status": "partial",
   "theorems": [
    "C100_rest_refuted",
    "C100_before_refuted"
   ],
   "note": "false: what follows a builtin is dropped, what precedes it is run after it and not connected"
  },
  {
   "property": "C101",
   "status": "partial",
   "theorems": [
    "C101_call_partial",
    "C101_status_refuted"
   ],
   "note": "proved except for the status and the numbers of jobs"
  },
  {
   "property": "C102",
   "status": "partial",
   "theorems": [
    "C102_several_refuted",
    "C102_assign_partial"
   ],
   "note": "false: only the first is done; one assignment is proved"
  },
  {
   "property": "C103",
   "status": "partial",
   "theorems": [
    "C103_digits_refuted",
    "C103_arguments_partial",
    "C103_equals_refuted",
    "C103_ampersand_refuted"
   ],
   "note": "false: exactly which arguments crash the shell, are cut or dropped is proved"
  },
  {
   "property": "C104",
   "status": "partial",
   "theorems": [
    "C104_path_refuted",
    "C104_absolute_refuted"
   ],
   "note": "false: the file run is always an entry of PATH, a slash and the name; proved that it is the first such file"
  },
  {
   "property": "C105",
   "status": "partial",
   "theorems": [
    "C105_special_refuted",
    "C105_fresh_refuted"
   ],
   "note": "false: these parameters do not exist; the program gets $? as written, whatever the status"
  },
  {
   "property": "C106",
   "status": "proved",
   "theorems": [
    "C106_path_assigned",
    "C106_path_exported",
    "C104_path_refuted"
   ],
   "note": ""
  },
  {
   "property": "C107",
   "status": "proved",
   "theorems": [
    "C107_background",
    "C107_returns"
   ],
   "note": ""
  },
  {
   "property": "C108",
   "status": "partial",
   "theorems": [
    "C108_ignored_refuted",
    "C108_alone_refuted"
   ],
   "note": "false: redirections have no effect at all on builtins and functions; alone they crash the shell"
  },
  {
   "property": "C109",
   "status": "partial",
   "theorems": [
    "C109_builtin_first_refuted",
    "C109_cd_refuted",
    "C101_call_partial"
   ],
   "note": "false: the builtin is run; for other names C101"
  },
  {
   "property": "C110",
   "status": "partial",
   "theorems": [
    "C110_assignment_refuted"
   ],
   "note": "false: they have no effect at all"
  },
  {
   "property": "C111",
   "status": "proved",
   "theorems": [
    "C111_unchanged"
   ],
   "note": ""
  },
  {
   "property": "C112",
   "status": "partial",
   "theorems": [
    "C112_captured_partial",
    "C112_stderr_refuted"
   ],
   "note": "false: the standard error of every program goes into the text as well; the rest is proved"
  },
  {
   "property": "C113",
   "status": "partial",
   "theorems": [
    "C113_size_refuted",
    "C113_fits_partial"
   ],
   "note": "false: output larger than the pipe hangs both processes; proved for output that fits"
  },
  {
   "property": "C114",
   "status": "proved",
   "theorems": [
    "C114_reachable",
    "C114_invariants",
    "C114_no_signals",
    "C114_unheard",
    "C114_everywhere"
   ],
   "note": ""
  },
  {
   "property": "C115",
   "status": "partial",
   "theorems": [
    "C115_same_partial",
    "C115_status_partial",
    "C115_pipeline_partial",
    "C117_signals_partial",
    "C117_signals_typed_partial",
    "C125_signals_partial",
    "C125_signals_typed_partial",
    "C115_function_refuted",
    "C115_again_refuted",
    "C115_message_refuted",
    "C115_interrupt_refuted"
   ],
   "note": "false when a function precedes the program in the pipeline, when a program is stopped and then exits while the shell waits (the status is lost and the job stays), for the message about a killed program of a pipeline, and when ^C is pressed while the shell waits and the program exits because of it (its status is lost); proved, when no SIGINT arrives while processes are started or waited for, for a single program that reports once and for pipelines of any length whose programs end, the first one first, while the other jobs are finished or stopped; and for whole scripts and sessions in the core language, also with functions, files and eval (C117, C125), whenever signals arrive in the commands, between them and at the prompt"
  },
  {
   "property": "C116",
   "status": "partial",
   "theorems": [
    "C116_wiring_partial",
    "C116_unblocked_refuted",
    "C116_interrupt_refuted",
    "C116_function_refuted"
   ],
   "note": "false after a function that ran a program, and when ^C is pressed while a program is started that is over at once (crash): the handler of SIGINT unblocks the signals; proved for pipelines of programs when no SIGINT arrives while they are started"
  },
  {
   "property": "C117",
   "status": "partial",
   "theorems": [
    "C117_core_partial",
    "C117_dash_c_partial",
    "C117_typed_partial",
    "C117_file_partial",
    "C117_signals_partial",
    "C117_signals_typed_partial",
    "C117_assign_refuted",
    "C117_unset_refuted",
    "C117_export_refuted",
    "C117_pipeline_refuted",
    "C117_cd_refuted"
   ],
   "note": "proved for scripts that do not assign to or unset exported variables, do not export variables that were assigned, use variables that have a one-word value, redirect with < and >> (programs that have arguments), change to directories that are there, and whose pipelines have the same status at both ends; down to execve: path, arguments, environment and open files of every process; and all of it again whenever SIGCHLDs arrive, and SIGINTs between commands; false for assigning to or unsetting an exported variable, for exporting an assigned one, for cd to a directory that is not there (the whole line ends), and for the status of a pipeline whose first and last program exit differently; > does not truncate (C73) and redirections of a command without arguments are lost (C21)"
  },
  {
   "property": "C118",
   "status": "proved",
   "theorems": [
    "C118_inherited",
    "C118_exported"
   ],
   "note": ""
  },
  {
   "property": "C119",
   "status": "partial",
   "theorems": [
    "C119_fork_refuted"
   ],
   "note": "false: the failure is ignored, the status stays what it was, and nothing is said"
  },
  {
   "property": "C120",
   "status": "partial",
   "theorems": [
    "C120_file_partial",
    "C120_definitions_partial",
    "C120_self",
    "C120_isolation_refuted",
    "C120_name_refuted",
    "C120_failure_refuted"
   ],
   "note": "self is proved as stated; files are proved when they end without an error and define names the shell does not have; false when the shell has a variable of that name (it is overwritten, the namespace has none), when the file fails (its scope stays), and for a file given without a name (the file called context is read)"
  },
  {
   "property": "C121",
   "status": "partial",
   "theorems": [
    "C121_job_refuted",
    "C121_crash_refuted"
   ],
   "note": "false: the job stays in the table as running, signals stay blocked, and the shell crashes when the next foreground pipeline reports; proved for the first pipe of a pipeline. The error is returned"
  },
  {
   "property": "C122",
   "status": "partial",
   "theorems": [
    "C122_own_partial",
    "C122_any_partial",
    "C122_everyone_refuted"
   ],
   "note": "proved while processes and pipes can be made; false otherwise: fg and bg of a job that was not started signal every process of the system"
  },
  {
   "property": "C123",
   "status": "proved",
   "theorems": [
    "C123_ends",
    "C123_program"
   ],
   "note": ""
  },
  {
   "property": "C124",
   "status": "proved",
   "theorems": [
    "C124_files",
    "C124_history"
   ],
   "note": ""
  },
  {
   "property": "C125",
   "status": "partial",
   "theorems": [
    "C125_functions_partial",
    "C125_dash_c_partial",
    "C125_typed_partial",
    "C125_signals_partial",
    "C125_signals_typed_partial",
    "C125_extends",
    "C125_variable_refuted",
    "C125_parameter_refuted",
    "C125_definition_refuted"
   ],
   "note": "false: a variable or a function that a call is the first to set is gone after it, and a call within a function changes the parameters of that function; the status of a call is always 0 (C52). Proved for the scripts in which none of this happens: calls within functions without parameters, assignments in functions to variables that have a value, calls that end with 0; also for scripts that read further commands from files with . (files in files, in functions), as far as the text of the files is known and they end with 0, and with eval 'commands' where the commands have no quotes and end with 0; and the same when signals arrive at any moment"
  },
  {
   "property": "C126",
   "status": "partial",
   "theorems": [
    "C126_background_partial",
    "C126_status_refuted",
    "C126_nested_refuted"
   ],
   "note": "false: the process always ends with 0, and a function called in it ends it at once, so that the rest of the body is not run. Proved for bodies without calls, apart from the status"
  },
  {
   "property": "C127",
   "status": "partial",
   "theorems": [
    "C127_saved_partial",
    "C127_lost_refuted",
    "C127_directory_refuted",
    "C127_twice_refuted"
   ],
   "note": "false: nothing is saved when the shell crashes or is replaced by a program; the file is that of the directory in which the shell ends; a process in which exit is run saves the history too. Proved: the shell itself saves it at most once, at the very end, and does so whenever the input is closed or the shell exits. What the line editor writes is not modelled"
  },
  {
   "property": "C128",
   "status": "proved",
   "theorems": [
    "C128_refused"
   ],
   "note": ""
  },
  {
   "property": "C129",
   "status": "partial",
   "theorems": [
    "C129_reserved_refuted",
    "C129_quoted_partial"
   ],
   "note": "false: a line with an unquoted reserved word among the arguments is refused; proved for quoted ones"
  },
  {
   "property": "C130",
   "status": "proved",
   "theorems": [
    "C130_neighbours",
    "C130_ends",
    "C130_leading",
    "C130_braces",
    "C130_exact"
   ],
   "note": ""
  },
  {
   "property": "C131",
   "status": "partial",
   "theorems": [
    "C131_ampersand_refuted",
    "C131_semicolon_partial"
   ],
   "note": "false: a & b is refused; proved with a semicolon after the ampersand"
  },
  {
   "property": "C132",
   "status": "partial",
   "theorems": [
    "C132_parts_refuted",
    "C132_inside_refuted",
    "C15_whole_line"
   ],
   "note": "false: a quoted part ends the word, a $ or backquote begins a new one, quotes in the middle of a word stay, and a parameter extends to the end of the word; proved for words of one part (C15)"
  },
  {
   "property": "C133",
   "status": "partial",
   "theorems": [
    "C133_backslash_refuted",
    "C133_quoted_partial"
   ],
   "note": "false: the backslash is an ordinary character everywhere; proved within single quotes"
  },
  {
   "property": "C134",
   "status": "partial",
   "theorems": [
    "C134_star_refuted",
    "C134_literal_partial"
   ],
   "note": "false: a line with an unquoted star is refused, and ?, [...] and ~ are passed as written; proved: what the program gets instead"
  },
  {
   "property": "C135",
   "status": "partial",
   "theorems": [
    "C135_eval_partial",
    "C135_substitution_refuted",
    "C54_commands",
    "C80_syntax_error",
    "C94_errors"
   ],
   "note": "false: a substitution crashes the shell; with eval the error is reported and nothing changes, but signals stay blocked"
  },
  {
   "property": "C136",
   "status": "partial",
   "theorems": [
    "C136_equals_refuted",
    "C136_empty_refuted",
    "C136_pair_partial"
   ],
   "note": "false: an equals sign with blanks around it joins its neighbours to one argument, and A= is refused; proved for one equals sign within an argument"
  },
  {
   "property": "C137",
   "status": "partial",
   "theorems": [
    "C137_signal_refuted",
    "C137_signal_partial",
    "C137_interrupt_refuted",
    "C137_children_partial"
   ],
   "note": "false: the wait for the copy is not taken up again after a signal that is caught, and Ctrl-C or Ctrl-Z crashes the shell; proved for all other signals, and for these once the commands have ended"
  },
  {
   "property": "C138",
   "status": "partial",
   "theorems": [
    "C138_same_partial",
    "C138_second_refuted",
    "C138_interrupt_refuted"
   ],
   "note": "false: a second child that ends while the job is deleted crashes the shell; when the job ends while the handler of SIGINT runs, it stays in the list as running; proved for a job of one process, any SIGCHLDs, and no other child that ends"
  },
  {
   "property": "C139",
   "status": "proved",
   "theorems": [
    "C139_flow",
    "C139_ends_seen",
    "C139_ahead",
    "C139_composition",
    "C139_shell_ends",
    "C139_no_deadlock",
    "C46_wiring_partial",
    "C46_ends",
    "C70_program_runs"
   ],
   "note": "for pipelines of programs; the kernel's pipes are the model Net.v; the shell's builtins in a pipeline are C100"
  },
  {
   "property": "C140",
   "status": "partial",
   "theorems": [
    "C140_groups",
    "C140_reached_partial",
    "C140_fg_refuted",
    "C140_bg_refuted",
    "C140_one_group_refuted"
   ],
   "note": "false: fg and bg do not change the groups, so a job started with & is never reached, also after fg, and one that was stopped and continued with bg still is; each process of a pipeline started with & is a group of its own. Proved: the group of every process of every session, and exactly which are reached: those of which no ancestor was started with &"
  },
  {
   "property": "C141",
   "status": "proved",
   "theorems": [
    "C141_ends",
    "C141_one_ends",
    "C139_no_deadlock",
    "C139_shell_ends"
   ],
   "note": "for pipelines of programs; the kernel's pipes are the model Net.v; a program that ignores a broken pipe is outside the hypotheses (C141_needed)"
  },
  {
   "property": "C142",
   "status": "partial",
   "theorems": [
    "C142_core_partial",
    "C142_dash_c_partial",
    "C142_typed_partial",
    "C142_file_partial",
    "C142_functions_partial",
    "C142_functions_dash_c_partial",
    "C142_functions_typed_partial",
    "C142_functions_file_partial",
    "C142_signals_partial",
    "C142_signals_typed_partial",
    "C142_first_partial",
    "C142_status_refuted"
   ],
   "note": "false: exit without a number ends with the status of the last program, also when the command before was an assignment or a builtin, and a file without exit is read for ever (C55). Proved for exit with a number, exit without one behind ||, and exec without options or redirections; commands as in C117, with functions, sourced files and eval as in C125, left from however deep within, also when signals arrive at any moment; the program that takes the place of the shell has open what the shell was given; a shell told to exec what is not there goes on with the next line"
  },
  {
   "property": "C143",
   "status": "partial",
   "theorems": [
    "C143_heard",
    "C143_waits_partial",
    "C143_ends",
    "C143_interrupt_refuted",
    "C143_prompt_partial",
    "C143_prompt_refuted"
   ],
   "note": "false: ^C lets the signals in that wait while the command still runs, and after pwd, or any other line that leaves the signals blocked (C48), a hangup or kill does not end the shell at the prompt until the next program is run. Proved: nothing is lost or invented in any history; without ^C signals wait until they are unblocked; at the prompt after a pipeline of programs they take effect at once"
  },
  {
   "property": "C144",
   "status": "partial",
   "theorems": [
    "C144_own_partial",
    "C144_session_partial",
    "C144_lost_refuted",
    "C144_reuse_refuted"
   ],
   "note": "false: the report goes to the first unfinished job that lists the number, even in a process that has ended; the new program counts as if it had not ended and the status of the command before stays. Proved for every table in which no unfinished job lists the number, and so for every session, with signals at any moment, in which the system gives no number twice and the jobs that there are have stopped (C144_session_partial)"
  },
  {
   "property": "C145",
   "status": "partial",
   "theorems": [
    "C145_typed_partial",
    "C145_session_partial"
   ],
   "note": "proved for single programs, which after they were stopped are brought back with fg, where they end or are stopped again, or continued with bg, where they end or are brought back later, when no other signal reaches the shell, the end of a program in the background arrives at the prompt while the handler can run (C84), and the system gives no number of a process of a job to another. Missing: pipelines that are stopped, and jobs started with &; the status of fg is C95, the numbers are C146"
  },
  {
   "property": "C146",
   "status": "partial",
   "theorems": [
    "C146_number_partial",
    "C146_number_refuted",
    "C35_removed_partial"
   ],
   "note": "false: a call of a function takes a number although it leaves no job; proved for histories in which every job has a process. When a job with processes is removed the numbers are right again (C35_removed_partial)"
  },
  {
   "property": "C147",
   "status": "proved",
   "theorems": [
    "C147_session",
    "C147_signals",
    "C147_by_process",
    "C147_report",
    "C147_kept"
   ],
   "note": "for every session, script and command given with -c from the start (C147_session), for every session with signals in the middle of commands (C147_signals, C147_by_process; the reports that reach the shell at its prompt, C147_report), and for every list of commands run by a shell in any state, for a number that the system does not give again (C147_kept). When a number is given twice: C144"
  }
 ]
}