{"claims": [
 {"property": "C01", "status": "proved", "theorems": ["C01_pattern_order", "C01_sort_order_free", "C01_sort_correct"], "note": "order laws on parsed patterns; sorted list independent of set iteration order"},
 {"property": "C02", "status": "proved", "theorems": ["C02_parse_ok_iff", "C02_parse_outcomes", "C02_cases_exhaustive", "C02_parse_ends"], "note": "complete case analysis of all strings"},
 {"property": "C03", "status": "partial", "theorems": ["C03_canonical_faithful_refuted", "C03_exclusions_needed", "C03_exact", "C03_canonical_pattern_partial", "C03_canonical_literal_partial"], "note": "False in general (refuted). For ASCII texts it holds exactly for the texts of SafeText (C03_exact, both directions); texts outside ASCII are not characterised."},
 {"property": "C04", "status": "partial", "theorems": ["C04_hint_actionable_refuted", "C04_hint_actionable_partial", "C04_literal_never_hinted_partial", "C04_hint_exact", "C04_own_suggestion", "C04_followed_pattern", "C04_followed_literal"], "note": "False for a]b. C04_hint_exact says when any text is hinted; the others say exactly when a hint that was followed is given again (for ASCII texts whose canonical form is faithful, C03)."},
 {"property": "C05", "status": "partial", "theorems": ["C05_matches_exact_refuted", "C05_matches_pattern_partial", "C05_matches_literal", "C05_matches_crash"], "note": "overlong extensions match; exact characterisation proved"},
 {"property": "C06", "status": "partial", "theorems": ["C06_example_matches_refuted", "C06_example_pattern_partial", "C06_example_literal", "C06_exact", "C06_text_unique"], "note": "False when the lowest member of a set is a dash. C06_exact says for every pattern what the example is and when it matches."},
 {"property": "C07", "status": "proved", "theorems": ["C07_priority_once", "C07_first_kept", "C07_duplicate_dropped", "C07_run_follows_rules", "C07_rules_determine", "C07_rules_suffice", "C07_file_follows_rules"], "note": "For every run that ends without an uncaught exception (C07_rules_suffice says which elements allow that; crashes are C23)."},
 {"property": "C08", "status": "proved", "theorems": ["C08_label_once", "C08_label_lookup", "C08_duplicate_wiped"], "note": "After every sequence of lines that does not crash."},
 {"property": "C09", "status": "proved", "theorems": ["C09_priority_positive", "C09_next"], "note": "After every sequence of lines that does not crash."},
 {"property": "C10", "status": "proved", "theorems": ["C10_listing", "C10_listing_determined", "C10_memo_fresh", "C10_show"], "note": "For every interleaving of additions, reopenings, includes, listings and matches; C10_show gives the text of dialplan show, in which repr() of the context name is a parameter."},
 {"property": "C11", "status": "proved", "theorems": ["C11_found_is_target", "C11_none_is_none", "C11_search_exact", "C11_own_context_first", "C11_search_returns"], "note": "Soundness in both directions for every dialplan; equivalence for acyclic includes, latin-1 extensions and priorities that are not lists."},
 {"property": "C12", "status": "partial", "theorems": ["C12_returns_exactly", "C12_otherwise_never", "C12_cycle_never_returns", "C12_fuel_suffices", "C12_fuel_irrelevant", "C12_always_returns_refuted"], "note": "False for include cycles. For latin-1 extensions C12_returns_exactly and C12_otherwise_never say exactly which searches return."},
 {"property": "C13", "status": "proved", "theorems": ["C13_report_exact", "C13_report_determined", "C13_report_ends", "C13_destinations"], "note": "Report names the one message of every destination; walking ends for acyclic includes (C12)."},
 {"property": "C14", "status": "proved", "theorems": ["C14_config_unchanged", "C14_blanks_not_invented"], "note": "for every event stream and outcome"},
 {"property": "C15", "status": "partial", "theorems": ["C15_file_msgs_partial", "C15_spec_function", "C15_every_file_exact_refuted", "C15_adjacent_includes_refuted", "C15_included_twice_refuted", "C60_space"], "note": "false in general (three refutations); exact per file for include trees in which each file is read once and has an own element before its first include, with the end of a file reported only where stated. C60_space gives the exact messages for every sequence of elements, with the files that are open as lists."},
 {"property": "C16", "status": "proved", "theorems": ["C16_include_expansion", "C16_success_is_expansion", "C16_elements"], "note": "for every file system; includes resolved against the directory of the including file"},
 {"property": "C17", "status": "partial", "theorems": ["C17_acyclic_ends_partial", "C17_success_acyclic", "C17_ends_iff_acyclic", "C17_always_ends_refuted"], "note": "false for cyclic includes; ends iff the include relation is well-founded below the root file"},
 {"property": "C18", "status": "partial", "theorems": ["C18_utf8_exact", "C18_cp1252_partial", "C18_every_line_decoded_refuted"], "note": "exact decoding proved; false that every line decodes: the five bytes undefined in cp1252 raise UnicodeDecodeError"},
 {"property": "C19", "status": "proved", "theorems": ["C19_line_end_msgs", "C19_never_fails", "C19_line_end_lossless"], "note": "messages exact for every include tree without self inclusion; no failed assertion for any sequence of lines"},
 {"property": "C20", "status": "proved", "theorems": ["C20_comment_split", "C20_split_unique", "C20_lossless"], "note": ""},
 {"property": "C21", "status": "proved", "theorems": ["C21_one_kind", "C21_parse_line", "C21_assign_lossless"], "note": "for data lines without newline, which is what the reader delivers"},
 {"property": "C22", "status": "proved", "theorems": ["C22_muted", "C22_dialplan_check", "C22_func_odbc_check", "C22_raised_unchanged"], "note": "Muting as a relation on ALINT_IGNORE; printed messages and exit status of every run of the two check commands; raised messages do not depend on ALINT_IGNORE."},
 {"property": "C23", "status": "partial", "theorems": ["C23_exact", "C23_text", "C23_application", "C23_line", "C23_elements", "C23_file", "C23_walk", "C23_check", "C23_survives_refuted"], "note": "False as stated: C23_survives_refuted lists 21 files that end the process without an exit status. C23_exact says for every file, without exception, that there is an exit status exactly if the rules of C59 apply; the other theorems say it in terms of what makes a text, a line, a section or a jump fail, for dialplan values in ASCII, leaving out values taken apart by name (C31) and substitutions without a name."},
 {"property": "C24", "status": "proved", "theorems": ["C24_raw_lossless", "C24_quotes_removed", "C24_unquoted_unique", "C24_strs"], "note": "For every str or Var and every one-character delimiter."},
 {"property": "C25", "status": "proved", "theorems": ["C25_top_level", "C25_unique", "C25_delimiters", "C25_list_refuted"], "note": "For every str or Var and every delimiter other than brackets, parentheses and the backslash (the code uses comma, question mark and colon). Old-style if arguments reach separate_args as a list, not as argument data; those are not split (C25_list_refuted)."},
 {"property": "C26", "status": "partial", "theorems": ["C26_goto_loop_refuted", "C26_goto_partial", "C26_gotoif_partial", "C26_gosub", "C26_gosubif", "C26_gosub_exact", "C26_gosubif_exact", "C26_canon_unique", "C26_gotoiftime", "C26_application_partial", "C26_fuel", "C26_args_unique", "C26_branches_unique"], "note": "False for Goto and GotoIf with more than three arguments, which never return (C26_goto_loop_refuted). Proved: that is the only case, and otherwise the triple is the padded argument list; Gosub, GosubIf and GotoIfTime always return; the destinations of Gosub and GosubIf are exact, for any number of arguments."},
 {"property": "C27", "status": "partial", "theorems": ["C27_round_trip_partial", "C27_round_trip_refuted", "C27_exact", "C27_lighter"], "note": "False for numbers not in Python's form, '${}', '$[]' and a function followed by '$[:'. C27_exact says for every text that is read without a syntax error whether it is printed as it was written; C27_round_trip_partial gives a sufficient condition on the text alone."},
 {"property": "C28", "status": "proved", "theorems": ["C28_unterminated", "C28_exact", "C28_terminates", "C28_plain_text"], "note": "crashes on other parts of the text are possible (see C23); apart from these the error is raised exactly for unterminated texts"},
 {"property": "C29", "status": "partial", "theorems": ["C29_reports", "C29_substring_partial", "C29_substring_exact", "C29_substring_unique", "C29_substring_refuted", "C29_no_assertion", "C29_rejected_reported_refuted"], "note": "reports exact for ASCII; the substring is wrong exactly for a negative offset beyond the beginning of a non-empty value with a positive length; a non-ASCII digit such as superscript two crashes"},
 {"property": "C30", "status": "proved", "theorems": ["C30_balance", "C30_flat_unique", "C30_argument_list_refuted"], "note": "exact for every str and Var; not for argument lists of a function written to (refuted)"},
 {"property": "C31", "status": "partial", "theorems": ["C31_join", "C31_join_shape", "C31_split_partial", "C31_exact", "C31_named", "C31_split_unique", "C31_split_refuted"], "note": "join proved. Splitting and joining gives back the value exactly if it is no single named variable (C31_exact); what becomes of one is stated too (C31_named)."},
 {"property": "C32", "status": "partial", "theorems": ["C32_could_match_partial", "C32_exact", "C32_could_match_refuted"], "note": "False for targets with line feeds; C32_exact says for every target what is accepted."},
 {"property": "C33", "status": "proved", "theorems": ["C33_known", "C33_unknown", "C33_no_unknown", "C33_table", "C33_order", "C33_tables_v13", "C33_app_reported", "C33_func_reported"], "note": "Loader as a state machine over any sequence of registrations and lookups, provided the entry unknown is not registered again after a lookup; the real tables have distinct names."},
 {"property": "C34", "status": "proved", "theorems": ["C34_background", "C34_reference_unique", "C34_messages"], "note": "Over any log of uses, starting without a chosen spelling. C34_messages also fixes the spelling that is proposed."},
 {"property": "C35", "status": "proved", "theorems": ["C35_lines", "C35_any_issues", "C35_used_unique", "C35_new_unique", "C35_returns", "C35_canonical_line", "C35_all_issues_refuted"], "note": "As stated (ascending issues); for any other list exactly the longest ascending beginning is processed, so that 'all issues' is refuted. For links that name their target directly (see C36)."},
 {"property": "C36", "status": "partial", "theorems": ["C36_old_or_new", "C36_states", "C36_temp_removed", "C36_done", "C36_batch", "C36_temp_always_removed_refuted", "C36_relative_link_refuted", "C36_success", "C36_success_file", "C36_flush"], "note": "Holds for plain files and links whose text names the target; false for a relative link in another directory (the wrong file is replaced). The temporary file stays if stat, chown, chmod or rename fails."},
 {"property": "C37", "status": "proved", "theorems": ["C37_run", "C37_rules_determine", "C37_first_wins", "C37_ends", "C37_file", "C37_file_ends", "C37_registered_found", "C37_queries"], "note": "The statement was reworded: the code has no read/write flags. The rules (Spec_FuncOdbc.v) are declarative; the run is shown equivalent to them, on element lists and on whole files."},
 {"property": "C38", "status": "proved", "theorems": ["C38_singletons", "C38_version"], "note": "All histories of calls of all singleton classes, including constructors that raise; the answers of AsteriskVersion are characterised exactly."},
 {"property": "C39", "status": "proved", "theorems": ["C39_wrap", "C39_words"], "note": "Also: a line is only ended when the next word does not fit."},
 {"property": "C40", "status": "proved", "theorems": ["C40_names", "C40_no_path", "C40_loaded", "C40_main"], "note": "Exact language of accepted names (a newline at the end is accepted); the file loaded lies directly in the first command directory that has it."},
 {"property": "C41", "status": "partial", "theorems": ["C41_order_refuted", "C41_same_output_partial", "C41_status_partial", "C41_lines", "C41_ties", "C41_exact", "C41_status"], "note": "False for identifiers that differ only in case; otherwise output and status are independent of the order, for every distance function. Exact: only the order of names that differ only in case matters (C41_ties), and the outcomes that there are for a set are characterised (C41_exact, C41_status)."},
 {"property": "C42", "status": "partial", "theorems": ["C42_status_partial", "C42_modules", "C42_items", "C42_listed", "C42_page", "C42_exact_refuted", "C62_modules"], "note": "Load statements are exact. Exit status: 1 for every use of an unknown name other than the stand-in; exactness refuted by an application literally called Unknown. The whole page is exact (C42_page). C62_modules says it from the bytes of the files."},
 {"property": "C43", "status": "partial", "theorems": ["C43_isolated_partial", "C43_response_partial", "C43_leak_refuted", "C43_poison_refuted", "C43_background_refuted", "C63_isolated", "C63_answered"], "note": "Isolated if no earlier request raised and Background is not involved; otherwise refuted. C63 says exactly when a response differs from that of a new server."},
 {"property": "C44", "status": "partial", "theorems": ["C44_sites_partial", "C44_messages_partial", "C44_formatted_partial", "C44_all_supplied_refuted"], "note": "True for every raise site but two, over all runs of dialplan-check; refuted for E_DP_LABEL_INVALID and W_FUNC_DYNAMIC."},
 {"property": "C45", "status": "partial", "theorems": ["C45_template_header_refuted", "C45_exact", "C45_template_header_partial"], "note": "False. C45_exact says for every name and list when the context is opened."},
 {"property": "C46", "status": "proved", "theorems": ["C46_line_text", "C46_include_text", "C46_no_line"], "note": "Equivalence: accepted exactly if the text reads so, with exactly these parts and messages; the same for include lines; what is not a line of an extension says why."},
 {"property": "C47", "status": "proved", "theorems": ["C47_line_read", "C47_determined", "C47_control_char"], "note": "equivalence for lines that decode; line end messages are C19"},
 {"property": "C48", "status": "proved", "theorems": ["C48_dialplan", "C48_func_odbc"], "note": "All runs, all file systems."},
 {"property": "C49", "status": "proved", "theorems": ["C49_line", "C49_args", "C49_goto", "C49_ifstyle", "C49_gotoif", "C49_execif", "C49_set", "C49_plain", "C49_strip", "C26_gosub_exact", "C26_gosubif_exact"], "note": "For every run that ends normally; runs that do not are the subject of C23 and C26."},
 {"property": "C50", "status": "proved", "theorems": ["C50_sections", "C50_file", "C50_settings"], "note": "Equivalence of the parser with the sections as written, and of its messages with a cut of the event list at the first header, whatever the file is and also if reading it fails."},
 {"property": "C51", "status": "proved", "theorems": ["C51_comment", "C51_read", "C51_text"], "note": "Equivalence with a grammar of nested quotes and parentheses and with the rules for joining lines. The lines may come from any files; how files and includes give them is C67."},
 {"property": "C52", "status": "partial", "theorems": ["C52_page", "C52_fails", "C52_order", "C52_runs_partial", "C52_runs_refuted", "C52_user"], "note": "Exact page and exact failures for every listing. What is listed is what is run, except a file ls.py, which is listed and never run (refuted)."},
 {"property": "C53", "status": "proved", "theorems": ["C53_annotate", "C53_determined"], "note": "Equivalence with rules of the printed lines, for all files and whatever sqlparse gives. The tokens of sqlparse and its formatting are parameters."},
 {"property": "C54", "status": "proved", "theorems": ["C54_scan", "C54_order"], "note": "The whole command for every order of sets; which names are used as variables is the log of the run (C31, C49)."},
 {"property": "C55", "status": "proved", "theorems": ["C55_history", "C55_new_names", "C55_suffices", "C55_twice", "C55_once", "C55_names", "C55_all_different", "C55_config_same", "C55_no_trace_refuted", "C55_config_last_refuted"], "note": "For all lists of elements; the exact history of the run. That wiping leaves no trace, and that it happens in plain configuration files, is refuted."},
 {"property": "C56", "status": "proved", "theorems": ["C56_reported", "C56_issue", "C56_line", "C56_one_piece", "C56_fixed", "C56_other_apps", "C56_place_refuted"], "note": "Issue and line exact; new form not reported again at the level of tokens (that the written text is tokenised as the new form is not proved). The place in the line is refuted: first occurrence of the text."},
 {"property": "C57", "status": "proved", "theorems": ["C57_text", "C57_determined", "C57_unfinished", "C57_fails", "C57_data"], "note": "Equivalence of runs and rules for every text, log included; tables are parameters."},
 {"property": "C58", "status": "proved", "theorems": ["C58_line", "C58_determined", "C58_call"], "note": "Both directions, for lines that are read without failure; a line to which no rule applies ends the run (exception) or never returns (C26)."},
 {"property": "C59", "status": "proved", "theorems": ["C59_line", "C59_dialplan", "C59_walk", "C59_func_odbc", "C59_check", "C59_determined", "C59_process"], "note": "The rules (Spec_Run.v) take the stream of events of the reader as given; C60 gives it by rules."},
 {"property": "C60", "status": "proved", "theorems": ["C60_reader", "C60_reader_hangs", "C60_space", "C60_space_fails", "C60_stream", "C60_stream_determined", "C60_check", "C60_determined", "C60_process", "C60_odbc_process"], "note": "No bound on the run appears in the rules (Spec_Reader.v, Spec_Whole.v, with Spec_Run.v for the dialplan). Runs of the commands that end in an exception are covered up to the reader (C60_reader, C60_stream), not beyond."},
 {"property": "C61", "status": "proved", "theorems": ["C61_quote", "C61_quote_plain", "C61_quote_means", "C61_words", "C61_formats", "C61_check", "C61_check_total", "C61_odbc_check", "C61_tells", "C61_steady", "C61_steady_refuted", "C61_one_line", "C61_odbc_one_line", "C61_written"], "note": "The equivalence with the rules is for runs that end with an exit status; C61_one_line is about what is printed before an exception as well. C61_steady_refuted is the witness that an address makes the text differ between runs; the encoding of stderr is not modelled. The words of each class are those found in the sources (C61_written)."},
 {"property": "C62", "status": "proved", "theorems": ["C62_show", "C62_show_determined", "C62_lines", "C62_reverse", "C62_modules", "C62_modules_determined"], "note": "dialplan-show and modules-show as rules from the bytes of the files to the text on stdout and the exit status, in both directions and without fuel. KeepsBar: no name with an underscore is unknown in lower case (true of str.lower)."},
 {"property": "C63", "status": "proved", "theorems": ["C63_upload", "C63_only", "C63_left", "C63_left_determined", "C63_answer", "C63_answered", "C63_isolated", "C63_large", "C63_refused", "C63_includes", "C63_steady"], "note": "Rules from the requests and the bytes of the upload to line, class and words of the issues, in both directions and without fuel. What a request that fails in a handler says is taken from the model's run (Rn_raised); for refused includes it is given by rules (AsksElsewhere)."},
 {"property": "C64", "status": "proved", "theorems": ["C64_values", "C64_value_errors", "C64_ignored", "C64_test", "C64_tested_determined", "C64_left", "C64_before", "C64_both_refuted", "C64_counted_refuted", "C64_suite", "C64_generated", "C64_every_case", "C64_written_refuted", "C64_distinct_refuted"], "note": "A test is the list of messages it raises, calls of assertLinted and an exception. unittest itself (skipping, subtests, discovery, the docstrings of generated tests) is not modelled."},
 {"property": "C65", "status": "proved", "theorems": ["C65_scan", "C65_happens", "C65_only", "C65_determined"], "note": "From the bytes of the files: the outcomes by the rules are exactly those of the command over all orders of the sets of labels and of identifiers (two parameters)."},
 {"property": "C66", "status": "proved", "theorems": ["C66_asks", "C66_only", "C66_determined", "C66_opens", "C66_once", "C66_line", "C66_files", "C66_ends", "C66_printed", "C66_clean_after_refuted", "C66_still_read_refuted"], "note": "Beyond the statement: after a run without failures hints can be left (a pattern with an escaped semicolon, a file read twice), and the dialplan can become unreadable (a range with a semicolon in it is written out and starts a comment)."},
 {"property": "C67", "status": "proved", "theorems": ["C67_read", "C67_determined", "C67_unfolded", "C67_all", "C67_in_place", "C67_in_place_refuted", "C67_included_refuted", "C67_own_lines_refuted", "C67_order_refuted"], "note": "Without the premise on blanks, reading in place is refuted: an indented #include is read after the line that follows it, or not at all at the end, two includes can be read in reverse, and a line can be continued by another file."},
 {"property": "C68", "status": "proved", "theorems": ["C68_check", "C68_determined", "C68_names", "C68_process", "C68_placed", "C68_same", "C68_as_check_refuted", "C68_gone_refuted", "C68_label_refuted"], "note": "Runs that end well are characterised exactly; a run that ends in an exception only by the absence of an exit status. Refuted: that a section which comes again later might as well not be there, and that a jump to a label that is gone is always reported."},
 {"property": "C69", "status": "proved", "theorems": ["C69_stream", "C69_stream_determined", "C69_hangs", "C69_check", "C69_determined", "C69_process", "C69_odbc_process", "C69_text", "C69_odbc_text", "C69_one_line", "C69_odbc_one_line"], "note": "C67 and C68 put together, without fuel. Runs that end in an exception are covered by C67 and C69_stream as far as the reader goes, and by C68_placed; C69_one_line holds for them too."},
 {"property": "C70", "status": "proved", "theorems": ["C70_show", "C70_show_determined", "C70_headings", "C70_lines", "C70_reverse", "C70_same", "C70_modules", "C70_modules_determined"], "note": "As C62 with the VoIPGRID reader. Runs that end in an exception print nothing and are not characterised beyond C67 and C68."},
 {"property": "C71", "status": "proved", "theorems": ["C71_scan", "C71_happens", "C71_only", "C71_determined", "C71_contexts", "C71_same", "C71_annotate", "C71_annotate_determined", "C71_annotate_same"], "note": "As C65 and C53 with the VoIPGRID reader. Runs of ident-scan that end in an exception while reading print nothing and are not characterised beyond C67 and C68."},
 {"property": "C72", "status": "partial", "theorems": ["C72_load", "C72_main", "C72_vg", "C72_run", "C72_run_main", "C72_reported_refuted", "C72_one_reports"], "note": "False as stated: refuted with a witness; the outcomes of both are characterised exactly, and for each failure one of the two reports and the other ends in an exception."},
 {"property": "C73", "status": "proved", "theorems": ["C73_stored", "C73_runs", "C73_value", "C73_empty", "C73_modules", "C73_default_refuted", "C73_default"], "note": "The option of dialplan-check and modules-show, which has no default. For options with a default the helper is refuted: every use is refused."}
]}
