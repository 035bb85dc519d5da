{"id": "C01", "title": "Pattern comparison is a strict total order", "statement": "`<` and `==` on Pattern objects form a strict total order up to `==` (irreflexive, transitive, exactly one of a<b, a==b, b<a), so sorting the patterns of a context gives one result, whatever order the patterns come out of the intermediate set.", "quantifier": "all triples of patterns that construct; all iteration orders of the pattern set", "why_tests_cant": "comparison laws range over all triples and all hash orders; a test sees a handful of pairs and one hash seed", "anchors": ["asterisklint/pattern.py:Pattern.__lt__", "asterisklint/pattern.py:Pattern.__eq__", "asterisklint/dialplan.py:DialplanContext.get_sorted_patterns"]}
{"id": "C02", "title": "Which pattern strings construct", "statement": "Pattern(raw) succeeds exactly for the non-empty strings that are either literal (no leading underscore) or in which every '[' is closed by a ']' with at least one character in between; every other string raises (TypeError for '', ValueError for an unclosed '[', IndexError for '[]'), never a silently wrong pattern.", "quantifier": "all strings", "why_tests_cant": "the set of accepted strings is infinite; the exception classes of odd bracket placements are not enumerable by examples", "anchors": ["asterisklint/pattern.py:Pattern.parse", "asterisklint/pattern.py:Pattern.parse_pattern", "asterisklint/pattern.py:Pattern.parse_range_list"]}
{"id": "C03", "title": "Canonical form keeps the meaning of a pattern", "statement": "The canonical spelling suggested for a pattern is itself a constructible pattern that matches the same extensions (matches_same), and canonicalising twice gives the same spelling. (Rewriting tools rely on this.)", "quantifier": "all pattern strings", "why_tests_cant": "the rewriting tool is applied to arbitrary dialplans; sets with ']' '[' '-' and gaps combine in more ways than tests can list", "anchors": ["asterisklint/pattern.py:Pattern.canonical_pattern", "asterisklint/pattern.py:Pattern._canonical_pattern_range", "asterisklint/pattern.py:Pattern._canonical_pattern_add_range", "contrib/make_patterns_canonical.py"]}
{"id": "C04", "title": "The canonical hint is actionable", "statement": "If H_PAT_NON_CANONICAL is raised for a pattern, then the suggested spelling differs from what was written; and a pattern written exactly in the suggested spelling is never hinted again.", "quantifier": "all pattern strings", "why_tests_cant": "quantifies over all spellings; a fixpoint property of two functions that share no code", "anchors": ["asterisklint/pattern.py:Pattern.is_canonical", "asterisklint/dialplan.py:DialplanAggregator.on_dialplanvarset"]}
{"id": "C05", "title": "Extension matching decides the pattern language", "statement": "matches_extension(e) is True exactly when e (dashes removed) is in the language of the pattern: one character per element, '.' one or more, '!' zero or more, and nothing left over at the end.", "quantifier": "all patterns and all extension strings", "why_tests_cant": "infinite product of patterns and extensions", "anchors": ["asterisklint/pattern.py:Pattern.matches_extension"]}
{"id": "C06", "title": "The example extension of a pattern matches it", "statement": "For every pattern, the generated example is an extension which that pattern matches; it is used to resolve Goto targets that omit the extension.", "quantifier": "all patterns", "why_tests_cant": "range over all patterns, including sets whose lowest member is removed by matching", "anchors": ["asterisklint/pattern.py:Pattern.example", "asterisklint/pattern.py:Pattern.matches_extension", "asterisklint/dialplan.py:DialplanContext.add"]}
{"id": "C07", "title": "A priority is defined once, first definition wins", "statement": "In every context, after any sequence of context (re)openings and exten/same lines, no two stored extensions have the same canonical pattern and the same priority; a later duplicate is reported with E_DP_PRIO_DUPE and dropped, and a stored extension is never removed or changed by a later line.", "quantifier": "all sequences of lines, all contexts, all reopenings", "why_tests_cant": "invariant over histories of arbitrary length", "anchors": ["asterisklint/dialplan.py:DialplanContext.add", "asterisklint/dialplan.py:DialplanAggregator.on_dialplancontext", "asterisklint/dialplan.py:DialplanContext.update"]}
{"id": "C08", "title": "A label is defined once per pattern and the label indexes agree", "statement": "Labels are unique per canonical pattern within a context; a duplicate is reported with E_DP_LABEL_DUPE and wiped; the per-context label lookup and the global label lookup answer True exactly for labels carried by stored extensions.", "quantifier": "all sequences of lines", "why_tests_cant": "index/store agreement must hold after every history", "anchors": ["asterisklint/dialplan.py:DialplanContext.add", "asterisklint/dialplan.py:DialplanContext.has_label", "asterisklint/dialplan.py:Dialplan.has_label"]}
{"id": "C09", "title": "Priority n is the previously accepted priority plus one", "statement": "An exten/same line with priority n gets (last accepted priority in the whole file) + 1, also across contexts and patterns; without any earlier accepted priority it is refused with E_DP_PRIO_MISSING; W_DP_PRIO_BADORDER for n is raised exactly if the context has no accepted priority since it was (re)opened or its last stored extension has a different pattern. Stored priorities are always >= 1.", "quantifier": "all histories", "why_tests_cant": "depends on the entire preceding history, including refused lines", "anchors": ["asterisklint/dialplan.py:DialplanContext.add"]}
{"id": "C10", "title": "dialplan show lists every stored extension exactly once, sorted", "statement": "The by-pattern listing of a context is a permutation of its stored extensions, ordered by pattern, keeping file order within one pattern, and the memoised pattern list never goes stale whatever interleaving of additions, reopenings and listings.", "quantifier": "all interleavings of add/reopen/list", "why_tests_cant": "cache staleness depends on interleavings of unbounded length", "anchors": ["asterisklint/dialplan.py:DialplanContext.by_pattern", "asterisklint/dialplan.py:DialplanContext.get_sorted_patterns", "asterisklint/dialplan.py:Dialplan.format_as_dialplan_show"]}
{"id": "C11", "title": "Goto target lookup is sound and complete", "statement": "match_pattern finds a target exactly if one exists according to the declarative rule: a matching stored extension with that priority/label in the context or in any context reachable through includes, or (for numeric priorities) an 'i',1 in such a context; the extension returned satisfies the rule.", "quantifier": "all dialplans with acyclic includes, all targets", "why_tests_cant": "graph reachability over arbitrary include graphs", "anchors": ["asterisklint/dialplan.py:DialplanContext.match_pattern", "asterisklint/dialplan.py:Dialplan.get_context"]}
{"id": "C12", "title": "Checking Goto targets terminates", "statement": "match_pattern returns for every dialplan. (False for include cycles: recursion never ends; true exactly when no include cycle is reachable without a hit.)", "quantifier": "all include graphs", "why_tests_cant": "termination on all graphs cannot be tested", "anchors": ["asterisklint/dialplan.py:DialplanContext.match_pattern"]}
{"id": "C13", "title": "The Goto report is exact", "statement": "Walking the collected jump destinations raises exactly one of E_DP_GOTO_NOLABEL, E_DP_GOTO_NOCONTEXT, E_DP_GOTO_CONTEXT_NOLABEL, W_DP_GOTO_CONTEXT_NOEXTEN per unresolvable destination, in order, none for resolvable ones, and changes no other state.", "quantifier": "all dialplans and all destination lists", "why_tests_cant": "exactness over arbitrary collected destinations", "anchors": ["asterisklint/dialplan.py:Dialplan.walk_jump_destinations", "asterisklint/dialplan.py:Dialplan.add_jump_destination"]}
{"id": "C14", "title": "Blank lines never change the parsed configuration", "statement": "The vertical-whitespace checker passes every context, variable, line and foreign message through unchanged and in order, across include boundaries, whatever messages it raises; empty lines are delayed or dropped but never invented or repeated.", "quantifier": "all element sequences and all file boundaries", "why_tests_cant": "stream transformer over arbitrary sequences", "anchors": ["asterisklint/configws.py:VerticalSpaceWarner.__iter__"]}
{"id": "C15", "title": "Vertical whitespace messages are exact", "statement": "W_WSV_BOF/W_WSV_EOF/H_WSV_CTX_BETWEEN/H_WSV_VARSET_BETWEEN are raised exactly according to the run lengths of blank lines between elements of one file. (False for W_WSV_EOF/W_WSV_BOF in some include layouts: a file starting with an include, adjacent includes at the end, a file included twice.)", "quantifier": "all element sequences", "why_tests_cant": "state machine with per-file stack; all sequences", "anchors": ["asterisklint/configws.py:VerticalSpaceWarner", "asterisklint/configws.py:VswContext", "asterisklint/configws.py:VswContextStack"]}
{"id": "C16", "title": "#include behaves like textual insertion with exact positions", "statement": "For acyclic includes the sequence of (file, line number, text) seen by the parser is the recursive expansion: each file's lines in order, an include directive replaced by the expansion of the named file, and each line carrying its own file name and 1-based line number; a missing file contributes nothing but one W_PP_INCLUDE_MISSING for #include and none for #tryinclude.", "quantifier": "all file systems and all acyclic include trees", "why_tests_cant": "recursion depth and shape are unbounded", "anchors": ["asterisklint/file.py:BinFileReader.__iter__", "asterisklint/file.py:BinFileReader.include", "asterisklint/config.py:ConfigParser.preprocessor"]}
{"id": "C17", "title": "Reading always ends", "statement": "Reading a configuration ends for every file system. (False when a file includes itself, directly or not: the reader never yields an end; true for acyclic includes.)", "quantifier": "all file systems", "why_tests_cant": "non-termination cannot be observed by a test", "anchors": ["asterisklint/file.py:BinFileReader.__iter__", "asterisklint/config.py:ConfigParser.preprocessor"]}
{"id": "C18", "title": "Every line is decoded: UTF-8, else reported and decoded as cp1252", "statement": "A line that is valid UTF-8 is decoded exactly (re-encoding gives the same bytes); another line raises one E_FILE_UTF8_BAD and decodes bytewise as cp1252. (False for the five byte values undefined in cp1252: an exception escapes.)", "quantifier": "all byte strings", "why_tests_cant": "all byte sequences", "anchors": ["asterisklint/file.py:EncodingReader.__iter__", "asterisklint/file.py:NoCtrlReader.__iter__"]}
{"id": "C19", "title": "Line-ending messages are exact and line ends are removed exactly", "statement": "Each line is delivered without its CR LF / LF, nothing else is removed; DOS or UNIX is decided by the first line of each file; the W_FILE_DOS_* and W_FILE_UNIX_* messages are raised exactly for the lines/files that deviate; the internal assertion never fails.", "quantifier": "all files, all include nestings", "why_tests_cant": "all sequences of line endings over a stack of files", "anchors": ["asterisklint/file.py:FileformatReader.__iter__"]}
{"id": "C20", "title": "Comment splitting is exact", "statement": "A line without backslash is split at its first ';': data plus comment give back the line, the data has no trailing whitespace; an escaped semicolon stays in the data without its backslash; W_WSH_COMMENT is raised exactly if a comment directly follows non-space data, W_WSH_EOL exactly if a line ends in whitespace.", "quantifier": "all strings", "why_tests_cant": "all positions and combinations of semicolons, backslashes and whitespace", "anchors": ["asterisklint/file.py:AsteriskCommentReader.__iter__"]}
{"id": "C21", "title": "Line classification is unambiguous and lossless", "statement": "Each data line is exactly one of: context header, object (=>), variable (=), blank, preprocessor directive, or reported bad line; for assignments the key is the text before the first '=' without trailing whitespace, the value everything after the separator, and key+separator+value is the line.", "quantifier": "all strings", "why_tests_cant": "overlapping regular expressions with lazy and greedy quantifiers over all strings", "anchors": ["asterisklint/config.py:ConfigParser.regexes", "asterisklint/config.py:ConfigParser.__iter__"]}
{"id": "C22", "title": "ALINT_IGNORE mutes exactly the chosen messages; exit status is exact", "statement": "A message class is printed iff none of the comma separated ALINT_IGNORE prefixes matches it; the check commands exit with 1 iff at least one printed (not muted) message was raised; muting never changes which messages are raised.", "quantifier": "all ALINT_IGNORE strings, all raise histories", "why_tests_cant": "all histories and all environment values", "anchors": ["asterisklint/defines.py:MessageDefManager", "asterisklint/mainutil.py", "asterisklint/commands/dialplan-check.py"]}
{"id": "C23", "title": "The linter survives every input file", "statement": "Linting a file produces messages and an exit status, never an uncaught exception. (False: the faithful model has a list of crashing inputs; the file and config layers are proved free of exceptions except for the named causes.)", "quantifier": "all byte contents of all files", "why_tests_cant": "absence of exceptions over all inputs", "anchors": ["asterisklint/dialplan.py:DialplanVarset.from_varset", "asterisklint/dialplan.py:Dialplan.add_general", "asterisklint/config.py:ConfigAggregator.__iter__", "asterisklint/defines.py:MessageDef.__init__"]}
{"id": "C24", "title": "Argument separation loses nothing in raw mode", "statement": "separate_args without quote removal returns arguments that, joined by the delimiter, give back the data; with quote removal each result is the raw argument minus its unescaped quotes and escaping backslashes.", "quantifier": "all argument data, with variables embedded, all delimiters", "why_tests_cant": "all strings with nested brackets, quotes and escapes", "anchors": ["asterisklint/app/base.py:AppBase.separate_args"]}
{"id": "C25", "title": "Arguments are split exactly at top-level delimiters", "statement": "separate_args splits exactly at the delimiters outside quotes, brackets and parentheses, as defined by a declarative nesting-depth specification.", "quantifier": "all argument data", "why_tests_cant": "all nestings", "anchors": ["asterisklint/app/base.py:AppBase.separate_args"]}
{"id": "C26", "title": "Jump applications terminate on any number of arguments", "statement": "Goto, GotoIf, GotoIfTime, Gosub, GosubIf return on every argument list, delivering a context/extension/priority triple. (False for Goto-style applications with more than three arguments: the padding loop never ends.)", "quantifier": "all argument strings", "why_tests_cant": "non-termination cannot be tested", "anchors": ["asterisklint/app/vall/builtin.py:Goto", "asterisklint/app/vall/builtin.py:GotoIf", "asterisklint/app/vall/app_stack.py:Gosub"]}
{"id": "C27", "title": "Parsing variables and printing them gives back the text", "statement": "For every application argument without a syntax error, str(parse_variables(s)) == s.", "quantifier": "all strings", "why_tests_cant": "all nestings of ${}, $[] and function calls", "anchors": ["asterisklint/varfun.py:VarLoader.parse_variables", "asterisklint/variable.py:Var.__str__"]}
{"id": "C28", "title": "A variable syntax error is reported exactly for unterminated expressions", "statement": "VarLoader.parse_variables raises VarParseError (reported as E_APP_PARSE_ERROR) only if some '${' or '$[' it comes across has no closing bracket, never returns a value for such a text, returns text without them unchanged, and always ends.", "quantifier": "all strings", "why_tests_cant": "all bracket structures", "anchors": ["asterisklint/varfun.py:VarLoader.parse_variables"]}
{"id": "C29", "title": "Variable slices take the substring Asterisk would", "statement": "For every offset and length text: numbers that are no integers, useless offsets and lengths are reported, everything else is accepted without a failed assertion; formatting an accepted ${var:off:len} with a value gives the substring Asterisk takes (negative offset counts from the end, negative length stops before the end).", "quantifier": "all offsets, lengths and values", "why_tests_cant": "all integers and strings", "anchors": ["asterisklint/variable.py:SliceMixin", "asterisklint/variable.py:VarSlice", "asterisklint/varfun.py:VarLoader"]}
{"id": "C30", "title": "Balance checking accepts exactly the balanced texts", "statement": "variable_check_balance of a str or Var raises ValueError exactly for data outside the grammar of balanced (), [], {} and single/double quotes, in which everything inside quotes but the closing quote is ignored and variables count for nothing.", "quantifier": "all strings", "why_tests_cant": "a context-free language", "anchors": ["asterisklint/variable.py:variable_check_balance"]}
{"id": "C31", "title": "Var join and split are inverse", "statement": "Var.join concatenates texts and keeps variables in order; splitting at a separator and joining with it gives back the value; at most maxsplit splits are made.", "quantifier": "all token lists", "why_tests_cant": "all interleavings of strings and variables", "anchors": ["asterisklint/variable.py:Var.join", "asterisklint/variable.py:Var.split", "asterisklint/variable.py:strjoin"]}
{"id": "C32", "title": "could_match is exactly matchability", "statement": "A priority built from text and variables could_match a label or number iff replacing each variable by some text gives it.", "quantifier": "all token lists and targets", "why_tests_cant": "existential over all substitutions", "anchors": ["asterisklint/variable.py:Var.could_match"]}
{"id": "C33", "title": "Application and function lookup does not depend on history", "statement": "Looking up an application or function returns the registered entry for that name whatever was looked up before; unknown names are reported at every use and never become known; registration order does not matter.", "quantifier": "all lookup histories, all registration orders", "why_tests_cant": "all histories", "anchors": ["asterisklint/application.py:AppLoader", "asterisklint/varfun.py:FuncLoader"]}
{"id": "C34", "title": "The first spelling of Background is the reference", "statement": "Among all uses of Background/BackGround in a run, W_APP_BAD_CASE is raised exactly for uses differing from the first accepted spelling; the outcome depends on nothing else.", "quantifier": "all histories of uses", "why_tests_cant": "history dependent", "anchors": ["asterisklint/app/vall/builtin.py:Background"]}
{"id": "C35", "title": "The file mutator changes only the lines with issues", "statement": "For issues in strictly ascending line order, the rewritten file is the old file with exactly those lines replaced by the result of process_issue; all other lines are kept byte for byte. (False for duplicate or unsorted issues: later ones are dropped.)", "quantifier": "all files and issue lists", "why_tests_cant": "all files and issue lists", "anchors": ["asterisklint/helper/mutator.py:FileMutatorBase.process_file"]}
{"id": "C36", "title": "The file mutator never leaves a half-written file", "statement": "At every crash point, and for every I/O error, the file being rewritten has either its complete old or its complete new content; on an exception while writing the temporary file is removed.", "quantifier": "all crash points, all I/O errors", "why_tests_cant": "crash points cannot be enumerated by running tests", "anchors": ["asterisklint/helper/mutator.py:FileMutatorBase.process_file"]}
{"id": "C37", "title": "func_odbc keys: first wins, order checked", "statement": "In every func_odbc.conf section the stored keys are distinct and each is the first one of its name; a repeated key is reported with E_CONF_KEY_DUPE (naming the first) and ignored, a key documented before the previously stored one is reported with W_CONF_KEY_LATE and kept, an unknown key is reported with E_CONF_KEY_INVALID and ignored. After the whole file has been read, exactly one function PREFIX_NAME (PREFIX is ODBC unless set) is registered per section that has a read, write, readsql or writesql key; every other section gets E_ODBC_NOSQL. The run fails only if reading fails or a registered name contains a NUL.", "quantifier": "all sequences of sections and keys; all files", "why_tests_cant": "all key sequences", "anchors": ["asterisklint/func_odbc.py"]}
{"id": "C38", "title": "The Asterisk version and the singletons are fixed after first use", "statement": "Once created, the version singleton has the same value for the rest of the run over every history of constructor calls; a conflicting later request raises.", "quantifier": "all call histories", "why_tests_cant": "history dependent", "anchors": ["asterisklint/cls.py:Singleton", "asterisklint/version.py:AsteriskVersion"]}
{"id": "C39", "title": "Help text wrapping keeps all words", "statement": "wrap() keeps the words of the text in order, and no produced line is longer than the width unless it is a single word.", "quantifier": "all texts and widths", "why_tests_cant": "all texts", "anchors": ["asterisklint/main.py:wrap"]}
{"id": "C40", "title": "Command names cannot escape the command package", "statement": "A command name accepted by the command-line front end contains no path separator, dot or NUL, so that loading it stays within the command packages.", "quantifier": "all strings", "why_tests_cant": "all strings", "anchors": ["asterisklint/main.py:COMMAND_RE", "asterisklint/main.py:load_command"]}
{"id": "C41", "title": "ident-scan gives the same answer on every run", "statement": "The identifiers reported as similar and the exit status of ident-scan depend only on the dialplan, not on set/hash order. (False.)", "quantifier": "all identifier sets, all iteration orders", "why_tests_cant": "hash randomisation: a test run sees one order", "anchors": ["asterisklint/commands/ident-scan.py"]}
{"id": "C42", "title": "modules-show exit status", "statement": "modules-show exits with failure exactly if the dialplan uses an unknown application or function, and lists exactly the modules of the known ones used.", "quantifier": "all dialplans", "why_tests_cant": "all usage histories", "anchors": ["asterisklint/commands/modules-show.py"]}
{"id": "C43", "title": "Web requests are isolated", "statement": "The response to a request depends only on that request, not on earlier ones. (False after a request that raised: its messages leak; and the Background spelling leaks.)", "quantifier": "all request histories", "why_tests_cant": "history dependent", "anchors": ["web/wsgi.py"]}
{"id": "C44", "title": "Every message can be printed", "statement": "Every place that raises a message supplies every placeholder of that message's template, so raising a message never raises KeyError. (False for E_DP_LABEL_INVALID and W_FUNC_DYNAMIC.)", "quantifier": "all raise sites, all arguments", "why_tests_cant": "a raise site is only exercised if a test happens to trigger it", "anchors": ["asterisklint/defines.py:MessageDef", "asterisklint/dialplan.py:DialplanVarset.from_varset", "asterisklint/function.py"]}
{"id": "C45", "title": "Template headers are recognised", "statement": "A header line [name](list) opens the context name with that template list. (False: the regular expression accepts a single character other than '+' between the parentheses; any longer list is reported as a bad line and the context is lost.)", "quantifier": "all names and template lists", "why_tests_cant": "the regular expression accepts every one-character list a test is likely to use; the claim ranges over all lists", "anchors": ["asterisklint/config.py:ConfigParser.regexes"]}
{"id": "C46", "title": "The text of an exten or same line is split exactly", "statement": "A line exten => pattern,priority(label),application or same => priority(label),application is taken apart at the first two commas (the first one for same) and at the first parenthesis of the priority; the line is accepted with exactly these parts and with exactly the messages of its parts iff the declarative reading of the text exists.", "quantifier": "all variable lines, all pattern/priority/application texts", "why_tests_cant": "the split depends on commas and parentheses anywhere in the text", "anchors": ["asterisklint/dialplan.py:DialplanVarset.from_varset", "asterisklint/dialplan.py:Extension"]}
{"id": "C47", "title": "A line is decoded, checked, and split from its comment exactly", "statement": "For every state of the reader and every line of bytes: the text is the UTF-8 decoding (or cp1252 with E_FILE_UTF8_BAD), W_FILE_CTRL_CHAR is raised exactly if it contains a C0 control other than tab, LF, CR; line end, trailing blanks (W_WSH_EOL) and comment (W_WSH_COMMENT if it directly follows data) are removed; messages come in that order.", "quantifier": "all byte lines, all reader states", "why_tests_cant": "composition of four layers over all byte strings", "anchors": ["asterisklint/file.py:NoCtrlReader", "asterisklint/file.py:EncodingReader", "asterisklint/file.py:AsteriskCommentReader", "asterisklint/file.py:FileReader"]}
{"id": "C48", "title": "Messages point to real lines", "statement": "Every message raised while checking a dialplan or func_odbc.conf carries the name of a file that was read, a line number and a text such that this line of this file has exactly this text (also for the previous occurrence it mentions); only H_DP_GENERAL_MISPLACED and H_DP_GLOBALS_MISPLACED may be about the file as a whole (line 0).", "quantifier": "all file systems, all include structures, all runs including those that crash", "why_tests_cant": "positions pass through decoding, include stacks, aggregation and deferred checks; tests compare a handful of positions", "anchors": ["asterisklint/file.py:FileReader", "asterisklint/config.py:ConfigParser", "asterisklint/dialplan.py:DialplanAggregator", "asterisklint/defines.py:MessageDef", "asterisklint/where.py:Where"]}
{"id": "C49", "title": "What is said about the arguments of an application is exact", "statement": "Whenever the check of an application line ends normally, the messages are exactly, and in this order: those on the missing parentheses and the space around the name; on the spelling of the name; those of the variables in the data; then, by kind of application, too few or too many arguments, unknown and duplicate option letters with the number of the argument, a pipe used as delimiter, the form of cond?iftrue:iffalse (too many, missing, comma style, empty condition, constant condition), the assignment of Set (empty, no equals sign, spaces, function written to and its spelling; data that is not one variable alone), and unbalanced brackets. Gosub and GosubIf have exactly the destinations written, without the arguments of the subroutine.", "quantifier": "all lines, all tables of applications and functions", "why_tests_cant": "the data is any mix of text, escapes, brackets and variables; tests list one line per message", "anchors": ["asterisklint/app/base.py:AppBase", "asterisklint/app/base.py:IfStyleApp", "asterisklint/app/base.py:MinMaxArgsMixin", "asterisklint/app/vall/app_stack.py:Gosub", "asterisklint/application.py:App", "asterisklint/varfun.py:VarLoader"]}
{"id": "C50", "title": "The plain configuration parser returns the sections as written", "statement": "For every file, the sections returned are exactly the headers in order, each with exactly the settings between it and the next header (repeated keys and repeated headers kept apart); every setting before the first header gives E_CONF_CTX_MISSING at its own place between the messages of the reader, and nothing else is said; the parser ends abnormally exactly if reading the file does, with the same exception.", "quantifier": "all file systems, all files", "why_tests_cant": "tests look at one or two sections; the rule is about every sequence of lines and every interleaving of messages", "anchors": ["asterisklint/config.py:ConfigAggregator", "asterisklint/configobj.py:Context", "asterisklint/__init__.py:FileConfigParser"]}
{"id": "C51", "title": "The VoIPGRID reader splits comments and joins lines exactly", "statement": "For every sequence of lines: the comment of a line starts at the first semicolon that stands outside quotes and parentheses (nested groups count, parentheses in double quotes do not), together with the blanks before it; a line starting with a blank is appended to the line before, unless that is a preprocessor line or there is none; W_WSH_EOL, W_WSH_COMMENT and W_WSH_BOL (continuation of a line without data) are given exactly for these lines and in order; no character is lost.", "quantifier": "all lines, all sequences of lines", "why_tests_cant": "nesting is unbounded and the reader looks one line ahead; the repository has no tests of this reader", "anchors": ["contrib/commands/vg.py:VoipgridCommentReader", "contrib/commands/vg.py:voipgrid_comment_split"]}
{"id": "C52", "title": "ls lists each available command once and what is listed is what is run", "statement": "For every list of command directories, `ls` shows every command that some directory has exactly once, below the first directory that has it, directories and names in order, with the text its own module gives; the order in which the system lists a directory does not matter; no page is shown exactly if importing an available command raises something other than ImportError; the listed file is the file main runs for that name; a directory of the user comes first.", "quantifier": "all directory lists, all directory contents and listing orders, all module outcomes", "why_tests_cant": "the answer depends on the order of directories and of os.listdir, which a test machine fixes; there are no tests of main", "anchors": ["asterisklint/main.py:list_commands", "asterisklint/main.py:load_command", "asterisklint/main.py:main"]}
{"id": "C53", "title": "func_odbc-annotate writes every function with its queries, in order", "statement": "For every func_odbc configuration, the command prints the preamble, then for every section in order its name, its insert, read and write queries (those present, in this order), the columns of a SELECT numbered from 1, each query ended by exactly one semicolon; if it ends early what was printed before stays printed; the rules determine the output.", "quantifier": "all files, all results of sqlparse, sqlparse installed or not", "why_tests_cant": "there are no tests of this command, and the result depends on a library that may be missing", "anchors": ["asterisklint/commands/func_odbc-annotate.py", "asterisklint/func_odbc.py:OdbcQuery"]}
{"id": "C54", "title": "ident-scan lists and compares every context, label and variable", "statement": "For every dialplan that is read: with -v the command prints every context name, every label that belongs to a stored extension and every variable name that is used, each once and in order of its lower case form (names equal but for case in the order of the file), for a variable with the number of its uses and of the files that use it; it then compares exactly the set of these names (similar names as in C41) and its status is 1 exactly if some are similar; without editdistance the status is 0 with -v and ImportError without; if reading fails nothing is printed and the exception is passed on; if no two names differ only in case, the iteration order of Python sets does not matter.", "quantifier": "all file systems, dialplans, tables, set orders, distance functions", "why_tests_cant": "set iteration order changes from run to run (hash randomisation), and counts range over all uses in all included files; there are no tests of this command", "anchors": ["asterisklint/commands/ident-scan.py:Main.handle_args", "asterisklint/commands/ident-scan.py:Main.print_variables", "asterisklint/varfun.py:VarLoader.count_var"]}
{"id": "C55", "title": "With the VoIPGRID parser a repeated context replaces the earlier one", "statement": "For every list of elements: the VoIPGRID dialplan parser gives one context per name, in the order of the last headers; messages, extensions and includes are those of the ordinary rules (C07-C09) applied to the same lines with every repeated earlier header renamed to a new name and the renamed contexts left out at the end; the labels and jumps of the wiped contexts stay (so wiping leaves a trace), a second [general] or [globals] ends the run with a ProgrammingError, and nothing else does that the ordinary rules do not; a file without repeated headers is read exactly as by the ordinary parser. The parser for plain configuration files never replaces anything.", "quantifier": "all lists of elements, all tables", "why_tests_cant": "there are no tests of this module; the interplay of wiped contexts with remembered priorities, labels and jumps needs every order of sections", "anchors": ["contrib/commands/vg.py:VoipgridFileDialplanParser", "contrib/commands/vg.py:VoipgridFileConfigParser", "asterisklint/dialplan.py:DialplanAggregator"]}
{"id": "C56", "title": "The 1.4 to 1.1 dialplan converter rewrites exactly the reported data", "statement": "For every data and every line: E_APP_ARG_IFSTYLE is reported exactly for data that has a comma-separated second argument and no question mark part; for ExecIf the converter writes one line, in which the first occurrence of the text of the data is replaced by cond?app(args), or nothing at all with an AssertionError if the text does not occur; data of the new form is not reported again. For the other applications that report it (GotoIf, GosubIf, GotoIfTime, ExecIfTime) the run ends with NotImplementedError. That the replaced text is the data of the application is false: the same text may occur earlier in the line.", "quantifier": "all token sequences, all lines", "why_tests_cant": "no tests of this script exist; nesting of parentheses, variables and question marks in arguments is unbounded", "anchors": ["contrib/convert_dp_104_to_1100.py:ConvertDp104To1100Mutator.process_issue", "asterisklint/app/base.py:AppArgsMixin"]}
{"id": "C57", "title": "What a text with substitutions stands for, and everything said about it", "statement": "For every text and every table of functions: reading it succeeds exactly if the text stands for a sequence of characters and variables by the rules (first opening bracket, matching close, inside first, then the name, substring, function call, arguments, tail), the value is that sequence and the log (messages, uses of variables and functions, in order) is exactly what the rules give; it ends with a parse error exactly if a bracket met on the way is not closed, with everything to its left logged; for the data of an application that is one message and the whole data as text. Any other text ends the run with an exception.", "quantifier": "all texts, all function tables, all unicode tables that are right for ASCII", "why_tests_cant": "substitutions nest without bound and the messages of offsets, lengths, function arguments and nested assignments interact", "anchors": ["asterisklint/varfun.py:VarLoader.parse_variables", "asterisklint/varfun.py:VarLoader._process_variable", "asterisklint/application.py:App.parse_inner"]}
{"id": "C58", "title": "Everything said about the line of an application, and its jump destinations", "statement": "For every text of an application, every table of applications and functions: reading it succeeds exactly if the rules for lines apply (name and parentheses, spelling, the data as in C57, then the checks of the kind of application: brackets, assignments, counts, options, pipes, conditions, jumps, and for ExecIf the same rules for the text of each branch), and then the log (messages with their arguments, uses of applications, functions and variables, in order) and the list of jump destinations are exactly those of the rules. The rules give at most one log and one list.", "quantifier": "all texts, all tables, all unicode tables that are right for ASCII", "why_tests_cant": "ExecIf nests without bound and the checks of conditions, old-style arguments, substitutions and jumps interact; a test sees a few lines", "anchors": ["asterisklint/application.py:App", "asterisklint/app/base.py:AppArgsMixin.separate_args", "asterisklint/app/base.py:IfStyleApp", "asterisklint/app/vall/builtin.py", "asterisklint/app/vall/app_stack.py"]}
{"id": "C59", "title": "Everything said in a run of dialplan-check", "statement": "For every dialplan file, func_odbc.conf, environment and table of applications and functions: dialplan-check has an exit status exactly if the rules apply to its files (reading func_odbc.conf, registering its functions, the lines of the dialplan one after the other against the history before them, the end of the file, then each jump destination against the contexts that were read), and then its messages in order, those that are printed and the exit status are exactly the ones of the rules. The rules give at most one outcome. No line, text or extension is excepted.", "quantifier": "all file systems and file names, all ALINT_IGNORE values, all tables, all unicode tables that are right for ASCII", "why_tests_cant": "the order of the messages of the reader, of lines, of sections and of jumps, and which lines, jumps and include cycles end the process, depend on the whole file", "anchors": ["asterisklint/commands/dialplan-check.py", "asterisklint/dialplan.py:Dialplan", "asterisklint/dialplan.py:DialplanContext.match_pattern", "asterisklint/func_odbc.py:FuncOdbcAggregator", "asterisklint/mainutil.py:load_func_odbc_functions"]}
{"id": "C60", "title": "From the bytes of the files to everything said and the exit status", "statement": "For every file system and file name: reading the file with the files it includes ends exactly if the rules give an outcome, and then the events (lines, elements and messages, in order) and the end (normal, or the exception) are theirs. The rules say how each line is decoded and split, what it is, that the first line of a file decides its format, when the messages about the end of an included file are given, what an include directive opens, and for every sequence of elements which messages about empty lines are given and which empty lines pass. With C59, for dialplan-check and func_odbc-check: the process has an exit status exactly if the rules apply to the files, and then the messages, the output and the status are theirs.", "quantifier": "all file systems and file names, any depth and order of includes, files included repeatedly, all ALINT_IGNORE values, all tables", "why_tests_cant": "the order of messages depends on the include structure (messages about an included file come with a later line of another file) and there is no bound on it; undecodable lines and unreadable files end the run at any point", "anchors": ["asterisklint/file.py:BinFileReader", "asterisklint/file.py:FileformatReader", "asterisklint/config.py:ConfigParser", "asterisklint/configws.py:VswContextStack", "asterisklint/commands/dialplan-check.py", "asterisklint/commands/func_odbc-check.py"]}
{"id": "C61", "title": "The text printed about the messages", "statement": "For every run of dialplan-check and func_odbc-check that ends with an exit status, what is written to stderr is exactly one line for each message shown, in order: the file, a colon, the line number, the name of the class, a colon and the words, where the words are the template of the class with each value filled in, in quotes where the template asks for it. A text in quotes has only printable characters, and read as Python reads a literal gives back the text. From a line the file, the line number and the class can be told, if no file has a space in its name. Words exist exactly if formatting the message does not fail. The text is determined by the files unless an object is shown by its address (which happens: two runs over the same files may print different texts). Nothing in the files can put a line end into such a line: if the names given on the command line have none, the lines on stderr and the messages shown correspond one to one, for runs that end in an exception too.", "quantifier": "all runs, all values, all texts over Unicode, all addresses, every notion of printable characters", "why_tests_cant": "templates are filled with texts from the files; quoting has to be right for every text (quotes, backslashes, control characters, characters beyond the BMP), and tests see one sequence of addresses", "anchors": ["asterisklint/defines.py:MessageDefManager.on_message", "asterisklint/defines.py:MessageDef", "asterisklint/where.py:Where.__str__"]}
{"id": "C62", "title": "What dialplan-show and modules-show print, from the bytes of the files", "statement": "dialplan-show prints a text exactly if the files can be read and every line of the dialplan obeys the rules of C59, and then the text is determined by them: for each context, in the order in which the contexts are first opened (or the other way round with --reverse), a heading with its name in quotes, the stored extensions sorted by pattern and in file order within a pattern, each in its columns with the pattern, or the label if the pattern is that of the line before, the priority and the application, then the includes, then an empty line; exit status 0. No text in the files puts a line end into such a line, so that there are exactly two lines for a context and one for each stored extension and each include. --reverse turns the order of the contexts and nothing else. modules-show prints, from the same rules and those of func_odbc.conf, exactly the page of C42 with its exit status; the stand-in for unknown functions is never replaced by one from func_odbc.conf.", "quantifier": "all files and file systems, all tables with the stand-ins, both orders, every notion of printable characters, all runs without a bound on their length", "why_tests_cant": "the output depends on every line of every included file; the tests compare a few listings, with reading, sorting, duplicate handling and formatting exercised together on small dialplans", "anchors": ["asterisklint/commands/dialplan-show.py:Main.handle_args", "asterisklint/commands/modules-show.py:Main.handle_args", "asterisklint/dialplan.py:Dialplan.format_as_dialplan_show"]}
{"id": "C63", "title": "The web service: a response is determined by its upload and by what failed requests left", "statement": "For every sequence of requests and every request after it, the service answers with issues exactly if the body is allowed (no threads, at most 65536 bytes), holds a text under files/extensions.conf that can be encoded, the file obeys the rules of C59 and C60 to its end, and every message left by requests that failed since the last one that ended has words; the issues are then those messages together with the messages of this upload (whose spelling of Background is judged by everything said by all requests), ordered by line and class and else in the order they were raised, each with its line, class and words (C61). If no Background is used, the response is the one a new server would give exactly if no messages were left. A longer body gives 413; 400 is given exactly for a threaded server or if the upload, having been read and handled up to there, includes a file of another name; an upload that includes anything is never answered with issues.", "quantifier": "all sequences of requests, all bodies, all uploads, all tables, every notion of printable characters, without a bound on the length of runs", "why_tests_cant": "the state left by failed requests only shows in later responses; no test sends two requests, and there is none for the web service at all", "anchors": ["web/wsgi.py:DialplanCheck.on_post", "web/wsgi.py:collect_messages", "web/wsgi.py:UploadedFileOpener.__call__", "web/wsgi.py:max_body", "web/wsgi.py:EnvironmentCheckMiddleware.process_request"]}
{"id": "C64", "title": "The test harness: what a passing test shows, and what the list of untested messages leaves out", "statement": "For every sequence of raised messages, calls of assertLinted and exceptions in a test, the test passes exactly if up to each call, and from the last one to the end, the messages raised are, class by class and in number, those stated, apart from ignored classes, which may not be stated; a value of ignoreLinted is a name or a beginning with an asterisk (TypeError or ValueError for the first that is not), and with decorators on the class and on the test those of the class alone count. A test leaves nothing to the next: in a run each test has the verdict it has alone, except that what is raised before the first test counts as raised by it. The list at the end names exactly the classes of messages that no test counted, each once and in order; ignored messages count as tested, messages after which the test raised an exception do not. A generated class has under each name the last of the argument lists that give this name, else what was written there; every argument list has its test exactly if no two give the same name. Refuted: both decorators are in force; every message raised is counted; a test written by hand is kept (test_Goto in tests/application/test_applist.py is not); different argument lists have different tests.", "quantifier": "all tests and runs of tests, all values of decorators, all class bodies and argument lists", "why_tests_cant": "it is the harness by which all other tests are judged; its own tests are eight cases, and a test that is replaced by a generated one disappears without a trace", "anchors": ["asterisklint/alinttest.py:ALintTestCase.assertLinted", "asterisklint/alinttest.py:ALintTestCase.tearDown", "asterisklint/alinttest.py:ALintTestResult.stopTest", "asterisklint/alinttest.py:ALintTestResult.print_untested", "asterisklint/alinttest.py:GenerateTestCases", "asterisklint/alinttest.py:_IgnoreLinted"]}
{"id": "C65", "title": "ident-scan from the bytes of the files: all outcomes, and no others", "statement": "For every file system, dialplan, tables, options and distance function, the lines and the exit status that ident-scan can have are exactly those by the rules: the file with everything it includes is read by the rules of the reader and of the dialplan; with -v the contexts in the order of their names, the labels of the stored extensions, and the variables with the number of their uses and of the files; then each name with a similar neighbour, by name or by length, on a line with all of them, lines of names that differ only in case in the order in which they were found. Each outcome by the rules happens for some order of the two sets of Python, and no order gives another. If no two names differ only in case there is one outcome.", "quantifier": "all file systems, tables, options, distance functions, set orders", "why_tests_cant": "the order of sets changes from run to run, and the outcome can change with it; there are no tests of this command", "anchors": ["asterisklint/commands/ident-scan.py:Main.handle_args", "asterisklint/commands/ident-scan.py:Main.print_distance", "asterisklint/dialplan.py", "asterisklint/varfun.py:VarLoader.count_var"]}
{"id": "C66", "title": "make_patterns_canonical from the files to the files", "statement": "For every disk, dialplan, tables and answer: the script prints and rewrites exactly what the rules say. The dialplan with everything it includes is read by the rules of the reader and of the dialplan; the files with a hint about a pattern are listed in the order of their names; only the answer \"y\" has any of them rewritten, and a dialplan that cannot be read leaves all files alone. At every point of every execution, whatever fails, a beginning of that list is rewritten and everything else on the disk is as it was, but for one temporary file; on success the whole list is. In a rewritten file that was read once, every line without a hint is as it was, and in a line with a hint the pattern behind exten => (and nothing else) is replaced by its canonical form, if it starts with an ASCII character, is free of semicolons and, where not ASCII, the line is UTF-8. A line with a hint never makes the rewriting fail.", "quantifier": "all disks, tables, answers, executions with any failures", "why_tests_cant": "the script has no tests; it overwrites configuration, and which lines it touches depends on all messages of the whole dialplan, on encodings and on the order of the includes", "anchors": ["contrib/make_patterns_canonical.py:Aggregator.on_message", "contrib/make_patterns_canonical.py:MakePatternsCanonicalMutator.process_issue", "asterisklint/helper/mutator.py:FileMutatorBase.request_permission_and_process", "asterisklint/pattern.py:Pattern"]}
{"id": "C67", "title": "the VoIPGRID reader over a file and what it includes", "statement": "For every file system and file the VoIPGRID parser (lines folded, comments by nesting) gives exactly what the rules say: outcome, lines, elements and messages in their order, those about line ends among them. A line waits until it is known whether the next one read, of whatever file, continues it; a line that starts with # is given at once; an included file is looked for when its line is given and its lines are read next; after the last line the waiting one is given and what it includes is not read. The given lines are the lines read, unfolded; all lines of the file are read in order; and if no directive is behind blanks every file is read where it is included.", "quantifier": "all file systems and file names, all ended runs", "why_tests_cant": "there are no tests of this reader; what is read depends on how a generator that holds a line back interleaves with a stack of open files, for all nestings of includes", "anchors": ["contrib/commands/vg.py:VoipgridCommentReader.__iter__", "contrib/commands/vg.py:VoipgridFileReader", "asterisklint/file.py:BinFileReader.__iter__", "asterisklint/config.py:ConfigParser.preprocessor"]}
{"id": "C68", "title": "everything vg dialplan-check says", "statement": "For every file system, dialplan and tables the VoIPGRID variant of dialplan-check says exactly what the rules say, in order: its reader gives the lines, the rules of the ordinary check hold for them with every section that comes again later put aside under another name, jumps are held against the sections that stay (a jump without a context goes to its section as it is called now), except that a label in a context that is not known is looked for in all sections ever read. A second [general] or [globals] ends the run. The exit status is 1 exactly if some message is not silenced. All messages are at lines of the files that were read. For a file without repeated headers that both readers read alike it does what dialplan-check does.", "quantifier": "all file systems, file names, tables, environments", "why_tests_cant": "there are no tests of this command; what is reported depends on the whole sequence of headers, and on state (jumps, labels, last extension) that survives the removal of a section", "anchors": ["contrib/commands/vg.py:VoipgridFileDialplanParser.on_context", "contrib/commands/vg.py:Command.handle_args", "asterisklint/dialplan.py:Dialplan.walk_jump_destinations", "asterisklint/commands/dialplan-check.py:Command.handle_args"]}
{"id": "C69", "title": "vg dialplan-check and vg func_odbc-check from the bytes of the files to the printed text", "statement": "For all file systems, tables, addresses and environments: a run of vg dialplan-check or vg func_odbc-check ends with an exit status if and only if the rules say something for the files - the VoIPGRID reader (C67), the messages about empty lines, the functions of func_odbc.conf, the dialplan with repeated sections wiped (C68), the jumps - and then what is raised, what is printed, the exit status and the text on stderr are those of the rules, which determine them. The reader never ends exactly for the files for which the rules have no outcome, as for a file that includes itself. Every message that is printed is one line of the text, if the names given on the command line have no line end in them.", "quantifier": "all file systems, tables, options, environments; no bound on the length of the run", "why_tests_cant": "there are no tests of the VoIPGRID commands; the text depends on all bytes of all files that are read", "anchors": ["contrib/commands/vg.py:Main.handle_args", "contrib/commands/vg.py:VoipgridFileFuncOdbcParser", "asterisklint/commands/func_odbc-check.py:Main.handle_args", "asterisklint/commands/dialplan-check.py:Main.handle_args"]}
{"id": "C70", "title": "what vg dialplan-show and vg modules-show print, from the bytes of the files", "statement": "For all file systems, tables and addresses: vg dialplan-show ends with an output if and only if the rules give one for the files - the VoIPGRID reader (C67), sections wiped when they come again (C68), the listing of the extensions (C10) - and then the text and the exit status are those of the rules, which determine them. Each section is shown once, in the order of the last headers, with the extensions and includes that follow its last header; every section, extension and include is on lines of its own, and --reverse only turns the order of the sections. Where the readers agree and no header is repeated it is the output of dialplan-show. vg modules-show prints the page for everything that was looked up, in wiped sections too.", "quantifier": "all file systems, tables, options; no bound on the length of the run", "why_tests_cant": "there are no tests of the VoIPGRID commands; which sections stay depends on all headers of all files", "anchors": ["contrib/commands/vg.py:Main.handle_args", "contrib/commands/vg.py:VoipgridFileDialplanParser.on_context", "asterisklint/commands/dialplan-show.py:Main.handle_args", "asterisklint/commands/modules-show.py:Main.handle_args"]}
{"id": "C71", "title": "what vg ident-scan and vg func_odbc-annotate print, from the bytes of the files", "statement": "For all file systems, tables, orders of sets and edit distances: the lines and the exit status of vg ident-scan are those that the rules allow for the files, and each outcome of the rules happens for some order of the sets. With the VoIPGRID reader (C67), a section that comes again counts once among the contexts, while the labels and variables of the wiped section are still listed and compared. If no two names differ only in case there is one outcome. Where the readers agree and no header is repeated it is the outcome of ident-scan. vg func_odbc-annotate prints, for every sqlparse or without it, the preamble once the file is open and the sections once it is read to its end; a section that comes again is shown again; the output and the outcome are those of the rules, which determine them, and where the readers agree they are those of func_odbc-annotate.", "quantifier": "all file systems, tables, options, iteration orders, sqlparse and editdistance functions; no bound on the length of the run", "why_tests_cant": "there are no tests of the VoIPGRID commands; which names count depends on all headers of all files, and the outcome on hash orders that a test run shows one of", "anchors": ["contrib/commands/vg.py:Main.handle_args", "contrib/commands/vg.py:VoipgridFileDialplanParser.on_context", "contrib/commands/vg.py:VoipgridFileFuncOdbcParser.on_context", "asterisklint/commands/ident-scan.py:Main.handle_args", "asterisklint/commands/func_odbc-annotate.py:Main.handle_args"]}
{"id": "C72", "title": "a command that cannot be loaded is reported, by asterisklint and by vg alike", "statement": "For every name, list of command directories and every result of executing a file: what load_command gives, with the words of its exceptions, is given by the name (lower-case letters, digits, _ and -), the first directory with the file, and what the module is. asterisklint and vg run the same file with the same arguments for a name. Expected: what cannot be loaded is reported by one line on stderr and exit status 1. This is false of both: asterisklint does not catch ImportError (a name without a file), vg does not catch NoSuchCommand (a name with other characters, a module without main). Exactly one of the two reports, whatever the reason.", "quantifier": "all names, directories, file systems and module outcomes", "why_tests_cant": "the reasons depend on the search path and on the modules in it; there are no tests of the front end with names that cannot be loaded", "anchors": ["asterisklint/main.py:load_command", "asterisklint/main.py:main", "contrib/commands/vg.py:Main.handle_args"]}
{"id": "C73", "title": "--func-odbc is used at most once, and an empty value counts", "statement": "For every sequence of uses of --func-odbc of dialplan-check and of modules-show: with none the file beside the dialplan is looked for, with one its value is taken - an empty value means that no functions are read, wherever there is a func_odbc.conf - and with two or more the command does not run but ends with an error that names the second use as it was written. The helper does not hold for options in general: one with a default refuses its first use.", "quantifier": "all sequences of uses and values, all file systems", "why_tests_cant": "sequences of options are unbounded and there are no tests of the command line", "anchors": ["asterisklint/mainutil.py:UniqueStore.__call__", "asterisklint/mainutil.py:load_func_odbc_functions", "asterisklint/commands/dialplan-check.py:Main.create_argparser", "asterisklint/commands/modules-show.py:Main.create_argparser"]}
