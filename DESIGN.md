# Formal model of asterisklint: design

Prover: Rocq (Coq 8.16.1). All sources in `rocq/theories`, logical prefix `Verif`.
Nothing of /repo is executed; the model was written by reading it. Every
definition of a model file cites the file and lines it models.

## Approach

Python code is modelled by total Gallina functions over lists of code points
(`str := list N`). Exceptions are values (`Exn e`), possible non-termination is
recursion on fuel ending in a separate outcome (never a normal value), external
facts (file contents, `str.lower`, set iteration order) are function arguments,
so that theorems quantify over them. Global mutable state of the program
(raised messages, loaders, used variables) is a record passed through a state
monad.

Layers:

| File | Models |
|---|---|
| `Base.v`, `PyStr.v` | Python str/bytes helpers, results, posix paths |
| `Regex.v` | the `re` subset used (one character classes, greedy/lazy stars, groups, `$`) |
| `Pattern.v` | `asterisklint/pattern.py` |
| `Defines.v` | `defines.py` (messages, formatting) |
| `FileRd.v` | `file.py` |
| `Config.v`, `VSpace.v` | `config.py`, `configobj.py`, `configws.py` |
| `Var.v`, `VarFun.v` | `variable.py`, `expression.py`, `function.py`, `varfun.py` |
| `AppM.v` | `application.py`, `app/base.py`, `app/vall/*` |
| `Loader.v` | `AppLoader`, `FuncLoader` as state machines (shows that the pure tables of `AppM.v`/`VarFun.v` are enough) |
| `Tables.v` | the applications and functions registered for version v13 |
| `Dialplan.v` | `dialplan.py`, commands `dialplan-check`, `dialplan-show` |
| `FuncOdbc.v` | `func_odbc.py` |
| `Mutator.v` | `helper/mutator.py`, `process_issue` of `contrib/make_patterns_canonical.py` |
| `MakeCanon.v` | the rest of `contrib/make_patterns_canonical.py`: collecting the messages, the dialogue, the run |
| `Aggregator.v` | `ConfigAggregator` of `config.py` (the plain configuration parser) |
| `Vg.v` | the comment reader of `contrib/commands/vg.py` |
| `VgRead.v` | that reader under the parser, with the stack of open files |
| `VgCheck.v` | the command `vg dialplan-check`: that reader under the aggregators of `VgPlan.v` |
| `VgWhole.v` | the command `vg func_odbc-check` |
| `VgShow.v` | the commands `vg dialplan-show` and `vg modules-show` |
| `VgIdent.v` | the commands `vg ident-scan` and `vg func_odbc-annotate` |
| `VgMain.v` | `load_command` of `main.py` with its exceptions, how `main` and `vg` start a command |
| `Options.v` | `UniqueStore` of `mainutil.py`, `dialplan-check` and `modules-show` with the uses of `--func-odbc` |
| `VgPlan.v` | its aggregators, on the elements of the parser |
| `Convert.v` | `process_issue` of `contrib/convert_dp_104_to_1100.py` |
| `Commands.v` | `main.py`, `cls.py`, `version.py`, `print_distance` of `ident-scan` |
| `CmdLs.v` | `list_commands` and the search path of `main.py` |
| `IdentScan.v` | command `ident-scan` |
| `Annotate.v` | command `func_odbc-annotate` |
| `Check.v` | muting and `raised` of `defines.py`, `mainutil.py`, commands `dialplan-check`, `func_odbc-check`, `modules-show`, `web/wsgi.py` |
| `Report.v`, `Show.v` | the words of messages and the lines on stderr; the text of `dialplan-show` and `modules-show` |
| `Web.v` | `web/wsgi.py` from the request to the words of the response |
| `LintTest.v` | `asterisklint/alinttest.py`: a test, a run of tests, generated tests |

`Spec_*.v` files hold the independent specifications (inductive relations or
small functions that do not use the model's helpers), `*_proofs.v` the proofs,
`Properties*.v` only the final theorems, each followed by `Print Assumptions`
and by an `Example` showing a non-trivial instance.

`Tests_*.v` hold the unit tests of /repo/tests, translated by reading them: each
input is run by the model and the expected messages and values are compared
(`vm_compute`). All tests of `tests/file`, `config`, `dialplan`, `pattern`, `app`,
`variable`, `alintregress` pass on the model; left out are the expected failure
`test_valid_prio` and the assertions on `len(dialplan.general)` and
`len(dialplan.globals)`.

## Refuted properties

Several properties a user relies on are false of the code. For these the
development proves `..._refuted` (a concrete witness evaluated by the kernel)
and beside it the strongest true statement found. They have status `partial`
in MANIFEST.json.

## Per property plan

See the table below; it is kept up to date with the development.

| Id | Modelled | How proved / why not |
|---|---|---|
| C01 | `parse`, tuple comparison, `sorted(set)` | lexicographic order laws; sortedness + permutation uniqueness |
| C02 | `parse` | spec predicate on strings, equivalence by induction on fuel-free list recursion |
| C03 | `canonical_pattern` | refuted by `_X[[]` etc.; for ASCII texts it holds exactly for the class `SafeText` |
| C04 | `is_canonical` via `findall` | refuted by `a]b`; true for a stated class |
| C05 | `matches_extension` | inductive match relation; exact for literals, exact characterisation incl. overlong quirk for patterns |
| C06 | `example` | proved under the no-lowest-dash condition, refuted otherwise |
| C07-C09 | `DialplanContext.add/update`, aggregators | cache-free history specification (`Spec_Dialplan.v`), simulation both ways |
| C10 | `by_pattern`, `get_sorted_patterns`, `format_as_dialplan_show` | memo invariant over all interleavings; text specification |
| C11-C13 | `match_pattern`, `walk_jump_destinations` | inductive reachability; fuel = number of contexts; which searches return although there is a cycle (`Spec_Search.v`) |
| C14-C15 | `VerticalSpaceWarner` | stream filter theorem, run-length specification |
| C16-C17 | include stack machine | simulation against recursive expansion; divergence for self include |
| C18 | UTF-8/cp1252 decoders | round trip; refuted for undefined bytes |
| C19 | `FileformatReader` | invariant + exact message spec |
| C20 | comment scanner | spec on strings |
| C47 | all reading layers of one line | composition of C18-C20 as an equivalence |
| C21 | regexes through `Regex.v` | matcher soundness/uniqueness |
| C22 | `MessageDefManager`, the check commands as processes | muting as a relation on the text of ALINT_IGNORE; exact exit status of every run |
| C23 | whole pipeline | false; which texts and applications make it fail is exact for ASCII (`Spec_Crash.v`), then lines, sections, files, the walk and the process (`Spec_Survive.v`); list of crashing files |
| C24-C25 | `separate_args` | token level specification |
| C26 | `Goto` padding loop | divergence for every fuel, termination otherwise |
| C27-C32 | `variable.py`, `varfun.py` | grammar specs, induction; C27 exactly by a weight that printing never raises (`Verbatim_proofs.v`) |
| C33-C34 | loaders | history invariants |
| C35-C36 | mutator as a tree of file-system operations, any of which may fail | invariant over all states of all executions; refuted for unordered issues and relative links |
| C37 | `OdbcFunction`, `FuncOdbcAggregator`, registration | declarative key/section/file rules, equivalence of runs and rules |
| C38 | `Singleton.__call__`, `AsteriskVersion` | induction over call histories |
| C39 | `wrap`, `str.split` | words as a relation; fill invariant |
| C40 | `COMMAND_RE`, `load_command`, `main` dispatch | regex language, first directory that has the file |
| C41 | `print_distance` | unique sorted list for distinct keys; refuted for keys that differ in case only, with all outcomes there are (`C41_exact`): those of the orders by name with such keys in any order |
| C42 | `modules-show` | invariant of the log of lookups over whole runs (`Log_proofs.v`); loader states; the page as rules (`Spec_Page.v`), which determine it; refuted for an application called Unknown |
| C43 | web service as a state machine over requests | left over state; refuted after a request that raised, and for Background |
| C44 | table of raise sites (`Spec_Log.v`) | every message of every run comes from the table; finite check of the table; refuted for two sites |
| C48 | whole runs | the place of every message is a line of a file that was read |
| C46 | `DialplanVarset.from_varset`, `Extension` | declarative reading of the text, equivalence |
| C49 | `app_call`, `split_app`, `assign` | one relation for each report (`Spec_Args.v`) over characters and variables; canonical values (`Tok_proofs.v`) |
| C50 | `parse_config` | sections as a shape of the element list; messages as a cut of the event list |
| C51 | `vg_line`, `vg_read` | grammar of nested groups; relation on lines and joined lines, equivalence |
| C52 | `list_commands` | page as a relation on groups; order of listing irrelevant; refuted for a file `ls.py` |
| C53 | `annotate` | rules for the printed lines, equivalence for all outcomes |
| C54 | `ident_scan` | invariants of the two dicts, stability of the sort; set orders as a parameter |
| C55 | `vg_steps`, `vg_ag_run` | simulation by the ordinary parser on renamed sections; history rules of C07 |
| C56 | `if_args`, `issue_of`, `cv_issue` | old and new form as relations on characters and variables; refuted for the place in the line |
| C57 | `parse_variables`, `process_variable`, `call_func`, `parse_inner` | rules for texts as relations on characters, variables and logs (`Spec_Subst.v`); equivalence in both directions, no ASCII condition on the text |
| C58 | `app_call`, `split_app`, `if_args`, `gosub_dest`, `branches` | rules for lines, calls and jumps as relations on characters, variables and logs (`Spec_Line.v`), nested for ExecIf; equivalence in both directions for runs that return |
| C59 | `dialplan_check`, `check_run`, `parse_dialplan`, `check_jump`, `load_odbc`, `run_msgs` | one set of rules from the events of the reader to messages, output and exit status (`Spec_Run.v`), equivalence in both directions; contexts are those of the history, not of the model |
| C60 | `parse_file`, `read`, `read_line`, `ff_line`, `parse_line`, `do_include`, `vsw_stream`, `dialplan_check`, `odbc_check` | the reader as rules over files, not over a stack of readers (`Spec_Reader.v`): line end state per file, pending end messages; empty lines from the elements of the open files; acyclicity follows from the size of what a file gives; `Spec_Whole.v` puts C59 on top, without fuel |
| C61 | `words`, `report`, `pyrepr`, templates of `defines.py` and the message classes | text in quotes and reading it back as relations on characters, filled templates, lines (`Spec_Report.v`); equivalence with C60 on top, for all addresses; refuted for "same files, same text"; no line end in a line, by going through everything that puts a value into a message (`Flat*_proofs.v`) |
| C62 | `show_command`, `modules_command` (`Show.v`) | the listing as relations on a history (`Spec_Show.v`), on top of the reader (C60), the rules for the dialplan (C59), quoting (C61) and the page (C42); equivalence without fuel; number of lines via `FlatD_proofs.v` |
| C63 | `serve`, `after` (`Web.v`) | requests, what is left by earlier ones and the issues as relations (`Spec_Web.v`) on top of C60 and C61; equivalence without fuel (`Steady_proofs.v`: more steps never change an outcome); when a response differs from that of a new server, exactly |
| C64 | `run_test`, `run_suite`, `untested`, `generate` (`LintTest.v`) | a test as the list of what it does, cut at each `assertLinted` (`Spec_LintTest.v`); verdicts and counted messages determined by it; the tests of `tests/alinttest/test_assertlinted.py` as Examples |
| C65 | `ident_scan` | as C62: the reader (C60), the rules for the dialplan (C59), then `Scan` (C54) on the contexts of the history; equivalence, with the outcomes over all orders of the two sets |
| C66 | `mpc_main` | the reader (C60) and the rules for the dialplan (C59); only a line of a context gives the message about patterns, so that each message has its line, and the lines of a file read once come in order; then C36 for the files. The replacement on a line follows from the shape of an assignment and the encoding |
| C67 | `vg_parse_file` (`VgRead.v`) | the lines still to be read, the line that waits, the files begun with their latest lines and what the next line does as relations on top of C21, C47 and C51 (`Spec_VgRead.v`); equivalence without fuel, by determinism of the rules; the unfolded lines by C51 |
| C68 | `vg_check_run`, `vg_dialplan_check` (`VgCheck.v`) | the rules of C59 for the stream with repeated headers renamed as in C55 (`Spec_VgCheck.v`); a simulation that also follows the jumps under their old names; equivalence, and the exit status |
| C69 | `vg_check_run`, `vg_dialplan_check`, `vg_odbc_check`, `vsw_stream`, `report` | C67 and C68 on top of each other as in C60 (`Spec_VgWhole.v`); more fuel changes nothing once the reader has ended; the text by C61; no message holds a line end (`FlatV_proofs.v`), so one line each |
| C70 | `vg_show_command`, `vg_modules_command` | as C62 with C67 and C68 below (`Spec_VgShow.v`): the rules determine the text; the headings by C55; no line is broken (`FlatV_proofs.v`) |
| C71 | `vg_ident_scan`, `vg_annotate` | as C65 and C53 with C67 and C68 below (`Spec_VgIdent.v`): the contexts that stay, the labels and variables of all; outcomes for some order of the sets |
| C72 | `fetch`, `main_start`, `vg_start` | rules for the name, the directories and the module (`Spec_VgMain.v`), equivalence; expectation refuted: `main` does not catch ImportError, `vg` not NoSuchCommand |
| C73 | `unique_store`, `store_all`, `check_main`, `modules_main` | cases by the number of uses (`Spec_Options.v`), equivalence; for an option with a default refuted |

## Trusted base

* Coq's kernel (no plugins, no axioms of our own; see the `Print Assumptions`
  output under every theorem in `Properties*.v`).
* The reading of /repo: that the definitions mirror the cited lines.
* Python semantics as stated in the comments of `PyStr.v`/`Regex.v`.

All `Print Assumptions` print "Closed under the global context": no axiom is
used, not even of the standard library. (The build environment lists the
`Coq.ssr.ssrunder` module parameters as library axioms because the standard
library is loaded; no theorem depends on them.)

## Not modelled

* Unicode tables: `str.lower`, `str.isdigit` and the decimal value used by
  `int()` are the fields of a record `uni`; theorems hold for all of them, or
  for all that are right on ASCII (`AsciiOk`). `isspace` is the table of
  Python 3.
* The text `repr()` gives for a context name in `dialplan show` is a parameter of
  `dialplan_show`; `show_command` puts the model of C61 there. How stdout encodes
  the text is not modelled.
* Python's recursion limit and the digit limit of `int()`; memory.
* Messages about the spelling of Background depend on the whole run: uses are
  logged (`LBg`) and `resolve_bg` turns the log into messages (C34).
* The words of messages (`Report.v`): `str.isprintable` beyond ASCII is a
  parameter, and so are the addresses in the `repr()` of objects (any sequence,
  so that one object may be shown with two addresses; the theorems hold for all
  sequences). The text is a `str`; how stderr encodes it is not modelled. Of a
  message the file name and line are printed; templates are taken from the
  sources as strings, without escapes, and checked to have the fields that
  `format_ok` goes by.
* Web service: its exception `HttpNotImplementedError` is represented by
  `NotImplementedError`. In `Check.v` the response is the list of line, class and
  arguments; `Web.v` has the words, the body as a JSON value, the limit of the body
  and the check for threads. How falcon reads the JSON and writes the response,
  routing, the pages `Index` and `Healthz` and concurrent requests are not
  modelled. What a request says that ends in an exception other than "asks for
  another file" is taken from the model (`Rn_raised`), not from rules. That the
  loaders keep their state between requests does not matter (C33).
* Test harness (`LintTest.v`): a message is the name of its class; `unittest` itself
  (skipping, subtests, discovery) and the docstrings of generated tests are not
  modelled.
* `show_line` and `show_previous` of `defines.py`: no command sets them.
* `make_patterns_canonical.py` (`MakeCanon.v`): the end of input at the question; the
  files do not change between reading and rewriting.
* File system (`Mutator.v`): the process may stop between any two operations and
  any operation may fail with any exception; a failing operation other than a
  write changes nothing. Loss of power (data not yet on disk), other processes,
  hard links, links among directories and different texts for one place are not
  modelled. `KeyboardInterrupt` and a failing `print` count as a stop.
* `editdistance.eval` (any function; theorems hold for all), argparse, `os.listdir`
  and what importing a command file gives (`CmdLs.v`), the tokens `sqlparse` gives
  (`Annotate.v`): parameters.
* The message collection of `convert_dp_104_to_1100.py` (which line an issue belongs
  to); that Asterisk or the linter reads the text `convert_dp_104_to_1100.py` writes as the
  tokens it was written from; under `contrib/commands/vg.py` commands of others: modelled are
  `vg dialplan-check` (C68), `vg func_odbc-check` (C69), `vg dialplan-show` and
  `vg modules-show` (C70), `vg ident-scan` and `vg func_odbc-annotate` (C71).
* How argparse finds the uses of an option (`Options.v` has the list of them) and
  what `parser.error` prints besides the text.
* How argparse splits the arguments of `vg` into the command and the rest;
  `load_command` on Python 3.4 (`VgMain.v` has the branch for 3.5 and later).
