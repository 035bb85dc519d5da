(* The unit tests of tests/alintregress, evaluated on the model. *)
From Verif Require Import Base Utf8 PyStr Defines FileRd Config VSpace Pattern Var VarFun AppM Tables Dialplan FuncOdbc Check Aggregator Tests_Util.

(* The commands dialplan-check and func_odbc-check: messages and exit status. *)
Definition run_check (b : bytes) : list msg * res N :=
  let p := dialplan_check uni_ascii funcs_v13 apps_v13 (fun _ => false) 2000 (fs_of [(L "x", b)]) None None (L "x") in (p_raised p, p_end p).
Definition run_odbc (b : bytes) : list msg * res N :=
  let p := odbc_check 1000 (fs_of [(L "x", b)]) None (L "x") in (p_raised p, p_end p).
Definition ends (r : res N) : bool := match r with Ok _ => true | _ => false end.

(* tests/alintregress/test_background_case.py:49 *)
Example test_better_Background_no_warn : let r := run_check (lines [L "[context]"; L "exten => s,1,Background(abc)"; 
     L "exten => s,n,Background(abc)"; L "exten => s,n,Background(abc)"]) in
  ends (snd r) = true /\ linted [L "H_*"] (fst r) [] = true.
Proof. vm_compute. repeat split. Qed.

(* tests/alintregress/test_background_case.py:58 *)
Example test_official_BackGround_no_warn : let r := run_check (lines [L "[context]"; L "exten => s,1,BackGround(abc)"; 
     L "exten => s,n,BackGround(abc)"; L "exten => s,n,BackGround(abc)"]) in
  ends (snd r) = true /\ linted [L "H_*"] (fst r) [] = true.
Proof. vm_compute. repeat split. Qed.

(* tests/alintregress/test_background_case.py:67 *)
Example test_better_Background_warn_once : let r := run_check (lines [L "[context]"; L "exten => s,1,Background(abc)"; 
     L "exten => s,n,BackGround(abc)"; L "exten => s,n,Background(abc)"]) in
  ends (snd r) = true /\ linted [L "H_*"] (fst r) [(W_APP_BAD_CASE, 1%nat)] = true.
Proof. vm_compute. repeat split. Qed.

(* tests/alintregress/test_background_case.py:77 *)
Example test_official_BackGround_warn_twice : let r := run_check (lines [L "[context]"; L "exten => s,1,BackGround(abc)"; 
     L "exten => s,n,Background(abc)"; L "exten => s,n,Background(abc)"]) in
  ends (snd r) = true /\ linted [L "H_*"] (fst r) [(W_APP_BAD_CASE, 2%nat)] = true.
Proof. vm_compute. repeat split. Qed.

(* tests/alintregress/test_github_issues.py:42 *)
Example test_issue_7 : let r := run_check (lines [L "[context]"; L "; The EXTEN:1 tries to slice ""s"", which returns """". We don't want"; 
     L "; crashes because of that."; L "exten => s,1,GotoIf($[""${CALLERID(num):0:1}""=""+""]?${EXTEN:1},1)"]) in
  ends (snd r) = true /\ true = true.
Proof. vm_compute. repeat split. Qed.

(* tests/alintregress/test_github_issues.py:56 *)
Example test_issue_17 : let r := run_check (lines [L "[context]"; L "; The argument to SET() should be a Var-list, not a regular list."; 
     L "exten => s,1,While($[""${SET(languagenumber=${SHIFT(languages)})}"" != """"])"]) in
  ends (snd r) = true /\ linted [L "H_*"] (fst r) [] = true.
Proof. vm_compute. repeat split. Qed.

(* tests/alintregress/test_github_issues.py:68 *)
Example test_issue_41 : let r := run_check (lines [L "[context]"; L "; Don't choke on the excess comma after prio 1."; 
     L "exten => _7495XXXXXXX,1,GosubIf(${Q}?sub-dial,${EXTEN},1,(${SOME_VARIABLE}):sub-dial,${EXTEN},1,(${SOME_VARIABLE}))"; L "exten => _7495XXXXXXX,n(x),Gosub(sub-dial,${EXTEN},1,(${SOME_VARIABLE}))"]) in
  ends (snd r) = true /\ linted [L "H_*"] (fst r) [(E_APP_ARG_MANY, 3%nat); (E_DP_GOTO_NOCONTEXT, 3%nat)] = true.
Proof. vm_compute. repeat split. Qed.

(* tests/alintregress/test_github_issues.py:85 *)
Example test_issue_54 : let r := run_check (lines [L "[Hints]"; L "; Don't die even though there is no arrow. Source: asterisk/asterisk"; 
     L "; 2cfb3df35df7930541177eb32d71afa52cd38899 configs/basic-pbx/extensions.conf"; L "exten => _10XX,hint,PJSIP/${EXTEN}"; 
     L "exten = _11XX,hint,PJSIP/${EXTEN}"]) in
  ends (snd r) = true /\ linted [L "H_DP_GENERAL_MISPLACED"; L "H_DP_GLOBALS_MISPLACED"; L "I_NOTIMPL_HINT"] (fst r) [(H_CONF_NO_ARROW, 1%nat); (W_WSH_VARSET, 1%nat)] = true.
Proof. vm_compute. repeat split. Qed.

(* tests/alintregress/test_github_issues.py:102 *)
Example test_issue_54_func_odbc : let r := run_odbc (lines [L "[PRESENCE]"; L "writehandle=mysql1"; 
     L "readsql => SELECT location FROM presence WHERE id='${SQL_ESC(${ARG1})}'"; L "writesql => UPDATE presence SET location='${SQL_ESC(${VAL1})}' WHERE id='${SQL_ESC(${ARG1})}'"]) in
  ends (snd r) = true /\ linted [] (fst r) [(H_CONF_HAS_ARROW, 2%nat)] = true.
Proof. vm_compute. repeat split. Qed.

(* tests/alintregress/test_github_issues.py:116 *)
Example test_issue_via_gamma_20221019 : let r := run_check (lines [L "[context]"; L "exten => _3112345!,1,ExecIf($[""${preferred_number}""!=""""]?Set(CDR(userfield)=${CDR(userfield):0:${userfield_skip}}${preferred_number}${CDR(userfield):${MATH(${userfield_skip}+${LEN(${preferred_number})},int)}}))"]) in
  ends (snd r) = true /\ linted [L "H_*"] (fst r) [] = true.
Proof. vm_compute. repeat split. Qed.

(* tests/alintregress/test_asterisk_dp.conf *)
Definition asterisk_dp : bytes := lines [
  L "; extensions.conf - the Asterisk dial plan";
  L ";";
  L "; Static extension configuration file, used by";
  L "; the pbx_config module. This is where you configure all your";
  L "; inbound and outbound calls in Asterisk.";
  L ";";
  L "; This configuration file is reloaded";
  L "; - With the ""dialplan reload"" command in the CLI";
  L "; - With the ""reload"" command (that reloads everything) in the CLI";
  [];
  L ";";
  L "; The ""General"" category is for certain variables.";
  L ";";
  L "[general]";
  L ";";
  L "; If static is set to no, or omitted, then the pbx_config will rewrite";
  L "; this file when extensions are modified.  Remember that all comments";
  L "; made in the file will be lost when that happens.";
  L ";";
  L "; XXX Not yet implemented XXX";
  L ";";
  L "static=yes";
  L ";";
  L "; if static=yes and writeprotect=no, you can save dialplan by";
  L "; CLI command ""dialplan save"" too";
  L ";";
  L "writeprotect=no";
  L ";";
  L "; If autofallthrough is set, then if an extension runs out of";
  L "; things to do, it will terminate the call with BUSY, CONGESTION";
  L "; or HANGUP depending on Asterisk's best guess. This is the default.";
  L ";";
  L "; If autofallthrough is not set, then if an extension runs out of";
  L "; things to do, Asterisk will wait for a new extension to be dialed";
  L "; (this is the original behavior of Asterisk 1.0 and earlier).";
  L ";";
  L ";autofallthrough=no";
  L ";";
  L ";";
  L ";";
  L "; If extenpatternmatchnew is set (true, yes, etc), then a new algorithm that uses";
  L "; a Trie to find the best matching pattern is used. In dialplans";
  L "; with more than about 20-40 extensions in a single context, this";
  L "; new algorithm can provide a noticeable speedup.";
  L "; With 50 extensions, the speedup is 1.32x";
  L "; with 88 extensions, the speedup is 2.23x";
  L "; with 138 extensions, the speedup is 3.44x";
  L "; with 238 extensions, the speedup is 5.8x";
  L "; with 438 extensions, the speedup is 10.4x";
  L "; With 1000 extensions, the speedup is ~25x";
  L "; with 10,000 extensions, the speedup is 374x";
  L "; Basically, the new algorithm provides a flat response";
  L "; time, no matter the number of extensions.";
  L ";";
  L "; By default, the old pattern matcher is used.";
  L ";";
  L "; ****This is a new feature! *********************";
  L "; The new pattern matcher is for the brave, the bold, and";
  L "; the desperate. If you have large dialplans (more than about 50 extensions";
  L "; in a context), and/or high call volume, you might consider setting";
  L "; this value to ""yes"" !!";
  L "; Please, if you try this out, and are forced to return to the";
  L "; old pattern matcher, please report your reasons in a bug report";
  L "; on https://issues.asterisk.org. We have made good progress in providing";
  L "; something compatible with the old matcher; help us finish the job!";
  L ";";
  L "; This value can be switched at runtime using the cli command ""dialplan set extenpatternmatchnew true""";
  L "; or ""dialplan set extenpatternmatchnew false"", so you can experiment to your hearts content.";
  L ";";
  L ";extenpatternmatchnew=no";
  L ";";
  L "; If clearglobalvars is set, global variables will be cleared";
  L "; and reparsed on a dialplan reload, or Asterisk reload.";
  L ";";
  L "; If clearglobalvars is not set, then global variables will persist";
  L "; through reloads, and even if deleted from the extensions.conf or";
  L "; one of its included files, will remain set to the previous value.";
  L ";";
  L "; NOTE: A complication sets in, if you put your global variables into";
  L "; the AEL file, instead of the extensions.conf file. With clearglobalvars";
  L "; set, a ""reload"" will often leave the globals vars cleared, because it";
  L "; is not unusual to have extensions.conf (which will have no globals)";
  L "; load after the extensions.ael file (where the global vars are stored).";
  L "; So, with ""reload"" in this particular situation, first the AEL file will";
  L "; clear and then set all the global vars, then, later, when the extensions.conf";
  L "; file is loaded, the global vars are all cleared, and then not set, because";
  L "; they are not stored in the extensions.conf file.";
  L ";";
  L "clearglobalvars=no";
  L ";";
  L "; User context is where entries from users.conf are registered.  The";
  L "; default value is 'default'";
  L ";";
  L ";userscontext=default";
  L ";";
  L "; You can include other config files, use the #include command";
  L "; (without the ';'). Note that this is different from the ""include"" command";
  L "; that includes contexts within other contexts. The #include command works";
  L "; in all asterisk configuration files.";
  L ";#include ""filename.conf""";
  L ";#include <filename.conf>";
  L ";#include filename.conf";
  L ";";
  L "; You can execute a program or script that produces config files, and they";
  L "; will be inserted where you insert the #exec command. The #exec command";
  L "; works on all asterisk configuration files.  However, you will need to";
  L "; activate them within asterisk.conf with the ""execincludes"" option.  They";
  L "; are otherwise considered a security risk.";
  L ";#exec /opt/bin/build-extra-contexts.sh";
  L ";#exec /opt/bin/build-extra-contexts.sh --foo=""bar""";
  L ";#exec </opt/bin/build-extra-contexts.sh --foo=""bar"">";
  L ";#exec ""/opt/bin/build-extra-contexts.sh --foo=\""bar\""""";
  L ";";
  [];
  L "; The ""Globals"" category contains global variables that can be referenced";
  L "; in the dialplan with the GLOBAL dialplan function:";
  L "; ${GLOBAL(VARIABLE)}";
  L "; ${${GLOBAL(VARIABLE)}} or ${text${GLOBAL(VARIABLE)}} or any hybrid";
  L "; Unix/Linux environmental variables can be reached with the ENV dialplan";
  L "; function: ${ENV(VARIABLE)}";
  L ";";
  L "[globals]";
  L "CONSOLE=Console/dsp" ++ [9; 9; 9; 9] ++ L "; Console interface for demo";
  L ";CONSOLE=DAHDI/1";
  L ";CONSOLE=Phone/phone0";
  L "IAXINFO=guest" ++ [9; 9; 9; 9; 9] ++ L "; IAXtel username/password";
  L ";IAXINFO=myuser:mypass";
  L "TRUNK=DAHDI/G2" ++ [9; 9; 9; 9; 9] ++ L "; Trunk interface";
  L ";";
  L "; Note the 'G2' in the TRUNK variable above. It specifies which group (defined";
  L "; in chan_dahdi.conf) to dial, i.e. group 2, and how to choose a channel to use";
  L "; in the specified group. The four possible options are:";
  L ";";
  L "; g: select the lowest-numbered non-busy DAHDI channel";
  L ";    (aka. ascending sequential hunt group).";
  L "; G: select the highest-numbered non-busy DAHDI channel";
  L ";    (aka. descending sequential hunt group).";
  L "; r: use a round-robin search, starting at the next highest channel than last";
  L ";    time (aka. ascending rotary hunt group).";
  L "; R: use a round-robin search, starting at the next lowest channel than last";
  L ";    time (aka. descending rotary hunt group).";
  L ";";
  L "TRUNKMSD=1" ++ [9; 9; 9; 9; 9] ++ L "; MSD digits to strip (usually 1 or 0)";
  L ";TRUNK=IAX2/user:pass@provider";
  [];
  L ";FREENUMDOMAIN=mydomain.com                     ; domain to send on outbound";
  L "                                                ; freenum calls (uses outbound-freenum";
  L "                                                ; context)";
  [];
  L ";";
  L "; WARNING WARNING WARNING WARNING";
  L "; If you load any other extension configuration engine, such as pbx_ael.so,";
  L "; your global variables may be overridden by that file.  Please take care to";
  L "; use only one location to set global variables, and you will likely save";
  L "; yourself a ton of grief.";
  L "; WARNING WARNING WARNING WARNING";
  L ";";
  L "; Any category other than ""General"" and ""Globals"" represent";
  L "; extension contexts, which are collections of extensions.";
  L ";";
  L "; Extension names may be numbers, letters, or combinations";
  L "; thereof. If an extension name is prefixed by a '_'";
  L "; character, it is interpreted as a pattern rather than a";
  L "; literal.  In patterns, some characters have special meanings:";
  L ";";
  L ";   X - any digit from 0-9";
  L ";   Z - any digit from 1-9";
  L ";   N - any digit from 2-9";
  L ";   [1235-9] - any digit in the brackets (in this example, 1,2,3,5,6,7,8,9)";
  L ";   . - wildcard, matches anything remaining (e.g. _9011. matches";
  L ";" ++ [9] ++ L "anything starting with 9011 excluding 9011 itself)";
  L ";   ! - wildcard, causes the matching process to complete as soon as";
  L ";       it can unambiguously determine that no other matches are possible";
  L ";";
  L "; For example, the extension _NXXXXXX would match normal 7 digit dialings,";
  L "; while _1NXXNXXXXXX would represent an area code plus phone number";
  L "; preceded by a one.";
  L ";";
  L "; Each step of an extension is ordered by priority, which must always start";
  L "; with 1 to be considered a valid extension.  The priority ""next"" or ""n"" means";
  L "; the previous priority plus one, regardless of whether the previous priority";
  L "; was associated with the current extension or not.  The priority ""same"" or ""s""";
  L "; means the same as the previously specified priority, again regardless of";
  L "; whether the previous entry was for the same extension.  Priorities may be";
  L "; immediately followed by a plus sign and another integer to add that amount";
  L "; (most useful with 's' or 'n').  Priorities may then also have an alias, or";
  L "; label, in parentheses after their name which can be used in goto situations.";
  L ";";
  L "; Contexts contain several lines, one for each step of each extension.  One may";
  L "; include another context in the current one as well, optionally with a date";
  L "; and time.  Included contexts are included in the order they are listed.";
  L "; Switches may also be included within a context.  The order of matching within";
  L "; a context is always exact extensions, pattern match extensions, includes, and";
  L "; switches.  Includes are always processed depth-first.  So for example, if you";
  L "; would like a switch ""A"" to match before context ""B"", simply put switch ""A"" in";
  L "; an included context ""C"", where ""C"" is included in your original context";
  L "; before ""B"".";
  L ";";
  L ";[context]";
  L ";exten => someexten,{priority|label{+|-}offset}[(alias)],application(arg1,arg2,...)";
  L ";";
  L "; Timing list for includes is";
  L ";";
  L ";   <time range>,<days of week>,<days of month>,<months>[,<timezone>]";
  L ";";
  L "; Note that ranges may be specified to wrap around the ends.  Also, minutes are";
  L "; fine-grained only down to the closest even minute.";
  L ";";
  L ";include => daytime,9:00-17:00,mon-fri,*,*";
  L ";include => weekend,*,sat-sun,*,*";
  L ";include => weeknights,17:02-8:58,mon-fri,*,*";
  L ";";
  L "; ignorepat can be used to instruct drivers to not cancel dialtone upon receipt";
  L "; of a particular pattern.  The most commonly used example is of course '9'";
  L "; like this:";
  L ";";
  L ";ignorepat => 9";
  L ";";
  L "; so that dialtone remains even after dialing a 9.  Please note that ignorepat";
  L "; only works with channels which receive dialtone from the PBX, such as DAHDI,";
  L "; Phone, and VPB.  Other channels, such as SIP and MGCP, which generate their";
  L "; own dialtone and converse with the PBX only after a number is complete, are";
  L "; generally unaffected by ignorepat (unless DISA or another method is used to";
  L "; generate a dialtone after answering the channel).";
  L ";";
  [];
  L ";";
  L "; Sample entries for extensions.conf";
  L ";";
  L ";";
  L "[dundi-e164-canonical]";
  L ";include => stdexten";
  L ";";
  L "; List canonical entries here";
  L ";";
  L ";exten => 12564286000,1,Gosub(6000,stdexten(IAX2/foo))";
  L ";exten => 12564286000,n,Goto(default,s,1)" ++ [9] ++ L "; exited Voicemail";
  L ";exten => _125642860XX,1,Dial(IAX2/otherbox/${EXTEN:7})";
  [];
  L "[dundi-e164-customers]";
  L ";";
  L "; If you are an ITSP or Reseller, list your customers here.";
  L ";";
  L ";exten => _12564286000,1,Dial(SIP/customer1)";
  L ";exten => _12564286001,1,Dial(IAX2/customer2)";
  [];
  L "[dundi-e164-via-pstn]";
  L ";";
  L "; If you are freely delivering calls to the PSTN, list them here";
  L ";";
  L ";exten => _1256428XXXX,1,Dial(DAHDI/G2/${EXTEN:7}) ; Expose all of 256-428";
  L ";exten => _1256325XXXX,1,Dial(DAHDI/G2/${EXTEN:7}) ; Ditto for 256-325";
  [];
  L "[dundi-e164-local]";
  L ";";
  L "; Context to put your dundi IAX2 or SIP user in for";
  L "; full access";
  L ";";
  L "include => dundi-e164-canonical";
  L "include => dundi-e164-customers";
  L "include => dundi-e164-via-pstn";
  [];
  L "[dundi-e164-switch]";
  L ";";
  L "; Just a wrapper for the switch";
  L ";";
  L "switch => DUNDi/e164";
  [];
  L "[dundi-e164-lookup]";
  L ";";
  L "; Locally to lookup, try looking for a local E.164 solution";
  L "; then try DUNDi if we don't have one.";
  L ";";
  L "include => dundi-e164-local";
  L "include => dundi-e164-switch";
  L ";";
  L "; DUNDi can also be implemented as a Macro instead of using";
  L "; the Local channel driver.";
  L ";";
  L "[macro-dundi-e164]";
  L ";";
  L "; ARG1 is the extension to Dial";
  L ";";
  L "; Extension ""s"" is not a wildcard extension that matches ""anything"".";
  L "; In macros, it is the start extension. In most other cases,";
  L "; you have to goto ""s"" to execute that extension.";
  L ";";
  L "; Note: In old versions of Asterisk the PBX in some cases defaulted to";
  L "; extension ""s"" when a given extension was wrong (like in AMI originate).";
  L "; This is no longer the case.";
  L ";";
  L "; For wildcard matches, see above - all pattern matches start with";
  L "; an underscore.";
  L "exten => s,1,Goto(${ARG1},1)";
  L "include => dundi-e164-lookup";
  [];
  L ";";
  L "; Here are the entries you need to participate in the IAXTEL";
  L "; call routing system.  Most IAXTEL numbers begin with 1-700, but";
  L "; there are exceptions.  For more information, and to sign";
  L "; up, please go to www.gnophone.com or www.iaxtel.com";
  L ";";
  L "[iaxtel700]";
  L "exten => _91700XXXXXXX,1,Dial(IAX2/${GLOBAL(IAXINFO)}@iaxtel.com/${EXTEN:1}@iaxtel)";
  [];
  L ";";
  L "; The SWITCH statement permits a server to share the dialplan with";
  L "; another server. Use with care: Reciprocal switch statements are not";
  L "; allowed (e.g. both A -> B and B -> A), and the switched server needs";
  L "; to be on-line or else dialing can be severly delayed.";
  L ";";
  L "[iaxprovider]";
  L ";switch => IAX2/user:[key]@myserver/mycontext";
  [];
  L "[trunkint]";
  L ";";
  L "; International long distance through trunk";
  L ";";
  L "exten => _9011.,1,Macro(dundi-e164,${EXTEN:4})";
  L "exten => _9011.,n,Dial(${GLOBAL(TRUNK)}/${FILTER(0-9,${EXTEN:${GLOBAL(TRUNKMSD)}})})";
  [];
  L "[trunkld]";
  L ";";
  L "; Long distance context accessed through trunk";
  L ";";
  L "exten => _91NXXNXXXXXX,1,Macro(dundi-e164,${EXTEN:1})";
  L "exten => _91NXXNXXXXXX,n,Dial(${GLOBAL(TRUNK)}/${EXTEN:${GLOBAL(TRUNKMSD)}})";
  [];
  L "[trunklocal]";
  L ";";
  L "; Local seven-digit dialing accessed through trunk interface";
  L ";";
  L "exten => _9NXXXXXX,1,Dial(${GLOBAL(TRUNK)}/${EXTEN:${GLOBAL(TRUNKMSD)}})";
  [];
  L "[trunktollfree]";
  L ";";
  L "; Long distance context accessed through trunk interface";
  L ";";
  L "exten => _91800NXXXXXX,1,Dial(${GLOBAL(TRUNK)}/${EXTEN:${GLOBAL(TRUNKMSD)}})";
  L "exten => _91888NXXXXXX,1,Dial(${GLOBAL(TRUNK)}/${EXTEN:${GLOBAL(TRUNKMSD)}})";
  L "exten => _91877NXXXXXX,1,Dial(${GLOBAL(TRUNK)}/${EXTEN:${GLOBAL(TRUNKMSD)}})";
  L "exten => _91866NXXXXXX,1,Dial(${GLOBAL(TRUNK)}/${EXTEN:${GLOBAL(TRUNKMSD)}})";
  [];
  L "[international]";
  L ";";
  L "; Master context for international long distance";
  L ";";
  L "ignorepat => 9";
  L "include => longdistance";
  L "include => trunkint";
  [];
  L "[longdistance]";
  L ";";
  L "; Master context for long distance";
  L ";";
  L "ignorepat => 9";
  L "include => local";
  L "include => trunkld";
  [];
  L "[local]";
  L ";";
  L "; Master context for local, toll-free, and iaxtel calls only";
  L ";";
  L "ignorepat => 9";
  L "include => default";
  L "include => trunklocal";
  L "include => iaxtel700";
  L "include => trunktollfree";
  L "include => iaxprovider";
  [];
  L ";Include parkedcalls (or the context you define in features conf)";
  L ";to enable call parking.";
  L "include => parkedcalls";
  L ";";
  L "; You can use an alternative switch type as well, to resolve";
  L "; extensions that are not known here, for example with remote";
  L "; IAX switching you transparently get access to the remote";
  L "; Asterisk PBX";
  L ";";
  L "; switch => IAX2/user:password@bigserver/local";
  L ";";
  L "; An ""lswitch"" is like a switch but is literal, in that";
  L "; variable substitution is not performed at load time";
  L "; but is passed to the switch directly (presumably to";
  L "; be substituted in the switch routine itself)";
  L ";";
  L "; lswitch => Loopback/12${EXTEN}@othercontext";
  L ";";
  L "; An ""eswitch"" is like a switch but the evaluation of";
  L "; variable substitution is performed at runtime before";
  L "; being passed to the switch routine.";
  L ";";
  L "; eswitch => IAX2/context@${CURSERVER}";
  [];
  L "; The following two contexts are a template to enable the ability to dial";
  L "; ISN numbers. For more information about what an ISN number is, please see";
  L "; http://www.freenum.org.";
  L ";";
  L "; This is the dialing hook.  use:";
  L "; include => outbound-freenum";
  [];
  L "[outbound-freenum]";
  L "; We'll add more digits as needed. The purpose is to dial things";
  L "; like extension numbers at domains (ITAD number) so we're matching";
  L "; on lengths of 1 through 6 prior to the separator (the asterisk [*])";
  L ";";
  L "exten => _X*X!,1,Goto(outbound-freenum2,${EXTEN},1)";
  L "exten => _XX*X!,1,Goto(outbound-freenum2,${EXTEN},1)";
  L "exten => _XXX*X!,1,Goto(outbound-freenum2,${EXTEN},1)";
  L "exten => _XXXX*X!,1,Goto(outbound-freenum2,${EXTEN},1)";
  L "exten => _XXXXX*X!,1,Goto(outbound-freenum2,${EXTEN},1)";
  L "exten => _XXXXXX*X!,1,Goto(outbound-freenum2,${EXTEN},1)";
  [];
  L "[outbound-freenum2]";
  L "; This is the handler which performs the dialing logic. It is called";
  L "; from the [outbound-freenum] context";
  L ";";
  L "exten => _X!,1,Verbose(2,Performing ISN lookup for ${EXTEN})";
  L "same => n,Set(SUFFIX=${CUT(EXTEN,*,2-)})                                ; make sure the suffix is all digits as well";
  L "same => n,GotoIf($[""${FILTER(0-9,${SUFFIX})}"" != ""${SUFFIX}""]?fn-CONGESTION,1)";
  L "                                                                        ; filter out bad characters per the README-SERIOUSLY.best-practices.txt document";
  L "same => n,Set(TIMEOUT(absolute)=10800)";
  L "same => n,Set(isnresult=${ENUMLOOKUP(${EXTEN},sip,,1,freenum.org)})     ; perform our lookup with freenum.org";
  L "same => n,GotoIf($[""${isnresult}"" != """"]?from)";
  L "same => n,Set(DIALSTATUS=CONGESTION)";
  L "same => n,Goto(fn-CONGESTION,1)";
  L "same => n(from),Set(__SIPFROMUSER=${CALLERID(num)})";
  L "same => n,GotoIf($[""${GLOBAL(FREENUMDOMAIN)}"" = """"]?dial)               ; check if we set the FREENUMDOMAIN global variable in [global]";
  L "same => n,Set(__SIPFROMDOMAIN=${GLOBAL(FREENUMDOMAIN)})                 ;    if we did set it, then we'll use it for our outbound dialing domain";
  L "same => n(dial),Dial(SIP/${isnresult},40)";
  L "same => n,Goto(fn-${DIALSTATUS},1)";
  [];
  L "exten => fn-BUSY,1,Busy()";
  [];
  L "exten => _f[n]-.,1,NoOp(ISN: ${DIALSTATUS})";
  L "same => n,Congestion()";
  [];
  L "[macro-trunkdial]";
  L ";";
  L "; Standard trunk dial macro (hangs up on a dialstatus that should";
  L "; terminate call)";
  L ";   ${ARG1} - What to dial";
  L ";";
  L "exten => s,1,Dial(${ARG1})";
  L "exten => s,n,Goto(s-${DIALSTATUS},1)";
  L "exten => s-NOANSWER,1,Hangup()";
  L "exten => s-BUSY,1,Hangup()";
  L "exten => _s-.,1,NoOp";
  [];
  L "[stdexten]";
  L ";";
  L "; Standard extension subroutine:";
  L ";   ${EXTEN} - Extension";
  L ";   ${ARG1} - Device(s) to ring";
  L ";   ${ARG2} - Optional context in Voicemail";
  L ";";
  L "; Note that the current version will drop through to the next priority in the";
  L "; case of their pressing '#'.  This gives more flexibility in what do to next:";
  L "; you can prompt for a new extension, or drop the call, or send them to a";
  L "; general delivery mailbox, or...";
  L ";";
  L "; The use of the LOCAL() function is purely for convenience.  Any variable";
  L "; initially declared as LOCAL() will disappear when the innermost Gosub context";
  L "; in which it was declared returns.  Note also that you can declare a LOCAL()";
  L "; variable on top of an existing variable, and its value will revert to its";
  L "; previous value (before being declared as LOCAL()) upon Return.";
  L ";";
  L "exten => _X.,50000(stdexten),NoOp(Start stdexten)";
  L "exten => _X.,n,Set(LOCAL(ext)=${EXTEN})";
  L "exten => _X.,n,Set(LOCAL(dev)=${ARG1})";
  L "exten => _X.,n,Set(LOCAL(cntx)=${ARG2})";
  L "exten => _X.,n,Set(LOCAL(mbx)=${ext}${IF($[!${ISNULL(${cntx})}]?@${cntx})})";
  L "exten => _X.,n,Dial(${dev},20)" ++ [9; 9; 9; 9] ++ L "; Ring the interface, 20 seconds maximum";
  L "exten => _X.,n,Goto(stdexten-${DIALSTATUS},1)" ++ [9; 9] ++ L "; Jump based on status (NOANSWER,BUSY,CHANUNAVAIL,CONGESTION,ANSWER)";
  [];
  L "exten => stdexten-NOANSWER,1,VoiceMail(${mbx},u)" ++ [9] ++ L "; If unavailable, send to voicemail w/ unavail announce";
  L "exten => stdexten-NOANSWER,n,Return()" ++ [9; 9; 9] ++ L "; If they press #, return to start";
  [];
  L "exten => stdexten-BUSY,1,VoiceMail(${mbx},b)" ++ [9; 9] ++ L "; If busy, send to voicemail w/ busy announce";
  L "exten => stdexten-BUSY,n,Return()" ++ [9; 9; 9] ++ L "; If they press #, return to start";
  [];
  L "exten => _stde[x]te[n]-.,1,Goto(stdexten-NOANSWER,1)" ++ [9] ++ L "; Treat anything else as no answer";
  [];
  L "exten => a,1,VoiceMailMain(${mbx})" ++ [9; 9; 9] ++ L "; If they press *, send the user into VoicemailMain";
  L "exten => a,n,Return()";
  [];
  L "[stdPrivacyexten]";
  L ";";
  L "; Standard extension subroutine:";
  L ";   ${ARG1} - Extension";
  L ";   ${ARG2} - Device(s) to ring";
  L ";   ${ARG3} - Optional DONTCALL context name to jump to (assumes the s,1 extension-priority)";
  L ";   ${ARG4} - Optional TORTURE context name to jump to (assumes the s,1 extension-priority)`";
  L ";   ${ARG5} - Context in voicemail (if empty, then ""default"")";
  L ";";
  L "; See above note in stdexten about priority handling on exit.";
  L ";";
  L "exten => _X.,60000(stdPrivacyexten),NoOp(Start stdPrivacyexten)";
  L "exten => _X.,n,Set(LOCAL(ext)=${ARG1})";
  L "exten => _X.,n,Set(LOCAL(dev)=${ARG2})";
  L "exten => _X.,n,Set(LOCAL(dontcntx)=${ARG3})";
  L "exten => _X.,n,Set(LOCAL(tortcntx)=${ARG4})";
  L "exten => _X.,n,Set(LOCAL(cntx)=${ARG5})";
  [];
  L "exten => _X.,n,Set(LOCAL(mbx)=""${ext}""$[""${cntx}"" ? ""@${cntx}"" :: """"])";
  L "exten => _X.,n,Dial(${dev},20,p)" ++ [9; 9; 9] ++ L "; Ring the interface, 20 seconds maximum, call screening";
  [9; 9; 9; 9; 9; 9] ++ L "; option (or use P for databased call _X.creening)";
  L "exten => _X.,n,Goto(stdexten-${DIALSTATUS},1)" ++ [9; 9] ++ L "; Jump based on status (NOANSWER,BUSY,CHANUNAVAIL,CONGESTION,ANSWER)";
  [];
  L "exten => stdexten-NOANSWER,1,VoiceMail(${mbx},u)" ++ [9] ++ L "; If unavailable, send to voicemail w/ unavail announce";
  L "exten => stdexten-NOANSWER,n,NoOp(Finish stdPrivacyexten NOANSWER)";
  L "exten => stdexten-NOANSWER,n,Return()" ++ [9; 9; 9] ++ L "; If they press #, return to start";
  [];
  L "exten => stdexten-BUSY,1,VoiceMail(${mbx},b)" ++ [9; 9] ++ L "; If busy, send to voicemail w/ busy announce";
  L "exten => stdexten-BUSY,n,NoOp(Finish stdPrivacyexten BUSY)";
  L "exten => stdexten-BUSY,n,Return()" ++ [9; 9; 9] ++ L "; If they press #, return to start";
  [];
  L "exten => stdexten-DONTCALL,1,Goto(${dontcntx},s,1)" ++ [9] ++ L "; Callee chose to send this call to a polite ""Don't call again"" script.";
  [];
  L "exten => stdexten-TORTURE,1,Goto(${tortcntx},s,1)" ++ [9] ++ L "; Callee chose to send this call to a telemarketer torture script.";
  [];
  L "exten => _stde[x]te[n]-.,1,Goto(stdexten-NOANSWER,1)" ++ [9] ++ L "; Treat anything else as no answer";
  [];
  L "exten => a,1,VoiceMailMain(${mbx})" ++ [9; 9] ++ L "; If they press *, send the user into VoicemailMain";
  L "exten => a,n,Return()";
  [];
  L "[macro-page]";
  L ";";
  L "; Paging macro:";
  L ";";
  L ";       Check to see if SIP device is in use and DO NOT PAGE if they are";
  L ";";
  L ";   ${ARG1} - Device to page";
  [];
  L "exten => s,1,ChanIsAvail(${ARG1},s)" ++ [9; 9; 9] ++ L "; s is for ANY call";
  L "exten => s,n,GotoIf($[${AVAILSTATUS} = ""1""]?autoanswer:fail)";
  L "exten => s,n(autoanswer),Set(_ALERT_INFO=""RA"")" ++ [9; 9; 9] ++ L "; This is for the PolyComs";
  L "exten => s,n,SIPAddHeader(Call-Info: Answer-After=0)" ++ [9] ++ L "; This is for the Grandstream, Snoms, and Others";
  L "exten => s,n,NoOp()" ++ [9; 9; 9; 9; 9] ++ L "; Add others here and Post on the Wiki!!!!";
  L "exten => s,n,Dial(${ARG1})";
  L "exten => s,n(fail),Hangup()";
  [];
  [];
  L "[demo]";
  L "include => stdexten";
  L ";";
  L "; We start with what to do when a call first comes in.";
  L ";";
  L "exten => s,1,Wait(1)" ++ [9; 9; 9] ++ L "; Wait a second, just for fun";
  L "exten => s,n,Answer()" ++ [9; 9; 9] ++ L "; Answer the line";
  L "exten => s,n,Set(TIMEOUT(digit)=5)" ++ [9] ++ L "; Set Digit Timeout to 5 seconds";
  L "exten => s,n,Set(TIMEOUT(response)=10)" ++ [9] ++ L "; Set Response Timeout to 10 seconds";
  L "exten => s,n(restart),BackGround(demo-congrats)" ++ [9] ++ L "; Play a congratulatory message";
  L "exten => s,n(instruct),BackGround(demo-instruct)" ++ [9] ++ L "; Play some instructions";
  L "exten => s,n,WaitExten()" ++ [9; 9] ++ L "; Wait for an extension to be dialed.";
  [];
  L "exten => 2,1,BackGround(demo-moreinfo)" ++ [9] ++ L "; Give some more information.";
  L "exten => 2,n,Goto(s,instruct)";
  [];
  L "exten => 3,1,Set(CHANNEL(language)=fr)" ++ [9; 9] ++ L "; Set language to french";
  L "exten => 3,n,Goto(s,restart)" ++ [9; 9] ++ L "; Start with the congratulations";
  [];
  L "exten => 1000,1,Goto(default,s,1)";
  L ";";
  L "; We also create an example user, 1234, who is on the console and has";
  L "; voicemail, etc.";
  L ";";
  L "exten => 1234,1,Playback(transfer,skip)" ++ [9; 9] ++ L "; ""Please hold while...""";
  [9; 9; 9; 9; 9] ++ L "; (but skip if channel is not up)";
  L "exten => 1234,n,Gosub(${EXTEN},stdexten(${GLOBAL(CONSOLE)}))";
  L "exten => 1234,n,Goto(default,s,1)" ++ [9; 9] ++ L "; exited Voicemail";
  [];
  L "exten => 1235,1,VoiceMail(1234,u)" ++ [9; 9] ++ L "; Right to voicemail";
  [];
  L "exten => 1236,1,Dial(Console/dsp)" ++ [9; 9] ++ L "; Ring forever";
  L "exten => 1236,n,VoiceMail(1234,b)" ++ [9; 9] ++ L "; Unless busy";
  [];
  L ";";
  L "; # for when they're done with the demo";
  L ";";
  L "exten => #,1,Playback(demo-thanks)" ++ [9] ++ L "; ""Thanks for trying the demo""";
  L "exten => #,n,Hangup()" ++ [9; 9; 9] ++ L "; Hang them up.";
  [];
  L ";";
  L "; A timeout and ""invalid extension rule""";
  L ";";
  L "exten => t,1,Goto(#,1)" ++ [9; 9; 9] ++ L "; If they take too long, give up";
  L "exten => i,1,Playback(invalid)" ++ [9; 9] ++ L "; ""That's not valid, try again""";
  [];
  L ";";
  L "; Create an extension, 500, for dialing the";
  L "; Asterisk demo.";
  L ";";
  L "exten => 500,1,Playback(demo-abouttotry)" ++ [9] ++ L "; Let them know what's going on";
  L "exten => 500,n,Dial(IAX2/guest@pbx.digium.com/s@default)" ++ [9] ++ L "; Call the Asterisk demo";
  L "exten => 500,n,Playback(demo-nogo)" ++ [9] ++ L "; Couldn't connect to the demo site";
  L "exten => 500,n,Goto(s,6)" ++ [9; 9] ++ L "; Return to the start over message.";
  [];
  L ";";
  L "; Create an extension, 600, for evaluating echo latency.";
  L ";";
  L "exten => 600,1,Playback(demo-echotest)" ++ [9] ++ L "; Let them know what's going on";
  L "exten => 600,n,Echo()" ++ [9; 9; 9] ++ L "; Do the echo test";
  L "exten => 600,n,Playback(demo-echodone)" ++ [9] ++ L "; Let them know it's over";
  L "exten => 600,n,Goto(s,6)" ++ [9; 9] ++ L "; Start over";
  [];
  L ";";
  L ";" ++ [9] ++ L "You can use the Macro Page to intercom a individual user";
  L "exten => 76245,1,Macro(page,SIP/Grandstream1)";
  L "; or if your peernames are the same as extensions";
  L "exten => _7XXX,1,Macro(page,SIP/${EXTEN})";
  L ";";
  L ";";
  L "; System Wide Page at extension 7999";
  L ";";
  L "exten => 7999,1,Set(TIMEOUT(absolute)=60)";
  L "exten => 7999,2,Page(Local/Grandstream1@page&Local/Xlite1@page&Local/1234@page/n,d)";
  [];
  L "; Give voicemail at extension 8500";
  L ";";
  L "exten => 8500,1,VoiceMailMain()";
  L "exten => 8500,n,Goto(s,6)";
  L ";";
  L "; Here's what a phone entry would look like (IXJ for example)";
  L ";";
  L ";exten => 1265,1,Dial(Phone/phone0,15)";
  L ";exten => 1265,n,Goto(s,5)";
  [];
  L ";";
  L ";" ++ [9] ++ L "The page context calls up the page macro that sets variables needed for auto-answer";
  L ";" ++ [9] ++ L "It is in is own context to make calling it from the Page() application as simple as";
  L ";" ++ [9] ++ L "Local/{peername}@page";
  L ";";
  L "[page]";
  L "exten => _X.,1,Macro(page,SIP/${EXTEN})";
  [];
  L ";[mainmenu]";
  L ";";
  L "; Example ""main menu"" context with submenu";
  L ";";
  L ";exten => s,1,Answer";
  L ";exten => s,n,Background(thanks)" ++ [9; 9] ++ L "; ""Thanks for calling press 1 for sales, 2 for support, ...""";
  L ";exten => s,n,WaitExten";
  L ";exten => 1,1,Goto(submenu,s,1)";
  L ";exten => 2,1,Hangup";
  L ";include => default";
  L ";";
  L ";[submenu]";
  L ";exten => s,1,Ringing" ++ [9; 9; 9; 9; 9] ++ L "; Make them comfortable with 2 seconds of ringback";
  L ";exten => s,n,Wait,2";
  L ";exten => s,n,Background(submenuopts)" ++ [9] ++ L "; ""Thanks for calling the sales department.  Press 1 for steve, 2 for...""";
  L ";exten => s,n,WaitExten";
  L ";exten => 1,1,Goto(default,steve,1)";
  L ";exten => 2,1,Goto(default,mark,2)";
  [];
  L "[public]";
  L ";";
  L "; ATTENTION: If your Asterisk is connected to the internet and you do";
  L "; not have allowguest=no in sip.conf, everybody out there may use your";
  L "; public context without authentication.  In that case you want to";
  L "; double check which services you offer to the world.";
  L ";";
  L "include => demo";
  [];
  L "[default]";
  L ";";
  L "; By default we include the demo.  In a production system, you";
  L "; probably don't want to have the demo there.";
  L ";";
  L "include => demo";
  [];
  L ";";
  L "; An extension like the one below can be used for FWD, Nikotel, sipgate etc.";
  L "; Note that you must have a [sipprovider] section in sip.conf";
  L ";";
  L ";exten => _41X.,1,Dial(SIP/${FILTER(0-9,${EXTEN:2})}@sipprovider,,r)";
  [];
  L "; Real extensions would go here. Generally you want real extensions to be";
  L "; 4 or 5 digits long (although there is no such requirement) and start with a";
  L "; single digit that is fairly large (like 6 or 7) so that you have plenty of";
  L "; room to overlap extensions and menu options without conflict.  You can alias";
  L "; them with names, too, and use global variables";
  [];
  L ";exten => 6245,hint,SIP/Grandstream1&SIP/Xlite1(Joe Schmoe) ; Channel hints for presence";
  L ";exten => 6245,1,Dial(SIP/Grandstream1,20,rt)" ++ [9] ++ L "; permit transfer";
  L ";exten => 6245,n(dial),Dial(${HINT},20,rtT)" ++ [9] ++ L "; Use hint as listed";
  L ";exten => 6245,n,VoiceMail(6245,u)" ++ [9; 9] ++ L "; Voicemail (unavailable)";
  L ";exten => 6245,s+1,Hangup" ++ [9; 9; 9] ++ L "; s+1, same as n";
  L ";exten => 6245,dial+101,VoiceMail(6245,b)" ++ [9] ++ L "; Voicemail (busy)";
  L ";exten => 6361,1,Dial(IAX2/JaneDoe,,rm)" ++ [9; 9] ++ L "; ring without time limit";
  L ";exten => 6389,1,Dial(MGCP/aaln/1@192.168.0.14)";
  L ";exten => 6390,1,Dial(JINGLE/caller/callee) ; Dial via jingle using labels";
  L ";exten => 6391,1,Dial(JINGLE/asterisk@digium.com/mogorman@astjab.org) ;Dial via jingle using asterisk as the transport and calling mogorman.";
  L ";exten => 6394,1,Dial(Local/6275/n)" ++ [9; 9] ++ L "; this will dial ${MARK}";
  [];
  L ";exten => 6275,1,Gosub(${EXTEN},stdexten(${MARK}))";
  [9; 9; 9; 9; 9; 9] ++ L "; assuming ${MARK} is something like DAHDI/2";
  L ";exten => 6275,n,Goto(default,s,1)" ++ [9; 9] ++ L "; exited Voicemail";
  L ";exten => mark,1,Goto(6275,1)" ++ [9; 9; 9] ++ L "; alias mark to 6275";
  L ";exten => 6536,1,Gosub(${EXTEN},stdexten(${WIL}))";
  [9; 9; 9; 9; 9; 9] ++ L "; Ditto for wil";
  L ";exten => 6536,n,Goto(default,s,1)" ++ [9; 9] ++ L "; exited Voicemail";
  L ";exten => wil,1,Goto(6236,1)";
  [];
  L ";If you want to subscribe to the status of a parking space, this is";
  L ";how you do it. Subscribe to extension 6600 in sip, and you will see";
  L ";the status of the first parking lot with this extensions' help";
  L ";exten => 6600,hint,park:701@parkedcalls";
  L ";exten => 6600,1,noop";
  L ";";
  L ";To subscribe to the availability of a free member in the 'markq' queue.";
  L ";Note: '_avail' is added to the QueueName";
  L ";exten => 8501,hint,Queue:markq_avail";
  L ";exten => 8501,1,Queue(markq)";
  L ";";
  L "; You can also monitor the status of a queue by providing a hint for a";
  L "; particular queue name.";
  L ";exten => 8502,hint,Queue:markq";
  L ";exten => 8502,1,Queue(markq)";
  L ";";
  L "; Some other handy things are an extension for checking voicemail via";
  L "; voicemailmain";
  L ";";
  L ";exten => 8500,1,VoicemailMain";
  L ";exten => 8500,n,Hangup";
  L ";";
  L "; Or a conference room (you'll need to edit meetme.conf to enable this room)";
  L ";";
  L ";exten => 8600,1,Meetme(1234)";
  L ";";
  L "; Or playing an announcement to the called party, as soon it answers";
  L ";";
  L ";exten = 8700,1,Dial(${MARK},30,A(/path/to/my/announcemsg))";
  L ";";
  [];
  L "; example of a compartmentalized company called ""acme""";
  L ";";
  L "; this is the context that your incoming IAX/SIP trunk dumps you in...";
  L ";[acme-incoming]";
  L ";exten => s,1,Wait(1)";
  L ";exten => s,n,Answer()";
  L ";exten => s,n(menu),Playback(acme/vm-brief-menu)";
  L ";exten => s,n(exten),Background(vm-enter-num-to-call)";
  L ";exten => s,n,WaitExten(5)";
  L ";exten => s,n(goodbye),Playback(vm-goodbye)";
  L ";exten => s,n(end),Hangup()";
  L ";";
  L ";include  => acme-extens";
  L ";";
  L ";exten => i,1,Playback(vm-invalid)";
  L ";exten => i,n,Goto(s,exten)" ++ [9; 9; 9] ++ L "; optionally, transfer to operator";
  L ";";
  L ";exten => t,1,Goto(s,goodbye)";
  L ";";
  L "; this is the context our internal SIP hardphones use (see sip.conf)";
  L ";";
  L ";[acme-internal]";
  L ";exten => s,1,Answer()";
  L ";exten => s,n(exten),Background(vm-enter-num-to-call)";
  L ";exten => s,n,WaitExten(5)";
  L ";exten => s,n(goodbye),Playback(vm-goodbye)";
  L ";exten => s,n(end),Hangup()";
  L ";";
  L ";include => trunkint";
  L ";include => trunkld";
  L ";include => trunklocal";
  L ";";
  L ";include => acme-extens";
  L ";";
  L "; you can test what your system sounds like to outside callers by dialing this";
  L ";exten => 777,1,DISA(no-password,acme-incoming)";
  L ";";
  L "; grouping of acme's extensions... never used directly, always included.";
  L ";";
  L ";[acme-extens]";
  L ";include => stdexten";
  L ";exten => 111,1,Gosub(111,stdexten(SIP/pete_1,acme))";
  L ";exten => 111,n,Goto(s,exten)";
  L ";";
  L ";exten => 112,1,Gosub(112,stdexten(SIP/nancy_1,acme))";
  L ";exten => 112,n,Goto(s,end)";
  L ";";
  L "; end of acme example";
  [];
  L ";";
  L "; Time context: you can patch this in via the following.";
  L ";";
  L "; [acme-internal]";
  L "; ...";
  L "; exten => 777,1,Gosub(time)";
  L "; exten => 777,n,Hangup()";
  L ";";
  L "; ...";
  L "; include => time";
  L ";";
  L "; Note: if you're geographically spread out, you can have SIP extensions";
  L "; specify their own local timezone in sip.conf as:";
  L ";";
  L "; [boi]";
  L "; type=friend";
  L "; context=acme-internal";
  L "; callerid=""Boise Ofc. <2083451111>""";
  L "; ...";
  L "; ; use system-wide default timezone of MST7MDT";
  L ";";
  L "; [lws]";
  L "; type=friend";
  L "; context=acme-internal";
  L "; callerid=""Lewiston Ofc. <2087431111>""";
  L "; ...";
  L "; setvar=timezone=PST8PDT";
  L ";";
  L "; ""timezone"" isn't a 'reserved' name in any way, and other places where";
  L "; the timezone is significant (e.g. calls to ""SayUnixTime()"", etc) will";
  L "; require modification as well.  Note that voicemail.conf already has";
  L "; a mechanism for timezones.";
  L ";";
  [];
  L "[time]";
  L "exten => _X.,30000(time),NoOp(Time: ${EXTEN} ${timezone})";
  L "exten => _X.,n,Wait(0.25)";
  L "exten => _X.,n,Answer()";
  L "; the amount of delay is set for English; you may need to adjust this time";
  L "; for other languages if there's no pause before the synchronizing beep.";
  L "exten => _X.,n,Set(FUTURETIME=$[${EPOCH} + 12])";
  L "exten => _X.,n,SayUnixTime(${FUTURETIME},Zulu,HNS)";
  L "exten => _X.,n,SayPhonetic(z)";
  L "; use the timezone associated with the extension (sip only), or system-wide";
  L "; default if one hasn't been set.";
  L "exten => _X.,n,SayUnixTime(${FUTURETIME},${timezone},HNS)";
  L "exten => _X.,n,Playback(spy-local)";
  L "exten => _X.,n,WaitUntil(${FUTURETIME})";
  L "exten => _X.,n,Playback(beep)";
  L "exten => _X.,n,Return()";
  [];
  L ";";
  L "; ANI context: use in the same way as ""time"" above";
  L ";";
  [];
  L "[ani]";
  L "exten => _X.,40000(ani),NoOp(ANI: ${EXTEN})";
  L "exten => _X.,n,Wait(0.25)";
  L "exten => _X.,n,Answer()";
  L "exten => _X.,n,Playback(vm-from)";
  L "exten => _X.,n,SayDigits(${CALLERID(ani)})";
  L "exten => _X.,n,Wait(1.25)";
  L "exten => _X.,n,SayDigits(${CALLERID(ani)})" ++ [9] ++ L "; playback again in case of missed digit";
  L "exten => _X.,n,Return()";
  [];
  L "; For more information on applications, just type ""core show applications"" at your";
  L "; friendly Asterisk CLI prompt.";
  L ";";
  L "; ""core show application <command>"" will show details of how you";
  L "; use that particular application in this file, the dial plan.";
  L "; ""core show functions"" will list all dialplan functions";
  L "; ""core show function <COMMAND>"" will show you more information about";
  L "; one function. Remember that function names are UPPER CASE."].

(* tests/alintregress/test_asterisk_dp.py:28 *)
Example test_extensions_conf : let r := run_check asterisk_dp in
  ends (snd r) = true /\ linted [] (fst r) [(I_NOTIMPL_IGNOREPAT, 3%nat); (I_NOTIMPL_SWITCH, 1%nat); (W_DP_PRIO_BADORDER, 4%nat)] = true.
Proof. vm_compute. repeat split. Qed.
