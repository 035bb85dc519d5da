(* The functions registered for Asterisk version v13 (the default,
   version.py:33): register() of every module in func/v13/, which are symlinks
   to func/vall/.  All lower case names are distinct, so that the order of
   os.listdir (version.py:66) does not matter. *)
From Verif Require Import Base PyStr Defines Var VarFun AppM.

Definition funcs_v13 : ftable :=
  [(L "confbridge", FInfo (L "CONFBRIDGE") (L "app_confbridge") FPlain);
   (L "confbridge_info", FInfo (L "CONFBRIDGE_INFO") (L "app_confbridge") FPlain);
   (L "queue_exists", FInfo (L "QUEUE_EXISTS") (L "app_queue") FPlain);
   (L "queue_member", FInfo (L "QUEUE_MEMBER") (L "app_queue") FPlain);
   (L "queue_member_count", FInfo (L "QUEUE_MEMBER_COUNT") (L "app_queue") FPlain);
   (L "queue_member_list", FInfo (L "QUEUE_MEMBER_LIST") (L "app_queue") FPlain);
   (L "queue_member_penalty", FInfo (L "QUEUE_MEMBER_PENALTY") (L "app_queue") FPlain);
   (L "queue_variables", FInfo (L "QUEUE_VARIABLES") (L "app_queue") FPlain);
   (L "queue_waiting_count", FInfo (L "QUEUE_WAITING_COUNT") (L "app_queue") FPlain);
   (L "local", FInfo (L "LOCAL") (L "app_stack") FPlain);
   (L "local_peek", FInfo (L "LOCAL_PEEK") (L "app_stack") FPlain);
   (L "stack_peek", FInfo (L "STACK_PEEK") (L "app_stack") FPlain);
   (L "ami_client", FInfo (L "AMI_CLIENT") (L "<builtin>") FPlain);
   (L "exception", FInfo (L "EXCEPTION") (L "<builtin>") FPlain);
   (L "feature", FInfo (L "FEATURE") (L "<builtin>") FPlain);
   (L "featuremap", FInfo (L "FEATUREMAP") (L "<builtin>") FPlain);
   (L "message", FInfo (L "MESSAGE") (L "<builtin>") FPlain);
   (L "message_data", FInfo (L "MESSAGE_DATA") (L "<builtin>") FPlain);
   (L "testtime", FInfo (L "TESTTIME") (L "<builtin>") FPlain);
   (L "pjsip_dial_contacts", FInfo (L "PJSIP_DIAL_CONTACTS") (L "chan_pjsip") FPlain);
   (L "pjsip_dtmf_mode", FInfo (L "PJSIP_DTMF_MODE") (L "chan_pjsip") FPlain);
   (L "pjsip_media_offer", FInfo (L "PJSIP_MEDIA_OFFER") (L "chan_pjsip") FPlain);
   (L "pjsip_moh_passthrough", FInfo (L "PJSIP_MOH_PASSTHROUGH") (L "chan_pjsip") FPlain);
   (L "pjsip_parse_uri", FInfo (L "PJSIP_PARSE_URI") (L "chan_pjsip") FPlain);
   (L "pjsip_send_session_refresh", FInfo (L "PJSIP_SEND_SESSION_REFRESH") (L "chan_pjsip") FPlain);
   (L "checksipdomain", FInfo (L "CHECKSIPDOMAIN") (L "chan_sip") FPlain);
   (L "sip_header", FInfo (L "SIP_HEADER") (L "chan_sip") FPlain);
   (L "sipchaninfo", FInfo (L "SIPCHANINFO") (L "chan_sip") FPlain);
   (L "sippeer", FInfo (L "SIPPEER") (L "chan_sip") FPlain);
   (L "audiohook_inherit", FInfo (L "AUDIOHOOK_INHERIT") (L "func_audiohookinherit") FAudio);
   (L "base64_encode", FInfo (L "BASE64_ENCODE") (L "func_base64") FPlain);
   (L "base64_decode", FInfo (L "BASE64_DECODE") (L "func_base64") FPlain);
   (L "callerid", FInfo (L "CALLERID") (L "func_callerid") FPlain);
   (L "callerpres", FInfo (L "CALLERPRES") (L "func_callerid") FPlain);
   (L "connectedline", FInfo (L "CONNECTEDLINE") (L "func_callerid") FPlain);
   (L "redirecting", FInfo (L "REDIRECTING") (L "func_callerid") FPlain);
   (L "cdr", FInfo (L "CDR") (L "func_cdr") FPlain);
   (L "channel", FInfo (L "CHANNEL") (L "func_channel") FPlain);
   (L "channels", FInfo (L "CHANNELS") (L "func_channel") FPlain);
   (L "master_channel", FInfo (L "MASTER_CHANNEL") (L "func_channel") FPlain);
   (L "curl", FInfo (L "CURL") (L "func_curl") FPlain);
   (L "curlopt", FInfo (L "CURLOPT") (L "func_curl") FPlain);
   (L "cut", FInfo (L "CUT") (L "func_cut") FPlain);
   (L "sort", FInfo (L "SORT") (L "func_cut") FPlain);
   (L "db", FInfo (L "DB") (L "func_db") FPlain);
   (L "db_exists", FInfo (L "DB_EXISTS") (L "func_db") FPlain);
   (L "db_keys", FInfo (L "DB_KEYS") (L "func_db") FPlain);
   (L "db_delete", FInfo (L "DB_DELETE") (L "func_db") FPlain);
   (L "device_state", FInfo (L "DEVICE_STATE") (L "func_devstate") FPlain);
   (L "hint", FInfo (L "HINT") (L "func_devstate") FPlain);
   (L "dialgroup", FInfo (L "DIALGROUP") (L "func_dialgroup") FPlain);
   (L "dialplan_exists", FInfo (L "DIALPLAN_EXISTS") (L "func_dialplan") FPlain);
   (L "valid_exten", FInfo (L "VALID_EXTEN") (L "func_dialplan") FPlain);
   (L "enumquery", FInfo (L "ENUMQUERY") (L "func_enum") FPlain);
   (L "enumresult", FInfo (L "ENUMRESULT") (L "func_enum") FPlain);
   (L "enumlookup", FInfo (L "ENUMLOOKUP") (L "func_enum") FPlain);
   (L "txtcidname", FInfo (L "TXTCIDNAME") (L "func_enum") FPlain);
   (L "env", FInfo (L "ENV") (L "func_env") FPlain);
   (L "file", FInfo (L "FILE") (L "func_env") FPlain);
   (L "file_count_line", FInfo (L "FILE_COUNT_LINE") (L "func_env") FPlain);
   (L "file_format", FInfo (L "FILE_FORMAT") (L "func_env") FPlain);
   (L "stat", FInfo (L "STAT") (L "func_env") FPlain);
   (L "global", FInfo (L "GLOBAL") (L "func_global") FPlain);
   (L "shared", FInfo (L "SHARED") (L "func_global") FPlain);
   (L "group", FInfo (L "GROUP") (L "func_groupcount") FPlain);
   (L "group_count", FInfo (L "GROUP_COUNT") (L "func_groupcount") FPlain);
   (L "group_list", FInfo (L "GROUP_LIST") (L "func_groupcount") FPlain);
   (L "group_match_count", FInfo (L "GROUP_MATCH_COUNT") (L "func_groupcount") FPlain);
   (L "exists", FInfo (L "EXISTS") (L "func_logic") FPlain);
   (L "if", FInfo (L "IF") (L "func_logic") FPlain);
   (L "iftime", FInfo (L "IFTIME") (L "func_logic") FPlain);
   (L "import", FInfo (L "IMPORT") (L "func_logic") FPlain);
   (L "isnull", FInfo (L "ISNULL") (L "func_logic") FPlain);
   (L "set", FInfo (L "SET") (L "func_logic") FSet);
   (L "math", FInfo (L "MATH") (L "func_math") FPlain);
   (L "inc", FInfo (L "INC") (L "func_math") FCount);
   (L "dec", FInfo (L "DEC") (L "func_math") FCount);
   (L "md5", FInfo (L "MD5") (L "func_md5") FPlain);
   (L "odbc_fetch", FInfo (L "ODBC_FETCH") (L "func_odbc") FPlain);
   (L "sql_esc", FInfo (L "SQL_ESC") (L "func_odbc") FPlain);
   (L "pjsip_aor", FInfo (L "PJSIP_AOR") (L "func_pjsip") FPlain);
   (L "pjsip_contact", FInfo (L "PJSIP_CONTACT") (L "func_pjsip") FPlain);
   (L "pjsip_endpoint", FInfo (L "PJSIP_ENDPOINT") (L "func_pjsip") FPlain);
   (L "rand", FInfo (L "RAND") (L "func_rand") FPlain);
   (L "shell", FInfo (L "SHELL") (L "func_shell") FPlain);
   (L "array", FInfo (L "ARRAY") (L "func_strings") FPlain);
   (L "csv_quote", FInfo (L "CSV_QUOTE") (L "func_strings") FPlain);
   (L "eval", FInfo (L "EVAL") (L "func_strings") FPlain);
   (L "fieldnum", FInfo (L "FIELDNUM") (L "func_strings") FPlain);
   (L "fieldqty", FInfo (L "FIELDQTY") (L "func_strings") FPlain);
   (L "filter", FInfo (L "FILTER") (L "func_strings") FPlain);
   (L "hash", FInfo (L "HASH") (L "func_strings") FPlain);
   (L "hashkeys", FInfo (L "HASHKEYS") (L "func_strings") FPlain);
   (L "keypadhash", FInfo (L "KEYPADHASH") (L "func_strings") FPlain);
   (L "len", FInfo (L "LEN") (L "func_strings") FPlain);
   (L "listfilter", FInfo (L "LISTFILTER") (L "func_strings") FPlain);
   (L "passthru", FInfo (L "PASSTHRU") (L "func_strings") FPlain);
   (L "pop", FInfo (L "POP") (L "func_strings") FPlain);
   (L "push", FInfo (L "PUSH") (L "func_strings") FPlain);
   (L "quote", FInfo (L "QUOTE") (L "func_strings") FPlain);
   (L "regex", FInfo (L "REGEX") (L "func_strings") FPlain);
   (L "replace", FInfo (L "REPLACE") (L "func_strings") FPlain);
   (L "shift", FInfo (L "SHIFT") (L "func_strings") FPlain);
   (L "strftime", FInfo (L "STRFTIME") (L "func_strings") FPlain);
   (L "strptime", FInfo (L "STRPTIME") (L "func_strings") FPlain);
   (L "strreplace", FInfo (L "STRREPLACE") (L "func_strings") FPlain);
   (L "tolower", FInfo (L "TOLOWER") (L "func_strings") FPlain);
   (L "toupper", FInfo (L "TOUPPER") (L "func_strings") FPlain);
   (L "unshift", FInfo (L "UNSHIFT") (L "func_strings") FPlain);
   (L "talk_detect", FInfo (L "TALK_DETECT") (L "func_talkdetect") FPlain);
   (L "timeout", FInfo (L "TIMEOUT") (L "func_timeout") FPlain);
   (L "uridecode", FInfo (L "URIDECODE") (L "func_uri") FPlain);
   (L "uriencode", FInfo (L "URIENCODE") (L "func_uri") FPlain);
   (L "volume", FInfo (L "VOLUME") (L "func_volume") FPlain);
   (L "faxopt", FInfo (L "FAXOPT") (L "res_fax") FPlain);
   (L "pjsip_header", FInfo (L "PJSIP_HEADER") (L "res_pjsip") FPlain);
   (L "unknown", FInfo (L "UNKNOWN") (L "unknown") FPlain)].

(* The applications registered for v13: app/v13/, symlinks to app/vall/.  The
   lower case names are distinct. *)
Definition apps_v13 : atable :=
  [(L "agentlogin", AInfo (L "AgentLogin") (L "app_agent_pool") APlain);
   (L "agentrequest", AInfo (L "AgentRequest") (L "app_agent_pool") APlain);
   (L "authenticate", AInfo (L "Authenticate") (L "app_authenticate") APlain);
   (L "bridgeadd", AInfo (L "BridgeAdd") (L "app_bridgeaddchan") APlain);
   (L "bridgewait", AInfo (L "BridgeWait") (L "app_bridgewait") APlain);
   (L "nocdr", AInfo (L "NoCDR") (L "app_cdr") APlain);
   (L "celgenuserevent", AInfo (L "CELGenUserEvent") (L "app_celgenuserevent") APlain);
   (L "chanisavail", AInfo (L "ChanIsAvail") (L "app_chanisavail") APlain);
   (L "channelredirect", AInfo (L "ChannelRedirect") (L "app_channelredirect") APlain);
   (L "chanspy", AInfo (L "ChanSpy") (L "app_chanspy") APlain);
   (L "extenspy", AInfo (L "ExtenSpy") (L "app_chanspy") APlain);
   (L "confbridge", AInfo (L "ConfBridge") (L "app_confbridge") APlain);
   (L "controlplayback", AInfo (L "ControlPlayback") (L "app_controlplayback") APlain);
   (L "dbdeltree", AInfo (L "DBdeltree") (L "app_db") APlain);
   (L "dial", AInfo (L "Dial") (L "app_dial") APlain);
   (L "retrydial", AInfo (L "RetryDial") (L "app_dial") APlain);
   (L "pickup", AInfo (L "Pickup") (L "app_directed_pickup") APlain);
   (L "pickupchan", AInfo (L "PickupChan") (L "app_directed_pickup") APlain);
   (L "pickupold1v4", AInfo (L "PickupOld1v4") (L "app_directed_pickup") APlain);
   (L "directory", AInfo (L "Directory") (L "app_directory") APlain);
   (L "dumpchan", AInfo (L "DumpChan") (L "app_dumpchan") APlain);
   (L "echo", AInfo (L "Echo") (L "app_echo") APlain);
   (L "exec", AInfo (L "Exec") (L "app_exec") APlain);
   (L "execif", AInfo (L "ExecIf") (L "app_exec") AExecIf);
   (L "tryexec", AInfo (L "TryExec") (L "app_exec") APlain);
   (L "followme", AInfo (L "FollowMe") (L "app_followme") APlain);
   (L "forkcdr", AInfo (L "ForkCDR") (L "app_forkcdr") APlain);
   (L "macro", AInfo (L "Macro") (L "app_macro") APlain);
   (L "macroif", AInfo (L "MacroIf") (L "app_macro") APlain);
   (L "macroexclusive", AInfo (L "MacroExclusive") (L "app_macro") APlain);
   (L "macroexit", AInfo (L "MacroExit") (L "app_macro") APlain);
   (L "meetme", AInfo (L "MeetMe") (L "app_meetme") APlain);
   (L "meetmecount", AInfo (L "MeetMeCount") (L "app_meetme") APlain);
   (L "meetmeadmin", AInfo (L "MeetMeAdmin") (L "app_meetme") APlain);
   (L "meetmechanneladmin", AInfo (L "MeetMeChannelAdmin") (L "app_meetme") APlain);
   (L "slastation", AInfo (L "SLAStation") (L "app_meetme") APlain);
   (L "slatrunk", AInfo (L "SLATrunk") (L "app_meetme") APlain);
   (L "milliwatt", AInfo (L "Milliwatt") (L "app_milliwatt") (AArgs [Options (L "o")] None));
   (L "mixmonitor", AInfo (L "MixMonitor") (L "app_mixmonitor") APlain);
   (L "stopmixmonitor", AInfo (L "StopMixMonitor") (L "app_mixmonitor") APlain);
   (L "mysql", AInfo (L "MYSQL") (L "app_mysql") APlain);
   (L "originate", AInfo (L "Originate") (L "app_originate") (AArgs [AnyArg; AppOrExten; AnyArg; AnyArg; AnyArg; AnyArg] (Some 3%nat)));
   (L "page", AInfo (L "Page") (L "app_page") APlain);
   (L "playback", AInfo (L "Playback") (L "app_playback") APlain);
   (L "playtones", AInfo (L "PlayTones") (L "app_playtones") APlain);
   (L "stopplaytones", AInfo (L "StopPlayTones") (L "app_playtones") APlain);
   (L "queue", AInfo (L "Queue") (L "app_queue") APlain);
   (L "addqueuemember", AInfo (L "AddQueueMember") (L "app_queue") APlain);
   (L "removequeuemember", AInfo (L "RemoveQueueMember") (L "app_queue") APlain);
   (L "pausequeuemember", AInfo (L "PauseQueueMember") (L "app_queue") APlain);
   (L "unpausequeuemember", AInfo (L "UnpauseQueueMember") (L "app_queue") APlain);
   (L "queuelog", AInfo (L "QueueLog") (L "app_queue") APlain);
   (L "read", AInfo (L "Read") (L "app_read") APlain);
   (L "record", AInfo (L "Record") (L "app_record") APlain);
   (L "datetime", AInfo (L "DateTime") (L "app_sayunixtime") APlain);
   (L "sayunixtime", AInfo (L "SayUnixTime") (L "app_sayunixtime") APlain);
   (L "senddtmf", AInfo (L "SendDTMF") (L "app_senddtmf") APlain);
   (L "setcallerid", AInfo (L "SetCallerID") (L "app_setcallerid") APlain);
   (L "setcallerpres", AInfo (L "SetCallerPres") (L "app_setcallerid") APlain);
   (L "softhangup", AInfo (L "SoftHangup") (L "app_softhangup") APlain);
   (L "gosub", AInfo (L "Gosub") (L "app_stack") AGosub);
   (L "gosubif", AInfo (L "GosubIf") (L "app_stack") AGosubIf);
   (L "return", AInfo (L "Return") (L "app_stack") APlain);
   (L "stackpop", AInfo (L "StackPop") (L "app_stack") APlain);
   (L "stasis", AInfo (L "Stasis") (L "app_stasis") APlain);
   (L "system", AInfo (L "System") (L "app_system") APlain);
   (L "trysystem", AInfo (L "TrySystem") (L "app_system") APlain);
   (L "userevent", AInfo (L "UserEvent") (L "app_userevent") APlain);
   (L "log", AInfo (L "Log") (L "app_verbose") APlain);
   (L "verbose", AInfo (L "Verbose") (L "app_verbose") APlain);
   (L "voicemail", AInfo (L "VoiceMail") (L "app_voicemail") (AArgs [AnyArg; Options (L "bdgsuUP")] (Some 1%nat)));
   (L "voicemailmain", AInfo (L "VoiceMailMain") (L "app_voicemail") APlain);
   (L "voicemailplaymsg", AInfo (L "VoiceMailPlayMsg") (L "app_voicemail") APlain);
   (L "mailboxexists", AInfo (L "MailboxExists") (L "app_voicemail") APlain);
   (L "vmauthenticate", AInfo (L "VMAuthenticate") (L "app_voicemail") APlain);
   (L "vmsayname", AInfo (L "VMSayName") (L "app_voicemail") APlain);
   (L "waituntil", AInfo (L "WaitUntil") (L "app_waituntil") APlain);
   (L "continuewhile", AInfo (L "ContinueWhile") (L "app_while") APlain);
   (L "endwhile", AInfo (L "EndWhile") (L "app_while") APlain);
   (L "exitwhile", AInfo (L "ExitWhile") (L "app_while") APlain);
   (L "while", AInfo (L "While") (L "app_while") APlain);
   (L "answer", AInfo (L "Answer") (L "<builtin>") APlain);
   (L "background", AInfo (L "Background") (L "<builtin>") ABackground);
   (L "bridge", AInfo (L "Bridge") (L "<builtin>") APlain);
   (L "busy", AInfo (L "Busy") (L "<builtin>") APlain);
   (L "congestion", AInfo (L "Congestion") (L "<builtin>") APlain);
   (L "goto", AInfo (L "Goto") (L "<builtin>") AGoto);
   (L "gotoif", AInfo (L "GotoIf") (L "<builtin>") AGotoIf);
   (L "gotoiftime", AInfo (L "GotoIfTime") (L "<builtin>") AIfStyle);
   (L "execiftime", AInfo (L "ExecIfTime") (L "<builtin>") AIfStyle);
   (L "hangup", AInfo (L "Hangup") (L "<builtin>") APlain);
   (L "noop", AInfo (L "NoOp") (L "<builtin>") APlain);
   (L "proceeding", AInfo (L "Proceeding") (L "<builtin>") APlain);
   (L "progress", AInfo (L "Progress") (L "<builtin>") APlain);
   (L "resetcdr", AInfo (L "ResetCDR") (L "<builtin>") APlain);
   (L "ringing", AInfo (L "Ringing") (L "<builtin>") APlain);
   (L "saynumber", AInfo (L "SayNumber") (L "<builtin>") APlain);
   (L "saydigits", AInfo (L "SayDigits") (L "<builtin>") APlain);
   (L "sayalpha", AInfo (L "SayAlpha") (L "<builtin>") APlain);
   (L "sayphonetic", AInfo (L "SayPhonetic") (L "<builtin>") APlain);
   (L "setamaflags", AInfo (L "SetAMAFlags") (L "<builtin>") APlain);
   (L "setglobalvar", AInfo (L "SetGlobalVar") (L "<builtin>") APlain);
   (L "set", AInfo (L "Set") (L "<builtin>") ASet);
   (L "importvar", AInfo (L "ImportVar") (L "<builtin>") APlain);
   (L "wait", AInfo (L "Wait") (L "<builtin>") APlain);
   (L "waitexten", AInfo (L "WaitExten") (L "<builtin>") APlain);
   (L "sipaddheader", AInfo (L "SIPAddHeader") (L "chan_sip") APlain);
   (L "sipremoveheader", AInfo (L "SIPRemoveHeader") (L "chan_sip") APlain);
   (L "sipdtmfmode", AInfo (L "SIPDtmfMode") (L "chan_sip") APlain);
   (L "odbcfinish", AInfo (L "ODBCFinish") (L "func_odbc") APlain);
   (L "agi", AInfo (L "AGI") (L "res_agi") APlain);
   (L "deadagi", AInfo (L "DeadAGI") (L "res_agi") APlain);
   (L "eagi", AInfo (L "EAGI") (L "res_agi") APlain);
   (L "receivefax", AInfo (L "ReceiveFAX") (L "res_fax") APlain);
   (L "sendfax", AInfo (L "SendFAX") (L "res_fax") APlain);
   (L "musiconhold", AInfo (L "MusicOnHold") (L "res_musiconhold") APlain);
   (L "waitmusiconhold", AInfo (L "WaitMusicOnHold") (L "res_musiconhold") APlain);
   (L "setmusiconhold", AInfo (L "SetMusicOnHold") (L "res_musiconhold") APlain);
   (L "startmusiconhold", AInfo (L "StartMusicOnHold") (L "res_musiconhold") APlain);
   (L "stopmusiconhold", AInfo (L "StopMusicOnHold") (L "res_musiconhold") APlain);
   (L "unknown", AInfo (L "Unknown") (L "unknown") APlain)].
