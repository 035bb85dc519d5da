(* The unit tests of tests/application, evaluated on the model. *)
From Verif Require Import Base PyStr Defines Var VarFun AppM Tables.

Definition w0 : loc := Where (L "dummy") 1 [].
Definition names (l : list lev) : list str := map (fun m => mname (m_cls m)) (log_msgs l).
Definition run (s : str) : M (list dest) := application uni_ascii funcs_v13 apps_v13 s w0.
Definition lint (s : str) : list str * bool := let r := run s in (names (fst r), is_ok (snd r)).

(* tests/application/test_applist.py *)
Example test_applist :
  forallb (fun n => match lint (n ++ L "(random_argument)") with ([], true) => true | _ => false end)
    [L "AgentLogin"; L "AgentRequest"; L "AGI"; L "AddQueueMember"; L "Answer";
     L "Authenticate"; L "Background"; L "Busy"; L "CELGenUserEvent"; L "ChanIsAvail";
     L "ChanSpy"; L "ChannelRedirect"; L "ConfBridge"; L "Congestion"; L "ContinueWhile";
     L "ControlPlayback"; L "DateTime"; L "Dial"; L "Directory"; L "DumpChan";
     L "Echo"; L "EndWhile"; L "Exec"; L "ExitWhile"; L "ExtenSpy";
     L "FollowMe"; L "ForkCDR"; L "Gosub"; L "Goto"; L "Hangup";
     L "ImportVar"; L "Log"; L "Macro"; L "MacroExclusive"; L "MacroExit";
     L "MacroIf"; L "MailboxExists"; L "MeetMe"; L "MeetMeAdmin"; L "MeetMeChannelAdmin";
     L "MeetMeCount"; L "MixMonitor"; L "MusicOnHold"; L "MYSQL"; L "NoCDR";
     L "NoOp"; L "Page"; L "PauseQueueMember"; L "Pickup"; L "PickupChan";
     L "PickupOld1v4"; L "PlayTones"; L "Playback"; L "Proceeding"; L "Progress";
     L "Queue"; L "QueueLog"; L "Read"; L "ReceiveFAX"; L "Record";
     L "RemoveQueueMember"; L "ResetCDR"; L "RetryDial"; L "Return"; L "Ringing";
     L "SIPAddHeader"; L "SIPDtmfMode"; L "SIPRemoveHeader"; L "SLAStation"; L "SLATrunk";
     L "SayAlpha"; L "SayDigits"; L "SayNumber"; L "SayPhonetic"; L "SayUnixTime";
     L "SendDTMF"; L "SendFAX"; L "SetAMAFlags"; L "SetCallerID"; L "SetCallerPres";
     L "SetGlobalVar"; L "SetMusicOnHold"; L "SoftHangup"; L "StackPop"; L "StartMusicOnHold";
     L "Stasis"; L "StopMixMonitor"; L "StopMusicOnHold"; L "StopPlayTones"; L "System";
     L "TryExec"; L "TrySystem"; L "Unknown"; L "UnpauseQueueMember"; L "UserEvent";
     L "VMAuthenticate"; L "Verbose"; L "VMSayName"; L "VoiceMail"; L "VoiceMailMain";
     L "VoiceMailPlayMsg"; L "Wait"; L "WaitExten"; L "WaitMusicOnHold"; L "WaitUntil";
     L "While"] = true.
Proof. vm_compute. reflexivity. Qed.

(* tests/application/test_base.py *)
Example test_separate_1 :
  separate_args (SlTok (TS (L "abc,def,ghi"))) 44 true =
  map TS [L "abc"; L "def"; L "ghi"].
Proof. reflexivity. Qed.
Example test_separate_2 :
  separate_args (SlTok (TS (L """abc"""))) 44 true =
  map TS [L "abc"].
Proof. reflexivity. Qed.
Example test_separate_3 :
  separate_args (SlTok (TS (L """abc"",def"))) 44 true =
  map TS [L "abc"; L "def"].
Proof. reflexivity. Qed.
Example test_separate_4 :
  separate_args (SlTok (TS (L "abc,""def"",""ghi"""))) 44 true =
  map TS [L "abc"; L "def"; L "ghi"].
Proof. reflexivity. Qed.
Example test_separate_5 :
  separate_args (SlTok (TS (L "a,b,c|""d,e,f""|""ghi"""))) 124 true =
  map TS [L "a,b,c"; L "d,e,f"; L "ghi"].
Proof. reflexivity. Qed.
Example test_separate_6 :
  separate_args (SlTok (TS (L """a,b,c"",""d"",e,f"))) 44 true =
  map TS [L "a,b,c"; L "d"; L "e"; L "f"].
Proof. reflexivity. Qed.
Example test_separate_7 :
  separate_args (SlTok (TS (L """a,b,c"",""d"",e,f"))) 44 false =
  map TS [L """a,b,c"""; L """d"""; L "e"; L "f"].
Proof. reflexivity. Qed.
Example test_separate_8 :
  separate_args (SlTok (TS (L """abc\"",\""def"""))) 44 true =
  map TS [L "abc"",""def"].
Proof. reflexivity. Qed.
Example test_separate_9 :
  separate_args (SlTok (TS (L """abc\"",\""def"""))) 44 false =
  map TS [L """abc\"",\""def"""].
Proof. reflexivity. Qed.
Example test_separate_10 :
  separate_args (SlTok (TS (L "abc,def[g[h[i],j],kl],mno"))) 44 true =
  map TS [L "abc"; L "def[g[h[i],j],kl]"; L "mno"].
Proof. reflexivity. Qed.
Example test_separate_11 :
  separate_args (SlTok (TS (L "abc,def(g(h(i),j),kl),mno"))) 44 true =
  map TS [L "abc"; L "def(g(h(i),j),kl)"; L "mno"].
Proof. reflexivity. Qed.
Example test_separate_12 :
  separate_args (SlTok (TS (L "abc)))(((,))),def"))) 44 true =
  map TS [L "abc)))(((,)))"; L "def"].
Proof. reflexivity. Qed.
Example test_separate_13 :
  separate_args (SlTok (TS (L "abc,def[g(h]i(,j],k)),l],m([),]n)o"))) 44 true =
  map TS [L "abc"; L "def[g(h]i(,j],k))"; L "l]"; L "m([),]n)o"].
Proof. reflexivity. Qed.

(* tests/application/test_gotoif.py *)
Example test_gotoif_1 : lint (L "GotoIf($[""${foo}""=""1""]?new_context,${EXTEN},1)") = ([], true).
Proof. vm_compute. reflexivity. Qed.
Example test_gotoif_2 : lint (L "GotoIf($[""${foo}""=""1""])") = ([L "E_APP_ARG_FEW"], true).
Proof. vm_compute. reflexivity. Qed.
Example test_gotoif_3 : lint (L "GotoIf($[""${foo}""=""1""]?iftrue:iffalse:ifother?excess-data)") = ([L "E_APP_ARG_MANY"], true).
Proof. vm_compute. reflexivity. Qed.
Example test_gotoif_4 : lint (L "GotoIf($[""${foo}""=""1""]new_context,${EXTEN},1)") = ([L "E_APP_ARG_IFSTYLE"; L "E_APP_ARG_IFCONST"], true).
Proof. vm_compute. reflexivity. Qed.
Example test_gotoif_5 : lint (L "GotoIf($[""${foo}""=""1""],new_context,${EXTEN},1)") = ([L "E_APP_ARG_IFSTYLE"], true).
Proof. vm_compute. reflexivity. Qed.
Example test_gotoif_6 : lint (L "GotoIf(${var}?iftrue:iffalse)") = ([], true).
Proof. vm_compute. reflexivity. Qed.
Example test_gotoif_7 : lint (L "GotoIf(0?iftrue:iffalse)") = ([L "E_APP_ARG_IFCONST"], true).
Proof. vm_compute. reflexivity. Qed.
Example test_gotoif_8 : lint (L "GotoIf(1?iftrue:iffalse)") = ([L "E_APP_ARG_IFCONST"], true).
Proof. vm_compute. reflexivity. Qed.
Example test_gotoif_9 : lint (L "GotoIf(${var1}1${var2}?iftrue:iffalse)") = ([L "E_APP_ARG_IFCONST"], true).
Proof. vm_compute. reflexivity. Qed.
Example test_gotoif_10 : lint (L "GotoIf(${var1} ${var2}?iftrue:iffalse)") = ([L "E_APP_ARG_IFCONST"], true).
Proof. vm_compute. reflexivity. Qed.
Example test_gotoif_11 : lint (L "GotoIf(?iftrue:iffalse)") = ([L "E_APP_ARG_IFEMPTY"], true).
Proof. vm_compute. reflexivity. Qed.
Example test_gotoif_12 : lint (L "GotoIf(   ?iftrue:iffalse)") = ([L "E_APP_ARG_IFEMPTY"], true).
Proof. vm_compute. reflexivity. Qed.
Example test_gotoif_13 : lint (L "GotoIf(   ${var}   ?iftrue:iffalse)") = ([], true).
Proof. vm_compute. reflexivity. Qed.

(* tests/application/test_normal.py, the application part *)
Example test_normal_1 : lint (L "NoOp") = ([], true).
Proof. vm_compute. reflexivity. Qed.
Example test_normal_2 : lint (L "Hangup") = ([L "W_APP_NEED_PARENS"], true).
Proof. vm_compute. reflexivity. Qed.
Example test_normal_3 : lint (L "  Verbose(foo)") = ([L "W_APP_WSH"], true).
Proof. vm_compute. reflexivity. Qed.
Example test_normal_4 : lint (L "Verbose (foo)") = ([L "E_APP_WSH"], true).
Proof. vm_compute. reflexivity. Qed.

(* tests/application/test_voicemail.py, test_set.py *)
Example test_vm_1 : lint (L "VoiceMail(mailbox@context)") = ([], true).
Proof. vm_compute. reflexivity. Qed.
Example test_vm_2 : lint (L "VoiceMail(mailbox@context,bd)") = ([], true).
Proof. vm_compute. reflexivity. Qed.
Example test_vm_3 : lint (L "VoiceMail()") = ([L "E_APP_ARG_FEW"], true).
Proof. vm_compute. reflexivity. Qed.
Example test_vm_4 : lint (L "VoiceMail(a,,c)") = ([L "E_APP_ARG_MANY"], true).
Proof. vm_compute. reflexivity. Qed.
Example test_vm_5 : lint (L "VoiceMail(a,X)") = ([L "E_APP_ARG_BADOPT"], true).
Proof. vm_compute. reflexivity. Qed.
Example test_vm_6 : lint (L "VoiceMail(a,bdb)") = ([L "E_APP_ARG_DUPEOPT"], true).
Proof. vm_compute. reflexivity. Qed.
Example test_vm_7 : lint (L "Set(variable=value)") = ([], true).
Proof. vm_compute. reflexivity. Qed.
Example test_vm_8 : lint (L "set(variable=value)") = ([L "W_APP_BAD_CASE"], true).
Proof. vm_compute. reflexivity. Qed.
