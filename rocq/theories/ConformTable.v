(** * Cases of the test tables of /repo, written by tools/gen_conform.py. *)
From Verif Require Import ConformBase.
Local Open Scope string_scope.

(** expectation.message.command_test.go *)
Definition cases_message_command : list Case := [
  CReport (app_command false) [] (EBuilt (EDispatch false (Some (body "stubs.EventStub[TypeC]" (CStr ""))))) (EMessage true (Some (body "stubs.CommandStub[TypeC]" (CStr "")))) true ["✓ execute a specific 'stubs.CommandStub[TypeC]' command"];
  CReport (app_command false) [] (EBuilt (EDispatch false (Some (body "stubs.EventStub[TypeC]" (CStr ""))))) (EMessage true (Some (body "stubs.CommandStub[TypeX]" (CStr "")))) false ["✗ execute a specific 'stubs.CommandStub[TypeX]' command"; ""; "  | EXPLANATION"; "  |     none of the engaged handlers executed a matching command"; "  | "; "  | SUGGESTIONS"; "  |     • verify the logic within the '<process>' process message handler"];
  CReport (app_command false) [] (EBuilt (EDispatch false (Some (body "stubs.EventStub[TypeX]" (CStr ""))))) (EMessage true (Some (body "stubs.CommandStub[TypeC]" (CStr "")))) false ["✗ execute a specific 'stubs.CommandStub[TypeC]' command"; ""; "  | EXPLANATION"; "  |     no messages were produced at all"; "  | "; "  | SUGGESTIONS"; "  |     • verify the logic within the '<process>' process message handler"];
  CReport (app_command false) [] (EBuilt (EDispatch false (Some (body "stubs.EventStub[TypeT]" (CStr ""))))) (EMessage true (Some (body "stubs.CommandStub[TypeC]" (CStr "")))) false ["✗ execute a specific 'stubs.CommandStub[TypeC]' command"; ""; "  | EXPLANATION"; "  |     no commands were executed at all"; "  | "; "  | SUGGESTIONS"; "  |     • verify the logic within the '<process>' process message handler"];
  CReport (app_command false) [OptUnsafe [OptType HTProcess false]] (EBuilt (EDispatch false (Some (body "stubs.EventStub[TypeC]" (CStr ""))))) (EMessage true (Some (body "stubs.CommandStub[TypeC]" (CStr "")))) false ["✗ execute a specific 'stubs.CommandStub[TypeC]' command"; ""; "  | EXPLANATION"; "  |     no relevant handler types were enabled"; "  | "; "  | SUGGESTIONS"; "  |     • enable process handlers using the EnableHandlerType() option"];
  CReport (app_command false) [] (EBuilt (EDispatch false (Some (body "stubs.EventStub[TypeC]" (CStr "<content>"))))) (EMessage true (Some (body "stubs.CommandStub[TypeC]" (CStr "<different>")))) false ["✗ execute a specific 'stubs.CommandStub[TypeC]' command"; ""; "  | EXPLANATION"; "  |     a similar command was executed by the '<process>' process message handler"; "  | "; "  | SUGGESTIONS"; "  |     • check the content of the message"; "  | "; "  | MESSAGE DIFF"; "  |     stubs.CommandStub[github.com/dogmatiq/enginekit/enginetest/stubs.TypeC]{"; "  |         Content:         ""<[-differ-]{+cont+}ent>"""; "  |         ValidationError: """""; "  |     }"];
  CReport (app_command false) [] (EBuilt (EDispatch false (Some (body "stubs.EventStub[TypeC]" (CStr ""))))) (EComp CNone [(EMessage true (Some (body "stubs.CommandStub[TypeC]" (CStr "")))); (EMessage true (Some (body "stubs.CommandStub[TypeX]" (CStr ""))))]) false ["✗ none of (1 of the expectations passed unexpectedly)"; "    ✓ execute a specific 'stubs.CommandStub[TypeC]' command"; "    ✗ execute a specific 'stubs.CommandStub[TypeX]' command"];
  CLogs (app_command false) true ENoop (EMessage true (Some (body "stubs.CommandStub[TypeU]" (CStr "U1")))) "a command of type stubs.CommandStub[TypeU] can never be executed, the application does not use this message type";
  CLogs (app_command false) true ENoop (EMessage true (Some (body "stubs.CommandStub[TypeO]" (CStr "")))) "no handlers execute commands of type stubs.CommandStub[TypeO], it is only ever consumed";
  CPanics (EMessage true None) "ToExecuteCommand(<nil>): message must not be nil";
  CPanics (EMessage true (Some (invalid "stubs.CommandStub[TypeA]" "<invalid>"))) "ToExecuteCommand(stubs.CommandStub[TypeA]): <invalid>"].
Example conform_message_command : forallb conforms cases_message_command = true. Proof. vm_compute. reflexivity. Qed.

(** expectation.message.commandcall_test.go *)
Definition cases_message_commandcall : list Case := [
  CReport app_commandcall [] (via_executor (body "stubs.CommandStub[TypeX]" (CStr ""))) (EMessage true (Some (body "stubs.CommandStub[TypeX]" (CStr "")))) true ["✓ execute a specific 'stubs.CommandStub[TypeX]' command"];
  CReport app_commandcall [] call_nothing (EMessage true (Some (body "stubs.CommandStub[TypeX]" (CStr "")))) false ["✗ execute a specific 'stubs.CommandStub[TypeX]' command"; ""; "  | EXPLANATION"; "  |     no messages were produced at all"; "  | "; "  | SUGGESTIONS"; "  |     • verify the logic within the code that uses the dogma.CommandExecutor"];
  CReport app_commandcall [OptUnsafe [OptType HTProcess false]] (via_executor (body "stubs.CommandStub[dogma.Event]" (CEvent "stubs.EventStub[TypeP]" (CStr "")))) (EMessage true (Some (body "stubs.CommandStub[TypeP]" (CStr "")))) false ["✗ execute a specific 'stubs.CommandStub[TypeP]' command"; ""; "  | EXPLANATION"; "  |     nothing executed a matching command"; "  | "; "  | SUGGESTIONS"; "  |     • enable process handlers using the EnableHandlerType() option"; "  |     • verify the logic within the code that uses the dogma.CommandExecutor"];
  CReport app_commandcall [] (via_executor (body "stubs.CommandStub[TypeX]" (CStr "<content>"))) (EMessage true (Some (body "stubs.CommandStub[TypeX]" (CStr "<different>")))) false ["✗ execute a specific 'stubs.CommandStub[TypeX]' command"; ""; "  | EXPLANATION"; "  |     a similar command was executed via a dogma.CommandExecutor"; "  | "; "  | SUGGESTIONS"; "  |     • check the content of the message"; "  | "; "  | MESSAGE DIFF"; "  |     stubs.CommandStub[github.com/dogmatiq/enginekit/enginetest/stubs.TypeX]{"; "  |         Content:         ""<[-differ-]{+cont+}ent>"""; "  |         ValidationError: """""; "  |     }"]].
Example conform_message_commandcall : forallb conforms cases_message_commandcall = true. Proof. vm_compute. reflexivity. Qed.

(** expectation.message.event_test.go *)
Definition cases_message_event : list Case := [
  CReport (app_event false true) [] (EBuilt (EDispatch true (Some (body "stubs.CommandStub[TypeE]" (CStr ""))))) (EMessage false (Some (body "stubs.EventStub[TypeE]" (CStr "")))) true ["✓ record a specific 'stubs.EventStub[TypeE]' event"];
  CReport (app_event false true) [] (EBuilt (EDispatch true (Some (body "stubs.CommandStub[TypeE]" (CStr ""))))) (EMessage false (Some (body "stubs.EventStub[TypeX]" (CStr "")))) false ["✗ record a specific 'stubs.EventStub[TypeX]' event"; ""; "  | EXPLANATION"; "  |     none of the engaged handlers recorded a matching event"; "  | "; "  | SUGGESTIONS"; "  |     • enable integration handlers using the EnableHandlerType() option"; "  |     • verify the logic within the '<aggregate>' aggregate message handler"];
  CReport (app_event false true) [OptUnsafe [OptType HTAggregate false; OptType HTIntegration false]] (EBuilt (EDispatch true (Some (body "stubs.CommandStub[TypeE]" (CStr ""))))) (EMessage false (Some (body "stubs.EventStub[TypeE]" (CStr "")))) false ["✗ record a specific 'stubs.EventStub[TypeE]' event"; ""; "  | EXPLANATION"; "  |     no relevant handler types were enabled"; "  | "; "  | SUGGESTIONS"; "  |     • enable aggregate handlers using the EnableHandlerType() option"; "  |     • enable integration handlers using the EnableHandlerType() option"];
  CReport (app_event false true) [OptUnsafe [OptType HTAggregate false; OptType HTIntegration true]] (EBuilt (EDispatch true (Some (body "stubs.CommandStub[TypeE]" (CStr ""))))) (EMessage false (Some (body "stubs.EventStub[TypeE]" (CStr "")))) false ["✗ record a specific 'stubs.EventStub[TypeE]' event"; ""; "  | EXPLANATION"; "  |     no relevant handlers (aggregate or integration) were engaged"; "  | "; "  | SUGGESTIONS"; "  |     • enable aggregate handlers using the EnableHandlerType() option"; "  |     • check the application's routing configuration"];
  CReport (app_event false true) [] (EBuilt (EDispatch true (Some (body "stubs.CommandStub[TypeX]" (CStr ""))))) (EMessage false (Some (body "stubs.EventStub[TypeE]" (CStr "")))) false ["✗ record a specific 'stubs.EventStub[TypeE]' event"; ""; "  | EXPLANATION"; "  |     no messages were produced at all"; "  | "; "  | SUGGESTIONS"; "  |     • enable integration handlers using the EnableHandlerType() option"; "  |     • verify the logic within the '<aggregate>' aggregate message handler"];
  CReport (app_event false true) [] (EBuilt (EDispatch false (Some (body "stubs.EventStub[TypeC]" (CStr ""))))) (EMessage false (Some (body "stubs.EventStub[TypeE]" (CStr "")))) false ["✗ record a specific 'stubs.EventStub[TypeE]' event"; ""; "  | EXPLANATION"; "  |     no events were recorded at all"; "  | "; "  | SUGGESTIONS"; "  |     • enable integration handlers using the EnableHandlerType() option"; "  |     • verify the logic within the '<aggregate>' aggregate message handler"];
  CReport (app_event false true) [] (EBuilt (EDispatch true (Some (body "stubs.CommandStub[TypeE]" (CStr "<content>"))))) (EMessage false (Some (body "stubs.EventStub[TypeE]" (CStr "<different>")))) false ["✗ record a specific 'stubs.EventStub[TypeE]' event"; ""; "  | EXPLANATION"; "  |     a similar event was recorded by the '<aggregate>' aggregate message handler"; "  | "; "  | SUGGESTIONS"; "  |     • check the content of the message"; "  | "; "  | MESSAGE DIFF"; "  |     stubs.EventStub[github.com/dogmatiq/enginekit/enginetest/stubs.TypeE]{"; "  |         Content:         ""<[-differ-]{+cont+}ent>"""; "  |         ValidationError: """""; "  |     }"];
  CReport (app_event false true) [] (EBuilt (EDispatch true (Some (body "stubs.CommandStub[TypeE]" (CStr ""))))) (EComp CNone [(EMessage false (Some (body "stubs.EventStub[TypeE]" (CStr "")))); (EMessage false (Some (body "stubs.EventStub[TypeX]" (CStr ""))))]) false ["✗ none of (1 of the expectations passed unexpectedly)"; "    ✓ record a specific 'stubs.EventStub[TypeE]' event"; "    ✗ record a specific 'stubs.EventStub[TypeX]' event"];
  CLogs (app_event false true) true ENoop (EMessage false (Some (body "stubs.EventStub[TypeU]" (CStr "U1")))) "an event of type stubs.EventStub[TypeU] can never be recorded, the application does not use this message type";
  CLogs (app_event false true) true ENoop (EMessage false (Some (body "stubs.EventStub[TypeO]" (CStr "")))) "no handlers record events of type stubs.EventStub[TypeO], it is only ever consumed";
  CPanics (EMessage false None) "ToRecordEvent(<nil>): message must not be nil"].
Example conform_message_event : forallb conforms cases_message_event = true. Proof. vm_compute. reflexivity. Qed.

(** expectation.message.eventcall_test.go *)
Definition cases_message_eventcall : list Case := [
  CReport app_eventcall [] (via_executor (body "stubs.CommandStub[TypeE]" (CStr ""))) (EMessage false (Some (body "stubs.EventStub[TypeE]" (CStr "")))) true ["✓ record a specific 'stubs.EventStub[TypeE]' event"];
  CReport app_eventcall [] (via_executor (body "stubs.CommandStub[TypeE]" (CStr ""))) (EMessage false (Some (body "stubs.EventStub[TypeX]" (CStr "")))) false ["✗ record a specific 'stubs.EventStub[TypeX]' event"; ""; "  | EXPLANATION"; "  |     nothing recorded a matching event"; "  | "; "  | SUGGESTIONS"; "  |     • enable integration handlers using the EnableHandlerType() option"; "  |     • verify the logic within the '<aggregate>' aggregate message handler"; "  |     • verify the logic within the code that uses the dogma.EventRecorder"];
  CReport app_eventcall [] call_nothing (EMessage false (Some (body "stubs.EventStub[TypeE]" (CStr "")))) false ["✗ record a specific 'stubs.EventStub[TypeE]' event"; ""; "  | EXPLANATION"; "  |     no messages were produced at all"; "  | "; "  | SUGGESTIONS"; "  |     • verify the logic within the code that uses the dogma.EventRecorder"];
  CReport app_eventcall [] (via_executor (body "stubs.CommandStub[TypeX]" (CStr ""))) (EMessage false (Some (body "stubs.EventStub[TypeE]" (CStr "")))) false ["✗ record a specific 'stubs.EventStub[TypeE]' event"; ""; "  | EXPLANATION"; "  |     no events were recorded at all"; "  | "; "  | SUGGESTIONS"; "  |     • enable integration handlers using the EnableHandlerType() option"; "  |     • verify the logic within the '<aggregate>' aggregate message handler"; "  |     • verify the logic within the code that uses the dogma.EventRecorder"]].
Example conform_message_eventcall : forallb conforms cases_message_eventcall = true. Proof. vm_compute. reflexivity. Qed.

(** expectation.messagetype.command_test.go *)
Definition cases_messagetype_command : list Case := [
  CReport (app_command false) [] (EBuilt (EDispatch false (Some (body "stubs.EventStub[TypeC]" (CStr ""))))) (EType true "stubs.CommandStub[TypeC]") true ["✓ execute any 'stubs.CommandStub[TypeC]' command"];
  CReport (app_command false) [] (EBuilt (EDispatch false (Some (body "stubs.EventStub[TypeC]" (CStr ""))))) (EType true "stubs.CommandStub[TypeX]") false ["✗ execute any 'stubs.CommandStub[TypeX]' command"; ""; "  | EXPLANATION"; "  |     none of the engaged handlers executed a matching command"; "  | "; "  | SUGGESTIONS"; "  |     • verify the logic within the '<process>' process message handler"];
  CReport (app_command false) [] (EBuilt (EDispatch false (Some (body "stubs.EventStub[TypeX]" (CStr ""))))) (EType true "stubs.CommandStub[TypeC]") false ["✗ execute any 'stubs.CommandStub[TypeC]' command"; ""; "  | EXPLANATION"; "  |     no messages were produced at all"; "  | "; "  | SUGGESTIONS"; "  |     • verify the logic within the '<process>' process message handler"];
  CReport (app_command false) [] (EBuilt (EDispatch false (Some (body "stubs.EventStub[TypeT]" (CStr ""))))) (EType true "stubs.CommandStub[TypeC]") false ["✗ execute any 'stubs.CommandStub[TypeC]' command"; ""; "  | EXPLANATION"; "  |     no commands were executed at all"; "  | "; "  | SUGGESTIONS"; "  |     • verify the logic within the '<process>' process message handler"];
  CReport (app_command false) [OptUnsafe [OptType HTProcess false]] (EBuilt (EDispatch false (Some (body "stubs.EventStub[TypeC]" (CStr ""))))) (EType true "stubs.CommandStub[TypeC]") false ["✗ execute any 'stubs.CommandStub[TypeC]' command"; ""; "  | EXPLANATION"; "  |     no relevant handler types were enabled"; "  | "; "  | SUGGESTIONS"; "  |     • enable process handlers using the EnableHandlerType() option"];
  CReport (app_command false) [] (EBuilt (EDispatch false (Some (body "stubs.EventStub[TypeC]" (CStr ""))))) (EComp CNone [(EType true "stubs.CommandStub[TypeC]"); (EType true "stubs.CommandStub[TypeX]")]) false ["✗ none of (1 of the expectations passed unexpectedly)"; "    ✓ execute any 'stubs.CommandStub[TypeC]' command"; "    ✗ execute any 'stubs.CommandStub[TypeX]' command"];
  CLogs (app_command false) true ENoop (EType true "stubs.CommandStub[TypeU]") "a command of type stubs.CommandStub[TypeU] can never be executed, the application does not use this message type";
  CLogs (app_command false) true ENoop (EType true "stubs.CommandStub[TypeO]") "no handlers execute commands of type stubs.CommandStub[TypeO], it is only ever consumed"].
Example conform_messagetype_command : forallb conforms cases_messagetype_command = true. Proof. vm_compute. reflexivity. Qed.

(** expectation.messagetype.commandcall_test.go *)
Definition cases_messagetype_commandcall : list Case := [
  CReport app_commandcall [] (via_executor (body "stubs.CommandStub[TypeX]" (CStr ""))) (EType true "stubs.CommandStub[TypeX]") true ["✓ execute any 'stubs.CommandStub[TypeX]' command"];
  CReport app_commandcall [] call_nothing (EType true "stubs.CommandStub[TypeX]") false ["✗ execute any 'stubs.CommandStub[TypeX]' command"; ""; "  | EXPLANATION"; "  |     no messages were produced at all"; "  | "; "  | SUGGESTIONS"; "  |     • verify the logic within the code that uses the dogma.CommandExecutor"];
  CReport app_commandcall [OptUnsafe [OptType HTProcess false]] (via_executor (body "stubs.CommandStub[dogma.Event]" (CEvent "stubs.EventStub[TypeP]" (CStr "")))) (EType true "stubs.CommandStub[TypeP]") false ["✗ execute any 'stubs.CommandStub[TypeP]' command"; ""; "  | EXPLANATION"; "  |     nothing executed a matching command"; "  | "; "  | SUGGESTIONS"; "  |     • enable process handlers using the EnableHandlerType() option"; "  |     • verify the logic within the code that uses the dogma.CommandExecutor"]].
Example conform_messagetype_commandcall : forallb conforms cases_messagetype_commandcall = true. Proof. vm_compute. reflexivity. Qed.

(** expectation.messagetype.event_test.go *)
Definition cases_messagetype_event : list Case := [
  CReport (app_event false true) [] (EBuilt (EDispatch true (Some (body "stubs.CommandStub[TypeE]" (CStr ""))))) (EType false "stubs.EventStub[TypeE]") true ["✓ record any 'stubs.EventStub[TypeE]' event"];
  CReport (app_event false true) [] (EBuilt (EDispatch true (Some (body "stubs.CommandStub[TypeE]" (CStr ""))))) (EType false "stubs.EventStub[TypeX]") false ["✗ record any 'stubs.EventStub[TypeX]' event"; ""; "  | EXPLANATION"; "  |     none of the engaged handlers recorded a matching event"; "  | "; "  | SUGGESTIONS"; "  |     • enable integration handlers using the EnableHandlerType() option"; "  |     • verify the logic within the '<aggregate>' aggregate message handler"];
  CReport (app_event false true) [OptUnsafe [OptType HTAggregate false; OptType HTIntegration false]] (EBuilt (EDispatch true (Some (body "stubs.CommandStub[TypeE]" (CStr ""))))) (EType false "stubs.EventStub[TypeX]") false ["✗ record any 'stubs.EventStub[TypeX]' event"; ""; "  | EXPLANATION"; "  |     no relevant handler types were enabled"; "  | "; "  | SUGGESTIONS"; "  |     • enable aggregate handlers using the EnableHandlerType() option"; "  |     • enable integration handlers using the EnableHandlerType() option"];
  CReport (app_event false true) [OptUnsafe [OptType HTAggregate false; OptType HTIntegration true]] (EBuilt (EDispatch true (Some (body "stubs.CommandStub[TypeE]" (CStr ""))))) (EType false "stubs.EventStub[TypeX]") false ["✗ record any 'stubs.EventStub[TypeX]' event"; ""; "  | EXPLANATION"; "  |     no relevant handlers (aggregate or integration) were engaged"; "  | "; "  | SUGGESTIONS"; "  |     • enable aggregate handlers using the EnableHandlerType() option"; "  |     • check the application's routing configuration"];
  CReport (app_event false true) [] (EBuilt (EDispatch true (Some (body "stubs.CommandStub[TypeX]" (CStr ""))))) (EType false "stubs.EventStub[TypeX]") false ["✗ record any 'stubs.EventStub[TypeX]' event"; ""; "  | EXPLANATION"; "  |     no messages were produced at all"; "  | "; "  | SUGGESTIONS"; "  |     • enable integration handlers using the EnableHandlerType() option"; "  |     • verify the logic within the '<aggregate>' aggregate message handler"];
  CReport (app_event false true) [] (EBuilt (EDispatch false (Some (body "stubs.EventStub[TypeC]" (CStr ""))))) (EType false "stubs.EventStub[TypeE]") false ["✗ record any 'stubs.EventStub[TypeE]' event"; ""; "  | EXPLANATION"; "  |     no events were recorded at all"; "  | "; "  | SUGGESTIONS"; "  |     • enable integration handlers using the EnableHandlerType() option"; "  |     • verify the logic within the '<aggregate>' aggregate message handler"];
  CReport (app_event false true) [] (EBuilt (EDispatch true (Some (body "stubs.CommandStub[TypeE]" (CStr ""))))) (EComp CNone [(EType false "stubs.EventStub[TypeE]"); (EType false "stubs.EventStub[TypeX]")]) false ["✗ none of (1 of the expectations passed unexpectedly)"; "    ✓ record any 'stubs.EventStub[TypeE]' event"; "    ✗ record any 'stubs.EventStub[TypeX]' event"];
  CLogs (app_event false true) true ENoop (EType false "stubs.EventStub[TypeU]") "an event of type stubs.EventStub[TypeU] can never be recorded, the application does not use this message type";
  CLogs (app_event false true) true ENoop (EType false "stubs.EventStub[TypeO]") "no handlers record events of type stubs.EventStub[TypeO], it is only ever consumed"].
Example conform_messagetype_event : forallb conforms cases_messagetype_event = true. Proof. vm_compute. reflexivity. Qed.

(** expectation.messagetype.eventcall_test.go *)
Definition cases_messagetype_eventcall : list Case := [
  CReport app_eventcall [] (via_executor (body "stubs.CommandStub[TypeE]" (CStr ""))) (EType false "stubs.EventStub[TypeE]") true ["✓ record any 'stubs.EventStub[TypeE]' event"];
  CReport app_eventcall [] (via_executor (body "stubs.CommandStub[TypeE]" (CStr ""))) (EType false "stubs.EventStub[TypeX]") false ["✗ record any 'stubs.EventStub[TypeX]' event"; ""; "  | EXPLANATION"; "  |     nothing recorded a matching event"; "  | "; "  | SUGGESTIONS"; "  |     • enable integration handlers using the EnableHandlerType() option"; "  |     • verify the logic within the '<aggregate>' aggregate message handler"; "  |     • verify the logic within the code that uses the dogma.EventRecorder"];
  CReport app_eventcall [] call_nothing (EType false "stubs.EventStub[TypeE]") false ["✗ record any 'stubs.EventStub[TypeE]' event"; ""; "  | EXPLANATION"; "  |     no messages were produced at all"; "  | "; "  | SUGGESTIONS"; "  |     • verify the logic within the code that uses the dogma.EventRecorder"];
  CReport app_eventcall [] (via_executor (body "stubs.CommandStub[TypeX]" (CStr ""))) (EType false "stubs.EventStub[TypeE]") false ["✗ record any 'stubs.EventStub[TypeE]' event"; ""; "  | EXPLANATION"; "  |     no events were recorded at all"; "  | "; "  | SUGGESTIONS"; "  |     • enable integration handlers using the EnableHandlerType() option"; "  |     • verify the logic within the '<aggregate>' aggregate message handler"; "  |     • verify the logic within the code that uses the dogma.EventRecorder"]].
Example conform_messagetype_eventcall : forallb conforms cases_messagetype_eventcall = true. Proof. vm_compute. reflexivity. Qed.

(** expectation.messagematch.command_test.go *)
Definition cases_messagematch_command : list Case := [
  CReport (app_command true) [] (EBuilt (EDispatch false (Some (body "stubs.EventStub[TypeC]" (CStr ""))))) (EMatch MExecuteCommand (iface KCommand "dogma.Command") (Some (fun _ m => if same KCommand (body "stubs.CommandStub[TypeC]" (CStr "")) m then RNil else RErr "<error>")) (txt "expectation.messagematch.command_test.go:132")) true ["✓ execute a command that matches the predicate near expectation.messagematch.command_test.go:132"];
  CReport (app_command true) [] (EBuilt (EDispatch false (Some (body "stubs.EventStub[TypeC]" (CStr ""))))) (EMatch MExecuteCommand (TConcrete (KCommand, "stubs.CommandStub[TypeC]")) (Some (fun _ m => if same KCommand (body "stubs.CommandStub[TypeC]" (CStr "")) m then RNil else RErr "<error>")) (txt "expectation.messagematch.command_test.go:149")) true ["✓ execute a command that matches the predicate near expectation.messagematch.command_test.go:149"];
  CReport (app_command true) [] (EBuilt (EDispatch false (Some (body "stubs.EventStub[TypeC]" (CStr ""))))) (EMatch MExecuteCommand (iface KCommand "dogma.Command") (Some (fun _ m => RErr "<error>")) (txt "expectation.messagematch.command_test.go:166")) false ["✗ execute a command that matches the predicate near expectation.messagematch.command_test.go:166"; ""; "  | EXPLANATION"; "  |     none of the engaged handlers executed a matching command"; "  | "; "  | FAILED MATCHES"; "  |     • stubs.CommandStub[TypeC]: <error>"; "  | "; "  | SUGGESTIONS"; "  |     • verify the logic within the predicate function"; "  |     • verify the logic within the '<process>' process message handler"];
  CReport (app_command true) [] (EBuilt (EDispatch false (Some (body "stubs.EventStub[TypeC]" (CStr ""))))) (EMatch MExecuteCommand (TConcrete (KCommand, "stubs.CommandStub[TypeX]")) (Some (fun _ m => RErr "panic: unexpected call")) (txt "expectation.messagematch.command_test.go:189")) false ["✗ execute a command that matches the predicate near expectation.messagematch.command_test.go:189"; ""; "  | EXPLANATION"; "  |     none of the engaged handlers executed a matching command"; "  | "; "  | SUGGESTIONS"; "  |     • verify the logic within the predicate function, it ignored 1 command"; "  |     • verify the logic within the '<process>' process message handler"];
  CReport (app_command true) [] (EBuilt (EDispatch false (Some (body "stubs.EventStub[TypeX]" (CStr ""))))) (EMatch MExecuteCommand (iface KCommand "dogma.Command") (Some (fun _ m => RErr "panic: unexpected call")) (txt "expectation.messagematch.command_test.go:208")) false ["✗ execute a command that matches the predicate near expectation.messagematch.command_test.go:208"; ""; "  | EXPLANATION"; "  |     no messages were produced at all"; "  | "; "  | SUGGESTIONS"; "  |     • verify the logic within the '<process>' process message handler"];
  CReport (app_command true) [] (EBuilt (EDispatch false (Some (body "stubs.EventStub[TypeT]" (CStr ""))))) (EMatch MExecuteCommand (iface KCommand "dogma.Command") (Some (fun _ m => RErr "panic: unexpected call")) (txt "expectation.messagematch.command_test.go:227")) false ["✗ execute a command that matches the predicate near expectation.messagematch.command_test.go:227"; ""; "  | EXPLANATION"; "  |     no commands were executed at all"; "  | "; "  | SUGGESTIONS"; "  |     • verify the logic within the '<process>' process message handler"];
  CReport (app_command true) [OptUnsafe [OptType HTProcess false]] (EBuilt (EDispatch false (Some (body "stubs.EventStub[TypeC]" (CStr ""))))) (EMatch MExecuteCommand (iface KCommand "dogma.Command") (Some (fun _ m => RErr "<error>")) (txt "expectation.messagematch.command_test.go:246")) false ["✗ execute a command that matches the predicate near expectation.messagematch.command_test.go:246"; ""; "  | EXPLANATION"; "  |     no relevant handler types were enabled"; "  | "; "  | SUGGESTIONS"; "  |     • enable process handlers using the EnableHandlerType() option"];
  CReport (app_command true) [] (EBuilt (EDispatch false (Some (body "stubs.EventStub[TypeC]" (CStr ""))))) (EMatch MExecuteCommand (iface KCommand "dogma.Command") (Some (fun _ m => RIgnore)) (txt "expectation.messagematch.command_test.go:268")) false ["✗ execute a command that matches the predicate near expectation.messagematch.command_test.go:268"; ""; "  | EXPLANATION"; "  |     none of the engaged handlers executed a matching command"; "  | "; "  | SUGGESTIONS"; "  |     • verify the logic within the predicate function, it ignored 1 command"; "  |     • verify the logic within the '<process>' process message handler"];
  CReport (app_command true) [] (EBuilt (EDispatch false (Some (body "stubs.EventStub[TypeC]" (CStr "<multiple>"))))) (EMatch MExecuteCommand (iface KCommand "dogma.Command") (Some (fun _ m => RErr "<error>")) (txt "expectation.messagematch.command_test.go:290")) false ["✗ execute a command that matches the predicate near expectation.messagematch.command_test.go:290"; ""; "  | EXPLANATION"; "  |     none of the engaged handlers executed a matching command"; "  | "; "  | FAILED MATCHES"; "  |     • stubs.CommandStub[TypeC]: <error> (repeated 2 times)"; "  | "; "  | SUGGESTIONS"; "  |     • verify the logic within the predicate function"; "  |     • verify the logic within the '<process>' process message handler"];
  CReport (app_command true) [] (EBuilt (EDispatch false (Some (body "stubs.EventStub[TypeC]" (CStr ""))))) (EComp CNone [(EMatch MExecuteCommand (iface KCommand "dogma.Command") (Some (fun _ m => RNil)) (txt "expectation.messagematch.command_test.go:315")); (EMatch MExecuteCommand (iface KCommand "dogma.Command") (Some (fun _ m => RErr "<error>")) (txt "expectation.messagematch.command_test.go:319"))]) false ["✗ none of (1 of the expectations passed unexpectedly)"; "    ✓ execute a command that matches the predicate near expectation.messagematch.command_test.go:315"; "    ✗ execute a command that matches the predicate near expectation.messagematch.command_test.go:319"];
  CLogs (app_command true) true ENoop (EMatch MExecuteCommand (TConcrete (KCommand, "stubs.CommandStub[TypeU]")) (Some (fun _ m => RNil)) (txt "expectation.messagematch.command_test.go:339")) "a command of type stubs.CommandStub[TypeU] can never be executed, the application does not use this message type";
  CLogs (app_command true) true ENoop (EMatch MExecuteCommand (TConcrete (KCommand, "stubs.CommandStub[TypeO]")) (Some (fun _ m => RNil)) (txt "expectation.messagematch.command_test.go:356")) "no handlers execute commands of type stubs.CommandStub[TypeO], it is only ever consumed";
  CPanics (EMatch MExecuteCommand (iface KCommand "") None []) "ToExecuteCommandMatching(<nil>): function must not be nil"].
Example conform_messagematch_command : forallb conforms cases_messagematch_command = true. Proof. vm_compute. reflexivity. Qed.

(** expectation.messagematch.commandonly_test.go *)
Definition cases_messagematch_commandonly : list Case := [
  CReport app_commandonly [] (EBuilt (EDispatch false (Some (body "stubs.EventStub[TypeC]" (CStr ""))))) (EMatch MOnlyExecuteCommands (iface KCommand "dogma.Command") (Some (fun _ m => RNil)) (txt "expectation.messagematch.commandonly_test.go:97")) true ["✓ only execute commands that match the predicate near expectation.messagematch.commandonly_test.go:97"];
  CReport app_commandonly [] (EBuilt (EDispatch false (Some (body "stubs.EventStub[TypeC]" (CStr ""))))) (EMatch MOnlyExecuteCommands (TConcrete (KCommand, "stubs.CommandStub[TypeC]")) (Some (fun _ m => RNil)) (txt "expectation.messagematch.commandonly_test.go:110")) true ["✓ only execute commands that match the predicate near expectation.messagematch.commandonly_test.go:110"];
  CReport app_commandonly [] ENoop (EMatch MOnlyExecuteCommands (iface KCommand "dogma.Command") (Some (fun _ m => RErr "panic: unexpected call")) (txt "expectation.messagematch.commandonly_test.go:122")) true ["✓ only execute commands that match the predicate near expectation.messagematch.commandonly_test.go:122"];
  CReport app_commandonly [] (EBuilt (EDispatch false (Some (body "stubs.EventStub[TypeC]" (CStr ""))))) (EMatch MOnlyExecuteCommands (iface KCommand "dogma.Command") (Some (fun _ m => RErr "<error>")) (txt "expectation.messagematch.commandonly_test.go:135")) false ["✗ only execute commands that match the predicate near expectation.messagematch.commandonly_test.go:135"; ""; "  | EXPLANATION"; "  |     none of the 3 relevant commands matched the predicate"; "  | "; "  | FAILED MATCHES"; "  |     • stubs.CommandStub[TypeC]: <error> (repeated 3 times)"; "  | "; "  | SUGGESTIONS"; "  |     • verify the logic within the predicate function"; "  |     • verify the logic within the '<process>' process message handler"];
  CReport app_commandonly [] (EBuilt (EDispatch false (Some (body "stubs.EventStub[TypeC]" (CStr ""))))) (EMatch MOnlyExecuteCommands (iface KCommand "dogma.Command") (Some (fun _ m => if same KCommand (body "stubs.CommandStub[TypeC]" (CStr "C1")) m then RErr "<error>" else if same KCommand (body "stubs.CommandStub[TypeC]" (CStr "C2")) m then RIgnore else RNil)) (txt "expectation.messagematch.commandonly_test.go:158")) false ["✗ only execute commands that match the predicate near expectation.messagematch.commandonly_test.go:158"; ""; "  | EXPLANATION"; "  |     only 1 of 2 relevant commands matched the predicate"; "  | "; "  | FAILED MATCHES"; "  |     • stubs.CommandStub[TypeC]: <error>"; "  | "; "  | SUGGESTIONS"; "  |     • verify the logic within the predicate function, it ignored 1 command"; "  |     • verify the logic within the '<process>' process message handler"];
  CReport app_commandonly [] (EBuilt (EDispatch false (Some (body "stubs.EventStub[TypeC]" (CStr ""))))) (EMatch MOnlyExecuteCommands (TConcrete (KCommand, "stubs.CommandStub[TypeX]")) (Some (fun _ m => RErr "panic: unexpected call")) (txt "expectation.messagematch.commandonly_test.go:188")) false ["✗ only execute commands that match the predicate near expectation.messagematch.commandonly_test.go:188"; ""; "  | EXPLANATION"; "  |     none of the 3 relevant commands matched the predicate"; "  | "; "  | FAILED MATCHES"; "  |     • stubs.CommandStub[TypeC]: predicate function expected stubs.CommandStub[TypeX] (repeated 3 times)"; "  | "; "  | SUGGESTIONS"; "  |     • verify the logic within the predicate function"; "  |     • verify the logic within the '<process>' process message handler"];
  CLogs app_commandonly true ENoop (EMatch MOnlyExecuteCommands (TConcrete (KCommand, "stubs.CommandStub[TypeU]")) (Some (fun _ m => RNil)) (txt "expectation.messagematch.commandonly_test.go:215")) "a command of type stubs.CommandStub[TypeU] can never be executed, the application does not use this message type";
  CLogs app_commandonly true ENoop (EMatch MOnlyExecuteCommands (TConcrete (KCommand, "stubs.CommandStub[TypeO]")) (Some (fun _ m => RNil)) (txt "expectation.messagematch.commandonly_test.go:232")) "no handlers execute commands of type stubs.CommandStub[TypeO], it is only ever consumed";
  CPanics (EMatch MOnlyExecuteCommands (iface KCommand "") None []) "ToOnlyExecuteCommandsMatching(<nil>): function must not be nil"].
Example conform_messagematch_commandonly : forallb conforms cases_messagematch_commandonly = true. Proof. vm_compute. reflexivity. Qed.

(** expectation.messagematch.event_test.go *)
Definition cases_messagematch_event : list Case := [
  CReport (app_event true false) [] (EBuilt (EDispatch true (Some (body "stubs.CommandStub[TypeE]" (CStr ""))))) (EMatch MRecordEvent (iface KEvent "dogma.Event") (Some (fun _ m => if same KEvent (body "stubs.EventStub[TypeE]" (CStr "")) m then RNil else RErr "<error>")) (txt "expectation.messagematch.event_test.go:127")) true ["✓ record an event that matches the predicate near expectation.messagematch.event_test.go:127"];
  CReport (app_event true false) [] (EBuilt (EDispatch true (Some (body "stubs.CommandStub[TypeE]" (CStr ""))))) (EMatch MRecordEvent (TConcrete (KEvent, "stubs.EventStub[TypeE]")) (Some (fun _ m => if same KEvent (body "stubs.EventStub[TypeE]" (CStr "")) m then RNil else RErr "<error>")) (txt "expectation.messagematch.event_test.go:144")) true ["✓ record an event that matches the predicate near expectation.messagematch.event_test.go:144"];
  CReport (app_event true false) [] (EBuilt (EDispatch true (Some (body "stubs.CommandStub[TypeE]" (CStr ""))))) (EMatch MRecordEvent (iface KEvent "dogma.Event") (Some (fun _ m => RErr "<error>")) (txt "expectation.messagematch.event_test.go:161")) false ["✗ record an event that matches the predicate near expectation.messagematch.event_test.go:161"; ""; "  | EXPLANATION"; "  |     none of the engaged handlers recorded a matching event"; "  | "; "  | FAILED MATCHES"; "  |     • stubs.EventStub[TypeE]: <error>"; "  | "; "  | SUGGESTIONS"; "  |     • verify the logic within the predicate function"; "  |     • enable integration handlers using the EnableHandlerType() option"; "  |     • verify the logic within the '<aggregate>' aggregate message handler"];
  CReport (app_event true false) [] (EBuilt (EDispatch true (Some (body "stubs.CommandStub[TypeE]" (CStr ""))))) (EMatch MRecordEvent (TConcrete (KEvent, "stubs.EventStub[TypeX]")) (Some (fun _ m => RErr "panic: unexpected call")) (txt "expectation.messagematch.event_test.go:185")) false ["✗ record an event that matches the predicate near expectation.messagematch.event_test.go:185"; ""; "  | EXPLANATION"; "  |     none of the engaged handlers recorded a matching event"; "  | "; "  | SUGGESTIONS"; "  |     • verify the logic within the predicate function, it ignored 1 event"; "  |     • enable integration handlers using the EnableHandlerType() option"; "  |     • verify the logic within the '<aggregate>' aggregate message handler"];
  CReport (app_event true false) [] (EBuilt (EDispatch true (Some (body "stubs.CommandStub[TypeX]" (CStr ""))))) (EMatch MRecordEvent (iface KEvent "dogma.Event") (Some (fun _ m => RErr "panic: unexpected call")) (txt "expectation.messagematch.event_test.go:206")) false ["✗ record an event that matches the predicate near expectation.messagematch.event_test.go:206"; ""; "  | EXPLANATION"; "  |     no messages were produced at all"; "  | "; "  | SUGGESTIONS"; "  |     • enable integration handlers using the EnableHandlerType() option"; "  |     • verify the logic within the '<aggregate>' aggregate message handler"];
  CReport (app_event true false) [] (EBuilt (EDispatch false (Some (body "stubs.EventStub[TypeC]" (CStr ""))))) (EMatch MRecordEvent (iface KEvent "dogma.Event") (Some (fun _ m => RErr "panic: unexpected call")) (txt "expectation.messagematch.event_test.go:226")) false ["✗ record an event that matches the predicate near expectation.messagematch.event_test.go:226"; ""; "  | EXPLANATION"; "  |     no events were recorded at all"; "  | "; "  | SUGGESTIONS"; "  |     • enable integration handlers using the EnableHandlerType() option"; "  |     • verify the logic within the '<aggregate>' aggregate message handler"];
  CReport (app_event true false) [OptUnsafe [OptType HTAggregate false; OptType HTIntegration false]] (EBuilt (EDispatch true (Some (body "stubs.CommandStub[TypeE]" (CStr ""))))) (EMatch MRecordEvent (iface KEvent "dogma.Event") (Some (fun _ m => RErr "panic: unexpected call")) (txt "expectation.messagematch.event_test.go:246")) false ["✗ record an event that matches the predicate near expectation.messagematch.event_test.go:246"; ""; "  | EXPLANATION"; "  |     no relevant handler types were enabled"; "  | "; "  | SUGGESTIONS"; "  |     • enable aggregate handlers using the EnableHandlerType() option"; "  |     • enable integration handlers using the EnableHandlerType() option"];
  CReport (app_event true false) [] (EBuilt (EDispatch true (Some (body "stubs.CommandStub[TypeE]" (CStr ""))))) (EMatch MRecordEvent (iface KEvent "dogma.Event") (Some (fun _ m => RIgnore)) (txt "expectation.messagematch.event_test.go:270")) false ["✗ record an event that matches the predicate near expectation.messagematch.event_test.go:270"; ""; "  | EXPLANATION"; "  |     none of the engaged handlers recorded a matching event"; "  | "; "  | SUGGESTIONS"; "  |     • verify the logic within the predicate function, it ignored 1 event"; "  |     • enable integration handlers using the EnableHandlerType() option"; "  |     • verify the logic within the '<aggregate>' aggregate message handler"];
  CReport (app_event true false) [] (EBuilt (EDispatch true (Some (body "stubs.CommandStub[TypeE]" (CStr "<multiple>"))))) (EMatch MRecordEvent (iface KEvent "dogma.Event") (Some (fun _ m => RErr "<error>")) (txt "expectation.messagematch.event_test.go:293")) false ["✗ record an event that matches the predicate near expectation.messagematch.event_test.go:293"; ""; "  | EXPLANATION"; "  |     none of the engaged handlers recorded a matching event"; "  | "; "  | FAILED MATCHES"; "  |     • stubs.EventStub[TypeE]: <error> (repeated 2 times)"; "  | "; "  | SUGGESTIONS"; "  |     • verify the logic within the predicate function"; "  |     • enable integration handlers using the EnableHandlerType() option"; "  |     • verify the logic within the '<aggregate>' aggregate message handler"];
  CReport (app_event true false) [] (EBuilt (EDispatch true (Some (body "stubs.CommandStub[TypeE]" (CStr ""))))) (EComp CNone [(EMatch MRecordEvent (iface KEvent "dogma.Event") (Some (fun _ m => RNil)) (txt "expectation.messagematch.event_test.go:319")); (EMatch MRecordEvent (iface KEvent "dogma.Event") (Some (fun _ m => RErr "<error>")) (txt "expectation.messagematch.event_test.go:323"))]) false ["✗ none of (1 of the expectations passed unexpectedly)"; "    ✓ record an event that matches the predicate near expectation.messagematch.event_test.go:319"; "    ✗ record an event that matches the predicate near expectation.messagematch.event_test.go:323"];
  CLogs (app_event true false) true ENoop (EMatch MRecordEvent (TConcrete (KEvent, "stubs.EventStub[TypeU]")) (Some (fun _ m => RNil)) (txt "expectation.messagematch.event_test.go:343")) "an event of type stubs.EventStub[TypeU] can never be recorded, the application does not use this message type";
  CLogs (app_event true false) true ENoop (EMatch MRecordEvent (TConcrete (KEvent, "stubs.EventStub[TypeC]")) (Some (fun _ m => RNil)) (txt "expectation.messagematch.event_test.go:360")) "no handlers record events of type stubs.EventStub[TypeC], it is only ever consumed";
  CPanics (EMatch MRecordEvent (iface KEvent "") None []) "ToRecordEventMatching(<nil>): function must not be nil"].
Example conform_messagematch_event : forallb conforms cases_messagematch_event = true. Proof. vm_compute. reflexivity. Qed.

(** expectation.messagematch.eventonly_test.go *)
Definition cases_messagematch_eventonly : list Case := [
  CReport app_eventonly [] (EBuilt (EDispatch true (Some (body "stubs.CommandStub[TypeE]" (CStr ""))))) (EMatch MOnlyRecordEvents (iface KEvent "dogma.Event") (Some (fun _ m => RNil)) (txt "expectation.messagematch.eventonly_test.go:91")) true ["✓ only record events that match the predicate near expectation.messagematch.eventonly_test.go:91"];
  CReport app_eventonly [] (EBuilt (EDispatch true (Some (body "stubs.CommandStub[TypeE]" (CStr ""))))) (EMatch MOnlyRecordEvents (TConcrete (KEvent, "stubs.EventStub[TypeE]")) (Some (fun _ m => RNil)) (txt "expectation.messagematch.eventonly_test.go:104")) true ["✓ only record events that match the predicate near expectation.messagematch.eventonly_test.go:104"];
  CReport app_eventonly [] ENoop (EMatch MOnlyRecordEvents (iface KEvent "dogma.Event") (Some (fun _ m => RErr "panic: unexpected call")) (txt "expectation.messagematch.eventonly_test.go:116")) true ["✓ only record events that match the predicate near expectation.messagematch.eventonly_test.go:116"];
  CReport app_eventonly [] (EBuilt (EDispatch true (Some (body "stubs.CommandStub[TypeE]" (CStr ""))))) (EMatch MOnlyRecordEvents (iface KEvent "dogma.Event") (Some (fun _ m => RErr "<error>")) (txt "expectation.messagematch.eventonly_test.go:129")) false ["✗ only record events that match the predicate near expectation.messagematch.eventonly_test.go:129"; ""; "  | EXPLANATION"; "  |     none of the 3 relevant events matched the predicate"; "  | "; "  | FAILED MATCHES"; "  |     • stubs.EventStub[TypeE]: <error> (repeated 3 times)"; "  | "; "  | SUGGESTIONS"; "  |     • verify the logic within the predicate function"; "  |     • enable integration handlers using the EnableHandlerType() option"; "  |     • verify the logic within the '<aggregate>' aggregate message handler"];
  CReport app_eventonly [] (EBuilt (EDispatch true (Some (body "stubs.CommandStub[TypeE]" (CStr ""))))) (EMatch MOnlyRecordEvents (iface KEvent "dogma.Event") (Some (fun _ m => if same KEvent (body "stubs.EventStub[TypeE]" (CStr "E1")) m then RErr "<error>" else if same KEvent (body "stubs.EventStub[TypeE]" (CStr "E2")) m then RIgnore else RNil)) (txt "expectation.messagematch.eventonly_test.go:153")) false ["✗ only record events that match the predicate near expectation.messagematch.eventonly_test.go:153"; ""; "  | EXPLANATION"; "  |     only 1 of 2 relevant events matched the predicate"; "  | "; "  | FAILED MATCHES"; "  |     • stubs.EventStub[TypeE]: <error>"; "  | "; "  | SUGGESTIONS"; "  |     • verify the logic within the predicate function, it ignored 1 event"; "  |     • enable integration handlers using the EnableHandlerType() option"; "  |     • verify the logic within the '<aggregate>' aggregate message handler"];
  CReport app_eventonly [] (EBuilt (EDispatch true (Some (body "stubs.CommandStub[TypeE]" (CStr ""))))) (EMatch MOnlyRecordEvents (TConcrete (KEvent, "stubs.EventStub[TypeX]")) (Some (fun _ m => RErr "panic: unexpected call")) (txt "expectation.messagematch.eventonly_test.go:184")) false ["✗ only record events that match the predicate near expectation.messagematch.eventonly_test.go:184"; ""; "  | EXPLANATION"; "  |     none of the 3 relevant events matched the predicate"; "  | "; "  | FAILED MATCHES"; "  |     • stubs.EventStub[TypeE]: predicate function expected stubs.EventStub[TypeX] (repeated 3 times)"; "  | "; "  | SUGGESTIONS"; "  |     • verify the logic within the predicate function"; "  |     • enable integration handlers using the EnableHandlerType() option"; "  |     • verify the logic within the '<aggregate>' aggregate message handler"];
  CLogs app_eventonly true ENoop (EMatch MOnlyRecordEvents (TConcrete (KEvent, "stubs.EventStub[TypeU]")) (Some (fun _ m => RNil)) (txt "expectation.messagematch.eventonly_test.go:212")) "an event of type stubs.EventStub[TypeU] can never be recorded, the application does not use this message type";
  CLogs app_eventonly true ENoop (EMatch MOnlyRecordEvents (TConcrete (KEvent, "stubs.EventStub[TypeO]")) (Some (fun _ m => RNil)) (txt "expectation.messagematch.eventonly_test.go:229")) "no handlers record events of type stubs.EventStub[TypeO], it is only ever consumed";
  CPanics (EMatch MOnlyRecordEvents (iface KEvent "") None []) "ToOnlyRecordEventsMatching(<nil>): function must not be nil"].
Example conform_messagematch_eventonly : forallb conforms cases_messagematch_eventonly = true. Proof. vm_compute. reflexivity. Qed.

(** expectation.not_test.go *)
Definition cases_not : list Case := [
  CEnabled app_not ["<integration>"] (EBuilt (EDispatch true (Some (body "stubs.CommandStub[TypeA]" (CStr "A1"))))) (ENot (EMessage false (Some (body "stubs.EventStub[TypeA]" (CStr "A1"))))) false ["✗ do not record a specific 'stubs.EventStub[TypeA]' event"];
  CEnabled app_not ["<integration>"] (EBuilt (EDispatch true (Some (body "stubs.CommandStub[TypeA]" (CStr "A1"))))) (ENot (EMessage false (Some (body "stubs.EventStub[TypeA]" (CStr "A2"))))) true ["✓ do not record a specific 'stubs.EventStub[TypeA]' event"];
  CLogs app_not false ENoop (ENot (EMessage false (Some (body "stubs.EventStub[TypeA]" (CStr "A2"))))) "--- expect [no-op] not to record a specific 'stubs.EventStub[TypeA]' event ---";
  CLogs app_not true ENoop (ENot fail_before) "<always fail before action>"].
Example conform_not : forallb conforms cases_not = true. Proof. vm_compute. reflexivity. Qed.

(** expectation.composite_test.go *)
Definition cases_composite : list Case := [
  CReport [] [] ENoop (EComp CAll [pass]) true ["✓ <always pass>"];
  CReport [] [] ENoop (EComp CAll [pass; pass]) true ["✓ all of"; "    ✓ <always pass>"; "    ✓ <always pass>"];
  CReport [] [] ENoop (EComp CAll [pass; fail]) false ["✗ all of (1 of the expectations failed)"; "    ✓ <always pass>"; "    ✗ <always fail>"];
  CReport [] [] ENoop (EComp CAll [fail; fail]) false ["✗ all of (2 of the expectations failed)"; "    ✗ <always fail>"; "    ✗ <always fail>"];
  CReport [] [] ENoop (EComp CAny [pass]) true ["✓ <always pass>"];
  CReport [] [] ENoop (EComp CAny [pass; pass]) true ["✓ any of"; "    ✓ <always pass>"; "    ✓ <always pass>"];
  CReport [] [] ENoop (EComp CAny [pass; fail]) true ["✓ any of"; "    ✓ <always pass>"; "    ✗ <always fail>"];
  CReport [] [] ENoop (EComp CAny [fail; fail]) false ["✗ any of (all 2 of the expectations failed)"; "    ✗ <always fail>"; "    ✗ <always fail>"];
  CReport [] [] ENoop (EComp CNone [pass]) false ["✗ none of (the expectation passed unexpectedly)"; "    ✓ <always pass>"];
  CReport [] [] ENoop (EComp CNone [pass; pass]) false ["✗ none of (2 of the expectations passed unexpectedly)"; "    ✓ <always pass>"; "    ✓ <always pass>"];
  CReport [] [] ENoop (EComp CNone [pass; fail]) false ["✗ none of (1 of the expectations passed unexpectedly)"; "    ✓ <always pass>"; "    ✗ <always fail>"];
  CReport [] [] ENoop (EComp CNone [fail; fail]) true ["✓ none of"; "    ✗ <always fail>"; "    ✗ <always fail>"];
  CLogs [] false ENoop (EComp CAll [pass; fail]) "--- expect [no-op] to meet 2 expectations ---";
  CLogs [] true ENoop (EComp CAll [pass; fail_before]) "<always fail before action>";
  CPanics (EComp CAll []) "AllOf(): at least one child expectation must be provided";
  CLogs [] false ENoop (EComp CAny [pass; fail]) "--- expect [no-op] to meet at least one of 2 expectations ---";
  CLogs [] true ENoop (EComp CAny [pass; fail_before]) "<always fail before action>";
  CPanics (EComp CAny []) "AnyOf(): at least one child expectation must be provided";
  CLogs [] false ENoop (EComp CNone [pass; fail]) "--- expect [no-op] not to meet any of 2 expectations ---";
  CLogs [] false ENoop (EComp CNone [pass]) "--- expect [no-op] not to [always pass] ---";
  CLogs [] true ENoop (EComp CNone [pass; fail_before]) "<always fail before action>";
  CPanics (EComp CNone []) "NoneOf(): at least one child expectation must be provided"].
Example conform_composite : forallb conforms cases_composite = true. Proof. vm_compute. reflexivity. Qed.

(** expectation.repeat_test.go *)
Definition cases_repeat : list Case := [
  CReport [] [] ENoop (ERepeat (txt "<description>") (2)%Z (Some (fun i => match i with | 0 => Some (XUser (static true None)) | 1 => Some (XUser (static true None)) | _ => None end))) true ["✓ <description>"];
  CReport [] [] ENoop (ERepeat (txt "<description>") (2)%Z (Some (fun i => match i with | 0 => Some (XUser (static true None)) | 1 => Some (XUser (static false None)) | _ => None end))) false ["✗ <description> (1 of 2 iteration(s) failed, iteration #1 shown)"; "    ✗ <always fail>"];
  CReport [] [] ENoop (ERepeat (txt "<description>") (2)%Z (Some (fun i => match i with | 0 => Some (XUser (static false None)) | 1 => Some (XUser (static false None)) | _ => None end))) false ["✗ <description> (2 of 2 iteration(s) failed, iteration #0 shown)"; "    ✗ <always fail>"];
  CLogs [] false ENoop (ERepeat (txt "<description>") (1)%Z (Some (fun _ => Some (XUser (static true None))))) "--- expect [no-op] to <description> ---";
  CPanics (ERepeat (txt "") (1)%Z (Some (fun _ => None))) "ToRepeatedly("""", 1, <func>): description must not be empty";
  CPanics (ERepeat (txt "<description>") (0)%Z (Some (fun _ => None))) "ToRepeatedly(""<description>"", 0, <func>): n must be 1 or greater";
  CPanics (ERepeat (txt "<description>") (-1)%Z (Some (fun _ => None))) "ToRepeatedly(""<description>"", -1, <func>): n must be 1 or greater";
  CPanics (ERepeat (txt "<description>") (1)%Z None) "ToRepeatedly(""<description>"", 1, <nil>): function must not be nil"].
Example conform_repeat : forallb conforms cases_repeat = true. Proof. vm_compute. reflexivity. Qed.

(** expectation.satisfy_test.go *)
Definition cases_satisfy : list Case := [
  CReport [] [] ENoop (ESatisfy (txt "<description>") (sat (SRet))) true ["✓ <description>"];
  CReport [] [] ENoop (ESatisfy (txt "<description>") (sat (called MFail "" 60 (SRet)))) false ["✗ <description> (the expectation failed)"; ""; "  | EXPLANATION"; "  |     Fail() called at expectation.satisfy_test.go:60"];
  CReport [] [] ENoop (ESatisfy (txt "<description>") (sat (called MSkipNow "" 73 (SRet)))) true ["✓ <description> (the expectation was skipped)"; ""; "  | EXPLANATION"; "  |     SkipNow() called at expectation.satisfy_test.go:73"];
  CReport [] [] ENoop (ESatisfy (txt "<description>") (sat (called MLog "<message>" 86 (SRet)))) true ["✓ <description>"; ""; "  | LOG MESSAGES"; "  |     <message>"];
  CReport [] [] ENoop (ESatisfy (txt "<description>") (sat (called MLogf "<format value>" 99 (SRet)))) true ["✓ <description>"; ""; "  | LOG MESSAGES"; "  |     <format value>"];
  CReport [] [] ENoop (ESatisfy (txt "<description>") (sat (called MError "<message>" 112 (SRet)))) false ["✗ <description> (the expectation failed)"; ""; "  | EXPLANATION"; "  |     Error() called at expectation.satisfy_test.go:112"; "  | "; "  | LOG MESSAGES"; "  |     <message>"];
  CReport [] [] ENoop (ESatisfy (txt "<description>") (sat (called MErrorf "<format value>" 128 (SRet)))) false ["✗ <description> (the expectation failed)"; ""; "  | EXPLANATION"; "  |     Errorf() called at expectation.satisfy_test.go:128"; "  | "; "  | LOG MESSAGES"; "  |     <format value>"];
  CReport [] [] ENoop (ESatisfy (txt "<description>") (sat (called MFatal "<message>" 144 (SRet)))) false ["✗ <description> (the expectation failed)"; ""; "  | EXPLANATION"; "  |     Fatal() called at expectation.satisfy_test.go:144"; "  | "; "  | LOG MESSAGES"; "  |     <message>"];
  CReport [] [] ENoop (ESatisfy (txt "<description>") (sat (called MFatalf "<format value>" 160 (SRet)))) false ["✗ <description> (the expectation failed)"; ""; "  | EXPLANATION"; "  |     Fatalf() called at expectation.satisfy_test.go:160"; "  | "; "  | LOG MESSAGES"; "  |     <format value>"];
  CReport [] [] ENoop (ESatisfy (txt "<description>") (sat (SInvoke (line 181) helper_fn (called MHelper "" 177 (called MFail "" 178 (SRet))) (SRet)))) false ["✗ <description> (the expectation failed)"; ""; "  | EXPLANATION"; "  |     Fail() called indirectly by call at expectation.satisfy_test.go:181"];
  CReport [] [] ENoop (ESatisfy (txt "<description>") (sat (called MHelper "" 194 (called MFail "" 195 (SRet))))) false ["✗ <description> (the expectation failed)"; ""; "  | EXPLANATION"; "  |     Fail() called at expectation.satisfy_test.go:195"];
  CReport [] [] ENoop (ESatisfy (txt "<description>") (sat (called MHelper "" 208 (SInvoke (line 215) helper_fn (called MHelper "" 211 (called MFail "" 212 (SRet))) (SRet))))) false ["✗ <description> (the expectation failed)"; ""; "  | EXPLANATION"; "  |     Fail() called indirectly by call at expectation.satisfy_test.go:215"];
  CReport [] [] ENoop (EComp CNone [(ESatisfy (txt "<always pass>") (sat (SRet))); (ESatisfy (txt "<always fail>") (sat (called MFail "" 232 (SRet))))]) false ["✗ none of (1 of the expectations passed unexpectedly)"; "    ✓ <always pass>"; "    ✗ <always fail> (the expectation failed)"];
  CLogs [] false ENoop (ESatisfy (txt "<description>") (sat (SRet))) "--- expect [no-op] to <description> ---";
  CPanics (ESatisfy (txt "") (sat (SRet))) "ToSatisfy("""", <func>): description must not be empty";
  CPanics (ESatisfy (txt "<description>") None) "ToSatisfy(""<description>"", <nil>): function must not be nil"].
Example conform_satisfy : forallb conforms cases_satisfy = true. Proof. vm_compute. reflexivity. Qed.

(** fact/logger_test.go *)
Definition cases_logger : list (string * Fact) := [
  ("= 10  ∵ 10  ⋲ 10  ▼ ⚙    dispatching ● 2006-01-02T15:04:05+07:00 ● enabled: +aggregates +processes -<disabled> +<enabled>", DispatchCycleBegun log_command log_now (mkETypes true true false false) (list_to_map [("<enabled>", true); ("<disabled>", false)]));
  ("", DispatchCycleCompleted log_command [] (mkETypes false false false false) (list_to_map []));
  ("", DispatchCycleCompleted log_command [EUser "<error>"] (mkETypes false false false false) (list_to_map []));
  ("= 10  ∵ 10  ⋲ 10  ▼ ⚙    stubs.CommandStub[TypeA]? ● command(stubs.TypeA:A1, valid)", DispatchBegun log_command);
  ("", DispatchCompleted log_command []);
  ("", DispatchCompleted log_command [EUser "<error>"]);
  ("", HandlingBegun (mkHId "" HTAggregate) log_command);
  ("", HandlingCompleted (mkHId "" HTAggregate) log_command None);
  ("= 10  ∵ 10  ⋲ 10  ▽ ∴ ✖  <aggregate> ● <error>", HandlingCompleted (mkHId "<aggregate>" HTAggregate) log_command (Some (EUser "<error>")));
  ("= 10  ∵ 10  ⋲ 10  ▼ ∴    <aggregate> ● handler skipped because aggregate handlers are disabled", HandlingSkipped (mkHId "<aggregate>" HTAggregate) log_command SRType);
  ("= 10  ∵ 10  ⋲ 10  ▼ ∴    <aggregate> ● handler skipped because it is disabled during this tick of the test engine", HandlingSkipped (mkHId "<aggregate>" HTAggregate) log_command SRIndividual);
  ("= 10  ∵ 10  ⋲ 10  ▼ ∴    <aggregate> ● handler skipped because it is disabled by its Configure() method", HandlingSkipped (mkHId "<aggregate>" HTAggregate) log_command SRConfiguration);
  ("= --  ∵ --  ⋲ --    ⚙    ticking ● 2006-01-02T15:04:05+07:00 ● enabled: +aggregates +processes -<disabled> +<enabled>", TickCycleBegun log_now (mkETypes true true false false) (list_to_map [("<enabled>", true); ("<disabled>", false)]));
  ("", TickCycleCompleted [] (mkETypes false false false false) (list_to_map []));
  ("", TickCycleCompleted [EUser "<error>"] (mkETypes false false false false) (list_to_map []));
  ("", TickBegun (mkHId "" HTAggregate));
  ("", TickCompleted (mkHId "" HTAggregate) None);
  ("= --  ∵ --  ⋲ --    ∴ ✖  <aggregate> ● <error>", TickCompleted (mkHId "<aggregate>" HTAggregate) (Some (EUser "<error>")));
  ("= 10  ∵ 10  ⋲ 10  ▼ ∴    <aggregate> <instance> ● loaded an existing instance", AggregateInstanceLoaded (mkHId "<aggregate>" HTAggregate) "<instance>" tt log_command);
  ("= 10  ∵ 10  ⋲ 10  ▼ ∴    <aggregate> <instance> ● instance does not yet exist", AggregateInstanceNotFound (mkHId "<aggregate>" HTAggregate) "<instance>" log_command);
  ("= 10  ∵ 10  ⋲ 10  ▼ ∴    <aggregate> <instance> ● instance created", AggregateInstanceCreated (mkHId "<aggregate>" HTAggregate) "<instance>" tt log_command);
  ("= 10  ∵ 10  ⋲ 10  ▼ ∴    <aggregate> <instance> ● instance destroyed", AggregateInstanceDestroyed (mkHId "<aggregate>" HTAggregate) "<instance>" tt log_command);
  ("= 10  ∵ 10  ⋲ 10  ▼ ∴    <aggregate> <instance> ● destruction of instance reverted", AggregateInstanceDestructionReverted (mkHId "<aggregate>" HTAggregate) "<instance>" tt log_command);
  ("= 20  ∵ 10  ⋲ 10  ▲ ∴    <aggregate> <instance> ● recorded an event ● stubs.EventStub[TypeA]! ● event(stubs.TypeA:A1, valid)", EventRecordedByAggregate (mkHId "<aggregate>" HTAggregate) "<instance>" tt log_command (log_new log_command KEvent));
  ("= 10  ∵ 10  ⋲ 10  ▼ ∴    <aggregate> <instance> ● <message>", MessageLoggedByAggregate (mkHId "<aggregate>" HTAggregate) "<instance>" tt log_command "<message>");
  ("= 10  ∵ 10  ⋲ 10  ▼ ≡    <process> <instance> ● loaded an existing instance", ProcessInstanceLoaded (mkHId "<process>" HTProcess) "<instance>" tt log_event);
  ("= 10  ∵ 10  ⋲ 10  ▼ ≡    <process> ● event ignored because it was not routed to any instance", ProcessEventIgnored (mkHId "<process>" HTProcess) log_event);
  ("= 10  ∵ 10  ⋲ 10  ▼ ≡    <process> <instance> ● timeout ignored because the target instance no longer exists", ProcessTimeoutIgnored (mkHId "<process>" HTProcess) "<instance>" log_event);
  ("= 10  ∵ 10  ⋲ 10  ▼ ≡    <process> <instance> ● instance does not yet exist", ProcessInstanceNotFound (mkHId "<process>" HTProcess) "<instance>" log_event);
  ("= 10  ∵ 10  ⋲ 10  ▼ ≡    <process> <instance> ● instance begun", ProcessInstanceBegun (mkHId "<process>" HTProcess) "<instance>" (Some tt) log_event);
  ("= 10  ∵ 10  ⋲ 10  ▼ ≡    <process> <instance> ● instance ended", ProcessInstanceEnded (mkHId "<process>" HTProcess) "<instance>" tt log_event);
  ("= 10  ∵ 10  ⋲ 10  ▼ ≡    <process> <instance> ● reverted ending process instance", ProcessInstanceEndingReverted (mkHId "<process>" HTProcess) "<instance>" tt log_event);
  ("= 20  ∵ 10  ⋲ 10  ▲ ≡    <process> <instance> ● executed a command ● stubs.CommandStub[TypeA]? ● command(stubs.TypeA:A1, valid)", CommandExecutedByProcess (mkHId "<process>" HTProcess) "<instance>" tt log_event (log_new log_event KCommand));
  ("= 20  ∵ 10  ⋲ 10  ▲ ≡    <process> <instance> ● scheduled a timeout for 2006-01-02T15:04:05+07:00 ● stubs.TimeoutStub[TypeA]@ ● timeout(stubs.TypeA:A1, valid)", TimeoutScheduledByProcess (mkHId "<process>" HTProcess) "<instance>" tt log_command (log_new log_event KTimeout));
  ("= 10  ∵ 10  ⋲ 10  ▼ ≡    <process> <instance> ● <message>", MessageLoggedByProcess (mkHId "<process>" HTProcess) "<instance>" tt log_event "<message>");
  ("= 20  ∵ 10  ⋲ 10  ▲ ⨝    <integration> ● recorded an event ● stubs.EventStub[TypeA]! ● event(stubs.TypeA:A1, valid)", EventRecordedByIntegration (mkHId "<integration>" HTIntegration) log_command (log_new log_command KEvent));
  ("= 10  ∵ 10  ⋲ 10  ▼ ⨝    <integration> ● <message>", MessageLoggedByIntegration (mkHId "<integration>" HTIntegration) log_command "<message>");
  ("", ProjectionCompactionBegun (mkHId "" HTAggregate));
  ("= --  ∵ --  ⋲ --    Σ    <projection> ● compacted", ProjectionCompactionCompleted (mkHId "<projection>" HTProjection) None);
  ("= --  ∵ --  ⋲ --    Σ ✖  <projection> ● compaction failed: <error>", ProjectionCompactionCompleted (mkHId "<projection>" HTProjection) (Some (EUser "<error>")));
  ("= 10  ∵ 10  ⋲ 10  ▼ Σ    <projection> ● <message>", MessageLoggedByProjection (mkHId "<projection>" HTProjection) (Some log_command) "<message>");
  ("= --  ∵ --  ⋲ --    Σ    <projection> ● <message>", MessageLoggedByProjection (mkHId "<projection>" HTProjection) None "<message>")].
Example conform_logger : forallb logger_conforms cases_logger = true. Proof. vm_compute. reflexivity. Qed.

(** internal/inflect/inflect_test.go *)
Definition cases_inflect : list (Kind * string * string) := [
  (KCommand, "a <message>", "a command");
  (KEvent, "a <message>", "an event");
  (KTimeout, "a <message>", "a timeout");
  (KCommand, "an <message>", "a command");
  (KEvent, "an <message>", "an event");
  (KTimeout, "an <message>", "a timeout");
  (KCommand, "the <messages>", "the commands");
  (KEvent, "the <messages>", "the events");
  (KTimeout, "the <messages>", "the timeouts");
  (KCommand, "1 <messages>", "1 command");
  (KEvent, "1 <messages>", "1 event");
  (KTimeout, "1 <messages>", "1 timeout");
  (KCommand, "21 <messages>", "21 commands");
  (KEvent, "21 <messages>", "21 events");
  (KTimeout, "21 <messages>", "21 timeouts");
  (KCommand, "only 1 <messages>", "only 1 command");
  (KEvent, "only 1 <messages>", "only 1 event");
  (KTimeout, "only 1 <messages>", "only 1 timeout");
  (KCommand, "only 21 <messages>", "only 21 commands");
  (KEvent, "only 21 <messages>", "only 21 events");
  (KTimeout, "only 21 <messages>", "only 21 timeouts");
  (KCommand, "<produce> a specific <message>", "execute a specific command");
  (KEvent, "<produce> a specific <message>", "record a specific event");
  (KTimeout, "<produce> a specific <message>", "schedule a specific timeout");
  (KCommand, "the <message> was <produced>", "the command was executed");
  (KEvent, "the <message> was <produced>", "the event was recorded");
  (KTimeout, "the <message> was <produced>", "the timeout was scheduled");
  (KCommand, "via a <dispatcher>", "via a dogma.CommandExecutor");
  (KEvent, "via a <dispatcher>", "via a dogma.EventRecorder")].
Example conform_inflect : forallb inflect_conforms cases_inflect = true. Proof. vm_compute. reflexivity. Qed.
