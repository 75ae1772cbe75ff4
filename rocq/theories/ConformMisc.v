(** * Conformance of the smaller models with the repository's own tests

    Hand transcriptions of location/location_test.go, engine/internal/panicx/*_test.go,
    envelope/envelope_test.go, engine/run_test.go,
    fact/internal/logging/{icon,write}_test.go, internal/report/diff_test.go and
    compare_test.go.  They are tests of the model on literals, not proofs of properties.
    Not transcribed: location.OfFunc and OfMethod, the fields "Implementation" and
    "PanicLocation" of panic values, DirectionIcon (used by no other code) and
    validation_test.go. *)
From stdpp Require Import sorting.
From Verif Require Import EngineModel RunModel PanicTextModel WriterModel DiffModel BufferModel NoteModel.
From Verif Require Import LocationModel.

#[local] Instance ConfP : Params := {| U := unit; Root := unit; D := string |}.

(** ** location/location_test.go *)
Definition frame (f file : string) (l : Z) : Frame := {| fr_func := txt f; fr_file := txt file; fr_line := l |}.
Definition loc (f file : string) (l : Z) : Location := {| lo_func := txt f; lo_file := txt file; lo_line := l |}.
Definition ln : string := "/location/linenumber_test.go".
Definition at_ (f : string) : string := String.append "github.com/dogmatiq/testkit/location_test." f.

(** :51-63: OfCall(), called by ofCallLayer1(), called by ofCallLayer2(). *)
Example t_of_call :
  of_call [[frame "github.com/dogmatiq/testkit/location.OfCall" "/location/location.go" 127];
           [frame (at_ "ofCallLayer1") ln 54]; [frame (at_ "ofCallLayer2") ln 53];
           [frame (at_ "init.func1.3.1") "/location/location_test.go" 53]]
  = Some (loc (at_ "ofCallLayer2") ln 53).
Proof. vm_compute. reflexivity. Qed.
(** :65-81: OfPanic() in the deferred function, while doPanic() panics. *)
Example t_of_panic :
  of_panic [[frame "github.com/dogmatiq/testkit/location.OfPanic" "/location/location.go" 159];
            [frame (at_ "init.func1.4.1.1") "/location/location_test.go" 70];
            [frame "runtime.gopanic" "/runtime/panic.go" 770];
            [frame (at_ "doPanic") ln 51];
            [frame (at_ "init.func1.4.1") "/location/location_test.go" 80]]
  = Some (loc (at_ "doPanic") ln 51).
Proof. vm_compute. reflexivity. Qed.
(** :84-96. *)
Example t_location_string :
  map location_string
    [loc "" "" 0; loc "<function>" "" 0; loc "<function glob..>" "" 0; loc "" "<file>" 123;
     loc "<function>" "<file>" 123; loc "<function glob..>" "<file>" 123]
  = map txt ["<unknown>"; "<function>(...)"; "<function glob..>(...)"; "<file>:123";
             "<file>:123 [<function>(...)]"; "<file>:123"]%string.
Proof. vm_compute. reflexivity. Qed.

(** ** engine/internal/panicx *)
Definition prj : HId := mkHId "<name>" HTProjection.
Definition texts : PanicTexts :=
  mkPanicTexts (fun _ _ => txt "*stubs.ProjectionMessageHandlerStub") (fun t => txt t.2) (fun _ => []).
Definition evX1 : Msg := mkMsg KEvent (mkBody "stubs.EventStub[TypeX]" "X1" None).
Definition enriched := enrich prj "<interface>" "<method>" evX1.

(** unexpectedmessage_test.go:26-48. *)
Example t_unexpected_message_string :
  panic_text texts <$> enriched (Some PRaw)
  = Some (txt "the '<name>' projection message handler did not expect *stubs.ProjectionMessageHandlerStub.<method>() to be called with a message of type stubs.EventStub[TypeX]").
Proof. vm_compute. reflexivity. Qed.
(** :63-93: the function's return and its own panics. *)
Example t_enrich_returns : enriched None = None.
Proof. reflexivity. Qed.
Example t_enrich_propagates : enriched (Some (PUser "<panic>")) = Some (PUser "<panic>").
Proof. reflexivity. Qed.
(** :95-123. *)
Example t_enrich_converts : enriched (Some PRaw) = Some (PUnexpMsg prj "<interface>" "<method>" evX1).
Proof. reflexivity. Qed.
(** unexpectedbehavior_test.go:24-38; the model has no description that is just
    "<description>", so this is one that the engine makes. *)
Example t_unexpected_behavior_string :
  panic_text texts (PUnexpBeh prj "<interface>" "<method>" evX1 (BUndeclared (m_type evX1)))
  = txt "the '<name>' projection message handler behaved unexpectedly in *stubs.ProjectionMessageHandlerStub.<method>(): recorded an event of type stubs.EventStub[TypeX], which is not produced by this handler".
Proof. vm_compute. reflexivity. Qed.

(** ** envelope/envelope_test.go *)
Definition cmd (n : string) : Msg := mkMsg KCommand (mkBody "CommandStub" n None).
Definition evt (n : string) : Msg := mkMsg KEvent (mkBody "EventStub" n None).
Definition tmo (n : string) : Msg := mkMsg KTimeout (mkBody "TimeoutStub" n None).
Definition origin (t : HType) : Origin := mkOrigin (mkHId "<handler>" t) t "<instance>".
Definition parent (m : Msg) : Env := new_root "100" m 5.
(** :15-53. *)
Example t_new_command : new_root "100" (cmd "A1") 7 = mkEnv "100" "100" "100" (cmd "A1") 7 0 None.
Proof. reflexivity. Qed.
Example t_new_event : new_root "100" (evt "A1") 7 = mkEnv "100" "100" "100" (evt "A1") 7 0 None.
Proof. reflexivity. Qed.
(** :68-97. *)
Example t_child_command : new_child (parent (evt "P1")) "200" (cmd "A1") 7 (origin HTProcess)
  = mkEnv "200" "100" "100" (cmd "A1") 7 0 (Some (origin HTProcess)).
Proof. reflexivity. Qed.
(** :111-140. *)
Example t_child_event : new_child (parent (cmd "P1")) "200" (evt "A1") 7 (origin HTAggregate)
  = mkEnv "200" "100" "100" (evt "A1") 7 0 (Some (origin HTAggregate)).
Proof. reflexivity. Qed.
(** :155-187. *)
Example t_child_timeout : new_timeout (parent (cmd "P1")) "200" (tmo "A1") 7 9 (origin HTProcess)
  = mkEnv "200" "100" "100" (tmo "A1") 7 9 (Some (origin HTProcess)).
Proof. reflexivity. Qed.

(** ** engine/run_test.go; times are in milliseconds. *)
Definition eng : Config := mkConfig [] false [].
Definition canceled : Err := ECtx "context canceled".
Definition oracle (lock : option string) : Oracle :=
  mkOracle (fun _ => None) (fun _ => lock) (fun _ => 0%N) (fun _ => true) (fun l => l) 0.
Definition at_time (t : Z) (sleep : option Err) : RunStep := mkRunStep t (oracle None) 3 [] sleep.
(** The engine times of ticks, and the result. *)
Definition begun (r : EState * list RunEv * RunRes) : list (option Z) * RunRes :=
  let '(_, evs, res) := r in
  (flat_map (fun ev => match ev with
     | RvTick [TickCycleBegun t _ _; TickCycleCompleted [] _ _] _ => [Some t]
     | RvTick _ _ => [None]
     | _ => [] end) evs, res).
(** :34-58: canceled after 16 ms. *)
Example t_run_ticks :
  begun (run eng 1000 [OptObserver 1] [at_time 1000 None; at_time 1005 None; at_time 1010 None; at_time 1015 (Some canceled)] (e_init eng tt))
  = ([Some 1000; Some 1005; Some 1010; Some 1015]%Z, RunReturns [canceled]).
Proof. vm_compute. reflexivity. Qed.
(** :60-66: the context is already canceled; Tick() may notice, or Sleep(). *)
Example t_run_canceled_tick :
  (run eng 0 [] [mkRunStep 0 (oracle (Some "context canceled")) 3 [] None] (e_init eng tt)).2 = RunReturns [canceled].
Proof. vm_compute. reflexivity. Qed.
(** :68-78. *)
Example t_run_canceled_sleep :
  (run eng 0 [] [at_time 0 None; at_time 1 (Some canceled)] (e_init eng tt)).2 = RunReturns [canceled].
Proof. vm_compute. reflexivity. Qed.
(** :99-131: half the speed, from an epoch. *)
Example t_run_scaled :
  begun (run_time_scaled eng 1000 (fun d => d / 2)%Z (Some 50000)%Z [OptObserver 1]
     [at_time 1001 None; at_time 1011 None; at_time 1022 None; at_time 1030 (Some canceled)] (e_init eng tt))
  = ([Some 50000; Some 50005; Some 50011; Some 50015]%Z, RunReturns [canceled]).
Proof. vm_compute. reflexivity. Qed.

(** ** fact/internal/logging *)
(** icon_test.go:12-26. *)
Example t_icon_label : write_labelled (with_label (txt "⨀") (txt "<foo>")) = txt "⨀ <foo>".
Proof. reflexivity. Qed.
(** write_test.go:11-88: with String(), and with Write() to a writer that does not fail. *)
Definition ids (c : string) : list (text * text) :=
  [with_label MessageIDIcon (txt "123"); with_label CausationIDIcon (txt "456"); with_label CorrelationIDIcon (txt c)].
Definition foo_bar : list text := [txt "<foo>"; txt "<bar>"].
Definition cases : list (string * list (text * text) * list text * list text) :=
  [("= 123  ∵ 456  ⋲ 789  ▼ ↻  <foo> ● <bar>"%string, ids "789", [InboundIcon; txt "↻"], foo_bar);
   ("= 123  ∵ 456  ⋲ -  ▼    <foo> ● <bar>"%string, ids "", [InboundIcon; []], foo_bar);
   ("= 123  ∵ 456  ⋲ 789  ▼    <foo> ● <bar>"%string, ids "789", [InboundIcon; []], foo_bar);
   ("= 123  ∵ 456  ⋲ 789  ▼ ↻  <foo> ● <bar>"%string, ids "789", [InboundIcon; txt "↻"], [txt "<foo>"; []; txt "<bar>"])].
Example t_line_string : map (fun '(e, i, ic, t) => line_string i ic t) cases = map (fun '(e, _, _, _) => txt e) cases.
Proof. vm_compute. reflexivity. Qed.
Example t_line_write :
  map (fun '(e, i, ic, t) => let '(calls, r) := line_write (fun _ s => (length s, None)) i ic t [] [] in (concat (map fst calls), r)) cases
  = map (fun '(e, _, _, _) => (txt e, (length (txt e), None))) cases.
Proof. vm_compute. reflexivity. Qed.

(** ** internal/report/diff_test.go:12-24, given what DiffMain() returns. *)
Example t_write_diff :
  write_diff (fun _ _ => [mkDiff DEqual (txt "foo "); mkDiff DDelete (txt "bar"); mkDiff DInsert (txt "qux"); mkDiff DEqual (txt " baz")])
    (txt "foo bar baz") (txt "foo qux baz")
  = txt "foo [-bar-]{+qux+} baz".
Proof. reflexivity. Qed.

(** ** compare_test.go:15-77.  Values are given by their type and parts: for messages of
    protocol buffers, the unexported state and the field Value. *)
Fixpoint deep (a b : GoVal) : bool :=
  match a, b with
  | GvBasic t s, GvBasic t' s' => bool_decide (t = t') && bool_decide (s = s')
  | GvParts t l, GvParts t' l' => bool_decide (t = t') &&
    (fix all (l l' : list GoVal) := match l, l' with [], [] => true | x :: l, y :: l' => deep x y && all l l' | _, _ => false end) l l'
  | _, _ => false
  end.
Definition lib : GoLib :=
  mkGoLib (fun t => bool_decide (t = "*ProtoMessage"%string))
    (fun a b => match a, b with GvParts _ [_; v], GvParts _ [_; v'] => deep v v' | _, _ => false end) deep.
Definition stub (t c : string) : option GoVal := Some (GvParts t [GvBasic "string" c; GvBasic "string" ""]).
Definition proto (state v : string) : option GoVal := Some (GvParts "*ProtoMessage" [GvBasic "state" state; GvBasic "string" v]).
Example t_compare_equal :
  (go_equal lib (stub "CommandStub[TypeA]" "A1") (stub "CommandStub[TypeA]" "A1"),
   go_equal lib (proto "" "<value>") (proto "" "<value>"),
   deep (default (GvBasic "" "") (proto "initialized" "<value>")) (default (GvBasic "" "") (proto "" "<value>")),
   go_equal lib (proto "initialized" "<value>") (proto "" "<value>")) = (true, true, false, true).
Proof. vm_compute. reflexivity. Qed.
Example t_compare_different :
  (go_equal lib (stub "CommandStub[TypeA]" "A1") (stub "CommandStub[TypeB]" "B1"),
   go_equal lib (proto "" "<value-a>") (proto "" "<value-b>")) = (false, false).
Proof. vm_compute. reflexivity. Qed.
