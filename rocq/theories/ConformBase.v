(** * The applications, actions and expectations of the tests of /repo, in the model.

    ConformTable.v lists cases from the test tables of the repository, with the texts they
    expect; here is what is needed to run them.  These are tests of the model, not proofs
    about it. *)
From stdpp Require Import sorting.
From Verif Require Export LogModel LogSpec DiffModel.

(** Messages of enginekit/enginetest/stubs: their content is a string, or an event. *)
Inductive Content := CStr (s : string) | CEvent (name : string) (c : Content).
#[export] Instance Content_eq_dec : EqDecision Content. Proof. solve_decision. Defined.
#[export] Instance ConfP : Params := {| U := unit; Root := unit; D := Content |}.
#[export] Instance Body_eq_dec : EqDecision Body. Proof. solve_decision. Defined.
#[export] Instance Msg_eq_dec : EqDecision Msg. Proof. solve_decision. Defined.

Definition body (n : string) (c : Content) : Body := mkBody n c None.
Definition invalid (n er : string) : Body := mkBody n (CStr "") (Some er).
Definition same (k : Kind) (b : Body) (m : Msg) : bool := bool_decide (m = mkMsg k b).

Local Open Scope string_scope.
Notation Com x := ("stubs.CommandStub[" +:+ x +:+ "]").
Notation Eve x := ("stubs.EventStub[" +:+ x +:+ "]").
Notation Tim x := ("stubs.TimeoutStub[" +:+ x +:+ "]").
Definition com (x : string) : MType := (KCommand, Com x).
Definition eve (x : string) : MType := (KEvent, Eve x).
Definition tim (x : string) : MType := (KTimeout, Tim x).
Definition iface (k : Kind) (n : string) : TParam := TInterface k n (fun t => bool_decide (t.1 = k)).

(** ** Handlers *)

Definition record_all (l : list Body) : AProg := foldr (fun b p => ARecord b (fun v => match v with Some v => APanic v | None => p end)) ARet l.
Definition agg (f : Msg -> list Body) : Impl :=
  ImplAgg {| ag_route _ := inl "<instance>"; ag_new := Some tt; ag_apply r _ := (r, None); ag_handle _ m := record_all (f m) |}.
(** Commands that are executed, or timeouts that are scheduled in an hour. *)
Fixpoint emit_all (t : Z) (l : list (Kind * Body)) : PProg :=
  match l with
  | [] => PRet None
  | (KTimeout, b) :: l => PSchedule b (t + 3600000000000) (fun v => match v with Some v => PPanic v | None => emit_all t l end)
  | (_, b) :: l => PExecute b (fun v => match v with Some v => PPanic v | None => emit_all t l end)
  end.
Definition proc (f : Msg -> list (Kind * Body)) : Impl :=
  ImplProc {| pr_route _ u := (u, inl ("<instance>", true, None)); pr_new := Some tt;
              pr_event _ t m := emit_all t (f m); pr_timeout _ _ _ := PRet None |}.
Definition integ (f : Msg -> list Body) : Impl :=
  ImplInt {| in_handle m := foldr (fun b p => IRecord b (fun v => match v with Some v => IPanic v | None => p end)) (IRet None) (f m) |}.
Definition proj : Impl :=
  ImplProj {| pj_version _ u := (u, inl ("", None)); pj_handle _ _ _ _ _ := JRet (true, None);
              pj_close _ u := (u, inl None); pj_compact _ := JRet None |}.

Definition content (m : Msg) : Content := b_data (m_body m).
Definition is (k : Kind) (n : string) (m : Msg) : bool := bool_decide (m_type m = (k, n)).
(** Twice if the content is "<multiple>". *)
Definition times {A} (multiple : bool) (m : Msg) (x : A) : list A :=
  if multiple && bool_decide (content m = CStr "<multiple>") then [x; x] else [x].

(** expectation.message.command_test.go:39-101, expectation.messagetype.command_test.go:39-107,
    expectation.messagematch.command_test.go:40-112. *)
Definition app_command (multiple : bool) : list Handler :=
  [mkHandler "<process>" (proc (fun m =>
     if is KEvent (Eve "TypeC") m then times multiple m (KCommand, body (Com "TypeC") (content m))
     else if is KEvent (Eve "TypeT") m then [(KTimeout, body (Tim "TypeT") (content m))] else []))
     [eve "TypeX"; eve "TypeC"; eve "TypeT"; tim "TypeT"] [com "TypeC"; com "TypeX"; tim "TypeT"] false;
   mkHandler "<integration>" (integ (fun _ => [])) [com "TypeO"] [] false].
(** expectation.message.commandcall_test.go:36-93, expectation.messagetype.commandcall_test.go:36-93. *)
Definition app_commandcall : list Handler :=
  [mkHandler "<integration>" (integ (fun m =>
     match content m with CEvent n c => if is KCommand (Com "dogma.Event") m then [body n c] else [] | _ => [] end))
     [com "TypeX"; com "dogma.Event"] [] false;
   mkHandler "<process>" (proc (fun m =>
     if is KEvent (Eve "TypeP") m then [(KCommand, body (Com "TypeP") (content m))] else []))
     [eve "TypeP"] [com "TypeP"] false].
(** expectation.message.event_test.go:36-100, expectation.messagetype.event_test.go:36-100,
    expectation.messagematch.event_test.go:37-110 (which has no TypeO). *)
Definition agg_event (multiple : bool) : Handler :=
  mkHandler "<aggregate>" (agg (fun m =>
     if is KCommand (Com "TypeE") m then times multiple m (body (Eve "TypeE") (content m)) else []))
     [com "TypeX"; com "TypeE"] [eve "TypeE"; eve "TypeX"] false.
Definition app_event (multiple only : bool) : list Handler :=
  [agg_event multiple;
   mkHandler "<process>" (proc (fun m =>
     if is KEvent (Eve "TypeC") m then [(KCommand, body (Com "TypeX") (CStr ""))] else []))
     (eve "TypeC" :: if only then [eve "TypeO"] else []) [com "TypeX"] false].
(** expectation.message.eventcall_test.go:33-65, expectation.messagetype.eventcall_test.go:33-65. *)
Definition app_eventcall : list Handler := [agg_event false].
(** expectation.messagematch.commandonly_test.go:30-80. *)
Definition app_commandonly : list Handler :=
  [mkHandler "<process>" (proc (fun _ => map (fun c => (KCommand, body (Com "TypeC") (CStr c))) ["C1"; "C2"; "C3"]))
     [eve "TypeC"] [com "TypeC"; com "TypeX"] false;
   mkHandler "<integration>" (integ (fun _ => [])) [com "TypeO"] [] false].
(** expectation.messagematch.eventonly_test.go:29-69. *)
Definition app_eventonly : list Handler :=
  [mkHandler "<aggregate>" (agg (fun _ => map (fun c => body (Eve "TypeE") (CStr c)) ["E1"; "E2"; "E3"]))
     [com "TypeE"] [eve "TypeE"; eve "TypeX"] false;
   mkHandler "<projection>" proj [eve "TypeO"] [] false].
(** expectation.not_test.go:21-46. *)
Definition app_not : list Handler :=
  [mkHandler "<integration>" (integ (fun _ => [body (Eve "TypeA") (CStr "A1")])) [com "TypeA"] [eve "TypeA"] false].

(** ** Texts *)

(** %#v of the texts that occur. *)
Definition quote (s : text) : text := txt """" ++ s ++ txt """".
(** The only difference that occurs: that of the contents "<different>" and "<content>"; the
    other parts are equal. *)
Definition dapper (m : Msg) : text :=
  let n := match m_kind m with KCommand => "CommandStub" | KEvent => "EventStub" | KTimeout => "TimeoutStub" end in
  let ty := txt (b_name (m_body m)) in
  let param := take (length ty - 1 - S (String.length ("stubs." +:+ n))) (drop (S (String.length ("stubs." +:+ n))) ty) in
  txt "stubs." ++ txt n ++ txt "[github.com/dogmatiq/enginekit/enginetest/stubs." ++ param ++ txt "]{" ++ [nl] ++
  txt "    Content:         """ ++ match content m with CStr s => txt s | _ => [] end ++ txt """" ++ [nl] ++
  txt "    ValidationError: """"" ++ [nl] ++ txt "}".
Fixpoint common (a b : text) : nat :=
  match a, b with x :: a, y :: b => if bool_decide (x = y) then S (common a b) else 0 | _, _ => 0 end.
Definition diffs (a b : text) : list Diff :=
  let n := common a b in
  let a' := drop n a in let b' := drop n b in
  let s := common (rev a') (rev b') in
  List.filter (fun d => match df_text d with [] => false | _ => true end)
    [mkDiff DEqual (take n a); mkDiff DDelete (take (length a' - s) a'); mkDiff DInsert (take (length b' - s) b');
     mkDiff DEqual (drop (length a' - s) a')].
Definition texts : RepTexts := mkRT (fun t => txt t.2) dapper (write_diff diffs).
Definition fmt : Fmt := mkFmt (fun t => txt t.2) quote (fun _ => txt "3s") (fun _ => []) inflect.
Definition log_texts : LogTexts := {|
  lt_time := fun _ => []; lt_type := fun t => txt t.2; lt_description := fun _ => []; lt_error := fun _ => [];
  lt_range := fun m => map fst (map_to_list m); lt_sort := fun l => l |}.

(** ** Running a case *)

Definition by_time (a b : Env) : Prop := (e_sched a <= e_sched b)%Z.
#[export] Instance by_time_dec : RelDecision by_time. Proof. intros a b. unfold by_time. apply _. Defined.
Definition oracle : Oracle := mkOracle (fun _ => None) (fun _ => None) (fun _ => 0%N) (fun _ => true) (merge_sort by_time) 0.
(** internal/testingmock: Fatal() and FailNow() return. *)
Definition env (app : list Handler) : TEnv :=
  mkTEnv (fun _ => oracle) (fun _ => 50) (fun _ => app) (fun _ => texts) (fun l => l) (fun a b => bool_decide (a = b)) false
    (mkGoLib (fun _ => false) (fun _ _ => false) (fun _ _ => false)) (fun _ _ => dapper).

(** An action as written in a test: [ENoop] is noopAction of action_test.go:16-28. *)
Inductive AX := ENoop | EBuilt (a : EAct).
Definition noop : UAction := mkUA None (inl "[no-op]") inl (fun _ => UDone None).
(** executeCommandViaExecutor: Call() of a function that executes one command. *)
Definition via_executor (b : Body) : AX := EBuilt (ECall (Some (TExecute b (fun _ => TRet))) []).
Definition call_nothing : AX := EBuilt (ECall (Some TRet) []).

(** staticExpectation, expectation_test.go:10-55. *)
Definition static (ok : bool) (er : option string) : UserExp :=
  mkUser (fun _ => er) (fun _ _ => ok)
    (fun _ _ cx => new_report (cx_tree cx) ok (if ok then txt "<always pass>" else txt "<always fail>") []).
Definition static_caption (ok : bool) : text := if ok then txt "to [always pass]" else txt "to [always fail]".
Definition pass : EExp := EGiven (static true None) (static_caption true).
Definition fail : EExp := EGiven (static false None) (static_caption false).
Definition fail_before : EExp := EGiven (static false (Some "<always fail before action>")) (static_caption false).
(** Caption() of these, for the log. *)
Definition all_texts : Texts := mkTexts fmt log_texts (fun u => static_caption (ux_ok u (mkScope (fun _ => None) (fun _ _ => false) false) [])).

(** Functions given to ToSatisfy(): [fn] is called from Done(), whose other places do not matter. *)
Definition sat_env : SEnv := mkSEnv (txt "/repo/expectation.satisfy.go") {| si_pc := 1; si_line := 91 |} {| si_pc := 2; si_line := 92 |} {| si_pc := 3; si_line := 368 |} [] [].
Definition test_file : text := txt "/repo/expectation.satisfy_test.go".
Definition sat (p : SProg) : option (list Fact -> SEnv * (Fn * SProg)) :=
  Some (fun _ => (sat_env, ({| fn_name := txt "testkit_test.init.func1"; fn_file := test_file |}, p))).
Definition helper_fn : Fn := {| fn_name := txt "testkit_test.init.func1.1"; fn_file := test_file |}.
Definition line (n : positive) : Site := {| si_pc := n; si_line := Zpos n |}.
Definition called (m : SMethod) (s : string) (n : positive) (k : SProg) : SProg := SCall m s (line n) k.

(** The lines that internal/testingmock collects. *)
Fixpoint split_lines (cur s : text) : list text :=
  match s with [] => [rev cur] | c :: s => if bool_decide (c = nl) then rev cur :: split_lines [] s else split_lines (c :: cur) s end.
Definition logged (l : list Entry) : list text := concat (map (fun x => split_lines [] (entry_text x)) l).

Definition run_case (app : list Handler) (before : UProg -> UProg) (opts : list TOpt) (a : AX) (e : EExp) : option (list text * bool * text) :=
  let c := test_config app in
  let go ua x s := let '(st, evs, r) := run_u (env app) c (before (UExpect ua x (fun _ => UDone None))) (begin app tt 0 opts) in
    Some (logged (log_of all_texts evs), ts_failed st, s) in
  match eval fmt e with
  | inl (BExp x s) =>
    match a with
    | ENoop => go noop x s
    | EBuilt a => match eval_action fmt a with inl (act, s') => go (u_action c (fun _ => string_of_list_ascii s') act) x s | inr _ => None end
    end
  | _ => None
  end.

(** The remainder of the log after "--- TEST REPORT ---", report_test.go:15-35. *)
Fixpoint remainder (l : list text) : list text :=
  match l with [] => [] | x :: l => if bool_decide (x = txt "--- TEST REPORT ---") then l else remainder l end.

(** ** Cases *)

Inductive Case :=
| CReport (app : list Handler) (opts : list TOpt) (a : AX) (e : EExp) (ok : bool) (lines : list string)
| CEnabled (app : list Handler) (names : list string) (a : AX) (e : EExp) (ok : bool) (lines : list string)
| CLogs (app : list Handler) (failed : bool) (a : AX) (e : EExp) (s : string)
| CPanics (e : EExp) (s : string)
| CActPanics (a : EAct) (s : string).

Definition matches_report (x : option (list text * bool * text)) (ok : bool) (lines : list string) : bool :=
  match x with
  | Some (l, failed, _) => bool_decide (remainder l = [] :: map txt lines ++ [[]]) && bool_decide (failed = negb ok)
  | None => false
  end.
Definition conforms (x : Case) : bool :=
  match x with
  | CReport app opts a e ok lines => matches_report (run_case app id opts a e) ok lines
  | CEnabled app names a e ok lines => matches_report (run_case app (fun p => UEnable names true (fun _ => p)) [] a e) ok lines
  | CLogs app failed a e s =>
    match run_case app id [] a e with
    | Some (l, f, _) => bool_decide (txt s ∈ l) && (negb failed || f)
    | None => false
    end
  | CPanics e s => match eval fmt e with inr (CSays s') => bool_decide (s' = txt s) | _ => false end
  | CActPanics a s => match eval_action fmt a with inr (CSays s') => bool_decide (s' = txt s) | _ => false end
  end.

(** ** fact/logger_test.go *)

(** The envelopes of lines 24-34; [log_now] is the time of line 19. *)
Definition log_now : Z := 1.
Definition log_command : Env := mkEnv "10" "10" "10" (mkMsg KCommand (body (Com "TypeA") (CStr "A1"))) 0 0 None.
Definition log_event : Env := mkEnv "10" "10" "10" (mkMsg KEvent (body (Eve "TypeA") (CStr "A1"))) 0 0 None.
Definition stub (k : Kind) : string := match k with KCommand => Com "TypeA" | KEvent => Eve "TypeA" | KTimeout => Tim "TypeA" end.
Definition log_new (e : Env) (k : Kind) : Env :=
  mkEnv "20" (e_id e) (e_corr e) (mkMsg k (body (stub k) (CStr "A1"))) 0 log_now None.
(** Texts of other packages; sort.Strings for the two names that occur. *)
Definition string_le (a b : string) : bool := match String.compare a b with Gt => false | _ => true end.
Fixpoint insert_name (x : string) (l : list string) : list string :=
  match l with [] => [x] | y :: l => if string_le x y then x :: y :: l else y :: insert_name x l end.
Definition logger_texts : LogTexts := {|
  lt_time := fun t => if bool_decide (t = log_now) then txt "2006-01-02T15:04:05+07:00" else txt "?";
  lt_type := fun t => (txt t.2 ++ match t.1 with KCommand => txt "?" | KEvent => txt "!" | KTimeout => txt "@" end)%list;
  lt_description := fun m => (match m_kind m with KCommand => txt "command" | KEvent => txt "event" | KTimeout => txt "timeout" end ++
    txt "(stubs.TypeA:" ++ match b_data (m_body m) with CStr s => txt s | _ => [] end ++ txt ", valid)")%list;
  lt_error := fun e => err_text e;
  lt_range := fun m => map fst (map_to_list m);
  lt_sort := foldr insert_name [] |}.
Definition logger_conforms (x : string * Fact) : bool :=
  bool_decide (log_notify logger_texts x.2 = match x.1 with "" => [] | s => [txt s] end).

(** ** internal/inflect/inflect_test.go:24-33 *)
Definition inflect_conforms (x : Kind * string * string) : bool :=
  bool_decide (inflect x.1.1 (txt x.1.2) = txt x.2) && bool_decide (inflect x.1.1 (upper (txt x.1.2)) = upper (txt x.2)).
