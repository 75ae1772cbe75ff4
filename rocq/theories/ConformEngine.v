(** * Conformance of the controllers' models with the repository's own tests

    Hand transcriptions of engine/internal/{aggregate,process,integration,
    projection}/{controller,scope}_test.go.  Every Example cites the test it
    transcribes and runs the model of the controller the way the test runs the
    controller.  They are tests of the model on literals, not proofs of
    properties.  Not transcribed: HandlerConfig(), the fields "Implementation"
    and "Location" of panic values, and IsPrimaryDelivery().

    Where a test demands that some fact is among those recorded, the Example
    gives all the facts, in order.  A fact in the model carries the contents of
    the root at the time of the notification; the tests look at the root object
    after the call has returned, so the root of AggregateInstanceCreated and
    AggregateInstanceDestructionReverted, recorded before the event is applied,
    shows the event in the tests and not here. *)
From stdpp Require Import sorting.
From Verif Require Import EngineModel.

#[local] Instance ConfP : Params := {| U := list string; Root := list string; D := string |}.

Definition cf_order (a b : Env) : Prop := (e_sched a <= e_sched b)%Z.
#[local] Instance cf_order_dec : RelDecision cf_order.
Proof. intros a b. unfold cf_order. apply _. Defined.
Definition cf_oracle : Oracle :=
  mkOracle (fun _ => None) (fun _ => None) (fun _ => 0%N) (fun _ => true) (merge_sort cf_order) 0.

(** CommandA1, EventA1, EventX1, … of dogmatiq/enginekit's stubs: type and Content. *)
Definition A (c : string) : Body := mkBody "TypeA" c None.
Definition X (c : string) : Body := mkBody "TypeX" c None.
Definition bad : Body := mkBody "TypeA" "" (Some "<invalid>").
Definition cmdA1 : Msg := mkMsg KCommand (A "A1").
Definition evA1 : Msg := mkMsg KEvent (A "A1").

#[local] Instance cf_data_dec : EqDecision (@D ConfP) := String.string_dec.
#[local] Instance cf_body_dec : EqDecision (@Body ConfP).
Proof. solve_decision. Defined.
#[local] Instance cf_msg_dec : EqDecision (@Msg ConfP).
Proof. solve_decision. Defined.
#[local] Instance cf_root_dec : EqDecision (@Root ConfP) := _ : EqDecision (list string).

(** messageIDs.Reset() *)
Definition cf_g : GState := mkG 0 [] 0.


Definition cf_re (v : option PVal) (k : AProg) : AProg :=
  match v with Some v => APanic v | None => k end.
Definition cf_rp (v : option PVal) (k : PProg) : PProg :=
  match v with Some v => PPanic v | None => k end.
Definition cf_ri (v : option PVal) (k : IProg) : IProg :=
  match v with Some v => IPanic v | None => k end.
(** A statement in a handler method of the test that is not met. *)
Definition cf_fail : PVal := PUser "unexpected call".

(** ** aggregate *)

(** AggregateMessageHandlerStub and AggregateRootStub with the functions of
    controller_test.go:36-55. *)
Definition cf_agg (prog : string -> Msg -> AProg) : AggImpl := {|
  ag_route m := inl ("<instance-" +:+ b_data (m_body m) +:+ ">");
  ag_new := Some [];
  ag_apply r m := (r ++ [b_data (m_body m)], None);
  ag_handle := prog |}.
Definition cf_ha (a : AggImpl) : Handler :=
  mkHandler "<name>" (ImplAgg a) [(KCommand, "TypeA")] [(KEvent, "TypeA")] false.
Definition cf_aid : HId := mkHId "<name>" HTAggregate.
Definition cf_cmd : Env := new_root "1000" cmdA1 50.
Definition cf_a (a : AggImpl) (g : GState) (hist : gmap string (list Env)) :=
  a_handle cf_oracle (cf_ha a) a 100 cf_cmd g hist.

(** A handler without HandleCommandFunc does nothing. *)
Definition cf_nothing : AggImpl := cf_agg (fun _ _ => ARet).
Definition cf_rec1 : AggImpl :=
  cf_agg (fun _ _ => ARecord (A "A1") (fun v => cf_re v ARet)).
(** The state after a first call has created the instance. *)
Definition cf_created := (cf_a cf_rec1 cf_g ∅).1.1.
Definition cf_ahist := cf_created.2.

(** aggregate/controller_test.go:72-93: Tick() returns nothing and records nothing. *)
Example conform_aggregate_tick :
  ctrl_tick (cf_ha cf_nothing) 100 cf_g (CSAgg ∅) = (cf_g, CSAgg ∅, [], HRet [] None).
Proof. reflexivity. Qed.

(** aggregate/controller_test.go:96-116: the message gets to the handler. *)
Example conform_aggregate_forwards :
  (cf_a (cf_agg (fun _ m => if decide (m = cmdA1) then AAct (cons "called") (fun _ => ARet)
                            else APanic cf_fail)) cf_g ∅).1.1.1
  = mkG 0 ["called"] 0.
Proof. vm_compute. reflexivity. Qed.

(** aggregate/controller_test.go:118-159: the recorded events are returned. *)
Definition cf_aorigin (id : string) : Origin := mkOrigin cf_aid HTAggregate id.
Example conform_aggregate_returns :
  (cf_a (cf_agg (fun _ _ => ARecord (A "A1") (fun v => cf_re v
                            (ARecord (A "A2") (fun v => cf_re v ARet))))) cf_g ∅).2
  = HRet [new_child cf_cmd "1" evA1 100 (cf_aorigin "<instance-A1>");
          new_child cf_cmd "2" (mkMsg KEvent (A "A2")) 100 (cf_aorigin "<instance-A1>")] None.
Proof. vm_compute. reflexivity. Qed.

(** aggregate/controller_test.go:161-192: an empty instance ID. *)
Definition cf_routes (r : string + PVal) : AggImpl :=
  mkAgg (fun _ => r) (Some []) (ag_apply cf_nothing) (fun _ _ => APanic cf_fail).
Example conform_aggregate_empty_id :
  (cf_a (cf_routes (inl "")) cf_g ∅).2
  = HPan (PUnexpBeh cf_aid "AggregateMessageHandler" "RouteCommandToInstance" cmdA1
            (BEmptyID (KCommand, "TypeA"))).
Proof. vm_compute. reflexivity. Qed.

(** aggregate/controller_test.go:195-212: the instance does not exist. *)
Example conform_aggregate_not_found :
  (cf_a cf_nothing cf_g ∅).1.2 = [AggregateInstanceNotFound cf_aid "<instance-A1>" cf_cmd].
Proof. vm_compute. reflexivity. Qed.

(** aggregate/controller_test.go:214-231: a new root is passed. *)
Definition cf_wants (r : Root) : AggImpl :=
  cf_agg (fun _ _ => AMutate id (fun r' => if decide (r' = r) then ARet else APanic cf_fail)).
Example conform_aggregate_new_root : (cf_a (cf_wants []) cf_g ∅).2 = HRet [] None.
Proof. vm_compute. reflexivity. Qed.

(** aggregate/controller_test.go:233-265: New() returns nil. *)
Example conform_aggregate_nil_root :
  (cf_a (mkAgg (ag_route cf_nothing) None (ag_apply cf_nothing) (fun _ _ => APanic cf_fail)) cf_g ∅).2
  = HPan (PUnexpBeh cf_aid "AggregateMessageHandler" "New" cmdA1 BNilRoot).
Proof. vm_compute. reflexivity. Qed.

(** aggregate/controller_test.go:289-311: the instance exists. *)
Example conform_aggregate_loaded :
  (cf_a cf_nothing cf_g cf_ahist).1.2
  = [AggregateInstanceLoaded cf_aid "<instance-A1>" ["A1"] cf_cmd].
Proof. vm_compute. reflexivity. Qed.

(** aggregate/controller_test.go:313-336: its events have been applied. *)
Example conform_aggregate_history : (cf_a (cf_wants ["A1"]) cf_g cf_ahist).2 = HRet [] None.
Proof. vm_compute. reflexivity. Qed.

(** aggregate/controller_test.go:339-362: RouteCommandToInstance() panics. *)
Example conform_aggregate_route_panics :
  (cf_a (cf_routes (inr PRaw)) cf_g ∅).2
  = HPan (PUnexpMsg cf_aid "AggregateMessageHandler" "RouteCommandToInstance" cmdA1).
Proof. vm_compute. reflexivity. Qed.

(** aggregate/controller_test.go:364-391: HandleCommand() panics. *)
Example conform_aggregate_handle_panics :
  (cf_a (cf_agg (fun _ _ => APanic PRaw)) cf_g ∅).2
  = HPan (PUnexpMsg cf_aid "AggregateMessageHandler" "HandleCommand" cmdA1).
Proof. vm_compute. reflexivity. Qed.

(** aggregate/controller_test.go:393-428, 430-473: ApplyEvent() panics, for a new event
    and for an event of the history. *)
Definition cf_no_apply (prog : AProg) : AggImpl :=
  mkAgg (ag_route cf_nothing) (Some []) (fun r _ => (r, Some PRaw)) (fun _ _ => prog).
Example conform_aggregate_apply_panics :
  (cf_a (cf_no_apply (ARecord (A "A1") (fun v => cf_re v ARet))) cf_g ∅).2
    = HPan (PUnexpMsg cf_aid "AggregateRoot" "ApplyEvent" evA1)
  /\ (cf_a (cf_no_apply ARet) cf_g cf_ahist).2
    = HPan (PUnexpMsg cf_aid "AggregateRoot" "ApplyEvent" evA1).
Proof. split; vm_compute; reflexivity. Qed.

(** aggregate/controller_test.go:476-512: Reset() removes the instances. *)
Example conform_aggregate_reset :
  cs_reset (CSAgg cf_ahist) = CSAgg ∅
  /\ (cf_a cf_nothing cf_g ∅).1.2 = [AggregateInstanceNotFound cf_aid "<instance-A1>" cf_cmd].
Proof. split; vm_compute; reflexivity. Qed.

(** The handler of aggregate/scope_test.go:32-50 always routes to one instance. *)
Definition cf_agg1 (prog : string -> Msg -> AProg) : AggImpl :=
  mkAgg (fun _ => inl "<instance>") (Some []) (ag_apply cf_nothing) prog.
Definition cf_rec : AggImpl := cf_agg1 (fun _ _ => ARecord (A "A1") (fun v => cf_re v ARet)).
(** aggregate/scope_test.go:147-170: another command created the instance. *)
Definition cf_hist : gmap string (list Env) :=
  (a_handle cf_oracle (cf_ha cf_rec) cf_rec 100
     (new_root "2000" (mkMsg KCommand (A "A2")) 50) cf_g ∅).1.1.2.
Definition cf_ev1 : Env := new_child cf_cmd "1" evA1 100 (cf_aorigin "<instance>").

(** aggregate/scope_test.go:64-86: Destroy() of an instance that does not exist. *)
Example conform_aggregate_destroy_nothing :
  (cf_a (cf_agg1 (fun _ _ => ADestroy ARet)) cf_g ∅).1.2
  = [AggregateInstanceNotFound cf_aid "<instance>" cf_cmd].
Proof. vm_compute. reflexivity. Qed.

(** aggregate/scope_test.go:89-143: the first event. *)
Example conform_aggregate_creates :
  (cf_a cf_rec cf_g ∅).1.2
  = [AggregateInstanceNotFound cf_aid "<instance>" cf_cmd;
     AggregateInstanceCreated cf_aid "<instance>" [] cf_cmd;
     EventRecordedByAggregate cf_aid "<instance>" ["A1"] cf_cmd cf_ev1].
Proof. vm_compute. reflexivity. Qed.

(** aggregate/scope_test.go:173-200: Destroy(). *)
Example conform_aggregate_destroys :
  (cf_a (cf_agg1 (fun _ _ => ADestroy ARet)) cf_g cf_hist).1.2
  = [AggregateInstanceLoaded cf_aid "<instance>" ["A1"] cf_cmd;
     AggregateInstanceDestroyed cf_aid "<instance>" [] cf_cmd].
Proof. vm_compute. reflexivity. Qed.

(** aggregate/scope_test.go:213-249, 251-264: an event of an instance that exists. *)
Example conform_aggregate_records :
  (cf_a cf_rec cf_g cf_hist).1.2
  = [AggregateInstanceLoaded cf_aid "<instance>" ["A1"] cf_cmd;
     EventRecordedByAggregate cf_aid "<instance>" ["A1"; "A1"] cf_cmd cf_ev1].
Proof. vm_compute. reflexivity. Qed.

(** aggregate/scope_test.go:266-320: RecordEvent() after Destroy(). *)
Example conform_aggregate_reverts :
  (cf_a (cf_agg1 (fun _ _ => ADestroy (ARecord (A "A1") (fun v => cf_re v ARet)))) cf_g cf_hist).1.2
  = [AggregateInstanceLoaded cf_aid "<instance>" ["A1"] cf_cmd;
     AggregateInstanceDestroyed cf_aid "<instance>" [] cf_cmd;
     AggregateInstanceDestructionReverted cf_aid "<instance>" [] cf_cmd;
     EventRecordedByAggregate cf_aid "<instance>" ["A1"] cf_cmd cf_ev1].
Proof. vm_compute. reflexivity. Qed.

(** aggregate/scope_test.go:322-357, 359-396: events that may not be recorded. *)
Example conform_aggregate_bad_events :
  (cf_a (cf_agg1 (fun _ _ => ARecord (X "X1") (fun v => cf_re v ARet))) cf_g cf_hist).2
    = HPan (PUnexpBeh cf_aid "AggregateMessageHandler" "HandleCommand" cmdA1
              (BUndeclared (KEvent, "TypeX")))
  /\ (cf_a (cf_agg1 (fun _ _ => ARecord bad (fun v => cf_re v ARet))) cf_g cf_hist).2
    = HPan (PUnexpBeh cf_aid "AggregateMessageHandler" "HandleCommand" cmdA1
              (BInvalid (KEvent, "TypeA") "<invalid>")).
Proof. split; vm_compute; reflexivity. Qed.

(** aggregate/scope_test.go:401-421: InstanceID(). *)
Example conform_aggregate_instance_id :
  (cf_a (cf_agg1 (fun id _ => if decide (id = "<instance>") then AAct (cons "called") (fun _ => ARet)
                              else APanic cf_fail)) cf_g ∅).1.1.1
  = mkG 0 ["called"] 0.
Proof. vm_compute. reflexivity. Qed.

(** aggregate/scope_test.go:435-459: Log(). *)
Example conform_aggregate_log :
  (cf_a (cf_agg1 (fun _ _ => ALog "<format>" ARet)) cf_g ∅).1.2
  = [AggregateInstanceNotFound cf_aid "<instance>" cf_cmd;
     MessageLoggedByAggregate cf_aid "<instance>" [] cf_cmd "<format>"].
Proof. vm_compute. reflexivity. Qed.

(** ** process *)

(** process/controller_test.go:51-77. *)
Definition cf_proc (ev to : string -> Z -> Msg -> PProg) : ProcImpl := {|
  pr_route m u := (u, inl ("<instance-" +:+ b_data (m_body m) +:+ ">", true, None));
  pr_new := Some [];
  pr_event := ev;
  pr_timeout := to |}.
Definition cf_hp (p : ProcImpl) : Handler :=
  mkHandler "<name>" (ImplProc p) [(KEvent, "TypeA"); (KTimeout, "TypeA")]
            [(KCommand, "TypeA"); (KTimeout, "TypeA")] false.
Definition cf_pid : HId := mkHId "<name>" HTProcess.
Definition cf_porigin (id : string) : Origin := mkOrigin cf_pid HTProcess id.
Definition cf_event : Env := new_root "1000" evA1 50.
Definition toA (c : string) : Msg := mkMsg KTimeout (A c).
Definition cf_timeout : Env := new_timeout cf_event "2000" (toA "A1") 50 60 (cf_porigin "<instance-A1>").
Definition cf_p (p : ProcImpl) (env : Env) (g : GState) (ps : PState) :=
  p_handle cf_oracle (cf_hp p) p 100 env g ps.
Definition cf_p0 : PState := mkPState ∅ [].
Definition cf_pret : string -> Z -> Msg -> PProg := fun _ _ _ => PRet None.
Definition cf_pfail : string -> Z -> Msg -> PProg := fun _ _ _ => PPanic cf_fail.
Definition cf_pnothing : ProcImpl := cf_proc cf_pret cf_pret.
(** The state after the event has created the instance. *)
Definition cf_begun : PState := (cf_p cf_pnothing cf_event cf_g cf_p0).1.1.2.

(** process/controller_test.go:99-128: three timeouts, not in order. *)
Definition cf_three : ProcImpl := cf_proc (fun _ _ _ =>
  PSchedule (A "A3") 400 (fun v => cf_rp v (
  PSchedule (A "A2") 300 (fun v => cf_rp v (
  PSchedule (A "A1") 200 (fun v => cf_rp v (PRet None))))))) cf_pfail.
Definition cf_scheduled : PState := (cf_p cf_three cf_event cf_g cf_p0).1.1.2.
Definition cf_t1 (e : Env) (id : string) := new_timeout e "3" (toA "A1") 100 200 (cf_porigin id).
Definition cf_t2 (e : Env) (id : string) := new_timeout e "2" (toA "A2") 100 300 (cf_porigin id).

(** process/controller_test.go:131-163: the timeouts that are ready. *)
Example conform_process_tick :
  (p_tick 300 cf_scheduled).2 = [cf_t1 cf_event "<instance-A1>"; cf_t2 cf_event "<instance-A1>"].
Proof. vm_compute. reflexivity. Qed.

(** process/controller_test.go:165-183: only once. *)
Example conform_process_tick_once :
  length (p_tick 300 cf_scheduled).2 = 2 /\ (p_tick 300 (p_tick 300 cf_scheduled).1).2 = [].
Proof. split; vm_compute; reflexivity. Qed.

(** process/controller_test.go:185-251: not of instances that have ended. *)
Definition cf_event2 : Env := new_root "3000" (mkMsg KEvent (A "A2")) 50.
Definition cf_ender : ProcImpl := cf_proc (fun _ _ _ => PEnd (PRet None)) cf_pfail.
Example conform_process_tick_ended :
  let ps := (cf_p cf_three cf_event2 cf_g cf_scheduled).1.1.2 in
  let ps := (cf_p cf_ender cf_event cf_g ps).1.1.2 in
  (p_tick 300 ps).2 = [cf_t1 cf_event2 "<instance-A2>"; cf_t2 cf_event2 "<instance-A2>"].
Proof. vm_compute. reflexivity. Qed.

(** process/controller_test.go:256-278, 280-300: the event gets to the handler, and its
    error to the caller. *)
Example conform_process_forwards :
  (cf_p (cf_proc (fun _ _ m => if decide (m = evA1) then PAct (cons "called") (fun _ => PRet None)
                               else PPanic cf_fail) cf_pfail) cf_event cf_g cf_p0).1.1.1
    = mkG 0 ["called"] 0
  /\ (cf_p (cf_proc (fun _ _ _ => PRet (Some (EUser "<error>"))) cf_pfail) cf_event cf_g cf_p0).2
    = HRet [] (Some (EUser "<error>")).
Proof. split; vm_compute; reflexivity. Qed.

(** process/controller_test.go:302-347, 503-548: commands and timeouts that are ready. *)
Definition cf_both : string -> Z -> Msg -> PProg := fun _ _ _ =>
  PExecute (A "A1") (fun v => cf_rp v (PSchedule (A "A1") 100 (fun v => cf_rp v (PRet None)))).
Example conform_process_both :
  (cf_p (cf_proc cf_both cf_pfail) cf_event cf_g cf_p0).2
    = HRet [new_child cf_event "1" cmdA1 100 (cf_porigin "<instance-A1>");
            new_timeout cf_event "2" (toA "A1") 100 100 (cf_porigin "<instance-A1>")] None
  /\ (cf_p (cf_proc cf_pfail cf_both) cf_timeout cf_g cf_begun).2
    = HRet [new_child cf_timeout "1" cmdA1 100 (cf_porigin "<instance-A1>");
            new_timeout cf_timeout "2" (toA "A1") 100 100 (cf_porigin "<instance-A1>")] None.
Proof. split; vm_compute; reflexivity. Qed.

(** process/controller_test.go:349-371, 373-395, 550-572: timeouts in the past are
    returned, those in the future are not. *)
Definition cf_sched_at (t : Z) : string -> Z -> Msg -> PProg := fun _ _ _ =>
  PSchedule (A "A1") t (fun v => cf_rp v (PRet None)).
Definition cf_len (r : HRes) : option nat :=
  match r with HRet l None => Some (length l) | _ => None end.
Example conform_process_past_future :
  cf_len (cf_p (cf_proc (cf_sched_at 99) cf_pfail) cf_event cf_g cf_p0).2 = Some 1
  /\ cf_len (cf_p (cf_proc (cf_sched_at 101) cf_pfail) cf_event cf_g cf_p0).2 = Some 0
  /\ cf_len (cf_p (cf_proc cf_pfail (cf_sched_at 99)) cf_timeout cf_g cf_begun).2 = Some 1
  /\ cf_len (cf_p (cf_proc cf_pfail (cf_sched_at 101)) cf_timeout cf_g cf_begun).2 = Some 0.
Proof. repeat split; vm_compute; reflexivity. Qed.

(** process/controller_test.go:397-446: an event that is routed to no instance. *)
Definition cf_proute (r : (string * bool * option Err) + PVal) : ProcImpl :=
  mkProc (fun _ u => (u, r)) (Some []) cf_pfail cf_pfail.
Example conform_process_ignored :
  let '(_, _, fs, r) := cf_p (cf_proute (inl ("", false, None))) cf_event cf_g cf_p0 in
  fs = [ProcessEventIgnored cf_pid cf_event] /\ r = HRet [] None.
Proof. vm_compute. split; reflexivity. Qed.

(** process/controller_test.go:470-479, 481-501: a timeout, and the handler's error. *)
Example conform_process_timeout :
  (cf_p (cf_proc cf_pfail cf_pret) cf_timeout cf_g cf_begun).2 = HRet [] None
  /\ (cf_p (cf_proc cf_pfail (fun _ _ _ => PRet (Some (EUser "<error>")))) cf_timeout cf_g cf_begun).2
    = HRet [] (Some (EUser "<error>")).
Proof. split; vm_compute; reflexivity. Qed.

(** process/controller_test.go:598-660: a timeout of an instance that has ended. *)
Example conform_process_timeout_ignored :
  let ps := (cf_p cf_ender cf_event cf_g cf_begun).1.1.2 in
  let '(_, _, fs, r) := cf_p (cf_proc cf_pfail cf_pfail) cf_timeout cf_g ps in
  fs = [ProcessTimeoutIgnored cf_pid "<instance-A1>" cf_timeout] /\ r = HRet [] None.
Proof. vm_compute. split; reflexivity. Qed.

(** process/controller_test.go:663-683, 685-719, 841-867: errors of routing. *)
Example conform_process_route :
  (cf_p (cf_proute (inl ("<instance>", true, Some (EUser "<error>")))) cf_event cf_g cf_p0).2
    = HRet [] (Some (EUser "<error>"))
  /\ (cf_p (cf_proute (inl ("", true, None))) cf_event cf_g cf_p0).2
    = HPan (PUnexpBeh cf_pid "ProcessMessageHandler" "RouteEventToInstance" evA1
              (BEmptyID (KEvent, "TypeA")))
  /\ (cf_p (cf_proute (inr PRaw)) cf_event cf_g cf_p0).2
    = HPan (PUnexpMsg cf_pid "ProcessMessageHandler" "RouteEventToInstance" evA1).
Proof. repeat split; vm_compute; reflexivity. Qed.

(** process/controller_test.go:722-747: the instance does not exist. *)
Example conform_process_begins :
  (cf_p cf_pnothing cf_event cf_g cf_p0).1.2
  = [ProcessInstanceNotFound cf_pid "<instance-A1>" cf_event;
     ProcessInstanceBegun cf_pid "<instance-A1>" (Some []) cf_event].
Proof. vm_compute. reflexivity. Qed.

(** process/controller_test.go:749-781, 806-824, 826-838: New() returns nil; an instance
    that exists is loaded without New(). *)
Definition cf_pnil : ProcImpl := mkProc (pr_route cf_pnothing) None cf_pret cf_pret.
Example conform_process_new :
  (cf_p cf_pnil cf_event cf_g cf_p0).2
    = HPan (PUnexpBeh cf_pid "ProcessMessageHandler" "New" evA1 BNilRoot)
  /\ (cf_p cf_pnil cf_event cf_g cf_begun).1.2
    = [ProcessInstanceLoaded cf_pid "<instance-A1>" [] cf_event].
Proof. split; vm_compute; reflexivity. Qed.

(** process/controller_test.go:869-897, 899-943: unexpected messages. *)
Example conform_process_panics :
  (cf_p (cf_proc (fun _ _ _ => PPanic PRaw) cf_pfail) cf_event cf_g cf_p0).2
    = HPan (PUnexpMsg cf_pid "ProcessMessageHandler" "HandleEvent" evA1)
  /\ (cf_p (cf_proc cf_pfail (fun _ _ _ => PPanic PRaw)) cf_timeout cf_g cf_begun).2
    = HPan (PUnexpMsg cf_pid "ProcessMessageHandler" "HandleTimeout" (toA "A1")).
Proof. split; vm_compute; reflexivity. Qed.

(** process/controller_test.go:946-985: Reset(). *)
Example conform_process_reset : cs_reset (CSProc cf_scheduled) = CSProc cf_p0.
Proof. vm_compute. reflexivity. Qed.

(** process/scope_test.go:67-90, 464-502: InstanceID() and ScheduledFor(). *)
Example conform_process_scope_values :
  (cf_p (cf_proc (fun id _ _ => if decide (id = "<instance-A1>") then PRet None else PPanic cf_fail)
                 cf_pfail) cf_event cf_g cf_p0).2 = HRet [] None
  /\ (cf_p (cf_proc cf_pfail
              (fun _ t _ => if decide (t = 60%Z) then PRet None else PPanic cf_fail))
           cf_timeout cf_g cf_begun).2 = HRet [] None.
Proof. split; vm_compute; reflexivity. Qed.

(** The facts after those of a new instance. *)
Definition cf_pfacts (p : PProg) : list Fact :=
  drop 2 (cf_p (cf_proc (fun _ _ _ => p) cf_pfail) cf_event cf_g cf_p0).1.2.
Definition cf_i := "<instance-A1>".

(** process/scope_test.go:93-121, 123-146: End(), once and twice. *)
Example conform_process_end :
  cf_pfacts (PEnd (PRet None)) = [ProcessInstanceEnded cf_pid cf_i [] cf_event]
  /\ cf_pfacts (PEnd (PEnd (PRet None))) = [ProcessInstanceEnded cf_pid cf_i [] cf_event].
Proof. split; vm_compute; reflexivity. Qed.

(** process/scope_test.go:150-189, 271-300: ExecuteCommand(), also after End(). *)
Definition cf_c1 : Env := new_child cf_event "1" cmdA1 100 (cf_porigin cf_i).
Example conform_process_execute :
  cf_pfacts (PExecute (A "A1") (fun v => cf_rp v (PRet None)))
    = [CommandExecutedByProcess cf_pid cf_i [] cf_event cf_c1]
  /\ cf_pfacts (PEnd (PExecute (A "A1") (fun v => cf_rp v (PRet None))))
    = [ProcessInstanceEnded cf_pid cf_i [] cf_event;
       ProcessInstanceEndingReverted cf_pid cf_i [] cf_event;
       CommandExecutedByProcess cf_pid cf_i [] cf_event cf_c1].
Proof. split; vm_compute; reflexivity. Qed.

(** process/scope_test.go:304-346, 431-460: ScheduleTimeout(), also after End(). *)
Definition cf_x1 : Env := new_timeout cf_event "1" (toA "A1") 100 110 (cf_porigin cf_i).
Example conform_process_schedule :
  cf_pfacts (PSchedule (A "A1") 110 (fun v => cf_rp v (PRet None)))
    = [TimeoutScheduledByProcess cf_pid cf_i [] cf_event cf_x1]
  /\ cf_pfacts (PEnd (PSchedule (A "A1") 110 (fun v => cf_rp v (PRet None))))
    = [ProcessInstanceEnded cf_pid cf_i [] cf_event;
       ProcessInstanceEndingReverted cf_pid cf_i [] cf_event;
       TimeoutScheduledByProcess cf_pid cf_i [] cf_event cf_x1].
Proof. split; vm_compute; reflexivity. Qed.

(** process/scope_test.go:191-228, 230-269, 348-385, 387-429: messages that may not be
    produced. *)
Definition cf_pres (p : PProg) : HRes :=
  (cf_p (cf_proc (fun _ _ _ => p) cf_pfail) cf_event cf_g cf_p0).2.
Definition cf_pbeh (d : BDesc) : HRes :=
  HPan (PUnexpBeh cf_pid "ProcessMessageHandler" "HandleEvent" evA1 d).
Example conform_process_bad_messages :
  cf_pres (PExecute (X "X1") (fun v => cf_rp v (PRet None))) = cf_pbeh (BUndeclared (KCommand, "TypeX"))
  /\ cf_pres (PExecute bad (fun v => cf_rp v (PRet None)))
     = cf_pbeh (BInvalid (KCommand, "TypeA") "<invalid>")
  /\ cf_pres (PSchedule (X "X1") 100 (fun v => cf_rp v (PRet None)))
     = cf_pbeh (BUndeclared (KTimeout, "TypeX"))
  /\ cf_pres (PSchedule bad 100 (fun v => cf_rp v (PRet None)))
     = cf_pbeh (BInvalid (KTimeout, "TypeA") "<invalid>").
Proof. repeat split; vm_compute; reflexivity. Qed.

(** process/scope_test.go:518-542: Log(). *)
Example conform_process_log :
  cf_pfacts (PLog "<format>" (PRet None)) = [MessageLoggedByProcess cf_pid cf_i [] cf_event "<format>"].
Proof. vm_compute. reflexivity. Qed.

(** ** integration *)

Definition cf_hi (i : IntImpl) : Handler :=
  mkHandler "<name>" (ImplInt i) [(KCommand, "TypeA")] [(KEvent, "TypeA")] false.
Definition cf_iid : HId := mkHId "<name>" HTIntegration.
Definition cf_iorigin : Origin := mkOrigin cf_iid HTIntegration "".
Definition cf_int (p : Msg -> IProg) := i_handle cf_oracle (cf_hi (mkInt p)) (mkInt p) 100 cf_cmd cf_g.
Definition cf_ie1 : Env := new_child cf_cmd "1" evA1 100 cf_iorigin.

(** integration/controller_test.go:61-82: Tick(). *)
Example conform_integration_tick :
  ctrl_tick (cf_hi (mkInt (fun _ => IRet None))) 100 cf_g CSInt = (cf_g, CSInt, [], HRet [] None).
Proof. reflexivity. Qed.

(** integration/controller_test.go:85-106, 108-148, 150-169, 171-198: Handle(). *)
Example conform_integration_handle :
  (cf_int (fun m => if decide (m = cmdA1) then IAct (cons "called") (fun _ => IRet None)
                    else IPanic cf_fail)).1.1 = mkG 0 ["called"] 0
  /\ (cf_int (fun _ => IRecord (A "A1") (fun v => cf_ri v
                       (IRecord (A "A2") (fun v => cf_ri v (IRet None)))))).2
     = HRet [cf_ie1; new_child cf_cmd "2" (mkMsg KEvent (A "A2")) 100 cf_iorigin] None
  /\ (cf_int (fun _ => IRet (Some (EUser "<error>")))).2 = HRet [] (Some (EUser "<error>"))
  /\ (cf_int (fun _ => IPanic PRaw)).2
     = HPan (PUnexpMsg cf_iid "IntegrationMessageHandler" "HandleCommand" cmdA1).
Proof. repeat split; vm_compute; reflexivity. Qed.

(** integration/controller_test.go:201-205: Reset(). *)
Example conform_integration_reset : cs_reset (P := ConfP) CSInt = CSInt.
Proof. reflexivity. Qed.

(** integration/scope_test.go:66-92, 94-130, 132-170, 185-206: RecordEvent() and Log(). *)
Definition cf_ibeh (d : BDesc) : HRes :=
  HPan (PUnexpBeh cf_iid "IntegrationMessageHandler" "HandleCommand" cmdA1 d).
Example conform_integration_scope :
  (cf_int (fun _ => IRecord (A "A1") (fun v => cf_ri v (IRet None)))).1.2
     = [EventRecordedByIntegration cf_iid cf_cmd cf_ie1]
  /\ (cf_int (fun _ => IRecord (X "X1") (fun v => cf_ri v (IRet None)))).2
     = cf_ibeh (BUndeclared (KEvent, "TypeX"))
  /\ (cf_int (fun _ => IRecord bad (fun v => cf_ri v (IRet None)))).2
     = cf_ibeh (BInvalid (KEvent, "TypeA") "<invalid>")
  /\ (cf_int (fun _ => ILog "<format>" (IRet None))).1.2
     = [MessageLoggedByIntegration cf_iid cf_cmd "<format>"].
Proof. repeat split; vm_compute; reflexivity. Qed.

(** ** projection *)

Definition cf_hj (j : ProjImpl) : Handler :=
  mkHandler "<name>" (ImplProj j) [(KEvent, "TypeA")] [] false.
Definition cf_jid : HId := mkHId "<name>" HTProjection.
(** ProjectionMessageHandlerStub: the methods succeed unless a test says otherwise. *)
Definition cf_proj (v : (string * option Err) + PVal)
    (ev : string -> string -> string -> Z -> Msg -> JProg (bool * option Err))
    (cl : string -> option Err + PVal) (co : Z -> JProg (option Err)) : ProjImpl := {|
  pj_version _ u := (u, v);
  pj_handle := ev;
  pj_close r u := (u ++ ["closed " +:+ r], cl r);
  pj_compact := co |}.
Definition cf_v : (string * option Err) + PVal := inl ("", None).
Definition cf_jok : string -> string -> string -> Z -> Msg -> JProg (bool * option Err) :=
  fun _ _ _ _ _ => JRet (true, None).
Definition cf_jfail : string -> string -> string -> Z -> Msg -> JProg (bool * option Err) :=
  fun _ _ _ _ _ => JPanic cf_fail.
Definition cf_cl : string -> option Err + PVal := fun _ => inl None.
Definition cf_co : Z -> JProg (option Err) := fun _ => JRet None.
Definition cf_err : Err := EUser "<error>".
Definition cf_coerr : Z -> JProg (option Err) := fun _ => JRet (Some cf_err).
Definition cf_now : Z := (2 * compact_interval)%Z.
Definition cf_j (during : bool) (j : ProjImpl) :=
  j_handle cf_oracle during (cf_hj j) j cf_now cf_event cf_g.
Definition cf_jtick (j : ProjImpl) (now last : Z) := j_tick_ctrl (cf_hj j) j now cf_g last.

(** projection/controller_test.go:57-65, 67-95, 97-126: Tick(). *)
Example conform_projection_tick :
  (cf_jtick (cf_proj cf_v cf_jok cf_cl cf_co) cf_now 0).2 = HRet [] None
  /\ (let '(_, _, fs, r) := cf_jtick (cf_proj cf_v cf_jok cf_cl cf_coerr) cf_now 0 in
      fs = [ProjectionCompactionBegun cf_jid; ProjectionCompactionCompleted cf_jid (Some cf_err)]
      /\ r = HRet [] (Some cf_err)).
Proof. split; vm_compute; [|split]; reflexivity. Qed.
Example conform_projection_interval :
  let j := cf_proj cf_v cf_jok cf_cl cf_coerr in
  let '(_, last, _, r) := cf_jtick j cf_now 0 in
  r = HRet [] (Some cf_err)
  /\ let '(_, last, _, r) := cf_jtick j (cf_now + (compact_interval - 1)) last in
     r = HRet [] None
     /\ (cf_jtick j (cf_now + compact_interval) last).2 = HRet [] (Some cf_err).
Proof. vm_compute. repeat split. Qed.

(** projection/controller_test.go:130-152, 154-174, 176-194: the event gets to the
    handler; errors of the handler and of ResourceVersion(). *)
Example conform_projection_handle :
  (cf_j false (cf_proj cf_v (fun _ _ _ _ m => if decide (m = evA1)
                  then JAct (cons "called") (fun _ => JRet (false, None)) else JPanic cf_fail)
               cf_cl cf_co)).1.1 = mkG 0 ["called"] 0
  /\ (cf_j false (cf_proj cf_v (fun _ _ _ _ _ => JRet (false, Some cf_err)) cf_cl cf_co)).2
     = HRet [] (Some cf_err)
  /\ (cf_j false (cf_proj (inl ("", Some cf_err)) cf_jfail cf_cl cf_co)).2 = HRet [] (Some cf_err).
Proof. repeat split; vm_compute; reflexivity. Qed.

(** projection/controller_test.go:196-217, 219-245: the resource, its current and next
    version; events that have been applied. *)
Example conform_projection_occ :
  (cf_j false (cf_proj cf_v (fun r c n _ _ =>
       if decide (r = "1000" /\ c = "" /\ n <> "") then JRet (false, None) else JPanic cf_fail)
     cf_cl cf_co)).2 = HRet [] None
  /\ (cf_j false (cf_proj (inl ("<not empty>", None)) cf_jfail cf_cl cf_co)).2 = HRet [] None.
Proof. split; vm_compute; reflexivity. Qed.

(** projection/controller_test.go:247-267, 269-295: CloseResource() is called if, and
    only if, the event has been applied. *)
Example conform_projection_close :
  (cf_j false (cf_proj cf_v cf_jok cf_cl cf_co)).1.1 = mkG 0 ["closed 1000"] 0
  /\ (cf_j false (cf_proj cf_v (fun _ _ _ _ _ => JRet (false, None)) (fun _ => inr cf_fail) cf_co)).2
     = HRet [] None.
Proof. split; vm_compute; reflexivity. Qed.

(** projection/controller_test.go:297-325: HandleEvent() panics. *)
Example conform_projection_panics :
  (cf_j false (cf_proj cf_v (fun _ _ _ _ _ => JPanic PRaw) cf_cl cf_co)).2
  = HPan (PUnexpMsg cf_jid "ProjectionMessageHandler" "HandleEvent" evA1).
Proof. vm_compute. reflexivity. Qed.

(** projection/controller_test.go:327-352, 354-389: compaction during handling, disabled
    and enabled. *)
Example conform_projection_during :
  (let '(_, fs, r) := cf_j false (cf_proj cf_v cf_jok cf_cl cf_coerr) in
   fs = [] /\ r = HRet [] None)
  /\ (let '(_, fs, r) := cf_j true (cf_proj cf_v cf_jok cf_cl cf_coerr) in
      fs = [ProjectionCompactionBegun cf_jid; ProjectionCompactionCompleted cf_jid (Some cf_err)]
      /\ r = HRet [] (Some cf_err)).
Proof. vm_compute. repeat split. Qed.

(** projection/controller_test.go:392-396: Reset(). *)
Example conform_projection_reset : cs_reset (P := ConfP) (CSProj 7) = CSProj 7.
Proof. reflexivity. Qed.

(** projection/scope_test.go:49-70, 107-128, 132-151: RecordedAt(), Log(), Now(). *)
Example conform_projection_scope :
  (cf_j false (cf_proj cf_v (fun _ _ _ t _ => if decide (t = 50%Z) then JRet (true, None)
                                              else JPanic cf_fail) cf_cl cf_co)).2 = HRet [] None
  /\ (cf_j false (cf_proj cf_v (fun _ _ _ _ _ => JLog "<format>" (JRet (true, None))) cf_cl cf_co)).1.2
     = [MessageLoggedByProjection cf_jid (Some cf_event) "<format>"]
  /\ (cf_jtick (cf_proj cf_v cf_jok cf_cl (fun t => if decide (t = cf_now) then JRet None
                                                    else JPanic cf_fail)) cf_now 0).2 = HRet [] None.
Proof. repeat split; vm_compute; reflexivity. Qed.

(** ** engine *)

(** The application of engine/engine_test.go:52-134; the aggregate, the integration and
    the projection do what the test says. *)
Definition cf_agge (p : AProg) : AggImpl := cf_agg1 (fun _ _ => p).
Definition cf_he_agg (p : AProg) : Handler :=
  mkHandler "<aggregate>" (ImplAgg (cf_agge p)) [(KCommand, "TypeA")] [(KEvent, "TypeA")] false.
Definition cf_he_proc : Handler :=
  mkHandler "<process>" (ImplProc cf_pnothing) [(KEvent, "TypeC"); (KEvent, "TypeA")]
            [(KCommand, "TypeB")] false.
Definition cf_he_int (p : IProg) : Handler :=
  mkHandler "<integration>" (ImplInt (mkInt (fun _ => p))) [(KCommand, "TypeB")] [(KEvent, "TypeB")] false.
Definition cf_he_proj (j : ProjImpl) : Handler :=
  mkHandler "<projection>" (ImplProj j) [(KEvent, "TypeD"); (KEvent, "TypeA")] [] false.
Definition cf_he_off : Handler :=
  mkHandler "<disabled-projection>" (ImplProj (cf_proj cf_v cf_jok cf_cl cf_co))
            [(KEvent, "TypeD")] [] true.
Definition cf_jnothing : ProjImpl := cf_proj cf_v cf_jok cf_cl cf_co.
Definition cf_app (a : AProg) (i : IProg) (j : ProjImpl) : Config :=
  mkConfig [cf_he_agg a; cf_he_proc; cf_he_int i; cf_he_proj j; cf_he_off] false [].
Definition cf_dispatch (c : Config) (o : Oracle) (m : Msg) (opts : list OOpt) :=
  e_dispatch c o 10 m opts (e_init c []).
Definition cf_tick (c : Config) (o : Oracle) (opts : list OOpt) :=
  e_tick c o 10 (c_app c) (OptNow cf_now :: opts) (e_init c []).
Definition cf_body (t : string) : Body := mkBody t "" None.
Definition cf_call (a : AProg) : AProg := AAct (cons "called") (fun _ => a).
Definition cf_user (r : EState * list Fact * Out Errs) : list string * Out Errs :=
  (g_user (es_g r.1.1), r.2).

(** engine/engine_test.go:137-153, 155-175: commands and events can be dispatched. *)
Example conform_engine_dispatch :
  cf_user (cf_dispatch (cf_app (cf_call ARet) (IRet None) cf_jnothing) cf_oracle
             (mkMsg KCommand (cf_body "TypeA")) []) = (["called"], Ok [])
  /\ cf_user (cf_dispatch (cf_app ARet (IRet None)
                (cf_proj cf_v (fun _ _ _ _ _ => JAct (cons "called") (fun _ => JRet (false, None)))
                         cf_cl cf_co)) cf_oracle
             (mkMsg KEvent (cf_body "TypeD")) []) = (["called"], Ok []).
Proof. split; vm_compute; reflexivity. Qed.

(** engine/engine_test.go:177-211, 213-247: handlers that are disabled, by type and by
    name, are skipped. *)
Definition cf_skip (c : Config) (opt : OOpt) : option Fact :=
  (cf_dispatch c cf_oracle (mkMsg KCommand (cf_body "TypeA")) [OptNow 77; OptObserver 0; opt]).1.2 !! 2.
Definition cf_denv : Env := mkEnv "1" "1" "1" (mkMsg KCommand (cf_body "TypeA")) 77 0 None.
Example conform_engine_skips :
  cf_skip (cf_app (APanic cf_fail) (IRet None) cf_jnothing) (OptType HTAggregate false)
    = Some (HandlingSkipped (mkHId "<aggregate>" HTAggregate) cf_denv SRType)
  /\ cf_skip (cf_app (APanic cf_fail) (IRet None) cf_jnothing) (OptHandler "<aggregate>" false)
    = Some (HandlingSkipped (mkHId "<aggregate>" HTAggregate) cf_denv SRIndividual).
Proof. split; vm_compute; reflexivity. Qed.

(** engine/engine_test.go:249-267: the last EnableHandler() counts. *)
Example conform_engine_enabled :
  cf_user (cf_dispatch (cf_app (cf_call ARet) (IRet None) cf_jnothing) cf_oracle
             (mkMsg KCommand (cf_body "TypeA"))
             [OptHandler "<aggregate>" false; OptHandler "<aggregate>" true]) = (["called"], Ok []).
Proof. vm_compute. reflexivity. Qed.

(** engine/engine_test.go:269-283, 285-296: errors of the context come first; others are
    given the handler's name and type.  The handler of the test cancels the context; here
    the context is cancelled when it is asked for the first time. *)
Definition cf_cancelled : Oracle :=
  mkOracle (fun _ => Some "context canceled") (fun _ => None) (fun _ => 0%N) (fun _ => true)
           (merge_sort cf_order) 0.
Example conform_engine_errors :
  let c := cf_app ARet (IRet (Some cf_err)) cf_jnothing in
  (cf_dispatch c cf_cancelled (mkMsg KCommand (cf_body "TypeB")) []).2 = Ok [ECtx "context canceled"]
  /\ (cf_dispatch c cf_oracle (mkMsg KCommand (cf_body "TypeB")) []).2
     = Ok [EWrap (mkHId "<integration>" HTIntegration) cf_err].
Proof. split; vm_compute; reflexivity. Qed.

(** engine/engine_test.go:298-307, 309-313 and engine/executor_test.go:69-73: messages that
    cannot be dispatched. *)
Example conform_engine_panics :
  let c := cf_app ARet (IRet None) cf_jnothing in
  (cf_dispatch c cf_oracle (mkMsg KCommand bad) []).2
     = Pan (PEngine "cannot dispatch invalid message" (Some (mkMsg KCommand bad)))
  /\ (cf_dispatch c cf_oracle (mkMsg KCommand (X "X1")) []).2
     = Pan (PEngine "not consumed by any handlers" (Some (mkMsg KCommand (X "X1")))).
Proof. split; vm_compute; reflexivity. Qed.

(** engine/engine_test.go:316-421: which handlers Tick() skips, and why. *)
Definition cf_ticks (opts : list OOpt) : list (string * option SkipReason) :=
  omap (fun f => match f with
                 | TickSkipped h r => Some (hid_name h, Some r)
                 | TickBegun h => Some (hid_name h, None)
                 | _ => None
                 end) (cf_tick (cf_app ARet (IRet None) cf_jnothing) cf_oracle opts).1.2.
Definition cf_expect (a d : option SkipReason) : list (string * option SkipReason) :=
  [("<aggregate>", a); ("<process>", None); ("<integration>", None); ("<projection>", None);
   ("<disabled-projection>", d)].
Example conform_engine_tick_skips :
  cf_ticks [OptType HTAggregate false] = cf_expect (Some SRType) (Some SRConfiguration)
  /\ cf_ticks [OptHandler "<aggregate>" false] = cf_expect (Some SRIndividual) (Some SRConfiguration)
  /\ cf_ticks [OptHandler "<aggregate>" false; OptHandler "<aggregate>" true]
     = cf_expect None (Some SRConfiguration)
  /\ cf_ticks [] = cf_expect None (Some SRConfiguration)
  /\ cf_ticks [OptType HTProjection true] = cf_expect None (Some SRConfiguration)
  /\ cf_ticks [OptHandler "<disabled-projection>" true] = cf_expect None None.
Proof. repeat split; vm_compute; reflexivity. Qed.

(** engine/engine_test.go:423-436, 438-448: errors of Tick(). *)
Example conform_engine_tick_errors :
  let c := cf_app ARet (IRet None) (cf_proj cf_v cf_jok cf_cl cf_coerr) in
  (cf_tick c cf_cancelled []).2 = Ok [ECtx "context canceled"]
  /\ (cf_tick c cf_oracle []).2 = Ok [EWrap (mkHId "<projection>" HTProjection) cf_err].
Proof. split; vm_compute; reflexivity. Qed.

(** ** envelope *)

(** envelope/id_test.go:17-23, 25-33: Next() and Reset(). *)
Example conform_ids :
  let '(g, a) := next_id cf_oracle cf_g in
  let '(g, b) := next_id cf_oracle g in
  let '(g, c) := next_id cf_oracle g in
  [a; b; c] = ["1"; "2"; "3"]
  /\ (next_id cf_oracle (es_g (e_reset (cf_app ARet (IRet None) cf_jnothing) (mkE g ∅)))).2 = "1".
Proof. vm_compute. split; reflexivity. Qed.
