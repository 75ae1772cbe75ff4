(** * Facts as a transcript of what handlers do.

    What the methods of handlers do, on their own terms: the calls of the methods of
    their scope that a method makes, and what it does to the user's world.  And,
    separately, the facts that tell such calls. *)
From Verif Require Export PanicSpec.

Section StorySpec.
Context {P : Params}.

(** ** Methods *)

(** A call of a method of a scope. *)
Inductive Call :=
| CRecord (b : Body) | CDestroy | CExecute (b : Body) | CSchedule (b : Body) (t : Z) | CEnd | CLog (s : string).

(** [AScript u r p cs w u']: in the world [u], given the root [r], the method [p] makes
    the calls [cs] and returns, or panics with [w], leaving the world [u'].  About each
    call there are the root when it is made, the value it panics with (if any) and the
    root afterwards. *)
Inductive AScript : U -> Root -> AProg -> list (Root * Call * option PVal * Root) -> option PVal -> U -> Prop :=
| asc_ret u r : AScript u r ARet [] None u
| asc_panic u r v : AScript u r (APanic v) [] (Some v) u
| asc_act u r f k cs w u' : AScript (f u) r (k u) cs w u' -> AScript u r (AAct f k) cs w u'
| asc_mutate u r f k cs w u' : AScript u (f r) (k (f r)) cs w u' -> AScript u r (AMutate f k) cs w u'
| asc_record u r b k v r' cs w u' : AScript u r' (k v) cs w u' -> AScript u r (ARecord b k) ((r, CRecord b, v, r') :: cs) w u'
| asc_destroy u r k cs w u' : AScript u r k cs w u' -> AScript u r (ADestroy k) ((r, CDestroy, None, r) :: cs) w u'
| asc_log u r s k cs w u' : AScript u r k cs w u' -> AScript u r (ALog s k) ((r, CLog s, None, r) :: cs) w u'.

(** Likewise for processes; no call changes the root, which is left as [r']. *)
Inductive PScript : U -> Root -> PProg -> list (Root * Call * option PVal) -> option Err + PVal -> U -> Root -> Prop :=
| psc_ret u r e : PScript u r (PRet e) [] (inl e) u r
| psc_panic u r v : PScript u r (PPanic v) [] (inr v) u r
| psc_act u r f k cs w u' r' : PScript (f u) r (k u) cs w u' r' -> PScript u r (PAct f k) cs w u' r'
| psc_mutate u r f k cs w u' r' : PScript u (f r) (k (f r)) cs w u' r' -> PScript u r (PMutate f k) cs w u' r'
| psc_execute u r b k v cs w u' r' : PScript u r (k v) cs w u' r' -> PScript u r (PExecute b k) ((r, CExecute b, v) :: cs) w u' r'
| psc_schedule u r b t k v cs w u' r' : PScript u r (k v) cs w u' r' -> PScript u r (PSchedule b t k) ((r, CSchedule b t, v) :: cs) w u' r'
| psc_end u r k cs w u' r' : PScript u r k cs w u' r' -> PScript u r (PEnd k) ((r, CEnd, None) :: cs) w u' r'
| psc_log u r s k cs w u' r' : PScript u r k cs w u' r' -> PScript u r (PLog s k) ((r, CLog s, None) :: cs) w u' r'.

(** Likewise for integrations. *)
Inductive IScript : U -> IProg -> list (Call * option PVal) -> option Err + PVal -> U -> Prop :=
| isc_ret u e : IScript u (IRet e) [] (inl e) u
| isc_panic u v : IScript u (IPanic v) [] (inr v) u
| isc_act u f k cs w u' : IScript (f u) (k u) cs w u' -> IScript u (IAct f k) cs w u'
| isc_record u b k v cs w u' : IScript u (k v) cs w u' -> IScript u (IRecord b k) ((CRecord b, v) :: cs) w u'
| isc_log u s k cs w u' : IScript u k cs w u' -> IScript u (ILog s k) ((CLog s, None) :: cs) w u'.

(** Likewise for the methods of projections, whose only calls are those of Log. *)
Inductive JScript {A} : U -> JProg A -> list string -> A + PVal -> U -> Prop :=
| jsc_ret u a : JScript u (JRet a) [] (inl a) u
| jsc_panic u v : JScript u (JPanic v) [] (inr v) u
| jsc_act u f k cs w u' : JScript (f u) (k u) cs w u' -> JScript u (JAct f k) cs w u'
| jsc_log u s k cs w u' : JScript u k cs w u' -> JScript u (JLog s k) (s :: cs) w u'.

(** HandleEvent ([m]) and Compact ([p]) running at the same time, in any order of steps.
    About each call of Log there is whether HandleEvent made it.  A panic of HandleEvent
    ends the matter; one of Compact ends the program. *)
Inductive Together {A B} : U -> JProg A -> JProg B -> list (bool * string) -> (A * B) + PVal -> U -> Prop :=
| tog_done u a b : Together u (JRet a) (JRet b) [] (inl (a, b)) u
| tog_panic u v p : Together u (JPanic v) p [] (inr v) u
| tog_fatal u m v : Together u m (JPanic v) [] (inr (PFatal v)) u
| tog_act u f k p cs w u' : Together (f u) (k u) p cs w u' -> Together u (JAct f k) p cs w u'
| tog_log u s k p cs w u' : Together u k p cs w u' -> Together u (JLog s k) p ((true, s) :: cs) w u'
| tog_act_compact u m f k cs w u' : Together (f u) m (k u) cs w u' -> Together u m (JAct f k) cs w u'
| tog_log_compact u m s k cs w u' : Together u m k cs w u' -> Together u m (JLog s k) ((false, s) :: cs) w u'.

(** ** The facts that tell calls *)

(** One call after the other; [one s call fs s'] is what one call tells, where [s] and
    [s'] are what is known before and after. *)
Inductive Tells {S C} (one : S -> C -> list Fact -> S -> Prop) : S -> list C -> list Fact -> S -> Prop :=
| tells_nil s : Tells one s [] [] s
| tells_cons s call fs s1 cs fs' s' : one s call fs s1 -> Tells one s1 cs fs' s' -> Tells one s (call :: cs) (fs ++ fs') s'.

(** The handler declares that it produces the message, and the message is valid. *)
Definition proper (h : Handler) (m : Msg) : Prop := m_type m ∈ h_produced h /\ m_invalid m = None.

(** Aggregates.  The instance is absent, present, or destroyed by this very method.
    Destroy() makes the engine use a root of its own, [own], instead of the one that the
    method was given. *)
Inductive Standing := Absent | Present | Destroyed.

Inductive ATells (h : Handler) (a : AggImpl) (env : Env) (id : string)
  : Standing * option Root -> Root * Call * option PVal * Root -> list Fact -> Standing * option Root -> Prop :=
| at_log s own r str :
    ATells h a env id (s, own) (r, CLog str, None, r)
      [MessageLoggedByAggregate (h_id h) id (default r own) env str] (s, own)
| at_destroy own r x : ag_new a = Some x ->
    ATells h a env id (Present, own) (r, CDestroy, None, r)
      [AggregateInstanceDestroyed (h_id h) id x env] (Destroyed, Some x)
| at_destroy_nothing s own r : s <> Present ->
    ATells h a env id (s, own) (r, CDestroy, None, r) [] (s, own)
| at_refused s own r b v : complains h "AggregateMessageHandler" "HandleCommand" env (mkMsg KEvent b) v ->
    ATells h a env id (s, own) (r, CRecord b, Some v, r) [] (s, own)
| at_record s own r b x w v fs :
    proper h (mkMsg KEvent b) -> ag_apply a (default r own) (mkMsg KEvent b) = (x, w) ->
    match w with
    | None => v = None /\ exists ev, e_msg ev = mkMsg KEvent b /\ fs = [EventRecordedByAggregate (h_id h) id x env ev]
    | Some w => v = Some (named h "AggregateRoot" "ApplyEvent" (mkMsg KEvent b) w) /\ fs = []
    end ->
    ATells h a env id (s, own) (r, CRecord b, v, match own with Some _ => r | None => x end)
      (match s with
       | Absent => [AggregateInstanceCreated (h_id h) id (default r own) env]
       | Destroyed => [AggregateInstanceDestructionReverted (h_id h) id (default r own) env]
       | Present => []
       end ++ fs) (Present, match own with Some _ => Some x | None => None end).

(** Processes.  The instance has been ended by this very method, or not. *)
Inductive PTells (h : Handler) (meth : string) (env : Env) (id : string)
  : bool -> Root * Call * option PVal -> list Fact -> bool -> Prop :=
| pt_log ended r str :
    PTells h meth env id ended (r, CLog str, None) [MessageLoggedByProcess (h_id h) id r env str] ended
| pt_end r : PTells h meth env id false (r, CEnd, None) [ProcessInstanceEnded (h_id h) id r env] true
| pt_end_again r : PTells h meth env id true (r, CEnd, None) [] true
| pt_refused ended r call m v :
    match call with CExecute b => m = mkMsg KCommand b | CSchedule b _ => m = mkMsg KTimeout b | _ => False end ->
    complains h "ProcessMessageHandler" meth env m v ->
    PTells h meth env id ended (r, call, Some v) [] ended
| pt_execute (ended : bool) r b x : proper h (mkMsg KCommand b) -> e_msg x = mkMsg KCommand b ->
    PTells h meth env id ended (r, CExecute b, None)
      ((if ended then [ProcessInstanceEndingReverted (h_id h) id r env] else []) ++
       [CommandExecutedByProcess (h_id h) id r env x]) false
| pt_schedule (ended : bool) r b t x : proper h (mkMsg KTimeout b) -> e_msg x = mkMsg KTimeout b -> e_sched x = t ->
    PTells h meth env id ended (r, CSchedule b t, None)
      ((if ended then [ProcessInstanceEndingReverted (h_id h) id r env] else []) ++
       [TimeoutScheduledByProcess (h_id h) id r env x]) false.

(** Integrations. *)
Inductive ITells (h : Handler) (env : Env) : unit -> Call * option PVal -> list Fact -> unit -> Prop :=
| it_log str : ITells h env tt (CLog str, None) [MessageLoggedByIntegration (h_id h) env str] tt
| it_refused b v : complains h "IntegrationMessageHandler" "HandleCommand" env (mkMsg KEvent b) v ->
    ITells h env tt (CRecord b, Some v) [] tt
| it_record b ev : proper h (mkMsg KEvent b) -> e_msg ev = mkMsg KEvent b ->
    ITells h env tt (CRecord b, None) [EventRecordedByIntegration (h_id h) env ev] tt.

(** ** A handling

    [Handled c now h env u fs res u']: the handler [h] is offered [env] in the world [u];
    this is told by the facts [fs] and ends with an error (or none), or with the panic
    that leaves the engine, in the world [u']. *)

(** A process receives [env] as the instance [id]. *)
Definition routed (p : ProcImpl) (env : Env) (u : U) (id : string) (u' : U) : Prop :=
  match m_kind (e_msg env) with
  | KEvent => id <> "" /\ pr_route p (e_msg env) u = (u', inl (id, true, None))
  | KTimeout => u' = u /\ exists og, e_origin env = Some og /\ o_instance og = id
  | KCommand => False
  end.

Definition process_method (env : Env) : string :=
  match m_kind (e_msg env) with KTimeout => "HandleTimeout" | _ => "HandleEvent" end.

(** The facts of HandleEvent of a projection (and Compact), and what HandleEvent and
    Compact return, or the panic. *)
Definition heard (h : Handler) (env : Env) (l : bool * string) : Fact :=
  MessageLoggedByProjection (h_id h) (if l.1 then Some env else None) l.2.

Inductive Applied (c : Config) (now : Z) (h : Handler) (j : ProjImpl) (env : Env)
  : U -> list Fact -> (bool * option Err * option Err) + PVal -> U -> Prop :=
| ap_alone u cs out u' : c_compact c = false ->
    JScript u (pj_handle j (e_id env) "" (String (Ascii.ascii_of_nat 1) "") (e_created env) (e_msg env)) cs out u' ->
    Applied c now h j env u (MessageLoggedByProjection (h_id h) (Some env) <$> cs)
      (match out with
       | inl (ok, e) => inl (ok, e, None)
       | inr w => inr (named h "ProjectionMessageHandler" "HandleEvent" (e_msg env) w)
       end) u'
| ap_together u cs ok e ce u' : c_compact c = true ->
    Together u (pj_handle j (e_id env) "" (String (Ascii.ascii_of_nat 1) "") (e_created env) (e_msg env))
      (pj_compact j now) cs (inl (ok, e, ce)) u' ->
    Applied c now h j env u
      (ProjectionCompactionBegun (h_id h) :: (heard h env <$> cs) ++ [ProjectionCompactionCompleted (h_id h) ce])
      (inl (ok, e, ce)) u'
| ap_together_panics u cs w u' : c_compact c = true ->
    Together u (pj_handle j (e_id env) "" (String (Ascii.ascii_of_nat 1) "") (e_created env) (e_msg env))
      (pj_compact j now) cs (inr w) u' ->
    Applied c now h j env u (ProjectionCompactionBegun (h_id h) :: (heard h env <$> cs))
      (inr (named h "ProjectionMessageHandler" "HandleEvent" (e_msg env) w)) u'.

(** What follows: the resource is closed if HandleEvent returned true. *)
Definition Closed (j : ProjImpl) (env : Env) (out : (bool * option Err * option Err) + PVal) (u : U)
    (res : option Err + PVal) (u' : U) : Prop :=
  match out with
  | inr v => res = inr v /\ u' = u
  | inl (_, Some e, _) => res = inl (Some e) /\ u' = u
  | inl (false, None, ce) => res = inl ce /\ u' = u
  | inl (true, None, ce) =>
    exists rc, pj_close j (e_id env) u = (u', rc) /\
      res = match rc with inr w => inr w | inl (Some e) => inl (Some e) | inl None => inl ce end
  end.

Inductive Handled (c : Config) (now : Z) (h : Handler) (env : Env)
  : U -> list Fact -> option Err + PVal -> U -> Prop :=
(* aggregates *)
| hd_agg_route a w u : h_impl h = ImplAgg a -> ag_route a (e_msg env) = inr w ->
    Handled c now h env u [] (inr (named h "AggregateMessageHandler" "RouteCommandToInstance" (e_msg env) w)) u
| hd_agg_empty a u : h_impl h = ImplAgg a -> ag_route a (e_msg env) = inl "" ->
    Handled c now h env u []
      (inr (PUnexpBeh (h_id h) "AggregateMessageHandler" "RouteCommandToInstance" (e_msg env) (BEmptyID (m_type (e_msg env))))) u
| hd_agg_new a id u : h_impl h = ImplAgg a -> ag_route a (e_msg env) = inl id -> id <> "" -> ag_new a = None ->
    Handled c now h env u [] (inr (PUnexpBeh (h_id h) "AggregateMessageHandler" "New" (e_msg env) BNilRoot)) u
| hd_agg_replay a id m v u : h_impl h = ImplAgg a -> ag_route a (e_msg env) = inl id -> id <> "" -> ag_new a <> None ->
    applies h a m v -> Handled c now h env u [] (inr v) u
| hd_agg a id r s f cs w u u' fs s' : h_impl h = ImplAgg a -> ag_route a (e_msg env) = inl id -> id <> "" ->
    (s = Present /\ f = AggregateInstanceLoaded (h_id h) id r env \/
     s = Absent /\ f = AggregateInstanceNotFound (h_id h) id env /\ ag_new a = Some r) ->
    AScript u r (ag_handle a id (e_msg env)) cs w u' ->
    Tells (ATells h a env id) (s, None) cs fs s' ->
    Handled c now h env u (f :: fs)
      (match w with
       | None => inl None
       | Some w => inr (named h "AggregateMessageHandler" "HandleCommand" (e_msg env) w)
       end) u'
(* processes *)
| hd_proc_route p w u u' : h_impl h = ImplProc p -> m_kind (e_msg env) = KEvent -> pr_route p (e_msg env) u = (u', inr w) ->
    Handled c now h env u [] (inr (named h "ProcessMessageHandler" "RouteEventToInstance" (e_msg env) w)) u'
| hd_proc_empty p u u' : h_impl h = ImplProc p -> m_kind (e_msg env) = KEvent -> pr_route p (e_msg env) u = (u', inl ("", true, None)) ->
    Handled c now h env u []
      (inr (PUnexpBeh (h_id h) "ProcessMessageHandler" "RouteEventToInstance" (e_msg env) (BEmptyID (m_type (e_msg env))))) u'
| hd_proc_error p id ok e u u' : h_impl h = ImplProc p -> m_kind (e_msg env) = KEvent ->
    pr_route p (e_msg env) u = (u', inl (id, ok, Some e)) -> Handled c now h env u [] (inl (Some e)) u'
| hd_proc_ignored p id u u' : h_impl h = ImplProc p -> m_kind (e_msg env) = KEvent ->
    pr_route p (e_msg env) u = (u', inl (id, false, None)) ->
    Handled c now h env u [ProcessEventIgnored (h_id h) env] (inl None) u'
| hd_proc_timeout_ignored p og u : h_impl h = ImplProc p -> m_kind (e_msg env) = KTimeout -> e_origin env = Some og ->
    Handled c now h env u [ProcessTimeoutIgnored (h_id h) (o_instance og) env] (inl None) u
| hd_proc_new p id u u' : h_impl h = ImplProc p -> m_kind (e_msg env) = KEvent -> routed p env u id u' -> pr_new p = None ->
    Handled c now h env u [ProcessInstanceNotFound (h_id h) id env; ProcessInstanceBegun (h_id h) id None env]
      (inr (PUnexpBeh (h_id h) "ProcessMessageHandler" "New" (e_msg env) BNilRoot)) u'
| hd_proc p id r pre cs out u u1 u' r' fs ended : h_impl h = ImplProc p -> routed p env u id u1 ->
    (pre = [ProcessInstanceLoaded (h_id h) id r env] \/
     m_kind (e_msg env) = KEvent /\ pr_new p = Some r /\
     pre = [ProcessInstanceNotFound (h_id h) id env; ProcessInstanceBegun (h_id h) id (Some r) env]) ->
    PScript u1 r (method_of p env id) cs out u' r' ->
    Tells (PTells h (process_method env) env id) false cs fs ended ->
    Handled c now h env u (pre ++ fs)
      (match out with
       | inl e => inl e
       | inr w => inr (named h "ProcessMessageHandler" (process_method env) (e_msg env) w)
       end) u'
(* integrations *)
| hd_int i cs out u u' fs : h_impl h = ImplInt i -> IScript u (in_handle i (e_msg env)) cs out u' ->
    Tells (ITells h env) tt cs fs tt ->
    Handled c now h env u fs
      (match out with
       | inl e => inl e
       | inr w => inr (named h "IntegrationMessageHandler" "HandleCommand" (e_msg env) w)
       end) u'
(* projections *)
| hd_proj_version j w u u' : h_impl h = ImplProj j -> pj_version j (e_id env) u = (u', inr w) ->
    Handled c now h env u [] (inr w) u'
| hd_proj_error j x e u u' : h_impl h = ImplProj j -> pj_version j (e_id env) u = (u', inl (x, Some e)) ->
    Handled c now h env u [] (inl (Some e)) u'
| hd_proj_already j x u u' : h_impl h = ImplProj j -> pj_version j (e_id env) u = (u', inl (x, None)) -> x <> "" ->
    Handled c now h env u [] (inl None) u'
| hd_proj j fs out res u u1 u2 u' : h_impl h = ImplProj j -> pj_version j (e_id env) u = (u1, inl ("", None)) ->
    Applied c now h j env u1 fs out u2 -> Closed j env out u2 res u' ->
    Handled c now h env u fs res u'.

(** The handler [h] is given the time. *)
Inductive Ticked (now : Z) (h : Handler) : U -> list Fact -> option Err + PVal -> U -> Prop :=
| tk_nothing u : Ticked now h u [] (inl None) u
| tk_compact j cs e u u' : h_impl h = ImplProj j -> JScript u (pj_compact j now) cs (inl e) u' ->
    Ticked now h u (ProjectionCompactionBegun (h_id h) :: (MessageLoggedByProjection (h_id h) None <$> cs) ++
                    [ProjectionCompactionCompleted (h_id h) e]) (inl e) u'
| tk_compact_panics j cs w u u' : h_impl h = ImplProj j -> JScript u (pj_compact j now) cs (inr w) u' ->
    Ticked now h u (ProjectionCompactionBegun (h_id h) :: (MessageLoggedByProjection (h_id h) None <$> cs)) (inr w) u'.

(** ** An operation

    Facts that frame what handlers do. *)
Definition framing (f : Fact) : Prop :=
  match f with
  | DispatchCycleBegun _ _ _ _ | DispatchCycleCompleted _ _ _ _ | DispatchBegun _ | DispatchCompleted _ _
  | HandlingSkipped _ _ _ | TickCycleBegun _ _ _ | TickCycleCompleted _ _ _ | TickSkipped _ _ => True
  | _ => False
  end.

(** The facts tell what the handlers did one after the other, each in the world that the
    one before it left; the last one may have panicked. *)
Inductive Story (c : Config) (now : Z) : U -> list Fact -> option PVal -> U -> Prop :=
| story_end u : Story c now u [] None u
| story_frame f u fs v u' : framing f -> Story c now u fs v u' -> Story c now u (f :: fs) v u'
| story_handled h env mid e u u1 fs v u' : h ∈ c_app c -> Handled c now h env u mid (inl e) u1 -> Story c now u1 fs v u' ->
    Story c now u (HandlingBegun (h_id h) env :: mid ++ HandlingCompleted (h_id h) env e :: fs) v u'
| story_panicked h env mid v u u' : h ∈ c_app c -> Handled c now h env u mid (inr v) u' ->
    Story c now u (HandlingBegun (h_id h) env :: mid) (Some v) u'
| story_ticked h mid e u u1 fs v u' : h ∈ c_app c -> Ticked now h u mid (inl e) u1 -> Story c now u1 fs v u' ->
    Story c now u (TickBegun (h_id h) :: mid ++ TickCompleted (h_id h) e :: fs) v u'
| story_tick_panicked h mid v u u' : h ∈ c_app c -> Ticked now h u mid (inr v) u' ->
    Story c now u (TickBegun (h_id h) :: mid) (Some v) u'.

(** The world of the user. *)
Definition world (st : EState) : U := g_user (es_g st).
End StorySpec.
