(** * Vocabulary for panics: where the panic of an operation can come from. *)
From Verif Require Export OpSpec.

Section PanicSpec.
Context {P : Params}.

(** The panic value [w] of a method that is given the message [m], as it leaves the
    engine: dogma.UnexpectedMessage is replaced. *)
Definition named (h : Handler) (iface meth : string) (m : Msg) (w : PVal) : PVal :=
  match w with PRaw => PUnexpMsg (h_id h) iface meth m | _ => w end.

(** [d] says what is wrong with [m] as a message produced by [h]. *)
Definition improper (h : Handler) (m : Msg) (d : BDesc) : Prop :=
  match d with
  | BUndeclared t => t = m_type m /\ t ∉ h_produced h
  | BInvalid t e => t = m_type m /\ m_invalid m = Some e
  | _ => False
  end.

(** ** User code that panics

    [_Raises scope p w]: the code [p] can panic with [w], where a call of a method of its
    scope with the message [m] can panic with [v] if [scope m v]. *)
Inductive ARaises (scope : Msg -> PVal -> Prop) : AProg -> PVal -> Prop :=
| ar_panic w : ARaises scope (APanic w) w
| ar_act f k u w : ARaises scope (k u) w -> ARaises scope (AAct f k) w
| ar_mutate f k r w : ARaises scope (k r) w -> ARaises scope (AMutate f k) w
| ar_record b k v w : (forall x, v = Some x -> scope (mkMsg KEvent b) x) -> ARaises scope (k v) w -> ARaises scope (ARecord b k) w
| ar_destroy k w : ARaises scope k w -> ARaises scope (ADestroy k) w
| ar_log s k w : ARaises scope k w -> ARaises scope (ALog s k) w.

Inductive PRaises (scope : Msg -> PVal -> Prop) : PProg -> PVal -> Prop :=
| pr_panic w : PRaises scope (PPanic w) w
| pr_act f k u w : PRaises scope (k u) w -> PRaises scope (PAct f k) w
| pr_mutate f k r w : PRaises scope (k r) w -> PRaises scope (PMutate f k) w
| pr_execute b k v w : (forall x, v = Some x -> scope (mkMsg KCommand b) x) -> PRaises scope (k v) w -> PRaises scope (PExecute b k) w
| pr_schedule b t k v w : (forall x, v = Some x -> scope (mkMsg KTimeout b) x) -> PRaises scope (k v) w -> PRaises scope (PSchedule b t k) w
| pr_end k w : PRaises scope k w -> PRaises scope (PEnd k) w
| pr_log s k w : PRaises scope k w -> PRaises scope (PLog s k) w.

Inductive IRaises (scope : Msg -> PVal -> Prop) : IProg -> PVal -> Prop :=
| ir_panic w : IRaises scope (IPanic w) w
| ir_act f k u w : IRaises scope (k u) w -> IRaises scope (IAct f k) w
| ir_record b k v w : (forall x, v = Some x -> scope (mkMsg KEvent b) x) -> IRaises scope (k v) w -> IRaises scope (IRecord b k) w
| ir_log s k w : IRaises scope k w -> IRaises scope (ILog s k) w.

Inductive JRaises {A} : JProg A -> PVal -> Prop :=
| jr_panic w : JRaises (JPanic w) w
| jr_act f k u w : JRaises (k u) w -> JRaises (JAct f k) w
| jr_log s k w : JRaises k w -> JRaises (JLog s k) w.

(** Panics of the scope's methods: something is wrong with the message, or the root's
    ApplyEvent panics, which is given only events that the handler declares. *)
Definition complains (h : Handler) (iface meth : string) (env : Env) (m : Msg) (v : PVal) : Prop :=
  exists d, improper h m d /\ v = PUnexpBeh (h_id h) iface meth (e_msg env) d.
Definition applies (h : Handler) (a : AggImpl) (m : Msg) (v : PVal) : Prop :=
  m_kind m = KEvent /\ m_type m ∈ h_produced h /\ exists r r' w, ag_apply a r m = (r', Some w) /\ v = named h "AggregateRoot" "ApplyEvent" m w.

(** ** Where the panic of a handling comes from *)
Inductive HandlingPanics (c : Config) (now : Z) (h : Handler) (env : Env) : PVal -> Prop :=
(* aggregates *)
| hp_agg_route a w : h_impl h = ImplAgg a -> ag_route a (e_msg env) = inr w ->
    HandlingPanics c now h env (named h "AggregateMessageHandler" "RouteCommandToInstance" (e_msg env) w)
| hp_agg_empty a : h_impl h = ImplAgg a -> ag_route a (e_msg env) = inl ""%string ->
    HandlingPanics c now h env (PUnexpBeh (h_id h) "AggregateMessageHandler" "RouteCommandToInstance" (e_msg env) (BEmptyID (m_type (e_msg env))))
| hp_agg_new a id : h_impl h = ImplAgg a -> ag_route a (e_msg env) = inl id -> id <> ""%string -> ag_new a = None ->
    HandlingPanics c now h env (PUnexpBeh (h_id h) "AggregateMessageHandler" "New" (e_msg env) BNilRoot)
| hp_agg_replay a id m v : h_impl h = ImplAgg a -> ag_route a (e_msg env) = inl id -> id <> ""%string -> ag_new a <> None -> applies h a m v ->
    HandlingPanics c now h env v
| hp_agg_handle a id w : h_impl h = ImplAgg a -> ag_route a (e_msg env) = inl id -> id <> ""%string -> ag_new a <> None ->
    ARaises (fun m v => complains h "AggregateMessageHandler" "HandleCommand" env m v \/ applies h a m v) (ag_handle a id (e_msg env)) w ->
    HandlingPanics c now h env (named h "AggregateMessageHandler" "HandleCommand" (e_msg env) w)
(* processes *)
| hp_proc_route p u u' w : h_impl h = ImplProc p -> m_kind (e_msg env) = KEvent -> pr_route p (e_msg env) u = (u', inr w) ->
    HandlingPanics c now h env (named h "ProcessMessageHandler" "RouteEventToInstance" (e_msg env) w)
| hp_proc_empty p u u' : h_impl h = ImplProc p -> m_kind (e_msg env) = KEvent -> pr_route p (e_msg env) u = (u', inl (""%string, true, None)) ->
    HandlingPanics c now h env (PUnexpBeh (h_id h) "ProcessMessageHandler" "RouteEventToInstance" (e_msg env) (BEmptyID (m_type (e_msg env))))
| hp_proc_new p : h_impl h = ImplProc p -> pr_new p = None ->
    HandlingPanics c now h env (PUnexpBeh (h_id h) "ProcessMessageHandler" "New" (e_msg env) BNilRoot)
| hp_proc_event p id w : h_impl h = ImplProc p -> m_kind (e_msg env) = KEvent ->
    PRaises (complains h "ProcessMessageHandler" "HandleEvent" env) (pr_event p id (e_created env) (e_msg env)) w ->
    HandlingPanics c now h env (named h "ProcessMessageHandler" "HandleEvent" (e_msg env) w)
| hp_proc_timeout p id w : h_impl h = ImplProc p -> m_kind (e_msg env) = KTimeout ->
    PRaises (complains h "ProcessMessageHandler" "HandleTimeout" env) (pr_timeout p id (e_sched env) (e_msg env)) w ->
    HandlingPanics c now h env (named h "ProcessMessageHandler" "HandleTimeout" (e_msg env) w)
(* integrations *)
| hp_int i w : h_impl h = ImplInt i ->
    IRaises (complains h "IntegrationMessageHandler" "HandleCommand" env) (in_handle i (e_msg env)) w ->
    HandlingPanics c now h env (named h "IntegrationMessageHandler" "HandleCommand" (e_msg env) w)
(* projections *)
| hp_proj_version j u u' w : h_impl h = ImplProj j -> pj_version j (e_id env) u = (u', inr w) ->
    HandlingPanics c now h env w
| hp_proj_event j cur nxt w : h_impl h = ImplProj j -> JRaises (pj_handle j (e_id env) cur nxt (e_created env) (e_msg env)) w ->
    HandlingPanics c now h env (named h "ProjectionMessageHandler" "HandleEvent" (e_msg env) w)
| hp_proj_close j u u' w : h_impl h = ImplProj j -> pj_close j (e_id env) u = (u', inr w) ->
    HandlingPanics c now h env w
| hp_proj_compact j w : h_impl h = ImplProj j -> c_compact c = true -> JRaises (pj_compact j now) w ->
    HandlingPanics c now h env (PFatal w).

(** ** User code that always panics

    [_Must p w]: the code [p] panics with [w] whatever the state of the world, of the root
    and of the scope. *)
Inductive AMust : AProg -> PVal -> Prop :=
| am_panic w : AMust (APanic w) w
| am_act f k w : (forall u, AMust (k u) w) -> AMust (AAct f k) w
| am_mutate f k w : (forall r, AMust (k r) w) -> AMust (AMutate f k) w
| am_record b k w : (forall v, AMust (k v) w) -> AMust (ARecord b k) w
| am_destroy k w : AMust k w -> AMust (ADestroy k) w
| am_log s k w : AMust k w -> AMust (ALog s k) w.
Inductive PMust : PProg -> PVal -> Prop :=
| pm_panic w : PMust (PPanic w) w
| pm_act f k w : (forall u, PMust (k u) w) -> PMust (PAct f k) w
| pm_mutate f k w : (forall r, PMust (k r) w) -> PMust (PMutate f k) w
| pm_execute b k w : (forall v, PMust (k v) w) -> PMust (PExecute b k) w
| pm_schedule b t k w : (forall v, PMust (k v) w) -> PMust (PSchedule b t k) w
| pm_end k w : PMust k w -> PMust (PEnd k) w
| pm_log s k w : PMust k w -> PMust (PLog s k) w.
Inductive IMust : IProg -> PVal -> Prop :=
| im_panic w : IMust (IPanic w) w
| im_act f k w : (forall u, IMust (k u) w) -> IMust (IAct f k) w
| im_record b k w : (forall v, IMust (k v) w) -> IMust (IRecord b k) w
| im_log s k w : IMust k w -> IMust (ILog s k) w.
Inductive JMust {A} : JProg A -> PVal -> Prop :=
| jm_panic w : JMust (JPanic w) w
| jm_act f k w : (forall u, JMust (k u) w) -> JMust (JAct f k) w
| jm_log s k w : JMust k w -> JMust (JLog s k) w.

(** [MustPanic c h f v]: the fact [f] says that a method of [h] is called that always
    panics, so that the panic [v] must leave the engine. *)
Inductive MustPanic (c : Config) (h : Handler) : Fact -> PVal -> Prop :=
| mp_agg_route a env w : h_impl h = ImplAgg a -> ag_route a (e_msg env) = inr w ->
    MustPanic c h (HandlingBegun (h_id h) env) (named h "AggregateMessageHandler" "RouteCommandToInstance" (e_msg env) w)
| mp_agg_loaded a id r env w : h_impl h = ImplAgg a -> AMust (ag_handle a id (e_msg env)) w ->
    MustPanic c h (AggregateInstanceLoaded (h_id h) id r env) (named h "AggregateMessageHandler" "HandleCommand" (e_msg env) w)
| mp_agg_not_found a id env w : h_impl h = ImplAgg a -> AMust (ag_handle a id (e_msg env)) w ->
    MustPanic c h (AggregateInstanceNotFound (h_id h) id env) (named h "AggregateMessageHandler" "HandleCommand" (e_msg env) w)
| mp_proc_route p env w : h_impl h = ImplProc p -> m_kind (e_msg env) = KEvent -> (forall u, exists u', pr_route p (e_msg env) u = (u', inr w)) ->
    MustPanic c h (HandlingBegun (h_id h) env) (named h "ProcessMessageHandler" "RouteEventToInstance" (e_msg env) w)
| mp_proc_event p id r env w : h_impl h = ImplProc p -> m_kind (e_msg env) = KEvent ->
    PMust (pr_event p id (e_created env) (e_msg env)) w ->
    MustPanic c h (ProcessInstanceLoaded (h_id h) id r env) (named h "ProcessMessageHandler" "HandleEvent" (e_msg env) w)
| mp_proc_first p id r env w : h_impl h = ImplProc p -> m_kind (e_msg env) = KEvent ->
    PMust (pr_event p id (e_created env) (e_msg env)) w ->
    MustPanic c h (ProcessInstanceBegun (h_id h) id (Some r) env) (named h "ProcessMessageHandler" "HandleEvent" (e_msg env) w)
| mp_proc_new p id env : h_impl h = ImplProc p ->
    MustPanic c h (ProcessInstanceBegun (h_id h) id None env) (PUnexpBeh (h_id h) "ProcessMessageHandler" "New" (e_msg env) BNilRoot)
| mp_proc_timeout p id r env w : h_impl h = ImplProc p -> m_kind (e_msg env) = KTimeout ->
    PMust (pr_timeout p id (e_sched env) (e_msg env)) w ->
    MustPanic c h (ProcessInstanceLoaded (h_id h) id r env) (named h "ProcessMessageHandler" "HandleTimeout" (e_msg env) w)
| mp_int i env w : h_impl h = ImplInt i -> IMust (in_handle i (e_msg env)) w ->
    MustPanic c h (HandlingBegun (h_id h) env) (named h "IntegrationMessageHandler" "HandleCommand" (e_msg env) w)
| mp_proj_version j env w : h_impl h = ImplProj j -> (forall u, exists u', pj_version j (e_id env) u = (u', inr w)) ->
    MustPanic c h (HandlingBegun (h_id h) env) w
| mp_proj_event j env w : h_impl h = ImplProj j -> c_compact c = false ->
    (forall u, exists u', pj_version j (e_id env) u = (u', inl (""%string, None))) ->
    (forall cur nxt, JMust (pj_handle j (e_id env) cur nxt (e_created env) (e_msg env)) w) ->
    MustPanic c h (HandlingBegun (h_id h) env) (named h "ProjectionMessageHandler" "HandleEvent" (e_msg env) w)
| mp_tick j w : h_impl h = ImplProj j -> c_compact c = false -> (forall now, JMust (pj_compact j now) w) ->
    MustPanic c h (ProjectionCompactionBegun (h_id h)) w.

(** A call that is rejected before anything happens. *)
Definition Rejected (c : Config) (op : Op) (v : PVal) : Prop :=
  (exists n b, OptHandler n b ∈ op_opts op /\ (forall h, h ∈ c_app c -> h_name h <> n) /\
     v = PEngine "the application does not have a handler named" None) \/
  match op with
  | OpDispatch _ _ m _ =>
    (m_kind m = KTimeout /\ v = PEngine "cannot dispatch a timeout" (Some m)) \/
    (m_invalid m <> None /\ v = PEngine "cannot dispatch invalid message" (Some m)) \/
    ((forall h, h ∈ c_app c -> m_type m ∉ h_consumed h) /\ v = PEngine "not consumed by any handlers" (Some m))
  | _ => False
  end.

(** The panic of an operation that notified [fs]. *)
Definition OpPanics (c : Config) (op : Op) (fs : list Fact) (v : PVal) : Prop :=
  (fs = [] /\ Rejected c op v) \/
  (exists l h env l', fs = l ++ HandlingBegun (h_id h) env :: l' /\ Forall (about (h_id h) env) l' /\
     h ∈ c_app c /\ m_type (e_msg env) ∈ h_consumed h /\ skipped (op_opts op) h = None /\ HandlingPanics c (op_now op) h env v) \/
  (exists l h l' j, fs = l ++ TickBegun (h_id h) :: l' /\ Forall (about_tick (h_id h)) l' /\
     h ∈ c_app c /\ skipped (op_opts op) h = None /\ h_impl h = ImplProj j /\ JRaises (pj_compact j (op_now op)) v).

(** ** Panics that nobody should ever see

    A nil dereference inside the engine, and "handler X does not handle Y messages". *)
Definition internal (v : PVal) : Prop := v = PNil \/ (exists m, v = PEngine "does not handle" (Some m)) \/ (exists w, v = PFatal w /\ (w = PNil \/ exists m, w = PEngine "does not handle" (Some m))).

(** The methods of [h] never panic with such a value themselves. *)
Definition civil (h : Handler) : Prop :=
  match h_impl h with
  | ImplAgg a => (forall m w, ag_route a m = inr w -> ~ internal w) /\ (forall r m r' w, ag_apply a r m = (r', Some w) -> ~ internal w) /\
      (forall id m w, ARaises (fun _ x => ~ internal x) (ag_handle a id m) w -> ~ internal w)
  | ImplProc p => (forall m u u' w, pr_route p m u = (u', inr w) -> ~ internal w) /\
      (forall id t m w, PRaises (fun _ x => ~ internal x) (pr_event p id t m) w -> ~ internal w) /\
      (forall id t m w, PRaises (fun _ x => ~ internal x) (pr_timeout p id t m) w -> ~ internal w)
  | ImplInt i => forall m w, IRaises (fun _ x => ~ internal x) (in_handle i m) w -> ~ internal w
  | ImplProj j => (forall id u u' w, pj_version j id u = (u', inr w) -> ~ internal w) /\ (forall id u u' w, pj_close j id u = (u', inr w) -> ~ internal w) /\
      (forall id cur nxt t m w, JRaises (pj_handle j id cur nxt t m) w -> ~ internal w) /\
      (forall now w, JRaises (pj_compact j now) w -> ~ internal w)
  end.

End PanicSpec.
