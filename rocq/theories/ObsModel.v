(** * The engine under observers that run arbitrary code and may panic.

    The functions of AggregateModel.v, IntegrationModel.v, ProcessModel.v,
    ProjectionModel.v and EngineModel.v once more, this time with every call of
    Observer.Notify as a step that can fail: an observer is user code, so it may
    change the user's world and it may panic.  Handlers may recover the panics
    that come out of their scope.  The engine's mutex is part of the state.

    ObsPlain.v proves that with observers that do nothing these are the functions
    of the other files. *)
From Verif Require Export EngineModel.

Section Obs.
Context {P : Params}.

(** ** Observers *)

(** fact.Observer, fact/observer.go:6-9: Notify(f) changes the user's world and
    returns or panics. *)
Definition Observer := Fact -> U -> U * option PVal.

(** One call of ObserverGroup.Notify: the fact, how many of the observers were
    called, and the panic of the last of these, if any. *)
Record Seen := mkSeen { sn_fact : Fact; sn_to : nat; sn_panic : option PVal }.

(** ObserverGroup.Notify, fact/observer.go:15-19. *)
Fixpoint group_notify (obs : list Observer) (f : Fact) (u : U) : U * nat * option PVal :=
  match obs with
  | [] => (u, 0, None)
  | ob :: obs =>
    let '(u, v) := ob f u in
    match v with
    | Some v => (u, 1, Some v)
    | None => let '(u, n, v) := group_notify obs f u in (u, S n, v)
    end
  end.

(** ** Go code that notifies observers and panics

    A computation changes a state, notifies observers and returns or panics. *)
Definition M (S A : Type) := S -> S * list Seen * (A + PVal).

Definition ret {S A} (a : A) : M S A := fun s => (s, [], inl a).
Definition raise {S A} (v : PVal) : M S A := fun s => (s, [], inr v).
Definition bnd {S A B} (m : M S A) (k : A -> M S B) : M S B := fun s =>
  let '(s, t, r) := m s in
  match r with
  | inr v => (s, t, inr v)
  | inl a => let '(s, t', r') := k a s in (s, t ++ t', r')
  end.
(** What a function that recovers sees. *)
Definition try {S A} (m : M S A) : M S (A + PVal) := fun s =>
  let '(s, t, r) := m s in (s, t, inl r).
Definition pan {A} (r : A + PVal) : option PVal :=
  match r with inl _ => None | inr v => Some v end.
Definition get_st {S} : M S S := fun s => (s, [], inl s).
Definition set_st {S} (s : S) : M S unit := fun _ => (s, [], inl tt).
(** Code that works on a part of the state. *)
Definition fst_do {S T A} (m : M S A) : M (S * T) A := fun '(s, x) =>
  let '(s, t, r) := m s in (s, x, t, r).

Notation "'do' x '<-' m ';' k" := (bnd m (fun x => k))
  (at level 200, x pattern, m at level 100, k at level 200, right associativity).
Notation "'do_' m ';' k" := (bnd m (fun _ => k))
  (at level 200, m at level 100, k at level 200, right associativity).

(** obs.Notify(f). *)
Definition note (obs : list Observer) (f : Fact) : M GState unit := fun g =>
  let '(u, n, v) := group_notify obs f (g_user g) in
  (mkG (g_next g) u (g_step g), [mkSeen f n v], match v with None => inl tt | Some v => inr v end).

(** s.messageIDs.Next(). *)
Definition mint (o : Oracle) : M GState string := fun g =>
  let '(g, id) := next_id o g in (g, [], inl id).

(** panicx.EnrichUnexpectedMessage around a call,
    engine/internal/panicx/unexpectedmessage.go:50-79. *)
Definition enriching {S A} (h : HId) (iface meth : string) (m : Msg) (c : M S A) : M S A := fun s =>
  let '(s, t, r) := c s in
  (s, t, match r with
         | inl a => inl a
         | inr v => inr (default v (enrich h iface meth m (Some v)))
         end).

(** The result of a call of user code that is a function of its arguments. *)
Definition result {S A} (r : A + PVal) : M S A := fun s => (s, [], r).

(** A change of the user's world by user code. *)
Definition user {A} (f : U -> U * A) : M GState A := fun g =>
  let '(u, a) := f (g_user g) in (mkG (g_next g) u (g_step g), [], inl a).

(** ** User code

    The handler methods of HandlerModel.v, except that a handler may recover from
    a panic of any method of its scope. *)
Inductive XAProg :=
| XARet
| XAPanic (v : PVal)
| XAAct (f : U -> U) (k : U -> XAProg)
| XAMutate (f : Root -> Root) (k : Root -> XAProg)
| XARecord (b : Body) (k : option PVal -> XAProg)
| XADestroy (k : option PVal -> XAProg)
| XALog (s : string) (k : option PVal -> XAProg).

Inductive XPProg :=
| XPRet (e : option Err)
| XPPanic (v : PVal)
| XPAct (f : U -> U) (k : U -> XPProg)
| XPMutate (f : Root -> Root) (k : Root -> XPProg)
| XPExecute (b : Body) (k : option PVal -> XPProg)
| XPSchedule (b : Body) (t : Z) (k : option PVal -> XPProg)
| XPEnd (k : option PVal -> XPProg)
| XPLog (s : string) (k : option PVal -> XPProg).

Inductive XIProg :=
| XIRet (e : option Err)
| XIPanic (v : PVal)
| XIAct (f : U -> U) (k : U -> XIProg)
| XIRecord (b : Body) (k : option PVal -> XIProg)
| XILog (s : string) (k : option PVal -> XIProg).

Inductive XJProg (A : Type) :=
| XJRet (a : A)
| XJPanic (v : PVal)
| XJAct (f : U -> U) (k : U -> XJProg A)
| XJLog (s : string) (k : option PVal -> XJProg A).
Arguments XJRet {A} a.
Arguments XJPanic {A} v.
Arguments XJAct {A} f k.
Arguments XJLog {A} s k.

(** An application and the observers it is used with.  [x_cfg] has everything about
    the handlers except the methods that are given a scope: those of the handler
    called [h] are [x_agg h] (HandleCommand: instance ID, command), [x_event h] and
    [x_timeout h] (HandleEvent, HandleTimeout: instance ID, RecordedAt() or
    ScheduledFor(), message), [x_int h] (HandleCommand), [x_proj h] (HandleEvent:
    resource, current and next version, RecordedAt(), event) and [x_compact h]
    (Compact: Now()).  [x_obs n] is the observer given by [OptObserver n].  [x_resets]
    are the functions given to WithResetter, which may panic, in place of those of
    [x_cfg]. *)
Record XApp := mkXApp {
  x_cfg : Config;
  x_obs : nat -> Observer;
  x_agg : string -> string -> Msg -> XAProg;
  x_event : string -> string -> Z -> Msg -> XPProg;
  x_timeout : string -> string -> Z -> Msg -> XPProg;
  x_int : string -> Msg -> XIProg;
  x_proj : string -> string -> string -> string -> Z -> Msg -> XJProg (bool * option Err);
  x_compact : string -> Z -> XJProg (option Err);
  x_resets : list (U -> U * option PVal) }.

(** ** engine/internal/aggregate *)
Section AScope.
Context (obs : list Observer) (o : Oracle) (h : Handler) (a : AggImpl) (now : Z) (cmd : Env) (id : string).

Definition a_set (s : AScope) : M (GState * AScope) unit := fun '(g, _) => (g, s, [], inl tt).
Definition a_get : M (GState * AScope) AScope := fun '(g, s) => (g, s, [], inl s).

(** scope.Destroy, engine/internal/aggregate/scope.go:35-50. *)
Definition xa_destroy : M (GState * AScope) unit :=
  do s <- a_get;
  if as_exists s then
    let r := default (as_root s) (ag_new a) in
    do_ a_set (mkAScope (as_hroot s) (Some r) false true (as_events s));
    fst_do (note obs (AggregateInstanceDestroyed (h_id h) id r cmd))
  else ret tt.

(** scope.RecordEvent, scope.go:52-131. *)
Definition xa_record (b : Body) : M (GState * AScope) unit :=
  let m := mkMsg KEvent b in
  let mt := m_type m in
  if negb (produces h mt) then
    raise (PUnexpBeh (h_id h) "AggregateMessageHandler" "HandleCommand" (e_msg cmd) (BUndeclared mt))
  else
  match m_invalid m with
  | Some e => raise (PUnexpBeh (h_id h) "AggregateMessageHandler" "HandleCommand" (e_msg cmd) (BInvalid mt e))
  | None =>
    do s <- a_get;
    do_ (if as_exists s then ret tt
         else do_ fst_do (note obs (if as_destroyed s
                                    then AggregateInstanceDestructionReverted (h_id h) id (as_root s) cmd
                                    else AggregateInstanceCreated (h_id h) id (as_root s) cmd));
              a_set (mkAScope (as_hroot s) (as_own s) true false (as_events s)));
    do s <- a_get;
    let '(r, v) := ag_apply a (as_root s) m in
    let s := as_set_root s r in
    do_ a_set s;
    match enrich (h_id h) "AggregateRoot" "ApplyEvent" m v with
    | Some v => raise v
    | None =>
      do mid <- fst_do (mint o);
      let ev := new_child cmd mid m now (mkOrigin (h_id h) HTAggregate id) in
      do_ a_set (mkAScope (as_hroot s) (as_own s) (as_exists s) (as_destroyed s) (as_events s ++ [ev]));
      fst_do (note obs (EventRecordedByAggregate (h_id h) id (as_root s) cmd ev))
    end
  end.

(** scope.Log, scope.go:133-142. *)
Definition xa_log (str : string) : M (GState * AScope) unit :=
  do s <- a_get;
  fst_do (note obs (MessageLoggedByAggregate (h_id h) id (as_root s) cmd str)).

(** Running HandleCommand against the scope. *)
Fixpoint xa_run (p : XAProg) : M (GState * AScope) unit :=
  match p with
  | XARet => ret tt
  | XAPanic v => raise v
  | XAAct f k => do u <- fst_do (user (fun u => (f u, u))); xa_run (k u)
  | XAMutate f k =>
    do s <- a_get;
    let r := f (as_hroot s) in
    do_ a_set (mkAScope r (as_own s) (as_exists s) (as_destroyed s) (as_events s));
    xa_run (k r)
  | XARecord b k => do v <- try (xa_record b); xa_run (k (pan v))
  | XADestroy k => do v <- try xa_destroy; xa_run (k (pan v))
  | XALog str k => do v <- try (xa_log str); xa_run (k (pan v))
  end.
End AScope.

(** Controller.Handle, engine/internal/aggregate/controller.go:42-160. *)
Definition xa_handle (x : XApp) (obs : list Observer) (o : Oracle) (h : Handler) (a : AggImpl)
    (now : Z) (env : Env) : M (GState * gmap string (list Env)) (list Env * option Err) :=
  fun '(g, hist) =>
  let m := e_msg env in
  if negb (consumes h (m_type m)) then raise (PEngine "does not handle" (Some m)) (g, hist)
  else
  (do id <- enriching (h_id h) "AggregateMessageHandler" "RouteCommandToInstance" m (result (ag_route a m));
   if decide (id = "") then
     raise (PUnexpBeh (h_id h) "AggregateMessageHandler" "RouteCommandToInstance" m (BEmptyID (m_type m)))
   else
   match ag_new a with
   | None => raise (PUnexpBeh (h_id h) "AggregateMessageHandler" "New" m BNilRoot)
   | Some r0 =>
     let '(r, v) := a_replay h a r0 (default [] (hist !! id)) in
     match v with
     | Some v => raise v
     | None =>
       let ex := bool_decide (is_Some (hist !! id)) in
       do_ fst_do (note obs (if ex then AggregateInstanceLoaded (h_id h) id r env
                             else AggregateInstanceNotFound (h_id h) id env));
       fun '(g, hist) =>
       let '(g, s, t, res) :=
         enriching (h_id h) "AggregateMessageHandler" "HandleCommand" m
           (xa_run obs o h a now env id (x_agg x (h_name h) id m)) (g, mkAScope r None ex false []) in
       match res with
       | inr v => (g, hist, t, inr v)
       | inl _ =>
         (g, if as_exists s then <[id := default [] (hist !! id) ++ as_events s]> hist
             else delete id hist, t, inl (as_events s, None))
       end
     end
   end) (g, hist).

(** ** engine/internal/integration *)
Section IScope.
Context (obs : list Observer) (o : Oracle) (h : Handler) (now : Z) (cmd : Env).

Definition i_add (ev : Env) : M (GState * list Env) unit := fun '(g, evs) => (g, evs ++ [ev], [], inl tt).

(** scope.RecordEvent, engine/internal/integration/scope.go:27-71. *)
Definition xi_record (b : Body) : M (GState * list Env) unit :=
  let m := mkMsg KEvent b in
  let mt := m_type m in
  if negb (produces h mt) then
    raise (PUnexpBeh (h_id h) "IntegrationMessageHandler" "HandleCommand" (e_msg cmd) (BUndeclared mt))
  else
  match m_invalid m with
  | Some e => raise (PUnexpBeh (h_id h) "IntegrationMessageHandler" "HandleCommand" (e_msg cmd) (BInvalid mt e))
  | None =>
    do mid <- fst_do (mint o);
    let ev := new_child cmd mid m now (mkOrigin (h_id h) HTIntegration "") in
    do_ i_add ev;
    fst_do (note obs (EventRecordedByIntegration (h_id h) cmd ev))
  end.

(** Running HandleCommand against the scope; scope.Log is scope.go:73-80. *)
Fixpoint xi_run (p : XIProg) : M (GState * list Env) (option Err) :=
  match p with
  | XIRet e => ret e
  | XIPanic v => raise v
  | XIAct f k => do u <- fst_do (user (fun u => (f u, u))); xi_run (k u)
  | XIRecord b k => do v <- try (xi_record b); xi_run (k (pan v))
  | XILog str k =>
    do v <- try (fst_do (note obs (MessageLoggedByIntegration (h_id h) cmd str))); xi_run (k (pan v))
  end.
End IScope.

(** Controller.Handle, engine/internal/integration/controller.go:39-76. *)
Definition xi_handle (x : XApp) (obs : list Observer) (o : Oracle) (h : Handler) (now : Z) (env : Env)
  : M GState (list Env * option Err) := fun g =>
  let m := e_msg env in
  if negb (consumes h (m_type m)) then raise (PEngine "does not handle" (Some m)) g
  else
  let '(g, evs, t, r) :=
    enriching (h_id h) "IntegrationMessageHandler" "HandleCommand" m
      (xi_run obs o h now env (x_int x (h_name h) m)) (g, []) in
  (g, t, match r with inl e => inl (evs, e) | inr v => inr v end).

(** ** engine/internal/process *)
Section PScope.
Context (obs : list Observer) (o : Oracle) (h : Handler) (now : Z) (env : Env) (id : string) (meth : string).

Definition p_set (s : PScope) : M (GState * PScope) unit := fun '(g, _) => (g, s, [], inl tt).
Definition p_get : M (GState * PScope) PScope := fun '(g, s) => (g, s, [], inl s).

(** The checks shared by ExecuteCommand and ScheduleTimeout,
    engine/internal/process/scope.go:54-78, 118-142. *)
Definition xp_check (m : Msg) : M (GState * PScope) unit :=
  match p_check h env meth m with Some v => raise v | None => ret tt end.

(** scope.go:80-89, 144-153: un-end the process, after having said so. *)
Definition xp_revert : M (GState * PScope) unit :=
  do s <- p_get;
  if ps_ended s then
    do_ fst_do (note obs (ProcessInstanceEndingReverted (h_id h) id (ps_root s) env));
    p_set (mkPScope (ps_root s) false (ps_commands s) (ps_ready s) (ps_pending s))
  else ret tt.

(** scope.ExecuteCommand, scope.go:53-111. *)
Definition xp_execute (b : Body) : M (GState * PScope) unit :=
  let m := mkMsg KCommand b in
  do_ xp_check m;
  do_ xp_revert;
  do mid <- fst_do (mint o);
  let c := new_child env mid m now (mkOrigin (h_id h) HTProcess id) in
  do s <- p_get;
  do_ p_set (mkPScope (ps_root s) (ps_ended s) (ps_commands s ++ [c]) (ps_ready s) (ps_pending s));
  fst_do (note obs (CommandExecutedByProcess (h_id h) id (ps_root s) env c)).

(** scope.ScheduleTimeout, scope.go:117-180. *)
Definition xp_schedule (b : Body) (t : Z) : M (GState * PScope) unit :=
  let m := mkMsg KTimeout b in
  do_ xp_check m;
  do_ xp_revert;
  do mid <- fst_do (mint o);
  let tm := new_timeout env mid m now t (mkOrigin (h_id h) HTProcess id) in
  do s <- p_get;
  do_ p_set (if (now <? t)%Z
             then mkPScope (ps_root s) (ps_ended s) (ps_commands s) (ps_ready s) (ps_pending s ++ [tm])
             else mkPScope (ps_root s) (ps_ended s) (ps_commands s) (ps_ready s ++ [tm]) (ps_pending s));
  fst_do (note obs (TimeoutScheduledByProcess (h_id h) id (ps_root s) env tm)).

(** scope.End, scope.go:38-51. *)
Definition xp_end : M (GState * PScope) unit :=
  do s <- p_get;
  if ps_ended s then ret tt
  else
    do_ p_set (mkPScope (ps_root s) true (ps_commands s) (ps_ready s) (ps_pending s));
    fst_do (note obs (ProcessInstanceEnded (h_id h) id (ps_root s) env)).

(** scope.Log, scope.go:186-195. *)
Definition xp_log (str : string) : M (GState * PScope) unit :=
  do s <- p_get;
  fst_do (note obs (MessageLoggedByProcess (h_id h) id (ps_root s) env str)).

(** Running HandleEvent / HandleTimeout. *)
Fixpoint xp_run (p : XPProg) : M (GState * PScope) (option Err) :=
  match p with
  | XPRet e => ret e
  | XPPanic v => raise v
  | XPAct f k => do u <- fst_do (user (fun u => (f u, u))); xp_run (k u)
  | XPMutate f k =>
    do s <- p_get;
    let r := f (ps_root s) in
    do_ p_set (mkPScope r (ps_ended s) (ps_commands s) (ps_ready s) (ps_pending s));
    xp_run (k r)
  | XPExecute b k => do v <- try (xp_execute b); xp_run (k (pan v))
  | XPSchedule b t k => do v <- try (xp_schedule b t); xp_run (k (pan v))
  | XPEnd k => do v <- try xp_end; xp_run (k (pan v))
  | XPLog str k => do v <- try (xp_log str); xp_run (k (pan v))
  end.
End PScope.

(** Controller.route, routeEvent, routeTimeout,
    engine/internal/process/controller.go:156-238: an instance ID, nothing or an
    error. *)
Inductive XRoute := XTo (id : string) | XNone | XErr (e : Err).

Definition xp_route (obs : list Observer) (h : Handler) (pi : ProcImpl) (env : Env)
  : M (GState * PState) XRoute :=
  let m := e_msg env in
  match m_kind m with
  | KEvent =>
    do r <- fst_do (user (pr_route pi m));
    do (id, ok, e) <- enriching (h_id h) "ProcessMessageHandler" "RouteEventToInstance" m (result r);
    match e with
    | Some e => ret (XErr e)
    | None =>
      if (ok : bool) then
        if decide (id = "") then
          raise (PUnexpBeh (h_id h) "ProcessMessageHandler" "RouteEventToInstance" m (BEmptyID (m_type m)))
        else ret (XTo id)
      else
        do_ fst_do (note obs (ProcessEventIgnored (h_id h) env));
        ret XNone
    end
  | KTimeout =>
    match e_origin env with
    | None => raise PNil
    | Some og =>
      do (_, ps) <- get_st;
      match pc_instances ps !! o_instance og with
      | Some _ => ret (XTo (o_instance og))
      | None =>
        do_ fst_do (note obs (ProcessTimeoutIgnored (h_id h) (o_instance og) env));
        ret XNone
      end
    end
  | KCommand => raise PNil
  end.

(** Controller.Handle from the point where the root is known, controller.go:116-147;
    [p_store_mutation] as in ProcessModel.v. *)
Definition xp_handle_instance (x : XApp) (obs : list Observer) (o : Oracle) (h : Handler)
    (now : Z) (env : Env) (id : string) (r : Root) : M (GState * PState) (list Env * option Err) :=
  fun '(g, ps) =>
  let m := e_msg env in
  let '(meth, prog) :=
    match m_kind m with
    | KTimeout => ("HandleTimeout", x_timeout x (h_name h) id (e_sched env) m)
    | _ => ("HandleEvent", x_event x (h_name h) id (e_created env) m)
    end in
  let '(g, s, t, res) :=
    enriching (h_id h) "ProcessMessageHandler" meth m
      (xp_run obs o h now env id meth prog) (g, mkPScope r false [] [] []) in
  match res with
  | inr v => (g, p_store_mutation id s ps, t, inr v)
  | inl (Some e) => (g, p_store_mutation id s ps, t, inl ([], Some e))
  | inl None =>
    if ps_ended s then
      (g, if bool_decide (is_Some (pc_instances ps !! id)) then p_delete id ps else ps, t,
       inl (ps_commands s, None))
    else (g, p_update o id s ps, t, inl (ps_commands s ++ ps_ready s, None))
  end.

(** Controller.Handle, controller.go:61-147. *)
Definition xp_handle (x : XApp) (obs : list Observer) (o : Oracle) (h : Handler) (pi : ProcImpl)
    (now : Z) (env : Env) : M (GState * PState) (list Env * option Err) :=
  let m := e_msg env in
  if negb (consumes h (m_type m)) then raise (PEngine "does not handle" (Some m))
  else
  do rt <- xp_route obs h pi env;
  match rt with
  | XErr e => ret ([], Some e)
  | XNone => ret ([], None)
  | XTo id =>
    do (_, ps) <- get_st;
    match pc_instances ps !! id with
    | Some r =>
      do_ fst_do (note obs (ProcessInstanceLoaded (h_id h) id r env));
      xp_handle_instance x obs o h now env id r
    | None =>
      do_ fst_do (note obs (ProcessInstanceNotFound (h_id h) id env));
      do_ fst_do (note obs (ProcessInstanceBegun (h_id h) id (pr_new pi) env));
      match pr_new pi with
      | None => raise (PUnexpBeh (h_id h) "ProcessMessageHandler" "New" m BNilRoot)
      | Some r => xp_handle_instance x obs o h now env id r
      end
    end
  end.

(** ** engine/internal/projection *)

(** Running one method alone; scope.Log is
    engine/internal/projection/scope.go:28-35. *)
Fixpoint xj_run {A} (obs : list Observer) (hid : HId) (ev : option Env) (p : XJProg A) : M GState A :=
  match p with
  | XJRet a => ret a
  | XJPanic v => raise v
  | XJAct f k => do u <- user (fun u => (f u, u)); xj_run obs hid ev (k u)
  | XJLog s k =>
    do v <- try (note obs (MessageLoggedByProjection hid ev s)); xj_run obs hid ev (k (pan v))
  end.

(** A panic that ends a goroutine started by the engine ends the program. *)
Definition fatal {S A} (m : M S A) : M S A := fun s =>
  let '(s, t, r) := m s in (s, t, match r with inl a => inl a | inr v => inr (PFatal v) end).

(** The oracle decides which goroutine advances. *)
Definition sched (o : Oracle) : M GState bool := fun g => (j_tick g, [], inl (o_sched o (g_step g))).

(** HandleEvent in parallel with Compact, controller.go:124-157; the
    simplifications are those of [j_par]. *)
Fixpoint xj_par (obs : list Observer) (o : Oracle) (hid : HId) (ev : Env) {A B} (m : XJProg A)
  : XJProg B -> M GState (A * B) :=
  fix inner (c : XJProg B) {struct c} :=
    match m, c with
    | XJRet a, _ => do b <- fatal (xj_run obs hid None c); ret (a, b)
    | _, XJRet b => do a <- xj_run obs hid (Some ev) m; ret (a, b)
    | _, _ =>
      do main <- sched o;
      if (main : bool) then
        match m with
        | XJRet _ => raise PNil (* unreachable *)
        | XJPanic v => raise v
        | XJAct f k => do u <- user (fun u => (f u, u)); xj_par obs o hid ev (k u) c
        | XJLog s k =>
          do v <- try (note obs (MessageLoggedByProjection hid (Some ev) s));
          xj_par obs o hid ev (k (pan v)) c
        end
      else
        match c with
        | XJRet _ => raise PNil (* unreachable *)
        | XJPanic v => raise (PFatal v)
        | XJAct f k => do u <- user (fun u => (f u, u)); inner (k u)
        | XJLog s k =>
          do v <- try (note obs (MessageLoggedByProjection hid None s)); inner (k (pan v))
        end
    end.

(** Controller.Tick, engine/internal/projection/controller.go:38-68. *)
Definition xj_tick (x : XApp) (obs : list Observer) (h : Handler) (now : Z)
  : M (GState * Z) (list Env * option Err) :=
  do (g, last) <- get_st;
  if (compact_interval <=? now - last)%Z then
    do_ set_st (g, now);
    do_ fst_do (note obs (ProjectionCompactionBegun (h_id h)));
    do e <- fst_do (xj_run obs (h_id h) None (x_compact x (h_name h) now));
    do_ fst_do (note obs (ProjectionCompactionCompleted (h_id h) e));
    ret ([], e)
  else ret ([], None).

(** Controller.Handle from the call of HandleEvent on, controller.go:112-164. *)
Definition xj_apply (x : XApp) (obs : list Observer) (o : Oracle) (compact_during : bool) (h : Handler)
    (now : Z) (env : Env) : M GState (bool * option Err * option Err) :=
  let m := e_msg env in
  let hp := x_proj x (h_name h) (e_id env) "" (String (Ascii.ascii_of_nat 1) "") (e_created env) m in
  if compact_during then
    do_ note obs (ProjectionCompactionBegun (h_id h));
    do (ok, e, ce) <- enriching (h_id h) "ProjectionMessageHandler" "HandleEvent" m
                         (xj_par obs o (h_id h) env hp (x_compact x (h_name h) now));
    do_ note obs (ProjectionCompactionCompleted (h_id h) ce);
    ret (ok, e, ce)
  else
    do (ok, e) <- enriching (h_id h) "ProjectionMessageHandler" "HandleEvent" m
                     (xj_run obs (h_id h) (Some env) hp);
    ret (ok, e, None).

(** Controller.Handle, controller.go:71-181. *)
Definition xj_handle (x : XApp) (obs : list Observer) (o : Oracle) (h : Handler) (j : ProjImpl)
    (now : Z) (env : Env) : M GState (list Env * option Err) :=
  let m := e_msg env in
  if negb (consumes h (m_type m)) then raise (PEngine "does not handle" (Some m))
  else
  do rv <- user (pj_version j (e_id env));
  do (cur, ve) <- result rv;
  match ve with
  | Some e => ret ([], Some e)
  | None =>
    if decide (cur = "") then
      do (ok, e, ce) <- xj_apply x obs o (c_compact (x_cfg x)) h now env;
      match e with
      | Some e => ret ([], Some e)
      | None =>
        if (ok : bool) then
          do rc <- user (pj_close j (e_id env));
          do e <- result rc;
          match e with
          | Some e => ret ([], Some e)
          | None => ret ([], ce)
          end
        else ret ([], ce)
      end
    else ret ([], None)
  end.

(** ** engine *)

(** The controller interface (engine/controller.go). *)
Definition xctrl_handle (x : XApp) (obs : list Observer) (o : Oracle) (h : Handler) (now : Z) (env : Env)
  : M (GState * CState) (list Env * option Err) := fun '(g, cs) =>
  match h_impl h, cs with
  | ImplAgg a, CSAgg hist =>
    let '(g, hist, t, r) := xa_handle x obs o h a now env (g, hist) in (g, CSAgg hist, t, r)
  | ImplProc p, CSProc ps =>
    let '(g, ps, t, r) := xp_handle x obs o h p now env (g, ps) in (g, CSProc ps, t, r)
  | ImplInt _, CSInt =>
    let '(g, t, r) := xi_handle x obs o h now env g in (g, CSInt, t, r)
  | ImplProj j, CSProj last =>
    let '(g, t, r) := xj_handle x obs o h j now env g in (g, CSProj last, t, r)
  | _, _ => (g, cs, [], inr PNil)
  end.

Definition xctrl_tick (x : XApp) (obs : list Observer) (h : Handler) (now : Z)
  : M (GState * CState) (list Env * option Err) := fun '(g, cs) =>
  match h_impl h, cs with
  | ImplProc _, CSProc ps => let '(ps, ready) := p_tick now ps in (g, CSProc ps, [], inl (ready, None))
  | ImplProj _, CSProj last =>
    let '(g, last, t, r) := xj_tick x obs h now (g, last) in (g, CSProj last, t, r)
  | _, _ => (g, cs, [], inl ([], None))
  end.

(** Work on the GState of an EState, and on the state of a controller. *)
Definition on_g {A} (m : M GState A) : M EState A := fun st =>
  let '(g, t, r) := m (es_g st) in (es_set_g st g, t, r).
Definition on_ctrl {A} (h : Handler) (m : M (GState * CState) A) : M EState A := fun st =>
  match es_cs st !! h_name h with
  | None => (st, [], inr PNil) (* unreachable *)
  | Some cs =>
    let '(g, cs, t, r) := m (es_g st, cs) in (mkE g (<[h_name h := cs]> (es_cs st)), t, r)
  end.

(** Engine.handle, engine/engine.go:305-341. *)
Definition xe_handle (x : XApp) (obs : list Observer) (o : Oracle) (oo : OOs) (env : Env) (oh : option Handler)
  : M EState (list Env * option Err) :=
  match oh with
  | None => raise PNil
  | Some h =>
    match skip_handler h oo with
    | Some r =>
      do_ on_g (note obs (HandlingSkipped (h_id h) env r));
      ret ([], None)
    | None =>
      do_ on_g (note obs (HandlingBegun (h_id h) env));
      do (envs, e) <- on_ctrl h (xctrl_handle x obs o h (oo_now oo) env);
      do_ on_g (note obs (HandlingCompleted (h_id h) env e));
      ret (envs, e)
    end
  end.

(** The loop over the controllers of one message, engine.go:270-286. *)
Fixpoint xe_handlers (x : XApp) (obs : list Observer) (o : Oracle) (oo : OOs) (env : Env)
    (hs : list (option Handler)) : M EState (list Env * Errs) :=
  match hs with
  | [] => ret ([], [])
  | h :: hs =>
    do (envs, e) <- xe_handle x obs o oo env h;
    do (envs', errs') <- xe_handlers x obs o oo env hs;
    ret (envs ++ envs', wrap h e ++ errs')
  end.

(** The loop body of Engine.dispatch for one message, engine.go:251-295. *)
Definition xe_message (x : XApp) (obs : list Observer) (o : Oracle) (oo : OOs) (env : Env)
  : M EState (list Env * Errs) :=
  match targets (x_cfg x) env with
  | None => raise PNil
  | Some hs =>
    do_ on_g (note obs (DispatchBegun env));
    do (envs, derr) <- xe_handlers x obs o oo env hs;
    do_ on_g (note obs (DispatchCompleted env derr));
    ret (envs, derr)
  end.

(** ctx.Err(). *)
Definition xpoll (o : Oracle) : M EState (option Err) := on_g (fun g =>
  let '(g, e) := poll_ctx o g in (g, [], inl e)).

(** Engine.dispatch, engine.go:240-303; [None]: out of fuel. *)
Fixpoint xe_loop (x : XApp) (obs : list Observer) (o : Oracle) (oo : OOs) (fuel : nat) (q : list Env)
    (err : Errs) : M EState (option Errs) :=
  match q with
  | [] => ret (Some err)
  | env :: q =>
    match fuel with
    | 0 => ret None
    | S fuel =>
      do (envs, derr) <- xe_message x obs o oo env;
      do ce <- xpoll o;
      match ce with
      | Some e => ret (Some [e])
      | None => xe_loop x obs o oo fuel (q ++ envs) (err ++ derr)
      end
    end
  end.

(** One iteration of the loop of Engine.tick, engine.go:127-168: the messages, the
    error and the result of ctx.Err(). *)
Definition xe_tick_one (x : XApp) (obs : list Observer) (o : Oracle) (oo : OOs) (h : Handler)
  : M EState (list Env * option Err * option Err) :=
  match skip_handler h oo with
  | Some r =>
    do_ on_g (note obs (TickSkipped (h_id h) r));
    ret ([], None, None)
  | None =>
    do_ on_g (note obs (TickBegun (h_id h)));
    do (envs, e) <- on_ctrl h (xctrl_tick x obs h (oo_now oo));
    do_ on_g (note obs (TickCompleted (h_id h) e));
    do ce <- xpoll o;
    ret (envs, e, ce)
  end.

(** The loop of Engine.tick, engine.go:121-169: the queue and the errors, or the
    cancellation of the context. *)
Fixpoint xe_tick_handlers (x : XApp) (obs : list Observer) (o : Oracle) (oo : OOs) (hs : list Handler)
  : M EState ((list Env * Errs) + Err) :=
  match hs with
  | [] => ret (inl ([], []))
  | h :: hs =>
    do (envs, e, ce) <- xe_tick_one x obs o oo h;
    match ce with
    | Some e => ret (inr e)
    | None =>
      do res <- xe_tick_handlers x obs o oo hs;
      ret (match res with
           | inl (q, errs) => inl (envs ++ q, wrap (Some h) e ++ errs)
           | inr e => inr e
           end)
    end
  end.

(** Engine.tick, engine.go:117-179. *)
Definition xe_tick_body (x : XApp) (obs : list Observer) (o : Oracle) (oo : OOs) (fuel : nat)
    (order : list Handler) : M EState (option Errs) :=
  do res <- xe_tick_handlers x obs o oo order;
  match res with
  | inr e => ret (Some [e])
  | inl (q, errs) =>
    do r <- xe_loop x obs o oo fuel q [];
    ret ((fun errs' => errs ++ errs') <$> r)
  end.

(** ** The mutex *)

(** An engine and whether its mutex (Engine.m, engine.go:26) is locked. *)
Notation XState := (EState * bool)%type.

(** What became of a call that did not panic: it returned, it is still running
    (the iteration budget was used up), or it waits for the mutex for good. *)
Inductive XRes := RDone (err : Errs) | RRunning | RBlocked.

(** e.m.Lock(ctx): [None] if it never returns. *)
Definition acquire (o : Oracle) : M XState (option (option Err)) := fun '(st, locked) =>
  let '(g, e) := lock o (es_g st) in
  let st := es_set_g st g in
  match e, (locked : bool) with
  | Some e, _ => (st, locked, [], inl (Some (Some e)))
  | None, true => (st, locked, [], inl None)
  | None, false => (st, true, [], inl (Some None))
  end.

(** The rest of the function after "defer e.m.Unlock()": however it ends, the mutex
    is unlocked. *)
Definition unlocking (m : M XState XRes) : M XState XRes := fun s =>
  let '(st, locked, t, r) := m s in
  (st, match r with inl RRunning => locked | _ => false end, t, r).

(** The observers of an operation. *)
Definition observers (x : XApp) (oo : OOs) : list Observer := x_obs x <$> oo_observers oo.

(** Engine.Dispatch, engine.go:184-238. *)
Definition xe_dispatch (x : XApp) (o : Oracle) (fuel : nat) (m : Msg) (opts : list OOpt) : M XState XRes :=
  do id <- fst_do (on_g (mint o));
  match new_opts (x_cfg x) (o_wall o) opts with
  | inr v => raise v
  | inl oo =>
    let obs := observers x oo in
    match m_kind m with
    | KTimeout => raise (PEngine "cannot dispatch a timeout" (Some m))
    | _ =>
      let env := new_root id m (oo_now oo) in
      match m_invalid m with
      | Some _ => raise (PEngine "cannot dispatch invalid message" (Some m))
      | None =>
        match routes (x_cfg x) !! m_type m with
        | None => raise (PEngine "not consumed by any handlers" (Some m))
        | Some _ =>
          let completed err := DispatchCycleCompleted env err (oo_types oo) (oo_handlers oo) in
          do_ fst_do (on_g (note obs (DispatchCycleBegun env (oo_now oo) (oo_types oo) (oo_handlers oo))));
          do le <- acquire o;
          match le with
          | None => ret RBlocked
          | Some (Some e) =>
            do_ fst_do (on_g (note obs (completed [e])));
            ret (RDone [e])
          | Some None =>
            unlocking
              (do r <- fst_do (xe_loop x obs o oo fuel [env] []);
               match r with
               | None => ret RRunning
               | Some err =>
                 do_ fst_do (on_g (note obs (completed err)));
                 ret (RDone err)
               end)
          end
        end
      end
    end
  end.

(** Engine.Tick, engine.go:86-115. *)
Definition xe_tick (x : XApp) (o : Oracle) (fuel : nat) (order : list Handler) (opts : list OOpt)
  : M XState XRes :=
  match new_opts (x_cfg x) (o_wall o) opts with
  | inr v => raise v
  | inl oo =>
    let obs := observers x oo in
    let completed err := TickCycleCompleted err (oo_types oo) (oo_handlers oo) in
    do_ fst_do (on_g (note obs (TickCycleBegun (oo_now oo) (oo_types oo) (oo_handlers oo))));
    do le <- acquire o;
    match le with
    | None => ret RBlocked
    | Some (Some e) =>
      do_ fst_do (on_g (note obs (completed [e])));
      ret (RDone [e])
    | Some None =>
      unlocking
        (do r <- fst_do (xe_tick_body x obs o oo fuel order);
         match r with
         | None => ret RRunning
         | Some err =>
           do_ fst_do (on_g (note obs (completed err)));
           ret (RDone err)
         end)
    end
  end.

(** The loop over the resetters, engine.go:77-79. *)
Fixpoint run_resets (fns : list (U -> U * option PVal)) (u : U) : U * option PVal :=
  match fns with
  | [] => (u, None)
  | fn :: fns =>
    let '(u, v) := fn u in
    match v with Some v => (u, Some v) | None => run_resets fns u end
  end.

(** Engine.Reset, engine.go:67-80; Unlock is deferred. *)
Definition xe_reset (x : XApp) : M XState XRes := fun '(st, locked) =>
  if (locked : bool) then (st, locked, [], inl RBlocked)
  else
    let '(u, v) := run_resets (x_resets x) (g_user (es_g st)) in
    (mkE (mkG 0 u (g_step (es_g st))) (cs_reset <$> es_cs st), false, [],
     match v with None => inl (RDone []) | Some v => inr v end).

(** ** Histories *)

(** What happens: notifications and calls of Reset. *)
Inductive XEv := XSeen (s : Seen) | XReset.

Definition xrun_op (x : XApp) (op : Op) (s : XState) : XState * list XEv * (XRes + PVal) :=
  match op with
  | OpDispatch o fuel m opts => let '(s, t, r) := xe_dispatch x o fuel m opts s in (s, XSeen <$> t, r)
  | OpTick o fuel order opts => let '(s, t, r) := xe_tick x o fuel order opts s in (s, XSeen <$> t, r)
  | OpReset =>
    let '(s, _, r) := xe_reset x s in
    (s, match r with inl RBlocked => [] | _ => [XReset] end, r)
  | OpUser f => let '(st, locked) := s in (es_set_g st (g_act f (es_g st)), locked, [], inl (RDone []))
  end.

(** A sequence of operations, with the result of each.  After a panic the caller
    goes on using the engine; after an operation that does not return nothing
    happens. *)
Fixpoint xrun_ops (x : XApp) (ops : list Op) (s : XState) : XState * list XEv * list (XRes + PVal) :=
  match ops with
  | [] => (s, [], [])
  | op :: ops =>
    let '(s, evs, r) := xrun_op x op s in
    match r with
    | inl RRunning | inl RBlocked => (s, evs, [r])
    | _ => let '(s, evs', rs) := xrun_ops x ops s in (s, evs ++ evs', r :: rs)
    end
  end.

End Obs.
Arguments XJRet {P A} a.
Arguments XJPanic {P A} v.
Arguments XJAct {P A} f k.
Arguments XJLog {P A} s k.
