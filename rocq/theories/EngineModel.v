(** * engine: Engine, configurer, options *)
From Coq Require Export Sorting.Sorted.
From Verif Require Export AggregateModel IntegrationModel ProcessModel ProjectionModel.

Section Engine.
Context {P : Params}.

(** The arguments of engine.New (engine/engine.go:32-53): the application's
    handlers, in the order in which they are visited, and the engine options
    (engine/engineoption.go:40-55): reset hooks and
    EnableProjectionCompactionDuringHandling. *)
Record Config := mkConfig {
  c_app : list Handler; c_compact : bool; c_resetters : list (U -> U) }.

(** ** Controllers and routes, engine/configurer.go:62-70 *)

(** Engine.controllers, filled by registerController. *)
Definition register_controller (m : gmap string Handler) (h : Handler) : gmap string Handler :=
  <[h_name h := h]> m.
Definition controllers (c : Config) : gmap string Handler :=
  foldl register_controller ∅ (c_app c).

(** Engine.routes: for t := range Consumed() { routes[t] = append(routes[t], ctrl) }.
    Consumed() is a set, hence [remove_dups]. *)
Definition register_route (h : Handler) (m : gmap MType (list Handler)) (t : MType)
  : gmap MType (list Handler) :=
  <[t := default [] (m !! t) ++ [h]]> m.
Definition register_routes (m : gmap MType (list Handler)) (h : Handler)
  : gmap MType (list Handler) :=
  foldl (register_route h) m (remove_dups (h_consumed h)).
Definition routes (c : Config) : gmap MType (list Handler) :=
  foldl register_routes ∅ (c_app c).

(** ** State *)

(** The mutable state of a controller. *)
Inductive CState :=
| CSAgg (hist : gmap string (list Env))
| CSProc (ps : PState)
| CSInt
| CSProj (last : Z).

Definition cs_init (h : Handler) : CState :=
  match h_impl h with
  | ImplAgg _ => CSAgg ∅
  | ImplProc _ => CSProc (mkPState ∅ [])
  | ImplInt _ => CSInt
  | ImplProj _ => CSProj 0
  end.

(** controller.Reset: aggregate/controller.go:163-165, process/controller.go:150-153,
    integration/controller.go:79-80 and projection/controller.go:184-185 (both
    empty). *)
Definition cs_reset (cs : CState) : CState :=
  match cs with
  | CSAgg _ => CSAgg ∅
  | CSProc _ => CSProc (mkPState ∅ [])
  | CSInt => CSInt
  | CSProj last => CSProj last
  end.

Record EState := mkE { es_g : GState; es_cs : gmap string CState }.
Definition es_set_g (st : EState) (g : GState) : EState := mkE g (es_cs st).

(** engine.New, engine.go:32-53. *)
Definition e_init (c : Config) (u : U) : EState :=
  mkE (mkG 0 u 0) (cs_init <$> controllers c).

(** Engine.Reset, engine.go:67-80. *)
Definition e_reset (c : Config) (st : EState) : EState :=
  mkE (mkG 0 (foldl (fun u f => f u) (g_user (es_g st)) (c_resetters c)) (g_step (es_g st)))
      (cs_reset <$> es_cs st).

(** ** Operation options, engine/operationoption.go *)

(** OperationOption values: WithObserver (27-35; observers are numbered),
    Enable{Aggregates,Processes,Integrations,Projections} (41-77), EnableHandler
    (87-99) and WithCurrentTime (103-107). *)
Inductive OOpt :=
| OptObserver (n : nat)
| OptType (t : HType) (b : bool)
| OptHandler (name : string) (b : bool)
| OptNow (t : Z).

(** operationOptions, operationoption.go:111-116. *)
Record OOs := mkOOs {
  oo_now : Z; oo_observers : list nat; oo_types : ETypes; oo_handlers : gmap string bool }.

Definition apply_opt (c : Config) (oo : OOs) (opt : OOpt) : OOs + PVal :=
  match opt with
  | OptObserver n => inl (mkOOs (oo_now oo) (oo_observers oo ++ [n]) (oo_types oo) (oo_handlers oo))
  | OptType t b => inl (mkOOs (oo_now oo) (oo_observers oo) (et_set (oo_types oo) t b) (oo_handlers oo))
  | OptHandler name b =>
    match controllers c !! name with
    | None => inr (PEngine "the application does not have a handler named" None)
    | Some _ => inl (mkOOs (oo_now oo) (oo_observers oo) (oo_types oo) (<[name := b]> (oo_handlers oo)))
    end
  | OptNow t => inl (mkOOs t (oo_observers oo) (oo_types oo) (oo_handlers oo))
  end.

Fixpoint apply_opts (c : Config) (oo : OOs) (opts : list OOpt) : OOs + PVal :=
  match opts with
  | [] => inl oo
  | opt :: opts =>
    match apply_opt c oo opt with
    | inl oo => apply_opts c oo opts
    | inr v => inr v
    end
  end.

(** newOperationOptions, operationoption.go:119-136. *)
Definition new_opts (c : Config) (wall : Z) (opts : list OOpt) : OOs + PVal :=
  apply_opts c (mkOOs wall [] (mkETypes true true true true) ∅) opts.

(** Engine.skipHandler, engine.go:345-359. *)
Definition skip_handler (h : Handler) (oo : OOs) : option SkipReason :=
  match oo_handlers oo !! h_name h with
  | Some true => None
  | Some false => Some SRIndividual
  | None =>
    if h_disabled h then Some SRConfiguration
    else if et_get (oo_types oo) (h_type h) then None else Some SRType
  end.

(** ** Controllers' Handle and Tick *)

(** The controller interface (engine/controller.go) dispatching on the handler
    type. *)
Definition ctrl_handle (c : Config) (o : Oracle) (h : Handler) (now : Z) (env : Env)
    (g : GState) (cs : CState) : GState * CState * list Fact * HRes :=
  match h_impl h, cs with
  | ImplAgg a, CSAgg hist =>
    let '(g, hist, fs, r) := a_handle o h a now env g hist in (g, CSAgg hist, fs, r)
  | ImplProc p, CSProc ps =>
    let '(g, ps, fs, r) := p_handle o h p now env g ps in (g, CSProc ps, fs, r)
  | ImplInt i, CSInt =>
    let '(g, fs, r) := i_handle o h i now env g in (g, CSInt, fs, r)
  | ImplProj j, CSProj last =>
    let '(g, fs, r) := j_handle o (c_compact c) h j now env g in (g, CSProj last, fs, r)
  | _, _ => (g, cs, [], HPan PNil) (* unreachable: the state matches the type *)
  end.

(** aggregate/controller.go:33-39 and integration/controller.go:30-36 do
    nothing. *)
Definition ctrl_tick (h : Handler) (now : Z) (g : GState) (cs : CState)
  : GState * CState * list Fact * HRes :=
  match h_impl h, cs with
  | ImplProc _, CSProc ps => let '(ps, ready) := p_tick now ps in (g, CSProc ps, [], HRet ready None)
  | ImplProj j, CSProj last =>
    let '(g, last, fs, r) := j_tick_ctrl h j now g last in (g, CSProj last, fs, r)
  | _, _ => (g, cs, [], HRet [] None)
  end.

(** ** Dispatching *)

(** Engine.handle, engine.go:305-341.  [None] is a nil controller. *)
Definition e_handle (c : Config) (o : Oracle) (oo : OOs) (env : Env) (oh : option Handler)
    (st : EState) : EState * list Fact * HRes :=
  match oh with
  | None => (st, [], HPan PNil)
  | Some h =>
    match skip_handler h oo with
    | Some r => (st, [HandlingSkipped (h_id h) env r], HRet [] None)
    | None =>
      match es_cs st !! h_name h with
      | None => (st, [HandlingBegun (h_id h) env], HPan PNil) (* unreachable *)
      | Some cs =>
        let '(g, cs, fs, r) := ctrl_handle c o h (oo_now oo) env (es_g st) cs in
        let st := mkE g (<[h_name h := cs]> (es_cs st)) in
        match r with
        | HPan v => (st, HandlingBegun (h_id h) env :: fs, HPan v)
        | HRet envs e =>
          (st, HandlingBegun (h_id h) env :: fs ++ [HandlingCompleted (h_id h) env e], HRet envs e)
        end
      end
    end
  end.

Definition wrap (oh : option Handler) (e : option Err) : Errs :=
  match oh, e with
  | Some h, Some e => [EWrap (h_id h) e]
  | _, _ => []
  end.

(** The loop over the controllers of one message, engine.go:270-286. *)
Fixpoint e_handlers (c : Config) (o : Oracle) (oo : OOs) (env : Env) (hs : list (option Handler))
    (st : EState) : EState * list Fact * ((list Env * Errs) + PVal) :=
  match hs with
  | [] => (st, [], inl ([], []))
  | h :: hs =>
    let '(st, fs, r) := e_handle c o oo env h st in
    match r with
    | HPan v => (st, fs, inr v)
    | HRet envs e =>
      let '(st, fs', r') := e_handlers c o oo env hs st in
      match r' with
      | inr v => (st, fs ++ fs', inr v)
      | inl (envs', errs') => (st, fs ++ fs', inl (envs ++ envs', wrap h e ++ errs'))
      end
    end
  end.

(** The controllers a message is dispatched to, engine.go:251-262; [None]: nil
    dereference of env.Origin. *)
Definition targets (c : Config) (env : Env) : option (list (option Handler)) :=
  let mt := m_type (e_msg env) in
  match m_kind (e_msg env) with
  | KTimeout =>
    match e_origin env with
    | None => None
    | Some og => Some [controllers c !! hid_name (o_handler og)]
    end
  | _ => Some (Some <$> default [] (routes c !! mt))
  end.

Inductive Out (A : Type) :=
| Ok (a : A)
| Pan (v : PVal)
| Fuel. (* the iteration budget was used up: not a behaviour of the code *)
Global Arguments Ok {A} a.
Global Arguments Pan {A} v.
Global Arguments Fuel {A}.

(** The part of the loop body of Engine.dispatch that processes one message,
    engine.go:251-295: new messages and errors, or a panic. *)
Definition e_message (c : Config) (o : Oracle) (oo : OOs) (env : Env) (st : EState)
  : EState * list Fact * ((list Env * Errs) + PVal) :=
  match targets c env with
  | None => (st, [], inr PNil)
  | Some hs =>
    let '(st, fs, r) := e_handlers c o oo env hs st in
    match r with
    | inr v => (st, DispatchBegun env :: fs, inr v)
    | inl (envs, derr) =>
      (st, DispatchBegun env :: fs ++ [DispatchCompleted env derr], inl (envs, derr))
    end
  end.

(** Engine.dispatch, engine.go:240-303. *)
Fixpoint e_loop (c : Config) (o : Oracle) (oo : OOs) (fuel : nat) (q : list Env) (err : Errs)
    (st : EState) : EState * list Fact * Out Errs :=
  match q with
  | [] => (st, [], Ok err)
  | env :: q =>
    match fuel with
    | 0 => (st, [], Fuel)
    | S fuel =>
      let '(st, fs, r) := e_message c o oo env st in
      match r with
      | inr v => (st, fs, Pan v)
      | inl (envs, derr) =>
        let '(g, ce) := poll_ctx o (es_g st) in
        let st := es_set_g st g in
        match ce with
        | Some e => (st, fs, Ok [e])
        | None =>
          let '(st, fs', r) := e_loop c o oo fuel (q ++ envs) (err ++ derr) st in
          (st, fs ++ fs', r)
        end
      end
    end
  end.

(** cosyne.Mutex.Lock(ctx) as seen by the caller. *)
Definition lock (o : Oracle) (g : GState) : GState * option Err :=
  (mkG (g_next g) (g_user g) (S (g_step g)), ECtx <$> o_lock o (g_step g)).

(** Engine.Dispatch, engine.go:184-238. *)
Definition e_dispatch (c : Config) (o : Oracle) (fuel : nat) (m : Msg) (opts : list OOpt)
    (st : EState) : EState * list Fact * Out Errs :=
  let '(g, id) := next_id o (es_g st) in
  let st := es_set_g st g in
  match new_opts c (o_wall o) opts with
  | inr v => (st, [], Pan v)
  | inl oo =>
    match m_kind m with
    | KTimeout => (st, [], Pan (PEngine "cannot dispatch a timeout" (Some m)))
    | _ =>
      let env := new_root id m (oo_now oo) in
      match m_invalid m with
      | Some _ => (st, [], Pan (PEngine "cannot dispatch invalid message" (Some m)))
      | None =>
        match routes c !! m_type m with
        | None => (st, [], Pan (PEngine "not consumed by any handlers" (Some m)))
        | Some _ =>
          let f := DispatchCycleBegun env (oo_now oo) (oo_types oo) (oo_handlers oo) in
          let '(g, le) := lock o (es_g st) in
          let st := es_set_g st g in
          match le with
          | Some e =>
            (st, [f; DispatchCycleCompleted env [e] (oo_types oo) (oo_handlers oo)], Ok [e])
          | None =>
            let '(st, fs, r) := e_loop c o oo fuel [env] [] st in
            match r with
            | Ok err =>
              (st, f :: fs ++ [DispatchCycleCompleted env err (oo_types oo) (oo_handlers oo)], Ok err)
            | _ => (st, f :: fs, r)
            end
          end
        end
      end
    end
  end.

(** ** Ticking *)

(** The result of the loop over the controllers in Engine.tick: the queue and
    the errors so far, cancellation, or a panic. *)
Inductive TRes := TQueue (q : list Env) (err : Errs) | TCancel (e : Err) | TPan (v : PVal).

(** One iteration of the loop of Engine.tick up to the TickCompleted fact,
    engine.go:127-164. *)
Definition e_tick_one (c : Config) (o : Oracle) (oo : OOs) (h : Handler) (st : EState)
  : EState * list Fact * HRes :=
  match skip_handler h oo with
  | Some r => (st, [TickSkipped (h_id h) r], HRet [] None)
  | None =>
    match es_cs st !! h_name h with
    | None => (st, [TickBegun (h_id h)], HPan PNil) (* unreachable *)
    | Some cs =>
      let '(g, cs, fs, r) := ctrl_tick h (oo_now oo) (es_g st) cs in
      let st := mkE g (<[h_name h := cs]> (es_cs st)) in
      match r with
      | HPan v => (st, TickBegun (h_id h) :: fs, HPan v)
      | HRet envs e => (st, TickBegun (h_id h) :: fs ++ [TickCompleted (h_id h) e], HRet envs e)
      end
    end
  end.

(** ctx.Err() is queried after each controller that was not skipped,
    engine.go:127-136, 166-168. *)
Definition poll_unless_skipped (o : Oracle) (oo : OOs) (h : Handler) (st : EState)
  : EState * option Err :=
  match skip_handler h oo with
  | Some _ => (st, None)
  | None => let '(g, ce) := poll_ctx o (es_g st) in (es_set_g st g, ce)
  end.

(** Engine.tick up to the call of dispatch, engine.go:121-169.  [hs] are the
    controllers in the order chosen by Go's map iteration. *)
Fixpoint e_tick_handlers (c : Config) (o : Oracle) (oo : OOs) (hs : list Handler)
    (st : EState) : EState * list Fact * TRes :=
  match hs with
  | [] => (st, [], TQueue [] [])
  | h :: hs =>
    let '(st, fs, r) := e_tick_one c o oo h st in
    match r with
    | HPan v => (st, fs, TPan v)
    | HRet envs e =>
      let '(st, ce) := poll_unless_skipped o oo h st in
      match ce with
      | Some e => (st, fs, TCancel e)
      | None =>
        let '(st, fs', res) := e_tick_handlers c o oo hs st in
        (st, fs ++ fs',
         match res with
         | TQueue q errs => TQueue (envs ++ q) (wrap (Some h) e ++ errs)
         | _ => res
         end)
      end
    end
  end.

(** Engine.tick, engine.go:117-179. *)
Definition e_tick_body (c : Config) (o : Oracle) (oo : OOs) (fuel : nat) (order : list Handler)
    (st : EState) : EState * list Fact * Out Errs :=
  let '(st, fs, res) := e_tick_handlers c o oo order st in
  match res with
  | TPan v => (st, fs, Pan v)
  | TCancel e => (st, fs, Ok [e])
  | TQueue q errs =>
    let '(st, fs', r) := e_loop c o oo fuel q [] st in
    (st, fs ++ fs', match r with Ok errs' => Ok (errs ++ errs') | _ => r end)
  end.

(** Engine.Tick, engine.go:86-115. *)
Definition e_tick (c : Config) (o : Oracle) (fuel : nat) (order : list Handler) (opts : list OOpt)
    (st : EState) : EState * list Fact * Out Errs :=
  match new_opts c (o_wall o) opts with
  | inr v => (st, [], Pan v)
  | inl oo =>
    let f := TickCycleBegun (oo_now oo) (oo_types oo) (oo_handlers oo) in
    let '(g, le) := lock o (es_g st) in
    let st := es_set_g st g in
    match le with
    | Some e => (st, [f; TickCycleCompleted [e] (oo_types oo) (oo_handlers oo)], Ok [e])
    | None =>
      let '(st, fs, r) := e_tick_body c o oo fuel order st in
      match r with
      | Ok err => (st, f :: fs ++ [TickCycleCompleted err (oo_types oo) (oo_handlers oo)], Ok err)
      | _ => (st, f :: fs, r)
      end
    end
  end.

(** ** Histories *)

(** What a client can do with an engine; [OpUser] is user code changing its
    world between operations. *)
Inductive Op :=
| OpDispatch (o : Oracle) (fuel : nat) (m : Msg) (opts : list OOpt)
| OpTick (o : Oracle) (fuel : nat) (order : list Handler) (opts : list OOpt)
| OpReset
| OpUser (f : U -> U).

(** What can be observed: the facts, and the calls of Reset. *)
Inductive Ev := EvFact (f : Fact) | EvReset.

Definition run_op (c : Config) (op : Op) (st : EState) : EState * list Ev * Out Errs :=
  match op with
  | OpDispatch o fuel m opts =>
    let '(st, fs, r) := e_dispatch c o fuel m opts st in (st, EvFact <$> fs, r)
  | OpTick o fuel order opts =>
    let '(st, fs, r) := e_tick c o fuel order opts st in (st, EvFact <$> fs, r)
  | OpReset => (e_reset c st, [EvReset], Ok [])
  | OpUser f => (es_set_g st (g_act f (es_g st)), [], Ok [])
  end.

(** A sequence of operations.  After a panic the engine remains usable (the mutex
    is released by a deferred call).  An operation that runs out of fuel stands
    for one still in progress: nothing happens after it and the last component
    of the result is [false]. *)
Fixpoint run_ops (c : Config) (ops : list Op) (st : EState) : EState * list Ev * bool :=
  match ops with
  | [] => (st, [], true)
  | op :: ops =>
    let '(st, evs, r) := run_op c op st in
    match r with
    | Fuel => (st, evs, false)
    | _ => let '(st, evs', fin) := run_ops c ops st in (st, evs ++ evs', fin)
    end
  end.

(** ** Well-formedness *)

(** What configkit and Go's type system guarantee about a handler. *)
Definition handler_ok (h : Handler) : Prop :=
  match h_impl h with
  | ImplAgg _ | ImplInt _ =>
    (forall t, t ∈ h_consumed h -> t.1 = KCommand) /\ (forall t, t ∈ h_produced h -> t.1 = KEvent)
  | ImplProc _ =>
    (forall t, t ∈ h_consumed h -> t.1 = KEvent \/ (t.1 = KTimeout /\ t ∈ h_produced h)) /\
    (forall t, t ∈ h_produced h -> t.1 = KCommand \/ (t.1 = KTimeout /\ t ∈ h_consumed h))
  | ImplProj _ =>
    (forall t, t ∈ h_consumed h -> t.1 = KEvent) /\ h_produced h = []
  end.

(** What configkit guarantees about an application: handler names are unique. *)
Definition app_ok (c : Config) : Prop :=
  NoDup (h_name <$> c_app c) /\ forall h, h ∈ c_app c -> handler_ok h.

(** What Go guarantees about sort.Slice and map iteration. *)
Definition sort_ok (o : Oracle) : Prop :=
  forall l, o_sort o l ≡ₚ l /\ StronglySorted (fun a b => (e_sched a <= e_sched b)%Z) (o_sort o l).
Definition op_ok (c : Config) (op : Op) : Prop :=
  match op with
  | OpDispatch o _ _ _ => sort_ok o
  | OpTick o _ order _ => sort_ok o /\ order ≡ₚ c_app c
  | _ => True
  end.

End Engine.
