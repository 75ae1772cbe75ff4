(** * What one operation notifies.

    The grammar of the facts of one call of Dispatch or Tick, and functions that
    read such a sequence of facts. *)
From Verif Require Export ProcSpec.

Section OpSpec.
Context {P : Params}.

(** ** The messages a handling produces *)

Definition events_in (fs : list Fact) : list Env :=
  omap (fun f => match f with
                 | EventRecordedByAggregate _ _ _ _ ev | EventRecordedByIntegration _ _ ev => Some ev
                 | _ => None end) fs.
Definition commands_in (fs : list Fact) : list Env :=
  omap (fun f => match f with CommandExecutedByProcess _ _ _ _ c => Some c | _ => None end) fs.
Definition timeouts_in (fs : list Fact) : list Env :=
  omap (fun f => match f with TimeoutScheduledByProcess _ _ _ _ t => Some t | _ => None end) fs.
(** The process ended (and the ending was not reverted). *)
Definition ended_in (fs : list Fact) : bool :=
  foldl (fun b f => match f with
                    | ProcessInstanceEnded _ _ _ _ => true
                    | ProcessInstanceEndingReverted _ _ _ _ => false
                    | _ => b end) false fs.

(** What is dispatched as a result of a handling by [h] that notified [fs] and
    completed with [err]: all recorded events; for a process that did not fail, the
    executed commands and then the timeouts that are due already. *)
Definition outputs (now : Z) (h : HId) (fs : list Fact) (err : option Err) : list Env :=
  match hid_type h, err with
  | HTProcess, Some _ => []
  | HTProcess, None => commands_in fs ++ if ended_in fs then [] else due now (timeouts_in fs)
  | _, _ => events_in fs
  end.

(** ** Enablement *)

(** The last option that is about the handler called [name], or about handlers of
    type [t]. *)
Definition last_opt {A} (p : OOpt -> option A) (opts : list OOpt) : option A := last (omap p opts).
Definition individually (name : string) (opt : OOpt) : option bool :=
  match opt with OptHandler n b => if decide (n = name) then Some b else None | _ => None end.
Definition by_type (t : HType) (opt : OOpt) : option bool :=
  match opt with OptType t' b => if decide (t' = t) then Some b else None | _ => None end.
Definition current_time (opt : OOpt) : option Z := match opt with OptNow t => Some t | _ => None end.

(** Whether, and why, a handler is skipped by an operation with these options. *)
Definition skipped (opts : list OOpt) (h : Handler) : option SkipReason :=
  match last_opt (individually (h_name h)) opts with
  | Some true => None
  | Some false => Some SRIndividual
  | None =>
    if h_disabled h then Some SRConfiguration
    else match last_opt (by_type (h_type h)) opts with
         | Some false => Some SRType
         | _ => None
         end
  end.

(** The states an engine can have between operations. *)
Definition reachable (c : Config) (st : EState) : Prop := exists u ops evs, history c u ops st evs true.

(** ** The grammar *)

(** A fact notified by a handler's controller or scope while [h] handles [env]. *)
Definition about (h : HId) (env : Env) (f : Fact) : Prop :=
  match f with
  | AggregateInstanceLoaded h' _ _ e | AggregateInstanceNotFound h' _ e | AggregateInstanceCreated h' _ _ e
  | AggregateInstanceDestroyed h' _ _ e | AggregateInstanceDestructionReverted h' _ _ e
  | EventRecordedByAggregate h' _ _ e _ | MessageLoggedByAggregate h' _ _ e _ =>
    h' = h /\ e = env /\ hid_type h = HTAggregate
  | ProcessInstanceLoaded h' _ _ e | ProcessEventIgnored h' e | ProcessTimeoutIgnored h' _ e
  | ProcessInstanceNotFound h' _ e | ProcessInstanceBegun h' _ _ e | ProcessInstanceEnded h' _ _ e
  | ProcessInstanceEndingReverted h' _ _ e | CommandExecutedByProcess h' _ _ e _
  | TimeoutScheduledByProcess h' _ _ e _ | MessageLoggedByProcess h' _ _ e _ =>
    h' = h /\ e = env /\ hid_type h = HTProcess
  | EventRecordedByIntegration h' e _ | MessageLoggedByIntegration h' e _ =>
    h' = h /\ e = env /\ hid_type h = HTIntegration
  | ProjectionCompactionBegun h' | ProjectionCompactionCompleted h' _ => h' = h /\ hid_type h = HTProjection
  | MessageLoggedByProjection h' e _ => h' = h /\ (e = None \/ e = Some env) /\ hid_type h = HTProjection
  | _ => False
  end.
(** ... while [h] ticks. *)
Definition about_tick (h : HId) (f : Fact) : Prop :=
  match f with
  | ProjectionCompactionBegun h' | ProjectionCompactionCompleted h' _ => h' = h /\ hid_type h = HTProjection
  | MessageLoggedByProjection h' e _ => h' = h /\ e = None /\ hid_type h = HTProjection
  | _ => False
  end.

(** How a sequence ends: everything is completed; it stops because the context is
    found to be cancelled; it stops because of a panic; it goes on. *)
Inductive Stop := SDone | SCancelled (x : string) | SPanic | SMore.

Section Grammar.
Context (c : Config) (now : Z) (skip : Handler -> option SkipReason).

Definition tagged (h : HId) (err : option Err) : Errs := match err with Some e => [EWrap h e] | None => [] end.

(** A message is offered to one handler: the facts, the new messages, the error. *)
Inductive Offer (env : Env) (h : Handler) : list Fact -> list Env -> option Err -> Prop :=
| Offer_skipped r : skip h = Some r -> Offer env h [HandlingSkipped (h_id h) env r] [] None
| Offer_handled fs err : skip h = None -> Forall (about (h_id h) env) fs ->
    Offer env h (HandlingBegun (h_id h) env :: fs ++ [HandlingCompleted (h_id h) env err])
      (outputs now (h_id h) fs err) err.

(** ... to a list of handlers, one after the other. *)
Inductive Offers (env : Env) : list Handler -> list Fact -> list Env -> Errs -> Prop :=
| Offers_nil : Offers env [] [] [] []
| Offers_cons h hs fs envs err fs' envs' errs :
    Offer env h fs envs err -> Offers env hs fs' envs' errs ->
    Offers env (h :: hs) (fs ++ fs') (envs ++ envs') (tagged (h_id h) err ++ errs).

(** ... until one of them panics. *)
Definition Offers_panic (env : Env) (hs : list Handler) (fs : list Fact) : Prop :=
  exists before h after fs1 envs errs fs2,
    hs = before ++ h :: after /\ Offers env before fs1 envs errs /\ skip h = None /\
    Forall (about (h_id h) env) fs2 /\ fs = fs1 ++ HandlingBegun (h_id h) env :: fs2.

(** The handlers a message is for: those that consume its type, or the one that
    scheduled it. *)
Definition recipients (env : Env) (hs : list Handler) : Prop :=
  match m_kind (e_msg env) with
  | KTimeout => exists og h, e_origin env = Some og /\ h ∈ c_app c /\ h_name h = hid_name (o_handler og) /\ hs = [h]
  | _ => hs = filter (fun h => m_type (e_msg env) ∈ h_consumed h) (c_app c)
  end.

(** The messages [q] are dispatched, and then the messages this produces, and so on:
    the facts and the errors. *)
Inductive Cascade : list Env -> Stop -> list Fact -> Errs -> Prop :=
| Cascade_done : Cascade [] SDone [] []
| Cascade_step env q s hs fs envs errs fs' errs' :
    recipients env hs -> Offers env hs fs envs errs ->
    Cascade (q ++ envs) s fs' errs' ->
    Cascade (env :: q) s (DispatchBegun env :: fs ++ DispatchCompleted env errs :: fs') (errs ++ errs')
| Cascade_cancel env q hs fs envs errs x :
    recipients env hs -> Offers env hs fs envs errs ->
    Cascade (env :: q) (SCancelled x) (DispatchBegun env :: fs ++ [DispatchCompleted env errs]) errs
| Cascade_panic env q hs fs :
    recipients env hs -> Offers_panic env hs fs ->
    Cascade (env :: q) SPanic (DispatchBegun env :: fs) []
| Cascade_more env q : Cascade (env :: q) SMore [] [].

(** The ticks of the handlers, one after the other: the facts and the errors. *)
Inductive Ticks : list Handler -> Stop -> list Fact -> Errs -> Prop :=
| Ticks_done : Ticks [] SDone [] []
| Ticks_skipped h hs s r fs errs : skip h = Some r -> Ticks hs s fs errs ->
    Ticks (h :: hs) s (TickSkipped (h_id h) r :: fs) errs
| Ticks_step h hs s fs err fs' errs :
    skip h = None -> Forall (about_tick (h_id h)) fs -> Ticks hs s fs' errs ->
    Ticks (h :: hs) s (TickBegun (h_id h) :: fs ++ TickCompleted (h_id h) err :: fs') (tagged (h_id h) err ++ errs)
| Ticks_cancel h hs fs err x :
    skip h = None -> Forall (about_tick (h_id h)) fs ->
    Ticks (h :: hs) (SCancelled x) (TickBegun (h_id h) :: fs ++ [TickCompleted (h_id h) err]) (tagged (h_id h) err)
| Ticks_panic h hs fs : skip h = None -> Forall (about_tick (h_id h)) fs ->
    Ticks (h :: hs) SPanic (TickBegun (h_id h) :: fs) [].

(** All facts of a Dispatch, and the result. *)
Definition Dispatch_facts (env : Env) (et : ETypes) (eh : gmap string bool) (fs : list Fact) (r : Out Errs) : Prop :=
  let bg := DispatchCycleBegun env now et eh in
  let fin err := DispatchCycleCompleted env err et eh in
  (exists x, fs = [bg; fin [ECtx x]] /\ r = Ok [ECtx x]) \/
  exists s body errs, Cascade [env] s body errs /\
    match s with
    | SDone => fs = bg :: body ++ [fin errs] /\ r = Ok errs
    | SCancelled x => fs = bg :: body ++ [fin [ECtx x]] /\ r = Ok [ECtx x]
    | SPanic => fs = bg :: body /\ exists v, r = Pan v
    | SMore => fs = bg :: body /\ r = Fuel
    end.

(** The timeouts a Tick starts with, where [taken h] are those of the handler [h]. *)
Definition batch (taken : Handler -> list Env) (order : list Handler) : list Env :=
  concat (taken <$> filter (fun h => skip h = None) order).

(** All facts of a Tick, and the result. *)
Definition Tick_facts (taken : Handler -> list Env) (order : list Handler)
    (et : ETypes) (eh : gmap string bool) (fs : list Fact) (r : Out Errs) : Prop :=
  let bg := TickCycleBegun now et eh in
  let fin err := TickCycleCompleted err et eh in
  (exists x, fs = [bg; fin [ECtx x]] /\ r = Ok [ECtx x]) \/
  (exists x ticks errs, Ticks order (SCancelled x) ticks errs /\
     fs = bg :: ticks ++ [fin [ECtx x]] /\ r = Ok [ECtx x]) \/
  (exists ticks errs v, Ticks order SPanic ticks errs /\ fs = bg :: ticks /\ r = Pan v) \/
  exists ticks errs s body errs',
    Ticks order SDone ticks errs /\ Cascade (batch taken order) s body errs' /\
    match s with
    | SDone => fs = bg :: ticks ++ body ++ [fin (errs ++ errs')] /\ r = Ok (errs ++ errs')
    | SCancelled x => fs = bg :: ticks ++ body ++ [fin (errs ++ [ECtx x])] /\ r = Ok (errs ++ [ECtx x])
    | SPanic => fs = bg :: ticks ++ body /\ exists v, r = Pan v
    | SMore => fs = bg :: ticks ++ body /\ r = Fuel
    end.
End Grammar.

(** The timeouts of [h] that are due. *)
Definition due_timeouts (now : Z) (st : EState) (h : Handler) : list Env :=
  match es_cs st !! h_name h with Some (CSProc ps) => due now (pc_timeouts ps) | _ => [] end.

(** The engine time of an operation. *)
Definition op_time (o : Oracle) (opts : list OOpt) : Z := default (o_wall o) (last_opt current_time opts).
(** The enabled handler types and handlers reported by the facts of a cycle. *)
Definition op_enabled (opts : list OOpt) (et : ETypes) (eh : gmap string bool) : Prop :=
  (forall t, et_get et t = default true (last_opt (by_type t) opts)) /\
  (forall n, eh !! n = last_opt (individually n) opts).

(** The facts and the result of an operation that is not rejected. *)
Definition Op_facts (c : Config) (st : EState) (op : Op) (fs : list Fact) (r : Out Errs) : Prop :=
  match op with
  | OpDispatch o _ m opts => exists env et eh,
      e_msg env = m /\ e_origin env = None /\ e_created env = op_time o opts /\ op_enabled opts et eh /\
      Dispatch_facts c (op_time o opts) (skipped opts) env et eh fs r
  | OpTick o _ order opts => exists et eh, op_enabled opts et eh /\
      Tick_facts c (op_time o opts) (skipped opts) (due_timeouts (op_time o opts) st) order et eh fs r
  | _ => fs = [] /\ r = Ok []
  end.

Definition op_now (op : Op) : Z :=
  match op with OpDispatch o _ _ opts | OpTick o _ _ opts => op_time o opts | _ => 0%Z end.
Definition op_opts (op : Op) : list OOpt :=
  match op with OpDispatch _ _ _ opts | OpTick _ _ _ opts => opts | _ => [] end.

(** The messages an operation starts with: the message passed to Dispatch, in the
    envelope announced by the first fact, or the timeouts that are due. *)
Definition op_start (st : EState) (op : Op) (begun : option Fact) (q : list Env) : Prop :=
  match op with
  | OpDispatch _ _ m _ => exists env now et eh, q = [env] /\ e_msg env = m /\ begun = Some (DispatchCycleBegun env now et eh)
  | OpTick o _ order opts => q = batch (skipped opts) (due_timeouts (op_time o opts) st) order
  | _ => q = []
  end.

Definition is_ctx (e : Err) : Prop := exists x, e = ECtx x.
(** An operation that was not cut short by a panic or by its context. *)
Definition uncancelled (r : Out Errs) : Prop := exists errs, r = Ok errs /\ Forall (fun e => ~ is_ctx e) errs.

(** A call of Dispatch or Tick that was not rejected, and what it did. *)
Definition performs (c : Config) (st : EState) (op : Op) (st' : EState) (fs : list Fact) (r : Out Errs) : Prop :=
  reachable c st /\ op_ok c op /\ run_op c op st = (st', EvFact <$> fs, r) /\ fs <> [].

(** ** Reading the facts of an operation *)

(** The messages dispatched, in order. *)
Definition dispatched (fs : list Fact) : list Env :=
  omap (fun f => match f with DispatchBegun e => Some e | _ => None end) fs.

(** The messages returned by the handlings that completed, in order. *)
Definition returned_step (now : Z) (x : list Fact * list Env) (f : Fact) : list Fact * list Env :=
  match f with
  | HandlingBegun _ _ => ([], x.2)
  | HandlingCompleted h _ err => ([], x.2 ++ outputs now h x.1 err)
  | _ => (x.1 ++ [f], x.2)
  end.
Definition returned (now : Z) (fs : list Fact) : list Env := (foldl (returned_step now) ([], []) fs).2.

(** The errors of handlers, tagged with the handler, in order. *)
Definition handler_errors (fs : list Fact) : Errs :=
  omap (fun f => match f with
                 | HandlingCompleted h _ (Some e) | TickCompleted h (Some e) => Some (EWrap h e)
                 | _ => None end) fs.

(** For each dispatched message, the handlers it was offered to, in order. *)
Definition offered_step (l : list (Env * list HId)) (f : Fact) : list (Env * list HId) :=
  match f with
  | DispatchBegun e => (e, []) :: l
  | HandlingBegun h _ | HandlingSkipped h _ _ =>
    match l with (e, hs) :: l => (e, hs ++ [h]) :: l | [] => [] end
  | _ => l
  end.
Definition offered (fs : list Fact) : list (Env * list HId) := reverse (foldl offered_step [] fs).

(** Each of [hs] is given the message, or skipped, once. *)
Definition served (c : Config) (e : Env) (hs : list HId) : Prop :=
  exists l, recipients c e l /\ hs = h_id <$> l.
(** ... or only the first ones of them, if there is a panic. *)
Definition part_served (c : Config) (e : Env) (hs : list HId) : Prop :=
  exists l, recipients c e l /\ hs `prefix_of` (h_id <$> l).

(** A fact about engaging or skipping a handler agrees with [skip]. *)
Definition engagement (c : Config) (skip : Handler -> option SkipReason) (f : Fact) : Prop :=
  match f with
  | HandlingBegun h _ | HandlingCompleted h _ _ | TickBegun h | TickCompleted h _ =>
    exists hd, hd ∈ c_app c /\ h_id hd = h /\ skip hd = None
  | HandlingSkipped h _ r | TickSkipped h r => exists hd, hd ∈ c_app c /\ h_id hd = h /\ skip hd = Some r
  | _ => True
  end.

End OpSpec.
