(** * Vocabulary for what operations do to the stores, and for panics. *)
From Verif Require Export OpSpec.

Section EngineSpec.
Context {P : Params}.

(** ** Isolation *)

(** The handler and the instance a fact is about. *)
Definition instance_named (f : Fact) : option (HId * string) :=
  match f with
  | AggregateInstanceLoaded h i _ _ | AggregateInstanceNotFound h i _ | AggregateInstanceCreated h i _ _
  | AggregateInstanceDestroyed h i _ _ | AggregateInstanceDestructionReverted h i _ _
  | EventRecordedByAggregate h i _ _ _ | MessageLoggedByAggregate h i _ _ _
  | ProcessInstanceLoaded h i _ _ | ProcessTimeoutIgnored h i _
  | ProcessInstanceNotFound h i _ | ProcessInstanceBegun h i _ _ | ProcessInstanceEnded h i _ _
  | ProcessInstanceEndingReverted h i _ _ | CommandExecutedByProcess h i _ _ _
  | TimeoutScheduledByProcess h i _ _ _ | MessageLoggedByProcess h i _ _ _ => Some (h, i)
  | _ => None
  end.
(** No fact is about instance [i] of [h]. *)
Definition not_named (h : HId) (i : string) (fs : list Fact) : Prop :=
  forall f, f ∈ fs -> instance_named f <> Some (h, i).

(** What is stored about instance [i] is the same in [cs] and [cs']: the events of
    an aggregate, the root and the pending timeouts of a process. *)
Definition untouched (i : string) (cs cs' : option CState) : Prop :=
  match cs, cs' with
  | Some (CSAgg hist), Some (CSAgg hist') => hist' !! i = hist !! i
  | Some (CSProc ps), Some (CSProc ps') =>
    pc_instances ps' !! i = pc_instances ps !! i /\ mine i (pc_timeouts ps') ≡ₚ mine i (pc_timeouts ps)
  | Some CSInt, Some CSInt => True
  | Some (CSProj l), Some (CSProj l') => l' = l
  | None, None => True
  | _, _ => False
  end.

(** As [untouched], but timeouts that are due at [now] may be gone, and projections may have
    been compacted. *)
Definition untouched_but_due (now : Z) (i : string) (cs cs' : option CState) : Prop :=
  match cs, cs' with
  | Some (CSProc ps), Some (CSProc ps') =>
    pc_instances ps' !! i = pc_instances ps !! i /\
    exists gone, mine i (pc_timeouts ps) ≡ₚ gone ++ mine i (pc_timeouts ps') /\ Forall (fun t => (e_sched t <= now)%Z) gone
  | Some (CSProj _), Some (CSProj _) => True
  | _, _ => untouched i cs cs'
  end.

(** ** Rejected calls *)

Definition unknown_handler (c : Config) (opts : list OOpt) : Prop :=
  exists n b, OptHandler n b ∈ opts /\ forall h, h ∈ c_app c -> h_name h <> n.
Definition rejected (c : Config) (m : Msg) (opts : list OOpt) : Prop :=
  m_kind m = KTimeout \/ (exists e, m_invalid m = Some e) \/
  (forall h, h ∈ c_app c -> m_type m ∉ h_consumed h) \/ unknown_handler c opts.

(** ** Integrations *)
Definition recorded_by_integrations (fs : list Fact) : list Env :=
  omap (fun f => match f with EventRecordedByIntegration _ _ ev => Some ev | _ => None end) fs.

(** ** Panics *)

(** The value a panic [v] of a method that was given [m] has when it leaves the
    engine. *)
Definition enriched (h : HId) (iface meth : string) (m : Msg) (v : PVal) : PVal :=
  match v with PRaw => PUnexpMsg h iface meth m | _ => v end.

(** A method of a projection that never panics with dogma.UnexpectedMessage. *)
Inductive never_raw {A} : JProg A -> Prop :=
| nr_ret a : never_raw (JRet a)
| nr_panic v : v <> PRaw -> never_raw (JPanic v)
| nr_act f k : (forall u, never_raw (k u)) -> never_raw (JAct f k)
| nr_log s k : never_raw k -> never_raw (JLog s k).
(** The methods that are not given a message do not panic with it. *)
Definition no_raw_without_message (c : Config) : Prop :=
  forall h j, h ∈ c_app c -> h_impl h = ImplProj j ->
    (forall id u u' v, pj_version j id u = (u', inr v) -> v <> PRaw) /\
    (forall id u u' v, pj_close j id u = (u', inr v) -> v <> PRaw) /\
    (forall now, never_raw (pj_compact j now)).

(** ** Observers *)

(** fact.ObserverGroup.Notify, fact/observer.go:12-19, with observers that record
    what they are notified of, and who they are. *)
Definition notify (obs : list nat) (log : list (nat * Fact)) (f : Fact) : list (nat * Fact) :=
  foldl (fun log n => log ++ [(n, f)]) log obs.
(** The notifications of an operation: Notify is called for each fact in turn. *)
Definition notify_all (obs : list nat) (fs : list Fact) : list (nat * Fact) := foldl (notify obs) [] fs.
(** The observers registered by the options of an operation, in order. *)
Definition observers (opts : list OOpt) : list nat :=
  omap (fun opt => match opt with OptObserver n => Some n | _ => None end) opts.
End EngineSpec.
