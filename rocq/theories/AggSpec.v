(** * What an observer knows about aggregate instances.

    A reading of the facts alone: which events belong to each instance, counting
    only commands whose handling completed. *)
From Verif Require Export TraceSpec.

Section AggSpec.
Context {P : Params}.

(** The command being handled by an aggregate: the events the instance will have
    and whether it will exist if the handling completes now; the events it recorded
    since Destroy() last took effect in this command ([None] if it did not). *)
Record APend := mkAPend {
  ap_h : HId; ap_i : string; ap_events : list Env; ap_exists : bool; ap_since : option (list Env) }.

(** [av_stored h i]: the events of instance [i] of handler [h], [None] if there is
    no such instance. *)
Record AView := mkAView {
  av_stored : HId -> string -> option (list Env); av_pend : option APend }.

Definition av_put (st : HId -> string -> option (list Env)) (h : HId) (i : string) (v : option (list Env))
  : HId -> string -> option (list Env) :=
  fun h' i' => if decide (h' = h /\ i' = i) then v else st h' i'.

(** Apply [g] to the command in progress if it is one for instance [i] of [h]. *)
Definition ap_on (h : HId) (i : string) (g : APend -> APend) (v : AView) : AView :=
  mkAView (av_stored v)
    ((fun p => if decide (ap_h p = h /\ ap_i p = i) then g p else p) <$> av_pend v).

Definition agg_step (v : AView) (f : Fact) : AView :=
  match f with
  | AggregateInstanceLoaded h i _ _ =>
    mkAView (av_stored v) (Some (mkAPend h i (default [] (av_stored v h i)) true None))
  | AggregateInstanceNotFound h i _ =>
    mkAView (av_stored v) (Some (mkAPend h i [] false None))
  | AggregateInstanceCreated h i _ _ | AggregateInstanceDestructionReverted h i _ _ =>
    ap_on h i (fun p => mkAPend h i (ap_events p) true (ap_since p)) v
  | AggregateInstanceDestroyed h i _ _ =>
    ap_on h i (fun p => mkAPend h i (ap_events p) false (Some [])) v
  | EventRecordedByAggregate h i _ _ ev =>
    ap_on h i (fun p => mkAPend h i (ap_events p ++ [ev]) true ((.++ [ev]) <$> ap_since p)) v
  | HandlingCompleted h _ None =>
    mkAView match av_pend v with
            | None => av_stored v
            | Some p =>
              if decide (ap_h p = h)
              then av_put (av_stored v) h (ap_i p) (if ap_exists p then Some (ap_events p) else None)
              else av_stored v
            end None
  | HandlingCompleted _ _ (Some _) | HandlingBegun _ _ | DispatchCycleBegun _ _ _ _ | TickCycleBegun _ _ _ =>
    mkAView (av_stored v) None
  | _ => v
  end.

Definition agg_view (fs : list Fact) : AView := foldl agg_step (mkAView (fun _ _ => None) None) fs.

(** The events of an instance, as recorded by successfully completed commands. *)
Definition stored (fs : list Fact) : HId -> string -> option (list Env) := av_stored (agg_view fs).
(** The command in progress. *)
Definition pending_cmd (fs : list Fact) : option APend := av_pend (agg_view fs).

(** Applying events to a root, none of which makes ApplyEvent panic. *)
Inductive Replay (a : AggImpl) : Root -> list Env -> Root -> Prop :=
| Replay_nil r : Replay a r [] r
| Replay_cons r ev r1 evs r2 :
    ag_apply a r (e_msg ev) = (r1, None) -> Replay a r1 evs r2 -> Replay a r (ev :: evs) r2.

(** [a] is the aggregate handler called [h] in the application. *)
Definition aggregate_of (c : Config) (h : HId) (a : AggImpl) : Prop :=
  exists hd, hd ∈ c_app c /\ h_id hd = h /\ h_impl hd = ImplAgg a.

(** A handler that does not recover from panics raised by RecordEvent. *)
Inductive no_recover : AProg -> Prop :=
| nr_ret : no_recover ARet
| nr_panic v : no_recover (APanic v)
| nr_act f k : (forall u, no_recover (k u)) -> no_recover (AAct f k)
| nr_mutate f k : (forall r, no_recover (k r)) -> no_recover (AMutate f k)
| nr_record b k : no_recover (k None) -> (forall v, k (Some v) = APanic v) -> no_recover (ARecord b k)
| nr_destroy k : no_recover k -> no_recover (ADestroy k)
| nr_log s k : no_recover k -> no_recover (ALog s k).

(** A handler that changes the root through RecordEvent only. *)
Inductive no_mutation : AProg -> Prop :=
| nm_ret : no_mutation ARet
| nm_panic v : no_mutation (APanic v)
| nm_act f k : (forall u, no_mutation (k u)) -> no_mutation (AAct f k)
| nm_read f k : (forall r, f r = r) -> (forall r, no_mutation (k r)) -> no_mutation (AMutate f k)
| nm_record b k : (forall v, no_mutation (k v)) -> no_mutation (ARecord b k)
| nm_destroy k : no_mutation k -> no_mutation (ADestroy k)
| nm_log s k : no_mutation k -> no_mutation (ALog s k).

(** The root a fact about an aggregate instance reports. *)
Definition reported_root (f : Fact) : option (HId * Root) :=
  match f with
  | AggregateInstanceLoaded h _ r _ | AggregateInstanceCreated h _ r _
  | AggregateInstanceDestroyed h _ r _ | AggregateInstanceDestructionReverted h _ r _
  | EventRecordedByAggregate h _ r _ _ | MessageLoggedByAggregate h _ r _ _ => Some (h, r)
  | _ => None
  end.

(** The instance whose scope notified a fact. *)
Definition scope_instance (f : Fact) : option (HId * string) :=
  match f with
  | AggregateInstanceCreated h i _ _ | AggregateInstanceDestroyed h i _ _
  | AggregateInstanceDestructionReverted h i _ _
  | EventRecordedByAggregate h i _ _ _ | MessageLoggedByAggregate h i _ _ _ => Some (h, i)
  | _ => None
  end.

(** The first fact of a command handled by instance [i] of [h]: the root that was
    loaded, or [None]. *)
Definition fetched (h : HId) (i : string) (f : Fact) : option (option Root) :=
  match f with
  | AggregateInstanceLoaded h' i' r _ => if decide (h' = h /\ i' = i) then Some (Some r) else None
  | AggregateInstanceNotFound h' i' _ => if decide (h' = h /\ i' = i) then Some None else None
  | _ => None
  end.

(** Whether instance [i] of [h] exists after the facts of a command, given that it
    did ([b]) before. *)
Definition exists_step (h : HId) (i : string) (b : bool) (f : Fact) : bool :=
  match f with
  | AggregateInstanceCreated h' i' _ _ | AggregateInstanceDestructionReverted h' i' _ _
  | EventRecordedByAggregate h' i' _ _ _ => if decide (h' = h /\ i' = i) then true else b
  | AggregateInstanceDestroyed h' i' _ _ => if decide (h' = h /\ i' = i) then false else b
  | _ => b
  end.
Definition exists_after (h : HId) (i : string) (b : bool) (fs : list Fact) : bool := foldl (exists_step h i) b fs.

(** The events recorded by instance [i] of [h] in a sequence of facts. *)
Definition recorded_by (h : HId) (i : string) (fs : list Fact) : list Env :=
  omap (fun f => match f with
                 | EventRecordedByAggregate h' i' _ _ ev => if decide (h' = h /\ i' = i) then Some ev else None
                 | _ => None
                 end) fs.

(** A handler after whose last RecordEvent there is no more RecordEvent. *)
Inductive no_record : AProg -> Prop :=
| nc_ret : no_record ARet
| nc_panic v : no_record (APanic v)
| nc_act f k : (forall u, no_record (k u)) -> no_record (AAct f k)
| nc_mutate f k : (forall r, no_record (k r)) -> no_record (AMutate f k)
| nc_destroy k : no_record k -> no_record (ADestroy k)
| nc_log s k : no_record k -> no_record (ALog s k).

(** Whatever happens, if HandleCommand returns then it has called Destroy after
    its last call of RecordEvent. *)
Inductive ends_destroying : AProg -> Prop :=
| ed_panic v : ends_destroying (APanic v)
| ed_act f k : (forall u, ends_destroying (k u)) -> ends_destroying (AAct f k)
| ed_mutate f k : (forall r, ends_destroying (k r)) -> ends_destroying (AMutate f k)
| ed_record b k : (forall v, ends_destroying (k v)) -> ends_destroying (ARecord b k)
| ed_destroy k : ends_destroying k -> ends_destroying (ADestroy k)
| ed_log s k : ends_destroying k -> ends_destroying (ALog s k)
| ed_last k : no_record k -> ends_destroying (ADestroy k).

(** A handler that does not call Destroy. *)
Inductive no_destroy : AProg -> Prop :=
| nd_ret : no_destroy ARet
| nd_panic v : no_destroy (APanic v)
| nd_act f k : (forall u, no_destroy (k u)) -> no_destroy (AAct f k)
| nd_mutate f k : (forall r, no_destroy (k r)) -> no_destroy (AMutate f k)
| nd_record b k : (forall v, no_destroy (k v)) -> no_destroy (ARecord b k)
| nd_log s k : no_destroy k -> no_destroy (ALog s k).

(** Whatever happens, if HandleCommand returns then the last of its calls of
    RecordEvent and Destroy is a RecordEvent. *)
Inductive ends_recording : AProg -> Prop :=
| er_panic v : ends_recording (APanic v)
| er_act f k : (forall u, ends_recording (k u)) -> ends_recording (AAct f k)
| er_mutate f k : (forall r, ends_recording (k r)) -> ends_recording (AMutate f k)
| er_record b k : (forall v, ends_recording (k v)) -> ends_recording (ARecord b k)
| er_destroy k : ends_recording k -> ends_recording (ADestroy k)
| er_log s k : ends_recording k -> ends_recording (ALog s k)
| er_last b k : no_destroy (k None) -> (forall v, k (Some v) = APanic v) -> ends_recording (ARecord b k).

(** No handling begins or ends in these facts. *)
Definition one_handling (fs : list Fact) : Prop :=
  forall f, f ∈ fs ->
    match f with
    | HandlingBegun _ _ | HandlingCompleted _ _ _ | DispatchCycleBegun _ _ _ _ | TickCycleBegun _ _ _
    | AggregateInstanceLoaded _ _ _ _ | AggregateInstanceNotFound _ _ _ => False
    | _ => True
    end.
End AggSpec.
