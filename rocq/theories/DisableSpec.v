(** * Specification: a disabled handler might as well be absent

    What an application, the options, the operations and the facts look like
    without the handler named [n]. *)
From Verif Require Export TraceSpec OpSpec.

Section Spec.
Context {P : Params}.

(** The application, except the handler named [n]. *)
Definition without (n : string) (c : Config) : Config :=
  mkConfig (filter (fun h => h_name h <> n) (c_app c)) (c_compact c) (c_resetters c).

(** The options that do not name it (EnableHandler panics when no handler has
    the name). *)
Definition opts_without (n : string) (opts : list OOpt) : list OOpt :=
  List.filter (fun opt => match opt with OptHandler n' _ => negb (bool_decide (n' = n)) | _ => true end) opts.

(** The same operation on an application that lacks it. *)
Definition op_without (n : string) (op : Op) : Op :=
  match op with
  | OpDispatch o fuel m opts => OpDispatch o fuel m (opts_without n opts)
  | OpTick o fuel order opts => OpTick o fuel (filter (fun h => h_name h <> n) order) (opts_without n opts)
  | _ => op
  end.

(** The facts, except those that say that [n] was skipped; the facts that list the
    handlers enabled or disabled by name no longer list [n]. *)
Definition fact_without (n : string) (f : Fact) : option Fact :=
  match f with
  | HandlingSkipped h _ _ | TickSkipped h _ => if decide (hid_name h = n) then None else Some f
  | DispatchCycleBegun e now et eh => Some (DispatchCycleBegun e now et (delete n eh))
  | DispatchCycleCompleted e err et eh => Some (DispatchCycleCompleted e err et (delete n eh))
  | TickCycleBegun now et eh => Some (TickCycleBegun now et (delete n eh))
  | TickCycleCompleted err et eh => Some (TickCycleCompleted err et (delete n eh))
  | _ => Some f
  end.
Definition evs_without (n : string) (evs : list Ev) : list Ev :=
  omap (fun ev => match ev with EvFact f => EvFact <$> fact_without n f | EvReset => Some EvReset end) evs.

(** The state of the engine, except what it keeps for [n]. *)
Definition state_without (n : string) (st : EState) : EState := mkE (es_g st) (delete n (es_cs st)).

(** The handler named [n] is disabled during the operation, for whatever reason;
    and the message is not one that only [n] consumes. *)
Definition disabled_during (c : Config) (n : string) (op : Op) : Prop :=
  match op with
  | OpDispatch _ _ m opts =>
    (forall h, h ∈ c_app c -> h_name h = n -> skipped opts h <> None) /\
    ((exists h, h ∈ c_app c /\ m_type m ∈ h_consumed h) ->
     exists h, h ∈ c_app c /\ h_name h <> n /\ m_type m ∈ h_consumed h)
  | OpTick _ _ _ opts => forall h, h ∈ c_app c -> h_name h = n -> skipped opts h <> None
  | _ => True
  end.

End Spec.
