(** * Vocabulary for ticks at which there is nothing to do. *)
From Verif Require Export EngineSpec ProjSpec.

Section IdleSpec.
Context {P : Params}.

(** At time [now] no timeout of the process is due, and the projection was compacted less than
    an hour ago. *)
Definition nothing_due (now : Z) (cs : option CState) : Prop :=
  match cs with
  | Some (CSProc ps) => forall t, t ∈ pc_timeouts ps -> (now < e_sched t)%Z
  | Some (CSProj last) => (now - last < hour)%Z
  | _ => True
  end.
(** That is so of every handler that is not skipped. *)
Definition idle (c : Config) (now : Z) (skip : Handler -> option SkipReason) (st : EState) : Prop :=
  forall h, h ∈ c_app c -> skip h = None -> nothing_due now (es_cs st !! h_name h).

(** The operation is not performed at a time before [t]. *)
Definition not_before (t : Z) (op : Op) : Prop :=
  match op with OpDispatch _ _ _ _ | OpTick _ _ _ _ => (t <= op_now op)%Z | _ => True end.

(** Nothing but the number of times that the context was consulted, which only grows, is
    different. *)
Definition unchanged (st st' : EState) : Prop :=
  es_cs st' = es_cs st /\ g_next (es_g st') = g_next (es_g st) /\ g_user (es_g st') = g_user (es_g st) /\
  g_step (es_g st) <= g_step (es_g st').

(** The operation with its context, its lock, other goroutines and the scheduler behaving as
    they would if [n] more questions had been asked of them before. *)
Definition asked_later (n : nat) (o : Oracle) : Oracle :=
  mkOracle (fun k => o_ctx o (k + n)) (fun k => o_lock o (k + n)) (fun k => o_skew o (k + n)) (fun k => o_sched o (k + n)) (o_sort o) (o_wall o).
Definition op_asked_later (n : nat) (op : Op) : Op :=
  match op with
  | OpDispatch o fuel m opts => OpDispatch (asked_later n o) fuel m opts
  | OpTick o fuel order opts => OpTick (asked_later n o) fuel order opts
  | _ => op
  end.

(** Every handler is ticked or skipped, and nothing else. *)
Definition uneventful (skip : Handler -> option SkipReason) (order : list Handler) : list Fact :=
  concat ((fun h => match skip h with
                    | Some r => [TickSkipped (h_id h) r]
                    | None => [TickBegun (h_id h); TickCompleted (h_id h) None]
                    end) <$> order).
End IdleSpec.
