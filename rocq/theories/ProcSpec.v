(** * What an observer knows about process instances and timeouts.

    A reading of the facts alone. *)
From Verif Require Export TraceSpec.

Section ProcSpec.
Context {P : Params}.

(** The message being handled by a process instance: the timeouts scheduled so far
    and whether the process will end if the handling completes now. *)
Record PPend := mkPPend { pp_h : HId; pp_i : string; pp_tms : list Env; pp_ended : bool }.

(** - [pv_now]: the engine time of the current operation;
    - [pv_live h i]: instance [i] of [h] exists;
    - [pv_tms h]: the pending timeouts of [h];
    - [pv_due]: the timeouts that became deliverable during the current operation;
    - [pv_sent]: the timeouts dispatched during the current operation;
    - [pv_acc h], [pv_took h], [pv_gone h]: all timeouts of [h] that were ever
      accepted, that ever became deliverable, and that were discarded;
    - [pv_gave h]: all timeouts of [h] that were ever dispatched;
    - [pv_pend]: the handling in progress. *)
Record PView := mkPView {
  pv_now : Z;
  pv_live : HId -> string -> bool;
  pv_tms : HId -> list Env;
  pv_due : list Env; pv_sent : list Env;
  pv_acc : HId -> list Env; pv_took : HId -> list Env; pv_gone : HId -> list Env;
  pv_gave : HId -> list Env;
  pv_pend : option PPend }.

Definition put {A} (f : HId -> A) (h : HId) (a : A) : HId -> A := fun h' => if decide (h' = h) then a else f h'.
Definition put2 {A} (f : HId -> string -> A) (h : HId) (i : string) (a : A) : HId -> string -> A :=
  fun h' i' => if decide (h' = h /\ i' = i) then a else f h' i'.

(** The timeouts of a list that are due, that are not due yet, that belong to an
    instance, and that do not. *)
Definition due (now : Z) (l : list Env) : list Env := filter (fun t => (e_sched t <= now)%Z) l.
Definition later (now : Z) (l : list Env) : list Env := filter (fun t => (now < e_sched t)%Z) l.
Definition instance_of (e : Env) : option string := o_instance <$> e_origin e.
Definition mine (i : string) (l : list Env) : list Env := filter (fun t => instance_of t = Some i) l.
Definition others (i : string) (l : list Env) : list Env := filter (fun t => instance_of t <> Some i) l.

(** A timeout is dispatched: note it with the handler that scheduled it. *)
Definition give (f : HId -> list Env) (e : Env) : HId -> list Env :=
  match e_origin e with
  | Some og => put f (o_handler og) (f (o_handler og) ++ [e])
  | None => f
  end.

Definition set_pend (v : PView) (p : option PPend) : PView :=
  mkPView (pv_now v) (pv_live v) (pv_tms v) (pv_due v) (pv_sent v) (pv_acc v) (pv_took v) (pv_gone v) (pv_gave v) p.

Definition pp_on (h : HId) (i : string) (g : PPend -> PPend) (v : PView) : PView :=
  set_pend v ((fun p => if decide (pp_h p = h /\ pp_i p = i) then g p else p) <$> pv_pend v).

(** The handling of a message by a process instance completes: an ended instance is
    forgotten, with its pending timeouts; otherwise its new timeouts become pending
    or, if they are due already, deliverable. *)
Definition proc_commit (v : PView) (p : PPend) : PView :=
  let h := pp_h p in let i := pp_i p in
  if pp_ended p then
    mkPView (pv_now v) (put2 (pv_live v) h i false) (put (pv_tms v) h (others i (pv_tms v h)))
      (pv_due v) (pv_sent v) (pv_acc v) (pv_took v)
      (put (pv_gone v) h (pv_gone v h ++ mine i (pv_tms v h))) (pv_gave v) None
  else
    mkPView (pv_now v) (put2 (pv_live v) h i true)
      (put (pv_tms v) h (pv_tms v h ++ later (pv_now v) (pp_tms p)))
      (pv_due v ++ due (pv_now v) (pp_tms p)) (pv_sent v)
      (put (pv_acc v) h (pv_acc v h ++ pp_tms p))
      (put (pv_took v) h (pv_took v h ++ due (pv_now v) (pp_tms p)))
      (pv_gone v) (pv_gave v) None.

Definition proc_step (v : PView) (f : Fact) : PView :=
  match f with
  | DispatchCycleBegun _ now _ _ | TickCycleBegun now _ _ =>
    mkPView now (pv_live v) (pv_tms v) [] [] (pv_acc v) (pv_took v) (pv_gone v) (pv_gave v) None
  | TickBegun h =>
    if decide (hid_type h = HTProcess) then
      mkPView (pv_now v) (pv_live v) (put (pv_tms v) h (later (pv_now v) (pv_tms v h)))
        (pv_due v ++ due (pv_now v) (pv_tms v h)) (pv_sent v)
        (pv_acc v) (put (pv_took v) h (pv_took v h ++ due (pv_now v) (pv_tms v h))) (pv_gone v) (pv_gave v) (pv_pend v)
    else v
  | DispatchBegun e =>
    match m_kind (e_msg e) with
    | KTimeout => mkPView (pv_now v) (pv_live v) (pv_tms v) (pv_due v) (pv_sent v ++ [e])
                    (pv_acc v) (pv_took v) (pv_gone v) (give (pv_gave v) e) (pv_pend v)
    | _ => v
    end
  | HandlingBegun _ _ => set_pend v None
  | ProcessInstanceLoaded h i _ _ | ProcessInstanceBegun h i _ _ => set_pend v (Some (mkPPend h i [] false))
  | ProcessInstanceEnded h i _ _ => pp_on h i (fun p => mkPPend h i (pp_tms p) true) v
  | ProcessInstanceEndingReverted h i _ _ | CommandExecutedByProcess h i _ _ _ =>
    pp_on h i (fun p => mkPPend h i (pp_tms p) false) v
  | TimeoutScheduledByProcess h i _ _ t => pp_on h i (fun p => mkPPend h i (pp_tms p ++ [t]) false) v
  | HandlingCompleted h _ None =>
    match pv_pend v with
    | Some p => if decide (pp_h p = h) then proc_commit v p else set_pend v None
    | None => v
    end
  | HandlingCompleted _ _ (Some _) => set_pend v None
  | _ => v
  end.

Definition proc_view (fs : list Fact) : PView :=
  foldl proc_step (mkPView 0 (fun _ _ => false) (fun _ => []) [] [] (fun _ => []) (fun _ => []) (fun _ => []) (fun _ => []) None) fs.

(** [live fs h i]: the facts say that instance [i] of the process [h] exists.
    [pending_timeouts fs h]: its pending timeouts. *)
Definition live (fs : list Fact) : HId -> string -> bool := pv_live (proc_view fs).
Definition pending_timeouts (fs : list Fact) : HId -> list Env := pv_tms (proc_view fs).

(** A new call to Dispatch or Tick begins. *)
Definition cycle_begins (f : Fact) : Prop :=
  match f with DispatchCycleBegun _ _ _ _ | TickCycleBegun _ _ _ => True | _ => False end.

(** [pi] is the process handler called [h] in the application. *)
Definition process_of (c : Config) (h : HId) (pi : ProcImpl) : Prop :=
  exists hd, hd ∈ c_app c /\ h_id hd = h /\ h_impl hd = ImplProc pi.

(** Ordered by due time. *)
Definition chronological (l : list Env) : Prop := StronglySorted (fun a b => (e_sched a <= e_sched b)%Z) l.

(** A handler that makes no scope call which reverts the ending. *)
Inductive no_output : PProg -> Prop :=
| no_ret e : no_output (PRet e)
| no_panic v : no_output (PPanic v)
| no_act f k : (forall u, no_output (k u)) -> no_output (PAct f k)
| no_mutate f k : (forall r, no_output (k r)) -> no_output (PMutate f k)
| no_end k : no_output k -> no_output (PEnd k)
| no_log s k : no_output k -> no_output (PLog s k).

(** Whatever happens, if the method returns nil then it has called End after its
    last call of ExecuteCommand or ScheduleTimeout. *)
Inductive ends_ending : PProg -> Prop :=
| ee_panic v : ends_ending (PPanic v)
| ee_err e : ends_ending (PRet (Some e))
| ee_act f k : (forall u, ends_ending (k u)) -> ends_ending (PAct f k)
| ee_mutate f k : (forall r, ends_ending (k r)) -> ends_ending (PMutate f k)
| ee_execute b k : (forall v, ends_ending (k v)) -> ends_ending (PExecute b k)
| ee_schedule b t k : (forall v, ends_ending (k v)) -> ends_ending (PSchedule b t k)
| ee_end k : ends_ending k -> ends_ending (PEnd k)
| ee_log s k : ends_ending k -> ends_ending (PLog s k)
| ee_last k : no_output k -> ends_ending (PEnd k).

(** A handler that does not call End. *)
Inductive no_ending : PProg -> Prop :=
| ne_ret e : no_ending (PRet e)
| ne_panic v : no_ending (PPanic v)
| ne_act f k : (forall u, no_ending (k u)) -> no_ending (PAct f k)
| ne_mutate f k : (forall r, no_ending (k r)) -> no_ending (PMutate f k)
| ne_execute b k : (forall v, no_ending (k v)) -> no_ending (PExecute b k)
| ne_schedule b t k : (forall v, no_ending (k v)) -> no_ending (PSchedule b t k)
| ne_log s k : no_ending k -> no_ending (PLog s k).

(** Whatever happens, if the method returns nil then either it never calls End or
    its last call of End is followed by a successful ExecuteCommand or
    ScheduleTimeout. *)
Inductive ends_continuing : PProg -> Prop :=
| ec_never p : no_ending p -> ends_continuing p
| ec_err e : ends_continuing (PRet (Some e))
| ec_act f k : (forall u, ends_continuing (k u)) -> ends_continuing (PAct f k)
| ec_mutate f k : (forall r, ends_continuing (k r)) -> ends_continuing (PMutate f k)
| ec_execute b k : (forall v, ends_continuing (k v)) -> ends_continuing (PExecute b k)
| ec_schedule b t k : (forall v, ends_continuing (k v)) -> ends_continuing (PSchedule b t k)
| ec_end k : continues k -> ends_continuing (PEnd k)
| ec_log s k : ends_continuing k -> ends_continuing (PLog s k)
(** ... having just called End. *)
with continues : PProg -> Prop :=
| cn_panic v : continues (PPanic v)
| cn_err e : continues (PRet (Some e))
| cn_act f k : (forall u, continues (k u)) -> continues (PAct f k)
| cn_mutate f k : (forall r, continues (k r)) -> continues (PMutate f k)
| cn_execute b k : ends_continuing (k None) -> (forall v, continues (k (Some v))) -> continues (PExecute b k)
| cn_schedule b t k : ends_continuing (k None) -> (forall v, continues (k (Some v))) -> continues (PSchedule b t k)
| cn_end k : continues k -> continues (PEnd k)
| cn_log s k : continues k -> continues (PLog s k).

(** The method of a process that is given the message [env] for instance [i]. *)
Definition method_of (pi : ProcImpl) (env : Env) (i : string) : PProg :=
  match m_kind (e_msg env) with
  | KTimeout => pr_timeout pi i (e_sched env) (e_msg env)
  | _ => pr_event pi i (e_created env) (e_msg env)
  end.

(** [Leaves p r r' res]: given the root [r], the method [p] can leave it as [r'] and
    return or panic with [res]; scope calls and the user's world may answer
    anything. *)
Inductive Leaves : PProg -> Root -> Root -> option Err + PVal -> Prop :=
| lv_ret e r : Leaves (PRet e) r r (inl e)
| lv_panic v r : Leaves (PPanic v) r r (inr v)
| lv_act f k u r r' res : Leaves (k u) r r' res -> Leaves (PAct f k) r r' res
| lv_mutate f k r r' res : Leaves (k (f r)) (f r) r' res -> Leaves (PMutate f k) r r' res
| lv_execute b k v r r' res : Leaves (k v) r r' res -> Leaves (PExecute b k) r r' res
| lv_schedule b t k v r r' res : Leaves (k v) r r' res -> Leaves (PSchedule b t k) r r' res
| lv_end k r r' res : Leaves k r r' res -> Leaves (PEnd k) r r' res
| lv_log s k r r' res : Leaves k r r' res -> Leaves (PLog s k) r r' res.

(** A method that does not change the root. *)
Inductive leaves_root : PProg -> Prop :=
| lr_ret e : leaves_root (PRet e)
| lr_panic v : leaves_root (PPanic v)
| lr_act f k : (forall u, leaves_root (k u)) -> leaves_root (PAct f k)
| lr_mutate f k : (forall r, f r = r) -> (forall r, leaves_root (k r)) -> leaves_root (PMutate f k)
| lr_execute b k : (forall v, leaves_root (k v)) -> leaves_root (PExecute b k)
| lr_schedule b t k : (forall v, leaves_root (k v)) -> leaves_root (PSchedule b t k)
| lr_end k : leaves_root k -> leaves_root (PEnd k)
| lr_log s k : leaves_root k -> leaves_root (PLog s k).

(** Instance [i] of [h] is found or begun, with root [r], to handle [env]. *)
Definition engaged (h : HId) (i : string) (r : Root) (env : Env) (fs : list Fact) : Prop :=
  ProcessInstanceLoaded h i r env ∈ fs \/ ProcessInstanceBegun h i (Some r) env ∈ fs.
End ProcSpec.
