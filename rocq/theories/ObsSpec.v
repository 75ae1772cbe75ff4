(** * Vocabulary for engines whose observers may panic *)
From Verif Require Export ObsModel AggSpec ProcSpec.

Section ObsSpec.
Context {P : Params}.

(** ** Applications as in the other files *)

(** A handler that does not recover the panics of Destroy, End and Log, which the
    programs of HandlerModel.v cannot express. *)
Fixpoint lift_a (p : AProg) : XAProg :=
  match p with
  | ARet => XARet
  | APanic v => XAPanic v
  | AAct f k => XAAct f (fun u => lift_a (k u))
  | AMutate f k => XAMutate f (fun r => lift_a (k r))
  | ARecord b k => XARecord b (fun v => lift_a (k v))
  | ADestroy k => XADestroy (fun v => match v with None => lift_a k | Some v => XAPanic v end)
  | ALog s k => XALog s (fun v => match v with None => lift_a k | Some v => XAPanic v end)
  end.
Fixpoint lift_p (p : PProg) : XPProg :=
  match p with
  | PRet e => XPRet e
  | PPanic v => XPPanic v
  | PAct f k => XPAct f (fun u => lift_p (k u))
  | PMutate f k => XPMutate f (fun r => lift_p (k r))
  | PExecute b k => XPExecute b (fun v => lift_p (k v))
  | PSchedule b t k => XPSchedule b t (fun v => lift_p (k v))
  | PEnd k => XPEnd (fun v => match v with None => lift_p k | Some v => XPPanic v end)
  | PLog s k => XPLog s (fun v => match v with None => lift_p k | Some v => XPPanic v end)
  end.
Fixpoint lift_i (p : IProg) : XIProg :=
  match p with
  | IRet e => XIRet e
  | IPanic v => XIPanic v
  | IAct f k => XIAct f (fun u => lift_i (k u))
  | IRecord b k => XIRecord b (fun v => lift_i (k v))
  | ILog s k => XILog s (fun v => match v with None => lift_i k | Some v => XIPanic v end)
  end.
Fixpoint lift_j {A} (p : JProg A) : XJProg A :=
  match p with
  | JRet a => XJRet a
  | JPanic v => XJPanic v
  | JAct f k => XJAct f (fun u => lift_j (k u))
  | JLog s k => XJLog s (fun v => match v with None => lift_j k | Some v => XJPanic v end)
  end.

Definition impl_of (c : Config) (name : string) : option Impl := h_impl <$> controllers c !! name.

(** The application [c], used with the observers [obs]. *)
Definition plain (c : Config) (obs : nat -> Observer) : XApp := mkXApp c obs
  (fun h i m => match impl_of c h with Some (ImplAgg a) => lift_a (ag_handle a i m) | _ => XARet end)
  (fun h i t m => match impl_of c h with Some (ImplProc p) => lift_p (pr_event p i t m) | _ => XPRet None end)
  (fun h i t m => match impl_of c h with Some (ImplProc p) => lift_p (pr_timeout p i t m) | _ => XPRet None end)
  (fun h m => match impl_of c h with Some (ImplInt i) => lift_i (in_handle i m) | _ => XIRet None end)
  (fun h r c0 n t m => match impl_of c h with
                       | Some (ImplProj j) => lift_j (pj_handle j r c0 n t m)
                       | _ => XJRet (false, None)
                       end)
  (fun h now => match impl_of c h with
                | Some (ImplProj j) => lift_j (pj_compact j now)
                | _ => XJRet None
                end)
  (map (fun f u => (f u, None)) (c_resetters c)).

(** An observer that leaves the user's world alone and does not panic. *)
Definition quiet (ob : Observer) : Prop := forall f u, ob f u = (u, None).

(** The observers an operation is given. *)
Definition given (opts : list OOpt) : list nat :=
  omap (fun opt => match opt with OptObserver n => Some n | _ => None end) opts.


(** ** Histories *)

(** A client performs operations on a new engine of a well-formed application, and
    goes on after those that panic; [evs] is what happens and [rs] what becomes of
    the operations. *)
Definition xhistory (x : XApp) (u : U) (ops : list Op) (s : EState * bool) (evs : list XEv)
    (rs : list (XRes + PVal)) : Prop :=
  app_ok (x_cfg x) /\ Forall (op_ok (x_cfg x)) ops /\ xrun_ops x ops (e_init (x_cfg x) u, false) = (s, evs, rs).

(** The notifications since the last call of Reset. *)
Definition seen_step (l : list Seen) (ev : XEv) : list Seen :=
  match ev with XSeen s => l ++ [s] | XReset => [] end.
Definition seen_since (evs : list XEv) : list Seen := foldl seen_step [] evs.

(** [s] happens just after [pre] (counting from the last Reset). *)
Definition happens (evs : list XEv) (pre : list Seen) (s : Seen) : Prop :=
  exists before after, evs = before ++ XSeen s :: after /\ pre = seen_since before.

(** The facts whose notification comes before what they announce: a panic of an
    observer keeps it from happening.  All others are notified afterwards. *)
Definition announces (f : Fact) : bool :=
  match f with
  | AggregateInstanceCreated _ _ _ _ | AggregateInstanceDestructionReverted _ _ _ _
  | ProcessInstanceEndingReverted _ _ _ _ | TickBegun _ => true
  | _ => false
  end.

(** The facts that are true: all but the announcements of which a notification
    failed. *)
Definition effective (l : list Seen) : list Fact :=
  omap (fun s => match sn_panic s with
                 | Some _ => if announces (sn_fact s) then None else Some (sn_fact s)
                 | None => Some (sn_fact s)
                 end) l.

(** What became of an operation, in the terms of EngineModel.v. *)
Definition plain_result (r : Out Errs) : XRes + PVal :=
  match r with
  | Ok err => inl (RDone err)
  | Pan v => inr v
  | Fuel => inl RRunning
  end.

(** The history as the other files describe it: without what became of the
    notifications. *)
Definition xfact (e : XEv) : Ev := match e with XSeen s => EvFact (sn_fact s) | XReset => EvReset end.

(** ** Observers *)

(** The observers an operation is given, in the order of the options, and how many
    there are. *)
Definition op_given (op : Op) : list nat :=
  match op with OpDispatch _ _ _ opts | OpTick _ _ _ opts => given opts | _ => [] end.
Definition op_observers (op : Op) : nat := length (op_given op).

(** The notifications among the events. *)
Definition notes (evs : list XEv) : list Seen :=
  omap (fun ev => match ev with XSeen s => Some s | XReset => None end) evs.

(** The facts an operation's observer number [i] is notified of. *)
Definition view_of (i : nat) (l : list Seen) : list Fact :=
  omap (fun s => if decide (i < sn_to s) then Some (sn_fact s) else None) l.

(** ** Handlers that let panics through *)
Inductive lets_a : XAProg -> Prop :=
| la_ret : lets_a XARet
| la_panic v : lets_a (XAPanic v)
| la_act f k : (forall u, lets_a (k u)) -> lets_a (XAAct f k)
| la_mutate f k : (forall r, lets_a (k r)) -> lets_a (XAMutate f k)
| la_record b k : lets_a (k None) -> (forall v, k (Some v) = XAPanic v) -> lets_a (XARecord b k)
| la_destroy k : lets_a (k None) -> (forall v, k (Some v) = XAPanic v) -> lets_a (XADestroy k)
| la_log s k : lets_a (k None) -> (forall v, k (Some v) = XAPanic v) -> lets_a (XALog s k).
Inductive lets_p : XPProg -> Prop :=
| lp_ret e : lets_p (XPRet e)
| lp_panic v : lets_p (XPPanic v)
| lp_act f k : (forall u, lets_p (k u)) -> lets_p (XPAct f k)
| lp_mutate f k : (forall r, lets_p (k r)) -> lets_p (XPMutate f k)
| lp_execute b k : lets_p (k None) -> (forall v, k (Some v) = XPPanic v) -> lets_p (XPExecute b k)
| lp_schedule b t k : lets_p (k None) -> (forall v, k (Some v) = XPPanic v) -> lets_p (XPSchedule b t k)
| lp_end k : lets_p (k None) -> (forall v, k (Some v) = XPPanic v) -> lets_p (XPEnd k)
| lp_log s k : lets_p (k None) -> (forall v, k (Some v) = XPPanic v) -> lets_p (XPLog s k).
Inductive lets_i : XIProg -> Prop :=
| li_ret e : lets_i (XIRet e)
| li_panic v : lets_i (XIPanic v)
| li_act f k : (forall u, lets_i (k u)) -> lets_i (XIAct f k)
| li_record b k : lets_i (k None) -> (forall v, k (Some v) = XIPanic v) -> lets_i (XIRecord b k)
| li_log s k : lets_i (k None) -> (forall v, k (Some v) = XIPanic v) -> lets_i (XILog s k).
Inductive lets_j {A} : XJProg A -> Prop :=
| lj_ret a : lets_j (XJRet a)
| lj_panic v : lets_j (XJPanic v)
| lj_act f k : (forall u, lets_j (k u)) -> lets_j (XJAct f k)
| lj_log s k : lets_j (k None) -> (forall v, k (Some v) = XJPanic v) -> lets_j (XJLog s k).

(** No handler of the application recovers a panic that comes out of its scope. *)
Definition lets_through (x : XApp) : Prop :=
  (forall h i m, lets_a (x_agg x h i m)) /\ (forall h i t m, lets_p (x_event x h i t m)) /\
  (forall h i t m, lets_p (x_timeout x h i t m)) /\ (forall h m, lets_i (x_int x h m)) /\
  (forall h r c n t m, lets_j (x_proj x h r c n t m)) /\ (forall h t, lets_j (x_compact x h t)).

(** [w] is the panic [v], possibly as it looks after passing through the engine: a
    panic with dogma.UnexpectedMessage is replaced by one that says where it came
    from, and one that ends a goroutine of the engine ends the program. *)
Inductive same_panic : PVal -> PVal -> Prop :=
| sp_same v : same_panic v v
| sp_enriched h i me m : same_panic PRaw (PUnexpMsg h i me m)
| sp_fatal v : same_panic v (PFatal v).

End ObsSpec.
