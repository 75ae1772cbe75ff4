(** * Vocabulary for tests with user-defined actions. *)
From Verif Require Export ActModel ExpectSpec OpSpec TestSpec.

Section Spec.
Context {P : Params}.

(** A test from its beginning: [evs] was observed, and [r] says how its code ended. *)
Definition utesting (E : TEnv) (app : list Handler) (u : U) (wall : Z) (topts : list TOpt) (p : UProg)
    (st : TState) (evs : list UEv) (r : AOut) : Prop :=
  env_ok E (test_config app) /\ app_ok (test_config app) /\
  run_u E (test_config app) p (begin app u wall topts) = (st, evs, r).

(** ** What can be read off the events *)

(** The virtual clock. *)
Definition u_clock_at (start : Z) (l : list UEv) : Z :=
  foldl (fun t ev => match ev with VT (TvClock t') => t' | _ => t end) start l.
(** The handlers enabled and disabled so far, as options. *)
Definition u_enabled (l : list UEv) : list OOpt :=
  omap (fun ev => match ev with VT (TvEnable n b) => Some (OptHandler n b) | _ => None end) l.
(** The options the executor is bound with, if it is. *)
Definition u_binding (l : list UEv) : option (list OOpt) :=
  foldl (fun b ev => match ev with VBind opts => Some opts | VUnbind => None | _ => b end) None l.
(** The interceptor in force; [i] was given to Begin(). *)
Definition u_interceptor (i : option Interceptor) (l : list UEv) : option Interceptor :=
  foldl (fun i ev => match ev with VIntercept i' => i' | _ => i end) i l.
(** Options of Begin(): the last interceptor and the last comparator. *)
Definition first_interceptor (topts : list TOpt) : option Interceptor :=
  last (omap (fun o => match o with OptIntercept i => Some i | _ => None end) topts).
Definition given_comparator (topts : list TOpt) : option (Msg -> Msg -> bool) :=
  last (omap (fun o => match o with OptCompare f => Some f | _ => None end) topts).

(** The engine's part of a test, as a history of the engine. *)
Definition u_ops (l : list UEv) : list Op :=
  omap (fun ev => match ev with VT (TvOp op _) => Some op | VT (TvUser f) => Some (OpUser f) | VReset => Some OpReset | _ => None end) l.
Definition u_evs (l : list UEv) : list Ev :=
  concat (map (fun ev => match ev with VT (TvOp _ fs) => EvFact <$> fs | VReset => [EvReset] | _ => [] end) l).

(** The observers among options. *)
Definition observers (opts : list OOpt) : list nat :=
  omap (fun o => match o with OptObserver n => Some n | _ => None end) opts.
(** The facts of the operations that were given observer [n]. *)
Fixpoint notified_to (n : nat) (l : list UEv) : list Fact :=
  match l with
  | [] => []
  | VT (TvOp (OpDispatch _ _ _ opts) fs) :: l | VT (TvOp (OpTick _ _ _ opts) fs) :: l =>
    (if decide (n ∈ observers opts) then fs else []) ++ notified_to n l
  | _ :: l => notified_to n l
  end.

(** What a test of TestModel shows of these events. *)
Definition erase_one (ev : UEv) : option TEv :=
  match ev with
  | VT ev => Some ev
  | VDo (Some k) _ => Some (TvDo k)
  | VDid (Some k) => Some (TvDid k)
  | _ => None
  end.
Definition erase (l : list UEv) : list TEv := omap erase_one l.
(** How code ends, as seen by TestModel. *)
Definition t_out (r : AOut) : TOut :=
  match r with AOk | AErr _ => Done | APan v => Panicked v | AGoexit => Goexited | AHalt => Halted end.

(** The options every action is given, apart from the time, the handlers enabled and
    disabled, and the predicate. *)
Definition standing_options (topts : list TOpt) : list OOpt :=
  [OptType HTProjection false; OptType HTIntegration false; OptObserver 0] ++ unsafe topts.

(** Fatal() or FailNow() was called. *)
Definition u_failed (l : list UEv) : Prop := exists ev, ev ∈ l /\ match ev with VT (TvFatal _) | VT TvFailNow => True | _ => False end.

(** Sequences in which every action that begins also ends, before the one around it. *)
Inductive u_balanced : list UEv -> Prop :=
| ub_nil : u_balanced []
| ub_ev ev l : match ev with VDo _ _ | VDid _ => False | _ => True end -> u_balanced l -> u_balanced (ev :: l)
| ub_action k opts l l' : u_balanced l -> u_balanced l' -> u_balanced (VDo k opts :: l ++ VDid k :: l').

(** The next event is the engine's operation that dispatches the command [b] with [opts]. *)
Definition dispatches (b : Body) (opts : list OOpt) (l : list UEv) : Prop :=
  exists o fuel fs l', l = VT (TvOp (OpDispatch o fuel (mkMsg KCommand b) opts) fs) :: l'.

(** ** Expect() and Prepare() *)

(** The options given to ConfigurePredicate(), and the scope given to Predicate(). *)
Definition plain_options (st : TState) : POpts := mkPO (ts_compare st) false.
Definition scope_of (E : TEnv) (c : Config) (o : POpts) : Scope :=
  mkScope (app_types c) (default (te_compare E) (po_compare o)) (po_match o).

(** What follows the predicate's Done(), given how the action ended and the predicate:
    the events, how Expect() ends, and whether the test is marked as failed. *)
Inductive u_concludes (E : TEnv) (s : Scope) (fs : list Fact) (e : Exp) (n : nat) (notes : list Annotation) : AOut -> Pred -> list TEv -> AOut -> bool -> Prop :=
| uc_met p : met s fs e ->
    u_concludes E s fs e n notes AOk p [TvReport (report (report_texts E n notes) (mkCtx true false) p)] AOk false
| uc_unmet p : ~ met s fs e ->
    u_concludes E s fs e n notes AOk p [TvReport (report (report_texts E n notes) (mkCtx false false) p); TvFailNow] (u_stop E) true
| uc_error p er : u_concludes E s fs e n notes (AErr er) p [TvFatal er] (u_stop E) true
| uc_panic p v : u_concludes E s fs e n notes (APan v) p [] (APan v) false
| uc_goexit p : u_concludes E s fs e n notes AGoexit p [] AGoexit false.

(** The annotations made in [l]. *)
Definition u_annotated (l : list UEv) : list Annotation :=
  omap (fun ev => match ev with VT (TvAnnotate a) => Some a | _ => None end) l.

(** [UExpects]: what Expect() with action [a] and expectation [e] does.  [do] runs
    ua_do, in between the events of the action's beginning and end. *)
Inductive UExpects (E : TEnv) (c : Config) (a : UAction) (e : Exp) (st : TState) : TState -> list UEv -> AOut -> Prop :=
| ue_configure v :
    ua_conf a (plain_options st) = inr v ->
    UExpects E c a e st st [VConfigure (plain_options st)] (APan v)
| ue_caption o v :
    ua_conf a (plain_options st) = inl o -> ua_caption a = inr v ->
    UExpects E c a e st st [VConfigure (plain_options st)] (APan v)
| ue_impossible o s er :
    ua_conf a (plain_options st) = inl o -> ua_caption a = inl s ->
    impossible (scope_of E c o) e -> because (scope_of E c o) e er ->
    UExpects E c a e st (set_failed st)
      [VConfigure (plain_options st); VHeading s (Some e); VT (TvFatal (TImpossible er))] (u_stop E)
| ue_halted o s st1 evs :
    ua_conf a (plain_options st) = inl o -> ua_caption a = inl s ->
    ~ impossible (scope_of E c o) e ->
    do_u E c a (action_options [OptObserver (ts_next st)] st) (set_next (S (ts_next st)) st) = (st1, evs, AHalt) ->
    UExpects E c a e st st1 (VConfigure (plain_options st) :: VHeading s (Some e) :: VT TvPredicate :: evs) AHalt
| ue_panics o s st1 evs ar v :
    (* the function of a ToSatisfy() expectation panics *)
    ua_conf a (plain_options st) = inl o -> ua_caption a = inl s ->
    ~ impossible (scope_of E c o) e ->
    do_u E c a (action_options [OptObserver (ts_next st)] st) (set_next (S (ts_next st)) st) = (st1, evs, ar) ->
    ar <> AHalt ->
    (forall p, ~ after (scope_of E c o) (notified_to (ts_next st) evs) e p) ->
    UExpects E c a e st st1
      (VConfigure (plain_options st) :: VHeading s (Some e) :: VT TvPredicate :: evs ++ [VT TvFinal]) (APan v)
| ue_concludes o s st1 evs ar p rest r (failed : bool) :
    ua_conf a (plain_options st) = inl o -> ua_caption a = inl s ->
    ~ impossible (scope_of E c o) e ->
    do_u E c a (action_options [OptObserver (ts_next st)] st) (set_next (S (ts_next st)) st) = (st1, evs, ar) ->
    ar <> AHalt ->
    after (scope_of E c o) (notified_to (ts_next st) evs) e p ->
    u_concludes E (scope_of E c o) (notified_to (ts_next st) evs) e (ts_next st) (ts_notes st ++ u_annotated evs) ar p rest r failed ->
    UExpects E c a e st (if failed then set_failed st1 else st1)
      (VConfigure (plain_options st) :: VHeading s (Some e) :: VT TvPredicate :: evs ++ VT TvFinal :: (VT <$> rest)) r.

(** [UPrepares]: what Prepare() with action [a] does. *)
Inductive UPrepares (E : TEnv) (c : Config) (a : UAction) (st : TState) : TState -> list UEv -> AOut -> Prop :=
| up_caption v : ua_caption a = inr v -> UPrepares E c a st st [] (APan v)
| up_error s st1 evs er :
    ua_caption a = inl s -> do_u E c a (action_options [] st) st = (st1, evs, AErr er) ->
    UPrepares E c a st (set_failed st1) (VHeading s None :: evs ++ [VT (TvFatal er)]) (u_stop E)
| up_other s st1 evs ar :
    ua_caption a = inl s -> do_u E c a (action_options [] st) st = (st1, evs, ar) ->
    (forall er, ar <> AErr er) ->
    UPrepares E c a st st1 (VHeading s None :: evs) ar.

End Spec.
