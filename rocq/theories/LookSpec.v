(** * Specification: what expectations change *)
From Verif Require Export TestModel TestSpec.

Section Spec.
Context {P : Params}.

(** The same test with Prepare(a) in place of every Expect(a, e). *)
Fixpoint unexpecting (p : TProg) : TProg :=
  match p with
  | TRet => TRet
  | TPanic v => TPanic v
  | TStop => TStop
  | TAct f k => TAct f (fun u => unexpecting (k u))
  | TExecute b k => TExecute b (fun x => unexpecting (k x))
  | TPrepare a k => TPrepare (unexpecting_action a) (fun v => unexpecting (k v))
  | TExpect a _ k => TPrepare (unexpecting_action a) (fun v => unexpecting (k v))
  | TEnable names b k => TEnable names b (fun v => unexpecting (k v))
  | TEnableLike pats b k => TEnableLike pats b (fun v => unexpecting (k v))
  | TAnnotate a k => TAnnotate a (unexpecting k)
  end
with unexpecting_action (a : Action) : Action :=
  match a with
  | ActCall fn i => ActCall (unexpecting fn) i
  | _ => a
  end.

(** What happens, without the expectations: no predicates and reports, and no observers
    among the options of operations. *)
Definition not_observer (opt : OOpt) : bool := match opt with OptObserver _ => false | _ => true end.
Definition unobserved (opts : list OOpt) : list OOpt := List.filter not_observer opts.
Definition unobserved_op (op : Op) : Op :=
  match op with
  | OpDispatch o fuel m opts => OpDispatch o fuel m (unobserved opts)
  | OpTick o fuel order opts => OpTick o fuel order (unobserved opts)
  | _ => op
  end.
Definition unobserved_ev (ev : TEv) : option TEv :=
  match ev with
  | TvPredicate | TvFinal | TvReport _ => None
  | TvOp op fs => Some (TvOp (unobserved_op op) fs)
  | _ => Some ev
  end.
Definition unobserved_evs (evs : list TEv) : list TEv := omap unobserved_ev evs.

(** An Expect() fails: it is rejected or not met. *)
Definition expect_failed (evs : list TEv) : Prop :=
  TvFailNow ∈ evs \/ exists e, TvFatal (TImpossible e) ∈ evs.

(** An expectation with no ToSatisfy() function that panics. *)
Inductive calm : Exp -> Prop :=
| calm_message m : calm (XMessage m)
| calm_type t : calm (XType t)
| calm_match tp pred near ex : calm (XMatch tp pred near ex)
| calm_comp c l : Forall calm l -> calm (XComp c l)
| calm_not e : calm e -> calm (XNot e)
| calm_repeat desc n f : (forall i e, f i = Some e -> calm e) -> calm (XRepeat desc n f)
| calm_satisfy desc fn : (forall fs, (s_done (fn fs).1 (fn fs).2 s_init).2 = None) -> calm (XSatisfy desc fn)
| calm_user u : calm (XUser u).
(** A test all of whose expectations are. *)
Fixpoint calm_test (p : TProg) : Prop :=
  match p with
  | TRet | TPanic _ | TStop => True
  | TAct _ k => forall u, calm_test (k u)
  | TExecute _ k => forall x, calm_test (k x)
  | TPrepare a k => calm_action a /\ forall v, calm_test (k v)
  | TExpect a e k => calm_action a /\ calm e /\ forall v, calm_test (k v)
  | TEnable _ _ k => forall v, calm_test (k v)
  | TEnableLike _ _ k => forall v, calm_test (k v)
  | TAnnotate _ k => calm_test k
  end
with calm_action (a : Action) : Prop :=
  match a with
  | ActCall fn _ => calm_test fn
  | _ => True
  end.

(** What is left of a test, without the executor's options and the numbers of predicates. *)
Definition same_but_predicates (st st' : TState) : Prop :=
  ts_clock st = ts_clock st' /\ ts_eng st = ts_eng st' /\ ts_icpt st = ts_icpt st' /\ ts_opts st = ts_opts st' /\
  ts_compare st = ts_compare st' /\ ts_failed st = ts_failed st' /\ ts_step st = ts_step st' /\ ts_notes st = ts_notes st' /\
  unobserved <$> ts_bound st = unobserved <$> ts_bound st'.

End Spec.
