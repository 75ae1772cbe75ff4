(** * Vocabulary for tests: reading what is observed of a test. *)
From Verif Require Export TestModel ExpectSpec OpSpec.

Section Spec.
Context {P : Params}.

(** What Go guarantees about sort.Slice and map iteration. *)
Definition env_ok (E : TEnv) (c : Config) : Prop :=
  (forall n, sort_ok (te_oracle E n)) /\ (forall n, te_order E n ≡ₚ c_app c) /\ (forall l, te_shuffle E l ≡ₚ l).

(** A test from its beginning: [evs] was observed, and [r] says how its code ended. *)
Definition testing (E : TEnv) (app : list Handler) (u : U) (wall : Z) (topts : list TOpt) (p : TProg)
    (st : TState) (evs : list TEv) (r : TOut) : Prop :=
  env_ok E (test_config app) /\ app_ok (test_config app) /\
  run_test E (test_config app) p (begin app u wall topts) = (st, evs, r).

(** ** Actions *)

(** A sequence in which every action that begins also ends. *)
Inductive balanced : list TEv -> Prop :=
| bal_nil : balanced []
| bal_ev ev l : match ev with TvDo _ | TvDid _ => False | _ => True end -> balanced l -> balanced (ev :: l)
| bal_action k l l' : balanced l -> balanced l' -> balanced (TvDo k :: l ++ TvDid k :: l').

(** After [l], the innermost action in progress is of kind [k]; it began after [l0] and
    [l'] happened since. *)
Definition in_action (l l0 : list TEv) (k : AKind) (l' : list TEv) : Prop :=
  l = l0 ++ TvDo k :: l' /\ balanced l'.

(** ** Clock and enablement *)

Definition clock_sets (l : list TEv) : list Z := omap (fun ev => match ev with TvClock t => Some t | _ => None end) l.
(** The virtual clock after [l]. *)
Definition clock_at (start : Z) (l : list TEv) : Z := default start (last (clock_sets l)).
(** The time at which a test starts. *)
Definition start_time (wall : Z) (topts : list TOpt) : Z :=
  default wall (last (omap (fun o => match o with OptStart t => Some t | _ => None end) topts)).
(** The unsafe options of a test. *)
Definition unsafe (topts : list TOpt) : list OOpt :=
  concat (map (fun o => match o with OptUnsafe l => l | _ => [] end) topts).

(** No unsafe option enables or disables handlers. *)
Definition tame (topts : list TOpt) : Prop :=
  (forall t b, OptType t b ∉ unsafe topts) /\ (forall n b, OptHandler n b ∉ unsafe topts).

(** What the last call that enabled or disabled the handler called [name] said. *)
Definition last_enable (l : list TEv) (name : string) : option bool :=
  last (omap (fun ev => match ev with TvEnable n b => if decide (n = name) then Some b else None | _ => None end) l).
(** Whether, and why, a handler is skipped after [l], without unsafe options. *)
Definition test_skips (l : list TEv) (h : Handler) : option SkipReason :=
  match last_enable l (h_name h) with
  | Some true => None
  | Some false => Some SRIndividual
  | None =>
    if h_disabled h then Some SRConfiguration
    else match h_type h with
         | HTIntegration | HTProjection => Some SRType
         | _ => None
         end
  end.

(** ** The engine's part *)

(** What happened to the engine and to the users' state, as a history of the engine. *)
Definition engine_ops (l : list TEv) : list Op :=
  omap (fun ev => match ev with TvOp op _ => Some op | TvUser f => Some (OpUser f) | _ => None end) l.
Definition engine_facts (l : list TEv) : list Fact :=
  concat (map (fun ev => match ev with TvOp _ fs => fs | _ => [] end) l).

(** The facts of the operations an action performs itself, as opposed to those of the
    actions performed during it, up to its end; [d] is the number of actions in
    progress. *)
Fixpoint own_facts (d : nat) (l : list TEv) : list Fact :=
  match l with
  | [] => []
  | TvDo _ :: l => own_facts (S d) l
  | TvDid _ :: l => match d with S (S d) => own_facts (S d) l | _ => [] end
  | TvOp _ fs :: l => (if d =? 1 then fs else []) ++ own_facts d l
  | _ :: l => own_facts d l
  end.

(** ** The command executor *)

(** After [l] a Call is the innermost action in progress, and no other Call has been
    performed since it began. *)
Definition calling (l : list TEv) : Prop := exists l0 l', in_action l l0 AkCall l' /\ TvDid AkCall ∉ l'.

(** Code that performs no Call. *)
Inductive callless : TProg -> Prop :=
| cl_ret : callless TRet
| cl_panic v : callless (TPanic v)
| cl_stop : callless TStop
| cl_act f k : (forall u, callless (k u)) -> callless (TAct f k)
| cl_execute b k : (forall x, callless (k x)) -> callless (TExecute b k)
| cl_prepare a k : a_kind a <> AkCall -> (forall v, callless (k v)) -> callless (TPrepare a k)
| cl_expect a e k : a_kind a <> AkCall -> (forall v, callless (k v)) -> callless (TExpect a e k)
| cl_enable n b k : (forall v, callless (k v)) -> callless (TEnable n b k)
| cl_like pats b k : (forall v, callless (k v)) -> callless (TEnableLike pats b k)
| cl_annotate a k : callless k -> callless (TAnnotate a k).

(** ** Patterns *)

(** The names of the handlers, other than those disabled by configuration, that a pattern
    matches. *)
Definition selects (c : Config) (pats : list (option (string -> bool))) (n : string) : Prop :=
  exists h f, h ∈ c_app c /\ h_name h = n /\ h_disabled h = false /\ Some f ∈ pats /\ f n = true.
(** A pattern that does not compile, or selects no handler. *)
Definition bad_pattern (c : Config) (pat : option (string -> bool)) : Prop :=
  match pat with None => True | Some f => forall h, h ∈ c_app c -> h_disabled h = false -> f (h_name h) = false end.

(** ** Expect *)

(** No observer in use has the number of the next predicate. *)
Definition new_observer (st : TState) : Prop :=
  forall n, OptObserver n ∈ ts_opts st \/ (exists opts, ts_bound st = Some opts /\ OptObserver n ∈ opts) -> n < ts_next st.

(** The code goes on after a method of the Test. *)
Definition goes_on (r : TOut) (v : option PVal) : Prop :=
  match r with Done => v = None | Panicked w => v = Some w | _ => False end.
(** The state in which the function of a Call starts. *)
Definition call_state (i : option Interceptor) (opts : list OOpt) (st : TState) : TState :=
  match i with Some _ => set_icpt i (set_bound (Some opts) st) | None => set_bound (Some opts) st end.

(** [visits p st p' st']: the code [p], starting in [st], gets to [p'] in [st'], possibly
    in the function of a Call. *)
Inductive visits (E : TEnv) (c : Config) : TProg -> TState -> TProg -> TState -> Prop :=
| vi_here p st : visits E c p st p st
| vi_act f k st p st' :
    let e := es_set_g (ts_eng st) (g_act f (es_g (ts_eng st))) in
    visits E c (k (g_user (es_g e))) (set_eng e st) p st' -> visits E c (TAct f k) st p st'
| vi_execute b k st st1 evs r x p st' :
    execute_command E c b st = (st1, evs, r) -> x_res r = Some x ->
    visits E c (k x) st1 p st' -> visits E c (TExecute b k) st p st'
| vi_prepare a k st st1 evs r v p st' :
    prepare E (do_action E c a) st = (st1, evs, r) -> goes_on r v ->
    visits E c (k v) st1 p st' -> visits E c (TPrepare a k) st p st'
| vi_prepare_in fn i k st p st' :
    visits E c fn (call_state i (action_options [] st) st) p st' ->
    visits E c (TPrepare (ActCall fn i) k) st p st'
| vi_expect a e k st st1 evs r v p st' :
    expect E c (a_kind a) (do_action E c a) e st = (st1, evs, r) -> goes_on r v ->
    visits E c (k v) st1 p st' -> visits E c (TExpect a e k) st p st'
| vi_expect_in fn i e k st q p st' :
    new_predicate (test_scope E c AkCall st) e = inl q ->
    visits E c fn (call_state i (action_options [OptObserver (ts_next st)] st) (set_next (S (ts_next st)) st)) p st' ->
    visits E c (TExpect (ActCall fn i) e k) st p st'
| vi_enable names b k st st1 evs v p st' :
    enable_handlers c names b st = (st1, evs, v) ->
    visits E c (k v) st1 p st' -> visits E c (TEnable names b k) st p st'
| vi_like pats b k st st1 evs v p st' :
    enable_handlers_like E c pats b st = (st1, evs, v) ->
    visits E c (k v) st1 p st' -> visits E c (TEnableLike pats b k) st p st'
| vi_annotate a k st p st' :
    visits E c k (set_notes (ts_notes st ++ [a]) st) p st' -> visits E c (TAnnotate a k) st p st'.

(** What follows the predicate's Done(), given how the action ended and the predicate:
    the events, how Expect() ends, and whether the test is marked as failed. *)
Inductive concludes (E : TEnv) (s : Scope) (fs : list Fact) (e : Exp) (n : nat) (notes : list Annotation) : AOut -> Pred -> list TEv -> TOut -> bool -> Prop :=
| con_met p : met s fs e ->
    concludes E s fs e n notes AOk p [TvReport (report (report_texts E n notes) (mkCtx true false) p)] Done false
| con_unmet p : ~ met s fs e ->
    concludes E s fs e n notes AOk p [TvReport (report (report_texts E n notes) (mkCtx false false) p); TvFailNow] (stop E) true
| con_error p er : concludes E s fs e n notes (AErr er) p [TvFatal er] (stop E) true
| con_panic p v : concludes E s fs e n notes (APan v) p [] (Panicked v) false
| con_goexit p : concludes E s fs e n notes AGoexit p [] Goexited false.

(** The annotations made in [l]. *)
Definition annotated (l : list TEv) : list Annotation :=
  omap (fun ev => match ev with TvAnnotate a => Some a | _ => None end) l.

(** [Expects]: what Expect() with action [a] and expectation [e] does. *)
Inductive Expects (E : TEnv) (c : Config) (a : Action) (e : Exp) (st : TState) : TState -> list TEv -> TOut -> Prop :=
| ex_impossible er :
    impossible (test_scope E c (a_kind a) st) e -> because (test_scope E c (a_kind a) st) e er ->
    Expects E c a e st (set_failed st) [TvFatal (TImpossible er)] (stop E)
| ex_halted st1 evs :
    ~ impossible (test_scope E c (a_kind a) st) e ->
    do_action E c a (action_options [OptObserver (ts_next st)] st) (set_next (S (ts_next st)) st) = (st1, evs, AHalt) ->
    Expects E c a e st st1 (TvPredicate :: evs) Halted
| ex_panics st1 evs ar v :
    (* the function of a ToSatisfy() expectation panics *)
    ~ impossible (test_scope E c (a_kind a) st) e ->
    do_action E c a (action_options [OptObserver (ts_next st)] st) (set_next (S (ts_next st)) st) = (st1, evs, ar) ->
    ar <> AHalt ->
    (forall p, ~ after (test_scope E c (a_kind a) st) (own_facts 0 evs) e p) ->
    Expects E c a e st st1 (TvPredicate :: evs ++ [TvFinal]) (Panicked v)
| ex_concludes st1 evs ar p rest r (failed : bool) :
    ~ impossible (test_scope E c (a_kind a) st) e ->
    do_action E c a (action_options [OptObserver (ts_next st)] st) (set_next (S (ts_next st)) st) = (st1, evs, ar) ->
    ar <> AHalt ->
    after (test_scope E c (a_kind a) st) (own_facts 0 evs) e p ->
    concludes E (test_scope E c (a_kind a) st) (own_facts 0 evs) e (ts_next st) (ts_notes st ++ annotated evs) ar p rest r failed ->
    Expects E c a e st (if failed then set_failed st1 else st1) (TvPredicate :: evs ++ TvFinal :: rest) r.

End Spec.
