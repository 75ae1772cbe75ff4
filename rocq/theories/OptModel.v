(** * The slices of operation options that a test hands out

    A test keeps its options in a slice and gives each action a slice of options.
    User-defined actions may append to it, change its elements, and keep it and use it
    later; here slices are windows on arrays, as in MemModel, so that this might affect
    the test or other actions.  The engine is left out: the model says with which
    options it is called. *)
From Verif Require Export EngineModel.

Section Opt.
Context {P : Params}.

(** ** Memory *)
(** Arrays of options, where [None] is nil, allocated from [h_next] on. *)
Record Heap := mkHeap { h_next : nat; h_arr : gmap nat (list (option OOpt)) }.
Record Slc := mkSlc { l_arr : nat; l_off : nat; l_len : nat; l_cap : nat }.

(** The elements of a slice. *)
Definition elems (h : Heap) (s : Slc) : list (option OOpt) :=
  take (l_len s) (drop (l_off s) (default [] (h_arr h !! l_arr s))).
Definition overwrite (h : Heap) (a i : nat) (xs : list (option OOpt)) : Heap :=
  mkHeap (h_next h) (alter (list_inserts i xs) a (h_arr h)).
Definition alloc (h : Heap) (xs : list (option OOpt)) : Heap :=
  mkHeap (S (h_next h)) (<[h_next h := xs]> (h_arr h)).

(** A slice literal. *)
Definition literal (h : Heap) (xs : list OOpt) : Heap * Slc :=
  (alloc h (Some <$> xs), mkSlc (h_next h) 0 (length xs) (length xs)).

(** [grow]: the capacity append() chooses for a new array; as in MemModel. *)
Context (grow : Heap -> Slc -> nat -> nat).

(** append(s, xs...) *)
Definition extend (h : Heap) (s : Slc) (xs : list (option OOpt)) : Heap * Slc :=
  let n := l_len s + length xs in
  if decide (n <= l_cap s) then
    (overwrite h (l_arr s) (l_off s + l_len s) xs, mkSlc (l_arr s) (l_off s) n (l_cap s))
  else
    let cap := Nat.max n (grow h s n) in
    (alloc h (elems h s ++ xs ++ replicate (cap - n) None), mkSlc (h_next h) 0 n cap).

(** ** Tests *)

(** What can be seen: the options given to an action, with the time of the virtual
    clock; the options the engine is called with by an action, and by the executor;
    the error of an AdvanceTime() that would reverse time; a panic that ends the test. *)
Inductive OEv :=
| EGiven (clock : Z) (opts : list (option OOpt))
| EUsed (opts : list (option OOpt))
| EExecuted (opts : list (option OOpt))
| EReversed
| EPanicked.

(** The test: [t_opts] is Test.operationOptions, test.go:28.  [t_bound] are the
    options of the executor, executor.go:18.  [t_known] are the arrays
    that user code can access; [t_seen] are the slices it was given or has made. *)
Record TMem := mkTMem {
  t_heap : Heap; t_clock : Z; t_opts : Slc; t_bound : option Slc;
  t_known : list nat; t_seen : list Slc }.
Definition with_heap (st : TMem) (h : Heap) : TMem :=
  mkTMem h (t_clock st) (t_opts st) (t_bound st) (t_known st) (t_seen st).
Definition with_clock (st : TMem) (t : Z) : TMem :=
  mkTMem (t_heap st) t (t_opts st) (t_bound st) (t_known st) (t_seen st).
Definition with_bound (st : TMem) (b : option Slc) : TMem :=
  mkTMem (t_heap st) (t_clock st) (t_opts st) b (t_known st) (t_seen st).
Definition with_opts (st : TMem) (h : Heap) (s : Slc) : TMem :=
  mkTMem h (t_clock st) s (t_bound st) (t_known st) (t_seen st).
(** User code gets hold of a slice. *)
Definition shown (st : TMem) (h : Heap) (s : Slc) : TMem :=
  mkTMem h (t_clock st) (t_opts st) (t_bound st) (l_arr s :: t_known st) (s :: t_seen st).

(** advanceTimeAction.Do, action.advancetime.go:89-111, with s.OperationOptions = [s];
    the adjustment is [f]. *)
Definition advance (f : Z -> Z) (s : Slc) (st : TMem) : TMem * Slc * list OEv :=
  let now := f (t_clock st) in
  if (now <? t_clock st)%Z then (st, s, [EReversed])
  else
    let st := with_clock st now in
    let '(h, s) := extend (t_heap st) s [Some (OptNow now)] in
    (with_heap st h, s, [EUsed (elems h s)]).

(** What user code does with slices: in the Do() method of user-defined actions,
    in functions given to Call(), and anywhere else.  It can use slices
    on arrays that it can access, and nothing else ([accessible]); [VExecute] is
    ExecuteCommand() of the test's executor.  [VAdvance] is the Do() method of an
    AdvanceTime() action with a slice of its own.
    Simplified: user code does not call Bind() and Unbind(). *)
Inductive VProg :=
| VDone
| VAppend (s : Slc) (xs : list OOpt) (k : Slc -> VProg)
| VSet (s : Slc) (i : nat) (x : option OOpt) (k : VProg)
| VMake (xs : list OOpt) (k : Slc -> VProg)
| VRead (s : Slc) (k : list (option OOpt) -> VProg)
| VUse (s : Slc) (k : VProg)
| VAdvance (f : Z -> Z) (s : Slc) (k : VProg)
| VClock (f : Z -> Z) (k : Z -> VProg)
| VExecute (k : VProg).

(** Slices of arrays that user code can access, within the array (which includes all slices
    of slices). *)
Definition accessible (st : TMem) (s : Slc) : bool :=
  bool_decide (l_arr s ∈ t_known st) && (l_len s <=? l_cap s) &&
  (l_off s + l_cap s <=? length (default [] (h_arr (t_heap st) !! l_arr s))).

Fixpoint v_run (p : VProg) (st : TMem) : TMem * list OEv :=
  match p with
  | VDone => (st, [])
  | VAppend s xs k =>
    if accessible st s then
      let '(h, s) := extend (t_heap st) s (Some <$> xs) in v_run (k s) (shown st h s)
    else (st, [EPanicked])
  | VSet s i x k =>
    if accessible st s && (i <? l_len s) then
      v_run k (with_heap st (overwrite (t_heap st) (l_arr s) (l_off s + i) [x]))
    else (st, [EPanicked])
  | VMake xs k =>
    let '(h, s) := literal (t_heap st) xs in v_run (k s) (shown st h s)
  | VRead s k =>
    if accessible st s then v_run (k (elems (t_heap st) s)) st else (st, [EPanicked])
  | VUse s k =>
    if accessible st s then
      let '(st', evs) := v_run k st in (st', EUsed (elems (t_heap st) s) :: evs)
    else (st, [EPanicked])
  | VAdvance f s k =>
    if accessible st s then
      let '(st, _, evs) := advance f s st in
      let '(st, evs') := v_run k st in (st, evs ++ evs')
    else (st, [EPanicked])
  | VClock f k => v_run (k (t_clock st)) (with_clock st (f (t_clock st)))
  | VExecute k =>
    (* executor.go:27-46 *)
    match t_bound st with
    | None => (st, [EPanicked])
    | Some s => let '(st', evs) := v_run k st in (st', EExecuted (elems (t_heap st) s) :: evs)
    end
  end.

(** The actions. [AUser] is a user-defined action that can use, besides the slice it
    is given (the first one), all that user code has seen. *)
Inductive OAct :=
| ADispatch                            (* action.dispatch.go:73-89 *)
| AAdvance (f : Z -> Z)                (* action.advancetime.go:89-111 *)
| ACall (p : list Slc -> VProg)        (* action.call.go:69-83 *)
| AUser (p : list Slc -> VProg).

Definition o_do (a : OAct) (s : Slc) (st : TMem) : TMem * list OEv :=
  match a with
  | ADispatch => (st, [EUsed (elems (t_heap st) s)])
  | AAdvance f => let '(st, _, evs) := advance f s st in (st, evs)
  | ACall p =>
    let '(st, evs) := v_run (p (t_seen st)) (with_bound st (Some s)) in (with_bound st None, evs)
  | AUser p => let st := shown st (t_heap st) s in v_run (p (t_seen st)) st
  end.

(** Test.doAction, test.go:303-320. *)
Definition o_action (a : OAct) (extra : list OOpt) (st : TMem) : TMem * list OEv :=
  let '(h, s) := literal (t_heap st) [OptNow (t_clock st)] in
  let '(h, s) := extend h s (elems h (t_opts st)) in
  let '(h, s) := extend h s (Some <$> extra) in
  let st := with_heap st h in
  let '(st', evs) := o_do a s st in
  (st', EGiven (t_clock st) (elems h s) :: evs).

(** The methods of a test, and other user code between calls.  [OEnable]: EnableHandlers()
    and its siblings, test.go:204-300, which append one option at a time; [OAction]: an
    action of Prepare() (without [extra], test.go:86-97) or of Expect() (with its
    observer, test.go:120-128). *)
Inductive OCall :=
| OEnable (os : list OOpt)
| OAction (a : OAct) (extra : list OOpt)
| OOther (p : list Slc -> VProg).

Fixpoint o_enable (os : list OOpt) (st : TMem) : TMem :=
  match os with
  | [] => st
  | o :: os =>
    let '(h, s) := extend (t_heap st) (t_opts st) [Some o] in o_enable os (with_opts st h s)
  end.

Definition o_call (c : OCall) (st : TMem) : TMem * list OEv :=
  match c with
  | OEnable os => (o_enable os st, [])
  | OAction a extra => o_action a extra st
  | OOther p => v_run (p (t_seen st)) st
  end.

Fixpoint o_calls (cs : list OCall) (st : TMem) : TMem * list OEv :=
  match cs with
  | [] => (st, [])
  | c :: cs =>
    let '(st, evs) := o_call c st in
    let '(st, evs') := o_calls cs st in
    (st, evs ++ evs')
  end.

(** WithUnsafeOperationOptions, testoption.go:38-42: the array of the arguments is the
    user's. *)
Fixpoint o_unsafe (oss : list (list OOpt)) (st : TMem) : TMem :=
  match oss with
  | [] => st
  | os :: oss =>
    let '(h, u) := literal (t_heap st) os in
    let st := shown st h u in
    let '(h, s) := extend h (t_opts st) (elems h u) in
    o_unsafe oss (with_opts st h s)
  end.

(** BeginContext, test.go:49-82, with a clock and options given by
    WithUnsafeOperationOptions(); [h] is what is in memory before. *)
Definition o_begin (h : Heap) (clock : Z) (unsafe : list (list OOpt)) : TMem :=
  let '(h, s) := literal h [OptType HTProjection false; OptType HTIntegration false; OptObserver 0] in
  o_unsafe unsafe (mkTMem h clock s None [] []).

(** A whole test. *)
Definition o_test (h : Heap) (clock : Z) (unsafe : list (list OOpt)) (cs : list OCall)
  : TMem * list OEv := o_calls cs (o_begin h clock unsafe).

End Opt.
