(** * The engine again, with Go's memory

    EngineModel and the controllers' models treat slices of envelopes as lists and
    roots as values.  Here slices are what Go makes of them: windows on arrays that
    can be shared, extended in place by append() as long as there is room.  Roots
    are objects that are shared by reference.  Envelopes are values: they are
    behind pointers in Go, but nothing changes an envelope after it has been built.
    Maps, and everything that does not deal with slices or roots, are as in
    EngineModel. *)
From Verif Require Export EngineModel.

Section Mem.
Context {P : Params}.

(** ** Memory *)

(** Arrays of *envelope.Envelope, where [None] is nil, and root objects.  Both are
    allocated from [m_next] on. *)
Record Mem := mkMem {
  m_next : nat; m_arr : gmap nat (list (option Env)); m_obj : gmap nat Root }.

(** A slice: an array, the position of its first element, the number of its
    elements, and how many elements there are from the first element to the end
    of the array. *)
Record Slice := mkSlice { s_arr : nat; s_off : nat; s_len : nat; s_cap : nat }.
Definition nil_slice : Slice := mkSlice 0 0 0 0.

(** The elements of a slice. *)
Definition cells (m : Mem) (s : Slice) : list (option Env) :=
  take (s_len s) (drop (s_off s) (default [] (m_arr m !! s_arr s))).
(** The elements, for code that dereferences all of them.  A nil pointer would make it
    panic; simplified: it is skipped.  There never is one (see [C89_no_nil]). *)
Definition values (m : Mem) (s : Slice) : list Env := omap id (cells m s).

(** Writing to consecutive elements of an array. *)
Definition write (m : Mem) (a i : nat) (xs : list (option Env)) : Mem :=
  mkMem (m_next m) (alter (list_inserts i xs) a (m_arr m)) (m_obj m).
Definition new_array (m : Mem) (xs : list (option Env)) : Mem * nat :=
  (mkMem (S (m_next m)) (<[m_next m := xs]> (m_arr m)) (m_obj m), m_next m).
Definition new_obj (m : Mem) (r : Root) : Mem * nat :=
  (mkMem (S (m_next m)) (m_arr m) (<[m_next m := r]> (m_obj m)), m_next m).
Definition set_obj (m : Mem) (p : nat) (r : Root) : Mem :=
  mkMem (m_next m) (m_arr m) (<[p := r]> (m_obj m)).

(** [grow]: the capacity append() chooses for a new array, about which Go promises
    nothing but that the elements fit.  [junk]: the value of objects that do not
    exist; never used. *)
Context (grow : Mem -> Slice -> nat -> nat) (junk : Root).

Definition deref (m : Mem) (p : nat) : Root := default junk (m_obj m !! p).

(** s[i:] and s[:i] *)
Definition slice_from (s : Slice) (i : nat) : Slice :=
  mkSlice (s_arr s) (s_off s + i) (s_len s - i) (s_cap s - i).
Definition slice_upto (s : Slice) (i : nat) : Slice :=
  mkSlice (s_arr s) (s_off s) i (s_cap s).

(** append(s, xs...): in place if the elements fit, otherwise in a new array. *)
Definition go_append (m : Mem) (s : Slice) (xs : list (option Env)) : Mem * Slice :=
  let n := s_len s + length xs in
  if decide (n <= s_cap s) then
    (write m (s_arr s) (s_off s + s_len s) xs, mkSlice (s_arr s) (s_off s) n (s_cap s))
  else
    let cap := Nat.max n (grow m s n) in
    let '(m', a) := new_array m (cells m s ++ xs ++ replicate (cap - n) None) in
    (m', mkSlice a 0 n cap).

(** make([]*envelope.Envelope, 0, n) *)
Definition make_slice (m : Mem) (n : nat) : Mem * Slice :=
  let '(m, a) := new_array m (replicate n None) in (m, mkSlice a 0 0 n).

(** What a controller returns. *)
Inductive SRes := SRet (envs : Slice) (err : option Err) | SPan (v : PVal).

(** ** engine/internal/aggregate *)
Section Aggregate.

(** aggregate.scope, scope.go:18-29: [ma_hroot] is the object given to
    HandleCommand(), [ma_root] is scope.root. *)
Record MAScope := mkMAScope {
  ma_hroot : nat; ma_root : nat; ma_exists : bool; ma_destroyed : bool; ma_events : Slice }.

Section Scope.
Context (o : Oracle) (h : Handler) (a : AggImpl) (now : Z) (cmd : Env) (id : string).

(** scope.Destroy, scope.go:35-50. *)
Definition ma_destroy (m : Mem) (s : MAScope) : Mem * MAScope * list Fact :=
  if ma_exists s then
    let r := default (deref m (ma_root s)) (ag_new a) in
    let '(m, p) := new_obj m r in
    (m, mkMAScope (ma_hroot s) p false true (ma_events s),
     [AggregateInstanceDestroyed (h_id h) id r cmd])
  else (m, s, []).

(** scope.RecordEvent, scope.go:52-131. *)
Definition ma_record (b : Body) (m : Mem) (g : GState) (s : MAScope)
  : Mem * GState * MAScope * list Fact * option PVal :=
  let msg := mkMsg KEvent b in
  let mt := m_type msg in
  if negb (produces h mt) then
    (m, g, s, [], Some (PUnexpBeh (h_id h) "AggregateMessageHandler" "HandleCommand" (e_msg cmd) (BUndeclared mt)))
  else
  match m_invalid msg with
  | Some e =>
    (m, g, s, [], Some (PUnexpBeh (h_id h) "AggregateMessageHandler" "HandleCommand" (e_msg cmd) (BInvalid mt e)))
  | None =>
    let '(s1, fs1) :=
      if ma_exists s then (s, [])
      else
        (mkMAScope (ma_hroot s) (ma_root s) true false (ma_events s),
         [if ma_destroyed s
          then AggregateInstanceDestructionReverted (h_id h) id (deref m (ma_root s)) cmd
          else AggregateInstanceCreated (h_id h) id (deref m (ma_root s)) cmd]) in
    let '(r, v) := ag_apply a (deref m (ma_root s1)) msg in
    let m := set_obj m (ma_root s1) r in
    match enrich (h_id h) "AggregateRoot" "ApplyEvent" msg v with
    | Some v => (m, g, s1, fs1, Some v)
    | None =>
      let '(g, mid) := next_id o g in
      let ev := new_child cmd mid msg now (mkOrigin (h_id h) HTAggregate id) in
      let '(m, evs) := go_append m (ma_events s1) [Some ev] in
      (m, g,
       mkMAScope (ma_hroot s1) (ma_root s1) (ma_exists s1) (ma_destroyed s1) evs,
       fs1 ++ [EventRecordedByAggregate (h_id h) id (deref m (ma_root s1)) cmd ev],
       None)
    end
  end.

(** Running HandleCommand() against the scope; scope.Log is scope.go:133-142. *)
Fixpoint ma_run (p : AProg) (m : Mem) (g : GState) (s : MAScope)
  : Mem * GState * MAScope * list Fact * option PVal :=
  match p with
  | ARet => (m, g, s, [], None)
  | APanic v => (m, g, s, [], Some v)
  | AAct f k => ma_run (k (g_user g)) m (g_act f g) s
  | AMutate f k =>
      let r := f (deref m (ma_hroot s)) in
      ma_run (k r) (set_obj m (ma_hroot s) r) g s
  | ARecord b k =>
      let '(m, g, s, fs, v) := ma_record b m g s in
      let '(m, g, s, fs', v') := ma_run (k v) m g s in
      (m, g, s, fs ++ fs', v')
  | ADestroy k =>
      let '(m, s, fs) := ma_destroy m s in
      let '(m, g, s, fs', v') := ma_run k m g s in
      (m, g, s, fs ++ fs', v')
  | ALog str k =>
      let f := MessageLoggedByAggregate (h_id h) id (deref m (ma_root s)) cmd str in
      let '(m, g, s, fs', v') := ma_run k m g s in
      (m, g, s, f :: fs', v')
  end.
End Scope.

(** The replay loop, controller.go:95-108. *)
Fixpoint ma_replay (h : Handler) (a : AggImpl) (m : Mem) (p : nat) (evs : list Env)
  : Mem * option PVal :=
  match evs with
  | [] => (m, None)
  | ev :: evs =>
    let '(r, v) := ag_apply a (deref m p) (e_msg ev) in
    let m := set_obj m p r in
    match enrich (h_id h) "AggregateRoot" "ApplyEvent" (e_msg ev) v with
    | Some v => (m, Some v)
    | None => ma_replay h a m p evs
    end
  end.

(** Controller.Handle, controller.go:42-160; the history is shared by no one
    else, but its slice grows in place (154). *)
Definition ma_handle (o : Oracle) (h : Handler) (a : AggImpl) (now : Z) (env : Env)
    (m : Mem) (g : GState) (hist : gmap string Slice)
  : Mem * GState * gmap string Slice * list Fact * SRes :=
  let msg := e_msg env in
  if negb (consumes h (m_type msg)) then
    (m, g, hist, [], SPan (PEngine "does not handle" (Some msg)))
  else
  match ag_route a msg with
  | inr v =>
    let v := default v (enrich (h_id h) "AggregateMessageHandler" "RouteCommandToInstance" msg (Some v)) in
    (m, g, hist, [], SPan v)
  | inl id =>
    if decide (id = "") then
      (m, g, hist, [], SPan (PUnexpBeh (h_id h) "AggregateMessageHandler" "RouteCommandToInstance" msg (BEmptyID (m_type msg))))
    else
    match ag_new a with
    | None =>
      (m, g, hist, [], SPan (PUnexpBeh (h_id h) "AggregateMessageHandler" "New" msg BNilRoot))
    | Some r0 =>
      let '(m, p) := new_obj m r0 in
      let '(m, v) := ma_replay h a m p (values m (default nil_slice (hist !! id))) in
      match v with
      | Some v => (m, g, hist, [], SPan v)
      | None =>
        let ex := bool_decide (is_Some (hist !! id)) in
        let f := if ex then AggregateInstanceLoaded (h_id h) id (deref m p) env
                 else AggregateInstanceNotFound (h_id h) id env in
        let s := mkMAScope p p ex false nil_slice in
        let '(m, g, s, fs, v) := ma_run o h a now env id (ag_handle a id msg) m g s in
        match enrich (h_id h) "AggregateMessageHandler" "HandleCommand" msg v with
        | Some v => (m, g, hist, f :: fs, SPan v)
        | None =>
          let '(m, hist) :=
            if ma_exists s then
              let '(m, l) := go_append m (default nil_slice (hist !! id)) (cells m (ma_events s)) in
              (m, <[id := l]> hist)
            else (m, delete id hist) in
          (m, g, hist, f :: fs, SRet (ma_events s) None)
        end
      end
    end
  end.
End Aggregate.

(** ** engine/internal/process *)
Section Process.

(** process.scope, scope.go:19-32. *)
Record MPScope := mkMPScope {
  mp_root : nat; mp_ended : bool; mp_commands : Slice; mp_ready : Slice; mp_pending : Slice }.

Section Scope.
Context (o : Oracle) (h : Handler) (now : Z) (env : Env) (id : string) (meth : string).

(** scope.go:80-89, 144-153. *)
Definition mp_revert (m : Mem) (s : MPScope) : MPScope * list Fact :=
  if mp_ended s then
    (mkMPScope (mp_root s) false (mp_commands s) (mp_ready s) (mp_pending s),
     [ProcessInstanceEndingReverted (h_id h) id (deref m (mp_root s)) env])
  else (s, []).

(** scope.ExecuteCommand, scope.go:53-111. *)
Definition mp_execute (b : Body) (m : Mem) (g : GState) (s : MPScope)
  : Mem * GState * MPScope * list Fact * option PVal :=
  let msg := mkMsg KCommand b in
  match p_check h env meth msg with
  | Some v => (m, g, s, [], Some v)
  | None =>
    let '(s, fs) := mp_revert m s in
    let '(g, mid) := next_id o g in
    let c := new_child env mid msg now (mkOrigin (h_id h) HTProcess id) in
    let '(m, l) := go_append m (mp_commands s) [Some c] in
    (m, g, mkMPScope (mp_root s) (mp_ended s) l (mp_ready s) (mp_pending s),
     fs ++ [CommandExecutedByProcess (h_id h) id (deref m (mp_root s)) env c], None)
  end.

(** scope.ScheduleTimeout, scope.go:117-180. *)
Definition mp_schedule (b : Body) (t : Z) (m : Mem) (g : GState) (s : MPScope)
  : Mem * GState * MPScope * list Fact * option PVal :=
  let msg := mkMsg KTimeout b in
  match p_check h env meth msg with
  | Some v => (m, g, s, [], Some v)
  | None =>
    let '(s, fs) := mp_revert m s in
    let '(g, mid) := next_id o g in
    let x := new_timeout env mid msg now t (mkOrigin (h_id h) HTProcess id) in
    let '(m, s) :=
      if (now <? t)%Z then
        let '(m, l) := go_append m (mp_pending s) [Some x] in
        (m, mkMPScope (mp_root s) (mp_ended s) (mp_commands s) (mp_ready s) l)
      else
        let '(m, l) := go_append m (mp_ready s) [Some x] in
        (m, mkMPScope (mp_root s) (mp_ended s) (mp_commands s) l (mp_pending s)) in
    (m, g, s, fs ++ [TimeoutScheduledByProcess (h_id h) id (deref m (mp_root s)) env x], None)
  end.

(** scope.End, scope.go:38-51. *)
Definition mp_end (m : Mem) (s : MPScope) : MPScope * list Fact :=
  if mp_ended s then (s, [])
  else (mkMPScope (mp_root s) true (mp_commands s) (mp_ready s) (mp_pending s),
        [ProcessInstanceEnded (h_id h) id (deref m (mp_root s)) env]).

(** Running HandleEvent() or HandleTimeout(); scope.Log is scope.go:186-195. *)
Fixpoint mp_run (p : PProg) (m : Mem) (g : GState) (s : MPScope)
  : Mem * GState * MPScope * list Fact * (option Err + PVal) :=
  match p with
  | PRet e => (m, g, s, [], inl e)
  | PPanic v => (m, g, s, [], inr v)
  | PAct f k => mp_run (k (g_user g)) m (g_act f g) s
  | PMutate f k =>
      let r := f (deref m (mp_root s)) in
      mp_run (k r) (set_obj m (mp_root s) r) g s
  | PExecute b k =>
      let '(m, g, s, fs, v) := mp_execute b m g s in
      let '(m, g, s, fs', r) := mp_run (k v) m g s in
      (m, g, s, fs ++ fs', r)
  | PSchedule b t k =>
      let '(m, g, s, fs, v) := mp_schedule b t m g s in
      let '(m, g, s, fs', r) := mp_run (k v) m g s in
      (m, g, s, fs ++ fs', r)
  | PEnd k =>
      let '(s, fs) := mp_end m s in
      let '(m, g, s, fs', r) := mp_run k m g s in
      (m, g, s, fs ++ fs', r)
  | PLog str k =>
      let f := MessageLoggedByProcess (h_id h) id (deref m (mp_root s)) env str in
      let '(m, g, s, fs', r) := mp_run k m g s in
      (m, g, s, f :: fs', r)
  end.
End Scope.

(** Controller.instances and timeouts, controller.go:24-25. *)
Record MPState := mkMPState { mc_instances : gmap string nat; mc_timeouts : Slice }.

(** Controller.Tick, controller.go:35-58: the loop (43-49) and the two slices of
    the same array (52-55). *)
Fixpoint due_count (now : Z) (l : list Env) : nat :=
  match l with
  | [] => 0
  | e :: l => if (now <? e_sched e)%Z then 0 else S (due_count now l)
  end.
Definition mp_tick (now : Z) (m : Mem) (ps : MPState) : MPState * Slice :=
  let i := due_count now (values m (mc_timeouts ps)) in
  (mkMPState (mc_instances ps) (slice_from (mc_timeouts ps) i), slice_upto (mc_timeouts ps) i).

(** Controller.update, controller.go:263-279: append() and a sort in place. *)
Definition mp_update (o : Oracle) (id : string) (m : Mem) (s : MPScope) (ps : MPState)
  : Mem * MPState :=
  let '(m, l) := go_append m (mc_timeouts ps) (cells m (mp_pending s)) in
  (write m (s_arr l) (s_off l) (Some <$> o_sort o (values m l)),
   mkMPState (<[id := mp_root s]> (mc_instances ps)) l).

(** The loop of Controller.delete, controller.go:289-293. *)
Fixpoint mp_filter (id : string) (m : Mem) (acc : Slice) (l : list Env) : Mem * Slice :=
  match l with
  | [] => (m, acc)
  | e :: l =>
    if decide (origin_instance e = id) then mp_filter id m acc l
    else let '(m, acc) := go_append m acc [Some e] in mp_filter id m acc l
  end.

(** Controller.delete, controller.go:282-296. *)
Definition mp_delete (id : string) (m : Mem) (ps : MPState) : Mem * MPState :=
  let l := values m (mc_timeouts ps) in
  let '(m, acc) := make_slice m (s_len (mc_timeouts ps)) in
  let '(m, acc) := mp_filter id m acc l in
  (m, mkMPState (delete id (mc_instances ps)) acc).

(** Controller.routeTimeout and routeEvent, controller.go:156-238; only whether
    the instance exists matters, so this is [p_route] of any state with the same
    instances. *)
Definition mp_route (h : Handler) (pi : ProcImpl) (env : Env) (g : GState) (m : Mem) (ps : MPState)
  : GState * list Fact * PRoute :=
  p_route h pi env g (mkPState (deref m <$> mc_instances ps) []).

(** Controller.Handle from the point where the root is known, controller.go:116-147. *)
Definition mp_handle_instance (o : Oracle) (h : Handler) (pi : ProcImpl) (now : Z) (env : Env)
    (id : string) (p : nat) (m : Mem) (g : GState) (ps : MPState)
  : Mem * GState * MPState * list Fact * SRes :=
  let msg := e_msg env in
  let '(meth, prog) :=
    match m_kind msg with
    | KTimeout => ("HandleTimeout", pr_timeout pi id (e_sched env) msg)
    | _ => ("HandleEvent", pr_event pi id (e_created env) msg)
    end in
  let exists_ := bool_decide (is_Some (mc_instances ps !! id)) in
  let '(m, g, s, fs, res) :=
    mp_run o h now env id meth prog m g (mkMPScope p false nil_slice nil_slice nil_slice) in
  match res with
  | inr v =>
    (m, g, ps, fs, SPan (default v (enrich (h_id h) "ProcessMessageHandler" meth msg (Some v))))
  | inl (Some e) => (m, g, ps, fs, SRet nil_slice (Some e))
  | inl None =>
    if mp_ended s then
      let '(m, ps) := if exists_ then mp_delete id m ps else (m, ps) in
      (m, g, ps, fs, SRet (mp_commands s) None)
    else
      let '(m, ps) := mp_update o id m s ps in
      let '(m, l) := go_append m (mp_commands s) (cells m (mp_ready s)) in
      (m, g, ps, fs, SRet l None)
  end.

(** Controller.Handle, controller.go:61-147. *)
Definition mp_handle (o : Oracle) (h : Handler) (pi : ProcImpl) (now : Z) (env : Env)
    (m : Mem) (g : GState) (ps : MPState) : Mem * GState * MPState * list Fact * SRes :=
  let msg := e_msg env in
  if negb (consumes h (m_type msg)) then
    (m, g, ps, [], SPan (PEngine "does not handle" (Some msg)))
  else
  let '(g, fs, rt) := mp_route h pi env g m ps in
  match rt with
  | RoutePan v => (m, g, ps, fs, SPan v)
  | RouteErr e => (m, g, ps, fs, SRet nil_slice (Some e))
  | RouteNone => (m, g, ps, fs, SRet nil_slice None)
  | RouteTo id =>
    match mc_instances ps !! id with
    | Some p =>
      let f := ProcessInstanceLoaded (h_id h) id (deref m p) env in
      let '(m, g, ps, fs', res) := mp_handle_instance o h pi now env id p m g ps in
      (m, g, ps, fs ++ f :: fs', res)
    | None =>
      let fs := fs ++ [ProcessInstanceNotFound (h_id h) id env;
                       ProcessInstanceBegun (h_id h) id (pr_new pi) env] in
      match pr_new pi with
      | None => (m, g, ps, fs, SPan (PUnexpBeh (h_id h) "ProcessMessageHandler" "New" msg BNilRoot))
      | Some r =>
        let '(m, p) := new_obj m r in
        let '(m, g, ps, fs', res) := mp_handle_instance o h pi now env id p m g ps in
        (m, g, ps, fs ++ fs', res)
      end
    end
  end.
End Process.

(** ** engine/internal/integration *)
Section Integration.
Section Scope.
Context (o : Oracle) (h : Handler) (now : Z) (cmd : Env).

(** scope.RecordEvent, scope.go:27-71. *)
Definition mi_record (b : Body) (m : Mem) (g : GState) (evs : Slice)
  : Mem * GState * Slice * list Fact * option PVal :=
  let msg := mkMsg KEvent b in
  let mt := m_type msg in
  if negb (produces h mt) then
    (m, g, evs, [], Some (PUnexpBeh (h_id h) "IntegrationMessageHandler" "HandleCommand" (e_msg cmd) (BUndeclared mt)))
  else
  match m_invalid msg with
  | Some e =>
    (m, g, evs, [], Some (PUnexpBeh (h_id h) "IntegrationMessageHandler" "HandleCommand" (e_msg cmd) (BInvalid mt e)))
  | None =>
    let '(g, mid) := next_id o g in
    let ev := new_child cmd mid msg now (mkOrigin (h_id h) HTIntegration "") in
    let '(m, evs) := go_append m evs [Some ev] in
    (m, g, evs, [EventRecordedByIntegration (h_id h) cmd ev], None)
  end.

(** Running HandleCommand(); scope.Log is scope.go:73-80. *)
Fixpoint mi_run (p : IProg) (m : Mem) (g : GState) (evs : Slice)
  : Mem * GState * Slice * list Fact * (option Err + PVal) :=
  match p with
  | IRet e => (m, g, evs, [], inl e)
  | IPanic v => (m, g, evs, [], inr v)
  | IAct f k => mi_run (k (g_user g)) m (g_act f g) evs
  | IRecord b k =>
      let '(m, g, evs, fs, v) := mi_record b m g evs in
      let '(m, g, evs, fs', r) := mi_run (k v) m g evs in
      (m, g, evs, fs ++ fs', r)
  | ILog str k =>
      let '(m, g, evs, fs', r) := mi_run k m g evs in
      (m, g, evs, MessageLoggedByIntegration (h_id h) cmd str :: fs', r)
  end.
End Scope.

(** Controller.Handle, controller.go:39-76. *)
Definition mi_handle (o : Oracle) (h : Handler) (i : IntImpl) (now : Z) (env : Env)
    (m : Mem) (g : GState) : Mem * GState * list Fact * SRes :=
  let msg := e_msg env in
  if negb (consumes h (m_type msg)) then
    (m, g, [], SPan (PEngine "does not handle" (Some msg)))
  else
  let '(m, g, evs, fs, r) := mi_run o h now env (in_handle i msg) m g nil_slice in
  match r with
  | inl e => (m, g, fs, SRet evs e)
  | inr v =>
    (m, g, fs, SPan (default v (enrich (h_id h) "IntegrationMessageHandler" "HandleCommand" msg (Some v))))
  end.
End Integration.

(** ** engine *)

(** The mutable state of a controller. *)
Inductive MCState :=
| MCAgg (hist : gmap string Slice)
| MCProc (ps : MPState)
| MCInt
| MCProj (last : Z).

Definition mcs_init (h : Handler) : MCState :=
  match h_impl h with
  | ImplAgg _ => MCAgg ∅
  | ImplProc _ => MCProc (mkMPState ∅ nil_slice)
  | ImplInt _ => MCInt
  | ImplProj _ => MCProj 0
  end.

(** controller.Reset: aggregate/controller.go:163-165, process/controller.go:150-153,
    integration/controller.go:79-80 and projection/controller.go:184-185. *)
Definition mcs_reset (cs : MCState) : MCState :=
  match cs with
  | MCAgg _ => MCAgg ∅
  | MCProc _ => MCProc (mkMPState ∅ nil_slice)
  | MCInt => MCInt
  | MCProj last => MCProj last
  end.

Record MState := mkM { ms_mem : Mem; ms_g : GState; ms_cs : gmap string MCState }.
Definition ms_set_g (st : MState) (g : GState) : MState := mkM (ms_mem st) g (ms_cs st).
Definition ms_set_mem (st : MState) (m : Mem) : MState := mkM m (ms_g st) (ms_cs st).

(** engine.New, engine.go:32-53; [m] is whatever is in memory already. *)
Definition m_init (c : Config) (m : Mem) (u : U) : MState :=
  mkM m (mkG 0 u 0) (mcs_init <$> controllers c).

(** Engine.Reset, engine.go:67-80. *)
Definition m_reset (c : Config) (st : MState) : MState :=
  mkM (ms_mem st)
      (mkG 0 (foldl (fun u f => f u) (g_user (ms_g st)) (c_resetters c)) (g_step (ms_g st)))
      (mcs_reset <$> ms_cs st).

(** The controllers' Handle and Tick, engine/controller.go:13-44. *)
Definition m_ctrl_handle (c : Config) (o : Oracle) (h : Handler) (now : Z) (env : Env)
    (m : Mem) (g : GState) (cs : MCState) : Mem * GState * MCState * list Fact * SRes :=
  match h_impl h, cs with
  | ImplAgg a, MCAgg hist =>
    let '(m, g, hist, fs, r) := ma_handle o h a now env m g hist in (m, g, MCAgg hist, fs, r)
  | ImplProc p, MCProc ps =>
    let '(m, g, ps, fs, r) := mp_handle o h p now env m g ps in (m, g, MCProc ps, fs, r)
  | ImplInt i, MCInt =>
    let '(m, g, fs, r) := mi_handle o h i now env m g in (m, g, MCInt, fs, r)
  | ImplProj j, MCProj last =>
    (* projection/controller.go:73-146 returns nil *)
    let '(g, fs, r) := j_handle o (c_compact c) h j now env g in
    (m, g, MCProj last, fs, match r with HRet _ e => SRet nil_slice e | HPan v => SPan v end)
  | _, _ => (m, g, cs, [], SPan PNil) (* unreachable: the state matches the type *)
  end.

Definition m_ctrl_tick (h : Handler) (now : Z) (m : Mem) (g : GState) (cs : MCState)
  : GState * MCState * list Fact * SRes :=
  match h_impl h, cs with
  | ImplProc _, MCProc ps => let '(ps, ready) := mp_tick now m ps in (g, MCProc ps, [], SRet ready None)
  | ImplProj j, MCProj last =>
    let '(g, last, fs, r) := j_tick_ctrl h j now g last in
    (g, MCProj last, fs, match r with HRet _ e => SRet nil_slice e | HPan v => SPan v end)
  | _, _ => (g, cs, [], SRet nil_slice None)
  end.

(** Engine.handle, engine.go:305-341. *)
Definition m_handle (c : Config) (o : Oracle) (oo : OOs) (env : Env) (oh : option Handler)
    (st : MState) : MState * list Fact * SRes :=
  match oh with
  | None => (st, [], SPan PNil)
  | Some h =>
    match skip_handler h oo with
    | Some r => (st, [HandlingSkipped (h_id h) env r], SRet nil_slice None)
    | None =>
      match ms_cs st !! h_name h with
      | None => (st, [HandlingBegun (h_id h) env], SPan PNil) (* unreachable *)
      | Some cs =>
        let '(m, g, cs, fs, r) := m_ctrl_handle c o h (oo_now oo) env (ms_mem st) (ms_g st) cs in
        let st := mkM m g (<[h_name h := cs]> (ms_cs st)) in
        match r with
        | SPan v => (st, HandlingBegun (h_id h) env :: fs, SPan v)
        | SRet envs e =>
          (st, HandlingBegun (h_id h) env :: fs ++ [HandlingCompleted (h_id h) env e], SRet envs e)
        end
      end
    end
  end.

(** The loop over the controllers of one message, engine.go:270-286: what they
    return is appended to the queue (273). *)
Fixpoint m_handlers (c : Config) (o : Oracle) (oo : OOs) (env : Env) (hs : list (option Handler))
    (q : Slice) (st : MState) : MState * list Fact * ((Slice * Errs) + PVal) :=
  match hs with
  | [] => (st, [], inl (q, []))
  | h :: hs =>
    let '(st, fs, r) := m_handle c o oo env h st in
    match r with
    | SPan v => (st, fs, inr v)
    | SRet envs e =>
      let '(m, q) := go_append (ms_mem st) q (cells (ms_mem st) envs) in
      let '(st, fs', r') := m_handlers c o oo env hs q (ms_set_mem st m) in
      match r' with
      | inr v => (st, fs ++ fs', inr v)
      | inl (q, errs') => (st, fs ++ fs', inl (q, wrap h e ++ errs'))
      end
    end
  end.

(** The loop body of Engine.dispatch for one message, engine.go:251-295. *)
Definition m_message (c : Config) (o : Oracle) (oo : OOs) (env : Env) (q : Slice) (st : MState)
  : MState * list Fact * ((Slice * Errs) + PVal) :=
  match targets c env with
  | None => (st, [], inr PNil)
  | Some hs =>
    let '(st, fs, r) := m_handlers c o oo env hs q st in
    match r with
    | inr v => (st, DispatchBegun env :: fs, inr v)
    | inl (q, derr) =>
      (st, DispatchBegun env :: fs ++ [DispatchCompleted env derr], inl (q, derr))
    end
  end.

(** Engine.dispatch, engine.go:240-303: env := queue[0]; queue = queue[1:]
    (248-249). *)
Fixpoint m_loop (c : Config) (o : Oracle) (oo : OOs) (fuel : nat) (q : Slice) (err : Errs)
    (st : MState) : MState * list Fact * Out Errs :=
  match s_len q with
  | 0 => (st, [], Ok err)
  | S _ =>
    match fuel with
    | 0 => (st, [], Fuel)
    | S fuel =>
      match cells (ms_mem st) q !! 0 with
      | Some (Some env) =>
        let '(st, fs, r) := m_message c o oo env (slice_from q 1) st in
        match r with
        | inr v => (st, fs, Pan v)
        | inl (q, derr) =>
          let '(g, ce) := poll_ctx o (ms_g st) in
          let st := ms_set_g st g in
          match ce with
          | Some e => (st, fs, Ok [e])
          | None =>
            let '(st, fs', r) := m_loop c o oo fuel q (err ++ derr) st in
            (st, fs ++ fs', r)
          end
        end
      | _ => (st, [], Pan PNil) (* unreachable: nil in the queue *)
      end
    end
  end.

(** Engine.Dispatch, engine.go:184-238; the array of the variadic argument of
    dispatch() is new (225). *)
Definition m_dispatch (c : Config) (o : Oracle) (fuel : nat) (msg : Msg) (opts : list OOpt)
    (st : MState) : MState * list Fact * Out Errs :=
  let '(g, id) := next_id o (ms_g st) in
  let st := ms_set_g st g in
  match new_opts c (o_wall o) opts with
  | inr v => (st, [], Pan v)
  | inl oo =>
    match m_kind msg with
    | KTimeout => (st, [], Pan (PEngine "cannot dispatch a timeout" (Some msg)))
    | _ =>
      let env := new_root id msg (oo_now oo) in
      match m_invalid msg with
      | Some _ => (st, [], Pan (PEngine "cannot dispatch invalid message" (Some msg)))
      | None =>
        match routes c !! m_type msg with
        | None => (st, [], Pan (PEngine "not consumed by any handlers" (Some msg)))
        | Some _ =>
          let f := DispatchCycleBegun env (oo_now oo) (oo_types oo) (oo_handlers oo) in
          let '(g, le) := lock o (ms_g st) in
          let st := ms_set_g st g in
          match le with
          | Some e =>
            (st, [f; DispatchCycleCompleted env [e] (oo_types oo) (oo_handlers oo)], Ok [e])
          | None =>
            let '(m, a) := new_array (ms_mem st) [Some env] in
            let '(st, fs, r) := m_loop c o oo fuel (mkSlice a 0 1 1) [] (ms_set_mem st m) in
            match r with
            | Ok err =>
              (st, f :: fs ++ [DispatchCycleCompleted env err (oo_types oo) (oo_handlers oo)], Ok err)
            | _ => (st, f :: fs, r)
            end
          end
        end
      end
    end
  end.

(** The result of the loop over the controllers in Engine.tick. *)
Inductive MTRes := MTQueue (q : Slice) (err : Errs) | MTCancel (e : Err) | MTPan (v : PVal).

(** One iteration of the loop of Engine.tick up to the TickCompleted fact,
    engine.go:127-164. *)
Definition m_tick_one (c : Config) (oo : OOs) (h : Handler) (st : MState)
  : MState * list Fact * SRes :=
  match skip_handler h oo with
  | Some r => (st, [TickSkipped (h_id h) r], SRet nil_slice None)
  | None =>
    match ms_cs st !! h_name h with
    | None => (st, [TickBegun (h_id h)], SPan PNil) (* unreachable *)
    | Some cs =>
      let '(g, cs, fs, r) := m_ctrl_tick h (oo_now oo) (ms_mem st) (ms_g st) cs in
      let st := mkM (ms_mem st) g (<[h_name h := cs]> (ms_cs st)) in
      match r with
      | SPan v => (st, TickBegun (h_id h) :: fs, SPan v)
      | SRet envs e => (st, TickBegun (h_id h) :: fs ++ [TickCompleted (h_id h) e], SRet envs e)
      end
    end
  end.

(** engine.go:127-136, 166-168. *)
Definition m_poll_unless_skipped (o : Oracle) (oo : OOs) (h : Handler) (st : MState)
  : MState * option Err :=
  match skip_handler h oo with
  | Some _ => (st, None)
  | None => let '(g, ce) := poll_ctx o (ms_g st) in (ms_set_g st g, ce)
  end.

(** Engine.tick up to the call of dispatch, engine.go:121-169: what the
    controllers return is appended to the queue (145). *)
Fixpoint m_tick_handlers (c : Config) (o : Oracle) (oo : OOs) (hs : list Handler) (q : Slice)
    (st : MState) : MState * list Fact * MTRes :=
  match hs with
  | [] => (st, [], MTQueue q [])
  | h :: hs =>
    let '(st, fs, r) := m_tick_one c oo h st in
    match r with
    | SPan v => (st, fs, MTPan v)
    | SRet envs e =>
      let '(m, q) := go_append (ms_mem st) q (cells (ms_mem st) envs) in
      let '(st, ce) := m_poll_unless_skipped o oo h (ms_set_mem st m) in
      match ce with
      | Some e => (st, fs, MTCancel e)
      | None =>
        let '(st, fs', res) := m_tick_handlers c o oo hs q st in
        (st, fs ++ fs',
         match res with
         | MTQueue q errs => MTQueue q (wrap (Some h) e ++ errs)
         | _ => res
         end)
      end
    end
  end.

(** Engine.tick, engine.go:117-179. *)
Definition m_tick_body (c : Config) (o : Oracle) (oo : OOs) (fuel : nat) (order : list Handler)
    (st : MState) : MState * list Fact * Out Errs :=
  let '(st, fs, res) := m_tick_handlers c o oo order nil_slice st in
  match res with
  | MTPan v => (st, fs, Pan v)
  | MTCancel e => (st, fs, Ok [e])
  | MTQueue q errs =>
    let '(st, fs', r) := m_loop c o oo fuel q [] st in
    (st, fs ++ fs', match r with Ok errs' => Ok (errs ++ errs') | _ => r end)
  end.

(** Engine.Tick, engine.go:86-115. *)
Definition m_tick (c : Config) (o : Oracle) (fuel : nat) (order : list Handler) (opts : list OOpt)
    (st : MState) : MState * list Fact * Out Errs :=
  match new_opts c (o_wall o) opts with
  | inr v => (st, [], Pan v)
  | inl oo =>
    let f := TickCycleBegun (oo_now oo) (oo_types oo) (oo_handlers oo) in
    let '(g, le) := lock o (ms_g st) in
    let st := ms_set_g st g in
    match le with
    | Some e => (st, [f; TickCycleCompleted [e] (oo_types oo) (oo_handlers oo)], Ok [e])
    | None =>
      let '(st, fs, r) := m_tick_body c o oo fuel order st in
      match r with
      | Ok err => (st, f :: fs ++ [TickCycleCompleted err (oo_types oo) (oo_handlers oo)], Ok err)
      | _ => (st, f :: fs, r)
      end
    end
  end.

(** The operations of EngineModel's [Op], the methods of engine.go:67-238. *)
Definition m_run_op (c : Config) (op : Op) (st : MState) : MState * list Ev * Out Errs :=
  match op with
  | OpDispatch o fuel m opts =>
    let '(st, fs, r) := m_dispatch c o fuel m opts st in (st, EvFact <$> fs, r)
  | OpTick o fuel order opts =>
    let '(st, fs, r) := m_tick c o fuel order opts st in (st, EvFact <$> fs, r)
  | OpReset => (m_reset c st, [EvReset], Ok [])
  | OpUser f => (ms_set_g st (g_act f (ms_g st)), [], Ok [])
  end.

(** A sequence of operations, as EngineModel's [run_ops], with the result of each
    of them. *)
Fixpoint m_run_ops (c : Config) (ops : list Op) (st : MState)
  : MState * list Ev * list (Out Errs) :=
  match ops with
  | [] => (st, [], [])
  | op :: ops =>
    let '(st, evs, r) := m_run_op c op st in
    match r with
    | Fuel => (st, evs, [r])
    | _ => let '(st, evs', rs) := m_run_ops c ops st in (st, evs ++ evs', r :: rs)
    end
  end.

End Mem.
