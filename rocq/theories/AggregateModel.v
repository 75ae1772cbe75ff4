(** * engine/internal/aggregate *)
From Verif Require Export HandlerModel.

Section Aggregate.
Context {P : Params}.

(** aggregate.scope, engine/internal/aggregate/scope.go:18-29 (the mutable
    fields).  [as_hroot] is the object given to HandleCommand; [as_own] is
    [None] while scope.root is that same object and [Some r] once Destroy() has
    replaced scope.root by a new object. *)
Record AScope := mkAScope {
  as_hroot : Root; as_own : option Root;
  as_exists : bool; as_destroyed : bool; as_events : list Env }.

(** scope.root *)
Definition as_root (s : AScope) : Root := default (as_hroot s) (as_own s).
Definition as_set_root (s : AScope) (r : Root) : AScope :=
  match as_own s with
  | None => mkAScope r None (as_exists s) (as_destroyed s) (as_events s)
  | Some _ => mkAScope (as_hroot s) (Some r) (as_exists s) (as_destroyed s) (as_events s)
  end.

Section Scope.
Context (o : Oracle) (h : Handler) (a : AggImpl) (now : Z) (cmd : Env) (id : string).

(** scope.Destroy, scope.go:35-50.  New() is the constant [ag_new]; it was not nil
    when the instance was loaded. *)
Definition a_destroy (s : AScope) : AScope * list Fact :=
  if as_exists s then
    let r := default (as_root s) (ag_new a) in
    (mkAScope (as_hroot s) (Some r) false true (as_events s),
     [AggregateInstanceDestroyed (h_id h) id r cmd])
  else (s, []).

(** scope.RecordEvent, scope.go:52-131. *)
Definition a_record (b : Body) (g : GState) (s : AScope)
  : GState * AScope * list Fact * option PVal :=
  let m := mkMsg KEvent b in
  let mt := m_type m in
  if negb (produces h mt) then
    (g, s, [], Some (PUnexpBeh (h_id h) "AggregateMessageHandler" "HandleCommand" (e_msg cmd) (BUndeclared mt)))
  else
  match m_invalid m with
  | Some e =>
    (g, s, [], Some (PUnexpBeh (h_id h) "AggregateMessageHandler" "HandleCommand" (e_msg cmd) (BInvalid mt e)))
  | None =>
    let '(s1, fs1) :=
      if as_exists s then (s, [])
      else
        (mkAScope (as_hroot s) (as_own s) true false (as_events s),
         [if as_destroyed s
          then AggregateInstanceDestructionReverted (h_id h) id (as_root s) cmd
          else AggregateInstanceCreated (h_id h) id (as_root s) cmd]) in
    let '(r, v) := ag_apply a (as_root s1) m in
    let s2 := as_set_root s1 r in
    match enrich (h_id h) "AggregateRoot" "ApplyEvent" m v with
    | Some v => (g, s2, fs1, Some v)
    | None =>
      let '(g, mid) := next_id o g in
      let ev := new_child cmd mid m now (mkOrigin (h_id h) HTAggregate id) in
      (g,
       mkAScope (as_hroot s2) (as_own s2) (as_exists s2) (as_destroyed s2) (as_events s2 ++ [ev]),
       fs1 ++ [EventRecordedByAggregate (h_id h) id (as_root s2) cmd ev],
       None)
    end
  end.

(** Running HandleCommand against the scope. *)
Fixpoint a_run (p : AProg) (g : GState) (s : AScope) : GState * AScope * list Fact * option PVal :=
  match p with
  | ARet => (g, s, [], None)
  | APanic v => (g, s, [], Some v)
  | AAct f k => a_run (k (g_user g)) (g_act f g) s
  | AMutate f k =>
      let r := f (as_hroot s) in
      a_run (k r) g (mkAScope r (as_own s) (as_exists s) (as_destroyed s) (as_events s))
  | ARecord b k =>
      let '(g, s, fs, v) := a_record b g s in
      let '(g, s, fs', v') := a_run (k v) g s in
      (g, s, fs ++ fs', v')
  | ADestroy k =>
      let '(s, fs) := a_destroy s in
      let '(g, s, fs', v') := a_run k g s in
      (g, s, fs ++ fs', v')
  | ALog str k =>
      (* scope.Log, scope.go:133-142 *)
      let f := MessageLoggedByAggregate (h_id h) id (as_root s) cmd str in
      let '(g, s, fs', v') := a_run k g s in
      (g, s, f :: fs', v')
  end.
End Scope.

(** The replay loop, controller.go:95-108; stops at the first panic. *)
Fixpoint a_replay (h : Handler) (a : AggImpl) (r : Root) (evs : list Env) : Root * option PVal :=
  match evs with
  | [] => (r, None)
  | ev :: evs =>
    let '(r, v) := ag_apply a r (e_msg ev) in
    match enrich (h_id h) "AggregateRoot" "ApplyEvent" (e_msg ev) v with
    | Some v => (r, Some v)
    | None => a_replay h a r evs
    end
  end.

(** Controller.history, controller.go:23. *)
Notation Hist := (gmap string (list Env)).

(** Controller.Handle, controller.go:42-160. *)
Definition a_handle (o : Oracle) (h : Handler) (a : AggImpl) (now : Z) (env : Env)
    (g : GState) (hist : Hist) : GState * Hist * list Fact * HRes :=
  let m := e_msg env in
  if negb (consumes h (m_type m)) then
    (g, hist, [], HPan (PEngine "does not handle" (Some m)))
  else
  match ag_route a m with
  | inr v =>
    let v := default v (enrich (h_id h) "AggregateMessageHandler" "RouteCommandToInstance" m (Some v)) in
    (g, hist, [], HPan v)
  | inl id =>
    if decide (id = "") then
      (g, hist, [], HPan (PUnexpBeh (h_id h) "AggregateMessageHandler" "RouteCommandToInstance" m (BEmptyID (m_type m))))
    else
    match ag_new a with
    | None =>
      (g, hist, [], HPan (PUnexpBeh (h_id h) "AggregateMessageHandler" "New" m BNilRoot))
    | Some r0 =>
      let '(r, v) := a_replay h a r0 (default [] (hist !! id)) in
      match v with
      | Some v => (g, hist, [], HPan v)
      | None =>
        let ex := bool_decide (is_Some (hist !! id)) in
        let f := if ex then AggregateInstanceLoaded (h_id h) id r env
                 else AggregateInstanceNotFound (h_id h) id env in
        let s := mkAScope r None ex false [] in
        let '(g, s, fs, v) := a_run o h a now env id (ag_handle a id m) g s in
        match enrich (h_id h) "AggregateMessageHandler" "HandleCommand" m v with
        | Some v => (g, hist, f :: fs, HPan v)
        | None =>
          let hist' :=
            if as_exists s then <[id := default [] (hist !! id) ++ as_events s]> hist
            else delete id hist in
          (g, hist', f :: fs, HRet (as_events s) None)
        end
      end
    end
  end.

End Aggregate.
