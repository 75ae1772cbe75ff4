(** * engine/internal/process *)
From Verif Require Export HandlerModel.

Section Process.
Context {P : Params}.

(** process.scope, engine/internal/process/scope.go:19-32 (the mutable fields). *)
Record PScope := mkPScope {
  ps_root : Root; ps_ended : bool;
  ps_commands : list Env; ps_ready : list Env; ps_pending : list Env }.

Section Scope.
Context (o : Oracle) (h : Handler) (now : Z) (env : Env) (id : string) (meth : string).

Definition p_beh (d : BDesc) : PVal :=
  PUnexpBeh (h_id h) "ProcessMessageHandler" meth (e_msg env) d.

(** The checks shared by ExecuteCommand and ScheduleTimeout, scope.go:54-78,
    118-142. *)
Definition p_check (m : Msg) : option PVal :=
  if negb (produces h (m_type m)) then Some (p_beh (BUndeclared (m_type m)))
  else match m_invalid m with
       | Some e => Some (p_beh (BInvalid (m_type m) e))
       | None => None
       end.

(** scope.go:80-89, 144-153: un-end the process. *)
Definition p_revert (s : PScope) : PScope * list Fact :=
  if ps_ended s then
    (mkPScope (ps_root s) false (ps_commands s) (ps_ready s) (ps_pending s),
     [ProcessInstanceEndingReverted (h_id h) id (ps_root s) env])
  else (s, []).

(** scope.ExecuteCommand, scope.go:53-111. *)
Definition p_execute (b : Body) (g : GState) (s : PScope)
  : GState * PScope * list Fact * option PVal :=
  let m := mkMsg KCommand b in
  match p_check m with
  | Some v => (g, s, [], Some v)
  | None =>
    let '(s, fs) := p_revert s in
    let '(g, mid) := next_id o g in
    let c := new_child env mid m now (mkOrigin (h_id h) HTProcess id) in
    (g, mkPScope (ps_root s) (ps_ended s) (ps_commands s ++ [c]) (ps_ready s) (ps_pending s),
     fs ++ [CommandExecutedByProcess (h_id h) id (ps_root s) env c], None)
  end.

(** scope.ScheduleTimeout, scope.go:117-180. *)
Definition p_schedule (b : Body) (t : Z) (g : GState) (s : PScope)
  : GState * PScope * list Fact * option PVal :=
  let m := mkMsg KTimeout b in
  match p_check m with
  | Some v => (g, s, [], Some v)
  | None =>
    let '(s, fs) := p_revert s in
    let '(g, mid) := next_id o g in
    let x := new_timeout env mid m now t (mkOrigin (h_id h) HTProcess id) in
    let s :=
      if (now <? t)%Z
      then mkPScope (ps_root s) (ps_ended s) (ps_commands s) (ps_ready s) (ps_pending s ++ [x])
      else mkPScope (ps_root s) (ps_ended s) (ps_commands s) (ps_ready s ++ [x]) (ps_pending s) in
    (g, s, fs ++ [TimeoutScheduledByProcess (h_id h) id (ps_root s) env x], None)
  end.

(** scope.End, scope.go:38-51. *)
Definition p_end (s : PScope) : PScope * list Fact :=
  if ps_ended s then (s, [])
  else (mkPScope (ps_root s) true (ps_commands s) (ps_ready s) (ps_pending s),
        [ProcessInstanceEnded (h_id h) id (ps_root s) env]).

(** Running HandleEvent / HandleTimeout; scope.Log is scope.go:186-195. *)
Fixpoint p_run (p : PProg) (g : GState) (s : PScope)
  : GState * PScope * list Fact * (option Err + PVal) :=
  match p with
  | PRet e => (g, s, [], inl e)
  | PPanic v => (g, s, [], inr v)
  | PAct f k => p_run (k (g_user g)) (g_act f g) s
  | PMutate f k =>
      let r := f (ps_root s) in
      p_run (k r) g (mkPScope r (ps_ended s) (ps_commands s) (ps_ready s) (ps_pending s))
  | PExecute b k =>
      let '(g, s, fs, v) := p_execute b g s in
      let '(g, s, fs', r) := p_run (k v) g s in
      (g, s, fs ++ fs', r)
  | PSchedule b t k =>
      let '(g, s, fs, v) := p_schedule b t g s in
      let '(g, s, fs', r) := p_run (k v) g s in
      (g, s, fs ++ fs', r)
  | PEnd k =>
      let '(s, fs) := p_end s in
      let '(g, s, fs', r) := p_run k g s in
      (g, s, fs ++ fs', r)
  | PLog str k =>
      let f := MessageLoggedByProcess (h_id h) id (ps_root s) env str in
      let '(g, s, fs', r) := p_run k g s in
      (g, s, f :: fs', r)
  end.
End Scope.

(** process.Controller.instances and timeouts, controller.go:24-25.  Roots are
    stored by reference in Go; see [p_store_mutation]. *)
Record PState := mkPState { pc_instances : gmap string Root; pc_timeouts : list Env }.

Definition origin_instance (e : Env) : string :=
  match e_origin e with Some og => o_instance og | None => "" end.

(** Controller.Tick, controller.go:35-58: the timeouts before the first one that
    is after [now] are ready, the others stay. *)
Fixpoint p_split (now : Z) (l : list Env) : list Env * list Env :=
  match l with
  | [] => ([], [])
  | e :: l' =>
    if (now <? e_sched e)%Z then ([], l)
    else let '(a, b) := p_split now l' in (e :: a, b)
  end.
Definition p_tick (now : Z) (ps : PState) : PState * list Env :=
  let '(ready, rest) := p_split now (pc_timeouts ps) in
  (mkPState (pc_instances ps) rest, ready).

(** Controller.route, routeEvent, routeTimeout, controller.go:156-238. *)
Inductive PRoute :=
| RouteTo (id : string)
| RouteNone
| RouteErr (e : Err)
| RoutePan (v : PVal).

Definition p_route (h : Handler) (pi : ProcImpl) (env : Env) (g : GState) (ps : PState)
  : GState * list Fact * PRoute :=
  let m := e_msg env in
  match m_kind m with
  | KEvent =>
    let '(u, r) := pr_route pi m (g_user g) in
    let g := mkG (g_next g) u (g_step g) in
    match r with
    | inr v => (g, [], RoutePan (default v (enrich (h_id h) "ProcessMessageHandler" "RouteEventToInstance" m (Some v))))
    | inl (_, _, Some e) => (g, [], RouteErr e)
    | inl (id, true, None) =>
      if decide (id = "") then
        (g, [], RoutePan (PUnexpBeh (h_id h) "ProcessMessageHandler" "RouteEventToInstance" m (BEmptyID (m_type m))))
      else (g, [], RouteTo id)
    | inl (_, false, None) => (g, [ProcessEventIgnored (h_id h) env], RouteNone)
    end
  | KTimeout =>
    match e_origin env with
    | None => (g, [], RoutePan PNil)
    | Some og =>
      match pc_instances ps !! o_instance og with
      | Some _ => (g, [], RouteTo (o_instance og))
      | None => (g, [ProcessTimeoutIgnored (h_id h) (o_instance og) env], RouteNone)
      end
    end
  | KCommand => (g, [], RoutePan PNil) (* nil callback of message.SwitchByKindOf *)
  end.

(** Controller.update, controller.go:263-279. *)
Definition p_update (o : Oracle) (id : string) (s : PScope) (ps : PState) : PState :=
  mkPState (<[id := ps_root s]> (pc_instances ps))
           (o_sort o (pc_timeouts ps ++ ps_pending s)).

(** Controller.delete, controller.go:282-295. *)
Definition p_delete (id : string) (ps : PState) : PState :=
  mkPState (delete id (pc_instances ps))
           (filter (fun e => origin_instance e <> id) (pc_timeouts ps)).

(** The handler works on the stored root object itself, so whatever it did to it
    stays even if the handling fails (controller.go:78, 116-134). *)
Definition p_store_mutation (id : string) (s : PScope) (ps : PState) : PState :=
  match pc_instances ps !! id with
  | Some _ => mkPState (<[id := ps_root s]> (pc_instances ps)) (pc_timeouts ps)
  | None => ps
  end.

(** Controller.Handle from the point where the root is known, controller.go:116-147. *)
Definition p_handle_instance (o : Oracle) (h : Handler) (pi : ProcImpl) (now : Z) (env : Env)
    (id : string) (r : Root) (g : GState) (ps : PState)
  : GState * PState * list Fact * HRes :=
  let m := e_msg env in
  let '(meth, prog) :=
    match m_kind m with
    | KTimeout => ("HandleTimeout", pr_timeout pi id (e_sched env) m)
    | _ => ("HandleEvent", pr_event pi id (e_created env) m)
    end in
  let exists_ := bool_decide (is_Some (pc_instances ps !! id)) in
  let '(g, s, fs, res) := p_run o h now env id meth prog g (mkPScope r false [] [] []) in
  match res with
  | inr v =>
    (g, p_store_mutation id s ps, fs,
     HPan (default v (enrich (h_id h) "ProcessMessageHandler" meth m (Some v))))
  | inl (Some e) => (g, p_store_mutation id s ps, fs, HRet [] (Some e))
  | inl None =>
    if ps_ended s then
      (g, if exists_ then p_delete id ps else ps, fs, HRet (ps_commands s) None)
    else
      (g, p_update o id s ps, fs, HRet (ps_commands s ++ ps_ready s) None)
  end.

(** Controller.Handle, controller.go:61-147. *)
Definition p_handle (o : Oracle) (h : Handler) (pi : ProcImpl) (now : Z) (env : Env)
    (g : GState) (ps : PState) : GState * PState * list Fact * HRes :=
  let m := e_msg env in
  if negb (consumes h (m_type m)) then
    (g, ps, [], HPan (PEngine "does not handle" (Some m)))
  else
  let '(g, fs, rt) := p_route h pi env g ps in
  match rt with
  | RoutePan v => (g, ps, fs, HPan v)
  | RouteErr e => (g, ps, fs, HRet [] (Some e))
  | RouteNone => (g, ps, fs, HRet [] None)
  | RouteTo id =>
    match pc_instances ps !! id with
    | Some r =>
      let '(g, ps, fs', res) := p_handle_instance o h pi now env id r g ps in
      (g, ps, fs ++ ProcessInstanceLoaded (h_id h) id r env :: fs', res)
    | None =>
      let fs := fs ++ [ProcessInstanceNotFound (h_id h) id env;
                       ProcessInstanceBegun (h_id h) id (pr_new pi) env] in
      match pr_new pi with
      | None => (g, ps, fs, HPan (PUnexpBeh (h_id h) "ProcessMessageHandler" "New" m BNilRoot))
      | Some r =>
        let '(g, ps, fs', res) := p_handle_instance o h pi now env id r g ps in
        (g, ps, fs ++ fs', res)
      end
    end
  end.

End Process.
