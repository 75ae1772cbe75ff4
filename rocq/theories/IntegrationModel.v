(** * engine/internal/integration *)
From Verif Require Export HandlerModel.

Section Integration.
Context {P : Params}.
Section Scope.
Context (o : Oracle) (h : Handler) (now : Z) (cmd : Env).

(** scope.RecordEvent, engine/internal/integration/scope.go:27-71. *)
Definition i_record (b : Body) (g : GState) (evs : list Env)
  : GState * list Env * list Fact * option PVal :=
  let m := mkMsg KEvent b in
  let mt := m_type m in
  if negb (produces h mt) then
    (g, evs, [], Some (PUnexpBeh (h_id h) "IntegrationMessageHandler" "HandleCommand" (e_msg cmd) (BUndeclared mt)))
  else
  match m_invalid m with
  | Some e =>
    (g, evs, [], Some (PUnexpBeh (h_id h) "IntegrationMessageHandler" "HandleCommand" (e_msg cmd) (BInvalid mt e)))
  | None =>
    let '(g, mid) := next_id o g in
    let ev := new_child cmd mid m now (mkOrigin (h_id h) HTIntegration "") in
    (g, evs ++ [ev], [EventRecordedByIntegration (h_id h) cmd ev], None)
  end.

(** Running HandleCommand against the scope; scope.Log is scope.go:73-80. *)
Fixpoint i_run (p : IProg) (g : GState) (evs : list Env)
  : GState * list Env * list Fact * (option Err + PVal) :=
  match p with
  | IRet e => (g, evs, [], inl e)
  | IPanic v => (g, evs, [], inr v)
  | IAct f k => i_run (k (g_user g)) (g_act f g) evs
  | IRecord b k =>
      let '(g, evs, fs, v) := i_record b g evs in
      let '(g, evs, fs', r) := i_run (k v) g evs in
      (g, evs, fs ++ fs', r)
  | ILog str k =>
      let '(g, evs, fs', r) := i_run k g evs in
      (g, evs, MessageLoggedByIntegration (h_id h) cmd str :: fs', r)
  end.
End Scope.

(** Controller.Handle, engine/internal/integration/controller.go:39-76. *)
Definition i_handle (o : Oracle) (h : Handler) (i : IntImpl) (now : Z) (env : Env)
    (g : GState) : GState * list Fact * HRes :=
  let m := e_msg env in
  if negb (consumes h (m_type m)) then
    (g, [], HPan (PEngine "does not handle" (Some m)))
  else
  let '(g, evs, fs, r) := i_run o h now env (in_handle i m) g [] in
  match r with
  | inl e => (g, fs, HRet evs e)
  | inr v =>
    (g, fs, HPan (default v (enrich (h_id h) "IntegrationMessageHandler" "HandleCommand" m (Some v))))
  end.
End Integration.
