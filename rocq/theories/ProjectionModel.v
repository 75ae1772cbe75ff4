(** * engine/internal/projection *)
From Verif Require Export HandlerModel.

Section Projection.
Context {P : Params}.

(** projection.CompactInterval, controller.go:20, in nanoseconds. *)
Definition compact_interval : Z := 3600000000000.

(** Which goroutine notifies a fact: the one that called the engine, or the one
    started for compaction (controller.go:124-133). *)
Inductive Thread := TMain | TCompact.

(** Running one method alone.  scope.Log is
    engine/internal/projection/scope.go:28-35; [ev] is scope.event. *)
Fixpoint j_run {A} (th : Thread) (hid : HId) (ev : option Env) (p : JProg A) (g : GState)
  : GState * list (Thread * Fact) * (A + PVal) :=
  match p with
  | JRet a => (g, [], inl a)
  | JPanic v => (g, [], inr v)
  | JAct f k => j_run th hid ev (k (g_user g)) (g_act f g)
  | JLog s k =>
    let '(g, fs, r) := j_run th hid ev k g in
    (g, (th, MessageLoggedByProjection hid ev s) :: fs, r)
  end.

Definition j_tick (g : GState) : GState := mkG (g_next g) (g_user g) (S (g_step g)).

(** HandleEvent on the main goroutine in parallel with Compact on another one,
    controller.go:124-157: before each step the oracle chooses which of the two
    unfinished methods advances.  The result of HandleEvent is awaited first,
    then that of Compact.  If HandleEvent panics, Handle unwinds immediately and
    the other goroutine is left behind (simplification: its remaining steps are
    not modelled).  If Compact panics, the program crashes ([PFatal]). *)
Fixpoint j_par (o : Oracle) (hid : HId) (ev : Env) {A B} (m : JProg A)
  : JProg B -> GState -> GState * list (Thread * Fact) * ((A * B) + PVal) :=
  fix inner (c : JProg B) (g : GState) {struct c} :=
    match m, c with
    | JRet a, _ =>
      let '(g, fs, r) := j_run TCompact hid None c g in
      (g, fs, match r with inl b => inl (a, b) | inr v => inr (PFatal v) end)
    | _, JRet b =>
      let '(g, fs, r) := j_run TMain hid (Some ev) m g in
      (g, fs, match r with inl a => inl (a, b) | inr v => inr v end)
    | _, _ =>
      let g' := j_tick g in
      if o_sched o (g_step g) then
        match m with
        | JRet _ => (g', [], inr PNil) (* unreachable *)
        | JPanic v => (g', [], inr v)
        | JAct f k => j_par o hid ev (k (g_user g')) c (g_act f g')
        | JLog s k =>
          let '(g, fs, r) := j_par o hid ev k c g' in
          (g, (TMain, MessageLoggedByProjection hid (Some ev) s) :: fs, r)
        end
      else
        match c with
        | JRet _ => (g', [], inr PNil) (* unreachable *)
        | JPanic v => (g', [], inr (PFatal v))
        | JAct f k => inner (k (g_user g')) (g_act f g')
        | JLog s k =>
          let '(g, fs, r) := inner k g' in
          (g, (TCompact, MessageLoggedByProjection hid None s) :: fs, r)
        end
    end.

(** Controller.Tick, controller.go:38-68.  [last] is Controller.lastCompact. *)
Definition j_tick_ctrl (h : Handler) (j : ProjImpl) (now : Z) (g : GState) (last : Z)
  : GState * Z * list Fact * HRes :=
  if (compact_interval <=? now - last)%Z then
    let '(g, fs, r) := j_run TMain (h_id h) None (pj_compact j now) g in
    match r with
    | inl e =>
      (g, now, ProjectionCompactionBegun (h_id h) :: map snd fs
               ++ [ProjectionCompactionCompleted (h_id h) e], HRet [] e)
    | inr v => (g, now, ProjectionCompactionBegun (h_id h) :: map snd fs, HPan v)
    end
  else (g, last, [], HRet [] None).

(** Controller.Handle from the call of HandleEvent on, controller.go:112-164: the
    facts with the goroutine that notifies them, and the results of HandleEvent
    and Compact (nil if compaction during handling is off) or a panic. *)
Definition j_apply (o : Oracle) (compact_during : bool) (h : Handler) (j : ProjImpl) (now : Z)
    (env : Env) (g : GState)
  : GState * list (Thread * Fact) * ((bool * option Err * option Err) + PVal) :=
  let m := e_msg env in
  let hp := pj_handle j (e_id env) "" (String (Ascii.ascii_of_nat 1) "") (e_created env) m in
  let enr v := default v (enrich (h_id h) "ProjectionMessageHandler" "HandleEvent" m (Some v)) in
  if compact_during then
    let '(g, fs, r) := j_par o (h_id h) env hp (pj_compact j now) g in
    match r with
    | inl (ok, e, ce) =>
      (g, (TMain, ProjectionCompactionBegun (h_id h)) :: fs
          ++ [(TMain, ProjectionCompactionCompleted (h_id h) ce)], inl (ok, e, ce))
    | inr v => (g, (TMain, ProjectionCompactionBegun (h_id h)) :: fs, inr (enr v))
    end
  else
    let '(g, fs, r) := j_run TMain (h_id h) (Some env) hp g in
    match r with
    | inl (ok, e) => (g, fs, inl (ok, e, None))
    | inr v => (g, fs, inr (enr v))
    end.

(** Controller.Handle, controller.go:71-181. *)
Definition j_handle_threads (o : Oracle) (compact_during : bool) (h : Handler) (j : ProjImpl)
    (now : Z) (env : Env) (g : GState) : GState * list (Thread * Fact) * HRes :=
  let m := e_msg env in
  if negb (consumes h (m_type m)) then
    (g, [], HPan (PEngine "does not handle" (Some m)))
  else
  let '(u, rv) := pj_version j (e_id env) (g_user g) in
  let g := mkG (g_next g) u (g_step g) in
  match rv with
  | inr v => (g, [], HPan v)
  | inl (_, Some e) => (g, [], HRet [] (Some e))
  | inl (cur, None) =>
    if decide (cur = "") then
      let '(g, fs, r) := j_apply o compact_during h j now env g in
      match r with
      | inr v => (g, fs, HPan v)
      | inl (_, Some e, _) => (g, fs, HRet [] (Some e))
      | inl (ok, None, ce) =>
        if (ok : bool) then
          let '(u, rc) := pj_close j (e_id env) (g_user g) in
          let g := mkG (g_next g) u (g_step g) in
          match rc with
          | inr v => (g, fs, HPan v)
          | inl (Some e) => (g, fs, HRet [] (Some e))
          | inl None => (g, fs, HRet [] ce)
          end
        else (g, fs, HRet [] ce)
      end
    else (g, [], HRet [] None)
  end.

Definition j_handle (o : Oracle) (compact_during : bool) (h : Handler) (j : ProjImpl)
    (now : Z) (env : Env) (g : GState) : GState * list Fact * HRes :=
  let '(g, fs, r) := j_handle_threads o compact_during h j now env g in
  (g, map snd fs, r).
End Projection.
