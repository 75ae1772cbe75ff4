(** * Vocabulary for projections. *)
From Verif Require Export TraceSpec.

Section ProjSpec.
Context {P : Params}.

(** ** Compaction by Tick *)

(** All facts of a history; calls of Reset are ignored. *)
Definition all_facts (evs : list Ev) : list Fact :=
  omap (fun ev => match ev with EvFact f => Some f | EvReset => None end) evs.
(** [f] is notified just after the facts [pre]. *)
Definition occurs_after (evs : list Ev) (pre : list Fact) (f : Fact) : Prop :=
  exists before after, evs = before ++ EvFact f :: after /\ pre = all_facts before.

(** What an observer knows about compaction: the engine time of the operation in
    progress, the handler whose Tick is in progress, whether a compaction was
    begun during this Tick, and when the last Tick-driven compaction of each
    handler was begun (initially at the zero time). *)
Record Clock := mkClock {
  ck_now : Z; ck_tick : option HId; ck_did : bool; ck_last : HId -> Z }.
Definition clock_step (x : Clock) (f : Fact) : Clock :=
  match f with
  | DispatchCycleBegun _ now _ _ | TickCycleBegun now _ _ => mkClock now None false (ck_last x)
  | TickBegun h => mkClock (ck_now x) (Some h) false (ck_last x)
  | TickCompleted _ _ | HandlingBegun _ _ => mkClock (ck_now x) None false (ck_last x)
  | ProjectionCompactionBegun h =>
    if decide (ck_tick x = Some h)
    then mkClock (ck_now x) (Some h) true (fun h' => if decide (h' = h) then ck_now x else ck_last x h')
    else x
  | _ => x
  end.
Definition clock (fs : list Fact) : Clock := foldl clock_step (mkClock 0 None false (fun _ => 0%Z)) fs.

(** One hour in nanoseconds. *)
Definition hour : Z := 60 * 60 * (1000 * 1000 * 1000).

(** A compaction of [h] is begun by Tick just after [pre]. *)
Definition tick_compacts (evs : list Ev) (pre : list Fact) (h : HId) : Prop :=
  occurs_after evs pre (ProjectionCompactionBegun h) /\ ck_tick (clock pre) = Some h.

(** ** Calls of a projection's methods *)

(** What a projection handler sees: ResourceVersion(id) and its answer,
    HandleEvent(id, current, next, event) with RecordedAt(), its answer,
    CloseResource(id) and its answer, Compact() with Now() and its answer. *)
Inductive Call :=
| CVersion (id : string) (a : (string * option Err) + PVal)
| CHandle (id cur next : string) (t : Z) (m : Msg)
| CHandled (ok : bool) (e : option Err)
| CClose (id : string) (a : option Err + PVal)
| CCompact (now : Z)
| CCompacted (e : option Err).

Section Recording.
Context (calls : U -> list Call).

(** A method that does nothing to the record of calls but add its answer just
    before it returns (if it does not panic). *)
Inductive answers {A} (ret : A -> Call) : JProg A -> Prop :=
| an_ret f k a : (forall u, calls (f u) = calls u ++ [ret a]) -> (forall u, k u = JRet a) -> answers ret (JAct f k)
| an_panic v : answers ret (JPanic v)
| an_act f k : (forall u, calls (f u) = calls u) -> (forall u, answers ret (k u)) -> answers ret (JAct f k)
| an_log s k : answers ret k -> answers ret (JLog s k).
(** A method that first records that it was called, and then its answer. *)
Definition records {A} (call : Call) (ret : A -> Call) (p : JProg A) : Prop :=
  exists f k, p = JAct f k /\ (forall u, calls (f u) = calls u ++ [call]) /\ forall u, answers ret (k u).

(** A projection that records in its world all calls it receives. *)
Record recording (j : ProjImpl) : Prop := {
  rc_version : forall id u u' a, pj_version j id u = (u', a) -> calls u' = calls u ++ [CVersion id a];
  rc_handle : forall id cur next t m,
    records (CHandle id cur next t m) (fun a : bool * option Err => CHandled a.1 a.2) (pj_handle j id cur next t m);
  rc_close : forall id u u' a, pj_close j id u = (u', a) -> calls u' = calls u ++ [CClose id a];
  rc_compact : forall now, records (CCompact now) CCompacted (pj_compact j now) }.
End Recording.

Definition is_compaction (k : Call) : Prop :=
  match k with CCompact _ | CCompacted _ => True | _ => False end.
Global Instance is_compaction_dec k : Decision (is_compaction k).
Proof. destruct k; cbn; apply _. Defined.

(** The protocol: the calls a projection [h] receives for the message [m] with the
    given ID and creation time, apart from compaction, and what becomes of them.
    [ce] is the error of the compaction, if any. *)
Inductive Session (h : HId) (id : string) (t : Z) (m : Msg) (ce : option Err) : list Call -> HRes -> Prop :=
| ss_version_error cur e :
    Session h id t m ce [CVersion id (inl (cur, Some e))] (HRet [] (Some e))
| ss_version_panic v :
    Session h id t m ce [CVersion id (inr v)] (HPan v)
| ss_handled_already cur : cur <> "" ->
    Session h id t m ce [CVersion id (inl (cur, None))] (HRet [] None)
| ss_handle_panic next v w : next <> "" ->
    w = (match v with PRaw => PUnexpMsg h "ProjectionMessageHandler" "HandleEvent" m | _ => v end) ->
    Session h id t m ce [CVersion id (inl ("", None)); CHandle id "" next t m] (HPan w)
| ss_handle_error next ok e : next <> "" ->
    Session h id t m ce [CVersion id (inl ("", None)); CHandle id "" next t m; CHandled ok (Some e)]
      (HRet [] (Some e))
| ss_conflict next : next <> "" ->
    Session h id t m ce [CVersion id (inl ("", None)); CHandle id "" next t m; CHandled false None]
      (HRet [] ce)
| ss_close_panic next v : next <> "" ->
    Session h id t m ce [CVersion id (inl ("", None)); CHandle id "" next t m; CHandled true None; CClose id (inr v)]
      (HPan v)
| ss_close_error next e : next <> "" ->
    Session h id t m ce [CVersion id (inl ("", None)); CHandle id "" next t m; CHandled true None; CClose id (inl (Some e))]
      (HRet [] (Some e))
| ss_closed next : next <> "" ->
    Session h id t m ce [CVersion id (inl ("", None)); CHandle id "" next t m; CHandled true None; CClose id (inl None)]
      (HRet [] ce).

(** The calls of Compact() that go with it: none, or just one, which has returned
    unless there was a panic. *)
Definition handles_event (ks : list Call) : Prop := exists id cur next t m, CHandle id cur next t m ∈ ks.
Definition compaction_calls (during : bool) (now : Z) (ks : list Call) (r : HRes) (ce : option Err) (cks : list Call) : Prop :=
  match during, r with
  | true, HRet _ _ => (handles_event ks -> cks = [CCompact now; CCompacted ce]) /\ (~ handles_event ks -> cks = [])
  | true, HPan _ => cks `prefix_of` [CCompact now; CCompacted ce]
  | false, _ => cks = [] /\ ce = None
  end.

(** ** The facts of a projection *)

(** [JPath p logs a]: there is a run of the method [p] that logs [logs] and returns
    [a]. *)
Inductive JPath {A} : JProg A -> list string -> A -> Prop :=
| jp_ret a : JPath (JRet a) [] a
| jp_act f k u logs a : JPath (k u) logs a -> JPath (JAct f k) logs a
| jp_log s k logs a : JPath k logs a -> JPath (JLog s k) (s :: logs) a.

(** The facts notified by one goroutine, in order. *)
Definition by_thread (th : Thread) (l : list (Thread * Fact)) : list Fact :=
  omap (fun p => match p.1, th with TMain, TMain | TCompact, TCompact => Some p.2 | _, _ => None end) l.

(** A method that never logs. *)
Inductive silent {A} : JProg A -> Prop :=
| si_ret a : silent (JRet a)
| si_panic v : silent (JPanic v)
| si_act f k : (forall u, silent (k u)) -> silent (JAct f k).

(** A method that never panics. *)
Inductive calm {A} : JProg A -> Prop :=
| ca_ret a : calm (JRet a)
| ca_act f k : (forall u, calm (k u)) -> calm (JAct f k)
| ca_log s k : calm k -> calm (JLog s k).
End ProjSpec.
