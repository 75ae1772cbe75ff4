(** * C86: a panic in an observer does not corrupt the engine *)
From Verif Require Import ObsLemmas ObsDemo.

Section PropsObs.
Context {P : Params}.

(** Whatever observers and handlers do, and whatever they panic with: the events
    kept of an aggregate instance are those that have been recorded according to
    the facts notified. *)
Theorem C86_aggregate_events x u ops s evs rs hd hist i :
  xhistory x u ops s evs rs -> hd ∈ c_app (x_cfg x) -> es_cs s.1 !! h_name hd = Some (CSAgg hist) ->
  hist !! i = stored (effective (seen_since evs)) (h_id hd) i.
Proof. apply obs_agg_lemma. Qed.

(** An aggregate instance is loaded if, and only if, it exists, and its root is the
    result of applying all its events, in order. *)
Theorem C86_aggregate_loads x u ops s evs rs pre sn :
  xhistory x u ops s evs rs -> happens evs pre sn ->
  (forall h i r e, sn_fact sn = AggregateInstanceLoaded h i r e ->
     exists a r0 es, aggregate_of (x_cfg x) h a /\ ag_new a = Some r0 /\ ag_route a (e_msg e) = inl i /\
       stored (effective pre) h i = Some es /\ Replay a r0 es r) /\
  (forall h i e, sn_fact sn = AggregateInstanceNotFound h i e -> stored (effective pre) h i = None).
Proof. apply obs_loaded_lemma. Qed.

(** The timeouts a process is waiting for, and its instances, are those that the
    facts notified tell of; they stay in order, and each belongs to an instance. *)
Theorem C86_process_state x u ops s evs rs hd ps :
  xhistory x u ops s evs rs -> hd ∈ c_app (x_cfg x) -> es_cs s.1 !! h_name hd = Some (CSProc ps) ->
  pc_timeouts ps ≡ₚ pending_timeouts (effective (seen_since evs)) (h_id hd) /\
  (forall i, is_Some (pc_instances ps !! i) <-> live (effective (seen_since evs)) (h_id hd) i = true) /\
  chronological (pc_timeouts ps) /\
  (forall t, t ∈ pc_timeouts ps -> exists i, e_origin t = Some (mkOrigin (h_id hd) HTProcess i) /\ is_Some (pc_instances ps !! i)).
Proof. apply obs_proc_lemma. Qed.

Theorem C86_process_loads x u ops s evs rs pre sn :
  xhistory x u ops s evs rs -> happens evs pre sn ->
  (forall h i r e, sn_fact sn = ProcessInstanceLoaded h i r e -> live (effective pre) h i = true) /\
  (forall h i r e, sn_fact sn = ProcessInstanceBegun h i r e ->
     live (effective pre) h i = false /\ exists pi, process_of (x_cfg x) h pi /\ r = pr_new pi) /\
  (forall h i e, sn_fact sn = ProcessTimeoutIgnored h i e -> live (effective pre) h i = false).
Proof. apply obs_begun_lemma. Qed.

(** If handling a message panics, whatever the reason, nothing the handler did
    persists, except for changes to the root of an existing process instance. *)
Theorem C86_failed_aggregate x obs o h a now env g hist g' hist' t w :
  xa_handle x obs o h a now env (g, hist) = (g', hist', t, inr w) -> hist' = hist.
Proof. apply obs_failed_agg_lemma. Qed.
Theorem C86_failed_process x obs o h pi now env g ps g' ps' t w :
  xp_handle x obs o h pi now env (g, ps) = (g', ps', t, inr w) ->
  pc_timeouts ps' = pc_timeouts ps /\ (forall i, is_Some (pc_instances ps' !! i) <-> is_Some (pc_instances ps !! i)).
Proof. apply obs_failed_proc_lemma. Qed.

(** Message IDs are never used twice. *)
Theorem C86_unique_ids x u ops s evs rs :
  xhistory x u ops s evs rs -> (g_next (es_g s.1) < 2 ^ 64)%N ->
  NoDup (e_id <$> fresh_of (sn_fact <$> seen_since evs)).
Proof. apply ids_xhistory. Qed.

(** Tick begins a compaction only if an hour has passed since the last one it began,
    even if that panicked; if it completes without one, less than an hour has
    passed (compare C25). *)
Theorem C86_compaction_interval x u ops s evs rs :
  xhistory x u ops s evs rs ->
  (forall pre h, tick_compacts (xfact <$> evs) pre h -> (hour <= ck_now (clock pre) - ck_last (clock pre) h)%Z) /\
  (forall pre h e, occurs_after (xfact <$> evs) pre (TickCompleted h e) -> hid_type h = HTProjection ->
     ck_tick (clock pre) = Some h /\
     (ck_did (clock pre) = false -> (ck_now (clock pre) - ck_last (clock pre) h < hour)%Z /\ e = None)).
Proof. apply obs_compaction_lemma. Qed.

(** The engine stays usable: no operation blocks, and unless one never ends, all
    are performed and the engine is left unlocked. *)
Theorem C86_engine_usable x u ops s evs rs :
  xhistory x u ops s evs rs ->
  inl RBlocked ∉ rs /\ (inl RRunning ∉ rs -> s.2 = false /\ length rs = length ops).
Proof. apply obs_mutex_lemma. Qed.

(** ** What observers are told *)

(** The first observer is told of all facts. *)
Theorem C86_first_observer x op s s' evs r :
  xrun_op x op s = (s', evs, r) -> 0 < op_observers op -> view_of 0 (notes evs) = sn_fact <$> notes evs.
Proof. apply obs_first_lemma. Qed.

(** A fact is kept from an observer only by the panic of one before it. *)
Theorem C86_all_told_unless_panic x op s s' evs r sn :
  xrun_op x op s = (s', evs, r) -> sn ∈ notes evs ->
  match sn_panic sn with None => sn_to sn = op_observers op | Some _ => 1 <= sn_to sn <= op_observers op end.
Proof. apply obs_order_lemma. Qed.

(** The observers are notified in the order of the options, up to the one that
    panics. *)
Theorem C86_observers_in_order x op s s' evs r sn i :
  xrun_op x op s = (s', evs, r) -> sn ∈ notes evs -> i < sn_to sn ->
  exists n u u' v, op_given op !! i = Some n /\ x_obs x n (sn_fact sn) u = (u', v) /\
    v = (if decide (S i = sn_to sn) then sn_panic sn else None).
Proof. apply obs_each_lemma. Qed.

(** If handlers don't recover panics: an observer's panic makes the operation
    panic, ... *)
Theorem C86_panic_propagates x op s s' evs r :
  lets_through x -> xrun_op x op s = (s', evs, r) ->
  (exists sn v, sn ∈ notes evs /\ sn_panic sn = Some v) -> exists w, r = inr w.
Proof. apply obs_panics_lemma. Qed.

(** ... so an operation that returns has told every observer everything. *)
Theorem C86_returns_all_told x op s s' evs a i :
  lets_through x -> xrun_op x op s = (s', evs, inl a) -> i < op_observers op ->
  view_of i (notes evs) = sn_fact <$> notes evs.
Proof. apply obs_returns_lemma. Qed.

(** Unless projections are compacted during handling: the caller gets the very
    panic, after which there are no notifications, and the observers differ in the
    last fact only. *)
Theorem C86_panic_ends_operation x op s s' evs r sn v :
  lets_through x -> c_compact (x_cfg x) = false -> xrun_op x op s = (s', evs, r) ->
  sn ∈ notes evs -> sn_panic sn = Some v ->
  (exists w, r = inr w /\ same_panic v w) /\
  exists l, notes evs = l ++ [sn] /\ Forall (fun sn => sn_panic sn = None) l /\
  forall i, i < op_observers op ->
    view_of i (notes evs) = (sn_fact <$> l) ++ (if decide (i < sn_to sn) then [sn_fact sn] else []).
Proof. apply obs_panic_value_lemma. Qed.

(** Observers that do nothing change nothing. *)
Theorem C86_quiet_observers c xo u ops st evs fin :
  app_ok c -> (forall n, quiet (xo n)) -> Forall (op_ok c) ops -> run_ops c ops (e_init c u) = (st, evs, fin) ->
  exists evs' rs, xhistory (plain c xo) u ops (st, negb fin) evs' rs /\ xfact <$> evs' = evs /\
    (forall sn, XSeen sn ∈ evs' -> sn_panic sn = None).
Proof. apply obs_plain_lemma. Qed.

End PropsObs.

(** ** What a panicking observer does break

    A timeout of an instance that exists is due, yet it is never delivered: an
    observer panicked after the process's Tick returned it. *)
Theorem C86_due_timeouts_delivered_refuted :
  ~ (forall (x : XApp) u ops s evs rs before after h t i,
     xhistory x u ops s evs rs -> evs = before ++ after -> (forall ev, ev ∈ after -> ev <> XReset) ->
     t ∈ pending_timeouts (effective (seen_since before)) h -> e_origin t = Some (mkOrigin h HTProcess i) ->
     live (effective (seen_since evs)) h i = true ->
     t ∈ pending_timeouts (effective (seen_since evs)) h \/
     DispatchBegun t ∈ sn_fact <$> seen_since evs).
Proof.
  intros H.
  assert (W : exists s evs rs, xhistory xflow [] [go_at 0 6; xwait_until 20 2; wait_until 30] s evs rs /\
    exists before after t, evs = before ++ after /\ forallb (fun ev => match ev with XReset => false | _ => true end) after = true /\
     head (pending_timeouts (effective (seen_since before)) flow_id) = Some t /\
     e_origin t = Some (mkOrigin flow_id HTProcess "p") /\
     live (effective (seen_since evs)) flow_id "p" = true /\
     existsb (fun t' => bool_decide (e_id t' = e_id t)) (pending_timeouts (effective (seen_since evs)) flow_id) = false /\
     existsb (begins (e_id t)) (sn_fact <$> seen_since evs) = false).
  { apply xwitness; [apply flow_ok|solve_xops_ok|]. cbv beta.
    exists (xrun xflow [go_at 0 6]).1.2, (drop (length (xrun xflow [go_at 0 6]).1.2) (xrun xflow [go_at 0 6; xwait_until 20 2; wait_until 30]).1.2).
    eexists. split; [vm_compute; reflexivity|]. split; [vm_compute; reflexivity|]. split; [vm_compute; reflexivity|].
    split; [vm_compute; reflexivity|]. split; [vm_compute; reflexivity|]. split; vm_compute; reflexivity. }
  destruct W as (s & evs & rs & Hx & before & after & t & E & Hr & Ht & Ho & Hl & Hp & Hb).
  destruct (H _ _ _ _ _ _ _ _ flow_id t "p" Hx E) as [H1|H1]; [| |exact Ho|exact Hl| |].
  - intros ev Hev ->. rewrite forallb_forall in Hr. apply elem_of_list_In in Hev. apply Hr in Hev. discriminate Hev.
  - destruct (pending_timeouts _ _); [discriminate Ht|]. injection Ht as ->. left.
  - assert (Hc : existsb (fun t' => bool_decide (e_id t' = e_id t)) (pending_timeouts (effective (seen_since evs)) flow_id) = true).
    { apply existsb_exists. exists t. split; [apply elem_of_list_In; exact H1|apply bool_decide_eq_true; reflexivity]. }
    rewrite Hp in Hc. discriminate Hc.
  - assert (Hc : existsb (begins (e_id t)) (sn_fact <$> seen_since evs) = true).
    { apply existsb_exists. exists (DispatchBegun t). split; [apply elem_of_list_In; exact H1|apply bool_decide_eq_true; reflexivity]. }
    rewrite Hb in Hc. discriminate Hc.
Qed.

(** An event is kept in an aggregate's history, although it is never delivered: an
    observer panicked once the command had been handled. *)
Theorem C86_kept_events_delivered_refuted :
  ~ (forall (x : XApp) u ops s evs rs h i es e,
     xhistory x u ops s evs rs -> stored (effective (seen_since evs)) h i = Some es -> e ∈ es ->
     DispatchBegun e ∈ sn_fact <$> seen_since evs).
Proof.
  intros H.
  assert (W : exists s evs rs, xhistory xdemo [] [xopen_at 0 4 1; xopen_at 5 4 0] s evs rs /\
    exists es e, stored (effective (seen_since evs)) (h_id hAgg) "a" = Some es /\ head es = Some e /\
     existsb (begins (e_id e)) (sn_fact <$> seen_since evs) = false).
  { apply xwitness; [apply demo_ok|solve_xops_ok|].
    eexists _, _. split; [vm_compute; reflexivity|]. split; vm_compute; reflexivity. }
  destruct W as (s & evs & rs & Hx & es & e & He & Hh & Hb).
  assert (Hc : existsb (begins (e_id e)) (sn_fact <$> seen_since evs) = true).
  { apply existsb_exists. exists (DispatchBegun e). split; [|apply bool_decide_eq_true; reflexivity].
    apply elem_of_list_In. eapply H; [exact Hx|exact He|]. destruct es; [discriminate Hh|]. injection Hh as ->. left. }
  rewrite Hb in Hc. discriminate Hc.
Qed.

(** A handler that recovers the panic of its scope hides it from the caller. *)
Theorem C86_panic_always_propagates_refuted :
  ~ (forall (x : XApp) op s s' evs r,
     xrun_op x op s = (s', evs, r) -> (exists sn v, sn ∈ notes evs /\ sn_panic sn = Some v) -> exists w, r = inr w).
Proof.
  intros H. pose (r := xrun_op xlenient (xopen_at 0 4 3) (e_init strict_cfg [], false)).
  destruct (H xlenient (xopen_at 0 4 3) (e_init strict_cfg [], false) r.1.1 r.1.2 r.2) as [w Hw].
  - subst r. destruct (xrun_op _ _ _) as [[? ?] ?]. reflexivity.
  - assert (Hf : bool_decide (length (failures r.1.2) = 1) = true) by (vm_compute; reflexivity).
    apply bool_decide_eq_true in Hf. unfold failures in Hf.
    destruct (omap _ (notes r.1.2)) as [|sn l] eqn:E; [discriminate Hf|].
    assert (Hs : sn ∈ omap (fun sn => match sn_panic sn with Some _ => Some sn | None => None end) (notes r.1.2)) by (rewrite E; left).
    apply elem_of_list_omap in Hs as (sn' & Hin & Hs). destruct (sn_panic sn') as [v|] eqn:Ev; [|discriminate Hs]. eauto.
  - assert (Hp : panicked r.2 = false) by (vm_compute; reflexivity). rewrite Hw in Hp. discriminate Hp.
Qed.

(** ** The hypotheses can be met *)

(** Observer 1 panics once the first command has been handled: the event is kept
    and is there when the second command is handled, which records another. *)
Example C86_aggregate_example : exists s evs rs, xhistory xdemo [] [xopen_at 0 4 1; xopen_at 5 4 0] s evs rs /\
  (panicked <$> rs, length <$> kept s "agg" "a", length (failures evs), s.2) = ([true; false], Some 2, 1, false) /\
  exists es, stored (effective (seen_since evs)) (h_id hAgg) "a" = Some es /\
  (fun e => b_data (m_body (e_msg e))) <$> es = [4; 4].
Proof.
  apply xwitness; [apply demo_ok|solve_xops_ok|]. split; [vm_compute; reflexivity|].
  eexists. split; vm_compute; reflexivity.
Qed.

(** Observer 3 panics when the instance is created: it is not. *)
Example C86_created_example : exists s evs rs, xhistory xdemo [] [xopen_at 0 4 3; xopen_at 5 4 0] s evs rs /\
  (panicked <$> rs, length <$> kept s "agg" "a", length (failures evs), s.2) = ([true; false], Some 1, 1, false).
Proof. apply xwitness; [apply demo_ok|solve_xops_ok|vm_compute; reflexivity]. Qed.

(** The process scheduled a timeout; it is gone after the Tick in which observer 2
    panics, as notified. *)
Example C86_process_example : exists s evs rs, xhistory xflow [] [go_at 0 6; xwait_until 20 2; go_at 30 6] s evs rs /\
  (panicked <$> rs, length (waiting s "flow"), length (failures evs), s.2) = ([false; true; false], 1, 1, false) /\
  e_sched <$> pending_timeouts (effective (seen_since evs)) flow_id = [40%Z].
Proof.
  apply xwitness; [apply flow_ok|solve_xops_ok|]. split; vm_compute; reflexivity.
Qed.

(** With a handler that lets panics through, the three observers are told of all
    facts if none panics; otherwise the last learns of one less. *)
Example C86_views_example :
  lets_through xstrict /\ c_compact (x_cfg xstrict) = false /\
  (let '(_, evs, r) := xrun_op xstrict (xopen_at 0 4 0) (e_init strict_cfg [], false) in
   r = inl (RDone []) /\ (fun i => length (view_of i (notes evs))) <$> [0; 1; 2] = [12; 12; 12]) /\
  (let '(_, evs, r) := xrun_op xstrict (xopen_at 0 4 3) (e_init strict_cfg [], false) in
   r = inr (PUser "observer") /\ (fun i => length (view_of i (notes evs))) <$> [0; 1; 2] = [5; 5; 4]).
Proof. split; [apply strict_lets|]. split; [reflexivity|]. split; vm_compute; split; reflexivity. Qed.

Print Assumptions C86_aggregate_events.
Print Assumptions C86_aggregate_loads.
Print Assumptions C86_process_state.
Print Assumptions C86_process_loads.
Print Assumptions C86_failed_aggregate.
Print Assumptions C86_failed_process.
Print Assumptions C86_unique_ids.
Print Assumptions C86_compaction_interval.
Print Assumptions C86_engine_usable.
Print Assumptions C86_observers_in_order.
Print Assumptions C86_first_observer.
Print Assumptions C86_all_told_unless_panic.
Print Assumptions C86_panic_propagates.
Print Assumptions C86_returns_all_told.
Print Assumptions C86_panic_ends_operation.
Print Assumptions C86_quiet_observers.
Print Assumptions C86_due_timeouts_delivered_refuted.
Print Assumptions C86_kept_events_delivered_refuted.
Print Assumptions C86_panic_always_propagates_refuted.
