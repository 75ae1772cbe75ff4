(** * Properties C01-C04, C10, C13, C17: envelopes. *)
From Verif Require Import EnvProof Demo.

Section Props.
Context {P : Params}.
Implicit Types (c : Config) (u : U) (ops : list Op) (st : EState) (evs : list Ev) (fin : bool).

(** C01.  Since the last Reset, no two messages have the same ID, and facts that
    mention the same ID mention the same envelope. *)
Theorem C01_message_ids_unique c u ops st evs fin :
  history c u ops st evs fin -> (g_next (es_g st) < 2 ^ 64)%N ->
  NoDup (e_id <$> fresh_of (since_reset evs)) /\
  (forall f f' e e', f ∈ since_reset evs -> f' ∈ since_reset evs -> e ∈ fact_envs f -> e' ∈ fact_envs f' ->
     e_id e = e_id e' -> e = e').
Proof. exact (C01_lemma c u ops st evs fin). Qed.

(** C02.  Whatever a fact notified during a Dispatch mentions is correlated with
    the dispatched message. *)
Theorem C02_correlation_identifies_root c u ops st evs fin pre f e r :
  history c u ops st evs fin -> occurs evs pre f ->
  e ∈ fact_envs f -> cycle_root (pre ++ [f]) = Some r -> e_corr e = e_id r.
Proof. exact (C02_lemma c u ops st evs fin pre f e r). Qed.

(** C03.  Causes form a tree. *)
Theorem C03_causation_tree c u ops st evs fin :
  history c u ops st evs fin ->
  (forall pre e now et eh, occurs evs pre (DispatchCycleBegun e now et eh) ->
     e_cause e = e_id e /\ e_corr e = e_id e /\ e_origin e = None) /\
  (forall pre f h i e ev, occurs evs pre f -> produced f = Some (h, i, e, ev) ->
     in_handling pre = Some (h, e) /\ e ∈ fresh_of pre /\
     e_cause ev = e_id e /\ e_corr ev = e_corr e) /\
  (forall e, e ∈ fresh_of (since_reset evs) ->
     exists r, Descends (fresh_of (since_reset evs)) e r /\ e_corr e = e_id r).
Proof. exact (C03_lemma c u ops st evs fin). Qed.

(** C04.  Stamps of produced and dispatched messages. *)
Theorem C04_stamps c u ops st evs fin :
  history c u ops st evs fin ->
  (forall pre f h i e ev, occurs evs pre f -> produced f = Some (h, i, e, ev) ->
     engine_time pre = Some (e_created ev) /\ e_origin ev = Some (mkOrigin h (hid_type h) i)) /\
  (forall pre e now et eh, occurs evs pre (DispatchCycleBegun e now et eh) -> e_created e = now).
Proof. exact (C04_lemma c u ops st evs fin). Qed.

(** C04.  A successful ScheduleTimeout(m, t) announces a timeout with ScheduledFor
    = t. *)
Theorem C04_scheduled_for o h now env id meth b t g s g' s' fs :
  p_schedule o h now env id meth b t g s = (g', s', fs, None) ->
  exists fs' r tm, fs = fs' ++ [TimeoutScheduledByProcess (h_id h) id r env tm] /\
    e_sched tm = t /\ m_body (e_msg tm) = b.
Proof. exact (C04_schedule_lemma o h now env id meth b t g s g' s' fs). Qed.

(** C10.  Every produced message is valid and declared by its producer. *)
Theorem C10_only_declared_and_valid c u ops st evs fin pre f h i e ev :
  history c u ops st evs fin -> occurs evs pre f -> produced f = Some (h, i, e, ev) ->
  m_invalid (e_msg ev) = None /\ Some (m_kind (e_msg ev)) = produced_kind f /\
  exists hd, hd ∈ c_app c /\ h_id hd = h /\ m_type (e_msg ev) ∈ h_produced hd.
Proof. exact (C10_lemma c u ops st evs fin pre f h i e ev). Qed.

(** C10.  The scope call for an undeclared or invalid message panics and has no
    other effect: no ID is allocated ([g] is unchanged), no fact is notified and
    the scope ([s]) is unchanged. *)
Theorem C10_scope_calls_panic o h now env id (b : Body) g :
  (b_invalid b <> None \/ (KEvent, b_name b) ∉ h_produced h ->
     (forall a s, exists d, a_record o h a now env id b g s =
        (g, s, [], Some (PUnexpBeh (h_id h) "AggregateMessageHandler" "HandleCommand" (e_msg env) d))) /\
     (forall s, exists d, i_record o h now env b g s =
        (g, s, [], Some (PUnexpBeh (h_id h) "IntegrationMessageHandler" "HandleCommand" (e_msg env) d)))) /\
  (b_invalid b <> None \/ (KCommand, b_name b) ∉ h_produced h ->
     forall meth s, exists d, p_execute o h now env id meth b g s =
        (g, s, [], Some (PUnexpBeh (h_id h) "ProcessMessageHandler" meth (e_msg env) d))) /\
  (b_invalid b <> None \/ (KTimeout, b_name b) ∉ h_produced h ->
     forall meth t s, exists d, p_schedule o h now env id meth b t g s =
        (g, s, [], Some (PUnexpBeh (h_id h) "ProcessMessageHandler" meth (e_msg env) d))).
Proof. exact (C10_scope_lemma o h now env id b g). Qed.

(** C13.  A timeout is not delivered before it is due. *)
Theorem C13_timeouts_not_early c u ops st evs fin pre h e :
  history c u ops st evs fin -> occurs evs pre (HandlingBegun h e) -> m_kind (e_msg e) = KTimeout ->
  exists now, engine_time pre = Some now /\ (e_sched e <= now)%Z.
Proof. exact (C13_lemma c u ops st evs fin pre h e). Qed.

(** C17.  A timeout is delivered to the handler and the instance that scheduled
    it; it never begins an instance. *)
Theorem C17_timeouts_return_to_origin c u ops st evs fin :
  history c u ops st evs fin ->
  (forall pre h e, occurs evs pre (HandlingBegun h e) -> m_kind (e_msg e) = KTimeout ->
     exists i, (h, i, e) ∈ scheduled pre) /\
  (forall pre h i r e, occurs evs pre (ProcessInstanceLoaded h i r e) -> m_kind (e_msg e) = KTimeout ->
     (h, i, e) ∈ scheduled pre) /\
  (forall pre h i e, occurs evs pre (ProcessTimeoutIgnored h i e) -> m_kind (e_msg e) = KTimeout ->
     (h, i, e) ∈ scheduled pre) /\
  (forall pre h i e, occurs evs pre (ProcessInstanceNotFound h i e) -> m_kind (e_msg e) = KEvent) /\
  (forall pre h i r e, occurs evs pre (ProcessInstanceBegun h i r e) -> m_kind (e_msg e) = KEvent).
Proof. exact (C17_lemma c u ops st evs fin). Qed.

(** C17.  If the instance is gone, the only effect is the fact. *)
Theorem C17_ignored_without_effect o h pi now env g ps og :
  consumes h (m_type (e_msg env)) = true ->
  m_kind (e_msg env) = KTimeout -> e_origin env = Some og -> pc_instances ps !! o_instance og = None ->
  p_handle o h pi now env g ps = (g, ps, [ProcessTimeoutIgnored (h_id h) (o_instance og) env], HRet [] None).
Proof. exact (C17_ignored_lemma o h pi now env g ps og). Qed.
End Props.

Print Assumptions C01_message_ids_unique.
Print Assumptions C02_correlation_identifies_root.
Print Assumptions C03_causation_tree.
Print Assumptions C04_stamps.
Print Assumptions C04_scheduled_for.
Print Assumptions C10_only_declared_and_valid.
Print Assumptions C10_scope_calls_panic.
Print Assumptions C13_timeouts_not_early.
Print Assumptions C17_timeouts_return_to_origin.
Print Assumptions C17_ignored_without_effect.

(** ** The hypotheses can be met *)

(** A history with two dispatches and two ticks in which twelve messages appear,
    two of them timeouts. *)
Example C01_C03_example :
  history demo [] demo_ops demo_st demo_evs true /\ (g_next (es_g demo_st) < 2 ^ 64)%N /\
  env_info <$> fresh_of (since_reset demo_evs) =
  [("Open", "1", "1", "1"); ("Opened", "2", "1", "1");
   ("Notify", "3", "2", "1"); ("Remind", "4", "2", "1");
   ("Notified", "5", "3", "1"); ("Open", "6", "6", "6");
   ("Opened", "7", "6", "6"); ("Notify", "8", "7", "6");
   ("Remind", "9", "7", "6"); ("Notified", "10", "8", "6");
   ("Notify", "11", "4", "1"); ("Notified", "12", "11", "1")].
Proof. split; [exact demo_history|]. split; vm_compute; reflexivity. Qed.

(** In it, a fact of a dispatch mentions a produced message; a timeout is handled
    by its instance, and another one is ignored. *)

Definition timeout_facts : list (nat * string) :=
  omap (fun p : nat * Ev =>
    match p.2 with
    | EvFact (HandlingBegun _ e) => match m_kind (e_msg e) with KTimeout => Some (p.1, "handling") | _ => None end
    | EvFact (ProcessInstanceLoaded _ _ _ e) => match m_kind (e_msg e) with KTimeout => Some (p.1, "loaded") | _ => None end
    | EvFact (ProcessTimeoutIgnored _ _ _) => Some (p.1, "ignored")
    | EvFact (EventRecordedByAggregate _ _ _ _ _) => Some (p.1, "recorded")
    | _ => None
    end) (zip (seq 0 (length demo_evs)) demo_evs).

Example C02_C04_C10_C13_C17_example :
  timeout_facts = [(5, "recorded"); (46, "recorded"); (85, "handling"); (86, "loaded"); (92, "handling"); (93, "ignored")] /\
  exists pre f h i e ev r,
    occurs demo_evs pre f /\ produced f = Some (h, i, e, ev) /\ ev ∈ fact_envs f /\ cycle_root (pre ++ [f]) = Some r.
Proof.
  split; [vm_compute; reflexivity|].
  assert (H : exists f, demo_evs !! 5 = Some (EvFact f) /\
    match f, cycle_root (since_reset (take 5 demo_evs) ++ [f]) with
    | EventRecordedByAggregate _ _ _ _ _, Some _ => True | _, _ => False end).
  { eexists. split; [vm_compute; reflexivity|]. vm_compute. exact I. }
  generalize dependent demo_evs. intros evs (f & H & Hm). apply occurs_nth in H.
  destruct f; try (exfalso; exact Hm).
  match type of Hm with context [cycle_root ?l] => destruct (cycle_root l) as [rt|] eqn:Er end; [|exfalso; exact Hm].
  eexists _, _, _, _, _, _, _. split; [exact H|]. split; [reflexivity|].
  split; [right; left|]. exact Er.
Qed.

(** A scope call that panics and one that does not. *)
Example C10_scope_example :
  (b_invalid (mkBody "Opened" 1 (Some "bad")) <> None) /\ (KEvent, "Nope") ∉ h_produced hAgg.
Proof. split; [done|]. cbn. set_solver. Qed.

Example C04_scheduled_for_example :
  exists g' s' fs, p_schedule quietly hProc 5 (new_root "1" (event "Opened" 1) 5) "p" "HandleEvent"
    (body "Remind" 1) 15 (mkG 1 [] 0) (mkPScope [] true [] [] []) = (g', s', fs, None) /\ length fs = 2.
Proof. eexists _, _, _. split; [vm_compute; reflexivity|]. done. Qed.
