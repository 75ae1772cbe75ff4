(** * Properties C14-C16, C18-C23: processes and timeouts. *)
From Verif Require Import ProcHist ProcLemmas EngineSpec EngineLemmas ProcProof ProcDemo.

Section Props.
Context {P : Params}.
Implicit Types (c : Config) (u : U) (ops : list Op) (st : EState) (evs : list Ev) (fin : bool).

(** C14.  At every point, the timeouts the engine holds for a process are those that
    the facts say are pending, and its instances are those that the facts say are
    live.  Every timeout accepted so far (scheduled by a handling that completed
    and did not end the instance) is exactly one of: held by the engine, taken for
    delivery, or discarded. *)
Theorem C14_every_timeout_is_accounted_for c u ops st evs fin hd ps :
  history c u ops st evs fin -> hd ∈ c_app c -> es_cs st !! h_name hd = Some (CSProc ps) ->
  let v := proc_view (since_reset evs) in
  pc_timeouts ps ≡ₚ pending_timeouts (since_reset evs) (h_id hd) /\
  (forall i, is_Some (pc_instances ps !! i) <-> live (since_reset evs) (h_id hd) i = true) /\
  pv_acc v (h_id hd) ≡ₚ pc_timeouts ps ++ pv_took v (h_id hd) ++ pv_gone v (h_id hd).
Proof.
  exact (fun H Hin Hl => let '(conj H1 H2) := C14_pending_lemma c u ops st evs fin hd ps H Hin Hl in
    conj H1 (conj H2 (C14_accounting_lemma c u ops st evs fin hd ps H Hin Hl))).
Qed.

(** C14.  Only timeouts taken for delivery in the current operation are dispatched,
    and when an operation that was not cancelled completes, all of those have been
    dispatched. *)
Theorem C14_taken_timeouts_are_delivered c u ops st evs fin :
  history c u ops st evs fin ->
  (forall pre e, occurs evs pre (DispatchBegun e) -> m_kind (e_msg e) = KTimeout ->
     pv_sent (proc_view pre) ++ [e] ⊆+ pv_due (proc_view pre)) /\
  (forall pre f, occurs evs pre f ->
     (exists e err et eh, f = DispatchCycleCompleted e err et eh /\ forall s, ECtx s ∉ err) \/
     (exists err et eh, f = TickCycleCompleted err et eh /\ forall s, ECtx s ∉ err) ->
     pv_sent (proc_view pre) ≡ₚ pv_due (proc_view pre)).
Proof. exact (C14_delivery_lemma c u ops st evs fin). Qed.

(** C14.  No timeout is delivered twice. *)
Theorem C14_timeouts_are_delivered_once c u ops st evs fin pre mid post e e' :
  history c u ops st evs fin -> (g_next (es_g st) < 2 ^ 64)%N ->
  since_reset evs = pre ++ DispatchBegun e :: mid ++ DispatchBegun e' :: post ->
  m_kind (e_msg e) = KTimeout -> e_id e <> e_id e'.
Proof. exact (C14_once_lemma c u ops st evs fin pre mid post e e'). Qed.

(** C15. *)
Theorem C15_pending_timeouts_belong_to_live_instances c u ops st evs fin hd ps t :
  history c u ops st evs fin -> hd ∈ c_app c -> es_cs st !! h_name hd = Some (CSProc ps) -> t ∈ pc_timeouts ps ->
  (e_created t < e_sched t)%Z /\
  exists i, e_origin t = Some (mkOrigin (h_id hd) HTProcess i) /\ is_Some (pc_instances ps !! i).
Proof. exact (C15_lemma c u ops st evs fin hd ps t). Qed.

(** C16.  A Tick that is not cut short first dispatches exactly the timeouts that
    are due (those of each handler that is not skipped, one handler after the
    other), those of each handler in chronological order. *)
Theorem C16_chronological_order c st o fuel order opts st' fs r :
  performs c st (OpTick o fuel order opts) st' fs r -> uncancelled r ->
  let now := op_time o opts in
  let q := batch (skipped opts) (due_timeouts now st) order in
  q `prefix_of` dispatched fs /\
  forall h ps, h ∈ c_app c -> es_cs st !! h_name h = Some (CSProc ps) -> skipped opts h = None ->
    chronological (due now (pc_timeouts ps)) /\ due now (pc_timeouts ps) `sublist_of` q.
Proof. exact (C16_lemma c st o fuel order opts st' fs r). Qed.

(** C16.  A process controller's Tick takes exactly the timeouts that are due and
    leaves the others behind, both in chronological order. *)
Theorem C16_tick_takes_the_due_timeouts c st hd ps now :
  reachable c st -> hd ∈ c_app c -> es_cs st !! h_name hd = Some (CSProc ps) ->
  p_tick now ps = (mkPState (pc_instances ps) (later now (pc_timeouts ps)), due now (pc_timeouts ps)) /\
  chronological (due now (pc_timeouts ps)) /\ chronological (later now (pc_timeouts ps)).
Proof. exact (C16_tick_lemma c st hd ps now). Qed.

(** C18.  Once a handling has ended instance [i], no timeout it scheduled before is
    dispatched by a later operation.  (See [C18_refuted] for the same operation.) *)
Theorem C18_ending_discards_timeouts c u ops st evs fin a b h e i t :
  history c u ops st evs fin ->
  occurs evs (a ++ HandlingCompleted h e None :: b) (DispatchBegun t) ->
  m_kind (e_msg t) = KTimeout -> e_origin t = Some (mkOrigin h HTProcess i) -> hid_type h = HTProcess ->
  live (a ++ [HandlingCompleted h e None]) h i = false ->
  Exists cycle_begins b ->
  (h, i, t) ∈ scheduled b.
Proof. exact (C18_lemma c u ops st evs fin a b h e i t). Qed.

(** C19. *)
Theorem C19_failed_handling_has_no_effect o h pi now env g ps g' ps' fs r :
  p_handle o h pi now env g ps = (g', ps', fs, r) ->
  (exists envs e, r = HRet envs (Some e)) \/ (exists v, r = HPan v) ->
  (forall envs e, r = HRet envs e -> envs = []) /\ pc_timeouts ps' = pc_timeouts ps /\
  (forall i, is_Some (pc_instances ps' !! i) <-> is_Some (pc_instances ps !! i)).
Proof. exact (C19_lemma o h pi now env g ps g' ps' fs r). Qed.

(** C20.  If the handling succeeds and the method called End after its last
    successful ExecuteCommand or ScheduleTimeout, the instance is gone; if it called
    ExecuteCommand or ScheduleTimeout after its last End (or never called End), the
    instance is stored with the root as the method left it. *)
Theorem C20_ending_and_unending o h pi now env g ps g' ps' fs envs i rt :
  p_handle o h pi now env g ps = (g', ps', fs, HRet envs None) -> engaged (h_id h) i rt env fs ->
  (ends_ending (method_of pi env i) -> pc_instances ps' !! i = None) /\
  (ends_continuing (method_of pi env i) ->
     exists rt', Leaves (method_of pi env i) rt rt' (inl None) /\ pc_instances ps' !! i = Some rt').
Proof. exact (C20_lemma o h pi now env g ps g' ps' fs envs i rt). Qed.

(** C20, C21.  An instance is loaded only if it is live; otherwise a new one is begun
    with a fresh root. *)
Theorem C20_next_event_begins_anew c u ops st evs fin pre h i e :
  history c u ops st evs fin ->
  (forall r, occurs evs pre (ProcessInstanceLoaded h i r e) -> live pre h i = true) /\
  (forall r, occurs evs pre (ProcessInstanceBegun h i r e) ->
     live pre h i = false /\ exists pi, process_of c h pi /\ r = pr_new pi).
Proof. exact (C20_begin_lemma c u ops st evs fin pre h i e). Qed.

(** C21. *)
Theorem C21_event_routing o h pi now env g ps u i ok err :
  m_type (e_msg env) ∈ h_consumed h -> m_kind (e_msg env) = KEvent ->
  pr_route pi (e_msg env) (g_user g) = (u, inl (i, ok, err)) ->
  let '(g', ps', fs, res) := p_handle o h pi now env g ps in
  match err, ok with
  | Some e, _ => fs = [] /\ ps' = ps /\ res = HRet [] (Some e) /\ g' = mkG (g_next g) u (g_step g)
  | None, false => fs = [ProcessEventIgnored (h_id h) env] /\ ps' = ps /\ res = HRet [] None /\ g' = mkG (g_next g) u (g_step g)
  | None, true =>
    if decide (i = "") then fs = [] /\ ps' = ps /\ exists v, res = HPan v
    else match pc_instances ps !! i with
         | Some r => exists fs', fs = ProcessInstanceLoaded (h_id h) i r env :: fs'
         | None => exists fs', fs = ProcessInstanceNotFound (h_id h) i env :: ProcessInstanceBegun (h_id h) i (pr_new pi) env :: fs'
         end
  end.
Proof. exact (C21_handle_lemma o h pi now env g ps u i ok err). Qed.

(** C22.  What becomes of the root: the method gets the stored root, or New(); if the
    handling succeeds without ending the instance, the root is stored as the method
    left it; if it fails, an instance that existed keeps the root as the method
    left it (see [C22_refuted]), and no instance is created. *)
Theorem C22_root_after_handling o h pi now env g ps g' ps' fs res i rt :
  p_handle o h pi now env g ps = (g', ps', fs, res) -> engaged (h_id h) i rt env fs ->
  (pc_instances ps !! i = Some rt \/ pc_instances ps !! i = None /\ pr_new pi = Some rt) /\
  exists rt' out, Leaves (method_of pi env i) rt rt' out /\
    match out with
    | inl None => (exists envs, res = HRet envs None) /\
        pc_instances ps' !! i = if ended_in fs then None else Some rt'
    | inl (Some e) => res = HRet [] (Some e) /\ pc_instances ps' !! i = const rt' <$> pc_instances ps !! i
    | inr v => (exists v', res = HPan v') /\ pc_instances ps' !! i = const rt' <$> pc_instances ps !! i
    end.
Proof. exact (C22_root_lemma o h pi now env g ps g' ps' fs res i rt). Qed.

(** C22.  In particular a method that does not change the root in place and fails
    leaves the stored root as it was. *)
Theorem C22_failure_without_mutation o h pi now env g ps g' ps' fs res i :
  p_handle o h pi now env g ps = (g', ps', fs, res) ->
  (exists e, res = HRet [] (Some e)) \/ (exists v, res = HPan v) ->
  leaves_root (method_of pi env i) ->
  pc_instances ps' !! i = pc_instances ps !! i.
Proof. exact (C22_unchanged_lemma o h pi now env g ps g' ps' fs res i). Qed.

(** C23.  A Tick that is not cut short dispatches every due timeout of every handler
    that is not skipped.  (See [C23_refuted] for cancelled ones.) *)
Theorem C23_due_timeouts_are_dispatched c st o fuel order opts st' fs r h ps t :
  performs c st (OpTick o fuel order opts) st' fs r -> uncancelled r ->
  h ∈ c_app c -> es_cs st !! h_name h = Some (CSProc ps) -> skipped opts h = None ->
  t ∈ pc_timeouts ps -> (e_sched t <= op_time o opts)%Z ->
  t ∈ dispatched fs.
Proof. exact (C23_lemma c st o fuel order opts st' fs r h ps t). Qed.
End Props.

Print Assumptions C14_every_timeout_is_accounted_for.
Print Assumptions C14_taken_timeouts_are_delivered.
Print Assumptions C14_timeouts_are_delivered_once.
Print Assumptions C15_pending_timeouts_belong_to_live_instances.
Print Assumptions C16_chronological_order.
Print Assumptions C16_tick_takes_the_due_timeouts.
Print Assumptions C18_ending_discards_timeouts.
Print Assumptions C19_failed_handling_has_no_effect.
Print Assumptions C20_ending_and_unending.
Print Assumptions C20_next_event_begins_anew.
Print Assumptions C21_event_routing.
Print Assumptions C22_root_after_handling.
Print Assumptions C22_failure_without_mutation.
Print Assumptions C23_due_timeouts_are_dispatched.

(** ** The hypotheses can be met *)

(** Three timeouts are scheduled, for 110, 115 and 120; the first is taken at 112, and
    the second and third are discarded when the instance ends, after which a fourth
    is scheduled. *)
Definition C14_ops := [go_at 100 6; go_at 105 6; wait_until 112; go_at 113 6; go_at 114 2; go_at 115 6].
Example C14_example :
  exists evs st ps, history flow [] C14_ops st evs true /\ es_cs st !! "flow" = Some (CSProc ps) /\
    let v := proc_view (since_reset evs) in
    length (pv_acc v flow_id) = 4 /\ length (pc_timeouts ps) = 1 /\
    length (pv_took v flow_id) = 1 /\ length (pv_gone v flow_id) = 2 /\
    (exists pre e, occurs evs pre (DispatchBegun e) /\ m_kind (e_msg e) = KTimeout).
Proof.
  flow_history C14_ops H.
  assert (Hst : exists ps, es_cs (ops_st flow [] C14_ops) !! "flow" = Some (CSProc ps) /\ length (pc_timeouts ps) = 1).
  { vm_compute. eexists. split; reflexivity. }
  destruct Hst as (ps & Hl & Hps).
  assert (Hv : length (pv_acc (proc_view (since_reset (ops_evs flow [] C14_ops))) flow_id) = 4 /\
    length (pv_took (proc_view (since_reset (ops_evs flow [] C14_ops))) flow_id) = 1 /\
    length (pv_gone (proc_view (since_reset (ops_evs flow [] C14_ops))) flow_id) = 2) by (vm_compute; repeat split; reflexivity).
  assert (Hd : fact_at (ops_evs flow [] C14_ops) 32 (fun _ => dispatches_timeout) = true) by (vm_compute; reflexivity).
  revert H Hv Hd. generalize (ops_evs flow [] C14_ops) as evs. intros evs H (H1 & H2 & H3) Hd.
  eexists evs, _, ps. split; [exact H|]. split; [exact Hl|]. do 4 (split; [done|]).
  apply fact_at_occurs in Hd as (pre & f & Ho & Hd). destruct f; try discriminate Hd. exists pre, e. split; [done|].
  cbn in Hd. unfold is_timeoutb in Hd. destruct (m_kind (e_msg e)); done.
Qed.

Example C15_example :
  exists st evs ps t, history flow [] C14_ops st evs true /\ hFlow ∈ c_app flow /\
    es_cs st !! h_name hFlow = Some (CSProc ps) /\ t ∈ pc_timeouts ps.
Proof.
  flow_history C14_ops H.
  assert (Hst : exists ps t, es_cs (ops_st flow [] C14_ops) !! "flow" = Some (CSProc ps) /\ t ∈ pc_timeouts ps).
  { vm_compute. eexists _, _. split; [reflexivity|left]. }
  destruct Hst as (ps & t & Hl & Ht). eexists _, _, ps, t. split; [exact H|]. split; [right; left|]. split; [exact Hl|exact Ht].
Qed.

(** Two timeouts are due, scheduled in the opposite order. *)
Definition C16_ops := [go_at 110 6; go_at 100 6; go_at 190 6].
Example C16_example :
  exists st st' fs, performs flow st (wait_until 150) st' fs (Ok []) /\ uncancelled (Ok []) /\
    skipped [OptNow 150] hFlow = None /\
    exists ps, es_cs st !! h_name hFlow = Some (CSProc ps) /\ length (pc_timeouts ps) = 3 /\
    e_sched <$> due 150 (pc_timeouts ps) = [110; 120]%Z /\
    e_sched <$> dispatched fs = [110; 120]%Z.
Proof.
  assert (Hp := performs_ops flow [] C16_ops (wait_until 150) flow_ok ltac:(solve_ops_ok) (wait_ok _)
    ltac:(vm_compute; reflexivity) eq_refl ltac:(vm_compute; reflexivity)).
  replace (run_op flow (wait_until 150) (ops_st flow [] C16_ops)).2 with (Ok (A:=Errs) []) in Hp by (vm_compute; reflexivity).
  eexists _, _, _. split; [exact Hp|]. split; [exists []; split; [done|constructor]|]. split; [done|].
  vm_compute. eexists. repeat split; reflexivity.
Qed.

(** An instance with a pending timeout ends, another one begins, schedules a timeout
    and gets it. *)
Definition C18_ops := [go_at 100 6; go_at 102 2; go_at 103 6; wait_until 200].
Example C18_example :
  exists evs st a e b t, history flow [] C18_ops st evs true /\
    occurs evs (a ++ HandlingCompleted flow_id e None :: b) (DispatchBegun t) /\
    m_kind (e_msg t) = KTimeout /\ e_origin t = Some (mkOrigin flow_id HTProcess "p") /\
    live (a ++ [HandlingCompleted flow_id e None]) flow_id "p" = false /\ Exists cycle_begins b /\
    length (scheduled a) = 1.
Proof.
  flow_history C18_ops H.
  assert (Hc : split_at (ops_evs flow [] C18_ops) 24 46 (fun a f b f' =>
    match f, f' with
    | HandlingCompleted h _ None, DispatchBegun t => bool_decide (h = flow_id) && is_timeoutb t &&
        match e_origin t with Some (mkOrigin h' HTProcess i) => bool_decide (h' = flow_id) && bool_decide (i = "p") | _ => false end
    | _, _ => false end && negb (live (a ++ [f]) flow_id "p") &&
    existsb (fun f => match f with TickCycleBegun _ _ _ => true | _ => false end) b && (length (scheduled a) =? 1)) = true)
    by (vm_compute; reflexivity).
  revert H Hc. generalize (ops_evs flow [] C18_ops) as evs. intros evs H Hc.
  apply split_at_occurs in Hc as (a & f & b & f' & _ & Ho & Hc). bools.
  destruct f; try discriminate. destruct err; try discriminate. destruct f'; try discriminate.
  match goal with H : (_ && _ && _)%bool = true |- _ => rename H into Hk end. bools.
  destruct (e_origin e0) as [[h' ty i]|] eqn:Eo; try discriminate. destruct ty; try discriminate.
  match goal with H : (_ && _)%bool = true |- _ => rename H into Hk' end. bools. subst.
  eexists evs, _, a, e, b, e0. split; [exact H|]. split; [exact Ho|].
  split; [unfold is_timeoutb in *; destruct (m_kind (e_msg e0)); done|]. split; [exact Eo|].
  split; [apply negb_true_iff; assumption|]. split; [|done].
  match goal with H : existsb _ b = true |- _ => apply existsb_exists in H as (x & Hx & Hb) end.
  apply Exists_exists. exists x. split; [apply elem_of_list_In; done|]. destruct x; done.
Qed.

(** C19.  A handling that changes the root, executes a command, schedules a timeout,
    ends and then fails. *)
Example C19_example :
  let ps := mkPState {["p" := [1]]} [] in
  let env := new_root "1" (event "Went" 7) 100 in
  exists g' ps' fs, p_handle quietly hFlow flow_proc 100 env (mkG 1 [] 0) ps = (g', ps', fs, HRet [] (Some (EUser "oops"))) /\
    length fs = 4.
Proof. eexists _, _, _. split; [vm_compute; reflexivity|]. reflexivity. Qed.

Example C20_example :
  let ps := mkPState {["p" := [1]]} [] in
  let env d := new_root "1" (event "Went" d) 100 in
  ends_ending (method_of flow_proc (env 2) "p") /\ ends_continuing (method_of flow_proc (env 9) "p") /\
  (exists g' ps' fs, p_handle quietly hFlow flow_proc 100 (env 2) (mkG 1 [] 0) ps = (g', ps', fs, HRet [] None) /\
     engaged flow_id "p" [1] (env 2) fs /\ pc_instances ps' !! "p" = None) /\
  (exists g' ps' fs envs, p_handle quietly hFlow flow_proc 100 (env 9) (mkG 1 [] 0) ps = (g', ps', fs, HRet envs None) /\
     engaged flow_id "p" [1] (env 9) fs /\ length envs = 1 /\ pc_instances ps' !! "p" = Some [1]).
Proof.
  split; [apply ee_last; constructor|].
  split; [apply ec_end, cn_execute; [apply ec_never; constructor|intros v; constructor]|].
  split; eexists _, _, _; [|eexists]; (split; [vm_compute; reflexivity|]); (split; [left; left|]); repeat split; reflexivity.
Qed.

Example C20_history_example :
  exists evs st pre r e, history flow [] C18_ops st evs true /\
    occurs evs pre (ProcessInstanceBegun flow_id "p" r e) /\ length (scheduled pre) = 1.
Proof.
  flow_history C18_ops H.
  assert (Hc : fact_at (ops_evs flow [] C18_ops) 36 (fun pre f =>
    match f with ProcessInstanceBegun h i _ _ => bool_decide (h = flow_id) && bool_decide (i = "p") | _ => false end
    && (length (scheduled pre) =? 1)) = true) by (vm_compute; reflexivity).
  revert H Hc. generalize (ops_evs flow [] C18_ops) as evs. intros evs H Hc.
  apply fact_at_occurs in Hc as (pre & f & Ho & Hc). bools. destruct f; try discriminate. bools. subst. eauto 10.
Qed.

Example C21_example :
  let env d := new_root "1" (event "Went" d) 100 in
  m_type (e_msg (env 8)) ∈ h_consumed hFlow /\ m_type (e_msg (env 5)) ∈ h_consumed hFlow /\
  pr_route flow_proc (e_msg (env 8)) [] = ([], inl ("p", false, None)) /\
  pr_route flow_proc (e_msg (env 5)) [] = ([], inl ("p", true, None)).
Proof. split; [left|]. split; [left|]. done. Qed.

Example C22_example :
  let ps := mkPState {["p" := [1]]} [] in
  let env := new_root "1" (event "Went" 7) 100 in
  exists g' ps' fs res, p_handle quietly hFlow flow_proc 100 env (mkG 1 [] 0) ps = (g', ps', fs, res) /\
    engaged flow_id "p" [1] env fs.
Proof. eexists _, _, _, _. split; [vm_compute; reflexivity|]. left. left. Qed.

(** ** What does not hold *)

(** C18: a timeout that was due already when it was scheduled waits in the queue; in
    the meantime its instance ends and an instance with the same ID begins, which
    gets the timeout. *)
Theorem C18_refuted :
  exists (c : Config) u ops st evs a h e b i t r,
    history c u ops st evs true /\
    occurs evs (a ++ HandlingCompleted h e None :: b) (ProcessInstanceLoaded h i r t) /\
    (h, i, t) ∈ scheduled a /\ live (a ++ [HandlingCompleted h e None]) h i = false.
Proof.
  flow_history [go_at 100 100] H.
  assert (Hc : split_at (ops_evs flow [] [go_at 100 100]) 19 29 (fun a f b f' =>
    match f, f' with
    | HandlingCompleted h _ None, ProcessInstanceLoaded h' i r t => bool_decide (h = flow_id) && bool_decide (h' = flow_id) &&
        bool_decide (i = "p")
    | _, _ => false end && negb (live (a ++ [f]) flow_id "p")) = true /\
    match ops_evs flow [] [go_at 100 100] !! 29 with
    | Some (EvFact (ProcessInstanceLoaded _ _ _ t)) =>
        (flow_id, "p", t) ∈ scheduled (since_reset (take 19 (ops_evs flow [] [go_at 100 100])))
    | _ => False end).
  { split; [vm_compute; reflexivity|]. vm_compute. left. }
  revert H Hc. generalize (ops_evs flow [] [go_at 100 100]) as evs. intros evs H [Hc Hs].
  unfold split_at in Hc. destruct (evs !! 19) as [[f|]|] eqn:Hn; try discriminate Hc.
  destruct (evs !! 29) as [[f'|]|] eqn:Hm; try discriminate Hc.
  apply andb_true_iff in Hc as [Hx Hc]. apply andb_true_iff in Hx as [Hlt Hf]. apply Nat.ltb_lt in Hlt.
  destruct (occurs_pair evs 19 29 f f' Hn Hm Hlt Hf) as [_ Ho]. bools.
  destruct f; try discriminate. destruct err; try discriminate. destruct f'; try discriminate.
  match goal with H : (_ && _ && _)%bool = true |- _ => rename H into Hk end. bools. subst.
  eexists flow, [], _, _, evs, _, flow_id, e, _, "p", e0, _. split; [exact H|]. split; [exact Ho|].
  split; [exact Hs|]. apply negb_true_iff. assumption.
Qed.

(** C22: a handler that returns an error has changed the stored root. *)
Definition check22 (st : EState) (out : EState * list Ev * Out Errs) : bool :=
  let '(st', evs', r) := out in
  match r with Ok [EWrap h e] => bool_decide (h = flow_id) && bool_decide (e = EUser "oops") | _ => false end &&
  existsb (fun f => match f with EvFact (HandlingCompleted h _ (Some e)) => bool_decide (h = flow_id) && bool_decide (e = EUser "oops") | _ => false end) evs' &&
  forallb (fun f => match f with EvFact (HandlingCompleted h _ None) => negb (bool_decide (h = flow_id)) | _ => true end) evs' &&
  match es_cs st !! "flow", es_cs st' !! "flow" with
  | Some (CSProc ps), Some (CSProc ps') =>
    match pc_instances ps !! "p", pc_instances ps' !! "p" with Some r, Some r' => negb (bool_decide (r = r')) | _, _ => false end
  | _, _ => false
  end.
Theorem C22_refuted :
  exists (c : Config) u ops op st evs st' evs' h ps ps' i r r' e err,
    history c u ops st evs true /\ op_ok c op /\ run_op c op st = (st', evs', Ok [EWrap (h_id h) err]) /\
    EvFact (HandlingCompleted (h_id h) e (Some err)) ∈ evs' /\
    (forall e', EvFact (HandlingCompleted (h_id h) e' None) ∉ evs') /\
    h ∈ c_app c /\ es_cs st !! h_name h = Some (CSProc ps) /\ es_cs st' !! h_name h = Some (CSProc ps') /\
    pc_instances ps !! i = Some r /\ pc_instances ps' !! i = Some r' /\ r <> r'.
Proof.
  flow_history [go_at 100 5] H.
  assert (Hc : check22 (ops_st flow [] [go_at 100 5]) (run_op flow (go_at 101 4) (ops_st flow [] [go_at 100 5])) = true)
    by (vm_compute; reflexivity).
  exists flow, [], [go_at 100 5], (go_at 101 4), (ops_st flow [] [go_at 100 5]), (ops_evs flow [] [go_at 100 5]).
  revert H Hc. generalize (ops_st flow [] [go_at 100 5]) as st, (ops_evs flow [] [go_at 100 5]) as evs. intros st evs H Hc.
  destruct (run_op flow (go_at 101 4) st) as [[st' evs'] r] eqn:Hr. unfold check22 in Hc. bools.
  destruct r as [[|[] []]| |]; try discriminate. bools. subst.
  destruct (es_cs st !! "flow") as [[ps|ps| |]|] eqn:E1; try discriminate.
  destruct (es_cs st' !! "flow") as [[ps'|ps'| |]|] eqn:E2; try discriminate.
  destruct (pc_instances ps !! "p") as [x|] eqn:E3; try discriminate.
  destruct (pc_instances ps' !! "p") as [x'|] eqn:E4; try discriminate.
  match goal with H : existsb _ _ = true |- _ => apply existsb_exists in H as (f & Hf & Hb) end.
  destruct f as [f|]; try discriminate. destruct f; try discriminate. destruct err as [err|]; try discriminate. bools. subst.
  exists st', evs', hFlow, ps, ps', "p", x, x', e, (EUser "oops").
  split; [exact H|]. split; [apply go_ok|]. split; [reflexivity|]. split; [apply elem_of_list_In; exact Hf|]. split.
  { intros e' Hin. match goal with H : forallb _ _ = true |- _ => rewrite forallb_forall in H; apply elem_of_list_In in Hin; apply H in Hin end.
    discriminate. }
  split; [right; left|]. do 4 (split; [assumption|]). intros ->.
  match goal with H : negb _ = true |- _ => apply negb_true_iff, bool_decide_eq_false in H; done end.
Qed.

(** C23: the context of a Tick is cancelled; a timeout that was due is neither
    delivered nor kept. *)
Definition check23 (st : EState) (out : EState * list Ev * Out Errs) : bool :=
  let '(st', evs', r) := out in
  match r with Ok [ECtx s] => bool_decide (s = "cancelled") | _ => false end &&
  forallb (fun f => match f with EvFact (DispatchBegun _) => false | _ => true end) evs' &&
  match es_cs st !! "flow", es_cs st' !! "flow" with
  | Some (CSProc ps), Some (CSProc ps') =>
    match pc_timeouts ps, pc_timeouts ps' with _ :: _, [] => true | _, _ => false end
  | _, _ => false
  end.
Theorem C23_refuted :
  exists (c : Config) u ops op st evs st' evs' r h ps ps' t,
    history c u ops st evs true /\ op_ok c op /\ run_op c op st = (st', evs', r) /\
    r = Ok [ECtx "cancelled"] /\
    h ∈ c_app c /\ es_cs st !! h_name h = Some (CSProc ps) /\ es_cs st' !! h_name h = Some (CSProc ps') /\
    t ∈ pc_timeouts ps /\ pc_timeouts ps' = [] /\ (forall e, EvFact (DispatchBegun e) ∉ evs').
Proof.
  flow_history [go_at 100 6] H.
  assert (Hc : check23 (ops_st flow [] [go_at 100 6]) (run_op flow (wait_cancelled 200) (ops_st flow [] [go_at 100 6])) = true)
    by (vm_compute; reflexivity).
  exists flow, [], [go_at 100 6], (wait_cancelled 200), (ops_st flow [] [go_at 100 6]), (ops_evs flow [] [go_at 100 6]).
  revert H Hc. generalize (ops_st flow [] [go_at 100 6]) as st, (ops_evs flow [] [go_at 100 6]) as evs. intros st evs H Hc.
  destruct (run_op flow (wait_cancelled 200) st) as [[st' evs'] r] eqn:Hr. unfold check23 in Hc. bools.
  destruct (es_cs st !! "flow") as [[ps|ps| |]|] eqn:E1; try discriminate.
  destruct (es_cs st' !! "flow") as [[ps'|ps'| |]|] eqn:E2; try discriminate.
  destruct (pc_timeouts ps) as [|t ts] eqn:E3; try discriminate.
  destruct (pc_timeouts ps') as [|] eqn:E4; try discriminate.
  destruct r as [[|[]  []]| |]; try discriminate. bools. subst.
  exists st', evs', (Ok [ECtx "cancelled"]), hFlow, ps, ps', t.
  split; [exact H|]. split; [apply wait_cancelled_ok|]. split; [reflexivity|]. split; [reflexivity|]. split; [right; left|].
  split; [exact E1|]. split; [exact E2|]. split; [rewrite E3; left|]. split; [exact E4|].
  intros e Hin. match goal with H : forallb _ _ = true |- _ => rewrite forallb_forall in H; apply elem_of_list_In in Hin; apply H in Hin end.
  discriminate.
Qed.

Print Assumptions C18_refuted.
Print Assumptions C22_refuted.
Print Assumptions C23_refuted.
