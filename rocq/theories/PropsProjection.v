(** * Properties of projections, of Reset and of termination. *)
From Verif Require Import ProjLemmas ProjCalls ResetLemmas TermLemmas SpinDemo.
From Verif Require RecDemo.

Section Props.
Context {P : Params}.

(** C25.  Tick begins a compaction only if an hour has passed since the last one it
    began; if it completes without one, less than an hour has passed. *)
Theorem C25_compaction_interval c u ops st evs fin :
  history c u ops st evs fin ->
  (forall pre h, tick_compacts evs pre h -> (hour <= ck_now (clock pre) - ck_last (clock pre) h)%Z) /\
  (forall pre h e, occurs_after evs pre (TickCompleted h e) -> hid_type h = HTProjection ->
     ck_tick (clock pre) = Some h /\
     (ck_did (clock pre) = false -> (ck_now (clock pre) - ck_last (clock pre) h < hour)%Z /\ e = None)).
Proof. exact (C25_lemma c u ops st evs fin). Qed.

(** Two compactions by Tick are at least an hour apart. *)
Theorem C25_compactions_are_apart c u ops st evs fin pre mid h :
  history c u ops st evs fin ->
  tick_compacts evs pre h -> tick_compacts evs (pre ++ ProjectionCompactionBegun h :: mid) h ->
  (hour <= ck_now (clock (pre ++ ProjectionCompactionBegun h :: mid)) - ck_now (clock pre))%Z.
Proof. exact (C25_apart_lemma c u ops st evs fin pre mid h). Qed.

(** C26.  The calls that a projection receives for one event, as recorded by the
    projection itself: a protocol session, and at most one compaction. *)
Theorem C26_protocol calls o during h j now env g g' fs r :
  recording calls j -> consumes h (m_type (e_msg env)) = true ->
  j_handle_threads o during h j now env g = (g', fs, r) -> (forall v, r <> HPan (PFatal v)) ->
  exists ks cks ce,
    filter (fun k => ~ is_compaction k) (calls (g_user g')) = filter (fun k => ~ is_compaction k) (calls (g_user g)) ++ ks /\
    filter is_compaction (calls (g_user g')) = filter is_compaction (calls (g_user g)) ++ cks /\
    Session (h_id h) (e_id env) (e_created env) (e_msg env) ce ks r /\
    compaction_calls during now ks r ce cks.
Proof. exact (C26_lemma calls o during h j now env g g' fs r). Qed.

(** C27.  The goroutine started for compaction notifies nothing but what Compact()
    logs; if Compact() does not log, all facts are notified by the caller's
    goroutine. *)
Theorem C27_facts_of_the_other_goroutine o during h j now env g g' fs r :
  j_handle_threads o during h j now env g = (g', fs, r) ->
  (forall f, (TCompact, f) ∈ fs -> during = true /\ exists s, f = MessageLoggedByProjection (h_id h) None s) /\
  (during = false \/ silent (pj_compact j now) -> forall th f, (th, f) ∈ fs -> th = TMain).
Proof. exact (C27_lemma o during h j now env g g' fs r). Qed.

(** C28. *)
Theorem C28_compaction_is_bracketed o h j now env g g' fs r u1 :
  consumes h (m_type (e_msg env)) = true ->
  pj_version j (e_id env) (g_user g) = (u1, inl ("", None)) ->
  j_handle_threads o true h j now env g = (g', fs, r) ->
  exists mid tail lm lc,
    fs = (TMain, ProjectionCompactionBegun (h_id h)) :: mid ++ tail /\
    by_thread TMain mid = map (MessageLoggedByProjection (h_id h) (Some env)) lm /\
    by_thread TCompact mid = map (MessageLoggedByProjection (h_id h) None) lc /\
    ((exists v, r = HPan v /\ tail = []) \/
     exists ok e ce next, tail = [(TMain, ProjectionCompactionCompleted (h_id h) ce)] /\
       JPath (pj_handle j (e_id env) "" next (e_created env) (e_msg env)) lm (ok, e) /\
       JPath (pj_compact j now) lc ce).
Proof. exact (C28_lemma o h j now env g g' fs r u1). Qed.

(** C29.  What Reset brings back: the message IDs and the state of all handlers but
    the projections. *)
Theorem C29_reset_state c u ops st evs fin n :
  history c u ops st evs fin ->
  let st' := e_reset c st in
  let new := e_init c (g_user (es_g st')) in
  g_next (es_g st') = g_next (es_g new) /\
  ((forall h, h ∈ c_app c -> h_name h = n -> h_type h <> HTProjection) ->
   es_cs st' !! n = es_cs new !! n) /\
  (forall h, h ∈ c_app c -> h_name h = n -> h_type h = HTProjection -> es_cs st' !! n = es_cs st !! n).
Proof. exact (C29_lemma c u ops st evs fin n). Qed.

(** Hence an engine without projections is as good as new after Reset, whatever
    happens next. *)
Theorem C29_reset_without_projections c u ops st evs fin :
  history c u ops st evs fin ->
  (forall h, h ∈ c_app c -> h_type h <> HTProjection) ->
  forall next,
  run_ops c next (e_reset c st) =
  run_ops c next
    (mkE (mkG 0 (foldl (fun u f => f u) (g_user (es_g st)) (c_resetters c)) (g_step (es_g st)))
         (es_cs (e_init c u))).
Proof. exact (C29_behaviour_lemma c u ops st evs fin). Qed.

(** C37.  For every operation on an acyclic application there is a number of
    messages after which it is complete. *)
Theorem C37_dispatch_terminates c o m opts st :
  acyclic c ->
  exists n, forall fuel, n <= fuel -> (run_op c (OpDispatch o fuel m opts) st).2 <> Fuel.
Proof. intros H. exact (C37_dispatch_lemma c H o m opts st). Qed.

Theorem C37_tick_terminates c o order opts st :
  acyclic c ->
  exists n, forall fuel, n <= fuel -> (run_op c (OpTick o fuel order opts) st).2 <> Fuel.
Proof. intros H. exact (C37_tick_lemma c H o order opts st). Qed.
End Props.

(** An application on which Dispatch never completes, whatever the number of
    messages dispatched. *)
Theorem C37_cyclic_application_diverges :
  exists (P : Params) (c : Config) (u : U) o m opts, app_ok c /\ sort_ok o /\ ~ acyclic c /\
    forall n, exists st fs, run_op c (OpDispatch o n m opts) (e_init c u) = (st, EvFact <$> fs, Fuel) /\
      length (dispatched fs) = n.
Proof.
  exists DemoP, spin, [], quietly, (event "Start" 0), [OptNow 100]. split; [exact spin_ok|].
  split; [exact quietly_ok|]. split; [|exact spin_forever].
  intros H. apply (H (KTimeout, "Again")). apply tc_once. exists hSpin. cbn. set_solver.
Qed.

Print Assumptions C25_compaction_interval.
Print Assumptions C25_compactions_are_apart.
Print Assumptions C26_protocol.
Print Assumptions C27_facts_of_the_other_goroutine.
Print Assumptions C28_compaction_is_bracketed.
Print Assumptions C29_reset_state.
Print Assumptions C29_reset_without_projections.
Print Assumptions C37_dispatch_terminates.
Print Assumptions C37_tick_terminates.
Print Assumptions C37_cyclic_application_diverges.

(** ** Refutations *)

(** C27: a fact is notified by the other goroutine. *)
Theorem C27_refuted :
  exists (P : Params) o h j now env g g' fs r f, h_impl h = ImplProj j /\ handler_ok h /\
    j_handle_threads o true h j now env g = (g', fs, r) /\ (forall v, r <> HPan v) /\ (TCompact, f) ∈ fs.
Proof.
  exists RecDemo.RecP, RecDemo.alternating, RecDemo.hRec, RecDemo.recorder, 200%Z, RecDemo.rec_event, (@mkG RecDemo.RecP 1 (@nil RecDemo.Raw) 0).
  eexists _, _, _, _. split; [reflexivity|]. split; [|split; [vm_compute; reflexivity|split; [done|]]].
  - cbn. split; [|done]. intros t Ht. apply elem_of_list_singleton in Ht as ->. done.
  - right. right. left.
Qed.

(** C29: a new engine compacts the projection during the same Tick, the reset engine
    does not. *)
Definition day : Z := 24 * hour.
Definition compactions {P : Params} (evs : list Ev) : list HId :=
  omap (fun f => match f with ProjectionCompactionBegun h => Some h | _ => None end) (all_facts evs).
Theorem C29_refuted :
  exists (P : Params) (c : Config) (u : U) ops st evs op, history c u ops st evs true /\ op_ok c op /\
    let reset := e_reset c st in
    let new := e_init c (g_user (es_g reset)) in
    compactions (run_op c op reset).1.2 = [] /\ length (compactions (run_op c op new).1.2) = 1.
Proof.
  assert (Hops : Forall (op_ok demo) [tick_at (day + 1)]) by (constructor; [exact (tick_ok _)|constructor]).
  pose proof (ops_history demo [] [tick_at (day + 1)] demo_ok Hops) as H.
  replace (run_ops demo [tick_at (day + 1)] (e_init demo [])).2 with true in H by (vm_compute; reflexivity).
  exists DemoP, demo, [], [tick_at (day + 1)], (ops_st demo [] [tick_at (day + 1)]), (ops_evs demo [] [tick_at (day + 1)]), (tick_at (day + 2)).
  split; [exact H|]. split; [exact (tick_ok _)|]. split; vm_compute; reflexivity.
Qed.

(** C30: an event is handled by an enabled projection, without an error, but is not
    passed to HandleEvent, which would have logged "applied". *)
Definition reset_ops : list Op := [open_at 100 4; OpReset; open_at 200 4].
Lemma reset_ops_ok : Forall (op_ok demo) reset_ops.
Proof. constructor; [exact (open_ok _ _)|]. constructor; [exact I|]. constructor; [exact (open_ok _ _)|constructor]. Qed.
Theorem C30_refuted :
  exists (P : Params) (c : Config) (u : U) ops st evs h j, history c u ops st evs true /\
    h ∈ c_app c /\ h_impl h = ImplProj j /\
    (forall id cur next t m, exists f, pj_handle j id cur next t m = JAct f (fun _ => JLog "applied" (JRet (true, None)))) /\
    (exists before e after, evs = before ++ EvFact (HandlingBegun (h_id h) e) ::
       EvFact (MessageLoggedByProjection (h_id h) (Some e) "applied") :: EvFact (HandlingCompleted (h_id h) e None) :: after) /\
    exists before e after, evs = before ++ EvFact (HandlingBegun (h_id h) e) ::
       EvFact (HandlingCompleted (h_id h) e None) :: after.
Proof.
  pose proof (ops_history demo [] reset_ops demo_ok reset_ops_ok) as H.
  replace (run_ops demo reset_ops (e_init demo [])).2 with true in H by (vm_compute; reflexivity).
  exists DemoP, demo, [], reset_ops, (ops_st demo [] reset_ops), (ops_evs demo [] reset_ops), hProj, proj.
  split; [exact H|]. split; [right; right; right; left|]. split; [done|]. split; [intros; eexists; reflexivity|]. clear H.
  set (evs := ops_evs demo [] reset_ops).
  assert (Hn : exists e e', evs !! 15 = Some (EvFact (HandlingBegun (h_id hProj) e)) /\
    evs !! 16 = Some (EvFact (MessageLoggedByProjection (h_id hProj) (Some e) "applied")) /\
    evs !! 17 = Some (EvFact (HandlingCompleted (h_id hProj) e None)) /\
    evs !! 47 = Some (EvFact (HandlingBegun (h_id hProj) e')) /\ evs !! 48 = Some (EvFact (HandlingCompleted (h_id hProj) e' None)))
    by (vm_compute; eexists _, _; repeat split; reflexivity).
  destruct Hn as (e & e' & H1 & H2 & H3 & H4 & H5). clearbody evs. split.
  - exists (take 15 evs), e, (drop 18 evs).
    rewrite <- (drop_S _ _ _ H3), <- (drop_S _ _ _ H2), <- (drop_S _ _ _ H1). symmetry. apply take_drop.
  - exists (take 47 evs), e', (drop 49 evs).
    rewrite <- (drop_S _ _ _ H5), <- (drop_S _ _ _ H4). symmetry. apply take_drop.
Qed.
Print Assumptions C27_refuted.
Print Assumptions C29_refuted.
Print Assumptions C30_refuted.

(** ** The hypotheses can be met *)

(** Ticks at one hour, less than an hour later, and at two hours. *)
Definition tick_ops : list Op := [tick_at hour; tick_at (hour + 5); OpReset; tick_at (2 * hour)].
Lemma tick_ops_ok : Forall (op_ok demo) tick_ops.
Proof. do 2 (constructor; [exact (tick_ok _)|]). constructor; [exact I|]. constructor; [exact (tick_ok _)|constructor]. Qed.
Example C25_example :
  exists st evs pre mid h, history demo [] tick_ops st evs true /\
    tick_compacts evs pre h /\ tick_compacts evs (pre ++ ProjectionCompactionBegun h :: mid) h /\
    exists pre' e, occurs_after evs pre' (TickCompleted h e) /\ hid_type h = HTProjection /\ ck_did (clock pre') = false.
Proof.
  pose proof (ops_history demo [] tick_ops demo_ok tick_ops_ok) as H.
  replace (run_ops demo tick_ops (e_init demo [])).2 with true in H by (vm_compute; reflexivity).
  exists (ops_st demo [] tick_ops), (ops_evs demo [] tick_ops).
  set (evs := ops_evs demo [] tick_ops) in *.
  exists (all_facts (take 2 evs)), (all_facts (take 23 (drop 3 evs))), (h_id hProj). split; [exact H|]. clear H.
  assert (Hn : (exists e, evs !! 2 = Some (EvFact (ProjectionCompactionBegun (h_id hProj))) /\
    evs !! 26 = Some (EvFact (ProjectionCompactionBegun (h_id hProj))) /\
    evs !! 15 = Some (EvFact (TickCompleted (h_id hProj) e))) /\
    ck_tick (clock (all_facts (take 2 evs))) = Some (h_id hProj) /\
    ck_tick (clock (all_facts (take 26 evs))) = Some (h_id hProj) /\
    ck_did (clock (all_facts (take 15 evs))) = false /\
    all_facts (take 26 evs) = all_facts (take 2 evs) ++ ProjectionCompactionBegun (h_id hProj) :: all_facts (take 23 (drop 3 evs)))
    by (split; [vm_compute; eexists; repeat split; reflexivity|]; repeat split; vm_compute; reflexivity).
  destruct Hn as ((e & H1 & H2 & H3) & H4 & H5 & H6 & H7). clearbody evs. rewrite <- H7.
  assert (Ho : forall n f, evs !! n = Some (EvFact f) -> occurs_after evs (all_facts (take n evs)) f).
  { intros n f Hn. exists (take n evs), (drop (S n) evs). split; [|done]. symmetry. apply take_drop_middle. done. }
  split; [split; [exact (Ho _ _ H1)|exact H4]|]. split; [split; [exact (Ho _ _ H2)|exact H5]|].
  exists (all_facts (take 15 evs)), e. split; [exact (Ho _ _ H3)|]. split; [done|exact H6].
Qed.

(** Three deliveries of the same event: the first is applied, with a concurrent
    compaction; the second is not applied. *)
Example C26_C28_example :
  recording RecDemo.calls RecDemo.recorder /\
    (exists g fs, RecDemo.rec_handle true (@nil RecDemo.Raw) = (g, fs, HRet [] None) /\
    fst <$> fs = [TMain; TMain; TCompact; TMain] /\
    RecDemo.calls (g_user g) =
      [CVersion "1" (inl ("", None)); CHandle "1" "" (String (Ascii.ascii_of_nat 1) "") 100 (mkMsg KEvent (mkBody "E" (5:@D RecDemo.RecP) None));
       CCompact 200; CHandled true None; CCompacted None; CClose "1" (inl None)] /\
    exists g' fs', RecDemo.rec_handle true (g_user g) = (g', fs', HRet [] None) /\ fs' = [] /\
    RecDemo.calls (g_user g') = RecDemo.calls (g_user g) ++ [CVersion "1" (inl ("x", None))]).
Proof.
  split; [exact RecDemo.recorder_ok|]. eexists _, _. split; [vm_compute; reflexivity|].
  split; [vm_compute; reflexivity|]. split; [vm_compute; reflexivity|].
  eexists _, _. split; [vm_compute; reflexivity|]. split; vm_compute; reflexivity.
Qed.
Example C27_example : ~ silent (pj_compact RecDemo.recorder 0) /\ silent (@JRet RecDemo.RecP (option Err) None).
Proof. split; [|constructor]. intros H. inversion H as [| |f k Hk]; subst. specialize (Hk (@nil RecDemo.Raw)). inversion Hk. Qed.

(** The state of "demo" is not initial before the Reset. *)
Example C29_example :
  exists st, history demo [] [open_at 100 4; tick_at day] st (ops_evs demo [] [open_at 100 4; tick_at day]) true /\
    es_cs st !! "agg" <> es_cs (e_init demo []) !! "agg" /\ es_cs st !! "proj" = Some (CSProj day).
Proof.
  assert (Hops : Forall (op_ok demo) [open_at 100 4; tick_at day])
    by (constructor; [exact (open_ok _ _)|]; constructor; [exact (tick_ok _)|constructor]).
  pose proof (ops_history demo [] _ demo_ok Hops) as H.
  replace (run_ops demo [open_at 100 4; tick_at day] (e_init demo [])).2 with true in H by (vm_compute; reflexivity).
  eexists. split; [exact H|]. split; vm_compute; [discriminate|reflexivity].
Qed.

(** The aggregate, the process' commands and the integration of "demo" form no
    cycle, but its timeout may feed itself; without the timeout it is acyclic. *)
Definition hProc' := mkHandler "proc" (ImplProc proc) [(KEvent, "Opened")] [(KCommand, "Notify")] false.
Definition demo' : Config := mkConfig [hAgg; hProc'; hInt; hProj] false [].
Definition demo_rank (t : MType) : nat :=
  if decide (t = (KCommand, "Open")) then 3 else if decide (t = (KEvent, "Opened")) then 2
  else if decide (t = (KCommand, "Notify")) then 1 else 0.
Example C37_example : acyclic demo' /\ ~ acyclic demo /\ app_ok demo'.
Proof.
  split; [|split; [|solve_app_ok]].
  - assert (Hr : forall t t', tc (feeds demo') t t' -> demo_rank t' < demo_rank t).
    { intros t t' H. induction H as [t t' (h & Hin & H1 & H2)|t t1 t2 (h & Hin & H1 & H2) _ IH]; [|eapply Nat.lt_trans; [exact IH|]].
      all: clear -Hin H1 H2; cbn in Hin; repeat (apply elem_of_cons in Hin as [->|Hin]); [..|apply elem_of_nil in Hin; done].
      all: cbn in H1, H2; repeat (apply elem_of_cons in H1 as [->|H1]); try (apply elem_of_nil in H1; done).
      all: repeat (apply elem_of_cons in H2 as [->|H2]); try (apply elem_of_nil in H2; done).
      all: vm_compute; lia. }
    intros t H. apply Hr in H. lia.
  - intros H. apply (H (KTimeout, "Remind")). apply tc_once. exists hProc. cbn. set_solver.
Qed.
