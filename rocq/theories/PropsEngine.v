(** * Properties of Dispatch, Tick and Reset. *)
From Verif Require Import OpFacts CancelProof EngineLemmas EngDemo.

Section Props.
Context {P : Params}.

(** C09.  A Dispatch changes nothing of what is stored about an instance that is not
    named by any of its facts. *)
Theorem C09_instances_are_isolated c st o fuel m opts st' fs r hd i :
  performs c st (OpDispatch o fuel m opts) st' fs r -> hd ∈ c_app c -> not_named (h_id hd) i fs ->
  untouched i (es_cs st !! h_name hd) (es_cs st' !! h_name hd).
Proof. exact (C09_lemma c st o fuel m opts st' fs r hd i). Qed.

(** C09.  Neither does a Tick, but for timeouts that are due by then. *)
Theorem C09_ticks_are_isolated c st o fuel order opts st' fs r hd i now et eh rest :
  performs c st (OpTick o fuel order opts) st' fs r -> fs = TickCycleBegun now et eh :: rest ->
  hd ∈ c_app c -> not_named (h_id hd) i fs ->
  untouched_but_due now i (es_cs st !! h_name hd) (es_cs st' !! h_name hd).
Proof. exact (C09_tick_lemma c st o fuel order opts st' fs r hd i now et eh rest). Qed.

(** C24. *)
Theorem C24_integration_events_are_dispatched c st op st' fs r :
  performs c st op st' fs r -> uncancelled r -> recorded_by_integrations fs `sublist_of` dispatched fs.
Proof. exact (C24_lemma c st op st' fs r). Qed.

(** C31. *)
Theorem C31_fifo c st op st' fs r :
  performs c st op st' fs r ->
  exists q rest, op_start st op (head fs) q /\ q ++ returned (op_now op) fs = dispatched fs ++ rest /\ (uncancelled r -> rest = []).
Proof. exact (C31_lemma c st op st' fs r). Qed.

(** C32. *)
Theorem C32_offered_to_the_consumers c st op st' fs r :
  performs c st op st' fs r ->
  (offered fs).*1 = dispatched fs /\
  forall e hs, (e, hs) ∈ offered fs ->
    served c e hs \/ (exists v, r = Pan v) /\ last (offered fs) = Some (e, hs) /\ part_served c e hs.
Proof. exact (C32_lemma c st op st' fs r). Qed.

(** C33. *)
Theorem C33_enablement c st op st' fs r :
  performs c st op st' fs r -> Forall (engagement c (skipped (op_opts op))) fs.
Proof. exact (C33_lemma c st op st' fs r). Qed.

(** C34.  (That the other handlers and messages are still processed is part of C31,
    C32 and C36.) *)
Theorem C34_errors_are_collected c st op st' fs r errs :
  performs c st op st' fs r -> r = Ok errs -> Forall (fun e => ~ is_ctx e) errs -> errs = handler_errors fs.
Proof. exact (C34_lemma c st op st' fs r errs). Qed.

(** C35.  An operation either does the same as with a context that is never
    cancelled, or returns the context's error (after the errors of the ticks), and
    its facts are the completion of the cycle after a prefix of the facts it would
    have notified otherwise.  (By C32, the prefix ends at a message boundary.) *)
Theorem C35_cancellation_truncates c op st st' fs r st0 fs0 r0 :
  run_op c op st = (st', EvFact <$> fs, r) -> run_op c (op_calm op) st = (st0, EvFact <$> fs0, r0) ->
  (st', fs, r) = (st0, fs0, r0) \/
  exists x errs body fin rest, r = Ok (errs ++ [ECtx x]) /\ fs = body ++ [fin] /\ completed fin /\ fs0 = body ++ rest.
Proof. exact (C35_truncation_lemma c op st st' fs r st0 fs0 r0). Qed.
Theorem C35_no_spurious_cancellation c st op st' fs errs o :
  performs c st op st' fs (Ok errs) -> op_oracle op = Some o ->
  (forall n, o_ctx o n = None) -> (forall n, o_lock o n = None) -> Forall (fun e => ~ is_ctx e) errs.
Proof. exact (C35_never_lemma c st op st' fs errs o). Qed.
Theorem C35_no_further_message c st op st' fs r o x :
  performs c st op st' fs r -> op_oracle op = Some o ->
  (forall n, o_ctx o n = Some x) -> length (dispatched fs) <= 1.
Proof. exact (C35_always_lemma c st op st' fs r o x). Qed.

(** C36. *)
Theorem C36_facts_are_bracketed c st op st' fs r :
  reachable c st -> op_ok c op -> run_op c op st = (st', EvFact <$> fs, r) ->
  (fs = [] /\ exists v, r = Pan v) \/ Op_facts c st op fs r.
Proof. exact (op_lemma c st op st' fs r). Qed.

(** C38. *)
Theorem C38_rejected_dispatch c st o fuel m opts :
  app_ok c ->
  let '(st', evs, r) := run_op c (OpDispatch o fuel m opts) st in
  (rejected c m opts -> evs = [] /\ (exists v, r = Pan v) /\ es_cs st' = es_cs st /\ g_user (es_g st') = g_user (es_g st) /\
     g_next (es_g st') = (g_next (es_g st) + o_skew o (g_step (es_g st)) + 1)%N) /\
  (~ rejected c m opts -> evs <> []).
Proof. exact (C38_lemma c st o fuel m opts). Qed.
Theorem C38_rejected_tick c st o fuel order opts :
  let '(st', evs, r) := run_op c (OpTick o fuel order opts) st in
  (unknown_handler c opts -> evs = [] /\ (exists v, r = Pan v) /\ st' = st) /\ (~ unknown_handler c opts -> evs <> []).
Proof. exact (C38_tick_lemma c st o fuel order opts). Qed.

(** C39. *)
Theorem C39_observers_see_the_same c o opts oo fs :
  new_opts c (o_wall o) opts = inl oo ->
  notify_all (oo_observers oo) fs = concat ((fun f => (fun n => (n, f)) <$> observers opts) <$> fs) /\
  (NoDup (observers opts) -> forall n, n ∈ observers opts ->
     snd <$> filter (fun x => x.1 = n) (notify_all (oo_observers oo) fs) = fs).
Proof. exact (C39_opts_lemma c o opts oo fs). Qed.

(** C42. *)
Theorem C42_reset c st st' evs r :
  reachable c st -> run_op c OpReset st = (st', evs, r) ->
  r = Ok [] /\ evs = [EvReset] /\ g_next (es_g st') = 0%N /\
  g_user (es_g st') = foldl (fun u hook => hook u) (g_user (es_g st)) (c_resetters c) /\
  (forall h a, h ∈ c_app c -> h_impl h = ImplAgg a -> es_cs st' !! h_name h = Some (CSAgg ∅)) /\
  (forall h p, h ∈ c_app c -> h_impl h = ImplProc p -> es_cs st' !! h_name h = Some (CSProc (mkPState ∅ []))).
Proof. exact (C42_lemma c st st' evs r). Qed.

(** C43. *)
Theorem C43_map_order_is_irrelevant c st o fuel order opts st1 fs1 r1 o' fuel' order' st2 fs2 r2 :
  performs c st (OpTick o fuel order opts) st1 fs1 r1 -> uncancelled r1 ->
  performs c st (OpTick o' fuel' order' opts) st2 fs2 r2 -> uncancelled r2 ->
  op_time o opts = op_time o' opts ->
  exists q1 q2, q1 ≡ₚ q2 /\ q1 = batch (skipped opts) (due_timeouts (op_time o opts) st) order /\
    q1 ++ returned (op_time o opts) fs1 = dispatched fs1 /\ q2 ++ returned (op_time o opts) fs2 = dispatched fs2.
Proof. exact (C43_lemma c st o fuel order opts st1 fs1 r1 o' fuel' order' st2 fs2 r2). Qed.
End Props.

Print Assumptions C09_instances_are_isolated.
Print Assumptions C09_ticks_are_isolated.
Print Assumptions C24_integration_events_are_dispatched.
Print Assumptions C31_fifo.
Print Assumptions C32_offered_to_the_consumers.
Print Assumptions C33_enablement.
Print Assumptions C34_errors_are_collected.
Print Assumptions C35_cancellation_truncates.
Print Assumptions C35_no_spurious_cancellation.
Print Assumptions C35_no_further_message.
Print Assumptions C36_facts_are_bracketed.
Print Assumptions C38_rejected_dispatch.
Print Assumptions C38_rejected_tick.
Print Assumptions C39_observers_see_the_same.
Print Assumptions C42_reset.
Print Assumptions C43_map_order_is_irrelevant.

(** ** The hypotheses can be met *)

(** Handling "Open 5" (instance "b") after "Open 4" (instance "a"). *)
Example C09_example :
  exists st st' fs r, performs demo st (open_at 106 5) st' fs r /\ hAgg ∈ c_app demo /\ not_named (h_id hAgg) "a" fs /\
    exists hist hist', es_cs st !! "agg" = Some (CSAgg hist) /\ es_cs st' !! "agg" = Some (CSAgg hist') /\
      length (default [] (hist !! "a")) = 1 /\ hist' !! "b" <> hist !! "b".
Proof.
  assert (H := performs_ops demo [] [open_at 100 4] (open_at 106 5) demo_ok (Forall_cons_2 _ _ _ (open_ok _ _) (Forall_nil_2 _)) (open_ok _ _)
    ltac:(vm_compute; reflexivity) eq_refl ltac:(vm_compute; reflexivity)).
  eexists _, _, _, _. split; [exact H|]. split; [left|]. split.
  { assert (Hc : forallb (fun f => negb (bool_decide (instance_named f = Some (h_id hAgg, "a"))))
      (op_facts demo (ops_st demo [] [open_at 100 4]) (open_at 106 5)) = true) by (vm_compute; reflexivity).
    intros f Hin Hn. rewrite forallb_forall in Hc. apply elem_of_list_In, Hc in Hin. rewrite Hn in Hin. done. }
  vm_compute. eexists _, _. repeat split; [reflexivity..|]. intros [=].
Qed.

(** A Tick whose context is cancelled takes the timeout of "p", which is due, and then does
    nothing. *)
Definition timeouts_of (st : EState) (n i : string) : option nat :=
  match es_cs st !! n with Some (CSProc ps) => Some (length (mine i (pc_timeouts ps))) | _ => None end.
Definition not_namedb (h : HId) (i : string) (fs : list Fact) : bool :=
  forallb (fun f => negb (bool_decide (instance_named f = Some (h, i)))) fs.
Lemma not_namedb_sound h i fs : not_namedb h i fs = true -> not_named h i fs.
Proof. intros Hc f Hin Hn. unfold not_namedb in Hc. rewrite forallb_forall in Hc. apply elem_of_list_In, Hc in Hin. by rewrite Hn, bool_decide_eq_true_2 in Hin. Qed.
Example C09_tick_example :
  exists st st' fs r et eh rest, performs flow st (wait_cancelled 10) st' fs r /\ fs = TickCycleBegun 10 et eh :: rest /\
    hFlow ∈ c_app flow /\ not_named (h_id hFlow) "p" fs /\
    timeouts_of st "flow" "p" = Some 1 /\ timeouts_of st' "flow" "p" = Some 0.
Proof.
  assert (H := performs_ops flow [] [go_at 0 6] (wait_cancelled 10) flow_ok (Forall_cons_2 _ _ _ (go_ok _ _) (Forall_nil_2 _)) (wait_cancelled_ok _)
    ltac:(vm_compute; reflexivity) eq_refl ltac:(vm_compute; reflexivity)).
  eexists _, _, _, _, _, _, _. split; [exact H|]. split; [vm_compute; reflexivity|]. split; [right; left|].
  split; [apply not_namedb_sound; vm_compute; reflexivity|]. split; vm_compute; reflexivity.
Qed.

(** "Went 5" is recorded before the integration fails. *)
Example C24_example :
  exists st st' fs, performs mixed st (go_with quietly [OptNow 100] 99) st' fs (Ok [EWrap (h_id hSrc) (EUser "late")]) /\
    uncancelled (Ok [EWrap (h_id hSrc) (EUser "late")]) /\ length (recorded_by_integrations fs) = 1.
Proof.
  mixed_performs (@nil Op) (go_with quietly [OptNow 100] 99) (Ok (A:=Errs) [EWrap (h_id hSrc) (EUser "late")]) H.
  eexists _, _, _. split; [exact H|]. split; [exact (not_ctx_wrap [(_, _)])|]. vm_compute. reflexivity.
Qed.

(** One command, three events, a timeout that is due already; offered to three
    handlers, one of which is disabled. *)
Example C31_C32_C33_C36_example :
  exists st st' fs r, performs mixed st (go_with quietly [OptNow 100; OptHandler "src" true; OptType HTIntegration false] 100) st' fs r /\
    length (dispatched fs) = 5 /\ (length ∘ snd <$> offered fs) = [1; 3; 3; 3; 1] /\
    r = Ok [EWrap (h_id hPicky) (EUser "even")] /\ length fs = 44.
Proof.
  mixed_performs (@nil Op) (go_with quietly [OptNow 100; OptHandler "src" true; OptType HTIntegration false] 100)
    (Ok (A:=Errs) [EWrap (h_id hPicky) (EUser "even")]) H.
  eexists _, _, _, _. split; [exact H|]. split; [vm_compute; reflexivity|]. split; [vm_compute; reflexivity|].
  split; [reflexivity|]. vm_compute. reflexivity.
Qed.

(** Two handlers fail. *)
Example C34_example :
  exists st st' fs errs, performs mixed st (go_with quietly [OptNow 100] 4) st' fs (Ok errs) /\
    Forall (fun e => ~ is_ctx e) errs /\ length errs = 2.
Proof.
  mixed_performs (@nil Op) (go_with quietly [OptNow 100] 4)
    (Ok (A:=Errs) [EWrap flow_id (EUser "oops"); EWrap (h_id hPicky) (EUser "even")]) H.
  eexists _, _, _, _. split; [exact H|]. split; [|done].
  destruct (not_ctx_wrap [(flow_id, EUser "oops"); (h_id hPicky, EUser "even")]) as (l & [= <-] & Hl). exact Hl.
Qed.

(** A cancelled Dispatch. *)
Example C35_example :
  exists st st' fs, performs mixed st (go_with cancelled [OptNow 100] 100) st' fs (Ok [ECtx "cancelled"]) /\
    length fs = 9 /\
    exists st0 fs0, run_op mixed (op_calm (go_with cancelled [OptNow 100] 100)) st = (st0, EvFact <$> fs0, Ok [EWrap (h_id hPicky) (EUser "even")]) /\
      length fs0 = 44.
Proof.
  mixed_performs (@nil Op) (go_with cancelled [OptNow 100] 100) (Ok (A:=Errs) [ECtx "cancelled"]) H.
  eexists _, _, _. split; [exact H|]. split; [vm_compute; reflexivity|].
  mixed_performs (@nil Op) (op_calm (go_with cancelled [OptNow 100] 100)) (Ok (A:=Errs) [EWrap (h_id hPicky) (EUser "even")]) H0.
  destruct H0 as (_ & _ & H0 & _). eexists _, _. split; [exact H0|]. vm_compute. reflexivity.
Qed.
Example C35_never_example :
  exists st st' fs errs, performs mixed st (go_with quietly [OptNow 100] 4) st' fs (Ok errs) /\
    (forall n, o_ctx quietly n = None) /\ (forall n, o_lock quietly n = None).
Proof.
  destruct C34_example as (st & st' & fs & errs & H & _). exists st, st', fs, errs. done.
Qed.

Example C38_example :
  rejected mixed (mkMsg KTimeout (body "Alarm" 0)) [] /\
  rejected mixed (mkMsg KCommand (mkBody "Go" 0 (Some "bad"))) [] /\
  rejected mixed (event "Unknown" 0) [] /\
  rejected mixed (command "Go" 0) [OptHandler "nobody" true] /\
  ~ rejected mixed (command "Go" 0) [OptHandler "off" true] /\ unknown_handler mixed [OptHandler "nobody" true].
Proof.
  assert (Hu : unknown_handler mixed [OptHandler "nobody" true]).
  { exists "nobody", true. split; [left|]. intros h Hin. cbn in Hin.
    repeat (apply elem_of_cons in Hin as [->|Hin]; [done|]). apply elem_of_nil in Hin. done. }
  split; [left; done|]. split; [right; left; exists "bad"; done|].
  split; [right; right; left|split; [right; right; right; exact Hu|split; [|exact Hu]]].
  - intros h Hin. cbn in Hin. repeat (apply elem_of_cons in Hin as [->|Hin]; [cbn; set_solver|]). apply elem_of_nil in Hin. done.
  - intros [H|[[e H]|[H|(n & b & Hn & H)]]]; [done|done| |].
    + apply (H hSrc); [left|left].
    + apply elem_of_list_singleton in Hn as [= -> ->]. apply (H hOff); [right; right; right; left|done].
Qed.

Example C39_example :
  exists oo, new_opts mixed (o_wall quietly) [OptObserver 1; OptNow 5; OptObserver 2] = inl oo /\
    NoDup (observers [OptObserver 1; OptNow 5; OptObserver 2]).
Proof. eexists. split; [reflexivity|]. apply (bool_decide_unpack _). vm_compute. exact I. Qed.


Example C42_example :
  exists st, reachable mixed st /\ g_next (es_g st) = 5%N /\
    exists ps, es_cs st !! "flow" = Some (CSProc ps) /\ size (pc_instances ps) = 1 /\ length (pc_timeouts ps) = 1.
Proof.
  mixed_performs [go_with quietly [OptNow 100] 5; go_with quietly [OptNow 100] 6] (wait_with quietly [OptNow 100]) (Ok (A:=Errs) []) H.
  destruct H as (H & _). eexists. split; [exact H|]. split; [vm_compute; reflexivity|].
  vm_compute. eexists. repeat split; reflexivity.
Qed.

Example C43_example :
  exists st st1 fs1 st2 fs2, performs mixed st (wait_with quietly [OptNow 200]) st1 fs1 (Ok []) /\
    performs mixed st (wait_reversed [OptNow 200]) st2 fs2 (Ok []) /\ length (dispatched fs1) = 2 /\ fs1 <> fs2.
Proof.
  mixed_performs [go_with quietly [OptNow 100] 6; go_with quietly [OptNow 101] 6] (wait_with quietly [OptNow 200]) (Ok (A:=Errs) []) H1.
  mixed_performs [go_with quietly [OptNow 100] 6; go_with quietly [OptNow 101] 6] (wait_reversed [OptNow 200]) (Ok (A:=Errs) []) H2.
  eexists _, _, _, _, _. split; [exact H1|]. split; [exact H2|]. split; [vm_compute; reflexivity|]. vm_compute. discriminate.
Qed.
