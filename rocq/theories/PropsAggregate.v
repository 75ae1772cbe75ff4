(** * Properties C05-C08, C11, C12: aggregates. *)
From Verif Require Import AggSpec AggProof Demo.

Section Props.
Context {P : Params}.
Implicit Types (c : Config) (u : U) (ops : list Op) (st : EState) (evs : list Ev) (fin : bool).

(** C05.  When a command reaches instance [i] of [h], the facts so far determine
    whether it exists and the events it has ([stored]); the root is the replay of
    those events on New(). *)
Theorem C05_root_is_replay c u ops st evs fin pre f h i :
  history c u ops st evs fin -> occurs evs pre f ->
  (forall r e, f = AggregateInstanceLoaded h i r e ->
     exists a r0 l, aggregate_of c h a /\ ag_new a = Some r0 /\ ag_route a (e_msg e) = inl i /\
       stored pre h i = Some l /\ Replay a r0 l r) /\
  (forall e, f = AggregateInstanceNotFound h i e ->
     exists a, aggregate_of c h a /\ ag_route a (e_msg e) = inl i /\ stored pre h i = None).
Proof. exact (C05_lemma c u ops st evs fin pre f h i). Qed.

(** C05.  HandleCommand is given the root in the AggregateInstanceLoaded fact, or
    New() if there is no instance. *)
Theorem C05_root_given_to_handler o h a now env g hist g' hist' f fs res :
  a_handle o h a now env g hist = (g', hist', f :: fs, res) ->
  exists i r s v,
    (f = AggregateInstanceLoaded (h_id h) i r env \/
     f = AggregateInstanceNotFound (h_id h) i env /\ ag_new a = Some r) /\
    a_run o h a now env i (ag_handle a i (e_msg env)) g
      (mkAScope r None (bool_decide (is_Some (hist !! i))) false []) = (g', s, fs, v).
Proof. exact (C05_root_lemma o h a now env g hist g' hist' f fs res). Qed.

(** C05.  The events the engine keeps for an instance are those the facts say. *)
Theorem C05_engine_keeps_recorded_events c u ops st evs fin hd hist i :
  history c u ops st evs fin -> hd ∈ c_app c -> es_cs st !! h_name hd = Some (CSAgg hist) ->
  hist !! i = stored (since_reset evs) (h_id hd) i.
Proof. exact (agg_store_lemma c u ops st evs fin hd hist i). Qed.

(** C06.  A command that does not complete has no effect on the next one: two
    commands for the same instance with no completed command of that handler in
    between start from the same root (or both find no instance). *)
Theorem C06_commands_are_atomic c u ops st evs fin pre f mid f' h i ro ro' :
  history c u ops st evs fin ->
  occurs evs pre f -> fetched h i f = Some ro ->
  occurs evs (pre ++ f :: mid) f' -> fetched h i f' = Some ro' ->
  (forall e, HandlingCompleted h e None ∉ mid) ->
  ro' = ro.
Proof. exact (C06_lemma c u ops st evs fin pre f mid f' h i ro ro'). Qed.

(** C06.  A command that panics leaves all stored histories as they were. *)
Theorem C06_panic_changes_nothing o h a now env g hist g' hist' fs v :
  a_handle o h a now env g hist = (g', hist', fs, HPan v) -> hist' = hist.
Proof. exact (C06_panic_lemma o h a now env g hist g' hist' fs v). Qed.

(** C07.  If no event was recorded by the instance and it was not destroyed, then
    the next command gets the same root, whatever the handler did to it. *)
Theorem C07_direct_mutation_is_lost c u ops st evs fin pre f mid f' h i r ro' :
  history c u ops st evs fin ->
  occurs evs pre f -> fetched h i f = Some (Some r) ->
  occurs evs (pre ++ f :: mid) f' -> fetched h i f' = Some ro' ->
  (forall r e ev, EventRecordedByAggregate h i r e ev ∉ mid) ->
  (forall r e, AggregateInstanceDestroyed h i r e ∉ mid) ->
  ro' = Some r.
Proof. exact (C07_lemma c u ops st evs fin pre f mid f' h i r ro'). Qed.

(** C08.  The effect of one completed command ([f], [seg], HandlingCompleted) on
    the next one ([f']): if the facts say that the instance exists at the end, the
    next root is the old one (or New()) with the newly recorded events applied;
    otherwise there is no instance. *)
Theorem C08_effect_of_one_command c u ops st evs fin pre f seg e rest f' h i ro ro' :
  history c u ops st evs fin ->
  occurs evs pre f -> fetched h i f = Some ro ->
  one_handling seg ->
  occurs evs (pre ++ f :: seg ++ HandlingCompleted h e None :: rest) f' -> fetched h i f' = Some ro' ->
  (forall e, HandlingCompleted h e None ∉ rest) ->
  if exists_after h i (bool_decide (is_Some ro)) seg
  then exists a r r', aggregate_of c h a /\ (ro = Some r \/ ro = None /\ ag_new a = Some r) /\
         ro' = Some r' /\ Replay a r (recorded_by h i seg) r'
  else ro' = None.
Proof. exact (C08_lemma c u ops st evs fin pre f seg e rest f' h i ro ro'). Qed.

(** C08.  If HandleCommand calls Destroy after its last RecordEvent and returns,
    the history of the instance is gone. *)
Theorem C08_destroy_discards_history o h a now env i g hist g' hist' fs envs err :
  ag_route a (e_msg env) = inl i -> ends_destroying (ag_handle a i (e_msg env)) ->
  a_handle o h a now env g hist = (g', hist', fs, HRet envs err) ->
  hist' !! i = None.
Proof. exact (C08_destroy_lemma o h a now env i g hist g' hist' fs envs err). Qed.

(** C08.  If the last of the calls is a RecordEvent, the whole earlier history is
    kept, with the new events at the end. *)
Theorem C08_record_keeps_history o h a now env i g hist g' hist' fs envs err :
  ag_route a (e_msg env) = inl i -> ends_recording (ag_handle a i (e_msg env)) ->
  a_handle o h a now env g hist = (g', hist', fs, HRet envs err) ->
  hist' !! i = Some (default [] (hist !! i) ++ recorded_by (h_id h) i fs).
Proof. exact (C08_record_lemma o h a now env i g hist g' hist' fs envs err). Qed.

(** C11.  For handlers that neither recover from RecordEvent's panics nor change the
    root directly, every root reported in a fact is New() with exactly these events
    applied: those the instance will have if the handling completes now or, once
    Destroy has taken effect in the current command, those recorded since (so that
    the two differ, see [C11_refuted]). *)
Theorem C11_in_command_root c u ops st evs fin pre f h r :
  history c u ops st evs fin -> occurs evs pre f -> reported_root f = Some (h, r) ->
  (forall a, aggregate_of c h a -> forall i m, no_recover (ag_handle a i m) /\ no_mutation (ag_handle a i m)) ->
  exists p a r0, pending_cmd (pre ++ [f]) = Some p /\ ap_h p = h /\ aggregate_of c h a /\ ag_new a = Some r0 /\
    Replay a r0 (default (ap_events p) (ap_since p)) r.
Proof. exact (C11_lemma c u ops st evs fin pre f h r). Qed.

(** C12.  For handlers that do not recover, an instance has at least one event. *)
Theorem C12_instances_have_events c u ops st evs fin h a :
  history c u ops st evs fin -> aggregate_of c h a -> (forall i m, no_recover (ag_handle a i m)) ->
  (forall i, stored (since_reset evs) h i <> Some []) /\
  (forall pre i r e, occurs evs pre (AggregateInstanceLoaded h i r e) ->
     exists l, stored pre h i = Some l /\ l <> []).
Proof.
  exact (fun H Ha Hn => conj (fun i => C12_lemma c u ops st evs fin h a i H Ha Hn)
    (fun pre i r e => C12_loaded_lemma c u ops st evs fin pre h a i r e H Ha Hn)).
Qed.
End Props.

Print Assumptions C05_root_is_replay.
Print Assumptions C05_root_given_to_handler.
Print Assumptions C05_engine_keeps_recorded_events.
Print Assumptions C06_commands_are_atomic.
Print Assumptions C06_panic_changes_nothing.
Print Assumptions C07_direct_mutation_is_lost.
Print Assumptions C08_effect_of_one_command.
Print Assumptions C08_destroy_discards_history.
Print Assumptions C08_record_keeps_history.
Print Assumptions C11_in_command_root.
Print Assumptions C12_instances_have_events.

(** ** The hypotheses can be met *)

Definition is_fetch (f : Fact) : bool :=
  match f with AggregateInstanceLoaded _ _ _ _ | AggregateInstanceNotFound _ _ _ => true | _ => false end.
Definition the_root (f : Fact) : option (list nat) :=
  match f with
  | AggregateInstanceLoaded _ _ r _ | EventRecordedByAggregate _ _ r _ _ => Some r
  | _ => None
  end.
Definition bank_id := h_id (hBank true).

(** What successive commands find. *)
Example C05_example :
  omap (fun n => match ops_evs (bank true) [] (opens [1; 2; 10; 13; 12; 3; 11; 4; 14; 5]) !! n with
                 | Some (EvFact f) => Some (the_root f) | _ => None end)
    (find_facts is_fetch (ops_evs (bank true) [] (opens [1; 2; 10; 13; 12; 3; 11; 4; 14; 5]))) =
  [None; Some [1]; Some [1; 2]; Some [1; 2]; Some [1; 2]; Some [1; 2; 12]; Some [1; 2; 12; 3]; None; Some [4]; Some [4]].
Proof. vm_compute. reflexivity. Qed.

Definition not_completed (f : Fact) : bool :=
  match f with HandlingCompleted _ _ None => false | _ => true end.
Definition no_change (f : Fact) : bool :=
  match f with EventRecordedByAggregate _ _ _ _ _ | AggregateInstanceDestroyed _ _ _ _ => false | _ => true end.

(** The third command fails after recording an event; the fourth is the next
    one. *)
Example C06_example :
  exists evs st pre f mid f',
    history (bank true) [] (opens [1; 2; 10; 13; 5]) st evs true /\
    occurs evs pre f /\ fetched bank_id "a" f = Some (Some [1; 2]) /\
    occurs evs (pre ++ f :: mid) f' /\ fetched bank_id "a" f' = Some (Some [1; 2]) /\
    (forall e, HandlingCompleted bank_id e None ∉ mid) /\ length mid = 4.
Proof.
  pose proof (ops_history (bank true) [] (opens [1; 2; 10; 13; 5]) (bank_ok true) (opens_ok _ _)) as H.
  replace (run_ops (bank true) (opens [1; 2; 10; 13; 5]) (e_init (bank true) [])).2 with true in H
    by (symmetry; vm_compute; reflexivity).
  assert (Hc : pair_at (ops_evs (bank true) [] (opens [1; 2; 10; 13; 5])) 24 29 (fun f mid f' =>
     bool_decide (fetched bank_id "a" f = Some (Some [1; 2])) && forallb not_completed mid &&
     bool_decide (fetched bank_id "a" f' = Some (Some [1; 2])) && (length mid =? 4)) = true)
    by (vm_compute; reflexivity).
  revert H Hc. generalize (ops_evs (bank true) [] (opens [1; 2; 10; 13; 5])) as evs.
  intros evs H Hc. apply pair_at_occurs in Hc as (pre & f & mid & f' & H1 & H2 & Hc).
  apply andb_true_iff in Hc as [Hc H3]. apply andb_true_iff in Hc as [Hc H4]. apply andb_true_iff in Hc as [H5 H6].
  apply bool_decide_eq_true in H4, H5. apply Nat.eqb_eq in H3.
  eexists evs, _, pre, f, mid, f'. split; [exact H|]. do 4 (split; [assumption|]). split; [|assumption].
  intros e. eapply forallb_notin; [exact H6|reflexivity].
Qed.

(** The fourth changes the root directly; the fifth is the next one. *)
Example C07_example :
  exists evs st pre f mid f',
    history (bank true) [] (opens [1; 2; 10; 13; 5]) st evs true /\
    occurs evs pre f /\ fetched bank_id "a" f = Some (Some [1; 2]) /\
    occurs evs (pre ++ f :: mid) f' /\ fetched bank_id "a" f' = Some (Some [1; 2]) /\
    (forall r e ev, EventRecordedByAggregate bank_id "a" r e ev ∉ mid) /\
    (forall r e, AggregateInstanceDestroyed bank_id "a" r e ∉ mid).
Proof.
  pose proof (ops_history (bank true) [] (opens [1; 2; 10; 13; 5]) (bank_ok true) (opens_ok _ _)) as H.
  replace (run_ops (bank true) (opens [1; 2; 10; 13; 5]) (e_init (bank true) [])).2 with true in H
    by (symmetry; vm_compute; reflexivity).
  assert (Hc : pair_at (ops_evs (bank true) [] (opens [1; 2; 10; 13; 5])) 29 36 (fun f mid f' =>
     bool_decide (fetched bank_id "a" f = Some (Some [1; 2])) && forallb no_change mid &&
     bool_decide (fetched bank_id "a" f' = Some (Some [1; 2]))) = true)
    by (vm_compute; reflexivity).
  revert H Hc. generalize (ops_evs (bank true) [] (opens [1; 2; 10; 13; 5])) as evs.
  intros evs H Hc. apply pair_at_occurs in Hc as (pre & f & mid & f' & H1 & H2 & Hc).
  apply andb_true_iff in Hc as [Hc H4]. apply andb_true_iff in Hc as [H5 H6].
  apply bool_decide_eq_true in H4, H5.
  eexists evs, _, pre, f, mid, f'. split; [exact H|]. do 4 (split; [assumption|]).
  split; intros; (eapply forallb_notin; [exact H6|reflexivity]).
Qed.

(** Commands that end by destroying and by recording. *)
Example C08_example :
  ends_destroying (ag_handle (bank_agg false) "a" (command "Open" 15)) /\
  ends_recording (ag_handle (bank_agg false) "a" (command "Open" 12)) /\
  (let hist := {["a" := [new_root "1" (event "Opened" 1) 0]]} in
   exists g' hist' fs envs,
     a_handle quietly (hBank false) (bank_agg false) 5 (new_root "7" (command "Open" 12) 5) (mkG 7 [] 0) hist =
       (g', hist', fs, HRet envs None) /\ length envs = 1 /\ length (default [] (hist' !! "a")) = 2) /\
  (let hist := {["a" := [new_root "1" (event "Opened" 1) 0]]} in
   exists g' hist' fs envs,
     a_handle quietly (hBank false) (bank_agg false) 5 (new_root "7" (command "Open" 15) 5) (mkG 7 [] 0) hist =
       (g', hist', fs, HRet envs None) /\ length envs = 1 /\ hist' !! "a" = None).
Proof.
  split; [constructor; intros [v|]; [apply ed_panic|apply ed_last; constructor]|].
  split; [apply er_destroy, er_last; [constructor|done]|].
  split; eexists _, _, _, _; (split; [vm_compute; reflexivity|]); split; reflexivity.
Qed.

Definition one_handlingb (f : Fact) : bool :=
  match f with
  | HandlingBegun _ _ | HandlingCompleted _ _ _ | DispatchCycleBegun _ _ _ _ | TickCycleBegun _ _ _
  | AggregateInstanceLoaded _ _ _ _ | AggregateInstanceNotFound _ _ _ => false
  | _ => true
  end.
Lemma one_handlingb_ok seg : forallb one_handlingb seg = true -> one_handling seg.
Proof.
  intros H f Hin. rewrite forallb_forall in H. apply elem_of_list_In in Hin. specialize (H f Hin).
  destruct f; done.
Qed.

(** A command that destroys the instance and then records an event, and the next
    command. *)
Example C08_history_example :
  exists evs st pre f seg e rest f',
    history (bank false) [] (opens [1; 12; 2]) st evs true /\
    occurs evs pre f /\ fetched bank_id "a" f = Some (Some [1]) /\
    one_handling seg /\ exists_after bank_id "a" true seg = true /\
    length (recorded_by bank_id "a" seg) = 1 /\
    occurs evs (pre ++ f :: seg ++ HandlingCompleted bank_id e None :: rest) f' /\
    fetched bank_id "a" f' = Some (Some [1; 12]) /\
    (forall e, HandlingCompleted bank_id e None ∉ rest).
Proof.
  pose proof (ops_history (bank false) [] (opens [1; 12; 2]) (bank_ok false) (opens_ok _ _)) as H.
  replace (run_ops (bank false) (opens [1; 12; 2]) (e_init (bank false) [])).2 with true in H
    by (symmetry; vm_compute; reflexivity).
  assert (Hc : pair_at (ops_evs (bank false) [] (opens [1; 12; 2])) 14 26 (fun f mid f' =>
     bool_decide (fetched bank_id "a" f = Some (Some [1])) &&
     bool_decide (fetched bank_id "a" f' = Some (Some [1; 12])) &&
     forallb one_handlingb (take 3 mid) && exists_after bank_id "a" true (take 3 mid) &&
     (length (recorded_by bank_id "a" (take 3 mid)) =? 1) &&
     match mid !! 3 with Some (HandlingCompleted h _ None) => bool_decide (h = bank_id) | _ => false end &&
     forallb not_completed (drop 4 mid)) = true)
    by (vm_compute; reflexivity).
  revert H Hc. generalize (ops_evs (bank false) [] (opens [1; 12; 2])) as evs.
  intros evs H Hc. apply pair_at_occurs in Hc as (pre & f & mid & f' & H1 & H2 & Hc).
  repeat match type of Hc with (_ && _) = true => let H := fresh in apply andb_true_iff in Hc as [Hc H] end.
  destruct (mid !! 3) as [g|] eqn:E; [|discriminate].
  destruct g; try discriminate. destruct err; [discriminate|].
  repeat match goal with H : bool_decide _ = true |- _ => apply bool_decide_eq_true in H end. subst h.
  rewrite <- (take_drop_middle mid 3 _ E) in H2.
  eexists evs, _, pre, f, (take 3 mid), e, (drop 4 mid), f'. split; [exact H|].
  split; [assumption|]. split; [assumption|]. split; [apply one_handlingb_ok; assumption|].
  split; [assumption|]. split; [apply Nat.eqb_eq; assumption|]. split; [exact H2|]. split; [assumption|].
  intros e'. eapply forallb_notin; [eassumption|reflexivity].
Qed.

(** ** C11 does not hold when Destroy is followed by RecordEvent *)

(** A well-behaved handler whose last fact reports a root different from the one
    given to the next command, although nothing happened in between. *)
Theorem C11_refuted :
  exists (c : Config) u ops st evs pre f mid f' h i r r',
    history c u ops st evs true /\
    (forall a, aggregate_of c h a -> forall i m, no_recover (ag_handle a i m) /\ no_mutation (ag_handle a i m)) /\
    occurs evs pre f /\ reported_root f = Some (h, r) /\ scope_instance f = Some (h, i) /\
    occurs evs (pre ++ f :: mid) f' /\ fetched h i f' = Some (Some r') /\
    (forall r e ev, EventRecordedByAggregate h i r e ev ∉ mid) /\
    (forall r e, AggregateInstanceDestroyed h i r e ∉ mid) /\ r <> r'.
Proof.
  pose proof (ops_history (bank false) [] (opens [1; 12; 2]) (bank_ok false) (opens_ok _ _)) as H.
  replace (run_ops (bank false) (opens [1; 12; 2]) (e_init (bank false) [])).2 with true in H
    by (symmetry; vm_compute; reflexivity).
  assert (Hc : pair_at (ops_evs (bank false) [] (opens [1; 12; 2])) 17 26 (fun f mid f' =>
     bool_decide (reported_root f = Some (bank_id, [12])) &&
     bool_decide (scope_instance f = Some (bank_id, "a")) && forallb no_change mid &&
     bool_decide (fetched bank_id "a" f' = Some (Some [1; 12]))) = true)
    by (vm_compute; reflexivity).
  revert H Hc. generalize (ops_evs (bank false) [] (opens [1; 12; 2])) as evs.
  intros evs H Hc. apply pair_at_occurs in Hc as (pre & f & mid & f' & H1 & H2 & Hc).
  repeat match type of Hc with (_ && _) = true => let H := fresh in apply andb_true_iff in Hc as [Hc H] end.
  repeat match goal with H : bool_decide _ = true |- _ => apply bool_decide_eq_true in H end.
  eexists (bank false), _, _, _, evs, pre, f, mid, f', bank_id, "a", [12], [1; 12]. split; [exact H|].
  split.
  { intros a (hd & Hin & _ & Hi) i m. cbn in Hin. apply elem_of_list_singleton in Hin. subst hd.
    cbn in Hi. injection Hi as <-. apply bank_no_recover. }
  do 5 (split; [assumption|]).
  split; [intros; (eapply forallb_notin; [eassumption|reflexivity])|].
  split; [intros; (eapply forallb_notin; [eassumption|reflexivity])|]. done.
Qed.

(** The hypotheses of C11: a fact reports the root of a command in
    which the instance was not destroyed. *)
Example C11_example :
  exists evs st pre f,
    history (bank false) [] (opens [1; 2; 3]) st evs true /\ occurs evs pre f /\
    reported_root f = Some (bank_id, [1; 2; 3]) /\
    (forall a, aggregate_of (bank false) bank_id a -> forall i m, no_recover (ag_handle a i m) /\ no_mutation (ag_handle a i m)) /\
    ap_since <$> pending_cmd (pre ++ [f]) = Some None.
Proof.
  pose proof (ops_history (bank false) [] (opens [1; 2; 3]) (bank_ok false) (opens_ok _ _)) as H.
  replace (run_ops (bank false) (opens [1; 2; 3]) (e_init (bank false) [])).2 with true in H
    by (symmetry; vm_compute; reflexivity).
  assert (Hc : exists n f, ops_evs (bank false) [] (opens [1; 2; 3]) !! n = Some (EvFact f) /\
    reported_root f = Some (bank_id, [1; 2; 3]) /\
    ap_since <$> pending_cmd (since_reset (take n (ops_evs (bank false) [] (opens [1; 2; 3]))) ++ [f]) = Some None).
  { exists 25. eexists. split; [vm_compute; reflexivity|]. split; vm_compute; reflexivity. }
  revert H Hc. generalize (ops_evs (bank false) [] (opens [1; 2; 3])) as evs.
  intros evs H (n & f & Hn & Hr & Hp). apply occurs_nth in Hn.
  eexists evs, _, _, f. split; [exact H|]. split; [exact Hn|]. split; [exact Hr|]. split; [|exact Hp].
  intros a (hd & Hin & _ & Hi) i m. cbn in Hin. apply elem_of_list_singleton in Hin. subst hd.
  cbn in Hi. injection Hi as <-. apply bank_no_recover.
Qed.

(** ** C12 needs handlers that do not recover *)
Theorem C12_recovering_refuted :
  exists (c : Config) u ops st evs h i,
    history c u ops st evs true /\ stored (since_reset evs) h i = Some [].
Proof.
  pose proof (ops_history (bank true) [] (opens [14]) (bank_ok true) (opens_ok _ _)) as H.
  replace (run_ops (bank true) (opens [14]) (e_init (bank true) [])).2 with true in H
    by (symmetry; vm_compute; reflexivity).
  eexists (bank true), [], _, _, _, bank_id, "a". split; [exact H|]. vm_compute. reflexivity.
Qed.

Example C12_example :
  exists evs st, history (bank false) [] (opens [1; 12; 2; 14]) st evs true /\
    aggregate_of (bank false) bank_id (bank_agg false) /\
    (forall i m, no_recover (ag_handle (bank_agg false) i m)) /\
    length <$> stored (since_reset evs) bank_id "a" = Some 3.
Proof.
  pose proof (ops_history (bank false) [] (opens [1; 12; 2; 14]) (bank_ok false) (opens_ok _ _)) as H.
  replace (run_ops (bank false) (opens [1; 12; 2; 14]) (e_init (bank false) [])).2 with true in H
    by (symmetry; vm_compute; reflexivity).
  eexists _, _. split; [exact H|]. split; [exists (hBank false); split; [left|done]|].
  split; [apply bank_no_recover|]. vm_compute. reflexivity.
Qed.

Print Assumptions C11_refuted.
Print Assumptions C12_recovering_refuted.
