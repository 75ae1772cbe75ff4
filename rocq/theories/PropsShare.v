(** * C101: Run() while other goroutines use the engine *)
From Verif Require Import ShareSpec ShareProof ProcDemo RunSpec.
From Coq Require Import Lia.

(** C101.  Without others this is the run of C70. *)
Theorem C101_alone `{Params} c start scale epoch opts steps st :
  shared_run c start scale epoch opts ((fun r => mkShStep [] r) <$> steps) st =
  let '(st', evs, res) := run_time_scaled c start scale epoch opts steps st in
  (st', evs ≫= (fun e => match e with RvTick _ _ => [SvOthers []; SvRun e] | _ => [SvRun e] end), res).
Proof. exact (shared_alone c start (default start epoch) scale opts steps st). Qed.
Print Assumptions C101_alone.

(** C101.  What a run and other goroutines do together is a history of the engine, so that
    everything that is true of all histories is true of it. *)
Theorem C101_is_a_history `{Params} c u ops st evs0 start scale epoch opts steps st' l res :
  history c u ops st evs0 true -> Forall (share_ok c) steps ->
  shared_run c start scale epoch opts steps st = (st', l, res) ->
  exists ops' fin, history c u (ops ++ ops') st' (evs0 ++ share_events l) fin.
Proof.
  intros Hh Hok Hr. destruct (shared_history _ _ _ _ _ _ _ _ _ _ _ _ _ Hh Hok Hr) as (ops' & fin & ? & _). by exists ops', fin.
Qed.
Print Assumptions C101_is_a_history.

(** C101.  A tick of the run that is not cut short dispatches every timeout that is pending
    by then and due, whoever caused it to be scheduled, for each process that is enabled... *)
Theorem C101_due_timeouts_are_dispatched `{Params} c u ops st evs0 start scale epoch opts steps st' l res l1 fs err l2 s hd pi t :
  history c u ops st evs0 true -> Forall (share_ok c) steps ->
  shared_run c start scale epoch opts steps st = (st', l, res) ->
  l = l1 ++ SvRun (RvTick fs (Ok err)) :: l2 -> (forall x, ECtx x ∉ err) ->
  steps !! sleeps l1 = Some s -> hd ∈ c_app c -> h_impl hd = ImplProc pi -> skipped opts hd = None ->
  t ∈ pending_timeouts (since_reset (evs0 ++ share_events l1)) (h_id hd) ->
  (e_sched t <= time_of start scale epoch opts s)%Z ->
  DispatchBegun t ∈ fs.
Proof. intros Hh Hok Hr Hl He. exact (run_dispatches c u ops st evs0 start scale epoch opts steps st' l res l1 fs err l2 Hh Hok Hr Hl He s hd pi t). Qed.
Print Assumptions C101_due_timeouts_are_dispatched.

(** ... and afterwards all that are pending are for later. *)
Theorem C101_none_overdue `{Params} c u ops st evs0 start scale epoch opts steps st' l res l1 fs err l2 s hd pi t :
  history c u ops st evs0 true -> Forall (share_ok c) steps ->
  shared_run c start scale epoch opts steps st = (st', l, res) ->
  l = l1 ++ SvRun (RvTick fs (Ok err)) :: l2 -> (forall x, ECtx x ∉ err) ->
  steps !! sleeps l1 = Some s -> hd ∈ c_app c -> h_impl hd = ImplProc pi -> skipped opts hd = None ->
  t ∈ pending_timeouts (since_reset (evs0 ++ share_events (l1 ++ [SvRun (RvTick fs (Ok err))]))) (h_id hd) ->
  (time_of start scale epoch opts s < e_sched t)%Z.
Proof. intros Hh Hok Hr Hl He. exact (run_leaves c u ops st evs0 start scale epoch opts steps st' l res l1 fs err l2 Hh Hok Hr Hl He s hd pi t). Qed.
Print Assumptions C101_none_overdue.

(** C101.  No timeout waits for ever: if a run goes on without failing and its time grows
    without bound, then every timeout that is pending after some iteration is later taken
    for delivery, or discarded because its instance ended, or forgotten by a Reset. *)
Theorem C101_no_timeout_waits_forever `{Params} c u ops st evs0 start scale epoch opts (steps : nat -> ShStep) hd pi t n :
  history c u ops st evs0 true -> (forall i, share_ok c (steps i)) ->
  (forall k, still_running k (observed_until c start scale epoch opts steps st k)) ->
  (forall T, exists i, (T <= time_of start scale epoch opts (steps i))%Z) ->
  hd ∈ c_app c -> h_impl hd = ImplProc pi -> skipped opts hd = None ->
  t ∈ pending_timeouts (since_reset (evs0 ++ share_events (observed_until c start scale epoch opts steps st n))) (h_id hd) ->
  exists m between, n < m /\
    share_events (observed_until c start scale epoch opts steps st m) =
      share_events (observed_until c start scale epoch opts steps st n) ++ between /\
    (EvReset ∈ between \/
     let v := proc_view (since_reset (evs0 ++ share_events (observed_until c start scale epoch opts steps st m))) in
     t ∈ pv_took v (h_id hd) \/ t ∈ pv_gone v (h_id hd)).
Proof. intros Hh Hok Hgo. exact (no_wait_forever c u ops st evs0 start scale epoch opts steps Hh Hok Hgo hd pi t n). Qed.
Print Assumptions C101_no_timeout_waits_forever.

(** ** Example: a run that ticks every nanosecond, for ever.  Before its first tick, another
    goroutine dispatches a command that leads to a timeout 10 ns later. *)
Definition nano (i : nat) : ShStep :=
  mkShStep (match i with 0 => [go_at 0 6] | _ => [] end) (mkRunStep (Z.of_nat i) quietly 20 [hSrc; hFlow] None).
Definition nano_until : nat -> list ShEv := observed_until flow 0 id None [] nano (e_init flow []).
Lemma nano_ok i : share_ok flow (nano i).
Proof.
  split; [destruct i; cbn|split; [exact quietly_ok|done]].
  - apply Forall_singleton. exact quietly_ok.
  - constructor.
Qed.
(** Once the timeout is handled, a tick changes nothing but the number of steps. *)
Definition settled (st : EState) : Prop :=
  es_cs st !! "src" = Some CSInt /\ exists i, es_cs st !! "flow" = Some (CSProc (mkPState i [])).
Lemma settled_one t h st : settled st -> h ∈ [hSrc; hFlow] ->
  let oo := mkOOs t [] (mkETypes true true true true) ∅ in
  exists st', e_tick_one flow quietly oo h st = (st', [TickBegun (h_id h); TickCompleted (h_id h) None], HRet [] None) /\ settled st'.
Proof.
  intros [H1 [i H2]] Hin oo. unfold e_tick_one.
  assert (skip_handler h oo = None) as ->.
  { apply elem_of_cons in Hin as [->|Hin]; [reflexivity|]. by apply elem_of_list_singleton in Hin as ->. }
  apply elem_of_cons in Hin as [->|Hin]; [|apply elem_of_list_singleton in Hin as ->].
  - change (h_name hSrc) with "src". rewrite H1. cbn. eexists. split; [reflexivity|]. split; [cbn; apply lookup_insert|].
    exists i. cbn. by rewrite lookup_insert_ne.
  - change (h_name hFlow) with "flow". rewrite H2. cbn. eexists. split; [reflexivity|]. split; [cbn; by rewrite lookup_insert_ne|].
    exists i. cbn. apply lookup_insert.
Qed.
Lemma settled_tick t st : settled st -> exists st' fs,
  e_tick flow quietly 20 [hSrc; hFlow] [OptNow t] st = (st', fs, Ok []) /\ settled st'.
Proof.
  intros Hs. unfold e_tick. change (new_opts flow (o_wall quietly) [OptNow t]) with (inl (B := PVal) (mkOOs t [] (mkETypes true true true true) ∅)).
  set (oo := mkOOs t [] (mkETypes true true true true) ∅). cbn [lock o_lock quietly fmap option_fmap option_map]. unfold e_tick_body. cbn [e_tick_handlers].
  destruct (settled_one t hSrc (es_set_g st (mkG (g_next (es_g st)) (g_user (es_g st)) (S (g_step (es_g st)))))) as (st1 & E1 & Hs1);
    [exact Hs|by left|]. fold oo in E1. rewrite E1. cbn iota beta.
  unfold poll_unless_skipped at 1. change (skip_handler hSrc oo) with (@None SkipReason). cbn [poll_ctx o_ctx quietly fmap option_fmap option_map].
  destruct (settled_one t hFlow (es_set_g st1 (mkG (g_next (es_g st1)) (g_user (es_g st1)) (S (g_step (es_g st1)))))) as (st2 & E2 & Hs2);
    [exact Hs1|right; by left|]. fold oo in E2. rewrite E2. cbn iota beta.
  unfold poll_unless_skipped at 1. change (skip_handler hFlow oo) with (@None SkipReason). cbn [poll_ctx o_ctx quietly fmap option_fmap option_map].
  do 2 eexists. split; [cbn; reflexivity|]. exact Hs2.
Qed.
(** Computing whether a run goes on, and whether its state is settled. *)
Definition runs_on (n : nat) (l : list ShEv) : bool :=
  forallb (fun e => match e with SvRun (RvTick _ (Ok [])) | SvRun (RvSleep None) | SvOthers _ => true | _ => false end) l && (sleeps l =? n).
Lemma runs_on_sound n l : runs_on n l = true -> still_running n l.
Proof.
  intros [H1 H2]%andb_prop. split; [|by apply Nat.eqb_eq]. apply Forall_forall. intros e He. rewrite forallb_forall in H1.
  apply elem_of_list_In in He. specialize (H1 e He). destruct e as [?|[? [[|]| |]|[]]]; done.
Qed.
Definition is_settled (st : EState) : bool :=
  match es_cs st !! "src", es_cs st !! "flow" with Some CSInt, Some (CSProc (mkPState _ [])) => true | _, _ => false end.
Lemma is_settled_sound st : is_settled st = true -> settled st.
Proof. unfold is_settled, settled. destruct (es_cs st !! "src") as [[]|], (es_cs st !! "flow") as [[|[i []]| |]|]; try done. eauto. Qed.

Lemma nano_goes_on n : let r := shared_run flow 0 id None [] (first_steps nano (12 + n)) (e_init flow []) in
  settled r.1.1 /\ still_running (12 + n) r.1.2.
Proof.
  induction n as [|n IH]; intros r.
  - split; [apply is_settled_sound|apply runs_on_sound]; vm_compute; reflexivity.
  - subst r. replace (12 + S n) with (S (12 + n)) by lia. rewrite first_steps_S. unfold shared_run in IH |- *.
    destruct (shared_loop flow 0 (default 0%Z None) id [] (first_steps nano (12 + n)) (e_init flow [])) as [[st l] res] eqn:E.
    destruct IH as [Hs Hr]. cbn [fst snd] in Hs, Hr.
    erewrite still_app; [|exact E|by rewrite first_steps_length].
    destruct (12 + n) as [|m] eqn:Em; [lia|]. cbn [shared_loop nano sh_others sh_run run_ops negb rs_o rs_fuel rs_order rs_sleep].
    unfold tick_options. destruct (settled_tick (default 0 None + id (rs_clock (mkRunStep (Z.of_nat (S m)) quietly 20 [hSrc; hFlow] None) - 0))%Z st Hs) as (st' & fs & E' & Hs').
    rewrite E'. cbn [fst snd]. split; [exact Hs'|]. destruct Hr as [HF Hn]. split.
    + apply Forall_app. split; [exact HF|]. by repeat constructor.
    + rewrite sleeps_app, Hn. cbn. lia.
Qed.
Lemma nano_running n : still_running n (nano_until n).
Proof.
  destruct (decide (n < 12)) as [Hlt|Hge].
  - apply runs_on_sound. assert (Hall : forallb (fun n => runs_on n (nano_until n)) (seq 0 12) = true) by (vm_compute; reflexivity).
    rewrite forallb_forall in Hall. apply Hall. apply in_seq. lia.
  - destruct (nano_goes_on (n - 12)) as [_ Hr]. replace (12 + (n - 12)) with n in Hr by lia. exact Hr.
Qed.
Lemma nano_unbounded T : exists i, (T <= time_of 0 id None [] (nano i))%Z.
Proof. exists (Z.to_nat T). cbn. unfold id. lia. Qed.
Definition alarms (n : nat) : list (nat * Z) :=
  (fun t => (b_data (m_body (e_msg t)), e_sched t)) <$> pending_timeouts (since_reset (share_events (nano_until n))) flow_id.
Example C101_example :
  history flow [] [] (e_init flow []) [] true /\ (forall i, share_ok flow (nano i)) /\
  (forall k, still_running k (nano_until k)) /\ (forall T, exists i, (T <= time_of 0 id None [] (nano i))%Z) /\
  skipped [] hFlow = None /\ alarms 1 = [(6, 10%Z)] /\ alarms 10 = [(6, 10%Z)] /\ alarms 11 = [] /\
  length (pv_took (proc_view (since_reset (share_events (nano_until 11)))) flow_id) = 1.
Proof.
  split; [split; [exact flow_ok|split; [constructor|reflexivity]]|]. split; [exact nano_ok|]. split; [exact nano_running|]. split; [exact nano_unbounded|].
  vm_compute. tauto.
Qed.
