(** * Consequences for the statements of PropsObs.v *)
From Verif Require Export ObsAgg ObsProc ObsIds ObsPanics ObsClock.
From Verif Require Import ProcProof.

Section ObsLemmas.
Context {P : Params}.

Lemma obs_agg_lemma x u ops s evs rs hd hist i :
  xhistory x u ops s evs rs -> hd ∈ c_app (x_cfg x) -> es_cs s.1 !! h_name hd = Some (CSAgg hist) ->
  hist !! i = stored (effective (seen_since evs)) (h_id hd) i.
Proof.
  intros H Hin Hl. pose proof H as (Hok & _). destruct (agg_xhistory x Hok _ _ _ _ _ H) as [H1 _]. eapply H1; eassumption.
Qed.

Lemma obs_loaded_lemma x u ops s evs rs pre sn :
  xhistory x u ops s evs rs -> happens evs pre sn ->
  (forall h i r e, sn_fact sn = AggregateInstanceLoaded h i r e ->
     exists a r0 es, aggregate_of (x_cfg x) h a /\ ag_new a = Some r0 /\ ag_route a (e_msg e) = inl i /\
       stored (effective pre) h i = Some es /\ Replay a r0 es r) /\
  (forall h i e, sn_fact sn = AggregateInstanceNotFound h i e -> stored (effective pre) h i = None).
Proof.
  intros H Hh. pose proof H as (Hok & _). destruct (agg_xhistory x Hok _ _ _ _ _ H) as [_ H1].
  destruct (H1 _ _ Hh) as [H2 H3]. split; [exact H2|]. intros h i e E. destruct (H3 h i e E) as (a & _ & _ & H4). exact H4.
Qed.

Lemma obs_proc_lemma x u ops s evs rs hd ps :
  xhistory x u ops s evs rs -> hd ∈ c_app (x_cfg x) -> es_cs s.1 !! h_name hd = Some (CSProc ps) ->
  pc_timeouts ps ≡ₚ pending_timeouts (effective (seen_since evs)) (h_id hd) /\
  (forall i, is_Some (pc_instances ps !! i) <-> live (effective (seen_since evs)) (h_id hd) i = true) /\
  chronological (pc_timeouts ps) /\
  (forall t, t ∈ pc_timeouts ps -> exists i, e_origin t = Some (mkOrigin (h_id hd) HTProcess i) /\ is_Some (pc_instances ps !! i)).
Proof.
  intros H Hin Hl. pose proof H as (Hok & _). destruct (proc_xhistory x Hok _ _ _ _ _ H) as [H1 _].
  destruct (H1 hd ps Hin Hl) as (H2 & H3 & H4 & H5). split; [exact H3|]. split; [|split; [exact H4|]].
  - intros i. unfold live. rewrite H2. symmetry. apply bool_decide_eq_true.
  - intros t Ht. rewrite Forall_forall in H5. destruct (H5 t Ht) as (i & [_ H6] & _ & H7). eauto.
Qed.

Lemma obs_begun_lemma x u ops s evs rs pre sn :
  xhistory x u ops s evs rs -> happens evs pre sn ->
  (forall h i r e, sn_fact sn = ProcessInstanceLoaded h i r e -> live (effective pre) h i = true) /\
  (forall h i r e, sn_fact sn = ProcessInstanceBegun h i r e ->
     live (effective pre) h i = false /\ exists pi, process_of (x_cfg x) h pi /\ r = pr_new pi) /\
  (forall h i e, sn_fact sn = ProcessTimeoutIgnored h i e -> live (effective pre) h i = false).
Proof.
  intros H Hh. pose proof H as (Hok & _). destruct (proc_xhistory x Hok _ _ _ _ _ H) as [_ H1].
  destruct (H1 _ _ Hh) as (H2 & H3 & H4 & H5). done.
Qed.

(** Without panics everything that is said counts. *)
Lemma effective_calm l : Forall smooth l -> effective l = sn_fact <$> l.
Proof.
  induction 1 as [|sn l H _ IH]; [done|]. unfold smooth in H. unfold effective in *. cbn. rewrite H. cbn. f_equal. exact IH.
Qed.

(** A handling that panics. *)
Lemma obs_failed_agg_lemma x obs o h a now env g hist g' hist' t w :
  xa_handle x obs o h a now env (g, hist) = (g', hist', t, inr w) -> hist' = hist.
Proof.
  unfold xa_handle. destruct (negb _); [intros [= <- <- <- <-]; done|].
  unfold bnd at 1. unfold enriching at 1, result. destruct (ag_route _ _) as [id|v]; [|intros [= <- <- <- <-]; done].
  destruct (decide (id = "")); [intros [= <- <- <- <-]; done|].
  destruct (ag_new a) as [r0|]; [|intros [= <- <- <- <-]; done].
  destruct (a_replay _ _ _ _) as [r [v|]]; [intros [= <- <- <- <-]; done|].
  unfold bnd at 1. unfold fst_do. destruct (note _ _ g) as [[g1 t1] [[]|v]]; [|intros [= <- <- <- <-]; done].
  destruct (enriching _ _ _ _ _ _) as [[[g2 s2] t2] [[]|v]]; [intros [=]|]. intros [= <- <- <- <-]. done.
Qed.

Lemma obs_failed_proc_lemma x obs o h pi now env g ps g' ps' t w :
  xp_handle x obs o h pi now env (g, ps) = (g', ps', t, inr w) ->
  pc_timeouts ps' = pc_timeouts ps /\ (forall i, is_Some (pc_instances ps' !! i) <-> is_Some (pc_instances ps !! i)).
Proof.
  assert (Hst : forall i s, pc_timeouts (p_store_mutation i s ps) = pc_timeouts ps /\
    (forall j, is_Some (pc_instances (p_store_mutation i s ps) !! j) <-> is_Some (pc_instances ps !! j))).
  { intros i s. unfold p_store_mutation. destruct (pc_instances ps !! i) as [r|] eqn:E; [|done]. split; [done|].
    intros j. cbn. destruct (decide (j = i)) as [->|Ej]; [rewrite lookup_insert, E; split; eauto|rewrite lookup_insert_ne by done; done]. }
  assert (Hi : forall id r g g' ps' t w, xp_handle_instance x obs o h now env id r (g, ps) = (g', ps', t, inr w) ->
    pc_timeouts ps' = pc_timeouts ps /\ (forall i, is_Some (pc_instances ps' !! i) <-> is_Some (pc_instances ps !! i))).
  { clear -Hst. intros id r g g' ps' t w. unfold xp_handle_instance.
    destruct (match m_kind (e_msg env) with KTimeout => _ | _ => _ end) as [meth prog].
    destruct (enriching _ _ _ _ _ _) as [[[g2 s2] t2] [[e|]|v]]; [intros [=]| |intros [= <- <- <- <-]; apply Hst].
    destruct (ps_ended s2); intros [=]. }
  assert (Hk : forall rt g g' ps' t w,
    match rt with
    | XErr e => ret ([], Some e)
    | XNone => ret ([], None)
    | XTo id => bnd get_st (fun '(_, ps) =>
      match pc_instances ps !! id with
      | Some r => bnd (fst_do (note obs (ProcessInstanceLoaded (h_id h) id r env))) (fun _ => xp_handle_instance x obs o h now env id r)
      | None =>
        bnd (fst_do (note obs (ProcessInstanceNotFound (h_id h) id env))) (fun _ =>
        bnd (fst_do (note obs (ProcessInstanceBegun (h_id h) id (pr_new pi) env))) (fun _ =>
        match pr_new pi with
        | None => raise (PUnexpBeh (h_id h) "ProcessMessageHandler" "New" (e_msg env) BNilRoot)
        | Some r => xp_handle_instance x obs o h now env id r
        end))
      end)
    end (g, ps) = (g', ps', t, inr w) ->
    pc_timeouts ps' = pc_timeouts ps /\ (forall i, is_Some (pc_instances ps' !! i) <-> is_Some (pc_instances ps !! i))).
  { clear -Hi. intros [id| |e] g g' ps' t w; [|intros [=]|intros [=]].
    unfold bnd at 1, get_st. destruct (pc_instances ps !! id) as [r|].
    - unfold bnd, fst_do. destruct (note _ _ g) as [[g1 t1] [[]|v]]; [|intros [= <- <- <- <-]; done].
      destruct (xp_handle_instance _ _ _ _ _ _ _ _ _) as [[[g2 ps2] t2] r2] eqn:E. intros [= <- <- <- ->]. eapply Hi. exact E.
    - unfold bnd, fst_do. destruct (note _ _ g) as [[g1 t1] [[]|v]]; [|intros [= <- <- <- <-]; done].
      destruct (note _ _ g1) as [[g2 t2] [[]|v]]; [|intros [= <- <- <- <-]; done].
      destruct (pr_new pi) as [r|]; [|intros [= <- <- <- <-]; done].
      destruct (xp_handle_instance _ _ _ _ _ _ _ _ _) as [[[g3 ps3] t3] r3] eqn:E. intros [= <- <- <- ->]. eapply Hi. exact E. }
  unfold xp_handle. destruct (negb _); [intros [= <- <- <- <-]; done|].
  intros H. unfold bnd at 1 in H.
  assert (Hr : forall g', exists g2 t2 r2, xp_route obs h pi env (g', ps) = (g2, ps, t2, r2)).
  { clear. intros g. unfold xp_route. destruct (m_kind _).
    - eauto.
    - unfold bnd at 1. unfold fst_do at 1, user. destruct (pr_route _ _ _) as [u r]. unfold bnd, enriching, result.
      destruct r as [[[id ok] [e|]]|v]; [eauto| |eauto]. destruct ok; [destruct (decide _); eauto|].
      unfold fst_do. destruct (note _ _ _) as [[g1 t1] [[]|v]]; cbn; eauto.
    - destruct (e_origin env) as [og|]; [|eauto]. unfold bnd, get_st. destruct (pc_instances ps !! _); [eauto|].
      unfold fst_do. destruct (note _ _ _) as [[g1 t1] [[]|v]]; cbn; eauto. }
  destruct (Hr g) as (g2 & t2 & r2 & Er). rewrite Er in H. destruct r2 as [rt|v]; [|injection H as <- <- <- <-; done].
  specialize (Hk rt g2).
  match type of Hk with forall g' ps' t w, ?m = _ -> _ => destruct m as [[[g3 ps3] t3] r3] eqn:E end.
  injection H as <- <- <- ->. eapply Hk. reflexivity.
Qed.

(** Compaction. *)
Lemma obs_compaction_lemma x u ops s evs rs :
  xhistory x u ops s evs rs ->
  (forall pre h, tick_compacts (xfact <$> evs) pre h -> (hour <= ck_now (clock pre) - ck_last (clock pre) h)%Z) /\
  (forall pre h e, occurs_after (xfact <$> evs) pre (TickCompleted h e) -> hid_type h = HTProjection ->
     ck_tick (clock pre) = Some h /\
     (ck_did (clock pre) = false -> (ck_now (clock pre) - ck_last (clock pre) h < hour)%Z /\ e = None)).
Proof.
  intros H. pose proof H as (Hok & _). split.
  - intros pre h [Ho Ht]. exact (clock_xhistory x Hok _ _ _ _ _ _ _ H Ho Ht).
  - intros pre h e Ho Hp. exact (clock_xhistory x Hok _ _ _ _ _ _ _ H Ho Hp).
Qed.

(** ** Observers *)
Lemma heard_count obs sn : heard obs sn -> match sn_panic sn with None => sn_to sn = length obs | Some _ => 1 <= sn_to sn <= length obs end.
Proof. intros (u & u' & H). eapply group_notify_count. exact H. Qed.

Lemma view_all obs i l : Forall (heard obs) l -> Forall smooth l -> i < length obs -> view_of i l = sn_fact <$> l.
Proof.
  intros H1 H2 Hi. induction l as [|sn l IH]; [done|]. apply Forall_cons in H1 as [H1 H1']. apply Forall_cons in H2 as [H2 H2'].
  apply heard_count in H1. unfold smooth in H2. rewrite H2 in H1. unfold view_of in *. cbn. rewrite H1, decide_True by done.
  f_equal. apply IH; done.
Qed.

Lemma obs_first_lemma x op s s' evs r :
  xrun_op x op s = (s', evs, r) -> 0 < op_observers op ->
  view_of 0 (notes evs) = sn_fact <$> notes evs.
Proof.
  intros E Hn. pose proof (xrun_op_hears x op s) as H. rewrite E in H. unfold op_observers in Hn.
  induction H as [|sn l H _ IH]; [done|]. unfold view_of in *. cbn. rewrite decide_True; [f_equal; exact IH|].
  apply heard_count in H. rewrite fmap_length in H. destruct (sn_panic sn); lia.
Qed.

Lemma obs_order_lemma x op s s' evs r sn :
  xrun_op x op s = (s', evs, r) -> sn ∈ notes evs ->
  match sn_panic sn with None => sn_to sn = op_observers op | Some _ => 1 <= sn_to sn <= op_observers op end.
Proof.
  intros E Hs. pose proof (xrun_op_hears x op s) as H. rewrite E in H. rewrite Forall_forall in H.
  specialize (H sn Hs). apply heard_count in H. rewrite fmap_length in H. exact H.
Qed.

Lemma obs_each_lemma x op s s' evs r sn i :
  xrun_op x op s = (s', evs, r) -> sn ∈ notes evs -> i < sn_to sn ->
  exists n u u' v, op_given op !! i = Some n /\ x_obs x n (sn_fact sn) u = (u', v) /\
    v = (if decide (S i = sn_to sn) then sn_panic sn else None).
Proof.
  intros E Hs Hi. pose proof (xrun_op_hears x op s) as H. rewrite E in H. rewrite Forall_forall in H.
  destruct (H sn Hs) as (u & u' & Hg). destruct (group_notify_each _ _ _ _ _ _ Hg i Hi) as (ob & w & w' & v & H1 & H2 & H3).
  rewrite list_lookup_fmap in H1. destruct (op_given op !! i) as [n|]; [|discriminate H1]. injection H1 as <-. eauto 10.
Qed.

Lemma obs_returns_lemma x op s s' evs a i :
  lets_through x -> xrun_op x op s = (s', evs, inl a) -> i < op_observers op ->
  view_of i (notes evs) = sn_fact <$> notes evs.
Proof.
  intros Hl E Hi. pose proof (xrun_op_sp x false Hl ltac:(done) op s) as H. rewrite E in H.
  apply spoken_calm' in H as [H1 H2]. eapply view_all; [exact H1|exact H2|]. rewrite fmap_length. exact Hi.
Qed.

Lemma obs_panics_lemma x op s s' evs r :
  lets_through x -> xrun_op x op s = (s', evs, r) ->
  (exists sn v, sn ∈ notes evs /\ sn_panic sn = Some v) -> exists w, r = inr w.
Proof.
  intros Hl E (sn & v & Hs & Hp). pose proof (xrun_op_sp x false Hl ltac:(done) op s) as H. rewrite E in H.
  destruct H as [_ [H|H]]; [|exact H]. rewrite Forall_forall in H. specialize (H sn Hs). unfold smooth in H. congruence.
Qed.

Lemma obs_panic_value_lemma x op s s' evs r sn v :
  lets_through x -> c_compact (x_cfg x) = false -> xrun_op x op s = (s', evs, r) ->
  sn ∈ notes evs -> sn_panic sn = Some v ->
  (exists w, r = inr w /\ same_panic v w) /\
  exists l, notes evs = l ++ [sn] /\ Forall (fun sn => sn_panic sn = None) l /\
  forall i, i < op_observers op ->
    view_of i (notes evs) = (sn_fact <$> l) ++ (if decide (i < sn_to sn) then [sn_fact sn] else []).
Proof.
  intros Hl Hc E Hs Hp. pose proof (xrun_op_sp x true Hl ltac:(done) op s) as H. rewrite E in H.
  destruct H as [Hh [H|H]]; [rewrite Forall_forall in H; specialize (H sn Hs); unfold smooth in H; congruence|].
  destruct H as (l & sn' & v' & w & El & H1 & H2 & H3 & H4).
  assert (sn' = sn) as ->.
  { rewrite El in Hs. apply elem_of_app in Hs as [Hs|Hs]; [|apply elem_of_list_singleton in Hs; done].
    rewrite Forall_forall in H1. specialize (H1 sn Hs). unfold smooth in H1. congruence. }
  rewrite Hp in H2. injection H2 as <-. split; [eauto|]. exists l. split; [done|]. split; [exact H1|].
  intros i Hi. rewrite El in *. apply Forall_app in Hh as [Hh _]. unfold view_of. rewrite omap_app.
  pose proof (view_all _ i _ Hh H1 ltac:(rewrite fmap_length; exact Hi)) as Hv. unfold view_of in Hv. rewrite Hv. f_equal.
  cbn. destruct (decide (i < sn_to sn)); done.
Qed.

(** ** Applications that need no more than the other files' handlers *)
Lemma obs_plain_lemma c xo u ops st evs fin :
  app_ok c -> (forall n, quiet (xo n)) -> Forall (op_ok c) ops -> run_ops c ops (e_init c u) = (st, evs, fin) ->
  exists evs' rs, xhistory (plain c xo) u ops (st, negb fin) evs' rs /\ xfact <$> evs' = evs /\
    (forall sn, XSeen sn ∈ evs' -> sn_panic sn = None).
Proof.
  intros Hok Hq Hops E. pose proof (xrun_ops_plain c xo Hok Hq ops (e_init c u) Hops) as H. rewrite E in H.
  destruct (xrun_ops _ _ _) as [[s evs'] rs] eqn:Ex. destruct H as (-> & H1 & H2). exists evs', rs.
  split; [|done]. split; [exact Hok|]. split; [exact Hops|exact Ex].
Qed.

Lemma obs_mutex_lemma x u ops s evs rs :
  xhistory x u ops s evs rs -> inl RBlocked ∉ rs /\ (inl RRunning ∉ rs -> s.2 = false /\ length rs = length ops).
Proof.
  intros (_ & _ & E). destruct (xrun_ops_mutex _ _ _ _ _ _ E) as [H1 H2]. split; [exact H1|]. intros Hr. split.
  - destruct s.2 eqn:Eb; [|done]. destruct Hr. apply H2. done.
  - clear H2. revert E H1 Hr. generalize (e_init (x_cfg x) u, false) as s0. revert s evs rs.
    induction ops as [|op ops IH]; intros s evs rs s0; cbn; [intros [= <- <- <-]; done|].
    destruct (xrun_op x op s0) as [[s1 evs1] r]. destruct r as [[err| |]|w].
    + destruct (xrun_ops x ops s1) as [[s2 evs2] rs2] eqn:E2. intros [= <- <- <-] H1 Hr. cbn. f_equal.
      eapply IH; [exact E2|set_solver|set_solver].
    + intros [= <- <- <-] H1 Hr. set_solver.
    + intros [= <- <- <-] H1 Hr. set_solver.
    + destruct (xrun_ops x ops s1) as [[s2 evs2] rs2] eqn:E2. intros [= <- <- <-] H1 Hr. cbn. f_equal.
      eapply IH; [exact E2|set_solver|set_solver].
Qed.
End ObsLemmas.
