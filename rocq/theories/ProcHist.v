(** * Consequences for histories. *)
From Verif Require Import ProcSpec HistSim AggProof ProcProof.

Section ProcHist.
Context {P : Params}.
Implicit Types (c : Config) (x y : list Fact).

Lemma proc_history c u ops st evs fin :
  history c u ops st evs fin ->
  good_evs (proc_check c) snoc clear [] evs /\ prels c (es_cs st) (proc_view (since_reset evs)).
Proof.
  intros (Hok & Hops & Hrun).
  assert (HI : PI c (e_init c u) []).
  { intros hd ps Hin Hl. pose proof (cs_init_lookup c u hd _ Hok Hin Hl) as Hc.
    unfold cs_init in Hc. destruct (h_impl hd); try discriminate Hc. injection Hc as ->.
    split; [|split; [done|split; constructor]]. intros i. cbn. rewrite lookup_empty. done. }
  destruct (sim_ops c _ snoc clear _ _ _ _ Hok (proc_sim c Hok) ops _ [] _ _ _ (e_init_ok c u Hok) HI Hops Hrun)
    as (_ & Hg & Ha).
  split; [done|]. rewrite since_reset_upd in Ha. unfold after_ops in Ha.
  destruct fin; [exact Ha|]. destruct Ha as (oo & cy & q & Ha & _). exact Ha.
Qed.

Lemma proc_checked c u ops st evs fin pre f :
  history c u ops st evs fin -> occurs evs pre f -> proc_check c pre f.
Proof. intros H Ho. apply proc_history in H as [H _]. eapply good_evs_occurs; eassumption. Qed.

(** Every prefix of the facts since the last Reset is followed by a checked fact. *)
Definition all_checked (C : list Fact -> Fact -> Prop) x : Prop :=
  forall pre f post, x = pre ++ f :: post -> C pre f.

Lemma all_checked_snoc C x f : all_checked C (x ++ [f]) -> all_checked C x /\ C x f.
Proof.
  intros H. split.
  - intros pre g post ->. eapply (H pre g (post ++ [f])). rewrite <- app_assoc. done.
  - eapply (H x f []). done.
Qed.

Lemma history_checked c u ops st evs fin pre f (C : list Fact -> Fact -> Prop) :
  (forall pre f, occurs evs pre f -> C pre f) ->
  history c u ops st evs fin -> occurs evs pre f -> all_checked C (pre ++ [f]).
Proof.
  intros HC H Ho pre1 g post Heq.
  destruct Ho as (before & after & -> & ->). apply HC.
  assert (Hs : since_reset (before ++ [EvFact f]) = pre1 ++ g :: post).
  { rewrite <- Heq. unfold since_reset. rewrite foldl_app. done. }
  apply since_reset_occurs in Hs as (b & a & E & ->).
  exists b, (a ++ after). split; [|done].
  replace (before ++ EvFact f :: after) with ((before ++ [EvFact f]) ++ after) by (rewrite <- app_assoc; done).
  rewrite E, <- app_assoc. done.
Qed.

(** Scheduled timeouts name their instance. *)
Definition sched_ok (pre : list Fact) (f : Fact) : Prop :=
  forall h i r e t, f = TimeoutScheduledByProcess h i r e t -> e_origin t = Some (mkOrigin h (hid_type h) i).

Lemma sched_checked c u ops st evs fin pre f :
  history c u ops st evs fin -> occurs evs pre f -> sched_ok pre f.
Proof. intros H Ho h i r e t ->. eapply C04_lemma; [exact H|exact Ho|done]. Qed.

Definition belongs (h : HId) (i : string) (t : Env) : Prop := e_origin t = Some (mkOrigin h (hid_type h) i).
Lemma belongs_instance h i t : belongs h i t -> instance_of t = Some i.
Proof. intros H. unfold instance_of. rewrite H. done. Qed.

(** Facts-level version of the store invariant, valid at every moment. *)
Definition tidy (v : PView) : Prop :=
  (forall h t, t ∈ pv_tms v h -> exists i, belongs h i t /\ pv_live v h i = true) /\
  (forall p t, pv_pend v = Some p -> t ∈ pp_tms p -> belongs (pp_h p) (pp_i p) t).

Lemma tidy_pend v p : (forall q t, p = Some q -> t ∈ pp_tms q -> belongs (pp_h q) (pp_i q) t) -> tidy v -> tidy (set_pend v p).
Proof. intros H [H1 H2]. split; [exact H1|]. cbn. intros q t Hq. apply H. done. Qed.

Lemma tidy_on v h i g :
  (forall p t, pv_pend v = Some p -> pp_h p = h -> pp_i p = i -> t ∈ pp_tms (g p) ->
     pp_h (g p) = h /\ pp_i (g p) = i /\ (t ∈ pp_tms p \/ belongs h i t)) ->
  tidy v -> tidy (pp_on h i g v).
Proof.
  intros H Ht. apply tidy_pend; [|exact Ht]. intros q t Hq Hin. destruct Ht as [H1 H2].
  destruct (pv_pend v) as [p|] eqn:E; [|done]. cbn in Hq. destruct (decide _) as [[Eh Ei]|]; injection Hq as <-.
  - destruct (H p t eq_refl Eh Ei Hin) as (-> & -> & [Hp|Hp]); [|done]. subst. apply H2; done.
  - apply H2; done.
Qed.

Lemma tidy_step v f x : tidy v -> sched_ok x f -> tidy (proc_step v f).
Proof.
  intros Ht Hs. pose proof Ht as [H1 H2].
  destruct f; try exact Ht; cbn [proc_step].
  - split; [exact H1|done].
  - destruct (m_kind (e_msg e)); exact Ht.
  - apply tidy_pend; done.
  - destruct err; [apply tidy_pend; done|]. destruct (pv_pend v) as [p|] eqn:Ep; [|exact Ht].
    destruct (decide (pp_h p = h)); [|apply tidy_pend; done].
    unfold proc_commit. destruct (pp_ended p); (split; [|done]); cbn; intros h' t Hin.
    + destruct (decide (h' = pp_h p)) as [->|E].
      * rewrite put_same in Hin. unfold others in Hin. apply elem_of_list_filter in Hin as [Hne Hin].
        destruct (H1 _ _ Hin) as (i & Hb & Hl). exists i. split; [done|].
        rewrite put2_other_i; [done|]. intros ->. apply belongs_instance in Hb. done.
      * rewrite put_other in Hin by done. destruct (H1 _ _ Hin) as (i & Hb & Hl). exists i. split; [done|].
        rewrite put2_other_h; done.
    + destruct (decide (h' = pp_h p)) as [->|E].
      * rewrite put_same in Hin. apply elem_of_app in Hin as [Hin|Hin].
        -- destruct (H1 _ _ Hin) as (i & Hb & Hl). exists i. split; [done|].
           unfold put2. destruct (decide _); done.
        -- apply elem_of_list_filter in Hin as [_ Hin]. exists (pp_i p). split; [apply H2; done|].
           rewrite put2_same. done.
      * rewrite put_other in Hin by done. destruct (H1 _ _ Hin) as (i & Hb & Hl). exists i. split; [done|].
        rewrite put2_other_h; done.
  - split; [exact H1|done].
  - destruct (decide _); [|exact Ht]. split; [|exact H2]. cbn. intros h' t Hin.
    destruct (decide (h' = h)) as [->|E].
    + rewrite put_same in Hin. apply elem_of_list_filter in Hin as [_ Hin]. apply H1. done.
    + rewrite put_other in Hin by done. apply H1. done.
  - apply tidy_pend; [|done]. intros q t [= <-] Hin. cbn in Hin. set_solver.
  - apply tidy_pend; [|done]. intros q t [= <-] Hin. cbn in Hin. set_solver.
  - apply tidy_on; [|done]. cbn. auto.
  - apply tidy_on; [|done]. cbn. auto.
  - apply tidy_on; [|done]. cbn. auto.
  - apply tidy_on; [|done]. cbn. intros p t0 _ _ _ Hin. split; [done|]. split; [done|].
    apply elem_of_app in Hin as [Hin|Hin]; [auto|]. right. apply elem_of_list_singleton in Hin as ->.
    eapply Hs. reflexivity.
Qed.

Lemma tidy_all x : all_checked sched_ok x -> tidy (proc_view x).
Proof.
  induction x as [|f x IH] using rev_ind; intros H.
  - split; [|done]. intros h t Hin. cbn in Hin. set_solver.
  - apply all_checked_snoc in H as [H1 H2]. rewrite proc_view_snoc. eapply tidy_step; [auto|exact H2].
Qed.

(** ** Each timeout is dispatched at most once *)
Definition from (h : HId) (l : list Env) : list Env := filter (fun e => o_handler <$> e_origin e = Some h) l.

Lemma from_belongs h l : (forall t, t ∈ l -> exists i, belongs h i t) -> from h l = l.
Proof.
  intros H. apply filter_all. apply Forall_forall. intros t Ht. destruct (H t Ht) as (i & Hb). rewrite Hb. done.
Qed.
Lemma from_other h h' l : h <> h' -> (forall t, t ∈ l -> exists i, belongs h' i t) -> from h l = [].
Proof.
  intros Hne H. apply filter_none. apply Forall_forall. intros t Ht. destruct (H t Ht) as (i & Hb). rewrite Hb. cbn. congruence.
Qed.

Lemma submseteq_filter' {A} (Q : A -> Prop) `{forall a, Decision (Q a)} (l k : list A) :
  l ⊆+ k -> filter Q l ⊆+ filter Q k.
Proof.
  intros Hs. apply submseteq_Permutation in Hs as [r ->]. rewrite filter_app. apply submseteq_inserts_r. done.
Qed.

(** What was taken and given before the current operation. *)
Definition ledger (v : PView) : Prop :=
  exists t0 g0, forall h, pv_took v h = t0 h ++ from h (pv_due v) /\
    pv_gave v h = g0 h ++ from h (pv_sent v) /\ g0 h ⊆+ t0 h.

Lemma ledger_gave v h : ledger v -> pv_sent v ⊆+ pv_due v -> pv_gave v h ⊆+ pv_took v h.
Proof.
  intros (t0 & g0 & H) Hs. destruct (H h) as (-> & -> & H3). apply submseteq_app; [done|].
  unfold from. apply submseteq_filter'. done.
Qed.

(** The check used here. *)
Definition sent_ok (pre : list Fact) (f : Fact) : Prop :=
  sched_ok pre f /\
  (forall e, f = DispatchBegun e -> is_timeout e -> pv_sent (proc_view pre) ++ [e] ⊆+ pv_due (proc_view pre)).

Lemma ledger_same v v' :
  pv_took v' = pv_took v -> pv_gave v' = pv_gave v -> pv_due v' = pv_due v -> pv_sent v' = pv_sent v ->
  ledger v /\ pv_sent v ⊆+ pv_due v -> ledger v' /\ pv_sent v' ⊆+ pv_due v'.
Proof. intros H1 H2 H3 H4. unfold ledger. rewrite H1, H2, H3, H4. done. Qed.

Lemma ledger_restart v v' :
  ledger v -> pv_sent v ⊆+ pv_due v ->
  pv_took v' = pv_took v -> pv_gave v' = pv_gave v -> pv_due v' = [] -> pv_sent v' = [] ->
  ledger v' /\ pv_sent v' ⊆+ pv_due v'.
Proof.
  intros Hl Hs H1 H2 H3 H4. unfold ledger. rewrite H3, H4. split; [|constructor].
  exists (pv_took v), (pv_gave v). intros h. rewrite H1, H2. unfold from. rewrite filter_nil, !app_nil_r.
  split; [done|]. split; [done|]. apply ledger_gave; done.
Qed.

Lemma ledger_due v v' h d :
  (forall t, t ∈ d -> exists i, belongs h i t) ->
  pv_took v' = put (pv_took v) h (pv_took v h ++ d) -> pv_gave v' = pv_gave v ->
  pv_due v' = pv_due v ++ d -> pv_sent v' = pv_sent v ->
  ledger v /\ pv_sent v ⊆+ pv_due v -> ledger v' /\ pv_sent v' ⊆+ pv_due v'.
Proof.
  intros Hd H1 H2 H3 H4 [(t0 & g0 & Hl) Hs]. unfold ledger. rewrite H1, H2, H3, H4. split.
  - exists t0, g0. intros h'. destruct (Hl h') as (E1 & E2 & E3). split; [|done].
    unfold from. rewrite filter_app. fold (from h' (pv_due v)) (from h' d).
    destruct (decide (h' = h)) as [->|E].
    + rewrite put_same, E1, (from_belongs h d Hd), <- app_assoc. done.
    + rewrite put_other by done. rewrite (from_other h' h d E Hd), app_nil_r. done.
  - etrans; [exact Hs|]. apply submseteq_inserts_r. done.
Qed.

Lemma ledger_all x : all_checked sent_ok x -> ledger (proc_view x) /\ pv_sent (proc_view x) ⊆+ pv_due (proc_view x).
Proof.
  induction x as [|f x IH] using rev_ind; intros H.
  - split; [|constructor]. exists (fun _ => []), (fun _ => []). intros h. cbn. done.
  - apply all_checked_snoc in H as [Hc [_ Hf]]. specialize (IH Hc).
    assert (Ht : tidy (proc_view x)).
    { apply tidy_all. intros pre g post ->. eapply (Hc pre g post). done. }
    rewrite proc_view_snoc. destruct Ht as [Ht1 Ht2].
    destruct f; try (eapply ledger_same; [| | | |exact IH]; done); cbn [proc_step].
    + destruct IH as [I1 I2]. eapply ledger_restart; [exact I1|exact I2| | | |]; done.
    + destruct (m_kind (e_msg e)) eqn:Ek; [exact IH|exact IH|].
      specialize (Hf e eq_refl Ek). split; [|exact Hf].
      destruct IH as [(t0 & g0 & Hl) _]. exists t0, g0. intros h. cbn. destruct (Hl h) as (E1 & E2 & E3).
      split; [done|]. split; [|done]. unfold from. rewrite filter_app, filter_cons, filter_nil.
      fold (from h (pv_sent (proc_view x))). unfold give.
      destruct (e_origin e) as [og|]; cbn.
      * destruct (decide (h = o_handler og)) as [->|E].
        -- rewrite put_same, decide_True by done. rewrite E2, app_assoc. done.
        -- rewrite put_other by done. rewrite decide_False by congruence. rewrite app_nil_r. done.
      * rewrite app_nil_r. done.
    + destruct err; [eapply ledger_same; [| | | |exact IH]; done|].
      destruct (pv_pend (proc_view x)) as [p|] eqn:Ep; [|exact IH].
      destruct (decide (pp_h p = h)); [|eapply ledger_same; [| | | |exact IH]; done].
      unfold proc_commit. destruct (pp_ended p).
      * eapply ledger_same; [| | | |exact IH]; done.
      * eapply (ledger_due _ _ (pp_h p)); [| | | | |exact IH]; try done.
        intros t Hin. apply elem_of_list_filter in Hin as [_ Hin]. exists (pp_i p). apply Ht2; done.
    + destruct IH as [I1 I2]. eapply ledger_restart; [exact I1|exact I2| | | |]; done.
    + destruct (decide _); [|exact IH]. eapply (ledger_due _ _ h); [| | | | |exact IH]; try done.
      intros t Hin. apply elem_of_list_filter in Hin as [_ Hin]. destruct (Ht1 _ _ Hin) as (i & Hb & _). eauto.
Qed.

(** Accepted timeouts were scheduled. *)
Definition pp_of (v : PView) (h : HId) : list Env :=
  match pv_pend v with Some p => if decide (pp_h p = h) then pp_tms p else [] | None => [] end.
Definition scheduled_by (h : HId) x : list Env :=
  (fun s => s.2) <$> filter (fun s : HId * string * Env => s.1.1 = h) (scheduled x).

Lemma scheduled_snoc' x f : scheduled (x ++ [f]) = scheduled_step (scheduled x) f.
Proof. unfold scheduled. rewrite foldl_snoc. done. Qed.

Lemma pp_of_on v h' h i g : pp_of (pp_on h' i g v) h =
  match pv_pend v with
  | Some p => if decide (pp_h p = h' /\ pp_i p = i)
              then (if decide (pp_h (g p) = h) then pp_tms (g p) else [])
              else pp_of v h
  | None => [] end.
Proof.
  unfold pp_of, pp_on. cbn. destruct (pv_pend v) as [p|]; [|done]. cbn.
  destruct (decide (pp_h p = h' /\ pp_i p = i)) ; done.
Qed.

Lemma accepted_scheduled x h : pv_acc (proc_view x) h ++ pp_of (proc_view x) h ⊆+ scheduled_by h x.
Proof.
  induction x as [|f x IH] using rev_ind; [constructor|].
  assert (Hdrop : pv_acc (proc_view x) h ++ [] ⊆+ scheduled_by h x).
  { rewrite app_nil_r. etrans; [|exact IH]. apply submseteq_inserts_r. done. }
  rewrite proc_view_snoc. unfold scheduled_by. rewrite scheduled_snoc'.
  destruct f; try exact IH; try exact Hdrop; cbn [proc_step scheduled_step].
  - destruct (m_kind (e_msg e)); exact IH.
  - destruct err; [exact Hdrop|]. unfold pp_of in IH |- *. fold (scheduled_by h x).
    destruct (pv_pend (proc_view x)) as [p|] eqn:Ep; [|rewrite Ep; exact IH].
    destruct (decide (pp_h p = h0)); [|exact Hdrop]. subst h0.
    unfold proc_commit. destruct (pp_ended p); cbn; [exact Hdrop|]. rewrite app_nil_r.
    destruct (decide (pp_h p = h)) as [<-|E].
    + rewrite put_same. exact IH.
    + rewrite put_other by done. rewrite app_nil_r in IH. exact IH.
  - destruct (decide _); exact IH.
  - unfold pp_of. cbn. rewrite if_same || (destruct (decide (h0 = h))); exact Hdrop.
  - unfold pp_of. cbn. rewrite if_same || (destruct (decide (h0 = h))); exact Hdrop.
  - rewrite pp_of_on. fold (scheduled_by h x). unfold pp_of in IH |- *.
    destruct (pv_pend (proc_view x)) as [p|]; [|exact Hdrop].
    destruct (decide (pp_h p = h0 /\ pp_i p = i)) as [[<- <-]|]; [exact IH|exact IH].
  - rewrite pp_of_on. fold (scheduled_by h x). unfold pp_of in IH |- *.
    destruct (pv_pend (proc_view x)) as [p|]; [|exact Hdrop].
    destruct (decide (pp_h p = h0 /\ pp_i p = i)) as [[<- <-]|]; [exact IH|exact IH].
  - rewrite pp_of_on. fold (scheduled_by h x). unfold pp_of in IH |- *.
    destruct (pv_pend (proc_view x)) as [p|]; [|exact Hdrop].
    destruct (decide (pp_h p = h0 /\ pp_i p = i)) as [[<- <-]|]; [exact IH|exact IH].
  - rewrite filter_app, fmap_app. fold (scheduled_by h x). rewrite filter_cons, filter_nil. cbn [fst snd].
    assert (Hgrow : forall l, l ⊆+ scheduled_by h x ->
      l ⊆+ scheduled_by h x ++ ((fun s : HId * string * Env => s.2) <$> (if decide (h0 = h) then [(h0, i, t)] else []))).
    { intros l Hl. etrans; [exact Hl|]. apply submseteq_inserts_r. done. }
    rewrite pp_of_on. unfold pp_of in IH |- *.
    destruct (pv_pend (proc_view x)) as [p|]; [|apply Hgrow; exact Hdrop].
    destruct (decide (pp_h p = h0 /\ pp_i p = i)) as [[<- <-]|]; [|apply Hgrow; exact IH]. cbn.
    destruct (decide (pp_h p = h)) as [->|E].
    + cbn. rewrite app_assoc. apply submseteq_skips_r. exact IH.
    + apply Hgrow. exact IH.
Qed.

Lemma scheduled_fresh h x : scheduled_by h x ⊆+ fresh_of x.
Proof.
  induction x as [|f x IH] using rev_ind; [constructor|].
  rewrite fresh_of_snoc. unfold scheduled_by. rewrite scheduled_snoc'.
  destruct f; try (etrans; [exact IH|]; apply submseteq_inserts_r; done).
  cbn [scheduled_step newly produced]. rewrite filter_app, fmap_app. fold (scheduled_by h x).
  rewrite filter_cons, filter_nil. cbn [fst snd]. destruct (decide (h0 = h)).
  - apply submseteq_skips_r. exact IH.
  - cbn. rewrite app_nil_r. etrans; [exact IH|]. apply submseteq_inserts_r. done.
Qed.
Lemma submseteq_NoDup {A} (l k : list A) : l ⊆+ k -> NoDup k -> NoDup l.
Proof. intros Hs Hn. apply submseteq_Permutation in Hs as [r Hr]. rewrite Hr in Hn. apply NoDup_app in Hn as [Hn _]. done. Qed.

Lemma history_sent c u ops st evs fin pre f :
  history c u ops st evs fin -> occurs evs pre f -> all_checked sent_ok (pre ++ [f]).
Proof.
  intros H Ho. eapply history_checked; [|exact H|exact Ho]. intros pre' f' Ho'. split.
  - eapply sched_checked; eassumption.
  - pose proof (proc_checked _ _ _ _ _ _ _ _ H Ho') as (_ & _ & _ & _ & _ & H1 & _). intros e ->. apply H1. done.
Qed.

(** The dispatched timeouts of a handler only grow. *)
Lemma gave_grows x y h t : t ∈ pv_gave (proc_view x) h -> t ∈ pv_gave (proc_view (x ++ y)) h.
Proof.
  intros Hin. induction y as [|f y IH] using rev_ind; [rewrite app_nil_r; done|].
  rewrite app_assoc, proc_view_snoc. revert IH. generalize (proc_view (x ++ y)). intros v IH.
  destruct f; try exact IH; cbn.
  - destruct (m_kind (e_msg e)); try exact IH. unfold give. destruct (e_origin e) as [og|]; [|exact IH]. cbn.
    unfold put. destruct (decide _) as [->|]; [apply elem_of_app; left|]; exact IH.
  - destruct err; [exact IH|]. destruct (pv_pend v); [|exact IH]. destruct (decide _); [|exact IH].
    unfold proc_commit. destruct (pp_ended _); exact IH.
  - destruct (decide _); exact IH.
Qed.

Lemma fresh_prefix x y : fresh_of x ⊆+ fresh_of (x ++ y).
Proof. rewrite fresh_of_app. apply submseteq_inserts_r. done. Qed.

(** Message IDs are unique at every moment at which fewer than 2^64 IDs were
    allocated; here at the end of the history. *)
Lemma C14_once_lemma c u ops st evs fin pre mid post e e' :
  history c u ops st evs fin -> (g_next (es_g st) < 2 ^ 64)%N ->
  since_reset evs = pre ++ DispatchBegun e :: mid ++ DispatchBegun e' :: post ->
  m_kind (e_msg e) = KTimeout -> e_id e <> e_id e'.
Proof.
  intros H Hn Heq Hk Hid.
  destruct (C01_lemma _ _ _ _ _ _ H Hn) as [Hnd Hsame].
  assert (e' = e) as ->.
  { symmetry. eapply (Hsame (DispatchBegun e) (DispatchBegun e')); rewrite ?Heq; cbn; try set_solver. }
  assert (Ho : occurs evs (pre ++ DispatchBegun e :: mid) (DispatchBegun e)).
  { eapply since_reset_occurs. rewrite Heq, <- app_assoc. done. }
  assert (Ho1 : occurs evs pre (DispatchBegun e)) by (eapply since_reset_occurs; exact Heq).
  pose proof (history_sent _ _ _ _ _ _ _ _ H Ho) as Hc.
  destruct (ledger_all _ Hc) as [Hl Hs].
  set (x := (pre ++ DispatchBegun e :: mid) ++ [DispatchBegun e]) in *.
  (* the timeout has an origin *)
  assert (Hor : exists og, e_origin e = Some og).
  { pose proof (history_sent _ _ _ _ _ _ _ _ H Ho1) as Hc1. apply all_checked_snoc in Hc1 as [Hc1 [_ Hd]].
    specialize (Hd e eq_refl Hk).
    assert (He : e ∈ pv_due (proc_view pre)).
    { eapply elem_of_submseteq; [|exact Hd]. set_solver. }
    clear -He Hc1. revert He. induction pre as [|f pre IH] using rev_ind; [cbn; set_solver|].
    pose proof Hc1 as Hc2. apply all_checked_snoc in Hc2 as [Hc2 _]. specialize (IH Hc2).
    assert (Ht : tidy (proc_view pre)).
    { apply tidy_all. intros p g q ->. eapply (Hc2 p g q); done. }
    destruct Ht as [Ht1 Ht2]. rewrite proc_view_snoc.
    destruct f; try exact IH; cbn.
    - set_solver.
    - destruct (m_kind (e_msg e0)); exact IH.
    - destruct err; [exact IH|]. destruct (pv_pend _) as [p|]; [|exact IH]. destruct (decide _); [|exact IH].
      unfold proc_commit. destruct (pp_ended p); [exact IH|]. cbn. intros He. apply elem_of_app in He as [He|He]; [auto|].
      apply elem_of_list_filter in He as [_ He]. specialize (Ht2 _ _ eq_refl He). unfold belongs in Ht2. eauto.
    - set_solver.
    - destruct (decide _); [|exact IH]. cbn. intros He. apply elem_of_app in He as [He|He]; [auto|].
      apply elem_of_list_filter in He as [_ He]. destruct (Ht1 _ _ He) as (i & Hb & _). unfold belongs in Hb. eauto. }
  destruct Hor as [og Hog]. set (h := o_handler og).
  assert (Hgave : NoDup (e_id <$> pv_gave (proc_view x) h)).
  { eapply submseteq_NoDup; [|exact Hnd]. apply fmap_submseteq.
    etrans; [apply ledger_gave; [exact Hl|exact Hs]|].
    etrans; [|rewrite Heq; replace (pre ++ DispatchBegun e :: mid ++ DispatchBegun e :: post) with (x ++ post);
      [apply (fresh_prefix x post)|unfold x; rewrite <- !app_assoc; done]].
    etrans; [|apply (scheduled_fresh h)]. etrans; [|apply (accepted_scheduled x h)].
    rewrite (proc_accounted x h). rewrite <- !app_assoc.
    apply submseteq_inserts_l, submseteq_inserts_r. done. }
  unfold x in Hgave. rewrite proc_view_snoc in Hgave. cbn [proc_step] in Hgave. rewrite Hk in Hgave. cbn in Hgave.
  unfold give in Hgave. rewrite Hog in Hgave. fold h in Hgave. rewrite put_same, fmap_app in Hgave.
  apply NoDup_app in Hgave as (_ & Hdis & _). eapply (Hdis (e_id e)); [|cbn; set_solver].
  apply elem_of_list_fmap. exists e. split; [done|].
  replace (pre ++ DispatchBegun e :: mid) with ((pre ++ [DispatchBegun e]) ++ mid) by (rewrite <- app_assoc; done).
  apply gave_grows. rewrite proc_view_snoc. cbn [proc_step]. rewrite Hk. cbn. unfold give. rewrite Hog. fold h.
  rewrite put_same. set_solver.
Qed.

Lemma C14_pending_lemma c u ops st evs fin hd ps :
  history c u ops st evs fin -> hd ∈ c_app c -> es_cs st !! h_name hd = Some (CSProc ps) ->
  pc_timeouts ps ≡ₚ pending_timeouts (since_reset evs) (h_id hd) /\
  (forall i, is_Some (pc_instances ps !! i) <-> live (since_reset evs) (h_id hd) i = true).
Proof.
  intros H Hin Hl. apply proc_history in H as [_ H]. destruct (H _ _ Hin Hl) as (H1 & H2 & _).
  split; [exact H2|]. intros i. unfold live. rewrite H1. rewrite bool_decide_eq_true. done.
Qed.

Lemma C14_delivery_lemma c u ops st evs fin :
  history c u ops st evs fin ->
  (forall pre e, occurs evs pre (DispatchBegun e) -> m_kind (e_msg e) = KTimeout ->
     pv_sent (proc_view pre) ++ [e] ⊆+ pv_due (proc_view pre)) /\
  (forall pre f, occurs evs pre f ->
     (exists e err et eh, f = DispatchCycleCompleted e err et eh /\ forall s, ECtx s ∉ err) \/
     (exists err et eh, f = TickCycleCompleted err et eh /\ forall s, ECtx s ∉ err) ->
     pv_sent (proc_view pre) ≡ₚ pv_due (proc_view pre)).
Proof.
  intros H. split.
  - intros pre e Ho Hk. pose proof (proc_checked _ _ _ _ _ _ _ _ H Ho) as (_ & _ & _ & _ & _ & H1 & _).
    apply H1; done.
  - intros pre f Ho Hf. pose proof (proc_checked _ _ _ _ _ _ _ _ H Ho) as (_ & _ & _ & _ & _ & _ & H1 & H2).
    destruct Hf as [(e & err & et & eh & -> & Hne)|(err & et & eh & -> & Hne)]; eauto.
Qed.

Lemma C15_lemma c u ops st evs fin hd ps t :
  history c u ops st evs fin -> hd ∈ c_app c -> es_cs st !! h_name hd = Some (CSProc ps) -> t ∈ pc_timeouts ps ->
  (e_created t < e_sched t)%Z /\
  exists i, e_origin t = Some (mkOrigin (h_id hd) HTProcess i) /\ is_Some (pc_instances ps !! i).
Proof.
  intros H Hin Hl Ht. apply proc_history in H as [_ H]. destruct (H _ _ Hin Hl) as (_ & _ & _ & H4).
  rewrite Forall_forall in H4. destruct (H4 t Ht) as (i & [_ Ho] & Hlt & Hi). eauto.
Qed.

Lemma C16_store_lemma c u ops st evs fin hd ps :
  history c u ops st evs fin -> hd ∈ c_app c -> es_cs st !! h_name hd = Some (CSProc ps) ->
  chronological (pc_timeouts ps).
Proof. intros H Hin Hl. apply proc_history in H as [_ H]. destruct (H _ _ Hin Hl) as (_ & _ & H3 & _). done. Qed.

(** ** Ended instances *)
Lemma scheduled_mono x f s : s ∈ scheduled x -> s ∈ scheduled (x ++ [f]).
Proof. rewrite scheduled_snoc'. destruct f; cbn; try done. intros Hs. apply elem_of_app. auto. Qed.

Lemma pend_after_completion x h e : pv_pend (proc_view (x ++ [HandlingCompleted h e None])) = None.
Proof.
  rewrite proc_view_snoc. cbn. destruct (pv_pend (proc_view x)) as [p|] eqn:E; [|done].
  destruct (decide _); [|done]. unfold proc_commit. destruct (pp_ended p); done.
Qed.

Lemma since_ended x0 y h i :
  all_checked sched_ok (x0 ++ y) -> live x0 h i = false -> pv_pend (proc_view x0) = None ->
  let v := proc_view (x0 ++ y) in
  (forall t, t ∈ pv_tms v h -> belongs h i t -> (h, i, t) ∈ scheduled y) /\
  (forall p t, pv_pend v = Some p -> t ∈ pp_tms p -> pp_h p = h -> pp_i p = i -> (h, i, t) ∈ scheduled y) /\
  (Exists cycle_begins y -> forall t, t ∈ pv_due v -> belongs h i t -> (h, i, t) ∈ scheduled y).
Proof.
  intros Hc Hl Hp. induction y as [|f y IH] using rev_ind.
  - rewrite app_nil_r. rewrite app_nil_r in Hc. cbn zeta. split; [|split].
    + intros t Ht Hb. destruct (tidy_all _ Hc) as [H1 _]. destruct (H1 _ _ Ht) as (j & Hb' & Hj).
      apply belongs_instance in Hb, Hb'. assert (j = i) as -> by congruence. unfold live in Hl. congruence.
    + intros p t Hq. congruence.
    + intros He. inversion He.
  - rewrite app_assoc in Hc |- *. pose proof Hc as Hc'. apply all_checked_snoc in Hc as [Hc Hs]. specialize (IH Hc).
    pose proof (tidy_all _ Hc) as [T1 T2].
    rewrite proc_view_snoc. revert IH T1 T2. generalize (proc_view (x0 ++ y)). intros v (I1 & I2 & I3) T1 T2.
    assert (Hex : ~ cycle_begins f -> Exists cycle_begins (y ++ [f]) -> Exists cycle_begins y).
    { intros Hn He. apply Exists_app in He as [He|He]; [done|]. inversion He as [? ? Hcb|? ? Hn']; [done|inversion Hn']. }
    assert (Hgen : (forall t, t ∈ pv_tms v h -> belongs h i t -> (h, i, t) ∈ scheduled (y ++ [f])) /\
      (forall p t, pv_pend v = Some p -> t ∈ pp_tms p -> pp_h p = h -> pp_i p = i -> (h, i, t) ∈ scheduled (y ++ [f])) /\
      (Exists cycle_begins y -> forall t, t ∈ pv_due v -> belongs h i t -> (h, i, t) ∈ scheduled (y ++ [f]))).
    { split; [|split].
      - intros t Ht Hb. apply scheduled_mono. auto.
      - intros p t Hq Ht E1 E2. apply scheduled_mono. eauto.
      - intros He t Ht Hb. apply scheduled_mono. auto. }
    clear I1 I2 I3. destruct Hgen as (I1 & I2 & I3).
    assert (Hpend : forall (g : PPend -> PPend) h' i',
      (forall p t, pp_h p = h' -> pp_i p = i' -> t ∈ pp_tms (g p) -> pp_h (g p) = h' /\ pp_i (g p) = i' /\
         (t ∈ pp_tms p \/ (h', i', t) ∈ scheduled (y ++ [f]))) ->
      forall p t, pv_pend (pp_on h' i' g v) = Some p -> t ∈ pp_tms p -> pp_h p = h -> pp_i p = i ->
        (h, i, t) ∈ scheduled (y ++ [f])).
    { intros g h' i' Hg p t Hq Hin E1 E2. cbn in Hq. destruct (pv_pend v) as [q|] eqn:Eq; [|done]. cbn in Hq.
      destruct (decide _) as [[Eh Ei]|]; injection Hq as <-.
      - destruct (Hg q t Eh Ei Hin) as (E3 & E4 & [Hold|Hnew]).
        + eapply I2; [reflexivity|exact Hold| |]; congruence.
        + congruence.
      - eapply I2; [reflexivity|exact Hin|done|done]. }
    assert (Hnew : forall h' i' p t, (Some (mkPPend h' i' [] false)) = Some p -> t ∈ pp_tms p -> pp_h p = h -> pp_i p = i ->
      (h, i, t) ∈ scheduled (y ++ [f])).
    { intros h' i' p t [= <-] Hin. cbn in Hin. set_solver. }
    destruct f; cbn [proc_step];
      try (split; [exact I1|split; [exact I2|intros He; apply I3; apply Hex; [intros []|exact He]]]; fail).
    + split; [exact I1|]. split; [done|]. cbn. set_solver.
    + destruct (m_kind (e_msg e)); (split; [exact I1|]; split; [exact I2|]; intros He; apply I3; apply Hex; [intros []|exact He]).
    + split; [exact I1|]. split; [done|]. intros He; apply I3; apply Hex; [intros []|exact He].
    + destruct err; [split; [exact I1|]; split; [done|]; intros He; apply I3; apply Hex; [intros []|exact He]|].
      destruct (pv_pend v) as [p|] eqn:Ep;
        [|split; [exact I1|]; split; [rewrite Ep; done|]; intros He; apply I3; apply Hex; [intros []|exact He]].
      destruct (decide (pp_h p = h0));
        [|split; [exact I1|]; split; [done|]; intros He; apply I3; apply Hex; [intros []|exact He]].
      unfold proc_commit. destruct (pp_ended p); cbn.
      * split; [|split; [done|intros He; apply I3; apply Hex; [intros []|exact He]]].
        intros t Hin Hb. destruct (decide (h = pp_h p)) as [E|E].
        -- subst h. rewrite put_same in Hin. apply elem_of_list_filter in Hin as [_ Hin]. auto.
        -- rewrite put_other in Hin by done. auto.
      * assert (Hmine : forall t, t ∈ pp_tms p -> belongs h i t -> (h, i, t) ∈ scheduled (y ++ [HandlingCompleted h0 e None])).
        { intros t Hin Hb. pose proof (T2 p t eq_refl Hin) as Hb'. unfold belongs in Hb, Hb'.
          rewrite Hb in Hb'. injection Hb' as E1 _ E2. eapply I2; [reflexivity|exact Hin|done|done]. }
        split; [|split; [done|]].
        -- intros t Hin Hb. destruct (decide (h = pp_h p)) as [E|E].
           ++ subst h. rewrite put_same in Hin. apply elem_of_app in Hin as [Hin|Hin]; [auto|].
              apply elem_of_list_filter in Hin as [_ Hin]. auto.
           ++ rewrite put_other in Hin by done. auto.
        -- intros He t Hin Hb. apply elem_of_app in Hin as [Hin|Hin].
           ++ apply I3; [apply Hex; [intros []|exact He]|done|done].
           ++ apply elem_of_list_filter in Hin as [_ Hin]. auto.
    + split; [exact I1|]. split; [done|]. cbn. set_solver.
    + destruct (decide _); [|split; [exact I1|]; split; [exact I2|]; intros He; apply I3; apply Hex; [intros []|exact He]].
      cbn. split; [|split; [exact I2|]].
      * intros t Hin Hb. destruct (decide (h = h0)) as [E|E].
        -- subst h0. rewrite put_same in Hin. apply elem_of_list_filter in Hin as [_ Hin]. auto.
        -- rewrite put_other in Hin by done. auto.
      * intros He t Hin Hb. apply elem_of_app in Hin as [Hin|Hin].
        -- apply I3; [apply Hex; [intros []|exact He]|done|done].
        -- apply elem_of_list_filter in Hin as [_ Hin].
           destruct (T1 _ _ Hin) as (j & Hb' & _). unfold belongs in Hb, Hb'. rewrite Hb in Hb'. injection Hb' as -> _ _.
           apply I1; [exact Hin|exact Hb].
    + split; [exact I1|]. split; [apply Hnew|]. intros He; apply I3; apply Hex; [intros []|exact He].
    + split; [exact I1|]. split; [apply Hnew|]. intros He; apply I3; apply Hex; [intros []|exact He].
    + split; [exact I1|]. split; [apply Hpend; cbn; auto|]. intros He; apply I3; apply Hex; [intros []|exact He].
    + split; [exact I1|]. split; [apply Hpend; cbn; auto|]. intros He; apply I3; apply Hex; [intros []|exact He].
    + split; [exact I1|]. split; [apply Hpend; cbn; auto|]. intros He; apply I3; apply Hex; [intros []|exact He].
    + split; [exact I1|]. split; [|intros He; apply I3; apply Hex; [intros []|exact He]].
      apply Hpend. cbn. intros p t0 _ _ Hin. split; [done|]. split; [done|].
      apply elem_of_app in Hin as [Hin|Hin]; [auto|]. right. apply elem_of_list_singleton in Hin as ->.
      rewrite scheduled_snoc'. cbn. set_solver.
Qed.

Lemma C18_lemma c u ops st evs fin a b h e i t :
  history c u ops st evs fin ->
  occurs evs (a ++ HandlingCompleted h e None :: b) (DispatchBegun t) ->
  m_kind (e_msg t) = KTimeout -> e_origin t = Some (mkOrigin h HTProcess i) -> hid_type h = HTProcess ->
  live (a ++ [HandlingCompleted h e None]) h i = false ->
  Exists cycle_begins b ->
  (h, i, t) ∈ scheduled b.
Proof.
  intros H Ho Hk Hor Hty Hl Hb.
  assert (Hc : all_checked sched_ok (((a ++ [HandlingCompleted h e None]) ++ b) ++ [DispatchBegun t])).
  { eapply history_checked; [|exact H|]; [|rewrite <- app_assoc; exact Ho].
    intros pre' f' Ho'. eapply sched_checked; eassumption. }
  apply all_checked_snoc in Hc as [Hc _].
  destruct (since_ended _ _ _ _ Hc Hl (pend_after_completion _ _ _)) as (_ & _ & H3).
  apply H3; [done| |unfold belongs; rewrite Hty; done].
  pose proof (proc_checked _ _ _ _ _ _ _ _ H Ho) as (_ & _ & _ & _ & _ & H1 & _).
  specialize (H1 _ eq_refl Hk). rewrite <- app_assoc. cbn [app].
  eapply elem_of_submseteq; [|exact H1]. set_solver.
Qed.

(** ** One handling *)
Lemma C19_lemma o h pi now env g ps g' ps' fs r :
  p_handle o h pi now env g ps = (g', ps', fs, r) ->
  (exists envs e, r = HRet envs (Some e)) \/ (exists v, r = HPan v) ->
  (forall envs e, r = HRet envs e -> envs = []) /\ pc_timeouts ps' = pc_timeouts ps /\
  (forall i, is_Some (pc_instances ps' !! i) <-> is_Some (pc_instances ps !! i)).
Proof.
  intros H Hr. apply p_handle_cases in H.
  assert (Hmut : forall i s, pc_timeouts (p_store_mutation i s ps) = pc_timeouts ps /\
    forall j, is_Some (pc_instances (p_store_mutation i s ps) !! j) <-> is_Some (pc_instances ps !! j)).
  { intros i s. unfold p_store_mutation. destruct (pc_instances ps !! i) eqn:E; [|done]. split; [done|]. cbn. intros j.
    destruct (decide (j = i)) as [->|Ej]; [rewrite lookup_insert, E; split; eauto|rewrite lookup_insert_ne by done; done]. }
  destruct H as [g' v Hg|g' e Hg Hk|g' Hg Hk|og Hk Ho Hnone|g' i v Hg Hk Hnone Hnil|g1 i r pre g' s fs res Hc Hg Hk Hpre Hrun];
    try (split; [|done]; intros ? ? [= <- <-]; done); try (split; [|done]; done).
  destruct res as [[e|]|v]; cbn [p_result p_commit] in *.
  - split; [intros ? ? [= <- <-]; done|apply Hmut].
  - destruct Hr as [(? & ? & [=])|(? & [=])].
  - split; [done|apply Hmut].
Qed.

Lemma p_check_cases h env meth m : p_check h env meth m = None \/ exists v, p_check h env meth m = Some v.
Proof. destruct (p_check _ _ _ _); eauto. Qed.

Lemma p_execute_ended o h now env id meth b g s g' s' fs v :
  p_execute o h now env id meth b g s = (g', s', fs, v) ->
  (v = None -> ps_ended s' = false) /\ (v <> None -> s' = s) /\
  (ps_ended s = false -> ps_ended s' = false).
Proof.
  unfold p_execute. destruct (p_check _ _ _ _); [intros [= <- <- <- <-]; split; done|].
  unfold p_revert. destruct (ps_ended s) eqn:E; destruct (next_id o g); intros [= <- <- <- <-]; cbn; done.
Qed.
Lemma p_schedule_ended o h now env id meth b t g s g' s' fs v :
  p_schedule o h now env id meth b t g s = (g', s', fs, v) ->
  (v = None -> ps_ended s' = false) /\ (v <> None -> s' = s) /\
  (ps_ended s = false -> ps_ended s' = false).
Proof.
  unfold p_schedule. destruct (p_check _ _ _ _); [intros [= <- <- <- <-]; split; done|].
  unfold p_revert. destruct (ps_ended s) eqn:E; destruct (next_id o g); destruct (now <? t)%Z;
    intros [= <- <- <- <-]; cbn; done.
Qed.

Ltac run_step H IH :=
  match type of H with context [p_run ?o ?h ?now ?env ?id ?meth ?k ?g ?s] =>
    let E := fresh "E" in destruct (p_run o h now env id meth k g s) as [[[? ?] ?] ?] eqn:E;
    injection H as <- <- <- <-; eapply IH; [exact E|] end.

Lemma p_run_no_output o h now env id meth p : no_output p -> forall g s g' s' fs r,
  p_run o h now env id meth p g s = (g', s', fs, r) -> ps_ended s = true -> ps_ended s' = true.
Proof.
  induction 1 as [e|v|f k _ IH|f k _ IH|k _ IH|str k _ IH]; intros g s g' s' fs r H He; cbn in H.
  - injection H as <- <- <- <-. done.
  - injection H as <- <- <- <-. done.
  - eapply IH; eassumption.
  - eapply IH; [exact H|done].
  - unfold p_end in H. rewrite He in H. run_step H IH. done.
  - run_step H IH. done.
Qed.

Lemma p_run_ends_ending o h now env id meth p : ends_ending p -> forall g s g' s' fs,
  p_run o h now env id meth p g s = (g', s', fs, inl None) -> ps_ended s' = true.
Proof.
  induction 1 as [v|e|f k _ IH|f k _ IH|b k _ IH|b t k _ IH|k _ IH|str k _ IH|k Hk]; intros g s g' s' fs H; cbn in H.
  - done.
  - done.
  - eapply IH; eassumption.
  - eapply IH; eassumption.
  - destruct (p_execute _ _ _ _ _ _ _ _ _) as [[[g1 s1] fs1] v1].
    destruct (p_run _ _ _ _ _ _ (k v1) g1 s1) as [[[g2 s2] fs2] v2] eqn:E. injection H as <- <- <- ->. eauto.
  - destruct (p_schedule _ _ _ _ _ _ _ _ _ _) as [[[g1 s1] fs1] v1].
    destruct (p_run _ _ _ _ _ _ (k v1) g1 s1) as [[[g2 s2] fs2] v2] eqn:E. injection H as <- <- <- ->. eauto.
  - destruct (p_end h env id s) as [s1 fs1].
    destruct (p_run _ _ _ _ _ _ k g s1) as [[[g2 s2] fs2] v2] eqn:E. injection H as <- <- <- ->. eauto.
  - destruct (p_run _ _ _ _ _ _ k g s) as [[[g2 s2] fs2] v2] eqn:E. injection H as <- <- <- ->. eauto.
  - destruct (p_end h env id s) as [s1 fs1] eqn:Ee.
    destruct (p_run _ _ _ _ _ _ k g s1) as [[[g2 s2] fs2] v2] eqn:E. injection H as <- <- <- ->.
    eapply p_run_no_output; [exact Hk|exact E|]. unfold p_end in Ee.
    destruct (ps_ended s) eqn:E2; injection Ee as <- <-; done.
Qed.

Lemma p_run_no_ending o h now env id meth p : no_ending p -> forall g s g' s' fs r,
  p_run o h now env id meth p g s = (g', s', fs, r) -> ps_ended s = false -> ps_ended s' = false.
Proof.
  induction 1 as [e|v|f k _ IH|f k _ IH|b k _ IH|b t k _ IH|str k _ IH]; intros g s g' s' fs r H He; cbn in H.
  - injection H as <- <- <- <-. done.
  - injection H as <- <- <- <-. done.
  - eapply IH; eassumption.
  - eapply IH; [exact H|done].
  - destruct (p_execute _ _ _ _ _ _ _ _ _) as [[[g1 s1] fs1] v1] eqn:E1.
    apply p_execute_ended in E1 as (_ & _ & E1). run_step H IH. auto.
  - destruct (p_schedule _ _ _ _ _ _ _ _ _ _) as [[[g1 s1] fs1] v1] eqn:E1.
    apply p_schedule_ended in E1 as (_ & _ & E1). run_step H IH. auto.
  - run_step H IH. done.
Qed.

Scheme ends_continuing_mut := Induction for ends_continuing Sort Prop
  with continues_mut := Induction for continues Sort Prop.

Lemma p_run_ends_continuing o h now env id meth p : ends_continuing p -> forall g s g' s' fs,
  p_run o h now env id meth p g s = (g', s', fs, inl None) -> ps_ended s = false -> ps_ended s' = false.
Proof.
  refine (ends_continuing_mut _
    (fun p _ => forall g s g' s' fs, p_run o h now env id meth p g s = (g', s', fs, inl None) ->
       ps_ended s = false -> ps_ended s' = false)
    (fun p _ => forall g s g' s' fs, p_run o h now env id meth p g s = (g', s', fs, inl None) ->
       ps_ended s' = false) _ _ _ _ _ _ _ _ _ _ _ _ _ _ _ _ p); clear p.
  - intros p Hp g s g' s' fs H. eapply p_run_no_ending; eassumption.
  - done.
  - intros f k _ IH g s g' s' fs H. cbn in H. eauto.
  - intros f k _ IH g s g' s' fs H. cbn in H. intros He. eapply IH; [exact H|done].
  - intros b k _ IH g s g' s' fs H He. cbn in H.
    destruct (p_execute _ _ _ _ _ _ _ _ _) as [[[g1 s1] fs1] v1] eqn:E1. apply p_execute_ended in E1 as (_ & _ & E1).
    destruct (p_run _ _ _ _ _ _ (k v1) g1 s1) as [[[g2 s2] fs2] v2] eqn:E. injection H as <- <- <- ->. eauto.
  - intros b t k _ IH g s g' s' fs H He. cbn in H.
    destruct (p_schedule _ _ _ _ _ _ _ _ _ _) as [[[g1 s1] fs1] v1] eqn:E1. apply p_schedule_ended in E1 as (_ & _ & E1).
    destruct (p_run _ _ _ _ _ _ (k v1) g1 s1) as [[[g2 s2] fs2] v2] eqn:E. injection H as <- <- <- ->. eauto.
  - intros k _ IH g s g' s' fs H _. cbn in H. destruct (p_end h env id s) as [s1 fs1].
    destruct (p_run _ _ _ _ _ _ k g s1) as [[[g2 s2] fs2] v2] eqn:E. injection H as <- <- <- ->. eauto.
  - intros str k _ IH g s g' s' fs H He. cbn in H.
    destruct (p_run _ _ _ _ _ _ k g s) as [[[g2 s2] fs2] v2] eqn:E. injection H as <- <- <- ->. eauto.
  - done.
  - done.
  - intros f k _ IH g s g' s' fs H. cbn in H. eauto.
  - intros f k _ IH g s g' s' fs H. cbn in H. eauto.
  - intros b k _ IH1 _ IH2 g s g' s' fs H. cbn in H.
    destruct (p_execute _ _ _ _ _ _ _ _ _) as [[[g1 s1] fs1] v1] eqn:E1. apply p_execute_ended in E1 as (E1 & _).
    destruct (p_run _ _ _ _ _ _ (k v1) g1 s1) as [[[g2 s2] fs2] v2] eqn:E. injection H as <- <- <- ->.
    destruct v1; eauto.
  - intros b t k _ IH1 _ IH2 g s g' s' fs H. cbn in H.
    destruct (p_schedule _ _ _ _ _ _ _ _ _ _) as [[[g1 s1] fs1] v1] eqn:E1. apply p_schedule_ended in E1 as (E1 & _).
    destruct (p_run _ _ _ _ _ _ (k v1) g1 s1) as [[[g2 s2] fs2] v2] eqn:E. injection H as <- <- <- ->.
    destruct v1; eauto.
  - intros k _ IH g s g' s' fs H. cbn in H. destruct (p_end h env id s) as [s1 fs1].
    destruct (p_run _ _ _ _ _ _ k g s1) as [[[g2 s2] fs2] v2] eqn:E. injection H as <- <- <- ->. eauto.
  - intros str k _ IH g s g' s' fs H. cbn in H.
    destruct (p_run _ _ _ _ _ _ k g s) as [[[g2 s2] fs2] v2] eqn:E. injection H as <- <- <- ->. eauto.
Qed.

End ProcHist.
