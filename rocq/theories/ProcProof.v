(** * Proofs about process instances and timeouts. *)
From Verif Require Import ProcSpec HistSim AggProof.

Section ProcProof.
Context {P : Params} (c : Config) (Hok : app_ok c).

Lemma proc_view_snoc x f : proc_view (x ++ [f]) = proc_step (proc_view x) f.
Proof. unfold proc_view. rewrite foldl_snoc. done. Qed.

Lemma set_pend_twice v p q : set_pend (set_pend v p) q = set_pend v q.
Proof. done. Qed.

Lemma put_same {A} (f : HId -> A) h a : put f h a h = a.
Proof. unfold put. rewrite decide_True; done. Qed.
Lemma put_other {A} (f : HId -> A) h a h' : h' <> h -> put f h a h' = f h'.
Proof. intros H. unfold put. rewrite decide_False; done. Qed.
Lemma put2_same {A} (f : HId -> string -> A) h i a : put2 f h i a h i = a.
Proof. unfold put2. rewrite decide_True; done. Qed.
Lemma put2_other_h {A} (f : HId -> string -> A) h i a h' i' : h' <> h -> put2 f h i a h' i' = f h' i'.
Proof. intros H. unfold put2. rewrite decide_False; [done|]. intros [? _]. done. Qed.
Lemma put2_other_i {A} (f : HId -> string -> A) h i a h' i' : i' <> i -> put2 f h i a h' i' = f h' i'.
Proof. intros H. unfold put2. rewrite decide_False; [done|]. intros [_ ?]. done. Qed.

(** Accounting, a fact about the specification. *)
Definition accounted (v : PView) : Prop := forall h, pv_acc v h ≡ₚ pv_tms v h ++ pv_took v h ++ pv_gone v h.

Lemma due_later now l : due now l ++ later now l ≡ₚ l.
Proof.
  induction l as [|t l IH]; [done|]. unfold due, later in *. rewrite !filter_cons.
  destruct (decide (e_sched t <= now)%Z), (decide (now < e_sched t)%Z); try lia.
  - cbn. rewrite IH. done.
  - rewrite <- Permutation_middle, IH. done.
Qed.
Lemma mine_others i l : mine i l ++ others i l ≡ₚ l.
Proof.
  induction l as [|t l IH]; [done|]. unfold mine, others in *. rewrite !filter_cons.
  destruct (decide (instance_of t = Some i)) as [E|E], (decide (instance_of t <> Some i)) as [E'|E']; try tauto.
  - cbn. rewrite IH. done.
  - rewrite <- Permutation_middle, IH. done.
Qed.

Ltac solve_perm := clear; intros; solve_Permutation.

Lemma proc_step_accounted v f : accounted v -> accounted (proc_step v f).
Proof.
  intros H. destruct f; try exact H; cbn.
  - destruct (m_kind (e_msg e)); exact H.
  - destruct err; [exact H|]. destruct (pv_pend v) as [p|]; [|exact H].
    destruct (decide (pp_h p = h)); [|exact H]. unfold proc_commit. destruct (pp_ended p); intros h'; cbn.
    + destruct (decide (h' = pp_h p)) as [->|E].
      * rewrite !put_same, (H (pp_h p)). rewrite <- (mine_others (pp_i p) (pv_tms v (pp_h p))) at 1.
        generalize (mine (pp_i p) (pv_tms v (pp_h p))), (others (pp_i p) (pv_tms v (pp_h p))).
        generalize (pv_took v (pp_h p)), (pv_gone v (pp_h p)). solve_perm.
      * rewrite !put_other by done. apply H.
    + destruct (decide (h' = pp_h p)) as [->|E].
      * rewrite !put_same, (H (pp_h p)). rewrite <- (due_later (pv_now v) (pp_tms p)) at 1.
        generalize (due (pv_now v) (pp_tms p)), (later (pv_now v) (pp_tms p)).
        generalize (pv_tms v (pp_h p)), (pv_took v (pp_h p)), (pv_gone v (pp_h p)). solve_perm.
      * rewrite !put_other by done. apply H.
  - destruct (decide _); [|exact H]. intros h'. cbn. destruct (decide (h' = h)) as [->|E].
    + rewrite !put_same, (H h). rewrite <- (due_later (pv_now v) (pv_tms v h)) at 1.
      generalize (due (pv_now v) (pv_tms v h)), (later (pv_now v) (pv_tms v h)).
      generalize (pv_took v h), (pv_gone v h). solve_perm.
    + rewrite !put_other by done. apply H.
Qed.

Lemma proc_accounted fs : accounted (proc_view fs).
Proof.
  induction fs as [|f fs IH] using rev_ind; [intros h; done|].
  rewrite proc_view_snoc. apply proc_step_accounted. done.
Qed.

(** ** Relation between the controllers and the facts *)
Definition is_timeout (e : Env) : Prop := m_kind (e_msg e) = KTimeout.
#[local] Instance is_timeout_dec e : Decision (is_timeout e).
Proof. unfold is_timeout. apply _. Defined.

(** A pending timeout of instance [i] of [h]. *)
Definition tmo_ok (hid : HId) (i : string) (e : Env) : Prop :=
  is_timeout e /\ e_origin e = Some (mkOrigin hid HTProcess i).

Definition prel (v : PView) (ps : PState) (hid : HId) : Prop :=
  (forall i, pv_live v hid i = bool_decide (is_Some (pc_instances ps !! i))) /\
  pc_timeouts ps ≡ₚ pv_tms v hid /\ chronological (pc_timeouts ps) /\
  Forall (fun t => exists i, tmo_ok hid i t /\ (e_created t < e_sched t)%Z /\ is_Some (pc_instances ps !! i))
    (pc_timeouts ps).

Definition prels (cs : gmap string CState) (v : PView) : Prop :=
  forall hd ps, hd ∈ c_app c -> cs !! h_name hd = Some (CSProc ps) -> prel v ps (h_id hd).

Definition balanced (q : list Env) (v : PView) : Prop :=
  pv_due v ≡ₚ pv_sent v ++ filter is_timeout q.

Definition PI (st : EState) (x : list Fact) : Prop := prels (es_cs st) (proc_view x).
Definition PO' (oo : OOs) (q : list Env) (st : EState) (x : list Fact) : Prop :=
  prels (es_cs st) (proc_view x) /\ pv_now (proc_view x) = oo_now oo /\ balanced q (proc_view x).
Definition PO (oo : OOs) (cy : option Env) (q : list Env) := PO' oo q.
Definition PM (oo : OOs) (cy : option Env) (env : Env) (hs : list (option Handler)) (q : list Env) := PO' oo q.
Definition PT (oo : OOs) (hs : list Handler) (q : list Env) := PO' oo q.

(** ** Checks *)
Definition proc_instance (f : Fact) : option (HId * string) :=
  match f with
  | ProcessInstanceEnded h i _ _ | ProcessInstanceEndingReverted h i _ _ | CommandExecutedByProcess h i _ _ _
  | TimeoutScheduledByProcess h i _ _ _ | MessageLoggedByProcess h i _ _ _ => Some (h, i)
  | _ => None
  end.

Definition proc_check (x : list Fact) (f : Fact) : Prop :=
  (forall h i r e, f = ProcessInstanceLoaded h i r e -> live x h i = true) /\
  (forall h i e, f = ProcessInstanceNotFound h i e -> live x h i = false) /\
  (forall h i r e, f = ProcessInstanceBegun h i r e ->
     live x h i = false /\ exists pi, process_of c h pi /\ r = pr_new pi) /\
  (forall h i e, f = ProcessTimeoutIgnored h i e -> live x h i = false) /\
  (forall h i, proc_instance f = Some (h, i) ->
     exists p, pv_pend (proc_view x) = Some p /\ pp_h p = h /\ pp_i p = i) /\
  (forall e, f = DispatchBegun e -> is_timeout e ->
     pv_sent (proc_view x) ++ [e] ⊆+ pv_due (proc_view x)) /\
  (forall e err et eh, f = DispatchCycleCompleted e err et eh -> (forall s, ECtx s ∉ err) ->
     pv_sent (proc_view x) ≡ₚ pv_due (proc_view x)) /\
  (forall err et eh, f = TickCycleCompleted err et eh -> (forall s, ECtx s ∉ err) ->
     pv_sent (proc_view x) ≡ₚ pv_due (proc_view x)).

(** Facts about which nothing is claimed. *)
Definition unchecked (f : Fact) : Prop :=
  match f with
  | ProcessInstanceLoaded _ _ _ _ | ProcessInstanceNotFound _ _ _ | ProcessInstanceBegun _ _ _ _
  | ProcessTimeoutIgnored _ _ _ | DispatchBegun _ | DispatchCycleCompleted _ _ _ _ | TickCycleCompleted _ _ _ => False
  | _ => proc_instance f = None
  end.
Lemma check_unchecked x f : unchecked f -> proc_check x f.
Proof.
  intros H. unfold proc_check. repeat apply conj; intros *; intros Hf; try (subst f; destruct H).
  destruct f; cbn in H, Hf; congruence.
Qed.

(** Facts that do not change the view. *)
Definition inert (f : Fact) : Prop := forall v, proc_step v f = v.

Lemma view_inert x fs : Forall inert fs -> proc_view (x ++ fs) = proc_view x.
Proof.
  intros Hf. induction fs as [|f fs IH] using rev_ind; [rewrite app_nil_r; done|].
  apply Forall_app in Hf as [H1 H2]. apply Forall_cons in H2 as [H2 _].
  rewrite app_assoc, proc_view_snoc, H2. apply IH. done.
Qed.

Lemma owned_inert t h f : owned t h f -> t <> HTProcess -> inert f /\ unchecked f.
Proof.
  intros H Ht. split; [intros v|]; destruct f; unfold owned in H; cbn in H; try done; injection H as <- _; done.
Qed.

Lemma good_unchecked x fs : Forall unchecked fs -> good proc_check snoc x fs.
Proof.
  intros Hf. eapply (good_impl (fun _ f => unchecked f)); [|apply Forall_good; exact Hf].
  intros y f _. apply check_unchecked.
Qed.

(** Handlings and ticks by other handler types. *)
Lemma other_handling_p x t h env fs r :
  Forall (owned t h) fs -> t <> HTProcess ->
  good proc_check snoc x (handling h env fs r) /\
  exists p, proc_view (x ++ handling h env fs r) = set_pend (proc_view x) p.
Proof.
  intros Hf Ht.
  assert (Hu : Forall unchecked fs /\ Forall inert fs).
  { split; (eapply Forall_impl; [exact Hf|]); intros f Hof; eapply owned_inert; done. }
  destruct Hu as [Hu Hi]. unfold handling. split.
  - apply good_unchecked. constructor; [done|]. apply Forall_app. split; [done|]. destruct r; repeat constructor.
  - rewrite cons_middle, app_assoc, app_assoc.
    assert (Hv : proc_view ((x ++ [HandlingBegun (h_id h) env]) ++ fs) = set_pend (proc_view x) None).
    { rewrite (view_inert _ _ Hi), proc_view_snoc. done. }
    destruct r as [envs [e|]|v]; [| |rewrite app_nil_r, Hv; eauto]; rewrite proc_view_snoc, Hv; cbn; eauto.
Qed.

Lemma other_ticking_p x t h fs r :
  Forall (owned t h) fs -> t <> HTProcess -> h_type h <> HTProcess ->
  good proc_check snoc x (ticking h fs r) /\ proc_view (x ++ ticking h fs r) = proc_view x.
Proof.
  intros Hf Ht Hh.
  assert (Hu : Forall unchecked fs /\ Forall inert fs).
  { split; (eapply Forall_impl; [exact Hf|]); intros f Hof; eapply owned_inert; done. }
  destruct Hu as [Hu Hi]. unfold ticking. split.
  - apply good_unchecked. constructor; [done|]. apply Forall_app. split; [done|]. destruct r; repeat constructor.
  - apply view_inert. constructor.
    + intros v. cbn. rewrite decide_False; done.
    + apply Forall_app. split; [done|]. destruct r; repeat constructor.
Qed.

Lemma prels_put h cs cst v v' :
  h ∈ c_app c -> prels cs v ->
  (forall ps, cst = CSProc ps -> prel v' ps (h_id h)) ->
  (forall ps hd, hd ∈ c_app c -> h_name hd <> h_name h -> prel v ps (h_id hd) -> prel v' ps (h_id hd)) ->
  prels (<[h_name h := cst]> cs) v'.
Proof.
  intros Happ Hs Hn Ho hd ps Hin Hl. destruct (decide (h_name hd = h_name h)) as [E|E].
  - assert (hd = h) as -> by (eapply app_name_inj; eassumption).
    rewrite lookup_insert in Hl. injection Hl as ->. apply Hn. done.
  - rewrite lookup_insert_ne in Hl by done. apply Ho; [done|done|]. apply Hs; done.
Qed.

Lemma prels_same h cs cst v v' :
  h ∈ c_app c -> prels cs v -> (forall ps, cst <> CSProc ps) ->
  pv_live v' = pv_live v -> pv_tms v' = pv_tms v -> prels (<[h_name h := cst]> cs) v'.
Proof.
  intros Happ Hs Hn H1 H2. eapply prels_put; [done|exact Hs| |].
  - intros ps ->. destruct (Hn ps). done.
  - intros ps hd _ _. unfold prel. rewrite H1, H2. done.
Qed.

Lemma prels_ext cs v v' : pv_live v' = pv_live v -> pv_tms v' = pv_tms v -> prels cs v -> prels cs v'.
Proof. intros H1 H2 H hd ps Hin Hl. unfold prel. rewrite H1, H2. apply H; done. Qed.

Lemma balanced_app q envs v : balanced q v -> filter is_timeout envs = [] -> balanced (q ++ envs) v.
Proof. intros H E. unfold balanced. rewrite filter_app, E, app_nil_r. exact H. Qed.

(** ** Running a process *)
Definition mirrors_p (v0 : PView) (h : Handler) (i : string) (g : GState) (s : PScope) (x : list Fact) : Prop :=
  exists p, proc_view x = set_pend v0 (Some p) /\ pp_h p = h_id h /\ pp_i p = i /\
    later (pv_now v0) (pp_tms p) = ps_pending s /\ due (pv_now v0) (pp_tms p) = ps_ready s /\
    pp_ended p = ps_ended s /\
    Forall (fun t => tmo_ok (h_id h) i t /\ e_created t = pv_now v0) (pp_tms p) /\
    Forall (fun e => ~ is_timeout e) (ps_commands s).

Lemma pp_on_set v p g h i : pp_h p = h -> pp_i p = i -> pp_on h i g (set_pend v (Some p)) = set_pend v (Some (g p)).
Proof. intros <- <-. unfold pp_on. cbn. rewrite decide_True; done. Qed.

Lemma mirrors_ok v0 o h i env :
  POK proc_check snoc o h (pv_now v0) env i (mirrors_p v0 h i).
Proof.
  assert (Hsc : forall g s x f, mirrors_p v0 h i g s x -> proc_instance f = Some (h_id h, i) -> proc_check x f).
  { intros g s x f (p & H1 & H2 & H3 & _) Hf. unfold proc_check.
    repeat apply conj; intros *; intros Hf'; try (subst f; discriminate Hf).
    rewrite Hf in Hf'. injection Hf' as <- <-. rewrite H1. cbn. eauto. }
  constructor.
  - done.
  - intros f g s x (p & H). exists p. exact H.
  - intros g s x HM He f. split; [eapply Hsc; [exact HM|done]|].
    destruct HM as (p & H1 & H2 & H3 & H4 & H5 & H6 & H7 & H8). eexists.
    unfold snoc. rewrite proc_view_snoc, H1. subst f. cbn -[pp_on]. rewrite pp_on_set by done.
    split; [reflexivity|]. cbn. done.
  - intros g s x b g' mid HM He _ _ _ f. split; [eapply Hsc; [exact HM|done]|].
    destruct HM as (p & H1 & H2 & H3 & H4 & H5 & H6 & H7 & H8). eexists.
    unfold snoc. rewrite proc_view_snoc, H1. subst f. cbn -[pp_on]. rewrite pp_on_set by done.
    split; [reflexivity|]. cbn. repeat split; try done. apply Forall_app. split; [done|]. constructor; [done|constructor].
  - intros g s x b t g' mid HM He _ _ _ f. split; [eapply Hsc; [exact HM|done]|].
    destruct HM as (p & H1 & H2 & H3 & H4 & H5 & H6 & H7 & H8). eexists.
    unfold snoc. rewrite proc_view_snoc, H1. subst f. cbn -[pp_on]. rewrite pp_on_set by done.
    split; [reflexivity|]. cbn. split; [done|]. split; [done|]. unfold ps_add_tmo, later, due.
    rewrite !filter_app. fold (later (pv_now v0) (pp_tms p)) (due (pv_now v0) (pp_tms p)). rewrite H4, H5.
    rewrite !filter_cons, !filter_nil. cbn [e_sched p_tmo new_timeout].
    assert (Hf : Forall (fun t => tmo_ok (h_id h) i t /\ e_created t = pv_now v0)
      (pp_tms p ++ [p_tmo h (pv_now v0) env i mid b t])).
    { apply Forall_app. split; [done|]. constructor; [done|constructor]. }
    destruct (pv_now v0 <? t)%Z eqn:Et.
    + apply Z.ltb_lt in Et. rewrite decide_True by done. rewrite decide_False by lia. cbn.
      rewrite app_nil_r. done.
    + apply Z.ltb_ge in Et. rewrite decide_False by lia. rewrite decide_True by done. cbn.
      rewrite app_nil_r. done.
  - intros g s x HM He f. split; [eapply Hsc; [exact HM|done]|].
    destruct HM as (p & H1 & H2 & H3 & H4 & H5 & H6 & H7 & H8). eexists.
    unfold snoc. rewrite proc_view_snoc, H1. subst f. cbn -[pp_on]. rewrite pp_on_set by done.
    split; [reflexivity|]. cbn. done.
  - intros g s x str HM f. split; [eapply Hsc; [exact HM|done]|].
    destruct HM as (p & H). exists p. unfold snoc. rewrite proc_view_snoc. exact H.
Qed.

(** ** Splitting at the first timeout that is not due *)
Lemma p_split_spec now l :
  chronological l -> p_split now l = (due now l, later now l).
Proof.
  unfold due, later. induction 1 as [|t l Hs IH Hall]; [done|]. cbn [p_split].
  destruct (now <? e_sched t)%Z eqn:E.
  - apply Z.ltb_lt in E. rewrite !filter_cons. rewrite decide_False by lia. rewrite decide_True by done.
    f_equal.
    + symmetry. 
      clear IH Hs. induction Hall as [|t' l H _ IH]; [done|]. rewrite filter_cons, decide_False by lia. exact IH.
    + f_equal. clear IH Hs. induction Hall as [|t' l H _ IH]; [done|]. rewrite filter_cons, decide_True by lia.
      f_equal. exact IH.
  - apply Z.ltb_ge in E. rewrite IH. rewrite !filter_cons. rewrite decide_True by done. rewrite decide_False by lia. done.
Qed.

Lemma sorted_filter {A} (R : A -> A -> Prop) (Q : A -> Prop) `{forall a, Decision (Q a)} l :
  StronglySorted R l -> StronglySorted R (filter Q l).
Proof.
  induction 1 as [|a l Hs IH Hall]; [constructor|]. rewrite filter_cons. destruct (decide (Q a)); [|done].
  constructor; [done|]. apply Forall_forall. intros b Hb. apply elem_of_list_filter in Hb as [_ Hb].
  rewrite Forall_forall in Hall. apply Hall. done.
Qed.

Lemma Forall_filter {A} (R : A -> Prop) (Q : A -> Prop) `{forall a, Decision (Q a)} l :
  Forall R l -> Forall R (filter Q l).
Proof.
  intros Hf. apply Forall_forall. intros b Hb. apply elem_of_list_filter in Hb as [_ Hb].
  rewrite Forall_forall in Hf. apply Hf. done.
Qed.

Lemma filter_all {A} (Q : A -> Prop) `{forall a, Decision (Q a)} l : Forall Q l -> filter Q l = l.
Proof. induction 1 as [|a l Ha _ IH]; [done|]. rewrite filter_cons, decide_True by done. f_equal. exact IH. Qed.
Lemma filter_none {A} (Q : A -> Prop) `{forall a, Decision (Q a)} l : Forall (fun a => ~ Q a) l -> filter Q l = [].
Proof. induction 1 as [|a l Ha _ IH]; [done|]. rewrite filter_cons, decide_False by done. exact IH. Qed.

(** ** What other controllers return *)
Lemma a_handle_events o h a now env g hist g' hist' fs envs e :
  a_handle o h a now env g hist = (g', hist', fs, HRet envs e) -> Forall (fun e => ~ is_timeout e) envs.
Proof.
  intros H. apply a_handle_cases in H. remember (HRet envs e) as r' eqn:Er.
  destruct H as [|i r0 r ex f g1 s fs1 v _ _ _ _ _ _ _ Hrun]; [done|].
  unfold a_result in Er. destruct (enrich _ _ _ _ v); [done|]. injection Er as <- <-.
  assert (K : AOK (fun _ _ => True) (fun (x : unit) _ => x) o h a now env i
    (fun _ s _ => Forall (fun e => ~ is_timeout e) (as_events s))).
  { constructor; cbn; try done.
    - intros g2 s2 _ b r2 v2 Hf _ _. destruct (as_set_root_same s2 r2) as (-> & _). exact Hf.
    - intros g2 s2 _ b r2 g3 mid Hf _ _ _ _ _. split; [done|]. destruct (as_set_root_same s2 r2) as (-> & _).
      apply Forall_app. split; [done|]. constructor; [done|constructor]. }
  eapply a_run_sim with (x := tt) in Hrun; [|exact K|constructor]. apply Hrun.
Qed.

Lemma i_handle_events o h i now env g g' fs envs e :
  i_handle o h i now env g = (g', fs, HRet envs e) -> Forall (fun e => ~ is_timeout e) envs.
Proof.
  intros H. apply i_handle_cases in H. remember (HRet envs e) as r' eqn:Er.
  destruct H as [|g1 evs fs1 r _ Hrun]; [done|].
  unfold i_result in Er. destruct r as [e'|v]; [|done]. injection Er as <- <-.
  assert (K : IOK (fun _ _ => True) (fun (x : unit) _ => x) o h now env
    (fun _ evs _ => Forall (fun e => ~ is_timeout e) evs)).
  { constructor; cbn; try done.
    intros g2 s2 _ b g3 mid Hf _ _ _. split; [done|]. apply Forall_app. split; [done|]. constructor; [done|constructor]. }
  eapply i_run_sim with (x := tt) in Hrun; [|exact K|constructor]. apply Hrun.
Qed.

(** ** The simulation *)
Lemma prel_set_pend v p ps h : prel (set_pend v p) ps h <-> prel v ps h.
Proof. done. Qed.

Lemma prels_insert_same h cs ps v :
  prels cs v -> cs !! h_name h = Some (CSProc ps) -> prels (<[h_name h := CSProc ps]> cs) v.
Proof. intros H Hl. rewrite insert_id by done. exact H. Qed.

Lemma instance_of_origin e i : instance_of e = Some i -> origin_instance e = i.
Proof. unfold instance_of, origin_instance. destruct (e_origin e); cbn; congruence. Qed.

Lemma tmo_ok_instance h i e : tmo_ok h i e -> instance_of e = Some i /\ origin_instance e = i.
Proof. intros [_ H]. unfold instance_of, origin_instance. rewrite H. done. Qed.

(** Storing the instance and its timeouts. *)
Lemma commit_update v p o ps s h i r0 :
  sort_ok o -> prel v ps (h_id h) ->
  pp_h p = h_id h -> pp_i p = i -> pp_ended p = false ->
  later (pv_now v) (pp_tms p) = ps_pending s ->
  Forall (fun t => tmo_ok (h_id h) i t /\ e_created t = pv_now v) (pp_tms p) -> ps_root s = r0 ->
  prel (proc_commit v p) (p_update o i s ps) (h_id h).
Proof.
  intros Hs (H1 & H2 & H3 & H4) Eh Ei Ee El Hf Hr. unfold proc_commit. rewrite Ee, Eh, Ei.
  destruct (Hs (pc_timeouts ps ++ ps_pending s)) as [Hp Hso].
  split; [|split; [|split]]; cbn.
  - intros i'. destruct (decide (i' = i)) as [->|E].
    + rewrite put2_same, lookup_insert. rewrite bool_decide_true; eauto.
    + rewrite put2_other_i by done. rewrite lookup_insert_ne by done. apply H1.
  - rewrite put_same, El, <- H2. exact Hp.
  - exact Hso.
  - rewrite Hp. apply Forall_app. split.
    + eapply Forall_impl; [exact H4|]. intros t (i' & Ht & Hlt & Hi). exists i'. split; [done|]. split; [done|].
      destruct (decide (i' = i)) as [->|E]; [rewrite lookup_insert; eauto|rewrite lookup_insert_ne by done; done].
    + rewrite <- El. unfold later. apply Forall_forall. intros t Ht. apply elem_of_list_filter in Ht as [Hlt Ht].
      rewrite Forall_forall in Hf. destruct (Hf t Ht) as [H5 H6]. exists i. split; [done|]. split; [lia|].
      rewrite lookup_insert. eauto.
Qed.

Lemma others_spec h l i Q :
  Forall (fun t => exists i, tmo_ok h i t /\ Q i t) l ->
  filter (fun e => origin_instance e <> i) l = others i l.
Proof.
  intros Hf. unfold others. induction Hf as [|t l (j & Htm & _) _ IH]; [done|]. rewrite !filter_cons, IH.
  apply tmo_ok_instance in Htm as [-> ->].
  destruct (decide (j = i)) as [->|E].
  - rewrite decide_False by tauto. rewrite decide_False by tauto. done.
  - rewrite decide_True by done. rewrite decide_True by congruence. done.
Qed.

Lemma commit_delete v p ps h i :
  prel v ps (h_id h) ->
  pp_h p = h_id h -> pp_i p = i -> pp_ended p = true ->
  prel (proc_commit v p) (if bool_decide (is_Some (pc_instances ps !! i)) then p_delete i ps else ps) (h_id h).
Proof.
  intros (H1 & H2 & H3 & H4) Eh Ei Ee. unfold proc_commit. rewrite Ee, Eh, Ei.
  assert (Hd : (if bool_decide (is_Some (pc_instances ps !! i)) then p_delete i ps else ps) = p_delete i ps).
  { case_bool_decide as E; [done|]. destruct ps as [insts tms]. unfold p_delete. cbn in *. f_equal.
    - symmetry. apply delete_notin. destruct (insts !! i); [destruct E; eauto|done].
    - symmetry. apply filter_all. eapply Forall_impl; [exact H4|]. intros t (j & Ht & _ & Hj).
      apply tmo_ok_instance in Ht as [_ ->]. intros ->. done. }
  rewrite Hd. unfold p_delete. split; [|split; [|split]]; cbn.
  - intros i'. destruct (decide (i' = i)) as [->|E].
    + rewrite put2_same, lookup_delete. done.
    + rewrite put2_other_i by done. rewrite lookup_delete_ne by done. apply H1.
  - rewrite put_same. rewrite (others_spec _ _ _ _ H4). unfold others. rewrite H2. done.
  - apply sorted_filter. done.
  - apply Forall_forall. intros t Ht. apply elem_of_list_filter in Ht as [Hne Ht].
    rewrite Forall_forall in H4. destruct (H4 t Ht) as (j & Hj & Hlt & Hi). exists j. split; [done|]. split; [done|].
    apply tmo_ok_instance in Hj as [_ Hj]. rewrite lookup_delete_ne; [done|congruence].
Qed.

Lemma commit_other v p ps h hd :
  pp_h p = h_id h -> h_name hd <> h_name h -> prel v ps (h_id hd) -> prel (proc_commit v p) ps (h_id hd).
Proof.
  intros Eh Hne H. assert (Hid : h_id hd <> h_id h) by (unfold h_id; congruence).
  unfold proc_commit. rewrite Eh. destruct (pp_ended p); unfold prel; cbn;
    rewrite put_other by done; (split; [|apply H]); intros i; rewrite put2_other_h by done; apply H.
Qed.

Lemma prel_mutation v ps h i s : prel v ps h -> prel v (p_store_mutation i s ps) h.
Proof.
  intros (H1 & H2 & H3 & H4). unfold p_store_mutation. destruct (pc_instances ps !! i) as [r|] eqn:E; [|done].
  assert (Hl : forall j, is_Some (<[i := ps_root s]> (pc_instances ps) !! j) <-> is_Some (pc_instances ps !! j)).
  { intros j. destruct (decide (j = i)) as [->|Ej].
    - rewrite lookup_insert, E. split; eauto.
    - rewrite lookup_insert_ne by done. done. }
  split; [|split; [done|split; [done|]]]; cbn.
  - intros j. rewrite H1. apply bool_decide_ext. rewrite Hl. done.
  - eapply Forall_impl; [exact H4|]. intros t (j & Ht & Hlt & Hj). exists j. rewrite Hl. done.
Qed.

Lemma proc_handling o oo cy env h pi hs q st x ps g' ps' fs r :
  PM oo cy env (Some h :: hs) q st x -> h ∈ c_app c ->
  h_impl h = ImplProc pi -> es_cs st !! h_name h = Some (CSProc ps) -> sort_ok o ->
  p_handle o h pi (oo_now oo) env (es_g st) ps = (g', ps', fs, r) ->
  after_handle proc_check snoc PI PM oo cy env hs q (st_put st g' h (CSProc ps')) x (handling h env fs r) r.
Proof.
  intros (HR & Hnow & Hbal) Happ Hi Hl Hs Hp.
  pose proof (HR h ps Happ Hl) as Hrel.
  assert (Hof : process_of c (h_id h) pi) by (exists h; done).
  pose proof (p_handle_owned _ _ _ _ _ _ _ _ _ _ _ Hp) as Hown.
  apply p_handle_cases in Hp. unfold after_handle. rewrite foldl_snoc_app.
  set (x1 := x ++ [HandlingBegun (h_id h) env]).
  assert (Hx1 : proc_view x1 = set_pend (proc_view x) None) by (subst x1; rewrite proc_view_snoc; done).
  assert (Hinst : forall y f, proc_view y = set_pend (proc_view x) None ->
    (forall i r e, f = ProcessInstanceLoaded (h_id h) i r e -> is_Some (pc_instances ps !! i)) ->
    (forall i e, f = ProcessInstanceNotFound (h_id h) i e -> pc_instances ps !! i = None) ->
    (forall i r e, f = ProcessInstanceBegun (h_id h) i r e -> pc_instances ps !! i = None /\ r = pr_new pi) ->
    (forall i e, f = ProcessTimeoutIgnored (h_id h) i e -> pc_instances ps !! i = None) ->
    owned HTProcess h f -> proc_instance f = None -> proc_check y f).
  { intros y f Hy H1 H2 H3 H4 H5 H6.
    assert (Hlive : forall i, live y (h_id h) i = bool_decide (is_Some (pc_instances ps !! i))).
    { intros i. unfold live. rewrite Hy. apply Hrel. }
    unfold owned in H5. unfold proc_check.
    repeat apply conj; intros *; intros Hf; try (subst f; cbn in H5; injection H5 as H5; try subst h0; clear H6).
    - rewrite Hlive, bool_decide_true; [done|]. eapply H1. reflexivity.
    - rewrite Hlive. erewrite H2 by reflexivity. done.
    - destruct (H3 _ _ _ eq_refl) as [H7 ->]. rewrite Hlive, H7. split; [done|]. eauto.
    - rewrite Hlive. erewrite H4 by reflexivity. done.
    - congruence.
    - subst f; discriminate H5.
    - subst f; discriminate H5.
    - subst f; discriminate H5. }
  destruct Hp as [g' v Hg|g' e Hg Hk|g' Hg Hk|og Hk Ho Hnone|g' i v Hg Hk Hnone Hnil|g1 i r pre g' s fs res Hc Hg Hk Hpre Hrun].
  - (* rejected *)
    split; [split; [apply check_unchecked; done|done]|].
    unfold PI. unfold handling. cbn [app es_cs st_put]. fold x1. rewrite Hx1. apply prels_insert_same; done.
  - (* routing error *)
    split; [split; [apply check_unchecked; done|split; [apply check_unchecked; done|done]]|].
    unfold handling. cbn [app]. rewrite cons_middle, app_assoc. fold x1.
    unfold PM, PO'. rewrite proc_view_snoc, Hx1. cbn [es_cs st_put].
    split; [apply prels_insert_same; done|]. split; [done|]. apply balanced_app; done.
  - (* event ignored *)
    split; [split; [apply check_unchecked; done|split; [apply check_unchecked; done|split; [apply check_unchecked; done|done]]]|].
    unfold handling. cbn [app]. rewrite cons_middle, app_assoc. fold x1.
    rewrite cons_middle, app_assoc.
    unfold PM, PO'. rewrite proc_view_snoc, proc_view_snoc, Hx1. cbn [es_cs st_put].
    split; [apply prels_insert_same; done|]. split; [done|]. apply balanced_app; done.
  - (* timeout ignored *)
    split.
    + split; [apply check_unchecked; done|]. split; [|split; [apply check_unchecked; done|done]].
      apply Hinst; try done. intros i e [= <- _]. done.
    + unfold handling. cbn [app]. rewrite cons_middle, app_assoc. fold x1.
      rewrite cons_middle, app_assoc.
      unfold PM, PO'. rewrite proc_view_snoc, proc_view_snoc, Hx1. cbn [es_cs st_put].
      split; [apply prels_insert_same; done|]. split; [done|]. apply balanced_app; done.
  - (* nil root *)
    split.
    + split; [apply check_unchecked; done|]. split; [|split; [|done]].
      * apply Hinst; try done. intros j e [= <- _]. done.
      * apply Hinst; try done.
        -- fold x1. unfold snoc. rewrite proc_view_snoc. fold x1. rewrite Hx1. done.
        -- intros j r e [= <- <- _]. done.
    + unfold handling. rewrite app_nil_r. rewrite cons_middle, app_assoc. fold x1.
      rewrite cons_middle, app_assoc. unfold PI. rewrite !proc_view_snoc, Hx1. cbn [es_cs st_put].
      apply prels_insert_same; [|done]. eapply prels_ext; [| |exact HR]; done.
  - (* the handler runs *)
    apply Forall_app in Hown as [_ Hown].
    set (v0 := set_pend (proc_view x) None).
    assert (Hpre' : good proc_check snoc x1 pre /\
      proc_view (x1 ++ pre) = set_pend v0 (Some (mkPPend (h_id h) i [] false))).
    { destruct Hpre as [[Hin ->]|(Hin & Hnew & ->)].
      - split.
        + split; [|done]. apply Hinst; try done. intros j r' e [= <- _ _]. rewrite Hin. eauto.
        + rewrite proc_view_snoc, Hx1. done.
      - split.
        + split; [|split; [|done]].
          * apply Hinst; try done. intros j e [= <- _]. done.
          * apply Hinst; try done.
            -- unfold snoc. rewrite proc_view_snoc, Hx1. done.
            -- intros j r' e [= <- <- _]. done.
        + rewrite cons_middle, app_assoc, !proc_view_snoc, Hx1. done. }
    destruct Hpre' as [Hgpre Hvpre].
    assert (HM0 : mirrors_p v0 h i g1 (mkPScope r false [] [] []) (x1 ++ pre)).
    { exists (mkPPend (h_id h) i [] false). rewrite Hvpre. split; [done|]. cbn.
      repeat split; try constructor. }
    assert (Hnow0 : pv_now v0 = oo_now oo) by done. rewrite <- Hnow0 in Hrun.
    destruct (p_run_sim _ _ _ _ _ _ _ _ _ (mirrors_ok v0 o h i env) _ _ _ _ _ _ _ _ HM0 Hrun) as [Hgrun HM1].
    rewrite foldl_snoc_app in HM1.
    assert (Hgood : good proc_check snoc x (HandlingBegun (h_id h) env :: pre ++ fs)).
    { split; [apply check_unchecked; done|]. apply good_app. split; [exact Hgpre|].
      rewrite foldl_snoc_app. exact Hgrun. }
    destruct HM1 as (p & Hv & Eph & Epi & Epl & Epd & Epe & Hpt & Hpc).
    assert (Hgh : forall res', good proc_check snoc x (handling h env (pre ++ fs) res')).
    { intros res'. unfold handling. rewrite app_comm_cons. apply good_app. split; [exact Hgood|].
      destruct res'; [|done]. split; [apply check_unchecked; destruct err; done|done]. }
    split; [apply Hgh|].
    assert (Hend : forall e, x ++ handling h env (pre ++ fs) (HRet [] e) =
      ((x1 ++ pre) ++ fs) ++ [HandlingCompleted (h_id h) env e]).
    { intros e. unfold handling, x1. rewrite <- !app_assoc. done. }
    destruct res as [[e|]|v]; cbn [p_result p_commit].
    + (* error *)
      unfold PM, PO'. rewrite Hend, proc_view_snoc, Hv. cbn -[v0].
      split; [|split; [done|apply balanced_app; done]].
      eapply prels_put; [done|exact HR| |done]. intros ps1 [= <-]. apply prel_mutation. exact Hrel.
    + (* success *)
      assert (Hout : x ++ handling h env (pre ++ fs)
        (HRet (ps_commands s ++ (if ps_ended s then [] else ps_ready s)) None) =
        ((x1 ++ pre) ++ fs) ++ [HandlingCompleted (h_id h) env None]) by apply (Hend None).
      unfold PM, PO'. rewrite Hout, proc_view_snoc, Hv. cbn -[v0].
      rewrite decide_True by done.
      assert (Hcommit : proc_commit (set_pend v0 (Some p)) p = proc_commit (proc_view x) p) by done.
      rewrite Hcommit. split; [|split].
      * eapply prels_put; [done|exact HR| |].
        -- intros ps1 [= <-]. rewrite <- Epe. destruct (pp_ended p) eqn:Ee.
           ++ apply commit_delete; done.
           ++ eapply commit_update; [done|exact Hrel|done|done|done|exact Epl|exact Hpt|reflexivity].
        -- intros ps1 hd _ Hne. eapply commit_other; eassumption.
      * unfold proc_commit. destruct (pp_ended p); exact Hnow.
      * unfold balanced. rewrite filter_app, filter_app, (filter_none _ _ Hpc). cbn.
        rewrite <- Epe. unfold proc_commit. unfold balanced in Hbal.
        destruct (pp_ended p); cbn -[v0].
        -- rewrite app_nil_r. exact Hbal.
        -- rewrite <- Epd. rewrite (filter_all is_timeout (due _ _)).
           ++ rewrite Hbal, <- app_assoc. done.
           ++ unfold due. apply Forall_filter. eapply Forall_impl; [exact Hpt|]. intros t [[Ht _] _]. exact Ht.
    + (* panic *)
      unfold PI. assert (Hpan : x ++ handling h env (pre ++ fs) (p_result h env (p_method pi env i).1 s (inr v)) =
        (x1 ++ pre) ++ fs).
      { unfold handling, x1. cbn [p_result]. rewrite app_nil_r, <- !app_assoc. done. }
      cbn [p_result] in Hpan. rewrite Hpan, Hv. cbn -[v0].
      eapply prels_put; [done|exact HR| |done]. intros ps1 [= <-]. apply prel_mutation. exact Hrel.
Qed.

Lemma not_timeout_filter (e : Env) : ~ is_timeout e -> filter is_timeout [e] = [].
Proof. intros H. rewrite filter_cons, decide_False by done. done. Qed.

Lemma proc_sim : SimOK c proc_check snoc clear PI PO PM PT.
Proof.
  assert (Hother : forall oo cy env h t hs q st g cst x fs r,
    PM oo cy env (Some h :: hs) q st x -> h ∈ c_app c -> t <> HTProcess -> (forall ps, cst <> CSProc ps) ->
    Forall (owned t h) fs ->
    (forall envs e, r = HRet envs e -> Forall (fun e => ~ is_timeout e) envs) ->
    after_handle proc_check snoc PI PM oo cy env hs q (st_put st g h cst) x (handling h env fs r) r).
  { intros oo cy env h t hs q st g cst x fs r (HR & Hnow & Hbal) Happ Ht Hcst Hown Henvs.
    destruct (other_handling_p x t h env fs r Hown Ht) as [Hg [p Hp]]. split; [exact Hg|].
    rewrite foldl_snoc_app. destruct r as [envs e|v].
    - unfold PM, PO'. rewrite Hp. split; [|split; [done|]].
      + cbn [es_cs st_put]. eapply prels_same; [done|exact HR|done|done|done].
      + apply balanced_app; [done|]. apply filter_none. eapply Henvs. reflexivity.
    - unfold PI. rewrite Hp. cbn [es_cs st_put]. eapply prels_same; [done|exact HR|done|done|done]. }
  assert (Hinert : forall cs x f, prels cs (proc_view x) -> inert f -> prels cs (proc_view (snoc x f))).
  { intros cs x f H Hf. unfold snoc. rewrite proc_view_snoc, Hf. exact H. }
  constructor; unfold PI, PO, PM, PT, PO'.
  - intros st st' x [_ <-]. done.
  - intros oo cy q st st' x [_ <-]. done.
  - intros oo hs q st st' x [_ <-]. done.
  - done.
  - intros st x HR hd ps Hin Hl. cbn in Hl. rewrite lookup_fmap in Hl.
    destruct (es_cs st !! h_name hd) as [[]|]; cbn in Hl; try discriminate Hl. injection Hl as <-.
    split; [|split; [done|split; constructor]]. intros i. cbn. rewrite lookup_empty. done.
  - intros o oo m hs st x g id HR _ Hk _ _. split; [apply check_unchecked; done|].
    unfold snoc. rewrite proc_view_snoc. split; [|split; [done|]].
    + eapply prels_ext; [| |exact HR]; done.
    + unfold balanced. cbn [pv_due pv_sent]. rewrite not_timeout_filter by done. done.
  - intros oo env q st x err (HR & Hnow & Hbal) Hq. split.
    + unfold proc_check. repeat apply conj; intros *; intros Hf; try discriminate Hf. intros Hne.
      injection Hf as _ <- _ _. destruct Hq as [->|[s Hs]]; [|destruct (Hne s); done].
      unfold balanced in Hbal. rewrite filter_nil, app_nil_r in Hbal. symmetry. done.
    + apply Hinert; [done|]. intros v. done.
  - intros oo order st x HR _. split; [apply check_unchecked; done|].
    unfold snoc. rewrite proc_view_snoc. split; [|split; [done|unfold balanced; reflexivity]].
    eapply prels_ext; [| |exact HR]; done.
  - intros oo h hs q st x r (HR & Hnow & Hbal) _ _. split; [apply check_unchecked; done|].
    unfold snoc. rewrite proc_view_snoc. done.
  - intros oo h hs q st x cs (HR & Hnow & Hbal) Happ _ Hl Hm Ht. cbn [st_put es_cs].
    rewrite (insert_id _ _ _ Hl).
    destruct (other_ticking_p x HTAggregate h [] (HRet [] None)) as [H1 H2]; [constructor|done| |].
    { destruct Ht as [-> | ->]; done. }
    split; [exact H1|]. rewrite foldl_snoc_app. unfold ticking in H2. cbn [app] in H2. rewrite H2. done.
  - (* a process ticks *)
    intros oo h pi hs q st x ps ps' ready (HR & Hnow & Hbal) Happ _ Hi Hl Ht.
    pose proof (HR h ps Happ Hl) as (H1 & H2 & H3 & H4).
    split; [split; [apply check_unchecked; done|split; [apply check_unchecked; done|done]]|].
    rewrite foldl_snoc_app, cons_middle, app_assoc, !proc_view_snoc.
    assert (Hty : hid_type (h_id h) = HTProcess) by (cbn; unfold h_type; rewrite Hi; done).
    cbn [proc_step]. rewrite decide_True by done.
    unfold p_tick in Ht. rewrite (p_split_spec _ _ H3) in Ht. injection Ht as <- <-.
    cbn [es_cs st_put]. split; [|split; [done|]].
    + eapply prels_put; [done|exact HR| |].
      * intros ps1 [= <-]. split; [exact H1|]. cbn. rewrite put_same. split; [|split].
        -- unfold later. rewrite H2, Hnow. done.
        -- apply sorted_filter. done.
        -- apply Forall_filter. exact H4.
      * intros ps1 hd _ Hne Hrel. unfold prel. cbn. rewrite put_other; [done|]. unfold h_id. congruence.
    + unfold balanced in *. cbn. rewrite filter_app, Hbal, <- app_assoc. f_equiv. f_equiv.
      rewrite (filter_all is_timeout).
      * unfold due. rewrite H2, Hnow. done.
      * unfold due. apply Forall_filter. eapply Forall_impl; [exact H4|]. intros t (i & [Hk _] & _). exact Hk.
  - intros oo h j hs q st x last g' last' fs r (HR & Hnow & Hbal) Happ _ Hi Hl Hj.
    apply j_tick_facts in Hj as Hj'. destruct Hj' as (_ & _ & Hnil). apply j_tick_owned in Hj.
    destruct (other_ticking_p x HTProjection h fs r Hj) as [H1 H2]; [done|unfold h_type; rewrite Hi; done|].
    split; [exact H1|]. rewrite foldl_snoc_app.
    assert (Hp : prels (<[h_name h := CSProj last']> (es_cs st)) (proc_view (x ++ ticking h fs r))).
    { eapply prels_same; [done|exact HR|done| |]; rewrite H2; done. }
    destruct r as [envs e|v]; [|exact Hp]. split; [exact Hp|]. rewrite H2. split; [done|].
    apply balanced_app; [done|]. rewrite (Hnil _ _ eq_refl). done.
  - done.
  - intros oo hs q st x err (HR & Hnow & Hbal) [s Hs]. split.
    + unfold proc_check. repeat apply conj; intros *; intros Hf; try discriminate Hf. intros Hne.
      injection Hf as <- _ _. destruct (Hne s). done.
    + apply Hinert; [done|]. intros v. done.
  - intros oo q st x err (HR & Hnow & Hbal) Hq. split.
    + unfold proc_check. repeat apply conj; intros *; intros Hf; try discriminate Hf. intros Hne.
      injection Hf as <- _ _. destruct Hq as [->|[s Hs]]; [|destruct (Hne s); done].
      unfold balanced in Hbal. rewrite filter_nil, app_nil_r in Hbal. symmetry. done.
    + apply Hinert; [done|]. intros v. done.
  - intros oo cy env q st x (HR & _) _. exact HR.
  - intros oo cy env q hs st x (HR & Hnow & Hbal) _. split.
    + unfold proc_check. repeat apply conj; intros *; intros Hf; try discriminate Hf. intros Hk.
      injection Hf as <-. unfold balanced in Hbal. rewrite filter_cons, decide_True in Hbal by done. rewrite Hbal.
      apply submseteq_skips_l. apply submseteq_skip, submseteq_nil_l.
    + unfold snoc. rewrite proc_view_snoc. cbn [proc_step]. unfold balanced in *. rewrite filter_cons in Hbal.
      destruct (decide (is_timeout env)) as [Hk|Hk].
      * unfold is_timeout in Hk. rewrite Hk. split; [|split; [done|]].
        -- eapply prels_ext; [| |exact HR]; done.
        -- cbn. rewrite Hbal, <- app_assoc. done.
      * unfold is_timeout in Hk. destruct (m_kind (e_msg env)); done.
  - intros oo cy env hs q st x (HR & _). exact HR.
  - intros oo cy env h hs q st x r (HR & Hnow & Hbal) _ _. split; [apply check_unchecked; done|].
    unfold snoc. rewrite proc_view_snoc. done.
  - intros o oo cy env h a hs q st x hist g' hist' fs r HR Happ _ Hi Hl Hs Ha.
    apply a_handle_owned in Ha as Hown. eapply Hother; [exact HR|done| |done|exact Hown|]; [done|].
    intros envs e ->. apply a_handle_events in Ha. exact Ha.
  - intros o oo cy env h pi hs q st x ps g' ps' fs r HR Happ _ Hi Hl Hs Hp.
    eapply proc_handling; eassumption.
  - intros o oo cy env h i hs q st x g' fs r HR Happ _ Hi Hl Hs Hp.
    apply i_handle_owned in Hp as Hown. eapply Hother; [exact HR|done| |done|exact Hown|]; [done|].
    intros envs e ->. apply i_handle_events in Hp. exact Hp.
  - intros o oo cy env h j hs q st x last g' fs r HR Happ _ Hi Hl Hs Hp.
    apply j_handle_owned in Hp as Hown. eapply Hother; [exact HR|done| |done|exact Hown|]; [done|].
    intros envs e ->. apply j_handle_facts in Hp as (_ & _ & Hnil). rewrite (Hnil _ _ eq_refl). constructor.
  - intros oo cy env q st x err (HR & Hnow & Hbal). split; [apply check_unchecked; done|].
    unfold snoc. rewrite proc_view_snoc. done.
Qed.

End ProcProof.
