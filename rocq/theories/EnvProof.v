(** * Proofs about envelopes: IDs, causes, stamps, timeouts' due times. *)
From Verif Require Import TraceSpec ProgSim.

Section TraceFacts.
Context {P : Params}.

Definition snoc (x : list Fact) (f : Fact) : list Fact := x ++ [f].
Definition clear (x : list Fact) : list Fact := [].

Lemma foldl_snoc_app x fs : foldl snoc x fs = x ++ fs.
Proof.
  revert x; induction fs as [|f fs IH]; intros x; cbn; [rewrite app_nil_r; done|].
  rewrite IH. unfold snoc. rewrite <- app_assoc. done.
Qed.

Lemma since_reset_upd evs x :
  foldl (upd_ev snoc clear) x evs =
  foldl (fun fs ev => match ev with EvFact f => fs ++ [f] | EvReset => [] end) x evs.
Proof. revert x; induction evs as [|[f|] evs IH]; intros x; cbn; [done|apply IH|apply IH]. Qed.

Lemma good_evs_occurs (ck : list Fact -> Fact -> Prop) evs pre f :
  good_evs ck snoc clear [] evs -> occurs evs pre f -> ck pre f.
Proof.
  intros Hg (before & after & Hevs & ->).
  eapply good_evs_at in Hg; [|exact Hevs]. rewrite since_reset_upd in Hg. exact Hg.
Qed.

Lemma fresh_of_snoc x f : fresh_of (x ++ [f]) = fresh_of x ++ newly f.
Proof. unfold fresh_of. rewrite foldl_snoc. done. Qed.
Lemma engine_time_snoc x f : engine_time (x ++ [f]) = engine_time_step (engine_time x) f.
Proof. unfold engine_time. rewrite foldl_snoc. done. Qed.
Lemma cycle_root_snoc x f : cycle_root (x ++ [f]) = cycle_root_step (cycle_root x) f.
Proof. unfold cycle_root. rewrite foldl_snoc. done. Qed.
Lemma in_handling_snoc x f : in_handling (x ++ [f]) = in_handling_step (in_handling x) f.
Proof. unfold in_handling. rewrite foldl_snoc. done. Qed.
Lemma scheduled_snoc x f : scheduled (x ++ [f]) = scheduled_step (scheduled x) f.
Proof. unfold scheduled. rewrite foldl_snoc. done. Qed.

Definition is_root (e : Env) : Prop := e_cause e = e_id e /\ e_corr e = e_id e /\ e_origin e = None.

Definition tree_ok (l : list Env) : Prop :=
  forall older e newer, l = older ++ e :: newer ->
    is_root e \/ exists p, p ∈ older /\ e_cause e = e_id p /\ e_corr e = e_corr p.

Lemma tree_ok_nil : tree_ok [].
Proof. intros [|] ? ?; done. Qed.

Lemma app_snoc_inv {A} (l older newer : list A) e e' :
  l ++ [e'] = older ++ e :: newer ->
  (newer = [] /\ e = e' /\ older = l) \/ (exists newer', newer = newer' ++ [e'] /\ l = older ++ e :: newer').
Proof.
  intros H. destruct newer as [|a newer0 _] using rev_ind.
  - left. apply app_inj_tail in H as [-> ->]. done.
  - right. rewrite app_comm_cons, app_assoc in H. apply app_inj_tail in H as [-> ->]. eauto.
Qed.

Lemma tree_ok_snoc l e :
  tree_ok l -> (is_root e \/ exists p, p ∈ l /\ e_cause e = e_id p /\ e_corr e = e_corr p) ->
  tree_ok (l ++ [e]).
Proof.
  intros Hl He older e' newer H. apply app_snoc_inv in H as [(-> & -> & ->)|(newer' & -> & ->)]; [done|].
  eapply Hl. done.
Qed.

Lemma tree_ok_prefix l l' : tree_ok (l ++ l') -> tree_ok l.
Proof.
  intros H older e newer ->. apply (H older e (newer ++ l')). rewrite <- app_assoc. done.
Qed.

Lemma Descends_weaken l l' e r : Descends l e r -> Descends (l ++ l') e r.
Proof.
  intros H. destruct H as [l r Hin H1 H2 H3|older e newer p r Hp Hc Hd].
  - apply Descends_root; [apply elem_of_app; auto|done|done|done].
  - rewrite <- app_assoc, <- app_comm_cons. eapply Descends_child; eassumption.
Qed.

Lemma tree_ok_descends l :
  tree_ok l -> forall e, e ∈ l -> exists r, Descends l e r /\ r ∈ l /\ is_root r /\ e_corr e = e_id r.
Proof.
  induction l as [|e' l IH] using rev_ind; intros Ht e Hin; [apply elem_of_nil in Hin; done|].
  specialize (IH (tree_ok_prefix _ _ Ht)).
  apply elem_of_app in Hin as [Hin|Hin].
  - destruct (IH _ Hin) as (r & H1 & H2 & H3 & H4). exists r.
    split; [apply Descends_weaken; done|]. split; [apply elem_of_app; auto|done].
  - apply elem_of_list_singleton in Hin as ->.
    destruct (Ht l e' [] eq_refl) as [Hr|(p & Hp & Hc & Hco)].
    + destruct Hr as (H1 & H2 & H3). exists e'.
      split; [apply Descends_root; [apply elem_of_app; right; left|done|done|done]|].
      split; [apply elem_of_app; right; left|]. split; [split; done|done].
    + destruct (IH _ Hp) as (r & H1 & H2 & H3 & H4). exists r.
      split; [exact (Descends_child l e' [] p r Hp Hc H1)|].
      split; [apply elem_of_app; auto|]. split; [done|]. congruence.
Qed.

Definition ids_ok (n : N) (l : list Env) : Prop :=
  exists ns, e_id <$> l = id_string <$> ns /\ StronglySorted N.lt ns /\ Forall (fun k => (k <= n)%N) ns.

Lemma ids_ok_nil n : ids_ok n [].
Proof. exists []. split; [done|]. split; constructor. Qed.

Lemma ids_ok_mono n n' l : (n <= n')%N -> ids_ok n l -> ids_ok n' l.
Proof.
  intros Hn (ns & H1 & H2 & H3). exists ns. split; [done|]. split; [done|].
  eapply Forall_impl; [exact H3|]. cbn. intros k Hk. lia.
Qed.

Lemma StronglySorted_snoc {A} (R : A -> A -> Prop) l a :
  StronglySorted R l -> Forall (fun b => R b a) l -> StronglySorted R (l ++ [a]).
Proof.
  induction l as [|b l IH]; intros Hs Hf; cbn.
  - constructor; constructor.
  - apply Forall_cons in Hf as [H1 H2]. apply StronglySorted_inv in Hs as [H3 H4].
    constructor; [apply IH; done|]. apply Forall_app. split; [done|]. constructor; [done|constructor].
Qed.

Lemma ids_ok_snoc o g g' mid l e :
  next_id o g = (g', mid) -> e_id e = mid -> ids_ok (g_next g) l -> ids_ok (g_next g') (l ++ [e]).
Proof.
  unfold next_id. intros [= <- <-] He (ns & H1 & H2 & H3). cbn.
  set (n := (g_next g + o_skew o (g_step g) + 1)%N).
  exists (ns ++ [n]). split; [rewrite !fmap_app, H1; cbn; rewrite He; done|]. split.
  - apply StronglySorted_snoc; [done|]. eapply Forall_impl; [exact H3|]. cbn. intros k Hk. lia.
  - apply Forall_app. split; [|constructor; [lia|constructor]].
    eapply Forall_impl; [exact H3|]. cbn. intros k Hk. lia.
Qed.

Lemma next_id_mono o g g' mid : next_id o g = (g', mid) -> (g_next g <= g_next g')%N.
Proof. unfold next_id. intros [= <- <-]. cbn. lia. Qed.

Lemma id_string_inj n m : (n < 2 ^ 64)%N -> (m < 2 ^ 64)%N -> id_string n = id_string m -> n = m.
Proof.
  unfold id_string. intros Hn Hm H. apply pretty_N_inj in H.
  rewrite !N.mod_small in H; done.
Qed.

Lemma ids_ok_NoDup n l : (n < 2 ^ 64)%N -> ids_ok n l -> NoDup (e_id <$> l).
Proof.
  intros Hn (ns & -> & H2 & H3). clear l. induction ns as [|k ns IH]; [constructor|].
  cbn. apply StronglySorted_inv in H2 as [H4 H5]. apply Forall_cons in H3 as [H6 H7].
  constructor; [|apply IH; done].
  intros Hin. apply elem_of_list_fmap in Hin as (k' & Heq & Hin').
  rewrite Forall_forall in H5, H7. specialize (H5 _ Hin'). specialize (H7 _ Hin'). cbn in H7.
  apply id_string_inj in Heq; lia.
Qed.

End TraceFacts.

Section EnvSim.
Context {P : Params} (c : Config) (Hok : app_ok c).

Definition tm_ok (x : list Fact) (h : HId) (t : Env) : Prop :=
  m_kind (e_msg t) = KTimeout /\ t ∈ fresh_of x /\ (exists hd, hd ∈ c_app c /\ h_id hd = h) /\
  exists i, e_origin t = Some (mkOrigin h HTProcess i) /\ (h, i, t) ∈ scheduled x.

Definition env_ok (x : list Fact) (now : Z) (cy : option Env) (e : Env) : Prop :=
  e ∈ fresh_of x /\
  (m_kind (e_msg e) = KTimeout -> (e_sched e <= now)%Z /\ exists h, tm_ok x h e) /\
  (forall r, cy = Some r -> e_corr e = e_id r).

(** The trace checks of this file. *)
Definition env_check (x : list Fact) (f : Fact) : Prop :=
  (* a dispatched message *)
  (forall e now et eh, f = DispatchCycleBegun e now et eh -> is_root e /\ e_created e = now /\
     m_kind (e_msg e) <> KTimeout /\ m_invalid (e_msg e) = None /\
     exists hd, hd ∈ c_app c /\ m_type (e_msg e) ∈ h_consumed hd) /\
  (* a produced message *)
  (forall h i e ev, produced f = Some (h, i, e, ev) ->
     in_handling x = Some (h, e) /\ e ∈ fresh_of x /\ e_cause ev = e_id e /\ e_corr ev = e_corr e /\
     engine_time x = Some (e_created ev) /\ e_origin ev = Some (mkOrigin h (hid_type h) i) /\
     Some (m_kind (e_msg ev)) = produced_kind f /\
     m_invalid (e_msg ev) = None /\
     exists hd, hd ∈ c_app c /\ h_id hd = h /\ m_type (e_msg ev) ∈ h_produced hd) /\
  (* correlation *)
  (forall e r, e ∈ fact_envs f -> cycle_root x = Some r \/ (exists now et eh, f = DispatchCycleBegun r now et eh) ->
     (forall now et eh, f <> TickCycleBegun now et eh) ->
     (forall r' now et eh, f = DispatchCycleBegun r' now et eh -> r' = r) ->
     e_corr e = e_id r) /\
  (* every message mentioned is known *)
  (forall e, e ∈ fact_envs f -> e ∈ fresh_of x ++ newly f) /\
  (* timeouts *)
  (forall h e, f = HandlingBegun h e -> m_kind (e_msg e) = KTimeout ->
     exists now i, engine_time x = Some now /\ (e_sched e <= now)%Z /\ (h, i, e) ∈ scheduled x) /\
  (forall h e i, (f = ProcessTimeoutIgnored h i e \/ (exists r, f = ProcessInstanceLoaded h i r e)) ->
     m_kind (e_msg e) = KTimeout -> (h, i, e) ∈ scheduled x) /\
  (forall h e i, f = ProcessInstanceNotFound h i e \/ (exists r, f = ProcessInstanceBegun h i r e) ->
     m_kind (e_msg e) = KEvent).

Definition pend_ok (cs : gmap string CState) (x : list Fact) : Prop :=
  forall hd ps t, hd ∈ c_app c -> cs !! h_name hd = Some (CSProc ps) -> t ∈ pc_timeouts ps ->
    tm_ok x (h_id hd) t.

Definition GI (n : N) (cs : gmap string CState) (x : list Fact) : Prop :=
  ids_ok n (fresh_of x) /\ tree_ok (fresh_of x) /\ pend_ok cs x.

Definition OI (oo : OOs) (cy : option Env) (x : list Fact) : Prop :=
  engine_time x = Some (oo_now oo) /\ cycle_root x = cy.

Definition RI (st : EState) (x : list Fact) : Prop := GI (g_next (es_g st)) (es_cs st) x.
Definition RO oo cy q (st : EState) x : Prop :=
  RI st x /\ OI oo cy x /\ Forall (env_ok x (oo_now oo) cy) q /\ (forall r, cy = Some r -> env_ok x (oo_now oo) cy r).
Definition RM oo cy env (hs : list (option Handler)) q (st : EState) x : Prop :=
  RO oo cy (env :: q) st x /\
  (m_kind (e_msg env) = KTimeout -> forall h, Some h ∈ hs -> tm_ok x (h_id h) env).
Definition RT oo (hs : list Handler) q (st : EState) x : Prop :=
  RO oo None q st x.

(** ** Monotonicity *)
Definition ext (x x' : list Fact) : Prop :=
  (forall e, e ∈ fresh_of x -> e ∈ fresh_of x') /\ (forall s, s ∈ scheduled x -> s ∈ scheduled x').

Lemma ext_snoc x f : ext x (x ++ [f]).
Proof.
  split.
  - intros e. rewrite fresh_of_snoc, elem_of_app. auto.
  - intros s. rewrite scheduled_snoc. unfold scheduled_step. destruct f; auto.
    rewrite elem_of_app. auto.
Qed.

Lemma tm_ok_ext x x' h t : ext x x' -> tm_ok x h t -> tm_ok x' h t.
Proof.
  intros [H1 H2] (H3 & H4 & H5 & i & H6 & H7). split; [done|]. split; [auto|]. split; [done|].
  exists i. auto.
Qed.

Lemma env_ok_ext x x' now cy e : ext x x' -> env_ok x now cy e -> env_ok x' now cy e.
Proof.
  intros H (H1 & H2 & H3). split; [apply H; done|]. split; [|done].
  intros Hk. destruct (H2 Hk) as (H4 & h & H5). split; [done|]. exists h. eapply tm_ok_ext; eassumption.
Qed.

Lemma envs_ok_ext x x' now cy q :
  ext x x' -> Forall (env_ok x now cy) q -> Forall (env_ok x' now cy) q.
Proof. intros H Hq. eapply Forall_impl; [exact Hq|]. intros e. apply env_ok_ext. done. Qed.

Lemma pend_ok_ext cs x x' : ext x x' -> pend_ok cs x -> pend_ok cs x'.
Proof. intros H Hp hd ps t H1 H2 H3. eapply tm_ok_ext; [exact H|]. eapply Hp; eassumption. Qed.

(** ** Facts that produce nothing *)
Definition quiet (f : Fact) : bool :=
  match f with
  | DispatchCycleBegun _ _ _ _ | TickCycleBegun _ _ _ => false
  | _ => match produced f with Some _ => false | None => true end
  end.

Lemma quiet_fresh f : quiet f = true -> newly f = [].
Proof. destruct f; cbn; done. Qed.

Lemma quiet_scheduled x f : quiet f = true -> scheduled (x ++ [f]) = scheduled x.
Proof. intros H. rewrite scheduled_snoc. destruct f; cbn in *; done. Qed.

Lemma quiet_fresh_of x f : quiet f = true -> fresh_of (x ++ [f]) = fresh_of x.
Proof. intros H. rewrite fresh_of_snoc, quiet_fresh, app_nil_r; done. Qed.

Lemma quiet_time x f : quiet f = true -> engine_time (x ++ [f]) = engine_time x.
Proof. intros H. rewrite engine_time_snoc. destruct f; cbn in *; done. Qed.

Lemma quiet_root x f : quiet f = true -> cycle_root (x ++ [f]) = cycle_root x.
Proof. intros H. rewrite cycle_root_snoc. destruct f; cbn in *; done. Qed.

Lemma GI_quiet n cs x f : quiet f = true -> GI n cs x -> GI n cs (x ++ [f]).
Proof.
  intros Hq (H1 & H2 & H3). unfold GI. rewrite quiet_fresh_of by done.
  split; [done|]. split; [done|]. eapply pend_ok_ext; [apply ext_snoc|done].
Qed.

Lemma OI_quiet oo cy x f : quiet f = true -> OI oo cy x -> OI oo cy (x ++ [f]).
Proof. intros Hq [H1 H2]. unfold OI. rewrite quiet_time, quiet_root by done. done. Qed.

Lemma RO_quiet oo cy q st x f : quiet f = true -> RO oo cy q st x -> RO oo cy q st (x ++ [f]).
Proof.
  intros Hq (H1 & H2 & H3 & H4). split; [apply GI_quiet; done|]. split; [apply OI_quiet; done|].
  split; [eapply envs_ok_ext; [apply ext_snoc|done]|].
  intros r Hr. eapply env_ok_ext; [apply ext_snoc|auto].
Qed.

(** A quiet fact that only mentions messages in progress passes the checks. *)
Definition plain (f : Fact) : Prop :=
  match f with
  | HandlingBegun _ _ | ProcessTimeoutIgnored _ _ _ | ProcessInstanceLoaded _ _ _ _
  | ProcessInstanceNotFound _ _ _ | ProcessInstanceBegun _ _ _ _ => False
  | _ => True
  end.

Lemma check_quiet oo cy x f :
  quiet f = true -> OI oo cy x ->
  (forall e, e ∈ fact_envs f -> env_ok x (oo_now oo) cy e) ->
  (forall h e, f = HandlingBegun h e -> m_kind (e_msg e) = KTimeout -> tm_ok x h e) ->
  (forall h e i, (f = ProcessTimeoutIgnored h i e \/ (exists r, f = ProcessInstanceLoaded h i r e)) ->
     m_kind (e_msg e) = KTimeout -> tm_ok x h e /\ i = origin_instance e) ->
  (forall h e i, f = ProcessInstanceNotFound h i e \/ (exists r, f = ProcessInstanceBegun h i r e) ->
     m_kind (e_msg e) = KEvent) ->
  env_check x f.
Proof.
  intros Hq [HO1 HO2] Hin Hh Hp Hb. split; [intros ? ? ? ? ->; done|].
  split; [intros h i e ev Hp'; destruct f; done|].
  split.
  { intros e r He [Hr|(now & et & eh & ->)] _ _; [|done].
    destruct (Hin e He) as (_ & _ & H3). apply H3. rewrite <- HO2. done. }
  split.
  { intros e He. apply elem_of_app. left. apply Hin. done. }
  split.
  { intros h e -> Hk. destruct (Hin e) as (_ & H2 & _); [left|]. destruct (H2 Hk) as [H3 _].
    destruct (Hh h e eq_refl Hk) as (_ & _ & _ & i & _ & H6). eauto. }
  split; [|done].
  intros h e i Hf Hk. destruct (Hp h e i Hf Hk) as ((_ & _ & _ & i' & H5 & H6) & ->).
  unfold origin_instance. rewrite H5. done.
Qed.

Lemma check_plain oo cy x f :
  quiet f = true -> plain f -> OI oo cy x ->
  (forall e, e ∈ fact_envs f -> env_ok x (oo_now oo) cy e) ->
  env_check x f.
Proof.
  intros Hq Hpl HO Hin. eapply check_quiet; [done|done|done| | |].
  - intros h e ->. done.
  - intros h e i [->|[r ->]]; done.
  - intros h e i [->|[r ->]]; done.
Qed.

(** ** Productions *)

(** The state of affairs while [h] handles [env]. *)
Definition HI oo cy q (h : Handler) env (cs : gmap string CState) (g : GState) (x : list Fact) : Prop :=
  GI (g_next g) cs x /\ OI oo cy x /\ Forall (env_ok x (oo_now oo) cy) (env :: q) /\
  (forall r, cy = Some r -> env_ok x (oo_now oo) cy r) /\
  in_handling x = Some (h_id h, env).

Lemma HI_quiet oo cy q h env cs g x f :
  quiet f = true -> (forall h' e, f <> HandlingBegun h' e) -> (forall h' e err, f <> HandlingCompleted h' e err) ->
  HI oo cy q h env cs g x -> HI oo cy q h env cs g (x ++ [f]).
Proof.
  intros Hq Hn1 Hn2 (H1 & H2 & H3 & H4 & H5). split; [apply GI_quiet; done|].
  split; [apply OI_quiet; done|]. split; [eapply envs_ok_ext; [apply ext_snoc|done]|].
  split; [intros r Hr; eapply env_ok_ext; [apply ext_snoc|auto]|].
  rewrite in_handling_snoc, H5. unfold in_handling_step. destruct f; try done.
  - destruct (Hn1 h0 e); done.
  - destruct (Hn2 h0 e err); done.
Qed.

Lemma HI_env oo cy q h env cs g x : HI oo cy q h env cs g x -> env_ok x (oo_now oo) cy env.
Proof. intros (_ & _ & H & _). apply Forall_cons in H as [H _]. done. Qed.

Lemma check_HI oo cy q h env cs g x f :
  HI oo cy q h env cs g x -> quiet f = true -> plain f ->
  (forall e, e ∈ fact_envs f -> e = env) -> env_check x f.
Proof.
  intros HH Hq Hp Hin. pose proof (HI_env _ _ _ _ _ _ _ _ HH) as He. destruct HH as (_ & HO & _).
  eapply check_plain; [done|done|exact HO|]. intros e Hin'. rewrite (Hin e Hin'). done.
Qed.

Lemma produce oo cy q h env cs g x o g' mid i ev f :
  h ∈ c_app c ->
  HI oo cy q h env cs g x -> next_id o g = (g', mid) ->
  produced f = Some (h_id h, i, env, ev) -> fact_envs f = [env; ev] -> newly f = [ev] -> 
  Some (m_kind (e_msg ev)) = produced_kind f ->
  e_id ev = mid -> e_cause ev = e_id env -> e_corr ev = e_corr env -> e_created ev = oo_now oo ->
  e_origin ev = Some (mkOrigin (h_id h) (h_type h) i) ->
  m_invalid (e_msg ev) = None -> produces h (m_type (e_msg ev)) = true ->
  env_check x f /\ HI oo cy q h env cs g' (x ++ [f]) /\
  (forall e, env_ok x (oo_now oo) cy e -> env_ok (x ++ [f]) (oo_now oo) cy e) /\
  (m_kind (e_msg ev) <> KTimeout -> env_ok (x ++ [f]) (oo_now oo) cy ev) /\
  ev ∈ fresh_of (x ++ [f]) /\ (forall r, cy = Some r -> e_corr ev = e_id r).
Proof.
  intros Happ HH En Hp Hfe Hfr Hpk Hid Hca Hco Hcr Hor Hinv Hpr.
  pose proof (HI_env _ _ _ _ _ _ _ _ HH) as (He1 & He2 & He3).
  destruct HH as ((HG1 & HG2 & HG3) & (HO1 & HO2) & Hq & Hr & Hin).
  assert (Hcorr : forall r, cy = Some r -> e_corr ev = e_id r).
  { intros r Hr'. rewrite Hco. apply He3. done. }
  assert (Hfo : fresh_of (x ++ [f]) = fresh_of x ++ [ev]) by (rewrite fresh_of_snoc, Hfr; done).
  assert (Hnc : quiet f = false /\ (forall e now et eh, f <> DispatchCycleBegun e now et eh) /\
                (forall now et eh, f <> TickCycleBegun now et eh) /\
                (forall h' e, f <> HandlingBegun h' e) /\ (forall h' e r, f <> HandlingCompleted h' e r) /\
                (forall h' i' e, f <> ProcessTimeoutIgnored h' i' e) /\
                (forall h' i' r e, f <> ProcessInstanceLoaded h' i' r e) /\
                (forall h' i' e, f <> ProcessInstanceNotFound h' i' e) /\
                (forall h' i' r e, f <> ProcessInstanceBegun h' i' r e)).
  { destruct f; try discriminate Hp; repeat split; intros; discriminate. }
  destruct Hnc as (Hnq & Hnc1 & Hnc2 & Hnc3 & Hnc4 & Hnc5 & Hnc6 & Hnc7 & Hnc8).
  split; [|split; [|split; [|split; [|split]]]].
  - split; [intros ? ? ? ? ->; edestruct Hnc1; reflexivity|].
    split.
    { intros h' i' e ev' Hp'. rewrite Hp in Hp'. injection Hp' as <- <- <- <-.
      split; [done|]. split; [done|]. split; [done|]. split; [done|]. split; [rewrite HO1, Hcr; done|].
      split; [done|]. split; [done|]. split; [done|]. exists h. split; [done|]. split; [done|].
      unfold produces in Hpr. apply bool_decide_eq_true in Hpr. done. }
    split.
    { intros e r He [Hr'|(now & et & eh & ->)] _ _; [|edestruct Hnc1; reflexivity].
      rewrite HO2 in Hr'. rewrite Hfe in He.
      apply elem_of_cons in He as [->|He]; [apply He3; done|].
      apply elem_of_list_singleton in He as ->. apply Hcorr. done. }
    split.
    { intros e He. rewrite Hfe in He. rewrite Hfr. apply elem_of_app.
      apply elem_of_cons in He as [->|He]; [auto|]. apply elem_of_list_singleton in He as ->.
      right. left. }
    split; [intros ? ? ->; edestruct Hnc3; reflexivity|].
    split; [intros ? ? ? [->|[? ->]]; [edestruct Hnc5|edestruct Hnc6]; reflexivity|].
    intros ? ? ? [->|[? ->]]; [edestruct Hnc7|edestruct Hnc8]; reflexivity.
  - split.
    { split; [rewrite Hfo; eapply ids_ok_snoc; eassumption|].
      split; [rewrite Hfo; apply tree_ok_snoc; [done|]; right; exists env; done|].
      eapply pend_ok_ext; [apply ext_snoc|done]. }
    split.
    { split; [rewrite engine_time_snoc, HO1|rewrite cycle_root_snoc, HO2];
        destruct f; try done; (edestruct Hnc1; reflexivity) || (edestruct Hnc2; reflexivity). }
    split; [eapply envs_ok_ext; [apply ext_snoc|done]|].
    split; [intros r Hr'; eapply env_ok_ext; [apply ext_snoc|auto]|].
    rewrite in_handling_snoc, Hin.
    destruct f; try discriminate Hp; done.
  - intros e. apply env_ok_ext. apply ext_snoc.
  - intros Hk. split; [rewrite Hfo; apply elem_of_app; right; left|]. done.
  - rewrite Hfo. apply elem_of_app. right. left.
  - done.
Qed.

(** ** Handler programs *)
Section Handling.
Context (oo : OOs) (cy : option Env) (q : list Env) (h : Handler) (env : Env) (cs : gmap string CState).
Context (Happ : h ∈ c_app c).

Definition IA (g : GState) (s : AScope) (x : list Fact) : Prop :=
  HI oo cy q h env cs g x /\ Forall (env_ok x (oo_now oo) cy) (as_events s).

Lemma IA_ok o a id : h_type h = HTAggregate -> AOK env_check snoc o h a (oo_now oo) env id IA.
Proof.
  intros Ht. constructor.
  - intros f g s x [H1 H2]. split; [exact H1|done].
  - intros f g s x [H1 H2]. split; [exact H1|done].
  - intros g s x b [H1 H2] Hex Hp Hi f. subst f. unfold snoc.
    split; [eapply check_HI; [exact H1|destruct (as_destroyed s); done|destruct (as_destroyed s); done|]|].
    + intros e He. destruct (as_destroyed s); apply elem_of_list_singleton in He; done.
    + split; [apply HI_quiet; [destruct (as_destroyed s); done|destruct (as_destroyed s); done|destruct (as_destroyed s); done|done]|].
      eapply envs_ok_ext; [apply ext_snoc|done].
  - intros g s x b r v [H1 H2] _ _. split; [done|]. unfold as_set_root. destruct (as_own s); done.
  - intros g s x b r g' mid [H1 H2] Hex Hp Hi Ha En f. unfold snoc.
    destruct (produce oo cy q h env cs g x o g' mid id (a_ev h (oo_now oo) env id mid b) f Happ H1 En)
      as (H3 & H4 & H5 & H6 & _); try done.
    { cbn. rewrite Ht. done. }
    split; [done|]. split; [done|]. cbn. apply Forall_app. split.
    + assert (Hse : as_events (as_set_root s r) = as_events s) by (unfold as_set_root; destruct (as_own s); done).
      rewrite Hse. eapply envs_ok_ext; [apply ext_snoc|done].
    + constructor; [apply H6; done|constructor].
  - intros g s x [H1 H2] Hex r f. subst f. unfold snoc.
    split; [eapply check_HI; [exact H1|done|done|]|].
    + intros e He. apply elem_of_list_singleton in He; done.
    + split; [apply HI_quiet; done|]. eapply envs_ok_ext; [apply ext_snoc|done].
  - intros g s x str [H1 H2] f. subst f. unfold snoc.
    split; [eapply check_HI; [exact H1|done|done|]|].
    + intros e He. apply elem_of_list_singleton in He; done.
    + split; [apply HI_quiet; done|]. eapply envs_ok_ext; [apply ext_snoc|done].
Qed.

Definition II (g : GState) (s : list Env) (x : list Fact) : Prop :=
  HI oo cy q h env cs g x /\ Forall (env_ok x (oo_now oo) cy) s.

Lemma II_ok o : h_type h = HTIntegration -> IOK env_check snoc o h (oo_now oo) env II.
Proof.
  intros Ht. constructor.
  - intros f g s x [H1 H2]. split; [exact H1|done].
  - intros g s x b g' mid [H1 H2] Hp Hi En f. unfold snoc.
    destruct (produce oo cy q h env cs g x o g' mid "" (i_ev h (oo_now oo) env mid b) f Happ H1 En)
      as (H3 & H4 & H5 & H6 & _); try done.
    { cbn. rewrite Ht. done. }
    split; [done|]. split; [done|]. cbn. apply Forall_app. split.
    + eapply envs_ok_ext; [apply ext_snoc|done].
    + constructor; [apply H6; done|constructor].
  - intros g s x str [H1 H2] f. subst f. unfold snoc.
    split; [eapply check_HI; [exact H1|done|done|]|].
    + intros e He. apply elem_of_list_singleton in He; done.
    + split; [apply HI_quiet; done|]. eapply envs_ok_ext; [apply ext_snoc|done].
Qed.

Definition IP (g : GState) (s : PScope) (x : list Fact) : Prop :=
  HI oo cy q h env cs g x /\ Forall (env_ok x (oo_now oo) cy) (ps_commands s) /\
  Forall (env_ok x (oo_now oo) cy) (ps_ready s) /\ Forall (tm_ok x (h_id h)) (ps_pending s).

Lemma IP_ok o id : h_type h = HTProcess -> POK env_check snoc o h (oo_now oo) env id IP.
Proof.
  intros Ht.
  assert (Hquiet : forall g s s' x f,
    IP g s x -> ps_commands s' = ps_commands s -> ps_ready s' = ps_ready s -> ps_pending s' = ps_pending s ->
    quiet f = true -> plain f -> fact_envs f = [env] ->
    (forall h' e, f <> HandlingBegun h' e) -> (forall h' e err, f <> HandlingCompleted h' e err) ->
    env_check x f /\ IP g s' (x ++ [f])).
  { intros g s s' x f (H1 & H2 & H3 & H4) E1 E2 E3 Hq Hp Hf Hn1 Hn2.
    split; [eapply check_HI; [exact H1|done|done|]|].
    - intros e He. rewrite Hf in He. apply elem_of_list_singleton in He; done.
    - split; [apply HI_quiet; done|]. rewrite E1, E2, E3.
      split; [eapply envs_ok_ext; [apply ext_snoc|done]|].
      split; [eapply envs_ok_ext; [apply ext_snoc|done]|].
      eapply Forall_impl; [exact H4|]. intros t. apply tm_ok_ext. apply ext_snoc. }
  constructor.
  - intros f g s x H. exact H.
  - intros f g s x H. exact H.
  - intros g s x H He f. eapply Hquiet; done.
  - intros g s x b g' mid (H1 & H2 & H3 & H4) He Hp Hi En f. unfold snoc.
    destruct (produce oo cy q h env cs g x o g' mid id (p_cmd h (oo_now oo) env id mid b) f Happ H1 En)
      as (H5 & H6 & H7 & H8 & _); try done.
    { cbn. rewrite Ht. done. }
    split; [done|]. split; [done|]. cbn. split; [apply Forall_app; split|].
    + eapply envs_ok_ext; [apply ext_snoc|done].
    + constructor; [apply H8; done|constructor].
    + split; [eapply envs_ok_ext; [apply ext_snoc|done]|].
      eapply Forall_impl; [exact H4|]. intros t. apply tm_ok_ext. apply ext_snoc.
  - intros g s x b t g' mid (H1 & H2 & H3 & H4) He Hp Hi En f. unfold snoc.
    destruct (produce oo cy q h env cs g x o g' mid id (p_tmo h (oo_now oo) env id mid b t) f Happ H1 En)
      as (H5 & H6 & H7 & _ & H8 & H9); try done.
    { cbn. rewrite Ht. done. }
    assert (Htm : tm_ok (x ++ [f]) (h_id h) (p_tmo h (oo_now oo) env id mid b t)).
    { split; [done|]. split; [done|]. split; [eauto|]. exists id. split; [done|].
      rewrite scheduled_snoc. subst f. cbn. apply elem_of_app. right. left. }
    split; [done|]. split; [done|]. unfold ps_add_tmo. destruct (oo_now oo <? t)%Z eqn:Elt; cbn.
    + split; [eapply envs_ok_ext; [apply ext_snoc|done]|].
      split; [eapply envs_ok_ext; [apply ext_snoc|done]|].
      apply Forall_app. split; [|constructor; [done|constructor]].
      eapply Forall_impl; [exact H4|]. intros t'. apply tm_ok_ext. apply ext_snoc.
    + split; [eapply envs_ok_ext; [apply ext_snoc|done]|]. split.
      * apply Forall_app. split; [eapply envs_ok_ext; [apply ext_snoc|done]|].
        constructor; [|constructor]. split; [done|]. split; [|done]. intros _.
        apply Z.ltb_ge in Elt. split; [done|]. eauto.
      * eapply Forall_impl; [exact H4|]. intros t'. apply tm_ok_ext. apply ext_snoc.
  - intros g s x H He f. eapply Hquiet; done.
  - intros g s x str H f. eapply Hquiet; done.
Qed.
End Handling.

Lemma GI_update n cs x h cs' :
  h ∈ c_app c -> GI n cs x ->
  (forall ps t, cs' = CSProc ps -> t ∈ pc_timeouts ps -> tm_ok x (h_id h) t) ->
  GI n (<[h_name h := cs']> cs) x.
Proof.
  intros Happ (H1 & H2 & H3) Hps. split; [done|]. split; [done|].
  intros hd ps t Hin Hl Ht. destruct (decide (h_name h = h_name hd)) as [He|Hne].
  - assert (h = hd) as <- by (eapply app_name_inj; eassumption).
    rewrite lookup_insert in Hl. injection Hl as ->. eapply Hps; done.
  - rewrite lookup_insert_ne in Hl by done. eapply H3; eassumption.
Qed.

(** From the start of a handling to its end. *)
Lemma handling_start oo cy env h hs q st x :
  RM oo cy env (Some h :: hs) q st x ->
  env_check x (HandlingBegun (h_id h) env) /\
  HI oo cy q h env (es_cs st) (es_g st) (snoc x (HandlingBegun (h_id h) env)).
Proof.
  intros ((H1 & H2 & H3 & H4) & H5). unfold snoc.
  pose proof H3 as H3'. apply Forall_cons in H3' as [He _]. split.
  - eapply check_quiet; [done|exact H2| | | |].
    + intros e Hin. apply elem_of_list_singleton in Hin as ->. done.
    + intros h' e [= <- <-] Hk. apply H5; [done|left].
    + intros ? ? ? [?|[? ?]]; done.
    + intros ? ? ? [?|[? ?]]; done.
  - split; [apply GI_quiet; done|]. split; [apply OI_quiet; done|].
    split; [eapply envs_ok_ext; [apply ext_snoc|done]|].
    split; [intros r Hr; eapply env_ok_ext; [apply ext_snoc|auto]|].
    rewrite in_handling_snoc. done.
Qed.

Lemma handling_end oo cy env h hs q st x0 g' cs' x r :
  h ∈ c_app c ->
  RM oo cy env (Some h :: hs) q st x0 -> ext x0 x ->
  HI oo cy q h env (es_cs st) g' x ->
  (forall ps t, cs' = CSProc ps -> t ∈ pc_timeouts ps -> tm_ok x (h_id h) t) ->
  match r with HRet envs _ => Forall (env_ok x (oo_now oo) cy) envs | HPan _ => True end ->
  let fs := match r with HRet _ e => [HandlingCompleted (h_id h) env e] | HPan _ => [] end in
  good env_check snoc x fs /\
  match r with
  | HRet envs _ => RM oo cy env hs (q ++ envs) (st_put st g' h cs') (foldl snoc x fs)
  | HPan _ => RI (st_put st g' h cs') (foldl snoc x fs)
  end.
Proof.
  intros Happ (_ & Hh) Hext HH Hps Hr fs. pose proof HH as (HG & HO & Hq & Hro & Hin).
  pose proof (HI_env _ _ _ _ _ _ _ _ HH) as He.
  assert (HG' : GI (g_next g') (<[h_name h := cs']> (es_cs st)) x) by (apply GI_update; done).
  destruct r as [envs e|v]; subst fs; cbn.
  - split; [split; [|done]; eapply check_HI; [exact HH|done|done|]|].
    { intros e' Hin'. apply elem_of_list_singleton in Hin'. done. }
    unfold snoc. split; [|intros Hk h' Hin'; eapply tm_ok_ext; [apply ext_snoc|];
      eapply tm_ok_ext; [exact Hext|]; apply Hh; [done|right; done]].
    split; [apply GI_quiet; done|]. split; [apply OI_quiet; done|].
    split; [|intros r Hr'; eapply env_ok_ext; [apply ext_snoc|auto]].
    rewrite app_comm_cons. apply Forall_app. split; (eapply envs_ok_ext; [apply ext_snoc|done]).
  - split; [done|]. exact HG'.
Qed.

Lemma ext_refl x : ext x x.
Proof. split; auto. Qed.

Lemma ext_app x fs : ext x (x ++ fs).
Proof.
  revert x; induction fs as [|f fs IH]; intros x; [rewrite app_nil_r; apply ext_refl|].
  destruct (IH (x ++ [f])) as [H1 H2]. destruct (ext_snoc x f) as [H3 H4].
  rewrite <- app_assoc in H1, H2. split; auto.
Qed.

Lemma good_cons_snoc x f fs : good env_check snoc x (f :: fs) <-> env_check x f /\ good env_check snoc (x ++ [f]) fs.
Proof. done. Qed.

Lemma p_split_app now l a b : p_split now l = (a, b) -> l = a ++ b.
Proof.
  revert a b; induction l as [|t l IH]; intros a b; cbn; [intros [= <- <-]; done|].
  destruct (_ <? _)%Z; [intros [= <- <-]; done|].
  destruct (p_split now l) as [a1 b1]. intros [= <- <-]. cbn. f_equal. apply IH. done.
Qed.

Lemma p_split_ready now l a b t : p_split now l = (a, b) -> t ∈ a -> (e_sched t <= now)%Z.
Proof.
  revert a b; induction l as [|t' l IH]; intros a b; cbn; [intros [= <- <-] Hin; apply elem_of_nil in Hin; done|].
  destruct (_ <? _)%Z eqn:E; [intros [= <- <-] Hin; apply elem_of_nil in Hin; done|].
  destruct (p_split now l) as [a1 b1]. intros [= <- <-] Hin.
  apply elem_of_cons in Hin as [->|Hin]; [apply Z.ltb_ge in E; done|]. eapply IH; done.
Qed.

Lemma proj_ignore oo cy h env x fs :
  OI oo cy x -> match env with Some e => env_ok x (oo_now oo) cy e | None => True end ->
  Forall (proj_fact (h_id h) env) fs ->
  good env_check snoc x fs /\ (forall f, f ∈ fs -> quiet f = true /\ plain f /\
     (forall h' e, f <> HandlingBegun h' e) /\ (forall h' e err, f <> HandlingCompleted h' e err)).
Proof.
  intros HO He Hf. split.
  - revert x HO He. induction Hf as [|f fs Hf Hfs IH]; intros x HO He; [done|]. cbn. split.
    + eapply check_plain; [destruct f; done|destruct f; done|exact HO|].
      intros e Hin. destruct f; cbn in *; try done; try (apply elem_of_nil in Hin; done).
      destruct Hf as [_ [->| ->]]; [apply elem_of_nil in Hin; done|].
      destruct env; [apply elem_of_list_singleton in Hin as ->; done|apply elem_of_nil in Hin; done].
    + apply IH; [apply OI_quiet; [destruct f; done|done]|].
      destruct env; [|done]. eapply env_ok_ext; [apply ext_snoc|done].
  - intros f Hin. rewrite Forall_forall in Hf. specialize (Hf f Hin). destruct f; done.
Qed.

Lemma HI_quiets oo cy q h env cs g x fs :
  (forall f, f ∈ fs -> quiet f = true /\
     (forall h' e, f <> HandlingBegun h' e) /\ (forall h' e err, f <> HandlingCompleted h' e err)) ->
  HI oo cy q h env cs g x -> HI oo cy q h env cs g (x ++ fs).
Proof.
  revert x; induction fs as [|f fs IH]; intros x Hf HH; [rewrite app_nil_r; done|].
  replace (x ++ f :: fs) with ((x ++ [f]) ++ fs) by (rewrite <- app_assoc; done).
  destruct (Hf f) as (H1 & H3 & H4); [left|].
  apply IH; [intros f' Hin; apply Hf; right; done|]. apply HI_quiet; done.
Qed.

Lemma RO_quiets oo cy q st x fs :
  (forall f, f ∈ fs -> quiet f = true) -> RO oo cy q st x -> RO oo cy q st (x ++ fs).
Proof.
  revert x; induction fs as [|f fs IH]; intros x Hf HH; [rewrite app_nil_r; done|].
  replace (x ++ f :: fs) with ((x ++ [f]) ++ fs) by (rewrite <- app_assoc; done).
  apply IH; [intros f' Hin; apply Hf; right; done|]. apply RO_quiet; [apply Hf; left|done].
Qed.

Lemma RO_put oo cy q st x g h cs' :
  h ∈ c_app c -> g_next g = g_next (es_g st) ->
  (forall ps t, cs' = CSProc ps -> t ∈ pc_timeouts ps -> tm_ok x (h_id h) t) ->
  RO oo cy q st x -> RO oo cy q (st_put st g h cs') x.
Proof.
  intros Happ Hg Hps (H1 & H2). split; [|done].
  unfold RI. cbn. rewrite Hg. apply GI_update; done.
Qed.

Lemma origin_tm x h t : tm_ok x h t -> targets c t = Some [controllers c !! hid_name h].
Proof.
  intros (Hk & _ & _ & i & Ho & _). unfold targets. rewrite Hk, Ho. done.
Qed.

Theorem env_sim : SimOK c env_check snoc clear RI RO RM RT.
Proof.
  constructor.
  - intros st st' x [H1 H2]. unfold RI. rewrite H1, H2. done.
  - intros oo cy q st st' x [H1 H2]. unfold RO, RI. rewrite H1, H2. done.
  - intros oo hs q st st' x [H1 H2]. unfold RT, RO, RI. rewrite H1, H2. done.
  - (* reject *) intros o st x g id (H1 & H2 & H3) En. split; [|done].
    eapply ids_ok_mono; [|exact H1]. eapply next_id_mono. exact En.
  - (* reset *) intros st x _. split; [apply ids_ok_nil|]. split; [apply tree_ok_nil|].
    intros hd ps t Hin Hl Ht. cbn in Hl. rewrite lookup_fmap in Hl.
    destruct (es_cs st !! h_name hd) as [cs'|]; [|done]. destruct cs'; cbn in Hl; try discriminate Hl.
    injection Hl as <-. apply elem_of_nil in Ht. done.
  - (* dispatch *) intros o oo m hs st x g id (H1 & H2 & H3) En Hk Hi Hr env.
    assert (Henv : is_root env) by done. split.
    + split.
      { intros e now et eh [= <- <- <- <-]. split; [done|]. split; [done|]. split; [done|]. split; [done|].
        rewrite routes_lookup in Hr. destruct (consumers (c_app c) (m_type m)) as [|hd l] eqn:Ec; [done|].
        assert (Hin : hd ∈ consumers (c_app c) (m_type m)) by (rewrite Ec; left).
        apply elem_of_list_filter in Hin as [H4 H5]. eauto. }
      split; [done|]. split.
      { intros e r He _ _ Hrr. apply elem_of_list_singleton in He as ->.
        rewrite <- (Hrr _ _ _ _ eq_refl). done. }
      split; [intros e He; apply elem_of_list_singleton in He as ->; apply elem_of_app; right; left|].
      split; [done|]. split; [intros ? ? ? [?|[? ?]]; done|]. intros ? ? ? [?|[? ?]]; done.
    + unfold snoc. set (f := DispatchCycleBegun _ _ _ _).
      assert (Hfo : fresh_of (x ++ [f]) = fresh_of x ++ [env]) by (rewrite fresh_of_snoc; done).
      assert (He : env_ok (x ++ [f]) (oo_now oo) (Some env) env).
      { split; [rewrite Hfo; apply elem_of_app; right; left|]. split; [done|]. intros r [= <-]. done. }
      split; [split; [|split]|].
      * rewrite Hfo. cbn. eapply ids_ok_snoc; [exact En|done|exact H1].
      * rewrite Hfo. apply tree_ok_snoc; auto.
      * eapply pend_ok_ext; [apply ext_snoc|done].
      * split; [split; [rewrite engine_time_snoc|rewrite cycle_root_snoc]; done|].
        split; [constructor; [done|constructor]|]. intros r [= <-]. done.
  - (* dispatch end *) intros oo env q st x err (H1 & H2 & H3 & H4) _. unfold snoc. split.
    + eapply check_plain; [done|done|exact H2|].
      intros e Hin. apply elem_of_list_singleton in Hin as ->. apply H4. done.
    + apply GI_quiet; done.
  - (* tick *) intros oo order st x H1 Hord. unfold snoc. set (f := TickCycleBegun _ _ _).
    split; [|split; [|split]].
    + split; [done|]. split; [done|]. split; [intros e r He; apply elem_of_nil in He; done|].
      split; [intros e He; apply elem_of_nil in He; done|]. split; [done|].
      split; [intros ? ? ? [?|[? ?]]; done|]. intros ? ? ? [?|[? ?]]; done.
    + destruct H1 as (H1 & H2 & H3). split; [|split].
      * rewrite fresh_of_snoc. cbn. rewrite app_nil_r. done.
      * rewrite fresh_of_snoc. cbn. rewrite app_nil_r. done.
      * eapply pend_ok_ext; [apply ext_snoc|done].
    + split; [rewrite engine_time_snoc|rewrite cycle_root_snoc]; done.
    + done.
  - (* tick skip *) intros oo h hs q st x r HR Happ _. unfold snoc. split.
    + eapply check_plain; [done|done|apply HR|]. intros e He. apply elem_of_nil in He. done.
    + apply RO_quiet; done.
  - (* tick none *) intros oo h hs q st x cs HR Happ _ Hl Hm Hty. unfold RT in *.
    assert (HR1 : RO oo None q st (x ++ [TickBegun (h_id h)])) by (apply RO_quiet; done).
    split; [split; [|split; [|done]]|].
    + eapply check_plain; [done|done|apply HR|]. intros e He. apply elem_of_nil in He. done.
    + eapply check_plain; [done|done|apply HR1|]. intros e He. apply elem_of_nil in He. done.
    + cbn. unfold snoc. apply RO_put; [done|done| |apply RO_quiet; done].
      intros ps t -> _. unfold cs_match in Hm. unfold h_type in Hty. destruct (h_impl h); try done.
      destruct Hty; done.
  - (* tick proc *) intros oo h pi hs q st x ps ps' ready HR Happ _ Hi Hl Ht. unfold RT in *.
    assert (HR1 : RO oo None q st (x ++ [TickBegun (h_id h)])) by (apply RO_quiet; done).
    split; [split; [|split; [|done]]|].
    + eapply check_plain; [done|done|apply HR|]. intros e He. apply elem_of_nil in He. done.
    + eapply check_plain; [done|done|apply HR1|]. intros e He. apply elem_of_nil in He. done.
    + cbn. unfold snoc.
      assert (HR2 : RO oo None q st ((x ++ [TickBegun (h_id h)]) ++ [TickCompleted (h_id h) None]))
        by (apply RO_quiet; done).
      unfold p_tick in Ht. destruct (p_split _ _) as [ready' rest] eqn:Es. injection Ht as <- <-.
      pose proof (p_split_app _ _ _ _ Es) as Hsp.
      assert (Hall : forall t, t ∈ pc_timeouts ps -> tm_ok ((x ++ [TickBegun (h_id h)]) ++ [TickCompleted (h_id h) None]) (h_id h) t).
      { intros t Hin. destruct HR2 as ((_ & _ & H3) & _). eapply H3; eassumption. }
      apply RO_put; [done|done| |].
      * intros ps0 t [= <-] Hin. cbn in Hin. apply Hall. rewrite Hsp. apply elem_of_app. auto.
      * destruct HR2 as (H1 & H2 & H3 & H4). split; [done|]. split; [done|]. split; [|done].
        apply Forall_app. split; [done|]. apply Forall_forall. intros t Hin.
        assert (Htm := Hall t ltac:(rewrite Hsp; apply elem_of_app; auto)).
        split; [apply Htm|]. split; [|done]. intros _. split; [eapply p_split_ready; eassumption|eauto].
  - (* tick proj *) intros oo h j hs q st x last g' last' fs r HR Happ _ Hi Hl Hj.
    apply j_tick_facts in Hj as (Hf & Hg & Hr). unfold RT in *.
    assert (HR1 : RO oo None q st (x ++ [TickBegun (h_id h)])) by (apply RO_quiet; done).
    assert (HO1 : OI oo None (x ++ [TickBegun (h_id h)])) by apply HR1.
    destruct (proj_ignore oo None h None _ fs HO1 I Hf) as [Hgd Hqs].
    assert (HR2 : RO oo None q st ((x ++ [TickBegun (h_id h)]) ++ fs)).
    { apply RO_quiets; [|done]. intros f Hin. apply Hqs. done. }
    split.
    + unfold ticking. rewrite good_cons_snoc. split.
      { eapply check_plain; [done|done|apply HR|]. intros e He. apply elem_of_nil in He. done. }
      rewrite good_app. split; [done|]. rewrite foldl_snoc_app. destruct r; [|done]. split; [|done].
      eapply check_plain; [done|done|apply HR2|]. intros e He. apply elem_of_nil in He. done.
    + unfold ticking. cbn. rewrite foldl_app, (foldl_snoc_app _ fs). unfold snoc at 2.
      destruct r as [envs e|v]; cbn.
      * rewrite (Hr _ _ eq_refl), app_nil_r. apply RO_put; [done|done|done|]. apply RO_quiet; done.
      * eapply RO_put; [done|done|done|exact HR2].
  - (* tick loop *) intros oo q st x HR. exact HR.
  - (* tick cancel *) intros oo hs q st x err (H1 & H2 & H3 & H4) _. split.
    + eapply check_plain; [done|done|exact H2|]. intros e He. apply elem_of_nil in He. done.
    + apply GI_quiet; done.
  - (* tick end *) intros oo q st x err (H1 & H2 & H3 & H4) _. split.
    + eapply check_plain; [done|done|exact H2|]. intros e He. apply elem_of_nil in He. done.
    + apply GI_quiet; done.
  - (* nil targets *) intros oo cy env q st x (H1 & _) _. exact H1.
  - (* message *) intros oo cy env q hs st x HR Ht. split.
    + destruct HR as (H1 & H2 & H3 & H4). eapply check_plain; [done|done|exact H2|].
      intros e He. apply elem_of_list_singleton in He as ->. apply Forall_cons in H3 as [H3 _]. done.
    + unfold snoc.
      assert (HR' : RO oo cy (env :: q) st (x ++ [DispatchBegun env])) by (apply RO_quiet; done).
      split; [done|]. intros Hk h Hin.
      destruct HR' as (_ & _ & H3 & _). apply Forall_cons in H3 as [(_ & H3 & _) _].
      destruct (H3 Hk) as (_ & hid & Htm). pose proof (origin_tm _ _ _ Htm) as Ht'.
      rewrite Ht in Ht'. injection Ht' as ->. apply elem_of_list_singleton in Hin. symmetry in Hin.
      apply controllers_in in Hin as [Hin Hn].
      pose proof Htm as (_ & _ & (hd & Hhd & <-) & _).
      assert (h = hd) as -> by (eapply app_name_inj; eassumption). done.
  - (* nil *) intros oo cy env hs q st x ((H1 & _) & _). exact H1.
  - (* skip *) intros oo cy env h hs q st x r ((H1 & H2 & H3 & H4) & H5) Happ _. split.
    + eapply check_plain; [done|done|exact H2|].
      intros e He. apply elem_of_list_singleton in He as ->. apply Forall_cons in H3 as [H3 _]. done.
    + unfold snoc. split; [apply RO_quiet; [done|]; split; done|].
      intros Hk h' Hin. eapply tm_ok_ext; [apply ext_snoc|]. apply H5; [done|right; done].
  - (* aggregate *) intros o oo cy env h a hs q st x hist g' hist' fs r HR Happ _ Hi Hl _ Ha.
    destruct (handling_start _ _ _ _ _ _ _ _ HR) as [Hc1 HH1].
    assert (Hty : h_type h = HTAggregate) by (unfold h_type; rewrite Hi; done).
    set (x1 := snoc x (HandlingBegun (h_id h) env)) in *.
    assert (Hex1 : ext x x1) by apply ext_snoc.
    apply a_handle_cases in Ha. destruct Ha as [v|id r0 rt ex f g1 s fs v Hcs Hrt Hid Hnew Hrep Hexx Hf Hrun].
    + destruct (handling_end _ _ _ _ _ _ _ _ _ (CSAgg hist) _ (HPan v) Happ HR Hex1 HH1) as [H1 H2]; [done|done|].
      split; [split; done|]. exact H2.
    + assert (HfI : env_check x1 f /\ IA oo cy q h env (es_cs st) (es_g st) (mkAScope rt None ex false []) (x1 ++ [f])).
      { assert (Hfq : quiet f = true /\ plain f /\ fact_envs f = [env] /\
                  (forall h' e, f <> HandlingBegun h' e) /\ (forall h' e err, f <> HandlingCompleted h' e err)).
        { subst f. destruct ex; done. }
        destruct Hfq as (Hq & Hpl & Hfe & Hn1 & Hn2).
        split; [eapply check_HI; [exact HH1|done|done|]|split; [apply HI_quiet; done|constructor]].
        intros e He. rewrite Hfe in He. apply elem_of_list_singleton in He. done. }
      destruct HfI as [Hc2 HI2].
      destruct (a_run_sim _ _ _ _ _ _ _ _ _ (IA_ok oo cy q h env (es_cs st) Happ o a id Hty) _ _ _ _ _ _ _ _ HI2 Hrun)
        as [Hg [HH3 Hev]].
      rewrite foldl_snoc_app in HH3, Hev.
      assert (Hx2 : ext x ((x1 ++ [f]) ++ fs)).
      { subst x1. unfold snoc. rewrite <- !app_assoc. apply ext_app. }
      destruct (handling_end _ _ _ _ _ _ _ _ _ (CSAgg (a_commit hist id s v)) _ (a_result h env s v) Happ HR Hx2 HH3) as [H1 H2]; [done| |].
      { unfold a_result. destruct (enrich _ _ _ _ v); done. }
      unfold after_handle, handling. rewrite good_cons_snoc. split.
      { split; [done|]. cbn [app]. rewrite good_cons_snoc. split; [done|]. rewrite good_app.
        split; [exact Hg|]. rewrite foldl_snoc_app. exact H1. }
      { cbn. rewrite foldl_app, (foldl_snoc_app _ fs). exact H2. }
  - (* process *) intros o oo cy env h pi hs q st x ps g' ps' fs r HR Happ _ Hi Hl Hsort Hp.
    destruct (handling_start _ _ _ _ _ _ _ _ HR) as [Hc1 HH1].
    assert (Hty : h_type h = HTProcess) by (unfold h_type; rewrite Hi; done).
    set (x1 := snoc x (HandlingBegun (h_id h) env)) in *.
    assert (Hex1 : ext x x1) by apply ext_snoc.
    assert (Htmos : forall t, t ∈ pc_timeouts ps -> tm_ok x (h_id h) t).
    { intros t Hin. destruct HR as (((_ & _ & H3) & _) & _). eapply H3; eassumption. }
    assert (Htm1 : m_kind (e_msg env) = KTimeout -> tm_ok x1 (h_id h) env).
    { intros Hk. destruct HR as (_ & H5). eapply tm_ok_ext; [exact Hex1|]. apply H5; [done|left]. }
    (* cases in which no program is run *)
    assert (Hshort : forall g1 fs0 r0, g_next g1 = g_next (es_g st) ->
      good env_check snoc x1 fs0 -> (forall f, f ∈ fs0 -> quiet f = true /\ 
        (forall h' e, f <> HandlingBegun h' e) /\ (forall h' e err, f <> HandlingCompleted h' e err)) ->
      match r0 with HRet envs _ => envs = [] | HPan _ => True end ->
      after_handle env_check snoc RI RM oo cy env hs q (st_put st g1 h (CSProc ps)) x (handling h env fs0 r0) r0).
    { intros g1 fs0 r0 Hg Hgd Hq Hr0.
      assert (HH2 : HI oo cy q h env (es_cs st) g1 (x1 ++ fs0)).
      { assert (HH1' : HI oo cy q h env (es_cs st) g1 x1).
        { destruct HH1 as (H1 & H2). split; [|done]. rewrite Hg. exact H1. }
        apply HI_quiets; done. }
      assert (Hx2 : ext x (x1 ++ fs0)).
      { subst x1. unfold snoc. rewrite <- !app_assoc. apply ext_app. }
      destruct (handling_end _ _ _ _ _ _ _ _ _ (CSProc ps) _ r0 Happ HR Hx2 HH2) as [H1 H2].
      { intros ps0 t [= <-] Hin. eapply tm_ok_ext; [exact Hx2|]. auto. }
      { destruct r0; [|done]. subst. constructor. }
      unfold after_handle, handling. rewrite good_cons_snoc. split.
      { split; [done|]. rewrite good_app. split; [exact Hgd|]. rewrite foldl_snoc_app. exact H1. }
      { cbn. rewrite foldl_app, (foldl_snoc_app _ fs0). exact H2. } }
    apply p_handle_cases in Hp.
    pose proof (HI_env _ _ _ _ _ _ _ _ HH1) as He1.
    assert (HO1 : OI oo cy x1) by apply HH1.
    assert (Hck : forall x2 f, OI oo cy x2 -> env_ok x2 (oo_now oo) cy env -> quiet f = true -> fact_envs f = [env] ->
       (forall h' e, f <> HandlingBegun h' e) ->
       (forall h' e i, (f = ProcessTimeoutIgnored h' i e \/ (exists r, f = ProcessInstanceLoaded h' i r e)) ->
         m_kind (e_msg e) = KTimeout -> tm_ok x2 h' e /\ i = origin_instance e) ->
       (forall h' e i, f = ProcessInstanceNotFound h' i e \/ (exists r, f = ProcessInstanceBegun h' i r e) ->
          m_kind (e_msg e) = KEvent) -> env_check x2 f).
    { intros x2 f HO2 He2 Hq Hfe Hn Hti Hnf. eapply check_quiet; [done|exact HO2| | |done|done].
      - intros e He. rewrite Hfe in He. apply elem_of_list_singleton in He as ->. done.
      - intros h' e Hf. destruct (Hn _ _ Hf). }
    destruct Hp as [g1 v Hg|g1 e Hg Hk|g1 Hg Hk|og Hk Ho Hno|g1 id v Hg Hk Hno
                   |g1 id rt pre g2 s fs res Hcs Hg Hk Hpre Hrun].
    + apply Hshort; [done|done|intros f Hin; apply elem_of_nil in Hin; done|done].
    + apply Hshort; [done|done|intros f Hin; apply elem_of_nil in Hin; done|done].
    + apply Hshort; [done| |intros f Hin; apply elem_of_list_singleton in Hin as ->; done|done].
      split; [|done]. eapply Hck; try done; intros ? ? ? [?|[? ?]]; done.
    + apply Hshort; [done| |intros f Hin; apply elem_of_list_singleton in Hin as ->; done|done].
      split; [|done]. eapply Hck; try done; [|intros ? ? ? [?|[? ?]]; done].
      intros h' e i [[= <- <- <-]|[? ?]] _; [|done]. split; [apply Htm1; done|].
      unfold origin_instance. rewrite Ho. done.
    + apply Hshort; [done| | |done].
      * split; [|split; [|done]].
        -- eapply Hck; try done; [intros ? ? ? [?|[? ?]]; done|].
           intros ? ? ? [[= <- <- <-]|[? ?]]; done.
        -- eapply Hck; try done; [apply OI_quiet; done|eapply env_ok_ext; [apply ext_snoc|done]| |].
           ++ intros ? ? ? [?|[? ?]]; done.
           ++ intros ? ? ? [?|[? [= <- <- <- <-]]]; done.
      * intros f Hin. apply elem_of_cons in Hin as [->|Hin]; [done|].
        apply elem_of_list_singleton in Hin as ->. done.
    + assert (Hpre' : good env_check snoc x1 pre /\ HI oo cy q h env (es_cs st) g1 (x1 ++ pre)).
      { assert (HH1' : HI oo cy q h env (es_cs st) g1 x1).
        { destruct HH1 as (H1 & H2). split; [|done]. rewrite Hg. exact H1. }
        destruct Hpre as [[Hlk ->]|(Hlk & Hnew & ->)].
        - split; [split; [|done]|apply HI_quiet; done].
          eapply Hck; try done; [|intros ? ? ? [?|[? ?]]; done].
          intros h' e i [?|[? [= <- <- <- <-]]] Hkt; [done|]. split; [apply Htm1; done|].
          destruct Hk as [[Hk _]|(_ & Hk & _)]; [congruence|done].
        - assert (Hke : m_kind (e_msg env) = KEvent).
          { destruct Hk as [[Hk _]|(_ & _ & _ & [? Hk])]; [done|congruence]. }
          split; [split; [|split; [|done]]|].
          + eapply Hck; try done; [intros ? ? ? [?|[? ?]]; done|].
            intros ? ? ? [[= <- <- <-]|[? ?]]; done.
          + eapply Hck; try done; [apply OI_quiet; done|eapply env_ok_ext; [apply ext_snoc|done]| |].
            * intros ? ? ? [?|[? ?]]; done.
            * intros ? ? ? [?|[? [= <- <- <- <-]]]; done.
          + replace (x1 ++ [ProcessInstanceNotFound (h_id h) id env; ProcessInstanceBegun (h_id h) id (Some rt) env])
              with ((x1 ++ [ProcessInstanceNotFound (h_id h) id env]) ++ [ProcessInstanceBegun (h_id h) id (Some rt) env])
              by (rewrite <- app_assoc; done).
            apply HI_quiet; [done|done|done|]. apply HI_quiet; done. }
      destruct Hpre' as [Hgpre HH2].
      assert (HIP : IP oo cy q h env (es_cs st) g1 (mkPScope rt false [] [] []) (x1 ++ pre)).
      { split; [done|]. split; [constructor|]. split; constructor. }
      destruct (p_run_sim _ _ _ _ _ _ _ _ _ (IP_ok oo cy q h env (es_cs st) Happ o id Hty) _ _ _ _ _ _ _ _ HIP Hrun)
        as [Hgr (HH3 & Hcm & Hrd & Hpd)].
      rewrite foldl_snoc_app in HH3, Hcm, Hrd, Hpd.
      assert (Hx2 : ext x ((x1 ++ pre) ++ fs)).
      { subst x1. unfold snoc. rewrite <- !app_assoc. apply ext_app. }
      destruct (handling_end _ _ _ _ _ _ _ _ _ (CSProc (p_commit o id s ps res)) _ (p_result h env (p_method pi env id).1 s res) Happ HR Hx2 HH3) as [H1 H2].
      { intros ps0 t [= <-] Hin.
        assert (Hcase : t ∈ pc_timeouts ps \/ t ∈ ps_pending s).
        { unfold p_commit in Hin. clear -Hin Hsort. destruct res as [[e|]|v].
          - unfold p_store_mutation in Hin. destruct (pc_instances ps !! id); auto.
          - destruct (ps_ended s).
            + case_bool_decide; [|auto]. cbn in Hin. apply elem_of_list_filter in Hin as [_ Hin]. auto.
            + cbn in Hin. destruct (Hsort (pc_timeouts ps ++ ps_pending s)) as [Hperm _].
              rewrite Hperm in Hin. apply elem_of_app in Hin. done.
          - unfold p_store_mutation in Hin. destruct (pc_instances ps !! id); auto. }
        destruct Hcase as [Hc|Hc].
        - eapply tm_ok_ext; [exact Hx2|]. auto.
        - rewrite Forall_forall in Hpd. apply Hpd. done. }
      { unfold p_result. destruct res as [[e|]|v]; [constructor| |done].
        apply Forall_app. split; [done|]. destruct (ps_ended s); [constructor|done]. }
      unfold after_handle, handling. rewrite good_cons_snoc. split.
      { split; [done|]. rewrite <- app_assoc, good_app, good_app. split; [exact Hgpre|].
        rewrite !foldl_snoc_app. split; [exact Hgr|]. exact H1. }
      { cbn. rewrite !foldl_app, (foldl_snoc_app _ pre), (foldl_snoc_app _ fs). exact H2. }
  - (* integration *) intros o oo cy env h i hs q st x g' fs r HR Happ _ Hi Hl _ Ha.
    destruct (handling_start _ _ _ _ _ _ _ _ HR) as [Hc1 HH1].
    assert (Hty : h_type h = HTIntegration) by (unfold h_type; rewrite Hi; done).
    set (x1 := snoc x (HandlingBegun (h_id h) env)) in *.
    assert (Hex1 : ext x x1) by apply ext_snoc.
    apply i_handle_cases in Ha. destruct Ha as [v|g1 evs fs r Hcs Hrun].
    + destruct (handling_end _ _ _ _ _ _ _ _ _ CSInt _ (HPan v) Happ HR Hex1 HH1) as [H1 H2]; [done|done|].
      split; [split; done|]. exact H2.
    + assert (HI2 : II oo cy q h env (es_cs st) (es_g st) [] x1) by (split; [done|constructor]).
      destruct (i_run_sim _ _ _ _ _ _ _ (II_ok oo cy q h env (es_cs st) Happ o Hty) _ _ _ _ _ _ _ _ HI2 Hrun)
        as [Hg [HH3 Hev]].
      rewrite foldl_snoc_app in HH3, Hev.
      assert (Hx2 : ext x (x1 ++ fs)).
      { subst x1. unfold snoc. rewrite <- !app_assoc. apply ext_app. }
      destruct (handling_end _ _ _ _ _ _ _ _ _ CSInt _ (i_result h env evs r) Happ HR Hx2 HH3) as [H1 H2]; [done| |].
      { destruct r; done. }
      unfold after_handle, handling. rewrite good_cons_snoc. split.
      { split; [done|]. rewrite good_app. split; [exact Hg|]. rewrite foldl_snoc_app. exact H1. }
      { cbn. rewrite foldl_app, (foldl_snoc_app _ fs). exact H2. }
  - (* projection *) intros o oo cy env h j hs q st x last g' fs r HR Happ _ Hi Hl _ Ha.
    destruct (handling_start _ _ _ _ _ _ _ _ HR) as [Hc1 HH1].
    set (x1 := snoc x (HandlingBegun (h_id h) env)) in *.
    apply j_handle_facts in Ha as (Hf & Hg & Hr).
    destruct (proj_ignore oo cy h (Some env) x1 fs) as [Hgd Hqs]; [apply HH1|eapply HI_env; exact HH1|done|].
    assert (HH3 : HI oo cy q h env (es_cs st) g' (x1 ++ fs)).
    { apply HI_quiets; [intros f Hin; destruct (Hqs f Hin) as (? & _ & ?); done|]. destruct HH1 as (H1 & H2). split; [|done]. rewrite Hg. exact H1. }
    assert (Hx2 : ext x (x1 ++ fs)).
    { subst x1. unfold snoc. rewrite <- !app_assoc. apply ext_app. }
    destruct (handling_end _ _ _ _ _ _ _ _ _ (CSProj last) _ r Happ HR Hx2 HH3) as [H1 H2]; [done| |].
    { destruct r; [|done]. rewrite (Hr _ _ eq_refl). constructor. }
    unfold after_handle, handling. rewrite good_cons_snoc. split.
    { split; [done|]. rewrite good_app. split; [exact Hgd|]. rewrite foldl_snoc_app. exact H1. }
    { cbn. rewrite foldl_app, (foldl_snoc_app _ fs). exact H2. }
  - (* message end *) intros oo cy env q st x err (HR & _). split.
    + destruct HR as (H1 & H2 & H3 & H4). eapply check_plain; [done|done|exact H2|].
      intros e He. apply elem_of_list_singleton in He as ->. apply Forall_cons in H3 as [H3 _]. done.
    + unfold snoc.
      assert (HR' : RO oo cy (env :: q) st (x ++ [DispatchCompleted env err])) by (apply RO_quiet; done).
      destruct HR' as (H1 & H2 & H3 & H4). split; [done|]. split; [done|]. split; [|done].
      apply Forall_cons in H3 as [_ H3]. done.
Qed.

End EnvSim.

(** ** Histories *)
Section EnvHistory.
Context {P : Params}.
Implicit Types (c : Config) (u : U) (ops : list Op) (st : EState) (evs : list Ev) (fin : bool).

Lemma since_reset_snoc evs ev :
  since_reset (evs ++ [ev]) = match ev with EvFact f => since_reset evs ++ [f] | EvReset => [] end.
Proof. unfold since_reset. rewrite foldl_snoc. done. Qed.

Lemma since_reset_occurs evs pre f post :
  since_reset evs = pre ++ f :: post -> occurs evs pre f.
Proof.
  revert post. induction evs as [|ev evs IH] using rev_ind; intros post H.
  - cbn in H. destruct pre; done.
  - rewrite since_reset_snoc in H. destruct ev as [f'|]; [|destruct pre; done].
    apply app_snoc_inv in H as [(-> & -> & ->)|(post' & -> & H)].
    + exists evs, []. done.
    + destruct (IH _ H) as (before & after & -> & ->). exists before, (after ++ [EvFact f']).
      rewrite <- app_assoc. done.
Qed.

Lemma fresh_of_app x y : fresh_of (x ++ y) = fresh_of x ++ fresh_of y.
Proof.
  induction y as [|f y IH] using rev_ind; [cbn; rewrite !app_nil_r; done|].
  rewrite app_assoc, !fresh_of_snoc, IH, app_assoc. done.
Qed.

Lemma RI_init c u : RI c (e_init c u) [].
Proof.
  split; [apply ids_ok_nil|]. split; [apply tree_ok_nil|].
  intros hd ps t Hin Hl Ht. cbn in Hl. rewrite lookup_fmap in Hl.
  destruct (controllers c !! h_name hd) as [h|]; [|done]. cbn in Hl. unfold cs_init in Hl.
  destruct (h_impl h); try done. injection Hl as <-. apply elem_of_nil in Ht. done.
Qed.

Lemma env_history c u ops st evs fin :
  history c u ops st evs fin ->
  good_evs (env_check c) snoc clear [] evs /\ RI c st (since_reset evs).
Proof.
  intros (Hok & Hops & Hrun).
  destruct (sim_ops c (env_check c) snoc clear (RI c) (RO c) (RM c) (RT c) Hok (env_sim c Hok)
              ops _ [] _ _ _ (e_init_ok c u Hok) (RI_init c u) Hops Hrun) as (_ & Hg & Ha).
  split; [done|]. rewrite since_reset_upd in Ha. unfold after_ops in Ha.
  destruct fin; [exact Ha|]. destruct Ha as (oo & cy & q & Ha & _). exact Ha.
Qed.

Lemma env_checked c u ops st evs fin pre f :
  history c u ops st evs fin -> occurs evs pre f -> env_check c pre f.
Proof. intros H Ho. apply env_history in H as [H _]. eapply good_evs_occurs; eassumption. Qed.

Lemma C01_lemma c u ops st evs fin :
  history c u ops st evs fin -> (g_next (es_g st) < 2 ^ 64)%N ->
  NoDup (e_id <$> fresh_of (since_reset evs)) /\
  (forall f f' e e', f ∈ since_reset evs -> f' ∈ since_reset evs -> e ∈ fact_envs f -> e' ∈ fact_envs f' ->
     e_id e = e_id e' -> e = e').
Proof.
  intros H Hn. destruct (env_history _ _ _ _ _ _ H) as [_ (Hi & _)].
  pose proof (ids_ok_NoDup _ _ Hn Hi) as Hnd. split; [done|].
  assert (Hin : forall f e, f ∈ since_reset evs -> e ∈ fact_envs f -> e ∈ fresh_of (since_reset evs)).
  { intros f e Hf He. apply elem_of_list_split in Hf as (pre & post & Heq).
    pose proof (env_checked _ _ _ _ _ _ _ _ H (since_reset_occurs _ _ _ _ Heq)) as (_ & _ & _ & Hk & _).
    rewrite Heq. replace (pre ++ f :: post) with ((pre ++ [f]) ++ post) by (rewrite <- app_assoc; done).
    rewrite fresh_of_app, fresh_of_snoc. apply elem_of_app. left. apply Hk. done. }
  intros f f' e e' Hf Hf' He He' Hid. pose proof (Hin f e Hf He) as H1. pose proof (Hin f' e' Hf' He') as H2.
  apply elem_of_list_lookup in H1 as [i H1]. apply elem_of_list_lookup in H2 as [j H2].
  assert (i = j) as ->; [|congruence].
  eapply (NoDup_lookup _ i j (e_id e)); [exact Hnd| |]; rewrite list_lookup_fmap; [rewrite H1|rewrite H2]; cbn; congruence.
Qed.

Lemma C02_lemma c u ops st evs fin pre f e r :
  history c u ops st evs fin -> occurs evs pre f ->
  e ∈ fact_envs f -> cycle_root (pre ++ [f]) = Some r -> e_corr e = e_id r.
Proof.
  intros H Ho He Hr. pose proof (env_checked _ _ _ _ _ _ _ _ H Ho) as (_ & _ & Hc & _).
  rewrite cycle_root_snoc in Hr. apply Hc; [done| | |].
  - destruct f; cbn in Hr; auto; [injection Hr as ->; eauto|done].
  - intros now et eh ->. done.
  - intros r' now et eh ->. cbn in Hr. congruence.
Qed.

Lemma C03_lemma c u ops st evs fin :
  history c u ops st evs fin ->
  (forall pre e now et eh, occurs evs pre (DispatchCycleBegun e now et eh) ->
     e_cause e = e_id e /\ e_corr e = e_id e /\ e_origin e = None) /\
  (forall pre f h i e ev, occurs evs pre f -> produced f = Some (h, i, e, ev) ->
     in_handling pre = Some (h, e) /\ e ∈ fresh_of pre /\
     e_cause ev = e_id e /\ e_corr ev = e_corr e) /\
  (forall e, e ∈ fresh_of (since_reset evs) ->
     exists r, Descends (fresh_of (since_reset evs)) e r /\ e_corr e = e_id r).
Proof.
  intros H. split; [|split].
  - intros pre e now et eh Ho. pose proof (env_checked _ _ _ _ _ _ _ _ H Ho) as (H1 & _).
    destruct (H1 _ _ _ _ eq_refl) as (H2 & _). exact H2.
  - intros pre f h i e ev Ho Hp. pose proof (env_checked _ _ _ _ _ _ _ _ H Ho) as (_ & H1 & _).
    destruct (H1 _ _ _ _ Hp) as (H2 & H3 & H4 & H5 & _). done.
  - intros e He. apply env_history in H as [_ (_ & Ht & _)].
    destruct (tree_ok_descends _ Ht e He) as (r & H1 & _ & _ & H2). eauto.
Qed.

Lemma C04_lemma c u ops st evs fin :
  history c u ops st evs fin ->
  (forall pre f h i e ev, occurs evs pre f -> produced f = Some (h, i, e, ev) ->
     engine_time pre = Some (e_created ev) /\ e_origin ev = Some (mkOrigin h (hid_type h) i)) /\
  (forall pre e now et eh, occurs evs pre (DispatchCycleBegun e now et eh) -> e_created e = now).
Proof.
  intros H. split.
  - intros pre f h i e ev Ho Hp. pose proof (env_checked _ _ _ _ _ _ _ _ H Ho) as (_ & H1 & _).
    destruct (H1 _ _ _ _ Hp) as (_ & _ & _ & _ & H2 & H3 & _). done.
  - intros pre e now et eh Ho. pose proof (env_checked _ _ _ _ _ _ _ _ H Ho) as (H1 & _).
    destruct (H1 _ _ _ _ eq_refl) as (_ & H2 & _). done.
Qed.

Lemma C04_schedule_lemma o h now env id meth b t g s g' s' fs :
  p_schedule o h now env id meth b t g s = (g', s', fs, None) ->
  exists fs' r tm, fs = fs' ++ [TimeoutScheduledByProcess (h_id h) id r env tm] /\
    e_sched tm = t /\ m_body (e_msg tm) = b.
Proof.
  unfold p_schedule. destruct (p_check _ _ _ _); [done|]. destruct (p_revert _ _ _ _) as [s1 fs1].
  destruct (next_id o g) as [g1 mid]. intros [= <- <- <-].
  eexists _, _, _. split; [reflexivity|]. done.
Qed.

Lemma C10_lemma c u ops st evs fin pre f h i e ev :
  history c u ops st evs fin -> occurs evs pre f -> produced f = Some (h, i, e, ev) ->
  m_invalid (e_msg ev) = None /\ Some (m_kind (e_msg ev)) = produced_kind f /\
  exists hd, hd ∈ c_app c /\ h_id hd = h /\ m_type (e_msg ev) ∈ h_produced hd.
Proof.
  intros H Ho Hp. pose proof (env_checked _ _ _ _ _ _ _ _ H Ho) as (_ & H1 & _).
  destruct (H1 _ _ _ _ Hp) as (_ & _ & _ & _ & _ & _ & H2 & H3 & H4). done.
Qed.

Lemma C10_scope_lemma o h now env id (b : Body) g :
  (b_invalid b <> None \/ (KEvent, b_name b) ∉ h_produced h ->
     (forall a s, exists d, a_record o h a now env id b g s =
        (g, s, [], Some (PUnexpBeh (h_id h) "AggregateMessageHandler" "HandleCommand" (e_msg env) d))) /\
     (forall s, exists d, i_record o h now env b g s =
        (g, s, [], Some (PUnexpBeh (h_id h) "IntegrationMessageHandler" "HandleCommand" (e_msg env) d)))) /\
  (b_invalid b <> None \/ (KCommand, b_name b) ∉ h_produced h ->
     forall meth s, exists d, p_execute o h now env id meth b g s =
        (g, s, [], Some (PUnexpBeh (h_id h) "ProcessMessageHandler" meth (e_msg env) d))) /\
  (b_invalid b <> None \/ (KTimeout, b_name b) ∉ h_produced h ->
     forall meth t s, exists d, p_schedule o h now env id meth b t g s =
        (g, s, [], Some (PUnexpBeh (h_id h) "ProcessMessageHandler" meth (e_msg env) d))).
Proof.
  assert (Hp : forall k, b_invalid b <> None \/ (k, b_name b) ∉ h_produced h ->
     produces h (m_type (mkMsg k b)) = false \/ exists e, m_invalid (mkMsg k b) = Some e).
  { intros k [H|H].
    - right. unfold m_invalid. cbn. destruct (b_invalid b); [eauto|done].
    - left. unfold produces. apply bool_decide_eq_false. exact H. }
  split; [|split].
  - intros H. apply Hp in H. split.
    + intros a s. unfold a_record. destruct (produces _ _); cbn [negb]; [|eauto].
      destruct H as [H|[e H]]; [done|]. rewrite H. eauto.
    + intros s. unfold i_record. destruct (produces _ _); cbn [negb]; [|eauto].
      destruct H as [H|[e H]]; [done|]. rewrite H. eauto.
  - intros H meth s. apply Hp in H. unfold p_execute, p_check.
    destruct (produces _ _); cbn [negb]; [|unfold p_beh; eauto].
    destruct H as [H|[e H]]; [done|]. rewrite H. unfold p_beh. eauto.
  - intros H meth t s. apply Hp in H. unfold p_schedule, p_check.
    destruct (produces _ _); cbn [negb]; [|unfold p_beh; eauto].
    destruct H as [H|[e H]]; [done|]. rewrite H. unfold p_beh. eauto.
Qed.

Lemma C13_lemma c u ops st evs fin pre h e :
  history c u ops st evs fin -> occurs evs pre (HandlingBegun h e) -> m_kind (e_msg e) = KTimeout ->
  exists now, engine_time pre = Some now /\ (e_sched e <= now)%Z.
Proof.
  intros H Ho Hk. pose proof (env_checked _ _ _ _ _ _ _ _ H Ho) as (_ & _ & _ & _ & H1 & _).
  destruct (H1 _ _ eq_refl Hk) as (now & i & H2 & H3 & _). eauto.
Qed.

Lemma C17_lemma c u ops st evs fin :
  history c u ops st evs fin ->
  (forall pre h e, occurs evs pre (HandlingBegun h e) -> m_kind (e_msg e) = KTimeout ->
     exists i, (h, i, e) ∈ scheduled pre) /\
  (forall pre h i r e, occurs evs pre (ProcessInstanceLoaded h i r e) -> m_kind (e_msg e) = KTimeout ->
     (h, i, e) ∈ scheduled pre) /\
  (forall pre h i e, occurs evs pre (ProcessTimeoutIgnored h i e) -> m_kind (e_msg e) = KTimeout ->
     (h, i, e) ∈ scheduled pre) /\
  (forall pre h i e, occurs evs pre (ProcessInstanceNotFound h i e) -> m_kind (e_msg e) = KEvent) /\
  (forall pre h i r e, occurs evs pre (ProcessInstanceBegun h i r e) -> m_kind (e_msg e) = KEvent).
Proof.
  intros H. split; [|split; [|split; [|split]]].
  - intros pre h e Ho Hk. pose proof (env_checked _ _ _ _ _ _ _ _ H Ho) as (_ & _ & _ & _ & H1 & _).
    destruct (H1 _ _ eq_refl Hk) as (now & i & _ & _ & H2). eauto.
  - intros pre h i r e Ho Hk. pose proof (env_checked _ _ _ _ _ _ _ _ H Ho) as (_ & _ & _ & _ & _ & H1 & _).
    apply H1; eauto.
  - intros pre h i e Ho Hk. pose proof (env_checked _ _ _ _ _ _ _ _ H Ho) as (_ & _ & _ & _ & _ & H1 & _).
    apply H1; eauto.
  - intros pre h i e Ho. pose proof (env_checked _ _ _ _ _ _ _ _ H Ho) as (_ & _ & _ & _ & _ & _ & H1).
    eapply H1; eauto.
  - intros pre h i r e Ho. pose proof (env_checked _ _ _ _ _ _ _ _ H Ho) as (_ & _ & _ & _ & _ & _ & H1).
    eapply H1; eauto.
Qed.

Lemma C17_ignored_lemma o h pi now env g ps og :
  consumes h (m_type (e_msg env)) = true ->
  m_kind (e_msg env) = KTimeout -> e_origin env = Some og -> pc_instances ps !! o_instance og = None ->
  p_handle o h pi now env g ps = (g, ps, [ProcessTimeoutIgnored (h_id h) (o_instance og) env], HRet [] None).
Proof.
  intros Hc Hk Ho Hi. unfold p_handle, p_route. rewrite Hc, Hk, Ho, Hi. done.
Qed.
End EnvHistory.
