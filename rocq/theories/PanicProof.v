(** * Where the panic of an operation comes from. *)
From Verif Require Import PanicSpec EngineFacts HistSim ProcProof OpProof OpFacts.

Section PanicProof.
Context {P : Params}.
Implicit Types (c : Config) (o : Oracle) (h : Handler) (st : EState).

Lemma enrich_named h iface meth m w v : enrich (h_id h) iface meth m w = Some v -> exists w', w = Some w' /\ v = named h iface meth m w'.
Proof. destruct w as [w|]; [|done]. intros H. exists w. split; [done|]. destruct w; injection H as <-; done. Qed.

Lemma hp_conv c now h env x y : HandlingPanics c now h env x -> x = y -> HandlingPanics c now h env y.
Proof. intros H <-. exact H. Qed.
Lemma m_type_kind (m : Msg) : (m_type m).1 = m_kind m.
Proof. done. Qed.

(** A message that the engine can deliver; a store the controllers rely on. *)
Definition deliverable c (e : Env) : Prop :=
  m_kind (e_msg e) = KTimeout ->
  exists og h, e_origin e = Some og /\ controllers c !! hid_name (o_handler og) = Some h /\ m_type (e_msg e) ∈ h_consumed h.
Definition good_event h (e : Env) : Prop := m_kind (e_msg e) = KEvent /\ m_type (e_msg e) ∈ h_produced h.
Definition good_cs c h (cs : CState) : Prop :=
  cs_match h cs /\
  match cs with
  | CSAgg hist => forall id l, hist !! id = Some l -> Forall (good_event h) l
  | CSProc ps => Forall (deliverable c) (pc_timeouts ps)
  | _ => True
  end.
Definition good_st c st : Prop := forall h, h ∈ c_app c -> exists cs, es_cs st !! h_name h = Some cs /\ good_cs c h cs.

(** ** Aggregates *)
Lemma a_replay_panics h a evs : Forall (good_event h) evs -> forall r r' v,
  a_replay h a r evs = (r', Some v) -> exists m, applies h a m v.
Proof.
  induction 1 as [|e l [Hk Ht] _ IH]; intros r r' v; cbn; [done|].
  destruct (ag_apply a r (e_msg e)) as [r2 w] eqn:Ea. destruct (enrich _ _ _ _ w) as [w'|] eqn:Ew; [|apply IH].
  intros [= <- <-]. apply enrich_named in Ew as (w0 & -> & ->). exists (e_msg e). split; [done|]. split; [done|].
  exists r, r2, w0. done.
Qed.

Definition a_scope h a env (m : Msg) (v : PVal) : Prop :=
  complains h "AggregateMessageHandler" "HandleCommand" env m v \/ applies h a m v.

Lemma a_record_panics o h a now env id b g s g' s' fs v :
  Forall (good_event h) (as_events s) -> a_record o h a now env id b g s = (g', s', fs, v) ->
  Forall (good_event h) (as_events s') /\ forall x, v = Some x -> a_scope h a env (mkMsg KEvent b) x.
Proof.
  intros Hs. unfold a_record.
  destruct (produces h _) eqn:Ep; cbn [negb].
  2:{ intros [= <- <- <- <-]. split; [done|]. intros x [= <-]. left. eexists. split; [|done].
      cbn. split; [done|]. apply bool_decide_eq_false in Ep. exact Ep. }
  apply bool_decide_eq_true in Ep.
  destruct (m_invalid _) as [e|] eqn:Ei.
  { intros [= <- <- <- <-]. split; [done|]. intros x [= <-]. left. eexists. split; [|done]. done. }
  assert (Hs1 : exists s1 fs1, (if as_exists s then (s, []) else
        (mkAScope (as_hroot s) (as_own s) true false (as_events s),
         [if as_destroyed s then AggregateInstanceDestructionReverted (h_id h) id (as_root s) env
          else AggregateInstanceCreated (h_id h) id (as_root s) env])) = (s1, fs1) /\ as_events s1 = as_events s).
  { destruct (as_exists s); eexists _, _; done. }
  destruct Hs1 as (s1 & fs1 & -> & He). rewrite <- He in Hs.
  destruct (ag_apply a (as_root s1) (mkMsg KEvent b)) as [r w] eqn:Ea.
  assert (Hr : as_events (as_set_root s1 r) = as_events s1) by (unfold as_set_root; destruct (as_own s1); done).
  destruct (enrich _ _ _ _ w) as [w'|] eqn:Ew.
  - intros [= <- <- <- <-]. split; [rewrite Hr; done|]. intros x [= <-]. right.
    apply enrich_named in Ew as (w0 & -> & ->). split; [done|]. split; [exact Ep|]. exists (as_root s1), r, w0. done.
  - destruct (next_id o g) as [g1 mid]. intros [= <- <- <- <-]. split; [|done]. cbn [as_events]. rewrite Hr.
    apply Forall_app. split; [done|]. constructor; [|constructor]. split; [done|exact Ep].
Qed.

Lemma a_run_panics o h a now env id p : forall g s g' s' fs v,
  Forall (good_event h) (as_events s) -> a_run o h a now env id p g s = (g', s', fs, v) ->
  Forall (good_event h) (as_events s') /\ forall x, v = Some x -> ARaises (a_scope h a env) p x.
Proof.
  induction p as [|w|f k IH|f k IH|b k IH|k IH|str k IH]; intros g s g' s' fs v Hs; cbn [a_run].
  - intros [= <- <- <- <-]. done.
  - intros [= <- <- <- <-]. split; [done|]. intros x [= <-]. constructor.
  - intros H. apply IH in H as [H1 H2]; [|done]. split; [done|]. intros x Hx. econstructor. eauto.
  - intros H. apply IH in H as [H1 H2]; [|done]. split; [done|]. intros x Hx. econstructor. eauto.
  - destruct (a_record _ _ _ _ _ _ _ _ _) as [[[g1 s1] fs1] v1] eqn:E. apply a_record_panics in E as [E1 E2]; [|done].
    destruct (a_run _ _ _ _ _ _ (k v1) _ _) as [[[g2 s2] fs2] v2] eqn:E3. intros [= <- <- <- <-].
    apply IH in E3 as [H1 H2]; [|done]. split; [done|]. intros x Hx. eapply ar_record; [exact E2|eauto].
  - destruct (a_destroy _ _ _ _ _) as [s1 fs1] eqn:E.
    assert (He : as_events s1 = as_events s) by (unfold a_destroy in E; destruct (as_exists s); injection E as <- _; done).
    destruct (a_run _ _ _ _ _ _ k _ _) as [[[g2 s2] fs2] v2] eqn:E3. intros [= <- <- <- <-].
    apply IH in E3 as [H1 H2]; [|rewrite He; done]. split; [done|]. intros x Hx. constructor. eauto.
  - destruct (a_run _ _ _ _ _ _ k _ _) as [[[g2 s2] fs2] v2] eqn:E3. intros [= <- <- <- <-].
    apply IH in E3 as [H1 H2]; [|done]. split; [done|]. intros x Hx. constructor. eauto.
Qed.

Lemma good_event_deliverable c h evs : Forall (good_event h) evs -> Forall (deliverable c) evs.
Proof. intros H. eapply Forall_impl; [exact H|]. intros e [Hk _] Hk'. congruence. Qed.

Lemma a_handle_panics c o h a now env g hist g' hist' fs r :
  h_impl h = ImplAgg a -> m_type (e_msg env) ∈ h_consumed h ->
  (forall id l, hist !! id = Some l -> Forall (good_event h) l) ->
  a_handle o h a now env g hist = (g', hist', fs, r) ->
  (forall id l, hist' !! id = Some l -> Forall (good_event h) l) /\
  match r with HRet envs _ => Forall (deliverable c) envs | HPan v => HandlingPanics c now h env v end.
Proof.
  intros Ei Hc Hh. unfold a_handle. unfold consumes. rewrite bool_decide_true by done. cbn [negb].
  destruct (ag_route a _) as [id|v0] eqn:Er.
  2:{ intros [= <- <- <- <-]. split; [done|]. eapply hp_conv; [eapply hp_agg_route; done|destruct v0; done]. }
  destruct (decide _) as [->|Hid].
  { intros [= <- <- <- <-]. split; [done|]. eapply hp_agg_empty; done. }
  destruct (ag_new a) as [r0|] eqn:En; [|intros [= <- <- <- <-]; split; [done|]; eapply hp_agg_new; done].
  assert (Hl : Forall (good_event h) (default [] (hist !! id))).
  { destruct (hist !! id) as [l|] eqn:El; [eapply Hh; exact El|constructor]. }
  destruct (a_replay _ _ _ _) as [r1 [v1|]] eqn:Ea.
  { intros [= <- <- <- <-]. split; [done|]. eapply a_replay_panics in Ea as (m & Hap); [|done]. eapply hp_agg_replay; [done|done|done|rewrite En; done|done]. }
  destruct (a_run _ _ _ _ _ _ _ _ _) as [[[g3 s3] fs3] v3] eqn:Erun.
  apply a_run_panics in Erun as [H1 H2]; [|constructor].
  destruct (enrich _ _ _ _ v3) as [w|] eqn:Ew.
  - intros [= <- <- <- <-]. split; [done|]. apply enrich_named in Ew as (w0 & -> & ->). eapply hp_agg_handle; [done|done|done|rewrite En; done|auto].
  - intros [= <- <- <- <-]. split; [|eapply good_event_deliverable; done].
    intros id' l'. destruct (as_exists s3).
    + destruct (decide (id = id')) as [<-|Hne].
      * rewrite lookup_insert. intros [= <-]. apply Forall_app. done.
      * rewrite lookup_insert_ne by done. apply Hh.
    + intros H. apply lookup_delete_Some in H as [_ H]. eapply Hh. exact H.
Qed.

(** ** Processes *)
Lemma p_check_some h env meth m v : p_check h env meth m = Some v -> complains h "ProcessMessageHandler" meth env m v.
Proof.
  unfold p_check, p_beh. destruct (produces h _) eqn:Ep; cbn [negb].
  - destruct (m_invalid m) as [e|] eqn:Ei; [|done]. intros [= <-]. eexists. split; [|done]. done.
  - intros [= <-]. eexists. split; [|done]. split; [done|]. apply bool_decide_eq_false in Ep. exact Ep.
Qed.
Lemma p_check_none h env meth m : p_check h env meth m = None -> m_type m ∈ h_produced h.
Proof.
  unfold p_check. destruct (produces h _) eqn:Ep; [|done]. intros _. apply bool_decide_eq_true in Ep. exact Ep.
Qed.

Definition p_good c (s : PScope) : Prop :=
  Forall (deliverable c) (ps_commands s) /\ Forall (deliverable c) (ps_ready s) /\ Forall (deliverable c) (ps_pending s).
Lemma p_revert_good c h env id s s' fs : p_good c s -> p_revert h env id s = (s', fs) -> p_good c s'.
Proof. unfold p_revert. destruct (ps_ended s); intros H [= <- _]; done. Qed.

Section Proc.
Context (c : Config) (Hok : app_ok c) (o : Oracle) (h : Handler) (Hin : h ∈ c_app c) (pi : ProcImpl) (Hi : h_impl h = ImplProc pi).
Context (now : Z) (env : Env).

Lemma new_timeout_deliverable mid b t id : m_type (mkMsg KTimeout b) ∈ h_produced h ->
  deliverable c (new_timeout env mid (mkMsg KTimeout b) now t (mkOrigin (h_id h) HTProcess id)).
Proof.
  intros Hp _. eexists _, h. split; [done|]. split; [apply controllers_complete; done|].
  destruct Hok as [_ Hh]. specialize (Hh h Hin). unfold handler_ok in Hh. rewrite Hi in Hh. destruct Hh as [_ Hh].
  destruct (Hh _ Hp) as [Hk|[_ Hk]]; [done|exact Hk].
Qed.

Lemma p_run_panics id meth p : forall g s g' s' fs r,
  p_good c s -> p_run o h now env id meth p g s = (g', s', fs, r) ->
  p_good c s' /\ forall x, r = inr x -> PRaises (complains h "ProcessMessageHandler" meth env) p x.
Proof.
  induction p as [e|w|f k IH|f k IH|b k IH|b t k IH|k IH|str k IH]; intros g s g' s' fs r Hs; cbn [p_run].
  - intros [= <- <- <- <-]. done.
  - intros [= <- <- <- <-]. split; [done|]. intros x [= <-]. constructor.
  - intros H. apply IH in H as [H1 H2]; [|done]. split; [done|]. intros x Hx. econstructor. eauto.
  - intros H. apply IH in H as [H1 H2]; [|done]. split; [done|]. intros x Hx. econstructor. eauto.
  - destruct (p_execute _ _ _ _ _ _ _ _ _) as [[[g1 s1] fs1] v1] eqn:E.
    assert (HE : p_good c s1 /\ forall x, v1 = Some x -> complains h "ProcessMessageHandler" meth env (mkMsg KCommand b) x).
    { unfold p_execute in E. destruct (p_check _ _ _ _) as [w|] eqn:Ec.
      - injection E as <- <- <- <-. split; [done|]. intros x [= <-]. apply p_check_some. done.
      - destruct (p_revert _ _ _ _) as [s2 fs2] eqn:Er. apply (p_revert_good c) in Er; [|done].
        destruct (next_id o g) as [g2 mid]. injection E as <- <- <- <-. split; [|done]. destruct Er as (E1 & E2 & E3).
        split; [|split; done]. cbn. apply Forall_app. split; [done|]. constructor; [|constructor]. intros Hk; done. }
    destruct HE as [E1 E2].
    destruct (p_run _ _ _ _ _ _ (k v1) _ _) as [[[g2 s2] fs2] v2] eqn:E3. intros [= <- <- <- <-].
    apply IH in E3 as [H1 H2]; [|done]. split; [done|]. intros x Hx. eapply pr_execute; [exact E2|eauto].
  - destruct (p_schedule _ _ _ _ _ _ _ _ _ _) as [[[g1 s1] fs1] v1] eqn:E.
    assert (HE : p_good c s1 /\ forall x, v1 = Some x -> complains h "ProcessMessageHandler" meth env (mkMsg KTimeout b) x).
    { unfold p_schedule in E. destruct (p_check _ _ _ _) as [w|] eqn:Ec.
      - injection E as <- <- <- <-. split; [done|]. intros x [= <-]. apply p_check_some. done.
      - apply p_check_none in Ec. destruct (p_revert _ _ _ _) as [s2 fs2] eqn:Er. apply (p_revert_good c) in Er; [|done].
        destruct (next_id o g) as [g2 mid]. injection E as <- <- <- <-. split; [|done]. destruct Er as (E1 & E2 & E3).
        pose proof (new_timeout_deliverable mid b t id Ec) as Hd.
        destruct (now <? t)%Z; (split; [done|]); (split; [try done|try done]); cbn; apply Forall_app; (split; [done|]); constructor; [exact Hd|constructor|exact Hd|constructor]. }
    destruct HE as [E1 E2].
    destruct (p_run _ _ _ _ _ _ (k v1) _ _) as [[[g2 s2] fs2] v2] eqn:E3. intros [= <- <- <- <-].
    apply IH in E3 as [H1 H2]; [|done]. split; [done|]. intros x Hx. eapply pr_schedule; [exact E2|eauto].
  - destruct (p_end _ _ _ _) as [s1 fs1] eqn:E.
    assert (He : p_good c s1) by (unfold p_end in E; destruct (ps_ended s); injection E as <- _; done).
    destruct (p_run _ _ _ _ _ _ k _ _) as [[[g2 s2] fs2] v2] eqn:E3. intros [= <- <- <- <-].
    apply IH in E3 as [H1 H2]; [|done]. split; [done|]. intros x Hx. constructor. eauto.
  - destruct (p_run _ _ _ _ _ _ k _ _) as [[[g2 s2] fs2] v2] eqn:E3. intros [= <- <- <- <-].
    apply IH in E3 as [H1 H2]; [|done]. split; [done|]. intros x Hx. constructor. eauto.
Qed.

Context (Hsort : sort_ok o).
Context (Hc : m_type (e_msg env) ∈ h_consumed h) (Horg : m_kind (e_msg env) = KTimeout -> is_Some (e_origin env)).

Lemma proc_kind : m_kind (e_msg env) = KEvent \/ m_kind (e_msg env) = KTimeout.
Proof.
  destruct Hok as [_ Hh]. specialize (Hh h Hin). unfold handler_ok in Hh. rewrite Hi in Hh. destruct Hh as [Hh _].
  destruct (Hh _ Hc) as [Hk|[Hk _]]; rewrite m_type_kind in Hk; auto.
Qed.

Lemma p_handle_instance_panics id rt g ps g' ps' fs r :
  Forall (deliverable c) (pc_timeouts ps) -> p_handle_instance o h pi now env id rt g ps = (g', ps', fs, r) ->
  Forall (deliverable c) (pc_timeouts ps') /\
  match r with HRet envs _ => Forall (deliverable c) envs | HPan v => HandlingPanics c now h env v end.
Proof.
  intros Hps. unfold p_handle_instance.
  set (mp := match m_kind (e_msg env) with KTimeout => _ | _ => _ end). destruct mp as [meth prog] eqn:Em.
  destruct (p_run _ _ _ _ _ _ _ _ _) as [[[g1 s1] fs1] r1] eqn:E.
  apply p_run_panics in E as [(H1 & H2 & H3) H4]; [|repeat split; constructor].
  assert (Hst : Forall (deliverable c) (pc_timeouts (p_store_mutation id s1 ps))).
  { unfold p_store_mutation. destruct (pc_instances ps !! id); done. }
  destruct r1 as [[e|]|w].
  - intros [= <- <- <- <-]. split; [done|constructor].
  - destruct (ps_ended s1).
    + intros [= <- <- <- <-]. split; [|done]. destruct (bool_decide _); [|done]. cbn. apply Forall_filter. done.
    + intros [= <- <- <- <-]. split; [|apply Forall_app; done]. cbn. destruct (Hsort (pc_timeouts ps ++ ps_pending s1)) as [Hp _].
      rewrite Hp. apply Forall_app. done.
  - intros [= <- <- <- <-]. split; [done|]. specialize (H4 w eq_refl). subst mp.
    destruct proc_kind as [Hk|Hk]; rewrite Hk in Em; injection Em as <- <-.
    + eapply hp_conv; [eapply hp_proc_event; done|destruct w; done].
    + eapply hp_conv; [eapply hp_proc_timeout; done|destruct w; done].
Qed.

Lemma p_handle_panics g ps g' ps' fs r :
  Forall (deliverable c) (pc_timeouts ps) -> p_handle o h pi now env g ps = (g', ps', fs, r) ->
  Forall (deliverable c) (pc_timeouts ps') /\
  match r with HRet envs _ => Forall (deliverable c) envs | HPan v => HandlingPanics c now h env v end.
Proof.
  intros Hps. unfold p_handle. unfold consumes. rewrite bool_decide_true by done. cbn [negb].
  destruct (p_route _ _ _ _ _) as [[g1 fs1] rt] eqn:Er.
  destruct rt as [id| |e|v].
  - destruct (pc_instances ps !! id) as [rt|].
    + destruct (p_handle_instance _ _ _ _ _ _ _ _ _) as [[[g2 ps2] fs2] r2] eqn:E. intros [= <- <- <- <-].
      eapply p_handle_instance_panics; done.
    + destruct (pr_new pi) as [rt|] eqn:En.
      * destruct (p_handle_instance _ _ _ _ _ _ _ _ _) as [[[g2 ps2] fs2] r2] eqn:E. intros [= <- <- <- <-].
        eapply p_handle_instance_panics; done.
      * intros [= <- <- <- <-]. split; [done|]. eapply hp_proc_new; done.
  - intros [= <- <- <- <-]. split; [done|constructor].
  - intros [= <- <- <- <-]. split; [done|constructor].
  - intros [= <- <- <- <-]. split; [done|]. unfold p_route in Er.
    destruct proc_kind as [Hk|Hk]; rewrite Hk in Er.
    + destruct (pr_route pi _ _) as [u [[[i0 ok] [e|]]|w']] eqn:Ep; [destruct ok; discriminate Er| |].
      * destruct ok; [|discriminate Er]. destruct (decide _) as [->|]; [|discriminate Er]. injection Er as _ _ <-.
        eapply hp_proc_empty; done.
      * injection Er as _ _ <-. eapply hp_conv; [eapply hp_proc_route; done|destruct w'; done].
    + destruct (Horg Hk) as [og Ho]. rewrite Ho in Er. destruct (pc_instances ps !! _); discriminate Er.
Qed.
End Proc.

(** ** Integrations *)
Lemma i_run_panics o h now env p : forall g evs g' evs' fs r,
  Forall (good_event h) evs -> i_run o h now env p g evs = (g', evs', fs, r) ->
  Forall (good_event h) evs' /\ forall x, r = inr x -> IRaises (complains h "IntegrationMessageHandler" "HandleCommand" env) p x.
Proof.
  induction p as [e|w|f k IH|b k IH|str k IH]; intros g evs g' evs' fs r Hs; cbn [i_run].
  - intros [= <- <- <- <-]. done.
  - intros [= <- <- <- <-]. split; [done|]. intros x [= <-]. constructor.
  - intros H. apply IH in H as [H1 H2]; [|done]. split; [done|]. intros x Hx. econstructor. eauto.
  - destruct (i_record _ _ _ _ _ _ _) as [[[g1 s1] fs1] v1] eqn:E.
    assert (HE : Forall (good_event h) s1 /\ forall x, v1 = Some x -> complains h "IntegrationMessageHandler" "HandleCommand" env (mkMsg KEvent b) x).
    { unfold i_record in E. destruct (produces h _) eqn:Ep; cbn [negb] in E.
      2:{ injection E as <- <- <- <-. split; [done|]. intros x [= <-]. eexists. split; [|done].
          split; [done|]. apply bool_decide_eq_false in Ep. exact Ep. }
      apply bool_decide_eq_true in Ep.
      destruct (m_invalid _) as [e|] eqn:Ei.
      { injection E as <- <- <- <-. split; [done|]. intros x [= <-]. eexists. split; [|done]. done. }
      destruct (next_id o g) as [g2 mid]. injection E as <- <- <- <-. split; [|done].
      apply Forall_app. split; [done|]. constructor; [|constructor]. split; [done|exact Ep]. }
    destruct HE as [E1 E2].
    destruct (i_run _ _ _ _ (k v1) _ _) as [[[g2 s2] fs2] v2] eqn:E3. intros [= <- <- <- <-].
    apply IH in E3 as [H1 H2]; [|done]. split; [done|]. intros x Hx. eapply ir_record; [exact E2|eauto].
  - destruct (i_run _ _ _ _ k _ _) as [[[g2 s2] fs2] v2] eqn:E3. intros [= <- <- <- <-].
    apply IH in E3 as [H1 H2]; [|done]. split; [done|]. intros x Hx. constructor. eauto.
Qed.

Lemma i_handle_panics c o h i now env g g' fs r :
  h_impl h = ImplInt i -> m_type (e_msg env) ∈ h_consumed h -> i_handle o h i now env g = (g', fs, r) ->
  match r with HRet envs _ => Forall (deliverable c) envs | HPan v => HandlingPanics c now h env v end.
Proof.
  intros Hi Hc. unfold i_handle. unfold consumes. rewrite bool_decide_true by done. cbn [negb].
  destruct (i_run _ _ _ _ _ _ _) as [[[g3 s3] fs3] r3] eqn:E. apply i_run_panics in E as [H1 H2]; [|constructor].
  destruct r3 as [e|w]; intros [= <- <- <-].
  - eapply good_event_deliverable. done.
  - eapply hp_conv; [eapply hp_int; eauto|destruct w; done].
Qed.

(** ** Projections *)
Lemma j_run_panics {A} th hid ev (p : JProg A) : forall g g' fs v, j_run th hid ev p g = (g', fs, inr v) -> JRaises p v.
Proof.
  induction p as [a|v0|f k IH|s k IH]; intros g g' fs v; cbn.
  - done.
  - intros [= <- <- <-]. constructor.
  - intros H. econstructor. eapply IH. exact H.
  - destruct (j_run th hid ev k g) as [[g1 fs1] r1] eqn:E. intros [= <- <- ->]. constructor. eapply IH. exact E.
Qed.

Lemma j_par_panics o hid ev {A B} (m : JProg A) : forall (p : JProg B) g g' fs v,
  j_par o hid ev m p g = (g', fs, inr v) -> JRaises m v \/ exists w, JRaises p w /\ v = PFatal w.
Proof.
  assert (Hret : forall (a : A) (p : JProg B) g g' fs v,
    j_par o hid ev (JRet a) p g = (g', fs, inr v) -> JRaises (JRet a) v \/ exists w, JRaises p w /\ v = PFatal w).
  { intros a p g g' fs v H. right.
    assert (H' : (let '(g, fs, r) := j_run TCompact hid None p g in
      (g, fs, match r with inl b => inl (a, b) | inr v => inr (PFatal v) end)) = (g', fs, inr v : (A * B) + PVal)).
    { rewrite <- H. destruct p; done. }
    destruct (j_run TCompact hid None p g) as [[g1 fs1] [b|w]] eqn:E; [discriminate H'|]. injection H' as _ _ <-.
    exists w. split; [|done]. eapply j_run_panics. exact E. }
  induction m as [a|v0|f k IH|s k IH].
  - apply Hret.
  - intros p. induction p as [b|w|f' k' IH'|s' k' IH']; intros g g' fs v H.
    + cbn in H. injection H as <- <- <-. left. constructor.
    + cbn in H. destruct (o_sched _ _); injection H as <- <- <-; [left; constructor|right; exists w; split; [constructor|done]].
    + cbn in H. destruct (o_sched _ _); [injection H as <- <- <-; left; constructor|].
      change (j_par (A:=A) o hid ev (JPanic v0) (k' (g_user (j_tick g))) (g_act f' (j_tick g)) = (g', fs, inr v)) in H.
      apply IH' in H as [H|(w & H & ->)]; [left; done|right]. exists w. split; [|done]. econstructor. exact H.
    + cbn in H. destruct (o_sched _ _); [injection H as <- <- <-; left; constructor|].
      change ((let '(g, fs, r) := j_par (A:=A) o hid ev (JPanic v0) k' (j_tick g) in (g, (TCompact, MessageLoggedByProjection hid None s') :: fs, r)) = (g', fs, inr v)) in H.
      destruct (j_par (A:=A) o hid ev (JPanic v0) k' (j_tick g)) as [[g1 fs1] r1] eqn:E. injection H as <- <- ->.
      apply IH' in E as [H|(w & H & ->)]; [left; done|right]. exists w. split; [|done]. constructor. exact H.
  - intros p. induction p as [b|w|f' k' IH'|s' k' IH']; intros g g' fs v H.
    + cbn in H. left. destruct (j_run TMain hid (Some ev) (k (g_user g)) (g_act f g)) as [[g1 fs1] [a|w]] eqn:E; [discriminate H|].
      injection H as _ _ <-. econstructor. eapply j_run_panics. exact E.
    + cbn in H. destruct (o_sched _ _); [|injection H as <- <- <-; right; exists w; split; [constructor|done]].
      apply IH in H as [H|H]; [left; econstructor; exact H|right; exact H].
    + cbn in H. destruct (o_sched _ _).
      * apply IH in H as [H|H]; [left; econstructor; exact H|right; exact H].
      * change (j_par o hid ev (JAct f k) (k' (g_user (j_tick g))) (g_act f' (j_tick g)) = (g', fs, inr v)) in H.
        apply IH' in H as [H|(w & H & ->)]; [left; done|right]. exists w. split; [|done]. econstructor. exact H.
    + cbn in H. destruct (o_sched _ _).
      * apply IH in H as [H|H]; [left; econstructor; exact H|right; exact H].
      * change ((let '(g, fs, r) := j_par o hid ev (JAct f k) k' (j_tick g) in (g, (TCompact, MessageLoggedByProjection hid None s') :: fs, r)) = (g', fs, inr v)) in H.
        destruct (j_par o hid ev (JAct f k) k' (j_tick g)) as [[g1 fs1] r1] eqn:E. injection H as <- <- ->.
        apply IH' in E as [H|(w & H & ->)]; [left; done|right]. exists w. split; [|done]. constructor. exact H.
  - intros p. induction p as [b|w|f' k' IH'|s' k' IH']; intros g g' fs v H.
    + cbn in H. left. destruct (j_run TMain hid (Some ev) k g) as [[g1 fs1] [a|w]] eqn:E; [discriminate H|].
      injection H as _ _ <-. constructor. eapply j_run_panics. exact E.
    + cbn in H. destruct (o_sched _ _); [|injection H as <- <- <-; right; exists w; split; [constructor|done]].
      destruct (j_par o hid ev k (JPanic w) (j_tick g)) as [[g1 fs1] r1] eqn:E. injection H as <- <- ->.
      apply IH in E as [H|H]; [left; constructor; exact H|right; exact H].
    + cbn in H. destruct (o_sched _ _).
      * destruct (j_par o hid ev k (JAct f' k') (j_tick g)) as [[g1 fs1] r1] eqn:E. injection H as <- <- ->.
        apply IH in E as [H|H]; [left; constructor; exact H|right; exact H].
      * change (j_par o hid ev (JLog s k) (k' (g_user (j_tick g))) (g_act f' (j_tick g)) = (g', fs, inr v)) in H.
        apply IH' in H as [H|(w & H & ->)]; [left; done|right]. exists w. split; [|done]. econstructor. exact H.
    + cbn in H. destruct (o_sched _ _).
      * destruct (j_par o hid ev k (JLog s' k') (j_tick g)) as [[g1 fs1] r1] eqn:E. injection H as <- <- ->.
        apply IH in E as [H|H]; [left; constructor; exact H|right; exact H].
      * change ((let '(g, fs, r) := j_par o hid ev (JLog s k) k' (j_tick g) in (g, (TCompact, MessageLoggedByProjection hid None s') :: fs, r)) = (g', fs, inr v)) in H.
        destruct (j_par o hid ev (JLog s k) k' (j_tick g)) as [[g1 fs1] r1] eqn:E. injection H as <- <- ->.
        apply IH' in E as [H|(w & H & ->)]; [left; done|right]. exists w. split; [|done]. constructor. exact H.
Qed.

Lemma j_handle_panics c o h j now env g g' fs r :
  h_impl h = ImplProj j -> m_type (e_msg env) ∈ h_consumed h -> j_handle o (c_compact c) h j now env g = (g', fs, r) ->
  match r with HRet envs _ => Forall (deliverable c) envs | HPan v => HandlingPanics c now h env v end.
Proof.
  intros Hi Hc. unfold j_handle. destruct (j_handle_threads _ _ _ _ _ _ _) as [[g3 fs3] r3] eqn:E. intros [= <- <- <-].
  revert E. unfold j_handle_threads. unfold consumes. rewrite bool_decide_true by done. cbn [negb].
  destruct (pj_version j _ _) as [u [[cur [e|]]|w]] eqn:Ev; [intros [= <- <- <-]; constructor| |intros [= <- <- <-]; eapply hp_proj_version; done].
  destruct (decide _); [|intros [= <- <- <-]; constructor].
  destruct (j_apply _ _ _ _ _ _ _) as [[g4 fs4] r4] eqn:Ea.
  destruct r4 as [[[ok [e1|]] ce]|w]; [intros [= <- <- <-]; constructor| |].
  - destruct ok; [|intros [= <- <- <-]; constructor].
    destruct (pj_close j _ _) as [u' [[e1|]|w]] eqn:Ec; [intros [= <- <- <-]; constructor|intros [= <- <- <-]; constructor|].
    intros [= <- <- <-]. eapply hp_proj_close; done.
  - intros [= <- <- <-]. unfold j_apply in Ea. destruct (c_compact c) eqn:Ecc.
    + destruct (j_par _ _ _ _ _ _) as [[g5 fs5] [[[ok e1] ce]|w']] eqn:Ep; [done|]. injection Ea as _ _ <-.
      apply j_par_panics in Ep as [Ep|(w & Ep & ->)]; [eapply hp_conv; [eapply hp_proj_event; done|destruct w'; done]|].
      eapply hp_proj_compact; done.
    + destruct (j_run _ _ _ _ _) as [[g5 fs5] [[ok e1]|w']] eqn:Ep; [done|]. injection Ea as _ _ <-.
      apply j_run_panics in Ep. eapply hp_conv; [eapply hp_proj_event; done|destruct w'; done].
Qed.

(** ** Controllers *)
Lemma ctrl_handle_panics c o h now env g cs g' cs' fs r :
  app_ok c -> sort_ok o -> h ∈ c_app c -> good_cs c h cs ->
  m_type (e_msg env) ∈ h_consumed h -> (m_kind (e_msg env) = KTimeout -> is_Some (e_origin env)) ->
  ctrl_handle c o h now env g cs = (g', cs', fs, r) ->
  good_cs c h cs' /\
  match r with HRet envs _ => Forall (deliverable c) envs | HPan v => HandlingPanics c now h env v end.
Proof.
  intros Hok Hsort Hin [Hm Hg] Hc Horg. unfold good_cs, ctrl_handle, cs_match in *.
  destruct (h_impl h) as [a|pi|i|j] eqn:Ei, cs as [hist|ps| |last]; try done.
  - destruct (a_handle _ _ _ _ _ _ _) as [[[g2 h2] f2] r2] eqn:E. intros [= <- <- <- <-].
    eapply (a_handle_panics c) in E as [H1 H2]; [|done|done|done]. split; [split; [done|exact H1]|exact H2].
  - destruct (p_handle _ _ _ _ _ _ _) as [[[g2 h2] f2] r2] eqn:E. intros [= <- <- <- <-].
    eapply p_handle_panics in E as [H1 H2]; [|done|done|done|done|done|done|done]. split; [split; [done|exact H1]|exact H2].
  - destruct (i_handle _ _ _ _ _ _) as [[g2 f2] r2] eqn:E. intros [= <- <- <- <-].
    eapply (i_handle_panics c) in E; [|done|done]. split; [split; [done|done]|exact E].
  - destruct (j_handle _ _ _ _ _ _ _) as [[g2 f2] r2] eqn:E. intros [= <- <- <- <-].
    eapply j_handle_panics in E; [|done|done]. split; [split; [done|done]|exact E].
Qed.

Lemma p_split_app now l : (p_split now l).1 ++ (p_split now l).2 = l.
Proof.
  induction l as [|e l IH]; [done|]. cbn. destruct (_ <? _)%Z; [done|]. destruct (p_split now l); cbn in *. congruence.
Qed.

Lemma ctrl_tick_panics c h now g cs g' cs' fs r :
  good_cs c h cs -> ctrl_tick h now g cs = (g', cs', fs, r) ->
  good_cs c h cs' /\
  match r with HRet envs _ => Forall (deliverable c) envs | HPan v => exists j, h_impl h = ImplProj j /\ JRaises (pj_compact j now) v end.
Proof.
  intros [Hm Hg]. unfold good_cs, ctrl_tick, cs_match in *.
  destruct (h_impl h) as [a|pi|i|j] eqn:Ei, cs as [hist|ps| |last]; try done.
  - intros [= <- <- <- <-]. repeat split; [done|constructor].
  - unfold p_tick. pose proof (p_split_app now (pc_timeouts ps)) as Hsp.
    destruct (p_split now (pc_timeouts ps)) as [a b]. cbn in Hsp. rewrite <- Hsp in Hg. apply Forall_app in Hg as [H1 H2].
    intros [= <- <- <- <-]. done.
  - intros [= <- <- <- <-]. repeat split; constructor.
  - destruct (j_tick_ctrl _ _ _ _ _) as [[[g3 l3] fs3] r3] eqn:E3. intros [= <- <- <- <-]. split; [done|].
    unfold j_tick_ctrl in E3. destruct (_ <=? _)%Z; [|injection E3 as _ _ _ <-; constructor].
    destruct (j_run _ _ _ _ _) as [[g4 fs4] [e4|w4]] eqn:E4; injection E3 as _ _ _ <-; [constructor|].
    exists j. split; [done|]. eapply j_run_panics. exact E4.
Qed.

Lemma good_st_update c st g h cs :
  app_ok c -> good_st c st -> h ∈ c_app c -> good_cs c h cs -> good_st c (mkE g (<[h_name h := cs]> (es_cs st))).
Proof.
  intros Hok H Hin Hm h' Hin'. cbn. destruct (decide (h_name h = h_name h')) as [He|Hne].
  - assert (h = h') as <- by (eapply app_name_inj; eassumption). exists cs. rewrite lookup_insert. done.
  - rewrite lookup_insert_ne by done. apply H. done.
Qed.

(** ** Code that always panics *)
Lemma a_run_must o h a now env id p w : AMust p w -> forall g s g' s' fs v, a_run o h a now env id p g s = (g', s', fs, v) -> v = Some w.
Proof.
  induction 1 as [w|f k w _ IH|f k w _ IH|b k w _ IH|k w _ IH|str k w _ IH]; intros g s g' s' fs v; cbn [a_run].
  - intros [= <- <- <- <-]. done.
  - apply IH.
  - apply IH.
  - destruct (a_record _ _ _ _ _ _ _ _ _) as [[[g1 s1] fs1] v1]. destruct (a_run _ _ _ _ _ _ (k v1) _ _) as [[[g2 s2] fs2] v2] eqn:E3.
    intros [= <- <- <- <-]. eapply IH. exact E3.
  - destruct (a_destroy _ _ _ _ _) as [s1 fs1]. destruct (a_run _ _ _ _ _ _ k _ _) as [[[g2 s2] fs2] v2] eqn:E3.
    intros [= <- <- <- <-]. eapply IH. exact E3.
  - destruct (a_run _ _ _ _ _ _ k _ _) as [[[g2 s2] fs2] v2] eqn:E3. intros [= <- <- <- <-]. eapply IH. exact E3.
Qed.
Lemma p_run_must o h now env id meth p w : PMust p w -> forall g s g' s' fs v, p_run o h now env id meth p g s = (g', s', fs, v) -> v = inr w.
Proof.
  induction 1 as [w|f k w _ IH|f k w _ IH|b k w _ IH|b t k w _ IH|k w _ IH|str k w _ IH]; intros g s g' s' fs v; cbn [p_run].
  - intros [= <- <- <- <-]. done.
  - apply IH.
  - apply IH.
  - destruct (p_execute _ _ _ _ _ _ _ _ _) as [[[g1 s1] fs1] v1]. destruct (p_run _ _ _ _ _ _ (k v1) _ _) as [[[g2 s2] fs2] v2] eqn:E3.
    intros [= <- <- <- <-]. eapply IH. exact E3.
  - destruct (p_schedule _ _ _ _ _ _ _ _ _ _) as [[[g1 s1] fs1] v1]. destruct (p_run _ _ _ _ _ _ (k v1) _ _) as [[[g2 s2] fs2] v2] eqn:E3.
    intros [= <- <- <- <-]. eapply IH. exact E3.
  - destruct (p_end _ _ _ _) as [s1 fs1]. destruct (p_run _ _ _ _ _ _ k _ _) as [[[g2 s2] fs2] v2] eqn:E3.
    intros [= <- <- <- <-]. eapply IH. exact E3.
  - destruct (p_run _ _ _ _ _ _ k _ _) as [[[g2 s2] fs2] v2] eqn:E3. intros [= <- <- <- <-]. eapply IH. exact E3.
Qed.
Lemma i_run_must o h now env p w : IMust p w -> forall g evs g' evs' fs v, i_run o h now env p g evs = (g', evs', fs, v) -> v = inr w.
Proof.
  induction 1 as [w|f k w _ IH|b k w _ IH|str k w _ IH]; intros g s g' s' fs v; cbn [i_run].
  - intros [= <- <- <- <-]. done.
  - apply IH.
  - destruct (i_record _ _ _ _ _ _ _) as [[[g1 s1] fs1] v1]. destruct (i_run _ _ _ _ (k v1) _ _) as [[[g2 s2] fs2] v2] eqn:E3.
    intros [= <- <- <- <-]. eapply IH. exact E3.
  - destruct (i_run _ _ _ _ k _ _) as [[[g2 s2] fs2] v2] eqn:E3. intros [= <- <- <- <-]. eapply IH. exact E3.
Qed.
Lemma j_run_must {A} th hid ev (p : JProg A) w : JMust p w -> forall g g' fs v, j_run th hid ev p g = (g', fs, v) -> v = inr w.
Proof.
  induction 1 as [w|f k w _ IH|str k w _ IH]; intros g g' fs v; cbn [j_run].
  - intros [= <- <- <-]. done.
  - apply IH.
  - destruct (j_run _ _ _ k _) as [[g2 fs2] v2] eqn:E3. intros [= <- <- <-]. eapply IH. exact E3.
Qed.
Lemma j_run_logs {A} th hid ev (p : JProg A) : forall g g' fs v f, j_run th hid ev p g = (g', fs, v) -> f ∈ map snd fs ->
  exists s, f = MessageLoggedByProjection hid ev s.
Proof.
  induction p as [a|w|g0 k IH|s k IH]; intros g g' fs v f; cbn [j_run].
  - intros [= <- <- <-] Hf. set_solver.
  - intros [= <- <- <-] Hf. set_solver.
  - apply IH.
  - destruct (j_run _ _ _ k _) as [[g2 fs2] v2] eqn:E3. intros [= <- <- <-]. cbn. intros Hf. apply elem_of_cons in Hf as [->|Hf]; eauto.
Qed.

(** *** Which facts a controller can notify *)
Definition opens (f : Fact) : Prop :=
  match f with
  | AggregateInstanceLoaded _ _ _ _ | AggregateInstanceNotFound _ _ _ | ProcessInstanceLoaded _ _ _ _ | ProcessInstanceBegun _ _ _ _ => True
  | _ => False
  end.
Lemma a_run_opens o h a now env id p : forall g s g' s' fs v f, a_run o h a now env id p g s = (g', s', fs, v) -> f ∈ fs -> ~ opens f.
Proof.
  induction p as [|w|g0 k IH|g0 k IH|b k IH|k IH|str k IH]; intros g s g' s' fs v f; cbn [a_run].
  - intros [= <- <- <- <-] Hf. set_solver.
  - intros [= <- <- <- <-] Hf. set_solver.
  - apply IH.
  - apply IH.
  - destruct (a_record _ _ _ _ _ _ _ _ _) as [[[g1 s1] fs1] v1] eqn:E. destruct (a_run _ _ _ _ _ _ (k v1) _ _) as [[[g2 s2] fs2] v2] eqn:E3.
    intros [= <- <- <- <-] Hf. apply elem_of_app in Hf as [Hf|Hf]; [|eapply IH; done].
    unfold a_record in E. destruct (negb _); [injection E as <- <- <- <-; set_solver|].
    destruct (m_invalid _); [injection E as <- <- <- <-; set_solver|].
    destruct (as_exists s), (as_destroyed s); destruct (ag_apply _ _ _) as [r w]; destruct (enrich _ _ _ _ w); destruct (next_id o g);
      injection E as <- <- <- <-; cbn in Hf; repeat (apply elem_of_cons in Hf as [->|Hf]; [intros []|]); set_solver.
  - destruct (a_destroy _ _ _ _ _) as [s1 fs1] eqn:E. destruct (a_run _ _ _ _ _ _ k _ _) as [[[g2 s2] fs2] v2] eqn:E3.
    intros [= <- <- <- <-] Hf. apply elem_of_app in Hf as [Hf|Hf]; [|eapply IH; done].
    unfold a_destroy in E. destruct (as_exists s); injection E as <- <-; [apply elem_of_list_singleton in Hf as ->; intros []|set_solver].
  - destruct (a_run _ _ _ _ _ _ k _ _) as [[[g2 s2] fs2] v2] eqn:E3. intros [= <- <- <- <-] Hf.
    apply elem_of_cons in Hf as [->|Hf]; [intros []|]. eapply IH; done.
Qed.
Lemma p_run_opens o h now env id meth p : forall g s g' s' fs v f, p_run o h now env id meth p g s = (g', s', fs, v) -> f ∈ fs -> ~ opens f.
Proof.
  assert (Hrev : forall s s' fs f, p_revert h env id s = (s', fs) -> f ∈ fs -> ~ opens f).
  { intros s s' fs f. unfold p_revert. destruct (ps_ended s); intros [= <- <-] Hf; [apply elem_of_list_singleton in Hf as ->; intros []|set_solver]. }
  induction p as [e|w|g0 k IH|g0 k IH|b k IH|b t k IH|k IH|str k IH]; intros g s g' s' fs v f; cbn [p_run].
  - intros [= <- <- <- <-] Hf. set_solver.
  - intros [= <- <- <- <-] Hf. set_solver.
  - apply IH.
  - apply IH.
  - destruct (p_execute _ _ _ _ _ _ _ _ _) as [[[g1 s1] fs1] v1] eqn:E. destruct (p_run _ _ _ _ _ _ (k v1) _ _) as [[[g2 s2] fs2] v2] eqn:E3.
    intros [= <- <- <- <-] Hf. apply elem_of_app in Hf as [Hf|Hf]; [|eapply IH; done].
    unfold p_execute in E. destruct (p_check _ _ _ _); [injection E as <- <- <- <-; set_solver|].
    destruct (p_revert _ _ _ _) as [s3 fs3] eqn:Er. destruct (next_id o g). injection E as <- <- <- <-.
    apply elem_of_app in Hf as [Hf|Hf]; [eapply Hrev; done|apply elem_of_list_singleton in Hf as ->; intros []].
  - destruct (p_schedule _ _ _ _ _ _ _ _ _ _) as [[[g1 s1] fs1] v1] eqn:E. destruct (p_run _ _ _ _ _ _ (k v1) _ _) as [[[g2 s2] fs2] v2] eqn:E3.
    intros [= <- <- <- <-] Hf. apply elem_of_app in Hf as [Hf|Hf]; [|eapply IH; done].
    unfold p_schedule in E. destruct (p_check _ _ _ _); [injection E as <- <- <- <-; set_solver|].
    destruct (p_revert _ _ _ _) as [s3 fs3] eqn:Er. destruct (next_id o g). injection E as <- <- <- <-.
    apply elem_of_app in Hf as [Hf|Hf]; [eapply Hrev; done|apply elem_of_list_singleton in Hf as ->; intros []].
  - destruct (p_end _ _ _ _) as [s1 fs1] eqn:E. destruct (p_run _ _ _ _ _ _ k _ _) as [[[g2 s2] fs2] v2] eqn:E3.
    intros [= <- <- <- <-] Hf. apply elem_of_app in Hf as [Hf|Hf]; [|eapply IH; done].
    unfold p_end in E. destruct (ps_ended s); injection E as <- <-; [set_solver|apply elem_of_list_singleton in Hf as ->; intros []].
  - destruct (p_run _ _ _ _ _ _ k _ _) as [[[g2 s2] fs2] v2] eqn:E3. intros [= <- <- <- <-] Hf.
    apply elem_of_cons in Hf as [->|Hf]; [intros []|]. eapply IH; done.
Qed.

(** *** Controllers *)
Lemma a_handle_must c o h a now env g hist g' hist' fs r f v :
  h_impl h = ImplAgg a -> m_type (e_msg env) ∈ h_consumed h -> Forall (about (h_id h) env) fs ->
  a_handle o h a now env g hist = (g', hist', fs, r) ->
  f = HandlingBegun (h_id h) env \/ f ∈ fs -> MustPanic c h f v -> r = HPan v.
Proof.
  intros Hi Hc Hab. unfold a_handle. unfold consumes. rewrite bool_decide_true by done. cbn [negb]. intros H Hf Hm.
  destruct (ag_route a (e_msg env)) as [id|v0] eqn:Er.
  2:{ injection H as <- <- <- <-. destruct Hf as [->|Hf]; [|set_solver].
      inversion Hm; subst; try congruence. assert (a0 = a) as -> by congruence. assert (w = v0) as -> by congruence. destruct v0; done. }
  assert (Hb : f <> HandlingBegun (h_id h) env).
  { intros ->. inversion Hm; subst; congruence. }
  destruct Hf as [Hf|Hf]; [done|].
  destruct (decide _) as [->|Hid]; [injection H as <- <- <- <-; set_solver|].
  destruct (ag_new a) as [r0|] eqn:En; [|injection H as <- <- <- <-; set_solver].
  destruct (a_replay _ _ _ _) as [r1 [v1|]]; [injection H as <- <- <- <-; set_solver|].
  destruct (a_run _ _ _ _ _ _ _ _ _) as [[[g3 s3] fs3] v3] eqn:Erun.
  set (f0 := if bool_decide _ then AggregateInstanceLoaded _ _ _ _ else AggregateInstanceNotFound _ _ _) in H.
  assert (Hf' : f ∈ f0 :: fs3) by (destruct (enrich _ _ _ _ v3); injection H as <- <- <- <-; exact Hf).
  apply elem_of_cons in Hf' as [->|Hf'].
  2:{ pose proof (a_run_opens _ _ _ _ _ _ _ _ _ _ _ _ _ _ Erun Hf') as Ho.
      rewrite Forall_forall in Hab. specialize (Hab f Hf).
      inversion Hm; subst; try congruence; try (destruct Ho; exact I); cbn in Hab; done. }
  assert (Hv : exists w, AMust (ag_handle a id (e_msg env)) w /\ v = named h "AggregateMessageHandler" "HandleCommand" (e_msg env) w).
  { subst f0. destruct (bool_decide _); inversion Hm; subst; assert (a0 = a) as -> by congruence; eauto. }
  destruct Hv as (w & Hw & ->). apply (a_run_must _ _ _ _ _ _ _ _ Hw) in Erun as ->.
  destruct w; injection H as <- <- <- <-; done.
Qed.

Lemma p_handle_instance_must c o h pi now env id rt g ps g' ps' fs r v f :
  h_impl h = ImplProc pi -> p_handle_instance o h pi now env id rt g ps = (g', ps', fs, r) ->
  f = ProcessInstanceLoaded (h_id h) id rt env \/ f = ProcessInstanceBegun (h_id h) id (Some rt) env -> MustPanic c h f v -> r = HPan v.
Proof.
  intros Hi H Hf Hm.
  assert (Hv : exists meth w, match m_kind (e_msg env) with KTimeout => ("HandleTimeout"%string, pr_timeout pi id (e_sched env) (e_msg env))
      | _ => ("HandleEvent"%string, pr_event pi id (e_created env) (e_msg env)) end = (meth, w) /\
      exists x, PMust w x /\ v = named h "ProcessMessageHandler" meth (e_msg env) x).
  { destruct Hf as [-> | ->]; inversion Hm as [| | | |p i r0 e w Hp Hk Hw|p i r0 e w Hp Hk Hw| |p i r0 e w Hp Hk Hw| | | | ]; subst;
      assert (p = pi) as -> by congruence; rewrite Hk; eexists _, _; (split; [reflexivity|]); eauto. }
  destruct Hv as (meth & prog & Hmp & x & Hx & ->). unfold p_handle_instance in H. rewrite Hmp in H.
  destruct (p_run _ _ _ _ _ _ _ _ _) as [[[g1 s1] fs1] r1] eqn:E. apply (p_run_must _ _ _ _ _ _ _ _ Hx) in E as ->.
  destruct x; injection H as <- <- <- <-; done.
Qed.

Lemma p_handle_instance_opens o h pi now env id rt g ps g' ps' fs r f :
  p_handle_instance o h pi now env id rt g ps = (g', ps', fs, r) -> f ∈ fs -> ~ opens f.
Proof.
  unfold p_handle_instance. destruct (match m_kind _ with KTimeout => _ | _ => _ end) as [meth prog].
  destruct (p_run _ _ _ _ _ _ _ _ _) as [[[g1 s1] fs1] r1] eqn:E. intros H Hf.
  assert (fs = fs1) as -> by (destruct r1 as [[?|]|?]; [|destruct (ps_ended s1)|]; injection H as <- <- <- <-; done).
  eapply p_run_opens; done.
Qed.

Lemma p_handle_must c o h pi now env g ps g' ps' fs r f v :
  h_impl h = ImplProc pi -> m_type (e_msg env) ∈ h_consumed h -> Forall (about (h_id h) env) fs ->
  p_handle o h pi now env g ps = (g', ps', fs, r) ->
  f = HandlingBegun (h_id h) env \/ f ∈ fs -> MustPanic c h f v -> r = HPan v.
Proof.
  intros Hi Hc Hab. unfold p_handle. unfold consumes. rewrite bool_decide_true by done. cbn [negb]. intros H Hf Hm.
  destruct (p_route _ _ _ _ _) as [[g1 fs1] rt] eqn:Er.
  assert (Hr : forall x, x ∈ fs1 -> ~ opens x).
  { unfold p_route in Er. intros x Hx. destruct (m_kind _).
    - injection Er as <- <- <-. set_solver.
    - destruct (pr_route pi _ _) as [u [[[i0 []] [e0|]]|w']]; try (injection Er as <- <- <-; set_solver).
      destruct (decide _); injection Er as <- <- <-; set_solver.
    - destruct (e_origin env); [destruct (pc_instances ps !! _)|]; injection Er as <- <- <-; set_solver. }
  destruct Hf as [->|Hf].
  { inversion Hm as [| | |p e w Hp Hk Hw| | | | | | | |]; subst; try congruence. assert (p = pi) as -> by congruence.
    unfold p_route in Er. rewrite Hk in Er. destruct (Hw (g_user g)) as [u' Hu]. rewrite Hu in Er. injection Er as <- <- <-.
    injection H as <- <- <- <-. destruct w; done. }
  assert (Hop : opens f).
  { rewrite Forall_forall in Hab. specialize (Hab f Hf). inversion Hm; subst; try exact I; cbn in Hab; try done; try congruence. }
  destruct rt as [id| |e|w].
  2,3,4: injection H as <- <- <- <-; destruct (Hr f Hf Hop).
  destruct (pc_instances ps !! id) as [rt|].
  - destruct (p_handle_instance _ _ _ _ _ _ _ _ _) as [[[g2 ps2] fs2] r2] eqn:E. injection H as <- <- <- <-.
    apply elem_of_app in Hf as [Hf|Hf]; [destruct (Hr f Hf Hop)|]. apply elem_of_cons in Hf as [->|Hf].
    + eapply p_handle_instance_must; [done|exact E|left; reflexivity|done].
    + destruct (p_handle_instance_opens _ _ _ _ _ _ _ _ _ _ _ _ _ _ E Hf Hop).
  - destruct (pr_new pi) as [rt|] eqn:En.
    + destruct (p_handle_instance _ _ _ _ _ _ _ _ _) as [[[g2 ps2] fs2] r2] eqn:E. injection H as <- <- <- <-.
      apply elem_of_app in Hf as [Hf|Hf]; [|destruct (p_handle_instance_opens _ _ _ _ _ _ _ _ _ _ _ _ _ _ E Hf Hop)].
      apply elem_of_app in Hf as [Hf|Hf]; [destruct (Hr f Hf Hop)|].
      apply elem_of_cons in Hf as [->|Hf]; [destruct Hop|]. apply elem_of_list_singleton in Hf as ->.
      eapply p_handle_instance_must; [done|exact E|right; reflexivity|done].
    + injection H as <- <- <- <-.
      apply elem_of_app in Hf as [Hf|Hf]; [destruct (Hr f Hf Hop)|].
      apply elem_of_cons in Hf as [->|Hf]; [destruct Hop|]. apply elem_of_list_singleton in Hf as ->.
      inversion Hm; subst. done.
Qed.

Lemma i_handle_must c o h i now env g g' fs r f v :
  h_impl h = ImplInt i -> m_type (e_msg env) ∈ h_consumed h -> Forall (about (h_id h) env) fs ->
  i_handle o h i now env g = (g', fs, r) ->
  f = HandlingBegun (h_id h) env \/ f ∈ fs -> MustPanic c h f v -> r = HPan v.
Proof.
  intros Hi Hc Hab. unfold i_handle. unfold consumes. rewrite bool_decide_true by done. cbn [negb]. intros H Hf Hm.
  destruct Hf as [->|Hf].
  - inversion Hm as [| | | | | | | |i0 e w Hi0 Hw| | |]; subst; try congruence. assert (i0 = i) as -> by congruence.
    destruct (i_run _ _ _ _ _ _ _) as [[[g3 s3] fs3] r3] eqn:E. apply (i_run_must _ _ _ _ _ _ Hw) in E as ->.
    injection H as <- <- <-. destruct w; done.
  - rewrite Forall_forall in Hab. specialize (Hab f Hf). inversion Hm; subst; cbn in Hab; try done; congruence.
Qed.

Lemma j_handle_must c o h j now env g g' fs r f v :
  h_impl h = ImplProj j -> m_type (e_msg env) ∈ h_consumed h -> Forall (about (h_id h) env) fs ->
  j_handle o (c_compact c) h j now env g = (g', fs, r) ->
  f = HandlingBegun (h_id h) env \/ f ∈ fs -> MustPanic c h f v -> r = HPan v.
Proof.
  intros Hi Hc Hab. unfold j_handle. destruct (j_handle_threads _ _ _ _ _ _ _) as [[g3 fs3] r3] eqn:E. intros [= <- <- <-].
  revert E. unfold j_handle_threads. unfold consumes. rewrite bool_decide_true by done. cbn [negb]. intros H Hf Hm.
  destruct Hf as [->|Hf].
  - inversion Hm as [| | | | | | | | |j0 e w Hj Hw|j0 e w Hj Hcc Hv Hw|]; subst; try congruence; assert (j0 = j) as -> by congruence.
    + destruct (Hw (g_user g)) as [u' Hu]. rewrite Hu in H. injection H as <- <- <-. done.
    + destruct (Hv (g_user g)) as [u' Hu]. rewrite Hu, decide_True in H by done. rewrite Hcc in H. unfold j_apply in H.
      destruct (j_run _ _ _ _ _) as [[g5 fs5] r5] eqn:E. apply (j_run_must _ _ _ _ _ (Hw _ _)) in E as ->.
      injection H as <- <- <-. destruct w; done.
  - exfalso. rewrite Forall_forall in Hab. specialize (Hab f Hf). inversion Hm as [| | | | | | | | | | |j0 w Hj Hcc Hw]; subst; cbn in Hab; try done; try congruence.
    rewrite Hcc in H. destruct (pj_version j _ _) as [u [[cur [e|]]|w']]; [injection H as <- <- <-; set_solver| |injection H as <- <- <-; set_solver].
    destruct (decide _); [|injection H as <- <- <-; set_solver].
    unfold j_apply in H. destruct (j_run _ _ _ _ _) as [[g5 fs5] r5] eqn:E.
    assert (Hfs : fs3 = fs5).
    { destruct r5 as [[ok [e1|]]|w']; [injection H as <- <- <-; done| |injection H as <- <- <-; done].
      destruct ok; [|injection H as <- <- <-; done]. destruct (pj_close _ _ _) as [u' [[e1|]|w']]; injection H as <- <- <-; done. }
    subst fs3. destruct (j_run_logs _ _ _ _ _ _ _ _ _ E Hf) as [s Hs]. discriminate Hs.
Qed.

Lemma h_id_inj c h h' : app_ok c -> h ∈ c_app c -> h' ∈ c_app c -> h_id h = h_id h' -> h = h'.
Proof. intros Hok H1 H2 He. injection He as Hn _. eapply app_name_inj; done. Qed.

Lemma MustPanic_id c h f v : MustPanic c h f v ->
  match f with
  | HandlingBegun i _ | AggregateInstanceLoaded i _ _ _ | AggregateInstanceNotFound i _ _ | ProcessInstanceLoaded i _ _ _
  | ProcessInstanceBegun i _ _ _ | ProjectionCompactionBegun i => i = h_id h
  | _ => False
  end.
Proof. destruct 1; done. Qed.

Lemma ctrl_handle_must c o h now env g cs g' cs' fs r f h' v :
  app_ok c -> h ∈ c_app c -> h' ∈ c_app c -> cs_match h cs -> m_type (e_msg env) ∈ h_consumed h ->
  ctrl_handle c o h now env g cs = (g', cs', fs, r) ->
  f = HandlingBegun (h_id h) env \/ f ∈ fs -> MustPanic c h' f v -> r = HPan v.
Proof.
  intros Hok Hin Hin' Hcs Hc H Hf Hm. pose proof (ctrl_handle_spec _ _ _ _ _ _ _ _ _ _ _ H) as [Hab _].
  assert (h' = h) as ->.
  { pose proof (MustPanic_id _ _ _ _ Hm) as Hid. symmetry. eapply h_id_inj; [done..|].
    destruct Hf as [->|Hf]; [exact Hid|]. rewrite Forall_forall in Hab. specialize (Hab f Hf).
    destruct f; try done; cbn in Hab, Hid; destruct Hab as [Hab _]; congruence. }
  unfold ctrl_handle, cs_match in *.
  destruct (h_impl h) as [a|pi|i|j] eqn:Ei, cs as [hist|ps| |last]; try done.
  - destruct (a_handle _ _ _ _ _ _ _) as [[[g2 h2] f2] r2] eqn:E. injection H as <- <- <- <-. eapply a_handle_must; done.
  - destruct (p_handle _ _ _ _ _ _ _) as [[[g2 h2] f2] r2] eqn:E. injection H as <- <- <- <-. eapply p_handle_must; done.
  - destruct (i_handle _ _ _ _ _ _) as [[g2 f2] r2] eqn:E. injection H as <- <- <- <-. eapply i_handle_must; done.
  - destruct (j_handle _ _ _ _ _ _ _) as [[g2 f2] r2] eqn:E. injection H as <- <- <- <-. eapply j_handle_must; done.
Qed.

Lemma ctrl_tick_must c h now g cs g' cs' fs r f h' v :
  app_ok c -> h ∈ c_app c -> h' ∈ c_app c -> cs_match h cs ->
  ctrl_tick h now g cs = (g', cs', fs, r) -> f ∈ fs -> MustPanic c h' f v -> r = HPan v.
Proof.
  intros Hok Hin Hin' Hcs H Hf Hm. unfold ctrl_tick, cs_match in *.
  destruct (h_impl h) as [a|pi|i|j] eqn:Ei, cs as [hist|ps| |last]; try done; try (injection H as <- <- <- <-; set_solver).
  - destruct (p_tick _ _). injection H as <- <- <- <-. set_solver.
  - destruct (j_tick_ctrl _ _ _ _ _) as [[[g3 l3] fs3] r3] eqn:E3. injection H as <- <- <- <-.
    unfold j_tick_ctrl in E3. destruct (_ <=? _)%Z; [|injection E3 as <- <- <- <-; set_solver].
    destruct (j_run _ _ _ _ _) as [[g4 fs4] r4] eqn:E4.
    assert (Hf' : f = ProjectionCompactionBegun (h_id h) \/ f ∈ map snd fs4 \/ exists e, f = ProjectionCompactionCompleted (h_id h) e).
    { destruct r4; injection E3 as <- <- <- <-; apply elem_of_cons in Hf as [Hf|Hf]; [auto| |auto|auto].
      apply elem_of_app in Hf as [Hf|Hf]; [auto|]. apply elem_of_list_singleton in Hf. eauto. }
    destruct Hf' as [->|[Hf'|[e ->]]].
    + pose proof (MustPanic_id _ _ _ _ Hm) as Hid. cbn in Hid. assert (h' = h) as -> by (eapply h_id_inj; done).
      inversion Hm as [| | | | | | | | | | |j0 w Hj Hcc Hw]; subst. assert (j0 = j) as -> by congruence.
      apply (j_run_must _ _ _ _ _ (Hw now)) in E4 as ->. injection E3 as <- <- <- <-. done.
    + destruct (j_run_logs _ _ _ _ _ _ _ _ _ E4 Hf') as [s ->]. inversion Hm.
    + inversion Hm.
Qed.

(** ** The engine *)
Definition at_handling c now (sk : Handler -> option SkipReason) (fs : list Fact) (v : PVal) : Prop :=
  exists l h env l', fs = l ++ HandlingBegun (h_id h) env :: l' /\ Forall (about (h_id h) env) l' /\
    h ∈ c_app c /\ m_type (e_msg env) ∈ h_consumed h /\ sk h = None /\ HandlingPanics c now h env v.
Definition at_tick c now (sk : Handler -> option SkipReason) (fs : list Fact) (v : PVal) : Prop :=
  exists l h l' j, fs = l ++ TickBegun (h_id h) :: l' /\ Forall (about_tick (h_id h)) l' /\
    h ∈ c_app c /\ sk h = None /\ h_impl h = ImplProj j /\ JRaises (pj_compact j now) v.
Lemma at_handling_app c now sk a fs v : at_handling c now sk fs v -> at_handling c now sk (a ++ fs) v.
Proof. intros (l & h & env & l' & -> & H). exists (a ++ l), h, env, l'. rewrite <- app_assoc. done. Qed.
Lemma at_tick_app c now sk a fs v : at_tick c now sk fs v -> at_tick c now sk (a ++ fs) v.
Proof. intros (l & h & l' & j & -> & H). exists (a ++ l), h, l', j. rewrite <- app_assoc. done. Qed.

Section Engine.
Context (c : Config) (Hok : app_ok c) (o : Oracle) (Hsort : sort_ok o) (oo : OOs).
Notation skip := (fun h => skip_handler h oo).
Notation now := (oo_now oo).

Lemma e_handlers_panics env hs :
  (m_kind (e_msg env) = KTimeout -> is_Some (e_origin env)) ->
  (forall h, h ∈ hs -> h ∈ c_app c /\ m_type (e_msg env) ∈ h_consumed h) -> forall st st' fs r,
  good_st c st -> e_handlers c o oo env (Some <$> hs) st = (st', fs, r) ->
  good_st c st' /\ match r with inl (envs, _) => Forall (deliverable c) envs | inr v => at_handling c now skip fs v end.
Proof.
  intros Horg. induction hs as [|h hs IH]; intros Hhs st st' fs r Hst.
  { cbn. intros [= <- <- <-]. done. }
  destruct (Hhs h) as [Hin Hc]; [set_solver|].
  assert (Hhs' : forall h, h ∈ hs -> h ∈ c_app c /\ m_type (e_msg env) ∈ h_consumed h) by (intros; apply Hhs; set_solver).
  specialize (IH Hhs').
  rewrite fmap_cons. cbn [e_handlers]. destruct (e_handle c o oo env (Some h) st) as [[st1 fs1] r1] eqn:E.
  assert (HE : good_st c st1 /\ match r1 with HRet envs _ => Forall (deliverable c) envs | HPan v => at_handling c now skip fs1 v end).
  { unfold e_handle in E. destruct (skip_handler h oo) as [sr|] eqn:Es; [injection E as <- <- <-; split; [done|constructor]|].
    destruct (Hst h Hin) as (cs & El & Hg). rewrite El in E.
    destruct (ctrl_handle _ _ _ _ _ _ _) as [[[g2 cs2] fs2] r2] eqn:E2.
    assert (Hcs : cs_match h cs) by apply Hg.
    pose proof E2 as E3. apply ctrl_handle_spec in E3 as (Hab & _).
    apply ctrl_handle_panics in E2 as [H1 H2]; [|done..].
    destruct r2 as [envs e|v]; injection E as <- <- <-; (split; [apply good_st_update; done|]); [exact H2|].
    exists [], h, env, fs2. done. }
  destruct HE as [HE1 HE2].
  destruct r1 as [envs e|v]; [|intros [= <- <- <-]; done].
  destruct (e_handlers _ _ _ _ _ st1) as [[st2 fs2] r2] eqn:E2. apply IH in E2 as [H1 H2]; [|done].
  destruct r2 as [[envs' errs']|v]; intros [= <- <- <-]; (split; [done|]).
  - apply Forall_app. done.
  - apply at_handling_app. done.
Qed.

Lemma targets_good env : deliverable c env -> exists hs, targets c env = Some (Some <$> hs) /\
  (m_kind (e_msg env) = KTimeout -> is_Some (e_origin env)) /\
  forall h, h ∈ hs -> h ∈ c_app c /\ m_type (e_msg env) ∈ h_consumed h.
Proof.
  intros Hd. destruct (decide (m_kind (e_msg env) = KTimeout)) as [Hk|Hk].
  - destruct (Hd Hk) as (og & h & Ho & Hl & Hc). exists [h]. unfold targets. rewrite Hk, Ho, Hl. split; [done|].
    split; [eauto|]. intros h' Hh. apply elem_of_list_singleton in Hh as ->. apply controllers_in in Hl as [Hl _]. done.
  - exists (consumers (c_app c) (m_type (e_msg env))). rewrite targets_message by done. split; [done|]. split; [done|].
    intros h Hh. unfold consumers in Hh. apply elem_of_list_filter in Hh as [? ?]. done.
Qed.

Lemma e_loop_panics fuel : forall q err st st' fs r,
  Forall (deliverable c) q -> good_st c st -> e_loop c o oo fuel q err st = (st', fs, r) ->
  good_st c st' /\ forall v, r = Pan v -> at_handling c now skip fs v.
Proof.
  induction fuel as [|fuel IH]; intros q err st st' fs r Hq Hst; destruct q as [|env q]; cbn [e_loop];
    try (intros [= <- <- <-]; done).
  apply Forall_cons in Hq as [Henv Hq].
  destruct (e_message c o oo env st) as [[st1 fs1] r1] eqn:E.
  assert (HE : good_st c st1 /\ match r1 with inl (envs, _) => Forall (deliverable c) envs | inr v => at_handling c now skip fs1 v end).
  { unfold e_message in E. destruct (targets_good env Henv) as (hs & Et & Horg & Hhs). rewrite Et in E.
    destruct (e_handlers _ _ _ _ _ st) as [[st2 fs2] r2] eqn:E2. apply e_handlers_panics in E2 as [H1 H2]; [|done|done|done].
    destruct r2 as [[envs derr]|v]; injection E as <- <- <-; [done|]. split; [done|].
    apply (at_handling_app _ _ _ [_]). done. }
  destruct HE as [H1 H2].
  destruct r1 as [[envs derr]|w].
  - destruct (poll_ctx o (es_g st1)) as [g [ce|]]; [intros [= <- <- <-]; done|].
    destruct (e_loop c o oo fuel _ _ _) as [[st2 fs2] r2] eqn:E2. intros [= <- <- <-].
    apply IH in E2 as [H3 H4]; [|apply Forall_app; done|exact H1]. split; [done|]. intros v Hv. apply at_handling_app. auto.
  - intros [= <- <- <-]. split; [done|]. intros v [= <-]. done.
Qed.

Lemma e_tick_handlers_panics : forall hs st st' fs r,
  (forall h, h ∈ hs -> h ∈ c_app c) -> good_st c st -> e_tick_handlers c o oo hs st = (st', fs, r) ->
  good_st c st' /\ match r with TQueue q _ => Forall (deliverable c) q | TCancel _ => True | TPan v => at_tick c now skip fs v end.
Proof.
  induction hs as [|h hs IH]; intros st st' fs r Happ Hst; cbn [e_tick_handlers].
  { intros [= <- <- <-]. done. }
  assert (Hin : h ∈ c_app c) by (apply Happ; set_solver).
  assert (Happ' : forall h, h ∈ hs -> h ∈ c_app c) by (intros; apply Happ; set_solver).
  destruct (e_tick_one c o oo h st) as [[st1 fs1] r1] eqn:E.
  assert (HE : good_st c st1 /\ match r1 with HRet envs _ => Forall (deliverable c) envs | HPan v => at_tick c now skip fs1 v end).
  { unfold e_tick_one in E. destruct (skip_handler h oo) as [sr|] eqn:Es; [injection E as <- <- <-; split; [done|constructor]|].
    destruct (Hst h Hin) as (cs & El & Hg). rewrite El in E.
    destruct (ctrl_tick _ _ _ _) as [[[g2 cs2] fs2] r2] eqn:E2.
    assert (Hab : Forall (about_tick (h_id h)) fs2).
    { clear -E2 Hg. assert (Hcs : cs_match h cs) by apply Hg. clear Hg. revert E2 Hcs.
      assert (Hid : hid_type (h_id h) = h_type h) by done.
      unfold ctrl_tick, cs_match, h_type in *. destruct (h_impl h) as [a|pi|i|j] eqn:Ei, cs; intros H Hm; try done.
      - injection H as <- <- <- <-. constructor.
      - destruct (p_tick _ _). injection H as <- <- <- <-. constructor.
      - injection H as <- <- <- <-. constructor.
      - destruct (j_tick_ctrl _ _ _ _ _) as [[[g1 l1] fs1] r1] eqn:E. injection H as <- <- <- <-.
        apply j_tick_facts in E as (H1 & _ & H2). eapply Forall_impl; [exact H1|]. intros f. destruct f; cbn; try done; intuition. }
    eapply ctrl_tick_panics in E2 as [H1 H2]; [|exact Hg].
    destruct r2 as [envs e|v]; injection E as <- <- <-; (split; [apply good_st_update; done|]); [exact H2|].
    destruct H2 as (j & Hj & Hv). exists [], h, fs2, j. done. }
  destruct HE as [H1 H2].
  destruct r1 as [envs e|w]; [|intros [= <- <- <-]; done].
  destruct (poll_unless_skipped o oo h st1) as [st2 ce] eqn:Ep.
  assert (Hst2 : good_st c st2).
  { unfold poll_unless_skipped in Ep. destruct (skip_handler h oo); [injection Ep as <- _; done|].
    destruct (poll_ctx o (es_g st1)). injection Ep as <- _. exact H1. }
  destruct ce as [ce|]; [intros [= <- <- <-]; done|].
  destruct (e_tick_handlers c o oo hs st2) as [[st3 fs3] r3] eqn:E3. apply IH in E3 as [H3 H4]; [|done|done].
  intros [= <- <- <-]. split; [done|]. destruct r3; [apply Forall_app; done|done|apply at_tick_app; done].
Qed.
End Engine.

Lemma opts_panic c wall opts v : new_opts c wall opts = inr v ->
  (exists n b, OptHandler n b ∈ opts /\ (forall h, h ∈ c_app c -> h_name h <> n) /\
     v = PEngine "the application does not have a handler named" None).
Proof.
  intros H. destruct (opts_reject c wall opts) as [Hr _]. destruct Hr as (n & b & Hn & Hh); [eauto|].
  exists n, b. split; [done|]. split; [done|]. clear Hn Hh. revert H. unfold new_opts.
  generalize (mkOOs wall [] (mkETypes true true true true) ∅).
  induction opts as [|opt opts IH]; intros oo; cbn; [done|]. destruct (apply_opt c oo opt) as [oo'|w'] eqn:E; [apply IH|].
  intros [= <-]. destruct opt; cbn in E; try done. destruct (controllers c !! _); [done|]. injection E as <-. done.
Qed.

Lemma e_init_good c u : app_ok c -> good_st c (e_init c u).
Proof.
  intros Hok h Hin. exists (cs_init h). split.
  - cbn. rewrite lookup_fmap, controllers_complete; done.
  - split; [apply cs_init_match|]. unfold cs_init. destruct (h_impl h); try done. cbn. constructor.
Qed.

Lemma run_op_panics c op st st' evs r :
  app_ok c -> op_ok c op -> good_st c st -> run_op c op st = (st', evs, r) ->
  good_st c st' /\ forall v fs, r = Pan v -> evs = EvFact <$> fs -> OpPanics c op fs v.
Proof.
  intros Hok Hop Hst. destruct op as [o fuel m opts|o fuel order opts| |f]; cbn [run_op].
  - destruct (e_dispatch c o fuel m opts st) as [[st1 fs1] r1] eqn:E. intros [= <- <- <-].
    cut (good_st c st1 /\ forall v, r1 = Pan v -> OpPanics c (OpDispatch o fuel m opts) fs1 v).
    { intros [H1 H2]. split; [done|]. intros v fs Hv Hf. apply fmap_EvFact_inj in Hf as <-. auto. }
    revert E. unfold e_dispatch. destruct (next_id o (es_g st)) as [g id].
    destruct (new_opts c (o_wall o) opts) as [oo|w] eqn:Eo.
    2:{ intros [= <- <- <-]. split; [done|]. intros v [= <-]. left. split; [done|]. left. apply opts_panic in Eo. exact Eo. }
    destruct (m_kind m) eqn:Ek; [| |intros [= <- <- <-]; split; [done|]; intros v [= <-]; left; split; [done|right; left; done]].
    all: destruct (m_invalid m) as [x|] eqn:Ei; [intros [= <- <- <-]; split; [done|]; intros v [= <-]; left; split; [done|right; right; left; rewrite Ei; done]|].
    all: destruct (routes c !! m_type m) as [l|] eqn:Er;
      [|intros [= <- <- <-]; split; [done|]; intros v [= <-]; left; split; [done|right; right; right]; split; [|done];
        intros h Hin Hc; rewrite routes_lookup in Er; destruct (consumers _ _) eqn:Ec; [|done];
        assert (Hf : h ∈ consumers (c_app c) (m_type m)) by (apply elem_of_list_filter; done); rewrite Ec in Hf; set_solver].
    all: cbn zeta; destruct (lock o _) as [g' [le|]]; [intros [= <- <- <-]; done|].
    all: destruct (e_loop c o oo fuel _ _ _) as [[st3 fs3] r3] eqn:L;
      apply e_loop_panics in L as [H1 H2]; [|done|done|constructor; [|constructor]; intros Hk; cbn in Hk; congruence|exact Hst].
    all: destruct r3 as [e|w|]; intros [= <- <- <-]; (split; [exact H1|]); intros v Hv; [discriminate Hv| |discriminate Hv].
    all: injection Hv as <-; destruct (H2 _ eq_refl) as (l0 & h0 & env0 & l1 & -> & Ha & Hi & Hc & Hsk & Hp); right; left.
    all: eexists (_ :: l0), h0, env0, l1; (split; [reflexivity|]); (split; [exact Ha|]); (split; [exact Hi|]); (split; [exact Hc|]).
    all: destruct (skip_lemma _ _ _ _ h0 Eo) as [Hs1 Hs2]; (split; [cbn [op_opts]; rewrite <- Hs1; exact Hsk|]).
    all: destruct (opts_lemma _ _ _ _ Eo) as (Hn & _); cbn [op_now]; rewrite <- Hn; exact Hp.
  - destruct (e_tick c o fuel order opts st) as [[st1 fs1] r1] eqn:E. intros [= <- <- <-].
    cut (good_st c st1 /\ forall v, r1 = Pan v -> OpPanics c (OpTick o fuel order opts) fs1 v).
    { intros [H1 H2]. split; [done|]. intros v fs Hv Hf. apply fmap_EvFact_inj in Hf as <-. auto. }
    destruct Hop as [Hsort Hord].
    assert (Happ : forall h, h ∈ order -> h ∈ c_app c) by (intros h; rewrite Hord; done).
    revert E. unfold e_tick. destruct (new_opts c (o_wall o) opts) as [oo|w] eqn:Eo.
    2:{ intros [= <- <- <-]. split; [done|]. intros v [= <-]. left. split; [done|]. left. apply opts_panic in Eo. exact Eo. }
    destruct (lock o _) as [g' [le|]]; [intros [= <- <- <-]; done|]. unfold e_tick_body.
    destruct (opts_lemma _ _ _ _ Eo) as (Hn & _).
    destruct (e_tick_handlers c o oo order _) as [[st3 fs3] r3] eqn:T. apply e_tick_handlers_panics in T as [T1 T2]; [|done..].
    destruct r3 as [q errs|e|w].
    + destruct (e_loop c o oo fuel _ _ _) as [[st4 fs4] r4] eqn:L. apply e_loop_panics in L as [H1 H2]; [|done|done|done|exact T1].
      destruct r4 as [e|w|]; intros [= <- <- <-]; (split; [exact H1|]); intros v Hv; [discriminate Hv| |discriminate Hv].
      injection Hv as <-. destruct (H2 _ eq_refl) as (l0 & h0 & env0 & l1 & -> & Ha & Hi & Hc & Hsk & Hp). right. left.
      exists ((TickCycleBegun (oo_now oo) (oo_types oo) (oo_handlers oo) :: fs3) ++ l0), h0, env0, l1.
      split; [rewrite <- app_assoc; reflexivity|]. split; [exact Ha|]. split; [exact Hi|]. split; [exact Hc|].
      destruct (skip_lemma _ _ _ _ h0 Eo) as [Hs1 Hs2]. split; [cbn [op_opts]; rewrite <- Hs1; exact Hsk|].
      cbn [op_now]. rewrite <- Hn. exact Hp.
    + intros [= <- <- <-]. done.
    + intros [= <- <- <-]. split; [exact T1|]. intros v [= <-]. destruct T2 as (l0 & h0 & l1 & j & -> & Ha & Hi & Hsk & Hj & Hp).
      right. right. eexists (_ :: l0), h0, l1, j. split; [reflexivity|]. split; [exact Ha|]. split; [exact Hi|].
      destruct (skip_lemma _ _ _ _ h0 Eo) as [Hs1 Hs2]. split; [cbn [op_opts]; rewrite <- Hs1; exact Hsk|]. split; [exact Hj|].
      cbn [op_now]. rewrite <- Hn. exact Hp.
  - intros [= <- <- <-]. split; [|done]. intros h Hin. destruct (Hst h Hin) as (cs & El & Hm & Hg). exists (cs_reset cs).
    split; [cbn; rewrite lookup_fmap, El; done|]. split; [apply cs_reset_match; done|].
    destruct cs; cbn; try done.
  - intros [= <- <- <-]. split; done.
Qed.

Lemma run_ops_good c ops : forall st st' evs b, app_ok c -> Forall (op_ok c) ops -> good_st c st ->
  run_ops c ops st = (st', evs, b) -> good_st c st'.
Proof.
  induction ops as [|op ops IH]; intros st st' evs b Hok Hops Hst; cbn [run_ops].
  - intros [= <- _ _]. done.
  - apply Forall_cons in Hops as [Hop Hops]. destruct (run_op c op st) as [[st1 evs1] r1] eqn:E.
    apply run_op_panics in E as [H1 _]; [|done|done|done]. destruct r1.
    3:{ intros [= <- _ _]. done. }
    all: destruct (run_ops c ops st1) as [[st2 evs2] b2] eqn:E2; intros [= <- _ _]; eapply IH; done.
Qed.

Lemma reachable_good c st : reachable c st -> good_st c st.
Proof. intros (u & ops & evs & Hok & Hops & Hrun). eapply run_ops_good; [done|exact Hops| |exact Hrun]. apply e_init_good. done. Qed.

Lemma C44_panics_lemma c st op st' fs v :
  reachable c st -> op_ok c op -> run_op c op st = (st', EvFact <$> fs, Pan v) -> OpPanics c op fs v.
Proof.
  intros Hr Hop Hrun. apply run_op_panics in Hrun as [_ H]; [|eapply reachable_ok; done|done|apply reachable_good; done].
  apply H; done.
Qed.

(** ** Panics of methods that must panic reach the caller *)
Section Must.
Context (c : Config) (Hok : app_ok c) (o : Oracle) (Hsort : sort_ok o) (oo : OOs).
Context (hm : Handler) (Hhm : hm ∈ c_app c) (f : Fact) (v : PVal) (Hm : MustPanic c hm f v).

Lemma e_handlers_must env hs :
  (m_kind (e_msg env) = KTimeout -> is_Some (e_origin env)) ->
  (forall h, h ∈ hs -> h ∈ c_app c /\ m_type (e_msg env) ∈ h_consumed h) -> forall st st' fs r,
  good_st c st -> e_handlers c o oo env (Some <$> hs) st = (st', fs, r) -> f ∈ fs -> r = inr v.
Proof.
  intros Horg. induction hs as [|h hs IH]; intros Hhs st st' fs r Hst.
  { cbn. intros [= <- <- <-] Hf. set_solver. }
  destruct (Hhs h) as [Hin Hc]; [set_solver|].
  assert (Hhs' : forall h, h ∈ hs -> h ∈ c_app c /\ m_type (e_msg env) ∈ h_consumed h) by (intros; apply Hhs; set_solver).
  specialize (IH Hhs').
  rewrite fmap_cons. cbn [e_handlers]. destruct (e_handle c o oo env (Some h) st) as [[st1 fs1] r1] eqn:E.
  assert (HE : good_st c st1 /\ (f ∈ fs1 -> r1 = HPan v)).
  { unfold e_handle in E. destruct (skip_handler h oo) as [sr|] eqn:Es.
    { injection E as <- <- <-. split; [done|]. intros Hf. apply elem_of_list_singleton in Hf as ->. inversion Hm. }
    destruct (Hst h Hin) as (cs & El & Hg). rewrite El in E.
    destruct (ctrl_handle _ _ _ _ _ _ _) as [[[g2 cs2] fs2] r2] eqn:E2.
    assert (Hcs : cs_match h cs) by apply Hg.
    pose proof (fun Hf => ctrl_handle_must _ _ _ _ _ _ _ _ _ _ _ f hm v Hok Hin Hhm Hcs Hc E2 Hf Hm) as Hmust.
    apply ctrl_handle_panics in E2 as [H1 H2]; [|done..].
    destruct r2 as [envs e|w]; injection E as <- <- <-; (split; [apply good_st_update; done|]); intros Hf.
    - apply elem_of_cons in Hf as [->|Hf]; [specialize (Hmust (or_introl eq_refl)); discriminate Hmust|].
      apply elem_of_app in Hf as [Hf|Hf]; [specialize (Hmust (or_intror Hf)); discriminate Hmust|].
      apply elem_of_list_singleton in Hf as ->. inversion Hm.
    - apply Hmust. apply elem_of_cons in Hf. exact Hf. }
  destruct HE as [HE1 HE2].
  destruct r1 as [envs e|w]; [|intros [= <- <- <-] Hf; specialize (HE2 Hf); congruence].
  destruct (e_handlers _ _ _ _ _ st1) as [[st2 fs2] r2] eqn:E2.
  assert (Hf1 : f ∈ fs1 -> False) by (intros Hf; specialize (HE2 Hf); discriminate HE2).
  destruct r2 as [[envs' errs']|w]; intros [= <- <- <-] Hf; apply elem_of_app in Hf as [Hf|Hf]; try (destruct (Hf1 Hf)).
  - apply IH in E2; [discriminate E2|done|done].
  - apply IH in E2; [|done|done]. congruence.
Qed.

Lemma e_loop_must fuel : forall q err st st' fs r,
  Forall (deliverable c) q -> good_st c st -> e_loop c o oo fuel q err st = (st', fs, r) -> f ∈ fs -> r = Pan v.
Proof.
  induction fuel as [|fuel IH]; intros q err st st' fs r Hq Hst; destruct q as [|env q]; cbn [e_loop];
    try (intros [= <- <- <-] Hf; set_solver).
  apply Forall_cons in Hq as [Henv Hq].
  destruct (e_message c o oo env st) as [[st1 fs1] r1] eqn:E.
  assert (HE : (good_st c st1 /\ match r1 with inl (envs, _) => Forall (deliverable c) envs | inr v => True end) /\ (f ∈ fs1 -> r1 = inr v)).
  { unfold e_message in E. destruct (targets_good c env Henv) as (hs & Et & Horg & Hhs). rewrite Et in E.
    destruct (e_handlers _ _ _ _ _ st) as [[st2 fs2] r2] eqn:E2.
    pose proof (e_handlers_must env hs Horg Hhs _ _ _ _ Hst E2) as Hmust.
    apply e_handlers_panics in E2 as [H1 H2]; [|done..].
    destruct r2 as [[envs derr]|w]; injection E as <- <- <-; (split; [done|]); intros Hf; apply elem_of_cons in Hf as [->|Hf]; try (inversion Hm; fail).
    - apply elem_of_app in Hf as [Hf|Hf]; [specialize (Hmust Hf); discriminate Hmust|].
      apply elem_of_list_singleton in Hf as ->. inversion Hm.
    - auto. }
  destruct HE as [[H1 H2] H3].
  destruct r1 as [[envs derr]|w].
  - assert (Hf1 : f ∈ fs1 -> False) by (intros Hf; specialize (H3 Hf); discriminate H3).
    destruct (poll_ctx o (es_g st1)) as [g [ce|]]; [intros [= <- <- <-] Hf; destruct (Hf1 Hf)|].
    destruct (e_loop c o oo fuel _ _ _) as [[st2 fs2] r2] eqn:E2. intros [= <- <- <-] Hf.
    apply elem_of_app in Hf as [Hf|Hf]; [destruct (Hf1 Hf)|]. eapply IH; [| |exact E2|exact Hf]; [apply Forall_app; done|exact H1].
  - intros [= <- <- <-] Hf. specialize (H3 Hf). congruence.
Qed.

Lemma e_tick_handlers_must : forall hs st st' fs r,
  (forall h, h ∈ hs -> h ∈ c_app c) -> good_st c st -> e_tick_handlers c o oo hs st = (st', fs, r) -> f ∈ fs -> r = TPan v.
Proof.
  induction hs as [|h hs IH]; intros st st' fs r Happ Hst; cbn [e_tick_handlers].
  { intros [= <- <- <-] Hf. set_solver. }
  assert (Hin : h ∈ c_app c) by (apply Happ; set_solver).
  assert (Happ' : forall h, h ∈ hs -> h ∈ c_app c) by (intros; apply Happ; set_solver).
  destruct (e_tick_one c o oo h st) as [[st1 fs1] r1] eqn:E.
  assert (HE : good_st c st1 /\ (f ∈ fs1 -> r1 = HPan v)).
  { unfold e_tick_one in E. destruct (skip_handler h oo) as [sr|] eqn:Es.
    { injection E as <- <- <-. split; [done|]. intros Hf. apply elem_of_list_singleton in Hf as ->. inversion Hm. }
    destruct (Hst h Hin) as (cs & El & Hg). rewrite El in E.
    destruct (ctrl_tick _ _ _ _) as [[[g2 cs2] fs2] r2] eqn:E2.
    assert (Hcs : cs_match h cs) by apply Hg.
    pose proof (fun Hf => ctrl_tick_must _ _ _ _ _ _ _ _ _ f hm v Hok Hin Hhm Hcs E2 Hf Hm) as Hmust.
    eapply ctrl_tick_panics in E2 as [H1 H2]; [|exact Hg].
    destruct r2 as [envs e|w]; injection E as <- <- <-; (split; [apply good_st_update; done|]); intros Hf; apply elem_of_cons in Hf as [->|Hf]; try (inversion Hm; fail).
    - apply elem_of_app in Hf as [Hf|Hf]; [specialize (Hmust Hf); discriminate Hmust|].
      apply elem_of_list_singleton in Hf as ->. inversion Hm.
    - auto. }
  destruct HE as [H1 H2].
  destruct r1 as [envs e|w]; [|intros [= <- <- <-] Hf; specialize (H2 Hf); congruence].
  assert (Hf1 : f ∈ fs1 -> False) by (intros Hf; specialize (H2 Hf); discriminate H2).
  destruct (poll_unless_skipped o oo h st1) as [st2 ce] eqn:Ep.
  assert (Hst2 : good_st c st2).
  { unfold poll_unless_skipped in Ep. destruct (skip_handler h oo); [injection Ep as <- _; done|].
    destruct (poll_ctx o (es_g st1)). injection Ep as <- _. exact H1. }
  destruct ce as [ce|]; [intros [= <- <- <-] Hf; destruct (Hf1 Hf)|].
  destruct (e_tick_handlers c o oo hs st2) as [[st3 fs3] r3] eqn:E3.
  intros [= <- <- <-] Hf. apply elem_of_app in Hf as [Hf|Hf]; [destruct (Hf1 Hf)|].
  apply IH in E3; [|done..]. subst r3. done.
Qed.
End Must.

Lemma C44_propagates_lemma c st op st' fs r h f v :
  reachable c st -> op_ok c op -> run_op c op st = (st', EvFact <$> fs, r) ->
  h ∈ c_app c -> f ∈ fs -> MustPanic c h f v -> r = Pan v.
Proof.
  intros Hr Hop Hrun Hin Hf Hm. pose proof (reachable_ok _ _ Hr) as Hok. pose proof (reachable_good _ _ Hr) as Hst.
  destruct op as [o fuel m opts|o fuel order opts| |f0]; cbn [run_op] in Hrun.
  - destruct (e_dispatch c o fuel m opts st) as [[st1 fs1] r1] eqn:E. injection Hrun as <- Hfs <-. apply fmap_EvFact_inj in Hfs as ->.
    revert E. unfold e_dispatch. destruct (next_id o (es_g st)) as [g id].
    destruct (new_opts c (o_wall o) opts) as [oo|w] eqn:Eo; [|intros [= <- <- <-]; set_solver].
    destruct (m_kind m) eqn:Ek; [| |intros [= <- <- <-]; set_solver].
    all: destruct (m_invalid m) as [x|]; [intros [= <- <- <-]; set_solver|].
    all: destruct (routes c !! m_type m) as [l|] eqn:Er; [|intros [= <- <- <-]; set_solver].
    all: cbn zeta; destruct (lock o _) as [g' [le|]];
      [intros [= <- <- <-]; apply elem_of_cons in Hf as [->|Hf]; [inversion Hm|apply elem_of_list_singleton in Hf as ->; inversion Hm]|].
    all: destruct (e_loop c o oo fuel _ _ _) as [[st3 fs3] r3] eqn:L.
    all: assert (Hl : f ∈ fs3 -> r3 = Pan v) by
      (intros Hf3; eapply e_loop_must; [exact Hok|exact Hop|exact Hin|exact Hm| | |exact L|exact Hf3];
        [constructor; [|constructor]; intros Hk; cbn in Hk; congruence|exact Hst]).
    all: destruct r3 as [e|w|]; intros [= <- <- <-]; apply elem_of_cons in Hf as [->|Hf]; try (inversion Hm; fail); try (specialize (Hl Hf); congruence).
    all: apply elem_of_app in Hf as [Hf|Hf]; [specialize (Hl Hf); discriminate Hl|].
    all: apply elem_of_list_singleton in Hf as ->; inversion Hm.
  - destruct (e_tick c o fuel order opts st) as [[st1 fs1] r1] eqn:E. injection Hrun as <- Hfs <-. apply fmap_EvFact_inj in Hfs as ->.
    destruct Hop as [Hsort Hord].
    assert (Happ : forall h, h ∈ order -> h ∈ c_app c) by (intros h'; rewrite Hord; done).
    revert E. unfold e_tick. destruct (new_opts c (o_wall o) opts) as [oo|w] eqn:Eo; [|intros [= <- <- <-]; set_solver].
    destruct (lock o _) as [g' [le|]];
      [intros [= <- <- <-]; apply elem_of_cons in Hf as [->|Hf]; [inversion Hm|apply elem_of_list_singleton in Hf as ->; inversion Hm]|].
    destruct (e_tick_body _ _ _ _ _ _) as [[st2 fs2] r2] eqn:B.
    assert (Hl : f ∈ fs2 -> r2 = Pan v).
    { intros Hf2. unfold e_tick_body in B.
      destruct (e_tick_handlers c o oo order _) as [[st3 fs3] r3] eqn:T.
      pose proof (e_tick_handlers_must c Hok o Hsort oo h Hin f v Hm order _ _ _ _ Happ (Hst : good_st c (es_set_g st g')) T) as HT.
      apply e_tick_handlers_panics in T as [T1 T2]; [|done..].
      destruct r3 as [q errs|e|w].
      - destruct (e_loop c o oo fuel _ _ _) as [[st4 fs4] r4] eqn:L. injection B as <- <- <-.
        apply elem_of_app in Hf2 as [Hf2|Hf2]; [specialize (HT Hf2); discriminate HT|].
        assert (Hl : r4 = Pan v).
        { eapply e_loop_must; [exact Hok|exact Hsort|exact Hin|exact Hm| | |exact L|exact Hf2]; [exact T2|exact T1]. }
        subst r4. done.
      - injection B as <- <- <-. specialize (HT Hf2). discriminate HT.
      - injection B as <- <- <-. specialize (HT Hf2). congruence. }
    destruct r2 as [e|w|]; intros [= <- <- <-]; apply elem_of_cons in Hf as [->|Hf]; try (inversion Hm; fail); try (specialize (Hl Hf); congruence).
    apply elem_of_app in Hf as [Hf|Hf]; [specialize (Hl Hf); discriminate Hl|].
    apply elem_of_list_singleton in Hf as ->; inversion Hm.
  - destruct fs; discriminate Hrun.
  - injection Hrun as <- Hfs <-. destruct fs; [set_solver|discriminate Hfs].
Qed.

(** ** Internal panics *)
Lemma ARaises_mono (S S' : Msg -> PVal -> Prop) p w : (forall m x, S m x -> S' m x) -> ARaises S p w -> ARaises S' p w.
Proof. intros HS. induction 1; econstructor; eauto. Qed.
Lemma PRaises_mono (S S' : Msg -> PVal -> Prop) p w : (forall m x, S m x -> S' m x) -> PRaises S p w -> PRaises S' p w.
Proof. intros HS. induction 1; econstructor; eauto. Qed.
Lemma IRaises_mono (S S' : Msg -> PVal -> Prop) p w : (forall m x, S m x -> S' m x) -> IRaises S p w -> IRaises S' p w.
Proof. intros HS. induction 1; econstructor; eauto. Qed.
Lemma not_internal_beh (h : HId) i m x d : ~ internal (PUnexpBeh h i m x d).
Proof. intros [H|[[? H]|(? & H & _)]]; discriminate H. Qed.
Lemma not_internal_named h i m x w : ~ internal w -> ~ internal (named h i m x w).
Proof. intros Hw. destruct w; try exact Hw. intros [H|[[? H]|(? & H & _)]]; discriminate H. Qed.
Lemma not_internal_complains h i m env x v : complains h i m env x v -> ~ internal v.
Proof. intros (d & _ & ->). apply not_internal_beh. Qed.
Lemma not_internal_fatal w : ~ internal w -> ~ internal (PFatal w).
Proof. intros Hw [H|[[? H]|(x & [= <-] & H)]]; [discriminate H|discriminate H|]. apply Hw. unfold internal. intuition. Qed.

Lemma civil_handling c now h env v : civil h -> HandlingPanics c now h env v -> ~ internal v.
Proof.
  unfold civil. intros Hc H.
  destruct H as [a w Hi Hr|a Hi Hr|a id Hi Hr Hid Hn|a id m v Hi Hr Hid Hn (Hk & Ht & r & r' & w & Ha & ->)|a id w Hi Hr Hid Hn Hw|
    p u u' w Hi Hk Hr|p u u' Hi Hk Hr|p Hi Hn|p id w Hi Hk Hw|p id w Hi Hk Hw|i w Hi Hw|j u u' w Hi Hv|j cur nxt w Hi Hw|j u u' w Hi Hv|j w Hi Hcc Hw];
    rewrite Hi in Hc; try apply not_internal_beh.
  - destruct Hc as (H1 & H2 & H3). apply not_internal_named. eapply H1. exact Hr.
  - destruct Hc as (H1 & H2 & H3). apply not_internal_named. eapply H2. exact Ha.
  - destruct Hc as (H1 & H2 & H3). apply not_internal_named. eapply H3. eapply ARaises_mono; [|exact Hw]. intros m x [Hx|(_ & _ & r & r' & w' & Ha & ->)].
    + eapply not_internal_complains. exact Hx.
    + apply not_internal_named. eapply H2. exact Ha.
  - destruct Hc as (H1 & H2 & H3). apply not_internal_named. eapply H1. exact Hr.
  - destruct Hc as (H1 & H2 & H3). apply not_internal_named. eapply H2. eapply PRaises_mono; [|exact Hw]. intros m x. apply not_internal_complains.
  - destruct Hc as (H1 & H2 & H3). apply not_internal_named. eapply H3. eapply PRaises_mono; [|exact Hw]. intros m x. apply not_internal_complains.
  - apply not_internal_named. eapply Hc. eapply IRaises_mono; [|exact Hw]. intros m x. apply not_internal_complains.
  - destruct Hc as (H1 & H2 & H3 & H4). eapply H1. exact Hv.
  - destruct Hc as (H1 & H2 & H3 & H4). apply not_internal_named. eapply H3. exact Hw.
  - destruct Hc as (H1 & H2 & H3 & H4). eapply H2. exact Hv.
  - destruct Hc as (H1 & H2 & H3 & H4). apply not_internal_fatal. eapply H4. exact Hw.
Qed.

Lemma C74_lemma c st op st' fs v :
  reachable c st -> op_ok c op -> (forall h, h ∈ c_app c -> civil h) ->
  run_op c op st = (st', EvFact <$> fs, Pan v) -> ~ internal v.
Proof.
  intros Hr Hop Hc Hrun. apply C44_panics_lemma in Hrun as [[_ Hrej]|[H|H]]; [| | |done|done].
  - assert (Hv : exists s m, v = PEngine s m /\ s <> "does not handle"%string).
    { destruct Hrej as [(n & b & _ & _ & ->)|Hrej]; [by eexists _, _|].
      destruct op; try done. destruct Hrej as [[_ ->]|[[_ ->]|[_ ->]]]; by eexists _, _. }
    destruct Hv as (s & m & -> & Hs). intros [H|[[? H]|(? & H & _)]]; try discriminate H. injection H as -> _. done.
  - destruct H as (l & h & env & l' & _ & _ & Hin & _ & _ & Hp). eapply civil_handling; [apply Hc; exact Hin|exact Hp].
  - destruct H as (l & h & l' & j & _ & _ & Hin & _ & Hi & Hp). specialize (Hc h Hin). unfold civil in Hc. rewrite Hi in Hc.
    destruct Hc as (H1 & H2 & H3 & H4). eapply H4. exact Hp.
Qed.
End PanicProof.
