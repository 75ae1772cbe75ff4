(** * Compaction by Tick under observers that may panic *)
From Verif Require Export ObsOps ProjSpec.
From Verif Require Import ProjLemmas HistSim.

Section ObsClock.
Context {P : Params} (x : XApp) (Hok : app_ok (x_cfg x)).
Notation c := (x_cfg x).
Notation ck v := (clock (sn_fact <$> v)).

Definition ck_chk (pre : list Seen) (sn : Seen) : Prop := clock_check (ck pre) (sn_fact sn).
Definition lasts (cs : gmap string CState) (k : Clock) : Prop :=
  forall h j, h ∈ c_app c -> h_impl h = ImplProj j -> cs !! h_name h = Some (CSProj (ck_last k (h_id h))).
Definition CJ0 (v : list Seen) (st : EState) : Prop := checked ck_chk v /\ lasts (es_cs st) (ck v).
Definition CJ (oo : OOs) (v : list Seen) (st : EState) : Prop := CJ0 v st /\ ck_now (ck v) = oo_now oo.

Lemma ck_snoc v sn : ck (v ++ [sn]) = clock_step (ck v) (sn_fact sn).
Proof. unfold clock. rewrite fmap_app, foldl_app. done. Qed.

Lemma CJ_snoc oo v st sn :
  CJ oo v st -> ck_chk v sn -> ck_now (clock_step (ck v) (sn_fact sn)) = ck_now (ck v) ->
  ck_last (clock_step (ck v) (sn_fact sn)) = ck_last (ck v) -> CJ oo (v ++ [sn]) st.
Proof.
  intros [[H1 H2] H3] Hc Hn Hl. unfold CJ, CJ0. rewrite ck_snoc. split; [split|congruence].
  - apply checked_snoc; done.
  - intros h j. rewrite Hl. apply H2.
Qed.

Lemma CJ_quiet oo t : forall v st, CJ oo v st -> Forall (fun sn => quiet_fact (sn_fact sn)) t ->
  CJ oo (v ++ t) st /\ ck (v ++ t) = ck v.
Proof.
  induction t as [|sn t IH]; intros v st H Ht; [rewrite app_nil_r; done|]. apply Forall_cons in Ht as [Hs Ht].
  assert (Hck : ck (v ++ [sn]) = ck v) by (rewrite ck_snoc; destruct (sn_fact sn); done).
  change (sn :: t) with ([sn] ++ t). rewrite app_assoc. rewrite <- Hck. apply IH; [|done].
  apply CJ_snoc; [done|..]; unfold ck_chk; destruct (sn_fact sn); done.
Qed.
Lemma CJ_idle oo t : forall v st, CJ oo v st -> ck_tick (ck v) = None ->
  Forall (fun sn => quiet_fact (sn_fact sn) \/ exists h, sn_fact sn = ProjectionCompactionBegun h) t -> CJ oo (v ++ t) st.
Proof.
  induction t as [|sn t IH]; intros v st H Hn Ht; [rewrite app_nil_r; done|]. apply Forall_cons in Ht as [Hs Ht].
  assert (Hck : clock_step (ck v) (sn_fact sn) = ck v).
  { destruct Hs as [Hs|[h Hs]]; [destruct (sn_fact sn); done|]. rewrite Hs. cbn. rewrite Hn. done. }
  change (sn :: t) with ([sn] ++ t). rewrite app_assoc. apply IH; [|rewrite ck_snoc, Hck; done|done].
  apply CJ_snoc; [done| |rewrite Hck; done|rewrite Hck; done].
  unfold ck_chk. destruct Hs as [Hs|[h Hs]]; [destruct (sn_fact sn); done|]. rewrite Hs. cbn. rewrite Hn. done.
Qed.

Lemma lasts_put k h cs cs' :
  h ∈ c_app c -> lasts cs k -> (forall j, h_impl h = ImplProj j -> cs !! h_name h = Some cs') -> lasts (<[h_name h := cs']> cs) k.
Proof.
  intros Happ H Hl hd j Hin Hi. destruct (decide (h_name hd = h_name h)) as [E|E].
  - assert (hd = h) as -> by (eapply app_name_inj; [exact Hok|done|done|congruence]).
    rewrite lookup_insert, <- (Hl _ Hi). eapply H; done.
  - rewrite lookup_insert_ne by congruence. eapply H; done.
Qed.

Lemma CJ_ctrl_handle obs o oo h env :
  h ∈ c_app c -> trip (fun v st => CJ oo v st /\ ck_tick (ck v) = None)
    (on_ctrl h (xctrl_handle x obs o h (oo_now oo) env)) (fun v st _ => CJ oo v st).
Proof.
  intros Happ v st [H Hn]. unfold on_ctrl. destruct (es_cs st !! h_name h) as [cs|] eqn:El; [|rewrite app_nil_r; done].
  unfold xctrl_handle.
  assert (Hput : forall g' cs' t, (forall j, h_impl h = ImplProj j -> cs = cs') ->
    Forall (fun sn => quiet_fact (sn_fact sn) \/ exists h, sn_fact sn = ProjectionCompactionBegun h) t ->
    CJ oo (v ++ t) (mkE g' (<[h_name h := cs']> (es_cs st)))).
  { intros g' cs' t Hl Ht. apply CJ_idle; [|done|done]. destruct H as [[H1 H2] H3]. split; [|done]. split; [done|].
    apply lasts_put; [done|done|]. intros j E. rewrite El, (Hl j E). done. }
  assert (Hem : forall {S A} Pf (m : M S A) s s' t r, emits Pf m ->
    (forall f, Pf f -> quiet_fact f \/ exists h, f = ProjectionCompactionBegun h) -> m s = (s', t, r) ->
    Forall (fun sn => quiet_fact (sn_fact sn) \/ exists h, sn_fact sn = ProjectionCompactionBegun h) t).
  { intros S A Pf m s s' t r H1 H2 E. specialize (H1 s). rewrite E in H1. eapply Forall_impl; [exact H1|]. intros sn. apply H2. }
  destruct (h_impl h) as [a|p|i|j] eqn:Hi, cs as [hist|ps| |last]; try (apply Hput; [done|constructor]).
  - destruct (xa_handle _ _ _ _ _ _ _ _) as [[[g' hist'] t] r] eqn:E. apply Hput; [done|].
    eapply Hem; [apply xa_handle_emits| |exact E]. intros f Hf. left. destruct f; done.
  - destruct (xp_handle _ _ _ _ _ _ _ _) as [[[g' ps'] t] r] eqn:E. apply Hput; [done|].
    eapply Hem; [apply xp_handle_emits| |exact E]. intros f Hf. left. destruct f; done.
  - destruct (xi_handle _ _ _ _ _ _ _) as [[g' t] r] eqn:E. apply Hput; [done|].
    eapply Hem; [apply xi_handle_emits| |exact E]. intros f Hf. left. destruct f; done.
  - destruct (xj_handle _ _ _ _ _ _ _ _) as [[g' t] r] eqn:E. apply Hput; [done|].
    eapply Hem; [apply xj_handle_emits| |exact E]. intros f Hf. destruct f; try (left; done). right. eauto.
Qed.

(** After the Tick of [h]. *)
Definition CT (oo : OOs) (h : Handler) (v : list Seen) (st : EState) (r : list Env * option Err + PVal) : Prop :=
  CJ oo v st /\
  match r with
  | inl (_, e) => hid_type (h_id h) = HTProjection ->
      ck_tick (ck v) = Some (h_id h) /\
      (ck_did (ck v) = false -> (ck_now (ck v) - ck_last (ck v) (h_id h) < hour)%Z /\ e = None)
  | inr _ => True
  end.

Lemma xj_run_quiet {A} obs hid ev (p : XJProg A) : emits quiet_fact (xj_run obs hid ev p).
Proof.
  induction p as [a|v|f k IH|str k IH]; cbn [xj_run].
  - apply emits_ret.
  - apply emits_raise.
  - apply emits_bnd; [apply emits_user|apply IH].
  - apply emits_bnd; [apply emits_try, emits_note; done|intros; apply IH].
Qed.

Lemma xj_tick_ct obs oo h j g cs v last :
  h ∈ c_app c -> h_impl h = ImplProj j -> CJ oo v (mkE g cs) -> ck_tick (ck v) = Some (h_id h) -> ck_did (ck v) = false ->
  cs !! h_name h = Some (CSProj last) ->
  let '(g', last', t, r) := xj_tick x obs h (oo_now oo) (g, last) in
  CT oo h (v ++ t) (mkE g' (<[h_name h := CSProj last']> cs)) r.
Proof.
  intros Happ Hi HJ Ht Hd El. pose proof HJ as [[Hc Hls] Hnow]. pose proof (Hls h j Happ Hi) as Hl. cbn in Hl.
  rewrite El in Hl. injection Hl as Hl. symmetry in Hl.
  unfold xj_tick, bnd at 1, get_st. change compact_interval with hour. destruct (hour <=? oo_now oo - last)%Z eqn:E.
  - apply Z.leb_le in E.
    match goal with |- context [bnd (set_st ?s) ?k] => replace (bnd (set_st s) k (g, last)) with (bnd (ret tt) k s) by reflexivity end.
    unfold bnd at 1, ret at 1.
    assert (H : trip (fun v s => s = (g, oo_now oo) /\ CJ oo v (mkE g cs) /\ ck_tick (ck v) = Some (h_id h) /\ ck_last (ck v) (h_id h) = last)
      (bnd (fst_do (note obs (ProjectionCompactionBegun (h_id h)))) (fun _ =>
       bnd (fst_do (xj_run obs (h_id h) None (x_compact x (h_name h) (oo_now oo)))) (fun e =>
       bnd (fst_do (note obs (ProjectionCompactionCompleted (h_id h) e))) (fun _ => ret ([], e)))))
      (fun v s r => CT oo h v (mkE s.1 (<[h_name h := CSProj s.2]> cs)) r)).
    { set (Q := fun v (s : GState * Z) => CJ oo v (mkE s.1 (<[h_name h := CSProj s.2]> cs)) /\ ck_tick (ck v) = Some (h_id h) /\ ck_did (ck v) = true).
      assert (HQ : forall v s (r : list Env * option Err + PVal), Q v s -> CT oo h v (mkE s.1 (<[h_name h := CSProj s.2]> cs)) r).
      { intros v' s r (H1 & H2 & H3). split; [done|]. destruct r as [[? e]|]; [|done]. intros _. split; [done|]. congruence. }
      assert (Hq : forall A (m : M GState A), emits quiet_fact m -> trip Q (fst_do m) (fun v s _ => Q v s)).
      { intros A m He v' [g' l] (H1 & H2 & H3). unfold fst_do. specialize (He g'). destruct (m g') as [[g2 t2] r2].
        destruct (CJ_quiet oo t2 v' _ H1 He) as [H4 H5]. split; [exact H4|]. rewrite H5. done. }
      eapply (trip_bnd _ (fun v s _ => Q v s)); [|intros ?|intros; apply HQ; done].
      - apply trip_fst. intros l. apply trip_note. intros v' g1 sn g2 r (Hs & [[H1 H2] H3] & H4 & H5) (Hf & _).
        injection Hs as -> ->. unfold Q. cbn [fst snd].
        assert (Hck : ck (v' ++ [sn]) = mkClock (ck_now (ck v')) (Some (h_id h)) true
           (fun h' => if decide (h' = h_id h) then ck_now (ck v') else ck_last (ck v') h')).
        { rewrite ck_snoc, Hf. cbn. rewrite decide_True by done. done. }
        rewrite Hck. cbn. split; [|done]. unfold CJ, CJ0. rewrite Hck. cbn. split; [|done]. split.
        + apply checked_snoc; [done|]. unfold ck_chk. rewrite Hf. cbn. intros _. rewrite H3, H5. exact E.
        + intros hd j' Hin Hi'. cbn. destruct (decide (h_name hd = h_name h)) as [En|En].
          * assert (hd = h) as -> by (eapply app_name_inj; [exact Hok|done|done|congruence]).
            rewrite lookup_insert, decide_True by done. rewrite H3. done.
          * rewrite lookup_insert_ne by congruence. rewrite decide_False; [eapply H2; done|].
            unfold h_id. congruence.
      - eapply (trip_bnd _ (fun v s _ => Q v s)); [apply Hq, xj_run_quiet|intros e|intros; apply HQ; done].
        eapply (trip_bnd _ (fun v s _ => Q v s)); [apply Hq, emits_note; done|intros ?|intros; apply HQ; done].
        apply trip_ret. intros; apply HQ; done. }
    specialize (H v (g, oo_now oo) ltac:(done)).
    destruct (bnd _ _ (g, oo_now oo)) as [[[g' last'] t] r]. exact H.
  - apply Z.leb_gt in E. cbn. rewrite app_nil_r. rewrite insert_id by done. split; [exact HJ|]. intros _. split; [done|].
    intros _. split; [|done]. rewrite Hnow, Hl. exact E.
Qed.

Lemma clock_xinv : XInvR id x ck_chk CJ0 CJ.
Proof.
  constructor.
  - intros v st [H _]. exact H.
  - intros oo v st [H _]. exact H.
  - done.
  - done.
  - intros oo v st sn H Hf. apply (CJ_quiet oo [sn]); [done|]. constructor; [|constructor]. destruct (sn_fact sn); done.
  - intros oo v st o g' env sn [H1 H2] _ _ Hf. unfold CJ, CJ0. rewrite ck_snoc, Hf. cbn. split; [|done]. split; [|exact H2].
    apply checked_snoc; [done|]. unfold ck_chk. rewrite Hf. done.
  - intros oo v st sn [H1 H2] Hf. unfold CJ, CJ0. rewrite ck_snoc, Hf. cbn. split; [|done]. split; [|exact H2].
    apply checked_snoc; [done|]. unfold ck_chk. rewrite Hf. done.
  - intros obs o oo env h _ Happ. unfold xe_handle.
    assert (Hq : forall f, quiet_fact f -> trip (CJ oo) (on_g (note obs f)) (fun v st _ => CJ oo v st)).
    { intros f Hf. apply trip_on_g. intros cs. apply trip_note. intros v g sn g' r HJ (Hs & _).
      apply (CJ_quiet oo [sn] v (mkE g' cs)); [exact HJ|]. constructor; [rewrite Hs; done|constructor]. }
    destruct (skip_handler h oo).
    + eapply trip_bnd; [apply Hq; done|intros ?; apply trip_ret; intros; cbv beta in *; tauto|intros; cbv beta in *; tauto].
    + eapply (trip_bnd _ (fun v st _ => CJ oo v st /\ ck_tick (ck v) = None)); [|intros ?|intros; cbv beta in *; tauto].
      { apply trip_on_g. intros cs. apply trip_note. intros v g sn g' r HJ (Hs & _). split.
        - apply (CJ_snoc oo v (mkE g' cs)); [exact HJ|..]; unfold ck_chk; rewrite Hs; done.
        - rewrite ck_snoc, Hs. done. }
      eapply trip_bnd; [apply CJ_ctrl_handle; done|intros [envs e]|intros; cbv beta in *; tauto].
      eapply trip_bnd; [apply Hq; done|intros ?; apply trip_ret; intros; cbv beta in *; tauto|intros; cbv beta in *; tauto].
  - intros obs o oo h _ Happ. unfold xe_tick_one. destruct (skip_handler h oo).
    + eapply (trip_bnd _ (fun v st _ => CJ oo v st)); [|intros ?; apply trip_ret; intros; cbv beta in *; tauto|intros; cbv beta in *; tauto].
      apply trip_on_g. intros cs. apply trip_note. intros v g sn g' r HJ (Hs & _).
      apply (CJ_quiet oo [sn] v (mkE g' cs)); [exact HJ|]. constructor; [rewrite Hs; done|constructor].
    + eapply (trip_bnd _ (fun v st _ => CJ oo v st /\ ck_tick (ck v) = Some (h_id h) /\ ck_did (ck v) = false)); [|intros ?|intros; cbv beta in *; tauto].
      { apply trip_on_g. intros cs. apply trip_note. intros v g sn g' r HJ (Hs & _). split.
        - apply (CJ_snoc oo v (mkE g' cs)); [exact HJ|..]; unfold ck_chk; rewrite Hs; done.
        - rewrite ck_snoc, Hs. done. }
      eapply (trip_bnd _ (CT oo h)); [|intros [envs e]|intros v st w [H _]; exact H].
      * intros v st (HJ & Ht & Hd). unfold on_ctrl.
        destruct (es_cs st !! h_name h) as [cs|] eqn:El; [|rewrite app_nil_r; split; done].
        unfold xctrl_tick.
        assert (Hput : forall g' cs' r, h_type h <> HTProjection -> 
          CT oo h (v ++ []) (mkE g' (<[h_name h := cs']> (es_cs st))) r).
        { intros g' cs' r Hty. rewrite app_nil_r. split.
          - destruct HJ as [[H1 H2] H3]. split; [|done]. split; [done|].
            apply lasts_put; [done|done|]. intros j E. destruct Hty. unfold h_type. rewrite E. done.
          - destruct r as [[? ?]|]; [|done]. intros Ht'. cbn in Ht'. done. }
        destruct (h_impl h) as [ai|p|i|j] eqn:Hi.
        -- apply Hput; unfold h_type; rewrite Hi; done.
        -- destruct cs as [hist|ps| |last]; try (apply Hput; unfold h_type; rewrite Hi; done).
           destruct (p_tick _ _) as [ps' ready]. apply Hput; unfold h_type; rewrite Hi; done.
        -- apply Hput; unfold h_type; rewrite Hi; done.
        -- destruct cs as [hist|ps| |last].
           4: { destruct st as [g cs0]. cbn [es_g es_cs] in *. pose proof (xj_tick_ct obs oo h j g cs0 v last Happ Hi HJ Ht Hd El) as H.
                destruct (xj_tick _ _ _ _ _) as [[[g' last'] t] r]. exact H. }
           all: exfalso; destruct HJ as [[_ H2] _]; specialize (H2 h j Happ Hi); congruence.
      * eapply (trip_bnd _ (fun v st _ => CJ oo v st)); [|intros ?|intros; cbv beta in *; tauto].
        { apply trip_on_g. intros cs. apply trip_note. intros v g sn g' r [HJ HT] (Hs & _).
          apply (CJ_snoc oo v (mkE g' cs)); [exact HJ|unfold ck_chk; rewrite Hs; exact HT|rewrite Hs; done|rewrite Hs; done]. }
        eapply (trip_bnd _ (fun v st _ => CJ oo v st)); [|intros ?; apply trip_ret; intros; cbv beta in *; tauto|intros; cbv beta in *; tauto].
        unfold xpoll. apply trip_on_g. intros cs v g HJ. unfold poll_ctx. rewrite app_nil_r. exact HJ.
  - intros v st [H1 H2]. split; [exact H1|]. intros h j Hin Hi. cbn.
    rewrite lookup_fmap, (H2 h j Hin Hi). done.
Qed.

Lemma clock_xhistory u ops s evs rs pre f :
  xhistory x u ops s evs rs -> occurs_after (xfact <$> evs) pre f -> clock_check (clock pre) f.
Proof.
  intros H (before & after & E & ->). destruct (inv_all _ _ _ _ _ clock_xinv _ _ _ _ _ H) as [_ H2].
  { split; [apply checked_nil|]. intros h j Hin Hi. cbn. rewrite lookup_fmap, (controllers_complete c h Hok Hin). cbn. unfold cs_init. rewrite Hi. done. }
  apply fmap_app_inv in E as (b & a & E1 & E2 & ->). subst before. destruct a as [|[sn|] a]; try discriminate E2.
  injection E2 as E2 _. specialize (H2 b sn a eq_refl). unfold ck_chk in H2. rewrite E2.
  replace (all_facts (xfact <$> b)) with (sn_fact <$> foldl (rho_step id) [] b); [exact H2|].
  clear. change (all_facts (xfact <$> b)) with ((sn_fact <$> []) ++ all_facts (xfact <$> b)).
  generalize (@nil Seen) as l. induction b as [|[sn|] b IH]; intros l; cbn; [rewrite app_nil_r; done| |].
  - rewrite IH, fmap_app, <- app_assoc. done.
  - rewrite IH. done.
Qed.
End ObsClock.
