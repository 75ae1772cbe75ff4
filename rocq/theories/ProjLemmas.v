(** * Proofs about projections. *)
From Verif Require Export ProjSpec HistSim.

Section ProjLemmas.
Context {P : Params}.

(** ** Compaction by Tick *)

Definition clock_check (x : Clock) (f : Fact) : Prop :=
  match f with
  | ProjectionCompactionBegun h => ck_tick x = Some h -> (hour <= ck_now x - ck_last x h)%Z
  | TickCompleted h e =>
    hid_type h = HTProjection -> ck_tick x = Some h /\ (ck_did x = false -> (ck_now x - ck_last x h < hour)%Z /\ e = None)
  | _ => True
  end.

Definition clock_rel (c : Config) (m : option OOs) (cs : gmap string CState) (x : Clock) : Prop :=
  (forall h j l, h ∈ c_app c -> h_impl h = ImplProj j -> cs !! h_name h = Some (CSProj l) -> ck_last x (h_id h) = l) /\
  match m with Some oo => ck_now x = oo_now oo | None => True end.

Definition quiet_fact (f : Fact) : Prop :=
  match f with
  | DispatchCycleBegun _ _ _ _ | TickCycleBegun _ _ _ | TickBegun _ | TickCompleted _ _ | HandlingBegun _ _
  | ProjectionCompactionBegun _ => False
  | _ => True
  end.

Lemma quiet_facts x fs : Forall quiet_fact fs -> good clock_check clock_step x fs /\ foldl clock_step x fs = x.
Proof.
  intros H. apply good_ignore. eapply Forall_impl; [exact H|]. intros f Hf y. destruct f; done.
Qed.

(** Inside the handling of a message, a compaction is not Tick-driven. *)
Lemma idle_facts x fs :
  ck_tick x = None ->
  Forall (fun f => quiet_fact f \/ exists h, f = ProjectionCompactionBegun h) fs ->
  good clock_check clock_step x fs /\ foldl clock_step x fs = x.
Proof.
  intros Hx. induction fs as [|f fs IH]; intros H; [done|].
  apply Forall_cons in H as [[Hf|[h ->]] H].
  - destruct (IH H) as [H1 H2]. cbn.
    assert (Hs : clock_step x f = x) by (destruct f; done). rewrite Hs.
    split; [split; [destruct f; done|done]|done].
  - cbn. rewrite Hx. destruct (IH H) as [H1 H2]. split; [split; [done|done]|done].
Qed.

Lemma owned_idle t h fs :
  Forall (owned t h) fs -> Forall (fun f => quiet_fact f \/ exists h, f = ProjectionCompactionBegun h) fs.
Proof.
  intros H. eapply Forall_impl; [exact H|]. intros f Hf. destruct f; cbn; auto; try done. right. eauto.
Qed.

Lemma name_cases c h' h : app_ok c -> h' ∈ c_app c -> h ∈ c_app c -> h' = h \/ h' <> h.
Proof.
  intros Hok H1 H2. destruct (decide (h_name h' = h_name h)) as [Hn|Hn].
  - left. eapply app_name_inj; eassumption.
  - right. intros ->. done.
Qed.

Lemma clock_store c : app_ok c -> StoreOK c clock_check clock_step id (clock_rel c).
Proof.
  intros Hok.
  assert (Hhandling : forall oo env h t cs cst x fs r,
    clock_rel c (Some oo) cs x -> h ∈ c_app c -> Forall (owned t h) fs ->
    (forall l j, h_impl h = ImplProj j -> cst = CSProj l -> cs !! h_name h = Some (CSProj l)) ->
    moved clock_check clock_step (clock_rel c) oo h cs cst x (handling h env fs r)).
  { intros oo env h t cs cst x fs r [HR Hnow] Happ Hown Hcst. unfold moved, handling. cbn.
    set (x1 := mkClock (ck_now x) None false (ck_last x)).
    destruct (idle_facts x1 fs eq_refl (owned_idle _ _ _ Hown)) as [H1 H2].
    assert (H3 : good clock_check clock_step x1 (fs ++ match r with HRet _ e => [HandlingCompleted (h_id h) env e] | HPan _ => [] end)
      /\ foldl clock_step x1 (fs ++ match r with HRet _ e => [HandlingCompleted (h_id h) env e] | HPan _ => [] end) = x1).
    { rewrite good_app, foldl_app, H2. destruct r; done. }
    destruct H3 as [H3 H4]. rewrite H4. split; [done|]. split; [|done].
    intros h' j' l Hin Hi Hl. cbn. destruct (name_cases c h' h Hok Hin Happ) as [->|Hne].
    - rewrite lookup_insert in Hl. injection Hl as Hl. eapply HR; [done|done|]. eapply Hcst; done.
    - rewrite lookup_insert_ne in Hl; [eapply HR; done|].
      intros Hn. apply Hne. eapply app_name_inj; [exact Hok|done|done|congruence]. }
  constructor.
  - intros oo cs x [H _]. done.
  - intros cs x [H _]. split; [|done]. intros h j l Hin Hi Hl. unfold id. eapply H; [done|done|].
    rewrite lookup_fmap in Hl. destruct (cs !! h_name h) as [[]|]; cbn in Hl; done.
  - intros oo cs x env [H _]. done.
  - intros oo cs x [H _]. done.
  - intros oo cs x f HR Hf. destruct f; done.
  - intros oo h cs x [H Hn] Happ Ht. cbn.
    split; [|done]. split; [done|]. split; [|done]. intros Hp. cbn in Hp; rewrite Hp in Ht; destruct Ht; done.
  - intros oo h pi cs x ps ps' ready [H Hn] Happ Hi Hl _. split.
    + cbn. split; [done|]. split; [|done]. intros Hp. unfold h_type in Hp; rewrite Hi in Hp; done.
    + cbn. split; [|done]. intros h' j' l Hin Hi' Hl'. cbn. destruct (name_cases c h' h Hok Hin Happ) as [->|Hne].
      * rewrite lookup_insert in Hl'. done.
      * rewrite lookup_insert_ne in Hl'; [eapply H; done|].
        intros Hnm. apply Hne. eapply app_name_inj; [exact Hok|done|done|congruence].
  - intros oo h j cs x last g g' last' fs r [H Hn] Happ Hi Hl Hj.
    pose proof (H h j last Happ Hi Hl) as Hlast.
    assert (Hfr : forall h' l, h' ∈ c_app c -> h' <> h -> <[h_name h:=CSProj last']> cs !! h_name h' = Some (CSProj l) ->
              cs !! h_name h' = Some (CSProj l) /\ h_id h' <> h_id h).
    { intros h' l Hin Hne Hl'.
      assert (Hnm : h_name h' <> h_name h) by (intros Hnm; apply Hne; eapply app_name_inj; [exact Hok|done|done|congruence]).
      rewrite lookup_insert_ne in Hl' by congruence. split; [done|]. intros Hid. apply Hnm. unfold h_id in Hid. congruence. }
    unfold j_tick_ctrl in Hj. change compact_interval with hour in Hj.
    destruct (hour <=? oo_now oo - last)%Z eqn:Eh.
    + apply Z.leb_le in Eh.
      destruct (j_run _ _ _ _ _) as [[g2 fs2] r2] eqn:Ep.
      assert (Hq : Forall quiet_fact (map snd fs2)).
      { clear -Ep. revert g g2 fs2 r2 Ep. induction (pj_compact j (oo_now oo)) as [a|v|f k IH|s k IH]; intros g g2 fs2 r2; cbn.
        - intros [= <- <- <-]. constructor.
        - intros [= <- <- <-]. constructor.
        - apply IH.
        - destruct (j_run _ _ _ k g) as [[? ?] ?] eqn:E. intros [= <- <- <-]. cbn. constructor; [done|]. eapply IH; eassumption. }
      set (x1 := mkClock (ck_now x) (Some (h_id h)) true
                  (fun h' => if decide (h' = h_id h) then ck_now x else ck_last x h')).
      destruct (quiet_facts x1 _ Hq) as [Hq1 Hq2].
      assert (Hrel : clock_rel c (Some oo) (<[h_name h:=CSProj last']> cs) x1 -> last' = oo_now oo ->
        moved clock_check clock_step (clock_rel c) oo h cs (CSProj last') x (ticking h fs r)).
      { intros Hr1 _. unfold moved, ticking. destruct r2 as [e|v]; injection Hj as <- <- <- <-; cbn.
        - rewrite decide_True by done. fold x1. rewrite <- app_assoc, good_app, foldl_app, Hq2. cbn.
          split; [|exact Hr1]. split; [done|]. split; [intros _; rewrite Hlast, Hn; exact Eh|]. done.
        - rewrite decide_True by done. fold x1. rewrite app_nil_r, Hq2. split; [|exact Hr1].
          split; [done|]. split; [intros _; rewrite Hlast, Hn; exact Eh|]. done. }
      apply Hrel; [|destruct r2; injection Hj; done].
      split; [|done]. intros h' j' l Hin Hi' Hl'. destruct (name_cases c h' h Hok Hin Happ) as [->|Hne].
      * rewrite lookup_insert in Hl'. injection Hl' as <-. cbn. rewrite decide_True by done.
        rewrite Hn. destruct r2; injection Hj; done.
      * destruct (Hfr _ _ Hin Hne Hl') as [Hl2 Hid]. cbn. rewrite decide_False by done. eapply H; done.
    + apply Z.leb_gt in Eh. injection Hj as <- <- <- <-. unfold moved, ticking. cbn.
      split.
      * split; [done|]. split; [|done]. intros _. split; [done|]. intros _. split; [rewrite Hlast, Hn; exact Eh|done].
      * split; [|done]. intros h' j' l Hin Hi' Hl'. cbn. destruct (name_cases c h' h Hok Hin Happ) as [->|Hne].
        -- rewrite lookup_insert in Hl'. injection Hl' as <-. exact Hlast.
        -- destruct (Hfr _ _ Hin Hne Hl') as [Hl2 _]. eapply H; done.
  - intros o oo env h a cs x hist g g' hist' fs r HR Happ Hi Hl _ Ha.
    eapply Hhandling; [done|done|eapply a_handle_owned; exact Ha|]. intros; done.
  - intros o oo env h pi cs x ps g g' ps' fs r HR Happ Hi Hl _ Ha.
    eapply Hhandling; [done|done|eapply p_handle_owned; exact Ha|]. intros; done.
  - intros o oo env h i cs x g g' fs r HR Happ Hi Hl _ Ha.
    eapply Hhandling; [done|done|eapply i_handle_owned; exact Ha|]. intros; done.
  - intros o oo env h j cs x last g g' fs r HR Happ Hi Hl _ Ha.
    eapply Hhandling; [done|done|eapply j_handle_owned; exact Ha|]. intros l j' _ [= <-]. done.
Qed.

Lemma clock_upd evs x : foldl (upd_ev clock_step id) x evs = foldl clock_step x (all_facts evs).
Proof. revert x; induction evs as [|[f|] evs IH]; intros x; cbn; [done|apply IH|apply IH]. Qed.

Lemma clock_history c u ops st evs fin :
  history c u ops st evs fin ->
  good_evs clock_check clock_step id (clock []) evs.
Proof.
  intros (Hok & Hops & Hrun).
  assert (HI : SI (clock_rel c) (e_init c u) (clock [])).
  { split; [|done]. intros h j l Hin Hi Hl. apply (cs_init_lookup c u h _ Hok Hin) in Hl.
    unfold cs_init in Hl. rewrite Hi in Hl. injection Hl as ->. done. }
  destruct (sim_ops c clock_check clock_step id (SI (clock_rel c)) (SO (clock_rel c)) (SM (clock_rel c)) (ST (clock_rel c))
    Hok (store_sim _ _ _ _ _ (clock_store c Hok)) ops _ (clock []) _ _ _ (e_init_ok c u Hok) HI Hops Hrun) as (_ & Hg & _).
  exact Hg.
Qed.

Lemma clock_checked c u ops st evs fin pre f :
  history c u ops st evs fin -> occurs_after evs pre f -> clock_check (clock pre) f.
Proof.
  intros H (before & after & Hev & ->). apply clock_history in H.
  eapply good_evs_at in H; [|exact Hev]. rewrite clock_upd in H. exact H.
Qed.

Lemma C25_lemma c u ops st evs fin :
  history c u ops st evs fin ->
  (forall pre h, tick_compacts evs pre h -> (hour <= ck_now (clock pre) - ck_last (clock pre) h)%Z) /\
  (forall pre h e, occurs_after evs pre (TickCompleted h e) -> hid_type h = HTProjection ->
     ck_tick (clock pre) = Some h /\
     (ck_did (clock pre) = false -> (ck_now (clock pre) - ck_last (clock pre) h < hour)%Z /\ e = None)).
Proof.
  intros H. split.
  - intros pre h [Ho Ht]. exact (clock_checked _ _ _ _ _ _ _ _ H Ho Ht).
  - intros pre h e Ho Hp. exact (clock_checked _ _ _ _ _ _ _ _ H Ho Hp).
Qed.

Lemma clock_last_mono x h fs :
  good clock_check clock_step x fs -> (ck_last x h <= ck_last (foldl clock_step x fs) h)%Z.
Proof.
  revert x; induction fs as [|f fs IH]; intros x Hg; cbn; [lia|]. destruct Hg as [Hc Hg].
  specialize (IH _ Hg). etransitivity; [|exact IH].
  destruct f; cbn in *; try lia. destruct (decide (ck_tick x = Some h0)) as [Ht|]; [|lia].
  cbn. destruct (decide (h = h0)) as [->|]; [|lia]. specialize (Hc Ht). unfold hour in Hc. lia.
Qed.

Lemma good_evs_all {X} check upd (x : X) evs : good_evs check upd id x evs -> good check upd x (all_facts evs).
Proof.
  revert x; induction evs as [|[f|] evs IH]; intros x; cbn; [done| |].
  - intros [H1 H2]. split; [done|]. apply IH. done.
  - intros [_ H2]. apply IH. done.
Qed.

Lemma C25_apart_lemma c u ops st evs fin pre mid h :
  history c u ops st evs fin ->
  tick_compacts evs pre h -> tick_compacts evs (pre ++ ProjectionCompactionBegun h :: mid) h ->
  (hour <= ck_now (clock (pre ++ ProjectionCompactionBegun h :: mid)) - ck_now (clock pre))%Z.
Proof.
  intros H [_ Ht1] [Ho2 Ht2].
  pose proof (clock_checked _ _ _ _ _ _ _ _ H Ho2 Ht2) as H2. cbn in H2.
  destruct Ho2 as (before & after & Hev & Hpre). apply clock_history in H. rewrite Hev in H.
  apply good_evs_app in H as [H _]. apply good_evs_all in H. rewrite <- Hpre in H.
  apply good_app in H as [_ [_ H]]. apply clock_last_mono with (h := h) in H.
  unfold clock in *. rewrite foldl_app in *. cbn [foldl] in *.
  set (x := foldl clock_step {| ck_now := 0; ck_tick := None; ck_did := false; ck_last := fun _ => 0%Z |} pre) in *.
  set (y := foldl clock_step (clock_step x (ProjectionCompactionBegun h)) mid) in *.
  change (foldl clock_step (foldl clock_step _ []) pre) with x in H. fold y in H.
  cbn in H. rewrite decide_True in H by done. cbn in H. rewrite decide_True in H by done. lia.
Qed.
End ProjLemmas.
