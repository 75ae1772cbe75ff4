(** * Histories of engines whose observers may panic *)
From Verif Require Export ObsHoare.

Section ObsOps.
Context {P : Params}.

(** ** The mutex *)
Definition frees {A} (m : M (EState * bool) A) : Prop := forall st b, (m (st, b)).1.1.2 = b.

Lemma frees_ret {A} (a : A) : frees (ret a).
Proof. done. Qed.
Lemma frees_raise {A} w : frees (@raise P _ A w).
Proof. done. Qed.
Lemma frees_fst {A} (m : M EState A) : frees (fst_do m).
Proof. intros st b. unfold fst_do. destruct (m st) as [[s t] r]. done. Qed.
Lemma frees_bnd {A B} (m : M _ A) (k : A -> M _ B) : frees m -> (forall a, frees (k a)) -> frees (bnd m k).
Proof.
  intros Hm Hk st b. unfold bnd. specialize (Hm st b). destruct (m (st, b)) as [[[s1 b1] t] [a|w]]; [|done].
  cbn in Hm. subst b1. specialize (Hk a s1 b). destruct (k a (s1, b)) as [[[s2 b2] t2] r]. done.
Qed.

(** An operation on an engine whose mutex is free. *)
Definition releases (r : (EState * bool) * list XEv * (XRes + PVal)) : Prop :=
  r.2 <> inl RBlocked /\ (r.1.1.2 = true <-> r.2 = inl RRunning).

Lemma locked_part (x : XApp) o obs f (m : M EState (option Errs)) (c : Errs -> Fact) st t0 :
  let '(s, t, r) := bnd (fst_do (on_g (note obs f))) (fun _ => bnd (acquire o) (fun le =>
    match le with
    | None => ret RBlocked
    | Some (Some e) => bnd (fst_do (on_g (note obs (c [e])))) (fun _ => ret (RDone [e]))
    | Some None =>
      unlocking (bnd (fst_do m) (fun r => match r with
        | None => ret RRunning
        | Some err => bnd (fst_do (on_g (note obs (c err)))) (fun _ => ret (RDone err))
        end))
    end)) (st, false) in
  releases (s, t0 t, r).
Proof.
  unfold releases. unfold bnd at 1. unfold fst_do at 1. destruct (on_g _ st) as [[st1 t1] [[]|w]]; [|cbn; split; [done|]; split; done].
  unfold bnd at 1. unfold acquire. destruct (lock o (es_g st1)) as [g2 [e|]].
  - unfold bnd, fst_do. destruct (on_g _ _) as [[st3 t3] [[]|w]]; cbn; (split; [done|]); split; done.
  - unfold unlocking, bnd. unfold fst_do at 1. destruct (m _) as [[st3 t3] [[err|]|w]].
    + unfold fst_do. destruct (on_g _ st3) as [[st4 t4] [[]|w]]; cbn; (split; [done|]); split; done.
    + cbn. split; [done|]. split; done.
    + cbn. split; [done|]. split; done.
Qed.

Lemma xrun_op_releases x op st : releases (xrun_op x op (st, false)).
Proof.
  destruct op as [o fuel m opts|o fuel order opts| |f]; cbn [xrun_op].
  - unfold xe_dispatch. unfold bnd at 1. unfold fst_do at 1.
    destruct (on_g (mint o) st) as [[st1 t1] [id|w]]; [|cbn; split; [done|split; done]].
    destruct (new_opts _ _ _) as [oo|v]; [|cbn; split; [done|split; done]].
    pose proof (fun hs => locked_part x o (observers x oo)
      (DispatchCycleBegun (new_root id m (oo_now oo)) (oo_now oo) (oo_types oo) (oo_handlers oo))
      (xe_loop x (observers x oo) o oo fuel [new_root id m (oo_now oo)] [])
      (fun err => DispatchCycleCompleted (new_root id m (oo_now oo)) err (oo_types oo) (oo_handlers oo)) st1 hs) as H.
    destruct (m_kind m); [| |cbn; split; [done|split; done]];
      (destruct (m_invalid m); [cbn; split; [done|split; done]|];
       destruct (routes _ !! _); [|cbn; split; [done|split; done]];
       specialize (H (fun t => XSeen <$> t1 ++ t));
       destruct (bnd _ _ (st1, false)) as [[s t] r]; exact H).
  - unfold xe_tick. destruct (new_opts _ _ _) as [oo|v]; [|cbn; split; [done|split; done]].
    pose proof (locked_part x o (observers x oo)
      (TickCycleBegun (oo_now oo) (oo_types oo) (oo_handlers oo))
      (xe_tick_body x (observers x oo) o oo fuel order)
      (fun err => TickCycleCompleted err (oo_types oo) (oo_handlers oo)) st (fun t => XSeen <$> t)) as H.
    cbv zeta. destruct (bnd _ _ (st, false)) as [[s t] r]; exact H.
  - unfold xe_reset. destruct (run_resets _ _) as [u [w|]]; cbn; (split; [done|split; done]).
  - cbn. split; [done|split; done].
Qed.

Lemma xrun_ops_mutex x ops : forall st s evs rs,
  xrun_ops x ops (st, false) = (s, evs, rs) ->
  inl RBlocked ∉ rs /\ (s.2 = true <-> inl RRunning ∈ rs).
Proof.
  induction ops as [|op ops IH]; intros st s evs rs; cbn [xrun_ops].
  - intros [= <- <- <-]. split; [set_solver|]. cbn. split; [done|set_solver].
  - destruct (xrun_op x op (st, false)) as [[[st1 b1] evs1] r1] eqn:E.
    pose proof (xrun_op_releases x op st) as [H1 H2]. rewrite E in H1, H2. cbn in H1, H2.
    assert (Hgo : r1 <> inl RRunning -> forall s evs rs,
      (let '(s, evs', rs) := xrun_ops x ops (st1, b1) in (s, evs1 ++ evs', r1 :: rs)) = (s, evs, rs) ->
      inl RBlocked ∉ rs /\ (s.2 = true <-> inl RRunning ∈ rs)).
    { intros Hr s' evs' rs'. assert (b1 = false) as -> by (destruct b1; tauto).
      destruct (xrun_ops x ops (st1, false)) as [[s2 evs2] rs2] eqn:E2. intros [= <- <- <-].
      destruct (IH _ _ _ _ E2) as [H3 H4]. split; [set_solver|]. rewrite H4. set_solver. }
    destruct r1 as [[err| |]|w]; [apply Hgo; done| |done|apply Hgo; done].
    intros [= <- <- <-]. split; [set_solver|]. cbn. split; [set_solver|]. intros _. apply H2. done.
Qed.

(** ** Invariants of histories *)
Definition checked (chk : list Seen -> Seen -> Prop) (v : list Seen) : Prop :=
  forall pre s post, v = pre ++ s :: post -> chk pre s.

Lemma checked_snoc chk v s : checked chk v -> chk v s -> checked chk (v ++ [s]).
Proof.
  intros Hv Hs pre s' post E. destruct post as [|s1 post _] using rev_ind.
  - apply app_inj_tail in E as [<- <-]. done.
  - rewrite app_comm_cons, app_assoc in E. apply app_inj_tail in E as [-> <-]. eapply Hv. done.
Qed.
Lemma checked_nil chk : checked chk [].
Proof. intros pre s post E. destruct pre; done. Qed.
Lemma checked_app chk v t : checked chk v -> (forall pre s, s ∈ t -> chk pre s) -> checked chk (v ++ t).
Proof.
  intros Hv Ht. induction t as [|s t IH] using rev_ind; [rewrite app_nil_r; done|].
  rewrite app_assoc. apply checked_snoc.
  - apply IH. intros pre s' Hs. apply Ht. set_solver.
  - apply Ht. set_solver.
Qed.

(** What has been seen; Reset changes it by [rho]. *)
Definition rho_step (rho : list Seen -> list Seen) (l : list Seen) (ev : XEv) : list Seen :=
  match ev with XSeen s => l ++ [s] | XReset => rho l end.

Record XInvR (rho : list Seen -> list Seen) (x : XApp) (chk : list Seen -> Seen -> Prop) (J0 : list Seen -> EState -> Prop)
    (J : OOs -> list Seen -> EState -> Prop) : Prop := {
  xv_checked : forall v st, J0 v st -> checked chk v;
  xv_end : forall oo v st, J oo v st -> J0 v st;
  xv_g0 : forall v g g' cs, (g_next g <= g_next g')%N -> J0 v (mkE g cs) -> J0 v (mkE g' cs);
  xv_g : forall oo v g g' cs, (g_next g <= g_next g')%N -> J oo v (mkE g cs) -> J oo v (mkE g' cs);
  xv_engine : forall oo v st sn, J oo v st ->
    match sn_fact sn with
    | DispatchBegun _ | DispatchCompleted _ _ | DispatchCycleCompleted _ _ _ _ | TickCycleCompleted _ _ _ => True
    | _ => False
    end -> J oo (v ++ [sn]) st;
  xv_dispatch : forall oo v st o g' env sn, J0 v st ->
    g_next g' = g_next (next_id o (es_g st)).1 -> e_id env = (next_id o (es_g st)).2 ->
    sn_fact sn = DispatchCycleBegun env (oo_now oo) (oo_types oo) (oo_handlers oo) ->
    J oo (v ++ [sn]) (mkE g' (es_cs st));
  xv_tick : forall oo v st sn, J0 v st ->
    sn_fact sn = TickCycleBegun (oo_now oo) (oo_types oo) (oo_handlers oo) -> J oo (v ++ [sn]) st;
  xv_handle : forall obs o oo env h, sort_ok o -> h ∈ c_app (x_cfg x) ->
    trip (J oo) (xe_handle x obs o oo env (Some h)) (fun v st _ => J oo v st);
  xv_ticks : forall obs o oo h, sort_ok o -> h ∈ c_app (x_cfg x) ->
    trip (J oo) (xe_tick_one x obs o oo h) (fun v st _ => J oo v st);
  xv_reset : forall v st, J0 v st -> J0 (rho v) (e_reset (x_cfg x) st)
}.
Notation XInv := (XInvR (fun _ => [])).

Section Inv.
Context (rho : list Seen -> list Seen) (x : XApp) (chk : list Seen -> Seen -> Prop) (J0 : list Seen -> EState -> Prop)
  (J : OOs -> list Seen -> EState -> Prop) (K : XInvR rho x chk J0 J).

Lemma inv_note obs f oo :
  match f with
  | DispatchBegun _ | DispatchCompleted _ _ | DispatchCycleCompleted _ _ _ _ | TickCycleCompleted _ _ _ => True
  | _ => False
  end ->
  trip (J oo) (on_g (note obs f)) (fun v st _ => J oo v st).
Proof.
  intros Hf. apply trip_on_g. intros cs. apply trip_note. intros v g sn g' r HJ (Hs & Hg & _ & _).
  apply (xv_g _ _ _ _ _ K _ _ g); [lia|]. apply (xv_engine _ _ _ _ _ K); [done|]. rewrite Hs. exact Hf.
Qed.

Lemma inv_handle obs o oo env oh :
  sort_ok o -> (forall h, oh = Some h -> h ∈ c_app (x_cfg x)) ->
  trip (J oo) (xe_handle x obs o oo env oh) (fun v st _ => J oo v st).
Proof.
  intros Hs Hin. destruct oh as [h|]; [apply (xv_handle _ _ _ _ _ K); auto|]. cbn. apply trip_raise. done.
Qed.

Lemma inv_handlers obs o oo env hs :
  sort_ok o -> (forall h, Some h ∈ hs -> h ∈ c_app (x_cfg x)) ->
  trip (J oo) (xe_handlers x obs o oo env hs) (fun v st _ => J oo v st).
Proof.
  intros Hs. induction hs as [|oh hs IH]; intros Hin; cbn [xe_handlers]; [apply trip_ret; done|].
  eapply trip_bnd; [apply inv_handle; [done|]|intros [envs e]|done].
  { intros h ->. apply Hin. left. }
  eapply trip_bnd; [apply IH|intros [envs' errs']; apply trip_ret; done|done].
  intros h Hh. apply Hin. right. done.
Qed.

Lemma inv_message obs o oo env :
  sort_ok o -> trip (J oo) (xe_message x obs o oo env) (fun v st _ => J oo v st).
Proof.
  intros Hs. unfold xe_message. destruct (targets (x_cfg x) env) as [hs|] eqn:E; [|apply trip_raise; done].
  eapply trip_bnd; [apply inv_note; done|intros ?|done].
  eapply trip_bnd; [apply inv_handlers; [done|]|intros [envs derr]|done].
  { intros h Hh. eapply targets_in; eassumption. }
  eapply trip_bnd; [apply inv_note; done|intros ?; apply trip_ret; done|done].
Qed.

Lemma inv_poll o oo : trip (J oo) (xpoll o) (fun v st _ => J oo v st).
Proof.
  unfold xpoll. apply trip_on_g. intros cs v g HJ. unfold poll_ctx. rewrite app_nil_r.
  apply (xv_g _ _ _ _ _ K _ _ g); [cbn; lia|done].
Qed.

Lemma inv_loop obs o oo fuel : sort_ok o -> forall q err,
  trip (J oo) (xe_loop x obs o oo fuel q err) (fun v st _ => J oo v st).
Proof.
  intros Hs. induction fuel as [|fuel IH]; intros [|env q] err; cbn [xe_loop]; try (apply trip_ret; done).
  eapply trip_bnd; [apply inv_message; done|intros [envs derr]|done].
  eapply trip_bnd; [apply inv_poll|intros [e|]|done]; [apply trip_ret; done|]. apply IH.
Qed.

Lemma inv_tick_handlers obs o oo hs :
  sort_ok o -> (forall h, h ∈ hs -> h ∈ c_app (x_cfg x)) ->
  trip (J oo) (xe_tick_handlers x obs o oo hs) (fun v st _ => J oo v st).
Proof.
  intros Hs. induction hs as [|h hs IH]; intros Hin; cbn [xe_tick_handlers]; [apply trip_ret; done|].
  eapply trip_bnd; [apply (xv_ticks _ _ _ _ _ K); [done|apply Hin; left]|intros [[envs e] ce]|done].
  destruct ce; [apply trip_ret; done|].
  eapply trip_bnd; [apply IH|intros res; apply trip_ret; done|done].
  intros h' Hh. apply Hin. right. done.
Qed.

Lemma inv_tick_body obs o oo fuel order :
  sort_ok o -> (forall h, h ∈ order -> h ∈ c_app (x_cfg x)) ->
  trip (J oo) (xe_tick_body x obs o oo fuel order) (fun v st _ => J oo v st).
Proof.
  intros Hs Hin. unfold xe_tick_body.
  eapply trip_bnd; [apply inv_tick_handlers; done|intros [[q errs]|e]|done]; [|apply trip_ret; done].
  eapply trip_bnd; [apply inv_loop; done|intros r; apply trip_ret; done|done].
Qed.

Definition lift0 (I : list Seen -> EState -> Prop) (v : list Seen) (s : EState * bool) : Prop := I v s.1.

Lemma trip_fst_st {A} I (m : M EState A) (Q : list Seen -> EState -> Prop) :
  trip I m (fun v st _ => Q v st) -> trip (lift0 I) (fst_do m) (fun v s _ => lift0 Q v s).
Proof. intros H. apply trip_fst. intros b. exact H. Qed.

Lemma inv_body obs o oo (m : M EState (option Errs)) (c : Errs -> Fact) :
  trip (J oo) m (fun v st _ => J oo v st) ->
  (forall err, match c err with DispatchCycleCompleted _ _ _ _ | TickCycleCompleted _ _ _ => True | _ => False end) ->
  trip (lift0 (J oo)) (bnd (acquire o) (fun le =>
    match le with
    | None => ret RBlocked
    | Some (Some e) => bnd (fst_do (on_g (note obs (c [e])))) (fun _ => ret (RDone [e]))
    | Some None =>
      unlocking (bnd (fst_do m) (fun r => match r with
        | None => ret RRunning
        | Some err => bnd (fst_do (on_g (note obs (c err)))) (fun _ => ret (RDone err))
        end))
    end)) (fun v s _ => lift0 J0 v s).
Proof.
  intros Hm Hc.
  assert (Hend : forall v s, lift0 (J oo) v s -> lift0 J0 v s) by (intros v s; apply (xv_end _ _ _ _ _ K)).
  assert (Hn : forall err, trip (lift0 (J oo)) (fst_do (on_g (note obs (c err)))) (fun v s _ => lift0 (J oo) v s)).
  { intros err. apply trip_fst_st, inv_note. specialize (Hc err). destruct (c err); done. }
  eapply (trip_bnd _ (fun v s _ => lift0 (J oo) v s)).
  - intros v [[g cs] b] HJ. unfold acquire. cbn [es_g]. destruct (lock o g) as [g2 e] eqn:E.
    assert (J oo v (mkE g2 cs)).
    { apply (xv_g _ _ _ _ _ K _ _ g); [|done]. unfold lock in E. unfold poll_ctx in E. injection E as <- _. cbn. lia. }
    destruct e, b; rewrite app_nil_r; done.
  - intros [[e|]|]; [| |apply trip_ret; auto].
    + eapply trip_bnd; [apply Hn|intros ?; apply trip_ret; auto|auto].
    + assert (H : trip (lift0 (J oo)) (bnd (fst_do m) (fun r => match r with
        | None => ret RRunning
        | Some err => bnd (fst_do (on_g (note obs (c err)))) (fun _ => ret (RDone err))
        end)) (fun v s _ => lift0 J0 v s)).
      { eapply trip_bnd; [apply trip_fst_st; exact Hm|intros [err|]|auto]; [|apply trip_ret; auto].
        eapply trip_bnd; [apply Hn|intros ?; apply trip_ret; auto|auto]. }
      intros v s Hs. specialize (H v s Hs). unfold unlocking. destruct (bnd _ _ s) as [[[st b] t] r]. exact H.
  - auto.
Qed.

Lemma inv_op op st b v :
  op_ok (x_cfg x) op -> J0 v st ->
  let '(s, evs, r) := xrun_op x op (st, b) in
  J0 (foldl (rho_step rho) v evs) s.1 /\
  (forall before sn after, evs = before ++ XSeen sn :: after -> chk (foldl (rho_step rho) v before) sn).
Proof.
  intros Hop HJ.
  assert (Hfold : forall t w, foldl (rho_step rho) w (XSeen <$> t) = w ++ t).
  { induction t as [|s t IH]; intros w; cbn; [rewrite app_nil_r; done|]. rewrite IH, <- app_assoc. done. }
  assert (Hseen : forall t s1, J0 (v ++ t) s1 -> J0 (foldl (rho_step rho) v (XSeen <$> t)) s1 /\
    (forall before sn after, XSeen <$> t = before ++ XSeen sn :: after -> chk (foldl (rho_step rho) v before) sn)).
  { intros t s1 H. rewrite Hfold. split; [done|]. intros before sn after E.
    apply fmap_app_inv in E as (t1 & t2 & E1 & E2 & E). subst before t.
    destruct t2 as [|s2 t2]; [done|]. injection E2 as -> _.
    rewrite Hfold. apply (xv_checked _ _ _ _ _ K) in H. eapply H. rewrite <- app_assoc. done. }
  destruct op as [o fuel m opts|o fuel order opts| |f]; cbn [xrun_op].
  - assert (H : trip (lift0 J0) (xe_dispatch x o fuel m opts) (fun v s _ => lift0 J0 v s)).
    { clear v st b HJ Hseen. unfold xe_dispatch.
      intros v [st b] HJ. unfold bnd at 1. unfold fst_do at 1, on_g, mint.
      destruct (next_id o (es_g st)) as [g id] eqn:En. cbn [app].
      assert (Hg : J0 v (mkE g (es_cs st))).
      { apply (xv_g0 _ _ _ _ _ K _ (es_g st)); [|destruct st; done]. unfold next_id in En. injection En as <- _. cbn. lia. }
      destruct (new_opts _ _ _) as [oo|w]; [|cbn; rewrite app_nil_r; exact Hg].
      destruct (m_kind m); [| |cbn; rewrite app_nil_r; exact Hg];
      (destruct (m_invalid m); [cbn; rewrite app_nil_r; exact Hg|];
       destruct (routes _ !! _); [|cbn; rewrite app_nil_r; exact Hg];
       unfold bnd at 1; unfold fst_do at 1; cbn [es_g es_set_g];
       pose proof (note_noted (observers x oo)
         (DispatchCycleBegun (new_root id m (oo_now oo)) (oo_now oo) (oo_types oo) (oo_handlers oo)) g) as Hn;
       destruct (note _ _ g) as [[g1 t1] r1]; destruct Hn as (sn & -> & Hf & Hnx & _ & Hr);
       assert (HJ1 : J oo (v ++ [sn]) (mkE g1 (es_cs st)))
         by (eapply (xv_dispatch _ _ _ _ _ K _ _ st o _ (new_root id m (oo_now oo))); [exact HJ|rewrite En; exact Hnx|rewrite En; reflexivity|exact Hf]);
       destruct r1 as [[]|w]; [|cbn; apply (xv_end _ _ _ _ _ K _ _ _ HJ1)];
       pose proof (inv_body (observers x oo) o oo (xe_loop x (observers x oo) o oo fuel [new_root id m (oo_now oo)] [])
         (fun err => DispatchCycleCompleted (new_root id m (oo_now oo)) err (oo_types oo) (oo_handlers oo))
         (inv_loop _ _ _ _ Hop _ _) (fun _ => I) (v ++ [sn]) (mkE g1 (es_cs st), b) HJ1) as H;
       destruct (bnd _ _ _) as [[s t] r]; rewrite <- app_assoc in H; exact H). }
    specialize (H v (st, b) HJ). destruct (xe_dispatch _ _ _ _ _ _) as [[s t] r]. apply Hseen. exact H.
  - destruct Hop as [Hs Hord].
    assert (H : trip (lift0 J0) (xe_tick x o fuel order opts) (fun v s _ => lift0 J0 v s)).
    { clear v st b HJ Hseen. unfold xe_tick.
      intros v [st b] HJ. destruct (new_opts _ _ _) as [oo|w]; [|cbn; rewrite app_nil_r; exact HJ].
      cbv zeta. unfold bnd at 1; unfold fst_do at 1, on_g at 1.
       pose proof (note_noted (observers x oo)
         (TickCycleBegun (oo_now oo) (oo_types oo) (oo_handlers oo)) (es_g st)) as Hn;
       destruct (note _ _ (es_g st)) as [[g1 t1] r1]; destruct Hn as (sn & -> & Hf & Hnx & _ & Hr);
       assert (HJ1 : J oo (v ++ [sn]) (mkE g1 (es_cs st))).
       { apply (xv_g _ _ _ _ _ K _ _ (es_g st)); [lia|]. eapply (xv_tick _ _ _ _ _ K); [|exact Hf]. destruct st; done. }
       destruct r1 as [[]|w]; [|cbn; apply (xv_end _ _ _ _ _ K _ _ _ HJ1)];
       pose proof (inv_body (observers x oo) o oo (xe_tick_body x (observers x oo) o oo fuel order)
         (fun err => TickCycleCompleted err (oo_types oo) (oo_handlers oo))
         (inv_tick_body _ _ _ _ _ Hs (fun h Hh => proj1 (elem_of_Permutation_proper h _ _ Hord) Hh)) (fun _ => I)
         (v ++ [sn]) (mkE g1 (es_cs st), b) HJ1) as H;
       destruct (bnd _ _ _) as [[s t] r]; rewrite <- app_assoc in H; exact H. }
    specialize (H v (st, b) HJ). destruct (xe_tick _ _ _ _ _ _) as [[s t] r]. apply Hseen. exact H.
  - unfold xe_reset. destruct b; cbn.
    + split; [done|]. intros before sn after E. destruct before; done.
    + destruct (run_resets (x_resets x) (g_user (es_g st))) as [u w].
      assert (HJ' : J0 (rho v) (mkE (mkG 0 u (g_step (es_g st))) (cs_reset <$> es_cs st))).
      { apply (xv_g0 _ _ _ _ _ K _ (es_g (e_reset (x_cfg x) st))); [cbn; lia|].
        exact (xv_reset _ _ _ _ _ K v st HJ). }
      destruct w; (split; [exact HJ'|]; intros before sn after E; destruct before as [|? []]; done).
  - cbn. split; [|intros before sn after E; destruct before; done].
    apply (xv_g0 _ _ _ _ _ K _ (es_g st)); [cbn; lia|]. destruct st; done.
Qed.

Lemma inv_ops ops : forall st b v s evs rs,
  Forall (op_ok (x_cfg x)) ops -> J0 v st -> xrun_ops x ops (st, b) = (s, evs, rs) ->
  J0 (foldl (rho_step rho) v evs) s.1 /\
  (forall before sn after, evs = before ++ XSeen sn :: after -> chk (foldl (rho_step rho) v before) sn).
Proof.
  induction ops as [|op ops IH]; intros st b v s evs rs Hops HJ; cbn [xrun_ops].
  - intros [= <- <- <-]. split; [done|]. intros before sn after E. destruct before; done.
  - apply Forall_cons in Hops as [Hop Hops]. pose proof (inv_op op st b v Hop HJ) as H1.
    destruct (xrun_op x op (st, b)) as [[[st1 b1] evs1] r1]. destruct H1 as [H1 H2].
    assert (Hgo : forall s evs rs,
      (let '(s, evs', rs) := xrun_ops x ops (st1, b1) in (s, evs1 ++ evs', r1 :: rs)) = (s, evs, rs) ->
      J0 (foldl (rho_step rho) v evs) s.1 /\
      (forall before sn after, evs = before ++ XSeen sn :: after -> chk (foldl (rho_step rho) v before) sn)).
    { clear s evs rs. intros s evs rs. destruct (xrun_ops x ops (st1, b1)) as [[s2 evs2] rs2] eqn:E2. intros [= <- <- <-].
      destruct (IH _ _ _ _ _ _ Hops H1 E2) as [H3 H4]. rewrite foldl_app. split; [done|].
      intros before sn after E. apply app_eq_inv in E as [(k & E1 & E3)|(k & E1 & E3)].
      - destruct k as [|k0 k].
        + rewrite app_nil_r in E1. subst before. apply (H4 [] sn after). done.
        + injection E3 as <- ->. eapply H2. exact E1.
      - subst before. rewrite foldl_app. eapply H4. exact E3. }
    destruct r1 as [[err| |]|w]; try (apply Hgo); intros [= <- <- <-]; done.
Qed.

Lemma inv_all u ops s evs rs :
  xhistory x u ops s evs rs -> J0 [] (e_init (x_cfg x) u) ->
  J0 (foldl (rho_step rho) [] evs) s.1 /\
  (forall before sn after, evs = before ++ XSeen sn :: after -> chk (foldl (rho_step rho) [] before) sn).
Proof. intros (_ & Hops & Hrun) H0. exact (inv_ops _ _ _ _ _ _ _ Hops H0 Hrun). Qed.
End Inv.

Lemma inv_history x chk J0 J (K : XInv x chk J0 J) u ops s evs rs :
  xhistory x u ops s evs rs -> J0 [] (e_init (x_cfg x) u) ->
  J0 (seen_since evs) s.1 /\ (forall pre sn, happens evs pre sn -> chk pre sn).
Proof.
  intros H H0. destruct (inv_all _ _ _ _ _ K _ _ _ _ _ H H0) as [H1 H2].
  split; [done|]. intros pre sn (before & after & E & ->). eapply H2. exact E.
Qed.

(** ** Quiet observers over histories *)

Lemma xrun_ops_plain c xo (Hok : app_ok c) (Hq : forall n, quiet (xo n)) ops : forall st,
  Forall (op_ok c) ops ->
  let '(st', evs, fin) := run_ops c ops st in
  let '(s, evs', rs) := xrun_ops (plain c xo) ops (st, false) in
  s = (st', negb fin) /\ xfact <$> evs' = evs /\ (forall sn, XSeen sn ∈ evs' -> sn_panic sn = None).
Proof.
  induction ops as [|op ops IH]; intros st Hops; cbn [run_ops xrun_ops].
  - split; [done|]. split; [done|]. set_solver.
  - apply Forall_cons in Hops as [Hop Hops]. pose proof (xrun_op_plain c xo Hok Hq op st Hop) as H1.
    destruct (run_op c op st) as [[st1 evs1] r1]. rewrite H1. clear H1.
    assert (Hf : xfact <$> (xev (op_observers op) <$> evs1) = evs1).
    { rewrite <- list_fmap_compose. clear. induction evs1 as [|[f|] l IHl]; cbn; [done|..]; f_equal; exact IHl. }
    assert (Hn : forall sn, XSeen sn ∈ (xev (op_observers op) <$> evs1) -> sn_panic sn = None).
    { intros sn Hs. apply elem_of_list_fmap in Hs as ([f|] & E & _); [|done]. injection E as ->. done. }
    destruct r1 as [err|w|]; cbn [outx].
    + specialize (IH st1 Hops). destruct (run_ops c ops st1) as [[st2 evs2] fin2].
      destruct (xrun_ops _ _ _) as [[s2 evs2'] rs2]. destruct IH as (-> & <- & H3).
      split; [done|]. split; [rewrite fmap_app, Hf; done|]. intros sn Hs. apply elem_of_app in Hs as [Hs|Hs]; auto.
    + specialize (IH st1 Hops). destruct (run_ops c ops st1) as [[st2 evs2] fin2].
      destruct (xrun_ops _ _ _) as [[s2 evs2'] rs2]. destruct IH as (-> & <- & H3).
      split; [done|]. split; [rewrite fmap_app, Hf; done|]. intros sn Hs. apply elem_of_app in Hs as [Hs|Hs]; auto.
    + done.
Qed.
End ObsOps.
Notation XInv := (XInvR (fun _ => [])).
