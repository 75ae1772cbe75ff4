(** * Aggregate instances under observers that may panic *)
From Verif Require Export ObsOps.
From Verif Require Import AggProof HistSim.

Section ObsAgg.
Context {P : Params}.

(** ** The facts that count *)
Definition counts (sn : Seen) : bool :=
  match sn_panic sn with Some _ => negb (announces (sn_fact sn)) | None => true end.

Lemma effective_app v w : effective (v ++ w) = effective v ++ effective w.
Proof. unfold effective. apply omap_app. Qed.
Lemma effective_one sn : effective [sn] = if counts sn then [sn_fact sn] else [].
Proof. unfold effective, counts. cbn. destruct (sn_panic sn); [|done]. destruct (announces _); done. Qed.
Lemma effective_snoc v sn : effective (v ++ [sn]) = if counts sn then effective v ++ [sn_fact sn] else effective v.
Proof. rewrite effective_app, effective_one. destruct (counts sn); [done|apply app_nil_r]. Qed.
Lemma effective_snoc_true v sn f : sn_fact sn = f -> announces f = false -> effective (v ++ [sn]) = effective v ++ [f].
Proof. intros <- H. rewrite effective_snoc. unfold counts. rewrite H. destruct (sn_panic sn); done. Qed.
Lemma effective_snoc_ok v sn f : sn_fact sn = f -> sn_panic sn = None -> effective (v ++ [sn]) = effective v ++ [f].
Proof. intros <- H. rewrite effective_snoc. unfold counts. rewrite H. done. Qed.
Lemma effective_snoc_failed v sn f w :
  sn_fact sn = f -> announces f = true -> sn_panic sn = Some w -> effective (v ++ [sn]) = effective v.
Proof. intros <- Ha H. rewrite effective_snoc. unfold counts. rewrite H, Ha. done. Qed.

Lemma effective_Forall (Q : Fact -> Prop) t : Forall (fun sn => Q (sn_fact sn)) t -> Forall Q (effective t).
Proof.
  induction 1 as [|sn t H _ IH]; [constructor|]. change (sn :: t) with ([sn] ++ t).
  rewrite effective_app, effective_one. destruct (counts sn); [|exact IH]. cbn. constructor; done.
Qed.

Context (x : XApp) (Hok : app_ok (x_cfg x)).
Notation c := (x_cfg x).

Definition agg_chk (pre : list Seen) (sn : Seen) : Prop :=
  (forall h i r e, sn_fact sn = AggregateInstanceLoaded h i r e ->
     exists a r0 evs, aggregate_of c h a /\ ag_new a = Some r0 /\ ag_route a (e_msg e) = inl i /\
       stored (effective pre) h i = Some evs /\ Replay a r0 evs r) /\
  (forall h i e, sn_fact sn = AggregateInstanceNotFound h i e ->
     exists a, aggregate_of c h a /\ ag_route a (e_msg e) = inl i /\ stored (effective pre) h i = None).

Definition no_fetch (f : Fact) : Prop :=
  match f with AggregateInstanceLoaded _ _ _ _ | AggregateInstanceNotFound _ _ _ => False | _ => True end.
Lemma agg_chk_other pre sn : no_fetch (sn_fact sn) -> agg_chk pre sn.
Proof. intros H. split; intros *; intros E; rewrite E in H; done. Qed.
Lemma agg_chk_snoc v sn f : checked agg_chk v -> sn_fact sn = f -> no_fetch f -> checked agg_chk (v ++ [sn]).
Proof. intros H <- Hf. apply checked_snoc; [done|]. apply agg_chk_other. done. Qed.

Definition keeps (st : EState) (s : HId -> string -> option (list Env)) : Prop :=
  forall hd hist, hd ∈ c_app c -> es_cs st !! h_name hd = Some (CSAgg hist) -> forall i, hist !! i = s (h_id hd) i.

Definition AJ (v : list Seen) (st : EState) : Prop := checked agg_chk v /\ keeps st (stored (effective v)).

(** ** The scope *)
Section Scope.
Context (obs : list Observer) (o : Oracle) (h : Handler) (a : AggImpl) (now : Z) (cmd : Env) (id : string).
Context (st0 : HId -> string -> option (list Env)) (base : list Env).

Definition AM (v : list Seen) (s : AScope) : Prop :=
  checked agg_chk v /\ stored (effective v) = st0 /\
  exists p, pending_cmd (effective v) = Some p /\ ap_h p = h_id h /\ ap_i p = id /\
    ap_events p = base ++ as_events s /\ ap_exists p = as_exists s.

Lemma AM_same v s s' : as_events s' = as_events s -> as_exists s' = as_exists s -> AM v s -> AM v s'.
Proof. intros H1 H2 H. unfold AM. rewrite H1, H2. exact H. Qed.

Lemma pending_snoc' y f p : pending_cmd y = Some p -> pending_cmd (y ++ [f]) = av_pend (agg_step (agg_view y) f).
Proof. apply pending_snoc. Qed.

Definition am_post (v : list Seen) (r : (GState * AScope) * list Seen * (unit + PVal)) : Prop :=
  let '(g', s', t, _) := r in AM (v ++ t) s'.

Lemma AM_destroyed v s sn r :
  AM v s -> sn_fact sn = AggregateInstanceDestroyed (h_id h) id r cmd ->
  AM (v ++ [sn]) (mkAScope (as_hroot s) (Some r) false true (as_events s)).
Proof.
  intros (H0 & H1 & p & H2 & H3 & H4 & H5 & H6) Hs. unfold AM.
  rewrite (effective_snoc_true _ _ _ Hs) by done.
  split; [eapply agg_chk_snoc; eauto; done|]. split; [rewrite stored_snoc; done|].
  rewrite (pending_snoc _ _ _ H2). unfold pending_cmd in H2. cbn -[agg_view]. rewrite H2. cbn. rewrite decide_True by done.
  eexists. split; [reflexivity|]. cbn. done.
Qed.

Lemma AM_revived v s sn f d :
  AM v s -> sn_fact sn = f -> sn_panic sn = None ->
  (f = AggregateInstanceDestructionReverted (h_id h) id (as_root s) cmd \/
   f = AggregateInstanceCreated (h_id h) id (as_root s) cmd) ->
  AM (v ++ [sn]) (mkAScope (as_hroot s) (as_own s) true d (as_events s)).
Proof.
  intros (H0 & H1 & p & H2 & H3 & H4 & H5 & H6) Hs Hn Hf. unfold AM.
  rewrite (effective_snoc_ok _ _ _ Hs) by done.
  split; [eapply agg_chk_snoc; [done|exact Hs|]; destruct Hf as [-> | ->]; done|].
  split; [rewrite stored_snoc; [done|]; destruct Hf as [-> | ->]; done|].
  rewrite (pending_snoc _ _ _ H2). unfold pending_cmd in H2.
  exists (mkAPend (h_id h) id (ap_events p) true (ap_since p)).
  split; [destruct Hf as [-> | ->]; cbn -[agg_view]; rewrite H2; cbn; rewrite decide_True; done|]. cbn. done.
Qed.

Lemma AM_failed v s sn f w :
  AM v s -> sn_fact sn = f -> sn_panic sn = Some w -> announces f = true -> no_fetch f -> AM (v ++ [sn]) s.
Proof.
  intros (H0 & H1 & H2) Hs Hn Hf Hnf. unfold AM. rewrite (effective_snoc_failed _ _ _ _ Hs Hf Hn).
  split; [eapply agg_chk_snoc; eauto|]. done.
Qed.

Lemma AM_recorded v s sn r ev hr ow d :
  AM v s -> as_exists s = true -> sn_fact sn = EventRecordedByAggregate (h_id h) id r cmd ev ->
  AM (v ++ [sn]) (mkAScope hr ow true d (as_events s ++ [ev])).
Proof.
  intros (H0 & H1 & p & H2 & H3 & H4 & H5 & H6) Hex Hs. unfold AM.
  rewrite (effective_snoc_true _ _ _ Hs) by done.
  split; [eapply agg_chk_snoc; eauto; done|]. split; [rewrite stored_snoc; done|].
  rewrite (pending_snoc _ _ _ H2). unfold pending_cmd in H2. cbn -[agg_view]. rewrite H2. cbn. rewrite decide_True by done.
  eexists. split; [reflexivity|]. cbn. rewrite H5, app_assoc. done.
Qed.

Lemma AM_logged v s sn r str :
  AM v s -> sn_fact sn = MessageLoggedByAggregate (h_id h) id r cmd str -> AM (v ++ [sn]) s.
Proof.
  intros (H0 & H1 & p & H2 & H) Hs. unfold AM. rewrite (effective_snoc_true _ _ _ Hs) by done.
  split; [eapply agg_chk_snoc; eauto; done|]. split; [rewrite stored_snoc; done|].
  exists p. rewrite (pending_snoc _ _ _ H2). split; [exact H2|exact H].
Qed.

Ltac noting obs f g :=
  let H := fresh "Hn" in pose proof (note_noted obs f g) as H;
  destruct (note obs f g) as [[? ?] ?]; destruct H as (? & -> & ? & _ & _ & ->).

Lemma xa_destroy_am g v s : AM v s -> am_post v (xa_destroy obs h a cmd id (g, s)).
Proof.
  intros H. unfold xa_destroy, bnd, a_get, a_set, fst_do. cbn.
  destruct (as_exists s) eqn:E; [|cbn; rewrite app_nil_r; exact H].
  set (r := default _ _). noting obs (AggregateInstanceDestroyed (h_id h) id r cmd) g.
  cbn. eapply AM_destroyed; eassumption.
Qed.

Lemma xa_log_am g v s str : AM v s -> am_post v (xa_log obs h cmd id str (g, s)).
Proof.
  intros H. unfold xa_log, bnd, a_get, fst_do. cbn.
  noting obs (MessageLoggedByAggregate (h_id h) id (as_root s) cmd str) g.
  cbn. eapply AM_logged; eassumption.
Qed.

Lemma xa_record_am g v s b : AM v s -> am_post v (xa_record obs o h a now cmd id b (g, s)).
Proof.
  intros H. unfold xa_record. destruct (negb _); [cbn; rewrite app_nil_r; exact H|].
  destruct (m_invalid _); [cbn; rewrite app_nil_r; exact H|].
  assert (Hrest : forall g s v, AM v s -> as_exists s = true ->
    am_post v (bnd a_get (fun s =>
      let '(r, v) := ag_apply a (as_root s) (mkMsg KEvent b) in
      let s := as_set_root s r in
      bnd (a_set s) (fun _ =>
      match enrich (h_id h) "AggregateRoot" "ApplyEvent" (mkMsg KEvent b) v with
      | Some v => raise v
      | None => bnd (fst_do (mint o)) (fun mid =>
        let ev := new_child cmd mid (mkMsg KEvent b) now (mkOrigin (h_id h) HTAggregate id) in
        bnd (a_set (mkAScope (as_hroot s) (as_own s) (as_exists s) (as_destroyed s) (as_events s ++ [ev]))) (fun _ =>
        fst_do (note obs (EventRecordedByAggregate (h_id h) id (as_root s) cmd ev))))
      end)) (g, s))).
  { clear g s v H. intros g s v H Hex. unfold bnd at 1, a_get. destruct (ag_apply _ _ _) as [r w].
    unfold bnd at 1, a_set at 1. cbv zeta. destruct (as_set_root_same s r) as (H1 & H2 & _ & _).
    destruct (enrich _ _ _ _ w); [cbn; rewrite app_nil_r; eapply AM_same; eassumption|].
    unfold bnd, fst_do at 1, mint. destruct (next_id o g) as [g1 mid]. cbn [a_set].
    unfold fst_do. set (f := EventRecordedByAggregate _ _ _ _ _). noting obs f g1. cbn.
    rewrite H1, H2, Hex. eapply AM_recorded; eassumption. }
  unfold bnd at 1, a_get at 1. unfold bnd at 1.
  destruct (as_exists s) eqn:Hex.
  - unfold ret. specialize (Hrest g s v H Hex). destruct (bnd a_get _ (g, s)) as [[[g2 s2] t2] r2]. exact Hrest.
  - unfold bnd at 1. unfold fst_do at 1. set (f := if as_destroyed s then _ else _).
    assert (Hf : f = AggregateInstanceDestructionReverted (h_id h) id (as_root s) cmd \/
      f = AggregateInstanceCreated (h_id h) id (as_root s) cmd) by (subst f; destruct (as_destroyed s); auto).
    pose proof (note_noted obs f g) as Hn. destruct (note obs f g) as [[g1 t1] r1]. destruct Hn as (sn & -> & Hs & _ & _ & ->).
    destruct (sn_panic sn) as [w|] eqn:Ep.
    + cbn. eapply AM_failed; [exact H|exact Hs|exact Ep|destruct Hf as [-> | ->]; done..].
    + unfold a_set at 1. pose proof (AM_revived v s sn f false H Hs Ep Hf) as H'.
      specialize (Hrest g1 _ _ H' eq_refl). destruct (bnd a_get _ (g1, _)) as [[[g2 s2] t2] r2].
      cbn. cbn in Hrest. rewrite <- app_assoc in Hrest. exact Hrest.
Qed.

Lemma am_post_bnd {A} v (m : M (GState * AScope) A) k gs :
  (let '(g', s', t, _) := m gs in AM (v ++ t) s') ->
  (forall g s t r, m gs = (g, s, t, inl r) -> AM (v ++ t) s -> am_post (v ++ t) (k r (g, s))) ->
  am_post v (bnd m k gs).
Proof.
  intros H1 H2. unfold bnd. destruct (m gs) as [[[g s] t] [r|w]]; [|exact H1].
  specialize (H2 g s t r eq_refl H1). destruct (k r (g, s)) as [[[g2 s2] t2] r2]. cbn in *. rewrite app_assoc. done.
Qed.

Lemma xa_run_am p : forall g v s, AM v s -> am_post v (xa_run obs o h a now cmd id p (g, s)).
Proof.
  induction p as [|w|f k IH|f k IH|b k IH|k IH|str k IH]; intros g v s H; cbn [xa_run].
  - cbn. rewrite app_nil_r. done.
  - cbn. rewrite app_nil_r. done.
  - apply am_post_bnd.
    + unfold fst_do, user. cbn. rewrite app_nil_r. done.
    + intros. apply IH. done.
  - apply am_post_bnd.
    + cbn. rewrite app_nil_r. done.
    + intros g1 s1 t1 r1 E H1. apply am_post_bnd.
      * cbn. rewrite app_nil_r. injection E as <- <- <- <-. eapply AM_same; [| |exact H1]; done.
      * intros. apply IH. done.
  - apply am_post_bnd.
    + pose proof (xa_record_am g v s b H) as H1. unfold try. destruct (xa_record _ _ _ _ _ _ _ _ _) as [[[g1 s1] t1] r1]. done.
    + intros. apply IH. done.
  - apply am_post_bnd.
    + pose proof (xa_destroy_am g v s H) as H1. unfold try. destruct (xa_destroy _ _ _ _ _ _) as [[[g1 s1] t1] r1]. done.
    + intros. apply IH. done.
  - apply am_post_bnd.
    + pose proof (xa_log_am g v s str H) as H1. unfold try. destruct (xa_log _ _ _ _ _ _) as [[[g1 s1] t1] r1]. done.
    + intros. apply IH. done.
Qed.
End Scope.

(** ** The controller *)
Lemma xa_handle_aj obs o h a now env g hist v st0 :
  h ∈ c_app c -> h_impl h = ImplAgg a ->
  checked agg_chk v -> stored (effective v) = st0 -> (forall i, hist !! i = st0 (h_id h) i) ->
  let '(g', hist', t, r) := xa_handle x obs o h a now env (g, hist) in
  checked agg_chk (v ++ t) /\ stored (effective (v ++ t)) = st0 /\
  match r with
  | inl (_, e) => e = None /\ exists p, pending_cmd (effective (v ++ t)) = Some p /\ ap_h p = h_id h /\
      hist' = if ap_exists p then <[ap_i p := ap_events p]> hist else delete (ap_i p) hist
  | inr _ => hist' = hist
  end.
Proof.
  intros Happ Hi Hv Hst Hh. unfold xa_handle. destruct (negb _); [cbn; rewrite app_nil_r; done|].
  unfold bnd at 1, enriching at 1, result. destruct (ag_route a (e_msg env)) as [id|w] eqn:Er; [|cbn; rewrite app_nil_r; done].
  cbn [app]. destruct (decide (id = "")); [cbn; rewrite app_nil_r; done|].
  destruct (ag_new a) as [r0|] eqn:Enew; [|cbn; rewrite app_nil_r; done].
  destruct (a_replay h a r0 _) as [r w] eqn:Erep. destruct w as [w|]; [cbn; rewrite app_nil_r; done|].
  unfold bnd at 1. unfold fst_do at 1. set (f := if bool_decide _ then _ else _).
  pose proof (note_noted obs f g) as Hn. destruct (note obs f g) as [[g1 t1] r1]. destruct Hn as (sn & -> & Hs & _ & _ & ->).
  assert (Hof : aggregate_of c (h_id h) a) by (exists h; done).
  assert (Hann : announces f = false) by (subst f; case_bool_decide; done).
  assert (Hchk : checked agg_chk (v ++ [sn])).
  { apply checked_snoc; [done|]. unfold agg_chk. rewrite Hs, Hst. subst f.
    destruct (hist !! id) as [evs|] eqn:El.
    - rewrite bool_decide_true by eauto. split; [|done]. intros h' i' r' e [= <- <- <- <-].
      exists a, r0, evs. rewrite <- Hh. cbn in Erep. apply a_replay_Replay in Erep. done.
    - rewrite bool_decide_false by (intros [? ?]; done). split; [done|]. intros h' i' e [= <- <- <-].
      exists a. rewrite <- Hh. done. }
  assert (Hst1 : stored (effective (v ++ [sn])) = st0).
  { rewrite (effective_snoc_true _ _ _ Hs Hann), stored_snoc; [done|]. subst f. case_bool_decide; done. }
  destruct (sn_panic sn) as [w|]; [cbn; done|].
  set (base := default [] (hist !! id)).
  assert (HM : AM h id st0 base (v ++ [sn]) (mkAScope r None (bool_decide (is_Some (hist !! id))) false [])).
  { split; [done|]. split; [done|]. rewrite (effective_snoc_true _ _ _ Hs Hann). unfold pending_cmd. rewrite agg_view_snoc.
    subst f base. destruct (hist !! id) as [evs|] eqn:El.
    - rewrite bool_decide_true by eauto. cbn -[agg_view]. eexists. split; [reflexivity|]. cbn -[agg_view].
      change (av_stored (agg_view (effective v))) with (stored (effective v)). rewrite Hst, <- Hh, El, app_nil_r. done.
    - rewrite bool_decide_false by (intros [? ?]; done). cbn. eexists. split; [reflexivity|]. done. }
  pose proof (xa_run_am obs o h a now env id st0 base (x_agg x (h_name h) id (e_msg env)) g1 _ _ HM) as H2.
  unfold enriching. destruct (xa_run _ _ _ _ _ _ _ _ _) as [[[g2 s2] t2] r2]. unfold am_post in H2.
  rewrite <- app_assoc in H2. destruct H2 as (H3 & H4 & p & H5 & H6 & H7 & H8 & H9).
  destruct r2 as [[]|w]; cbn -[effective]; [|done].
  split; [done|]. split; [done|]. split; [done|]. exists p. split; [done|]. split; [done|].
  rewrite H9, H8, H7. done.
Qed.

(** ** The engine *)
Lemma keeps_same st s h cs g :
  keeps st s -> h ∈ c_app c -> (forall hist, cs = CSAgg hist -> forall i, hist !! i = s (h_id h) i) ->
  keeps (mkE g (<[h_name h := cs]> (es_cs st))) s.
Proof.
  intros H Hin Hc hd hist Hin' Hl. cbn in Hl. destruct (decide (h_name hd = h_name h)) as [E|E].
  - assert (hd = h) as -> by (eapply app_name_inj; eassumption). rewrite lookup_insert in Hl.
    injection Hl as ->. apply Hc. done.
  - rewrite lookup_insert_ne in Hl by done. eapply H; eassumption.
Qed.

Lemma agg_inert f v : (forall hid, ~ agg_fact hid f) -> no_fetch f ->
  match f with
  | HandlingBegun _ _ | HandlingCompleted _ _ _ | DispatchCycleBegun _ _ _ _ | TickCycleBegun _ _ _ => False
  | _ => True
  end -> agg_step v f = v.
Proof. destruct f; try done; intros H; exfalso; eapply H; reflexivity. Qed.

Definition mute (f : Fact) : Prop := no_fetch f /\ forall v, agg_step v f = v.

Lemma mute_view v t : Forall (fun sn => mute (sn_fact sn)) t -> agg_view (effective (v ++ t)) = agg_view (effective v).
Proof.
  intros Hf. rewrite effective_app. apply effective_Forall in Hf. revert Hf. generalize (effective t). intros l Hf.
  induction l as [|f l IH] using rev_ind; [rewrite app_nil_r; done|].
  apply Forall_app in Hf as [H1 H2]. apply Forall_cons in H2 as [[_ H2] _].
  rewrite app_assoc, agg_view_snoc, H2. apply IH. done.
Qed.
Lemma mute_checked v t : Forall (fun sn => mute (sn_fact sn)) t -> checked agg_chk v -> checked agg_chk (v ++ t).
Proof.
  intros Hf H. apply checked_app; [done|]. intros pre s Hs. rewrite Forall_forall in Hf.
  apply agg_chk_other. apply Hf. done.
Qed.
Lemma proc_mute hid f : proc_fact hid f -> mute f.
Proof. destruct f; try done. Qed.
Lemma int_mute hid f : int_fact hid f -> mute f.
Proof. destruct f; try done. Qed.
Lemma proj_mute hid f : prj_fact hid f -> mute f.
Proof. destruct f; try done. Qed.

(** A handling before HandlingCompleted. *)
Definition AH (h : Handler) (v : list Seen) (st : EState) (r : list Env * option Err + PVal) : Prop :=
  checked agg_chk v /\
  match r with
  | inl (_, e) => forall env, keeps st (av_stored (agg_step (agg_view (effective v)) (HandlingCompleted (h_id h) env e)))
  | inr _ => keeps st (stored (effective v))
  end.

Lemma handle_quiet h v st t st' r s0 :
  Forall (fun sn => mute (sn_fact sn)) t -> checked agg_chk v -> agg_view (effective v) = mkAView s0 None ->
  keeps st s0 -> keeps st' s0 -> AH h (v ++ t) st' r.
Proof.
  intros Ht Hc Hv Hk Hk'. split; [apply mute_checked; done|].
  unfold stored. rewrite (mute_view _ _ Ht), Hv. destruct r as [[envs [e|]]|w]; done.
Qed.

Lemma on_ctrl_aj obs o oo h env :
  h ∈ c_app c ->
  trip (fun v st => AJ v st /\ pending_cmd (effective v) = None) (on_ctrl h (xctrl_handle x obs o h (oo_now oo) env))
    (fun v st r => AH h v st r).
Proof.
  intros Happ v st [[Hc Hk] Hp]. unfold on_ctrl.
  assert (Hv : agg_view (effective v) = mkAView (stored (effective v)) None).
  { unfold stored, pending_cmd in *. destruct (agg_view (effective v)) as [s0 p0]. cbn in *. congruence. }
  destruct (es_cs st !! h_name h) as [cs|] eqn:El; [|rewrite app_nil_r; done].
  unfold xctrl_handle.
  assert (Hother : forall g' cs' t r, (forall hist, cs' <> CSAgg hist) -> Forall (fun sn => mute (sn_fact sn)) t ->
    AH h (v ++ t) (mkE g' (<[h_name h := cs']> (es_cs st))) r).
  { intros g' cs' t r Hn Ht. eapply handle_quiet; [done|done|exact Hv|exact Hk|].
    apply keeps_same; [done|done|]. intros hist ->. destruct (Hn hist). done. }
  assert (Hbad : AH h (v ++ []) (mkE (es_g st) (<[h_name h := cs]> (es_cs st))) (inr PNil)).
  { rewrite app_nil_r, insert_id by done. split; [done|]. destruct st; done. }
  assert (Hem : forall {S A} Pf (m : M S A) s s' t r, emits Pf m -> (forall f, Pf f -> mute f) -> m s = (s', t, r) ->
    Forall (fun sn => mute (sn_fact sn)) t).
  { intros S A Pf m s s' t r H1 H2 E. specialize (H1 s). rewrite E in H1. cbn in H1.
    eapply Forall_impl; [exact H1|]. cbn. intros sn. apply H2. }
  destruct (h_impl h) as [a|p|i|j] eqn:Hi, cs as [hist|ps| |last]; try exact Hbad.
  - assert (Hh : forall i, hist !! i = stored (effective v) (h_id h) i) by (eapply Hk; eassumption).
    pose proof (xa_handle_aj obs o h a (oo_now oo) env (es_g st) hist v _ Happ Hi Hc eq_refl Hh) as H.
    destruct (xa_handle _ _ _ _ _ _ _ _) as [[[g' hist'] t] r]. destruct H as (H1 & H2 & H3). split; [done|].
    destruct r as [[envs e]|w].
    + destruct H3 as (-> & p & H4 & H5 & ->). intros env'. cbn -[agg_view effective].
      unfold pending_cmd in H4. rewrite H4. rewrite decide_True by done.
      change (av_stored (agg_view (effective (v ++ t)))) with (stored (effective (v ++ t))). rewrite H2.
      intros hd hist' Hin Hl. cbn in Hl. unfold av_put. destruct (decide (h_name hd = h_name h)) as [E|E].
      * assert (hd = h) as -> by (eapply app_name_inj; eassumption). rewrite lookup_insert in Hl. injection Hl as <-.
        intros i'. destruct (decide (i' = ap_i p)) as [->|Ei].
        -- rewrite decide_True by done. destruct (ap_exists p); [rewrite lookup_insert; done|rewrite lookup_delete; done].
        -- rewrite decide_False by tauto. rewrite <- Hh.
           destruct (ap_exists p); [rewrite lookup_insert_ne by done; done|rewrite lookup_delete_ne by done; done].
      * rewrite lookup_insert_ne in Hl by done. intros i'.
        rewrite decide_False by (intros [Eh _]; unfold h_id in Eh; congruence). eapply Hk; eassumption.
    + subst hist'. rewrite H2. apply keeps_same; [done|done|]. intros hist' [= <-]. exact Hh.
  - destruct (xp_handle _ _ _ _ _ _ _ _) as [[[g' ps'] t] r] eqn:E. apply Hother; [done|].
    eapply Hem; [apply xp_handle_emits|apply proc_mute|exact E].
  - destruct (xi_handle _ _ _ _ _ _ _) as [[g' t] r] eqn:E. apply Hother; [done|].
    eapply Hem; [apply xi_handle_emits|apply int_mute|exact E].
  - destruct (xj_handle _ _ _ _ _ _ _ _) as [[g' t] r] eqn:E. apply Hother; [done|].
    eapply Hem; [apply xj_handle_emits|apply proj_mute|exact E].
Qed.

Lemma aj_note obs f (I : list Seen -> EState -> Prop) :
  announces f = false -> no_fetch f ->
  (forall v st, I v st -> checked agg_chk v) ->
  (forall v st, I v st -> keeps st (av_stored (agg_step (agg_view (effective v)) f))) ->
  (forall v g g' cs, I v (mkE g cs) -> I v (mkE g' cs)) ->
  trip I (on_g (note obs f)) (fun v st r => AJ v st /\
    pending_cmd (effective v) = av_pend (agg_step (agg_view (effective (removelast v))) f)).
Proof.
  intros Ha Hnf H1 H2 H3. apply trip_on_g. intros cs. apply trip_note. intros v g sn g' r HI (Hs & _).
  rewrite removelast_last. unfold AJ, stored, pending_cmd. rewrite (effective_snoc_true _ _ _ Hs Ha), agg_view_snoc.
  split; [split; [eapply agg_chk_snoc; eauto|eapply H2; eapply H3; exact HI]|done].
Qed.

Lemma agg_xinv : XInv x agg_chk AJ (fun _ => AJ).
Proof.
  assert (Hg : forall v g g' cs, AJ v (mkE g cs) -> AJ v (mkE g' cs)) by done.
  constructor.
  - intros v st [H _]. exact H.
  - done.
  - intros v g g' cs _. apply Hg.
  - intros _ v g g' cs _. apply Hg.
  - intros _ v st sn [H1 H2] Hf. split.
    + eapply agg_chk_snoc; [done|reflexivity|]. destruct (sn_fact sn); done.
    + rewrite (effective_snoc_true _ _ _ eq_refl) by (destruct (sn_fact sn); done).
      rewrite stored_snoc; [done|]. destruct (sn_fact sn); done.
  - intros oo v st o g' env sn [H1 H2] _ _ Hf. split.
    + eapply agg_chk_snoc; [done|exact Hf|done].
    + rewrite (effective_snoc_true _ _ _ Hf) by done. rewrite stored_snoc; [exact H2|done].
  - intros oo v st sn [H1 H2] Hf. split.
    + eapply agg_chk_snoc; [done|exact Hf|done].
    + rewrite (effective_snoc_true _ _ _ Hf) by done. rewrite stored_snoc; [exact H2|done].
  - intros obs o oo env h _ Happ. unfold xe_handle. destruct (skip_handler h oo).
    + eapply trip_bnd; [apply (aj_note _ _ AJ); try done|intros ?; apply trip_ret; intros; cbv beta in *; tauto|intros; cbv beta in *; tauto].
      * intros v st [H _]; exact H.
      * intros v st [_ H]; exact H.
    + eapply trip_bnd; [apply (aj_note _ _ AJ); try done|intros ?|intros; cbv beta in *; tauto].
      * intros v st [H _]; exact H.
      * intros v st [_ H]; exact H.
      * eapply trip_bnd; [eapply trip_conseq; [apply on_ctrl_aj; done| |intros; eassumption]| |].
        -- intros v st [H1 H2]. split; [exact H1|]. rewrite H2. done.
        -- intros [envs e]. eapply trip_bnd; [apply (aj_note _ _ (fun v st => AH h v st (inl (envs, e))))| |].
           ++ done.
           ++ done.
           ++ intros v st [H _]; exact H.
           ++ intros v st [_ H]; apply H.
           ++ intros v g g' cs H; exact H.
           ++ intros ?. apply trip_ret. intros; cbv beta in *; tauto.
           ++ intros; cbv beta in *; tauto.
        -- intros v st w [H1 H2]. split; done.
  - intros obs o oo h _ Happ. unfold xe_tick_one. destruct (skip_handler h oo).
    + eapply trip_bnd; [apply (aj_note _ _ AJ); try done|intros ?; apply trip_ret; intros; cbv beta in *; tauto|intros; cbv beta in *; tauto].
      * intros v st [H _]; exact H.
      * intros v st [_ H]; exact H.
    + assert (Hmute : forall v t st, AJ v st -> Forall (fun sn => mute (sn_fact sn)) t -> AJ (v ++ t) st).
      { intros v t st [H1 H2] Ht. split; [apply mute_checked; done|]. unfold stored. rewrite mute_view; done. }
      assert (Hnote : forall f, mute f -> trip AJ (on_g (note obs f)) (fun v st _ => AJ v st)).
      { intros f Hf. apply trip_on_g. intros cs. apply trip_note. intros v g sn g' r HJ (<- & _).
        apply (Hmute v [sn]); [done|]. constructor; [done|constructor]. }
      eapply trip_bnd; [apply Hnote; done|intros ?|intros; cbv beta in *; tauto].
      eapply (trip_bnd _ (fun v st _ => AJ v st)); [|intros [envs e]|intros; cbv beta in *; tauto].
      * intros v st HJ. unfold on_ctrl. destruct (es_cs st !! h_name h) as [cs|] eqn:El; [|rewrite app_nil_r; done].
        unfold xctrl_tick.
        assert (Hput : forall g' cs', (forall hist, cs' = CSAgg hist -> cs = cs') -> AJ v (mkE g' (<[h_name h := cs']> (es_cs st)))).
        { intros g' cs' Hn. destruct HJ as [H1 H2]. split; [done|]. apply keeps_same; [done|done|].
          intros hist ->. specialize (Hn hist eq_refl). subst cs. eapply H2; eassumption. }
        destruct (h_impl h), cs; try (rewrite app_nil_r; apply Hput; done).
        -- destruct (p_tick _ _). rewrite app_nil_r. apply Hput. done.
        -- destruct (xj_tick _ _ _ _ _) as [[[g' last'] t] r] eqn:E. apply Hmute; [apply Hput; done|].
           pose proof (xj_tick_emits x obs h (oo_now oo) (es_g st, last)) as He. rewrite E in He. cbn in He.
           eapply Forall_impl; [exact He|]. cbn. intros sn. apply proj_mute.
      * eapply trip_bnd; [apply Hnote; done|intros ?|intros; cbv beta in *; tauto].
        eapply (trip_bnd _ (fun v st _ => AJ v st)); [|intros ?; apply trip_ret; intros; cbv beta in *; tauto|intros; cbv beta in *; tauto].
        unfold xpoll. apply trip_on_g. intros cs v g HJ. unfold poll_ctx. rewrite app_nil_r. exact HJ.
  - intros v st [_ H]. split; [apply checked_nil|]. intros hd hist Hin Hl i. cbn in Hl.
    rewrite lookup_fmap in Hl. destruct (es_cs st !! h_name hd) as [[]|]; try done. injection Hl as <-. rewrite lookup_empty. done.
Qed.

Lemma agg_xhistory u ops s evs rs :
  xhistory x u ops s evs rs ->
  keeps s.1 (stored (effective (seen_since evs))) /\ (forall pre sn, happens evs pre sn -> agg_chk pre sn).
Proof.
  intros H. destruct (inv_history x _ _ _ agg_xinv u ops s evs rs H) as [[_ H1] H2]; [|done].
  split; [apply checked_nil|]. intros hd hist Hin Hl i. pose proof (cs_init_lookup c u hd _ Hok Hin Hl) as Hc.
  unfold cs_init in Hc. destruct (h_impl hd); try discriminate Hc. injection Hc as ->. rewrite lookup_empty. done.
Qed.
End ObsAgg.
