(** * Process instances and timeouts under observers that may panic *)
From Verif Require Export ObsAgg.
From Verif Require Import AggProof HistSim ProgSim ProcProof.

Section ObsProc.
Context {P : Params}.
Context (x : XApp) (Hok : app_ok (x_cfg x)).
Notation c := (x_cfg x).

Definition proc_chk (pre : list Seen) (sn : Seen) : Prop :=
  (forall h i r e, sn_fact sn = ProcessInstanceLoaded h i r e -> live (effective pre) h i = true) /\
  (forall h i e, sn_fact sn = ProcessInstanceNotFound h i e -> live (effective pre) h i = false) /\
  (forall h i r e, sn_fact sn = ProcessInstanceBegun h i r e ->
     live (effective pre) h i = false /\ exists pi, process_of c h pi /\ r = pr_new pi) /\
  (forall h i e, sn_fact sn = ProcessTimeoutIgnored h i e -> live (effective pre) h i = false).

Definition no_find (f : Fact) : Prop :=
  match f with
  | ProcessInstanceLoaded _ _ _ _ | ProcessInstanceNotFound _ _ _ | ProcessInstanceBegun _ _ _ _
  | ProcessTimeoutIgnored _ _ _ => False
  | _ => True
  end.
Lemma proc_chk_other pre sn : no_find (sn_fact sn) -> proc_chk pre sn.
Proof. intros H. unfold proc_chk. repeat apply conj; intros *; intros E; rewrite E in H; done. Qed.
Lemma proc_chk_snoc v sn f : checked proc_chk v -> sn_fact sn = f -> no_find f -> checked proc_chk (v ++ [sn]).
Proof. intros H <- Hf. apply checked_snoc; [done|]. apply proc_chk_other. done. Qed.

Definition PJ0 (v : list Seen) (st : EState) : Prop :=
  checked proc_chk v /\ prels c (es_cs st) (proc_view (effective v)).
Definition PJ (oo : OOs) (v : list Seen) (st : EState) : Prop :=
  PJ0 v st /\ pv_now (proc_view (effective v)) = oo_now oo.

Lemma bnd_nil {S A B} (m : M S A) (k : A -> M S B) s s' r :
  m s = (s', [], inl r) -> bnd m k s = k r s'.
Proof. intros E. unfold bnd. rewrite E. destruct (k r s') as [[? ?] ?]. done. Qed.
Lemma bnd2_nil {S A B C} (m : M S A) (f : A -> M S B) (k : B -> M S C) s s' r :
  m s = (s', [], inl r) -> bnd (bnd m f) k s = bnd (f r) k s'.
Proof. intros E. unfold bnd. rewrite E. destruct (f r s') as [[? ?] [?|?]]; done. Qed.

(** ** The scope *)
Section Scope.
Context (obs : list Observer) (o : Oracle) (h : Handler) (env : Env) (id : string) (meth : string) (v0 : PView).
Notation now := (pv_now v0).

Definition PS (v : list Seen) (s : PScope) : Prop :=
  checked proc_chk v /\ forall g, mirrors_p v0 h id g s (effective v).
Definition ps_post {A} (v : list Seen) (r : (GState * PScope) * list Seen * (A + PVal)) : Prop :=
  let '(g', s', t, _) := r in PS (v ++ t) s'.

Let K := mirrors_ok c v0 o h id env.

Lemma ps_post_bnd {A B} v (m : M (GState * PScope) A) (k : A -> M (GState * PScope) B) gs :
  ps_post v (m gs) ->
  (forall g s t r, m gs = (g, s, t, inl r) -> PS (v ++ t) s -> ps_post (v ++ t) (k r (g, s))) ->
  ps_post v (bnd m k gs).
Proof.
  intros H1 H2. unfold bnd. unfold ps_post in H1. destruct (m gs) as [[[g s] t] [r|w]]; [|exact H1].
  specialize (H2 g s t r eq_refl H1). destruct (k r (g, s)) as [[[g2 s2] t2] r2]. cbn in *. rewrite app_assoc. done.
Qed.

Lemma PS_said v s s' sn f :
  PS v s -> sn_fact sn = f -> announces f = false -> no_find f ->
  (forall g, mirrors_p v0 h id g s' (snoc (effective v) f)) -> PS (v ++ [sn]) s'.
Proof.
  intros [H1 _] Hs Ha Hf Hm. split; [eapply proc_chk_snoc; eauto|]. rewrite (effective_snoc_true _ _ _ Hs Ha). exact Hm.
Qed.

Lemma xp_check_ps g v s m :
  PS v s -> let '(g', s', t, r) := xp_check h env meth m (g, s) in
  PS (v ++ t) s' /\ (forall u, r = inl u -> p_check h env meth m = None).
Proof. intros H. unfold xp_check. destruct (p_check _ _ _ _); cbn; rewrite app_nil_r; split; done. Qed.

Lemma xp_revert_ps g v s :
  PS v s -> let '(g', s', t, r) := xp_revert obs h env id (g, s) in
  PS (v ++ t) s' /\ (forall u, r = inl u -> ps_ended s' = false).
Proof.
  intros H. unfold xp_revert, bnd, p_get, p_set, fst_do. destruct (ps_ended s) eqn:Ee; [|cbn; rewrite app_nil_r; done].
  set (f := ProcessInstanceEndingReverted _ _ _ _). pose proof (note_noted obs f g) as Hn.
  destruct (note obs f g) as [[g1 t1] r1]. destruct Hn as (sn & -> & Hs & _ & _ & ->).
  destruct (sn_panic sn) as [w|] eqn:Ep; cbn.
  - split; [|done]. destruct H as [H1 H2]. split; [eapply proc_chk_snoc; [done|exact Hs|done]|].
    rewrite (effective_snoc_failed _ _ _ _ Hs eq_refl Ep). exact H2.
  - split; [|done]. destruct H as [H1 H2]. split; [eapply proc_chk_snoc; [done|exact Hs|done]|].
    rewrite (effective_snoc_ok _ _ _ Hs Ep). intros g'. apply (po_revert _ _ _ _ _ _ _ _ K g' s (effective v) (H2 g') Ee).
Qed.

Lemma xp_execute_ps g v s b : PS v s -> ps_post v (xp_execute obs o h now env id meth b (g, s)).
Proof.
  intros H. unfold xp_execute. pose proof (xp_check_ps g v s (mkMsg KCommand b) H) as Hc.
  apply ps_post_bnd; [destruct (xp_check _ _ _ _ _) as [[[? ?] ?] ?]; apply Hc|].
  intros g1 s1 t1 u1 E1 H1. rewrite E1 in Hc. destruct Hc as [_ Hc]. specialize (Hc _ eq_refl).
  pose proof (xp_revert_ps g1 _ s1 H1) as Hr.
  apply ps_post_bnd; [destruct (xp_revert _ _ _ _ _) as [[[? ?] ?] ?]; apply Hr|].
  intros g2 s2 t2 u2 E2 H2. rewrite E2 in Hr. destruct Hr as [_ Hr]. specialize (Hr _ eq_refl).
  unfold bnd, fst_do at 1, mint. destruct (next_id o g2) as [g3 mid] eqn:En. unfold p_get, p_set, fst_do.
  set (f := CommandExecutedByProcess _ _ _ _ _). pose proof (note_noted obs f g3) as Hn.
  destruct (note obs f g3) as [[g4 t4] r4]. destruct Hn as (sn & -> & Hs & _ & _ & ->). cbn.
  eapply PS_said; [exact H2|exact Hs|done|done|]. intros g'.
  apply (p_check_none h env meth) in Hc as [Hc1 Hc2].
  destruct H2 as [_ H2].
  apply (po_execute _ _ _ _ _ _ _ _ K g2 s2 _ b g3 mid (H2 g2) Hr Hc1 Hc2 En).
Qed.

Lemma xp_schedule_ps g v s b t : PS v s -> ps_post v (xp_schedule obs o h now env id meth b t (g, s)).
Proof.
  intros H. unfold xp_schedule. pose proof (xp_check_ps g v s (mkMsg KTimeout b) H) as Hc.
  apply ps_post_bnd; [destruct (xp_check _ _ _ _ _) as [[[? ?] ?] ?]; apply Hc|].
  intros g1 s1 t1 u1 E1 H1. rewrite E1 in Hc. destruct Hc as [_ Hc]. specialize (Hc _ eq_refl).
  pose proof (xp_revert_ps g1 _ s1 H1) as Hr.
  apply ps_post_bnd; [destruct (xp_revert _ _ _ _ _) as [[[? ?] ?] ?]; apply Hr|].
  intros g2 s2 t2 u2 E2 H2. rewrite E2 in Hr. destruct Hr as [_ Hr]. specialize (Hr _ eq_refl).
  unfold bnd, fst_do at 1, mint. destruct (next_id o g2) as [g3 mid] eqn:En. unfold p_get, p_set, fst_do.
  set (f := TimeoutScheduledByProcess _ _ _ _ _). pose proof (note_noted obs f g3) as Hn.
  destruct (note obs f g3) as [[g4 t4] r4]. destruct Hn as (sn & -> & Hs & _ & _ & ->). cbn.
  eapply PS_said; [exact H2|exact Hs|done|done|]. intros g'.
  apply (p_check_none h env meth) in Hc as [Hc1 Hc2].
  destruct H2 as [_ H2].
  apply (po_schedule _ _ _ _ _ _ _ _ K g2 s2 _ b t g3 mid (H2 g2) Hr Hc1 Hc2 En).
Qed.

Lemma xp_end_ps g v s : PS v s -> ps_post v (xp_end obs h env id (g, s)).
Proof.
  intros H. unfold xp_end, bnd, p_get, p_set, fst_do. destruct (ps_ended s) eqn:Ee; [cbn; rewrite app_nil_r; done|].
  set (f := ProcessInstanceEnded _ _ _ _). pose proof (note_noted obs f g) as Hn.
  destruct (note obs f g) as [[g1 t1] r1]. destruct Hn as (sn & -> & Hs & _ & _ & ->). cbn.
  eapply PS_said; [exact H|exact Hs|done|done|]. intros g'. destruct H as [_ H].
  apply (po_end _ _ _ _ _ _ _ _ K g' s _ (H g') Ee).
Qed.

Lemma xp_log_ps g v s str : PS v s -> ps_post v (xp_log obs h env id str (g, s)).
Proof.
  intros H. unfold xp_log, bnd, p_get, fst_do.
  set (f := MessageLoggedByProcess _ _ _ _ _). pose proof (note_noted obs f g) as Hn.
  destruct (note obs f g) as [[g1 t1] r1]. destruct Hn as (sn & -> & Hs & _ & _ & ->). cbn.
  eapply PS_said; [exact H|exact Hs|done|done|]. intros g'. destruct H as [_ H].
  apply (po_log _ _ _ _ _ _ _ _ K g' s _ str (H g')).
Qed.

Lemma ps_try {A} v (m : M (GState * PScope) A) gs : ps_post v (m gs) -> ps_post v (try m gs).
Proof. unfold try, ps_post. destruct (m gs) as [[[g s] t] r]. done. Qed.

Lemma xp_run_ps p : forall g v s, PS v s -> ps_post v (xp_run obs o h now env id meth p (g, s)).
Proof.
  induction p as [e|w|f k IH|f k IH|b k IH|b t k IH|k IH|str k IH]; intros g v s H; cbn [xp_run].
  - cbn. rewrite app_nil_r. done.
  - cbn. rewrite app_nil_r. done.
  - apply ps_post_bnd; [unfold fst_do, user; cbn; rewrite app_nil_r; done|]. intros. apply IH. done.
  - apply ps_post_bnd; [cbn; rewrite app_nil_r; done|]. intros g1 s1 t1 r1 E H1.
    apply ps_post_bnd; [|intros; apply IH; done]. cbn. rewrite app_nil_r. injection E as <- <- <- <-.
    destruct H1 as [H1 H2]. split; [done|]. intros g'. apply (po_mutate _ _ _ _ _ _ _ _ K f g' s _ (H2 g')).
  - apply ps_post_bnd; [apply ps_try, xp_execute_ps; done|]. intros. apply IH. done.
  - apply ps_post_bnd; [apply ps_try, xp_schedule_ps; done|]. intros. apply IH. done.
  - apply ps_post_bnd; [apply ps_try, xp_end_ps; done|]. intros. apply IH. done.
  - apply ps_post_bnd; [apply ps_try, xp_log_ps; done|]. intros. apply IH. done.
Qed.
End Scope.

(** ** The controller *)

(** The view went from [v0] to [w] while the state of [h] became [ps']. *)
Definition pmoved (h : Handler) (v0 w : PView) (ps' : PState) : Prop :=
  prel w ps' (h_id h) /\
  (forall hd ps1, hd ∈ c_app c -> h_name hd <> h_name h -> prel v0 ps1 (h_id hd) -> prel w ps1 (h_id hd)) /\
  pv_now w = pv_now v0.

Definition PH (h : Handler) (v0 : PView) (v : list Seen) (ps' : PState) (r : list Env * option Err + PVal) : Prop :=
  checked proc_chk v /\
  match r with
  | inl (_, e) => forall env, pmoved h v0 (proc_step (proc_view (effective v)) (HandlingCompleted (h_id h) env e)) ps'
  | inr _ => pmoved h v0 (proc_view (effective v)) ps'
  end.

Lemma pmoved_pend h v0 p ps : prel v0 ps (h_id h) -> pmoved h v0 (set_pend v0 p) ps.
Proof. intros H. split; [done|]. split; done. Qed.

Lemma PH_quiet h v0 p v ps r :
  checked proc_chk v -> proc_view (effective v) = set_pend v0 p ->
  prel v0 ps (h_id h) -> (forall envs, r <> inl (envs, None)) \/ p = None -> PH h v0 v ps r.
Proof.
  intros Hc Hv Hp Hr. split; [done|]. rewrite Hv. destruct r as [[envs [e|]]|w].
  - intros env'. change (pmoved h v0 (set_pend (set_pend v0 p) None) ps). rewrite set_pend_twice. apply pmoved_pend. done.
  - intros env'. destruct Hr as [Hr| ->]; [destruct (Hr envs eq_refl)|]. cbn. apply pmoved_pend. done.
  - apply pmoved_pend. done.
Qed.

Lemma xp_instance_ph obs o h v0 env id r g ps v :
  h ∈ c_app c -> sort_ok o -> checked proc_chk v -> prel v0 ps (h_id h) ->
  proc_view (effective v) = set_pend v0 (Some (mkPPend (h_id h) id [] false)) ->
  let '(g', ps', t, res) := xp_handle_instance x obs o h (pv_now v0) env id r (g, ps) in
  PH h v0 (v ++ t) ps' res.
Proof.
  intros Happ Hs Hc Hp Hv. unfold xp_handle_instance.
  destruct (match m_kind (e_msg env) with KTimeout => _ | _ => _ end) as [meth prog].
  assert (H0 : PS h id v0 v (mkPScope r false [] [] [])).
  { split; [done|]. intros g'. exists (mkPPend (h_id h) id [] false). split; [done|]. cbn. repeat split; constructor. }
  pose proof (xp_run_ps obs o h env id meth v0 prog g v _ H0) as H1.
  unfold enriching. destruct (xp_run _ _ _ _ _ _ _ _ _) as [[[g2 s2] t2] r2].
  destruct H1 as [H1 H2]. destruct (H2 g2) as (p & H3 & Eph & Epi & Epl & Epd & Epe & Hpt & Hpc).
  destruct r2 as [[e|]|w].
  - eapply PH_quiet; [done|exact H3|apply prel_mutation; done|left; done].
  - destruct (ps_ended s2) eqn:Ee.
    + split; [done|]. intros env'. rewrite H3. cbn. rewrite decide_True by done.
      change (proc_commit (set_pend v0 (Some p)) p) with (proc_commit v0 p).
      split; [apply commit_delete; congruence|]. split.
      * intros hd ps1 _ Hne. eapply commit_other; eassumption.
      * unfold proc_commit. destruct (pp_ended p); done.
    + split; [done|]. intros env'. rewrite H3. cbn. rewrite decide_True by done.
      change (proc_commit (set_pend v0 (Some p)) p) with (proc_commit v0 p).
      split; [|split].
      * eapply commit_update; [done|exact Hp|done|done|congruence|exact Epl|exact Hpt|reflexivity].
      * intros hd ps1 _ Hne. eapply commit_other; eassumption.
      * unfold proc_commit. destruct (pp_ended p); done.
  - eapply PH_quiet; [done|exact H3|apply prel_mutation; done|left; done].
Qed.

Lemma live_prel y v0 p ps h i :
  proc_view y = set_pend v0 p -> prel v0 ps (h_id h) -> live y (h_id h) i = bool_decide (is_Some (pc_instances ps !! i)).
Proof. intros Hv [H _]. unfold live. rewrite Hv. apply H. Qed.

Lemma xp_handle_ph obs o h pi v0 env g ps v :
  h ∈ c_app c -> h_impl h = ImplProc pi -> sort_ok o -> checked proc_chk v -> prel v0 ps (h_id h) ->
  proc_view (effective v) = set_pend v0 None ->
  let '(g', ps', t, res) := xp_handle x obs o h pi (pv_now v0) env (g, ps) in
  PH h v0 (v ++ t) ps' res.
Proof.
  intros Happ Hi Hs Hc Hp Hv.
  assert (Hof : process_of c (h_id h) pi) by (exists h; done).
  assert (Hpanic : forall w, PH h v0 (v ++ []) ps (inr w)).
  { intros w. rewrite app_nil_r. eapply PH_quiet; [done|exact Hv|done|left; done]. }
  unfold xp_handle. destruct (negb _); [apply Hpanic|].
  assert (Hinst : forall g v id, checked proc_chk v -> proc_view (effective v) = set_pend v0 None ->
    let '(g', ps', t, res) := (bnd get_st (fun '(_, ps) =>
      match pc_instances ps !! id with
      | Some r =>
        bnd (fst_do (note obs (ProcessInstanceLoaded (h_id h) id r env))) (fun _ =>
        xp_handle_instance x obs o h (pv_now v0) env id r)
      | None =>
        bnd (fst_do (note obs (ProcessInstanceNotFound (h_id h) id env))) (fun _ =>
        bnd (fst_do (note obs (ProcessInstanceBegun (h_id h) id (pr_new pi) env))) (fun _ =>
        match pr_new pi with
        | None => raise (PUnexpBeh (h_id h) "ProcessMessageHandler" "New" (e_msg env) BNilRoot)
        | Some r => xp_handle_instance x obs o h (pv_now v0) env id r
        end))
      end)) (g, ps) in PH h v0 (v ++ t) ps' res).
  { clear g v Hc Hv Hpanic. intros g v id Hc Hv.
    unfold bnd at 1, get_st. destruct (pc_instances ps !! id) as [r|] eqn:El.
    - unfold bnd at 1. unfold fst_do. set (f := ProcessInstanceLoaded _ _ _ _).
      pose proof (note_noted obs f g) as Hn. destruct (note obs f g) as [[g1 t1] r1].
      destruct Hn as (sn & -> & Hs1 & _ & _ & ->).
      assert (Hc1 : checked proc_chk (v ++ [sn])).
      { apply checked_snoc; [done|]. unfold proc_chk. rewrite Hs1. subst f.
        repeat apply conj; intros *; intros E; try discriminate E. injection E as <- <- <- <-.
        rewrite (live_prel _ _ _ _ _ _ Hv Hp), El. apply bool_decide_true. eauto. }
      assert (Hv1 : proc_view (effective (v ++ [sn])) = set_pend v0 (Some (mkPPend (h_id h) id [] false))).
      { rewrite (effective_snoc_true _ _ _ Hs1 eq_refl), proc_view_snoc, Hv. done. }
      destruct (sn_panic sn) as [w|].
      + cbn. eapply PH_quiet; [done|exact Hv1|done|left; done].
      + pose proof (xp_instance_ph obs o h v0 env id r g1 ps _ Happ Hs Hc1 Hp Hv1) as H.
        destruct (xp_handle_instance _ _ _ _ _ _ _ _ _) as [[[g2 ps2] t2] r2].
        rewrite <- app_assoc in H. exact H.
    - unfold bnd at 1. unfold fst_do at 1. set (f := ProcessInstanceNotFound _ _ _).
      pose proof (note_noted obs f g) as Hn. destruct (note obs f g) as [[g1 t1] r1].
      destruct Hn as (sn & -> & Hs1 & _ & _ & ->).
      assert (Hl : forall y, proc_view y = set_pend v0 None -> live y (h_id h) id = false).
      { intros y Hy. rewrite (live_prel _ _ _ _ _ _ Hy Hp), El. done. }
      assert (Hc1 : checked proc_chk (v ++ [sn])).
      { apply checked_snoc; [done|]. unfold proc_chk. rewrite Hs1. subst f.
        repeat apply conj; intros *; intros E; try discriminate E. injection E as <- <- <-. apply Hl. done. }
      assert (Hv1 : proc_view (effective (v ++ [sn])) = set_pend v0 None).
      { rewrite (effective_snoc_true _ _ _ Hs1 eq_refl), proc_view_snoc, Hv. done. }
      destruct (sn_panic sn) as [w|]; [cbn; eapply PH_quiet; [done|exact Hv1|done|left; done]|].
      unfold bnd at 1. unfold fst_do. set (f' := ProcessInstanceBegun _ _ _ _).
      pose proof (note_noted obs f' g1) as Hn. destruct (note obs f' g1) as [[g2 t2] r2].
      destruct Hn as (sn2 & -> & Hs2 & _ & _ & ->).
      assert (Hc2 : checked proc_chk ((v ++ [sn]) ++ [sn2])).
      { apply checked_snoc; [done|]. unfold proc_chk. rewrite Hs2. subst f'.
        repeat apply conj; intros *; intros E; try discriminate E. injection E as <- <- <- <-. split; [apply Hl; done|]. eauto. }
      assert (Hv2 : proc_view (effective ((v ++ [sn]) ++ [sn2])) = set_pend v0 (Some (mkPPend (h_id h) id [] false))).
      { rewrite (effective_snoc_true _ _ _ Hs2 eq_refl), proc_view_snoc, Hv1. done. }
      destruct (sn_panic sn2) as [w|].
      { cbn. rewrite <- app_assoc in Hc2, Hv2. eapply PH_quiet; [exact Hc2|exact Hv2|done|left; done]. }
      destruct (pr_new pi) as [r|].
      + pose proof (xp_instance_ph obs o h v0 env id r g2 ps _ Happ Hs Hc2 Hp Hv2) as H.
        destruct (xp_handle_instance _ _ _ _ _ _ _ _ _) as [[[g3 ps3] t3] r3].
        rewrite <- !app_assoc in H. exact H.
      + cbn. rewrite <- app_assoc in Hc2, Hv2. eapply PH_quiet; [exact Hc2|exact Hv2|done|left; done]. }
  assert (Hignored : forall k g f, (forall gs, k XNone gs = ret ([], None) gs) ->
    announces f = false -> (forall w, proc_step w f = w) ->
    (no_find f \/ exists i, f = ProcessTimeoutIgnored (h_id h) i env /\ pc_instances ps !! i = None) ->
    let '(g', ps', t, res) := bnd (bnd (fst_do (note obs f)) (fun _ => ret XNone)) k (g, ps) in PH h v0 (v ++ t) ps' res).
  { intros k g1 f Hk Ha Hst Hf. unfold bnd, fst_do. pose proof (note_noted obs f g1) as Hn.
    destruct (note obs f g1) as [[g2 t2] r2]. destruct Hn as (sn & -> & Hs1 & _ & _ & ->).
    assert (Hc1 : checked proc_chk (v ++ [sn])).
    { apply checked_snoc; [done|]. destruct Hf as [Hf|(i & -> & Hl)].
      - apply proc_chk_other. rewrite Hs1. done.
      - unfold proc_chk. rewrite Hs1. repeat apply conj; intros *; intros E; try discriminate E. injection E as <- <- <-.
        rewrite (live_prel _ _ _ _ _ _ Hv Hp), Hl. done. }
    assert (Hv1 : proc_view (effective (v ++ [sn])) = set_pend v0 None).
    { rewrite (effective_snoc_true _ _ _ Hs1 Ha), proc_view_snoc, Hv. apply Hst. }
    destruct (sn_panic sn); cbn; rewrite ?Hk; cbn; (eapply PH_quiet; [exact Hc1|exact Hv1|done|auto]). }
  unfold xp_route. destruct (m_kind (e_msg env)).
  - apply Hpanic.
  - match goal with |- context [bnd (bnd (fst_do (user _)) _) ?k] => set (k0 := k) in * end.
    destruct (pr_route pi (e_msg env) (g_user g)) as [u r] eqn:Er.
    erewrite bnd2_nil by (unfold fst_do, user; rewrite Er; reflexivity).
    destruct r as [[[id ok] e]|w]; [|apply Hpanic].
    erewrite bnd2_nil by reflexivity.
    destruct e as [e|].
    + cbn. rewrite app_nil_r. eapply PH_quiet; [done|exact Hv|done|right; done].
    + destruct ok.
      * destruct (decide (id = "")); [apply Hpanic|].
        erewrite bnd_nil by reflexivity. apply (Hinst (mkG (g_next g) u (g_step g)) v id Hc Hv).
      * apply Hignored; [done|done|done|left; done].
  - destruct (e_origin env) as [og|]; [|apply Hpanic].
    match goal with |- context [bnd (bnd get_st _) ?k] => set (k0 := k) in * end.
    erewrite bnd2_nil by reflexivity. cbv beta iota.
    destruct (pc_instances ps !! o_instance og) as [r|] eqn:El.
    + erewrite bnd_nil by reflexivity. apply (Hinst g v (o_instance og) Hc Hv).
    + apply Hignored; [done|done|done|right; eauto].
Qed.

(** ** The engine *)
Definition pmute (f : Fact) : Prop := no_find f /\ inert f.

Lemma pmute_view v t : Forall (fun sn => pmute (sn_fact sn)) t -> proc_view (effective (v ++ t)) = proc_view (effective v).
Proof.
  intros Hf. rewrite effective_app. apply view_inert. apply effective_Forall in Hf.
  eapply Forall_impl; [exact Hf|]. intros f [_ H]. exact H.
Qed.
Lemma pmute_checked v t : Forall (fun sn => pmute (sn_fact sn)) t -> checked proc_chk v -> checked proc_chk (v ++ t).
Proof.
  intros Hf H. apply checked_app; [done|]. intros pre s Hs. rewrite Forall_forall in Hf.
  apply proc_chk_other. apply Hf. done.
Qed.
Lemma agg_pmute hid f : agg_fact hid f -> pmute f.
Proof. destruct f; done. Qed.
Lemma int_pmute hid f : int_fact hid f -> pmute f.
Proof. destruct f; done. Qed.
Lemma prj_pmute hid f : prj_fact hid f -> pmute f.
Proof. destruct f; done. Qed.

Definition PHE (oo : OOs) (h : Handler) (v : list Seen) (st : EState) (r : list Env * option Err + PVal) : Prop :=
  checked proc_chk v /\
  match r with
  | inl (_, e) => forall env, let w := proc_step (proc_view (effective v)) (HandlingCompleted (h_id h) env e) in
      prels c (es_cs st) w /\ pv_now w = oo_now oo
  | inr _ => prels c (es_cs st) (proc_view (effective v)) /\ pv_now (proc_view (effective v)) = oo_now oo
  end.

Lemma on_ctrl_pj obs o oo h env :
  sort_ok o -> h ∈ c_app c ->
  trip (fun v st => PJ oo v st /\ pv_pend (proc_view (effective v)) = None)
    (on_ctrl h (xctrl_handle x obs o h (oo_now oo) env)) (fun v st r => PHE oo h v st r).
Proof.
  intros Hs Happ v st [[[Hc Hk] Hnow] Hp]. unfold on_ctrl.
  set (v0 := proc_view (effective v)) in *.
  assert (Hv : proc_view (effective v) = set_pend v0 None).
  { subst v0. destruct (proc_view (effective v)) as [a1 a2 a3 a4 a5 a6 a7 a8 a9 a10]. cbn in *. rewrite Hp. done. }
  destruct (es_cs st !! h_name h) as [cs|] eqn:El; [|rewrite app_nil_r; done].
  unfold xctrl_handle.
  assert (Hput : forall g' cs' v' r, (forall ps, cs' = CSProc ps -> cs = cs') -> checked proc_chk v' ->
    proc_view (effective v') = v0 -> PHE oo h v' (mkE g' (<[h_name h := cs']> (es_cs st))) r).
  { intros g' cs' v' r Hn Hc' Hv'. split; [done|]. rewrite Hv'.
    assert (Hq : forall p, prels c (<[h_name h := cs']> (es_cs st)) (set_pend v0 p)).
    { intros p. eapply prels_put; [done|done|exact Hk| |intros; apply prel_set_pend; done].
      intros ps ->. specialize (Hn ps eq_refl). subst cs. apply prel_set_pend. apply Hk; done. }
    assert (Hv0 : v0 = set_pend v0 None) by (rewrite <- Hv; done).
    destruct r as [[envs [e|]]|w].
    - intros env'. split; [apply (Hq None)|done].
    - intros env'. cbn. rewrite Hp. split; [rewrite Hv0; apply Hq|done].
    - split; [rewrite Hv0; apply Hq|done]. }
  assert (Hbad : PHE oo h (v ++ []) (mkE (es_g st) (<[h_name h := cs]> (es_cs st))) (inr PNil)).
  { rewrite app_nil_r. apply Hput; done. }
  assert (Hem : forall {S A} Pf (m : M S A) s s' t r g' cs' r', emits Pf m -> (forall f, Pf f -> pmute f) -> m s = (s', t, r) ->
    (forall ps, cs' <> CSProc ps) -> PHE oo h (v ++ t) (mkE g' (<[h_name h := cs']> (es_cs st))) r').
  { intros S A Pf m s s' t r g' cs' r' H1 H2 E H3. specialize (H1 s). rewrite E in H1. cbn in H1.
    assert (H4 : Forall (fun sn => pmute (sn_fact sn)) t) by (eapply Forall_impl; [exact H1|]; cbn; intros sn; apply H2).
    apply Hput; [|apply pmute_checked; done|apply pmute_view; done]. intros ps E'. destruct (H3 ps). done. }
  destruct (h_impl h) as [a|p|i|j] eqn:Hi, cs as [hist|ps| |last]; try exact Hbad.
  - destruct (xa_handle _ _ _ _ _ _ _ _) as [[[g' hist'] t] r] eqn:E.
    eapply Hem; [apply xa_handle_emits|apply agg_pmute|exact E|done].
  - pose proof (xp_handle_ph obs o h p v0 env (es_g st) ps v Happ Hi Hs Hc (Hk h ps Happ El) Hv) as H.
    rewrite Hnow in H. destruct (xp_handle _ _ _ _ _ _ _ _) as [[[g' ps'] t] r]. destruct H as [H1 H2]. split; [done|].
    assert (Hm : forall w, pmoved h v0 w ps' -> prels c (<[h_name h := CSProc ps']> (es_cs st)) w /\ pv_now w = oo_now oo).
    { intros w (H3 & H4 & H5). split; [|congruence]. eapply prels_put; [done|done|exact Hk| |].
      - intros ps1 [= <-]. exact H3.
      - intros ps1 hd Hin Hne. apply H4; done. }
    destruct r as [[envs e]|w]; [intros env'|]; apply Hm; [apply H2|exact H2].
  - destruct (xi_handle _ _ _ _ _ _ _) as [[g' t] r] eqn:E.
    eapply Hem; [apply xi_handle_emits|apply int_pmute|exact E|done].
  - destruct (xj_handle _ _ _ _ _ _ _ _) as [[g' t] r] eqn:E.
    eapply Hem; [apply xj_handle_emits|apply prj_pmute|exact E|done].
Qed.

(** The facts that are no announcements. *)
Lemma pj_note obs oo f (I : list Seen -> EState -> Prop) :
  announces f = false -> no_find f ->
  (forall v st, I v st -> checked proc_chk v) ->
  (forall v st, I v st -> prels c (es_cs st) (proc_step (proc_view (effective v)) f) /\
     pv_now (proc_step (proc_view (effective v)) f) = oo_now oo) ->
  (forall v g g' cs, I v (mkE g cs) -> I v (mkE g' cs)) ->
  trip I (on_g (note obs f)) (fun v st r => PJ oo v st /\
    pv_pend (proc_view (effective v)) = pv_pend (proc_step (proc_view (effective (removelast v))) f)).
Proof.
  intros Ha Hnf H1 H2 H3. apply trip_on_g. intros cs. apply trip_note. intros v g sn g' r HI (Hs & _).
  rewrite removelast_last. unfold PJ, PJ0. rewrite (effective_snoc_true _ _ _ Hs Ha), proc_view_snoc.
  specialize (H2 _ _ (H3 _ _ g' _ HI)). cbn in H2.
  split; [|done]. split; [split; [eapply proc_chk_snoc; eauto|apply H2]|apply H2].
Qed.

Lemma prels_tick h oo st v0 ps :
  h ∈ c_app c -> hid_type (h_id h) = HTProcess -> prels c (es_cs st) v0 -> pv_now v0 = oo_now oo ->
  es_cs st !! h_name h = Some (CSProc ps) ->
  prels c (<[h_name h := CSProc (p_tick (oo_now oo) ps).1]> (es_cs st)) (proc_step v0 (TickBegun (h_id h))).
Proof.
  intros Happ Hty HR Hnow Hl. pose proof (HR h ps Happ Hl) as (H1 & H2 & H3 & H4).
  unfold proc_step. rewrite decide_True by done. unfold p_tick. rewrite (p_split_spec _ _ H3). cbn [fst].
  eapply prels_put; [done|done|exact HR| |].
  - intros ps1 [= <-]. split; [exact H1|]. cbn. rewrite put_same. split; [|split].
    + unfold later. rewrite H2, Hnow. done.
    + apply sorted_filter. done.
    + apply Forall_filter. exact H4.
  - intros ps1 hd _ Hne Hrel. unfold prel. cbn. rewrite put_other; [done|]. unfold h_id. congruence.
Qed.

(** Between TickBegun and the controller's Tick. *)
Definition PT1 (oo : OOs) (h : Handler) (v : list Seen) (st : EState) : Prop :=
  checked proc_chk v /\ exists v0, prels c (es_cs st) v0 /\ pv_now v0 = oo_now oo /\
    proc_view (effective v) = proc_step v0 (TickBegun (h_id h)).

Lemma proc_xinv : XInv x proc_chk PJ0 PJ.
Proof.
  constructor.
  - intros v st [H _]. exact H.
  - intros oo v st [H _]. exact H.
  - done.
  - done.
  - intros oo v st sn [[H1 H2] H3] Hf. unfold PJ, PJ0.
    rewrite (effective_snoc_true _ _ _ eq_refl) by (destruct (sn_fact sn); done). rewrite proc_view_snoc.
    split; [split|].
    + eapply proc_chk_snoc; [done|reflexivity|]. destruct (sn_fact sn); done.
    + eapply prels_ext; [| |exact H2]; destruct (sn_fact sn); try done; cbn; destruct (m_kind _); done.
    + destruct (sn_fact sn); try done; cbn; destruct (m_kind _); done.
  - intros oo v st o g' env sn [H1 H2] _ _ Hf. unfold PJ, PJ0. rewrite (effective_snoc_true _ _ _ Hf) by done.
    rewrite proc_view_snoc. split; [split|done].
    + eapply proc_chk_snoc; [done|exact Hf|done].
    + eapply prels_ext; [| |exact H2]; done.
  - intros oo v st sn [H1 H2] Hf. unfold PJ, PJ0. rewrite (effective_snoc_true _ _ _ Hf) by done.
    rewrite proc_view_snoc. split; [split|done].
    + eapply proc_chk_snoc; [done|exact Hf|done].
    + eapply prels_ext; [| |exact H2]; done.
  - intros obs o oo env h Hs Happ. unfold xe_handle.
    assert (Hn : forall f, announces f = false -> no_find f -> (forall v, exists p, proc_step v f = set_pend v p) ->
      trip (PJ oo) (on_g (note obs f)) (fun v st r => PJ oo v st /\
        pv_pend (proc_view (effective v)) = pv_pend (proc_step (proc_view (effective (removelast v))) f))).
    { intros f Ha Hf He. apply (pj_note _ _ _ (PJ oo)); [done|done|intros v st [[H _] _]; exact H| |done].
      intros v st [[_ H1] H2]. destruct (He (proc_view (effective v))) as [p ->]. split; [exact H1|exact H2]. }
    destruct (skip_handler h oo).
    + eapply trip_bnd; [apply Hn; [done|done|]|intros ?; apply trip_ret; intros; cbv beta in *; tauto|intros; cbv beta in *; tauto].
      intros v. exists (pv_pend v). destruct v; done.
    + eapply trip_bnd; [apply Hn; [done|done|intros v; exists None; done]|intros ?|intros; cbv beta in *; tauto].
      eapply trip_bnd; [eapply trip_conseq; [apply on_ctrl_pj; done| |intros; eassumption]| |].
      * intros v st [H1 H2]. split; [exact H1|]. rewrite H2. done.
      * intros [envs e]. eapply trip_bnd; [apply (pj_note _ oo _ (fun v st => PHE oo h v st (inl (envs, e))))| |].
        -- done.
        -- done.
        -- intros v st [H _]; exact H.
        -- intros v st [_ H]; apply H.
        -- intros v g g' cs H; exact H.
        -- intros ?. apply trip_ret. intros; cbv beta in *; tauto.
        -- intros; cbv beta in *; tauto.
      * intros v st w [H1 H2]. split; [split; [done|apply H2]|apply H2].
  - intros obs o oo h _ Happ. unfold xe_tick_one.
    assert (Hmute : forall v t st, PJ oo v st -> Forall (fun sn => pmute (sn_fact sn)) t -> PJ oo (v ++ t) st).
    { intros v t st [[H1 H2] H3] Ht. unfold PJ, PJ0. rewrite pmute_view by done.
      split; [split; [apply pmute_checked; done|done]|done]. }
    assert (Hnote : forall f, pmute f -> trip (PJ oo) (on_g (note obs f)) (fun v st _ => PJ oo v st)).
    { intros f Hf. apply trip_on_g. intros cs. apply trip_note. intros v g sn g' r HJ (<- & _).
      apply (Hmute v [sn]); [done|]. constructor; [done|constructor]. }
    destruct (skip_handler h oo).
    + eapply trip_bnd; [apply Hnote; done|intros ?; apply trip_ret; intros; cbv beta in *; tauto|intros; cbv beta in *; tauto].
    + eapply (trip_bnd _ (fun v st r => match r with inl _ => PT1 oo h v st | inr _ => PJ oo v st end));
        [|intros ?|intros; cbv beta iota in *; done].
      { apply trip_on_g. intros cs. apply trip_note. intros v g sn g' r [[H1 H2] H3] (Hs & _ & _ & ->).
        assert (Hc : checked proc_chk (v ++ [sn])) by (eapply proc_chk_snoc; [done|exact Hs|done]).
        destruct (sn_panic sn) as [w|] eqn:Ep; cbn.
        - unfold PJ, PJ0. rewrite (effective_snoc_failed _ _ _ _ Hs eq_refl Ep). done.
        - split; [done|]. exists (proc_view (effective v)). split; [done|]. split; [done|].
          rewrite (effective_snoc_ok _ _ _ Hs Ep), proc_view_snoc. done. }
      eapply (trip_bnd _ (fun v st _ => PJ oo v st)); [|intros [envs e]|intros; cbv beta in *; tauto].
      * intros v st (Hc & v0 & HR & Hnow & Hv). unfold on_ctrl.
        assert (Hnow' : pv_now (proc_view (effective v)) = oo_now oo).
        { rewrite Hv. cbn. destruct (decide _); done. }
        assert (Hnp : (forall ps, es_cs st !! h_name h <> Some (CSProc ps)) \/ hid_type (h_id h) <> HTProcess -> PJ oo v st).
        { intros Hn. split; [|done]. split; [done|]. rewrite Hv. unfold proc_step. destruct (decide _) as [Et|_]; [|done].
          intros hd ps Hin Hl. destruct (decide (h_name hd = h_name h)) as [E|E].
          - destruct Hn as [Hn|Hn]; [|done]. rewrite E in Hl. destruct (Hn _ Hl).
          - specialize (HR hd ps Hin Hl). unfold prel. cbn. rewrite put_other; [done|]. unfold h_id. congruence. }
        destruct (es_cs st !! h_name h) as [cs|] eqn:El; [|rewrite app_nil_r; apply Hnp; left; done].
        unfold xctrl_tick.
        assert (Hid : forall g', hid_type (h_id h) <> HTProcess \/ (forall ps, cs <> CSProc ps) ->
          PJ oo v (mkE g' (<[h_name h := cs]> (es_cs st)))).
        { intros g' Hn. rewrite insert_id by done. apply Hnp. destruct Hn as [Hn|Hn]; [right; done|left; congruence]. }
        destruct (h_impl h) eqn:Hi, cs as [hist|ps| |last]; try (rewrite app_nil_r; apply Hid; (right; done) || (left; cbn; unfold h_type; rewrite Hi; done)).
        -- assert (Hty : hid_type (h_id h) = HTProcess) by (cbn; unfold h_type; rewrite Hi; done).
           pose proof (prels_tick h oo st v0 ps Happ Hty HR Hnow El) as Ht.
           destruct (p_tick _ _) as [ps' ready]. rewrite app_nil_r. split; [|done]. split; [done|]. rewrite Hv. exact Ht.
        -- destruct (xj_tick _ _ _ _ _) as [[[g' last'] t] r] eqn:E. apply Hmute.
           ++ split; [|done]. split; [done|]. rewrite Hv. cbn [es_cs]. eapply prels_same; [done|done|exact HR|done| |];
                cbn; rewrite decide_False by (unfold h_type; rewrite Hi; done); done.
           ++ pose proof (xj_tick_emits x obs h (oo_now oo) (es_g st, last)) as He. rewrite E in He. cbn in He.
              eapply Forall_impl; [exact He|]. cbn. intros sn. apply prj_pmute.
      * eapply trip_bnd; [apply Hnote; done|intros ?|intros; cbv beta in *; tauto].
        eapply (trip_bnd _ (fun v st _ => PJ oo v st)); [|intros ?; apply trip_ret; intros; cbv beta in *; tauto|intros; cbv beta in *; tauto].
        unfold xpoll. apply trip_on_g. intros cs v g HJ. unfold poll_ctx. rewrite app_nil_r. exact HJ.
  - intros v st [_ H]. split; [apply checked_nil|]. intros hd ps Hin Hl. cbn in Hl. rewrite lookup_fmap in Hl.
    destruct (es_cs st !! h_name hd) as [[]|]; cbn in Hl; try discriminate Hl. injection Hl as <-.
    split; [|split; [done|split; constructor]]. intros i. cbn. rewrite lookup_empty. done.
Qed.

Lemma proc_xhistory u ops s evs rs :
  xhistory x u ops s evs rs ->
  prels c (es_cs s.1) (proc_view (effective (seen_since evs))) /\ (forall pre sn, happens evs pre sn -> proc_chk pre sn).
Proof.
  intros H. destruct (inv_history x _ _ _ proc_xinv u ops s evs rs H) as [[_ H1] H2]; [|done].
  split; [apply checked_nil|]. intros hd ps Hin Hl. pose proof (cs_init_lookup c u hd _ Hok Hin Hl) as Hc.
  unfold cs_init in Hc. destruct (h_impl hd); try discriminate Hc. injection Hc as ->.
  split; [|split; [done|split; constructor]]. intros i. cbn. rewrite lookup_empty. done.
Qed.
End ObsProc.
