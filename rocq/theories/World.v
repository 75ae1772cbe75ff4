(** * The user's world during operations. *)
From Verif Require Export DeliverySpec StoreSim.

Section World.
Context {P : Params} (c : Config) (Hok : app_ok c).
(** [W u fs u']: what happens to the world while these facts are notified. *)
Context (W : U -> list Fact -> U -> Prop).

Record WorldOK : Prop := {
  w_nil : forall u, W u [] u;
  w_app : forall u fs u' fs' u'', W u fs u' -> W u' fs' u'' -> W u (fs ++ fs') u'';
  w_fact : forall u f, fact_owner f = None -> (forall h e, f <> HandlingBegun h e) -> W u [f] u;
  w_handle : forall o h now env g cs g' cs' fs r, h ∈ c_app c -> cs_match h cs ->
    ctrl_handle c o h now env g cs = (g', cs', fs, r) ->
    W (g_user g) (HandlingBegun (h_id h) env :: fs) (g_user g');
  w_tick : forall h now g cs g' cs' fs r, h ∈ c_app c -> cs_match h cs ->
    ctrl_tick h now g cs = (g', cs', fs, r) -> W (g_user g) fs (g_user g') }.

Context (K : WorldOK).
Notation usr st := (g_user (es_g st)).

Lemma w_cons u f fs u' : fact_owner f = None -> (forall h e, f <> HandlingBegun h e) -> W u fs u' -> W u (f :: fs) u'.
Proof. intros H1 H2 H. change (f :: fs) with ([f] ++ fs). eapply (w_app K); [apply (w_fact K); done|exact H]. Qed.
Lemma w_snoc u f fs u' : fact_owner f = None -> (forall h e, f <> HandlingBegun h e) -> W u fs u' -> W u (fs ++ [f]) u'.
Proof. intros H1 H2 H. eapply (w_app K); [exact H|apply (w_fact K); done]. Qed.

Lemma world_handle o oo env h st st' fs r : st_ok c st -> h ∈ c_app c ->
  e_handle c o oo env (Some h) st = (st', fs, r) -> st_ok c st' /\ W (usr st) fs (usr st').
Proof.
  intros Hst Hin. cbn [e_handle]. destruct (skip_handler h oo) as [rs|].
  { intros [= <- <- <-]. split; [done|]. apply (w_fact K); done. }
  destruct (Hst h Hin) as (cs & Ecs & Hm). rewrite Ecs.
  destruct (ctrl_handle c o h (oo_now oo) env (es_g st) cs) as [[[g' cs'] fs'] r'] eqn:Ec.
  pose proof (ctrl_handle_match _ _ _ _ _ _ _ _ _ _ _ Hm Ec) as Hm'.
  pose proof (w_handle K _ _ _ _ _ _ _ _ _ _ Hin Hm Ec) as HW.
  destruct r' as [envs e|v]; intros [= <- <- <-]; (split; [apply st_ok_update; done|]); cbn [es_g]; [|exact HW].
  change (HandlingBegun (h_id h) env :: fs' ++ [HandlingCompleted (h_id h) env e])
    with ((HandlingBegun (h_id h) env :: fs') ++ [HandlingCompleted (h_id h) env e]).
  apply w_snoc; done.
Qed.

Lemma world_handlers o oo env hs : (forall h, Some h ∈ hs -> h ∈ c_app c) -> forall st st' fs r, st_ok c st ->
  e_handlers c o oo env hs st = (st', fs, r) -> st_ok c st' /\ W (usr st) fs (usr st').
Proof.
  induction hs as [|oh hs IH]; intros Hin st st' fs r Hst; cbn [e_handlers].
  { intros [= <- <- <-]. split; [done|]. apply (w_nil K). }
  destruct (e_handle c o oo env oh st) as [[st1 fs1] r1] eqn:E1.
  assert (H1 : st_ok c st1 /\ W (usr st) fs1 (usr st1)).
  { destruct oh as [h|]; [eapply world_handle; [done|apply Hin; left|exact E1]|].
    injection E1 as <- <- <-. split; [done|]. apply (w_nil K). }
  destruct H1 as [Hst1 HW1]. destruct r1 as [envs e|v]; [|intros [= <- <- <-]; done].
  destruct (e_handlers c o oo env hs st1) as [[st2 fs2] r2] eqn:E2.
  destruct (IH ltac:(intros h Hh; apply Hin; right; exact Hh) _ _ _ _ Hst1 E2) as [Hst2 HW2].
  destruct r2 as [[envs' errs']|v]; intros [= <- <- <-]; (split; [done|]); eapply (w_app K); eassumption.
Qed.

Lemma world_message o oo env st st' fs r : st_ok c st ->
  e_message c o oo env st = (st', fs, r) -> st_ok c st' /\ W (usr st) fs (usr st').
Proof.
  intros Hst. unfold e_message. destruct (targets c env) as [hs|] eqn:Et.
  2:{ intros [= <- <- <-]. split; [done|]. apply (w_nil K). }
  destruct (e_handlers c o oo env hs st) as [[st1 fs1] r1] eqn:E1.
  destruct (world_handlers _ _ _ _ (fun h => targets_in _ _ _ h Et) _ _ _ _ Hst E1) as [Hst1 HW1].
  destruct r1 as [[envs derr]|v]; intros [= <- <- <-]; (split; [done|]); apply w_cons; try done.
  apply w_snoc; done.
Qed.

Lemma world_loop o oo fuel : forall q err st st' fs r, st_ok c st ->
  e_loop c o oo fuel q err st = (st', fs, r) -> st_ok c st' /\ W (usr st) fs (usr st').
Proof.
  induction fuel as [|fuel IH]; intros q err st st' fs r Hst; destruct q as [|env q]; cbn [e_loop];
    try (intros [= <- <- <-]; split; [done|]; apply (w_nil K)).
  destruct (e_message c o oo env st) as [[st1 fs1] r1] eqn:E1.
  destruct (world_message _ _ _ _ _ _ _ Hst E1) as [Hst1 HW1].
  destruct r1 as [[envs derr]|v]; [|intros [= <- <- <-]; done].
  destruct (poll_ctx o (es_g st1)) as [g ce] eqn:Ep.
  assert (Hg : g_user g = usr st1) by (injection Ep as <- _; done).
  assert (Hst1' : st_ok c (es_set_g st1 g)) by exact Hst1.
  destruct ce as [e|]; [intros [= <- <- <-]; split; [done|]; cbn; rewrite Hg; done|].
  destruct (e_loop c o oo fuel (q ++ envs) (err ++ derr) (es_set_g st1 g)) as [[st2 fs2] r2] eqn:E2.
  destruct (IH _ _ _ _ _ _ Hst1' E2) as [Hst2 HW2]. intros [= <- <- <-]. split; [done|].
  cbn in HW2. rewrite Hg in HW2. eapply (w_app K); eassumption.
Qed.

Lemma world_dispatch o fuel m opts st st' fs r : st_ok c st ->
  e_dispatch c o fuel m opts st = (st', fs, r) -> st_ok c st' /\ W (usr st) fs (usr st').
Proof.
  intros Hst. unfold e_dispatch. destruct (next_id o (es_g st)) as [g id] eqn:En.
  assert (Hg : g_user g = usr st) by (injection En as <- _; done).
  assert (Hst1 : st_ok c (es_set_g st g)) by exact Hst.
  assert (Hnil : W (usr st) [] (usr (es_set_g st g))) by (cbn; rewrite Hg; apply (w_nil K)).
  destruct (new_opts c (o_wall o) opts) as [oo|v]; [|intros [= <- <- <-]; done].
  assert (Hmain :
    match m_invalid m with
    | Some _ => (es_set_g st g, [], Pan (PEngine "cannot dispatch invalid message" (Some m)))
    | None =>
        match routes c !! m_type m with
        | Some _ =>
            let f := DispatchCycleBegun (new_root id m (oo_now oo)) (oo_now oo) (oo_types oo) (oo_handlers oo) in
            let '(g0, le) := lock o (es_g (es_set_g st g)) in
            let st0 := es_set_g (es_set_g st g) g0 in
            match le with
            | Some e => (st0, [f; DispatchCycleCompleted (new_root id m (oo_now oo)) [e] (oo_types oo) (oo_handlers oo)], Ok [e])
            | None =>
                let '(st1, fs0, r0) := e_loop c o oo fuel [new_root id m (oo_now oo)] [] st0 in
                match r0 with
                | Ok err => (st1, f :: fs0 ++ [DispatchCycleCompleted (new_root id m (oo_now oo)) err (oo_types oo) (oo_handlers oo)], Ok err)
                | _ => (st1, f :: fs0, r0)
                end
            end
        | None => (es_set_g st g, [], Pan (PEngine "not consumed by any handlers" (Some m)))
        end
    end = (st', fs, r) -> st_ok c st' /\ W (usr st) fs (usr st')).
  { destruct (m_invalid m); [intros [= <- <- <-]; done|]. destruct (routes c !! m_type m); [|intros [= <- <- <-]; done].
    cbv zeta. destruct (lock o (es_g (es_set_g st g))) as [g0 le] eqn:El.
    assert (Hg0 : g_user g0 = usr st) by (injection El as <- _; exact Hg).
    assert (Hst2 : st_ok c (es_set_g (es_set_g st g) g0)) by exact Hst.
    destruct le as [e|].
    { intros [= <- <- <-]. split; [done|]. cbn. rewrite Hg0. apply w_cons; [done|done|]. apply (w_fact K); done. }
    destruct (e_loop _ _ _ _ _ _ _) as [[st1 fs1] r1] eqn:E1.
    destruct (world_loop _ _ _ _ _ _ _ _ _ Hst2 E1) as [Hst3 HW]. cbn in HW. rewrite Hg0 in HW.
    destruct r1; intros [= <- <- <-]; (split; [done|]); apply w_cons; try done. apply w_snoc; done. }
  destruct (m_kind m); [exact Hmain|exact Hmain|intros [= <- <- <-]; done].
Qed.

Lemma world_tick_handlers o oo hs : (forall h, h ∈ hs -> h ∈ c_app c) -> forall st st' fs r, st_ok c st ->
  e_tick_handlers c o oo hs st = (st', fs, r) -> st_ok c st' /\ W (usr st) fs (usr st').
Proof.
  induction hs as [|h hs IH]; intros Hin st st' fs r Hst; cbn [e_tick_handlers].
  { intros [= <- <- <-]. split; [done|]. apply (w_nil K). }
  destruct (e_tick_one c o oo h st) as [[st1 fs1] r1] eqn:E1.
  assert (H1 : st_ok c st1 /\ W (usr st) fs1 (usr st1)).
  { revert E1. unfold e_tick_one. destruct (skip_handler h oo) as [rs|].
    { intros [= <- <- <-]. split; [done|]. apply (w_fact K); done. }
    destruct (Hst h (Hin h ltac:(left))) as (cs & Ecs & Hm). rewrite Ecs.
    destruct (ctrl_tick h (oo_now oo) (es_g st) cs) as [[[g' cs'] fs'] r'] eqn:Ec.
    pose proof (ctrl_tick_match _ _ _ _ _ _ _ _ Hm Ec) as Hm'.
    assert (Hin1 : h ∈ c_app c) by (apply Hin; left).
    pose proof (w_tick K _ _ _ _ _ _ _ _ Hin1 Hm Ec) as HW.
    destruct r' as [envs e|v]; intros [= <- <- <-]; (split; [apply st_ok_update; done|]); cbn [es_g]; apply w_cons; try done.
    apply w_snoc; done. }
  destruct H1 as [Hst1 HW1]. destruct r1 as [envs e|v]; [|intros [= <- <- <-]; done].
  destruct (poll_unless_skipped o oo h st1) as [st2 ce] eqn:Ep.
  assert (Hg : st_ok c st2 /\ usr st2 = usr st1).
  { revert Ep. unfold poll_unless_skipped. destruct (skip_handler h oo); intros [= <- _]; done. }
  destruct Hg as [Hst2 Hg]. rewrite <- Hg in HW1.
  destruct ce as [e0|]; [intros [= <- <- <-]; done|].
  destruct (e_tick_handlers c o oo hs st2) as [[st3 fs3] r3] eqn:E3.
  destruct (IH ltac:(intros h' Hh; apply Hin; right; exact Hh) _ _ _ _ Hst2 E3) as [Hst3 HW3].
  intros [= <- <- <-]. split; [done|]. eapply (w_app K); eassumption.
Qed.

Lemma world_tick o fuel order opts st st' fs r : st_ok c st -> (forall h, h ∈ order -> h ∈ c_app c) ->
  e_tick c o fuel order opts st = (st', fs, r) -> st_ok c st' /\ W (usr st) fs (usr st').
Proof.
  intros Hst Hin. unfold e_tick. destruct (new_opts c (o_wall o) opts) as [oo|v].
  2:{ intros [= <- <- <-]. split; [done|]. apply (w_nil K). }
  destruct (lock o (es_g st)) as [g0 le] eqn:El.
  assert (Hg0 : g_user g0 = usr st) by (injection El as <- _; done).
  assert (Hst1 : st_ok c (es_set_g st g0)) by exact Hst.
  destruct le as [e|].
  { intros [= <- <- <-]. split; [done|]. cbn. rewrite Hg0. apply w_cons; [done|done|]. apply (w_fact K); done. }
  destruct (e_tick_body _ _ _ _ _ _) as [[st1 fs1] r1] eqn:E1.
  assert (HB : st_ok c st1 /\ W (usr st) fs1 (usr st1)).
  { revert E1. unfold e_tick_body.
    destruct (e_tick_handlers c o oo order (es_set_g st g0)) as [[st2 fs2] r2] eqn:E2.
    destruct (world_tick_handlers _ _ _ Hin _ _ _ _ Hst1 E2) as [Hst2 HW2]. cbn in HW2. rewrite Hg0 in HW2.
    destruct r2 as [q errs|e|v]; [|intros [= <- <- <-]; done|intros [= <- <- <-]; done].
    destruct (e_loop c o oo fuel q [] st2) as [[st3 fs3] r3] eqn:E3.
    destruct (world_loop _ _ _ _ _ _ _ _ _ Hst2 E3) as [Hst3 HW3].
    intros [= <- <- <-]. split; [done|]. eapply (w_app K); eassumption. }
  destruct HB as [HB1 HB2].
  destruct r1; intros [= <- <- <-]; (split; [done|]); apply w_cons; try done. apply w_snoc; done.
Qed.

Lemma world_op op st st' evs r : st_ok c st -> op_ok c op -> run_op c op st = (st', evs, r) ->
  st_ok c st' /\
  match op with
  | OpReset => evs = [EvReset] /\ usr st' = foldl (fun u f => f u) (usr st) (c_resetters c)
  | OpUser f => evs = [] /\ usr st' = f (usr st)
  | _ => exists fs, evs = EvFact <$> fs /\ W (usr st) fs (usr st')
  end.
Proof.
  intros Hst Hop. destruct op as [o fuel m opts|o fuel order opts| |f]; cbn [run_op].
  - destruct (e_dispatch _ _ _ _ _ _) as [[st1 fs1] r1] eqn:E. intros [= <- <- <-].
    destruct (world_dispatch _ _ _ _ _ _ _ _ Hst E). split; [done|]. eauto.
  - destruct (e_tick _ _ _ _ _ _) as [[st1 fs1] r1] eqn:E. intros [= <- <- <-].
    destruct Hop as [_ Hperm].
    destruct (world_tick _ _ _ _ _ _ _ _ Hst (fun h => proj1 (elem_of_Permutation_proper _ _ _ Hperm)) E) as [H1 H2].
    split; [done|]. eauto.
  - intros [= <- <- <-]. split; [apply e_reset_ok; done|]. done.
  - intros [= <- <- <-]. split; [done|]. done.
Qed.
End World.
