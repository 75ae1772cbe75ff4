(** * Proofs: which events a projection is given. *)
From Verif Require Export World ProjCalls OpFacts.

Section Delivery.
Context {P : Params} (calls : U -> list Call).

(** ** Code that leaves the record alone *)
Lemma a_run_leaves o h a now cmd id p : a_leaves calls p -> forall g s g' s' fs v,
  a_run o h a now cmd id p g s = (g', s', fs, v) -> calls (g_user g') = calls (g_user g).
Proof.
  induction 1 as [|v0|f k Hf _ IH|f k _ IH|b k _ IH|k _ IH|str k _ IH]; intros g s g' s' fs v; cbn.
  - intros [= <- <- <- <-]. done.
  - intros [= <- <- <- <-]. done.
  - intros H. rewrite (IH _ _ _ _ _ _ _ H). apply Hf.
  - intros H. rewrite (IH _ _ _ _ _ _ _ H). done.
  - destruct (a_record o h a now cmd id b g s) as [[[g1 s1] fs1] v1] eqn:E1.
    destruct (a_run o h a now cmd id (k v1) g1 s1) as [[[g2 s2] fs2] v2] eqn:E2. intros [= <- <- <- <-].
    rewrite (IH _ _ _ _ _ _ _ E2). f_equal. clear -E1. revert E1. unfold a_record.
    destruct (produces _ _); cbn [negb]; [|intros [= <- _ _ _]; done].
    destruct (m_invalid _); [intros [= <- _ _ _]; done|].
    destruct (as_exists s); cbn; destruct (ag_apply a _ _) as [r1 v1']; destruct (enrich _ _ _ _ _); intros [= <- _ _ _]; done.
  - destruct (a_destroy _ _ _ _ _) as [s1 fs1]. destruct (a_run o h a now cmd id k g s1) as [[[g2 s2] fs2] v2] eqn:E2.
    intros [= <- <- <- <-]. eapply IH. exact E2.
  - destruct (a_run o h a now cmd id k g s) as [[[g2 s2] fs2] v2] eqn:E2. intros [= <- <- <- <-]. eapply IH. exact E2.
Qed.
Lemma p_run_leaves o h now cmd id meth p : p_leaves calls p -> forall g s g' s' fs v,
  p_run o h now cmd id meth p g s = (g', s', fs, v) -> calls (g_user g') = calls (g_user g).
Proof.
  induction 1 as [e|v0|f k Hf _ IH|f k _ IH|b k _ IH|b t k _ IH|k _ IH|str k _ IH]; intros g s g' s' fs v; cbn.
  - intros [= <- <- <- <-]. done.
  - intros [= <- <- <- <-]. done.
  - intros H. rewrite (IH _ _ _ _ _ _ _ H). apply Hf.
  - intros H. rewrite (IH _ _ _ _ _ _ _ H). done.
  - destruct (p_execute o h now cmd id meth b g s) as [[[g1 s1] fs1] v1] eqn:E1.
    destruct (p_run o h now cmd id meth (k v1) g1 s1) as [[[g2 s2] fs2] v2] eqn:E2. intros [= <- <- <- <-].
    rewrite (IH _ _ _ _ _ _ _ E2). f_equal. clear -E1. revert E1. unfold p_execute.
    destruct (p_check _ _ _ _); [intros [= <- _ _ _]; done|].
    destruct (p_revert _ _ _ _). cbn. intros [= <- _ _ _]; done.
  - destruct (p_schedule o h now cmd id meth b t g s) as [[[g1 s1] fs1] v1] eqn:E1.
    destruct (p_run o h now cmd id meth (k v1) g1 s1) as [[[g2 s2] fs2] v2] eqn:E2. intros [= <- <- <- <-].
    rewrite (IH _ _ _ _ _ _ _ E2). f_equal. clear -E1. revert E1. unfold p_schedule.
    destruct (p_check _ _ _ _); [intros [= <- _ _ _]; done|].
    destruct (p_revert _ _ _ _). cbn. intros [= <- _ _ _]; done.
  - destruct (p_end _ _ _ _) as [s1 fs1]. destruct (p_run o h now cmd id meth k g s1) as [[[g2 s2] fs2] v2] eqn:E2.
    intros [= <- <- <- <-]. eapply IH. exact E2.
  - destruct (p_run o h now cmd id meth k g s) as [[[g2 s2] fs2] v2] eqn:E2. intros [= <- <- <- <-]. eapply IH. exact E2.
Qed.
Lemma i_run_leaves o h now cmd p : i_leaves calls p -> forall g s g' s' fs v,
  i_run o h now cmd p g s = (g', s', fs, v) -> calls (g_user g') = calls (g_user g).
Proof.
  induction 1 as [e|v0|f k Hf _ IH|b k _ IH|str k _ IH]; intros g s g' s' fs v; cbn.
  - intros [= <- <- <- <-]. done.
  - intros [= <- <- <- <-]. done.
  - intros H. rewrite (IH _ _ _ _ _ _ _ H). apply Hf.
  - destruct (i_record o h now cmd b g s) as [[[g1 s1] fs1] v1] eqn:E1.
    destruct (i_run o h now cmd (k v1) g1 s1) as [[[g2 s2] fs2] v2] eqn:E2. intros [= <- <- <- <-].
    rewrite (IH _ _ _ _ _ _ _ E2). f_equal. clear -E1. revert E1. unfold i_record.
    destruct (produces _ _); cbn [negb]; [|intros [= <- _ _ _]; done].
    destruct (m_invalid _); [intros [= <- _ _ _]; done|]. cbn. intros [= <- _ _ _]; done.
  - destruct (i_run o h now cmd k g s) as [[[g2 s2] fs2] v2] eqn:E2. intros [= <- <- <- <-]. eapply IH. exact E2.
Qed.
Lemma j_run_leaves {A} th hid ev (p : JProg A) : j_leaves calls p -> forall g g' fs r,
  j_run th hid ev p g = (g', fs, r) -> calls (g_user g') = calls (g_user g).
Proof.
  induction 1 as [a|v|f k Hf _ IH|s k _ IH]; intros g g' fs r; cbn.
  - intros [= <- <- <-]. done.
  - intros [= <- <- <-]. done.
  - intros H. rewrite (IH _ _ _ _ _ H). apply Hf.
  - destruct (j_run th hid ev k g) as [[g1 fs1] r1] eqn:E. intros [= <- <- <-]. eapply IH. exact E.
Qed.
Lemma j_par_leaves o hid ev {A B} (m : JProg A) : j_leaves calls m -> forall (c : JProg B), j_leaves calls c -> forall g g' fs r,
  j_par o hid ev m c g = (g', fs, r) -> calls (g_user g') = calls (g_user g).
Proof.
  intros Hm. pose proof Hm as Hm0. induction Hm as [a|v|f k Hf Hk IH|s k Hk IH]; intros c Hc; pose proof Hc as Hc0;
    induction Hc as [b|w|f' k' Hf' Hk' IH'|s' k' Hk' IH']; intros g g' fs r.
  1-4: cbn -[j_run]; match goal with |- context [j_run TCompact ?x1 ?x2 ?x3 ?x4] =>
      destruct (j_run TCompact x1 x2 x3 x4) as [[g1 fs1] r1] eqn:E end;
    intros [= <- <- <-]; eapply j_run_leaves; [|exact E]; exact Hc0.
  1,5,9: cbn -[j_run]; match goal with |- context [j_run TMain ?x1 ?x2 ?x3 ?x4] =>
      destruct (j_run TMain x1 x2 x3 x4) as [[g1 fs1] r1] eqn:E end;
    intros [= <- <- <-]; eapply j_run_leaves; [|exact E]; exact Hm0.
  all: cbn -[j_run]; destruct (o_sched o (g_step g)).
  all: try (intros [= <- <- <-]; done).
  all: try (match goal with |- (let '(_, _) := ?t in _) = _ -> _ => destruct t as [[g2 fs2] r2] eqn:E end;
    intros [= <- <- <-]; rewrite (IH Hk _ Hc0 _ _ _ _ E); done).
  all: try (intros H; rewrite (IH _ (Hk _) _ Hc0 _ _ _ _ H); apply Hf).
  all: try (match goal with |- (let '(_, _) := ?t in _) = _ -> _ => destruct t as [[g2 fs2] r2] eqn:E end;
    intros [= <- <- <-]; rewrite (IH' Hk' _ _ _ _ E); done).
  all: intros H; rewrite (IH' _ (Hk' _) _ _ _ _ H); apply Hf'.
Qed.

Lemma p_handle_leaves o h pi now env g ps g' ps' fs r : impl_leaves calls (ImplProc pi) ->
  p_handle o h pi now env g ps = (g', ps', fs, r) -> calls (g_user g') = calls (g_user g).
Proof.
  intros (Hr & He & Ht). unfold p_handle. destruct (consumes _ _); cbn [negb]; [|intros [= <- _ _ _]; done].
  destruct (p_route h pi env g ps) as [[g1 fs1] rt] eqn:Er.
  assert (Hg1 : calls (g_user g1) = calls (g_user g)).
  { revert Er. unfold p_route. destruct (m_kind (e_msg env)).
    - intros [= <- _ _]. done.
    - pose proof (Hr (e_msg env) (g_user g)) as Hu. destruct (pr_route pi (e_msg env) (g_user g)) as [u x]. cbn in Hu.
      destruct x as [[[id [|]] [e|]]|v]; try destruct (decide (id = "")); intros [= <- _ _]; done.
    - destruct (e_origin env); [|intros [= <- _ _]; done].
      destruct (pc_instances ps !! _); intros [= <- _ _]; done. }
  assert (Hinst : forall id r0 ps1 g2 ps2 fs2 res, p_handle_instance o h pi now env id r0 g1 ps1 = (g2, ps2, fs2, res) ->
    calls (g_user g2) = calls (g_user g)).
  { intros id r0 ps1 g2 ps2 fs2 res. unfold p_handle_instance.
    set (mp := match m_kind (e_msg env) with KTimeout => _ | _ => _ end).
    assert (Hmp : p_leaves calls mp.2) by (unfold mp; destruct (m_kind (e_msg env)); [apply He|apply He|apply Ht]).
    destruct mp as [meth prog]. cbn in Hmp. destruct (p_run _ _ _ _ _ _ _ _ _) as [[[g3 s3] fs3] r3] eqn:E.
    intros H. assert (g2 = g3) as -> by (destruct r3 as [[e|]|v]; [| destruct (ps_ended s3) |]; injection H; done).
    rewrite <- Hg1. eapply p_run_leaves; eassumption. }
  destruct rt as [id| |e|v]; try (intros [= <- _ _ _]; done).
  destruct (pc_instances ps !! id).
  - destruct (p_handle_instance _ _ _ _ _ _ _ _ _) as [[[g2 ps2] fs2] res] eqn:E. intros [= <- _ _ _]. eapply Hinst. exact E.
  - destruct (pr_new pi); [|intros [= <- _ _ _]; done].
    destruct (p_handle_instance _ _ _ _ _ _ _ _ _) as [[[g2 ps2] fs2] res] eqn:E. intros [= <- _ _ _]. eapply Hinst. exact E.
Qed.

Lemma j_handle_leaves o cd h j now env g g' fs r : impl_leaves calls (ImplProj j) ->
  j_handle o cd h j now env g = (g', fs, r) -> calls (g_user g') = calls (g_user g).
Proof.
  intros (Hv & Hh & Hc & Hk). unfold j_handle, j_handle_threads. destruct (consumes _ _); cbn [negb]; [|intros [= <- _ _]; done].
  pose proof (Hv (e_id env) (g_user g)) as H1. destruct (pj_version j (e_id env) (g_user g)) as [u1 a1]. cbn in H1.
  destruct a1 as [[cur [e|]]|v]; try (intros [= <- _ _]; exact H1).
  destruct (decide (cur = "")) as [Hcur|Hcur]; [|intros [= <- _ _]; exact H1].
  destruct (j_apply _ _ _ _ _ _ _) as [[g2 fs2] r2] eqn:Ea.
  assert (H2 : calls (g_user g2) = calls (g_user g)).
  { rewrite <- H1. revert Ea. unfold j_apply. destruct cd.
    - destruct (j_par _ _ _ _ _ _) as [[g3 fs3] r3] eqn:Ep. intros H.
      assert (g2 = g3) as -> by (destruct r3 as [[[? ?] ?]|?]; injection H; done).
      eapply (j_par_leaves _ _ _ _ (Hh _ _ _ _ _) _ (Hk _)) in Ep. exact Ep.
    - destruct (j_run _ _ _ _ _) as [[g3 fs3] r3] eqn:Ep. intros H.
      assert (g2 = g3) as -> by (destruct r3 as [[? ?]|?]; injection H; done).
      eapply (j_run_leaves _ _ _ _ (Hh _ _ _ _ _)) in Ep. exact Ep. }
  destruct r2 as [[[ok [e|]] ce]|v]; try (intros [= <- _ _]; exact H2).
  destruct ok; [|intros [= <- _ _]; exact H2].
  pose proof (Hc (e_id env) (g_user g2)) as H3. destruct (pj_close j (e_id env) (g_user g2)) as [u3 a3]. cbn in H3.
  rewrite H2 in H3. destruct a3 as [[e|]|v]; intros [= <- _ _]; exact H3.
Qed.

Lemma ctrl_handle_leaves c o h now env g cs g' cs' fs r : impl_leaves calls (h_impl h) ->
  ctrl_handle c o h now env g cs = (g', cs', fs, r) -> calls (g_user g') = calls (g_user g).
Proof.
  unfold ctrl_handle. destruct (h_impl h) as [a|pi|i|j], cs as [hist|ps| |last]; intros Hi; try (intros [= <- _ _ _]; done).
  - destruct (a_handle _ _ _ _ _ _ _) as [[[g1 h1] fs1] r1] eqn:E. intros [= <- _ _ _].
    apply a_handle_cases in E. destruct E as [|? ? ? ? ? ? ? ? ? _ _ _ _ _ _ _ Hrun]; [done|].
    eapply a_run_leaves; [|exact Hrun]. apply Hi.
  - destruct (p_handle _ _ _ _ _ _ _) as [[[g1 h1] fs1] r1] eqn:E. intros [= <- _ _ _]. eapply p_handle_leaves; eassumption.
  - destruct (i_handle _ _ _ _ _ _) as [[g1 fs1] r1] eqn:E. intros [= <- _ _ _].
    apply i_handle_cases in E. destruct E as [|? ? ? ? _ Hrun]; [done|]. eapply i_run_leaves; [|exact Hrun]. apply Hi.
  - destruct (j_handle _ _ _ _ _ _ _) as [[g1 fs1] r1] eqn:E. intros [= <- _ _ _]. eapply j_handle_leaves; eassumption.
Qed.

Lemma ctrl_tick_leaves h now g cs g' cs' fs r : impl_leaves calls (h_impl h) ->
  ctrl_tick h now g cs = (g', cs', fs, r) -> calls (g_user g') = calls (g_user g).
Proof.
  unfold ctrl_tick. destruct (h_impl h) as [a|pi|i|j], cs as [hist|ps| |last]; intros Hi; try (intros [= <- _ _ _]; done).
  - destruct (p_tick now ps) as [ps1 rd]. intros [= <- _ _ _]. done.
  - unfold j_tick_ctrl. destruct (compact_interval <=? now - last)%Z; [|intros [= <- _ _ _]; done].
    destruct (j_run _ _ _ _ _) as [[g1 fs1] r1] eqn:E. destruct Hi as (_ & _ & _ & Hk).
    eapply j_run_leaves in E; [|apply Hk]. destruct r1; intros [= <- _ _ _]; done.
Qed.
End Delivery.
