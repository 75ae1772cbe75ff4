(** * Proofs about Reset and the functions it calls. *)
From Verif Require Import ResetSpec ObsLemmas.

Section ResetProof.
Context {P : Params}.

Lemma run_resets_spec fns u u' v : run_resets fns u = (u', v) -> exists n, called_in_order fns u n u' v.
Proof.
  revert u. induction fns as [|fn fns IH]; intros u; cbn.
  - intros [= <- <-]. exists 0. constructor.
  - destruct (fn u) as [u1 [w|]] eqn:E.
    + intros [= <- <-]. exists 1. by constructor.
    + intros H. destruct (IH _ H) as [n Hn]. exists (S n). by econstructor.
Qed.

Lemma called_len fns u n u' v : called_in_order fns u n u' v -> n <= length fns /\ (v = None -> n = length fns).
Proof.
  induction 1 as [| |? ? ? ? ? ? ? ? ? IH]; cbn; [done| |]; [split; [lia|done]|].
  destruct IH as [H1 H2]. split; [lia|]. intros Hv. specialize (H2 Hv). lia.
Qed.

Lemma reset_lemma x st s' evs r :
  xrun_op x OpReset (st, false) = (s', evs, r) ->
  evs = [XReset] /\ s'.2 = false /\ g_next (es_g s'.1) = 0%N /\
  (forall n cs, es_cs st !! n = Some cs -> exists cs', es_cs s'.1 !! n = Some cs' /\ forgotten cs cs') /\
  (forall n, es_cs st !! n = None -> es_cs s'.1 !! n = None) /\
  exists n v, called_in_order (x_resets x) (g_user (es_g st)) n (g_user (es_g s'.1)) v /\
    n <= length (x_resets x) /\ (v = None -> n = length (x_resets x)) /\
    r = match v with None => inl (RDone []) | Some v => inr v end.
Proof.
  cbn [xrun_op]. unfold xe_reset. destruct (run_resets (x_resets x) (g_user (es_g st))) as [u v] eqn:E.
  intros H0. assert (H : ((mkE (mkG 0 u (g_step (es_g st))) (cs_reset <$> es_cs st), false) : EState * bool, [XReset],
     match v with None => inl (RDone []) | Some v => inr v end) = (s', evs, r)) by (destruct v; exact H0).
  clear H0. injection H as <- <- <-. cbn [fst snd es_g es_cs g_next g_user].
  split; [done|]. split; [done|]. split; [done|]. split; [|split].
  - intros n cs Hn. exists (cs_reset cs). rewrite lookup_fmap, Hn. split; [done|]. destruct cs; cbn; [|split; [done|]|done|done];
      intros i; apply lookup_empty.
  - intros n Hn. by rewrite lookup_fmap, Hn.
  - destruct (run_resets_spec _ _ _ _ E) as [n Hn]. exists n, v. destruct (called_len _ _ _ _ _ Hn). done.
Qed.

Lemma called_unique fns u n u' v : called_in_order fns u n u' v -> run_resets fns u = (u', v).
Proof. induction 1 as [|? ? ? ? ? H|? ? ? ? ? ? ? H _ IH]; cbn; [done| |]; rewrite H; done. Qed.

(** All functions but Reset do not depend on the resetters. *)
Lemma bnd_ext {S A B} (m m' : M S A) (k k' : A -> M S B) :
  (forall s, m s = m' s) -> (forall a s, k a s = k' a s) -> forall s, bnd m k s = bnd m' k' s.
Proof. intros Hm Hk s. unfold bnd. rewrite Hm. destruct (m' s) as [[s1 t] [a|v]]; [|done]. by rewrite Hk. Qed.
Lemma fst_ext {S T A} (m m' : M S A) : (forall s, m s = m' s) -> forall s, @fst_do P S T A m s = fst_do m' s.
Proof. intros Hm [s t]. cbn. by rewrite Hm. Qed.

Section Same.
Context (x : XApp) (fns : list (U -> U * option PVal)).
Notation y := (with_resets x fns).
Lemma handlers_same obs o oo env hs : forall s, xe_handlers y obs o oo env hs s = xe_handlers x obs o oo env hs s.
Proof.
  induction hs as [|h hs IH]; intros s; [done|]. cbn [xe_handlers]. apply bnd_ext; [done|]. intros [envs e] s1.
  apply bnd_ext; [apply IH|done].
Qed.
Lemma message_same obs o oo env : forall s, xe_message y obs o oo env s = xe_message x obs o oo env s.
Proof.
  intros s. unfold xe_message. change (x_cfg y) with (x_cfg x). destruct (targets _ _); [|done].
  apply bnd_ext; [done|]. intros [] s1. apply bnd_ext; [apply handlers_same|done].
Qed.
Lemma loop_same obs o oo fuel : forall q err s, xe_loop y obs o oo fuel q err s = xe_loop x obs o oo fuel q err s.
Proof.
  induction fuel as [|fuel IH]; intros [|env q] err s; try done. cbn [xe_loop].
  apply bnd_ext; [apply message_same|]. intros [envs derr] s1. apply bnd_ext; [done|]. intros [e|] s2; [done|]. apply IH.
Qed.
Lemma tick_handlers_same obs o oo hs : forall s, xe_tick_handlers y obs o oo hs s = xe_tick_handlers x obs o oo hs s.
Proof.
  induction hs as [|h hs IH]; intros s; [done|]. cbn [xe_tick_handlers]. apply bnd_ext; [done|].
  intros [[envs e] [ce|]] s1; [done|]. apply bnd_ext; [apply IH|done].
Qed.
Lemma tick_body_same obs o oo fuel order : forall s, xe_tick_body y obs o oo fuel order s = xe_tick_body x obs o oo fuel order s.
Proof.
  intros s. unfold xe_tick_body. apply bnd_ext; [apply tick_handlers_same|]. intros [[q errs]|e] s1; [|done].
  apply bnd_ext; [apply loop_same|done].
Qed.
Lemma rest_same (m m' : M EState (option Errs)) (f : option Errs -> M (EState * bool) XRes) :
  (forall s, m s = m' s) -> forall s, unlocking (bnd (@fst_do P _ bool _ m) f) s = unlocking (bnd (fst_do m') f) s.
Proof. intros Hm s. unfold unlocking. by rewrite (bnd_ext _ (fst_do m') _ f (fst_ext _ _ Hm) (fun _ _ => eq_refl)). Qed.
Lemma dispatch_same o fuel m opts s : xe_dispatch y o fuel m opts s = xe_dispatch x o fuel m opts s.
Proof.
  unfold xe_dispatch. apply bnd_ext; [done|]. intros id s1. change (x_cfg y) with (x_cfg x).
  destruct (new_opts _ _ _) as [oo|v]; [|done]. destruct (m_kind m); [| |done];
    (destruct (m_invalid m); [done|]; destruct (routes _ !! _); [|done]; apply bnd_ext; [done|]; intros [] s2;
     apply bnd_ext; [done|]; intros [[e|]|] s3; [done| |done]; apply rest_same; apply loop_same).
Qed.
Lemma tick_same o fuel order opts s : xe_tick y o fuel order opts s = xe_tick x o fuel order opts s.
Proof.
  unfold xe_tick. change (x_cfg y) with (x_cfg x).
  destruct (new_opts _ _ _) as [oo|v]; [|done]. apply bnd_ext; [done|]. intros [] s2.
  apply bnd_ext; [done|]; intros [[e|]|] s3; [done| |done]; apply rest_same; apply tick_body_same.
Qed.
End Same.

Lemma reset_difference x f ops st b s evs rs :
  (forall u, exists n v, called_in_order (x_resets x) u n (f u) v) ->
  xrun_ops x ops (st, b) = (s, evs, rs) ->
  exists rs', xrun_ops (with_resets x [fun u => (f u, None)]) ops (st, b) = (s, evs, rs') /\
    Forall2 (fun or r' => same_but_reset or.1 or.2 r') (zip ops rs) rs'.
Proof.
  intros Hf. set (y := with_resets x _). revert st b s evs rs. induction ops as [|op ops IH]; intros st b s evs rs; cbn [xrun_ops].
  - intros [= <- <- <-]. exists []. split; [done|constructor].
  - assert (H1 : forall s1 evs1 r1, xrun_op x op (st, b) = (s1, evs1, r1) ->
       exists r1', xrun_op y op (st, b) = (s1, evs1, r1') /\ same_but_reset op r1 r1' /\
         (r1 = inl RRunning <-> r1' = inl RRunning) /\ (r1 = inl RBlocked <-> r1' = inl RBlocked)).
    { intros s1 evs1 r1 E. destruct op as [o fuel m opts|o fuel order opts| |g]; [| | |exists r1; split; [exact E|done]];
        [exists r1; split; [cbn [xrun_op] in *; unfold y; rewrite dispatch_same; exact E|done]
        |exists r1; split; [cbn [xrun_op] in *; unfold y; rewrite tick_same; exact E|done]|].
      cbn [xrun_op] in *. unfold xe_reset in *. destruct b.
      - injection E as <- <- <-. exists (inl RBlocked). done.
      - change (x_resets y) with [fun u => (f u, @None PVal)].
        destruct (Hf (g_user (es_g st))) as (n & v' & Hc). apply called_unique in Hc.
        rewrite Hc in E. destruct v' as [v|]; injection E as <- <- <-;
          exists (inl (RDone [])); (split; [done|done]). }
    destruct (xrun_op x op (st, b)) as [[[st1 b1] evs1] r1] eqn:E.
    destruct (H1 _ _ _ eq_refl) as (r1' & E' & Hs & Hr & Hb). rewrite E'.
    assert (Hgo : r1 <> inl RRunning -> r1 <> inl RBlocked -> forall s evs rs,
      (let '(s, evs', rs) := xrun_ops x ops (st1, b1) in (s, evs1 ++ evs', r1 :: rs)) = (s, evs, rs) ->
      exists rs', (let '(s, evs', rs) := xrun_ops y ops (st1, b1) in (s, evs1 ++ evs', r1' :: rs)) = (s, evs, rs') /\
        Forall2 (fun or r' => same_but_reset or.1 or.2 r') (zip (op :: ops) rs) rs').
    { intros _ _ s0 evs0 rs0. destruct (xrun_ops x ops (st1, b1)) as [[s2 evs2] rs2] eqn:E2. intros [= <- <- <-].
      destruct (IH _ _ _ _ _ E2) as (rs2' & -> & HF). exists (r1' :: rs2'). split; [done|]. cbn. by constructor. }
    destruct r1 as [[err| |]|w].
    + assert (r1' <> inl RRunning /\ r1' <> inl RBlocked) as [Hn1 Hn2] by naive_solver.
      intros H. apply Hgo in H; [|done|done]. destruct r1' as [[| |]|]; [exact H|done|done|exact H].
    + destruct Hr as [Hr _]. rewrite (Hr eq_refl). intros [= <- <- <-]. eexists. split; [done|]. cbn.
      rewrite (Hr eq_refl) in Hs. destruct ops; (constructor; [exact Hs|constructor]).
    + destruct Hb as [Hb _]. rewrite (Hb eq_refl). intros [= <- <- <-]. eexists. split; [done|]. cbn.
      rewrite (Hb eq_refl) in Hs. destruct ops; (constructor; [exact Hs|constructor]).
    + assert (r1' <> inl RRunning /\ r1' <> inl RBlocked) as [Hn1 Hn2] by naive_solver.
      intros H. apply Hgo in H; [|done|done]. destruct r1' as [[| |]|]; [exact H|done|done|exact H].
Qed.
End ResetProof.
