(** * Proofs: how often the context was consulted before an operation does not matter *)
From Verif Require Import IdleSpec IdleProof ProcLemmas.

Section Later.
Context {P : Params} (n : nat).

Definition gs (g : GState) : GState := mkG (g_next g) (g_user g) (g_step g + n).
Definition es (st : EState) : EState := mkE (gs (es_g st)) (es_cs st).
Notation later o := (asked_later n o).

Lemma later_a_run o h a now cmd id p : forall g s,
  a_run o h a now cmd id p (gs g) s = (let '(g1, s1, fs, v) := a_run (later o) h a now cmd id p g s in (gs g1, s1, fs, v)).
Proof.
  induction p as [|v|f k IH|f k IH|b k IH|k IH|str k IH]; intros g s; cbn [a_run].
  - done.
  - done.
  - exact (IH _ (g_act f g) s).
  - apply IH.
  - assert (H : a_record o h a now cmd id b (gs g) s = (let '(g1, s1, fs, v) := a_record (later o) h a now cmd id b g s in (gs g1, s1, fs, v))).
    { unfold a_record. destruct (negb _); [done|]. destruct (m_invalid _); [done|].
      destruct (if as_exists s then _ else _) as [s1 fs1]. destruct (ag_apply a _ _) as [r v]. destruct (enrich _ _ _ _ v); done. }
    rewrite H. destruct (a_record (later o) h a now cmd id b g s) as [[[g1 s1] fs] v]. rewrite IH.
    destruct (a_run (later o) h a now cmd id (k v) g1 s1) as [[[? ?] ?] ?]. done.
  - destruct (a_destroy h a cmd id s) as [s1 fs]. rewrite IH. destruct (a_run (later o) h a now cmd id k g s1) as [[[? ?] ?] ?]. done.
  - rewrite IH. destruct (a_run (later o) h a now cmd id k g s) as [[[? ?] ?] ?]. done.
Qed.
Lemma later_a o h a now env g hist :
  a_handle o h a now env (gs g) hist = (let '(g1, x, fs, r) := a_handle (later o) h a now env g hist in (gs g1, x, fs, r)).
Proof.
  unfold a_handle. destruct (negb _); [done|]. destruct (ag_route a _) as [id|v]; [|done]. destruct (decide _); [done|].
  destruct (ag_new a) as [r0|]; [|done]. destruct (a_replay h a r0 _) as [r [v|]]; [done|]. cbn zeta. rewrite later_a_run.
  destruct (a_run (later o) _ _ _ _ _ _ _ _) as [[[g1 s1] fs] v]. destruct (enrich _ _ _ _ v); done.
Qed.
Lemma later_p_run o h now env id meth p : forall g s,
  p_run o h now env id meth p (gs g) s = (let '(g1, s1, fs, v) := p_run (later o) h now env id meth p g s in (gs g1, s1, fs, v)).
Proof.
  induction p as [e|v|f k IH|f k IH|b k IH|b t k IH|k IH|str k IH]; intros g s; cbn [p_run].
  - done.
  - done.
  - exact (IH _ (g_act f g) s).
  - apply IH.
  - assert (H : p_execute o h now env id meth b (gs g) s = (let '(g1, s1, fs, v) := p_execute (later o) h now env id meth b g s in (gs g1, s1, fs, v))).
    { unfold p_execute. destruct (p_check _ _ _ _); [done|]. destruct (p_revert _ _ _ s). done. }
    rewrite H. destruct (p_execute (later o) h now env id meth b g s) as [[[g1 s1] fs] v]. rewrite IH.
    destruct (p_run (later o) h now env id meth (k v) g1 s1) as [[[? ?] ?] ?]. done.
  - assert (H : p_schedule o h now env id meth b t (gs g) s = (let '(g1, s1, fs, v) := p_schedule (later o) h now env id meth b t g s in (gs g1, s1, fs, v))).
    { unfold p_schedule. destruct (p_check _ _ _ _); [done|]. destruct (p_revert _ _ _ s). done. }
    rewrite H. destruct (p_schedule (later o) h now env id meth b t g s) as [[[g1 s1] fs] v]. rewrite IH.
    destruct (p_run (later o) h now env id meth (k v) g1 s1) as [[[? ?] ?] ?]. done.
  - destruct (p_end h env id s) as [s1 fs]. rewrite IH. destruct (p_run (later o) h now env id meth k g s1) as [[[? ?] ?] ?]. done.
  - rewrite IH. destruct (p_run (later o) h now env id meth k g s) as [[[? ?] ?] ?]. done.
Qed.
Lemma later_p_instance o h pi now env id r g ps :
  p_handle_instance o h pi now env id r (gs g) ps = (let '(g1, x, fs, r) := p_handle_instance (later o) h pi now env id r g ps in (gs g1, x, fs, r)).
Proof.
  unfold p_handle_instance. destruct (match m_kind _ with KTimeout => _ | _ => _ end) as [meth prog]. cbn zeta. rewrite later_p_run.
  destruct (p_run (later o) _ _ _ _ _ _ _ _) as [[[g1 s1] fs] [[e|]|v]]; [done| |done]. destruct (ps_ended s1); done.
Qed.
Lemma later_p o h pi now env g ps :
  p_handle o h pi now env (gs g) ps = (let '(g1, x, fs, r) := p_handle (later o) h pi now env g ps in (gs g1, x, fs, r)).
Proof.
  unfold p_handle. destruct (negb _); [done|].
  assert (H : p_route h pi env (gs g) ps = (let '(g1, fs, r) := p_route h pi env g ps in (gs g1, fs, r))).
  { unfold p_route. destruct (m_kind _); [done| |].
    - cbn [gs g_user]. destruct (pr_route pi _ (g_user g)) as [u [[[id []] [e|]]|v]]; try done. destruct (decide _); done.
    - destruct (e_origin env); [|done]. destruct (pc_instances ps !! _); done. }
  rewrite H. destruct (p_route h pi env g ps) as [[g1 fs] [id| |e|v]]; try done.
  destruct (pc_instances ps !! id) as [r|].
  - rewrite later_p_instance. destruct (p_handle_instance (later o) _ _ _ _ _ _ _ _) as [[[? ?] ?] ?]. done.
  - destruct (pr_new pi) as [r|]; [|done]. cbn zeta. rewrite later_p_instance. destruct (p_handle_instance (later o) _ _ _ _ _ _ _ _) as [[[? ?] ?] ?]. done.
Qed.
Lemma later_i_run o h now cmd p : forall g evs,
  i_run o h now cmd p (gs g) evs = (let '(g1, x, fs, v) := i_run (later o) h now cmd p g evs in (gs g1, x, fs, v)).
Proof.
  induction p as [e|v|f k IH|b k IH|str k IH]; intros g evs; cbn [i_run].
  - done.
  - done.
  - exact (IH _ (g_act f g) evs).
  - assert (H : i_record o h now cmd b (gs g) evs = (let '(g1, x, fs, v) := i_record (later o) h now cmd b g evs in (gs g1, x, fs, v))).
    { unfold i_record. destruct (negb _); [done|]. destruct (m_invalid _); done. }
    rewrite H. destruct (i_record (later o) h now cmd b g evs) as [[[g1 s1] fs] v]. rewrite IH.
    destruct (i_run (later o) h now cmd (k v) g1 s1) as [[[? ?] ?] ?]. done.
  - rewrite IH. destruct (i_run (later o) h now cmd k g evs) as [[[? ?] ?] ?]. done.
Qed.
Lemma later_i o h i now env g :
  i_handle o h i now env (gs g) = (let '(g1, fs, r) := i_handle (later o) h i now env g in (gs g1, fs, r)).
Proof.
  unfold i_handle. destruct (negb _); [done|]. rewrite later_i_run. destruct (i_run (later o) _ _ _ _ _ _) as [[[g1 s1] fs] [e|v]]; done.
Qed.
Lemma later_j_run {A} th hid ev (p : JProg A) : forall g, j_run th hid ev p (gs g) = (let '(g1, fs, r) := j_run th hid ev p g in (gs g1, fs, r)).
Proof.
  induction p as [a|v|f k IH|s k IH]; intros g; cbn [j_run].
  - done.
  - done.
  - exact (IH _ (g_act f g)).
  - rewrite IH. destruct (j_run th hid ev k g) as [[? ?] ?]. done.
Qed.
Ltac pack := match goal with |- _ = match ?x with pair _ _ => _ end -> _ => destruct x as [[? ?] ?] end; intros H; rewrite H; done.
Lemma later_par {A B} o hid ev (m : JProg A) : forall (p : JProg B) g,
  j_par o hid ev m p (gs g) = (let '(g1, fs, r) := j_par (later o) hid ev m p g in (gs g1, fs, r)).
Proof.
  induction m as [a|v|f k IH|s k IH]; intros p.
  - intros g. destruct p; cbn -[j_run]; rewrite later_j_run; destruct (j_run TCompact hid None _ g) as [[? ?] ?]; done.
  - induction p as [b|v'|f' k' IH'|s' k' IH']; intros g.
    + cbn -[j_run]. rewrite later_j_run. destruct (j_run TMain hid _ _ g) as [[? ?] ?]. done.
    + cbn. destruct (o_sched o _); done.
    + cbn. destruct (o_sched o _); [done|]. exact (IH' _ (g_act f' (j_tick g))).
    + cbn. destruct (o_sched o _); [done|]. pose proof (IH' (j_tick g)) as H. change (gs (j_tick g)) with (j_tick (gs g)) in H. cbn in H. revert H. pack.
  - induction p as [b|v'|f' k' IH'|s' k' IH']; intros g.
    + cbn -[j_run]. rewrite later_j_run. destruct (j_run TMain hid _ _ g) as [[? ?] ?]. done.
    + cbn. destruct (o_sched o _); [|done]. exact (IH _ _ (g_act f (j_tick g))).
    + cbn. destruct (o_sched o _); [exact (IH _ _ (g_act f (j_tick g)))|]. exact (IH' _ (g_act f' (j_tick g))).
    + cbn. destruct (o_sched o _); [exact (IH _ _ (g_act f (j_tick g)))|]. pose proof (IH' (j_tick g)) as H. change (gs (j_tick g)) with (j_tick (gs g)) in H. cbn in H. revert H. pack.
  - induction p as [b|v'|f' k' IH'|s' k' IH']; intros g.
    + cbn -[j_run]. rewrite later_j_run. destruct (j_run TMain hid _ _ g) as [[? ?] ?]. done.
    + cbn. destruct (o_sched o _); [|done]. change (j_tick (gs g)) with (gs (j_tick g)). rewrite IH.
      destruct (j_par (later o) hid ev k _ _) as [[? ?] ?]. done.
    + cbn. destruct (o_sched o _); [|exact (IH' _ (g_act f' (j_tick g)))]. change (j_tick (gs g)) with (gs (j_tick g)). rewrite IH.
      destruct (j_par (later o) hid ev k _ _) as [[? ?] ?]. done.
    + cbn. destruct (o_sched o _).
      * change (j_tick (gs g)) with (gs (j_tick g)). rewrite IH. destruct (j_par (later o) hid ev k _ _) as [[? ?] ?]. done.
      * pose proof (IH' (j_tick g)) as H. change (gs (j_tick g)) with (j_tick (gs g)) in H. cbn in H. revert H. pack.
Qed.
Lemma later_j o cd h j now env g :
  j_handle o cd h j now env (gs g) = (let '(g1, fs, r) := j_handle (later o) cd h j now env g in (gs g1, fs, r)).
Proof.
  unfold j_handle, j_handle_threads. destruct (negb _); [done|]. cbn [gs g_user g_next g_step].
  destruct (pj_version _ _ _) as [u [[cur [e|]]|v]]; [done| |done]. destruct (decide _); [|done].
  change (mkG (g_next g) u (g_step g + n)) with (gs (mkG (g_next g) u (g_step g))).
  assert (H : forall g, j_apply o cd h j now env (gs g) = (let '(g1, fs, r) := j_apply (later o) cd h j now env g in (gs g1, fs, r))).
  { clear. intros g. unfold j_apply. destruct cd.
    - rewrite later_par. destruct (j_par (later o) _ _ _ _ _) as [[g1 fs] [[[ok e] ce]|v]]; done.
    - rewrite later_j_run. destruct (j_run _ _ _ _ _) as [[g1 fs] [[ok e]|v]]; done. }
  rewrite H. destruct (j_apply (later o) _ _ _ _ _ _) as [[g1 fs] [[[[] [e1|]] ce]|v]]; try done.
  cbn [gs g_user]. destruct (pj_close _ _ _) as [u' [[e'|]|v']]; done.
Qed.

Lemma later_ctrl c o h now env g cs :
  ctrl_handle c o h now env (gs g) cs = (let '(g1, x, fs, r) := ctrl_handle c (later o) h now env g cs in (gs g1, x, fs, r)).
Proof.
  unfold ctrl_handle. destruct (h_impl h) as [a|pi|i|j], cs; try done.
  - rewrite later_a. destruct (a_handle (later o) _ _ _ _ _ _) as [[[? ?] ?] ?]. done.
  - rewrite later_p. destruct (p_handle (later o) _ _ _ _ _ _) as [[[? ?] ?] ?]. done.
  - rewrite later_i. destruct (i_handle (later o) _ _ _ _ _) as [[? ?] ?]. done.
  - rewrite later_j. destruct (j_handle (later o) _ _ _ _ _ _) as [[? ?] ?]. done.
Qed.
Lemma later_ctrl_tick h now g cs :
  ctrl_tick h now (gs g) cs = (let '(g1, x, fs, r) := ctrl_tick h now g cs in (gs g1, x, fs, r)).
Proof.
  unfold ctrl_tick. destruct (h_impl h) as [a|pi|i|j], cs; try done.
  - destruct (p_tick _ _). done.
  - unfold j_tick_ctrl. destruct (_ <=? _)%Z; [|done]. rewrite later_j_run. destruct (j_run _ _ _ _ _) as [[g1 fs] [e|v]]; done.
Qed.
Lemma later_handle c o oo env h st :
  e_handle c o oo env h (es st) = (let '(s, fs, r) := e_handle c (later o) oo env h st in (es s, fs, r)).
Proof.
  unfold e_handle. destruct h as [h|]; [|done]. destruct (skip_handler _ _); [done|]. cbn [es es_cs es_g].
  destruct (es_cs st !! _) as [cs|]; [|done]. rewrite later_ctrl. destruct (ctrl_handle c (later o) _ _ _ _ _) as [[[g1 x] fs] [envs e|v]]; done.
Qed.
Lemma later_handlers c o oo env hs : forall st,
  e_handlers c o oo env hs (es st) = (let '(s, fs, r) := e_handlers c (later o) oo env hs st in (es s, fs, r)).
Proof.
  induction hs as [|h hs IH]; intros st; [done|]. cbn [e_handlers]. rewrite later_handle.
  destruct (e_handle c (later o) oo env h st) as [[st1 fs] [envs e|v]]; [|done]. rewrite IH.
  destruct (e_handlers c (later o) oo env hs st1) as [[st2 fs2] [[envs2 errs2]|v]]; done.
Qed.
Lemma later_loop c o oo fuel : forall q err st,
  e_loop c o oo fuel q err (es st) = (let '(s, fs, r) := e_loop c (later o) oo fuel q err st in (es s, fs, r)).
Proof.
  induction fuel as [|fuel IH]; intros [|env q] err st; try done. cbn [e_loop].
  assert (H : e_message c o oo env (es st) = (let '(s, fs, r) := e_message c (later o) oo env st in (es s, fs, r))).
  { unfold e_message. destruct (targets c env); [|done]. rewrite later_handlers. destruct (e_handlers c (later o) _ _ _ _) as [[s fs] [[envs derr]|v]]; done. }
  rewrite H. destruct (e_message c (later o) oo env st) as [[st1 fs] [[envs derr]|v]]; [|done]. unfold poll_ctx.
  cbn [es es_g gs g_step asked_later o_ctx]. destruct (o_ctx o (g_step (es_g st1) + n)) as [x|]; [done|]. cbn.
  pose proof (IH (q ++ envs) (err ++ derr) (es_set_g st1 (mkG (g_next (es_g st1)) (g_user (es_g st1)) (S (g_step (es_g st1)))))) as H2.
  change (es (es_set_g st1 (mkG (g_next (es_g st1)) (g_user (es_g st1)) (S (g_step (es_g st1)))))) with
    (es_set_g (es st1) (mkG (g_next (es_g st1)) (g_user (es_g st1)) (S (g_step (es_g st1) + n)))) in H2.
  setoid_rewrite H2. destruct (e_loop c (later o) oo fuel _ _ _) as [[? ?] ?]. done.
Qed.
Lemma later_tick_handlers c o oo hs : forall st,
  e_tick_handlers c o oo hs (es st) = (let '(s, fs, r) := e_tick_handlers c (later o) oo hs st in (es s, fs, r)).
Proof.
  induction hs as [|h hs IH]; intros st; [done|]. cbn [e_tick_handlers].
  assert (H : e_tick_one c o oo h (es st) = (let '(s, fs, r) := e_tick_one c (later o) oo h st in (es s, fs, r))).
  { unfold e_tick_one. destruct (skip_handler _ _); [done|]. cbn [es es_cs es_g]. destruct (es_cs st !! _); [|done]. rewrite later_ctrl_tick.
    destruct (ctrl_tick _ _ _ _) as [[[g1 x] fs] [envs e|v]]; done. }
  rewrite H. destruct (e_tick_one c (later o) oo h st) as [[st1 fs] [envs e|v]]; [|done].
  assert (H2 : poll_unless_skipped o oo h (es st1) = (let '(s, e) := poll_unless_skipped (later o) oo h st1 in (es s, e))).
  { unfold poll_unless_skipped. destruct (skip_handler _ _); done. }
  rewrite H2. destruct (poll_unless_skipped (later o) oo h st1) as [st2 [ce|]]; [done|]. rewrite IH.
  destruct (e_tick_handlers c (later o) oo hs st2) as [[? ?] ?]. done.
Qed.
Lemma later_op c op st : run_op c op (es st) = (let '(s, evs, r) := run_op c (op_asked_later n op) st in (es s, evs, r)).
Proof.
  destruct op as [o fuel m opts|o fuel order opts| |f]; cbn [run_op op_asked_later].
  - assert (H : e_dispatch c o fuel m opts (es st) = (let '(s, fs, r) := e_dispatch c (later o) fuel m opts st in (es s, fs, r))).
    { unfold e_dispatch. destruct (next_id (later o) (es_g st)) as [g id] eqn:E.
      assert (next_id o (es_g (es st)) = (gs g, id)) as ->.
      { unfold next_id in *. cbn in *. injection E as <- <-. done. }
      change (o_wall (later o)) with (o_wall o). destruct (new_opts c (o_wall o) opts) as [oo|v]; [|done]. cbn zeta.
      destruct (m_kind m); try done.
      all: destruct (m_invalid m); [done|]; destruct (routes c !! m_type m); [|done]; unfold lock; cbn [es es_g es_set_g gs g_step asked_later o_lock];
        destruct (o_lock o (g_step g + n)) as [x|]; [done|]; cbn [fmap option_fmap option_map].
      all: pose proof (later_loop c o oo fuel [new_root id m (oo_now oo)] [] (es_set_g st (mkG (g_next g) (g_user g) (S (g_step g))))) as H2;
        unfold es, gs, es_set_g in *; cbn [es_g es_cs g_next g_user g_step] in *; cbn [Nat.add] in H2; rewrite H2;
        destruct (e_loop c (later o) oo fuel _ _ _) as [[? ?] []]; done. }
    rewrite H. destruct (e_dispatch c (later o) fuel m opts st) as [[? ?] ?]. done.
  - assert (H : e_tick c o fuel order opts (es st) = (let '(s, fs, r) := e_tick c (later o) fuel order opts st in (es s, fs, r))).
    { unfold e_tick. change (o_wall (later o)) with (o_wall o). destruct (new_opts c (o_wall o) opts) as [oo|v]; [|done].
      unfold lock; cbn [es es_g es_set_g gs g_step asked_later o_lock]. destruct (o_lock o (g_step (es_g st) + n)) as [x|]; [done|]. cbn [fmap option_fmap option_map].
      unfold e_tick_body.
      pose proof (later_tick_handlers c o oo order (es_set_g st (mkG (g_next (es_g st)) (g_user (es_g st)) (S (g_step (es_g st)))))) as H2.
      unfold es, gs, es_set_g in *; cbn [es_g es_cs g_next g_user g_step] in *; cbn [Nat.add] in H2. rewrite H2.
      destruct (e_tick_handlers c (later o) oo order _) as [[s1 fs1] [q err|e|v]]; [|done|done].
      pose proof (later_loop c o oo fuel q [] s1) as H3. unfold es, gs in H3. rewrite H3.
      destruct (e_loop c (later o) oo fuel _ _ _) as [[? ?] []]; done. }
    rewrite H. destruct (e_tick c (later o) fuel order opts st) as [[? ?] ?]. done.
  - done.
  - done.
Qed.
Lemma later_ops c ops : forall st, run_ops c ops (es st) = (let '(s, evs, r) := run_ops c (op_asked_later n <$> ops) st in (es s, evs, r)).
Proof.
  induction ops as [|op ops IH]; intros st; [done|]. cbn [run_ops fmap list_fmap]. rewrite later_op.
  destruct (run_op c (op_asked_later n op) st) as [[s1 e1] []]; [| |done]; rewrite IH; unfold fmap;
    destruct (run_ops c (list_fmap _ _ (op_asked_later n) ops) s1) as [[? ?] ?]; done.
Qed.
End Later.

Section NoTrace.
Context {P : Params}.
Lemma no_trace_lemma c st o fuel order opts st' fs r :
  performs c st (OpTick o fuel order opts) st' fs r -> idle c (op_time o opts) (skipped opts) st ->
  exists n, forall ops s' evs fin, run_ops c ops st' = (s', evs, fin) ->
    exists s, run_ops c (op_asked_later n <$> ops) st = (s, evs, fin) /\ unchanged s s'.
Proof.
  intros H Hi. destruct (C108_idle_lemma _ _ _ _ _ _ _ _ _ H Hi) as ((H1 & H2 & H3 & H4) & _).
  exists (g_step (es_g st') - g_step (es_g st)). intros ops s' evs fin.
  assert (st' = es (g_step (es_g st') - g_step (es_g st)) st) as Hst.
  { destruct st' as [[a b d] cs], st as [[a' b' d'] cs']. unfold es, gs. cbn in *. subst. f_equal. f_equal. lia. }
  rewrite Hst at 1. rewrite later_ops. destruct (run_ops c _ st) as [[s e] f]. intros [= <- <- <-].
  exists s. split; [done|]. split; [done|]. split; [done|]. split; [done|]. cbn. lia.
Qed.
End NoTrace.
