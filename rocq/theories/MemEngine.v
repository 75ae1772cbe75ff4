(** * Go's memory: operations of the engine *)
From Verif Require Import MemModel MemLemmas MemScope MemRefine.

Section MemEngine.
Context {P : Params} (grow : Mem -> Slice -> nat -> nat) (junk : Root).

Lemma j_handle_nothing o cd h j now env g g' fs l e :
  j_handle o cd h j now env g = (g', fs, HRet l e) -> l = [].
Proof.
  unfold j_handle. destruct (j_handle_threads o cd h j now env g) as [[g1 fs1] r] eqn:E. intros Q. injection Q as _ _ ->.
  unfold j_handle_threads in E. repeat (match type of E with
    | context [match ?x with _ => _ end] => destruct x
    end; try (injection E as _ _ E; by inversion E)); by inversion E.
Qed.
Lemma j_tick_nothing h j now g last g' last' fs l e :
  j_tick_ctrl h j now g last = (g', last', fs, HRet l e) -> l = [].
Proof.
  unfold j_tick_ctrl. destruct (compact_interval <=? now - last)%Z.
  - destruct (j_run TMain (h_id h) None (pj_compact j now) g) as [[g1 fs1] [r|r]]; intros Q; by inversion Q.
  - intros Q; by inversion Q.
Qed.

Lemma m_ctrl_handle_spec c o h now env m g cs cs0 m' g' cs' fs r :
  sort_ok o -> crep m cs cs0 -> m_ctrl_handle grow junk c o h now env m g cs = (m', g', cs', fs, r) ->
  exists cs0' r0, ctrl_handle c o h now env g cs0 = (g', cs0', fs, r0) /\ crep m' cs' cs0' /\
    res_rel m' r r0 /\ touches m m' (clocs cs) /\ (forall x, clocs cs' x -> clocs cs x \/ fresh_in m x).
Proof.
  intros So R.
  assert (forall v, exists cs0' r0, (g, cs0, [] : list Fact, HPan v) = (g, cs0', [], r0) /\ crep m cs cs0' /\
    res_rel m (SPan v) r0 /\ touches m m (clocs cs) /\ (forall x, clocs cs x -> clocs cs x \/ fresh_in m x)) as Same.
  { intros v. eexists _, _. split; [reflexivity|]. split; [done|]. split; [done|].
    split; [apply touches_refl|]. intros x Hx. by left. }
  unfold m_ctrl_handle, ctrl_handle. destruct (h_impl h) as [a|pi|i|j].
  - destruct cs as [hist|ps| |z], cs0 as [hist0|ps0| |z0]; simpl in R; try done;
      try (intros Q; injection Q as <- <- <- <- <-; apply Same).
    destruct (ma_handle grow junk o h a now env m g hist) as [[[[m1 g1] h1] fs1] r1] eqn:E.
    intros Q. injection Q as <- <- <- <- <-.
    destruct (ma_handle_spec grow junk _ _ _ _ _ _ _ _ _ _ _ _ _ _ R E) as (h0' & r0 & -> & R1 & Rr & T & L).
    eexists _, _. split; [reflexivity|]. done.
  - destruct cs as [hist|ps| |z], cs0 as [hist0|ps0| |z0]; simpl in R; try done;
      try (intros Q; injection Q as <- <- <- <- <-; apply Same).
    destruct (mp_handle grow junk o h pi now env m g ps) as [[[[m1 g1] h1] fs1] r1] eqn:E.
    intros Q. injection Q as <- <- <- <- <-.
    destruct (mp_handle_spec grow junk _ _ _ _ _ _ _ _ _ _ _ _ _ _ So R E) as (h0' & r0 & -> & R1 & Rr & T & L).
    eexists _, _. split; [reflexivity|]. done.
  - destruct cs as [hist|ps| |z], cs0 as [hist0|ps0| |z0]; simpl in R; try done;
      try (intros Q; injection Q as <- <- <- <- <-; apply Same).
    unfold mi_handle, i_handle. destruct (negb (consumes h (m_type (e_msg env)))).
    { intros Q. injection Q as <- <- <- <- <-. apply Same. }
    destruct (mi_run grow o h now env (in_handle i (e_msg env)) m g nil_slice) as [[[[m1 g1] s1] fs1] r1] eqn:E.
    destruct (mi_run_spec grow _ _ _ _ _ _ _ _ _ _ _ _ _ _ (rep_nil m) E) as (l1 & -> & R1 & T & L).
    assert (touches m m1 (clocs MCInt)) as T'.
    { apply (touches_weaken _ _ _ _ T). intros x Hx. by apply in_nil in Hx. }
    destruct r1 as [e|v]; intros Q; injection Q as <- <- <- <- <-; (eexists _, _; split; [reflexivity|]); (split; [done|]).
    + split; [done|]. split; [done|]. intros x [].
    + split; [done|]. split; [done|]. intros x [].
  - destruct cs as [hist|ps| |z], cs0 as [hist0|ps0| |z0]; simpl in R; try done;
      try (intros Q; injection Q as <- <- <- <- <-; apply Same).
    subst z0. destruct (j_handle o (c_compact c) h j now env g) as [[g1 fs1] r1] eqn:E.
    destruct r1 as [l e|v]; intros Q; injection Q as <- <- <- <- <-; (eexists _, _; split; [reflexivity|]); (split; [done|]).
    + apply j_handle_nothing in E as ->. split; [split; [done|apply rep_nil]|]. split; [apply touches_refl|]. intros x [].
    + split; [done|]. split; [apply touches_refl|]. intros x [].
Qed.

Lemma m_ctrl_tick_spec h now m g cs cs0 g' cs' fs r :
  crep m cs cs0 -> m_ctrl_tick h now m g cs = (g', cs', fs, r) ->
  exists cs0' r0, ctrl_tick h now g cs0 = (g', cs0', fs, r0) /\ crep m cs' cs0' /\
    res_rel m r r0 /\ (forall x, clocs cs' x -> clocs cs x).
Proof.
  intros R.
  assert (exists cs0' r0, (g, cs0, [] : list Fact, HRet [] None) = (g, cs0', [], r0) /\ crep m cs cs0' /\
    res_rel m (SRet nil_slice None) r0 /\ (forall x, clocs cs x -> clocs cs x)) as Same.
  { eexists _, _. split; [reflexivity|]. split; [done|]. split; [split; [done|apply rep_nil]|done]. }
  unfold m_ctrl_tick, ctrl_tick. destruct (h_impl h) as [a|pi|i|j].
  - intros Q; injection Q as <- <- <- <-; apply Same.
  - destruct cs as [hist|ps| |z], cs0 as [hist0|ps0| |z0]; simpl in R; try done;
      try (intros Q; injection Q as <- <- <- <-; apply Same).
    destruct (mp_tick now m ps) as [ps1 s1] eqn:E. intros Q. injection Q as <- <- <- <-.
    destruct (mp_tick_spec _ _ _ _ _ _ R E) as (ps0' & l & -> & R1 & Rl & L).
    eexists _, _. split; [reflexivity|]. done.
  - intros Q; injection Q as <- <- <- <-; apply Same.
  - destruct cs as [hist|ps| |z], cs0 as [hist0|ps0| |z0]; simpl in R; try done;
      try (intros Q; injection Q as <- <- <- <-; apply Same).
    subst z0. destruct (j_tick_ctrl h j now g z) as [[[g1 z1] fs1] r1] eqn:E.
    destruct r1 as [l e|v]; intros Q; injection Q as <- <- <- <-; (eexists _, _; split; [reflexivity|]); (split; [done|]).
    + apply j_tick_nothing in E as ->. split; [split; [done|apply rep_nil]|]. done.
    + done.
Qed.

(** ** The state of the engine *)

Definition srel (st : MState) (st0 : EState) : Prop :=
  ms_g st = es_g st0 /\
  (forall n, both (crep (ms_mem st)) (ms_cs st !! n) (es_cs st0 !! n)) /\
  (forall n n' cs cs' x, n <> n' -> ms_cs st !! n = Some cs -> ms_cs st !! n' = Some cs' ->
     clocs cs x -> clocs cs' x -> False).
(** The queue shares nothing with the controllers. *)
Definition apart (st : MState) (q : Slice) : Prop :=
  forall n cs x, ms_cs st !! n = Some cs -> clocs cs x -> in_slice q x -> False.

(** [p] is the root of a process instance. *)
Definition live_root (st : MState) (p : nat) : Prop :=
  exists n ps id, ms_cs st !! n = Some (MCProc ps) /\ mc_instances ps !! id = Some p.
(** Objects other than the roots of process instances stay what they are. *)
Definition keeps (st st' : MState) : Prop :=
  m_next (ms_mem st) <= m_next (ms_mem st') /\
  (forall p, p < m_next (ms_mem st) -> ~ live_root st p -> m_obj (ms_mem st') !! p = m_obj (ms_mem st) !! p) /\
  (forall p, p < m_next (ms_mem st) -> live_root st' p -> live_root st p).

Lemma keeps_refl st : keeps st st.
Proof. split; [lia|done]. Qed.
Lemma keeps_trans st1 st2 st3 : keeps st1 st2 -> keeps st2 st3 -> keeps st1 st3.
Proof.
  intros (N1 & O1 & L1) (N2 & O2 & L2). split; [lia|]. split.
  - intros p Lp Hp. rewrite O2; [by apply O1|lia|]. intros H. by apply Hp, L1.
  - intros p Lp H. apply L1; [done|]. apply L2; [lia|done].
Qed.
Lemma keeps_set_g st g : keeps st (ms_set_g st g).
Proof. split; [simpl; lia|done]. Qed.
Local Hint Resolve keeps_refl keeps_set_g : core.
Lemma keeps_mem st m' (X : Loc -> Prop) :
  touches (ms_mem st) m' X -> (forall p, ~ X (LObj p)) -> keeps st (ms_set_mem st m').
Proof. intros (N & _ & O) H. split; [done|]. split; [|done]. intros p Lp _. by apply O. Qed.
Lemma keeps_ctrl st n cs m' g' cs' :
  ms_cs st !! n = Some cs -> touches (ms_mem st) m' (clocs cs) ->
  (forall x, clocs cs' x -> clocs cs x \/ fresh_in (ms_mem st) x) ->
  keeps st (mkM m' g' (<[n := cs']> (ms_cs st))).
Proof.
  intros Hn (N & _ & O) L.
  assert (forall p, clocs cs (LObj p) -> live_root st p) as Key.
  { intros p H. destruct cs; simpl in H; try done.
    - destruct H as (? & ? & _ & _ & ?). done.
    - destruct H as [[_ ?]|(id & q & Hq & E)]; [done|]. injection E as ->. exists n, ps, id. done. }
  split; [done|]. split.
  - intros p Lp Hp. apply O; [done|]. intros H. by apply Hp, Key.
  - intros p Lp (k & ps & id & Hk & Hi). simpl in Hk. apply lookup_insert_Some in Hk as [[<- ->]|[Ne Hk]].
    + apply Key. destruct (L (LObj p)) as [H|H]; [right; by exists id, p|done|]. unfold fresh_in in H. simpl in H, Lp. lia.
    + by exists k, ps, id.
Qed.

Lemma srel_set_g st st0 g : srel st st0 -> srel (ms_set_g st g) (es_set_g st0 g).
Proof. intros (_ & R & D). split; [done|]. done. Qed.

Lemma srel_mem st st0 m' (X : Loc -> Prop) :
  srel st st0 -> touches (ms_mem st) m' X ->
  (forall n cs x, ms_cs st !! n = Some cs -> clocs cs x -> ~ X x) -> srel (ms_set_mem st m') st0.
Proof.
  intros (G & R & D) T F. split; [done|]. split; [|done]. intros n. apply (both_mono (crep (ms_mem st))); [|apply R].
  intros cs cs0 Hn Rc. apply (crep_frame _ _ _ _ _ Rc T). intros x. by apply F with n.
Qed.

(** One controller does something. *)
Lemma srel_ctrl st st0 n cs cs0 m' g' cs' cs0' :
  srel st st0 -> ms_cs st !! n = Some cs -> es_cs st0 !! n = Some cs0 ->
  crep m' cs' cs0' -> touches (ms_mem st) m' (clocs cs) ->
  (forall x, clocs cs' x -> clocs cs x \/ fresh_in (ms_mem st) x) ->
  srel (mkM m' g' (<[n := cs']> (ms_cs st))) (mkE g' (<[n := cs0']> (es_cs st0))) /\
  (forall q l, rep (ms_mem st) q l -> apart st q -> rep m' q l /\ apart (mkM m' g' (<[n := cs']> (ms_cs st))) q) /\
  keeps st (mkM m' g' (<[n := cs']> (ms_cs st))).
Proof.
  intros (G & R & D) Hn Hn0 Rc T L. split; [|split; [|by apply (keeps_ctrl st n cs)]].
  - split; [done|]. simpl. split.
    + intros k. destruct (decide (k = n)) as [->|Ne]; [rewrite !lookup_insert; done|].
      rewrite !lookup_insert_ne by done. apply (both_mono (crep (ms_mem st))); [|apply R].
      intros c1 c2 Hk R1. apply (crep_frame _ _ _ _ _ R1 T). intros x H1 H2. by apply (D k n c1 cs x).
    + intros k k' c1 c2 x Ne H1 H2 L1 L2.
      assert (forall k c0, k <> n -> ms_cs st !! k = Some c0 -> clocs c0 x -> clocs cs' x -> False) as Key.
      { intros k0 c0 Nk Hk Hx Hx'. destruct (L x Hx') as [Hy|F]; [by apply (D k0 n c0 cs x)|].
        pose proof (R k0) as Rk. rewrite Hk in Rk. destruct (es_cs st0 !! k0); simpl in Rk; [|done].
        by apply (crep_alloc _ _ _ _ Rk Hx). }
      apply lookup_insert_Some in H1 as [[<- <-]|[N1 H1]]; apply lookup_insert_Some in H2 as [[<- <-]|[N2 H2]].
      * done.
      * by apply (Key k' c2).
      * by apply (Key k c1).
      * by apply (D k k' c1 c2 x).
  - intros q l Rq A. split.
    + apply (rep_frame _ _ _ _ _ Rq T). intros x H1 H2. by apply (A n cs x).
    + intros k c1 x Hk H1 H2. simpl in Hk. apply lookup_insert_Some in Hk as [[<- <-]|[N1 Hk]]; [|by apply (A k c1 x)].
      destruct (L x H1) as [Hy|F]; [by apply (A n cs x)|]. by apply (rep_alloc _ _ _ _ Rq H2).
Qed.

(** Something is appended to the queue. *)
Lemma srel_queue st st0 q l xs m' q' :
  srel st st0 -> rep (ms_mem st) q l -> apart st q ->
  go_append grow (ms_mem st) q (Some <$> xs) = (m', q') ->
  srel (ms_set_mem st m') st0 /\ rep m' q' (l ++ xs) /\ apart (ms_set_mem st m') q' /\ keeps st (ms_set_mem st m').
Proof.
  intros R Rq A Ga. destruct (append_spec grow _ _ _ _ _ _ Rq Ga) as (R1 & T1 & L1 & _). split; [|split; [done|split]].
  3:{ apply (keeps_mem st m' _ T1). intros p [_ ?]. done. }
  - apply (srel_mem st st0 m' _ R T1). intros n cs x Hn H1 H2. by apply (A n cs x).
  - intros n cs x Hn H1 H2. simpl in Hn. destruct (L1 x H2) as [Hy|F]; [by apply (A n cs x)|].
    destruct R as (_ & R & _). specialize (R n). rewrite Hn in R. destruct (es_cs st0 !! n); simpl in R; [|done].
    by apply (crep_alloc _ _ _ _ R H1).
Qed.

Lemma m_handle_spec c o oo env oh st st0 st' fs r q l :
  sort_ok o -> srel st st0 -> rep (ms_mem st) q l -> apart st q ->
  m_handle grow junk c o oo env oh st = (st', fs, r) ->
  exists st0' r0, e_handle c o oo env oh st0 = (st0', fs, r0) /\ srel st' st0' /\
    res_rel (ms_mem st') r r0 /\ rep (ms_mem st') q l /\ apart st' q /\ keeps st st'.
Proof.
  intros So R Rq A. unfold m_handle, e_handle. destruct oh as [h|].
  2:{ intros Q. injection Q as <- <- <-. eexists _, _. split; [reflexivity|]. done. }
  destruct (skip_handler h oo) as [sr|].
  { intros Q. injection Q as <- <- <-. eexists _, _. split; [reflexivity|]. split; [done|]. split; [split; [done|apply rep_nil]|].
    split; [done|]. split; [done|]. apply keeps_refl. }
  pose proof R as (G & Rc & D). specialize (Rc (h_name h)).
  destruct (ms_cs st !! h_name h) as [cs|] eqn:E1, (es_cs st0 !! h_name h) as [cs0|] eqn:E2; simpl in Rc; try done.
  2:{ intros Q. injection Q as <- <- <-. eexists _, _. split; [reflexivity|]. done. }
  destruct (m_ctrl_handle grow junk c o h (oo_now oo) env (ms_mem st) (ms_g st) cs) as [[[[m1 g1] cs1] fs1] r1] eqn:E.
  destruct (m_ctrl_handle_spec _ _ _ _ _ _ _ _ _ _ _ _ _ _ So Rc E) as (cs0' & r0 & H & R1 & Rr & T & L).
  rewrite <- G, H.
  destruct (srel_ctrl st st0 (h_name h) cs cs0 m1 g1 cs1 cs0' R E1 E2 R1 T L) as (R2 & Q2 & K2).
  destruct (Q2 q l Rq A) as [Rq2 A2].
  destruct r1 as [s e|v], r0 as [l0 e0|v0]; simpl in Rr; try done; intros Q; injection Q as <- <- <-.
  - destruct Rr as [-> Rr]. eexists _, _. split; [reflexivity|]. split; [done|]. split; [done|]. done.
  - subst v0. eexists _, _. split; [reflexivity|]. done.
Qed.

Lemma m_handlers_spec c o oo env hs q l st st0 st' fs r :
  sort_ok o -> srel st st0 -> rep (ms_mem st) q l -> apart st q ->
  m_handlers grow junk c o oo env hs q st = (st', fs, r) ->
  exists st0' r0, e_handlers c o oo env hs st0 = (st0', fs, r0) /\ srel st' st0' /\ keeps st st' /\
    match r, r0 with
    | inl (q', errs), inl (envs, errs0) => errs = errs0 /\ rep (ms_mem st') q' (l ++ envs) /\ apart st' q'
    | inr v, inr v0 => v = v0
    | _, _ => False
    end.
Proof.
  intros So. revert q l st st0 st' fs r. induction hs as [|h hs IH]; intros q l st st0 st' fs r R Rq A; simpl.
  - intros Q. injection Q as <- <- <-. eexists _, _. split; [reflexivity|]. split; [done|]. split; [done|]. rewrite app_nil_r. done.
  - destruct (m_handle grow junk c o oo env h st) as [[st1 fs1] r1] eqn:E.
    destruct (m_handle_spec _ _ _ _ _ _ _ _ _ _ _ _ So R Rq A E) as (st01 & r01 & -> & R1 & Rr & Rq1 & A1 & K1).
    destruct r1 as [s e|v], r01 as [l0 e0|v0]; simpl in Rr; try done.
    2:{ subst v0. intros Q. injection Q as <- <- <-. eexists _, _. split; [reflexivity|]. done. }
    destruct Rr as [-> Rs]. rewrite (rep_cells _ _ _ Rs).
    destruct (go_append grow (ms_mem st1) q (Some <$> l0)) as [m2 q2] eqn:Ga.
    destruct (srel_queue _ _ _ _ _ _ _ R1 Rq1 A1 Ga) as (R2 & Rq2 & A2 & K2).
    destruct (m_handlers grow junk c o oo env hs q2 (ms_set_mem st1 m2)) as [[st3 fs3] r3] eqn:E3.
    destruct (IH _ _ _ _ _ _ _ R2 Rq2 A2 E3) as (st03 & r03 & -> & R3 & K3 & Rr3).
    assert (keeps st st3) as K by (apply (keeps_trans _ _ _ K1), (keeps_trans _ _ _ K2 K3)).
    destruct r3 as [[q3 errs]|v], r03 as [[envs errs0]|v0]; try done; intros Q; injection Q as <- <- <-.
    + destruct Rr3 as (-> & Rq3 & A3). eexists _, _. split; [reflexivity|]. split; [done|]. split; [done|].
      rewrite app_assoc. done.
    + subst v0. eexists _, _. split; [reflexivity|]. done.
Qed.

Lemma m_message_spec c o oo env q l st st0 st' fs r :
  sort_ok o -> srel st st0 -> rep (ms_mem st) q l -> apart st q ->
  m_message grow junk c o oo env q st = (st', fs, r) ->
  exists st0' r0, e_message c o oo env st0 = (st0', fs, r0) /\ srel st' st0' /\ keeps st st' /\
    match r, r0 with
    | inl (q', errs), inl (envs, errs0) => errs = errs0 /\ rep (ms_mem st') q' (l ++ envs) /\ apart st' q'
    | inr v, inr v0 => v = v0
    | _, _ => False
    end.
Proof.
  intros So R Rq A. unfold m_message, e_message. destruct (targets c env) as [hs|].
  2:{ intros Q. injection Q as <- <- <-. eexists _, _. split; [reflexivity|]. done. }
  destruct (m_handlers grow junk c o oo env hs q st) as [[st1 fs1] r1] eqn:E.
  destruct (m_handlers_spec _ _ _ _ _ _ _ _ _ _ _ _ So R Rq A E) as (st01 & r01 & -> & R1 & K1 & Rr).
  destruct r1 as [[q3 errs]|v], r01 as [[envs errs0]|v0]; try done; intros Q; injection Q as <- <- <-.
  - destruct Rr as (-> & Rq3 & A3). eexists _, _. split; [reflexivity|]. done.
  - subst v0. eexists _, _. split; [reflexivity|]. done.
Qed.

Lemma m_loop_spec c o oo fuel q l err st st0 st' fs r :
  sort_ok o -> srel st st0 -> rep (ms_mem st) q l -> apart st q ->
  m_loop grow junk c o oo fuel q err st = (st', fs, r) ->
  exists st0', e_loop c o oo fuel l err st0 = (st0', fs, r) /\ srel st' st0' /\ keeps st st'.
Proof.
  intros So. revert q l err st st0 st' fs r.
  induction fuel as [|fuel IH]; intros q l err st st0 st' fs r R Rq A.
  - pose proof Rq as (C & L & _). destruct l as [|env l]; simpl in L; simpl; rewrite L.
    + intros Q. injection Q as <- <- <-. eexists. done.
    + intros Q. injection Q as <- <- <-. eexists. done.
  - pose proof Rq as (C & L & _). destruct l as [|env l]; simpl in L; simpl; rewrite L.
    + intros Q. injection Q as <- <- <-. eexists. done.
    + rewrite C. simpl.
      assert (rep (ms_mem st) (slice_from q 1) l) as Rq1.
      { apply (rep_from _ _ _ 1) in Rq; [|simpl; lia]. simpl in Rq. rewrite drop_0 in Rq. done. }
      assert (apart st (slice_from q 1)) as A1.
      { intros n cs x Hn H1 H2. apply in_from in H2. by apply (A n cs x). }
      destruct (m_message grow junk c o oo env (slice_from q 1) st) as [[st1 fs1] r1] eqn:E.
      destruct (m_message_spec _ _ _ _ _ _ _ _ _ _ _ So R Rq1 A1 E) as (st01 & r01 & -> & R1 & K1 & Rr).
      destruct r1 as [[q3 errs]|v], r01 as [[envs errs0]|v0]; try done.
      2:{ subst v0. intros Q; injection Q as <- <- <-. eexists. done. }
      destruct Rr as (-> & Rq3 & A3). pose proof R1 as (G & _). rewrite G.
      set (g2 := mkG (g_next (es_g st01)) (g_user (es_g st01)) (S (g_step (es_g st01)))).
      generalize (ECtx <$> o_ctx o (g_step (es_g st01))). intros ce. pose proof (srel_set_g _ _ g2 R1) as R2.
      destruct ce as [e|].
      { intros Q; injection Q as <- <- <-. eexists. done. }
      destruct (m_loop grow junk c o oo fuel q3 (err ++ errs0) (ms_set_g st1 g2)) as [[st3 fs3] r3] eqn:E3.
      destruct (IH _ _ _ _ _ _ _ _ R2 Rq3 A3 E3) as (st03 & -> & R3 & K3).
      intros Q; injection Q as <- <- <-. eexists. split; [done|]. split; [done|].
      apply (keeps_trans _ _ _ K1), (keeps_trans _ _ _ (keeps_set_g _ _) K3).
Qed.

Lemma m_dispatch_spec c o fuel msg opts st st0 st' fs r :
  sort_ok o -> srel st st0 -> m_dispatch grow junk c o fuel msg opts st = (st', fs, r) ->
  exists st0', e_dispatch c o fuel msg opts st0 = (st0', fs, r) /\ srel st' st0' /\ keeps st st'.
Proof.
  intros So R. unfold m_dispatch, e_dispatch. pose proof R as (G & _). rewrite G.
  destruct (next_id o (es_g st0)) as [g1 id]. pose proof (srel_set_g _ _ g1 R) as R1. clear R G.
  destruct (new_opts c (o_wall o) opts) as [oo|v].
  2:{ intros Q; injection Q as <- <- <-. eexists. done. }
  set (env := new_root id msg (oo_now oo)).
  assert (forall (X : MState * list Fact * Out Errs) X0,
    (X = (st', fs, r) -> exists st0', X0 = (st0', fs, r) /\ srel st' st0' /\ keeps st st') ->
    (match m_kind msg with
     | KTimeout => (ms_set_g st g1, [], Pan (PEngine "cannot dispatch a timeout" (Some msg)))
     | _ => X end = (st', fs, r)) ->
    exists st0', match m_kind msg with
     | KTimeout => (es_set_g st0 g1, [], Pan (PEngine "cannot dispatch a timeout" (Some msg)))
     | _ => X0 end = (st0', fs, r) /\ srel st' st0' /\ keeps st st') as Kind.
  { intros X X0 H. destruct (m_kind msg); [done|done|]. intros Q; injection Q as <- <- <-. eexists. done. }
  apply Kind. clear Kind.
  destruct (m_invalid msg).
  { intros Q; injection Q as <- <- <-. eexists. done. }
  destruct (routes c !! m_type msg).
  2:{ intros Q; injection Q as <- <- <-. eexists. done. }
  pose proof R1 as (G1 & _). rewrite G1. destruct (lock o (es_g (es_set_g st0 g1))) as [g2 le].
  pose proof (srel_set_g _ _ g2 R1) as R2. destruct le as [e|].
  { intros Q; injection Q as <- <- <-. eexists. done. }
  destruct (new_array (ms_mem (ms_set_g (ms_set_g st g1) g2)) [Some env]) as [m3 a] eqn:Na.
  destruct (new_array_spec _ _ _ _ Na) as (R3 & T3 & F3).
  destruct (m_loop grow junk c o oo fuel (mkSlice a 0 1 1) [] (ms_set_mem (ms_set_g (ms_set_g st g1) g2) m3))
    as [[st4 fs4] r4] eqn:E4.
  eapply (m_loop_spec _ _ _ _ _ [env] _ _ (es_set_g (es_set_g st0 g1) g2)) in E4; [|done|..].
  - destruct E4 as (st04 & -> & R4 & K4).
    assert (keeps st st4) as K.
    { apply (keeps_trans _ (ms_set_g st g1) _ (keeps_set_g _ _)), (keeps_trans _ (ms_set_g (ms_set_g st g1) g2) _ (keeps_set_g _ _)).
      refine (keeps_trans _ _ _ (keeps_mem _ _ (fun _ => False) (T3 _) _) K4). tauto. }
    destruct r4; intros Q; injection Q as <- <- <-; eexists; done.
  - apply (srel_mem _ _ _ (fun _ => False) R2 (T3 _)). tauto.
  - done.
  - intros n cs x Hn H1 H2. simpl in Hn. destruct R2 as (_ & R2 & _). specialize (R2 n). simpl in R2. rewrite Hn in R2.
    destruct (es_cs st0 !! n); simpl in R2; [|done]. apply (crep_alloc _ _ _ _ R2 H1). by apply F3.
Qed.

Lemma m_tick_one_spec c o oo h st st0 st' fs r q l :
  srel st st0 -> rep (ms_mem st) q l -> apart st q -> m_tick_one c oo h st = (st', fs, r) ->
  exists st0' r0, e_tick_one c o oo h st0 = (st0', fs, r0) /\ srel st' st0' /\
    res_rel (ms_mem st') r r0 /\ rep (ms_mem st') q l /\ apart st' q /\ keeps st st'.
Proof.
  intros R Rq A. unfold m_tick_one, e_tick_one. destruct (skip_handler h oo) as [sr|].
  { intros Q. injection Q as <- <- <-. eexists _, _. split; [reflexivity|]. split; [done|]. split; [split; [done|apply rep_nil]|].
    split; [done|]. split; [done|]. apply keeps_refl. }
  pose proof R as (G & Rc & D). specialize (Rc (h_name h)).
  destruct (ms_cs st !! h_name h) as [cs|] eqn:E1, (es_cs st0 !! h_name h) as [cs0|] eqn:E2; simpl in Rc; try done.
  2:{ intros Q. injection Q as <- <- <-. eexists _, _. split; [reflexivity|]. done. }
  destruct (m_ctrl_tick h (oo_now oo) (ms_mem st) (ms_g st) cs) as [[[g1 cs1] fs1] r1] eqn:E.
  destruct (m_ctrl_tick_spec _ _ _ _ _ _ _ _ _ _ Rc E) as (cs0' & r0 & H & R1 & Rr & L).
  rewrite <- G, H.
  destruct (srel_ctrl st st0 (h_name h) cs cs0 (ms_mem st) g1 cs1 cs0' R E1 E2 R1 (touches_refl _ _)) as (R2 & Q2 & K2).
  { intros x Hx. left. by apply L. }
  destruct (Q2 q l Rq A) as [Rq2 A2].
  destruct r1 as [s e|v], r0 as [l0 e0|v0]; simpl in Rr; try done; intros Q; injection Q as <- <- <-.
  - destruct Rr as [-> Rr]. eexists _, _. split; [reflexivity|]. split; [done|]. split; [done|]. done.
  - subst v0. eexists _, _. split; [reflexivity|]. done.
Qed.

Lemma m_tick_handlers_spec c o oo hs q l st st0 st' fs r :
  srel st st0 -> rep (ms_mem st) q l -> apart st q ->
  m_tick_handlers grow c o oo hs q st = (st', fs, r) ->
  exists st0' r0, e_tick_handlers c o oo hs st0 = (st0', fs, r0) /\ srel st' st0' /\ keeps st st' /\
    match r, r0 with
    | MTQueue q' errs, TQueue envs errs0 => errs = errs0 /\ rep (ms_mem st') q' (l ++ envs) /\ apart st' q'
    | MTCancel e, TCancel e0 => e = e0
    | MTPan v, TPan v0 => v = v0
    | _, _ => False
    end.
Proof.
  revert q l st st0 st' fs r. induction hs as [|h hs IH]; intros q l st st0 st' fs r R Rq A; simpl.
  - intros Q. injection Q as <- <- <-. eexists _, _. split; [reflexivity|]. split; [done|]. split; [done|]. rewrite app_nil_r. done.
  - destruct (m_tick_one c oo h st) as [[st1 fs1] r1] eqn:E.
    destruct (m_tick_one_spec _ o _ _ _ _ _ _ _ _ _ R Rq A E) as (st01 & r01 & -> & R1 & Rr & Rq1 & A1 & K1).
    destruct r1 as [s e|v], r01 as [l0 e0|v0]; simpl in Rr; try done.
    2:{ subst v0. intros Q. injection Q as <- <- <-. eexists _, _. split; [reflexivity|]. done. }
    destruct Rr as [-> Rs]. rewrite (rep_cells _ _ _ Rs).
    destruct (go_append grow (ms_mem st1) q (Some <$> l0)) as [m2 q2] eqn:Ga.
    destruct (srel_queue _ _ _ _ _ _ _ R1 Rq1 A1 Ga) as (R2 & Rq2 & A2 & K2).
    assert (exists st3 st03 ce, m_poll_unless_skipped o oo h (ms_set_mem st1 m2) = (st3, ce) /\
      poll_unless_skipped o oo h st01 = (st03, ce) /\ srel st3 st03 /\ rep (ms_mem st3) q2 (l ++ l0) /\ apart st3 q2 /\ keeps st st3)
      as (st3 & st03 & ce & -> & -> & R3 & Rq3 & A3 & K3).
    { pose proof (keeps_trans _ _ _ K1 K2) as K. unfold m_poll_unless_skipped, poll_unless_skipped. destruct (skip_handler h oo).
      - eexists _, _, _. split; [reflexivity|]. split; [reflexivity|]. done.
      - pose proof R2 as (G & _). rewrite G. destruct (poll_ctx o (es_g st01)) as [g3 ce].
        eexists _, _, _. split; [reflexivity|]. split; [reflexivity|]. split; [by apply srel_set_g|].
        split; [done|]. split; [done|]. apply (keeps_trans _ _ _ K), keeps_set_g. }
    destruct ce as [e|].
    { intros Q. injection Q as <- <- <-. eexists _, _. split; [reflexivity|]. done. }
    destruct (m_tick_handlers grow c o oo hs q2 st3) as [[st4 fs4] r4] eqn:E4.
    destruct (IH _ _ _ _ _ _ _ R3 Rq3 A3 E4) as (st04 & r04 & -> & R4 & K4 & Rr4).
    intros Q. injection Q as <- <- <-. eexists _, _. split; [reflexivity|]. split; [done|].
    split; [apply (keeps_trans _ _ _ K3 K4)|]. destruct r4 as [q4 errs|e|v], r04 as [envs errs0|e4|v4]; try done.
    destruct Rr4 as (-> & Rq4 & A4). split; [done|]. rewrite app_assoc. done.
Qed.

Lemma m_tick_spec c o fuel order opts st st0 st' fs r :
  sort_ok o -> srel st st0 -> m_tick grow junk c o fuel order opts st = (st', fs, r) ->
  exists st0', e_tick c o fuel order opts st0 = (st0', fs, r) /\ srel st' st0' /\ keeps st st'.
Proof.
  intros So R. unfold m_tick, e_tick. destruct (new_opts c (o_wall o) opts) as [oo|v].
  2:{ intros Q; injection Q as <- <- <-. eexists. done. }
  pose proof R as (G & _). rewrite G. destruct (lock o (es_g st0)) as [g1 le].
  pose proof (srel_set_g _ _ g1 R) as R1. destruct le as [e|].
  { intros Q; injection Q as <- <- <-. eexists. done. }
  unfold m_tick_body, e_tick_body.
  destruct (m_tick_handlers grow c o oo order nil_slice (ms_set_g st g1)) as [[st2 fs2] r2] eqn:E2.
  assert (apart (ms_set_g st g1) nil_slice) as A0 by (intros n cs x _ _ H; by apply in_nil in H).
  destruct (m_tick_handlers_spec _ _ _ _ _ _ _ _ _ _ _ R1 (rep_nil _) A0 E2) as (st02 & r02 & -> & R2 & K2 & Rr).
  pose proof (keeps_trans _ _ _ (keeps_set_g st g1) K2) as K.
  destruct r2 as [q errs|e|v], r02 as [envs errs0|e0|v0]; try done.
  - destruct Rr as (-> & Rq & A). simpl in Rq.
    destruct (m_loop grow junk c o oo fuel q [] st2) as [[st3 fs3] r3] eqn:E3.
    destruct (m_loop_spec _ _ _ _ _ _ _ _ _ _ _ _ So R2 Rq A E3) as (st03 & -> & R3 & K3).
    pose proof (keeps_trans _ _ _ K K3) as K'. destruct r3; intros Q; injection Q as <- <- <-; eexists; done.
  - subst e0. intros Q; injection Q as <- <- <-. eexists. done.
  - subst v0. intros Q; injection Q as <- <- <-. eexists. done.
Qed.

Lemma srel_init c m u : srel (m_init c m u) (e_init c u).
Proof.
  split; [done|]. split.
  - intros n. simpl. rewrite !lookup_fmap. destruct (controllers c !! n) as [h|]; [|done]. simpl.
    unfold mcs_init, cs_init. destruct (h_impl h); simpl.
    + split; [done|]. intros id id' s s' x _ H. by rewrite lookup_empty in H.
    + split; [apply rep_nil|]. split; [done|]. intros id id' p0 H. simpl in H. by rewrite lookup_empty in H.
    + done.
    + done.
  - intros n n' cs cs' x _ H _ Hx _. simpl in H. rewrite lookup_fmap in H. destruct (controllers c !! n) as [h|]; [|done].
    injection H as <-. unfold mcs_init in Hx. destruct (h_impl h); simpl in Hx.
    + destruct Hx as (? & ? & H & _). by rewrite lookup_empty in H.
    + destruct Hx as [H|(? & ? & H & _)]; [by apply in_nil in H|]. simpl in H. by rewrite lookup_empty in H.
    + done.
    + done.
Qed.

Lemma clocs_reset cs x : ~ clocs (mcs_reset cs) x.
Proof.
  destruct cs; simpl; try tauto.
  - intros (? & ? & H & _). by rewrite lookup_empty in H.
  - intros [H|(? & ? & H & _)]; [by apply in_nil in H|]. simpl in H. by rewrite lookup_empty in H.
Qed.

Lemma srel_reset c st st0 : srel st st0 -> srel (m_reset c st) (e_reset c st0).
Proof.
  intros (G & R & D). split; [|split].
  - unfold m_reset, e_reset. simpl. rewrite G. done.
  - intros n. simpl. rewrite !lookup_fmap. specialize (R n).
    destruct (ms_cs st !! n) as [cs|], (es_cs st0 !! n) as [cs0|]; simpl in R |- *; try done.
    destruct cs, cs0; simpl in R |- *; first [done|split; [apply rep_nil|done]].
  - intros n n' cs cs' x _ H _ Hx _. simpl in H. rewrite lookup_fmap in H. destruct (ms_cs st !! n) as [cs1|]; [|done].
    injection H as <-. by apply clocs_reset in Hx.
Qed.

Lemma m_run_op_spec c op st st0 st' evs r :
  op_ok c op -> srel st st0 -> m_run_op grow junk c op st = (st', evs, r) ->
  exists st0', run_op c op st0 = (st0', evs, r) /\ srel st' st0' /\ keeps st st'.
Proof.
  intros Ok R. destruct op as [o fuel m opts|o fuel order opts| |f]; simpl.
  - destruct (m_dispatch grow junk c o fuel m opts st) as [[st1 fs1] r1] eqn:E. intros Q. injection Q as <- <- <-.
    destruct (m_dispatch_spec _ _ _ _ _ _ _ _ _ _ Ok R E) as (st01 & -> & R1 & K1). eexists. done.
  - destruct (m_tick grow junk c o fuel order opts st) as [[st1 fs1] r1] eqn:E. intros Q. injection Q as <- <- <-.
    destruct Ok as [Ok _]. destruct (m_tick_spec _ _ _ _ _ _ _ _ _ _ Ok R E) as (st01 & -> & R1 & K1). eexists. done.
  - intros Q. injection Q as <- <- <-. eexists. split; [reflexivity|]. split; [by apply srel_reset|].
    split; [simpl; lia|]. split; [done|]. intros p _ (n & ps & id & Hn & Hi). simpl in Hn. rewrite lookup_fmap in Hn.
    destruct (ms_cs st !! n) as [cs|]; [|done]. injection Hn as Hn. exfalso. apply (clocs_reset cs (LObj p)). rewrite Hn.
    right. by exists id, p.
  - intros Q. injection Q as <- <- <-. pose proof R as (G & _). rewrite G. eexists. split; [reflexivity|]. split; [by apply srel_set_g|done].
Qed.

End MemEngine.
