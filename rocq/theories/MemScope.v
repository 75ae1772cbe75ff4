(** * Go's memory: what handlers do with their scopes *)
From Verif Require Import MemModel MemLemmas.

Section MemScope.
Context {P : Params} (grow : Mem -> Slice -> nat -> nat) (junk : Root).

(** ** Aggregates *)

Definition arel (m : Mem) (s : MAScope) (t : AScope) : Prop :=
  ma_exists s = as_exists t /\ ma_destroyed s = as_destroyed t /\
  rep m (ma_events s) (as_events t) /\ obj_is m (ma_hroot s) (as_hroot t) /\
  match as_own t with
  | None => ma_root s = ma_hroot s
  | Some r => ma_root s <> ma_hroot s /\ obj_is m (ma_root s) r
  end.
Definition alocs (s : MAScope) (x : Loc) : Prop :=
  x = LObj (ma_hroot s) \/ x = LObj (ma_root s) \/ in_slice (ma_events s) x.

Lemma arel_root m s t : arel m s t -> obj_is m (ma_root s) (as_root t).
Proof.
  intros (_ & _ & _ & H & O). unfold as_root. destruct (as_own t); simpl.
  - apply O.
  - rewrite O. done.
Qed.

Lemma arel_deref m s t : arel m s t -> deref junk m (ma_root s) = as_root t.
Proof. intros R. apply obj_deref, arel_root, R. Qed.

Lemma ma_destroy_spec h a cmd id m s t m' s' fs :
  arel m s t -> ma_destroy junk h a cmd id m s = (m', s', fs) ->
  exists t', a_destroy h a cmd id t = (t', fs) /\ arel m' s' t' /\ touches m m' (alocs s) /\
    (forall x, alocs s' x -> alocs s x \/ fresh_in m x).
Proof.
  intros R. pose proof (arel_deref _ _ _ R) as D. destruct R as (E & De & Ev & H & O).
  unfold ma_destroy, a_destroy. rewrite E, D. destruct (as_exists t) eqn:Ex.
  - destruct (new_obj m (default (as_root t) (ag_new a))) as [m1 p] eqn:N. intros Q. injection Q as <- <- <-.
    destruct (new_obj_spec _ _ _ _ N) as (Op & T & F & Ar).
    assert (p <> ma_hroot s) as Ne.
    { intros ->. destruct H as [_ H]. unfold fresh_in in F. simpl in F. lia. }
    eexists. split; [reflexivity|]. split; [|split].
    + split; [done|]. split; [done|]. simpl. split; [|split; [|split]].
      * apply (rep_frame m m1 (fun _ => False)); [done|apply T|tauto].
      * apply (obj_frame m m1 (fun _ => False)); [done|apply T|tauto].
      * done.
      * done.
    + apply T.
    + intros x [-> |[-> |Hx]]; simpl; [left; left; done|right; done|left; right; right; done].
  - intros Q. injection Q as <- <- <-. eexists. split; [reflexivity|]. split; [|split].
    + split; [by rewrite Ex|]. done.
    + apply touches_refl.
    + intros x Hx. left. done.
Qed.

Lemma arel_set m s t r :
  arel m s t -> arel (set_obj m (ma_root s) r) s (as_set_root t r) /\
  touches m (set_obj m (ma_root s) r) (alocs s).
Proof.
  intros R. destruct (set_obj_spec m (ma_root s) _ r (arel_root _ _ _ R)) as [O1 T1].
  split; [|apply (touches_weaken _ _ _ _ T1); intros x ->; left; right; left; done].
  destruct R as (E & De & Ev & H & O). unfold as_set_root. destruct (as_own t) as [r0|] eqn:Ow.
  - destruct O as [Ne O]. split; [done|]. split; [done|]. simpl. split; [|split; [|split]].
    + apply (rep_frame _ _ _ _ _ Ev T1). intros x [_ ->]. done.
    + apply (obj_frame _ _ _ _ _ H T1). congruence.
    + done.
    + done.
  - split; [done|]. split; [done|]. simpl. split; [|split].
    + apply (rep_frame _ _ _ _ _ Ev T1). intros x [_ ->]. done.
    + rewrite O in O1 |- *. exact O1.
    + done.
Qed.

Lemma as_set_root_root t r : as_root (as_set_root t r) = r.
Proof. unfold as_set_root, as_root. destruct (as_own t) eqn:E; simpl; [done|]. done. Qed.
Lemma as_set_root_exists t r : as_exists (as_set_root t r) = as_exists t.
Proof. unfold as_set_root. destruct (as_own t); done. Qed.
Lemma as_set_root_destroyed t r : as_destroyed (as_set_root t r) = as_destroyed t.
Proof. unfold as_set_root. destruct (as_own t); done. Qed.

Lemma arel_event m s t evs ev m' :
  arel m s t -> go_append grow m (ma_events s) [Some ev] = (m', evs) ->
  let s' := mkMAScope (ma_hroot s) (ma_root s) (ma_exists s) (ma_destroyed s) evs in
  let t' := mkAScope (as_hroot t) (as_own t) (as_exists t) (as_destroyed t) (as_events t ++ [ev]) in
  arel m' s' t' /\ touches m m' (alocs s) /\ (forall x, alocs s' x -> alocs s x \/ fresh_in m x).
Proof.
  intros R A s' t'. destruct R as (E & De & Ev & H & O).
  destruct (append_spec grow m (ma_events s) (as_events t) [ev] m' evs Ev A) as (Rp & T & Lc & Ob).
  split; [|split].
  - split; [done|]. split; [done|]. split; [done|]. simpl.
    split; [apply (obj_frame _ _ _ _ _ H T); intros [_ ?]; done|].
    destruct (as_own t); [|done]. destruct O as [Ne O]. split; [done|].
    apply (obj_frame _ _ _ _ _ O T). intros [_ ?]. done.
  - apply (touches_weaken _ _ _ _ T). intros x Hx. left. right. right. done.
  - intros x [-> |[-> |Hx]]; [left; left; done|left; right; left; done|].
    destruct (Lc x Hx) as [?|?]; [left; right; right; done|right; done].
Qed.

Lemma ma_record_spec o h a now cmd id b m g s t m' g' s' fs v :
  arel m s t -> ma_record grow junk o h a now cmd id b m g s = (m', g', s', fs, v) ->
  exists t', a_record o h a now cmd id b g t = (g', t', fs, v) /\ arel m' s' t' /\
    touches m m' (alocs s) /\ (forall x, alocs s' x -> alocs s x \/ fresh_in m x).
Proof.
  intros R. pose proof (arel_deref _ _ _ R) as D. unfold ma_record, a_record.
  set (msg := mkMsg KEvent b). destruct (negb (produces h (m_type msg))) eqn:Pr.
  { intros Q. injection Q as <- <- <- <- <-. eexists. split; [reflexivity|].
    split; [done|]. split; [apply touches_refl|]. intros x Hx. by left. }
  destruct (m_invalid msg) as [er|].
  { intros Q. injection Q as <- <- <- <- <-. eexists. split; [reflexivity|].
    split; [done|]. split; [apply touches_refl|]. intros x Hx. by left. }
  assert (exists s1 t1 fs1,
    (if ma_exists s then (s, []) else
       (mkMAScope (ma_hroot s) (ma_root s) true false (ma_events s),
         [if ma_destroyed s
          then AggregateInstanceDestructionReverted (h_id h) id (deref junk m (ma_root s)) cmd
          else AggregateInstanceCreated (h_id h) id (deref junk m (ma_root s)) cmd])) = (s1, fs1) /\
    (if as_exists t then (t, []) else
       (mkAScope (as_hroot t) (as_own t) true false (as_events t),
         [if as_destroyed t
          then AggregateInstanceDestructionReverted (h_id h) id (as_root t) cmd
          else AggregateInstanceCreated (h_id h) id (as_root t) cmd])) = (t1, fs1) /\
    arel m s1 t1 /\ (forall x, alocs s1 x <-> alocs s x)) as (s1 & t1 & fs1 & -> & -> & R1 & L1).
  { destruct R as (E & De & Ev & H & O). rewrite E, De, D. destruct (as_exists t) eqn:Ex.
    - exists s, t, []. split; [done|]. split; [done|]. split; [|done].
      split; [by rewrite Ex|]. done.
    - eexists _, _, _. split; [reflexivity|]. split; [reflexivity|]. split; [|done].
      split; [done|]. done. }
  rewrite (arel_deref _ _ _ R1). destruct (ag_apply a (as_root t1) msg) as [r v1] eqn:Ap.
  destruct (arel_set m s1 t1 r R1) as [R2 T2].
  assert (touches m (set_obj m (ma_root s1) r) (alocs s)) as T2'.
  { apply (touches_weaken _ _ _ _ T2). intros x Hx. left. by apply L1. }
  destruct (enrich (h_id h) "AggregateRoot" "ApplyEvent" msg v1) as [v2|].
  { intros Q. injection Q as <- <- <- <- <-. eexists. split; [reflexivity|]. split; [done|]. split; [done|].
    intros x Hx. left. by apply L1. }
  destruct (next_id o g) as [g1 mid] eqn:Nx.
  set (ev := new_child cmd mid msg now (mkOrigin (h_id h) HTAggregate id)).
  destruct (go_append grow (set_obj m (ma_root s1) r) (ma_events s1) [Some ev]) as [m2 evs] eqn:Ga.
  intros Q. injection Q as <- <- <- <- <-.
  destruct (arel_event _ _ _ _ _ _ R2 Ga) as (R3 & T3 & L3).
  eexists. split; [|split; [exact R3|]].
  - f_equal. f_equal. f_equal. f_equal. f_equal.
    destruct (append_spec grow _ _ _ [ev] _ _ (proj1 (proj2 (proj2 R2))) Ga) as (_ & _ & _ & Ob).
    pose proof (arel_deref _ _ _ R2) as D2.
    unfold deref in D2 |- *. rewrite Ob. symmetry. exact D2.
  - split.
    + apply (touches_trans _ _ _ _ _ T2' T3). intros x Hx. left. by apply L1.
    + intros x Hx. destruct (L3 x Hx) as [Hy|Hy]; [left; by apply L1|].
      right. apply (fresh_later _ _ _ _ T2' Hy).
Qed.

Lemma ma_run_spec o h a now cmd id p m g s t m' g' s' fs v :
  arel m s t -> ma_run grow junk o h a now cmd id p m g s = (m', g', s', fs, v) ->
  exists t', a_run o h a now cmd id p g t = (g', t', fs, v) /\ arel m' s' t' /\
    touches m m' (alocs s) /\ (forall x, alocs s' x -> alocs s x \/ fresh_in m x).
Proof.
  revert m g s t m' g' s' fs v.
  induction p as [|v0|f k IH|f k IH|b k IH|k IH|str k IH]; intros m g s t m' g' s' fs v R; simpl.
  - intros Q. injection Q as <- <- <- <- <-. eexists. split; [reflexivity|].
    split; [done|]. split; [apply touches_refl|]. intros x Hx. by left.
  - intros Q. injection Q as <- <- <- <- <-. eexists. split; [reflexivity|].
    split; [done|]. split; [apply touches_refl|]. intros x Hx. by left.
  - intros Q. apply (IH _ _ _ _ _ _ _ _ _ _ R Q).
  - pose proof R as R0. destruct R as (E & De & Ev & H & O). rewrite (obj_deref junk _ _ _ H).
    set (r := f (as_hroot t)). destruct (set_obj_spec m (ma_hroot s) _ r H) as [O1 T1].
    intros Q. eapply (IH r _ _ _ (mkAScope r (as_own t) (as_exists t) (as_destroyed t) (as_events t))) in Q.
    + destruct Q as (t' & Q & R' & T' & L'). exists t'. split; [done|]. split; [done|].
      assert (touches m (set_obj m (ma_hroot s) r) (alocs s)) as T1'.
      { apply (touches_weaken _ _ _ _ T1). intros x ->. left. by left. }
      split; [apply (touches_trans _ _ _ _ _ T1' T'); intros x Hx; by left|].
      intros x Hx. destruct (L' x Hx) as [?|F]; [by left|]. right. apply (fresh_later _ _ _ _ T1' F).
    + split; [done|]. split; [done|]. simpl. split; [|split; [done|]].
      * apply (rep_frame _ _ _ _ _ Ev T1). intros x [_ ->]. done.
      * destruct (as_own t); [|done]. destruct O as [Ne O]. split; [done|].
        apply (obj_frame _ _ _ _ _ O T1). congruence.
  - destruct (ma_record grow junk o h a now cmd id b m g s) as [[[[m1 g1] s1] fs1] v1] eqn:Re.
    destruct (ma_run grow junk o h a now cmd id (k v1) m1 g1 s1) as [[[[m2 g2] s2] fs2] v2] eqn:Ru.
    intros Q. injection Q as <- <- <- <- <-.
    destruct (ma_record_spec _ _ _ _ _ _ _ _ _ _ _ _ _ _ _ _ R Re) as (t1 & -> & R1 & T1 & L1).
    destruct (IH _ _ _ _ _ _ _ _ _ _ R1 Ru) as (t2 & -> & R2 & T2 & L2).
    eexists. split; [reflexivity|]. split; [done|].
    split; [apply (touches_trans _ _ _ _ _ T1 T2); exact L1|].
    intros x Hx. destruct (L2 x Hx) as [Hy|Hy]; [by apply L1|]. right. apply (fresh_later _ _ _ _ T1 Hy).
  - destruct (ma_destroy junk h a cmd id m s) as [[m1 s1] fs1] eqn:Re.
    destruct (ma_run grow junk o h a now cmd id k m1 g s1) as [[[[m2 g2] s2] fs2] v2] eqn:Ru.
    intros Q. injection Q as <- <- <- <- <-.
    destruct (ma_destroy_spec _ _ _ _ _ _ _ _ _ _ R Re) as (t1 & -> & R1 & T1 & L1).
    destruct (IH _ _ _ _ _ _ _ _ _ R1 Ru) as (t2 & -> & R2 & T2 & L2).
    eexists. split; [reflexivity|]. split; [done|].
    split; [apply (touches_trans _ _ _ _ _ T1 T2); exact L1|].
    intros x Hx. destruct (L2 x Hx) as [Hy|Hy]; [by apply L1|]. right. apply (fresh_later _ _ _ _ T1 Hy).
  - destruct (ma_run grow junk o h a now cmd id k m g s) as [[[[m2 g2] s2] fs2] v2] eqn:Ru.
    intros Q. injection Q as <- <- <- <- <-. rewrite (arel_deref _ _ _ R).
    destruct (IH _ _ _ _ _ _ _ _ _ R Ru) as (t2 & -> & R2 & T2 & L2).
    eexists. split; [reflexivity|]. done.
Qed.

Lemma ma_replay_spec h a m p r evs m' v :
  obj_is m p r -> ma_replay junk h a m p evs = (m', v) ->
  exists r', a_replay h a r evs = (r', v) /\ obj_is m' p r' /\ touches m m' (fun x => x = LObj p).
Proof.
  revert m r m' v. induction evs as [|ev evs IH]; intros m r m' v O; simpl.
  - intros Q. injection Q as <- <-. eexists. split; [reflexivity|]. split; [done|]. apply touches_refl.
  - rewrite (obj_deref junk _ _ _ O). destruct (ag_apply a r (e_msg ev)) as [r1 v1].
    destruct (set_obj_spec m p r r1 O) as [O1 T1].
    destruct (enrich (h_id h) "AggregateRoot" "ApplyEvent" (e_msg ev) v1) as [v2|].
    + intros Q. injection Q as <- <-. eexists. split; [reflexivity|]. done.
    + intros Q. destruct (IH _ _ _ _ O1 Q) as (r2 & E & O2 & T2). exists r2. split; [done|]. split; [done|].
      apply (touches_trans _ _ _ _ _ T1 T2). intros x Hx. by left.
Qed.

(** ** Processes *)

Definition prel (m : Mem) (s : MPScope) (t : PScope) : Prop :=
  mp_ended s = ps_ended t /\ obj_is m (mp_root s) (ps_root t) /\
  rep m (mp_commands s) (ps_commands t) /\ rep m (mp_ready s) (ps_ready t) /\ rep m (mp_pending s) (ps_pending t) /\
  (forall x, in_slice (mp_commands s) x -> in_slice (mp_ready s) x -> False) /\
  (forall x, in_slice (mp_commands s) x -> in_slice (mp_pending s) x -> False) /\
  (forall x, in_slice (mp_ready s) x -> in_slice (mp_pending s) x -> False).
(** The slices; the root is not the scope's own. *)
Definition pslices (s : MPScope) (x : Loc) : Prop :=
  in_slice (mp_commands s) x \/ in_slice (mp_ready s) x \/ in_slice (mp_pending s) x.
Definition plocs (s : MPScope) (x : Loc) : Prop := x = LObj (mp_root s) \/ pslices s x.

Lemma prel_deref m s t : prel m s t -> deref junk m (mp_root s) = ps_root t.
Proof. intros (_ & O & _). by apply obj_deref. Qed.

Lemma mp_revert_spec h env id m s t s' fs :
  prel m s t -> mp_revert junk h env id m s = (s', fs) ->
  exists t', p_revert h env id t = (t', fs) /\ prel m s' t' /\ mp_root s' = mp_root s /\
    (forall x, pslices s' x <-> pslices s x).
Proof.
  intros R. pose proof (prel_deref _ _ _ R) as D. unfold mp_revert, p_revert. destruct R as (E & R).
  rewrite E, D. destruct (ps_ended t) eqn:En; intros Q; injection Q as <- <-.
  - eexists. split; [reflexivity|]. split; [split; [done|exact R]|]. done.
  - eexists. split; [reflexivity|]. split; [split; [by rewrite En|exact R]|]. done.
Qed.

Lemma append_next m s l xs m' s' :
  rep m s l -> go_append grow m s (Some <$> xs) = (m', s') -> m_next m <= m_next m'.
Proof. intros R A. destruct (append_spec grow _ _ _ _ _ _ R A) as (_ & [? _] & _). done. Qed.

(** Appending to one of the slices leaves the other ones alone. *)
Lemma append_commands m s t c m' l :
  prel m s t -> go_append grow m (mp_commands s) [Some c] = (m', l) ->
  let s' := mkMPScope (mp_root s) (mp_ended s) l (mp_ready s) (mp_pending s) in
  prel m' s' (mkPScope (ps_root t) (ps_ended t) (ps_commands t ++ [c]) (ps_ready t) (ps_pending t)) /\
  touches m m' (pslices s) /\ (forall x, pslices s' x -> pslices s x \/ fresh_in m x).
Proof.
  intros (E & O & C & Re & Pe & D1 & D2 & D3) A s'.
  destruct (append_spec grow m (mp_commands s) (ps_commands t) [c] m' l C A) as (Rp & T & Lc & Ob).
  assert (forall s0 l0 x, rep m s0 l0 -> (forall x, in_slice (mp_commands s) x -> in_slice s0 x -> False) ->
    in_slice l x -> in_slice s0 x -> False) as Dj.
  { intros s0 l0 x R0 D Hl H0. destruct (Lc x Hl) as [Hc|F]; [by apply (D x)|]. by apply (rep_alloc _ _ _ _ R0 H0). }
  split; [|split].
  - split; [done|]. simpl. split; [apply (obj_frame _ _ _ _ _ O T); intros [_ ?]; done|].
    split; [done|]. split; [apply (rep_frame _ _ _ _ _ Re T); intros x H1 H2; by apply (D1 x)|].
    split; [apply (rep_frame _ _ _ _ _ Pe T); intros x H1 H2; by apply (D2 x)|].
    split; [intros x; apply (Dj _ _ x Re D1)|]. split; [intros x; apply (Dj _ _ x Pe D2)|done].
  - apply (touches_weaken _ _ _ _ T). intros x Hx. left. by left.
  - intros x [Hx|Hx]; [|left; by right]. destruct (Lc x Hx); [left; by left|by right].
Qed.

Lemma append_ready m s t c m' l :
  prel m s t -> go_append grow m (mp_ready s) [Some c] = (m', l) ->
  let s' := mkMPScope (mp_root s) (mp_ended s) (mp_commands s) l (mp_pending s) in
  prel m' s' (mkPScope (ps_root t) (ps_ended t) (ps_commands t) (ps_ready t ++ [c]) (ps_pending t)) /\
  touches m m' (pslices s) /\ (forall x, pslices s' x -> pslices s x \/ fresh_in m x).
Proof.
  intros (E & O & C & Re & Pe & D1 & D2 & D3) A s'.
  destruct (append_spec grow m (mp_ready s) (ps_ready t) [c] m' l Re A) as (Rp & T & Lc & Ob).
  split; [|split].
  - split; [done|]. simpl. split; [apply (obj_frame _ _ _ _ _ O T); intros [_ ?]; done|].
    split; [apply (rep_frame _ _ _ _ _ C T); intros x H1 H2; by apply (D1 x)|]. split; [done|].
    split; [apply (rep_frame _ _ _ _ _ Pe T); intros x H1 H2; by apply (D3 x)|].
    split; [|split; [done|]].
    + intros x Hc Hl. destruct (Lc x Hl) as [H|F]; [by apply (D1 x)|]. by apply (rep_alloc _ _ _ _ C Hc).
    + intros x Hl Hp. destruct (Lc x Hl) as [H|F]; [by apply (D3 x)|]. by apply (rep_alloc _ _ _ _ Pe Hp).
  - apply (touches_weaken _ _ _ _ T). intros x Hx. left. right. by left.
  - intros x [Hx|[Hx|Hx]]; [left; by left| |left; right; by right].
    destruct (Lc x Hx); [left; right; by left|by right].
Qed.

Lemma append_pending m s t c m' l :
  prel m s t -> go_append grow m (mp_pending s) [Some c] = (m', l) ->
  let s' := mkMPScope (mp_root s) (mp_ended s) (mp_commands s) (mp_ready s) l in
  prel m' s' (mkPScope (ps_root t) (ps_ended t) (ps_commands t) (ps_ready t) (ps_pending t ++ [c])) /\
  touches m m' (pslices s) /\ (forall x, pslices s' x -> pslices s x \/ fresh_in m x).
Proof.
  intros (E & O & C & Re & Pe & D1 & D2 & D3) A s'.
  destruct (append_spec grow m (mp_pending s) (ps_pending t) [c] m' l Pe A) as (Rp & T & Lc & Ob).
  split; [|split].
  - split; [done|]. simpl. split; [apply (obj_frame _ _ _ _ _ O T); intros [_ ?]; done|].
    split; [apply (rep_frame _ _ _ _ _ C T); intros x H1 H2; by apply (D2 x)|].
    split; [apply (rep_frame _ _ _ _ _ Re T); intros x H1 H2; by apply (D3 x)|]. split; [done|].
    split; [done|]. split.
    + intros x Hc Hl. destruct (Lc x Hl) as [H|F]; [by apply (D2 x)|]. by apply (rep_alloc _ _ _ _ C Hc).
    + intros x Hc Hl. destruct (Lc x Hl) as [H|F]; [by apply (D3 x)|]. by apply (rep_alloc _ _ _ _ Re Hc).
  - apply (touches_weaken _ _ _ _ T). intros x Hx. left. right. by right.
  - intros x [Hx|[Hx|Hx]]; [left; by left|left; right; by left|].
    destruct (Lc x Hx); [left; right; by right|by right].
Qed.

Lemma mp_execute_spec o h now env id meth b m g s t m' g' s' fs v :
  prel m s t -> mp_execute grow junk o h now env id meth b m g s = (m', g', s', fs, v) ->
  exists t', p_execute o h now env id meth b g t = (g', t', fs, v) /\ prel m' s' t' /\ mp_root s' = mp_root s /\
    touches m m' (pslices s) /\ (forall x, pslices s' x -> pslices s x \/ fresh_in m x).
Proof.
  intros R. unfold mp_execute, p_execute. set (msg := mkMsg KCommand b).
  destruct (p_check h env meth msg) as [v1|].
  { intros Q. injection Q as <- <- <- <- <-. eexists. split; [reflexivity|].
    split; [done|]. split; [done|]. split; [apply touches_refl|]. intros x Hx. by left. }
  destruct (mp_revert junk h env id m s) as [s1 fs1] eqn:Rv.
  destruct (mp_revert_spec _ _ _ _ _ _ _ _ R Rv) as (t1 & -> & R1 & Rt & L1).
  destruct (next_id o g) as [g1 mid]. set (c := new_child env mid msg now (mkOrigin (h_id h) HTProcess id)).
  destruct (go_append grow m (mp_commands s1) [Some c]) as [m2 l] eqn:Ga.
  intros Q. injection Q as <- <- <- <- <-.
  destruct (append_commands _ _ _ _ _ _ R1 Ga) as (R2 & T2 & L2).
  eexists. split; [|split; [exact R2|]].
  - pose proof (prel_deref _ _ _ R2) as D. simpl in D. rewrite D. done.
  - split; [done|]. split.
    + apply (touches_weaken _ _ _ _ T2). intros x Hx. left. by apply L1.
    + intros x Hx. destruct (L2 x Hx); [left; by apply L1|by right].
Qed.

Lemma mp_schedule_spec o h now env id meth b ti m g s t m' g' s' fs v :
  prel m s t -> mp_schedule grow junk o h now env id meth b ti m g s = (m', g', s', fs, v) ->
  exists t', p_schedule o h now env id meth b ti g t = (g', t', fs, v) /\ prel m' s' t' /\ mp_root s' = mp_root s /\
    touches m m' (pslices s) /\ (forall x, pslices s' x -> pslices s x \/ fresh_in m x).
Proof.
  intros R. unfold mp_schedule, p_schedule. set (msg := mkMsg KTimeout b).
  destruct (p_check h env meth msg) as [v1|].
  { intros Q. injection Q as <- <- <- <- <-. eexists. split; [reflexivity|].
    split; [done|]. split; [done|]. split; [apply touches_refl|]. intros x Hx. by left. }
  destruct (mp_revert junk h env id m s) as [s1 fs1] eqn:Rv.
  destruct (mp_revert_spec _ _ _ _ _ _ _ _ R Rv) as (t1 & -> & R1 & Rt & L1).
  destruct (next_id o g) as [g1 mid]. set (c := new_timeout env mid msg now ti (mkOrigin (h_id h) HTProcess id)).
  destruct (now <? ti)%Z.
  - destruct (go_append grow m (mp_pending s1) [Some c]) as [m2 l] eqn:Ga.
    intros Q. injection Q as <- <- <- <- <-.
    destruct (append_pending _ _ _ _ _ _ R1 Ga) as (R2 & T2 & L2).
    eexists. split; [|split; [exact R2|]].
    + pose proof (prel_deref _ _ _ R2) as D. simpl in D |- *. rewrite D. done.
    + split; [done|]. split.
      * apply (touches_weaken _ _ _ _ T2). intros x Hx. left. by apply L1.
      * intros x Hx. destruct (L2 x Hx); [left; by apply L1|by right].
  - destruct (go_append grow m (mp_ready s1) [Some c]) as [m2 l] eqn:Ga.
    intros Q. injection Q as <- <- <- <- <-.
    destruct (append_ready _ _ _ _ _ _ R1 Ga) as (R2 & T2 & L2).
    eexists. split; [|split; [exact R2|]].
    + pose proof (prel_deref _ _ _ R2) as D. simpl in D |- *. rewrite D. done.
    + split; [done|]. split.
      * apply (touches_weaken _ _ _ _ T2). intros x Hx. left. by apply L1.
      * intros x Hx. destruct (L2 x Hx); [left; by apply L1|by right].
Qed.

Lemma plocs_step m m' (s s' : MPScope) :
  touches m m' (pslices s) -> mp_root s' = mp_root s ->
  (forall x, pslices s' x -> pslices s x \/ fresh_in m x) ->
  touches m m' (plocs s) /\ (forall x, plocs s' x -> plocs s x \/ fresh_in m x).
Proof.
  intros T Rt L. split.
  - apply (touches_weaken _ _ _ _ T). intros x Hx. left. by right.
  - intros x [-> |Hx]; [left; left; by rewrite Rt|]. destruct (L x Hx); [left; by right|by right].
Qed.

Lemma mp_run_spec o h now env id meth p m g s t m' g' s' fs r :
  prel m s t -> mp_run grow junk o h now env id meth p m g s = (m', g', s', fs, r) ->
  exists t', p_run o h now env id meth p g t = (g', t', fs, r) /\ prel m' s' t' /\ mp_root s' = mp_root s /\
    touches m m' (plocs s) /\ (forall x, pslices s' x -> pslices s x \/ fresh_in m x).
Proof.
  revert m g s t m' g' s' fs r.
  induction p as [e|v0|f k IH|f k IH|b k IH|b ti k IH|k IH|str k IH]; intros m g s t m' g' s' fs r R; simpl.
  - intros Q. injection Q as <- <- <- <- <-. eexists. split; [reflexivity|].
    split; [done|]. split; [done|]. split; [apply touches_refl|]. intros x Hx. by left.
  - intros Q. injection Q as <- <- <- <- <-. eexists. split; [reflexivity|].
    split; [done|]. split; [done|]. split; [apply touches_refl|]. intros x Hx. by left.
  - intros Q. apply (IH _ _ _ _ _ _ _ _ _ _ R Q).
  - rewrite (prel_deref _ _ _ R). pose proof R as R0. destruct R as (E & O & C & Re & Pe & D).
    set (r0 := f (ps_root t)). destruct (set_obj_spec m (mp_root s) _ r0 O) as [O1 T1].
    assert (touches m (set_obj m (mp_root s) r0) (plocs s)) as T1'.
    { apply (touches_weaken _ _ _ _ T1). intros x ->. left. by left. }
    intros Q. eapply (IH r0 _ _ _ (mkPScope r0 (ps_ended t) (ps_commands t) (ps_ready t) (ps_pending t))) in Q.
    + destruct Q as (t' & Q & R' & Rt & T' & L'). exists t'. split; [done|]. split; [done|]. split; [done|].
      split; [apply (touches_trans _ _ _ _ _ T1' T'); intros x Hx; by left|].
      intros x Hx. destruct (L' x Hx) as [?|F]; [by left|]. right. apply (fresh_later _ _ _ _ T1' F).
    + split; [done|]. simpl. split; [done|].
      split; [apply (rep_frame _ _ _ _ _ C T1); intros x [_ ->]; done|].
      split; [apply (rep_frame _ _ _ _ _ Re T1); intros x [_ ->]; done|].
      split; [apply (rep_frame _ _ _ _ _ Pe T1); intros x [_ ->]; done|]. exact D.
  - destruct (mp_execute grow junk o h now env id meth b m g s) as [[[[m1 g1] s1] fs1] v1] eqn:Re.
    destruct (mp_run grow junk o h now env id meth (k v1) m1 g1 s1) as [[[[m2 g2] s2] fs2] v2] eqn:Ru.
    intros Q. injection Q as <- <- <- <- <-.
    destruct (mp_execute_spec _ _ _ _ _ _ _ _ _ _ _ _ _ _ _ _ R Re) as (t1 & -> & R1 & Rt1 & T1 & L1).
    destruct (IH _ _ _ _ _ _ _ _ _ _ R1 Ru) as (t2 & -> & R2 & Rt2 & T2 & L2).
    destruct (plocs_step _ _ _ _ T1 Rt1 L1) as [T1' L1'].
    eexists. split; [reflexivity|]. split; [done|]. split; [congruence|].
    split; [apply (touches_trans _ _ _ _ _ T1' T2); exact L1'|].
    intros x Hx. destruct (L2 x Hx) as [Hy|Hy]; [by apply L1|]. right. apply (fresh_later _ _ _ _ T1 Hy).
  - destruct (mp_schedule grow junk o h now env id meth b ti m g s) as [[[[m1 g1] s1] fs1] v1] eqn:Re.
    destruct (mp_run grow junk o h now env id meth (k v1) m1 g1 s1) as [[[[m2 g2] s2] fs2] v2] eqn:Ru.
    intros Q. injection Q as <- <- <- <- <-.
    destruct (mp_schedule_spec _ _ _ _ _ _ _ _ _ _ _ _ _ _ _ _ _ R Re) as (t1 & -> & R1 & Rt1 & T1 & L1).
    destruct (IH _ _ _ _ _ _ _ _ _ _ R1 Ru) as (t2 & -> & R2 & Rt2 & T2 & L2).
    destruct (plocs_step _ _ _ _ T1 Rt1 L1) as [T1' L1'].
    eexists. split; [reflexivity|]. split; [done|]. split; [congruence|].
    split; [apply (touches_trans _ _ _ _ _ T1' T2); exact L1'|].
    intros x Hx. destruct (L2 x Hx) as [Hy|Hy]; [by apply L1|]. right. apply (fresh_later _ _ _ _ T1 Hy).
  - unfold mp_end, p_end. rewrite (prel_deref _ _ _ R). pose proof R as R0. destruct R as (E & R).
    rewrite E. destruct (ps_ended t) eqn:En.
    + destruct (mp_run grow junk o h now env id meth k m g s) as [[[[m2 g2] s2] fs2] v2] eqn:Ru.
      intros Q. injection Q as <- <- <- <- <-.
      destruct (IH _ _ _ _ _ _ _ _ _ R0 Ru) as (t2 & -> & R2 & Rt2 & T2 & L2).
      eexists. split; [reflexivity|]. done.
    + set (s1 := mkMPScope _ _ _ _ _). set (t1 := mkPScope _ _ _ _ _).
      destruct (mp_run grow junk o h now env id meth k m g s1) as [[[[m2 g2] s2] fs2] v2] eqn:Ru.
      intros Q. injection Q as <- <- <- <- <-.
      assert (prel m s1 t1) as R1 by (split; [done|exact R]).
      destruct (IH _ _ _ _ _ _ _ _ _ R1 Ru) as (t2 & -> & R2 & Rt2 & T2 & L2).
      eexists. split; [reflexivity|]. done.
  - rewrite (prel_deref _ _ _ R).
    destruct (mp_run grow junk o h now env id meth k m g s) as [[[[m2 g2] s2] fs2] v2] eqn:Ru.
    intros Q. injection Q as <- <- <- <- <-.
    destruct (IH _ _ _ _ _ _ _ _ _ R Ru) as (t2 & -> & R2 & Rt2 & T2 & L2).
    eexists. split; [reflexivity|]. done.
Qed.

(** ** Integrations *)

Lemma mi_run_spec o h now cmd p m g s l m' g' s' fs r :
  rep m s l -> mi_run grow o h now cmd p m g s = (m', g', s', fs, r) ->
  exists l', i_run o h now cmd p g l = (g', l', fs, r) /\ rep m' s' l' /\ touches m m' (in_slice s) /\
    (forall x, in_slice s' x -> in_slice s x \/ fresh_in m x).
Proof.
  revert m g s l m' g' s' fs r.
  induction p as [e|v0|f k IH|b k IH|str k IH]; intros m g s l m' g' s' fs r R; simpl.
  - intros Q. injection Q as <- <- <- <- <-. eexists. split; [reflexivity|].
    split; [done|]. split; [apply touches_refl|]. intros x Hx. by left.
  - intros Q. injection Q as <- <- <- <- <-. eexists. split; [reflexivity|].
    split; [done|]. split; [apply touches_refl|]. intros x Hx. by left.
  - intros Q. apply (IH _ _ _ _ _ _ _ _ _ _ R Q).
  - unfold mi_record, i_record. set (msg := mkMsg KEvent b).
    destruct (negb (produces h (m_type msg))) eqn:Pr; [|destruct (m_invalid msg) as [er|] eqn:Iv].
    + set (v := Some _). destruct (mi_run grow o h now cmd (k v) m g s) as [[[[m2 g2] s2] fs2] r2] eqn:Ru.
      intros Q. injection Q as <- <- <- <- <-.
      destruct (IH _ _ _ _ _ _ _ _ _ _ R Ru) as (l2 & -> & R2 & T2 & L2). eexists. split; [reflexivity|]. done.
    + set (v := Some _). destruct (mi_run grow o h now cmd (k v) m g s) as [[[[m2 g2] s2] fs2] r2] eqn:Ru.
      intros Q. injection Q as <- <- <- <- <-.
      destruct (IH _ _ _ _ _ _ _ _ _ _ R Ru) as (l2 & -> & R2 & T2 & L2). eexists. split; [reflexivity|]. done.
    + destruct (next_id o g) as [g1 mid]. set (ev := new_child _ _ _ _ _).
      destruct (go_append grow m s [Some ev]) as [m1 s1] eqn:Ga.
      destruct (mi_run grow o h now cmd (k None) m1 g1 s1) as [[[[m2 g2] s2] fs2] r2] eqn:Ru.
      intros Q. injection Q as <- <- <- <- <-.
      destruct (append_spec grow m s l [ev] _ _ R Ga) as (R1 & T1 & L1 & _).
      destruct (IH _ _ _ _ _ _ _ _ _ _ R1 Ru) as (l2 & -> & R2 & T2 & L2).
      eexists. split; [reflexivity|]. split; [done|].
      split; [apply (touches_trans _ _ _ _ _ T1 T2); exact L1|].
      intros x Hx. destruct (L2 x Hx) as [Hy|Hy]; [by apply L1|]. right. apply (fresh_later _ _ _ _ T1 Hy).
  - destruct (mi_run grow o h now cmd k m g s) as [[[[m2 g2] s2] fs2] r2] eqn:Ru.
    intros Q. injection Q as <- <- <- <- <-.
    destruct (IH _ _ _ _ _ _ _ _ _ R Ru) as (l2 & -> & R2 & T2 & L2). eexists. split; [reflexivity|]. done.
Qed.

End MemScope.
