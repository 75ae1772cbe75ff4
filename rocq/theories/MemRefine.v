(** * Go's memory: the engine with slices does what the engine with lists does *)
From Verif Require Import MemModel MemLemmas MemScope.

Section MemRefine.
Context {P : Params} (grow : Mem -> Slice -> nat -> nat) (junk : Root).

(** What a controller keeps. *)
Definition pslocs (ps : MPState) (x : Loc) : Prop :=
  in_slice (mc_timeouts ps) x \/ exists id p, mc_instances ps !! id = Some p /\ x = LObj p.
Definition hlocs (hist : gmap string Slice) (x : Loc) : Prop :=
  exists id s, hist !! id = Some s /\ in_slice s x.
Definition clocs (cs : MCState) (x : Loc) : Prop :=
  match cs with
  | MCAgg hist => hlocs hist x
  | MCProc ps => pslocs ps x
  | _ => False
  end.

Definition both {A B} (R : A -> B -> Prop) (x : option A) (y : option B) : Prop :=
  match x, y with Some a, Some b => R a b | None, None => True | _, _ => False end.

Definition hrep (m : Mem) (h : gmap string Slice) (h' : gmap string (list Env)) : Prop :=
  (forall id, both (rep m) (h !! id) (h' !! id)) /\
  (forall id id' s s' x, id <> id' -> h !! id = Some s -> h !! id' = Some s' ->
     in_slice s x -> in_slice s' x -> False).
Definition psrep (m : Mem) (ps : MPState) (ps' : PState) : Prop :=
  rep m (mc_timeouts ps) (pc_timeouts ps') /\
  (forall id, both (obj_is m) (mc_instances ps !! id) (pc_instances ps' !! id)) /\
  (forall id id' p, mc_instances ps !! id = Some p -> mc_instances ps !! id' = Some p -> id = id').
Definition crep (m : Mem) (cs : MCState) (cs' : CState) : Prop :=
  match cs, cs' with
  | MCAgg h, CSAgg h' => hrep m h h'
  | MCProc ps, CSProc ps' => psrep m ps ps'
  | MCInt, CSInt => True
  | MCProj z, CSProj z' => z = z'
  | _, _ => False
  end.
Definition res_rel (m : Mem) (r : SRes) (r' : HRes) : Prop :=
  match r, r' with
  | SRet s e, HRet l e' => e = e' /\ rep m s l
  | SPan v, HPan v' => v = v'
  | _, _ => False
  end.

Lemma both_mono {A B} (R R' : A -> B -> Prop) x y :
  (forall a b, x = Some a -> R a b -> R' a b) -> both R x y -> both R' x y.
Proof. intros H. destruct x, y; simpl; auto. Qed.

Lemma hrep_frame m m' (X : Loc -> Prop) h h' :
  hrep m h h' -> touches m m' X -> (forall x, hlocs h x -> ~ X x) -> hrep m' h h'.
Proof.
  intros [R D] T F. split; [|exact D]. intros id. apply (both_mono (rep m)); [|apply R].
  intros s l Hs Rs. apply (rep_frame _ _ _ _ _ Rs T). intros x Hx. apply F. exists id, s. done.
Qed.
Lemma psrep_frame m m' (X : Loc -> Prop) ps ps' :
  psrep m ps ps' -> touches m m' X -> (forall x, pslocs ps x -> ~ X x) -> psrep m' ps ps'.
Proof.
  intros (R & I & D) T F. split; [|split; [|exact D]].
  - apply (rep_frame _ _ _ _ _ R T). intros x Hx. apply F. by left.
  - intros id. apply (both_mono (obj_is m)); [|apply I].
    intros p r Hp O. apply (obj_frame _ _ _ _ _ O T). apply F. right. exists id, p. done.
Qed.
Lemma crep_frame m m' (X : Loc -> Prop) cs cs' :
  crep m cs cs' -> touches m m' X -> (forall x, clocs cs x -> ~ X x) -> crep m' cs cs'.
Proof.
  destruct cs, cs'; simpl; try done.
  - apply hrep_frame.
  - apply psrep_frame.
Qed.
Lemma hrep_alloc m h h' x : hrep m h h' -> hlocs h x -> ~ fresh_in m x.
Proof.
  intros [R _] (id & s & Hs & Hx). specialize (R id). rewrite Hs in R.
  destruct (h' !! id); simpl in R; [|done]. apply (rep_alloc _ _ _ _ R Hx).
Qed.
Lemma psrep_alloc m ps ps' x : psrep m ps ps' -> pslocs ps x -> ~ fresh_in m x.
Proof.
  intros (R & I & _) [Hx|(id & p & Hp & ->)]; [apply (rep_alloc _ _ _ _ R Hx)|].
  specialize (I id). rewrite Hp in I. destruct (pc_instances ps' !! id); simpl in I; [|done].
  destruct I as [_ L]. unfold fresh_in. simpl. lia.
Qed.
Lemma crep_alloc m cs cs' x : crep m cs cs' -> clocs cs x -> ~ fresh_in m x.
Proof.
  destruct cs, cs'; simpl; try done.
  - apply hrep_alloc.
  - apply psrep_alloc.
Qed.

(** ** Aggregates *)

Lemma ma_handle_spec o h a now env m g hist hist0 m' g' hist' fs r :
  hrep m hist hist0 -> ma_handle grow junk o h a now env m g hist = (m', g', hist', fs, r) ->
  exists hist0' r0, a_handle o h a now env g hist0 = (g', hist0', fs, r0) /\ hrep m' hist' hist0' /\
    res_rel m' r r0 /\ touches m m' (hlocs hist) /\ (forall x, hlocs hist' x -> hlocs hist x \/ fresh_in m x).
Proof.
  intros R. unfold ma_handle, a_handle. set (msg := e_msg env).
  assert (forall (g : GState) v, exists hist0' r0, (g, hist0, [] : list Fact, HPan v) = (g, hist0', [], r0) /\ hrep m hist hist0' /\
    res_rel m (SPan v) r0 /\ touches m m (hlocs hist) /\ (forall x, hlocs hist x -> hlocs hist x \/ fresh_in m x)) as Same.
  { intros g0 v. eexists _, _. split; [reflexivity|]. split; [done|]. split; [done|].
    split; [apply touches_refl|]. intros x Hx. by left. }
  destruct (negb (consumes h (m_type msg))).
  { intros Q. injection Q as <- <- <- <- <-. apply Same. }
  destruct (ag_route a msg) as [id|v].
  2:{ intros Q. injection Q as <- <- <- <- <-. apply Same. }
  case_decide as Hid.
  { intros Q. injection Q as <- <- <- <- <-. apply Same. }
  destruct (ag_new a) as [r0|].
  2:{ intros Q. injection Q as <- <- <- <- <-. apply Same. }
  clear Same. destruct (new_obj m r0) as [m1 p] eqn:Nw.
  destruct (new_obj_spec _ _ _ _ Nw) as (O1 & T1 & F1 & _).
  set (l := default nil_slice (hist !! id)). set (l0 := default [] (hist0 !! id)).
  assert (rep m l l0 /\ bool_decide (is_Some (hist !! id)) = bool_decide (is_Some (hist0 !! id)) /\
    (forall x, in_slice l x -> hlocs hist x)) as (Rl & Ex & Ll).
  { destruct R as [R _]. specialize (R id). unfold l, l0. destruct (hist !! id) as [s|] eqn:E1, (hist0 !! id); simpl in R |- *; try done.
    - split; [done|]. split; [done|]. intros x Hx. exists id, s. done.
    - split; [apply rep_nil|]. split; [done|].
      intros x Hx. by apply in_nil in Hx. }
  assert (rep m1 l l0) as Rl1 by (apply (rep_frame _ _ (fun _ => False) _ _ Rl (T1 _)); tauto).
  rewrite (rep_values _ _ _ Rl1).
  destruct (ma_replay junk h a m1 p l0) as [m2 v] eqn:Rp.
  destruct (ma_replay_spec _ _ _ _ _ _ _ _ _ O1 Rp) as (r1 & -> & O2 & T2).
  assert (touches m m2 (hlocs hist)) as T02.
  { apply (touches_trans _ _ _ _ _ (T1 _) T2). intros x ->. by right. }
  assert (hrep m2 hist hist0) as R2.
  { apply (hrep_frame m1 _ (fun x => x = LObj p)); [|done|].
    - apply (hrep_frame m _ (fun _ => False)); [done|apply T1|tauto].
    - intros x Hx ->. by apply (hrep_alloc _ _ _ _ R Hx). }
  destruct v as [v|].
  { intros Q. injection Q as <- <- <- <- <-. eexists _, _. split; [reflexivity|]. split; [done|]. split; [done|].
    split; [done|]. intros x Hx. by left. }
  rewrite (obj_deref junk _ _ _ O2), Ex.
  set (ex := bool_decide (is_Some (hist0 !! id))).
  set (s := mkMAScope p p ex false nil_slice).
  destruct (ma_run grow junk o h a now env id (ag_handle a id msg) m2 g s) as [[[[m3 g3] s3] fs3] v3] eqn:Ru.
  assert (arel m2 s (mkAScope r1 None ex false [])) as Ra.
  { split; [done|]. split; [done|]. split; [apply rep_nil|]. split; [done|]. done. }
  destruct (ma_run_spec grow junk _ _ _ _ _ _ _ _ _ _ _ _ _ _ _ _ Ra Ru) as (t3 & -> & R3 & T3 & L3).
  assert (forall x, alocs s x -> x = LObj p) as Ls.
  { intros x [-> |[-> |Hx]]; [done|done|]. by apply in_nil in Hx. }
  assert (touches m m3 (hlocs hist)) as T03.
  { apply (touches_trans _ _ _ _ _ T02 T3). intros x Hx. apply Ls in Hx as ->. by right. }
  assert (hrep m3 hist hist0) as R3h.
  { apply (hrep_frame m2 _ (alocs s)); [done|done|].
    intros x Hx Hy. apply Ls in Hy as ->. by apply (hrep_alloc _ _ _ _ R Hx). }
  destruct (enrich (h_id h) "AggregateMessageHandler" "HandleCommand" msg v3) as [v4|].
  { intros Q. injection Q as <- <- <- <- <-. eexists _, _. split; [reflexivity|]. split; [done|]. split; [done|].
    split; [done|]. intros x Hx. by left. }
  pose proof R3 as (Ee & _ & Ev & _). rewrite Ee.
  assert (forall x, in_slice (ma_events s3) x -> fresh_in m x) as Fe.
  { intros x Hx. destruct (L3 x) as [Hy|Hy]; [right; by right|apply Ls in Hy as ->; done|].
    by apply (fresh_later _ _ _ _ T02 Hy). }
  destruct (as_exists t3) eqn:E3.
  - assert (rep m3 l l0) as Rl3.
    { destruct R3h as [R3h _]. specialize (R3h id). unfold l, l0 in *.
      destruct (hist !! id), (hist0 !! id); simpl in R3h |- *; first [done|apply rep_nil]. }
    rewrite (rep_cells _ _ _ Ev).
    destruct (go_append grow m3 l (Some <$> as_events t3)) as [m4 l4] eqn:Ga.
    intros Q. injection Q as <- <- <- <- <-.
    destruct (append_spec grow _ _ _ _ _ _ Rl3 Ga) as (R4 & T4 & L4 & _).
    eexists _, _. split; [reflexivity|]. split; [|split; [|split]].
    + split.
      * intros id'. destruct (decide (id' = id)) as [->|Ne].
        { rewrite !lookup_insert. done. }
        rewrite !lookup_insert_ne by done. destruct R3h as [R3h D]. apply (both_mono (rep m3)); [|apply R3h].
        intros s0 l1 Hs R0. apply (rep_frame _ _ _ _ _ R0 T4). intros x Hx Hy.
        unfold l in Hy. destruct (hist !! id) as [s1|] eqn:E1; [|by apply in_nil in Hy].
        apply (D id id' s1 s0 x); try done.
      * intros id1 id2 s1 s2 x Ne H1 H2 I1 I2.
        assert (forall id' s', id' <> id -> hist !! id' = Some s' -> in_slice s' x -> in_slice l4 x -> False) as Key.
        { intros id' s' Ne' Hs' I' I4. destruct (L4 x I4) as [Il|F].
          - unfold l in Il. destruct (hist !! id) as [s0|] eqn:E1; [|by apply in_nil in Il].
            destruct R as [_ D]. apply (D id id' s0 s' x); done.
          - apply (hrep_alloc _ _ _ x R3h); [exists id', s'; done|done]. }
        apply lookup_insert_Some in H1 as [[<- <-]|[N1 H1]];
          apply lookup_insert_Some in H2 as [[<- <-]|[N2 H2]].
        { done. }
        { apply (Key id2 s2); done. }
        { apply (Key id1 s1); done. }
        destruct R as [_ D]. apply (D id1 id2 s1 s2 x); done.
    + split; [done|]. apply (rep_frame _ _ _ _ _ Ev T4). intros x Hx Hy.
      apply (rep_alloc _ _ _ _ Rl Hy). by apply Fe.
    + apply (touches_trans _ _ _ _ _ T03 T4). intros x Hx. left. by apply Ll.
    + intros x (id' & s' & Hs' & Hx). apply lookup_insert_Some in Hs' as [[<- <-]|[Ne Hs']].
      * destruct (L4 x Hx) as [Hy|Hy]; [left; by apply Ll|]. right. by apply (fresh_later _ _ _ _ T03 Hy).
      * left. exists id', s'. done.
  - intros Q. injection Q as <- <- <- <- <-. eexists _, _. split; [reflexivity|]. split; [|split; [|split]].
    + destruct R3h as [R3h D]. split.
      * intros id'. destruct (decide (id' = id)) as [->|Ne]; [rewrite !lookup_delete; done|].
        rewrite !lookup_delete_ne by done. apply R3h.
      * intros id1 id2 s1 s2 x Ne H1 H2. apply lookup_delete_Some in H1 as [_ H1], H2 as [_ H2]. by apply (D id1 id2).
    + done.
    + done.
    + intros x (id' & s' & Hs' & Hx). apply lookup_delete_Some in Hs' as [_ Hs']. left. exists id', s'. done.
Qed.

(** ** Processes *)

Lemma due_split now l : p_split now l = (take (due_count now l) l, drop (due_count now l) l) /\ due_count now l <= length l.
Proof.
  induction l as [|e l [IH L]]; simpl; [split; [done|lia]|]. destruct (now <? e_sched e)%Z; simpl; [split; [done|lia]|].
  rewrite IH. split; [done|lia].
Qed.

Lemma mp_tick_spec now m ps ps0 ps' s :
  psrep m ps ps0 -> mp_tick now m ps = (ps', s) ->
  exists ps0' l, p_tick now ps0 = (ps0', l) /\ psrep m ps' ps0' /\ rep m s l /\
    (forall x, pslocs ps' x -> pslocs ps x).
Proof.
  intros (R & I & D). unfold mp_tick, p_tick. rewrite (rep_values _ _ _ R).
  destruct (due_split now (pc_timeouts ps0)) as [-> L]. intros Q. injection Q as <- <-.
  eexists _, _. split; [reflexivity|]. split; [|split].
  - split; [|split; done]. simpl. by apply rep_from.
  - by apply rep_upto.
  - intros x [Hx|Hx]; [left; by apply in_from in Hx|right; done].
Qed.

Lemma mp_filter_spec id l m acc l0 m' s' :
  rep m acc l0 -> mp_filter grow id m acc l = (m', s') ->
  rep m' s' (l0 ++ filter (fun e => origin_instance e <> id) l) /\ touches m m' (in_slice acc) /\
  (forall x, in_slice s' x -> in_slice acc x \/ fresh_in m x).
Proof.
  revert m acc l0. induction l as [|e l IH]; intros m acc l0 R; simpl.
  - intros Q. injection Q as <- <-. rewrite app_nil_r. split; [done|]. split; [apply touches_refl|]. intros x Hx. by left.
  - rewrite filter_cons. case_decide as D1; case_decide as D2; try done.
    + apply (IH _ _ _ R).
    + destruct (go_append grow m acc [Some e]) as [m1 a1] eqn:Ga. intros Q.
      destruct (append_spec grow m acc l0 [e] _ _ R Ga) as (R1 & T1 & L1 & _).
      destruct (IH _ _ _ R1 Q) as (R2 & T2 & L2). rewrite <- app_assoc in R2. split; [done|].
      split; [apply (touches_trans _ _ _ _ _ T1 T2 L1)|].
      intros x Hx. destruct (L2 x Hx) as [Hy|Hy]; [by apply L1|]. right. apply (fresh_later _ _ _ _ T1 Hy).
Qed.

Lemma mp_delete_spec id m ps ps0 m' ps' :
  psrep m ps ps0 -> mp_delete grow id m ps = (m', ps') ->
  psrep m' ps' (p_delete id ps0) /\ (forall X, touches m m' X) /\
  (forall x, pslocs ps' x -> pslocs ps x \/ fresh_in m x).
Proof.
  intros Rp. pose proof Rp as (R & I & D). unfold mp_delete. rewrite (rep_values _ _ _ R).
  destruct (make_slice m (s_len (mc_timeouts ps))) as [m1 acc] eqn:Mk.
  destruct (make_spec _ _ _ _ Mk) as (R1 & T1 & F1 & _).
  destruct (mp_filter grow id m1 acc (pc_timeouts ps0)) as [m2 s2] eqn:Fl.
  intros Q. injection Q as <- <-.
  destruct (mp_filter_spec _ _ _ _ _ _ _ R1 Fl) as (R2 & T2 & L2). simpl in R2.
  assert (forall X, touches m m2 X) as T.
  { intros X. apply (touches_trans _ _ _ _ _ (T1 X) T2). intros x Hx. right. by apply F1. }
  split; [|split; [done|]].
  - split; [done|]. split.
    + intros i. simpl. destruct (decide (i = id)) as [->|Ne]; [rewrite !lookup_delete; done|].
      rewrite !lookup_delete_ne by done. apply (both_mono (obj_is m)); [|apply I].
      intros p r _ O. apply (obj_frame _ _ _ _ _ O (T (fun _ => False))). tauto.
    + simpl. intros i j p Hi Hj. apply lookup_delete_Some in Hi as [_ Hi], Hj as [_ Hj]. by apply (D i j p).
  - intros x [Hx|(i & p & Hp & ->)]; simpl in *.
    + right. destruct (L2 x Hx) as [Hy|Hy]; [by apply F1|]. apply (fresh_later _ _ _ _ (T1 (fun _ => False)) Hy).
    + apply lookup_delete_Some in Hp as [_ Hp]. left. right. exists i, p. done.
Qed.

Lemma mp_update_spec o id m s t ps ps0 m' ps' :
  sort_ok o -> prel m s t -> psrep m ps ps0 ->
  (forall x, pslices s x -> ~ pslocs ps x) ->
  (forall i, mc_instances ps !! i = Some (mp_root s) -> i = id) ->
  mp_update grow o id m s ps = (m', ps') ->
  psrep m' ps' (p_update o id t ps0) /\ touches m m' (in_slice (mc_timeouts ps)) /\
  (forall x, pslocs ps' x -> pslocs ps x \/ x = LObj (mp_root s) \/ fresh_in m x).
Proof.
  intros So Rs (R & I & D) Dj Un. pose proof Rs as (_ & Or & _ & _ & Pe & _).
  unfold mp_update. rewrite (rep_cells _ _ _ Pe).
  destruct (go_append grow m (mc_timeouts ps) (Some <$> ps_pending t)) as [m1 l] eqn:Ga.
  intros Q. injection Q as <- <-.
  destruct (append_spec grow _ _ _ _ _ _ R Ga) as (R1 & T1 & L1 & Ob).
  rewrite (rep_values _ _ _ R1).
  destruct (rewrite_spec m1 l _ (o_sort o (pc_timeouts ps0 ++ ps_pending t)) R1) as [R2 T2].
  { destruct (So (pc_timeouts ps0 ++ ps_pending t)) as [Pm _]. by rewrite Pm. }
  assert (touches m (write m1 (s_arr l) (s_off l) (Some <$> o_sort o (pc_timeouts ps0 ++ ps_pending t)))
            (in_slice (mc_timeouts ps))) as T by (apply (touches_trans _ _ _ _ _ T1 T2 L1)).
  split; [|split; [done|]].
  - split; [done|]. split.
    + intros i. simpl. destruct (decide (i = id)) as [->|Ne].
      * rewrite !lookup_insert. simpl. apply (obj_frame _ _ _ _ _ Or T). intros [_ ?]. done.
      * rewrite !lookup_insert_ne by done. apply (both_mono (obj_is m)); [|apply I].
        intros p r _ O. apply (obj_frame _ _ _ _ _ O T). intros [_ ?]. done.
    + simpl. intros i j p Hi Hj.
      apply lookup_insert_Some in Hi as [[<- <-]|[Ni Hi]]; apply lookup_insert_Some in Hj as [[<- E]|[Nj Hj]].
      * done.
      * symmetry. by apply Un.
      * subst p. by apply Un.
      * by apply (D i j p).
  - intros x [Hx|(i & p & Hp & ->)]; simpl in *.
    + destruct (L1 x Hx) as [Hy|Hy]; [left; by left|by right; right].
    + apply lookup_insert_Some in Hp as [[<- <-]|[Ne Hp]]; [right; by left|]. left. right. exists i, p. done.
Qed.

Lemma p_delete_store id s ps : p_delete id (p_store_mutation id s ps) = p_delete id ps.
Proof.
  unfold p_store_mutation. destruct (pc_instances ps !! id); [|done]. unfold p_delete. simpl.
  rewrite delete_insert_delete. done.
Qed.
Lemma p_update_store o id s ps : p_update o id s (p_store_mutation id s ps) = p_update o id s ps.
Proof.
  unfold p_store_mutation. destruct (pc_instances ps !! id); [|done]. unfold p_update. simpl.
  rewrite insert_insert. done.
Qed.

Lemma mp_handle_instance_spec o h pi now env id p r m g ps ps0 m' g' ps' fs res :
  sort_ok o -> psrep m ps ps0 -> obj_is m p r ->
  (mc_instances ps !! id = Some p \/ mc_instances ps !! id = None) ->
  (forall i, mc_instances ps !! i = Some p -> i = id) ->
  mp_handle_instance grow junk o h pi now env id p m g ps = (m', g', ps', fs, res) ->
  exists ps0' res0, p_handle_instance o h pi now env id r g ps0 = (g', ps0', fs, res0) /\ psrep m' ps' ps0' /\
    res_rel m' res res0 /\ touches m m' (fun x => x = LObj p \/ pslocs ps x) /\
    (forall x, pslocs ps' x -> x = LObj p \/ pslocs ps x \/ fresh_in m x).
Proof.
  intros So R Op At Un. unfold mp_handle_instance, p_handle_instance. set (msg := e_msg env).
  destruct (match m_kind msg with
            | KTimeout => ("HandleTimeout", pr_timeout pi id (e_sched env) msg)
            | _ => ("HandleEvent", pr_event pi id (e_created env) msg)
            end) as [meth prog].
  set (s := mkMPScope p false nil_slice nil_slice nil_slice).
  destruct (mp_run grow junk o h now env id meth prog m g s) as [[[[m1 g1] s1] fs1] r1] eqn:Ru.
  assert (prel m s (mkPScope r false [] [] [])) as Rs.
  { split; [done|]. split; [done|]. split; [apply rep_nil|]. split; [apply rep_nil|]. split; [apply rep_nil|].
    split; [|split]; intros x Hx; by apply in_nil in Hx. }
  destruct (mp_run_spec grow junk _ _ _ _ _ _ _ _ _ _ _ _ _ _ _ _ Rs Ru) as (t1 & -> & R1 & Rt & T1 & L1).
  assert (forall x, plocs s x -> x = LObj p) as Ls.
  { intros x [-> |[Hx|[Hx|Hx]]]; [done|..]; by apply in_nil in Hx. }
  assert (forall x, pslices s1 x -> fresh_in m x) as Fs.
  { intros x Hx. destruct (L1 x Hx) as [[Hy|[Hy|Hy]]|Hy]; [..|done]; by apply in_nil in Hy. }
  assert (touches m m1 (fun x => x = LObj p)) as T1'.
  { apply (touches_weaken _ _ _ _ T1). intros x Hx. left. by apply Ls. }
  assert (mp_root s1 = p) as Rt' by exact Rt.
  (* the stored root is the object the handler has worked on *)
  assert (psrep m1 ps (p_store_mutation id t1 ps0)) as Rst.
  { destruct R as (Rt0 & I & D). pose proof R1 as (_ & O1 & _). rewrite Rt' in O1. split; [|split; [|done]].
    - replace (pc_timeouts (p_store_mutation id t1 ps0)) with (pc_timeouts ps0).
      + apply (rep_frame _ _ _ _ _ Rt0 T1'). intros x [_ ->]. done.
      + unfold p_store_mutation. destruct (pc_instances ps0 !! id); done.
    - intros i. pose proof (I i) as Ii. destruct (decide (i = id)) as [->|Ne].
      + destruct At as [At|At]; rewrite At in Ii |- *; unfold p_store_mutation; destruct (pc_instances ps0 !! id) eqn:E;
          simpl in Ii |- *; try done.
        * rewrite lookup_insert. done.
        * rewrite E. done.
      + assert (pc_instances (p_store_mutation id t1 ps0) !! i = pc_instances ps0 !! i) as ->.
        { unfold p_store_mutation. destruct (pc_instances ps0 !! id); [|done]. simpl. by rewrite lookup_insert_ne. }
        apply (both_mono (obj_is m)); [|done]. intros q r0 Hq O. apply (obj_frame _ _ _ _ _ O T1').
        intros E. injection E as ->. apply Ne, Un, Hq. }
  assert (touches m m1 (fun x => x = LObj p \/ pslocs ps x)) as T1''.
  { apply (touches_weaken _ _ _ _ T1'). intros x Hx. left. by left. }
  assert (bool_decide (is_Some (mc_instances ps !! id)) = bool_decide (is_Some (pc_instances ps0 !! id))) as Ex.
  { destruct R as (_ & I & _). specialize (I id). destruct (mc_instances ps !! id), (pc_instances ps0 !! id); done. }
  destruct r1 as [[e|]|v].
  - intros Q. injection Q as <- <- <- <- <-. eexists _, _. split; [reflexivity|]. split; [done|].
    split; [split; [done|apply rep_nil]|]. split; [done|]. intros x Hx. by right; left.
  - pose proof R1 as (En & O1 & Co & Re & Pe & Dx). rewrite En. destruct (ps_ended t1).
    + rewrite Ex. destruct (bool_decide (is_Some (pc_instances ps0 !! id))) eqn:Bd.
      * destruct (mp_delete grow id m1 ps) as [m2 ps2] eqn:De. intros Q. injection Q as <- <- <- <- <-.
        destruct (mp_delete_spec _ _ _ _ _ _ Rst De) as (R2 & T2 & L2). rewrite p_delete_store in R2.
        eexists _, _. split; [reflexivity|]. split; [done|].
        split; [split; [done|]; apply (rep_frame _ _ _ _ _ Co (T2 (fun _ => False))); tauto|].
        split.
        -- apply (touches_trans _ _ _ _ _ T1'' (T2 (fun _ => False))). intros x [].
        -- intros x Hx. destruct (L2 x Hx) as [?|F]; [by right; left|]. right. right. apply (fresh_later _ _ _ _ T1' F).
      * intros Q. injection Q as <- <- <- <- <-.
        assert (p_store_mutation id t1 ps0 = ps0) as E0.
        { unfold p_store_mutation. destruct (pc_instances ps0 !! id) eqn:E; [|done]. apply bool_decide_eq_false_1 in Bd. exfalso. apply Bd. by eexists. }
        rewrite E0 in Rst. eexists _, _. split; [reflexivity|]. split; [done|]. split; [done|]. split; [done|].
        intros x Hx. by right; left.
    + destruct (mp_update grow o id m1 s1 ps) as [m2 ps2] eqn:Up.
      assert (psrep m2 ps2 (p_update o id t1 (p_store_mutation id t1 ps0)) /\ touches m1 m2 (in_slice (mc_timeouts ps)) /\
        (forall x, pslocs ps2 x -> pslocs ps x \/ x = LObj (mp_root s1) \/ fresh_in m1 x)) as (R2 & T2 & L2).
      { apply (mp_update_spec o id m1 s1 t1 ps (p_store_mutation id t1 ps0)); try done.
        - intros x Hx Hy. apply (psrep_alloc _ _ _ _ R Hy). by apply Fs.
        - rewrite Rt'. done. }
      rewrite p_update_store in R2.
      assert (forall sl ls, rep m1 sl ls -> (forall x, in_slice sl x -> pslices s1 x) -> rep m2 sl ls) as Fr.
      { intros sl ls Rsl Hsl. apply (rep_frame _ _ _ _ _ Rsl T2). intros x Hx Hy.
        apply (psrep_alloc _ _ _ x R); [by left|]. by apply Fs, Hsl. }
      assert (rep m2 (mp_commands s1) (ps_commands t1)) as Co2 by (apply Fr; [done|]; intros x Hx; by left).
      assert (rep m2 (mp_ready s1) (ps_ready t1)) as Re2 by (apply Fr; [done|]; intros x Hx; by right; left).
      rewrite (rep_cells _ _ _ Re2).
      destruct (go_append grow m2 (mp_commands s1) (Some <$> ps_ready t1)) as [m3 l3] eqn:Ga.
      destruct (append_spec grow _ _ _ _ _ _ Co2 Ga) as (R3 & T3 & L3 & _).
      assert (touches m m2 (fun x => x = LObj p \/ pslocs ps x)) as T02.
      { apply (touches_trans _ _ _ _ _ T1'' T2). intros x Hx. left. right. by left. }
      intros Q. injection Q as <- <- <- <- <-. eexists _, _. split; [reflexivity|]. split; [|split; [|split]].
      * apply (psrep_frame _ _ _ _ _ R2 T3). intros x Hx Hy.
        assert (fresh_in m x) as Fx by (apply Fs; by left).
        assert (~ fresh_in m1 x) as NF by (apply (rep_alloc _ _ _ _ Co Hy)).
        destruct (L2 x Hx) as [Hz|[-> |Hz]]; [by apply (psrep_alloc _ _ _ _ R Hz)| |done].
        destruct Hy as [_ ?]. done.
      * done.
      * apply (touches_trans _ _ _ _ _ T02 T3). intros x Hx. right. apply Fs. by left.
      * intros x Hx. destruct (L2 x Hx) as [Hz|[-> |Hz]]; [by right; left|left; by rewrite Rt'|].
        right. right. apply (fresh_later _ _ _ _ T1' Hz).
  - intros Q. injection Q as <- <- <- <- <-. eexists _, _. split; [reflexivity|]. split; [done|].
    split; [done|]. split; [done|]. intros x Hx. by right; left.
Qed.

Lemma p_route_ext h pi env g ps ps' :
  (forall i, is_Some (pc_instances ps !! i) <-> is_Some (pc_instances ps' !! i)) ->
  p_route h pi env g ps = p_route h pi env g ps'.
Proof.
  intros H. unfold p_route. destruct (m_kind (e_msg env)); [done|done|]. destruct (e_origin env) as [og|]; [|done].
  specialize (H (o_instance og)). destruct (pc_instances ps !! o_instance og), (pc_instances ps' !! o_instance og); try done.
  - destruct H as [H _]. destruct H; [by eexists|done].
  - destruct H as [_ H]. destruct H; [by eexists|done].
Qed.

Lemma mp_handle_spec o h pi now env m g ps ps0 m' g' ps' fs r :
  sort_ok o -> psrep m ps ps0 -> mp_handle grow junk o h pi now env m g ps = (m', g', ps', fs, r) ->
  exists ps0' r0, p_handle o h pi now env g ps0 = (g', ps0', fs, r0) /\ psrep m' ps' ps0' /\
    res_rel m' r r0 /\ touches m m' (pslocs ps) /\ (forall x, pslocs ps' x -> pslocs ps x \/ fresh_in m x).
Proof.
  intros So R. unfold mp_handle, p_handle. set (msg := e_msg env).
  destruct (negb (consumes h (m_type msg))).
  { intros Q. injection Q as <- <- <- <- <-. eexists _, _. split; [reflexivity|]. split; [done|]. split; [done|].
    split; [apply touches_refl|]. intros x Hx. by left. }
  assert (mp_route junk h pi env g m ps = p_route h pi env g ps0) as ->.
  { unfold mp_route. apply p_route_ext. intros i. simpl. rewrite lookup_fmap.
    destruct R as (_ & I & _). specialize (I i). destruct (mc_instances ps !! i), (pc_instances ps0 !! i); simpl in *; done. }
  destruct (p_route h pi env g ps0) as [[g1 fs1] rt]. destruct rt as [id| |e|v].
  - pose proof R as (_ & I & D). pose proof (I id) as Ii. destruct (mc_instances ps !! id) as [p|] eqn:Ep.
    + destruct (pc_instances ps0 !! id) as [r0|] eqn:E0; simpl in Ii; [|done].
      rewrite (obj_deref junk _ _ _ Ii).
      destruct (mp_handle_instance grow junk o h pi now env id p m g1 ps) as [[[[m2 g2] ps2] fs2] r2] eqn:Hi.
      intros Q. injection Q as <- <- <- <- <-.
      assert (forall i, mc_instances ps !! i = Some p -> i = id) as Un by (intros i Hi'; by apply (D i id p)).
      destruct (mp_handle_instance_spec _ _ _ _ _ _ _ _ _ _ _ _ _ _ _ _ _ So R Ii (or_introl Ep) Un Hi)
        as (ps0' & r0' & -> & R2 & Rr & T & L).
      assert (forall x, x = LObj p -> pslocs ps x) as Lp by (intros x ->; right; by exists id, p).
      eexists _, _. split; [reflexivity|]. split; [done|]. split; [done|]. split.
      * apply (touches_weaken _ _ _ _ T). intros x [Hx|Hx]; left; [by apply Lp|done].
      * intros x Hx. destruct (L x Hx) as [Hy|[Hy|Hy]]; [left; by apply Lp|by left|by right].
    + destruct (pc_instances ps0 !! id) as [r0|] eqn:E0; simpl in Ii; [done|].
      destruct (pr_new pi) as [r0|].
      2:{ intros Q. injection Q as <- <- <- <- <-. eexists _, _. split; [reflexivity|]. split; [done|]. split; [done|].
          split; [apply touches_refl|]. intros x Hx. by left. }
      destruct (new_obj m r0) as [m1 p] eqn:Nw. destruct (new_obj_spec _ _ _ _ Nw) as (O1 & T1 & F1 & _).
      destruct (mp_handle_instance grow junk o h pi now env id p m1 g1 ps) as [[[[m2 g2] ps2] fs2] r2] eqn:Hi.
      intros Q. injection Q as <- <- <- <- <-.
      assert (psrep m1 ps ps0) as R1 by (apply (psrep_frame _ _ (fun _ => False) _ _ R (T1 _)); tauto).
      assert (forall i, mc_instances ps !! i = Some p -> i = id) as Un.
      { intros i Hi'. exfalso. apply (psrep_alloc _ _ _ (LObj p) R); [right; by exists i, p|done]. }
      destruct (mp_handle_instance_spec _ _ _ _ _ _ _ _ _ _ _ _ _ _ _ _ _ So R1 O1 (or_intror Ep) Un Hi)
        as (ps0' & r0' & -> & R2 & Rr & T & L).
      eexists _, _. split; [reflexivity|]. split; [done|]. split; [done|]. split.
      * apply (touches_trans _ _ _ _ _ (T1 _) T). intros x [-> |Hx]; [by right|by left].
      * intros x Hx. destruct (L x Hx) as [->|[Hy|Hy]]; [by right|by left|].
        right. apply (fresh_later _ _ _ _ (T1 (fun _ => False)) Hy).
  - intros Q. injection Q as <- <- <- <- <-. eexists _, _. split; [reflexivity|]. split; [done|].
    split; [split; [done|apply rep_nil]|]. split; [apply touches_refl|]. intros x Hx. by left.
  - intros Q. injection Q as <- <- <- <- <-. eexists _, _. split; [reflexivity|]. split; [done|].
    split; [split; [done|apply rep_nil]|]. split; [apply touches_refl|]. intros x Hx. by left.
  - intros Q. injection Q as <- <- <- <- <-. eexists _, _. split; [reflexivity|]. split; [done|]. split; [done|].
    split; [apply touches_refl|]. intros x Hx. by left.
Qed.

End MemRefine.
