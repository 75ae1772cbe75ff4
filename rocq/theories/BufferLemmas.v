(** * Proofs about fact.Buffer. *)
From Verif Require Export BufferSpec.
From stdpp Require Import sorting.

Section BufferLemmas.
Context {F : Type}.
Notation OpId := (nat * nat)%type.
Notation Heap := (gmap nat (list (option F))).

(** ** Counting goroutines *)
Lemma count_insert {A} (Q : A -> Prop) `{forall x, Decision (Q x)} (l : list A) t x x' :
  l !! t = Some x ->
  (length (filter Q (<[t := x']> l)) + (if decide (Q x) then 1 else 0) =
   length (filter Q l) + (if decide (Q x') then 1 else 0))%nat.
Proof.
  revert t. induction l as [|y l IH]; intros t Ht; [done|]. destruct t as [|t]; cbn in Ht.
  - injection Ht as ->. change (<[0:=x']> (x :: l)) with (x' :: l). rewrite !filter_cons. destruct (decide (Q x)), (decide (Q x')); cbn; lia.
  - specialize (IH t Ht). change (<[S t:=x']> (y :: l)) with (y :: <[t:=x']> l). rewrite !filter_cons. destruct (decide (Q y)); cbn; lia.
Qed.
Lemma count_pos {A} (Q : A -> Prop) `{forall x, Decision (Q x)} (l : list A) t x :
  l !! t = Some x -> Q x -> (1 <= length (filter Q l))%nat.
Proof.
  intros Ht Hx. assert (Hin : x ∈ filter Q l) by (apply elem_of_list_filter; split; [done|by eapply elem_of_list_lookup_2]).
  destruct (filter Q l); [by apply elem_of_nil in Hin|cbn; lia].
Qed.
Lemma count_two {A} (Q : A -> Prop) `{forall x, Decision (Q x)} (l : list A) t x t' x' :
  l !! t = Some x -> l !! t' = Some x' -> t <> t' -> Q x -> Q x' -> (2 <= length (filter Q l))%nat.
Proof.
  revert t t'. induction l as [|y l IH]; intros t t' Ht Ht' Hne Hx Hx'; [done|]. rewrite filter_cons.
  destruct t as [|t], t' as [|t']; cbn in *; [done| | |].
  - injection Ht as ->. rewrite decide_True by done. cbn. pose proof (count_pos Q l t' x' Ht' Hx'). lia.
  - injection Ht' as ->. rewrite decide_True by done. cbn. pose proof (count_pos Q l t x Ht Hx). lia.
  - assert (2 <= length (filter Q l))%nat by (eapply (IH t t'); eauto). destruct (decide (Q y)); cbn; lia.
Qed.

(** ** The invariant *)
Definition in_write (p : PC F) : Prop :=
  match p with NAppend _ | NCopy _ _ _ | NWrite _ _ | NSet _ _ | NUnlock => True | _ => False end.
Definition in_read (p : PC F) : Prop := match p with FMake | FCopy _ _ | FRUnlock _ => True | _ => False end.
Definition th_write (th : BThread F) : Prop := match bt_pc th with Some p => in_write p | None => False end.
Definition th_read (th : BThread F) : Prop := match bt_pc th with Some p => in_read p | None => False end.
Global Instance th_write_dec th : Decision (th_write th).
Proof. unfold th_write. destruct (bt_pc th) as [[]|]; cbn; apply _. Defined.
Global Instance th_read_dec th : Decision (th_read th).
Proof. unfold th_read. destruct (bt_pc th) as [[]|]; cbn; apply _. Defined.

(** The array a call works with. *)
Definition array_of (p : PC F) : option nat :=
  match p with
  | NCopy _ l _ | NWrite _ l | NSet _ l | FCopy l _ | FRUnlock l | FRet l => Some l
  | _ => None
  end.
Definition pc_ok (h : Heap) (a : nat) (L : list F) (st : option Status) (p : PC F) : Prop :=
  match p with
  | NLock f | NAppend f => st = Some (Waiting (CNotify f))
  | NCopy f l i => st = Some (Waiting (CNotify f)) /\ l <> a /\ exists x, h !! l = Some x /\
      (length L < length x)%nat /\ (i <= length L)%nat /\ take i x = take i (Some <$> L)
  | NWrite f l => st = Some (Waiting (CNotify f)) /\ exists x, h !! l = Some x /\
      (length L < length x)%nat /\ take (length L) x = Some <$> L
  | NSet f l => st = Some (Waiting (CNotify f)) /\ exists x, h !! l = Some x /\
      take (length L + 1) x = Some <$> (L ++ [f])
  | NUnlock | NRet => st = Some (Done RNotify)
  | FRLock => st = Some (Waiting CFacts)
  | FMake => st = Some (Done (RFacts (Some <$> L)))
  | FCopy l i => st = Some (Done (RFacts (Some <$> L))) /\ l <> a /\ exists x, h !! l = Some x /\
      length x = length L /\ (i <= length L)%nat /\ take i x = take i (Some <$> L)
  | FRUnlock l => st = Some (Done (RFacts (Some <$> L))) /\ l <> a /\ h !! l = Some (Some <$> L)
  | FRet l => l <> a /\ exists x, h !! l = Some x /\ st = Some (Done (RFacts x))
  end.

Definition begun_of (th : BThread F) : nat := bt_n th + (if bt_pc th then 1 else 0).
Record binv (es : list LEvent) (L : list F) (m : gmap OpId Status) (y : BSys F) : Prop := {
  bi_log : Log es L m;
  bi_len : bs_len y = length L;
  bi_array : exists x, bs_heap y !! bs_array y = Some x /\ take (length L) x = Some <$> L;
  bi_given : bs_array y ∉ bs_given y /\ forall l, l ∈ bs_given y -> is_Some (bs_heap y !! l);
  bi_write : length (filter th_write (bs_threads y)) = (if bs_writer y then 1 else 0)%nat;
  bi_read : length (filter th_read (bs_threads y)) = bs_readers y;
  bi_excl : bs_writer y = true -> bs_readers y = 0;
  bi_pc : forall t th p, bs_threads y !! t = Some th -> bt_pc th = Some p ->
    pc_ok (bs_heap y) (bs_array y) L (m !! (t, bt_n th)) p /\
    forall l, array_of p = Some l -> l ∉ bs_given y /\
      forall t' th' p', bs_threads y !! t' = Some th' -> t' <> t -> bt_pc th' = Some p' -> array_of p' <> Some l;
  bi_new : forall t th i c, bs_threads y !! t = Some th -> Seen (ECall (t, i) c) ∈ es -> (i < begun_of th)%nat;
  bi_dom : forall o s, m !! o = Some s -> exists th, bs_threads y !! o.1 = Some th /\ bt_n th = o.2 /\ is_Some (bt_pc th) }.

(** The other goroutines do not notice. *)
Lemma pc_ok_frame h h' a L st p :
  (forall l, array_of p = Some l -> h' !! l = h !! l) -> pc_ok h a L st p -> pc_ok h' a L st p.
Proof. intros Hh. destruct p; cbn in *; try done; rewrite Hh by done; done. Qed.

(** The call's own array can be in use by nobody else. *)
Lemma take_insert_last {A} (x : list A) n v : (n < length x)%nat -> take (n + 1) (<[n := v]> x) = take n x ++ [v].
Proof.
  intros Hn. rewrite Nat.add_1_r. rewrite (take_S_r _ _ v) by (by apply list_lookup_insert). rewrite take_insert by lia. done.
Qed.

Lemma array_in_heap h a L st p l : pc_ok h a L st p -> array_of p = Some l -> is_Some (h !! l).
Proof.
  destruct p; cbn; try done; intros H [= ->]; destruct_and?; repeat match goal with H : exists _, _ |- _ => destruct H as [? H] end; destruct_and?; eauto.
Qed.
Lemma array_is_own h a L st p : pc_ok h a L st p -> array_of p = Some a -> in_write p.
Proof. destruct p; cbn; try done; intros H [= ->]; by destruct_and?. Qed.

Lemma step_gen es L m (h : Heap) a n (w : bool) r g ths t th es' L' m' (h' : Heap) a' n' (w' : bool) r' g' th' :
  binv es L m (mkBSys h a n w r g ths) -> ths !! t = Some th ->
  Log (es ++ es') L' m' -> n' = length L' ->
  (exists x, h' !! a' = Some x /\ take (length L') x = Some <$> L') -> a' ∉ g' ->
  (forall l, l ∈ g' -> l ∈ g \/ exists p, bt_pc th = Some p /\ array_of p = Some l /\ bt_pc th' = None) ->
  (forall l, is_Some (h !! l) -> (forall p', bt_pc th' = Some p' -> array_of p' <> Some l) -> h' !! l = h !! l) ->
  ((if decide (th_write th) then 1 else 0) + (if w' then 1 else 0) = (if decide (th_write th') then 1 else 0) + (if w then 1 else 0))%nat ->
  ((if decide (th_read th) then 1 else 0) + r' = (if decide (th_read th') then 1 else 0) + r)%nat ->
  (w' = true -> r' = 0) ->
  (forall p', bt_pc th' = Some p' -> pc_ok h' a' L' (m' !! (t, bt_n th')) p' /\
     forall l, array_of p' = Some l -> (exists p, bt_pc th = Some p /\ array_of p = Some l) \/ h !! l = None \/ (l = a /\ th_write th)) ->
  (forall t2 th2 p2, ths !! t2 = Some th2 -> t2 <> t -> bt_pc th2 = Some p2 ->
     pc_ok h a L (m !! (t2, bt_n th2)) p2 -> pc_ok h a' L' (m' !! (t2, bt_n th2)) p2) ->
  (forall i c, Seen (ECall (t, i) c) ∈ es ++ es' -> (i < begun_of th')%nat) ->
  (forall t2 i c, t2 <> t -> Seen (ECall (t2, i) c) ∉ es') ->
  (forall o s, m' !! o = Some s -> (o.1 <> t /\ is_Some (m !! o)) \/ (o = (t, bt_n th') /\ is_Some (bt_pc th'))) ->
  binv (es ++ es') L' m' (mkBSys h' a' n' w' r' g' (<[t := th']> ths)).
Proof.
  intros [Hlog Hlen Harr [Hag Hgh] Hw Hr Hex Hpc Hnew Hdom] Ht Hlog' -> Harr' Hag' Hg' Hh' Hw' Hr' Hex' Hown Hoth Hnew' Hnew2 Hdom'. cbn in *.
  assert (Hlt : (t < length ths)%nat) by (eapply lookup_lt_Some; done).
  (* the arrays of the others are not that of the new state of [t], nor given *)
  assert (Hsep : forall t2 th2 p2 l, ths !! t2 = Some th2 -> t2 <> t -> bt_pc th2 = Some p2 -> array_of p2 = Some l ->
    (forall p', bt_pc th' = Some p' -> array_of p' <> Some l) /\ l ∉ g').
  { intros t2 th2 p2 l Ht2 Hne Hp2 Hl. destruct (Hpc _ _ _ Ht2 Hp2) as [Hok2 Hpriv]. destruct (Hpriv l Hl) as [Hng Hot].
    split.
    - intros p' Hp' Hl'. destruct (Hown p' Hp') as [_ Ho]. destruct (Ho l Hl') as [(p & Hp & Hlp)|[Hn|[-> Hwr]]].
      + eapply (Hot t th p); eauto.
      + destruct (array_in_heap _ _ _ _ _ _ Hok2 Hl) as [x Hx]. congruence.
      + pose proof (array_is_own _ _ _ _ _ Hok2 Hl) as Hw2.
        assert (2 <= length (filter th_write ths))%nat.
        { eapply (count_two th_write ths t th t2 th2); eauto. unfold th_write. rewrite Hp2. done. }
        destruct w; lia.
    - intros Hin. destruct (Hg' l Hin) as [?|(p & Hp & Hlp & _)]; [done|]. eapply (Hot t th p); eauto. }
  split; cbn; [done|done|done| | | |done| | |].
  - split; [done|]. intros l Hl. destruct (Hg' l Hl) as [Hl0|(p & Hp & Hlp & Hnone)].
    + destruct (Hgh l Hl0) as [x Hx].
      assert (Hn : forall p', bt_pc th' = Some p' -> array_of p' <> Some l).
      { intros p' Hp' Hl'. destruct (Hown p' Hp') as [_ Ho]. destruct (Ho l Hl') as [(p & Hp & Hlp)|[Hn|[-> _]]]; [|congruence|done].
        destruct (Hpc _ _ _ Ht Hp) as [_ Hpriv]. by destruct (Hpriv l Hlp). }
      exists x. rewrite Hh'; [done|eauto|done].
    + destruct (Hpc _ _ _ Ht Hp) as [Hok _]. destruct (array_in_heap _ _ _ _ _ _ Hok Hlp) as [x Hx].
      exists x. rewrite Hh'; [done|eauto|]. intros p' Hp'. congruence.
  - pose proof (count_insert th_write ths t th th' Ht). lia.
  - pose proof (count_insert th_read ths t th th' Ht). lia.
  - intros t2 th2 p2. destruct (decide (t2 = t)) as [->|Hne].
    + rewrite list_lookup_insert by done. intros [= <-] Hp2. destruct (Hown p2 Hp2) as [Hok Ho]. split; [done|].
      intros l Hl. split.
      * intros Hin. destruct (Hg' l Hin) as [Hl0|(p & Hp & Hlp & Hnone)]; [|congruence].
        destruct (Ho l Hl) as [(p & Hp & Hlp)|[Hn|[-> _]]]; [|destruct (Hgh l Hl0); congruence|done].
        destruct (Hpc _ _ _ Ht Hp) as [_ Hpriv]. by destruct (Hpriv l Hlp).
      * intros t3 th3 p3 Ht3 Hne3 Hp3 Hl3. rewrite list_lookup_insert_ne in Ht3 by done.
        destruct (Hsep _ _ _ _ Ht3 Hne3 Hp3 Hl3) as [Hs _]. by apply (Hs p2).
    + rewrite list_lookup_insert_ne by done. intros Ht2 Hp2. destruct (Hpc _ _ _ Ht2 Hp2) as [Hok Hpriv]. split.
      * eapply pc_ok_frame; [|eapply Hoth; eauto]. intros l Hl. apply Hh'; [eapply array_in_heap; eauto|].
        by destruct (Hsep _ _ _ _ Ht2 Hne Hp2 Hl).
      * intros l Hl. destruct (Hsep _ _ _ _ Ht2 Hne Hp2 Hl) as [Hs Hg2]. split; [done|].
        intros t3 th3 p3. destruct (decide (t3 = t)) as [->|Hne3].
        -- rewrite list_lookup_insert by done. intros [= <-] _. apply Hs.
        -- rewrite list_lookup_insert_ne by done. by apply Hpriv.
  - intros t2 th2 i c. destruct (decide (t2 = t)) as [->|Hne].
    + rewrite list_lookup_insert by done. intros [= <-]. apply Hnew'.
    + rewrite list_lookup_insert_ne by done. intros Ht2 [H|H]%elem_of_app; [eauto|]. by apply Hnew2 in H.
  - intros o s Hs. destruct (Hdom' o s Hs) as [[Hne [s2 Hs2]]|[-> Hrun]].
    + destruct (Hdom o s2 Hs2) as (th2 & Ht2 & H). exists th2. rewrite list_lookup_insert_ne by done. done.
    + exists th'. cbn. rewrite list_lookup_insert by done. done.
Qed.

Lemma dom_same (es : list LEvent) L m h a n w r g ths t th o s :
  binv es L m (mkBSys h a n w r g ths) -> ths !! t = Some th -> m !! o = Some s ->
  (o.1 <> t /\ is_Some (m !! o)) \/ (o = (t, bt_n th) /\ is_Some (bt_pc th)).
Proof.
  intros Hi Ht Hs. destruct (bi_dom _ _ _ _ Hi o s Hs) as (th2 & Ht2 & Hn & Hp). cbn in *.
  destruct (decide (o.1 = t)) as [He|]; [right|left; eauto]. subst t. rewrite Ht in Ht2. injection Ht2 as <-.
  destruct o; cbn in *. subst. done.
Qed.
(** Steps of a call that are of no consequence yet. *)
Lemma step_quiet es L m (h : Heap) a n (w : bool) r g ths t i p rest (h' : Heap) (w' : bool) r' p' :
  binv es L m (mkBSys h a n w r g ths) -> ths !! t = Some (mkBThread i (Some p) rest) ->
  (exists x, h' !! a = Some x /\ take (length L) x = Some <$> L) ->
  (forall l, is_Some (h !! l) -> array_of p' <> Some l -> h' !! l = h !! l) ->
  ((if decide (th_write (mkBThread i (Some p) rest)) then 1 else 0) + (if w' then 1 else 0) =
   (if decide (th_write (mkBThread i (Some p') rest)) then 1 else 0) + (if w then 1 else 0))%nat ->
  ((if decide (th_read (mkBThread i (Some p) rest)) then 1 else 0) + r' = (if decide (th_read (mkBThread i (Some p') rest)) then 1 else 0) + r)%nat ->
  (w' = true -> r' = 0) ->
  pc_ok h' a L (m !! (t, i)) p' ->
  (forall l, array_of p' = Some l -> array_of p = Some l \/ h !! l = None \/ (l = a /\ in_write p)) ->
  binv es L m (mkBSys h' a n w' r' g (<[t := mkBThread i (Some p') rest]> ths)).
Proof.
  intros Hi Ht Harr' Hh Hw' Hr' Hex' Hok Hl. pose proof Hi as [Hlog Hlen Harr [Hag Hgh] Hw Hr Hex Hpc Hnew Hdom]. cbn in *.
  rewrite <- (app_nil_r es). eapply step_gen; try done.
  - by rewrite app_nil_r.
  - auto.
  - cbn. intros l Hsome Hp'. apply Hh; auto.
  - cbn. intros p2 [= <-]. split; [done|]. intros l Hl2. destruct (Hl l Hl2) as [?|[?|?]]; eauto.
  - intros j c. rewrite app_nil_r. intros H. apply (Hnew _ _ _ _ Ht) in H. done.
  - intros t2 j c _ H. by apply elem_of_nil in H.
  - intros o s Hs. destruct (dom_same _ _ _ _ _ _ _ _ _ _ _ _ _ _ Hi Ht Hs) as [?|[-> _]]; [by left|right]. eauto.
Qed.
Lemma array_len es L m (h : Heap) a n w r g ths x : binv es L m (mkBSys h a n w r g ths) -> h !! a = Some x ->
  take (length L) x = Some <$> L /\ (length L <= length x)%nat.
Proof.
  intros [_ _ (x' & Hx' & Ht) _ _ _ _ _ _ _] Hx. cbn in *. rewrite Hx in Hx'. injection Hx' as <-. split; [done|].
  apply (f_equal length) in Ht. rewrite take_length, fmap_length in Ht. lia.
Qed.
Lemma copy_ok (x y : list (option F)) L i v : take (length L) x = Some <$> L -> (i < length L)%nat -> (i < length y)%nat -> x !! i = Some v ->
  take i y = take i (Some <$> L) -> take (i + 1) (<[i := v]> y) = take (i + 1) (Some <$> L).
Proof.
  intros Hx Hi Hy Hv Hk. rewrite take_insert_last by done. rewrite Hk, <- Hx, Nat.add_1_r. symmetry. apply take_S_r.
  rewrite lookup_take by done. done.
Qed.

Lemma binv_step es L m y oe y'  : binv es L m y -> bstep y oe y' ->
  exists es' L' m', binv (es ++ es') L' m' y' /\ seen es' = option_list oe.
Proof.
  intros Hi Hs.
  destruct Hs as [h a n w r g ths t i c rest Ht|h a n w r g ths t i p rest h' a' n' w' r' p' Ht Hp
    |h a n w r g ths t i rest Ht|h a n w r g ths t i rest l x Ht Hl|h a n w r g ths l x i v Hl Hx].
  - (* a call begins *)
    exists [Seen (ECall (t, i) c)], L, (<[(t, i) := Waiting c]> m). split; [|done].
    pose proof Hi as [Hlog Hlen Harr [Hag Hgh] Hw Hr Hex Hpc Hnew Hdom]. cbn in *.
    assert (Hfr : forall c', Seen (ECall (t, i) c') ∉ es).
    { intros c' Hin. apply (Hnew _ _ _ _ Ht) in Hin. unfold begun_of in Hin. cbn in Hin. lia. }
    eapply step_gen; try done.
    + by constructor.
    + auto.
    + unfold th_write. cbn. by destruct c.
    + unfold th_read. cbn. by destruct c.
    + intros p' [= <-]. cbn. rewrite lookup_insert. by destruct c.
    + intros t2 th2 p2 Ht2 Hne Hp2 Hok. rewrite lookup_insert_ne by congruence. done.
    + intros j c' [H|H]%elem_of_app; unfold begun_of; cbn.
      * apply (Hnew _ _ _ _ Ht) in H. unfold begun_of in H. cbn in H. lia.
      * apply elem_of_list_singleton in H. injection H as -> ->. lia.
    + intros t2 j c' Hne H. apply elem_of_list_singleton in H. by injection H.
    + intros o s. destruct (decide (o = (t, i))) as [->|Hne]; [cbn; eauto|]. rewrite lookup_insert_ne by done. intros Hs.
      destruct (dom_same _ _ _ _ _ _ _ _ _ _ _ _ _ _ Hi Ht Hs) as [?|[-> _]]; [by left|done].
  - (* a step within a call *)
    cbn. pose proof Hi as [Hlog Hlen Harr [Hag Hgh] Hw Hr Hex Hpc Hnew Hdom]. cbn in *. subst n.
    destruct (Hpc _ _ _ Ht eq_refl) as [Hok Hpriv]. cbn in Hok, Hpriv.
    assert (Hquiet : (exists L' m', binv (es ++ []) L' m' (mkBSys h' a' n' w' r' g (<[t := mkBThread i (Some p') rest]> ths))) ->
      exists es' L' m', binv (es ++ es') L' m' (mkBSys h' a' n' w' r' g (<[t := mkBThread i (Some p') rest]> ths)) /\ seen es' = []).
    { intros (L' & m' & H). exists [], L', m'. done. }
    assert (Hwr : in_write p -> w = true /\ r = 0).
    { intros Hwp. assert (Hc : (1 <= length (filter th_write ths))%nat) by (eapply count_pos; [exact Ht|done]).
      destruct w; [|lia]. auto. }
    remember (length L) as n eqn:Hn.
    destruct Hp as [h a n f|h a n w r f x Hx Hfit|h a n w r f x l extra Hx Hful Hfr|h a n w r f l j x z v Hx Hz Hj Hv|h a n w r f l
      |h a n w r f l z Hz|h a n w r f l|h a n r|h a n r|h a n w r l Hfr|h a n w r l j x z v Hx Hz Hj1 Hj2 Hv|h a n w r l z Hz|h a n w r l];
      cbn [pc_ok] in Hok; subst n.
    + (* Lock *)
      apply Hquiet. exists L, m. rewrite app_nil_r. eapply step_quiet; try done.
    + (* append: the array is long enough *)
      apply Hquiet. exists L, m. rewrite app_nil_r. eapply step_quiet; try done.
      * cbn. split; [done|]. exists x. destruct (array_len _ _ _ _ _ _ _ _ _ _ _ Hi Hx). auto.
      * cbn. intros l [= <-]. auto.
    + (* append: a new array *)
      apply Hquiet. exists L, m. rewrite app_nil_r. assert (Hla : l <> a) by congruence.
      eapply step_quiet; try done.
      * rewrite lookup_insert_ne by done. done.
      * cbn. intros l' _ Hne. rewrite lookup_insert_ne by congruence. done.
      * cbn. split; [done|]. split; [done|]. eexists. rewrite lookup_insert. split; [done|]. rewrite replicate_length. split; [lia|]. split; [lia|done].
      * cbn. intros l' [= <-]. auto.
    + (* append: copying *)
      apply Hquiet. exists L, m. rewrite app_nil_r. destruct Hok as (Hst & Hla & z' & Hz' & Hlz & Hj' & Hcp).
      rewrite Hz in Hz'. injection Hz' as <-. destruct (array_len _ _ _ _ _ _ _ _ _ _ _ Hi Hx) as [Htk _].
      eapply step_quiet; try done.
      * rewrite lookup_insert_ne by done. done.
      * cbn. intros l' _ Hne. rewrite lookup_insert_ne by congruence. done.
      * cbn. split; [done|]. split; [done|]. eexists. rewrite lookup_insert. split; [done|]. rewrite insert_length. split; [lia|]. split; [lia|].
        eapply copy_ok; eauto. lia.
      * cbn. intros l' [= <-]. auto.
    + (* append: copied *)
      apply Hquiet. exists L, m. rewrite app_nil_r. destruct Hok as (Hst & Hla & z & Hz & Hlz & Hj & Hcp).
      eapply step_quiet; try done.
      * cbn. split; [done|]. exists z. split; [done|]. split; [done|]. rewrite Hcp. apply take_ge. by rewrite fmap_length.
      * cbn. intros l' [= <-]. auto.
    + (* append: the element is set *)
      apply Hquiet. exists L, m. rewrite app_nil_r. destruct Hok as (Hst & z' & Hz' & Hlz & Hcp).
      rewrite Hz in Hz'. injection Hz' as <-.
      eapply step_quiet; try done.
      * destruct (decide (l = a)) as [->|Hne]; [|by rewrite lookup_insert_ne].
        rewrite lookup_insert. eexists. split; [done|]. rewrite take_insert by lia. done.
      * cbn. intros l' _ Hne. rewrite lookup_insert_ne by congruence. done.
      * cbn. split; [done|]. eexists. rewrite lookup_insert. split; [done|]. rewrite take_insert_last by done. rewrite fmap_app, Hcp. done.
      * cbn. intros l' [= <-]. auto.
    + (* the slice is set *)
      destruct Hok as (Hst & z & Hz & Hcp). destruct (Hwr I) as [-> ->].
      exists [Effect (t, i)], (L ++ [f]), (<[(t, i) := Done RNotify]> m). split; [|done].
      eapply step_gen; try done.
      * by constructor.
      * rewrite app_length. done.
      * exists z. split; [done|]. rewrite app_length. done.
      * by destruct (Hpriv l eq_refl).
      * auto.
      * cbn. intros p2 [= <-]. cbn. rewrite lookup_insert. done.
      * intros t2 th2 p2 Ht2 Hne Hp2 Hok2. rewrite lookup_insert_ne by congruence.
        destruct (Hpriv l eq_refl) as [_ Hot].
        assert (Hnw : ~ in_write p2).
        { intros Hw2. assert (2 <= length (filter th_write ths))%nat; [|cbn in Hw; lia].
          eapply (count_two th_write ths t _ t2 th2); eauto; [done|]. unfold th_write. rewrite Hp2. done. }
        assert (Hnr : ~ in_read p2).
        { intros Hr2. assert (1 <= length (filter th_read ths))%nat; [|lia].
          eapply (count_pos th_read ths t2 th2); eauto. unfold th_read. rewrite Hp2. done. }
        pose proof (Hot _ _ _ Ht2 Hne Hp2) as Hna.
        destruct p2; cbn in *; try done. destruct Hok2 as [_ Hok2]. split; [congruence|done].
      * intros j c [H|H]%elem_of_app; [by apply (Hnew _ _ _ _ Ht) in H|by apply elem_of_list_singleton in H].
      * intros t2 j c Hne H. by apply elem_of_list_singleton in H.
      * intros o s. destruct (decide (o = (t, i))) as [->|Hne]; [cbn; eauto|]. rewrite lookup_insert_ne by done. intros Hs.
        destruct (dom_same _ _ _ _ _ _ _ _ _ _ _ _ _ _ Hi Ht Hs) as [?|[-> _]]; [by left|done].
    + (* Unlock *)
      apply Hquiet. exists L, m. rewrite app_nil_r. eapply step_quiet; try done.
    + (* RLock *)
      exists [Effect (t, i)], L, (<[(t, i) := Done (RFacts (Some <$> L))]> m). split; [|done].
      eapply step_gen; try done.
      * by constructor.
      * auto.
      * rewrite decide_False, decide_True by (cbn; tauto). lia.
      * cbn. intros p2 [= <-]. cbn. rewrite lookup_insert. done.
      * intros t2 th2 p2 Ht2 Hne Hp2 Hok2. rewrite lookup_insert_ne by congruence. done.
      * intros j c [H|H]%elem_of_app; [by apply (Hnew _ _ _ _ Ht) in H|by apply elem_of_list_singleton in H].
      * intros t2 j c Hne H. by apply elem_of_list_singleton in H.
      * intros o s. destruct (decide (o = (t, i))) as [->|Hne]; [cbn; eauto|]. rewrite lookup_insert_ne by done. intros Hs.
        destruct (dom_same _ _ _ _ _ _ _ _ _ _ _ _ _ _ Hi Ht Hs) as [?|[-> _]]; [by left|done].
    + (* make *)
      apply Hquiet. exists L, m. rewrite app_nil_r. destruct Harr as (xa & Hxa & Hta). assert (Hla : l <> a) by congruence.
      eapply step_quiet; try done.
      * rewrite lookup_insert_ne by done. eauto.
      * cbn. intros l' _ Hne. rewrite lookup_insert_ne by congruence. done.
      * cbn. split; [done|]. split; [done|]. eexists. rewrite lookup_insert. split; [done|]. rewrite replicate_length. split; [lia|]. split; [lia|done].
      * cbn. intros l' [= <-]. auto.
    + (* copy *)
      apply Hquiet. exists L, m. rewrite app_nil_r. destruct Hok as (Hst & Hla & z' & Hz' & Hlz & Hj' & Hcp).
      rewrite Hz in Hz'. injection Hz' as <-. destruct (array_len _ _ _ _ _ _ _ _ _ _ _ Hi Hx) as [Htk _].
      eapply step_quiet; try done.
      * rewrite lookup_insert_ne by done. done.
      * cbn. intros l' _ Hne. rewrite lookup_insert_ne by congruence. done.
      * cbn. split; [done|]. split; [done|]. eexists. rewrite lookup_insert. split; [done|]. rewrite insert_length. split; [lia|]. split; [lia|].
        eapply copy_ok; eauto.
      * cbn. intros l' [= <-]. auto.
    + (* copied *)
      apply Hquiet. exists L, m. rewrite app_nil_r. destruct Hok as (Hst & Hla & z' & Hz' & Hlz & Hj' & Hcp).
      rewrite Hz in Hz'. injection Hz' as <-.
      eapply step_quiet; try done.
      * cbn. split; [done|]. split; [done|]. rewrite Hz. f_equal. rewrite <- (take_ge z (length z)), Hcp by done.
        apply take_ge. rewrite fmap_length. lia.
      * cbn. intros l' [= <-]. auto.
    + (* RUnlock *)
      apply Hquiet. exists L, m. rewrite app_nil_r. destruct Hok as (Hst & Hla & Hz).
      eapply step_quiet; try done.
      * rewrite decide_True, decide_False by (cbn; tauto). lia.
      * intros ->. specialize (Hex eq_refl). lia.
      * cbn. eauto.
      * cbn. intros l' [= <-]. auto.
  - (* Notify returns *)
    exists [Seen (ERet (t, i) RNotify)], L, (delete (t, i) m). split; [|done].
    pose proof Hi as [Hlog Hlen Harr [Hag Hgh] Hw Hr Hex Hpc Hnew Hdom]. cbn in *.
    destruct (Hpc _ _ _ Ht eq_refl) as [Hok _]. cbn in Hok.
    eapply step_gen; try done.
    + by constructor.
    + auto.
    + intros t2 th2 p2 Ht2 Hne Hp2 Hok2. rewrite lookup_delete_ne by congruence. done.
    + intros j c' [H|H]%elem_of_app; unfold begun_of; cbn.
      * apply (Hnew _ _ _ _ Ht) in H. unfold begun_of in H. cbn in H. lia.
      * by apply elem_of_list_singleton in H.
    + intros t2 j c' Hne H. by apply elem_of_list_singleton in H.
    + intros o s. destruct (decide (o = (t, i))) as [->|Hne]; [by rewrite lookup_delete|]. rewrite lookup_delete_ne by done. intros Hs.
      destruct (dom_same _ _ _ _ _ _ _ _ _ _ _ _ _ _ Hi Ht Hs) as [?|[-> _]]; [by left|done].
  - (* Facts returns *)
    exists [Seen (ERet (t, i) (RFacts x))], L, (delete (t, i) m). split; [|done].
    pose proof Hi as [Hlog Hlen Harr [Hag Hgh] Hw Hr Hex Hpc Hnew Hdom]. cbn in *.
    destruct (Hpc _ _ _ Ht eq_refl) as [(Hla & x' & Hx' & Hok) Hpriv]. cbn in *. rewrite Hl in Hx'. injection Hx' as <-.
    eapply step_gen; try done.
    + by constructor.
    + apply not_elem_of_cons. auto.
    + intros l' [->|Hin]%elem_of_cons; [|by left]. right. exists (FRet l). done.
    + intros t2 th2 p2 Ht2 Hne Hp2 Hok2. rewrite lookup_delete_ne by congruence. done.
    + intros j c' [H|H]%elem_of_app; unfold begun_of; cbn.
      * apply (Hnew _ _ _ _ Ht) in H. unfold begun_of in H. cbn in H. lia.
      * by apply elem_of_list_singleton in H.
    + intros t2 j c' Hne H. by apply elem_of_list_singleton in H.
    + intros o s. destruct (decide (o = (t, i))) as [->|Hne]; [by rewrite lookup_delete|]. rewrite lookup_delete_ne by done. intros Hs.
      destruct (dom_same _ _ _ _ _ _ _ _ _ _ _ _ _ _ Hi Ht Hs) as [?|[-> _]]; [by left|done].
  - (* a user writes into a returned slice *)
    exists [], L, m. split; [|done]. rewrite app_nil_r.
    destruct Hi as [Hlog Hlen Harr [Hag Hgh] Hw Hr Hex Hpc Hnew Hdom]. cbn in *.
    assert (Hla : l <> a) by congruence.
    split; cbn; try done.
    + rewrite lookup_insert_ne by done. done.
    + split; [done|]. intros l' Hl'. destruct (decide (l' = l)) as [->|]; [rewrite lookup_insert; eauto|]. rewrite lookup_insert_ne by done. auto.
    + intros t th p Ht Hp. destruct (Hpc _ _ _ Ht Hp) as [Hok Hpriv]. split; [|done].
      eapply pc_ok_frame; [|done]. intros l' Hl'. destruct (Hpriv _ Hl') as [Hng _]. rewrite lookup_insert_ne by congruence. done.
Qed.

Lemma binv_init calls : binv [] [] ∅ (buf_init calls).
Proof.
  assert (Hidle : forall t th, bs_threads (buf_init calls) !! t = Some th -> bt_pc th = None).
  { intros t th. cbn. rewrite list_lookup_fmap. destruct (calls !! t); [|done]. by intros [= <-]. }
  assert (Hnone : forall Q : BThread F -> Prop, forall `{forall x, Decision (Q x)}, (forall th, bt_pc th = None -> ~ Q th) ->
    filter Q (bs_threads (buf_init calls)) = []).
  { intros Q Hd HQ. destruct (filter Q _) as [|th l] eqn:Hf; [done|]. exfalso. assert (Hin : th ∈ th :: l) by left.
    rewrite <- Hf in Hin. apply elem_of_list_filter in Hin as [Hq Hin]. apply elem_of_list_lookup in Hin as [t Ht].
    eapply HQ; eauto. }
  split.
  - constructor.
  - done.
  - exists []. done.
  - split; [by apply not_elem_of_nil|]. intros l H. by apply elem_of_nil in H.
  - rewrite Hnone; [done|]. intros th Hn. unfold th_write. rewrite Hn. auto.
  - rewrite Hnone; [done|]. intros th Hn. unfold th_read. rewrite Hn. auto.
  - done.
  - intros t th p Ht Hp. apply Hidle in Ht. congruence.
  - intros t th i c _ H. by apply elem_of_nil in H.
  - intros o s. by rewrite lookup_empty.
Qed.
Lemma seen_app (es1 es2 : list (@LEvent F)) : seen (es1 ++ es2) = seen es1 ++ seen es2.
Proof. apply omap_app. Qed.
Lemma bruns_inv calls tr y : bruns (buf_init calls) tr y -> exists es L m, binv es L m y /\ seen es = tr.
Proof.
  intros H. remember (buf_init calls) as y0 eqn:Hy. induction H as [y0|y0 tr y1 y2 _ IH Hs|y0 tr y1 e y2 _ IH Hs]; subst.
  - exists [], [], ∅. split; [apply binv_init|done].
  - destruct (IH eq_refl) as (es & L & m & Hi & <-). destruct (binv_step _ _ _ _ _ _ Hi Hs) as (es' & L' & m' & Hi' & He).
    exists (es ++ es'), L', m'. split; [done|]. rewrite seen_app, He. cbn. apply app_nil_r.
  - destruct (IH eq_refl) as (es & L & m & Hi & <-). destruct (binv_step _ _ _ _ _ _ Hi Hs) as (es' & L' & m' & Hi' & He).
    exists (es ++ es'), L', m'. split; [done|]. rewrite seen_app, He. done.
Qed.

(** ** What follows from being such a log *)
Lemma log_called es (log : list F) m o s : Log es log m -> m !! o = Some s -> exists c, Seen (ECall o c) ∈ es.
Proof.
  intros H. revert o s. induction H as [|es log m o c _ IH Hf|es log m o f _ IH Ho|es log m o _ IH Ho|es log m o r _ IH Ho]; intros o' s.
  - by rewrite lookup_empty.
  - destruct (decide (o' = o)) as [->|Hne]; [intros _; exists c; set_solver|]. rewrite lookup_insert_ne by done. intros Hs.
    destruct (IH _ _ Hs) as [c' Hc']. exists c'. set_solver.
  - destruct (decide (o' = o)) as [->|Hne]; [intros _|rewrite lookup_insert_ne by done; intros Hs];
      [destruct (IH _ _ Ho) as [c' Hc']|destruct (IH _ _ Hs) as [c' Hc']]; exists c'; set_solver.
  - destruct (decide (o' = o)) as [->|Hne]; [intros _|rewrite lookup_insert_ne by done; intros Hs];
      [destruct (IH _ _ Ho) as [c' Hc']|destruct (IH _ _ Hs) as [c' Hc']]; exists c'; set_solver.
  - rewrite lookup_delete_Some. intros [_ Hs]. destruct (IH _ _ Hs) as [c' Hc']. exists c'. set_solver.
Qed.
Lemma log_snoc_inv es e (log : list F) m : Log (es ++ [e]) log m -> exists log' m', Log es log' m' /\ log' `prefix_of` log /\
  match e with
  | Seen (ECall o c) => (forall c', Seen (ECall o c') ∉ es) /\ log = log' /\ m = <[o := Waiting c]> m'
  | Seen (ERet o r) => m' !! o = Some (Done r) /\ log = log' /\ m = delete o m'
  | Effect o => exists c r, m' !! o = Some (Waiting c) /\ m = <[o := Done r]> m' /\
      match c with CNotify f => log = log' ++ [f] /\ r = RNotify | CFacts => log = log' /\ r = RFacts (Some <$> log') end
  end.
Proof.
  intros H. remember (es ++ [e]) as es' eqn:He.
  destruct H as [|es1 log m o c H Hf|es1 log m o f H Ho|es1 log m o H Ho|es1 log m o r H Ho]; [by destruct es|..];
    apply app_inj_tail in He as [-> <-]; exists log, m.
  - done.
  - split; [done|]. split; [by apply prefix_app_r|]. eexists _, _. split; [done|]. done.
  - split; [done|]. split; [done|]. eexists _, _. split; [done|]. done.
  - done.
Qed.
Lemma log_app_inv es1 es2 (log : list F) m : Log (es1 ++ es2) log m -> exists log1 m1, Log es1 log1 m1 /\ log1 `prefix_of` log.
Proof.
  revert log m. induction es2 as [|e es2 IH] using rev_ind; intros log m H.
  - rewrite app_nil_r in H. eauto.
  - rewrite app_assoc in H. apply log_snoc_inv in H as (log' & m' & H & Hp & _).
    destruct (IH _ _ H) as (log1 & m1 & H1 & H2). exists log1, m1. split; [done|]. by etrans.
Qed.
(** A result of Facts is what the log was at some moment. *)
Lemma log_results es (log : list F) m : Log es log m ->
  (forall o l, m !! o = Some (Done (RFacts l)) -> exists p, p `prefix_of` log /\ l = Some <$> p) /\
  (forall o l, Seen (ERet o (RFacts l)) ∈ es -> exists p, p `prefix_of` log /\ l = Some <$> p).
Proof.
  revert log m. induction es as [|e es IH] using rev_ind; intros log m H.
  - inversion H as [| | | |]; subst; try (by destruct es). split; intros o l Hx; [by rewrite lookup_empty in Hx|by apply elem_of_nil in Hx].
  - apply log_snoc_inv in H as (log' & m' & H & Hp & He). destruct (IH _ _ H) as [IH1 IH2].
    assert (K1 : forall o l, m' !! o = Some (Done (RFacts l)) -> exists p, p `prefix_of` log /\ l = Some <$> p).
    { intros o l Hx. destruct (IH1 _ _ Hx) as (p & Hpp & ->). exists p. split; [by etrans|done]. }
    assert (K2 : forall o l, Seen (ERet o (RFacts l)) ∈ es -> exists p, p `prefix_of` log /\ l = Some <$> p).
    { intros o l Hx. destruct (IH2 _ _ Hx) as (p & Hpp & ->). exists p. split; [by etrans|done]. }
    destruct e as [[o c|o r]|o].
    + destruct He as (Hf & -> & ->). split.
      * intros o' l. destruct (decide (o' = o)) as [->|Hne]; [by rewrite lookup_insert|]. rewrite lookup_insert_ne by done. eauto.
      * intros o' l [Hx|Hx]%elem_of_app; [eauto|]. by apply elem_of_list_singleton in Hx.
    + destruct He as (Hr & -> & ->). split.
      * intros o' l. rewrite lookup_delete_Some. intros [_ Hx]. eauto.
      * intros o' l [Hx|Hx]%elem_of_app; [eauto|]. apply elem_of_list_singleton in Hx. injection Hx as -> <-. eauto.
    + destruct He as (c & r & Ho & -> & Hc). split.
      * intros o' l. destruct (decide (o' = o)) as [->|Hne]; [|rewrite lookup_insert_ne by done; eauto].
        rewrite lookup_insert. intros [= ->]. destruct c; destruct Hc as [-> Hr]; [done|]. injection Hr as ->. eauto.
      * intros o' l [Hx|Hx]%elem_of_app; [eauto|]. by apply elem_of_list_singleton in Hx.
Qed.
(** A call that has not begun will get at least what is there. *)
Lemma log_later es1 es2 (log1 log : list F) m1 m o : Log es1 log1 m1 -> (forall c, Seen (ECall o c) ∉ es1) -> Log (es1 ++ es2) log m ->
  log1 `prefix_of` log /\
  (forall l, m !! o = Some (Done (RFacts l)) -> (Some <$> log1) `prefix_of` l) /\
  (forall l, Seen (ERet o (RFacts l)) ∈ es2 -> (Some <$> log1) `prefix_of` l).
Proof.
  intros H1 Hf. revert log m. induction es2 as [|e es2 IH] using rev_ind; intros log m H.
  - rewrite app_nil_r in H.
    assert (Hn : m !! o = None). { destruct (m !! o) eqn:Hm; [|done]. destruct (log_called _ _ _ _ _ H Hm) as [c Hc]. by destruct (Hf c). }
    rewrite Hn. split; [|split; [done|]; intros l Hx; by apply elem_of_nil in Hx].
    assert (Hdet : forall es (a b : list F) ma mb, Log es a ma -> Log es b mb -> a = b /\ ma = mb).
    { clear. intros es. induction es as [|e es IH] using rev_ind; intros a b ma mb Ha Hb.
      - inversion Ha; subst; try (by destruct es). inversion Hb; subst; try (by destruct es). done.
      - apply log_snoc_inv in Ha as (a' & ma' & Ha & _ & Hea). apply log_snoc_inv in Hb as (b' & mb' & Hb & _ & Heb).
        destruct (IH _ _ _ _ Ha Hb) as [-> ->]. destruct e as [[o c|o r]|o]; [by destruct Hea as (_ & -> & ->), Heb as (_ & -> & ->)..|].
        destruct Hea as (c & r & Ho & -> & Hc), Heb as (c' & r' & Ho' & -> & Hc'). rewrite Ho in Ho'. injection Ho' as <-.
        destruct c; destruct Hc as [-> ->], Hc' as [-> ->]; done. }
    destruct (Hdet _ _ _ _ _ H1 H) as [-> _]. done.
  - rewrite app_assoc in H. apply log_snoc_inv in H as (log' & m' & H & Hp & He). destruct (IH _ _ H) as (IH0 & IH1 & IH2).
    split; [by etrans|].
    assert (K2 : forall l, Seen (ERet o (RFacts l)) ∈ es2 ++ [e] -> Seen (ERet o (RFacts l)) ∈ es2 \/ e = Seen (ERet o (RFacts l))).
    { intros l [Hx|Hx]%elem_of_app; [by left|]. apply elem_of_list_singleton in Hx. auto. }
    destruct e as [[o' c|o' r]|o'].
    + destruct He as (_ & -> & ->). split.
      * intros l. destruct (decide (o = o')) as [->|Hne]; [by rewrite lookup_insert|]. rewrite lookup_insert_ne by done. eauto.
      * intros l Hx. destruct (K2 l Hx); [auto|done].
    + destruct He as (Hr & -> & ->). split.
      * intros l. rewrite lookup_delete_Some. intros [_ Hx]. eauto.
      * intros l Hx. destruct (K2 l Hx) as [?|Hx']; [auto|]. injection Hx' as -> ->. auto.
    + destruct He as (c & r & Ho & -> & Hc). split.
      * intros l. destruct (decide (o = o')) as [->|Hne]; [|rewrite lookup_insert_ne by done; eauto].
        rewrite lookup_insert. intros [= ->]. destruct c; destruct Hc as [-> Hr]; [done|]. injection Hr as ->.
        destruct IH0 as [k ->]. rewrite fmap_app. by apply prefix_app_r.
      * intros l Hx. destruct (K2 l Hx) as [?|Hx']; [auto|done].
Qed.
(** A call of Notify that has ended has had its effect. *)
Lemma log_notified es (log : list F) m : Log es log m -> forall o f, Seen (ECall o (CNotify f)) ∈ es ->
  (m !! o = Some (Waiting (CNotify f))) \/ f ∈ log.
Proof.
  revert log m. induction es as [|e es IH] using rev_ind; intros log m H o f Hin; [by apply elem_of_nil in Hin|].
  apply log_snoc_inv in H as (log' & m' & H & Hp & He). destruct Hp as [k Hk].
  apply elem_of_app in Hin as [Hin|Hin].
  - destruct (IH _ _ H o f Hin) as [Hw|Hl]; [|right; rewrite Hk; set_solver].
    destruct e as [[o' c|o' r]|o'].
    + destruct He as (Hf & -> & ->). destruct (decide (o = o')) as [->|Hne].
      { destruct (log_called _ _ _ _ _ H Hw) as [c' Hc']. by destruct (Hf c'). }
      rewrite lookup_insert_ne by done. auto.
    + destruct He as (Hr & _ & ->). destruct (decide (o = o')) as [->|Hne]; [congruence|]. rewrite lookup_delete_ne by done. auto.
    + destruct He as (c & r & Ho & -> & Hc). destruct (decide (o = o')) as [->|Hne]; [|rewrite lookup_insert_ne by done; auto].
      rewrite Hw in Ho. injection Ho as <-. destruct Hc as [-> _]. right. set_solver.
  - apply elem_of_list_singleton in Hin. subst e. destruct He as (_ & _ & ->). left. apply lookup_insert.
Qed.

(** ** Nothing is lost or duplicated *)
Definition waiting_fact (p : OpId * @Status F) : option F := match p.2 with Waiting (CNotify f) => Some f | _ => None end.
Definition waiting (m : gmap OpId Status) : list F := omap waiting_fact (map_to_list m).
Lemma omap_perm {A B} (g : A -> option B) (l l' : list A) : l ≡ₚ l' -> omap g l ≡ₚ omap g l'.
Proof. induction 1; cbn; try done; [by destruct (g x); [constructor|]|destruct (g x), (g y); try done; constructor|by etrans]. Qed.
Lemma waiting_insert m o s : m !! o = None -> waiting (<[o := s]> m) ≡ₚ option_list (waiting_fact (o, s)) ++ waiting m.
Proof.
  intros Hn. unfold waiting. rewrite (omap_perm _ _ _ (map_to_list_insert m o s Hn)). cbn. destruct (waiting_fact (o, s)); done.
Qed.
Lemma waiting_delete m o s : m !! o = Some s -> waiting m ≡ₚ option_list (waiting_fact (o, s)) ++ waiting (delete o m).
Proof. intros Hs. rewrite <- waiting_insert by apply lookup_delete. by rewrite insert_delete. Qed.
Lemma log_accounts es (log : list F) m : Log es log m -> log ++ waiting m ≡ₚ notified (seen es).
Proof.
  induction 1 as [|es log m o c H IH Hf|es log m o f H IH Ho|es log m o H IH Ho|es log m o r H IH Ho]; [done|..]; rewrite seen_app; unfold notified in *; rewrite omap_app.
  - assert (Hn : m !! o = None). { destruct (m !! o) eqn:Hm; [|done]. destruct (log_called _ _ _ _ _ H Hm) as [c' Hc]. by destruct (Hf c'). }
    rewrite waiting_insert by done. rewrite <- IH. destruct c; cbn; [|by rewrite app_nil_r]. solve_Permutation.
  - cbn. rewrite app_nil_r, <- IH. rewrite (waiting_delete _ _ _ Ho). cbn. rewrite <- insert_delete_insert, waiting_insert by apply lookup_delete.
    cbn. rewrite <- app_assoc. done.
  - cbn. rewrite app_nil_r, <- IH. rewrite (waiting_delete _ _ _ Ho). cbn. rewrite <- insert_delete_insert, waiting_insert by apply lookup_delete. done.
  - cbn. rewrite app_nil_r, <- IH. rewrite (waiting_delete _ _ _ Ho). done.
Qed.
Lemma at_rest_empty es L m (y : BSys F) : binv es L m y -> at_rest y -> m = ∅.
Proof.
  intros Hi Hr. apply map_empty. intros o. destruct (m !! o) as [s|] eqn:Hm; [|done].
  destruct (bi_dom _ _ _ _ Hi o s Hm) as (th & Ht & _ & [p Hp]). unfold at_rest in Hr. rewrite Forall_forall in Hr.
  destruct (Hr th) as [Hn _]; [by eapply elem_of_list_lookup_2|]. congruence.
Qed.

Lemma seen_split (es : list (@LEvent F)) a e b : seen es = a ++ e :: b ->
  exists e1 e2, es = e1 ++ Seen e :: e2 /\ seen e1 = a /\ seen e2 = b.
Proof.
  revert a. induction es as [|x es IH]; intros a; cbn; [by destruct a|]. destruct x as [x|o]; cbn.
  - destruct a as [|y a]; cbn; intros [= -> H].
    + exists [], es. done.
    + destruct (IH a H) as (e1 & e2 & -> & <- & <-). exists (Seen y :: e1), e2. done.
  - intros H. destruct (IH a H) as (e1 & e2 & -> & <- & <-). exists (Effect o :: e1), e2. done.
Qed.
Lemma log_grows es1 o c es2 (log : list F) m : Log (es1 ++ Seen (ECall o c) :: es2) log m -> exists log1 m1,
  Log es1 log1 m1 /\ log1 `prefix_of` log /\ forall l, Seen (ERet o (RFacts l)) ∈ es2 -> (Some <$> log1) `prefix_of` l.
Proof.
  intros H. destruct (log_app_inv _ _ _ _ H) as (log1 & m1 & H1 & Hp). exists log1, m1. split; [done|]. split; [done|].
  assert (Hf : forall c', Seen (ECall o c') ∉ es1).
  { change (Seen (ECall o c) :: es2) with ([Seen (ECall o c)] ++ es2) in H. rewrite app_assoc in H.
    destruct (log_app_inv _ _ _ _ H) as (log2 & m2 & H2 & _). apply log_snoc_inv in H2 as (_ & _ & _ & _ & Hf & _). done. }
  destruct (log_later _ _ _ _ _ _ o H1 Hf H) as (_ & _ & Hr). intros l Hin. apply Hr. by right.
Qed.
End BufferLemmas.
