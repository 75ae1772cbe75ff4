(** * Go's memory: lemmas for C89 *)
From Verif Require Import MemModel.

Section MemLemmas.
Context {P : Params} (grow : Mem -> Slice -> nat -> nat) (junk : Root).

(** The things that can be shared: arrays and objects. *)
Inductive Loc := LArr (a : nat) | LObj (p : nat).
Definition loc_id (x : Loc) : nat := match x with LArr a | LObj a => a end.

Definition in_slice (s : Slice) (x : Loc) : Prop := s_cap s <> 0 /\ x = LArr (s_arr s).
Definition fresh_in (m : Mem) (x : Loc) : Prop := m_next m <= loc_id x.

(** [s] is a proper slice whose elements are [l]. *)
Definition rep (m : Mem) (s : Slice) (l : list Env) : Prop :=
  cells m s = Some <$> l /\ s_len s = length l /\ s_len s <= s_cap s /\
  (s_cap s <> 0 -> s_arr s < m_next m /\
     exists arr, m_arr m !! s_arr s = Some arr /\ s_off s + s_cap s <= length arr).
Definition obj_is (m : Mem) (p : nat) (r : Root) : Prop := m_obj m !! p = Some r /\ p < m_next m.

(** Of what there was in [m], at most [X] has changed. *)
Definition touches (m m' : Mem) (X : Loc -> Prop) : Prop :=
  m_next m <= m_next m' /\
  (forall a, a < m_next m -> ~ X (LArr a) -> m_arr m' !! a = m_arr m !! a) /\
  (forall p, p < m_next m -> ~ X (LObj p) -> m_obj m' !! p = m_obj m !! p).

Lemma touches_refl m X : touches m m X.
Proof. split; [lia|done]. Qed.

Lemma touches_trans m1 m2 m3 (X Y : Loc -> Prop) :
  touches m1 m2 X -> touches m2 m3 Y -> (forall x, Y x -> X x \/ fresh_in m1 x) -> touches m1 m3 X.
Proof.
  intros (L & A & O) (L' & A' & O') S. split; [lia|]. split; intros a La Na.
  - rewrite A'; [apply A; done|lia|]. intros HY. destruct (S _ HY) as [?|F]; [done|].
    unfold fresh_in in F. simpl in F. lia.
  - rewrite O'; [apply O; done|lia|]. intros HY. destruct (S _ HY) as [?|F]; [done|].
    unfold fresh_in in F. simpl in F. lia.
Qed.

Lemma touches_weaken m m' (X Y : Loc -> Prop) :
  touches m m' X -> (forall x, X x -> Y x \/ fresh_in m x) -> touches m m' Y.
Proof. intros T S. apply (touches_trans m m m' Y X); [apply touches_refl|done|done]. Qed.

Lemma touches_next m m' X : touches m m' X -> m_next m <= m_next m'.
Proof. intros [? _]. done. Qed.

Lemma fresh_later m m' X x : touches m m' X -> fresh_in m' x -> fresh_in m x.
Proof. intros [L _]. unfold fresh_in. lia. Qed.

Lemma rep_alloc m s l x : rep m s l -> in_slice s x -> ~ fresh_in m x.
Proof. intros (_ & _ & _ & A) [C ->] F. destruct (A C) as [L _]. unfold fresh_in in F. simpl in F. lia. Qed.

Lemma rep_nil m : rep m nil_slice [].
Proof. split; [done|]. split; [done|]. split; [simpl; lia|]. intros C. by destruct C. Qed.

Lemma in_nil x : ~ in_slice nil_slice x.
Proof. intros [C _]. by apply C. Qed.

Lemma rep_frame m m' (X : Loc -> Prop) s l :
  rep m s l -> touches m m' X -> (forall x, in_slice s x -> ~ X x) -> rep m' s l.
Proof.
  intros (C & L & LC & A) (N & TA & TO) D.
  destruct (decide (s_cap s = 0)) as [E|E].
  - split; [|split; [done|]; split; [done|]; intros; done].
    assert (l = []) as -> by (destruct l; [done|simpl in L; lia]).
    unfold cells. rewrite L. done.
  - destruct (A E) as (La & arr & Ha & Hl).
    assert (m_arr m' !! s_arr s = m_arr m !! s_arr s) as Eq.
    { apply TA; [done|]. apply D. done. }
    split; [unfold cells; rewrite Eq; exact C|]. split; [done|]. split; [done|]. intros _.
    split; [lia|]. exists arr. rewrite Eq. done.
Qed.

Lemma obj_frame m m' (X : Loc -> Prop) p r :
  obj_is m p r -> touches m m' X -> ~ X (LObj p) -> obj_is m' p r.
Proof. intros [O L] (N & TA & TO) D. split; [|lia]. rewrite TO; done. Qed.

Lemma obj_deref m p r : obj_is m p r -> deref junk m p = r.
Proof. intros [O _]. unfold deref. by rewrite O. Qed.

Lemma omap_some (l : list Env) : omap id (Some <$> l) = l.
Proof. induction l; [done|]. simpl. f_equal. done. Qed.

Lemma rep_values m s l : rep m s l -> values m s = l.
Proof. intros (C & _). unfold values. rewrite C. apply omap_some. Qed.

Lemma rep_cells m s l : rep m s l -> cells m s = Some <$> l.
Proof. intros (C & _). done. Qed.

Lemma rep_from m s l i : rep m s l -> i <= length l -> rep m (slice_from s i) (drop i l).
Proof.
  intros (C & L & LC & A) Hi. unfold slice_from.
  split.
  { unfold cells in *. simpl. rewrite fmap_drop, <- C, <- drop_drop, take_drop_commute.
    f_equal. f_equal.
    replace (i + (s_len s - i)) with (s_len s) by lia. done. }
  split; [simpl; rewrite drop_length; lia|]. split; [simpl; lia|].
  simpl. intros E. destruct A as (La & arr & Ha & Hl); [lia|]. split; [done|]. exists arr. split; [done|]. lia.
Qed.

Lemma in_from s i x : in_slice (slice_from s i) x -> in_slice s x.
Proof. intros [C ->]. split; [|done]. simpl in C. lia. Qed.

Lemma rep_upto m s l i : rep m s l -> i <= length l -> rep m (slice_upto s i) (take i l).
Proof.
  intros (C & L & LC & A) Hi. unfold slice_upto.
  split.
  { unfold cells in *. simpl. rewrite fmap_take, <- C, take_take. f_equal. lia. }
  split; [simpl; rewrite take_length; lia|]. split; [simpl; lia|].
  simpl. intros E. destruct (A E) as (La & arr & Ha & Hl). split; [done|]. exists arr. done.
Qed.

(** Reading back what has been written. *)
Lemma list_inserts_window {A} (arr xs : list A) off n :
  off + n + length xs <= length arr ->
  take (n + length xs) (drop off (list_inserts (off + n) xs arr)) = take n (drop off arr) ++ xs.
Proof.
  intros L. apply list_eq. intros j.
  destruct (decide (j < n + length xs)) as [H|H].
  - rewrite lookup_take by done. rewrite lookup_drop.
    destruct (decide (j < n)) as [H1|H1].
    + rewrite lookup_app_l by (rewrite take_length, drop_length; lia).
      rewrite lookup_take by done. rewrite lookup_drop. apply list_lookup_inserts_lt. lia.
    + rewrite lookup_app_r by (rewrite take_length, drop_length; lia).
      rewrite take_length, drop_length, Nat.min_l by lia.
      rewrite list_lookup_inserts by lia. f_equal. lia.
  - rewrite !lookup_ge_None_2; [done| |].
    + rewrite app_length, take_length, drop_length. lia.
    + rewrite take_length. lia.
Qed.

Lemma append_spec m s l xs m' s' :
  rep m s l -> go_append grow m s (Some <$> xs) = (m', s') ->
  rep m' s' (l ++ xs) /\ touches m m' (in_slice s) /\
  (forall x, in_slice s' x -> in_slice s x \/ fresh_in m x) /\ m_obj m' = m_obj m.
Proof.
  intros (C & L & LC & A) H. unfold go_append in H. rewrite fmap_length in H. case_decide as D.
  - injection H as <- <-. split; [|split; [|split]].
    + destruct (decide (s_cap s = 0)) as [E|E].
      { assert (l = []) as -> by (destruct l; [done|simpl in L; lia]).
        assert (xs = []) as -> by (destruct xs; [done|simpl in D; lia]).
        split; [unfold cells; simpl; rewrite L; done|]. simpl.
        split; [simpl in *; lia|]. split; [simpl in *; lia|]. intros; done. }
      destruct (A E) as (La & arr & Ha & Hl).
      split.
      { unfold cells in *. simpl. rewrite Ha in C. simpl in C. rewrite lookup_alter, Ha. simpl.
        rewrite fmap_app, <- C, <- (fmap_length Some xs). apply list_inserts_window.
        rewrite fmap_length. lia. }
      split; [simpl; rewrite app_length; lia|]. split; [simpl; lia|]. simpl. intros _. split; [done|].
      eexists. rewrite lookup_alter, Ha. simpl. split; [reflexivity|]. rewrite inserts_length. done.
    + split; [simpl; lia|]. split; [|done]. intros a La Na. simpl.
      destruct (decide (a = s_arr s)) as [->|Ne]; [|by rewrite lookup_alter_ne].
      destruct (decide (s_cap s = 0)) as [E|E]; [|exfalso; apply Na; split; done].
      assert (xs = []) as -> by (destruct xs; [done|simpl in D; lia]).
      rewrite lookup_alter. simpl. destruct (m_arr m !! s_arr s); done.
    + intros x Hx. left. done.
    + done.
  - unfold new_array in H. injection H as <- <-.
    set (n := s_len s + length xs) in *. set (cap := Nat.max n (grow m s n)).
    split; [|split; [|split]].
    + split.
      { unfold cells at 1. simpl. rewrite lookup_insert. simpl. rewrite C, drop_0.
        rewrite app_assoc, <- fmap_app. rewrite take_app_alt; [done|]. rewrite fmap_length, app_length. lia. }
      split; [simpl; rewrite app_length; lia|]. split; [simpl; lia|]. simpl. intros _.
      split; [lia|]. eexists. rewrite lookup_insert. split; [reflexivity|].
      rewrite C, !app_length, !fmap_length, replicate_length. lia.
    + split; [simpl; lia|]. split; [|done]. intros a La Na. simpl. rewrite lookup_insert_ne; [done|]. lia.
    + intros x [Cx ->]. right. unfold fresh_in. simpl. lia.
    + done.
Qed.

(** A sort in place. *)
Lemma rewrite_spec m s l l' :
  rep m s l -> length l' = length l ->
  rep (write m (s_arr s) (s_off s) (Some <$> l')) s l' /\
  touches m (write m (s_arr s) (s_off s) (Some <$> l')) (in_slice s).
Proof.
  intros (C & L & LC & A) E. destruct (decide (s_cap s = 0)) as [Z|Z].
  - assert (l = []) as -> by (destruct l; [done|simpl in L; lia]).
    assert (l' = []) as -> by (destruct l'; [done|simpl in E; lia]).
    split.
    + split; [unfold cells; simpl; rewrite L; done|]. split; [done|]. split; [done|]. intros; done.
    + split; [simpl; lia|]. split; [|done]. intros a _ _. simpl.
      destruct (decide (a = s_arr s)) as [->|Ne]; [|by rewrite lookup_alter_ne].
      rewrite lookup_alter. destruct (m_arr m !! s_arr s); done.
  - destruct (A Z) as (La & arr & Ha & Hl). split.
    + split.
      { unfold cells. simpl. rewrite lookup_alter, Ha. simpl.
        pose proof (list_inserts_window arr (Some <$> l') (s_off s) 0) as W.
        rewrite Nat.add_0_r in W. rewrite L, <- E, <- (fmap_length Some l'). apply W.
        rewrite fmap_length. lia. }
      split; [lia|]. split; [done|]. intros _. split; [done|].
      eexists. simpl. rewrite lookup_alter, Ha. split; [reflexivity|]. rewrite inserts_length. done.
    + split; [simpl; lia|]. split; [|done]. intros a _ Na. simpl.
      destruct (decide (a = s_arr s)) as [->|Ne]; [|by rewrite lookup_alter_ne].
      exfalso. apply Na. split; done.
Qed.

Lemma make_spec m n m' s :
  make_slice m n = (m', s) ->
  rep m' s [] /\ (forall X, touches m m' X) /\ (forall x, in_slice s x -> fresh_in m x) /\ m_obj m' = m_obj m.
Proof.
  unfold make_slice, new_array. intros H. injection H as <- <-. split; [|split; [|split]].
  - split; [done|]. split; [done|]. split; [simpl; lia|]. simpl. intros _. split; [lia|].
    eexists. rewrite lookup_insert. split; [reflexivity|]. rewrite replicate_length. lia.
  - intros X. split; [simpl; lia|]. split; [|done]. intros a La _. simpl. rewrite lookup_insert_ne; [done|]. lia.
  - intros x [_ ->]. unfold fresh_in. simpl. lia.
  - done.
Qed.

Lemma new_array_spec m env m' a :
  new_array m [Some env] = (m', a) ->
  rep m' (mkSlice a 0 1 1) [env] /\ (forall X, touches m m' X) /\
  (forall x, in_slice (mkSlice a 0 1 1) x -> fresh_in m x).
Proof.
  unfold new_array. intros H. injection H as <- <-. split; [|split].
  - split; [unfold cells; simpl; rewrite lookup_insert; done|]. split; [done|]. split; [simpl; lia|].
    simpl. intros _. split; [lia|]. eexists. rewrite lookup_insert. split; [reflexivity|]. simpl. lia.
  - intros X. split; [simpl; lia|]. split; [|done]. intros b Lb _. simpl. rewrite lookup_insert_ne; [done|]. lia.
  - intros x [_ ->]. unfold fresh_in. simpl. lia.
Qed.

Lemma new_obj_spec m r m' p :
  new_obj m r = (m', p) ->
  obj_is m' p r /\ (forall X, touches m m' X) /\ fresh_in m (LObj p) /\ m_arr m' = m_arr m.
Proof.
  unfold new_obj. intros H. injection H as <- <-. split; [|split; [|split]].
  - split; [simpl; by rewrite lookup_insert|]. simpl. lia.
  - intros X. split; [simpl; lia|]. split; [done|]. intros b Lb _. simpl. rewrite lookup_insert_ne; [done|]. lia.
  - unfold fresh_in. simpl. lia.
  - done.
Qed.

Lemma set_obj_spec m p r0 r :
  obj_is m p r0 -> obj_is (set_obj m p r) p r /\ touches m (set_obj m p r) (fun x => x = LObj p).
Proof.
  intros [O L]. split.
  - split; [simpl; by rewrite lookup_insert|]. done.
  - split; [simpl; lia|]. split; [done|]. intros b _ N. simpl. rewrite lookup_insert_ne; [done|]. intros ->. by apply N.
Qed.

End MemLemmas.
