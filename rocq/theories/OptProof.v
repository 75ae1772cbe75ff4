(** * The options of actions: proofs *)
From Coq Require Import Lia.
From Verif Require MemLemmas.
From Verif Require Import OptModel OptSpec.

Section OptProof.
Context {P : Params} (grow : Heap -> Slc -> nat -> nat).

Definition wf (h : Heap) (s : Slc) : Prop :=
  l_len s <= l_cap s /\ l_off s + l_cap s <= length (default [] (h_arr h !! l_arr s)) /\ l_arr s < h_next h.

Lemma elems_same h h' s : h_arr h' !! l_arr s = h_arr h !! l_arr s -> elems h' s = elems h s.
Proof. unfold elems. intros ->. done. Qed.
Lemma wf_same h h' s : h_arr h' !! l_arr s = h_arr h !! l_arr s -> h_next h <= h_next h' -> wf h s -> wf h' s.
Proof. unfold wf. intros ->. lia. Qed.

Lemma extend_spec h s xs h' s' :
  wf h s -> extend grow h s xs = (h', s') ->
  wf h' s' /\ elems h' s' = elems h s ++ xs /\ h_next h <= h_next h' /\
  (l_arr s' = l_arr s \/ h_next h <= l_arr s' < h_next h') /\
  (forall a, a < h_next h -> a <> l_arr s -> h_arr h' !! a = h_arr h !! a) /\
  elems h' s = elems h s.
Proof.
  intros (L & C & A). unfold extend. destruct (decide _) as [F|F].
  - intros Q. injection Q as <- <-. unfold wf, elems. simpl. rewrite lookup_alter.
    destruct (h_arr h !! l_arr s) as [l|] eqn:El; simpl in *; cycle 1.
    { destruct xs; simpl in *; [|lia]. rewrite Nat.add_0_r, app_nil_r.
      split; [lia|]. split; [done|]. split; [lia|]. split; [by left|]. split; [|done].
      intros a _ Ha. by rewrite lookup_alter_ne. }
    rewrite inserts_length. split; [lia|].
    assert (W := MemLemmas.list_inserts_window l xs (l_off s) (l_len s) ltac:(lia)).
    split; [done|]. split; [lia|]. split; [by left|]. split.
    { intros a _ Ha. by rewrite lookup_alter_ne. }
    apply (f_equal (take (l_len s))) in W. rewrite take_take, Nat.min_l in W by lia. rewrite W.
    rewrite take_app_alt; [done|]. rewrite take_length, drop_length. lia.
  - intros Q. injection Q as <- <-. unfold wf. simpl.
    assert (E : length (elems h s) = l_len s) by (unfold elems; rewrite take_length, drop_length; lia).
    split.
    { rewrite lookup_insert. simpl. rewrite !app_length, replicate_length. lia. }
    split.
    { unfold elems at 1. simpl. rewrite lookup_insert. simpl. rewrite drop_0.
      rewrite app_assoc, take_app_alt; [done|]. rewrite app_length. lia. }
    split; [lia|]. split; [right; lia|]. split.
    { intros a Ha _. rewrite lookup_insert_ne; [done|lia]. }
    apply elems_same. simpl. rewrite lookup_insert_ne; [done|lia].
Qed.

Lemma literal_spec h xs h' s :
  literal h xs = (h', s) ->
  wf h' s /\ elems h' s = Some <$> xs /\ l_arr s = h_next h /\ h_next h' = S (h_next h) /\
  (forall a, a < h_next h -> h_arr h' !! a = h_arr h !! a).
Proof.
  intros Q. injection Q as <- <-. unfold wf, elems. simpl. rewrite lookup_insert. simpl.
  rewrite drop_0, fmap_length. split; [lia|]. split; [apply take_ge; rewrite fmap_length; lia|].
  split; [done|]. split; [done|]. intros a Ha. rewrite lookup_insert_ne; [done|lia].
Qed.

(** ** User code *)
Definition sane (st : TMem) : Prop := Forall (fun a => a < h_next (t_heap st)) (t_known st).

(** What user code does not change. *)
Definition stepped (st st' : TMem) : Prop :=
  sane st' /\ h_next (t_heap st) <= h_next (t_heap st') /\
  (forall a, a < h_next (t_heap st) -> a ∉ t_known st ->
     h_arr (t_heap st') !! a = h_arr (t_heap st) !! a /\ a ∉ t_known st') /\
  t_opts st' = t_opts st /\ t_bound st' = t_bound st.

Lemma stepped_refl st : sane st -> stepped st st.
Proof. intros. repeat (split; [done|]). done. Qed.
Lemma stepped_trans st1 st2 st3 : stepped st1 st2 -> stepped st2 st3 -> stepped st1 st3.
Proof.
  intros (S1 & N1 & A1 & O1 & B1) (S2 & N2 & A2 & O2 & B2). split; [done|]. split; [lia|].
  split; [|split; congruence]. intros a Ha Na. destruct (A1 a Ha Na) as [E1 K1].
  destruct (A2 a ltac:(lia) K1) as [E2 K2]. split; [congruence|done].
Qed.

Lemma accessible_spec st s : sane st -> accessible st s = true -> l_arr s ∈ t_known st /\ wf (t_heap st) s.
Proof.
  intros Sa H. unfold accessible in H. apply andb_true_iff in H as [H H3]. apply andb_true_iff in H as [H1 H2].
  apply bool_decide_eq_true in H1. apply Nat.leb_le in H2, H3. split; [done|]. split; [done|]. split; [done|].
  unfold sane in Sa. rewrite Forall_forall in Sa. by apply Sa.
Qed.

Lemma stepped_extend st s xs h s' :
  sane st -> l_arr s ∈ t_known st -> wf (t_heap st) s -> extend grow (t_heap st) s xs = (h, s') ->
  stepped st (shown st h s') /\ stepped st (with_heap st h).
Proof.
  intros Sa K W E. destruct (extend_spec _ _ _ _ _ W E) as (W' & _ & N & F & A & _).
  assert (Sh : Forall (fun a => a < h_next h) (t_known st)).
  { eapply Forall_impl; [exact Sa|]. intros a Ha. simpl in *. lia. }
  split; (split; [|split; [exact N|]]).
  - constructor; [apply W'|exact Sh].
  - split; [|done]. intros a Ha Na. simpl. split; [apply A; [done|set_solver]|].
    rewrite not_elem_of_cons. split; [|done]. destruct F as [->|F]; [set_solver|lia].
  - exact Sh.
  - split; [|done]. intros a Ha Na. simpl. split; [apply A; [done|set_solver]|done].
Qed.

Lemma stepped_set st s i x :
  sane st -> l_arr s ∈ t_known st ->
  stepped st (with_heap st (overwrite (t_heap st) (l_arr s) (l_off s + i) [x])).
Proof.
  intros Sa K. split; [done|]. split; [simpl; lia|]. split; [|done].
  intros a Ha Na. split; [|done]. simpl. rewrite lookup_alter_ne; [done|set_solver].
Qed.

Lemma stepped_make st xs h s : sane st -> literal (t_heap st) xs = (h, s) -> stepped st (shown st h s).
Proof.
  intros Sa E. destruct (literal_spec _ _ _ _ E) as (W & _ & L & N & A). split.
  { constructor; [apply W|]. eapply Forall_impl; [exact Sa|]. intros a Ha. simpl in *. lia. }
  split; [simpl; lia|]. split; [|done]. intros a Ha Na. simpl. split; [by apply A|].
  rewrite not_elem_of_cons. split; [lia|done].
Qed.

Lemma stepped_clock st t : sane st -> stepped st (with_clock st t).
Proof. intros. repeat (split; [done|]). done. Qed.

Lemma stepped_advance f s st st' s' evs :
  sane st -> l_arr s ∈ t_known st -> wf (t_heap st) s -> advance grow f s st = (st', s', evs) ->
  stepped st st' /\ forall o, EExecuted o ∉ evs.
Proof.
  intros Sa K W. unfold advance. destruct (_ <? _)%Z.
  - intros Q. injection Q as <- _ <-. split; [by apply stepped_refl|]. set_solver.
  - set (now := f (t_clock st)). destruct (extend _ _ _ _) as [h x] eqn:E. intros Q. injection Q as <- _ <-. split; [|set_solver].
    destruct (stepped_extend (with_clock st now) s _ _ _ (ltac:(done) : sane (with_clock st now)) K W E) as [_ S].
    eapply stepped_trans; [by apply stepped_clock|exact S].
Qed.

Lemma v_run_spec p : forall st st' evs,
  sane st -> v_run grow p st = (st', evs) ->
  stepped st st' /\
  forall o, EExecuted o ∈ evs ->
    exists s, t_bound st = Some s /\
      (l_arr s < h_next (t_heap st) -> l_arr s ∉ t_known st -> o = elems (t_heap st) s).
Proof.
  assert (Z : forall st : TMem, forall o : list (option OOpt), EExecuted o ∈ [EPanicked] ->
    exists s, t_bound st = Some s /\ (l_arr s < h_next (t_heap st) -> l_arr s ∉ t_known st -> o = elems (t_heap st) s)) by set_solver.
  assert (T : forall st st1 st' : TMem, forall evs : list OEv, stepped st st1 ->
    (stepped st1 st' /\ forall o, EExecuted o ∈ evs -> exists s, t_bound st1 = Some s /\
      (l_arr s < h_next (t_heap st1) -> l_arr s ∉ t_known st1 -> o = elems (t_heap st1) s)) ->
    stepped st st' /\ forall o, EExecuted o ∈ evs -> exists s, t_bound st = Some s /\
      (l_arr s < h_next (t_heap st) -> l_arr s ∉ t_known st -> o = elems (t_heap st) s)).
  { intros st st1 st' evs S1 [S2 R]. split; [by eapply stepped_trans|]. intros o Ho. destruct (R o Ho) as (s & B & Q).
    destruct S1 as (_ & N & A & _ & B1). exists s. split; [congruence|]. intros L K. destruct (A _ L K) as [E K'].
    rewrite (Q ltac:(lia) K'). by apply elems_same. }
  induction p as [|s xs k IH|s i x k IH|xs k IH|s k IH|s k IH|f s k IH|f k IH|k IH]; intros st st' evs Sa; simpl.
  - intros Q. injection Q as <- <-. split; [by apply stepped_refl|set_solver].
  - destruct (accessible st s) eqn:Ac; [|intros Q; injection Q as <- <-; split; [by apply stepped_refl|apply Z]].
    destruct (accessible_spec _ _ Sa Ac) as [K W].
    destruct (extend _ _ _ _) as [h s1] eqn:E. destruct (stepped_extend _ _ _ _ _ Sa K W E) as [S _].
    intros Q. eapply T; [exact S|]. eapply IH; [apply S|exact Q].
  - destruct (accessible st s && _) eqn:Ac; [|intros Q; injection Q as <- <-; split; [by apply stepped_refl|apply Z]].
    apply andb_true_iff in Ac as [Ac _]. destruct (accessible_spec _ _ Sa Ac) as [K W].
    pose proof (stepped_set st s i x Sa K) as S. intros Q. eapply T; [exact S|]. eapply IH; [apply S|exact Q].
  - intros Q. pose proof (stepped_make st xs _ _ Sa eq_refl) as S. eapply T; [exact S|]. eapply IH; [apply S|exact Q].
  - destruct (accessible st s); [|intros Q; injection Q as <- <-; split; [by apply stepped_refl|apply Z]].
    intros Q. eapply IH; done.
  - destruct (accessible st s); [|intros Q; injection Q as <- <-; split; [by apply stepped_refl|apply Z]].
    destruct (v_run grow k st) as [st1 evs1] eqn:E. intros Q. injection Q as <- <-.
    destruct (IH _ _ _ Sa E) as [S R]. split; [done|]. intros o Ho. apply R. set_solver.
  - destruct (accessible st s) eqn:Ac; [|intros Q; injection Q as <- <-; split; [by apply stepped_refl|apply Z]].
    destruct (accessible_spec _ _ Sa Ac) as [K W].
    destruct (advance grow f s st) as [[st1 s1] evs1] eqn:E. destruct (stepped_advance _ _ _ _ _ _ Sa K W E) as [S Nx].
    destruct (v_run grow k st1) as [st2 evs2] eqn:E2. intros Q. injection Q as <- <-.
    eapply T; [exact S|]. destruct (IH _ _ _ (proj1 S) E2) as [S2 R]. split; [done|]. intros o Ho. apply R.
    apply elem_of_app in Ho as [Ho|Ho]; [by apply Nx in Ho|done].
  - intros Q. eapply T; [by apply (stepped_clock st (f (t_clock st)))|]. eapply IH; [|exact Q]. done.
  - destruct (t_bound st) as [s|] eqn:B; [|intros Q; injection Q as <- <-; split; [by apply stepped_refl|set_solver]].
    destruct (v_run grow k st) as [st1 evs1] eqn:E. intros Q. injection Q as <- <-.
    destruct (IH _ _ _ Sa E) as [S R]. split; [done|]. intros o Ho. rewrite <- B in *.
    apply elem_of_cons in Ho as [Ho|Ho]; [|by apply R]. injection Ho as ->. exists s. done.
Qed.

(** ** The test *)
Definition inv (st : TMem) (base : list OOpt) : Prop :=
  sane st /\ wf (t_heap st) (t_opts st) /\ l_arr (t_opts st) ∉ t_known st /\
  elems (t_heap st) (t_opts st) = Some <$> base /\ t_bound st = None.

Lemma inv_stepped st st' base : inv st base -> stepped st st' -> inv st' base.
Proof.
  intros (_ & W & K & E & B) (S & N & A & O & B'). destruct (A _ (proj2 (proj2 W)) K) as [E' K'].
  split; [done|]. rewrite O. split; [by eapply wf_same|]. split; [done|]. split; [|congruence].
  by rewrite (elems_same _ _ _ E').
Qed.

Lemma inv_enable os : forall st base, inv st base -> inv (o_enable grow os st) (base ++ os).
Proof.
  induction os as [|o os IH]; intros st base H; simpl; [by rewrite app_nil_r|].
  destruct (extend _ _ _ _) as [h s] eqn:E. replace (base ++ o :: os) with ((base ++ [o]) ++ os) by (by rewrite <- app_assoc).
  apply IH. destruct H as (Sa & W & K & El & B). destruct (extend_spec _ _ _ _ _ W E) as (W' & E' & N & F & A & _).
  split; [eapply Forall_impl; [exact Sa|]; intros a Ha; simpl in *; lia|]. split; [done|]. split; [|split; [|done]].
  - simpl. destruct F as [->|F]; [done|]. intros Hin. unfold sane in Sa. rewrite Forall_forall in Sa. specialize (Sa _ Hin). simpl in Sa. lia.
  - simpl. rewrite E', El, fmap_app. done.
Qed.

Lemma inv_unsafe oss : forall st base, inv st base -> inv (o_unsafe grow oss st) (base ++ concat oss).
Proof.
  induction oss as [|os oss IH]; intros st base H; [simpl; by rewrite app_nil_r|].
  cbn [o_unsafe concat]. destruct (literal _ _) as [h u] eqn:L. destruct (extend _ _ _ _) as [h' s] eqn:E.
  rewrite app_assoc. apply IH.
  pose proof (stepped_make st os _ _ (proj1 H) L) as S. pose proof (inv_stepped _ _ _ H S) as (Sa & W & K & El & B).
  destruct (literal_spec _ _ _ _ L) as (_ & Eu & _).
  destruct (extend_spec _ _ _ _ _ W E) as (W' & E' & N & F & A & _).
  split; [eapply Forall_impl; [exact Sa|]; intros a Ha; simpl in *; lia|]. split; [done|]. split; [|split; [|done]].
  - simpl. simpl in F. destruct F as [->|F]; [exact K|]. intros Hin. unfold sane in Sa. rewrite Forall_forall in Sa. specialize (Sa _ Hin). simpl in Sa. lia.
  - cbn [t_heap t_opts with_opts]. rewrite E', fmap_app. f_equal; [exact El|exact Eu].
Qed.

Lemma inv_begin h clock unsafe : inv (o_begin grow h clock unsafe) (standard ++ concat unsafe).
Proof.
  unfold o_begin. destruct (literal _ _) as [h' s] eqn:L. apply inv_unsafe.
  destruct (literal_spec _ _ _ _ L) as (W & E & _). split; [constructor|]. split; [exact W|]. split; [|split; [exact E|done]].
  simpl. set_solver.
Qed.

(** The action. *)
Lemma action_spec a extra st base st' evs :
  inv st base -> o_action grow a extra st = (st', evs) ->
  inv st' base /\ exists own, evs = EGiven (t_clock st) (Some <$> OptNow (t_clock st) :: base ++ extra) :: own /\
    acts a (t_clock st) (Some <$> OptNow (t_clock st) :: base ++ extra) own.
Proof.
  intros H. unfold o_action. destruct (literal _ _) as [h0 s0] eqn:L0. destruct (extend grow h0 s0 _) as [h1 s1] eqn:E1.
  destruct (extend grow h1 s1 _) as [h2 s2] eqn:E2. destruct (o_do grow a s2 _) as [st2 own] eqn:D.
  intros Q. injection Q as <- <-. set (st1 := with_heap st h2) in *.
  destruct (literal_spec _ _ _ _ L0) as (W0 & El0 & A0 & N0 & K0).
  destruct (extend_spec _ _ _ _ _ W0 E1) as (W1 & El1 & N1 & F1 & K1 & _).
  destruct (extend_spec _ _ _ _ _ W1 E2) as (W2 & El2 & N2 & F2 & K2 & _).
  assert (Old : forall b, b < h_next (t_heap st) -> h_arr h2 !! b = h_arr (t_heap st) !! b).
  { intros b Hb. rewrite K2; [|lia|destruct F1; lia]. rewrite K1; [|lia|lia]. by apply K0. }
  assert (S1 : stepped st st1).
  { split; [eapply Forall_impl; [exact (proj1 H)|]; intros b Hb; simpl in *; lia|].
    split; [simpl; lia|]. split; [|done]. intros b Hb Nb. split; [by apply Old|done]. }
  pose proof (inv_stepped _ _ _ H S1) as H1.
  assert (Fresh : h_next (t_heap st) <= l_arr s2) by (destruct F2, F1; lia).
  assert (Nk : l_arr s2 ∉ t_known st).
  { intros Hin. pose proof (proj1 H) as Sa. unfold sane in Sa. rewrite Forall_forall in Sa. specialize (Sa _ Hin). simpl in Sa. lia. }
  assert (No : l_arr s2 <> l_arr (t_opts st)) by (destruct H as (_ & W & _); unfold wf in W; lia).
  assert (El : elems h2 s2 = Some <$> OptNow (t_clock st) :: base ++ extra).
  { rewrite El2, El1, El0. destruct H as (_ & W & _ & Eb & _).
    rewrite (elems_same (t_heap st) h0), Eb by (apply K0; apply W).
    rewrite <- app_assoc, <- fmap_app. done. }
  assert (G : inv st2 base /\ acts a (t_clock st) (elems h2 s2) own).
  { destruct a as [|f|p|p]; cbn [o_do] in D.
    - injection D as <- <-. split; [done|]. reflexivity.
    - destruct (advance grow f s2 st1) as [[st3 s3] evs3] eqn:Ad. injection D as <- <-. unfold advance in Ad.
      change (t_clock st1) with (t_clock st) in Ad. change (t_heap (with_clock st1 _)) with h2 in Ad.
      unfold acts. destruct (_ <? _)%Z.
      + injection Ad as <- _ <-. split; done.
      + destruct (extend grow h2 s2 _) as [h3 s4] eqn:E3. injection Ad as <- _ <-.
        destruct (extend_spec _ _ _ _ _ W2 E3) as (W3 & El3 & N3 & F3 & K3 & _). split; [|by rewrite El3].
        destruct H1 as (Sa & W & K & E & B). cbn in Sa, W, K, E, B.
        assert (Eo : h_arr h3 !! l_arr (t_opts st) = h_arr h2 !! l_arr (t_opts st)) by (apply K3; [apply W|done]).
        split; [eapply Forall_impl; [exact Sa|]; intros b Hb; cbn in *; lia|].
        cbn. split; [by apply (wf_same h2)|]. split; [done|]. split; [|done]. by rewrite (elems_same _ _ _ Eo).
    - destruct (v_run _ _ _) as [st3 evs3] eqn:V. injection D as <- <-.
      assert (Sb : sane (with_bound st1 (Some s2))) by apply H1.
      destruct (v_run_spec _ _ _ _ Sb V) as [S R]. split.
      + destruct H1 as (Sa & W & K & E & B). destruct S as (S & N & A & O & _). cbn in W, K, E, A, O, N.
        destruct (A _ (proj2 (proj2 W)) K) as [E' K'].
        split; [done|]. cbn. rewrite O. split; [by eapply wf_same|]. split; [done|]. split; [|done].
        by rewrite (elems_same _ _ _ E').
      + intros o Ho. destruct (R o Ho) as (s & Bs & Q). injection Bs as <-. apply Q; [apply W2|done].
    - set (st4 := shown st1 (t_heap st1) s2) in *.
      assert (H4 : inv st4 base).
      { destruct H1 as (Sa & W & K & E & B). split; [constructor; [apply W2|exact Sa]|]. split; [exact W|].
        split; [|split; [exact E|exact B]]. cbn. rewrite not_elem_of_cons. split; [|exact K]. cbn in No. congruence. }
      destruct (v_run_spec _ _ _ _ (proj1 H4) D) as [S R]. split; [by eapply inv_stepped|].
      intros o Ho. destruct (R o Ho) as (s & Bs & _). destruct H4 as (_ & _ & _ & _ & B). congruence. }
  destruct G as [G1 G2]. split; [done|]. exists own. rewrite El in *. done.
Qed.

Lemma calls_spec cs : forall st base st' evs,
  inv st base -> o_calls grow cs st = (st', evs) -> inv st' (base ++ added cs).
Proof.
  induction cs as [|c cs IH]; intros st base st' evs H; simpl.
  - intros Q. injection Q as <- _. by rewrite app_nil_r.
  - destruct (o_call grow c st) as [st1 evs1] eqn:E. destruct (o_calls grow cs st1) as [st2 evs2] eqn:E2.
    intros Q. injection Q as <- _. rewrite app_assoc. eapply IH; [|exact E2].
    destruct c as [os|a extra|p]; simpl in E.
    + injection E as <- _. by apply inv_enable.
    + rewrite app_nil_r. eapply action_spec; done.
    + rewrite app_nil_r. eapply inv_stepped; [done|]. by eapply v_run_spec; [apply H|].
Qed.

Lemma calls_app cs1 : forall cs2 st,
  o_calls grow (cs1 ++ cs2) st =
  let '(st, evs1) := o_calls grow cs1 st in let '(st, evs2) := o_calls grow cs2 st in (st, evs1 ++ evs2).
Proof.
  induction cs1 as [|c cs1 IH]; intros cs2 st; simpl; [by destruct (o_calls grow cs2 st)|].
  destruct (o_call grow c st) as [st1 evs1]. rewrite IH. destruct (o_calls grow cs1 st1) as [st2 evs2].
  destruct (o_calls grow cs2 st2) as [st3 evs3]. by rewrite app_assoc.
Qed.

Lemma given_lemma h clock unsafe pre a extra post :
  exists now own after,
    (o_test grow h clock unsafe (pre ++ OAction a extra :: post)).2 =
      (o_test grow h clock unsafe pre).2 ++ (EGiven now (proper now unsafe pre extra) :: own) ++ after /\
    now = t_clock (o_test grow h clock unsafe pre).1 /\
    acts a now (proper now unsafe pre extra) own.
Proof.
  unfold o_test. rewrite calls_app. destruct (o_calls grow pre _) as [st evs1] eqn:E1. cbn [o_calls o_call fst snd].
  pose proof (calls_spec _ _ _ _ _ (inv_begin h clock unsafe) E1) as H.
  destruct (o_action grow a extra st) as [st1 evs2] eqn:E2. destruct (o_calls grow post st1) as [st2 evs3].
  destruct (action_spec _ _ _ _ _ _ H E2) as [_ (own & -> & A)].
  exists (t_clock st), own, evs3. unfold proper. rewrite <- !app_assoc in *. split; [done|]. split; done.
Qed.

Lemma executed_lemma h clock unsafe pre p post :
  exists own after,
    (o_test grow h clock unsafe (pre ++ OOther p :: post)).2 = (o_test grow h clock unsafe pre).2 ++ own ++ after /\
    forall o, EExecuted o ∉ own.
Proof.
  unfold o_test. rewrite calls_app. destruct (o_calls grow pre _) as [st evs1] eqn:E1. cbn [o_calls o_call fst snd].
  pose proof (calls_spec _ _ _ _ _ (inv_begin h clock unsafe) E1) as H.
  destruct (v_run grow _ st) as [st1 evs2] eqn:E2. destruct (o_calls grow post st1) as [st2 evs3].
  destruct (v_run_spec _ _ _ _ (proj1 H) E2) as [_ R]. exists evs2, evs3. split; [done|].
  intros o Ho. destruct (R o Ho) as (s & B & _). destruct H as (_ & _ & _ & _ & B'). congruence.
Qed.

Lemma advance_keeps_lemma f s st st' s' evs :
  l_len s <= l_cap s -> l_off s + l_cap s <= length (default [] (h_arr (t_heap st) !! l_arr s)) ->
  l_arr s < h_next (t_heap st) ->
  advance grow f s st = (st', s', evs) -> elems (t_heap st') s = elems (t_heap st) s.
Proof.
  intros H1 H2 H3. unfold advance. destruct (_ <? _)%Z; [intros Q; by injection Q as <- _ _|].
  destruct (extend _ _ _ _) as [h x] eqn:E. intros Q. injection Q as <- _ _.
  assert (W : wf (t_heap (with_clock st (f (t_clock st)))) s) by (split; [done|]; split; done).
  destruct (extend_spec _ _ _ _ _ W E) as (_ & _ & _ & _ & _ & K). exact K.
Qed.
End OptProof.
