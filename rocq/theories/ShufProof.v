(** * Proofs: tests and the order of iteration over names *)
From Verif Require Import ShufSpec.

#[local] Arguments orderless : simpl never.
#[local] Arguments enabled : simpl never.
#[local] Arguments observed : simpl never.

Section Shuf.
Context {P : Params}.

(** ** Options *)
Inductive shuffled : list OOpt -> list OOpt -> Prop :=
| sh_refl l : shuffled l l
| sh_app l1 l1' l2 l2' : shuffled l1 l1' -> shuffled l2 l2' -> shuffled (l1 ++ l2) (l1' ++ l2')
| sh_names b l l' : l ≡ₚ l' -> shuffled (map (fun n => OptHandler n b) l) (map (fun n => OptHandler n b) l').

Lemma shuffled_perm l l' : shuffled l l' -> l ≡ₚ l'.
Proof. induction 1 as [| |b l l' H]; [done|by f_equiv|by apply Permutation_map]. Qed.

Lemma apply_opts_app c a b oo : apply_opts c oo (a ++ b) = match apply_opts c oo a with inl oo => apply_opts c oo b | inr v => inr v end.
Proof. revert oo. induction a as [|x a IH]; intros oo; [done|]. cbn. destruct (apply_opt c oo x); [apply IH|done]. Qed.
Lemma apply_names c b l l' : l ≡ₚ l' -> forall oo, apply_opts c oo (map (fun n => OptHandler n b) l) = apply_opts c oo (map (fun n => OptHandler n b) l').
Proof.
  induction 1 as [|n l l' _ IH|n m l|l1 l2 l3 _ IH1 _ IH2]; intros oo; [done| | |by rewrite IH1].
  - cbn. destruct (controllers c !! n); [apply IH|done].
  - cbn. destruct (controllers c !! n) as [h|] eqn:En, (controllers c !! m) as [h'|] eqn:Em; cbn; rewrite ?En, ?Em; cbn; try done.
    do 2 f_equal. destruct (decide (n = m)) as [->|Hn]; [done|]. by rewrite insert_commute.
Qed.
Lemma apply_shuffled c l l' : shuffled l l' -> forall oo, apply_opts c oo l = apply_opts c oo l'.
Proof.
  induction 1 as [|l1 l1' l2 l2' _ IH1 _ IH2|b l l' H]; intros oo; [done| |by apply apply_names].
  rewrite !apply_opts_app, IH1. destruct (apply_opts c oo l1'); [apply IH2|done].
Qed.
Definition op_with (mk : list OOpt -> Op) : Prop :=
  (exists o fuel m, mk = OpDispatch o fuel m) \/ (exists o fuel order, mk = OpTick o fuel order).
Lemma shuf_op c mk opts opts' st : op_with mk -> shuffled opts opts' -> run_op c (mk opts) st = run_op c (mk opts') st.
Proof.
  intros Hm Ho. assert (Hn : forall w, new_opts c w opts = new_opts c w opts') by (intros w; unfold new_opts; by apply apply_shuffled).
  destruct Hm as [(o & fuel & m & ->)|(o & fuel & order & ->)]; cbn [run_op].
  - unfold e_dispatch. by rewrite Hn.
  - unfold e_tick. by rewrite Hn.
Qed.

(** ** Events *)
Lemma orderless_app a b : orderless (a ++ b) = orderless a ++ orderless b.
Proof. apply omap_app. Qed.
Lemma enabled_app a b : enabled (a ++ b) = enabled a ++ enabled b.
Proof. apply omap_app. Qed.

(** ** Tests *)
Section Test.
Context (E : TEnv) (sh : list string -> list string) (c : Config).
Context (Hsh : forall l, te_shuffle E l ≡ₚ l) (Hsh' : forall l, sh l ≡ₚ l).
Notation E' := (with_shuffle sh E).

Definition osame (b b' : option (list OOpt)) : Prop :=
  match b, b' with None, None => True | Some o, Some o' => shuffled o o' | _, _ => False end.
Definition srel (st st' : TState) : Prop :=
  ts_clock st = ts_clock st' /\ ts_eng st = ts_eng st' /\ ts_icpt st = ts_icpt st' /\ shuffled (ts_opts st) (ts_opts st') /\
  ts_compare st = ts_compare st' /\ ts_failed st = ts_failed st' /\ ts_next st = ts_next st' /\
  ts_step st = ts_step st' /\ ts_notes st = ts_notes st' /\ osame (ts_bound st) (ts_bound st').
Definition ok {A} (x y : TState * list TEv * A) : Prop :=
  srel x.1.1 y.1.1 /\ x.2 = y.2 /\ orderless x.1.2 = orderless y.1.2 /\ enabled x.1.2 ≡ₚ enabled y.1.2 /\
  forall n, observed n x.1.2 = observed n y.1.2.

Ltac sr := unfold srel in *; cbn in *; intuition congruence.

Lemma observed_app n a b : observed n (a ++ b) = observed n a ++ observed n b.
Proof. unfold observed. by rewrite map_app, concat_app. Qed.
Lemma existsb_shuffled (f : OOpt -> bool) l l' : shuffled l l' -> existsb f l = existsb f l'.
Proof.
  intros H. apply shuffled_perm in H. induction H as [|x l l' _ IH|x y l|l1 l2 l3 _ IH1 _ IH2]; cbn; [done|by rewrite IH| |by rewrite IH1].
  by destruct (f x), (f y).
Qed.

Lemma shuf_engine_op mk opts opts' st st' : srel st st' -> shuffled opts opts' -> (forall o fuel order, op_with (mk o fuel order)) ->
  ok (engine_op E' c (fun o fuel order => mk o fuel order opts) st) (engine_op E c (fun o fuel order => mk o fuel order opts') st').
Proof.
  intros Hs Ho Hm. unfold engine_op. cbn [with_shuffle te_oracle te_fuel te_order].
  assert (Hn : ts_step st = ts_step st') by sr. assert (He : ts_eng st = ts_eng st') by sr. rewrite <- Hn, <- He.
  set (f := mk _ _ _). assert (Hf : op_with f) by apply Hm. rewrite (shuf_op c f opts opts' (ts_eng st) Hf Ho).
  destruct (run_op c (f opts') (ts_eng st)) as [[es evs] r]. split; [sr|]. split; [done|]. cbn [fst snd].
  split; [by destruct Hf as [(? & ? & ? & ->)|(? & ? & ? & ->)]|]. split; [done|]. intros n. unfold observed. cbn.
  assert (Hx : opts_of (f opts) = opts /\ opts_of (f opts') = opts') by by destruct Hf as [(? & ? & ? & ->)|(? & ? & ? & ->)].
  destruct Hx as [-> ->]. by rewrite (existsb_shuffled _ opts opts' Ho).
Qed.
Lemma op_dispatch m : forall (o : Oracle) (fuel : nat) (order : list Handler), op_with (OpDispatch o fuel m).
Proof. left. eauto. Qed.
Lemma op_tick : forall (o : Oracle) (fuel : nat) (order : list Handler), op_with (OpTick o fuel order).
Proof. right. eauto. Qed.
Lemma shuf_execute opts opts' b st st' : srel st st' -> shuffled opts opts' ->
  ok (engine_execute E' c opts b st) (engine_execute E c opts' b st').
Proof. intros Hs Ho. apply (shuf_engine_op (fun o fuel _ => OpDispatch o fuel (mkMsg KCommand b)) opts opts'); [done..|]. apply op_dispatch. Qed.

Lemma ok_prefix {A} (evs evs' : list TEv) (x y : TState * list TEv * A) :
  orderless evs = orderless evs' -> enabled evs ≡ₚ enabled evs' -> (forall n, observed n evs = observed n evs') -> ok x y ->
  ok (let '(st, evs0, r) := x in (st, evs ++ evs0, r)) (let '(st, evs0, r) := y in (st, evs' ++ evs0, r)).
Proof.
  destruct x as [[st1 evs1] r1], y as [[st2 evs2] r2]. intros He Hp Hn (H1 & H2 & H3 & H4 & H5). cbn in *.
  split; [done|]. split; [done|]. cbn. split; [by rewrite !orderless_app, He, H3|]. split; [by rewrite !enabled_app, Hp, H4|].
  intros n. by rewrite !observed_app, Hn, H5.
Qed.
Lemma ok_suffix {A B} (f : TState -> TState) (g : A -> B) (evs : A -> list TEv) (x y : TState * list TEv * A) :
  (forall st st', srel st st' -> srel (f st) (f st')) -> ok x y ->
  ok (let '(st, evs0, r) := x in (f st, evs0 ++ evs r, g r)) (let '(st, evs0, r) := y in (f st, evs0 ++ evs r, g r)).
Proof.
  destruct x as [[st1 evs1] r1], y as [[st2 evs2] r2]. intros Hf (H1 & H2 & H3 & H4 & H5). cbn in *. subst.
  split; [by apply Hf|]. split; [done|]. cbn. split; [by rewrite !orderless_app, H3|]. split; [by rewrite !enabled_app, H4|].
  intros n. by rewrite !observed_app, H5.
Qed.
Lemma ok_here {A} st st' (r : A) evs : srel st st' -> ok (st, evs, r) (st', evs, r).
Proof. intros H. split; [done|]. split; [done|]. split; [done|]. by split. Qed.

Lemma shuf_icpt opts opts' (Ho : shuffled opts opts') p : forall st st', srel st st' ->
  ok (run_icpt E' c opts p st) (run_icpt E c opts' p st').
Proof.
  induction p as [[e|]|v|f k IH|b k IH]; intros st st' Hs; cbn [run_icpt]; try by apply ok_here.
  - assert (He : ts_eng st = ts_eng st') by sr. rewrite <- He. apply (ok_prefix [_] [_]); [done..|]. apply IH. sr.
  - pose proof (shuf_execute opts opts' b st st' Hs Ho) as H.
    destruct (engine_execute E' c opts b st) as [[st1 evs1] r1], (engine_execute E c opts' b st') as [[st2 evs2] r2].
    assert (r1 = r2) as <- by apply H. destruct (x_res r1) as [x|]; [|done]. destruct H as (H1 & _ & H3 & H4 & H5).
    apply ok_prefix; [done..|]. by apply IH.
Qed.
Lemma shuf_execute_command b st st' : srel st st' -> ok (execute_command E' c b st) (execute_command E c b st').
Proof.
  intros Hs. unfold execute_command. assert (Hb : osame (ts_bound st) (ts_bound st')) by apply Hs.
  destruct (ts_bound st) as [opts|], (ts_bound st') as [opts'|]; [|done|done|by apply ok_here].
  assert (Hi : ts_icpt st = ts_icpt st') by sr. rewrite <- Hi.
  apply (ok_prefix [_] [_]); [done..|].
  destruct (ts_icpt st); [by apply shuf_icpt|by apply shuf_execute].
Qed.

Definition acts (act act' : list OOpt -> TState -> TState * list TEv * AOut) : Prop :=
  forall opts opts' st st', shuffled opts opts' -> srel st st' -> ok (act' opts st) (act opts' st').

Lemma options_shuffled extra st st' : srel st st' -> shuffled (action_options extra st) (action_options extra st').
Proof.
  intros (H1 & _ & _ & H2 & _). unfold action_options. rewrite H1. apply (sh_app [_] [_]); [constructor|]. apply sh_app; [done|constructor].
Qed.

(** The end of a method: what follows depends on the result only. *)
Lemma ok_tail {A B} (f : TState -> TState) (evs : list TEv) (r' : B) st1 evs1 st2 evs2 (r : A) :
  (forall st st', srel st st' -> srel (f st) (f st')) -> ok (st1, evs1, r) (st2, evs2, r) -> ok (f st1, evs1 ++ evs, r') (f st2, evs2 ++ evs, r').
Proof.
  intros Hf (H1 & _ & H3 & H4 & H5). cbn [fst snd] in *. split; [by apply Hf|]. split; [done|]. cbn [fst snd].
  split; [by rewrite !orderless_app, H3|]. split; [by rewrite !enabled_app, H4|]. intros n. by rewrite !observed_app, H5.
Qed.
Lemma ok_end {A B} (r' : B) st1 evs1 st2 evs2 (r : A) : ok (st1, evs1, r) (st2, evs2, r) -> ok (st1, evs1, r') (st2, evs2, r').
Proof. intros (H1 & _ & H3 & H4 & H5). split; [done|]. split; [done|]. split; [done|]. by split. Qed.

Lemma shuf_prepare act act' st st' : acts act act' -> srel st st' -> ok (prepare E' act' st) (prepare E act st').
Proof.
  intros Ha Hs. unfold prepare. specialize (Ha _ _ _ _ (options_shuffled [] st st' Hs) Hs).
  destruct (act' _ st) as [[st1 evs1] r1], (act _ st') as [[st2 evs2] r2].
  assert (r1 = r2) as <- by apply Ha. destruct r1; try exact (ok_end _ _ _ _ _ _ Ha).
  apply (ok_tail set_failed [_] _ _ _ _ _ (AErr e)); [|done]. intros s s' H. sr.
Qed.
Lemma shuf_expect k act act' e st st' : acts act act' -> srel st st' -> ok (expect E' c k act' e st) (expect E c k act e st').
Proof.
  intros Ha Hs. unfold expect. assert (Hk : test_scope E' c k st = test_scope E c k st').
  { unfold test_scope. assert (ts_compare st = ts_compare st') as -> by sr. done. }
  rewrite Hk. destruct (new_predicate (test_scope E c k st') e) as [p|er]; [|unfold fatal; apply ok_here; sr]. cbn zeta.
  assert (Hn : ts_next st = ts_next st') by sr. rewrite <- Hn. set (n := ts_next st).
  assert (Hs' : srel (set_next (S n) st) (set_next (S n) st')) by sr.
  specialize (Ha _ _ _ _ (options_shuffled [OptObserver n] st st' Hs) Hs').
  destruct (act' _ _) as [[st1 evs1] r1], (act _ _) as [[st2 evs2] r2].
  assert (Hp : forall l, TvPredicate :: evs1 ++ l = ([TvPredicate] ++ evs1) ++ l /\ TvPredicate :: evs2 ++ l = ([TvPredicate] ++ evs2) ++ l) by done.
  assert (r1 = r2) as <- by apply Ha. assert (Ho : observed n evs1 = observed n evs2) by apply Ha. rewrite Ho.
  assert (Hnotes : ts_notes st1 = ts_notes st2) by (destruct Ha as (H & _); sr). rewrite Hnotes. change (report_texts E') with (report_texts E).
  pose proof (ok_prefix [TvPredicate] [TvPredicate] (st1, evs1, r1) (st2, evs2, r1) eq_refl (Permutation_refl _) (fun _ => eq_refl) Ha) as Hb. cbn [app] in Hb.
  destruct (p_done _) as [p' dp].
  assert (Hc : forall f l (r : TOut), (forall st st', srel st st' -> srel (f st) (f st')) -> ok (f st1, TvPredicate :: evs1 ++ l, r) (f st2, TvPredicate :: evs2 ++ l, r)).
  { intros f l r Hf. apply (ok_tail f l r st1 (TvPredicate :: evs1) st2 (TvPredicate :: evs2) r1 Hf Hb). }
  assert (Hi : forall st st', srel st st' -> srel st st') by done.
  assert (Hf : forall st st', srel st st' -> srel (set_failed st) (set_failed st')) by (intros; sr).
  destruct r1 as [|er|v| |]; [| | | |exact (ok_end Halted _ _ _ _ _ Hb)]; (destruct dp as [v'|]; [exact (Hc (fun s => s) [TvFinal] _ Hi)|]).
  - destruct (p_ok p'); cbn [app].
    + rewrite <- !app_assoc. exact (Hc (fun s => s) _ Done Hi).
    + unfold fail_now. cbn [app]. rewrite <- !app_assoc. exact (Hc set_failed _ _ Hf).
  - unfold fatal. cbn [app]. rewrite <- !app_assoc. exact (Hc set_failed _ _ Hf).
  - exact (Hc (fun s => s) _ _ Hi).
  - exact (Hc (fun s => s) _ _ Hi).
Qed.
Lemma shuf_dispatch_action m : acts (do_dispatch E c m) (do_dispatch E' c m).
Proof.
  intros opts opts' st st' Ho Hs. unfold do_dispatch. destruct (app_types c (m_type m)); [|by apply ok_here].
  apply (shuf_engine_op (fun o fuel _ => OpDispatch o fuel m) opts opts'); [done..|]. apply op_dispatch.
Qed.
Lemma shuf_advance j : acts (do_advance E c j) (do_advance E' c j).
Proof.
  intros opts opts' st st' Ho Hs. unfold do_advance. assert (Hk : ts_clock st = ts_clock st') by sr. rewrite <- Hk.
  destruct (adj_step j (ts_clock st)) as [now|v]; [|by apply ok_here]. destruct (now <? ts_clock st)%Z; [by apply ok_here|].
  cbn zeta. apply (ok_prefix [_] [_]); [done..|].
  apply (shuf_engine_op (fun o fuel order => OpTick o fuel order) (opts ++ [OptNow now]) (opts' ++ [OptNow now])); [sr| |apply op_tick].
  apply sh_app; [done|constructor].
Qed.
Lemma shuf_call run run' i : (forall st st', srel st st' -> ok (run' st) (run st')) -> acts (do_call run i) (do_call run' i).
Proof.
  intros Hr opts opts' st st' Ho Hs. unfold do_call. cbn zeta.
  set (st1 := match i with Some _ => _ | None => _ end). set (st1' := match i with Some _ => set_icpt _ _ | None => set_bound (Some opts') st' end).
  assert (H0 : srel st1 st1').
  { subst st1 st1'. destruct i; unfold srel in *; cbn; intuition congruence. }
  assert (Hi : ts_icpt st = ts_icpt st') by sr. specialize (Hr st1 st1' H0).
  destruct (run' st1) as [[s1 evs1] r1], (run st1') as [[s2 evs2] r2]. destruct Hr as (H1 & H2 & H3). cbn [fst snd] in *. subst r2.
  destruct r1; (split; [|split; done]); cbn [fst snd]; destruct i; cbn; unfold srel in *; cbn; intuition congruence.
Qed.
Lemma shuf_bracket k x y : ok x y -> ok (bracket k x) (bracket k y).
Proof.
  intros H. assert (H' := ok_suffix (fun s => s) (fun r : AOut => r) (fun r => match r with AHalt => [] | _ => [TvDid k] end) x y ltac:(done) H).
  pose proof (ok_prefix [TvDo k] [TvDo k] _ _ eq_refl (Permutation_refl _) (fun _ => eq_refl) H') as H2.
  destruct x as [[st1 evs1] r1], y as [[st2 evs2] r2]. exact H2.
Qed.
Lemma shuf_and_then x y k k' : ok x y -> (forall v st st', srel st st' -> ok (k v st) (k' v st')) -> ok (and_then x k) (and_then y k').
Proof.
  destruct x as [[st1 evs1] r1], y as [[st2 evs2] r2]. intros Hx Hk. assert (r1 = r2) as <- by apply Hx. pose proof Hx as (H1 & _ & H3 & H4 & H5).
  cbn [fst snd] in *. destruct r1; try done; cbn [and_then]; apply ok_prefix; auto.
Qed.
Lemma shuf_enable names b : forall st st', srel st st' -> ok (enable_handlers c names b st) (enable_handlers c names b st').
Proof.
  induction names as [|n names IH]; intros st st' Hs; [by apply ok_here|]. cbn [enable_handlers]. destruct (controllers c !! n) as [h|]; [|by apply ok_here].
  destruct (b && h_disabled h); [by apply ok_here|]. apply (ok_prefix [_] [_]); [done..|].
  apply IH. assert (Ho : shuffled (ts_opts st ++ [OptHandler n b]) (ts_opts st' ++ [OptHandler n b])) by (apply sh_app; [apply Hs|constructor]). sr.
Qed.
Lemma enables_orderless l b : orderless (map (fun n => TvEnable n b) l) = [].
Proof. by induction l. Qed.
Lemma enables_enabled l b : enabled (map (fun n => TvEnable n b) l) = map (fun n => (n, b)) l.
Proof. induction l as [|n l IH]; [done|]. change (enabled (map (fun n => TvEnable n b) (n :: l))) with ((n, b) :: enabled (map (fun n => TvEnable n b) l)). by rewrite IH. Qed.
Lemma enables_observed l b n : observed n (map (fun n => TvEnable n b) l) = [].
Proof. by induction l. Qed.
Lemma shuf_enable_like pats b st st' : srel st st' -> ok (enable_handlers_like E' c pats b st) (enable_handlers_like E c pats b st').
Proof.
  intros Hs. unfold enable_handlers_like. destruct (match_handlers c pats []) as [l|v]; [|by apply ok_here]. cbn zeta. cbn [with_shuffle te_shuffle].
  assert (Hl : sh (remove_dups l) ≡ₚ te_shuffle E (remove_dups l)) by by rewrite Hsh, Hsh'.
  assert (Ho : shuffled (ts_opts st ++ map (fun n => OptHandler n b) (sh (remove_dups l))) (ts_opts st' ++ map (fun n => OptHandler n b) (te_shuffle E (remove_dups l)))).
  { apply sh_app; [apply Hs|by constructor]. }
  split; [sr|]. split; [done|]. cbn [fst snd]. rewrite !enables_orderless, !enables_enabled. split; [done|]. split; [by apply Permutation_map|].
  intros n. by rewrite !enables_observed.
Qed.

Fixpoint shuf_test (p : TProg) : forall st st', srel st st' -> ok (run_test E' c p st) (run_test E c p st')
with shuf_action (a : Action) : acts (do_action E c a) (do_action E' c a).
Proof.
  - destruct p as [|v| |f k|b k|a k|a e k|names b k|pats b k|an k]; intros st st' Hs; cbn [run_test] in *; try by apply ok_here.
    + assert (He : ts_eng st = ts_eng st') by sr. rewrite <- He. apply (ok_prefix [_] [_]); [done..|]. apply shuf_test. sr.
    + pose proof (shuf_execute_command b st st' Hs) as H.
      destruct (execute_command E' c b st) as [[st1 evs1] r1], (execute_command E c b st') as [[st2 evs2] r2].
      assert (r1 = r2) as <- by apply H. destruct (x_res r1) as [x|]; [|exact (ok_end _ _ _ _ _ _ H)]. destruct H as (H1 & _ & H3 & H4 & H5).
      apply ok_prefix; [done..|]. by apply shuf_test.
    + apply shuf_and_then; [|intros v s s'; by apply shuf_test]. apply shuf_prepare; [apply shuf_action|done].
    + apply shuf_and_then; [|intros v s s'; by apply shuf_test]. apply shuf_expect; [apply shuf_action|done].
    + pose proof (shuf_enable names b st st' Hs) as H.
      destruct (enable_handlers c names b st) as [[st1 evs1] v1], (enable_handlers c names b st') as [[st2 evs2] v2].
      assert (v1 = v2) as <- by apply H. destruct H as (H1 & _ & H3 & H4 & H5). apply ok_prefix; [done..|]. by apply shuf_test.
    + pose proof (shuf_enable_like pats b st st' Hs) as H.
      destruct (enable_handlers_like E' c pats b st) as [[st1 evs1] v1], (enable_handlers_like E c pats b st') as [[st2 evs2] v2].
      assert (v1 = v2) as <- by apply H. destruct H as (H1 & _ & H3 & H4 & H5). apply ok_prefix; [done..|]. by apply shuf_test.
    + apply (ok_prefix [_] [_]); [done..|]. apply shuf_test. unfold srel in *; cbn; intuition congruence.
  - destruct a as [m|j|fn i]; intros opts opts' st st' Ho Hs; cbn [do_action]; apply shuf_bracket.
    + by apply shuf_dispatch_action.
    + by apply shuf_advance.
    + apply shuf_call; [|done|done]. apply shuf_test.
Qed.
End Test.

Lemma shuf_lemma E sh c p st0 st evs r st' evs' r' :
  (forall l, te_shuffle E l ≡ₚ l) -> (forall l, sh l ≡ₚ l) ->
  run_test E c p st0 = (st, evs, r) -> run_test (with_shuffle sh E) c p st0 = (st', evs', r') ->
  same_but_order st st' /\ r = r' /\ orderless evs = orderless evs' /\ enabled evs ≡ₚ enabled evs'.
Proof.
  intros Hs Hs' H H'. assert (H0 : srel st0 st0).
  { repeat split; try constructor. unfold osame. destruct (ts_bound st0); [constructor|done]. }
  destruct (shuf_test E sh c Hs Hs' p st0 st0 H0) as (H1 & H2 & H3 & H4 & _). rewrite H, H' in *. cbn [fst snd] in *.
  split; [|by split]. unfold srel, same_but_order in *. destruct H1 as (? & ? & ? & Ho & ? & ? & ? & ? & ? & _).
  apply shuffled_perm in Ho. split_and!; congruence || by symmetry.
Qed.
End Shuf.
