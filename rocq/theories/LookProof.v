(** * Proofs: what expectations change *)
From Verif Require Import LookSpec ExpectLemmas ExpectProof.

#[local] Arguments unobserved_evs : simpl never.
#[local] Arguments engine_facts : simpl never.

Section Look.
Context {P : Params}.

(** ** The engine *)
Definition with_obs (l : list nat) (oo : OOs) : OOs := mkOOs (oo_now oo) l (oo_types oo) (oo_handlers oo).

Lemma look_handle l c o oo env h st : e_handle c o (with_obs l oo) env h st = e_handle c o oo env h st.
Proof. reflexivity. Qed.
Lemma look_handlers l c o oo env hs : forall st, e_handlers c o (with_obs l oo) env hs st = e_handlers c o oo env hs st.
Proof.
  induction hs as [|h hs IH]; intros st; [done|]. cbn [e_handlers]. rewrite look_handle.
  destruct (e_handle c o oo env h st) as [[st1 fs] [envs e|v]]; [|done]. by rewrite IH.
Qed.
Lemma look_message l c o oo env st : e_message c o (with_obs l oo) env st = e_message c o oo env st.
Proof. unfold e_message. destruct (targets c env); [|done]. by rewrite look_handlers. Qed.
Lemma look_loop l c o oo fuel : forall q err st, e_loop c o (with_obs l oo) fuel q err st = e_loop c o oo fuel q err st.
Proof.
  induction fuel as [|fuel IH]; intros [|env q] err st; try done. cbn [e_loop]. rewrite look_message.
  destruct (e_message c o oo env st) as [[st1 fs] [[envs derr]|v]]; [|done].
  destruct (poll_ctx o (es_g st1)) as [g [e|]]; [done|]. by rewrite IH.
Qed.
Lemma look_tick_handlers l c o oo hs : forall st, e_tick_handlers c o (with_obs l oo) hs st = e_tick_handlers c o oo hs st.
Proof.
  induction hs as [|h hs IH]; intros st; [done|]. cbn [e_tick_handlers].
  change (e_tick_one c o (with_obs l oo) h st) with (e_tick_one c o oo h st).
  destruct (e_tick_one c o oo h st) as [[st1 fs] [envs e|v]]; [|done].
  change (poll_unless_skipped o (with_obs l oo)) with (poll_unless_skipped o oo).
  destruct (poll_unless_skipped o oo h st1) as [st2 [ce|]]; [done|]. by rewrite IH.
Qed.

Lemma look_apply c opts : forall oo l, exists l',
  apply_opts c (with_obs l oo) (unobserved opts) = match apply_opts c oo opts with inl oo => inl (with_obs l' oo) | inr v => inr v end.
Proof.
  induction opts as [|x opts IH]; intros oo l; [by exists l|].
  destruct x; cbn.
  all: try (destruct (controllers c !! _) as [h|]; [|by exists []]).
  all: match goal with |- exists l', _ = match apply_opts _ ?oo _ with _ => _ end => destruct (IH oo l) as [l' H]; exists l'; exact H end.
Qed.
Lemma look_opts c w opts : exists l',
  new_opts c w (unobserved opts) = match new_opts c w opts with inl oo => inl (with_obs l' oo) | inr v => inr v end.
Proof. apply (look_apply c opts (mkOOs w [] (mkETypes true true true true) ∅) []). Qed.

Lemma look_dispatch c o fuel m opts st : e_dispatch c o fuel m (unobserved opts) st = e_dispatch c o fuel m opts st.
Proof.
  unfold e_dispatch. destruct (next_id o (es_g st)) as [g id]. destruct (look_opts c (o_wall o) opts) as [l ->].
  destruct (new_opts c (o_wall o) opts) as [oo|v]; [|done]. cbn zeta. change (oo_now (with_obs l oo)) with (oo_now oo).
  destruct (m_kind m); try reflexivity.
  all: destruct (m_invalid m); [reflexivity|]; destruct (routes c !! m_type m); [|reflexivity];
    destruct (lock o _) as [g2 [e|]]; [reflexivity|]; by rewrite look_loop.
Qed.
Lemma look_tick c o fuel order opts st : e_tick c o fuel order (unobserved opts) st = e_tick c o fuel order opts st.
Proof.
  unfold e_tick. destruct (look_opts c (o_wall o) opts) as [l ->].
  destruct (new_opts c (o_wall o) opts) as [oo|v]; [|done].
  destruct (lock o _) as [g2 [e|]]; [done|]. unfold e_tick_body. rewrite look_tick_handlers.
  destruct (e_tick_handlers c o oo order (es_set_g st g2)) as [[st1 fs] [q err|e|v]]; [|done|done]. by rewrite look_loop.
Qed.
Lemma look_op c op st : run_op c (unobserved_op op) st = run_op c op st.
Proof. destruct op; cbn [run_op unobserved_op]; [by rewrite look_dispatch|by rewrite look_tick|done..]. Qed.

(** ** Events *)
Lemma unobserved_app a b : unobserved_evs (a ++ b) = unobserved_evs a ++ unobserved_evs b.
Proof. apply omap_app. Qed.
Lemma facts_app a b : engine_facts (a ++ b) = engine_facts a ++ engine_facts b.
Proof. unfold engine_facts. by rewrite map_app, concat_app. Qed.
Lemma facts_unobserved evs : engine_facts (unobserved_evs evs) = engine_facts evs.
Proof.
  induction evs as [|ev evs IH]; [done|]. change (ev :: evs) with ([ev] ++ evs). rewrite unobserved_app, !facts_app, IH. by destruct ev.
Qed.
Lemma facts_same evs evs' : unobserved_evs evs = unobserved_evs evs' -> engine_facts evs = engine_facts evs'.
Proof. intros H. by rewrite <- (facts_unobserved evs), H, facts_unobserved. Qed.
Lemma failed_app a b : expect_failed (a ++ b) <-> expect_failed a \/ expect_failed b.
Proof.
  unfold expect_failed. rewrite elem_of_app. setoid_rewrite elem_of_app. naive_solver.
Qed.
Lemma unobserved_options_app a b : unobserved (a ++ b) = unobserved a ++ unobserved b.
Proof. unfold unobserved. apply List.filter_app. Qed.

(** ** Expectations *)
Lemma calm_go ps : Forall (fun p => (p_done p).2 = None) ps -> (go_done ps).2 = None.
Proof.
  induction 1 as [|p ps Hp _ IH]; [done|]. cbn. destruct (p_done p) as [p' r]. cbn in Hp. subst r. by destruct (go_done ps).
Qed.
Lemma calm_done e : calm e -> forall s p fs, new_predicate s e = inl p -> (p_done (foldl (fun p f => notify f p) p fs)).2 = None.
Proof.
  induction e as [m|ty|tp pred near ex|c l IH|e IH|desc n f IH|desc fn|u] using Exp_ind'; intros Hc s p fs H0; inversion Hc; subst;
    change (foldl (fun p f => notify f p) p fs) with (feed fs p).
  - cbn in H0. destruct (guard_type s (m_type m)); [done|]. inversion H0; subst. by destruct (feed_message s m fs) as (ok & best & t & -> & _).
  - cbn in H0. destruct (guard_type s ty); [done|]. inversion H0; subst. by destruct (feed_type s ty fs) as (ok & t & -> & _).
  - cbn in H0. destruct (match tp with TConcrete t => _ | TInterface _ _ _ => _ end); [done|]. inversion H0; subst.
    by destruct (feed_match s tp pred near ex fs) as (calls & fl & ma & ig & ok & t & -> & _).
  - rewrite new_predicate_comp in H0. destruct (go_comp s l) as [ps|] eqn:Eg; [|done]. inversion H0; subst. rewrite feed_comp, p_done_comp.
    enough (H : (go_done (map (feed fs) ps)).2 = None) by by destruct (go_done (map (feed fs) ps)).
    apply calm_go. apply go_comp_inl in Eg. match goal with H : Forall calm l |- _ => rename H into Hl end. clear - Eg IH Hl.
    induction Eg as [|e p es ps He Eg IHg]; [constructor|]. inversion IH; subst. inversion Hl; subst. cbn. constructor; [|by apply IHg].
    by eapply H1.
  - cbn in H0. destruct (new_predicate s e) as [q|] eqn:Eq; [|done]. inversion H0; subst. rewrite feed_not. cbn.
    pose proof (IH ltac:(done) s q fs Eq) as H. change (foldl (fun p f => notify f p) q fs) with (feed fs q) in H. by destruct (p_done (feed fs q)).
  - rewrite new_predicate_repeat in H0. destruct (go_repeat s f 0 n) as [ps|] eqn:Eg; [|done]. inversion H0; subst. rewrite feed_repeat, p_done_repeat.
    enough (H : (go_done (map (feed fs) ps)).2 = None) by by destruct (go_done (map (feed fs) ps)).
    apply calm_go. destruct (go_repeat_inl _ _ _ _ _ Eg) as (es & F1 & F2). match goal with H : forall i e, _ -> calm e |- _ => rename H into Hl end.
    clear - IH Hl F1 F2. revert ps F2. induction F1 as [|j e js es Hj F IHF]; intros ps F2; inversion F2; subst; cbn; constructor; [|by apply IHF].
    by eapply (IH j e Hj (Hl j e Hj)).
  - cbn in H0. inversion H0; subst. rewrite feed_satisfy. cbn. match goal with H : forall fs, _ = None |- _ => specialize (H fs) end.
    by destruct (s_done _ _ _) as [[? ?] ?].
  - cbn in H0. destruct (ux_reject u s); [done|]. inversion H0; subst. by rewrite feed_user.
Qed.

(** ** Tests *)
Section Test.
Context (E : TEnv) (c : Config) (Hstops : te_stops E = true).

Definition ok {A} (x y : TState * list TEv * A) : Prop :=
  same_but_predicates x.1.1 y.1.1 /\ x.2 = y.2 /\ unobserved_evs x.1.2 = unobserved_evs y.1.2.
Definition cut {A} (gone : A) (x y : TState * list TEv * A) : Prop :=
  x.2 = gone /\ expect_failed x.1.2 /\ engine_facts x.1.2 `prefix_of` engine_facts y.1.2.
Definition related {A} (gone : A) (x y : TState * list TEv * A) : Prop := ok x y \/ cut gone x y.

Ltac sbp := unfold same_but_predicates in *; cbn in *; intuition congruence.

Lemma look_engine_op mk mk' st st' : same_but_predicates st st' ->
  (forall o fuel order, unobserved_op (mk o fuel order) = unobserved_op (mk' o fuel order)) ->
  ok (engine_op E c mk st) (engine_op E c mk' st').
Proof.
  intros Hs Hm. unfold engine_op. assert (Hn : ts_step st = ts_step st') by sbp. assert (He : ts_eng st = ts_eng st') by sbp. rewrite <- Hn, <- He.
  set (op := mk _ _ _). set (op' := mk' _ _ _). assert (Ho : unobserved_op op = unobserved_op op') by apply Hm.
  rewrite <- (look_op c op), <- (look_op c op'), Ho.
  destruct (run_op c (unobserved_op op') (ts_eng st)) as [[es evs] r]. split; [sbp|]. split; [done|].
  cbn [fst snd]. unfold unobserved_evs. cbn. by rewrite Ho.
Qed.
Lemma look_execute opts opts' b st st' : same_but_predicates st st' -> unobserved opts = unobserved opts' ->
  ok (engine_execute E c opts b st) (engine_execute E c opts' b st').
Proof. intros Hs Ho. apply look_engine_op; [done|]. intros. cbn. by rewrite Ho. Qed.

Lemma ok_prefix {A} (evs evs' : list TEv) (x y : TState * list TEv * A) :
  unobserved_evs evs = unobserved_evs evs' -> ok x y ->
  ok (let '(st, evs0, r) := x in (st, evs ++ evs0, r)) (let '(st, evs0, r) := y in (st, evs' ++ evs0, r)).
Proof.
  destruct x as [[st1 evs1] r1], y as [[st2 evs2] r2]. intros He (H1 & H2 & H3). cbn in *.
  split; [done|]. split; [done|]. cbn. by rewrite !unobserved_app, He, H3.
Qed.
Lemma related_prefix {A} (gone : A) (evs evs' : list TEv) (x y : TState * list TEv * A) :
  unobserved_evs evs = unobserved_evs evs' -> related gone x y ->
  related gone (let '(st, evs0, r) := x in (st, evs ++ evs0, r)) (let '(st, evs0, r) := y in (st, evs' ++ evs0, r)).
Proof.
  intros He [H|H]; [left; by apply ok_prefix|]. right. destruct x as [[st1 evs1] r1], y as [[st2 evs2] r2]. destruct H as (H1 & H2 & H3). cbn in *.
  split; [done|]. split; cbn; [rewrite failed_app; by right|]. rewrite !facts_app, (facts_same _ _ He). by apply prefix_app.
Qed.
Lemma ok_here {A} st st' (r : A) : same_but_predicates st st' -> ok (st, [], r) (st', [], r).
Proof. intros H. split; [done|]. by split. Qed.

Lemma look_icpt opts opts' (Ho : unobserved opts = unobserved opts') p : forall st st', same_but_predicates st st' ->
  ok (run_icpt E c opts p st) (run_icpt E c opts' p st').
Proof.
  induction p as [[e|]|v|f k IH|b k IH]; intros st st' Hs; cbn [run_icpt]; try by apply ok_here.
  - assert (He : ts_eng st = ts_eng st') by sbp. rewrite <- He. apply (ok_prefix [_] [_]); [done|]. apply IH. sbp.
  - pose proof (look_execute opts opts' b st st' Hs Ho) as H.
    destruct (engine_execute E c opts b st) as [[st1 evs1] r1], (engine_execute E c opts' b st') as [[st2 evs2] r2].
    assert (r1 = r2) as <- by apply H. destruct (x_res r1) as [x|]; [|done]. destruct H as (H1 & _ & H3).
    apply ok_prefix; [done..|]. by apply IH.
Qed.
Lemma look_execute_command b st st' : same_but_predicates st st' -> ok (execute_command E c b st) (execute_command E c b st').
Proof.
  intros Hs. unfold execute_command.
  destruct (ts_bound st) as [opts|] eqn:Eb, (ts_bound st') as [opts'|] eqn:Eb'; try by (exfalso; unfold same_but_predicates in Hs; rewrite Eb, Eb' in Hs; cbn in Hs; intuition discriminate).
  - assert (Ho : unobserved opts = unobserved opts').
    { unfold same_but_predicates in Hs. rewrite Eb, Eb' in Hs. cbn in Hs. intuition congruence. }
    assert (Hi : ts_icpt st = ts_icpt st') by sbp. rewrite <- Hi.
    apply (ok_prefix [_] [_]); [done|].
    destruct (ts_icpt st); [by apply look_icpt|by apply look_execute].
  - split; [done|]. by split.
Qed.

Definition acts (act act' : list OOpt -> TState -> TState * list TEv * AOut) : Prop :=
  forall opts opts' st st', unobserved opts = unobserved opts' -> same_but_predicates st st' -> related AGoexit (act opts st) (act' opts' st').

Lemma facts_more evs l : (forall op fs, TvOp op fs ∉ l) -> engine_facts (evs ++ l) = engine_facts evs.
Proof.
  intros H. rewrite facts_app. assert (Hl : engine_facts l = []); [|by rewrite Hl, app_nil_r].
  induction l as [|ev l IH]; [done|]. change (ev :: l) with ([ev] ++ l). rewrite facts_app, IH; [|intros op fs Hin; by apply (H op fs); right].
  destruct ev; try done. exfalso. eapply H. by left.
Qed.
Lemma prepare_facts act st : engine_facts (prepare E act st).1.2 = engine_facts (act (action_options [] st) st).1.2.
Proof.
  unfold prepare. destruct (act _ st) as [[st1 evs] []]; try done. cbn. apply facts_more. intros op fs H. by apply elem_of_list_singleton in H.
Qed.
Lemma options_same st st' : same_but_predicates st st' -> action_options [] st = action_options [] st'.
Proof. intros (H1 & _ & _ & H2 & _). unfold action_options. by rewrite H1, H2. Qed.

Lemma look_prepare act act' st st' : acts act act' -> same_but_predicates st st' -> related Goexited (prepare E act st) (prepare E act' st').
Proof.
  intros Ha Hs. pose proof (prepare_facts act' st') as Hf. unfold prepare in *. rewrite <- (options_same st st' Hs) in Hf.
  rewrite <- (options_same st st' Hs).
  destruct (Ha (action_options [] st) (action_options [] st) st st' eq_refl Hs) as [H|H];
    destruct (act _ st) as [[st1 evs1] r1], (act' _ st') as [[st2 evs2] r2].
  - left. destruct H as (H1 & H2 & H3). cbn in *. subst r2. destruct r1; try done. cbn.
    split; [sbp|]. split; [done|]. cbn. by rewrite !unobserved_app, H3.
  - right. destruct H as (H1 & H2 & H3). cbn in H1, H2, H3. subst r1. split; [done|]. split; [done|]. rewrite Hf. exact H3.
Qed.
Lemma look_expect k act act' e st st' : acts act act' -> calm e -> same_but_predicates st st' ->
  related Goexited (expect E c k act e st) (prepare E act' st').
Proof.
  intros Ha Hc Hs. pose proof (prepare_facts act' st') as Hf. unfold expect.
  destruct (new_predicate (test_scope E c k st) e) as [p|er] eqn:Ep; cycle 1.
  { right. split; [cbn; unfold stop; by rewrite Hstops|]. split; [right; exists er; by left|]. apply prefix_nil. }
  cbn zeta. set (n := ts_next st).
  assert (Hu : unobserved (action_options [OptObserver n] st) = unobserved (action_options [] st)).
  { unfold action_options. cbn. by rewrite !unobserved_options_app. }
  assert (Hs' : same_but_predicates (set_next (S n) st) st') by sbp.
  specialize (Ha _ _ _ _ Hu Hs'). unfold prepare in *. rewrite <- (options_same st st' Hs) in *.
  destruct (act _ (set_next (S n) st)) as [[st1 evs1] r1], (act' _ st') as [[st2 evs2] r2].
  assert (Hc' := calm_done e Hc _ p (observed n evs1) Ep). clear Hc. rename Hc' into Hc. destruct (p_done _) as [p' dp]. cbn [snd] in Hc. subst dp.
  assert (Hev : forall l, (forall op fs, TvOp op fs ∉ l) -> engine_facts (TvPredicate :: evs1 ++ l) = engine_facts evs1).
  { intros l Hl. change (TvPredicate :: evs1 ++ l) with ([TvPredicate] ++ (evs1 ++ l)). rewrite facts_app. by apply facts_more. }
  assert (Hun : forall l, unobserved_evs (TvPredicate :: evs1 ++ l) = unobserved_evs evs1 ++ unobserved_evs l).
  { intros l. change (TvPredicate :: evs1 ++ l) with ([TvPredicate] ++ (evs1 ++ l)). by rewrite !unobserved_app. }
  destruct Ha as [(H1 & H2 & H3)|(H1 & H2 & H3)]; cbn [fst snd] in *.
  - subst r2. destruct r1 as [|er|v| |].
    + destruct (p_ok p').
      * left. split; [done|]. split; [done|]. cbn [fst snd]. cbn [app]. rewrite <- app_assoc, Hun. cbn [app]. etrans; [apply (app_nil_r (unobserved_evs evs1))|done].
      * right. split; [cbn; unfold stop; by rewrite Hstops|]. split; cbn [fst snd fail_now].
        { rewrite failed_app. right. left. by left. }
        cbn [app]. rewrite <- !app_assoc. rewrite Hev; [by rewrite (facts_same _ _ H3)|]. intros op fs H. cbn in H.
        by repeat (apply elem_of_cons in H as [H|H]; [done|]); apply elem_of_nil in H.
    + left. split; [cbn; sbp|]. split; [done|]. cbn [fst snd fatal]. cbn [app]. rewrite <- app_assoc, Hun. cbn. by rewrite unobserved_app, H3.
    + left. split; [done|]. split; [done|]. cbn [fst snd]. rewrite Hun. etrans; [apply (app_nil_r (unobserved_evs evs1))|done].
    + left. split; [done|]. split; [done|]. cbn [fst snd]. rewrite Hun. etrans; [apply (app_nil_r (unobserved_evs evs1))|done].
    + left. split; [done|]. by split.
  - subst r1. right. split; [done|]. split; cbn [fst snd].
    + change (TvPredicate :: evs1 ++ [TvFinal]) with ([TvPredicate] ++ (evs1 ++ [TvFinal])). rewrite !failed_app. tauto.
    + rewrite Hf, Hev; [done|]. intros op fs H. by apply elem_of_list_singleton in H.
Qed.
Lemma look_dispatch_action m : acts (do_dispatch E c m) (do_dispatch E c m).
Proof.
  intros opts opts' st st' Ho Hs. left. unfold do_dispatch. destruct (app_types c (m_type m)); [|by apply ok_here].
  apply look_engine_op; [done|]. intros. cbn. by rewrite Ho.
Qed.
Lemma look_advance j : acts (do_advance E c j) (do_advance E c j).
Proof.
  intros opts opts' st st' Ho Hs. left. unfold do_advance. assert (Hk : ts_clock st = ts_clock st') by sbp. rewrite <- Hk.
  destruct (adj_step j (ts_clock st)) as [now|v]; [|by apply ok_here]. destruct (now <? ts_clock st)%Z; [by apply ok_here|].
  cbn zeta. apply (ok_prefix [_] [_]); [done|]. apply look_engine_op; [sbp|]. intros. cbn. by rewrite !unobserved_options_app, Ho.
Qed.
Lemma look_call run run' i : (forall st st', same_but_predicates st st' -> related Goexited (run st) (run' st')) -> acts (do_call run i) (do_call run' i).
Proof.
  intros Hr opts opts' st st' Ho Hs. unfold do_call. cbn zeta.
  set (st1 := match i with Some _ => _ | None => _ end). set (st1' := match i with Some _ => set_icpt _ _ | None => set_bound (Some opts') st' end).
  assert (H0 : same_but_predicates st1 st1').
  { subst st1 st1'. destruct i; unfold same_but_predicates in *; cbn; rewrite Ho; intuition congruence. }
  assert (Hi : ts_icpt st = ts_icpt st') by sbp.
  destruct (Hr st1 st1' H0) as [H|H]; destruct (run st1) as [[s1 evs1] r1], (run' st1') as [[s2 evs2] r2].
  - left. destruct H as (H1 & H2 & H3). cbn in *. subst r2.
    destruct r1; (split; [|split; done]); destruct i; sbp.
  - right. destruct H as (H1 & H2 & H3). cbn in *. subst r1. split; [done|]. split; [done|]. by destruct r2.
Qed.
Lemma look_bracket k x y : related AGoexit x y -> related AGoexit (bracket k x) (bracket k y).
Proof.
  destruct x as [[st1 evs1] r1], y as [[st2 evs2] r2]. intros [(H1 & H2 & H3)|(H1 & H2 & H3)]; cbn in *; subst.
  - left. split; [done|]. split; [done|]. cbn [fst snd bracket].
    change (TvDo k :: evs1 ++ ?l) with ([TvDo k] ++ (evs1 ++ l)). change (TvDo k :: evs2 ++ ?l) with ([TvDo k] ++ (evs2 ++ l)).
    by rewrite !unobserved_app, H3.
  - right. split; [done|]. split; cbn [fst snd bracket].
    + change (TvDo k :: evs1 ++ [TvDid k]) with ([TvDo k] ++ (evs1 ++ [TvDid k])). rewrite !failed_app. tauto.
    + change (TvDo k :: evs1 ++ [TvDid k]) with ([TvDo k] ++ (evs1 ++ [TvDid k])).
      change (TvDo k :: evs2 ++ ?l) with ([TvDo k] ++ (evs2 ++ l)). rewrite !facts_app. change (engine_facts [TvDo k]) with (@nil Fact).
      change (engine_facts [TvDid k]) with (@nil Fact). rewrite app_nil_r. cbn [app]. by apply prefix_app_r.
Qed.
Lemma look_and_then x y k k' : related Goexited x y -> (forall v st st', same_but_predicates st st' -> related Goexited (k v st) (k' v st')) ->
  related Goexited (and_then x k) (and_then y k').
Proof.
  destruct x as [[st1 evs1] r1], y as [[st2 evs2] r2]. intros [(H1 & H2 & H3)|(H1 & H2 & H3)] Hk; cbn in *; subst.
  - destruct r2; try (by left; split; [|split]); apply related_prefix; auto.
  - right. split; [done|]. split; [done|]. destruct r2 as [|v| |]; cbn; try done.
    + destruct (k' None st2) as [[st3 evs3] r3]. cbn. rewrite facts_app. by apply prefix_app_r.
    + destruct (k' (Some v) st2) as [[st3 evs3] r3]. cbn. rewrite facts_app. by apply prefix_app_r.
Qed.
Lemma look_enable names b : forall st st', same_but_predicates st st' -> ok (enable_handlers c names b st) (enable_handlers c names b st').
Proof.
  induction names as [|n names IH]; intros st st' Hs; [by apply ok_here|]. cbn. destruct (controllers c !! n) as [h|]; [|by apply ok_here].
  destruct (b && h_disabled h); [by apply ok_here|]. apply (ok_prefix [_] [_]); [done|]. assert (Ho : ts_opts st = ts_opts st') by sbp. apply IH. sbp.
Qed.
Lemma look_enable_like pats b st st' : same_but_predicates st st' -> ok (enable_handlers_like E c pats b st) (enable_handlers_like E c pats b st').
Proof.
  intros Hs. unfold enable_handlers_like. destruct (match_handlers c pats []) as [l|v]; [|by apply ok_here].
  split; [sbp|]. by split.
Qed.

Fixpoint look_test (p : TProg) : calm_test p -> forall st st', same_but_predicates st st' ->
  related Goexited (run_test E c p st) (run_test E c (unexpecting p) st')
with look_action (a : Action) : calm_action a -> acts (do_action E c a) (do_action E c (unexpecting_action a)).
Proof.
  - destruct p as [|v| |f k|b k|a k|a e k|names b k|pats b k|an k]; intros Hp st st' Hs; cbn [run_test unexpecting calm_test] in *; try by (left; apply ok_here).
    + assert (He : ts_eng st = ts_eng st') by sbp. rewrite <- He. apply (related_prefix Goexited [_] [_]); [done|]. apply look_test; [done|]. sbp.
    + pose proof (look_execute_command b st st' Hs) as H.
      destruct (execute_command E c b st) as [[st1 evs1] r1], (execute_command E c b st') as [[st2 evs2] r2].
      destruct H as (H1 & H2 & H3). cbn in H1, H2, H3. subst r2.
      destruct (x_res r1) as [x|]; [|by left; split; [|split]]. apply related_prefix; [done|]. by apply look_test.
    + destruct Hp as [Hp1 Hp2]. apply look_and_then; [|intros v s s'; by apply look_test]. apply look_prepare; [by apply look_action|done].
    + destruct Hp as (Hp1 & Hp2 & Hp3). apply look_and_then; [|intros v s s'; by apply look_test]. apply look_expect; [by apply look_action|done|done].
    + pose proof (look_enable names b st st' Hs) as H.
      destruct (enable_handlers c names b st) as [[st1 evs1] v1], (enable_handlers c names b st') as [[st2 evs2] v2].
      destruct H as (H1 & H2 & H3). cbn in H1, H2, H3. subst v2. apply related_prefix; [done|]. by apply look_test.
    + pose proof (look_enable_like pats b st st' Hs) as H.
      destruct (enable_handlers_like E c pats b st) as [[st1 evs1] v1], (enable_handlers_like E c pats b st') as [[st2 evs2] v2].
      destruct H as (H1 & H2 & H3). cbn in H1, H2, H3. subst v2. apply related_prefix; [done|]. by apply look_test.
    + apply (related_prefix Goexited [_] [_]); [done|]. apply look_test; [done|]. sbp.
  - destruct a as [m|j|fn i]; intros Hp opts opts' st st' Ho Hs; cbn [do_action unexpecting_action]; apply look_bracket.
    + by apply look_dispatch_action.
    + by apply look_advance.
    + apply look_call; [|done|done]. by apply look_test.
Qed.
End Test.

Lemma look_lemma E c p st0 : te_stops E = true -> calm_test p ->
  let '(st, evs, r) := run_test E c p st0 in
  let '(st', evs', r') := run_test E c (unexpecting p) st0 in
  (same_but_predicates st st' /\ r = r' /\ unobserved_evs evs = unobserved_evs evs') \/
  (r = Goexited /\ expect_failed evs /\ engine_facts evs `prefix_of` engine_facts evs').
Proof.
  intros Hs Hp. assert (H0 : same_but_predicates st0 st0) by by repeat split.
  pose proof (look_test E c Hs p Hp st0 st0 H0) as H.
  destruct (run_test E c p st0) as [[st evs] r], (run_test E c (unexpecting p) st0) as [[st' evs'] r']. exact H.
Qed.
End Look.
