(** * Proofs: tests and the real time *)
From Verif Require Import WallSpec.

Section Wall.
Context {P : Params}.

(** ** The engine *)
Lemma wall_par w o hid ev {A B} (m : JProg A) : forall (p : JProg B) g, j_par (with_wall w o) hid ev m p g = j_par o hid ev m p g.
Proof.
  induction m as [a|v|f k IH|s k IH]; intros p.
  all: induction p as [b|v'|f' k' IH'|s' k' IH']; intros g; cbn; try done.
  all: destruct (o_sched o (g_step g)); rewrite ?IH; try done; cbn in IH'; rewrite ?IH'; done.
Qed.
Lemma wall_ctrl w c o h now env g cs : ctrl_handle c (with_wall w o) h now env g cs = ctrl_handle c o h now env g cs.
Proof.
  unfold ctrl_handle. destruct (h_impl h) as [a|pi|i|j], cs; try reflexivity.
  assert (Ha : forall cd g, j_apply (with_wall w o) cd h j now env g = j_apply o cd h j now env g).
  { intros [] g0; [|done]. unfold j_apply. by rewrite wall_par. }
  unfold j_handle, j_handle_threads. destruct (negb _); [done|]. destruct (pj_version _ _ _) as [u [[cur [e|]]|v]]; [done| |done].
  destruct (decide _); [|done]. by rewrite Ha.
Qed.
Lemma wall_handle w c o oo env h st : e_handle c (with_wall w o) oo env h st = e_handle c o oo env h st.
Proof.
  unfold e_handle. destruct h; [|done]. destruct (skip_handler _ _); [done|]. destruct (es_cs st !! _); [|done]. by rewrite wall_ctrl.
Qed.
Lemma wall_handlers w c o oo env hs : forall st, e_handlers c (with_wall w o) oo env hs st = e_handlers c o oo env hs st.
Proof.
  induction hs as [|h hs IH]; intros st; [done|]. cbn [e_handlers]. rewrite wall_handle.
  destruct (e_handle c o oo env h st) as [[st1 fs] [envs e|v]]; [|done]. by rewrite IH.
Qed.
Lemma wall_message w c o oo env st : e_message c (with_wall w o) oo env st = e_message c o oo env st.
Proof. unfold e_message. destruct (targets c env); [|done]. by rewrite wall_handlers. Qed.
Lemma wall_loop w c o oo fuel : forall q err st, e_loop c (with_wall w o) oo fuel q err st = e_loop c o oo fuel q err st.
Proof.
  induction fuel as [|fuel IH]; intros [|env q] err st; try done. cbn [e_loop]. rewrite wall_message.
  destruct (e_message c o oo env st) as [[st1 fs] [[envs derr]|v]]; [|done].
  change (poll_ctx (with_wall w o)) with (poll_ctx o). destruct (poll_ctx o (es_g st1)) as [g [e|]]; [done|]. by rewrite IH.
Qed.
Lemma wall_tick_handlers w c o oo hs : forall st, e_tick_handlers c (with_wall w o) oo hs st = e_tick_handlers c o oo hs st.
Proof.
  induction hs as [|h hs IH]; intros st; [done|]. cbn [e_tick_handlers].
  change (e_tick_one c (with_wall w o)) with (e_tick_one c o).
  destruct (e_tick_one c o oo h st) as [[st1 fs] [envs e|v]]; [|done].
  change (poll_unless_skipped (with_wall w o)) with (poll_unless_skipped o).
  destruct (poll_unless_skipped o oo h st1) as [st2 [ce|]]; [done|]. by rewrite IH.
Qed.

(** Options that set the time. *)
Definition has_time (opts : list OOpt) : Prop := exists t, OptNow t ∈ opts.
Lemma has_time_app a b : has_time a -> has_time (a ++ b).
Proof. intros [t H]. exists t. apply elem_of_app. by left. Qed.

Lemma wall_apply c opts : has_time opts -> forall now now' obs et eh,
  apply_opts c (mkOOs now obs et eh) opts = apply_opts c (mkOOs now' obs et eh) opts.
Proof.
  induction opts as [|x opts IH]; intros [t Ht] now now' obs et eh; [by apply elem_of_nil in Ht|].
  apply elem_of_cons in Ht as [<-|Ht]; [done|]. assert (H : has_time opts) by (exists t; done).
  destruct x; cbn; try (by apply IH); try done. destruct (controllers c !! _) as [h|]; [by apply IH|done].
Qed.
Lemma wall_opts c opts w w' : has_time opts -> new_opts c w opts = new_opts c w' opts.
Proof. intros H. unfold new_opts. by apply wall_apply. Qed.

Lemma wall_dispatch w c o fuel m opts st : has_time opts -> e_dispatch c (with_wall w o) fuel m opts st = e_dispatch c o fuel m opts st.
Proof.
  intros H. unfold e_dispatch. change (next_id (with_wall w o)) with (next_id o). destruct (next_id o (es_g st)) as [g id].
  rewrite (wall_opts c opts (o_wall (with_wall w o)) (o_wall o) H). destruct (new_opts c (o_wall o) opts) as [oo|v]; [|done].
  change (lock (with_wall w o)) with (lock o). cbn zeta.
  destruct (m_kind m); try reflexivity.
  all: destruct (m_invalid m); [reflexivity|]; destruct (routes c !! m_type m); [|reflexivity];
    destruct (lock o _) as [g2 [e|]]; [reflexivity|]; by rewrite wall_loop.
Qed.
Lemma wall_tick w c o fuel order opts st : has_time opts -> e_tick c (with_wall w o) fuel order opts st = e_tick c o fuel order opts st.
Proof.
  intros H. unfold e_tick. rewrite (wall_opts c opts (o_wall (with_wall w o)) (o_wall o) H).
  destruct (new_opts c (o_wall o) opts) as [oo|v]; [|done]. change (lock (with_wall w o)) with (lock o).
  destruct (lock o _) as [g2 [e|]]; [done|]. unfold e_tick_body. rewrite wall_tick_handlers.
  destruct (e_tick_handlers c o oo order (es_set_g st g2)) as [[st1 fs] [q err|e|v]]; [|done|done]. by rewrite wall_loop.
Qed.

(** ** Tests *)
Section Test.
Context (E : TEnv) (clock : nat -> Z) (c : Config).
Notation E' := (at_times clock E).

Definition bound_ok (st : TState) : Prop := forall opts, ts_bound st = Some opts -> has_time opts.
Definition same {A} (x y : TState * list TEv * A) : Prop :=
  x.1.1 = y.1.1 /\ x.2 = y.2 /\ timeless <$> x.1.2 = timeless <$> y.1.2 /\ bound_ok x.1.1.
(** [mk]: how an operation is made; [f]: how it is changed by the real time. *)
Definition uses_time (mk : Oracle -> nat -> list Handler -> Op) : Prop :=
  (exists m opts, has_time opts /\ mk = fun o fuel _ => OpDispatch o fuel m opts) \/
  (exists opts, has_time opts /\ mk = fun o fuel order => OpTick o fuel order opts).

Lemma wall_engine_op mk st : uses_time mk -> bound_ok st -> same (engine_op E' c mk st) (engine_op E c mk st).
Proof.
  intros Hm Hb. unfold engine_op. cbn [te_oracle te_fuel te_order at_times].
  destruct Hm as [(m & opts & Ho & ->)|(opts & Ho & ->)]; cbn [run_op].
  - rewrite wall_dispatch by done. destruct (e_dispatch c _ _ m opts (ts_eng st)) as [[es fs] r].
    split; [done|]. split; [done|]. split; [done|]. exact Hb.
  - rewrite wall_tick by done. destruct (e_tick c _ _ _ opts (ts_eng st)) as [[es fs] r].
    split; [done|]. split; [done|]. split; [done|]. exact Hb.
Qed.
Lemma wall_execute opts b st : has_time opts -> bound_ok st -> same (engine_execute E' c opts b st) (engine_execute E c opts b st).
Proof. intros H. apply wall_engine_op. left. eauto. Qed.

Lemma wall_icpt opts (Ho : has_time opts) p : forall st, bound_ok st -> same (run_icpt E' c opts p st) (run_icpt E c opts p st).
Proof.
  induction p as [[e|]|v|f k IH|b k IH]; intros st Hb; cbn [run_icpt]; try done.
  - set (e := es_set_g _ _). destruct (IH (g_user (es_g e)) (set_eng e st) Hb) as (H1 & H2 & H3 & H4).
    destruct (run_icpt E' c opts _ _) as [[st1 evs1] r1], (run_icpt E c opts _ _) as [[st2 evs2] r2]. cbn in *. subst.
    split; [done|]. split; [done|]. split; [|done]. cbn. by rewrite H3.
  - destruct (wall_execute opts b st Ho Hb) as (H1 & H2 & H3 & H4).
    destruct (engine_execute E' c opts b st) as [[st1 evs1] r1], (engine_execute E c opts b st) as [[st2 evs2] r2]. cbn in H1, H2, H3, H4. subst.
    destruct (x_res r2) as [x|]; [|done]. destruct (IH x st2 H4) as (H5 & H6 & H7 & H8).
    destruct (run_icpt E' c opts (k x) st2) as [[st3 evs3] r3], (run_icpt E c opts (k x) st2) as [[st4 evs4] r4]. cbn in *. subst.
    split; [done|]. split; [done|]. split; [|done]. cbn. by rewrite !fmap_app, H3, H7.
Qed.
Lemma wall_execute_command b st : bound_ok st -> same (execute_command E' c b st) (execute_command E c b st).
Proof.
  intros Hb. unfold execute_command. destruct (ts_bound st) as [opts|] eqn:Eb; [|done]. pose proof (Hb opts Eb) as Ho.
  assert (H : same (match ts_icpt st with Some i => run_icpt E' c opts (i b) st | None => engine_execute E' c opts b st end)
                   (match ts_icpt st with Some i => run_icpt E c opts (i b) st | None => engine_execute E c opts b st end)).
  { destruct (ts_icpt st); [by apply wall_icpt|by apply wall_execute]. }
  destruct (match ts_icpt st with Some i => run_icpt E' c opts (i b) st | None => _ end) as [[st1 evs1] r1],
    (match ts_icpt st with Some i => run_icpt E c opts (i b) st | None => _ end) as [[st2 evs2] r2].
  destruct H as (H1 & H2 & H3 & H4). cbn in *. subst. split; [done|]. split; [done|]. split; [|done]. cbn. by rewrite H3.
Qed.
Lemma action_options_time extra st : has_time (action_options extra st).
Proof. exists (ts_clock st). by left. Qed.
Lemma timeless_observed n evs : observed n (timeless <$> evs) = observed n evs.
Proof.
  induction evs as [|ev evs IH]; [done|]. unfold observed in *. cbn. rewrite IH. f_equal. destruct ev as [| |[]| | | | | | | | | | |]; done.
Qed.
Lemma same_observed n evs evs' : timeless <$> evs = timeless <$> evs' -> observed n evs = observed n evs'.
Proof. intros H. rewrite <- (timeless_observed n evs), <- (timeless_observed n evs'). by rewrite H. Qed.

Definition acts_same (act act' : list OOpt -> TState -> TState * list TEv * AOut) : Prop :=
  forall opts st, has_time opts -> bound_ok st -> same (act' opts st) (act opts st).

Lemma wall_prepare act act' st : acts_same act act' -> bound_ok st -> same (prepare E' act' st) (prepare E act st).
Proof.
  intros Ha Hb. unfold prepare. destruct (Ha (action_options [] st) st (action_options_time _ _) Hb) as (H1 & H2 & H3 & H4).
  destruct (act' _ st) as [[st1 evs1] r1], (act _ st) as [[st2 evs2] r2]. cbn in *. subst.
  destruct r2; try (split; [done|]; split; [done|]; split; done). cbn. split; [done|]. split; [done|]. split; [|done]. cbn. by rewrite !fmap_app, H3.
Qed.
Lemma wall_expect k act act' e st : acts_same act act' -> bound_ok st -> same (expect E' c k act' e st) (expect E c k act e st).
Proof.
  intros Ha Hb. unfold expect. change (test_scope E' c k st) with (test_scope E c k st). change (report_texts E') with (report_texts E).
  destruct (new_predicate (test_scope E c k st) e) as [p|er]; [|done]. cbn zeta.
  set (n := ts_next st). destruct (Ha (action_options [OptObserver n] st) (set_next (S n) st) (action_options_time _ _) Hb) as (H1 & H2 & H3 & H4).
  destruct (act' _ _) as [[st1 evs1] r1], (act _ _) as [[st2 evs2] r2]. cbn [fst snd] in *. subst.
  rewrite (same_observed n _ _ H3).
  destruct (p_done _) as [p' dp].
  destruct r2; (try destruct dp); (try destruct (p_ok p')); cbn; (split; [done|]; split; [done|]; split; [|done]); cbn;
    rewrite ?fmap_app; cbn; rewrite ?fmap_app; by rewrite H3.
Qed.
Lemma wall_dispatch_action m : acts_same (do_dispatch E c m) (do_dispatch E' c m).
Proof.
  intros opts st Ho Hb. unfold do_dispatch. destruct (app_types c (m_type m)); [|done]. apply wall_engine_op; [|done]. left. eauto.
Qed.
Lemma wall_advance j : acts_same (do_advance E c j) (do_advance E' c j).
Proof.
  intros opts st Ho Hb. unfold do_advance. destruct (adj_step j (ts_clock st)) as [now|v]; [|done]. destruct (now <? ts_clock st)%Z; [done|].
  cbn zeta. destruct (wall_engine_op (fun o fuel order => OpTick o fuel order (opts ++ [OptNow now])) (set_clock now st)) as (H1 & H2 & H3 & H4); [|done|].
  { right. exists (opts ++ [OptNow now]). split; [by apply has_time_app|done]. }
  destruct (engine_op E' c _ _) as [[st1 evs1] r1], (engine_op E c _ _) as [[st2 evs2] r2]. cbn in *. subst.
  split; [done|]. split; [done|]. split; [|done]. cbn. by rewrite H3.
Qed.
Lemma wall_call run run' i : (forall st, bound_ok st -> same (run' st) (run st)) -> acts_same (do_call run i) (do_call run' i).
Proof.
  intros Hr opts st Ho Hb. unfold do_call. cbn zeta.
  set (st1 := match i with Some _ => _ | None => _ end). assert (H0 : bound_ok st1).
  { subst st1. intros opts'. destruct i; cbn; by intros [= <-]. }
  destruct (Hr st1 H0) as (H1 & H2 & H3 & H4). destruct (run' st1) as [[s1 evs1] r1], (run st1) as [[s2 evs2] r2]. cbn in *. subst.
  destruct r2; (split; [done|]; split; [done|]; split; [done|]); try (by intros opts'; destruct i); done.
Qed.
Lemma wall_bracket k x y : same x y -> same (bracket k x) (bracket k y).
Proof.
  destruct x as [[st1 evs1] r1], y as [[st2 evs2] r2]. intros (H1 & H2 & H3 & H4). cbn in *. subst. split; [done|]. split; [done|]. split; [|done].
  cbn. by rewrite !fmap_app, H3.
Qed.
Lemma wall_and_then x y k k' : same x y -> (forall v st, bound_ok st -> same (k v st) (k' v st)) -> same (and_then x k) (and_then y k').
Proof.
  destruct x as [[st1 evs1] r1], y as [[st2 evs2] r2]. intros (H1 & H2 & H3 & H4) Hk. cbn in *. subst.
  assert (H : forall v, same (let '(st, evs', r) := k v st2 in (st, evs1 ++ evs', r)) (let '(st, evs', r) := k' v st2 in (st, evs2 ++ evs', r))).
  { intros v. destruct (Hk v st2 H4) as (H5 & H6 & H7 & H8). destruct (k v st2) as [[st3 evs3] r3], (k' v st2) as [[st4 evs4] r4].
    cbn in *. subst. split; [done|]. split; [done|]. split; [|done]. cbn. by rewrite !fmap_app, H3, H7. }
  destruct r2; cbn; try apply H; done.
Qed.
Lemma wall_enable names b : forall st, bound_ok st -> bound_ok (enable_handlers c names b st).1.1.
Proof.
  induction names as [|n names IH]; intros st Hb; [done|]. cbn. destruct (controllers c !! n) as [h|]; [|done].
  destruct (b && h_disabled h); [done|]. specialize (IH (set_opts (ts_opts st ++ [OptHandler n b]) st) Hb).
  destruct (enable_handlers c names b _) as [[st1 evs] r]. exact IH.
Qed.
Lemma wall_prefix {A} (evs : list TEv) (x y : TState * list TEv * A) : same x y ->
  same (let '(st, evs', r) := x in (st, evs ++ evs', r)) (let '(st, evs', r) := y in (st, evs ++ evs', r)).
Proof.
  destruct x as [[st1 evs1] r1], y as [[st2 evs2] r2]. intros (H1 & H2 & H3 & H4). cbn in *. subst.
  split; [done|]. split; [done|]. split; [|done]. cbn. by rewrite !fmap_app, H3.
Qed.

Fixpoint wall_test (p : TProg) : forall st, bound_ok st -> same (run_test E' c p st) (run_test E c p st)
with wall_action (a : Action) : acts_same (do_action E c a) (do_action E' c a).
Proof.
  - destruct p as [|v| |f k|b k|a k|a e k|names b k|pats b k|an k]; intros st Hb; cbn [run_test]; try done.
    + apply (wall_prefix [_]). apply wall_test. done.
    + destruct (wall_execute_command b st Hb) as (H1 & H2 & H3 & H4).
      destruct (execute_command E' c b st) as [[st1 evs1] r1], (execute_command E c b st) as [[st2 evs2] r2]. cbn in H1, H2, H3, H4. subst.
      destruct (x_res r2) as [x|]; [|done]. destruct (wall_test (k x) st2 H4) as (H5 & H6 & H7 & H8).
      destruct (run_test E' c (k x) st2) as [[st3 evs3] r3], (run_test E c (k x) st2) as [[st4 evs4] r4]. cbn in *. subst.
      split; [done|]. split; [done|]. split; [|done]. cbn. by rewrite !fmap_app, H3, H7.
    + apply wall_and_then; [|intros v st'; apply wall_test]. apply wall_prepare; [apply wall_action|done].
    + apply wall_and_then; [|intros v st'; apply wall_test]. apply wall_expect; [apply wall_action|done].
    + pose proof (wall_enable names b st Hb) as H. destruct (enable_handlers c names b st) as [[st1 evs1] v]. apply wall_prefix. by apply wall_test.
    + unfold enable_handlers_like. destruct (match_handlers c pats []) as [l|v]; apply wall_prefix; by apply wall_test.
    + apply (wall_prefix [_]). by apply wall_test.
  - destruct a as [m|j|fn i]; intros opts st Ho Hb; cbn [do_action]; apply wall_bracket.
    + by apply wall_dispatch_action.
    + by apply wall_advance.
    + apply wall_call; [|done|done]. apply wall_test.
Qed.
End Test.

(** ** The beginning *)
Lemma begin_wall_fold l : (exists t, OptStart t ∈ l) -> forall st w w',
  foldl apply_topt (set_clock w st) l = foldl apply_topt (set_clock w' st) l.
Proof.
  induction l as [|x l IH]; intros [t Ht] st w w'; [by apply elem_of_nil in Ht|]. apply elem_of_cons in Ht as [<-|Ht]; [done|].
  assert (H : exists t, OptStart t ∈ l) by (exists t; done). cbn. destruct x; [done|apply (IH H (set_opts _ st))|apply (IH H (set_icpt _ st))|apply (IH H (set_compare _ st))].
Qed.
Lemma begin_wall app u w w' topts : w = w' \/ (exists t, OptStart t ∈ topts) -> begin app u w topts = begin app u w' topts.
Proof.
  intros [->|H]; [done|]. unfold begin. set (st := mkTS _ _ _ _ _ _ _ _ _ _). set (st' := mkTS w' _ _ _ _ _ _ _ _ _).
  assert (Hf : foldl apply_topt st topts = foldl apply_topt st' topts) by exact (begin_wall_fold topts H st w w'). by rewrite Hf.
Qed.
Lemma begin_bound app u w topts : bound_ok (begin app u w topts).
Proof.
  unfold begin. set (st := mkTS _ _ _ _ _ _ _ _ _ _). assert (H : ts_bound st = None) by done. clearbody st.
  assert (H' : ts_bound (foldl apply_topt st topts) = None).
  { revert st H. induction topts as [|x l IH]; intros st H; [done|]. cbn. apply IH. by destruct x. }
  intros opts. cbn. by rewrite H'.
Qed.

Lemma wall_lemma E clock app u w w' topts p st evs r :
  w = w' \/ (exists t, OptStart t ∈ topts) ->
  run_test E (test_config app) p (begin app u w topts) = (st, evs, r) ->
  exists evs', run_test (at_times clock E) (test_config app) p (begin app u w' topts) = (st, evs', r) /\
    timeless <$> evs' = timeless <$> evs.
Proof.
  intros Hw Hr. rewrite (begin_wall app u w w' topts Hw) in Hr.
  destruct (wall_test E clock (test_config app) p (begin app u w' topts) (begin_bound _ _ _ _)) as (H1 & H2 & H3 & _).
  rewrite Hr in H1, H2, H3. destruct (run_test (at_times clock E) _ _ _) as [[st' evs'] r']. cbn in *. subst. eauto.
Qed.
End Wall.
