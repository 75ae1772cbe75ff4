(** * Proofs: interceptors that pass commands on *)
From Verif Require Import PassSpec.

Section Pass.
Context {P : Params} (E : TEnv) (c : Config).

Definition srel (st st' : TState) : Prop :=
  same_but_interceptor st st' /\ (ts_icpt st = ts_icpt st' \/ (ts_icpt st = Some pass_through /\ ts_icpt st' = None)).
Definition ok {A} (x y : TState * list TEv * A) : Prop := srel x.1.1 y.1.1 /\ x.1.2 = y.1.2 /\ x.2 = y.2.

Lemma srel_fields st st' : srel st st' ->
  ts_clock st = ts_clock st' /\ ts_eng st = ts_eng st' /\ ts_bound st = ts_bound st' /\ ts_opts st = ts_opts st' /\ ts_compare st = ts_compare st' /\
  ts_failed st = ts_failed st' /\ ts_next st = ts_next st' /\ ts_step st = ts_step st' /\ ts_notes st = ts_notes st'.
Proof. intros [H _]. injection H. intros. by split_and!. Qed.
Lemma srel_change (f : TState -> TState) st st' : srel st st' ->
  (forall s i, f (set_icpt i s) = set_icpt i (f s)) -> (forall s, ts_icpt (f s) = ts_icpt s) -> srel (f st) (f st').
Proof. intros [H1 H2] Hf Hi. split; [unfold same_but_interceptor; by rewrite <- !Hf, H1|]. by rewrite !Hi. Qed.
Lemma ok_here {A} st st' evs (r : A) : srel st st' -> ok (st, evs, r) (st', evs, r).
Proof. intros H. split; [done|]. by split. Qed.
Lemma ok_prefix {A} (evs : list TEv) (x y : TState * list TEv * A) : ok x y ->
  ok (let '(st, evs0, r) := x in (st, evs ++ evs0, r)) (let '(st, evs0, r) := y in (st, evs ++ evs0, r)).
Proof. destruct x as [[st1 evs1] r1], y as [[st2 evs2] r2]. intros (H1 & H2 & H3). cbn in *. subst. by apply ok_here. Qed.

Lemma pass_engine_op mk st st' : srel st st' -> ok (engine_op E c mk st) (engine_op E c mk st').
Proof.
  intros Hs. destruct (srel_fields st st' Hs) as (_ & He & _ & _ & _ & _ & _ & Hn & _). unfold engine_op. rewrite <- Hn, <- He.
  destruct (run_op c _ (ts_eng st)) as [[es evs] r]. apply ok_here. by apply (srel_change (fun s => set_step (S (ts_step st)) (set_eng es s))).
Qed.
Lemma pass_icpt opts p : forall st st', srel st st' -> ok (run_icpt E c opts p st) (run_icpt E c opts p st').
Proof.
  induction p as [[e|]|v|f k IH|b k IH]; intros st st' Hs; cbn [run_icpt]; try by apply ok_here.
  - destruct (srel_fields st st' Hs) as (_ & He & _). rewrite <- He. apply (ok_prefix [_]). apply IH. by apply (srel_change (set_eng _)).
  - pose proof (pass_engine_op (fun o fuel _ => OpDispatch o fuel (mkMsg KCommand b) opts) st st' Hs) as H. unfold engine_execute.
    destruct (engine_op E c _ st) as [[st1 evs1] r1], (engine_op E c _ st') as [[st2 evs2] r2]. destruct H as (H1 & H2 & H3). cbn [fst snd] in *. subst.
    destruct (x_res r2) as [x|]; [|by apply ok_here]. apply ok_prefix. by apply IH.
Qed.
(** What the interceptor does is what the executor does. *)
Lemma pass_through_runs opts b st : run_icpt E c opts (pass_through b) st = engine_execute E c opts b st.
Proof.
  cbn. destruct (engine_execute E c opts b st) as [[st1 evs1] r1] eqn:H. destruct r1 as [|e|v| |]; cbn; by rewrite ?app_nil_r.
Qed.
Lemma pass_execute_command b st st' : srel st st' -> ok (execute_command E c b st) (execute_command E c b st').
Proof.
  intros Hs. destruct (srel_fields st st' Hs) as (_ & _ & Hb & _). unfold execute_command. rewrite <- Hb. destruct (ts_bound st) as [opts|]; [|by apply ok_here].
  apply (ok_prefix [_]). destruct Hs as [H1 [H2|[H2 H3]]].
  - rewrite <- H2. assert (Hs : srel st st') by (split; [done|by left]). destruct (ts_icpt st); [by apply pass_icpt|by apply pass_engine_op].
  - rewrite H2, H3, pass_through_runs. apply pass_engine_op. split; [done|]. right. by split.
Qed.

Definition acts (act act' : list OOpt -> TState -> TState * list TEv * AOut) : Prop :=
  forall opts st st', srel st st' -> ok (act opts st) (act' opts st').

Lemma options_same extra st st' : srel st st' -> action_options extra st = action_options extra st'.
Proof. intros Hs. destruct (srel_fields st st' Hs) as (H1 & _ & _ & H2 & _). unfold action_options. by rewrite H1, H2. Qed.
Lemma pass_prepare act st st' : acts act act -> srel st st' -> ok (prepare E act st) (prepare E act st').
Proof.
  intros Ha Hs. unfold prepare. rewrite <- (options_same [] st st' Hs). specialize (Ha (action_options [] st) st st' Hs).
  destruct (act _ st) as [[st1 evs1] r1], (act _ st') as [[st2 evs2] r2]. destruct Ha as (H1 & H2 & H3). cbn [fst snd] in *. subst.
  destruct r2; try by apply ok_here. unfold fatal. apply ok_here. by apply (srel_change set_failed).
Qed.
Lemma pass_expect k act e st st' : acts act act -> srel st st' -> ok (expect E c k act e st) (expect E c k act e st').
Proof.
  intros Ha Hs. destruct (srel_fields st st' Hs) as (_ & _ & _ & _ & Hc & _ & Hn & _). unfold expect.
  assert (Hk : test_scope E c k st = test_scope E c k st') by (unfold test_scope; by rewrite Hc). rewrite Hk, <- Hn, <- (options_same _ st st' Hs).
  destruct (new_predicate (test_scope E c k st') e) as [p|er]; [|unfold fatal; apply ok_here; by apply (srel_change set_failed)]. cbn zeta.
  set (n := ts_next st). specialize (Ha (action_options [OptObserver n] st) (set_next (S n) st) (set_next (S n) st') ltac:(by apply (srel_change (set_next _)))).
  destruct (act _ (set_next (S n) st)) as [[st1 evs1] r1], (act _ (set_next (S n) st')) as [[st2 evs2] r2]. destruct Ha as (H1 & H2 & H3). cbn [fst snd] in *. subst.
  destruct (srel_fields st1 st2 H1) as (_ & _ & _ & _ & _ & _ & _ & _ & Hnotes). rewrite Hnotes.
  assert (Hf : srel (set_failed st1) (set_failed st2)) by by apply (srel_change set_failed).
  destruct (p_done _) as [p' dp]. destruct r2; (try destruct dp); (try destruct (p_ok p')); unfold fail_now, fatal; by apply ok_here.
Qed.
Lemma pass_dispatch m : acts (do_dispatch E c m) (do_dispatch E c m).
Proof. intros opts st st' Hs. unfold do_dispatch. destruct (app_types c (m_type m)); [|by apply ok_here]. by apply pass_engine_op. Qed.
Lemma pass_advance j : acts (do_advance E c j) (do_advance E c j).
Proof.
  intros opts st st' Hs. destruct (srel_fields st st' Hs) as (Hk & _). unfold do_advance. rewrite <- Hk. destruct (adj_step j (ts_clock st)) as [now|v]; [|by apply ok_here].
  destruct (now <? ts_clock st)%Z; [by apply ok_here|]. cbn zeta. apply (ok_prefix [_]). apply pass_engine_op. by apply (srel_change (set_clock _)).
Qed.
Lemma pass_call run i : (forall st st', srel st st' -> ok (run st) (run st')) -> acts (do_call run i) (do_call run i).
Proof.
  intros Hr opts st st' Hs. unfold do_call. cbn zeta.
  set (st1 := match i with Some _ => _ | None => _ end). set (st1' := match i with Some _ => set_icpt _ _ | None => set_bound (Some opts) st' end).
  assert (Hb : srel (set_bound (Some opts) st) (set_bound (Some opts) st')) by by apply (srel_change (set_bound _)).
  assert (H0 : srel st1 st1').
  { subst st1 st1'. destruct i as [f|]; [|done]. split; [|by left]. destruct Hb as [Hb _]. unfold same_but_interceptor in *. exact Hb. }
  specialize (Hr st1 st1' H0). destruct (run st1) as [[s1 evs1] r1], (run st1') as [[s2 evs2] r2]. destruct Hr as (H1 & H2 & H3). cbn [fst snd] in *. subst.
  assert (Hi : srel (set_icpt (ts_icpt st) s1) (set_icpt (ts_icpt st') s2)).
  { destruct H1 as [H1 _]. destruct Hs as [_ Hs]. split; [exact H1|exact Hs]. }
  destruct r2; [| | |by apply ok_here]; destruct i; apply ok_here; by apply (srel_change (set_bound _)).
Qed.
Lemma pass_bracket k x y : ok x y -> ok (bracket k x) (bracket k y).
Proof. destruct x as [[st1 evs1] r1], y as [[st2 evs2] r2]. intros (H1 & H2 & H3). cbn in *. subst. by apply ok_here. Qed.
Lemma pass_and_then x y k : ok x y -> (forall v st st', srel st st' -> ok (k v st) (k v st')) -> ok (and_then x k) (and_then y k).
Proof.
  destruct x as [[st1 evs1] r1], y as [[st2 evs2] r2]. intros (H1 & H2 & H3) Hk. cbn [fst snd] in *. subst.
  destruct r2; try (by apply ok_here); cbn [and_then]; apply ok_prefix; auto.
Qed.
Lemma pass_enable names b : forall st st', srel st st' -> ok (enable_handlers c names b st) (enable_handlers c names b st').
Proof.
  induction names as [|n names IH]; intros st st' Hs; [by apply ok_here|]. cbn [enable_handlers]. destruct (controllers c !! n) as [h|]; [|by apply ok_here].
  destruct (b && h_disabled h); [by apply ok_here|]. apply (ok_prefix [_]). destruct (srel_fields st st' Hs) as (_ & _ & _ & Ho & _). rewrite <- Ho.
  apply IH. by apply (srel_change (set_opts _)).
Qed.
Lemma pass_enable_like pats b st st' : srel st st' -> ok (enable_handlers_like E c pats b st) (enable_handlers_like E c pats b st').
Proof.
  intros Hs. unfold enable_handlers_like. destruct (match_handlers c pats []) as [l|v]; [|by apply ok_here]. destruct (srel_fields st st' Hs) as (_ & _ & _ & Ho & _). rewrite <- Ho.
  apply ok_here. by apply (srel_change (set_opts _)).
Qed.

Fixpoint pass_test (p : TProg) : forall st st', srel st st' -> ok (run_test E c p st) (run_test E c p st')
with pass_action (a : Action) : acts (do_action E c a) (do_action E c a).
Proof.
  - destruct p as [|v| |f k|b k|a k|a e k|names b k|pats b k|an k]; intros st st' Hs; cbn [run_test] in *; try by apply ok_here.
    + destruct (srel_fields st st' Hs) as (_ & He & _). rewrite <- He. apply (ok_prefix [_]). apply pass_test. by apply (srel_change (set_eng _)).
    + pose proof (pass_execute_command b st st' Hs) as H.
      destruct (execute_command E c b st) as [[st1 evs1] r1], (execute_command E c b st') as [[st2 evs2] r2]. destruct H as (H1 & H2 & H3). cbn [fst snd] in *. subst.
      destruct (x_res r2) as [x|]; [|by apply ok_here]. apply ok_prefix. by apply pass_test.
    + apply pass_and_then; [|intros v s s'; by apply pass_test]. apply pass_prepare; [apply pass_action|done].
    + apply pass_and_then; [|intros v s s'; by apply pass_test]. apply pass_expect; [apply pass_action|done].
    + pose proof (pass_enable names b st st' Hs) as H.
      destruct (enable_handlers c names b st) as [[st1 evs1] v1], (enable_handlers c names b st') as [[st2 evs2] v2]. destruct H as (H1 & H2 & H3). cbn [fst snd] in *. subst.
      apply ok_prefix. by apply pass_test.
    + pose proof (pass_enable_like pats b st st' Hs) as H.
      destruct (enable_handlers_like E c pats b st) as [[st1 evs1] v1], (enable_handlers_like E c pats b st') as [[st2 evs2] v2]. destruct H as (H1 & H2 & H3). cbn [fst snd] in *. subst.
      apply ok_prefix. by apply pass_test.
    + destruct (srel_fields st st' Hs) as (_ & _ & _ & _ & _ & _ & _ & _ & Hn). rewrite <- Hn. apply (ok_prefix [_]). apply pass_test. by apply (srel_change (set_notes _)).
  - destruct a as [m|j|fn i]; intros opts st st' Hs; cbn [do_action]; apply pass_bracket.
    + by apply pass_dispatch.
    + by apply pass_advance.
    + apply pass_call; [|done]. apply pass_test.
Qed.

(** A Call with the interceptor. *)
Lemma pass_do_call fn opts st : ts_icpt st = None ->
  (forall st1 evs r, do_call (run_test E c fn) (Some pass_through) opts st = (st1, evs, r) -> r <> AHalt ->
   exists st2, do_call (run_test E c fn) None opts st = (st2, evs, r) /\ same_but_interceptor st1 st2).
Proof.
  intros Hi st1 evs r. unfold do_call. cbn zeta. cbn [ts_icpt set_bound].
  assert (H0 : srel (set_icpt (Some pass_through) (set_bound (Some opts) st)) (set_bound (Some opts) st)) by (split; [done|by right]).
  pose proof (pass_test fn _ _ H0) as H. destruct (run_test E c fn _) as [[s1 evs1] r1], (run_test E c fn _) as [[s2 evs2] r2].
  destruct H as (H1 & H2 & H3). cbn [fst snd] in *. subst. rewrite Hi. intros Hr Hh.
  destruct r2; injection Hr; intros; subst; try done; eexists; (split; [reflexivity|]); destruct H1 as [H1 _];
    unfold same_but_interceptor in *; injection H1; intros; unfold set_icpt, set_bound; cbn; by f_equal.
Qed.
End Pass.

Lemma pass_begin {P : Params} app u w topts : same_but_interceptor (begin app u w (topts ++ [OptIntercept pass_through])) (begin app u w topts) /\
  ts_icpt (begin app u w (topts ++ [OptIntercept pass_through])) = Some pass_through.
Proof. unfold begin. rewrite !foldl_app. by split. Qed.
Lemma begin_icpt {P : Params} app u w topts : (forall i, OptIntercept i ∉ topts) -> ts_icpt (begin app u w topts) = None.
Proof.
  unfold begin. set (st := mkTS _ _ _ _ _ _ _ _ _ _). assert (H : ts_icpt st = None) by done. clearbody st. cbn [set_next ts_icpt].
  revert st H. induction topts as [|x l IH]; intros st H Hl; [done|]. cbn. apply IH; [|intros i Hi; by apply (Hl i); right].
  destruct x; try done. exfalso. apply (Hl i). by left.
Qed.
Lemma pass_lemma {P : Params} E c p app u w topts st evs r st' evs' r' :
  (forall i, OptIntercept i ∉ topts) ->
  run_test E c p (begin app u w (topts ++ [OptIntercept pass_through])) = (st, evs, r) ->
  run_test E c p (begin app u w topts) = (st', evs', r') ->
  same_but_interceptor st st' /\ evs = evs' /\ r = r'.
Proof.
  intros Hi H H'. destruct (pass_begin app u w topts) as [H1 H2].
  assert (H0 : srel (begin app u w (topts ++ [OptIntercept pass_through])) (begin app u w topts)).
  { split; [done|]. right. split; [done|]. by apply begin_icpt. }
  destruct (pass_test E c p _ _ H0) as ([H3 _] & H4 & H5). by rewrite H, H' in *.
Qed.
