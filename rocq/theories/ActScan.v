(** * The events of a test with user-defined actions determine its state. *)
From Verif Require Export ActSpec.
From Verif Require Import ActRefine TestScan TestLemmas TestProof EngineLemmas ExpectLemmas ExpectProof ExpectReport.
From Coq Require Import Lia.

Section Scan.
Context {P : Params}.
Context (E : TEnv) (c : Config).

Inductive UStep : TState -> UEv -> TState -> Prop :=
| us_op st op fs e r : op_ok c op -> match op with OpDispatch _ _ _ _ | OpTick _ _ _ _ => True | _ => False end ->
    run_op c op (ts_eng st) = (e, EvFact <$> fs, r) -> r <> Fuel ->
    UStep st (VT (TvOp op fs)) (set_step (S (ts_step st)) (set_eng e st))
| us_user st f : UStep st (VT (TvUser f)) (set_eng (es_set_g (ts_eng st) (g_act f (es_g (ts_eng st)))) st)
| us_clock st t : UStep st (VT (TvClock t)) (set_clock t st)
| us_execute st b opts : ts_bound st = Some opts -> UStep st (VT (TvExecute b)) st
| us_outside st b : ts_bound st = None -> UStep st (VT (TvOutside b)) st
| us_enable st n b h : controllers c !! n = Some h -> (b = true -> h_disabled h = false) ->
    UStep st (VT (TvEnable n b)) (set_opts (ts_opts st ++ [OptHandler n b]) st)
| us_annotate st x : UStep st (VT (TvAnnotate x)) (set_notes (ts_notes st ++ [x]) st)
| us_predicate st : UStep st (VT TvPredicate) (set_next (S (ts_next st)) st)
| us_final st : UStep st (VT TvFinal) st
| us_report st r : UStep st (VT (TvReport r)) st
| us_fatal st e : UStep st (VT (TvFatal e)) (set_failed st)
| us_failnow st : UStep st (VT TvFailNow) (set_failed st)
| us_do st k extra : extra = [] \/ extra = [OptObserver (pred (ts_next st))] -> UStep st (VDo k (action_options extra st)) st
| us_did st k : UStep st (VDid k) st
| us_heading st s e : UStep st (VHeading s e) st
| us_configure st : UStep st (VConfigure (plain_options st)) st
| us_reset st : UStep st VReset (set_eng (e_reset c (ts_eng st)) st)
| us_bind st opts : UStep st (VBind opts) (set_bound (Some opts) st)
| us_unbind st : UStep st VUnbind (set_bound None st)
| us_intercept st i : UStep st (VIntercept i) (set_icpt i st).

Inductive UScan : TState -> list UEv -> TState -> Prop :=
| usc_nil st : UScan st [] st
| usc_cons st ev st' l st'' : UStep st ev st' -> UScan st' l st'' -> UScan st (ev :: l) st''.

(** The last operation does not end, or ends the program. *)
Definition UHalts (st : TState) (evs : list UEv) : Prop :=
  exists l op fs st1 e r, evs = l ++ [VT (TvOp op fs)] /\ UScan st l st1 /\ op_ok c op /\
    match op with OpDispatch _ _ _ _ | OpTick _ _ _ _ => True | _ => False end /\
    run_op c op (ts_eng st1) = (e, EvFact <$> fs, r).

Lemma uscan_app st l l' st'' : UScan st (l ++ l') st'' <-> exists st', UScan st l st' /\ UScan st' l' st''.
Proof.
  split.
  - revert st. induction l as [|ev l IH]; cbn; intros st H; [exists st; split; [constructor|done]|].
    inversion H; subst; edestruct IH as (a9 & H1 & H2); [eassumption|]. exists a9. split; [econstructor; eassumption|done].
  - intros (a' & H1 & H2). induction H1; cbn; [done|]. econstructor; [eassumption|]. by apply IHUScan.
Qed.
Lemma uscan_one st ev st' : UStep st ev st' -> UScan st [ev] st'.
Proof. intros. econstructor; [eassumption|constructor]. Qed.
Lemma uhalts_app st l st' l' : UScan st l st' -> UHalts st' l' -> UHalts st (l ++ l').
Proof.
  intros H (m & op & fs & st1 & e & r & -> & HS & H1). exists (l ++ m), op, fs, st1, e, r.
  split; [by rewrite app_assoc|]. split; [|done]. apply uscan_app. eauto.
Qed.

(** Commands executed through the executor, starting with this binding and interceptor. *)
Fixpoint exec_ok (bd : option (list OOpt)) (ic : option Interceptor) (l : list UEv) : Prop :=
  match l with
  | [] => True
  | VT (TvExecute b) :: l' => (ic = None -> exists opts, bd = Some opts /\ dispatches b opts l') /\ exec_ok bd ic l'
  | VBind opts :: l' => exec_ok (Some opts) ic l'
  | VUnbind :: l' => exec_ok None ic l'
  | VIntercept i :: l' => exec_ok bd i l'
  | _ :: l' => exec_ok bd ic l'
  end.

Definition accepted (st : TState) (x : Run) : Prop :=
  let '(st', evs, r) := x in (r <> AHalt -> UScan st evs st') /\ (r = AHalt -> UHalts st evs).

Lemma accepted_here st r : r <> AHalt -> accepted st (st, [], r).
Proof. intros Hr. split; [intros _; constructor|done]. Qed.
Lemma accepted_tell st ev st' x : UStep st ev st' -> accepted st' x -> accepted st (tell ev x).
Proof.
  intros Hs. destruct x as [[st1 evs] r]. cbn. intros [H1 H2]. split; intros Hr.
  - econstructor; [exact Hs|by apply H1].
  - apply (uhalts_app _ [ev] st'); [by apply uscan_one|by apply H2].
Qed.
Lemma accepted_then st x k :
  accepted st x -> (forall y st1, accepted st1 (k y st1)) -> accepted st (x_then x k).
Proof.
  intros Hx Hk. destruct x as [[st1 evs1] r1]. destruct Hx as [H1 H2]. unfold x_then. destruct (x_res r1) as [y|] eqn:Ey.
  - specialize (Hk y st1). destruct (k y st1) as [[st2 evs2] r2]. destruct Hk as [H3 H4].
    assert (Hr : r1 <> AHalt) by (intros ->; done). split; intros Hr2.
    + apply uscan_app. exists st1. auto.
    + eapply uhalts_app; [by apply H1|by apply H4].
  - by split.
Qed.
Lemma accepted_snoc st st1 evs r ev st2 r2 :
  accepted st (st1, evs, r) -> r <> AHalt -> UStep st1 ev st2 -> r2 <> AHalt -> accepted st (st2, evs ++ [ev], r2).
Proof. intros [H1 _] Hr Hs Hr2. split; [|done]. intros _. apply uscan_app. exists st1. split; [auto|by apply uscan_one]. Qed.

Context (Hok : env_ok E c) (Happ : app_ok c).

Lemma engine_accepted mk st :
  (forall o fuel order, match mk o fuel order with OpDispatch _ _ _ _ | OpTick _ _ _ _ => True | _ => False end) ->
  (forall o fuel order, sort_ok o -> order ≡ₚ c_app c -> op_ok c (mk o fuel order)) ->
  accepted st (lift (engine_op E c mk st)).
Proof.
  intros Hn Hop. unfold engine_op. set (op := mk _ _ _).
  assert (Hf := facts_run c op (ts_eng st)).
  destruct (run_op c op (ts_eng st)) as [[es ev] res] eqn:Er.
  assert (Hi : match op with OpDispatch _ _ _ _ | OpTick _ _ _ _ => True | _ => False end) by apply Hn.
  assert (Ho : op_ok c op) by (apply Hop; apply Hok).
  rewrite Hf in Er by (destruct op; done). cbn [lift fmap list_fmap].
  split; intros Hr.
  - apply uscan_one. eapply us_op; [done|done|exact Er|]. intros ->. done.
  - exists [], op, (ev_facts ev), st, es, res. split; [done|]. split; [constructor|]. done.
Qed.
Lemma execute_accepted opts b st : accepted st (lift (engine_execute E c opts b st)).
Proof. apply engine_accepted; done. Qed.

Lemma icpt_accepted opts p : forall st, accepted st (lift (run_icpt E c opts p st)).
Proof.
  induction p as [[e|]|v|f k IH|b k IH]; intros st; cbn [run_icpt].
  - by apply accepted_here.
  - by apply accepted_here.
  - by apply accepted_here.
  - set (e := es_set_g _ _). specialize (IH (g_user (es_g e)) (set_eng e st)). destruct (run_icpt _ _ _ _ _) as [[st1 evs1] r1].
    cbn [lift] in *. rewrite fmap_cons. eapply (accepted_tell st (VT (TvUser f)) (set_eng e st) (st1, VT <$> evs1, r1)); [constructor|done].
  - assert (Hx := execute_accepted opts b st). destruct (engine_execute _ _ _ _ _) as [[st1 evs1] r1].
    destruct (x_res r1) as [x|] eqn:Exr; [|done].
    assert (Ha := accepted_then st (st1, VT <$> evs1, r1) (fun y st => lift (run_icpt E c opts (k y) st)) Hx IH).
    unfold x_then in Ha. rewrite Exr in Ha. destruct (run_icpt _ _ _ _ _) as [[st2 evs2] r2]. cbn [lift] in *. by rewrite fmap_app.
Qed.
Lemma command_accepted b st : accepted st (lift (execute_command E c b st)).
Proof.
  unfold execute_command. destruct (ts_bound st) as [opts|] eqn:Eb.
  - assert (Hx : accepted st (lift (match ts_icpt st with Some i => run_icpt E c opts (i b) st | None => engine_execute E c opts b st end))).
    { destruct (ts_icpt st); [apply icpt_accepted|apply execute_accepted]. }
    destruct (match ts_icpt st with Some i => _ | None => _ end) as [[st1 evs1] r1].
    cbn [lift] in *. rewrite fmap_cons. apply (accepted_tell st (VT (TvExecute b)) st (st1, VT <$> evs1, r1)); [by econstructor|done].
  - split; [|done]. intros _. apply uscan_one. by constructor.
Qed.

Lemma set_opts_id st : set_opts (ts_opts st) st = st.
Proof. by destruct st. Qed.
Lemma enable_accepted names b : forall st, accepted st (let '(st, evs, v) := enable_handlers c names b st in (st, VT <$> evs, v_res v)).
Proof.
  induction names as [|n names IH]; intros st; cbn [enable_handlers]; [by apply accepted_here|].
  destruct (controllers c !! n) as [h|] eqn:Eh; [|by apply accepted_here].
  destruct (b && h_disabled h) eqn:Ed; [by apply accepted_here|].
  specialize (IH (set_opts (ts_opts st ++ [OptHandler n b]) st)). destruct (enable_handlers _ _ _ _) as [[st1 evs1] r1].
  rewrite fmap_cons. eapply (accepted_tell st (VT (TvEnable n b)) _ (st1, VT <$> evs1, v_res r1)); [|exact IH].
  eapply us_enable; [exact Eh|]. intros ->. by destruct (h_disabled h).
Qed.
Lemma enables_scan names b : forall st,
  (forall n, n ∈ names -> exists h, controllers c !! n = Some h /\ h_disabled h = false) ->
  UScan st (VT <$> map (fun n => TvEnable n b) names) (set_opts (ts_opts st ++ map (fun n => OptHandler n b) names) st).
Proof.
  induction names as [|n names IH]; intros st Hn.
  - cbn. rewrite app_nil_r, set_opts_id. constructor.
  - destruct (Hn n ltac:(left)) as (h & Hh & Hd).
    specialize (IH (set_opts (ts_opts st ++ [OptHandler n b]) st)). cbn in IH |- *. rewrite <- app_assoc in IH.
    econstructor; [eapply us_enable; [exact Hh|done]|]. apply IH. intros n' Hin. apply Hn. by right.
Qed.
Lemma like_accepted pats b st : accepted st (let '(st, evs, v) := enable_handlers_like E c pats b st in (st, VT <$> evs, v_res v)).
Proof.
  unfold enable_handlers_like. destruct (match_handlers c pats []) as [names|v] eqn:Em; [|by apply accepted_here].
  split; [|done]. intros _. apply enables_scan. intros n Hn. destruct Hok as (_ & _ & Hsh). rewrite Hsh in Hn.
  rewrite elem_of_remove_dups in Hn. destruct (match_handlers_names _ _ _ _ _ Em Hn) as [Hx|(h & Hin & <- & Hd)]; [inversion Hx|].
  exists h. split; [|done]. by apply controllers_complete.
Qed.

Lemma fatal_accepted st st1 evs r e :
  accepted st (st1, evs, r) -> r <> AHalt -> accepted st (let '(st2, evs', r') := u_fatal E e st1 in (st2, evs ++ evs', r')).
Proof.
  intros Ha Hr. cbn. eapply accepted_snoc; [exact Ha|done|constructor|]. unfold u_stop. by destruct (te_stops E).
Qed.

Definition action_takes (act : list OOpt -> TState -> Run) : Prop :=
  forall extra st, extra = [] \/ extra = [OptObserver (pred (ts_next st))] -> accepted st (act (action_options extra st) st).

Lemma prepare_accepted a act st : action_takes act -> accepted st (u_prepare E a act st).
Proof.
  intros Ha. unfold u_prepare. destruct (ua_caption a) as [s|v]; [|by apply accepted_here].
  assert (H := accepted_tell st (VHeading s None) st _ (us_heading st s None) (Ha [] st ltac:(by left))).
  destruct (tell _ _) as [[st1 evs1] r1]. destruct r1; try exact H. by apply fatal_accepted with (r := AErr e).
Qed.

Lemma expect_accepted a act e st : action_takes act -> accepted st (u_expect E c a act e st).
Proof.
  intros Ha. unfold u_expect. set (o := mkPO _ _).
  assert (Hc : accepted st (st, [VConfigure o], AOk)) by (split; [|done]; intros _; apply uscan_one; apply us_configure).
  destruct (ua_conf a o) as [o'|v]; [|split; [|done]; intros _; by apply Hc].
  destruct (ua_caption a) as [s|v]; [|split; [|done]; intros _; by apply Hc].
  set (pre := [VConfigure o; VHeading s (Some e)]).
  assert (Hpre : UScan st pre st) by (econstructor; [apply us_configure|apply uscan_one; constructor]).
  destruct (new_predicate _ _) as [p|er].
  2:{ apply (fatal_accepted st st pre AOk); [|done]. by split. }
  specialize (Ha [OptObserver (ts_next st)] (set_next (S (ts_next st)) st) ltac:(by right)).
  change (action_options [OptObserver (ts_next st)] (set_next (S (ts_next st)) st)) with (action_options [OptObserver (ts_next st)] st) in Ha.
  destruct (act _ _) as [[st1 evs1] r1].
  assert (H1 : accepted st (st1, pre ++ VT TvPredicate :: evs1, r1)).
  { destruct Ha as [Ha1 Ha2]. split; intros Hr.
    - apply uscan_app. exists st. split; [done|]. econstructor; [constructor|by apply Ha1].
    - eapply uhalts_app; [exact Hpre|]. apply (uhalts_app _ [VT TvPredicate] (set_next (S (ts_next st)) st)); [apply uscan_one; constructor|by apply Ha2]. }
  assert (H2 : r1 <> AHalt -> forall r2, r2 <> AHalt -> accepted st (st1, pre ++ VT TvPredicate :: evs1 ++ [VT TvFinal], r2)).
  { intros Hr r2 Hr2. assert (Hx := accepted_snoc _ _ _ _ (VT TvFinal) st1 r2 H1 Hr (us_final _) Hr2). by rewrite <- app_assoc in Hx. }
  destruct (p_done _) as [q dp].
  assert (Hst : u_stop E <> AHalt) by (unfold u_stop; by destruct (te_stops E)).
  assert (H3 : r1 <> AHalt -> forall r2 rep, r2 <> AHalt -> accepted st (st1, (pre ++ VT TvPredicate :: evs1 ++ [VT TvFinal]) ++ [VT (TvReport rep)], r2)).
  { intros Hr r2 rep Hr2. eapply accepted_snoc; [by apply (H2 Hr AOk)|done|constructor|done]. }
  destruct r1; try (destruct dp as [dv|]); try exact H1; try (by apply H2).
  - destruct (p_ok q); [by apply H3|]. eapply accepted_snoc; [by apply (H3 ltac:(done) AOk)|done|constructor|done].
  - by apply (fatal_accepted st st1 _ AOk); [apply H2|].
Qed.

Lemma deferring_accepted p q st : (forall st, accepted st (p st)) -> (forall st, accepted st (q st)) -> accepted st (deferring p q st).
Proof.
  intros Hp Hq. unfold deferring. specialize (Hp st). destruct (p st) as [[st1 evs1] r1].
  specialize (Hq st1). destruct (q st1) as [[st2 evs2] r2]. destruct Hp as [H1 H2], Hq as [H3 H4].
  assert (Hg : r1 <> AHalt -> accepted st (st2, evs1 ++ evs2, match r2 with AOk | AErr _ => r1 | _ => r2 end)).
  { intros Hr. specialize (H1 Hr). split; intros Hr2.
    - apply uscan_app. exists st1. split; [done|]. apply H3. intros ->. done.
    - eapply uhalts_app; [exact H1|]. apply H4. destruct r2; try done. }
  destruct r1; try (by apply Hg). by split.
Qed.

Scheme UProg_mind := Induction for UProg Sort Prop
with UAction_mind := Induction for UAction Sort Prop.
Combined Scheme u_mutind from UProg_mind, UAction_mind.

Lemma u_accepted : (forall p st, accepted st (run_u E c p st)) /\ (forall a, action_takes (do_u E c a)).
Proof.
  apply u_mutind.
  - intros [e|] st; by apply accepted_here.
  - intros v st; by apply accepted_here.
  - intros st; by apply accepted_here.
  - intros f k IH st. cbn [run_u]. eapply accepted_tell; [constructor|apply IH].
  - intros b k IH st. cbn [run_u]. apply accepted_then; [apply command_accepted|intros; apply IH].
  - intros m opts k IH st. cbn [run_u]. apply accepted_then; [by apply engine_accepted|intros; apply IH].
  - intros opts k IH st. cbn [run_u]. apply accepted_then; [by apply engine_accepted|intros; apply IH].
  - intros k IH st. cbn [run_u]. eapply accepted_tell; [constructor|apply IH].
  - intros k IH st. cbn [run_u]. apply IH.
  - intros t k IH st. cbn [run_u]. eapply accepted_tell; [constructor|apply IH].
  - intros opts k IH st. cbn [run_u]. eapply accepted_tell; [constructor|apply IH].
  - intros k IH st. cbn [run_u]. eapply accepted_tell; [constructor|apply IH].
  - intros i k IH st. cbn [run_u]. eapply accepted_tell; [constructor|apply IH].
  - intros p IHp q IHq k IH st. rewrite run_try. apply accepted_then; [by apply deferring_accepted|intros; apply IH].
  - intros a Ha k IH st. cbn [run_u]. apply accepted_then; [by apply prepare_accepted|intros; apply IH].
  - intros a Ha e k IH st. cbn [run_u]. apply accepted_then; [by apply expect_accepted|intros; apply IH].
  - intros names b k IH st. cbn [run_u]. assert (H := enable_accepted names b st).
    destruct (enable_handlers _ _ _ _) as [[st1 evs1] v]. apply accepted_then; [exact H|intros; apply IH].
  - intros pats b k IH st. cbn [run_u]. assert (H := like_accepted pats b st).
    destruct (enable_handlers_like _ _ _ _ _) as [[st1 evs1] v]. apply accepted_then; [exact H|intros; apply IH].
  - intros x k IH st. cbn [run_u]. eapply accepted_tell; [constructor|apply IH].
  - intros k s f do IH extra st Hx. rewrite do_u_eq. specialize (IH (action_options extra st) st).
    destruct (run_u _ _ _ _) as [[st1 evs1] r1]. destruct IH as [H1 H2].
    assert (Hd : UStep st (VDo k (action_options extra st)) st) by (by apply us_do).
    split; intros Hr.
    + econstructor; [exact Hd|]. apply uscan_app. exists st1. split; [by apply H1|]. destruct r1; try done; apply uscan_one; constructor.
    + subst r1. rewrite app_nil_r. apply (uhalts_app _ [VDo k (action_options extra st)] st); [by apply uscan_one|by apply H2].
Qed.
End Scan.
