(** * Commands executed through the executor of a test, and the nesting of actions. *)
From Verif Require Export ActScan.
From Verif Require Import ActRefine.

Section Exec.
Context {P : Params}.
Context (E : TEnv) (c : Config).

Definition bd_after (bd : option (list OOpt)) (l : list UEv) : option (list OOpt) :=
  foldl (fun b ev => match ev with VBind opts => Some opts | VUnbind => None | _ => b end) bd l.

Lemma dispatches_app b opts l l' : dispatches b opts l -> dispatches b opts (l ++ l').
Proof. intros (o & fuel & fs & m & ->). do 4 eexists. reflexivity. Qed.

Lemma exec_ok_app l : forall bd ic l',
  exec_ok bd ic l -> exec_ok (bd_after bd l) (u_interceptor ic l) l' -> exec_ok bd ic (l ++ l').
Proof.
  induction l as [|ev l IH]; intros bd ic l' H1 H2; [done|].
  destruct ev as [[]| | | | | | | |]; cbn in *; try (by apply IH).
  destruct H1 as [H1 H3]. split; [|by apply IH]. intros Hi. destruct (H1 Hi) as (opts & Hb & Hd). exists opts. split; [done|by apply dispatches_app].
Qed.

(** Where the state is after events, as far as the executor is concerned. *)
Definition ends_at (st : TState) (evs : list UEv) (st' : TState) : Prop :=
  ts_bound st' = bd_after (ts_bound st) evs /\ ts_icpt st' = u_interceptor (ts_icpt st) evs.
Definition sound (st : TState) (x : Run) : Prop :=
  let '(st', evs, r) := x in
  exec_ok (ts_bound st) (ts_icpt st) evs /\ (r <> AHalt -> ends_at st evs st' /\ u_balanced evs).

Lemma bd_after_app bd l l' : bd_after bd (l ++ l') = bd_after (bd_after bd l) l'.
Proof. apply foldl_app. Qed.
Lemma ic_after_app ic l l' : u_interceptor ic (l ++ l') = u_interceptor (u_interceptor ic l) l'.
Proof. apply foldl_app. Qed.
Lemma bal_app l l' : u_balanced l -> u_balanced l' -> u_balanced (l ++ l').
Proof.
  induction 1 as [|ev l He Hl IH|k opts l m Hl IHl Hm IHm]; intros H'.
  - done.
  - cbn. constructor; auto.
  - cbn. rewrite <- app_assoc. cbn. apply ub_action; auto.
Qed.
Lemma ends_app st l st1 l' st2 : ends_at st l st1 -> ends_at st1 l' st2 -> ends_at st (l ++ l') st2.
Proof. intros [H1 H2] [H3 H4]. split; [by rewrite bd_after_app, <- H1|by rewrite ic_after_app, <- H2]. Qed.

Lemma sound_here st r : sound st (st, [], r).
Proof. split; [done|]. intros _. split; [done|constructor]. Qed.
Lemma sound_app st st1 l1 st2 l2 r1 r2 :
  sound st (st1, l1, r1) -> r1 <> AHalt -> sound st1 (st2, l2, r2) -> sound st (st2, l1 ++ l2, r2).
Proof.
  intros [H1 H2] Hr [H3 H4]. destruct (H2 Hr) as [[Hb Hi] Hbal]. split.
  - apply exec_ok_app; [done|]. by rewrite <- Hb, <- Hi.
  - intros Hr2. destruct (H4 Hr2) as [He2 Hbal2]. split; [|by apply bal_app]. eapply ends_app; [|exact He2]. by split.
Qed.
Lemma sound_tell st ev st' x :
  match ev with VT (TvExecute _) | VDo _ _ | VDid _ => False | _ => True end -> ends_at st [ev] st' ->
  sound st' x -> sound st (tell ev x).
Proof.
  intros Hev He Hx. destruct x as [[st2 l2] r2]. apply (sound_app st st' [ev] st2 l2 AOk r2); [|done|exact Hx].
  split; [destruct ev as [[]| | | | | | | |]; done|]. intros _. split; [done|]. constructor; [destruct ev as [[]| | | | | | | |]; done|constructor].
Qed.
Lemma sound_res st st' evs r r' : sound st (st', evs, r) -> (r = AHalt -> r' = AHalt) -> sound st (st', evs, r').
Proof. intros [H1 H2] Hr. split; [done|]. intros Hr'. apply H2. intros ->. by apply Hr', Hr. Qed.
Lemma sound_then st x k :
  sound st x -> (forall y st1, sound st1 (k y st1)) -> sound st (x_then x k).
Proof.
  intros Hx Hk. destruct x as [[st1 evs1] r1]. unfold x_then. destruct (x_res r1) as [y|] eqn:Ey; [|done].
  specialize (Hk y st1). destruct (k y st1) as [[st2 evs2] r2]. eapply sound_app; [exact Hx|by intros ->|done].
Qed.

(** Events of TestModel that are not about the executor or actions. *)
Definition dull (ev : TEv) : Prop := match ev with TvExecute _ | TvDo _ | TvDid _ => False | _ => True end.
Lemma dull_sound st st' evs r : Forall dull evs -> ts_bound st' = ts_bound st -> ts_icpt st' = ts_icpt st -> sound st (st', VT <$> evs, r).
Proof.
  intros Hd Hb Hi.
  assert (H : exec_ok (ts_bound st) (ts_icpt st) (VT <$> evs) /\ u_balanced (VT <$> evs) /\
    bd_after (ts_bound st) (VT <$> evs) = ts_bound st /\ u_interceptor (ts_icpt st) (VT <$> evs) = ts_icpt st).
  { generalize (ts_bound st), (ts_icpt st). intros bd ic. induction Hd as [|ev l He Hl IH]; [split; [done|split; [constructor|done]]|].
    rewrite fmap_cons. destruct IH as (H1 & H2 & H3 & H4). split; [destruct ev; done|]. split; [constructor; done|]. done. }
  destruct H as (H1 & H2 & H3 & H4). split; [done|]. intros _. split; [|done]. split; congruence.
Qed.

Lemma engine_sound mk st : sound st (lift (engine_op E c mk st)).
Proof.
  unfold engine_op. destruct (run_op _ _ _) as [[es ev] res]. apply dull_sound; [|done..]. by repeat constructor.
Qed.
Lemma engine_dull mk st st' evs r : engine_op E c mk st = (st', evs, r) -> Forall dull evs /\ ts_bound st' = ts_bound st /\ ts_icpt st' = ts_icpt st.
Proof. unfold engine_op. destruct (run_op _ _ _) as [[es ev] res]. intros [= <- <- <-]. split; [by repeat constructor|done]. Qed.
Lemma icpt_dull opts p : forall st st' evs r, run_icpt E c opts p st = (st', evs, r) ->
  Forall dull evs /\ ts_bound st' = ts_bound st /\ ts_icpt st' = ts_icpt st.
Proof.
  induction p as [[e|]|v|f k IH|b k IH]; intros st st' evs r; cbn [run_icpt].
  - by intros [= <- <- <-].
  - by intros [= <- <- <-].
  - by intros [= <- <- <-].
  - destruct (run_icpt _ _ _ _ _) as [[st1 evs1] r1] eqn:Er. intros [= <- <- <-]. apply IH in Er as (H1 & H2 & H3).
    split; [by constructor|]. done.
  - destruct (engine_execute _ _ _ _ _) as [[st1 evs1] r1] eqn:Ex. apply engine_dull in Ex as (H1 & H2 & H3).
    destruct (x_res r1) as [x|] eqn:Exr; [|by intros [= <- <- <-]].
    destruct (run_icpt _ _ _ _ _) as [[st2 evs2] r2] eqn:Er. intros [= <- <- <-]. apply IH in Er as (H4 & H5 & H6).
    split; [by apply Forall_app|]. split; congruence.
Qed.

Lemma execute_sound st b st1 evs1 r :
  sound st (st1, VT <$> evs1, r) ->
  (ts_icpt st = None -> exists opts, ts_bound st = Some opts /\ dispatches b opts (VT <$> evs1)) ->
  sound st (st1, VT <$> TvExecute b :: evs1, r).
Proof.
  intros [H1 H2] Hd. rewrite fmap_cons. split; [cbn; by split|]. intros Hr. destruct (H2 Hr) as [[He1 He2] Hb].
  split; [by split|]. by constructor.
Qed.
Lemma command_sound b st : sound st (lift (execute_command E c b st)).
Proof.
  unfold execute_command. destruct (ts_bound st) as [opts|] eqn:Eb.
  - destruct (ts_icpt st) as [i|] eqn:Ei.
    + destruct (run_icpt _ _ _ _ _) as [[st1 evs1] r1] eqn:Er. apply icpt_dull in Er as (H1 & H2 & H3).
      apply execute_sound; [by apply dull_sound|congruence].
    + destruct (engine_execute _ _ _ _ _) as [[st1 evs1] r1] eqn:Er. assert (Hd := Er). apply engine_dull in Er as (H1 & H2 & H3).
      apply execute_sound; [by apply dull_sound|]. intros _. exists opts. split; [done|].
      unfold engine_execute, engine_op in Hd. destruct (run_op _ _ _) as [[es ev] res]. injection Hd as <- <- <-. by do 4 eexists.
  - apply (dull_sound st st [TvOutside b]); [by repeat constructor|done..].
Qed.

Lemma enable_dull names b : forall st st' evs v, enable_handlers c names b st = (st', evs, v) ->
  Forall dull evs /\ ts_bound st' = ts_bound st /\ ts_icpt st' = ts_icpt st.
Proof.
  induction names as [|n names IH]; intros st st' evs v; cbn [enable_handlers]; [by intros [= <- <- <-]|].
  destruct (controllers c !! n) as [h|]; [|by intros [= <- <- <-]].
  destruct (b && h_disabled h); [by intros [= <- <- <-]|].
  destruct (enable_handlers _ _ _ _) as [[st1 evs1] v1] eqn:Er. intros [= <- <- <-]. apply IH in Er as (H1 & H2 & H3).
  split; [by constructor|]. done.
Qed.
Lemma like_dull pats b st st' evs v : enable_handlers_like E c pats b st = (st', evs, v) ->
  Forall dull evs /\ ts_bound st' = ts_bound st /\ ts_icpt st' = ts_icpt st.
Proof.
  unfold enable_handlers_like. destruct (match_handlers c pats []) as [names|w]; intros [= <- <- <-]; [|done].
  split; [|done]. apply Forall_forall. intros x Hx. apply elem_of_list_In, in_map_iff in Hx as (n & <- & _). done.
Qed.

Lemma fatal_sound st st1 evs r e :
  sound st (st1, evs, r) -> r <> AHalt -> sound st (let '(st2, evs', r') := u_fatal E e st1 in (st2, evs ++ evs', r')).
Proof.
  intros Ha Hr. cbn. eapply sound_app; [exact Ha|done|]. apply (dull_sound st1 (set_failed st1) [TvFatal e]); [by repeat constructor|done..].
Qed.

Definition action_sound (act : list OOpt -> TState -> Run) : Prop := forall opts st, sound st (act opts st).

Lemma prepare_sound a act st : action_sound act -> sound st (u_prepare E a act st).
Proof.
  intros Ha. unfold u_prepare. destruct (ua_caption a) as [s|v]; [|by apply sound_here].
  assert (H := sound_tell st (VHeading s None) st _ I ltac:(done) (Ha (action_options [] st) st)).
  destruct (tell _ _) as [[st1 evs1] r1]. destruct r1; try exact H. by apply fatal_sound with (r := AErr e).
Qed.

Lemma expect_sound a act e st : action_sound act -> sound st (u_expect E c a act e st).
Proof.
  intros Ha. unfold u_expect. set (o := mkPO _ _).
  assert (Hc : forall r, sound st (st, [VConfigure o], r)) by (intros r; apply (sound_tell st (VConfigure o) st (st, [], r)); [done..|apply sound_here]).
  destruct (ua_conf a o) as [o'|v]; [|apply Hc]. destruct (ua_caption a) as [s|v]; [|apply Hc].
  set (pre := [VConfigure o; VHeading s (Some e)]).
  assert (Hpre : sound st (st, pre, AOk)) by (apply (sound_tell st (VConfigure o) st (tell (VHeading s (Some e)) (st, [], AOk))); [done..|];
    apply sound_tell with st; [done..|apply sound_here]).
  destruct (new_predicate _ _) as [p|er]; [|by apply (fatal_sound st st pre AOk)].
  specialize (Ha (action_options [OptObserver (ts_next st)] st) (set_next (S (ts_next st)) st)).
  destruct (act _ _) as [[st1 evs1] r1].
  assert (H1 : sound st (st1, pre ++ VT TvPredicate :: evs1, r1)).
  { apply (sound_app st st pre st1 (VT TvPredicate :: evs1) AOk r1); [done..|].
    apply (sound_tell st (VT TvPredicate) (set_next (S (ts_next st)) st) (st1, evs1, r1)); done. }
  assert (Hone : forall ev st2 r2, dull ev -> ts_bound st2 = ts_bound st1 -> ts_icpt st2 = ts_icpt st1 -> sound st1 (st2, [VT ev], r2)).
  { intros ev st2 r2 Hd Hb Hi. apply (dull_sound st1 st2 [ev]); [by repeat constructor|done..]. }
  assert (H2 : r1 <> AHalt -> forall r2, sound st (st1, pre ++ VT TvPredicate :: evs1 ++ [VT TvFinal], r2)).
  { intros Hr r2. assert (Hx := sound_app _ _ _ _ _ _ r2 H1 Hr (Hone TvFinal st1 r2 I eq_refl eq_refl)). by rewrite <- app_assoc in Hx. }
  destruct (p_done _) as [q dp].
  assert (H3 : r1 <> AHalt -> forall r2 rep, sound st (st1, (pre ++ VT TvPredicate :: evs1 ++ [VT TvFinal]) ++ [VT (TvReport rep)], r2)).
  { intros Hr r2 rep. eapply sound_app; [by apply (H2 Hr AOk)|done|by apply Hone]. }
  destruct r1; try (destruct dp as [dv|]); try exact H1; try (by apply H2).
  - destruct (p_ok q); [by apply H3|]. eapply sound_app; [by apply (H3 ltac:(done) AOk)|done|by apply Hone].
  - by apply (fatal_sound st st1 _ AOk); [apply H2|].
Qed.

Lemma deferring_sound p q st : (forall st, sound st (p st)) -> (forall st, sound st (q st)) -> sound st (deferring p q st).
Proof.
  intros Hp Hq. unfold deferring. specialize (Hp st). destruct (p st) as [[st1 evs1] r1].
  specialize (Hq st1). destruct (q st1) as [[st2 evs2] r2].
  assert (Hg : r1 <> AHalt -> sound st (st2, evs1 ++ evs2, match r2 with AOk | AErr _ => r1 | _ => r2 end)).
  { intros Hr. eapply sound_app; [exact Hp|done|]. eapply sound_res; [exact Hq|]. by intros ->. }
  destruct r1; try (by apply Hg). done.
Qed.

Lemma u_sound : (forall p st, sound st (run_u E c p st)) /\ (forall a, action_sound (do_u E c a)).
Proof.
  apply u_mutind.
  - intros [e|] st; apply sound_here.
  - intros v st; apply sound_here.
  - intros st; apply sound_here.
  - intros f k IH st. cbn [run_u]. eapply sound_tell; [done| |apply IH]. done.
  - intros b k IH st. cbn [run_u]. apply sound_then; [apply command_sound|intros; apply IH].
  - intros m opts k IH st. cbn [run_u]. apply sound_then; [apply engine_sound|intros; apply IH].
  - intros opts k IH st. cbn [run_u]. apply sound_then; [apply engine_sound|intros; apply IH].
  - intros k IH st. cbn [run_u]. eapply sound_tell; [done| |apply IH]. done.
  - intros k IH st. cbn [run_u]. apply IH.
  - intros t k IH st. cbn [run_u]. eapply sound_tell; [done| |apply IH]. done.
  - intros opts k IH st. cbn [run_u]. eapply sound_tell; [done| |apply IH]. done.
  - intros k IH st. cbn [run_u]. eapply sound_tell; [done| |apply IH]. done.
  - intros i k IH st. cbn [run_u]. eapply sound_tell; [done| |apply IH]. done.
  - intros p IHp q IHq k IH st. rewrite run_try. apply sound_then; [by apply deferring_sound|intros; apply IH].
  - intros a Ha k IH st. cbn [run_u]. apply sound_then; [by apply prepare_sound|intros; apply IH].
  - intros a Ha e k IH st. cbn [run_u]. apply sound_then; [by apply expect_sound|intros; apply IH].
  - intros names b k IH st. cbn [run_u]. destruct (enable_handlers _ _ _ _) as [[st1 evs1] v] eqn:Ee.
    apply enable_dull in Ee as (H1 & H2 & H3). apply sound_then; [by apply dull_sound|intros; apply IH].
  - intros pats b k IH st. cbn [run_u]. destruct (enable_handlers_like _ _ _ _ _) as [[st1 evs1] v] eqn:Ee.
    apply like_dull in Ee as (H1 & H2 & H3). apply sound_then; [by apply dull_sound|intros; apply IH].
  - intros x k IH st. cbn [run_u]. eapply sound_tell; [done| |apply IH]. done.
  - intros k s f do IH opts st. rewrite do_u_eq. specialize (IH opts st).
    destruct (run_u _ _ _ _) as [[st1 evs1] r1]. destruct IH as [H1 H2]. split.
    + cbn. apply exec_ok_app; [done|]. by destruct r1.
    + intros Hr. destruct (H2 Hr) as [[He1 He2] Hb].
      assert ((match r1 with AHalt => [] | _ => [VDid k] end) = [VDid k]) as -> by (destruct r1; done).
      split; [|constructor; [done|constructor]]. split; cbn.
      * unfold bd_after in *. rewrite foldl_app. done.
      * unfold u_interceptor in *. rewrite foldl_app. done.
Qed.
End Exec.
