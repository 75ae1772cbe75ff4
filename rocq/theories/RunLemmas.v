(** * Lemmas on runs. *)
From Verif Require Import RunSpec.

Section Run.
Context {P : Params}.

Lemma apply_opts_now c oo opts oo' :
  apply_opts c oo opts = inl oo' -> oo_now oo' = default (oo_now oo) (chosen_time opts).
Proof.
  revert oo. induction opts as [|opt opts IH]; intros oo H; cbn in H; [by inversion H|].
  destruct (apply_opt c oo opt) as [oo1|] eqn:E; [|done]. apply IH in H. rewrite H.
  destruct opt; cbn in E |- *.
  - by inversion E.
  - by inversion E.
  - destruct (controllers c !! name); [by inversion E | done].
  - inversion E; subst. cbn. by destruct (chosen_time opts).
Qed.

Lemma e_tick_now c o fuel order opts st st' f fs r :
  e_tick c o fuel order opts st = (st', f :: fs, r) ->
  exists et eh, f = TickCycleBegun (default (o_wall o) (chosen_time opts)) et eh.
Proof.
  unfold e_tick. destruct (new_opts c (o_wall o) opts) as [oo|] eqn:E; [|by intros [= ]].
  assert (oo_now oo = default (o_wall o) (chosen_time opts)) as <-.
  { unfold new_opts in E. by apply apply_opts_now in E. }
  destruct (lock o (es_g st)) as [g [e|]].
  - intros [= _ <- _]. eauto.
  - destruct (e_tick_body c o oo fuel order (es_set_g st g)) as [[st1 fs1] [errs|v|]]; intros [= _ <- _ _]; eauto.
Qed.

(** The shape of the observations. *)
Lemma run_loop_shape c start t scale opts steps st st' evs res :
  run_loop c start t scale opts steps st = (st', evs, res) ->
  match res with
  | RunReturns e => exists l x, evs = l ++ [x] /\ Forall fine l /\ failure x = Some e
  | RunPanics v => exists l fs, evs = l ++ [RvTick fs (Pan v)] /\ Forall fine l
  | RunGoesOn => Forall fine evs /\ length (filter (fun e => is_tick e = true) evs) = length steps \/
                 exists l fs, evs = l ++ [RvTick fs Fuel] /\ Forall fine l
  end.
Proof.
  revert st st' evs res. induction steps as [|s steps IH]; intros st st' evs res H; cbn in H.
  { inversion H; subst. left. split; [constructor | done]. }
  destruct (e_tick c (rs_o s) (rs_fuel s) (rs_order s) (OptNow (t + scale (rs_clock s - start)%Z)%Z :: opts) st)
    as [[st1 fs] r] eqn:Et.
  destruct r as [[|e es]|v|].
  - destruct (rs_sleep s) as [e|] eqn:Es.
    + inversion H; subst. exists [RvTick fs (Ok [])], (RvSleep (Some e)). split; [done|]. split; [by repeat constructor | done].
    + destruct (run_loop c start t scale opts steps st1) as [[st2 evs2] res2] eqn:Er. inversion H; subst.
      specialize (IH _ _ _ _ Er). destruct res.
      * destruct IH as (l & x & -> & Hl & Hx). exists (RvTick fs (Ok []) :: RvSleep None :: l), x. split; [done|].
        split; [by repeat constructor | done].
      * destruct IH as (l & fs' & -> & Hl). exists (RvTick fs (Ok []) :: RvSleep None :: l), fs'. split; [done|]. by repeat constructor.
      * destruct IH as [[Hl Hn]|(l & fs' & -> & Hl)].
        -- left. split; [by repeat constructor|]. rewrite filter_cons_True, filter_cons_False by done. cbn. by rewrite Hn.
        -- right. exists (RvTick fs (Ok []) :: RvSleep None :: l), fs'. split; [done|]. by repeat constructor.
  - inversion H; subst. exists [], (RvTick fs (Ok (e :: es))). split; [done|]. split; [constructor | done].
  - inversion H; subst. by exists [], fs.
  - inversion H; subst. right. by exists [], fs.
Qed.

(** The i-th tick is performed with the environment of the i-th iteration. *)
Lemma run_loop_ticks c start t scale opts steps st st' evs res i fs r :
  run_loop c start t scale opts steps st = (st', evs, res) ->
  filter (fun e => is_tick e = true) evs !! i = Some (RvTick fs r) ->
  exists s st1 st2, steps !! i = Some s /\
    e_tick c (rs_o s) (rs_fuel s) (rs_order s) (OptNow (t + scale (rs_clock s - start)%Z)%Z :: opts) st1 = (st2, fs, r).
Proof.
  revert st st' evs res i. induction steps as [|s steps IH]; intros st st' evs res i H Hi; cbn in H.
  { inversion H; subst. done. }
  destruct (e_tick c (rs_o s) (rs_fuel s) (rs_order s) (OptNow (t + scale (rs_clock s - start)%Z)%Z :: opts) st)
    as [[st1 fs1] r1] eqn:Et.
  assert (Hfirst : forall evs', evs = RvTick fs1 r1 :: evs' -> i = 0 ->
    exists s' st1 st2, (s :: steps) !! i = Some s' /\
      e_tick c (rs_o s') (rs_fuel s') (rs_order s') (OptNow (t + scale (rs_clock s' - start)%Z)%Z :: opts) st1 = (st2, fs, r)).
  { intros evs' -> ->. rewrite filter_cons_True in Hi by done. cbn in Hi. inversion Hi; subst. exists s, st, st1. done. }
  destruct r1 as [[|e es]|v|].
  - destruct (rs_sleep s) as [e|] eqn:Es.
    + inversion H; subst. destruct i; [by eapply Hfirst|].
      rewrite filter_cons_True, filter_cons_False in Hi; done.
    + destruct (run_loop c start t scale opts steps st1) as [[st2 evs2] res2] eqn:Er. inversion H; subst.
      destruct i as [|i]; [by eapply Hfirst|].
      rewrite filter_cons_True, filter_cons_False in Hi by done. cbn in Hi. eapply IH; [exact Er | exact Hi].
  - inversion H; subst. destruct i; [by eapply Hfirst|]. rewrite filter_cons_True in Hi; done.
  - inversion H; subst. destruct i; [by eapply Hfirst|]. rewrite filter_cons_True in Hi; done.
  - inversion H; subst. destruct i; [by eapply Hfirst|]. rewrite filter_cons_True in Hi; done.
Qed.

Lemma C70_time_lemma c start scale epoch opts steps st st' evs res i f fs r :
  run_time_scaled c start scale epoch opts steps st = (st', evs, res) ->
  filter (fun e => is_tick e = true) evs !! i = Some (RvTick (f :: fs) r) ->
  exists s et eh, steps !! i = Some s /\
    f = TickCycleBegun (match chosen_time opts with
                        | Some t => t
                        | None => (default start epoch + scale (rs_clock s - start))%Z
                        end) et eh.
Proof.
  intros H Hi. destruct (run_loop_ticks _ _ _ _ _ _ _ _ _ _ _ _ _ H Hi) as (s & st1 & st2 & Hs & Ht).
  apply e_tick_now in Ht. destruct Ht as (et & eh & ->). exists s, et, eh. split; [done|]. cbn.
  by destruct (chosen_time opts).
Qed.

(** Ticks and sleeps alternate. *)
Lemma run_loop_alternates c start t scale opts steps st st' evs res i x :
  run_loop c start t scale opts steps st = (st', evs, res) -> evs !! i = Some x -> is_tick x = Nat.even i.
Proof.
  revert st st' evs res i. induction steps as [|s steps IH]; intros st st' evs res i H Hi; cbn in H.
  { inversion H; subst. done. }
  destruct (e_tick c (rs_o s) (rs_fuel s) (rs_order s) (OptNow (t + scale (rs_clock s - start)%Z)%Z :: opts) st)
    as [[st1 fs1] r1] eqn:Et.
  destruct r1 as [[|e es]|v|].
  - destruct (rs_sleep s) as [e|] eqn:Es.
    + inversion H; subst. destruct i as [|[|i]]; cbn in Hi; [by inversion Hi | by inversion Hi | done].
    + destruct (run_loop c start t scale opts steps st1) as [[st2 evs2] res2] eqn:Er. inversion H; subst.
      destruct i as [|[|i]]; cbn in Hi; [by inversion Hi | by inversion Hi |]. cbn. by eapply IH.
  - inversion H; subst. destruct i; [by inversion Hi | done].
  - inversion H; subst. destruct i; [by inversion Hi | done].
  - inversion H; subst. destruct i; [by inversion Hi | done].
Qed.

(** Tick always records a fact before it can fail. *)
Lemma e_tick_facts c o fuel order opts st st' fs e es :
  e_tick c o fuel order opts st = (st', fs, Ok (e :: es)) -> fs <> [].
Proof.
  unfold e_tick. destruct (new_opts c (o_wall o) opts) as [oo|]; [|by intros [= ]].
  destruct (lock o (es_g st)) as [g [e'|]]; [by intros [= _ <- _]|].
  destruct (e_tick_body c o oo fuel order (es_set_g st g)) as [[st1 fs1] [errs|v|]]; by intros [= _ <- _].
Qed.

(** The run is a sequence of calls of Tick. *)
Lemma run_loop_ops c start t scale opts steps st st' evs res :
  run_loop c start t scale opts steps st = (st', evs, res) ->
  (run_ops c ((fun s => OpTick (rs_o s) (rs_fuel s) (rs_order s) (OptNow (t + scale (rs_clock s - start)%Z)%Z :: opts))
                <$> take (length (filter (fun e => is_tick e = true) evs)) steps) st).1 =
  (st', evs ≫= (fun e => match e with RvTick fs _ => EvFact <$> fs | _ => [] end)).
Proof.
  revert st st' evs res. induction steps as [|s steps IH]; intros st st' evs res H; cbn in H.
  { inversion H; subst. by rewrite take_nil. }
  destruct (e_tick c (rs_o s) (rs_fuel s) (rs_order s) (OptNow (t + scale (rs_clock s - start)%Z)%Z :: opts) st)
    as [[st1 fs] r] eqn:Et.
  destruct r as [[|e es]|v|].
  - destruct (rs_sleep s) as [e|] eqn:Es.
    + inversion H; subst. rewrite filter_cons_True, filter_cons_False, filter_nil by done. cbn. rewrite take_0. cbn.
      by rewrite Et.
    + destruct (run_loop c start t scale opts steps st1) as [[st2 evs2] res2] eqn:Er. inversion H; subst.
      rewrite filter_cons_True, filter_cons_False by done. cbn. rewrite Et. specialize (IH _ _ _ _ Er).
      destruct (run_ops c _ st1) as [[st3 evs3] fin] eqn:Eo. cbn in IH |- *. inversion IH; subst. done.
  - inversion H; subst. rewrite filter_cons_True, filter_nil by done. cbn. rewrite take_0. cbn. by rewrite Et.
  - inversion H; subst. rewrite filter_cons_True, filter_nil by done. cbn. rewrite take_0. cbn. by rewrite Et.
  - inversion H; subst. rewrite filter_cons_True, filter_nil by done. cbn. rewrite take_0. cbn. rewrite Et. by rewrite app_nil_r.
Qed.
End Run.
