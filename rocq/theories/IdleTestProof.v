(** * Advancing a test twice to the same time. *)
From Verif Require Import IdleSpec IdleProof ShareProof TestSpec TestLemmas TestProof TestTimeProof EngineFacts OpFacts.

Section IdleTest.
Context {P : Params}.

Lemma engine_ops_mem op l : op ∈ engine_ops l -> (exists fs, TvOp op fs ∈ l) \/ exists f, op = OpUser f.
Proof.
  unfold engine_ops. intros H. apply elem_of_list_omap in H as (ev & Hev & H). destruct ev; try discriminate; injection H as <-; eauto.
Qed.

Lemma twice_lemma E app u wall topts p st evs r l1 op1 fs1 l2 op2 fs2 l3 err et eh err' et' eh' l0 k l' m0 k' m' :
  testing E app u wall topts p st evs r -> evs = l1 ++ TvOp op1 fs1 :: l2 ++ TvOp op2 fs2 :: l3 -> tame topts ->
  let clock := clock_at (start_time wall topts) in
  TickCycleCompleted err et eh ∈ fs1 -> (forall s, ECtx s ∉ err) -> in_action l1 l0 k l' ->
  TickCycleCompleted err' et' eh' ∈ fs2 -> (forall s, ECtx s ∉ err') -> in_action (l1 ++ TvOp op1 fs1 :: l2) m0 k' m' ->
  clock (l1 ++ TvOp op1 fs1 :: l2) = clock l1 ->
  (forall op fs, TvOp op fs ∈ l2 -> (clock l1 <= op_now op)%Z) ->
  (forall h, h ∈ app -> test_skips m0 h = None -> test_skips l0 h = None) ->
  dispatched fs2 = [] /\ err' = [].
Proof.
  intros Ht He Hu clock Hf1 Herr1 Hin1 Hf2 Herr2 Hin2 Hclk Hops Hsk.
  assert (He2 : evs = (l1 ++ TvOp op1 fs1 :: l2) ++ TvOp op2 fs2 :: l3) by (rewrite <- app_assoc; exact He).
  destruct (test_op_from _ _ _ _ _ _ _ _ _ _ _ _ _ Ht He) as (e1 & e1' & res1 & Hh1 & Hop1 & Hrun1 & x0 & xk & x' & obs1 & Hx1 & Hk1).
  destruct (test_op_opts _ _ _ _ _ _ _ _ _ _ _ _ _ Ht He Hu) as (y0 & yk & y' & Hy1 & _ & _ & Hs1).
  destruct (in_action_unique _ _ _ _ _ _ _ Hin1 Hx1) as (<- & <- & <-). destruct (in_action_unique _ _ _ _ _ _ _ Hin1 Hy1) as (<- & <- & <-).
  destruct (test_op_from _ _ _ _ _ _ _ _ _ _ _ _ _ Ht He2) as (e2 & e2' & res2 & Hh2 & Hop2 & Hrun2 & z0 & zk & z' & obs2 & Hx2 & Hk2).
  destruct (test_op_opts _ _ _ _ _ _ _ _ _ _ _ _ _ Ht He2 Hu) as (w0 & wk & w' & Hy2 & _ & _ & Hs2).
  destruct (in_action_unique _ _ _ _ _ _ _ Hin2 Hx2) as (<- & <- & <-). destruct (in_action_unique _ _ _ _ _ _ _ Hin2 Hy2) as (<- & <- & <-).
  assert (Hr1 : reachable (test_config app) e1) by (by exists u, (engine_ops l1), (EvFact <$> engine_facts l1)).
  assert (Hr2 : reachable (test_config app) e2) by (eexists u, _, _; exact Hh2).
  destruct (tick_completes _ _ _ _ _ _ _ _ _ Hr1 Hop1 Hrun1 Hf1 Herr1) as (Hunc1 & o1 & fuel1 & order1 & opts1 & -> & _).
  destruct (tick_completes _ _ _ _ _ _ _ _ _ Hr2 Hop2 Hrun2 Hf2 Herr2) as (Hunc2 & o2 & fuel2 & order2 & opts2 & -> & _).
  assert (Ht1 : op_time o1 opts1 = clock l1).
  { destruct k; [by destruct Hk1 as (? & ? & ? & ?)| |by destruct Hk1 as (? & ? & ? & ?)].
    destruct Hk1 as (? & ? & ? & Hk1). change (op_now (OpTick o1 fuel1 order1 opts1) = clock l1). rewrite Hk1. cbn [op_now]. unfold op_time. by rewrite last_opt_app. }
  assert (Ht2 : op_time o2 opts2 = clock (l1 ++ TvOp (OpTick o1 fuel1 order1 opts1) fs1 :: l2)).
  { destruct k'; [by destruct Hk2 as (? & ? & ? & ?)| |by destruct Hk2 as (? & ? & ? & ?)].
    destruct Hk2 as (? & ? & ? & Hk2). change (op_now (OpTick o2 fuel2 order2 opts2) = clock (l1 ++ TvOp (OpTick o1 fuel1 order1 opts1) fs1 :: l2)). rewrite Hk2. cbn [op_now]. unfold op_time. by rewrite last_opt_app. }
  assert (Hp1 : performs (test_config app) e1 (OpTick o1 fuel1 order1 opts1) e1' fs1 res1).
  { split; [done|]. split; [done|]. split; [done|]. intros ->. inversion Hf1. }
  assert (Hp2 : performs (test_config app) e2 (OpTick o2 fuel2 order2 opts2) e2' fs2 res2).
  { split; [done|]. split; [done|]. split; [done|]. intros ->. inversion Hf2. }
  assert (Heo : engine_ops (l1 ++ TvOp (OpTick o1 fuel1 order1 opts1) fs1 :: l2) = engine_ops l1 ++ OpTick o1 fuel1 order1 opts1 :: engine_ops l2).
  { unfold engine_ops. rewrite omap_app. done. }
  destruct Hh1 as (_ & _ & Hrops1). destruct Hh2 as (_ & Hok2 & Hrops2). rewrite Heo in Hok2, Hrops2.
  apply Forall_app in Hok2 as [_ Hok2]. apply Forall_cons in Hok2 as [_ Hok2].
  rewrite (run_ops_app _ _ _ _ _ _ Hrops1) in Hrops2. cbn [run_ops] in Hrops2. rewrite Hrun1 in Hrops2.
  destruct Hunc1 as (errs1 & -> & Hnc1).
  destruct (run_ops (test_config app) (engine_ops l2) e1') as [[e3 evs3] fin3] eqn:E3. injection Hrops2 as -> _ ->.
  destruct (C108_twice_lemma _ _ _ _ _ _ _ _ _ (engine_ops l2) e2 evs3 o2 fuel2 order2 opts2 e2' fs2 res2 Hp1 (ex_intro _ errs1 (conj eq_refl Hnc1)) E3 Hok2) as (_ & Hd & Hres).
  - apply Forall_forall. intros op Hop. apply engine_ops_mem in Hop as [[fs Hop]|[f ->]]; [|done].
    unfold not_before. rewrite Ht1. specialize (Hops op fs Hop). destruct op; done.
  - exact Hp2.
  - rewrite Ht1, Ht2, Hclk. done.
  - intros h Hh Hs. specialize (Hsk h Hh). specialize (Hs1 h). specialize (Hs2 h). cbn [op_opts] in Hs1, Hs2. rewrite Hs1. apply Hsk. by rewrite <- Hs2.
  - split; [done|]. destruct Hres as [[-> (et0 & eh0 & ->)]|[x ->]].
    + apply elem_of_cons in Hf2 as [?|Hf2]; [done|]. apply elem_of_app in Hf2 as [Hf2|Hf2].
      * exfalso. clear -Hf2. unfold uneventful in Hf2. apply elem_of_list_In, in_concat in Hf2 as (l & Hl & Hf2).
        apply elem_of_list_In, elem_of_list_fmap in Hl as (h & -> & _). apply elem_of_list_In in Hf2.
        destruct (skipped opts2 h); repeat (apply elem_of_cons in Hf2 as [?|Hf2]; [done|]); inversion Hf2.
      * apply elem_of_list_singleton in Hf2. congruence.
    + destruct Hunc2 as (? & [= <-] & Hx). apply Forall_cons in Hx as [Hx _]. destruct Hx. by exists x.
Qed.
End IdleTest.
