(** * Isolation, rejected calls, reset, ticks, panics. *)
From Verif Require Import EngineSpec HistSim AggProof ProcProof ProcHist OpProof OpFacts ProcLemmas ProgSim.

Section EngineLemmas.
Context {P : Params}.
Implicit Types (c : Config) (o : Oracle) (h hd : Handler) (st : EState).

(** ** Isolation *)
Lemma untouched_refl i cs : untouched i cs cs.
Proof. destruct cs as [[]|]; done. Qed.
Lemma untouched_trans i a b d : untouched i a b -> untouched i b d -> untouched i a d.
Proof.
  destruct a as [[]|], b as [[]|], d as [[]|]; cbn; try done; try congruence.
  intros [H1 H2] [H3 H4]. split; [congruence|]. rewrite H4. exact H2.
Qed.

Lemma not_named_app (h : HId) i a b : not_named h i (a ++ b) <-> not_named h i a /\ not_named h i b.
Proof. unfold not_named. set_solver. Qed.
Lemma not_named_cons (h : HId) i f b : not_named h i (f :: b) <-> instance_named f <> Some (h, i) /\ not_named h i b.
Proof. unfold not_named. set_solver. Qed.

Lemma mine_delete i j l : i <> j -> mine i (filter (fun e => origin_instance e <> j) l) = mine i l.
Proof.
  intros Hne. unfold mine. induction l as [|e l IH]; [done|]. rewrite !filter_cons.
  destruct (decide (origin_instance e <> j)) as [Ho|Ho]; rewrite ?filter_cons.
  - destruct (decide _); rewrite IH; done.
  - apply dec_stable in Ho. rewrite decide_False; [done|]. unfold instance_of, origin_instance in *.
    destruct (e_origin e); cbn; [|done]. intros [= ?]. congruence.
Qed.
Lemma mine_nil i l : (forall e, e ∈ l -> instance_of e <> Some i) -> mine i l = [].
Proof.
  intros H. unfold mine. induction l as [|e l IH]; [done|]. rewrite filter_cons, decide_False by (apply H; set_solver).
  apply IH. intros; apply H; set_solver.
Qed.

Lemma p_run_pending_origins o h now env i meth p g s g' s' fs res :
  p_run o h now env i meth p g s = (g', s', fs, res) ->
  (forall e, e ∈ ps_pending s -> instance_of e = Some i) ->
  forall e, e ∈ ps_pending s' -> instance_of e = Some i.
Proof.
  revert g s g' s' fs res.
  induction p as [e0|v|f0 k IH|f0 k IH|b k IH|b t k IH|k IH|str k IH]; intros g s g' s' fs res; cbn [p_run].
  - intros [= <- <- <- <-]. done.
  - intros [= <- <- <- <-]. done.
  - intros H. eapply IH. exact H.
  - intros H Hs. eapply IH; [exact H|]. exact Hs.
  - destruct (p_execute _ _ _ _ _ _ _ _ _) as [[[g1 s1] fs1] v1] eqn:E. destruct (p_run _ _ _ _ _ _ _ _ _) as [[[g2 s2] fs2] r2] eqn:E2.
    intros [= <- <- <- <-] Hs. eapply IH; [exact E2|]. unfold p_execute in E. destruct (p_check _ _ _ _); [injection E as <- <- <- <-; done|].
    unfold p_revert in E. destruct (ps_ended s); injection E as <- <- <- <-; exact Hs.
  - destruct (p_schedule _ _ _ _ _ _ _ _ _ _) as [[[g1 s1] fs1] v1] eqn:E. destruct (p_run _ _ _ _ _ _ _ _ _) as [[[g2 s2] fs2] r2] eqn:E2.
    intros [= <- <- <- <-] Hs. eapply IH; [exact E2|]. unfold p_schedule in E. destruct (p_check _ _ _ _); [injection E as <- <- <- <-; done|].
    unfold p_revert in E. destruct (ps_ended s); cbn in E; destruct (now <? t)%Z; injection E as <- <- <- <-; try exact Hs; cbn;
      intros e [He|He%elem_of_list_singleton]%elem_of_app; auto; subst e; done.
  - unfold p_end. destruct (ps_ended s); destruct (p_run _ _ _ _ _ _ _ _ _) as [[[g2 s2] fs2] r2] eqn:E2;
      intros [= <- <- <- <-] Hs; (eapply IH; [exact E2|exact Hs]).
  - destruct (p_run _ _ _ _ _ _ _ _ _) as [[[g2 s2] fs2] r2] eqn:E2. intros [= <- <- <- <-] Hs. eapply IH; [exact E2|exact Hs].
Qed.

Lemma p_handle_isolated o h pi now env g ps g' ps' fs r i :
  sort_ok o -> p_handle o h pi now env g ps = (g', ps', fs, r) -> not_named (h_id h) i fs ->
  untouched i (Some (CSProc ps)) (Some (CSProc ps')).
Proof.
  intros Hsort H Hn. apply p_handle_cases in H. destruct H as [| | | | |g1 id rt pre g' s fs res Hc Hg Hk Hpre Hrun]; try (apply untouched_refl).
  assert (Hne : i <> id).
  { intros ->. apply not_named_app in Hn as [Hn _].
    destruct Hpre as [[_ ->]|(_ & _ & ->)]; apply not_named_cons in Hn as [Hn _]; apply Hn; done. }
  assert (Hpend : mine i (ps_pending s) = []).
  { apply mine_nil. intros e He Hi. pose proof (p_run_pending_origins _ _ _ _ _ _ _ _ _ _ _ _ _ Hrun) as Ho.
    cbn in Ho. specialize (Ho (fun e H => match not_elem_of_nil e H with end) e He). congruence. }
  cbn. unfold p_commit, p_store_mutation, p_delete, p_update.
  destruct res as [[e|]|v].
  - destruct (pc_instances ps !! id); cbn; [rewrite lookup_insert_ne by done|]; done.
  - destruct (ps_ended s).
    + destruct (bool_decide _); [|done]. cbn [pc_instances pc_timeouts]. rewrite lookup_delete_ne by done.
      split; [done|]. rewrite (mine_delete i id _ Hne). done.
    + cbn. rewrite lookup_insert_ne by done. split; [done|]. destruct (Hsort (pc_timeouts ps ++ ps_pending s)) as [Hp _].
      unfold mine in *. rewrite Hp, filter_app, Hpend, app_nil_r. done.
  - destruct (pc_instances ps !! id); cbn; [rewrite lookup_insert_ne by done|]; done.
Qed.

Lemma a_handle_isolated o h a now env g hist g' hist' fs r i :
  a_handle o h a now env g hist = (g', hist', fs, r) -> not_named (h_id h) i fs -> hist' !! i = hist !! i.
Proof.
  intros H Hn. apply a_handle_cases in H. destruct H as [|id r0 rt ex f g' s fs v Hc Hr Hid Hnew Hrep Hex Hf Hrun]; [done|].
  assert (Hne : i <> id).
  { intros ->. apply not_named_cons in Hn as [Hn _]. subst f. destruct ex; done. }
  unfold a_commit. destruct v; [done|]. destruct (as_exists s); [rewrite lookup_insert_ne|rewrite lookup_delete_ne]; done.
Qed.

Lemma e_handle_isolated c o oo env h st st' fs r hd i :
  app_ok c -> h ∈ c_app c -> sort_ok o -> e_handle c o oo env (Some h) st = (st', fs, r) -> hd ∈ c_app c -> not_named (h_id hd) i fs ->
  untouched i (es_cs st !! h_name hd) (es_cs st' !! h_name hd) /\
  (hd <> h -> es_cs st' !! h_name hd = es_cs st !! h_name hd).
Proof.
  intros Hok Hh Hsort H Hin Hn. unfold e_handle in H.
  destruct (skip_handler h oo) as [sr|]; [injection H as <- <- <-; split; [apply untouched_refl|done]|].
  destruct (es_cs st !! h_name h) as [cs|] eqn:El; [|injection H as <- <- <-; split; [apply untouched_refl|done]].
  destruct (ctrl_handle _ _ _ _ _ _ _) as [[[g1 cs1] fs1] r1] eqn:E.
  assert (Hst : es_cs st' = <[h_name h := cs1]> (es_cs st) /\ not_named (h_id hd) i fs1).
  { destruct r1; injection H as <- <- <-; cbn; (split; [done|]).
    - apply not_named_cons in Hn as [_ Hn]. apply not_named_app in Hn as [Hn _]. done.
    - apply not_named_cons in Hn as [_ Hn]. done. }
  destruct Hst as [-> Hn1]. split.
  - destruct (decide (h_name hd = h_name h)) as [He|Hne]; [|rewrite lookup_insert_ne by done; apply untouched_refl].
    assert (hd = h) as -> by (eapply app_name_inj; eassumption).
    rewrite lookup_insert, El. unfold ctrl_handle in E.
    destruct (h_impl h), cs; try (injection E as <- <- <- <-; apply untouched_refl).
    + destruct (a_handle _ _ _ _ _ _ _) as [[[g2 h2] f2] r2] eqn:E2. injection E as <- <- <- <-.
      cbn. eapply a_handle_isolated; eassumption.
    + destruct (p_handle _ _ _ _ _ _ _) as [[[g2 p2] f2] r2] eqn:E2. injection E as <- <- <- <-.
      eapply p_handle_isolated; eassumption.
    + destruct (i_handle _ _ _ _ _ _) as [[g2 f2] r2] eqn:E2. injection E as <- <- <- <-. done.
    + destruct (j_handle _ _ _ _ _ _ _) as [[g2 f2] r2] eqn:E2. injection E as <- <- <- <-. done.
  - intros Hne. rewrite lookup_insert_ne; [done|]. intros He. apply Hne. eapply app_name_inj; eauto.
Qed.

Lemma e_handlers_isolated c o oo env hd i : app_ok c -> sort_ok o -> hd ∈ c_app c -> forall hs st st' fs r,
  (forall h, Some h ∈ hs -> h ∈ c_app c) ->
  e_handlers c o oo env hs st = (st', fs, r) -> not_named (h_id hd) i fs ->
  untouched i (es_cs st !! h_name hd) (es_cs st' !! h_name hd).
Proof.
  intros Hok Hsort Hin. induction hs as [|[h|] hs IH]; intros st st' fs r Happ; cbn [e_handlers].
  - intros [= <- <- <-] _. apply untouched_refl.
  - destruct (e_handle c o oo env (Some h) st) as [[st1 fs1] r1] eqn:E. destruct r1 as [envs e|v].
    + destruct (e_handlers c o oo env hs st1) as [[st2 fs2] r2] eqn:E2.
      intros H Hn. assert (Hf : st' = st2 /\ fs = fs1 ++ fs2) by (destruct r2 as [[? ?]|?]; injection H as <- <- <-; done).
      destruct Hf as [-> ->]. apply not_named_app in Hn as [Hn1 Hn2].
      eapply untouched_trans.
      * eapply (e_handle_isolated c o oo env h); [done|apply Happ; set_solver|done|exact E|done|done].
      * eapply IH; [|exact E2|done]. intros; apply Happ; set_solver.
    + intros [= <- <- <-] Hn. eapply (e_handle_isolated c o oo env h); [done|apply Happ; set_solver|done|exact E|done|done].
  - intros [= <- <- <-] _. apply untouched_refl.
Qed.

Lemma e_loop_isolated c o oo hd i : app_ok c -> sort_ok o -> hd ∈ c_app c -> forall fuel q err st st' fs r,
  e_loop c o oo fuel q err st = (st', fs, r) -> not_named (h_id hd) i fs ->
  untouched i (es_cs st !! h_name hd) (es_cs st' !! h_name hd).
Proof.
  intros Hok Hsort Hin. induction fuel as [|fuel IH]; intros q err st st' fs r; destruct q as [|env q]; cbn [e_loop];
    try (intros [= <- <- <-] _; apply untouched_refl).
  destruct (e_message c o oo env st) as [[st1 fs1] r1] eqn:E.
  assert (Hm : not_named (h_id hd) i fs1 -> untouched i (es_cs st !! h_name hd) (es_cs st1 !! h_name hd)).
  { unfold e_message in E. destruct (targets c env) as [hs|] eqn:Et; [|injection E as <- <- <-; intros; apply untouched_refl].
    destruct (e_handlers c o oo env hs st) as [[st2 fs2] r2] eqn:E2. intros Hn.
    assert (Hf : st1 = st2 /\ not_named (h_id hd) i fs2).
    { destruct r2 as [[? ?]|?]; injection E as <- <- <-; (split; [done|]).
      - apply not_named_cons in Hn as [_ Hn]. apply not_named_app in Hn as [Hn _]. done.
      - apply not_named_cons in Hn as [_ Hn]. done. }
    destruct Hf as [-> Hn2]. eapply e_handlers_isolated; try eassumption. intros h. eapply targets_in; done. }
  destruct r1 as [[envs derr]|v]; [|intros [= <- <- <-]; exact Hm].
  destruct (poll_ctx o (es_g st1)) as [g [ce|]]; [intros [= <- <- <-]; exact Hm|].
  destruct (e_loop c o oo fuel _ _ _) as [[st2 fs2] r2] eqn:E2. intros [= <- <- <-] Hn.
  apply not_named_app in Hn as [Hn1 Hn2]. eapply untouched_trans; [exact (Hm Hn1)|]. eapply IH in E2; [|exact Hn2]. exact E2.
Qed.

Lemma C09_lemma c st o fuel m opts st' fs r hd i :
  performs c st (OpDispatch o fuel m opts) st' fs r -> hd ∈ c_app c -> not_named (h_id hd) i fs ->
  untouched i (es_cs st !! h_name hd) (es_cs st' !! h_name hd).
Proof.
  intros (Hr & Hop & Hrun & Hne) Hin Hn. pose proof (reachable_ok _ _ Hr) as Hok. cbn [op_ok] in Hop. cbn [run_op] in Hrun.
  destruct (e_dispatch c o fuel m opts st) as [[st1 fs1] r1] eqn:E. injection Hrun as <- Hfs ->.
  apply fmap_EvFact_inj in Hfs as ->. unfold e_dispatch in E. destruct (next_id o (es_g st)) as [g id].
  destruct (new_opts c (o_wall o) opts) as [oo|v]; [|injection E as <- <- <-; apply untouched_refl].
  destruct (m_kind m) eqn:Ek; [| |injection E as <- <- <-; apply untouched_refl].
  all: destruct (m_invalid m); [injection E as <- <- <-; apply untouched_refl|].
  all: destruct (routes c !! m_type m); [|injection E as <- <- <-; apply untouched_refl].
  all: cbn zeta in E; destruct (lock o _) as [g' [le|]]; [injection E as <- <- <-; apply untouched_refl|].
  all: destruct (e_loop c o oo fuel _ _ _) as [[st3 fs3] r3] eqn:L.
  all: eapply (e_loop_isolated c o oo hd i Hok Hop Hin) in L.
  all: try (destruct r3; injection E as <- <- <-; exact L).
  all: destruct r3; injection E as <- <- <-; apply not_named_cons in Hn as [_ Hn]; try done; apply not_named_app in Hn as [Hn _]; done.
Qed.

Lemma but_due_of now i cs cs' : untouched i cs cs' -> untouched_but_due now i cs cs'.
Proof.
  destruct cs as [[]|], cs' as [[]|]; cbn; try done. intros [? Hp]. split; [done|]. exists []. cbn. by rewrite Hp.
Qed.
Lemma but_due_trans now i a b d : untouched_but_due now i a b -> untouched_but_due now i b d -> untouched_but_due now i a d.
Proof.
  destruct a as [[]|], b as [[]|], d as [[]|]; cbn; try done; try congruence.
  intros (H1 & g1 & H2 & F1) (H3 & g2 & H4 & F2). split; [congruence|]. exists (g1 ++ g2). split; [|by apply Forall_app].
  rewrite H2, H4. by rewrite app_assoc.
Qed.
Lemma e_tick_one_isolated c o oo h st st' fs r hd i : app_ok c -> h ∈ c_app c -> hd ∈ c_app c ->
  e_tick_one c o oo h st = (st', fs, r) ->
  untouched_but_due (oo_now oo) i (es_cs st !! h_name hd) (es_cs st' !! h_name hd).
Proof.
  intros Hok Hh Hhd. unfold e_tick_one. destruct (skip_handler h oo); [intros [= <- _ _]; apply but_due_of, untouched_refl|].
  destruct (es_cs st !! h_name h) as [cs|] eqn:El; [|intros [= <- _ _]; apply but_due_of, untouched_refl].
  destruct (ctrl_tick h (oo_now oo) (es_g st) cs) as [[[g cs1] fs1] r1] eqn:E. intros H.
  assert (es_cs st' = <[h_name h := cs1]> (es_cs st)) as -> by (destruct r1; injection H as <- _ _; done).
  destruct (decide (h_name hd = h_name h)) as [He|Hne]; [|rewrite lookup_insert_ne by done; apply but_due_of, untouched_refl].
  rewrite He, lookup_insert, El. unfold ctrl_tick in E.
  destruct (h_impl h), cs as [|ps| |]; try (injection E as _ <- _ _; apply but_due_of, untouched_refl).
  - unfold p_tick in E. destruct (p_split (oo_now oo) (pc_timeouts ps)) as [rd rest] eqn:Es. injection E as _ <- _ _. cbn. split; [done|].
    exists (mine i rd). clear H El. revert rd rest Es. induction (pc_timeouts ps) as [|e l IH]; intros rd rest; cbn [p_split].
    + intros [= <- <-]. split; [done|constructor].
    + destruct (oo_now oo <? e_sched e)%Z eqn:Elt; [intros [= <- <-]; split; [done|constructor]|].
      destruct (p_split (oo_now oo) l) as [x y]. intros [= <- <-]. destruct (IH x y eq_refl) as [IH1 IH2].
      unfold mine in *. rewrite !filter_cons. destruct (decide _); [|by split]. split; [by rewrite IH1|]. constructor; [|done]. apply Z.ltb_ge in Elt. done.
  - destruct (j_tick_ctrl _ _ _ _ _) as [[[? ?] ?] ?]. injection E as _ <- _ _. done.
Qed.
Lemma e_tick_handlers_isolated c o oo hd i : app_ok c -> hd ∈ c_app c -> forall hs st st' fs r, (forall h, h ∈ hs -> h ∈ c_app c) ->
  e_tick_handlers c o oo hs st = (st', fs, r) ->
  untouched_but_due (oo_now oo) i (es_cs st !! h_name hd) (es_cs st' !! h_name hd).
Proof.
  intros Hok Hhd. induction hs as [|h hs IH]; intros st st' fs r Hin; cbn [e_tick_handlers].
  - intros [= <- _ _]. apply but_due_of, untouched_refl.
  - destruct (e_tick_one c o oo h st) as [[st1 fs1] r1] eqn:E1. apply (e_tick_one_isolated c o oo h st st1 fs1 r1 hd i Hok ltac:(apply Hin; set_solver) Hhd) in E1.
    destruct r1 as [envs e|v]; [|intros [= <- _ _]; exact E1].
    assert (Hp : es_cs (poll_unless_skipped o oo h st1).1 = es_cs st1).
    { unfold poll_unless_skipped. destruct (skip_handler h oo); [done|]. destruct (poll_ctx _ _). done. }
    destruct (poll_unless_skipped o oo h st1) as [st2 ce]. cbn in Hp. rewrite <- Hp in E1.
    destruct ce; [intros [= <- _ _]; exact E1|].
    destruct (e_tick_handlers c o oo hs st2) as [[st3 fs3] r3] eqn:E3. intros [= <- _ _].
    eapply but_due_trans; [exact E1|]. eapply IH; [|exact E3]. set_solver.
Qed.
Lemma C09_tick_lemma c st o fuel order opts st' fs r hd i now et eh rest :
  performs c st (OpTick o fuel order opts) st' fs r -> fs = TickCycleBegun now et eh :: rest -> hd ∈ c_app c -> not_named (h_id hd) i fs ->
  untouched_but_due now i (es_cs st !! h_name hd) (es_cs st' !! h_name hd).
Proof.
  intros (Hr & Hop & Hrun & Hne) Hb Hin Hn. pose proof (reachable_ok _ _ Hr) as Hok. cbn [op_ok] in Hop. cbn [run_op] in Hrun.
  destruct (e_tick c o fuel order opts st) as [[st1 fs1] r1] eqn:E. injection Hrun as <- Hfs ->.
  apply fmap_EvFact_inj in Hfs as ->. subst fs. unfold e_tick in E.
  destruct (new_opts c (o_wall o) opts) as [oo|v]; [|done].
  destruct (lock o (es_g st)) as [g [le|]]; [injection E as <- _ _; apply but_due_of, untouched_refl|].
  unfold e_tick_body in E.
  destruct (e_tick_handlers c o oo order (es_set_g st g)) as [[st2 fs2] r2] eqn:E2.
  eapply (e_tick_handlers_isolated c o oo hd i Hok Hin) in E2 as Hu; [|intros h Hh; destruct Hop as [_ Hop]; rewrite Hop in Hh; exact Hh].
  destruct r2 as [q errs|e|v]; [|injection E as <- <- _ _ _; exact Hu..].
  destruct (e_loop c o oo fuel q [] st2) as [[st3 fs3] r3] eqn:E3.
  eapply (e_loop_isolated c o oo hd i Hok (proj1 Hop) Hin) in E3 as Hl.
  - assert (st1 = st3 /\ now = oo_now oo) as [-> ->] by (destruct r3; injection E as <- <- _ _ _; done).
    eapply but_due_trans; [exact Hu|]. apply but_due_of. exact Hl.
  - apply not_named_cons in Hn as [_ Hn]. destruct r3; injection E as _ _ _ _ <- _; [|apply not_named_app in Hn as [_ Hn]; exact Hn..].
    apply not_named_app in Hn as [Hn _]. apply not_named_app in Hn as [_ Hn]. exact Hn.
Qed.

(** ** Rejected calls *)
Lemma C38_lemma c st o fuel m opts :
  app_ok c -> 
  let '(st', evs, r) := run_op c (OpDispatch o fuel m opts) st in
  (rejected c m opts -> evs = [] /\ (exists v, r = Pan v) /\ es_cs st' = es_cs st /\ g_user (es_g st') = g_user (es_g st) /\
     g_next (es_g st') = (g_next (es_g st) + o_skew o (g_step (es_g st)) + 1)%N) /\
  (~ rejected c m opts -> evs <> []).
Proof.
  intros Hok. cbn [run_op]. destruct (e_dispatch c o fuel m opts st) as [[st1 fs1] r1] eqn:E.
  unfold e_dispatch in E. destruct (next_id o (es_g st)) as [g id] eqn:En.
  unfold next_id in En. injection En as <- <-. unfold rejected.
  assert (Hopts := opts_reject c (o_wall o) opts).
  assert (Hrt : routes c !! m_type m = None <-> forall h, h ∈ c_app c -> m_type m ∉ h_consumed h).
  { rewrite routes_lookup. unfold consumers. destruct (filter _ (c_app c)) as [|h l] eqn:Ef.
    - split; [|done]. intros _ h Hin Hc. assert (Hf : h ∈ filter (fun h => m_type m ∈ h_consumed h) (c_app c)) by (apply elem_of_list_filter; done).
      rewrite Ef in Hf. set_solver.
    - split; [done|]. intros Hall. assert (Hf : h ∈ filter (fun h => m_type m ∈ h_consumed h) (c_app c)) by (rewrite Ef; set_solver).
      apply elem_of_list_filter in Hf as [Hf Hin]. destruct (Hall h Hin Hf). }
  destruct (new_opts c (o_wall o) opts) as [oo|v].
  2:{ injection E as <- <- <-. split; [intros _; eauto 10|]. intros Hnr. destruct Hnr. right. right. right. apply Hopts. eauto. }
  assert (Hknown : ~ unknown_handler c opts) by (intros Hu; apply Hopts in Hu as [v [=]]).
  destruct (m_kind m) eqn:Ek.
  3:{ injection E as <- <- <-. split; [intros _; eauto 10|]. intros Hnr. destruct Hnr. auto. }
  all: destruct (m_invalid m); [injection E as <- <- <-; split; [intros _; eauto 10|]; intros Hnr; destruct Hnr; eauto|].
  all: destruct (routes c !! m_type m) as [rt|];
    [|injection E as <- <- <-; split; [intros _; eauto 10|]; intros Hnr; destruct Hnr; right; right; left; apply Hrt; done].
  all: split; [intros [Hr|[[e Hr]|[Hr|Hr]]]; try done; apply Hrt in Hr; done|intros _].
  all: cbn zeta in E; destruct (lock o _) as [g' [le|]]; [injection E as <- <- <-; done|].
  all: destruct (e_loop c o oo fuel _ _ _) as [[st3 fs3] r3] eqn:L; destruct r3; injection E as <- <- <-; done.
Qed.

Lemma C38_tick_lemma c st o fuel order opts :
  let '(st', evs, r) := run_op c (OpTick o fuel order opts) st in
  (unknown_handler c opts -> evs = [] /\ (exists v, r = Pan v) /\ st' = st) /\ (~ unknown_handler c opts -> evs <> []).
Proof.
  cbn [run_op]. destruct (e_tick c o fuel order opts st) as [[st1 fs1] r1] eqn:E. unfold e_tick in E.
  assert (Hopts := opts_reject c (o_wall o) opts).
  destruct (new_opts c (o_wall o) opts) as [oo|v].
  2:{ injection E as <- <- <-. split; [intros _; eauto 10|]. intros Hnr. destruct Hnr. apply Hopts. eauto. }
  split; [intros Hu; apply Hopts in Hu as [v [=]]|intros _].
  destruct (lock o _) as [g' [le|]]; [injection E as <- <- <-; done|].
  destruct (e_tick_body _ _ _ _ _ _) as [[st2 fs2] r2]. destruct r2; injection E as <- <- <-; done.
Qed.

(** ** Reset *)
Lemma C42_lemma c st st' evs r :
  reachable c st -> run_op c OpReset st = (st', evs, r) ->
  r = Ok [] /\ evs = [EvReset] /\ g_next (es_g st') = 0%N /\
  g_user (es_g st') = foldl (fun u hook => hook u) (g_user (es_g st)) (c_resetters c) /\
  (forall h a, h ∈ c_app c -> h_impl h = ImplAgg a -> es_cs st' !! h_name h = Some (CSAgg ∅)) /\
  (forall h p, h ∈ c_app c -> h_impl h = ImplProc p -> es_cs st' !! h_name h = Some (CSProc (mkPState ∅ []))).
Proof.
  intros Hr [= <- <- <-]. split; [done|]. split; [done|]. split; [done|]. split; [done|].
  split; intros h a Hin Hi; destruct (reachable_st_ok _ _ Hr h Hin) as (cs & Hl & Hm); cbn; rewrite lookup_fmap, Hl;
    unfold cs_match in Hm; rewrite Hi in Hm; destruct cs; done.
Qed.

(** ** Ticks *)
Lemma batch_perm skip (taken : Handler -> list Env) a b : a ≡ₚ b -> batch skip taken a ≡ₚ batch skip taken b.
Proof. intros H. unfold batch. rewrite H. done. Qed.

Lemma C16_lemma c st o fuel order opts st' fs r :
  performs c st (OpTick o fuel order opts) st' fs r -> uncancelled r ->
  let now := op_time o opts in
  let q := batch (skipped opts) (due_timeouts now st) order in
  q `prefix_of` dispatched fs /\
  forall h ps, h ∈ c_app c -> es_cs st !! h_name h = Some (CSProc ps) -> skipped opts h = None ->
    chronological (due now (pc_timeouts ps)) /\ due now (pc_timeouts ps) `sublist_of` q.
Proof.
  intros Hp Hu now q. pose proof Hp as (Hr & Hop & _). split.
  - destruct (C31_lemma _ _ _ _ _ _ Hp) as (q' & rest & -> & H & Hrest). rewrite (Hrest Hu), app_nil_r in H.
    rewrite <- H. apply prefix_app_r. done.
  - intros h ps Hin Hl Hs. destruct (reachable_stored_ok _ _ Hr h Hin) as (cs & Hl' & _ & Hps).
    rewrite Hl in Hl'. injection Hl' as <-. destruct (Hps ps eq_refl) as [Hc _]. split.
    + unfold due. apply sorted_filter. exact Hc.
    + assert (Ho : h ∈ filter (fun h => skipped opts h = None) order).
      { apply elem_of_list_filter. split; [done|]. destruct Hop as [_ ->]. done. }
      unfold q, batch. apply elem_of_list_split in Ho as (l1 & l2 & ->). rewrite fmap_app, concat_app. apply sublist_inserts_l.
      cbn. unfold due_timeouts at 1. rewrite Hl. apply sublist_inserts_r. done.
Qed.

Lemma C43_lemma c st o fuel order opts st1 fs1 r1 o' fuel' order' st2 fs2 r2 :
  performs c st (OpTick o fuel order opts) st1 fs1 r1 -> uncancelled r1 ->
  performs c st (OpTick o' fuel' order' opts) st2 fs2 r2 -> uncancelled r2 ->
  op_time o opts = op_time o' opts ->
  exists q1 q2, q1 ≡ₚ q2 /\ q1 = batch (skipped opts) (due_timeouts (op_time o opts) st) order /\
    q1 ++ returned (op_time o opts) fs1 = dispatched fs1 /\ q2 ++ returned (op_time o opts) fs2 = dispatched fs2.
Proof.
  intros H1 U1 H2 U2 Ht. pose proof H1 as (_ & [_ O1] & _). pose proof H2 as (_ & [_ O2] & _).
  destruct (C31_lemma _ _ _ _ _ _ H1) as (q1 & rest1 & -> & E1 & R1). rewrite (R1 U1), app_nil_r in E1.
  destruct (C31_lemma _ _ _ _ _ _ H2) as (q2 & rest2 & -> & E2 & R2). rewrite (R2 U2), app_nil_r in E2.
  eexists _, _. split; [|split; [done|]; split; [exact E1|]; cbn [op_now] in E2; rewrite Ht; exact E2].
  cbn. rewrite Ht. apply batch_perm. rewrite O1, O2. done.
Qed.

(** ** Integrations *)
Lemma recorded_app a b : recorded_by_integrations (a ++ b) = recorded_by_integrations a ++ recorded_by_integrations b.
Proof. apply omap_app. Qed.
Lemma about_recorded (h : HId) env fs : Forall (about h env) fs -> 
  recorded_by_integrations fs = match hid_type h with HTIntegration => events_in fs | _ => [] end.
Proof.
  induction 1 as [|f fs Hf _ IH]; [destruct (hid_type h); done|].
  destruct f; cbn in Hf |- *; try done; try (rewrite IH; destruct Hf as (_ & _ & ->); done).
  all: unfold recorded_by_integrations, events_in in *; cbn; rewrite IH; try (destruct Hf as (_ & _ & ->)); try done.
  all: try (destruct Hf as (_ & ->)); done.
Qed.

Lemma offers_recorded now skip env hs fs envs errs :
  Offers now skip env hs fs envs errs -> recorded_by_integrations fs `sublist_of` envs.
Proof.
  induction 1 as [|h hs fs envs err fs' envs' errs Ho _ IH]; [done|]. rewrite recorded_app. apply sublist_app; [|done].
  destruct Ho as [r _|fs1 err1 _ Ha]; [done|].
  change (recorded_by_integrations (HandlingBegun (h_id h) env :: fs1 ++ [HandlingCompleted (h_id h) env err1]))
    with (recorded_by_integrations (fs1 ++ [HandlingCompleted (h_id h) env err1])).
  rewrite recorded_app. cbn. rewrite app_nil_r, (about_recorded _ _ _ Ha). unfold outputs.
  destruct (hid_type (h_id h)); try apply sublist_nil_l. destruct err1; done.
Qed.

Lemma cascade_recorded c now skip q s fs errs : Cascade c now skip q s fs errs -> s = SDone ->
  exists envs, rets now fs envs /\ recorded_by_integrations fs `sublist_of` envs.
Proof.
  induction 1 as [|env q s hs fs envs errs fs' errs' _ Ho _ IH
    |env q hs fs envs errs x _ Ho|env q hs fs _ Ho|env q]; intros Hs; try discriminate Hs.
  - exists []. split; [apply rets_nil|done].
  - destruct (IH Hs) as (ev & I1 & I2). exists (envs ++ ev). split.
    + change (DispatchBegun env :: fs ++ DispatchCompleted env errs :: fs')
        with ([DispatchBegun env] ++ (fs ++ [DispatchCompleted env errs] ++ fs')).
      apply (rets_app _ _ _ [] _); [apply rets_one; done|]. apply rets_app; [eapply offers_rets; exact Ho|].
      apply (rets_app _ _ _ [] _); [apply rets_one; done|done].
    + change (recorded_by_integrations (DispatchBegun env :: fs ++ DispatchCompleted env errs :: fs'))
        with (recorded_by_integrations (fs ++ DispatchCompleted env errs :: fs')).
      rewrite recorded_app. apply sublist_app; [eapply offers_recorded; exact Ho|exact I2].
Qed.

Lemma C24_lemma c st op st' fs r :
  performs c st op st' fs r -> uncancelled r -> recorded_by_integrations fs `sublist_of` dispatched fs.
Proof.
  intros Hp Hunc. destruct (C31_lemma _ _ _ _ _ _ Hp) as (q' & rest & _ & Hd & Hrest).
  rewrite (Hrest Hunc), app_nil_r in Hd. rewrite <- Hd. apply sublist_inserts_l. clear Hd Hrest.
  apply performs_spec in Hp as (q & s & bg & ticks & body & fin & terrs & errs & Hst & -> & Hbg & Hfin & HT & Hc & _ & Hu).
  destruct (Hu Hunc) as [-> _]. destruct Hc as [(_ & _ & Hnu)|Hc]; [destruct (Hnu Hunc)|].
  destruct (cascade_recorded _ _ _ _ _ _ _ Hc eq_refl) as (envs & Hb1 & Hb2).
  assert (Ht : recorded_by_integrations ticks = [] /\ rets (op_now op) ticks []).
  { destruct HT as [[-> _]|(order & s' & _ & HT & _)]; [split; [done|apply rets_nil]|]. split; [|apply (ticks_reads (op_now op)) in HT; tauto].
    clear -HT. assert (Hat : forall (h : HId) fs, Forall (about_tick h) fs -> recorded_by_integrations fs = []).
    { intros h fs. induction 1 as [|f fs Hf _ IH]; [done|]. destruct f; done. }
    induction HT as [|h hs s r fs errs _ _ IH|h hs s fs err fs' errs _ Ha _ IH|h hs fs err x _ Ha|h hs fs _ Ha]; [done|exact IH|..].
    - change (recorded_by_integrations (fs ++ TickCompleted (h_id h) err :: fs') = []). rewrite recorded_app, (Hat _ _ Ha). exact IH.
    - change (recorded_by_integrations (fs ++ [TickCompleted (h_id h) err]) = []). rewrite recorded_app, (Hat _ _ Ha). done.
    - exact (Hat _ _ Ha). }
  destruct Ht as [Ht1 Ht2]. destruct (fin_reads (op_now op) _ Hfin) as (_ & _ & Hf2 & _).
  assert (Hret : returned (op_now op) (bg :: ticks ++ body ++ fin) = envs).
  { apply rets_returned. apply (rets_app _ [bg] _ [] envs); [apply rets_one; destruct bg; done|].
    apply (rets_app _ ticks _ [] envs); [done|]. rewrite <- (app_nil_r envs). apply rets_app; done. }
  assert (Hf1 : recorded_by_integrations fin = []).
  { clear -Hfin. induction Hfin as [|f fin Hf _ IH]; [done|]. destruct f; done. }
  rewrite Hret. replace (recorded_by_integrations (bg :: ticks ++ body ++ fin)) with (recorded_by_integrations (ticks ++ body ++ fin)) by (destruct bg; done).
  rewrite !recorded_app, Ht1, Hf1, app_nil_r. exact Hb2.
Qed.

(** ** Observers *)
Lemma notify_app obs log f : notify obs log f = log ++ ((fun n => (n, f)) <$> obs).
Proof.
  unfold notify. revert log. induction obs as [|n obs IH]; intros log; cbn; [rewrite app_nil_r; done|].
  rewrite IH, <- app_assoc. done.
Qed.
Lemma C39_lemma obs fs : notify_all obs fs = concat ((fun f => (fun n => (n, f)) <$> obs) <$> fs).
Proof.
  unfold notify_all. cut (forall log, foldl (notify obs) log fs = log ++ concat ((fun f => (fun n => (n, f)) <$> obs) <$> fs)); [intros H; apply H|].
  induction fs as [|f fs IH]; intros log; cbn; [rewrite app_nil_r; done|]. rewrite IH, notify_app, <- app_assoc. done.
Qed.
Lemma C39_each_lemma obs fs n : NoDup obs -> n ∈ obs ->
  snd <$> filter (fun x => x.1 = n) (notify_all obs fs) = fs.
Proof.
  intros Hnd Hin. rewrite C39_lemma.
  assert (H1 : forall f, filter (fun x : nat * Fact => x.1 = n) ((fun n => (n, f)) <$> obs) = [(n, f)]).
  { intros f. clear -Hnd Hin. induction obs as [|m obs IH]; [set_solver|]. apply NoDup_cons in Hnd as [Hm Hnd]. rewrite fmap_cons, filter_cons. cbn [fst].
    destruct (decide (m = n)) as [->|Hne].
    - f_equal. clear -Hm. induction obs as [|m obs IH]; [done|]. rewrite fmap_cons, filter_cons, decide_False; cbn; [apply IH|]; set_solver.
    - apply IH; [done|set_solver]. }
  induction fs as [|f fs IH]; [done|]. cbn. rewrite filter_app, H1, fmap_app, IH. done.
Qed.

(** ** Panics *)
Lemma j_run_raw {A} th hid ev (p : JProg A) : never_raw p -> forall g g' fs v, j_run th hid ev p g = (g', fs, inr v) -> v <> PRaw.
Proof.
  induction 1 as [a|v0 Hv|f k _ IH|s k _ IH]; intros g g' fs v; cbn.
  - done.
  - intros [= <- <- <-]. done.
  - apply IH.
  - destruct (j_run th hid ev k g) as [[g1 fs1] r1] eqn:E. intros [= <- <- ->]. eapply IH. exact E.
Qed.

Lemma ctrl_handle_raw c o h now env g cs g' cs' fs v :
  no_raw_without_message c -> h ∈ c_app c -> ctrl_handle c o h now env g cs = (g', cs', fs, HPan v) -> v <> PRaw.
Proof.
  intros Hn Hin. unfold ctrl_handle. destruct (h_impl h) as [a|pi|i|j] eqn:Ei, cs; try (intros [= <- <- <- <-]; done).
  - destruct (a_handle _ _ _ _ _ _ _) as [[[g2 h2] f2] r2] eqn:E. intros [= <- <- <- ->]. revert E. unfold a_handle.
    destruct (negb _); [intros [= <- <- <- <-]; done|].
    destruct (ag_route a _) as [id|v0]; [|intros [= <- <- <- <-]; destruct v0; done].
    destruct (decide _); [intros [= <- <- <- <-]; done|].
    destruct (ag_new a) as [r0|]; [|intros [= <- <- <- <-]; done].
    destruct (a_replay _ _ _ _) as [r1 [v1|]] eqn:Er.
    + intros [= <- <- <- <-]. clear -Er. revert r0 Er. induction (default [] (hist !! id)) as [|e l IH]; intros r0; cbn; [done|].
      destruct (ag_apply a r0 (e_msg e)) as [r2 w]. destruct (enrich _ _ _ _ w) as [w'|] eqn:Ew; [|apply IH].
      intros [= <- <-]. destruct w as [[]|]; cbn in Ew; congruence.
    + destruct (a_run _ _ _ _ _ _ _ _ _) as [[[g3 s3] fs3] v3]. destruct (enrich _ _ _ _ v3) as [w|] eqn:Ew; [|done].
      intros [= <- <- <- <-]. destruct v3 as [[]|]; cbn in Ew; congruence.
  - destruct (p_handle _ _ _ _ _ _ _) as [[[g2 p2] f2] r2] eqn:E. intros [= <- <- <- ->]. revert E. unfold p_handle.
    destruct (negb _); [intros [= <- <- <- <-]; done|].
    destruct (p_route _ _ _ _ _) as [[g3 fs3] rt] eqn:Er. destruct rt as [id| | |w].
    + assert (Hinst : forall rt g4 ps4 fs4, p_handle_instance o h pi now env id rt g3 ps = (g4, ps4, fs4, HPan v) -> v <> PRaw).
      { intros rt g4 ps4 fs4. unfold p_handle_instance. destruct (m_kind _);
          destruct (p_run _ _ _ _ _ _ _ _ _) as [[[g5 s5] fs5] [[e|]|w]]; try done; try (destruct (ps_ended s5); done);
          intros [= <- <- <- <-]; destruct w; done. }
      destruct (pc_instances ps !! id) as [rt|].
      * destruct (p_handle_instance _ _ _ _ _ _ _ _ _) as [[[g4 ps4] fs4] r4] eqn:E4. intros [= <- <- <- ->]. eapply Hinst. exact E4.
      * destruct (pr_new pi) as [rt|]; [|intros [= <- <- <- <-]; done].
        destruct (p_handle_instance _ _ _ _ _ _ _ _ _) as [[[g4 ps4] fs4] r4] eqn:E4. intros [= <- <- <- ->]. eapply Hinst. exact E4.
    + done.
    + done.
    + intros [= <- <- <- <-]. unfold p_route in Er. destruct (m_kind _).
      * injection Er as _ _ <-. done.
      * destruct (pr_route _ _ _) as [u [[[i0 ok] [e|]]|w']]; [destruct ok; discriminate Er| |].
        -- destruct ok; [|discriminate Er]. destruct (decide _); [|discriminate Er]. injection Er as _ _ <-. done.
        -- injection Er as _ _ <-. destruct w'; done.
      * destruct (e_origin env) as [og|]; [|injection Er as _ _ <-; done].
        destruct (pc_instances ps !! _); discriminate Er.
  - destruct (i_handle _ _ _ _ _ _) as [[g2 f2] r2] eqn:E. intros [= <- <- <- ->]. revert E. unfold i_handle.
    destruct (negb _); [intros [= <- <- <-]; done|].
    destruct (i_run _ _ _ _ _ _ _) as [[[g3 s3] fs3] [e|w]]; [done|]. intros [= <- <- <-]. destruct w; done.
  - destruct (Hn h j Hin Ei) as (Hv & Hc & Hcp).
    destruct (j_handle _ _ _ _ _ _ _) as [[g2 f2] r2] eqn:E. intros [= <- <- <- ->]. revert E. unfold j_handle.
    destruct (j_handle_threads _ _ _ _ _ _ _) as [[g3 fs3] r3] eqn:E. intros [= <- <- ->]. revert E. unfold j_handle_threads.
    destruct (negb _); [intros [= <- <- <-]; done|].
    destruct (pj_version j _ _) as [u [[cur [e|]]|w]] eqn:Ev; [done| |intros [= <- <- <-]; eapply Hv; exact Ev].
    destruct (decide _); [|done].
    destruct (j_apply _ _ _ _ _ _ _) as [[g4 fs4] r4] eqn:Ea.
    destruct r4 as [[[ok [e1|]] ce]|w]; [done| |].
    + destruct ok; [|done]. destruct (pj_close j _ _) as [u' [[e1|]|w]] eqn:Ec; [done|done|].
      intros [= <- <- <-]. eapply Hc. exact Ec.
    + intros [= <- <- <-]. unfold j_apply in Ea. destruct (c_compact c).
      * destruct (j_par _ _ _ _ _ _) as [[g5 fs5] [[[ok e1] ce]|w']]; [done|]. injection Ea as _ _ <-. destruct w'; done.
      * destruct (j_run _ _ _ _ _) as [[g5 fs5] [[ok e1]|w']]; [done|]. injection Ea as _ _ <-. destruct w'; done.
Qed.

Lemma e_handlers_raw c o oo env : no_raw_without_message c -> forall hs st st' fs v,
  (forall h, Some h ∈ hs -> h ∈ c_app c) -> e_handlers c o oo env hs st = (st', fs, inr v) -> v <> PRaw.
Proof.
  intros Hn. induction hs as [|oh hs IH]; intros st st' fs v Happ; cbn [e_handlers]; [done|].
  destruct (e_handle c o oo env oh st) as [[st1 fs1] r1] eqn:E.
  destruct r1 as [envs e|w].
  - destruct (e_handlers c o oo env hs st1) as [[st2 fs2] r2] eqn:E2.
    destruct r2 as [[? ?]|w]; [done|]. intros [= <- <- <-]. eapply IH; [|exact E2]. intros; apply Happ; set_solver.
  - intros [= <- <- <-]. unfold e_handle in E. destruct oh as [h|]; [|injection E as _ _ <-; done].
    destruct (skip_handler h oo); [done|]. destruct (es_cs st !! h_name h); [|injection E as _ _ <-; done].
    destruct (ctrl_handle _ _ _ _ _ _ _) as [[[g2 cs2] fs2] r2] eqn:E2. destruct r2; [done|]. injection E as _ _ <-.
    eapply ctrl_handle_raw; [done| |exact E2]. apply Happ. set_solver.
Qed.

Lemma e_loop_raw c o oo : no_raw_without_message c -> forall fuel q err st st' fs v,
  e_loop c o oo fuel q err st = (st', fs, Pan v) -> v <> PRaw.
Proof.
  intros Hn. induction fuel as [|fuel IH]; intros q err st st' fs v; destruct q as [|env q]; cbn [e_loop]; try done.
  destruct (e_message c o oo env st) as [[st1 fs1] r1] eqn:E. destruct r1 as [[envs derr]|w].
  - destruct (poll_ctx o (es_g st1)) as [g [ce|]]; [done|].
    destruct (e_loop c o oo fuel _ _ _) as [[st2 fs2] r2] eqn:E2. intros [= <- <- ->]. eapply IH. exact E2.
  - intros [= <- <- <-]. unfold e_message in E. destruct (targets c env) as [hs|] eqn:Et; [|injection E as _ _ <-; done].
    destruct (e_handlers c o oo env hs st) as [[st2 fs2] r2] eqn:E2. destruct r2 as [[? ?]|w']; [done|].
    injection E as _ _ <-. eapply e_handlers_raw; [done| |exact E2]. intros h. eapply targets_in; done.
Qed.

Lemma e_tick_handlers_raw c o oo : no_raw_without_message c -> forall hs st st' fs v,
  (forall h, h ∈ hs -> h ∈ c_app c) -> e_tick_handlers c o oo hs st = (st', fs, TPan v) -> v <> PRaw.
Proof.
  intros Hn. induction hs as [|h hs IH]; intros st st' fs v Happ; cbn [e_tick_handlers]; [done|].
  destruct (e_tick_one c o oo h st) as [[st1 fs1] r1] eqn:E. destruct r1 as [envs e|w].
  - destruct (poll_unless_skipped o oo h st1) as [st2 [ce|]]; [done|].
    destruct (e_tick_handlers c o oo hs st2) as [[st3 fs3] r3] eqn:E3. destruct r3; try done.
    intros [= <- <- <-]. eapply IH; [|exact E3]. intros; apply Happ; set_solver.
  - intros [= <- <- <-]. unfold e_tick_one in E. destruct (skip_handler h oo); [done|].
    destruct (es_cs st !! h_name h); [|injection E as _ _ <-; done].
    destruct (ctrl_tick _ _ _ _) as [[[g2 cs2] fs2] r2] eqn:E2. destruct r2; [done|]. injection E as _ _ <-.
    unfold ctrl_tick in E2. destruct (h_impl h) as [a|pi|i|j] eqn:Ei, c0; try done.
    + destruct (p_tick _ _); done.
    + destruct (j_tick_ctrl _ _ _ _ _) as [[[g3 l3] fs3] r3] eqn:E3. injection E2 as _ _ _ ->.
      unfold j_tick_ctrl in E3. destruct (_ <=? _)%Z; [|done].
      destruct (j_run _ _ _ _ _) as [[g4 fs4] [e4|w4]] eqn:E4; [done|]. injection E3 as _ _ _ <-.
      eapply j_run_raw; [|exact E4]. eapply Hn; [|exact Ei]. apply Happ. set_solver.
Qed.

Lemma C44_lemma c st op st' evs v :
  no_raw_without_message c -> op_ok c op -> run_op c op st = (st', evs, Pan v) -> v <> PRaw.
Proof.
  intros Hn Hop. destruct op as [o fuel m opts|o fuel order opts| |f]; cbn [run_op]; try done.
  - destruct (e_dispatch c o fuel m opts st) as [[st1 fs1] r1] eqn:E. intros [= <- _ ->]. revert E.
    unfold e_dispatch. destruct (next_id o (es_g st)) as [g id].
    destruct (new_opts c (o_wall o) opts) as [oo|w] eqn:Eo.
    2:{ intros [= <- <- <-]. clear -Eo. unfold new_opts in Eo. revert Eo. generalize (mkOOs (o_wall o) [] (mkETypes true true true true) ∅).
        induction opts as [|opt opts IH]; intros oo; cbn; [done|]. destruct (apply_opt c oo opt) as [oo'|w'] eqn:E; [apply IH|].
        intros [= <-]. destruct opt; cbn in E; try done. destruct (controllers c !! _); [done|]. injection E as <-. done. }
    destruct (m_kind m); [| |intros [= <- <- <-]; done].
    all: destruct (m_invalid m); [intros [= <- <- <-]; done|].
    all: destruct (routes c !! m_type m); [|intros [= <- <- <-]; done].
    all: cbn zeta; destruct (lock o _) as [g' [le|]]; [done|].
    all: destruct (e_loop c o oo fuel _ _ _) as [[st3 fs3] r3] eqn:L; destruct r3; try done; intros [= <- <- <-]; eapply e_loop_raw; [done|exact L].
  - destruct (e_tick c o fuel order opts st) as [[st1 fs1] r1] eqn:E. intros [= <- _ ->]. revert E.
    unfold e_tick. destruct (new_opts c (o_wall o) opts) as [oo|w] eqn:Eo.
    2:{ intros [= <- <- <-]. clear -Eo. unfold new_opts in Eo. revert Eo. generalize (mkOOs (o_wall o) [] (mkETypes true true true true) ∅).
        induction opts as [|opt opts IH]; intros oo; cbn; [done|]. destruct (apply_opt c oo opt) as [oo'|w'] eqn:E; [apply IH|].
        intros [= <-]. destruct opt; cbn in E; try done. destruct (controllers c !! _); [done|]. injection E as <-. done. }
    destruct (lock o _) as [g' [le|]]; [done|]. unfold e_tick_body.
    destruct (e_tick_handlers c o oo order _) as [[st3 fs3] r3] eqn:T. destruct r3 as [q errs|e|w]; [|done|].
    + destruct (e_loop c o oo fuel _ _ _) as [[st4 fs4] r4] eqn:L; destruct r4; try done; intros [= <- <- <-]; eapply e_loop_raw; [done|exact L].
    + intros [= <- <- <-]. eapply e_tick_handlers_raw; [done| |exact T]. intros h. destruct Hop as [_ ->]. done.
Qed.
End EngineLemmas.

Section ProcessLemmas.
Context {P : Params}.

Lemma C14_accounting_lemma c u ops st evs fin hd ps :
  history c u ops st evs fin -> hd ∈ c_app c -> es_cs st !! h_name hd = Some (CSProc ps) ->
  let v := proc_view (since_reset evs) in
  pv_acc v (h_id hd) ≡ₚ pc_timeouts ps ++ pv_took v (h_id hd) ++ pv_gone v (h_id hd).
Proof.
  intros H Hin Hl. destruct (C14_pending_lemma _ _ _ _ _ _ _ _ H Hin Hl) as [H1 _]. cbn zeta. rewrite H1.
  apply (proc_accounted (since_reset evs)).
Qed.

Lemma C16_tick_lemma c st hd ps now :
  reachable c st -> hd ∈ c_app c -> es_cs st !! h_name hd = Some (CSProc ps) ->
  p_tick now ps = (mkPState (pc_instances ps) (later now (pc_timeouts ps)), due now (pc_timeouts ps)) /\
  chronological (due now (pc_timeouts ps)) /\ chronological (later now (pc_timeouts ps)).
Proof.
  intros (u & ops & evs & H) Hin Hl. pose proof (C16_store_lemma _ _ _ _ _ _ _ _ H Hin Hl) as Hc.
  split; [|split; apply sorted_filter; exact Hc].
  unfold p_tick. rewrite p_split_spec; done.
Qed.

Lemma C20_begin_lemma c u ops st evs fin pre h i e :
  history c u ops st evs fin ->
  (forall r, occurs evs pre (ProcessInstanceLoaded h i r e) -> live pre h i = true) /\
  (forall r, occurs evs pre (ProcessInstanceBegun h i r e) ->
     live pre h i = false /\ exists pi, process_of c h pi /\ r = pr_new pi).
Proof.
  intros H. split; intros r Ho; pose proof (proc_checked _ _ _ _ _ _ _ _ H Ho) as (H1 & _ & H3 & _); eauto.
Qed.

Lemma C20_lemma o h pi now env g ps g' ps' fs envs i rt :
  p_handle o h pi now env g ps = (g', ps', fs, HRet envs None) -> engaged (h_id h) i rt env fs ->
  (ends_ending (method_of pi env i) -> pc_instances ps' !! i = None) /\
  (ends_continuing (method_of pi env i) ->
     exists rt', Leaves (method_of pi env i) rt rt' (inl None) /\ pc_instances ps' !! i = Some rt').
Proof.
  intros H He. destruct (p_handle_root _ _ _ _ _ _ _ _ _ _ _ _ _ H He) as (_ & rt' & out & HL & Ho & Hend).
  destruct out as [[e|]|v]; [destruct Ho as [[=] _]| |destruct Ho as [[v' [=]] _]]. destruct Ho as [_ Hi].
  destruct (Hend _ eq_refl eq_refl) as [H1 H2]. split.
  - intros Hp. rewrite Hi, (H1 Hp). done.
  - intros Hp. exists rt'. rewrite Hi, (H2 Hp). done.
Qed.

Lemma C22_root_lemma o h pi now env g ps g' ps' fs res i rt :
  p_handle o h pi now env g ps = (g', ps', fs, res) -> engaged (h_id h) i rt env fs ->
  (pc_instances ps !! i = Some rt \/ pc_instances ps !! i = None /\ pr_new pi = Some rt) /\
  exists rt' out, Leaves (method_of pi env i) rt rt' out /\
    match out with
    | inl None => (exists envs, res = HRet envs None) /\
        pc_instances ps' !! i = if ended_in fs then None else Some rt'
    | inl (Some e) => res = HRet [] (Some e) /\ pc_instances ps' !! i = const rt' <$> pc_instances ps !! i
    | inr v => (exists v', res = HPan v') /\ pc_instances ps' !! i = const rt' <$> pc_instances ps !! i
    end.
Proof.
  intros H He. destruct (p_handle_root _ _ _ _ _ _ _ _ _ _ _ _ _ H He) as (H0 & rt' & out & HL & Ho & _). eauto 10.
Qed.

Lemma C22_unchanged_lemma o h pi now env g ps g' ps' fs res i :
  p_handle o h pi now env g ps = (g', ps', fs, res) ->
  (exists e, res = HRet [] (Some e)) \/ (exists v, res = HPan v) ->
  leaves_root (method_of pi env i) ->
  pc_instances ps' !! i = pc_instances ps !! i.
Proof.
  intros H Hf Hl. pose proof H as H0. apply p_handle_cases in H0.
  destruct H0 as [| | | | |g1 id r pre g' s fs res Hc Hg Hk Hpre Hrun]; try done.
  destruct (decide (id = i)) as [->|Hne].
  - assert (He : engaged (h_id h) i r env (pre ++ fs)).
    { destruct Hpre as [[_ ->]|(_ & _ & ->)]; [left|right]; set_solver. }
    destruct (p_handle_root _ _ _ _ _ _ _ _ _ _ _ _ _ H He) as (H0 & rt' & out & HL & Ho & _).
    apply leaves_root_same in HL; [|done]. subst rt'.
    assert (Hcs : pc_instances (p_commit o i s ps res) !! i = const r <$> pc_instances ps !! i).
    { destruct out as [[e|]|v]; [apply Ho| |apply Ho].
      destruct Ho as [[envs Ho] _]. destruct Hf as [[e Hf]|[v Hf]]; congruence. }
    rewrite Hcs. destruct H0 as [->|[-> _]]; done.
  - destruct res as [[e|]|v]; cbn in Hf |- *.
    + unfold p_store_mutation. destruct (pc_instances ps !! id); [|done]. cbn. rewrite lookup_insert_ne; done.
    + destruct Hf as [[e [=]]|[v [=]]].
    + unfold p_store_mutation. destruct (pc_instances ps !! id); [|done]. cbn. rewrite lookup_insert_ne; done.
Qed.

Lemma C23_lemma c st o fuel order opts st' fs r h ps t :
  performs c st (OpTick o fuel order opts) st' fs r -> uncancelled r ->
  h ∈ c_app c -> es_cs st !! h_name h = Some (CSProc ps) -> skipped opts h = None ->
  t ∈ pc_timeouts ps -> (e_sched t <= op_time o opts)%Z ->
  t ∈ dispatched fs.
Proof.
  intros Hp Hu Hin Hl Hs Ht Hd. destruct (C16_lemma _ _ _ _ _ _ _ _ _ Hp Hu) as [Hq H].
  destruct (H _ _ Hin Hl Hs) as [_ Hsub]. destruct Hq as [k ->]. apply elem_of_app. left.
  eapply elem_of_submseteq; [|apply sublist_submseteq; exact Hsub]. unfold due. apply elem_of_list_filter. done.
Qed.
End ProcessLemmas.

Section ObserverOpts.
Context {P : Params}.
Lemma C39_opts_lemma c o opts oo fs :
  new_opts c (o_wall o) opts = inl oo ->
  notify_all (oo_observers oo) fs = concat ((fun f => (fun n => (n, f)) <$> observers opts) <$> fs) /\
  (NoDup (observers opts) -> forall n, n ∈ observers opts ->
     snd <$> filter (fun x => x.1 = n) (notify_all (oo_observers oo) fs) = fs).
Proof.
  intros (_ & _ & ->)%opts_lemma. split; [apply C39_lemma|]. intros Hnd n Hin. apply C39_each_lemma; done.
Qed.
End ObserverOpts.
