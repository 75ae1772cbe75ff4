(** * Proofs: every message is dispatched once, every event is given to the
    projections once. *)
From Verif Require Export DeliveryLemmas ProgSim EnvProof ProcHist OpSpec OpProof OpFacts.

(** ** An induction principle for histories *)
Section Hist.
Context {P : Params} (c : Config).

Lemma run_ops_app ops1 ops2 st st1 evs1 : run_ops c ops1 st = (st1, evs1, true) ->
  run_ops c (ops1 ++ ops2) st = let '(st2, evs2, fin) := run_ops c ops2 st1 in (st2, evs1 ++ evs2, fin).
Proof.
  revert st evs1. induction ops1 as [|op ops IH]; intros st evs1; cbn.
  - intros [= <- <-]. destruct (run_ops c ops2 st) as [[? ?] ?]. done.
  - destruct (run_op c op st) as [[st' evs'] r].
    assert (Hgo : (let '(st2, evs2, fin) := run_ops c ops st' in (st2, evs' ++ evs2, fin)) = (st1, evs1, true) ->
      (let '(st2, evs2, fin) := run_ops c (ops ++ ops2) st' in (st2, evs' ++ evs2, fin)) =
      (let '(st2, evs2, fin) := run_ops c ops2 st1 in (st2, evs1 ++ evs2, fin))).
    { destruct (run_ops c ops st') as [[st2 evs2] fin2] eqn:E. intros [= -> <- ->]. rewrite (IH _ _ E).
      destruct (run_ops c ops2 st1) as [[st3 evs3] fin3]. rewrite app_assoc. done. }
    destruct r; [exact Hgo|exact Hgo|intros [=]].
Qed.

Definition add_ev (x : list Fact) (ev : Ev) : list Fact := match ev with EvFact f => x ++ [f] | EvReset => [] end.
Lemma add_facts x fs : foldl add_ev x (EvFact <$> fs) = x ++ fs.
Proof. revert x. induction fs as [|f fs IH]; intros x; cbn; [rewrite app_nil_r; done|]. rewrite IH, <- app_assoc. done. Qed.

(** An invariant of the state and the facts since the last reset. *)
Lemma history_induction (Q : EState -> list Fact -> Prop) u ops0 :
  Q (e_init c u) [] ->
  (forall st op st' fs r x, reachable c st -> op_ok c op -> op ∈ ops0 -> op <> OpReset ->
     run_op c op st = (st', EvFact <$> fs, r) -> Q st x -> Q st' (x ++ fs)) ->
  (OpReset ∈ ops0 -> forall st x, reachable c st -> Q st x -> Q (e_reset c st) []) ->
  forall st evs fin, history c u ops0 st evs fin -> Q st (since_reset evs).
Proof.
  intros H0 Hstep Hreset st evs fin (Hok & Hops & Hrun).
  assert (Hgo : forall ops1 st1 evs1 ops2, ops0 = ops1 ++ ops2 -> run_ops c ops1 (e_init c u) = (st1, evs1, true) ->
    forall x st evs fin, Q st1 x -> run_ops c ops2 st1 = (st, evs, fin) -> Q st (foldl add_ev x evs)).
  2:{ exact (Hgo [] _ [] ops0 eq_refl eq_refl [] _ _ _ H0 Hrun). }
  clear st evs fin Hrun. intros ops1 st1 evs1 ops2. revert ops1 st1 evs1.
  induction ops2 as [|op ops2 IH]; intros ops1 st1 evs1 -> Hr1 x st evs fin HQ; cbn [run_ops].
  { intros [= <- <- <-]. exact HQ. }
  destruct (run_op c op st1) as [[st2 evs2] r] eqn:E.
  apply Forall_app in Hops as [Hops1 Hops2]. apply Forall_cons in Hops2 as [Hop Hops2].
  assert (Hre : reachable c st1) by (exists u, ops1, evs1; split; [done|]; split; done).
  assert (HQ2 : Q st2 (foldl add_ev x evs2)).
  { destruct op as [o fuel m opts|o fuel order opts| |f].
    - pose proof E as E0. cbn [run_op] in E. destruct (e_dispatch _ _ _ _ _ _) as [[? fs] ?]. injection E as -> <- ->.
      rewrite add_facts. eapply Hstep; [exact Hre|exact Hop|apply elem_of_app; right; left|done|exact E0|exact HQ].
    - pose proof E as E0. cbn [run_op] in E. destruct (e_tick _ _ _ _ _ _) as [[? fs] ?]. injection E as -> <- ->.
      rewrite add_facts. eapply Hstep; [exact Hre|exact Hop|apply elem_of_app; right; left|done|exact E0|exact HQ].
    - injection E as <- <- <-. cbn. eapply Hreset; [apply elem_of_app; right; left|exact Hre|exact HQ].
    - pose proof E as E0. injection E as _ <- _. change [] with (EvFact <$> (@nil Fact)) in E0. cbn [foldl].
      rewrite <- (app_nil_r x). eapply Hstep; [exact Hre|exact Hop|apply elem_of_app; right; left|done|exact E0|exact HQ]. }
  assert (Hsnoc : r <> Fuel -> run_ops c (ops1 ++ [op]) (e_init c u) = (st2, evs1 ++ evs2, true)).
  { intros Hr. rewrite (run_ops_app _ _ _ _ _ Hr1). cbn. rewrite E. destruct r; [| |done]; rewrite app_nil_r; done. }
  assert (Hgo : r <> Fuel -> (let '(st3, evs3, fin) := run_ops c ops2 st2 in (st3, evs2 ++ evs3, fin)) = (st, evs, fin) ->
    Q st (foldl add_ev x evs)).
  { intros Hr. destruct (run_ops c ops2 st2) as [[st3 evs3] fin3] eqn:E3. intros [= <- <- <-]. rewrite foldl_app.
    eapply (IH (ops1 ++ [op])); [rewrite <- app_assoc; done|exact (Hsnoc Hr)|exact HQ2|exact E3]. }
  destruct r; [apply Hgo; done|apply Hgo; done|]. intros [= <- <- <-]. exact HQ2.
Qed.
End Hist.

(** ** Dispatched once *)
Lemma sublist_filter {A} (Q : A -> Prop) `{!forall a, Decision (Q a)} (l : list A) : filter Q l `sublist_of` l.
Proof.
  induction l as [|a l IH]; [constructor|]. rewrite filter_cons. destruct (decide (Q a)); constructor; exact IH.
Qed.

Lemma sublist_fmap {A B} (f : A -> B) (l k : list A) : l `sublist_of` k -> f <$> l `sublist_of` f <$> k.
Proof. induction 1; cbn; constructor; assumption. Qed.
Lemma sublist_nodup {A} (l k : list A) : l `sublist_of` k -> NoDup k -> NoDup l.
Proof.
  intros H%sublist_submseteq Hk. apply submseteq_Permutation in H as (r & Hr). rewrite Hr in Hk.
  apply NoDup_app in Hk as [Hk _]. exact Hk.
Qed.
Lemma nodup_fmap_inj {A B} (f : A -> B) l x y : NoDup (f <$> l) -> x ∈ l -> y ∈ l -> f x = f y -> x = y.
Proof.
  induction l as [|a l IH]; intros Hnd Hx Hy E; [apply elem_of_nil in Hx; done|].
  apply NoDup_cons in Hnd as [Hni Hnd]. apply elem_of_cons in Hx as [->|Hx]; apply elem_of_cons in Hy as [->|Hy].
  - done.
  - exfalso. apply Hni. rewrite E. apply elem_of_list_fmap_1. exact Hy.
  - exfalso. apply Hni. rewrite <- E. apply elem_of_list_fmap_1. exact Hx.
  - apply IH; assumption.
Qed.
Lemma scheduled_in {P : Params} x h i e : (h, i, e) ∈ scheduled x ->
  exists r env, TimeoutScheduledByProcess h i r env e ∈ x.
Proof.
  induction x as [|f x IH] using rev_ind; [intros H; apply elem_of_nil in H; done|].
  rewrite scheduled_snoc'. intros H.
  assert (Hor : (h, i, e) ∈ scheduled x \/ exists r env, f = TimeoutScheduledByProcess h i r env e).
  { destruct f; cbn in H; try (left; exact H). apply elem_of_app in H as [H|H]; [left; exact H|].
    apply elem_of_list_singleton in H. injection H as <- <- <-. right. eexists _, _. reflexivity. }
  destruct Hor as [H0|(r & env & ->)].
  - destruct (IH H0) as (r & env & Hin). exists r, env. apply elem_of_app. left. exact Hin.
  - exists r, env. apply elem_of_app. right. left.
Qed.

Section Once.
Context {P : Params} (c : Config).

Definition prods (fs : list Fact) : list Env := omap (fun f => snd <$> produced f) fs.
Lemma prods_app a b : prods (a ++ b) = prods a ++ prods b.
Proof. apply omap_app. Qed.
Lemma prods_fresh fs : prods fs ⊆+ fresh_of fs.
Proof.
  induction fs as [|f fs IH] using rev_ind; [done|]. rewrite prods_app, fresh_of_snoc. apply submseteq_app; [exact IH|].
  unfold prods. destruct f; cbn; try done; apply submseteq_nil_l.
Qed.

Lemma parts_prods fs : events_in fs ⊆+ prods fs /\ commands_in fs ++ timeouts_in fs ⊆+ prods fs.
Proof.
  induction fs as [|f fs [IH1 IH2]]; [done|]. unfold events_in, commands_in, timeouts_in, prods.
  destruct f; cbn; fold (prods fs) (events_in fs) (commands_in fs) (timeouts_in fs); try done.
  - split; [apply submseteq_skip; done|apply submseteq_cons; done].
  - split; [apply submseteq_cons; done|apply submseteq_skip; done].
  - split; [apply submseteq_cons; done|]. rewrite <- Permutation_middle. apply submseteq_skip. done.
  - split; [apply submseteq_skip; done|apply submseteq_cons; done].
Qed.

Lemma outputs_prods now h fs err : outputs now h fs err ⊆+ prods fs.
Proof.
  destruct (parts_prods fs) as [H1 H2]. unfold outputs.
  destruct (hid_type h), err; try done; try apply submseteq_nil_l.
  etrans; [|exact H2]. apply submseteq_skips_l. destruct (ended_in fs); [apply submseteq_nil_l|].
  apply sublist_submseteq. unfold due. apply sublist_filter.
Qed.

Lemma returned_prods now fs : returned now fs ⊆+ prods fs.
Proof.
  unfold returned.
  assert (H : let x := foldl (returned_step now) ([], []) fs in x.2 ++ prods x.1 ⊆+ prods fs).
  { induction fs as [|f fs IH] using rev_ind; [done|]. rewrite foldl_snoc, prods_app.
    set (x := foldl _ _ fs) in *. cbv zeta in IH |- *. clearbody x.
    assert (Hx : forall f, x.2 ++ prods (x.1 ++ [f]) ⊆+ prods fs ++ prods [f]).
    { intros f0. rewrite prods_app, app_assoc. apply submseteq_skips_r. exact IH. }
    destruct f; cbn [returned_step fst snd]; try apply Hx.
    - cbn. rewrite !app_nil_r. etrans; [|exact IH]. apply submseteq_inserts_r. done.
    - cbn. rewrite !app_nil_r. etrans; [|exact IH]. apply submseteq_skips_l. apply outputs_prods. }
  cbv zeta in H. etrans; [|exact H]. apply submseteq_inserts_r. done.
Qed.

Definition untimed (e : Env) : Prop := m_kind (e_msg e) <> KTimeout.
Global Instance untimed_dec e : Decision (untimed e).
Proof. unfold untimed. apply _. Defined.

Lemma submseteq_filter {A} (Q : A -> Prop) `{!forall a, Decision (Q a)} (l k : list A) :
  l ⊆+ k -> filter Q l ⊆+ filter Q k.
Proof. intros (r & Hr)%submseteq_Permutation. rewrite Hr, filter_app. apply submseteq_inserts_r. done. Qed.

Lemma batch_timed st skip now order : (forall h, h ∈ order -> h ∈ c_app c) ->
  (exists u ops evs fin, history c u ops st evs fin) ->
  filter untimed (batch skip (due_timeouts now st) order) = [].
Proof.
  intros Hord (u & ops & evs & fin & H).
  destruct (filter untimed _) as [|e l] eqn:E; [done|]. exfalso.
  assert (He : e ∈ filter untimed (batch skip (due_timeouts now st) order)) by (rewrite E; left).
  apply elem_of_list_filter in He as [Hu He]. unfold batch in He.
  apply elem_of_list_In, in_concat in He as (l0 & Hl0 & He). apply elem_of_list_In in Hl0, He.
  apply elem_of_list_fmap in Hl0 as (h & -> & Hh). apply elem_of_list_filter in Hh as [_ Hh].
  unfold due_timeouts in He. destruct (es_cs st !! h_name h) as [[|ps| |]|] eqn:El; try (apply elem_of_nil in He; done).
  unfold due in He. apply elem_of_list_filter in He as [_ He].
  destruct (env_history _ _ _ _ _ _ H) as [_ (_ & _ & H3)].
  destruct (H3 _ _ _ (Hord _ Hh) El He) as [Hk _]. done.
Qed.

Lemma op_untimed st op st' fs r : performs c st op st' fs r ->
  filter untimed (dispatched fs) ⊆+ fresh_of fs.
Proof.
  intros Hp. destruct (C31_lemma _ _ _ _ _ _ Hp) as (q & rest & Hq & Heq & _).
  assert (H1 : filter untimed (dispatched fs) ⊆+ filter untimed q ++ returned (op_now op) fs).
  { etrans; [apply (submseteq_inserts_r (filter untimed rest)); reflexivity|].
    rewrite <- filter_app, <- Heq, filter_app. apply submseteq_skips_l. apply sublist_submseteq, sublist_filter. }
  etrans; [exact H1|]. destruct Hp as (Hr & Hop & Hrun & Hne).
  destruct op as [o fuel m opts|o fuel order opts| |f]; cbn [op_start] in Hq.
  - destruct (op_lemma _ _ _ _ _ _ Hr Hop Hrun) as [[-> _]|(env & et & eh & Hm & _ & _ & _ & H)]; [done|].
    assert (Hfs : exists body, fs = DispatchCycleBegun env (op_time o opts) et eh :: body).
    { destruct H as [(x & -> & _)|(s & body & errs & _ & H)]; [eexists; reflexivity|].
      destruct s; destruct H as [-> _]; eexists; reflexivity. }
    destruct Hfs as (body & ->). destruct Hq as (env' & now' & et' & eh' & -> & _ & [= <- _ _ _]).
    assert (Hfresh : fresh_of (DispatchCycleBegun env (op_time o opts) et eh :: body) = env :: fresh_of body).
    { change (_ :: body) with ([DispatchCycleBegun env (op_time o opts) et eh] ++ body). rewrite fresh_of_app. done. }
    rewrite Hfresh.
    assert (Hsame : filter untimed [env] ⊆+ [env]) by (apply sublist_submseteq, sublist_filter).
    apply (submseteq_app _ [env] _ (fresh_of body)); [exact Hsame|].
    etrans; [apply returned_prods|]. apply (prods_fresh body).
  - subst q. rewrite batch_timed.
    + cbn. etrans; [apply returned_prods|]. apply prods_fresh.
    + intros h Hh. destruct Hop as [_ Hperm]. rewrite <- Hperm. exact Hh.
    + destruct Hr as (u & ops & evs & H). eauto.
  - cbn in Hrun. injection Hrun as _ Hfs _. destruct fs; [done|discriminate Hfs].
  - cbn in Hrun. injection Hrun as _ Hfs _. destruct fs; done.
Qed.

Lemma dispatched_app a b : dispatched (a ++ b) = dispatched a ++ dispatched b.
Proof. apply omap_app. Qed.

Lemma dispatched_fresh u ops st evs fin : history c u ops st evs fin ->
  filter untimed (dispatched (since_reset evs)) ⊆+ fresh_of (since_reset evs).
Proof.
  apply (history_induction c (fun _ x => filter untimed (dispatched x) ⊆+ fresh_of x)); [done| |done].
  intros st0 op st' fs r x Hre Hop _ _ Hrun IH. destruct fs as [|f fs]; [rewrite app_nil_r; done|].
  rewrite dispatched_app, filter_app, fresh_of_app. apply submseteq_app; [exact IH|].
  eapply op_untimed. split; [exact Hre|]. split; [exact Hop|]. split; [exact Hrun|]. done.
Qed.

Lemma nodup_split {A} (l : list A) : (forall pre mid post x y, l = pre ++ x :: mid ++ y :: post -> x <> y) -> NoDup l.
Proof.
  induction l as [|a l IH]; intros H; [constructor|]. constructor.
  - intros Hin. apply elem_of_list_split in Hin as (l1 & l2 & ->). exact (H [] l1 l2 a a eq_refl eq_refl).
  - apply IH. intros pre mid post x y ->. exact (H (a :: pre) mid post x y eq_refl).
Qed.

Lemma fmap_split {A B} (f : A -> B) l pre b post : f <$> l = pre ++ b :: post ->
  exists l1 a l2, l = l1 ++ a :: l2 /\ pre = f <$> l1 /\ b = f a /\ post = f <$> l2.
Proof.
  intros H. apply fmap_app_inv in H as (l1 & l2 & -> & H & ->). symmetry in H.
  apply fmap_cons_inv in H as (a & l3 & -> & -> & ->). exists l1, a, l3. done.
Qed.
Lemma omap_split {A B} (f : A -> option B) l pre b post : omap f l = pre ++ b :: post ->
  exists l1 a l2, l = l1 ++ a :: l2 /\ pre = omap f l1 /\ f a = Some b /\ post = omap f l2.
Proof.
  revert pre. induction l as [|a l IH]; intros pre; cbn.
  { intros H. destruct pre; discriminate H. }
  destruct (f a) as [b'|] eqn:E.
  - destruct pre as [|b0 pre].
    + intros [= -> <-]. exists [], a, l. done.
    + intros [= -> H]. destruct (IH _ H) as (l1 & a1 & l2 & -> & -> & H1 & ->). exists (a :: l1), a1, l2.
      split; [done|]. split; [|done]. cbn. rewrite E. done.
  - intros H. destruct (IH _ H) as (l1 & a1 & l2 & -> & -> & H1 & ->). exists (a :: l1), a1, l2.
    split; [done|]. split; [|done]. cbn. rewrite E. done.
Qed.

Lemma dispatched_nodup u ops st evs fin : history c u ops st evs fin -> (g_next (es_g st) < 2 ^ 64)%N ->
  NoDup (e_id <$> dispatched (since_reset evs)).
Proof.
  intros H Hn. apply nodup_split. intros pre mid post x y Heq.
  apply fmap_split in Heq as (l1 & e & l2 & Hd & -> & -> & Heq).
  symmetry in Heq. apply fmap_split in Heq as (l3 & e' & l4 & -> & -> & -> & ->).
  pose proof Hd as Hd'. unfold dispatched in Hd.
  apply omap_split in Hd as (f1 & a & f2 & Hfs & -> & Ha & Hd). symmetry in Hd.
  apply omap_split in Hd as (f3 & a' & f4 & -> & -> & Ha' & ->).
  destruct a; try discriminate Ha. injection Ha as ->. destruct a'; try discriminate Ha'. injection Ha' as ->.
  destruct (decide (untimed e)) as [Hu|Hu].
  2:{ unfold untimed in Hu. eapply (C14_once_lemma c); [exact H|exact Hn|exact Hfs|]. destruct (m_kind (e_msg e)); [exfalso; apply Hu; done|exfalso; apply Hu; done|done]. }
  intros Hid. destruct (C01_lemma _ _ _ _ _ _ H Hn) as [Hnd Hsame].
  assert (e' = e) as ->.
  { symmetry. eapply (Hsame (DispatchBegun e) (DispatchBegun e')); rewrite ?Hfs; [set_solver|set_solver|cbn; set_solver|cbn; set_solver|exact Hid]. }
  pose proof (dispatched_fresh _ _ _ _ _ H) as Hs. rewrite Hd' in Hs.
  assert (H2 : [e; e] ⊆+ fresh_of (since_reset evs)).
  { etrans; [|exact Hs]. rewrite filter_app, filter_cons_True, filter_app, filter_cons_True by exact Hu.
    apply submseteq_inserts_l. apply submseteq_skip. apply submseteq_inserts_l. apply submseteq_skip, submseteq_nil_l. }
  apply submseteq_Permutation in H2 as (k & Hk). rewrite Hk in Hnd. cbn in Hnd.
  apply NoDup_cons in Hnd as [Hnd _]. apply Hnd. left.
Qed.

(** ** Engaged by the messages that were dispatched, if they are consumed *)
Lemma engaged_app h a b : engaged_by h (a ++ b) = engaged_by h a ++ engaged_by h b.
Proof. apply omap_app. Qed.
Lemma about_engaged h h' env fs : Forall (about h' env) fs -> engaged_by h fs = [].
Proof. induction 1 as [|f fs Hf _ IH]; [done|]. destruct f; cbn in *; try done; exact IH. Qed.
Lemma about_tick_engaged h h' fs : Forall (about_tick h') fs -> engaged_by h fs = [].
Proof. induction 1 as [|f fs Hf _ IH]; [done|]. destruct f; cbn in *; try done; exact IH. Qed.
Lemma about_dispatched h' env fs : Forall (about h' env) fs -> dispatched fs = [].
Proof. induction 1 as [|f fs Hf _ IH]; [done|]. destruct f; cbn in *; try done; exact IH. Qed.
Lemma about_tick_dispatched h' fs : Forall (about_tick h') fs -> dispatched fs = [].
Proof. induction 1 as [|f fs Hf _ IH]; [done|]. destruct f; cbn in *; try done; exact IH. Qed.

Section Cascade.
Context (now : Z) (skip : Handler -> option SkipReason) (h : HId).

(** What the facts of one offer say about [h]. *)
Definition engages (env : Env) (hs : list Handler) (fs : list Fact) : Prop :=
  dispatched fs = [] /\ (engaged_by h fs = [] \/ engaged_by h fs = [env] /\ exists h', h' ∈ hs /\ h_id h' = h).

Lemma offer_engages env h' fs envs err : Offer now skip env h' fs envs err ->
  dispatched fs = [] /\ engaged_by h fs = (if decide (h_id h' = h) then engaged_by h fs else []) /\
  (engaged_by h fs = [] \/ engaged_by h fs = [env]).
Proof.
  destruct 1 as [r Hs|fs err Hs Hab]; [cbn; split; [done|]; destruct (decide _); auto|].
  assert (Hd : dispatched (HandlingBegun (h_id h') env :: fs ++ [HandlingCompleted (h_id h') env err]) = []).
  { change (dispatched (fs ++ [HandlingCompleted (h_id h') env err]) = []). rewrite dispatched_app, (about_dispatched _ _ _ Hab). done. }
  assert (He : engaged_by h (HandlingBegun (h_id h') env :: fs ++ [HandlingCompleted (h_id h') env err]) =
    if decide (h_id h' = h) then [env] else []).
  { change (HandlingBegun (h_id h') env :: fs ++ [HandlingCompleted (h_id h') env err])
      with ([HandlingBegun (h_id h') env] ++ fs ++ [HandlingCompleted (h_id h') env err]).
    rewrite !engaged_app, (about_engaged _ _ _ _ Hab). cbn. destruct (decide (h_id h' = h)); done. }
  rewrite Hd, He. split; [done|]. destruct (decide (h_id h' = h)); auto.
Qed.

Lemma offers_engages env hs fs envs errs : NoDup (h_id <$> hs) -> Offers now skip env hs fs envs errs ->
  engages env hs fs /\ (h ∉ h_id <$> hs -> engaged_by h fs = []).
Proof.
  intros Hnd Ho. induction Ho as [|h' hs fs envs err fs' envs' errs Ho Hos IH]; [split; [split; auto|done]|].
  apply NoDup_cons in Hnd as [Hni Hnd]. destruct (IH Hnd) as [[H1 H2] H3]. clear IH.
  destruct (offer_engages _ _ _ _ _ Ho) as (Hd & He & Hc).
  unfold engages. rewrite dispatched_app, engaged_app, Hd, H1. cbn [app].
  destruct (decide (h_id h' = h)) as [Hh|Hh].
  - rewrite H3 by (rewrite <- Hh; exact Hni). rewrite app_nil_r. split; [split; [done|]|].
    + destruct Hc as [Hc|Hc]; rewrite Hc; [auto|]. right. split; [done|]. exists h'. split; [left|done].
    + intros Hni'. exfalso. apply Hni'. cbn. rewrite Hh. left.
  - rewrite He. cbn [app]. split; [split; [done|]|].
    + destruct H2 as [H2|(H2 & h1 & Hh1 & E)]; rewrite H2; [auto|]. right. split; [done|]. exists h1. split; [right; done|done].
    + intros Hni'. apply H3. intros Hin. apply Hni'. right. exact Hin.
Qed.

Lemma offers_panic_engages env hs fs : NoDup (h_id <$> hs) -> Offers_panic now skip env hs fs -> engages env hs fs.
Proof.
  intros Hnd (before & h' & after & fs1 & envs & errs & fs2 & -> & Ho & Hs & Hab & ->).
  rewrite fmap_app in Hnd. apply NoDup_app in Hnd as (Hnd & Hd & _).
  destruct (offers_engages _ _ _ _ _ Hnd Ho) as [[H1 H2] H3].
  unfold engages. rewrite dispatched_app, engaged_app, H1. cbn [app].
  change (HandlingBegun (h_id h') env :: fs2) with ([HandlingBegun (h_id h') env] ++ fs2).
  rewrite dispatched_app, engaged_app, (about_dispatched _ _ _ Hab), (about_engaged _ _ _ _ Hab), !app_nil_r.
  split; [done|]. cbn. destruct (decide (h_id h' = h)) as [Hh|Hh].
  - right. rewrite H3. 2:{ intros Hin. apply (Hd _ Hin). cbn. rewrite Hh. left. }
    split; [done|]. exists h'. split; [set_solver|done].
  - rewrite app_nil_r. destruct H2 as [H2|(H2 & h1 & Hh1 & E)]; rewrite H2; [auto|]. right. split; [done|]. exists h1. split; [set_solver|done].
Qed.

Context (Hok : app_ok c).
Lemma recipients_nodup env hs : recipients c env hs -> NoDup (h_id <$> hs).
Proof.
  unfold recipients. destruct Hok as [Hnd _].
  assert (Hf : NoDup (h_id <$> filter (fun h => m_type (e_msg env) ∈ h_consumed h) (c_app c))).
  { apply (NoDup_fmap_1 hid_name). rewrite <- list_fmap_compose.
    eapply sublist_nodup; [|exact Hnd]. apply (sublist_fmap h_name), sublist_filter. }
  destruct (m_kind (e_msg env)); [intros ->; exact Hf|intros ->; exact Hf|].
  intros (og & h' & _ & _ & _ & ->). apply NoDup_singleton.
Qed.

(** [e] is a message for [h]. *)
Definition for_handler (e : Env) : Prop :=
  m_kind (e_msg e) = KTimeout \/ exists h', h' ∈ c_app c /\ h_id h' = h /\ m_type (e_msg e) ∈ h_consumed h'.

Lemma recipients_for env hs h' : recipients c env hs -> h' ∈ hs -> h_id h' = h -> for_handler env.
Proof.
  unfold recipients, for_handler. destruct (m_kind (e_msg env)); [intros ->|intros ->|auto];
    intros Hin E; right; apply elem_of_list_filter in Hin as [H1 H2]; eauto.
Qed.

Lemma engages_for env hs fs : recipients c env hs -> engages env hs fs ->
  dispatched (DispatchBegun env :: fs) = [env] /\ engaged_by h (DispatchBegun env :: fs) `sublist_of` [env] /\
  Forall for_handler (engaged_by h (DispatchBegun env :: fs)).
Proof.
  intros Hr [H1 H2].
  change (dispatched (DispatchBegun env :: fs)) with (env :: dispatched fs).
  change (engaged_by h (DispatchBegun env :: fs)) with (engaged_by h fs). rewrite H1. split; [done|].
  destruct H2 as [->|(-> & h' & Hin & E)]; [split; [apply sublist_nil_l|constructor]|].
  split; [reflexivity|]. constructor; [|constructor]. eapply recipients_for; eassumption.
Qed.

Lemma cascade_engaged q s fs errs : Cascade c now skip q s fs errs ->
  engaged_by h fs `sublist_of` dispatched fs /\ Forall for_handler (engaged_by h fs).
Proof.
  induction 1 as [|env q s hs fs envs errs fs' errs' Hr Ho Hc [IH1 IH2]|env q hs fs envs errs x Hr Ho|env q hs fs Hr Ho|env q];
    try (split; constructor).
  - destruct (offers_engages _ _ _ _ _ (recipients_nodup _ _ Hr) Ho) as [He _].
    destruct (engages_for _ _ _ Hr He) as (H1 & H2 & H3).
    change (DispatchBegun env :: fs ++ DispatchCompleted env errs :: fs')
      with ((DispatchBegun env :: fs) ++ [DispatchCompleted env errs] ++ fs').
    rewrite !engaged_app, !dispatched_app, H1.
    change (engaged_by h [DispatchCompleted env errs]) with (@nil Env).
    change (dispatched [DispatchCompleted env errs]) with (@nil Env). rewrite !app_nil_l.
    split; [apply sublist_app; done|apply Forall_app; done].
  - destruct (offers_engages _ _ _ _ _ (recipients_nodup _ _ Hr) Ho) as [He _].
    destruct (engages_for _ _ _ Hr He) as (H1 & H2 & H3).
    change (DispatchBegun env :: fs ++ [DispatchCompleted env errs])
      with ((DispatchBegun env :: fs) ++ [DispatchCompleted env errs]).
    rewrite !engaged_app, !dispatched_app, H1.
    change (engaged_by h [DispatchCompleted env errs]) with (@nil Env).
    change (dispatched [DispatchCompleted env errs]) with (@nil Env). rewrite !app_nil_r. done.
  - pose proof (offers_panic_engages _ _ _ (recipients_nodup _ _ Hr) Ho) as He.
    destruct (engages_for _ _ _ Hr He) as (H1 & H2 & H3). rewrite H1. done.
Qed.

Lemma ticks_engaged hs s fs errs : Ticks skip hs s fs errs -> engaged_by h fs = [].
Proof.
  induction 1 as [|h' hs s r fs errs Hs Ht IH|h' hs s fs err fs' errs Hs Hab Ht IH|h' hs fs err x Hs Hab|h' hs fs Hs Hab]; try done.
  - change (engaged_by h (fs ++ [TickCompleted (h_id h') err] ++ fs') = []).
    rewrite !engaged_app, (about_tick_engaged _ _ _ Hab). exact IH.
  - change (engaged_by h (fs ++ [TickCompleted (h_id h') err]) = []).
    rewrite !engaged_app, (about_tick_engaged _ _ _ Hab). done.
  - change (engaged_by h fs = []). apply (about_tick_engaged _ _ _ Hab).
Qed.
Lemma ticks_dispatched hs s fs errs : Ticks skip hs s fs errs -> dispatched fs = [].
Proof.
  induction 1 as [|h' hs s r fs errs Hs Ht IH|h' hs s fs err fs' errs Hs Hab Ht IH|h' hs fs err x Hs Hab|h' hs fs Hs Hab]; try done.
  - change (dispatched (fs ++ [TickCompleted (h_id h') err] ++ fs') = []).
    rewrite !dispatched_app, (about_tick_dispatched _ _ Hab). exact IH.
  - change (dispatched (fs ++ [TickCompleted (h_id h') err]) = []).
    rewrite !dispatched_app, (about_tick_dispatched _ _ Hab). done.
  - change (dispatched fs = []). apply (about_tick_dispatched _ _ Hab).
Qed.
End Cascade.

Lemma op_engaged st op st' fs r h : app_ok c -> performs c st op st' fs r ->
  engaged_by h fs `sublist_of` dispatched fs /\ Forall (for_handler h) (engaged_by h fs).
Proof.
  intros Hok (q & s & bg & ticks & body & fin & terrs & errs & Hst & -> & Hbg & Hfin & HT & Hc & _)%performs_spec.
  assert (Hbg1 : engaged_by h [bg] = []) by (destruct bg; done).
  assert (Hfin1 : engaged_by h fin = [] /\ dispatched fin = []).
  { clear -Hfin. induction Hfin as [|f fs Hf _ [IH1 IH2]]; [done|]. destruct f; try done. }
  destruct Hfin1 as [Hf1 Hf2].
  assert (HT1 : engaged_by h ticks = []).
  { destruct HT as [[-> _]|(order & s' & _ & HT & _)]; [done|]. eapply ticks_engaged; exact HT. }
  change (bg :: ticks ++ body ++ fin) with ([bg] ++ ticks ++ body ++ fin).
  rewrite !engaged_app, !dispatched_app, Hbg1, HT1, Hf1, app_nil_r. cbn [app].
  assert (HC : engaged_by h body `sublist_of` dispatched body /\ Forall (for_handler h) (engaged_by h body)).
  { destruct Hc as [(-> & _)|Hc]; [split; constructor|]. eapply cascade_engaged; [exact Hok|exact Hc]. }
  destruct HC as [HC1 HC2]. split; [|exact HC2].
  apply sublist_inserts_l, sublist_inserts_l. apply sublist_inserts_r. exact HC1.
Qed.

Lemma history_engaged u ops st evs fin h : history c u ops st evs fin ->
  engaged_by h (since_reset evs) `sublist_of` dispatched (since_reset evs) /\
  Forall (for_handler h) (engaged_by h (since_reset evs)).
Proof.
  intros H. pose proof (proj1 H) as Hok. revert H.
  apply (history_induction c (fun _ x => engaged_by h x `sublist_of` dispatched x /\ Forall (for_handler h) (engaged_by h x)));
    [split; constructor| |split; constructor].
  intros st0 op st' fs r x Hre Hop _ _ Hrun [IH1 IH2]. destruct fs as [|f fs]; [rewrite app_nil_r; done|].
  destruct (op_engaged st0 op st' (f :: fs) r h Hok) as [H1 H2].
  { split; [exact Hre|]. split; [exact Hop|]. split; [exact Hrun|]. done. }
  rewrite dispatched_app, engaged_app. split; [apply sublist_app; done|apply Forall_app; done].
Qed.

(** A handler is engaged once by each message it is engaged by: one it consumes, or a
    timeout it scheduled. *)
Lemma handler_engaged u ops st evs fin h : history c u ops st evs fin -> (g_next (es_g st) < 2 ^ 64)%N -> h ∈ c_app c ->
  NoDup (e_id <$> engaged_by (h_id h) (since_reset evs)) /\
  Forall (fun e => m_type (e_msg e) ∈ h_consumed h \/ exists i r env, TimeoutScheduledByProcess (h_id h) i r env e ∈ since_reset evs)
    (engaged_by (h_id h) (since_reset evs)).
Proof.
  intros H Hn Hin. destruct (history_engaged _ _ _ _ _ (h_id h) H) as [Hs Hf]. split.
  - eapply sublist_nodup; [apply (sublist_fmap e_id); exact Hs|]. eapply dispatched_nodup; eassumption.
  - destruct H as (Hok & Hops & Hrun). destruct (Hok) as [Hnd Hh].
    assert (Huniq : forall h', h' ∈ c_app c -> h_id h' = h_id h -> h' = h).
    { intros h' Hin' E. eapply (nodup_fmap_inj h_name); [exact Hnd|exact Hin'|exact Hin|].
      exact (f_equal hid_name E). }
    assert (H : history c u ops st evs fin) by (split; done). clear Hops Hrun.
    rewrite Forall_forall in Hf |- *. intros e He. destruct (Hf e He) as [Ht|(h' & Hin' & E & Hc)].
    2:{ left. rewrite (Huniq _ Hin' E) in Hc. exact Hc. }
    right. unfold engaged_by in He. apply elem_of_list_omap in He as (f & Hf1 & Hf2).
    destruct f; try discriminate Hf2. destruct (decide _) as [->|]; [|discriminate Hf2]. injection Hf2 as ->.
    apply elem_of_list_split in Hf1 as (l1 & l2 & Heq).
    assert (Ho : occurs evs l1 (HandlingBegun (h_id h) e)) by (eapply since_reset_occurs; exact Heq).
    destruct (proj1 (C17_lemma _ _ _ _ _ _ H) _ _ _ Ho Ht) as (i & Hi).
    destruct (scheduled_in _ _ _ _ Hi) as (r & env & Hr). exists i, r, env. rewrite Heq. apply elem_of_app. by left.
Qed.

(** A projection is engaged only by messages it consumes, and once by each. *)
Lemma projection_engaged u ops st evs fin h j : history c u ops st evs fin -> (g_next (es_g st) < 2 ^ 64)%N ->
  h ∈ c_app c -> h_impl h = ImplProj j ->
  NoDup (e_id <$> engaged_by (h_id h) (since_reset evs)) /\
  Forall (fun e => m_type (e_msg e) ∈ h_consumed h) (engaged_by (h_id h) (since_reset evs)).
Proof.
  intros H Hn Hin Hj. destruct (history_engaged _ _ _ _ _ (h_id h) H) as [Hs Hf]. split.
  - eapply sublist_nodup; [apply (sublist_fmap e_id); exact Hs|]. eapply dispatched_nodup; eassumption.
  - destruct H as (Hok & Hops & Hrun). destruct (Hok) as [Hnd Hh].
    assert (Huniq : forall h', h' ∈ c_app c -> h_id h' = h_id h -> h' = h).
    { intros h' Hin' E. eapply (nodup_fmap_inj h_name); [exact Hnd|exact Hin'|exact Hin|].
      exact (f_equal hid_name E). }
    assert (H : history c u ops st evs fin) by (split; done). clear Hops Hrun.
    rewrite Forall_forall in Hf |- *. intros e He. destruct (Hf e He) as [Ht|(h' & Hin' & E & Hc)].
    2:{ rewrite (Huniq _ Hin' E) in Hc. exact Hc. }
    exfalso. unfold engaged_by in He. apply elem_of_list_omap in He as (f & Hf1 & Hf2).
    destruct f; try discriminate Hf2. destruct (decide _) as [->|]; [|discriminate Hf2]. injection Hf2 as ->.
    apply elem_of_list_split in Hf1 as (l1 & l2 & Heq).
    assert (Ho : occurs evs l1 (HandlingBegun (h_id h) e)) by (eapply since_reset_occurs; exact Heq).
    destruct (proj1 (C17_lemma _ _ _ _ _ _ H) _ _ _ Ho Ht) as (i & Hi).
    destruct (scheduled_in _ _ _ _ Hi) as (r & env & Hr). apply elem_of_list_split in Hr as (l3 & l4 & ->).
    rewrite <- app_assoc in Heq. cbn in Heq.
    assert (Ho' : occurs evs l3 (TimeoutScheduledByProcess (h_id h) i r env e)) by (eapply since_reset_occurs; exact Heq).
    destruct (C10_lemma _ _ _ _ _ _ _ _ _ _ _ _ H Ho' eq_refl) as (_ & _ & hd & Hhd & E & Hp).
    rewrite (Huniq _ Hhd E) in Hp. pose proof (Hh _ Hin) as Hho. unfold handler_ok in Hho. rewrite Hj in Hho.
    destruct Hho as [_ Hho]. rewrite Hho in Hp. apply elem_of_nil in Hp. done.
Qed.
End Once.

(** ** Given once *)
Section Given.
Context {P : Params} (calls : U -> list Call) (c : Config) (h : Handler) (j : ProjImpl) (ops : list Op) (u0 : U).
Context (Hin : h ∈ c_app c) (Hj : h_impl h = ImplProj j) (Hrec : recording calls j)
  (Hfor : forthright calls c j u0 ops) (Hcalm : c_compact c = true -> forall now, calm (pj_compact j now))
  (Hpriv : private calls c h ops).
Context (Hok : app_ok c).
Notation main u := (filter (fun k => ~ is_compaction k) (calls u)).

Lemma given_app a b : given (a ++ b) = given a ++ given b.
Proof. apply omap_app. Qed.
Lemma given_main ks : given (filter (fun k => ~ is_compaction k) ks) = given ks.
Proof.
  induction ks as [|k ks IH]; [done|]. rewrite filter_cons.
  change (given (k :: ks)) with (given ([k] ++ ks)). rewrite given_app.
  destruct k; destruct (decide _) as [Hd|Hd]; cbn in Hd; try tauto;
    rewrite <- IH; reflexivity.
Qed.
Lemma was_given_in id ks : was_given id ks <-> id ∈ (fun x => x.1.1) <$> given ks.
Proof.
  split.
  - intros (cur & next & t & m & H). apply elem_of_list_fmap. exists (id, t, m). split; [done|].
    apply elem_of_list_omap. exists (CHandle id cur next t m). done.
  - intros H. apply elem_of_list_fmap in H as ([[i t] m] & -> & H). apply elem_of_list_omap in H as (k & Hk & E).
    destruct k as [| id cur next t' m'| | | |]; try discriminate E. injection E as -> -> ->. exists cur, next, t, m. exact Hk.
Qed.

(** The calls for one message. *)
Definition Sess (e : Env) (ks : list Call) : Prop :=
  if consumes h (m_type (e_msg e)) then exists ce r, Session (h_id h) (e_id e) (e_created e) (e_msg e) ce ks r else ks = [].
(** ResourceVersion knows only what was given. *)
Definition Okc (t : list Call) : Prop :=
  forall pre id a post, t = pre ++ CVersion id a :: post -> ~ was_given id pre -> a = inl ("", None).

Definition W (u : U) (fs : list Fact) (u' : U) : Prop :=
  exists sess, Forall2 Sess (engaged_by (h_id h) fs) sess /\ main u' = main u ++ concat sess /\
    (forall m0 t, main u = m0 ++ t -> (forall id, ~ was_given id m0) -> Okc t -> Okc (t ++ concat sess)).

Lemma W_same u fs u' : engaged_by (h_id h) fs = [] -> main u' = main u -> W u fs u'.
Proof. intros H1 H2. unfold W. rewrite H1, H2. exists []. split; [constructor|]. cbn. rewrite app_nil_r. split; [done|]. intros. rewrite app_nil_r. done. Qed.

Lemma other_handler h' : h' ∈ c_app c -> h_id h' <> h_id h -> impl_leaves calls (h_impl h').
Proof.
  intros Hin' Hne. apply (proj1 Hpriv); [exact Hin'|]. intros E. apply Hne.
  rewrite (nodup_fmap_inj h_name _ _ _ (proj1 Hok) Hin' Hin E). done.
Qed.

Lemma session_head id t m ce ks r k : Session (h_id h) id t m ce ks r -> head ks = Some k ->
  exists ks', ks = k :: ks' /\ forall id' a, CVersion id' a ∉ ks'.
Proof.
  destruct 1; intros [= <-]; eexists; (split; [reflexivity|]); intros id' a Hk; set_solver.
Qed.

Lemma world_ok : WorldOK c W.
Proof.
  constructor.
  - intros u. apply W_same; done.
  - intros u fs u' fs' u'' (s1 & A1 & B1 & C1) (s2 & A2 & B2 & C2). exists (s1 ++ s2).
    rewrite engaged_app, concat_app. split; [apply Forall2_app; done|]. split; [rewrite B2, B1, app_assoc; done|].
    intros m0 t Hm Hng Ht. rewrite app_assoc. eapply (C2 m0); [rewrite B1, Hm, <- app_assoc; done|exact Hng|].
    eapply C1; eassumption.
  - intros u f _ Hne. apply W_same; [|done]. destruct f; try done. destruct (Hne h0 e eq_refl).
  - intros o h' now env g cs g' cs' fs r Hin' Hm Hc.
    destruct (ctrl_handle_spec _ _ _ _ _ _ _ _ _ _ _ Hc) as [Hab _].
    assert (He : engaged_by (h_id h) (HandlingBegun (h_id h') env :: fs) = if decide (h_id h' = h_id h) then [env] else []).
    { change (HandlingBegun (h_id h') env :: fs) with ([HandlingBegun (h_id h') env] ++ fs).
      rewrite engaged_app, (about_engaged _ _ _ _ Hab). cbn. destruct (decide _); done. }
    destruct (decide (h_id h' = h_id h)) as [E|E].
    2:{ apply W_same; [exact He|]. rewrite (ctrl_handle_leaves calls _ _ _ _ _ _ _ _ _ _ _ (other_handler _ Hin' E) Hc). done. }
    assert (h' = h) as ->.
    { eapply (nodup_fmap_inj h_name); [exact (proj1 Hok)|exact Hin'|exact Hin|]. exact (f_equal hid_name E). }
    unfold W. rewrite He. unfold ctrl_handle in Hc. unfold cs_match in Hm. rewrite Hj in Hc, Hm.
    destruct cs as [| | |last]; try done.
    destruct (j_handle _ _ _ _ _ _ _) as [[g1 fs1] r1] eqn:Eh. injection Hc as -> _ <- ->.
    unfold j_handle in Eh. destruct (j_handle_threads _ _ _ _ _ _ _) as [[g2 fs2] r2] eqn:Et. injection Eh as -> <- ->.
    destruct (consumes h (m_type (e_msg env))) eqn:Econ.
    + destruct (calls_of_handling calls _ _ _ _ _ _ _ _ _ _ Hrec Econ Et (or_introl (fun E => Hcalm E now)))
        as (ks & cks & ce & E1 & E2 & HS & _ & Hhead).
      exists [ks]. split; [constructor; [|constructor]; unfold Sess; rewrite Econ; eauto|].
      cbn [concat]. rewrite app_nil_r. split; [exact E1|].
      intros m0 t Hmain Hng Ht pre id a post Heq Hpre.
      destruct (session_head _ _ _ _ _ _ _ HS Hhead) as (ks' & -> & Hno).
      remember (CVersion (e_id env) (pj_version j (e_id env) (g_user g)).2) as k0 eqn:Hk0.
      assert (Hcase : (exists p2, t = pre ++ CVersion id a :: p2) \/ pre = t /\ CVersion id a = k0).
      { apply app_eq_inv in Heq as [(k & Hk1 & Hk2)|(k & -> & Hk2)].
        - destruct k as [|x k]; [rewrite app_nil_r in Hk1; cbn in Hk2; injection Hk2 as Hk2 _; right; done|].
          cbn in Hk2. injection Hk2 as <- _. left. exists k. exact Hk1.
        - destruct k as [|x k]; [rewrite app_nil_r; cbn in Hk2; injection Hk2 as Hk2 _; right; done|].
          cbn in Hk2. injection Hk2 as <- Hk2. exfalso. apply (Hno id a). rewrite Hk2. set_solver. }
      destruct Hcase as [(p2 & ->)|[-> Ek]]; [eapply Ht; [reflexivity|exact Hpre]|].
      rewrite Hk0 in Ek. injection Ek as -> ->. apply (proj1 Hfor). intros Hg. apply was_given_in in Hg.
      rewrite <- given_main, Hmain, given_app, fmap_app in Hg. apply elem_of_app in Hg as [Hg|Hg]; apply was_given_in in Hg;
        [exact (Hng _ Hg)|exact (Hpre Hg)].
    + exists [[]]. split; [constructor; [|constructor]; unfold Sess; rewrite Econ; done|].
      cbn [concat]. rewrite app_nil_r. unfold j_handle_threads in Et. rewrite Econ in Et. injection Et as -> _ _.
      rewrite app_nil_r. split; [done|]. intros. rewrite app_nil_r. done.
  - intros h' now g cs g' cs' fs r Hin' Hm Hc.
    destruct (decide (h_id h' = h_id h)) as [E|E].
    + assert (h' = h) as ->.
      { eapply (nodup_fmap_inj h_name); [exact (proj1 Hok)|exact Hin'|exact Hin|]. exact (f_equal hid_name E). }
      destruct (ctrl_tick_spec _ _ _ _ _ _ _ _ Hc) as [Hab _]; [|exact Hm|].
      { intros ps ->. unfold cs_match in Hm. rewrite Hj in Hm. done. }
      apply W_same; [apply (about_tick_engaged _ _ _ Hab)|].
      unfold ctrl_tick in Hc. unfold cs_match in Hm. rewrite Hj in Hc, Hm. destruct cs as [| | |last]; try done.
      destruct (j_tick_ctrl _ _ _ _ _) as [[[g1 l1] fs1] r1] eqn:Et. injection Hc as -> _ _ _.
      unfold j_tick_ctrl in Et. destruct (compact_interval <=? now - last)%Z; [|injection Et as -> _ _ _; done].
      destruct (j_run _ _ _ _ _) as [[g2 fs2] r2] eqn:Er.
      assert (g' = g2) as -> by (destruct r2; injection Et as <- _ _ _; done).
      destruct (run_calls calls (CCompact now) CCompacted (S0 _) _ _ _ _ _ _ _ _ (rc_compact _ _ Hrec now) Er) as (ks & Hks & _ & HQ).
      apply (comp_step calls _ _ ks Hks). apply HQ; [exact I|intros; exact I].
    + apply W_same; [|rewrite (ctrl_tick_leaves calls _ _ _ _ _ _ _ _ (other_handler _ Hin' E) Hc); done].
      unfold ctrl_tick in Hc. unfold cs_match in Hm. destruct (h_impl h') as [a|pi|i|j'], cs; try done; try (injection Hc as _ _ <- _; done).
      * destruct (p_tick now ps) as [ps1 rd]. injection Hc as _ _ <- _. done.
      * destruct (j_tick_ctrl _ _ _ _ _) as [[[g1 l1] fs1] r1] eqn:Et. injection Hc as _ _ <- _.
        apply j_tick_facts in Et as (H1 & _). clear -H1.
        induction H1 as [|f fs Hf _ IH]; [done|]. destruct f; cbn in Hf; try done; exact IH.
Qed.

Lemma evfact_inj (a b : list Fact) : EvFact <$> a = EvFact <$> b -> a = b.
Proof. revert b. induction a as [|x a IH]; intros [|y b]; cbn; intros H; try discriminate H; [done|]. injection H as -> H. rewrite (IH _ H). done. Qed.

Lemma user_engaged u fs u' : W u fs u' -> forall m0 t x sess0,
  (forall id, ~ was_given id m0) -> main u = m0 ++ t -> t = concat sess0 -> Forall2 Sess (engaged_by (h_id h) x) sess0 -> Okc t ->
  exists sess1, main u' = m0 ++ concat sess1 /\ Forall2 Sess (engaged_by (h_id h) (x ++ fs)) sess1 /\ Okc (concat sess1).
Proof.
  intros (sess & A & B & C) m0 t x sess0 Hng Hm -> HF Ht. exists (sess0 ++ sess). rewrite concat_app, engaged_app.
  split; [rewrite B, Hm, app_assoc; done|]. split; [apply Forall2_app; done|]. eapply C; eassumption.
Qed.

Lemma history_calls st evs fin : history c u0 ops st evs fin ->
  exists m0 sess, (forall id, ~ was_given id m0) /\ main (g_user (es_g st)) = m0 ++ concat sess /\
    Forall2 Sess (engaged_by (h_id h) (since_reset evs)) sess /\ Okc (concat sess).
Proof.
  destruct Hfor as (_ & Hinit & Hreset).
  assert (Hnil : Okc (concat [])).
  { intros pre id a post Heq. destruct pre; discriminate Heq. }
  assert (Hngm : forall u, (forall id, ~ was_given id (calls u)) -> forall id, ~ was_given id (main u)).
  { intros u Hu id Hg. apply (Hu id). apply was_given_in. apply was_given_in in Hg. rewrite given_main in Hg. exact Hg. }
  apply (history_induction c (fun st x => exists m0 sess, (forall id, ~ was_given id m0) /\
    main (g_user (es_g st)) = m0 ++ concat sess /\ Forall2 Sess (engaged_by (h_id h) x) sess /\ Okc (concat sess))).
  - exists (main u0), []. split; [apply Hngm; exact Hinit|]. split; [rewrite app_nil_r; done|]. split; [constructor|exact Hnil].
  - intros st0 op st' fs r x Hre Hop Hops Hnr Hrun (m0 & sess & Hng & Hm & HF & Ht).
    assert (Hst0 : st_ok c st0).
    { apply reachable_st_ok. exact Hre. }
    destruct (world_op c Hok W world_ok _ _ _ _ _ Hst0 Hop Hrun) as [_ Hw].
    destruct op as [o fuel m opts|o fuel order opts| |f]; [| |done|].
    + destruct Hw as (fs' & Heq & Hw). assert (fs' = fs) as -> by (symmetry; apply evfact_inj; exact Heq).
      destruct (user_engaged _ _ _ Hw m0 _ x sess Hng Hm eq_refl HF Ht) as (sess1 & H1 & H2 & H3). exists m0, sess1. done.
    + destruct Hw as (fs' & Heq & Hw). assert (fs' = fs) as -> by (symmetry; apply evfact_inj; exact Heq).
      destruct (user_engaged _ _ _ Hw m0 _ x sess Hng Hm eq_refl HF Ht) as (sess1 & H1 & H2 & H3). exists m0, sess1. done.
    + destruct Hw as [Heq Hu]. destruct fs; [|discriminate Heq]. exists m0, sess. rewrite app_nil_r, Hu.
      rewrite (proj2 Hpriv f Hops). done.
  - intros Hr st0 x Hre _. exists (main (g_user (es_g (e_reset c st0)))), [].
    split; [|split; [rewrite app_nil_r; done|split; [constructor|exact Hnil]]].
    apply Hngm. intros id. apply (Hreset Hr (g_user (es_g st0)) id).
Qed.

Lemma session_given e ce ks r : Session (h_id h) (e_id e) (e_created e) (e_msg e) ce ks r ->
  (exists a, CVersion (e_id e) a ∈ ks /\ a <> inl ("", None) /\ head ks = Some (CVersion (e_id e) a)) \/
  given ks = [(e_id e, e_created e, e_msg e)] /\ forall id cur next t m, CHandle id cur next t m ∈ ks -> cur = "" /\ next <> "".
Proof.
  destruct 1.
  1-3: left; eexists; (split; [left|]); (split; [|reflexivity]); try done; congruence.
  all: right; (split; [reflexivity|]); intros id0 cur0 next0 t0 m0' Hk; repeat (apply elem_of_cons in Hk as [Hk|Hk]; [try discriminate Hk; try (injection Hk as -> -> -> -> ->; done)|]);
    apply elem_of_nil in Hk; done.
Qed.

Lemma sessions_given es sess : NoDup (e_id <$> es) -> Forall (fun e => consumes h (m_type (e_msg e)) = true) es ->
  Forall2 Sess es sess -> Okc (concat sess) ->
  given (concat sess) = (fun e => (e_id e, e_created e, e_msg e)) <$> es /\
  forall id cur next t m, CHandle id cur next t m ∈ concat sess -> cur = "" /\ next <> "".
Proof.
  revert sess. induction es as [|e es IH] using rev_ind; intros sess Hnd Hcon HF Hokc.
  { apply Forall2_nil_inv_l in HF as ->. split; [done|]. intros id cur next t m Hk. apply elem_of_nil in Hk. done. }
  apply Forall2_app_inv_l in HF as (s1 & s2 & HF1 & HF2 & ->). apply Forall2_cons_inv_l in HF2 as (ks & s3 & HS & HF3 & ->).
  apply Forall2_nil_inv_l in HF3 as ->. rewrite fmap_app in Hnd. rewrite fmap_app. apply NoDup_app in Hnd as (Hnd & Hd & _).
  apply Forall_app in Hcon as [Hcon1 Hcon2]. apply Forall_cons in Hcon2 as [Hcon2 _].
  rewrite concat_app in Hokc. rewrite concat_app. cbn [concat] in *. rewrite app_nil_r in Hokc. rewrite app_nil_r.
  destruct (IH _ Hnd Hcon1 HF1) as [IH1 IH2].
  { intros pre id a post Heq. eapply (Hokc pre id a (post ++ ks)). rewrite Heq, <- app_assoc. done. }
  unfold Sess in HS. rewrite Hcon2 in HS. destruct HS as (ce & r & HS).
  destruct (session_given _ _ _ _ HS) as [(a & _ & Hne & Hhead)|[H1 H2]].
  - exfalso. destruct ks as [|k ks]; [discriminate Hhead|]. injection Hhead as ->.
    apply Hne. eapply Hokc; [reflexivity|]. intros Hg. apply was_given_in in Hg. rewrite IH1, <- list_fmap_compose in Hg.
    apply (Hd (e_id e)); [exact Hg|left].
  - rewrite given_app, IH1, H1. split; [done|]. intros id cur next t m Hk. apply elem_of_app in Hk as [Hk|Hk]; eauto.
Qed.

Lemma C30_lemma st evs fin : history c u0 ops st evs fin -> (g_next (es_g st) < 2 ^ 64)%N ->
  given (calls (g_user (es_g st))) =
    (fun e => (e_id e, e_created e, e_msg e)) <$> engaged_by (h_id h) (since_reset evs) /\
  NoDup (e_id <$> engaged_by (h_id h) (since_reset evs)) /\
  (forall id cur next t m, CHandle id cur next t m ∈ calls (g_user (es_g st)) -> cur = "" /\ next <> "").
Proof.
  intros H Hn. destruct (projection_engaged _ _ _ _ _ _ _ _ H Hn Hin Hj) as [Hnd Hcon].
  destruct (history_calls _ _ _ H) as (m0 & sess & Hng & Hm & HF & Hokc).
  destruct (sessions_given _ sess Hnd) as [H1 H2]; [|exact HF|exact Hokc|].
  { eapply Forall_impl; [exact Hcon|]. intros e He. apply bool_decide_eq_true. exact He. }
  assert (Hm0 : given m0 = []).
  { destruct (given m0) as [|[[id t] m] l] eqn:E; [done|]. destruct (Hng id). apply was_given_in. rewrite E. left. }
  split; [rewrite <- given_main, Hm, given_app, Hm0; exact H1|]. split; [exact Hnd|].
  intros id cur next t m Hk.
  assert (Hk' : CHandle id cur next t m ∈ main (g_user (es_g st))) by (apply elem_of_list_filter; split; [intros []|exact Hk]).
  rewrite Hm in Hk'. apply elem_of_app in Hk' as [Hk'|Hk']; [destruct (Hng id); exists cur, next, t, m; exact Hk'|].
  eapply H2. exact Hk'.
Qed.
End Given.
