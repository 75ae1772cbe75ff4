(** * Timeouts in tests: proofs. *)
From Verif Require Import TestSpec TestLemmas TestProof EngineFacts OpFacts ProcHist EnvProof EngineLemmas PropsEnvelope PropsProcess.
From Coq Require Import Lia.

Section TestTime.
Context {P : Params}.

Lemma since_facts (fs : list Fact) : since_reset (EvFact <$> fs) = fs.
Proof.
  induction fs as [|f fs IH] using rev_ind; [done|]. rewrite fmap_app. unfold since_reset. rewrite foldl_app.
  fold (since_reset (EvFact <$> fs)). by rewrite IH.
Qed.

Lemma engine_facts_app l l' : engine_facts (l ++ l') = engine_facts l ++ engine_facts l'.
Proof. unfold engine_facts. by rewrite fmap_app, concat_app. Qed.

(** The first fact of an operation begins a cycle. *)
Lemma op_first c st op st' fs r :
  reachable c st -> op_ok c op -> run_op c op st = (st', EvFact <$> fs, r) -> fs <> [] ->
  exists f fs', fs = f :: fs' /\ cycle_begun f.
Proof.
  intros Hr Hop Hrun Hne. destruct (op_lemma _ _ _ _ _ _ Hr Hop Hrun) as [[-> _]|H]; [done|].
  destruct op as [o fuel m opts|o fuel order opts| |g]; cbn in H.
  - destruct H as (env & et & eh & _ & _ & _ & _ & [(x & -> & _)|(s & body & errs & _ & Hf)]); [by do 2 eexists|].
    destruct s; destruct Hf as [-> _]; by do 2 eexists.
  - destruct H as (et & eh & _ & [(x & -> & _)|[(x & ticks & errs & _ & -> & _)|[(ticks & errs & v & _ & -> & _)|(ticks & errs & s & body & errs' & _ & _ & Hf)]]]);
      try by do 2 eexists.
    destruct s; destruct Hf as [-> _]; by do 2 eexists.
  - by destruct H as [-> _].
  - by destruct H as [-> _].
Qed.

(** The time of the operation is that of the cycles it notified. *)
Lemma engine_time_within (op : Op) pre fs :
  (forall f, f ∈ fs -> cycle_says op f) -> (exists f fs', fs = f :: fs' /\ cycle_begun f) ->
  engine_time (pre ++ fs) = Some (op_now op).
Proof.
  intros Hs (f & fs' & -> & Hf). unfold engine_time. rewrite foldl_app. cbn.
  assert (H0 : forall x, engine_time_step x f = Some (op_now op)).
  { intros x. specialize (Hs f (elem_of_list_here _ _)). destruct f; cbn in Hf; try done; cbn in Hs |- *; by destruct Hs as [-> _]. }
  rewrite H0. clear H0. assert (Hs' : forall f, f ∈ fs' -> cycle_says op f) by (intros; apply Hs; by right). clear Hs Hf.
  induction fs' as [|g fs' IH]; [done|]. cbn [foldl].
  assert (engine_time_step (Some (op_now op)) g = Some (op_now op)) as ->.
  { specialize (Hs' g (elem_of_list_here _ _)). destruct g; cbn in Hs' |- *; try done; by destruct Hs' as [-> _]. }
  apply IH. intros; apply Hs'; by right.
Qed.

(** The clock of a test does not go back. *)
Lemma clock_from_le z l : StronglySorted Z.le (z :: clock_sets l) -> (z <= clock_at z l)%Z.
Proof.
  revert z. induction l as [|ev l IH]; intros z H; [done|].
  change (ev :: l) with ([ev] ++ l). rewrite clock_at_app. destruct ev; cbn in H; try (by apply IH).
  apply StronglySorted_inv in H as [H1 H2]. apply IH in H1. apply Forall_cons in H2 as [H2 _]. etrans; [exact H2|exact H1].
Qed.
Lemma clock_sets_app l l' : clock_sets (l ++ l') = clock_sets l ++ clock_sets l'.
Proof. unfold clock_sets. by rewrite omap_app. Qed.

Lemma clock_le E app u wall topts p st evs r l l' l'' :
  testing E app u wall topts p st evs r -> evs = l ++ l' ++ l'' ->
  (clock_at (start_time wall topts) l <= clock_at (start_time wall topts) (l ++ l'))%Z.
Proof.
  intros Ht ->. destruct (testing_scan _ _ _ _ _ _ _ _ _ Ht) as (a & HS & _).
  apply scan_app in HS as (b & HS0 & HS). apply scan_app in HS as (d & HS & _).
  assert (H0 := scan_clock _ _ _ _ _ HS0). cbn in H0.
  rewrite clock_at_app, <- H0. apply clock_from_le. exact (scan_sorted _ _ _ _ _ HS).
Qed.

(** The time of an operation of a test. *)
Lemma test_op_now E app u wall topts p st evs r l1 op fs l2 :
  testing E app u wall topts p st evs r -> evs = l1 ++ TvOp op fs :: l2 -> (forall t, OptNow t ∉ unsafe topts) ->
  (op_now op <= clock_at (start_time wall topts) l1)%Z.
Proof.
  intros Ht He Hu.
  destruct (test_op _ _ _ _ _ _ _ _ _ _ _ _ _ Ht He) as (e & e' & res & Hr & Hop & Hrun & l0 & k & l' & obs & Hin & Hk).
  assert (Hd : (exists o fuel m, op = OpDispatch o fuel m (OptNow (clock_at (start_time wall topts) l0) :: (base_opts topts ++ hopts (enables l0)) ++ eopts obs)) ->
    (op_now op <= clock_at (start_time wall topts) l1)%Z).
  { intros (o & fuel & m & ->). cbn [op_now]. unfold op_time. rewrite (time_lemma _ _ _ _ Hu). cbn.
    destruct Hin as [-> _]. eapply (clock_le _ _ _ _ _ _ _ _ _ _ _ _ Ht). rewrite He. rewrite <- app_assoc. reflexivity. }
  destruct k; [by apply Hd| |by apply Hd].
  destruct Hk as (o & fuel & order & ->). cbn [op_now]. unfold op_time. by rewrite last_opt_app.
Qed.

Lemma not_early E app u wall topts p st evs r l1 op fs l2 h e :
  testing E app u wall topts p st evs r -> evs = l1 ++ TvOp op fs :: l2 -> (forall t, OptNow t ∉ unsafe topts) ->
  HandlingBegun h e ∈ fs -> m_kind (e_msg e) = KTimeout -> (e_sched e <= clock_at (start_time wall topts) l1)%Z.
Proof.
  intros Ht He Hu Hf Hm.
  destruct (test_op_from _ _ _ _ _ _ _ _ _ _ _ _ _ Ht He) as (est & est' & res & Hh & Hop & Hrun & _).
  assert (Hr : reachable (test_config app) est) by (by exists u, (engine_ops l1), (EvFact <$> engine_facts l1)).
  destruct (testing_scan _ _ _ _ _ _ _ _ _ Ht) as (a & HS & _).
  destruct (scan_history _ _ _ _ _ HS eq_refl) as [H1 H2].
  assert (Hw : history (test_config app) u (engine_ops evs) (ab_eng a) (EvFact <$> engine_facts evs) (ab_live a)).
  { split; [apply Ht|]. by split. }
  apply elem_of_list_split in Hf as (fs1 & fs2 & Hfs).
  assert (Ho : occurs (EvFact <$> engine_facts evs) (engine_facts l1 ++ fs1) (HandlingBegun h e)).
  { exists (EvFact <$> (engine_facts l1 ++ fs1)), (EvFact <$> (fs2 ++ engine_facts l2)). split; [|by rewrite since_facts].
    rewrite He, engine_facts_app. cbn [engine_facts]. change (engine_facts (TvOp op fs :: l2)) with (fs ++ engine_facts l2).
    rewrite Hfs. rewrite ?fmap_app, ?fmap_cons, ?fmap_app, <- ?app_assoc. reflexivity. }
  destruct (C13_timeouts_not_early _ _ _ _ _ _ _ _ _ Hw Ho Hm) as (now & Hn & Hle).
  assert (Hsays : forall f, f ∈ fs -> cycle_says op f) by (intros; eapply op_cycle; eassumption).
  destruct (op_first _ _ _ _ _ _ Hr Hop Hrun) as (f & fs' & Hfs' & Hb); [rewrite Hfs; by destruct fs1|].
  assert (Hn' : engine_time (engine_facts l1 ++ fs1) = Some (op_now op)).
  { apply engine_time_within; [intros; apply Hsays; rewrite Hfs; apply elem_of_app; by left|].
    rewrite Hfs in Hfs'. destruct fs1 as [|g fs1]; cbn in Hfs'; injection Hfs' as <- <-; [by destruct Hb|eauto]. }
  rewrite Hn' in Hn. injection Hn as <-. etrans; [exact Hle|]. by eapply test_op_now.
Qed.

(** After its tick, a process has no pending timeout that is due. *)
Definition overdue (now : Z) (t : Env) : Prop := (e_sched t <= now)%Z.
Lemma later_not now l : Forall (fun t => (now < e_sched t)%Z) (later now l).
Proof. apply Forall_forall. intros t Ht. by apply elem_of_list_filter in Ht as [? _]. Qed.

Lemma step_now (op : Op) v f : pv_now v = op_now op -> cycle_says op f -> pv_now (proc_step v f) = op_now op.
Proof.
  intros Hn. destruct f; cbn; try done; try (by intros [-> _]).
  - by destruct (m_kind _).
  - match goal with e : option Err |- _ => destruct e end; [done|]. destruct (pv_pend v); [|done]. destruct (decide _); [|done]. unfold proc_commit. by destruct (pp_ended _).
  - by destruct (decide _).
Qed.
Lemma step_later (op : Op) v f h : pv_now v = op_now op -> cycle_says op f ->
  Forall (fun t => (op_now op < e_sched t)%Z) (pv_tms v h) -> Forall (fun t => (op_now op < e_sched t)%Z) (pv_tms (proc_step v f) h).
Proof.
  intros Hn Hs Hl. destruct f; cbn; try done.
  - by destruct (m_kind _).
  - match goal with e : option Err |- _ => destruct e end; [done|]. destruct (pv_pend v) as [pp|]; [|done]. destruct (decide _); [|done]. unfold proc_commit. destruct (pp_ended _); cbn; unfold put.
    + destruct (decide _) as [->|]; [|done]. apply Forall_forall. intros t0 Ht0. apply elem_of_list_filter in Ht0 as [_ Ht0]. by eapply Forall_forall in Hl.
    + destruct (decide _) as [->|]; [|done]. apply Forall_app. split; [done|]. rewrite Hn. apply later_not.
  - destruct (decide _); [|done]. cbn. unfold put. destruct (decide _) as [->|]; [|done]. rewrite Hn. apply later_not.
Qed.

Lemma ticked_later (op : Op) pre fs h :
  (forall f, f ∈ fs -> cycle_says op f) -> (exists f fs', fs = f :: fs' /\ cycle_begun f) ->
  TickBegun h ∈ fs -> hid_type h = HTProcess ->
  Forall (fun t => (op_now op < e_sched t)%Z) (pending_timeouts (pre ++ fs) h).
Proof.
  intros Hs (f & fs' & -> & Hf) Ht Hp. unfold pending_timeouts, proc_view. rewrite foldl_app. cbn [foldl].
  generalize (foldl proc_step (mkPView 0 (fun _ _ => false) (fun _ => []) [] [] (fun _ => []) (fun _ => []) (fun _ => []) (fun _ => []) None) pre) as v0.
  intros v0.
  assert (Hn : pv_now (proc_step v0 f) = op_now op).
  { specialize (Hs f (elem_of_list_here _ _)). destruct f; cbn in Hf; try done; cbn in Hs |- *; by destruct Hs as [-> _]. }
  assert (Ht' : TickBegun h ∈ fs') by (apply elem_of_cons in Ht as [<-|Ht]; [by destruct Hf|done]).
  assert (Hs' : forall f, f ∈ fs' -> cycle_says op f) by (intros; apply Hs; by right). clear Hs Ht Hf.
  apply elem_of_list_split in Ht' as (a & b & ->). rewrite foldl_app. cbn [foldl].
  assert (Hkeep : forall l v, pv_now v = op_now op -> (forall f, f ∈ l -> cycle_says op f) -> pv_now (foldl proc_step v l) = op_now op).
  { clear. induction l as [|g l IH]; intros v Hv Hl; [done|]. cbn [foldl]. apply IH; [|intros; apply Hl; by right].
    apply step_now; [done|]. apply Hl. by left. }
  assert (Hna : pv_now (foldl proc_step (proc_step v0 f) a) = op_now op).
  { apply Hkeep; [done|]. intros; apply Hs'. apply elem_of_app. by left. }
  revert Hna. generalize (foldl proc_step (proc_step v0 f) a) as v. intros v Hna.
  assert (Hsb : forall f, f ∈ b -> cycle_says op f) by (intros; apply Hs'; apply elem_of_app; right; by right).
  assert (H0 : pv_now (proc_step v (TickBegun h)) = op_now op /\ Forall (fun t => (op_now op < e_sched t)%Z) (pv_tms (proc_step v (TickBegun h)) h)).
  { cbn. destruct (decide _); [|done]. cbn. split; [done|]. unfold put. destruct (decide _); [|done]. rewrite Hna. apply later_not. }
  revert H0. generalize (proc_step v (TickBegun h)) as w. clear -Hsb. induction b as [|g b IH]; intros w [H1 H2]; [done|]. cbn [foldl].
  apply IH; [intros; apply Hsb; by right|]. split; [apply step_now|eapply step_later]; try done; apply Hsb; by left.
Qed.

(** A Tick that was not cut short ticks every handler that is not skipped. *)
Lemma ticks_begun skip hs fs errs h : Ticks skip hs SDone fs errs -> h ∈ hs -> skip h = None -> TickBegun (h_id h) ∈ fs.
Proof.
  intros H. remember SDone as s eqn:Es. revert h. induction H as [|h0 hs s r fs errs Hk H IH|h0 hs s fs err fs' errs Hk Ha H IH|h0 hs fs err x Hk Ha|h0 hs fs Hk Ha]; intros h Hin Hskip; try done.
  - inversion Hin.
  - apply elem_of_cons in Hin as [->|Hin]; [congruence|]. right. by apply IH.
  - apply elem_of_cons in Hin as [->|Hin]; [left|]. right. apply elem_of_app. right. right. by apply IH.
Qed.

Lemma tick_completes c st op st' fs r err et eh :
  reachable c st -> op_ok c op -> run_op c op st = (st', EvFact <$> fs, r) ->
  TickCycleCompleted err et eh ∈ fs -> (forall s, ECtx s ∉ err) ->
  uncancelled r /\ exists o fuel order opts, op = OpTick o fuel order opts /\
    forall h, h ∈ c_app c -> skipped opts h = None -> TickBegun (h_id h) ∈ fs.
Proof.
  intros Hr Hop Hrun Hin Herr. destruct (op_lemma _ _ _ _ _ _ Hr Hop Hrun) as [[-> _]|H]; [inversion Hin|].
  assert (Hnc : forall c now skip q s fs errs, Cascade c now skip q s fs errs -> TickCycleCompleted err et eh ∉ fs).
  { clear. assert (Hab : forall h env fs, Forall (about h env) fs -> TickCycleCompleted err et eh ∉ fs).
    { intros h env fs HF Hx. exact (proj1 (Forall_forall _ _) HF _ Hx). }
    assert (Hof : forall now skip env hs fs envs errs, Offers now skip env hs fs envs errs -> TickCycleCompleted err et eh ∉ fs).
    { intros now skip env hs fs envs errs H. induction H as [|h hs fs envs err0 fs' envs' errs HO H IH]; [inversion 1|].
      rewrite elem_of_app. intros [Hx|Hx]; [|done]. destruct HO as [r0 Hs|fs0 err1 Hs HF].
      - apply elem_of_list_singleton in Hx. discriminate.
      - apply elem_of_cons in Hx as [Hx|Hx]; [discriminate|]. apply elem_of_app in Hx as [Hx|Hx]; [by eapply Hab|].
        apply elem_of_list_singleton in Hx. discriminate. }
    intros c now skip q s fs errs H. induction H as [|env q s hs fs envs errs fs' errs' Hrc HO H IH|env q hs fs envs errs x Hrc HO|env q hs fs Hrc HO|]; intros Hx;
      try (by inversion Hx); apply elem_of_cons in Hx as [Hx|Hx]; try discriminate.
    - apply elem_of_app in Hx as [Hx|Hx]; [by eapply Hof|]. apply elem_of_cons in Hx as [Hx|Hx]; [discriminate|done].
    - apply elem_of_app in Hx as [Hx|Hx]; [by eapply Hof|]. apply elem_of_list_singleton in Hx. discriminate.
    - destruct HO as (b & h & a & fs1 & envs & errs & fs2 & -> & HO & Hs & HF & ->).
      apply elem_of_app in Hx as [Hx|Hx]; [by eapply Hof|]. apply elem_of_cons in Hx as [Hx|Hx]; [discriminate|]. by eapply Hab. }
  assert (Hnt : forall skip hs s fs errs, Ticks skip hs s fs errs -> TickCycleCompleted err et eh ∉ fs).
  { clear. assert (Hab : forall h fs, Forall (about_tick h) fs -> TickCycleCompleted err et eh ∉ fs).
    { intros h fs HF Hx. exact (proj1 (Forall_forall _ _) HF _ Hx). }
    intros skip hs s fs errs H. induction H as [|h0 hs s r fs errs Hk H IH|h0 hs s fs err0 fs' errs Hk Ha H IH|h0 hs fs err0 x Hk Ha|h0 hs fs Hk Ha]; intros Hx;
      try (by inversion Hx); apply elem_of_cons in Hx as [Hx|Hx]; try discriminate; try done.
    - apply elem_of_app in Hx as [Hx|Hx]; [by eapply Hab|]. apply elem_of_cons in Hx as [Hx|Hx]; [discriminate|done].
    - apply elem_of_app in Hx as [Hx|Hx]; [by eapply Hab|]. apply elem_of_list_singleton in Hx. discriminate.
    - by eapply Hab. }
  destruct op as [o fuel m opts|o fuel order opts| |g]; cbn in H.
  - exfalso. destruct H as (env & et0 & eh0 & _ & _ & _ & _ & [(x & -> & _)|(s & body & errs & HC & Hf)]).
    + apply elem_of_cons in Hin as [?|Hin]; [discriminate|]. apply elem_of_list_singleton in Hin. discriminate.
    + specialize (Hnc _ _ _ _ _ _ _ HC). destruct s; destruct Hf as [-> _]; apply elem_of_cons in Hin as [?|Hin]; try discriminate; try done;
        apply elem_of_app in Hin as [Hin|Hin]; try done; apply elem_of_list_singleton in Hin; discriminate.
  - destruct H as (et0 & eh0 & _ & [(x & -> & _)|[(x & ticks & errs & HT & -> & _)|[(ticks & errs & v & HT & -> & _)|(ticks & errs & s & body & errs' & HT & HC & Hf)]]]).
    + apply elem_of_cons in Hin as [?|Hin]; [discriminate|]. apply elem_of_list_singleton in Hin. injection Hin as -> _ _.
      exfalso. apply (Herr x). by left.
    + exfalso. apply elem_of_cons in Hin as [?|Hin]; [discriminate|]. apply elem_of_app in Hin as [Hin|Hin]; [by eapply Hnt|].
      apply elem_of_list_singleton in Hin. injection Hin as -> _ _. apply (Herr x). by left.
    + exfalso. apply elem_of_cons in Hin as [?|Hin]; [discriminate|]. by eapply Hnt.
    + assert (Hn1 := Hnt _ _ _ _ _ HT). assert (Hn2 := Hnc _ _ _ _ _ _ _ HC).
      destruct s as [|x| |]; destruct Hf as [-> Hres]; apply elem_of_cons in Hin as [?|Hin]; try discriminate; rewrite ?elem_of_app in Hin.
      * destruct Hin as [?|[?|Hin]]; [done..|]. apply elem_of_list_singleton in Hin. injection Hin as -> -> ->.
        split; [exists (errs ++ errs'); split; [done|]; apply Forall_forall; intros ex Hx [s ->]; by eapply Herr|].
        do 4 eexists. split; [reflexivity|]. intros h Hh Hsk. right. apply elem_of_app. left. eapply ticks_begun; [exact HT| |done].
        destruct Hop as [_ Hop]. by rewrite Hop.
      * destruct Hin as [?|[?|Hin]]; [done..|]. apply elem_of_list_singleton in Hin. injection Hin as -> _ _. exfalso.
        apply (Herr x). apply elem_of_app. right. by left.
      * by destruct Hin.
      * by destruct Hin.
  - destruct H as [-> _]. inversion Hin.
  - destruct H as [-> _]. inversion Hin.
Qed.

Lemma delivered E app u wall topts p st evs r l1 op fs l2 err et eh l0 k l' hd pi t :
  testing E app u wall topts p st evs r -> evs = l1 ++ TvOp op fs :: l2 -> tame topts ->
  TickCycleCompleted err et eh ∈ fs -> (forall s, ECtx s ∉ err) ->
  in_action l1 l0 k l' -> hd ∈ app -> h_impl hd = ImplProc pi -> test_skips l0 hd = None ->
  t ∈ pending_timeouts (engine_facts l1) (h_id hd) -> (e_sched t <= clock_at (start_time wall topts) l1)%Z ->
  DispatchBegun t ∈ fs.
Proof.
  intros Ht He Hu Hf Herr Hin Hh Hi Hsk Htm Hle.
  destruct (test_op_from _ _ _ _ _ _ _ _ _ _ _ _ _ Ht He) as (est & est' & res & Hhist & Hop & Hrun & l0' & k0 & l0'' & obs & Hin' & Hk).
  destruct (test_op_opts _ _ _ _ _ _ _ _ _ _ _ _ _ Ht He Hu) as (l3 & k3 & l3' & Hin3 & _ & _ & Hs).
  destruct (in_action_unique _ _ _ _ _ _ _ Hin Hin3) as (<- & <- & <-). destruct (in_action_unique _ _ _ _ _ _ _ Hin Hin') as (<- & <- & <-).
  assert (Hr : reachable (test_config app) est) by (by exists u, (engine_ops l1), (EvFact <$> engine_facts l1)).
  destruct (tick_completes _ _ _ _ _ _ _ _ _ Hr Hop Hrun Hf Herr) as (Hunc & o & fuel & order & opts & -> & _).
  destruct (reachable_st_ok _ _ Hr hd Hh) as (cs & Hl & Hm). unfold cs_match in Hm. rewrite Hi in Hm. destruct cs as [|ps| |]; try done.
  destruct (C14_every_timeout_is_accounted_for _ _ _ _ _ _ _ _ Hhist Hh Hl) as (Hpend & _). rewrite since_facts in Hpend.
  assert (Hd : t ∈ dispatched fs).
  { eapply (C23_due_timeouts_are_dispatched (test_config app) est o fuel order opts est' fs res hd ps t); try done.
    - split; [done|]. split; [done|]. split; [done|]. intros ->. inversion Hf.
    - rewrite <- Hsk. symmetry. rewrite <- Hs. done.
    - by rewrite Hpend.
    - change (op_time o opts) with (op_now (OpTick o fuel order opts)).
      destruct k; [by destruct Hk as (? & ? & ? & ?)| |by destruct Hk as (? & ? & ? & ?)].
      destruct Hk as (o' & fuel' & order' & ->). cbn [op_now]. unfold op_time. by rewrite last_opt_app. }
  unfold dispatched in Hd. apply elem_of_list_omap in Hd as (f & Hf' & Hd). destruct f; try discriminate. by injection Hd as ->.
Qed.

Lemma none_due E app u wall topts p st evs r l1 op fs l2 err et eh l0 k l' hd pi t :
  testing E app u wall topts p st evs r -> evs = l1 ++ TvOp op fs :: l2 -> tame topts ->
  TickCycleCompleted err et eh ∈ fs -> (forall s, ECtx s ∉ err) ->
  in_action l1 l0 k l' -> hd ∈ app -> h_impl hd = ImplProc pi -> test_skips l0 hd = None ->
  t ∈ pending_timeouts (engine_facts (l1 ++ [TvOp op fs])) (h_id hd) -> (clock_at (start_time wall topts) l1 < e_sched t)%Z.
Proof.
  intros Ht He Hu Hf Herr Hin Hh Hi Hsk Htm.
  destruct (test_op_from _ _ _ _ _ _ _ _ _ _ _ _ _ Ht He) as (est & est' & res & Hhist & Hop & Hrun & l0' & k0 & l0'' & obs & Hin' & Hk).
  destruct (test_op_opts _ _ _ _ _ _ _ _ _ _ _ _ _ Ht He Hu) as (l3 & k3 & l3' & Hin3 & _ & _ & Hs).
  destruct (in_action_unique _ _ _ _ _ _ _ Hin Hin3) as (<- & <- & <-). destruct (in_action_unique _ _ _ _ _ _ _ Hin Hin') as (<- & <- & <-).
  assert (Hr : reachable (test_config app) est) by (by exists u, (engine_ops l1), (EvFact <$> engine_facts l1)).
  destruct (tick_completes _ _ _ _ _ _ _ _ _ Hr Hop Hrun Hf Herr) as (Hunc & o & fuel & order & opts & Heq & Hall).
  assert (Hnow : op_now op = clock_at (start_time wall topts) l1).
  { destruct k; [by destruct Hk as (? & ? & ? & ?); congruence| |by destruct Hk as (? & ? & ? & ?); congruence].
    destruct Hk as (o' & fuel' & order' & ->). cbn [op_now]. unfold op_time. by rewrite last_opt_app. }
  rewrite <- Hnow. rewrite engine_facts_app in Htm. change (engine_facts [TvOp op fs]) with (fs ++ []) in Htm. rewrite app_nil_r in Htm.
  assert (HF := ticked_later op (engine_facts l1) fs (h_id hd)).
  eapply Forall_forall in HF; [exact HF|..|exact Htm].
  - intros; eapply op_cycle; eassumption.
  - eapply op_first; try eassumption. intros ->. inversion Hf.
  - apply Hall; [done|]. rewrite <- Hsk, <- Hs. subst op. done.
  - cbn. unfold h_type. by rewrite Hi.
Qed.
End TestTime.
