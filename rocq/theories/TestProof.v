(** * Proofs of the properties of tests. *)
From Verif Require Export TestLemmas NoteProof.
From Verif Require Import EngineLemmas ExpectLemmas ExpectProof ExpectReport.
From Coq Require Import Lia.

Section Proof.
Context {P : Params}.

(** ** The facts that begin a cycle *)

Definition cycle_begun (f : Fact) : Prop :=
  match f with DispatchCycleBegun _ _ _ _ | TickCycleBegun _ _ _ => True | _ => False end.

Lemma about_no_cycle h env fs f : Forall (about h env) fs -> f ∈ fs -> ~ cycle_begun f.
Proof. intros H Hin. rewrite Forall_forall in H. specialize (H f Hin). destruct f; cbn in *; tauto. Qed.
Lemma about_tick_no_cycle h fs f : Forall (about_tick h) fs -> f ∈ fs -> ~ cycle_begun f.
Proof. intros H Hin. rewrite Forall_forall in H. specialize (H f Hin). destruct f; cbn in *; tauto. Qed.
Ltac nc := cbn; tauto.
Ltac splits H := repeat (rewrite ?elem_of_app, ?elem_of_cons in H; cbn in H); rewrite ?elem_of_nil in H.
Lemma offers_no_cycle now skip env hs fs envs errs f : Offers now skip env hs fs envs errs -> f ∈ fs -> ~ cycle_begun f.
Proof.
  induction 1 as [|h hs fs envs err fs' envs' errs Ho H IH]; intros Hin; [inversion Hin|].
  apply elem_of_app in Hin as [Hin|Hin]; [|by apply IH]. destruct Ho as [r Hr|fs err Hs Ha].
  - apply elem_of_list_singleton in Hin as ->. nc.
  - splits Hin. destruct Hin as [->|[Hin|[->|[]]]]; [nc|by eapply about_no_cycle|nc].
Qed.
Lemma cascade_no_cycle c now skip q s fs errs f : Cascade c now skip q s fs errs -> f ∈ fs -> ~ cycle_begun f.
Proof.
  induction 1 as [|env q s hs fs envs errs fs' errs' Hr Ho H IH|env q hs fs envs errs x Hr Ho|env q hs fs Hr Ho|]; intros Hin; try by inversion Hin.
  - splits Hin. destruct Hin as [->|[Hin|[->|Hin]]]; [nc|by eapply offers_no_cycle|nc|by apply IH].
  - splits Hin. destruct Hin as [->|[Hin|[->|[]]]]; [nc|by eapply offers_no_cycle|nc].
  - destruct Ho as (before & h & after & fs1 & envs & errs & fs2 & -> & Ho & Hs & Ha & ->). splits Hin.
    destruct Hin as [->|[Hin|[->|Hin]]]; [nc|by eapply offers_no_cycle|nc|by eapply about_no_cycle].
Qed.
Lemma ticks_no_cycle skip hs s fs errs f : Ticks skip hs s fs errs -> f ∈ fs -> ~ cycle_begun f.
Proof.
  induction 1 as [|h hs s r fs errs Hs H IH|h hs s fs err fs' errs Hs Ha H IH|h hs fs err x Hs Ha|h hs fs Hs Ha]; intros Hin; splits Hin;
    [by inversion Hin|destruct Hin as [->|Hin]; [nc|by apply IH]|
     destruct Hin as [->|[Hin|[->|Hin]]]; [nc|by eapply about_tick_no_cycle|nc|by apply IH]|
     destruct Hin as [->|[Hin|[->|[]]]]; [nc|by eapply about_tick_no_cycle|nc]|
     destruct Hin as [->|Hin]; [nc|by eapply about_tick_no_cycle]].
Qed.

(** What the fact that begins a cycle says. *)
Definition cycle_says (op : Op) (f : Fact) : Prop :=
  match f with
  | DispatchCycleBegun env now et eh =>
    now = op_now op /\ e_created env = now /\ op_enabled (op_opts op) et eh /\ exists o fuel opts, op = OpDispatch o fuel (e_msg env) opts
  | TickCycleBegun now et eh =>
    now = op_now op /\ op_enabled (op_opts op) et eh /\ exists o fuel order opts, op = OpTick o fuel order opts
  | _ => True
  end.

Lemma op_cycle c st op st' fs r f :
  reachable c st -> op_ok c op -> run_op c op st = (st', EvFact <$> fs, r) -> f ∈ fs -> cycle_says op f.
Proof.
  intros Hr Hop Hrun Hin. destruct (op_lemma _ _ _ _ _ _ Hr Hop Hrun) as [[-> _]|H]; [inversion Hin|].
  assert (Hno : ~ cycle_begun f -> cycle_says op f) by (destruct f; cbn; tauto).
  destruct op as [o fuel m opts|o fuel order opts| |g]; cbn in H.
  - destruct H as (env & et & eh & Hm & Ho & Hc & He & Hf).
    assert (Hb : cycle_says (OpDispatch o fuel m opts) (DispatchCycleBegun env (op_time o opts) et eh)) by (cbn; subst m; eauto 10).
    destruct Hf as [(x & -> & _)|(s & body & errs & Hc' & Hf)].
    + splits Hin. destruct Hin as [->|[->|[]]]; done.
    + assert (Hcb : f ∈ body -> cycle_says (OpDispatch o fuel m opts) f) by (intros; eapply Hno, cascade_no_cycle; eassumption).
      destruct s as [|x| |]; destruct Hf as [-> _]; splits Hin; intuition (subst; done).
  - destruct H as (et & eh & He & Hf).
    assert (Hb : cycle_says (OpTick o fuel order opts) (TickCycleBegun (op_time o opts) et eh)) by (cbn; eauto 10).
    destruct Hf as [(x & -> & _)|[(x & ticks & errs & Ht & -> & _)|[(ticks & errs & v & Ht & -> & _)|(ticks & errs & s & body & errs' & Ht & Hc' & Hf)]]].
    + splits Hin. destruct Hin as [->|[->|[]]]; done.
    + assert (Hcb : f ∈ ticks -> cycle_says (OpTick o fuel order opts) f) by (intros; eapply Hno, ticks_no_cycle; eassumption).
      splits Hin. intuition (subst; done).
    + assert (Hcb : f ∈ ticks -> cycle_says (OpTick o fuel order opts) f) by (intros; eapply Hno, ticks_no_cycle; eassumption).
      splits Hin. intuition (subst; done).
    + assert (Hct : f ∈ ticks -> cycle_says (OpTick o fuel order opts) f) by (intros; eapply Hno, ticks_no_cycle; eassumption).
      assert (Hcb : f ∈ body -> cycle_says (OpTick o fuel order opts) f) by (intros; eapply Hno, cascade_no_cycle; eassumption).
      destruct s as [|x| |]; destruct Hf as [-> _]; splits Hin; intuition (subst; done).
  - destruct H as [-> _]. inversion Hin.
  - destruct H as [-> _]. inversion Hin.
Qed.

(** ** The operations of a test *)

Definition none_of_opts (p : OOpt -> bool) (topts : list TOpt) : Prop := forall o, o ∈ unsafe topts -> p o = false.

(** Where an operation of a test is performed, and with which options. *)
Lemma test_op_from E app u wall topts p st evs r l1 op fs l2 :
  testing E app u wall topts p st evs r -> evs = l1 ++ TvOp op fs :: l2 ->
  exists e e' res, history (test_config app) u (engine_ops l1) e (EvFact <$> engine_facts l1) true /\ op_ok (test_config app) op /\
    run_op (test_config app) op e = (e', EvFact <$> fs, res) /\
    exists l0 k l' obs, in_action l1 l0 k l' /\
      let opts := OptNow (clock_at (start_time wall topts) l0) :: (base_opts topts ++ hopts (enables l0)) ++ eopts obs in
      match k with
      | AkAdvance => exists o fuel order, op = OpTick o fuel order (opts ++ [OptNow (clock_at (start_time wall topts) l1)])
      | _ => exists o fuel m, op = OpDispatch o fuel m opts
      end.
Proof.
  intros Ht ->. destruct (testing_scan _ _ _ _ _ _ _ _ _ Ht) as (a' & HS & _). destruct Ht as (_ & Ha & _).
  apply scan_split in HS as (a1 & a2 & HS & Hst).
  destruct (scan_op _ _ _ _ _ _ _ _ _ Ha HS Hst) as (H1 & H2 & e & res & H3).
  exists (ab_eng a1), e, res. split.
  { inversion Hst as [| |? ? ? e0 r0 Hl Hp Hop Hr| | | | | | | | | | |]; subst.
    destruct (scan_history _ _ _ _ _ HS eq_refl) as [H4 H5]. rewrite Hl in H5. split; [exact Ha|]. by split. } split; [done|]. split; [done|].
  inversion Hst as [| |? ? ? e0 r0 Hl Hp Hop Hr| | | | | | | | | | |]; subst.
  assert (Hclk := scan_clock _ _ _ _ _ HS). cbn in Hclk.
  assert (Hframe : forall k opts s, ab_stack a1 = (k, opts) :: s -> exists l0 l' obs, in_action l1 l0 k l' /\
    opts = OptNow (clock_at (start_time wall topts) l0) :: (base_opts topts ++ hopts (enables l0)) ++ eopts obs).
  { intros k opts s Hs. destruct (scan_frame _ _ _ (a_init app u wall topts) _ _ _ _ eq_refl HS Hs) as (l0 & l' & b & Hin & HS0 & _ & -> & _).
    exists l0, l', (ab_obs b). split; [done|]. unfold ab_opts. rewrite (scan_clock _ _ _ _ _ HS0), (scan_enables _ _ _ _ _ HS0). done. }
  destruct Hp as (opts & s & [[Hs (o & fuel & m & ->)]|[[Hs (o & fuel & order & ->)]|[Hs [Hb (o & fuel & b & ->)]]]]).
  - destruct (Hframe _ _ _ Hs) as (l0 & l' & obs & Hin & ->). exists l0, AkDispatch, l', obs. split; [done|]. cbn. eauto.
  - destruct (Hframe _ _ _ Hs) as (l0 & l' & obs & Hin & ->). exists l0, AkAdvance, l', obs. split; [done|]. cbn. rewrite Hclk. eauto.
  - destruct (Hframe _ _ _ Hs) as (l0 & l' & obs & Hin & ->). exists l0, AkCall, l', obs. split; [done|]. cbn. eauto.
Qed.

Lemma test_op E app u wall topts p st evs r l1 op fs l2 :
  testing E app u wall topts p st evs r -> evs = l1 ++ TvOp op fs :: l2 ->
  exists e e' res, reachable (test_config app) e /\ op_ok (test_config app) op /\
    run_op (test_config app) op e = (e', EvFact <$> fs, res) /\
    exists l0 k l' obs, in_action l1 l0 k l' /\
      let opts := OptNow (clock_at (start_time wall topts) l0) :: (base_opts topts ++ hopts (enables l0)) ++ eopts obs in
      match k with
      | AkAdvance => exists o fuel order, op = OpTick o fuel order (opts ++ [OptNow (clock_at (start_time wall topts) l1)])
      | _ => exists o fuel m, op = OpDispatch o fuel m opts
      end.
Proof.
  intros Ht He. destruct (test_op_from _ _ _ _ _ _ _ _ _ _ _ _ _ Ht He) as (e & e' & res & H & R). exists e, e', res. split; [|exact R].
  by exists u, (engine_ops l1), (EvFact <$> engine_facts l1).
Qed.

Lemma last_opt_eopts {A} (p : OOpt -> option A) obs : (forall n, p (OptObserver n) = None) -> last_opt p (eopts obs) = None.
Proof. intros H. apply last_opt_none. intros x Hx. destruct obs; cbn in Hx; [|inversion Hx]. apply elem_of_list_singleton in Hx as ->. done. Qed.

Lemma last_opt_hopts_none {A} (p : OOpt -> option A) l : (forall n b, p (OptHandler n b) = None) -> last_opt p (hopts l) = None.
Proof. intros H. apply last_opt_none. intros x Hx. apply elem_of_list_In, in_map_iff in Hx as (y & <- & _). done. Qed.

Lemma time_lemma topts t l obs : (forall t, OptNow t ∉ unsafe topts) ->
  last_opt current_time (OptNow t :: (base_opts topts ++ hopts l) ++ eopts obs) = Some t.
Proof.
  intros Hu. rewrite last_opt_cons', last_opt_app, last_opt_eopts by done. rewrite last_opt_app, last_opt_hopts_none by done.
  unfold base_opts. rewrite last_opt_app. rewrite (last_opt_none _ (unsafe topts)); [done|].
  intros x Hx. destruct x; try done. by apply Hu in Hx.
Qed.

Lemma handler_opts topts t l obs n tail : tame topts -> (forall x, x ∈ tail -> individually n x = None) ->
  last_opt (individually n) ((OptNow t :: (base_opts topts ++ hopts (enables l)) ++ eopts obs) ++ tail) = last_enable l n.
Proof.
  intros [_ Hu] Ht. rewrite last_opt_app, (last_opt_none _ tail) by done. rewrite last_opt_cons', last_opt_app, last_opt_eopts by done.
  rewrite last_opt_app, last_enable_hopts. destruct (last_enable l n); [done|].
  unfold base_opts. rewrite last_opt_app, (last_opt_none _ (unsafe topts)); [done|].
  intros x Hx. destruct x; try done. by apply Hu in Hx.
Qed.
Lemma type_opts topts t l obs ht tail : tame topts -> (forall x, x ∈ tail -> by_type ht x = None) ->
  last_opt (by_type ht) ((OptNow t :: (base_opts topts ++ hopts l) ++ eopts obs) ++ tail) =
  match ht with HTProjection | HTIntegration => Some false | _ => None end.
Proof.
  intros [Hu _] Ht. rewrite last_opt_app, (last_opt_none _ tail) by done. rewrite last_opt_cons', last_opt_app, last_opt_eopts by done.
  rewrite last_opt_app, last_opt_hopts_none by done.
  unfold base_opts. rewrite last_opt_app, (last_opt_none _ (unsafe topts)); [by destruct ht|].
  intros x Hx. destruct x; try done. by apply Hu in Hx.
Qed.

Lemma test_op_opts E app u wall topts p st evs r l1 op fs l2 :
  testing E app u wall topts p st evs r -> evs = l1 ++ TvOp op fs :: l2 -> tame topts ->
  exists l0 k l', in_action l1 l0 k l' /\
    (forall n, last_opt (individually n) (op_opts op) = last_enable l0 n) /\
    (forall ht, last_opt (by_type ht) (op_opts op) = match ht with HTProjection | HTIntegration => Some false | _ => None end) /\
    (forall h, skipped (op_opts op) h = test_skips l0 h).
Proof.
  intros Ht He Hu. destruct (test_op _ _ _ _ _ _ _ _ _ _ _ _ _ Ht He) as (e & e' & res & _ & _ & _ & l0 & k & l' & obs & Hin & Hop).
  exists l0, k, l'. split; [done|].
  assert (exists tail, op_opts op = (OptNow (clock_at (start_time wall topts) l0) :: (base_opts topts ++ hopts (enables l0)) ++ eopts obs) ++ tail /\
    forall x, x ∈ tail -> exists t, x = OptNow t) as (tail & Hop' & Htail).
  { destruct k; cbn in Hop.
    - destruct Hop as (o & fuel & m & ->). exists []. split; [by rewrite app_nil_r|]. intros x Hx. inversion Hx.
    - destruct Hop as (o & fuel & m & ->). eexists. split; [done|]. intros x Hx. apply elem_of_list_singleton in Hx as ->. eauto.
    - destruct Hop as (o & fuel & m & ->). exists []. split; [by rewrite app_nil_r|]. intros x Hx. inversion Hx. }
  assert (H1 : forall n, last_opt (individually n) (op_opts op) = last_enable l0 n).
  { intros n. rewrite Hop'. apply handler_opts; [done|]. intros x Hx. by destruct (Htail x Hx) as [t ->]. }
  assert (H2 : forall ht, last_opt (by_type ht) (op_opts op) = match ht with HTProjection | HTIntegration => Some false | _ => None end).
  { intros ht. rewrite Hop'. apply type_opts; [done|]. intros x Hx. by destruct (Htail x Hx) as [t ->]. }
  split; [done|]. split; [done|]. intros h. unfold skipped, test_skips. rewrite H1, H2. destruct (last_enable l0 (h_name h)) as [[]|]; try done.
  destruct (h_disabled h); [done|]. by destruct (h_type h).
Qed.

Lemma engagement_ext c s1 s2 f : (forall h, s1 h = s2 h) -> engagement c s1 f -> engagement c s2 f.
Proof. intros He. destruct f; cbn; try done; intros (hd & H1 & H2 & H3); exists hd; rewrite <- He; done. Qed.

(** ** Interceptors *)

Lemma engine_op_icpt E c mk st st' evs r : engine_op E c mk st = (st', evs, r) ->
  ts_icpt st' = ts_icpt st /\ ts_bound st' = ts_bound st /\ (forall b, TvOutside b ∉ evs) /\ (forall o, TvDid o ∉ evs) /\ ts_opts st' = ts_opts st /\
  ts_next st' = ts_next st /\ ts_clock st' = ts_clock st /\ ts_failed st' = ts_failed st.
Proof.
  unfold engine_op. destruct (run_op _ _ _) as [[es ev] res]. intros [= <- <- _]. cbn. split_and!; try done; intros b Hx; apply elem_of_list_singleton in Hx; done.
Qed.
Lemma run_icpt_icpt E c opts p : forall st st' evs r, run_icpt E c opts p st = (st', evs, r) ->
  ts_icpt st' = ts_icpt st /\ ts_bound st' = ts_bound st /\ (forall b, TvOutside b ∉ evs) /\ ts_opts st' = ts_opts st /\ ts_next st' = ts_next st.
Proof.
  induction p as [[e|]|v|f k IH|b k IH]; intros st st' evs r; cbn [run_icpt].
  - intros [= <- <- _]. split_and!; try done. intros b Hx. inversion Hx.
  - intros [= <- <- _]. split_and!; try done. intros b Hx. inversion Hx.
  - intros [= <- <- _]. split_and!; try done. intros b Hx. inversion Hx.
  - destruct (run_icpt _ _ _ _ _) as [[st1 evs1] r1] eqn:Er. intros [= <- <- _]. destruct (IH _ _ _ _ _ Er) as (H1 & H2 & H3 & H4 & H5).
    split_and!; try done. intros b Hx. apply elem_of_cons in Hx as [Hx|Hx]; [done|]. by apply H3 in Hx.
  - unfold engine_execute. destruct (engine_op _ _ _ _) as [[st1 evs1] r1] eqn:Ex. destruct (engine_op_icpt _ _ _ _ _ _ _ Ex) as (H1 & H2 & H3 & _ & H4 & H5 & _).
    destruct (x_res r1); [|intros [= <- <- _]; done].
    destruct (run_icpt _ _ _ _ _) as [[st2 evs2] r2] eqn:Er. intros [= <- <- _]. destruct (IH _ _ _ _ _ Er) as (H1' & H2' & H3' & H4' & H5').
    split_and!; try congruence. intros b' Hx. apply elem_of_app in Hx as [Hx|Hx]; [by apply H3 in Hx|by apply H3' in Hx].
Qed.
Lemma execute_icpt E c b st st' evs r : execute_command E c b st = (st', evs, r) ->
  ts_icpt st' = ts_icpt st /\ ts_bound st' = ts_bound st /\ ts_opts st' = ts_opts st /\ ts_next st' = ts_next st /\
  (ts_bound st <> None -> forall b, TvOutside b ∉ evs).
Proof.
  unfold execute_command. destruct (ts_bound st) as [opts|] eqn:Eb; [|intros [= <- <- _]; by split_and!].
  destruct (ts_icpt st) as [i|] eqn:Ei.
  - destruct (run_icpt _ _ _ _ _) as [[st1 evs1] r1] eqn:Er. intros [= <- <- _].
    destruct (run_icpt_icpt _ _ _ _ _ _ _ _ Er) as (H1 & H2 & H3 & H4 & H5). split_and!; try congruence.
    intros _ b' Hx. apply elem_of_cons in Hx as [Hx|Hx]; [done|]. by apply H3 in Hx.
  - unfold engine_execute. destruct (engine_op _ _ _ _) as [[st1 evs1] r1] eqn:Er. intros [= <- <- _].
    destruct (engine_op_icpt _ _ _ _ _ _ _ Er) as (H1 & H2 & H3 & _ & H4 & H5 & _). split_and!; try congruence.
    intros _ b' Hx. apply elem_of_cons in Hx as [Hx|Hx]; [done|]. by apply H3 in Hx.
Qed.
Lemma enable_icpt c names b : forall st st' evs v, enable_handlers c names b st = (st', evs, v) ->
  ts_icpt st' = ts_icpt st /\ ts_bound st' = ts_bound st /\ (forall b, TvOutside b ∉ evs) /\ ts_next st' = ts_next st /\
  (forall n, OptObserver n ∈ ts_opts st' -> OptObserver n ∈ ts_opts st).
Proof.
  induction names as [|n names IH]; intros st st' evs v; cbn [enable_handlers]; [intros [= <- <- _]; split_and!; try done; intros b' Hx; inversion Hx|].
  destruct (controllers c !! n) as [h|]; [|intros [= <- <- _]; split_and!; try done; intros b' Hx; inversion Hx].
  destruct (b && h_disabled h); [intros [= <- <- _]; split_and!; try done; intros b' Hx; inversion Hx|].
  destruct (enable_handlers _ _ _ _) as [[st1 evs1] v1] eqn:Ee. intros [= <- <- _]. destruct (IH _ _ _ _ Ee) as (H1 & H2 & H3 & H4 & H5). cbn in *.
  split_and!; try done; [intros b' Hx; apply elem_of_cons in Hx as [Hx|Hx]; [done|by apply H3 in Hx]|].
  intros m Hm. apply H5, elem_of_app in Hm as [Hm|Hm]; [done|]. by apply elem_of_list_singleton in Hm.
Qed.
Lemma enable_like_icpt E c pats b st st' evs v : enable_handlers_like E c pats b st = (st', evs, v) ->
  ts_icpt st' = ts_icpt st /\ ts_bound st' = ts_bound st /\ (forall b, TvOutside b ∉ evs) /\ ts_next st' = ts_next st /\
  (forall n, OptObserver n ∈ ts_opts st' -> OptObserver n ∈ ts_opts st).
Proof.
  unfold enable_handlers_like. destruct (match_handlers _ _ _); intros [= <- <- _]; split_and!; try done.
  - intros b' Hx. apply elem_of_list_In, in_map_iff in Hx as (x & Hx & _). done.
  - intros n Hn. cbn in Hn. apply elem_of_app in Hn as [Hn|Hn]; [done|]. apply elem_of_list_In, in_map_iff in Hn as (x & Hx & _). done.
  - intros b' Hx. inversion Hx.
Qed.

Definition keeps_icpt (run : TState -> TState * list TEv * TOut) : Prop :=
  forall st st' evs r, run st = (st', evs, r) -> r <> Halted -> ts_icpt st' = ts_icpt st.
Definition act_keeps_icpt (act : list OOpt -> TState -> TState * list TEv * AOut) : Prop :=
  forall opts st st' evs r, act opts st = (st', evs, r) -> r <> AHalt -> ts_icpt st' = ts_icpt st.

Lemma and_then_icpt f k : keeps_icpt f -> (forall v, keeps_icpt (k v)) -> keeps_icpt (fun st => and_then (f st) k).
Proof.
  intros Hf Hk st st' evs r. unfold and_then. destruct (f st) as [[st1 evs1] r1] eqn:Ef.
  destruct r1 as [|v| |]; [destruct (k None st1) as [[st2 evs2] r2] eqn:Ek|destruct (k (Some v) st1) as [[st2 evs2] r2] eqn:Ek| |];
    intros [= <- <- <-] Hr; try (by eapply Hf); rewrite (Hk _ _ _ _ _ Ek Hr); by eapply Hf.
Qed.
Lemma prepare_icpt E act : act_keeps_icpt act -> keeps_icpt (prepare E act).
Proof.
  intros Ha st st' evs r. unfold prepare. destruct (act _ _) as [[st1 evs1] r1] eqn:Ea.
  assert (Hk : r1 <> AHalt -> ts_icpt st1 = ts_icpt st) by (intros Hr; by rewrite (Ha _ _ _ _ _ Ea Hr)).
  destruct r1; cbn [fatal]; intros [= <- <- <-] Hr; try done; by apply Hk.
Qed.
Lemma expect_icpt E c k act e : act_keeps_icpt act -> keeps_icpt (expect E c k act e).
Proof.
  intros Ha st st' evs r. unfold expect. destruct (new_predicate _ _); [|by intros [= <- <- <-]].
  destruct (act _ _) as [[st1 evs1] r1] eqn:Ea. destruct (p_done _) as [p1 dp].
  assert (Hk : r1 <> AHalt -> ts_icpt st1 = ts_icpt st) by (intros Hr; by rewrite (Ha _ _ _ _ _ Ea Hr)).
  destruct r1; [| | | |by intros [= <- <- <-]]; (destruct dp; [intros [= <- <- <-] Hr; by apply Hk|]).
  - destruct (p_ok p1); cbn [fail_now]; intros [= <- <- <-] Hr; by apply Hk.
  - cbn [fatal]; intros [= <- <- <-] Hr; by apply Hk.
  - intros [= <- <- <-] Hr; by apply Hk.
  - intros [= <- <- <-] Hr; by apply Hk.
Qed.

Lemma do_call_icpt run i : keeps_icpt run -> act_keeps_icpt (do_call run i).
Proof.
  intros Hrun opts st st' evs r. unfold do_call. destruct (run _) as [[st1 evs1] r1] eqn:Er.
  assert (Hk : r1 <> Halted -> ts_icpt (match i with Some _ => set_icpt (ts_icpt st) st1 | None => st1 end) = ts_icpt st).
  { intros Hr. destruct i; [done|]. by rewrite (Hrun _ _ _ _ Er Hr). }
  destruct r1; intros [= <- <- <-] Hr; try done; cbn; by apply Hk.
Qed.

Lemma run_keeps_icpt E c : (forall p, keeps_icpt (run_test E c p)) /\ (forall a, act_keeps_icpt (do_action E c a)).
Proof.
  apply test_mutind.
  - intros st st' evs r. cbn. by intros [= <- <- <-].
  - intros v st st' evs r. cbn. by intros [= <- <- <-].
  - intros st st' evs r. cbn. by intros [= <- <- <-].
  - intros f k IH st st' evs r. cbn [run_test]. destruct (run_test _ _ _ _) as [[st1 evs1] r1] eqn:Er. intros [= <- <- <-] Hr.
    by rewrite (IH _ _ _ _ _ Er Hr).
  - intros b k IH st st' evs r. cbn [run_test]. destruct (execute_command _ _ _ _) as [[st1 evs1] r1] eqn:Ex.
    destruct (execute_icpt _ _ _ _ _ _ _ Ex) as (H1 & _).
    destruct (x_res r1); [|intros [= <- <- <-] Hr; done].
    destruct (run_test _ _ _ _) as [[st2 evs2] r2] eqn:Er. intros [= <- <- <-] Hr. by rewrite (IH _ _ _ _ _ Er Hr).
  - intros a IHa k IH. cbn [run_test]. apply (and_then_icpt (prepare E (do_action E c a)) (fun v => run_test E c (k v))); [by apply prepare_icpt|done].
  - intros a IHa e k IH. cbn [run_test]. apply (and_then_icpt (expect E c (a_kind a) (do_action E c a) e) (fun v => run_test E c (k v))); [by apply expect_icpt|done].
  - intros names b k IH st st' evs r. cbn [run_test]. destruct (enable_handlers _ _ _ _) as [[st1 evs1] v1] eqn:Ex.
    destruct (enable_icpt _ _ _ _ _ _ _ Ex) as (H1 & _).
    destruct (run_test _ _ _ _) as [[st2 evs2] r2] eqn:Er. intros [= <- <- <-] Hr. by rewrite (IH _ _ _ _ _ Er Hr).
  - intros pats b k IH st st' evs r. cbn [run_test]. destruct (enable_handlers_like _ _ _ _ _) as [[st1 evs1] v1] eqn:Ex.
    destruct (enable_like_icpt _ _ _ _ _ _ _ _ Ex) as (H1 & _).
    destruct (run_test _ _ _ _) as [[st2 evs2] r2] eqn:Er. intros [= <- <- <-] Hr. by rewrite (IH _ _ _ _ _ Er Hr).
  - intros x k IH st st' evs r. cbn [run_test]. destruct (run_test _ _ _ _) as [[st1 evs1] r1] eqn:Er. intros [= <- <- <-] Hr.
    by rewrite (IH _ _ _ _ Er Hr).
  - intros m opts st st' evs r. cbn [do_action]. unfold bracket, do_dispatch. destruct (app_types c (m_type m)); [|by intros [= <- <- <-]].
    destruct (engine_op _ _ _ _) as [[st1 evs1] r1] eqn:Ex. intros [= <- <- <-] Hr. apply (engine_op_icpt _ _ _ _ _ _ _ Ex).
  - intros step opts st st' evs r. cbn [do_action]. unfold bracket, do_advance. destruct (adj_step step (ts_clock st)); [|by intros [= <- <- <-]].
    destruct (_ <? _)%Z; [by intros [= <- <- <-]|].
    destruct (engine_op _ _ _ _) as [[st1 evs1] r1] eqn:Ex. intros [= <- <- <-] Hr. destruct (engine_op_icpt _ _ _ _ _ _ _ Ex) as (-> & _). done.
  - intros fn IH i opts st st' evs r. cbn [do_action]. unfold bracket. destruct (do_call _ _ _ _) as [[st1 evs1] r1] eqn:Ec.
    intros [= <- <- <-] Hr. by eapply (do_call_icpt (run_test E c fn) i IH).
Qed.

Lemma call_unbinds E c fn i opts st st' evs r :
  do_action E c (ActCall fn i) opts st = (st', evs, r) -> r <> AHalt -> ts_bound st' = None.
Proof.
  change (do_action E c (ActCall fn i) opts st) with (bracket AkCall (do_call (run_test E c fn) i opts st)).
  generalize (run_test E c fn). intros run. unfold bracket, do_call. destruct (run _) as [[st1 evs1] r1].
  destruct r1; intros [= <- <- <-] Hr; try done; by destruct i.
Qed.

(** ** Code that performs no Call *)

Lemma plain_action E c a opts st st' evs r : a_kind a <> AkCall -> do_action E c a opts st = (st', evs, r) ->
  ts_bound st' = ts_bound st /\ forall b, TvOutside b ∉ evs.
Proof.
  intros Hk. destruct a as [m|step|fn i]; [| |done]; cbn [do_action]; unfold bracket.
  - unfold do_dispatch. destruct (app_types c (m_type m)).
    + destruct (engine_op _ _ _ _) as [[st1 evs1] r1] eqn:Ex. intros [= <- <- <-]. destruct (engine_op_icpt _ _ _ _ _ _ _ Ex) as (_ & H2 & H3 & _).
      split; [done|]. intros b0 Hx. apply elem_of_cons in Hx as [Hx|Hx]; [done|]. apply elem_of_app in Hx as [Hx|Hx]; [by apply H3 in Hx|].
      destruct r1; try (apply elem_of_list_singleton in Hx; done). inversion Hx.
    + intros [= <- <- <-]. split; [done|]. intros b0 Hx. splits Hx. by destruct Hx as [?|[?|[]]].
  - unfold do_advance. destruct (adj_step step (ts_clock st)) as [t|v].
    2:{ intros [= <- <- <-]. split; [done|]. intros b0 Hx. splits Hx. by destruct Hx as [?|[?|[]]]. }
    destruct (_ <? _)%Z. { intros [= <- <- <-]. split; [done|]. intros b0 Hx. splits Hx. by destruct Hx as [?|[?|[]]]. }
    destruct (engine_op _ _ _ _) as [[st1 evs1] r1] eqn:Ex. intros [= <- <- <-]. destruct (engine_op_icpt _ _ _ _ _ _ _ Ex) as (_ & H2 & H3 & _).
    split; [done|]. intros b0 Hx. apply elem_of_cons in Hx as [Hx|Hx]; [done|]. cbn in Hx. apply elem_of_cons in Hx as [Hx|Hx]; [done|].
    apply elem_of_app in Hx as [Hx|Hx]; [by apply H3 in Hx|].
    destruct r1; try (apply elem_of_list_singleton in Hx; done). inversion Hx.
Qed.

Definition stays_bound (run : TState -> TState * list TEv * TOut) : Prop :=
  forall st st' evs r, ts_bound st <> None -> run st = (st', evs, r) ->
  ts_bound st' = ts_bound st /\ forall b, TvOutside b ∉ evs.

Lemma app_outside evs evs' : (forall b, TvOutside b ∉ evs) -> (forall b, TvOutside b ∉ evs') -> forall b, TvOutside b ∉ evs ++ evs'.
Proof. intros H1 H2 b Hx. apply elem_of_app in Hx as [Hx|Hx]; [by apply H1 in Hx|by apply H2 in Hx]. Qed.
Lemma one_outside ev : match ev with TvOutside _ => False | _ => True end -> forall b, TvOutside b ∉ [ev].
Proof. intros H b Hx. apply elem_of_list_singleton in Hx as <-. done. Qed.
Lemma nil_outside : forall b, TvOutside b ∉ []. Proof. intros b Hx. inversion Hx. Qed.

Lemma and_then_bound f k : stays_bound f -> (forall v, stays_bound (k v)) -> stays_bound (fun st => and_then (f st) k).
Proof.
  intros Hf Hk st st' evs r Hb. unfold and_then. destruct (f st) as [[st1 evs1] r1] eqn:Ef. destruct (Hf _ _ _ _ Hb Ef) as [H1 H2].
  destruct r1 as [|v| |]; [destruct (k None st1) as [[st2 evs2] r2] eqn:Ek|destruct (k (Some v) st1) as [[st2 evs2] r2] eqn:Ek| |];
    intros [= <- <- <-]; try done; (apply Hk in Ek as [H3 H4]; [|congruence]; split; [congruence|by apply app_outside]).
Qed.

Lemma callless_bound E c p : callless p -> stays_bound (run_test E c p).
Proof.
  induction 1 as [|v| |f k H IH|b k H IH|a k Ha H IH|a e k Ha H IH|n b k H IH|pats b k H IH|x k H IH]; cbn [run_test].
  - intros st st' evs r Hb [= <- <- <-]. split; [done|apply nil_outside].
  - intros st st' evs r Hb [= <- <- <-]. split; [done|apply nil_outside].
  - intros st st' evs r Hb [= <- <- <-]. split; [done|apply nil_outside].
  - intros st st' evs r Hb. destruct (run_test _ _ _ _) as [[st1 evs1] r1] eqn:Er. intros [= <- <- <-]. apply IH in Er as [H1 H2]; [|done].
    split; [done|]. apply (app_outside [TvUser f]); [by apply one_outside|done].
  - intros st st' evs r Hb. destruct (execute_command _ _ _ _) as [[st1 evs1] r1] eqn:Ex.
    destruct (execute_icpt _ _ _ _ _ _ _ Ex) as (_ & H1 & _ & _ & H2). specialize (H2 Hb).
    destruct (x_res r1); [|intros [= <- <- <-]; done].
    destruct (run_test _ _ _ _) as [[st2 evs2] r2] eqn:Er. intros [= <- <- <-]. apply IH in Er as [H3 H4]; [|congruence].
    split; [congruence|by apply app_outside].
  - apply (and_then_bound (prepare E (do_action E c a)) (fun v => run_test E c (k v))); [|done].
    intros st st' evs r Hb. unfold prepare. destruct (do_action _ _ _ _ _) as [[st1 evs1] r1] eqn:Ea.
    destruct (plain_action _ _ _ _ _ _ _ _ Ha Ea) as [H1 H2]. destruct r1; cbn [fatal]; intros [= <- <- <-]; try done.
    split; [done|]. apply app_outside; [done|by apply one_outside].
  - apply (and_then_bound (expect E c (a_kind a) (do_action E c a) e) (fun v => run_test E c (k v))); [|done].
    intros st st' evs r Hb. unfold expect. destruct (new_predicate _ _); [|intros [= <- <- <-]; split; [done|by apply one_outside]].
    destruct (do_action _ _ _ _ _) as [[st1 evs1] r1] eqn:Ea. destruct (p_done _) as [p1 dp].
    destruct (plain_action _ _ _ _ _ _ _ _ Ha Ea) as [H1 H2]. cbn in H1.
    assert (H3 : forall b, TvOutside b ∉ TvPredicate :: evs1) by (apply (app_outside [_]); [by apply one_outside|done]).
    assert (H4 : forall b, TvOutside b ∉ TvPredicate :: evs1 ++ [TvFinal]) by (rewrite app_comm_cons; apply app_outside; [done|by apply one_outside]).
    assert (H5 : forall ev, match ev with TvOutside _ => False | _ => True end -> forall b, TvOutside b ∉ (TvPredicate :: evs1 ++ [TvFinal]) ++ [ev]).
    { intros ev Hev. apply app_outside; [done|by apply one_outside]. }
    destruct r1; [| | | |intros [= <- <- <-]; done]; (destruct dp; [intros [= <- <- <-]; done|]).
    + destruct (p_ok p1); cbn [fail_now]; intros [= <- <- <-]; (split; [done|]); [by apply (H5 (TvReport _))|].
      rewrite app_comm_cons. apply app_outside; [by apply (H5 (TvReport _))|by apply one_outside].
    + cbn [fatal]; intros [= <- <- <-]. split; [done|]. by apply (H5 (TvFatal _)).
    + intros [= <- <- <-]. done.
    + intros [= <- <- <-]. done.
  - intros st st' evs r Hb. destruct (enable_handlers _ _ _ _) as [[st1 evs1] v1] eqn:Ex.
    destruct (enable_icpt _ _ _ _ _ _ _ Ex) as (_ & H1 & H2 & _).
    destruct (run_test _ _ _ _) as [[st2 evs2] r2] eqn:Er. intros [= <- <- <-]. apply IH in Er as [H3 H4]; [|congruence].
    split; [congruence|by apply app_outside].
  - intros st st' evs r Hb. destruct (enable_handlers_like _ _ _ _ _) as [[st1 evs1] v1] eqn:Ex.
    destruct (enable_like_icpt _ _ _ _ _ _ _ _ Ex) as (_ & H1 & H2 & _).
    destruct (run_test _ _ _ _) as [[st2 evs2] r2] eqn:Er. intros [= <- <- <-]. apply IH in Er as [H3 H4]; [|congruence].
    split; [congruence|by apply app_outside].
  - intros st st' evs r Hb. destruct (run_test _ _ _ _) as [[st1 evs1] r1] eqn:Er. intros [= <- <- <-]. apply IH in Er as [H1 H2]; [|done].
    split; [done|]. apply (app_outside [TvAnnotate x]); [by apply one_outside|done].
Qed.

(** ** Expect *)

Lemma do_action_begins E c a opts st st' evs r : do_action E c a opts st = (st', evs, r) -> exists l, evs = TvDo (a_kind a) :: l.
Proof.
  destruct a as [m|step|fn i]; cbn [do_action]; unfold bracket.
  - destruct (do_dispatch _ _ _ _ _) as [[? ?] ?]. intros [= <- <- <-]. eauto.
  - destruct (do_advance _ _ _ _ _) as [[? ?] ?]. intros [= <- <- <-]. eauto.
  - destruct (do_call _ _ _ _) as [[? ?] ?]. intros [= <- <- <-]. eauto.
Qed.

Lemma observed_own E c a st st1 evs r :
  env_ok E c -> app_ok c -> new_observer st ->
  do_action E c a (action_options [OptObserver (ts_next st)] st) (set_next (S (ts_next st)) st) = (st1, evs, r) ->
  observed (ts_next st) evs = own_facts 0 evs.
Proof.
  intros He Ha Hf Hd. set (n := ts_next st) in *.
  set (b := mkAbs (ts_clock st) [] (match ts_bound st with Some o => [(AkCall, o)] | None => [] end)
             (ts_bound st) (Some n) (S n) (ts_eng st) true (ts_failed st)).
  destruct (proj2 (test_ok E c (ts_opts st) He Ha) a (set_next (S n) st) b st1 evs r) as (a' & HS & _).
  - split; cbn; try done. by rewrite app_nil_r.
  - unfold coherent. cbn. destruct (ts_bound st) as [o|]; [right; eauto|by left].
  - exact Hd.
  - destruct (do_action_begins _ _ _ _ _ _ _ _ Hd) as [l ->].
    inversion HS as [|? ? a1 ? ? Hst HS']; subst. inversion Hst; subst.
    change (own_facts 0 (TvDo (a_kind a) :: l)) with (own_facts 1 l).
    rewrite observed_cons. cbn [app].
    assert (HB : ~ watched n (ts_opts st)). { intros Hx. assert (n < n); [|lia]. apply Hf. by left. }
    eapply (scan_observed c (ts_opts st) n l HB 0); [exact HS'| |cbn; done|cbn; lia].
    exists [], (a_kind a, ab_opts (ts_opts st) b), (ab_stack b). cbn [a_do ab_stack app]. split; [done|]. split; [done|]. split; [constructor|]. split.
    + cbn [snd]. by apply ab_opts_watched.
    + subst b. cbn. destruct (ts_bound st) as [o|] eqn:Eb; [|constructor]. constructor; [|constructor]. cbn. intros Hx.
      assert (n < n); [|lia]. apply Hf. right. eauto.
Qed.

Lemma expect_lemma E c a e st st' evs r :
  env_ok E c -> app_ok c -> new_observer st ->
  expect E c (a_kind a) (do_action E c a) e st = (st', evs, r) -> Expects E c a e st st' evs r.
Proof.
  intros He Ha Hf. unfold expect. set (s := test_scope E c (a_kind a) st).
  destruct (new_predicate s e) as [p|er] eqn:Ep.
  2:{ cbn [fatal]. intros [= <- <- <-]. constructor; [apply reject_lemma; by exists er|by apply because_lemma]. }
  assert (Hni : ~ impossible s e). { intros Hi. apply reject_lemma in Hi as [er Hi]. congruence. }
  destruct (do_action _ _ _ _ _) as [[st1 evs1] r1] eqn:Ea.
  rewrite (observed_own _ _ _ _ _ _ _ He Ha Hf Ea).
  destruct (p_done _) as [p1 dp] eqn:Ed.
  assert (Hdec : r1 = AHalt \/ r1 <> AHalt) by (destruct r1; auto). destruct Hdec as [->|Hr].
  { intros [= <- <- <-]. by constructor. }
  destruct dp as [v|].
  - assert (Hx : (st', evs, r) = (st1, TvPredicate :: evs1 ++ [TvFinal], Panicked (s_panic v)) -> Expects E c a e st st' evs r).
    { intros [= -> -> ->]. eapply ex_panics; [done|exact Ea|done|]. intros q (p0 & Hp0 & Hq). fold s in Hp0. rewrite Ep in Hp0. injection Hp0 as <-. congruence. }
    destruct r1; try done; intros H; symmetry in H; by apply Hx.
  - assert (Haf : after s (own_facts 0 evs1) e p1) by (exists p; done).
    assert (Hv := proj1 (after_good _ _ _ _ Haf)).
    assert (Hnotes := proj2 (run_notes E c) _ _ _ _ _ _ Ea). cbn in Hnotes. rewrite Hnotes.
    assert (Hx : forall rest res failed, concludes E s (own_facts 0 evs1) e (ts_next st) (ts_notes st ++ annotated evs1) r1 p1 rest res failed ->
      (st', evs, r) = (if failed : bool then set_failed st1 else st1, TvPredicate :: evs1 ++ TvFinal :: rest, res) -> Expects E c a e st st' evs r).
    { intros rest res failed Hc [= -> -> ->]. by eapply ex_concludes. }
    assert (Hassoc : forall l, (TvPredicate :: evs1 ++ [TvFinal]) ++ l = TvPredicate :: evs1 ++ TvFinal :: l) by (intros l; cbn; by rewrite <- app_assoc).
    destruct r1; try done.
    + destruct (p_ok p1) eqn:Eok; cbn [fail_now]; intros [= <- <- <-].
      * eapply Hx; [apply con_met; by apply Hv|]. cbn. by rewrite <- app_assoc.
      * eapply Hx; [apply con_unmet|]; [intros Hm; apply Hv in Hm; congruence|]. cbn. by rewrite <- !app_assoc.
    + cbn [fatal]. intros [= <- <- <-]. eapply Hx; [apply con_error|]. cbn. by rewrite <- app_assoc.
    + intros [= <- <- <-]. eapply Hx; [apply con_panic|]. done.
    + intros [= <- <- <-]. eapply Hx; [apply con_goexit|]. done.
Qed.

(** ** Freshness of observers *)

Lemma max_observer_le l n : OptObserver n ∈ l -> n <= max_observer l.
Proof.
  induction l as [|x l IH]; intros H; [inversion H|]. unfold max_observer in *. cbn [foldr]. apply elem_of_cons in H as [<-|H]; [lia|]. specialize (IH H). destruct x; lia.
Qed.
Lemma new_observer_begin app u wall topts : new_observer (begin app u wall topts).
Proof.
  destruct (begin_lemma app u wall topts) as (_ & H2 & H3 & _ & _ & H6). intros n [Hn|(o & Ho & _)]; [|congruence].
  rewrite H2 in Hn. rewrite H6. apply max_observer_le in Hn. lia.
Qed.
Lemma new_observer_run E c p st st' evs r :
  env_ok E c -> app_ok c -> new_observer st -> run_test E c p st = (st', evs, r) -> r <> Halted -> new_observer st'.
Proof.
  intros He Ha Hn Hd Hr.
  set (b := mkAbs (ts_clock st) [] (match ts_bound st with Some o => [(AkCall, o)] | None => [] end)
             (ts_bound st) None (ts_next st) (ts_eng st) true (ts_failed st)).
  destruct (proj1 (test_ok E c (ts_opts st) He Ha) p st b st' evs r) as (a' & HS & HR).
  - split; cbn; try done. by rewrite app_nil_r.
  - unfold coherent. cbn. destruct (ts_bound st) as [o|]; [right; eauto|by left].
  - done.
  - exact Hd.
  - destruct (HR Hr) as [[R1 R2 R3 R4 R5 R6 R7] (_ & _ & Hb & Hle)]. cbn in Hb, Hle.
    intros n [Hx|(o & Ho & Hx)].
    + rewrite R2 in Hx. apply elem_of_app in Hx as [Hx|Hx]; [|by apply hopts_unwatched in Hx]. assert (n < ts_next st); [|lia]. apply Hn. by left.
    + assert (n < ts_next st); [|lia]. apply Hn. right. exists o. split; [|done]. destruct Hb as [Hb|Hb]; congruence.
Qed.

(** ** Names *)

Lemma controllers_none c n : controllers c !! n = None <-> forall h, h ∈ c_app c -> h_name h <> n.
Proof.
  split.
  - intros Hn h Hin Hname. unfold controllers in Hn. rewrite controllers_fold_lookup in Hn.
    destruct (last _) eqn:El; [done|]. apply last_None in El.
    assert (Hf : h ∈ filter (fun h => h_name h = n) (c_app c)) by (apply elem_of_list_filter; done).
    rewrite El in Hf. inversion Hf.
  - intros H. destruct (controllers c !! n) as [h|] eqn:El; [|done]. apply controllers_in in El as [E1 E2]. by apply H in E1.
Qed.

Lemma enable_lemma c names b : forall st st' evs v, enable_handlers c names b st = (st', evs, v) ->
  exists yes no, names = yes ++ no /\ evs = map (fun n => TvEnable n b) yes /\
    (forall n, n ∈ yes -> exists h, h ∈ c_app c /\ h_name h = n) /\
    match v with
    | None => no = []
    | Some _ => exists n rest, no = n :: rest /\
        ((forall h, h ∈ c_app c -> h_name h <> n) \/ (b = true /\ exists h, h ∈ c_app c /\ h_name h = n /\ h_disabled h = true))
    end.
Proof.
  induction names as [|n names IH]; intros st st' evs v; cbn [enable_handlers].
  { intros [= <- <- <-]. exists [], []. split_and!; try done. intros n Hn. inversion Hn. }
  destruct (controllers c !! n) as [h|] eqn:Eh.
  2:{ intros [= <- <- <-]. exists [], (n :: names). split_and!; try done; [intros n' Hn; inversion Hn|]. exists n, names. split; [done|]. left. by apply controllers_none. }
  apply controllers_in in Eh as [H1 H2].
  destruct (b && h_disabled h) eqn:Ed.
  { intros [= <- <- <-]. exists [], (n :: names). split_and!; try done; [intros n' Hn; inversion Hn|]. exists n, names. split; [done|]. right.
    apply andb_true_iff in Ed as [-> Ed]. split; [done|]. by exists h. }
  destruct (enable_handlers _ _ _ _) as [[st1 evs1] v1] eqn:Ee. intros [= <- <- <-].
  destruct (IH _ _ _ _ Ee) as (yes & no & -> & -> & H3 & H4). exists (n :: yes), no. split_and!; try done.
  intros n' Hn. apply elem_of_cons in Hn as [->|Hn]; [by exists h|by apply H3].
Qed.

Lemma match_lemma c pats : forall acc,
  match match_handlers c pats acc with
  | inl names => (forall n, n ∈ names <-> n ∈ acc \/ selects c pats n) /\ Forall (fun pat => ~ bad_pattern c pat) pats
  | inr _ => Exists (bad_pattern c) pats
  end.
Proof.
  induction pats as [|[f|] pats IH]; intros acc; cbn [match_handlers].
  - split; [|constructor]. intros n. split; [by left|]. intros [H|(h & f & _ & _ & _ & H & _)]; [done|inversion H].
  - set (l := map h_name (List.filter _ (c_app c))).
    assert (Hl : forall n, n ∈ l <-> exists h, h ∈ c_app c /\ h_name h = n /\ h_disabled h = false /\ f n = true).
    { intros n. unfold l. rewrite elem_of_list_In, in_map_iff. split.
      - intros (h & <- & Hh). apply filter_In in Hh as [Hh Hp]. apply andb_true_iff in Hp as [Hp1 Hp2]. exists h.
        split; [by apply elem_of_list_In|]. split; [done|]. split; [by destruct (h_disabled h)|done].
      - intros (h & Hh & <- & Hd & Hf). exists h. split; [done|]. apply filter_In. split; [by apply elem_of_list_In|]. by rewrite Hd, Hf. }
    clearbody l. destruct l as [|x l].
    + left. intros h Hh Hd. destruct (f (h_name h)) eqn:Ef; [|done]. exfalso.
      assert (Hx : h_name h ∈ []) by (apply Hl; exists h; done). inversion Hx.
    + assert (Hsel : forall n, n ∈ acc ++ x :: l \/ selects c pats n <-> n ∈ acc \/ selects c (Some f :: pats) n).
      { intros n. rewrite elem_of_app, Hl. split.
        - intros [[H|(h & H1 & H2 & H3 & H4)]|(h & g & H1 & H2 & H3 & H4 & H5)]; [by left| |].
          + right. exists h, f. split_and!; try done. by left.
          + right. exists h, g. split_and!; try done. by right.
        - intros [H|(h & g & H1 & H2 & H3 & H4 & H5)]; [by left; left|]. apply elem_of_cons in H4 as [[= ->]|H4].
          + left. right. by exists h.
          + right. by exists h, g. }
      specialize (IH (acc ++ x :: l)). destruct (match_handlers c pats (acc ++ x :: l)) as [names|v]; [|by right].
      destruct IH as [H1 H2]. split; [intros n; by rewrite H1|]. constructor; [|done]. cbn. intros Hb.
      assert (Hx : x ∈ x :: l) by left. apply Hl in Hx as (h & Hh & <- & Hd & Hf). by rewrite (Hb h Hh Hd) in Hf.
  - left. done.
Qed.

Lemma last_enable_elem l n b : last_enable l n = Some b -> TvEnable n b ∈ l.
Proof.
  unfold last_enable. intros H. apply last_Some in H as (l' & H).
  assert (Hx : b ∈ omap (fun ev => match ev with TvEnable n' b => if decide (n' = n) then Some b else None | _ => None end) l).
  { rewrite H. apply elem_of_app. right. left. }
  apply elem_of_list_omap in Hx as (ev & Hin & Hx). destruct ev; try done. destruct (decide _) as [->|]; [|done]. by injection Hx as ->.
Qed.

Lemma app_ok_name c h h' : app_ok c -> h ∈ c_app c -> h' ∈ c_app c -> h_name h = h_name h' -> h = h'.
Proof.
  intros [Hn _] H H' E. assert (F := filter_name_unique _ _ Hn H').
  assert (Hx : h ∈ filter (fun x => h_name x = h_name h') (c_app c)) by (apply elem_of_list_filter; done).
  rewrite F in Hx. by apply elem_of_list_singleton in Hx.
Qed.

Definition depth (ev : TEv) : Z := match ev with TvDo _ => 1 | TvDid _ => -1 | _ => 0 end.
Fixpoint level (l : list TEv) : Z := match l with [] => 0 | ev :: l => depth ev + level l end.
Lemma level_app l l' : level (l ++ l') = (level l + level l')%Z.
Proof. induction l as [|ev l IH]; cbn; [done|]. rewrite IH. lia. Qed.
Lemma balanced_level l : balanced l -> level l = 0%Z /\ forall x y, l = x ++ y -> (0 <= level x)%Z.
Proof.
  induction 1 as [|ev l Hev Hl [IH1 IH2]|k l l' H1 [IH1 IH2] H2 [IH3 IH4]].
  - split; [done|]. intros x y E. destruct x; [cbn; lia|done].
  - assert (D : depth ev = 0%Z) by (by destruct ev). cbn. rewrite D. split; [lia|]. intros [|ev' x] y E; [cbn; lia|].
    injection E as <- E. cbn. rewrite D. specialize (IH2 _ _ E). lia.
  - cbn. rewrite level_app. cbn. split; [lia|]. intros [|ev' x] y E; [cbn; lia|]. injection E as <- E. cbn.
    apply app_eq_inv in E as [(z & -> & E)|(z & -> & E)].
    + specialize (IH2 _ _ eq_refl). lia.
    + rewrite level_app. destruct z as [|ev' z]; [cbn; lia|]. injection E as <- E. cbn. specialize (IH4 _ _ E). lia.
Qed.
Lemma in_action_unique l l0 k l' l1 k1 l1' : in_action l l0 k l' -> in_action l l1 k1 l1' -> l0 = l1 /\ k = k1 /\ l' = l1'.
Proof.
  assert (X : forall (y z : list TEv) k, balanced y -> balanced (z ++ TvDo k :: y) -> False).
  { intros y z k0 Hy Hb. apply balanced_level in Hb as [Hb1 Hb2]. apply balanced_level in Hy as [Hy _].
    specialize (Hb2 _ _ eq_refl). rewrite level_app in Hb1. cbn in Hb1. lia. }
  intros [-> B] [E B1]. apply app_eq_inv in E as [(z & -> & E)|(z & -> & E)].
  - destruct z as [|ev z]; [rewrite app_nil_r; by injection E as -> ->|]. cbn in E. injection E as <- ->. by apply X in B1.
  - destruct z as [|ev z]; [rewrite app_nil_r; by injection E as -> ->|]. cbn in E. injection E as <- ->. by apply X in B.
Qed.

Lemma new_observer_same st st' : ts_opts st' = ts_opts st -> ts_bound st' = ts_bound st -> ts_next st <= ts_next st' ->
  new_observer st -> new_observer st'.
Proof. intros Ho Hb Hle Hn n Hx. rewrite Ho, Hb in Hx. apply Hn in Hx. lia. Qed.

Lemma new_observer_call i obs st : (forall n, obs = Some n -> n < ts_next st) -> new_observer st ->
  new_observer (call_state i (action_options (eopts obs) st) st).
Proof.
  intros Ho Hn n Hx. assert (Hx' : OptObserver n ∈ ts_opts st \/ OptObserver n ∈ action_options (eopts obs) st).
  { destruct i; cbn in Hx; destruct Hx as [Hx|(o & [= <-] & Hx)]; auto. }
  replace (ts_next (call_state i (action_options (eopts obs) st) st)) with (ts_next st) by (by destruct i).
  destruct Hx' as [Hx'|Hx']; [apply Hn; by left|]. unfold action_options in Hx'.
  apply elem_of_cons in Hx' as [Hx'|Hx']; [done|]. apply elem_of_app in Hx' as [Hx'|Hx']; [apply Hn; by left|].
  destruct obs as [m|]; cbn in Hx'; [|inversion Hx']. apply elem_of_list_singleton in Hx' as [= ->]. by apply Ho.
Qed.

(** A method of the Test, as code of its own. *)
Definition one (r : TOut) : option PVal -> TProg := fun v => match v with Some v => TPanic v | None => TRet end.
Lemma one_run E c (st1 : TState) evs r v : goes_on r v -> and_then (st1, evs, r) (fun v => run_test E c (one r v)) = (st1, evs, r) /\ r <> Halted.
Proof. destruct r; cbn; intros Hg; try done; subst; cbn; by rewrite app_nil_r. Qed.

Lemma visits_new_observer E c p st p' st' : env_ok E c -> app_ok c -> visits E c p st p' st' -> new_observer st -> new_observer st'.
Proof.
  intros He Ha. induction 1 as [|f k st p' st' e Hv IH|b k st st1 evs r x p' st' Hx Hr Hv IH|a k st st1 evs r v p' st' Hx Hg Hv IH|
    fn i k st p' st' Hv IH|a e k st st1 evs r v p' st' Hx Hg Hv IH|fn i e k st q p' st' Hq Hv IH|names b k st st1 evs v p' st' Hx Hv IH|
    pats b k st st1 evs v p' st' Hx Hv IH|x k st p' st' Hv IH]; intros Hn; try (apply IH); try done.
  - apply execute_icpt in Hx as (_ & Hb & Ho & Hnx & _). eapply new_observer_same; [exact Ho|exact Hb|lia|done].
  - destruct (one_run E c st1 evs r v Hg) as [H1 H2].
    eapply (new_observer_run E c (TPrepare a (one r)) st); [done|done|done| |exact H2].
    change (run_test E c (TPrepare a (one r)) st) with (and_then (prepare E (do_action E c a) st) (fun v => run_test E c (one r v))).
    rewrite Hx. exact H1.
  - apply (new_observer_call i None); [done|done].
  - destruct (one_run E c st1 evs r v Hg) as [H1 H2].
    eapply (new_observer_run E c (TExpect a e (one r)) st); [done|done|done| |exact H2].
    change (run_test E c (TExpect a e (one r)) st) with (and_then (expect E c (a_kind a) (do_action E c a) e st) (fun v => run_test E c (one r v))).
    rewrite Hx. exact H1.
  - change (action_options [OptObserver (ts_next st)] st) with (action_options (eopts (Some (ts_next st))) (set_next (S (ts_next st)) st)).
    apply new_observer_call; [intros n [= <-]; cbn; lia|]. apply (new_observer_same st); [done|done|cbn; lia|done].
  - apply enable_icpt in Hx as (_ & Hb & _ & Hnx & Ho). intros n [Hy|Hy]; rewrite Hnx.
    + apply Hn. left. by apply Ho.
    + apply Hn. right. by rewrite <- Hb.
  - apply enable_like_icpt in Hx as (_ & Hb & _ & Hnx & Ho). intros n [Hy|Hy]; rewrite Hnx.
    + apply Hn. left. by apply Ho.
    + apply Hn. right. by rewrite <- Hb.
Qed.

Lemma scan_failed c B a l a' : Scan c B a l a' ->
  ab_failed a' = true <-> ab_failed a = true \/ TvFailNow ∈ l \/ exists e, TvFatal e ∈ l.
Proof.
  induction 1 as [a|a ev a' l a'' Hst HS IH].
  - split; [by left|]. intros [H|[H|(e & H)]]; [done|inversion H..].
  - rewrite IH. assert (K : ab_failed a' = true <-> ab_failed a = true \/ ev = TvFailNow \/ exists e, ev = TvFatal e).
    { inversion Hst; subst; cbn; (split; [intros Hx; try (by left); right; eauto|intros [Hx|[Hx|(y & Hx)]]; done]). }
    rewrite K. setoid_rewrite elem_of_cons. split.
    + intros [[H|[->|(e & ->)]]|[H|(e & H)]]; eauto 6.
    + intros [H|[[<-|H]|(e & [<-|H])]]; eauto 6.
Qed.
End Proof.
