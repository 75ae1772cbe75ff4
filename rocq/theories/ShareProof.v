(** * Runs that share the engine with other goroutines: proofs. *)
From Verif Require Import ShareSpec RunLemmas TestLemmas TestProof EngineFacts OpFacts ProcHist EnvProof EngineLemmas TestTimeProof PropsEnvelope PropsProcess.
From Coq Require Import Lia.

Section Share.
Context {P : Params}.

Lemma run_ops_app c ops1 ops2 st st1 evs1 :
  run_ops c ops1 st = (st1, evs1, true) ->
  run_ops c (ops1 ++ ops2) st = let '(st2, evs2, fin) := run_ops c ops2 st1 in (st2, evs1 ++ evs2, fin).
Proof.
  revert st evs1. induction ops1 as [|op ops1 IH]; intros st evs1 H; cbn in H |- *.
  { injection H as <- <-. by destruct (run_ops c ops2 st) as [[? ?] ?]. }
  destruct (run_op c op st) as [[st' evs] r]. destruct r as [e|v|]; [| |by injection H as _ _ ?];
  destruct (run_ops c ops1 st') as [[st2 evs'] fin] eqn:E; injection H as -> <- ->;
  rewrite (IH _ _ E); destruct (run_ops c ops2 st1) as [[? ?] ?]; by rewrite app_assoc.
Qed.

Lemma share_events_app l l' : share_events (l ++ l') = share_events l ++ share_events l'.
Proof. apply bind_app. Qed.

(** The operations of a run and of the others. *)
Fixpoint share_ops (start t : Z) (scale : Z -> Z) (opts : list OOpt) (steps : list ShStep) : list Op :=
  match steps with
  | [] => []
  | s :: steps => sh_others s ++ [OpTick (rs_o (sh_run s)) (rs_fuel (sh_run s)) (rs_order (sh_run s)) (tick_options start t scale opts (sh_run s))]
                    ++ share_ops start t scale opts steps
  end.
Lemma share_ops_ok c start t scale opts steps : Forall (share_ok c) steps -> Forall (op_ok c) (share_ops start t scale opts steps).
Proof.
  induction 1 as [|s steps [H1 H2] _ IH]; [constructor|]. cbn. apply Forall_app. split; [done|]. by constructor.
Qed.

Lemma history_more c u ops st evs ops' st' evs' fin :
  history c u ops st evs true -> Forall (op_ok c) ops' -> run_ops c ops' st = (st', evs', fin) ->
  history c u (ops ++ ops') st' (evs ++ evs') fin.
Proof.
  intros (Ha & Ho & Hr) Ho' Hr'. split; [done|]. split; [by apply Forall_app|]. by rewrite (run_ops_app _ _ _ _ _ _ Hr), Hr'.
Qed.

Lemma tick_ok c start t scale opts s : share_ok c s ->
  op_ok c (OpTick (rs_o (sh_run s)) (rs_fuel (sh_run s)) (rs_order (sh_run s)) (tick_options start t scale opts (sh_run s))).
Proof. by intros [_ ?]. Qed.

(** All of it is a history of the engine. *)
Lemma shared_history c start t scale opts steps u ops st evs0 st' l res :
  history c u ops st evs0 true -> Forall (share_ok c) steps ->
  shared_loop c start t scale opts steps st = (st', l, res) ->
  exists ops' fin, history c u (ops ++ ops') st' (evs0 ++ share_events l) fin /\ (ops' `prefix_of` share_ops start t scale opts steps) /\
    (still_running (length steps) l -> fin = true).
Proof.
  revert ops st evs0 l. induction steps as [|s steps IH]; intros ops st evs0 l Hh Hok H; cbn in H.
  { injection H as <- <- <-. exists [], true. cbn. rewrite !app_nil_r. split; [done|]. split; [done|done]. }
  apply Forall_cons in Hok as [Hs Hok].
  destruct (run_ops c (sh_others s) st) as [[st1 ev1] fin1] eqn:E1.
  assert (Hh1 := history_more _ _ _ _ _ _ _ _ _ Hh (proj1 Hs) E1).
  destruct fin1; cbn [negb] in H.
  2: { injection H as <- <- <-. exists (sh_others s), false. cbn. rewrite !app_nil_r. split; [done|]. split; [by eexists|].
       intros [_ Hn]. cbn in Hn. discriminate. }
  destruct (e_tick c (rs_o (sh_run s)) (rs_fuel (sh_run s)) (rs_order (sh_run s)) (tick_options start t scale opts (sh_run s)) st1) as [[st2 fs] r] eqn:E2.
  set (op := OpTick (rs_o (sh_run s)) (rs_fuel (sh_run s)) (rs_order (sh_run s)) (tick_options start t scale opts (sh_run s))) in *.
  assert (Hop : op_ok c op) by exact (tick_ok _ _ _ _ _ _ Hs).
  assert (E2' : run_op c op st1 = (st2, EvFact <$> fs, r)) by (cbn; by rewrite E2).
  assert (Hh2 : history c u (ops ++ sh_others s ++ [op]) st2 ((evs0 ++ ev1) ++ (EvFact <$> fs)) (match r with Fuel => false | _ => true end)).
  { rewrite app_assoc. eapply history_more; [exact Hh1|by apply Forall_singleton|]. cbn [run_ops]. rewrite E2'. destruct r; by rewrite ?app_nil_r. }
  rewrite <- app_assoc in Hh2.
  assert (Hpre : (sh_others s ++ [op]) `prefix_of` share_ops start t scale opts (s :: steps)).
  { cbn. exists (share_ops start t scale opts steps). by rewrite <- app_assoc. }
  assert (Hend : forall x, x = [SvOthers ev1; SvRun (RvTick fs r)] -> st2 = st' ->
    exists ops' fin, history c u (ops ++ ops') st' (evs0 ++ share_events x) fin /\ (ops' `prefix_of` share_ops start t scale opts (s :: steps)) /\
      (still_running (length (s :: steps)) x -> fin = true)).
  { intros x -> <-. exists (sh_others s ++ [op]), (match r with Fuel => false | _ => true end). cbn. rewrite app_nil_r. split; [exact Hh2|].
    split; [exact Hpre|]. intros [_ Hn]. cbn in Hn. discriminate. }
  destruct r as [[|e es]|v|]; try (injection H as <- <- <-; by apply Hend).
  destruct (rs_sleep (sh_run s)) as [e|].
  { injection H as <- <- <-. exists (sh_others s ++ [op]), true. cbn. rewrite ?app_nil_r. split; [exact Hh2|]. split; [exact Hpre|].
    intros [_ Hn]. done. }
  destruct (shared_loop c start t scale opts steps st2) as [[st3 l3] res3] eqn:E3. injection H as <- <- <-.
  destruct (IH _ _ _ _ Hh2 Hok E3) as (ops' & fin & Hh3 & [k Hk] & Hfin).
  exists ((sh_others s ++ [op]) ++ ops'), fin. cbn. rewrite <- !app_assoc in *. cbn in *. split; [exact Hh3|].
  split; [exists k; rewrite Hk; by rewrite <- !app_assoc|].
  intros [HF Hn]. apply Hfin. split.
  - by repeat (apply Forall_cons in HF as [_ HF]).
  - unfold sleeps in Hn |- *. cbn in Hn. by injection Hn as ->.
Qed.

(** A tick of the run. *)
Lemma shared_tick c start t scale opts steps u ops st evs0 st' l res l1 fs r l2 :
  history c u ops st evs0 true -> Forall (share_ok c) steps ->
  shared_loop c start t scale opts steps st = (st', l, res) -> l = l1 ++ SvRun (RvTick fs r) :: l2 ->
  exists ops1 st1 st2 s, steps !! sleeps l1 = Some s /\ history c u ops1 st1 (evs0 ++ share_events l1) true /\
    e_tick c (rs_o (sh_run s)) (rs_fuel (sh_run s)) (rs_order (sh_run s)) (tick_options start t scale opts (sh_run s)) st1 = (st2, fs, r).
Proof.
  revert ops st evs0 l l1. induction steps as [|s steps IH]; intros ops st evs0 l l1 Hh Hok H Hl; cbn in H.
  { injection H as _ <- _. by destruct l1. }
  apply Forall_cons in Hok as [Hs Hok].
  destruct (run_ops c (sh_others s) st) as [[st1 ev1] fin1] eqn:E1.
  assert (Hh1 := history_more _ _ _ _ _ _ _ _ _ Hh (proj1 Hs) E1).
  destruct fin1; cbn [negb] in H.
  2: { injection H as _ <- _. destruct l1 as [|? [|]]; discriminate Hl. }
  destruct (e_tick c (rs_o (sh_run s)) (rs_fuel (sh_run s)) (rs_order (sh_run s)) (tick_options start t scale opts (sh_run s)) st1) as [[st2 fs0] r0] eqn:E2.
  set (op := OpTick (rs_o (sh_run s)) (rs_fuel (sh_run s)) (rs_order (sh_run s)) (tick_options start t scale opts (sh_run s))) in *.
  assert (Hop : op_ok c op) by exact (tick_ok _ _ _ _ _ _ Hs).
  assert (E2' : run_op c op st1 = (st2, EvFact <$> fs0, r0)) by (cbn; by rewrite E2).
  assert (Hfirst : l1 = [SvOthers ev1] -> fs = fs0 -> r = r0 -> exists ops1 st1 st2 s', (s :: steps) !! sleeps l1 = Some s' /\ history c u ops1 st1 (evs0 ++ share_events l1) true /\
    e_tick c (rs_o (sh_run s')) (rs_fuel (sh_run s')) (rs_order (sh_run s')) (tick_options start t scale opts (sh_run s')) st1 = (st2, fs, r)).
  { intros -> -> ->. exists (ops ++ sh_others s), st1, st2, s. cbn. rewrite app_nil_r. by split. }
  assert (Hcase : exists x, l = SvOthers ev1 :: SvRun (RvTick fs0 r0) :: x).
  { destruct r0 as [[|? ?]|?|]; try (injection H as _ <- _; by eexists). destruct (rs_sleep (sh_run s)); [injection H as _ <- _; by eexists|].
    destruct (shared_loop c start t scale opts steps st2) as [[? ?] ?]. injection H as _ <- _. by eexists. }
  destruct Hcase as [x Hx]. rewrite Hx in Hl.
  destruct l1 as [|a l1]; [discriminate Hl|]. injection Hl as <- Hl.
  destruct l1 as [|b l1]; [injection Hl as -> -> _; by apply Hfirst|]. injection Hl as <- Hl.
  destruct r0 as [[|e es]|v|]; try (injection H as _ <- _; injection Hx as Hx; rewrite <- Hx in Hl; by destruct l1).
  destruct (rs_sleep (sh_run s)) as [e|].
  { injection H as _ <- _. injection Hx as Hx; rewrite <- Hx in Hl. by destruct l1 as [|? [|]]. }
  destruct (shared_loop c start t scale opts steps st2) as [[st3 l3] res3] eqn:E3. injection H as -> <- ->. injection Hx as Hx; rewrite <- Hx in Hl.
  destruct l1 as [|d l1]; [discriminate Hl|]. injection Hl as <- Hl.
  assert (Hh2 : history c u ((ops ++ sh_others s) ++ [op]) st2 ((evs0 ++ ev1) ++ (EvFact <$> fs0)) true).
  { eapply history_more; [exact Hh1|by apply Forall_singleton|]. cbn [run_ops]. rewrite E2'. by rewrite ?app_nil_r. }
  destruct (IH _ _ _ _ _ Hh2 Hok E3 Hl) as (ops1 & st1' & st2' & s' & Hs' & Hh' & Ht').
  exists ops1, st1', st2', s'. split; [exact Hs'|]. split; [|exact Ht'].
  cbn. by rewrite <- !app_assoc in *.
Qed.

(** The time of a tick, and who is skipped. *)
Lemma last_cons {A} (x : A) l : last (x :: l) = Some (default x (last l)).
Proof. revert x. induction l as [|y l IH]; intros x; [done|]. change (last (x :: y :: l)) with (last (y :: l)). rewrite IH. done. Qed.
Lemma chosen_last opts : chosen_time opts = last_opt current_time opts.
Proof.
  induction opts as [|o opts IH]; [done|]. unfold last_opt in *. destruct o; cbn [chosen_time omap list_omap current_time]; try exact IH.
  rewrite IH. symmetry. apply last_cons.
Qed.
Lemma tick_time o start epoch scale opts s :
  op_time o (tick_options start (default start epoch) scale opts (sh_run s)) = time_of start scale epoch opts s.
Proof.
  unfold op_time, time_of, tick_options. rewrite <- chosen_last. done.
Qed.
Lemma tick_skipped start t scale opts r h : skipped (tick_options start t scale opts r) h = skipped opts h.
Proof. done. Qed.

Lemma since_reset_facts evs fs : since_reset (evs ++ (EvFact <$> fs)) = since_reset evs ++ fs.
Proof.
  induction fs as [|f fs IH] using rev_ind; [by rewrite !app_nil_r|].
  rewrite fmap_app, app_assoc. unfold since_reset in *. rewrite foldl_app, IH. cbn. by rewrite app_assoc.
Qed.

Lemma tick_completed c o fuel order opts st st' fs err :
  e_tick c o fuel order opts st = (st', fs, Ok err) -> exists et eh, TickCycleCompleted err et eh ∈ fs.
Proof.
  unfold e_tick. destruct (new_opts c (o_wall o) opts) as [oo|v]; [|by intros [= ]].
  destruct (lock o (es_g st)) as [g [e|]].
  - intros [= _ <- <-]. do 2 eexists. right. by left.
  - destruct (e_tick_body c o oo fuel order (es_set_g st g)) as [[st1 fs1] [errs|v|]]; intros H; try discriminate H.
    injection H as _ <- ->. do 2 eexists. right. apply elem_of_app. right. by left.
Qed.

Section Tick.
Context c u ops st evs o fuel order opts st' fs err hd pi
  (Hh : history c u ops st evs true) (Hop : op_ok c (OpTick o fuel order opts))
  (Ht : e_tick c o fuel order opts st = (st', fs, Ok err)) (Herr : forall s, ECtx s ∉ err)
  (Hd : hd ∈ c_app c) (Hi : h_impl hd = ImplProc pi) (Hsk : skipped opts hd = None).

Lemma tick_runs : run_op c (OpTick o fuel order opts) st = (st', EvFact <$> fs, Ok err).
Proof. cbn. by rewrite Ht. Qed.
Lemma tick_reachable : reachable c st.
Proof. by exists u, ops, evs. Qed.

Lemma tick_dispatches t : t ∈ pending_timeouts (since_reset evs) (h_id hd) -> (e_sched t <= op_time o opts)%Z -> DispatchBegun t ∈ fs.
Proof.
  intros Htm Hle. destruct (tick_completed _ _ _ _ _ _ _ _ _ Ht) as (et & eh & Hc).
  destruct (tick_completes _ _ _ _ _ _ _ _ _ tick_reachable Hop tick_runs Hc Herr) as (Hunc & _).
  destruct (reachable_st_ok _ _ tick_reachable hd Hd) as (cs & Hl & Hm). unfold cs_match in Hm. rewrite Hi in Hm. destruct cs as [|ps| |]; try done.
  destruct (C14_every_timeout_is_accounted_for _ _ _ _ _ _ _ _ Hh Hd Hl) as (Hpend & _).
  assert (Hd' : t ∈ dispatched fs).
  { eapply (C23_due_timeouts_are_dispatched c st o fuel order opts st' fs (Ok err) hd ps t); try done.
    - split; [exact tick_reachable|]. split; [done|]. split; [exact tick_runs|]. intros ->. inversion Hc.
    - by rewrite Hpend. }
  unfold dispatched in Hd'. apply elem_of_list_omap in Hd' as (f & Hf' & Hx). destruct f; try discriminate. by injection Hx as ->.
Qed.

Lemma tick_leaves t : t ∈ pending_timeouts (since_reset (evs ++ (EvFact <$> fs))) (h_id hd) -> (op_time o opts < e_sched t)%Z.
Proof.
  intros Htm. rewrite since_reset_facts in Htm. destruct (tick_completed _ _ _ _ _ _ _ _ _ Ht) as (et & eh & Hc).
  destruct (tick_completes _ _ _ _ _ _ _ _ _ tick_reachable Hop tick_runs Hc Herr) as (_ & o1 & fuel1 & order1 & opts1 & Heq & Hall).
  injection Heq as <- <- <- <-.
  assert (HF := ticked_later (OpTick o fuel order opts) (since_reset evs) fs (h_id hd)).
  eapply Forall_forall in HF; [exact HF|..|exact Htm].
  - intros; eapply op_cycle; [exact tick_reachable|exact Hop|exact tick_runs|done].
  - eapply op_first; [exact tick_reachable|exact Hop|exact tick_runs|]. intros ->. inversion Hc.
  - by apply Hall.
  - cbn. unfold h_type. by rewrite Hi.
Qed.
End Tick.

(** ** One run *)
Section Run.
Context c u ops st evs0 start scale epoch opts steps st' l res l1 fs err l2
  (Hh : history c u ops st evs0 true) (Hok : Forall (share_ok c) steps)
  (Hrun : shared_run c start scale epoch opts steps st = (st', l, res))
  (Hl : l = l1 ++ SvRun (RvTick fs (Ok err)) :: l2) (Herr : forall s, ECtx s ∉ err).

Lemma run_dispatches s hd pi t : steps !! sleeps l1 = Some s -> hd ∈ c_app c -> h_impl hd = ImplProc pi -> skipped opts hd = None ->
  t ∈ pending_timeouts (since_reset (evs0 ++ share_events l1)) (h_id hd) -> (e_sched t <= time_of start scale epoch opts s)%Z ->
  DispatchBegun t ∈ fs.
Proof.
  intros Hs Hd Hi Hsk Ht Hle.
  destruct (shared_tick _ _ _ _ _ _ _ _ _ _ _ _ _ _ _ _ _ Hh Hok Hrun Hl) as (ops1 & st1 & st2 & s' & Hs' & Hh1 & Htick).
  rewrite Hs in Hs'. injection Hs' as <-.
  eapply tick_dispatches; [exact Hh1|..|exact Htick|done|exact Hd|exact Hi|done|exact Ht|by rewrite tick_time].
  apply (tick_ok c). eapply Forall_forall; [exact Hok|]. by eapply elem_of_list_lookup_2.
Qed.
Lemma run_leaves s hd pi t : steps !! sleeps l1 = Some s -> hd ∈ c_app c -> h_impl hd = ImplProc pi -> skipped opts hd = None ->
  t ∈ pending_timeouts (since_reset (evs0 ++ share_events (l1 ++ [SvRun (RvTick fs (Ok err))]))) (h_id hd) ->
  (time_of start scale epoch opts s < e_sched t)%Z.
Proof.
  intros Hs Hd Hi Hsk Ht.
  destruct (shared_tick _ _ _ _ _ _ _ _ _ _ _ _ _ _ _ _ _ Hh Hok Hrun Hl) as (ops1 & st1 & st2 & s' & Hs' & Hh1 & Htick).
  rewrite Hs in Hs'. injection Hs' as <-.
  rewrite share_events_app in Ht. cbn in Ht. rewrite app_nil_r, app_assoc in Ht.
  rewrite <- (tick_time (rs_o (sh_run s))).
  eapply tick_leaves; [exact Hh1|..|exact Htick|done|exact Hd|exact Hi|done|exact Ht].
  apply (tick_ok c). eapply Forall_forall; [exact Hok|]. by eapply elem_of_list_lookup_2.
Qed.
End Run.

(** ** Without others *)
Definition alone (r : RunStep) : ShStep := mkShStep [] r.
Lemma shared_alone c start t scale opts steps st :
  shared_loop c start t scale opts (alone <$> steps) st =
  let '(st', evs, res) := run_loop c start t scale opts steps st in
  (st', evs ≫= (fun e => match e with RvTick _ _ => [SvOthers []; SvRun e] | _ => [SvRun e] end), res).
Proof.
  revert st. induction steps as [|s steps IH]; intros st; [done|]. cbn. unfold tick_options.
  destruct (e_tick c (rs_o s) (rs_fuel s) (rs_order s) (OptNow (t + scale (rs_clock s - start)%Z)%Z :: opts) st) as [[st1 fs] [[|e es]|v|]]; try done.
  destruct (rs_sleep s) as [e|]; [done|]. rewrite IH. by destruct (run_loop c start t scale opts steps st1) as [[? ?] ?].
Qed.

(** ** Runs that go on *)
Lemma still_app c start t scale opts steps steps' st st1 l1 res1 :
  shared_loop c start t scale opts steps st = (st1, l1, res1) -> still_running (length steps) l1 ->
  shared_loop c start t scale opts (steps ++ steps') st =
  let '(st2, l2, res2) := shared_loop c start t scale opts steps' st1 in (st2, l1 ++ l2, res2).
Proof.
  revert st l1. induction steps as [|s steps IH]; intros st l1 H Hr; cbn in H |- *.
  { injection H as <- <- <-. by destruct (shared_loop c start t scale opts steps' st) as [[? ?] ?]. }
  destruct (run_ops c (sh_others s) st) as [[st' ev1] fin1]. destruct fin1; cbn [negb] in H |- *.
  2: { injection H as <- <- <-. by destruct Hr. }
  destruct (e_tick c (rs_o (sh_run s)) (rs_fuel (sh_run s)) (rs_order (sh_run s)) (tick_options start t scale opts (sh_run s)) st') as [[st2 fs] r].
  destruct r as [[|e es]|v|]; try (injection H as <- <- <-; by destruct Hr).
  destruct (rs_sleep (sh_run s)) as [e|].
  { injection H as <- <- <-. destruct Hr as [Hr _]. do 2 apply Forall_cons in Hr as [_ Hr]. by apply Forall_cons in Hr as [[] _]. }
  destruct (shared_loop c start t scale opts steps st2) as [[st3 l3] res3] eqn:E3. injection H as -> <- ->.
  assert (Hr' : still_running (length steps) l3).
  { destruct Hr as [HF Hn]. split; [by repeat (apply Forall_cons in HF as [_ HF])|]. unfold sleeps in Hn |- *. cbn in Hn. by injection Hn as ->. }
  rewrite (IH _ _ E3 Hr'). by destruct (shared_loop c start t scale opts steps' st1) as [[? ?] ?].
Qed.

Lemma one_step c start t scale opts s st st' l res :
  shared_loop c start t scale opts [s] st = (st', l, res) -> sleeps l = 1 -> Forall (fun e => match e with SvRun e => fine e | SvOthers _ => True end) l ->
  exists ev fs, l = [SvOthers ev; SvRun (RvTick fs (Ok [])); SvRun (RvSleep None)].
Proof.
  cbn. destruct (run_ops c (sh_others s) st) as [[st1 ev1] fin1]. destruct fin1; cbn [negb]; [|by intros [= <- <- <-]].
  destruct (e_tick c (rs_o (sh_run s)) (rs_fuel (sh_run s)) (rs_order (sh_run s)) (tick_options start t scale opts (sh_run s)) st1) as [[st2 fs] r].
  destruct r as [[|e es]|v|]; try (by intros [= <- <- <-]).
  destruct (rs_sleep (sh_run s)) as [e|]; intros [= <- <- <-]; intros _ HF; [|by eauto].
  do 2 apply Forall_cons in HF as [_ HF]. by apply Forall_cons in HF as [[] _].
Qed.

Lemma sleeps_app l l' : sleeps (l ++ l') = sleeps l + sleeps l'.
Proof. unfold sleeps. by rewrite omap_app, app_length. Qed.
Lemma first_steps_S f n : first_steps f (S n) = first_steps f n ++ [f n].
Proof. unfold first_steps. by rewrite seq_S, fmap_app. Qed.
Lemma first_steps_length f n : length (first_steps f n) = n.
Proof. unfold first_steps. by rewrite fmap_length, seq_length. Qed.
Lemma first_steps_lookup f n i : i < n -> first_steps f n !! i = Some (f i).
Proof. intros H. unfold first_steps. rewrite list_lookup_fmap, lookup_seq_lt by done. done. Qed.

Section Forever.
Context c u ops st evs0 start scale epoch opts (f : nat -> ShStep)
  (Hh : history c u ops st evs0 true) (Hok : forall i, share_ok c (f i))
  (Hgo : forall n, still_running n (observed_until c start scale epoch opts f st n)).
Notation obs n := (observed_until c start scale epoch opts f st n).

Lemma steps_ok n : Forall (share_ok c) (first_steps f n).
Proof. apply Forall_fmap. apply Forall_true. intros i. apply Hok. Qed.

Lemma obs_S n : exists ev fs, obs (S n) = obs n ++ [SvOthers ev; SvRun (RvTick fs (Ok [])); SvRun (RvSleep None)].
Proof.
  assert (Hn := Hgo n). assert (HS := Hgo (S n)). unfold observed_until, shared_run in *. rewrite first_steps_S in HS |- *.
  destruct (shared_loop c start (default start epoch) scale opts (first_steps f n) st) as [[st1 l1] res1] eqn:E1. cbn in Hn.
  assert (Hn' : still_running (length (first_steps f n)) l1) by (by rewrite first_steps_length).
  rewrite (still_app _ _ _ _ _ _ [f n] _ _ _ _ E1 Hn') in HS |- *.
  destruct (shared_loop c start (default start epoch) scale opts [f n] st1) as [[st2 l2] res2] eqn:E2. cbn in HS |- *.
  destruct HS as [HF HS]. apply Forall_app in HF as [_ HF]. rewrite sleeps_app in HS. destruct Hn as [_ Hn]. rewrite Hn in HS.
  destruct (one_step _ _ _ _ _ _ _ _ _ _ E2) as (ev & fs & ->); [lia|done|]. by exists ev, fs.
Qed.
Lemma obs_prefix n m : n <= m -> obs n `prefix_of` obs m.
Proof.
  induction 1 as [|m _ IH]; [done|]. destruct (obs_S m) as (ev & fs & ->). by apply prefix_app_r.
Qed.

Lemma obs_history n : exists ops' st', history c u ops' st' (evs0 ++ share_events (obs n)) true.
Proof.
  assert (Hn := Hgo n). unfold observed_until, shared_run in *.
  destruct (shared_loop c start (default start epoch) scale opts (first_steps f n) st) as [[st1 l1] res1] eqn:E1.
  destruct (shared_history _ _ _ _ _ _ _ _ _ _ _ _ _ Hh (steps_ok n) E1) as (ops' & fin & H & _ & Hf).
  rewrite first_steps_length in Hf. rewrite (Hf Hn) in H. eauto.
Qed.

(** After each iteration nothing is overdue. *)
Lemma obs_leaves n hd pi t : hd ∈ c_app c -> h_impl hd = ImplProc pi -> skipped opts hd = None ->
  t ∈ pending_timeouts (since_reset (evs0 ++ share_events (obs (S n)))) (h_id hd) -> (time_of start scale epoch opts (f n) < e_sched t)%Z.
Proof.
  intros Hd Hi Hsk Ht. destruct (obs_S n) as (ev & fs & HS). destruct (Hgo n) as [_ Hn]. rewrite HS in Ht.
  revert HS. unfold observed_until at 1. destruct (shared_run c start scale epoch opts (first_steps f (S n)) st) as [[st1 l1] res1] eqn:E1. cbn. intros ->.
  eapply (run_leaves c u ops st evs0 start scale epoch opts (first_steps f (S n)) st1 _ res1 (obs n ++ [SvOthers ev]) fs [] [SvRun (RvSleep None)] Hh (steps_ok (S n)) E1);
    [by rewrite <- app_assoc|intros s Hs; inversion Hs| |exact Hd|exact Hi|done|].
  - rewrite sleeps_app, Hn. change (sleeps [SvOthers ev]) with 0. rewrite Nat.add_0_r. apply first_steps_lookup. lia.
  - rewrite !share_events_app in Ht. rewrite !share_events_app. cbn in Ht |- *. rewrite ?app_nil_r, <- ?app_assoc in Ht. rewrite ?app_nil_r, <- ?app_assoc. exact Ht.
Qed.

(** Accepted timeouts stay accepted. *)
Lemma acc_step v g h t : t ∈ pv_acc v h -> t ∈ pv_acc (proc_step v g) h.
Proof.
  intros H. destruct g; cbn; try done; unfold pp_on, set_pend, proc_commit; repeat case_match; cbn; try done.
  unfold put. match goal with |- context [decide ?X] => destruct (decide X) as [<-|] end; [apply elem_of_app; by left|done].
Qed.
Lemma acc_more fs fs' h t : t ∈ pv_acc (proc_view fs) h -> t ∈ pv_acc (proc_view (fs ++ fs')) h.
Proof.
  unfold proc_view. rewrite foldl_app. generalize (foldl proc_step (mkPView 0 (fun _ _ => false) (fun _ => []) [] [] (fun _ => []) (fun _ => []) (fun _ => []) (fun _ => []) None) fs) as v.
  induction fs' as [|g fs' IH]; intros v H; [done|]. cbn. apply IH. by apply acc_step.
Qed.
Lemma no_reset_facts evs evs' : EvReset ∉ evs' -> exists fs, since_reset (evs ++ evs') = since_reset evs ++ fs.
Proof.
  induction evs' as [|e evs' IH] using rev_ind; intros H; [exists []; by rewrite !app_nil_r|].
  destruct IH as [fs E]; [intros Hx; apply H, elem_of_app; by left|].
  destruct e as [g|]; [|exfalso; apply H, elem_of_app; right; by left].
  exists (fs ++ [g]). unfold since_reset in *. rewrite app_assoc, foldl_app, E. cbn. by rewrite app_assoc.
Qed.

Lemma reset_dec (evs : list Ev) : EvReset ∈ evs \/ EvReset ∉ evs.
Proof.
  induction evs as [|[g|] evs IH]; [right; intros H; inversion H| |left; by left].
  destruct IH as [?|H]; [left; by right|right]. intros Hx. apply elem_of_cons in Hx as [?|?]; [discriminate|done].
Qed.

Lemma late_iteration n T : (forall T, exists i, (T <= time_of start scale epoch opts (f i))%Z) ->
  exists m, n <= m /\ (T <= time_of start scale epoch opts (f m))%Z.
Proof.
  intros H. 
  assert (Hb : exists B, forall i, i < n -> (time_of start scale epoch opts (f i) < B)%Z).
  { clear -n. induction n as [|k [B IH]]; [exists 0%Z; lia|].
    exists (Z.max B (time_of start scale epoch opts (f k) + 1)). intros i Hi.
    destruct (decide (i = k)) as [->|]; [lia|]. specialize (IH i ltac:(lia)). lia. }
  destruct Hb as [B HB]. destruct (H (Z.max B T)) as [m Hm]. exists m. split; [|lia].
  destruct (decide (m < n)) as [Hlt|]; [|lia]. specialize (HB m Hlt). lia.
Qed.

Lemma no_wait_forever hd pi t n :
  (forall T, exists i, (T <= time_of start scale epoch opts (f i))%Z) ->
  hd ∈ c_app c -> h_impl hd = ImplProc pi -> skipped opts hd = None ->
  t ∈ pending_timeouts (since_reset (evs0 ++ share_events (obs n))) (h_id hd) ->
  exists m between, n < m /\ share_events (obs m) = share_events (obs n) ++ between /\
    (EvReset ∈ between \/
     let v := proc_view (since_reset (evs0 ++ share_events (obs m))) in t ∈ pv_took v (h_id hd) \/ t ∈ pv_gone v (h_id hd)).
Proof.
  intros HT Hd Hi Hsk Ht. destruct (late_iteration n (e_sched t) HT) as (k & Hk & Hle).
  destruct (obs_prefix n (S k)) as [x Hx]; [lia|]. exists (S k), (share_events x). split; [lia|]. split; [by rewrite Hx, share_events_app|].
  destruct (reset_dec (share_events x)) as [Hres|Hres]; [by left|right]. intros v.
  destruct (obs_history n) as (ops1 & st1 & H1). destruct (obs_history (S k)) as (ops2 & st2 & H2).
  assert (Hps : forall ops' st' evs', history c u ops' st' evs' true -> exists ps, es_cs st' !! h_name hd = Some (CSProc ps)).
  { intros ops' st' evs' H. assert (Hr : reachable c st') by (by exists u, ops', evs').
    destruct (reachable_st_ok _ _ Hr hd Hd) as (cs & Hl & Hm). unfold cs_match in Hm. rewrite Hi in Hm. destruct cs as [|ps| |]; try done. eauto. }
  destruct (Hps _ _ _ H1) as [ps1 Hp1]. destruct (Hps _ _ _ H2) as [ps2 Hp2].
  destruct (C14_every_timeout_is_accounted_for _ _ _ _ _ _ _ _ H1 Hd Hp1) as (Hq1 & _ & Ha1).
  destruct (C14_every_timeout_is_accounted_for _ _ _ _ _ _ _ _ H2 Hd Hp2) as (Hq2 & _ & Ha2).
  assert (Hin : t ∈ pv_acc (proc_view (since_reset (evs0 ++ share_events (obs n)))) (h_id hd)).
  { rewrite Ha1. apply elem_of_app. left. by rewrite Hq1. }
  destruct (no_reset_facts (evs0 ++ share_events (obs n)) _ Hres) as [fs Hfs].
  apply (acc_more _ fs) in Hin. rewrite <- Hfs in Hin. rewrite <- app_assoc, <- share_events_app, <- Hx in Hin.
  rewrite Ha2 in Hin. apply elem_of_app in Hin as [Hin|Hin]; [|by apply elem_of_app in Hin].
  exfalso. rewrite Hq2 in Hin. assert (Hlt := obs_leaves k hd pi t Hd Hi Hsk Hin). lia.
Qed.
End Forever.
End Share.
