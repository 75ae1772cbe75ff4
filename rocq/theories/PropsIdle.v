(** * Ticks at which there is nothing to do. *)
From Verif Require Import IdleSpec IdleProof LaterProof OpFacts EngDemo.

Section Props.
Context {P : Params}.

(** C108.  A Tick at a time at which nothing is due changes nothing: it consumes no message
    ID, runs no code of the user, and its facts tell that each handler was ticked or skipped.
    (A cancelled one may return early.) *)
Theorem C108_an_idle_tick_does_nothing c st o fuel order opts st' fs r :
  performs c st (OpTick o fuel order opts) st' fs r -> idle c (op_time o opts) (skipped opts) st ->
  unchanged st st' /\ dispatched fs = [] /\
  (r = Ok [] /\ (exists et eh, fs = TickCycleBegun (op_time o opts) et eh :: uneventful (skipped opts) order ++ [TickCycleCompleted [] et eh]) \/
   exists x, r = Ok [ECtx x]).
Proof. exact (C108_idle_lemma c st o fuel order opts st' fs r). Qed.

(** C108.  Such a Tick leaves no trace: whatever is done after it, all that can be observed is
    what would have been observed without it, if the contexts, the lock, the scheduler and
    other goroutines behave the same. *)
Theorem C108_an_idle_tick_leaves_no_trace c st o fuel order opts st' fs r :
  performs c st (OpTick o fuel order opts) st' fs r -> idle c (op_time o opts) (skipped opts) st ->
  exists n, forall ops s' evs fin, run_ops c ops st' = (s', evs, fin) ->
    exists s, run_ops c (op_asked_later n <$> ops) st = (s, evs, fin) /\ unchanged s s'.
Proof. exact (no_trace_lemma c st o fuel order opts st' fs r). Qed.

(** C108.  After a Tick that was neither cancelled nor stopped by a panic, nothing is due any
    more, whatever the handlers did. *)
Theorem C108_nothing_is_due_after_a_tick c st o fuel order opts st' fs r :
  performs c st (OpTick o fuel order opts) st' fs r -> uncancelled r ->
  idle c (op_time o opts) (skipped opts) st'.
Proof. exact (C108_tick_lemma c st o fuel order opts st' fs r). Qed.

(** C108.  No operation, even if it is cancelled or panics, makes something due at or before
    its own time. *)
Theorem C108_only_time_makes_things_due c op st st' evs r t skip :
  op_ok c op -> run_op c op st = (st', evs, r) -> not_before t op -> idle c t skip st -> idle c t skip st'.
Proof. exact (C108_keeps_lemma c op st st' evs r t skip). Qed.

(** C108.  So ticking again at the same time or at an earlier one, with at most the same handlers
    enabled, is the same as ticking once, even with other operations in between that are not performed at
    an earlier time. *)
Theorem C108_ticking_twice_is_ticking_once c st o fuel order opts st1 fs1 r1 ops st2 evs o' fuel' order' opts' st3 fs3 r3 :
  performs c st (OpTick o fuel order opts) st1 fs1 r1 -> uncancelled r1 ->
  run_ops c ops st1 = (st2, evs, true) -> Forall (op_ok c) ops -> Forall (not_before (op_time o opts)) ops ->
  performs c st2 (OpTick o' fuel' order' opts') st3 fs3 r3 ->
  (op_time o' opts' <= op_time o opts)%Z -> (forall h, h ∈ c_app c -> skipped opts' h = None -> skipped opts h = None) ->
  unchanged st2 st3 /\ dispatched fs3 = [] /\
  (r3 = Ok [] /\ (exists et eh, fs3 = TickCycleBegun (op_time o' opts') et eh :: uneventful (skipped opts') order' ++ [TickCycleCompleted [] et eh]) \/
   exists x, r3 = Ok [ECtx x]).
Proof. exact (C108_twice_lemma c st o fuel order opts st1 fs1 r1 ops st2 evs o' fuel' order' opts' st3 fs3 r3). Qed.
End Props.
Print Assumptions C108_an_idle_tick_does_nothing.
Print Assumptions C108_an_idle_tick_leaves_no_trace.
Print Assumptions C108_nothing_is_due_after_a_tick.
Print Assumptions C108_only_time_makes_things_due.
Print Assumptions C108_ticking_twice_is_ticking_once.

(** ** A concrete case *)

Lemma ops_st_snoc c u ops op : (run_ops c ops (e_init c u)).2 = true ->
  ops_st c u (ops ++ [op]) = (run_op c op (ops_st c u ops)).1.1.
Proof.
  unfold ops_st. generalize (e_init c u). induction ops as [|op0 ops IH]; intros st H; cbn [run_ops app] in *.
  - cbn [fst snd]. destruct (run_op c op st) as [[s1 e1] [a|v|]]; reflexivity.
  - destruct (run_op c op0 st) as [[s1 e1] r1]. specialize (IH s1).
    destruct r1; [| |done]; destruct (run_ops c ops s1) as [[s2 e2] f2]; cbn in *; specialize (IH H);
      destruct (run_ops c (ops ++ [op]) s1) as [[s3 e3] f3]; exact IH.
Qed.

(** "Go 6" schedules a timeout for 110.  A Tick at [noon] hands it to the process and compacts the
    projections; another Tick at [noon] does nothing, and so does one after a Dispatch at [noon]. *)
Definition noon : Z := 43200000000000.
Definition go6 := go_with quietly [OptNow 100] 6.
Definition late := wait_with quietly [OptNow noon].
Definition fired (fs : list Fact) : nat * nat * nat :=
  (length (dispatched fs), length (List.filter (fun f => match f with ProjectionCompactionBegun _ => true | _ => false end) fs), length fs).
Example ticking_once :
  (fired (op_facts mixed (ops_st mixed [] [go6]) late), fired (op_facts mixed (ops_st mixed [] [go6; late]) late)) = ((1, 1, 17), (0, 0, 9)).
Proof. vm_compute. reflexivity. Qed.
Example C108_example : exists st st1 fs1 st2 fs2 st3 fs3,
  performs mixed st late st1 fs1 (Ok []) /\ length fs1 = 17 /\ idle mixed noon (skipped [OptNow noon]) st1 /\
  performs mixed st1 late st2 fs2 (Ok []) /\ unchanged st1 st2 /\
  performs mixed st1 (go_with quietly [OptNow noon] 6) st3 fs3 (Ok [EWrap (h_id hPicky) (EUser "even")]) /\
  idle mixed noon (skipped [OptNow noon]) st3 /\
  (forall t k evs s', run_ops mixed [go_with quietly [OptNow t] k] st2 = (s', evs, true) ->
     exists s, run_ops mixed [go_with quietly [OptNow t] k] st1 = (s, evs, true)).
Proof.
  mixed_performs [go6] late (Ok (A:=Errs) []) H1.
  mixed_performs [go6; late] late (Ok (A:=Errs) []) H2.
  mixed_performs [go6; late] (go_with quietly [OptNow noon] 6) (Ok (A:=Errs) [EWrap (h_id hPicky) (EUser "even")]) H3.
  assert (Hst : ops_st mixed [] [go6; late] = (run_op mixed late (ops_st mixed [] [go6])).1.1).
  { apply (ops_st_snoc mixed [] [go6] late). vm_compute. reflexivity. }
  rewrite <- Hst in H1.
  assert (Hi : idle mixed noon (skipped [OptNow noon]) (ops_st mixed [] [go6; late])).
  { apply (C108_nothing_is_due_after_a_tick _ _ _ _ _ _ _ _ _ H1 not_ctx_nil). }
  eexists _, _, _, _, _, _, _. split; [exact H1|]. split; [vm_compute; reflexivity|]. split; [exact Hi|].
  split; [exact H2|]. split.
  { apply (C108_an_idle_tick_does_nothing _ _ _ _ _ _ _ _ _ H2 Hi). }
  split; [exact H3|]. destruct H3 as (_ & Hop & Hrun & _).
  split; [apply (C108_only_time_makes_things_due _ _ _ _ _ _ noon _ Hop Hrun); [vm_compute; discriminate|exact Hi]|].
  destruct (C108_an_idle_tick_leaves_no_trace _ _ _ _ _ _ _ _ _ H2 Hi) as [n Hn]. intros t k evs s' Hr.
  destruct (Hn _ _ _ _ Hr) as (s & Hs & _). exists s. exact Hs.
Qed.
