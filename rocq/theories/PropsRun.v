(** * C70: Run and RunTimeScaled *)
From Verif Require Import RunSpec RunLemmas EngDemo.

(** C70.  A run is a sequence of ticks of the engine, separated by sleeps... *)
Theorem C70_is_a_sequence_of_ticks `{Params} c start scale epoch opts steps st st' evs res :
  run_time_scaled c start scale epoch opts steps st = (st', evs, res) ->
  (run_ops c ((fun s => OpTick (rs_o s) (rs_fuel s) (rs_order s)
                          (OptNow (default start epoch + scale (rs_clock s - start)%Z)%Z :: opts))
                <$> take (length (filter (fun e => is_tick e = true) evs)) steps) st).1 =
  (st', evs ≫= (fun e => match e with RvTick fs _ => EvFact <$> fs | _ => [] end)).
Proof. exact (run_loop_ops c start (default start epoch) scale opts steps st st' evs res). Qed.
Print Assumptions C70_is_a_sequence_of_ticks.

Theorem C70_alternates `{Params} c start scale epoch opts steps st st' evs res i x :
  run_time_scaled c start scale epoch opts steps st = (st', evs, res) -> evs !! i = Some x -> is_tick x = Nat.even i.
Proof. exact (run_loop_alternates c start (default start epoch) scale opts steps st st' evs res i x). Qed.
Print Assumptions C70_alternates.

(** ... the i-th of which sees the epoch (or the time at the start, if there is none)
    plus the scaled time that has elapsed, unless the options say otherwise. *)
Theorem C70_time `{Params} c start scale epoch opts steps st st' evs res i f fs r :
  run_time_scaled c start scale epoch opts steps st = (st', evs, res) ->
  filter (fun e => is_tick e = true) evs !! i = Some (RvTick (f :: fs) r) ->
  exists s et eh, steps !! i = Some s /\
    f = TickCycleBegun (match chosen_time opts with
                        | Some t => t
                        | None => (default start epoch + scale (rs_clock s - start))%Z
                        end) et eh.
Proof. exact (C70_time_lemma c start scale epoch opts steps st st' evs res i f fs r). Qed.
Print Assumptions C70_time.

(** It ends exactly with the first failure of a tick or a sleep, and returns its error;
    nothing happens after that. *)
Theorem C70_until_failure `{Params} c start scale epoch opts steps st st' evs res :
  run_time_scaled c start scale epoch opts steps st = (st', evs, res) ->
  match res with
  | RunReturns e => exists l x, evs = l ++ [x] /\ Forall fine l /\ failure x = Some e
  | RunPanics v => exists l fs, evs = l ++ [RvTick fs (Pan v)] /\ Forall fine l
  | RunGoesOn => Forall fine evs /\ length (filter (fun e => is_tick e = true) evs) = length steps \/
                 exists l fs, evs = l ++ [RvTick fs Fuel] /\ Forall fine l
  end.
Proof. exact (run_loop_shape c start (default start epoch) scale opts steps st st' evs res). Qed.
Print Assumptions C70_until_failure.

(** ** Example: the third sleep is interrupted; time runs twice as fast. *)
Definition step_at (t : Z) (e : option Err) : RunStep := mkRunStep t quietly 20 [hSrc; hFlow; hPicky; hOff] e.
Definition observed_times (evs : list RunEv) : list (option Z) :=
  omap (fun e => match e with RvTick (TickCycleBegun now _ _ :: _) (Ok []) => Some (Some now)
                 | RvTick _ _ => Some None | _ => None end) evs.
Definition three_steps : list RunStep :=
  [step_at 1000 None; step_at 1250 None; step_at 1500 (Some (ECtx "canceled")); step_at 1750 None].
Example C70_example :
  let '(_, evs, res) := run_time_scaled mixed 1000 (Z.mul 2) (Some 5000%Z) [] three_steps (e_init mixed []) in
  observed_times evs = [Some 5000; Some 5500; Some 6000]%Z /\ res = RunReturns [ECtx "canceled"].
Proof. vm_compute. tauto. Qed.
Example C70_example_options :
  let '(_, evs, res) := run_time_scaled mixed 1000 (Z.mul 2) (Some 5000%Z) [OptNow 7] three_steps (e_init mixed []) in
  observed_times evs = [Some 7; Some 7; Some 7]%Z /\ res = RunReturns [ECtx "canceled"].
Proof. vm_compute. tauto. Qed.
Example C70_example_run :
  let '(_, evs, res) := run mixed 1000 [] three_steps (e_init mixed []) in
  observed_times evs = [Some 1000; Some 1250; Some 1500]%Z /\ res = RunReturns [ECtx "canceled"].
Proof. vm_compute. tauto. Qed.
