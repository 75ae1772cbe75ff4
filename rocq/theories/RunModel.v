(** * engine/run.go *)
From Verif Require Export EngineModel.

Section Run.
Context {P : Params}.

(** What one iteration of the loop meets: the reading of the (monotonic) clock by
    time.Since, the environment of the tick and what linger.Sleep returns. *)
Record RunStep := mkRunStep {
  rs_clock : Z; rs_o : Oracle; rs_fuel : nat; rs_order : list Handler; rs_sleep : option Err }.

(** What is observed of a run, apart from facts: the results of Tick and Sleep. *)
Inductive RunEv := RvTick (fs : list Fact) (r : Out Errs) | RvSleep (e : option Err).

(** The end of a run.  [RunGoesOn]: the environment describes no further iteration. *)
Inductive RunRes := RunReturns (e : Errs) | RunPanics (v : PVal) | RunGoesOn.

(** The loop of RunTimeScaled, run.go:64-75.  [scale] is linger.Multiply(_, f); its
    rounding of floating point numbers is not modelled. *)
Fixpoint run_loop (c : Config) (start t : Z) (scale : Z -> Z) (opts : list OOpt) (steps : list RunStep)
    (st : EState) : EState * list RunEv * RunRes :=
  match steps with
  | [] => (st, [], RunGoesOn)
  | s :: steps =>
    let elapsed := scale (rs_clock s - start)%Z in
    let '(st, fs, r) := e_tick c (rs_o s) (rs_fuel s) (rs_order s) (OptNow (t + elapsed)%Z :: opts) st in
    match r with
    | Pan v => (st, [RvTick fs r], RunPanics v)
    | Fuel => (st, [RvTick fs r], RunGoesOn)
    | Ok (e :: es) => (st, [RvTick fs r], RunReturns (e :: es))
    | Ok [] =>
      match rs_sleep s with
      | Some e => (st, [RvTick fs r; RvSleep (Some e)], RunReturns [e])
      | None =>
        let '(st, evs, res) := run_loop c start t scale opts steps st in
        (st, RvTick fs r :: RvSleep None :: evs, res)
      end
    end
  end.

(** RunTimeScaled, run.go:44-76; [t] = None: the zero time. *)
Definition run_time_scaled (c : Config) (start : Z) (scale : Z -> Z) (t : option Z) (opts : list OOpt)
    (steps : list RunStep) (st : EState) : EState * list RunEv * RunRes :=
  run_loop c start (default start t) scale opts steps st.
(** Run, run.go:17-31. *)
Definition run (c : Config) (start : Z) (opts : list OOpt) (steps : list RunStep) (st : EState)
  : EState * list RunEv * RunRes := run_time_scaled c start id None opts steps st.
End Run.
