(** * Run() while other goroutines use the engine: engine/run.go *)
From Verif Require Export RunModel.

Section Share.
Context {P : Params}.

(** An iteration of the loop of RunTimeScaled(), and the operations of other goroutines on the
    same engine that take effect after the previous tick and before this one.  (Operations are
    serialised by the engine's mutex, see C40; what is notified before the mutex is locked is
    given together with the rest of the operation.) *)
Record ShStep := mkShStep { sh_others : list Op; sh_run : RunStep }.

(** What is observed: what the others do, and what happens in the run. *)
Inductive ShEv := SvOthers (evs : list Ev) | SvRun (e : RunEv).

(** The options of the tick of an iteration, run.go:56-60, 65-68. *)
Definition tick_options (start t : Z) (scale : Z -> Z) (opts : list OOpt) (r : RunStep) : list OOpt :=
  OptNow (t + scale (rs_clock r - start)%Z)%Z :: opts.

(** The loop of RunTimeScaled(), run.go:64-75, as in RunModel.v.  If an operation of another
    goroutine is still in progress, so that the run waits for the mutex, it goes on. *)
Fixpoint shared_loop (c : Config) (start t : Z) (scale : Z -> Z) (opts : list OOpt) (steps : list ShStep)
    (st : EState) : EState * list ShEv * RunRes :=
  match steps with
  | [] => (st, [], RunGoesOn)
  | s :: steps =>
    let '(st, evs0, fin) := run_ops c (sh_others s) st in
    if negb fin then (st, [SvOthers evs0], RunGoesOn)
    else
      let r := sh_run s in
      let '(st, fs, res) := e_tick c (rs_o r) (rs_fuel r) (rs_order r) (tick_options start t scale opts r) st in
      match res with
      | Pan v => (st, [SvOthers evs0; SvRun (RvTick fs res)], RunPanics v)
      | Fuel => (st, [SvOthers evs0; SvRun (RvTick fs res)], RunGoesOn)
      | Ok (e :: es) => (st, [SvOthers evs0; SvRun (RvTick fs res)], RunReturns (e :: es))
      | Ok [] =>
        match rs_sleep r with
        | Some e => (st, [SvOthers evs0; SvRun (RvTick fs res); SvRun (RvSleep (Some e))], RunReturns [e])
        | None =>
          let '(st, evs, res') := shared_loop c start t scale opts steps st in
          (st, SvOthers evs0 :: SvRun (RvTick fs res) :: SvRun (RvSleep None) :: evs, res')
        end
      end
  end.

(** RunTimeScaled, run.go:44-76; [t] = None: the zero time. *)
Definition shared_run (c : Config) (start : Z) (scale : Z -> Z) (t : option Z) (opts : list OOpt)
    (steps : list ShStep) (st : EState) : EState * list ShEv * RunRes :=
  shared_loop c start (default start t) scale opts steps st.
End Share.
