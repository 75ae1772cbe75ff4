(** * Vocabulary for runs that share the engine with other goroutines. *)
From Verif Require Export ShareModel RunSpec OpSpec ProcSpec TraceSpec.

Section Share.
Context {P : Params}.

(** What can be observed of the engine. *)
Definition share_events (l : list ShEv) : list Ev :=
  l ≫= (fun e => match e with SvOthers evs => evs | SvRun (RvTick fs _) => EvFact <$> fs | SvRun (RvSleep _) => [] end).

(** Operations that clients of this engine could perform. *)
Definition share_ok (c : Config) (s : ShStep) : Prop :=
  Forall (op_ok c) (sh_others s) /\ op_ok c (OpTick (rs_o (sh_run s)) (rs_fuel (sh_run s)) (rs_order (sh_run s)) []).

(** The engine time of an iteration. *)
Definition time_of (start : Z) (scale : Z -> Z) (epoch : option Z) (opts : list OOpt) (s : ShStep) : Z :=
  default (default start epoch + scale (rs_clock (sh_run s) - start))%Z (chosen_time opts).

(** The number of completed iterations: each ends with a sleep. *)
Definition sleeps (l : list ShEv) : nat :=
  length (omap (fun e => match e with SvRun (RvSleep x) => Some x | _ => None end) l).
(** [n] iterations have been completed, without any failure of the run's. *)
Definition still_running (n : nat) (l : list ShEv) : Prop :=
  Forall (fun e => match e with SvRun e => fine e | SvOthers _ => True end) l /\
  sleeps l = n.

(** The first [n] iterations of a run that is given all of its future. *)
Definition first_steps (f : nat -> ShStep) (n : nat) : list ShStep := f <$> seq 0 n.
(** What is observed of them. *)
Definition observed_until (c : Config) (start : Z) (scale : Z -> Z) (epoch : option Z) (opts : list OOpt)
    (f : nat -> ShStep) (st : EState) (n : nat) : list ShEv :=
  (shared_run c start scale epoch opts (first_steps f n) st).1.2.
End Share.
