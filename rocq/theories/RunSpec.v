(** * Vocabulary for runs. *)
From Verif Require Export RunModel.

Section Run.
Context {P : Params}.

Definition is_tick (e : RunEv) : bool := match e with RvTick _ _ => true | _ => false end.
(** Nothing went wrong. *)
Definition fine (e : RunEv) : Prop :=
  match e with RvTick _ (Ok []) => True | RvSleep None => True | _ => False end.
(** What a failure makes the run return. *)
Definition failure (e : RunEv) : option Errs :=
  match e with RvTick _ (Ok (x :: l)) => Some (x :: l) | RvSleep (Some x) => Some [x] | _ => None end.

(** The time set by the last WithCurrentTime option. *)
Fixpoint chosen_time (opts : list OOpt) : option Z :=
  match opts with
  | [] => None
  | OptNow t :: opts => Some (default t (chosen_time opts))
  | _ :: opts => chosen_time opts
  end.
End Run.
