(** * Specification: tests and the real time *)
From Verif Require Export TestModel.

Section Spec.
Context {P : Params}.

(** The same surroundings, except for what time.Now() returns. *)
Definition with_wall (w : Z) (o : Oracle) : Oracle :=
  mkOracle (o_ctx o) (o_lock o) (o_skew o) (o_sched o) (o_sort o) w.
Definition at_times (clock : nat -> Z) (E : TEnv) : TEnv :=
  mkTEnv (fun n => with_wall (clock n) (te_oracle E n)) (te_fuel E) (te_order E) (te_texts E) (te_shuffle E)
    (te_compare E) (te_stops E) (te_go E) (te_print E).

(** What happens, without the readings of the real clock. *)
Definition timeless_op (op : Op) : Op :=
  match op with
  | OpDispatch o fuel m opts => OpDispatch (with_wall 0 o) fuel m opts
  | OpTick o fuel order opts => OpTick (with_wall 0 o) fuel order opts
  | _ => op
  end.
Definition timeless (ev : TEv) : TEv := match ev with TvOp op fs => TvOp (timeless_op op) fs | _ => ev end.

End Spec.
