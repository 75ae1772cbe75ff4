(** * Specification: tests and the order of iteration over names *)
From Verif Require Export TestModel TestSpec.

Section Spec.
Context {P : Params}.

(** The same surroundings, except for the order in which sets of names are iterated over. *)
Definition with_shuffle (shuffle : list string -> list string) (E : TEnv) : TEnv :=
  mkTEnv (te_oracle E) (te_fuel E) (te_order E) (te_texts E) shuffle (te_compare E) (te_stops E) (te_go E) (te_print E).

(** What happens, without the order in which handlers are enabled: what is enabled shows in
    the facts. *)
Definition orderless_op (op : Op) : Op :=
  match op with
  | OpDispatch o fuel m _ => OpDispatch o fuel m []
  | OpTick o fuel order _ => OpTick o fuel order []
  | _ => op
  end.
Definition orderless_ev (ev : TEv) : option TEv :=
  match ev with
  | TvEnable _ _ => None
  | TvOp op fs => Some (TvOp (orderless_op op) fs)
  | _ => Some ev
  end.
Definition orderless (evs : list TEv) : list TEv := omap orderless_ev evs.
(** The handlers that are enabled and disabled. *)
Definition enabled (evs : list TEv) : list (string * bool) :=
  omap (fun ev => match ev with TvEnable n b => Some (n, b) | _ => None end) evs.

(** What is left of a test, but for the order of its operation options and, while its executor is bound, of those
    of the executor. *)
Definition same_but_order (st st' : TState) : Prop :=
  ts_clock st = ts_clock st' /\ ts_eng st = ts_eng st' /\ ts_icpt st = ts_icpt st' /\ ts_opts st ≡ₚ ts_opts st' /\
  ts_compare st = ts_compare st' /\ ts_failed st = ts_failed st' /\ ts_next st = ts_next st' /\
  ts_step st = ts_step st' /\ ts_notes st = ts_notes st'.

End Spec.
