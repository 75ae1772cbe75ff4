(** * Specification of C90: the options of actions *)
From Verif Require Import OptModel.

Section OptSpec.
Context {P : Params}.

(** The options every test starts with. *)
Definition standard : list OOpt :=
  [OptType HTProjection false; OptType HTIntegration false; OptObserver 0].

(** The options added by EnableHandlers() and its siblings. *)
Definition added (cs : list OCall) : list OOpt :=
  flat_map (fun c => match c with OEnable os => os | _ => [] end) cs.

(** The options of an action at the time [clock] of the virtual clock. *)
Definition proper (clock : Z) (unsafe : list (list OOpt)) (cs : list OCall) (extra : list OOpt)
  : list (option OOpt) :=
  Some <$> OptNow clock :: standard ++ concat unsafe ++ added cs ++ extra.

(** What is seen of an action that was given [opts]. *)
Definition acts (a : OAct) (clock : Z) (opts : list (option OOpt)) (own : list OEv) : Prop :=
  match a with
  | ADispatch => own = [EUsed opts]
  | AAdvance f =>
    own = (if (f clock <? clock)%Z then [EReversed] else [EUsed (opts ++ [Some (OptNow (f clock))])])
  | ACall _ => forall o, EExecuted o ∈ own -> o = opts
  | AUser _ => forall o, EExecuted o ∉ own
  end.

End OptSpec.
