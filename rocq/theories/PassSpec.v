(** * Specification: interceptors that pass commands on *)
From Verif Require Export TestModel TestSpec.

Section Spec.
Context {P : Params}.

(** The interceptor that calls the executor it is given, once and with the same command, and
    returns what that returns; panics are not recovered. *)
Definition pass_through : TestModel.Interceptor :=
  fun b => TestModel.INext b (fun x => match x with inl e => TestModel.IRet e | inr v => TestModel.IPanic v end).

(** What is left of a test, without its interceptor. *)
Definition same_but_interceptor (st st' : TState) : Prop := set_icpt None st = set_icpt None st'.

End Spec.
