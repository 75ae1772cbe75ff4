(** * Vocabulary for termination. *)
From Verif Require Export TraceSpec.

Section TermSpec.
Context {P : Params}.

(** Some handler that consumes messages of type [t] declares that it produces
    messages of type [t']. *)
Definition feeds (c : Config) (t t' : MType) : Prop :=
  exists h, h ∈ c_app c /\ t ∈ h_consumed h /\ t' ∈ h_produced h.
(** No type feeds itself, directly or through others. *)
Definition acyclic (c : Config) : Prop := forall t, ~ tc (feeds c) t t.
End TermSpec.
