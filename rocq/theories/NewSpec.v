(** * Vocabulary for the construction of engines *)
From Verif Require Export NewModel.

Section Spec.
Context {P : Params}.

(** The hooks given to WithResetter(), in order. *)
Definition hooks (calls : list EngCall) : list (U -> U) :=
  omap (fun x => match x with CallResetter fn => fn | _ => None end) calls.
(** [compaction calls b]: [b] is what the last call of EnableProjectionCompactionDuringHandling()
    says, or false if there is none. *)
Definition compaction (calls : list EngCall) (b : bool) : Prop :=
  (exists l1 l2, calls = l1 ++ CallCompaction b :: l2 /\ forall b', CallCompaction b' ∉ l2) \/
  ((forall b', CallCompaction b' ∉ calls) /\ b = false).

(** The controller of a handler. *)
Definition controls (b : bool) (h : Handler) (ctrl : Ctrl) : Prop :=
  ct_handler ctrl = h /\ ct_compact ctrl = match h_impl h with ImplProj _ => Some b | _ => None end.

(** The configuration that the model of operations (EngineModel.v) has. *)
Definition configured (visited : list Handler) (calls : list EngCall) (c : Config) : Prop :=
  c_app c = visited /\ compaction calls (c_compact c) /\ c_resetters c = hooks calls.

(** The same application, its handlers being visited in another order. *)
Definition reordered (c c' : Config) : Prop :=
  c_app c' ≡ₚ c_app c /\ c_compact c' = c_compact c /\ c_resetters c' = c_resetters c.
(** No command or event has two consumers. *)
Definition single_consumers (c : Config) : Prop :=
  forall t h h', t.1 <> KTimeout -> h ∈ c_app c -> h' ∈ c_app c -> t ∈ h_consumed h -> t ∈ h_consumed h' -> h = h'.
End Spec.
