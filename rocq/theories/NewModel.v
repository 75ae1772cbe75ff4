(** * engine.New: options, and the visitor that makes controllers and routes *)
From Verif Require Export EngineModel.

Section New.
Context {P : Params}.

(** The values of type engine.Option: the closures that WithResetter
    (engine/engineoption.go:23-25) and EnableProjectionCompactionDuringHandling
    (engineoption.go:35-37) return. *)
Inductive EngOption := EOResetter (fn : U -> U) | EOCompaction (enabled : bool).

(** The calls that make options, with their arguments; [None] is nil. *)
Inductive EngCall := CallResetter (fn : option (U -> U)) | CallCompaction (enabled : bool).

(** WithResetter, engineoption.go:18-26, and EnableProjectionCompactionDuringHandling,
    engineoption.go:34-38. *)
Definition make_option (x : EngCall) : EngOption + PVal :=
  match x with
  | CallResetter None => inr (PEngine "fn must not be nil" None)
  | CallResetter (Some fn) => inl (EOResetter fn)
  | CallCompaction b => inl (EOCompaction b)
  end.
(** The arguments of New() are evaluated from left to right. *)
Fixpoint make_options (l : list EngCall) : list EngOption + PVal :=
  match l with
  | [] => inl []
  | x :: l =>
    match make_option x with
    | inr v => inr v
    | inl o => match make_options l with inr v => inr v | inl os => inl (o :: os) end
    end
  end.

(** engineOptions, engineoption.go:41-44. *)
Record EngOptions := mkEO { eo_resetters : list (U -> U); eo_compact : bool }.
(** applyEngineOption, engineoption.go:10-12, 23-25 and 35-37. *)
Definition apply_engine_option (eo : EngOptions) (o : EngOption) : EngOptions :=
  match o with
  | EOResetter fn => mkEO (eo_resetters eo ++ [fn]) (eo_compact eo)
  | EOCompaction b => mkEO (eo_resetters eo) b
  end.
(** newEngineOptions, engineoption.go:47-55. *)
Definition new_engine_options (l : list EngOption) : EngOptions := foldl apply_engine_option (mkEO [] false) l.

(** A controller: the handler it is for (its Config) and, in projection.Controller,
    CompactDuringHandling. *)
Record Ctrl := mkCtrl { ct_handler : Handler; ct_compact : option bool }.

(** Engine, engine.go:17-29; the generator of IDs and the mutex are part of the state. *)
Record Engine := mkEngine {
  en_controllers : gmap string Ctrl; en_routes : gmap MType (list Ctrl); en_resetters : list (U -> U) }.

(** configurer.registerController, configurer.go:62-70. *)
Definition register_in (ctrl : Ctrl) (e : Engine) (t : MType) : Engine :=
  mkEngine (en_controllers e) (<[t := default [] (en_routes e !! t) ++ [ctrl]]> (en_routes e)) (en_resetters e).
Definition register_ctrl (ctrl : Ctrl) (e : Engine) : Engine :=
  foldl (register_in ctrl)
    (mkEngine (<[h_name (ct_handler ctrl) := ctrl]> (en_controllers e)) (en_routes e) (en_resetters e))
    (remove_dups (h_consumed (ct_handler ctrl))).

(** VisitRichAggregate, VisitRichProcess, VisitRichIntegration, VisitRichProjection,
    configurer.go:22-60; all return nil. *)
Definition visit (eo : EngOptions) (e : Engine) (h : Handler) : Engine :=
  match h_impl h with
  | ImplAgg _ => register_ctrl (mkCtrl h None) e
  | ImplProc _ => register_ctrl (mkCtrl h None) e
  | ImplInt _ => register_ctrl (mkCtrl h None) e
  | ImplProj _ => register_ctrl (mkCtrl h (Some (eo_compact eo))) e
  end.

(** New, engine.go:32-53, and VisitRichApplication, configurer.go:18-20.  [visited] are the
    handlers of the application in the order in which configkit visits them, which is that
    of a map.  There is no error because the methods of the visitor return none. *)
Definition e_new (visited : list Handler) (options : list EngOption) : Engine :=
  let eo := new_engine_options options in
  foldl (visit eo) (mkEngine ∅ ∅ (eo_resetters eo)) visited.
(** MustNew, engine.go:57-64, with its arguments. *)
Definition must_new (visited : list Handler) (calls : list EngCall) : Engine + PVal :=
  match make_options calls with
  | inr v => inr v
  | inl options => inl (e_new visited options)
  end.
End New.
