(** * Annotations: Annotate() and the annotators that Expect() gives to dapper *)
From Verif Require Export ReportModel.

(** Values of Go as package reflect sees them, with the names of their types: those
    without parts; those made of other values, such as structs, slices, maps and pointers;
    and those whose static type is an interface, which hold a value of another type or
    are nil. *)
Inductive GoVal :=
| GvBasic (ty : string) (s : string)
| GvParts (ty : string) (parts : list GoVal)
| GvBoxed (ty : string) (v : option GoVal).

(** Value.Type() of package reflect. *)
Definition go_type (v : GoVal) : string :=
  match v with GvBasic ty _ | GvParts ty _ | GvBoxed ty _ => ty end.
(** Value.Interface() of package reflect: a value of type any, where [None] is nil.
    Not modelled: it panics for values of unexported fields, which dapper does not visit
    because of WithUnexportedStructFields(false). *)
Definition go_any (v : GoVal) : option GoVal := match v with GvBoxed _ v => v | _ => Some v end.

(** Other packages: which types implement proto.Message, proto.Equal and reflect.DeepEqual. *)
Record GoLib := mkGoLib {
  gl_proto : string -> bool; gl_proto_equal : GoVal -> GoVal -> bool; gl_deep_equal : GoVal -> GoVal -> bool }.

(** equal, compare.go:37-45; DeepEqual of nil and anything else is false. *)
Definition go_equal (L : GoLib) (a b : option GoVal) : bool :=
  match a, b with
  | Some a, Some b =>
    if gl_proto L (go_type a) && gl_proto L (go_type b) then gl_proto_equal L a b else gl_deep_equal L a b
  | None, None => true
  | _, _ => false
  end.

(** Annotation, report.go:29-34. *)
Record Annotation := mkNote { an_value : option GoVal; an_text : text }.

(** dapper.Annotator functions: given a value that is being rendered, they return the
    text of an annotation, or nothing. *)
Definition Annotator : Type := GoVal -> text.

(** The annotator for one annotation, test.go:136-156: reflect.TypeOf(nil) is nil and so
    differs from the type of every value. *)
Definition annotator (L : GoLib) (a : Annotation) : Annotator := fun v =>
  match an_value a with
  | None => []
  | Some w =>
    if decide (go_type w <> go_type v) then []
    else if go_equal L (an_value a) (go_any v) then an_text a
    else []
  end.
(** The options of the printer, test.go:130-158; the other two are part of dapper's
    rendering. *)
Definition annotators (L : GoLib) (l : list Annotation) : list Annotator := map (annotator L) l.
