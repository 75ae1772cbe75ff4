(** * Vocabulary for annotations. *)
From Verif Require Export ActSpec.

Section Spec.
Context {P : Params}.

(** The name of the type of a value. *)
Definition type_name (v : GoVal) : string :=
  match v with GvBasic ty _ => ty | GvParts ty _ => ty | GvBoxed ty _ => ty end.

(** Go's types: interface types are the types of variables, never of the values they hold,
    so that a value of type any is nil or of another type. *)
Definition concrete (v : GoVal) : Prop := match v with GvBoxed _ _ => False | _ => True end.
Definition typed (interface : string -> Prop) (v : GoVal) : Prop :=
  match v with
  | GvBoxed ty None => interface ty
  | GvBoxed ty (Some w) => interface ty /\ concrete w /\ ~ interface (type_name w)
  | _ => ~ interface (type_name v)
  end.
(** A value given to Annotate(), which is of type any. *)
Definition given (interface : string -> Prop) (v : option GoVal) : Prop :=
  match v with None => True | Some w => concrete w /\ ~ interface (type_name w) end.

(** Equal values: by proto.Equal if they are protocol buffers messages, otherwise by
    reflect.DeepEqual. *)
Definition equal_values (L : GoLib) (v w : GoVal) : Prop :=
  (gl_proto L (type_name w) = true -> gl_proto_equal L v w = true) /\
  (gl_proto L (type_name w) = false -> gl_deep_equal L v w = true).

(** The value [w] is the one annotated by [a]: it is of the same type, and equal. *)
Definition is_annotated (L : GoLib) (a : Annotation) (w : GoVal) : Prop :=
  exists v, an_value a = Some v /\ type_name v = type_name w /\ equal_values L v w.

(** A function that annotates the values [a] is about, and no others. *)
Definition annotates (interface : string -> Prop) (L : GoLib) (a : Annotation) (f : Annotator) : Prop :=
  forall w, typed interface w -> given interface (an_value a) ->
    (is_annotated L a w -> f w = an_text a) /\ (~ is_annotated L a w -> f w = []).

(** [rendered E notes rep]: the report is one whose messages are rendered by dapper with a
    function for each of the annotations, in order. *)
Definition rendered (E : TEnv) (notes : list Annotation) (rep : Report) : Prop :=
  exists n cx p fs, (forall interface, Forall2 (annotates interface (te_go E)) notes fs) /\
    rep = report (mkRT (rt_type (te_texts E n)) (te_print E n fs) (rt_diff (te_texts E n))) cx p.

(** ** Without annotations *)

(** The same code without its calls of Annotate(). *)
Fixpoint unannotated (p : UProg) : UProg :=
  match p with
  | UDone e => UDone e
  | UPanic v => UPanic v
  | UStop => UStop
  | UAct f k => UAct f (fun u => unannotated (k u))
  | UExecute b k => UExecute b (fun x => unannotated (k x))
  | UDispatch m opts k => UDispatch m opts (fun x => unannotated (k x))
  | UTick opts k => UTick opts (fun x => unannotated (k x))
  | UReset k => UReset (unannotated k)
  | UClock k => UClock (fun t => unannotated (k t))
  | USetClock t k => USetClock t (unannotated k)
  | UBind opts k => UBind opts (unannotated k)
  | UUnbind k => UUnbind (unannotated k)
  | UIntercept i k => UIntercept i (fun i => unannotated (k i))
  | UTry p q k => UTry (unannotated p) (unannotated q) (fun x => unannotated (k x))
  | UPrepare a k => UPrepare (unannotated_action a) (fun v => unannotated (k v))
  | UExpect a e k => UExpect (unannotated_action a) e (fun v => unannotated (k v))
  | UEnable names b k => UEnable names b (fun v => unannotated (k v))
  | UEnableLike pats b k => UEnableLike pats b (fun v => unannotated (k v))
  | UAnnotate _ k => unannotated k
  end
with unannotated_action (a : UAction) : UAction :=
  match a with mkUA k s f do => mkUA k s f (fun opts => unannotated (do opts)) end.

(** A report without the differences between messages. *)
Fixpoint without_diff (r : Report) : Report :=
  match r with
  | mkRep tr ok cr oc ex secs subs =>
    mkRep tr ok cr oc ex
      (map (fun s => if bool_decide (s.1 = txt "Message Diff") then (s.1, []) else s) secs)
      (map without_diff subs)
  end.
(** What is observed of a test, apart from annotations. *)
Definition apart (l : list UEv) : list UEv :=
  omap (fun ev => match ev with
    | VT (TvAnnotate _) => None
    | VT (TvReport r) => Some (VT (TvReport (without_diff r)))
    | _ => Some ev
    end) l.

End Spec.
