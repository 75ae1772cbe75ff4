(** * The texts of panics: the strings that panicx values and the string panics of the engine
    are printed as. *)
From Verif Require Export EngineModel ExpectModel.

Section PanicText.
Context {P : Params}.

(** Texts made by fmt or by other packages: %T of the value that implements the interface
    (the handler, or the root), message types, and panic values other than those below. *)
Record PanicTexts := mkPanicTexts { pt_impl : HId -> string -> text; pt_type : MType -> text; pt_other : PVal -> text }.

Section Texts.
Context (T : PanicTexts).

(** "recorded an event", ...: aggregate/scope.go:62, 74; integration/scope.go:37, 49;
    process/scope.go:63, 75, 127, 139. *)
Definition beh_verb (k : Kind) : text :=
  match k with KCommand => txt "executed" | KEvent => txt "recorded" | KTimeout => txt "scheduled" end.
Definition beh_article (k : Kind) : text :=
  match k with KCommand => txt "a command" | KEvent => txt "an event" | KTimeout => txt "a timeout" end.
Definition beh_noun (k : Kind) : text :=
  match k with KCommand => txt "command" | KEvent => txt "event" | KTimeout => txt "timeout" end.

(** Description of a panicx.UnexpectedBehavior: the lines above; aggregate/controller.go:75, 89;
    process/controller.go:110, 206. *)
Definition beh_text (h : HId) (d : BDesc) : text :=
  match d with
  | BEmptyID t => txt "routed " ++ beh_article t.1 ++ txt " of type " ++ pt_type T t ++ txt " to an empty ID"
  | BNilRoot => match hid_type h with HTProcess => txt "returned a nil ProcessRoot" | _ => txt "returned a nil AggregateRoot" end
  | BUndeclared t => beh_verb t.1 ++ txt " " ++ beh_article t.1 ++ txt " of type " ++ pt_type T t ++ txt ", which is not produced by this handler"
  | BInvalid t e => beh_verb t.1 ++ txt " an invalid " ++ pt_type T t ++ txt " " ++ beh_noun t.1 ++ txt ": " ++ txt e
  end.

(** UnexpectedBehavior.String, unexpectedbehavior.go:40-49; UnexpectedMessage.String,
    unexpectedmessage.go:36-45; engine.go:206, 210. *)
Definition panic_text (v : PVal) : text :=
  match v with
  | PUnexpMsg h iface meth m =>
    txt "the '" ++ txt (hid_name h) ++ txt "' " ++ htype_text (hid_type h) ++ txt " message handler did not expect " ++
    pt_impl T h iface ++ txt "." ++ txt meth ++ txt "() to be called with a message of type " ++ pt_type T (m_type m)
  | PUnexpBeh h iface meth _ d =>
    txt "the '" ++ txt (hid_name h) ++ txt "' " ++ htype_text (hid_type h) ++ txt " message handler behaved unexpectedly in " ++
    pt_impl T h iface ++ txt "." ++ txt meth ++ txt "(): " ++ beh_text h d
  | PEngine s (Some m) =>
    if decide (s = "cannot dispatch invalid message"%string) then
      txt "cannot dispatch invalid " ++ pt_type T (m_type m) ++ txt " message: " ++ txt (default ""%string (m_invalid m))
    else if decide (s = "not consumed by any handlers"%string) then
      txt "the " ++ pt_type T (m_type m) ++ txt " message type is not consumed by any handlers"
    else pt_other T v
  | _ => pt_other T v
  end.
End Texts.
End PanicText.
