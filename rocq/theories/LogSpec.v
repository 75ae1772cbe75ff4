(** * Vocabulary for the log of a test. *)
From Verif Require Export LogModel ActSpec.

Section Spec.
Context {P : Params}.

(** Not an expectation of the user; those that are made of others, such as AllOf(), count as
    built-in whatever their children are. *)
Definition builtin (e : Exp) : Prop := match e with XUser _ => False | _ => True end.

(** The line above each report. *)
Definition banner : text := txt "--- TEST REPORT ---" ++ [nl; nl].
(** The log shows a failure: a fatal error, or a report with a cross. *)
Definition bad (x : Entry) : Prop :=
  match x with
  | LgFatal _ => True
  | LgReport s => exists rest, s = banner ++ txt "✗ " ++ rest
  | _ => False
  end.

(** The facts of the operations of a test, in order, and the lines of the fact logger. *)
Definition all_facts (l : list UEv) : list Fact :=
  concat (map (fun ev => match ev with VT (TvOp _ fs) => fs | _ => [] end) l).
Definition fact_lines (l : list Entry) : list text :=
  omap (fun x => match x with LgFact s => Some s | _ => None end) l.

(** The expectation [u] of the user is used in [e], and its caption is [s]. *)
Inductive gives (u : UserExp) (s : text) : EExp -> Prop :=
| gv_here : gives u s (EGiven u s)
| gv_comp c l e : e ∈ l -> gives u s e -> gives u s (EComp c l)
| gv_not e : gives u s e -> gives u s (ENot e).

(** ** What fatal errors say *)

Section Says.
Context (T : Texts).
Notation F := (tx_fmt T).

(** Errors of handlers carry the names and types of the handlers they passed through; the
    errors of several handlers are separated by semicolons. *)
Inductive err_says : Err -> text -> Prop :=
| es_user s : err_says (EUser s) (txt s)
| es_context s : err_says (ECtx s) (txt s)
| es_handler n t e u : err_says e u -> err_says (EWrap (mkHId n t) e) (txt n ++ txt " " ++ htype_text t ++ txt ": " ++ u).
Inductive errs_say : Errs -> text -> Prop :=
| es_none : errs_say [] []
| es_one e u : err_says e u -> errs_say [e] u
| es_more e u l w : l <> [] -> err_says e u -> errs_say l w -> errs_say (e :: l) (u ++ txt "; " ++ w).

(** The sentences with placeholders in angle brackets are those that C68 and C92 are about. *)
Inductive perr_says : PErr -> text -> Prop :=
| ps_unknown k n :
    perr_says (PEUnknown (k, n)) (fm_inflect F k (txt "a <message> of type " ++ fm_type F (k, n) ++
      txt " can never be <produced>, the application does not use this message type"))
| ps_consumed k n :
    perr_says (PEConsumed (k, n)) (fm_inflect F k (txt "no handlers <produce> <messages> of type " ++ fm_type F (k, n) ++
      txt ", it is only ever consumed"))
| ps_nil i : perr_says (PENil i) (txt "on iteration " ++ txt (pretty.pretty (Z.of_nat i)) ++ txt ": factory returned a nil expectation")
| ps_iteration i e u : perr_says e u -> perr_says (PEIter i e) (txt "on iteration " ++ txt (pretty.pretty (Z.of_nat i)) ++ txt ": " ++ u)
| ps_user s : perr_says (PEUser s) (txt s).

Inductive error_says : TErr -> text -> Prop :=
| er_engine l u : errs_say l u -> error_says (TEngine l) u
| er_unrecognised k b :
    error_says (TUnrecognised (mkMsg k b)) (fm_inflect F k (txt "cannot <produce> <message>, " ++ fm_type F (k, b_name b) ++
      txt " is a not a recognized message type"))
| er_to t : error_says (TReverse (JTo t)) (txt "adjusting the clock to " ++ fm_time F t ++ txt " would reverse time")
| er_by d : error_says (TReverse (JBy d)) (txt "adjusting the clock by " ++ fm_duration F d ++ txt " would reverse time")
| er_custom s f : error_says (TReverse (JUser s f)) (txt "adjusting the clock " ++ s ++ txt " would reverse time")
| er_user s : error_says (TUser s) (txt s)
| er_impossible e u : perr_says e u -> error_says (TImpossible e) u.
End Says.

(** What is logged after the action of an Expect(), given how the action ended; [fs] are the
    facts the predicate was notified of. *)
Inductive log_concludes (T : Texts) (s : Scope) (fs : list Fact) (e : Exp) : AOut -> list Entry -> Prop :=
| lc_passed t : met s fs e -> log_concludes T s fs e AOk [LgReport (banner ++ txt "✓ " ++ t)]
| lc_failed t : ~ met s fs e -> log_concludes T s fs e AOk [LgReport (banner ++ txt "✗ " ++ t)]
| lc_error er u : error_says T er u -> log_concludes T s fs e (AErr er) [LgFatal u]
| lc_panic v : log_concludes T s fs e (APan v) []
| lc_goexit : log_concludes T s fs e AGoexit []
| lc_halt : log_concludes T s fs e AHalt []
| lc_satisfy ar : (* the function of a ToSatisfy() expectation panics *)
    (forall p, ~ after s fs e p) -> log_concludes T s fs e ar [].

End Spec.
