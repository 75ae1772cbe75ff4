(** * The log of a test: what the methods Log(), Logf() and Fatal() of the TestingT are given by
    test.go, with the captions of actions and expectations and the texts of errors. *)
From Verif Require Export ActModel LoggerModel FrontModel.

Section Log.
Context {P : Params}.

(** Texts made by user code or by other packages: those of FrontModel, those of the fact
    logger, and Caption() of user-defined expectations. *)
Record Texts := mkTexts { tx_fmt : Fmt; tx_log : LogTexts; tx_caption : UserExp -> text }.

Section Texts.
Context (T : Texts).
Notation F := (tx_fmt T).

(** ** Captions *)

(** Caption() of expectations: expectation.message.go:59-65, expectation.messagetype.go:63-69,
    expectation.messagematch.go:134-148, expectation.composite.go:22, 51, 75-78, 116-118,
    expectation.not.go:12, 23-25, expectation.repeat.go:48-50, expectation.satisfy.go:48-50. *)
Fixpoint exp_caption (e : Exp) : text :=
  match e with
  | XMessage m => fm_inflect F (m_kind m) (txt "to <produce> a specific '" ++ fm_type F (m_type m) ++ txt "' <message>")
  | XType t => fm_inflect F t.1 (txt "to <produce> a <message> of type " ++ fm_type F t)
  | XMatch tp _ near ex =>
    fm_inflect F (tp_kind tp)
      ((if ex then txt "to only <produce> <messages> that match the predicate near "
        else txt "to <produce> a <message> that matches the predicate near ") ++ near)
  | XComp CAll l => txt "to meet " ++ decimal_nat (length l) ++ txt " expectations"
  | XComp CAny l => txt "to meet at least one of " ++ decimal_nat (length l) ++ txt " expectations"
  | XComp CNone [e] => txt "not " ++ exp_caption e
  | XComp CNone l => txt "not to meet any of " ++ decimal_nat (length l) ++ txt " expectations"
  | XNot e => txt "not " ++ exp_caption e
  | XRepeat desc _ _ => txt "to " ++ desc
  | XSatisfy desc _ => txt "to " ++ desc
  | XUser u => tx_caption T u
  end.

(** Caption() of actions: action.dispatch.go:57-64, action.advancetime.go:75-80,
    action.call.go:57-59. *)
Definition act_caption (a : Action) : text :=
  match a with
  | ActDispatch m => fm_inflect F (m_kind m) (txt "<producing> " ++ fm_type F (m_type m) ++ txt " <message>")
  | ActAdvance j => txt "advancing time " ++ adj_description F j
  | ActCall _ _ => txt "calling user-defined function"
  end.

(** ** Errors *)

(** fmt.Errorf("%s %s: %w", ...), engine/engine.go:148-156, 276-284. *)
Fixpoint err_text (e : Err) : text :=
  match e with
  | EUser s | ECtx s => txt s
  | EWrap h e => txt (hid_name h) ++ txt " " ++ htype_text (hid_type h) ++ txt ": " ++ err_text e
  end.
(** Error() of the combined errors of multierr. *)
Definition errs_text (e : Errs) : text := join (txt "; ") (map err_text e).

(** The errors of Predicate(): expectation.messagecommon.go:86-104, expectation.repeat.go:59, 64. *)
Fixpoint perr_text (e : PErr) : text :=
  match e with
  | PEUnknown t => fm_inflect F t.1
      (txt "a <message> of type " ++ fm_type F t ++ txt " can never be <produced>, the application does not use this message type")
  | PEConsumed t => fm_inflect F t.1
      (txt "no handlers <produce> <messages> of type " ++ fm_type F t ++ txt ", it is only ever consumed")
  | PENil i => txt "on iteration " ++ num i ++ txt ": factory returned a nil expectation"
  | PEIter i e => txt "on iteration " ++ num i ++ txt ": " ++ perr_text e
  | PEUser s => txt s
  end.

(** The errors given to Fatal(); also action.dispatch.go:80-86 and action.advancetime.go:92-97. *)
Definition terr_text (e : TErr) : text :=
  match e with
  | TEngine e => errs_text e
  | TUnrecognised m => fm_inflect F (m_kind m)
      (txt "cannot <produce> <message>, " ++ fm_type F (m_type m) ++ txt " is a not a recognized message type")
  | TReverse j => txt "adjusting the clock " ++ adj_description F j ++ txt " would reverse time"
  | TUser s => txt s
  | TImpossible e => perr_text e
  end.

(** ** The log *)

(** Entries of the log: headings, lines of the fact logger, reports and fatal errors. *)
Inductive Entry := LgHeading (s : text) | LgFact (s : text) | LgReport (s : text) | LgFatal (s : text).
Definition entry_text (e : Entry) : text := match e with LgHeading s | LgFact s | LgReport s | LgFatal s => s end.

(** "--- TEST REPORT ---\n\n" and the report, test.go:167-170. *)
Definition report_text (r : Report) : text := txt "--- TEST REPORT ---" ++ [nl; nl] ++ write_to r.
(** The headings, test.go:90, 110. *)
Definition heading (s : string) (e : option Exp) : text :=
  match e with
  | None => txt "--- " ++ txt s ++ txt " ---"
  | Some e => txt "--- expect " ++ txt s ++ txt " " ++ exp_caption e ++ txt " ---"
  end.
(** How often the fact logger, observer 0 (test.go:68-72), is among the observers. *)
Definition loggers (op : Op) : nat :=
  length (List.filter (fun o => match o with OptObserver 0 => true | _ => false end) (opts_of op)).

(** What is logged when something happens.  Each fact is given to the observers in turn
    (fact/observer.go:15-19). *)
Definition log_ev (ev : UEv) : list Entry :=
  match ev with
  | VHeading s e => [LgHeading (heading s e)]
  | VT (TvOp op fs) => LgFact <$> concat (map (fun f => concat (repeat (log_notify (tx_log T) f) (loggers op))) fs)
  | VT (TvReport r) => [LgReport (report_text r)]
  | VT (TvFatal e) => [LgFatal (terr_text e)]
  | _ => []
  end.
Definition log_of (evs : list UEv) : list Entry := concat (map log_ev evs).

End Texts.
End Log.
