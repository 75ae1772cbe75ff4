(** * The functions that build actions and expectations: action.*.go, expectation.*.go and
    executor.go, with the checks of their arguments. *)
From Verif Require Export TestModel.

Section Front.
Context {P : Params}.

(** Functions of other packages that make texts: message.Type.String(), %#v of a string,
    %s of a time.Duration, time.Time.Format(time.RFC3339) and inflect.Sprint(); all of
    them arbitrary here (for the last see InflectModel). *)
Record Fmt := mkFmt {
  fm_type : MType -> text;
  fm_quote : text -> text;
  fm_duration : Z -> text;
  fm_time : Z -> text;
  fm_inflect : Kind -> text -> text }.

(** A panic with a text, or the runtime's for the use of nil. *)
Inductive CPanic := CSays (s : text) | CNil.
Definition says {A} (s : text) : A + CPanic := inr (CSays s).

(** ** Expectations *)

(** The four functions of expectation.messagematch.go:28-116. *)
Inductive Matching := MExecuteCommand | MOnlyExecuteCommands | MRecordEvent | MOnlyRecordEvents.
Definition matching_name (f : Matching) : string :=
  match f with
  | MExecuteCommand => "ToExecuteCommandMatching" | MOnlyExecuteCommands => "ToOnlyExecuteCommandsMatching"
  | MRecordEvent => "ToRecordEventMatching" | MOnlyRecordEvents => "ToOnlyRecordEventsMatching"
  end.
Definition matching_only (f : Matching) : bool :=
  match f with MOnlyExecuteCommands | MOnlyRecordEvents => true | _ => false end.

(** What a user writes to build an expectation; [None] and [ENil] stand for nil.  The
    expectations made by a factory of ToRepeatedly() are not written but built already. *)
Inductive EExp :=
| ENil
| EGiven (u : UserExp) (caption : text)
| EMessage (k : bool) (m : option Body)               (* ToExecuteCommand (true), ToRecordEvent *)
| EType (k : bool) (n : string)                       (* To...Type *)
| EOfType (k : bool) (m : option Body)                (* To...OfType *)
| EMatch (f : Matching) (tp : TParam) (pred : option (list Msg -> Msg -> PredRes)) (near : text)
| EComp (c : Comp) (l : list EExp)                    (* AllOf, AnyOf, NoneOf *)
| ENot (e : EExp)
| ERepeat (desc : text) (n : Z) (f : option (nat -> option Exp))
| ESatisfy (desc : text) (fn : option (list Fact -> SEnv * (Fn * SProg))).

(** The value of such an expression, with its Caption(): nil; an expectation; or one whose
    Predicate() dereferences nil because one of its children, or of theirs, is nil. *)
Inductive Built := BNil | BExp (x : Exp) (caption : text) | BBroken (caption : text).

Definition produced (k : bool) : Kind := if k then KCommand else KEvent.
Definition of_kind (k : bool) (command event : string) : text := txt (if k then command else event).

(** Caption(), or the panic if there is none to ask. *)
Definition caption_of (b : Built) : text + CPanic :=
  match b with BNil => inr CNil | BExp _ s | BBroken s => inl s end.
Definition built_exps (l : list Built) : option (list Exp) :=
  foldr (fun b acc => match b, acc with BExp x _, Some l => Some (x :: l) | _, _ => None end) (Some []) l.
Definition composite (c : Comp) (l : list Built) (caption : text) : Built :=
  match built_exps l with Some xs => BExp (XComp c xs) caption | None => BBroken caption end.

(** AllOf, AnyOf and NoneOf, expectation.composite.go:10-100. *)
Definition decimal_nat (n : nat) : text := txt (pretty.pretty n).
Definition comp_name (c : Comp) : string := match c with CAll => "AllOf" | CAny => "AnyOf" | CNone => "NoneOf" end.
Definition compose_exps (c : Comp) (l : list Built) : Built + CPanic :=
  let n := decimal_nat (length l) in
  match c, l with
  | _, [] => says (txt (comp_name c) ++ txt "(): at least one child expectation must be provided")
  | CAll, [b] | CAny, [b] => inl b
  | CAll, _ => inl (composite CAll l (txt "to meet " ++ n ++ txt " expectations"))
  | CAny, _ => inl (composite CAny l (txt "to meet at least one of " ++ n ++ txt " expectations"))
  | CNone, [b] =>
    match caption_of b with
    | inr v => inr v
    | inl s => inl (composite CNone l (txt "not " ++ s))
    end
  | CNone, _ => inl (composite CNone l (txt "not to meet any of " ++ n ++ txt " expectations"))
  end.

Section Eval.
Context (F : Fmt).

(** ToExecuteCommand, ToRecordEvent, expectation.message.go:17-49, with Caption (:59-65). *)
Definition to_produce (k : bool) (m : option Body) : Built + CPanic :=
  let name := of_kind k "ToExecuteCommand" "ToRecordEvent" in
  match m with
  | None => says (name ++ txt "(<nil>): message must not be nil")
  | Some b =>
    let mt := m_type (mkMsg (produced k) b) in
    match b_invalid b with
    | Some er => says (name ++ txt "(" ++ fm_type F mt ++ txt "): " ++ txt er)
    | None => inl (BExp (XMessage (mkMsg (produced k) b))
        (fm_inflect F (produced k) (txt "to <produce> a specific '" ++ fm_type F mt ++ txt "' <message>")))
    end
  end.

(** messageTypeExpectation, expectation.messagetype.go:12-69. *)
Definition type_exp (t : MType) : Built :=
  BExp (XType t) (fm_inflect F t.1 (txt "to <produce> a <message> of type " ++ fm_type F t)).
Definition to_produce_of_type (k : bool) (m : option Body) : Built + CPanic :=
  match m with
  | None => says (of_kind k "ToExecuteCommandOfType" "ToRecordEventOfType" ++ txt "(<nil>): message must not be nil")
  | Some b => inl (type_exp (m_type (mkMsg (produced k) b)))
  end.

(** expectation.messagematch.go:28-148. *)
Definition to_match (f : Matching) (tp : TParam) (pred : option (list Msg -> Msg -> PredRes)) (near : text) : Built + CPanic :=
  match pred with
  | None => says (txt (matching_name f) ++ txt "(<nil>): function must not be nil")
  | Some pred =>
    inl (BExp (XMatch tp pred near (matching_only f))
      (fm_inflect F (tp_kind tp)
        ((if matching_only f then txt "to only <produce> <messages> that match the predicate near "
          else txt "to <produce> a <message> that matches the predicate near ") ++ near)))
  end.

(** ToRepeatedly, expectation.repeat.go:18-50; ToSatisfy, expectation.satisfy.go:21-51. *)
Definition repeatedly (desc : text) (n : Z) (f : option (nat -> option Exp)) : Built + CPanic :=
  let call := txt "ToRepeatedly(" ++ fm_quote F desc ++ txt ", " ++ txt (pretty.pretty n) in
  match f with
  | None => says (call ++ txt ", <nil>): function must not be nil")
  | Some f =>
    if (n <? 1)%Z then says (call ++ txt ", <func>): n must be 1 or greater")
    else match desc with
    | [] => says (call ++ txt ", <func>): description must not be empty")
    | _ => inl (BExp (XRepeat desc (Z.to_nat n) f) (txt "to " ++ desc))
    end
  end.
Definition satisfy (desc : text) (fn : option (list Fact -> SEnv * (Fn * SProg))) : Built + CPanic :=
  let call := txt "ToSatisfy(" ++ fm_quote F desc in
  match fn with
  | None => says (call ++ txt ", <nil>): function must not be nil")
  | Some fn =>
    match desc with
    | [] => says (call ++ txt ", <func>): description must not be empty")
    | _ => inl (BExp (XSatisfy desc fn) (txt "to " ++ desc))
    end
  end.

(** The arguments of a call are evaluated from left to right. *)
Fixpoint eval (e : EExp) : Built + CPanic :=
  match e with
  | ENil => inl BNil
  | EGiven u s => inl (BExp (XUser u) s)
  | EMessage k m => to_produce k m
  | EType k n => inl (type_exp (produced k, n))
  | EOfType k m => to_produce_of_type k m
  | EMatch f tp pred near => to_match f tp pred near
  | EComp c l =>
    match (fix go (l : list EExp) : list Built + CPanic :=
             match l with
             | [] => inl []
             | e :: l =>
               match eval e with
               | inr v => inr v
               | inl b => match go l with inr v => inr v | inl bs => inl (b :: bs) end
               end
             end) l with
    | inr v => inr v
    | inl bs => compose_exps c bs
    end
  | ENot e =>                                                  (* Not, expectation.not.go:10-15 *)
    match eval e with
    | inr v => inr v
    | inl b =>
      match caption_of b with
      | inr v => inr v
      | inl s => inl (match b with BExp x _ => BExp (XNot x) (txt "not " ++ s) | _ => BBroken (txt "not " ++ s) end)
      end
    end
  | ERepeat desc n f => repeatedly desc n f
  | ESatisfy desc fn => satisfy desc fn
  end.

(** ** Actions *)

(** The options of Call(); InterceptCommandExecutor() is the only one there is. *)
Inductive EAct :=
| EDispatch (k : bool) (m : option Body)              (* ExecuteCommand (true), RecordEvent *)
| EAdvance (j : option Adj)                          (* AdvanceTime *)
| ECall (fn : option TProg) (opts : list (option Interceptor)).

(** ExecuteCommand, RecordEvent, action.dispatch.go:15-64. *)
Definition dispatching (k : bool) (m : option Body) : (Action * text) + CPanic :=
  match m with
  | None => says (of_kind k "ExecuteCommand" "RecordEvent" ++ txt "(<nil>): message must not be nil")
  | Some b =>
    let m := mkMsg (produced k) b in
    match b_invalid b with
    | Some er => says (of_kind k "ToRecordEvent" "RecordEvent" ++ txt "(" ++ fm_type F (m_type m) ++ txt "): " ++ txt er)
    | None => inl (ActDispatch m, fm_inflect F (produced k) (txt "<producing> " ++ fm_type F (m_type m) ++ txt " <message>"))
    end
  end.

(** ByDuration, action.advancetime.go:60-66. *)
Definition adjustment (j : Adj) : Adj + CPanic :=
  match j with
  | JBy d =>
    if (d <? 0)%Z then says (txt "ByDuration(" ++ fm_duration F d ++ txt "): duration must not be negative")
    else inl j
  | _ => inl j
  end.
(** Description() of adjustments, action.advancetime.go:115-120, 129-134. *)
Definition adj_description (j : Adj) : text :=
  match j with
  | JTo t => txt "to " ++ fm_time F t
  | JBy d => txt "by " ++ fm_duration F d
  | JUser desc _ => desc
  end.
(** AdvanceTime, action.advancetime.go:25-34, with Caption (:75-80). *)
Definition advancing (j : option Adj) : (Action * text) + CPanic :=
  match j with
  | None => says (txt "AdvanceTime(<nil>): adjustment must not be nil")
  | Some j =>
    match adjustment j with
    | inr v => inr v
    | inl j => inl (ActAdvance j, txt "advancing time " ++ adj_description j)
    end
  end.

(** InterceptCommandExecutor, executor.go:110-119; Call, action.call.go:27-42, with Caption
    (:57-59). *)
Fixpoint call_options (l : list (option Interceptor)) : list Interceptor + CPanic :=
  match l with
  | [] => inl []
  | None :: _ => says (txt "InterceptCommandExecutor(<nil>): function must not be nil")
  | Some i :: l => match call_options l with inr v => inr v | inl is => inl (i :: is) end
  end.
Definition calling (fn : option TProg) (opts : list (option Interceptor)) : (Action * text) + CPanic :=
  match call_options opts with
  | inr v => inr v
  | inl is =>
    match fn with
    | None => says (txt "Call(<nil>): function must not be nil")
    | Some fn => inl (ActCall fn (foldl (fun _ i => Some i) None is), txt "calling user-defined function")
    end
  end.
Definition eval_action (a : EAct) : (Action * text) + CPanic :=
  match a with
  | EDispatch k m => dispatching k m
  | EAdvance j => advancing j
  | ECall fn opts => calling fn opts
  end.
End Eval.

End Front.
