(** * Expectations, predicates and their reports: expectation.*.go *)
From Verif Require Export HandlerModel InflectModel LocationModel SatisfyModel ReportModel.

(** HandlerType.IsProducerOf, HandlerTypes and HandlerType.String of configkit. *)
Definition is_producer_of (t : HType) (k : Kind) : bool :=
  match t, k with
  | HTAggregate, KEvent => true
  | HTProcess, KCommand => true
  | HTProcess, KTimeout => true
  | HTIntegration, KEvent => true
  | _, _ => false
  end.
Definition htypes : list HType := [HTAggregate; HTProcess; HTIntegration; HTProjection].
Definition htype_text (t : HType) : text :=
  match t with
  | HTAggregate => txt "aggregate" | HTProcess => txt "process"
  | HTIntegration => txt "integration" | HTProjection => txt "projection"
  end.

(** inflect.Sprint and Sprintf (after formatting), with the tables in one fixed order;
    C67 shows that the order does not matter. *)
Definition inflect (k : Kind) (s : text) : text := sprint (substitutions k) corrections s.

Definition num (n : nat) : text := decimal (Z.of_nat n).
(** strings.Join. *)
Fixpoint join (sep : text) (l : list text) : text :=
  match l with
  | [] => []
  | [a] => a
  | a :: l => a ++ sep ++ join sep l
  end.

Section Expect.
Context {P : Params}.

(** PredicateScope and PredicateOptions, expectation.go:48-70.  [sc_types]: the
    application's MessageTypes(), each with IsProduced.  [sc_compare]: the
    MessageComparator in force (expectation.message.go:94-115, test.go:105-108). *)
Record Scope := mkScope {
  sc_types : MType -> option bool; sc_compare : Msg -> Msg -> bool; sc_match : bool }.

(** Parts of the text of reports that are produced by dependencies: message.Type's
    String(), dapper's rendering of messages and report.WriteDiff. *)
Record RepTexts := mkRT {
  rt_type : MType -> text; rt_render : Msg -> text; rt_diff : text -> text -> text }.

(** ** tracker, expectation.messagecommon.go:110-191 *)

(** [t_engaged]: engagedOrder with engagedType. *)
Record Tracker := mkT {
  t_kind : Kind; t_match : bool; t_begun : bool; t_total : nat; t_produced : nat;
  t_engaged : list (string * HType); t_enabled : HType -> bool }.
Definition t_init (k : Kind) (s : Scope) : Tracker :=
  mkT k (sc_match s) false 0 0 [] (fun _ => false).

(** updateEngaged, 172-183. *)
Definition t_engage (h : HId) (t : Tracker) : Tracker :=
  if is_producer_of (hid_type h) (t_kind t) then
    if bool_decide (hid_name h ∈ (t_engaged t).*1) then t
    else mkT (t_kind t) (t_match t) (t_begun t) (t_total t) (t_produced t)
             (t_engaged t ++ [(hid_name h, hid_type h)]) (t_enabled t)
  else t.
(** messageProduced, 185-191. *)
Definition t_message (e : Env) (t : Tracker) : Tracker :=
  mkT (t_kind t) (t_match t) (t_begun t) (S (t_total t))
      (if bool_decide (m_kind (e_msg e) = t_kind t) then S (t_produced t) else t_produced t)
      (t_engaged t) (t_enabled t).
(** Notify, 141-170. *)
Definition t_notify (f : Fact) (t : Tracker) : Tracker * option Env :=
  match f with
  | DispatchCycleBegun e _ et _ =>
    let t := mkT (t_kind t) (t_match t) true (t_total t) (t_produced t) (t_engaged t) (et_get et) in
    if t_match t then (t_message e t, Some e) else (t, None)
  | HandlingBegun h _ => (t_engage h t, None)
  | EventRecordedByAggregate _ _ _ _ e => (t_message e t, Some e)
  | EventRecordedByIntegration _ _ e => (t_message e t, Some e)
  | CommandExecutedByProcess _ _ _ _ e => (t_message e t, Some e)
  | TimeoutScheduledByProcess _ _ _ _ e => (t_message e t, Some e)
  | _ => (t, None)
  end.

Definition suggestions : text := txt "Suggestions".

(** One iteration of the loop of reportNoMatch, 23-37. *)
Definition suggest_enable (t : Tracker) (r : Report) (ht : HType) : Report :=
  if is_producer_of ht (t_kind t) && negb (t_enabled t ht)
  then section suggestions (item (txt "enable " ++ htype_text ht ++ txt " handlers using the EnableHandlerType() option")) r
  else r.
Definition relevant_types (t : Tracker) : list HType :=
  List.filter (fun ht => is_producer_of ht (t_kind t)) htypes.

(** The end of reportNoMatch, 56-72. *)
Definition report_no_match_end (t : Tracker) (r : Report) : Report :=
  let r := set_expl
    (if t_total t =? 0 then txt "no messages were produced at all"
     else if t_produced t =? 0 then inflect (t_kind t) (txt "no <messages> were <produced> at all")
     else if t_match t then inflect (t_kind t) (txt "nothing <produced> a matching <message>")
     else inflect (t_kind t) (txt "none of the engaged handlers <produced> a matching <message>")) r in
  let r := foldl (fun r n =>
    section suggestions (item (txt "verify the logic within the '" ++ txt n.1 ++ txt "' " ++ htype_text n.2 ++ txt " message handler")) r)
    r (t_engaged t) in
  if t_match t
  then section suggestions (item (inflect (t_kind t) (txt "verify the logic within the code that uses the <dispatcher>"))) r
  else r.

(** reportNoMatch, expectation.messagecommon.go:16-73. *)
Definition report_no_match (t : Tracker) (r : Report) : Report :=
  let r := section suggestions [] r in
  if t_begun t then
    let r := foldl (suggest_enable t) r htypes in
    if t_match t then report_no_match_end t r
    else if forallb (fun ht => negb (t_enabled t ht)) (relevant_types t)
    then set_expl (txt "no relevant handler types were enabled") r
    else match t_engaged t with
         | [] =>
           section suggestions (item (txt "check the application's routing configuration"))
             (set_expl (txt "no relevant handlers (" ++ join (txt " or ") (map htype_text (relevant_types t)) ++ txt ") were engaged") r)
         | _ => report_no_match_end t r
         end
  else report_no_match_end t r.

(** ** Expectations *)

(** The type parameter of matching expectations: a message type, or an interface with
    the message types that implement it. *)
Inductive TParam :=
| TConcrete (t : MType)
| TInterface (k : Kind) (name : string) (impl : MType -> bool).
Definition tp_kind (tp : TParam) : Kind := match tp with TConcrete t => t.1 | TInterface k _ _ => k end.
(** m, ok := env.Message.(T). *)
Definition tp_assignable (tp : TParam) (t : MType) : bool :=
  match tp with TConcrete t' => bool_decide (t = t') | TInterface _ _ impl => impl t end.
Definition tp_type (tp : TParam) : MType := match tp with TConcrete t => t | TInterface k n _ => (k, n) end.

(** fmt.Errorf("predicate function expected %s", expectedType), expectation.messagematch.go:205, with
    the name of the type. *)
Definition expected_error (tp : TParam) : string := "predicate function expected " +:+ (tp_type tp).2.

(** The result of a predicate function: nil, IgnoreMessage, or another error (its
    Error()). *)
Inductive PredRes := RNil | RIgnore | RErr (s : string).

(** AllOf, AnyOf and NoneOf (expectation.composite.go:10-100). *)
Inductive Comp := CAll | CAny | CNone.

(** ReportGenerationContext, report.go:37-47. *)
Record Ctx := mkCtx { cx_tree : bool; cx_inv : bool }.

(** A user-defined Expectation: whether Predicate() fails for a scope, and the predicate's
    Ok() (after Done()) and Report() as functions of the facts it was notified of. *)
Record UserExp := mkUser {
  ux_reject : Scope -> option string;
  ux_ok : Scope -> list Fact -> bool;
  ux_report : Scope -> list Fact -> Ctx -> Report }.

(** Expectations, as built by the functions of expectation.*.go:
    - [XMessage]: ToExecuteCommand and ToRecordEvent;
    - [XType]: ToExecuteCommandType, ToRecordEventType;
    - [XMatch]: To{,Only}{ExecuteCommand,RecordEvent}(s)Matching.  [pred] is given the
      messages it has been called with before, so that it need not be a pure function;
      [near] is its location;
    - [XComp]: AllOf, AnyOf (with at least two children) and NoneOf;
    - [XNot]; [XRepeat]: ToRepeatedly ([None]: nil);
    - [XSatisfy]: ToSatisfy; the function may inspect the facts, and is given with what
      surrounds the call of Done. *)
Inductive Exp :=
| XMessage (m : Msg)
| XType (t : MType)
| XMatch (tp : TParam) (pred : list Msg -> Msg -> PredRes) (near : text) (exhaustive : bool)
| XComp (c : Comp) (l : list Exp)
| XNot (e : Exp)
| XRepeat (desc : text) (n : nat) (f : nat -> option Exp)
| XSatisfy (desc : text) (fn : list Fact -> SEnv * (Fn * SProg))
| XUser (u : UserExp).

(** AllOf, AnyOf and NoneOf, expectation.composite.go:10-100.  [None]: they panic. *)
Definition all_of (l : list Exp) : option Exp :=
  match l with [] => None | [e] => Some e | _ => Some (XComp CAll l) end.
Definition any_of (l : list Exp) : option Exp :=
  match l with [] => None | [e] => Some e | _ => Some (XComp CAny l) end.
Definition none_of (l : list Exp) : option Exp :=
  match l with [] => None | _ => Some (XComp CNone l) end.
(** ToRepeatedly, expectation.repeat.go:18-40. *)
Definition to_repeatedly (desc : text) (n : Z) (f : nat -> option Exp) : option Exp :=
  if (n <? 1)%Z then None else match desc with [] => None | _ => Some (XRepeat desc (Z.to_nat n) f) end.

(** ** Predicates *)

(** failedMatch, expectation.messagematch.go:330-334. *)
Record Failure := mkFailure { fl_type : MType; fl_error : string; fl_count : nat }.

(** Predicate values: messagePredicate, messageTypePredicate, messageMatchPredicate,
    compositePredicate, notPredicate, repeatPredicate and satisfyPredicate.  [calls]: the
    messages the predicate function was called with.  [facts] of the last two: the facts
    notified so far. *)
Inductive Pred :=
| PdMessage (cmp : Msg -> Msg -> bool) (m : Msg) (ok : bool) (best : option Env) (t : Tracker)
| PdType (ty : MType) (ok : bool) (t : Tracker)
| PdMatch (tp : TParam) (pred : list Msg -> Msg -> PredRes) (near : text) (exhaustive : bool)
    (calls : list Msg) (failures : list Failure) (matched ignored : nat) (ok : bool) (t : Tracker)
| PdComp (c : Comp) (l : list Pred)
| PdNot (p : Pred)
| PdRepeat (desc : text) (l : list Pred)
| PdSatisfy (desc : text) (fn : list Fact -> SEnv * (Fn * SProg)) (facts : list Fact) (st : SState)
| PdUser (u : UserExp) (s : Scope) (facts : list Fact).

(** Errors of Predicate(): "... the application does not use this message type", "... it
    is only ever consumed", "on iteration ...", an error of user code. *)
Inductive PErr :=
| PEUnknown (t : MType)
| PEConsumed (t : MType)
| PENil (i : nat)
| PEIter (i : nat) (e : PErr)
| PEUser (s : string).

(** guardAgainstExpectationOnImpossibleType, expectation.messagecommon.go:77-108. *)
Definition guard_type (s : Scope) (t : MType) : option PErr :=
  match sc_types s t with
  | None => Some (PEUnknown t)
  | Some produced => if negb (sc_match s) && negb produced then Some (PEConsumed t) else None
  end.

(** Predicate(): expectation.message.go:67-82, expectation.messagetype.go:71-83,
    expectation.messagematch.go:150-166, expectation.composite.go:120-138,
    expectation.not.go:27-36, expectation.repeat.go:52-74, expectation.satisfy.go:52-61. *)
Fixpoint new_predicate (s : Scope) (e : Exp) : Pred + PErr :=
  match e with
  | XMessage m =>
    match guard_type s (m_type m) with
    | Some er => inr er
    | None => inl (PdMessage (sc_compare s) m false None (t_init (m_kind m) s))
    end
  | XType t =>
    match guard_type s t with
    | Some er => inr er
    | None => inl (PdType t false (t_init t.1 s))
    end
  | XMatch tp pred near ex =>
    match (match tp with TConcrete t => guard_type s t | TInterface _ _ _ => None end) with
    | Some er => inr er
    | None => inl (PdMatch tp pred near ex [] [] 0 0 false (t_init (tp_kind tp) s))
    end
  | XComp c l =>
    match (fix go (l : list Exp) : list Pred + PErr :=
             match l with
             | [] => inl []
             | e :: l =>
               match new_predicate s e with
               | inr er => inr er
               | inl p => match go l with inr er => inr er | inl ps => inl (p :: ps) end
               end
             end) l with
    | inr er => inr er
    | inl ps => inl (PdComp c ps)
    end
  | XNot e =>
    match new_predicate s e with inr er => inr er | inl p => inl (PdNot p) end
  | XRepeat desc n f =>
    match (fix go (i k : nat) : list Pred + PErr :=
             match k with
             | 0 => inl []
             | S k =>
               match f i with
               | None => inr (PENil i)
               | Some x =>
                 match new_predicate s x with
                 | inr er => inr (PEIter i er)
                 | inl p => match go (S i) k with inr er => inr er | inl ps => inl (p :: ps) end
                 end
               end
             end) 0 n with
    | inr er => inr er
    | inl ps => inl (PdRepeat desc ps)
    end
  | XSatisfy desc fn => inl (PdSatisfy desc fn [] s_init)
  | XUser u =>
    match ux_reject u s with
    | Some er => inr (PEUser er)
    | None => inl (PdUser u s [])
    end
  end.

(** The end of messageProduced, expectation.messagematch.go:210-242. *)
Fixpoint add_failure (t : MType) (er : string) (l : list Failure) : list Failure :=
  match l with
  | [] => [mkFailure t er 1]
  | f :: l =>
    if bool_decide (fl_type f = t) && bool_decide (fl_error f = er)
    then mkFailure (fl_type f) (fl_error f) (S (fl_count f)) :: l
    else f :: add_failure t er l
  end.

(** Notify: expectation.message.go:94-115, expectation.messagetype.go:93-101,
    expectation.messagematch.go:181-243, expectation.composite.go:148-152,
    expectation.not.go:43-45, expectation.repeat.go:82-86, expectation.satisfy.go:70-72. *)
Fixpoint notify (f : Fact) (p : Pred) : Pred :=
  match p with
  | PdMessage cmp m ok best t =>
    if ok then p
    else match t_notify f t with
         | (t, None) => PdMessage cmp m ok best t
         | (t, Some e) =>
           if bool_decide (m_type (e_msg e) = m_type m)
           then PdMessage cmp m (cmp (e_msg e) m) (Some e) t
           else PdMessage cmp m ok best t
         end
  | PdType ty ok t =>
    if ok then p
    else match t_notify f t with
         | (t, None) => PdType ty ok t
         | (t, Some e) => PdType ty (bool_decide (m_type (e_msg e) = ty)) t
         end
  | PdMatch tp pred near ex calls fl ma ig ok t =>
    if ok then p
    else match t_notify f t with
         | (t, None) => PdMatch tp pred near ex calls fl ma ig ok t
         | (t, Some e) =>
           let m := e_msg e in
           if bool_decide (m_kind m = tp_kind tp) then
             let '(calls, r) :=
               if tp_assignable tp (m_type m) then (calls ++ [m], pred calls m)
               else if ex then (calls, RErr (expected_error tp))
               else (calls, RIgnore) in
             match r with
             | RNil =>
               if ex then PdMatch tp pred near ex calls fl (S ma) ig ok t
               else PdMatch tp pred near ex calls [] (S ma) ig true t
             | RIgnore => PdMatch tp pred near ex calls fl ma (S ig) ok t
             | RErr er => PdMatch tp pred near ex calls (add_failure (m_type m) er fl) ma ig ok t
             end
           else PdMatch tp pred near ex calls fl ma ig ok t
         end
  | PdComp c l => PdComp c (map (notify f) l)
  | PdNot p => PdNot (notify f p)
  | PdRepeat desc l => PdRepeat desc (map (notify f) l)
  | PdSatisfy desc fn fs st => PdSatisfy desc fn (fs ++ [f]) st
  | PdUser u s fs => PdUser u s (fs ++ [f])
  end.

(** The predicate functions of AllOf, AnyOf and NoneOf with [n] children
    (expectation.composite.go:25-34, 54-63, 84-97): outcome and verdict. *)
Definition comp_pred (c : Comp) (n passed : nat) : text * bool :=
  match c with
  | CAll =>
    if passed =? n then ([], true)
    else (num (n - passed) ++ txt " of the expectations failed", false)
  | CAny =>
    if 0 <? passed then ([], true)
    else (txt "all " ++ num n ++ txt " of the expectations failed", false)
  | CNone =>
    if passed =? 0 then ([], true)
    else if n =? 1 then (txt "the expectation passed unexpectedly", false)
    else (num passed ++ txt " of the expectations passed unexpectedly", false)
  end.
Definition count_true (l : list bool) : nat := length (List.filter id l).

(** Ok: expectation.message.go:117-119, expectation.messagetype.go:103-105,
    expectation.messagematch.go:245-247, expectation.composite.go:154-157 and 186-196,
    expectation.not.go:47-49, expectation.repeat.go:88-96, expectation.satisfy.go:74-76. *)
Fixpoint p_ok (p : Pred) : bool :=
  match p with
  | PdMessage _ _ ok _ _ => ok
  | PdType _ ok _ => ok
  | PdMatch _ _ _ _ _ _ _ _ ok _ => ok
  | PdComp c l => (comp_pred c (length l) (count_true (map p_ok l))).2
  | PdNot p => negb (p_ok p)
  | PdRepeat _ l => forallb id (map p_ok l)
  | PdSatisfy _ _ _ st => s_ok st
  | PdUser u s fs => ux_ok u s fs
  end.

(** Done: expectation.message.go:121-122, expectation.messagetype.go:107-108,
    expectation.messagematch.go:249-253, expectation.composite.go:159-163,
    expectation.not.go:51-53, expectation.repeat.go:98-102, expectation.satisfy.go:78-94.  The second
    component is a panic. *)
Fixpoint p_done (p : Pred) : Pred * option SPan :=
  match p with
  | PdMatch tp pred near ex calls fl ma ig ok t =>
    (PdMatch tp pred near ex calls fl ma ig (ok || (ex && negb (nonempty fl))) t, None)
  | PdComp c l =>
    let '(l, r) := (fix go (l : list Pred) : list Pred * option SPan :=
      match l with
      | [] => ([], None)
      | p :: l =>
        match p_done p with
        | (p, Some v) => (p :: l, Some v)
        | (p, None) => let '(l, r) := go l in (p :: l, r)
        end
      end) l in
    (PdComp c l, r)
  | PdNot p => let '(p, r) := p_done p in (PdNot p, r)
  | PdRepeat desc l =>
    let '(l, r) := (fix go (l : list Pred) : list Pred * option SPan :=
      match l with
      | [] => ([], None)
      | p :: l =>
        match p_done p with
        | (p, Some v) => (p :: l, Some v)
        | (p, None) => let '(l, r) := go l in (p :: l, r)
        end
      end) l in
    (PdRepeat desc l, r)
  | PdSatisfy desc fn fs st =>
    let '(st, _, r) := s_done (fn fs).1 (fn fs).2 st in (PdSatisfy desc fn fs st, r)
  | _ => (p, None)
  end.

(** ** Reports *)

Definition failure_item (T : RepTexts) (f : Failure) : text :=
  item (rt_type T (fl_type f) ++ txt ": " ++ txt (fl_error f) ++
        (if 1 <? fl_count f then txt " (repeated " ++ num (fl_count f) ++ txt " times)" else [])).

(** Report of messagePredicate, expectation.message.go:124-175. *)
Definition message_report (T : RepTexts) (cx : Ctx) (m : Msg) (ok : bool) (best : option Env) (t : Tracker) : Report :=
  let rep := new_report (cx_tree cx) ok
    (inflect (m_kind m) (txt "<produce> a specific '" ++ rt_type T (m_type m) ++ txt "' <message>")) [] in
  if ok || cx_tree cx || cx_inv cx then rep
  else match best with
       | None => report_no_match t rep
       | Some e =>
         let rep := section suggestions [] rep in
         let rep := set_expl
           (match e_origin e with
            | None => inflect (m_kind m) (txt "a similar <message> was <produced> via a <dispatcher>")
            | Some og => inflect (m_kind m)
                (txt "a similar <message> was <produced> by the '" ++ txt (hid_name (o_handler og)) ++ txt "' "
                 ++ htype_text (o_type og) ++ txt " message handler")
            end) rep in
         let rep := section suggestions (item (txt "check the content of the message")) rep in
         section (txt "Message Diff") (rt_diff T (rt_render T m) (rt_render T (e_msg e))) rep
       end.

(** Report of messageTypePredicate, expectation.messagetype.go:110-127. *)
Definition type_report (T : RepTexts) (cx : Ctx) (ty : MType) (ok : bool) (t : Tracker) : Report :=
  let rep := new_report (cx_tree cx) ok
    (inflect ty.1 (txt "<produce> any '" ++ rt_type T ty ++ txt "' <message>")) [] in
  if ok || cx_tree cx || cx_inv cx then rep else report_no_match t rep.

(** Report of messageMatchPredicate, expectation.messagematch.go:255-328. *)
Definition match_report (T : RepTexts) (cx : Ctx) (tp : TParam) (near : text) (ex : bool)
    (fl : list Failure) (ma ig : nat) (ok : bool) (t : Tracker) : Report :=
  let k := tp_kind tp in
  let rep := new_report (cx_tree cx) ok
    (inflect k ((if ex then txt "only <produce> <messages> that match the predicate near "
                 else txt "<produce> a <message> that matches the predicate near ") ++ near)) [] in
  if ok || cx_tree cx || cx_inv cx then rep
  else
    let rep := foldl (fun r f => section (txt "Failed Matches") (failure_item T f) r) rep fl in
    let rep := section suggestions [] rep in
    let rep :=
      if 0 <? ig then
        section suggestions (item (txt "verify the logic within the predicate function, it ignored "
                                   ++ inflect k (num ig ++ txt " <messages>"))) rep
      else if nonempty fl then section suggestions (item (txt "verify the logic within the predicate function")) rep
      else rep in
    let rep := report_no_match t rep in
    if ex then
      let relevant := decimal (Z.of_nat (t_produced t) - Z.of_nat ig) in
      set_expl (inflect k ((if ma =? 0 then txt "none of the " ++ relevant
                            else txt "only " ++ num ma ++ txt " of " ++ relevant)
                           ++ txt " relevant <messages> matched the predicate")) rep
    else rep.

(** Report of satisfyPredicate, satisfy.go:96-125. *)
Definition satisfy_report (cx : Ctx) (desc : text) (st : SState) : Report :=
  let rep := new_report (cx_tree cx) (s_ok st) desc
    (if ss_skipped st then txt "the expectation was skipped"
     else if ss_failed st then txt "the expectation failed" else []) in
  if negb (s_ok st) && cx_inv cx then rep
  else
    let rep := set_expl (ss_explanation st) rep in
    foldl (fun r s => section (txt "Log Messages") (txt s ++ [nl]) r) rep (ss_messages st).

(** Report of compositePredicate, expectation.composite.go:165-184. *)
Definition comp_criteria (c : Comp) : text :=
  match c with CAll => txt "all of" | CAny => txt "any of" | CNone => txt "none of" end.
Definition comp_inverts (c : Comp) : bool := match c with CNone => true | _ => false end.

(** The loop of repeatPredicate.Report, expectation.repeat.go:116-134, over the verdicts and reports
    of the children: failureCount, failureShown and the report. *)
Fixpoint repeat_loop (i : nat) (l : list (bool * Report)) (count shown : nat) (rep : Report) : nat * nat * Report :=
  match l with
  | [] => (count, shown, rep)
  | (true, _) :: l => repeat_loop (S i) l count shown rep
  | (false, sr) :: l =>
    let count := S count in
    if count =? 1 then repeat_loop (S i) l count i (append_report sr rep)
    else repeat_loop (S i) l count shown rep
  end.

(** Report: also expectation.not.go:55-67 and expectation.repeat.go:104-147. *)
Fixpoint report (T : RepTexts) (cx : Ctx) (p : Pred) : Report :=
  match p with
  | PdMessage _ m ok best t => message_report T cx m ok best t
  | PdType ty ok t => type_report T cx ty ok t
  | PdMatch tp _ near ex _ fl ma ig ok t => match_report T cx tp near ex fl ma ig ok t
  | PdComp c l =>
    let cx := if comp_inverts c then mkCtx (cx_tree cx) (negb (cx_inv cx)) else cx in
    let '(outcome, ok) := comp_pred c (length l) (count_true (map p_ok l)) in
    foldl (fun r sr => append_report sr r) (new_report (cx_tree cx) ok (comp_criteria c) outcome)
          (map (report T cx) l)
  | PdNot q =>
    let r := report T (mkCtx (cx_tree cx) (negb (cx_inv cx))) q in
    new_report (cx_tree cx) (negb (p_ok q)) (txt "do not " ++ rp_criteria r) []
  | PdRepeat desc l =>
    let '(count, shown, rep) :=
      repeat_loop 0 (map (fun c => (p_ok c, report T cx c)) l) 0 0 (new_report (cx_tree cx) true desc []) in
    if count =? 0 then rep
    else mkRep (rp_tree rep) false (rp_criteria rep)
           (num count ++ txt " of " ++ num (length l) ++ txt " iteration(s) failed, iteration #" ++ num shown ++ txt " shown")
           (rp_expl rep) (rp_sections rep) (rp_sub rep)
  | PdSatisfy desc _ _ st => satisfy_report cx desc st
  | PdUser u s fs => ux_report u s fs cx
  end.

End Expect.
