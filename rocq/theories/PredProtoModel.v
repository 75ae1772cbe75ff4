(** * Expect() with arbitrary predicates

    Models: expectation.go, expectation.composite.go, expectation.not.go,
    expectation.repeat.go and Test.Expect (test.go).

    ExpectModel.v models the expectations that are part of testkit as functions of the facts.
    Here the leaves of an expectation are arbitrary implementations of the interfaces
    Expectation and Predicate: their methods read and write the state of the user's code, and
    end abruptly if they like.  What is observed is which method is called when, and on which
    predicate. *)
From Verif Require Export BaseModel.

Section PredProto.
(** [W]: everything the user's code reads and writes; [F]: facts; [Er]: errors; [Ab]: abrupt
    ends of a call, which are panics (with their values) and runtime.Goexit(); [Rp]: the
    reports of predicates of the user. *)
Context {W F Er Ab Rp : Type}.

(** ReportGenerationContext, report.go:37-47, without the printer. *)
Record RCtx := mkRCtx { rc_tree : bool; rc_inv : bool }.

(** expectation.go:9-44: an implementation of Expectation, with that of the predicates that
    its method Predicate() makes.  Every predicate has a number, given in the order of
    creation.  A method that ends abruptly returns [inr].
    Simplified: Caption() and the PredicateScope are left out; Predicate() does not return nil
    without an error, and Report() does not return nil. *)
Record Impl := mkImpl {
  im_new : nat -> W -> W * (option Er + Ab);
  im_notify : nat -> F -> W -> W * (unit + Ab);
  im_ok : nat -> W -> W * (bool + Ab);
  im_done : nat -> W -> W * (unit + Ab);
  im_report : nat -> RCtx -> W -> W * (Rp + Ab) }.

(** AllOf, AnyOf and NoneOf, expectation.composite.go:10-100. *)
Inductive Conn := CnAll | CnAny | CnNone.

(** Expectations: a leaf; compositeExpectation, expectation.composite.go:108-114;
    notExpectation, expectation.not.go:18-21; repeatExpectation, expectation.repeat.go:42-46.
    The factory of the last one is a function of the user: it may return nil ([None]). *)
Inductive UExp :=
| ULeaf (u : Impl)
| UComp (c : Conn) (l : list UExp)
| UNot (e : UExp)
| URepeat (n : nat) (f : nat -> W -> W * (option UExp + Ab)).

(** Predicates: those of the user, with their numbers; compositePredicate,
    expectation.composite.go:141-146; notPredicate, expectation.not.go:39-41; repeatPredicate,
    expectation.repeat.go:77-80. *)
Inductive UPred :=
| PLeaf (i : nat) (u : Impl)
| PComp (c : Conn) (l : list UPred)
| PNot (p : UPred)
| PRepeat (l : list UPred).

(** Reports: those of the user's predicates, and those of testkit's, of which TreeOk, Ok and
    the sections that are appended are kept.  Report, report.go:13-34; Report.Append is
    left out, it copies the parts of a report into another one: here the whole report is
    kept. *)
Inductive URep :=
| RpUser (r : Rp)
| RpNode (tree ok : bool) (l : list URep).

(** Errors of Predicate(): one of the user's; "on iteration %d: factory returned a nil
    expectation"; "on iteration %d: %w". *)
Inductive UErr :=
| UeUser (e : Er)
| UeNil (i : nat)
| UeIter (i : nat) (e : UErr).

(** What is observed: the calls of methods, when they return, with what they return; and
    the calls of the TestingT. *)
Inductive UEv :=
| UvNew (i : nat) (r : option Er + Ab)
| UvNotify (i : nat) (f : F) (r : unit + Ab)
| UvDone (i : nat) (r : unit + Ab)
| UvOk (i : nat) (r : bool + Ab)
| UvReport (i : nat) (c : RCtx) (r : Rp + Ab)
| UvFact (f : F)
| UvFatal (e : UErr + Er)
| UvLog (r : URep)
| UvFailNow.

(** A computation of testkit's code that calls the user's code: from the state of the user's
    code to the new one, the observations and the result. *)
Definition Cm (A : Type) : Type := W -> W * list UEv * (A + Ab).
Definition ret {A} (a : A) : Cm A := fun w => (w, [], inl a).
Definition bnd {A B} (m : Cm A) (k : A -> Cm B) : Cm B := fun w =>
  match m w with
  | (w, t, inl a) => let '(w, t', r) := k a w in (w, t ++ t', r)
  | (w, t, inr v) => (w, t, inr v)
  end.
(** A call of a method of the user's code. *)
Definition call {A} (ev : A + Ab -> UEv) (m : W -> W * (A + Ab)) : Cm A := fun w =>
  let '(w, r) := m w in (w, [ev r], r).

(** for _, c := range l { ... } *)
Definition each {A} (f : A -> Cm unit) : list A -> Cm unit :=
  fix go l := match l with [] => ret tt | a :: l => bnd (f a) (fun _ => go l) end.

(** ** Predicate() *)

(** The result of Predicate(), and the number of the next predicate. *)
Definition New (A : Type) : Type := Cm (nat * (A + UErr)).

(** expectation.composite.go:120-138 (the loop). *)
Definition new_list (new : UExp -> nat -> New UPred) : list UExp -> nat -> New (list UPred) :=
  fix go l n := match l with
  | [] => ret (n, inl [])
  | e :: l => bnd (new e n) (fun '(n, r) => match r with
      | inr er => ret (n, inr er)
      | inl p => bnd (go l n) (fun '(n, r) =>
          ret (n, match r with inr er => inr er | inl ps => inl (p :: ps) end))
      end)
  end.

(** Predicate(): of a user's expectation; expectation.composite.go:120-138;
    expectation.not.go:27-36; expectation.repeat.go:52-74. *)
Fixpoint new (e : UExp) (n : nat) : New UPred :=
  match e with
  | ULeaf u => bnd (call (UvNew n) (im_new u n)) (fun r => match r with
      | Some er => ret (S n, inr (UeUser er))
      | None => ret (S n, inl (PLeaf n u))
      end)
  | UComp c l => bnd (new_list new l n) (fun '(n, r) =>
      ret (n, match r with inl ps => inl (PComp c ps) | inr er => inr er end))
  | UNot e => bnd (new e n) (fun '(n, r) =>
      ret (n, match r with inl p => inl (PNot p) | inr er => inr er end))
  | URepeat count f => bnd
      ((fix go (k i n : nat) : New (list UPred) := match k with
        | 0 => ret (n, inl [])
        | S k => fun w =>
            match f i w with
            | (w, inr v) => (w, [], inr v)
            | (w, inl None) => (w, [], inl (n, inr (UeNil i)))
            | (w, inl (Some x)) => bnd (new x n) (fun '(n, r) => match r with
                | inr er => ret (n, inr (UeIter i er))
                | inl p => bnd (go k (S i) n) (fun '(n, r) =>
                    ret (n, match r with inr er => inr er | inl ps => inl (p :: ps) end))
                end) w
            end
        end) count 0 n)
      (fun '(n, r) => ret (n, match r with inl ps => inl (PRepeat ps) | inr er => inr er end))
  end.

(** ** The methods of predicates *)

(** Notify: expectation.composite.go:148-152, expectation.not.go:43-45,
    expectation.repeat.go:82-86. *)
Fixpoint notify (f : F) (p : UPred) : Cm unit :=
  match p with
  | PLeaf i u => call (UvNotify i f) (im_notify u i f)
  | PComp _ l | PRepeat l => each (notify f) l
  | PNot p => notify f p
  end.

(** Done: expectation.composite.go:159-163, expectation.not.go:51-53,
    expectation.repeat.go:98-102. *)
Fixpoint done_ (p : UPred) : Cm unit :=
  match p with
  | PLeaf i u => call (UvDone i) (im_done u i)
  | PComp _ l | PRepeat l => each done_ l
  | PNot p => done_ p
  end.

(** compositePredicate.ok(), expectation.composite.go:186-196 (the loop): the number of
    children that are ok. *)
Definition count_ok (ok : UPred -> Cm bool) : list UPred -> Cm nat :=
  fix go l := match l with
  | [] => ret 0
  | p :: l => bnd (ok p) (fun b => bnd (go l) (fun n => ret (if b then S n else n)))
  end.
(** The functions pred of AllOf, AnyOf and NoneOf, expectation.composite.go:25-34, 54-63,
    84-97. *)
Definition met (c : Conn) (size passed : nat) : bool :=
  match c with
  | CnAll => passed =? size
  | CnAny => 0 <? passed
  | CnNone => passed =? 0
  end%nat.
(** repeatPredicate.Ok(), expectation.repeat.go:88-96. *)
Definition all_ok (ok : UPred -> Cm bool) : list UPred -> Cm bool :=
  fix go l := match l with
  | [] => ret true
  | p :: l => bnd (ok p) (fun b => if b then go l else ret false)
  end.

(** Ok: expectation.composite.go:154-157, expectation.not.go:47-49,
    expectation.repeat.go:88-96. *)
Fixpoint ok (p : UPred) : Cm bool :=
  match p with
  | PLeaf i u => call (UvOk i) (im_ok u i)
  | PComp c l => bnd (count_ok ok l) (fun n => ret (met c (length l) n))
  | PNot p => bnd (ok p) (fun b => ret (negb b))
  | PRepeat l => all_ok ok l
  end.

(** expectation.composite.go:179-181. *)
Definition reports (report : UPred -> Cm URep) : list UPred -> Cm (list URep) :=
  fix go l := match l with
  | [] => ret []
  | p :: l => bnd (report p) (fun r => bnd (go l) (fun rs => ret (r :: rs)))
  end.
(** expectation.repeat.go:116-134: the report of the first child that is not ok. *)
Definition first_failure (report : UPred -> Cm URep) : list UPred -> bool -> Cm (list URep) :=
  fix go l shown := match l with
  | [] => ret []
  | p :: l => bnd (ok p) (fun b =>
      if b then go l shown
      else if shown then go l shown
      else bnd (report p) (fun r => bnd (go l true) (fun rs => ret (r :: rs))))
  end.
Definition inverted (c : Conn) : bool := match c with CnNone => true | _ => false end.
Definition flip (b : bool) (c : RCtx) : RCtx :=
  if b then mkRCtx (rc_tree c) (negb (rc_inv c)) else c.

(** Report: expectation.composite.go:165-184, expectation.not.go:55-67,
    expectation.repeat.go:104-147.  The report of the child of Not() is used for its Criteria
    only, which is left out. *)
Fixpoint report (c : RCtx) (p : UPred) : Cm URep :=
  match p with
  | PLeaf i u => bnd (call (UvReport i c) (im_report u i c)) (fun r => ret (RpUser r))
  | PComp cn l =>
      let c := flip (inverted cn) c in
      bnd (count_ok ok l) (fun n =>
      bnd (reports (report c) l) (fun rs =>
      ret (RpNode (rc_tree c) (met cn (length l) n) rs)))
  | PNot p =>
      let c := flip true c in
      bnd (report c p) (fun _ => bnd (ok p) (fun b => ret (RpNode (rc_tree c) (negb b) [])))
  | PRepeat l =>
      bnd (first_failure (report c) l false) (fun rs =>
      ret (RpNode (rc_tree c) (match rs with [] => true | _ => false end) rs))
  end.

(** ** Expect() *)

(** An action, with the engine that it uses: it notifies the observer of facts, learns whether
    the observer ended abruptly (and a handler may recover from that), runs other code, and
    ends with nil, an error, or abruptly. *)
Inductive UAct :=
| AEnd (r : option Er + Ab)
| ANotify (f : F) (k : unit + Ab -> UAct)
| AUser (m : W -> W) (k : W -> UAct).
Fixpoint act_run (p : UPred) (a : UAct) : Cm (option Er) := fun w =>
  match a with
  | AEnd r => (w, [], r)
  | ANotify f k =>
      let '(w, t, r) := notify f p w in
      let '(w, t', r') := act_run p (k r) w in
      (w, UvFact f :: t ++ t', r')
  | AUser m k => act_run p (k w) (m w)
  end.

(** defer p.Done(), test.go:122-125: Done runs when the action has ended, abruptly or not.  If
    both end abruptly the later end counts. *)
Definition deferring (m : Cm (option Er)) (d : Cm unit) : Cm (option Er) := fun w =>
  let '(w, t, r) := m w in
  let '(w, t', r') := d w in
  (w, t ++ t', match r' with inl _ => r | inr v => inr v end).

Definition emit (ev : UEv) : Cm unit := fun w => (w, [ev], inl tt).

(** Test.Expect, test.go:100-177.  Simplified: Fatal and FailNow of the TestingT return here:
    nothing else is done after them.  The result: whether the test goes on. *)
Definition expect (e : UExp) (a : UAct) : Cm bool :=
  bnd (new e 0) (fun '(_, r) => match r with
  | inr er => bnd (emit (UvFatal (inl er))) (fun _ => ret false)
  | inl p =>
      bnd (deferring (act_run p a) (done_ p)) (fun r => match r with
      | Some er => bnd (emit (UvFatal (inr er))) (fun _ => ret false)
      | None =>
          bnd (ok p) (fun tree =>
          bnd (report (mkRCtx tree false) p) (fun rep =>
          bnd (emit (UvLog rep)) (fun _ =>
          if tree then ret true else bnd (emit UvFailNow) (fun _ => ret false))))
      end)
  end).

End PredProto.
Arguments Impl : clear implicits.
Arguments UExp : clear implicits.
Arguments UPred : clear implicits.
Arguments UAct : clear implicits.
Arguments UEv : clear implicits.
Arguments URep : clear implicits.
Arguments UErr : clear implicits.
