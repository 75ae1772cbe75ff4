(** * What an implementation of Expectation and Predicate can rely on

    The vocabulary of C85.  A trace [tr] is a list of observations (PredProtoModel.v). *)
From Verif Require Import PredProtoModel.

Section PredProtoSpec.
Context {W F Er Ab Rp : Type}.
Notation UEv := (UEv F Er Ab Rp).
Notation UPred := (UPred W F Er Ab Rp).
Implicit Types (tr : list UEv) (i : nat).

(** The predicate whose method is called. *)
Definition ev_id (ev : UEv) : option nat :=
  match ev with
  | UvNew i _ | UvNotify i _ _ | UvDone i _ | UvOk i _ | UvReport i _ _ => Some i
  | _ => None
  end.
(** The calls that concern predicate [i]. *)
Definition calls i tr : list UEv := filter (fun ev => ev_id ev = Some i) tr.

Definition is_new (ev : UEv) : Prop := match ev with UvNew _ _ => True | _ => False end.
Definition is_notify (ev : UEv) : Prop := match ev with UvNotify _ _ _ => True | _ => False end.
Definition is_done (ev : UEv) : Prop := match ev with UvDone _ _ => True | _ => False end.
Definition is_ok (ev : UEv) : Prop := match ev with UvOk _ _ => True | _ => False end.
Definition is_report (ev : UEv) : Prop := match ev with UvReport _ _ _ => True | _ => False end.

(** The life of a predicate, as expectation.go:8-44 promises it: it is created; it is notified
    of facts; Done() is called, once; after that Ok() is called, and Report() at most once.  If
    its creation fails nothing follows; if Done() is not called, or does not return, nothing
    follows that either. *)
Definition life i (l : list UEv) : Prop :=
  l = [] \/
  exists r ns ds os rs os',
    l = UvNew i r :: ns ++ ds ++ os ++ rs ++ os' /\
    Forall is_notify ns /\
    (ds = [] \/ exists d, ds = [UvDone i d]) /\
    Forall is_ok os /\
    (rs = [] \/ exists c x, rs = [UvReport i c x]) /\
    Forall is_ok os' /\
    (r <> inl None -> ns = [] /\ ds = []) /\
    (ds <> [UvDone i (inl tt)] -> os = [] /\ rs = [] /\ os' = []).

(** The facts that the action notifies its observer of, and those that predicate [i] is
    notified of. *)
Definition action_facts tr : list F :=
  omap (fun ev => match ev with UvFact f => Some f | _ => None end) tr.
Definition facts_of i tr : list F :=
  omap (fun ev => match ev with UvNotify j f _ => if decide (j = i) then Some f else None | _ => None end) tr.

(** The predicates that are created. *)
Definition created tr : list nat :=
  omap (fun ev => match ev with UvNew i (inl None) => Some i | _ => None end) tr.
(** The predicates whose Done() is called, in the order of the calls. *)
Definition finished tr : list nat :=
  omap (fun ev => match ev with UvDone i _ => Some i | _ => None end) tr.
(** The predicates whose Report() is called, in the order of the calls. *)
Definition reporters tr : list nat :=
  omap (fun ev => match ev with UvReport i _ _ => Some i | _ => None end) tr.

(** Ok() of every predicate is consistent, as expectation.go:28-29 demands: the answer of
    predicate [i] is always [ans i]. *)
Definition consistent (ans : nat -> bool) tr : Prop :=
  forall i r, UvOk i r ∈ tr -> r = inl (ans i).

(** The verdict of a tree of predicates, given those of the leaves. *)
Fixpoint holds (ans : nat -> bool) (p : UPred) : bool :=
  match p with
  | PLeaf i _ => ans i
  | PComp CnAll l | PRepeat l => forallb (holds ans) l
  | PComp CnAny l => existsb (holds ans) l
  | PComp CnNone l => negb (existsb (holds ans) l)
  | PNot p => negb (holds ans p)
  end.

(** The leaves that are asked for a report: all of a composite and of Not(), those of the
    first expectation of ToRepeatedly() that is not met. *)
Fixpoint asked (ans : nat -> bool) (p : UPred) : list nat :=
  match p with
  | PLeaf i _ => [i]
  | PComp _ l => concat (map (asked ans) l)
  | PNot p => asked ans p
  | PRepeat l =>
      match List.find (fun c => negb (holds ans c.1)) (map (fun p => (p, asked ans p)) l) with
      | Some c => c.2
      | None => []
      end
  end.

(** [describes ans tr tree inv p rep]: [rep] is the report on [p], where [tree] is the verdict
    of the whole and [inv] tells whether the context is inverted: the reports of leaves are
    what the user's code returned in that context; the others give the right verdict. *)
Inductive describes (ans : nat -> bool) (tr : list UEv) (tree : bool) :
    bool -> UPred -> URep Rp -> Prop :=
| DLeaf inv i u r :
    UvReport i (mkRCtx tree inv) (inl r) ∈ tr ->
    describes ans tr tree inv (PLeaf i u) (RpUser r)
| DComp inv c l rs :
    Forall2 (describes ans tr tree (match c with CnNone => negb inv | _ => inv end)) l rs ->
    describes ans tr tree inv (PComp c l) (RpNode tree (holds ans (PComp c l)) rs)
| DNot inv p r :
    describes ans tr tree (negb inv) p r ->
    describes ans tr tree inv (PNot p) (RpNode tree (negb (holds ans p)) [])
| DRepeatOk inv l :
    Forall (fun p => holds ans p = true) l ->
    describes ans tr tree inv (PRepeat l) (RpNode tree true [])
| DRepeatFail inv l1 p l2 r :
    Forall (fun p => holds ans p = true) l1 -> holds ans p = false ->
    describes ans tr tree inv p r ->
    describes ans tr tree inv (PRepeat (l1 ++ p :: l2)) (RpNode tree false [r]).

End PredProtoSpec.
