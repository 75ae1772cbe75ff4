(** * User-defined expectations: C85. *)
From Verif Require Import PredProtoModel PredProtoSpec PredProtoLemmas PredProtoReport PredProtoProof PredProtoFacts.
From Verif Require PredProtoBuiltin.

(** C85.  Whatever the expectation, the predicates and the action do, the methods of every
    predicate are called as the documentation of Predicate promises: Notify() before Done(),
    Done() at most once, Ok() and Report() only after Done() has returned, Report() at most
    once ([life], PredProtoSpec.v). *)
Theorem C85_life : forall {W F Er Ab Rp : Type} (e : UExp W F Er Ab Rp) (a : UAct W F Er Ab) w w' tr r i,
  expect e a w = (w', tr, r) -> life i (calls i tr).
Proof. intros *. apply expect_life. Qed.
Print Assumptions C85_life.

(** If Predicate() of the expectation succeeds, Done() is called, however the action ends, on
    the predicates that were created, in the order of their creation, up to the first of which
    Done() ends abruptly; hence on every predicate if there is none. *)
Theorem C85_done : forall {W F Er Ab Rp : Type} (e : UExp W F Er Ab Rp) (a : UAct W F Er Ab) w w' tr r w1 t1 n p,
  expect e a w = (w', tr, r) -> new e 0 w = (w1, t1, inl (n, inl p)) ->
  created tr = seq 0 n /\
  (exists rest, created tr = finished tr ++ rest /\
     (rest = [] \/ exists i v, last (finished tr) = Some i /\ UvDone i (inr v) ∈ tr)) /\
  ((forall i v, UvDone i (inr v) ∉ tr) -> finished tr = created tr).
Proof.
  intros * E En. destruct (expect_done _ _ _ _ _ _ _ _ _ _ E En) as (H1 & rest & H2 & H3).
  split; [done|]. split; [by exists rest|]. intros Hd. destruct H3 as [->|(i & v & _ & H3)].
  - by rewrite app_nil_r in H2.
  - by destruct (Hd i v).
Qed.
Print Assumptions C85_done.

(** If it fails, no other method is called, the action is not performed, and Expect() does
    not succeed. *)
Theorem C85_rejected : forall {W F Er Ab Rp : Type} (e : UExp W F Er Ab Rp) (a : UAct W F Er Ab) w w' tr r,
  expect e a w = (w', tr, r) -> (forall w1 t1 n p, new e 0 w <> (w1, t1, inl (n, inl p))) ->
  r <> inl true /\ Forall (fun ev => is_new ev \/ exists er, ev = UvFatal (inl er)) tr.
Proof. intros *. apply expect_new_fails. Qed.
Print Assumptions C85_rejected.

(** Every predicate is notified of facts of the action only, in their order and each at most
    once; and of all of them unless a predicate created earlier ends one of its Notify()
    abruptly. *)
Theorem C85_notified : forall {W F Er Ab Rp : Type} (e : UExp W F Er Ab Rp) (a : UAct W F Er Ab) w w' tr r w1 t1 n p i,
  expect e a w = (w', tr, r) -> new e 0 w = (w1, t1, inl (n, inl p)) -> i ∈ created tr ->
  facts_of i tr `sublist_of` action_facts tr /\
  ((forall j f v, j < i -> UvNotify j f (inr v) ∉ tr) -> facts_of i tr = action_facts tr).
Proof.
  intros * E En Hi. destruct (expect_done _ _ _ _ _ _ _ _ _ _ E En) as (H1 & _).
  rewrite H1 in Hi. apply elem_of_seq in Hi. eapply expect_facts; [exact E | exact En | lia].
Qed.
Print Assumptions C85_notified.

(** If a report is logged and the predicates answer consistently, the verdict is that of the
    tree of predicates, the test fails exactly if it is negative, the report describes it, and
    exactly those predicates were asked for a report that contribute to it. *)
Theorem C85_verdict : forall {W F Er Ab Rp : Type} (e : UExp W F Er Ab Rp) (a : UAct W F Er Ab) w w' tr r ans rep,
  expect e a w = (w', tr, r) -> consistent ans tr -> UvLog rep ∈ tr ->
  exists w1 t1 n p, new e 0 w = (w1, t1, inl (n, inl p)) /\
    r = inl (holds ans p) /\
    (UvFailNow ∈ tr <-> holds ans p = false) /\
    describes ans tr (holds ans p) false p rep /\
    reporters tr = asked ans p.
Proof. intros *. apply expect_verdict. Qed.
Print Assumptions C85_verdict.

(** The expectations of testkit are a special case: with them as leaves, Expect() accepts and
    rejects as it does in ExpectModel.v, where the expectations are functions of the facts. *)
Theorem C85_builtin : forall {P : BaseModel.Params} (s : ExpectModel.Scope) (e : ExpectModel.Exp) (fs : list BaseModel.Fact),
  exists w' tr r, expect (PredProtoBuiltin.embed s e) (PredProtoBuiltin.act_of fs) ∅ = (w', tr, r) /\
  match ExpectModel.new_predicate s e with
  | inr er => r = inl false /\ exists er', UvFatal (inl er') ∈ tr /\ PredProtoBuiltin.err er' = er
  | inl p => match ExpectModel.p_done (foldl (fun p f => ExpectModel.notify f p) p fs) with
             | (_, Some v) => r = inr v
             | (q, None) => r = inl (ExpectModel.p_ok q)
             end
  end.
Proof. intros *. apply PredProtoBuiltin.expect_rel. Qed.
Print Assumptions C85_builtin.

(** ** Examples *)

(** The state of the user's code is the number of calls of Notify().  A predicate is ok if
    that has reached [k]; Predicate() may fail, and Notify() and Done() may panic. *)
Definition demo (er : option string) (k : nat) (pn pd : option string) : Impl nat nat string string nat :=
  let res p := match p with None => inl tt | Some v => inr v end in
  mkImpl (fun _ w => (w, inl er)) (fun _ _ w => (S w, res pn)) (fun _ w => (w, inl (k <=? w)%nat))
    (fun _ w => (w, res pd)) (fun i _ w => (w, inl (i + w))).
Definition good (k : nat) : UExp nat nat string string nat := ULeaf (demo None k None None).

(** An action that notifies of three facts, and recovers from panics. *)
Definition demo_act : UAct nat nat string string :=
  ANotify 10 (fun _ => ANotify 11 (fun _ => AUser (fun w => w) (fun _ => ANotify 12 (fun _ => AEnd (inl None))))).

(** AllOf(good, NoneOf(good), ToRepeatedly(3, ...)): the last one fails. *)
Definition demo_exp : UExp nat nat string string nat :=
  UComp CnAll [good 5; UComp CnNone [good 100]; URepeat 3 (fun i w => (w, inl (Some (if decide (i = 0) then good 1 else good 50)))); UNot (good 90)].

Example C85_example :
  let '(w, tr, r) := expect demo_exp demo_act 0 in
  let ans := fun i => bool_decide (i ∈ [0; 2]) in
  w = 18 /\ r = inl false /\ created tr = [0; 1; 2; 3; 4; 5] /\ finished tr = [0; 1; 2; 3; 4; 5] /\
  facts_of 3 tr = [10; 11; 12] /\ reporters tr = [0; 1; 3; 5] /\
  calls 3 tr = [UvNew 3 (inl None); UvNotify 3 10 (inl tt); UvNotify 3 11 (inl tt); UvNotify 3 12 (inl tt); UvDone 3 (inl tt);
    UvOk 3 (inl false); UvOk 3 (inl false); UvOk 3 (inl false); UvReport 3 (mkRCtx false false) (inl 21)] /\
  UvFailNow ∈ tr /\
  UvReport 1 (mkRCtx false true) (inl 19) ∈ tr /\
  UvLog (RpNode false false [RpUser 18; RpNode false true [RpUser 19]; RpNode false false [RpUser 21]; RpNode false true []]) ∈ tr /\
  Forall (fun ev => match ev with UvOk i r => r = inl (ans i) | _ => True end) tr.
Proof.
  vm_compute. repeat split.
  1-3: repeat first [apply elem_of_list_here | apply elem_of_list_further].
  repeat (constructor; [try exact I; try reflexivity|]). constructor.
Qed.

(** A predicate that was created is not always finished: AllOf() forgets the first one if
    Predicate() of the second one fails ... *)
Theorem C85_leak_refuted :
  ~ (forall (e : UExp nat nat string string nat) (a : UAct nat nat string string) w w' tr r i,
       expect e a w = (w', tr, r) -> i ∈ created tr -> i ∈ finished tr).
Proof.
  intros H. specialize (H (UComp CnAll [good 0; ULeaf (demo (Some "unknown message type") 0 None None)]) demo_act 0).
  destruct (expect _ _ _) as [[w' tr] r] eqn:E in H. specialize (H w' tr r 0 eq_refl).
  vm_compute in E. injection E as <- <- <-. cbn in H.
  assert (0 ∈ [] -> False) as Hn by apply not_elem_of_nil. apply Hn, H. left.
Qed.
Print Assumptions C85_leak_refuted.

(** ... and Done() of the second one is not called if that of the first one panics. *)
Theorem C85_done_panic_refuted :
  ~ (forall (e : UExp nat nat string string nat) (a : UAct nat nat string string) w w' tr r w1 t1 n p i,
       expect e a w = (w', tr, r) -> new e 0 w = (w1, t1, inl (n, inl p)) -> i ∈ created tr -> i ∈ finished tr).
Proof.
  intros H. specialize (H (UComp CnAll [ULeaf (demo None 0 None (Some "boom")); good 0]) demo_act 0).
  destruct (expect _ _ _) as [[w' tr] r] eqn:E in H. destruct (new _ _ _) as [[w1 t1] [[n [p|er]]|v]] eqn:En in H; [|by vm_compute in En..].
  specialize (H w' tr r w1 t1 n p 1 eq_refl eq_refl).
  vm_compute in E. injection E as <- <- <-. cbn in H.
  assert (1 ∈ [0] -> False) as Hn by (intros Hi; by apply elem_of_list_singleton in Hi). apply Hn, H. right. left.
Qed.
Print Assumptions C85_done_panic_refuted.

(** A predicate is not always notified of every fact: not if the one before it panics and
    the application recovers. *)
Theorem C85_notify_panic_refuted :
  ~ (forall (e : UExp nat nat string string nat) (a : UAct nat nat string string) w w' tr r w1 t1 n p i,
       expect e a w = (w', tr, r) -> new e 0 w = (w1, t1, inl (n, inl p)) -> i ∈ created tr ->
       facts_of i tr = action_facts tr).
Proof.
  intros H. specialize (H (UComp CnAll [ULeaf (demo None 0 (Some "boom") None); good 0]) demo_act 0).
  destruct (expect _ _ _) as [[w' tr] r] eqn:E in H. destruct (new _ _ _) as [[w1 t1] [[n [p|er]]|v]] eqn:En in H; [|by vm_compute in En..].
  specialize (H w' tr r w1 t1 n p 1 eq_refl eq_refl).
  vm_compute in E. injection E as <- <- <-. cbn in H. discriminate H. right. left.
Qed.
Print Assumptions C85_notify_panic_refuted.
