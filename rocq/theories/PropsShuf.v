(** * C105: enabling handlers by pattern does not depend on the order of map iteration *)
From Verif Require Import ShufSpec ShufProof PropsExpect Demo PropsTest.

Section Props.
Context {P : Params}.

(** EnableHandlersLike() and DisableHandlersLike() iterate over a map of names. In whichever
    order they do so, the test does the same. *)
Theorem C105_order_of_names E shuffle c p st0 st evs r st' evs' r' :
  (forall l, te_shuffle E l ≡ₚ l) -> (forall l, shuffle l ≡ₚ l) ->
  run_test E c p st0 = (st, evs, r) -> run_test (with_shuffle shuffle E) c p st0 = (st', evs', r') ->
  same_but_order st st' /\ r = r' /\ orderless evs = orderless evs' /\ enabled evs ≡ₚ enabled evs'.
Proof. exact (shuf_lemma E shuffle c p st0 st evs r st' evs' r'). Qed.

(** In particular the facts are the same. *)
Theorem C105_facts E shuffle c p st0 :
  (forall l, te_shuffle E l ≡ₚ l) -> (forall l, shuffle l ≡ₚ l) ->
  engine_facts (run_test E c p st0).1.2 = engine_facts (run_test (with_shuffle shuffle E) c p st0).1.2.
Proof.
  intros Hs Hs'. destruct (run_test E c p st0) as [[st evs] r] eqn:H, (run_test (with_shuffle shuffle E) c p st0) as [[st' evs'] r'] eqn:H'.
  destruct (C105_order_of_names E shuffle c p st0 _ _ _ _ _ _ Hs Hs' H H') as (_ & _ & Ho & _). cbn [fst snd].
  assert (Ht : forall l, engine_facts (orderless l) = engine_facts l).
  { induction l as [|ev l IH]; [done|]. unfold engine_facts, orderless in *. destruct ev; cbn; try done. by rewrite IH. }
  by rewrite <- (Ht evs), Ho, Ht.
Qed.
End Props.
Print Assumptions C105_order_of_names.
Print Assumptions C105_facts.

(** ** Example *)

(** Handlers that are enabled in either order. *)
Definition like_test : TProg :=
  TEnableLike [Some (fun n => String.eqb n "int" || String.eqb n "proj")] true (fun _ =>
  TExpect (ActDispatch (command "Open" 4)) (XType (KEvent, "Notified"%string)) (fun _ => TRet)).
Example C105_example :
  (forall l, te_shuffle demo_env l ≡ₚ l) /\ (forall l : list string, rev l ≡ₚ l) /\
  (tag <$> (run_test demo_env (test_config demo_app) like_test (begin demo_app [] 100 [])).1.2) =
    ["enable int"; "enable proj"; "predicate"; "do dispatch"; "dispatch"; "did dispatch"; "final"; "report"]%string /\
  (tag <$> (run_test (with_shuffle (@rev string) demo_env) (test_config demo_app) like_test (begin demo_app [] 100 [])).1.2) =
    ["enable proj"; "enable int"; "predicate"; "do dispatch"; "dispatch"; "did dispatch"; "final"; "report"]%string /\
  engaged (run_test (with_shuffle (@rev string) demo_env) (test_config demo_app) like_test (begin demo_app [] 100 [])).1.2 =
  engaged (run_test demo_env (test_config demo_app) like_test (begin demo_app [] 100 [])).1.2.
Proof.
  split; [done|]. split; [intros l; symmetry; apply Permutation_rev|].
  split; [vm_compute; reflexivity|]. split; vm_compute; reflexivity.
Qed.
