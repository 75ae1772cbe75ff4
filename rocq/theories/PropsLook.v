(** * C104: expectations look at what an action does but do not change it *)
From Verif Require Import LookSpec LookProof PropsExpect PropsSatisfy Demo PropsTest.

Section Props.
Context {P : Params}.

(** A test goes as the same test with Prepare() in place of Expect(), unless and until an
    expectation fails: then it stops, having caused part of what the other one causes. *)
Theorem C104_expectations_only_look E c p st0 st evs r st' evs' r' :
  te_stops E = true -> calm_test p ->
  run_test E c p st0 = (st, evs, r) -> run_test E c (unexpecting p) st0 = (st', evs', r') ->
  (same_but_predicates st st' /\ r = r' /\ unobserved_evs evs = unobserved_evs evs') \/
  (r = Goexited /\ expect_failed evs /\ engine_facts evs `prefix_of` engine_facts evs').
Proof. intros Hs Hp H H'. pose proof (look_lemma E c p st0 Hs Hp) as Hl. by rewrite H, H' in Hl. Qed.

(** If no expectation fails it makes no difference that there are expectations. *)
Theorem C104_met_expectations_change_nothing E c p st0 st evs r st' evs' r' :
  te_stops E = true -> calm_test p -> ~ expect_failed evs ->
  run_test E c p st0 = (st, evs, r) -> run_test E c (unexpecting p) st0 = (st', evs', r') ->
  same_but_predicates st st' /\ r = r' /\ unobserved_evs evs = unobserved_evs evs'.
Proof.
  intros Hs Hp Hf H H'. destruct (C104_expectations_only_look E c p st0 st evs r st' evs' r' Hs Hp H H') as [Hl|(_ & Hl & _)]; [done|]. by destruct Hf.
Qed.

(** Two tests that differ in their expectations only, none of which fails. *)
Theorem C104_other_expectations E c p q st0 st evs r st' evs' r' :
  te_stops E = true -> calm_test p -> calm_test q -> unexpecting p = unexpecting q ->
  run_test E c p st0 = (st, evs, r) -> run_test E c q st0 = (st', evs', r') ->
  ~ expect_failed evs -> ~ expect_failed evs' ->
  same_but_predicates st st' /\ r = r' /\ unobserved_evs evs = unobserved_evs evs'.
Proof.
  intros Hs Hp Hq Hpq H H' Hf Hf'. destruct (run_test E c (unexpecting p) st0) as [[st1 evs1] r1] eqn:H1.
  destruct (C104_met_expectations_change_nothing E c p st0 _ _ _ _ _ _ Hs Hp Hf H H1) as (A1 & A2 & A3).
  rewrite Hpq in H1. destruct (C104_met_expectations_change_nothing E c q st0 _ _ _ _ _ _ Hs Hq Hf' H' H1) as (B1 & B2 & B3).
  split; [|split; congruence]. unfold same_but_predicates in *. intuition congruence.
Qed.

(** Whatever the expectations, the facts are the first facts of the test without them. *)
Theorem C104_facts E c p st0 :
  te_stops E = true -> calm_test p ->
  engine_facts (run_test E c p st0).1.2 `prefix_of` engine_facts (run_test E c (unexpecting p) st0).1.2.
Proof.
  intros Hs Hp. destruct (run_test E c p st0) as [[st evs] r] eqn:H, (run_test E c (unexpecting p) st0) as [[st' evs'] r'] eqn:H'.
  destruct (C104_expectations_only_look E c p st0 _ _ _ _ _ _ Hs Hp H H') as [(_ & _ & Hl)|(_ & _ & Hl)]; cbn [fst snd]; [|done].
  by rewrite (facts_same _ _ Hl).
Qed.

(** Whether an engine is observed, and by whom, makes no difference to any history of it: two
    histories whose operations differ only in their observers. *)
Theorem C39_observers_change_nothing c ops ops' st :
  Forall2 (fun op op' => unobserved_op op = unobserved_op op') ops ops' -> run_ops c ops st = run_ops c ops' st.
Proof.
  intros H. revert st. induction H as [|op op' ops ops' Hop _ IH]; intros st; [done|]. cbn [run_ops].
  rewrite <- (look_op c op), <- (look_op c op'), Hop. destruct (run_op c (unobserved_op op') st) as [[st1 evs] []]; [|by rewrite IH..|done].
  by rewrite IH.
Qed.
End Props.
Print Assumptions C39_observers_change_nothing.
Print Assumptions C104_expectations_only_look.
Print Assumptions C104_met_expectations_change_nothing.
Print Assumptions C104_other_expectations.
Print Assumptions C104_facts.

(** ** Examples *)

Example C39_observers_example :
  Forall2 (fun op op' => unobserved_op op = unobserved_op op')
    [OpDispatch quietly 20 (command "Open" 4) [OptObserver 1; OptNow 5; OptObserver 2]; OpTick quietly 20 [] [OptNow 6]]
    [OpDispatch quietly 20 (command "Open" 4) [OptNow 5]; OpTick quietly 20 [] [OptNow 6; OptObserver 7]].
Proof. by repeat constructor. Qed.

(** The demo test's expectations are met, but for the last one, which is rejected. *)
Example C104_example : te_stops demo_env = true /\ calm_test demo_test /\
  tag <$> (run_test demo_env (test_config demo_app) (unexpecting demo_test) (begin demo_app [] 100 [])).1.2 =
  ["do dispatch"; "dispatch"; "did dispatch"; "enable int";
   "do advance"; "clock"; "tick"; "did advance";
   "do call"; "execute"; "dispatch"; "do call"; "execute"; "dispatch"; "did call"; "outside"; "did call";
   "disable int"; "disable proj"; "do dispatch"; "dispatch"; "did dispatch"]%string.
Proof. split; [done|]. split; [cbn; repeat split; constructor|]. vm_compute. reflexivity. Qed.

(** One whose expectations are all met. *)
Definition met_test : TProg :=
  TExpect (ActDispatch (command "Open" 4)) (XMessage (event "Opened" 4)) (fun _ =>
  TExpect (ActDispatch (command "Open" 5)) (XNot (XMessage (event "Opened" 4))) (fun _ => TRet)).
Example C104_example_met : calm_test met_test /\ tag <$> (run_test demo_env (test_config demo_app) met_test (begin demo_app [] 100 [])).1.2 =
  ["predicate"; "do dispatch"; "dispatch"; "did dispatch"; "final"; "report";
   "predicate"; "do dispatch"; "dispatch"; "did dispatch"; "final"; "report"]%string.
Proof. split; [cbn; repeat split; repeat constructor|]. vm_compute. reflexivity. Qed.

(** A TestingT whose Fatal() returns lets a test go on without the action of a rejected
    expectation. *)
Definition returning_env : TEnv :=
  mkTEnv (te_oracle demo_env) (te_fuel demo_env) (te_order demo_env) (te_texts demo_env) (te_shuffle demo_env)
    (te_compare demo_env) false (te_go demo_env) (te_print demo_env).
Definition skipping_test : TProg :=
  TExpect (ActDispatch (command "Open" 4)) (XMessage (command "Open" 6)) (fun _ => TPrepare (ActAdvance (JBy 10)) (fun _ => TRet)).
Theorem C104_without_stopping_refuted :
  ~ (forall E c p st0, calm_test p ->
       engine_facts (run_test E c p st0).1.2 `prefix_of` engine_facts (run_test E c (unexpecting p) st0).1.2).
Proof.
  intros H. specialize (H returning_env (test_config demo_app) skipping_test (begin demo_app [] 100 [])).
  destruct H as [l H]; [cbn; repeat split; constructor|].
  assert (Hn : head (nows (run_test returning_env (test_config demo_app) (unexpecting skipping_test) (begin demo_app [] 100 [])).1.2) =
               head (nows (run_test returning_env (test_config demo_app) skipping_test (begin demo_app [] 100 [])).1.2)).
  { unfold nows. rewrite H. rewrite omap_app.
    destruct (omap _ (engine_facts (run_test returning_env (test_config demo_app) skipping_test _).1.2)) eqn:He; [|done].
    vm_compute in He. discriminate He. }
  vm_compute in Hn. discriminate Hn.
Qed.
Print Assumptions C104_without_stopping_refuted.

(** A test that recovers the panic of its ToSatisfy() function can do anything after it. *)
Definition panicking_test : TProg :=
  TExpect (ActDispatch (command "Open" 4))
    (XSatisfy [] (fun _ => (test_env, ({| fn_name := []; fn_file := [] |}, SatisfyModel.SPanic (SUser "oops")))))
    (fun v => match v with Some _ => TPrepare (ActDispatch (command "Open" 5)) (fun _ => TRet) | None => TRet end).
Theorem C104_panicking_refuted :
  ~ (forall E c p st0, te_stops E = true ->
       engine_facts (run_test E c p st0).1.2 `prefix_of` engine_facts (run_test E c (unexpecting p) st0).1.2).
Proof.
  intros H. specialize (H demo_env (test_config demo_app) panicking_test (begin demo_app [] 100 []) eq_refl).
  apply prefix_length in H.
  assert (Hn : (length (engine_facts (run_test demo_env (test_config demo_app) panicking_test (begin demo_app [] 100 [])).1.2) <=?
     length (engine_facts (run_test demo_env (test_config demo_app) (unexpecting panicking_test) (begin demo_app [] 100 [])).1.2)) = true)
    by by apply Nat.leb_le.
  vm_compute in Hn. discriminate Hn.
Qed.
Print Assumptions C104_panicking_refuted.
