(** * C103: a test does not depend on the real time *)
From Verif Require Import TestSpec PropsExpect Demo WallSpec WallProof PropsTest.

Section Props.
Context {P : Params}.

(** Every operation of a test is done at the time of the test's own clock, so what time.Now()
    returns while it runs changes nothing: not what happens, not the state that is left, not
    how the test ends. When it begins matters only if no StartTimeAt() says otherwise. *)
Theorem C103_tests_do_not_depend_on_real_time E clock app u w w' topts p st evs r :
  w = w' \/ (exists t, OptStart t ∈ topts) ->
  run_test E (test_config app) p (begin app u w topts) = (st, evs, r) ->
  exists evs', run_test (at_times clock E) (test_config app) p (begin app u w' topts) = (st, evs', r) /\
    timeless <$> evs' = timeless <$> evs.
Proof. exact (wall_lemma E clock app u w w' topts p st evs r). Qed.

(** In particular the facts are the same. *)
Theorem C103_facts E clock app u w w' topts p :
  w = w' \/ (exists t, OptStart t ∈ topts) ->
  engine_facts (run_test (at_times clock E) (test_config app) p (begin app u w' topts)).1.2 =
  engine_facts (run_test E (test_config app) p (begin app u w topts)).1.2.
Proof.
  intros Hw. destruct (run_test E (test_config app) p (begin app u w topts)) as [[st evs] r] eqn:Hr.
  destruct (C103_tests_do_not_depend_on_real_time E clock app u w w' topts p st evs r Hw Hr) as (evs' & -> & H). cbn [fst snd].
  assert (Ht : forall l, engine_facts (timeless <$> l) = engine_facts l).
  { unfold engine_facts. induction l as [|ev l IH]; [done|]. cbn. rewrite IH. f_equal. by destruct ev. }
  rewrite <- (Ht evs'), H. apply Ht.
Qed.

(** The same of one operation of an engine that is given the time. *)
Theorem C103_operations c w o fuel order m opts st :
  (exists t, OptNow t ∈ opts) ->
  e_dispatch c (with_wall w o) fuel m opts st = e_dispatch c o fuel m opts st /\
  e_tick c (with_wall w o) fuel order opts st = e_tick c o fuel order opts st.
Proof. intros H. split; [by apply wall_dispatch|by apply wall_tick]. Qed.
End Props.
Print Assumptions C103_tests_do_not_depend_on_real_time.
Print Assumptions C103_facts.
Print Assumptions C103_operations.

(** ** Examples *)

(** Two readings of the clock that are far apart, a test that starts at a time of its own:
    the cycles begin at the same times. *)
Example C103_example :
  (exists t, OptStart t ∈ [OptUnsafe []; OptStart 500]) /\
  nows (run_test demo_env (test_config demo_app) demo_test (begin demo_app [] 100 [OptUnsafe []; OptStart 500])).1.2 = [500; 510; 510; 510]%Z /\
  nows (run_test (at_times (fun n => Z.of_nat (n + 7)) demo_env) (test_config demo_app) demo_test (begin demo_app [] 9 [OptUnsafe []; OptStart 500])).1.2 = [500; 510; 510; 510]%Z.
Proof. split; [exists 500%Z; right; left|]. split; vm_compute; reflexivity. Qed.

(** A test that is not told when to start takes the time at which it begins for its own. *)
Theorem C103_without_start_time_refuted :
  ~ (forall E app u w w' topts p,
       engine_facts (run_test E (test_config app) p (begin app u w' topts)).1.2 =
       engine_facts (run_test E (test_config app) p (begin app u w topts)).1.2).
Proof.
  intros H. specialize (H demo_env demo_app [] 100%Z 9%Z [] demo_test).
  assert (Hn : nows (run_test demo_env (test_config demo_app) demo_test (begin demo_app [] 9 [])).1.2 =
               nows (run_test demo_env (test_config demo_app) demo_test (begin demo_app [] 100 [])).1.2)
    by (unfold nows; by rewrite H).
  vm_compute in Hn. discriminate Hn.
Qed.

(** An operation that is not given the time takes it from the real clock. *)
Theorem C103_operations_without_time_refuted :
  ~ (forall c w o fuel m opts st, (e_dispatch c (with_wall w o) fuel m opts st).1.2 = (e_dispatch c o fuel m opts st).1.2).
Proof.
  intros H. specialize (H (test_config demo_app) 9%Z quietly 20 (command "Open" 4) [] (ts_eng (begin demo_app [] 100 []))).
  assert (Hn : nows [TvOp OpReset (e_dispatch (test_config demo_app) (with_wall 9 quietly) 20 (command "Open" 4) [] (ts_eng (begin demo_app [] 100 []))).1.2] =
               nows [TvOp OpReset (e_dispatch (test_config demo_app) quietly 20 (command "Open" 4) [] (ts_eng (begin demo_app [] 100 []))).1.2])
    by by rewrite H.
  vm_compute in Hn. discriminate Hn.
Qed.
Print Assumptions C103_without_start_time_refuted.
Print Assumptions C103_operations_without_time_refuted.
