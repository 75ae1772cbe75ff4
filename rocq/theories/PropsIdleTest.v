(** * Advancing a test twice to the same time. *)
From Verif Require Import IdleSpec TestSpec IdleTestProof TestLemmas PropsTest PropsTestTime Demo.

Section Props.
Context {P : Params}.

(** C108.  If the time of a test is advanced to where it already was when the engine was last
    ticked, nothing is dispatched and no handler fails: the Tick of the second action finds
    nothing to do, whatever was done in between by actions that began no earlier, provided
    that it engages no handler that the first did not engage. *)
Theorem C108_advancing_to_the_same_time_does_nothing E app u wall topts p st evs r l1 op1 fs1 l2 op2 fs2 l3 err et eh err' et' eh' l0 k l' m0 k' m' :
  testing E app u wall topts p st evs r -> evs = l1 ++ TvOp op1 fs1 :: l2 ++ TvOp op2 fs2 :: l3 -> tame topts ->
  let clock := clock_at (start_time wall topts) in
  TickCycleCompleted err et eh ∈ fs1 -> (forall s, ECtx s ∉ err) -> in_action l1 l0 k l' ->
  TickCycleCompleted err' et' eh' ∈ fs2 -> (forall s, ECtx s ∉ err') -> in_action (l1 ++ TvOp op1 fs1 :: l2) m0 k' m' ->
  clock (l1 ++ TvOp op1 fs1 :: l2) = clock l1 ->
  (forall op fs, TvOp op fs ∈ l2 -> (clock l1 <= op_now op)%Z) ->
  (forall h, h ∈ app -> test_skips m0 h = None -> test_skips l0 h = None) ->
  dispatched fs2 = [] /\ err' = [].
Proof. exact (twice_lemma E app u wall topts p st evs r l1 op1 fs1 l2 op2 fs2 l3 err et eh err' et' eh' l0 k l' m0 k' m'). Qed.
End Props.
Print Assumptions C108_advancing_to_the_same_time_does_nothing.

(** ** A concrete case *)

(** "Open 4" schedules a timeout, which the first AdvanceTime fires.  "Open 6" is dispatched in
    between; the second AdvanceTime, by 0, fires nothing. *)
Definition again_test : TProg :=
  TPrepare (ActDispatch (command "Open" 4)) (fun _ =>
  TPrepare (ActAdvance (JBy 10)) (fun _ =>
  TPrepare (ActDispatch (command "Open" 6)) (fun _ =>
  TPrepare (ActAdvance (JBy 0)) (fun _ => TRet)))).
Definition again_out := run_test demo_env (test_config demo_app) again_test (begin demo_app [] 100 []).
Example again_tags : tag <$> again_out.1.2 =
  ["do dispatch"; "dispatch"; "did dispatch"; "do advance"; "clock"; "tick"; "did advance";
   "do dispatch"; "dispatch"; "did dispatch"; "do advance"; "clock"; "tick"; "did advance"]%string.
Proof. vm_compute. reflexivity. Qed.
Definition again_op (n : nat) : Op * list Fact :=
  match again_out.1.2 !! n with Some (TvOp op fs) => (op, fs) | _ => (OpReset, []) end.
Definition completed_without_errors (fs : list Fact) : bool :=
  List.existsb (fun f => match f with TickCycleCompleted [] _ _ => true | _ => false end) fs.
Example C108_example_test :
  let l1 := take 5 again_out.1.2 in let l2 := take 6 (drop 6 again_out.1.2) in let clock := clock_at (start_time 100 []) in
  testing demo_env demo_app [] 100 [] again_test again_out.1.1 again_out.1.2 again_out.2 /\ tame [] /\
  again_out.1.2 = l1 ++ TvOp (again_op 5).1 (again_op 5).2 :: l2 ++ TvOp (again_op 12).1 (again_op 12).2 :: drop 13 again_out.1.2 /\
  completed_without_errors (again_op 5).2 = true /\ completed_without_errors (again_op 12).2 = true /\
  in_action l1 (take 3 again_out.1.2) AkAdvance [TvClock 110] /\
  in_action (l1 ++ TvOp (again_op 5).1 (again_op 5).2 :: l2) (take 10 again_out.1.2) AkAdvance [TvClock 110] /\
  clock (l1 ++ TvOp (again_op 5).1 (again_op 5).2 :: l2) = clock l1 /\
  (clock l1, op_now (again_op 8).1) = (110, 110)%Z /\
  Forall (fun h => test_skips (take 10 again_out.1.2) h = None -> test_skips (take 3 again_out.1.2) h = None) demo_app /\
  length (dispatched (again_op 5).2) <> 0 /\ dispatched (again_op 12).2 = [].
Proof.
  cbv zeta. split; [exact (demo_testing [] again_test)|]. split; [split; intros ? ? H; inversion H|].
  split; [vm_compute; reflexivity|]. split; [vm_compute; reflexivity|]. split; [vm_compute; reflexivity|].
  split; [split; [vm_compute; reflexivity|apply bal_ev; [exact I|apply bal_nil]]|].
  split; [split; [vm_compute; reflexivity|apply bal_ev; [exact I|apply bal_nil]]|].
  split; [vm_compute; reflexivity|]. split; [vm_compute; reflexivity|].
  split; [repeat constructor; vm_compute; done|]. split; [vm_compute; discriminate|vm_compute; reflexivity].
Qed.
