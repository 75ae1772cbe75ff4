(** * C106: an interceptor that passes commands on changes nothing *)
From Verif Require Import PassSpec PassProof PropsExpect Demo PropsTest.

Section Props.
Context {P : Params}.

(** A test with the option InterceptCommandExecutor() and an interceptor that just calls its
    executor goes exactly as the test without the option. *)
Theorem C106_pass_through_test E c p app u w topts st evs r st' evs' r' :
  (forall i, OptIntercept i ∉ topts) ->
  run_test E c p (begin app u w (topts ++ [OptIntercept pass_through])) = (st, evs, r) ->
  run_test E c p (begin app u w topts) = (st', evs', r') ->
  same_but_interceptor st st' /\ evs = evs' /\ r = r'.
Proof. exact (pass_lemma E c p app u w topts st evs r st' evs' r'). Qed.

(** So does a Call() with such an interceptor, in a test that has none. *)
Theorem C106_pass_through_call E c fn opts st st1 evs r :
  ts_icpt st = None ->
  do_action E c (ActCall fn (Some pass_through)) opts st = (st1, evs, r) -> r <> AHalt ->
  exists st2, do_action E c (ActCall fn None) opts st = (st2, evs, r) /\ same_but_interceptor st1 st2.
Proof.
  intros Hi H Hr.
  change (bracket AkCall (do_call (run_test E c fn) (Some pass_through) opts st) = (st1, evs, r)) in H.
  change (exists st2, bracket AkCall (do_call (run_test E c fn) None opts st) = (st2, evs, r) /\ same_but_interceptor st1 st2).
  unfold bracket in *.
  destruct (do_call (run_test E c fn) (Some pass_through) opts st) as [[s1 evs1] r1] eqn:Hc. assert (Hr1 : r1 = r) by congruence. subst r1.
  destruct (pass_do_call E c fn opts st Hi s1 evs1 r Hc Hr) as (s2 & -> & Hs). exists s2. by simplify_eq.
Qed.
End Props.
Print Assumptions C106_pass_through_test.
Print Assumptions C106_pass_through_call.

(** ** Example *)

(** Commands that are executed, once and again, in calls with and without interceptors of
    their own. *)
Definition twice : TestModel.Interceptor := fun b => TestModel.INext b (fun _ => TestModel.INext b (fun x => match x with inl e => TestModel.IRet e | inr v => TestModel.IPanic v end)).
Definition executing_test : TProg :=
  TPrepare (ActCall (TExecute (body "Open" 4) (fun _ => TRet)) None) (fun _ =>
  TPrepare (ActCall (TExecute (body "Open" 6) (fun _ => TRet)) (Some twice)) (fun _ =>
  TPrepare (ActCall (TExecute (body "Open" 8) (fun _ => TRet)) None) (fun _ => TRet))).
Example C106_example :
  (forall i, OptIntercept i ∉ [OptStart 5]) /\ ts_icpt (begin demo_app [] 100 []) = None /\
  tag <$> (run_test demo_env (test_config demo_app) executing_test (begin demo_app [] 100 [OptStart 5; OptIntercept pass_through])).1.2 =
  ["do call"; "execute"; "dispatch"; "did call"; "do call"; "execute"; "dispatch"; "dispatch"; "did call"; "do call"; "execute"; "dispatch"; "did call"]%string.
Proof.
  split; [intros i H; by apply elem_of_list_singleton in H|]. split; [done|]. vm_compute. reflexivity.
Qed.

(** The two calls go differently. *)
Definition differ {P : Params} E c fn opts st : bool :=
  let x := do_action E c (ActCall fn (Some pass_through)) opts st in
  match x.2 with AHalt => false | _ => negb (length (do_action E c (ActCall fn None) opts st).1.2 =? length x.1.2) end.
(** Over an interceptor of the test, that of a call takes precedence: there it does make a
    difference that it is given. *)
Theorem C106_over_another_refuted :
  ~ (forall E c fn opts st st1 evs r,
       do_action E c (ActCall fn (Some pass_through)) opts st = (st1, evs, r) -> r <> AHalt ->
       exists st2, do_action E c (ActCall fn None) opts st = (st2, evs, r) /\ same_but_interceptor st1 st2).
Proof.
  intros H. assert (H' : forall E c fn opts st, differ E c fn opts st = false).
  { intros E c fn opts st. unfold differ. cbn zeta. specialize (H E c fn opts st).
    destruct (do_action E c (ActCall fn (Some pass_through)) opts st) as [[st1 evs] r]. cbn [fst snd].
    destruct r; try done; (destruct (H _ _ _ eq_refl ltac:(done)) as (st2 & -> & _)); cbn [fst snd]; by rewrite Nat.eqb_refl. }
  specialize (H' demo_env (test_config demo_app) (TExecute (body "Open" 4) (fun _ => TRet)) [] (begin demo_app [] 100 [OptIntercept twice])).
  vm_compute in H'. discriminate H'.
Qed.
Print Assumptions C106_over_another_refuted.
