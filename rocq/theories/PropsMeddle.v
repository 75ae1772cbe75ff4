(** * C100: user code that changes roots it has kept *)
From Verif Require Import MeddleSpec MeddleProof PropsMem ProcDemo.

Section Theorems.
Context {P : Params}.

(** Whatever user code does, between operations, to roots that it has kept and that are not
    roots of process instances - such as all aggregate roots -, the engine's facts and
    results are those of one that works with values, to which nobody else has access. *)
Theorem C100_aggregate_roots grow junk c m u ops st evs rs :
  meddled_run grow junk c (m_init c m u) ops st evs rs ->
  (exists fin, run_ops c ops (e_init c u) = (meaning junk st, evs, fin)) /\ results c ops (e_init c u) = rs.
Proof. apply meddle_lemma. Qed.

(** What user code assigns to the roots of process instances replaces their state, and has
    no other effect: from then on the engine's facts and results are those of one that works
    with values, in which these instances have the assigned roots. *)
Theorem C100_process_roots grow junk c m u ops st evs rs st' ops' st2 evs' rs' :
  meddled_run grow junk c (m_init c m u) ops st evs rs -> assigned st st' ->
  meddled_run grow junk c st' ops' st2 evs' rs' ->
  with_roots (root_now junk st') (meaning junk st) (meaning junk st') /\
  (exists fin, run_ops c ops' (meaning junk st') = (meaning junk st2, evs', fin)) /\ results c ops' (meaning junk st') = rs'.
Proof. apply assigned_lemma. Qed.

(** The histories of C89 are those without meddling. *)
Theorem C100_histories grow junk c ops st st' evs rs : Forall (op_ok c) ops ->
  m_run_ops grow junk c ops st = (st', evs, rs) -> meddled_run grow junk c st ops st' evs rs.
Proof. apply unmeddled_lemma. Qed.
End Theorems.

(** ** Examples *)

Definition poke (st : MState) (p : nat) (r : list nat) : MState :=
  mkM (mkMem (m_next (ms_mem st)) (m_arr (ms_mem st)) (<[p := r]> (m_obj (ms_mem st)))) (ms_g st) (ms_cs st).
Lemma poke_meddled st p r : no_root st p = true -> meddled st (poke st p r).
Proof.
  intros H. apply no_root_ok in H. split; [done|]. split; [done|]. split; [done|]. split; [done|].
  intros q Hq. cbn. apply lookup_insert_ne. intros ->. done.
Qed.
Lemma poke_assigned st p r : assigned st (poke st p r).
Proof.
  split; [done|]. split; [done|]. split; [done|]. split; [done|]. intros q Hq. cbn. apply lookup_insert_is_Some. destruct (decide (p = q)); auto.
Qed.

(** Object 5 is the root of the aggregate instance "a" during the first command; it is
    given another value before the second command, which gets a root with the events of
    the first: its event is the second in the history. *)
Example C100_aggregate_example : exists st evs rs st' evs' rs',
  mhistory doubling [] demo used_mem [] [open_at 100 4] st evs rs /\
  m_obj (ms_mem st) !! 5 = Some [99; 4] /\
  m_run_ops doubling [] demo [open_at 101 6] (poke st 5 [0; 0; 0]) = (st', evs', rs') /\
  meddled_run doubling [] demo (m_init demo used_mem []) ([open_at 100 4] ++ [open_at 101 6]) st' (evs ++ evs') (rs ++ rs') /\
  length (values (ms_mem st') (past st' "agg" "a")) = 2 /\ m_obj (ms_mem st') !! 5 = Some [0; 0; 0].
Proof.
  destruct (mwitness doubling demo used_mem [open_at 100 4] (fun st _ rs =>
    holds st 5 [99; 4] = true /\ no_root st 5 = true /\ (match rs with [Ok _] => true | _ => false end) = true /\
    let st' := (m_run_ops doubling [] demo [open_at 101 6] (poke st 5 [0; 0; 0])).1.1 in
    length (values (ms_mem st') (past st' "agg" "a")) = 2 /\ holds st' 5 [0; 0; 0] = true))
    as (st & evs & rs & H & O & N & F & L & O'); [apply Forall_cons_2; [exact (open_ok _ _)|apply Forall_nil_2]|vm_compute; repeat split; reflexivity|].
  destruct (m_run_ops doubling [] demo [open_at 101 6] (poke st 5 [0; 0; 0])) as [[st' evs'] rs'] eqn:E.
  cbn [fst snd] in L, O'. destruct (holds_ok _ _ _ O) as [_ Os]. destruct (holds_ok _ _ _ O') as [_ Os'].
  exists st, evs, rs, st', evs', rs'. split; [exact H|]. split; [exact Os|]. split; [exact E|]. split; [|split; [exact L|exact Os']].
  destruct H as [_ H]. cbn [m_run_ops] in H. destruct (m_run_op doubling [] demo (open_at 100 4) (m_init demo used_mem [])) as [[st1 evs1] r1] eqn:E1.
  destruct r1 as [a|v|].
  - injection H as <- <- <-. rewrite (app_nil_r evs1). eapply mr_op; [exact (open_ok _ _)|exact E1|discriminate|].
    eapply mr_meddle; [exact (poke_meddled _ _ [0; 0; 0] N)|]. apply C100_histories; [apply Forall_cons_2; [exact (open_ok _ _)|apply Forall_nil_2]|exact E].
  - injection H as <- <- <-. discriminate F.
  - injection H as <- <- <-. discriminate F.
Qed.

(** Object 4 is the root of a process instance: what is assigned to it is found by the next
    event. *)
Theorem C100_all_roots_refuted :
  ~ (forall (P : Params) grow junk c m u ops st evs rs st' ops' st1 evs1 rs1 st2 evs2 rs2,
     mhistory grow junk c m u ops st evs rs -> assigned st st' -> Forall (op_ok c) ops' ->
     m_run_ops grow junk c ops' st = (st1, evs1, rs1) -> m_run_ops grow junk c ops' st' = (st2, evs2, rs2) ->
     evs1 = evs2).
Proof.
  intros F. destruct (mwitness exact flow empty_mem [go_at 10 5] (fun st _ _ =>
    let roots := fun st => omap (fun ev => match ev with EvFact (ProcessInstanceLoaded _ _ r _) => Some r | _ => None end)
      (m_run_ops exact [] flow [go_at 20 5] st).1.2 in
    roots st = [[5]] /\ roots (poke st 4 [7; 7]) = [[7; 7]]))
    as (st & evs & rs & H & R1 & R2); [solve_ops_ok|vm_compute; repeat split; reflexivity|].
  destruct (m_run_ops exact [] flow [go_at 20 5] st) as [[st1 evs1] rs1] eqn:E1.
  destruct (m_run_ops exact [] flow [go_at 20 5] (poke st 4 [7; 7])) as [[st2 evs2] rs2] eqn:E2. cbn [fst snd] in R1, R2.
  pose proof (F DemoP exact [] flow empty_mem [] [go_at 10 5] st evs rs _ [go_at 20 5] _ _ _ _ _ _ H (poke_assigned st 4 [7; 7]) ltac:(solve_ops_ok) E1 E2) as Q.
  rewrite Q, R2 in R1. discriminate R1.
Qed.

Print Assumptions C100_aggregate_roots.
Print Assumptions C100_process_roots.
Print Assumptions C100_histories.
Print Assumptions C100_all_roots_refuted.
