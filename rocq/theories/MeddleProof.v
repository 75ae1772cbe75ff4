(** * User code that changes roots it has kept: proofs *)
From Verif Require Import MeddleSpec MemLemmas MemScope MemRefine MemEngine MemProof.

Section MeddleProof.
Context {P : Params} (grow : Mem -> Slice -> nat -> nat) (junk : Root).

Lemma srel_meddled st st' st0 : srel st st0 -> meddled st st' -> srel st' st0.
Proof.
  intros (G & R & D) (E1 & E2 & N & A & O). split; [by rewrite E1|]. split; [|by rewrite E2].
  set (X := fun x => match x with LArr _ => False | LObj _ => True end).
  assert (T : touches (ms_mem st) (ms_mem st') X).
  { split; [done|]. split; [intros a Ha _; by apply A|]. intros p _ Hp. by destruct Hp. }
  intros n. rewrite E2. specialize (R n).
  destruct (ms_cs st !! n) as [cs|] eqn:Hn, (es_cs st0 !! n) as [cs0|]; simpl in *; try done.
  destruct cs as [hist|ps| |z], cs0 as [h0|ps0| |z0]; simpl in *; try done.
  - eapply hrep_frame; [exact R|exact T|]. intros x (id & s & _ & _ & ->) [].
  - destruct R as (R1 & R2 & R3). split; [|split; [|exact R3]].
    + eapply rep_frame; [exact R1|exact T|]. intros x (_ & ->) [].
    + intros id. specialize (R2 id). destruct (mc_instances ps !! id) as [p|] eqn:Hi, (pc_instances ps0 !! id) as [r|]; simpl in *; try done.
      destruct R2 as [R2 L]. split; [|lia]. rewrite O; [done|]. exists n, ps, id. done.
Qed.

Lemma meddled_run_spec c st ops st' evs rs : meddled_run grow junk c st ops st' evs rs ->
  forall st0, srel st st0 ->
  exists st0' fin, run_ops c ops st0 = (st0', evs, fin) /\ results c ops st0 = rs /\ srel st' st0'.
Proof.
  induction 1 as [st|st st1 ops st' evs rs M _ IH|st op st1 evs1 r ops st' evs rs Ok E Nf _ IH|st op st1 evs1 ops Ok E]; intros st0 R.
  - by exists st0, true.
  - apply IH. by eapply srel_meddled.
  - destruct (m_run_op_spec grow junk _ _ _ _ _ _ _ Ok R E) as (st01 & E0 & R1 & _).
    destruct (IH _ R1) as (st02 & fin & E2 & Rs & R2). exists st02. simpl. rewrite E0, E2, Rs.
    destruct r; [exists fin; done|exists fin; done|done].
  - destruct (m_run_op_spec grow junk _ _ _ _ _ _ _ Ok R E) as (st01 & E0 & R1 & _).
    exists st01, false. simpl. rewrite E0. done.
Qed.

Lemma meddle_lemma c m u ops st evs rs :
  meddled_run grow junk c (m_init c m u) ops st evs rs ->
  (exists fin, run_ops c ops (e_init c u) = (meaning junk st, evs, fin)) /\ results c ops (e_init c u) = rs.
Proof.
  intros H. destruct (meddled_run_spec _ _ _ _ _ _ H _ (srel_init c m u)) as (st0 & fin & A & B & C).
  rewrite (meaning_of _ _ _ C). split; [by exists fin|done].
Qed.

(** Without meddling these are the histories of C89. *)
Lemma unmeddled_lemma c ops st st' evs rs : Forall (op_ok c) ops ->
  m_run_ops grow junk c ops st = (st', evs, rs) -> meddled_run grow junk c st ops st' evs rs.
Proof.
  intros Ok. revert st st' evs rs. induction Ok as [|op ops Ok _ IH]; intros st st' evs rs; simpl.
  - intros [= <- <- <-]. constructor.
  - destruct (m_run_op grow junk c op st) as [[st1 evs1] r] eqn:E.
    destruct (m_run_ops grow junk c ops st1) as [[st2 evs2] rs2] eqn:E2.
    destruct r; intros [= <- <- <-]; [eapply mr_op; eauto|eapply mr_op; eauto|eapply mr_endless; eauto].
Qed.

(** Any roots. *)
Lemma srel_assigned st st' st0 : srel st st0 -> assigned st st' ->
  exists st0', srel st' st0' /\ with_roots (root_now junk st') st0 st0'.
Proof.
  intros (G & R & D) (E1 & E2 & N & A & O).
  set (f := fun n cs => match cs with
    | CSProc ps => Some (CSProc (mkPState (map_imap (fun i _ => Some (root_now junk st' n i)) (pc_instances ps)) (pc_timeouts ps)))
    | cs => Some cs end).
  exists (mkE (es_g st0) (map_imap f (es_cs st0))). split.
  - split; [by rewrite E1|]. split; [|by rewrite E2].
    set (X := fun x => match x with LArr _ => False | LObj _ => True end).
    assert (T : touches (ms_mem st) (ms_mem st') X).
    { split; [lia|]. split; [intros a Ha _; by rewrite A|]. intros p _ Hp. by destruct Hp. }
    intros n. cbn [es_cs]. rewrite map_lookup_imap, E2. specialize (R n).
    destruct (ms_cs st !! n) as [cs|] eqn:Hn, (es_cs st0 !! n) as [cs0|]; simpl in *; try done.
    destruct cs as [hist|ps| |z], cs0 as [h0|ps0| |z0]; simpl in *; try done.
    + eapply hrep_frame; [exact R|exact T|]. intros x (id & s & _ & _ & ->) [].
    + destruct R as (R1 & R2 & R3). split; [|split; [|exact R3]].
      * eapply rep_frame; [exact R1|exact T|]. intros x (_ & ->) [].
      * intros id. specialize (R2 id). cbn [pc_instances]. rewrite map_lookup_imap.
        destruct (mc_instances ps !! id) as [p|] eqn:Hi, (pc_instances ps0 !! id) as [r|]; simpl in *; try done.
        destruct R2 as [R2 L]. destruct (O p) as [r' Hr']; [by rewrite R2|].
        split; [|lia]. unfold root_now. rewrite E2, Hn, Hi. unfold deref. by rewrite Hr'.
  - split; [done|]. intros n. cbn [es_cs]. rewrite map_lookup_imap. by destruct (es_cs st0 !! n) as [[]|].
Qed.

Lemma assigned_lemma c m u ops st evs rs st' ops' st2 evs' rs' :
  meddled_run grow junk c (m_init c m u) ops st evs rs -> assigned st st' ->
  meddled_run grow junk c st' ops' st2 evs' rs' ->
  with_roots (root_now junk st') (meaning junk st) (meaning junk st') /\
  (exists fin, run_ops c ops' (meaning junk st') = (meaning junk st2, evs', fin)) /\ results c ops' (meaning junk st') = rs'.
Proof.
  intros H A H2. destruct (meddled_run_spec _ _ _ _ _ _ H _ (srel_init c m u)) as (st0 & fin & _ & _ & C).
  destruct (srel_assigned _ _ _ C A) as (st0' & C' & W).
  destruct (meddled_run_spec _ _ _ _ _ _ H2 _ C') as (st02 & fin2 & A2 & B2 & C2).
  rewrite (meaning_of _ _ _ C), (meaning_of _ _ _ C'), (meaning_of _ _ _ C2). split; [done|]. split; [by exists fin2|done].
Qed.
End MeddleProof.
