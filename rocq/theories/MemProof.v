(** * Go's memory: histories *)
From Verif Require Import MemModel MemLemmas MemScope MemRefine MemEngine MemSpec.

Section MemProof.
Context {P : Params} (grow : Mem -> Slice -> nat -> nat) (junk : Root).

Lemma contents_of m cs cs0 : crep m cs cs0 -> contents junk m cs = cs0.
Proof.
  destruct cs as [h|ps| |z], cs0 as [h0|ps0| |z0]; simpl; try done.
  - intros [R _]. f_equal. apply map_eq. intros i. rewrite lookup_fmap. specialize (R i).
    destruct (h !! i), (h0 !! i); simpl in R |- *; try done. f_equal. by apply rep_values.
  - intros (R & I & _). destruct ps0 as [is0 ts0]. simpl in *. f_equal. f_equal; [|by apply rep_values].
    apply map_eq. intros i. rewrite lookup_fmap. specialize (I i).
    destruct (mc_instances ps !! i), (is0 !! i); simpl in I |- *; try done. f_equal. by apply obj_deref.
  - intros ->. done.
Qed.

Lemma meaning_of st st0 : srel st st0 -> meaning junk st = st0.
Proof.
  intros (G & R & _). destruct st0 as [g cs0]. unfold meaning. simpl in *. f_equal; [done|].
  apply map_eq. intros n. rewrite lookup_fmap. specialize (R n).
  destruct (ms_cs st !! n), (cs0 !! n); simpl in R |- *; try done. f_equal. by apply contents_of.
Qed.

Lemma m_run_ops_spec c ops st st0 st' evs rs :
  Forall (op_ok c) ops -> srel st st0 -> m_run_ops grow junk c ops st = (st', evs, rs) ->
  exists st0' fin, run_ops c ops st0 = (st0', evs, fin) /\ results c ops st0 = rs /\ srel st' st0' /\ keeps st st'.
Proof.
  intros Ok. revert st st0 st' evs rs. induction Ok as [|op ops Ok _ IH]; intros st st0 st' evs rs R; simpl.
  - intros Q. injection Q as <- <- <-. eexists _, _. split; [reflexivity|]. split; [done|]. split; [done|]. apply keeps_refl.
  - destruct (m_run_op grow junk c op st) as [[st1 evs1] r1] eqn:E.
    destruct (m_run_op_spec grow junk _ _ _ _ _ _ _ Ok R E) as (st01 & -> & R1 & K1).
    destruct (m_run_ops grow junk c ops st1) as [[st2 evs2] rs2] eqn:E2.
    destruct (IH _ _ _ _ _ R1 E2) as (st02 & fin & -> & Rs & R2 & K2).
    pose proof (keeps_trans _ _ _ K1 K2) as K.
    destruct r1; intros Q; injection Q as <- <- <-; (eexists _, _; split; [reflexivity|]); (split; [congruence|]); done.
Qed.

Lemma mhistory_spec c m u ops st evs rs :
  mhistory grow junk c m u ops st evs rs ->
  exists st0 fin, run_ops c ops (e_init c u) = (st0, evs, fin) /\ results c ops (e_init c u) = rs /\ srel st st0.
Proof.
  intros [Ok H]. destruct (m_run_ops_spec _ _ _ _ _ _ _ Ok (srel_init c m u) H) as (st0 & fin & A & B & C & _).
  by exists st0, fin.
Qed.

Lemma as_values_lemma c m u ops st evs rs :
  mhistory grow junk c m u ops st evs rs ->
  (exists fin, run_ops c ops (e_init c u) = (meaning junk st, evs, fin)) /\ results c ops (e_init c u) = rs.
Proof.
  intros H. destruct (mhistory_spec _ _ _ _ _ _ _ H) as (st0 & fin & A & B & C).
  rewrite (meaning_of _ _ C). split; [by exists fin|done].
Qed.

Lemma no_nil_lemma c m u ops st evs rs s :
  mhistory grow junk c m u ops st evs rs -> keeps_slice st s ->
  exists l, cells (ms_mem st) s = Some <$> l /\ length l = s_len s.
Proof.
  intros H K. destruct (mhistory_spec _ _ _ _ _ _ _ H) as (st0 & fin & _ & _ & _ & R & _).
  assert (exists l, rep (ms_mem st) s l) as (l & C & L & _); [|by exists l].
  destruct K as [(n & hist & i & Hn & Hi)|(n & ps & Hn & ->)]; specialize (R n); rewrite Hn in R.
  - destruct (es_cs st0 !! n) as [[h0| | |]|]; simpl in R; try done. destruct R as [R _]. specialize (R i). rewrite Hi in R.
    destruct (h0 !! i) as [l|]; [by exists l|done].
  - destruct (es_cs st0 !! n) as [[|ps0| |]|]; simpl in R; try done. destruct R as [R _]. by eexists.
Qed.

Lemma roots_kept_lemma c m u ops st evs rs ops' st' evs' rs' p :
  mhistory grow junk c m u ops st evs rs -> Forall (op_ok c) ops' ->
  m_run_ops grow junk c ops' st = (st', evs', rs') ->
  object st p -> ~ process_root st p -> m_obj (ms_mem st') !! p = m_obj (ms_mem st) !! p /\ ~ process_root st' p.
Proof.
  intros H Ok E [Lp _] Np. destruct (mhistory_spec _ _ _ _ _ _ _ H) as (st0 & fin & _ & _ & R).
  destruct (m_run_ops_spec _ _ _ _ _ _ _ Ok R E) as (_ & _ & _ & _ & _ & _ & O & L).
  split; [apply O; done|]. intros Q. apply Np, L; done.
Qed.

End MemProof.

Section Growth.
Context {P : Params}.
Lemma growth_lemma grow grow' junk junk' c m m' u ops st evs rs st' evs' rs' :
  mhistory grow junk c m u ops st evs rs -> mhistory grow' junk' c m' u ops st' evs' rs' ->
  evs = evs' /\ rs = rs' /\ meaning junk st = meaning junk' st'.
Proof.
  intros H H'. destruct (as_values_lemma _ _ _ _ _ _ _ _ _ H) as [[fin A] B].
  destruct (as_values_lemma _ _ _ _ _ _ _ _ _ H') as [[fin' A'] B'].
  rewrite A in A'. split; [congruence|]. split; [congruence|]. congruence.
Qed.
End Growth.
