(** * C89: the slices and roots an engine shares do not interfere *)
From Verif Require Import MemModel MemSpec MemProof ProcDemo.

Section Theorems.
Context {P : Params}.

(** However append() chooses capacities, and whatever is in memory, an engine that
    works with slices on shared arrays and with roots that are shared objects produces the
    facts and results of one that works with values (EngineModel), and knows the same. *)
Theorem C89_as_values grow junk c m u ops st evs rs :
  mhistory grow junk c m u ops st evs rs ->
  (exists fin, run_ops c ops (e_init c u) = (meaning junk st, evs, fin)) /\ results c ops (e_init c u) = rs.
Proof. apply as_values_lemma. Qed.

(** So the capacities and the addresses can't be observed. *)
Theorem C89_growth grow grow' junk junk' c m m' u ops st evs rs st' evs' rs' :
  mhistory grow junk c m u ops st evs rs ->
  mhistory grow' junk' c m' u ops st' evs' rs' ->
  evs = evs' /\ rs = rs' /\ meaning junk st = meaning junk' st'.
Proof. apply growth_lemma. Qed.

(** There is no nil in the slices that are kept between operations. *)
Theorem C89_no_nil grow junk c m u ops st evs rs s :
  mhistory grow junk c m u ops st evs rs -> keeps_slice st s ->
  exists l, cells (ms_mem st) s = Some <$> l /\ length l = s_len s.
Proof. apply no_nil_lemma. Qed.

(** An object that is not the root of a process instance when an operation starts
    - such as an aggregate root that an observer got with a fact - is never changed
    again, and never becomes the root of a process instance. *)
Theorem C89_roots_kept grow junk c m u ops st evs rs ops' st' evs' rs' p :
  mhistory grow junk c m u ops st evs rs ->
  Forall (op_ok c) ops' -> m_run_ops grow junk c ops' st = (st', evs', rs') ->
  object st p -> ~ process_root st p ->
  m_obj (ms_mem st') !! p = m_obj (ms_mem st) !! p /\ ~ process_root st' p.
Proof. apply roots_kept_lemma. Qed.

End Theorems.

(** ** Examples *)
Definition exact (m : Mem) (s : Slice) (n : nat) : nat := n.
Definition doubling (m : Mem) (s : Slice) (n : nat) : nat := 2 * n + 3.
Definition empty_mem : Mem := mkMem 1 ∅ ∅.
Definition used_mem : Mem := mkMem 4 {[ 0 := [None]; 2 := [None; None] ]} {[ 3 := [7] ]}.
Definition mrun grow c m ops : MState * list Ev * list (Out Errs) :=
  m_run_ops grow [] c ops (m_init c m []).

Lemma mwitness grow c m ops (Q : MState -> list Ev -> list (Out Errs) -> Prop) :
  Forall (op_ok c) ops -> Q (mrun grow c m ops).1.1 (mrun grow c m ops).1.2 (mrun grow c m ops).2 ->
  exists st evs rs, mhistory grow [] c m [] ops st evs rs /\ Q st evs rs.
Proof.
  intros H1 H2. unfold mrun in H2. destruct (m_run_ops _ _ _ _ _) as [[st evs] rs] eqn:E.
  exists st, evs, rs. split; [|exact H2]. split; [exact H1|exact E].
Qed.

Definition pending (st : MState) (n : string) : Slice :=
  match ms_cs st !! n with Some (MCProc ps) => mc_timeouts ps | _ => nil_slice end.
Definition past (st : MState) (n i : string) : Slice :=
  match ms_cs st !! n with Some (MCAgg hist) => default nil_slice (hist !! i) | _ => nil_slice end.
Definition root_of (st : MState) (n i : string) : option nat :=
  match ms_cs st !! n with Some (MCProc ps) => mc_instances ps !! i | _ => None end.

Lemma pending_kept st n ps : ms_cs st !! n = Some (MCProc ps) -> keeps_slice st (pending st n).
Proof. intros H. right. exists n, ps. unfold pending. rewrite H. done. Qed.

(** Two commands for the same aggregate instance: with one policy the events of the
    second are appended to the array of the first, with the other they are not. *)
Definition twice : list Op := [open_at 100 4; open_at 101 6; tick_at 105].
Lemma twice_ok : Forall (op_ok demo) twice.
Proof. apply Forall_cons_2; [exact (open_ok _ _)|]. apply Forall_cons_2; [exact (open_ok _ _)|]. apply Forall_cons_2; [exact (tick_ok _)|]. apply Forall_nil_2. Qed.

Example C89_as_values_nonvacuous : exists st evs rs,
  mhistory doubling [] demo used_mem [] twice st evs rs /\
  (s_len (past st "agg" "a"), s_cap (past st "agg" "a")) = (2, 5) /\
  (s_len (pending st "proc"), length evs) = (2, 70).
Proof. apply mwitness; [exact twice_ok|]. vm_compute. split; reflexivity. Qed.

Example C89_growth_nonvacuous : exists st evs rs st' evs' rs',
  mhistory doubling [] demo used_mem [] twice st evs rs /\
  mhistory exact [] demo empty_mem [] twice st' evs' rs' /\
  s_cap (past st "agg" "a") = 5 /\ s_cap (past st' "agg" "a") = 2.
Proof.
  destruct (mwitness doubling demo used_mem twice (fun st _ _ => s_cap (past st "agg" "a") = 5)) as (st & evs & rs & H & E);
    [exact twice_ok|vm_compute; reflexivity|].
  destruct (mwitness exact demo empty_mem twice (fun st _ _ => s_cap (past st "agg" "a") = 2)) as (st' & evs' & rs' & H' & E');
    [exact twice_ok|vm_compute; reflexivity|].
  exists st, evs, rs, st', evs', rs'. split; [exact H|]. split; [exact H'|]. split; [exact E|exact E'].
Qed.

(** A slice of two timeouts, whose array has an empty (nil) rest. *)
Definition isproc (cs : option MCState) : bool := match cs with Some (MCProc _) => true | _ => false end.
Example C89_no_nil_nonvacuous : exists st evs rs,
  mhistory doubling [] demo used_mem [] twice st evs rs /\
  keeps_slice st (pending st "proc") /\ s_len (pending st "proc") = 2 /\ s_cap (pending st "proc") = 5.
Proof.
  destruct (mwitness doubling demo used_mem twice (fun st _ _ =>
    isproc (ms_cs st !! "proc") = true /\ s_len (pending st "proc") = 2 /\ s_cap (pending st "proc") = 5))
    as (st & evs & rs & H & E & L); [exact twice_ok|vm_compute; repeat split; reflexivity|].
  exists st, evs, rs. split; [exact H|]. split; [|exact L].
  destruct (ms_cs st !! "proc") as [[|ps| |]|] eqn:Hp; try discriminate E. exact (pending_kept _ _ _ Hp).
Qed.

(** What Engine.Tick is up against: Tick() of the process gives away a slice that
    shares its array with the pending timeouts.  Appending to it overwrites them. *)
Definition two_timers : MState := (mrun exact flow empty_mem [go_at 100 6; go_at 105 6]).1.1.
Definition sched (m : Mem) (s : Slice) : list Z := e_sched <$> values m s.
Example tick_shares :
  match ms_cs two_timers !! "flow" with
  | Some (MCProc ps) =>
    let m := ms_mem two_timers in
    let '(ps', due) := mp_tick 110 m ps in
    s_arr due = s_arr (mc_timeouts ps') /\
    sched m due = [110%Z] /\ sched m (mc_timeouts ps') = [115%Z] /\
    let '(m', _) := go_append exact m due (cells m due) in
    sched m' (mc_timeouts ps') = [110%Z]
  | _ => False
  end.
Proof. vm_compute. repeat split. Qed.

(** Whether an object is not the root of a process instance. *)
Definition no_root (st : MState) (p : nat) : bool :=
  forallb (fun x : string * MCState =>
    match x.2 with
    | MCProc ps => forallb (fun y : string * nat => negb (y.2 =? p)) (map_to_list (mc_instances ps))
    | _ => true
    end) (map_to_list (ms_cs st)).
Lemma no_root_ok st p : no_root st p = true -> ~ process_root st p.
Proof.
  unfold no_root. rewrite forallb_forall. intros H (n & ps & i & Hn & Hi).
  apply elem_of_map_to_list in Hn, Hi. apply elem_of_list_In in Hn, Hi.
  specialize (H _ Hn). simpl in H. rewrite forallb_forall in H. specialize (H _ Hi). simpl in H.
  rewrite Nat.eqb_refl in H. discriminate H.
Qed.
Definition holds (st : MState) (p : nat) (r : list nat) : bool :=
  (p <? m_next (ms_mem st)) && bool_decide (m_obj (ms_mem st) !! p = Some r).
Lemma holds_ok st p r : holds st p r = true -> object st p /\ m_obj (ms_mem st) !! p = Some r.
Proof.
  intros H. apply andb_true_iff in H as [H1 H2]. apply Nat.ltb_lt in H1. apply bool_decide_eq_true in H2.
  split; [|done]. split; [done|]. by exists r.
Qed.

(** Object 5 is the root of the aggregate instance "a" during the first command. *)
Example C89_roots_kept_nonvacuous : exists st evs rs st' evs' rs',
  mhistory doubling [] demo used_mem [] [open_at 100 4] st evs rs /\
  m_run_ops doubling [] demo [open_at 101 6; tick_at 105] st = (st', evs', rs') /\
  object st 5 /\ ~ process_root st 5 /\ m_obj (ms_mem st) !! 5 = Some [99; 4] /\
  values (ms_mem st') (past st' "agg" "a") <> values (ms_mem st) (past st "agg" "a").
Proof.
  destruct (mwitness doubling demo used_mem [open_at 100 4] (fun st _ _ =>
    holds st 5 [99; 4] = true /\ no_root st 5 = true /\ length (values (ms_mem st) (past st "agg" "a")) = 1 /\
    let st' := (m_run_ops doubling [] demo [open_at 101 6; tick_at 105] st).1.1 in
    length (values (ms_mem st') (past st' "agg" "a")) = 2))
    as (st & evs & rs & H & O & N & L & L'); [apply Forall_cons_2; [exact (open_ok _ _)|apply Forall_nil_2]|vm_compute; repeat split; reflexivity|].
  destruct (m_run_ops doubling [] demo [open_at 101 6; tick_at 105] st) as [[st' evs'] rs'] eqn:E.
  cbn [fst snd] in L'. destruct (holds_ok _ _ _ O) as [Ob Os].
  exists st, evs, rs, st', evs', rs'. split; [exact H|]. split; [exact E|]. split; [exact Ob|].
  split; [exact (no_root_ok _ _ N)|]. split; [exact Os|]. intros Eq. rewrite Eq, L in L'. discriminate L'.
Qed.

(** The roots of process instances are not kept: the object that an observer got with
    a fact changes when the process handles another event. *)
Theorem C89_process_roots_kept_refuted :
  ~ (forall (P : Params) grow junk c m u ops st evs rs ops' st' evs' rs' p,
     mhistory grow junk c m u ops st evs rs ->
     Forall (op_ok c) ops' -> m_run_ops grow junk c ops' st = (st', evs', rs') ->
     object st p -> m_obj (ms_mem st') !! p = m_obj (ms_mem st) !! p).
Proof.
  intros F. destruct (mwitness exact flow empty_mem [go_at 10 5] (fun st _ _ =>
    holds st 4 [5] = true /\
    let st' := (m_run_ops exact [] flow [go_at 20 5] st).1.1 in holds st' 4 [5; 5] = true))
    as (st & evs & rs & H & O & O'); [solve_ops_ok|vm_compute; repeat split; reflexivity|].
  destruct (m_run_ops exact [] flow [go_at 20 5] st) as [[st' evs'] rs'] eqn:E. cbn [fst snd] in O'.
  destruct (holds_ok _ _ _ O) as [Ob Os]. destruct (holds_ok _ _ _ O') as [_ Os'].
  pose proof (F DemoP exact [] flow empty_mem [] [go_at 10 5] st evs rs [go_at 20 5] st' evs' rs' 4 H ltac:(solve_ops_ok) E Ob) as Q.
  pose proof (eq_trans (eq_sym Os') (eq_trans Q Os)) as X. discriminate X.
Qed.

Print Assumptions C89_as_values.
Print Assumptions C89_growth.
Print Assumptions C89_no_nil.
Print Assumptions C89_roots_kept.
Print Assumptions C89_process_roots_kept_refuted.
