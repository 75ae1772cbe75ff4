(** * Properties of timeouts in tests. *)
From Verif Require Import TestSpec TestTimeProof ProcSpec PropsTest Demo.

(** A process never handles a timeout before the clock of the test reaches the time
    for which it is scheduled. *)
Theorem C79_not_early : forall {P : Params} E app u wall topts p st evs r l1 op fs l2 h e,
  testing E app u wall topts p st evs r -> evs = l1 ++ TvOp op fs :: l2 ->
  (forall t, OptNow t ∉ unsafe topts) ->
  HandlingBegun h e ∈ fs -> m_kind (e_msg e) = KTimeout ->
  (e_sched e <= clock_at (start_time wall topts) l1)%Z.
Proof. intros P. exact not_early. Qed.
Print Assumptions C79_not_early.

(** If the Tick of an AdvanceTime is not cut short, it dispatches every timeout that is
    pending and due at the new time, for every process that is enabled. *)
Theorem C79_delivered : forall {P : Params} E app u wall topts p st evs r l1 op fs l2 err et eh l0 k l' hd pi t,
  testing E app u wall topts p st evs r -> evs = l1 ++ TvOp op fs :: l2 -> tame topts ->
  TickCycleCompleted err et eh ∈ fs -> (forall s, ECtx s ∉ err) ->
  in_action l1 l0 k l' -> hd ∈ app -> h_impl hd = ImplProc pi -> test_skips l0 hd = None ->
  t ∈ pending_timeouts (engine_facts l1) (h_id hd) -> (e_sched t <= clock_at (start_time wall topts) l1)%Z ->
  DispatchBegun t ∈ fs.
Proof. intros P. exact delivered. Qed.
Print Assumptions C79_delivered.

(** Afterwards all timeouts of that process that are pending are for later: this
    includes those scheduled by the messages dispatched during the Tick. *)
Theorem C79_none_due : forall {P : Params} E app u wall topts p st evs r l1 op fs l2 err et eh l0 k l' hd pi t,
  testing E app u wall topts p st evs r -> evs = l1 ++ TvOp op fs :: l2 -> tame topts ->
  TickCycleCompleted err et eh ∈ fs -> (forall s, ECtx s ∉ err) ->
  in_action l1 l0 k l' -> hd ∈ app -> h_impl hd = ImplProc pi -> test_skips l0 hd = None ->
  t ∈ pending_timeouts (engine_facts (l1 ++ [TvOp op fs])) (h_id hd) ->
  (clock_at (start_time wall topts) l1 < e_sched t)%Z.
Proof. intros P. exact none_due. Qed.
Print Assumptions C79_none_due.

(** ** Examples *)

(** The test of [C54_example]: its AdvanceTime handles a timeout. *)
Definition handled_timeouts (fs : list Fact) : list (string * Z) :=
  omap (fun f => match f with HandlingBegun h e => match m_kind (e_msg e) with KTimeout => Some (hid_name h, e_sched e) | _ => None end | _ => None end) fs.
Definition tick_op (n : nat) : Op * list Fact :=
  match demo_out.1.2 !! n with Some (TvOp op fs) => (op, fs) | _ => (OpReset, []) end.
Example C79_example :
  let l1 := take 7 demo_out.1.2 in let l0 := take 5 demo_out.1.2 in let (op, fs) := tick_op 7 in
  testing demo_env demo_app [] 100 [] demo_test demo_out.1.1 demo_out.1.2 demo_out.2 /\ tame [] /\
  demo_out.1.2 = l1 ++ TvOp op fs :: drop 8 demo_out.1.2 /\
  in_action l1 l0 AkAdvance [TvClock 110] /\ test_skips l0 hProc = None /\
  (exists et eh, last fs = Some (TickCycleCompleted [] et eh)) /\
  clock_at (start_time 100 []) l1 = 110%Z /\
  e_sched <$> pending_timeouts (engine_facts l1) (h_id hProc) = [110]%Z /\
  handled_timeouts fs = [("proc"%string, 110%Z)] /\
  e_sched <$> pending_timeouts (engine_facts (l1 ++ [TvOp op fs])) (h_id hProc) = [] /\
  e_sched <$> pending_timeouts (engine_facts demo_out.1.2) (h_id hProc) = [120; 120]%Z.
Proof.
  cbv zeta. assert (E : tick_op 7 = (fst (tick_op 7), snd (tick_op 7))) by (by destruct (tick_op 7)). rewrite E. clear E.
  split; [exact (demo_testing [] demo_test)|]. split; [split; intros ? ? H; inversion H|].
  split; [vm_compute; reflexivity|].
  split; [split; [vm_compute; reflexivity|apply bal_ev; [exact I|apply bal_nil]]|].
  split; [vm_compute; reflexivity|]. split; [do 2 eexists; vm_compute; reflexivity|].
  repeat split; vm_compute; reflexivity.
Qed.
