(** * Specification of C89: what is in memory *)
From Verif Require Import MemModel.

Section MemSpec.
Context {P : Params}.

(** What a controller knows, if one follows its slices and pointers. *)
Definition contents (junk : Root) (m : Mem) (cs : MCState) : CState :=
  match cs with
  | MCAgg hist => CSAgg (values m <$> hist)
  | MCProc ps => CSProc (mkPState (deref junk m <$> mc_instances ps) (values m (mc_timeouts ps)))
  | MCInt => CSInt
  | MCProj last => CSProj last
  end.
Definition meaning (junk : Root) (st : MState) : EState :=
  mkE (ms_g st) (contents junk (ms_mem st) <$> ms_cs st).

(** The results of a sequence of operations on values. *)
Fixpoint results (c : Config) (ops : list Op) (st : EState) : list (Out Errs) :=
  match ops with
  | [] => []
  | op :: ops =>
    let '(st, _, r) := run_op c op st in
    match r with Fuel => [r] | _ => r :: results c ops st end
  end.

(** A new engine has performed [ops]; [m] is what was in memory before. *)
Definition mhistory (grow : Mem -> Slice -> nat -> nat) (junk : Root) (c : Config) (m : Mem) (u : U)
    (ops : list Op) (st : MState) (evs : list Ev) (rs : list (Out Errs)) : Prop :=
  Forall (op_ok c) ops /\ m_run_ops grow junk c ops (m_init c m u) = (st, evs, rs).

(** The slices an engine keeps between operations: the events of the aggregate
    instances and the pending timeouts of the processes. *)
Definition keeps_slice (st : MState) (s : Slice) : Prop :=
  (exists n hist i, ms_cs st !! n = Some (MCAgg hist) /\ hist !! i = Some s) \/
  (exists n ps, ms_cs st !! n = Some (MCProc ps) /\ s = mc_timeouts ps).

(** The objects that are roots of process instances. *)
Definition process_root (st : MState) (p : nat) : Prop :=
  exists n ps i, ms_cs st !! n = Some (MCProc ps) /\ mc_instances ps !! i = Some p.

(** [p] is an object that exists. *)
Definition object (st : MState) (p : nat) : Prop :=
  p < m_next (ms_mem st) /\ is_Some (m_obj (ms_mem st) !! p).

End MemSpec.
