(** * Vocabulary for the functions that Reset calls. *)
From Verif Require Export ObsSpec.

Section ResetSpec.
Context {P : Params}.

(** [called_in_order fns u n u' v]: of the functions [fns] the first [n] are called, one after the
    other, beginning with the user's world [u]; all but the last of them return, and the
    last panics if [v] says so.  In the end the user's world is [u']. *)
Inductive called_in_order : list (U -> U * option PVal) -> U -> nat -> U -> option PVal -> Prop :=
| co_none u : called_in_order [] u 0 u None
| co_panics fn fns u u' v : fn u = (u', Some v) -> called_in_order (fn :: fns) u 1 u' (Some v)
| co_returns fn fns u u1 n u' v :
    fn u = (u1, None) -> called_in_order fns u1 n u' v -> called_in_order (fn :: fns) u (S n) u' v.

(** The same application, with other functions to be called by Reset. *)
Definition with_resets (x : XApp) (fns : list (U -> U * option PVal)) : XApp :=
  mkXApp (x_cfg x) (x_obs x) (x_agg x) (x_event x) (x_timeout x) (x_int x) (x_proj x) (x_compact x) fns.

(** What is left of a controller's state: nothing, except the time of a projection's last
    compaction. *)
Definition forgotten (cs cs' : CState) : Prop :=
  match cs, cs' with
  | CSAgg _, CSAgg hist => forall i, hist !! i = None
  | CSProc _, CSProc ps => pc_timeouts ps = [] /\ forall i, pc_instances ps !! i = None
  | CSInt, CSInt => True
  | CSProj t, CSProj t' => t' = t
  | _, _ => False
  end.

(** The results of operations, but for what Reset panicked with. *)
Definition same_but_reset (op : Op) (r r' : XRes + PVal) : Prop :=
  match op with
  | OpReset => match r with inl RBlocked => r' = r | _ => r' = inl (RDone []) end
  | _ => r' = r
  end.
End ResetSpec.
