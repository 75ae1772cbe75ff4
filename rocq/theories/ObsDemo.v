(** * Engines with observers that panic, for the examples of PropsObs.v *)
From Verif Require Export ObsSpec ProcDemo.

(** Observer 1 panics when the handling of a message has completed, 2 when the
    process "flow" has been ticked, 3 when an aggregate instance is created; 0 does
    nothing. *)
Definition touchy (n : nat) : Observer := fun f u =>
  match n, f with
  | 1, HandlingCompleted _ _ _ => (u, Some (PUser "observer"))
  | 2, TickCompleted h _ => (u, if decide (h = flow_id) then Some (PUser "observer") else None)
  | 3, AggregateInstanceCreated _ _ _ _ => (u, Some (PUser "observer"))
  | _, _ => (u, None)
  end.

Definition xflow : XApp := plain flow touchy.
Definition xdemo : XApp := plain demo touchy.

Definition xopen_at (t : Z) (d n : nat) : Op :=
  OpDispatch quietly 20 (command "Open" d) [OptObserver 0; OptNow t; OptObserver n; OptObserver 0].
Definition xwait_until (t : Z) (n : nat) : Op :=
  OpTick quietly 20 [hSrc; hFlow] [OptNow t; OptObserver n].
Lemma xopen_ok c t d n : op_ok c (xopen_at t d n).
Proof. apply quietly_ok. Qed.
Lemma xwait_ok t n : op_ok flow (xwait_until t n).
Proof. split; [apply quietly_ok|done]. Qed.

(** An application whose only handler is the aggregate, which lets panics through. *)
Definition strict_cfg : Config := mkConfig [hAgg] false [].
Definition xstrict : XApp := mkXApp strict_cfg touchy
  (fun _ _ m => XARecord (body "Opened" (b_data (m_body m))) (fun v =>
     match v with Some v => XAPanic v | None => XALog "opened" (fun v => match v with Some v => XAPanic v | None => XARet end) end))
  (fun _ _ _ _ => XPRet None) (fun _ _ _ _ => XPRet None) (fun _ _ => XIRet None)
  (fun _ _ _ _ _ _ => XJRet (true, None)) (fun _ _ => XJRet None) [].
Lemma strict_ok : app_ok strict_cfg.
Proof. solve_app_ok. Qed.
Lemma strict_lets : lets_through xstrict.
Proof. repeat split; intros; cbn; repeat constructor. Qed.

(** Such a handler that swallows panics. *)
Definition xlenient : XApp := mkXApp strict_cfg touchy
  (fun _ _ m => XARecord (body "Opened" (b_data (m_body m))) (fun _ => XARet))
  (fun _ _ _ _ => XPRet None) (fun _ _ _ _ => XPRet None) (fun _ _ => XIRet None)
  (fun _ _ _ _ _ _ => XJRet (true, None)) (fun _ _ => XJRet None) [].

(** The history of some operations. *)
Definition xrun (x : XApp) (ops : list Op) := xrun_ops x ops (e_init (x_cfg x) [], false).
Lemma xwitness x ops (Q : (EState * bool) -> list XEv -> list (XRes + PVal) -> Prop) :
  app_ok (x_cfg x) -> Forall (op_ok (x_cfg x)) ops ->
  Q (xrun x ops).1.1 (xrun x ops).1.2 (xrun x ops).2 ->
  exists s evs rs, xhistory x [] ops s evs rs /\ Q s evs rs.
Proof.
  intros H1 H2 H3. unfold xrun in H3. destruct (xrun_ops _ _ _) as [[s evs] rs] eqn:E.
  exists s, evs, rs. split; [|exact H3]. split; [exact H1|]. split; [exact H2|exact E].
Qed.

Definition kept (s : EState * bool) (name i : string) : option (list Env) :=
  match es_cs s.1 !! name with Some (CSAgg hist) => hist !! i | _ => None end.
Definition waiting (s : EState * bool) (name : string) : list Env :=
  match es_cs s.1 !! name with Some (CSProc ps) => pc_timeouts ps | _ => [] end.
Definition panicked {A} (r : A + PVal) : bool := match r with inr _ => true | inl _ => false end.
Definition failures (evs : list XEv) : list Seen :=
  omap (fun sn => match sn_panic sn with Some _ => Some sn | None => None end) (notes evs).
Definition begins (id : string) (f : Fact) : bool :=
  match f with DispatchBegun e => bool_decide (e_id e = id) | _ => false end.

Ltac solve_xops_ok :=
  repeat first [apply Forall_nil_2 | apply Forall_cons_2];
  first [exact (go_ok _ _) | exact (wait_ok _) | exact (xwait_ok _ _) | exact (xopen_ok _ _ _ _)].
