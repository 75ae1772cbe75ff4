(** * A third concrete application: several handlers of the same events, some of
    which fail or are disabled. *)
From Verif Require Export ProcDemo EngineSpec.

(** A projection that fails for even events and logs otherwise. *)
Definition picky : ProjImpl := {|
  pj_version _ u := (u, inl ("", None));
  pj_handle _ _ _ _ m :=
    if Nat.even (b_data (m_body m)) then JRet (false, Some (EUser "even"))
    else JLog "odd" (JRet (true, None));
  pj_close _ u := (u, inl None);
  pj_compact _ := JLog "compacting" (JRet None) |}.
Definition hPicky := mkHandler "picky" (ImplProj picky) [(KEvent, "Went")] [] false.
Definition hOff := mkHandler "off" (ImplProj picky) [(KEvent, "Went")] [] true.
Definition mixed : Config := mkConfig [hSrc; hFlow; hPicky; hOff] false [cons "first"; cons "second"].
Lemma mixed_ok : app_ok mixed.
Proof. solve_app_ok. Qed.

Definition go_with (o : Oracle) (opts : list OOpt) (d : nat) : Op := OpDispatch o 20 (command "Go" d) opts.
Definition wait_with (o : Oracle) (opts : list OOpt) : Op := OpTick o 20 [hSrc; hFlow; hPicky; hOff] opts.
Lemma go_with_ok opts d : op_ok mixed (go_with quietly opts d).
Proof. apply quietly_ok. Qed.
Lemma go_with_ok' opts d : op_ok mixed (go_with cancelled opts d).
Proof. apply cancelled_ok. Qed.
Lemma wait_with_ok opts : op_ok mixed (wait_with quietly opts).
Proof. split; [apply quietly_ok|done]. Qed.
Lemma wait_with_ok' opts : op_ok mixed (wait_with cancelled opts).
Proof. split; [apply cancelled_ok|done]. Qed.
(** A Tick that iterates over the handlers in another order. *)
Definition wait_reversed (opts : list OOpt) : Op := OpTick quietly 20 [hFlow; hSrc; hPicky; hOff] opts.
Lemma wait_reversed_ok opts : op_ok mixed (wait_reversed opts).
Proof. split; [apply quietly_ok|apply Permutation_swap]. Qed.

Ltac solve_mixed_ok :=
  repeat first [apply Forall_nil_2 | apply Forall_cons_2];
  first [exact (go_with_ok _ _) | exact (wait_with_ok _) | exact (wait_reversed_ok _) | exact (go_with_ok' _ _) | exact (wait_with_ok' _) | exact I].

(** [mixed_performs ops op res H]: [op] is performed after [ops], with result [res]. *)
Ltac mixed_performs ops op res H :=
  pose proof (performs_ops mixed [] ops op mixed_ok ltac:(solve_mixed_ok) ltac:(solve_mixed_ok)
    ltac:(vm_compute; reflexivity) eq_refl ltac:(vm_compute; reflexivity)) as H;
  replace (run_op mixed op (ops_st mixed [] ops)).2 with res in H by (vm_compute; reflexivity).

Lemma not_ctx_nil : uncancelled (Ok []).
Proof. exists []. split; [done|constructor]. Qed.
Lemma not_ctx_wrap l : uncancelled (Ok ((fun x => EWrap x.1 x.2) <$> l)).
Proof.
  eexists. split; [reflexivity|]. apply Forall_forall. intros e (x & -> & _)%elem_of_list_fmap [y Hy]. done.
Qed.
