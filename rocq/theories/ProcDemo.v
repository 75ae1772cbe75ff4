(** * A second concrete application, with a process that does everything. *)
From Verif Require Export Demo ProcSpec OpSpec.

(** An integration that turns the command "Go d" into events: "Went 1", "Went 2" and
    "Went 3" if [d] is 100, "Went 5" followed by an error if [d] is 99, nothing if
    [d] is 0, and "Went d" otherwise. *)
Definition went (d : nat) (k : IProg) : IProg := IRecord (body "Went" d) (fun _ => k).
Definition src : IntImpl := {|
  in_handle m :=
    match b_data (m_body m) with
    | 0 => IRet None
    | 99 => went 5 (IRet (Some (EUser "late")))
    | 100 => went 1 (went 2 (went 3 (IRet None)))
    | d => went d (IRet None)
    end |}.

(** A process with the instance "p":
    - 1: schedule a timeout for the past;
    - 2: end;
    - 4: change the root, then fail;
    - 5: change the root;
    - 6: schedule a timeout in 10 ns;
    - 7: change the root, execute a command, schedule a timeout, end, then fail;
    - 8: not routed to an instance;
    - 9: end, then execute a command. *)
Definition flow_event (t : Z) (d : nat) : PProg :=
  match d with
  | 1 => PSchedule (body "Alarm" 1) (t - 1) (fun _ => PRet None)
  | 2 => PEnd (PRet None)
  | 4 => PMutate (cons 4) (fun _ => PRet (Some (EUser "oops")))
  | 5 => PMutate (cons 5) (fun _ => PRet None)
  | 6 => PSchedule (body "Alarm" 6) (t + 10) (fun _ => PRet None)
  | 7 => PMutate (cons 7) (fun _ => PExecute (body "Go" 0) (fun _ =>
         PSchedule (body "Alarm" 7) (t + 10) (fun _ => PEnd (PRet (Some (EUser "oops"))))))
  | 9 => PEnd (PExecute (body "Go" 0) (fun v => match v with Some v => PPanic v | None => PRet None end))
  | _ => PRet None
  end.
Definition flow_proc : ProcImpl := {|
  pr_route m u := (u, inl ("p", negb (b_data (m_body m) =? 8), None));
  pr_new := Some [];
  pr_event _ t m := flow_event t (b_data (m_body m));
  pr_timeout _ _ _ := PMutate (cons 77) (fun _ => PRet None) |}.

Definition hSrc := mkHandler "src" (ImplInt src) [(KCommand, "Go")] [(KEvent, "Went")] false.
Definition hFlow := mkHandler "flow" (ImplProc flow_proc) [(KEvent, "Went"); (KTimeout, "Alarm")]
                                    [(KCommand, "Go"); (KTimeout, "Alarm")] false.
Definition flow : Config := mkConfig [hSrc; hFlow] false [].
Definition flow_id := h_id hFlow.
Lemma flow_ok : app_ok flow.
Proof. solve_app_ok. Qed.

Definition go_at (t : Z) (d : nat) : Op := OpDispatch quietly 20 (command "Go" d) [OptNow t].
Definition wait_until (t : Z) : Op := OpTick quietly 20 [hSrc; hFlow] [OptNow t].
(** A Tick whose context is cancelled (but not before the lock is acquired). *)
Definition cancelled : Oracle :=
  mkOracle (fun _ => Some "cancelled") (fun _ => None) (fun _ => 0%N) (fun _ => true) (merge_sort by_time) 0.
Definition wait_cancelled (t : Z) : Op := OpTick cancelled 20 [hFlow; hSrc] [OptNow t].

Lemma cancelled_ok : sort_ok cancelled.
Proof. exact quietly_ok. Qed.
Lemma go_ok t d : op_ok flow (go_at t d).
Proof. apply quietly_ok. Qed.
Lemma wait_ok t : op_ok flow (wait_until t).
Proof. split; [apply quietly_ok|done]. Qed.
Lemma wait_cancelled_ok t : op_ok flow (wait_cancelled t).
Proof. split; [apply cancelled_ok|]. apply Permutation_swap. Qed.

Ltac solve_ops_ok :=
  repeat first [apply Forall_nil_2 | apply Forall_cons_2];
  first [exact (go_ok _ _) | exact (wait_ok _) | exact (wait_cancelled_ok _) | exact I].

(** The history of a list of operations that are all allowed. *)
Ltac flow_history ops H :=
  pose proof (ops_history flow [] ops flow_ok ltac:(solve_ops_ok)) as H;
  replace (run_ops flow ops (e_init flow [])).2 with true in H by (symmetry; vm_compute; reflexivity).

Definition is_timeoutb (e : Env) : bool := match m_kind (e_msg e) with KTimeout => true | _ => false end.
Definition dispatches_timeout (f : Fact) : bool := match f with DispatchBegun e => is_timeoutb e | _ => false end.

(** ** Operations performed after a list of operations *)
Definition op_facts (c : Config) (st : EState) (op : Op) : list Fact := facts_of (run_op c op st).1.2.
Lemma facts_of_facts fs : facts_of (EvFact <$> fs) = fs.
Proof. induction fs as [|f fs IH]; [done|]. cbn. f_equal. exact IH. Qed.
Lemma performs_ops c u ops op :
  app_ok c -> Forall (op_ok c) ops -> op_ok c op -> (run_ops c ops (e_init c u)).2 = true ->
  (match op with OpDispatch _ _ _ _ | OpTick _ _ _ _ => true | _ => false end) = true ->
  (length (op_facts c (ops_st c u ops) op) =? 0)%nat = false ->
  performs c (ops_st c u ops) op (run_op c op (ops_st c u ops)).1.1 (op_facts c (ops_st c u ops) op)
    (run_op c op (ops_st c u ops)).2.
Proof.
  intros H1 H2 H3 H4 H5 H6. unfold op_facts in *. split.
  { pose proof (ops_history c u ops H1 H2) as H. rewrite H4 in H. eexists _, _, _. exact H. }
  split; [done|]. destruct op as [o fuel m opts|o fuel order opts| |f]; try discriminate H5; cbn [run_op] in *.
  - destruct (e_dispatch _ _ _ _ _ _) as [[st' fs] r]. cbn [fst snd] in *. rewrite facts_of_facts in *. split; [done|]. intros ->. done.
  - destruct (e_tick _ _ _ _ _ _) as [[st' fs] r]. cbn [fst snd] in *. rewrite facts_of_facts in *. split; [done|]. intros ->. done.
Qed.

(** As [pair_at], with a check of what came before. *)
Definition split_at (evs : list Ev) (n m : nat) (chk : list Fact -> Fact -> list Fact -> Fact -> bool) : bool :=
  match evs !! n, evs !! m with
  | Some (EvFact f), Some (EvFact f') =>
    (n <? m) && forallb is_fact (take (m - S n) (drop (S n) evs)) &&
    chk (since_reset (take n evs)) f (Demo.between evs n m) f'
  | _, _ => false
  end.
Lemma split_at_occurs evs n m chk :
  split_at evs n m chk = true ->
  exists pre f mid f', occurs evs pre f /\ occurs evs (pre ++ f :: mid) f' /\ chk pre f mid f' = true.
Proof.
  unfold split_at. intros H. destruct (evs !! n) as [[f|]|] eqn:Hn; try discriminate H.
  destruct (evs !! m) as [[f'|]|] eqn:Hm; try discriminate H.
  apply andb_true_iff in H as [H Hc]. apply andb_true_iff in H as [Hlt Hf]. apply Nat.ltb_lt in Hlt.
  destruct (occurs_pair evs n m f f' Hn Hm Hlt Hf) as [H1 H2]. eauto 10.
Qed.
Definition fact_at (evs : list Ev) (n : nat) (chk : list Fact -> Fact -> bool) : bool :=
  match evs !! n with Some (EvFact f) => chk (since_reset (take n evs)) f | _ => false end.
Lemma fact_at_occurs evs n chk :
  fact_at evs n chk = true -> exists pre f, occurs evs pre f /\ chk pre f = true.
Proof.
  unfold fact_at. intros H. destruct (evs !! n) as [[f|]|] eqn:Hn; try discriminate H.
  apply occurs_nth in Hn. eauto.
Qed.

Ltac bools := repeat match goal with
  | H : (_ && _)%bool = true |- _ => let H' := fresh in apply andb_true_iff in H as [H H']
  | H : bool_decide _ = true |- _ => apply bool_decide_eq_true in H
  | H : (_ =? _)%nat = true |- _ => apply Nat.eqb_eq in H
  end.
