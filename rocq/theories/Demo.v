(** * A concrete application, used to show that hypotheses can be met. *)
From stdpp Require Export sorting.
From Verif Require Export TraceSpec AggSpec.

#[export] Instance DemoP : Params := {| U := list string; Root := list nat; D := nat |}.

Definition body (n : string) (d : nat) : Body := mkBody n d None.
Definition command (n : string) (d : nat) : Msg := mkMsg KCommand (body n d).
Definition event (n : string) (d : nat) : Msg := mkMsg KEvent (body n d).

(** sort.Slice as a stable sort. *)
Definition by_time (a b : Env) : Prop := (e_sched a <= e_sched b)%Z.
#[export] Instance by_time_dec : RelDecision by_time.
Proof. intros a b. unfold by_time. apply _. Defined.
#[export] Instance by_time_trans : Transitive by_time.
Proof. intros a b d. unfold by_time. lia. Qed.
#[export] Instance by_time_total : Total by_time.
Proof. intros a b. unfold by_time. lia. Qed.

Definition quietly : Oracle :=
  mkOracle (fun _ => None) (fun _ => None) (fun _ => 0%N) (fun _ => true) (merge_sort by_time) 0.

Lemma quietly_ok : sort_ok quietly.
Proof.
  intros l. split; [apply (merge_sort_Permutation by_time)|].
  apply (StronglySorted_merge_sort by_time).
Qed.

(** An aggregate: "Open d" is handled by instance "a" if [d] is even and "b"
    otherwise; it records "Opened d"; 7 destroys the instance as well. *)
Definition agg : AggImpl := {|
  ag_route m := inl (if Nat.even (b_data (m_body m)) then "a" else "b");
  ag_new := Some [];
  ag_apply r m := (r ++ [b_data (m_body m)], None);
  ag_handle _ m := ARecord (body "Opened" (b_data (m_body m))) (fun v =>
    match v with
    | Some v => APanic v
    | None => if decide (b_data (m_body m) = 7) then ADestroy ARet
              else AMutate (fun r => 99 :: r) (fun _ => ARet)
    end) |}.

(** A process with one instance: "Opened d" executes "Notify d" and schedules
    "Remind d" in 10 ns; "Remind" executes "Notify 100" and ends the process. *)
Definition proc : ProcImpl := {|
  pr_route m u := (u, inl ("p", true, None));
  pr_new := Some [];
  pr_event _ t m :=
    PMutate (fun r => r ++ [b_data (m_body m)]) (fun _ =>
    PExecute (body "Notify" (b_data (m_body m))) (fun _ =>
    PSchedule (body "Remind" (b_data (m_body m))) (t + 10) (fun _ => PRet None)));
  pr_timeout _ _ m := PExecute (body "Notify" 100) (fun _ => PEnd (PRet None)) |}.

(** An integration: "Notify d" records "Notified d". *)
Definition int_ : IntImpl := {|
  in_handle m := IRecord (body "Notified" (b_data (m_body m))) (fun _ =>
                 ILog "notified" (IRet None)) |}.

(** A projection that remembers the resources (event IDs) it has applied. *)
Definition proj : ProjImpl := {|
  pj_version res u := (u, inl (if decide (res ∈ u) then "x" else "", None));
  pj_handle res _ _ _ _ := JAct (cons res) (fun _ => JLog "applied" (JRet (true, None)));
  pj_close _ u := (u, inl None);
  pj_compact _ := JLog "compacting" (JRet None) |}.

Definition hAgg := mkHandler "agg" (ImplAgg agg) [(KCommand, "Open")] [(KEvent, "Opened")] false.
Definition hProc := mkHandler "proc" (ImplProc proc) [(KEvent, "Opened"); (KTimeout, "Remind")]
                                   [(KCommand, "Notify"); (KTimeout, "Remind")] false.
Definition hInt := mkHandler "int" (ImplInt int_) [(KCommand, "Notify")] [(KEvent, "Notified")] false.
Definition hProj := mkHandler "proj" (ImplProj proj) [(KEvent, "Opened"); (KEvent, "Notified")] [] false.

Definition demo : Config := mkConfig [hAgg; hProc; hInt; hProj] false [cons "reset"].

Ltac solve_handler_ok :=
  split; try reflexivity; apply Forall_forall;
  repeat first [apply Forall_nil_2 | apply Forall_cons_2];
  cbn; first [reflexivity | left; reflexivity | right; (split; [reflexivity|]); set_solver].
Ltac solve_app_ok :=
  split; [apply (bool_decide_unpack _); vm_compute; done|];
  apply Forall_forall; repeat first [apply Forall_nil_2 | apply Forall_cons_2];
  unfold handler_ok; cbn -[elem_of]; solve_handler_ok.

Lemma demo_ok : app_ok demo.
Proof. solve_app_ok. Qed.

(** Dispatch of "Open d" at a given time; a tick. *)
Definition open_at (t : Z) (d : nat) : Op := OpDispatch quietly 20 (command "Open" d) [OptNow t].
Definition tick_at (t : Z) : Op := OpTick quietly 20 [hProj; hProc; hAgg; hInt] [OptNow t].

Lemma open_ok t d : op_ok demo (open_at t d).
Proof. apply quietly_ok. Qed.
Lemma tick_ok t : op_ok demo (tick_at t).
Proof.
  split; [apply quietly_ok|]. cbn.
  change [hAgg; hProc; hInt; hProj] with ([hAgg; hProc; hInt] ++ [hProj]).
  rewrite <- Permutation_cons_append. constructor. apply Permutation_swap.
Qed.

Definition demo_ops : list Op := [open_at 100 4; tick_at 105; open_at 106 7; tick_at 3600000000000].
Lemma demo_ops_ok : Forall (op_ok demo) demo_ops.
Proof.
  apply Forall_forall. intros op Hin. unfold demo_ops in Hin.
  repeat (apply elem_of_cons in Hin as [->|Hin]; [first [exact (open_ok _ _) | exact (tick_ok _)]|]).
  apply elem_of_nil in Hin. done.
Qed.

Definition demo_run : EState * list Ev * bool := run_ops demo demo_ops (e_init demo []).
Definition demo_st : EState := demo_run.1.1.
Definition demo_evs : list Ev := demo_run.1.2.

Lemma demo_history : history demo [] demo_ops demo_st demo_evs true.
Proof.
  split; [apply demo_ok|]. split; [apply demo_ops_ok|].
  unfold demo_st, demo_evs, demo_run. 
  assert (H : (run_ops demo demo_ops (e_init demo [])).2 = true) by (vm_compute; reflexivity).
  destruct (run_ops demo demo_ops (e_init demo [])) as [[st evs] fin]. cbn in *. subst. done.
Qed.

(** The names of the messages, in order of appearance, with IDs, causes and
    correlations. *)
Definition env_info (e : Env) := (b_name (m_body (e_msg e)), e_id e, e_cause e, e_corr e).


(** ** Finding facts in a computed history *)
Lemma occurs_nth evs n f :
  evs !! n = Some (EvFact f) -> occurs evs (since_reset (take n evs)) f.
Proof.
  intros H. exists (take n evs), (drop (S n) evs). split; [|done].
  symmetry. apply take_drop_middle. done.
Qed.

Definition is_fact (ev : Ev) : bool := match ev with EvFact _ => true | EvReset => false end.
Definition facts_of (evs : list Ev) : list Fact :=
  omap (fun ev => match ev with EvFact f => Some f | EvReset => None end) evs.
Definition between (evs : list Ev) (n m : nat) : list Fact := facts_of (take (m - S n) (drop (S n) evs)).

Lemma since_reset_facts evs evs' :
  forallb is_fact evs' = true -> since_reset (evs ++ evs') = since_reset evs ++ facts_of evs'.
Proof.
  intros H. unfold since_reset. rewrite foldl_app. generalize (foldl (fun fs ev =>
    match ev with EvFact f => fs ++ [f] | EvReset => [] end) [] evs) as x.
  induction evs' as [|[f|] evs' IH]; intros x; cbn in *; [rewrite app_nil_r; done| |done].
  rewrite (IH H). rewrite <- app_assoc. done.
Qed.

Lemma occurs_pair evs n m f f' :
  evs !! n = Some (EvFact f) -> evs !! m = Some (EvFact f') -> n < m ->
  forallb is_fact (take (m - S n) (drop (S n) evs)) = true ->
  occurs evs (since_reset (take n evs)) f /\
  occurs evs (since_reset (take n evs) ++ f :: between evs n m) f'.
Proof.
  intros Hn Hm Hlt Hf. split; [apply occurs_nth; done|].
  pose proof (occurs_nth _ _ _ Hm) as Ho.
  assert (Ht : take m evs = take n evs ++ EvFact f :: take (m - S n) (drop (S n) evs)).
  { rewrite <- (take_drop_middle evs n _ Hn) at 1.
    assert (Hl : n < length evs) by (eapply lookup_lt_Some; eassumption).
    rewrite take_app_ge by (rewrite take_length; lia). rewrite take_length.
    replace (m - n `min` length evs) with (S (m - S n)) by lia. done. }
  rewrite Ht in Ho. rewrite since_reset_facts in Ho; done.
Qed.

(** ** An aggregate that exercises everything *)

(** The command "Open d" for the only instance "a":
    - d < 10: record d;
    - 10: record 10, then panic;
    - 11: destroy;
    - 12: destroy, then record 12;
    - 13: if [wild], change the root directly;
    - 14: record 99, for which ApplyEvent panics; if [wild], recover;
    - 15: record 15, then destroy. *)
Definition bank_handle (wild : bool) (d : nat) : AProg :=
  let rethrow k v := match v with Some v => APanic v | None => k end in
  match d with
  | 10 => ARecord (body "Opened" 10) (rethrow (APanic (PUser "oops")))
  | 11 => ADestroy ARet
  | 12 => ADestroy (ARecord (body "Opened" 12) (rethrow ARet))
  | 13 => if wild then AMutate (cons 77) (fun _ => ARet) else ALog "nothing" ARet
  | 14 => ARecord (body "Opened" 99) (if wild then (fun _ => ARet) else rethrow ARet)
  | 15 => ARecord (body "Opened" 15) (rethrow (ADestroy ARet))
  | d => ARecord (body "Opened" d) (rethrow ARet)
  end.
Definition bank_agg (wild : bool) : AggImpl := {|
  ag_route m := inl "a";
  ag_new := Some [];
  ag_apply r m := if decide (b_data (m_body m) = 99) then (r, Some (PUser "apply"))
                  else (r ++ [b_data (m_body m)], None);
  ag_handle _ m := bank_handle wild (b_data (m_body m)) |}.
Definition hBank (wild : bool) := mkHandler "bank" (ImplAgg (bank_agg wild)) [(KCommand, "Open")] [(KEvent, "Opened")] false.
Definition bank (wild : bool) : Config := mkConfig [hBank wild] false [].
Lemma bank_ok wild : app_ok (bank wild).
Proof. solve_app_ok. Qed.

Definition opens (l : list nat) : list Op := map (open_at 100) l.
Lemma opens_ok c l : Forall (op_ok c) (opens l).
Proof. apply Forall_forall. intros op Hin. apply elem_of_list_In, in_map_iff in Hin as (d & <- & _). apply quietly_ok. Qed.

Definition ops_evs (c : Config) (u : U) (ops : list Op) : list Ev := (run_ops c ops (e_init c u)).1.2.
Definition ops_st (c : Config) (u : U) (ops : list Op) : EState := (run_ops c ops (e_init c u)).1.1.
Lemma ops_history c u ops :
  app_ok c -> Forall (op_ok c) ops ->
  history c u ops (ops_st c u ops) (ops_evs c u ops) (run_ops c ops (e_init c u)).2.
Proof.
  intros H1 H2. split; [done|]. split; [done|]. unfold ops_st, ops_evs.
  destruct (run_ops c ops (e_init c u)) as [[st evs] fin]. done.
Qed.

(** The positions of facts in a history. *)
Definition find_facts (p : Fact -> bool) (evs : list Ev) : list nat :=
  omap (fun q : nat * Ev => match q.2 with EvFact f => if p f then Some q.1 else None | EvReset => None end)
       (zip (seq 0 (length evs)) evs).

(** A computable way to find two facts, without a Reset in between. *)
Definition pair_at (evs : list Ev) (n m : nat) (chk : Fact -> list Fact -> Fact -> bool) : bool :=
  match evs !! n, evs !! m with
  | Some (EvFact f), Some (EvFact f') =>
    (n <? m) && forallb is_fact (take (m - S n) (drop (S n) evs)) && chk f (between evs n m) f'
  | _, _ => false
  end.
Lemma pair_at_occurs evs n m chk :
  pair_at evs n m chk = true ->
  exists pre f mid f', occurs evs pre f /\ occurs evs (pre ++ f :: mid) f' /\ chk f mid f' = true.
Proof.
  unfold pair_at. intros H. destruct (evs !! n) as [[f|]|] eqn:Hn; try discriminate H.
  destruct (evs !! m) as [[f'|]|] eqn:Hm; try discriminate H.
  apply andb_true_iff in H as [H Hc]. apply andb_true_iff in H as [Hlt Hf]. apply Nat.ltb_lt in Hlt.
  destruct (occurs_pair evs n m f f' Hn Hm Hlt Hf) as [H1 H2]. eauto 10.
Qed.

Lemma forallb_notin (p : Fact -> bool) l f : forallb p l = true -> p f = false -> f ∉ l.
Proof. intros H Hf Hin. rewrite forallb_forall in H. apply elem_of_list_In in Hin. rewrite (H f Hin) in Hf. done. Qed.

Lemma bank_no_recover i m : no_recover (ag_handle (bank_agg false) i m) /\ no_mutation (ag_handle (bank_agg false) i m).
Proof.
  cbn. generalize (b_data (m_body m)) as d. intros d.
  do 16 (destruct d as [|d]; [split; cbn; repeat first [constructor | intros []]|]).
  split; cbn; repeat first [constructor | intros []].
Qed.
