(** * Lemmas on what expectations of a test are given. *)
From Verif Require Import TestSpec TestScan TestLemmas TestProof.

Section Scope.
Context {P : Params} (E : TEnv) (c : Config).

Lemma engine_op_compare mk st st' evs r : engine_op E c mk st = (st', evs, r) -> ts_compare st' = ts_compare st.
Proof. unfold engine_op. destruct (run_op _ _ _) as [[es fs] r1]. intros [= <- _ _]. done. Qed.
Lemma icpt_compare opts p : forall st st' evs r, run_icpt E c opts p st = (st', evs, r) -> ts_compare st' = ts_compare st.
Proof.
  induction p as [o|v|f k IH|b k IH]; intros st st' evs r; cbn [run_icpt].
  - destruct o; by intros [= <- _ _].
  - by intros [= <- _ _].
  - destruct (run_icpt _ _ _ _ _) as [[st1 evs1] r1] eqn:Er. apply IH in Er. intros [= <- _ _]. done.
  - destruct (engine_execute _ _ _ _ _) as [[st1 evs1] r1] eqn:Ee. apply engine_op_compare in Ee.
    destruct (x_res r1); [|by intros [= <- _ _]].
    destruct (run_icpt _ _ _ _ _) as [[st2 evs2] r2] eqn:Er. apply IH in Er. intros [= <- _ _]. congruence.
Qed.
Lemma execute_compare b st st' evs r : execute_command E c b st = (st', evs, r) -> ts_compare st' = ts_compare st.
Proof.
  unfold execute_command. destruct (ts_bound st); [|by intros [= <- _ _]].
  destruct (ts_icpt st).
  - destruct (run_icpt _ _ _ _ _) as [[st1 evs1] r1] eqn:Ei. intros [= <- _ _]. by eapply icpt_compare.
  - destruct (engine_execute _ _ _ _ _) as [[st1 evs1] r1] eqn:Ei. intros [= <- _ _]. by eapply engine_op_compare.
Qed.
Lemma enable_compare names b : forall st st' evs r, enable_handlers c names b st = (st', evs, r) -> ts_compare st' = ts_compare st.
Proof.
  induction names as [|n names IH]; intros st st' evs r; cbn [enable_handlers]; [by intros [= <- _ _]|].
  destruct (controllers c !! n) as [h|]; [|by intros [= <- _ _]]. destruct (b && h_disabled h); [by intros [= <- _ _]|].
  destruct (enable_handlers _ _ _ _) as [[st1 evs1] r1] eqn:Ee. intros [= <- _ _]. by apply IH in Ee.
Qed.
Lemma like_compare pats b st st' evs r : enable_handlers_like E c pats b st = (st', evs, r) -> ts_compare st' = ts_compare st.
Proof. unfold enable_handlers_like. destruct (match_handlers _ _ _); by intros [= <- _ _]. Qed.

Definition code_keeps (f : TState -> TState * list TEv * TOut) : Prop := forall st st' evs r, f st = (st', evs, r) -> ts_compare st' = ts_compare st.
Definition action_keeps (f : list OOpt -> TState -> TState * list TEv * AOut) : Prop :=
  forall o st st' evs r, f o st = (st', evs, r) -> ts_compare st' = ts_compare st.
Lemma prepare_keeps f : action_keeps f -> code_keeps (prepare E f).
Proof.
  intros Hf st st' evs r. unfold prepare. destruct (f _ st) as [[st1 evs1] r1] eqn:Ef. apply Hf in Ef.
  destruct r1; cbn; intros [= <- _ _]; done.
Qed.
Lemma expect_keeps k f e : action_keeps f -> code_keeps (expect E c k f e).
Proof.
  intros Hf st st' evs r. unfold expect. destruct (new_predicate _ _) as [p|er]; [|cbn; by intros [= <- _ _]].
  destruct (f _ _) as [[st1 evs1] r1] eqn:Ef. apply Hf in Ef. cbn in Ef. destruct (p_done _) as [p1 [v|]].
  - destruct r1; cbn; intros [= <- _ _]; done.
  - destruct r1; cbn; try (intros [= <- _ _]; done). destruct (p_ok p1); intros [= <- _ _]; done.
Qed.
Lemma and_then_keeps f k : code_keeps f -> (forall v, code_keeps (k v)) -> code_keeps (fun st => and_then (f st) k).
Proof.
  intros Hf Hk st st' evs r. unfold and_then. destruct (f st) as [[st1 evs1] r1] eqn:Ef. apply Hf in Ef.
  destruct r1; try (intros [= <- _ _]; done).
  all: destruct (k _ st1) as [[st2 evs2] r2] eqn:Ek; apply Hk in Ek; intros [= <- _ _]; congruence.
Qed.
Lemma test_keeps : (forall p, code_keeps (run_test E c p)) /\ (forall a, action_keeps (do_action E c a)).
Proof.
  apply test_mutind.
  - intros st st' evs r. cbn. by intros [= <- _ _].
  - intros v st st' evs r. cbn. by intros [= <- _ _].
  - intros st st' evs r. cbn. by intros [= <- _ _].
  - intros f k IH st st' evs r. cbn [run_test]. destruct (run_test _ _ _ _) as [[st1 evs1] r1] eqn:Er. apply IH in Er. intros [= <- _ _]. done.
  - intros b k IH st st' evs r. cbn [run_test]. destruct (execute_command _ _ _ _) as [[st1 evs1] r1] eqn:Ex. apply execute_compare in Ex.
    destruct (x_res r1); [|by intros [= <- _ _]].
    destruct (run_test _ _ _ _) as [[st2 evs2] r2] eqn:Er. apply IH in Er. intros [= <- _ _]. congruence.
  - intros x IHx k IH. cbn [run_test]. apply (and_then_keeps (prepare E (do_action E c x)) (fun v => run_test E c (k v))); [by apply prepare_keeps|exact IH].
  - intros x IHx e k IH. cbn [run_test]. apply (and_then_keeps (expect E c (a_kind x) (do_action E c x) e) (fun v => run_test E c (k v))); [by apply expect_keeps|exact IH].
  - intros names b k IH st st' evs r. cbn [run_test]. destruct (enable_handlers _ _ _ _) as [[st1 evs1] v] eqn:Ex. apply enable_compare in Ex.
    destruct (run_test _ _ _ _) as [[st2 evs2] r2] eqn:Er. apply IH in Er. intros [= <- _ _]. congruence.
  - intros pats b k IH st st' evs r. cbn [run_test]. destruct (enable_handlers_like _ _ _ _ _) as [[st1 evs1] v] eqn:Ex. apply like_compare in Ex.
    destruct (run_test _ _ _ _) as [[st2 evs2] r2] eqn:Er. apply IH in Er. intros [= <- _ _]. congruence.
  - intros x k IH st st' evs r. cbn [run_test]. destruct (run_test _ _ _ _) as [[st1 evs1] r1] eqn:Er. apply IH in Er. intros [= <- _ _]. done.
  - intros m o st st' evs r. cbn [do_action]. unfold bracket, do_dispatch. destruct (app_types c (m_type m)).
    + destruct (engine_op _ _ _ _) as [[st1 evs1] r1] eqn:Ee. apply engine_op_compare in Ee. intros [= <- _ _]. done.
    + intros [= <- _ _]. done.
  - intros step o st st' evs r. cbn [do_action]. unfold bracket, do_advance. destruct (adj_step step _) as [now|v]; [|by intros [= <- _ _]].
    destruct (now <? ts_clock st)%Z; [by intros [= <- _ _]|].
    destruct (engine_op _ _ _ _) as [[st1 evs1] r1] eqn:Ee. apply engine_op_compare in Ee. intros [= <- _ _]. done.
  - intros fn IH i o st st' evs r. change (do_action E c (ActCall fn i) o st) with (bracket AkCall (do_call (run_test E c fn) i o st)). unfold bracket, do_call. cbv beta zeta. destruct (run_test E c fn _) as [[st1 evs1] r1] eqn:Er. apply IH in Er.
    destruct r1, i; intros [= <- _ _]; cbn in *; done.
Qed.
Lemma visits_compare p st p' st' : visits E c p st p' st' -> ts_compare st' = ts_compare st.
Proof.
  induction 1; try done; rewrite IHvisits.
  - by eapply execute_compare.
  - eapply (prepare_keeps (do_action E c a)); [apply test_keeps|done].
  - by destruct i.
  - eapply (expect_keeps _ (do_action E c a)); [apply test_keeps|done].
  - by destruct i.
  - by eapply enable_compare.
  - by eapply like_compare.
Qed.
End Scope.

Lemma begin_compare {P : Params} app u wall topts :
  ts_compare (begin app u wall topts) = last (omap (fun o => match o with OptCompare f => Some f | _ => None end) topts).
Proof.
  unfold begin. set (st0 := mkTS _ _ _ _ _ _ _ _ _ _).
  transitivity (match last (omap (fun o => match o with OptCompare f => Some f | _ => None end) topts) with Some f => Some f | None => ts_compare st0 end); [|by destruct (last _)].
  generalize st0. induction topts as [|o topts IH]; intros st1; [done|]. cbn [foldl]. rewrite IH. destruct o; cbn; try done.
  rewrite last_cons. by destruct (last _).
Qed.
Lemma app_types_none {P : Params} c t : app_types c t = None <-> forall h, h ∈ c_app c -> t ∉ h_produced h /\ t ∉ h_consumed h.
Proof.
  unfold app_types. destruct (existsb (fun h => bool_decide (t ∈ h_produced h)) (c_app c)) eqn:E1.
  - split; [done|]. intros H. apply existsb_exists in E1 as (h & Hin & Hb). apply bool_decide_eq_true in Hb. apply elem_of_list_In in Hin. by destruct (H h Hin).
  - destruct (existsb (fun h => bool_decide (t ∈ h_consumed h)) (c_app c)) eqn:E2.
    + split; [done|]. intros H. apply existsb_exists in E2 as (h & Hin & Hb). apply bool_decide_eq_true in Hb. apply elem_of_list_In in Hin. by destruct (H h Hin).
    + split; [|done]. intros _ h Hin. apply elem_of_list_In in Hin. split; intros Ht.
      * assert (Hx : existsb (fun h => bool_decide (t ∈ h_produced h)) (c_app c) = true) by (apply existsb_exists; exists h; split; [done|by apply bool_decide_eq_true]). congruence.
      * assert (Hx : existsb (fun h => bool_decide (t ∈ h_consumed h)) (c_app c) = true) by (apply existsb_exists; exists h; split; [done|by apply bool_decide_eq_true]). congruence.
Qed.
Lemma app_types_produced {P : Params} c t : app_types c t = Some true <-> exists h, h ∈ c_app c /\ t ∈ h_produced h.
Proof.
  unfold app_types. destruct (existsb (fun h => bool_decide (t ∈ h_produced h)) (c_app c)) eqn:E1.
  - split; [|done]. intros _. apply existsb_exists in E1 as (h & Hin & Hb). apply bool_decide_eq_true in Hb. apply elem_of_list_In in Hin. by exists h.
  - split; [by destruct (existsb (fun h => bool_decide (t ∈ h_consumed h)) (c_app c))|]. intros (h & Hin & Ht). apply elem_of_list_In in Hin.
    assert (Hx : existsb (fun h => bool_decide (t ∈ h_produced h)) (c_app c) = true) by (apply existsb_exists; exists h; split; [done|by apply bool_decide_eq_true]). congruence.
Qed.
