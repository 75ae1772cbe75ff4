(** * Proofs about the calls and the facts of one handling by a projection. *)
From Verif Require Export ProjSpec EngineFacts.

Section ProjCalls.
Context {P : Params}.

(** ** The record of calls *)
Section Stages.
Context (calls : U -> list Call).

(** How far a recording method has got. *)
Inductive Stage (A : Type) := S0 | S1 | S2 (a : A).
Arguments S0 {A}. Arguments S1 {A}. Arguments S2 {A} a.

Definition at_stage {A} (call : Call) (ret : A -> Call) (n : Stage A) (p : JProg A) : Prop :=
  match n with S0 => records calls call ret p | S1 => answers calls ret p | S2 a => p = JRet a end.
(** What is recorded until it returns [a], until it panics, or until any later
    moment. *)
Inductive Log {A} (call : Call) (ret : A -> Call) : Stage A -> A -> list Call -> Prop :=
| L0 a : Log call ret S0 a [call; ret a]
| L1 a : Log call ret S1 a [ret a]
| L2 a : Log call ret (S2 a) a [].
Inductive Open {A} (call : Call) : Stage A -> list Call -> Prop :=
| O0 : Open call S0 [call]
| O1 : Open call S1 [].
Inductive Pre {A} (call : Call) (ret : A -> Call) : Stage A -> list Call -> Prop :=
| P_nil n : Pre call ret n []
| P_open n ks : Open call n ks -> Pre call ret n ks
| P_log n a ks : Log call ret n a ks -> Pre call ret n ks.

Lemma step_act {A} call ret n f (k : U -> JProg A) :
  at_stage call ret n (JAct f k) ->
  exists n' d, (forall u, calls (f u) = calls u ++ d) /\ (forall u, at_stage call ret n' (k u)) /\
    (forall a ks, Log call ret n' a ks -> Log call ret n a (d ++ ks)) /\
    (forall ks, Open call n' ks -> Open call n (d ++ ks)) /\
    (forall ks, Pre call ret n' ks -> Pre call ret n (d ++ ks)) /\
    (forall Q : Call -> Prop, Q call -> (forall a, Q (ret a)) -> Forall Q d).
Proof.
  intros H. destruct n as [| |a0]; cbn in H.
  - destruct H as (f' & k' & [= <- <-] & Hf & Hk). exists S1, [call].
    split; [done|]. split; [done|].
    assert (Hlog : forall a ks, Log call ret S1 a ks -> Log call ret S0 a ([call] ++ ks))
      by (intros a ks Hl; inversion Hl; subst; constructor).
    assert (Hopen : forall ks, Open call (S1 : Stage A) ks -> Open call (S0 : Stage A) ([call] ++ ks))
      by (intros ks Hl; inversion Hl; subst; constructor).
    split; [done|]. split; [done|]. split; [|intros Q Q1 Q2; repeat constructor; done].
    intros ks Hp. inversion Hp as [|? ? Ho|? ? ? Hl]; subst.
    + apply P_open. constructor.
    + apply P_open. apply Hopen. done.
    + eapply P_log. apply Hlog. exact Hl.
  - inversion H as [f' k' a Hf Hk|v|f' k' Hf Hk|s k' Hk]; subst.
    + exists (S2 a), [ret a]. split; [done|]. split; [done|].
      assert (Hlog : forall a' ks, Log call ret (S2 a) a' ks -> Log call ret S1 a' ([ret a] ++ ks))
        by (intros a' ks Hl; inversion Hl; subst; constructor).
      split; [done|]. split; [intros ks Ho; inversion Ho|].
      split; [|intros Q Q1 Q2; repeat constructor; done].
      intros ks Hp. inversion Hp; subst.
      * eapply P_log. apply (L1 call ret a).
      * match goal with HH : Open _ (S2 _) _ |- _ => inversion HH end.
      * eapply P_log. apply Hlog. eassumption.
    + exists S1, []. split; [intros u; rewrite app_nil_r; done|]. split; [done|].
      split; [done|]. split; [done|]. split; [done|]. intros; constructor.
  - done.
Qed.
Lemma step_log {A} call ret n s (k : JProg A) : at_stage call ret n (JLog s k) -> at_stage call ret n k.
Proof.
  destruct n; cbn; [intros (? & ? & ? & _); done| |done]. intros H; inversion H; done.
Qed.
Lemma step_panic {A} call (ret : A -> Call) n v : at_stage call ret n (JPanic v) -> Open call n [].
Proof. destruct n; cbn; [intros (? & ? & ? & _); done|constructor|done]. Qed.
Lemma step_ret {A} call (ret : A -> Call) n a : at_stage call ret n (JRet a) -> n = S2 a.
Proof. destruct n; cbn; [intros (? & ? & ? & _); done|intros H; inversion H|congruence]. Qed.

Lemma run_calls {A} call ret n th hid ev (p : JProg A) g g' fs r :
  at_stage call ret n p -> j_run th hid ev p g = (g', fs, r) ->
  exists ks, calls (g_user g') = calls (g_user g) ++ ks /\
    match r with inl a => Log call ret n a ks | inr _ => Open call n ks end /\
    (forall Q : Call -> Prop, Q call -> (forall a, Q (ret a)) -> Forall Q ks).
Proof.
  revert n g g' fs r. induction p as [a|v|f k IH|s k IH]; intros n g g' fs r Hn; cbn.
  - intros [= <- <- <-]. apply step_ret in Hn as ->. exists []. rewrite app_nil_r.
    split; [done|]. split; [constructor|]. intros; constructor.
  - intros [= <- <- <-]. apply step_panic in Hn. exists []. rewrite app_nil_r. split; [done|].
    split; [done|]. intros; constructor.
  - intros H. destruct (step_act _ _ _ _ _ Hn) as (n' & d & Hf & Hk & Hl & Ho & _ & HQ).
    destruct (IH _ _ _ _ _ _ (Hk _) H) as (ks & Hc & Hr & HQ').
    exists (d ++ ks). cbn in Hc. rewrite Hc, Hf, <- app_assoc. split; [done|].
    split; [destruct r; auto|]. intros Q Q1 Q2. apply Forall_app. auto.
  - destruct (j_run _ _ _ k g) as [[g1 fs1] r1] eqn:E. intros [= <- <- <-].
    apply step_log in Hn. eapply IH; eassumption.
Qed.

Notation main u := (filter (fun k => ~ is_compaction k) (calls u)).
Notation comp u := (filter is_compaction (calls u)).

Lemma filter_all {Q : Call -> Prop} `{!forall k, Decision (Q k)} l : Forall Q l -> filter Q l = l.
Proof. induction 1; [done|]. rewrite filter_cons_True by done. congruence. Qed.
Lemma filter_none {Q : Call -> Prop} `{!forall k, Decision (Q k)} l : Forall (fun k => ~ Q k) l -> filter Q l = [].
Proof. induction 1; [done|]. rewrite filter_cons_False by done. congruence. Qed.

Lemma comp_step u u' ks : calls u' = calls u ++ ks -> Forall is_compaction ks -> main u' = main u /\ comp u' = comp u ++ ks.
Proof.
  intros -> H. rewrite !filter_app, (filter_all _ H). split; [|done].
  rewrite (filter_none ks), app_nil_r; [done|]. eapply Forall_impl; [exact H|]. auto.
Qed.
Lemma main_step u u' ks : calls u' = calls u ++ ks -> Forall (fun k => ~ is_compaction k) ks ->
  main u' = main u ++ ks /\ comp u' = comp u.
Proof.
  intros -> H. rewrite !filter_app, (filter_none _ H), app_nil_r. split; [|done].
  rewrite (filter_all ks); done.
Qed.

Lemma calm_run {A} th hid ev (p : JProg A) g g' fs r :
  calm p -> j_run th hid ev p g = (g', fs, r) -> exists a, r = inl a.
Proof.
  intros Hp. revert g g' fs r. induction Hp as [a|f k _ IH|s k _ IH]; intros g g' fs r; cbn.
  - intros [= <- <- <-]. eauto.
  - apply IH.
  - destruct (j_run th hid ev k g) as [[g1 fs1] r1] eqn:E. intros [= <- <- <-]. eapply IH. exact E.
Qed.

Lemma par_calls o hid ev {A B} callm (retm : A -> Call) callc (retc : B -> Call) nm nc (m : JProg A) (c : JProg B) g g' fs r :
  ~ is_compaction callm -> (forall a, ~ is_compaction (retm a)) ->
  is_compaction callc -> (forall b, is_compaction (retc b)) ->
  at_stage callm retm nm m -> at_stage callc retc nc c ->
  j_par o hid ev m c g = (g', fs, r) ->
  exists km kc, main (g_user g') = main (g_user g) ++ km /\ comp (g_user g') = comp (g_user g) ++ kc /\
    Pre callm retm nm km /\ Pre callc retc nc kc /\
    match r with
    | inl (a, b) => Log callm retm nm a km /\ Log callc retc nc b kc
    | inr v => calm c \/ (forall w, v <> PFatal w) -> Open callm nm km
    end.
Proof.
  intros Hm1 Hm2 Hc1 Hc2. revert nm nc c g g' fs r.
  induction m as [a|v|f k IH|s k IH];
    intros nm nc c; revert nc; induction c as [b|w|f' k' IH'|s' k' IH']; intros nc g g' fs r Hm Hc.
  (* HandleEvent has returned *)
  1-4: cbn -[j_run]; match goal with |- context [j_run TCompact ?x1 ?x2 ?x3 ?x4] =>
      destruct (j_run TCompact x1 x2 x3 x4) as [[g1 fs1] r1] eqn:E end;
    intros [= <- <- <-]; apply step_ret in Hm as ->;
    destruct (run_calls _ _ _ _ _ _ _ _ _ _ _ Hc E) as (ks & Hks & Hl & HQ);
    destruct (comp_step _ _ _ Hks (HQ _ Hc1 Hc2)) as [E1 E2];
    exists [], ks; rewrite app_nil_r; (split; [done|]); (split; [done|]); (split; [constructor|]);
    destruct r1 as [b1|v1]; (split; [first [eapply P_log; exact Hl|eapply P_open; exact Hl]|]);
      [split; [constructor|done]
      |intros [Hcalm|Hnf]; [destruct (calm_run _ _ _ _ _ _ _ _ Hcalm E); done|destruct (Hnf v1); done]].
  (* Compact has returned *)
  1,5,9: cbn -[j_run]; match goal with |- context [j_run TMain ?x1 ?x2 ?x3 ?x4] =>
      destruct (j_run TMain x1 x2 x3 x4) as [[g1 fs1] r1] eqn:E end;
    intros [= <- <- <-]; apply step_ret in Hc as ->;
    destruct (run_calls _ _ _ _ _ _ _ _ _ _ _ Hm E) as (ks & Hks & Hl & HQ);
    destruct (main_step _ _ _ Hks (HQ (fun k => ~ is_compaction k) Hm1 Hm2)) as [E1 E2];
    exists ks, []; rewrite app_nil_r; (split; [done|]); (split; [done|]);
    (destruct r1 as [b1|v1]; (split; [first [eapply P_log; exact Hl|eapply P_open; exact Hl]|]); (split; [constructor|]);
      [split; [done|constructor]|intros _; exact Hl]).
  (* both are running *)
  all: cbn -[j_run]; destruct (o_sched o (g_step g)).
  (* main panics *)
  all: try (intros [= <- <- <-]; apply step_panic in Hm; exists [], []; rewrite !app_nil_r;
    (split; [done|]); (split; [done|]); (split; [constructor|]); (split; [constructor|]);
    intros _; exact Hm).
  (* compact panics *)
  all: try (intros [= <- <- <-]; exists [], []; rewrite !app_nil_r;
    (split; [done|]); (split; [done|]); (split; [constructor|]); (split; [constructor|]);
    intros [Hcalm|Hnf]; [inversion Hcalm|destruct (Hnf w); done]).
  (* main logs *)
  all: try (match goal with |- (let '(_, _) := ?t in _) = _ -> _ => destruct t as [[g2 fs2] r2] eqn:E end;
    intros [= <- <- <-]; apply step_log in Hm; apply (IH _ _ _ _ _ _ _ Hm Hc E)).
  (* main acts *)
  all: try (intros H; destruct (step_act _ _ _ _ _ Hm) as (n' & d & Hf & Hk & Hl & Ho & Hp & HQ);
    destruct (IH _ _ _ _ _ _ _ _ (Hk _) Hc H) as (km & kc & E1 & E2 & Hpm & Hpc & Hr);
    destruct (main_step (g_user g) _ d (Hf (g_user g)) (HQ (fun k => ~ is_compaction k) Hm1 Hm2)) as [E3 E4];
    exists (d ++ km), kc; cbn [g_act g_user j_tick] in E1, E2; rewrite E1, E2, E3, E4, <- app_assoc;
    (split; [done|]); (split; [done|]); (split; [auto|]); (split; [done|]);
    destruct r as [[a1 b1]|v1]; [destruct Hr; split; auto|]; auto).
  (* compact logs *)
  all: try (match goal with |- (let '(_, _) := ?t in _) = _ -> _ => destruct t as [[g2 fs2] r2] eqn:E end;
    intros [= <- <- <-]; apply step_log in Hc;
    destruct (IH' _ _ _ _ _ Hm Hc E) as (km & kc & E1 & E2 & Hpm & Hpc & Hr);
    exists km, kc; (split; [done|]); (split; [done|]); (split; [done|]); (split; [done|]);
    destruct r2 as [[a1 b1]|v1]; [done|];
    intros [Hcalm|Hnf]; apply Hr; [left; inversion Hcalm; done|right; done]).
  (* compact acts *)
  all: intros H; destruct (step_act _ _ _ _ _ Hc) as (n' & d & Hf & Hk & Hl & Ho & Hp & HQ);
    destruct (IH' _ _ _ _ _ _ Hm (Hk _) H) as (km & kc & E1 & E2 & Hpm & Hpc & Hr);
    destruct (comp_step (g_user g) _ d (Hf (g_user g)) (HQ _ Hc1 Hc2)) as [E3 E4];
    exists km, (d ++ kc); cbn [g_act g_user j_tick] in E1, E2; rewrite E1, E2, E3, E4, <- app_assoc;
    (split; [done|]); (split; [done|]); (split; [done|]); (split; [auto|]);
    destruct r as [[a1 b1]|v1]; [destruct Hr; split; auto|];
    intros [Hcalm|Hnf]; apply Hr; [left; inversion Hcalm; subst; done|right; done].
Qed.

Lemma calls_of_handling o cd h j now env g g' fs r :
  recording calls j -> consumes h (m_type (e_msg env)) = true ->
  j_handle_threads o cd h j now env g = (g', fs, r) ->
  (cd = true -> calm (pj_compact j now)) \/ (forall v, r <> HPan (PFatal v)) ->
  exists ks cks ce,
    main (g_user g') = main (g_user g) ++ ks /\ comp (g_user g') = comp (g_user g) ++ cks /\
    Session (h_id h) (e_id env) (e_created env) (e_msg env) ce ks r /\
    compaction_calls cd now ks r ce cks /\
    head ks = Some (CVersion (e_id env) (pj_version j (e_id env) (g_user g)).2).
Proof.
  intros [Hver Hhan Hclo Hcom] Hcon. unfold j_handle_threads. rewrite Hcon. cbn [negb].
  destruct (pj_version j (e_id env) (g_user g)) as [u1 a1] eqn:Ev.
  pose proof (Hver _ _ _ _ Ev) as Hk1. cbn [snd].
  destruct (main_step _ _ _ Hk1) as [Em1 Ec1]; [repeat constructor; intros []|].
  assert (Hno : forall a, ~ handles_event [CVersion (e_id env) a]).
  { intros a (? & ? & ? & ? & ? & Hin). apply elem_of_list_singleton in Hin. done. }
  assert (Hshort : forall res ce, compaction_calls cd now [CVersion (e_id env) a1] res (if cd then ce else None) []).
  { intros res ce. unfold compaction_calls. destruct cd; [|done]. destruct res; [|apply prefix_nil].
    split; [|done]. intros Hh. apply Hno in Hh. done. }
  assert (Hshort' : forall res,
    (forall ce, Session (h_id h) (e_id env) (e_created env) (e_msg env) ce [CVersion (e_id env) a1] res) ->
    exists ks cks ce,
    main u1 = main (g_user g) ++ ks /\ comp u1 = comp (g_user g) ++ cks /\
    Session (h_id h) (e_id env) (e_created env) (e_msg env) ce ks res /\
    compaction_calls cd now ks res ce cks /\ head ks = Some (CVersion (e_id env) a1)).
  { intros res Hs. exists [CVersion (e_id env) a1], [], (if cd then None else None).
    rewrite app_nil_r. split; [done|]. split; [done|]. split; [apply Hs|]. split; [apply Hshort|done]. }
  destruct a1 as [[cur [e|]]|v].
  { intros [= <- <- <-] _. apply Hshort'. intros; constructor. }
  2:{ intros [= <- <- <-] _. apply Hshort'. intros; constructor. }
  destruct (decide (cur = "")) as [->|Hcur].
  2:{ intros [= <- <- <-] _. apply Hshort'. intros; constructor; done. }
  (* HandleEvent is called *)
  set (g1 := {| g_next := g_next g; g_user := u1; g_step := g_step g |}).
  set (next := String (Ascii.ascii_of_nat 1) "").
  assert (Hnext : next <> "") by done.
  set (callm := CHandle (e_id env) "" next (e_created env) (e_msg env)).
  set (retm := fun a : bool * option Err => CHandled a.1 a.2).
  set (hv := CVersion (e_id env) (inl ("", None))) in *.
  destruct (j_apply o cd h j now env g1) as [[g2 fs2] r2] eqn:Ea.
  assert (Happly : exists km kc ce,
    main (g_user g2) = main u1 ++ km /\ comp (g_user g2) = comp u1 ++ kc /\
    match r2 with
    | inl (ok, e, ce') => km = [callm; CHandled ok e] /\ ce = ce' /\
        (if cd then kc = [CCompact now; CCompacted ce] else kc = [] /\ ce = None)
    | inr v => (cd = true -> calm (pj_compact j now)) \/ (forall w, v <> PFatal w) -> km = [callm] /\
        (exists v0, v = match v0 with PRaw => PUnexpMsg (h_id h) "ProjectionMessageHandler" "HandleEvent" (e_msg env) | _ => v0 end) /\
        (if cd then kc `prefix_of` [CCompact now; CCompacted ce] else kc = [] /\ ce = None)
    end).
  { assert (Hen : forall v0, exists v1, default v0 (enrich (h_id h) "ProjectionMessageHandler" "HandleEvent" (e_msg env) (Some v0)) =
      match v1 with PRaw => PUnexpMsg (h_id h) "ProjectionMessageHandler" "HandleEvent" (e_msg env) | _ => v1 end)
      by (intros v0; exists v0; destruct v0; done).
    pose proof (Hhan (e_id env) "" next (e_created env) (e_msg env)) as Hh0.
    unfold j_apply in Ea. change (String (Ascii.ascii_of_nat 1) "") with next in Ea. destruct cd.
    - destruct (j_par _ _ _ _ _ _) as [[g3 fs3] r3] eqn:Ep.
      eapply (par_calls o (h_id h) env callm retm (CCompact now) CCompacted S0 S0) in Ep;
        [|intros []|intros ? []|exact I|intros; exact I|exact Hh0|exact (Hcom now)].
      destruct Ep as (km & kc & E1 & E2 & Hp1 & Hp2 & Hr).
      destruct r3 as [[[ok e] ce]|v].
      + injection Ea as <- <- <-. destruct Hr as [Hr1 Hr2]. exists km, kc, ce.
        split; [done|]. split; [done|]. inversion Hr1; subst. inversion Hr2; subst. done.
      + injection Ea as <- <- <-.
        assert (Hce : exists ce, kc `prefix_of` [CCompact now; CCompacted ce]).
        { inversion Hp2 as [|? ? Ho|? a ? Hl]; subst.
          - exists None. apply prefix_nil.
          - exists None. inversion Ho; subst. exists [CCompacted None]. done.
          - exists a. inversion Hl; subst. done. }
        destruct Hce as [ce Hce]. exists km, kc, ce. split; [done|]. split; [done|]. intros Hnf.
        split; [|split; [apply Hen|done]].
        assert (Hopen : Open callm (S0 : Stage (bool * option Err)) km).
        { apply Hr. destruct Hnf as [Hcalm|Hnf]; [left; auto|right]. intros w ->. destruct (Hnf w). done. }
        inversion Hopen; done.
    - destruct (j_run _ _ _ _ _) as [[g3 fs3] r3] eqn:Ep.
      eapply (run_calls callm retm S0) in Ep; [|exact Hh0].
      destruct Ep as (ks & Hks & Hl & HQ).
      destruct (main_step _ _ _ Hks (HQ (fun k => ~ is_compaction k) (fun x => x) (fun _ x => x))) as [E1 E2].
      destruct r3 as [[ok e]|v]; injection Ea as <- <- <-; exists ks, [], None; rewrite app_nil_r;
        (split; [done|]); (split; [done|]).
      + inversion Hl; subst. done.
      + intros _. inversion Hl; subst. split; [done|]. split; [apply Hen|done]. }
  clearbody next.
  destruct Happly as (km & kc & ce & E1 & E2 & Hr).
  assert (Hyes : forall rest, handles_event (hv :: callm :: rest)).
  { intros rest. do 5 eexists. right. left. }
  rewrite Em1 in E1. rewrite Ec1 in E2.
  destruct r2 as [[[ok [e|]] ce']|v].
  - destruct Hr as (-> & -> & Hcd). intros [= <- <- <-] _.
    exists [hv; callm; CHandled ok (Some e)], kc, ce'. rewrite E1, E2, <- app_assoc. split; [done|]. split; [done|].
    split; [constructor; done|]. split; [|done]. unfold compaction_calls. destruct cd; [|done]. split; [done|]. intros Hn. destruct (Hn (Hyes _)).
  - destruct Hr as (-> & -> & Hcd). destruct ok.
    + destruct (pj_close j (e_id env) (g_user g2)) as [u3 a3] eqn:Ecl.
      pose proof (Hclo _ _ _ _ Ecl) as Hk3.
      destruct (main_step _ _ _ Hk3) as [Em3 Ec3]; [repeat constructor; intros []|].
      destruct a3 as [[e|]|v]; intros [= <- <- <-] _;
        eexists ([hv; callm; CHandled true None; CClose (e_id env) _]), kc, ce'; cbn [g_user];
        rewrite Em3, Ec3, E1, E2, <- !app_assoc; (split; [reflexivity|]); (split; [done|]);
        (split; [constructor; done|]); (split; [|done]); unfold compaction_calls; (destruct cd; [|done]).
      * split; [done|]. intros Hn. destruct (Hn (Hyes _)).
      * split; [done|]. intros Hn. destruct (Hn (Hyes _)).
      * subst kc. done.
    + intros [= <- <- <-] _.
      exists [hv; callm; CHandled false None], kc, ce'. rewrite E1, E2, <- app_assoc. split; [done|]. split; [done|].
      split; [constructor; done|]. split; [|done]. unfold compaction_calls. destruct cd; [|done]. split; [done|]. intros Hn. destruct (Hn (Hyes _)).
  - intros [= <- <- <-] Hnf. destruct Hr as (-> & (v0 & Hv0) & Hcd).
    { destruct Hnf as [Hnf|Hnf]; [left; exact Hnf|right]. intros w ->. eapply Hnf. done. }
    exists [hv; callm], kc, ce. rewrite E1, E2, <- app_assoc. split; [done|]. split; [done|].
    split; [eapply ss_handle_panic; done|]. split; [|done]. unfold compaction_calls. destruct cd; done.
Qed.

Lemma C26_lemma o cd h j now env g g' fs r :
  recording calls j -> consumes h (m_type (e_msg env)) = true ->
  j_handle_threads o cd h j now env g = (g', fs, r) -> (forall v, r <> HPan (PFatal v)) ->
  exists ks cks ce,
    main (g_user g') = main (g_user g) ++ ks /\ comp (g_user g') = comp (g_user g) ++ cks /\
    Session (h_id h) (e_id env) (e_created env) (e_msg env) ce ks r /\
    compaction_calls cd now ks r ce cks.
Proof.
  intros H1 H2 H3 H4. destruct (calls_of_handling _ _ _ _ _ _ _ _ _ _ H1 H2 H3 (or_intror H4)) as (ks & cks & ce & E1 & E2 & E3 & E4 & _).
  exists ks, cks, ce. done.
Qed.
End Stages.

(** ** Facts and goroutines *)
Lemma by_thread_app th l l' : by_thread th (l ++ l') = by_thread th l ++ by_thread th l'.
Proof. unfold by_thread. rewrite omap_app. done. Qed.

Lemma run_facts {A} th hid ev (p : JProg A) g g' fs r :
  j_run th hid ev p g = (g', fs, r) ->
  Forall (fun x : Thread * Fact => x.1 = th) fs /\
  exists logs, map snd fs = map (MessageLoggedByProjection hid ev) logs /\
    match r with inl a => JPath p logs a | inr _ => True end.
Proof.
  revert g g' fs r. induction p as [a|v|f k IH|s k IH]; intros g g' fs r; cbn.
  - intros [= <- <- <-]. split; [constructor|]. exists []. split; [done|constructor].
  - intros [= <- <- <-]. split; [constructor|]. exists []. done.
  - intros H. apply IH in H as (H1 & logs & H2 & H3). split; [done|]. exists logs. split; [done|].
    destruct r; [econstructor; eassumption|done].
  - destruct (j_run _ _ _ k g) as [[g1 fs1] r1] eqn:E. intros [= <- <- <-].
    apply IH in E as (H1 & logs & H2 & H3). split; [constructor; done|].
    exists (s :: logs). cbn. rewrite H2. split; [done|]. destruct r1; [constructor; done|done].
Qed.

Lemma by_thread_same fs th : Forall (fun x : Thread * Fact => x.1 = th) fs -> by_thread th fs = map snd fs.
Proof. induction 1 as [|[t f] fs Ht _ IH]; [done|]. cbn in *. subst. rewrite <- IH. destruct th; done. Qed.
Lemma by_thread_other fs th th' : th <> th' -> Forall (fun x : Thread * Fact => x.1 = th) fs -> by_thread th' fs = [].
Proof. intros Hne. induction 1 as [|[t f] fs Ht _ IH]; [done|]. cbn in *. subst. rewrite <- IH. destruct th, th'; done. Qed.

Lemma par_facts o hid ev {A B} (m : JProg A) (c : JProg B) g g' fs r :
  j_par o hid ev m c g = (g', fs, r) ->
  exists lm lc,
    by_thread TMain fs = map (MessageLoggedByProjection hid (Some ev)) lm /\
    by_thread TCompact fs = map (MessageLoggedByProjection hid None) lc /\
    match r with inl (a, b) => JPath m lm a /\ JPath c lc b | inr _ => True end.
Proof.
  revert c g g' fs r.
  induction m as [a|v|f k IH|s k IH];
    intros c; induction c as [b|w|f' k' IH'|s' k' IH']; intros g g' fs r.
  1-4: cbn -[j_run]; match goal with |- context [j_run TCompact ?x1 ?x2 ?x3 ?x4] =>
      destruct (j_run TCompact x1 x2 x3 x4) as [[g1 fs1] r1] eqn:E end;
    intros [= <- <- <-]; apply run_facts in E as (H1 & logs & H2 & H3);
    exists [], logs; rewrite (by_thread_same fs1 TCompact H1), (by_thread_other fs1 TCompact TMain) by done;
    (split; [done|]); (split; [done|]); destruct r1; [split; [constructor|done]|done].
  1,5,9: cbn -[j_run]; match goal with |- context [j_run TMain ?x1 ?x2 ?x3 ?x4] =>
      destruct (j_run TMain x1 x2 x3 x4) as [[g1 fs1] r1] eqn:E end;
    intros [= <- <- <-]; apply run_facts in E as (H1 & logs & H2 & H3);
    exists logs, []; rewrite (by_thread_same fs1 TMain H1), (by_thread_other fs1 TMain TCompact) by done;
    (split; [done|]); (split; [done|]); (destruct r1; [split; [done|constructor]|done]).
  all: cbn -[j_run]; destruct (o_sched o (g_step g)).
  all: try (intros [= <- <- <-]; exists [], []; done).
  all: try (intros H; apply IH in H as (lm & lc & H1 & H2 & H3); exists lm, lc; (split; [done|]); (split; [done|]);
    destruct r as [[a1 b1]|]; [|done]; destruct H3; split; [econstructor; eassumption|done]).
  all: try (intros H; apply IH' in H as (lm & lc & H1 & H2 & H3); exists lm, lc; (split; [done|]); (split; [done|]);
    destruct r as [[a1 b1]|]; [|done]; destruct H3; split; [done|econstructor; eassumption]).
  all: match goal with |- (let '(_, _) := ?t in _) = _ -> _ => destruct t as [[g2 fs2] r2] eqn:E end;
    intros [= <- <- <-].
  all: try (apply IH in E as (lm & lc & H1 & H2 & H3); exists (s :: lm), lc; cbn;
    change (omap _ fs2) with (by_thread TMain fs2) at 1;
    (split; [f_equal; exact H1|]); (split; [exact H2|]);
    destruct r2 as [[a1 b1]|]; [|done]; destruct H3; split; [constructor; done|done]).
  all: apply IH' in E as (lm & lc & H1 & H2 & H3); exists lm, (s' :: lc); cbn;
    (split; [exact H1|]); (split; [f_equal; exact H2|]);
    destruct r2 as [[a1 b1]|]; [|done]; destruct H3; split; [done|constructor; done].
Qed.

Lemma C28_lemma o h j now env g g' fs r u1 :
  consumes h (m_type (e_msg env)) = true ->
  pj_version j (e_id env) (g_user g) = (u1, inl ("", None)) ->
  j_handle_threads o true h j now env g = (g', fs, r) ->
  exists mid tail lm lc,
    fs = (TMain, ProjectionCompactionBegun (h_id h)) :: mid ++ tail /\
    by_thread TMain mid = map (MessageLoggedByProjection (h_id h) (Some env)) lm /\
    by_thread TCompact mid = map (MessageLoggedByProjection (h_id h) None) lc /\
    ((exists v, r = HPan v /\ tail = []) \/
     exists ok e ce next, tail = [(TMain, ProjectionCompactionCompleted (h_id h) ce)] /\
       JPath (pj_handle j (e_id env) "" next (e_created env) (e_msg env)) lm (ok, e) /\
       JPath (pj_compact j now) lc ce).
Proof.
  intros Hcon Hv. unfold j_handle_threads. rewrite Hcon, Hv. cbn [negb]. rewrite decide_True by done.
  unfold j_apply.
  destruct (j_par _ _ _ _ _ _) as [[g3 fs3] r3] eqn:Ep.
  apply par_facts in Ep as (lm & lc & H1 & H2 & H3).
  destruct r3 as [[[ok e] ce]|v].
  - destruct H3 as [H3 H4]. intros H.
    assert (Hfs : fs = (TMain, ProjectionCompactionBegun (h_id h)) :: fs3 ++ [(TMain, ProjectionCompactionCompleted (h_id h) ce)]).
    { destruct e as [e|]; [injection H; done|]. destruct ok; [|injection H; done].
      destruct (pj_close _ _ _) as [u3 [[e|]|v]]; injection H; done. }
    exists fs3, [(TMain, ProjectionCompactionCompleted (h_id h) ce)], lm, lc. split; [done|]. split; [done|]. split; [done|].
    right. eauto 10.
  - intros [= <- <- <-]. exists fs3, [], lm, lc. rewrite app_nil_r. split; [done|]. split; [done|]. split; [done|]. left. eauto.
Qed.

Lemma silent_path {A} (p : JProg A) g g' fs r th hid ev : silent p -> j_run th hid ev p g = (g', fs, r) -> fs = [].
Proof.
  intros Hs. revert g g' fs r. induction Hs as [a|v|f k Hk IH]; intros g g' fs r; cbn; [intros [= <- <- <-]; done..|].
  apply IH.
Qed.

Lemma silent_par o hid ev {A B} (m : JProg A) (c : JProg B) g g' fs r :
  silent c -> j_par o hid ev m c g = (g', fs, r) -> Forall (fun x : Thread * Fact => x.1 = TMain) fs.
Proof.
  intros Hs. revert c Hs g g' fs r.
  induction m as [a|v|f k IH|s k IH]; intros c Hs; induction Hs as [b|w|f' k' Hk IH']; intros g g' fs r.
  1-3: cbn -[j_run]; match goal with |- context [j_run TCompact ?x1 ?x2 ?x3 ?x4] =>
      destruct (j_run TCompact x1 x2 x3 x4) as [[g1 fs1] r1] eqn:E end;
    intros [= <- <- <-]; apply silent_path in E; [subst; constructor|constructor; done].
  1,4,7: cbn -[j_run]; match goal with |- context [j_run TMain ?x1 ?x2 ?x3 ?x4] =>
      destruct (j_run TMain x1 x2 x3 x4) as [[g1 fs1] r1] eqn:E end;
    intros [= <- <- <-]; apply run_facts in E as (H1 & _); done.
  all: cbn -[j_run]; destruct (o_sched o (g_step g)).
  all: try (intros [= <- <- <-]; constructor).
  all: try (intros H; eapply IH; [|exact H]; constructor; done).
  all: try (intros H; eapply IH'; exact H).
  all: match goal with |- (let '(_, _) := ?t in _) = _ -> _ => destruct t as [[g2 fs2] r2] eqn:E end;
    intros [= <- <- <-]; constructor; [done|]; eapply IH; [|exact E]; constructor; done.
Qed.

Lemma C27_lemma o cd h j now env g g' fs r :
  j_handle_threads o cd h j now env g = (g', fs, r) ->
  (forall f, (TCompact, f) ∈ fs -> cd = true /\ exists s, f = MessageLoggedByProjection (h_id h) None s) /\
  (cd = false \/ silent (pj_compact j now) -> forall th f, (th, f) ∈ fs -> th = TMain).
Proof.
  intros H.
  assert (Hfs : fs = [] \/ exists g1 g2 r2, j_apply o cd h j now env g1 = (g2, fs, r2)).
  { revert H. unfold j_handle_threads. destruct (negb _); [intros [= <- <- <-]; auto|].
    destruct (pj_version _ _ _) as [u [[cur [e|]]|v]]; [intros [= <- <- <-]; auto| |intros [= <- <- <-]; auto].
    destruct (decide _); [|intros [= <- <- <-]; auto].
    destruct (j_apply _ _ _ _ _ _ _) as [[g2 fs2] r2] eqn:E. intros H. right. eexists _, g2, r2.
    rewrite E. f_equal. f_equal.
    destruct r2 as [[[ok [e1|]] ce]|v]; try (injection H; done).
    destruct ok; [|injection H; done]. destruct (pj_close _ _ _) as [u' [[e1|]|v]]; injection H; done. }
  destruct Hfs as [->|(g1 & g2 & r2 & E)]; [split; intros; set_solver|].
  unfold j_apply in E. destruct cd.
  - destruct (j_par _ _ _ _ _ _) as [[g3 fs3] r3] eqn:Ep.
    assert (Hin : forall th f, (th, f) ∈ fs -> (th, f) ∈ fs3 \/ th = TMain).
    { intros th f Hf. destruct r3 as [[[ok e] ce]|v]; injection E as <- <- <-;
        apply elem_of_cons in Hf as [[= -> _]|Hf]; auto.
      apply elem_of_app in Hf as [Hf|Hf]; [auto|]. apply elem_of_list_singleton in Hf as [= -> _]. auto. }
    split.
    + intros f Hf. split; [done|]. destruct (Hin _ _ Hf) as [Hf'|?]; [|done].
      apply par_facts in Ep as (lm & lc & H1 & H2 & _).
      assert (Hb : f ∈ by_thread TCompact fs3).
      { unfold by_thread. apply elem_of_list_omap. eexists. split; [exact Hf'|done]. }
      rewrite H2 in Hb. apply elem_of_list_fmap in Hb as (s & -> & _). eauto.
    + intros [?|Hs] th f Hf; [done|]. destruct (Hin _ _ Hf) as [Hf'|?]; [|done].
      apply silent_par in Ep; [|done]. rewrite Forall_forall in Ep. apply (Ep _ Hf').
  - destruct (j_run _ _ _ _ _) as [[g3 fs3] r3] eqn:Ep. apply run_facts in Ep as (Hth & _).
    assert (fs = fs3) as -> by (destruct r3 as [[ok e]|v]; injection E; done).
    rewrite Forall_forall in Hth. split.
    + intros f Hf. specialize (Hth _ Hf). done.
    + intros _ th f Hf. specialize (Hth _ Hf). done.
Qed.
End ProjCalls.
