(** * Concurrent use of an engine and of a buffer: C40, C41, C71, C77 *)
From Verif Require Import ConcSpec ConcLemmas ConcDemo BufferSpec BufferLemmas BufferDemo.

Section PropsConc.
Context {S F E : Type}.

(** C40.  Any number of goroutines make any calls of Dispatch, Tick and Reset, under
    any schedule.  Whoever accesses the controllers (or resets the IDs) holds the
    mutex, which is locked by at most one call at a time and unlocked by the same
    call; between two accesses by one call there is none by another call. *)
Theorem C40_mutual_exclusion n (s : S) (calls : list (list (Call S F E))) tr y :
  runs (sys_init n s calls) tr y ->
  (forall pre o l post, tr = pre ++ (o, l) :: post ->
     (guarded l -> holder pre = Some o) /\
     (l = LLock -> holder pre = None) /\ (l = LUnlock -> holder pre = Some o)) /\
  (forall pre o x mid x' post o' z, tr = pre ++ (o, x) :: mid ++ (o, x') :: post ->
     guarded x -> guarded x' -> (o', z) ∈ mid -> guarded z -> o' = o).
Proof.
  intros H. split.
  - intros pre o l post Htr. destruct (runs_step_holder _ _ _ _ _ _ _ _ _ H Htr) as (H1 & H2 & H3).
    split; [done|]. split; [|done]. intros Hl. by destruct (H3 Hl).
  - intros pre o x mid x' post o' z Htr. eapply C40_contiguous_lemma; done.
Qed.

(** Hence, whenever nobody holds the mutex, the state of the controllers is the one
    that results if the calls that locked it had been made one after the other, in
    the order in which they locked it; each of them did just what it would have done
    alone, apart from the IDs it was given. *)
Theorem C40_serialised n (s : S) (calls : list (list (Call S F E))) tr y :
  runs (sys_init n s calls) tr y -> holder tr = None ->
  Serially calls tr s (sections tr) (sy_state y) /\ NoDup (sections tr).*1.
Proof.
  intros H Hh. split; [by destruct (iv_free _ _ _ _ (runs_inv _ _ _ _ _ H) Hh)|].
  clear Hh. revert y H. induction tr as [|[o l] tr IH] using rev_ind; intros y H; [constructor|].
  pose proof (runs_step_holder _ _ _ _ _ tr o l [] H eq_refl) as (_ & _ & Hl).
  apply runs_snoc_inv in H as (y1 & H & _). specialize (IH _ H). rewrite sections_snoc.
  assert (Ho : l <> LLock -> NoDup (add_step (o, l) (sections tr)).*1) by (intros Hne; by rewrite add_step_fst).
  destruct l; try (apply Ho; done). cbn. rewrite fmap_app. apply NoDup_app. split; [done|]. cbn.
  split; [|apply NoDup_singleton]. intros o' Hin Hx. apply elem_of_list_singleton in Hx. subst o'.
  apply locked_sections in Hin. by destruct (Hl eq_refl).
Qed.

(** C41.  As long as the IDs are not reset (and there are fewer than 2^64 of them)
    the IDs allocated by all goroutines together are different. *)
Theorem C41_ids_are_distinct n (s : S) (calls : list (list (Call S F E))) before since y :
  runs (sys_init n s calls) (before ++ since) y -> (forall o, (o, LZero) ∉ since) ->
  (sy_ctr y < 2 ^ 64)%N -> NoDup (allocated since).
Proof. apply C41_distinct_lemma. Qed.

(** C77.  There is no deadlock and no schedule goes on for ever, so that all calls
    end. *)
Theorem C77_calls_end n (s : S) (calls : list (list (Call S F E))) :
  (forall tr y, runs (sys_init n s calls) tr y -> finished y \/ exists e y', step y e y') /\
  ~ exists y : nat -> Sys S F E, y 0 = sys_init n s calls /\ forall k, exists e, step (y k) e (y (1 + k)).
Proof.
  split.
  - intros tr y. apply C77_progress_lemma.
  - intros (y & _ & H). by apply (C77_finite_lemma y).
Qed.
End PropsConc.

(** C41: with a Reset in between, two messages with the same ID are handled after
    it. *)
Theorem C41_refuted :
  exists (S F E : Type) n (s : S) (calls : list (list (Call S F E))) tr y or o1 o2 lr l1 l2 id body d1 d2,
    runs (sys_init n s calls) tr y /\ finished y /\
    sections tr = [(or, lr); (o1, l1); (o2, l2)] /\
    call_at calls or = Some (KReset body) /\
    call_at calls o1 = Some d1 /\ call_at calls o2 = Some d2 /\ (exists c b bd cm, d1 = KDispatch c b bd cm) /\ (exists c b bd cm, d2 = KDispatch c b bd cm) /\
    own_id o1 tr = Some id /\ own_id o2 tr = Some id /\ LAccess ∈ l1 /\ LAccess ∈ l2.
Proof.
  destruct (exec reset_sched [] (sys_init 0 [] reset_calls)) as [[tr y]|] eqn:He; [|vm_compute in He; discriminate].
  exists (list string), string, string, 0%N, [], reset_calls, tr, y.
  pose proof (exec_ok _ _ _ _ _ _ (runs_nil _) He) as Hr. vm_compute in He. injection He as <- <-.
  exists (1, 0), (1, 1), (0, 0). eexists _, _, _, "1", _, demo_dispatch, demo_dispatch. split; [exact Hr|]. clear Hr.
  split; [repeat constructor|]. split; [vm_compute; reflexivity|].
  split; [reflexivity|]. split; [reflexivity|]. split; [reflexivity|].
  split; [eexists _, _, _, _; reflexivity|]. split; [eexists _, _, _, _; reflexivity|].
  split; [vm_compute; reflexivity|]. split; [vm_compute; reflexivity|].
  split; left.
Qed.

Section PropsBuffer.
Context {F : Type}.

(** C71.  Under any schedule of any number of goroutines that call Notify and Facts,
    and of users who write into the slices that Facts returned, each call takes
    effect at one moment between its beginning and its end. *)
Theorem C71_linearizable (calls : list (list (BCall F))) tr y :
  bruns (buf_init calls) tr y -> exists log, linearizable tr log.
Proof. intros H. destruct (bruns_inv _ _ _ H) as (es & L & m & Hi & Hs). exists L, es, m. split; [by destruct Hi|done]. Qed.

(** Hence each result of Facts is a prefix of one sequence of notified facts, which
    consists of all of them once all calls have ended. *)
Theorem C71_results_are_prefixes (calls : list (list (BCall F))) tr y :
  bruns (buf_init calls) tr y -> exists log,
    (forall o l, ERet o (RFacts l) ∈ tr -> exists p, p `prefix_of` log /\ l = Some <$> p) /\
    log ⊆+ notified tr /\ (at_rest y -> log ≡ₚ notified tr).
Proof.
  intros H. destruct (bruns_inv _ _ _ H) as (es & L & m & Hi & Hs). exists L.
  pose proof (bi_log _ _ _ _ Hi) as Hl. destruct (log_results _ _ _ Hl) as [_ Hr]. pose proof (log_accounts _ _ _ Hl) as Ha. rewrite Hs in Ha.
  split; [|split].
  - intros o l Hin. apply (Hr o). rewrite <- Hs in Hin. unfold seen in Hin. apply elem_of_list_omap in Hin as ([e|] & Hin & He); [|done].
    by injection He as ->.
  - rewrite <- Ha. apply submseteq_inserts_r. done.
  - intros Hrest. rewrite (at_rest_empty _ _ _ _ Hi Hrest) in Ha. unfold waiting in Ha. rewrite map_to_list_empty in Ha. cbn in Ha.
    rewrite app_nil_r in Ha. done.
Qed.

(** Successive results grow. *)
Theorem C71_results_grow (calls : list (list (BCall F))) tr y a o1 l1 b o2 c l2 d :
  bruns (buf_init calls) tr y ->
  tr = a ++ ERet o1 (RFacts l1) :: b ++ ECall o2 CFacts :: c ++ ERet o2 (RFacts l2) :: d ->
  l1 `prefix_of` l2.
Proof.
  intros H Htr. destruct (bruns_inv _ _ _ H) as (es & L & m & Hi & Hs). pose proof (bi_log _ _ _ _ Hi) as Hl. rewrite Htr in Hs.
  apply seen_split in Hs as (E1 & E2 & -> & _ & Hs). apply seen_split in Hs as (E3 & E4 & -> & _ & Hs).
  apply seen_split in Hs as (E5 & E6 & -> & _ & _).
  rewrite app_comm_cons, app_assoc in Hl. apply log_grows in Hl as (log1 & m1 & H1 & _ & H2).
  destruct (log_results _ _ _ H1) as [_ Hr]. destruct (Hr o1 l1) as (p & Hp & ->); [set_solver|].
  etrans; [|apply H2; set_solver]. destruct Hp as [k ->]. rewrite fmap_app. by apply prefix_app_r.
Qed.
(** What was notified before is there. *)
Theorem C71_nothing_is_missed (calls : list (list (BCall F))) tr y a o1 f b c o2 d l e :
  bruns (buf_init calls) tr y ->
  tr = a ++ ECall o1 (CNotify f) :: b ++ ERet o1 RNotify :: c ++ ECall o2 CFacts :: d ++ ERet o2 (RFacts l) :: e ->
  Some f ∈ l.
Proof.
  intros H Htr. destruct (bruns_inv _ _ _ H) as (es & L & m & Hi & Hs). pose proof (bi_log _ _ _ _ Hi) as Hl. rewrite Htr in Hs.
  apply seen_split in Hs as (E1 & E2 & -> & _ & Hs). apply seen_split in Hs as (E3 & E4 & -> & _ & Hs).
  apply seen_split in Hs as (E5 & E6 & -> & _ & Hs). apply seen_split in Hs as (E7 & E8 & -> & _ & _).
  set (X := E1 ++ Seen (ECall o1 (CNotify f)) :: E3 ++ [Seen (ERet o1 RNotify)]).
  replace (E1 ++ _) with ((X ++ E5) ++ Seen (ECall o2 CFacts) :: (E7 ++ Seen (ERet o2 (RFacts l)) :: E8)) in Hl.
  - apply log_grows in Hl as (log1 & m1 & H1 & _ & H2). assert (Hf : f ∈ log1).
    { destruct (log_app_inv _ _ _ _ H1) as (log0 & m0 & H0 & [k ->]). apply elem_of_app. left.
      destruct (log_notified _ _ _ H0 o1 f) as [Hw|]; [subst X; set_solver| |done]. exfalso.
      subst X. rewrite app_comm_cons, app_assoc in H0. apply log_snoc_inv in H0 as (log' & m' & _ & _ & _ & _ & ->).
      by rewrite lookup_delete in Hw. }
    destruct (H2 l) as [k ->]; [set_solver|]. apply elem_of_app. left. by apply elem_of_list_fmap_1.
  - subst X. rewrite <- !app_assoc. cbn. rewrite <- !app_assoc. done.
Qed.
End PropsBuffer.

Print Assumptions C40_mutual_exclusion.
Print Assumptions C40_serialised.
Print Assumptions C41_ids_are_distinct.
Print Assumptions C41_refuted.
Print Assumptions C71_linearizable.
Print Assumptions C71_results_are_prefixes.
Print Assumptions C71_results_grow.
Print Assumptions C71_nothing_is_missed.
Print Assumptions C77_calls_end.

(** ** The hypotheses can be met *)

(** Two overlapping calls of Dispatch, a Tick that is given up while another call
    holds the mutex, a Tick and a Reset. *)
Example C40_C41_example : exists tr y, runs (sys_init 0 [] demo_calls) tr y /\ finished y /\ holder tr = None /\
  allocated tr = ["1"; "2"; "3"; "4"] /\
  sections tr = [((1, 0), [LAccess; LNotify "handled 2"; LNext "3"; LAccess; LNotify "dispatched 2"]);
                 ((0, 0), [LAccess; LNotify "handled 1"; LNext "4"; LAccess; LNotify "dispatched 1"]);
                 ((2, 1), [LAccess; LNotify "ticked "]); ((1, 1), [LZero; LAccess])].
Proof.
  destruct (exec demo_sched' [] (sys_init 0 [] demo_calls)) as [[tr y]|] eqn:He; [|vm_compute in He; discriminate].
  exists tr, y. pose proof (exec_ok _ _ _ _ _ _ (runs_nil _) He) as Hr. vm_compute in He. injection He as <- <-.
  split; [exact Hr|]. clear Hr. split; [repeat constructor|]. split; [reflexivity|]. split; vm_compute; reflexivity.
Qed.

(** Facts is called while a fact is being added, and again later; in between its
    first result is overwritten by its user. *)
Example C71_example : exists y, bruns (buf_init buf_calls)
    [ECall (0, 0) (CNotify 7); ERet (0, 0) RNotify; ECall (0, 1) (CNotify 8); ECall (1, 0) CFacts; ERet (0, 1) RNotify;
     ECall (0, 2) (CNotify 9); ERet (1, 0) (RFacts [Some 7; Some 8]); ECall (1, 1) CFacts; ERet (0, 2) RNotify;
     ERet (1, 1) (RFacts [Some 7; Some 8; Some 9])] y /\ at_rest y /\
  2 ∈ bs_given y /\ bs_heap y !! 2 = Some [Some 99; Some 8].
Proof.
  destruct (bexec buf_sched [] (buf_init buf_calls)) as [[tr y]|] eqn:He; [|vm_compute in He; discriminate].
  exists y. pose proof (bexec_ok _ _ _ _ _ _ (br_nil _) He) as Hr.
  assert (Ht : tr = (default ([], buf_init []) (bexec buf_sched [] (buf_init buf_calls))).1) by (rewrite He; reflexivity).
  assert (Hy : y = (default ([], buf_init []) (bexec buf_sched [] (buf_init buf_calls))).2) by (rewrite He; reflexivity).
  clear He. vm_compute in Ht. subst tr. split; [exact Hr|]. clear Hr. rewrite Hy. clear y Hy.
  split; [|split].
  - unfold at_rest. match goal with |- Forall _ ?l => let v := eval vm_compute in l in change l with v end. repeat constructor.
  - match goal with |- 2 ∈ ?l => let v := eval vm_compute in l in change l with v end. set_solver.
  - vm_compute. reflexivity.
Qed.
