(** * Proofs about aggregate instances. *)
From Verif Require Import AggSpec HistSim.

Section AggProof.
Context {P : Params} (c : Config) (Hok : app_ok c).

Lemma agg_view_snoc x f : agg_view (x ++ [f]) = agg_step (agg_view x) f.
Proof. unfold agg_view. rewrite foldl_snoc. done. Qed.

Lemma a_replay_Replay h a r evs r' : a_replay h a r evs = (r', None) -> Replay a r evs r'.
Proof.
  revert r; induction evs as [|ev evs IH]; intros r; cbn.
  - intros [= ->]. constructor.
  - destruct (ag_apply a r (e_msg ev)) as [r1 v] eqn:E.
    destruct (enrich _ _ _ _ v) eqn:Ee; [done|]. apply enrich_none in Ee as ->.
    intros H. econstructor; [exact E|]. apply IH. exact H.
Qed.

Lemma Replay_snoc a r evs r1 ev r2 :
  Replay a r evs r1 -> ag_apply a r1 (e_msg ev) = (r2, None) -> Replay a r (evs ++ [ev]) r2.
Proof.
  induction 1 as [|r ev' r' evs r1 H1 _ IH]; intros H; cbn.
  - econstructor; [exact H|constructor].
  - econstructor; [exact H1|]. apply IH. exact H.
Qed.

(** Facts that leave the stored histories alone. *)
Lemma stored_snoc x f :
  (forall h e, f <> HandlingCompleted h e None) -> stored (x ++ [f]) = stored x.
Proof.
  intros H. unfold stored. rewrite agg_view_snoc.
  destruct f; try done. destruct err as [err|]; [done|]. destruct (H h e). done.
Qed.

(** Facts about other handler types and the engine's facts do not affect the
    command in progress. *)
Lemma view_owned x f t h : fact_owner f = Some (t, h) -> t <> HTAggregate -> agg_view (x ++ [f]) = agg_view x.
Proof. intros H Ht. rewrite agg_view_snoc. destruct f; cbn in H; try done; injection H as <- <-; done. Qed.

Lemma view_owneds x fs t h :
  Forall (owned t h) fs -> t <> HTAggregate -> agg_view (x ++ fs) = agg_view x.
Proof.
  intros Hf Ht. induction fs as [|f fs IH] using rev_ind; [rewrite app_nil_r; done|].
  apply Forall_app in Hf as [H1 H2]. apply Forall_cons in H2 as [H2 _].
  rewrite app_assoc, (view_owned _ _ _ _ H2 Ht). apply IH. done.
Qed.

(** ** Checks *)
Definition well_behaved (h : HId) : Prop :=
  forall a, aggregate_of c h a -> forall i m, no_recover (ag_handle a i m) /\ no_mutation (ag_handle a i m).
Definition non_recovering (h : HId) : Prop :=
  forall a, aggregate_of c h a -> forall i m, no_recover (ag_handle a i m).

Definition agg_check (x : list Fact) (f : Fact) : Prop :=
  (forall h i r e, f = AggregateInstanceLoaded h i r e ->
     exists a r0 evs, aggregate_of c h a /\ ag_new a = Some r0 /\ stored x h i = Some evs /\ Replay a r0 evs r /\
       ag_route a (e_msg e) = inl i /\ (non_recovering h -> evs <> [])) /\
  (forall h i e, f = AggregateInstanceNotFound h i e ->
     exists a, aggregate_of c h a /\ stored x h i = None /\ ag_route a (e_msg e) = inl i) /\
  (forall h r, reported_root f = Some (h, r) -> well_behaved h ->
     exists p a r0, pending_cmd (x ++ [f]) = Some p /\ ap_h p = h /\ aggregate_of c h a /\ ag_new a = Some r0 /\
       Replay a r0 (default (ap_events p) (ap_since p)) r) /\
  (forall h i, scope_instance f = Some (h, i) ->
     exists p, pending_cmd x = Some p /\ ap_h p = h /\ ap_i p = i).

Lemma check_trivial x f : reported_root f = None -> (forall h i e, f <> AggregateInstanceNotFound h i e) -> agg_check x f.
Proof.
  intros H1 H2. split; [intros ? ? ? ? ->; done|]. split; [intros ? ? ? ->; edestruct H2; done|].
  split; [intros h r H; congruence|]. intros h i H. destruct f; done.
Qed.

Lemma check_owned x f t h : fact_owner f = Some (t, h) -> t <> HTAggregate -> agg_check x f.
Proof.
  intros H Ht. apply check_trivial; destruct f; cbn in *; try done; injection H as <- <-; done.
Qed.

Definition stores (cs : gmap string CState) (st : HId -> string -> option (list Env)) : Prop :=
  forall hd hist, hd ∈ c_app c -> cs !! h_name hd = Some (CSAgg hist) ->
    (forall i, st (h_id hd) i = hist !! i) /\
    (non_recovering (h_id hd) -> forall i, hist !! i <> Some []).

Definition AR (oo : option OOs) (cs : gmap string CState) (x : list Fact) : Prop := stores cs (stored x).

(** ** Running a command *)

(** The scope and the command in progress, as seen in the facts. *)
Definition mirrors (h : Handler) (i : string) (base : list Env) (s : AScope) (x : list Fact) : Prop :=
  exists p, pending_cmd x = Some p /\ ap_h p = h_id h /\ ap_i p = i /\
    ap_events p = base ++ as_events s /\ ap_exists p = as_exists s /\
    (as_own s = None <-> ap_since p = None).

Definition IM (h : Handler) (i : string) (base : list Env) (g : GState) (s : AScope) (x : list Fact) : Prop :=
  mirrors h i base s x.

Lemma as_set_root_same s r :
  as_events (as_set_root s r) = as_events s /\ as_exists (as_set_root s r) = as_exists s /\
  as_destroyed (as_set_root s r) = as_destroyed s /\ (as_own (as_set_root s r) = None <-> as_own s = None).
Proof. unfold as_set_root. destruct (as_own s) eqn:E; cbn; rewrite ?E; done. Qed.

Lemma pending_snoc x f p :
  pending_cmd x = Some p -> pending_cmd (x ++ [f]) = av_pend (agg_step (agg_view x) f).
Proof. intros _. unfold pending_cmd. rewrite agg_view_snoc. done. Qed.

(** Scope facts belong to the command in progress. *)
Definition scope_check (x : list Fact) (f : Fact) : Prop :=
  forall h i, scope_instance f = Some (h, i) ->
    exists p, pending_cmd x = Some p /\ ap_h p = h /\ ap_i p = i.

Lemma IM_ok o h a now cmd i base :
  AOK scope_check snoc o h a now cmd i (IM h i base).
Proof.
  assert (Hsc : forall s x f, mirrors h i base s x -> scope_instance f = Some (h_id h, i) -> scope_check x f).
  { intros s x f (p & H1 & H2 & H3 & _) Hf h' i' Hf'. rewrite Hf in Hf'. injection Hf' as <- <-. eauto. }
  constructor.
  - done.
  - intros f g s x (p & H). exists p. exact H.
  - intros g s x b HM Hex _ _ f.
    split; [eapply Hsc; [exact HM|]; subst f; destruct (as_destroyed s); done|].
    destruct HM as (p & H1 & H2 & H3 & H4 & H5 & H6).
    exists (mkAPend (h_id h) i (ap_events p) true (ap_since p)). unfold snoc.
    rewrite (pending_snoc _ _ _ H1). unfold pending_cmd in H1.
    split; [subst f; destruct (as_destroyed s); cbn -[agg_view]; rewrite H1; cbn; rewrite decide_True; done|]. cbn.
    split; [done|]. split; [done|]. split; [done|]. split; [done|]. exact H6.
  - intros g s x b r v (p & H) _ _. exists p. destruct (as_set_root_same s r) as (H1 & H2 & H3 & H4).
    rewrite H1, H2, H4. exact H.
  - intros g s x b r g' mid HM Hex _ _ _ _ f. split; [eapply Hsc; [exact HM|done]|].
    destruct HM as (p & H1 & H2 & H3 & H4 & H5 & H6).
    exists (mkAPend (h_id h) i (ap_events p ++ [a_ev h now cmd i mid b]) true ((.++ [a_ev h now cmd i mid b]) <$> ap_since p)).
    unfold snoc. rewrite (pending_snoc _ _ _ H1). unfold pending_cmd in H1. cbn -[agg_view]. rewrite H1. cbn.
    rewrite decide_True by done.
    destruct (as_set_root_same s r) as (H1' & H2' & H3' & H4').
    split; [done|]. cbn. rewrite H1', H2', H4', H4, Hex, app_assoc, H6. destruct (ap_since p); done.
  - intros g s x HM Hex r f. split; [eapply Hsc; [exact HM|done]|].
    destruct HM as (p & H1 & H2 & H3 & H4 & H5 & H6).
    exists (mkAPend (h_id h) i (ap_events p) false (Some [])).
    unfold snoc. rewrite (pending_snoc _ _ _ H1). unfold pending_cmd in H1. cbn -[agg_view]. rewrite H1. cbn.
    rewrite decide_True by done. split; [done|]. cbn. done.
  - intros g s x str HM f. split; [eapply Hsc; [exact HM|done]|].
    destruct HM as (p & H). exists p. unfold snoc.
    destruct H as (H1 & H). rewrite (pending_snoc _ _ _ H1). split; [exact H1|exact H].
Qed.

(** Facts of a program keep the stored histories. *)
Lemma stored_owneds x fs t h : Forall (owned t h) fs -> stored (x ++ fs) = stored x.
Proof.
  intros Hf. induction fs as [|f fs IH] using rev_ind; [rewrite app_nil_r; done|].
  apply Forall_app in Hf as [H1 H2]. apply Forall_cons in H2 as [H2 _].
  rewrite app_assoc, stored_snoc; [apply IH; done|]. intros ? ? ->. done.
Qed.

(** Existing instances have events. *)
Lemma a_record_events o h a now cmd id b g s g' s' fs v :
  a_record o h a now cmd id b g s = (g', s', fs, v) ->
  v <> None \/ as_events s' <> [].
Proof.
  unfold a_record. destruct (negb _); [intros [= <- <- <- <-]; left; done|].
  destruct (m_invalid _); [intros [= <- <- <- <-]; left; done|].
  destruct (as_exists s).
  all: match goal with |- context [ag_apply ?a ?r ?m] => destruct (ag_apply a r m) as [r' w] end.
  all: destruct (enrich _ _ _ _ w); [intros [= <- <- <- <-]; left; done|].
  all: destruct (next_id o g); intros [= <- <- <- <-]; right; cbn; destruct (as_events _); done.
Qed.

Lemma a_run_events o h a now cmd id p g s g' s' fs :
  no_recover p -> a_run o h a now cmd id p g s = (g', s', fs, None) ->
  (as_exists s' = true -> as_exists s = true \/ as_events s' <> []) /\
  (as_events s <> [] -> as_events s' <> []).
Proof.
  intros Hnr. revert g s g' s' fs.
  induction Hnr as [|v|f k Hk IH|f k Hk IH|b k Hk IH Hp|k Hk IH|str k Hk IH]; intros g s g' s' fs; cbn.
  - intros [= <- <- <-]. auto.
  - intros [= <- <- <-].
  - apply IH.
  - intros H. apply IH in H. exact H.
  - destruct (a_record _ _ _ _ _ _ _ _ _) as [[[g1 s1] fs1] v1] eqn:E1.
    destruct (a_run _ _ _ _ _ _ _ _ _) as [[[g2 s2] fs2] v2] eqn:E2.
    intros [= <- <- <- ->]. apply a_record_events in E1 as Hev.
    destruct v1 as [w|].
    + rewrite Hp in E2. cbn in E2. done.
    + destruct Hev as [Hev|Hev]; [done|]. apply IH in E2 as [H1 H2]. auto.
  - unfold a_destroy. destruct (as_exists s) eqn:Eex.
    + destruct (a_run _ _ _ _ _ _ _ _ _) as [[[g2 s2] fs2] v2] eqn:E2.
      intros [= <- <- <- ->]. apply IH in E2 as [H1 H2]. auto.
    + destruct (a_run _ _ _ _ _ _ _ _ _) as [[[g2 s2] fs2] v2] eqn:E2.
      intros [= <- <- <- ->]. apply IH in E2 as [H1 H2]. rewrite Eex in H1. auto.
  - destruct (a_run _ _ _ _ _ _ _ _ _) as [[[g2 s2] fs2] v2] eqn:E2.
    intros [= <- <- <- ->]. apply IH in E2. exact E2.
Qed.

(** In-command roots of well-behaved handlers. *)
Definition root_check (x : list Fact) (f : Fact) : Prop :=
  forall h r, reported_root f = Some (h, r) ->
     exists p a r0, pending_cmd (x ++ [f]) = Some p /\ ap_h p = h /\ aggregate_of c h a /\ ag_new a = Some r0 /\
       Replay a r0 (default (ap_events p) (ap_since p)) r.

Section RootCheck.
Context (o : Oracle) (h : Handler) (a : AggImpl) (now : Z) (cmd : Env) (i : string) (base : list Env) (r0 : Root).
Context (Ha : aggregate_of c (h_id h) a) (Hnew : ag_new a = Some r0).

Definition rooted (r : Root) (x : list Fact) : Prop :=
  exists p, pending_cmd x = Some p /\ ap_h p = h_id h /\ Replay a r0 (default (ap_events p) (ap_since p)) r.
Definition IRoot (s : AScope) (x : list Fact) : Prop := mirrors h i base s x /\ rooted (as_root s) x.

Lemma root_check_none x f : reported_root f = None -> root_check x f.
Proof. intros H h' r H'. congruence. Qed.

Lemma root_check_in f r x :
  reported_root f = Some (h_id h, r) -> rooted r (x ++ [f]) -> root_check x f.
Proof.
  intros Hr (p & H1 & H2 & H3) h' r' Hr'. rewrite Hr in Hr'. injection Hr' as <- <-. eauto 10.
Qed.

(** The facts that do not change what the root is made of. *)
Lemma rooted_same r x f :
  match f with
  | AggregateInstanceCreated _ _ _ _ | AggregateInstanceDestructionReverted _ _ _ _ | MessageLoggedByAggregate _ _ _ _ _ => True
  | _ => False
  end -> rooted r x -> rooted r (x ++ [f]).
Proof.
  intros Hf (p & H1 & H2 & H3). unfold rooted. rewrite (pending_snoc _ _ _ H1). unfold pending_cmd in H1.
  destruct f; try done; cbn -[agg_view]; rewrite H1; cbn; eauto;
    (eexists; split; [reflexivity|]); destruct (decide _) as [[<- <-]|]; done.
Qed.
Lemma rooted_record r x mid b r' s :
  mirrors h i base s x -> rooted r x -> ag_apply a r (mkMsg KEvent b) = (r', None) ->
  rooted r' (x ++ [EventRecordedByAggregate (h_id h) i r' cmd (a_ev h now cmd i mid b)]).
Proof.
  intros (p' & H1' & _ & Hi & _) (p & H1 & H2 & H3) Ha'. rewrite H1 in H1'. injection H1' as <-.
  unfold rooted. rewrite (pending_snoc _ _ _ H1). unfold pending_cmd in H1.
  cbn -[agg_view]. rewrite H1. cbn. eexists. split; [reflexivity|]. rewrite decide_True by done. cbn.
  split; [done|]. destruct (ap_since p) as [l|]; cbn in *; (eapply Replay_snoc; [exact H3|exact Ha']).
Qed.
Lemma rooted_destroy x s :
  mirrors h i base s x -> rooted r0 (x ++ [AggregateInstanceDestroyed (h_id h) i r0 cmd]).
Proof.
  intros (p & H1 & H2 & Hi & _). unfold rooted. rewrite (pending_snoc _ _ _ H1). unfold pending_cmd in H1.
  cbn -[agg_view]. rewrite H1. cbn. eexists. split; [reflexivity|]. rewrite decide_True by done. cbn.
  split; [done|]. constructor.
Qed.

Lemma a_record_root b g s x g' s' fs v :
  IRoot s x -> a_record o h a now cmd i b g s = (g', s', fs, v) ->
  good root_check snoc x fs /\ (v = None -> IRoot s' (x ++ fs)).
Proof.
  intros [HM Hr]. unfold a_record.
  destruct (produces h (m_type (mkMsg KEvent b))) eqn:Ep; cbn [negb]; [|intros [= <- <- <- <-]; done].
  destruct (m_invalid (mkMsg KEvent b)) eqn:Ei; [intros [= <- <- <- <-]; done|].
  assert (Hex : exists s1 fs1,
    (if as_exists s then (s, [])
     else (mkAScope (as_hroot s) (as_own s) true false (as_events s),
           [if as_destroyed s then AggregateInstanceDestructionReverted (h_id h) i (as_root s) cmd
            else AggregateInstanceCreated (h_id h) i (as_root s) cmd])) = (s1, fs1) /\
    as_exists s1 = true /\ good root_check snoc x fs1 /\ IRoot s1 (x ++ fs1) /\ as_root s1 = as_root s).
  { destruct (as_exists s) eqn:Eex.
    - exists s, []. rewrite app_nil_r. done.
    - eexists _, _. split; [reflexivity|]. split; [done|].
      destruct (ao_revive _ _ _ _ _ _ _ _ _ (IM_ok o h a now cmd i base) g s x b HM Eex Ep Ei) as [_ H2].
      unfold IM, as_revive, snoc in H2.
      assert (Hr2 : rooted (as_root s) (x ++ [if as_destroyed s then AggregateInstanceDestructionReverted (h_id h) i (as_root s) cmd
            else AggregateInstanceCreated (h_id h) i (as_root s) cmd])).
      { apply rooted_same; [destruct (as_destroyed s); done|exact Hr]. }
      split; [split; [|done]|split; [split; [exact H2|exact Hr2]|done]].
      eapply root_check_in; [|exact Hr2]. destruct (as_destroyed s); done. }
  destruct Hex as (s1 & fs1 & -> & Hex & Hg & [HM1 Hr1] & Hroot).
  destruct (ag_apply a (as_root s1) (mkMsg KEvent b)) as [r w] eqn:Ea.
  destruct (enrich _ _ _ _ w) as [w'|] eqn:Ew.
  - intros [= <- <- <- <-]. done.
  - apply enrich_none in Ew as ->. destruct (next_id o g) as [g1 mid] eqn:En.
    intros [= <- <- <- <-]. rewrite good_app, foldl_snoc_app, as_root_set_root.
    destruct (ao_record _ _ _ _ _ _ _ _ _ (IM_ok o h a now cmd i base) _ _ _ _ _ _ _ HM1 Hex Ep Ei Ea En) as [_ H2].
    unfold IM, as_add, snoc, a_ev in H2.
    pose proof (rooted_record _ _ mid b _ _ HM1 Hr1 Ea) as Hr2. unfold a_ev in Hr2.
    split.
    + split; [done|]. split; [|done]. eapply root_check_in; [reflexivity|exact Hr2].
    + intros _. rewrite app_assoc. split; [exact H2|].
      replace (as_root _) with r; [exact Hr2|]. pose proof (as_root_set_root s1 r) as H. unfold as_root in *. cbn. rewrite H. done.
Qed.

Lemma a_run_root p g s x g' s' fs v :
  no_recover p -> no_mutation p -> IRoot s x -> a_run o h a now cmd i p g s = (g', s', fs, v) ->
  good root_check snoc x fs.
Proof.
  intros Hnr. revert g s x g' s' fs v.
  induction Hnr as [|w|f k Hk IH|f k Hk IH|b k Hk IH Hp|k Hk IH|str k Hk IH];
    intros g s x g' s' fs v Hnm HI; cbn; inversion Hnm; subst.
  - intros [= <- <- <- <-]. done.
  - intros [= <- <- <- <-]. done.
  - apply IH; auto.
  - apply IH; [auto|]. destruct HI as [HM Hr]. split; [exact HM|].
    rewrite H1. unfold as_root in *. cbn. exact Hr.
  - destruct (a_record _ _ _ _ _ _ _ _ _) as [[[g1 s1] fs1] v1] eqn:E1.
    destruct (a_run _ _ _ _ _ _ _ _ _) as [[[g2 s2] fs2] v2] eqn:E2.
    intros [= <- <- <- <-]. destruct (a_record_root _ _ _ _ _ _ _ _ HI E1) as [H1 H2].
    rewrite good_app, foldl_snoc_app. split; [done|].
    destruct v1 as [w|].
    + rewrite Hp in E2. cbn in E2. injection E2 as <- <- <- <-. done.
    + eapply IH; [|apply H2; done|exact E2]. auto.
  - unfold a_destroy. destruct (as_exists s) eqn:Eex.
    + destruct (a_run _ _ _ _ _ _ _ _ _) as [[[g2 s2] fs2] v2] eqn:E2.
      intros [= <- <- <- <-]. destruct HI as [HM Hr].
      destruct (ao_destroy _ _ _ _ _ _ _ _ _ (IM_ok o h a now cmd i base) g _ _ HM Eex) as [_ H3].
      unfold IM, snoc in H3. cbn. split.
      * eapply root_check_in; [reflexivity|]. rewrite Hnew. eapply rooted_destroy. exact HM.
      * eapply IH; [auto| |exact E2]. split; [exact H3|]. rewrite Hnew. eapply rooted_destroy. exact HM.
    + destruct (a_run _ _ _ _ _ _ _ _ _) as [[[g2 s2] fs2] v2] eqn:E2.
      intros [= <- <- <- <-]. eapply IH; [auto|exact HI|exact E2].
  - destruct (a_run _ _ _ _ _ _ _ _ _) as [[[g2 s2] fs2] v2] eqn:E2.
    intros [= <- <- <- <-]. destruct HI as [HM Hr].
    destruct (ao_log _ _ _ _ _ _ _ _ _ (IM_ok o h a now cmd i base) g _ _ str HM) as [_ H3].
    unfold IM, snoc in H3. cbn. split.
    + eapply root_check_in; [reflexivity|]. apply rooted_same; done.
    + eapply IH; [auto| |exact E2]. split; [exact H3|]. apply rooted_same; done.
Qed.
End RootCheck.

Lemma good_impl {X} (A B : X -> Fact -> Prop) (upd : X -> Fact -> X) x fs :
  (forall x f, f ∈ fs -> A x f -> B x f) -> good A upd x fs -> good B upd x fs.
Proof.
  revert x; induction fs as [|f fs IH]; intros x H; [done|]. intros [H1 H2].
  split; [apply H; [left|done]|]. apply IH; [|done]. intros y f' Hin. apply H. right. done.
Qed.

Lemma good_and {X} (A B : X -> Fact -> Prop) (upd : X -> Fact -> X) x fs :
  good A upd x fs -> good B upd x fs -> good (fun x f => A x f /\ B x f) upd x fs.
Proof. revert x; induction fs as [|f fs IH]; intros x; [done|]. intros [H1 H2] [H3 H4]. split; [done|auto]. Qed.

(** Handlings and ticks of other handlers. *)
Lemma other_handling x t h env fs r :
  Forall (owned t h) fs -> t <> HTAggregate ->
  good agg_check snoc x (handling h env fs r) /\ stored (x ++ handling h env fs r) = stored x.
Proof.
  intros Hf Ht. unfold handling. split.
  - split; [apply check_trivial; done|]. apply good_app. split.
    + eapply (good_impl (fun _ f => owned t h f)); [|apply Forall_good; exact Hf].
      intros y f _ Hof. eapply check_owned; [exact Hof|done].
    + destruct r; [|done]. split; [|done]. apply check_trivial; done.
  - rewrite cons_middle, app_assoc, app_assoc.
    assert (Hv : agg_view ((x ++ [HandlingBegun (h_id h) env]) ++ fs) = mkAView (stored x) None).
    { rewrite (view_owneds _ _ _ _ Hf Ht), agg_view_snoc. done. }
    unfold stored in *. destruct r as [envs [e|]|v].
    + rewrite agg_view_snoc, Hv. done.
    + rewrite agg_view_snoc, Hv. done.
    + rewrite app_nil_r, Hv. done.
Qed.

Lemma ticking_ok x t h fs r :
  Forall (owned t h) fs -> t <> HTAggregate ->
  good agg_check snoc x (ticking h fs r) /\ stored (x ++ ticking h fs r) = stored x.
Proof.
  intros Hf Ht. unfold ticking. split.
  - split; [apply check_trivial; done|]. apply good_app. split.
    + eapply (good_impl (fun _ f => owned t h f)); [|apply Forall_good; exact Hf].
      intros y f _ Hof. eapply check_owned; [exact Hof|done].
    + destruct r; [|done]. split; [|done]. apply check_trivial; done.
  - rewrite cons_middle, app_assoc, app_assoc.
    assert (Hv : agg_view ((x ++ [TickBegun (h_id h)]) ++ fs) = agg_view x).
    { rewrite (view_owneds _ _ _ _ Hf Ht), agg_view_snoc. done. }
    unfold stored in *. destruct r as [envs e|v]; [|rewrite app_nil_r, Hv; done].
    rewrite agg_view_snoc, Hv. done.
Qed.

Lemma stores_put h cs cst st :
  h ∈ c_app c -> stores cs st ->
  (forall hist, cst = CSAgg hist -> (forall i, st (h_id h) i = hist !! i) /\
     (non_recovering (h_id h) -> forall i, hist !! i <> Some [])) ->
  stores (<[h_name h := cst]> cs) st.
Proof.
  intros Happ Hs Hn hd hist Hin Hl. destruct (decide (h_name hd = h_name h)) as [E|E].
  - assert (hd = h) as -> by (eapply app_name_inj; eassumption).
    rewrite lookup_insert in Hl. injection Hl as ->. apply Hn. done.
  - rewrite lookup_insert_ne in Hl by done. apply Hs; done.
Qed.

Lemma agg_store : StoreOK c agg_check snoc clear AR.
Proof.
  assert (Hsimple : forall cs x f, stores cs (stored x) -> reported_root f = None ->
    (forall h i e, f <> AggregateInstanceNotFound h i e) -> (forall h e, f <> HandlingCompleted h e None) ->
    agg_check x f /\ stores cs (stored (snoc x f))).
  { intros cs x f Hs H1 H2 H3. split; [apply check_trivial; done|].
    unfold snoc. rewrite stored_snoc by done. exact Hs. }
  constructor; unfold AR.
  - done.
  - intros cs x _. intros hd hist Hin Hl. rewrite lookup_fmap in Hl.
    destruct (cs !! h_name hd) as [[]|]; cbn in Hl; try discriminate Hl. injection Hl as <-.
    split; [|intros _]; intros i; rewrite lookup_empty; done.
  - intros oo cs x env HR. apply Hsimple; done.
  - intros oo cs x HR. apply Hsimple; done.
  - intros oo cs x f HR Hf. apply Hsimple; [done| | |]; destruct f; try done; intros; discriminate.
  - intros oo h cs x HR _ _.
    destruct (ticking_ok x HTProcess h [] (HRet [] None)) as [H1 H2]; [constructor|done|].
    split; [exact H1|]. rewrite foldl_snoc_app. unfold ticking in H2. cbn in H2. rewrite H2. done.
  - intros oo h pi cs x ps ps' ready HR Happ Hi Hl _.
    destruct (ticking_ok x HTProcess h [] (HRet [] None)) as [H1 H2]; [constructor|done|].
    split; [exact H1|]. rewrite foldl_snoc_app. unfold ticking in H2. cbn in H2. rewrite H2.
    apply stores_put; done.
  - intros oo h j cs x last g g' last' fs r HR Happ Hi Hl Hj. apply j_tick_owned in Hj.
    destruct (ticking_ok x _ h fs r Hj) as [H1 H2]; [done|].
    split; [exact H1|]. rewrite foldl_snoc_app, H2. apply stores_put; done.
  - (* aggregates *)
    intros o oo env h a cs x hist g g' hist' fs r HR Happ Hi Hl _ Ha.
    assert (Hag : aggregate_of c (h_id h) a) by (exists h; done).
    destruct (HR h hist Happ Hl) as [Hst Hne].
    pose proof (a_handle_owned _ _ _ _ _ _ _ _ _ _ _ Ha) as Hown.
    apply a_handle_cases in Ha. unfold moved. rewrite foldl_snoc_app.
    destruct Ha as [v|i r0 rt ex f g1 s fs v Hcs Hrt Hid Hnew Hrep Hexx Hf Hrun].
    + split; [split; [apply check_trivial; done|done]|]. unfold handling. cbn.
      rewrite stored_snoc by done. apply stores_put; [done|done|]. intros ? [= <-]. done.
    + apply Forall_cons in Hown as [Hof Hown].
      set (base := default [] (hist !! i)) in *.
      set (x1 := x ++ [HandlingBegun (h_id h) env]).
      assert (Hx1 : stored x1 = stored x) by (subst x1; apply stored_snoc; done).
      assert (HM0 : mirrors h i base (mkAScope rt None ex false []) (x1 ++ [f])).
      { exists (mkAPend (h_id h) i base ex None). split; [|cbn; rewrite app_nil_r; done].
        unfold pending_cmd. rewrite agg_view_snoc.
        assert (Hlk : av_stored (agg_view x1) (h_id h) i = hist !! i) by (rewrite <- Hst, <- Hx1; done).
        subst f ex base. destruct (hist !! i) as [l|] eqn:El.
        - cbn -[agg_view]. rewrite Hlk. done.
        - done. }
      destruct (a_run_sim _ _ _ _ _ _ _ _ _ (IM_ok o h a (oo_now oo) env i base) _ _ _ _ _ _ _ _ HM0 Hrun)
        as [Hscope HM1]. rewrite foldl_snoc_app in HM1.
      assert (Hstf : stored ((x1 ++ [f]) ++ fs) = stored x).
      { rewrite (stored_owneds _ _ _ _ Hown), <- Hx1. apply stored_snoc. intros ? ? ->. done. }
      assert (Hreplay : Replay a r0 base rt) by (eapply a_replay_Replay; exact Hrep).
      assert (Hrt0 : rooted h a r0 rt (x1 ++ [f])).
      { destruct HM0 as (p & H1 & H2 & H3 & H4 & H5 & H6). exists p. split; [done|]. split; [done|].
        cbn in *. destruct H6 as [-> _]; [|done]. cbn. rewrite H4, app_nil_r. exact Hreplay. }
      assert (Hgf : agg_check x1 f).
      { split; [|split; [|split]]; [| | |intros h' i' Hf'; rewrite Hf in Hf'; destruct ex; done].
        - intros h' i' r' e' Hf'. rewrite Hf in Hf'. destruct ex; [|done]. injection Hf' as <- <- <- <-.
          symmetry in Hexx. apply bool_decide_eq_true in Hexx as [l El].
          exists a, r0, l. split; [done|]. split; [done|]. split; [rewrite Hx1, Hst; done|].
          split; [subst base; rewrite El in Hreplay; exact Hreplay|]. split; [done|].
          intros Hnr ->. apply (Hne Hnr i). done.
        - intros h' i' e' Hf'. rewrite Hf in Hf'. destruct ex; [done|]. injection Hf' as <- <- <-.
          exists a. split; [done|]. split; [|done]. rewrite Hx1, Hst.
          symmetry in Hexx. apply bool_decide_eq_false in Hexx. destruct (hist !! i); [|done].
          destruct Hexx. eauto.
        - intros h' r' Hr' _. eapply root_check_in; [exact Hag|exact Hnew| |exact Hrt0|exact Hr'].
          rewrite Hf in *. destruct ex; [|done]. cbn in *. exact eq_refl. }
      assert (Hgfs : good agg_check snoc (x1 ++ [f]) fs).
      { assert (Hfirst : Forall (fun f => forall h i r e, f <> AggregateInstanceLoaded h i r e) fs /\
                         Forall (fun f => forall h i e, f <> AggregateInstanceNotFound h i e) fs).
        { rewrite <- Forall_and. eapply (good_Forall tt _ (fun x _ => x)).
          eapply (a_run_sim (fun _ f => (forall h i r e, f <> AggregateInstanceLoaded h i r e) /\
                      (forall h i e, f <> AggregateInstanceNotFound h i e))
                    (fun (x : unit) _ => x) o h a (oo_now oo) env i (fun _ _ _ => True)); [|done|exact Hrun].
          constructor; try done. intros ? s1 ? ? _ _ _ _ f'. subst f'. destruct (as_destroyed s1); done. }
        destruct Hfirst as [Hn1 Hn2]. rewrite Forall_forall in Hn1, Hn2.
        assert (Hwb : well_behaved (h_id h) -> good root_check snoc (x1 ++ [f]) fs).
        { intros Hw. destruct (Hw a Hag i (e_msg env)) as [Hnr Hnm].
          eapply (a_run_root o h a (oo_now oo) env i base r0 Hag Hnew); [exact Hnr|exact Hnm| |exact Hrun].
          split; [exact HM0|]. exact Hrt0. }
        (* the third check is conditional on a proposition about the handler *)
        assert (Hcond : good (fun x f => well_behaved (h_id h) -> root_check x f) snoc (x1 ++ [f]) fs).
        { clear -Hwb. revert Hwb. generalize (x1 ++ [f]). induction fs as [|f' fs' IH]; intros y Hwb; [done|].
          split; [intros Hw; apply Hwb; done|]. apply IH. intros Hw. apply Hwb. done. }
        eapply good_impl; [|exact (good_and _ _ _ _ _ Hcond Hscope)]. intros y f' Hin [Hy Hsy].
        split; [intros; edestruct Hn1; eassumption|]. split; [intros; edestruct Hn2; eassumption|].
        split; [|exact Hsy]. intros h' r' Hr' Hw. assert (h' = h_id h) as ->.
        { rewrite Forall_forall in Hown. specialize (Hown _ Hin). unfold owned in Hown.
          destruct f'; cbn in *; try done; congruence. }
        eapply Hy; [exact Hw|exact Hr']. }
      assert (Hnrc : v = None -> non_recovering (h_id h) -> as_exists s = true -> base ++ as_events s <> []).
      { intros -> Hnr Hes. pose proof (Hnr a Hag i (e_msg env)) as Hnr1.
        destruct (a_run_events _ _ _ _ _ _ _ _ _ _ _ _ Hnr1 Hrun) as [H1 _].
        destruct (H1 Hes) as [H2|H2].
        - cbn in H2. rewrite H2 in Hexx. symmetry in Hexx. apply bool_decide_eq_true in Hexx as [l El].
          subst base. rewrite El. cbn. destruct l; [|done]. destruct (Hne Hnr i). done.
        - intros Hnil. apply app_eq_nil in Hnil as [_ Hnil]. done. }
      assert (Hgood : good agg_check snoc x (handling h env (f :: fs) (a_result h env s v))).
      { unfold handling. split; [apply check_trivial; done|]. cbn [app]. split; [exact Hgf|].
        apply good_app. split; [exact Hgfs|]. destruct (a_result h env s v); [|done].
        split; [apply check_trivial; done|done]. }
      split; [exact Hgood|].
      assert (Hsplit : x ++ handling h env (f :: fs) (a_result h env s v) =
        ((x1 ++ [f]) ++ fs) ++ match a_result h env s v with HRet _ e => [HandlingCompleted (h_id h) env e] | HPan _ => [] end).
      { unfold handling. subst x1. rewrite <- !app_assoc. done. }
      rewrite Hsplit. unfold a_result, a_commit. destruct v as [v|].
      * destruct (enrich _ _ _ _ (Some v)) as [w|] eqn:Ew; [|apply enrich_none in Ew; done].
        rewrite app_nil_r, Hstf. apply stores_put; [done|done|]. intros ? [= <-]. done.
      * cbn [enrich]. destruct HM1 as (p & Hp1 & Hp2 & Hp3 & Hp4 & Hp5 & _).
        assert (Hstn : stored (((x1 ++ [f]) ++ fs) ++ [HandlingCompleted (h_id h) env None]) =
          av_put (stored x) (h_id h) i (if as_exists s then Some (base ++ as_events s) else None)).
        { unfold stored at 1. rewrite agg_view_snoc. unfold pending_cmd in Hp1. cbn -[agg_view]. rewrite Hp1.
          cbn -[agg_view]. rewrite decide_True by done. rewrite Hp3, Hp4, Hp5. unfold stored in Hstf. rewrite Hstf. done. }
        rewrite Hstn. intros hd hist0 Hin Hl0. destruct (decide (h_name hd = h_name h)) as [E|E].
        -- assert (hd = h) as -> by (eapply app_name_inj; eassumption).
           rewrite lookup_insert in Hl0. injection Hl0 as <-. split.
           ++ intros i'. unfold av_put. destruct (decide _) as [[_ ->]|Hn].
              ** destruct (as_exists s); [rewrite lookup_insert|rewrite lookup_delete]; done.
              ** rewrite Hst. destruct (as_exists s); [rewrite lookup_insert_ne|rewrite lookup_delete_ne]; try done;
                   intros ->; destruct Hn; done.
           ++ intros Hnr i'. destruct (decide (i' = i)) as [->|Hn].
              ** destruct (as_exists s) eqn:Ees; [rewrite lookup_insert|rewrite lookup_delete; done].
                 intros [= Hnil]. apply (Hnrc eq_refl Hnr eq_refl). exact Hnil.
              ** destruct (as_exists s); [rewrite lookup_insert_ne|rewrite lookup_delete_ne]; try done; auto.
        -- rewrite lookup_insert_ne in Hl0 by done. destruct (HR hd hist0 Hin Hl0) as [H1 H2]. split; [|done].
           intros i'. unfold av_put. destruct (decide _) as [[Hid' _]|Hn]; [|apply H1].
           destruct E. unfold h_id in Hid'. congruence.
  - intros o oo env h pi cs x ps g g' ps' fs r HR Happ Hi Hl _ Hp. apply p_handle_owned in Hp.
    destruct (other_handling x _ h env fs r Hp) as [H1 H2]; [done|].
    split; [exact H1|]. rewrite foldl_snoc_app, H2. apply stores_put; done.
  - intros o oo env h i cs x g g' fs r HR Happ Hi Hl _ Hp. apply i_handle_owned in Hp.
    destruct (other_handling x _ h env fs r Hp) as [H1 H2]; [done|].
    split; [exact H1|]. rewrite foldl_snoc_app, H2. apply stores_put; done.
  - intros o oo env h j cs x last g g' fs r HR Happ Hi Hl _ Hp. apply j_handle_owned in Hp.
    destruct (other_handling x _ h env fs r Hp) as [H1 H2]; [done|].
    split; [exact H1|]. rewrite foldl_snoc_app, H2. apply stores_put; done.
Qed.
End AggProof.

(** ** Histories *)
Section AggHistory.
Context {P : Params}.

Lemma AR_init c u : app_ok c -> AR c None (es_cs (e_init c u)) [].
Proof.
  intros Hok hd hist Hin Hl. apply cs_init_lookup in Hl; [|done|done].
  unfold cs_init in Hl. destruct (h_impl hd); try discriminate Hl. injection Hl as ->.
  split; [|intros _]; intros i; rewrite lookup_empty; done.
Qed.

Lemma agg_checked c u ops st evs fin pre f :
  history c u ops st evs fin -> occurs evs pre f -> agg_check c pre f.
Proof. apply store_checked with (R := AR c); [apply agg_store|apply AR_init]. Qed.

Lemma agg_stored c u ops st evs fin :
  history c u ops st evs fin -> stores c (es_cs st) (stored (since_reset evs)).
Proof.
  intros H. destruct (store_history c u (agg_check c) (AR c) ops st evs fin (agg_store c) (AR_init c u) H) as [_ HR].
  exact HR.
Qed.

Lemma C05_lemma c u ops st evs fin pre f h i :
  history c u ops st evs fin -> occurs evs pre f ->
  (forall r e, f = AggregateInstanceLoaded h i r e ->
     exists a r0 evs, aggregate_of c h a /\ ag_new a = Some r0 /\ ag_route a (e_msg e) = inl i /\
       stored pre h i = Some evs /\ Replay a r0 evs r) /\
  (forall e, f = AggregateInstanceNotFound h i e ->
     exists a, aggregate_of c h a /\ ag_route a (e_msg e) = inl i /\ stored pre h i = None).
Proof.
  intros H Ho. pose proof (agg_checked _ _ _ _ _ _ _ _ H Ho) as (H1 & H2 & _). split.
  - intros r e Hf. destruct (H1 _ _ _ _ Hf) as (a & r0 & l & ? & ? & ? & ? & ? & _). eauto 10.
  - intros e Hf. destruct (H2 _ _ _ Hf) as (a & ? & ? & ?). eauto 10.
Qed.

Lemma C05_root_lemma o h a now env g hist g' hist' f fs res :
  a_handle o h a now env g hist = (g', hist', f :: fs, res) ->
  exists i r s v,
    (f = AggregateInstanceLoaded (h_id h) i r env \/
     f = AggregateInstanceNotFound (h_id h) i env /\ ag_new a = Some r) /\
    a_run o h a now env i (ag_handle a i (e_msg env)) g
      (mkAScope r None (bool_decide (is_Some (hist !! i))) false []) = (g', s, fs, v).
Proof.
  intros H. apply a_handle_cases in H. inversion H; subst.
  exists id, r, s, v. split; [|done].
  destruct (bool_decide (is_Some (hist !! id))) eqn:E; [auto|]. right. split; [done|].
  apply bool_decide_eq_false in E. destruct (hist !! id) eqn:E'; [destruct E; eauto|].
  cbn in *. match goal with H : (_, _) = (_, _) |- _ => injection H as ->; done end.
Qed.

Lemma aggregate_of_inj c h a a' : app_ok c -> aggregate_of c h a -> aggregate_of c h a' -> a = a'.
Proof.
  intros Hok (hd & H1 & H2 & H3) (hd' & H1' & H2' & H3').
  assert (hd = hd') as ->; [|congruence]. eapply app_name_inj; [exact Hok|done|done|]. unfold h_id in *. congruence.
Qed.

Lemma Replay_det a r evs r1 r2 : Replay a r evs r1 -> Replay a r evs r2 -> r1 = r2.
Proof.
  intros H. revert r2. induction H as [|r ev r' evs r1 H1 H2 IH]; intros r2 H3; inversion H3; subst; [done|].
  apply IH. congruence.
Qed.

Lemma Replay_app a r evs evs' r2 :
  Replay a r (evs ++ evs') r2 -> exists r1, Replay a r evs r1 /\ Replay a r1 evs' r2.
Proof.
  revert r; induction evs as [|ev evs IH]; intros r H; cbn in H; [exists r; split; [constructor|done]|].
  inversion H; subst. destruct (IH _ H5) as (r3 & H1 & H2). exists r3. split; [econstructor; eassumption|done].
Qed.

Lemma agg_view_app x fs : agg_view (x ++ fs) = foldl agg_step (agg_view x) fs.
Proof. unfold agg_view. rewrite foldl_app. done. Qed.

(** The stored history of an instance only changes when its handler completes. *)
Lemma stored_keep h i fs x :
  (forall e, HandlingCompleted h e None ∉ fs) -> stored (x ++ fs) h i = stored x h i.
Proof.
  intros Hn. induction fs as [|f fs IH] using rev_ind; [rewrite app_nil_r; done|].
  rewrite app_assoc. unfold stored. rewrite agg_view_snoc.
  assert (IH' : stored (x ++ fs) h i = stored x h i).
  { apply IH. intros e He. apply (Hn e). apply elem_of_app. auto. }
  unfold stored in IH'. destruct f; try exact IH'. destruct err as [err|]; [exact IH'|]. cbn.
  destruct (av_pend (agg_view (x ++ fs))) as [p|]; [|exact IH']. destruct (decide _) as [Hp|]; [|exact IH'].
  unfold av_put. destruct (decide _) as [[<- _]|]; [|exact IH'].
  destruct (Hn e). apply elem_of_app. right. left.
Qed.

(** The facts of one command. *)
Lemma pend_run h i seg x p :
  one_handling seg -> pending_cmd x = Some p -> ap_h p = h -> ap_i p = i ->
  exists p', pending_cmd (x ++ seg) = Some p' /\ ap_h p' = h /\ ap_i p' = i /\
    ap_events p' = ap_events p ++ recorded_by h i seg /\
    ap_exists p' = exists_after h i (ap_exists p) seg /\
    stored (x ++ seg) = stored x.
Proof.
  intros Hone Hp Hh Hi. unfold recorded_by, exists_after.
  induction seg as [|f seg IH] using rev_ind.
  - rewrite app_nil_r. exists p. cbn. rewrite app_nil_r. done.
  - destruct IH as (p' & H1 & H2 & H3 & H4 & H5 & H6).
    { intros f' Hin. apply Hone. apply elem_of_app. auto. }
    rewrite app_assoc, omap_app, foldl_app. cbn.
    assert (Hf := Hone f ltac:(apply elem_of_app; right; left)).
    assert (Hst : stored ((x ++ seg) ++ [f]) = stored x).
    { rewrite stored_snoc; [done|]. intros ? ? ->. done. }
    rewrite Hst. unfold pending_cmd in *. rewrite agg_view_snoc.
    destruct f; try (exfalso; exact Hf);
      try (exists p'; cbn; rewrite app_nil_r; split; [exact H1|done]).
    all: cbn; unfold ap_on; cbn; rewrite H1; cbn; rewrite H2, H3;
      destruct (decide (h = _ /\ i = _)) as [[<- <-]|Hn];
      (eexists; split; [reflexivity|]); cbn;
      [rewrite decide_True by done|rewrite decide_False by (intros [-> ->]; apply Hn; done)];
      rewrite ?app_nil_r, ?H4, ?H5, ?app_assoc; try done.
    + rewrite decide_True by done. done.
    + rewrite decide_False by (intros [-> ->]; apply Hn; done). done.
Qed.

Lemma fetched_pend h i f x ro :
  fetched h i f = Some ro ->
  pending_cmd (x ++ [f]) =
    Some match ro with
         | Some _ => mkAPend h i (default [] (stored x h i)) true None
         | None => mkAPend h i [] false None
         end /\ stored (x ++ [f]) = stored x.
Proof.
  intros Hf. unfold pending_cmd, stored. rewrite agg_view_snoc.
  destruct f; try discriminate Hf; cbn in Hf; destruct (decide _) as [[-> ->]|]; try discriminate Hf;
    injection Hf as <-; done.
Qed.

Lemma fetched_check c u ops st evs fin pre f h i ro :
  history c u ops st evs fin -> occurs evs pre f -> fetched h i f = Some ro ->
  exists a, aggregate_of c h a /\
  match ro with
  | None => stored pre h i = None
  | Some r => exists r0 evs, ag_new a = Some r0 /\ stored pre h i = Some evs /\ Replay a r0 evs r
  end.
Proof.
  intros H Ho Hf. pose proof (agg_checked _ _ _ _ _ _ _ _ H Ho) as (H1 & H2 & _).
  destruct f; try discriminate Hf; cbn in Hf; destruct (decide _) as [[-> ->]|]; try discriminate Hf;
    injection Hf as <-.
  - destruct (H1 _ _ _ _ eq_refl) as (a & r0 & l & ? & ? & ? & ? & _). exists a. eauto 10.
  - destruct (H2 _ _ _ eq_refl) as (a & ? & ? & _). exists a. eauto.
Qed.

(** Two fetches of an instance with no completed command in between. *)
Lemma C06_lemma c u ops st evs fin pre f mid f' h i ro ro' :
  history c u ops st evs fin ->
  occurs evs pre f -> fetched h i f = Some ro ->
  occurs evs (pre ++ f :: mid) f' -> fetched h i f' = Some ro' ->
  (forall e, HandlingCompleted h e None ∉ mid) ->
  ro' = ro.
Proof.
  intros H Ho1 Hf1 Ho2 Hf2 Hn. pose proof H as (Hok & _).
  destruct (fetched_check _ _ _ _ _ _ _ _ _ _ _ H Ho1 Hf1) as (a & Ha & H1).
  destruct (fetched_check _ _ _ _ _ _ _ _ _ _ _ H Ho2 Hf2) as (a' & Ha' & H2).
  assert (a' = a) as -> by (eapply aggregate_of_inj; eassumption).
  assert (Hs : stored (pre ++ f :: mid) h i = stored pre h i).
  { rewrite (cons_middle f), app_assoc, stored_keep by done.
    destruct (fetched_pend h i f pre _ Hf1) as [_ ->]. done. }
  rewrite Hs in H2. destruct ro as [r|], ro' as [r'|].
  - destruct H1 as (r0 & l & Hnew & Hst & Hr). destruct H2 as (r0' & l' & Hnew' & Hst' & Hr').
    rewrite Hst in Hst'. injection Hst' as <-. rewrite Hnew in Hnew'. injection Hnew' as <-.
    f_equal. eapply Replay_det; eassumption.
  - destruct H1 as (? & ? & _ & H1 & _). congruence.
  - destruct H2 as (? & ? & _ & H2 & _). congruence.
  - done.
Qed.

(** The effect of one completed command on the next one. *)
Lemma C08_lemma c u ops st evs fin pre f seg e rest f' h i ro ro' :
  history c u ops st evs fin ->
  occurs evs pre f -> fetched h i f = Some ro ->
  one_handling seg ->
  occurs evs (pre ++ f :: seg ++ HandlingCompleted h e None :: rest) f' -> fetched h i f' = Some ro' ->
  (forall e, HandlingCompleted h e None ∉ rest) ->
  if exists_after h i (bool_decide (is_Some ro)) seg
  then exists a r r', aggregate_of c h a /\ (ro = Some r \/ ro = None /\ ag_new a = Some r) /\
         ro' = Some r' /\ Replay a r (recorded_by h i seg) r'
  else ro' = None.
Proof.
  intros H Ho1 Hf1 Hone Ho2 Hf2 Hn. pose proof H as (Hok & _).
  destruct (fetched_check _ _ _ _ _ _ _ _ _ _ _ H Ho1 Hf1) as (a & Ha & H1).
  destruct (fetched_check _ _ _ _ _ _ _ _ _ _ _ H Ho2 Hf2) as (a' & Ha' & H2).
  assert (a' = a) as -> by (eapply aggregate_of_inj; eassumption).
  destruct (fetched_pend h i f pre _ Hf1) as [Hp0 Hs0].
  set (p0 := match ro with Some _ => _ | None => _ end) in Hp0.
  assert (Hp0e : ap_events p0 = default [] (stored pre h i) /\ ap_exists p0 = bool_decide (is_Some ro) /\ ap_h p0 = h /\ ap_i p0 = i).
  { subst p0. destruct ro; cbn; [done|]. rewrite H1. done. }
  destruct Hp0e as (He0 & Hx0 & Hh0 & Hi0).
  destruct (pend_run h i seg _ _ Hone Hp0 Hh0 Hi0) as (p & Hp & Hph & Hpi & Hpe & Hpx & Hps).
  assert (Hs : stored (pre ++ f :: seg ++ HandlingCompleted h e None :: rest) h i =
               if exists_after h i (bool_decide (is_Some ro)) seg
               then Some (default [] (stored pre h i) ++ recorded_by h i seg) else None).
  { replace (pre ++ f :: seg ++ HandlingCompleted h e None :: rest)
      with ((((pre ++ [f]) ++ seg) ++ [HandlingCompleted h e None]) ++ rest) by (rewrite <- !app_assoc; done).
    rewrite stored_keep by done. unfold stored at 1. rewrite agg_view_snoc. cbn -[agg_view].
    unfold pending_cmd in Hp. rewrite Hp, decide_True by done. unfold av_put. cbn -[agg_view].
    rewrite decide_True by done. rewrite Hpx, Hx0, Hpe, He0. done. }
  rewrite Hs in H2. destruct (exists_after _ _ _ _).
  - destruct ro' as [r'|]; [|done]. destruct H2 as (r0 & l & Hnew & [= <-] & Hr').
    apply Replay_app in Hr' as (r1 & Hr1 & Hr2). exists a, r1, r'.
    split; [done|]. split; [|done].
    destruct ro as [r|].
    + left. destruct H1 as (r0' & l & Hnew' & Hst & Hr). rewrite Hst in Hr1. cbn in Hr1.
      rewrite Hnew in Hnew'. injection Hnew' as <-. f_equal. eapply Replay_det; eassumption.
    + right. split; [done|]. rewrite H1 in Hr1. cbn in Hr1. inversion Hr1. congruence.
  - destruct ro'; [|done]. destruct H2 as (? & ? & _ & ? & _). done.
Qed.

(** Two fetches with no event recorded and no destruction in between. *)
Lemma quiet_pend h i fs x evs :
  (forall r e ev, EventRecordedByAggregate h i r e ev ∉ fs) ->
  (forall r e, AggregateInstanceDestroyed h i r e ∉ fs) ->
  stored x h i = Some evs ->
  (forall p, pending_cmd x = Some p -> ap_h p = h -> ap_i p = i -> ap_events p = evs /\ ap_exists p = true) ->
  (forall l1 e l2, fs = l1 ++ AggregateInstanceNotFound h i e :: l2 -> stored (x ++ l1) h i = None) ->
  stored (x ++ fs) h i = Some evs /\
  (forall p, pending_cmd (x ++ fs) = Some p -> ap_h p = h -> ap_i p = i -> ap_events p = evs /\ ap_exists p = true).
Proof.
  intros Hn1 Hn2 Hs Hp Hnf. induction fs as [|f fs IH] using rev_ind; [rewrite app_nil_r; done|].
  destruct IH as [Hs' Hp'].
  { intros r e ev He. apply (Hn1 r e ev). apply elem_of_app. auto. }
  { intros r e He. apply (Hn2 r e). apply elem_of_app. auto. }
  { intros l1 e l2 ->. apply (Hnf l1 e (l2 ++ [f])). rewrite <- app_assoc. done. }
  rewrite app_assoc. unfold stored, pending_cmd in *. rewrite agg_view_snoc.
  set (v := agg_view (x ++ fs)) in *.
  destruct f; cbn; try (split; [exact Hs'|]; done).
  - destruct err as [err|]; cbn; [done|]. split; [|done].
    destruct (av_pend v) as [p|]; [|exact Hs']. destruct (decide _) as [Hp1|]; [|exact Hs'].
    unfold av_put. destruct (decide _) as [[<- ->]|]; [|exact Hs'].
    destruct (Hp' p eq_refl) as [-> ->]; done.
  - split; [exact Hs'|]. intros p [= <-]. cbn. intros -> ->. rewrite Hs'. done.
  - split; [exact Hs'|]. intros p [= <-]. cbn. intros -> ->.
    specialize (Hnf fs e [] eq_refl). fold v in Hnf. congruence.
  - split; [exact Hs'|]. destruct (av_pend v) as [q|]; [|done]. cbn. intros p [= <-].
    destruct (decide _) as [[? ?]|]; cbn; [intros <- <-; destruct (Hp' q eq_refl) as [? ?]; done|apply Hp'; done].
  - destruct (decide (h0 = h /\ i0 = i)) as [[-> ->]|Hne].
    { destruct (Hn2 r e). apply elem_of_app. right. left. }
    split; [exact Hs'|]. destruct (av_pend v) as [q|]; [|done]. cbn. intros p [= <-].
    destruct (decide _) as [[? ?]|]; cbn; [intros <- <-; destruct Hne; done|apply Hp'; done].
  - split; [exact Hs'|]. destruct (av_pend v) as [q|]; [|done]. cbn. intros p [= <-].
    destruct (decide _) as [[? ?]|]; cbn; [intros <- <-; destruct (Hp' q eq_refl) as [? ?]; done|apply Hp'; done].
  - destruct (decide (h0 = h /\ i0 = i)) as [[-> ->]|Hne].
    { destruct (Hn1 r e ev). apply elem_of_app. right. left. }
    split; [exact Hs'|]. destruct (av_pend v) as [q|]; [|done]. cbn. intros p [= <-].
    destruct (decide _) as [[? ?]|]; cbn; [intros <- <-; destruct Hne; done|apply Hp'; done].
Qed.

Lemma C07_lemma c u ops st evs fin pre f mid f' h i r ro' :
  history c u ops st evs fin ->
  occurs evs pre f -> fetched h i f = Some (Some r) ->
  occurs evs (pre ++ f :: mid) f' -> fetched h i f' = Some ro' ->
  (forall r e ev, EventRecordedByAggregate h i r e ev ∉ mid) ->
  (forall r e, AggregateInstanceDestroyed h i r e ∉ mid) ->
  ro' = Some r.
Proof.
  intros H Ho1 Hf1 Ho2 Hf2 Hn1 Hn2. pose proof H as (Hok & _).
  destruct (fetched_check _ _ _ _ _ _ _ _ _ _ _ H Ho1 Hf1) as (a & Ha & r0 & l & Hnew & Hst & Hr).
  destruct (fetched_check _ _ _ _ _ _ _ _ _ _ _ H Ho2 Hf2) as (a' & Ha' & H2).
  assert (a' = a) as -> by (eapply aggregate_of_inj; eassumption).
  destruct (fetched_pend h i f pre _ Hf1) as [Hp0 Hs0].
  destruct (quiet_pend h i mid (pre ++ [f]) l Hn1 Hn2) as [Hs _].
  - rewrite Hs0. exact Hst.
  - intros p Hp. rewrite Hp0, Hst in Hp. injection Hp as <-. done.
  - intros l1 e l2 ->.
    assert (Ho3 : occurs evs (pre ++ f :: l1) (AggregateInstanceNotFound h i e)).
    { eapply (occurs_before _ _ _ l2). rewrite <- app_assoc. exact Ho2. }
    rewrite <- app_assoc. cbn.
    assert (Hf3 : fetched h i (AggregateInstanceNotFound h i e) = Some None) by (cbn; rewrite decide_True by done; done).
    destruct (fetched_check _ _ _ _ _ _ _ _ _ _ _ H Ho3 Hf3) as (? & _ & H3). exact H3.
  - rewrite <- app_assoc in Hs. cbn in Hs. rewrite Hs in H2. destruct ro' as [r'|]; [|done].
    destruct H2 as (r0' & l' & Hnew' & [= <-] & Hr'). rewrite Hnew in Hnew'. injection Hnew' as <-.
    f_equal. eapply Replay_det; eassumption.
Qed.

Lemma C11_lemma c u ops st evs fin pre f h r :
  history c u ops st evs fin -> occurs evs pre f -> reported_root f = Some (h, r) ->
  (forall a, aggregate_of c h a -> forall i m, no_recover (ag_handle a i m) /\ no_mutation (ag_handle a i m)) ->
  exists p a r0, pending_cmd (pre ++ [f]) = Some p /\ ap_h p = h /\ aggregate_of c h a /\ ag_new a = Some r0 /\
    Replay a r0 (default (ap_events p) (ap_since p)) r.
Proof.
  intros H Ho Hr Hw. pose proof (agg_checked _ _ _ _ _ _ _ _ H Ho) as (_ & _ & H3 & _).
  apply H3; done.
Qed.

Lemma C12_lemma c u ops st evs fin h a i :
  history c u ops st evs fin -> aggregate_of c h a -> (forall i m, no_recover (ag_handle a i m)) ->
  stored (since_reset evs) h i <> Some [].
Proof.
  intros H Ha Hnr. pose proof (agg_stored _ _ _ _ _ _ H) as Hs. pose proof H as (Hok & Hops & Hrun).
  destruct Ha as (hd & Hin & <- & Hi).
  assert (Hst : st_ok c st).
  { destruct (sim_ops c _ _ _ _ _ _ _ Hok (store_sim c _ _ _ _ (agg_store c Hok))
              ops _ [] _ _ _ (e_init_ok c u Hok) (AR_init c u Hok) Hops Hrun) as (Hst & _). exact Hst. }
  destruct (Hst hd Hin) as (cs & Hl & Hm). unfold cs_match in Hm. rewrite Hi in Hm.
  destruct cs as [hist| | |]; try done. destruct (Hs hd hist Hin Hl) as [H1 H2]. rewrite H1. apply H2.
  intros a' Ha' i' m'. assert (a' = a) as ->; [|done].
  eapply aggregate_of_inj; [exact Hok|exact Ha'|]. exists hd. done.
Qed.

(** The engine's own record of an instance is what the facts say. *)
Lemma agg_store_lemma c u ops st evs fin hd hist i :
  history c u ops st evs fin -> hd ∈ c_app c -> es_cs st !! h_name hd = Some (CSAgg hist) ->
  hist !! i = stored (since_reset evs) (h_id hd) i.
Proof. intros H Hin Hl. destruct (agg_stored _ _ _ _ _ _ H hd hist Hin Hl) as [H1 _]. rewrite H1. done. Qed.

(** ** The calls of one command *)
Lemma a_record_exists o h a now cmd i b g s g' s' fs v :
  a_record o h a now cmd i b g s = (g', s', fs, v) ->
  (as_exists s = true -> as_exists s' = true) /\ (v = None -> as_exists s' = true) /\
  as_events s' = as_events s ++ recorded_by (h_id h) i fs.
Proof.
  unfold a_record. intros H.
  destruct (negb _); [injection H as <- <- <- <-; cbn; rewrite app_nil_r; done|].
  destruct (m_invalid _); [injection H as <- <- <- <-; cbn; rewrite app_nil_r; done|].
  set (s1f := if as_exists s then _ else _) in H.
  assert (Hs1 : as_exists (s1f.1) = true /\ as_events (s1f.1) = as_events s /\ recorded_by (h_id h) i s1f.2 = []).
  { subst s1f. destruct (as_exists s) eqn:E; [done|]. cbn. destruct (as_destroyed s); done. }
  destruct s1f as [s1 fs1]. cbn [fst snd] in Hs1. destruct Hs1 as (Hx & He & Hr).
  destruct (ag_apply _ _ _) as [r w].
  assert (Hy : as_exists (as_set_root s1 r) = true /\ as_events (as_set_root s1 r) = as_events s).
  { unfold as_set_root. destruct (as_own s1); done. }
  destruct Hy as [Hy1 Hy2].
  destruct (enrich _ _ _ _ _).
  - injection H as <- <- <- <-. rewrite Hr, app_nil_r. auto.
  - cbn in H. injection H as <- <- <- <-. cbn. split; [done|]. split; [done|].
    rewrite Hy2. f_equal. unfold recorded_by in *. rewrite omap_app, Hr. cbn. rewrite decide_True by done. done.
Qed.

Lemma a_run_no_record o h a now cmd i p : no_record p -> forall g s g' s' fs v,
  a_run o h a now cmd i p g s = (g', s', fs, v) ->
  (as_exists s = false -> as_exists s' = false).
Proof.
  induction 1 as [| |f k _ IH|f k _ IH|k _ IH|str k _ IH]; intros g s g' s' fs w H Hx; cbn in H.
  - injection H as <- <- <- <-. done.
  - injection H as <- <- <- <-. done.
  - eapply IH; eassumption.
  - eapply IH; [eassumption|]. done.
  - destruct (a_destroy _ _ _ _ _) as [s1 fs1] eqn:E.
    destruct (a_run _ _ _ _ _ _ k g s1) as [[[g2 s2] fs2] v2] eqn:E2. injection H as <- <- <- <-.
    eapply IH; [exact E2|]. unfold a_destroy in E. rewrite Hx in E. injection E as <- <-. done.
  - destruct (a_run _ _ _ _ _ _ k g s) as [[[g2 s2] fs2] v2] eqn:E2. injection H as <- <- <- <-.
    eapply IH; eassumption.
Qed.

Lemma a_run_ends_destroying o h a now cmd i p : ends_destroying p -> forall g s g' s' fs,
  a_run o h a now cmd i p g s = (g', s', fs, None) -> as_exists s' = false.
Proof.
  induction 1 as [v|f k _ IH|f k _ IH|b k _ IH|k _ IH|str k _ IH|k Hk]; intros g s g' s' fs H; cbn in H.
  - done.
  - eapply IH; eassumption.
  - eapply IH; eassumption.
  - destruct (a_record _ _ _ _ _ _ _ _ _) as [[[g1 s1] fs1] v1].
    destruct (a_run _ _ _ _ _ _ (k v1) g1 s1) as [[[g2 s2] fs2] v2] eqn:E2. injection H as <- <- <- ->.
    eapply IH; eassumption.
  - destruct (a_destroy _ _ _ _ _) as [s1 fs1] eqn:E.
    destruct (a_run _ _ _ _ _ _ k g s1) as [[[g2 s2] fs2] v2] eqn:E2. injection H as <- <- <- ->.
    eapply IH; eassumption.
  - destruct (a_run _ _ _ _ _ _ k g s) as [[[g2 s2] fs2] v2] eqn:E2. injection H as <- <- <- ->.
    eapply IH; eassumption.
  - destruct (a_destroy _ _ _ _ _) as [s1 fs1] eqn:E.
    destruct (a_run _ _ _ _ _ _ k g s1) as [[[g2 s2] fs2] v2] eqn:E2. injection H as <- <- <- ->.
    eapply a_run_no_record; [exact Hk|exact E2|].
    unfold a_destroy in E. destruct (as_exists s) eqn:Ex; injection E as <- <-; done.
Qed.

Lemma a_run_recorded o h a now cmd i p : forall g s g' s' fs v,
  a_run o h a now cmd i p g s = (g', s', fs, v) ->
  as_events s' = as_events s ++ recorded_by (h_id h) i fs.
Proof.
  unfold recorded_by.
  induction p as [|v|f k IH|f k IH|b k IH|k IH|str k IH]; intros g s g' s' fs w H; cbn in H.
  - injection H as <- <- <- <-. rewrite app_nil_r. done.
  - injection H as <- <- <- <-. rewrite app_nil_r. done.
  - eapply IH; eassumption.
  - apply IH in H. exact H.
  - destruct (a_record _ _ _ _ _ _ _ _ _) as [[[g1 s1] fs1] v1] eqn:E.
    destruct (a_run _ _ _ _ _ _ (k v1) g1 s1) as [[[g2 s2] fs2] v2] eqn:E2. injection H as <- <- <- <-.
    apply a_record_exists in E as (_ & _ & E). apply IH in E2. rewrite E2, E, omap_app, app_assoc. done.
  - destruct (a_destroy _ _ _ _ _) as [s1 fs1] eqn:E.
    destruct (a_run _ _ _ _ _ _ k g s1) as [[[g2 s2] fs2] v2] eqn:E2. injection H as <- <- <- <-.
    apply IH in E2. rewrite E2, omap_app. unfold a_destroy in E.
    destruct (as_exists s); injection E as <- <-; done.
  - destruct (a_run _ _ _ _ _ _ k g s) as [[[g2 s2] fs2] v2] eqn:E2. injection H as <- <- <- <-.
    apply IH in E2. rewrite E2. done.
Qed.

Lemma a_run_no_destroy o h a now cmd i p : no_destroy p -> forall g s g' s' fs v,
  a_run o h a now cmd i p g s = (g', s', fs, v) -> as_exists s = true -> as_exists s' = true.
Proof.
  induction 1 as [|v|f k _ IH|f k _ IH|b k _ IH|str k _ IH]; intros g s g' s' fs w H Hx; cbn in H.
  - injection H as <- <- <- <-. done.
  - injection H as <- <- <- <-. done.
  - eapply IH; eassumption.
  - eapply IH; [eassumption|]. done.
  - destruct (a_record _ _ _ _ _ _ _ _ _) as [[[g1 s1] fs1] v1] eqn:E.
    destruct (a_run _ _ _ _ _ _ (k v1) g1 s1) as [[[g2 s2] fs2] v2] eqn:E2. injection H as <- <- <- <-.
    apply a_record_exists in E as (E & _). eapply IH; [exact E2|]. auto.
  - destruct (a_run _ _ _ _ _ _ k g s) as [[[g2 s2] fs2] v2] eqn:E2. injection H as <- <- <- <-.
    eapply IH; eassumption.
Qed.

Lemma a_run_ends_recording o h a now cmd i p : ends_recording p -> forall g s g' s' fs,
  a_run o h a now cmd i p g s = (g', s', fs, None) -> as_exists s' = true.
Proof.
  induction 1 as [v|f k _ IH|f k _ IH|b k _ IH|k _ IH|str k _ IH|b k Hk Hp]; intros g s g' s' fs H; cbn in H.
  - done.
  - eapply IH; eassumption.
  - eapply IH; eassumption.
  - destruct (a_record _ _ _ _ _ _ _ _ _) as [[[g1 s1] fs1] v1].
    destruct (a_run _ _ _ _ _ _ (k v1) g1 s1) as [[[g2 s2] fs2] v2] eqn:E2. injection H as <- <- <- ->.
    eapply IH; eassumption.
  - destruct (a_destroy _ _ _ _ _) as [s1 fs1] eqn:E.
    destruct (a_run _ _ _ _ _ _ k g s1) as [[[g2 s2] fs2] v2] eqn:E2. injection H as <- <- <- ->.
    eapply IH; eassumption.
  - destruct (a_run _ _ _ _ _ _ k g s) as [[[g2 s2] fs2] v2] eqn:E2. injection H as <- <- <- ->.
    eapply IH; eassumption.
  - destruct (a_record _ _ _ _ _ _ _ _ _) as [[[g1 s1] fs1] v1] eqn:E.
    destruct (a_run _ _ _ _ _ _ (k v1) g1 s1) as [[[g2 s2] fs2] v2] eqn:E2. injection H as <- <- <- ->.
    destruct v1 as [v1|]; [rewrite Hp in E2; done|].
    apply a_record_exists in E as (_ & E & _). eapply a_run_no_destroy; [exact Hk|exact E2|]. auto.
Qed.

Lemma a_handle_ret o h a now env g hist g' hist' fs evs err :
  a_handle o h a now env g hist = (g', hist', fs, HRet evs err) ->
  exists i r f fs' s, ag_route a (e_msg env) = inl i /\ err = None /\ evs = as_events s /\ fs = f :: fs' /\
    recorded_by (h_id h) i fs = recorded_by (h_id h) i fs' /\
    a_run o h a now env i (ag_handle a i (e_msg env)) g
      (mkAScope r None (bool_decide (is_Some (hist !! i))) false []) = (g', s, fs', None) /\
    hist' = if as_exists s then <[i := default [] (hist !! i) ++ as_events s]> hist else delete i hist.
Proof.
  unfold a_handle. intros H.
  destruct (negb _); [done|]. destruct (ag_route _ _) as [i|]; [|done]. destruct (decide _); [done|].
  destruct (ag_new _) as [r0|]; [|done]. destruct (a_replay _ _ _ _) as [r w]. destruct w; [done|].
  destruct (a_run _ _ _ _ _ _ _ _ _) as [[[g1 s] fs1] v] eqn:E.
  destruct v as [v|].
  { cbn in H. destruct v; done. }
  cbn in H. injection H as <- <- <- <- <-.
  eexists i, r, _, fs1, s. split; [done|]. split; [done|]. split; [done|]. split; [reflexivity|].
  split; [|done]. unfold recorded_by. cbn. destruct (bool_decide _); done.
Qed.

Lemma C08_destroy_lemma o h a now env i g hist g' hist' fs evs err :
  ag_route a (e_msg env) = inl i -> ends_destroying (ag_handle a i (e_msg env)) ->
  a_handle o h a now env g hist = (g', hist', fs, HRet evs err) ->
  hist' !! i = None.
Proof.
  intros Hr Hd H. apply a_handle_ret in H as (i' & r & f & fs' & s & Hr' & _ & _ & _ & _ & Hrun & ->).
  assert (i' = i) as -> by congruence.
  rewrite (a_run_ends_destroying _ _ _ _ _ _ _ Hd _ _ _ _ _ Hrun). apply lookup_delete.
Qed.

Lemma C08_record_lemma o h a now env i g hist g' hist' fs evs err :
  ag_route a (e_msg env) = inl i -> ends_recording (ag_handle a i (e_msg env)) ->
  a_handle o h a now env g hist = (g', hist', fs, HRet evs err) ->
  hist' !! i = Some (default [] (hist !! i) ++ recorded_by (h_id h) i fs).
Proof.
  intros Hr Hd H. apply a_handle_ret in H as (i' & r & f & fs' & s & Hr' & _ & _ & -> & Hfs & Hrun & ->).
  assert (i' = i) as -> by congruence.
  rewrite (a_run_ends_recording _ _ _ _ _ _ _ Hd _ _ _ _ _ Hrun), lookup_insert, Hfs.
  apply a_run_recorded in Hrun. cbn in Hrun. rewrite Hrun. done.
Qed.

Lemma C06_panic_lemma o h a now env g hist g' hist' fs v :
  a_handle o h a now env g hist = (g', hist', fs, HPan v) -> hist' = hist.
Proof.
  unfold a_handle. intros H.
  destruct (negb _); [injection H as _ <- _ _; done|].
  destruct (ag_route _ _) as [i|]; [|injection H as _ <- _ _; done].
  destruct (decide _); [injection H as _ <- _ _; done|].
  destruct (ag_new _) as [r0|]; [|injection H as _ <- _ _; done].
  destruct (a_replay _ _ _ _) as [r w]. destruct w; [injection H as _ <- _ _; done|].
  destruct (a_run _ _ _ _ _ _ _ _ _) as [[[g1 s] fs1] w].
  destruct (enrich _ _ _ _ w); [injection H as _ <- _ _; done|done].
Qed.

Lemma C12_loaded_lemma c u ops st evs fin pre h a i r e :
  history c u ops st evs fin -> aggregate_of c h a -> (forall i m, no_recover (ag_handle a i m)) ->
  occurs evs pre (AggregateInstanceLoaded h i r e) -> exists l, stored pre h i = Some l /\ l <> [].
Proof.
  intros H Ha Hnr Ho. destruct (agg_checked _ _ _ _ _ _ _ _ H Ho) as (H1 & _).
  destruct (H1 _ _ _ _ eq_refl) as (a' & r0 & l & Ha' & _ & Hs & _ & _ & Hl).
  exists l. split; [done|]. apply Hl. intros a2 Ha2 i' m'.
  assert (a2 = a) as ->; [|done]. destruct H as (Hok & _). eapply aggregate_of_inj; eassumption.
Qed.
End AggHistory.
