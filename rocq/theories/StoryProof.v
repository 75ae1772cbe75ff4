(** * Proofs: facts are a transcript of what handlers do. *)
From Verif Require Import EngineFacts HistSim ProcProof OpProof OpFacts.
From Verif Require Export StorySpec PanicProof.

Section StoryProof.
Context {P : Params}.

Lemma tells_one {S C} (one : S -> C -> list Fact -> S -> Prop) s call fs s1 cs fs' s' fs0 :
  one s call fs s1 -> Tells one s1 cs fs' s' -> fs0 = fs ++ fs' -> Tells one s (call :: cs) fs0 s'.
Proof. intros H1 H2 ->. econstructor; done. Qed.

Lemma next_id_user o g g' id : next_id o g = (g', id) -> g_user g' = g_user g.
Proof. unfold next_id. intros H. injection H as <- _. done. Qed.

Lemma enrich_some h i m x w : enrich (h_id h) i m x (Some w) = Some (named h i m x w).
Proof. destruct w; done. Qed.
Lemma check_improper h m : negb (produces h (m_type m)) = true -> improper h m (BUndeclared (m_type m)).
Proof. unfold produces. rewrite negb_true_iff, bool_decide_eq_false. done. Qed.
Lemma check_proper h m : negb (produces h (m_type m)) = false -> m_invalid m = None -> proper h m.
Proof. unfold produces. rewrite negb_false_iff, bool_decide_eq_true. done. Qed.

(** ** Aggregates *)
Definition standing (s : AScope) : Standing :=
  if as_exists s then Present else if as_destroyed s then Destroyed else Absent.
Definition aknown (s : AScope) : Standing * option Root := (standing s, as_own s).

Lemma a_record_tells o h a now env id b g s g' s' fs v :
  a_record o h a now env id b g s = (g', s', fs, v) ->
  g_user g' = g_user g /\ ATells h a env id (aknown s) (as_hroot s, CRecord b, v, as_hroot s') fs (aknown s').
Proof.
  unfold a_record. destruct (negb _) eqn:Ep.
  { intros [= <- <- <- <-]. split; [done|]. apply at_refused. eexists. split; [apply check_improper; done|done]. }
  destruct (m_invalid _) as [e|] eqn:Ei.
  { intros [= <- <- <- <-]. split; [done|]. apply at_refused. eexists. split; [|done]. split; [done|exact Ei]. }
  pose proof (check_proper _ _ Ep Ei) as Hp.
  destruct s as [hr own ex de evs]. cbn [as_exists as_destroyed as_hroot as_own as_events].
  set (pr := if ex then _ else _).
  assert (Hpr : pr = (mkAScope hr own true (if ex then de else false) evs,
    match standing (mkAScope hr own ex de evs) with
    | Absent => [AggregateInstanceCreated (h_id h) id (default hr own) env]
    | Destroyed => [AggregateInstanceDestructionReverted (h_id h) id (default hr own) env]
    | Present => [] end)).
  { subst pr. unfold standing. cbn [as_exists as_destroyed]. destruct ex, de; done. }
  rewrite Hpr. clear Hpr pr. unfold as_root. cbn [as_hroot as_own].
  destruct (ag_apply a (default hr own) (mkMsg KEvent b)) as [x w] eqn:Ea.
  destruct w as [w|].
  - rewrite enrich_some. intros H. injection H as <- <- <- <-.
    split; [done|]. unfold as_set_root. cbn [as_own].
    replace (match standing _ with Absent => _ | Present => _ | Destroyed => _ end) with
      (match standing (mkAScope hr own ex de evs) with
        | Absent => [AggregateInstanceCreated (h_id h) id (default hr own) env]
        | Destroyed => [AggregateInstanceDestructionReverted (h_id h) id (default hr own) env]
        | Present => [] end ++ []) by (rewrite app_nil_r; done).
    destruct own as [ow|]; unfold aknown at 2; cbn [as_own as_hroot].
    + apply (at_record h a env id _ (Some ow) hr b x (Some w)); [done|exact Ea|]. split; done.
    + apply (at_record h a env id _ None hr b x (Some w)); [done|exact Ea|]. split; done.
  - cbn [enrich]. destruct (next_id o g) as [g1 mid] eqn:En. intros H. injection H as <- <- <- <-.
    apply next_id_user in En. split; [done|]. unfold as_set_root. cbn [as_own].
    destruct own as [ow|]; unfold aknown at 2; cbn [as_own as_hroot as_exists as_destroyed as_events default].
    + apply (at_record h a env id _ (Some ow) hr b x None); [done|exact Ea|]. split; [done|]. eexists. split; [|reflexivity]. done.
    + apply (at_record h a env id _ None hr b x None); [done|exact Ea|]. split; [done|]. eexists. split; [|reflexivity]. done.
Qed.

Lemma a_run_script o h a now env id p : ag_new a <> None -> forall g s g' s' fs v,
  a_run o h a now env id p g s = (g', s', fs, v) ->
  exists cs, AScript (g_user g) (as_hroot s) p cs v (g_user g') /\ Tells (ATells h a env id) (aknown s) cs fs (aknown s').
Proof.
  intros Hnew. induction p as [|w|f k IH|f k IH|b k IH|k IH|str k IH]; intros g s g' s' fs v; cbn [a_run].
  - intros [= <- <- <- <-]. exists []. split; constructor.
  - intros [= <- <- <- <-]. exists []. split; constructor.
  - intros H. apply IH in H as (cs & H1 & H2). exists cs. split; [constructor; exact H1|done].
  - intros H. apply IH in H as (cs & H1 & H2). exists cs. split; [constructor; exact H1|exact H2].
  - destruct (a_record _ _ _ _ _ _ _ _ _) as [[[g1 s1] fs1] v1] eqn:E1. apply a_record_tells in E1 as [Hu HT].
    destruct (a_run _ _ _ _ _ _ _ _ _) as [[[g2 s2] fs2] v2] eqn:E2. intros [= <- <- <- <-].
    apply IH in E2 as (cs & H1 & H2). rewrite Hu in H1. eexists. split; [apply asc_record; exact H1|]. econstructor; done.
  - destruct (a_destroy _ _ _ _ _) as [s1 fs1] eqn:E1.
    destruct (a_run _ _ _ _ _ _ _ _ _) as [[[g2 s2] fs2] v2] eqn:E2. intros [= <- <- <- <-].
    apply IH in E2 as (cs & H1 & H2).
    assert (Hh : as_hroot s1 = as_hroot s /\ ATells h a env id (aknown s) (as_hroot s, CDestroy, None, as_hroot s) fs1 (aknown s1)).
    { unfold a_destroy in E1. destruct (ag_new a) as [x|] eqn:En; [|done].
      destruct (as_exists s) eqn:Ee; injection E1 as <- <-; (split; [done|]).
      - unfold aknown, standing. rewrite Ee. cbn. apply at_destroy. done.
      - apply at_destroy_nothing. unfold standing. rewrite Ee. destruct (as_destroyed s); done. }
    destruct Hh as [Hh HT]. rewrite Hh in H1. eexists. split; [apply asc_destroy; exact H1|]. econstructor; done.
  - destruct (a_run _ _ _ _ _ _ _ _ _) as [[[g2 s2] fs2] v2] eqn:E2. intros [= <- <- <- <-].
    apply IH in E2 as (cs & H1 & H2). eexists. split; [apply asc_log; exact H1|].
    eapply tells_one; [apply at_log|exact H2|]. done.
Qed.

Definition outcome (r : HRes) : option Err + PVal := match r with HRet _ e => inl e | HPan v => inr v end.

Lemma hd_conv c now h env u fs res u' res' : Handled c now h env u fs res u' -> res = res' -> Handled c now h env u fs res' u'.
Proof. intros H <-. done. Qed.
Lemma named_default h i m x w : named h i m x w = default w (enrich (h_id h) i m x (Some w)).
Proof. destruct w; done. Qed.

Lemma a_handle_story c o h a now env g hist g' hist' fs r :
  h_impl h = ImplAgg a -> m_type (e_msg env) ∈ h_consumed h ->
  (forall id l, hist !! id = Some l -> Forall (good_event h) l) ->
  a_handle o h a now env g hist = (g', hist', fs, r) ->
  Handled c now h env (g_user g) fs (outcome r) (g_user g').
Proof.
  intros Hi Hc Hgood. unfold a_handle. unfold consumes. rewrite bool_decide_true by done. cbn [negb].
  destruct (ag_route a _) as [id|v0] eqn:Er.
  2:{ intros [= <- <- <- <-]. eapply hd_conv; [eapply hd_agg_route; done|]. cbn. rewrite named_default. done. }
  destruct (decide _) as [->|Hid].
  { intros [= <- <- <- <-]. eapply hd_agg_empty; done. }
  destruct (ag_new a) as [r0|] eqn:En; [|intros [= <- <- <- <-]; eapply hd_agg_new; done].
  assert (Hl : Forall (good_event h) (default [] (hist !! id))).
  { destruct (hist !! id) as [l|] eqn:El; [eapply Hgood; exact El|constructor]. }
  destruct (a_replay _ _ _ _) as [r1 [v1|]] eqn:Ea.
  { intros [= <- <- <- <-]. eapply a_replay_panics in Ea as (m & Hap); [|done].
    eapply hd_agg_replay; [done|done|done|rewrite En; done|exact Hap]. }
  destruct (a_run _ _ _ _ _ _ _ _ _) as [[[g3 s3] fs3] v3] eqn:Erun.
  apply a_run_script in Erun as (cs & H1 & H2); [|rewrite En; done]. cbn [as_hroot] in H1.
  intros H.
  assert (Hres : g_user g' = g_user g3 /\ fs = (if bool_decide (is_Some (hist !! id)) then AggregateInstanceLoaded (h_id h) id r1 env
                 else AggregateInstanceNotFound (h_id h) id env) :: fs3 /\
            outcome r = match v3 with None => inl None | Some w => inr (named h "AggregateMessageHandler" "HandleCommand" (e_msg env) w) end).
  { destruct v3 as [w|]; [rewrite enrich_some in H|cbn [enrich] in H]; injection H as <- <- <- <-; (split; [done|]); (split; [done|]); done. }
  destruct Hres as (-> & -> & ->).
  destruct (bool_decide (is_Some (hist !! id))) eqn:Ex.
  - eapply (hd_agg c now h env a id r1 Present _ cs v3); [done|done|done|left; done|exact H1|exact H2].
  - assert (r1 = r0) as ->.
    { apply bool_decide_eq_false in Ex. destruct (hist !! id); [exfalso; apply Ex; eauto|]. cbn in Ea. congruence. }
    eapply (hd_agg c now h env a id r0 Absent _ cs v3); [done|done|done|right; done|exact H1|exact H2].
Qed.

(** ** Processes *)
Lemma p_check_fine h env meth m : p_check h env meth m = None -> proper h m.
Proof.
  unfold p_check. destruct (negb _) eqn:E; [done|]. destruct (m_invalid m) eqn:Ei; [done|]. intros _. apply check_proper; done.
Qed.

Lemma p_run_script o h now env id meth p : forall g s g' s' fs v,
  p_run o h now env id meth p g s = (g', s', fs, v) ->
  exists cs, PScript (g_user g) (ps_root s) p cs v (g_user g') (ps_root s') /\
    Tells (PTells h meth env id) (ps_ended s) cs fs (ps_ended s').
Proof.
  induction p as [e|w|f k IH|f k IH|b k IH|b t k IH|k IH|str k IH]; intros g s g' s' fs v; cbn [p_run].
  - intros [= <- <- <- <-]. exists []. split; constructor.
  - intros [= <- <- <- <-]. exists []. split; constructor.
  - intros H. apply IH in H as (cs & H1 & H2). exists cs. split; [constructor; exact H1|done].
  - intros H. apply IH in H as (cs & H1 & H2). exists cs. split; [constructor; exact H1|exact H2].
  - destruct (p_execute _ _ _ _ _ _ _ _ _) as [[[g1 s1] fs1] v1] eqn:E1.
    destruct (p_run _ _ _ _ _ _ _ _ _) as [[[g2 s2] fs2] v2] eqn:E2. intros [= <- <- <- <-].
    apply IH in E2 as (cs & H1 & H2).
    assert (HE : g_user g1 = g_user g /\ ps_root s1 = ps_root s /\
                 PTells h meth env id (ps_ended s) (ps_root s, CExecute b, v1) fs1 (ps_ended s1)).
    { unfold p_execute in E1. destruct (p_check _ _ _ _) as [w|] eqn:Ec.
      - injection E1 as <- <- <- <-. split; [done|]. split; [done|]. eapply pt_refused; [reflexivity|]. apply p_check_some. done.
      - apply p_check_fine in Ec. unfold p_revert in E1. destruct (ps_ended s) eqn:Ee; cbn in E1;
          injection E1 as <- <- <- <-; (split; [done|]); (split; [done|]).
        + apply (pt_execute h meth env id true); done.
        + cbn. rewrite Ee. apply (pt_execute h meth env id false); done. }
    destruct HE as (Hu & Hr & HT). rewrite Hu, Hr in H1. eexists. split; [apply psc_execute; exact H1|]. econstructor; done.
  - destruct (p_schedule _ _ _ _ _ _ _ _ _ _) as [[[g1 s1] fs1] v1] eqn:E1.
    destruct (p_run _ _ _ _ _ _ _ _ _) as [[[g2 s2] fs2] v2] eqn:E2. intros [= <- <- <- <-].
    apply IH in E2 as (cs & H1 & H2).
    assert (HE : g_user g1 = g_user g /\ ps_root s1 = ps_root s /\
                 PTells h meth env id (ps_ended s) (ps_root s, CSchedule b t, v1) fs1 (ps_ended s1)).
    { unfold p_schedule in E1. destruct (p_check _ _ _ _) as [w|] eqn:Ec.
      - injection E1 as <- <- <- <-. split; [done|]. split; [done|]. eapply pt_refused; [reflexivity|]. apply p_check_some. done.
      - apply p_check_fine in Ec. unfold p_revert in E1. destruct (ps_ended s) eqn:Ee; cbn [next_id] in E1;
          destruct (now <? t)%Z; injection E1 as <- <- <- <-; (split; [done|]); (split; [done|]); cbn [ps_ended ps_root].
        1,2: apply (pt_schedule h meth env id true); done.
        all: rewrite Ee; apply (pt_schedule h meth env id false); done. }
    destruct HE as (Hu & Hr & HT). rewrite Hu, Hr in H1. eexists. split; [apply psc_schedule; exact H1|]. econstructor; done.
  - destruct (p_end _ _ _ _) as [s1 fs1] eqn:E1.
    destruct (p_run _ _ _ _ _ _ _ _ _) as [[[g2 s2] fs2] v2] eqn:E2. intros [= <- <- <- <-].
    apply IH in E2 as (cs & H1 & H2).
    assert (HE : ps_root s1 = ps_root s /\ PTells h meth env id (ps_ended s) (ps_root s, CEnd, None) fs1 (ps_ended s1)).
    { unfold p_end in E1. destruct (ps_ended s) eqn:Ee; injection E1 as <- <-; (split; [done|]); [rewrite Ee; apply pt_end_again|apply pt_end]. }
    destruct HE as (Hr & HT). rewrite Hr in H1. eexists. split; [apply psc_end; exact H1|]. econstructor; done.
  - destruct (p_run _ _ _ _ _ _ _ _ _) as [[[g2 s2] fs2] v2] eqn:E2. intros [= <- <- <- <-].
    apply IH in E2 as (cs & H1 & H2). eexists. split; [apply psc_log; exact H1|].
    eapply tells_one; [apply pt_log|exact H2|]. done.
Qed.

Lemma p_handle_instance_story o h pi now env id rt g ps g' ps' fs r :
  p_handle_instance o h pi now env id rt g ps = (g', ps', fs, r) ->
  exists cs out r' ended, PScript (g_user g) rt (method_of pi env id) cs out (g_user g') r' /\
    Tells (PTells h (process_method env) env id) false cs fs ended /\
    outcome r = match out with inl e => inl e | inr w => inr (named h "ProcessMessageHandler" (process_method env) (e_msg env) w) end.
Proof.
  unfold p_handle_instance, method_of, process_method.
  set (mp := match m_kind (e_msg env) with KTimeout => _ | _ => _ end).
  replace (match m_kind (e_msg env) with KTimeout => pr_timeout _ _ _ _ | _ => _ end) with mp.2 by (subst mp; destruct (m_kind _); done).
  replace (match m_kind (e_msg env) with KTimeout => "HandleTimeout" | _ => _ end) with mp.1 by (subst mp; destruct (m_kind _); done).
  destruct mp as [meth prog]. cbn [fst snd].
  destruct (p_run _ _ _ _ _ _ _ _ _) as [[[g1 s1] fs1] r1] eqn:E.
  apply p_run_script in E as (cs & H1 & H2). cbn [ps_root ps_ended] in H1, H2.
  destruct r1 as [[e|]|w].
  - intros [= <- <- <- <-]. eexists cs, _, _, _. split; [exact H1|]. split; [exact H2|]. done.
  - destruct (ps_ended s1) eqn:Ee; intros [= <- <- <- <-]; eexists cs, _, _, _; (split; [exact H1|]); (split; [exact H2|]); done.
  - intros [= <- <- <- <-]. eexists cs, _, _, _. split; [exact H1|]. split; [exact H2|]. cbn. destruct w; done.
Qed.

Lemma p_handle_story c o h pi now env g ps g' ps' fs r :
  h_impl h = ImplProc pi -> m_type (e_msg env) ∈ h_consumed h ->
  m_kind (e_msg env) = KEvent \/ m_kind (e_msg env) = KTimeout -> (m_kind (e_msg env) = KTimeout -> is_Some (e_origin env)) ->
  p_handle o h pi now env g ps = (g', ps', fs, r) ->
  Handled c now h env (g_user g) fs (outcome r) (g_user g').
Proof.
  intros Hi Hc Hk Horg. unfold p_handle. unfold consumes. rewrite bool_decide_true by done. cbn [negb].
  destruct (p_route _ _ _ _ _) as [[g1 fs1] rt] eqn:Er. unfold p_route in Er.
  destruct Hk as [Hk|Hk].
  - rewrite Hk in Er. destruct (pr_route pi _ _) as [u x] eqn:Ep.
    destruct x as [[[i0 ok] [e|]]|w].
    + assert (Er' : (mkG (g_next g) u (g_step g), [] : list Fact, RouteErr e) = (g1, fs1, rt)) by (destruct ok; exact Er).
      injection Er' as <- <- <-. intros [= <- <- <- <-]. eapply hd_proc_error; done.
    + destruct ok.
      * destruct (decide _) as [->|Hne].
        { injection Er as <- <- <-. intros [= <- <- <- <-]. eapply hd_proc_empty; done. }
        injection Er as <- <- <-.
        assert (Hrt : routed pi env (g_user g) i0 u) by (unfold routed; rewrite Hk; done).
        destruct (pc_instances ps !! i0) as [r0|].
        -- destruct (p_handle_instance _ _ _ _ _ _ _ _ _) as [[[g2 ps2] fs2] r2] eqn:E. intros [= <- <- <- <-].
           apply p_handle_instance_story in E as (cs & out & r' & en & H1 & H2 & ->).
           apply (hd_proc c now h env pi i0 r0 [_] cs out (g_user g) u (g_user g2) r' fs2 en); [done|exact Hrt|left; done|exact H1|exact H2].
        -- destruct (pr_new pi) as [r0|] eqn:En.
           ++ destruct (p_handle_instance _ _ _ _ _ _ _ _ _) as [[[g2 ps2] fs2] r2] eqn:E. intros [= <- <- <- <-].
              apply p_handle_instance_story in E as (cs & out & r' & en & H1 & H2 & ->).
              apply (hd_proc c now h env pi i0 r0 [_; _] cs out (g_user g) u (g_user g2) r' fs2 en); [done|exact Hrt|right; done|exact H1|exact H2].
           ++ intros [= <- <- <- <-]. eapply hd_proc_new; done.
      * injection Er as <- <- <-. intros [= <- <- <- <-]. eapply hd_proc_ignored; done.
    + injection Er as <- <- <-. intros [= <- <- <- <-]. eapply hd_conv; [eapply hd_proc_route; done|]. rewrite named_default. done.
  - rewrite Hk in Er. destruct (Horg Hk) as [og Hog]. rewrite Hog in Er.
    destruct (pc_instances ps !! o_instance og) as [r0|] eqn:El.
    + injection Er as <- <- <-. rewrite El.
      destruct (p_handle_instance _ _ _ _ _ _ _ _ _) as [[[g2 ps2] fs2] r2] eqn:E. intros [= <- <- <- <-].
      apply p_handle_instance_story in E as (cs & out & r' & en & H1 & H2 & ->).
      apply (hd_proc c now h env pi (o_instance og) r0 [_] cs out (g_user g) (g_user g) (g_user g2) r' fs2 en);
        [done| |left; done|exact H1|exact H2].
      unfold routed. rewrite Hk. eauto.
    + injection Er as <- <- <-. intros [= <- <- <- <-]. eapply hd_proc_timeout_ignored; done.
Qed.

(** ** Integrations *)
Lemma i_run_script o h now env p : forall g evs g' evs' fs v,
  i_run o h now env p g evs = (g', evs', fs, v) ->
  exists cs, IScript (g_user g) p cs v (g_user g') /\ Tells (ITells h env) tt cs fs tt.
Proof.
  induction p as [e|w|f k IH|b k IH|str k IH]; intros g evs g' evs' fs v; cbn [i_run].
  - intros [= <- <- <- <-]. exists []. split; constructor.
  - intros [= <- <- <- <-]. exists []. split; constructor.
  - intros H. apply IH in H as (cs & H1 & H2). exists cs. split; [constructor; exact H1|done].
  - destruct (i_record _ _ _ _ _ _ _) as [[[g1 s1] fs1] v1] eqn:E1.
    destruct (i_run _ _ _ _ _ _ _) as [[[g2 s2] fs2] v2] eqn:E2. intros [= <- <- <- <-].
    apply IH in E2 as (cs & H1 & H2).
    assert (HE : g_user g1 = g_user g /\ ITells h env tt (CRecord b, v1) fs1 tt).
    { unfold i_record in E1. destruct (negb _) eqn:En.
      - injection E1 as <- <- <- <-. split; [done|]. apply it_refused. eexists. split; [apply check_improper; done|done].
      - destruct (m_invalid _) eqn:Ei.
        + injection E1 as <- <- <- <-. split; [done|]. apply it_refused. eexists. split; [|done]. split; [done|exact Ei].
        + cbn in E1. injection E1 as <- <- <- <-. split; [done|]. apply it_record; [apply check_proper; done|done]. }
    destruct HE as (Hu & HT). rewrite Hu in H1. eexists. split; [apply isc_record; exact H1|]. econstructor; done.
  - destruct (i_run _ _ _ _ _ _ _) as [[[g2 s2] fs2] v2] eqn:E2. intros [= <- <- <- <-].
    apply IH in E2 as (cs & H1 & H2). eexists. split; [apply isc_log; exact H1|].
    eapply tells_one; [apply it_log|exact H2|]. done.
Qed.

Lemma i_handle_story c o h i now env g g' fs r :
  h_impl h = ImplInt i -> m_type (e_msg env) ∈ h_consumed h ->
  i_handle o h i now env g = (g', fs, r) -> Handled c now h env (g_user g) fs (outcome r) (g_user g').
Proof.
  intros Hi Hc. unfold i_handle. unfold consumes. rewrite bool_decide_true by done. cbn [negb].
  destruct (i_run _ _ _ _ _ _ _) as [[[g2 s2] fs2] v2] eqn:E2. apply i_run_script in E2 as (cs & H1 & H2).
  intros H. assert (Hr : g' = g2 /\ fs = fs2 /\ outcome r = match v2 with inl e => inl e | inr w => inr (named h "IntegrationMessageHandler" "HandleCommand" (e_msg env) w) end).
  { destruct v2 as [e|w]; injection H as <- <- <-; (split; [done|]); (split; [done|]); [done|cbn; destruct w; done]. }
  destruct Hr as (-> & -> & ->). eapply hd_int; done.
Qed.

(** ** Projections *)
Lemma j_run_script {A} th hid ev (p : JProg A) : forall g g' fs v,
  j_run th hid ev p g = (g', fs, v) ->
  exists cs, JScript (g_user g) p cs v (g_user g') /\ fs = (fun s => (th, MessageLoggedByProjection hid ev s)) <$> cs.
Proof.
  induction p as [a|w|f k IH|s k IH]; intros g g' fs v; cbn [j_run].
  - intros [= <- <- <-]. exists []. split; [constructor|done].
  - intros [= <- <- <-]. exists []. split; [constructor|done].
  - intros H. apply IH in H as (cs & H1 & ->). exists cs. split; [constructor; exact H1|done].
  - destruct (j_run _ _ _ _ _) as [[g1 fs1] v1] eqn:E. intros [= <- <- <-]. apply IH in E as (cs & H1 & ->).
    exists (s :: cs). split; [constructor; exact H1|done].
Qed.

Lemma together_compact {A B} (a : A) (p : JProg B) u cs out u' : JScript u p cs out u' ->
  Together u (JRet a) p ((fun s => (false, s)) <$> cs) (match out with inl b => inl (a, b) | inr v => inr (PFatal v) end) u'.
Proof. induction 1; cbn; constructor; done. Qed.
Lemma together_event {A B} (b : B) (m : JProg A) u cs out u' : JScript u m cs out u' ->
  Together u m (JRet b) ((fun s => (true, s)) <$> cs) (match out with inl a => inl (a, b) | inr v => inr v end) u'.
Proof. induction 1; cbn; constructor; done. Qed.

Definition hears (hid : HId) (ev : Env) (l : bool * string) : Thread * Fact :=
  if l.1 then (TMain, MessageLoggedByProjection hid (Some ev) l.2) else (TCompact, MessageLoggedByProjection hid None l.2).

Lemma j_par_together o hid ev {A B} (m : JProg A) : forall (p : JProg B) g g' fs v,
  j_par o hid ev m p g = (g', fs, v) ->
  exists cs, Together (g_user g) m p cs v (g_user g') /\ fs = hears hid ev <$> cs.
Proof.
  induction m as [a|w|f k IH|s k IH].
  - intros p g g' fs v H.
    assert (H' : (let '(g, fs, r) := j_run TCompact hid None p g in
      (g, fs, match r with inl b => inl (a, b) | inr v => inr (PFatal v) end)) = (g', fs, v)) by (destruct p; exact H).
    clear H. destruct (j_run TCompact hid None p g) as [[g1 fs1] r1] eqn:E. injection H' as <- <- <-.
    apply j_run_script in E as (cs & H1 & ->). eexists. split; [apply together_compact; exact H1|].
    rewrite <- list_fmap_compose. done.
  - induction p as [b|w'|f' k' IH'|s' k' IH']; intros g g' fs v; cbn [j_par].
    + intros [= <- <- <-]. exists []. split; [constructor|done].
    + destruct (o_sched o (g_step g)); intros [= <- <- <-]; exists []; (split; [constructor|done]).
    + destruct (o_sched o (g_step g)); [intros [= <- <- <-]; exists []; split; [constructor|done]|].
      intros H. apply IH' in H as (cs & H1 & ->). exists cs. split; [|done]. apply tog_act_compact. exact H1.
    + destruct (o_sched o (g_step g)); [intros [= <- <- <-]; exists []; split; [constructor|done]|].
      match goal with |- context [match ?f k' ?x with _ => _ end] => destruct (f k' x) as [[g1 fs1] r1] eqn:E end.
      intros [= <- <- <-]. apply IH' in E as (cs & H1 & ->). exists ((false, s') :: cs). split; [|done].
      apply tog_log_compact. exact H1.
  - induction p as [b|w'|f' k' IH'|s' k' IH']; intros g g' fs v; cbn [j_par].
    + destruct (j_run TMain hid (Some ev) _ g) as [[g1 fs1] r1] eqn:E. intros [= <- <- <-].
      apply j_run_script in E as (cs & H1 & ->). eexists. split; [apply together_event; exact H1|].
      rewrite <- list_fmap_compose. done.
    + destruct (o_sched o (g_step g)).
      * intros H. apply IH in H as (cs & H1 & ->). exists cs. split; [|done]. apply tog_act. exact H1.
      * intros [= <- <- <-]. exists []. split; [constructor|done].
    + destruct (o_sched o (g_step g)).
      * intros H. apply IH in H as (cs & H1 & ->). exists cs. split; [|done]. apply tog_act. exact H1.
      * intros H. apply IH' in H as (cs & H1 & ->). exists cs. split; [|done]. apply tog_act_compact. exact H1.
    + destruct (o_sched o (g_step g)).
      * intros H. apply IH in H as (cs & H1 & ->). exists cs. split; [|done]. apply tog_act. exact H1.
      * match goal with |- context [match ?f k' ?x with _ => _ end] => destruct (f k' x) as [[g1 fs1] r1] eqn:E end.
        intros [= <- <- <-]. apply IH' in E as (cs & H1 & ->). exists ((false, s') :: cs). split; [|done].
        apply tog_log_compact. exact H1.
  - induction p as [b|w'|f' k' IH'|s' k' IH']; intros g g' fs v; cbn [j_par].
    + destruct (j_run TMain hid (Some ev) _ g) as [[g1 fs1] r1] eqn:E. intros [= <- <- <-].
      apply j_run_script in E as (cs & H1 & ->). eexists. split; [apply together_event; exact H1|].
      rewrite <- list_fmap_compose. done.
    + destruct (o_sched o (g_step g)).
      * destruct (j_par o hid ev k _ _) as [[g1 fs1] r1] eqn:E. intros [= <- <- <-]. apply IH in E as (cs & H1 & ->).
        exists ((true, s) :: cs). split; [|done]. apply tog_log. exact H1.
      * intros [= <- <- <-]. exists []. split; [constructor|done].
    + destruct (o_sched o (g_step g)).
      * destruct (j_par o hid ev k _ _) as [[g1 fs1] r1] eqn:E. intros [= <- <- <-]. apply IH in E as (cs & H1 & ->).
        exists ((true, s) :: cs). split; [|done]. apply tog_log. exact H1.
      * intros H. apply IH' in H as (cs & H1 & ->). exists cs. split; [|done]. apply tog_act_compact. exact H1.
    + destruct (o_sched o (g_step g)).
      * destruct (j_par o hid ev k _ _) as [[g1 fs1] r1] eqn:E. intros [= <- <- <-]. apply IH in E as (cs & H1 & ->).
        exists ((true, s) :: cs). split; [|done]. apply tog_log. exact H1.
      * match goal with |- context [match ?f k' ?x with _ => _ end] => destruct (f k' x) as [[g1 fs1] r1] eqn:E end.
        intros [= <- <- <-]. apply IH' in E as (cs & H1 & ->). exists ((false, s') :: cs). split; [|done].
        apply tog_log_compact. exact H1.
Qed.

Lemma snd_hears h env cs : map snd (hears (h_id h) env <$> cs) = heard h env <$> cs.
Proof. induction cs as [|[[|] s] cs IH]; [done| |]; cbn; f_equal; done. Qed.
Lemma snd_logged th (hid : HId) ev (cs : list string) :
  map snd ((fun s => (th : Thread, MessageLoggedByProjection hid ev s)) <$> cs) = MessageLoggedByProjection hid ev <$> cs.
Proof. induction cs as [|s cs IH]; [done|]. cbn. f_equal. done. Qed.

Lemma j_apply_story c o h j now env g g' fs r :
  j_apply o (c_compact c) h j now env g = (g', fs, r) -> Applied c now h j env (g_user g) (map snd fs) r (g_user g').
Proof.
  unfold j_apply. destruct (c_compact c) eqn:Ec.
  - destruct (j_par _ _ _ _ _ _) as [[g1 fs1] r1] eqn:E. apply j_par_together in E as (cs & H1 & ->).
    destruct r1 as [[[ok e] ce]|w]; intros [= <- <- <-].
    + cbn [map]. rewrite map_app, snd_hears. apply ap_together; done.
    + cbn [map]. rewrite snd_hears. pose proof (ap_together_panics c now h j env _ _ _ _ Ec H1) as HA. destruct w; exact HA.
  - destruct (j_run _ _ _ _ _) as [[g1 fs1] r1] eqn:E. apply j_run_script in E as (cs & H1 & ->).
    pose proof (ap_alone c now h j env _ _ _ _ Ec H1) as HA.
    destruct r1 as [[ok e]|w]; intros [= <- <- <-]; rewrite snd_logged; [exact HA|]. destruct w; exact HA.
Qed.

Lemma j_handle_story c o h j now env g g' fs r :
  h_impl h = ImplProj j -> m_type (e_msg env) ∈ h_consumed h ->
  j_handle o (c_compact c) h j now env g = (g', fs, r) -> Handled c now h env (g_user g) fs (outcome r) (g_user g').
Proof.
  intros Hi Hc. unfold j_handle, j_handle_threads. unfold consumes. rewrite bool_decide_true by done. cbn [negb].
  destruct (pj_version j _ _) as [u1 [[cur [e|]]|w]] eqn:Ev.
  - intros [= <- <- <-]. eapply hd_proj_error; done.
  - destruct (decide _) as [->|Hne]; [|intros [= <- <- <-]; eapply hd_proj_already; done].
    destruct (j_apply _ _ _ _ _ _ _) as [[g2 fs2] r2] eqn:E2. apply j_apply_story in E2. cbn [g_user] in E2.
    intros H. eapply hd_proj; [done|exact Ev| |].
    + replace fs with (map snd fs2); [exact E2|].
      destruct r2 as [[[[] [e|]] ce]|v]; try (destruct (pj_close j _ _) as [u3 [[e3|]|w3]]); injection H as <- <- <-; done.
    + destruct r2 as [[[[] [e|]] ce]|v]; cbn [Closed]; try (injection H as <- <- <-; done).
      destruct (pj_close j _ _) as [u3 rc] eqn:Ecl. exists rc.
      destruct rc as [[e3|]|w3]; injection H as <- <- <-; done.
  - intros [= <- <- <-]. eapply hd_proj_version; done.
Qed.

(** ** The engine *)
Lemma ctrl_handle_story c o h now env g cs g' cs' fs r :
  app_ok c -> h ∈ c_app c -> good_cs c h cs ->
  m_type (e_msg env) ∈ h_consumed h -> (m_kind (e_msg env) = KTimeout -> is_Some (e_origin env)) ->
  ctrl_handle c o h now env g cs = (g', cs', fs, r) -> Handled c now h env (g_user g) fs (outcome r) (g_user g').
Proof.
  intros Hok Hin [Hm Hg] Hc Horg. unfold ctrl_handle, cs_match in *.
  destruct (h_impl h) as [a|pi|i|j] eqn:Ei, cs as [hist|ps| |last]; try done.
  - destruct (a_handle _ _ _ _ _ _ _) as [[[g2 h2] f2] r2] eqn:E. intros [= <- <- <- <-]. eapply a_handle_story; done.
  - destruct (p_handle _ _ _ _ _ _ _) as [[[g2 h2] f2] r2] eqn:E. intros [= <- <- <- <-].
    eapply p_handle_story; [done|done| |done|exact E]. destruct Hok as [_ Hh]. specialize (Hh h Hin). unfold handler_ok in Hh.
    rewrite Ei in Hh. destruct Hh as [Hh _]. destruct (Hh _ Hc) as [Hk|[Hk _]]; rewrite m_type_kind in Hk; auto.
  - destruct (i_handle _ _ _ _ _ _) as [[g2 f2] r2] eqn:E. intros [= <- <- <- <-]. eapply i_handle_story; done.
  - destruct (j_handle _ _ _ _ _ _ _) as [[g2 f2] r2] eqn:E. intros [= <- <- <- <-]. eapply j_handle_story; done.
Qed.

Lemma ctrl_tick_story c h now g cs g' cs' fs r :
  good_cs c h cs -> ctrl_tick h now g cs = (g', cs', fs, r) -> Ticked now h (g_user g) fs (outcome r) (g_user g').
Proof.
  intros [Hm Hg]. unfold ctrl_tick, cs_match in *.
  destruct (h_impl h) as [a|pi|i|j] eqn:Ei, cs as [hist|ps| |last]; try done.
  - intros [= <- <- <- <-]. constructor.
  - destruct (p_tick _ _). intros [= <- <- <- <-]. constructor.
  - intros [= <- <- <- <-]. constructor.
  - destruct (j_tick_ctrl _ _ _ _ _) as [[[g3 l3] fs3] r3] eqn:E3. intros [= <- <- <- <-].
    unfold j_tick_ctrl in E3. destruct (_ <=? _)%Z; [|injection E3 as <- <- <- <-; constructor].
    destruct (j_run _ _ _ _ _) as [[g4 fs4] [e4|w4]] eqn:E4; apply j_run_script in E4 as (cs & H1 & ->); injection E3 as <- <- <- <-;
      rewrite snd_logged; econstructor; done.
Qed.

Lemma story_app c now u a v u1 b u' : Story c now u a None u1 -> Story c now u1 b v u' -> Story c now u (a ++ b) v u'.
Proof.
  intros Ha Hb. remember None as n eqn:En. induction Ha as [u|f u fs v0 u2 Hf H IH|h env mid e u u0 fs v0 u2 Hin Hh H IH|h env mid v0 u u2 Hin Hh|h mid e u u0 fs v0 u2 Hin Hh H IH|h mid v0 u u2 Hin Hh]; try done.
  - cbn. apply story_frame; auto.
  - cbn. rewrite <- app_assoc. cbn. eapply story_handled; eauto.
  - cbn. rewrite <- app_assoc. cbn. eapply story_ticked; eauto.
Qed.
Lemma story_frames c now u fs : Forall framing fs -> Story c now u fs None u.
Proof. induction 1; [constructor|]. apply story_frame; done. Qed.

Section Engine.
Context (c : Config) (Hok : app_ok c) (o : Oracle) (Hsort : sort_ok o) (oo : OOs).
Notation now := (oo_now oo).

Lemma e_handlers_story env hs :
  (m_kind (e_msg env) = KTimeout -> is_Some (e_origin env)) ->
  (forall h, h ∈ hs -> h ∈ c_app c /\ m_type (e_msg env) ∈ h_consumed h) -> forall st st' fs r,
  good_st c st -> e_handlers c o oo env (Some <$> hs) st = (st', fs, r) ->
  Story c now (world st) fs (match r with inl _ => None | inr v => Some v end) (world st').
Proof.
  intros Horg. induction hs as [|h hs IH]; intros Hhs st st' fs r Hst.
  { cbn. intros [= <- <- <-]. constructor. }
  destruct (Hhs h) as [Hin Hc]; [set_solver|].
  assert (Hhs' : forall h, h ∈ hs -> h ∈ c_app c /\ m_type (e_msg env) ∈ h_consumed h) by (intros; apply Hhs; set_solver).
  specialize (IH Hhs').
  rewrite fmap_cons. cbn [e_handlers]. destruct (e_handle c o oo env (Some h) st) as [[st1 fs1] r1] eqn:E.
  assert (HE : good_st c st1 /\ Story c now (world st) fs1 (match r1 with HRet _ _ => None | HPan v => Some v end) (world st1)).
  { unfold e_handle in E. destruct (skip_handler h oo) as [sr|] eqn:Es.
    { injection E as <- <- <-; split; [done|]. apply story_frame; [done|constructor]. }
    destruct (Hst h Hin) as (cs & El & Hg). rewrite El in E.
    destruct (ctrl_handle _ _ _ _ _ _ _) as [[[g2 cs2] fs2] r2] eqn:E2.
    pose proof E2 as E3. eapply ctrl_handle_story in E3; [|done..].
    apply ctrl_handle_panics in E2 as [H1 _]; [|done..].
    destruct r2 as [envs e|v]; injection E as <- <- <-; (split; [apply good_st_update; done|]).
    - eapply story_handled; [done|exact E3|constructor].
    - eapply story_panicked; [done|exact E3]. }
  destruct HE as [HE1 HE2].
  destruct r1 as [envs e|v]; [|intros [= <- <- <-]; done].
  destruct (e_handlers _ _ _ _ _ st1) as [[st2 fs2] r2] eqn:E2. apply IH in E2; [|done].
  destruct r2 as [[envs' errs']|v]; intros [= <- <- <-]; eapply story_app; done.
Qed.

Lemma e_loop_story fuel : forall q err st st' fs r,
  Forall (deliverable c) q -> good_st c st -> e_loop c o oo fuel q err st = (st', fs, r) ->
  Story c now (world st) fs (match r with Pan v => Some v | _ => None end) (world st').
Proof.
  induction fuel as [|fuel IH]; intros q err st st' fs r Hq Hst; destruct q as [|env q]; cbn [e_loop];
    try (intros [= <- <- <-]; constructor).
  apply Forall_cons in Hq as [Henv Hq].
  destruct (e_message c o oo env st) as [[st1 fs1] r1] eqn:E.
  assert (HE : good_st c st1 /\ match r1 with inl (envs, _) => Forall (deliverable c) envs | inr v => True end /\
    Story c now (world st) fs1 (match r1 with inl _ => None | inr v => Some v end) (world st1)).
  { unfold e_message in E. destruct (targets_good c env Henv) as (hs & Et & Horg & Hhs). rewrite Et in E.
    destruct (e_handlers _ _ _ _ _ st) as [[st2 fs2] r2] eqn:E2.
    pose proof E2 as E3. apply e_handlers_story in E3; [|done..].
    apply e_handlers_panics in E2 as [H1 H2]; [|done..].
    destruct r2 as [[envs derr]|v]; injection E as <- <- <-; (split; [done|]); (split; [done|]).
    - apply story_frame; [done|]. eapply story_app; [exact E3|]. apply story_frames. repeat constructor.
    - apply story_frame; done. }
  destruct HE as (H1 & H2 & H3).
  destruct r1 as [[envs derr]|w].
  - destruct (poll_ctx o (es_g st1)) as [g ce] eqn:Ep.
    assert (Hg : g_user g = world st1) by (unfold poll_ctx in Ep; injection Ep as <- _; done).
    destruct ce as [ce|]; [intros [= <- <- <-]; unfold world in *; cbn; rewrite Hg; exact H3|].
    destruct (e_loop c o oo fuel _ _ _) as [[st2 fs2] r2] eqn:E2. intros [= <- <- <-].
    apply IH in E2; [|apply Forall_app; done|exact H1]. unfold world in E2 at 1. cbn [es_set_g es_g] in E2. rewrite Hg in E2.
    eapply story_app; done.
  - intros [= <- <- <-]. done.
Qed.

Lemma e_tick_handlers_story : forall hs st st' fs r,
  (forall h, h ∈ hs -> h ∈ c_app c) -> good_st c st -> e_tick_handlers c o oo hs st = (st', fs, r) ->
  Story c now (world st) fs (match r with TPan v => Some v | _ => None end) (world st').
Proof.
  induction hs as [|h hs IH]; intros st st' fs r Happ Hst; cbn [e_tick_handlers].
  { intros [= <- <- <-]. constructor. }
  assert (Hin : h ∈ c_app c) by (apply Happ; set_solver).
  assert (Happ' : forall h, h ∈ hs -> h ∈ c_app c) by (intros; apply Happ; set_solver).
  destruct (e_tick_one c o oo h st) as [[st1 fs1] r1] eqn:E.
  assert (HE : good_st c st1 /\ Story c now (world st) fs1 (match r1 with HRet _ _ => None | HPan v => Some v end) (world st1)).
  { unfold e_tick_one in E. destruct (skip_handler h oo) as [sr|] eqn:Es.
    { injection E as <- <- <-; split; [done|]. apply story_frame; [done|constructor]. }
    destruct (Hst h Hin) as (cs & El & Hg). rewrite El in E.
    destruct (ctrl_tick _ _ _ _) as [[[g2 cs2] fs2] r2] eqn:E2.
    pose proof E2 as E3. eapply ctrl_tick_story in E3; [|exact Hg].
    eapply ctrl_tick_panics in E2 as [H1 _]; [|exact Hg].
    destruct r2 as [envs e|v]; injection E as <- <- <-; (split; [apply good_st_update; done|]).
    - eapply story_ticked; [done|exact E3|constructor].
    - eapply story_tick_panicked; [done|exact E3]. }
  destruct HE as [H1 H2].
  destruct r1 as [envs e|w]; [|intros [= <- <- <-]; done].
  destruct (poll_unless_skipped o oo h st1) as [st2 ce] eqn:Ep.
  assert (Hst2 : good_st c st2 /\ world st2 = world st1).
  { unfold poll_unless_skipped in Ep. destruct (skip_handler h oo); [injection Ep as <- _; done|].
    destruct (poll_ctx o (es_g st1)) as [g0 c0] eqn:Epc. injection Ep as <- _. split; [exact H1|].
    unfold poll_ctx in Epc. injection Epc as <- _. done. }
  destruct Hst2 as [Hst2 Hw].
  destruct ce as [ce|]; [intros [= <- <- <-]; rewrite Hw; done|].
  destruct (e_tick_handlers c o oo hs st2) as [[st3 fs3] r3] eqn:E3. apply IH in E3; [|done|done]. rewrite Hw in E3.
  intros [= <- <- <-]. destruct r3; eapply story_app; done.
Qed.
End Engine.

Lemma run_op_story c op st st' evs r :
  app_ok c -> op_ok c op -> good_st c st -> run_op c op st = (st', evs, r) ->
  match op with
  | OpDispatch _ _ _ _ | OpTick _ _ _ _ =>
    exists fs, evs = EvFact <$> fs /\
    ((fs = [] /\ world st' = world st /\ exists v, r = Pan v /\ Rejected c op v) \/
     Story c (op_now op) (world st) fs (match r with Pan v => Some v | _ => None end) (world st'))
  | OpReset => evs = [EvReset] /\ world st' = foldl (fun u f => f u) (world st) (c_resetters c)
  | OpUser f => evs = [] /\ world st' = f (world st)
  end.
Proof.
  intros Hok Hop Hst Hrun. pose proof (run_op_panics c op st st' evs r Hok Hop Hst Hrun) as [_ Hpan].
  revert Hrun. destruct op as [o fuel m opts|o fuel order opts| |f]; cbn [run_op].
  - destruct (e_dispatch c o fuel m opts st) as [[st1 fs1] r1] eqn:E. intros [= <- <- <-]. exists fs1. split; [done|].
    specialize (fun v Hv => Hpan v fs1 Hv eq_refl).
    assert (Hrej : forall v, r1 = Pan v -> fs1 = [] -> Rejected c (OpDispatch o fuel m opts) v).
    { intros v Hv Hf. destruct (Hpan v Hv) as [[_ H]|[(l & h & env & l' & H & _)|(l & h & l' & j & H & _)]]; [done| |];
        rewrite Hf in H; destruct l; discriminate H. }
    clear Hpan.
    revert E. unfold e_dispatch. destruct (next_id o (es_g st)) as [g id] eqn:En. apply next_id_user in En.
    destruct (new_opts c (o_wall o) opts) as [oo|w] eqn:Eo.
    2:{ intros [= <- <- <-]. left. split; [done|]. split; [exact En|]. eexists. split; [done|]. apply Hrej; done. }
    destruct (m_kind m) eqn:Ek; [| |intros [= <- <- <-]; left; split; [done|]; split; [exact En|]; eexists; split; [done|]; apply Hrej; done].
    all: destruct (m_invalid m) as [x|] eqn:Ei; [intros [= <- <- <-]; left; split; [done|]; split; [exact En|]; eexists; split; [done|]; apply Hrej; done|].
    all: destruct (routes c !! m_type m) as [l|] eqn:Er;
      [|intros [= <- <- <-]; left; split; [done|]; split; [exact En|]; eexists; split; [done|]; apply Hrej; done].
    all: intros H; right; revert H; clear Hrej; cbn zeta; destruct (opts_lemma _ _ _ _ Eo) as (Hn & _); cbn [op_now]; rewrite <- Hn.
    all: destruct (lock o _) as [g' le] eqn:Elk.
    all: assert (Hg : g_user g' = world st) by (unfold lock in Elk; injection Elk as <- _; exact En).
    all: destruct le as [le|]; [intros [= <- <- <-]; unfold world in *; cbn; rewrite Hg; apply story_frames; repeat constructor|].
    all: destruct (e_loop c o oo fuel _ _ _) as [[st3 fs3] r3] eqn:L; apply e_loop_story in L;
      [|done|done|constructor; [|constructor]; intros Hk; cbn in Hk; congruence|exact Hst].
    all: unfold world in L at 1; cbn [es_set_g es_g] in L; rewrite Hg in L.
    all: destruct r3 as [e|w|]; intros [= <- <- <-]; (apply story_frame; [done|]); try exact L.
    all: eapply story_app; [exact L|]; apply story_frames; repeat constructor.
  - destruct (e_tick c o fuel order opts st) as [[st1 fs1] r1] eqn:E. intros [= <- <- <-]. exists fs1. split; [done|].
    specialize (fun v Hv => Hpan v fs1 Hv eq_refl).
    assert (Hrej : forall v, r1 = Pan v -> fs1 = [] -> Rejected c (OpTick o fuel order opts) v).
    { intros v Hv Hf. destruct (Hpan v Hv) as [[_ H]|[(l & h & env & l' & H & _)|(l & h & l' & j & H & _)]]; [done| |];
        rewrite Hf in H; destruct l; discriminate H. }
    clear Hpan. destruct Hop as [Hsort Hord].
    assert (Happ : forall h, h ∈ order -> h ∈ c_app c) by (intros h; rewrite Hord; done).
    revert E. unfold e_tick. destruct (new_opts c (o_wall o) opts) as [oo|w] eqn:Eo.
    2:{ intros [= <- <- <-]. left. split; [done|]. split; [done|]. eexists. split; [done|]. apply Hrej; done. }
    intros H. right. revert H. clear Hrej. destruct (opts_lemma _ _ _ _ Eo) as (Hn & _). cbn [op_now]. rewrite <- Hn.
    destruct (lock o _) as [g' le] eqn:Elk.
    assert (Hg : g_user g' = world st) by (unfold lock in Elk; injection Elk as <- _; done).
    destruct le as [le|]; [intros [= <- <- <-]; unfold world in *; cbn; rewrite Hg; apply story_frames; repeat constructor|].
    unfold e_tick_body.
    destruct (e_tick_handlers c o oo order _) as [[st3 fs3] r3] eqn:T.
    pose proof T as T'. apply e_tick_handlers_story in T'; [|done..].
    unfold world in T' at 1. cbn [es_set_g es_g] in T'. rewrite Hg in T'.
    apply e_tick_handlers_panics in T as [T1 T2]; [|done..].
    destruct r3 as [q errs|e|w].
    + destruct (e_loop c o oo fuel _ _ _) as [[st4 fs4] r4] eqn:L. apply e_loop_story in L; [|done|done|done|exact T1].
      destruct r4 as [e|w|]; intros [= <- <- <-]; (apply story_frame; [done|]); [|eapply story_app; done|eapply story_app; done].
      eapply story_app; [eapply story_app; [exact T'|exact L]|]. apply story_frames. repeat constructor.
    + intros [= <- <- <-]. apply story_frame; [done|]. eapply story_app; [exact T'|]. apply story_frames. repeat constructor.
    + intros [= <- <- <-]. apply story_frame; [done|]. exact T'.
  - intros [= <- <- <-]. done.
  - intros [= <- <- <-]. done.
Qed.

Lemma C95_lemma c st op st' fs r :
  reachable c st -> op_ok c op -> run_op c op st = (st', EvFact <$> fs, r) ->
  match op with
  | OpDispatch _ _ _ _ | OpTick _ _ _ _ =>
    (fs = [] /\ world st' = world st /\ exists v, r = Pan v /\ Rejected c op v) \/
    Story c (op_now op) (world st) fs (match r with Pan v => Some v | _ => None end) (world st')
  | _ => True
  end.
Proof.
  intros Hr Hop Hrun. apply run_op_story in Hrun; [|eapply reachable_ok; done|done|apply reachable_good; done].
  destruct op; try done; destruct Hrun as (fs0 & Hf & H); apply fmap_EvFact_inj in Hf as <-; exact H.
Qed.
End StoryProof.
