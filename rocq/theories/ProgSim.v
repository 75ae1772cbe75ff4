(** * Invariant principles for handler programs and case analyses of the
    controllers. *)
From Verif Require Export Sim.

Section Prog.
Context {P : Params} {X : Type} (check : X -> Fact -> Prop) (upd : X -> Fact -> X).
Notation good := (good check upd).

(** ** Aggregates *)
Section ARun.
Context (o : Oracle) (h : Handler) (a : AggImpl) (now : Z) (cmd : Env) (id : string).
Context (I : GState -> AScope -> X -> Prop).

Definition as_revive (s : AScope) : AScope :=
  mkAScope (as_hroot s) (as_own s) true false (as_events s).
Definition as_add (s : AScope) (ev : Env) : AScope :=
  mkAScope (as_hroot s) (as_own s) (as_exists s) (as_destroyed s) (as_events s ++ [ev]).

Definition a_ev (mid : string) (b : Body) : Env :=
  new_child cmd mid (mkMsg KEvent b) now (mkOrigin (h_id h) HTAggregate id).

Record AOK : Prop := {
  ao_act : forall f g s x, I g s x -> I (g_act f g) s x;
  ao_mutate : forall f g s x, I g s x ->
    I g (mkAScope (f (as_hroot s)) (as_own s) (as_exists s) (as_destroyed s) (as_events s)) x;
  ao_revive : forall g s x b, I g s x -> as_exists s = false ->
    produces h (KEvent, b_name b) = true -> b_invalid b = None ->
    let f := if as_destroyed s
             then AggregateInstanceDestructionReverted (h_id h) id (as_root s) cmd
             else AggregateInstanceCreated (h_id h) id (as_root s) cmd in
    check x f /\ I g (as_revive s) (upd x f);
  ao_fail : forall g s x b r v, I g s x -> as_exists s = true ->
    ag_apply a (as_root s) (mkMsg KEvent b) = (r, Some v) ->
    I g (as_set_root s r) x;
  ao_record : forall g s x b r g' mid, I g s x -> as_exists s = true ->
    produces h (KEvent, b_name b) = true -> b_invalid b = None ->
    ag_apply a (as_root s) (mkMsg KEvent b) = (r, None) ->
    next_id o g = (g', mid) ->
    let f := EventRecordedByAggregate (h_id h) id r cmd (a_ev mid b) in
    check x f /\ I g' (as_add (as_set_root s r) (a_ev mid b)) (upd x f);
  ao_destroy : forall g s x, I g s x -> as_exists s = true ->
    let r := default (as_root s) (ag_new a) in
    let f := AggregateInstanceDestroyed (h_id h) id r cmd in
    check x f /\ I g (mkAScope (as_hroot s) (Some r) false true (as_events s)) (upd x f);
  ao_log : forall g s x str, I g s x ->
    let f := MessageLoggedByAggregate (h_id h) id (as_root s) cmd str in
    check x f /\ I g s (upd x f)
}.

Lemma as_root_set_root s r : as_root (as_set_root s r) = r.
Proof. unfold as_root, as_set_root. destruct (as_own s); done. Qed.

Lemma enrich_none hid i m msg v : enrich hid i m msg v = None -> v = None.
Proof. destruct v as [[]|]; done. Qed.
Lemma enrich_some hid i m msg v w : enrich hid i m msg v = Some w -> exists v', v = Some v'.
Proof. destruct v as [v|]; [eauto|done]. Qed.

Lemma a_record_sim (K : AOK) b g s x g' s' fs v :
  I g s x -> a_record o h a now cmd id b g s = (g', s', fs, v) ->
  good x fs /\ I g' s' (foldl upd x fs).
Proof.
  intros HI. unfold a_record.
  destruct (produces h (m_type (mkMsg KEvent b))) eqn:Ep; cbn [negb]; [|intros [= <- <- <- <-]; done].
  destruct (m_invalid (mkMsg KEvent b)) eqn:Ei; [intros [= <- <- <- <-]; done|].
  assert (Hex : exists s1 fs1,
    (if as_exists s then (s, [])
     else (mkAScope (as_hroot s) (as_own s) true false (as_events s),
           [if as_destroyed s then AggregateInstanceDestructionReverted (h_id h) id (as_root s) cmd
            else AggregateInstanceCreated (h_id h) id (as_root s) cmd])) = (s1, fs1) /\
    as_exists s1 = true /\ good x fs1 /\ I g s1 (foldl upd x fs1)).
  { destruct (as_exists s) eqn:Eex.
    - exists s, []. done.
    - eexists _, _. split; [reflexivity|]. split; [done|].
      destruct (ao_revive K g s x b HI Eex Ep Ei) as [H1 H2]. split; [split; done|exact H2]. }
  destruct Hex as (s1 & fs1 & -> & Hex & Hg & HI1).
  destruct (ag_apply a (as_root s1) (mkMsg KEvent b)) as [r w] eqn:Ea.
  destruct (enrich _ _ _ _ w) as [w'|] eqn:Ew.
  - apply enrich_some in Ew as [v' ->]. intros [= <- <- <- <-]. split; [done|].
    eapply ao_fail; eassumption.
  - apply enrich_none in Ew as ->. destruct (next_id o g) as [g1 mid] eqn:En.
    intros [= <- <- <- <-]. rewrite good_app, foldl_app, as_root_set_root.
    destruct (ao_record K _ _ _ _ _ _ _ HI1 Hex Ep Ei Ea En) as [H1 H2].
    split; [split; [done|split; done]|exact H2].
Qed.

Lemma a_run_sim (K : AOK) p g s x g' s' fs v :
  I g s x -> a_run o h a now cmd id p g s = (g', s', fs, v) ->
  good x fs /\ I g' s' (foldl upd x fs).
Proof.
  revert g s x g' s' fs v.
  induction p as [|w|f k IH|f k IH|b k IH|k IH|str k IH]; intros g s x g' s' fs v HI; cbn.
  - intros [= <- <- <- <-]. done.
  - intros [= <- <- <- <-]. done.
  - apply IH. apply (ao_act K). done.
  - apply IH. apply (ao_mutate K). done.
  - destruct (a_record _ _ _ _ _ _ _ _ _) as [[[g1 s1] fs1] v1] eqn:E1.
    destruct (a_record_sim K _ _ _ _ _ _ _ _ HI E1) as [H1 H2].
    destruct (a_run _ _ _ _ _ _ _ _ _) as [[[g2 s2] fs2] v2] eqn:E2.
    intros [= <- <- <- <-]. rewrite good_app, foldl_app.
    destruct (IH _ _ _ _ _ _ _ _ H2 E2). done.
  - unfold a_destroy. destruct (as_exists s) eqn:Eex.
    + destruct (a_run _ _ _ _ _ _ _ _ _) as [[[g2 s2] fs2] v2] eqn:E2.
      intros [= <- <- <- <-]. destruct (ao_destroy K _ _ _ HI Eex) as [H1 H2]. cbn.
      destruct (IH _ _ _ _ _ _ _ H2 E2). done.
    + destruct (a_run _ _ _ _ _ _ _ _ _) as [[[g2 s2] fs2] v2] eqn:E2.
      intros [= <- <- <- <-]. eapply IH; eassumption.
  - destruct (a_run _ _ _ _ _ _ _ _ _) as [[[g2 s2] fs2] v2] eqn:E2.
    intros [= <- <- <- <-]. destruct (ao_log K _ _ _ str HI) as [H1 H2]. cbn.
    destruct (IH _ _ _ _ _ _ _ H2 E2). done.
Qed.
End ARun.

(** ** Integrations *)
Section IRun.
Context (o : Oracle) (h : Handler) (now : Z) (cmd : Env).
Context (I : GState -> list Env -> X -> Prop).

Definition i_ev (mid : string) (b : Body) : Env :=
  new_child cmd mid (mkMsg KEvent b) now (mkOrigin (h_id h) HTIntegration "").

Record IOK : Prop := {
  io_act : forall f g s x, I g s x -> I (g_act f g) s x;
  io_record : forall g s x b g' mid, I g s x ->
    produces h (KEvent, b_name b) = true -> b_invalid b = None ->
    next_id o g = (g', mid) ->
    let f := EventRecordedByIntegration (h_id h) cmd (i_ev mid b) in
    check x f /\ I g' (s ++ [i_ev mid b]) (upd x f);
  io_log : forall g s x str, I g s x ->
    let f := MessageLoggedByIntegration (h_id h) cmd str in
    check x f /\ I g s (upd x f)
}.

Lemma i_run_sim (K : IOK) p g s x g' s' fs v :
  I g s x -> i_run o h now cmd p g s = (g', s', fs, v) ->
  good x fs /\ I g' s' (foldl upd x fs).
Proof.
  revert g s x g' s' fs v.
  induction p as [e|w|f k IH|b k IH|str k IH]; intros g s x g' s' fs v HI; cbn.
  - intros [= <- <- <- <-]. done.
  - intros [= <- <- <- <-]. done.
  - apply IH. apply (io_act K). done.
  - unfold i_record.
    destruct (produces h (m_type (mkMsg KEvent b))) eqn:Ep; cbn [negb].
    2:{ destruct (i_run _ _ _ _ _ _ _) as [[[g2 s2] fs2] v2] eqn:E2.
        intros [= <- <- <- <-]. eapply IH; eassumption. }
    destruct (m_invalid (mkMsg KEvent b)) eqn:Ei.
    { destruct (i_run _ _ _ _ _ _ _) as [[[g2 s2] fs2] v2] eqn:E2.
      intros [= <- <- <- <-]. eapply IH; eassumption. }
    destruct (next_id o g) as [g1 mid] eqn:En.
    destruct (i_run _ _ _ _ _ _ _) as [[[g2 s2] fs2] v2] eqn:E2.
    intros [= <- <- <- <-]. destruct (io_record K _ _ _ _ _ _ HI Ep Ei En) as [H1 H2]. cbn.
    destruct (IH _ _ _ _ _ _ _ _ H2 E2). done.
  - destruct (i_run _ _ _ _ _ _ _) as [[[g2 s2] fs2] v2] eqn:E2.
    intros [= <- <- <- <-]. destruct (io_log K _ _ _ str HI) as [H1 H2]. cbn.
    destruct (IH _ _ _ _ _ _ _ H2 E2). done.
Qed.
End IRun.

(** ** Processes *)
Section PRun.
Context (o : Oracle) (h : Handler) (now : Z) (env : Env) (id : string) (meth : string).
Context (I : GState -> PScope -> X -> Prop).

Definition p_cmd (mid : string) (b : Body) : Env :=
  new_child env mid (mkMsg KCommand b) now (mkOrigin (h_id h) HTProcess id).
Definition p_tmo (mid : string) (b : Body) (t : Z) : Env :=
  new_timeout env mid (mkMsg KTimeout b) now t (mkOrigin (h_id h) HTProcess id).
Definition ps_end (s : PScope) (b : bool) : PScope :=
  mkPScope (ps_root s) b (ps_commands s) (ps_ready s) (ps_pending s).
Definition ps_add_cmd (s : PScope) (e : Env) : PScope :=
  mkPScope (ps_root s) (ps_ended s) (ps_commands s ++ [e]) (ps_ready s) (ps_pending s).
Definition ps_add_tmo (s : PScope) (t : Z) (e : Env) : PScope :=
  if (now <? t)%Z
  then mkPScope (ps_root s) (ps_ended s) (ps_commands s) (ps_ready s) (ps_pending s ++ [e])
  else mkPScope (ps_root s) (ps_ended s) (ps_commands s) (ps_ready s ++ [e]) (ps_pending s).

Record POK : Prop := {
  po_act : forall f g s x, I g s x -> I (g_act f g) s x;
  po_mutate : forall f g s x, I g s x ->
    I g (mkPScope (f (ps_root s)) (ps_ended s) (ps_commands s) (ps_ready s) (ps_pending s)) x;
  po_revert : forall g s x, I g s x -> ps_ended s = true ->
    let f := ProcessInstanceEndingReverted (h_id h) id (ps_root s) env in
    check x f /\ I g (ps_end s false) (upd x f);
  po_execute : forall g s x b g' mid, I g s x -> ps_ended s = false ->
    produces h (KCommand, b_name b) = true -> b_invalid b = None ->
    next_id o g = (g', mid) ->
    let f := CommandExecutedByProcess (h_id h) id (ps_root s) env (p_cmd mid b) in
    check x f /\ I g' (ps_add_cmd s (p_cmd mid b)) (upd x f);
  po_schedule : forall g s x b t g' mid, I g s x -> ps_ended s = false ->
    produces h (KTimeout, b_name b) = true -> b_invalid b = None ->
    next_id o g = (g', mid) ->
    let f := TimeoutScheduledByProcess (h_id h) id (ps_root s) env (p_tmo mid b t) in
    check x f /\ I g' (ps_add_tmo s t (p_tmo mid b t)) (upd x f);
  po_end : forall g s x, I g s x -> ps_ended s = false ->
    let f := ProcessInstanceEnded (h_id h) id (ps_root s) env in
    check x f /\ I g (ps_end s true) (upd x f);
  po_log : forall g s x str, I g s x ->
    let f := MessageLoggedByProcess (h_id h) id (ps_root s) env str in
    check x f /\ I g s (upd x f)
}.

Lemma p_revert_sim (K : POK) g s x s' fs :
  I g s x -> p_revert h env id s = (s', fs) ->
  good x fs /\ I g s' (foldl upd x fs) /\ ps_ended s' = false /\ ps_root s' = ps_root s.
Proof.
  intros HI. unfold p_revert. destruct (ps_ended s) eqn:Ee.
  - intros [= <- <-]. destruct (po_revert K _ _ _ HI Ee) as [H1 H2].
    split; [split; done|]. split; [exact H2|done].
  - intros [= <- <-]. done.
Qed.

Lemma p_check_none m :
  p_check h env meth m = None -> produces h (m_type m) = true /\ m_invalid m = None.
Proof.
  unfold p_check. destruct (produces h (m_type m)); [|done]. cbn [negb].
  destruct (m_invalid m); done.
Qed.

Lemma p_execute_sim (K : POK) b g s x g' s' fs v :
  I g s x -> p_execute o h now env id meth b g s = (g', s', fs, v) ->
  good x fs /\ I g' s' (foldl upd x fs).
Proof.
  intros HI. unfold p_execute.
  destruct (p_check _ _ _ _) eqn:Ec; [intros [= <- <- <- <-]; done|].
  apply p_check_none in Ec as [Ep Ei].
  destruct (p_revert h env id s) as [s1 fs1] eqn:Er.
  destruct (p_revert_sim K _ _ _ _ _ HI Er) as (H1 & H2 & He & Hr).
  destruct (next_id o g) as [g1 mid] eqn:En. intros [= <- <- <- <-].
  destruct (po_execute K _ _ _ _ _ _ H2 He Ep Ei En) as [H3 H4].
  rewrite good_app, foldl_app. split; [split; [done|split; done]|exact H4].
Qed.

Lemma p_schedule_sim (K : POK) b t g s x g' s' fs v :
  I g s x -> p_schedule o h now env id meth b t g s = (g', s', fs, v) ->
  good x fs /\ I g' s' (foldl upd x fs).
Proof.
  intros HI. unfold p_schedule.
  destruct (p_check _ _ _ _) eqn:Ec; [intros [= <- <- <- <-]; done|].
  apply p_check_none in Ec as [Ep Ei].
  destruct (p_revert h env id s) as [s1 fs1] eqn:Er.
  destruct (p_revert_sim K _ _ _ _ _ HI Er) as (H1 & H2 & He & Hr).
  destruct (next_id o g) as [g1 mid] eqn:En. intros [= <- <- <- <-].
  destruct (po_schedule K _ _ _ _ t _ _ H2 He Ep Ei En) as [H3 H4].
  rewrite good_app, foldl_app. unfold ps_add_tmo in H4.
  split; [split; [done|split; [|done]]|].
  - destruct (now <? t)%Z; exact H3.
  - destruct (now <? t)%Z; exact H4.
Qed.

Lemma p_run_sim (K : POK) p g s x g' s' fs v :
  I g s x -> p_run o h now env id meth p g s = (g', s', fs, v) ->
  good x fs /\ I g' s' (foldl upd x fs).
Proof.
  revert g s x g' s' fs v.
  induction p as [e|w|f k IH|f k IH|b k IH|b t k IH|k IH|str k IH]; intros g s x g' s' fs v HI; cbn.
  - intros [= <- <- <- <-]. done.
  - intros [= <- <- <- <-]. done.
  - apply IH. apply (po_act K). done.
  - apply IH. apply (po_mutate K). done.
  - destruct (p_execute _ _ _ _ _ _ _ _ _) as [[[g1 s1] fs1] v1] eqn:E1.
    destruct (p_execute_sim K _ _ _ _ _ _ _ _ HI E1) as [H1 H2].
    destruct (p_run _ _ _ _ _ _ _ _ _) as [[[g2 s2] fs2] v2] eqn:E2.
    intros [= <- <- <- <-]. rewrite good_app, foldl_app.
    destruct (IH _ _ _ _ _ _ _ _ H2 E2). done.
  - destruct (p_schedule _ _ _ _ _ _ _ _ _ _) as [[[g1 s1] fs1] v1] eqn:E1.
    destruct (p_schedule_sim K _ _ _ _ _ _ _ _ _ HI E1) as [H1 H2].
    destruct (p_run _ _ _ _ _ _ _ _ _) as [[[g2 s2] fs2] v2] eqn:E2.
    intros [= <- <- <- <-]. rewrite good_app, foldl_app.
    destruct (IH _ _ _ _ _ _ _ _ H2 E2). done.
  - unfold p_end. destruct (ps_ended s) eqn:Ee.
    + destruct (p_run _ _ _ _ _ _ _ _ _) as [[[g2 s2] fs2] v2] eqn:E2.
      intros [= <- <- <- <-]. eapply IH; eassumption.
    + destruct (p_run _ _ _ _ _ _ _ _ _) as [[[g2 s2] fs2] v2] eqn:E2.
      intros [= <- <- <- <-]. destruct (po_end K _ _ _ HI Ee) as [H1 H2]. cbn.
      destruct (IH _ _ _ _ _ _ _ H2 E2). done.
  - destruct (p_run _ _ _ _ _ _ _ _ _) as [[[g2 s2] fs2] v2] eqn:E2.
    intros [= <- <- <- <-]. destruct (po_log K _ _ _ str HI) as [H1 H2]. cbn.
    destruct (IH _ _ _ _ _ _ _ H2 E2). done.
Qed.
End PRun.
End Prog.

(** ** What the controllers do, case by case *)
Section Cases.
Context {P : Params}.

(** The state and the result of the controllers once the handler has returned. *)
Definition a_commit (hist : gmap string (list Env)) (id : string) (s : AScope) (v : option PVal)
  : gmap string (list Env) :=
  match v with
  | Some _ => hist
  | None => if as_exists s then <[id := default [] (hist !! id) ++ as_events s]> hist else delete id hist
  end.
Definition a_result (h : Handler) (env : Env) (s : AScope) (v : option PVal) : HRes :=
  match enrich (h_id h) "AggregateMessageHandler" "HandleCommand" (e_msg env) v with
  | Some v => HPan v
  | None => HRet (as_events s) None
  end.
Definition i_result (h : Handler) (env : Env) (evs : list Env) (r : option Err + PVal) : HRes :=
  match r with
  | inl e => HRet evs e
  | inr v => HPan (default v (enrich (h_id h) "IntegrationMessageHandler" "HandleCommand" (e_msg env) (Some v)))
  end.
Definition p_commit (o : Oracle) (id : string) (s : PScope) (ps : PState) (res : option Err + PVal) : PState :=
  match res with
  | inr _ | inl (Some _) => p_store_mutation id s ps
  | inl None => if ps_ended s then
                  (if bool_decide (is_Some (pc_instances ps !! id)) then p_delete id ps else ps)
                else p_update o id s ps
  end.
Definition p_result (h : Handler) (env : Env) (meth : string) (s : PScope) (res : option Err + PVal) : HRes :=
  match res with
  | inr v => HPan (default v (enrich (h_id h) "ProcessMessageHandler" meth (e_msg env) (Some v)))
  | inl (Some e) => HRet [] (Some e)
  | inl None => HRet (ps_commands s ++ if ps_ended s then [] else ps_ready s) None
  end.

Inductive ACase (o : Oracle) (h : Handler) (a : AggImpl) (now : Z) (env : Env)
    (g : GState) (hist : gmap string (list Env))
  : GState -> gmap string (list Env) -> list Fact -> HRes -> Prop :=
| ACReject v : ACase o h a now env g hist g hist [] (HPan v)
| ACRun id r0 r ex f g' s fs v :
  consumes h (m_type (e_msg env)) = true ->
  ag_route a (e_msg env) = inl id -> id <> "" -> ag_new a = Some r0 ->
  a_replay h a r0 (default [] (hist !! id)) = (r, None) ->
  ex = bool_decide (is_Some (hist !! id)) ->
  f = (if ex then AggregateInstanceLoaded (h_id h) id r env else AggregateInstanceNotFound (h_id h) id env) ->
  a_run o h a now env id (ag_handle a id (e_msg env)) g (mkAScope r None ex false []) = (g', s, fs, v) ->
  ACase o h a now env g hist g' (a_commit hist id s v) (f :: fs) (a_result h env s v).

Lemma a_handle_cases o h a now env g hist g' hist' fs r :
  a_handle o h a now env g hist = (g', hist', fs, r) ->
  ACase o h a now env g hist g' hist' fs r.
Proof.
  unfold a_handle. destruct (consumes h (m_type (e_msg env))) eqn:Ec; cbn [negb].
  2:{ intros [= <- <- <- <-]. constructor. }
  destruct (ag_route a (e_msg env)) as [id|v] eqn:Er.
  2:{ intros [= <- <- <- <-]. constructor. }
  destruct (decide (id = "")) as [->|Hid]; [intros [= <- <- <- <-]; constructor|].
  destruct (ag_new a) as [r0|] eqn:En; [|intros [= <- <- <- <-]; constructor].
  destruct (a_replay _ _ _ _) as [r1 [v|]] eqn:Ep; [intros [= <- <- <- <-]; constructor|].
  destruct (a_run _ _ _ _ _ _ _ _ _) as [[[g1 s1] fs1] v1] eqn:Erun.
  pose proof (ACRun o h a now env g hist id r0 r1 _ _ g1 s1 fs1 v1 Ec Er Hid En Ep eq_refl eq_refl Erun) as HC.
  unfold a_commit, a_result in HC. destruct v1 as [v1|].
  - destruct (enrich _ _ _ _ (Some v1)) as [w|] eqn:Ew.
    + intros [= <- <- <- <-]. exact HC.
    + apply enrich_none in Ew. done.
  - cbn in HC. intros [= <- <- <- <-]. exact HC.
Qed.

Inductive ICase (o : Oracle) (h : Handler) (i : IntImpl) (now : Z) (env : Env) (g : GState)
  : GState -> list Fact -> HRes -> Prop :=
| ICReject v : ICase o h i now env g g [] (HPan v)
| ICRun g' evs fs r :
  consumes h (m_type (e_msg env)) = true ->
  i_run o h now env (in_handle i (e_msg env)) g [] = (g', evs, fs, r) ->
  ICase o h i now env g g' fs (i_result h env evs r).

Lemma i_handle_cases o h i now env g g' fs r :
  i_handle o h i now env g = (g', fs, r) -> ICase o h i now env g g' fs r.
Proof.
  unfold i_handle. destruct (consumes h (m_type (e_msg env))) eqn:Ec; cbn [negb].
  2:{ intros [= <- <- <-]. constructor. }
  destruct (i_run _ _ _ _ _ _ _) as [[[g1 evs] fs1] r1] eqn:Erun.
  pose proof (ICRun o h i now env g g1 evs fs1 r1 Ec Erun) as HC.
  destruct r1 as [e|v]; intros [= <- <- <-]; exact HC.
Qed.

Definition p_method (pi : ProcImpl) (env : Env) (id : string) : string * PProg :=
  match m_kind (e_msg env) with
  | KTimeout => ("HandleTimeout", pr_timeout pi id (e_sched env) (e_msg env))
  | _ => ("HandleEvent", pr_event pi id (e_created env) (e_msg env))
  end.

Inductive PCase (o : Oracle) (h : Handler) (pi : ProcImpl) (now : Z) (env : Env)
    (g : GState) (ps : PState) : GState -> PState -> list Fact -> HRes -> Prop :=
| PCReject g' v : g_next g' = g_next g -> PCase o h pi now env g ps g' ps [] (HPan v)
| PCRouteErr g' e : g_next g' = g_next g -> m_kind (e_msg env) = KEvent ->
    PCase o h pi now env g ps g' ps [] (HRet [] (Some e))
| PCEventIgnored g' : g_next g' = g_next g -> m_kind (e_msg env) = KEvent ->
    PCase o h pi now env g ps g' ps [ProcessEventIgnored (h_id h) env] (HRet [] None)
| PCTimeoutIgnored og : m_kind (e_msg env) = KTimeout -> e_origin env = Some og ->
    pc_instances ps !! o_instance og = None ->
    PCase o h pi now env g ps g ps [ProcessTimeoutIgnored (h_id h) (o_instance og) env] (HRet [] None)
| PCNilRoot g' id v : g_next g' = g_next g ->
    m_kind (e_msg env) = KEvent ->
    pc_instances ps !! id = None -> pr_new pi = None ->
    PCase o h pi now env g ps g' ps
      [ProcessInstanceNotFound (h_id h) id env; ProcessInstanceBegun (h_id h) id None env] (HPan v)
| PCRun g1 id r pre g' s fs res :
    consumes h (m_type (e_msg env)) = true ->
    g_next g1 = g_next g ->
    (m_kind (e_msg env) = KEvent /\ id <> "" \/
     m_kind (e_msg env) = KTimeout /\ id = origin_instance env /\ e_origin env <> None /\
       is_Some (pc_instances ps !! id)) ->
    (pc_instances ps !! id = Some r /\ pre = [ProcessInstanceLoaded (h_id h) id r env] \/
     pc_instances ps !! id = None /\ pr_new pi = Some r /\
       pre = [ProcessInstanceNotFound (h_id h) id env; ProcessInstanceBegun (h_id h) id (Some r) env]) ->
    p_run o h now env id (p_method pi env id).1 (p_method pi env id).2 g1 (mkPScope r false [] [] [])
      = (g', s, fs, res) ->
    PCase o h pi now env g ps g' (p_commit o id s ps res) (pre ++ fs)
      (p_result h env (p_method pi env id).1 s res).

Lemma p_handle_cases o h pi now env g ps g' ps' fs r :
  p_handle o h pi now env g ps = (g', ps', fs, r) ->
  PCase o h pi now env g ps g' ps' fs r.
Proof.
  unfold p_handle. destruct (consumes h (m_type (e_msg env))) eqn:Ec; cbn [negb].
  2:{ intros [= <- <- <- <-]. constructor. done. }
  assert (Hrun : forall g1 id,
    g_next g1 = g_next g ->
    (m_kind (e_msg env) = KEvent /\ id <> "" \/
     m_kind (e_msg env) = KTimeout /\ id = origin_instance env /\ e_origin env <> None /\
       is_Some (pc_instances ps !! id)) ->
    match pc_instances ps !! id with
    | Some r =>
      let '(g, ps, fs', res) := p_handle_instance o h pi now env id r g1 ps in
      (g, ps, [] ++ ProcessInstanceLoaded (h_id h) id r env :: fs', res)
    | None =>
      let fs := [] ++ [ProcessInstanceNotFound (h_id h) id env;
                       ProcessInstanceBegun (h_id h) id (pr_new pi) env] in
      match pr_new pi with
      | None => (g1, ps, fs, HPan (PUnexpBeh (h_id h) "ProcessMessageHandler" "New" (e_msg env) BNilRoot))
      | Some r =>
        let '(g, ps, fs', res) := p_handle_instance o h pi now env id r g1 ps in
        (g, ps, fs ++ fs', res)
      end
    end = (g', ps', fs, r) -> PCase o h pi now env g ps g' ps' fs r).
  { intros g1 id Hg Hk.
    assert (Hinst : forall rt pre,
      (pc_instances ps !! id = Some rt /\ pre = [ProcessInstanceLoaded (h_id h) id rt env] \/
       pc_instances ps !! id = None /\ pr_new pi = Some rt /\
       pre = [ProcessInstanceNotFound (h_id h) id env; ProcessInstanceBegun (h_id h) id (Some rt) env]) ->
      (let '(g, ps, fs', res) := p_handle_instance o h pi now env id rt g1 ps in
       (g, ps, pre ++ fs', res)) = (g', ps', fs, r) -> PCase o h pi now env g ps g' ps' fs r).
    { intros rt pre Hpre. unfold p_handle_instance.
      fold (p_method pi env id). destruct (p_method pi env id) as [meth prog] eqn:Em.
      destruct (p_run _ _ _ _ _ _ _ _ _) as [[[g2 s2] fs2] res2] eqn:Erun.
      assert (HC := PCRun o h pi now env g ps g1 id rt pre g2 s2 fs2 res2 Ec Hg Hk Hpre).
      rewrite Em in HC. cbn [fst snd] in HC. specialize (HC Erun).
      unfold p_commit, p_result in HC. destruct res2 as [[e|]|v].
      - intros [= <- <- <- <-]. exact HC.
      - destruct (ps_ended s2).
        + rewrite app_nil_r in HC. intros [= <- <- <- <-]. exact HC.
        + intros [= <- <- <- <-]. exact HC.
      - intros [= <- <- <- <-]. exact HC. }
    destruct (pc_instances ps !! id) as [rt|] eqn:Ei.
    - intros H. eapply Hinst; [left; split; reflexivity|].
      destruct (p_handle_instance _ _ _ _ _ _ _ _ _) as [[[? ?] ?] ?]. exact H.
    - cbn [app]. destruct (pr_new pi) as [rt|] eqn:Enew.
      + intros H. eapply Hinst; [right; repeat split; reflexivity|].
        destruct (p_handle_instance _ _ _ _ _ _ _ _ _) as [[[? ?] ?] ?]. exact H.
      + intros [= <- <- <- <-]. apply PCNilRoot; [done| |done|done].
        destruct Hk as [[Hk _]|(_ & _ & _ & Hk)]; [done|]. destruct Hk; done. }
  unfold p_route. destruct (m_kind (e_msg env)) eqn:Ek.
  - intros [= <- <- <- <-]. constructor. done.
  - destruct (pr_route pi (e_msg env) (g_user g)) as [u [[[id ok] [e|]]|v]].
    + destruct ok; intros [= <- <- <- <-]; apply PCRouteErr; done.
    + destruct ok.
      * destruct (decide (id = "")) as [->|Hid].
        -- intros [= <- <- <- <-]. constructor. done.
        -- apply Hrun; [done|]. left. done.
      * intros [= <- <- <- <-]. apply PCEventIgnored; done.
    + intros [= <- <- <- <-]. constructor. done.
  - destruct (e_origin env) as [og|] eqn:Eo.
    + destruct (pc_instances ps !! o_instance og) as [rt|] eqn:Ei.
      * intros H. apply (Hrun g (o_instance og)); [done| |].
        -- right. split; [done|]. split; [unfold origin_instance; rewrite Eo; done|].
           split; [done|]. rewrite Ei. eauto.
        -- exact H.
      * intros [= <- <- <- <-]. eapply PCTimeoutIgnored; done.
    + intros [= <- <- <- <-]. constructor. done.
Qed.

(** Facts a projection can emit. *)
Definition proj_fact (hid : HId) (env : option Env) (f : Fact) : Prop :=
  match f with
  | ProjectionCompactionBegun h' | ProjectionCompactionCompleted h' _ => h' = hid
  | MessageLoggedByProjection h' e _ => h' = hid /\ (e = None \/ e = env)
  | _ => False
  end.

Lemma j_run_facts {A} th hid ev (p : JProg A) g g' fs r env :
  (ev = None \/ ev = env) ->
  j_run th hid ev p g = (g', fs, r) ->
  Forall (proj_fact hid env) (map snd fs) /\ g_next g' = g_next g.
Proof.
  intros Hev. revert g g' fs r.
  induction p as [a|v|f k IH|s k IH]; intros g g' fs r; cbn.
  - intros [= <- <- <-]. split; [constructor|done].
  - intros [= <- <- <-]. split; [constructor|done].
  - intros H. apply IH in H. done.
  - destruct (j_run th hid ev k g) as [[g1 fs1] r1] eqn:E. intros [= <- <- <-].
    apply IH in E as [H1 H2]. split; [|done]. cbn. constructor; done.
Qed.

Lemma j_par_facts o hid ev {A B} (m : JProg A) (c : JProg B) g g' fs r :
  j_par o hid ev m c g = (g', fs, r) ->
  Forall (proj_fact hid (Some ev)) (map snd fs) /\ g_next g' = g_next g.
Proof.
  revert c g g' fs r.
  induction m as [a|v|f k IH|s k IH];
    intros c; induction c as [b|w|f' k' IH'|s' k' IH']; intros g g' fs r;
    cbn -[j_run].
  all: try (destruct (j_run _ _ _ _ _) as [[g1 fs1] r1] eqn:E;
            eapply j_run_facts with (env := Some ev) in E as [H1 H2]; [|auto];
            intros [= <- <- <-]; done).
  all: destruct (o_sched o (g_step g)).
  all: try (intros [= <- <- <-]; split; [constructor|done]).
  all: try (intros H; first [apply IH in H|apply IH' in H]; destruct H; done).
  all: match goal with |- (let '(_, _) := ?t in _) = _ -> _ => destruct t as [[g1 fs1] r1] eqn:E end;
    intros [= <- <- <-]; first [apply IH in E|apply IH' in E]; destruct E as [H1 H2]; cbn;
    (split; [|done]); constructor; [|done]; cbn; auto.
Qed.

Lemma j_handle_facts o cd h j now env g g' fs r :
  j_handle o cd h j now env g = (g', fs, r) ->
  Forall (proj_fact (h_id h) (Some env)) fs /\ g_next g' = g_next g /\
  (forall envs e, r = HRet envs e -> envs = []).
Proof.
  unfold j_handle, j_handle_threads.
  destruct (consumes _ _); cbn [negb]; [|intros [= <- <- <-]; split; [constructor|done]].
  destruct (pj_version j (e_id env) (g_user g)) as [u [[cur [e|]]|v]];
    [intros [= <- <- <-]; split; [constructor|]; split; [done|]; intros ? ? [= <- <-]; done| |
     intros [= <- <- <-]; split; [constructor|done]].
  destruct (decide _); [|intros [= <- <- <-]; split; [constructor|]; split; [done|]; intros ? ? [= <- <-]; done].
  destruct (j_apply _ _ _ _ _ _ _) as [[g1 fs1] r1] eqn:Ea.
  assert (Hf : Forall (proj_fact (h_id h) (Some env)) (map snd fs1) /\ g_next g1 = g_next g).
  { unfold j_apply in Ea. destruct cd.
    - destruct (j_par _ _ _ _ _ _) as [[g2 fs2] r2] eqn:Ep. apply j_par_facts in Ep as [H1 H2].
      destruct r2 as [[[ok e1] ce]|v]; injection Ea as <- <- <-; (split; [|done]); cbn.
      + constructor; [done|]. rewrite map_app. apply Forall_app. split; [done|]. cbn. constructor; done.
      + constructor; done.
    - destruct (j_run _ _ _ _ _) as [[g2 fs2] r2] eqn:Ep.
      eapply j_run_facts with (env := Some env) in Ep as [H1 H2]; [|auto].
      destruct r2 as [[ok e1]|v]; injection Ea as <- <- <-; done. }
  destruct Hf as [Hf Hg].
  destruct r1 as [[[ok [e1|]] ce]|v].
  - intros [= <- <- <-]. split; [done|]. split; [done|]. intros ? ? [= <- <-]; done.
  - destruct ok.
    + destruct (pj_close j (e_id env) (g_user g1)) as [u' [[e1|]|v]]; intros [= <- <- <-];
        (split; [done|]); (split; [done|]); try done; intros ? ? [= <- <-]; done.
    + intros [= <- <- <-]. split; [done|]. split; [done|]. intros ? ? [= <- <-]; done.
  - intros [= <- <- <-]. done.
Qed.

Lemma j_tick_facts h j now g last g' last' fs r :
  j_tick_ctrl h j now g last = (g', last', fs, r) ->
  Forall (proj_fact (h_id h) None) fs /\ g_next g' = g_next g /\
  (forall envs e, r = HRet envs e -> envs = []).
Proof.
  unfold j_tick_ctrl. destruct (_ <=? _)%Z.
  - destruct (j_run _ _ _ _ _) as [[g2 fs2] r2] eqn:Ep.
    eapply j_run_facts with (env := None) in Ep as [H1 H2]; [|auto].
    destruct r2 as [e|v]; intros [= <- <- <- <-]; (split; [|split; [done|]]).
    + constructor; [done|]. apply Forall_app. split; [done|]. constructor; done.
    + intros ? ? [= <- <-]; done.
    + constructor; done.
    + done.
  - intros [= <- <- <- <-]. split; [constructor|]. split; [done|]. intros ? ? [= <- <-]; done.
Qed.
End Cases.
