(** * A simpler simulation principle, for invariants of the controllers' stores
    that do not involve the message queue. *)
From Verif Require Export ProgSim.

Section StoreSim.
Context {P : Params} (c : Config).
Context {X : Type} (check : X -> Fact -> Prop) (upd : X -> Fact -> X) (xreset : X -> X).
Notation good := (good check upd).
Notation CMap := (gmap string CState).

(** [None]: between operations; [Some oo]: during an operation. *)
Context (R : option OOs -> CMap -> X -> Prop).

(** The facts notified by the engine itself that do not surround the work of a
    controller. *)
Definition engine_fact (f : Fact) : Prop :=
  match f with
  | DispatchCycleCompleted _ _ _ _ | TickCycleCompleted _ _ _ | DispatchBegun _ | DispatchCompleted _ _
  | HandlingSkipped _ _ _ | TickSkipped _ _ => True
  | _ => False
  end.

Definition moved (oo : OOs) (h : Handler) (cs : CMap) (cst : CState) (x : X) (fs : list Fact) : Prop :=
  good x fs /\ R (Some oo) (<[h_name h := cst]> cs) (foldl upd x fs).

Record StoreOK : Prop := {
  sto_end : forall oo cs x, R (Some oo) cs x -> R None cs x;
  sto_reset : forall cs x, R None cs x -> R None (cs_reset <$> cs) (xreset x);
  sto_dispatch : forall oo cs x env, R None cs x ->
    let f := DispatchCycleBegun env (oo_now oo) (oo_types oo) (oo_handlers oo) in
    check x f /\ R (Some oo) cs (upd x f);
  sto_tick : forall oo cs x, R None cs x ->
    let f := TickCycleBegun (oo_now oo) (oo_types oo) (oo_handlers oo) in
    check x f /\ R (Some oo) cs (upd x f);
  sto_engine : forall oo cs x f, R (Some oo) cs x -> engine_fact f -> check x f /\ R (Some oo) cs (upd x f);
  sto_tick_none : forall oo h cs x, R (Some oo) cs x -> h ∈ c_app c ->
    h_type h = HTAggregate \/ h_type h = HTIntegration ->
    good x [TickBegun (h_id h); TickCompleted (h_id h) None] /\
    R (Some oo) cs (foldl upd x [TickBegun (h_id h); TickCompleted (h_id h) None]);
  sto_tick_proc : forall oo h pi cs x ps ps' ready,
    R (Some oo) cs x -> h ∈ c_app c -> h_impl h = ImplProc pi ->
    cs !! h_name h = Some (CSProc ps) -> p_tick (oo_now oo) ps = (ps', ready) ->
    moved oo h cs (CSProc ps') x [TickBegun (h_id h); TickCompleted (h_id h) None];
  sto_tick_proj : forall oo h j cs x last g g' last' fs r,
    R (Some oo) cs x -> h ∈ c_app c -> h_impl h = ImplProj j ->
    cs !! h_name h = Some (CSProj last) ->
    j_tick_ctrl h j (oo_now oo) g last = (g', last', fs, r) ->
    moved oo h cs (CSProj last') x (ticking h fs r);
  sto_agg : forall o oo env h a cs x hist g g' hist' fs r,
    R (Some oo) cs x -> h ∈ c_app c -> h_impl h = ImplAgg a ->
    cs !! h_name h = Some (CSAgg hist) -> sort_ok o ->
    a_handle o h a (oo_now oo) env g hist = (g', hist', fs, r) ->
    moved oo h cs (CSAgg hist') x (handling h env fs r);
  sto_proc : forall o oo env h pi cs x ps g g' ps' fs r,
    R (Some oo) cs x -> h ∈ c_app c -> h_impl h = ImplProc pi ->
    cs !! h_name h = Some (CSProc ps) -> sort_ok o ->
    p_handle o h pi (oo_now oo) env g ps = (g', ps', fs, r) ->
    moved oo h cs (CSProc ps') x (handling h env fs r);
  sto_int : forall o oo env h i cs x g g' fs r,
    R (Some oo) cs x -> h ∈ c_app c -> h_impl h = ImplInt i ->
    cs !! h_name h = Some CSInt -> sort_ok o ->
    i_handle o h i (oo_now oo) env g = (g', fs, r) ->
    moved oo h cs CSInt x (handling h env fs r);
  sto_proj : forall o oo env h j cs x last g g' fs r,
    R (Some oo) cs x -> h ∈ c_app c -> h_impl h = ImplProj j ->
    cs !! h_name h = Some (CSProj last) -> sort_ok o ->
    j_handle o (c_compact c) h j (oo_now oo) env g = (g', fs, r) ->
    moved oo h cs (CSProj last) x (handling h env fs r)
}.

Definition SI (st : EState) (x : X) : Prop := R None (es_cs st) x.
Definition SO (oo : OOs) (cy : option Env) (q : list Env) (st : EState) (x : X) : Prop := R (Some oo) (es_cs st) x.
Definition SM (oo : OOs) (cy : option Env) (env : Env) (hs : list (option Handler)) (q : list Env)
  (st : EState) (x : X) : Prop := R (Some oo) (es_cs st) x.
Definition ST (oo : OOs) (hs : list Handler) (q : list Env) (st : EState) (x : X) : Prop := R (Some oo) (es_cs st) x.

Lemma store_sim : StoreOK -> SimOK c check upd xreset SI SO SM ST.
Proof.
  intros K.
  assert (Hpassive : forall oo cs x f, R (Some oo) cs x -> engine_fact f -> check x f /\ R None cs (upd x f)).
  { intros oo cs x f HR Hf. destruct (sto_engine K oo cs x f HR Hf) as [H1 H2].
    split; [exact H1|]. eapply sto_end; eassumption. }
  assert (Hmoved : forall oo cy env hs q h st g cst x fs r,
    moved oo h (es_cs st) cst x (handling h env fs r) ->
    after_handle check upd SI SM oo cy env hs q (st_put st g h cst) x (handling h env fs r) r).
  { intros oo cy env hs q h st g cst x fs r [H1 H2]. split; [exact H1|].
    destruct r; [exact H2|]. eapply sto_end; eassumption. }
  constructor; unfold SI, SO, SM, ST.
  - intros st st' x [_ <-]. done.
  - intros oo cy q st st' x [_ <-]. done.
  - intros oo hs q st st' x [_ <-]. done.
  - intros o st x g id HR _. exact HR.
  - intros st x. apply (sto_reset K).
  - intros o oo m hs st x g id HR _ _ _ _. apply (sto_dispatch K). exact HR.
  - intros oo env q st x err HR _. eapply Hpassive; [exact HR|done].
  - intros oo order st x HR _. apply (sto_tick K). exact HR.
  - intros oo h hs q st x r HR _ _. eapply sto_engine; [exact K|exact HR|done].
  - intros oo h hs q st x cs HR Happ _ Hl _ Ht. cbn [st_put es_cs].
    rewrite (insert_id _ _ _ Hl). apply (sto_tick_none K); done.
  - intros oo h pi hs q st x ps ps' ready HR Happ _ Hi Hl Ht.
    eapply sto_tick_proc; eassumption.
  - intros oo h j hs q st x last g' last' fs r HR Happ _ Hi Hl Hj.
    destruct (sto_tick_proj K _ _ _ _ _ _ _ _ _ _ _ HR Happ Hi Hl Hj) as [H1 H2].
    split; [exact H1|]. destruct r; [exact H2|]. eapply sto_end; eassumption.
  - done.
  - intros oo hs q st x err HR _. eapply Hpassive; [exact HR|done].
  - intros oo q st x err HR _. eapply Hpassive; [exact HR|done].
  - intros oo cy env q st x HR _. eapply sto_end; eassumption.
  - intros oo cy env q hs st x HR _. eapply sto_engine; [exact K|exact HR|done].
  - intros oo cy env hs q st x HR. eapply sto_end; eassumption.
  - intros oo cy env h hs q st x r HR _ _. eapply sto_engine; [exact K|exact HR|done].
  - intros o oo cy env h a hs q st x hist g' hist' fs r HR Happ _ Hi Hl Hs Ha.
    apply Hmoved. eapply sto_agg; eassumption.
  - intros o oo cy env h pi hs q st x ps g' ps' fs r HR Happ _ Hi Hl Hs Hp.
    apply Hmoved. eapply sto_proc; eassumption.
  - intros o oo cy env h i hs q st x g' fs r HR Happ _ Hi Hl Hs Hp.
    apply Hmoved. eapply sto_int; eassumption.
  - intros o oo cy env h j hs q st x last g' fs r HR Happ _ Hi Hl Hs Hp.
    apply Hmoved. eapply sto_proj; eassumption.
  - intros oo cy env q st x err HR. eapply sto_engine; [exact K|exact HR|done].
Qed.
End StoreSim.

(** ** Controllers notify facts about their own handler only *)
Section Owner.
Context {P : Params}.

(** The handler a fact notified by a controller or a scope is about. *)
Definition fact_owner (f : Fact) : option (HType * HId) :=
  match f with
  | AggregateInstanceLoaded h _ _ _ | AggregateInstanceNotFound h _ _ | AggregateInstanceCreated h _ _ _
  | AggregateInstanceDestroyed h _ _ _ | AggregateInstanceDestructionReverted h _ _ _
  | EventRecordedByAggregate h _ _ _ _ | MessageLoggedByAggregate h _ _ _ _ => Some (HTAggregate, h)
  | ProcessInstanceLoaded h _ _ _ | ProcessEventIgnored h _ | ProcessTimeoutIgnored h _ _
  | ProcessInstanceNotFound h _ _ | ProcessInstanceBegun h _ _ _ | ProcessInstanceEnded h _ _ _
  | ProcessInstanceEndingReverted h _ _ _ | CommandExecutedByProcess h _ _ _ _
  | TimeoutScheduledByProcess h _ _ _ _ | MessageLoggedByProcess h _ _ _ _ => Some (HTProcess, h)
  | EventRecordedByIntegration h _ _ | MessageLoggedByIntegration h _ _ => Some (HTIntegration, h)
  | ProjectionCompactionBegun h | ProjectionCompactionCompleted h _ | MessageLoggedByProjection h _ _ =>
    Some (HTProjection, h)
  | _ => None
  end.
Definition owned (t : HType) (h : Handler) (f : Fact) : Prop := fact_owner f = Some (t, h_id h).

Lemma good_Forall {X} (x : X) (Q : Fact -> Prop) (upd : X -> Fact -> X) fs :
  good (fun _ f => Q f) upd x fs -> Forall Q fs.
Proof. revert x; induction fs as [|f fs IH]; intros x H; [constructor|]. destruct H. constructor; [done|eauto]. Qed.

Lemma Forall_good {X} (x : X) (Q : Fact -> Prop) (upd : X -> Fact -> X) fs :
  Forall Q fs -> good (fun _ f => Q f) upd x fs.
Proof. revert x; induction fs as [|f fs IH]; intros x H; [done|]. apply Forall_cons in H as [H1 H2]. split; [done|]. apply IH. done. Qed.

Lemma a_run_owned o h a now cmd id p g s g' s' fs v :
  a_run o h a now cmd id p g s = (g', s', fs, v) -> Forall (owned HTAggregate h) fs.
Proof.
  intros H. eapply (good_Forall tt _ (fun x _ => x)).
  eapply (a_run_sim (fun _ f => owned HTAggregate h f) (fun (x : unit) _ => x) o h a now cmd id (fun _ _ _ => True));
    [|done|exact H].
  constructor; try done. intros g1 s1 x b _ _ _ _ f. split; [|done]. subst f. destruct (as_destroyed s1); done.
Qed.

Lemma a_handle_owned o h a now env g hist g' hist' fs r :
  a_handle o h a now env g hist = (g', hist', fs, r) -> Forall (owned HTAggregate h) fs.
Proof.
  intros H. apply a_handle_cases in H. destruct H as [|? ? ? ? ? ? ? ? ? _ _ _ _ _ _ -> Hrun]; [constructor|].
  constructor; [destruct ex; done|]. eapply a_run_owned. eassumption.
Qed.

Lemma i_run_owned o h now cmd p g s g' s' fs v :
  i_run o h now cmd p g s = (g', s', fs, v) -> Forall (owned HTIntegration h) fs.
Proof.
  intros H. eapply (good_Forall tt _ (fun x _ => x)).
  eapply (i_run_sim (fun _ f => owned HTIntegration h f) (fun (x : unit) _ => x) o h now cmd (fun _ _ _ => True));
    [|done|exact H].
  constructor; done.
Qed.

Lemma i_handle_owned o h i now env g g' fs r :
  i_handle o h i now env g = (g', fs, r) -> Forall (owned HTIntegration h) fs.
Proof.
  intros H. apply i_handle_cases in H. destruct H as [|? ? ? ? _ Hrun]; [constructor|].
  eapply i_run_owned. eassumption.
Qed.

Lemma p_run_owned o h now cmd id meth p g s g' s' fs v :
  p_run o h now cmd id meth p g s = (g', s', fs, v) -> Forall (owned HTProcess h) fs.
Proof.
  intros H. eapply (good_Forall tt _ (fun x _ => x)).
  eapply (p_run_sim (fun _ f => owned HTProcess h f) (fun (x : unit) _ => x) o h now cmd id meth (fun _ _ _ => True));
    [|done|exact H].
  constructor; done.
Qed.

Lemma p_handle_owned o h pi now env g ps g' ps' fs r :
  p_handle o h pi now env g ps = (g', ps', fs, r) -> Forall (owned HTProcess h) fs.
Proof.
  intros H. apply p_handle_cases in H.
  destruct H as [| | | | |? ? ? ? ? ? ? ? _ _ _ Hpre Hrun]; try (repeat constructor; fail).
  apply Forall_app. split; [|eapply p_run_owned; eassumption].
  destruct Hpre as [[_ ->]|(_ & _ & ->)]; repeat constructor.
Qed.

Lemma proj_owned h env fs : Forall (proj_fact (h_id h) env) fs -> Forall (owned HTProjection h) fs.
Proof.
  intros H. eapply Forall_impl; [exact H|]. intros f Hf.
  destruct f; try done; cbn in Hf; unfold owned; cbn; destruct Hf; subst; done.
Qed.

Lemma j_handle_owned o cd h j now env g g' fs r :
  j_handle o cd h j now env g = (g', fs, r) -> Forall (owned HTProjection h) fs.
Proof. intros H. apply j_handle_facts in H as (H & _). eapply proj_owned. exact H. Qed.

Lemma j_tick_owned h j now g last g' last' fs r :
  j_tick_ctrl h j now g last = (g', last', fs, r) -> Forall (owned HTProjection h) fs.
Proof. intros H. apply j_tick_facts in H as (H & _). eapply proj_owned. exact H. Qed.

End Owner.
