(** * Generic simulation principle for the engine.

    A specification consists of a bookkeeping function that reads facts one by
    one ([upd]) and of a predicate that says which facts are acceptable in view
    of what was read before ([check]).  If a relation between engine states and
    the bookkeeping is preserved by the few building blocks of the engine, then
    every fact of every history is acceptable. *)
From Verif Require Export EngineFacts.

Section Good.
Context {P : Params} {X : Type}.
Context (check : X -> Fact -> Prop) (upd : X -> Fact -> X).

(** Every fact is acceptable when it is notified. *)
Fixpoint good (x : X) (fs : list Fact) : Prop :=
  match fs with
  | [] => True
  | f :: fs => check x f /\ good (upd x f) fs
  end.

Lemma good_app x fs fs' : good x (fs ++ fs') <-> good x fs /\ good (foldl upd x fs) fs'.
Proof.
  revert x; induction fs as [|f fs IH]; intros x; cbn; [tauto|].
  rewrite IH. tauto.
Qed.

Lemma good_at x fs pre f post :
  good x fs -> fs = pre ++ f :: post -> check (foldl upd x pre) f.
Proof. intros H ->. apply good_app in H as [_ [H _]]. exact H. Qed.

(** Facts that are always acceptable and change nothing. *)
Lemma good_ignore x fs :
  Forall (fun f => forall y, check y f /\ upd y f = y) fs -> good x fs /\ foldl upd x fs = x.
Proof.
  revert x; induction fs as [|f fs IH]; intros x Hf; cbn; [done|].
  apply Forall_cons in Hf as [H1 H2]. destruct (H1 x) as [H3 ->].
  destruct (IH x H2) as [H4 H5]. done.
Qed.

Context (xreset : X -> X).

Definition upd_ev (x : X) (ev : Ev) : X :=
  match ev with EvFact f => upd x f | EvReset => xreset x end.

Fixpoint good_evs (x : X) (evs : list Ev) : Prop :=
  match evs with
  | [] => True
  | ev :: evs => match ev with EvFact f => check x f | EvReset => True end /\ good_evs (upd_ev x ev) evs
  end.

Lemma good_evs_app x evs evs' :
  good_evs x (evs ++ evs') <-> good_evs x evs /\ good_evs (foldl upd_ev x evs) evs'.
Proof.
  revert x; induction evs as [|ev evs IH]; intros x; cbn; [tauto|].
  rewrite IH. tauto.
Qed.

Lemma good_evs_facts x fs : good_evs x (EvFact <$> fs) <-> good x fs.
Proof.
  revert x; induction fs as [|f fs IH]; intros x; cbn; [tauto|].
  rewrite IH. tauto.
Qed.

Lemma foldl_upd_ev_facts x fs : foldl upd_ev x (EvFact <$> fs) = foldl upd x fs.
Proof. revert x; induction fs as [|f fs IH]; intros x; cbn; [done|]. apply IH. Qed.

(** What [good_evs] says about each fact of the sequence. *)
Lemma good_evs_at x evs pre f post :
  good_evs x evs -> evs = pre ++ EvFact f :: post -> check (foldl upd_ev x pre) f.
Proof. intros H ->. apply good_evs_app in H as [_ [H _]]. exact H. Qed.

End Good.

(** States that agree on everything but the user's world and the step number. *)
Definition st_equiv {P : Params} (a b : EState) : Prop :=
  g_next (es_g a) = g_next (es_g b) /\ es_cs a = es_cs b.

(** The facts e_handle and e_tick_one put around those of a controller. *)
Definition handling {P : Params} (h : Handler) (env : Env) (fs : list Fact) (r : HRes) : list Fact :=
  HandlingBegun (h_id h) env :: fs ++
  match r with HRet _ e => [HandlingCompleted (h_id h) env e] | HPan _ => [] end.
Definition ticking {P : Params} (h : Handler) (fs : list Fact) (r : HRes) : list Fact :=
  TickBegun (h_id h) :: fs ++
  match r with HRet _ e => [TickCompleted (h_id h) e] | HPan _ => [] end.
Definition st_put {P : Params} (st : EState) (g : GState) (h : Handler) (cs : CState) : EState :=
  mkE g (<[h_name h := cs]> (es_cs st)).

Lemma e_handle_eq {P : Params} c o oo env h st :
  e_handle c o oo env (Some h) st =
  match skip_handler h oo with
  | Some r => (st, [HandlingSkipped (h_id h) env r], HRet [] None)
  | None =>
    match es_cs st !! h_name h with
    | None => (st, [HandlingBegun (h_id h) env], HPan PNil)
    | Some cs =>
      let '(g, cs, fs, r) := ctrl_handle c o h (oo_now oo) env (es_g st) cs in
      (st_put st g h cs, handling h env fs r, r)
    end
  end.
Proof.
  cbn. destruct (skip_handler h oo); [done|]. destruct (es_cs st !! h_name h) as [cs|]; [|done].
  destruct (ctrl_handle _ _ _ _ _ _ _) as [[[g cs'] fs] r]. unfold handling.
  destruct r; rewrite ?app_nil_r; done.
Qed.

Lemma e_tick_one_eq {P : Params} c o oo h st :
  e_tick_one c o oo h st =
  match skip_handler h oo with
  | Some r => (st, [TickSkipped (h_id h) r], HRet [] None)
  | None =>
    match es_cs st !! h_name h with
    | None => (st, [TickBegun (h_id h)], HPan PNil)
    | Some cs =>
      let '(g, cs, fs, r) := ctrl_tick h (oo_now oo) (es_g st) cs in
      (st_put st g h cs, ticking h fs r, r)
    end
  end.
Proof.
  unfold e_tick_one. destruct (skip_handler h oo); [done|]. destruct (es_cs st !! h_name h) as [cs|]; [|done].
  destruct (ctrl_tick _ _ _ _) as [[[g cs'] fs] r]. unfold ticking.
  destruct r; rewrite ?app_nil_r; done.
Qed.

Section Sim.
Context {P : Params} (c : Config).
Context {X : Type} (check : X -> Fact -> Prop) (upd : X -> Fact -> X) (xreset : X -> X).
Notation good := (good check upd).
Notation good_evs := (good_evs check upd xreset).
Notation upd_ev := (upd_ev upd xreset).

(** Relations: between operations; during an operation between messages, with
    the queue; during a message, with the handlers still to be engaged and the
    queue; during the first part of a tick.  The [option Env] is the dispatched
    message ([None] for a tick). *)
Context (RI : EState -> X -> Prop)
        (RO : OOs -> option Env -> list Env -> EState -> X -> Prop)
        (RM : OOs -> option Env -> Env -> list (option Handler) -> list Env -> EState -> X -> Prop)
        (RT : OOs -> list Handler -> list Env -> EState -> X -> Prop).

(** The outcome of engaging a handler. *)
Definition after_handle oo cy env hs q st' x fs r : Prop :=
  good x fs /\
    let x' := foldl upd x fs in
    match r with HRet envs _ => RM oo cy env hs (q ++ envs) st' x' | HPan _ => RI st' x' end.
Definition after_tick oo hs q st' x fs r : Prop :=
  good x fs /\
    let x' := foldl upd x fs in
    match r with HRet envs _ => RT oo hs (q ++ envs) st' x' | HPan _ => RI st' x' end.

Record SimOK : Prop := {
  so_equiv_I : forall st st' x, st_equiv st st' -> RI st x -> RI st' x;
  so_equiv_O : forall oo cy q st st' x, st_equiv st st' -> RO oo cy q st x -> RO oo cy q st' x;
  so_equiv_T : forall oo hs q st st' x, st_equiv st st' -> RT oo hs q st x -> RT oo hs q st' x;
  (* an ID is consumed, but the dispatch is rejected *)
  so_reject : forall o st x g id,
    RI st x -> next_id o (es_g st) = (g, id) -> RI (es_set_g st g) x;
  so_reset : forall st x, RI st x -> RI (e_reset c st) (xreset x);
  so_dispatch : forall o oo m hs st x g id,
    RI st x -> next_id o (es_g st) = (g, id) ->
    m_kind m <> KTimeout -> m_invalid m = None -> routes c !! m_type m = Some hs ->
    let env := new_root id m (oo_now oo) in
    check x (DispatchCycleBegun env (oo_now oo) (oo_types oo) (oo_handlers oo)) /\
    RO oo (Some env) [env] (es_set_g st g) (upd x (DispatchCycleBegun env (oo_now oo) (oo_types oo) (oo_handlers oo)));
  so_dispatch_end : forall oo env q st x err,
    RO oo (Some env) q st x -> q = [] \/ (exists s, ECtx s ∈ err) ->
    check x (DispatchCycleCompleted env err (oo_types oo) (oo_handlers oo)) /\ RI st (upd x (DispatchCycleCompleted env err (oo_types oo) (oo_handlers oo)));
  so_tick : forall oo order st x,
    RI st x -> order ≡ₚ c_app c ->
    check x (TickCycleBegun (oo_now oo) (oo_types oo) (oo_handlers oo)) /\
    RT oo order [] st (upd x (TickCycleBegun (oo_now oo) (oo_types oo) (oo_handlers oo)));
  so_tick_skip : forall oo h hs q st x r,
    RT oo (h :: hs) q st x -> h ∈ c_app c -> skip_handler h oo = Some r ->
    check x (TickSkipped (h_id h) r) /\ RT oo hs q st (upd x (TickSkipped (h_id h) r));
  so_tick_none : forall oo h hs q st x cs,
    RT oo (h :: hs) q st x -> h ∈ c_app c -> skip_handler h oo = None ->
    es_cs st !! h_name h = Some cs -> cs_match h cs ->
    h_type h = HTAggregate \/ h_type h = HTIntegration ->
    good x [TickBegun (h_id h); TickCompleted (h_id h) None] /\
      RT oo hs q (st_put st (es_g st) h cs) (foldl upd x [TickBegun (h_id h); TickCompleted (h_id h) None]);
  so_tick_proc : forall oo h pi hs q st x ps ps' ready,
    RT oo (h :: hs) q st x -> h ∈ c_app c -> skip_handler h oo = None -> h_impl h = ImplProc pi ->
    es_cs st !! h_name h = Some (CSProc ps) -> p_tick (oo_now oo) ps = (ps', ready) ->
    good x [TickBegun (h_id h); TickCompleted (h_id h) None] /\
      RT oo hs (q ++ ready) (st_put st (es_g st) h (CSProc ps')) (foldl upd x [TickBegun (h_id h); TickCompleted (h_id h) None]);
  so_tick_proj : forall oo h j hs q st x last g' last' fs r,
    RT oo (h :: hs) q st x -> h ∈ c_app c -> skip_handler h oo = None -> h_impl h = ImplProj j ->
    es_cs st !! h_name h = Some (CSProj last) ->
    j_tick_ctrl h j (oo_now oo) (es_g st) last = (g', last', fs, r) ->
    after_tick oo hs q (st_put st g' h (CSProj last')) x (ticking h fs r) r;
  so_tick_loop : forall oo q st x, RT oo [] q st x -> RO oo None q st x;
  so_tick_cancel : forall oo hs q st x err,
    RT oo hs q st x -> (exists s, ECtx s ∈ err) ->
    check x (TickCycleCompleted err (oo_types oo) (oo_handlers oo)) /\ RI st (upd x (TickCycleCompleted err (oo_types oo) (oo_handlers oo)));
  so_tick_end : forall oo q st x err,
    RO oo None q st x -> q = [] \/ (exists s, ECtx s ∈ err) ->
    check x (TickCycleCompleted err (oo_types oo) (oo_handlers oo)) /\ RI st (upd x (TickCycleCompleted err (oo_types oo) (oo_handlers oo)));
  so_msg_nil : forall oo cy env q st x,
    RO oo cy (env :: q) st x -> targets c env = None -> RI st x;
  so_msg : forall oo cy env q hs st x,
    RO oo cy (env :: q) st x -> targets c env = Some hs ->
    check x (DispatchBegun env) /\ RM oo cy env hs q st (upd x (DispatchBegun env));
  so_nil : forall oo cy env hs q st x,
    RM oo cy env (None :: hs) q st x -> RI st x;
  so_skip : forall oo cy env h hs q st x r,
    RM oo cy env (Some h :: hs) q st x -> h ∈ c_app c -> skip_handler h oo = Some r ->
    check x (HandlingSkipped (h_id h) env r) /\ RM oo cy env hs q st (upd x (HandlingSkipped (h_id h) env r));
  so_agg : forall o oo cy env h a hs q st x hist g' hist' fs r,
    RM oo cy env (Some h :: hs) q st x -> h ∈ c_app c -> skip_handler h oo = None ->
    h_impl h = ImplAgg a -> es_cs st !! h_name h = Some (CSAgg hist) -> sort_ok o ->
    a_handle o h a (oo_now oo) env (es_g st) hist = (g', hist', fs, r) ->
    after_handle oo cy env hs q (st_put st g' h (CSAgg hist')) x (handling h env fs r) r;
  so_proc : forall o oo cy env h pi hs q st x ps g' ps' fs r,
    RM oo cy env (Some h :: hs) q st x -> h ∈ c_app c -> skip_handler h oo = None ->
    h_impl h = ImplProc pi -> es_cs st !! h_name h = Some (CSProc ps) -> sort_ok o ->
    p_handle o h pi (oo_now oo) env (es_g st) ps = (g', ps', fs, r) ->
    after_handle oo cy env hs q (st_put st g' h (CSProc ps')) x (handling h env fs r) r;
  so_int : forall o oo cy env h i hs q st x g' fs r,
    RM oo cy env (Some h :: hs) q st x -> h ∈ c_app c -> skip_handler h oo = None ->
    h_impl h = ImplInt i -> es_cs st !! h_name h = Some CSInt -> sort_ok o ->
    i_handle o h i (oo_now oo) env (es_g st) = (g', fs, r) ->
    after_handle oo cy env hs q (st_put st g' h CSInt) x (handling h env fs r) r;
  so_proj : forall o oo cy env h j hs q st x last g' fs r,
    RM oo cy env (Some h :: hs) q st x -> h ∈ c_app c -> skip_handler h oo = None ->
    h_impl h = ImplProj j -> es_cs st !! h_name h = Some (CSProj last) -> sort_ok o ->
    j_handle o (c_compact c) h j (oo_now oo) env (es_g st) = (g', fs, r) ->
    after_handle oo cy env hs q (st_put st g' h (CSProj last)) x (handling h env fs r) r;
  so_msg_end : forall oo cy env q st x err,
    RM oo cy env [] q st x ->
    check x (DispatchCompleted env err) /\ RO oo cy q st (upd x (DispatchCompleted env err))
}.

Context (Haok : app_ok c) (S : SimOK).

Lemma sim_handle o oo cy env hs0 oh hs q st x st' fs r :
  st_ok c st ->
  RM oo cy env (oh :: hs) q st x -> targets c env = Some hs0 -> oh ∈ hs0 -> sort_ok o ->
  e_handle c o oo env oh st = (st', fs, r) ->
  st_ok c st' /\ after_handle oo cy env hs q st' x fs r.
Proof.
  intros Hst HR Ht Hin Hs. destruct oh as [h|].
  2:{ intros [= <- <- <-]. split; [done|]. split; [done|]. eapply so_nil; eassumption. }
  assert (Happ : h ∈ c_app c) by (eapply targets_in; eassumption).
  rewrite e_handle_eq.
  destruct (skip_handler h oo) as [rs|] eqn:Esk.
  { intros [= <- <- <-]. split; [done|].
    destruct (so_skip S _ _ _ _ _ _ _ _ _ HR Happ Esk) as (Hx1 & H1).
    split; [done|]. cbn. rewrite app_nil_r. done. }
  destruct (Hst h Happ) as (cs & Ecs & Hm). rewrite Ecs.
  destruct (ctrl_handle c o h (oo_now oo) env (es_g st) cs) as [[[g' cs'] fs'] r'] eqn:Ec.
  pose proof (ctrl_handle_match _ _ _ _ _ _ _ _ _ _ _ Hm Ec) as Hm'.
  intros [= <- <- <-]. split; [apply st_ok_update; done|].
  unfold cs_match in Hm. unfold ctrl_handle in Ec.
  destruct (h_impl h) as [a|pi|i|j] eqn:Eh, cs as [hist|ps| |last]; try done.
  - destruct (a_handle _ _ _ _ _ _ _) as [[[g1 hist1] fs1] r1] eqn:E1.
    injection Ec as <- <- <- <-. eapply (so_agg S); eassumption.
  - destruct (p_handle _ _ _ _ _ _ _) as [[[g1 ps1] fs1] r1] eqn:E1.
    injection Ec as <- <- <- <-. eapply (so_proc S); eassumption.
  - destruct (i_handle _ _ _ _ _ _) as [[g1 fs1] r1] eqn:E1.
    injection Ec as <- <- <- <-. eapply (so_int S); eassumption.
  - destruct (j_handle _ _ _ _ _ _ _) as [[g1 fs1] r1] eqn:E1.
    injection Ec as <- <- <- <-. eapply (so_proj S); eassumption.
Qed.

Lemma sim_tick_one o oo h hs q st x st' fs r :
  st_ok c st -> RT oo (h :: hs) q st x -> h ∈ c_app c ->
  e_tick_one c o oo h st = (st', fs, r) ->
  st_ok c st' /\ after_tick oo hs q st' x fs r.
Proof.
  intros Hst HR Happ. rewrite e_tick_one_eq.
  destruct (skip_handler h oo) as [rs|] eqn:Esk.
  { intros [= <- <- <-]. split; [done|].
    destruct (so_tick_skip S _ _ _ _ _ _ _ HR Happ Esk) as (Hx1 & H1).
    split; [done|]. cbn. rewrite app_nil_r. done. }
  destruct (Hst h Happ) as (cs & Ecs & Hm). rewrite Ecs.
  destruct (ctrl_tick h (oo_now oo) (es_g st) cs) as [[[g' cs'] fs'] r'] eqn:Ec.
  pose proof (ctrl_tick_match _ _ _ _ _ _ _ _ Hm Ec) as Hm'.
  intros [= <- <- <-]. split; [apply st_ok_update; done|].
  pose proof Hm as Hm2.
  unfold cs_match in Hm2. unfold ctrl_tick in Ec.
  destruct (h_impl h) as [a|pi|i|j] eqn:Eh, cs as [hist|ps| |last]; try done.
  - injection Ec as <- <- <- <-.
    destruct (so_tick_none S _ _ _ _ _ _ _ HR Happ Esk Ecs Hm) as (Hx1 & H1).
    { unfold h_type. rewrite Eh. auto. }
    split; [exact Hx1|]. rewrite app_nil_r. done.
  - destruct (p_tick _ _) as [ps1 ready] eqn:E1. injection Ec as <- <- <- <-.
    destruct (so_tick_proc S _ _ _ _ _ _ _ _ _ _ HR Happ Esk Eh Ecs E1) as (Hx1 & H1).
    split; [exact Hx1|]. done.
  - injection Ec as <- <- <- <-.
    destruct (so_tick_none S _ _ _ _ _ _ _ HR Happ Esk Ecs Hm) as (Hx1 & H1).
    { unfold h_type. rewrite Eh. auto. }
    split; [exact Hx1|]. rewrite app_nil_r. done.
  - destruct (j_tick_ctrl _ _ _ _ _) as [[[g1 last1] fs1] r1] eqn:E1.
    injection Ec as <- <- <- <-. eapply (so_tick_proj S); eassumption.
Qed.

Lemma sim_handlers o oo cy env hs0 hs q st x st' fs r :
  st_ok c st ->
  RM oo cy env hs q st x -> targets c env = Some hs0 -> (forall oh, oh ∈ hs -> oh ∈ hs0) -> sort_ok o ->
  e_handlers c o oo env hs st = (st', fs, r) ->
  st_ok c st' /\ good x fs /\
    match r with
    | inl (envs, _) => RM oo cy env [] (q ++ envs) st' (foldl upd x fs)
    | inr _ => RI st' (foldl upd x fs)
    end.
Proof.
  intros Hst HR Ht Hin Hs. revert q st x st' fs r Hst HR.
  induction hs as [|oh hs IH]; intros q st x st' fs r Hst HR; cbn.
  - intros [= <- <- <-]. split; [done|]. cbn. rewrite app_nil_r. done.
  - destruct (e_handle c o oo env oh st) as [[st1 fs1] r1] eqn:E1.
    destruct (sim_handle _ _ _ _ _ _ _ _ _ _ _ _ _ Hst HR Ht (Hin oh (elem_of_list_here _ _)) Hs E1)
      as (Hst1 & Hx1 & H1).
    destruct r1 as [envs1 e1|v1].
    + destruct (e_handlers c o oo env hs st1) as [[st2 fs2] r2] eqn:E2.
      destruct (IH (fun y Hy => Hin y (elem_of_list_further _ _ _ Hy)) _ _ _ _ _ _ Hst1 H1 E2)
        as (Hst2 & Hx2 & H2).
      destruct r2 as [[envs2 errs2]|v2]; intros [= <- <- <-]; rewrite good_app, foldl_app.
      * split; [done|]. split; [done|]. rewrite app_assoc. done.
      * done.
    + intros [= <- <- <-]. done.
Qed.

Lemma sim_message o oo cy env q st x st' fs r :
  st_ok c st ->
  RO oo cy (env :: q) st x -> sort_ok o ->
  e_message c o oo env st = (st', fs, r) ->
  st_ok c st' /\ good x fs /\
    match r with
    | inl (envs, _) => RO oo cy (q ++ envs) st' (foldl upd x fs)
    | inr _ => RI st' (foldl upd x fs)
    end.
Proof.
  intros Hst HR Hs. unfold e_message.
  destruct (targets c env) as [hs|] eqn:Et.
  - destruct (so_msg S _ _ _ _ _ _ _ HR Et) as (Hx1 & H1).
    destruct (e_handlers c o oo env hs st) as [[st2 fs2] r2] eqn:E2.
    destruct (sim_handlers _ _ _ _ _ _ _ _ _ _ _ _ Hst H1 Et (fun y Hy => Hy) Hs E2)
      as (Hst2 & Hx2 & H2).
    destruct r2 as [[envs derr]|v].
    + destruct (so_msg_end S _ _ _ _ _ _ derr H2) as (Hx3 & H3).
      intros [= <- <- <-]. cbn. rewrite good_app, foldl_app. cbn. done.
    + intros [= <- <- <-]. cbn. done.
  - intros [= <- <- <-]. split; [done|]. split; [done|]. eapply so_msg_nil; eassumption.
Qed.

Lemma sim_loop o oo cy fuel q err st x st' fs r :
  st_ok c st ->
  RO oo cy q st x -> sort_ok o ->
  e_loop c o oo fuel q err st = (st', fs, r) ->
  st_ok c st' /\ good x fs /\
    match r with
    | Ok err' => exists q', RO oo cy q' st' (foldl upd x fs) /\ (q' = [] \/ exists s, ECtx s ∈ err')
    | Fuel => exists q', RO oo cy q' st' (foldl upd x fs)
    | Pan _ => RI st' (foldl upd x fs)
    end.
Proof.
  intros Hst HR Hs. revert q err st x st' fs r Hst HR.
  induction fuel as [|fuel IH]; intros [|env q] err st x st' fs r Hst HR; cbn.
  - intros [= <- <- <-]. split; [done|]. split; [done|]. eexists; split; [exact HR|auto].
  - intros [= <- <- <-]. split; [done|]. split; [done|]. eexists; exact HR.
  - intros [= <- <- <-]. split; [done|]. split; [done|]. eexists; split; [exact HR|auto].
  - destruct (e_message c o oo env st) as [[st1 fs1] r1] eqn:E1.
    destruct (sim_message _ _ _ _ _ _ _ _ _ _ Hst HR Hs E1) as (Hst1 & Hx1 & H1).
    destruct r1 as [[envs derr]|v].
    + set (st1' := es_set_g st1 (mkG (g_next (es_g st1)) (g_user (es_g st1)) (Datatypes.S (g_step (es_g st1))))).
      assert (H1' : RO oo cy (q ++ envs) st1' (foldl upd x fs1)).
      { eapply so_equiv_O; [exact S| |exact H1]. split; done. }
      destruct (o_ctx o (g_step (es_g st1))) as [e|]; cbn [fmap option_fmap option_map].
      * intros [= <- <- <-]. split; [done|]. split; [done|]. eexists; split; [exact H1'|].
        right. exists e. left.
      * destruct (e_loop c o oo fuel _ _ _) as [[st2 fs2] r2] eqn:E2.
        destruct (IH _ _ _ _ _ _ _ (Hst1 : st_ok c st1') H1' E2) as (Hst2 & Hx2 & H2).
        intros [= <- <- <-]. split; [done|]. rewrite good_app, foldl_app. done.
    + intros [= <- <- <-]. done.
Qed.

Lemma sim_tick_handlers o oo hs q st x st' fs r :
  st_ok c st ->
  RT oo hs q st x -> (forall h, h ∈ hs -> h ∈ c_app c) ->
  e_tick_handlers c o oo hs st = (st', fs, r) ->
  st_ok c st' /\ good x fs /\
    match r with
    | TQueue q' _ => RO oo None (q ++ q') st' (foldl upd x fs)
    | TCancel e => (exists s, e = ECtx s) /\ exists hs' q', RT oo hs' q' st' (foldl upd x fs)
    | TPan _ => RI st' (foldl upd x fs)
    end.
Proof.
  revert q st x st' fs r.
  induction hs as [|h hs IH]; intros q st x st' fs r Hst HR Hin; cbn.
  - intros [= <- <- <-]. split; [done|]. split; [done|]. rewrite app_nil_r.
    eapply so_tick_loop; [exact S|done].
  - destruct (e_tick_one c o oo h st) as [[st1 fs1] r1] eqn:E1.
    destruct (sim_tick_one _ _ _ _ _ _ _ _ _ _ Hst HR (Hin h (elem_of_list_here _ _)) E1)
      as (Hst1 & Hx1 & H1).
    destruct r1 as [envs e|v].
    + assert (Hp : exists st2 ce, poll_unless_skipped o oo h st1 = (st2, ce) /\ st_equiv st1 st2 /\
                     forall e', ce = Some e' -> exists s, e' = ECtx s).
      { unfold poll_unless_skipped. destruct (skip_handler h oo); do 2 eexists;
          (split; [done|]); (split; [split; done|]); [done|].
        destruct (o_ctx o _); cbn; [intros ? [= <-]; eauto|done]. }
      destruct Hp as (st2 & ce & Ep & Heq & Hce). rewrite Ep.
      assert (Hst2 : st_ok c st2) by (unfold st_ok; destruct Heq as [_ <-]; exact Hst1).
      eapply so_equiv_T in H1; [|exact S|exact Heq].
      destruct ce as [ce|].
      * intros [= <- <- <-]. split; [done|]. split; [done|]. eauto 6.
      * destruct (e_tick_handlers c o oo hs st2) as [[st3 fs3] r3] eqn:E3.
        destruct (IH _ _ _ _ _ _ Hst2 H1 (fun y Hy => Hin y (elem_of_list_further _ _ _ Hy)) E3)
          as (Hst3 & Hx3 & H3).
        intros [= <- <- <-]. split; [done|]. rewrite good_app, foldl_app. split; [done|].
        destruct r3; [|done|done]. rewrite app_assoc. done.
    + intros [= <- <- <-]. done.
Qed.

(** What is known after an operation: between operations again, or, if it is
    still in progress, between two of its messages. *)
Definition after_op (st' : EState) (x' : X) (r : Out Errs) : Prop :=
  match r with
  | Fuel => exists oo cy q, RO oo cy q st' x'
  | _ => RI st' x'
  end.

Lemma sim_dispatch o fuel m opts st x st' fs r :
  st_ok c st ->
  RI st x -> sort_ok o ->
  e_dispatch c o fuel m opts st = (st', fs, r) ->
  st_ok c st' /\ good x fs /\ after_op st' (foldl upd x fs) r.
Proof.
  intros Hst HR Hs. unfold e_dispatch.
  destruct (next_id o (es_g st)) as [g id] eqn:En.
  assert (Hrej : RI (es_set_g st g) x) by (eapply so_reject; eassumption).
  assert (Hstg : st_ok c (es_set_g st g)) by exact Hst.
  destruct (new_opts c (o_wall o) opts) as [oo|v]; [|intros [= <- <- <-]; done].
  assert (Hmain : m_kind m <> KTimeout ->
    (match m_invalid m with
      | Some _ => (es_set_g st g, [], Pan (PEngine "cannot dispatch invalid message" (Some m)))
      | None =>
        match routes c !! m_type m with
        | None => (es_set_g st g, [], Pan (PEngine "not consumed by any handlers" (Some m)))
        | Some _ =>
          let f := DispatchCycleBegun (new_root id m (oo_now oo)) (oo_now oo) (oo_types oo) (oo_handlers oo) in
          let '(g0, le) := lock o (es_g (es_set_g st g)) in
          let st0 := es_set_g (es_set_g st g) g0 in
          match le with
          | Some e =>
            (st0, [f; DispatchCycleCompleted (new_root id m (oo_now oo)) [e] (oo_types oo) (oo_handlers oo)], Ok [e])
          | None =>
            let '(st1, fs0, r0) := e_loop c o oo fuel [new_root id m (oo_now oo)] [] st0 in
            match r0 with
            | Ok err =>
              (st1, f :: fs0 ++ [DispatchCycleCompleted (new_root id m (oo_now oo)) err (oo_types oo) (oo_handlers oo)], Ok err)
            | _ => (st1, f :: fs0, r0)
            end
          end
        end
      end) = (st', fs, r) ->
    st_ok c st' /\ good x fs /\ after_op st' (foldl upd x fs) r).
  { intros Hk. destruct (m_invalid m) as [iv|] eqn:Ei; [intros [= <- <- <-]; done|].
    destruct (routes c !! m_type m) as [hs|] eqn:Er; [|intros [= <- <- <-]; done].
    destruct (so_dispatch S o oo m hs st x g id HR En Hk Ei Er) as (Hx1 & H1).
    set (env := new_root id m (oo_now oo)) in *.
    cbn [lock es_g es_set_g].
    match goal with |- context [es_set_g (es_set_g st g) ?g1] =>
      eapply so_equiv_O with (st' := es_set_g (es_set_g st g) g1) in H1;
        [|exact S|split; done]
    end.
    destruct (o_lock o (g_step g)) as [e|]; cbn [fmap option_fmap option_map].
    - destruct (so_dispatch_end S _ _ _ _ _ [ECtx e] H1) as (Hx2 & H2).
      { right. exists e. left. }
      intros [= <- <- <-]. split; [done|]. done.
    - destruct (e_loop _ _ _ _ _ _ _) as [[st2 fs2] r2] eqn:E2.
      match type of H1 with RO _ _ _ ?s _ => assert (Hst1' : st_ok c s) by exact Hst end.
      destruct (sim_loop _ _ _ _ _ _ _ _ _ _ _ Hst1' H1 Hs E2) as (Hst2 & Hx2 & H2).
      destruct r2 as [err|v|].
      + destruct H2 as (q' & H2 & Hq).
        destruct (so_dispatch_end S _ _ _ _ _ err H2 Hq) as (Hx3 & H3).
        intros [= <- <- <-]. split; [done|]. cbn. rewrite good_app, foldl_app. done.
      + intros [= <- <- <-]. split; [done|]. done.
      + intros [= <- <- <-]. split; [done|]. split; [done|]. destruct H2; cbn; eauto. }
  destruct (m_kind m) eqn:Ek; [apply Hmain; done|apply Hmain; done|].
  intros [= <- <- <-]. done.
Qed.

Lemma sim_tick o fuel order opts st x st' fs r :
  st_ok c st ->
  RI st x -> sort_ok o -> order ≡ₚ c_app c ->
  e_tick c o fuel order opts st = (st', fs, r) ->
  st_ok c st' /\ good x fs /\ after_op st' (foldl upd x fs) r.
Proof.
  intros Hst HR Hs Hord. unfold e_tick.
  destruct (new_opts c (o_wall o) opts) as [oo|v]; [|intros [= <- <- <-]; done].
  destruct (so_tick S oo order st x HR Hord) as (Hx1 & H1).
  cbn [lock].
  match goal with |- context [es_set_g st ?g1] =>
    eapply so_equiv_T with (st' := es_set_g st g1) in H1; [|exact S|split; done]
  end.
  match type of H1 with RT _ _ _ ?s _ => assert (Hst1' : st_ok c s) by exact Hst end.
  destruct (o_lock o (g_step (es_g st))) as [e|]; cbn [fmap option_fmap option_map].
  - destruct (so_tick_cancel S _ _ _ _ _ [ECtx e] H1) as (Hx2 & H2).
    { exists e. left. }
    intros [= <- <- <-]. done.
  - unfold e_tick_body.
    destruct (e_tick_handlers _ _ _ _ _) as [[st2 fs2] r2] eqn:E2.
    destruct (sim_tick_handlers _ _ _ _ _ _ _ _ _ Hst1' H1
                (fun h => proj1 (elem_of_Permutation_proper h _ _ Hord)) E2)
      as (Hst2 & Hx2 & H2).
    destruct r2 as [q errs|e|v].
    + destruct (e_loop _ _ _ _ _ _ _) as [[st3 fs3] r3] eqn:E3.
      destruct (sim_loop _ _ _ _ _ _ _ _ _ _ _ Hst2 H2 Hs E3) as (Hst3 & Hx3 & H3).
      destruct r3 as [err|v|].
      * destruct H3 as (q' & H3 & Hq).
        destruct (so_tick_end S _ _ _ _ (errs ++ err) H3) as (Hx4 & H4).
        { destruct Hq as [->|[s Hs']]; [auto|]. right. exists s. apply elem_of_app. auto. }
        intros [= <- <- <-]. split; [done|]. cbn. rewrite !good_app, !foldl_app. done.
      * intros [= <- <- <-]. split; [done|]. cbn. rewrite !good_app, !foldl_app. done.
      * intros [= <- <- <-]. split; [done|]. cbn. rewrite !good_app, !foldl_app.
        split; [done|]. destruct H3; cbn; eauto.
    + destruct H2 as ([s ->] & hs' & q' & H2).
      destruct (so_tick_cancel S _ _ _ _ _ [ECtx s] H2) as (Hx3 & H3).
      { exists s. left. }
      intros [= <- <- <-]. split; [done|]. cbn. rewrite !good_app, !foldl_app. done.
    + intros [= <- <- <-]. done.
Qed.

Lemma sim_op op st x st' evs r :
  st_ok c st ->
  RI st x -> op_ok c op ->
  run_op c op st = (st', evs, r) ->
  st_ok c st' /\ good_evs x evs /\ after_op st' (foldl upd_ev x evs) r.
Proof.
  intros Hst HR Hop. destruct op as [o fuel m opts|o fuel order opts| |f]; unfold run_op; cbn [op_ok] in Hop.
  - destruct (e_dispatch c o fuel m opts st) as [[st1 fs1] r1] eqn:E1. intros [= <- <- <-].
    rewrite good_evs_facts, foldl_upd_ev_facts. eapply sim_dispatch; eassumption.
  - destruct (e_tick c o fuel order opts st) as [[st1 fs1] r1] eqn:E1. intros [= <- <- <-].
    rewrite good_evs_facts, foldl_upd_ev_facts. destruct Hop. eapply sim_tick; eassumption.
  - intros [= <- <- <-]. split; [apply e_reset_ok; done|].
    split; [done|]. eapply so_reset; [exact S|done].
  - intros [= <- <- <-]. split; [done|]. split; [done|].
    eapply so_equiv_I; [exact S| |exact HR]. split; done.
Qed.

(** The state after a history and whether its last operation is finished. *)
Definition after_ops (st' : EState) (x' : X) (fin : bool) : Prop :=
  if fin then RI st' x' else exists oo cy q, RO oo cy q st' x'.

Theorem sim_ops ops st x st' evs fin :
  st_ok c st ->
  RI st x -> Forall (op_ok c) ops ->
  run_ops c ops st = (st', evs, fin) ->
  st_ok c st' /\ good_evs x evs /\ after_ops st' (foldl upd_ev x evs) fin.
Proof.
  revert st x st' evs fin. induction ops as [|op ops IH]; intros st x st' evs fin Hst HR Hok; cbn.
  - intros [= <- <- <-]. done.
  - apply Forall_cons in Hok as [Hok1 Hok2].
    destruct (run_op c op st) as [[st1 evs1] r1] eqn:E1.
    destruct (sim_op _ _ _ _ _ _ Hst HR Hok1 E1) as (Hst1 & Hx1 & H1).
    assert (Hcont : RI st1 (foldl upd_ev x evs1) ->
      (let '(st2, evs', fin) := run_ops c ops st1 in (st2, evs1 ++ evs', fin)) = (st', evs, fin) ->
      st_ok c st' /\ good_evs x evs /\ after_ops st' (foldl upd_ev x evs) fin).
    { intros H1'. destruct (run_ops c ops st1) as [[st2 evs2] fin2] eqn:E2.
      destruct (IH _ _ _ _ _ Hst1 H1' Hok2 E2) as (Hst2 & Hx2 & H2).
      intros [= <- <- <-]. split; [done|]. rewrite good_evs_app, foldl_app. done. }
    destruct r1; [apply Hcont; done|apply Hcont; done|].
    intros [= <- <- <-]. done.
Qed.
End Sim.
