(** * The facts of one operation. *)
From Verif Require Import OpSpec HistSim AggProof ProcProof ProcHist.

Section OpProof.
Context {P : Params}.
Implicit Types (c : Config) (o : Oracle) (h : Handler) (st : EState).

(** ** Reading lists of facts *)
Lemma events_in_app a b : events_in (a ++ b) = events_in a ++ events_in b.
Proof. apply omap_app. Qed.
Lemma commands_in_app a b : commands_in (a ++ b) = commands_in a ++ commands_in b.
Proof. apply omap_app. Qed.
Lemma timeouts_in_app a b : timeouts_in (a ++ b) = timeouts_in a ++ timeouts_in b.
Proof. apply omap_app. Qed.
Lemma ended_in_snoc a f : ended_in (a ++ [f]) = match f with
  | ProcessInstanceEnded _ _ _ _ => true | ProcessInstanceEndingReverted _ _ _ _ => false | _ => ended_in a end.
Proof. unfold ended_in. rewrite foldl_snoc. destruct f; done. Qed.

Lemma good_about h env x fs : good (fun _ f => about (h_id h) env f) snoc x fs -> Forall (about (h_id h) env) fs.
Proof. apply good_Forall. Qed.
Lemma foldl_snoc_nil fs : foldl snoc [] fs = fs.
Proof. rewrite foldl_snoc_app. done. Qed.

(** ** What a controller notifies and returns *)
Definition goes_back (h : Handler) (e : Env) : Prop :=
  m_kind (e_msg e) = KTimeout -> exists og, e_origin e = Some og /\ o_handler og = h_id h.

Lemma a_handle_spec o h a now env g hist g' hist' fs r :
  h_type h = HTAggregate ->
  a_handle o h a now env g hist = (g', hist', fs, r) ->
  Forall (about (h_id h) env) fs /\
  (forall envs e, r = HRet envs e -> envs = outputs now (h_id h) fs e /\ Forall (fun e => ~ is_timeout e) envs).
Proof.
  intros Ht H. split.
  - pose proof (a_handle_cases _ _ _ _ _ _ _ _ _ _ _ H) as HC.
    destruct HC as [|i r0 r1 ex f g1 s fs1 v _ _ _ _ _ _ Hf Hrun]; [constructor|].
    constructor; [subst f; destruct ex; cbn; done|].
    eapply (good_Forall tt _ (fun x _ => x)).
    eapply (a_run_sim (fun _ f => about (h_id h) env f) (fun (x : unit) _ => x) o h a now env i (fun _ _ _ => True));
      [|done|exact Hrun].
    constructor; cbn; try done. intros g2 s2 x b _ _ _ _. split; [|done]. destruct (as_destroyed s2); cbn; done.
  - intros envs e ->. split; [|eapply a_handle_events; exact H].
    apply a_handle_cases in H. remember (HRet envs e) as r' eqn:Er.
    destruct H as [|i r0 r1 ex f g1 s fs1 v _ _ _ _ _ _ Hf Hrun]; [done|].
    unfold a_result in Er. destruct (enrich _ _ _ _ v); [done|]. injection Er as <- <-.
    unfold outputs. cbn [h_id hid_type]. rewrite Ht.
    assert (K : AOK (fun _ _ => True) snoc o h a now env i (fun _ s x => as_events s = events_in x)).
    { constructor; cbn; try done.
      - intros g2 s2 x b He _ _ _. split; [done|]. unfold snoc. rewrite events_in_app, <- He.
        destruct (as_destroyed s2); cbn; rewrite app_nil_r; done.
      - intros g2 s2 x b r2 v2 He _ _. destruct (as_set_root_same s2 r2) as (-> & _). exact He.
      - intros g2 s2 x b r2 g3 mid He _ _ _ _ _. split; [done|]. destruct (as_set_root_same s2 r2) as (-> & _).
        unfold snoc. rewrite events_in_app, <- He. done.
      - intros g2 s2 x He _. split; [done|]. unfold snoc. rewrite events_in_app, <- He. cbn. rewrite app_nil_r. done.
      - intros g2 s2 x str He. split; [done|]. unfold snoc. rewrite events_in_app, <- He. cbn. rewrite app_nil_r. done. }
    eapply a_run_sim with (x := []) in Hrun; [|exact K|done]. destruct Hrun as [_ Hev].
    rewrite foldl_snoc_nil in Hev. rewrite Hev. subst f. destruct ex; done.
Qed.

Lemma i_handle_spec o h i now env g g' fs r :
  h_type h = HTIntegration ->
  i_handle o h i now env g = (g', fs, r) ->
  Forall (about (h_id h) env) fs /\
  (forall envs e, r = HRet envs e -> envs = outputs now (h_id h) fs e /\ Forall (fun e => ~ is_timeout e) envs).
Proof.
  intros Ht H. split.
  - apply i_handle_cases in H. destruct H as [|g1 evs fs1 r _ Hrun]; [constructor|].
    eapply (good_Forall tt _ (fun x _ => x)).
    eapply (i_run_sim (fun _ f => about (h_id h) env f) (fun (x : unit) _ => x) o h now env (fun _ _ _ => True));
      [|done|exact Hrun].
    constructor; cbn; done.
  - intros envs e ->. split; [|eapply i_handle_events; exact H].
    apply i_handle_cases in H. remember (HRet envs e) as r' eqn:Er.
    destruct H as [|g1 evs fs1 r _ Hrun]; [done|].
    unfold i_result in Er. destruct r as [e'|v]; [|done]. injection Er as <- <-.
    unfold outputs. cbn [h_id hid_type]. rewrite Ht.
    assert (K : IOK (fun _ _ => True) snoc o h now env (fun _ evs x => evs = events_in x)).
    { constructor; cbn; try done.
      - intros g2 s2 x b g3 mid He _ _ _. split; [done|]. unfold snoc. rewrite events_in_app, <- He. done.
      - intros g2 s2 x str He. split; [done|]. unfold snoc. rewrite events_in_app, <- He. cbn. rewrite app_nil_r. done. }
    eapply i_run_sim with (x := []) in Hrun; [|exact K|done]. destruct Hrun as [_ Hev].
    rewrite foldl_snoc_nil in Hev. done.
Qed.

Definition preads (now : Z) (s : PScope) (x : list Fact) : Prop :=
  ps_commands s = commands_in x /\ ps_ready s = due now (timeouts_in x) /\ ps_ended s = ended_in x.

Lemma p_run_reads o h now env id meth p g s g' s' fs r x :
  p_run o h now env id meth p g s = (g', s', fs, r) -> preads now s x -> preads now s' (x ++ fs).
Proof.
  intros Hrun Hx.
  assert (K : POK (fun _ _ => True) snoc o h now env id (fun _ s x => preads now s x)).
  { unfold preads, snoc. constructor; cbn.
    - done.
    - done.
    - intros g1 s1 y (H1 & H2 & H3) _. split; [done|]. rewrite commands_in_app, timeouts_in_app, ended_in_snoc, H1, H2. cbn.
      rewrite !app_nil_r. done.
    - intros g1 s1 y b g2 mid (H1 & H2 & H3) _ _ _ _. split; [done|]. rewrite commands_in_app, timeouts_in_app, ended_in_snoc, H1, H2. cbn.
      rewrite !app_nil_r. done.
    - intros g1 s1 y b t g2 mid (H1 & H2 & H3) _ _ _ _. split; [done|].
      rewrite commands_in_app, timeouts_in_app, ended_in_snoc. cbn. rewrite app_nil_r.
      unfold ps_add_tmo. unfold due. rewrite filter_app, filter_cons, filter_nil. cbn.
      destruct (now <? t)%Z eqn:E; cbn; (split; [done|]; split; [|done]).
      + rewrite decide_False by lia. rewrite app_nil_r. done.
      + rewrite decide_True by lia. rewrite H2. done.
    - intros g1 s1 y (H1 & H2 & H3) _. split; [done|]. rewrite commands_in_app, timeouts_in_app, ended_in_snoc, H1, H2. cbn.
      rewrite !app_nil_r. done.
    - intros g1 s1 y str (H1 & H2 & H3). split; [done|]. rewrite commands_in_app, timeouts_in_app, ended_in_snoc, H1, H2. cbn.
      rewrite !app_nil_r. done. }
  eapply p_run_sim with (x := x) in Hrun; [|exact K|exact Hx]. destruct Hrun as [_ H]. rewrite foldl_snoc_app in H. exact H.
Qed.

Lemma p_run_origins o h now env id meth p g s g' s' fs r :
  h_type h = HTProcess ->
  p_run o h now env id meth p g s = (g', s', fs, r) ->
  Forall (goes_back h) (ps_commands s ++ ps_ready s) -> Forall (goes_back h) (ps_commands s' ++ ps_ready s').
Proof.
  intros Ht Hrun Hx.
  assert (K : POK (fun _ _ => True) (fun (x : unit) _ => x) o h now env id
     (fun _ s _ => Forall (goes_back h) (ps_commands s ++ ps_ready s))).
  { constructor; cbn; try done.
    - intros g1 s1 _ b g2 mid HF _ _ _ _. split; [done|]. apply Forall_app in HF as [HF1 HF2].
      rewrite <- app_assoc. apply Forall_app. split; [done|]. cbn. constructor; done.
    - intros g1 s1 _ b t g2 mid HF _ _ _ _. split; [done|]. unfold ps_add_tmo.
      destruct (now <? t)%Z; cbn; [done|]. rewrite app_assoc. apply Forall_app. split; [done|].
      constructor; [|constructor]. intros _. eexists. split; [reflexivity|done]. }
  eapply p_run_sim with (x := tt) in Hrun; [|exact K|exact Hx]. apply Hrun.
Qed.

Lemma p_handle_spec o h pi now env g ps g' ps' fs r :
  h_type h = HTProcess ->
  p_handle o h pi now env g ps = (g', ps', fs, r) ->
  Forall (about (h_id h) env) fs /\
  (forall envs e, r = HRet envs e -> envs = outputs now (h_id h) fs e /\ Forall (goes_back h) envs).
Proof.
  intros Ht H. apply p_handle_cases in H.
  assert (Hnil : forall fs e, commands_in fs = [] -> timeouts_in fs = [] ->
    forall envs e0, HRet [] e = HRet envs e0 -> envs = outputs now (h_id h) fs e0 /\ Forall (goes_back h) envs).
  { intros fs0 e E1 E2 envs e0 [= <- <-]. split; [|constructor]. unfold outputs. cbn [h_id hid_type]. rewrite Ht, E1, E2.
    destruct e; [done|]. destruct (ended_in fs0); done. }
  destruct H as [g' v Hg|g' e Hg Hk|g' Hg Hk|og Hk Ho Hnone|g' i v Hg Hk Hnone Hnil'|g1 i r pre g' s fs res Hc Hg Hk Hpre Hrun];
    try (split; [repeat constructor; cbn; done|]; first [apply Hnil; done|done]).
  assert (Ha : Forall (about (h_id h) env) fs).
  { eapply (good_Forall tt _ (fun x _ => x)).
    eapply (p_run_sim (fun _ f => about (h_id h) env f) (fun (x : unit) _ => x) o h now env i _ (fun _ _ _ => True));
      [|done|exact Hrun]. constructor; cbn; done. }
  assert (Hpre' : Forall (about (h_id h) env) pre /\ commands_in pre = [] /\ timeouts_in pre = [] /\ ended_in pre = false).
  { destruct Hpre as [[_ ->]|(_ & _ & ->)]; (split; [repeat constructor; cbn; done|done]). }
  destruct Hpre' as (Hp1 & Hp2 & Hp3 & Hp4).
  split; [apply Forall_app; done|]. intros envs e Er.
  assert (Hr : preads now s (pre ++ fs)).
  { eapply p_run_reads; [exact Hrun|]. unfold preads. rewrite Hp2, Hp3, Hp4. done. }
  destruct Hr as (E1 & E2 & E3).
  eapply p_run_origins in Hrun; [|done|constructor].
  unfold outputs. cbn [h_id hid_type]. rewrite Ht.
  destruct res as [[e1|]|v]; cbn in Er; [injection Er as <- <-; split; [done|constructor]| |done].
  injection Er as <- <-. rewrite E1, <- E3, <- E2. split; [done|].
  rewrite <- E1. destruct (ps_ended s); [|done]. apply Forall_app in Hrun as [Hr _]. rewrite app_nil_r. done.
Qed.

Lemma j_handle_spec o cd h j now env g g' fs r :
  h_type h = HTProjection ->
  j_handle o cd h j now env g = (g', fs, r) ->
  Forall (about (h_id h) env) fs /\
  (forall envs e, r = HRet envs e -> envs = outputs now (h_id h) fs e /\ Forall (fun e => ~ is_timeout e) envs).
Proof.
  intros Ht H. apply j_handle_facts in H as (Hf & _ & Hr). split.
  - eapply Forall_impl; [exact Hf|]. intros f. destruct f; cbn; try done; intuition.
  - intros envs e ->. rewrite (Hr envs e eq_refl). split; [|constructor].
    unfold outputs. cbn [h_id hid_type]. rewrite Ht. symmetry. clear -Hf.
    induction Hf as [|f l Hf _ IH]; [done|]. destruct f; cbn in Hf; try done.
Qed.

Lemma no_timeout_goes_back h envs : Forall (fun e => ~ is_timeout e) envs -> Forall (goes_back h) envs.
Proof. intros H. eapply Forall_impl; [exact H|]. intros e Hn Hk. destruct Hn. exact Hk. Qed.

Lemma ctrl_handle_spec c o h now env g cs g' cs' fs r :
  ctrl_handle c o h now env g cs = (g', cs', fs, r) ->
  Forall (about (h_id h) env) fs /\
  (forall envs e, r = HRet envs e -> envs = outputs now (h_id h) fs e /\ Forall (goes_back h) envs).
Proof.
  unfold ctrl_handle.
  assert (Hid : hid_type (h_id h) = h_type h) by done. unfold h_type in Hid.
  destruct (h_impl h) as [a|pi|i|j] eqn:Ei, cs; try (intros [= <- <- <- <-]; split; [constructor|done]).
  - destruct (a_handle _ _ _ _ _ _ _) as [[[g1 h1] fs1] r1] eqn:E. intros [= <- <- <- <-].
    apply a_handle_spec in E as [H1 H2]; [|done]. split; [done|]. intros envs e Hr. apply H2 in Hr as [Hr1 Hr2].
    split; [done|]. apply no_timeout_goes_back. done.
  - destruct (p_handle _ _ _ _ _ _ _) as [[[g1 h1] fs1] r1] eqn:E. intros [= <- <- <- <-].
    eapply p_handle_spec; [|exact E]. done.
  - destruct (i_handle _ _ _ _ _ _) as [[g1 fs1] r1] eqn:E. intros [= <- <- <- <-].
    apply i_handle_spec in E as [H1 H2]; [|done]. split; [done|]. intros envs e Hr. apply H2 in Hr as [Hr1 Hr2].
    split; [done|]. apply no_timeout_goes_back. done.
  - destruct (j_handle _ _ _ _ _ _ _) as [[g1 fs1] r1] eqn:E. intros [= <- <- <- <-].
    apply j_handle_spec in E as [H1 H2]; [|done]. split; [done|]. intros envs e Hr. apply H2 in Hr as [Hr1 Hr2].
    split; [done|]. apply no_timeout_goes_back. done.
Qed.

(** ** Engine.handle and the loops *)
Section Loop.
Context (c : Config) (o : Oracle) (oo : OOs) (Hok : app_ok c).
Notation now := (oo_now oo).
Notation skip := (fun h => skip_handler h oo).

Lemma e_handle_spec env h st st' fs r :
  e_handle c o oo env (Some h) st = (st', fs, r) ->
  match r with
  | HRet envs e => Offer now skip env h fs envs e /\ Forall (goes_back h) envs
  | HPan v => skip_handler h oo = None /\ exists fs', fs = HandlingBegun (h_id h) env :: fs' /\ Forall (about (h_id h) env) fs'
  end.
Proof.
  cbn. destruct (skip_handler h oo) as [rs|] eqn:Es.
  - intros [= <- <- <-]. split; [constructor; done|constructor].
  - destruct (es_cs st !! h_name h) as [cs|].
    2:{ intros [= <- <- <-]. split; [done|]. exists []. split; [done|constructor]. }
    destruct (ctrl_handle _ _ _ _ _ _ _) as [[[g cs'] fs1] r1] eqn:E. apply ctrl_handle_spec in E as [H1 H2].
    destruct r1 as [envs e|v]; intros [= <- <- <-].
    + destruct (H2 envs e eq_refl) as [-> H3]. split; [constructor; done|done].
    + split; [done|]. eauto.
Qed.

(** Timeouts in the queue belong to handlers of the application. *)
Definition returnable (e : Env) : Prop :=
  m_kind (e_msg e) = KTimeout -> exists og h, e_origin e = Some og /\ controllers c !! hid_name (o_handler og) = Some h.

Lemma goes_back_returnable h envs : h ∈ c_app c -> Forall (goes_back h) envs -> Forall returnable envs.
Proof.
  intros Hin H. eapply Forall_impl; [exact H|]. intros e He Hk. destruct (He Hk) as (og & Hog & Hh).
  exists og, h. split; [done|]. rewrite Hh. cbn. apply controllers_complete; done.
Qed.

Lemma e_handlers_spec env hs : (forall h, h ∈ hs -> h ∈ c_app c) -> forall st st' fs r,
  e_handlers c o oo env (Some <$> hs) st = (st', fs, r) ->
  match r with
  | inl (envs, errs) => Offers now skip env hs fs envs errs /\ Forall returnable envs
  | inr v => Offers_panic now skip env hs fs
  end.
Proof.
  induction hs as [|h hs IH]; intros Hin st st' fs r; cbn [fmap list_fmap e_handlers].
  - intros [= <- <- <-]. split; constructor.
  - destruct (e_handle _ _ _ _ _ _) as [[st1 fs1] r1] eqn:E1. apply e_handle_spec in E1.
    destruct r1 as [envs e|v].
    + destruct E1 as [Ho Hg].
      destruct (e_handlers _ _ _ _ _ _) as [[st2 fs2] r2] eqn:E2. apply IH in E2; [|intros; apply Hin; set_solver].
      destruct r2 as [[envs2 errs2]|v]; intros [= <- <- <-].
      * destruct E2 as [H1 H2]. split.
        -- replace (wrap (Some h) e) with (tagged (h_id h) e) by (destruct e; done). constructor; done.
        -- apply Forall_app. split; [|done]. eapply goes_back_returnable; [|exact Hg]. apply Hin. set_solver.
      * destruct E2 as (before & h' & after & f1 & en & er & f2 & -> & H1 & H2 & H3 & ->).
        exists (h :: before), h', after, (fs1 ++ f1), (envs ++ en), (tagged (h_id h) e ++ er), f2.
        split; [done|]. split; [constructor; done|]. split; [done|]. split; [done|]. rewrite <- app_assoc. done.
    + intros [= <- <- <-]. destruct E1 as [Hs (fs' & -> & Hf)].
      exists [], h, hs, [], [], [], fs'. split; [done|]. split; [constructor|]. done.
Qed.

Lemma targets_recipients env : returnable env -> exists hs,
  targets c env = Some (Some <$> hs) /\ recipients c env hs /\ forall h, h ∈ hs -> h ∈ c_app c.
Proof.
  intros Hr. unfold targets, recipients, returnable in *. rewrite routes_default.
  assert (Hc : forall h, h ∈ consumers (c_app c) (m_type (e_msg env)) -> h ∈ c_app c).
  { intros h Hin. apply elem_of_list_filter in Hin as [_ Hin]. done. }
  destruct (m_kind (e_msg env)); [eexists; split; [done|]; split; [done|exact Hc]..|].
  destruct (Hr eq_refl) as (og & h & -> & Hl). exists [h]. rewrite Hl. split; [done|].
  apply controllers_in in Hl as [Hin Hn]. split; [eauto 10|]. set_solver.
Qed.

Lemma e_message_spec env st st' fs r :
  returnable env -> e_message c o oo env st = (st', fs, r) ->
  exists hs, recipients c env hs /\
  match r with
  | inl (envs, errs) => exists body, fs = DispatchBegun env :: body ++ [DispatchCompleted env errs] /\
      Offers now skip env hs body envs errs /\ Forall returnable envs
  | inr v => exists body, fs = DispatchBegun env :: body /\ Offers_panic now skip env hs body
  end.
Proof.
  intros Hr. unfold e_message. destruct (targets_recipients env Hr) as (hs & -> & Hrec & Hin).
  destruct (e_handlers _ _ _ _ _ _) as [[st1 fs1] r1] eqn:E. apply e_handlers_spec in E; [|done].
  exists hs. split; [done|]. destruct r1 as [[envs errs]|v]; injection H as <- <- <-.
  - destruct E as [E1 E2]. eauto.
  - eauto.
Qed.

Definition out_stop (err0 errs : Errs) (s : Stop) (r : Out Errs) : Prop :=
  match s with
  | SDone => r = Ok (err0 ++ errs)
  | SCancelled x => r = Ok [ECtx x]
  | SPanic => exists v, r = Pan v
  | SMore => r = Fuel
  end.

Lemma e_loop_spec fuel : forall q err0 st st' fs r,
  Forall returnable q -> e_loop c o oo fuel q err0 st = (st', fs, r) ->
  exists s errs, Cascade c now skip q s fs errs /\ out_stop err0 errs s r.
Proof.
  induction fuel as [|fuel IH]; intros q err0 st st' fs r Hq H; destruct q as [|env q]; cbn [e_loop] in H.
  - injection H as <- <- <-. exists SDone, []. split; [constructor|]. cbn. rewrite app_nil_r. done.
  - injection H as <- <- <-. exists SMore, []. split; [constructor|done].
  - injection H as <- <- <-. exists SDone, []. split; [constructor|]. cbn. rewrite app_nil_r. done.
  - apply Forall_cons in Hq as [Henv Hq].
    destruct (e_message _ _ _ _ _) as [[st1 fs1] r1] eqn:Em.
    apply e_message_spec in Em as (hs & Hrec & Em); [|done].
    destruct r1 as [[envs derr]|v].
    2:{ injection H as <- <- <-. destruct Em as (body & -> & Hp).
        exists SPanic, []. split; [eapply Cascade_panic; eassumption|]. exists v. done. }
    destruct Em as (body & -> & Ho & Hret).
    destruct (poll_ctx o (es_g st1)) as [g ce] eqn:Ep.
    assert (Hce : forall e, ce = Some e -> exists x, e = ECtx x).
    { intros e ->. unfold poll_ctx in Ep. injection Ep as _ Ep. destruct (o_ctx o _); [|done]. injection Ep as <-. eauto. }
    destruct ce as [e|].
    + destruct (Hce e eq_refl) as [x ->]. injection H as <- <- <-.
      exists (SCancelled x), derr. split; [eapply Cascade_cancel; eassumption|done].
    + destruct (e_loop c o oo fuel _ _ _) as [[st2 fs2] r2] eqn:El. injection H as <- <- <-.
      apply IH in El as (s & errs & Hc & Hs); [|apply Forall_app; done].
      exists s, (derr ++ errs). split.
      * rewrite <- app_assoc. cbn [app]. eapply Cascade_step; eassumption.
      * unfold out_stop in *. destruct s; [rewrite app_assoc; done|done|done|done].
Qed.
End Loop.

(** ** Engine.Dispatch and Engine.Tick *)
Lemma lock_err o g g' le : lock o g = (g', le) -> forall e, le = Some e -> exists x, e = ECtx x.
Proof. intros [= _ <-] e He. destruct (o_lock o _); [|done]. injection He as <-. eauto. Qed.

Lemma e_dispatch_spec c o fuel m opts st st' fs r :
  app_ok c -> e_dispatch c o fuel m opts st = (st', fs, r) ->
  (fs = [] /\ exists v, r = Pan v) \/
  exists oo id, new_opts c (o_wall o) opts = inl oo /\ m_kind m <> KTimeout /\
    Dispatch_facts c (oo_now oo) (fun h => skip_handler h oo) (new_root id m (oo_now oo))
      (oo_types oo) (oo_handlers oo) fs r.
Proof.
  intros Hok. unfold e_dispatch. destruct (next_id o (es_g st)) as [g id].
  destruct (new_opts c (o_wall o) opts) as [oo|v] eqn:Eo; [|intros [= <- <- <-]; eauto].
  destruct (m_kind m) eqn:Ek; [| |intros [= <- <- <-]; eauto].
  all: (destruct (m_invalid m); [intros [= <- <- <-]; eauto|]);
    (destruct (routes c !! m_type m); [|intros [= <- <- <-]; eauto]);
    cbn [es_set_g es_g]; destruct (lock o g) as [g1 le] eqn:El.
  all: (destruct le as [e|];
    [destruct (lock_err _ _ _ _ El e eq_refl) as [x ->]; intros [= <- <- <-]; right; exists oo, id;
     split; [done|]; split; [done|]; left; eauto|]).
  all: cbn [es_set_g]; destruct (e_loop _ _ _ _ _ _ _) as [[st1 fs1] r1] eqn:E;
    apply e_loop_spec in E as (s & errs & Hc & Hs); [|done|constructor; [|constructor]; unfold returnable; cbn; congruence].
  all: intros H; right; exists oo, id; (split; [done|]); (split; [done|]); right; exists s, fs1, errs; (split; [exact Hc|]).
  all: destruct s; cbn in Hs; [|  |destruct Hs as [v Hs]|]; subst r1; injection H as <- <- <-; eauto.
Qed.

Lemma ctrl_tick_spec h now g cs g' cs' fs r :
  ctrl_tick h now g cs = (g', cs', fs, r) ->
  (forall ps, cs = CSProc ps -> chronological (pc_timeouts ps)) -> cs_match h cs ->
  Forall (about_tick (h_id h)) fs /\
  (forall envs e, r = HRet envs e -> envs = match cs with CSProc ps => due now (pc_timeouts ps) | _ => [] end).
Proof.
  assert (Hid : hid_type (h_id h) = h_type h) by done.
  unfold ctrl_tick, cs_match, h_type in *. destruct (h_impl h) as [a|pi|i|j] eqn:Ei, cs; intros H Hchr Hm; try done.
  - injection H as <- <- <- <-. split; [constructor|]. intros ? ? [= <- <-]; done.
  - unfold p_tick in H. rewrite p_split_spec in H by (apply Hchr; done).
    injection H as <- <- <- <-. split; [constructor|]. intros ? ? [= <- <-]. done.
  - injection H as <- <- <- <-. split; [constructor|]. intros ? ? [= <- <-]; done.
  - destruct (j_tick_ctrl _ _ _ _ _) as [[[g1 l1] fs1] r1] eqn:E. injection H as <- <- <- <-.
    apply j_tick_facts in E as (H1 & _ & H2). split; [|intros; eauto].
    eapply Forall_impl; [exact H1|]. intros f. destruct f; cbn; try done; intuition.
Qed.

(** What is known about the stores at the start of a Tick: every handler has its
    store, timeouts are sorted and belong to handlers of the application. *)
Definition stored_ok c st : Prop :=
  forall h, h ∈ c_app c -> exists cs, es_cs st !! h_name h = Some cs /\ cs_match h cs /\
    forall ps, cs = CSProc ps -> chronological (pc_timeouts ps) /\ Forall (returnable c) (pc_timeouts ps).

Section Tick.
Context (c : Config) (o : Oracle) (oo : OOs).
Notation skip := (fun h => skip_handler h oo).
Notation now := (oo_now oo).

Lemma e_tick_one_spec h st st' fs r st0 :
  h ∈ c_app c -> stored_ok c st0 -> es_cs st !! h_name h = es_cs st0 !! h_name h ->
  skip_handler h oo = None -> e_tick_one c o oo h st = (st', fs, r) ->
  (exists cs, es_cs st' = <[h_name h := cs]> (es_cs st)) /\
  exists body, Forall (about_tick (h_id h)) body /\
  match r with
  | HRet envs e => fs = TickBegun (h_id h) :: body ++ [TickCompleted (h_id h) e] /\ envs = due_timeouts now st0 h
  | HPan v => fs = TickBegun (h_id h) :: body
  end.
Proof.
  intros Hin Hst Heq Hs. unfold e_tick_one. rewrite Hs.
  destruct (Hst h Hin) as (cs & El & Hm & Hps). rewrite Heq, El.
  destruct (ctrl_tick _ _ _ _) as [[[g1 cs1] fs1] r1] eqn:E.
  apply ctrl_tick_spec in E as [H1 H2]; [|intros ps Hps'; apply Hps; done|done].
  unfold due_timeouts. rewrite El.
  destruct r1 as [envs e|v]; intros [= <- <- <-]; (split; [eauto|]); exists fs1; (split; [done|]); [split; [done|]; eauto|done].
Qed.

Lemma e_tick_handlers_spec hs st0 : stored_ok c st0 -> NoDup (h_name <$> hs) -> (forall h, h ∈ hs -> h ∈ c_app c) ->
  forall st st' fs r, (forall h, h ∈ hs -> es_cs st !! h_name h = es_cs st0 !! h_name h) ->
  e_tick_handlers c o oo hs st = (st', fs, r) ->
  match r with
  | TQueue q errs => Ticks skip hs SDone fs errs /\ q = batch skip (due_timeouts now st0) hs
  | TCancel e => exists x errs, e = ECtx x /\ Ticks skip hs (SCancelled x) fs errs
  | TPan v => exists errs, Ticks skip hs SPanic fs errs
  end.
Proof.
  intros Hst. induction hs as [|h hs IH]; intros Hnd Happ st st' fs r Heq; cbn [e_tick_handlers].
  - intros [= <- <- <-]. split; [constructor|done].
  - cbn in Hnd. apply NoDup_cons in Hnd as [Hnin Hnd].
    assert (Hh : h ∈ c_app c) by (apply Happ; set_solver).
    assert (Happ' : forall h, h ∈ hs -> h ∈ c_app c) by (intros; apply Happ; set_solver).
    specialize (IH Hnd Happ').
    destruct (e_tick_one c o oo h st) as [[st1 fs1] r1] eqn:E1.
    unfold poll_unless_skipped, batch. rewrite filter_cons.
    destruct (skip_handler h oo) as [rs|] eqn:Es.
    + unfold e_tick_one in E1. rewrite Es in E1. injection E1 as <- <- <-.
      rewrite decide_False by done.
      destruct (e_tick_handlers c o oo hs st) as [[st2 fs2] r2] eqn:E2. intros [= <- <- <-].
      apply IH in E2; [|intros; apply Heq; set_solver].
      destruct r2 as [q errs|e|v]; cbn.
      * destruct E2 as (HT & ->). split; [eapply Ticks_skipped; eassumption|done].
      * destruct E2 as (x & errs & -> & HT). exists x, errs. split; [done|eapply Ticks_skipped; eassumption].
      * destruct E2 as (errs & HT). exists errs. eapply Ticks_skipped; eassumption.
    + rewrite decide_True by done.
      apply (e_tick_one_spec _ _ _ _ _ st0) in E1 as ([cs1 Hcs1] & body & Hb & Hr); [|done|done|apply Heq; set_solver|done].
      destruct r1 as [envs e|v].
      2:{ intros [= <- <- <-]. subst fs1. exists []. eapply Ticks_panic; done. }
      destruct Hr as [-> ->].
      destruct (poll_ctx o (es_g st1)) as [g ce] eqn:Ep.
      destruct ce as [e'|].
      * intros [= <- <- <-]. unfold poll_ctx in Ep. injection Ep as _ Ep. destruct (o_ctx o _) as [x|]; [|done].
        injection Ep as <-. exists x, (tagged (h_id h) e). split; [done|]. eapply Ticks_cancel; done.
      * destruct (e_tick_handlers c o oo hs _) as [[st2 fs2] r2] eqn:E2. intros [= <- Hfs <-]. apply IH in E2.
        2:{ intros h' Hin'. cbn. rewrite Hcs1, lookup_insert_ne; [apply Heq; set_solver|].
            intros Hn. apply Hnin. rewrite Hn. apply elem_of_list_fmap_1. done. }
        rewrite <- app_assoc in Hfs. cbn [app] in Hfs. subst fs.
        replace (wrap (Some h) e) with (tagged (h_id h) e) by (destruct e; done).
        destruct r2 as [q errs|e2|v].
        -- destruct E2 as (HT & ->). split; [eapply Ticks_step; eassumption|done].
        -- destruct E2 as (x & errs & -> & HT). exists x, (tagged (h_id h) e ++ errs).
           split; [done|eapply Ticks_step; eassumption].
        -- destruct E2 as (errs & HT). exists (tagged (h_id h) e ++ errs). eapply Ticks_step; eassumption.
Qed.
End Tick.

Lemma batch_returnable c now oo st order : stored_ok c st -> (forall h, h ∈ order -> h ∈ c_app c) ->
  Forall (returnable c) (batch (fun h => skip_handler h oo) (due_timeouts now st) order).
Proof.
  intros Hst Happ. unfold batch. apply Forall_concat, Forall_fmap, Forall_filter, Forall_forall.
  intros h Hin. unfold compose, due_timeouts. destruct (Hst h (Happ h Hin)) as (cs & -> & _ & Hps).
  destruct cs; try constructor. apply Forall_filter. apply Hps. done.
Qed.

Lemma e_tick_spec c o fuel order opts st st' fs r :
  app_ok c -> stored_ok c st -> order ≡ₚ c_app c -> e_tick c o fuel order opts st = (st', fs, r) ->
  (fs = [] /\ exists v, r = Pan v) \/
  exists oo, new_opts c (o_wall o) opts = inl oo /\
    Tick_facts c (oo_now oo) (fun h => skip_handler h oo) (due_timeouts (oo_now oo) st) order (oo_types oo) (oo_handlers oo) fs r.
Proof.
  intros Hok Hst Hord. unfold e_tick.
  destruct (new_opts c (o_wall o) opts) as [oo|v] eqn:Eo; [|intros [= <- <- <-]; eauto].
  destruct (lock o (es_g st)) as [g1 le] eqn:El.
  destruct le as [e|].
  { destruct (lock_err _ _ _ _ El e eq_refl) as [x ->]. intros [= <- <- <-]. right. exists oo. split; [done|]. left. eauto. }
  intros H. right. exists oo. split; [done|]. right. unfold e_tick_body in H.
  assert (Hnd : NoDup (h_name <$> order)) by (rewrite Hord; apply Hok).
  assert (Happ : forall h, h ∈ order -> h ∈ c_app c) by (intros h; rewrite Hord; done).
  destruct (e_tick_handlers c o oo order _) as [[st1 fs1] r1] eqn:E1.
  pose proof E1 as Ht. apply (e_tick_handlers_spec c o oo order st) in Ht; [|done|done|done|done].
  destruct r1 as [q errs|e|v].
  - right. right. destruct Ht as (HT & ->).
    destruct (e_loop _ _ _ _ _ _ _) as [[st2 fs2] r2] eqn:E2.
    apply e_loop_spec in E2 as (s & errs' & Hc & Hs); [|done|apply batch_returnable; done].
    exists fs1, errs, s, fs2, errs'. split; [done|]. split; [done|].
    destruct s; cbn in Hs; [|  |destruct Hs as [v Hs]|]; subst r2; injection H as <- <- <-; rewrite <- ?app_assoc; eauto.
  - left. destruct Ht as (x & errs & -> & HT). injection H as <- <- <-. eauto 10.
  - right. left. destruct Ht as (errs & HT). injection H as <- <- <-. eauto 10.
Qed.

End OpProof.
