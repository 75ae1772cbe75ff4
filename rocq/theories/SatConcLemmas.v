(** * Lemmas on a *SatisfyT used by several goroutines. *)
From Verif Require Import SatConcSpec SatisfyLemmas LocationLemmas.

(** ** The steps of a method are the method *)

Definition apply_steps (l : list Micro) (st : SState) : SState := fold_left (fun st (x : Micro) => x.2 st) l st.
Definition events (l : list Micro) : list SEv := omap fst l.
Lemma method_steps_ok m s stk st : m <> MParallel ->
  s_method m s stk st = (apply_steps (method_steps m s stk) st, method_panic m) /\
  events (method_steps m s stk) = [SvCall m s stk].
Proof. intros H. by destruct m. Qed.

(** What a single write does to the flags and the cleanup functions. *)
Definition is_call (K : SMethod -> bool) (o : option SEv) : bool := match o with Some (SvCall m _ _) => K m | _ => false end.
Definition micro_ok (x : Micro) : Prop := forall st,
  ss_failed (x.2 st) = is_call is_failing x.1 || ss_failed st /\
  ss_skipped (x.2 st) = is_call is_skipping x.1 || ss_skipped st /\
  ss_cleanup (x.2 st) = ss_cleanup st ++ match x.1 with Some (SvCleanup fn) => [fn] | _ => [] end.
Lemma micro_explain m above : micro_ok (None, s_explain m above).
Proof. intros st. cbn. rewrite app_nil_r. by destruct (explain_fields m above st) as (H1 & H2 & _ & H4 & _). Qed.
Lemma micro_log s : micro_ok (None, s_log s).
Proof. intros st. cbn. by rewrite app_nil_r. Qed.
Lemma method_micro m s stk : Forall micro_ok (method_steps m s stk).
Proof.
  destruct m; cbn [method_steps]; repeat (apply Forall_cons; split); try apply Forall_nil; try done;
    try apply micro_explain; try apply micro_log; intros st; cbn; by rewrite app_nil_r.
Qed.
Lemma method_event m s stk m' s' stk' f : (Some (SvCall m' s' stk'), f) ∈ method_steps m s stk -> m' = m.
Proof.
  intros H. destruct m; cbn [method_steps] in H;
    repeat (apply elem_of_cons in H; destruct H as [H|H]; [by inversion H|]); by apply elem_of_nil in H.
Qed.
Lemma method_no_query m s stk f b : (Some (SvFailed b), f) ∉ method_steps m s stk /\ (Some (SvSkipped b), f) ∉ method_steps m s stk.
Proof.
  split; intros H; destruct m; cbn [method_steps] in H;
    repeat (apply elem_of_cons in H; destruct H as [H|H]; [by inversion H|]); by apply elem_of_nil in H.
Qed.
Lemma method_panic_aborting m : aborting m -> method_panic m = Some SAbort.
Proof. intros H. apply is_aborting_iff in H. by destruct m. Qed.

(** ** Runs *)

Lemma did_app l l' : did (l ++ l') = did l ++ did l'. Proof. apply omap_app. Qed.
Lemma did_snoc tr t l : did (tr ++ [(t, l)]) = did tr ++ match l with LSat e => [e] | _ => [] end.
Proof. rewrite did_app. cbn. by destruct l. Qed.
Lemma answers_app l l' : answers (l ++ l') = answers l ++ answers l'. Proof. apply omap_app. Qed.
Lemma answers_snoc tr t l : answers (tr ++ [(t, l)]) = answers tr ++ match l with LOut o => [o] | _ => [] end.
Proof. rewrite answers_app. cbn. by destruct l. Qed.
Lemma registered_app l l' : registered (l ++ l') = registered l ++ registered l'. Proof. apply omap_app. Qed.

Lemma runs_app y0 pre post y : runs y0 (pre ++ post) y -> exists y1, runs y0 pre y1 /\ runs y1 post y.
Proof.
  revert y. induction post as [|e post IH] using rev_ind; intros y H.
  - rewrite app_nil_r in H. exists y. split; [done|constructor].
  - rewrite app_assoc in H. remember ((pre ++ post) ++ [e]) as tr eqn:Et. destruct H as [|tr' y' e' y'' H Hs].
    + by destruct (pre ++ post).
    + apply app_inj_tail in Et as [-> ->]. destruct (IH _ H) as (y1 & H1 & H2). exists y1. split; [done|]. by econstructor.
Qed.
Lemma runs_trans y0 y1 y2 tr tr' : runs y0 tr y1 -> runs y1 tr' y2 -> runs y0 (tr ++ tr') y2.
Proof. intros H. induction 1 as [|tr' y e y' H' IH Hs]; [by rewrite app_nil_r|]. rewrite app_assoc. by econstructor. Qed.
Lemma runs_cons y0 e tr y : runs y0 (e :: tr) y -> exists y1, step y0 e y1 /\ runs y1 tr y.
Proof.
  intros H. destruct (runs_app y0 [e] tr y H) as (y1 & H1 & H2). exists y1. split; [|done].
  remember [e] as l eqn:El. destruct H1 as [|tr' y' e' y'' H1 Hs]; [done|].
  destruct tr'; [|by destruct tr']. injection El as ->. remember [] as l eqn:El. destruct H1; [done|]. by destruct tr0.
Qed.

(** ** The mutex *)

Definition is_fmt (f : Frm) : bool := match f with FFmt _ _ _ => true | _ => false end.
(** The goroutine holds the mutex. *)
Definition held (th : Thr) : nat := length (List.filter is_fmt (th_stk th)) + (match th_ctl th with Body _ _ _ => 1 | _ => 0 end).
Definition lock_ok (lk : option nat) (ths : list Thr) : Prop :=
  (forall t, lk = Some t -> t < length ths) /\
  forall t th, ths !! t = Some th -> held th = if decide (lk = Some t) then 1 else 0.
(** The writes that are left concern one call. *)
Definition body_ok (th : Thr) : Prop :=
  match th_ctl th with
  | Body l r _ => 
      Forall micro_ok l /\ (forall m s stk f, (Some (SvCall m s stk), f) ∈ l -> r = method_panic m) /\
      (forall f b, (Some (SvFailed b), f) ∉ l /\ (Some (SvSkipped b), f) ∉ l) /\ length (events l) <= 1
  | _ => True
  end.
(** What is left to write by the goroutine that holds the mutex. *)
Definition pending (lk : option nat) (ths : list Thr) : list Micro :=
  match lk with
  | Some t => match ths !! t with Some (mkT (Body l _ _) _) => l | _ => [] end
  | None => []
  end.
(** The flags and the cleanup functions always agree with the calls that took effect,
    everything else does when the pending writes are done. *)
Record inv (c : text) (tr : list (nat * Lab)) (y : Sys) : Prop := {
  i_lock : lock_ok (sy_lock y) (sy_ths y);
  i_body : Forall body_ok (sy_ths y);
  i_failed : ss_failed (sy_st y) = true <-> called failing (did tr);
  i_skipped : ss_skipped (sy_st y) = true <-> called skipping (did tr);
  i_cleanup : ss_cleanup (sy_st y) = registered (did tr);
  i_tracks : tracks c (did tr ++ events (pending (sy_lock y) (sy_ths y))) (apply_steps (pending (sy_lock y) (sy_ths y)) (sy_st y)) }.

Lemma inv_init E b f ps : inv (fn_name (done_fn E)) [] (sys_init E b f ps).
Proof.
  constructor; cbn.
  - split; [done|]. intros t th H. destruct t as [|t]; cbn in H; [by injection H as <-|].
    apply list_lookup_fmap_inv in H as (p & -> & _). done.
  - constructor; [done|]. apply Forall_fmap, Forall_forall. done.
  - split; [done|]. intros H. by apply called_nil in H.
  - split; [done|]. intros H. by apply called_nil in H.
  - done.
  - apply tracks_init.
Qed.

Lemma lock_same lk ths t th th' : ths !! t = Some th -> held th' = held th -> lock_ok lk ths -> lock_ok lk (<[t := th']> ths).
Proof.
  intros Ht He [Hlt H]. split; [by rewrite insert_length|]. intros u x Hu. destruct (decide (u = t)) as [->|Hne].
  - rewrite list_lookup_insert in Hu by by eapply lookup_lt_Some. injection Hu as <-. rewrite He. by apply H.
  - rewrite list_lookup_insert_ne in Hu by done. by apply H.
Qed.
Lemma lock_take ths t th th' : ths !! t = Some th -> held th' = 1 + held th -> lock_ok None ths -> lock_ok (Some t) (<[t := th']> ths).
Proof.
  intros Ht He [Hlt H]. split; [rewrite insert_length; intros ? [= <-]; by eapply lookup_lt_Some|].
  intros u x Hu. destruct (decide (u = t)) as [->|Hne].
  - rewrite list_lookup_insert in Hu by by eapply lookup_lt_Some. injection Hu as <-. rewrite He. rewrite (H _ _ Ht).
    rewrite decide_False by done. by rewrite decide_True.
  - rewrite list_lookup_insert_ne in Hu by done. rewrite (H _ _ Hu). rewrite decide_False by done. rewrite decide_False; [done|congruence].
Qed.
Lemma lock_release lk ths t th th' : ths !! t = Some th -> held th = 1 + held th' -> lock_ok lk ths ->
  lk = Some t /\ lock_ok None (<[t := th']> ths).
Proof.
  intros Ht He [Hlt H]. pose proof (H _ _ Ht) as Hh. destruct (decide (lk = Some t)) as [->|]; [|lia]. split; [done|]. split; [done|].
  intros u x Hu. rewrite decide_False by done. destruct (decide (u = t)) as [->|Hne].
  - rewrite list_lookup_insert in Hu by by eapply lookup_lt_Some. injection Hu as <-. lia.
  - rewrite list_lookup_insert_ne in Hu by done. rewrite (H _ _ Hu). rewrite decide_False; [done|congruence].
Qed.
Lemma pending_other lk ths t th th' : ths !! t = Some th -> held th' = held th ->
  (forall l r k stk, th <> mkT (Body l r k) stk) -> (forall l r k stk, th' <> mkT (Body l r k) stk) ->
  pending lk (<[t := th']> ths) = pending lk ths.
Proof.
  intros Ht He H1 H2. destruct lk as [u|]; [|done]. cbn. destruct (decide (u = t)) as [->|Hne].
  - rewrite list_lookup_insert by by eapply lookup_lt_Some. rewrite Ht. destruct th as [[p|l r k] stk]; [|by destruct (H1 l r k stk)].
    destruct th' as [[p'|l r k] stk']; [done|]. by destruct (H2 l r k stk').
  - by rewrite list_lookup_insert_ne.
Qed.
Lemma pending_own ths t th l r k stk : ths !! t = Some th -> pending (Some t) (<[t := mkT (Body l r k) stk]> ths) = l.
Proof. intros H. cbn. by rewrite list_lookup_insert by by eapply lookup_lt_Some. Qed.

(** A step that changes nothing but the goroutine, which does not start or end a body. *)
Lemma inv_quiet c tr st lk cr ths t th th' l cr' :
  inv c tr (mkSys st lk cr ths) -> ths !! t = Some th -> held th' = held th ->
  (forall l r k stk, th <> mkT (Body l r k) stk) -> (forall l r k stk, th' <> mkT (Body l r k) stk) ->
  (forall e, l <> LSat e) ->
  inv c (tr ++ [(t, l)]) (mkSys st lk cr' (<[t := th']> ths)).
Proof.
  intros [Il Ib If Is Ic It] Ht He H1 H2 Hl. cbn in *.
  assert (Hd : did (tr ++ [(t, l)]) = did tr) by (rewrite did_snoc; destruct l; rewrite ?app_nil_r; try done; by destruct (Hl e)).
  constructor; cbn; rewrite ?Hd; try done.
  - by eapply lock_same.
  - apply Forall_insert; [done|]. destruct th' as [[p|l0 r k] stk]; [done|]. by destruct (H2 l0 r k stk).
  - by rewrite (pending_other _ _ _ _ _ Ht He H1 H2).
Qed.

Lemma called_snoc_bool K Kb tr (o : option SEv) : (forall m, Kb m = true <-> K m) ->
  called K (tr ++ match o with Some e => [e] | None => [] end) <-> is_call Kb o = true \/ called K tr.
Proof.
  intros HK. rewrite called_app. destruct o as [[m s a| | | | | |]|]; cbn [is_call]; rewrite ?called_one, ?HK; try tauto;
    (split; [intros [?|Hx]; [by right|]|intros [?|?]; [done|by left]]; exfalso);
    first [by apply called_nil in Hx | eapply called_other; [|exact Hx]; done].
Qed.

Lemma inv_step c tr y e y' : inv c tr y -> step y e y' -> inv c (tr ++ [e]) y'.
Proof.
  intros I Hs. destruct Hs as [st lk ths t th l st' lk' th' Ht Hst|st lk ths t v Ht].
  2:{ destruct I as [Il Ib If Is Ic It]. constructor; rewrite ?did_snoc, ?app_nil_r; done. }
  destruct Hst as [st lk k stk|st m a at_ k stk Hm|st lk a at_ k stk|st lk s m at_ k stk|st lk v m at_ k stk|st lk o f l r k stk
    |st lk r k stk|st k stk|st k stk|st fn k stk|st lk u k stk th' Hu Hend|st lk p k stk|st lk s k stk|st lk v k stk|st lk k stk|st lk o k stk].
  (* the simple ones *)
  1, 3, 11, 12, 13, 14, 15, 16: by eapply inv_quiet.
  - (* Lock, method *)
    destruct I as [Il Ib If Is Ic It]. cbn in *. constructor; cbn [sy_lock sy_st sy_ths]; rewrite ?did_snoc, ?app_nil_r; try done.
    + eapply lock_take; [done| |done]. unfold held. cbn. lia.
    + by apply Forall_insert.
    + assert (pending (Some t) (<[t:=mkT (Run (if formats m then a else TRet "")) (FFmt m at_ k :: stk)]> ths) = []) as ->.
      { cbn. by rewrite list_lookup_insert by by eapply lookup_lt_Some. }
      cbn. by rewrite app_nil_r in *.
  - (* formatted *)
    assert (Hm : m = MParallel \/ m <> MParallel) by (destruct m; auto).
    destruct I as [Il Ib If Is Ic It]. cbn [sy_lock sy_st sy_ths] in *.
    pose proof (proj2 Il _ _ Ht) as Hh. unfold held in Hh. cbn in Hh. destruct (decide (lk = Some t)) as [->|]; [|lia].
    constructor; cbn [sy_lock sy_st sy_ths]; rewrite ?did_snoc, ?app_nil_r; try done.
    + eapply lock_same; [done| |done]. unfold held. cbn. lia.
    + apply Forall_insert; [done|]. split; [apply method_micro|]. split; [|split; [intros; apply method_no_query|by destruct m; cbn; lia]].
      intros m' s' stk' f Hin. by rewrite (method_event _ _ _ _ _ _ _ Hin).
    + rewrite (pending_own _ _ _ _ _ _ _ Ht). unfold pending in It. rewrite Ht in It. cbn in It. rewrite app_nil_r in It.
      destruct Hm as [->|Hm]; [cbn; by rewrite app_nil_r|].
      destruct (method_steps_ok m s at_ st Hm) as [E1 E2]. rewrite E2. by eapply tracks_call.
  - (* formatting panicked *)
    assert (Hm : m = MParallel \/ m <> MParallel) by (destruct m; auto).
    destruct I as [Il Ib If Is Ic It]. cbn [sy_lock sy_st sy_ths] in *.
    pose proof (proj2 Il _ _ Ht) as Hh. unfold held in Hh. cbn in Hh. destruct (decide (lk = Some t)) as [->|]; [|lia].
    constructor; cbn [sy_lock sy_st sy_ths]; rewrite ?did_snoc, ?app_nil_r; try done.
    + eapply lock_same; [done| |done]. unfold held. cbn. lia.
    + apply Forall_insert; [done|]. split; [apply method_micro|]. split; [|split; [intros; apply method_no_query|by destruct m; cbn; lia]].
      intros m' s' stk' f Hin. by rewrite (method_event _ _ _ _ _ _ _ Hin).
    + rewrite (pending_own _ _ _ _ _ _ _ Ht). unfold pending in It. rewrite Ht in It. cbn in It. rewrite app_nil_r in It.
      destruct Hm as [->|Hm]; [cbn; by rewrite app_nil_r|].
      destruct (method_steps_ok m (fmt_panic v) at_ st Hm) as [E1 E2]. rewrite E2. by eapply tracks_call.
  - (* a write *)
    destruct I as [Il Ib If Is Ic It]. cbn [sy_lock sy_st sy_ths] in *.
    pose proof (proj2 Il _ _ Ht) as Hh. unfold held in Hh. cbn in Hh. destruct (decide (lk = Some t)) as [->|]; [|lia].
    pose proof Ib as Ib'. rewrite Forall_lookup in Ib'. destruct (Ib' _ _ Ht) as (Hmic & Hev & Hq & Hone). apply Forall_cons_1 in Hmic as [Hmic Hrest].
    destruct (Hmic st) as (M1 & M2 & M3). cbn [fst snd] in M1, M2, M3.
    assert (Hd : did (tr ++ [(t, lab o)]) = did tr ++ match o with Some e => [e] | None => [] end) by (rewrite did_snoc; by destruct o).
    constructor; cbn [sy_lock sy_st sy_ths]; rewrite ?Hd.
    + by eapply lock_same.
    + apply Forall_insert; [done|]. split; [done|]. split; [intros m s stk' g Hin; eapply Hev; right; exact Hin|].
      split; [|unfold events in *; destruct o; cbn in Hone |- *; lia]. intros g b. destruct (Hq g b) as [Q1 Q2]. rewrite not_elem_of_cons in Q1, Q2. tauto.
    + rewrite M1, orb_true_iff, If. symmetry. apply called_snoc_bool, is_failing_iff.
    + rewrite M2, orb_true_iff, Is. symmetry. apply called_snoc_bool, is_skipping_iff.
    + rewrite M3, registered_app, Ic. f_equal. by destruct o as [[]|].
    + rewrite (pending_own _ _ _ _ _ _ _ Ht). unfold pending in It. rewrite Ht in It. cbn in It. rewrite <- app_assoc.
      destruct o; exact It.
  - (* Unlock *)
    destruct I as [Il Ib If Is Ic It]. cbn [sy_lock sy_st sy_ths] in *.
    destruct (lock_release lk ths t _ (mkT (Run match r with Some v => TPanic v | None => k end) stk) Ht) as [-> Hl];
      [unfold held; cbn; lia|done|].
    constructor; cbn [sy_lock sy_st sy_ths]; rewrite ?did_snoc, ?app_nil_r; try done.
    + by apply Forall_insert.
    + unfold pending in It. rewrite Ht in It. cbn in *. by rewrite app_nil_r in *.
  - (* Failed *)
    destruct I as [Il Ib If Is Ic It]. cbn [sy_lock sy_st sy_ths] in *.
    constructor; cbn [sy_lock sy_st sy_ths]; rewrite ?did_snoc, ?app_nil_r.
    + by eapply lock_same.
    + by apply Forall_insert.
    + rewrite called_app, If. split; [by left|]. intros [?|Hx]; [done|]. by apply called_other in Hx.
    + rewrite called_app, Is. split; [by left|]. intros [?|Hx]; [done|]. by apply called_other in Hx.
    + rewrite registered_app, Ic. cbn. by rewrite app_nil_r.
    + cbn in *. rewrite app_nil_r in *. by apply tracks_other.
  - (* Skipped *)
    destruct I as [Il Ib If Is Ic It]. cbn [sy_lock sy_st sy_ths] in *.
    constructor; cbn [sy_lock sy_st sy_ths]; rewrite ?did_snoc, ?app_nil_r.
    + by eapply lock_same.
    + by apply Forall_insert.
    + rewrite called_app, If. split; [by left|]. intros [?|Hx]; [done|]. by apply called_other in Hx.
    + rewrite called_app, Is. split; [by left|]. intros [?|Hx]; [done|]. by apply called_other in Hx.
    + rewrite registered_app, Ic. cbn. by rewrite app_nil_r.
    + cbn in *. rewrite app_nil_r in *. by apply tracks_other.
  - (* Lock, Cleanup *)
    destruct I as [Il Ib If Is Ic It]. cbn [sy_lock sy_st sy_ths] in *.
    constructor; cbn [sy_lock sy_st sy_ths]; rewrite ?did_snoc, ?app_nil_r; try done.
    + eapply lock_take; [done| |done]. unfold held. cbn. lia.
    + apply Forall_insert; [done|]. split; [constructor; [by intros st'|constructor]|].
      split; [intros m s stk' f Hin; apply elem_of_list_singleton in Hin; by inversion Hin|].
      split; [|cbn; lia]. intros f b. split; intros Hin; apply elem_of_list_singleton in Hin; by inversion Hin.
    + rewrite (pending_own _ _ _ _ _ _ _ Ht). cbn in *. rewrite app_nil_r in It. by apply tracks_cleanup.
Qed.
Lemma runs_inv E b f ps tr y : runs (sys_init E b f ps) tr y -> inv (fn_name (done_fn E)) tr y.
Proof. induction 1 as [|tr y e y' H IH Hs]; [apply inv_init|by eapply inv_step]. Qed.

Lemma inv_free c tr y : inv c tr y -> sy_lock y = None -> tracks c (did tr) (sy_st y).
Proof. intros I H. destruct I as [_ _ _ _ _ It]. rewrite H in It. cbn in It. by rewrite app_nil_r in It. Qed.

(** ** Queries *)

Lemma step_query y1 tr c t e y2 : inv c tr y1 -> step y1 (t, LSat e) y2 ->
  (forall b, e = SvFailed b -> b = ss_failed (sy_st y1)) /\ (forall b, e = SvSkipped b -> b = ss_skipped (sy_st y1)).
Proof.
  intros I Hs. remember (t, LSat e) as te eqn:Ee. destruct Hs as [st lk ths t' th l st' lk' th' Ht Hst|]; [|done].
  injection Ee as -> ->. remember (LSat e) as l eqn:El. destruct Hst as [| | | | |st lk o f l r k stk| | | | | | | | | |]; try done.
  - destruct o as [e'|]; [|done]. injection El as ->. pose proof (i_body _ _ _ I) as Ib. cbn in Ib. rewrite Forall_lookup in Ib.
    destruct (Ib _ _ Ht) as (_ & _ & Hq & _). split; intros b ->; exfalso; destruct (Hq f b) as [Q1 Q2]; [apply Q1|apply Q2]; by left.
  - injection El as El. subst e. split; intros b Hb; [by injection Hb|done].
  - injection El as El. subst e. split; intros b Hb; [done|by injection Hb].
Qed.
Lemma queries_lemma E b f ps pre t e post y : runs (sys_init E b f ps) (pre ++ (t, LSat e) :: post) y ->
  (forall x, e = SvFailed x -> x = true <-> called failing (did pre)) /\
  (forall x, e = SvSkipped x -> x = true <-> called skipping (did pre)).
Proof.
  intros H. apply runs_app in H as (y1 & H1 & H2). apply runs_cons in H2 as (y2 & Hs & _).
  apply runs_inv in H1. destruct (step_query _ _ _ _ _ _ H1 Hs) as [Q1 Q2].
  split; intros x ->; [rewrite (Q1 _ eq_refl); apply (i_failed _ _ _ H1)|rewrite (Q2 _ eq_refl); apply (i_skipped _ _ _ H1)].
Qed.

(** ** Methods that stop the function that calls them *)

(** The goroutine is stopped: the panic of the method is on its way. *)
Definition stopped (th : Thr) : Prop :=
  List.filter is_fmt (th_stk th) = [] /\
  ((exists l k, th_ctl th = Body l (Some SAbort) k /\ Forall (fun x => x.1 = None) l) \/ th_ctl th = Run (TPanic SAbort)).
Lemma stopped_step ths t st lk th l st' lk' th' : stopped th -> tstep ths t st lk th l st' lk' th' ->
  (l = LTau /\ stopped th') \/ l = LTried (Some SAbort).
Proof.
  intros (Hs & H) Hst. destruct Hst; cbn in *; destruct H as [(l0 & k0 & H & Hl)|H]; try done; inversion H; subst; try done.
  - left. apply Forall_cons_1 in Hl as [Hl1 Hl]. cbn in Hl1. subst o. split; [done|]. split; [done|]. left. eauto.
  - left. split; [done|]. split; [done|]. by right.
  - by right.
Qed.
Lemma no_events (l : list Micro) : events l = [] -> Forall (fun x => x.1 = None) l.
Proof. induction l as [|[o g] l IH]; [constructor|]. destruct o; [done|]. intros H. constructor; [done|]. by apply IH. Qed.
(** A call of an aborting method was made visible. *)
Lemma abort_step c tr y t m s stk y' : inv c tr y -> step y (t, LSat (SvCall m s stk)) y' -> aborting m ->
  exists th, sy_ths y' !! t = Some th /\ stopped th.
Proof.
  intros I Hs Ha. remember (t, LSat (SvCall m s stk)) as e eqn:Ee. destruct Hs as [st lk ths t' th l st' lk' th' Ht Hst|]; [|done].
  injection Ee as -> ->. remember (LSat (SvCall m s stk)) as l eqn:El.
  destruct Hst as [| | | | |st lk o f l r k stk0| | | | | | | | | |]; try done. destruct o as [e|]; [|done]. injection El as ->.
  cbn. rewrite list_lookup_insert by by eapply lookup_lt_Some. eexists. split; [done|].
  pose proof (i_body _ _ _ I) as Ib. cbn in Ib. rewrite Forall_lookup in Ib. destruct (Ib _ _ Ht) as (_ & Hr & _ & Hone).
  pose proof (proj2 (i_lock _ _ _ I) _ _ Ht) as Hh. unfold held in Hh. cbn in Hh. split; cbn.
  - destruct (List.filter is_fmt stk0); [done|]. cbn in Hh. destruct (decide _); lia.
  - left. exists l, k. rewrite (Hr m s stk f) by by left. rewrite (method_panic_aborting _ Ha). split; [done|].
    apply no_events. unfold events in *. cbn in Hone. destruct (omap fst l); [done|cbn in Hone; lia].
Qed.
Lemma step_other y t l y' u : step y (t, l) y' -> u <> t -> sy_ths y' !! u = sy_ths y !! u.
Proof. intros H Hu. inversion H; subst; cbn; [|done]. by rewrite list_lookup_insert_ne. Qed.
Lemma abort_lemma E b f ps pre t m s stk mid l post y :
  runs (sys_init E b f ps) (pre ++ (t, LSat (SvCall m s stk)) :: mid ++ (t, l) :: post) y -> aborting m ->
  (forall l', (t, l') ∈ mid -> l' = LTau) -> l = LTau \/ l = LTried (Some SAbort) \/ l = LCrash SAbort.
Proof.
  intros H Ha Hmid. apply runs_app in H as (y1 & H1 & H2). apply runs_cons in H2 as (y2 & Hs & H2).
  apply runs_app in H2 as (y3 & H2 & H3). apply runs_cons in H3 as (y4 & Hs' & _).
  apply runs_inv in H1. pose proof (abort_step _ _ _ _ _ _ _ _ H1 Hs Ha) as Hth. clear H1 Hs Ha.
  assert (Hth3 : exists th, sy_ths y3 !! t = Some th /\ stopped th).
  { clear Hs'. induction H2 as [|tr y' [u x] y'' Hr IH Hs]; [done|].
    destruct IH as (th & Ht & Hst); [intros l' Hl'; apply Hmid, elem_of_app; by left|].
    destruct (decide (u = t)) as [->|Hne]; [|exists th; by rewrite (step_other _ _ _ _ _ Hs)].
    assert (x = LTau) as -> by (apply Hmid, elem_of_app; right; by left).
    remember (t, LTau) as e eqn:Ee. destruct Hs as [st lk ths t' th1 l1 st' lk' th' Ht' Hst'|]; [|done]. injection Ee as -> ->.
    cbn in Ht. rewrite Ht in Ht'. injection Ht' as <-. destruct (stopped_step _ _ _ _ _ _ _ _ _ Hst Hst') as [[_ Hx]|]; [|done].
    exists th'. cbn. by rewrite list_lookup_insert by by eapply lookup_lt_Some. }
  destruct Hth3 as (th & Ht & Hst). remember (t, l) as e eqn:Ee.
  destruct Hs' as [st lk ths t' th1 l1 st' lk' th' Ht' Hst'|st lk ths t' v Ht'];
    injection Ee as Et El; subst t' l; cbn in Ht; rewrite Ht in Ht'; injection Ht' as Eth; subst th.
  - destruct (stopped_step _ _ _ _ _ _ _ _ _ Hst Hst') as [[-> _]| ->]; auto.
  - destruct Hst as (_ & [(l0 & k0 & Hx & _)|Hx]); [done|]. cbn in Hx. injection Hx as ->. auto.
Qed.

(** ** Progress *)

Definition qfrm (f : Frm) : Prop := match f with FTry k => forall r, quiet (k r) | FFmt _ _ _ => False end.
(** As [plain], for the goroutine of Done. *)
Inductive calm : TP -> Prop :=
| ca_ret s : calm (TRet s)
| ca_panic v : calm (TPanic v)
| ca_step k : calm k -> calm (TStep k)
| ca_call m a stk k : quiet a -> calm k -> calm (TCall m a stk k)
| ca_failed k : (forall b, calm (k b)) -> calm (TFailed k)
| ca_skipped k : (forall b, calm (k b)) -> calm (TSkipped k)
| ca_cleanup fn k : calm k -> calm (TCleanup fn k)
| ca_wait t k : calm k -> calm (TWait t k)
| ca_try p k : calm p -> (forall r, calm (k r)) -> calm (TTry p k)
| ca_peek k : (forall st, calm (k st)) -> calm (TPeek k)
| ca_out o k : calm k -> calm (TOut o k).
Definition cfrm (f : Frm) : Prop := match f with FTry k => forall r, calm (k r) | FFmt _ _ _ => False end.
(** A goroutine that formats arguments runs quiet code. *)
Inductive cthr : Thr -> Prop :=
| ct_run p stk : calm p -> Forall cfrm stk -> cthr (mkT (Run p) stk)
| ct_body l r k stk : calm k -> Forall cfrm stk -> cthr (mkT (Body l r k) stk)
| ct_fmt p us m at_ k stk : quiet p -> Forall qfrm us -> calm k -> Forall cfrm stk -> cthr (mkT (Run p) (us ++ FFmt m at_ k :: stk)).
Lemma cthr_step ths t st lk th l st' lk' th' : cthr th -> tstep ths t st lk th l st' lk' th' -> cthr th'.
Proof.
  intros H Hst. destruct H as [p stk Hp Hs|l0 r k stk Hk Hs|p us m at_ k stk Hp Hu Hk Hs].
  - inversion Hst; subst; try (apply Forall_cons_1 in Hs as [Hf Hs]); inversion Hp; subst;
      try (constructor; by auto); try by destruct Hf.
    apply (ct_fmt _ []); [|constructor|done|done]. destruct (formats m); [done|constructor].
  - inversion Hst; subst; [by constructor|]. destruct r; by repeat constructor.
  - inversion Hst; subst; inversion Hp; subst; try by apply ct_fmt.
    + destruct us as [|fr us]; cbn in *.
      * injection H3 as -> -> -> ->. by constructor.
      * injection H3 as <- ->. apply Forall_cons_1 in Hu as [[] _].
    + destruct us as [|fr us]; cbn in *.
      * injection H3 as -> -> -> ->. by constructor.
      * injection H3 as <- ->. apply Forall_cons_1 in Hu as [[] _].
    + apply (ct_fmt _ (FTry k0 :: us)); try done. by constructor.
    + destruct us as [|fr us]; cbn in *; [done|]. injection H3 as <- ->. apply Forall_cons_1 in Hu as [Hf Hu]. by apply ct_fmt.
    + destruct us as [|fr us]; cbn in *; [done|]. injection H3 as <- ->. apply Forall_cons_1 in Hu as [Hf Hu]. by apply ct_fmt.
Qed.
Lemma calm_prog p : forall fn stk, calm (t_prog fn stk p).
Proof.
  induction p as [|v|m s a k IH|k IH|k IH|g p _ k IH|a g p IHp k IH|a g p IHp k IH]; intros fn stk; cbn; constructor; auto; try constructor.
  intros [v|]; [constructor|auto].
Qed.
Lemma plain_calm p : plain p -> calm p.
Proof. induction 1; by constructor. Qed.
Lemma calm_ok k : (forall x, calm (k x)) -> calm (t_ok k).
Proof. intros H. unfold t_ok. constructor. intros st. destruct (ss_skipped st); [done|]. by constructor. Qed.
Lemma calm_after b r : calm (t_after b r).
Proof.
  unfold t_after. constructor. destruct r; [constructor|]. apply calm_ok. intros x. constructor. unfold t_report. apply calm_ok.
  intros y. constructor. intros st.
  assert (H : forall out, calm (if negb y && b then TOut (OReport (mkCR y out [] [])) (TRet "")
    else TPeek (fun st => let x0 := ss_explanation st in TPeek (fun st => TOut (OReport (mkCR y out x0 (ss_messages st))) (TRet ""))))).
  { intros out. destruct (negb y && b); [repeat constructor|]. constructor. intros st1. cbn. constructor. intros st2. repeat constructor. }
  destruct (ss_skipped st); [apply H|]. constructor. intros st1. apply H.
Qed.
Lemma calm_close stk n k : (forall r, calm (k r)) -> calm (t_close stk n k).
Proof.
  intros H. induction n as [|i IH]; cbn; [done|]. constructor. intros st. destruct (ss_cleanup st !! i) as [fn|]; [|done].
  constructor. constructor; [apply calm_prog|]. intros r. constructor. by destruct r.
Qed.
Lemma calm_main E b f : plain f -> calm (t_main E b f).
Proof.
  intros H. constructor; [by apply plain_calm|]. intros r. constructor. constructor. intros st. apply calm_close. intros r'. apply calm_after.
Qed.
Lemma runs_cthr E b f ps tr y : plain f -> Forall plain ps -> runs (sys_init E b f ps) tr y -> Forall cthr (sy_ths y).
Proof.
  intros Hf Hps. induction 1 as [|tr y e y' H IH Hs].
  - cbn. constructor; [constructor; [by apply calm_main|constructor]|]. apply Forall_fmap. eapply Forall_impl; [exact Hps|].
    intros p Hp. constructor; [by apply plain_calm|constructor].
  - destruct Hs as [st lk ths t th l st' lk' th' Ht Hst|]; [|done]. cbn in *. apply Forall_insert; [done|].
    eapply cthr_step; [|exact Hst]. rewrite Forall_lookup in IH. eauto.
Qed.
Lemma ended_dec th : ended th \/ ~ ended th.
Proof.
  destruct th as [[p|l r k] stk]; [|right; by intros [s Hx]]. destruct p; try (right; by intros [s' Hx]).
  destruct stk; [left; by exists s|right; by intros [s' Hx]].
Qed.
Lemma progress_lemma E b f ps tr y : plain f -> Forall plain ps -> runs (sys_init E b f ps) tr y -> sy_crash y = None ->
  (exists e y', step y e y') \/ forall t th, sy_ths y !! t = Some th -> ended th \/ waiting y th.
Proof.
  intros Hf Hps H Hcr. pose proof (runs_cthr _ _ _ _ _ _ Hf Hps H) as Hc. apply runs_inv in H. destruct H as [[Hlt Hl] _ _ _ _ _].
  destruct y as [st lk cr ths]. cbn in *. subst cr.
  assert (Hgo : forall t th l st' lk' th', ths !! t = Some th -> tstep ths t st lk th l st' lk' th' -> exists e y', step (mkSys st lk None ths) e y').
  { intros t th l st' lk' th' Ht Hst. eexists _, _. econstructor; eassumption. }
  destruct lk as [u|].
  - (* the goroutine that holds the mutex goes on *)
    left. destruct (lookup_lt_is_Some_2 ths u (Hlt _ eq_refl)) as [th Hth]. pose proof (Hl _ _ Hth) as Hh. rewrite decide_True in Hh by done.
    rewrite Forall_lookup in Hc. pose proof (Hc _ _ Hth) as Hct. destruct Hct as [p stk Hp Hs|l r k stk Hk Hs|p us m at_ k stk Hp Hu Hk Hs].
    + exfalso. unfold held in Hh. cbn in Hh. assert (Hx : List.filter is_fmt stk = []).
      { clear -Hs. induction Hs as [|fr stk Hfr Hs IH]; [done|]. by destruct fr. }
      by rewrite Hx in Hh.
    + destruct l as [|[o g] l]; (eapply Hgo; [exact Hth|]); constructor.
    + destruct Hp as [s|v|p Hp|p k0 Hp Hk0].
      * destruct us as [|[|k0] us]; (eapply Hgo; [exact Hth|]); constructor.
      * destruct us as [|[|k0] us]; (eapply Hgo; [exact Hth|]); constructor.
      * eapply Hgo; [exact Hth|]. constructor.
      * eapply Hgo; [exact Hth|]. constructor.
  - (* nobody holds it *)
    assert (Hall : forall n, (exists e y', step (mkSys st None None ths) e y') \/ forall t th, t < n -> ths !! t = Some th -> ended th \/ waiting (mkSys st None None ths) th).
    { induction n as [|n IH]; [right; intros; lia|]. destruct IH as [IH|IH]; [by left|]. destruct (ths !! n) as [th|] eqn:Hth.
      2:{ right. intros t th Ht Htt. assert (t = n \/ t < n) as [->|] by lia; [congruence|eauto]. }
      assert (Hn : (exists e y', step (mkSys st None None ths) e y') \/ ended th \/ waiting (mkSys st None None ths) th).
      { rewrite Forall_lookup in Hc. destruct (Hc _ _ Hth) as [p stk Hp Hs|l r k stk Hk Hs|p us m at_ k stk Hp Hu Hk Hs].
        - destruct Hp as [s|v|k Hk|m a at_ k Ha Hk|k Hk|k Hk|fn k Hk|u k Hk|p k Hp Hk|k Hk|o k Hk].
          + destruct stk as [|[|k0] stk]; [right; left; by exists s| |]; (left; eapply Hgo; [exact Hth|]); constructor.
          + destruct stk as [|[|k0] stk]; [left; eexists _, _; by apply S_crash| |]; (left; eapply Hgo; [exact Hth|]); constructor.
          + left; eapply Hgo; [exact Hth|constructor].
          + left. assert (m = MParallel \/ m <> MParallel) as [->|Hm] by (destruct m; auto); (eapply Hgo; [exact Hth|]); by constructor.
          + left; eapply Hgo; [exact Hth|constructor].
          + left; eapply Hgo; [exact Hth|constructor].
          + left; eapply Hgo; [exact Hth|constructor].
          + destruct (ths !! u) as [th'|] eqn:Hu; [|right; right; exists u, k; split; [done|]; cbn; intros (th' & Hx & _); congruence].
            destruct (ended_dec th') as [He|He]; [left; eapply Hgo; [exact Hth|]; by econstructor|].
            right; right. exists u, k. split; [done|]. cbn. intros (th2 & Hx & He2). rewrite Hu in Hx. injection Hx as <-. done.
          + left; eapply Hgo; [exact Hth|constructor].
          + left; eapply Hgo; [exact Hth|constructor].
          + left; eapply Hgo; [exact Hth|constructor].
        - exfalso. pose proof (Hl _ _ Hth) as Hh. unfold held in Hh. cbn in Hh. destruct (decide _); [done|lia].
        - exfalso. pose proof (Hl _ _ Hth) as Hh. unfold held in Hh. cbn in Hh. rewrite List.filter_app, app_length in Hh. cbn in Hh. destruct (decide _); [done|lia]. }
      destruct Hn as [Hn|Hn]; [by left|]. right. intros t th' Ht Htt. assert (t = n \/ t < n) as [->|] by lia; [|eauto].
      rewrite Hth in Htt. by injection Htt as <-. }
    destruct (Hall (length ths)) as [Hx|Hx]; [by left|]. right. intros t th Ht. eapply Hx; [by eapply lookup_lt_Some|done].
Qed.
