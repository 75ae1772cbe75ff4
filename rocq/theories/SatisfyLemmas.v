(** * Lemmas on ToSatisfy. *)
From Verif Require Import SatisfySpec LocationLemmas.

Lemma called_nil K : ~ called K [].
Proof. intros (m & s & a & H & _). by apply elem_of_nil in H. Qed.
Lemma called_app K l l' : called K (l ++ l') <-> called K l \/ called K l'.
Proof.
  unfold called. split.
  - intros (m & s & a & H & Hk). apply elem_of_app in H. destruct H; [left | right]; by exists m, s, a.
  - intros [(m & s & a & H & Hk)|(m & s & a & H & Hk)]; exists m, s, a; split; try done; apply elem_of_app; tauto.
Qed.
Lemma called_one K m s a : called K [SvCall m s a] <-> K m.
Proof.
  split; [intros (m' & s' & a' & H & Hk); apply elem_of_list_singleton in H; by inversion H; subst|].
  intros H. exists m, s, a. split; [by left | done].
Qed.
Lemma called_other K e : (forall m s a, e <> SvCall m s a) -> ~ called K [e].
Proof. intros H (m & s & a & Hin & _). apply elem_of_list_singleton in Hin. by eapply H. Qed.
Lemma called_cons K e l : called K (e :: l) <-> called K [e] \/ called K l.
Proof. apply (called_app K [e] l). Qed.

(** The functions that called Helper. *)
Definition declared (evs : list SEv) : list text :=
  omap (fun e => match e with SvCall MHelper _ stk => Some (func (hd no_frame stk)) | _ => None end) evs.
Lemma declared_app l l' : declared (l ++ l') = declared l ++ declared l'.
Proof. apply omap_app. Qed.

(** The explanation of a call. *)
Definition explanation (caller : text) (l : list SEv) (m : SMethod) (stk : list SFrame) : text :=
  explain_text m (find_loop (rev (declared l)) caller no_frame no_frame (take 50 stk)).
Lemma explanation_some caller l m stk : exists c t, explanation caller l m stk = c :: t.
Proof. unfold explanation, explain_text. destruct m; cbn; eauto. Qed.

(** What the state says about the calls so far. *)
Definition tracks (caller : text) (evs : list SEv) (st : SState) : Prop :=
  (ss_failed st = true <-> called failing evs) /\
  (ss_skipped st = true <-> called skipping evs) /\
  (match ss_explanation st with
   | [] => ~ called deciding evs
   | x => exists l m stk, first_called deciding evs l m stk /\ x = explanation caller l m stk
   end) /\
  logged evs (ss_messages st) /\
  ss_cleanup st = registered evs /\
  ss_helpers st = rev (declared evs) /\ ss_caller st = caller.

Lemma logged_app a b l l' : logged a l -> logged b l' -> logged (a ++ b) (l ++ l').
Proof. induction 1; intros Hb; cbn; [done | constructor; [done | by apply IHlogged] | by constructor; [|apply IHlogged]]. Qed.
Lemma logged_none e : (forall m s at_, e = SvCall m s at_ -> ~ logging m) -> logged [e] [].
Proof. intros H. constructor; [done | constructor]. Qed.
Lemma first_called_app K a b l m stk : first_called K a l m stk -> first_called K (a ++ b) l m stk.
Proof. intros (s & l' & -> & H1 & H2). exists s, (l' ++ b). by rewrite <- app_assoc. Qed.

Lemma tracks_init caller : tracks caller [] (mkS false false [] [] [] caller []).
Proof.
  split_and!; cbn; [| | apply called_nil | constructor | done | done | done].
  - split; [done|]. intros H. by apply called_nil in H.
  - split; [done|]. intros H. by apply called_nil in H.
Qed.

(** An event that is not a call of a method nor a registration. *)
Lemma tracks_other caller evs e st :
  (forall m s a, e <> SvCall m s a) -> (forall fn, e <> SvCleanup fn) -> tracks caller evs st -> tracks caller (evs ++ [e]) st.
Proof.
  intros H1 H2 (T1 & T2 & T3 & T4 & T5 & T6 & T7). split_and!.
  - rewrite called_app. rewrite T1. split; [by left|]. intros [?|?]; [done | by apply called_other in H].
  - rewrite called_app. rewrite T2. split; [by left|]. intros [?|?]; [done | by apply called_other in H].
  - destruct (ss_explanation st) as [|c t].
    + rewrite called_app. intros [?|?]; [done|]. by apply called_other in H.
    + destruct T3 as (l & m & stk & T3 & Ex). exists l, m, stk. split; [by apply first_called_app|done].
  - rewrite <- (app_nil_r (ss_messages st)). apply logged_app; [done|]. apply logged_none. intros m s a ->. by destruct (H1 m s a).
  - unfold registered in *. rewrite omap_app, <- T5. destruct e; cbn; rewrite ?app_nil_r; try done. by destruct (H2 fn).
  - rewrite declared_app, T6. destruct e as [m s a| | | | | |]; cbn; rewrite ?app_nil_r; try done. by destruct (H1 m s a).
  - done.
Qed.
Lemma tracks_cleanup caller evs fn st :
  tracks caller evs st ->
  tracks caller (evs ++ [SvCleanup fn]) (mkS (ss_skipped st) (ss_failed st) (ss_explanation st) (ss_messages st) (ss_cleanup st ++ [fn])
    (ss_caller st) (ss_helpers st)).
Proof.
  intros (T1 & T2 & T3 & T4 & T5 & T6 & T7). split_and!; cbn.
  - rewrite called_app, T1. split; [by left|]. intros [?|H]; [done | by apply called_other in H].
  - rewrite called_app, T2. split; [by left|]. intros [?|H]; [done | by apply called_other in H].
  - destruct (ss_explanation st) as [|c t].
    + rewrite called_app. intros [?|?]; [done|]. by apply called_other in H.
    + destruct T3 as (l & m & stk & T3 & Ex). exists l, m, stk. split; [by apply first_called_app|done].
  - rewrite <- (app_nil_r (ss_messages st)). apply logged_app; [done|]. by apply logged_none.
  - unfold registered in *. by rewrite omap_app, <- T5.
  - rewrite declared_app, T6. cbn. by rewrite app_nil_r.
  - done.
Qed.

(** What a method does to each part of the state. *)
Lemma explain_fields m above st :
  ss_skipped (s_explain m above st) = ss_skipped st /\ ss_failed (s_explain m above st) = ss_failed st /\
  ss_messages (s_explain m above st) = ss_messages st /\ ss_cleanup (s_explain m above st) = ss_cleanup st /\
  ss_caller (s_explain m above st) = ss_caller st /\ ss_helpers (s_explain m above st) = ss_helpers st /\
  ss_explanation (s_explain m above st) =
    match ss_explanation st with
    | [] => explain_text m (find_loop (ss_helpers st) (ss_caller st) no_frame no_frame (take 50 (drop 2 above)))
    | x => x
    end.
Proof. unfold s_explain. destruct (ss_explanation st) as [|c t] eqn:E; [|rewrite E; done]. split_and!; done. Qed.

Definition is_failing (m : SMethod) : bool := match m with MError | MErrorf | MFail | MFailNow | MFatal | MFatalf => true | _ => false end.
Definition is_skipping (m : SMethod) : bool := match m with MSkip | MSkipNow | MSkipf => true | _ => false end.
Definition is_logging (m : SMethod) : bool :=
  match m with MLog | MLogf | MError | MErrorf | MFatal | MFatalf | MSkip | MSkipf => true | _ => false end.
Definition is_aborting (m : SMethod) : bool := match m with MFailNow | MFatal | MFatalf | MSkip | MSkipNow | MSkipf => true | _ => false end.
Lemma is_failing_iff m : is_failing m = true <-> failing m.
Proof. destruct m; cbn; split; intros H; try done; try constructor; inversion H. Qed.
Lemma is_skipping_iff m : is_skipping m = true <-> skipping m.
Proof. destruct m; cbn; split; intros H; try done; try constructor; inversion H. Qed.
Lemma is_logging_iff m : is_logging m = true <-> logging m.
Proof. destruct m; cbn; split; intros H; try done; try constructor; inversion H. Qed.
Lemma is_aborting_iff m : is_aborting m = true <-> aborting m.
Proof.
  destruct m; cbn; split; intros H; try done; try (by repeat constructor); inversion H as [| | |? Hs]; inversion Hs.
Qed.

Lemma method_fields m s stk st st' r :
  s_method m s stk st = (st', r) ->
  ss_skipped st' = is_skipping m || ss_skipped st /\ ss_failed st' = is_failing m || ss_failed st /\
  ss_messages st' = ss_messages st ++ (if is_logging m then [s] else []) /\ ss_cleanup st' = ss_cleanup st /\
  ss_caller st' = ss_caller st /\
  ss_helpers st' = (match m with MHelper => [func (hd no_frame stk)] | _ => [] end) ++ ss_helpers st /\
  ss_explanation st' =
    match ss_explanation st with
    | [] => if is_failing m || is_skipping m
            then explain_text m (find_loop (ss_helpers st) (ss_caller st) no_frame no_frame (take 50 stk)) else []
    | x => x
    end /\
  r = (if is_aborting m then Some SAbort else None).
Proof.
  unfold s_method, s_fail, s_skip, s_log, s_helper.
  destruct m; intros [= <- <-]; cbn [is_failing is_skipping is_logging is_aborting orb];
    repeat match goal with |- context [s_explain ?m ?a ?st] =>
      let H1 := fresh in let H2 := fresh in let H3 := fresh in let H4 := fresh in let H5 := fresh in let H6 := fresh in let H7 := fresh in
      destruct (explain_fields m a st) as (H1 & H2 & H3 & H4 & H5 & H6 & H7); cbn in H1, H2, H3, H4, H5, H6, H7;
      generalize dependent (s_explain m a st); intros ? ? ? ? ? ? ? ? end;
    cbn; split_and!; rewrite ?app_nil_r; try congruence; try done; try (destruct (ss_explanation st) eqn:?; congruence);
    try (unfold caller_name, s_stack, func; cbn; by destruct stk).
Qed.

Lemma tracks_call caller evs m s a st st' r :
  tracks caller evs st -> s_method m s a st = (st', r) ->
  tracks caller (evs ++ [SvCall m s a]) st' /\ (r = None \/ r = Some SAbort) /\ (r = Some SAbort <-> aborting m).
Proof.
  intros (T1 & T2 & T3 & T4 & T5 & T6 & T7) Hm.
  destruct (method_fields _ _ _ _ _ _ Hm) as (F1 & F2 & F3 & F4 & F5 & F6 & F7 & F8). split.
  2:{ rewrite F8. rewrite <- is_aborting_iff. destruct (is_aborting m); split; try tauto; done. }
  split_and!.
  - rewrite F2, called_app, called_one, orb_true_iff, is_failing_iff, T1. tauto.
  - rewrite F1, called_app, called_one, orb_true_iff, is_skipping_iff, T2. tauto.
  - rewrite F7. destruct (ss_explanation st) as [|c t].
    + destruct (is_failing m || is_skipping m) eqn:E.
      * assert (Hd : deciding m) by (apply orb_true_iff in E; rewrite is_failing_iff, is_skipping_iff in E; exact E).
        assert (Eq : explain_text m (find_loop (ss_helpers st) (ss_caller st) no_frame no_frame (take 50 a)) = explanation caller evs m a)
          by (unfold explanation; by rewrite T6, T7).
        rewrite Eq. destruct (explanation_some caller evs m a) as (c & t & Ec). rewrite Ec. exists evs, m, a. split; [|done].
        exists s, []. done.
      * rewrite called_app, called_one. intros [?|[Hx|Hx]]; [done| |]; [apply is_failing_iff in Hx|apply is_skipping_iff in Hx];
          rewrite Hx in E; [done|by rewrite orb_true_r in E].
    + destruct T3 as (l & m' & stk & T3 & Ex). exists l, m', stk. split; [by apply first_called_app|done].
  - rewrite F3. apply logged_app; [done|]. destruct (is_logging m) eqn:E.
    + constructor; [by apply is_logging_iff|constructor].
    + apply logged_none. intros ? ? ? [= <- _ _] Hx. apply is_logging_iff in Hx. congruence.
  - rewrite F4, T5. unfold registered. rewrite omap_app. cbn. by rewrite app_nil_r.
  - rewrite F6, T6, declared_app, rev_app_distr. destruct m; done.
  - congruence.
Qed.

(** Queries answer according to the calls so far. *)
Definition queries_ok (before evs : list SEv) : Prop :=
  forall l e l', evs = l ++ e :: l' ->
    (forall b, e = SvFailed b -> b = true <-> called failing (before ++ l)) /\
    (forall b, e = SvSkipped b -> b = true <-> called skipping (before ++ l)).

Lemma queries_nil before : queries_ok before [].
Proof. intros l e l' H. by destruct l. Qed.
Lemma queries_app before a b : queries_ok before a -> queries_ok (before ++ a) b -> queries_ok before (a ++ b).
Proof.
  intros Ha Hb l e l' H. apply app_eq_app in H. destruct H as (k & [[-> H]|[-> H]]).
  - destruct k as [|x k]; [|inversion H; subst; by apply (Ha l x k)].
    cbn in H. specialize (Hb [] e l' (eq_sym H)). rewrite ?app_nil_r in Hb. exact Hb.
  - specialize (Hb k e l' H). by rewrite <- app_assoc in Hb.
Qed.
Lemma queries_one before e : (forall b, e = SvFailed b -> b = true <-> called failing before) ->
  (forall b, e = SvSkipped b -> b = true <-> called skipping before) -> queries_ok before [e].
Proof.
  intros H1 H2 l e' l' H. destruct l as [|x l]; [|destruct l; done]. inversion H; subst. rewrite app_nil_r. done.
Qed.

(** What follows an aborting call: the end of the function, or a recovery.  [r] is how
    the function whose events are [evs] ends. *)
Definition aborts_ok (evs : list SEv) (r : option SPan) : Prop :=
  forall l m s a l', evs = l ++ SvCall m s a :: l' -> aborting m ->
    match l' with
    | [] => r = Some SAbort
    | e :: _ => e = SvRecovered SAbort \/ e = SvEnd (Some SAbort)
    end.
Lemma aborts_cons e evs r : (forall m s a, e <> SvCall m s a) -> aborts_ok evs r -> aborts_ok (e :: evs) r.
Proof. intros He H l m s a l' E Hm. destruct l as [|x l]; [by inversion E; subst; destruct (He m s a)|]. inversion E; subst. by eapply H. Qed.

Lemma aborts_app a b r : aborts_ok a None -> aborts_ok b r -> aborts_ok (a ++ b) r.
Proof.
  intros Ha Hb l m s at_ l' E Hm. apply app_eq_app in E. destruct E as (x & [[-> E]|[-> E]]).
  - destruct x as [|y x]; [by eapply (Hb [])|]. inversion E; subst y l'. specialize (Ha l m s at_ x eq_refl Hm). by destruct x.
  - by eapply Hb.
Qed.

Lemma run_tracks caller p fn stk st evs0 st' evs r :
  tracks caller evs0 st -> s_run fn stk p st = (st', evs, r) ->
  tracks caller (evs0 ++ evs) st' /\ queries_ok evs0 evs /\ aborts_ok evs r.
Proof.
  revert fn stk st evs0 st' evs r.
  induction p as [|v|m s a k IH|k IH|k IH|g gp _ k IH|a g p IHp k IHk|a g p IHp k IHk]; intros fn stk st evs0 st' evs r T H; cbn in H.
  - inversion H; subst. rewrite app_nil_r. split_and!; [done | apply queries_nil |]. intros l ? ? ? ? E. by destruct l.
  - inversion H; subst. rewrite app_nil_r. split_and!; [done | apply queries_nil |]. intros l ? ? ? ? E. by destruct l.
  - set (stk' := frame_at fn a :: stk) in H. clearbody stk'.
    destruct (s_method m s stk' st) as [st1 r1] eqn:Em. destruct (tracks_call _ _ _ _ _ _ _ _ T Em) as (T1 & Hr & Hab).
    destruct r1 as [v|].
    + inversion H; subst. destruct Hr as [?|[= ->]]; [done|]. split_and!; [done | apply queries_one; done |].
      intros l ? ? ? ? E _. destruct l as [|? [|? ?]]; [|done|done]. by inversion E.
    + destruct (s_run fn stk k st1) as [[st2 evs2] r2] eqn:Er. inversion H; subst.
      destruct (IH _ _ _ _ _ _ _ T1 Er) as (T2 & Hq & Ha). split_and!.
      * by rewrite <- app_assoc in T2.
      * apply (queries_app evs0 [SvCall m s stk']); [by apply queries_one | done].
      * intros l ? ? ? ? E Hk. destruct l as [|x l].
        { inversion E; subst. apply Hab in Hk. done. }
        inversion E; subst. by eapply Ha.
  - destruct (s_run fn stk (k (ss_failed st)) st) as [[st2 evs2] r2] eqn:Er. inversion H; subst.
    assert (Tm : tracks caller (evs0 ++ [SvFailed (ss_failed st)]) st) by by apply tracks_other.
    destruct (IH _ _ _ _ _ _ _ _ Tm Er) as (T2 & Hq & Ha).
    split_and!.
    + by rewrite <- app_assoc in T2.
    + apply (queries_app evs0 [SvFailed (ss_failed st)]); [|done]. apply queries_one; [|done]. intros b [= <-]. apply T.
    + by apply aborts_cons.
  - destruct (s_run fn stk (k (ss_skipped st)) st) as [[st2 evs2] r2] eqn:Er. inversion H; subst.
    assert (Tm : tracks caller (evs0 ++ [SvSkipped (ss_skipped st)]) st) by by apply tracks_other.
    destruct (IH _ _ _ _ _ _ _ _ Tm Er) as (T2 & Hq & Ha).
    split_and!.
    + by rewrite <- app_assoc in T2.
    + apply (queries_app evs0 [SvSkipped (ss_skipped st)]); [|done]. apply queries_one; [done|]. intros b [= <-]. apply T.
    + by apply aborts_cons.
  - match type of H with context [s_run fn stk k ?x] => set (st1 := x) in H end.
    destruct (s_run fn stk k st1) as [[st2 evs2] r2] eqn:Er. inversion H; subst.
    assert (Tm : tracks caller (evs0 ++ [SvCleanup (g, gp)]) st1) by by apply tracks_cleanup.
    destruct (IH _ _ _ _ _ _ _ Tm Er) as (T2 & Hq & Ha).
    split_and!.
    + by rewrite <- app_assoc in T2.
    + by apply (queries_app evs0 [SvCleanup (g, gp)]); [apply queries_one|].
    + by apply aborts_cons.
  - destruct (s_run g (frame_at fn a :: stk) p st) as [[st1 evs1] r1] eqn:E1.
    destruct (IHp _ _ _ _ _ _ _ T E1) as (T1 & Hq1 & Ha1). destruct r1 as [v|].
    + inversion H; subst. done.
    + destruct (s_run fn stk k st1) as [[st2 evs2] r2] eqn:E2. inversion H; subst.
      destruct (IHk _ _ _ _ _ _ _ T1 E2) as (T2 & Hq2 & Ha2). split_and!.
      * by rewrite <- app_assoc in T2.
      * by apply queries_app.
      * by apply aborts_app.
  - destruct (s_run g (frame_at fn a :: stk) p st) as [[st1 evs1] r1] eqn:E1. destruct (s_run fn stk (k r1) st1) as [[st2 evs2] r2] eqn:E2. inversion H; subst.
    destruct (IHp _ _ _ _ _ _ _ T E1) as (T1 & Hq1 & Ha1).
    set (mid := match r1 with Some v => [SvRecovered v] | None => [] end) in *.
    assert (Tm : tracks caller ((evs0 ++ evs1) ++ mid) st1).
    { subst mid. destruct r1; [by apply tracks_other | by rewrite app_nil_r]. }
    destruct (IHk _ _ _ _ _ _ _ _ Tm E2) as (T2 & Hq2 & Ha2). split_and!.
    + by rewrite <- !app_assoc in T2.
    + apply queries_app; [done|]. apply queries_app; [|done]. subst mid. destruct r1; [by apply queries_one | apply queries_nil].
    + intros l m s a' l' E Hk. apply app_eq_app in E. destruct E as (x & [[-> E]|[-> E]]).
      * destruct x as [|y x].
        { cbn in E. destruct mid as [|z mid'] eqn:Ez.
          - cbn in E. by eapply (Ha2 []).
          - inversion E; subst z. subst mid. by destruct r1. }
        inversion E; subst y l'. specialize (Ha1 l m s a' x eq_refl Hk). destruct x as [|e x]; [|done]. subst r1. cbn. by left.
      * apply app_eq_app in E. destruct E as (y & [[E1' E]|[-> E]]).
        { destruct y as [|z y].
          - cbn in E. by eapply (Ha2 []).
          - exfalso. inversion E; subst z. subst mid. destruct r1; [|by destruct x]. destruct x as [|? [|? ?]]; inversion E1'. }
        by eapply Ha2.
Qed.

Lemma aborts_end evs r : aborts_ok evs r -> forall r', aborts_ok (evs ++ [SvEnd r]) r'.
Proof.
  intros H r' l m s a l' E Hm. apply app_eq_app in E. destruct E as (x & [[-> E]|[-> E]]).
  - destruct x as [|y x]; [by inversion E|]. inversion E; subst y l'. specialize (H l m s a x eq_refl Hm).
    destruct x; [|done]. cbn. right. by rewrite H.
  - destruct x as [|? [|? ?]]; inversion E.
Qed.
Lemma aborts_nil r : aborts_ok [] r.
Proof. intros l ? ? ? ? E. by destruct l. Qed.

Lemma close_runs caller stk n : forall st evs0 st' evs r,
  tracks caller evs0 st -> n <= length (ss_cleanup st) -> s_close stk n st = (st', evs, r) ->
  tracks caller (evs0 ++ evs) st' /\ queries_ok evs0 evs /\ (forall r', aborts_ok evs r') /\
  exists runs : list cleanup_run,
    evs = concat (map run_events runs) /\
    map (fun c => c.1.1) runs = take (length runs) (rev (take n (ss_cleanup st))) /\
    Forall (fun c => exists a b, s_run c.1.1.1 stk c.1.1.2 a = (b, c.1.2, c.2)) runs /\
    (forall i c, runs !! i = Some c -> S i < length runs -> c.2 = None) /\
    (length runs < n -> exists c v, last runs = Some c /\ c.2 = Some v) /\
    length runs <= n /\
    r = last_panic (map snd runs).
Proof.
  induction n as [|i IH]; intros st evs0 st' evs r T Hle H; cbn in H.
  - inversion H; subst. rewrite app_nil_r. split_and!; [done | apply queries_nil | intros; apply aborts_nil |].
    exists []. split_and!; try done; cbn; lia.
  - destruct (lookup_lt_is_Some_2 (ss_cleanup st) i Hle) as [fn Hfn]. rewrite Hfn in H.
    assert (Tb : tracks caller (evs0 ++ [SvBegin fn]) st) by by apply tracks_other.
    destruct (s_run fn.1 stk fn.2 st) as [[st1 evs1] r1] eqn:E1.
    destruct (run_tracks _ _ _ _ _ _ _ _ _ Tb E1) as (T1 & Q1 & A1).
    assert (Te : tracks caller (((evs0 ++ [SvBegin fn]) ++ evs1) ++ [SvEnd r1]) st1) by by apply tracks_other.
    assert (Qb : queries_ok evs0 (SvBegin fn :: evs1 ++ [SvEnd r1])).
    { apply (queries_app evs0 [SvBegin fn]); [by apply queries_one|]. apply queries_app; [done|]. by apply queries_one. }
    assert (Ab : forall r', aborts_ok (SvBegin fn :: evs1 ++ [SvEnd r1]) r').
    { intros r'. apply aborts_cons; [done|]. by apply aborts_end. }
    assert (Ht : rev (take (S i) (ss_cleanup st)) = fn :: rev (take i (ss_cleanup st))).
    { rewrite (take_S_r _ _ fn) by done. by rewrite rev_app_distr. }
    destruct r1 as [v|].
    + inversion H; subst. split_and!.
      * by rewrite <- !app_assoc in Te.
      * done.
      * done.
      * exists [(fn, evs1, Some v)]. rewrite Ht. cbn. rewrite app_nil_r. split_and!; try done.
        -- constructor; [|constructor]. cbn. by exists st, st'.
        -- intros j c Hj Hlt. lia.
        -- intros _. by exists (fn, evs1, Some v), v.
        -- lia.
    + destruct (s_close stk i st1) as [[st2 evs2] r2] eqn:E2. inversion H; subst.
      assert (Hpre : take i (ss_cleanup st1) = take i (ss_cleanup st)).
      { destruct T as (_&_&_&_&Tc&_). destruct Te as (_&_&_&_&Tc'&_).
        rewrite Tc', Tc. unfold registered. rewrite !omap_app. rewrite <- !app_assoc. rewrite take_app_le; [done|].
        unfold registered in Tc. rewrite <- Tc. lia. }
      assert (Hle1 : i <= length (ss_cleanup st1)).
      { assert (L := f_equal length Hpre). rewrite !take_length in L. lia. }
      destruct (IH _ _ _ _ _ Te Hle1 E2) as (T2 & Q2 & A2 & runs & -> & Hf & Hr & Hn & Hl & Hk & Hp).
      split_and!.
      * rewrite <- !app_assoc in T2. cbn in T2. done.
      * assert (Eq : SvBegin fn :: evs1 ++ SvEnd None :: concat (map run_events runs)
                     = (SvBegin fn :: evs1 ++ [SvEnd None]) ++ concat (map run_events runs)).
        { cbn. by rewrite <- app_assoc. }
        change ([SvEnd None] ++ concat (map run_events runs)) with (SvEnd None :: concat (map run_events runs)).
        rewrite Eq. apply queries_app; [done|].
        assert (Eq' : evs0 ++ SvBegin fn :: evs1 ++ [SvEnd None] = ((evs0 ++ [SvBegin fn]) ++ evs1) ++ [SvEnd None]).
        { by rewrite <- !app_assoc. }
        by rewrite Eq'.
      * intros r'. assert (A := aborts_app (SvBegin fn :: evs1 ++ [SvEnd None]) (concat (map run_events runs)) r' (Ab None) (A2 r')).
        cbn in A. by rewrite <- !app_assoc in A.
      * exists ((fn, evs1, None) :: runs). rewrite Ht. cbn [map length concat fst snd take]. unfold run_events at 1. cbn [fst snd].
        split_and!.
        -- cbn. by rewrite <- app_assoc.
        -- by rewrite Hf, Hpre.
        -- constructor; [cbn; by exists st, st1 | done].
        -- intros [|j] c Hj Hlt; cbn in Hj; [by inversion Hj|]. apply (Hn j); [done | lia].
        -- intros Hlt. destruct Hl as (c & v & Hc & Hv); [lia|]. exists c, v. split; [|done]. by destruct runs.
        -- lia.
        -- subst r. done.
Qed.

Lemma last_panic_cons o l : last_panic (o :: l) = match last_panic l with Some v => Some v | None => o end.
Proof.
  unfold last_panic. destruct o as [v|]; cbn [omap list_omap id]; [|by destruct (last (omap id l))].
  change (list_omap (option SPan) SPan id l) with (omap id l). destruct (omap id l) as [|x k]; [done|].
  change (last (x :: k)) with (last (x :: k)). rewrite last_cons.
  destruct (last (x :: k)) eqn:E; [done|]. by apply last_None in E.
Qed.
Lemma done_lemma E fn st' evs r :
  s_done E fn s_init = (st', evs, r) ->
  tracks (fn_name (done_fn E)) evs st' /\ queries_ok [] evs /\ (forall r', aborts_ok evs r') /\
  exists body o (runs : list cleanup_run),
    evs = body ++ SvEnd o :: concat (map run_events runs) /\
    (exists b, s_run fn.1 (done_stack E) fn.2 (mkS false false [] [] [] (fn_name (done_fn E)) []) = (b, body, o)) /\
    map (fun c => c.1.1) runs = take (length runs) (rev (registered body)) /\
    Forall (fun c => exists a b, s_run c.1.1.1 (close_stack E o) c.1.1.2 a = (b, c.1.2, c.2)) runs /\
    (forall i c, runs !! i = Some c -> S i < length runs -> c.2 = None) /\
    (length runs < length (registered body) -> exists c v, last runs = Some c /\ c.2 = Some v) /\
    length runs <= length (registered body) /\
    r = match last_panic (o :: map snd runs) with Some (SUser v) => Some (SUser v) | _ => None end.
Proof.
  unfold s_done. change (frame_at (done_fn E) (se_pred E) :: se_above E) with (done_stack E). intros H.
  match type of H with context [s_run fn.1 _ fn.2 ?x] => set (st0 := x) in H end.
  assert (T0 : tracks (fn_name (done_fn E)) [] st0) by exact (tracks_init _).
  destruct (s_run fn.1 (done_stack E) fn.2 st0) as [[st1 body] o] eqn:E1.
  destruct (run_tracks _ _ _ _ _ _ _ _ _ T0 E1) as (T1 & Q1 & A1). cbn [app] in T1.
  match type of H with context [s_close ?x (length (ss_cleanup st1)) st1] => change x with (close_stack E o) in H end.
  destruct (s_close (close_stack E o) (length (ss_cleanup st1)) st1) as [[st2 evs2] r2] eqn:E2.
  assert (Te : tracks (fn_name (done_fn E)) (body ++ [SvEnd o]) st1) by by apply tracks_other.
  destruct (close_runs _ _ _ _ _ _ _ _ Te (le_n _) E2) as (T2 & Q2 & A2 & runs & -> & Hf & Hr & Hn & Hl & Hk & Hp).
  inversion H; subst st' evs r.
  assert (Hreg : ss_cleanup st1 = registered body) by apply T1. rewrite (take_ge (ss_cleanup st1)) in Hf by lia. rewrite Hreg in Hf, Hl, Hk.
  split_and!.
  - by rewrite <- app_assoc in T2.
  - change (body ++ [SvEnd o] ++ concat (map run_events runs)) with (body ++ ([SvEnd o] ++ concat (map run_events runs))). apply queries_app; [exact Q1|]. cbn [app]. apply (queries_app body [SvEnd o]); [by apply queries_one|]. exact Q2.
  - intros r'. assert (A := aborts_app _ _ r' (aborts_end _ _ A1 None) (A2 r')). by rewrite <- app_assoc in A.
  - exists body, o, runs. split_and!; try done; [by exists st1|]. rewrite last_panic_cons, <- Hp.
    by destruct r2 as [[|]|], o as [[|]|].
Qed.

(** ** Call stacks *)

Lemma run_stacks p : forall fn stk st st' evs r m s stk',
  s_run fn stk p st = (st', evs, r) -> SvCall m s stk' ∈ evs ->
  exists us, stk' = us ++ stk /\ (exists a, last us = Some (frame_at fn a)) /\ sf_pc (hd no_frame us) <> 0%N.
Proof.
  induction p as [|v|m0 s0 a k IH|k IH|k IH|g gp _ k IH|a g p IHp k IHk|a g p IHp k IHk]; intros fn stk st st' evs r m s stk' H Hin; cbn in H.
  - inversion H; subst. by apply elem_of_nil in Hin.
  - inversion H; subst. by apply elem_of_nil in Hin.
  - assert (Hone : SvCall m s stk' = SvCall m0 s0 (frame_at fn a :: stk) ->
      exists us, stk' = us ++ stk /\ (exists a, last us = Some (frame_at fn a)) /\ sf_pc (hd no_frame us) <> 0%N).
    { intros [= -> -> ->]. exists [frame_at fn a]. split_and!; [done | by exists a | done]. }
    destruct (s_method m0 s0 (frame_at fn a :: stk) st) as [st1 [v|]].
    + inversion H; subst. apply elem_of_list_singleton in Hin. by apply Hone.
    + destruct (s_run fn stk k st1) as [[st2 evs2] r2] eqn:Er. inversion H; subst.
      apply elem_of_cons in Hin as [Hin|Hin]; [by apply Hone|]. by eapply IH.
  - destruct (s_run fn stk (k (ss_failed st)) st) as [[st2 evs2] r2] eqn:Er. inversion H; subst.
    apply elem_of_cons in Hin as [Hin|Hin]; [done|]. by eapply IH.
  - destruct (s_run fn stk (k (ss_skipped st)) st) as [[st2 evs2] r2] eqn:Er. inversion H; subst.
    apply elem_of_cons in Hin as [Hin|Hin]; [done|]. by eapply IH.
  - match type of H with context [s_run fn stk k ?x] => set (st1 := x) in H end.
    destruct (s_run fn stk k st1) as [[st2 evs2] r2] eqn:Er. inversion H; subst.
    apply elem_of_cons in Hin as [Hin|Hin]; [done|]. by eapply IH.
  - destruct (s_run g (frame_at fn a :: stk) p st) as [[st1 evs1] r1] eqn:E1.
    assert (Hinner : SvCall m s stk' ∈ evs1 ->
      exists us, stk' = us ++ stk /\ (exists a, last us = Some (frame_at fn a)) /\ sf_pc (hd no_frame us) <> 0%N).
    { intros Hx. destruct (IHp _ _ _ _ _ _ _ _ _ E1 Hx) as (us & -> & (b & Hb) & Hpc). exists (us ++ [frame_at fn a]).
      split_and!; [by rewrite <- app_assoc | exists a; by rewrite last_snoc | by destruct us]. }
    destruct r1 as [v|]; [inversion H; subst; by apply Hinner|].
    destruct (s_run fn stk k st1) as [[st2 evs2] r2] eqn:E2. inversion H; subst.
    apply elem_of_app in Hin as [Hin|Hin]; [by apply Hinner|]. by eapply IHk.
  - destruct (s_run g (frame_at fn a :: stk) p st) as [[st1 evs1] r1] eqn:E1.
    assert (Hinner : SvCall m s stk' ∈ evs1 ->
      exists us, stk' = us ++ stk /\ (exists a, last us = Some (frame_at fn a)) /\ sf_pc (hd no_frame us) <> 0%N).
    { intros Hx. destruct (IHp _ _ _ _ _ _ _ _ _ E1 Hx) as (us & -> & (b & Hb) & Hpc). exists (us ++ [frame_at fn a]).
      split_and!; [by rewrite <- app_assoc | exists a; by rewrite last_snoc | by destruct us]. }
    destruct (s_run fn stk (k r1) st1) as [[st2 evs2] r2] eqn:E2. inversion H; subst.
    apply elem_of_app in Hin as [Hin|Hin]; [by apply Hinner|]. apply elem_of_app in Hin as [Hin|Hin].
    + destruct r1; [|by apply elem_of_nil in Hin]. apply elem_of_list_singleton in Hin. done.
    + by eapply IHk.
Qed.

(** The innermost frame that is not a helper's. *)
Lemma find_nonhelper helpers caller n : forall l f l' first prev,
  Forall (fun x => func x ∈ helpers /\ func x <> caller) l -> func f ∉ helpers -> func f <> caller -> length l < n ->
  (sf_pc first <> 0%N \/ sf_pc (hd no_frame (l ++ [f])) <> 0%N) ->
  find_loop helpers caller first prev (take n (l ++ f :: l')) =
    (f, bool_decide (f = if decide (sf_pc first = 0%N) then hd no_frame (l ++ [f]) else first)).
Proof.
  induction n as [|n IH]; intros l f l' first prev HF Hn Hc Hlen Hpc; [lia|].
  destruct l as [|x l]; cbn [app take find_loop hd].
  - unfold func in *. rewrite (decide_False (P := fr_func (sf_frame f) = caller)) by done. by rewrite (bool_decide_eq_true_2 (fr_func (sf_frame f) ∉ helpers)).
  - apply Forall_cons in HF as [[Hx1 Hx2] HF]. unfold func in Hx1, Hx2.
    rewrite (decide_False (P := fr_func (sf_frame x) = caller)) by done.
    rewrite (bool_decide_eq_false_2 (fr_func (sf_frame x) ∉ helpers)) by (intros H; by apply H).
    rewrite (bool_decide_eq_false_2 (take n (l ++ f :: l') = [])); cbn [orb].
    2:{ cbn in Hlen. destruct n; [lia|]. by destruct l. }
    cbn in Hlen. rewrite IH; [|done..|lia|].
    + destruct (decide (sf_pc first = 0%N)) as [E|E]; [|by rewrite decide_False].
      destruct Hpc as [?|Hpc]; [done|]. cbn in Hpc. by rewrite decide_False.
    + left. destruct (decide (sf_pc first = 0%N)) as [E|E]; [|done]. by destruct Hpc as [?|Hpc].
Qed.
(** Only helpers up to the caller: the last of them. *)
Lemma find_all_helpers helpers caller n : forall us f g rest first prev,
  Forall (fun x => func x ∈ helpers /\ func x <> caller) us -> last us = Some f -> func g = caller -> length us <= n ->
  (sf_pc first <> 0%N \/ sf_pc (hd no_frame us) <> 0%N) ->
  find_loop helpers caller first prev (take n (us ++ g :: rest)) =
    (f, bool_decide (f = if decide (sf_pc first = 0%N) then hd no_frame us else first)).
Proof.
  induction n as [|n IH]; intros us f g rest first prev HF Hl Hg Hlen Hpc; [destruct us; [done|cbn in Hlen; lia]|].
  destruct us as [|x us]; [done|]. cbn [app take find_loop hd]. apply Forall_cons in HF as [[Hx1 Hx2] HF]. unfold func in Hx1, Hx2.
  rewrite (decide_False (P := fr_func (sf_frame x) = caller)) by done.
  rewrite (bool_decide_eq_false_2 (fr_func (sf_frame x) ∉ helpers)) by (intros H; by apply H). cbn [orb].
  cbn in Hlen. assert (Hpc' : sf_pc (if decide (sf_pc first = 0%N) then x else first) <> 0%N).
  { destruct (decide (sf_pc first = 0%N)) as [E|E]; [|done]. by destruct Hpc as [?|Hpc]. }
  destruct us as [|y us].
  - cbn in Hl. injection Hl as ->. destruct n as [|n]; [done|]. cbn [app take]. rewrite bool_decide_eq_false_2 by done.
    cbn [find_loop]. unfold func in Hg. rewrite (decide_True (P := fr_func (sf_frame g) = caller)) by done. rewrite (decide_False (P := sf_pc (if decide (sf_pc first = 0%N) then f else first) = 0%N)) by done. done.
  - rewrite (bool_decide_eq_false_2 (take n ((y :: us) ++ g :: rest) = [])) by (destruct n; [cbn in Hlen; lia|done]).
    rewrite (IH (y :: us) f); [|done|done|done|cbn in *; lia|by left].
    rewrite (decide_False (P := sf_pc (if decide (sf_pc first = 0%N) then x else first) = 0%N)) by done. done.
Qed.

Lemma smethod_name m : smethod_text m = txt (method_name m).
Proof. by destruct m. Qed.
Lemma explain_explained m f d : explained m d f (explain_text m (f, d)).
Proof.
  intros b Hb Hl. unfold explain_text. cbn [fst snd]. rewrite smethod_name.
  destruct (decide (fr_line (sf_frame f) = 0%Z)); [lia|]. destruct (fr_file (sf_frame f)) as [|c p] eqn:E.
  - exfalso. destruct Hb as (Hne & _ & d0 & n0 & Hp & _). by destruct d0, b.
  - rewrite <- E in *. rewrite (base_spec _ _ Hb). by destruct d.
Qed.

Lemma declared_helper evs f : (forall m s stk, SvCall m s stk ∈ evs -> stk <> []) -> f ∈ declared evs <-> is_helper evs f.
Proof.
  intros Hne. unfold declared. rewrite elem_of_list_omap. split.
  - intros (e & He & Hf). destruct e as [m s stk| | | | | |]; try done. destruct m; try done. injection Hf as <-.
    destruct stk as [|x stk]; [by apply Hne in He|]. by exists s, x, stk.
  - intros (s & x & stk & He & <-). by exists (SvCall MHelper s (x :: stk)).
Qed.

Lemma run_no_end p : forall fn stk st st' evs r o, s_run fn stk p st = (st', evs, r) -> SvEnd o ∉ evs.
Proof.
  induction p as [|v|m0 s0 a k IH|k IH|k IH|g gp _ k IH|a g p IHp k IHk|a g p IHp k IHk]; intros fn stk st st' evs r o H Hin; cbn in H.
  - inversion H; subst. by apply elem_of_nil in Hin.
  - inversion H; subst. by apply elem_of_nil in Hin.
  - destruct (s_method m0 s0 (frame_at fn a :: stk) st) as [st1 [v|]].
    + inversion H; subst. by apply elem_of_list_singleton in Hin.
    + destruct (s_run fn stk k st1) as [[st2 evs2] r2] eqn:Er. inversion H; subst.
      apply elem_of_cons in Hin as [Hin|Hin]; [done|]. by eapply IH.
  - destruct (s_run fn stk (k (ss_failed st)) st) as [[st2 evs2] r2] eqn:Er. inversion H; subst.
    apply elem_of_cons in Hin as [Hin|Hin]; [done|]. by eapply IH.
  - destruct (s_run fn stk (k (ss_skipped st)) st) as [[st2 evs2] r2] eqn:Er. inversion H; subst.
    apply elem_of_cons in Hin as [Hin|Hin]; [done|]. by eapply IH.
  - match type of H with context [s_run fn stk k ?x] => set (st1 := x) in H end.
    destruct (s_run fn stk k st1) as [[st2 evs2] r2] eqn:Er. inversion H; subst.
    apply elem_of_cons in Hin as [Hin|Hin]; [done|]. by eapply IH.
  - destruct (s_run g (frame_at fn a :: stk) p st) as [[st1 evs1] r1] eqn:E1.
    destruct r1 as [v|]; [inversion H; subst; by eapply IHp|].
    destruct (s_run fn stk k st1) as [[st2 evs2] r2] eqn:E2. inversion H; subst.
    apply elem_of_app in Hin as [Hin|Hin]; [by eapply IHp|by eapply IHk].
  - destruct (s_run g (frame_at fn a :: stk) p st) as [[st1 evs1] r1] eqn:E1.
    destruct (s_run fn stk (k r1) st1) as [[st2 evs2] r2] eqn:E2. inversion H; subst.
    apply elem_of_app in Hin as [Hin|Hin]; [by eapply IHp|]. apply elem_of_app in Hin as [Hin|Hin]; [|by eapply IHk].
    destruct r1; [by apply elem_of_list_singleton in Hin|by apply elem_of_nil in Hin].
Qed.

(** Every call happens on top of the function or of a cleanup function. *)
Lemma done_stacks E fn st' evs r l m s stk l' :
  s_done E fn s_init = (st', evs, r) -> evs = l ++ SvCall m s stk :: l' ->
  exists us, sf_pc (hd no_frame us) <> 0%N /\
    ((forall o, SvEnd o ∉ l) /\ stk = us ++ done_stack E /\ (exists a, last us = Some (frame_at fn.1 a)) \/
     exists o g, SvEnd o ∈ l /\ SvBegin g ∈ l /\ stk = us ++ close_stack E o /\ (exists a, last us = Some (frame_at g.1 a))).
Proof.
  intros H He. destruct (done_lemma _ _ _ _ _ H) as (_ & _ & _ & body & o & runs & Hev & (b & Hrun) & _ & Hruns & _).
  rewrite He in Hev. apply app_eq_app in Hev. destruct Hev as (k & [[-> Hev]|[-> Hev]]).
  - (* l is longer than body *)
    destruct k as [|x k]; [done|]. cbn in Hev. injection Hev as <- Hev.
    assert (Hc : exists c, c ∈ runs /\ SvBegin c.1.1 ∈ k /\ SvCall m s stk ∈ c.1.2).
    { clear -Hev. revert k Hev. induction runs as [|c runs IH]; intros k Hev; [by destruct k|]. cbn in Hev.
      destruct k as [|y k]; [done|]. injection Hev as <- Hev. rewrite <- app_assoc in Hev.
      apply app_eq_app in Hev. destruct Hev as (z & [[Ec Ez]|[-> Ez]]).
      - destruct z as [|w z].
        + cbn in Ez. done.
        + injection Ez as <- Ez. exists c. split_and!; [by left|by left|]. rewrite Ec. apply elem_of_app. right. by left.
      - destruct z as [|w z]; [done|]. cbn in Ez. injection Ez as <- Ez. destruct (IH z Ez) as (c' & H1 & H2 & H3).
        exists c'. split_and!; [by right| |done]. right. apply elem_of_app. right. by right. }
    destruct Hc as (c & Hc & Hbg & Hcall). eapply Forall_forall in Hruns; [|exact Hc]. destruct Hruns as (a' & b' & Hr).
    destruct (run_stacks _ _ _ _ _ _ _ _ _ _ Hr Hcall) as (us & -> & Hlast & Hpc). exists us. split; [done|]. right.
    exists o, c.1.1. split_and!; [|apply elem_of_app; right; by right|done|done]. apply elem_of_app. right. by left.
  - (* the call is in body *)
    destruct k as [|x k].
    + exfalso. cbn in Hev. done.
    + cbn in Hev. injection Hev as <- Hev. assert (Hin : SvCall m s stk ∈ l ++ SvCall m s stk :: k) by (apply elem_of_app; right; by left).
      destruct (run_stacks _ _ _ _ _ _ _ _ _ _ Hrun Hin) as (us & -> & Hlast & Hpc). exists us. split; [done|]. left. split_and!; [|done|done].
      intros o' Ho. clear -Hrun Ho. assert (Hx : SvEnd o' ∈ l ++ SvCall m s (us ++ done_stack E) :: k) by (apply elem_of_app; by left).
      revert Hx. eapply run_no_end. exact Hrun.
Qed.

Lemma done_no_empty E fn st' evs r l m0 stk0 l' s0 :
  s_done E fn s_init = (st', evs, r) -> evs = l ++ SvCall m0 s0 stk0 :: l' ->
  forall m s stk, SvCall m s stk ∈ l -> stk <> [].
Proof.
  intros H He m s stk Hin. apply elem_of_list_split in Hin as (l1 & l2 & ->). rewrite <- app_assoc in He. cbn in He.
  destruct (done_stacks _ _ _ _ _ _ _ _ _ _ H He) as (us & Hpc & [(_ & -> & _)|(o & g & _ & _ & -> & _)]); destruct us; done.
Qed.

(** The explanation is that of the first deciding call. *)
Lemma done_explanation E fn st' evs r l m stk :
  s_done E fn s_init = (st', evs, r) -> first_called deciding evs l m stk ->
  ss_explanation st' = explanation (fn_name (done_fn E)) l m stk.
Proof.
  intros H (s & l' & He & Hk & Hno). destruct (proj1 (done_lemma _ _ _ _ _ H)) as (_ & _ & T & _).
  destruct (ss_explanation st') as [|c t].
  - exfalso. apply T. exists m, s, stk. split; [rewrite He; apply elem_of_app; right; by left|done].
  - destruct T as (l2 & m2 & stk2 & (s2 & l2' & He2 & Hk2 & Hno2) & ->). rewrite He in He2. apply app_eq_app in He2.
    destruct He2 as (k & [[-> Hx]|[-> Hx]]); destruct k as [|e k]; cbn in Hx.
    + injection Hx as <- <- <- _. by rewrite app_nil_r.
    + injection Hx as <- Hx. exfalso. apply Hno. exists m2, s2, stk2. split; [apply elem_of_app; right; by left|done].
    + injection Hx as <- <- <- _. by rewrite app_nil_r.
    + injection Hx as <- Hx. exfalso. apply Hno2. exists m, s, stk. split; [apply elem_of_app; right; by left|done].
Qed.

(** Either some frame is not that of a helper, or all are. *)
Lemma split_helpers (helpers : list text) us :
  (exists l f l', us = l ++ f :: l' /\ Forall (fun x => func x ∈ helpers) l /\ func f ∉ helpers) \/ Forall (fun x => func x ∈ helpers) us.
Proof.
  induction us as [|x us IH]; [by right|]. destruct (decide (func x ∈ helpers)) as [Hx|Hx].
  - destruct IH as [(l & f & l' & -> & Hl & Hf)|IH]; [|right; by constructor].
    left. exists (x :: l), f, l'. split_and!; [done|by constructor|done].
  - left. exists [], x, us. split_and!; [done|constructor|done].
Qed.
