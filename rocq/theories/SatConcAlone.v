(** * A *SatisfyT used by one goroutine only. *)
From Verif Require Import SatConcSpec SatConcLemmas SatConcDone SatisfyLemmas.

Definition sys1 (st : SState) (c : Ctl) (stk : list Frm) : Sys := mkSys st None None [mkT c stk].
Definition code_of (r : option SPan) : TP := match r with None => TRet "" | Some v => TPanic v end.
Lemma calls_app a b : calls_of (a ++ b) = calls_of a ++ calls_of b.
Proof. apply omap_app. Qed.
Lemma answers_of_app a b : answers_of (a ++ b) = answers_of a ++ answers_of b.
Proof. apply omap_app. Qed.

Lemma step1 st lk c stk l st' lk' c' stk' ths : ths = [mkT c stk] ->
  tstep ths 0 st lk (mkT c stk) l st' lk' (mkT c' stk') -> step (mkSys st lk None ths) (0, l) (mkSys st' lk' None [mkT c' stk']).
Proof. intros -> H. exact (S_step st lk [mkT c stk] 0 _ l st' lk' _ eq_refl H). Qed.
Lemma runs_one y e y' : step y e y' -> runs y [e] y'.
Proof. intros H. apply (runs_snoc y [] y e y'); [constructor|done]. Qed.
Lemma runs_front y e y' tr y'' : step y e y' -> runs y' tr y'' -> runs y (e :: tr) y''.
Proof. intros H H'. apply (runs_trans y y' y'' [e] tr); [by apply runs_one|done]. Qed.

(** The writes of a body. *)
Lemma body_runs l : forall st r k stk, exists tr,
  runs (mkSys st (Some 0) None [mkT (Body l r k) stk]) tr (sys1 (apply_steps l st) (Run match r with Some v => TPanic v | None => k end) stk) /\
  did tr = events l /\ answers tr = [].
Proof.
  induction l as [|[o f] l IH]; intros st r k stk.
  - exists [(0, LTau)]. split; [|done]. apply runs_one. eapply step1; [done|]. constructor.
  - destruct (IH (f st) r k stk) as (tr & H1 & H2 & H3). exists ((0, lab o) :: tr). split; [|split].
    + eapply runs_front; [|exact H1]. eapply step1; [done|]. constructor.
    + unfold did, events in *. cbn. destruct o; cbn; by rewrite H2.
    + unfold answers in *. cbn. by destruct o.
Qed.
Lemma method_runs m s st stk k stk0 : exists tr,
  runs (sys1 st (Run (TCall m (TRet s) stk k)) stk0) tr
       (sys1 (s_method m s stk st).1 (Run match (s_method m s stk st).2 with Some v => TPanic v | None => k end) stk0) /\
  did tr = calls_of [SvCall m s stk] /\ answers tr = [].
Proof.
  assert (m = MParallel \/ m <> MParallel) as [->|Hm] by (destruct m; auto).
  { exists [(0, LTau)]. split; [|done]. apply runs_one. eapply step1; [done|]. constructor. }
  set (s' := if formats m then s else "").
  assert (Hs : s_method m s stk st = s_method m s' stk st) by (unfold s'; by destruct m).
  destruct (method_steps_ok m s' stk st Hm) as [E1 E2].
  destruct (body_runs (method_steps m s' stk) st (method_panic m) k stk0) as (tr & H1 & H2 & H3).
  exists ((0, LTau) :: (0, LTau) :: tr). rewrite Hs, E1. cbn [fst snd]. split; [|split; [|exact H3]].
  - eapply runs_front; [eapply step1; [done|]; by apply T_lock|]. eapply runs_front; [|exact H1].
    assert ((if formats m then TRet s else TRet "") = TRet s') as -> by (unfold s'; by destruct (formats m)).
    eapply step1; [done|]. constructor.
  - change (did tr = calls_of [SvCall m s stk]). rewrite H2, E2. unfold s'. by destruct m.
Qed.

Lemma did_cons l tr : did ((0, l) :: tr) = match l with LSat e => [e] | _ => [] end ++ did tr.
Proof. by destruct l. Qed.
Lemma answers_cons l tr : answers ((0, l) :: tr) = match l with LOut o => [o] | _ => [] end ++ answers tr.
Proof. by destruct l. Qed.
Lemma prog_runs p : forall fn stk st k0 st' evs r, s_run fn stk p st = (st', evs, r) -> exists tr,
  runs (sys1 st (Run (t_prog fn stk p)) k0) tr (sys1 st' (Run (code_of r)) k0) /\ did tr = calls_of evs /\ answers tr = [].
Proof.
  induction p as [|v|m s a k IH|k IH|k IH|g p _ k IH|a g p IHp k IH|a g p IHp k IH]; intros fn stk st k0 st' evs r H; cbn in H.
  - injection H as <- <- <-. exists []. split; [constructor|done].
  - injection H as <- <- <-. exists []. split; [constructor|done].
  - destruct (method_runs m s st (frame_at fn a :: stk) (t_prog fn stk k) k0) as (tr & H1 & H2 & H3).
    destruct (s_method m s (frame_at fn a :: stk) st) as [st1 [v|]] eqn:Em; cbn [fst snd] in *.
    + injection H as <- <- <-. exists tr. done.
    + destruct (s_run fn stk k st1) as [[st2 evs2] r2] eqn:Er. injection H as <- <- <-.
      destruct (IH _ _ _ k0 _ _ _ Er) as (tr' & H4 & H5 & H6). exists (tr ++ tr'). split; [by eapply runs_trans|].
      rewrite did_app, answers_app, H2, H3, H5, H6. split; [|done]. symmetry. apply (calls_app [_]).
  - destruct (s_run fn stk (k (ss_failed st)) st) as [[st2 evs2] r2] eqn:Er. injection H as <- <- <-.
    destruct (IH _ _ _ _ k0 _ _ _ Er) as (tr' & H4 & H5 & H6). exists ((0, LSat (SvFailed (ss_failed st))) :: tr').
    split; [|rewrite did_cons, answers_cons, H5, H6; done]. eapply runs_front; [|exact H4]. eapply step1; [done|]. constructor.
  - destruct (s_run fn stk (k (ss_skipped st)) st) as [[st2 evs2] r2] eqn:Er. injection H as <- <- <-.
    destruct (IH _ _ _ _ k0 _ _ _ Er) as (tr' & H4 & H5 & H6). exists ((0, LSat (SvSkipped (ss_skipped st))) :: tr').
    split; [|rewrite did_cons, answers_cons, H5, H6; done]. eapply runs_front; [|exact H4]. eapply step1; [done|]. constructor.
  - change (mkS (ss_skipped st) (ss_failed st) (ss_explanation st) (ss_messages st) (ss_cleanup st ++ [(g, p)]) (ss_caller st) (ss_helpers st))
      with (add_cleanup (g, p) st) in H.
    destruct (s_run fn stk k (add_cleanup (g, p) st)) as [[st2 evs2] r2] eqn:Er. injection H as <- <- <-.
    destruct (IH _ _ _ k0 _ _ _ Er) as (tr' & H4 & H5 & H6).
    destruct (body_runs [(Some (SvCleanup (g, p)), add_cleanup (g, p))] st None (t_prog fn stk k) k0) as (tr & H1 & H2 & H3).
    exists ((0, LTau) :: tr ++ tr'). split; [|rewrite did_cons, answers_cons, did_app, answers_app, H2, H3, H5, H6; done].
    eapply runs_front; [eapply step1; [done|]; constructor|]. eapply runs_trans; [exact H1|exact H4].
  - destruct (s_run g (frame_at fn a :: stk) p st) as [[st1 evs1] r1] eqn:E1.
    destruct (IHp _ _ _ (FTry (fun r => match r with None => t_prog fn stk k | Some v => TPanic v end) :: k0) _ _ _ E1) as (tr & H1 & H2 & H3).
    destruct r1 as [v|].
    + injection H as <- <- <-. exists ((0, LTau) :: tr ++ [(0, LTried (Some v))]).
      split; [|rewrite did_cons, answers_cons, did_app, answers_app, H2, H3; cbn; rewrite app_nil_r; done].
      eapply runs_front; [eapply step1; [done|]; constructor|]. eapply runs_trans; [exact H1|]. apply runs_one.
      eapply step1; [done|]. apply (T_recovered _ _ _ _ _ (fun r => match r with None => t_prog fn stk k | Some v => TPanic v end)).
    + destruct (s_run fn stk k st1) as [[st2 evs2] r2] eqn:Er. injection H as <- <- <-.
      destruct (IH _ _ _ k0 _ _ _ Er) as (tr' & H4 & H5 & H6). exists ((0, LTau) :: tr ++ (0, LTried None) :: tr').
      split; [|rewrite did_cons, answers_cons, did_app, answers_app, did_cons, answers_cons, H2, H3, H5, H6, calls_app; done].
      eapply runs_front; [eapply step1; [done|]; constructor|]. eapply runs_trans; [exact H1|]. eapply runs_front; [|exact H4].
      eapply step1; [done|]. apply (T_tried _ _ _ _ _ (fun r => match r with None => t_prog fn stk k | Some v => TPanic v end)).
  - destruct (s_run g (frame_at fn a :: stk) p st) as [[st1 evs1] r1] eqn:E1.
    destruct (IHp _ _ _ (FTry (fun r => t_prog fn stk (k r)) :: k0) _ _ _ E1) as (tr & H1 & H2 & H3).
    destruct (s_run fn stk (k r1) st1) as [[st2 evs2] r2] eqn:Er. injection H as <- <- <-.
    destruct (IH _ _ _ _ k0 _ _ _ Er) as (tr' & H4 & H5 & H6). exists ((0, LTau) :: tr ++ (0, LTried r1) :: tr').
    split.
    2:{ rewrite did_cons, answers_cons, did_app, answers_app, did_cons, answers_cons, H2, H3, H5, H6, !calls_app. by destruct r1. }
    eapply runs_front; [eapply step1; [done|]; constructor|]. eapply runs_trans; [exact H1|]. eapply runs_front; [|exact H4].
    eapply step1; [done|]. destruct r1 as [v|]; cbn.
    + apply (T_recovered _ _ _ _ _ (fun r => t_prog fn stk (k r))).
    + apply (T_tried _ _ _ _ _ (fun r => t_prog fn stk (k r))).
Qed.
Lemma run_calls p : forall fn stk st st' evs r, s_run fn stk p st = (st', evs, r) -> answers_of evs = [].
Proof.
  induction p as [|v|m s a k IH|k IH|k IH|g p _ k IH|a g p IHp k IH|a g p IHp k IH]; intros fn stk st st' evs r H; cbn in H.
  - by injection H as <- <- <-.
  - by injection H as <- <- <-.
  - destruct (s_method m s (frame_at fn a :: stk) st) as [st1 [v|]]; [by injection H as <- <- <-|].
    destruct (s_run fn stk k st1) as [[st2 evs2] r2] eqn:Er. injection H as <- <- <-. apply (IH _ _ _ _ _ _ Er).
  - destruct (s_run fn stk (k (ss_failed st)) st) as [[st2 evs2] r2] eqn:Er. injection H as <- <- <-. apply (IH _ _ _ _ _ _ _ Er).
  - destruct (s_run fn stk (k (ss_skipped st)) st) as [[st2 evs2] r2] eqn:Er. injection H as <- <- <-. apply (IH _ _ _ _ _ _ _ Er).
  - destruct (s_run fn stk k _) as [[st2 evs2] r2] eqn:Er. injection H as <- <- <-. apply (IH _ _ _ _ _ _ Er).
  - destruct (s_run g (frame_at fn a :: stk) p st) as [[st1 evs1] r1] eqn:E1. apply IHp in E1.
    destruct r1 as [v|]; [by injection H as <- <- <-|].
    destruct (s_run fn stk k st1) as [[st2 evs2] r2] eqn:Er. injection H as <- <- <-. by rewrite answers_of_app, E1, (IH _ _ _ _ _ _ Er).
  - destruct (s_run g (frame_at fn a :: stk) p st) as [[st1 evs1] r1] eqn:E1. apply IHp in E1.
    destruct (s_run fn stk (k r1) st1) as [[st2 evs2] r2] eqn:Er. injection H as <- <- <-.
    rewrite !answers_of_app, E1, (IH _ _ _ _ _ _ _ Er). by destruct r1.
Qed.
Lemma close_runs1 stk n : forall st k st' evs r, s_close stk n st = (st', evs, r) -> exists tr,
  runs (sys1 st (Run (t_close stk n k)) []) tr (sys1 st' (Run (k r)) []) /\ did tr = calls_of evs /\ answers tr = answers_of evs.
Proof.
  induction n as [|i IH]; intros st k st' evs r H; cbn in H.
  - injection H as <- <- <-. exists []. split; [constructor|done].
  - destruct (ss_cleanup st !! i) as [fn|] eqn:Ei.
    2:{ injection H as <- <- <-. exists [(0, LTau)]. split; [|done]. apply runs_one. eapply step1; [done|].
        pose proof (T_peek [mkT (Run (t_close stk (S i) k)) []] 0 st None (fun st => match ss_cleanup st !! i with
          | None => k (Some (SUser "index out of range"))
          | Some fn => TOut (OBegin fn) (TTry (t_prog fn.1 stk fn.2) (fun r => TOut (OEnd r) (match r with Some v => k (Some v) | None => t_close stk i k end))) end) []) as Hx.
        cbv beta in Hx. rewrite Ei in Hx. exact Hx. }
    destruct (s_run fn.1 stk fn.2 st) as [[st1 evs1] r1] eqn:E1.
    set (kc := fun r => TOut (OEnd r) (match r with Some v => k (Some v) | None => t_close stk i k end)).
    destruct (prog_runs _ _ _ _ [FTry kc] _ _ _ E1) as (tr & H1 & H2 & H3).
    assert (Hpre : runs (sys1 st (Run (t_close stk (S i) k)) []) ((0, LTau) :: (0, LOut (OBegin fn)) :: (0, LTau) :: tr ++ [(0, LTried r1); (0, LOut (OEnd r1))])
      (sys1 st1 (Run match r1 with Some v => k (Some v) | None => t_close stk i k end) [])).
    { eapply runs_front.
      { eapply step1; [done|]. pose proof (T_peek [mkT (Run (t_close stk (S i) k)) []] 0 st None (fun st => match ss_cleanup st !! i with
          | None => k (Some (SUser "index out of range"))
          | Some fn => TOut (OBegin fn) (TTry (t_prog fn.1 stk fn.2) (fun r => TOut (OEnd r) (match r with Some v => k (Some v) | None => t_close stk i k end))) end) []) as Hx.
        cbv beta in Hx. rewrite Ei in Hx. exact Hx. }
      eapply runs_front; [eapply step1; [done|]; constructor|].
      eapply runs_front; [eapply step1; [done|]; constructor|].
      eapply runs_trans; [exact H1|]. eapply runs_front; [|apply runs_one; eapply step1; [done|]; constructor].
      eapply step1; [done|]. destruct r1 as [v|]; [apply (T_recovered _ _ _ _ _ kc)|apply (T_tried _ _ _ _ _ kc)]. }
    pose proof (run_calls _ _ _ _ _ _ _ E1) as Hn.
    destruct r1 as [v|].
    + injection H as <- <- <-. eexists. split; [exact Hpre|]. rewrite !did_cons, !answers_cons, did_app, answers_app, H2, H3. cbn [app]. 
      change (SvBegin fn :: evs1 ++ [SvEnd (Some v)]) with ([SvBegin fn] ++ evs1 ++ [SvEnd (Some v)]).
      rewrite !calls_app, !answers_of_app, Hn. cbn. done.
    + destruct (s_close stk i st1) as [[st2 evs2] r2] eqn:Er. injection H as <- <- <-.
      destruct (IH _ k _ _ _ Er) as (tr' & H4 & H5 & H6). eexists. split; [eapply runs_trans; [exact Hpre|exact H4]|].
      change (SvBegin fn :: evs1 ++ SvEnd None :: evs2) with ([SvBegin fn] ++ evs1 ++ [SvEnd None] ++ evs2).
      rewrite !did_app, !answers_app, !did_cons, !answers_cons, did_app, answers_app, H2, H3, H5, H6, !calls_app, !answers_of_app, Hn. cbn.
      rewrite ?app_nil_r. done.
Qed.

(** A single goroutine has one behaviour. *)
Lemma step_det st lk cr th e y e' y' : step (mkSys st lk cr [th]) e y -> step (mkSys st lk cr [th]) e' y' -> e = e' /\ y = y'.
Proof.
  assert (Hz : forall t (x : Thr), [th] !! t = Some x -> t = 0 /\ x = th) by (intros [|t] x Hx; [by injection Hx as ->|done]).
  intros H H'. inversion H as [? ? ? t1 th1 l1 st1 lk1 th1' Ht1 Hs1|? ? ? t1 v1 Ht1]; subst; apply Hz in Ht1 as [-> Heq1];
  inversion H' as [? ? ? t2 th2 l2 st2 lk2 th2' Ht2 Hs2|? ? ? t2 v2 Ht2]; subst; apply Hz in Ht2 as [-> Heq2]; subst.
  - inversion Hs1; subst; inversion Hs2; subst; try done.
  - inversion Hs1.
  - inversion Hs2.
  - inversion Heq2. by subst.
Qed.
Lemma runs_det y0 tr y tr' y' : length (sy_ths y0) = 1 -> runs y0 tr y -> runs y0 tr' y' -> (forall e z, ~ step y' e z) -> exists more, tr' = tr ++ more /\ runs y more y'.
Proof.
  intros Hl H H' Hend. induction H as [|tr y e z Hr IH Hs].
  - by exists tr'.
  - destruct IH as ([|e' more] & -> & Hm).
    + inversion Hm as [|? ? ? ? ? ? Hx]; [|by destruct tr0]. subst y'. by destruct (Hend _ _ Hs).
    + destruct (runs_cons _ _ _ _ Hm) as (z' & Hs' & Hm').
      assert (Hl' : length (sy_ths y) = 1).
      { clear -Hl Hr. induction Hr as [|? ? ? ? ? IH Hs]; [done|]. destruct Hs; cbn in *; [by rewrite insert_length|done]. }
      destruct y as [st lk cr [|th [|]]]; try done.
      destruct (step_det _ _ _ _ _ _ _ _ Hs Hs') as [<- <-]. exists more. split; [by rewrite <- app_assoc|done].
Qed.

Fixpoint dies (p : TP) (st : SState) : option SPan :=
  match p with TPeek k => dies (k st) st | TOut _ k => dies k st | TPanic v => Some v | _ => None end.
Lemma silent_runs p st : silent_code p -> exists tr y,
  runs (sys1 st (Run p) []) tr y /\ (forall e z, ~ step y e z) /\ did tr = [] /\ answers tr = says p st /\ sy_st y = st /\ sy_crash y = dies p st.
Proof.
  induction 1 as [k _ IH|o k _ IH|v|s].
  - destruct (IH st) as (tr & y & H1 & H2 & H3 & H4 & H5 & H6). exists ((0, LTau) :: tr), y. split; [|done].
    eapply runs_front; [eapply step1; [done|]; constructor|exact H1].
  - destruct IH as (tr & y & H1 & H2 & H3 & H4 & H5 & H6). exists ((0, LOut o) :: tr), y.
    split; [eapply runs_front; [eapply step1; [done|]; constructor|exact H1]|]. split; [done|]. rewrite did_cons, answers_cons, H3, H4. done.
  - exists [(0, LCrash v)], (mkSys st None (Some v) [mkT (Run (TPanic v)) []]). split; [apply runs_one; by apply S_crash|].
    split; [|done]. intros e z Hx. inversion Hx.
  - exists [], (sys1 st (Run (TRet s)) []). split; [constructor|]. split; [|done].
    intros e z Hx. inversion Hx as [? ? ? t1 th1 l1 st1 lk1 th1' Ht1 Hs1|? ? ? t1 v1 Ht1]; subst; destruct t1; try done; injection Ht1 as <-. inversion Hs1.
Qed.

Lemma alone_lemma E inverted fn st' evs r tr y :
  s_done E fn s_init = (st', evs, r) -> runs (sys_init E inverted (t_prog fn.1 (done_stack E) fn.2) []) tr y -> (forall e z, ~ step y e z) ->
  did tr = calls_of evs /\ sy_st y = st' /\ sy_crash y = r /\
  answers tr = answers_of evs ++ ODone r :: match r with None => [OOk (s_ok st'); OReport (report_on inverted st')] | Some _ => [] end.
Proof.
  intros H Hr Hend. unfold s_done in H.
  change (mkS (ss_skipped s_init) (ss_failed s_init) (ss_explanation s_init) (ss_messages s_init) (ss_cleanup s_init)
            (caller_name 0 (frame_at (done_fn E) (se_pred E) :: se_above E)) (ss_helpers s_init))
    with (mkS false false [] [] [] (fn_name (done_fn E)) []) in H.
  set (st0 := mkS false false [] [] [] (fn_name (done_fn E)) []) in H.
  change (frame_at (done_fn E) (se_pred E) :: se_above E) with (done_stack E) in H.
  destruct (s_run fn.1 (done_stack E) fn.2 st0) as [[st1 evs1] r1] eqn:E1.
  set (close := frame_at (close_fn E) (se_loop E) :: (match r1 with Some _ => se_panicking E | None => [] end) ++ frame_at (done_fn E) (se_end E) :: se_above E) in H.
  destruct (s_close close (length (ss_cleanup st1)) st1) as [[st2 evs2] r2] eqn:E2. injection H as <- <- <-.
  set (r := match (match r2 with Some v => Some v | None => r1 end) with Some SAbort => None | x => x end).
  set (k := fun r' => t_after inverted match (match r' with Some v => Some v | None => r1 end) with Some SAbort => None | x => x end).
  set (kf := fun r => TOut (OEnd r) (TPeek (fun st =>
    t_close (frame_at (close_fn E) (se_loop E) :: (match r with Some _ => se_panicking E | None => [] end) ++ frame_at (done_fn E) (se_end E) :: se_above E)
      (length (ss_cleanup st)) (fun r' =>
    t_after inverted match (match r' with Some v => Some v | None => r end) with Some SAbort => None | x => x end)))).
  destruct (prog_runs _ _ _ _ [FTry kf] _ _ _ E1) as (tr1 & A1 & A2 & A3).
  destruct (close_runs1 _ _ _ k _ _ _ E2) as (tr2 & B1 & B2 & B3).
  destruct (silent_runs (t_after inverted r) st2 (after_silent inverted r)) as (tr3 & y3 & C1 & C2 & C3 & C4 & C5 & C6).
  assert (Hall : runs (sys_init E inverted (t_prog fn.1 (done_stack E) fn.2) [])
    ((0, LTau) :: tr1 ++ (0, LTried r1) :: (0, LOut (OEnd r1)) :: (0, LTau) :: tr2 ++ tr3) y3).
  { eapply runs_front; [eapply step1; [done|]; apply T_try|]. eapply runs_trans; [exact A1|].
    eapply runs_front; [eapply step1; [done|]; destruct r1 as [v|]; [apply (T_recovered _ _ _ _ _ kf)|apply (T_tried _ _ _ _ _ kf)]|].
    eapply runs_front; [eapply step1; [done|]; constructor|]. eapply runs_front; [eapply step1; [done|]; apply T_peek|].
    eapply runs_trans; [exact B1|]. exact C1. }
  assert (Hone : length (sy_ths (sys_init E inverted (t_prog fn.1 (done_stack E) fn.2) [])) = 1) by reflexivity.
  destruct (runs_det _ _ _ _ _ Hone Hall Hr Hend) as (more & -> & Hm).
  destruct more as [|e more].
  2:{ destruct (runs_cons _ _ _ _ Hm) as (z & Hz & _). by destruct (C2 _ _ Hz). }
  assert (y = y3) as -> by (inversion Hm as [|tt ? ? ? ? ? Hx]; [done|by destruct tt]).
  rewrite app_nil_r. rewrite !did_cons, !answers_cons, !did_app, !answers_app, !did_cons, !answers_cons, !did_app, !answers_app, A2, A3, B2, B3, C3, C4.
  rewrite !calls_app, !answers_of_app, (run_calls _ _ _ _ _ _ _ E1), app_nil_r. cbn [app].
  assert (Hrr : match (match r2 with Some v => Some v | None => r1 end) with Some SAbort => None | Some v => Some v | None => None end = r)
    by (unfold r; by destruct (match r2 with Some v => Some v | None => r1 end) as [[]|]).
  rewrite Hrr. clear Hrr. clearbody r. clear Hall C1.
  split; [done|]. split; [done|]. split.
  - rewrite C6. destruct r as [v|] eqn:Er; [done|]. unfold t_after, t_ok, t_report. cbn.
    destruct (ss_skipped st2) eqn:Es; cbn; rewrite ?Es; cbn; rewrite ?Es; cbn; [done|].
    destruct (ss_failed st2) eqn:Ef; cbn; rewrite ?Es, ?Ef; cbn; rewrite ?Es, ?Ef; cbn; rewrite ?Es, ?Ef; cbn; [by destruct inverted|done].
  - destruct r as [v|] eqn:Er; [done|]. rewrite says_after. done.
Qed.
