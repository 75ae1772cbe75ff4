(** * Proofs about the log of a test. *)
From Verif Require Export LogSpec.
From Verif Require Import ActRefine ActScan ActExec ActProof TestLemmas TestProof ExpectLemmas ExpectProof ExpectReport FrontSpec FrontProof.
From Coq Require Import Lia.

Section Proof.
Context {P : Params}.

(** ** The first line of a report *)

Definition own (p : Pred) : Prop := match p with PdUser _ _ _ => False | _ => True end.

Lemma own_new s e p : builtin e -> new_predicate s e = inl p -> own p.
Proof.
  destruct e; cbn; try done; intros _; repeat (match goal with |- context [match ?x with _ => _ end] => destruct x end; try done); by intros [= <-].
Qed.
Lemma own_notify f p : own p -> own (notify f p).
Proof. destruct p; cbn; try done; repeat (match goal with |- context [match ?x with _ => _ end] => destruct x end; try done). Qed.
Lemma own_facts fs : forall p, own p -> own (foldl (fun p f => notify f p) p fs).
Proof. induction fs as [|f fs IH]; intros p Hp; [done|]. by apply IH, own_notify. Qed.
Lemma own_done p : own p -> own (p_done p).1.
Proof. destruct p; cbn; try done; repeat (match goal with |- context [let '(_, _) := ?x in _] => destruct x end; try done). Qed.

Lemma section_ok t x r : rp_ok (section t x r) = rp_ok r.
Proof. done. Qed.
Lemma foldl_ok {A} (f : Report -> A -> Report) l : (forall r x, rp_ok (f r x) = rp_ok r) -> forall r, rp_ok (foldl f r l) = rp_ok r.
Proof. intros Hf. induction l as [|x l IH]; intros r; [done|]. cbn. by rewrite IH. Qed.
Lemma no_match_end_ok t r : rp_ok (report_no_match_end t r) = rp_ok r.
Proof. unfold report_no_match_end. destruct (t_match t); cbn [section rp_ok]; rewrite ?section_ok; by rewrite foldl_ok. Qed.
Lemma enable_ok t r x : rp_ok (suggest_enable t r x) = rp_ok r.
Proof. unfold suggest_enable. by destruct (_ && _). Qed.
Lemma no_match_ok t r : rp_ok (report_no_match t r) = rp_ok r.
Proof.
  unfold report_no_match. destruct (t_begun t); [|by rewrite no_match_end_ok].
  assert (H : rp_ok (foldl (suggest_enable t) (section suggestions [] r) htypes) = rp_ok r) by (by rewrite foldl_ok; [|apply enable_ok]).
  destruct (t_match t); [by rewrite no_match_end_ok|]. destruct (forallb _ _); [done|]. destruct (t_engaged t); [done|]. by rewrite no_match_end_ok.
Qed.

Lemma repeat_loop_ok l : forall i count shown rep count' shown' rep',
  repeat_loop i l count shown rep = (count', shown', rep') ->
  rp_ok rep' = rp_ok rep /\ count' = count + length (List.filter negb (map fst l)).
Proof.
  induction l as [|[b sr] l IH]; intros i count shown rep count' shown' rep'; cbn; [intros [= -> -> ->]; split; [done|lia]|].
  destruct b; cbn; [apply IH|]. destruct (count =? 0); intros H; apply IH in H as [H1 H2]; (split; [by rewrite H1|lia]).
Qed.

(** Composition of expectations does not matter: only those of the user may report what is
    not so. *)
Lemma report_root T cx p : own p -> rp_ok (report T cx p) = p_ok p.
Proof.
  destruct p as [cmp m ok best t|ty ok t|tp pred near ex calls fl ma ig ok t|c l|p|desc l|desc fn facts st|u s facts]; cbn [report p_ok]; intros Ho.
  - unfold message_report. destruct (ok || cx_tree cx || cx_inv cx); [done|]. destruct best as [e|]; [done|]. by rewrite no_match_ok.
  - unfold type_report. destruct (ok || cx_tree cx || cx_inv cx); [done|]. by rewrite no_match_ok.
  - unfold match_report. destruct (ok || cx_tree cx || cx_inv cx); [done|].
    set (r0 := new_report _ _ _ _). set (r1 := foldl _ r0 fl). assert (H1 : rp_ok r1 = ok) by (subst r1; by rewrite foldl_ok).
    set (r2 := section suggestions [] r1). assert (H2 : rp_ok r2 = ok) by done.
    match goal with |- context [report_no_match t ?x] => set (r3 := x) end.
    assert (H3 : rp_ok r3 = ok) by (subst r3; destruct (0 <? ig); [done|by destruct (nonempty fl)]).
    assert (H4 : rp_ok (report_no_match t r3) = ok) by (by rewrite no_match_ok). by destruct ex.
  - destruct (comp_pred _ _ _) as [outcome ok]. cbn. by rewrite foldl_ok.
  - done.
  - destruct (repeat_loop _ _ _ _ _) as [[count shown] rep] eqn:El. apply repeat_loop_ok in El as [H1 H2]. cbn in H1.
    rewrite map_map in H2. cbn in H2.
    assert (H3 : (count =? 0) = forallb id (map p_ok l)).
    { rewrite H2. clear. induction l as [|p l IH]; [done|]. cbn. destruct (p_ok p); cbn; [exact IH|done]. }
    rewrite <- H3. destruct (count =? 0); [done|]. done.
  - unfold satisfy_report. destruct (negb (s_ok st) && cx_inv cx); [done|]. by rewrite foldl_ok.
  - done.
Qed.

Lemma write_first r : exists rest, write_to r = (if rp_ok r then txt "✓ " else txt "✗ ") ++ rest.
Proof. destruct r as [tree ok cr out ex sec sub]. cbn [write_to]. unfold write_head. cbn [rp_ok]. rewrite <- !app_assoc. by eexists. Qed.
Lemma marks_differ a b : txt "✓ " ++ a <> txt "✗ " ++ b.
Proof. intros H. cbn in H. injection H as H. done. Qed.
Lemma bad_report r : bad (LgReport (report_text r)) <-> rp_ok r = false.
Proof.
  unfold bad, report_text. destruct (write_first r) as [rest Hr]. rewrite Hr. unfold banner. split.
  - intros [rest' H]. rewrite <- !app_assoc in H. do 2 apply app_inv_head in H. destruct (rp_ok r); [|done]. by apply marks_differ in H.
  - intros ->. exists rest. by rewrite <- !app_assoc.
Qed.

(** ** The verdict *)

(** FailNow() is called exactly if there is a report that is not ok. *)
Definition shows (evs : list UEv) : Prop :=
  (forall s e, VHeading s (Some e) ∈ evs -> builtin e) ->
  (VT TvFailNow ∈ evs <-> exists r, VT (TvReport r) ∈ evs /\ rp_ok r = false).
Lemma shows_app l l' : shows l -> shows l' -> shows (l ++ l').
Proof.
  intros H1 H2 Hb. assert (Hb1 : forall s e, VHeading s (Some e) ∈ l -> builtin e) by (intros s e H; apply (Hb s), elem_of_app; by left).
  assert (Hb2 : forall s e, VHeading s (Some e) ∈ l' -> builtin e) by (intros s e H; apply (Hb s), elem_of_app; by right).
  specialize (H1 Hb1). specialize (H2 Hb2). rewrite elem_of_app, H1, H2. split.
  - intros [(r & H & Hr)|(r & H & Hr)]; exists r; (split; [apply elem_of_app|done]); auto.
  - intros (r & H & Hr). apply elem_of_app in H as [H|H]; eauto.
Qed.
Definition mute (ev : UEv) : Prop := match ev with VT TvFailNow | VT (TvReport _) => False | _ => True end.
Lemma shows_mute l : Forall mute l -> shows l.
Proof.
  intros Hm _. rewrite Forall_forall in Hm. split.
  - intros H. by apply Hm in H.
  - intros (r & H & _). by apply Hm in H.
Qed.
Lemma shows_nil : shows [].
Proof. apply shows_mute. constructor. Qed.
Lemma shows_cons ev l : mute ev -> shows l -> shows (ev :: l).
Proof. intros Hm Hl. apply (shows_app [ev] l); [|done]. apply shows_mute. by repeat constructor. Qed.

Section Env.
Context (E : TEnv) (c : Config).
Definition shows_run (x : Run) : Prop := let '(_, evs, _) := x in shows evs.

Lemma shows_tell ev x : mute ev -> shows_run x -> shows_run (tell ev x).
Proof. destruct x as [[st evs] r]. apply shows_cons. Qed.
Lemma shows_then x k : shows_run x -> (forall y st, shows_run (k y st)) -> shows_run (x_then x k).
Proof.
  destruct x as [[st evs] r]. unfold x_then. destruct (x_res r) as [y|]; [|done]. intros H Hk. specialize (Hk y st).
  destruct (k y st) as [[st2 evs2] r2]. by apply shows_app.
Qed.
Definition tmute (ev : TEv) : Prop := match ev with TvFailNow | TvReport _ => False | _ => True end.
Lemma shows_lift x : Forall tmute x.1.2 -> shows_run (lift x).
Proof. destruct x as [[st evs] r]. cbn. intros H. apply shows_mute. by apply Forall_fmap. Qed.

Lemma engine_mute mk st : Forall tmute (engine_op E c mk st).1.2.
Proof. unfold engine_op. destruct (run_op _ _ _) as [[es ev] res]. by repeat constructor. Qed.
Lemma icpt_mute opts p : forall st, Forall tmute (run_icpt E c opts p st).1.2.
Proof.
  induction p as [[e|]|v|f k IH|b k IH]; intros st; cbn [run_icpt]; try constructor.
  - match goal with |- context [run_icpt E c opts (k ?u) ?s] => specialize (IH u s) end.
    destruct (run_icpt _ _ _ _ _) as [[st1 evs1] r1]. by constructor.
  - assert (H := engine_mute (fun o fuel _ => OpDispatch o fuel (mkMsg KCommand b) opts) st). unfold engine_execute.
    destruct (engine_op _ _ _ _) as [[st1 evs1] r1]. destruct (x_res r1) as [x|]; [|done].
    specialize (IH x st1). destruct (run_icpt _ _ _ _ _) as [[st2 evs2] r2]. by apply Forall_app.
Qed.
Lemma command_mute b st : Forall tmute (execute_command E c b st).1.2.
Proof.
  unfold execute_command. destruct (ts_bound st) as [opts|]; [|by repeat constructor]. destruct (ts_icpt st) as [i|].
  - assert (H := icpt_mute opts (i b) st). destruct (run_icpt _ _ _ _ _) as [[st1 evs1] r1]. by constructor.
  - assert (H := engine_mute (fun o fuel _ => OpDispatch o fuel (mkMsg KCommand b) opts) st). unfold engine_execute.
    destruct (engine_op _ _ _ _) as [[st1 evs1] r1]. by constructor.
Qed.
Lemma enable_mute names b : forall st, Forall tmute (enable_handlers c names b st).1.2.
Proof.
  induction names as [|n names IH]; intros st; cbn [enable_handlers]; [constructor|].
  destruct (controllers c !! n) as [h|]; [|constructor]. destruct (b && h_disabled h); [constructor|].
  match goal with |- context [enable_handlers c names b ?s] => specialize (IH s) end.
  destruct (enable_handlers _ _ _ _) as [[st1 evs1] v1]. by constructor.
Qed.
Lemma like_mute pats b st : Forall tmute (enable_handlers_like E c pats b st).1.2.
Proof.
  unfold enable_handlers_like. destruct (match_handlers c pats []) as [names|w]; [|constructor]. cbn.
  apply Forall_forall. intros x Hx. apply elem_of_list_In, in_map_iff in Hx as (n & <- & _). done.
Qed.

Lemma prepare_shows a act st : (forall opts st, shows_run (act opts st)) -> shows_run (u_prepare E a act st).
Proof.
  intros Ha. unfold u_prepare. destruct (ua_caption a) as [s|v]; [|apply shows_nil].
  assert (H := shows_tell (VHeading s None) _ I (Ha (action_options [] st) st)).
  destruct (tell _ _) as [[st1 evs1] r1]. destruct r1; try exact H. apply shows_app; [exact H|]. apply shows_mute. by repeat constructor.
Qed.
Lemma expect_shows a act e st : (forall opts st, shows_run (act opts st)) -> shows_run (u_expect E c a act e st).
Proof.
  intros Ha. unfold u_expect. set (o := mkPO _ _).
  assert (Hc : shows [VConfigure o]) by (apply shows_mute; by repeat constructor).
  destruct (ua_conf a o) as [o'|v]; [|exact Hc]. destruct (ua_caption a) as [s|v]; [|exact Hc].
  set (pre := [VConfigure o; VHeading s (Some e)]).
  assert (Hpre : shows pre) by (apply shows_mute; by repeat constructor).
  assert (Hf : forall er, shows [VT (TvFatal er)]) by (intros er; apply shows_mute; by repeat constructor).
  destruct (new_predicate _ _) as [p|er] eqn:Ep; [|by apply shows_app].
  specialize (Ha (action_options [OptObserver (ts_next st)] st) (set_next (S (ts_next st)) st)).
  destruct (act _ _) as [[st1 evs1] r1].
  assert (H1 : shows (pre ++ VT TvPredicate :: evs1)) by (apply shows_app; [done|]; by apply shows_cons).
  set (q0 := foldl _ p _).
  assert (Hown : builtin e -> own (p_done q0).1) by (intros Hb; apply own_done, own_facts; by eapply own_new).
  destruct (p_done q0) as [q dp]. cbn in Hown.
  assert (H2 : shows (pre ++ VT TvPredicate :: evs1 ++ [VT TvFinal])).
  { apply shows_app; [done|]. apply shows_cons; [done|]. apply shows_app; [done|]. apply shows_mute. by repeat constructor. }
  destruct r1; try (destruct dp as [dv|]); try exact H1; try exact H2.
  - assert (Hr := fun Hb => report_root (report_texts E (ts_next st) (ts_notes st1)) (mkCtx (p_ok q) false) q (Hown Hb)).
    set (rep := report _ _ q) in *.
    assert (Hhead : (forall s' e', VHeading s' (Some e') ∈ pre ++ VT TvPredicate :: evs1 ++ [VT TvFinal] -> builtin e') -> builtin e).
    { intros Hb. apply (Hb s), elem_of_app. left. right. by left. }
    assert (Hsub : forall l l' : list UEv, (forall s' e', VHeading s' (Some e') ∈ l ++ l' -> builtin e') -> forall s' e', VHeading s' (Some e') ∈ l -> builtin e').
    { intros l l' Hb s' e' H. apply (Hb s'), elem_of_app. by left. }
    destruct (p_ok q) eqn:Eq; intros Hb.
    + assert (Hb2 := Hsub _ _ Hb). specialize (Hr (Hhead Hb2)). specialize (H2 Hb2). rewrite elem_of_app, H2. split.
      * intros [(r & H & Hr')|H]; [exists r; split; [apply elem_of_app; by left|done]|]. apply elem_of_list_singleton in H. done.
      * intros (r & H & Hr'). apply elem_of_app in H as [H|H]; [left; eauto|]. apply elem_of_list_singleton in H as [= ->]. congruence.
    + rewrite <- app_assoc in Hb |- *. assert (Hb2 := Hsub _ _ Hb). specialize (Hr (Hhead Hb2)). split; intros _.
      * exists rep. split; [|done]. apply elem_of_app. right. by left.
      * apply elem_of_app. right. right. by left.
  - by apply shows_app.
Qed.
Lemma deferring_shows p q st : (forall st, shows_run (p st)) -> (forall st, shows_run (q st)) -> shows_run (deferring p q st).
Proof.
  intros Hp Hq. unfold deferring. specialize (Hp st). destruct (p st) as [[st1 evs1] r1].
  specialize (Hq st1). destruct (q st1) as [[st2 evs2] r2]. destruct r1; try (by apply shows_app). done.
Qed.

Lemma u_shows : (forall p st, shows_run (run_u E c p st)) /\ (forall a opts st, shows_run (do_u E c a opts st)).
Proof.
  apply u_mutind.
  - intros [e|] st; apply shows_nil.
  - intros v st; apply shows_nil.
  - intros st; apply shows_nil.
  - intros f k IH st. cbn [run_u]. by apply shows_tell.
  - intros b k IH st. cbn [run_u]. apply shows_then; [apply shows_lift, command_mute|intros; apply IH].
  - intros m opts k IH st. cbn [run_u]. apply shows_then; [apply shows_lift, engine_mute|intros; apply IH].
  - intros opts k IH st. cbn [run_u]. apply shows_then; [apply shows_lift, engine_mute|intros; apply IH].
  - intros k IH st. cbn [run_u]. by apply shows_tell.
  - intros k IH st. cbn [run_u]. apply IH.
  - intros t k IH st. cbn [run_u]. by apply shows_tell.
  - intros opts k IH st. cbn [run_u]. by apply shows_tell.
  - intros k IH st. cbn [run_u]. by apply shows_tell.
  - intros i k IH st. cbn [run_u]. by apply shows_tell.
  - intros p IHp q IHq k IH st. rewrite run_try. apply shows_then; [by apply deferring_shows|intros; apply IH].
  - intros a Ha k IH st. cbn [run_u]. apply shows_then; [by apply prepare_shows|intros; apply IH].
  - intros a Ha e k IH st. cbn [run_u]. apply shows_then; [by apply expect_shows|intros; apply IH].
  - intros names b k IH st. cbn [run_u]. assert (H := enable_mute names b st).
    destruct (enable_handlers _ _ _ _) as [[st1 evs1] v]. apply shows_then; [|intros; apply IH]. apply (shows_lift (st1, evs1, AOk) H).
  - intros pats b k IH st. cbn [run_u]. assert (H := like_mute pats b st).
    destruct (enable_handlers_like _ _ _ _ _) as [[st1 evs1] v]. apply shows_then; [|intros; apply IH]. apply (shows_lift (st1, evs1, AOk) H).
  - intros x k IH st. cbn [run_u]. by apply shows_tell.
  - intros k s f do IH opts st. rewrite do_u_eq. specialize (IH opts st).
    destruct (run_u _ _ _ _) as [[st1 evs1] r1]. apply shows_cons; [done|]. apply shows_app; [exact IH|].
    apply shows_mute. destruct r1; by repeat constructor.
Qed.
End Env.

Lemma log_app T l l' : log_of T (l ++ l') = log_of T l ++ log_of T l'.
Proof. unfold log_of. by rewrite map_app, concat_app. Qed.
Lemma log_elem T x l : x ∈ log_of T l <-> exists ev, ev ∈ l /\ x ∈ log_ev T ev.
Proof.
  unfold log_of. rewrite elem_of_list_In, in_concat. split.
  - intros (y & Hy & Hx). apply in_map_iff in Hy as (ev & <- & Hev). exists ev. by rewrite !elem_of_list_In.
  - intros (ev & Hev & Hx). exists (log_ev T ev). rewrite <- !elem_of_list_In. split; [|done]. apply elem_of_list_In, in_map. by apply elem_of_list_In.
Qed.

Lemma verdict_lemma T E app u wall topts p st evs r :
  utesting E app u wall topts p st evs r -> r <> AHalt ->
  (forall s e, VHeading s (Some e) ∈ evs -> builtin e) ->
  (ts_failed st = true <-> exists x, x ∈ log_of T evs /\ bad x).
Proof.
  intros Ht Hr Hb. rewrite (utest_failed _ _ _ _ _ _ _ _ _ Ht Hr).
  assert (Hs : shows evs). { destruct Ht as (_ & _ & Hx). assert (H := proj1 (u_shows E (test_config app)) p (begin app u wall topts)). by rewrite Hx in H. }
  specialize (Hs Hb). unfold u_failed. split.
  - intros (ev & Hev & Hf). destruct ev as [[]| | | | | | | |]; try done.
    + eexists. split; [apply log_elem; eexists; split; [exact Hev|by left]|done].
    + apply Hs in Hev as (rep & Hrep & Hok). exists (LgReport (report_text rep)). split; [apply log_elem; eexists; split; [exact Hrep|by left]|]. by apply bad_report.
  - intros (x & Hx & Hbad). apply log_elem in Hx as (ev & Hev & Hx).
    destruct ev as [[]| | | | | | | |]; cbn [log_ev] in Hx; try (by inversion Hx).
    + apply elem_of_list_fmap in Hx as (y & -> & _). done.
    + apply elem_of_list_singleton in Hx as ->. apply bad_report in Hbad. exists (VT TvFailNow). split; [|done]. apply Hs. eauto.
    + exists (VT (TvFatal e)). done.
    + apply elem_of_list_singleton in Hx as ->. done.
Qed.
(** ** Errors *)

Lemma err_says_lemma e : err_says e (err_text e).
Proof. induction e as [s|s|[n t] e IH]; cbn; by constructor. Qed.
Lemma errs_say_lemma l : errs_say l (errs_text l).
Proof.
  unfold errs_text. induction l as [|e l IH]; [constructor|]. destruct l as [|e' l].
  - cbn. apply es_one, err_says_lemma.
  - apply es_more; [done|apply err_says_lemma|exact IH].
Qed.
Lemma perr_says_lemma T e : perr_says T e (perr_text T e).
Proof. induction e as [[k n]|[k n]|i|i e IH|s]; cbn; by constructor. Qed.
Lemma error_says_lemma T e : error_says T e (terr_text T e).
Proof.
  destruct e as [l|[k b]|[t|d|s f]|s|e]; cbn [terr_text adj_description]; try (by constructor).
  - apply er_engine, errs_say_lemma.
  - apply er_impossible, perr_says_lemma.
Qed.

(** ** One Expect() *)

Lemma after_own s fs e p : builtin e -> after s fs e p -> own p.
Proof.
  intros Hb (p0 & Hp & Hd). assert (H : own (p_done (foldl (fun p f => notify f p) p0 fs)).1) by (apply own_done, own_facts; by eapply own_new).
  by rewrite Hd in H.
Qed.
Lemma report_marked T cx p : own p -> exists t, report_text (report T cx p) = banner ++ (if p_ok p then txt "✓ " else txt "✗ ") ++ t.
Proof.
  intros Ho. destruct (write_first (report T cx p)) as [rest Hr]. rewrite (report_root T cx p Ho) in Hr. exists rest.
  unfold report_text. rewrite Hr. unfold banner. by rewrite <- !app_assoc.
Qed.
Lemma log_t T l : log_of T (VT <$> l) = concat (map (fun ev => log_ev T (VT ev)) l).
Proof. unfold log_of. induction l as [|ev l IH]; [done|]. rewrite fmap_cons. cbn. by rewrite IH. Qed.

Lemma expect_log T E c a e st st' evs r o s :
  u_expect E c a (do_u E c a) e st = (st', evs, r) -> builtin e ->
  ua_conf a (plain_options st) = inl o -> ua_caption a = inl s ->
  let h := LgHeading (txt "--- expect " ++ txt s ++ txt " " ++ exp_caption T e ++ txt " ---") in
  (impossible (scope_of E c o) e /\ exists er u, because (scope_of E c o) e er /\ error_says T (TImpossible er) u /\
     log_of T evs = [h; LgFatal u]) \/
  (~ impossible (scope_of E c o) e /\ exists st1 evs1 ar concl,
     do_u E c a (action_options [OptObserver (ts_next st)] st) (set_next (S (ts_next st)) st) = (st1, evs1, ar) /\
     log_concludes T (scope_of E c o) (notified_to (ts_next st) evs1) e ar concl /\
     log_of T evs = h :: log_of T evs1 ++ concl).
Proof.
  intros Hx Hb Ho Hs. apply expect_spec in Hx.
  inversion Hx as [v Hv|o' v Ho' Hv|o' s' er Ho' Hs' Hi Hbc|o' s' st1 evs1 Ho' Hs' Hi Hd|o' s' st1 evs1 ar v Ho' Hs' Hi Hd Hr Hn|o' s' st1 evs1 ar p rest r' failed Ho' Hs' Hi Hd Hr Haf Hc];
    try congruence; assert (o' = o) as -> by congruence; assert (s' = s) as -> by congruence; subst evs r; try subst st1.
  - left. split; [done|]. exists er, (terr_text T (TImpossible er)). split; [done|]. split; [apply error_says_lemma|reflexivity].
  - right. split; [exact Hi|]. exists st', evs1, AHalt, []. split; [exact Hd|]. split; [constructor|]. rewrite app_nil_r. done.
  - right. split; [done|]. exists st', evs1, ar, []. split; [done|]. split; [by constructor|].
    rewrite app_nil_r. change (?x :: ?y :: ?z :: evs1 ++ [VT TvFinal]) with ([x; y; z] ++ evs1 ++ [VT TvFinal]). rewrite !log_app. cbn. by rewrite app_nil_r.
  - right. split; [done|].
    assert (Hlog : log_of T (VConfigure (plain_options st) :: VHeading s (Some e) :: VT TvPredicate :: evs1 ++ VT TvFinal :: (VT <$> rest)) =
      LgHeading (txt "--- expect " ++ txt s ++ txt " " ++ exp_caption T e ++ txt " ---") :: log_of T evs1 ++ log_of T (VT <$> rest)).
    { change (?x :: ?y :: ?z :: evs1 ++ ?w :: ?v) with ([x; y; z] ++ evs1 ++ [w] ++ v). rewrite !log_app. done. }
    exists st1, evs1, ar, (log_of T (VT <$> rest)). split; [done|]. split; [|exact Hlog]. rewrite log_t.
    assert (How := after_own _ _ _ _ Hb Haf). assert (Hv := proj1 (after_good _ _ _ _ Haf)).
    inversion Hc as [p1 Hm|p1 Hm|p1 er|p1 v|p1]; subst; cbn [map concat log_ev app].
    + destruct (report_marked (report_texts E (ts_next st) (ts_notes st ++ u_annotated evs1)) (mkCtx true false) p How) as [t Ht]. rewrite Ht.
      assert (Hok : p_ok p = true) by (by apply Hv). rewrite Hok. by constructor.
    + destruct (report_marked (report_texts E (ts_next st) (ts_notes st ++ u_annotated evs1)) (mkCtx false false) p How) as [t Ht]. rewrite Ht.
      assert (Hok : p_ok p = false) by (apply not_true_is_false; intros Eo; by apply Hm, Hv). rewrite Hok. by constructor.
    + apply lc_error, error_says_lemma.
    + constructor.
    + constructor.
Qed.

Lemma prepare_log T E c a st st' evs r s :
  u_prepare E a (do_u E c a) st = (st', evs, r) -> ua_caption a = inl s ->
  exists st1 evs1 ar concl, do_u E c a (action_options [] st) st = (st1, evs1, ar) /\
    log_of T evs = LgHeading (txt "--- " ++ txt s ++ txt " ---") :: log_of T evs1 ++ concl /\
    match ar with AErr er => exists u, error_says T er u /\ concl = [LgFatal u] | _ => concl = [] end.
Proof.
  intros Hp Hs. apply prepare_spec in Hp. inversion Hp as [v Hv|s' st1 evs1 er Hs' Hd|s' st1 evs1 ar Hs' Hd Hn]; [congruence|..];
    assert (s' = s) as -> by congruence.
  - exists st1, evs1, (AErr er), [LgFatal (terr_text T er)]. split; [done|]. split; [|exists (terr_text T er); split; [apply error_says_lemma|done]].
    change (?x :: evs1 ++ ?y) with ([x] ++ evs1 ++ y). by rewrite !log_app.
  - exists st', evs1, r, []. split; [congruence|]. split; [change (?x :: evs1) with ([x] ++ evs1); rewrite log_app; cbn; by rewrite app_nil_r|].
    destruct r; try done. subst ar. by destruct (Hn e).
Qed.

(** ** The lines of the facts *)

Section Facts.
Context (c : Config) (B : list OOpt).
Lemma scan_obs a l a' : Scan c B a l a' -> 0 < ab_next a -> ab_obs a <> Some 0 -> 0 < ab_next a' /\ ab_obs a' <> Some 0.
Proof.
  induction 1 as [a|a ev a' l a'' Hs HS IH]; intros H1 H2; [done|].
  inversion Hs; subst; apply IH; cbn; try done; try lia; intros [= Hz]; lia.
Qed.
End Facts.

Definition count0 (l : list OOpt) : nat := length (List.filter (fun o => match o with OptObserver 0 => true | _ => false end) l).
Lemma count0_app l l' : count0 (l ++ l') = count0 l + count0 l'.
Proof. unfold count0. by rewrite List.filter_app, app_length. Qed.
Lemma count0_none l : OptObserver 0 ∉ l -> count0 l = 0.
Proof.
  unfold count0. induction l as [|o l IH]; [done|]. intros H. apply not_elem_of_cons in H as [H1 H2]. cbn.
  destruct o as [[|n]| | |]; try (by apply IH). done.
Qed.

Lemma logger_once E app u wall topts p st evs r l1 op fs l2 :
  testing E app u wall topts p st evs r -> OptObserver 0 ∉ unsafe topts -> evs = l1 ++ TvOp op fs :: l2 -> loggers op = 1.
Proof.
  intros Ht Hu ->. destruct (testing_scan _ _ _ _ _ _ _ _ _ Ht) as (a' & HS & _).
  apply scan_split in HS as (a1 & a2 & HS & Hst).
  inversion Hst as [| |? ? ? e0 r0 Hl Hp Hop Hr| | | | | | | | | | |]; subst.
  assert (Hframe : forall k opts s, ab_stack a1 = (k, opts) :: s -> count0 opts = 1).
  { intros k opts s Hs. destruct (scan_frame _ _ _ (a_init app u wall topts) _ _ _ _ eq_refl HS Hs) as (l0 & l' & b & _ & HS0 & _ & -> & _).
    destruct (scan_obs _ _ _ _ _ HS0) as [_ Ho]; [cbn; lia|done|]. unfold ab_opts.
    change (OptNow (ab_clock b) :: (base_opts topts ++ hopts (ab_en b)) ++ eopts (ab_obs b)) with ([OptNow (ab_clock b)] ++ (base_opts topts ++ hopts (ab_en b)) ++ eopts (ab_obs b)).
    rewrite !count0_app. unfold base_opts. rewrite count0_app, (count0_none (unsafe topts) Hu), (count0_none (hopts _)), (count0_none (eopts _)); [done|..].
    - intros H. destruct (ab_obs b) as [n|]; cbn in H; [|inversion H]. apply elem_of_list_singleton in H as [= <-]. done.
    - intros H. apply elem_of_list_In, in_map_iff in H as (x & [=] & _). }
  destruct Hp as (opts & s & [[Hs (o & fuel & m & ->)]|[[Hs (o & fuel & order & ->)]|[Hs [Hb (o & fuel & b & ->)]]]]); apply Hframe in Hs; try exact Hs.
  change (count0 (opts ++ [OptNow (ab_clock a1)]) = 1). rewrite count0_app, Hs. done.
Qed.

Lemma facts_log T (evs : list UEv) : (forall op fs, VT (TvOp op fs) ∈ evs -> loggers op = 1) ->
  fact_lines (log_of T evs) = concat (map (log_notify (tx_log T)) (all_facts evs)).
Proof.
  induction evs as [|ev l IH]; intros H; [done|]. unfold log_of, all_facts in *. cbn [map concat]. unfold fact_lines in *. rewrite omap_app, IH by (intros op fs Ho; eapply H; by right).
  rewrite map_app, concat_app. f_equal.
  destruct ev as [[| |op fs| | | | | | | | | | |]| | |s e| | | | |]; try done.
  cbn [log_ev]. rewrite (H op fs) by (by left). cbn [repeat].
  assert (Hc : forall ts : list text, omap (fun x => match x with LgFact s => Some s | _ => None end) (LgFact <$> ts) = ts)
    by (induction ts as [|t ts IHt]; [done|]; rewrite fmap_cons; cbn; by rewrite IHt).
  rewrite Hc. f_equal. apply map_ext. intros f. cbn. by rewrite app_nil_r.
Qed.

Lemma log_facts_lemma T E app u wall topts captions p st evs r :
  utesting E app u wall topts (u_test (test_config app) captions p) st evs r -> OptObserver 0 ∉ unsafe topts ->
  fact_lines (log_of T evs) = concat (map (log_notify (tx_log T)) (all_facts evs)).
Proof.
  intros (He & Ha & Hr) Hu. apply facts_log. intros op fs Hin.
  destruct (proj1 (refine_lemma E (test_config app) captions) p _ _ _ _ Hr) as [_ H1].
  assert (Hin' : TvOp op fs ∈ erase evs) by (apply elem_of_list_omap; exists (VT (TvOp op fs)); done).
  apply elem_of_list_split in Hin' as (l1 & l2 & Hs). eapply (logger_once E app u wall topts p); [|exact Hu|exact Hs]. split; [done|]. split; [done|]. exact H1.
Qed.

(** ** Captions *)

Lemma exp_captions T e : forall x s, eval (tx_fmt T) e = inl (BExp x s) -> (forall u s', gives u s' e -> tx_caption T u = s') -> exp_caption T x = s.
Proof.
  induction e as [e IH] using eexp_ind. intros x s. destruct e as [|u cap|k m|k n|k m|f tp pred near|c l|e|desc n f|desc fn].
  - done.
  - cbn [eval]. intros [= <- <-] H. cbn. apply H. constructor.
  - cbn [eval]. unfold to_produce. destruct m as [b|]; [|done]. destruct (b_invalid b); [done|]. intros [= <- <-] _. done.
  - cbn [eval]. intros [= <- <-] _. done.
  - cbn [eval]. unfold to_produce_of_type. destruct m as [b|]; [|done]. intros [= <- <-] _. done.
  - cbn [eval]. unfold to_match. destruct pred as [pred|]; [|done]. intros [= <- <-] _. done.
  - rewrite eval_comp. destruct (eval_list (tx_fmt T) l) as [bs|v] eqn:El; [|done].
    apply eval_list_inl in El. intros Hc Hg.
    assert (Hone : forall e y t, e ∈ l -> eval (tx_fmt T) e = inl (BExp y t) -> exp_caption T y = t).
    { intros e y t Hin Hy. eapply IH; [exact Hin|exact Hy|]. intros u s' Hu. apply Hg. by eapply gv_comp. }
    assert (Hlen := Forall2_length _ _ _ El).
    assert (Hcomp : forall cap, composite c bs cap = BExp x s -> exists xs, x = XComp c xs /\ s = cap /\ length xs = length bs /\ Forall2 (fun b y => exists t, b = BExp y t) bs xs).
    { intros cap. unfold composite. destruct (built_exps bs) as [xs|] eqn:Eb; [|done]. intros [= <- <-]. exists xs. apply built_some in Eb.
      split; [done|]. split; [done|]. split; [by apply Forall2_length in Eb|done]. }
    unfold compose_exps in Hc.
    destruct bs as [|b1 [|b2 bs]]; [by destruct c| |].
    + inversion El as [|e1 ? l0 ? He1 Hl0]; subst. inversion Hl0; subst.
      destruct c; cbn in Hc.
      * injection Hc as ->. eapply Hone; [by left|exact He1].
      * injection Hc as ->. eapply Hone; [by left|exact He1].
      * destruct (caption_of b1) as [t|] eqn:Ec; [|done]. assert (Hc' : composite CNone [b1] (txt "not " ++ t) = BExp x s) by (by injection Hc). clear Hc. apply Hcomp in Hc' as (xs & -> & -> & _ & HF).
        inversion HF as [|? y ? ys [t' ->] Hys]; subst. inversion Hys; subst. cbn in Ec. injection Ec as ->.
        cbn [exp_caption]. f_equal. eapply Hone; [by left|exact He1].
    + assert (H2 : forall xs : list Exp, length xs = length (b1 :: b2 :: bs) -> exists y1 y2 ys, xs = y1 :: y2 :: ys /\ length ys = length bs).
      { intros [|y1 [|y2 ys]]; cbn; intros [=]. eauto. }
      destruct c; cbn in Hc.
      * assert (Hc' : composite CAll (b1 :: b2 :: bs) (txt "to meet " ++ decimal_nat (S (S (length bs))) ++ txt " expectations") = BExp x s) by (by injection Hc).
        apply Hcomp in Hc' as (xs & -> & -> & Hl & _). cbn [exp_caption]. by rewrite Hl.
      * assert (Hc' : composite CAny (b1 :: b2 :: bs) (txt "to meet at least one of " ++ decimal_nat (S (S (length bs))) ++ txt " expectations") = BExp x s) by (by injection Hc).
        apply Hcomp in Hc' as (xs & -> & -> & Hl & _). cbn [exp_caption]. by rewrite Hl.
      * assert (Hc' : composite CNone (b1 :: b2 :: bs) (txt "not to meet any of " ++ decimal_nat (S (S (length bs))) ++ txt " expectations") = BExp x s) by (by injection Hc).
        apply Hcomp in Hc' as (xs & -> & -> & Hl & _). destruct (H2 xs Hl) as (y1 & y2 & ys & -> & Hy). cbn [exp_caption]. by rewrite Hl.
  - cbn [eval]. destruct (eval (tx_fmt T) e) as [b|v] eqn:Ee; [|done]. destruct (caption_of b) as [t|] eqn:Ec; [|done].
    destruct b as [|y t'|t']; try done. cbn in Ec. injection Ec as ->. intros [= <- <-] Hg. cbn [exp_caption]. apply (f_equal (fun z => txt "not " ++ z)). eapply IH; [|exact Ee|].
    + cbn. by left.
    + intros u s' Hu. apply Hg. by constructor.
  - cbn [eval]. unfold repeatedly. destruct f as [f|]; [|done]. destruct (n <? 1)%Z; [done|]. destruct desc; [done|]. intros [= <- <-] _. done.
  - cbn [eval]. unfold satisfy. destruct fn as [fn|]; [|done]. destruct desc; [done|]. intros [= <- <-] _. done.
Qed.

Lemma act_captions T a x s : eval_action (tx_fmt T) a = inl (x, s) -> act_caption T x = s.
Proof.
  destruct a as [k [b|]|[j|]|fn opts]; cbn [eval_action].
  - cbn. destruct (b_invalid b); [done|]. by intros [= <- <-].
  - done.
  - cbn. destruct (adjustment _ _) as [j'|]; [|done]. by intros [= <- <-].
  - done.
  - unfold calling. destruct (call_options opts) as [is|]; [|done]. destruct fn as [fn|]; [|done]. by intros [= <- <-].
Qed.
End Proof.
