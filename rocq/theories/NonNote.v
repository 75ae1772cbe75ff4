(** * Proofs about annotations: what they change. *)
From Verif Require Export NoteSpec ActNotes.
From Verif Require Import ActRefine ExpectLemmas ExpectReport.
From Coq Require Import Lia.

Section Proof.
Context {P : Params}.

(** ** Annotators *)

Lemma type_name_eq v : go_type v = type_name v.
Proof. by destruct v. Qed.
Lemma annotator_lemma interface L a : annotates interface L a (annotator L a).
Proof.
  intros w Hw Ha. unfold annotator, is_annotated, equal_values. destruct (an_value a) as [v|] eqn:Ev; cbn in Ha.
  2:{ split; [intros (v & Hv & _); done|done]. }
  destruct Ha as [Hc Hi]. destruct (decide (go_type v <> go_type w)) as [Ht|Ht]; rewrite !type_name_eq in Ht.
  { split; [|done]. intros (v' & [= <-] & Hv & _). done. }
  apply dec_stable in Ht.
  assert (Hg : go_any w = Some w).
  { destruct w as [ty s|ty l|ty [x|]]; cbn in *; [done|done|..].
    - destruct Hw as (H & _). by rewrite Ht in Hi.
    - by rewrite Ht in Hi. }
  rewrite Hg. cbn [go_equal]. rewrite !(type_name_eq v), !(type_name_eq w). rewrite Ht, andb_diag. split.
  - intros (v' & [= <-] & _ & H1 & H2). destruct (gl_proto L (type_name w)); [by rewrite H1|by rewrite H2].
  - intros Hn. destruct (gl_proto L (type_name w)) eqn:Ep.
    + destruct (gl_proto_equal L v w) eqn:Ee; [|done]. exfalso. apply Hn. exists v. split; [done|]. split; [done|]. split; [done|congruence].
    + destruct (gl_deep_equal L v w) eqn:Ee; [|done]. exfalso. apply Hn. exists v. split; [done|]. split; [done|]. split; [congruence|done].
Qed.
Lemma rendered_lemma E n notes cx p : rendered E notes (report (report_texts E n notes) cx p).
Proof.
  exists n, cx, p, (annotators (te_go E) notes). split; [|done]. intros interface. unfold annotators.
  induction notes as [|a l IH]; constructor; [apply annotator_lemma|done].
Qed.

(** ** Reports of tests *)

(** [l] was observed from a state with [notes] annotations on: its reports are rendered with
    those made before them. *)
Definition reports_ok (E : TEnv) (notes : list Annotation) (l : list UEv) : Prop :=
  forall l1 rep l2, l = l1 ++ VT (TvReport rep) :: l2 -> rendered E (notes ++ u_annotated l1) rep.

Lemma split_app {A} (l l' l1 l2 : list A) x : l ++ l' = l1 ++ x :: l2 ->
  (exists m, l = l1 ++ x :: m) \/ (exists m, l1 = l ++ m /\ l' = m ++ x :: l2).
Proof.
  revert l1. induction l as [|y l IH]; intros l1 H; [right; by exists l1|]. destruct l1 as [|z l1]; cbn in H.
  - injection H as -> H. left. by exists l.
  - injection H as -> H. destruct (IH _ H) as [(m & ->)|(m & -> & ->)]; [left; by exists m|right; by exists m].
Qed.
Lemma rep_app E notes l l' : reports_ok E notes l -> reports_ok E (notes ++ u_annotated l) l' -> reports_ok E notes (l ++ l').
Proof.
  intros H H' l1 rep l2 Hx. apply split_app in Hx as [(m & ->)|(m & -> & ->)]; [by eapply H|].
  rewrite u_annotated_app, app_assoc. by eapply H'.
Qed.
Lemma rep_nil E notes : reports_ok E notes [].
Proof. intros [|] rep l2 Hx; done. Qed.
Lemma rep_cons E notes ev l : (forall r, ev <> VT (TvReport r)) -> reports_ok E (notes ++ u_annotated [ev]) l -> reports_ok E notes (ev :: l).
Proof.
  intros He H. apply (rep_app _ _ [ev]); [|done]. intros [|x l1] rep l2 [= Hx]; [by destruct (He rep)|]. by destruct l1.
Qed.
Definition no_report (l : list TEv) : Prop := forall r, TvReport r ∉ l.
Lemma rep_lift E notes l : no_report l -> reports_ok E notes (VT <$> l).
Proof.
  intros H l1 rep l2 Hx. exfalso. apply (H rep). assert (Hin : VT (TvReport rep) ∈ VT <$> l) by (rewrite Hx; apply elem_of_app; right; left).
  apply elem_of_list_fmap in Hin as (ev & [= <-] & Hin). done.
Qed.
Lemma no_report_app l l' : no_report l -> no_report l' -> no_report (l ++ l').
Proof. intros H H' r Hin. apply elem_of_app in Hin as [Hin|Hin]; [by eapply H|by eapply H']. Qed.
Lemma no_report_one ev : (forall r, ev <> TvReport r) -> no_report [ev].
Proof. intros H r Hin. apply elem_of_list_singleton in Hin. by eapply H. Qed.

Section Env.
Context (E : TEnv) (c : Config).

Lemma engine_quiet mk st : no_report (engine_op E c mk st).1.2.
Proof. unfold engine_op. destruct (run_op c _ _) as [[es ev] res]. cbn. by apply no_report_one. Qed.
Lemma icpt_quiet opts p : forall st, no_report (run_icpt E c opts p st).1.2.
Proof.
  induction p as [e|v|f k IH|b k IH]; intros st; cbn [run_icpt].
  - destruct e; intros r Hin; inversion Hin.
  - intros r Hin; inversion Hin.
  - match goal with |- context [run_icpt E c opts (k ?u) ?s] => specialize (IH u s); destruct (run_icpt E c opts (k u) s) as [[st1 evs1] r1] end.
    apply (no_report_app [_]); [by apply no_report_one|done].
  - unfold engine_execute. match goal with |- context [engine_op E c ?mk ?s] => assert (He := engine_quiet mk s); destruct (engine_op E c mk s) as [[st1 evs1] r1] end.
    destruct (x_res r1) as [x|]; [|done]. specialize (IH x st1). destruct (run_icpt _ _ _ _ _) as [[st2 evs2] r2]. by apply no_report_app.
Qed.
Lemma execute_quiet b st : no_report (execute_command E c b st).1.2.
Proof.
  unfold execute_command. destruct (ts_bound st) as [opts|]; [|by apply no_report_one].
  destruct (ts_icpt st) as [i|].
  - assert (He := icpt_quiet opts (i b) st). destruct (run_icpt _ _ _ _ _) as [[st1 evs1] r1]. apply (no_report_app [_]); [by apply no_report_one|done].
  - unfold engine_execute. match goal with |- context [engine_op E c ?mk ?s] => assert (He := engine_quiet mk s); destruct (engine_op E c mk s) as [[st1 evs1] r1] end.
    apply (no_report_app [_]); [by apply no_report_one|done].
Qed.
Lemma enable_quiet names b : forall st, no_report (enable_handlers c names b st).1.2.
Proof.
  induction names as [|n names IH]; intros st; cbn [enable_handlers]; [intros r Hin; inversion Hin|].
  destruct (controllers c !! n) as [h|]; [|intros r Hin; inversion Hin].
  destruct (b && h_disabled h); [intros r Hin; inversion Hin|].
  match goal with |- context [enable_handlers c names b ?s] => specialize (IH s); destruct (enable_handlers c names b s) as [[st1 evs1] r1] end.
  apply (no_report_app [_]); [by apply no_report_one|done].
Qed.
Lemma like_quiet pats b st : no_report (enable_handlers_like E c pats b st).1.2.
Proof.
  unfold enable_handlers_like. destruct (match_handlers _ _ _) as [names|v]; cbn; [|intros r Hin; inversion Hin].
  intros r Hin. apply elem_of_list_In, in_map_iff in Hin as (n & Hn & _). done.
Qed.

Definition good_reports (f : TState -> Run) : Prop := forall st, reports_ok E (ts_notes st) (f st).1.2.

Lemma then_reports f k : u_kept f -> good_reports f -> (forall x, good_reports (k x)) -> good_reports (fun st => x_then (f st) k).
Proof.
  intros Hn Hf Hk st. unfold x_then. specialize (Hf st). destruct (f st) as [[st1 evs1] r1] eqn:Ex. apply Hn in Ex.
  destruct (x_res r1) as [y|]; [|exact Hf]. specialize (Hk y st1). destruct (k y st1) as [[st2 evs2] r2]. cbn in *.
  apply rep_app; [done|]. by rewrite <- Ex.
Qed.
Lemma tell_reports ev (f : TState -> Run) (g : TState -> TState) st :
  (forall r, ev <> VT (TvReport r)) -> ts_notes (g st) = ts_notes st ++ u_annotated [ev] -> good_reports f ->
  reports_ok E (ts_notes st) (tell ev (f (g st))).1.2.
Proof.
  intros He Hg Hf. specialize (Hf (g st)). unfold tell. destruct (f (g st)) as [[st1 evs1] r1]. cbn [fst snd] in *. apply rep_cons; [done|]. by rewrite <- Hg.
Qed.

Lemma prepare_reports a act : (forall opts, good_reports (act opts)) -> good_reports (u_prepare E a act).
Proof.
  intros Ha st. unfold u_prepare. destruct (ua_caption a) as [s|v]; [|apply rep_nil].
  specialize (Ha (action_options [] st) st). unfold tell. destruct (act _ _) as [[st1 evs1] r1]. cbn in Ha.
  assert (H : reports_ok E (ts_notes st) (VHeading s None :: evs1)) by (apply rep_cons; [done|]; cbn; by rewrite app_nil_r).
  destruct r1; try exact H. cbn. apply rep_app with (l := VHeading s None :: evs1); [done|]. by apply rep_cons; [done|apply rep_nil].
Qed.
Lemma expect_reports a act e : (forall opts, u_kept (act opts)) -> (forall opts, good_reports (act opts)) -> good_reports (u_expect E c a act e).
Proof.
  intros Hn Ha st. unfold u_expect. set (o := mkPO _ _).
  assert (Hone : forall n ev, (forall r, ev <> VT (TvReport r)) -> reports_ok E n [ev]) by (intros n ev He; apply rep_cons; [done|apply rep_nil]).
  destruct (ua_conf a o) as [o'|v]; [|by apply Hone].
  destruct (ua_caption a) as [s|v]; [|by apply Hone].
  set (pre := [VConfigure o; VHeading s (Some e)]).
  assert (Hpre : forall n, reports_ok E n pre) by (intros n; apply rep_cons; [done|by apply Hone]).
  destruct (new_predicate _ _) as [p|er]; [|cbn; apply (rep_app E _ pre); [done|by apply Hone]].
  specialize (Ha (action_options [OptObserver (ts_next st)] st) (set_next (S (ts_next st)) st)).
  destruct (act _ _) as [[st1 evs1] r1] eqn:Ex. apply Hn in Ex. cbn in Ha, Ex.
  assert (H1 : reports_ok E (ts_notes st) (pre ++ VT TvPredicate :: evs1)).
  { apply rep_app; [done|]. apply rep_cons; [done|]. cbn. by rewrite !app_nil_r. }
  assert (H2 : reports_ok E (ts_notes st) (pre ++ VT TvPredicate :: evs1 ++ [VT TvFinal])).
  { rewrite app_comm_cons, app_assoc. apply rep_app; [done|by apply Hone]. }
  assert (Hu : ts_notes st ++ u_annotated (pre ++ VT TvPredicate :: evs1 ++ [VT TvFinal]) = ts_notes st1).
  { rewrite Ex. f_equal. rewrite u_annotated_app. change (u_annotated pre) with (@nil Annotation).
    change (u_annotated (VT TvPredicate :: ?l)) with (u_annotated l). rewrite u_annotated_app. cbn. by rewrite app_nil_r. }
  destruct (p_done _) as [q dp].
  destruct r1; try exact H1; (destruct dp as [w|]; [exact H2|]); try exact H2.
  - assert (Hrep := rendered_lemma E (ts_next st) (ts_notes st1) (mkCtx (p_ok q) false) q). set (rep := report _ _ q) in *.
    assert (H4 : reports_ok E (ts_notes st) ((pre ++ VT TvPredicate :: evs1 ++ [VT TvFinal]) ++ [VT (TvReport rep)])).
    { apply rep_app; [done|]. intros [|x l1] r l2 Hx; [|by destruct l1]. injection Hx as <- _. rewrite Hu. cbn. by rewrite app_nil_r. }
    destruct (p_ok q); [exact H4|]. apply rep_app; [exact H4|by apply Hone].
  - apply rep_app; [exact H2|by apply Hone].
Qed.

Lemma u_reports : (forall p, good_reports (run_u E c p)) /\ (forall a opts, good_reports (do_u E c a opts)).
Proof.
  destruct (u_run_notes E c) as [Hp Ha0].
  apply u_mutind.
  - intros [e|] st; apply rep_nil.
  - intros v st; apply rep_nil.
  - intros st; apply rep_nil.
  - intros f k IH st. cbn [run_u].
    apply (tell_reports _ (run_u E c (k _)) (fun st => set_eng _ st)); [done|cbn; by rewrite app_nil_r|apply IH].
  - intros b k IH. apply (then_reports (fun st => lift (execute_command E c b st))); [apply lift_kept, execute_notes| |done].
    intros st. unfold lift. assert (H := execute_quiet b st). destruct (execute_command _ _ _ _) as [[st1 evs1] r1]. by apply rep_lift.
  - intros m opts k IH. apply (then_reports (fun st => lift (engine_op E c _ st))); [apply lift_kept, engine_op_notes| |done].
    intros st. unfold lift. match goal with |- context [engine_op E c ?mk ?s] => assert (He := engine_quiet mk s); destruct (engine_op E c mk s) as [[st1 evs1] r1] end. by apply rep_lift.
  - intros opts k IH. apply (then_reports (fun st => lift (engine_op E c _ st))); [apply lift_kept, engine_op_notes| |done].
    intros st. unfold lift. match goal with |- context [engine_op E c ?mk ?s] => assert (He := engine_quiet mk s); destruct (engine_op E c mk s) as [[st1 evs1] r1] end. by apply rep_lift.
  - intros k IH st. cbn [run_u]. apply (tell_reports _ (run_u E c k) (fun st => set_eng (e_reset c (ts_eng st)) st)); [done|cbn; by rewrite app_nil_r|apply IH].
  - intros k IH st. cbn [run_u]. apply IH.
  - intros t k IH st. cbn [run_u]. apply (tell_reports _ (run_u E c k) (set_clock t)); [done|cbn; by rewrite app_nil_r|apply IH].
  - intros opts k IH st. cbn [run_u]. apply (tell_reports _ (run_u E c k) (set_bound (Some opts))); [done|cbn; by rewrite app_nil_r|apply IH].
  - intros k IH st. cbn [run_u]. apply (tell_reports _ (run_u E c k) (set_bound None)); [done|cbn; by rewrite app_nil_r|apply IH].
  - intros i k IH st. cbn [run_u]. apply (tell_reports _ (run_u E c (k _)) (set_icpt i)); [done|cbn; by rewrite app_nil_r|apply IH].
  - intros p IHp q IHq k IH st. rewrite run_try. revert st. apply (then_reports (deferring (run_u E c p) (run_u E c q))); [by apply deferring_kept| |done].
    intros st. unfold deferring. specialize (IHp st). destruct (run_u E c p st) as [[st1 evs1] r1] eqn:Ep. apply Hp in Ep.
    specialize (IHq st1). destruct (run_u E c q st1) as [[st2 evs2] r2]. cbn in *. rewrite Ep in IHq.
    destruct r1; try exact IHp; by apply rep_app.
  - intros a Ha k IH. apply (then_reports (u_prepare E a (do_u E c a)) (fun x => run_u E c (k (x_panic x)))); [by apply prepare_kept|by apply prepare_reports|done].
  - intros a Ha e k IH. apply (then_reports (u_expect E c a (do_u E c a) e) (fun x => run_u E c (k (x_panic x)))); [by apply expect_kept|by apply expect_reports|done].
  - intros names b k IH st. cbn [run_u]. assert (Hq := enable_quiet names b st). destruct (enable_handlers _ _ _ _) as [[st1 evs1] v1] eqn:Ex. apply enable_notes in Ex.
    cbn in Hq. unfold x_then. assert (Hl : reports_ok E (ts_notes st) (VT <$> evs1)) by (by apply rep_lift).
    destruct (x_res (v_res v1)) as [y|]; [|done]. specialize (IH (x_panic y) st1). destruct (run_u _ _ _ _) as [[st2 evs2] r2].
    apply rep_app; [done|]. rewrite u_annotated_lift, <- Ex. exact IH.
  - intros pats b k IH st. cbn [run_u]. assert (Hq := like_quiet pats b st). destruct (enable_handlers_like _ _ _ _ _) as [[st1 evs1] v1] eqn:Ex. apply enable_like_notes in Ex.
    cbn in Hq. unfold x_then. assert (Hl : reports_ok E (ts_notes st) (VT <$> evs1)) by (by apply rep_lift).
    destruct (x_res (v_res v1)) as [y|]; [|done]. specialize (IH (x_panic y) st1). destruct (run_u _ _ _ _) as [[st2 evs2] r2].
    apply rep_app; [done|]. rewrite u_annotated_lift, <- Ex. exact IH.
  - intros x k IH st. cbn [run_u]. apply (tell_reports _ (run_u E c k) (fun st => set_notes (ts_notes st ++ [x]) st)); [done|done|apply IH].
  - intros k s f do IH opts st. rewrite do_u_eq. specialize (IH opts st). destruct (run_u _ _ _ _) as [[st1 evs1] r1]. cbn in *.
    apply rep_cons; [done|]. cbn. rewrite app_nil_r. apply rep_app; [done|]. destruct r1; try (apply rep_cons; [done|]); apply rep_nil.
Qed.
End Env.

(** ** Without annotations *)

Lemma diff_section s s' r : without_diff (section (txt "Message Diff") s r) = without_diff (section (txt "Message Diff") s' r).
Proof.
  destruct r as [tr ok cr oc ex secs subs]. cbn -[txt]. f_equal. induction secs as [|[t x] secs IH]; cbn -[txt]; [done|].
  destruct (bool_decide (t = txt "Message Diff")) eqn:Eb; cbn -[txt]; rewrite Eb; [done|]. f_equal. exact IH.
Qed.
Lemma diff_append r l : without_diff (foldl (fun r sr => append_report sr r) r l) =
  foldl (fun r sr => append_report sr r) (without_diff r) (map without_diff l).
Proof.
  revert r. induction l as [|x l IH]; intros r; [done|]. cbn [foldl map]. rewrite IH. f_equal.
  destruct r. cbn. unfold append_report. cbn. by rewrite map_app.
Qed.
Lemma diff_repeat i l l' count shown r r' :
  map (fun x => (x.1, without_diff x.2)) l = map (fun x => (x.1, without_diff x.2)) l' -> without_diff r = without_diff r' ->
  let '(c1, s1, q1) := repeat_loop i l count shown r in let '(c2, s2, q2) := repeat_loop i l' count shown r' in
  c1 = c2 /\ s1 = s2 /\ without_diff q1 = without_diff q2.
Proof.
  revert i l' count shown r r'. induction l as [|[b x] l IH]; intros i [|[b' x'] l'] count shown r r' Hl Hr; cbn in Hl; try done.
  injection Hl as <- Hx Hl. cbn [repeat_loop]. destruct b; [by apply IH|].
  destruct (S count =? 1); apply IH; try done.
  change (without_diff (foldl (fun r sr => append_report sr r) r [x]) = without_diff (foldl (fun r sr => append_report sr r) r' [x'])).
  rewrite !diff_append. cbn. by rewrite Hx, Hr.
Qed.
Lemma diff_criteria r r' : without_diff r = without_diff r' -> rp_criteria r = rp_criteria r'.
Proof. destruct r, r'. cbn. by intros [= -> -> -> -> -> _ _]. Qed.

Lemma report_without_diff T render : forall p cx,
  without_diff (report T cx p) = without_diff (report (mkRT (rt_type T) render (rt_diff T)) cx p).
Proof.
  fix IH 1. intros p cx.
  destruct p as [cmp m ok best t|ty ok t|tp pred near ex calls fl ma ig ok t|c l|p|desc l|desc fn facts st|u s facts]; cbn [report].
  - unfold message_report. destruct (ok || cx_tree cx || cx_inv cx); [done|]. destruct best as [e|]; [|done]. apply diff_section.
  - done.
  - done.
  - destruct (comp_pred _ _ _) as [outcome ok]. rewrite !diff_append. f_equal. rewrite !map_map.
    induction l as [|q l IHl]; [done|]. cbn. f_equal; [apply IH|exact IHl].
  - rewrite (diff_criteria _ _ (IH p (mkCtx (cx_tree cx) (negb (cx_inv cx))))). done.
  - match goal with |- without_diff (let '(_, _) := repeat_loop 0 ?l1 0 0 ?r in _) = without_diff (let '(_, _) := repeat_loop 0 ?l2 0 0 _ in _) =>
      assert (H := diff_repeat 0 l1 l2 0 0 r r) end.
    destruct (repeat_loop 0 (map (fun c => (p_ok c, report T cx c)) l) _ _ _) as [[c1 s1] q1].
    destruct (repeat_loop _ _ _ _ _) as [[c2 s2] q2].
    destruct H as (<- & <- & Hq); [|done|].
    { rewrite !map_map. cbn. induction l as [|q l IHl]; [done|]. cbn. f_equal; [f_equal; apply IH|exact IHl]. }
    destruct (c1 =? 0); [done|]. destruct q1, q2. cbn in *. injection Hq as -> _ -> _ -> -> ->. done.
  - done.
  - done.
Qed.

Lemma apart_app l l' : apart (l ++ l') = apart l ++ apart l'.
Proof. apply omap_app. Qed.
Lemma apart_cons ev l l' : apart l = apart l' -> apart (ev :: l) = apart (ev :: l').
Proof. intros H. unfold apart in *. cbn. by rewrite H. Qed.
Lemma observed_apart n l : u_observed n (apart l) = u_observed n l.
Proof.
  unfold u_observed. induction l as [|ev l IH]; [done|]. unfold apart in *.
  destruct ev as [[]| | | | | | | |]; cbn in *; rewrite ?IH; try done; unfold observed in *; cbn in *; by rewrite IH.
Qed.

(** The runs of the code with and without annotations, starting in states that differ in the
    annotations. *)
Definition agree (notes : list Annotation) (x y : Run) : Prop :=
  let '(st, evs, r) := x in let '(st', evs', r') := y in st' = set_notes notes st /\ r' = r /\ apart evs = apart evs'.
Definition agrees (notes : list Annotation) (f g : TState -> Run) : Prop := forall st, agree notes (f st) (g (set_notes notes st)).

Lemma agree_then notes x y k k' : agree notes x y -> (forall z, agrees notes (k z) (k' z)) -> agree notes (x_then x k) (x_then y k').
Proof.
  destruct x as [[st evs] r], y as [[st' evs'] r']. intros (-> & -> & He) Hk. cbn [x_then]. destruct (x_res r) as [z|]; [|done].
  specialize (Hk z st). destruct (k z st) as [[st2 evs2] r2], (k' z (set_notes notes st)) as [[st3 evs3] r3]. destruct Hk as (-> & -> & H2).
  split; [done|]. split; [done|]. by rewrite !apart_app, He, H2.
Qed.
Lemma agree_tell notes ev x y : agree notes x y -> agree notes (tell ev x) (tell ev y).
Proof.
  destruct x as [[st evs] r], y as [[st' evs'] r']. intros (-> & -> & He). cbn [tell]. split; [done|]. split; [done|]. by apply apart_cons.
Qed.

Section Env2.
Context (E : TEnv) (c : Config) (notes : list Annotation).
Notation sn := (set_notes notes).

(** The functions of TestModel that have nothing to do with annotations. *)
Definition same_run {R} (f : TState -> TState * list TEv * R) : Prop :=
  forall st, f (sn st) = let '(st', evs, r) := f st in (sn st', evs, r).
Lemma engine_same mk : same_run (engine_op E c mk).
Proof. intros st. unfold engine_op. cbn. destruct (run_op c _ _) as [[es ev] res]. done. Qed.
Lemma icpt_same opts p : same_run (run_icpt E c opts p).
Proof.
  induction p as [e|v|f k IH|b k IH]; intros st; cbn [run_icpt].
  - by destruct e.
  - done.
  - change (set_eng ?e (sn st)) with (sn (set_eng e st)). cbn [ts_eng set_notes]. rewrite IH. by destruct (run_icpt _ _ _ _ _) as [[st1 evs1] r1].
  - unfold engine_execute. rewrite engine_same. destruct (engine_op _ _ _ _) as [[st1 evs1] r1].
    destruct (x_res r1) as [x|]; [|done]. rewrite IH. by destruct (run_icpt _ _ _ _ _) as [[st2 evs2] r2].
Qed.
Lemma execute_same b : same_run (execute_command E c b).
Proof.
  intros st. unfold execute_command. cbn [ts_bound ts_icpt set_notes]. destruct (ts_bound st) as [opts|]; [|done].
  destruct (ts_icpt st) as [i|].
  - rewrite icpt_same. by destruct (run_icpt _ _ _ _ _) as [[st1 evs1] r1].
  - unfold engine_execute. rewrite engine_same. by destruct (engine_op _ _ _ _) as [[st1 evs1] r1].
Qed.
Lemma enable_same names b : same_run (enable_handlers c names b).
Proof.
  induction names as [|n names IH]; intros st; cbn [enable_handlers]; [done|].
  destruct (controllers c !! n) as [h|]; [|done]. destruct (b && h_disabled h); [done|].
  change (set_opts (ts_opts (sn st) ++ [OptHandler n b]) (sn st)) with (sn (set_opts (ts_opts st ++ [OptHandler n b]) st)). rewrite IH.
  by destruct (enable_handlers _ _ _ _) as [[st1 evs1] v1].
Qed.
Lemma like_same pats b : same_run (enable_handlers_like E c pats b).
Proof. intros st. unfold enable_handlers_like. by destruct (match_handlers _ _ _). Qed.

Lemma lift_agree f st : same_run f -> agree notes (lift (f st)) (lift (f (sn st))).
Proof. intros H. rewrite H. by destruct (f st) as [[st1 evs1] r1]. Qed.

Lemma prepare_agree a a' act act' : ua_caption a' = ua_caption a ->
  (forall opts, agrees notes (act opts) (act' opts)) -> agrees notes (u_prepare E a act) (u_prepare E a' act').
Proof.
  intros Hc Ha st. unfold u_prepare. rewrite Hc. destruct (ua_caption a) as [s|v]; [|done].
  change (action_options [] (sn st)) with (action_options [] st). specialize (Ha (action_options [] st) st).
  destruct (act _ st) as [[st1 evs1] r1], (act' _ (sn st)) as [[st2 evs2] r2]. destruct Ha as (-> & -> & He). cbn [tell].
  assert (He' := apart_cons (VHeading s None) _ _ He).
  destruct r1; try done. cbn [u_fatal]. split; [done|]. split; [done|]. by rewrite !apart_app, He'.
Qed.
Lemma expect_agree a a' act act' e : ua_caption a' = ua_caption a -> ua_conf a' = ua_conf a ->
  (forall opts, agrees notes (act opts) (act' opts)) -> agrees notes (u_expect E c a act e) (u_expect E c a' act' e).
Proof.
  intros Hc Hf Ha st. unfold u_expect. rewrite Hc, Hf. cbn [ts_compare ts_next set_notes]. set (o := mkPO _ _).
  destruct (ua_conf a o) as [o'|v]; [|done]. destruct (ua_caption a) as [s|v]; [|done].
  set (pre := [VConfigure o; VHeading s (Some e)]).
  destruct (new_predicate _ _) as [p|er]; [|done].
  change (action_options ?x (sn st)) with (action_options x st). change (set_next ?n (sn st)) with (sn (set_next n st)).
  specialize (Ha (action_options [OptObserver (ts_next st)] st) (set_next (S (ts_next st)) st)).
  destruct (act _ _) as [[st1 evs1] r1], (act' _ _) as [[st2 evs2] r2]. destruct Ha as (-> & -> & He).
  assert (H1 : apart (pre ++ VT TvPredicate :: evs1) = apart (pre ++ VT TvPredicate :: evs2)) by (rewrite !apart_app; f_equal; by apply apart_cons).
  assert (H2 : forall l l', apart l = apart l' -> apart ((pre ++ VT TvPredicate :: evs1 ++ [VT TvFinal]) ++ l) = apart ((pre ++ VT TvPredicate :: evs2 ++ [VT TvFinal]) ++ l')).
  { intros l l' Hl. rewrite !apart_app, Hl. f_equal. f_equal. apply apart_cons. by rewrite !apart_app, He. }
  assert (H3 := H2 [] [] eq_refl). rewrite !app_nil_r in H3.
  assert (Ho : u_observed (ts_next st) evs2 = u_observed (ts_next st) evs1) by (rewrite <- (observed_apart _ evs1), He; by rewrite observed_apart).
  rewrite Ho. destruct (p_done _) as [q dp].
  destruct r1; try (by repeat split); (destruct dp as [w|]; [by repeat split|]); try (by repeat split).
  - assert (H4 : apart [VT (TvReport (report (report_texts E (ts_next st) (ts_notes st1)) (mkCtx (p_ok q) false) q))] =
      apart [VT (TvReport (report (report_texts E (ts_next st) (ts_notes (sn st1))) (mkCtx (p_ok q) false) q))]).
    { cbn -[report]. do 2 f_equal. f_equal. rewrite (report_without_diff (report_texts E (ts_next st) (ts_notes st1)) (te_print E (ts_next st) (annotators (te_go E) notes))). done. }
    assert (H5 := H2 _ _ H4). destruct (p_ok q); [by repeat split|]. split; [done|]. split; [done|]. rewrite apart_app, H5. symmetry. apply apart_app.
  - cbn [u_fatal]. split; [done|]. split; [done|]. by apply H2.
Qed.

Lemma u_agree : (forall p, agrees notes (run_u E c p) (run_u E c (unannotated p))) /\
  (forall a opts, agrees notes (do_u E c a opts) (do_u E c (unannotated_action a) opts)).
Proof.
  apply u_mutind.
  - intros [e|] st; done.
  - intros v st; done.
  - intros st; done.
  - intros f k IH st. cbn [unannotated run_u]. apply agree_tell. apply (IH _ (set_eng _ st)).
  - intros b k IH st. cbn [unannotated run_u]. apply agree_then; [apply lift_agree, execute_same|done].
  - intros m opts k IH st. cbn [unannotated run_u]. apply agree_then; [apply lift_agree, engine_same|done].
  - intros opts k IH st. cbn [unannotated run_u]. apply agree_then; [apply lift_agree, engine_same|done].
  - intros k IH st. cbn [unannotated run_u]. apply agree_tell, (IH (set_eng (e_reset c (ts_eng st)) st)).
  - intros k IH st. cbn [unannotated run_u]. apply IH.
  - intros t k IH st. cbn [unannotated run_u]. apply agree_tell, (IH (set_clock t st)).
  - intros opts k IH st. cbn [unannotated run_u]. apply agree_tell, (IH (set_bound (Some opts) st)).
  - intros k IH st. cbn [unannotated run_u]. apply agree_tell, (IH (set_bound None st)).
  - intros i k IH st. cbn [unannotated run_u]. apply agree_tell, (IH _ (set_icpt i st)).
  - intros p IHp q IHq k IH st. cbn [unannotated]. rewrite !run_try. apply agree_then; [|done].
    unfold deferring. specialize (IHp st). destruct (run_u E c p st) as [[st1 evs1] r1], (run_u E c (unannotated p) _) as [[st2 evs2] r2].
    destruct IHp as (-> & -> & He). specialize (IHq st1). destruct (run_u E c q st1) as [[st3 evs3] r3], (run_u E c (unannotated q) _) as [[st4 evs4] r4].
    destruct IHq as (-> & -> & He2). destruct r1; try (by repeat split); (split; [done|]; split; [done|]; by rewrite !apart_app, He, He2).
  - intros a Ha k IH st. cbn [unannotated run_u]. apply agree_then; [|intros z; apply IH].
    apply (prepare_agree a (unannotated_action a)); [by destruct a|done].
  - intros a Ha e k IH st. cbn [unannotated run_u]. apply agree_then; [|intros z; apply IH].
    apply (expect_agree a (unannotated_action a)); [by destruct a|by destruct a|done].
  - intros names b k IH st. cbn [unannotated run_u]. rewrite enable_same. destruct (enable_handlers _ _ _ _) as [[st1 evs1] v1].
    apply agree_then; [by repeat split|intros z; apply IH].
  - intros pats b k IH st. cbn [unannotated run_u]. rewrite like_same. destruct (enable_handlers_like _ _ _ _ _) as [[st1 evs1] v1].
    apply agree_then; [by repeat split|intros z; apply IH].
  - intros x k IH st. cbn [unannotated run_u]. specialize (IH (set_notes (ts_notes st ++ [x]) st)).
    change (set_notes notes (set_notes _ st)) with (set_notes notes st) in IH.
    destruct (run_u E c k _) as [[st1 evs1] r1], (run_u E c (unannotated k) _) as [[st2 evs2] r2]. destruct IH as (-> & -> & He). by repeat split.
  - intros k s f do IH opts st. change (unannotated_action (mkUA k s f do)) with (mkUA k s f (fun opts => unannotated (do opts))). rewrite !do_u_eq. specialize (IH opts st).
    destruct (run_u E c (do opts) st) as [[st1 evs1] r1], (run_u E c (unannotated (do opts)) _) as [[st2 evs2] r2]. destruct IH as (-> & -> & He).
    split; [done|]. split; [done|]. apply apart_cons. by rewrite !apart_app, He.
Qed.
End Env2.
End Proof.
