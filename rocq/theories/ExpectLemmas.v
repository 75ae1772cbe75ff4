(** * Lemmas on expectations. *)
From Verif Require Import ExpectSpec SatisfyLemmas.

Section Lemmas.
Context {P : Params}.
Implicit Types s : Scope.

Section ind.
Variable Q : Exp -> Prop.
Hypothesis H1 : forall m, Q (XMessage m).
Hypothesis H2 : forall t, Q (XType t).
Hypothesis H3 : forall tp pred near ex, Q (XMatch tp pred near ex).
Hypothesis H4 : forall c l, Forall Q l -> Q (XComp c l).
Hypothesis H5 : forall e, Q e -> Q (XNot e).
Hypothesis H6 : forall desc n f, (forall i e, f i = Some e -> Q e) -> Q (XRepeat desc n f).
Hypothesis H7 : forall desc fn, Q (XSatisfy desc fn).
Hypothesis H8 : forall u, Q (XUser u).
Fixpoint Exp_ind' (e : Exp) : Q e :=
  match e with
  | XMessage m => H1 m
  | XType t => H2 t
  | XMatch tp pred near ex => H3 tp pred near ex
  | XComp c l =>
    H4 c l ((fix go (l : list Exp) : Forall Q l :=
      match l with [] => Forall_nil_2 Q | x :: l => Forall_cons_2 Q x l (Exp_ind' x) (go l) end) l)
  | XNot e => H5 e (Exp_ind' e)
  | XRepeat desc n f =>
    H6 desc n f (fun i =>
      match f i as o return forall e, o = Some e -> Q e with
      | Some x => fun e E => match E in _ = o' return match o' with Some e' => Q e' | None => True end with eq_refl => Exp_ind' x end
      | None => fun e E => match E in _ = o' return match o' with Some e' => Q e' | None => True end with eq_refl => I end
      end)
  | XSatisfy desc fn => H7 desc fn
  | XUser u => H8 u
  end.
End ind.

Definition feed (fs : list Fact) (p : Pred) : Pred := foldl (fun p f => notify f p) p fs.
Lemma feed_snoc fs f p : feed (fs ++ [f]) p = notify f (feed fs p).
Proof. unfold feed. by rewrite foldl_app. Qed.
Lemma feed_comp fs c l : feed fs (PdComp c l) = PdComp c (map (feed fs) l).
Proof.
  induction fs as [|f fs IH] using rev_ind; [cbn; by rewrite map_id|]. rewrite feed_snoc, IH. cbn.
  f_equal. rewrite map_map. apply map_ext. intros p. by rewrite feed_snoc.
Qed.
Lemma feed_repeat fs d l : feed fs (PdRepeat d l) = PdRepeat d (map (feed fs) l).
Proof.
  induction fs as [|f fs IH] using rev_ind; [cbn; by rewrite map_id|]. rewrite feed_snoc, IH. cbn.
  f_equal. rewrite map_map. apply map_ext. intros p. by rewrite feed_snoc.
Qed.
Lemma feed_not fs p : feed fs (PdNot p) = PdNot (feed fs p).
Proof. induction fs as [|f fs IH] using rev_ind; [done|]. by rewrite !feed_snoc, IH. Qed.
Lemma feed_satisfy fs d fn st : feed fs (PdSatisfy d fn [] st) = PdSatisfy d fn fs st.
Proof. induction fs as [|f fs IH] using rev_ind; [done|]. by rewrite feed_snoc, IH. Qed.
Lemma feed_user fs u s : feed fs (PdUser u s []) = PdUser u s fs.
Proof. induction fs as [|f fs IH] using rev_ind; [done|]. by rewrite feed_snoc, IH. Qed.

(** ** The tracker *)

Definition t_run (t : Tracker) (fs : list Fact) : Tracker := foldl (fun t f => (t_notify f t).1) t fs.
Lemma t_run_snoc t fs f : t_run t (fs ++ [f]) = (t_notify f (t_run t fs)).1.
Proof. unfold t_run. by rewrite foldl_app. Qed.

Lemma t_engage_same h t :
  t_kind (t_engage h t) = t_kind t /\ t_match (t_engage h t) = t_match t /\ t_begun (t_engage h t) = t_begun t /\
  t_total (t_engage h t) = t_total t /\ t_produced (t_engage h t) = t_produced t /\ t_enabled (t_engage h t) = t_enabled t.
Proof. unfold t_engage. destruct (is_producer_of _ _); [|done]. by case_bool_decide. Qed.

Lemma t_notify_considered f t : (t_notify f t).2 = considered (t_match t) f.
Proof. destruct f; try done. cbn. by destruct (t_match t). Qed.
Lemma t_notify_const f t : t_kind (t_notify f t).1 = t_kind t /\ t_match (t_notify f t).1 = t_match t.
Proof. destruct f; try done; cbn; [by destruct (t_match t) | split; apply t_engage_same]. Qed.
Lemma t_run_const t fs : t_kind (t_run t fs) = t_kind t /\ t_match (t_run t fs) = t_match t.
Proof.
  induction fs as [|f fs IH] using rev_ind; [done|]. rewrite t_run_snoc.
  destruct (t_notify_const f (t_run t fs)) as [-> ->]. done.
Qed.

Lemma messages_snoc s fs f :
  messages s (fs ++ [f]) = messages s fs ++ match considered (sc_match s) f with Some e => [e_msg e] | None => [] end.
Proof. unfold messages. rewrite omap_app, map_app. cbn. by destruct (considered (sc_match s) f). Qed.
Lemma of_kind_snoc k ms m : of_kind k (ms ++ [m]) = of_kind k ms ++ (if bool_decide (m_kind m = k) then [m] else []).
Proof.
  unfold of_kind. rewrite filter_app. f_equal. case_bool_decide.
  - by rewrite filter_cons_True.
  - by rewrite filter_cons_False.
Qed.

(** First occurrences, when one more entry comes. *)
Lemma first_occurrences_names l r : first_occurrences l r -> forall n, n ∈ r.*1 <-> n ∈ l.*1.
Proof.
  induction 1 as [|n t l r H IH]; intros n'; [done|]. rewrite !fmap_cons, !elem_of_cons. cbn.
  destruct (decide (n' = n)) as [->|Hne]; [tauto|]. rewrite IH. split; (intros [?|Hin]; [done | right]).
  - apply elem_of_list_fmap in Hin. destruct Hin as (x & -> & Hx). apply elem_of_list_filter in Hx. apply elem_of_list_fmap. exists x. tauto.
  - apply elem_of_list_fmap in Hin. destruct Hin as (x & -> & Hx). apply elem_of_list_fmap. exists x. split; [done|].
    by apply elem_of_list_filter.
Qed.
Lemma first_occurrences_snoc l r n t : first_occurrences l r ->
  first_occurrences (l ++ [(n, t)]) (if bool_decide (n ∈ r.*1) then r else r ++ [(n, t)]).
Proof.
  induction 1 as [|n0 t0 l r H IH].
  - rewrite bool_decide_eq_false_2 by (cbn; apply not_elem_of_nil). cbn. constructor. constructor.
  - destruct (decide (n = n0)) as [->|Hne].
    + rewrite bool_decide_eq_true_2 by (rewrite fmap_cons; left). cbn. constructor. rewrite filter_app.
      rewrite (filter_cons_False _ (n0, t)) by (cbn; tauto). by rewrite filter_nil, app_nil_r.
    + cbn [app]. assert (Hf : first_occurrences (filter (fun x => x.1 <> n0) (l ++ [(n, t)])) (if bool_decide (n ∈ r.*1) then r else r ++ [(n, t)])).
      { rewrite filter_app, (filter_cons_True _ (n, t)) by done. by rewrite filter_nil. }
      replace (bool_decide (n ∈ ((n0, t0) :: r).*1)) with (bool_decide (n ∈ r.*1)).
      2:{ apply bool_decide_ext. rewrite fmap_cons, elem_of_cons. cbn. tauto. }
      destruct (bool_decide (n ∈ r.*1)); by constructor.
Qed.

Lemma t_run_spec s k fs :
  let t := t_run (t_init k s) fs in
  t_kind t = k /\ t_match t = sc_match s /\
  (t_begun t = true <-> last_cycle fs <> None) /\
  t_total t = length (messages s fs) /\
  t_produced t = length (of_kind k (messages s fs)) /\
  first_occurrences (engagements k fs) (t_engaged t) /\
  (forall et, last_cycle fs = Some et -> t_enabled t = et_get et).
Proof.
  cbn. induction fs as [|f fs IH] using rev_ind.
  { split_and!; try done; [constructor]. }
  destruct IH as (A1 & A2 & A3 & A4 & A5 & A6 & A7). rewrite t_run_snoc, messages_snoc.
  set (t := t_run (t_init k s) fs) in *.
  assert (Hmsg : forall e, t_total (t_message e t) = length (messages s fs ++ [e_msg e]) /\
     t_produced (t_message e t) = length (of_kind k (messages s fs ++ [e_msg e]))).
  { intros e. cbn. rewrite A1, of_kind_snoc, !app_length, A4, A5. cbn. case_bool_decide; cbn; split; lia. }
  assert (Hother : (forall e n et eh, f <> DispatchCycleBegun e n et eh) -> last_cycle (fs ++ [f]) = last_cycle fs).
  { intros H. unfold last_cycle. rewrite omap_app. destruct f; cbn; rewrite ?app_nil_r; try done. by destruct (H e now et eh). }
  assert (Heng : (forall h e, f <> HandlingBegun h e) -> engagements k (fs ++ [f]) = engagements k fs).
  { intros H. unfold engagements. rewrite omap_app. destruct f; cbn; rewrite ?app_nil_r; try done. by destruct (H h e). }
  destruct f; cbn [t_notify considered fst]; rewrite ?app_nil_r; rewrite ?Hother, ?Heng by done; try by split_and!.
  - (* DispatchCycleBegun *)
    assert (Hlc : last_cycle (fs ++ [DispatchCycleBegun e now et eh]) = Some et).
    { unfold last_cycle. rewrite omap_app. cbn. by rewrite last_snoc. }
    rewrite Hlc. rewrite A2. cbn [t_match]. destruct (sc_match s) eqn:Em; cbn [fst].
    + cbn. rewrite A1, of_kind_snoc, !app_length, A4, A5. cbn.
      split_and!; try done; [lia | case_bool_decide; cbn; lia | by intros ? [= ->]].
    + cbn. rewrite app_nil_r. split_and!; try done. by intros ? [= ->].
  - (* HandlingBegun *)
    destruct (t_engage_same h t) as (B1 & B2 & B3 & B4 & B5 & B6). rewrite B1, B2, B3, B4, B5, B6.
    split_and!; try done. unfold engagements. rewrite omap_app. cbn. unfold t_engage. rewrite A1.
    destruct (is_producer_of (hid_type h) k).
    + assert (F := first_occurrences_snoc _ _ (hid_name h) (hid_type h) A6). case_bool_decide; done.
    + by rewrite app_nil_r.
  - destruct (Hmsg ev) as [-> ->]. by split_and!.
  - destruct (Hmsg c) as [-> ->]. by split_and!.
  - destruct (Hmsg t0) as [-> ->]. by split_and!.
  - destruct (Hmsg ev) as [-> ->]. by split_and!.
Qed.

(** ** Leaves *)

Lemma t_notify_eq f t t' o : t_notify f t = (t', o) -> t' = (t_notify f t).1 /\ o = considered (t_match t) f.
Proof. intros H. rewrite <- t_notify_considered, H. done. Qed.

Lemma feed_message s m fs :
  exists ok best t, feed fs (PdMessage (sc_compare s) m false None (t_init (m_kind m) s)) = PdMessage (sc_compare s) m ok best t /\
    (ok = true <-> met s fs (XMessage m)) /\
    (ok = false -> t = t_run (t_init (m_kind m) s) fs /\
                   best = last (filter (fun e => m_type (e_msg e) = m_type m) (omap (considered (sc_match s)) fs))).
Proof.
  induction fs as [|f fs (ok & best & t & Hf & Hok & Hno)] using rev_ind.
  { exists false, None, (t_init (m_kind m) s). split_and!; try done. split; [done|]. intros (m' & H & _). by apply elem_of_nil in H. }
  rewrite feed_snoc, Hf. cbn [notify]. destruct ok.
  - exists true, best, t. split_and!; try done. split; [intros _|done].
    destruct (proj1 Hok eq_refl) as (m' & Hin & Ht & Hc). exists m'. split_and!; try done. rewrite messages_snoc. apply elem_of_app. by left.
  - destruct (Hno eq_refl) as [-> ->]. clear Hno. destruct (t_notify f _) as [t' o] eqn:Et. apply t_notify_eq in Et. destruct Et as [-> ->].
    rewrite (proj2 (t_run_const _ _)). cbn [t_match t_init]. rewrite <- t_run_snoc.
    assert (Hmet : forall b, (b = true <-> exists m', m' ∈ match considered (sc_match s) f with Some e => [e_msg e] | None => [] end
                                   /\ m_type m' = m_type m /\ sc_compare s m' m = true) ->
                    (b = true <-> met s (fs ++ [f]) (XMessage m))).
    { intros b Hb. rewrite Hb. cbn. setoid_rewrite messages_snoc. split; intros (m' & Hin & Hr).
      - exists m'. split; [apply elem_of_app; by right | done].
      - exists m'. apply elem_of_app in Hin. destruct Hin as [Hin|Hin]; [|done].
        exfalso. assert (false = true); [|done]. apply Hok. exists m'. done. }
    rewrite omap_app, filter_app. cbn [omap list_omap].
    destruct (considered (sc_match s) f) as [e|] eqn:Ec.
    + case_bool_decide as Ht.
      * eexists _, _, _. split; [reflexivity|]. split.
        -- apply Hmet. split; [intros Hc; exists (e_msg e); split_and!; try done; by left|].
           intros (m' & Hin & _ & Hc). apply elem_of_list_singleton in Hin. by subst m'.
        -- intros _. split; [done|]. rewrite filter_cons_True by done. by rewrite filter_nil, last_snoc.
      * eexists _, _, _. split; [reflexivity|]. split.
        -- apply Hmet. split; [done|]. intros (m' & Hin & Ht' & _). apply elem_of_list_singleton in Hin. by subst m'.
        -- intros _. split; [done|]. rewrite filter_cons_False by done. by rewrite filter_nil, app_nil_r.
    + eexists _, _, _. split; [reflexivity|]. split.
      -- apply Hmet. split; [done|]. intros (m' & Hin & _). by apply elem_of_nil in Hin.
      -- intros _. split; [done|]. by rewrite filter_nil, app_nil_r.
Qed.

Lemma feed_type s ty fs :
  exists ok t, feed fs (PdType ty false (t_init ty.1 s)) = PdType ty ok t /\
    (ok = true <-> met s fs (XType ty)) /\ (ok = false -> t = t_run (t_init ty.1 s) fs).
Proof.
  induction fs as [|f fs (ok & t & Hf & Hok & Hno)] using rev_ind.
  { exists false, (t_init ty.1 s). split_and!; try done. split; [done|]. intros (m' & H & _). by apply elem_of_nil in H. }
  rewrite feed_snoc, Hf. cbn [notify]. destruct ok.
  - exists true, t. split_and!; try done. split; [intros _|done].
    destruct (proj1 Hok eq_refl) as (m' & Hin & Ht). exists m'. split; [|done]. rewrite messages_snoc. apply elem_of_app. by left.
  - rewrite (Hno eq_refl). clear Hno. destruct (t_notify f _) as [t' o] eqn:Et. apply t_notify_eq in Et. destruct Et as [-> ->].
    rewrite (proj2 (t_run_const _ _)). cbn [t_match t_init]. rewrite <- t_run_snoc.
    assert (Hmet : forall b, (b = true <-> exists m', m' ∈ match considered (sc_match s) f with Some e => [e_msg e] | None => [] end
                                   /\ m_type m' = ty) ->
                    (b = true <-> met s (fs ++ [f]) (XType ty))).
    { intros b Hb. rewrite Hb. cbn. setoid_rewrite messages_snoc. split; intros (m' & Hin & Hr).
      - exists m'. split; [apply elem_of_app; by right | done].
      - exists m'. apply elem_of_app in Hin. destruct Hin as [Hin|Hin]; [|done].
        exfalso. assert (false = true); [|done]. apply Hok. exists m'. done. }
    destruct (considered (sc_match s) f) as [e|] eqn:Ec.
    + eexists _, _. split; [reflexivity|]. split; [|done]. apply Hmet. rewrite bool_decide_eq_true. split.
      * intros <-. exists (e_msg e). split; [by left | done].
      * intros (m' & Hin & <-). apply elem_of_list_singleton in Hin. by subst m'.
    + eexists _, _. split; [reflexivity|]. split; [|done]. apply Hmet. split; [done|]. intros (m' & Hin & _). by apply elem_of_nil in Hin.
Qed.

Definition assignables (tp : TParam) (ms : list Msg) : list Msg := filter (fun m => tp_assignable tp (m_type m) = true) ms.
Lemma results_snoc tp pred ex before ms m :
  results tp pred ex before (ms ++ [m]) = results tp pred ex before ms ++
    [(m, if tp_assignable tp (m_type m) then pred (before ++ assignables tp ms) m
         else if ex then RErr (expected_error tp) else RIgnore)].
Proof.
  revert before. induction ms as [|m0 ms IH]; intros before; cbn [results app].
  - unfold assignables. cbn. rewrite ?filter_nil, ?app_nil_r. by destruct (tp_assignable tp (m_type m)).
  - destruct (tp_assignable tp (m_type m0)) eqn:E.
    + rewrite IH. unfold assignables. rewrite (filter_cons_True _ m0) by done. by rewrite <- app_assoc.
    + rewrite IH. unfold assignables. rewrite (filter_cons_False _ m0) by (by rewrite E). done.
Qed.

Lemma grouped_snoc l r t er : grouped l r -> grouped (l ++ [(t, er)]) (add_failure t er r).
Proof.
  induction 1 as [|t0 er0 l r n H IH Hn]; cbn.
  - econstructor; [constructor | done].
  - case_bool_decide as Ht; [case_bool_decide as He|]; cbn.
    + subst t0 er0. constructor.
      * rewrite filter_app. rewrite (filter_cons_False _ (t, er)) by tauto. by rewrite filter_nil, app_nil_r.
      * rewrite filter_app, app_length. rewrite (filter_cons_True _ (t, er)) by done. cbn. lia.
    + assert ((t, er) <> (t0, er0)) by congruence. constructor.
      * rewrite filter_app, (filter_cons_True _ (t, er)) by done. by rewrite filter_nil.
      * rewrite filter_app, (filter_cons_False _ (t, er)) by done. by rewrite filter_nil, app_nil_r.
    + assert ((t, er) <> (t0, er0)) by congruence. constructor.
      * rewrite filter_app, (filter_cons_True _ (t, er)) by done. by rewrite filter_nil.
      * rewrite filter_app, (filter_cons_False _ (t, er)) by done. by rewrite filter_nil, app_nil_r.
Qed.
Lemma grouped_nil l r : grouped l r -> (r = [] <-> l = []).
Proof. by destruct 1. Qed.

Lemma feed_match s tp pred near ex fs :
  exists calls fl ma ig ok t,
    feed fs (PdMatch tp pred near ex [] [] 0 0 false (t_init (tp_kind tp) s)) = PdMatch tp pred near ex calls fl ma ig ok t /\
    (ex = true -> ok = false) /\
    (ex = false -> (ok = true <-> exists m', (m', RNil) ∈ all_results s tp pred false fs)) /\
    (ok = false ->
      t = t_run (t_init (tp_kind tp) s) fs /\ calls = assignables tp (of_kind (tp_kind tp) (messages s fs)) /\
      grouped (failed_results (all_results s tp pred ex fs)) fl /\
      ma = count_res RNil (all_results s tp pred ex fs) /\ ig = count_res RIgnore (all_results s tp pred ex fs)).
Proof.
  induction fs as [|f fs (calls & fl & ma & ig & ok & t & Hf & Hex & Hok & Hno)] using rev_ind.
  { exists [], [], 0, 0, false, (t_init (tp_kind tp) s). split_and!; try done.
    - intros _. split; [done|]. intros (m' & H). by apply elem_of_nil in H.
    - intros _. split_and!; try done. constructor. }
  rewrite feed_snoc, Hf. cbn [notify].
  assert (Hmono : forall x, x ∈ all_results s tp pred false fs -> x ∈ all_results s tp pred false (fs ++ [f])).
  { intros x Hx. unfold all_results in *. rewrite messages_snoc. destruct (considered _ f) as [e|]; [|by rewrite app_nil_r].
    rewrite of_kind_snoc. case_bool_decide; [|by rewrite app_nil_r]. rewrite results_snoc. apply elem_of_app. by left. }
  destruct ok.
  - destruct ex; [by specialize (Hex eq_refl)|]. exists calls, fl, ma, ig, true, t. split_and!; try done.
    intros _. split; [intros _|done]. destruct (proj1 (Hok eq_refl) eq_refl) as (m' & Hm). exists m'. by apply Hmono.
  - destruct (Hno eq_refl) as (-> & -> & Hg & -> & ->). clear Hno.
    destruct (t_notify f _) as [t' o] eqn:Et. apply t_notify_eq in Et. destruct Et as [-> ->].
    rewrite (proj2 (t_run_const _ _)). cbn [t_match t_init]. rewrite <- t_run_snoc.
    assert (Hsame : of_kind (tp_kind tp) (messages s (fs ++ [f])) = of_kind (tp_kind tp) (messages s fs) ->
      exists (calls0 : list Msg) (fl0 : list Failure) (ma0 ig0 : nat) (ok : bool) (t0 : Tracker),
        PdMatch tp pred near ex (assignables tp (of_kind (tp_kind tp) (messages s fs))) fl
          (count_res RNil (all_results s tp pred ex fs)) (count_res RIgnore (all_results s tp pred ex fs)) false (t_run (t_init (tp_kind tp) s) (fs ++ [f]))
        = PdMatch tp pred near ex calls0 fl0 ma0 ig0 ok t0 /\ (ex = true -> ok = false) /\
        (ex = false -> ok = true <-> (exists m', (m', RNil) ∈ all_results s tp pred false (fs ++ [f]))) /\
        (ok = false -> t0 = t_run (t_init (tp_kind tp) s) (fs ++ [f]) /\
           calls0 = assignables tp (of_kind (tp_kind tp) (messages s (fs ++ [f]))) /\
           grouped (failed_results (all_results s tp pred ex (fs ++ [f]))) fl0 /\
           ma0 = count_res RNil (all_results s tp pred ex (fs ++ [f])) /\ ig0 = count_res RIgnore (all_results s tp pred ex (fs ++ [f])))).
    { intros E. eexists _, _, _, _, _, _. split; [reflexivity|]. unfold all_results in *. rewrite E.
      split_and!; try done. }
    rewrite messages_snoc in Hsame |- *.
    destruct (considered (sc_match s) f) as [e|] eqn:Ec; [|apply Hsame; by rewrite app_nil_r].
    rewrite of_kind_snoc in Hsame |- *.
    case_bool_decide as Hk; [|apply Hsame; by rewrite app_nil_r]. clear Hsame.
    set (ms := of_kind (tp_kind tp) (messages s fs)) in *.
    assert (Ems : of_kind (tp_kind tp) (messages s (fs ++ [f])) = ms ++ [e_msg e]).
    { rewrite messages_snoc, Ec, of_kind_snoc, bool_decide_eq_true_2 by done. done. }
    assert (Eres : all_results s tp pred ex (fs ++ [f]) = all_results s tp pred ex fs ++
      [(e_msg e, if tp_assignable tp (m_type (e_msg e)) then pred (assignables tp ms) (e_msg e)
                 else if ex then RErr (expected_error tp) else RIgnore)]).
    { unfold all_results. rewrite Ems, results_snoc. done. }
    assert (Ecalls : assignables tp (ms ++ [e_msg e]) = assignables tp ms ++ (if tp_assignable tp (m_type (e_msg e)) then [e_msg e] else [])).
    { unfold assignables. rewrite filter_app. f_equal. destruct (tp_assignable tp _) eqn:Ea.
      - by rewrite filter_cons_True.
      - rewrite filter_cons_False; [done|]. by rewrite Ea. }
    rewrite Ecalls.
    assert (Hnil : ex = false -> forall m', (m', RNil) ∉ all_results s tp pred false fs).
    { intros E m' Hin. assert (false = true); [|done]. apply Hok; [done|]. by exists m'. }
    clear Hok Hmono.
    destruct (tp_assignable tp (m_type (e_msg e))) eqn:Ea; [destruct (pred (assignables tp ms) (e_msg e)) eqn:Ep|].
    + destruct ex.
      * eexists _, _, _, _, _, _. split; [reflexivity|]. split_and!; try done. intros _. rewrite Eres.
        unfold failed_results, count_res in *. rewrite !omap_app, !app_length. cbn. rewrite !app_nil_r. split_and!; try done; lia.
      * eexists _, _, _, _, _, _. split; [reflexivity|]. split_and!; try done. intros _. split; [intros _|done].
        exists (e_msg e). rewrite Eres. apply elem_of_app. right. by left.
    + eexists _, _, _, _, _, _. split; [reflexivity|]. split_and!; try done.
      * intros ->. split; [done|]. intros (m' & Hin). rewrite Eres in Hin. apply elem_of_app in Hin. destruct Hin as [Hin|Hin]; [by apply Hnil in Hin|].
        apply elem_of_list_singleton in Hin. by inversion Hin.
      * intros _. rewrite Eres. unfold failed_results, count_res in *. rewrite !omap_app, !app_length. cbn. rewrite !app_nil_r. split_and!; try done; lia.
    + eexists _, _, _, _, _, _. split; [reflexivity|]. split_and!; try done.
      * intros ->. split; [done|]. intros (m' & Hin). rewrite Eres in Hin. apply elem_of_app in Hin. destruct Hin as [Hin|Hin]; [by apply Hnil in Hin|].
        apply elem_of_list_singleton in Hin. by inversion Hin.
      * intros _. rewrite Eres. unfold failed_results, count_res in *. rewrite !omap_app, !app_length. cbn.
        split_and!; try done; try lia. by apply grouped_snoc.
    + destruct ex.
      * eexists _, _, _, _, _, _. split; [reflexivity|]. split_and!; try done. intros _. rewrite Eres.
        unfold failed_results, count_res in *. rewrite !omap_app, !app_length. cbn. rewrite !app_nil_r. split_and!; try done; try lia.
        by apply grouped_snoc.
      * eexists _, _, _, _, _, _. split; [reflexivity|]. split_and!; try done.
        -- intros _. split; [done|]. intros (m' & Hin). rewrite Eres in Hin. apply elem_of_app in Hin. destruct Hin as [Hin|Hin]; [by apply Hnil in Hin|].
           apply elem_of_list_singleton in Hin. by inversion Hin.
        -- intros _. rewrite Eres. unfold failed_results, count_res in *. rewrite !omap_app, !app_length. cbn. rewrite !app_nil_r. split_and!; try done; lia.
Qed.
End Lemmas.
