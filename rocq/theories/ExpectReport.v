(** * Contents of the reports of expectations. *)
From Verif Require Import ExpectSpec ExpectLemmas ExpectProof.

Section Report.
Context {P : Params}.

(** [says r pre items]: the sections of [r] are [pre] and the suggestions [items]. *)
Definition says (r : Report) (pre : list (text * text)) (items : text) : Prop :=
  suggestions ∉ pre.*1 /\ rp_sections r = pre ++ [(suggestions, items)].

Lemma sec_append_new t x l : t ∉ l.*1 -> sec_append t x l = l ++ [(t, x)].
Proof.
  induction l as [|[t' c] l IH]; intros H; cbn; [done|]. rewrite bool_decide_false.
  - rewrite IH; [done|]. intros Hn. apply H. by right.
  - intros ->. apply H. by left.
Qed.
Lemma sec_append_last t x pre c : t ∉ pre.*1 -> sec_append t x (pre ++ [(t, c)]) = pre ++ [(t, c ++ x)].
Proof.
  induction pre as [|[t' c'] l IH]; intros H; cbn; [by rewrite bool_decide_true|]. rewrite bool_decide_false.
  - rewrite IH; [done|]. intros Hn. apply H. by right.
  - intros ->. apply H. by left.
Qed.
Lemma says_section r pre items x : says r pre items -> says (section suggestions x r) pre (items ++ x).
Proof. intros [H1 H2]. split; [done|]. cbn. rewrite H2. by apply sec_append_last. Qed.
Lemma says_new r x : suggestions ∉ (rp_sections r).*1 -> says (section suggestions x r) (rp_sections r) x.
Proof. intros H. split; [done|]. cbn. by apply sec_append_new. Qed.
Lemma says_expl r pre items x : says r pre items -> says (set_expl x r) pre items.
Proof. done. Qed.

Definition items_text (l : list text) : text := concat (map item l).
Lemma items_app a b : items_text (a ++ b) = items_text a ++ items_text b.
Proof. unfold items_text. by rewrite map_app, concat_app. Qed.
Lemma items_one a : items_text [a] = item a.
Proof. unfold items_text. cbn [map concat]. by rewrite app_nil_r. Qed.

Lemma says_foldl {A} (g : A -> text) l r pre items :
  says r pre items -> says (foldl (fun r a => section suggestions (item (g a)) r) r l) pre (items ++ items_text (map g l)).
Proof.
  revert r items. induction l as [|a l IH]; intros r items H; cbn [foldl map].
  - unfold items_text. cbn. by rewrite app_nil_r.
  - replace (items ++ items_text (g a :: map g l)) with ((items ++ item (g a)) ++ items_text (map g l)).
    + apply IH. by apply says_section.
    + rewrite <- app_assoc. f_equal.
Qed.

Lemma says_enable t r pre items fs et k :
  t_kind t = k -> (forall ht, t_enabled t ht = et_get et ht) -> last_cycle fs = Some et ->
  says r pre items -> says (foldl (suggest_enable t) r htypes) pre (items ++ items_text (missing k fs)).
Proof.
  intros Hk He Hl Hs. unfold missing. rewrite Hl. change [HTAggregate; HTProcess; HTIntegration; HTProjection] with htypes.
  revert r items Hs. generalize htypes as hts. induction hts as [|ht hts IH]; intros r items Hs; cbn [foldl].
  - rewrite filter_nil. unfold items_text. cbn. by rewrite app_nil_r.
  - unfold suggest_enable at 2. rewrite Hk, He. destruct (is_producer_of ht k) eqn:E1; cbn [andb].
    + destruct (et_get et ht) eqn:E2; cbn [negb].
      * rewrite filter_cons_False by (intros [_ ?]; congruence). by apply IH.
      * rewrite filter_cons_True by done. cbn [map].
        match goal with |- says _ _ (_ ++ items_text (?a :: ?l)) => replace (items ++ items_text (a :: l)) with ((items ++ item a) ++ items_text l) by (by rewrite <- app_assoc) end.
        apply IH. by apply says_section.
    + rewrite filter_cons_False by (intros [? _]; congruence). by apply IH.
Qed.

Lemma says_end t r pre items :
  says r pre items ->
  says (report_no_match_end t r) pre (items ++ items_text (map verify (t_engaged t) ++
    (if t_match t then [inflect (t_kind t) (txt "verify the logic within the code that uses the <dispatcher>")] else []))).
Proof.
  intros Hs. unfold report_no_match_end. rewrite items_app, app_assoc.
  match goal with |- context [set_expl ?x r] => apply (says_expl _ _ _ x) in Hs; revert Hs; generalize (set_expl x r) end.
  intros r1 Hs. apply (says_foldl verify (t_engaged t)) in Hs. destruct (t_match t).
  - rewrite items_one. by apply says_section.
  - cbn [items_text map concat]. rewrite app_nil_r. exact Hs.
Qed.

Lemma missing_none k fs : last_cycle fs = None -> missing k fs = [].
Proof. intros H. unfold missing. by rewrite H. Qed.

Lemma rnm_suggests s k fs r pre c :
  (suggestions ∉ (rp_sections r).*1 /\ pre = rp_sections r /\ c = []) \/ says r pre c ->
  exists items, suggests s k fs items /\
    says (report_no_match (t_run (t_init k s) fs) r) pre (c ++ items_text items).
Proof.
  intros Hc. destruct (t_run_spec s k fs) as (A1 & A2 & A3 & A4 & A5 & A6 & A7). set (t := t_run (t_init k s) fs) in *. clearbody t.
  unfold report_no_match. set (r1 := section suggestions [] r).
  assert (S1 : says r1 pre c).
  { destruct Hc as [(H1 & -> & ->)|H]; [by apply says_new|]. rewrite <- (app_nil_r c). by apply says_section. }
  clearbody r1. clear Hc.
  assert (Hend : forall r0, undiagnosed s k fs ->
     says r0 pre (c ++ items_text (missing k fs)) -> exists items, suggests s k fs items /\ says (report_no_match_end t r0) pre (c ++ items_text items)).
  { intros r0 Hc Hs. eexists. split; [apply (su_other s k fs _ Hc A6)|]. apply (says_end t) in Hs.
    rewrite items_app, app_assoc. rewrite A1, A2 in Hs. destruct k; exact Hs. }
  destruct (t_begun t) eqn:Eb.
  2:{ assert (El : last_cycle fs = None).
      { destruct (last_cycle fs) as [et0|]; [|done]. exfalso. assert (false = true); [|done]. by apply A3. }
      apply Hend; [by left|]. rewrite (missing_none k fs El). unfold items_text. cbn. by rewrite app_nil_r. }
  destruct (last_cycle fs) as [et|] eqn:El; [|exfalso; by apply (proj1 A3 eq_refl)].
  assert (Hen : forall ht, t_enabled t ht = et_get et ht) by (intros; by rewrite (A7 et)).
  assert (S2 := says_enable t r1 pre c fs et k A1 Hen El S1). set (r2 := foldl (suggest_enable t) r1 htypes) in *. clearbody r2.
  rewrite A2. destruct (sc_match s) eqn:Es.
  { apply Hend; [by right; left | exact S2]. }
  destruct (forallb (fun ht => negb (t_enabled t ht)) (relevant_types t)) eqn:Ed.
  { exists (missing k fs). split; [|exact S2]. eapply su_disabled; [done..|]. intros ht Hp. rewrite <- Hen.
    rewrite forallb_forall in Ed. apply negb_true_iff. apply Ed. unfold relevant_types. apply filter_In. rewrite A1. split; [|done].
    destruct ht; cbn; tauto. }
  assert (exists ht, is_producer_of ht k = true /\ et_get et ht = true) as (ht & H1 & H2).
  { apply not_true_iff_false in Ed. destruct (existsb (fun ht => t_enabled t ht) (relevant_types t)) eqn:Ex.
    - apply existsb_exists in Ex. destruct Ex as (ht & Hin & He). exists ht. rewrite <- Hen. split; [|done].
      unfold relevant_types in Hin. apply filter_In in Hin. rewrite A1 in Hin. apply Hin.
    - exfalso. apply Ed. apply forallb_forall. intros ht Hin. apply negb_true_iff. apply not_true_iff_false. intros He.
      apply not_true_iff_false in Ex. apply Ex. apply existsb_exists. by exists ht. }
  destruct (t_engaged t) as [|en ens] eqn:Ee.
  { exists (missing k fs ++ [txt "check the application's routing configuration"]). split.
    - apply (su_unengaged s k fs et ht); try done. by apply (engagements_nil _ _ _ A6).
    - rewrite items_app, items_one, (app_assoc c). by apply says_section, says_expl. }
  { rewrite <- Ee in *. apply Hend; [|exact S2]. right; right. split.
    - intros H. apply (engagements_nil _ _ _ A6) in H. congruence.
    - by exists et, ht. }
Qed.

(** The failed matches of a report. *)
Lemma failed_section T fl r :
  rp_sections r = [] ->
  rp_sections (foldl (fun r f => section (txt "Failed Matches") (failure_item T f) r) r fl) =
    match fl with [] => [] | _ => [(txt "Failed Matches", concat (map (failure_item T) fl))] end.
Proof.
  intros Hr. destruct fl as [|f fl]; [done|]. cbn [foldl map concat].
  assert (H : forall c r0, rp_sections r0 = [(txt "Failed Matches", c)] ->
     rp_sections (foldl (fun r f => section (txt "Failed Matches") (failure_item T f) r) r0 fl) = [(txt "Failed Matches", c ++ concat (map (failure_item T) fl))]).
  { induction fl as [|f' fl IH]; intros c r0 H0; cbn [foldl map concat]; [by rewrite app_nil_r|].
    rewrite (IH (c ++ failure_item T f')); [by rewrite <- app_assoc|]. cbn. by rewrite H0. }
  apply H. cbn. by rewrite Hr.
Qed.

(** ** Children *)
Lemma after_comp s fs c l p : after s fs (XComp c l) p ->
  exists ps, p = PdComp c ps /\ Forall2 (after s fs) l ps.
Proof.
  intros (p0 & H0 & Hd). rewrite new_predicate_comp in H0. destruct (go_comp s l) as [ps|] eqn:Eg; [|done]. inversion H0; subst p0.
  change (foldl ?g ?a fs) with (feed fs a) in Hd. rewrite feed_comp, p_done_comp in Hd.
  destruct (go_done (map (feed fs) ps)) as [ps' r] eqn:Ed. inversion Hd; subst p r. exists ps'. split; [done|].
  apply go_comp_inl in Eg. apply go_done_none in Ed. clear -Eg Ed. revert ps' Ed.
  induction Eg as [|e p es ps He F IH]; intros ps' G; cbn in G; inversion G; subst; [constructor|]. constructor; [by exists p | by apply IH].
Qed.
Lemma after_not s fs e p : after s fs (XNot e) p -> exists q, p = PdNot q /\ after s fs e q.
Proof.
  intros (p0 & H0 & Hd). cbn in H0. destruct (new_predicate s e) as [q|] eqn:E; [|done]. inversion H0; subst p0.
  change (foldl ?g ?a fs) with (feed fs a) in Hd. rewrite feed_not in Hd. cbn in Hd. destruct (p_done (feed fs q)) as [q' r] eqn:Eq.
  inversion Hd; subst. exists q'. split; [done|]. by exists q.
Qed.
Lemma after_repeat s fs desc n f p : after s fs (XRepeat desc n f) p ->
  exists ps, p = PdRepeat desc ps /\ length ps = n /\
    forall i q, ps !! i = Some q -> exists e, f i = Some e /\ after s fs e q.
Proof.
  intros (p0 & H0 & Hd). rewrite new_predicate_repeat in H0. destruct (go_repeat s f 0 n) as [ps|] eqn:Eg; [|done]. inversion H0; subst p0.
  change (foldl ?g ?a fs) with (feed fs a) in Hd. rewrite feed_repeat, p_done_repeat in Hd.
  destruct (go_done (map (feed fs) ps)) as [ps' r] eqn:Ed. inversion Hd; subst p r. exists ps'. split; [done|].
  destruct (go_repeat_inl _ _ _ _ _ Eg) as (es & F1 & F2). apply go_done_none in Ed. split.
  - apply Forall2_length in Ed, F1, F2. rewrite map_length in Ed. rewrite seq_length in F1. lia.
  - intros i q Hq. destruct (Forall2_lookup_r _ _ _ _ _ Ed Hq) as (p1 & Hp1 & Hdone).
    change (map ?g ps) with (g <$> ps) in Hp1. rewrite list_lookup_fmap in Hp1. destruct (ps !! i) as [p2|] eqn:Ep2; [|done]. inversion Hp1; subst p1.
    destruct (Forall2_lookup_r _ _ _ _ _ F2 Ep2) as (e & He & Hn). destruct (Forall2_lookup_r _ _ _ _ _ F1 He) as (j & Hj & Hf).
    apply lookup_seq in Hj. destruct Hj as [-> _]. exists e. split; [done|]. by exists p2.
Qed.
Lemma after_good s fs e p : after s fs e p -> good s fs e p.
Proof. intros (p0 & H0 & Hd). by eapply verdict_lemma. Qed.

(** A matching function that does not depend on the calls made before. *)
Lemma pure_results tp g ex before ms m r :
  (m, r) ∈ results tp (fun _ => g) ex before ms <->
  m ∈ ms /\ r = if tp_assignable tp (m_type m) then g m else if ex then RErr (expected_error tp) else RIgnore.
Proof.
  revert before. induction ms as [|m0 ms IH]; intros before; cbn [results].
  - rewrite !elem_of_nil. tauto.
  - assert (forall r0, r0 = (if tp_assignable tp (m_type m0) then g m0 else if ex then RErr (expected_error tp) else RIgnore) ->
      (m, r) = (m0, r0) \/ (m ∈ ms /\ r = if tp_assignable tp (m_type m) then g m else if ex then RErr (expected_error tp) else RIgnore) <->
      m ∈ m0 :: ms /\ r = if tp_assignable tp (m_type m) then g m else if ex then RErr (expected_error tp) else RIgnore) as H.
    { intros r0 ->. rewrite elem_of_cons. split.
      - intros [Hx|[? ?]]; [inversion Hx; subst; split; [by left | done] | split; [by right | done]].
      - intros [[->|?] ->]; [by left | by right]. }
    destruct (tp_assignable tp (m_type m0)) eqn:E; rewrite elem_of_cons, IH; apply H; done.
Qed.

(** ** Stability *)
Lemma results_app tp pred ex before ms ms' :
  exists before', results tp pred ex before (ms ++ ms') = results tp pred ex before ms ++ results tp pred ex before' ms'.
Proof.
  revert before. induction ms as [|m ms IH]; intros before; cbn [results app]; [by exists before|].
  destruct (tp_assignable tp (m_type m)).
  - destruct (IH (before ++ [m])) as (b & ->). by exists b.
  - destruct (IH before) as (b & ->). by exists b.
Qed.
Lemma messages_app s fs fs' : messages s (fs ++ fs') = messages s fs ++ messages s fs'.
Proof. unfold messages. by rewrite omap_app, map_app. Qed.
Lemma all_results_app s tp pred ex fs fs' : exists l, all_results s tp pred ex (fs ++ fs') = all_results s tp pred ex fs ++ l.
Proof.
  unfold all_results. rewrite messages_app. unfold of_kind. rewrite filter_app.
  destruct (results_app tp pred ex [] (filter (fun m => m_kind m = tp_kind tp) (messages s fs)) (filter (fun m => m_kind m = tp_kind tp) (messages s fs'))) as (b & ->).
  by eexists.
Qed.
Lemma stays_lemma s fs fs' v e : stays v e ->
  if v then met s fs e -> met s (fs ++ fs') e else met s (fs ++ fs') e -> met s fs e.
Proof.
  induction 1 as [m|t|tp pred near|tp pred near|v l H IH|v l H IH|v l H IH|v e H IH|v desc n f H IH]; cbn [met].
  - intros (m' & Hin & Hr). exists m'. split; [|done]. rewrite messages_app. apply elem_of_app. by left.
  - intros (m' & Hin & Hr). exists m'. split; [|done]. rewrite messages_app. apply elem_of_app. by left.
  - intros (m' & Hin). exists m'. destruct (all_results_app s tp pred false fs fs') as (l & ->). apply elem_of_app. by left.
  - intros Hx m' er Hin. apply (Hx m' er). destruct (all_results_app s tp pred true fs fs') as (l & ->). apply elem_of_app. by left.
  - change (map ?g l) with (g <$> l). 
    destruct v; rewrite !Forall_fmap, !Forall_forall; intros Hm x Hx; apply (IH x Hx); by apply Hm.
  - change (map ?g l) with (g <$> l). 
    destruct v; rewrite !Exists_fmap, !Exists_exists; intros (x & Hx & Hm); exists x; (split; [done|]); by apply (IH x Hx).
  - change (map ?g l) with (g <$> l). 
    destruct v; rewrite !Exists_fmap, !Exists_exists; intros Hn (x & Hx & Hm); apply Hn; exists x; (split; [done|]); by apply (IH x Hx).
  - destruct v; cbn in IH; tauto.
  - destruct v; intros Hm i Hi; specialize (Hm i Hi); destruct (f i) as [e|] eqn:E; try done; by apply (IH i e E).
Qed.

(** ** Leaves *)
Lemma after_message s fs m p : after s fs (XMessage m) p ->
  exists ok best t, p = PdMessage (sc_compare s) m ok best t /\
    (ok = false -> t = t_run (t_init (m_kind m) s) fs /\
                   best = last (filter (fun e => m_type (e_msg e) = m_type m) (omap (considered (sc_match s)) fs))).
Proof.
  intros (p0 & H0 & Hd). cbn in H0. destruct (guard_type s (m_type m)); [done|]. inversion H0; subst p0.
  change (foldl ?g ?a fs) with (feed fs a) in Hd.
  destruct (feed_message s m fs) as (ok & best & t & Hf & Hok & Hno). rewrite Hf in Hd. cbn in Hd. inversion Hd; subst p. by exists ok, best, t.
Qed.
Lemma after_type s fs ty p : after s fs (XType ty) p ->
  exists ok t, p = PdType ty ok t /\ (ok = false -> t = t_run (t_init ty.1 s) fs).
Proof.
  intros (p0 & H0 & Hd). cbn in H0. destruct (guard_type s ty); [done|]. inversion H0; subst p0.
  change (foldl ?g ?a fs) with (feed fs a) in Hd.
  destruct (feed_type s ty fs) as (ok & t & Hf & Hok & Hno). rewrite Hf in Hd. cbn in Hd. inversion Hd; subst p. by exists ok, t.
Qed.
Lemma after_match s fs tp pred near ex p : after s fs (XMatch tp pred near ex) p ->
  exists calls fl ma ig ok t, p = PdMatch tp pred near ex calls fl ma ig ok t /\
    (ok = false ->
      t = t_run (t_init (tp_kind tp) s) fs /\
      grouped (failed_results (all_results s tp pred ex fs)) fl /\
      ma = count_res RNil (all_results s tp pred ex fs) /\ ig = count_res RIgnore (all_results s tp pred ex fs)).
Proof.
  intros (p0 & H0 & Hd). assert (p0 = PdMatch tp pred near ex [] [] 0 0 false (t_init (tp_kind tp) s)) as ->.
  { cbn in H0. destruct tp as [t|]; [destruct (guard_type s t)|]; by inversion H0. }
  change (foldl ?g ?a fs) with (feed fs a) in Hd.
  destruct (feed_match s tp pred near ex fs) as (calls & fl & ma & ig & ok & t & Hf & Hex & Hok & Hno). rewrite Hf in Hd. cbn in Hd.
  inversion Hd; subst p. do 6 eexists. split; [done|]. intros Hx. apply orb_false_iff in Hx. destruct Hx as [Hx _].
  destruct (Hno Hx) as (? & ? & ? & ? & ?). done.
Qed.

Lemma grouped_sum l r : grouped l r -> sum_list (map fl_count r) = length l.
Proof.
  induction 1 as [|t er l r n H IH Hn]; cbn; [done|]. rewrite IH, Hn. cbn. f_equal. clear.
  induction l as [|x l IH]; [done|]. destruct (decide (x = (t, er))) as [->|Hne].
  - rewrite (filter_cons_True _ (t, er)) by done. rewrite (filter_cons_False (fun x => x <> (t, er))) by tauto. cbn. lia.
  - rewrite (filter_cons_False _ x) by done. rewrite (filter_cons_True (fun x => x <> (t, er))) by done. cbn. lia.
Qed.
Lemma grouped_elem l r f : grouped l r -> f ∈ r -> (fl_type f, fl_error f) ∈ l.
Proof.
  induction 1 as [|t er l r n H IH Hn]; intros Hin; [by apply elem_of_nil in Hin|].
  apply elem_of_cons in Hin. destruct Hin as [->|Hin]; [by left|]. right. apply IH in Hin. apply elem_of_list_filter in Hin. apply Hin.
Qed.
Lemma grouped_distinct l r : grouped l r -> NoDup (map (fun f => (fl_type f, fl_error f)) r).
Proof.
  induction 1 as [|t er l r n H IH Hn]; cbn; constructor; [|done].
  intros Hin. apply elem_of_list_fmap in Hin. destruct Hin as (f & Hf & Hin). apply (grouped_elem _ _ _ H) in Hin.
  apply elem_of_list_filter in Hin. destruct Hin as [Hne _]. cbn in Hf. congruence.
Qed.
Lemma grouped_count l r f : grouped l r -> f ∈ r -> fl_count f = length (filter (fun x => x = (fl_type f, fl_error f)) l).
Proof.
  induction 1 as [|t er l r n H IH Hn]; intros Hin; [by apply elem_of_nil in Hin|].
  apply elem_of_cons in Hin. destruct Hin as [->|Hin].
  - cbn [fl_type fl_error fl_count]. rewrite (filter_cons_True _ (t, er)) by done. done.
  - rewrite (IH Hin). assert (Hne := grouped_elem _ _ _ H Hin). apply elem_of_list_filter in Hne. destruct Hne as [Hne _].
    rewrite (filter_cons_False (fun x => x = _) (t, er)) by congruence. clear -Hne.
    induction l as [|x l IH]; [done|]. destruct (decide (x = (t, er))) as [->|Hx].
    + rewrite (filter_cons_False (fun x => x <> (t, er))) by tauto. rewrite (filter_cons_False (fun x => x = _)) by congruence. done.
    + rewrite (filter_cons_True (fun x => x <> (t, er))) by done. destruct (decide (x = (fl_type f, fl_error f))) as [Hy|Hy].
      * rewrite !(filter_cons_True (fun x => x = _) x) by done. cbn. by rewrite IH.
      * rewrite !(filter_cons_False (fun x => x = _) x) by done. done.
Qed.
End Report.
