(** * Lemmas for C85: Notify() and Done() *)
From Verif Require Import PredProtoModel PredProtoSpec PredProtoLemmas PredProtoReport PredProtoProof.

Section PredProtoFacts.
Context {W F Er Ab Rp : Type}.
Notation UEv := (UEv F Er Ab Rp).
Notation UExp := (UExp W F Er Ab Rp).
Notation UPred := (UPred W F Er Ab Rp).
Notation UAct := (UAct W F Er Ab).
Implicit Types (tr t : list UEv) (i n : nat) (w : W).

Lemma omap_none {A B} (g : A -> option B) (l : list A) : (forall x, x ∈ l -> g x = None) -> omap g l = [].
Proof.
  induction l as [|x l IH]; intros H; [done|]. cbn. rewrite (H x) by (by constructor).
  apply IH. intros y Hy. apply H. by constructor.
Qed.
Lemma omap_id {A B} (g : A -> option B) (h : B -> A) (l : list B) :
  (forall x, g (h x) = Some x) -> omap g (map h l) = l.
Proof. intros H. induction l as [|x l IH]; [done|]. cbn. rewrite H. by f_equal. Qed.

Lemma news_created n t : news n t -> Forall good_new t -> created t = seq n (length t).
Proof.
  intros [H _] Hg. revert n H. induction Hg as [|ev t Hev Hg IH]; intros n H; [done|].
  cbn in H. injection H as H1 H2. destruct ev as [j [[er|]|v]| | | | | | | |]; try done. cbn in H1. injection H1 as ->.
  cbn. f_equal. by apply IH.
Qed.

(** The parts of a trace have the events of their kind only. *)
Lemma news_kind n t ev : news n t -> ev ∈ t -> is_new ev.
Proof. intros [_ H]. rewrite Forall_forall in H. apply H. Qed.
Lemma visit_kind (mk : nat -> unit + Ab -> UEv) l t r ev : visit mk l t r -> ev ∈ t -> exists i x, ev = mk i x.
Proof.
  destruct r as [[]|v]; cbn.
  - intros -> Hev. apply elem_of_list_In, in_map_iff in Hev as (j & <- & _). eauto.
  - intros (l1 & j & l2 & _ & ->) Hev. apply elem_of_app in Hev as [Hev|Hev].
    + apply elem_of_list_In, in_map_iff in Hev as (k & <- & _). eauto.
    + apply elem_of_list_singleton in Hev as ->. eauto.
Qed.
Lemma noted_kind l t ev : noted l t -> ev ∈ t -> is_notify ev \/ exists f, ev = UvFact f.
Proof.
  induction 1 as [|f tb rb t Hv H IH]; intros Hev; [by apply elem_of_nil in Hev|].
  apply elem_of_cons in Hev as [->|Hev]; [right; eauto|]. apply elem_of_app in Hev as [Hev|Hev]; [|auto].
  destruct (visit_kind _ _ _ _ _ Hv Hev) as (i & x & ->). by left.
Qed.
Definition late (ev : UEv) : Prop :=
  match ev with UvOk _ _ | UvReport _ _ _ | UvFatal _ | UvLog _ | UvFailNow => True | _ => False end.
Lemma oks_late l t ev : oks l t -> ev ∈ t -> late ev.
Proof. unfold oks. rewrite Forall_forall. intros H Hev. by destruct (H _ Hev) as (i & r & -> & _). Qed.
Lemma reps_late l t ev : reps l t -> ev ∈ t -> late ev.
Proof.
  intros [H _] Hev. rewrite Forall_forall in H. by destruct (H _ Hev) as [(i & r & -> & _)|(i & c & r & -> & _)].
Qed.
Lemma tail_late p w ra rd rest r ev : tail p w ra rd rest r -> ev ∈ rest -> late ev.
Proof.
  intros [(-> & _ & _)|[(er & _ & -> & -> & _)|(_ & -> & w1 & tk & rk & Ek & H)]] Hev.
  - by apply elem_of_nil in Hev.
  - by apply elem_of_list_singleton in Hev as ->.
  - pose proof (ok_oks _ _ _ _ _ Ek) as Hk. destruct rk as [tree|v].
    + destruct H as (w2 & tp & rp & Ep & H). pose proof (report_reps _ _ _ _ _ _ Ep) as Hp.
      destruct rp as [rep|v]; destruct H as [-> _].
      * apply elem_of_app in Hev as [Hev|Hev]; [by eapply oks_late|].
        apply elem_of_app in Hev as [Hev|Hev]; [by eapply reps_late|].
        destruct tree; repeat (apply elem_of_cons in Hev as [->|Hev]; [done|]); by apply elem_of_nil in Hev.
      * apply elem_of_app in Hev as [Hev|Hev]; [by eapply oks_late | by eapply reps_late].
    + destruct H as [-> _]. by eapply oks_late.
Qed.

(** ** Done() *)

Lemma visit_finished l t r : visit UvDone l t r ->
  exists l2, l = finished t ++ l2 /\ (l2 = [] \/ exists v, r = inr v) /\
    forall v, r = inr v -> exists i, last (finished t) = Some i /\ UvDone i (inr v) ∈ t.
Proof.
  unfold finished. destruct r as [[]|v]; cbn.
  - intros ->. exists []. rewrite (omap_id _ (fun i => UvDone i (inl tt))) by done. rewrite app_nil_r. by repeat split; auto.
  - intros (l1 & i & l2 & -> & ->). exists l2.
    rewrite omap_app, (omap_id _ (fun i => UvDone i (inl tt))) by done. cbn.
    split; [by rewrite <-app_assoc|]. split; [by right; exists v|]. intros v' [= <-]. exists i.
    split; [by rewrite last_snoc|]. apply elem_of_app. right. by apply elem_of_list_singleton.
Qed.

Lemma expect_done (e : UExp) (a : UAct) w w' tr r w1 t1 n p :
  expect e a w = (w', tr, r) -> new e 0 w = (w1, t1, inl (n, inl p)) ->
  created tr = seq 0 n /\
  exists rest, created tr = finished tr ++ rest /\
    (rest = [] \/ exists i v, last (finished tr) = Some i /\ UvDone i (inr v) ∈ tr).
Proof.
  intros E En0. apply expect_shape in E as [(tn & w1' & rn & En & Hrn & _)|
    (p' & n' & w1' & tn & w2 & ta & ra & w3 & td & rd & rest & En & Ea & Ed & -> & Ht)].
  { rewrite En0 in En. injection En as <- <- <-. by destruct (Hrn n p). }
  rewrite En0 in En. injection En as <- <- <- <-.
  apply new_spec in En0 as (Hn & -> & Hids & Hg). apply act_noted in Ea. apply done_visit in Ed. cbn.
  assert (created (t1 ++ ta ++ td ++ rest) = seq 0 (length t1)) as Hcr.
  { unfold created. rewrite !omap_app. change (omap _ t1) with (created t1). rewrite (news_created _ _ Hn Hg).
    rewrite !omap_none; [by rewrite app_nil_r| | |].
    - intros ev Hev. eapply tail_late in Ht; [|exact Hev]. by destruct ev.
    - intros ev Hev. by destruct (visit_kind _ _ _ _ _ Ed Hev) as (j & x & ->).
    - intros ev Hev. destruct (noted_kind _ _ _ Ea Hev) as [H|[f ->]]; [by destruct ev | done]. }
  assert (finished (t1 ++ ta ++ td ++ rest) = finished td) as Hf.
  { unfold finished. rewrite !omap_app. rewrite (omap_none _ t1), (omap_none _ ta), (omap_none _ rest); [by rewrite app_nil_r| | |].
    - intros ev Hev. eapply tail_late in Ht; [|exact Hev]. by destruct ev.
    - intros ev Hev. destruct (noted_kind _ _ _ Ea Hev) as [H|[f ->]]; [by destruct ev | done].
    - intros ev Hev. pose proof (news_kind _ _ _ Hn Hev). by destruct ev. }
  rewrite Hcr, Hf. split; [done|]. rewrite <-Hids.
  destruct (visit_finished _ _ _ Ed) as (l2 & El & H2 & H3). exists l2. split; [done|].
  destruct H2 as [H2|[v Hv]]; [by left|]. right. destruct (H3 v Hv) as (i & Hl & Hi). exists i, v. split; [done|].
  rewrite !elem_of_app. auto.
Qed.

(** If Predicate() of the expectation fails, the action is not performed and nothing else is
    called. *)
Lemma expect_new_fails (e : UExp) (a : UAct) w w' tr r :
  expect e a w = (w', tr, r) -> (forall w1 t1 n p, new e 0 w <> (w1, t1, inl (n, inl p))) ->
  r <> inl true /\ Forall (fun ev => is_new ev \/ exists er, ev = UvFatal (inl er)) tr.
Proof.
  intros E Hf. apply expect_shape in E as [(tn & w1 & rn & En & Hrn & Hr & Ht)|
    (p & n & w1 & tn & w2 & ta & ra & w3 & td & rd & rest & En & _)].
  2:{ by destruct (Hf w1 tn n p). }
  split; [done|]. apply new_spec in En as [[_ Hn] _].
  assert (Forall (fun ev : UEv => is_new ev \/ exists er, ev = UvFatal (inl er)) tn) as H.
  { eapply Forall_impl; [exact Hn|]. auto. }
  destruct Ht as [->|[er ->]]; [done|]. apply Forall_app_2; [done|]. constructor; [right; eauto | constructor].
Qed.

(** ** Notify() *)

Lemma facts_of_app i t1 t2 : facts_of i (t1 ++ t2) = facts_of i t1 ++ facts_of i t2.
Proof. apply omap_app. Qed.
Lemma facts_of_map_in i f l : NoDup l -> i ∈ l ->
  facts_of i (map (fun j => UvNotify j f (inl tt) : UEv) l) = [f].
Proof.
  intros Hn Hi. induction Hn as [|j l Hj Hn IH]; [by apply elem_of_nil in Hi|]. cbn.
  destruct (decide (j = i)) as [->|Hne].
  - change (f :: facts_of i (map (fun j => UvNotify j f (inl tt) : UEv) l) = [f]). f_equal. apply omap_none. intros ev Hev.
    apply elem_of_list_In, in_map_iff in Hev as (k & <- & Hk). rewrite decide_False; [done|]. intros ->. apply Hj. by apply elem_of_list_In.
  - apply IH. apply elem_of_cons in Hi as [->|Hi]; [done | done].
Qed.
Lemma facts_of_map_out i f l : i ∉ l -> facts_of i (map (fun j => UvNotify j f (inl tt) : UEv) l) = [].
Proof.
  intros Hi. apply omap_none. intros ev Hev. apply elem_of_list_In, in_map_iff in Hev as (k & <- & Hk).
  rewrite decide_False; [done|]. intros ->. apply Hi. by apply elem_of_list_In.
Qed.
(** A block: one fact. *)
Lemma visit_facts k f t r i : visit (fun j => UvNotify j f) (seq 0 k) t r -> i < k ->
  facts_of i t `sublist_of` [f] /\
  ((forall j v, j < i -> UvNotify j f (inr v) ∉ t) -> facts_of i t = [f]).
Proof.
  intros H Hi. assert (i ∈ seq 0 k) as Hin by (apply elem_of_seq; lia).
  destruct r as [[]|v]; cbn in H.
  - subst t. rewrite facts_of_map_in; [done | apply NoDup_seq | done].
  - destruct H as (l1 & j & l2 & El & ->). rewrite facts_of_app. pose proof (NoDup_seq 0 k) as Hn. rewrite El in Hn, Hin.
    apply NoDup_app in Hn as (Hn1 & Hn2 & Hn3).
    assert (l1 = seq 0 j /\ j < k) as [-> Hj].
    { assert (k = length l1 + S (length l2)) as Ek.
      { apply (f_equal length) in El. rewrite seq_length, app_length in El. exact El. }
      rewrite Ek, seq_app in El. apply app_inj_1 in El as [E1 E2]; [|by rewrite seq_length]. cbn in E2. injection E2 as E2 _.
      subst j. split; [done | lia]. }
    destruct (decide (i < j)) as [Hlt|Hge].
    + rewrite facts_of_map_in; [|done|apply elem_of_seq; lia]. cbn. rewrite decide_False by lia. done.
    + rewrite facts_of_map_out by (rewrite elem_of_seq; lia). cbn. destruct (decide (j = i)) as [->|Hne]; [done|].
      split; [apply sublist_nil_l|]. intros Hab. exfalso. eapply (Hab j v); [lia|]. apply elem_of_app. right. by apply elem_of_list_singleton.
Qed.
Lemma noted_facts k t i : noted (seq 0 k) t -> i < k ->
  facts_of i t `sublist_of` action_facts t /\
  ((forall j f v, j < i -> UvNotify j f (inr v) ∉ t) -> facts_of i t = action_facts t).
Proof.
  intros H Hi. induction H as [|f tb rb t Hv H [IH1 IH2]]; [done|].
  assert (action_facts (UvFact f :: tb ++ t) = f :: action_facts t) as ->.
  { unfold action_facts. cbn. f_equal. rewrite omap_app, omap_none; [done|]. intros ev Hev.
    by destruct (visit_kind _ _ _ _ _ Hv Hev) as (j & x & ->). }
  change (facts_of i (UvFact f :: tb ++ t)) with (facts_of i (tb ++ t)). rewrite facts_of_app.
  destruct (visit_facts _ _ _ _ _ Hv Hi) as [H1 H2]. split.
  - apply (sublist_app _ [f]); done.
  - intros Hab. rewrite H2, IH2; [done| |].
    + intros j f' v Hj Hin. apply (Hab j f' v Hj). apply elem_of_cons. right. apply elem_of_app. by right.
    + intros j v Hj Hin. apply (Hab j f v Hj). apply elem_of_cons. right. apply elem_of_app. by left.
Qed.

Lemma expect_facts (e : UExp) (a : UAct) w w' tr r w1 t1 n p i :
  expect e a w = (w', tr, r) -> new e 0 w = (w1, t1, inl (n, inl p)) -> i < n ->
  facts_of i tr `sublist_of` action_facts tr /\
  ((forall j f v, j < i -> UvNotify j f (inr v) ∉ tr) -> facts_of i tr = action_facts tr).
Proof.
  intros E En0 Hi. apply expect_shape in E as [(tn & w1' & rn & En & Hrn & _)|
    (p' & n' & w1' & tn & w2 & ta & ra & w3 & td & rd & rest & En & Ea & Ed & -> & Ht)].
  { rewrite En0 in En. injection En as <- <- <-. by destruct (Hrn n p). }
  rewrite En0 in En. injection En as <- <- <- <-.
  apply new_spec in En0 as (Hn & -> & Hids & Hg). apply act_noted in Ea. apply done_visit in Ed. cbn in Hi.
  assert (facts_of i (t1 ++ ta ++ td ++ rest) = facts_of i ta) as ->.
  { rewrite !facts_of_app. unfold facts_of. rewrite (omap_none _ t1), (omap_none _ td), (omap_none _ rest); [by rewrite app_nil_r| | |].
    - intros ev Hev. eapply tail_late in Ht; [|exact Hev]. by destruct ev.
    - intros ev Hev. by destruct (visit_kind _ _ _ _ _ Ed Hev) as (j & x & ->).
    - intros ev Hev. pose proof (news_kind _ _ _ Hn Hev). by destruct ev. }
  assert (action_facts (t1 ++ ta ++ td ++ rest) = action_facts ta) as ->.
  { unfold action_facts. rewrite !omap_app. rewrite (omap_none _ t1), (omap_none _ td), (omap_none _ rest); [by rewrite app_nil_r| | |].
    - intros ev Hev. eapply tail_late in Ht; [|exact Hev]. by destruct ev.
    - intros ev Hev. by destruct (visit_kind _ _ _ _ _ Ed Hev) as (j & x & ->).
    - intros ev Hev. pose proof (news_kind _ _ _ Hn Hev). by destruct ev. }
  rewrite Hids in Ea. destruct (noted_facts _ _ _ Ea Hi) as [H1 H2]. split; [done|].
  intros Hab. apply H2. intros j f v Hj Hin. apply (Hab j f v Hj). rewrite !elem_of_app. auto.
Qed.

(** ** The verdict *)

Lemma consistent_sub ans t tr : (forall ev, ev ∈ t -> ev ∈ tr) -> consistent ans tr -> consistent ans t.
Proof. intros H Hc i r Hi. apply Hc, H, Hi. Qed.

Lemma expect_verdict (e : UExp) (a : UAct) w w' tr r ans rep :
  expect e a w = (w', tr, r) -> consistent ans tr -> UvLog rep ∈ tr ->
  exists w1 t1 n p, new e 0 w = (w1, t1, inl (n, inl p)) /\
    r = inl (holds ans p) /\
    (UvFailNow ∈ tr <-> holds ans p = false) /\
    describes ans tr (holds ans p) false p rep /\
    reporters tr = asked ans p.
Proof.
  intros E Hc Hlog. apply expect_shape in E as [(tn & w1 & rn & En & Hrn & _ & Ht)|
    (p & n & w1 & tn & w2 & ta & ra & w3 & td & rd & rest & En & Ea & Ed & -> & Ht)].
  { exfalso. apply new_spec in En as [[_ Hn] _]. rewrite Forall_forall in Hn.
    assert (UvLog rep ∈ tn) as Hin; [|by apply Hn in Hin].
    destruct Ht as [->|[er ->]]; [done|]. apply elem_of_app in Hlog as [?|Hin]; [done|]. by apply elem_of_list_singleton in Hin. }
  exists w1, tn, n, p. split; [done|].
  apply new_spec in En as (Hn & -> & Hids & Hg). apply act_noted in Ea. apply done_visit in Ed.
  assert (forall ev, (match ev with UvLog _ | UvFailNow | UvReport _ _ _ => True | _ => False end) ->
    ev ∈ tn ++ ta ++ td ++ rest -> ev ∈ rest) as Hrest.
  { intros ev Hl Hev. apply elem_of_app in Hev as [Hev|Hev].
    { pose proof (news_kind _ _ _ Hn Hev). by destruct ev. }
    apply elem_of_app in Hev as [Hev|Hev].
    { destruct (noted_kind _ _ _ Ea Hev) as [H|[f ->]]; [by destruct ev | done]. }
    apply elem_of_app in Hev as [Hev|Hev]; [|done].
    by destruct (visit_kind _ _ _ _ _ Ed Hev) as (j & x & ->). }
  pose proof (Hrest (UvLog rep) I Hlog) as Hlog'.
  assert (reporters (tn ++ ta ++ td ++ rest) = reporters rest) as Hrp.
  { unfold reporters. rewrite !omap_app. rewrite (omap_none _ tn), (omap_none _ ta), (omap_none _ td); [done| | |].
    - intros ev Hev. by destruct (visit_kind _ _ _ _ _ Ed Hev) as (j & x & ->).
    - intros ev Hev. destruct (noted_kind _ _ _ Ea Hev) as [H|[f ->]]; [by destruct ev | done].
    - intros ev Hev. pose proof (news_kind _ _ _ Hn Hev). by destruct ev. }
  destruct Ht as [(-> & _ & _)|[(er & _ & -> & -> & _)|(_ & -> & w4 & tk & rk & Ek & H)]].
  { by apply elem_of_nil in Hlog'. } { by apply elem_of_list_singleton in Hlog'. }
  assert (forall ev, ev ∈ rest -> ev ∈ tn ++ ta ++ td ++ rest) as Hsub by (intros ev Hev; rewrite !elem_of_app; auto).
  pose proof (ok_oks _ _ _ _ _ Ek) as Hk. destruct rk as [tree|v].
  2:{ destruct H as [-> _]. unfold oks in Hk. rewrite Forall_forall in Hk. by destruct (Hk _ Hlog') as (? & ? & ? & _). }
  destruct H as (w5 & tp & rp & Ep & H). pose proof (report_reps _ _ _ _ _ _ Ep) as Hp.
  destruct rp as [rep'|v].
  2:{ destruct H as [-> _]. exfalso. apply elem_of_app in Hlog' as [Hl|Hl].
      - unfold oks in Hk. rewrite Forall_forall in Hk. by destruct (Hk _ Hl) as (? & ? & ? & _).
      - destruct Hp as [Hp _]. rewrite Forall_forall in Hp. by destruct (Hp _ Hl) as [(? & ? & ? & _)|(? & ? & ? & ? & _)]. }
  destruct H as [-> ->].
  assert (consistent ans tk) as Hck by (eapply consistent_sub; [|exact Hc]; intros ev Hev; apply Hsub; rewrite elem_of_app; auto).
  assert (consistent ans tp) as Hcp by (eapply consistent_sub; [|exact Hc]; intros ev Hev; apply Hsub; rewrite !elem_of_app; auto).
  pose proof (ok_holds ans _ _ _ _ _ Ek Hck) as [= Htree]. rewrite <-Htree.
  assert (rep' = rep) as ->.
  { apply elem_of_app in Hlog' as [Hl|Hl]; [unfold oks in Hk; rewrite Forall_forall in Hk; by destruct (Hk _ Hl) as (? & ? & ? & _)|].
    apply elem_of_app in Hl as [Hl|Hl].
    - destruct Hp as [Hp _]. rewrite Forall_forall in Hp. by destruct (Hp _ Hl) as [(? & ? & ? & _)|(? & ? & ? & ? & _)].
    - apply elem_of_cons in Hl as [[= <-]|Hl]; [done|]. destruct tree; [by apply elem_of_nil in Hl | by apply elem_of_list_singleton in Hl]. }
  split; [done|].
  destruct (report_ok ans p _ _ _ _ _ (tn ++ ta ++ td ++ tk ++ tp ++ UvLog rep :: (if tree then [] else [UvFailNow])) Ep Hcp) as [D R].
  { intros ev Hev. apply Hsub. rewrite !elem_of_app. auto. }
  split; [|split; [exact D|]].
  - split.
    + intros Hfn. apply (Hrest UvFailNow I) in Hfn.
      apply elem_of_app in Hfn as [Hl|Hl]; [unfold oks in Hk; rewrite Forall_forall in Hk; by destruct (Hk _ Hl) as (? & ? & ? & _)|].
      apply elem_of_app in Hl as [Hl|Hl].
      * destruct Hp as [Hp _]. rewrite Forall_forall in Hp. by destruct (Hp _ Hl) as [(? & ? & ? & _)|(? & ? & ? & ? & _)].
      * apply elem_of_cons in Hl as [Hl|Hl]; [done|]. destruct tree; [by apply elem_of_nil in Hl | done].
    + intros ->. apply Hsub. rewrite !elem_of_app. right. right. right. left.
  - rewrite Hrp. rewrite !reporters_app, (oks_reporters _ _ Hk), R. cbn. rewrite omap_none; [by rewrite app_nil_r|].
    intros ev Hev. destruct tree; [by apply elem_of_nil in Hev | by apply elem_of_list_singleton in Hev as ->].
Qed.

End PredProtoFacts.
