(** * Lemmas for C85: the life of predicates *)
From Verif Require Import PredProtoModel PredProtoSpec PredProtoLemmas PredProtoReport.

Section PredProtoProof.
Context {W F Er Ab Rp : Type}.
Notation UEv := (UEv F Er Ab Rp).
Notation UExp := (UExp W F Er Ab Rp).
Notation UPred := (UPred W F Er Ab Rp).
Notation UAct := (UAct W F Er Ab).
Notation Cm := (@Cm W F Er Ab Rp).
Implicit Types (tr t : list UEv) (i n : nat) (w : W).

(** What follows Done(). *)
Definition tail (p : UPred) w (ra : option Er + Ab) (rd : unit + Ab) (rest : list UEv) (r : bool + Ab) : Prop :=
  (rest = [] /\ (exists v, r = inr v) /\ ((exists v, rd = inr v) \/ (exists v, ra = inr v))) \/
  (exists er, ra = inl (Some er) /\ rd = inl tt /\ rest = [UvFatal (inr er)] /\ r = inl false) \/
  (ra = inl None /\ rd = inl tt /\
   exists w1 tk rk, ok p w = (w1, tk, rk) /\
   match rk with
   | inr v => rest = tk /\ r = inr v
   | inl tree => exists w2 tp rp, report (mkRCtx tree false) p w1 = (w2, tp, rp) /\
       match rp with
       | inr v => rest = tk ++ tp /\ r = inr v
       | inl rep => rest = tk ++ tp ++ UvLog rep :: (if tree then [] else [UvFailNow]) /\ r = inl tree
       end
   end).

Lemma expect_shape (e : UExp) (a : UAct) w w' tr r :
  expect e a w = (w', tr, r) ->
  (exists tn w1 rn, new e 0 w = (w1, tn, rn) /\ (forall n p, rn <> inl (n, inl p)) /\ r <> inl true /\
     (tr = tn \/ exists er, tr = tn ++ [UvFatal (inl er)])) \/
  (exists p n w1 tn w2 ta ra w3 td rd rest,
     new e 0 w = (w1, tn, inl (n, inl p)) /\ act_run p a w1 = (w2, ta, ra) /\ done_ p w2 = (w3, td, rd) /\
     tr = tn ++ ta ++ td ++ rest /\ tail p w3 ra rd rest r).
Proof.
  unfold expect. intros E.
  apply bnd_inv in E as [(v & E & ->)|([n rn] & w1 & tn & t2 & E1 & E2 & ->)].
  { left. exists tr, w', (inr v). repeat split; [done | done | done | by left]. }
  destruct rn as [p|er].
  2:{ left. exists tn, w1, (inl (n, inr er)). apply bnd_inv in E2 as [(v & E & [=])|([] & w2 & t3 & t4 & E2 & E3 & ->)].
      { unfold emit in E. discriminate. }
      injection E2 as <- <-. injection E3 as <- <- <-. repeat split; [done | done | done|]. right. by exists er. }
  right. exists p, n, w1, tn.
  destruct (act_run p a w1) as [[w2 ta] ra] eqn:Ea. destruct (done_ p w2) as [[w3 td] rd] eqn:Ed.
  exists w2, ta, ra, w3, td, rd.
  apply bnd_inv in E2 as [(v & E & ->)|(x & w4 & t3 & t4 & E2 & E3 & ->)]; unfold deferring in *; rewrite Ea, Ed in *.
  { injection E as <- <- E. exists []. rewrite app_nil_r. repeat split; [done..|]. left. repeat split; [by eexists|].
    destruct rd as [[]|v']; [right; by exists v | left; by exists v']. }
  injection E2 as <- <- E2. destruct rd as [[]|v']; [|discriminate]. subst ra.
  destruct x as [er|].
  - apply bnd_inv in E3 as [(v & E & _)|([] & w5 & t5 & t6 & E3 & E4 & ->)]; [unfold emit in E; discriminate|].
    injection E3 as <- <-. injection E4 as <- <- <-. exists [UvFatal (inr er)].
    split; [done|]. split; [done|]. split; [done|]. split; [by rewrite <-app_assoc|]. right. left. by exists er.
  - exists t4. split; [done|]. split; [done|]. split; [done|]. split; [by rewrite <-app_assoc|]. right. right. split; [done|]. split; [done|].
    apply bnd_inv in E3 as [(v & E & ->)|(tree & w5 & tk & t6 & E3 & E4 & ->)].
    { exists w', t4, (inr v). by repeat split. }
    exists w5, tk, (inl tree). split; [done|].
    apply bnd_inv in E4 as [(v & E & ->)|(rep & w6 & tp & t7 & E4 & E5 & ->)].
    { exists w', t6, (inr v). by repeat split. }
    exists w6, tp, (inl rep). split; [done|].
    apply bnd_inv in E5 as [(v & E & _)|([] & w7 & t8 & t9 & E5 & E6 & ->)]; [unfold emit in E; discriminate|].
    injection E5 as <- <-. destruct tree.
    + injection E6 as <- <- <-. by split.
    + apply bnd_inv in E6 as [(v & E & _)|([] & w8 & t10 & t11 & E6 & E7 & ->)]; [unfold emit in E; discriminate|].
      injection E6 as <- <-. by injection E7 as <- <- <-.
Qed.

(** ** The calls of one predicate *)

Lemma calls_app i t1 t2 : calls i (t1 ++ t2) = calls i t1 ++ calls i t2.
Proof. apply filter_app. Qed.
Lemma calls_none i t : (forall ev, ev ∈ t -> ev_id ev <> Some i) -> calls i t = [].
Proof.
  induction t as [|ev t IH]; intros H; [done|]. unfold calls. rewrite filter_cons_False; [|apply H; by constructor].
  apply IH. intros ev' Hev. apply H. by constructor.
Qed.
Lemma calls_forall i t (Q : UEv -> Prop) : Forall Q t -> Forall Q (calls i t).
Proof. intros H. apply Forall_forall. intros ev Hev. apply elem_of_list_filter in Hev as [_ Hev]. rewrite Forall_forall in H. auto. Qed.

Lemma calls_nodup i t : NoDup (map ev_id t) ->
  calls i t = [] \/ exists ev, ev ∈ t /\ ev_id ev = Some i /\ calls i t = [ev].
Proof.
  induction t as [|ev t IH]; intros Hn; [by left|]. cbn in Hn. apply NoDup_cons in Hn as [Hni Hn].
  destruct (decide (ev_id ev = Some i)) as [Hi|Hi].
  - right. exists ev. split; [by constructor|]. split; [done|]. unfold calls. rewrite filter_cons_True by done.
    f_equal. apply calls_none. intros ev' Hev Hi'. apply Hni. rewrite Hi, <-Hi'. by apply elem_of_list_fmap_1.
  - destruct (IH Hn) as [H|(ev' & Hev & Hi' & H)].
    + left. unfold calls. by rewrite filter_cons_False.
    + right. exists ev'. split; [by constructor|]. split; [done|]. unfold calls. by rewrite filter_cons_False.
Qed.
Lemma calls_in i t ev : ev ∈ t -> ev_id ev = Some i -> ev ∈ calls i t.
Proof. intros H1 H2. by apply elem_of_list_filter. Qed.

Lemma NoDup_some (l : list nat) : NoDup l -> NoDup (map Some l).
Proof. apply NoDup_fmap_2. apply _. Qed.
Lemma news_nodup n t : news n t -> NoDup (map ev_id t).
Proof. intros [-> _]. apply NoDup_some, NoDup_seq. Qed.

Lemma news_calls n t i : news n t -> calls i t = [] \/ exists r, calls i t = [UvNew i r].
Proof.
  intros H. destruct (calls_nodup i t (news_nodup _ _ H)) as [E|(ev & Hev & Hi & E)]; [by left|]. right.
  destruct H as [_ H]. rewrite Forall_forall in H. apply H in Hev. destruct ev; try done. cbn in Hi. injection Hi as ->. eauto.
Qed.
Lemma news_calls_in n t i : news n t -> Forall good_new t -> i ∈ seq n (length t) -> calls i t = [UvNew i (inl None)].
Proof.
  intros H Hg Hi. destruct (calls_nodup i t (news_nodup _ _ H)) as [E|(ev & Hev & Hi' & E)].
  - exfalso. assert (Some i ∈ map ev_id t) as Hin.
    { destruct H as [-> _]. by apply (elem_of_list_fmap_1 Some). }
    apply elem_of_list_fmap in Hin as (ev & Hev & Hin). apply (calls_in i) in Hin; [|done]. rewrite E in Hin. by apply elem_of_nil in Hin.
  - rewrite E. rewrite Forall_forall in Hg. apply Hg in Hev. destruct ev as [j [[er|]|v]| | | | | | | |]; try done. cbn in Hi'. by injection Hi' as ->.
Qed.
Lemma news_calls_out n t i : news n t -> i ∉ seq n (length t) -> calls i t = [].
Proof.
  intros [H _] Hi. apply calls_none. intros ev Hev E. apply Hi.
  assert (ev_id ev ∈ map ev_id t) as Hin by (by apply elem_of_list_fmap_1). rewrite H, E in Hin.
  apply elem_of_list_fmap in Hin as (j & [= ->] & Hj). done.
Qed.

Lemma visit_ids ev l t r :
  (forall i r, ev_id (ev i r) = Some i) -> visit ev l t r -> exists l1 l2, l = l1 ++ l2 /\ map ev_id t = map Some l1.
Proof.
  intros He. destruct r as [[]|v]; cbn.
  - intros ->. exists l, []. rewrite app_nil_r. split; [done|]. rewrite map_map. by apply map_ext.
  - intros (l1 & i & l2 & -> & ->). exists (l1 ++ [i]), l2. split; [by rewrite <-app_assoc|].
    rewrite !map_app, map_map. cbn. rewrite He. f_equal. by apply map_ext.
Qed.
Lemma done_calls l t r i : NoDup l -> visit UvDone l t r -> calls i t = [] \/ exists d, calls i t = [UvDone i d].
Proof.
  intros Hn H. destruct (visit_ids UvDone l t r (fun _ _ => eq_refl) H) as (l1 & l2 & -> & E).
  apply NoDup_app in Hn as (Hn & _). assert (NoDup (map ev_id t)) as Hnd by (rewrite E; by apply NoDup_some).
  destruct (calls_nodup i t Hnd) as [Ec|(ev & Hev & Hi & Ec)]; [by left|].
  right. assert (exists j d, ev = UvDone j d) as (j & d & ->).
  { destruct r as [[]|v]; cbn in H.
    - subst t. apply elem_of_list_In, in_map_iff in Hev as (j & <- & _). eauto.
    - destruct H as (a & j & b & _ & ->). apply elem_of_app in Hev as [Hev|Hev].
      + apply elem_of_list_In, in_map_iff in Hev as (k & <- & _). eauto.
      + apply elem_of_list_singleton in Hev as ->. eauto. }
  cbn in Hi. injection Hi as ->. eauto.
Qed.
Lemma done_calls_ok l t i : NoDup l -> visit UvDone l t (inl tt) -> i ∈ l -> calls i t = [UvDone i (inl tt)].
Proof.
  intros Hn H Hi. pose proof (done_calls _ _ _ i Hn H) as Hc.
  cbn in H. subst t. assert (UvDone i (inl tt) ∈ calls i (map (fun i => UvDone i (inl tt) : UEv) l)) as Hin.
  { apply calls_in; [|done]. apply elem_of_list_In, in_map_iff. exists i. split; [done|]. by apply elem_of_list_In. }
  destruct Hc as [E|[d E]]; rewrite E in Hin |- *.
  - by apply elem_of_nil in Hin.
  - apply elem_of_list_singleton in Hin as ->. done.
Qed.
Lemma visit_calls_out ev l t r i :
  (forall i r, ev_id (ev i r) = Some i) -> visit ev l t r -> i ∉ l -> calls i t = [].
Proof.
  intros He H Hi. destruct (visit_ids _ _ _ _ He H) as (l1 & l2 & -> & E).
  apply calls_none. intros e Hev Ei. apply Hi, elem_of_app. left.
  assert (ev_id e ∈ map ev_id t) as Hin by (by apply elem_of_list_fmap_1). rewrite E, Ei in Hin.
  by apply elem_of_list_fmap in Hin as (j & [= ->] & Hj).
Qed.

Lemma noted_calls l t i : noted l t -> Forall is_notify (calls i t).
Proof.
  induction 1 as [|f tb rb t Hv H IH]; [constructor|].
  unfold calls. rewrite filter_cons_False by done. rewrite filter_app. apply Forall_app_2; [|exact IH].
  apply calls_forall. destruct rb as [[]|v]; cbn in Hv.
  - subst tb. apply Forall_forall. intros ev Hev. by apply elem_of_list_In, in_map_iff in Hev as (j & <- & _).
  - destruct Hv as (l1 & j & l2 & _ & ->). apply Forall_app_2; [|by repeat constructor].
    apply Forall_forall. intros ev Hev. by apply elem_of_list_In, in_map_iff in Hev as (k & <- & _).
Qed.
Lemma noted_calls_out l t i : noted l t -> i ∉ l -> calls i t = [].
Proof.
  induction 1 as [|f tb rb t Hv H IH]; intros Hi; [done|].
  unfold calls. rewrite filter_cons_False by done. rewrite filter_app. change (calls i tb ++ calls i t = []).
  rewrite (visit_calls_out (fun i => UvNotify i f) l tb rb i (fun _ _ => eq_refl) Hv Hi). by apply IH.
Qed.

Lemma oks_calls l t i : oks l t -> Forall is_ok (calls i t).
Proof. intros H. apply calls_forall. eapply Forall_impl; [exact H|]. by intros ev (j & r & -> & _). Qed.

Lemma reporters_calls i t : reporters (calls i t) = filter (fun j => j = i) (reporters t).
Proof.
  induction t as [|ev t IH]; [done|]. unfold calls in *. destruct (decide (ev_id ev = Some i)) as [Hi|Hi].
  - rewrite filter_cons_True by done. destruct ev; cbn in Hi |- *; try exact IH. injection Hi as ->.
    change (i :: reporters (calls i t) = filter (fun j => j = i) (i :: reporters t)). rewrite filter_cons_True by done. by rewrite <-IH.
  - rewrite filter_cons_False by done. destruct ev; cbn in Hi |- *; try exact IH.
    change (reporters (calls i t) = filter (fun j => j = i) (i0 :: reporters t)). rewrite filter_cons_False by congruence. exact IH.
Qed.
Lemma filter_nodup i (l : list nat) : NoDup l -> length (filter (fun j => j = i) l) <= 1.
Proof.
  induction 1 as [|j l Hj Hl IH]; [cbn; lia|]. destruct (decide (j = i)) as [->|Hne].
  - rewrite filter_cons_True by done. cbn. assert (filter (fun j => j = i) l = []) as ->; [|cbn; lia].
    clear -Hj. induction l as [|k l IH]; [done|]. rewrite filter_cons_False; [apply IH; set_solver | set_solver].
  - by rewrite filter_cons_False.
Qed.
Lemma sublist_nodup (l k : list nat) : l `sublist_of` k -> NoDup k -> NoDup l.
Proof.
  induction 1 as [|x l k Hs IH|x l k Hs IH]; intros Hn; [constructor| |].
  - apply NoDup_cons in Hn as [Hx Hn]. constructor; [|by apply IH]. intros Hl. apply Hx.
    eapply elem_of_submseteq; [exact Hl|]. by apply sublist_submseteq.
  - apply NoDup_cons in Hn as [_ Hn]. by apply IH.
Qed.
Lemma split_reports i (L : list UEv) :
  Forall (fun ev => (exists r, ev = UvOk i r) \/ (exists c r, ev = UvReport i c r)) L -> length (reporters L) <= 1 ->
  exists os rs os', L = os ++ rs ++ os' /\ Forall is_ok os /\ Forall is_ok os' /\
    (rs = [] \/ exists c x, rs = [UvReport i c x]).
Proof.
  assert (forall L : list UEv, Forall (fun ev => (exists r, ev = UvOk i r) \/ (exists c r, ev = UvReport i c r)) L ->
    reporters L = [] -> Forall is_ok L) as H0.
  { induction 1 as [|ev L' [[r ->]|(c & r & ->)] HL IH]; intros E; [constructor | constructor; [done | exact (IH E)] | done]. }
  induction 1 as [|ev L' [[r ->]|(c & r & ->)] HL IH]; intros Hl.
  - exists [], [], []. repeat split; [constructor | constructor | by left].
  - destruct (IH Hl) as (os & rs & os' & -> & H1 & H2 & H3). exists (UvOk i r :: os), rs, os'.
    repeat split; [by constructor | done | done].
  - exists [], [UvReport i c r], L'. repeat split; [constructor | | right; eauto].
    apply H0; [done|]. cbn in Hl. change (S (length (reporters L')) <= 1) in Hl. destruct (reporters L'); [done | cbn in Hl; lia].
Qed.
Lemma reps_calls l t i : NoDup l -> reps l t ->
  exists os rs os', calls i t = os ++ rs ++ os' /\ Forall is_ok os /\ Forall is_ok os' /\
    (rs = [] \/ exists c x, rs = [UvReport i c x]).
Proof.
  intros Hn [H Hs]. apply split_reports.
  - apply Forall_forall. intros ev Hev. apply elem_of_list_filter in Hev as [Hi Hev]. rewrite Forall_forall in H.
    destruct (H _ Hev) as [(j & r & -> & _)|(j & c & r & -> & _)]; cbn in Hi; injection Hi as ->; eauto.
  - rewrite reporters_calls. apply filter_nodup. by eapply sublist_nodup.
Qed.
Lemma reps_calls_out l t i : reps l t -> i ∉ l -> calls i t = [].
Proof.
  intros [H _] Hi. apply calls_none. intros ev Hev E. rewrite Forall_forall in H.
  destruct (H _ Hev) as [(j & r & -> & Hj)|(j & c & r & -> & Hj)]; cbn in E; injection E as ->; done.
Qed.
Lemma oks_calls_out l t i : oks l t -> i ∉ l -> calls i t = [].
Proof. intros H. by apply reps_calls_out, oks_reps. Qed.

Lemma tail_calls p w ra rd rest r i : NoDup (ids p) -> tail p w ra rd rest r ->
  (rd = inl tt \/ rest = []) /\
  (i ∉ ids p -> calls i rest = []) /\
  exists os rs os', calls i rest = os ++ rs ++ os' /\ Forall is_ok os /\ Forall is_ok os' /\
    (rs = [] \/ exists c x, rs = [UvReport i c x]).
Proof.
  intros Hn [(-> & _ & _)|[(er & _ & -> & -> & _)|(_ & -> & w1 & tk & rk & Ek & H)]].
  - split; [by right|]. split; [done|]. exists [], [], []. repeat split; [constructor | constructor | by left].
  - split; [by left|]. split; [done|]. exists [], [], []. repeat split; [constructor | constructor | by left].
  - split; [by left|]. pose proof (ok_oks _ _ _ _ _ Ek) as Hk. destruct rk as [tree|v].
    + destruct H as (w2 & tp & rp & Ep & H). pose proof (report_reps _ _ _ _ _ _ Ep) as Hp.
      assert (calls i rest = calls i (tk ++ tp)) as ->.
      { destruct rp as [rep|v]; destruct H as [-> _]; [|done]. rewrite app_assoc, calls_app. rewrite (calls_none i (_ :: _)); [by rewrite app_nil_r|].
        intros ev Hev. destruct tree; repeat (apply elem_of_cons in Hev as [->|Hev]; [done|]); by apply elem_of_nil in Hev. }
      split.
      * intros Hi. rewrite calls_app. rewrite (oks_calls_out _ _ _ Hk Hi). by apply (reps_calls_out _ _ _ Hp).
      * apply (reps_calls (ids p)); [done|]. by apply reps_oks_l.
    + destruct H as [-> _]. split; [by apply oks_calls_out|]. apply (reps_calls (ids p)); [done|]. by apply oks_reps.
Qed.

Lemma expect_life (e : UExp) (a : UAct) w w' tr r i : expect e a w = (w', tr, r) -> life i (calls i tr).
Proof.
  intros E. apply expect_shape in E as [(tn & w1 & rn & En & _ & _ & Ht)|
    (p & n & w1 & tn & w2 & ta & ra & w3 & td & rd & rest & En & Ea & Ed & -> & Ht)].
  - apply new_spec in En as [Hn _].
    assert (calls i tr = calls i tn) as ->.
    { destruct Ht as [->|[er ->]]; [done|]. rewrite calls_app. rewrite (calls_none i [_]); [by rewrite app_nil_r|].
      intros ev Hev. by apply elem_of_list_singleton in Hev as ->. }
    destruct (news_calls _ _ i Hn) as [->|[x ->]]; [by left|]. right.
    exists x, [], [], [], [], []. repeat split; try constructor; done.
  - apply new_spec in En as (Hn & -> & Hids & Hg). apply act_noted in Ea. apply done_visit in Ed.
    assert (NoDup (ids p)) as Hnd by (rewrite Hids; apply NoDup_seq).
    destruct (tail_calls _ _ _ _ _ _ i Hnd Ht) as (Hrd & Hout & os & rs & os' & Erest & H1 & H2 & H3).
    rewrite !calls_app. destruct (decide (i ∈ ids p)) as [Hi|Hi].
    + right. rewrite (news_calls_in _ _ _ Hn Hg) by (by rewrite <-Hids).
      exists (inl None), (calls i ta), (calls i td), os, rs, os'. rewrite Erest. cbn.
      repeat split.
      * by eapply noted_calls.
      * by eapply done_calls.
      * done.
      * done.
      * done.
      * done.
      * done.
      * destruct Hrd as [-> | ->].
        { by rewrite (done_calls_ok _ _ _ Hnd Ed Hi) in H. }
        { by destruct os. }
      * destruct Hrd as [-> | ->].
        { by rewrite (done_calls_ok _ _ _ Hnd Ed Hi) in H. }
        { by destruct os, rs. }
      * destruct Hrd as [-> | ->].
        { by rewrite (done_calls_ok _ _ _ Hnd Ed Hi) in H. }
        { by destruct os, rs, os'. }
    + left. rewrite (news_calls_out _ _ _ Hn) by (by rewrite <-Hids).
      rewrite (noted_calls_out _ _ _ Ea Hi), (Hout Hi).
      by rewrite (visit_calls_out UvDone _ _ _ _ (fun _ _ => eq_refl) Ed Hi).
Qed.

End PredProtoProof.
