(** * Lemmas for C85: reports *)
From Verif Require Import PredProtoModel PredProtoSpec PredProtoLemmas.

Section PredProtoReport.
Context {W F Er Ab Rp : Type}.
Notation UEv := (UEv F Er Ab Rp).
Notation UExp := (UExp W F Er Ab Rp).
Notation UPred := (UPred W F Er Ab Rp).
Notation Cm := (@Cm W F Er Ab Rp).
Implicit Types (tr t : list UEv) (i n : nat) (w : W).

Lemma reporters_app t1 t2 : reporters (t1 ++ t2) = reporters t1 ++ reporters t2.
Proof. apply omap_app. Qed.
Lemma oks_reporters l t : oks l t -> reporters t = [].
Proof. unfold oks, reporters. induction 1 as [|ev t (i & r & -> & Hi) Ht IH]; [done | exact IH]. Qed.

(** Only Ok() and Report() of the leaves [l] are called, and Report() at most once of each and
    in order. *)
Definition reps (l : list nat) t : Prop :=
  Forall (fun ev => (exists i r, ev = UvOk i r /\ i ∈ l) \/ (exists i c r, ev = UvReport i c r /\ i ∈ l)) t /\
  reporters t `sublist_of` l.
Lemma oks_reps l t : oks l t -> reps l t.
Proof.
  intros H. split; [|rewrite (oks_reporters _ _ H); apply sublist_nil_l].
  eapply Forall_impl; [exact H|]. auto.
Qed.
Lemma reps_app l1 l2 t1 t2 : reps l1 t1 -> reps l2 t2 -> reps (l1 ++ l2) (t1 ++ t2).
Proof.
  intros [H1 S1] [H2 S2]. split; [|rewrite reporters_app; by apply sublist_app].
  apply Forall_app_2; (eapply Forall_impl; [eassumption|]); cbn; intros ev [(i & r & -> & Hi)|(i & c & r & -> & Hi)];
    [left|right|left|right]; repeat eexists; apply elem_of_app; auto.
Qed.
Lemma reps_oks_l l t1 t2 : oks l t1 -> reps l t2 -> reps l (t1 ++ t2).
Proof.
  intros H1 [H2 S2]. split; [|by rewrite reporters_app, (oks_reporters _ _ H1)].
  apply Forall_app_2; [|done]. eapply Forall_impl; [exact H1|]. auto.
Qed.
Lemma reps_oks_r l t1 t2 : reps l t1 -> oks l t2 -> reps l (t1 ++ t2).
Proof.
  intros [H1 S1] H2. split; [|by rewrite reporters_app, (oks_reporters _ _ H2), app_nil_r].
  apply Forall_app_2; [done|]. eapply Forall_impl; [exact H2|]. auto.
Qed.
Lemma reps_nil l : reps l [].
Proof. split; [constructor | apply sublist_nil_l]. Qed.
Lemma reps_extend l1 l2 t : reps l1 t -> reps (l1 ++ l2) t.
Proof. intros H. rewrite <-(app_nil_r t). apply reps_app; [done | apply reps_nil]. Qed.
Lemma reps_extend_l l1 l2 t : reps l2 t -> reps (l1 ++ l2) t.
Proof. intros H. change t with ([] ++ t). apply reps_app; [apply reps_nil | done]. Qed.

Lemma reports_reps (g : UPred -> Cm (URep Rp)) (l : list UPred) :
  Forall (fun p => forall w w' t r, g p w = (w', t, r) -> reps (ids p) t) l ->
  forall w w' t r, reports g l w = (w', t, r) -> reps (ids_list l) t.
Proof.
  induction 1 as [|p l Hp Hl IH]; cbn; intros w w' t r E.
  - injection E as <- <- <-. apply reps_nil.
  - unfold ids_list in *. cbn.
    apply bnd_inv in E as [(v & E & ->)|(b & w1 & t1 & t2 & E1 & E2 & ->)].
    + apply Hp in E. by apply reps_extend.
    + apply Hp in E1. apply reps_app; [done|].
      apply bnd_inv in E2 as [(v & E & ->)|(m & w2 & t3 & t4 & E2 & E3 & ->)].
      * by apply IH in E.
      * apply IH in E2. injection E3 as <- <- <-. by rewrite app_nil_r.
Qed.
Lemma first_failure_shown (g : UPred -> Cm (URep Rp)) (l : list UPred) :
  forall w w' t r, first_failure g l true w = (w', t, r) -> oks (ids_list l) t.
Proof.
  induction l as [|p l IH]; cbn; intros w w' t r E.
  - injection E as <- <- <-. constructor.
  - unfold ids_list in *. cbn.
    apply bnd_inv in E as [(v & E & ->)|(b & w1 & t1 & t2 & E1 & E2 & ->)].
    + apply ok_oks in E. eapply oks_weaken; [|exact E]. set_solver.
    + apply ok_oks in E1. apply Forall_app_2; [eapply oks_weaken; [|exact E1]; set_solver|].
      assert (oks (ids_list l) t2) as H by (destruct b; by eapply IH). eapply oks_weaken; [|exact H]. set_solver.
Qed.
Lemma first_failure_reps (g : UPred -> Cm (URep Rp)) (l : list UPred) :
  Forall (fun p => forall w w' t r, g p w = (w', t, r) -> reps (ids p) t) l ->
  forall w w' t r, first_failure g l false w = (w', t, r) -> reps (ids_list l) t.
Proof.
  induction 1 as [|p l Hp Hl IH]; cbn; intros w w' t r E.
  - injection E as <- <- <-. apply reps_nil.
  - unfold ids_list in *. cbn.
    apply bnd_inv in E as [(v & E & ->)|(b & w1 & t1 & t2 & E1 & E2 & ->)].
    + apply ok_oks in E. by apply reps_extend, oks_reps.
    + apply ok_oks in E1. destruct b.
      * apply reps_app; [by apply oks_reps | by eapply IH].
      * apply bnd_inv in E2 as [(v & E & ->)|(rep & w2 & t3 & t4 & E2 & E3 & ->)].
        -- apply Hp in E. apply reps_extend. by apply reps_oks_l.
        -- apply Hp in E2. rewrite app_assoc. apply reps_app; [by apply reps_oks_l|].
           apply bnd_inv in E3 as [(v & E & ->)|(m & w3 & t5 & t6 & E3 & E4 & ->)].
           ++ apply first_failure_shown in E. by apply oks_reps.
           ++ apply first_failure_shown in E3. injection E4 as <- <- <-. rewrite app_nil_r. by apply oks_reps.
Qed.
Lemma count_ids l : forall w w' t r, count_ok ok l w = (w', t, r) -> oks (ids_list l) t.
Proof. apply count_oks. apply Forall_forall. intros p _. apply ok_oks. Qed.
Lemma report_reps p : forall c w w' t r, report c p w = (w', t, r) -> reps (ids p) t.
Proof.
  induction p as [i u|cn l IH|p IH|l IH] using UPred_ind'; cbn [report]; intros c w w' t r E.
  - assert (forall x, reps [i] [UvReport i c x : UEv]) as Hi.
    { intros x. split; [constructor; [right; repeat eexists; set_solver | constructor] | done]. }
    apply bnd_inv in E as [(v & E & ->)|(x & w1 & t1 & t2 & E1 & E2 & ->)].
    + apply call_inv in E as [-> _]. apply Hi.
    + apply call_inv in E1 as [-> _]. injection E2 as <- <- <-. apply Hi.
  - assert (forall c w w' t r, reports (report c) l w = (w', t, r) -> reps (ids_list l) t) as Hl.
    { intros c'. apply reports_reps. eapply Forall_impl; [exact IH|]. cbn. eauto. }
    apply bnd_inv in E as [(v & E & ->)|(x & w1 & t1 & t2 & E1 & E2 & ->)].
    + apply count_ids in E. by apply oks_reps.
    + apply count_ids in E1. apply reps_oks_l; [done|].
      apply bnd_inv in E2 as [(v & E & ->)|(rs & w2 & t3 & t4 & E2 & E3 & ->)].
      * by eapply Hl.
      * injection E3 as <- <- <-. rewrite app_nil_r. by eapply Hl.
  - apply bnd_inv in E as [(v & E & ->)|(x & w1 & t1 & t2 & E1 & E2 & ->)].
    + by eapply IH.
    + eapply reps_oks_r; [by eapply IH|].
      apply bnd_inv in E2 as [(v & E & ->)|(b & w2 & t3 & t4 & E2 & E3 & ->)].
      * by apply ok_oks in E.
      * injection E3 as <- <- <-. rewrite app_nil_r. by apply ok_oks in E2.
  - assert (forall w w' t r, first_failure (report c) l false w = (w', t, r) -> reps (ids_list l) t) as Hl.
    { apply first_failure_reps. eapply Forall_impl; [exact IH|]. cbn. eauto. }
    apply bnd_inv in E as [(v & E & ->)|(x & w1 & t1 & t2 & E1 & E2 & ->)].
    + by eapply Hl.
    + injection E2 as <- <- <-. rewrite app_nil_r. by eapply Hl.
Qed.

(** ** The contents of reports *)

Lemma sub_app t1 t2 tr : (t1 ++ t2) ⊆ tr -> t1 ⊆ tr /\ t2 ⊆ tr.
Proof. intros H. split; intros ev Hev; apply H, elem_of_app; auto. Qed.
Ltac subs := repeat match goal with H : (_ ++ _) ⊆ _ |- _ => apply sub_app in H as [? ?] end; assumption.

Definition rep_ok (ans : nat -> bool) (p : UPred) : Prop :=
  forall c w w' t rep tr, report c p w = (w', t, inl rep) -> consistent ans t -> t ⊆ tr ->
  describes ans tr (rc_tree c) (rc_inv c) p rep /\ reporters t = asked ans p.

Lemma count_ok_l ans l : forall w w' t r, count_ok ok l w = (w', t, r) -> consistent ans t -> r = inl (count_holds ans l).
Proof. apply count_ok_holds. apply Forall_forall. intros p _. apply ok_holds. Qed.

Lemma reports_ok ans l : Forall (rep_ok ans) l ->
  forall c w w' t reps tr, reports (report c) l w = (w', t, inl reps) -> consistent ans t -> t ⊆ tr ->
  Forall2 (describes ans tr (rc_tree c) (rc_inv c)) l reps /\ reporters t = concat (map (asked ans) l).
Proof.
  induction 1 as [|p l Hp Hl IH]; cbn; intros c w w' t rs tr E Hc Ht.
  - injection E as <- <- <-. split; [constructor | done].
  - apply bnd_inv in E as [(v & E & [=])|(rep & w1 & t1 & t2 & E1 & E2 & ->)].
    apply bnd_inv in E2 as [(v & E & [=])|(rs1 & w2 & t3 & t4 & E2 & E3 & ->)].
    injection E3 as <- <- <-. rewrite app_nil_r in *. apply consistent_app in Hc as [Hc1 Hc2].
    destruct (Hp _ _ _ _ _ tr E1) as [D1 R1]; [done|subs|]; clear E1. destruct (IH _ _ _ _ _ tr E2) as [D2 R2]; [done|subs|]; clear E2.
    split; [by constructor|]. by rewrite reporters_app, R1, R2.
Qed.
Lemma first_failure_shown_ok (g : UPred -> Cm (URep Rp)) l :
  forall w w' t rs, first_failure g l true w = (w', t, inl rs) -> rs = [].
Proof.
  induction l as [|p l IH]; cbn; intros w w' t rs E.
  - by injection E as <- <- <-.
  - apply bnd_inv in E as [(v & E & [=])|(b & w1 & t1 & t2 & E1 & E2 & ->)]. destruct b; by eapply IH.
Qed.
Lemma first_failure_ok ans l : Forall (rep_ok ans) l ->
  forall c w w' t rs tr, first_failure (report c) l false w = (w', t, inl rs) -> consistent ans t -> t ⊆ tr ->
  reporters t = asked ans (PRepeat l) /\
  ((rs = [] /\ Forall (fun p => holds ans p = true) l) \/
   exists l1 p l2 rep, l = l1 ++ p :: l2 /\ Forall (fun p => holds ans p = true) l1 /\ holds ans p = false /\
     rs = [rep] /\ describes ans tr (rc_tree c) (rc_inv c) p rep).
Proof.
  induction 1 as [|p l Hp Hl IH]; cbn; intros c w w' t rs tr E Hc Ht.
  - injection E as <- <- <-. split; [done|]. left. split; [done | constructor].
  - apply bnd_inv in E as [(v & E & [=])|(b & w1 & t1 & t2 & E1 & E2 & ->)].
    apply consistent_app in Hc as [Hc1 Hc2].
    pose proof (oks_reporters _ _ (ok_oks _ _ _ _ _ E1)) as Ho.
    pose proof (ok_holds ans _ _ _ _ _ E1 ltac:(assumption)) as Hb; injection Hb as ->; clear E1. rewrite reporters_app, Ho. cbn.
    destruct (holds ans p) eqn:Hh; cbn.
    + destruct (IH _ _ _ _ _ tr E2) as [R2 D2]; [done|subs|]; clear E2. split; [exact R2|].
      destruct D2 as [[-> D2]|(l1 & q & l2 & rep & -> & D2 & Hq & -> & Hd)].
      * left. split; [done|]. by constructor.
      * right. exists (p :: l1), q, l2, rep. repeat split; [by constructor | done | done].
    + apply bnd_inv in E2 as [(v & E & [=])|(rep & w2 & t3 & t4 & E2 & E3 & ->)].
      apply bnd_inv in E3 as [(v & E & [=])|(rs1 & w3 & t5 & t6 & E3 & E4 & ->)].
      injection E4 as <- <- <-. rewrite app_nil_r in *. apply consistent_app in Hc2 as [Hc2 Hc3].
      destruct (Hp _ _ _ _ _ tr E2) as [D2 R2]; [done|subs|]; clear E2.
      rewrite reporters_app, R2. rewrite (oks_reporters _ _ (first_failure_shown _ _ _ _ _ _ E3)), app_nil_r.
      apply first_failure_shown_ok in E3 as ->. split; [done|]. right.
      exists [], p, l, rep. repeat split; [constructor | done | done].
Qed.

Lemma report_ok ans p : rep_ok ans p.
Proof.
  induction p as [i u|cn l IH|p IH|l IH] using UPred_ind'; intros c w w' t rep tr E Hc Ht; cbn [report] in E.
  - apply bnd_inv in E as [(v & E & [=])|(x & w1 & t1 & t2 & E1 & E2 & ->)].
    apply call_inv in E1 as [-> _]. injection E2 as <- <- <-. split; [|done].
    constructor. destruct c. cbn. apply Ht. by constructor.
  - apply bnd_inv in E as [(v & E & [=])|(k & w1 & t1 & t2 & E1 & E2 & ->)].
    apply bnd_inv in E2 as [(v & E & [=])|(rs & w2 & t3 & t4 & E2 & E3 & ->)].
    apply consistent_app in Hc as [Hc1 Hc2]. injection E3 as <- <- <-. rewrite app_nil_r in *.
    pose proof (oks_reporters _ _ (count_ids _ _ _ _ _ E1)) as Ho.
    pose proof (count_ok_l ans _ _ _ _ _ E1 ltac:(assumption)) as Hb; injection Hb as ->; clear E1. rewrite met_holds.
    destruct (reports_ok _ _ IH _ _ _ _ _ tr E2) as [D2 R2]; [done|subs|]; clear E2.
    rewrite reporters_app, Ho. split; [|exact R2].
    assert (rc_tree (flip (inverted cn) c) = rc_tree c) as Et by (by destruct cn). rewrite Et in *.
    constructor. assert (rc_inv (flip (inverted cn) c) = match cn with CnNone => negb (rc_inv c) | _ => rc_inv c end) as <- by (by destruct cn).
    exact D2.
  - apply bnd_inv in E as [(v & E & [=])|(r & w1 & t1 & t2 & E1 & E2 & ->)].
    apply bnd_inv in E2 as [(v & E & [=])|(b & w2 & t3 & t4 & E2 & E3 & ->)].
    apply consistent_app in Hc as [Hc1 Hc2]. injection E3 as <- <- <-. rewrite app_nil_r in *.
    destruct (IH _ _ _ _ _ tr E1) as [D1 R1]; [done|subs|]; clear E1. cbn in D1.
    rewrite reporters_app, R1, (oks_reporters _ _ (ok_oks _ _ _ _ _ E2)), app_nil_r.
    pose proof (ok_holds ans _ _ _ _ _ E2 ltac:(assumption)) as Hb; injection Hb as ->; clear E2. split; [|done]. cbn. by econstructor.
  - apply bnd_inv in E as [(v & E & [=])|(rs & w1 & t1 & t2 & E1 & E2 & ->)].
    apply consistent_app in Hc as [Hc1 Hc2]. injection E2 as <- <- <-. rewrite app_nil_r in *.
    destruct (first_failure_ok _ _ IH _ _ _ _ _ tr E1) as [R D]; [done|done|]; clear E1. split; [|exact R].
    destruct D as [[-> D]|(l1 & p & l2 & rep & -> & D1 & Hp & -> & Hd)].
    + by apply DRepeatOk.
    + by apply DRepeatFail.
Qed.

End PredProtoReport.
