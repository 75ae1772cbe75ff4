(** * Lemmas for C85 *)
From Verif Require Import PredProtoModel PredProtoSpec.

Section PredProtoLemmas.
Context {W F Er Ab Rp : Type}.
Notation UEv := (UEv F Er Ab Rp).
Notation UExp := (UExp W F Er Ab Rp).
Notation UPred := (UPred W F Er Ab Rp).
Notation Cm := (@Cm W F Er Ab Rp).
Implicit Types (tr t : list UEv) (i n : nat) (w : W).

Lemma bnd_inv {A B} (m : Cm A) (k : A -> Cm B) w w' t r :
  bnd m k w = (w', t, r) ->
  (exists v, m w = (w', t, inr v) /\ r = inr v) \/
  (exists a w1 t1 t2, m w = (w1, t1, inl a) /\ k a w1 = (w', t2, r) /\ t = t1 ++ t2).
Proof.
  unfold bnd. destruct (m w) as [[w1 t1] [a|v]] eqn:E.
  - destruct (k a w1) as [[w2 t2] r2] eqn:E2. intros [= <- <- <-]. right. eauto 10.
  - intros [= <- <- <-]. left. eauto.
Qed.

Lemma call_inv {A} (ev : A + Ab -> UEv) (m : W -> W * (A + Ab)) w w' t r :
  call ev m w = (w', t, r) -> t = [ev r] /\ m w = (w', r).
Proof. unfold call. destruct (m w). by intros [= <- <- <-]. Qed.

(** Induction on expectations and predicates. *)
Section Ind.
  Context (Q : UExp -> Prop).
  Context (HL : forall u, Q (ULeaf u)) (HC : forall c l, Forall Q l -> Q (UComp c l))
    (HN : forall e, Q e -> Q (UNot e))
    (HR : forall k f, (forall i w w' x, f i w = (w', inl (Some x)) -> Q x) -> Q (URepeat k f)).
  Fixpoint UExp_ind' (e : UExp) : Q e.
  Proof.
    destruct e as [u|c l|e|k f].
    - apply HL.
    - apply HC. induction l; constructor; auto.
    - apply HN, UExp_ind'.
    - apply HR. intros i w w' x E.
      pose (g := fun y : W * (option UExp + Ab) => match y with (_, inl (Some x)) => Q x | _ => True end).
      assert (g (f i w)) as G; [|rewrite E in G; exact G].
      destruct (f i w) as [w1 [[y|]|v]]; cbn; [apply UExp_ind' | exact I | exact I].
  Defined.
End Ind.
Section IndP.
  Context (Q : UPred -> Prop).
  Context (HL : forall i u, Q (PLeaf i u)) (HC : forall c l, Forall Q l -> Q (PComp c l))
    (HN : forall p, Q p -> Q (PNot p)) (HR : forall l, Forall Q l -> Q (PRepeat l)).
  Fixpoint UPred_ind' (p : UPred) : Q p.
  Proof.
    destruct p as [i u|c l|p|l].
    - apply HL.
    - apply HC. induction l; constructor; auto.
    - apply HN, UPred_ind'.
    - apply HR. induction l; constructor; auto.
  Defined.
End IndP.

(** The leaves of a predicate. *)
Fixpoint ids (p : UPred) : list nat :=
  match p with
  | PLeaf i _ => [i]
  | PComp _ l | PRepeat l => concat (map ids l)
  | PNot p => ids p
  end.

(** ** Predicate() *)

(** The calls [t] made from number [n] on are those of Predicate(), in order. *)
Definition news n t : Prop := map ev_id t = map Some (seq n (length t)) /\ Forall is_new t.
Lemma news_app n t1 t2 : news n t1 -> news (n + length t1) t2 -> news n (t1 ++ t2).
Proof.
  intros [H1 H1'] [H2 H2']. split; [|by apply Forall_app_2].
  rewrite map_app, app_length, seq_app, map_app, H1, H2. done.
Qed.
Lemma news_nil n : news n [].
Proof. split; [done | constructor]. Qed.
Definition good_new (ev : UEv) : Prop := match ev with UvNew _ (inl None) => True | _ => False end.

Definition new_post {A} (idl : A -> list nat) n t (r : (nat * (A + UErr Er)) + Ab) : Prop :=
  news n t /\
  match r with
  | inl (n', inl p) => n' = n + length t /\ idl p = seq n (length t) /\ Forall good_new t
  | inl (n', inr _) => n' = n + length t
  | inr _ => True
  end.

Definition ids_list (l : list UPred) : list nat := concat (map ids l).

Lemma new_list_spec (l : list UExp) :
  Forall (fun e => forall n w w' t r, new e n w = (w', t, r) -> new_post ids n t r) l ->
  forall n w w' t r, new_list new l n w = (w', t, r) -> new_post ids_list n t r.
Proof.
  induction 1 as [|e l He Hl IH]; cbn; intros n w w' t r E.
  - injection E as <- <- <-. split; [apply news_nil|]. cbn. rewrite Nat.add_0_r. by repeat split.
  - apply bnd_inv in E as [(v & E & ->)|([n1 r1] & w1 & t1 & t2 & E1 & E2 & ->)].
    + apply He in E as [H _]. by split.
    + apply He in E1 as [H1 H1']. destruct r1 as [p|er].
      * destruct H1' as (-> & Hids & Hg).
        apply bnd_inv in E2 as [(v & E & ->)|([n2 r2] & w2 & t3 & t4 & E2 & E3 & ->)].
        -- apply IH in E as [H _]. split; [by apply news_app | done].
        -- apply IH in E2 as [H2 H2']. injection E3 as <- <- <-. rewrite app_nil_r.
           split; [by apply news_app|]. rewrite app_length.
           destruct r2 as [ps|er]; [|by rewrite Nat.add_assoc].
           destruct H2' as (-> & Hids2 & Hg2). unfold ids_list in *. cbn. rewrite Hids, Hids2, seq_app, Nat.add_assoc.
           repeat split. by apply Forall_app_2.
      * injection E2 as <- <- <-. rewrite app_nil_r. by split.
Qed.

Lemma new_spec (e : UExp) : forall n w w' t r, new e n w = (w', t, r) -> new_post ids n t r.
Proof.
  induction e as [u|c l IH|e IH|k f IH] using UExp_ind'; cbn; intros n w w' t r E.
  - apply bnd_inv in E as [(v & E & ->)|(r1 & w1 & t1 & t2 & E1 & E2 & ->)].
    + apply call_inv in E as [-> _]. split; [|done]. split; [done | by repeat constructor].
    + apply call_inv in E1 as [-> _].
      assert (news n [UvNew n (inl r1) : UEv]) as Hn by (split; [done | by repeat constructor]).
      destruct r1 as [er|]; injection E2 as <- <- <-; (split; [exact Hn|]); cbn; [lia|].
      repeat split; [lia | by repeat constructor].
  - apply bnd_inv in E as [(v & E & ->)|([n1 r1] & w1 & t1 & t2 & E1 & E2 & ->)].
    + eapply new_list_spec in E as [H _]; [|done]. by split.
    + eapply new_list_spec in E1 as [H H']; [|done]. injection E2 as <- <- <-. rewrite app_nil_r. split; [done|].
      by destruct r1.
  - apply bnd_inv in E as [(v & E & ->)|([n1 r1] & w1 & t1 & t2 & E1 & E2 & ->)].
    + apply IH in E as [H _]. by split.
    + apply IH in E1 as [H H']. injection E2 as <- <- <-. rewrite app_nil_r. split; [done|]. by destruct r1.
  - match type of E with bnd (?g k 0 n) _ _ = _ => set (go := g) in * end.
    assert (forall k i n w w' t r, go k i n w = (w', t, r) -> new_post ids_list n t r) as Hgo.
    { clear E. intros k'. induction k' as [|k' IHk]; intros i n0 w0 w0' t0 r0 E; cbn in E.
      - injection E as <- <- <-. split; [apply news_nil|]. cbn. rewrite Nat.add_0_r. by repeat split.
      - destruct (f i w0) as [w1 [[x|]|v]] eqn:Ef.
        + apply bnd_inv in E as [(v & E & ->)|([n1 r1] & w2 & t1 & t2 & E1 & E2 & ->)].
          * eapply IH in E as [H _]; [|done]. by split.
          * eapply IH in E1 as [H1 H1']; [|done]. destruct r1 as [p|er].
            -- destruct H1' as (-> & Hids & Hg).
               apply bnd_inv in E2 as [(v & E & ->)|([n2 r2] & w3 & t3 & t4 & E2 & E3 & ->)].
               ++ apply IHk in E as [H _]. split; [by apply news_app | done].
               ++ apply IHk in E2 as [H2 H2']. injection E3 as <- <- <-. rewrite app_nil_r.
                  split; [by apply news_app|]. rewrite app_length.
                  destruct r2 as [ps|er]; [|by rewrite Nat.add_assoc].
                  destruct H2' as (-> & Hids2 & Hg2). unfold ids_list in *. cbn. rewrite Hids, Hids2, seq_app, Nat.add_assoc.
                  repeat split. by apply Forall_app_2.
            -- injection E2 as <- <- <-. rewrite app_nil_r. by split.
        + injection E as <- <- <-. split; [apply news_nil|]. cbn. lia.
        + injection E as <- <- <-. split; [apply news_nil | done]. }
    apply bnd_inv in E as [(v & E & ->)|([n1 r1] & w1 & t1 & t2 & E1 & E2 & ->)].
    + apply Hgo in E as [H _]. by split.
    + apply Hgo in E1 as [H H']. injection E2 as <- <- <-. rewrite app_nil_r. split; [done|]. by destruct r1.
Qed.

(** ** Notify() and Done() *)

(** The leaves are visited in order, until one ends abruptly. *)
Definition visit (ev : nat -> unit + Ab -> UEv) (l : list nat) t (r : unit + Ab) : Prop :=
  match r with
  | inl _ => t = map (fun i => ev i (inl tt)) l
  | inr v => exists l1 i l2, l = l1 ++ i :: l2 /\ t = map (fun i => ev i (inl tt)) l1 ++ [ev i (inr v)]
  end.
Lemma visit_app ev l1 l2 t1 t2 r : visit ev l1 t1 (inl tt) -> visit ev l2 t2 r -> visit ev (l1 ++ l2) (t1 ++ t2) r.
Proof.
  cbn. intros ->. destruct r as [[]|v]; cbn.
  - intros ->. by rewrite map_app.
  - intros (a & i & b & -> & ->). exists (l1 ++ a), i, b. by rewrite map_app, <-!app_assoc.
Qed.
Lemma visit_abort ev l1 l2 t v : visit ev l1 t (inr v) -> visit ev (l1 ++ l2) t (inr v).
Proof. cbn. intros (a & i & b & -> & ->). exists a, i, (b ++ l2). by rewrite <-app_assoc. Qed.

Lemma each_visit ev (g : UPred -> Cm unit) (l : list UPred) :
  Forall (fun p => forall w w' t r, g p w = (w', t, r) -> visit ev (ids p) t r) l ->
  forall w w' t r, each g l w = (w', t, r) -> visit ev (ids_list l) t r.
Proof.
  induction 1 as [|p l Hp Hl IH]; cbn; intros w w' t r E.
  - by injection E as <- <- <-.
  - unfold ids_list in *. cbn. apply bnd_inv in E as [(v & E & ->)|([] & w1 & t1 & t2 & E1 & E2 & ->)].
    + apply Hp in E. by apply visit_abort.
    + apply Hp in E1. apply IH in E2. by apply visit_app.
Qed.
Lemma notify_visit f p : forall w w' t r, notify f p w = (w', t, r) -> visit (fun i => UvNotify i f) (ids p) t r.
Proof.
  induction p as [i u|c l IH|p IH|l IH] using UPred_ind'; cbn; intros w w' t r E; eauto using each_visit.
  - apply call_inv in E as [-> _]. destruct r as [[]|v]; [done|]. by exists [], i, [].
Qed.
Lemma done_visit p : forall w w' t r, done_ p w = (w', t, r) -> visit UvDone (ids p) t r.
Proof.
  induction p as [i u|c l IH|p IH|l IH] using UPred_ind'; cbn; intros w w' t r E; eauto.
  - apply call_inv in E as [-> _]. destruct r as [[]|v]; [done|]. by exists [], i, [].
  - eapply each_visit in E; done.
  - eapply each_visit in E; done.
Qed.
(** ** The action *)

Inductive noted (l : list nat) : list UEv -> Prop :=
| noted_nil : noted l []
| noted_cons f tb rb t : visit (fun i => UvNotify i f) l tb rb -> noted l t -> noted l (UvFact f :: tb ++ t).

Lemma act_noted p a : forall w w' t r, act_run p a w = (w', t, r) -> noted (ids p) t.
Proof.
  induction a as [r0|f k IH|m k IH]; cbn; intros w w' t r E.
  - injection E as <- <- <-. constructor.
  - destruct (notify f p w) as [[w1 t1] r1] eqn:E1. destruct (act_run p (k r1) w1) as [[w2 t2] r2] eqn:E2.
    injection E as <- <- <-. apply notify_visit in E1. econstructor; [exact E1 | by eapply IH].
  - by eapply IH.
Qed.

(** ** Ok() *)

(** Only Ok() of the leaves [l] is called. *)
Definition oks (l : list nat) t : Prop := Forall (fun ev => exists i r, ev = UvOk i r /\ i ∈ l) t.
Lemma oks_weaken l l' t : (forall i, i ∈ l -> i ∈ l') -> oks l t -> oks l' t.
Proof. intros H Ht. eapply Forall_impl; [exact Ht|]. intros ev (i & r & -> & Hi). exists i, r. auto. Qed.

Lemma ids_list_in i p l : p ∈ l -> i ∈ ids p -> i ∈ ids_list l.
Proof. intros Hp Hi. apply elem_of_list_In, in_concat. exists (ids p). split; [by apply in_map, elem_of_list_In | by apply elem_of_list_In]. Qed.
Lemma ids_list_inv i l : i ∈ ids_list l -> exists p, p ∈ l /\ i ∈ ids p.
Proof.
  intros H. apply elem_of_list_In, in_concat in H as (x & Hx & Hi). apply in_map_iff in Hx as (p & <- & Hp).
  exists p. by rewrite !elem_of_list_In.
Qed.

Lemma count_oks (l : list UPred) :
  Forall (fun p => forall w w' t r, ok p w = (w', t, r) -> oks (ids p) t) l ->
  forall w w' t r, count_ok ok l w = (w', t, r) -> oks (ids_list l) t.
Proof.
  induction 1 as [|p l Hp Hl IH]; cbn; intros w w' t r E.
  - injection E as <- <- <-. constructor.
  - unfold ids_list in *. cbn.
    apply bnd_inv in E as [(v & E & ->)|(b & w1 & t1 & t2 & E1 & E2 & ->)].
    + apply Hp in E. eapply oks_weaken; [|exact E]. set_solver.
    + apply Hp in E1. apply Forall_app_2; [eapply oks_weaken; [|exact E1]; set_solver|].
      apply bnd_inv in E2 as [(v & E & ->)|(m & w2 & t3 & t4 & E2 & E3 & ->)].
      * apply IH in E. eapply oks_weaken; [|exact E]. set_solver.
      * apply IH in E2. injection E3 as <- <- <-. rewrite app_nil_r. eapply oks_weaken; [|exact E2]. set_solver.
Qed.
Lemma all_oks (l : list UPred) :
  Forall (fun p => forall w w' t r, ok p w = (w', t, r) -> oks (ids p) t) l ->
  forall w w' t r, all_ok ok l w = (w', t, r) -> oks (ids_list l) t.
Proof.
  induction 1 as [|p l Hp Hl IH]; cbn; intros w w' t r E.
  - injection E as <- <- <-. constructor.
  - unfold ids_list in *. cbn.
    apply bnd_inv in E as [(v & E & ->)|(b & w1 & t1 & t2 & E1 & E2 & ->)].
    + apply Hp in E. eapply oks_weaken; [|exact E]. set_solver.
    + apply Hp in E1. apply Forall_app_2; [eapply oks_weaken; [|exact E1]; set_solver|].
      destruct b; [|injection E2 as <- <- <-; constructor].
      apply IH in E2. eapply oks_weaken; [|exact E2]. set_solver.
Qed.
Lemma ok_oks p : forall w w' t r, ok p w = (w', t, r) -> oks (ids p) t.
Proof.
  induction p as [i u|c l IH|p IH|l IH] using UPred_ind'; cbn; intros w w' t r E.
  - apply call_inv in E as [-> _]. repeat constructor. exists i, r. split; [done | set_solver].
  - apply bnd_inv in E as [(v & E & ->)|(m & w1 & t1 & t2 & E1 & E2 & ->)].
    + by eapply count_oks in E.
    + injection E2 as <- <- <-. rewrite app_nil_r. by eapply count_oks in E1.
  - apply bnd_inv in E as [(v & E & ->)|(m & w1 & t1 & t2 & E1 & E2 & ->)].
    + by eapply IH.
    + injection E2 as <- <- <-. rewrite app_nil_r. by eapply IH.
  - by eapply all_oks in E.
Qed.

Lemma consistent_app ans t1 t2 : consistent ans (t1 ++ t2 : list UEv) <-> consistent ans t1 /\ consistent ans t2.
Proof. unfold consistent. setoid_rewrite elem_of_app. naive_solver. Qed.

(** If the leaves are consistent, Ok() returns the verdict. *)
Definition count_holds (ans : nat -> bool) (l : list UPred) : nat := length (List.filter (holds ans) l).
Lemma met_holds ans c l : met c (length l) (count_holds ans l) = holds ans (PComp c l).
Proof.
  unfold count_holds. destruct c; cbn.
  - induction l as [|p l IH]; [done|]. cbn. destruct (holds ans p); cbn; [exact IH|].
    apply Nat.eqb_neq. assert (length (List.filter (holds ans) l) <= length l); [|lia].
    clear. induction l as [|q l IH]; cbn; [done|]. destruct (holds ans q); cbn; lia.
  - induction l as [|p l IH]; [done|]. cbn. destruct (holds ans p); cbn; [done | exact IH].
  - induction l as [|p l IH]; [done|]. cbn. destruct (holds ans p); cbn; [done | exact IH].
Qed.
Lemma count_ok_holds ans (l : list UPred) :
  Forall (fun p => forall w w' t r, ok p w = (w', t, r) -> consistent ans t -> r = inl (holds ans p)) l ->
  forall w w' t r, count_ok ok l w = (w', t, r) -> consistent ans t -> r = inl (count_holds ans l).
Proof.
  induction 1 as [|p l Hp Hl IH]; cbn; intros w w' t r E Hc.
  - by injection E as <- <- <-.
  - apply bnd_inv in E as [(v & E & ->)|(b & w1 & t1 & t2 & E1 & E2 & ->)].
    + by apply Hp in E.
    + apply consistent_app in Hc as [Hc1 Hc2]. apply Hp in E1; [|done]. injection E1 as ->.
      apply bnd_inv in E2 as [(v & E & ->)|(m & w2 & t3 & t4 & E2 & E3 & ->)].
      * by apply IH in E.
      * apply consistent_app in Hc2 as [Hc2 _]. apply IH in E2; [|done]. injection E2 as ->. injection E3 as <- <- <-.
        unfold count_holds. cbn. by destruct (holds ans p).
Qed.
Lemma all_ok_holds ans (l : list UPred) :
  Forall (fun p => forall w w' t r, ok p w = (w', t, r) -> consistent ans t -> r = inl (holds ans p)) l ->
  forall w w' t r, all_ok ok l w = (w', t, r) -> consistent ans t -> r = inl (forallb (holds ans) l).
Proof.
  induction 1 as [|p l Hp Hl IH]; cbn; intros w w' t r E Hc.
  - by injection E as <- <- <-.
  - apply bnd_inv in E as [(v & E & ->)|(b & w1 & t1 & t2 & E1 & E2 & ->)].
    + by apply Hp in E.
    + apply consistent_app in Hc as [Hc1 Hc2]. apply Hp in E1; [|done]. injection E1 as ->.
      destruct (holds ans p); [by eapply IH | by injection E2 as <- <- <-].
Qed.
Lemma ok_holds ans p : forall w w' t r, ok p w = (w', t, r) -> consistent ans t -> r = inl (holds ans p).
Proof.
  induction p as [i u|c l IH|p IH|l IH] using UPred_ind'; cbn [ok]; intros w w' t r E Hc.
  - apply call_inv in E as [-> _]. apply (Hc i). set_solver.
  - apply bnd_inv in E as [(v & E & ->)|(m & w1 & t1 & t2 & E1 & E2 & ->)].
    + by eapply count_ok_holds in E.
    + apply consistent_app in Hc as [Hc1 _]. eapply count_ok_holds in E1; [|done..]. injection E1 as ->.
      injection E2 as <- <- <-. by rewrite met_holds.
  - apply bnd_inv in E as [(v & E & ->)|(m & w1 & t1 & t2 & E1 & E2 & ->)].
    + by apply IH in E.
    + apply consistent_app in Hc as [Hc1 _]. apply IH in E1; [|done]. injection E1 as ->. by injection E2 as <- <- <-.
  - by eapply all_ok_holds in E.
Qed.

End PredProtoLemmas.
