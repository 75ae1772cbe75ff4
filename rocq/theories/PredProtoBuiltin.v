(** * Lemmas for C85: the expectations of testkit as leaves

    The leaves of ExpectModel.v are turned into implementations of the interfaces, so that both
    models of the composite expectations can be compared. *)
From Verif Require Import ExpectModel ExpectLemmas ExpectProof PredProtoModel PredProtoSpec PredProtoLemmas.

Section Builtin.
Context {P : Params}.
Notation St := (gmap nat Pred).
Notation Impl := (Impl St Fact PErr SPan unit).
Notation UExp := (UExp St Fact PErr SPan unit).
Notation UPred := (UPred St Fact PErr SPan unit).
Notation UAct := (UAct St Fact PErr SPan).

Definition conn (c : Comp) : Conn := match c with CAll => CnAll | CAny => CnAny | CNone => CnNone end.

(** The leaf [e] of an expectation, in scope [s]. *)
Definition leaf_impl (s : Scope) (e : Exp) : Impl :=
  mkImpl
    (fun i w => match new_predicate s e with inl p => (<[i:=p]> w, inl None) | inr er => (w, inl (Some er)) end)
    (fun i f w => (alter (ExpectModel.notify f) i w, inl tt))
    (fun i w => (w, inl (match w !! i with Some p => p_ok p | None => false end)))
    (fun i w => match w !! i with
       | Some p => let '(p, r) := p_done p in (<[i:=p]> w, match r with Some v => inr v | None => inl tt end)
       | None => (w, inl tt)
       end)
    (fun i _ w => (w, inl tt)).
Fixpoint embed (s : Scope) (e : Exp) : UExp :=
  match e with
  | XComp c l => UComp (conn c) (map (embed s) l)
  | XNot e => UNot (embed s e)
  | XRepeat _ n f => URepeat n (fun i w => (w, inl (match f i with Some x => Some (embed s x) | None => None end)))
  | _ => ULeaf (leaf_impl s e)
  end.
Fixpoint err (e : UErr PErr) : PErr :=
  match e with UeUser e => e | UeNil i => PENil i | UeIter i e => PEIter i (err e) end.

(** An action that notifies of [fs] and ends with nil. *)
Fixpoint act_of (fs : list Fact) : UAct :=
  match fs with [] => AEnd (inl None) | f :: fs => ANotify f (fun _ => act_of fs) end.

Inductive rel (w : St) : UPred -> Pred -> Prop :=
| RLeaf i s e Q : w !! i = Some Q -> rel w (PLeaf i (leaf_impl s e)) Q
| RComp c l L : Forall2 (rel w) l L -> rel w (PComp (conn c) l) (PdComp c L)
| RNot p Q : rel w p Q -> rel w (PNot p) (PdNot Q)
| RRepeat d l L : Forall2 (rel w) l L -> rel w (PRepeat l) (PdRepeat d L).

Lemma rel_frame p : forall w w' Q, rel w p Q -> (forall i, i ∈ ids p -> w' !! i = w !! i) -> rel w' p Q.
Proof.
  induction p as [i u|c l IH|p IH|l IH] using UPred_ind'; intros w w' Q H Hf; inversion H; subst.
  - constructor. rewrite Hf; [done | set_solver].
  - constructor. clear H. rename H3 into H2. revert IH Hf. cbn. induction H2 as [|p Q l L Hp Hl IHl]; intros IH Hf; constructor.
    + apply Forall_cons in IH as [IH _]. eapply IH; [exact Hp|]. intros i Hi. apply Hf. cbn. apply elem_of_app. by left.
    + apply Forall_cons in IH as [_ IH]. apply IHl; [done|]. intros i Hi. apply Hf. cbn. apply elem_of_app. by right.
  - constructor. by eapply IH.
  - constructor. clear H. rename H1 into H2. revert IH Hf. cbn. induction H2 as [|p Q l L Hp Hl IHl]; intros IH Hf; constructor.
    + apply Forall_cons in IH as [IH _]. eapply IH; [exact Hp|]. intros i Hi. apply Hf. cbn. apply elem_of_app. by left.
    + apply Forall_cons in IH as [_ IH]. apply IHl; [done|]. intros i Hi. apply Hf. cbn. apply elem_of_app. by right.
Qed.
(** ** Predicate() *)

Definition same {A B} (w w' : St) (n n' : nat) (R : A -> B -> Prop) (r : A + UErr PErr) (x : B + PErr) : Prop :=
  n <= n' /\ (forall i, i < n -> w' !! i = w !! i) /\
  match r, x with
  | inl a, inl b => R a b
  | inr er, inr er' => err er = er'
  | _, _ => False
  end.
Definition new_ok (s : Scope) (e : Exp) : Prop := forall n w,
  exists w' t n' r, new (embed s e) n w = (w', t, inl (n', r)) /\
    same w w' n n' (fun p Q => rel w' p Q /\ (forall i, i ∈ ids p -> n <= i < n')) r (new_predicate s e).

Definition go_new (s : Scope) : list Exp -> list Pred + PErr :=
  fix go (l : list Exp) := match l with
  | [] => inl []
  | e :: l => match new_predicate s e with
    | inr er => inr er
    | inl p => match go l with inr er => inr er | inl ps => inl (p :: ps) end
    end
  end.
Lemma new_list_ok s l : Forall (new_ok s) l -> forall n w,
  exists w' t n' r, new_list new (map (embed s) l) n w = (w', t, inl (n', r)) /\
    same w w' n n' (fun ps Qs => Forall2 (rel w') ps Qs /\ (forall i, i ∈ ids_list ps -> n <= i < n')) r (go_new s l).
Proof.
  induction 1 as [|e l He Hl IH]; intros n w; cbn.
  - exists w, [], n, (inl []). split; [done|]. split; [done|]. split; [done|]. split; [constructor|].
    intros i Hi. by apply elem_of_nil in Hi.
  - destruct (He n w) as (w1 & t1 & n1 & r1 & E1 & Hn1 & Hf1 & H1). unfold bnd. rewrite E1.
    destruct r1 as [p|er], (new_predicate s e) as [Q|er']; try done; cbn.
    + destruct (IH n1 w1) as (w2 & t2 & n2 & r2 & E2 & Hn2 & Hf2 & H2). rewrite E2.
      destruct r2 as [ps|er], (go_new s l) as [Qs|er']; try done; cbn; do 4 eexists; (split; [reflexivity|]).
      * split; [lia|]. split; [intros i Hi; rewrite Hf2 by lia; by apply Hf1|].
        destruct H1 as [H1 H1'], H2 as [H2 H2']. split.
        -- constructor; [|done]. eapply rel_frame; [exact H1|]. intros i Hi. apply Hf2. apply H1' in Hi. lia.
        -- intros i Hi. apply elem_of_app in Hi as [Hi|Hi]; [apply H1' in Hi; lia | apply H2' in Hi; lia].
      * split; [lia|]. split; [intros i Hi; rewrite Hf2 by lia; by apply Hf1 | done].
    + do 4 eexists. split; [reflexivity|]. split; [lia|]. by split.
Qed.
Lemma new_predicate_comp s c l : new_predicate s (XComp c l) = match go_new s l with inr er => inr er | inl ps => inl (PdComp c ps) end.
Proof. done. Qed.
Lemma leaf_new_ok s e : embed s e = ULeaf (leaf_impl s e) -> new_ok s e.
Proof.
  intros He n w. rewrite He. cbn. unfold bnd, call. cbn. destruct (new_predicate s e) as [Q|er]; cbn; do 4 eexists; (split; [reflexivity|]).
  - split; [lia|]. split; [intros i Hi; rewrite lookup_insert_ne; [done | lia]|]. split.
    + constructor. by rewrite lookup_insert.
    + intros i Hi. apply elem_of_list_singleton in Hi as ->. lia.
  - split; [lia|]. by split.
Qed.
Lemma new_all_ok s e : new_ok s e.
Proof.
  induction e as [m|ty|tp pred near ex|c l IH|e IH|desc k f IH|desc fn|u] using Exp_ind'; try (by apply leaf_new_ok); intros n w.
  - cbn [embed new]. unfold bnd. destruct (new_list_ok s l IH n w) as (w1 & t1 & n1 & r1 & E1 & Hn1 & Hf1 & H1). rewrite E1.
    rewrite new_predicate_comp. destruct r1 as [ps|er], (go_new s l) as [Qs|er']; try done; cbn; do 4 eexists; (split; [reflexivity|]).
    + split; [lia|]. split; [done|]. destruct H1 as [H1 H1']. split; [by constructor | done].
    + split; [lia|]. by split.
  - cbn [embed new]. unfold bnd. destruct (IH n w) as (w1 & t1 & n1 & r1 & E1 & Hn1 & Hf1 & H1). rewrite E1. cbn.
    destruct r1 as [p|er], (new_predicate s e) as [Q|er']; try done; cbn; do 4 eexists; (split; [reflexivity|]).
    + split; [lia|]. split; [done|]. destruct H1 as [H1 H1']. split; [by constructor | done].
    + split; [lia|]. by split.
  - cbn [embed new new_predicate].
    match goal with |- context [bnd (?g k 0 n) _ w] => set (go := g) end.
    match goal with |- context [match ?g 0 k with inr _ => _ | inl _ => _ end] => set (go' := g) end.
    assert (forall k i n w, exists w' t n' r, go k i n w = (w', t, inl (n', r)) /\
      same w w' n n' (fun ps Qs => Forall2 (rel w') ps Qs /\ (forall i, i ∈ ids_list ps -> n <= i < n')) r (go' i k)) as Hgo.
    { clear n w. intros k'. induction k' as [|k' IHk]; intros i n w; cbn.
      - exists w, [], n, (inl []). split; [done|]. split; [done|]. split; [done|]. split; [constructor|].
        intros j Hj. by apply elem_of_nil in Hj.
      - destruct (f i) as [x|] eqn:Ef.
        + specialize (IH i x Ef). destruct (IH n w) as (w1 & t1 & n1 & r1 & E1 & Hn1 & Hf1 & H1). unfold bnd. rewrite E1.
          destruct r1 as [p|er], (new_predicate s x) as [Q|er']; try done; cbn.
          * destruct (IHk (S i) n1 w1) as (w2 & t2 & n2 & r2 & E2 & Hn2 & Hf2 & H2). rewrite E2.
            destruct r2 as [ps|er], (go' (S i) k') as [Qs|er']; try done; cbn; do 4 eexists; (split; [reflexivity|]).
            -- split; [lia|]. split; [intros j Hj; rewrite Hf2 by lia; by apply Hf1|].
               destruct H1 as [H1 H1'], H2 as [H2 H2']. split.
               ++ constructor; [|done]. eapply rel_frame; [exact H1|]. intros j Hj. apply Hf2. apply H1' in Hj. lia.
               ++ intros j Hj. apply elem_of_app in Hj as [Hj|Hj]; [apply H1' in Hj; lia | apply H2' in Hj; lia].
            -- split; [lia|]. split; [intros j Hj; rewrite Hf2 by lia; by apply Hf1 | done].
          * do 4 eexists. split; [reflexivity|]. split; [lia|]. split; [done|]. cbn. by f_equal.
        + do 4 eexists. split; [reflexivity|]. split; [lia|]. by split. }
    destruct (Hgo k 0 n w) as (w1 & t1 & n1 & r1 & E1 & Hn1 & Hf1 & H1). unfold bnd. rewrite E1.
    destruct r1 as [ps|er], (go' 0 k) as [Qs|er']; try done; cbn; do 4 eexists; (split; [reflexivity|]).
    + split; [lia|]. split; [done|]. destruct H1 as [H1 H1']. split; [by constructor | done].
    + split; [lia|]. by split.
Qed.

(** ** Notify() *)

Lemma rel_list_frame w w' l L :
  Forall2 (rel w) l L -> (forall i, i ∈ ids_list l -> w' !! i = w !! i) -> Forall2 (rel w') l L.
Proof.
  induction 1 as [|p Q l L Hp Hl IH]; intros Hf; constructor.
  - eapply rel_frame; [exact Hp|]. intros i Hi. apply Hf. unfold ids_list. cbn. apply elem_of_app. by left.
  - apply IH. intros i Hi. apply Hf. unfold ids_list. cbn. apply elem_of_app. by right.
Qed.

Definition notify_ok (f : Fact) (p : UPred) : Prop := forall w Q, NoDup (ids p) -> rel w p Q ->
  exists w' t, PredProtoModel.notify f p w = (w', t, inl tt) /\ rel w' p (ExpectModel.notify f Q) /\
    (forall i, i ∉ ids p -> w' !! i = w !! i).
Lemma each_notify_ok f l : Forall (notify_ok f) l -> forall w L, NoDup (ids_list l) -> Forall2 (rel w) l L ->
  exists w' t, each (PredProtoModel.notify f) l w = (w', t, inl tt) /\ Forall2 (rel w') l (map (ExpectModel.notify f) L) /\
    (forall i, i ∉ ids_list l -> w' !! i = w !! i).
Proof.
  induction 1 as [|q l Hq Hl IH]; intros w L Hn HL; inversion HL as [|? Q ? L' HQ HL']; subst; cbn.
  - exists w, []. repeat split. constructor.
  - unfold ids_list in Hn. cbn in Hn. apply NoDup_app in Hn as (Hn1 & Hd & Hn2).
    destruct (Hq w Q Hn1 HQ) as (w1 & t1 & E1 & R1 & F1). unfold bnd. rewrite E1.
    assert (Forall2 (rel w1) l L') as HL1.
    { eapply rel_list_frame; [exact HL'|]. intros i Hi. apply F1. intros Hi'. by apply (Hd i). }
    destruct (IH w1 L' Hn2 HL1) as (w2 & t2 & E2 & R2 & F2). rewrite E2. do 2 eexists. split; [reflexivity|]. split.
    + constructor; [|done]. eapply rel_frame; [exact R1|]. intros i Hi. apply F2. intros Hi'. by apply (Hd i).
    + intros i Hi. unfold ids_list in Hi. cbn in Hi. apply not_elem_of_app in Hi as [Hi1 Hi2]. rewrite F2, F1; done.
Qed.
Lemma notify_rel f p : notify_ok f p.
Proof.
  induction p as [i u|c l IH|p IH|l IH] using UPred_ind'; intros w Q Hn H; inversion H as [? ? ? ? Hl|? ? L HL|? Q0 HQ|? ? L HL]; subst; cbn.
  - do 2 eexists. split; [reflexivity|]. split.
    + constructor. rewrite lookup_alter, Hl. done.
    + intros j Hj. rewrite lookup_alter_ne; [done|]. set_solver.
  - destruct (each_notify_ok f l IH w L Hn HL) as (w1 & t1 & E1 & R1 & F1). exists w1, t1. split; [done|]. split; [by constructor | done].
  - destruct (IH w Q0 Hn HQ) as (w1 & t1 & E1 & R1 & F1). exists w1, t1. split; [done|]. split; [by constructor | done].
  - destruct (each_notify_ok f l IH w L Hn HL) as (w1 & t1 & E1 & R1 & F1). exists w1, t1. split; [done|]. split; [by constructor | done].
Qed.

Lemma act_rel p fs : forall w Q, NoDup (ids p) -> rel w p Q ->
  exists w' t, act_run p (act_of fs) w = (w', t, inl None) /\ rel w' p (feed fs Q).
Proof.
  induction fs as [|f fs IH]; intros w Q Hn H; cbn.
  - by exists w, [].
  - destruct (notify_rel f p w Q Hn H) as (w1 & t1 & E1 & R1 & _). rewrite E1.
    destruct (IH w1 _ Hn R1) as (w2 & t2 & E2 & R2). rewrite E2. by do 2 eexists.
Qed.

(** ** Done() *)

Definition pan (r : option SPan) : unit + SPan := match r with Some v => inr v | None => inl tt end.
Definition done_ok (p : UPred) : Prop := forall w Q, NoDup (ids p) -> rel w p Q ->
  exists w' t, done_ p w = (w', t, pan (p_done Q).2) /\ ((p_done Q).2 = None -> rel w' p (p_done Q).1) /\
    (forall i, i ∉ ids p -> w' !! i = w !! i).
Lemma each_done_ok l : Forall done_ok l -> forall w L, NoDup (ids_list l) -> Forall2 (rel w) l L ->
  exists w' t, each done_ l w = (w', t, pan (go_done L).2) /\ ((go_done L).2 = None -> Forall2 (rel w') l (go_done L).1) /\
    (forall i, i ∉ ids_list l -> w' !! i = w !! i).
Proof.
  induction 1 as [|q l Hq Hl IH]; intros w L Hn HL; inversion HL as [|? Q ? L' HQ HL']; subst; cbn.
  - exists w, []. repeat split. constructor.
  - unfold ids_list in Hn. cbn in Hn. apply NoDup_app in Hn as (Hn1 & Hd & Hn2).
    destruct (Hq w Q Hn1 HQ) as (w1 & t1 & E1 & R1 & F1). unfold bnd. rewrite E1.
    destruct (p_done Q) as [Q' [v|]]; cbn in *.
    + do 2 eexists. split; [reflexivity|]. split; [done|].
      intros i Hi. unfold ids_list in Hi. cbn in Hi. apply not_elem_of_app in Hi as [Hi1 Hi2]. by apply F1.
    + assert (Forall2 (rel w1) l L') as HL1.
      { eapply rel_list_frame; [exact HL'|]. intros i Hi. apply F1. intros Hi'. by apply (Hd i). }
      destruct (IH w1 L' Hn2 HL1) as (w2 & t2 & E2 & R2 & F2). rewrite E2. do 2 eexists.
      destruct (go_done L') as [L2 r2]; cbn in *. split; [reflexivity|]. split.
      * intros ->. constructor; [|by apply R2]. eapply rel_frame; [by apply R1|]. intros i Hi. apply F2. intros Hi'. by apply (Hd i).
      * intros i Hi. unfold ids_list in Hi. cbn in Hi. apply not_elem_of_app in Hi as [Hi1 Hi2]. rewrite F2, F1; done.
Qed.
Lemma done_rel p : done_ok p.
Proof.
  induction p as [i u|c l IH|p IH|l IH] using UPred_ind'; intros w Q Hn H; inversion H as [? ? ? ? Hl|? ? L HL|? Q0 HQ|? ? L HL]; subst; cbn [done_].
  - unfold call. cbn. rewrite Hl. destruct (p_done Q) as [Q' r]. cbn. do 2 eexists. split; [reflexivity|]. split.
    + intros _. constructor. by rewrite lookup_insert.
    + intros j Hj. rewrite lookup_insert_ne; [done|]. set_solver.
  - rewrite p_done_comp. destruct (each_done_ok l IH w L Hn HL) as (w1 & t1 & E1 & R1 & F1). destruct (go_done L) as [L2 r2]. cbn in *.
    exists w1, t1. split; [done|]. split; [|done]. intros Hr. constructor. by apply R1.
  - cbn. destruct (IH w Q0 Hn HQ) as (w1 & t1 & E1 & R1 & F1). destruct (p_done Q0) as [Q2 r2]. cbn in *.
    exists w1, t1. split; [done|]. split; [|done]. intros Hr. constructor. by apply R1.
  - rewrite p_done_repeat. destruct (each_done_ok l IH w L Hn HL) as (w1 & t1 & E1 & R1 & F1). destruct (go_done L) as [L2 r2]. cbn in *.
    exists w1, t1. split; [done|]. split; [|done]. intros Hr. constructor. by apply R1.
Qed.

(** ** Ok() and Report() *)

Definition ok_ok (p : UPred) : Prop := forall w Q, rel w p Q -> exists t, ok p w = (w, t, inl (p_ok Q)).
Lemma count_rel l : Forall ok_ok l -> forall w L, Forall2 (rel w) l L ->
  exists t, count_ok ok l w = (w, t, inl (count_true (map p_ok L))).
Proof.
  induction 1 as [|q l Hq Hl IH]; intros w L HL; inversion HL as [|? Q ? L' HQ HL']; subst; cbn.
  - by exists [].
  - destruct (Hq w Q HQ) as (t1 & E1). unfold bnd. rewrite E1. destruct (IH w L' HL') as (t2 & E2). rewrite E2. cbn.
    eexists. f_equal. f_equal. unfold count_true. cbn. by destruct (p_ok Q).
Qed.
Lemma all_rel l : Forall ok_ok l -> forall w L, Forall2 (rel w) l L ->
  exists t, all_ok ok l w = (w, t, inl (forallb id (map p_ok L))).
Proof.
  induction 1 as [|q l Hq Hl IH]; intros w L HL; inversion HL as [|? Q ? L' HQ HL']; subst; cbn.
  - by exists [].
  - destruct (Hq w Q HQ) as (t1 & E1). unfold bnd. rewrite E1. destruct (p_ok Q); cbn; [|by eexists].
    destruct (IH w L' HL') as (t2 & E2). rewrite E2. by eexists.
Qed.
Lemma met_pred c n k : met (conn c) n k = (comp_pred c n k).2.
Proof. destruct c; unfold met, conn, comp_pred; [by destruct (k =? n) | by destruct (0 <? k) | destruct (k =? 0); [done | by destruct (n =? 1)]]. Qed.
Lemma ok_rel p : ok_ok p.
Proof.
  induction p as [i u|c l IH|p IH|l IH] using UPred_ind'; intros w Q H; inversion H as [? ? ? ? Hl|? ? L HL|? Q0 HQ|? ? L HL]; subst; cbn.
  - unfold call. cbn. rewrite Hl. by eexists.
  - destruct (count_rel l IH w L HL) as (t & E). unfold bnd. rewrite E. cbn. rewrite met_pred.
    rewrite (Forall2_length _ _ _ HL). by eexists.
  - destruct (IH w Q0 HQ) as (t & E). unfold bnd. rewrite E. by eexists.
  - by apply all_rel.
Qed.

Definition report_total (p : UPred) : Prop := forall c w Q, rel w p Q -> exists t rep, PredProtoModel.report c p w = (w, t, inl rep).
Lemma reports_total l : Forall report_total l -> forall c w L, Forall2 (rel w) l L ->
  exists t reps, reports (PredProtoModel.report c) l w = (w, t, inl reps).
Proof.
  induction 1 as [|q l Hq Hl IH]; intros c w L HL; inversion HL as [|? Q ? L' HQ HL']; subst; cbn.
  - by do 2 eexists.
  - destruct (Hq c w Q HQ) as (t1 & rep & E1). unfold bnd. rewrite E1. destruct (IH c w L' HL') as (t2 & reps & E2). rewrite E2. by do 2 eexists.
Qed.
Lemma first_failure_total l : Forall report_total l -> forall c w L b, Forall2 (rel w) l L ->
  exists t reps, first_failure (PredProtoModel.report c) l b w = (w, t, inl reps).
Proof.
  induction 1 as [|q l Hq Hl IH]; intros c w L b HL; inversion HL as [|? Q ? L' HQ HL']; subst; cbn.
  - by do 2 eexists.
  - destruct (ok_rel q w Q HQ) as (t0 & E0). unfold bnd. rewrite E0.
    destruct (p_ok Q); [|destruct b].
    + destruct (IH c w L' b HL') as (t2 & reps & E2). rewrite E2. by do 2 eexists.
    + destruct (IH c w L' true HL') as (t2 & reps & E2). rewrite E2. by do 2 eexists.
    + destruct (Hq c w Q HQ) as (t1 & rep & E1). rewrite E1. destruct (IH c w L' true HL') as (t2 & reps & E2). rewrite E2. by do 2 eexists.
Qed.
Lemma report_rel p : report_total p.
Proof.
  induction p as [i u|cn l IH|p IH|l IH] using UPred_ind'; intros c w Q H; inversion H as [? ? ? ? Hl|? ? L HL|? Q0 HQ|? ? L HL]; subst; cbn.
  - by do 2 eexists.
  - assert (Forall ok_ok l) as Hok by (apply Forall_forall; intros; apply ok_rel).
    destruct (count_rel l Hok w L HL) as (t & E). unfold bnd. rewrite E.
    destruct (reports_total l IH (flip (inverted (conn c0)) c) w L HL) as (t2 & reps & E2). rewrite E2. by do 2 eexists.
  - destruct (IH (flip true c) w Q0 HQ) as (t & rep & E). cbn in E. unfold bnd. rewrite E.
    destruct (ok_rel p w Q0 HQ) as (t2 & E2). rewrite E2. by do 2 eexists.
  - destruct (first_failure_total l IH c w L false HL) as (t & reps & E). unfold bnd. rewrite E. by do 2 eexists.
Qed.

(** ** Expect() *)

Lemma expect_rel s e fs : exists w' tr r, expect (embed s e) (act_of fs) ∅ = (w', tr, r) /\
  match new_predicate s e with
  | inr er => r = inl false /\ exists er', UvFatal (inl er') ∈ tr /\ err er' = er
  | inl p => match p_done (foldl (fun p f => ExpectModel.notify f p) p fs) with
             | (_, Some v) => r = inr v
             | (q, None) => r = inl (p_ok q)
             end
  end.
Proof.
  destruct (new_all_ok s e 0 ∅) as (w1 & t1 & n1 & r1 & E1 & _ & _ & H1).
  pose proof (new_spec _ _ _ _ _ _ E1) as [_ Hspec].
  unfold expect. unfold bnd at 1. rewrite E1. destruct r1 as [p|er], (new_predicate s e) as [Q|er']; try done.
  - destruct H1 as [H1 _]. destruct Hspec as (_ & Hids & _). assert (NoDup (ids p)) as Hn by (rewrite Hids; apply NoDup_seq).
    destruct (act_rel p fs w1 Q Hn H1) as (w2 & t2 & E2 & R2). change (foldl _ Q fs) with (feed fs Q).
    destruct (done_rel p w2 _ Hn R2) as (w3 & t3 & E3 & R3 & _).
    unfold bnd at 1. unfold deferring. rewrite E2, E3. destruct (p_done (feed fs Q)) as [q [v|]]; cbn [pan fst snd] in *.
    + by do 3 eexists.
    + specialize (R3 eq_refl). destruct (ok_rel p w3 q R3) as (t4 & E4). unfold bnd at 1. rewrite E4.
      destruct (report_rel p (mkRCtx (p_ok q) false) w3 q R3) as (t5 & rep & E5). unfold bnd at 1. rewrite E5.
      destruct (p_ok q); cbn; by do 3 eexists.
  - cbn. do 3 eexists. split; [reflexivity|]. split; [done|]. exists er. split; [|done]. apply elem_of_app. right. left.
Qed.

End Builtin.
