(** * Proofs about the functions that build actions and expectations. *)
From Verif Require Export FrontSpec.
From Coq Require Import Lia.

Section Proof.
Context {P : Params} (F : Fmt).

(** ** Induction over expressions *)
Lemma eexp_ind (Q : EExp -> Prop) :
  (forall e, (forall a, a ∈ args e -> Q a) -> Q e) -> forall e, Q e.
Proof.
  intros H. fix IH 1. intros e. apply H. destruct e as [| | | | | |c l|e| |]; cbn [args]; intros a Ha; try (apply elem_of_nil in Ha; destruct Ha).
  - induction l as [|x l IHl]; [inversion Ha|]. apply elem_of_cons in Ha as [->|Ha]; [apply IH|by apply IHl].
  - apply elem_of_list_singleton in Ha as ->. apply IH.
Qed.

Fixpoint eval_list (l : list EExp) : list Built + CPanic :=
  match l with
  | [] => inl []
  | e :: l =>
    match eval F e with
    | inr v => inr v
    | inl b => match eval_list l with inr v => inr v | inl bs => inl (b :: bs) end
    end
  end.
Lemma eval_comp c l : eval F (EComp c l) = match eval_list l with inr v => inr v | inl bs => compose_exps c bs end.
Proof. done. Qed.
Lemma eval_list_inl l bs : eval_list l = inl bs <-> Forall2 (fun e b => eval F e = inl b) l bs.
Proof.
  revert bs. induction l as [|e l IH]; intros bs; cbn.
  - split; [intros [= <-]; constructor|by inversion 1].
  - split.
    + destruct (eval F e) as [b|] eqn:Ee; [|done]. destruct (eval_list l) as [bs'|]; [|done]. intros [= <-]. constructor; [done|by apply IH].
    + inversion 1; subst. match goal with H : eval F e = _ |- _ => rewrite H end. match goal with H : Forall2 _ l _ |- _ => apply IH in H; rewrite H end. done.
Qed.
Lemma eval_list_inr l v : eval_list l = inr v -> exists l1 a l2, l = l1 ++ a :: l2 /\ (forall x, x ∈ l1 -> exists b, eval F x = inl b) /\ eval F a = inr v.
Proof.
  induction l as [|e l IH]; cbn; [done|]. destruct (eval F e) as [b|w] eqn:Ee.
  - destruct (eval_list l) as [bs|w]; [done|]. intros [= ->]. destruct (IH eq_refl) as (l1 & a & l2 & -> & H1 & H2).
    exists (e :: l1), a, l2. split; [done|]. split; [|done]. intros x Hx. apply elem_of_cons in Hx as [->|Hx]; eauto.
  - intros [= ->]. exists [], e, l. split; [done|]. split; [intros x Hx; inversion Hx|done].
Qed.

(** ** nil *)
Lemma eval_nil e : eval F e = inl BNil <-> denotes_nil e.
Proof.
  split.
  - induction e as [e IH] using eexp_ind. destruct e as [| |k m|k n|k m|f tp pred near|c l|e|desc n f|desc fn]; cbn [eval].
    + intros _. constructor.
    + done.
    + unfold to_produce. destruct m as [b|]; [|done]. by destruct (b_invalid b).
    + done.
    + by destruct m.
    + by destruct pred.
    + fold (eval_list l). destruct (eval_list l) as [bs|v] eqn:El; [|done]. apply eval_list_inl in El.
      destruct El as [|a b l' bs' Ha Hl].
      { cbn. destruct c; done. }
      destruct Hl as [|a' b' l'' bs'' Ha' Hl].
      * destruct c; cbn [compose_exps]; intros Hb.
        -- injection Hb as ->. constructor; [done|]. apply (IH a); [left|done].
        -- injection Hb as ->. constructor; [done|]. apply (IH a); [left|done].
        -- destruct (caption_of b); [|done]. unfold composite in Hb. by destruct (built_exps _).
      * destruct c; cbn [compose_exps]; unfold composite; destruct (built_exps _); done.
    + destruct (eval F e) as [b|]; [|done]. destruct (caption_of b); [|done]. by destruct b.
    + unfold repeatedly. destruct f as [f|]; [|done]. destruct (n <? 1)%Z; [done|]. by destruct desc.
    + unfold satisfy. destruct fn as [fn|]; [|done]. by destruct desc.
  - induction 1 as [|c e Hc He IH]; [done|]. rewrite eval_comp. cbn. rewrite IH. cbn. by destruct c.
Qed.
Lemma eval_captionless e b : eval F e = inl b -> (exists v, caption_of b = inr v) <-> denotes_nil e.
Proof.
  intros He. rewrite <- eval_nil. split.
  - intros [v Hv]. destruct b; [done|done..].
  - intros Hx. assert (b = BNil) as -> by congruence. by eexists.
Qed.

(** ** Faults *)
Lemma args_faultless e : (forall f, ~ fault e f) -> (forall a, a ∈ args e -> faultless a) -> faultless e.
Proof. intros H1 H2 x f Hw. destruct Hw as [e|e a x Ha Hw]; [apply H1|by apply (H2 a Ha)]. Qed.
Lemma faultless_arg e a : faultless e -> a ∈ args e -> faultless a.
Proof. intros H Ha x f Hw. apply H. by eapply wi_arg. Qed.

(** The values of leaves. *)
Lemma complains_app fn xs why : complains (txt fn ++ txt "(" ++ xs ++ txt "): " ++ txt why) fn why.
Proof. by exists xs. Qed.
Lemma eval_panics_iff e : (forall v, eval F e = inr v -> exists x f, first_fault e x /\ fault x f /\ tells v f) /\
  ((exists b, eval F e = inl b) -> faultless e).
Proof.
  induction e as [e IH] using eexp_ind.
  assert (Hleaf : args e = [] -> (forall v, eval F e = inr v -> exists f, fault e f /\ tells v f) -> ((exists b, eval F e = inl b) -> forall f, ~ fault e f) ->
    (forall v, eval F e = inr v -> exists x f, first_fault e x /\ fault x f /\ tells v f) /\ ((exists b, eval F e = inl b) -> faultless e)).
  { intros Ha H1 H2. split.
    - intros v Hv. destruct (H1 v Hv) as (f & Hf & Ht). exists e, f. split; [|done]. eapply ff_here; [|exact Hf]. rewrite Ha. intros a Hx. inversion Hx.
    - intros Hb. apply args_faultless; [by apply H2|]. rewrite Ha. intros a Hx. inversion Hx. }
  destruct e as [| |k m|k n|k m|f tp pred near|c l|e|desc n f|desc fn]; try (apply Hleaf; [done| |]; clear Hleaf IH); cbn [eval].
  - done.
  - by intros _ f Hf; inversion Hf.
  - done.
  - by intros _ f Hf; inversion Hf.
  - unfold to_produce. destruct m as [b|].
    + destruct (b_invalid b) as [er|] eqn:Eb; [|done]. intros v [= <-]. eexists. split; [by constructor|]. cbn. destruct k; apply complains_app.
    + intros v [= <-]. eexists. split; [constructor|]. cbn. destruct k; by exists (txt "<nil>").
  - unfold to_produce. intros [b' Hb] f Hf. inversion Hf; subst; [done|]. match goal with H : b_invalid _ = _ |- _ => rewrite H in Hb end. done.
  - done.
  - by intros _ f Hf; inversion Hf.
  - destruct m as [b|]; [done|]. intros v [= <-]. eexists. split; [constructor|]. cbn. destruct k; by exists (txt "<nil>").
  - intros [b' Hb] f Hf. by inversion Hf; subst.
  - destruct pred as [pred|]; [done|]. intros v [= <-]. eexists. split; [constructor|]. cbn. by exists (txt "<nil>").
  - intros [b' Hb] g Hf. by inversion Hf; subst.
  - (* composites *)
    clear Hleaf. fold (eval_list l). cbn [args] in IH. split.
    + intros v Hv. destruct (eval_list l) as [bs|w] eqn:El.
      * apply eval_list_inl in El.
        assert (Hargs : forall a, a ∈ l -> faultless a).
        { intros a Ha. apply (IH a Ha). apply elem_of_list_lookup in Ha as [i Hi]. destruct (Forall2_lookup_l _ _ _ _ _ El Hi) as (b & _ & Hb). eauto. }
        assert (Hhere : exists f, fault (EComp c l) f /\ tells v f).
        { destruct El as [|a b l' bs' Ha Hl].
          - destruct c; cbn in Hv; injection Hv as <-; (eexists; split; [constructor|]); cbn; by exists [].
          - destruct Hl as [|a' b' l'' bs'' Ha' Hl].
            + destruct c; cbn in Hv; try done. destruct (caption_of b) as [s|w] eqn:Ec; [done|]. injection Hv as ->.
              exists None. split; [constructor; apply (eval_captionless _ _ Ha); eauto|]. destruct b; [by injection Ec as <-|done..].
            + by destruct c. }
        destruct Hhere as (f & Hf & Ht). exists (EComp c l), f. split; [|done]. by eapply ff_here.
      * injection Hv as <-. apply eval_list_inr in El as (l1 & a & l2 & -> & H1 & H2).
        destruct (proj1 (IH a ltac:(set_solver)) _ H2) as (x & f & Hx & Hf & Ht). exists x, f. split; [|done].
        eapply (ff_arg _ l1 a l2); [done| |done]. apply Forall_forall. intros y Hy. apply (IH y); [set_solver|]. by apply H1.
    + intros [b Hb]. destruct (eval_list l) as [bs|w] eqn:El; [|done]. apply eval_list_inl in El. apply args_faultless.
      * intros f Hf. inversion Hf; subst.
        -- inversion El; subst. by destruct c.
        -- inversion El as [|? b0 ? ? Hx1 Hx2]; subst. inversion Hx2; subst. cbn in Hb.
           match goal with H : denotes_nil ?x |- _ => apply eval_nil in H; assert (b0 = BNil) as -> by congruence end. done.
      * intros a Ha. apply (IH a Ha). apply elem_of_list_lookup in Ha as [i Hi]. destruct (Forall2_lookup_l _ _ _ _ _ El Hi) as (b' & _ & Hb'). eauto.
  - (* Not *)
    clear Hleaf. destruct (IH e) as [IH1 IH2]; [left|]. split.
    + intros v. destruct (eval F e) as [b|w] eqn:Ee.
      * destruct (caption_of b) as [s|w] eqn:Ec; [done|]. intros [= ->]. exists (ENot e), None. split; [|split].
        -- eapply ff_here; [|constructor; apply (eval_captionless _ _ Ee); eauto]. intros a Ha. apply elem_of_list_singleton in Ha as ->. apply IH2. eauto.
        -- constructor. apply (eval_captionless _ _ Ee). eauto.
        -- destruct b; [by injection Ec as <-|done..].
      * intros [= <-]. destruct (IH1 _ eq_refl) as (x & f & Hx & Hf & Ht). exists x, f. split; [|done]. by eapply (ff_arg _ [] e []).
    + intros [b Hb]. destruct (eval F e) as [b0|w] eqn:Ee; [|done]. apply args_faultless.
      * intros f Hf. inversion Hf; subst. match goal with H : denotes_nil _ |- _ => apply eval_nil in H end. assert (b0 = BNil) as -> by congruence. done.
      * intros a Ha. apply elem_of_list_singleton in Ha as ->. apply IH2. eauto.
  - unfold repeatedly. destruct f as [f|].
    + destruct (Z.ltb_spec n 1).
      * intros v [= <-]. eexists. split; [by constructor|]. cbn.
        exists (fm_quote F desc ++ txt ", " ++ txt (pretty.pretty n) ++ txt ", <func>"). rewrite <- !app_assoc. done.
      * destruct desc; [|done]. intros v [= <-]. eexists. split; [by constructor|]. cbn.
        exists (fm_quote F [] ++ txt ", " ++ txt (pretty.pretty n) ++ txt ", <func>"). rewrite <- !app_assoc. done.
    + intros v [= <-]. eexists. split; [by constructor|]. cbn.
      exists (fm_quote F desc ++ txt ", " ++ txt (pretty.pretty n) ++ txt ", <nil>"). rewrite <- !app_assoc. done.
  - unfold repeatedly. intros [b Hb] g Hg. inversion Hg; subst; [done|..]; destruct (Z.ltb_spec n 1); try done; lia.
  - unfold satisfy. destruct fn as [fn|].
    + destruct desc; [|done]. intros v [= <-]. eexists. split; [by constructor|]. cbn.
      exists (fm_quote F [] ++ txt ", <func>"). rewrite <- !app_assoc. done.
    + intros v [= <-]. eexists. split; [by constructor|]. cbn.
      exists (fm_quote F desc ++ txt ", <nil>"). rewrite <- !app_assoc. done.
  - intros [b Hb] g Hg. by inversion Hg; subst.
Qed.
Lemma eval_panics e v : eval F e = inr v -> exists x f, first_fault e x /\ fault x f /\ tells v f.
Proof. apply eval_panics_iff. Qed.
Lemma eval_faults e x f : within e x -> fault x f -> exists v, eval F e = inr v.
Proof.
  intros Hw Hf. destruct (eval F e) as [b|v] eqn:Ee; [|eauto]. exfalso.
  refine (proj2 (eval_panics_iff e) _ x f Hw Hf). eauto.
Qed.

(** ** Meaning *)
Definition agrees (e : EExp) (b : Built) : Prop :=
  match b with
  | BNil => denotes_nil e
  | BBroken _ => lacking e
  | BExp x _ => ~ denotes_nil e /\ ~ lacking e /\ forall s fs, met s fs x <-> means s fs e
  end.

Lemma built_some bs xs : built_exps bs = Some xs <-> Forall2 (fun b x => exists s, b = BExp x s) bs xs.
Proof.
  revert xs. induction bs as [|b bs IH]; intros xs; cbn.
  - split; [intros [= <-]; constructor|by inversion 1].
  - fold (built_exps bs). split.
    + destruct b as [|x s|s]; [done| |done]. destruct (built_exps bs) as [ys|]; [|done]. intros [= <-]. constructor; [eauto|by apply IH].
    + inversion 1 as [|? x ? ys [s ->] Hl]; subst. apply IH in Hl. by rewrite Hl.
Qed.
Lemma built_none bs : built_exps bs = None -> exists b, b ∈ bs /\ (b = BNil \/ exists s, b = BBroken s).
Proof.
  induction bs as [|b bs IH]; cbn; [done|]. fold (built_exps bs). destruct b as [|x s|s].
  - intros _. exists BNil. split; [left|by left].
  - destruct (built_exps bs); [done|]. intros _. destruct (IH eq_refl) as (b & Hb & H). exists b. split; [by right|done].
  - intros _. exists (BBroken s). split; [left|eauto].
Qed.
Lemma mets_means s fs l xs : Forall2 (fun e x => met s fs x <-> means s fs e) l xs ->
  (Forall id (map (met s fs) xs) <-> Forall id (map (means s fs) l)) /\ (Exists id (map (met s fs) xs) <-> Exists id (map (means s fs) l)).
Proof.
  induction 1 as [|e x l xs Hx Hl [IH1 IH2]]; [done|]. cbn [map]. rewrite !Forall_cons, !Exists_cons, IH1, IH2. unfold id at 1 3 5 7.
  unfold id. rewrite Hx. done.
Qed.

Lemma composite_agrees c l bs s : (1 < length l \/ c = CNone /\ exists e, l = [e] /\ ~ denotes_nil e) ->
  Forall2 (fun e b => eval F e = inl b /\ agrees e b) l bs -> agrees (EComp c l) (composite c bs s).
Proof.
  intros Hn Hl. unfold composite. destruct (built_exps bs) as [xs|] eqn:Eb.
  - apply built_some in Eb.
    assert (Hx : Forall2 (fun e x => (exists s, eval F e = inl (BExp x s)) /\ ~ denotes_nil e /\ ~ lacking e /\ forall s fs, met s fs x <-> means s fs e) l xs).
    { clear Hn. revert xs Eb. induction Hl as [|e b l bs [H1 H2] Hl IH]; intros xs Eb; inversion Eb as [|? x ? ys [s' ->] Hy]; subst; constructor; [|by apply IH]. split; [by exists s'|exact H2]. }
    clear Eb Hl. cbn. split; [|split].
    + intros Hd. inversion Hd; subst. destruct Hn as [Hn|[-> _]]; [cbn in Hn; lia|done].
    + intros Hd. inversion Hd as [? ? e He1 He2 He3|? a Ha1 Ha2]; subst.
      * apply elem_of_list_lookup in He2 as [i Hi]. destruct (Forall2_lookup_l _ _ _ _ _ Hx Hi) as (x & _ & _ & Hd1 & _). done.
      * cbn in Ha1. apply elem_of_list_lookup in Ha1 as [i Hi]. destruct (Forall2_lookup_l _ _ _ _ _ Hx Hi) as (x & _ & _ & _ & Hd1 & _). done.
    + intros sc fs. assert (Hm : Forall2 (fun e x => met sc fs x <-> means sc fs e) l xs) by (eapply Forall2_impl; [exact Hx|]; intros e x (_ & _ & _ & H); apply H).
      apply mets_means in Hm as [H1 H2]. destruct c; cbn; [exact H1|exact H2|by rewrite H2].
  - apply built_none in Eb as (b & Hb & Hbad). cbn. apply elem_of_list_lookup in Hb as [i Hi].
    destruct (Forall2_lookup_r _ _ _ _ _ Hl Hi) as (e & He & He1 & He2). apply elem_of_list_lookup_2 in He.
    destruct Hbad as [-> |[s' ->]]; cbn in He2.
    + destruct Hn as [Hn|(-> & e' & -> & Hn)]; [by eapply la_nil|]. apply elem_of_list_singleton in He as ->. done.
    + eapply la_arg; [exact He|done].
Qed.

Lemma eval_means e b : eval F e = inl b -> agrees e b.
Proof.
  revert b. induction e as [e IH] using eexp_ind. intros b.
  assert (Hleaf : args e = [] -> ~ denotes_nil e -> (forall x s, b = BExp x s -> forall s fs, met s fs x <-> means s fs e) -> (exists x s, b = BExp x s) -> agrees e b).
  { intros Ha Hn Hm (x & s & ->). split; [done|]. split; [|by apply (Hm x s)]. intros Hl. inversion Hl as [c l a H1 H2 H3 H4|? a H1 H2]; subst; [cbn in Ha; subst l; cbn in H1; lia|].
    rewrite Ha in H1. inversion H1. }
  destruct e as [|u s|k m|k n|k m|f tp pred near|c l|e|desc n f|desc fn]; cbn [eval]; intros Hb.
  - injection Hb as <-. constructor.
  - injection Hb as <-. apply Hleaf; [done|by inversion 1| |eauto]. by intros x s' [= <- <-].
  - unfold to_produce in Hb. destruct m as [m|]; [|done]. destruct (b_invalid m); [done|]. injection Hb as <-.
    apply Hleaf; [done|by inversion 1| |eauto]. intros x s' [= <- <-] sc fs. cbn. unfold m_type. cbn. split.
    + intros (m' & H1 & [= H2 H3] & H4). by exists m'.
    + intros (m' & H1 & H2 & H3 & H4). exists m'. by rewrite H2, H3.
  - injection Hb as <-. apply Hleaf; [done|by inversion 1| |unfold type_exp; eauto]. intros x s' [= <- <-] sc fs. cbn. unfold m_type. split.
    + intros (m' & H1 & [= H2 H3]). by exists m'.
    + intros (m' & H1 & H2 & H3). exists m'. by rewrite H2, H3.
  - destruct m as [m|]; [|done]. injection Hb as <-. apply Hleaf; [done|by inversion 1| |unfold type_exp; eauto]. intros x s' [= <- <-] sc fs. cbn. unfold m_type. cbn. split.
    + intros (m' & H1 & [= H2 H3]). by exists m'.
    + intros (m' & H1 & H2 & H3). exists m'. by rewrite H2, H3.
  - destruct pred as [pred|]; [|done]. injection Hb as <-. apply Hleaf; [done|by inversion 1| |eauto]. intros x s' [= <- <-] sc fs. by destruct f.
  - clear Hleaf. fold (eval_list l) in Hb. destruct (eval_list l) as [bs|w] eqn:El; [|done]. apply eval_list_inl in El.
    assert (Hl : Forall2 (fun e b => eval F e = inl b /\ agrees e b) l bs).
    { clear Hb. cbn [args] in IH. induction El as [|e b' l bs He Hl IHl]; constructor.
      - split; [done|]. apply IH; [left|done].
      - apply IHl. intros a Ha. apply IH. by right. }
    destruct Hl as [|e1 b1 l bs [He1 Hb1] Hl].
    + by destruct c.
    + destruct Hl as [|e2 b2 l bs He2 Hl].
      * destruct c; cbn [compose_exps] in Hb.
        -- injection Hb as <-. destruct b1; cbn in Hb1 |- *.
           ++ by constructor.
           ++ destruct Hb1 as (H1 & H2 & H3). split; [inversion 1; subst; done|]. split.
              ** intros Hla. inversion Hla as [? ? a A1 A2 A3|? a A1 A2]; subst; [cbn in A1; lia|]. apply elem_of_list_singleton in A1 as ->. done.
              ** intros sc fs. rewrite Forall_singleton. apply H3.
           ++ eapply la_arg; [left|done].
        -- injection Hb as <-. destruct b1; cbn in Hb1 |- *.
           ++ by constructor.
           ++ destruct Hb1 as (H1 & H2 & H3). split; [inversion 1; subst; done|]. split.
              ** intros Hla. inversion Hla as [? ? a A1 A2 A3|? a A1 A2]; subst; [cbn in A1; lia|]. apply elem_of_list_singleton in A1 as ->. done.
              ** intros sc fs. rewrite Exists_cons, Exists_nil. unfold id. rewrite H3. tauto.
           ++ eapply la_arg; [left|done].
        -- destruct (caption_of b1) as [s|w] eqn:Ec; [|done]. injection Hb as <-. apply composite_agrees; [|by repeat constructor].
           right. split; [done|]. exists e1. split; [done|]. intros Hd. apply eval_nil in Hd. assert (b1 = BNil) as -> by congruence. done.
      * assert (Hall : Forall2 (fun e b => eval F e = inl b /\ agrees e b) (e1 :: e2 :: l) (b1 :: b2 :: bs)) by (constructor; [done|constructor; done]).
        destruct c; cbn [compose_exps] in Hb; injection Hb as <-; (apply composite_agrees; [left; cbn; lia|done]).
  - clear Hleaf. destruct (eval F e) as [b1|w] eqn:Ee; [|done]. specialize (IH e ltac:(left) b1 Ee). destruct (caption_of b1) as [s|w] eqn:Ec; [|done]. injection Hb as <-.
    destruct b1 as [|x s'|s']; [done| |].
    + destruct IH as (H1 & H2 & H3). split; [by inversion 1|]. split.
      * intros Hla. inversion Hla as [? ? a A1 A2 A3|? a A1 A2]; subst. apply elem_of_list_singleton in A1 as ->. done.
      * intros sc fs. cbn. by rewrite H3.
    + cbn in IH |- *. eapply la_arg; [left|done].
  - unfold repeatedly in Hb. destruct f as [f|]; [|done]. destruct (Z.ltb_spec n 1); [done|]. destruct desc as [|ch desc]; [done|]. injection Hb as <-.
    apply Hleaf; [done|by inversion 1| |eauto]. intros x s' [= <- <-] sc fs. cbn. split.
    + intros Hi i Hin. specialize (Hi i ltac:(lia)). destruct (f i) as [x|] eqn:Ex; [|done]. eauto 6.
    + intros Hi i Hin. destruct (Hi i ltac:(lia)) as (f' & x & [= <-] & -> & Hm). done.
  - unfold satisfy in Hb. destruct fn as [fn|]; [|done]. destruct desc as [|ch desc]; [done|]. injection Hb as <-.
    apply Hleaf; [done|by inversion 1| |eauto]. by intros x s' [= <- <-] sc fs.
Qed.

Lemma eval_single e :
  eval F (EComp CAll [e]) = eval F e /\ eval F (EComp CAny [e]) = eval F e /\
  match eval F (ENot e), eval F (EComp CNone [e]) with
  | inl b, inl b' => caption_of b = caption_of b' /\ exists s, caption_of b = inl (txt "not " ++ s) /\
      exists b0, eval F e = inl b0 /\ caption_of b0 = inl s
  | inr v, inr v' => v = v'
  | _, _ => False
  end.
Proof.
  rewrite !eval_comp. cbn [eval eval_list]. destruct (eval F e) as [b|v]; [|done]. split; [done|]. split; [done|]. cbn [compose_exps].
  destruct (caption_of b) as [s|v] eqn:Ec; [|done]. unfold composite. destruct b as [|x s'|s']; cbn in *; [done| |]; injection Ec as ->.
  - split; [done|]. exists s. eauto.
  - split; [done|]. exists s. eauto.
Qed.

(** ** Actions *)
Lemma call_options_spec l : match call_options l with inl is => l = Some <$> is | inr v => None ∈ l /\ v = CSays (txt "InterceptCommandExecutor(<nil>): function must not be nil") end.
Proof.
  induction l as [|[i|] l IH]; cbn; [done| |split; [left|done]].
  destruct (call_options l) as [is|v]; [by rewrite IH|]. destruct IH as [H ->]. split; [by right|done].
Qed.
Lemma foldl_last {A} (l : list A) x : foldl (fun _ i => Some i) x l = match last l with Some y => Some y | None => x end.
Proof. revert x. induction l as [|a l IH]; intros x; [done|]. cbn [foldl]. rewrite IH, last_cons. by destruct (last l). Qed.
Lemma last_fmap_some {A} (l : list A) : mjoin (last (Some <$> l)) = last l.
Proof. rewrite fmap_last. by destruct (last l). Qed.

Lemma action_panics a v : eval_action F a = inr v ->
  exists fn why, action_fault a (fn, why) /\ exists s, v = CSays s /\
    ((forall b er, a <> EDispatch true (Some b) \/ b_invalid b <> Some er) -> complains s fn why) /\ exists fn', complains s fn' why.
Proof.
  assert (Hx : forall fn why s, action_fault a (fn, why) -> complains s fn why -> v = CSays s -> exists fn why, action_fault a (fn, why) /\ exists s, v = CSays s /\
    ((forall b er, a <> EDispatch true (Some b) \/ b_invalid b <> Some er) -> complains s fn why) /\ exists fn', complains s fn' why).
  { intros fn why s H1 H2 ->. exists fn, why. split; [done|]. exists s. split; [done|]. split; [done|]. by exists fn. }
  destruct a as [k m|j|fn opts]; cbn [eval_action].
  - unfold dispatching. destruct m as [b|].
    + destruct (b_invalid b) as [er|] eqn:Eb; [|done]. intros [= <-]. destruct k.
      * eexists _, er. split; [by constructor|]. eexists. split; [done|]. split; [|eexists "ToRecordEvent"%string; apply complains_app].
        intros Hno. destruct (Hno b er); done.
      * eapply Hx; [by constructor| |done]. apply complains_app.
    + intros [= <-]. eapply Hx; [constructor| |done]. destruct k; by exists (txt "<nil>").
  - unfold advancing. destruct j as [j|].
    + destruct j as [t|d|desc step]; cbn; [done| |done]. destruct (Z.ltb_spec d 0); [|done]. intros [= <-]. eapply Hx; [by constructor| |done]. by exists (fm_duration F d).
    + intros [= <-]. eapply Hx; [constructor| |done]. by exists (txt "<nil>").
  - unfold calling. assert (Hc := call_options_spec opts). destruct (call_options opts) as [is|w].
    + destruct fn as [fn|]; [done|]. intros [= <-]. eapply Hx; [constructor| |done]; [|by exists (txt "<nil>")].
      rewrite Hc. intros Hin. apply elem_of_list_fmap in Hin as (y & [=] & _).
    + intros [= <-]. destruct Hc as [Hn ->]. eapply Hx; [by constructor| |done]. by exists (txt "<nil>").
Qed.
Lemma action_faults a f : action_fault a f -> exists v, eval_action F a = inr v.
Proof.
  destruct 1 as [k|k b er Hb| |d Hd|fn opts Ho|opts Ho]; cbn.
  - by eexists.
  - rewrite Hb. by eexists.
  - by eexists.
  - unfold advancing. cbn. destruct (Z.ltb_spec d 0); [by eexists|lia].
  - unfold calling. assert (Hc := call_options_spec opts). destruct (call_options opts) as [is|w]; [|by eexists].
    rewrite Hc in Ho. apply elem_of_list_fmap in Ho as (y & [=] & _).
  - unfold calling. destruct (call_options opts); by eexists.
Qed.
Lemma action_does a x s : eval_action F a = inl (x, s) -> does a x.
Proof.
  destruct a as [k m|j|fn opts]; cbn [eval_action does].
  - unfold dispatching. destruct m as [b|]; [|done]. destruct (b_invalid b) eqn:Eb; [done|]. by intros [= <- <-].
  - unfold advancing. destruct j as [j|]; [|done]. destruct j as [t|d|desc step]; cbn.
    + intros [= <- <-]. by eexists.
    + destruct (Z.ltb_spec d 0); [done|]. intros [= <- <-]. eexists. split; [done|]. by split.
    + intros [= <- <-]. by eexists.
  - unfold calling. assert (Hc := call_options_spec opts). destruct (call_options opts) as [is|w]; [|done]. destruct fn as [fn|]; [|done].
    intros [= <- <-]. eexists. split; [done|]. rewrite Hc, last_fmap_some, foldl_last. by destruct (last is).
Qed.

End Proof.
