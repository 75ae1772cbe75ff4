(** * Every schedule of goroutines that use a *SatisfyT ends. *)
From Verif Require Import SatConcSpec.

Definition tlt (th' th : Thr) : Prop := exists ths t st lk l st' lk', tstep ths t st lk th l st' lk' th'.
Ltac next := constructor; let th' := fresh "th" in let Hst := fresh "Hst" in intros th' (? & ? & ? & ? & ? & ? & ? & Hst); inversion Hst; subst; cbn in *.

Lemma body_acc l r k stk :
  (forall v, Acc tlt (mkT (Run (TPanic v)) stk)) -> Acc tlt (mkT (Run k) stk) -> Acc tlt (mkT (Body l r k) stk).
Proof. intros Hp Hk. induction l as [|[o f] l IH]; next; [destruct r; auto|auto]. Qed.
Lemma run_acc p : forall stk, (forall s, Acc tlt (mkT (Run (TRet s)) stk)) -> (forall v, Acc tlt (mkT (Run (TPanic v)) stk)) ->
  Acc tlt (mkT (Run p) stk).
Proof.
  induction p as [s|v|k IH|m a IHa stk0 k IH|k IH|k IH|fn k IH|t k IH|p IHp k IH|k IH|o k IH]; intros stk Hr Hp; auto.
  - next. auto.
  - assert (Hf : forall p, (forall stk, (forall s, Acc tlt (mkT (Run (TRet s)) stk)) -> (forall v, Acc tlt (mkT (Run (TPanic v)) stk)) ->
      Acc tlt (mkT (Run p) stk)) -> Acc tlt (mkT (Run p) (FFmt m stk0 k :: stk))).
    { intros p H. apply H; intros z; next; apply body_acc; auto. }
    next; [|by auto]. apply Hf. destruct (formats m); [exact IHa|auto].
  - next. auto.
  - next. auto.
  - next. apply body_acc; auto.
  - next. auto.
  - next. apply IHp; intros z; next; auto.
  - next. auto.
  - next. auto.
Qed.
Lemma top_acc p : Acc tlt (mkT (Run p) []).
Proof. apply run_acc; intros z; next. Qed.

Definition llt (ths' ths : list Thr) : Prop := exists t th th', ths !! t = Some th /\ tlt th' th /\ ths' = <[t := th']> ths.
Lemma llt_wf ths : Forall (Acc tlt) ths -> Acc llt ths.
Proof.
  induction 1 as [|th ths Hth _ IH].
  - constructor. intros ths' (t & th & th' & H & _). done.
  - revert ths IH. induction Hth as [th _ IHt]. intros ths IH. induction IH as [ths Hths IHl].
    constructor. intros ths' ([|t] & th1 & th2 & H & Hlt & ->); cbn in *.
    + injection H as <-. apply IHt; [done|]. by constructor.
    + apply IHl. exists t, th1, th2. done.
Qed.

Lemma finite_lemma E inverted f ps (y : nat -> Sys) :
  y 0 = sys_init E inverted f ps -> ~ forall k, exists e, step (y k) e (y (1 + k)).
Proof.
  intros H0 H. assert (Hgo : forall ths, Acc llt ths -> forall k, sy_ths (y k) = ths -> False).
  { intros ths Hacc. induction Hacc as [ths _ IH]. intros k Hk. destruct (H k) as [e Hs].
    inversion Hs as [st lk ths1 t th l st' lk' th' Hth Hts Heq1 Heq2 Heq3|st lk ths1 t v Hth Heq1 Heq2 Heq3].
    - eapply (IH (<[t:=th']> ths1)); [|rewrite <- Heq3; done]. rewrite <- Hk, <- Heq1. cbn.
      exists t, th, th'. split; [done|]. split; [by repeat eexists|done].
    - destruct (H (1 + k)) as [e' Hs']. cbn [Nat.add] in *. rewrite <- Heq3 in Hs'. inversion Hs'. }
  eapply Hgo; [apply (llt_wf (sy_ths (y 0)))|done]. rewrite H0. cbn. constructor; [apply top_acc|].
  apply Forall_forall. intros th (p & -> & _)%elem_of_list_fmap. apply top_acc.
Qed.
