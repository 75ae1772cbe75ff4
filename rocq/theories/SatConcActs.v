(** * Every goroutine makes the calls its code says. *)
From Verif Require Import SatConcSpec SatConcLemmas SatisfyLemmas.

Lemma did_by_snoc t tr u l : did_by t (tr ++ [(u, l)]) = did_by t tr ++ match l with LSat e => if decide (u = t) then [e] else [] | _ => [] end.
Proof. unfold did_by. rewrite omap_app. f_equal. cbn. destruct l; try done. by destruct (decide (u = t)). Qed.

(** What comes after the method [m] had its effect. *)
Definition rest_acts (r0 : option SPan) (k : TP) (evs : list SEv) (r : Res) : Prop :=
  match r0 with Some v => evs = [] /\ r = RPanic v | None => acts k evs r end.
(** What the frames do once the code above them ended with [r0]. *)
Inductive kacts : list Frm -> Res -> list SEv -> Res -> Prop :=
| ka_nil r : kacts [] r [] r
| ka_try k stk r0 e1 r1 e2 r : acts (k (panic_of r0)) e1 r1 -> kacts stk r1 e2 r -> kacts (FTry k :: stk) r0 (e1 ++ e2) r
| ka_fmt m at_ k stk r0 e1 r1 e2 r : rest_acts (method_panic m) k e1 r1 -> kacts stk r1 e2 r ->
    kacts (FFmt m at_ k :: stk) r0 (events (method_steps m (text_of r0) at_) ++ e1 ++ e2) r.
Inductive tacts : Thr -> list SEv -> Res -> Prop :=
| ta_run p stk e1 r1 e2 r : acts p e1 r1 -> kacts stk r1 e2 r -> tacts (mkT (Run p) stk) (e1 ++ e2) r
| ta_body l r0 k stk e1 r1 e2 r : rest_acts r0 k e1 r1 -> kacts stk r1 e2 r -> tacts (mkT (Body l r0 k) stk) (events l ++ e1 ++ e2) r.

Lemma not_aborting m : ~ aborting m -> method_panic m = None.
Proof. rewrite <- is_aborting_iff. destruct m; cbn; congruence. Qed.
Lemma aborting_dec m : aborting m \/ ~ aborting m.
Proof. rewrite <- is_aborting_iff. destruct (is_aborting m); auto. Qed.
Lemma formatted_ok m a evs ra : acts (if formats m then a else TRet "") evs ra -> formatted m a evs ra.
Proof.
  destruct (formats m) eqn:E.
  - intros H. constructor; [|done]. apply is_logging_iff. by destruct m.
  - intros H. inversion H; subst. apply fo_none. rewrite <- is_logging_iff. destruct m; cbn in *; congruence.
Qed.
Definition lab_events (l : Lab) : list SEv := match l with LSat e => [e] | _ => [] end.
Lemma tacts_step ths t st lk th l st' lk' th' evs r :
  tstep ths t st lk th l st' lk' th' -> tacts th' evs r -> tacts th (lab_events l ++ evs) r.
Proof.
  intros Hst H. destruct Hst as [st lk k stk|st m a at_ k stk Hm|st lk a at_ k stk|st lk s m at_ k stk|st lk v m at_ k stk|st lk o f l r0 k stk
    |st lk r0 k stk|st k stk|st k stk|st fn k stk|st lk u k stk th' Hu Hend|st lk p k stk|st lk s k stk|st lk v k stk|st lk k stk|st lk o k stk];
    cbn [lab_events app].
  - inversion H; subst. by repeat econstructor.
  - inversion H as [? ? e1 r1 e2 r' Ha Hk|]; subst. inversion Hk as [| |? ? ? ? ? e3 r3 e4 ? Hr Hk']; subst.
    destruct (method_steps_ok m (text_of r1) at_ st Hm) as [_ Hev]. rewrite Hev.
    apply formatted_ok in Ha. destruct (aborting_dec m) as [Hab|Hab].
    + rewrite (method_panic_aborting _ Hab) in Hr. destruct Hr as [-> ->].
      rewrite app_nil_l, app_assoc. econstructor; [|exact Hk']. by apply ac_abort.
    + rewrite (not_aborting _ Hab) in Hr.
      change ([SvCall m (text_of r1) at_] ++ e3 ++ e4) with ((SvCall m (text_of r1) at_ :: e3) ++ e4). rewrite app_assoc.
      econstructor; [|exact Hk']. by apply ac_call.
  - inversion H; subst. econstructor; [|done]. by apply ac_parallel.
  - inversion H as [|? ? ? ? e1 r1 e2 r' Hr Hk]; subst. rewrite <- (app_nil_l (events _ ++ _)). eapply ta_run; [constructor|]. by eapply (ka_fmt _ _ _ _ (RRet s)).
  - inversion H as [|? ? ? ? e1 r1 e2 r' Hr Hk]; subst. rewrite <- (app_nil_l (events _ ++ _)). eapply ta_run; [constructor|]. by eapply (ka_fmt _ _ _ _ (RPanic v)).
  - inversion H as [|? ? ? ? e1 r1 e2 r' Hr Hk]; subst.
    assert (lab_events (lab o) ++ events l ++ e1 ++ e2 = events ((o, f) :: l) ++ e1 ++ e2) as -> by (by destruct o). by eapply ta_body.
  - inversion H as [? ? e1 r1 e2 r' Ha Hk|]; subst. apply (ta_body [] r0 k stk e1 r1 e2 r); [|done].
    destruct r0; [|done]. by inversion Ha.
  - inversion H; subst. rewrite app_comm_cons. econstructor; [by constructor|done].
  - inversion H; subst. rewrite app_comm_cons. econstructor; [by constructor|done].
  - inversion H as [|? ? ? ? e1 r1 e2 r' Hr Hk]; subst. cbn. rewrite app_comm_cons. econstructor; [by constructor|done].
  - inversion H; subst. econstructor; [by constructor|done].
  - inversion H as [? ? e1 r1 e2 r' Ha Hk|]; subst. inversion Hk as [|? ? ? e3 r3 e4 ? Hr Hk'|]; subst. rewrite app_assoc.
    econstructor; [by eapply ac_try|done].
  - inversion H; subst. rewrite <- (app_nil_l (_ ++ _)). econstructor; [constructor|]. by econstructor.
  - inversion H; subst. rewrite <- (app_nil_l (_ ++ _)). econstructor; [constructor|]. by econstructor.
  - inversion H; subst. econstructor; [by econstructor|done].
  - inversion H; subst. econstructor; [by econstructor|done].
Qed.

Lemma acts_lemma E b f ps tr y : runs (sys_init E b f ps) tr y ->
  forall t p th evs r, (t_main E b f :: ps) !! t = Some p -> sy_ths y !! t = Some th -> tacts th evs r -> acts p (did_by t tr ++ evs) r.
Proof.
  induction 1 as [|tr y [u l] y' H IH Hs]; intros t p th evs r Hp Ht Ha.
  - assert (th = mkT (Run p) []) as ->.
    { destruct t as [|t]; [by injection Hp as <-; injection Ht as <-|]. change (ps !! t = Some p) in Hp.
      change (((fun p => mkT (Run p) []) <$> ps) !! t = Some th) in Ht. rewrite list_lookup_fmap, Hp in Ht. by injection Ht as <-. }
    inversion Ha as [? ? e1 r1 e2 ? Ha' Hk|]; subst. inversion Hk; subst. cbn. by rewrite app_nil_r.
  - rewrite did_by_snoc. remember (u, l) as e eqn:Ee. destruct Hs as [st lk ths u' th0 l' st' lk' th' Hu Hst|st lk ths u' v Hu]; injection Ee as Eu El; subst u' l.
    + destruct (decide (u = t)) as [->|Hne].
      * cbn in Ht. rewrite list_lookup_insert in Ht by by eapply lookup_lt_Some. injection Ht as <-.
        specialize (IH _ _ _ _ _ Hp Hu (tacts_step _ _ _ _ _ _ _ _ _ _ _ Hst Ha)). rewrite <- app_assoc. destruct l'; exact IH.
      * cbn in Ht. rewrite list_lookup_insert_ne in Ht by done. specialize (IH _ _ _ _ _ Hp Ht Ha). destruct l'; by rewrite app_nil_r.
    + rewrite app_nil_r. by eapply IH.
Qed.
Lemma acts_ended E b f ps tr y t p s : runs (sys_init E b f ps) tr y -> (t_main E b f :: ps) !! t = Some p ->
  sy_ths y !! t = Some (mkT (Run (TRet s)) []) -> acts p (did_by t tr) (RRet s).
Proof.
  intros H Hp Ht. rewrite <- (app_nil_r (did_by t tr)). eapply acts_lemma; [done|done|done|].
  apply (ta_run _ _ [] (RRet s) []); constructor.
Qed.
Lemma acts_crashed E b f ps pre t v post y p : runs (sys_init E b f ps) (pre ++ (t, LCrash v) :: post) y -> (t_main E b f :: ps) !! t = Some p ->
  acts p (did_by t pre) (RPanic v) /\ post = [].
Proof.
  intros H Hp. apply runs_app in H as (y1 & H1 & H2). apply runs_cons in H2 as (y2 & Hs & H2).
  remember (t, LCrash v) as e eqn:Ee. destruct Hs as [st lk ths t' th l st' lk' th' Ht Hst|st lk ths t' v' Ht].
  - injection Ee as -> ->. exfalso. inversion Hst; subst. by destruct o.
  - injection Ee as Eu El. subst t' v'. split.
    + rewrite <- (app_nil_r (did_by t pre)). eapply acts_lemma; [exact H1|exact Hp|exact Ht|]. apply (ta_run _ _ [] (RPanic v) []); constructor.
    + destruct post as [|e post]; [done|]. apply runs_cons in H2 as (y3 & Hs & _). inversion Hs.
Qed.
