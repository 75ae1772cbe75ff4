(** * The goroutine that calls Done, Ok and Report. *)
From Verif Require Import SatConcSpec SatConcLemmas SatisfyLemmas.

(** ** User code *)

Definition ufrm (f : Frm) : Prop := match f with FFmt _ _ k => user k | FTry k => forall r, user (k r) end.
Definition uctl (c : Ctl) : Prop := match c with Run p => user p | Body _ _ k => user k end.
Definition uthr (th : Thr) : Prop := uctl (th_ctl th) /\ Forall ufrm (th_stk th).
Lemma user_prog p : forall fn stk, user (t_prog fn stk p).
Proof.
  induction p as [|v|m s a k IH|k IH|k IH|g p _ k IH|a g p IHp k IH|a g p IHp k IH]; intros fn stk; cbn; constructor; auto; try constructor.
  intros [v|]; [constructor|auto].
Qed.
Lemma tstep_user ths t st lk c us rest l st' lk' th' :
  uthr (mkT c us) -> tstep ths t st lk (mkT c (us ++ rest)) l st' lk' th' ->
  (exists c' us', th' = mkT c' (us' ++ rest) /\ uthr (mkT c' us') /\ forall o, l <> LOut o) \/
  (us = [] /\ rest <> [] /\ ((exists s, c = Run (TRet s)) \/ exists v, c = Run (TPanic v))).
Proof.
  intros [Hc Hs] Hst. cbn in Hc, Hs. remember (mkT c (us ++ rest)) as th eqn:Eth.
  destruct Hst as [st lk k stk|st m a at_ k stk Hm|st lk a at_ k stk|st lk s m at_ k stk|st lk v m at_ k stk|st lk o f l r k stk
    |st lk r k stk|st k stk|st k stk|st fn k stk|st lk u k stk th' Hu Hend|st lk p k stk|st lk s k stk|st lk v k stk|st lk k stk|st lk o k stk];
    injection Eth as Ec Es; subst c; cbn in Hc.
  - left. inversion Hc. exists (Run k), us. by subst stk.
  - left. inversion Hc. exists (Run (if formats m then a else TRet "")), (FFmt m at_ k :: us). subst stk.
    split; [done|]. split; [|done]. split; [cbn; destruct (formats m); [done|constructor]|]. by constructor.
  - left. inversion Hc. exists (Run k), us. by subst stk.
  - destruct us as [|fr us]; [right; split; [done|]; split; [intros ->; done|left; by exists s]|].
    injection Es as <- ->. left. apply Forall_cons_1 in Hs as [Hf Hs]. eexists _, us. split; [done|]. done.
  - destruct us as [|fr us]; [right; split; [done|]; split; [intros ->; done|right; by exists v]|].
    injection Es as <- ->. left. apply Forall_cons_1 in Hs as [Hf Hs]. eexists _, us. split; [done|]. done.
  - left. eexists _, us. subst stk. split; [done|]. split; [done|]. by destruct o.
  - left. eexists _, us. subst stk. split; [done|]. split; [|done]. split; [|done]. cbn. destruct r; [constructor|done].
  - left. inversion Hc. eexists _, us. subst stk. split; [done|]. split; [|done]. split; [|done]. cbn. auto.
  - left. inversion Hc. eexists _, us. subst stk. split; [done|]. split; [|done]. split; [|done]. cbn. auto.
  - left. inversion Hc. eexists _, us. subst stk. split; [done|]. split; [|done]. done.
  - left. inversion Hc. exists (Run k), us. by subst stk.
  - left. inversion Hc. exists (Run p), (FTry k :: us). subst stk. split; [done|]. split; [|done]. split; [done|]. by constructor.
  - destruct us as [|fr us]; [right; split; [done|]; split; [intros ->; done|left; by exists s]|].
    injection Es as <- ->. left. apply Forall_cons_1 in Hs as [Hf Hs]. eexists _, us. split; [done|]. split; [|done]. split; [|done]. cbn. auto.
  - destruct us as [|fr us]; [right; split; [done|]; split; [intros ->; done|right; by exists v]|].
    injection Es as <- ->. left. apply Forall_cons_1 in Hs as [Hf Hs]. eexists _, us. split; [done|]. split; [|done]. split; [|done]. cbn. auto.
  - inversion Hc.
  - inversion Hc.
Qed.
Lemma tstep_try ths t st lk s k l st' lk' th' : tstep ths t st lk (mkT (Run (TRet s)) [FTry k]) l st' lk' th' ->
  l = LTried None /\ st' = st /\ th' = mkT (Run (k None)) [].
Proof. inversion 1; subst. done. Qed.
Lemma tstep_try_panic ths t st lk v k l st' lk' th' : tstep ths t st lk (mkT (Run (TPanic v)) [FTry k]) l st' lk' th' ->
  l = LTried (Some v) /\ st' = st /\ th' = mkT (Run (k (Some v))) [].
Proof. inversion 1; subst. done. Qed.
Lemma tstep_out ths t st lk o k stk l st' lk' th' : tstep ths t st lk (mkT (Run (TOut o k)) stk) l st' lk' th' ->
  l = LOut o /\ st' = st /\ th' = mkT (Run k) stk.
Proof. inversion 1; subst. done. Qed.
Lemma tstep_peek ths t st lk k stk l st' lk' th' : tstep ths t st lk (mkT (Run (TPeek k)) stk) l st' lk' th' ->
  l = LTau /\ st' = st /\ th' = mkT (Run (k st)) stk.
Proof. inversion 1; subst. done. Qed.
Lemma tstep_enter ths t st lk p k stk l st' lk' th' : tstep ths t st lk (mkT (Run (TTry p k)) stk) l st' lk' th' ->
  l = LTau /\ st' = st /\ th' = mkT (Run p) (FTry k :: stk).
Proof. inversion 1; subst. done. Qed.
Lemma tstep_top ths t st lk s l st' lk' th' : ~ tstep ths t st lk (mkT (Run (TRet s)) []) l st' lk' th'.
Proof. by inversion 1. Qed.
Lemma tstep_top_panic ths t st lk v l st' lk' th' : ~ tstep ths t st lk (mkT (Run (TPanic v)) []) l st' lk' th'.
Proof. by inversion 1. Qed.

(** ** Phases *)
Section Phases.
Context (E : SEnv) (b : bool) (f : TP) (Hf : user f).

Definition result (r r' : option SPan) : option SPan :=
  match (match r' with Some v => Some v | None => r end) with Some SAbort => None | x => x end.
Definition k_close (r : option SPan) : option SPan -> TP := fun r' => t_after b (result r r').
Definition k_clean (r : option SPan) (i : nat) : option SPan -> TP := fun r' =>
  TOut (OEnd r') (match r' with Some v => k_close r (Some v) | None => t_close (close_stack E r) i (k_close r) end).
Definition p_len (r : option SPan) : TP := TPeek (fun st => t_close (close_stack E r) (length (ss_cleanup st)) (k_close r)).
Definition k_end : option SPan -> TP := fun r => TOut (OEnd r) (p_len r).
Lemma main_eq : t_main E b f = TTry f k_end.
Proof. done. Qed.

Definition ran (cs : list ((Fn * SProg) * option SPan)) : list COut := concat (map cleanup_answers cs).
Lemma ran_app cs cs' : ran (cs ++ cs') = ran cs ++ ran cs'.
Proof. unfold ran. by rewrite map_app, concat_app. Qed.
(** The functions that close found. *)
Definition found (tr : list (nat * Lab)) (r : option SPan) (fns : list (Fn * SProg)) (cs : list ((Fn * SProg) * option SPan)) (extra : list COut) : Prop :=
  exists pre mid, tr = pre ++ mid /\ fns = registered (did pre) /\ answers pre = [OEnd r] /\ answers mid = ran cs ++ extra.
(** Some of them were run, and none panicked. *)
Definition some_run (fns : list (Fn * SProg)) (cs : list ((Fn * SProg) * option SPan)) : Prop :=
  cs.*1 = take (length cs) (rev fns) /\ Forall (fun c => c.2 = None) cs /\ length cs <= length fns.
(** All of them were run, up to one that panicked. *)
Definition all_run (fns : list (Fn * SProg)) (cs : list ((Fn * SProg) * option SPan)) : Prop :=
  cs.*1 = take (length cs) (rev fns) /\ (forall i c, cs !! i = Some c -> S i < length cs -> c.2 = None) /\
  (length cs < length fns -> exists c v, last cs = Some c /\ c.2 = Some v) /\ length cs <= length fns.
(** Done is about to end with [r0]. *)
Definition closed (tr : list (nat * Lab)) (r0 : option SPan) : Prop :=
  exists r fns cs, found tr r fns cs [] /\ all_run fns cs /\ r0 = result r (last_panic (map snd cs)).

(** What Ok answers. *)
Definition ok_fact (tr0 tr : list (nat * Lab)) (x : bool) : Prop :=
  (x = true -> called skipping (did tr) \/ ~ called failing (did tr0)) /\
  (x = false -> called failing (did tr) /\ ~ called skipping (did tr0)).
(** What comes after Ok. *)
Inductive tail : TP -> Prop :=
| ta_peek k : (forall st, tail (k st)) -> tail (TPeek k)
| ta_report rep k : tail k -> tail (TOut (OReport rep) k)
| ta_ret s : tail (TRet s).
Definition k_rep : bool -> TP := fun x => TOut (OOk x) (t_report b (fun rep => TOut (OReport rep) (TRet ""))).
Lemma tail_ok k : (forall x, tail (k x)) -> tail (t_ok k).
Proof. intros H. unfold t_ok. constructor. intros st. destruct (ss_skipped st); [done|]. constructor. done. Qed.
Lemma tail_report : tail (t_report b (fun rep => TOut (OReport rep) (TRet ""))).
Proof.
  unfold t_report. apply tail_ok. intros x. constructor. intros st.
  assert (H : forall out, tail (if negb x && b then TOut (OReport (mkCR x out [] [])) (TRet "")
    else TPeek (fun st => let x0 := ss_explanation st in TPeek (fun st => TOut (OReport (mkCR x out x0 (ss_messages st))) (TRet ""))))).
  { intros out. destruct (negb x && b); [repeat constructor|]. constructor. intros st1. cbn. constructor. intros st2. repeat constructor. }
  destruct (ss_skipped st); [apply H|]. constructor. intros st1. apply H.
Qed.

(** Where Ok is, after Done ended. *)
Inductive after (tr0 tr : list (nat * Lab)) : option SPan -> Thr -> Prop :=
| af_panic v : after tr0 tr (Some v) (mkT (Run (TPanic v)) [])
| af_ok : after tr0 tr None (mkT (Run (t_ok k_rep)) [])
| af_failed : ~ called skipping (did tr0) -> after tr0 tr None (mkT (Run (TPeek (fun st => k_rep (negb (ss_failed st))))) [])
| af_said x : ok_fact tr0 tr x -> after tr0 tr None (mkT (Run (k_rep x)) [])
| af_tail p : tail p -> after tr0 tr None (mkT (Run p) []).

Inductive phase (tr : list (nat * Lab)) : Thr -> Prop :=
| ph_start : answers tr = [] -> phase tr (mkT (Run (t_main E b f)) [])
| ph_fun c us : answers tr = [] -> uthr (mkT c us) -> phase tr (mkT c (us ++ [FTry k_end]))
| ph_end r : answers tr = [] -> phase tr (mkT (Run (k_end r)) [])
| ph_len r : answers tr = [OEnd r] -> phase tr (mkT (Run (p_len r)) [])
| ph_loop r fns cs i : found tr r fns cs [] -> some_run fns cs -> length fns = i + length cs ->
    phase tr (mkT (Run (t_close (close_stack E r) i (k_close r))) [])
| ph_begin r fns cs i fn : found tr r fns cs [] -> some_run fns cs -> length fns = S i + length cs -> fns !! i = Some fn ->
    phase tr (mkT (Run (TOut (OBegin fn) (TTry (t_prog fn.1 (close_stack E r) fn.2) (k_clean r i)))) [])
| ph_begun r fns cs i fn : found tr r fns cs [OBegin fn] -> some_run fns cs -> length fns = S i + length cs -> fns !! i = Some fn ->
    phase tr (mkT (Run (TTry (t_prog fn.1 (close_stack E r) fn.2) (k_clean r i))) [])
| ph_clean r fns cs i fn c us : found tr r fns cs [OBegin fn] -> some_run fns cs -> length fns = S i + length cs -> fns !! i = Some fn ->
    uthr (mkT c us) -> phase tr (mkT c (us ++ [FTry (k_clean r i)]))
| ph_cended r fns cs i fn r' : found tr r fns cs [OBegin fn] -> some_run fns cs -> length fns = S i + length cs -> fns !! i = Some fn ->
    phase tr (mkT (Run (k_clean r i r')) [])
| ph_closed r0 : closed tr r0 -> phase tr (mkT (Run (t_after b r0)) [])
| ph_after tr0 r0 mid th : tr = tr0 ++ (0, LOut (ODone r0)) :: mid -> closed tr0 r0 -> after tr0 tr r0 th -> phase tr th.

Definition silent (l : Lab) : Prop := forall o, l <> LOut o.
Lemma answers_silent tr t l : silent l -> answers (tr ++ [(t, l)]) = answers tr.
Proof. intros H. rewrite answers_snoc. destruct l; rewrite ?app_nil_r; try done. by destruct (H o). Qed.
Lemma found_silent tr t l r fns cs x : silent l -> found tr r fns cs x -> found (tr ++ [(t, l)]) r fns cs x.
Proof.
  intros H (pre & mid & -> & H1 & H2 & H3). exists pre, (mid ++ [(t, l)]). rewrite app_assoc. by rewrite (answers_silent _ _ _ H).
Qed.
Lemma found_out tr t o r fns cs x : found tr r fns cs x -> found (tr ++ [(t, LOut o)]) r fns cs (x ++ [o]).
Proof. intros (pre & mid & -> & H1 & H2 & H3). exists pre, (mid ++ [(t, LOut o)]). by rewrite app_assoc, answers_snoc, H3, app_assoc. Qed.
Lemma found_cleanup tr t r fns cs fn r' : found tr r fns cs [OBegin fn] -> found (tr ++ [(t, LOut (OEnd r'))]) r fns (cs ++ [(fn, r')]) [].
Proof.
  intros H. apply (found_out _ t (OEnd r')) in H as (pre & mid & -> & H1 & H2 & H3). exists pre, mid. rewrite ran_app. by rewrite app_nil_r.
Qed.
Lemma closed_silent tr t l r0 : silent l -> closed tr r0 -> closed (tr ++ [(t, l)]) r0.
Proof. intros H (r & fns & cs & H1 & H2 & H3). exists r, fns, cs. split; [by apply found_silent|done]. Qed.
Lemma called_more K l l' : called K l -> called K (l ++ l').
Proof. rewrite called_app. by left. Qed.
Lemma ok_fact_more tr0 tr e x : ok_fact tr0 tr x -> ok_fact tr0 (tr ++ [e]) x.
Proof.
  intros [H1 H2]. unfold ok_fact. rewrite did_app. split; intros Hx.
  - destruct (H1 Hx); [left; by apply called_more|by right].
  - destruct (H2 Hx). split; [by apply called_more|done].
Qed.
Lemma after_more tr0 tr e r0 th : after tr0 tr r0 th -> after tr0 (tr ++ [e]) r0 th.
Proof. intros H. destruct H; try by constructor. constructor. by apply ok_fact_more. Qed.
(** Another goroutine takes a step. *)
Lemma phase_silent tr t l th : silent l -> phase tr th -> phase (tr ++ [(t, l)]) th.
Proof.
  intros Hl H. destruct H.
  - apply ph_start. by rewrite answers_silent.
  - apply ph_fun; [by rewrite answers_silent|done].
  - apply ph_end. by rewrite answers_silent.
  - apply ph_len. by rewrite answers_silent.
  - eapply ph_loop; [by apply found_silent|done|done].
  - eapply ph_begin; [by apply found_silent|done|done|done].
  - eapply ph_begun; [by apply found_silent|done|done|done].
  - eapply ph_clean; [by apply found_silent|done|done|done|done].
  - eapply ph_cended; [by apply found_silent|done|done|done].
  - apply ph_closed. by apply closed_silent.
  - eapply (ph_after _ tr0 r0 (mid ++ [(t, l)])); [subst tr; by rewrite <- app_assoc|done|by apply after_more].
Qed.

Lemma some_run_snoc fns cs i fn r' : some_run fns cs -> length fns = S i + length cs -> fns !! i = Some fn ->
  (cs ++ [(fn, r')]).*1 = take (length (cs ++ [(fn, r')])) (rev fns).
Proof.
  intros (H1 & H2 & H3) Hl Hi. rewrite app_length. cbn. rewrite fmap_app, H1. cbn.
  replace (length cs + 1) with (S (length cs)) by lia. symmetry. assert (Hr : rev fns = reverse fns) by (unfold reverse; by rewrite rev_alt). rewrite Hr. apply take_S_r.
  rewrite reverse_lookup by lia. rewrite <- Hi. f_equal. lia.
Qed.
Lemma some_all fns cs : some_run fns cs -> length fns = length cs -> all_run fns cs.
Proof.
  intros (H1 & H2 & H3) Hl. split; [done|]. split; [|split; [lia|lia]]. intros i c Hi _. rewrite Forall_lookup in H2. eauto.
Qed.
Lemma some_all_panic fns cs i fn v : some_run fns cs -> length fns = S i + length cs -> fns !! i = Some fn ->
  all_run fns (cs ++ [(fn, Some v)]).
Proof.
  intros Hs Hl Hi. pose proof (some_run_snoc _ _ _ _ (Some v) Hs Hl Hi) as Ht. destruct Hs as (H1 & H2 & H3). split; [done|].
  rewrite app_length. cbn. split; [|split; [|lia]].
  - intros j c Hj Hlt. rewrite lookup_app_l in Hj by lia. rewrite Forall_lookup in H2. eauto.
  - intros _. rewrite last_snoc. eauto.
Qed.
Lemma some_run_none fns cs : some_run fns cs -> last_panic (map snd cs) = None.
Proof.
  intros (_ & H & _). unfold last_panic. induction cs as [|c cs IH]; [done|]. apply Forall_cons_1 in H as [Hc Hr]. cbn. rewrite Hc. auto.
Qed.
Lemma last_panic_snoc l v : last_panic (l ++ [Some v]) = Some v.
Proof. unfold last_panic. rewrite omap_app. cbn. by rewrite last_snoc. Qed.

(** The goroutine of Done takes a step. *)
Lemma phase_step c ths tr y th l st' lk' th' : inv c tr y -> phase tr th -> tstep ths 0 (sy_st y) (sy_lock y) th l st' lk' th' ->
  phase (tr ++ [(0, l)]) th'.
Proof.
  intros I Hp Hst. destruct Hp as [Ha|c0 us Ha Hu|r Ha|r Ha|r fns cs i Hfo Hso Hl|r fns cs i fn Hfo Hso Hl Hi|r fns cs i fn Hfo Hso Hl Hi
    |r fns cs i fn c0 us Hfo Hso Hl Hi Hu|r fns cs i fn r' Hfo Hso Hl Hi|r0 Hc|tr0 r0 mid th Etr Hc Haf].
  - rewrite main_eq in Hst. apply tstep_enter in Hst as (-> & _ & ->). apply (ph_fun _ (Run f) []); [by rewrite answers_silent|].
    split; [done|constructor].
  - destruct (tstep_user _ _ _ _ _ _ _ _ _ _ _ Hu Hst) as [(c' & us' & -> & Hu' & Hl)|(-> & _ & [[s ->]|[v ->]])].
    + apply ph_fun; [by rewrite answers_silent|done].
    + apply tstep_try in Hst as (-> & _ & ->). apply ph_end. by rewrite answers_silent.
    + apply tstep_try_panic in Hst as (-> & _ & ->). apply ph_end. by rewrite answers_silent.
  - apply tstep_out in Hst as (-> & _ & ->). apply ph_len. by rewrite answers_snoc, Ha.
  - apply tstep_peek in Hst as (-> & _ & ->). apply (ph_loop _ r (ss_cleanup (sy_st y)) []); [|split; [done|split; [constructor|cbn; lia]]|cbn; lia].
    exists tr, [(0, LTau)]. split; [done|]. split; [apply (i_cleanup _ _ _ I)|]. done.
  - destruct i as [|i]; cbn in Hst.
    + unfold k_close, t_after in Hst. apply tstep_out in Hst as (-> & _ & ->).
      apply (ph_after _ tr (result r None) []); [done| |].
      * exists r, fns, cs. split; [done|]. split; [by apply some_all|]. by rewrite (some_run_none _ _ Hso).
      * destruct (result r None); constructor.
    + apply tstep_peek in Hst as (-> & _ & ->).
      assert (Hx : exists more, ss_cleanup (sy_st y) = fns ++ more).
      { destruct Hfo as (pre & mid & -> & -> & _). rewrite (i_cleanup _ _ _ I), did_app, registered_app. eauto. }
      destruct Hx as [more Hx]. rewrite Hx, lookup_app_l by lia.
      destruct (lookup_lt_is_Some_2 fns i) as [fn Hfn]; [lia|]. rewrite Hfn.
      apply (ph_begin _ r fns cs i fn); [by apply found_silent|done|lia|done].
  - apply tstep_out in Hst as (-> & _ & ->). apply (ph_begun _ r fns cs i fn); [|done|done|done]. by apply (found_out _ _ _ _ _ _ []).
  - apply tstep_enter in Hst as (-> & _ & ->). apply (ph_clean _ r fns cs i fn (Run _) []); [by apply found_silent|done|done|done|].
    split; [apply user_prog|constructor].
  - destruct (tstep_user _ _ _ _ _ _ _ _ _ _ _ Hu Hst) as [(c' & us' & -> & Hu' & Hlab)|(-> & _ & [[s ->]|[v ->]])].
    + eapply ph_clean; [by apply found_silent|done|done|done|done].
    + apply tstep_try in Hst as (-> & _ & ->). eapply ph_cended; [by apply found_silent|done|done|done].
    + apply tstep_try_panic in Hst as (-> & _ & ->). eapply ph_cended; [by apply found_silent|done|done|done].
  - unfold k_clean in Hst. apply tstep_out in Hst as (-> & _ & ->). destruct r' as [v|].
    + apply ph_closed. exists r, fns, (cs ++ [(fn, Some v)]). split; [by apply found_cleanup|]. split; [by eapply some_all_panic|].
      rewrite map_app. cbn [map snd]. by rewrite last_panic_snoc.
    + apply (ph_loop _ r fns (cs ++ [(fn, None)])); [by apply found_cleanup| |rewrite app_length; cbn; lia].
      split; [by eapply some_run_snoc|]. destruct Hso as (_ & H2 & _). split; [|rewrite app_length; cbn; lia].
      apply Forall_app. split; [done|]. by constructor.
  - unfold t_after in Hst. apply tstep_out in Hst as (-> & _ & ->). apply (ph_after _ tr r0 []); [done|done|].
    destruct r0; constructor.
  - assert (Hmore : forall th', after tr0 (tr ++ [(0, l)]) r0 th' -> phase (tr ++ [(0, l)]) th').
    { intros th'' H. eapply (ph_after _ tr0 r0 (mid ++ [(0, l)])); [subst tr; by rewrite <- app_assoc|done|done]. }
    apply Hmore. destruct Haf as [v| |Hns|x Hx|p Hp].
    + by apply tstep_top_panic in Hst.
    + unfold t_ok in Hst. apply tstep_peek in Hst as (-> & _ & ->). destruct (ss_skipped (sy_st y)) eqn:Hsk.
      * constructor. split; [|done]. intros _. left. rewrite did_app. apply called_more. by apply (i_skipped _ _ _ I).
      * constructor. intros Hc'. assert (Hc2 : called skipping (did tr)).
        { subst tr. rewrite did_app. by apply called_more. }
        apply (i_skipped _ _ _ I) in Hc2. congruence.
    + apply tstep_peek in Hst as (-> & _ & ->). constructor. split; intros Hx.
      * right. intros Hc'. assert (Hc2 : called failing (did tr)).
        { subst tr. rewrite did_app. by apply called_more. }
        apply (i_failed _ _ _ I) in Hc2. rewrite Hc2 in Hx. done.
      * split; [|done]. rewrite did_app. apply called_more. apply (i_failed _ _ _ I). by destruct (ss_failed (sy_st y)).
    + unfold k_rep in Hst. apply tstep_out in Hst as (-> & _ & ->). constructor. apply tail_report.
    + destruct Hp as [k Hk|rep k Hk|s].
      * apply tstep_peek in Hst as (-> & _ & ->). constructor. done.
      * apply tstep_out in Hst as (-> & _ & ->). by constructor.
      * by apply tstep_top in Hst.
Qed.

(** All goroutines. *)
Definition pinv (tr : list (nat * Lab)) (y : Sys) : Prop :=
  exists th0 rest, sy_ths y = th0 :: rest /\ phase tr th0 /\ Forall uthr rest.
Lemma pinv_step c tr y e y' : inv c tr y -> pinv tr y -> step y e y' ->
  pinv (tr ++ [e]) y' /\ (forall o, e.2 = LOut o -> e.1 = 0).
Proof.
  intros I (th0 & rest & Eth & Hp & Hr) Hs. destruct Hs as [st lk ths t th l st' lk' th' Ht Hst|st lk ths t v Ht].
  2:{ cbn in *. subst ths. split; [|done]. exists th0, rest. split; [done|]. split; [by apply phase_silent|done]. }
  cbn in *. subst ths. destruct t as [|t].
  - injection Ht as ->. split; [|done]. exists th', rest. split; [done|]. split; [|done]. by eapply (phase_step c _ _ (mkSys st lk None (th :: rest))).
  - cbn in Ht. pose proof Hr as Hr'. rewrite Forall_lookup in Hr'. specialize (Hr' _ _ Ht). destruct th as [c0 us].
    assert (Hx : uthr th' /\ silent l).
    { pose proof Hst as Hst'. rewrite <- (app_nil_r us) in Hst'.
      destruct (tstep_user _ _ _ _ _ _ _ _ _ _ _ Hr' Hst') as [(c' & us' & -> & Hu & Hl)|(_ & Hn & _)]; [|done]. by rewrite app_nil_r. }
    destruct Hx as [Hu Hl]. split; [|intros o Ho; by destruct (Hl o)]. exists th0, (<[t := th']> rest). split; [done|].
    split; [by apply phase_silent|]. by apply Forall_insert.
Qed.
Lemma runs_pinv ps tr y : Forall user ps -> runs (sys_init E b f ps) tr y -> pinv tr y.
Proof.
  intros Hps. induction 1 as [|tr y e y' H IH Hs].
  - exists (mkT (Run (t_main E b f)) []), (map (fun p => mkT (Run p) []) ps). split; [done|]. split; [by apply ph_start|].
    apply Forall_fmap. eapply Forall_impl; [exact Hps|]. intros p Hp. split; [done|constructor].
  - apply (pinv_step _ _ _ _ _ (runs_inv _ _ _ _ _ _ H) IH Hs).
Qed.

(** ** Done and Ok *)

Lemma user_no_out t th o ths st lk st' lk' th' : uthr th -> ~ tstep ths t st lk th (LOut o) st' lk' th'.
Proof.
  intros Hu H. destruct th as [c us]. rewrite <- (app_nil_r us) in H.
  destruct (tstep_user _ _ _ _ _ _ _ _ _ _ _ Hu H) as [(c' & us' & _ & _ & Hl)|(_ & Hn & _)]; [by destruct (Hl o)|done].
Qed.
Lemma user_try_no_out t c us k o ths st lk st' lk' th' : uthr (mkT c us) -> ~ tstep ths t st lk (mkT c (us ++ [FTry k])) (LOut o) st' lk' th'.
Proof.
  intros Hu H. destruct (tstep_user _ _ _ _ _ _ _ _ _ _ _ Hu H) as [(c' & us' & _ & _ & Hl)|(-> & Hn & [[s ->]|[v ->]])].
  - by destruct (Hl o).
  - by apply tstep_try in H as (? & _).
  - by apply tstep_try_panic in H as (? & _).
Qed.
(** Who answers, and where the goroutine of Done is then. *)
Lemma out_step c tr y t o y' : inv c tr y -> pinv tr y -> step y (t, LOut o) y' ->
  t = 0 /\ (forall r0, o = ODone r0 -> closed tr r0 /\ sy_ths y !! 0 = Some (mkT (Run (t_after b r0)) [])) /\
  (forall x, o = OOk x -> exists tr0 mid, tr = tr0 ++ (0, LOut (ODone None)) :: mid /\ closed tr0 None /\ ok_fact tr0 tr x).
Proof.
  intros I P Hs. assert (t = 0) as -> by (destruct (pinv_step _ _ _ _ _ I P Hs) as [_ H]; by eapply H).
  split; [done|]. destruct P as (th0 & rest & Eth & Hp & Hr). remember (0, LOut o) as e eqn:Ee.
  destruct Hs as [st lk ths t th l st' lk' th' Ht Hst|]; [|done]. injection Ee as -> ->. cbn in *. subst ths. injection Ht as ->.
  destruct Hp as [Ha|c0 us Ha Hu|r Ha|r Ha|r fns cs i Hfo Hso Hl|r fns cs i fn Hfo Hso Hl Hi|r fns cs i fn Hfo Hso Hl Hi
    |r fns cs i fn c0 us Hfo Hso Hl Hi Hu|r fns cs i fn r' Hfo Hso Hl Hi|r0 Hc|tr0 r0 mid th Etr Hc Haf].
  - by apply tstep_enter in Hst as (? & _).
  - by apply user_try_no_out in Hst.
  - apply tstep_out in Hst as ([= ->] & _). done.
  - by apply tstep_peek in Hst as (? & _).
  - destruct i as [|i]; cbn in Hst; [|by apply tstep_peek in Hst as (? & _)].
    unfold k_close, t_after in Hst. apply tstep_out in Hst as ([= ->] & _). split; [|done]. intros r0 [= <-]. split; [|done].
    exists r, fns, cs. split; [done|]. split; [by apply some_all|]. by rewrite (some_run_none _ _ Hso).
  - apply tstep_out in Hst as ([= ->] & _). done.
  - by apply tstep_enter in Hst as (? & _).
  - by apply user_try_no_out in Hst.
  - apply tstep_out in Hst as ([= ->] & _). done.
  - apply tstep_out in Hst as ([= ->] & _). split; [|done]. by intros r1 [= <-].
  - destruct Haf as [v| |Hns|x Hx|p Hp].
    + by apply tstep_top_panic in Hst.
    + by apply tstep_peek in Hst as (? & _).
    + by apply tstep_peek in Hst as (? & _).
    + apply tstep_out in Hst as ([= ->] & _). split; [done|]. intros x' [= <-]. by exists tr0, mid.
    + destruct Hp as [k Hk|rep k Hk|s]; [by apply tstep_peek in Hst as (? & _)|by apply tstep_out in Hst as ([= ->] & _)|by apply tstep_top in Hst].
Qed.
Lemma answer_lemma ps pre t o post y : Forall user ps -> runs (sys_init E b f ps) (pre ++ (t, LOut o) :: post) y ->
  t = 0 /\ (forall r0, o = ODone r0 -> closed pre r0) /\
  (forall x, o = OOk x -> exists pre0 mid, pre = pre0 ++ (0, LOut (ODone None)) :: mid /\ closed pre0 None /\ ok_fact pre0 pre x).
Proof.
  intros Hps H. apply runs_app in H as (y1 & H1 & H2). apply runs_cons in H2 as (y2 & Hs & _).
  destruct (out_step _ _ _ _ _ _ (runs_inv _ _ _ _ _ _ H1) (runs_pinv _ _ _ Hps H1) Hs) as (-> & H3 & H4).
  split; [done|]. split; [|done]. intros r0 Ho. by apply H3.
Qed.

(** ** Report, when the other goroutines have ended *)

(** What [p] answers if nothing changes. *)
Fixpoint says (p : TP) (st : SState) : list COut :=
  match p with TPeek k => says (k st) st | TOut o k => o :: says k st | _ => [] end.
Inductive silent_code : TP -> Prop :=
| sc_peek k : (forall st, silent_code (k st)) -> silent_code (TPeek k)
| sc_out o k : silent_code k -> silent_code (TOut o k)
| sc_panic v : silent_code (TPanic v)
| sc_ret s : silent_code (TRet s).
Lemma tail_silent p : tail p -> silent_code p.
Proof. induction 1; by constructor. Qed.
Lemma after_silent r0 : silent_code (t_after b r0).
Proof.
  unfold t_after. constructor. destruct r0; [constructor|]. unfold t_ok. constructor. intros st.
  assert (H : forall x, silent_code (k_rep x)) by (intros x; constructor; apply tail_silent, tail_report).
  destruct (ss_skipped st); [apply H|]. constructor. intros st'. apply H.
Qed.
Lemma solo_lemma y1 p : others_ended y1 -> sy_ths y1 !! 0 = Some (mkT (Run p) []) -> silent_code p ->
  forall tr y, runs y1 tr y ->
  did tr = [] /\ others_ended y /\ sy_st y = sy_st y1 /\
  exists p', sy_ths y !! 0 = Some (mkT (Run p') []) /\ silent_code p' /\ says p (sy_st y1) = answers tr ++ says p' (sy_st y1).
Proof.
  intros Ho Ht Hsc tr y. induction 1 as [|tr y e y' H IH Hs].
  - split; [done|]. split; [done|]. split; [done|]. by exists p.
  - destruct IH as (Hd & Ho' & Hst & p' & Ht' & Hsc' & Hsays).
    destruct Hs as [st lk ths t th l st' lk' th' Htt Hst'|st lk ths t v Htt].
    2:{ cbn in *. rewrite did_snoc, answers_snoc, Hd, !app_nil_r. split; [done|]. split; [done|]. split; [done|]. by exists p'. }
    cbn in *. assert (t = 0) as ->.
    { destruct t; [done|]. destruct (Ho' _ _ (Nat.neq_succ_0 t) Htt) as [s ->]. by apply tstep_top in Hst'. }
    rewrite Ht' in Htt. injection Htt as <-. assert (Hlt : 0 < length ths) by by eapply lookup_lt_Some.
    assert (Hoe : forall th', others_ended (mkSys st' lk' None (<[0 := th']> ths))).
    { intros th'' u x Hu Hx. cbn in Hx. rewrite list_lookup_insert_ne in Hx by done. by eapply Ho'. }
    subst st. destruct Hsc' as [k Hk|o k Hk|v|s].
    + apply tstep_peek in Hst' as (-> & -> & ->). rewrite did_snoc, answers_snoc, Hd, !app_nil_r. split; [done|]. split; [apply Hoe|]. split; [done|].
      exists (k (sy_st y1)). cbn. rewrite list_lookup_insert by done. split; [done|]. split; [done|]. done.
    + apply tstep_out in Hst' as (-> & -> & ->). rewrite did_snoc, answers_snoc, Hd. split; [done|]. split; [apply Hoe|]. split; [done|].
      exists k. cbn. rewrite list_lookup_insert by done. split; [done|]. split; [done|]. rewrite <- app_assoc. exact Hsays.
    + by apply tstep_top_panic in Hst'.
    + by apply tstep_top in Hst'.
Qed.
(** The report on a state. *)
Definition report_on (st : SState) : CReport :=
  let out := if ss_skipped st then "the expectation was skipped" else if ss_failed st then "the expectation failed" else "" in
  if negb (s_ok st) && b then mkCR (s_ok st) out [] [] else mkCR (s_ok st) out (ss_explanation st) (ss_messages st).
Lemma says_after st : says (t_after b None) st = [ODone None; OOk (s_ok st); OReport (report_on st)].
Proof.
  unfold t_after, t_ok, t_report, report_on, s_ok. cbn. destruct (ss_skipped st) eqn:E1; cbn; rewrite ?E1; cbn; rewrite ?E1; cbn.
  - done.
  - destruct (ss_failed st) eqn:E2; cbn; rewrite ?E2; cbn; [|rewrite ?E1; cbn; rewrite ?E2; done].
    destruct b; cbn; rewrite ?E1; cbn; rewrite ?E2; done.
Qed.
(** When the other goroutines have ended nobody holds the mutex while Done ends. *)
Lemma report_lemma ps pre y1 post y : Forall user ps -> runs (sys_init E b f ps) pre y1 -> others_ended y1 ->
  runs y1 ((0, LOut (ODone None)) :: post) y ->
  tracks (fn_name (done_fn E)) (did pre) (sy_st y1) /\ did post = [] /\ sy_st y = sy_st y1 /\
  exists more, [OOk (s_ok (sy_st y1)); OReport (report_on (sy_st y1))] = answers post ++ more.
Proof.
  intros Hps H1 Ho H2. pose proof (runs_inv _ _ _ _ _ _ H1) as I. pose proof (runs_pinv _ _ _ Hps H1) as P.
  destruct (runs_cons _ _ _ _ H2) as (y2 & Hs & _). destruct (out_step _ _ _ _ _ _ I P Hs) as (_ & H3 & _).
  destruct (H3 _ eq_refl) as [_ Ht].
  destruct (solo_lemma _ _ Ho Ht (after_silent None) _ _ H2) as (Hd & _ & Hst & p' & _ & _ & Hsays).
  split; [|split; [exact Hd|split; [done|]]].
  - apply (inv_free _ _ _ I). destruct (i_lock _ _ _ I) as [Hlt Hl]. destruct (sy_lock y1) as [u|] eqn:Elk; [|done]. exfalso.
    destruct (lookup_lt_is_Some_2 _ _ (Hlt _ eq_refl)) as [th Hth]. pose proof (Hl _ _ Hth) as Hh. rewrite decide_True in Hh by done.
    destruct u as [|u]; [rewrite Ht in Hth; injection Hth as <-; done|].
    destruct (Ho _ _ (Nat.neq_succ_0 u) Hth) as [s ->]. done.
  - rewrite says_after in Hsays. cbn in Hsays. injection Hsays as Hsays. eauto.
Qed.
End Phases.
