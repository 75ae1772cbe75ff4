(** * Consequences: clock, time, enablement, executor, history. *)
From Verif Require Export TestScan.
From Coq Require Import Lia.

Section Lemmas.
Context {P : Params}.

(** ** The beginning of a test *)

Definition base_opts (topts : list TOpt) : list OOpt :=
  [OptType HTProjection false; OptType HTIntegration false; OptObserver 0] ++ unsafe topts.

Lemma begin_lemma app u wall topts :
  let st := begin app u wall topts in
  ts_clock st = start_time wall topts /\ ts_opts st = base_opts topts /\ ts_bound st = None /\
  ts_eng st = e_init (test_config app) u /\ ts_failed st = false /\ ts_next st = S (max_observer (base_opts topts)).
Proof.
  unfold begin. set (st0 := mkTS _ _ _ _ _ _ _ _ _ _).
  assert (H : let st := foldl apply_topt st0 topts in
    ts_clock st = default (ts_clock st0) (last (omap (fun o => match o with OptStart t => Some t | _ => None end) topts)) /\
    ts_opts st = ts_opts st0 ++ unsafe topts /\ ts_bound st = ts_bound st0 /\ ts_eng st = ts_eng st0 /\ ts_failed st = ts_failed st0).
  { generalize st0. induction topts as [|o topts IH]; intros st1; [cbn; by rewrite app_nil_r|].
    cbn [foldl]. destruct (IH (apply_topt st1 o)) as (H1 & H2 & H3 & H4 & H5). cbn zeta. rewrite H1, H2, H3, H4, H5. destruct o; cbn; split_and!; try done.
    - rewrite last_cons. by destruct (last _).
    - unfold unsafe. cbn. by rewrite <- app_assoc. }
  destruct H as (H1 & H2 & H3 & H4 & H5). cbn. rewrite H1, H2, H3, H4, H5. done.
Qed.

Definition a_init (app : list Handler) (u : U) (wall : Z) (topts : list TOpt) : Abs :=
  mkAbs (start_time wall topts) [] [] None None (S (max_observer (base_opts topts))) (e_init (test_config app) u) true false.

Lemma testing_scan E app u wall topts p st evs r :
  testing E app u wall topts p st evs r ->
  exists a, Scan (test_config app) (base_opts topts) (a_init app u wall topts) evs a /\ (r <> Halted -> Rel (base_opts topts) a st).
Proof.
  intros (He & Ha & Hr).
  destruct (begin_lemma app u wall topts) as (H1 & H2 & H3 & H4 & H5 & H6).
  destruct (proj1 (test_ok E (test_config app) (base_opts topts) He Ha) p (begin app u wall topts) (a_init app u wall topts) st evs r) as (a & HS & HR).
  - split; cbn; try done. by rewrite app_nil_r.
  - by left.
  - done.
  - exact Hr.
  - exists a. split; [done|]. intros Hx. by apply HR.
Qed.

Section Machine.
Context (c : Config) (B : list OOpt).
Notation Scan := (Scan c B).
Notation Step := (Step c B).

(** ** Clock *)

Lemma clock_at_app z l l' : clock_at z (l ++ l') = clock_at (clock_at z l) l'.
Proof. unfold clock_at, clock_sets. rewrite omap_app, last_app. by destruct (last (omap _ l')). Qed.

Lemma step_clock a ev a' : Step a ev a' -> ab_clock a' = clock_at (ab_clock a) [ev] /\ (ab_clock a <= ab_clock a')%Z.
Proof. destruct 1; cbn; split; try done; lia. Qed.
Lemma scan_clock a l a' : Scan a l a' -> ab_clock a' = clock_at (ab_clock a) l.
Proof.
  induction 1 as [a|a ev a1 l a2 H1 H2 IH]; [done|]. rewrite IH. apply step_clock in H1 as [-> _].
  change (ev :: l) with ([ev] ++ l). by rewrite clock_at_app.
Qed.
Lemma scan_sorted a l a' : Scan a l a' -> StronglySorted Z.le (ab_clock a :: clock_sets l).
Proof.
  induction 1 as [a|a ev a1 l a2 H1 H2 IH]; [repeat constructor|].
  assert (Hc := step_clock _ _ _ H1). destruct Hc as [Hc Hle].
  assert (Hd : clock_sets (ev :: l) = match ev with TvClock t => [t] | _ => [] end ++ clock_sets l) by (destruct ev; done).
  assert (Hall : Forall (Z.le (ab_clock a)) (ab_clock a1 :: clock_sets l)).
  { inversion IH; subst. constructor; [done|]. eapply Forall_impl; [eassumption|]. cbn. lia. }
  rewrite Hd. destruct ev; cbn [app];
    try (inversion IH; subst; constructor; [done|]; by inversion Hall).
  cbn in Hc. rewrite Hc in *. constructor; [done|]. done.
Qed.

(** ** Enablement *)

Definition enables (l : list TEv) : list (string * bool) :=
  omap (fun ev => match ev with TvEnable n b => Some (n, b) | _ => None end) l.
Lemma scan_enables a l a' : Scan a l a' -> ab_en a' = ab_en a ++ enables l.
Proof.
  induction 1 as [a|a ev a1 l a2 H1 H2 IH]; [by rewrite app_nil_r|]. rewrite IH.
  destruct H1; cbn; try done. by rewrite <- app_assoc.
Qed.
Lemma scan_enabled a l a' n : Scan a l a' -> TvEnable n true ∈ l -> exists h, controllers c !! n = Some h /\ h_disabled h = false.
Proof.
  induction 1 as [a|a ev a1 l a2 H1 H2 IH]; intros Hin; [inversion Hin|].
  apply elem_of_cons in Hin as [<-|Hin]; [|by apply IH]. inversion H1; subst. eauto.
Qed.

Lemma last_enable_hopts l n : last_opt (individually n) (hopts (enables l)) = last_enable l n.
Proof.
  unfold last_opt, last_enable. f_equal. unfold enables, hopts. induction l as [|ev l IH]; [done|]. cbn.
  destruct ev; cbn; try apply IH. destruct (decide _); cbn; [by f_equal|done].
Qed.
Lemma last_opt_app {A} (p : OOpt -> option A) l l' :
  last_opt p (l ++ l') = match last_opt p l' with Some x => Some x | None => last_opt p l end.
Proof. unfold last_opt. rewrite omap_app, last_app. by destruct (last (omap p l')). Qed.
Lemma last_opt_none {A} (p : OOpt -> option A) l : (forall x, x ∈ l -> p x = None) -> last_opt p l = None.
Proof.
  intros H. unfold last_opt. induction l as [|x l IH]; [done|]. cbn. rewrite (H x) by left. apply IH. intros y Hy. apply H. by right.
Qed.
Lemma last_opt_cons' {A} (p : OOpt -> option A) x l :
  last_opt p (x :: l) = match last_opt p l with Some y => Some y | None => p x end.
Proof. change (x :: l) with ([x] ++ l). rewrite last_opt_app. destruct (last_opt p l); [done|]. unfold last_opt. cbn. by destruct (p x). Qed.

(** ** Actions in progress *)

Lemma balanced_app l l' : balanced l -> balanced l' -> balanced (l ++ l').
Proof.
  intros H H'. induction H as [|ev l Hev H IH|k l1 l2 H1 IH1 H2 IH2]; cbn; [done|by constructor|].
  rewrite <- app_assoc. cbn. by constructor.
Qed.

Lemma scan_frame : forall l a0 a1 k opts s,
  ab_stack a0 = [] -> Scan a0 l a1 -> ab_stack a1 = (k, opts) :: s ->
  exists l0 l' a2, in_action l l0 k l' /\ Scan a0 l0 a2 /\ ab_stack a2 = s /\ opts = ab_opts B a2 /\ Scan (a_do B k a2) l' a1.
Proof.
  intros l. remember (length l) as n eqn:Hn. revert l Hn. induction n as [n IH] using lt_wf_ind. intros l Hn a0 a1 k opts s H0 HS Hs.
  destruct l as [|ev l _] using rev_ind; [inversion HS; subst; congruence|].
  apply scan_app in HS as (a & HS1 & HS2). inversion HS2 as [|? ? a3 ? ? Hst Hnil]; subst. inversion Hnil; subst. clear HS2 Hnil.
  rewrite app_length in IH. cbn in IH.
  assert (Hother : match ev with TvDo _ | TvDid _ => False | _ => True end -> ab_stack a = ab_stack a1 ->
    exists l0 l' a2, in_action (l ++ [ev]) l0 k l' /\ Scan a0 l0 a2 /\ ab_stack a2 = s /\ opts = ab_opts B a2 /\ Scan (a_do B k a2) l' a1).
  { intros Hev Hsame. destruct (IH (length l) ltac:(lia) l eq_refl a0 a k opts s H0 HS1 ltac:(congruence)) as (l0 & l' & a2 & [Hl Hb] & H2 & H3 & H4 & H5).
    exists l0, (l' ++ [ev]), a2. split; [split|].
    - rewrite Hl, <- app_assoc. done.
    - apply balanced_app; [done|]. constructor; [done|constructor].
    - split; [done|]. split; [done|]. split; [done|]. apply scan_app. exists a. split; [done|]. by apply scan_one. }
  destruct Hst as [a k2|a k2 opts2 s2 Hs2|a op fs e r Hl Hp Ho Hr|a f Hl|a t opts2 s2 Hs2 Hle|a b opts2 s2 Hs2 Hbd|a b Hbd|a n b h Hh Hd|a an|a|a|a rep|a e|a];
    try (by apply Hother).
  - cbn in Hs. injection Hs as -> <- <-. exists l, [], a. split; [split; [done|constructor]|]. split; [done|]. split; [done|]. split; [done|]. constructor.
  - cbn in Hs. subst s2.
    destruct (IH (length l) ltac:(lia) l eq_refl a0 a k2 opts2 _ H0 HS1 Hs2) as (m0 & m' & b2 & [Hl Hb] & H2 & H3 & H4 & H5).
    destruct (IH (length m0) ltac:(subst l; rewrite app_length; cbn; lia) m0 eq_refl a0 b2 k opts s H0 H2 H3) as (l0 & l' & a2 & [Hl' Hb'] & H2' & H3' & H4' & H5').
    exists l0, (l' ++ TvDo k2 :: m' ++ [TvDid k2]), a2. split; [split|].
    + subst l m0. rewrite <- !app_assoc. cbn. rewrite ?app_comm_cons, <- ?app_assoc. done.
    + apply balanced_app; [done|]. constructor; [done|constructor].
    + split; [done|]. split; [done|]. split; [done|]. apply scan_app. exists b2. split; [done|]. econstructor; [constructor|].
      apply scan_app. exists a. split; [done|]. apply scan_one. by econstructor.
Qed.

Lemma did_dec (l : list TEv) : TvDid AkCall ∈ l \/ TvDid AkCall ∉ l.
Proof.
  induction l as [|ev l [IH|IH]]; [right; intros H; inversion H|left; by right|].
  assert (ev = TvDid AkCall \/ ev <> TvDid AkCall) as [->|He] by (destruct ev as [|[]| | | | | | | | | | | |]; auto); [left; left|].
  right. intros H. apply elem_of_cons in H as [H|H]; [by apply He|done].
Qed.

(** Balanced sequences leave the machine's stack alone, and unbind the executor iff a
    Call ended. *)
Lemma scan_balanced l : balanced l -> forall a a', Scan a l a' ->
  ab_stack a' = ab_stack a /\ (TvDid AkCall ∈ l -> ab_bound a' = None) /\ (TvDid AkCall ∉ l -> ab_bound a' = ab_bound a).
Proof.
  induction 1 as [|ev l Hev H IH|k l1 l2 H1 IH1 H2 IH2]; intros a a' HS.
  - inversion HS; subst. split; [done|]. split; [intros Hx; inversion Hx|done].
  - inversion HS as [|? ? a1 ? ? Hst HS']; subst. destruct (IH _ _ HS') as (R1 & R2 & R3).
    assert (ab_stack a1 = ab_stack a /\ ab_bound a1 = ab_bound a) as [E1 E2] by (destruct Hst; done).
    split; [congruence|]. split.
    + intros Hx. apply R2. apply elem_of_cons in Hx as [<-|Hx]; done.
    + intros Hx. rewrite R3; [done|]. intros Hy. apply Hx. by right.
  - inversion HS as [|? ? a1 ? ? Hst HS']; subst. inversion Hst; subst. apply scan_app in HS' as (a2 & HS1 & HS2).
    inversion HS2 as [|? ? a3 ? ? Hst2 HS3]; subst. inversion Hst2 as [|? ? opts s Hs| | | | | | | | | | | |]; subst.
    destruct (IH1 _ _ HS1) as (R1 & R2 & R3). destruct (IH2 _ _ HS3) as (R4 & R5 & R6). cbn in *.
    rewrite R1 in Hs. injection Hs as _ Hs. split; [congruence|].
    assert (k = AkCall \/ k <> AkCall) as [->|Hk] by (destruct k; auto).
    { split; [|intros Hx; exfalso; apply Hx; rewrite !elem_of_cons, !elem_of_app, !elem_of_cons; auto].
      intros _. destruct (did_dec l2) as [Hy|Hy]; [by apply R5|by rewrite R6]. }
    assert (Eb : ab_bound (a_did k s a2) = ab_bound a2 /\ ab_bound (a_do B k a) = ab_bound a) by (destruct k; done).
    destruct Eb as [Eb1 Eb2]. cbn in Eb1, Eb2. rewrite Eb1 in R6. rewrite Eb2 in R3.
    split.
    + intros Hx. apply elem_of_cons in Hx as [Hx|Hx]; [discriminate|]. apply elem_of_app in Hx as [Hx|Hx].
      * destruct (did_dec l2) as [Hy|Hy]; [by apply R5|]. rewrite R6 by done. by apply R2.
      * apply elem_of_cons in Hx as [Hx|Hx]; [injection Hx; intros; subst; done|]. by apply R5.
    + intros Hx. rewrite R6, R3; [done| |]; intros Hy; apply Hx; rewrite elem_of_cons, elem_of_app, elem_of_cons; auto.
Qed.

Lemma scan_calling l a0 a1 : ab_stack a0 = [] -> Scan a0 l a1 ->
  (calling l -> exists opts, ab_bound a1 = Some opts) /\
  (forall opts s, ab_stack a1 = (AkCall, opts) :: s -> ab_bound a1 = Some opts -> calling l).
Proof.
  intros H0 HS. split.
  - intros (l0 & l' & [-> Hb] & Hn). apply scan_app in HS as (a2 & HS1 & HS2).
    inversion HS2 as [|? ? a3 ? ? Hst HS3]; subst. inversion Hst; subst. destruct (scan_balanced _ Hb _ _ HS3) as (_ & _ & H3).
    rewrite H3 by done. cbn. eauto.
  - intros opts s Hs Hb. destruct (scan_frame _ _ _ _ _ _ H0 HS Hs) as (l0 & l' & a2 & [Hl Hbal] & H2 & H3 & H4 & H5).
    exists l0, l'. split; [done|]. intros Hn. destruct (scan_balanced _ Hbal _ _ H5) as (_ & H6 & _). rewrite H6 in Hb; done.
Qed.

(** ** History *)

Lemma scan_history l : forall a a', Scan a l a' -> ab_live a = true ->
  Forall (op_ok c) (engine_ops l) /\ run_ops c (engine_ops l) (ab_eng a) = (ab_eng a', EvFact <$> engine_facts l, ab_live a').
Proof.
  induction l as [|ev l IH]; intros a a' HS Hl; [inversion HS; subst; split; [constructor|]; cbn; by rewrite Hl|].
  inversion HS as [|? ? a1 ? ? Hst HS']; subst.
  assert (Hskip : engine_ops (ev :: l) = engine_ops l -> engine_facts (ev :: l) = engine_facts l ->
    ab_live a1 = ab_live a -> ab_eng a1 = ab_eng a ->
    Forall (op_ok c) (engine_ops (ev :: l)) /\ run_ops c (engine_ops (ev :: l)) (ab_eng a) = (ab_eng a', EvFact <$> engine_facts (ev :: l), ab_live a')).
  { intros -> -> E1 <-. apply IH; [done|]. congruence. }
  destruct Hst as [a k2|a k2 opts2 s2 Hs2|a op fs e r Hlv Hp Ho Hr|a f Hlv|a t opts2 s2 Hs2 Hle|a b opts2 s2 Hs2 Hbd|a b Hbd|a n b h Hh Hd|a an|a|a|a rep|a e|a];
    try (by apply Hskip).
  - change (engine_ops (TvOp op fs :: l)) with (op :: engine_ops l).
    change (engine_facts (TvOp op fs :: l)) with (fs ++ engine_facts l). cbn [run_ops]. rewrite Hr.
    assert (Hdead : ab_live (a_eng e (match r with Fuel => false | _ => true end) a) = false ->
       engine_ops l = [] /\ engine_facts l = [] /\ ab_eng a' = e /\ ab_live a' = false).
    { clear Hr HS IH Hskip. set (b0 := a_eng _ _ _) in *. assert (He : ab_eng b0 = e) by done. clearbody b0. revert b0 He HS'. clear.
      induction l as [|ev l IH]; intros b0 He HS' Hd; [inversion HS'; subst; done|].
      inversion HS' as [|? ? b1 ? ? Hst HS2]; subst.
      assert (Hsk : engine_ops (ev :: l) = engine_ops l -> engine_facts (ev :: l) = engine_facts l -> ab_live b1 = ab_live b0 -> ab_eng b1 = ab_eng b0 ->
        engine_ops (ev :: l) = [] /\ engine_facts (ev :: l) = [] /\ ab_eng a' = ab_eng b0 /\ ab_live a' = false).
      { intros -> -> E1 E2. apply (IH b1); [done|done|congruence]. }
      destruct Hst; try (by apply Hsk); congruence. }
    destruct r as [errs|v|].
    + destruct (IH _ _ HS' eq_refl) as [H1 H2]. split; [by constructor|]. cbn in H2. rewrite H2. by rewrite fmap_app.
    + destruct (IH _ _ HS' eq_refl) as [H1 H2]. split; [by constructor|]. cbn in H2. rewrite H2. by rewrite fmap_app.
    + destruct (Hdead eq_refl) as (-> & -> & -> & ->). split; [by constructor|]. by rewrite app_nil_r.
  - change (engine_ops (TvUser f :: l)) with (OpUser f :: engine_ops l).
    change (engine_facts (TvUser f :: l)) with (engine_facts l). cbn [run_ops run_op].
    destruct (IH _ _ HS' eq_refl) as [H1 H2]. split; [by constructor|]. cbn in H2. rewrite H2. done.
Qed.

(** ** Observers *)

Definition watched (n : nat) (opts : list OOpt) : Prop := OptObserver n ∈ opts.
Definition unwatched (n : nat) (l : list (AKind * list OOpt)) : Prop := Forall (fun x => ~ watched n x.2) l.
Lemma watched_b n opts : existsb (fun o => match o with OptObserver m => m =? n | _ => false end) opts = true <-> watched n opts.
Proof.
  rewrite existsb_exists. unfold watched. split.
  - intros (o & Hin & Ho). destruct o as [m| | |]; try done. apply Nat.eqb_eq in Ho as ->. by apply elem_of_list_In.
  - intros Hin. exists (OptObserver n). split; [by apply elem_of_list_In|]. by apply Nat.eqb_refl.
Qed.
Definition watched_if (n : nat) (opts : list OOpt) : bool :=
  existsb (fun o => match o with OptObserver m => m =? n | _ => false end) opts.
Lemma unwatched_b n opts : ~ watched n opts -> watched_if n opts = false.
Proof. intros H. destruct (watched_if n opts) eqn:E; [|done]. exfalso. by apply H, watched_b. Qed.

Lemma hopts_unwatched n l : ~ watched n (hopts l).
Proof. unfold watched, hopts. intros H. apply elem_of_list_In, in_map_iff in H as (x & Hx & _). done. Qed.
Lemma ab_opts_watched n a : ~ watched n B -> (watched n (ab_opts B a) <-> ab_obs a = Some n).
Proof.
  intros HB. unfold ab_opts, watched. rewrite elem_of_cons, !elem_of_app. split.
  - intros [H|[[H|H]|H]]; [done|by destruct HB|by apply hopts_unwatched in H|]. destruct (ab_obs a) as [m|]; cbn in H; [|inversion H].
    apply elem_of_list_singleton in H. by injection H as ->.
  - intros ->. right. right. by left.
Qed.

(** The options of an operation are watched iff the innermost action's are. *)
Lemma performed_watched n a op : performed a op ->
  exists k opts s, ab_stack a = (k, opts) :: s /\ watched_if n (opts_of op) = watched_if n opts.
Proof.
  intros (opts & s & [[Hs (o & fuel & m & ->)]|[[Hs (o & fuel & order & ->)]|[Hs [Hb (o & fuel & b & ->)]]]]).
  - by exists AkDispatch, opts, s.
  - exists AkAdvance, opts, s. split; [done|]. cbn. unfold watched_if. rewrite existsb_app. cbn. by rewrite orb_false_r.
  - by exists AkCall, opts, s.
Qed.

Lemma step_next a ev a' : Step a ev a' -> ab_next a <= ab_next a' /\ (ab_obs a' = ab_obs a \/ ab_obs a' = None \/ ab_obs a' = Some (ab_next a)).
Proof. destruct 1; cbn; split; try lia; auto. Qed.

(** The stack: the frames of nested actions, the frame of the watched action, the rest. *)
Definition layout (n d : nat) (s : list (AKind * list OOpt)) : Prop :=
  match d with
  | 0 => unwatched n s
  | S d => exists fs fr base, s = fs ++ fr :: base /\ length fs = d /\ unwatched n fs /\ watched n fr.2 /\ unwatched n base
  end.

Lemma observed_cons n ev l : observed n (ev :: l) =
  match ev with TvOp op fs => if watched_if n (opts_of op) then fs else [] | _ => [] end ++ observed n l.
Proof. done. Qed.

Lemma scan_unobserved n l : ~ watched n B -> forall a a', Scan a l a' ->
  unwatched n (ab_stack a) -> ab_obs a <> Some n -> n < ab_next a -> observed n l = [].
Proof.
  intros HB. induction l as [|ev l IH]; intros a a' HS Hu Ho Hn; [done|]. inversion HS as [|? ? a1 ? ? Hst HS']; subst.
  rewrite observed_cons. assert (Hnx := step_next _ _ _ Hst). destruct Hnx as [Hnx Hobs].
  assert (Ho1 : ab_obs a1 <> Some n) by (destruct Hobs as [->|[->| ->]]; [done|done|intros [= Hbad]; lia]).
  assert (Hx : match ev with TvOp op fs => if watched_if n (opts_of op) then fs else [] | _ => [] end = []).
  { destruct Hst; try done. destruct (performed_watched n _ _ H0) as (k & opts & s & Hs & ->).
    rewrite Hs in Hu. inversion Hu; subst. by rewrite unwatched_b. }
  rewrite Hx. cbn. apply (IH a1 a'); [done| |done|lia].
  destruct Hst; cbn; try done.
  - constructor; [|done]. cbn. by rewrite ab_opts_watched.
  - rewrite H in Hu. by inversion Hu.
Qed.

Lemma scan_observed n l : ~ watched n B -> forall d a a', Scan a l a' ->
  layout n (S d) (ab_stack a) -> ab_obs a <> Some n -> n < ab_next a -> observed n l = own_facts (S d) l.
Proof.
  intros HB. induction l as [|ev l IH]; intros d a a' HS Hu Ho Hn; [done|]. inversion HS as [|? ? a1 ? ? Hst HS']; subst.
  rewrite observed_cons. assert (Hnx := step_next _ _ _ Hst). destruct Hnx as [Hnx Hobs].
  assert (Ho1 : ab_obs a1 <> Some n) by (destruct Hobs as [->|[->| ->]]; [done|done|intros [= Hbad]; lia]).
  assert (Hgo : forall d', layout n (S d') (ab_stack a1) -> observed n l = own_facts (S d') l).
  { intros d' Hl. apply (IH d' a1 a'); [done..|lia]. }
  destruct Hst as [a k2|a k2 opts2 s2 Hs2|a op fs e r Hlv Hp Hop Hr|a f Hlv|a t opts2 s2 Hs2 Hle|a b opts2 s2 Hs2 Hbd|a b Hbd|a nm b h Hh Hd|a an|a|a|a rep|a e|a];
    try (cbn [app own_facts]; apply Hgo; exact Hu).
  - cbn [app own_facts]. apply Hgo. destruct Hu as (fs & fr & base & E1 & E2 & E3 & E4 & E5).
    exists ((k2, ab_opts B a) :: fs), fr, base. cbn. rewrite E1, E2. split; [done|]. split; [done|]. split; [|done].
    constructor; [|done]. cbn. by rewrite ab_opts_watched.
  - cbn [app own_facts]. destruct Hu as (fs & fr & base & E1 & E2 & E3 & E4 & E5). rewrite E1 in Hs2. destruct d as [|d].
    + destruct fs; [|done]. injection Hs2 as _ <-. eapply scan_unobserved; [done|exact HS'|done|done|]. cbn in *. lia.
    + destruct fs as [|f0 fs]; [done|]. injection Hs2 as _ <-. apply Hgo. exists fs, fr, base. cbn. inversion E3; subst.
      split; [done|]. split; [cbn in E2; lia|]. done.
  - cbn [own_facts]. change (ab_stack (a_eng _ _ a)) with (ab_stack a) in Hgo. rewrite (Hgo _ Hu). f_equal.
    destruct (performed_watched n _ _ Hp) as (k & opts & s & Hs & ->).
    destruct Hu as (fs0 & fr & base & E1 & E2 & E3 & E4 & E5). rewrite Hs in E1. destruct d as [|d].
    + destruct fs0; [|done]. injection E1 as <- <-. cbn in *. rewrite (proj2 (watched_b _ _) E4 : watched_if n opts = true). done.
    + destruct fs0 as [|f0 fs0]; [done|]. injection E1 as <- _. inversion E3; subst. rewrite unwatched_b by done. cbn in E2.
      by destruct d.
Qed.

End Machine.

(** ** Operations of a test *)

Lemma scan_split c B a l ev l' a' : Scan c B a (l ++ ev :: l') a' -> exists a1 a2, Scan c B a l a1 /\ Step c B a1 ev a2.
Proof. intros H. apply scan_app in H as (a1 & H1 & H2). inversion H2; subst. eauto. Qed.

Lemma scan_op app u wall topts l a op fs a' :
  app_ok (test_config app) ->
  Scan (test_config app) (base_opts topts) (a_init app u wall topts) l a -> Step (test_config app) (base_opts topts) a (TvOp op fs) a' ->
  reachable (test_config app) (ab_eng a) /\ op_ok (test_config app) op /\
  exists e r, run_op (test_config app) op (ab_eng a) = (e, EvFact <$> fs, r).
Proof.
  intros Ha HS Hst. inversion Hst as [| |? ? ? e r Hl Hp Hop Hr| | | | | | | | | | |]; subst.
  destruct (scan_history _ _ _ _ _ HS eq_refl) as [H1 H2]. rewrite Hl in H2. split; [|split; [done|eauto]].
  exists u, (engine_ops l), (EvFact <$> engine_facts l). by split.
Qed.
End Lemmas.
