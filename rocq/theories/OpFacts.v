(** * Consequences of the grammar. *)
From Verif Require Import OpSpec HistSim AggProof ProcProof ProcHist OpProof.

Section OpFacts.
Context {P : Params}.
Implicit Types (c : Config) (o : Oracle) (h : Handler) (st : EState).

(** ** Options *)
Lemma last_opt_cons {A} (p : OOpt -> option A) opt opts :
  last_opt p (opt :: opts) = match last_opt p opts with Some a => Some a | None => p opt end.
Proof.
  unfold last_opt. cbn. destruct (p opt) as [a|]; [|destruct (last _); done].
  rewrite last_cons. destruct (last _); done.
Qed.

Local Ltac lo := match goal with |- context [last_opt ?p ?l] => destruct (last_opt p l) end.

Lemma apply_opts_spec c opts : forall oo oo', apply_opts c oo opts = inl oo' ->
  (forall n, oo_handlers oo' !! n = match last_opt (individually n) opts with Some b => Some b | None => oo_handlers oo !! n end) /\
  (forall t, et_get (oo_types oo') t = match last_opt (by_type t) opts with Some b => b | None => et_get (oo_types oo) t end) /\
  oo_now oo' = match last_opt current_time opts with Some t => t | None => oo_now oo end /\
  oo_observers oo' = oo_observers oo ++ omap (fun opt => match opt with OptObserver n => Some n | _ => None end) opts.
Proof.
  induction opts as [|opt opts IH]; intros oo oo' H; cbn [apply_opts] in H.
  - injection H as <-. cbn. rewrite app_nil_r. done.
  - destruct (apply_opt c oo opt) as [oo1|v] eqn:E; [|done]. apply IH in H as (H1 & H2 & H3 & H4).
    destruct opt as [n|t b|name b|t]; cbn in E.
    + injection E as <-. cbn in *. split; [|split; [|split]].
      * intros m. rewrite last_opt_cons, H1. cbn. lo; done.
      * intros m. rewrite last_opt_cons, H2. cbn. lo; done.
      * rewrite last_opt_cons, H3. cbn. lo; done.
      * rewrite H4, <- app_assoc. done.
    + injection E as <-. cbn in *. split; [|split; [|split]].
      * intros m. rewrite last_opt_cons, H1. cbn. lo; done.
      * intros m. rewrite last_opt_cons, H2. cbn. lo; [done|].
        destruct (decide (t = m)) as [->|Hne]; [destruct m; done|destruct t, m; done].
      * rewrite last_opt_cons, H3. cbn. lo; done.
      * done.
    + destruct (controllers c !! name); [|done]. injection E as <-. cbn in *. split; [|split; [|split]].
      * intros m. rewrite last_opt_cons, H1. cbn. lo; [done|].
        destruct (decide (name = m)) as [->|Hne]; [rewrite lookup_insert|rewrite lookup_insert_ne by done]; done.
      * intros m. rewrite last_opt_cons, H2. cbn. lo; done.
      * rewrite last_opt_cons, H3. cbn. lo; done.
      * done.
    + injection E as <-. cbn in *. split; [|split; [|split]].
      * intros m. rewrite last_opt_cons, H1. cbn. lo; done.
      * intros m. rewrite last_opt_cons, H2. cbn. lo; done.
      * rewrite last_opt_cons, H3. cbn. lo; done.
      * done.
Qed.

Lemma skip_lemma c wall opts oo h :
  new_opts c wall opts = inl oo ->
  skip_handler h oo = skipped opts h /\ oo_now oo = default wall (last_opt current_time opts).
Proof.
  intros H. apply apply_opts_spec in H as (H1 & H2 & H3 & _). cbn in *. split.
  - unfold skip_handler, skipped. rewrite H1, H2, lookup_empty.
    destruct (last_opt (individually _) _) as [[]|]; [done|done|].
    destruct (h_disabled h); [done|]. destruct (last_opt (by_type _) _) as [[]|]; [done|done|].
    destruct (h_type h); done.
  - rewrite H3. lo; done.
Qed.

Lemma opts_reject c wall opts :
  (exists v, new_opts c wall opts = inr v) <->
  exists n b, OptHandler n b ∈ opts /\ forall h, h ∈ c_app c -> h_name h <> n.
Proof.
  unfold new_opts. generalize (mkOOs wall [] (mkETypes true true true true) ∅). intros oo.
  assert (Hc : forall n, controllers c !! n = None <-> forall h, h ∈ c_app c -> h_name h <> n).
  { intros n. split.
    - intros Hn h Hin Hname. unfold controllers in Hn. rewrite controllers_fold_lookup in Hn.
      destruct (last _) eqn:E; [done|]. apply last_None in E.
      assert (Hf : h ∈ filter (fun h => h_name h = n) (c_app c)) by (apply elem_of_list_filter; done).
      rewrite E in Hf. set_solver.
    - intros H. destruct (controllers c !! n) as [h|] eqn:E; [|done]. apply controllers_in in E as [E1 E2].
      destruct (H h E1 E2). }
  revert oo. induction opts as [|opt opts IH]; intros oo; cbn.
  - split; [intros [v [=]]|intros (n & b & Hin & _); set_solver].
  - assert (Hrest : forall oo1, apply_opt c oo opt = inl oo1 ->
      (match opt with OptHandler n _ => exists h, h ∈ c_app c /\ h_name h = n | _ => True end) ->
      (exists v, apply_opts c oo1 opts = inr v) <->
      exists n b, OptHandler n b ∈ opt :: opts /\ forall h, h ∈ c_app c -> h_name h <> n).
    { intros oo1 _ Hopt. rewrite IH. split.
      - intros (n & b & Hin & H). exists n, b. split; [set_solver|done].
      - intros (n & b & Hin & H). apply elem_of_cons in Hin as [<-|Hin]; [|eauto].
        destruct Hopt as (h & H1 & H2). destruct (H h H1 H2). }
    destruct opt as [n|t b|name b|t]; cbn in *; try (eapply Hrest; done).
    destruct (controllers c !! name) as [h|] eqn:E.
    + eapply Hrest; [done|]. apply controllers_in in E. eauto.
    + split; [intros _|eauto]. exists name, b. split; [set_solver|]. apply Hc. done.
Qed.

(** ** Messages *)
Definition rets (now : Z) (fs : list Fact) (envs : list Env) : Prop :=
  forall x, (foldl (returned_step now) x fs).2 = x.2 ++ envs.
Lemma rets_nil now : rets now [] [].
Proof. intros x. cbn. rewrite app_nil_r. done. Qed.
Lemma rets_app now fs fs' a b : rets now fs a -> rets now fs' b -> rets now (fs ++ fs') (a ++ b).
Proof. intros H1 H2 x. rewrite foldl_app, H2, H1, app_assoc. done. Qed.
Lemma rets_one now f : match f with HandlingCompleted _ _ _ => False | _ => True end -> rets now [f] [].
Proof. intros H x. cbn. destruct f; try done; cbn; rewrite app_nil_r; done. Qed.
Lemma rets_returned now fs envs : rets now fs envs -> returned now fs = envs.
Proof. intros H. unfold returned. rewrite H. done. Qed.

Lemma foldl_about now (h : HId) env fs x : Forall (about h env) fs -> foldl (returned_step now) x fs = (x.1 ++ fs, x.2).
Proof.
  intros H. revert x. induction H as [|f fs Hf _ IH]; intros x; cbn; [destruct x; rewrite app_nil_r; done|].
  rewrite IH. destruct f; try done; cbn; rewrite <- app_assoc; done.
Qed.

Lemma about_dispatched (h : HId) env fs : Forall (about h env) fs -> dispatched fs = [] /\ handler_errors fs = [].
Proof. intros H. induction H as [|f fs Hf _ IH]; [done|]. destruct f; try done. Qed.
Lemma about_tick_dispatched (h : HId) fs : Forall (about_tick h) fs -> dispatched fs = [] /\ handler_errors fs = [].
Proof. intros H. induction H as [|f fs Hf _ IH]; [done|]. destruct f; try done. Qed.

Section Grammar.
Context (c : Config) (now : Z) (skip : Handler -> option SkipReason).

Lemma offer_rets env h fs envs err : Offer now skip env h fs envs err -> rets now fs envs.
Proof.
  intros [r _|fs' err' _ Ha]; [apply rets_one; done|].
  intros x. cbn. rewrite foldl_app, (foldl_about _ _ _ _ _ Ha). done.
Qed.
Lemma offers_rets env hs fs envs errs : Offers now skip env hs fs envs errs -> rets now fs envs.
Proof. induction 1; [apply rets_nil|]. apply rets_app; [eapply offer_rets; eassumption|done]. Qed.

Lemma dispatched_app a b : dispatched (a ++ b) = dispatched a ++ dispatched b.
Proof. apply omap_app. Qed.
Lemma handler_errors_app a b : handler_errors (a ++ b) = handler_errors a ++ handler_errors b.
Proof. apply omap_app. Qed.

Lemma dispatched_cons f a : dispatched (f :: a) = match f with DispatchBegun e => [e] | _ => [] end ++ dispatched a.
Proof. destruct f; done. Qed.
Lemma handler_errors_cons f a : handler_errors (f :: a) =
  match f with HandlingCompleted h _ (Some e) | TickCompleted h (Some e) => [EWrap h e] | _ => [] end ++ handler_errors a.
Proof. destruct f; try done; match goal with |- context [HandlingCompleted _ _ ?e] => destruct e | |- context [TickCompleted _ ?e] => destruct e end; done. Qed.
Local Arguments dispatched : simpl never.
Local Arguments handler_errors : simpl never.
Local Ltac rd := repeat (rewrite ?dispatched_cons, ?handler_errors_cons, ?dispatched_app, ?handler_errors_app; cbn [app]).

Lemma offer_reads env h fs envs err : Offer now skip env h fs envs err ->
  dispatched fs = [] /\ handler_errors fs = tagged (h_id h) err.
Proof.
  intros [r _|fs' err' _ Ha]; [done|]. apply about_dispatched in Ha as [H1 H2].
  rd. rewrite H1, H2. destruct err'; done.
Qed.
Lemma offers_reads env hs fs envs errs : Offers now skip env hs fs envs errs ->
  dispatched fs = [] /\ handler_errors fs = errs.
Proof.
  induction 1 as [|h hs fs envs err fs' envs' errs Ho _ [IH1 IH2]]; [done|]. apply offer_reads in Ho as [H1 H2].
  rd. rewrite H1, H2, IH1, IH2. done.
Qed.

Lemma offers_panic_reads env hs fs : Offers_panic now skip env hs fs ->
  dispatched fs = [] /\ exists envs, rets now fs envs.
Proof.
  intros (before & h & after & fs1 & envs & errs & fs2 & -> & Ho & _ & Ha & ->).
  pose proof (offers_rets _ _ _ _ _ Ho) as Hr. apply offers_reads in Ho as [H1 _].
  pose proof (about_dispatched _ _ _ Ha) as [H2 _]. split.
  - rd. rewrite H1. cbn. exact H2.
  - exists envs. intros x. rewrite foldl_app. cbn. rewrite (foldl_about _ _ _ _ _ Ha). cbn. apply Hr.
Qed.

Lemma cascade_fifo q s fs errs : Cascade c now skip q s fs errs ->
  exists envs rest, rets now fs envs /\ q ++ envs = dispatched fs ++ rest /\ (s = SDone -> rest = []).
Proof.
  induction 1 as [|env q s hs fs envs errs fs' errs' _ Ho _ (ev & rest & IH1 & IH2 & IH3)
    |env q hs fs envs errs x _ Ho|env q hs fs _ Ho|env q].
  - exists [], []. split; [apply rets_nil|done].
  - exists (envs ++ ev), rest. pose proof (offers_rets _ _ _ _ _ Ho) as Hr. apply offers_reads in Ho as [H1 _]. split; [|split].
    + change (DispatchBegun env :: fs ++ DispatchCompleted env errs :: fs')
        with ([DispatchBegun env] ++ (fs ++ [DispatchCompleted env errs] ++ fs')).
      apply (rets_app _ _ _ [] _); [apply rets_one; done|]. apply rets_app; [done|].
      apply (rets_app _ _ _ [] _); [apply rets_one; done|done].
    + rd. rewrite H1. cbn. f_equal. rewrite app_assoc. exact IH2.
    + done.
  - exists envs, (q ++ envs). pose proof (offers_rets _ _ _ _ _ Ho) as Hr. apply offers_reads in Ho as [H1 _]. split; [|split].
    + change (DispatchBegun env :: fs ++ [DispatchCompleted env errs])
        with ([DispatchBegun env] ++ (fs ++ [DispatchCompleted env errs])).
      apply (rets_app _ _ _ [] _); [apply rets_one; done|]. rewrite <- (app_nil_r envs).
      apply rets_app; [done|]. apply rets_one; done.
    + rd. rewrite H1. done.
    + done.
  - apply offers_panic_reads in Ho as [H1 [envs Hr]]. exists envs, (q ++ envs). split; [|split].
    + change (DispatchBegun env :: fs) with ([DispatchBegun env] ++ fs).
      apply (rets_app _ _ _ [] _); [apply rets_one; done|done].
    + rd. rewrite H1. done.
    + done.
  - exists [], (env :: q). split; [apply rets_nil|]. rewrite app_nil_r. done.
Qed.

Lemma cascade_errors q s fs errs : Cascade c now skip q s fs errs -> s <> SPanic -> handler_errors fs = errs.
Proof.
  induction 1 as [|env q s hs fs envs errs fs' errs' _ Ho _ IH
    |env q hs fs envs errs x _ Ho|env q hs fs _ Ho|env q]; intros Hs; try done.
  - apply offers_reads in Ho as [_ H]. rd. rewrite H. cbn. rewrite IH; done.
  - apply offers_reads in Ho as [_ H]. rd. rewrite H. cbn. rewrite app_nil_r. done.
Qed.

Lemma ticks_reads hs s fs errs : Ticks skip hs s fs errs ->
  dispatched fs = [] /\ rets now fs [] /\ (s <> SPanic -> handler_errors fs = errs).
Proof.
  induction 1 as [|h hs s r fs errs _ _ (I1 & I2 & I3)
    |h hs s fs err fs' errs _ Ha _ (I1 & I2 & I3)|h hs fs err x _ Ha|h hs fs _ Ha].
  - split; [done|]. split; [apply rets_nil|done].
  - split; [done|]. split; [|done]. apply (rets_app _ [TickSkipped (h_id h) r] _ [] []); [apply rets_one; done|done].
  - assert (Hr : rets now fs []) by (clear -Ha; induction Ha as [|f fs Hf _ IH]; [apply rets_nil|];
      apply (rets_app _ [f] fs [] []); [apply rets_one; destruct f; done|done]).
    apply about_tick_dispatched in Ha as [H1 H2]. split; [|split].
    + rd. rewrite H1. done.
    + apply (rets_app _ [TickBegun (h_id h)] _ [] []); [apply rets_one; done|].
      apply (rets_app _ fs _ [] []); [done|]. apply (rets_app _ [TickCompleted (h_id h) err] _ [] []); [apply rets_one; done|done].
    + intros Hs. rd. rewrite H2. cbn. rewrite <- (I3 Hs). destruct err; done.
  - assert (Hr : rets now fs []) by (clear -Ha; induction Ha as [|f fs Hf _ IH]; [apply rets_nil|];
      apply (rets_app _ [f] fs [] []); [apply rets_one; destruct f; done|done]).
    apply about_tick_dispatched in Ha as [H1 H2]. split; [|split].
    + rd. rewrite H1. done.
    + apply (rets_app _ [TickBegun (h_id h)] _ [] []); [apply rets_one; done|].
      apply (rets_app _ fs _ [] []); [done|]. apply rets_one; done.
    + intros _. rd. rewrite H2. destruct err; done.
  - assert (Hr : rets now fs []) by (clear -Ha; induction Ha as [|f fs Hf _ IH]; [apply rets_nil|];
      apply (rets_app _ [f] fs [] []); [apply rets_one; destruct f; done|done]).
    apply about_tick_dispatched in Ha as [H1 H2]. split; [|split; [|done]].
    + rd. rewrite H1. done.
    + apply (rets_app _ [TickBegun (h_id h)] _ [] []); [apply rets_one; done|done].
Qed.

(** ** Recipients *)
Definition offs (fs : list Fact) (l : list HId) : Prop :=
  forall e l0 x, foldl offered_step ((e, l0) :: x) fs = (e, l0 ++ l) :: x.
Lemma offs_nil : offs [] [].
Proof. intros e l0 x. cbn. rewrite app_nil_r. done. Qed.
Lemma offs_app fs fs' a b : offs fs a -> offs fs' b -> offs (fs ++ fs') (a ++ b).
Proof. intros H1 H2 e l0 x. rewrite foldl_app, H1, H2, app_assoc. done. Qed.
Lemma about_offs (h : HId) env fs : Forall (about h env) fs -> offs fs [].
Proof.
  intros H e l0 x. rewrite app_nil_r. induction H as [|f fs Hf _ IH]; [done|]. cbn.
  destruct f; try done; exact IH.
Qed.
Lemma about_tick_offs (h : HId) fs : Forall (about_tick h) fs -> forall x, foldl offered_step x fs = x.
Proof.
  intros H x. induction H as [|f fs Hf _ IH]; [done|]. cbn. destruct f; try done; exact IH.
Qed.
Lemma offer_offs env h fs envs err : Offer now skip env h fs envs err -> offs fs [h_id h].
Proof.
  intros [r _|fs' err' _ Ha]; [done|].
  intros e l0 x. cbn. rewrite foldl_app, (about_offs _ _ _ Ha). cbn. rewrite app_nil_r. done.
Qed.
Lemma offers_offs env hs fs envs errs : Offers now skip env hs fs envs errs -> offs fs (h_id <$> hs).
Proof.
  induction 1 as [|h hs fs envs err fs' envs' errs Ho _ IH]; [apply offs_nil|].
  change (h_id <$> h :: hs) with ([h_id h] ++ (h_id <$> hs)). apply offs_app; [eapply offer_offs; eassumption|done].
Qed.

Lemma cascade_offered q s fs errs : Cascade c now skip q s fs errs -> forall x, exists l,
  foldl offered_step x fs = l ++ x /\ dispatched fs = reverse l.*1 /\
  match s with
  | SPanic => exists e hs l', l = (e, hs) :: l' /\ part_served c e hs /\ Forall (fun y => served c y.1 y.2) l'
  | _ => Forall (fun y => served c y.1 y.2) l
  end.
Proof.
  induction 1 as [|env q s hs fs envs errs fs' errs' Hr Ho _ IH
    |env q hs fs envs errs y Hr Ho|env q hs fs Hr Ho|env q]; intros x.
  - exists []. split; [done|]. split; [done|constructor].
  - pose proof (offers_offs _ _ _ _ _ Ho) as Hs. apply offers_reads in Ho as [Hd _].
    cbn. rewrite foldl_app, Hs. cbn. destruct (IH ((env, h_id <$> hs) :: x)) as (l & -> & H1 & H2).
    exists (l ++ [(env, h_id <$> hs)]). rewrite <- app_assoc. split; [done|]. split.
    + rd. rewrite Hd. cbn. rewrite fmap_app, reverse_app, H1. done.
    + destruct s; try (apply Forall_app; split; [exact H2|]; constructor; [exists hs; done|constructor]).
      destruct H2 as (e & hs' & l' & -> & H2 & H3). exists e, hs', (l' ++ [(env, h_id <$> hs)]).
      split; [done|]. split; [done|]. apply Forall_app. split; [done|]. constructor; [exists hs; done|constructor].
  - pose proof (offers_offs _ _ _ _ _ Ho) as Hs. apply offers_reads in Ho as [Hd _].
    cbn. rewrite foldl_app, Hs. cbn. exists [(env, h_id <$> hs)]. split; [done|]. split.
    + rd. rewrite Hd. done.
    + constructor; [exists hs; done|constructor].
  - pose proof (offers_panic_reads _ _ _ Ho) as [Hd _].
    destruct Ho as (before & h & after & fs1 & envs & errs & fs2 & -> & Ho & _ & Ha & ->).
    pose proof (offers_offs _ _ _ _ _ Ho) as Hs. cbn. rewrite foldl_app, Hs. cbn.
    rewrite (about_offs _ _ _ Ha). exists [(env, (h_id <$> before) ++ [h_id h])]. rewrite app_nil_r.
    split; [done|]. split; [rewrite dispatched_cons, Hd; done|]. eexists _, _, []. split; [done|]. split; [|constructor].
    exists (before ++ h :: after). split; [done|]. exists (h_id <$> after). rewrite fmap_app, <- app_assoc. done.
  - exists []. split; [done|]. split; [done|constructor].
Qed.

Lemma ticks_offered hs s fs errs : Ticks skip hs s fs errs -> forall x, foldl offered_step x fs = x.
Proof.
  induction 1 as [|h hs s r fs errs _ _ IH
    |h hs s fs err fs' errs _ Ha _ IH|h hs fs err y _ Ha|h hs fs _ Ha]; intros x; cbn; [done|done| | |].
  - rewrite foldl_app, (about_tick_offs _ _ Ha). cbn. done.
  - rewrite foldl_app, (about_tick_offs _ _ Ha). cbn. done.
  - rewrite (about_tick_offs _ _ Ha). done.
Qed.

(** ** Facts about engagement *)
Lemma about_engagement (h : HId) env fs : Forall (about h env) fs -> Forall (engagement c skip) fs.
Proof. intros H. eapply Forall_impl; [exact H|]. intros f Hf. destruct f; done. Qed.
Lemma about_tick_engagement (h : HId) fs : Forall (about_tick h) fs -> Forall (engagement c skip) fs.
Proof. intros H. eapply Forall_impl; [exact H|]. intros f Hf. destruct f; done. Qed.

Lemma recipients_in env hs h : recipients c env hs -> h ∈ hs -> h ∈ c_app c.
Proof.
  unfold recipients. destruct (m_kind _); [intros -> Hin; apply elem_of_list_filter in Hin as [_ Hin]; done..|].
  intros (og & h' & _ & Hin & _ & ->) Hh. apply elem_of_list_singleton in Hh as ->. done.
Qed.

Lemma offers_engagement env hs fs envs errs : Offers now skip env hs fs envs errs ->
  (forall h, h ∈ hs -> h ∈ c_app c) -> Forall (engagement c skip) fs.
Proof.
  induction 1 as [|h hs fs envs err fs' envs' errs Ho _ IH]; intros Hin; [constructor|].
  apply Forall_app. split; [|apply IH; intros; apply Hin; set_solver].
  assert (Hh : h ∈ c_app c) by (apply Hin; set_solver).
  destruct Ho as [r Hs|fs1 err1 Hs Ha].
  - constructor; [|constructor]. cbn. eauto.
  - constructor; [cbn; eauto|]. apply Forall_app. split; [eapply about_engagement; exact Ha|].
    constructor; [cbn; eauto|constructor].
Qed.

Lemma cascade_engagement q s fs errs : Cascade c now skip q s fs errs -> Forall (engagement c skip) fs.
Proof.
  induction 1 as [|env q s hs fs envs errs fs' errs' Hr Ho _ IH
    |env q hs fs envs errs y Hr Ho|env q hs fs Hr Ho|env q].
  - constructor.
  - constructor; [done|]. apply Forall_app. split; [|constructor; done].
    eapply offers_engagement; [exact Ho|]. intros h. eapply recipients_in. exact Hr.
  - constructor; [done|]. apply Forall_app. split; [|constructor; done].
    eapply offers_engagement; [exact Ho|]. intros h. eapply recipients_in. exact Hr.
  - constructor; [done|]. destruct Ho as (before & h & after & fs1 & envs & errs & fs2 & -> & Ho & Hs & Ha & ->).
    apply Forall_app. split.
    + eapply offers_engagement; [exact Ho|]. intros h' Hin. eapply recipients_in; [exact Hr|]. set_solver.
    + constructor; [|eapply about_engagement; exact Ha]. cbn. exists h. split; [|done].
      eapply recipients_in; [exact Hr|]. set_solver.
  - constructor.
Qed.

Lemma ticks_engagement hs s fs errs : Ticks skip hs s fs errs ->
  (forall h, h ∈ hs -> h ∈ c_app c) -> Forall (engagement c skip) fs.
Proof.
  induction 1 as [|h hs s r fs errs Hs _ IH
    |h hs s fs err fs' errs Hs Ha _ IH|h hs fs err y Hs Ha|h hs fs Hs Ha]; intros Hin; [constructor|..];
    (assert (Hh : h ∈ c_app c) by (apply Hin; set_solver)).
  - constructor; [cbn; eauto|]. apply IH. intros; apply Hin; set_solver.
  - constructor; [cbn; eauto|]. apply Forall_app. split; [eapply about_tick_engagement; exact Ha|].
    constructor; [cbn; eauto|]. apply IH. intros; apply Hin; set_solver.
  - constructor; [cbn; eauto|]. apply Forall_app. split; [eapply about_tick_engagement; exact Ha|].
    constructor; [cbn; eauto|constructor].
  - constructor; [cbn; eauto|]. eapply about_tick_engagement; exact Ha.
Qed.
End Grammar.

(** ** The grammar with other options *)
Section Ext.
Context (c : Config) (now : Z) (skip skip' : Handler -> option SkipReason) (Hext : forall h, skip h = skip' h).

Lemma offer_ext env h fs envs err : Offer now skip env h fs envs err -> Offer now skip' env h fs envs err.
Proof. destruct 1; rewrite Hext in *; [apply Offer_skipped|apply Offer_handled]; done. Qed.
Lemma offers_ext env hs fs envs errs : Offers now skip env hs fs envs errs -> Offers now skip' env hs fs envs errs.
Proof. induction 1; [constructor|]. constructor; [apply offer_ext; done|done]. Qed.
Lemma offers_panic_ext env hs fs : Offers_panic now skip env hs fs -> Offers_panic now skip' env hs fs.
Proof.
  intros (before & h & after & fs1 & envs & errs & fs2 & -> & Ho & Hs & Ha & ->).
  exists before, h, after, fs1, envs, errs, fs2. rewrite <- Hext. split; [done|]. split; [apply offers_ext; done|done].
Qed.
Lemma cascade_ext q s fs errs : Cascade c now skip q s fs errs -> Cascade c now skip' q s fs errs.
Proof.
  induction 1; [constructor|..|constructor].
  - eapply Cascade_step; [eassumption|eapply offers_ext; eassumption|done].
  - eapply Cascade_cancel; [eassumption|eapply offers_ext; eassumption].
  - eapply Cascade_panic; [eassumption|apply offers_panic_ext; done].
Qed.
Lemma ticks_ext hs s fs errs : Ticks skip hs s fs errs -> Ticks skip' hs s fs errs.
Proof. induction 1; try (rewrite Hext in * ); econstructor; done. Qed.
Lemma batch_ext taken order : batch skip taken order = batch skip' taken order.
Proof.
  unfold batch. f_equal. f_equal. induction order as [|h l IH]; [done|]. rewrite !filter_cons, Hext, IH. done.
Qed.
Lemma dispatch_facts_ext env et eh fs r : Dispatch_facts c now skip env et eh fs r -> Dispatch_facts c now skip' env et eh fs r.
Proof.
  intros [H|(s & body & errs & Hc & H)]; [left; done|right]. exists s, body, errs. split; [apply cascade_ext; done|done].
Qed.
Lemma tick_facts_ext taken order et eh fs r : Tick_facts c now skip taken order et eh fs r -> Tick_facts c now skip' taken order et eh fs r.
Proof.
  intros [H|[(x & ticks & errs & HT & H)|[(ticks & errs & v & HT & H)|(ticks & errs & s & body & errs' & HT & Hc & H)]]].
  - left. done.
  - right. left. exists x, ticks, errs. split; [apply ticks_ext; done|done].
  - right. right. left. exists ticks, errs, v. split; [apply ticks_ext; done|done].
  - right. right. right. exists ticks, errs, s, body, errs'. split; [apply ticks_ext; done|]. split; [|done].
    rewrite <- batch_ext. apply cascade_ext. done.
Qed.
End Ext.

(** ** Operations in histories *)

Lemma reachable_ok c st : reachable c st -> app_ok c.
Proof. intros (u & ops & evs & H & _). exact H. Qed.

Lemma reachable_st_ok c st : reachable c st -> st_ok c st.
Proof.
  intros (u & ops & evs & Hok & Hops & Hrun).
  assert (HI : PI c (e_init c u) []).
  { intros hd ps Hin Hl. pose proof (cs_init_lookup c u hd _ Hok Hin Hl) as Hc.
    unfold cs_init in Hc. destruct (h_impl hd); try discriminate Hc. injection Hc as ->.
    split; [|split; [done|split; constructor]]. intros i. cbn. rewrite lookup_empty. done. }
  destruct (sim_ops c _ snoc clear _ _ _ _ Hok (proc_sim c Hok) ops _ [] _ _ _ (e_init_ok c u Hok) HI Hops Hrun)
    as (H & _). exact H.
Qed.

Lemma reachable_stored_ok c st : reachable c st -> stored_ok c st.
Proof.
  intros Hr h Hin. pose proof (reachable_ok _ _ Hr) as Hok. destruct (reachable_st_ok _ _ Hr h Hin) as (cs & Hl & Hm).
  exists cs. split; [done|]. split; [done|]. intros ps ->. destruct Hr as (u & ops & evs & H). split.
  - eapply C16_store_lemma; eassumption.
  - apply Forall_forall. intros t Ht _. destruct (C15_lemma _ _ _ _ _ _ _ _ _ H Hin Hl Ht) as (_ & i & Ho & _).
    eexists _, h. split; [exact Ho|]. cbn. apply controllers_complete; done.
Qed.

Lemma opts_lemma c o opts oo : new_opts c (o_wall o) opts = inl oo ->
  oo_now oo = op_time o opts /\ op_enabled opts (oo_types oo) (oo_handlers oo) /\
  oo_observers oo = omap (fun opt => match opt with OptObserver n => Some n | _ => None end) opts.
Proof.
  intros H. apply apply_opts_spec in H as (H1 & H2 & H3 & H4). cbn in *. unfold op_time. split; [|split; [|done]].
  - rewrite H3. lo; done.
  - split; [intros t; rewrite H2; lo; destruct t; done|intros n; rewrite H1; lo; done].
Qed.

Lemma fmap_EvFact_inj (a b : list Fact) : EvFact <$> a = EvFact <$> b -> a = b.
Proof. revert b. induction a as [|x a IH]; intros [|y b] H; try discriminate H; [done|]. injection H as -> H. rewrite (IH b H). done. Qed.

Lemma op_lemma c st op st' fs r :
  reachable c st -> op_ok c op -> run_op c op st = (st', EvFact <$> fs, r) ->
  (fs = [] /\ exists v, r = Pan v) \/ Op_facts c st op fs r.
Proof.
  intros Hr Hop Hrun. pose proof (reachable_ok _ _ Hr) as Hok.
  destruct op as [o fuel m opts|o fuel order opts| |f]; cbn [run_op] in Hrun.
  - destruct (e_dispatch _ _ _ _ _ _) as [[st1 fs1] r1] eqn:E. injection Hrun as <- Hfs <-.
    apply fmap_EvFact_inj in Hfs as ->. apply e_dispatch_spec in E as [E|E]; [left; done|right|done].
    destruct E as (oo & id & Ho & Hk & Hf). exists (new_root id m (oo_now oo)), (oo_types oo), (oo_handlers oo).
    destruct (opts_lemma _ _ _ _ Ho) as (Hn & He & _). rewrite <- Hn.
    split; [done|]. split; [done|]. split; [done|]. split; [done|].
    eapply dispatch_facts_ext; [|exact Hf]. intros h. apply skip_lemma with (h := h) in Ho as [Ho _]. exact Ho.
  - destruct (e_tick _ _ _ _ _ _) as [[st1 fs1] r1] eqn:E. injection Hrun as <- Hfs <-.
    apply fmap_EvFact_inj in Hfs as ->.
    apply e_tick_spec in E as [E|E]; [left; done|right|done|apply reachable_stored_ok; done|apply Hop].
    destruct E as (oo & Ho & Hf). exists (oo_types oo), (oo_handlers oo).
    destruct (opts_lemma _ _ _ _ Ho) as (Hn & He & _). rewrite <- Hn. split; [done|].
    eapply tick_facts_ext; [|exact Hf]. intros h. apply skip_lemma with (h := h) in Ho as [Ho _]. exact Ho.
  - injection Hrun as <- Hfs <-. destruct fs; discriminate.
  - injection Hrun as <- Hfs <-. destruct fs; [|discriminate]. right. done.
Qed.

Lemma tagged_not_ctx (h : HId) err : Forall (fun e => ~ is_ctx e) (tagged h err).
Proof. destruct err; cbn; repeat constructor. intros [x [=]]. Qed.
Lemma offers_not_ctx now skip env hs fs envs errs : Offers now skip env hs fs envs errs -> Forall (fun e => ~ is_ctx e) errs.
Proof. induction 1; [constructor|]. apply Forall_app. split; [apply tagged_not_ctx|done]. Qed.
Lemma cascade_not_ctx c now skip q s fs errs : Cascade c now skip q s fs errs -> Forall (fun e => ~ is_ctx e) errs.
Proof.
  induction 1; try constructor.
  - apply Forall_app. split; [eapply offers_not_ctx; eassumption|done].
  - eapply offers_not_ctx; eassumption.
Qed.
Lemma ticks_not_ctx skip hs s fs errs : Ticks skip hs s fs errs -> Forall (fun e => ~ is_ctx e) errs.
Proof. induction 1; try constructor; try done; [apply Forall_app; split; [|done]|]; apply tagged_not_ctx. Qed.

(** The messages, the errors and the facts of an operation. *)
Lemma performs_spec c st op st' fs r :
  performs c st op st' fs r ->
  exists q s bg ticks body fin terrs errs,
    op_start st op (head fs) q /\ fs = bg :: ticks ++ body ++ fin /\
    match bg with DispatchCycleBegun _ _ _ _ | TickCycleBegun _ _ _ => True | _ => False end /\
    Forall (fun f => match f with DispatchCycleCompleted _ _ _ _ | TickCycleCompleted _ _ _ => True | _ => False end) fin /\
    ((ticks = [] /\ terrs = []) \/ (exists order s', order ≡ₚ c_app c /\ Ticks (skipped (op_opts op)) order s' ticks terrs /\
       (s' = SPanic -> exists v, r = Pan v)))  /\
    ((body = [] /\ errs = [] /\ ~ uncancelled r) \/ Cascade c (op_now op) (skipped (op_opts op)) q s body errs) /\
    (s = SPanic <-> exists v, r = Pan v) /\
    (uncancelled r -> s = SDone /\ r = Ok (terrs ++ errs)).
Proof.
  intros (Hr & Hop & Hrun & Hne).
  destruct (op_lemma _ _ _ _ _ _ Hr Hop Hrun) as [[-> _]|H]; [done|].
  assert (Hctx : forall x errs, ~ uncancelled (Ok (errs ++ [ECtx x]))).
  { intros x errs (l & [= <-] & Hl). apply Forall_app in Hl as [_ Hl]. apply Forall_cons in Hl as [Hl _]. apply Hl. eexists. done. }
  assert (Hctx1 : forall x, ~ uncancelled (Ok [ECtx x])) by (intros x; apply (Hctx x [])).
  assert (Hpan : forall v, ~ uncancelled (Pan v)) by (intros v (l & Hl & _); discriminate Hl).
  assert (Hfuel : ~ uncancelled Fuel) by (intros (l & Hl & _); discriminate Hl).
  destruct op as [o fuel m opts|o fuel order opts| |f]; cbn [Op_facts] in H.
  - destruct H as (env & et & eh & Hm & _ & _ & _ & H).
    assert (Hst : op_start st (OpDispatch o fuel m opts) (Some (DispatchCycleBegun env (op_time o opts) et eh)) [env]) by (exists env; eauto 10).
    destruct H as [(x & -> & ->)|(s & body & errs & Hc & H)].
    + exists [env], SMore, (DispatchCycleBegun env (op_time o opts) et eh), [], [], [DispatchCycleCompleted env [ECtx x] et eh], [], [].
      split; [done|]. split; [done|]. split; [done|]. split; [repeat constructor|]. split; [left; done|].
      split; [left; eauto|]. split; [split; [done|intros [v [=]]]|]. intros []%Hctx1.
    + destruct s as [|x| |].
      * destruct H as [-> ->]. exists [env], SDone, (DispatchCycleBegun env (op_time o opts) et eh), [], body, [DispatchCycleCompleted env errs et eh], [], errs.
        split; [done|]. split; [done|]. split; [done|]. split; [repeat constructor|]. split; [left; done|].
        split; [right; done|]. split; [split; [done|intros [v [=]]]|]. done.
      * destruct H as [-> ->]. exists [env], (SCancelled x), (DispatchCycleBegun env (op_time o opts) et eh), [], body, [DispatchCycleCompleted env [ECtx x] et eh], [], errs.
        split; [done|]. split; [done|]. split; [done|]. split; [repeat constructor|]. split; [left; done|].
        split; [right; done|]. split; [split; [done|intros [v [=]]]|]. intros []%Hctx1.
      * destruct H as [-> [v ->]]. exists [env], SPanic, (DispatchCycleBegun env (op_time o opts) et eh), [], body, [], [], errs.
        rewrite app_nil_r. split; [done|]. split; [done|]. split; [done|]. split; [repeat constructor|]. split; [left; done|].
        split; [right; done|]. split; [split; [eauto|done]|]. intros []%Hpan.
      * destruct H as [-> ->]. exists [env], SMore, (DispatchCycleBegun env (op_time o opts) et eh), [], body, [], [], errs.
        rewrite app_nil_r. split; [done|]. split; [done|]. split; [done|]. split; [repeat constructor|]. split; [left; done|].
        split; [right; done|]. split; [split; [done|intros [v [=]]]|]. intros []%Hfuel.
  - destruct H as (et & eh & _ & H). destruct Hop as [_ Hord]. unfold Tick_facts in H.
    set (q := batch (skipped opts) (due_timeouts (op_time o opts) st) order) in *.
    assert (Hst : forall bg, op_start st (OpTick o fuel order opts) bg q) by done. clearbody q.
    destruct H as [(x & -> & ->)|[(x & ticks & errs & HT & -> & ->)|[(ticks & errs & v & HT & -> & ->)|(ticks & errs & s & body & errs' & HT & Hc & H)]]].
    + exists q, SMore, (TickCycleBegun (op_time o opts) et eh), [], [], [TickCycleCompleted [ECtx x] et eh], [], [].
      split; [done|]. split; [done|]. split; [done|]. split; [repeat constructor|]. split; [left; done|].
      split; [left; eauto|]. split; [split; [done|intros [v [=]]]|]. intros []%Hctx1.
    + exists q, SMore, (TickCycleBegun (op_time o opts) et eh), ticks, [], [TickCycleCompleted [ECtx x] et eh], errs, [].
      split; [done|]. split; [done|]. split; [done|]. split; [repeat constructor|]. split; [right; exists order, (SCancelled x); done|].
      split; [left; eauto|]. split; [split; [done|intros [v [=]]]|]. intros []%Hctx1.
    + exists q, SPanic, (TickCycleBegun (op_time o opts) et eh), ticks, [], [], errs, [].
      rewrite !app_nil_r. split; [done|]. split; [done|]. split; [done|]. split; [repeat constructor|]. split; [right; exists order, SPanic; eauto|].
      split; [left; eauto|]. split; [split; [eauto|done]|]. intros []%Hpan.
    + destruct s as [|x| |].
      * destruct H as [-> ->]. exists q, SDone, (TickCycleBegun (op_time o opts) et eh), ticks, body, [TickCycleCompleted (errs ++ errs') et eh], errs, errs'.
        split; [done|]. split; [done|]. split; [done|]. split; [repeat constructor|]. split; [right; exists order, SDone; done|].
        split; [right; done|]. split; [split; [done|intros [v [=]]]|]. done.
      * destruct H as [-> ->]. exists q, (SCancelled x), (TickCycleBegun (op_time o opts) et eh), ticks, body, [TickCycleCompleted (errs ++ [ECtx x]) et eh], errs, errs'.
        split; [done|]. split; [done|]. split; [done|]. split; [repeat constructor|]. split; [right; exists order, SDone; done|].
        split; [right; done|]. split; [split; [done|intros [v [=]]]|]. intros []%Hctx.
      * destruct H as [-> [v ->]]. exists q, SPanic, (TickCycleBegun (op_time o opts) et eh), ticks, body, [], errs, errs'.
        rewrite app_nil_r. split; [done|]. split; [done|]. split; [done|]. split; [repeat constructor|]. split; [right; exists order, SDone; done|].
        split; [right; done|]. split; [split; [eauto|done]|]. intros []%Hpan.
      * destruct H as [-> ->]. exists q, SMore, (TickCycleBegun (op_time o opts) et eh), ticks, body, [], errs, errs'.
        rewrite app_nil_r. split; [done|]. split; [done|]. split; [done|]. split; [repeat constructor|]. split; [right; exists order, SDone; done|].
        split; [right; done|]. split; [split; [done|intros [v [=]]]|]. intros []%Hfuel.
  - cbn in Hrun. injection Hrun as <- Hfs <-. destruct fs; [done|discriminate Hfs].
  - destruct H as [-> _]. done.
Qed.

Local Ltac rd := repeat (rewrite ?dispatched_cons, ?handler_errors_cons, ?dispatched_app, ?handler_errors_app; cbn [app]).

Lemma fin_reads now fin :
  Forall (fun f => match f with DispatchCycleCompleted _ _ _ _ | TickCycleCompleted _ _ _ => True | _ => False end) fin ->
  dispatched fin = [] /\ handler_errors fin = [] /\ rets now fin [] /\ forall x, foldl offered_step x fin = x.
Proof.
  induction 1 as [|f fin Hf _ (I1 & I2 & I3 & I4)]; [split; [done|]; split; [done|]; split; [apply rets_nil|done]|].
  rd. rewrite I1, I2. destruct f; try done; (split; [done|]; split; [done|]; split;
    [eapply (rets_app _ [_] _ [] []); [apply rets_one; done|done]|cbn; exact I4]).
Qed.

Lemma C31_lemma c st op st' fs r :
  performs c st op st' fs r ->
  exists q rest, op_start st op (head fs) q /\ q ++ returned (op_now op) fs = dispatched fs ++ rest /\ (uncancelled r -> rest = []).
Proof.
  intros (q & s & bg & ticks & body & fin & terrs & errs & Hst & -> & Hbg & Hfin & HT & Hc & _ & Hu)%performs_spec.
  assert (Ht : dispatched ticks = [] /\ rets (op_now op) ticks []).
  { destruct HT as [[-> _]|(order & s' & _ & HT & _)]; [split; [done|apply rets_nil]|].
    apply (ticks_reads (op_now op)) in HT. tauto. }
  destruct (fin_reads (op_now op) _ Hfin) as (Hf1 & _ & Hf2 & _). destruct Ht as [Ht1 Ht2].
  assert (Hb : exists envs rest, rets (op_now op) body envs /\ q ++ envs = dispatched body ++ rest /\ (uncancelled r -> rest = [])).
  { destruct Hc as [(-> & -> & Hnu)|Hc].
    - exists [], q. split; [apply rets_nil|]. split; [rewrite app_nil_r; done|intros []%Hnu].
    - destruct (cascade_fifo _ _ _ _ _ _ _ Hc) as (envs & rest & H1 & H2 & H3). exists envs, rest. split; [done|]. split; [done|].
      intros [-> _]%Hu. auto. }
  destruct Hb as (envs & rest & Hb1 & Hb2 & Hb3). exists q, rest. split; [done|]. split; [|done].
  assert (Hret : returned (op_now op) (bg :: ticks ++ body ++ fin) = envs).
  { apply rets_returned. apply (rets_app _ [bg] _ [] envs); [apply rets_one; destruct bg; done|].
    apply (rets_app _ ticks _ [] envs); [done|]. rewrite <- (app_nil_r envs). apply rets_app; done. }
  rewrite Hret, Hb2. rd. rewrite Ht1, Hf1. destruct bg; cbn; try done; rewrite ?app_nil_r; done.
Qed.

Lemma C34_lemma c st op st' fs r errs :
  performs c st op st' fs r -> r = Ok errs -> Forall (fun e => ~ is_ctx e) errs -> errs = handler_errors fs.
Proof.
  intros Hp -> Hnc. assert (Hunc : uncancelled (Ok errs)) by (exists errs; done).
  apply performs_spec in Hp as (q & s & bg & ticks & body & fin & terrs & errs' & Hst & -> & Hbg & Hfin & HT & Hc & _ & Hu).
  destruct (Hu Hunc) as [-> [= ->]].
  destruct (fin_reads 0 _ Hfin) as (_ & Hf & _).
  assert (Ht : handler_errors ticks = terrs).
  { destruct HT as [[-> ->]|(order & s' & _ & HT & Hs)]; [done|]. apply (ticks_reads 0) in HT as (_ & _ & HT). apply HT.
    intros ->. destruct (Hs eq_refl) as [v [=]]. }
  assert (Hb : handler_errors body = errs').
  { destruct Hc as [(-> & -> & _)|Hc]; [done|]. apply cascade_errors in Hc; done. }
  rd. rewrite Ht, Hb, Hf, app_nil_r. destruct bg; done.
Qed.

Lemma C32_lemma c st op st' fs r :
  performs c st op st' fs r ->
  (offered fs).*1 = dispatched fs /\
  forall e hs, (e, hs) ∈ offered fs ->
    served c e hs \/ (exists v, r = Pan v) /\ last (offered fs) = Some (e, hs) /\ part_served c e hs.
Proof.
  intros (q & s & bg & ticks & body & fin & terrs & errs & Hst & -> & Hbg & Hfin & HT & Hc & Hp & Hu)%performs_spec.
  destruct (fin_reads 0 _ Hfin) as (Hf1 & _ & _ & Hf2).
  assert (Ht : dispatched ticks = [] /\ forall x, foldl offered_step x ticks = x).
  { destruct HT as [[-> _]|(order & s' & _ & HT & _)]; [done|].
    split; [apply (ticks_reads 0) in HT; tauto|intros x; eapply ticks_offered; exact HT]. }
  destruct Ht as [Ht1 Ht2].
  assert (Ho : offered (bg :: ticks ++ body ++ fin) = offered body).
  { unfold offered. cbn. rewrite !foldl_app, Ht2, Hf2. destruct bg; done. }
  assert (Hd : dispatched (bg :: ticks ++ body ++ fin) = dispatched body).
  { rd. rewrite Ht1, Hf1, app_nil_r. destruct bg; done. }
  rewrite Ho, Hd. destruct Hc as [(-> & -> & _)|Hc]; [cbn; split; [done|]; intros ? ? []%elem_of_nil|].
  destruct (cascade_offered _ _ _ _ _ _ _ Hc []) as (l & H1 & H2 & H3). unfold offered. rewrite H1, app_nil_r, H2.
  split; [rewrite fmap_reverse; done|]. intros e hs Hin. rewrite elem_of_reverse in Hin.
  assert (HF : Forall (fun y => served c y.1 y.2) l -> served c e hs).
  { intros HF. eapply Forall_forall in HF; [|exact Hin]. exact HF. }
  destruct s; [left; auto| left; auto| |left; auto].
  destruct H3 as (e' & hs' & l' & -> & H3 & H4). apply elem_of_cons in Hin as [[= <- <-]|Hin].
  - right. split; [apply Hp; done|]. split; [rewrite last_reverse; done|done].
  - left. eapply Forall_forall in H4; [|exact Hin]. exact H4.
Qed.

Lemma C33_lemma c st op st' fs r :
  performs c st op st' fs r -> Forall (engagement c (skipped (op_opts op))) fs.
Proof.
  intros (q & s & bg & ticks & body & fin & terrs & errs & Hst & -> & Hbg & Hfin & HT & Hc & Hp & Hu)%performs_spec.
  constructor; [destruct bg; done|]. apply Forall_app. split; [|apply Forall_app; split].
  - destruct HT as [[-> _]|(order & s' & Hord & HT & _)]; [constructor|]. eapply ticks_engagement; [exact HT|].
    intros h. rewrite Hord. done.
  - destruct Hc as [(-> & _)|Hc]; [constructor|]. eapply cascade_engagement. exact Hc.
  - eapply Forall_impl; [exact Hfin|]. intros f. destruct f; done.
Qed.
End OpFacts.
