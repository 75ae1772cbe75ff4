(** * Reasoning about computations that notify observers *)
From Verif Require Export ObsPlain EngineFacts.

Section ObsHoare.
Context {P : Params}.

(** [trip I m Q]: started when [v] has happened so far, in a state with [I v s],
    [m] ends with [Q]. *)
Definition trip {S A} (I : list Seen -> S -> Prop) (m : M S A) (Q : list Seen -> S -> A + PVal -> Prop) : Prop :=
  forall v s, I v s -> let '(s', t, r) := m s in Q (v ++ t) s' r.

Lemma trip_conseq {S A} (I I' : list Seen -> S -> Prop) (m : M S A) (Q Q' : list Seen -> S -> A + PVal -> Prop) :
  trip I' m Q' -> (forall v s, I v s -> I' v s) -> (forall v s r, Q' v s r -> Q v s r) -> trip I m Q.
Proof.
  intros H HI HQ v s Hs. specialize (H v s (HI _ _ Hs)). destruct (m s) as [[s' t] r]. auto.
Qed.

Lemma trip_ret {S A} (I : list Seen -> S -> Prop) (a : A) (Q : list Seen -> S -> A + PVal -> Prop) :
  (forall v s, I v s -> Q v s (inl a)) -> trip I (ret a) Q.
Proof. intros H v s Hs. cbn. rewrite app_nil_r. auto. Qed.

Lemma trip_raise {S A} (I : list Seen -> S -> Prop) w (Q : list Seen -> S -> A + PVal -> Prop) :
  (forall v s, I v s -> Q v s (inr w)) -> trip I (raise w) Q.
Proof. intros H v s Hs. cbn. rewrite app_nil_r. auto. Qed.

Lemma trip_bnd {S A B} (I : list Seen -> S -> Prop) (R : list Seen -> S -> A + PVal -> Prop) (m : M S A) (k : A -> M S B) (Q : list Seen -> S -> B + PVal -> Prop) :
  trip I m R -> (forall a, trip (fun v s => R v s (inl a)) (k a) Q) ->
  (forall v s w, R v s (inr w) -> Q v s (inr w)) -> trip I (bnd m k) Q.
Proof.
  intros Hm Hk He v s Hs. specialize (Hm v s Hs). unfold bnd. destruct (m s) as [[s1 t1] [a|w]].
  - specialize (Hk a _ _ Hm). destruct (k a s1) as [[s2 t2] r2]. rewrite app_assoc. done.
  - auto.
Qed.

Lemma trip_try {S A} (I : list Seen -> S -> Prop) (m : M S A) (Q : list Seen -> S -> (A + PVal) + PVal -> Prop) :
  trip I m (fun v s r => Q v s (inl r)) -> trip I (try m) Q.
Proof. intros H v s Hs. specialize (H v s Hs). unfold try. destruct (m s) as [[s1 t1] r]. done. Qed.

Lemma trip_enriching {S A} (I : list Seen -> S -> Prop) h i me msg (m : M S A) (Q : list Seen -> S -> A + PVal -> Prop) :
  trip I m (fun v s r => match r with
                         | inl a => Q v s (inl a)
                         | inr w => forall w', Q v s (inr w')
                         end) ->
  trip I (enriching h i me msg m) Q.
Proof.
  intros H v s Hs. specialize (H v s Hs). unfold enriching. destruct (m s) as [[s1 t1] [a|w]]; auto.
Qed.

Lemma trip_fatal {S A} (I : list Seen -> S -> Prop) (m : M S A) (Q : list Seen -> S -> A + PVal -> Prop) :
  trip I m (fun v s r => match r with
                         | inl a => Q v s (inl a)
                         | inr w => forall w', Q v s (inr w')
                         end) ->
  trip I (fatal m) Q.
Proof.
  intros H v s Hs. specialize (H v s Hs). unfold fatal. destruct (m s) as [[s1 t1] [a|w]]; auto.
Qed.

Lemma trip_result {S A} (I : list Seen -> S -> Prop) (r : A + PVal) (Q : list Seen -> S -> A + PVal -> Prop) :
  (forall v s, I v s -> Q v s r) -> trip I (result r) Q.
Proof. intros H v s Hs. cbn. rewrite app_nil_r. auto. Qed.

Lemma trip_user {A} (I : list Seen -> GState -> Prop) (f : U -> U * A) (Q : list Seen -> GState -> A + PVal -> Prop) :
  (forall v g u a, I v g -> f (g_user g) = (u, a) -> Q v (mkG (g_next g) u (g_step g)) (inl a)) -> trip I (user f) Q.
Proof.
  intros H v g Hg. unfold user. destruct (f (g_user g)) as [u a] eqn:E. rewrite app_nil_r. eauto.
Qed.

(** What a notification amounts to. *)
Definition noted (f : Fact) (g : GState) (sn : Seen) (g' : GState) (r : unit + PVal) : Prop :=
  sn_fact sn = f /\ g_next g' = g_next g /\ g_step g' = g_step g /\ r = match sn_panic sn with None => inl tt | Some w => inr w end.

Lemma note_noted obs f g : let '(g', t, r) := note obs f g in exists sn, t = [sn] /\ noted f g sn g' r.
Proof.
  unfold note. destruct (group_notify obs f (g_user g)) as [[u n] p]. exists (mkSeen f n p). done.
Qed.

Lemma trip_note obs f (I : list Seen -> GState -> Prop) (Q : list Seen -> GState -> unit + PVal -> Prop) :
  (forall v g sn g' r, I v g -> noted f g sn g' r -> Q (v ++ [sn]) g' r) -> trip I (note obs f) Q.
Proof.
  intros H v g Hg. pose proof (note_noted obs f g) as Hn. destruct (note obs f g) as [[g' t] r].
  destruct Hn as (sn & -> & Hn). eauto.
Qed.

Lemma trip_mint o (I : list Seen -> GState -> Prop) (Q : list Seen -> GState -> string + PVal -> Prop) :
  (forall v g, I v g -> Q v (next_id o g).1 (inl (next_id o g).2)) -> trip I (mint o) Q.
Proof. intros H v g Hg. unfold mint. cbn. rewrite app_nil_r. apply (H _ _ Hg). Qed.

Lemma trip_fst {S T A} (I : list Seen -> S * T -> Prop) (m : M S A) (Q : list Seen -> S * T -> A + PVal -> Prop) :
  (forall x, trip (fun v s => I v (s, x)) m (fun v s r => Q v (s, x) r)) -> trip I (fst_do m) Q.
Proof.
  intros H v [s x] Hs. specialize (H x v s Hs). unfold fst_do. destruct (m s) as [[s1 t1] r]. done.
Qed.

Lemma trip_on_g {A} (I : list Seen -> EState -> Prop) (m : M GState A) (Q : list Seen -> EState -> A + PVal -> Prop) :
  (forall cs, trip (fun v g => I v (mkE g cs)) m (fun v g r => Q v (mkE g cs) r)) -> trip I (on_g m) Q.
Proof.
  intros H v [g cs] Hs. specialize (H cs v g Hs). unfold on_g. cbn. destruct (m g) as [[s1 t1] r]. done.
Qed.

(** ** What a computation can say *)
Definition emits {S A} (Pf : Fact -> Prop) (m : M S A) : Prop := forall s, Forall (fun sn => Pf (sn_fact sn)) (m s).1.2.

Lemma emits_ret {S A} (Pf : Fact -> Prop) (a : A) : emits Pf (@ret P S A a).
Proof. intros s. constructor. Qed.
Lemma emits_raise {S A} (Pf : Fact -> Prop) w : emits Pf (@raise P S A w).
Proof. intros s. constructor. Qed.
Lemma emits_result {S A} (Pf : Fact -> Prop) r : emits Pf (@result P S A r).
Proof. intros s. constructor. Qed.
Lemma emits_bnd {S A B} (Pf : Fact -> Prop) (m : M S A) (k : A -> M S B) : emits Pf m -> (forall a, emits Pf (k a)) -> emits Pf (bnd m k).
Proof.
  intros Hm Hk s. unfold bnd. specialize (Hm s). destruct (m s) as [[s1 t1] [a|w]]; [|done].
  specialize (Hk a s1). destruct (k a s1) as [[s2 t2] r2]. cbn in *. apply Forall_app. done.
Qed.
Lemma emits_try {S A} (Pf : Fact -> Prop) (m : M S A) : emits Pf m -> emits Pf (try m).
Proof. intros H s. specialize (H s). unfold try. destruct (m s) as [[s1 t1] r]. done. Qed.
Lemma emits_enriching {S A} (Pf : Fact -> Prop) h i me msg (m : M S A) : emits Pf m -> emits Pf (enriching h i me msg m).
Proof. intros H s. specialize (H s). unfold enriching. destruct (m s) as [[s1 t1] r]. done. Qed.
Lemma emits_fatal {S A} (Pf : Fact -> Prop) (m : M S A) : emits Pf m -> emits Pf (fatal m).
Proof. intros H s. specialize (H s). unfold fatal. destruct (m s) as [[s1 t1] r]. done. Qed.
Lemma emits_fst {S T A} (Pf : Fact -> Prop) (m : M S A) : emits Pf m -> emits Pf (@fst_do P S T A m).
Proof. intros H [s x]. specialize (H s). unfold fst_do. destruct (m s) as [[s1 t1] r]. done. Qed.
Lemma emits_note (Pf : Fact -> Prop) obs f : Pf f -> emits Pf (note obs f).
Proof.
  intros H g. pose proof (note_noted obs f g) as Hn. destruct (note obs f g) as [[g' t] r].
  destruct Hn as (sn & -> & <- & _). cbn. constructor; [done|constructor].
Qed.
Lemma emits_mint (Pf : Fact -> Prop) o : emits Pf (mint o).
Proof. intros g. constructor. Qed.
Lemma emits_user {A} (Pf : Fact -> Prop) (f : U -> U * A) : emits Pf (user f).
Proof. intros g. unfold user. destruct (f (g_user g)). constructor. Qed.
Lemma emits_get {S} (Pf : Fact -> Prop) : emits Pf (@get_st P S).
Proof. intros s. constructor. Qed.
Lemma emits_set {S} (Pf : Fact -> Prop) (s : S) : emits Pf (set_st s).
Proof. intros s'. constructor. Qed.

(** A triple for a computation of which it matters only what it says and what it
    does to the state. *)
Lemma trip_emits {S A} (Pf : Fact -> Prop) (I : list Seen -> S -> Prop) (m : M S A) (Q : list Seen -> S -> A + PVal -> Prop) :
  emits Pf m -> (forall v s s' t r, I v s -> m s = (s', t, r) -> Forall (fun sn => Pf (sn_fact sn)) t -> Q (v ++ t) s' r) ->
  trip I m Q.
Proof.
  intros He H v s Hs. specialize (He s). destruct (m s) as [[s' t] r] eqn:E. cbn in He. eauto.
Qed.

(** The facts of each kind of handler. *)
Definition agg_fact (hid : HId) (f : Fact) : Prop :=
  match f with
  | AggregateInstanceLoaded h _ _ _ | AggregateInstanceNotFound h _ _ | AggregateInstanceCreated h _ _ _
  | AggregateInstanceDestroyed h _ _ _ | AggregateInstanceDestructionReverted h _ _ _
  | EventRecordedByAggregate h _ _ _ _ | MessageLoggedByAggregate h _ _ _ _ => h = hid
  | _ => False
  end.
Definition proc_fact (hid : HId) (f : Fact) : Prop :=
  match f with
  | ProcessInstanceLoaded h _ _ _ | ProcessEventIgnored h _ | ProcessTimeoutIgnored h _ _
  | ProcessInstanceNotFound h _ _ | ProcessInstanceBegun h _ _ _ | ProcessInstanceEnded h _ _ _
  | ProcessInstanceEndingReverted h _ _ _ | CommandExecutedByProcess h _ _ _ _
  | TimeoutScheduledByProcess h _ _ _ _ | MessageLoggedByProcess h _ _ _ _ => h = hid
  | _ => False
  end.
Definition int_fact (hid : HId) (f : Fact) : Prop :=
  match f with
  | EventRecordedByIntegration h _ _ | MessageLoggedByIntegration h _ _ => h = hid
  | _ => False
  end.
Definition prj_fact (hid : HId) (f : Fact) : Prop :=
  match f with
  | ProjectionCompactionBegun h | ProjectionCompactionCompleted h _ | MessageLoggedByProjection h _ _ => h = hid
  | _ => False
  end.

Lemma emits_a_get (Pf : Fact -> Prop) : emits Pf a_get.
Proof. intros [g s]. constructor. Qed.
Lemma emits_a_set (Pf : Fact -> Prop) s : emits Pf (a_set s).
Proof. intros [g s']. constructor. Qed.
Lemma emits_p_get (Pf : Fact -> Prop) : emits Pf p_get.
Proof. intros [g s]. constructor. Qed.
Lemma emits_p_set (Pf : Fact -> Prop) s : emits Pf (p_set s).
Proof. intros [g s']. constructor. Qed.
Lemma emits_i_add (Pf : Fact -> Prop) ev : emits Pf (i_add ev).
Proof. intros [g s']. constructor. Qed.
Lemma emits_sched (Pf : Fact -> Prop) o : emits Pf (sched o).
Proof. intros g. constructor. Qed.

Ltac emit1 :=
  lazymatch goal with
  | |- emits _ (bnd _ _) => apply emits_bnd; [|intros]
  | |- emits _ (ret _) => apply emits_ret
  | |- emits _ (raise _) => apply emits_raise
  | |- emits _ (result _) => apply emits_result
  | |- emits _ (try _) => apply emits_try
  | |- emits _ (enriching _ _ _ _ _) => apply emits_enriching
  | |- emits _ (fatal _) => apply emits_fatal
  | |- emits _ (fst_do _) => apply emits_fst
  | |- emits _ (mint _) => apply emits_mint
  | |- emits _ (user _) => apply emits_user
  | |- emits _ get_st => apply emits_get
  | |- emits _ (set_st _) => apply emits_set
  | |- emits _ a_get => apply emits_a_get
  | |- emits _ (a_set _) => apply emits_a_set
  | |- emits _ p_get => apply emits_p_get
  | |- emits _ (p_set _) => apply emits_p_set
  | |- emits _ (i_add _) => apply emits_i_add
  | |- emits _ (sched _) => apply emits_sched
  | |- emits _ (note _ _) => apply emits_note; try reflexivity
  | |- emits _ (let '(_, _) := ?y in _) => destruct y
  | |- emits _ (if ?b then _ else _) => destruct b
  | |- emits _ (match ?b with _ => _ end) => destruct b
  end.
Ltac emit := repeat emit1.

Lemma xa_run_emits obs o h a now cmd id p : emits (agg_fact (h_id h)) (xa_run obs o h a now cmd id p).
Proof.
  induction p as [|v|f k IH|f k IH|b k IH|k IH|str k IH]; cbn [xa_run]; emit; try apply IH.
  all: unfold xa_record, xa_destroy, xa_log; emit.
  destruct (as_destroyed _); reflexivity.
Qed.

Lemma xa_handle_emits x obs o h a now env : emits (agg_fact (h_id h)) (xa_handle x obs o h a now env).
Proof.
  intros [g hist]. unfold xa_handle. destruct (negb _); [constructor|].
  match goal with |- Forall _ (?m (g, hist)).1.2 => assert (emits (agg_fact (h_id h)) m) as H; [|exact (H (g, hist))] end.
  emit.
  - destruct (bool_decide _); reflexivity.
  - intros [g1 hist1].
    match goal with |- context [enriching ?h' ?i ?me ?m ?c (g1, ?s0)] =>
      assert (He : emits (agg_fact (h_id h)) (enriching h' i me m c)) by (emit; apply xa_run_emits);
      specialize (He (g1, s0)); destruct (enriching h' i me m c (g1, s0)) as [[[g2 s2] t2] [u|w]] end; exact He.
Qed.

Lemma xi_run_emits obs o h now cmd p : emits (int_fact (h_id h)) (xi_run obs o h now cmd p).
Proof.
  induction p as [e|v|f k IH|b k IH|str k IH]; cbn [xi_run]; emit; try apply IH.
  all: unfold xi_record; emit.
Qed.

Lemma xi_handle_emits x obs o h now env : emits (int_fact (h_id h)) (xi_handle x obs o h now env).
Proof.
  intros g. unfold xi_handle. destruct (negb _); [constructor|].
  match goal with |- context [enriching ?h' ?i ?me ?m ?c (g, ?s0)] =>
      assert (He : emits (int_fact (h_id h)) (enriching h' i me m c)) by (emit; apply xi_run_emits);
      specialize (He (g, s0)); destruct (enriching h' i me m c (g, s0)) as [[[g2 s2] t2] [u|w]] end; exact He.
Qed.

Lemma xp_run_emits obs o h now env id meth p : emits (proc_fact (h_id h)) (xp_run obs o h now env id meth p).
Proof.
  induction p as [e|v|f k IH|f k IH|b k IH|b t k IH|k IH|str k IH]; cbn [xp_run]; emit; try apply IH.
  all: unfold xp_execute, xp_schedule, xp_end, xp_log, xp_check, xp_revert; emit.
Qed.

Lemma xp_handle_emits x obs o h pi now env : emits (proc_fact (h_id h)) (xp_handle x obs o h pi now env).
Proof.
  assert (Hi : forall id r, emits (proc_fact (h_id h)) (xp_handle_instance x obs o h now env id r)).
  { intros id r [g ps]. unfold xp_handle_instance.
    destruct (match m_kind (e_msg env) with KTimeout => _ | _ => _ end) as [meth prog].
    match goal with |- context [enriching ?h' ?i ?me ?m ?c (g, ?s0)] =>
      assert (He : emits (proc_fact (h_id h)) (enriching h' i me m c)) by (emit; apply xp_run_emits);
      specialize (He (g, s0)); destruct (enriching h' i me m c (g, s0)) as [[[g2 s2] t2] [[u|]|w]] end; try exact He.
    destruct (ps_ended s2); exact He. }
  unfold xp_handle. destruct (negb _); [emit|]. apply emits_bnd.
  - unfold xp_route. emit.
  - intros rt. emit; apply Hi.
Qed.

Lemma xj_run_emits {A} obs hid ev (p : XJProg A) : emits (prj_fact hid) (xj_run obs hid ev p).
Proof. induction p as [a|v|f k IH|str k IH]; cbn [xj_run]; emit; apply IH. Qed.

Lemma xj_par_emits {A B} obs o hid ev (m : XJProg A) : forall (c : XJProg B), emits (prj_fact hid) (xj_par obs o hid ev m c).
Proof.
  induction m as [a|v|f k IHm|str k IHm]; intros c; induction c as [b|v'|f' k' IHc|str' k' IHc];
    rewrite xj_par_eq; emit; try apply xj_run_emits; try apply IHm; try apply IHc.
Qed.

Lemma xj_handle_emits x obs o h j now env : emits (prj_fact (h_id h)) (xj_handle x obs o h j now env).
Proof.
  unfold xj_handle, xj_apply. emit; first [apply xj_par_emits | apply xj_run_emits].
Qed.
Lemma xj_tick_emits x obs h now : emits (prj_fact (h_id h)) (xj_tick x obs h now).
Proof. unfold xj_tick. emit. apply xj_run_emits. Qed.

Lemma xj_run_next {A} obs hid ev (p : XJProg A) g : g_next (xj_run obs hid ev p g).1.1 = g_next g.
Proof.
  revert g; induction p as [a|v|f k IH|str k IH]; intros g; cbn [xj_run]; [done|done|..].
  - unfold bnd, user. specialize (IH (g_user g) (mkG (g_next g) (f (g_user g)) (g_step g))).
    destruct (xj_run _ _ _ _ _) as [[g1 t1] r]. done.
  - unfold bnd, try. pose proof (note_noted obs (MessageLoggedByProjection hid ev str) g) as Hn.
    destruct (note _ _ _) as [[g1 t1] r]. destruct Hn as (sn & _ & _ & Hn & _).
    specialize (IH (pan r) g1). destruct (xj_run _ _ _ _ _) as [[g2 t2] r2]. cbn in *. congruence.
Qed.

Lemma xj_par_next {A B} obs o hid ev (m : XJProg A) : forall (c : XJProg B) g,
  g_next (xj_par obs o hid ev m c g).1.1 = g_next g.
Proof.
  assert (Hb : forall X Y (m : M GState X) (k : X -> M GState Y),
    (forall g, g_next (m g).1.1 = g_next g) -> (forall a g, g_next (k a g).1.1 = g_next g) ->
    forall g, g_next (bnd m k g).1.1 = g_next g).
  { intros X Y m' k Hm Hk g. unfold bnd. specialize (Hm g). destruct (m' g) as [[g1 t1] [a|w]]; [|done].
    specialize (Hk a g1). destruct (k a g1) as [[g2 t2] r]. cbn in *. congruence. }
  assert (Hu : forall X (f : U -> U * X) g, g_next (user f g).1.1 = g_next g).
  { intros X f g. unfold user. destruct (f _). done. }
  assert (Hn : forall f g, g_next (try (note obs f) g).1.1 = g_next g).
  { intros f g. unfold try. pose proof (note_noted obs f g) as Hn. destruct (note obs f g) as [[g1 t1] r].
    destruct Hn as (sn & _ & _ & Hn & _). done. }
  assert (Hf : forall X (m : M GState X) g, g_next (fatal m g).1.1 = g_next (m g).1.1).
  { intros X m' g. unfold fatal. destruct (m' g) as [[g1 t1] r]. done. }
  induction m as [a|v|f k IHm|str k IHm]; intros c; induction c as [b|v'|f' k' IHc|str' k' IHc];
    intros g; rewrite xj_par_eq; (apply Hb; [|done || intros [] ?]); try done;
    try (intros; rewrite ?Hf; apply xj_run_next).
  all: try done; apply Hb; try apply Hu; try apply Hn; auto.
Qed.

Lemma user_next {A} (f : U -> U * A) g : g_next (user f g).1.1 = g_next g.
Proof. unfold user. destruct (f _). done. Qed.
Lemma note_next obs f g : g_next (note obs f g).1.1 = g_next g.
Proof. unfold note. destruct (group_notify _ _ _) as [[? ?] ?]. done. Qed.
Lemma bnd_next {X Y} (m : M GState X) (k : X -> M GState Y) :
  (forall g, g_next (m g).1.1 = g_next g) -> (forall a g, g_next (k a g).1.1 = g_next g) ->
  forall g, g_next (bnd m k g).1.1 = g_next g.
Proof.
  intros Hm Hk g. unfold bnd. specialize (Hm g). destruct (m g) as [[g1 t1] [a|w]]; [|done].
  specialize (Hk a g1). destruct (k a g1) as [[g2 t2] r]. cbn in *. congruence.
Qed.
Lemma enriching_next {X} h i me msg (m : M GState X) :
  (forall g, g_next (m g).1.1 = g_next g) -> forall g, g_next (enriching h i me msg m g).1.1 = g_next g.
Proof. intros Hm g. unfold enriching. specialize (Hm g). destruct (m g) as [[g1 t1] r]. done. Qed.

Lemma xj_handle_next x obs o h j now env g : g_next (xj_handle x obs o h j now env g).1.1 = g_next g.
Proof.
  revert g. unfold xj_handle, xj_apply. destruct (negb _); [done|].
  apply bnd_next; [apply user_next|intros rv]. apply bnd_next; [done|intros [cur ve]].
  destruct ve; [done|]. destruct (decide _) as [_|_]; [|done]. apply bnd_next.
  - destruct (c_compact _).
    + apply bnd_next; [apply note_next|intros _]. apply bnd_next; [apply enriching_next, xj_par_next|intros [[ok e] ce]].
      apply bnd_next; [apply note_next|done].
    + apply bnd_next; [apply enriching_next, xj_run_next|intros [ok e]; done].
  - intros [[ok e] ce]. destruct e; [done|]. destruct ok; [|done].
    apply bnd_next; [apply user_next|intros rc]. apply bnd_next; [done|intros []; done].
Qed.

Lemma xj_tick_next x obs h now s : g_next (xj_tick x obs h now s).1.1.1 = g_next s.1.
Proof.
  destruct s as [g last]. unfold xj_tick. unfold bnd at 1, get_st. cbn.
  destruct (compact_interval <=? now - last)%Z; [|done].
  unfold bnd, set_st, fst_do. 
  pose proof (note_next obs (ProjectionCompactionBegun (h_id h)) g) as H1.
  destruct (note _ _ g) as [[g1 t1] [u1|w1]]; [|done]. cbn in H1.
  pose proof (xj_run_next obs (h_id h) None (x_compact x (h_name h) now) g1) as H2.
  destruct (xj_run _ _ _ _ g1) as [[g2 t2] [e|w2]]; cbn in H2 |- *; [|congruence].
  pose proof (note_next obs (ProjectionCompactionCompleted (h_id h) e) g2) as H3.
  destruct (note _ _ g2) as [[g3 t3] [u3|w3]]; cbn in H3 |- *; congruence.
Qed.
End ObsHoare.
