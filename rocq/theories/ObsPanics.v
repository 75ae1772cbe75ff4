(** * What becomes of an observer's panic *)
From Verif Require Export ObsOps.

Section ObsPanics.
Context {P : Params}.

(** A notification of the observers [obs]. *)
Definition heard (obs : list Observer) (sn : Seen) : Prop :=
  exists u u', group_notify obs (sn_fact sn) u = (u', sn_to sn, sn_panic sn).
Definition smooth (sn : Seen) : Prop := sn_panic sn = None.

(** What was said and what was returned.  If [strict], nothing is said after a
    panic of an observer and its value is passed on. *)
Definition spoken (n : list Observer) (strict : bool) {A} (t : list Seen) (r : A + PVal) : Prop :=
  Forall (heard n) t /\
  (Forall smooth t \/
   if strict then exists t0 sn v w, t = t0 ++ [sn] /\ Forall smooth t0 /\ sn_panic sn = Some v /\ r = inr w /\ same_panic v w
   else exists w, r = inr w).

Definition speaks (n : list Observer) (strict : bool) {S A} (m : M S A) : Prop :=
  forall s, spoken n strict (m s).1.2 (m s).2.

Lemma spoken_silent n b {A} (r : A + PVal) : spoken n b [] r.
Proof. split; [constructor|]. left. constructor. Qed.

Lemma spoken_app n b {A} t1 t2 (r : A + PVal) :
  Forall (heard n) t1 -> Forall smooth t1 -> spoken n b t2 r -> spoken n b (t1 ++ t2) r.
Proof.
  intros H1 H2 [H3 H4]. split; [apply Forall_app; done|]. destruct H4 as [H4|H4]; [left; apply Forall_app; done|].
  right. destruct b; [|exact H4]. destruct H4 as (t0 & sn & v & w & -> & H5 & H6 & H7 & H8).
  exists (t1 ++ t0), sn, v, w. split; [rewrite app_assoc; done|]. split; [apply Forall_app; done|]. done.
Qed.

(** A result of another type, with the same panic. *)
Lemma spoken_panic n b {A B} t w : spoken n b (A:=A) t (inr w) -> spoken n b (A:=B) t (inr w).
Proof.
  intros [H1 H2]. split; [done|]. destruct H2 as [H2|H2]; [left; done|right]. destruct b; [|eauto].
  destruct H2 as (t0 & sn & v & w' & -> & H5 & H6 & [= ->] & H8). exists t0, sn, v, w'. done.
Qed.
Lemma spoken_calm n b {A B} t (a : A) (r : B + PVal) : spoken n b t (inl a) -> spoken n b t r.
Proof.
  intros [H1 H2]. split; [done|]. left. destruct H2 as [H2|H2]; [done|]. destruct b.
  - destruct H2 as (t0 & sn & v & w & _ & _ & _ & H & _). discriminate H.
  - destruct H2 as [w H]. discriminate H.
Qed.
Lemma spoken_calm' n b {A} t (a : A) : spoken n b t (inl a) -> Forall (heard n) t /\ Forall smooth t.
Proof.
  intros [H1 H2]. split; [done|]. destruct H2 as [H2|H2]; [done|]. destruct b.
  - destruct H2 as (t0 & sn & v & w & _ & _ & _ & H & _). discriminate H.
  - destruct H2 as [w H]. discriminate H.
Qed.

Lemma sp_ret n b {S A} (a : A) : speaks n b (@ret P S A a).
Proof. intros s. apply spoken_silent. Qed.
Lemma sp_raise n b {S A} w : speaks n b (@raise P S A w).
Proof. intros s. apply spoken_silent. Qed.
Lemma sp_result n b {S A} r : speaks n b (@result P S A r).
Proof. intros s. apply spoken_silent. Qed.
Lemma sp_bnd n b {S A B} (m : M S A) (k : A -> M S B) : speaks n b m -> (forall a, speaks n b (k a)) -> speaks n b (bnd m k).
Proof.
  intros Hm Hk s. unfold bnd. specialize (Hm s). destruct (m s) as [[s1 t1] [a|w]]; cbn in *.
  - specialize (Hk a s1). destruct (k a s1) as [[s2 t2] r2]. cbn in *. apply spoken_calm' in Hm as [H1 H2].
    apply spoken_app; done.
  - eapply spoken_panic. exact Hm.
Qed.
(** A caller that lets a panic through. *)
Lemma sp_try n b {S A B} (m : M S A) (k : option PVal -> M S B) :
  speaks n b m -> speaks n b (k None) -> (forall v, k (Some v) = raise v) ->
  speaks n b (bnd (try m) (fun v => k (pan v))).
Proof.
  intros Hm Hk Hp s. unfold bnd, try. specialize (Hm s). destruct (m s) as [[s1 t1] [a|w]]; cbn in *.
  - specialize (Hk s1). destruct (k None s1) as [[s2 t2] r2]. cbn in *. apply spoken_calm' in Hm as [H1 H2].
    apply spoken_app; done.
  - rewrite Hp. cbn. rewrite app_nil_r. eapply spoken_panic. exact Hm.
Qed.
Lemma sp_enriching n b {S A} h i me msg (m : M S A) : speaks n b m -> speaks n b (enriching h i me msg m).
Proof.
  intros H s. specialize (H s). unfold enriching. destruct (m s) as [[s1 t1] [a|w]]; cbn in *; [exact H|].
  destruct H as [H1 H2]. split; [done|]. destruct H2 as [H2|H2]; [left; done|right]. destruct b; [|eauto].
  destruct H2 as (t0 & sn & v & w' & -> & H5 & H6 & [= <-] & H8). exists t0, sn, v, (default w (enrich h i me msg (Some w))).
  split; [done|]. split; [done|]. split; [done|]. split; [done|].
  destruct w; try exact H8. cbn. inversion H8; subst. constructor.
Qed.
Lemma sp_fst n b {S T A} (m : M S A) : speaks n b m -> speaks n b (@fst_do P S T A m).
Proof. intros H [s x]. specialize (H s). unfold fst_do. destruct (m s) as [[s1 t1] r]. done. Qed.

Lemma group_notify_heard obs f u u' n v : group_notify obs f u = (u', n, v) -> heard obs (mkSeen f n v).
Proof. intros H. exists u, u'. exact H. Qed.
Lemma group_notify_count obs : forall f u u' n v, group_notify obs f u = (u', n, v) ->
  match v with None => n = length obs | Some _ => 1 <= n <= length obs end.
Proof.
  induction obs as [|ob obs IH]; intros f u u' n v; cbn; [intros [= <- <- <-]; done|].
  destruct (ob f u) as [u1 [w|]]; [intros [= <- <- <-]; lia|].
  destruct (group_notify obs f u1) as [[u2 n2] v2] eqn:E. intros [= <- <- <-]. specialize (IH _ _ _ _ _ E).
  destruct v2; lia.
Qed.
Lemma group_notify_each obs : forall f u u' n v, group_notify obs f u = (u', n, v) ->
  forall i, i < n -> exists ob w w' r, obs !! i = Some ob /\ ob f w = (w', r) /\ r = (if decide (S i = n) then v else None).
Proof.
  induction obs as [|ob obs IH]; intros f u u' n v; cbn; [intros [= <- <- <-]; lia|].
  destruct (ob f u) as [u1 [w|]] eqn:E1.
  - intros [= <- <- <-] i Hi. assert (i = 0) as -> by lia. exists ob, u, u1, (Some w). done.
  - destruct (group_notify obs f u1) as [[u2 n2] v2] eqn:E. intros [= <- <- <-] i Hi. specialize (IH _ _ _ _ _ E).
    destruct i as [|i].
    + exists ob, u, u1, None. split; [done|]. split; [done|]. destruct (decide (1 = S n2)) as [En|En]; [|done].
      pose proof (group_notify_count _ _ _ _ _ _ E) as Hc. destruct v2; [lia|done].
    + destruct (IH i ltac:(lia)) as (ob' & w & w' & r & H1 & H2 & H3). exists ob', w, w', r. split; [done|]. split; [done|].
      rewrite H3. destruct (decide (S i = n2)), (decide (S (S i) = S n2)); done || lia.
Qed.

Lemma sp_note b obs f : speaks obs b (note obs f).
Proof.
  intros g. unfold note. destruct (group_notify obs f (g_user g)) as [[u n] v] eqn:E. cbn.
  apply group_notify_heard in E. split; [constructor; [done|constructor]|]. destruct v as [v|].
  - right. destruct b; [|eauto]. exists [], (mkSeen f n (Some v)), v, v. repeat split; constructor.
  - left. constructor; [done|constructor].
Qed.
Lemma sp_mint n b o : speaks n b (mint o).
Proof. intros g. apply spoken_silent. Qed.
Lemma sp_user n b {A} (f : U -> U * A) : speaks n b (user f).
Proof. intros g. unfold user. destruct (f _). apply spoken_silent. Qed.
Lemma sp_get n b {S} : speaks n b (@get_st P S).
Proof. intros s. apply spoken_silent. Qed.
Lemma sp_set n b {S} (s : S) : speaks n b (set_st s).
Proof. intros s'. apply spoken_silent. Qed.
Lemma sp_a_get n b : speaks n b a_get.
Proof. intros [g s]. apply spoken_silent. Qed.
Lemma sp_a_set n b s : speaks n b (a_set s).
Proof. intros [g s']. apply spoken_silent. Qed.
Lemma sp_p_get n b : speaks n b p_get.
Proof. intros [g s]. apply spoken_silent. Qed.
Lemma sp_p_set n b s : speaks n b (p_set s).
Proof. intros [g s']. apply spoken_silent. Qed.
Lemma sp_i_add n b ev : speaks n b (i_add ev).
Proof. intros [g s']. apply spoken_silent. Qed.
Lemma sp_sched n b o : speaks n b (sched o).
Proof. intros g. apply spoken_silent. Qed.

Ltac sp1 :=
  lazymatch goal with
  | |- speaks _ _ (bnd (try _) _) => fail
  | |- speaks _ _ (bnd _ _) => apply sp_bnd; [|intros]
  | |- speaks _ _ (ret _) => apply sp_ret
  | |- speaks _ _ (raise _) => apply sp_raise
  | |- speaks _ _ (result _) => apply sp_result
  | |- speaks _ _ (enriching _ _ _ _ _) => apply sp_enriching
  | |- speaks _ _ (fst_do _) => apply sp_fst
  | |- speaks _ _ (mint _) => apply sp_mint
  | |- speaks _ _ (user _) => apply sp_user
  | |- speaks _ _ get_st => apply sp_get
  | |- speaks _ _ (set_st _) => apply sp_set
  | |- speaks _ _ a_get => apply sp_a_get
  | |- speaks _ _ (a_set _) => apply sp_a_set
  | |- speaks _ _ p_get => apply sp_p_get
  | |- speaks _ _ (p_set _) => apply sp_p_set
  | |- speaks _ _ (i_add _) => apply sp_i_add
  | |- speaks _ _ (sched _) => apply sp_sched
  | |- speaks _ _ (note _ _) => apply sp_note
  | |- speaks _ _ (let '(_, _) := ?y in _) => destruct y
  | |- speaks _ _ (if ?b then _ else _) => destruct b
  | |- speaks _ _ (match ?b with _ => _ end) => destruct b
  end.
Ltac sp := repeat sp1.

Section Handlers.
Context (x : XApp) (Hlets : lets_through x) (obs : list Observer) (o : Oracle) (strict : bool).
Notation n := obs.
Notation ok := (speaks n strict).

Lemma xa_run_sp h a now cmd id p : lets_a p -> ok (xa_run obs o h a now cmd id p).
Proof.
  intros H. induction H as [|v|f k _ IH|f k _ IH|b k _ IH Hp|k _ IH Hp|str k _ IH Hp]; cbn [xa_run]; sp; try apply IH.
  - apply (sp_try _ _ _ (fun v => xa_run obs o h a now cmd id (k v))); [|exact IH|intros v; rewrite Hp; done].
    unfold xa_record. sp.
  - apply (sp_try _ _ _ (fun v => xa_run obs o h a now cmd id (k v))); [|exact IH|intros v; rewrite Hp; done].
    unfold xa_destroy. sp.
  - apply (sp_try _ _ _ (fun v => xa_run obs o h a now cmd id (k v))); [|exact IH|intros v; rewrite Hp; done].
    unfold xa_log. sp.
Qed.

Lemma xa_handle_sp h a now env : ok (xa_handle x obs o h a now env).
Proof.
  intros [g hist]. unfold xa_handle. destruct (negb _); [apply spoken_silent|].
  match goal with |- spoken _ _ (?m (g, hist)).1.2 _ => assert (ok m) as H; [|exact (H (g, hist))] end.
  sp. intros [g1 hist1].
  match goal with |- context [enriching ?h' ?i ?me ?m ?c (g1, ?s0)] =>
    assert (He : ok (enriching h' i me m c)) by (sp; apply xa_run_sp, Hlets);
    specialize (He (g1, s0)); destruct (enriching h' i me m c (g1, s0)) as [[[g2 s2] t2] [u|w]] end; cbn in *.
  - eapply spoken_calm. exact He.
  - eapply spoken_panic. exact He.
Qed.

Lemma xi_run_sp h now cmd p : lets_i p -> ok (xi_run obs o h now cmd p).
Proof.
  intros H. induction H as [e|v|f k _ IH|b k _ IH Hp|str k _ IH Hp]; cbn [xi_run]; sp; try apply IH.
  - apply (sp_try _ _ _ (fun v => xi_run obs o h now cmd (k v))); [|exact IH|intros v; rewrite Hp; done].
    unfold xi_record. sp.
  - apply (sp_try _ _ _ (fun v => xi_run obs o h now cmd (k v))); [|exact IH|intros v; rewrite Hp; done]. sp.
Qed.

Lemma xi_handle_sp h now env : ok (xi_handle x obs o h now env).
Proof.
  intros g. unfold xi_handle. destruct (negb _); [apply spoken_silent|].
  match goal with |- context [enriching ?h' ?i ?me ?m ?c (g, ?s0)] =>
    assert (He : ok (enriching h' i me m c)) by (sp; apply xi_run_sp, Hlets);
    specialize (He (g, s0)); destruct (enriching h' i me m c (g, s0)) as [[[g2 s2] t2] [u|w]] end; cbn in *.
  - eapply spoken_calm. exact He.
  - eapply spoken_panic. exact He.
Qed.

Lemma xp_run_sp h now env id meth p : lets_p p -> ok (xp_run obs o h now env id meth p).
Proof.
  intros H. induction H as [e|v|f k _ IH|f k _ IH|b k _ IH Hp|b t k _ IH Hp|k _ IH Hp|str k _ IH Hp]; cbn [xp_run]; sp; try apply IH;
    (apply (sp_try _ _ _ (fun v => xp_run obs o h now env id meth (k v))); [|exact IH|intros v; rewrite Hp; done]).
  all: unfold xp_execute, xp_schedule, xp_end, xp_log, xp_check, xp_revert; sp.
Qed.

Lemma xp_handle_sp h pi now env : ok (xp_handle x obs o h pi now env).
Proof.
  assert (Hi : forall id r, ok (xp_handle_instance x obs o h now env id r)).
  { intros id r [g ps]. unfold xp_handle_instance.
    assert (Hp : lets_p (match m_kind (e_msg env) with
      | KTimeout => ("HandleTimeout", x_timeout x (h_name h) id (e_sched env) (e_msg env))
      | _ => ("HandleEvent", x_event x (h_name h) id (e_created env) (e_msg env)) end).2).
    { destruct (m_kind _); apply Hlets. }
    destruct (match m_kind (e_msg env) with KTimeout => _ | _ => _ end) as [meth prog]. cbn in Hp.
    match goal with |- context [enriching ?h' ?i ?me ?m ?c (g, ?s0)] =>
      assert (He : ok (enriching h' i me m c)) by (sp; apply xp_run_sp; done);
      specialize (He (g, s0)); destruct (enriching h' i me m c (g, s0)) as [[[g2 s2] t2] [[u|]|w]] end; cbn in *.
    - eapply spoken_calm. exact He.
    - destruct (ps_ended s2); (eapply spoken_calm; exact He).
    - eapply spoken_panic. exact He. }
  unfold xp_handle. destruct (negb _); [sp|]. apply sp_bnd.
  - unfold xp_route. sp.
  - intros rt. sp; apply Hi.
Qed.

Lemma xj_run_sp {A} hid ev (p : XJProg A) : lets_j p -> ok (xj_run obs hid ev p).
Proof.
  intros H. induction H as [a|v|f k _ IH|str k _ IH Hp]; cbn [xj_run]; sp; try apply IH.
  apply (sp_try _ _ _ (fun v => xj_run obs hid ev (k v))); [|exact IH|intros v; rewrite Hp; done]. sp.
Qed.
End Handlers.

(** ** A projection that is compacted while it handles an event *)
Section Par.
Context (obs : list Observer) (o : Oracle) (hid : HId) (ev : Env).
Notation n := obs.

Definition dies {S A} (m : M S A) : Prop := forall s, exists w, (m s).2 = inr w.
Lemma dies_raise {S A} w : dies (@raise P S A w).
Proof. intros s. eexists. done. Qed.
Lemma dies_left {S A B} (m : M S A) (k : A -> M S B) : dies m -> dies (bnd m k).
Proof. intros H s. destruct (H s) as [w Hw]. unfold bnd. destruct (m s) as [[s1 t1] r]. cbn in Hw. subst r. eexists. done. Qed.
Lemma dies_right {S A B} (m : M S A) (k : A -> M S B) : (forall a, dies (k a)) -> dies (bnd m k).
Proof.
  intros H s. unfold bnd. destruct (m s) as [[s1 t1] [a|w]]; [|eexists; done].
  destruct (H a s1) as [w Hw]. destruct (k a s1) as [[s2 t2] r]. cbn in *. eexists. done.
Qed.
Lemma dies_fatal {S A} (m : M S A) : dies m -> dies (fatal m).
Proof. intros H s. destruct (H s) as [w Hw]. unfold fatal. destruct (m s) as [[s1 t1] r]. cbn in *. subst r. eexists. done. Qed.

Lemma par_dies_main {A B} v : forall c : XJProg B, dies (xj_par obs o hid ev (XJPanic (A:=A) v) c).
Proof.
  induction c as [b|v'|f' k' IHc|str' k' IHc]; rewrite xj_par_eq.
  - apply dies_left, dies_raise.
  - apply dies_right. intros [|]; apply dies_raise.
  - apply dies_right. intros [|]; [apply dies_raise|]. apply dies_right. intros u. apply IHc.
  - apply dies_right. intros [|]; [apply dies_raise|]. apply dies_right. intros u. apply IHc.
Qed.
Lemma par_dies_compact {A B} v : forall m : XJProg A, dies (xj_par obs o hid ev m (XJPanic (A:=B) v)).
Proof.
  induction m as [a|v'|f k IH|str k IH]; rewrite xj_par_eq.
  - apply dies_left, dies_fatal, dies_raise.
  - apply dies_right. intros [|]; apply dies_raise.
  - apply dies_right. intros [|]; [|apply dies_raise]. apply dies_right. intros u. apply IH.
  - apply dies_right. intros [|]; [|apply dies_raise]. apply dies_right. intros u. apply IH.
Qed.

Lemma spoken_any {A} t (r : A + PVal) : Forall (heard n) t -> (exists w, r = inr w) -> spoken n false t r.
Proof. intros H [w ->]. split; [done|]. right. eauto. Qed.

(** A goroutine whose notification panics can only panic. *)
Lemma sp_try_dies {A} f (k : option PVal -> M GState A) :
  (forall v s, Forall (heard n) (k (Some v) s).1.2) ->
  speaks n false (k None) -> (forall v, dies (k (Some v))) ->
  speaks n false (bnd (try (note obs f)) (fun v => k (pan v))).
Proof.
  intros Hh Hk Hd s. unfold bnd, try. pose proof (sp_note false obs f s) as Hm.
  destruct (note obs f s) as [[s1 t1] [a|w]]; cbn in *.
  - specialize (Hk s1). destruct (k None s1) as [[s2 t2] r2]. cbn in *. apply spoken_calm' in Hm as [H1 H2].
    apply spoken_app; done.
  - destruct (Hd w s1) as [w' Hw]. specialize (Hh w s1). destruct (k (Some w) s1) as [[s2 t2] r2]. cbn in *. subst r2.
    apply spoken_any; [|eauto]. apply Forall_app. split; [apply Hm|done].
Qed.

(** Whatever happens, each notification goes to as many observers as it should. *)
Definition hears {S A} (m : M S A) : Prop := forall s, Forall (heard n) (m s).1.2.
Lemma hears_bnd {S A B} (m : M S A) (k : A -> M S B) : hears m -> (forall a, hears (k a)) -> hears (bnd m k).
Proof.
  intros Hm Hk s. unfold bnd. specialize (Hm s). destruct (m s) as [[s1 t1] [a|w]]; [|done].
  specialize (Hk a s1). destruct (k a s1) as [[s2 t2] r2]. cbn in *. apply Forall_app. done.
Qed.
Lemma hears_speaks b {S A} (m : M S A) : speaks n b m -> hears m.
Proof. intros H s. apply H. Qed.
Lemma hears_try {S A} (m : M S A) : hears m -> hears (try m).
Proof. intros H s. specialize (H s). unfold try. destruct (m s) as [[s1 t1] r]. done. Qed.
Lemma hears_fatal {S A} (m : M S A) : hears m -> hears (fatal m).
Proof. intros H s. specialize (H s). unfold fatal. destruct (m s) as [[s1 t1] r]. done. Qed.

Ltac hear :=
  repeat lazymatch goal with
  | |- hears (bnd _ _) => apply hears_bnd; [|intros]
  | |- hears (ret _) => apply (hears_speaks true), sp_ret
  | |- hears (raise _) => apply (hears_speaks true), sp_raise
  | |- hears (try _) => apply hears_try
  | |- hears (fatal _) => apply hears_fatal
  | |- hears (user _) => apply (hears_speaks true), sp_user
  | |- hears (sched _) => apply (hears_speaks true), sp_sched
  | |- hears (note _ _) => apply (hears_speaks true), sp_note
  | |- hears (if ?b then _ else _) => destruct b
  end.

Lemma xj_run_hears {A} ev' (p : XJProg A) : hears (xj_run obs hid ev' p).
Proof. induction p as [a|v|f k IH|str k IH]; cbn [xj_run]; hear; apply IH. Qed.
Lemma xj_par_hears {A B} (m : XJProg A) : forall c : XJProg B, hears (xj_par obs o hid ev m c).
Proof.
  induction m as [a|v|f k IHm|str k IHm]; intros c; induction c as [b|v'|f' k' IHc|str' k' IHc];
    rewrite xj_par_eq; hear; try apply xj_run_hears; try apply IHm; try apply IHc.
Qed.

Lemma sp_fatal n' {S A} (m : M S A) : speaks n' false m -> speaks n' false (fatal m).
Proof.
  intros H s. specialize (H s). unfold fatal. destruct (m s) as [[s1 t1] [a|w]]; cbn in *; [exact H|].
  destruct H as [H1 H2]. split; [done|]. right. eauto.
Qed.

Lemma xj_par_sp {A B} (m : XJProg A) : lets_j m -> forall c : XJProg B, lets_j c -> speaks n false (xj_par obs o hid ev m c).
Proof.
  intros Hm. induction Hm as [a|v|f k Hk IHm|str k Hk IHm Hp]; intros c Hc; pose proof Hc as Hc0;
    induction Hc as [b|v'|f' k' Hk' IHc|str' k' Hk' IHc Hp']; rewrite xj_par_eq.
  1-4: (apply sp_bnd; [apply sp_fatal, xj_run_sp; [exact Hc0]|intros; apply sp_ret]).
  1,5,9: (apply sp_bnd; [apply xj_run_sp; constructor; auto|intros; apply sp_ret]).
  all: (apply sp_bnd; [apply sp_sched|intros [|]]); try apply sp_raise.
  all: try (apply sp_bnd; [apply sp_user|intros u]; (apply IHm || apply IHc); auto).
  all: first
    [ apply (sp_try_dies _ (fun v => xj_par obs o hid ev (k v) _)); [intros; apply xj_par_hears|apply IHm; exact Hc0|intros v0; rewrite Hp; apply par_dies_main]
    | apply (sp_try_dies _ (fun v => xj_par obs o hid ev _ (k' v))); [intros; apply xj_par_hears|apply IHc; assumption|intros v0; rewrite Hp'; apply par_dies_compact] ].
Qed.
End Par.

(** ** The engine *)
Section Engine.
Context (x : XApp) (Hlets : lets_through x) (obs : list Observer) (o : Oracle) (strict : bool)
  (Hstrict : strict = true -> c_compact (x_cfg x) = false).
Notation n := obs.
Notation ok := (speaks n strict).

Lemma xj_handle_sp h j now env : ok (xj_handle x obs o h j now env).
Proof.
  unfold xj_handle, xj_apply. sp; try (apply xj_run_sp, Hlets).
  destruct strict; [specialize (Hstrict eq_refl)|apply xj_par_sp; apply Hlets]. congruence.
Qed.
Lemma xj_tick_sp h now : ok (xj_tick x obs h now).
Proof. unfold xj_tick. sp. apply xj_run_sp, Hlets. Qed.

Lemma sp_on_g {A} (m : M GState A) : ok m -> ok (on_g m).
Proof. intros H [g cs]. specialize (H g). unfold on_g. cbn. destruct (m g) as [[g1 t1] r]. exact H. Qed.
Lemma sp_on_ctrl {A} h (m : M (GState * CState) A) : ok m -> ok (on_ctrl h m).
Proof.
  intros H st. unfold on_ctrl. destruct (es_cs st !! h_name h) as [cs|]; [|apply spoken_silent].
  specialize (H (es_g st, cs)). destruct (m _) as [[[g' cs'] t] r]. exact H.
Qed.

Lemma xctrl_handle_sp h now env : ok (xctrl_handle x obs o h now env).
Proof.
  intros [g cs]. unfold xctrl_handle.
  destruct (h_impl h) as [a|p|i|j] eqn:Hi, cs as [hist|ps| |last]; try apply spoken_silent.
  - pose proof (xa_handle_sp x Hlets obs o strict h a now env (g, hist)) as H.
    destruct (xa_handle _ _ _ _ _ _ _ _) as [[[? ?] ?] ?]. exact H.
  - pose proof (xp_handle_sp x Hlets obs o strict h p now env (g, ps)) as H.
    destruct (xp_handle _ _ _ _ _ _ _ _) as [[[? ?] ?] ?]. exact H.
  - pose proof (xi_handle_sp x Hlets obs o strict h now env g) as H.
    destruct (xi_handle _ _ _ _ _ _ _) as [[? ?] ?]. exact H.
  - pose proof (xj_handle_sp h j now env g) as H.
    destruct (xj_handle _ _ _ _ _ _ _ _) as [[? ?] ?]. exact H.
Qed.
Lemma xctrl_tick_sp h now : ok (xctrl_tick x obs h now).
Proof.
  intros [g cs]. unfold xctrl_tick.
  destruct (h_impl h) as [a|p|i|j] eqn:Hi, cs as [hist|ps| |last]; try apply spoken_silent.
  - destruct (p_tick _ _). apply spoken_silent.
  - pose proof (xj_tick_sp h now (g, last)) as H. destruct (xj_tick _ _ _ _ _) as [[[? ?] ?] ?]. exact H.
Qed.

Lemma sp_say f : ok (on_g (note obs f)).
Proof. apply sp_on_g, sp_note. Qed.
Lemma sp_poll : ok (xpoll o).
Proof. apply sp_on_g. intros g. apply spoken_silent. Qed.

Lemma xe_handle_sp oo env oh : ok (xe_handle x obs o oo env oh).
Proof.
  unfold xe_handle. destruct oh as [h|]; [|apply sp_raise]. destruct (skip_handler h oo).
  - apply sp_bnd; [apply sp_say|]. intros ?. apply sp_ret.
  - apply sp_bnd; [apply sp_say|]. intros ?. apply sp_bnd; [apply sp_on_ctrl, xctrl_handle_sp|]. intros [envs e].
    apply sp_bnd; [apply sp_say|]. intros ?. apply sp_ret.
Qed.
Lemma xe_handlers_sp oo env hs : ok (xe_handlers x obs o oo env hs).
Proof.
  induction hs as [|h hs IH]; cbn [xe_handlers]; [apply sp_ret|]. apply sp_bnd; [apply xe_handle_sp|]. intros [envs e].
  apply sp_bnd; [exact IH|]. intros [envs' errs']. apply sp_ret.
Qed.
Lemma xe_message_sp oo env : ok (xe_message x obs o oo env).
Proof.
  unfold xe_message. destruct (targets _ _) as [hs|]; [|apply sp_raise]. apply sp_bnd; [apply sp_say|]. intros ?.
  apply sp_bnd; [apply xe_handlers_sp|]. intros [envs derr]. apply sp_bnd; [apply sp_say|]. intros ?. apply sp_ret.
Qed.
Lemma xe_loop_sp oo fuel : forall q err, ok (xe_loop x obs o oo fuel q err).
Proof.
  induction fuel as [|fuel IH]; intros [|env q] err; cbn [xe_loop]; try apply sp_ret.
  apply sp_bnd; [apply xe_message_sp|]. intros [envs derr]. apply sp_bnd; [apply sp_poll|]. intros [e|]; [apply sp_ret|apply IH].
Qed.
Lemma xe_tick_one_sp oo h : ok (xe_tick_one x obs o oo h).
Proof.
  unfold xe_tick_one. destruct (skip_handler h oo).
  - apply sp_bnd; [apply sp_say|]. intros ?. apply sp_ret.
  - apply sp_bnd; [apply sp_say|]. intros ?. apply sp_bnd; [apply sp_on_ctrl, xctrl_tick_sp|]. intros [envs e].
    apply sp_bnd; [apply sp_say|]. intros ?. apply sp_bnd; [apply sp_poll|]. intros ?. apply sp_ret.
Qed.
Lemma xe_tick_handlers_sp oo hs : ok (xe_tick_handlers x obs o oo hs).
Proof.
  induction hs as [|h hs IH]; cbn [xe_tick_handlers]; [apply sp_ret|]. apply sp_bnd; [apply xe_tick_one_sp|].
  intros [[envs e] [ce|]]; [apply sp_ret|]. apply sp_bnd; [exact IH|]. intros res. apply sp_ret.
Qed.
Lemma xe_tick_body_sp oo fuel order : ok (xe_tick_body x obs o oo fuel order).
Proof.
  unfold xe_tick_body. apply sp_bnd; [apply xe_tick_handlers_sp|]. intros [[q errs]|e]; [|apply sp_ret].
  apply sp_bnd; [apply xe_loop_sp|]. intros r. apply sp_ret.
Qed.

Lemma sp_acquire : ok (acquire o).
Proof.
  intros [st locked]. unfold acquire. destruct (lock o (es_g st)) as [g [e|]]; [apply spoken_silent|].
  destruct locked; apply spoken_silent.
Qed.
Lemma sp_unlocking m : ok m -> ok (unlocking m).
Proof. intros H s. specialize (H s). unfold unlocking. destruct (m s) as [[[st l] t] r]. exact H. Qed.
End Engine.

Lemma locked_sp x o obs strict (Hlets : lets_through x) (Hstrict : strict = true -> c_compact (x_cfg x) = false)
    f (m : M EState (option Errs)) (c : Errs -> Fact) :
  speaks obs strict m ->
  speaks obs strict (bnd (fst_do (on_g (note obs f))) (fun _ => bnd (acquire o) (fun le =>
    match le with
    | None => ret RBlocked
    | Some (Some e) => bnd (fst_do (on_g (note obs (c [e])))) (fun _ => ret (RDone [e]))
    | Some None =>
      unlocking (bnd (fst_do m) (fun r => match r with
        | None => ret RRunning
        | Some err => bnd (fst_do (on_g (note obs (c err)))) (fun _ => ret (RDone err))
        end))
    end))).
Proof.
  intros Hm. apply sp_bnd; [apply sp_fst, sp_say|]. intros _. apply sp_bnd; [apply sp_acquire|].
  intros [[e|]|]; [| |apply sp_ret].
  - apply sp_bnd; [apply sp_fst, sp_say|]. intros _. apply sp_ret.
  - apply sp_unlocking. apply sp_bnd; [apply sp_fst, Hm|]. intros [err|]; [|apply sp_ret].
    apply sp_bnd; [apply sp_fst, sp_say|]. intros _. apply sp_ret.
Qed.

Lemma observers_len x wall opts oo :
  new_opts (x_cfg x) wall opts = inl oo -> observers x oo = x_obs x <$> given opts.
Proof. intros H. unfold observers. apply apply_opts_observers in H. rewrite H. done. Qed.

Lemma notes_seen t : notes (XSeen <$> t) = t.
Proof. induction t as [|s t IH]; [done|]. cbn. f_equal. exact IH. Qed.

Lemma xrun_op_sp x strict (Hlets : lets_through x) (Hstrict : strict = true -> c_compact (x_cfg x) = false) op s :
  let '(_, evs, r) := xrun_op x op s in spoken (x_obs x <$> op_given op) strict (notes evs) r.
Proof.
  destruct op as [o fuel m opts|o fuel order opts| |f]; cbn [xrun_op op_given].
  - assert (H : speaks (x_obs x <$> given opts) strict (xe_dispatch x o fuel m opts)).
    { unfold xe_dispatch. apply sp_bnd; [apply sp_fst; intros [g cs]; apply spoken_silent|]. intros id.
      destruct (new_opts _ _ _) as [oo|v] eqn:Ho; [|apply sp_raise].
      rewrite <- (observers_len x _ _ _ Ho).
      destruct (m_kind m); try apply sp_raise; (destruct (m_invalid m); [apply sp_raise|]);
        (destruct (routes _ !! _); [|apply sp_raise]);
        (apply (locked_sp x _ _ _ Hlets Hstrict _ _ (fun err => DispatchCycleCompleted _ err _ _)); apply xe_loop_sp; done). }
    specialize (H s). destruct (xe_dispatch _ _ _ _ _ _) as [[s' t] r]. cbn in H. rewrite notes_seen. exact H.
  - assert (H : speaks (x_obs x <$> given opts) strict (xe_tick x o fuel order opts)).
    { unfold xe_tick. destruct (new_opts _ _ _) as [oo|v] eqn:Ho; [|apply sp_raise].
      rewrite <- (observers_len x _ _ _ Ho).
      apply (locked_sp x _ _ _ Hlets Hstrict _ _ (fun err => TickCycleCompleted err _ _)); apply xe_tick_body_sp; done. }
    specialize (H s). destruct (xe_tick _ _ _ _ _ _) as [[s' t] r]. cbn in H. rewrite notes_seen. exact H.
  - destruct s as [st [|]]; unfold xe_reset; [cbn; apply spoken_silent|].
    destruct (run_resets _ _) as [u [w|]]; cbn; apply spoken_silent.
  - destruct s as [st l]; cbn; apply spoken_silent.
Qed.

(** ** Observers *)
Section Hears.
Context (x : XApp) (obs : list Observer) (o : Oracle).
Notation n := obs.
Notation hs := (hears obs).

Lemma hears_enriching {S A} h i me msg (m : M S A) : hs m -> hs (enriching h i me msg m).
Proof. intros H s. specialize (H s). unfold enriching. destruct (m s) as [[s1 t1] r]. done. Qed.
Lemma hears_fst {S T A} (m : M S A) : hs m -> hs (@fst_do P S T A m).
Proof. intros H [s y]. specialize (H s). unfold fst_do. destruct (m s) as [[s1 t1] r]. done. Qed.
Lemma hears_on_g {A} (m : M GState A) : hs m -> hs (on_g m).
Proof. intros H [g cs]. specialize (H g). unfold on_g. cbn. destruct (m g) as [[g1 t1] r]. exact H. Qed.
Lemma hears_on_ctrl {A} h (m : M (GState * CState) A) : hs m -> hs (on_ctrl h m).
Proof.
  intros H st. unfold on_ctrl. destruct (es_cs st !! h_name h) as [cs|]; [|constructor].
  specialize (H (es_g st, cs)). destruct (m _) as [[[g' cs'] t] r]. exact H.
Qed.
Lemma hears_unlocking m : hs m -> hs (unlocking m).
Proof. intros H s. specialize (H s). unfold unlocking. destruct (m s) as [[[st l] t] r]. exact H. Qed.

Ltac hr1 :=
  lazymatch goal with
  | |- hears _ (bnd _ _) => apply hears_bnd; [|intros]
  | |- hears _ (ret _) => apply (hears_speaks _ true), sp_ret
  | |- hears _ (raise _) => apply (hears_speaks _ true), sp_raise
  | |- hears _ (result _) => apply (hears_speaks _ true), sp_result
  | |- hears _ (try _) => apply hears_try
  | |- hears _ (enriching _ _ _ _ _) => apply hears_enriching
  | |- hears _ (fatal _) => apply hears_fatal
  | |- hears _ (fst_do _) => apply hears_fst
  | |- hears _ (on_g _) => apply hears_on_g
  | |- hears _ (on_ctrl _ _) => apply hears_on_ctrl
  | |- hears _ (unlocking _) => apply hears_unlocking
  | |- hears _ (mint _) => apply (hears_speaks _ true), sp_mint
  | |- hears _ (user _) => apply (hears_speaks _ true), sp_user
  | |- hears _ get_st => apply (hears_speaks _ true), sp_get
  | |- hears _ (set_st _) => apply (hears_speaks _ true), sp_set
  | |- hears _ a_get => apply (hears_speaks _ true), sp_a_get
  | |- hears _ (a_set _) => apply (hears_speaks _ true), sp_a_set
  | |- hears _ p_get => apply (hears_speaks _ true), sp_p_get
  | |- hears _ (p_set _) => apply (hears_speaks _ true), sp_p_set
  | |- hears _ (i_add _) => apply (hears_speaks _ true), sp_i_add
  | |- hears _ (sched _) => apply (hears_speaks _ true), sp_sched
  | |- hears _ (acquire _) => apply (hears_speaks _ true), sp_acquire
  | |- hears _ (note _ _) => apply (hears_speaks _ true), sp_note
  | |- hears _ (let '(_, _) := ?y in _) => destruct y
  | |- hears _ (if ?b then _ else _) => destruct b
  | |- hears _ (match ?b with _ => _ end) => destruct b
  end.
Ltac hr := repeat hr1.

Lemma xa_handle_hears h a now env : hs (xa_handle x obs o h a now env).
Proof.
  assert (Hr : forall id p, hs (xa_run obs o h a now env id p)).
  { intros id p. induction p as [|v|f k IH|f k IH|b k IH|k IH|str k IH]; cbn [xa_run]; hr; try apply IH.
    all: unfold xa_record, xa_destroy, xa_log; hr. }
  intros [g hist]. unfold xa_handle. destruct (negb _); [constructor|].
  match goal with |- Forall _ (?m (g, hist)).1.2 => assert (hs m) as H; [|exact (H (g, hist))] end.
  hr. intros [g1 hist1].
  match goal with |- context [enriching ?h' ?i ?me ?m ?c (g1, ?s0)] =>
    assert (He : hs (enriching h' i me m c)) by (hr; apply Hr);
    specialize (He (g1, s0)); destruct (enriching h' i me m c (g1, s0)) as [[[g2 s2] t2] [u|w]] end; exact He.
Qed.
Lemma xi_handle_hears h now env : hs (xi_handle x obs o h now env).
Proof.
  assert (Hr : forall p, hs (xi_run obs o h now env p)).
  { intros p. induction p as [e|v|f k IH|b k IH|str k IH]; cbn [xi_run]; hr; try apply IH. all: unfold xi_record; hr. }
  intros g. unfold xi_handle. destruct (negb _); [constructor|].
  match goal with |- context [enriching ?h' ?i ?me ?m ?c (g, ?s0)] =>
    assert (He : hs (enriching h' i me m c)) by (hr; apply Hr);
    specialize (He (g, s0)); destruct (enriching h' i me m c (g, s0)) as [[[g2 s2] t2] [u|w]] end; exact He.
Qed.
Lemma xp_handle_hears h pi now env : hs (xp_handle x obs o h pi now env).
Proof.
  assert (Hr : forall id meth p, hs (xp_run obs o h now env id meth p)).
  { intros id meth p. induction p as [e|v|f k IH|f k IH|b k IH|b t k IH|k IH|str k IH]; cbn [xp_run]; hr; try apply IH.
    all: unfold xp_execute, xp_schedule, xp_end, xp_log, xp_check, xp_revert; hr. }
  assert (Hi : forall id r, hs (xp_handle_instance x obs o h now env id r)).
  { intros id r [g ps]. unfold xp_handle_instance.
    destruct (match m_kind (e_msg env) with KTimeout => _ | _ => _ end) as [meth prog].
    match goal with |- context [enriching ?h' ?i ?me ?m ?c (g, ?s0)] =>
      assert (He : hs (enriching h' i me m c)) by (hr; apply Hr);
      specialize (He (g, s0)); destruct (enriching h' i me m c (g, s0)) as [[[g2 s2] t2] [[u|]|w]] end; try exact He.
    destruct (ps_ended s2); exact He. }
  unfold xp_handle. destruct (negb _); [hr|]. apply hears_bnd.
  - unfold xp_route. hr.
  - intros rt. hr; apply Hi.
Qed.
Lemma xctrl_handle_hears h now env : hs (xctrl_handle x obs o h now env).
Proof.
  intros [g cs]. unfold xctrl_handle.
  destruct (h_impl h) as [a|p|i|j] eqn:Hi, cs as [hist|ps| |last]; try constructor.
  - pose proof (xa_handle_hears h a now env (g, hist)) as H. destruct (xa_handle _ _ _ _ _ _ _ _) as [[[? ?] ?] ?]. exact H.
  - pose proof (xp_handle_hears h p now env (g, ps)) as H. destruct (xp_handle _ _ _ _ _ _ _ _) as [[[? ?] ?] ?]. exact H.
  - pose proof (xi_handle_hears h now env g) as H. destruct (xi_handle _ _ _ _ _ _ _) as [[? ?] ?]. exact H.
  - assert (H : hs (xj_handle x obs o h j now env)).
    { unfold xj_handle, xj_apply. hr; first [apply xj_run_hears|apply xj_par_hears]. }
    specialize (H g). destruct (xj_handle _ _ _ _ _ _ _ _) as [[? ?] ?]. exact H.
Qed.
Lemma xctrl_tick_hears h now : hs (xctrl_tick x obs h now).
Proof.
  intros [g cs]. unfold xctrl_tick.
  destruct (h_impl h) as [a|p|i|j] eqn:Hi, cs as [hist|ps| |last]; try constructor.
  - destruct (p_tick _ _). constructor.
  - assert (H : hs (xj_tick x obs h now)) by (unfold xj_tick; hr; apply xj_run_hears).
    specialize (H (g, last)). destruct (xj_tick _ _ _ _ _) as [[[? ?] ?] ?]. exact H.
Qed.
Lemma hears_poll : hs (xpoll o).
Proof. apply hears_on_g. intros g. constructor. Qed.
Lemma xe_loop_hears oo fuel : forall q err, hs (xe_loop x obs o oo fuel q err).
Proof.
  assert (Hh : forall env l, hs (xe_handlers x obs o oo env l)).
  { intros env. induction l as [|h l IH]; cbn [xe_handlers]; hr; [|exact IH].
    unfold xe_handle. hr. apply xctrl_handle_hears. }
  induction fuel as [|fuel IH]; intros [|env q] err; cbn [xe_loop]; hr; try apply IH; try apply hears_poll.
  unfold xe_message. hr. apply Hh.
Qed.
Lemma xe_tick_body_hears oo fuel order : hs (xe_tick_body x obs o oo fuel order).
Proof.
  assert (Hh : forall l, hs (xe_tick_handlers x obs o oo l)).
  { induction l as [|h l IH]; cbn [xe_tick_handlers]; hr; [|exact IH].
    unfold xe_tick_one. hr; [apply xctrl_tick_hears|apply hears_poll]. }
  unfold xe_tick_body. hr; [apply Hh|apply xe_loop_hears].
Qed.
End Hears.

Lemma xrun_op_hears x op s :
  let '(_, evs, _) := xrun_op x op s in Forall (heard (x_obs x <$> op_given op)) (notes evs).
Proof.
  assert (Hl : forall o obs f (m : M EState (option Errs)) (c : Errs -> Fact), hears obs m ->
    hears obs (bnd (fst_do (on_g (note obs f))) (fun _ => bnd (acquire o) (fun le =>
    match le with
    | None => ret RBlocked
    | Some (Some e) => bnd (fst_do (on_g (note obs (c [e])))) (fun _ => ret (RDone [e]))
    | Some None =>
      unlocking (bnd (fst_do m) (fun r => match r with
        | None => ret RRunning
        | Some err => bnd (fst_do (on_g (note obs (c err)))) (fun _ => ret (RDone err))
        end))
    end)))).
  { intros o obs f m c Hm.
    assert (Hs : forall f, hears obs (@fst_do P _ bool _ (on_g (note obs f)))).
    { intros f'. apply (hears_speaks _ true), sp_fst, sp_say. }
    apply hears_bnd; [apply Hs|]. intros _. apply hears_bnd; [apply (hears_speaks _ true), sp_acquire|].
    intros [[e|]|]; [| |apply (hears_speaks _ true), sp_ret].
    - apply hears_bnd; [apply Hs|]. intros _. apply (hears_speaks _ true), sp_ret.
    - apply hears_unlocking. apply hears_bnd; [apply hears_fst, Hm|]. intros [err|]; [|apply (hears_speaks _ true), sp_ret].
      apply hears_bnd; [apply Hs|]. intros _. apply (hears_speaks _ true), sp_ret. }
  destruct op as [o fuel m opts|o fuel order opts| |f]; cbn [xrun_op op_given].
  - assert (H : forall s, Forall (heard (x_obs x <$> given opts)) (xe_dispatch x o fuel m opts s).1.2).
    { unfold xe_dispatch. destruct (new_opts (x_cfg x) (o_wall o) opts) as [oo|v] eqn:Ho; [|intros [st l]; constructor].
      rewrite <- (observers_len x _ _ _ Ho).
      match goal with |- forall s, Forall _ (?mm s).1.2 => change (hears (observers x oo) mm) end.
      apply hears_bnd; [intros [st l]; constructor|]. intros id.
      destruct (m_kind m); try (apply (hears_speaks _ true), sp_raise); (destruct (m_invalid m); [apply (hears_speaks _ true), sp_raise|]);
        (destruct (routes _ !! _); [|apply (hears_speaks _ true), sp_raise]);
        (apply (Hl _ _ _ _ (fun err => DispatchCycleCompleted _ err _ _)); apply xe_loop_hears). }
    specialize (H s). destruct (xe_dispatch _ _ _ _ _ _) as [[s' t] r]. cbn in H. rewrite notes_seen. exact H.
  - assert (H : forall s, Forall (heard (x_obs x <$> given opts)) (xe_tick x o fuel order opts s).1.2).
    { unfold xe_tick. intros s0. destruct (new_opts _ _ _) as [oo|v] eqn:Ho; [|constructor].
      rewrite <- (observers_len x _ _ _ Ho).
      apply (Hl _ _ _ _ (fun err => TickCycleCompleted err _ _)); apply xe_tick_body_hears. }
    specialize (H s). destruct (xe_tick _ _ _ _ _ _) as [[s' t] r]. cbn in H. rewrite notes_seen. exact H.
  - destruct s as [st [|]]; [cbn|unfold xe_reset; destruct (run_resets _ _) as [u [w|]]; cbn]; constructor.
  - destruct s as [st l]; cbn; constructor.
Qed.
End ObsPanics.
