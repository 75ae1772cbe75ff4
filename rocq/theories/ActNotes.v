(** * Proofs about annotations: tests with user-defined actions keep them in order. *)
From Verif Require Export ActSpec NoteProof ActScan.
From Verif Require Import ActRefine.
From Coq Require Import Lia.

Section Proof.
Context {P : Params}.

Definition u_kept (f : TState -> Run) : Prop :=
  forall st st' evs r, f st = (st', evs, r) -> ts_notes st' = ts_notes st ++ u_annotated evs.

Lemma u_annotated_app l l' : u_annotated (l ++ l') = u_annotated l ++ u_annotated l'.
Proof. apply omap_app. Qed.
Lemma u_annotated_lift l : u_annotated (VT <$> l) = annotated l.
Proof. induction l as [|ev l IH]; [done|]. unfold u_annotated, annotated in *. rewrite fmap_cons. cbn [omap list_omap]. rewrite IH. by destruct ev. Qed.

Section Env.
Context (E : TEnv) (c : Config).

Lemma lift_kept (f : TState -> TState * list TEv * AOut) : notes_kept f -> u_kept (fun st => lift (f st)).
Proof.
  intros H st st' evs r. unfold lift. destruct (f st) as [[st1 evs1] r1] eqn:Ex. intros [= <- <- <-].
  rewrite u_annotated_lift. by apply H in Ex.
Qed.
Lemma then_kept f k : u_kept f -> (forall x, u_kept (k x)) -> u_kept (fun st => x_then (f st) k).
Proof.
  intros Hf Hk st st' evs r. unfold x_then. destruct (f st) as [[st1 evs1] r1] eqn:Ex. apply Hf in Ex.
  destruct (x_res r1) as [y|]; [|by intros [= <- <- <-]].
  destruct (k y st1) as [[st2 evs2] r2] eqn:Ek. apply Hk in Ek. intros [= <- <- <-]. by rewrite Ek, Ex, u_annotated_app, app_assoc.
Qed.
Lemma prepare_kept a act : (forall opts, u_kept (act opts)) -> u_kept (u_prepare E a act).
Proof.
  intros Ha st st' evs r. unfold u_prepare. destruct (ua_caption a) as [s|v]; [|intros [= <- <- <-]; cbn; by rewrite app_nil_r].
  unfold tell. destruct (act _ _) as [[st1 evs1] r1] eqn:Ex. apply Ha in Ex.
  destruct r1; intros [= <- <- <-]; try exact Ex.
  cbn [ts_notes set_failed]. change (u_annotated (VHeading s None :: ?l)) with (u_annotated l). rewrite u_annotated_app. cbn. by rewrite app_nil_r.
Qed.
Lemma expect_kept a act e : (forall opts, u_kept (act opts)) -> u_kept (u_expect E c a act e).
Proof.
  intros Ha st st' evs r. unfold u_expect. set (o := mkPO _ _).
  destruct (ua_conf a o) as [o'|v]; [|intros [= <- <- <-]; cbn; by rewrite app_nil_r].
  destruct (ua_caption a) as [s|v]; [|intros [= <- <- <-]; cbn; by rewrite app_nil_r].
  destruct (new_predicate _ _) as [p|er]; [|intros [= <- <- <-]; cbn; by rewrite app_nil_r].
  destruct (act _ _) as [[st1 evs1] r1] eqn:Ex. apply Ha in Ex. cbn in Ex.
  assert (Hl : forall l, u_annotated l = [] -> ts_notes st1 = ts_notes st ++ u_annotated (VConfigure o :: VHeading s (Some e) :: VT TvPredicate :: evs1 ++ VT TvFinal :: l)).
  { intros l Hl. change (u_annotated (VConfigure o :: VHeading s (Some e) :: VT TvPredicate :: ?l)) with (u_annotated l). rewrite u_annotated_app.
    change (u_annotated (VT TvFinal :: ?l)) with (u_annotated l). rewrite Hl, app_nil_r. done. }
  assert (Hl0 := Hl [] eq_refl).
  destruct (p_done _) as [q dp]. destruct r1; try (intros [= <- <- <-]; exact Ex);
    (destruct dp as [w|]; [intros [= <- <- <-]; exact Hl0|]); try (intros [= <- <- <-]; exact Hl0).
  - destruct (p_ok q).
    + intros [= <- <- <-]. cbn [app]. rewrite <- app_assoc. by apply Hl.
    + intros [= <- <- <-]. cbn [app ts_notes set_failed]. rewrite <- !app_assoc. by apply Hl.
  - cbn [u_fatal]. intros [= <- <- <-]. cbn [app ts_notes set_failed]. rewrite <- !app_assoc. by apply Hl.
Qed.
Lemma deferring_kept p q : u_kept p -> u_kept q -> u_kept (deferring p q).
Proof.
  intros Hp Hq st st' evs r. unfold deferring. destruct (p st) as [[st1 evs1] r1] eqn:Ep. apply Hp in Ep.
  destruct (q st1) as [[st2 evs2] r2] eqn:Eq. apply Hq in Eq.
  destruct r1; intros [= <- <- <-]; try exact Ep; by rewrite Eq, Ep, u_annotated_app, app_assoc.
Qed.

Lemma u_run_notes : (forall p, u_kept (run_u E c p)) /\ (forall a opts, u_kept (do_u E c a opts)).
Proof.
  apply u_mutind.
  - intros [e|] st st' evs r [= <- <- <-]; cbn; by rewrite app_nil_r.
  - intros v st st' evs r [= <- <- <-]; cbn; by rewrite app_nil_r.
  - intros st st' evs r [= <- <- <-]; cbn; by rewrite app_nil_r.
  - intros f k IH st st' evs r. cbn [run_u]. destruct (run_u _ _ _ _) as [[st1 evs1] r1] eqn:Er. intros [= <- <- <-]. by apply IH in Er.
  - intros b k IH. apply (then_kept (fun st => lift (execute_command E c b st))); [apply lift_kept, execute_notes|done].
  - intros m opts k IH. apply (then_kept (fun st => lift (engine_op E c _ st))); [apply lift_kept, engine_op_notes|done].
  - intros opts k IH. apply (then_kept (fun st => lift (engine_op E c _ st))); [apply lift_kept, engine_op_notes|done].
  - intros k IH st st' evs r. cbn [run_u]. unfold tell. destruct (run_u _ _ _ _) as [[st1 evs1] r1] eqn:Er. intros [= <- <- <-]. by apply IH in Er.
  - intros k IH st st' evs r. cbn [run_u]. apply IH.
  - intros t k IH st st' evs r. cbn [run_u]. unfold tell. destruct (run_u _ _ _ _) as [[st1 evs1] r1] eqn:Er. intros [= <- <- <-]. by apply IH in Er.
  - intros opts k IH st st' evs r. cbn [run_u]. unfold tell. destruct (run_u _ _ _ _) as [[st1 evs1] r1] eqn:Er. intros [= <- <- <-]. by apply IH in Er.
  - intros k IH st st' evs r. cbn [run_u]. unfold tell. destruct (run_u _ _ _ _) as [[st1 evs1] r1] eqn:Er. intros [= <- <- <-]. by apply IH in Er.
  - intros i k IH st st' evs r. cbn [run_u]. unfold tell. destruct (run_u _ _ _ _) as [[st1 evs1] r1] eqn:Er. intros [= <- <- <-]. by apply IH in Er.
  - intros p IHp q IHq k IH st st' evs r. rewrite run_try. apply (then_kept (deferring (run_u E c p) (run_u E c q))); [by apply deferring_kept|done].
  - intros a Ha k IH. apply (then_kept (u_prepare E a (do_u E c a)) (fun x => run_u E c (k (x_panic x)))); [by apply prepare_kept|done].
  - intros a Ha e k IH. apply (then_kept (u_expect E c a (do_u E c a) e) (fun x => run_u E c (k (x_panic x)))); [by apply expect_kept|done].
  - intros names b k IH st st' evs r. cbn [run_u]. intros H.
    eapply (then_kept (fun st => let '(st, evs, v) := enable_handlers c names b st in (st, VT <$> evs, v_res v)) (fun x => run_u E c (k (x_panic x)))) with (r := r);
      [|done|destruct (enable_handlers _ _ _ _) as [[st1 evs1] v1]; exact H].
    clear H st st' evs r. intros st st' evs r. destruct (enable_handlers _ _ _ _) as [[st1 evs1] v1] eqn:Ex. apply enable_notes in Ex.
    intros [= <- <- <-]. by rewrite u_annotated_lift.
  - intros pats b k IH st st' evs r. cbn [run_u]. intros H.
    eapply (then_kept (fun st => let '(st, evs, v) := enable_handlers_like E c pats b st in (st, VT <$> evs, v_res v)) (fun x => run_u E c (k (x_panic x)))) with (r := r);
      [|done|destruct (enable_handlers_like _ _ _ _ _) as [[st1 evs1] v1]; exact H].
    clear H st st' evs r. intros st st' evs r. destruct (enable_handlers_like _ _ _ _ _) as [[st1 evs1] v1] eqn:Ex. apply enable_like_notes in Ex.
    intros [= <- <- <-]. by rewrite u_annotated_lift.
  - intros x k IH st st' evs r. cbn [run_u]. unfold tell. destruct (run_u _ _ _ _) as [[st1 evs1] r1] eqn:Er. intros [= <- <- <-].
    apply IH in Er. rewrite Er. cbn. by rewrite <- app_assoc.
  - intros k s f do IH opts st st' evs r. rewrite do_u_eq. destruct (run_u _ _ _ _) as [[st1 evs1] r1] eqn:Er. apply IH in Er.
    intros [= <- <- <-]. change (u_annotated (VDo k opts :: ?l)) with (u_annotated l). rewrite u_annotated_app, Er. f_equal.
    destruct r1; cbn; by rewrite app_nil_r.
Qed.
End Env.
End Proof.
