(** * Proofs about annotations: tests keep them in the order in which they are made. *)
From Verif Require Export TestScan.
From Coq Require Import Lia.

Section Proof.
Context {P : Params}.

Definition notes_kept {R} (f : TState -> TState * list TEv * R) : Prop :=
  forall st st' evs r, f st = (st', evs, r) -> ts_notes st' = ts_notes st ++ annotated evs.

Lemma annotated_app l l' : annotated (l ++ l') = annotated l ++ annotated l'.
Proof. apply omap_app. Qed.

Section Env.
Context (E : TEnv) (c : Config).

Lemma engine_op_notes mk : notes_kept (engine_op E c mk).
Proof.
  intros st st' evs r. unfold engine_op. destruct (run_op c _ _) as [[es ev] res]. intros [= <- <- <-]. cbn. by rewrite app_nil_r.
Qed.
Lemma icpt_notes opts p : notes_kept (run_icpt E c opts p).
Proof.
  induction p as [e|v|f k IH|b k IH]; intros st st' evs r; cbn [run_icpt].
  - destruct e; intros [= <- <- <-]; cbn; by rewrite app_nil_r.
  - intros [= <- <- <-]; cbn; by rewrite app_nil_r.
  - destruct (run_icpt _ _ _ _ _) as [[st1 evs1] r1] eqn:Er. intros [= <- <- <-]. apply IH in Er. rewrite Er. done.
  - unfold engine_execute. destruct (engine_op _ _ _ _) as [[st1 evs1] r1] eqn:Ex. apply engine_op_notes in Ex.
    destruct (x_res r1); [|intros [= <- <- <-]; done].
    destruct (run_icpt _ _ _ _ _) as [[st2 evs2] r2] eqn:Er. intros [= <- <- <-]. apply IH in Er.
    by rewrite Er, Ex, annotated_app, app_assoc.
Qed.
Lemma execute_notes b : notes_kept (execute_command E c b).
Proof.
  intros st st' evs r. unfold execute_command. destruct (ts_bound st) as [opts|]; [|intros [= <- <- <-]; cbn; by rewrite app_nil_r].
  destruct (ts_icpt st) as [i|].
  - destruct (run_icpt _ _ _ _ _) as [[st1 evs1] r1] eqn:Er. intros [= <- <- <-]. by apply icpt_notes in Er.
  - unfold engine_execute. destruct (engine_op _ _ _ _) as [[st1 evs1] r1] eqn:Ex. intros [= <- <- <-]. by apply engine_op_notes in Ex.
Qed.
Lemma enable_notes names b : notes_kept (enable_handlers c names b).
Proof.
  induction names as [|n names IH]; intros st st' evs r; cbn [enable_handlers]; [intros [= <- <- <-]; cbn; by rewrite app_nil_r|].
  destruct (controllers c !! n) as [h|]; [|intros [= <- <- <-]; cbn; by rewrite app_nil_r].
  destruct (b && h_disabled h); [intros [= <- <- <-]; cbn; by rewrite app_nil_r|].
  destruct (enable_handlers _ _ _ _) as [[st1 evs1] v1] eqn:Ex. intros [= <- <- <-]. by apply IH in Ex.
Qed.
Lemma enable_like_notes pats b : notes_kept (enable_handlers_like E c pats b).
Proof.
  intros st st' evs r. unfold enable_handlers_like. destruct (match_handlers _ _ _) as [names|v]; intros [= <- <- <-]; cbn; [|by rewrite app_nil_r].
  assert (H : annotated (map (fun n => TvEnable n b) (te_shuffle E (remove_dups names))) = []).
  { generalize (te_shuffle E (remove_dups names)). intros l. by induction l. }
  by rewrite H, app_nil_r.
Qed.
Lemma fatal_notes er : notes_kept (fatal E er).
Proof. intros st st' evs r [= <- <- <-]. cbn. by rewrite app_nil_r. Qed.
Lemma fail_now_notes : notes_kept (fail_now E).
Proof. intros st st' evs r [= <- <- <-]. cbn. by rewrite app_nil_r. Qed.
Lemma prepare_notes act : (forall opts, notes_kept (act opts)) -> notes_kept (prepare E act).
Proof.
  intros Ha st st' evs r. unfold prepare. destruct (act _ _) as [[st1 evs1] r1] eqn:Ex. apply Ha in Ex.
  destruct r1; intros [= <- <- <-]; try done. cbn. by rewrite Ex, annotated_app, app_nil_r.
Qed.
Lemma expect_notes k act e : (forall opts, notes_kept (act opts)) -> notes_kept (expect E c k act e).
Proof.
  intros Ha st st' evs r. unfold expect. destruct (new_predicate _ _) as [p|er]; [|apply fatal_notes].
  destruct (act _ _) as [[st1 evs1] r1] eqn:Ex. apply Ha in Ex. cbn in Ex.
  assert (Hl : forall l, annotated l = [] -> ts_notes st1 = ts_notes st ++ annotated (TvPredicate :: evs1 ++ TvFinal :: l)).
  { intros l Hl. change (annotated (TvPredicate :: ?l)) with (annotated l). rewrite annotated_app.
    change (annotated (TvFinal :: ?l)) with (annotated l). rewrite Hl, app_nil_r. done. }
  assert (Hl0 := Hl [] eq_refl).
  destruct (p_done _) as [q dp]. destruct r1; try (intros [= <- <- <-]; exact Ex);
    (destruct dp as [w|]; [intros [= <- <- <-]; exact Hl0|]); try (intros [= <- <- <-]; exact Hl0).
  - destruct (p_ok q).
    + intros [= <- <- <-]. cbn [app]. rewrite <- app_assoc. by apply Hl.
    + cbn [fail_now]. intros [= <- <- <-]. cbn [app ts_notes set_failed]. rewrite <- !app_assoc. by apply Hl.
  - cbn [fatal]. intros [= <- <- <-]. cbn [app ts_notes set_failed]. rewrite <- !app_assoc. by apply Hl.
Qed.
Lemma and_then_notes f k : notes_kept f -> (forall v, notes_kept (k v)) -> notes_kept (fun st => and_then (f st) k).
Proof.
  intros Hf Hk st st' evs r. unfold and_then. destruct (f st) as [[st1 evs1] r1] eqn:Ex. apply Hf in Ex.
  destruct r1; try (by intros [= <- <- <-]);
    (destruct (k _ st1) as [[st2 evs2] r2] eqn:Ek; apply Hk in Ek; intros [= <- <- <-]; by rewrite Ek, Ex, annotated_app, app_assoc).
Qed.
Lemma bracket_notes k f : notes_kept f -> notes_kept (fun st => bracket k (f st)).
Proof.
  intros Hf st st' evs r. unfold bracket. destruct (f st) as [[st1 evs1] r1] eqn:Ex. apply Hf in Ex.
  intros [= <- <- <-]. change (annotated (TvDo k :: ?l)) with (annotated l). rewrite annotated_app, Ex.
  f_equal. destruct r1; cbn; by rewrite app_nil_r.
Qed.

Lemma run_notes : (forall p, notes_kept (run_test E c p)) /\ (forall a opts, notes_kept (do_action E c a opts)).
Proof.
  apply test_mutind.
  - intros st st' evs r [= <- <- <-]. cbn. by rewrite app_nil_r.
  - intros v st st' evs r [= <- <- <-]. cbn. by rewrite app_nil_r.
  - intros st st' evs r [= <- <- <-]. cbn. by rewrite app_nil_r.
  - intros f k IH st st' evs r. cbn [run_test]. destruct (run_test _ _ _ _) as [[st1 evs1] r1] eqn:Er. intros [= <- <- <-].
    apply IH in Er. by rewrite Er.
  - intros b k IH st st' evs r. cbn [run_test]. destruct (execute_command _ _ _ _) as [[st1 evs1] r1] eqn:Ex. apply execute_notes in Ex.
    destruct (x_res r1); [|by intros [= <- <- <-]].
    destruct (run_test _ _ _ _) as [[st2 evs2] r2] eqn:Er. intros [= <- <- <-]. apply IH in Er. by rewrite Er, Ex, annotated_app, app_assoc.
  - intros a IHa k IH. cbn [run_test]. apply (and_then_notes (prepare E (do_action E c a)) (fun v => run_test E c (k v))); [by apply prepare_notes|done].
  - intros a IHa e k IH. cbn [run_test]. apply (and_then_notes (expect E c (a_kind a) (do_action E c a) e) (fun v => run_test E c (k v))); [by apply expect_notes|done].
  - intros names b k IH st st' evs r. cbn [run_test]. destruct (enable_handlers _ _ _ _) as [[st1 evs1] v1] eqn:Ex. apply enable_notes in Ex.
    destruct (run_test _ _ _ _) as [[st2 evs2] r2] eqn:Er. intros [= <- <- <-]. apply IH in Er. by rewrite Er, Ex, annotated_app, app_assoc.
  - intros pats b k IH st st' evs r. cbn [run_test]. destruct (enable_handlers_like _ _ _ _ _) as [[st1 evs1] v1] eqn:Ex. apply enable_like_notes in Ex.
    destruct (run_test _ _ _ _) as [[st2 evs2] r2] eqn:Er. intros [= <- <- <-]. apply IH in Er. by rewrite Er, Ex, annotated_app, app_assoc.
  - intros x k IH st st' evs r. cbn [run_test]. destruct (run_test _ _ _ _) as [[st1 evs1] r1] eqn:Er. intros [= <- <- <-].
    apply IH in Er. rewrite Er. cbn. by rewrite <- app_assoc.
  - intros m opts. cbn [do_action]. apply (bracket_notes AkDispatch (do_dispatch E c m opts)).
    intros st st' evs r. unfold do_dispatch. destruct (app_types c (m_type m)); [apply engine_op_notes|]. intros [= <- <- <-]. cbn. by rewrite app_nil_r.
  - intros j opts. cbn [do_action]. apply (bracket_notes AkAdvance (do_advance E c j opts)).
    intros st st' evs r. unfold do_advance. destruct (adj_step _ _); [|intros [= <- <- <-]; cbn; by rewrite app_nil_r].
    destruct (_ <? _)%Z; [intros [= <- <- <-]; cbn; by rewrite app_nil_r|].
    destruct (engine_op _ _ _ _) as [[st1 evs1] r1] eqn:Ex. intros [= <- <- <-]. apply engine_op_notes in Ex. done.
  - intros fn IH i opts. cbn [do_action]. apply (bracket_notes AkCall (do_call (run_test E c fn) i opts)).
    intros st st' evs r. unfold do_call. destruct (run_test _ _ _ _) as [[st1 evs1] r1] eqn:Er. apply IH in Er.
    assert (H : ts_notes st1 = ts_notes st ++ annotated evs1) by (rewrite Er; by destruct i).
    destruct r1, i; intros [= <- <- <-]; exact H.
Qed.
End Env.
End Proof.
