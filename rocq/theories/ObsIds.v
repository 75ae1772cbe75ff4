(** * Message IDs under observers that may panic *)
From Verif Require Export ObsOps.
From Verif Require Import EnvProof.

Section ObsIds.
Context {P : Params}.

Definition IDs (v : list Seen) (g : GState) : Prop := ids_ok (g_next g) (fresh_of (sn_fact <$> v)).

Definition numbers {S A} (p : S -> GState) (m : M S A) : Prop :=
  forall v s, IDs v (p s) -> let '(s', t, _) := m s in IDs (v ++ t) (p s').

Lemma IDs_mono v g g' : (g_next g <= g_next g')%N -> IDs v g -> IDs v g'.
Proof. apply ids_ok_mono. Qed.
Lemma IDs_snoc v sn g : newly (sn_fact sn) = [] -> IDs v g -> IDs (v ++ [sn]) g.
Proof. intros H. unfold IDs. rewrite fmap_app. cbn. rewrite fresh_of_snoc, H, app_nil_r. done. Qed.
Lemma IDs_mint o v g g' mid sn e :
  next_id o g = (g', mid) -> newly (sn_fact sn) = [e] -> e_id e = mid -> IDs v g -> IDs (v ++ [sn]) g'.
Proof.
  intros H1 H2 H3 H. unfold IDs. rewrite fmap_app. cbn. rewrite fresh_of_snoc, H2. eapply ids_ok_snoc; eassumption.
Qed.

Lemma num_ret {S A} p (a : A) : numbers p (@ret P S A a).
Proof. intros v s H. cbn. rewrite app_nil_r. done. Qed.
Lemma num_raise {S A} p w : numbers p (@raise P S A w).
Proof. intros v s H. cbn. rewrite app_nil_r. done. Qed.
Lemma num_result {S A} p r : numbers p (@result P S A r).
Proof. intros v s H. cbn. rewrite app_nil_r. done. Qed.
Lemma num_bnd {S A B} p (m : M S A) (k : A -> M S B) : numbers p m -> (forall a, numbers p (k a)) -> numbers p (bnd m k).
Proof.
  intros Hm Hk v s H. unfold bnd. specialize (Hm v s H). destruct (m s) as [[s1 t1] [a|w]]; [|done].
  specialize (Hk a _ _ Hm). destruct (k a s1) as [[s2 t2] r2]. rewrite app_assoc. done.
Qed.
Lemma num_try {S A} p (m : M S A) : numbers p m -> numbers p (try m).
Proof. intros H v s Hs. specialize (H v s Hs). unfold try. destruct (m s) as [[s1 t1] r]. done. Qed.
Lemma num_enriching {S A} p h i me msg (m : M S A) : numbers p m -> numbers p (enriching h i me msg m).
Proof. intros H v s Hs. specialize (H v s Hs). unfold enriching. destruct (m s) as [[s1 t1] r]. done. Qed.
Lemma num_fst {T A} (m : M GState A) : numbers id m -> numbers fst (@fst_do P GState T A m).
Proof. intros H v [g s] Hs. specialize (H v g Hs). unfold fst_do. destruct (m g) as [[s1 t1] r]. done. Qed.
Lemma num_note obs f : newly f = [] -> numbers id (note obs f).
Proof.
  intros Hf v g H. pose proof (note_noted obs f g) as Hn. destruct (note obs f g) as [[g' t] r].
  destruct Hn as (sn & -> & Hs & Hg & _). apply IDs_snoc; [rewrite Hs; done|].
  eapply IDs_mono; [|exact H]. unfold id. lia.
Qed.
Lemma num_mint o : numbers id (mint o).
Proof. intros v g H. unfold mint. destruct (next_id o g) as [g' mid] eqn:E. rewrite app_nil_r. eapply IDs_mono; [eapply next_id_mono; exact E|exact H]. Qed.
Lemma num_user {A} (f : U -> U * A) : numbers id (user f).
Proof. intros v g H. unfold user. destruct (f _). rewrite app_nil_r. exact H. Qed.
Lemma num_get {S} p : numbers p (@get_st P S).
Proof. intros v s H. cbn. rewrite app_nil_r. done. Qed.
Lemma num_a_get : numbers fst a_get.
Proof. intros v [g s] H. cbn. rewrite app_nil_r. done. Qed.
Lemma num_a_set s : numbers fst (a_set s).
Proof. intros v [g s'] H. cbn. rewrite app_nil_r. done. Qed.
Lemma num_p_get : numbers fst p_get.
Proof. intros v [g s] H. cbn. rewrite app_nil_r. done. Qed.
Lemma num_p_set s : numbers fst (p_set s).
Proof. intros v [g s'] H. cbn. rewrite app_nil_r. done. Qed.

(** A new message is announced right after its ID was taken. *)
Lemma num_announce {S} o (k : string -> M (GState * S) unit) :
  (forall mid g s, let '(g', s', t, _) := k mid (g, s) in
    g_next g' = g_next g /\ exists sn e, t = [sn] /\ newly (sn_fact sn) = [e] /\ e_id e = mid) ->
  numbers fst (bnd (fst_do (mint o)) k).
Proof.
  intros H v [g s] Hs. unfold bnd, fst_do, mint. destruct (next_id o g) as [g1 mid] eqn:En.
  specialize (H mid g1 s). destruct (k mid (g1, s)) as [[[g2 s2] t] r]. destruct H as (Hg & sn & e & -> & H1 & H2).
  cbn. eapply IDs_mono; [|eapply IDs_mint; [exact En|exact H1|exact H2|exact Hs]]. cbn. lia.
Qed.

Ltac num1 :=
  lazymatch goal with
  | |- numbers _ (bnd (fst_do (mint _)) _) => apply num_announce
  | |- numbers _ (bnd _ _) => apply num_bnd; [|intros]
  | |- numbers _ (ret _) => apply num_ret
  | |- numbers _ (raise _) => apply num_raise
  | |- numbers _ (result _) => apply num_result
  | |- numbers _ (try _) => apply num_try
  | |- numbers _ (enriching _ _ _ _ _) => apply num_enriching
  | |- numbers _ (fst_do _) => apply num_fst
  | |- numbers _ (user _) => apply num_user
  | |- numbers _ get_st => apply num_get
  | |- numbers _ a_get => apply num_a_get
  | |- numbers _ (a_set _) => apply num_a_set
  | |- numbers _ p_get => apply num_p_get
  | |- numbers _ (p_set _) => apply num_p_set
  | |- numbers _ (note _ _) => apply num_note; try reflexivity
  | |- numbers _ (let '(_, _) := ?y in _) => destruct y
  | |- numbers _ (if ?b then _ else _) => destruct b
  | |- numbers _ (match ?b with _ => _ end) => destruct b
  end.
Ltac num := repeat num1.
Ltac announced :=
  intros mid g s; unfold bnd, a_set, i_add, p_get, p_set, fst_do;
  match goal with |- context [note ?obs ?f g] =>
    let Hn := fresh in let Hs := fresh in let Hg := fresh in
    pose proof (note_noted obs f g) as Hn; destruct (note obs f g) as [[g1 t1] r1];
    destruct Hn as (? & -> & Hs & Hg & _ & ->);
    split; [done|]; eexists _, _; split; [reflexivity|]; rewrite Hs; split; reflexivity end.

Lemma xa_run_num obs o h a now cmd id p : numbers fst (xa_run obs o h a now cmd id p).
Proof.
  induction p as [|v|f k IH|f k IH|b k IH|k IH|str k IH]; cbn [xa_run]; num; try apply IH.
  all: unfold xa_record, xa_destroy, xa_log; num.
  - destruct (as_destroyed _); reflexivity.
  - announced.
Qed.

Lemma xa_handle_num x obs o h a now env : numbers fst (xa_handle x obs o h a now env).
Proof.
  intros v [g hist] Hs. unfold xa_handle. destruct (negb _); [cbn; rewrite app_nil_r; done|].
  eapply (fun H : numbers fst _ => H v (g, hist) Hs).
  num.
  - destruct (bool_decide _); reflexivity.
  - intros v1 [g1 hist1] Hs1.
    match goal with |- context [enriching ?h' ?i ?me ?m ?c (g1, ?s0)] =>
      assert (He : numbers fst (enriching h' i me m c)) by (num; apply xa_run_num);
      specialize (He v1 (g1, s0) Hs1); destruct (enriching h' i me m c (g1, s0)) as [[[g2 s2] t2] [u|w]] end; exact He.
Qed.

Lemma xi_run_num obs o h now cmd p : numbers fst (xi_run obs o h now cmd p).
Proof.
  induction p as [e|v|f k IH|b k IH|str k IH]; cbn [xi_run]; num; try apply IH.
  all: unfold xi_record; num. announced.
Qed.

Lemma xi_handle_num x obs o h now env : numbers id (xi_handle x obs o h now env).
Proof.
  intros v g Hs. unfold xi_handle. destruct (negb _); [cbn; rewrite app_nil_r; done|].
  match goal with |- context [enriching ?h' ?i ?me ?m ?c (g, ?s0)] =>
      assert (He : numbers fst (enriching h' i me m c)) by (num; apply xi_run_num);
      specialize (He v (g, s0) Hs); destruct (enriching h' i me m c (g, s0)) as [[[g2 s2] t2] [u|w]] end; exact He.
Qed.

Lemma xp_run_num obs o h now env id meth p : numbers fst (xp_run obs o h now env id meth p).
Proof.
  induction p as [e|v|f k IH|f k IH|b k IH|b t k IH|k IH|str k IH]; cbn [xp_run]; num; try apply IH.
  all: unfold xp_execute, xp_schedule, xp_end, xp_log, xp_check, xp_revert; num.
  all: announced.
Qed.

Lemma xp_handle_num x obs o h pi now env : numbers fst (xp_handle x obs o h pi now env).
Proof.
  assert (Hi : forall id r, numbers fst (xp_handle_instance x obs o h now env id r)).
  { intros id r v [g ps] Hs. unfold xp_handle_instance.
    destruct (match m_kind (e_msg env) with KTimeout => _ | _ => _ end) as [meth prog].
    match goal with |- context [enriching ?h' ?i ?me ?m ?c (g, ?s0)] =>
      assert (He : numbers fst (enriching h' i me m c)) by (num; apply xp_run_num);
      specialize (He v (g, s0) Hs); destruct (enriching h' i me m c (g, s0)) as [[[g2 s2] t2] [[u|]|w]] end; try exact He.
    destruct (ps_ended s2); exact He. }
  unfold xp_handle. destruct (negb _); [num|]. apply num_bnd.
  - unfold xp_route. num.
  - intros rt. num; apply Hi.
Qed.

(** ** The engine *)
Context (x : XApp).
Notation c := (x_cfg x).

Definition IJ (v : list Seen) (st : EState) : Prop := IDs v (es_g st).

Lemma num_emits {S A} (Pf : Fact -> Prop) (p : S -> GState) (m : M S A) :
  emits Pf m -> (forall f, Pf f -> newly f = []) ->
  (forall s, (g_next (p s) <= g_next (p (m s).1.1))%N) -> numbers p m.
Proof.
  intros He Hn Hg v s H. specialize (He s). specialize (Hg s). destruct (m s) as [[s' t] r]. cbn in *.
  eapply IDs_mono; [exact Hg|]. clear Hg. revert v H. induction He as [|sn t Hs _ IH]; intros v H; [rewrite app_nil_r; done|].
  rewrite cons_middle, app_assoc. apply IH. apply IDs_snoc; [apply Hn; done|done].
Qed.

Lemma num_trip {A} (m : M EState A) : numbers es_g m -> trip IJ m (fun v st _ => IJ v st).
Proof. intros H v st HJ. specialize (H v st HJ). destruct (m st) as [[st' t] r]. exact H. Qed.

Lemma num_on_g {A} (m : M GState A) : numbers id m -> numbers es_g (on_g m).
Proof. intros H v [g cs] Hs. specialize (H v g Hs). unfold on_g. cbn. destruct (m g) as [[g1 t1] r]. exact H. Qed.

Lemma num_on_ctrl {A} h (m : M (GState * CState) A) : numbers fst m -> numbers es_g (on_ctrl h m).
Proof.
  intros H v st Hs. unfold on_ctrl. destruct (es_cs st !! h_name h) as [cs|]; [|rewrite app_nil_r; done].
  specialize (H v (es_g st, cs) Hs). destruct (m _) as [[[g' cs'] t] r]. exact H.
Qed.

Lemma xctrl_handle_num obs o h now env : numbers fst (xctrl_handle x obs o h now env).
Proof.
  intros v [g cs] Hs. unfold xctrl_handle. cbn in Hs.
  destruct (h_impl h) as [a|p|i|j] eqn:Hi, cs as [hist|ps| |last]; try (rewrite app_nil_r; exact Hs).
  - pose proof (xa_handle_num x obs o h a now env v (g, hist) Hs) as H.
    destruct (xa_handle _ _ _ _ _ _ _ _) as [[[? ?] ?] ?]. exact H.
  - pose proof (xp_handle_num x obs o h p now env v (g, ps) Hs) as H.
    destruct (xp_handle _ _ _ _ _ _ _ _) as [[[? ?] ?] ?]. exact H.
  - pose proof (xi_handle_num x obs o h now env v g Hs) as H.
    destruct (xi_handle _ _ _ _ _ _ _) as [[? ?] ?]. exact H.
  - assert (H : numbers id (xj_handle x obs o h j now env)).
    { eapply num_emits; [apply xj_handle_emits| |].
      - intros f Hf. destruct f; done.
      - intros s. unfold id. rewrite xj_handle_next. done. }
    specialize (H v g Hs). destruct (xj_handle _ _ _ _ _ _ _ _) as [[? ?] ?]. exact H.
Qed.

Lemma xctrl_tick_num obs h now : numbers fst (xctrl_tick x obs h now).
Proof.
  intros v [g cs] Hs. unfold xctrl_tick. cbn in Hs.
  destruct (h_impl h) as [a|p|i|j] eqn:Hi, cs as [hist|ps| |last]; try (rewrite app_nil_r; exact Hs).
  - destruct (p_tick _ _). rewrite app_nil_r. exact Hs.
  - assert (H : numbers fst (xj_tick x obs h now)).
    { eapply num_emits; [apply xj_tick_emits| |].
      - intros f Hf. destruct f; done.
      - intros [g1 l1]. pose proof (xj_tick_next x obs h now (g1, l1)) as Hn.
        destruct (xj_tick _ _ _ _ _) as [[[? ?] ?] ?]. cbn in *. lia. }
    specialize (H v (g, last) Hs). destruct (xj_tick _ _ _ _ _) as [[[? ?] ?] ?]. exact H.
Qed.

Lemma ids_xinv : XInv x (fun _ _ => True) IJ (fun _ => IJ).
Proof.
  assert (Hpoll : forall o, numbers es_g (xpoll o)).
  { intros o. apply num_on_g. intros v g H. unfold poll_ctx. rewrite app_nil_r. exact H. }
  constructor.
  - intros v st _. intros pre sn Hin. done.
  - done.
  - intros v g g' cs H. apply IDs_mono. exact H.
  - intros _ v g g' cs H. apply IDs_mono. exact H.
  - intros _ v st sn H Hf. apply IDs_snoc; [|exact H]. destruct (sn_fact sn); done.
  - intros oo v st o g' env sn H Hg He Hf. destruct (next_id o (es_g st)) as [g1 mid] eqn:En. cbn in *.
    apply (IDs_mono _ g1); [cbn; lia|]. eapply IDs_mint; [exact En| |exact He|exact H]. rewrite Hf. done.
  - intros oo v st sn H Hf. apply IDs_snoc; [rewrite Hf; done|exact H].
  - intros obs o oo env h _ Happ. apply num_trip. unfold xe_handle. destruct (skip_handler h oo).
    + apply num_bnd; [apply num_on_g, num_note; done|]. intros ?. apply num_ret.
    + apply num_bnd; [apply num_on_g, num_note; done|]. intros ?.
      apply num_bnd; [apply num_on_ctrl, xctrl_handle_num|]. intros [envs e].
      apply num_bnd; [apply num_on_g, num_note; done|]. intros ?. apply num_ret.
  - intros obs o oo h _ Happ. apply num_trip. unfold xe_tick_one. destruct (skip_handler h oo).
    + apply num_bnd; [apply num_on_g, num_note; done|]. intros ?. apply num_ret.
    + apply num_bnd; [apply num_on_g, num_note; done|]. intros ?.
      apply num_bnd; [apply num_on_ctrl, xctrl_tick_num|]. intros [envs e].
      apply num_bnd; [apply num_on_g, num_note; done|]. intros ?.
      apply num_bnd; [apply Hpoll|]. intros ?. apply num_ret.
  - intros v st _. apply ids_ok_nil.
Qed.

Lemma ids_xhistory u ops s evs rs :
  xhistory x u ops s evs rs -> (g_next (es_g s.1) < 2 ^ 64)%N ->
  NoDup (e_id <$> fresh_of (sn_fact <$> seen_since evs)).
Proof.
  intros H Hn. destruct (inv_history x _ _ _ ids_xinv u ops s evs rs H) as [H1 _]; [apply ids_ok_nil|].
  eapply ids_ok_NoDup; [exact Hn|exact H1].
Qed.
End ObsIds.
