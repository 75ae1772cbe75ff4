(** * Proofs about Reset: the engine is like a new one. *)
From Verif Require Export HistSim.

Section Reset.
Context {P : Params}.

Lemma dom_store c : app_ok c ->
  StoreOK c (fun (_ : unit) _ => True) (fun x _ => x) id (fun _ cs _ => dom cs = dom (controllers c)).
Proof.
  intros Hok.
  assert (Hg : forall x fs, good (fun (_ : unit) (_ : Fact) => True) (fun x _ => x) x fs)
    by (intros x fs; induction fs; done).
  assert (Hm : forall oo (h : Handler) (cs : gmap string CState) cst cst' (x : unit) fs, dom cs = dom (controllers c) ->
    cs !! h_name h = Some cst' ->
    moved (fun (_ : unit) _ => True) (fun x _ => x) (fun _ cs _ => dom cs = dom (controllers c)) oo h cs cst x fs).
  { intros oo h cs cst cst' x fs Hd Hl. split; [apply Hg|].
    rewrite dom_insert_L. rewrite subseteq_union_1_L; [done|].
    apply singleton_subseteq_l. apply elem_of_dom. eauto. }
  constructor; intros; try (eapply Hm; eassumption); try done.
  rewrite dom_fmap_L. done.
Qed.

Lemma history_dom c u ops st evs fin :
  history c u ops st evs fin -> st_ok c st /\ dom (es_cs st) = dom (controllers c).
Proof.
  intros (Hok & Hops & Hrun).
  assert (HI : SI (fun _ cs (_ : unit) => dom cs = dom (controllers c)) (e_init c u) tt)
    by (unfold SI; cbn; apply dom_fmap_L).
  destruct (sim_ops c _ _ id _ _ _ _ Hok (store_sim _ _ _ _ _ (dom_store c Hok)) ops _ tt _ _ _
              (e_init_ok c u Hok) HI Hops Hrun) as (Hst & _ & Ha).
  split; [done|]. unfold after_ops in Ha. destruct fin; [exact Ha|].
  destruct Ha as (oo & cy & q & Ha). exact Ha.
Qed.

(** The world after the reset hooks. *)
Lemma C29_lemma c u ops st evs fin n :
  history c u ops st evs fin ->
  let st' := e_reset c st in
  let new := e_init c (g_user (es_g st')) in
  g_next (es_g st') = g_next (es_g new) /\
  ((forall h, h ∈ c_app c -> h_name h = n -> h_type h <> HTProjection) ->
   es_cs st' !! n = es_cs new !! n) /\
  (forall h, h ∈ c_app c -> h_name h = n -> h_type h = HTProjection -> es_cs st' !! n = es_cs st !! n).
Proof.
  intros H. pose proof H as (Hok & _ & _). apply history_dom in H as [Hst Hd]. cbn.
  split; [done|]. rewrite !lookup_fmap. split.
  - intros Hp. destruct (controllers c !! n) as [h|] eqn:E.
    + apply controllers_in in E as [Hin <-]. destruct (Hst h Hin) as (cs & -> & Hm). cbn. f_equal.
      specialize (Hp h Hin eq_refl). unfold cs_match in Hm. unfold cs_init, h_type in *.
      destruct (h_impl h), cs; done.
    + assert (es_cs st !! n = None) as ->; [|done].
      apply not_elem_of_dom. rewrite Hd. apply not_elem_of_dom. done.
  - intros h Hin <- Hp. destruct (Hst h Hin) as (cs & -> & Hm). cbn. f_equal.
    unfold cs_match in Hm. unfold h_type in Hp. destruct (h_impl h), cs; done.
Qed.

Lemma C29_behaviour_lemma c u ops st evs fin :
  history c u ops st evs fin ->
  (forall h, h ∈ c_app c -> h_type h <> HTProjection) ->
  forall next,
  run_ops c next (e_reset c st) =
  run_ops c next
    (mkE (mkG 0 (foldl (fun u f => f u) (g_user (es_g st)) (c_resetters c)) (g_step (es_g st)))
         (es_cs (e_init c u))).
Proof.
  intros H Hp next. f_equal. unfold e_reset. f_equal. apply map_eq. intros n.
  destruct (C29_lemma c u ops st evs fin n H) as (_ & H1 & _). cbn in H1.
  cbn. rewrite H1; [done|]. intros h Hin _. auto.
Qed.
End Reset.
