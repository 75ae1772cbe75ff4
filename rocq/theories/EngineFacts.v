(** * Basic facts about the model: routing tables, well-formed states,
    projection facts. *)
From Verif Require Export EngineModel.

Section Tables.
Context {P : Params} (c : Config).

Lemma controllers_fold_lookup hs (m : gmap string Handler) n :
  foldl register_controller m hs !! n =
  match last (filter (fun h => h_name h = n) hs) with Some h => Some h | None => m !! n end.
Proof.
  revert m. induction hs as [|h hs IH]; intros m; [done|].
  cbn [foldl]. rewrite IH. rewrite filter_cons. unfold register_controller.
  destruct (decide (h_name h = n)) as [<-|Hn].
  - rewrite last_cons. destruct (last _); [done|]. rewrite lookup_insert. done.
  - destruct (last _); [done|]. rewrite lookup_insert_ne; done.
Qed.

Lemma controllers_in n h :
  controllers c !! n = Some h -> h ∈ c_app c /\ h_name h = n.
Proof.
  unfold controllers. rewrite controllers_fold_lookup.
  destruct (last _) as [h'|] eqn:E; [|rewrite lookup_empty; done].
  intros [= ->]. apply last_Some in E as [l E].
  assert (Hin : h ∈ filter (fun h => h_name h = n) (c_app c)).
  { rewrite E. apply elem_of_app. right. apply elem_of_list_singleton. done. }
  apply elem_of_list_filter in Hin as [H1 H2]. done.
Qed.

Lemma filter_name_unique hs h :
  NoDup (h_name <$> hs) -> h ∈ hs -> filter (fun h' => h_name h' = h_name h) hs = [h].
Proof.
  induction hs as [|h' hs IH]; intros Hnd Hin; [apply elem_of_nil in Hin; done|].
  cbn in Hnd. apply NoDup_cons in Hnd as [Hni Hnd]. rewrite filter_cons.
  apply elem_of_cons in Hin as [->|Hin].
  - destruct (decide _) as [_|Hne]; [|done]. f_equal.
    assert (Hf : forall l, h_name h' ∉ h_name <$> l -> filter (fun h'0 => h_name h'0 = h_name h') l = []).
    { clear. induction l as [|a l IHl]; [done|]. intros Hni. cbn in Hni.
      apply not_elem_of_cons in Hni as [H1 H2]. rewrite filter_cons.
      destruct (decide _) as [He|_]; [congruence|]. apply IHl. done. }
    apply Hf. done.
  - destruct (decide _) as [He|_].
    + destruct Hni. rewrite He. apply elem_of_list_fmap. eauto.
    + apply IH; done.
Qed.

Lemma controllers_complete h :
  app_ok c -> h ∈ c_app c -> controllers c !! h_name h = Some h.
Proof.
  intros [Hnd _] Hin. unfold controllers. rewrite controllers_fold_lookup.
  rewrite filter_name_unique by done. done.
Qed.

Lemma app_name_inj h h' :
  app_ok c -> h ∈ c_app c -> h' ∈ c_app c -> h_name h = h_name h' -> h = h'.
Proof.
  intros Hok H1 H2 He. apply controllers_complete in H1, H2; [|done|done].
  rewrite He in H1. congruence.
Qed.

Lemma register_route_fold_lookup (h : Handler) (ts : list MType) (m : gmap MType (list Handler)) (t : MType) :
  NoDup ts ->
  foldl (register_route h) m ts !! t =
  if decide (t ∈ ts) then Some (default [] (m !! t) ++ [h]) else m !! t.
Proof.
  revert m. induction ts as [|t' ts IH]; intros m Hnd; cbn [foldl].
  - destruct (decide _) as [Hin|_]; [apply elem_of_nil in Hin; done|done].
  - apply NoDup_cons in Hnd as [Hni Hnd]. rewrite IH by done. unfold register_route.
    destruct (decide (t = t')) as [->|Hne].
    + destruct (decide (t' ∈ ts)) as [|_]; [done|].
      destruct (decide _) as [_|Hn]; [|destruct Hn; apply elem_of_cons; auto].
      rewrite lookup_insert. done.
    + rewrite lookup_insert_ne by congruence.
      destruct (decide (t ∈ ts)) as [Hin|Hni'], (decide (t ∈ t' :: ts)) as [Hin2|Hni2]; [done| | |done].
      * destruct Hni2. apply elem_of_cons. auto.
      * apply elem_of_cons in Hin2 as [|]; done.
Qed.

Definition consumers (hs : list Handler) (t : MType) : list Handler :=
  filter (fun h => t ∈ h_consumed h) hs.

Lemma routes_fold_lookup (hs : list Handler) (m : gmap MType (list Handler)) (t : MType) :
  foldl register_routes m hs !! t =
  match consumers hs t with
  | [] => m !! t
  | l => Some (default [] (m !! t) ++ l)
  end.
Proof.
  revert m. induction hs as [|h hs IH]; intros m; [done|].
  cbn [foldl]. rewrite IH. unfold register_routes.
  rewrite register_route_fold_lookup by apply NoDup_remove_dups.
  unfold consumers at 2. rewrite filter_cons. fold (consumers hs t).
  assert (Hd : forall A (a b : A), (if decide (t ∈ remove_dups (h_consumed h)) then a else b) =
                                   (if decide (t ∈ h_consumed h) then a else b)).
  { intros A a b. destruct (decide _) as [Hin|Hni], (decide (t ∈ h_consumed h)) as [Hin2|Hni2]; try done.
    - destruct Hni2. apply elem_of_remove_dups. done.
    - destruct Hni. apply elem_of_remove_dups. done. }
  rewrite Hd. destruct (decide (t ∈ h_consumed h)).
  - destruct (consumers hs t) as [|h' l]; cbn; [done|]. rewrite <- app_assoc. done.
  - destruct (consumers hs t); done.
Qed.

(** The routing table maps a type to the handlers that consume it, in order. *)
Lemma routes_lookup t :
  routes c !! t = match consumers (c_app c) t with [] => None | l => Some l end.
Proof.
  unfold routes. rewrite routes_fold_lookup. rewrite lookup_empty.
  destruct (consumers _ _); done.
Qed.

Lemma routes_default t : default [] (routes c !! t) = consumers (c_app c) t.
Proof. rewrite routes_lookup. destruct (consumers _ _); done. Qed.

Lemma targets_message env :
  m_kind (e_msg env) <> KTimeout ->
  targets c env = Some (Some <$> consumers (c_app c) (m_type (e_msg env))).
Proof. unfold targets. rewrite routes_default. destruct (m_kind _); done. Qed.

Lemma targets_in env hs h :
  targets c env = Some hs -> Some h ∈ hs -> h ∈ c_app c.
Proof.
  unfold targets. rewrite routes_default.
  assert (Hcons : Some (Some <$> consumers (c_app c) (m_type (e_msg env))) = Some hs ->
                  Some h ∈ hs -> h ∈ c_app c).
  { intros [= <-] Hin. apply elem_of_list_fmap in Hin as (h' & [= ->] & Hin).
    apply elem_of_list_filter in Hin as [_ Hin]. done. }
  destruct (m_kind _); [done|done|].
  destruct (e_origin env) as [og|]; [|done]. intros [= <-] Hin.
  apply elem_of_list_singleton in Hin. symmetry in Hin. apply controllers_in in Hin as [? _]. done.
Qed.

(** ** Well-formed engine states *)

Definition cs_match (h : Handler) (cs : CState) : Prop :=
  match h_impl h, cs with
  | ImplAgg _, CSAgg _ | ImplProc _, CSProc _ | ImplInt _, CSInt | ImplProj _, CSProj _ => True
  | _, _ => False
  end.

Definition st_ok (st : EState) : Prop :=
  forall h, h ∈ c_app c -> exists cs, es_cs st !! h_name h = Some cs /\ cs_match h cs.

Lemma cs_init_match h : cs_match h (cs_init h).
Proof. unfold cs_match, cs_init. destruct (h_impl h); done. Qed.

Lemma cs_reset_match h cs : cs_match h cs -> cs_match h (cs_reset cs).
Proof. unfold cs_match. destruct (h_impl h), cs; done. Qed.

Lemma e_init_ok u : app_ok c -> st_ok (e_init c u).
Proof.
  intros Hok h Hin. exists (cs_init h). split; [|apply cs_init_match].
  cbn. rewrite lookup_fmap, controllers_complete; done.
Qed.

Lemma e_reset_ok st : st_ok st -> st_ok (e_reset c st).
Proof.
  intros H h Hin. destruct (H h Hin) as (cs & E & M). exists (cs_reset cs).
  split; [|apply cs_reset_match; done]. cbn. rewrite lookup_fmap, E. done.
Qed.

Lemma st_ok_update st g h cs :
  app_ok c -> st_ok st -> h ∈ c_app c -> cs_match h cs ->
  st_ok (mkE g (<[h_name h := cs]> (es_cs st))).
Proof.
  intros Hok H Hin Hm h' Hin'. cbn. destruct (decide (h_name h = h_name h')) as [He|Hne].
  - assert (h = h') as <- by (eapply app_name_inj; eassumption).
    exists cs. rewrite lookup_insert. done.
  - rewrite lookup_insert_ne by done. apply H. done.
Qed.

Lemma ctrl_handle_match o h now env g cs g' cs' fs r :
  cs_match h cs -> ctrl_handle c o h now env g cs = (g', cs', fs, r) -> cs_match h cs'.
Proof.
  unfold cs_match, ctrl_handle. destruct (h_impl h), cs; try done; intros _.
  - destruct (a_handle _ _ _ _ _ _ _) as [[[? ?] ?] ?]. intros [= <- <- <- <-]. done.
  - destruct (p_handle _ _ _ _ _ _ _) as [[[? ?] ?] ?]. intros [= <- <- <- <-]. done.
  - destruct (i_handle _ _ _ _ _ _) as [[? ?] ?]. intros [= <- <- <- <-]. done.
  - destruct (j_handle _ _ _ _ _ _ _) as [[? ?] ?]. intros [= <- <- <- <-]. done.
Qed.

Lemma ctrl_tick_match h now g cs g' cs' fs r :
  cs_match h cs -> ctrl_tick h now g cs = (g', cs', fs, r) -> cs_match h cs'.
Proof.
  unfold cs_match, ctrl_tick. destruct (h_impl h), cs; try done; intros _.
  - intros [= <- <- <- <-]. done.
  - destruct (p_tick _ _) as [? ?]. intros [= <- <- <- <-]. done.
  - intros [= <- <- <- <-]. done.
  - destruct (j_tick_ctrl _ _ _ _ _) as [[[? ?] ?] ?]. intros [= <- <- <- <-]. done.
Qed.

End Tables.
