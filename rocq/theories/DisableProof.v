(** * Proofs: a disabled handler might as well be absent *)
From Verif Require Import DisableSpec EngineFacts HistSim ProcProof ProcHist OpProof OpFacts PanicSpec PanicProof.

Section Disable.
Context {P : Params}.
Context (c : Config) (n : string) (Hok : app_ok c) (Hn : exists h, h ∈ c_app c /\ h_name h = n).
Notation c' := (without n c).
Notation keep := (filter (fun h => h_name h <> n)).
Notation drop_ := (state_without n).
Notation fw := (omap (fact_without n)).

Lemma without_in h : h ∈ c_app c' <-> h_name h <> n /\ h ∈ c_app c.
Proof. unfold without. cbn [c_app]. by rewrite elem_of_list_filter. Qed.
Lemma without_ok : app_ok c'.
Proof.
  destruct Hok as [Hnd Hh]. split.
  - unfold without. cbn [c_app]. revert Hnd. generalize (c_app c). induction l as [|h l IH]; [done|]. rewrite fmap_cons. intros [Hni Hnd]%NoDup_cons.
    rewrite filter_cons. destruct (decide _); [|by apply IH]. rewrite fmap_cons. apply NoDup_cons. split; [|by apply IH].
    intros Hin. apply Hni. apply elem_of_list_fmap in Hin as (h' & E & Hin). apply elem_of_list_filter in Hin as [_ Hin].
    rewrite E. apply elem_of_list_fmap. eauto.
  - intros h [_ Hin]%without_in. by apply Hh.
Qed.
Lemma without_controllers : controllers c' = delete n (controllers c).
Proof.
  apply map_eq. intros k. destruct (decide (k = n)) as [->|Hk].
  - rewrite lookup_delete. destruct (controllers c' !! n) as [h|] eqn:E; [|done].
    apply controllers_in in E as [Hin E]. apply without_in in Hin as [? _]. congruence.
  - rewrite lookup_delete_ne by done. destruct (controllers c !! k) as [h|] eqn:E.
    + apply controllers_in in E as [Hin <-]. apply controllers_complete; [apply without_ok|]. by apply without_in.
    + destruct (controllers c' !! k) as [h|] eqn:E'; [|done]. apply controllers_in in E' as [Hin <-].
      apply without_in in Hin as [_ Hin]. by rewrite (controllers_complete c h Hok Hin) in E.
Qed.
Lemma without_consumers t : consumers (c_app c') t = keep (consumers (c_app c) t).
Proof.
  unfold without, consumers. cbn [c_app]. generalize (c_app c). induction l as [|h l IH]; [done|]. rewrite !filter_cons.
  destruct (decide (h_name h <> n)) as [H1|H1], (decide (t ∈ h_consumed h)) as [H2|H2]; rewrite ?filter_cons.
  - rewrite decide_True by done. rewrite decide_True by done. by rewrite IH.
  - rewrite decide_False by done. apply IH.
  - rewrite decide_False by done. apply IH.
  - apply IH.
Qed.

(** ** Options *)
Definition oo_without (oo : OOs) : OOs := mkOOs (oo_now oo) (oo_observers oo) (oo_types oo) (delete n (oo_handlers oo)).
Lemma without_apply opts : forall oo,
  apply_opts c' (oo_without oo) (opts_without n opts) = match apply_opts c oo opts with inl oo => inl (oo_without oo) | inr v => inr v end.
Proof.
  induction opts as [|opt opts IH]; intros oo; [done|]. cbn [opts_without List.filter apply_opts].
  destruct opt as [k|t b|m b|t]; cbn [apply_opts apply_opt oo_without oo_now oo_observers oo_types oo_handlers].
  1,2,4: apply (IH (mkOOs _ _ _ _)).
  destruct (bool_decide_reflect (m = n)) as [->|Hm]; cbn [negb apply_opts apply_opt].
  - destruct Hn as (h & Hin & Hh). rewrite <- Hh at 2. rewrite (controllers_complete c h Hok Hin).
    rewrite <- (IH (mkOOs _ _ _ _)). unfold oo_without. cbn. by rewrite delete_insert_delete.
  - rewrite without_controllers, lookup_delete_ne by done. destruct (controllers c !! m); [|done].
    rewrite <- (IH (mkOOs _ _ _ _)). unfold oo_without. cbn. by rewrite delete_insert_ne.
Qed.
Lemma without_opts w opts :
  new_opts c' w (opts_without n opts) = match new_opts c w opts with inl oo => inl (oo_without oo) | inr v => inr v end.
Proof. unfold new_opts. rewrite <- without_apply. unfold oo_without. cbn. by rewrite delete_empty. Qed.
Lemma without_skip oo h : h_name h <> n -> skip_handler h (oo_without oo) = skip_handler h oo.
Proof. intros Hh. unfold skip_handler. cbn. by rewrite lookup_delete_ne. Qed.

(** ** Facts *)
Lemma about_kept h env fs : Forall (about h env) fs -> fw fs = fs.
Proof. induction 1 as [|f fs H _ IH]; [done|]. cbn. destruct f; try done; cbn; by rewrite IH. Qed.
Lemma about_tick_kept h fs : Forall (about_tick h) fs -> fw fs = fs.
Proof. induction 1 as [|f fs H _ IH]; [done|]. cbn. destruct f; try done; cbn; by rewrite IH. Qed.
Lemma evs_facts fs : evs_without n (EvFact <$> fs) = EvFact <$> fw fs.
Proof. induction fs as [|f fs IH]; [done|]. cbn. destruct (fact_without n f); cbn; by rewrite <- IH. Qed.
Lemma evs_app a b : evs_without n (a ++ b) = evs_without n a ++ evs_without n b.
Proof. apply omap_app. Qed.

(** ** Handling *)
Section Run.
Context (o : Oracle) (Hsort : sort_ok o) (oo : OOs) (Hskip : forall h, h ∈ c_app c -> h_name h = n -> skip_handler h oo <> None).
Notation oo' := (oo_without oo).

Lemma without_handle env h st st1 fs r : h ∈ c_app c -> h_name h <> n -> e_handle c o oo env (Some h) st = (st1, fs, r) ->
  e_handle c' o oo' env (Some h) (drop_ st) = (drop_ st1, fw fs, r).
Proof.
  intros Hin Hh. unfold e_handle. rewrite (without_skip oo h Hh). destruct (skip_handler h oo) as [sr|].
  { intros [= <- <- <-]. cbn. by rewrite decide_False. }
  cbn [es_cs es_g state_without]. rewrite lookup_delete_ne by done. destruct (es_cs st !! h_name h) as [cs|]; [|intros [= <- <- <-]; done].
  change (ctrl_handle c' o h (oo_now oo') env (es_g st) cs) with (ctrl_handle c o h (oo_now oo) env (es_g st) cs).
  destruct (ctrl_handle c o h (oo_now oo) env (es_g st) cs) as [[[g cs1] fs1] r1] eqn:E.
  apply ctrl_handle_spec in E as [Ha _]. apply about_kept in Ha.
  destruct r1 as [envs e|v]; intros [= <- <- <-]; unfold state_without; cbn [es_g es_cs omap list_omap fact_without]; rewrite delete_insert_ne by done.
  - rewrite omap_app, Ha. done.
  - by rewrite Ha.
Qed.
Lemma skipped_handle env h st st1 fs r : h ∈ c_app c -> h_name h = n -> e_handle c o oo env (Some h) st = (st1, fs, r) ->
  st1 = st /\ fw fs = [] /\ r = HRet [] None.
Proof.
  intros Hin Hh. unfold e_handle. specialize (Hskip h Hin Hh). destruct (skip_handler h oo) as [sr|]; [|done].
  intros [= <- <- <-]. cbn. by rewrite decide_True.
Qed.
Lemma without_handlers env hs : forall st st1 fs r, (forall h, h ∈ hs -> h ∈ c_app c) ->
  e_handlers c o oo env (Some <$> hs) st = (st1, fs, r) ->
  e_handlers c' o oo' env (Some <$> keep hs) (drop_ st) = (drop_ st1, fw fs, r).
Proof.
  induction hs as [|h hs IH]; intros st st1 fs r Hhs; [intros [= <- <- <-]; done|].
  rewrite fmap_cons. cbn [e_handlers]. destruct (e_handle c o oo env (Some h) st) as [[st2 fs2] r2] eqn:E.
  assert (Hin : h ∈ c_app c) by (apply Hhs; by left). assert (Hhs' : forall h, h ∈ hs -> h ∈ c_app c) by (intros; apply Hhs; by right).
  rewrite filter_cons. destruct (decide (h_name h <> n)) as [Hh|Hh].
  - apply without_handle in E; [|done|done]. rewrite fmap_cons. cbn [e_handlers]. rewrite E. destruct r2 as [envs e|v]; [|intros [= <- <- <-]; done].
    destruct (e_handlers c o oo env (Some <$> hs) st2) as [[st3 fs3] r3] eqn:E3. apply IH in E3; [|done]. rewrite E3.
    destruct r3 as [[envs' errs']|v]; intros [= <- <- <-]; by rewrite omap_app.
  - assert (Hh' : h_name h = n) by (destruct (decide (h_name h = n)); [done|by destruct Hh]).
    apply skipped_handle in E as (-> & Hf & ->); [|done|done].
    destruct (e_handlers c o oo env (Some <$> hs) st) as [[st3 fs3] r3] eqn:E3. apply IH in E3; [|done]. rewrite E3.
    destruct r3 as [[envs' errs']|v]; intros [= <- <- <-]; rewrite omap_app, Hf; done.
Qed.
Lemma without_targets env : deliverable c' env -> exists hs, targets c env = Some (Some <$> hs) /\ targets c' env = Some (Some <$> keep hs) /\
  (forall h, h ∈ hs -> h ∈ c_app c) /\ (m_kind (e_msg env) = KTimeout -> is_Some (e_origin env)) /\
  (forall h, h ∈ keep hs -> h ∈ c_app c' /\ m_type (e_msg env) ∈ h_consumed h).
Proof.
  intros Hd. destruct (decide (m_kind (e_msg env) = KTimeout)) as [Hk|Hk].
  - destruct (Hd Hk) as (og & h & Ho & Hl & Hc). pose proof Hl as Hl'. apply controllers_in in Hl' as [Hin' He].
    rewrite without_controllers in Hl. apply lookup_delete_Some in Hl as [Hne Hl]. pose proof Hin' as Hin. apply without_in in Hin as [_ Hin].
    exists [h]. unfold targets. rewrite Hk, Ho, without_controllers, lookup_delete_ne, Hl by done.
    rewrite filter_cons, decide_True by congruence. split; [done|]. split; [done|]. split; [|split].
    + intros h' ->%elem_of_list_singleton. done.
    + eauto.
    + intros h' Hh. apply elem_of_list_singleton in Hh as ->. done.
  - exists (consumers (c_app c) (m_type (e_msg env))). rewrite !targets_message by done. rewrite without_consumers.
    split; [done|]. split; [done|]. split; [|split; [done|]].
    + intros h Hh. by apply elem_of_list_filter in Hh as [_ ?].
    + intros h Hh. rewrite <- without_consumers in Hh. by apply elem_of_list_filter in Hh as [? ?].
Qed.
Lemma without_message env st st1 fs r : deliverable c' env -> good_st c' (drop_ st) -> e_message c o oo env st = (st1, fs, r) ->
  e_message c' o oo' env (drop_ st) = (drop_ st1, fw fs, r) /\ good_st c' (drop_ st1) /\
  match r with inl (envs, _) => Forall (deliverable c') envs | inr _ => True end.
Proof.
  intros Hd Hg. destruct (without_targets env Hd) as (hs & H1 & H2 & H3 & H4 & H5). unfold e_message. rewrite H1, H2.
  destruct (e_handlers c o oo env (Some <$> hs) st) as [[st2 fs2] r2] eqn:E. apply without_handlers in E; [|done]. rewrite E.
  apply e_handlers_panics in E as [Hg' Hr]; [|apply without_ok|done|done|done|done].
  destruct r2 as [[envs derr]|v]; intros [= <- <- <-]; (split; [|split; done]); cbn; [|done]. by rewrite omap_app.
Qed.
Lemma drop_set st g : drop_ (es_set_g st g) = es_set_g (drop_ st) g.
Proof. done. Qed.
Lemma good_set st g : good_st c' (drop_ st) -> good_st c' (drop_ (es_set_g st g)).
Proof. done. Qed.
Lemma without_loop fuel : forall q err st st1 fs r, Forall (deliverable c') q -> good_st c' (drop_ st) ->
  e_loop c o oo fuel q err st = (st1, fs, r) ->
  e_loop c' o oo' fuel q err (drop_ st) = (drop_ st1, fw fs, r) /\ good_st c' (drop_ st1).
Proof.
  induction fuel as [|fuel IH]; intros [|env q] err st st1 fs r Hq Hg; cbn [e_loop]; try (intros [= <- <- <-]; done).
  apply Forall_cons in Hq as [He Hq]. destruct (e_message c o oo env st) as [[st2 fs2] r2] eqn:E.
  apply without_message in E as (E & Hg2 & Hr); [|done|done]. rewrite E.
  destruct r2 as [[envs derr]|v]; [|intros [= <- <- <-]; done].
  change (es_g (drop_ st2)) with (es_g st2). destruct (poll_ctx o (es_g st2)) as [g [e|]]; [intros [= <- <- <-]; done|].
  destruct (e_loop c o oo fuel (q ++ envs) (err ++ derr) (es_set_g st2 g)) as [[st3 fs3] r3] eqn:E3.
  apply IH in E3 as [E3 Hg3]; [|by apply Forall_app|done]. rewrite drop_set in E3. rewrite E3. intros [= <- <- <-]. by rewrite omap_app.
Qed.

(** ** Ticks *)
Lemma ctrl_tick_about h now g cs g' cs' fs r : cs_match h cs -> ctrl_tick h now g cs = (g', cs', fs, r) -> Forall (about_tick (h_id h)) fs.
Proof.
  intros Hm E. revert E Hm. assert (Hid : hid_type (h_id h) = h_type h) by done.
  unfold ctrl_tick, cs_match, h_type in *. destruct (h_impl h) as [a|pi|i|j] eqn:Ei, cs; intros H Hm; try done.
  - injection H as <- <- <- <-. constructor.
  - destruct (p_tick _ _). injection H as <- <- <- <-. constructor.
  - injection H as <- <- <- <-. constructor.
  - destruct (j_tick_ctrl _ _ _ _ _) as [[[g1 l1] fs1] r1] eqn:E. injection H as <- <- <- <-.
    apply j_tick_facts in E as (H1 & _ & H2). eapply Forall_impl; [exact H1|]. intros f. destruct f; cbn; try done; intuition.
Qed.
Lemma without_tick_one h st st1 fs r : h ∈ c_app c -> h_name h <> n -> good_st c' (drop_ st) -> e_tick_one c o oo h st = (st1, fs, r) ->
  e_tick_one c' o oo' h (drop_ st) = (drop_ st1, fw fs, r).
Proof.
  intros Hin Hh Hg. unfold e_tick_one. rewrite (without_skip oo h Hh). destruct (skip_handler h oo) as [sr|].
  { intros [= <- <- <-]. cbn. by rewrite decide_False. }
  destruct (Hg h) as (cs & El & Hm & _); [by apply without_in|]. cbn [es_cs es_g state_without] in El |- *. rewrite El.
  rewrite lookup_delete_ne in El by done. rewrite El.
  change (oo_now oo') with (oo_now oo). destruct (ctrl_tick h (oo_now oo) (es_g st) cs) as [[[g cs1] fs1] r1] eqn:E.
  apply ctrl_tick_about in E; [|done]. apply about_tick_kept in E.
  destruct r1 as [envs e|v]; intros [= <- <- <-]; unfold state_without; cbn [es_g es_cs omap list_omap fact_without]; rewrite delete_insert_ne by done.
  - rewrite omap_app, E. done.
  - by rewrite E.
Qed.
Lemma without_poll h st : h_name h <> n ->
  poll_unless_skipped o oo' h (drop_ st) = let '(st1, ce) := poll_unless_skipped o oo h st in (drop_ st1, ce).
Proof.
  intros Hh. unfold poll_unless_skipped. rewrite (without_skip oo h Hh). destruct (skip_handler h oo); [done|].
  change (es_g (drop_ st)) with (es_g st). destruct (poll_ctx o (es_g st)); done.
Qed.
Lemma without_tick_good h st st1 fs r : h ∈ c_app c' -> good_st c' (drop_ st) -> e_tick_one c' o oo' h (drop_ st) = (drop_ st1, fs, r) ->
  good_st c' (drop_ st1).
Proof.
  intros Hin Hg E. unfold e_tick_one in E. destruct (skip_handler h oo'); [assert (drop_ st1 = drop_ st) as -> by congruence; done|].
  destruct (Hg h Hin) as (cs & El & Hcs). rewrite El in E. destruct (ctrl_tick _ _ _ _) as [[[g2 cs2] fs2] r2] eqn:E2.
  eapply ctrl_tick_panics in E2 as [H1 _]; [|exact Hcs].
  destruct r2 as [envs e|v].
  all: assert (drop_ st1 = mkE g2 (<[h_name h := cs2]> (es_cs (drop_ st)))) as -> by congruence; (apply good_st_update; [apply without_ok|done|done|done]).
Qed.
Lemma without_tick_handlers hs : forall st st1 fs r, (forall h, h ∈ hs -> h ∈ c_app c) -> good_st c' (drop_ st) ->
  e_tick_handlers c o oo hs st = (st1, fs, r) ->
  e_tick_handlers c' o oo' (keep hs) (drop_ st) = (drop_ st1, fw fs, r).
Proof.
  induction hs as [|h hs IH]; intros st st1 fs r Hhs Hg; [intros [= <- <- <-]; done|].
  cbn [e_tick_handlers]. destruct (e_tick_one c o oo h st) as [[st2 fs2] r2] eqn:E.
  assert (Hin : h ∈ c_app c) by (apply Hhs; by left). assert (Hhs' : forall h, h ∈ hs -> h ∈ c_app c) by (intros; apply Hhs; by right).
  rewrite filter_cons. destruct (decide (h_name h <> n)) as [Hh|Hh].
  - apply without_tick_one in E; [|done|done|done]. cbn [e_tick_handlers]. rewrite E. destruct r2 as [envs e|v]; [|intros [= <- <- <-]; done].
    apply without_tick_good in E; [|by apply without_in|done].
    rewrite without_poll by done. destruct (poll_unless_skipped o oo h st2) as [st3 [ce|]] eqn:Ep; [intros [= <- <- <-]; done|].
    destruct (e_tick_handlers c o oo hs st3) as [[st4 fs4] r4] eqn:E4. apply IH in E4; [|done|].
    2:{ unfold poll_unless_skipped in Ep. destruct (skip_handler h oo); [by injection Ep as <-|].
        destruct (poll_ctx o (es_g st2)) as [g ce]. by injection Ep as <- _. }
    rewrite E4. intros [= <- <- <-]. by rewrite omap_app.
  - assert (Hh' : h_name h = n) by (destruct (decide (h_name h = n)); [done|by destruct Hh]).
    unfold e_tick_one in E. unfold poll_unless_skipped. specialize (Hskip h Hin Hh'). destruct (skip_handler h oo) as [sr|]; [|done].
    injection E as <- <- <-.
    destruct (e_tick_handlers c o oo hs st) as [[st4 fs4] r4] eqn:E4. apply IH in E4; [|done|done]. rewrite E4.
    intros [= <- <- <-]. cbn. rewrite decide_True by done. by destruct r4.
Qed.
Lemma without_tick_body fuel order st st1 fs r : (forall h, h ∈ order -> h ∈ c_app c) -> good_st c' (drop_ st) ->
  e_tick_body c o oo fuel order st = (st1, fs, r) ->
  e_tick_body c' o oo' fuel (keep order) (drop_ st) = (drop_ st1, fw fs, r).
Proof.
  intros Ho Hg. unfold e_tick_body. destruct (e_tick_handlers c o oo order st) as [[st2 fs2] r2] eqn:E.
  apply without_tick_handlers in E; [|done|done]. rewrite E.
  apply e_tick_handlers_panics in E as [Hg2 Hq]; [|apply without_ok|done|intros h; rewrite without_in, elem_of_list_filter; intros [? ?]; auto|done].
  destruct r2 as [q errs|e|v]; [|intros [= <- <- <-]; done|intros [= <- <- <-]; done].
  destruct (e_loop c o oo fuel q [] st2) as [[st3 fs3] r3] eqn:E3. apply without_loop in E3 as [E3 _]; [|done|done]. rewrite E3.
  intros [= <- <- <-]. by rewrite omap_app.
Qed.
End Run.

(** ** Operations *)
Lemma without_op_ok op : op_ok c op -> op_ok c' (op_without n op).
Proof. destruct op as [o f m l|o f order l| |f]; cbn; try done. intros [H1 H2]. split; [done|]. by rewrite H2. Qed.

Lemma without_op op st st1 evs r : op_ok c op -> disabled_during c n op -> good_st c' (drop_ st) ->
  run_op c op st = (st1, evs, r) -> run_op c' (op_without n op) (drop_ st) = (drop_ st1, evs_without n evs, r).
Proof.
  intros Hop Hd Hg. destruct op as [o fuel m opts|o fuel order opts| |f]; cbn [run_op op_without].
  - cbn in Hop. destruct Hd as [Hd Hm]. destruct (e_dispatch c o fuel m opts st) as [[st2 fs2] r2] eqn:E. intros [= <- <- <-].
    assert (E' : e_dispatch c' o fuel m (opts_without n opts) (drop_ st) = (drop_ st2, fw fs2, r2)).
    { revert E. unfold e_dispatch. change (es_g (drop_ st)) with (es_g st). destruct (next_id o (es_g st)) as [g id].
      rewrite without_opts. destruct (new_opts c (o_wall o) opts) as [oo|v] eqn:Eo; [|intros [= <- <- <-]; done].
      assert (Hs : forall h, h ∈ c_app c -> h_name h = n -> skip_handler h oo <> None).
      { intros h H1 H2. destruct (skip_lemma _ _ _ _ h Eo) as [-> _]. by apply Hd. }
      assert (Hr : routes c' !! m_type m = None <-> routes c !! m_type m = None).
      { rewrite !routes_lookup. rewrite without_consumers. split.
        - destruct (consumers (c_app c) (m_type m)) as [|h l] eqn:El; [done|]. intros Hnil. exfalso.
          destruct Hm as (h' & Hin & Hh & Hc).
          { exists h. assert (Hh : h ∈ consumers (c_app c) (m_type m)) by (rewrite El; by left).
            by apply elem_of_list_filter in Hh as [? ?]. }
          assert (Hk : h' ∈ keep (h :: l)).
          { apply elem_of_list_filter. split; [done|]. rewrite <- El. by apply elem_of_list_filter. }
          destruct (keep (h :: l)); [by apply elem_of_nil in Hk|done].
        - destruct (consumers (c_app c) (m_type m)); done. }
      destruct (m_kind m) eqn:Ek; [| |intros [= <- <- <-]; done].
      all: destruct (m_invalid m); [intros [= <- <- <-]; done|].
      all: destruct (routes c !! m_type m) as [l|] eqn:E1, (routes c' !! m_type m) as [l'|] eqn:E2;
        [|destruct Hr as [Hr _]; by specialize (Hr eq_refl)|destruct Hr as [_ Hr]; by specialize (Hr eq_refl)|intros [= <- <- <-]; done].
      all: cbn [oo_without oo_now oo_types oo_handlers] in *; change (es_g (es_set_g (drop_ st) g)) with g;
        change (es_g (es_set_g st g)) with g; destruct (lock o g) as [g2 [e|]]; [intros [= <- <- <-]; done|].
      all: match goal with |- (match e_loop ?c0 ?o0 ?oo0 ?f0 ?q [] ?s with _ => _ end = _) -> _ => destruct (e_loop c0 o0 oo0 f0 q [] s) as [[st3 fs3] r3] eqn:E3 end.
      all: apply without_loop in E3 as [E3 _]; [|done|done|apply Forall_singleton; intros Hk; cbn in Hk; congruence|done];
        rewrite !drop_set in E3; rewrite E3; destruct r3; intros [= <- <- <-]; cbn; try done;
        by rewrite omap_app. }
    rewrite E'. by rewrite evs_facts.
  - cbn in Hop, Hd. destruct Hop as [Hsort Hord]. destruct (e_tick c o fuel order opts st) as [[st2 fs2] r2] eqn:E. intros [= <- <- <-].
    assert (E' : e_tick c' o fuel (keep order) (opts_without n opts) (drop_ st) = (drop_ st2, fw fs2, r2)).
    { revert E. unfold e_tick. change (es_g (drop_ st)) with (es_g st).
      rewrite without_opts. destruct (new_opts c (o_wall o) opts) as [oo|v] eqn:Eo; [|intros [= <- <- <-]; done].
      assert (Hs : forall h, h ∈ c_app c -> h_name h = n -> skip_handler h oo <> None).
      { intros h H1 H2. destruct (skip_lemma _ _ _ _ h Eo) as [-> _]. by apply Hd. }
      destruct (lock o (es_g st)) as [g2 [e|]]; [intros [= <- <- <-]; done|].
      destruct (e_tick_body c o oo fuel order (es_set_g st g2)) as [[st3 fs3] r3] eqn:E3.
      apply without_tick_body in E3; [|done|done|intros h; by rewrite Hord|done].
      rewrite drop_set in E3. cbn [oo_without oo_now oo_types oo_handlers]. rewrite E3.
      destruct r3; intros [= <- <- <-]; cbn; try done; by rewrite omap_app. }
    rewrite E'. by rewrite evs_facts.
  - intros [= <- <- <-]. unfold e_reset, state_without. cbn. by rewrite fmap_delete.
  - intros [= <- <- <-]. done.
Qed.

Lemma without_ops ops : forall st st1 evs fin, Forall (op_ok c) ops -> Forall (disabled_during c n) ops -> good_st c' (drop_ st) ->
  run_ops c ops st = (st1, evs, fin) -> run_ops c' (op_without n <$> ops) (drop_ st) = (drop_ st1, evs_without n evs, fin).
Proof.
  induction ops as [|op ops IH]; intros st st1 evs fin Hop Hd Hg; [intros [= <- <- <-]; done|].
  apply Forall_cons in Hop as [Ho Hop], Hd as [Hd1 Hd]. rewrite fmap_cons. cbn [run_ops].
  destruct (run_op c op st) as [[st2 evs2] r2] eqn:E. pose proof (without_op op st st2 evs2 r2 Ho Hd1 Hg E) as E'. rewrite E'.
  assert (Hg2 : good_st c' (drop_ st2)).
  { eapply run_op_panics in E' as [Hg2 _]; [done|apply without_ok|by apply without_op_ok|done]. }
  destruct r2; [| |intros [= <- <- <-]; done].
  all: destruct (run_ops c ops st2) as [[st3 evs3] fin3] eqn:E3; apply IH in E3; [|done|done|done]; rewrite E3;
    intros [= <- <- <-]; by rewrite evs_app.
Qed.
Lemma without_init u : e_init c' u = drop_ (e_init c u).
Proof. unfold e_init, state_without. cbn [es_g es_cs]. by rewrite without_controllers, fmap_delete. Qed.

(** Between operations, what the engine keeps for the other handlers does not
    refer to [n]. *)
Lemma without_good u ops st evs fin : history c u ops st evs fin -> good_st c' (drop_ st).
Proof.
  intros H h [Hne Hin]%without_in.
  assert (Hg : good_st c st).
  { destruct H as (_ & Hop & E). eapply run_ops_good in E; [done|done|done|by apply e_init_good]. }
  destruct (Hg h Hin) as (cs & El & Hm & Hcs). exists cs. split; [cbn; by rewrite lookup_delete_ne|]. split; [done|].
  destruct cs as [hist|ps| |last]; [done| |done|done].
  apply Forall_forall. intros t Ht Hk. rewrite Forall_forall in Hcs. destruct (Hcs t Ht Hk) as (og & h' & Ho & Hl & Hc).
  destruct (C15_lemma _ _ _ _ _ _ _ _ _ H Hin El Ht) as (_ & i & Ho' & _). rewrite Ho in Ho'. injection Ho' as ->.
  exists (mkOrigin (h_id h) HTProcess i), h'. split; [done|]. split; [|done].
  rewrite without_controllers. cbn in Hl |- *. by rewrite lookup_delete_ne.
Qed.

Lemma disabled_lemma u ops0 st0 evs0 fin0 ops st evs fin :
  history c u ops0 st0 evs0 fin0 -> Forall (op_ok c) ops -> Forall (disabled_during c n) ops ->
  run_ops c ops st0 = (st, evs, fin) ->
  run_ops c' (op_without n <$> ops) (drop_ st0) = (drop_ st, evs_without n evs, fin).
Proof. intros H Hop Hd E. eapply without_ops; try done. by eapply without_good. Qed.

Lemma absent_lemma u ops st evs fin :
  history c u ops st evs fin -> Forall (disabled_during c n) ops ->
  history c' u (op_without n <$> ops) (drop_ st) (evs_without n evs) fin.
Proof.
  intros (_ & Hop & E) Hd. split; [apply without_ok|]. split.
  - rewrite Forall_fmap. eapply Forall_impl; [exact Hop|]. intros op. apply without_op_ok.
  - rewrite without_init. apply (disabled_lemma u [] (e_init c u) [] true); [|done|done|done]. split; [done|]. split; [constructor|done].
Qed.
End Disable.
