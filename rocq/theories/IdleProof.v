(** * Ticks at which there is nothing to do. *)
From Verif Require Import IdleSpec HistSim EnvProof AggProof ProcProof ProcHist OpProof OpFacts ProcLemmas ProgSim EngineLemmas EngineFacts.

Section IdleProof.
Context {P : Params}.
Implicit Types (c : Config) (o : Oracle) (h hd : Handler) (st : EState).

Lemma hour_interval : compact_interval = hour.
Proof. reflexivity. Qed.

Lemma unchanged_refl st : unchanged st st.
Proof. done. Qed.
Lemma unchanged_trans a b d : unchanged a b -> unchanged b d -> unchanged a d.
Proof. intros (H1 & H2 & H3 & H7) (H4 & H5 & H6 & H8). split; [congruence|]. split; [congruence|]. split; [congruence|lia]. Qed.
Lemma unchanged_step st st1 : unchanged st st1 -> unchanged st (es_set_g st1 (mkG (g_next (es_g st1)) (g_user (es_g st1)) (S (g_step (es_g st1))))).
Proof. intros (H1 & H2 & H3 & H4). split; [done|]. split; [done|]. split; [done|]. cbn. lia. Qed.

Lemma p_split_later now l : (forall t, t ∈ l -> (now < e_sched t)%Z) -> p_split now l = ([], l).
Proof.
  destruct l as [|e l]; [done|]. intros H. cbn [p_split].
  destruct (now <? e_sched e)%Z eqn:E; [done|]. apply Z.ltb_ge in E. specialize (H e ltac:(left)). lia.
Qed.

(** ** An idle tick *)
Lemma ctrl_tick_idle h now g cs : nothing_due now (Some cs) -> ctrl_tick h now g cs = (g, cs, [], HRet [] None).
Proof.
  intros H. unfold ctrl_tick, p_tick, j_tick_ctrl.
  destruct (h_impl h), cs as [|[ins tos]| |l]; cbn in *; try done.
  - rewrite (p_split_later _ _ H). done.
  - rewrite hour_interval. destruct (Z.leb_spec hour (now - l)); [lia|done].
Qed.

Lemma e_tick_one_idle c o oo h st st' fs r :
  (skip_handler h oo = None -> nothing_due (oo_now oo) (es_cs st !! h_name h) /\ is_Some (es_cs st !! h_name h)) ->
  e_tick_one c o oo h st = (st', fs, r) ->
  unchanged st st' /\ r = HRet [] None /\ fs = uneventful (fun h => skip_handler h oo) [h].
Proof.
  intros Hq H. unfold e_tick_one in H. unfold uneventful. cbn [fmap list_fmap concat].
  destruct (skip_handler h oo) as [sr|]; [injection H as <- <- <-; done|].
  destruct (Hq eq_refl) as [Hd [cs Hl]]. rewrite Hl in *. rewrite (ctrl_tick_idle _ _ _ _ Hd) in H.
  injection H as <- <- <-. split; [|done]. split; [|split; [done|split; done]]. cbn [es_cs]. apply insert_id. done.
Qed.

Lemma uneventful_app skip a b : uneventful skip (a ++ b) = uneventful skip a ++ uneventful skip b.
Proof. unfold uneventful. rewrite fmap_app, concat_app. done. Qed.

Lemma uneventful_dispatched skip l f f' : dispatched [f] = [] -> dispatched [f'] = [] ->
  dispatched (f :: uneventful skip l ++ [f']) = [].
Proof.
  intros Hf Hf'. change (dispatched ([f] ++ uneventful skip l ++ [f']) = []). unfold dispatched in *. rewrite !omap_app, Hf, Hf', app_nil_r.
  unfold uneventful. induction l as [|h l IH]; [done|]. cbn [fmap list_fmap concat]. rewrite omap_app. cbn [app] in *. rewrite IH, app_nil_r. destruct (skip h); done.
Qed.

Lemma e_tick_handlers_idle c o oo : forall hs st st' fs r,
  (forall h, h ∈ hs -> skip_handler h oo = None -> nothing_due (oo_now oo) (es_cs st !! h_name h) /\ is_Some (es_cs st !! h_name h)) ->
  e_tick_handlers c o oo hs st = (st', fs, r) ->
  unchanged st st' /\
  (r = TQueue [] [] /\ fs = uneventful (fun h => skip_handler h oo) hs \/
   exists x pre, r = TCancel (ECtx x) /\ pre `prefix_of` hs /\ fs = uneventful (fun h => skip_handler h oo) pre).
Proof.
  induction hs as [|h hs IH]; intros st st' fs r Hq; cbn [e_tick_handlers].
  - intros [= <- <- <-]. split; [done|]. left. done.
  - destruct (e_tick_one c o oo h st) as [[s1 f1] r1] eqn:E.
    apply e_tick_one_idle in E as (Hu & -> & ->); [|intros Hs; apply Hq; [left|done]].
    destruct (poll_unless_skipped o oo h s1) as [s2 ce] eqn:Ep.
    assert (Hu2 : unchanged st s2 /\ forall e, ce = Some e -> exists x, e = ECtx x).
    { unfold poll_unless_skipped in Ep. destruct (skip_handler h oo); [injection Ep as <- <-; done|].
      unfold poll_ctx in Ep. destruct (o_ctx o (g_step (es_g s1))); injection Ep as <- <-; cbn.
      - split; [by apply unchanged_step|]. intros e [= <-]. eauto.
      - split; [by apply unchanged_step|done]. }
    destruct Hu2 as [Hu2 Hce]. destruct ce as [e|].
    + destruct (Hce e eq_refl) as [x ->]. intros [= <- <- <-]. split; [done|]. right. exists x, [h].
      split; [done|]. split; [|done]. exists hs. done.
    + destruct (e_tick_handlers c o oo hs s2) as [[s3 f3] r3] eqn:E3. intros [= <- <- <-].
      apply IH in E3 as [Hu3 Hr3].
      * split; [eapply unchanged_trans; done|]. destruct Hr3 as [[-> ->]|(x & pre & -> & Hpre & ->)].
        -- left. split; [done|]. rewrite <- uneventful_app. done.
        -- right. exists x, (h :: pre). split; [done|]. split; [|rewrite <- uneventful_app; done].
           destruct Hpre as [k ->]. exists k. done.
      * destruct Hu2 as (-> & _). intros h' Hh'. apply Hq. right. done.
Qed.

Lemma C108_idle_lemma c st o fuel order opts st' fs r :
  performs c st (OpTick o fuel order opts) st' fs r -> idle c (op_time o opts) (skipped opts) st ->
  unchanged st st' /\ dispatched fs = [] /\
  (r = Ok [] /\ (exists et eh, fs = TickCycleBegun (op_time o opts) et eh :: uneventful (skipped opts) order ++ [TickCycleCompleted [] et eh]) \/
   exists x, r = Ok [ECtx x]).
Proof.
  intros (Hre & [Hs Hord] & H & Hne) Hidle. cbn [run_op] in H.
  destruct (e_tick c o fuel order opts st) as [[s1 f1] r1] eqn:E. injection H as -> Hf ->.
  assert (f1 = fs) as ->.
  { clear -Hf. revert fs Hf. induction f1 as [|a f1 IH]; intros [|b fs]; cbn; try done. intros [= -> H]. f_equal. auto. }
  clear Hf. unfold e_tick in E.
  destruct (new_opts c (o_wall o) opts) as [oo|v] eqn:Eo; [|injection E as <- <- <-; done].
  assert (Hsk : forall h, skip_handler h oo = skipped opts h) by (intros h; eapply skip_lemma; done).
  assert (Hnow : oo_now oo = op_time o opts) by (eapply opts_lemma; done).
  unfold lock in E. destruct (o_lock o (g_step (es_g st))) as [le|].
  { cbn in E. injection E as <- <- <-. split; [apply unchanged_step, unchanged_refl|]. split; [done|]. right. eauto. }
  cbn [fmap option_fmap option_map] in E. unfold e_tick_body in E.
  destruct (e_tick_handlers c o oo order _) as [[s2 f2] r2] eqn:Et.
  apply e_tick_handlers_idle in Et as [Hu Hr].
  1: apply (unchanged_trans _ _ _ (unchanged_step _ _ (unchanged_refl st))) in Hu.
  - assert (Hun : forall l, uneventful (fun h => skip_handler h oo) l = uneventful (skipped opts) l).
    { intros l. unfold uneventful. f_equal. apply list_fmap_ext. intros ? h _. rewrite Hsk. done. }
    destruct Hr as [[-> ->]|(x & pre & -> & _ & ->)].
    + cbn [e_loop] in E. destruct fuel; cbn [e_loop] in E; injection E as <- <- <-;
        (split; [exact Hu|]); rewrite Hnow, Hun, app_nil_r; (split; [apply uneventful_dispatched; done|left; split; [done|]]); eauto.
    + injection E as <- <- <-. split; [exact Hu|]. rewrite Hun. split; [apply uneventful_dispatched; done|]. right. eauto.
  - intros h Hh Hsn. cbn [es_cs es_set_g]. rewrite Hord in Hh. rewrite Hnow. rewrite Hsk in Hsn. split.
    + apply Hidle; done.
    + destruct (reachable_st_ok _ _ Hre h Hh) as (cs & -> & _). eauto.
Qed.

(** ** Staying idle *)
Lemma p_run_pending_later o h now env i meth p g s g' s' fs res :
  p_run o h now env i meth p g s = (g', s', fs, res) ->
  (forall e, e ∈ ps_pending s -> (now < e_sched e)%Z) ->
  forall e, e ∈ ps_pending s' -> (now < e_sched e)%Z.
Proof.
  revert g s g' s' fs res.
  induction p as [e0|v|f0 k IH|f0 k IH|b k IH|b t k IH|k IH|str k IH]; intros g s g' s' fs res; cbn [p_run].
  - intros [= <- <- <- <-]. done.
  - intros [= <- <- <- <-]. done.
  - intros H. eapply IH. exact H.
  - intros H Hs. eapply IH; [exact H|]. exact Hs.
  - destruct (p_execute _ _ _ _ _ _ _ _ _) as [[[g1 s1] fs1] v1] eqn:E. destruct (p_run _ _ _ _ _ _ _ _ _) as [[[g2 s2] fs2] r2] eqn:E2.
    intros [= <- <- <- <-] Hs. eapply IH; [exact E2|]. unfold p_execute in E. destruct (p_check _ _ _ _); [injection E as <- <- <- <-; done|].
    unfold p_revert in E. destruct (ps_ended s); injection E as <- <- <- <-; exact Hs.
  - destruct (p_schedule _ _ _ _ _ _ _ _ _ _) as [[[g1 s1] fs1] v1] eqn:E. destruct (p_run _ _ _ _ _ _ _ _ _) as [[[g2 s2] fs2] r2] eqn:E2.
    intros [= <- <- <- <-] Hs. eapply IH; [exact E2|]. unfold p_schedule in E. destruct (p_check _ _ _ _); [injection E as <- <- <- <-; done|].
    unfold p_revert in E. destruct (ps_ended s); cbn in E; destruct (Z.ltb_spec now t); injection E as <- <- <- <-; try exact Hs; cbn;
      intros e [He|He%elem_of_list_singleton]%elem_of_app; auto; subst e; done.
  - unfold p_end. destruct (ps_ended s); destruct (p_run _ _ _ _ _ _ _ _ _) as [[[g2 s2] fs2] r2] eqn:E2;
      intros [= <- <- <- <-] Hs; (eapply IH; [exact E2|exact Hs]).
  - destruct (p_run _ _ _ _ _ _ _ _ _) as [[[g2 s2] fs2] r2] eqn:E2. intros [= <- <- <- <-] Hs. eapply IH; [exact E2|exact Hs].
Qed.

Lemma p_handle_idle o h pi now t env g ps g' ps' fs r :
  sort_ok o -> (t <= now)%Z -> nothing_due t (Some (CSProc ps)) -> p_handle o h pi now env g ps = (g', ps', fs, r) ->
  nothing_due t (Some (CSProc ps')).
Proof.
  intros Hsort Ht Hd H. apply p_handle_cases in H. destruct H as [| | | | |g1 id rt pre g' s fs res Hc Hg Hk Hpre Hrun]; try exact Hd.
  pose proof (p_run_pending_later _ _ _ _ _ _ _ _ _ _ _ _ _ Hrun (fun e H => match not_elem_of_nil e H with end)) as Hpend.
  unfold p_commit, p_store_mutation, p_delete, p_update. cbn in Hd |- *.
  destruct res as [[e|]|v].
  - destruct (pc_instances ps !! id); exact Hd.
  - destruct (ps_ended s).
    + destruct (bool_decide _); [|exact Hd]. cbn [pc_timeouts]. intros e [_ He]%elem_of_list_filter. auto.
    + cbn [pc_timeouts]. intros e He. rewrite (proj1 (Hsort _)) in He. apply elem_of_app in He as [He|He]; [auto|].
      specialize (Hpend e He). lia.
  - destruct (pc_instances ps !! id); exact Hd.
Qed.

Section Keep.
Variables (c : Config) (t : Z) (skip : Handler -> option SkipReason).

Lemma ctrl_handle_idle o h now env g cs g' cs' fs r :
  sort_ok o -> (t <= now)%Z -> nothing_due t (Some cs) -> ctrl_handle c o h now env g cs = (g', cs', fs, r) -> nothing_due t (Some cs').
Proof.
  intros Hs Ht Hd H. unfold ctrl_handle in H.
  destruct (h_impl h), cs; try (injection H as <- <- <- <-; exact Hd).
  - destruct (a_handle _ _ _ _ _ _ _) as [[[? ?] ?] ?]. injection H as <- <- <- <-. done.
  - destruct (p_handle _ _ _ _ _ _ _) as [[[? ?] ?] ?] eqn:E. injection H as <- <- <- <-. eapply p_handle_idle; eassumption.
  - destruct (i_handle _ _ _ _ _ _) as [[? ?] ?]. injection H as <- <- <- <-. done.
  - destruct (j_handle _ _ _ _ _ _ _) as [[? ?] ?]. injection H as <- <- <- <-. exact Hd.
Qed.

Lemma e_handle_idle o oo env oh st st' fs r n :
  sort_ok o -> (t <= oo_now oo)%Z -> nothing_due t (es_cs st !! n) ->
  e_handle c o oo env oh st = (st', fs, r) -> nothing_due t (es_cs st' !! n).
Proof.
  intros Hs Ht Hd H. unfold e_handle in H. destruct oh as [h|]; [|injection H as <- <- <-; done].
  destruct (skip_handler h oo); [injection H as <- <- <-; done|].
  destruct (es_cs st !! h_name h) as [cs|] eqn:El; [|injection H as <- <- <-; done].
  destruct (ctrl_handle _ _ _ _ _ _ _) as [[[g1 cs1] fs1] r1] eqn:E.
  assert (es_cs st' = <[h_name h := cs1]> (es_cs st)) as -> by (destruct r1; injection H as <- <- <-; done).
  destruct (decide (n = h_name h)) as [->|]; [|rewrite lookup_insert_ne by done; done].
  rewrite lookup_insert. rewrite El in Hd. eapply ctrl_handle_idle; eassumption.
Qed.

Lemma e_handlers_idle o oo env n : sort_ok o -> (t <= oo_now oo)%Z -> forall hs st st' fs r,
  nothing_due t (es_cs st !! n) -> e_handlers c o oo env hs st = (st', fs, r) -> nothing_due t (es_cs st' !! n).
Proof.
  intros Hs Ht. induction hs as [|h hs IH]; intros st st' fs r Hd; cbn [e_handlers].
  - intros [= <- <- <-]. done.
  - destruct (e_handle c o oo env h st) as [[s1 f1] r1] eqn:E. apply (e_handle_idle _ _ _ _ _ _ _ _ n) in E; [|done|done|done].
    destruct r1 as [envs e|v]; [|intros [= <- <- <-]; done].
    destruct (e_handlers c o oo env hs s1) as [[s2 f2] r2] eqn:E2. apply IH in E2; [|done].
    destruct r2 as [[? ?]|?]; intros [= <- <- <-]; done.
Qed.

Lemma e_loop_idle o oo n : sort_ok o -> (t <= oo_now oo)%Z -> forall fuel q err st st' fs r,
  nothing_due t (es_cs st !! n) -> e_loop c o oo fuel q err st = (st', fs, r) -> nothing_due t (es_cs st' !! n).
Proof.
  intros Hs Ht. induction fuel as [|fuel IH]; intros q err st st' fs r Hd; destruct q as [|env q]; cbn [e_loop];
    try (intros [= <- <- <-]; done).
  destruct (e_message c o oo env st) as [[s1 f1] r1] eqn:E.
  assert (Hd1 : nothing_due t (es_cs s1 !! n)).
  { unfold e_message in E. destruct (targets c env) as [hs|]; [|injection E as <- <- <-; done].
    destruct (e_handlers c o oo env hs st) as [[s2 f2] r2] eqn:E2. apply (e_handlers_idle _ _ _ n Hs Ht) in E2; [|done].
    destruct r2 as [[? ?]|?]; injection E as <- <- <-; done. }
  destruct r1 as [[envs derr]|v]; [|intros [= <- <- <-]; done].
  destruct (poll_ctx o (es_g s1)) as [g [ce|]]; [intros [= <- <- <-]; done|].
  destruct (e_loop c o oo fuel _ _ _) as [[s2 f2] r2] eqn:E2. intros [= <- <- <-]. eapply IH in E2; done.
Qed.
End Keep.

Lemma e_dispatch_idle c o fuel m opts st st' fs r t n :
  sort_ok o -> (t <= op_time o opts)%Z -> nothing_due t (es_cs st !! n) ->
  e_dispatch c o fuel m opts st = (st', fs, r) -> nothing_due t (es_cs st' !! n).
Proof.
  intros Hs Ht Hd E. unfold e_dispatch in E. destruct (next_id o (es_g st)) as [g id].
  destruct (new_opts c (o_wall o) opts) as [oo|v] eqn:Eo; [|injection E as <- <- <-; done].
  assert (Hnow : oo_now oo = op_time o opts) by (eapply opts_lemma; done).
  destruct (m_kind m) eqn:Ek; [| |injection E as <- <- <-; done].
  all: destruct (m_invalid m); [injection E as <- <- <-; done|].
  all: destruct (routes c !! m_type m); [|injection E as <- <- <-; done].
  all: destruct (lock o _) as [g1 [e|]]; [injection E as <- <- <-; done|].
  all: destruct (e_loop c o oo fuel _ _ _) as [[s2 fs2] r2] eqn:E2.
  all: apply (e_loop_idle c t o oo n) in E2; [|done|lia|done].
  all: destruct r2; injection E as <- <- <-; done.
Qed.

Lemma ctrl_tick_keeps h now g cs g' cs' fs r t :
  (t <= now)%Z -> nothing_due t (Some cs) -> ctrl_tick h now g cs = (g', cs', fs, r) -> nothing_due t (Some cs').
Proof.
  intros Ht Hd H. unfold ctrl_tick in *.
  destruct (h_impl h), cs as [|ps| |l]; try (injection H as <- <- <- <-; exact Hd).
  - unfold p_tick in H. destruct (p_split now (pc_timeouts ps)) as [a b] eqn:E. injection H as <- <- <- <-. cbn in *.
    apply p_split_app in E. intros x Hx. apply Hd. rewrite E. apply elem_of_app. auto.
  - unfold j_tick_ctrl in H. destruct (_ <=? _)%Z; [|injection H as <- <- <- <-; exact Hd].
    destruct (j_run _ _ _ _ _) as [[g1 f1] [e1|v]]; injection H as <- <- <- <-; cbn; unfold hour; lia.
Qed.

Lemma e_tick_one_keeps c o oo h st st' fs r t n : (t <= oo_now oo)%Z -> nothing_due t (es_cs st !! n) ->
  e_tick_one c o oo h st = (st', fs, r) -> nothing_due t (es_cs st' !! n).
Proof.
  intros Ht Hd H. unfold e_tick_one in H. destruct (skip_handler h oo); [injection H as <- <- <-; done|].
  destruct (es_cs st !! h_name h) as [cs|] eqn:El; [|injection H as <- <- <-; done].
  destruct (ctrl_tick _ _ _ _) as [[[g1 cs1] f1] r1] eqn:E.
  assert (es_cs st' = <[h_name h := cs1]> (es_cs st)) as -> by (destruct r1; injection H as <- <- <-; done).
  destruct (decide (n = h_name h)) as [->|]; [|rewrite lookup_insert_ne by done; done].
  rewrite lookup_insert. rewrite El in Hd. eapply ctrl_tick_keeps; eassumption.
Qed.

Lemma e_tick_handlers_keep c o oo t n : (t <= oo_now oo)%Z -> forall hs st st' fs r, nothing_due t (es_cs st !! n) ->
  e_tick_handlers c o oo hs st = (st', fs, r) -> nothing_due t (es_cs st' !! n).
Proof.
  intros Ht. induction hs as [|h hs IH]; intros st st' fs r Hd; cbn [e_tick_handlers]; [intros [= <- <- <-]; done|].
  destruct (e_tick_one c o oo h st) as [[s1 f1] r1] eqn:E. apply (e_tick_one_keeps _ _ _ _ _ _ _ _ t n Ht Hd) in E.
  destruct r1 as [envs e|v]; [|intros [= <- <- <-]; done].
  destruct (poll_unless_skipped o oo h s1) as [s2 ce] eqn:Ep.
  assert (Hcs : es_cs s2 = es_cs s1).
  { unfold poll_unless_skipped in Ep. destruct (skip_handler h oo); [injection Ep as <- <-; done|].
    destruct (poll_ctx o (es_g s1)); injection Ep as <- <-; done. }
  destruct ce; [intros [= <- <- <-]; rewrite Hcs; done|].
  destruct (e_tick_handlers c o oo hs s2) as [[s3 f3] r3] eqn:E3. intros [= <- <- <-]. eapply IH; [|exact E3]. rewrite Hcs. done.
Qed.

Lemma e_tick_keeps c o fuel order opts st st' fs r t n :
  sort_ok o -> (t <= op_time o opts)%Z -> nothing_due t (es_cs st !! n) ->
  e_tick c o fuel order opts st = (st', fs, r) -> nothing_due t (es_cs st' !! n).
Proof.
  intros Hs Ht Hd E. unfold e_tick in E.
  destruct (new_opts c (o_wall o) opts) as [oo|v] eqn:Eo; [|injection E as <- <- <-; done].
  assert (Hnow : oo_now oo = op_time o opts) by (eapply opts_lemma; done).
  destruct (lock o _) as [g1 [e|]]; [injection E as <- <- <-; done|]. unfold e_tick_body in E.
  destruct (e_tick_handlers c o oo order _) as [[s2 f2] r2] eqn:Et.
  apply (e_tick_handlers_keep c o oo t n) in Et; [|lia|done].
  destruct r2 as [q errs|e|v]; [|injection E as <- <- <-; done|injection E as <- <- <-; done].
  destruct (e_loop c o oo fuel q [] s2) as [[s3 f3] r3] eqn:E3. apply (e_loop_idle c t o oo n) in E3; [|done|lia|done].
  destruct r3; injection E as <- <- <-; done.
Qed.

Lemma C108_keeps_lemma c op st st' evs r t skip :
  op_ok c op -> run_op c op st = (st', evs, r) -> not_before t op -> idle c t skip st -> idle c t skip st'.
Proof.
  intros Hop H Ht Hidle h Hh Hsk. specialize (Hidle h Hh Hsk). destruct op as [o fuel m opts|o fuel order opts| |f]; cbn in Hop, Ht; cbn [run_op] in H.
  - destruct (e_dispatch c o fuel m opts st) as [[s1 f1] r1] eqn:E. injection H as <- _ _. eapply e_dispatch_idle; eassumption.
  - destruct (e_tick c o fuel order opts st) as [[s1 f1] r1] eqn:E. injection H as <- _ _. eapply e_tick_keeps; try eassumption. apply Hop.
  - injection H as <- _ _. cbn [e_reset es_cs]. rewrite lookup_fmap. destruct (es_cs st !! h_name h) as [[]|]; cbn in *; try done.
    intros x Hx. apply elem_of_nil in Hx. done.
  - injection H as <- _ _. exact Hidle.
Qed.

Lemma run_ops_idle c t skip : forall ops st st' evs fin, Forall (op_ok c) ops -> Forall (not_before t) ops ->
  run_ops c ops st = (st', evs, fin) -> idle c t skip st -> idle c t skip st'.
Proof.
  induction ops as [|op ops IH]; intros st st' evs fin Hok Hnb; cbn [run_ops]; [intros [= <- <- <-]; done|].
  apply Forall_cons in Hok as [Ho Hok]. apply Forall_cons in Hnb as [Hb Hnb].
  destruct (run_op c op st) as [[s1 e1] r1] eqn:E. intros H Hi. apply (C108_keeps_lemma _ _ _ _ _ _ _ _ Ho E Hb) in Hi.
  destruct r1; [| |injection H as <- <- <-; done];
    (destruct (run_ops c ops s1) as [[s2 e2] f2] eqn:E2; injection H as <- <- <-; eapply IH; eassumption).
Qed.

(** ** Becoming idle *)
Lemma ctrl_tick_done h now g cs g' cs' fs envs e :
  cs_match h cs -> (forall ps, cs = CSProc ps -> chronological (pc_timeouts ps)) ->
  ctrl_tick h now g cs = (g', cs', fs, HRet envs e) -> nothing_due now (Some cs').
Proof.
  intros Hm Hc H. unfold ctrl_tick, cs_match in *.
  destruct (h_impl h), cs as [|ps| |l]; try done; try (injection H as <- <- <- <- <-; done).
  - unfold p_tick in H. rewrite p_split_spec in H by (apply Hc; done). injection H; intros; subst; clear H; cbn.
    intros x Hx. unfold later in Hx. apply elem_of_list_filter in Hx as [Hx _]. exact Hx.
  - unfold j_tick_ctrl in H. rewrite hour_interval in H. destruct (Z.leb_spec hour (now - l)).
    + destruct (j_run _ _ _ _ _) as [[g1 f1] [e1|v]]; [|done]. injection H; intros; subst; clear H; cbn.
      unfold hour. lia.
    + injection H; intros; subst; clear H; cbn. lia.
Qed.

Lemma e_tick_one_other c o oo h st st' fs r n : n <> h_name h ->
  e_tick_one c o oo h st = (st', fs, r) -> es_cs st' !! n = es_cs st !! n.
Proof.
  intros Hne H. unfold e_tick_one in H. destruct (skip_handler h oo); [injection H as <- <- <-; done|].
  destruct (es_cs st !! h_name h); [|injection H as <- <- <-; done].
  destruct (ctrl_tick _ _ _ _) as [[[g1 cs1] f1] r1]. destruct r1; injection H as <- <- <-; cbn [es_cs];
    rewrite lookup_insert_ne by done; done.
Qed.

Lemma e_tick_handlers_done c o oo : forall hs st st' fs q errs,
  NoDup (h_name <$> hs) ->
  (forall h, h ∈ hs -> exists cs, es_cs st !! h_name h = Some cs /\ cs_match h cs /\ (forall ps, cs = CSProc ps -> chronological (pc_timeouts ps))) ->
  e_tick_handlers c o oo hs st = (st', fs, TQueue q errs) ->
  (forall n, n ∉ (h_name <$> hs) -> es_cs st' !! n = es_cs st !! n) /\
  (forall h, h ∈ hs -> skip_handler h oo = None -> nothing_due (oo_now oo) (es_cs st' !! h_name h)).
Proof.
  induction hs as [|h hs IH]; intros st st' fs q errs Hnd Hst; cbn [e_tick_handlers].
  - intros [= <- <- <- <-]. split; [done|]. intros h Hh. apply elem_of_nil in Hh. done.
  - cbn in Hnd. apply NoDup_cons in Hnd as [Hnh Hnd].
    destruct (e_tick_one c o oo h st) as [[s1 f1] r1] eqn:E.
    destruct r1 as [envs e|v]; [|done].
    destruct (poll_unless_skipped o oo h s1) as [s2 ce] eqn:Ep.
    assert (Hcs : es_cs s2 = es_cs s1).
    { unfold poll_unless_skipped in Ep. destruct (skip_handler h oo); [injection Ep as <- <-; done|].
      destruct (poll_ctx o (es_g s1)); injection Ep as <- <-; done. }
    destruct ce; [done|]. destruct (e_tick_handlers c o oo hs s2) as [[s3 f3] r3] eqn:E3.
    destruct r3 as [q3 errs3| |]; intros [= <- <- <- <-].
    assert (Hoth : forall n, n <> h_name h -> es_cs s2 !! n = es_cs st !! n).
    { intros n Hn. rewrite Hcs. eapply e_tick_one_other; done. }
    apply IH in E3 as [H1 H2]; [|done|].
    + split.
      * intros n Hn. cbn in Hn. apply not_elem_of_cons in Hn as [Hn1 Hn2]. rewrite H1 by done. auto.
      * intros h' [->|Hh']%elem_of_cons Hsk; [|auto]. rewrite (H1 _ Hnh), Hcs.
        destruct (Hst h ltac:(left)) as (cs & Hl & Hm & Hc). unfold e_tick_one in E. rewrite Hsk, Hl in E.
        destruct (ctrl_tick _ _ _ _) as [[[g1 cs1] f1'] r1] eqn:Et. destruct r1; [|done]. injection E as <- <- <- <-.
        cbn [es_cs]. rewrite lookup_insert. eapply ctrl_tick_done; eassumption.
    + intros h' Hh'. rewrite Hoth; [apply Hst; right; done|]. intros He. apply Hnh. rewrite <- He.
      apply elem_of_list_fmap_1. done.
Qed.

Lemma C108_tick_lemma c st o fuel order opts st' fs r :
  performs c st (OpTick o fuel order opts) st' fs r -> uncancelled r ->
  idle c (op_time o opts) (skipped opts) st'.
Proof.
  intros (Hre & [Hs Hord] & H & Hne) (errs & -> & Hctx) h Hh Hsk. cbn [run_op] in H.
  destruct (e_tick c o fuel order opts st) as [[s1 f1] r1] eqn:E. injection H as -> _ ->. unfold e_tick in E.
  destruct (new_opts c (o_wall o) opts) as [oo|v] eqn:Eo; [|done].
  assert (Hsk' : skip_handler h oo = None) by (rewrite <- Hsk; eapply skip_lemma; done).
  assert (Hnow : oo_now oo = op_time o opts) by (eapply opts_lemma; done).
  unfold lock in E. destruct (o_lock o (g_step (es_g st))) as [le|].
  { cbn in E. injection E as <- <- <-. apply Forall_cons in Hctx as [Hx _]. destruct Hx. eexists. done. }
  cbn [fmap option_fmap option_map] in E. unfold e_tick_body in E.
  destruct (e_tick_handlers c o oo order _) as [[s2 f2] r2] eqn:Et.
  destruct r2 as [q errs2|e|v].
  - destruct (e_loop c o oo fuel q [] s2) as [[s3 f3] r3] eqn:E3.
    apply e_tick_handlers_done in Et as [_ Hd].
    + apply (e_loop_idle c (op_time o opts) o oo (h_name h)) in E3; [|done|lia|rewrite <- Hnow; apply Hd; [rewrite Hord; done|done]].
      destruct r3; [|done|done]. injection E as <- <- <-. exact E3.
    + rewrite Hord. destruct Hre as (u & ops & evs & [Hok _]). apply Hok.
    + intros h' Hh'. rewrite Hord in Hh'. cbn [es_cs es_set_g].
      destruct (reachable_stored_ok _ _ Hre h' Hh') as (cs & Hl & Hm & Hps). exists cs. split; [done|]. split; [done|].
      intros ps ->. apply Hps. done.
  - injection E as <- <- <-. exfalso. clear -Et Hctx.
    assert (Hx : exists x, e = ECtx x).
    { revert Et. set (st0 := es_set_g st _). clearbody st0. revert st0 s2 f2. induction order as [|h hs IH]; intros st0 s2 f2; cbn [e_tick_handlers]; [done|].
      destruct (e_tick_one c o oo h st0) as [[s1 f1] r1]. destruct r1 as [envs e1|v]; [|done].
      destruct (poll_unless_skipped o oo h s1) as [s4 ce] eqn:Ep. destruct ce as [e2|].
      - intros [= <- <- <-]. unfold poll_unless_skipped in Ep. destruct (skip_handler h oo); [done|].
        unfold poll_ctx in Ep. destruct (o_ctx o (g_step (es_g s1))); simplify_eq/=; eauto.
      - destruct (e_tick_handlers c o oo hs s4) as [[s5 f5] r5] eqn:E5. destruct r5; intros [= <- <- <-]. eauto. }
    destruct Hx as [x ->]. apply Forall_cons in Hctx as [Hx _]. destruct Hx. eexists. done.
  - done.
Qed.

Lemma C108_twice_lemma c st o fuel order opts st1 fs1 r1 ops st2 evs o' fuel' order' opts' st3 fs3 r3 :
  performs c st (OpTick o fuel order opts) st1 fs1 r1 -> uncancelled r1 ->
  run_ops c ops st1 = (st2, evs, true) -> Forall (op_ok c) ops -> Forall (not_before (op_time o opts)) ops ->
  performs c st2 (OpTick o' fuel' order' opts') st3 fs3 r3 ->
  (op_time o' opts' <= op_time o opts)%Z -> (forall h, h ∈ c_app c -> skipped opts' h = None -> skipped opts h = None) ->
  unchanged st2 st3 /\ dispatched fs3 = [] /\
  (r3 = Ok [] /\ (exists et eh, fs3 = TickCycleBegun (op_time o' opts') et eh :: uneventful (skipped opts') order' ++ [TickCycleCompleted [] et eh]) \/
   exists x, r3 = Ok [ECtx x]).
Proof.
  intros H1 Hu Hrun Hok Hnb H2 Ht Hsk. pose proof (C108_tick_lemma _ _ _ _ _ _ _ _ _ H1 Hu) as Hi.
  apply (run_ops_idle _ _ _ _ _ _ _ _ Hok Hnb Hrun) in Hi.
  apply (C108_idle_lemma _ _ _ _ _ _ _ _ _ H2). intros h Hh Hs. specialize (Hi h Hh (Hsk h Hh Hs)). unfold nothing_due in *.
  destruct (es_cs st2 !! h_name h) as [[]|]; [done| |done| |done].
  - intros t Hin. specialize (Hi t Hin). lia.
  - lia.
Qed.
End IdleProof.
