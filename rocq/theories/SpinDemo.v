(** * An application on which Dispatch never returns. *)
From Verif Require Export EngDemo.

(** A process whose only timeout schedules itself again for the same time. *)
Definition spinner : ProcImpl := {|
  pr_route m u := (u, inl ("i", true, None));
  pr_new := Some [];
  pr_event _ t m := PSchedule (body "Again" 0) t (fun _ => PRet None);
  pr_timeout _ t m := PSchedule (body "Again" 0) t (fun _ => PRet None) |}.
Definition hSpin := mkHandler "spin" (ImplProc spinner) [(KEvent, "Start"); (KTimeout, "Again")] [(KTimeout, "Again")] false.
Definition spin : Config := mkConfig [hSpin] false [].
Lemma spin_ok : app_ok spin.
Proof. solve_app_ok. Qed.

Definition spin_opts : OOs := mkOOs 100 [] (mkETypes true true true true) ∅.

(** The queue holds one due timeout of the live instance. *)
Definition spinning (env : Env) (st : EState) : Prop :=
  e_msg env = mkMsg KTimeout (body "Again" 0) /\
  e_origin env = Some (mkOrigin (h_id hSpin) HTProcess "i") /\ (e_sched env <= 100)%Z /\
  exists ps r, es_cs st !! "spin" = Some (CSProc ps) /\ pc_instances ps !! "i" = Some r.

Lemma spin_step env st :
  spinning env st ->
  exists env' st' fs derr, e_message spin quietly spin_opts env st = (st', fs, inl ([env'], derr)) /\
    spinning env' st' /\ dispatched fs = [env].
Proof.
  intros (Hm & Ho & Hs & ps & r & Hcs & Hi). unfold e_message, targets. rewrite Hm, Ho. cbn [m_kind].
  change (controllers spin !! hid_name (o_handler (mkOrigin (h_id hSpin) HTProcess "i"))) with (Some hSpin).
  cbn [e_handlers]. unfold e_handle.
  change (skip_handler hSpin spin_opts) with (@None SkipReason). cbn iota beta.
  change (h_name hSpin) with "spin". rewrite Hcs. unfold ctrl_handle. cbn [h_impl hSpin].
  unfold p_handle. rewrite Hm. change (consumes _ _) with true. cbn [negb].
  unfold p_route. rewrite Hm, Ho. cbn [m_kind o_instance]. rewrite Hi. cbn beta iota. rewrite Hi.
  unfold p_handle_instance. rewrite Hm. cbn [m_kind pr_timeout spinner p_run].
  unfold p_schedule.
  assert (Hc : forall m, p_check hSpin env m (mkMsg KTimeout (body "Again" 0)) = None) by done. rewrite Hc.
  cbn -[next_id].
  destruct (next_id quietly (es_g st)) as [g id]. 
  destruct (Z.ltb_spec 100 (e_sched env)) as [?|_]; [lia|]. cbn.
  eexists _, _, _, _. split; [reflexivity|]. split; [|done].
  split; [done|]. split; [done|]. split; [done|]. cbn. rewrite lookup_insert.
  eexists _, _. split; [reflexivity|]. cbn. apply lookup_insert.
Qed.

Lemma spin_loop fuel env err st :
  spinning env st ->
  exists st' fs, e_loop spin quietly spin_opts fuel [env] err st = (st', fs, Fuel) /\ length (dispatched fs) = fuel.
Proof.
  revert env err st; induction fuel as [|fuel IH]; intros env err st Hsp; cbn [e_loop]; [eexists _, _; done|].
  destruct (spin_step _ _ Hsp) as (env' & st' & fs & derr & -> & Hsp' & Hd). cbn [poll_ctx quietly o_ctx].
  destruct (IH env' (err ++ derr) (es_set_g st' (mkG (g_next (es_g st')) (g_user (es_g st')) (S (g_step (es_g st')))))) as (st2 & fs2 & E & Hl); [done|].
  unfold poll_ctx. cbn [o_ctx quietly fmap option_fmap option_map]. cbn [app]. rewrite E. eexists _, _. split; [reflexivity|].
  unfold dispatched in *. rewrite omap_app, app_length, Hd, Hl. done.
Qed.

Lemma spin_forever n :
  exists st fs, run_op spin (OpDispatch quietly n (event "Start" 0) [OptNow 100]) (e_init spin []) = (st, EvFact <$> fs, Fuel) /\
    length (dispatched fs) = n.
Proof.
  cbn [run_op]. unfold e_dispatch.
  assert (Hn : new_opts spin (o_wall quietly) [OptNow 100] = inl spin_opts) by done.
  destruct (next_id quietly (es_g (e_init spin []))) as [g id] eqn:En. rewrite Hn. cbn [m_kind event].
  change (m_invalid (event "Start" 0)) with (@None string). cbn iota.
  assert (Hr : exists hs, routes spin !! m_type (event "Start" 0) = Some hs) by (vm_compute; eauto).
  destruct Hr as [hs ->]. unfold lock. cbn [o_lock quietly fmap option_fmap option_map].
  set (env := new_root id _ _). set (st0 := es_set_g _ _).
  destruct n as [|n]; cbn [e_loop]; [eexists _, [_]; split; reflexivity|].
  assert (H : exists env' st' fs derr, e_message spin quietly spin_opts env st0 = (st', fs, inl ([env'], derr)) /\
    spinning env' st' /\ dispatched fs = [env]).
  { vm_compute in En. injection En as <- <-. vm_compute. eexists _, _, _, _. split; [reflexivity|].
    split; [|reflexivity]. split; [reflexivity|]. split; [reflexivity|]. split; [discriminate|].
    eexists _, _. split; reflexivity. }
  destruct H as (env' & st' & fs & derr & -> & Hsp & Hd).
  unfold poll_ctx. cbn [o_ctx quietly fmap option_fmap option_map app].
  edestruct (spin_loop n env' derr) as (st2 & fs2 & E & Hl); [|rewrite E].
  { destruct Hsp as (H1 & H2 & H3 & H4). do 3 (split; [done|]). exact H4. }
  eexists _, (_ :: _ ++ _). split; [reflexivity|]. cbn. unfold dispatched in *.
  rewrite omap_app, app_length, Hd, Hl. done.
Qed.
