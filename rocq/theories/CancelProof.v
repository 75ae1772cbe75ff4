(** * Cancellation only cuts an operation short. *)
From Verif Require Import OpSpec OpProof OpFacts.

Section CancelProof.
Context {P : Params}.
Implicit Types (c : Config) (o : Oracle) (h : Handler) (st : EState).

(** The same environment, but the context is cancelled as [f] says. *)
Definition with_ctx (f : nat -> option string) o : Oracle :=
  mkOracle f (o_lock o) (o_skew o) (o_sched o) (o_sort o) (o_wall o).

Section Ext.
Context (f : nat -> option string) (o : Oracle).
Notation o' := (with_ctx f o).

Lemma a_handle_ctx h a now env g hist : a_handle o' h a now env g hist = a_handle o h a now env g hist.
Proof. reflexivity. Qed.
Lemma i_handle_ctx h i now env g : i_handle o' h i now env g = i_handle o h i now env g.
Proof. reflexivity. Qed.
Lemma p_handle_ctx h pi now env g ps : p_handle o' h pi now env g ps = p_handle o h pi now env g ps.
Proof. reflexivity. Qed.
Lemma j_par_ctx hid ev {A B} (m : JProg A) : forall (cp : JProg B) g, j_par o' hid ev m cp g = j_par o hid ev m cp g.
Proof.
  induction m as [a|v|f0 k IHm|s k IHm]; intros cp; [destruct cp; done|..];
    induction cp as [b|v'|f1 k' IHc|s' k' IHc]; intros g; try reflexivity;
    cbn; (destruct (o_sched o (g_step g)); try reflexivity); try (apply IHm); try (rewrite IHm; done);
    try (apply IHc); specialize (IHc (j_tick g)); cbn in IHc; rewrite IHc; done.
Qed.
Lemma j_handle_ctx cd h j now env g : j_handle o' cd h j now env g = j_handle o cd h j now env g.
Proof.
  unfold j_handle, j_handle_threads. destruct (negb _); [done|]. destruct (pj_version _ _ _) as [u [[cur [e|]]|v]]; try done.
  destruct (decide _); [|done]. unfold j_apply. destruct cd; [|done]. rewrite j_par_ctx. done.
Qed.
Lemma ctrl_handle_ctx c h now env g cs : ctrl_handle c o' h now env g cs = ctrl_handle c o h now env g cs.
Proof. unfold ctrl_handle. destruct (h_impl h), cs; try done. rewrite j_handle_ctx. done. Qed.
Lemma e_handle_ctx c oo env oh st : e_handle c o' oo env oh st = e_handle c o oo env oh st.
Proof.
  unfold e_handle. destruct oh as [h|]; [|done]. destruct (skip_handler h oo); [done|].
  destruct (es_cs st !! _); [|done]. rewrite ctrl_handle_ctx. done.
Qed.
Lemma e_handlers_ctx c oo env hs : forall st, e_handlers c o' oo env hs st = e_handlers c o oo env hs st.
Proof.
  induction hs as [|oh hs IH]; intros st; cbn [e_handlers]; [done|]. rewrite e_handle_ctx.
  destruct (e_handle c o oo env oh st) as [[st1 fs1] r1]. destruct r1; [|done]. rewrite IH. done.
Qed.
Lemma e_message_ctx c oo env st : e_message c o' oo env st = e_message c o oo env st.
Proof. unfold e_message. destruct (targets c env); [|done]. rewrite e_handlers_ctx. done. Qed.
End Ext.

(** How an operation with a cancellable context ends, compared to the same operation
    with a context that is never cancelled. *)
Notation calm := (with_ctx (fun _ => None)).

Lemma e_loop_cancel c o oo fuel : forall q err st st' fs r st0 fs0 r0,
  e_loop c o oo fuel q err st = (st', fs, r) -> e_loop c (calm o) oo fuel q err st = (st0, fs0, r0) ->
  (st', fs, r) = (st0, fs0, r0) \/ exists x rest, r = Ok [ECtx x] /\ fs0 = fs ++ rest.
Proof.
  induction fuel as [|fuel IH]; intros q err st st' fs r st0 fs0 r0; destruct q as [|env q]; cbn [e_loop];
    [intros [= <- <- <-] [= <- <- <-]; left; done..|].
  rewrite e_message_ctx. destruct (e_message c o oo env st) as [[st1 fs1] r1].
  destruct r1 as [[envs derr]|v]; [|intros [= <- <- <-] [= <- <- <-]; left; done].
  unfold poll_ctx. cbn [with_ctx o_ctx fmap option_fmap option_map].
  destruct (o_ctx o (g_step (es_g st1))) as [x|]; cbn [fmap option_fmap option_map].
  - intros [= <- <- <-].
    destruct (e_loop c (calm o) oo fuel _ _ _) as [[st2 fs2] r2]. intros [= <- <- <-]. right. eauto.
  - destruct (e_loop c o oo fuel _ _ _) as [[st2 fs2] r2] eqn:E1.
    destruct (e_loop c (calm o) oo fuel _ _ _) as [[st3 fs3] r3] eqn:E2.
    intros [= <- <- <-] [= <- <- <-].
    destruct (IH _ _ _ _ _ _ _ _ _ E1 E2) as [[= -> -> ->]|(x & rest & -> & ->)]; [left; done|].
    right. exists x, rest. rewrite app_assoc. done.
Qed.

Lemma e_tick_handlers_cancel c o oo hs : forall st st' fs r st0 fs0 r0,
  e_tick_handlers c o oo hs st = (st', fs, r) -> e_tick_handlers c (calm o) oo hs st = (st0, fs0, r0) ->
  (st', fs, r) = (st0, fs0, r0) \/ exists x rest, r = TCancel (ECtx x) /\ fs0 = fs ++ rest.
Proof.
  induction hs as [|h hs IH]; intros st st' fs r st0 fs0 r0; cbn [e_tick_handlers];
    [intros [= <- <- <-] [= <- <- <-]; left; done|].
  change (e_tick_one c (calm o) oo h st) with (e_tick_one c o oo h st).
  destruct (e_tick_one c o oo h st) as [[st1 fs1] r1].
  destruct r1 as [envs e|v]; [|intros [= <- <- <-] [= <- <- <-]; left; done].
  assert (Hrec : forall st2, 
    (let '(st, fs', res) := e_tick_handlers c o oo hs st2 in
        (st, fs1 ++ fs', match res with TQueue q errs => TQueue (envs ++ q) (wrap (Some h) e ++ errs) | _ => res end)) = (st', fs, r) ->
    (let '(st, fs', res) := e_tick_handlers c (calm o) oo hs st2 in
        (st, fs1 ++ fs', match res with TQueue q errs => TQueue (envs ++ q) (wrap (Some h) e ++ errs) | _ => res end)) = (st0, fs0, r0) ->
    (st', fs, r) = (st0, fs0, r0) \/ exists x rest, r = TCancel (ECtx x) /\ fs0 = fs ++ rest).
  { intros st2. destruct (e_tick_handlers c o oo hs st2) as [[st3 fs3] r3] eqn:E1.
    destruct (e_tick_handlers c (calm o) oo hs st2) as [[st4 fs4] r4] eqn:E2.
    intros [= <- <- <-] [= <- <- <-].
    destruct (IH _ _ _ _ _ _ _ E1 E2) as [[= -> -> ->]|(x & rest & -> & ->)]; [left; done|].
    right. exists x, rest. rewrite app_assoc. done. }
  unfold poll_unless_skipped. destruct (skip_handler h oo); [apply Hrec|].
  unfold poll_ctx. cbn [with_ctx o_ctx fmap option_fmap option_map].
  destruct (o_ctx o (g_step (es_g st1))) as [x|]; cbn [fmap option_fmap option_map]; [|apply Hrec].
  intros [= <- <- <-].
  destruct (e_tick_handlers c (calm o) oo hs _) as [[st2 fs2] r2]. intros [= <- <- <-]. right. eauto.
Qed.

Definition completed (f : Fact) : Prop :=
  match f with DispatchCycleCompleted _ _ _ _ | TickCycleCompleted _ _ _ => True | _ => False end.
Definition op_calm (op : Op) : Op :=
  match op with
  | OpDispatch o fuel m opts => OpDispatch (calm o) fuel m opts
  | OpTick o fuel order opts => OpTick (calm o) fuel order opts
  | _ => op
  end.

Lemma C35_truncation_lemma c op st st' fs r st0 fs0 r0 :
  run_op c op st = (st', EvFact <$> fs, r) -> run_op c (op_calm op) st = (st0, EvFact <$> fs0, r0) ->
  (st', fs, r) = (st0, fs0, r0) \/
  exists x errs body fin rest, r = Ok (errs ++ [ECtx x]) /\ fs = body ++ [fin] /\ completed fin /\ fs0 = body ++ rest.
Proof.
  destruct op as [o fuel m opts|o fuel order opts| |f]; cbn [run_op op_calm].
  - destruct (e_dispatch c o fuel m opts st) as [[st1 fs1] r1] eqn:E1.
    destruct (e_dispatch c (calm o) fuel m opts st) as [[st2 fs2] r2] eqn:E2.
    intros [= <- Hfs <-] [= <- Hfs0 <-]. apply fmap_EvFact_inj in Hfs, Hfs0. subst fs fs0.
    unfold e_dispatch in *. change (next_id (calm o) (es_g st)) with (next_id o (es_g st)) in E2.
    destruct (next_id o (es_g st)) as [g id]. cbn [with_ctx o_wall] in E2.
    destruct (new_opts c (o_wall o) opts) as [oo|v]; [|left; congruence].
    destruct (m_kind m); [| |left; congruence].
    all: destruct (m_invalid m); [left; congruence|].
    all: destruct (routes c !! m_type m); [|left; congruence].
    all: change (lock (calm o)) with (lock o) in E2.
    all: destruct (lock o _) as [g1 [le|]]; [left; congruence|].
    all: destruct (e_loop c o oo fuel _ _ _) as [[st3 fs3] r3] eqn:L1.
    all: destruct (e_loop c (calm o) oo fuel _ _ _) as [[st4 fs4] r4] eqn:L2.
    all: destruct (e_loop_cancel _ _ _ _ _ _ _ _ _ _ _ _ _ L1 L2) as [[= -> -> ->]|(x & rest & -> & ->)]; [left; congruence|right].
    all: injection E1 as <- <- <-; exists x, [];
      eexists (_ :: fs3), _; destruct r4; injection E2 as <- <- <-; eexists; (split; [done|]); (split; [done|]); (split; [done|]);
      cbn; rewrite <- ?app_assoc; done.
  - destruct (e_tick c o fuel order opts st) as [[st1 fs1] r1] eqn:E1.
    destruct (e_tick c (calm o) fuel order opts st) as [[st2 fs2] r2] eqn:E2.
    intros [= <- Hfs <-] [= <- Hfs0 <-]. apply fmap_EvFact_inj in Hfs, Hfs0. subst fs fs0.
    unfold e_tick in *. cbn [with_ctx o_wall] in E2.
    destruct (new_opts c (o_wall o) opts) as [oo|v]; [|left; congruence].
    change (lock (calm o)) with (lock o) in E2.
    destruct (lock o _) as [g1 [le|]]; [left; congruence|]. unfold e_tick_body in *.
    destruct (e_tick_handlers c o oo order _) as [[st3 fs3] r3] eqn:T1.
    destruct (e_tick_handlers c (calm o) oo order _) as [[st4 fs4] r4] eqn:T2.
    destruct (e_tick_handlers_cancel _ _ _ _ _ _ _ _ _ _ _ T1 T2) as [[= -> -> ->]|(x & rest & -> & ->)].
    + destruct r4 as [q errs|e|v]; [|left; congruence|left; congruence].
      destruct (e_loop c o oo fuel _ _ _) as [[st5 fs5] r5] eqn:L1.
      destruct (e_loop c (calm o) oo fuel _ _ _) as [[st6 fs6] r6] eqn:L2.
      destruct (e_loop_cancel _ _ _ _ _ _ _ _ _ _ _ _ _ L1 L2) as [[= -> -> ->]|(x & rest & -> & ->)]; [left; congruence|right].
      injection E1 as <- <- <-. exists x, errs. eexists (_ :: fs4 ++ fs5), _.
      destruct r6; injection E2 as <- <- <-; eexists; (split; [done|]); (split; [cbn; done|]); (split; [done|]);
        cbn; rewrite <- ?app_assoc; done.
    + right. injection E1 as <- <- <-. exists x, []. eexists (_ :: fs3), _.
      destruct r4 as [q errs|e|v].
      * destruct (e_loop c (calm o) oo fuel _ _ _) as [[st6 fs6] r6] eqn:L2.
        destruct r6; injection E2 as <- <- <-; eexists; (split; [done|]); (split; [done|]); (split; [done|]);
        cbn; rewrite <- ?app_assoc; done.
      * injection E2 as <- <- <-. eexists; (split; [done|]); (split; [done|]); (split; [done|]); cbn; rewrite <- ?app_assoc; done.
      * injection E2 as <- <- <-. eexists; (split; [done|]); (split; [done|]); (split; [done|]); cbn; rewrite <- ?app_assoc; done.
  - intros [= <- Hfs <-] [= <- Hfs0 <-]. rewrite Hfs in Hfs0. apply fmap_EvFact_inj in Hfs0 as ->. left. done.
  - intros [= <- Hfs <-] [= <- Hfs0 <-]. rewrite Hfs in Hfs0. apply fmap_EvFact_inj in Hfs0 as ->. left. done.
Qed.

(** The context is cancelled from the start, or never. *)
Lemma e_loop_cancelled c o oo fuel q err st st' fs r x :
  app_ok c -> Forall (returnable c) q ->
  (forall n, o_ctx o n = Some x) -> e_loop c o oo fuel q err st = (st', fs, r) ->
  length (dispatched fs) <= 1 /\ (q <> [] -> uncancelled r -> False).
Proof.
  intros Hok Hq Hx. destruct q as [|env q]; destruct fuel as [|fuel]; cbn [e_loop];
    try (intros [= <- <- <-]; cbn; split; [lia|]; try done; intros _ (l & Hl & _); discriminate Hl).
  apply Forall_cons in Hq as [Henv Hq].
  destruct (e_message c o oo env st) as [[st1 fs1] r1] eqn:E.
  apply e_message_spec in E as (hs & Hrec & E); [|done|done].
  destruct r1 as [[envs derr]|v].
  - unfold poll_ctx. rewrite Hx. cbn [fmap option_fmap option_map]. intros [= <- <- <-].
    destruct E as (body & -> & Ho & _). apply offers_reads in Ho as [Ho _].
    rewrite dispatched_cons, dispatched_app, Ho. cbn. split; [lia|].
    intros _ (l & [= <-] & Hl). apply Forall_cons in Hl as [Hl _]. apply Hl. exists x. done.
  - intros [= <- <- <-]. destruct E as (body & -> & Ho). apply offers_panic_reads in Ho as [Ho _].
    rewrite dispatched_cons, Ho. cbn. split; [lia|]. intros _ (l & Hl & _). discriminate Hl.
Qed.

Lemma e_loop_never c o oo fuel : forall q err st st' fs errs,
  (forall n, o_ctx o n = None) -> app_ok c -> Forall (returnable c) q -> Forall (fun e => ~ is_ctx e) err ->
  e_loop c o oo fuel q err st = (st', fs, Ok errs) -> Forall (fun e => ~ is_ctx e) errs.
Proof.
  induction fuel as [|fuel IH]; intros q err st st' fs errs Hn Hok Hq Herr; destruct q as [|env q]; cbn [e_loop];
    try (intros [= <- <- <-]; done).
  apply Forall_cons in Hq as [Henv Hq].
  destruct (e_message c o oo env st) as [[st1 fs1] r1] eqn:E.
  apply e_message_spec in E as (hs & Hrec & E); [|done|done].
  destruct r1 as [[envs derr]|v]; [|done]. unfold poll_ctx. rewrite Hn. cbn [fmap option_fmap option_map].
  destruct E as (body & -> & Ho & Hret).
  destruct (e_loop c o oo fuel _ _ _) as [[st2 fs2] r2] eqn:E2. intros [= <- <- ->].
  eapply IH; [done|done| | |exact E2]; apply Forall_app; (split; [done|]); [done|eapply offers_not_ctx; exact Ho].
Qed.

Lemma e_tick_handlers_never c o oo hs : forall st st' fs r,
  (forall n, o_ctx o n = None) -> e_tick_handlers c o oo hs st = (st', fs, r) ->
  match r with TCancel _ => False | TQueue _ errs => Forall (fun e => ~ is_ctx e) errs | TPan _ => True end.
Proof.
  induction hs as [|h hs IH]; intros st st' fs r Hn; cbn [e_tick_handlers].
  - intros [= <- <- <-]. constructor.
  - destruct (e_tick_one c o oo h st) as [[st1 fs1] r1]. destruct r1 as [envs e|v]; [|intros [= <- <- <-]; done].
    unfold poll_unless_skipped, poll_ctx. rewrite Hn. cbn [fmap option_fmap option_map].
    assert (Hrec : forall st2, 
      (let '(st, fs', res) := e_tick_handlers c o oo hs st2 in
        (st, fs1 ++ fs', match res with TQueue q errs => TQueue (envs ++ q) (wrap (Some h) e ++ errs) | _ => res end)) = (st', fs, r) ->
        match r with TCancel _ => False | TQueue _ errs => Forall (fun e => ~ is_ctx e) errs | TPan _ => True end).
    { intros st2. destruct (e_tick_handlers c o oo hs st2) as [[st3 fs3] r3] eqn:E. intros [= <- <- <-].
      apply IH in E; [|done]. destruct r3; try done. apply Forall_app. split; [|done].
      destruct e; cbn; repeat constructor. intros [x [=]]. }
    destruct (skip_handler h oo); apply Hrec.
Qed.

Definition op_oracle (op : Op) : option Oracle :=
  match op with OpDispatch o _ _ _ | OpTick o _ _ _ => Some o | _ => None end.

Lemma C35_never_lemma c st op st' fs errs o :
  performs c st op st' fs (Ok errs) -> op_oracle op = Some o ->
  (forall n, o_ctx o n = None) -> (forall n, o_lock o n = None) -> Forall (fun e => ~ is_ctx e) errs.
Proof.
  intros (Hr & Hop & Hrun & Hne) Ho Hn Hl. pose proof (reachable_ok _ _ Hr) as Hok.
  assert (Hlock : forall g, exists g', lock o g = (g', None)) by (intros g; unfold lock; rewrite Hl; eexists; done).
  destruct op as [o' fuel m opts|o' fuel order opts| |f]; cbn [run_op op_oracle] in *; try discriminate Ho; injection Ho as ->.
  - destruct (e_dispatch c o fuel m opts st) as [[st1 fs1] r1] eqn:E. injection Hrun as <- _ ->.
    unfold e_dispatch in E. destruct (next_id o (es_g st)) as [g id].
    destruct (new_opts c (o_wall o) opts) as [oo|v]; [|discriminate E].
    destruct (m_kind m) eqn:Ek; [| |discriminate E].
    all: destruct (m_invalid m); [discriminate E|].
    all: destruct (routes c !! m_type m); [|discriminate E].
    all: cbn zeta in E; destruct (Hlock (es_g (es_set_g st g))) as [g' Hg]; rewrite Hg in E.
    all: destruct (e_loop c o oo fuel _ _ _) as [[st3 fs3] r3] eqn:L.
    all: destruct r3; [|discriminate E|discriminate E]; injection E as <- _ ->.
    all: eapply e_loop_never; [done|done| |constructor|exact L]; constructor; [intros Hk; cbn in Hk; congruence|constructor].
  - destruct (e_tick c o fuel order opts st) as [[st1 fs1] r1] eqn:E. injection Hrun as <- _ ->.
    unfold e_tick in E. destruct (new_opts c (o_wall o) opts) as [oo|v]; [|discriminate E].
    destruct (Hlock (es_g st)) as [g' Hg]. rewrite Hg in E. unfold e_tick_body in E.
    destruct (e_tick_handlers c o oo order _) as [[st3 fs3] r3] eqn:T.
    pose proof (e_tick_handlers_never _ _ _ _ _ _ _ _ Hn T) as HT.
    assert (Hnd : NoDup (h_name <$> order)) by (destruct Hop as [_ ->]; apply Hok).
    assert (Happ : forall h, h ∈ order -> h ∈ c_app c) by (intros h; destruct Hop as [_ ->]; done).
    apply (e_tick_handlers_spec c o oo order st) in T; [|apply reachable_stored_ok; done|done|done|done].
    destruct r3 as [q errs3|e|v]; [|done|discriminate E]. destruct T as [_ ->].
    destruct (e_loop c o oo fuel _ _ _) as [[st4 fs4] r4] eqn:L.
    destruct r4; [|discriminate E|discriminate E]; injection E as <- _ <-.
    apply Forall_app. split; [done|]. eapply e_loop_never; [done|done| |constructor|exact L].
    apply batch_returnable; [apply reachable_stored_ok; done|done].
Qed.

Lemma C35_always_lemma c st op st' fs r o x :
  performs c st op st' fs r -> op_oracle op = Some o ->
  (forall n, o_ctx o n = Some x) -> length (dispatched fs) <= 1.
Proof.
  intros (Hr & Hop & Hrun & Hne) Ho Hn. pose proof (reachable_ok _ _ Hr) as Hok.
  destruct op as [o' fuel m opts|o' fuel order opts| |f]; cbn [run_op op_oracle] in *; try discriminate Ho; injection Ho as ->.
  - destruct (e_dispatch c o fuel m opts st) as [[st1 fs1] r1] eqn:E. injection Hrun as <- Hfs ->.
    apply fmap_EvFact_inj in Hfs as ->.
    unfold e_dispatch in E. destruct (next_id o (es_g st)) as [g id].
    destruct (new_opts c (o_wall o) opts) as [oo|v]; [|injection E as <- <- <-; cbn; lia].
    destruct (m_kind m) eqn:Ek; [| |injection E as <- <- <-; cbn; lia].
    all: destruct (m_invalid m); [injection E as <- <- <-; cbn; lia|].
    all: destruct (routes c !! m_type m); [|injection E as <- <- <-; cbn; lia].
    all: cbn zeta in E; destruct (lock o _) as [g' [le|]]; [injection E as <- <- <-; cbn; lia|].
    all: destruct (e_loop c o oo fuel _ _ _) as [[st3 fs3] r3] eqn:L.
    all: eapply e_loop_cancelled in L as [L _]; [|done|constructor; [intros Hk; cbn in Hk; congruence|constructor]|exact Hn].
    all: destruct r3; injection E as <- <- <-; rewrite dispatched_cons, ?dispatched_app, ?app_nil_r; cbn; rewrite ?app_nil_r; done.
  - destruct (e_tick c o fuel order opts st) as [[st1 fs1] r1] eqn:E. injection Hrun as <- Hfs ->.
    apply fmap_EvFact_inj in Hfs as ->.
    unfold e_tick in E. destruct (new_opts c (o_wall o) opts) as [oo|v]; [|injection E as <- <- <-; cbn; lia].
    destruct (lock o _) as [g' [le|]]; [injection E as <- <- <-; cbn; lia|]. unfold e_tick_body in E.
    destruct (e_tick_handlers c o oo order _) as [[st3 fs3] r3] eqn:T.
    assert (Hnd : NoDup (h_name <$> order)) by (destruct Hop as [_ ->]; apply Hok).
    assert (Happ : forall h, h ∈ order -> h ∈ c_app c) by (intros h; destruct Hop as [_ ->]; done).
    apply (e_tick_handlers_spec c o oo order st) in T; [|apply reachable_stored_ok; done|done|done|done].
    destruct r3 as [q errs3|e|v].
    + destruct T as [HT ->]. destruct (e_loop c o oo fuel _ _ _) as [[st4 fs4] r4] eqn:L.
      eapply e_loop_cancelled in L as [L _]; [|done|apply batch_returnable; [apply reachable_stored_ok; done|done]|exact Hn].
      apply (ticks_reads 0) in HT as [HT _].
      destruct r4; injection E as <- <- <-; rewrite dispatched_cons, ?dispatched_app, HT; cbn; rewrite ?app_nil_r; done.
    + destruct T as (x' & errs & -> & HT). apply (ticks_reads 0) in HT as [HT _]. injection E as <- <- <-.
      rewrite dispatched_cons, dispatched_app, HT. cbn. lia.
    + destruct T as (errs & HT). apply (ticks_reads 0) in HT as [HT _]. injection E as <- <- <-.
      rewrite dispatched_cons, HT. cbn. lia.
Qed.
End CancelProof.
