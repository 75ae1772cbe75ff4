(** * The built-in actions are user-defined actions. *)
From Verif Require Export ActSpec.
From Verif Require Import TestScan.

Section Refine.
Context {P : Params}.
Context (E : TEnv) (c : Config) (cap : Action -> string).

Lemma erase_app l l' : erase (l ++ l') = erase l ++ erase l'.
Proof. apply omap_app. Qed.
Lemma erase_cons ev l : erase (ev :: l) = match erase_one ev with Some e => e :: erase l | None => erase l end.
Proof. done. Qed.
Lemma erase_nil : erase [] = [].
Proof. done. Qed.
Ltac er := repeat (rewrite ?erase_app, ?erase_cons, ?erase_nil, ?app_nil_r; cbn [erase_one app]).
Lemma erase_lift l : erase (VT <$> l) = l.
Proof. induction l; cbn; [done|]. by f_equal. Qed.
Lemma observed_app n l l' : observed n (l ++ l') = observed n l ++ observed n l'.
Proof. unfold observed. by rewrite map_app, concat_app. Qed.
Lemma u_observed_erase n l : u_observed n l = observed n (erase l).
Proof.
  unfold u_observed. induction l as [|ev l IH]; [done|].
  destruct ev as [ev|[k|] o|[k|]|s e|o| |o| |i]; cbn; try exact IH; unfold observed in *; cbn; by rewrite IH.
Qed.

Lemma run_bind opts k st : run_u E c (UBind opts k) st = tell (VBind opts) (run_u E c k (set_bound (Some opts) st)).
Proof. done. Qed.
Lemma run_intercept i k st : run_u E c (UIntercept i k) st = tell (VIntercept i) (run_u E c (k (ts_icpt st)) (set_icpt i st)).
Proof. done. Qed.
Lemma run_try p q k st : run_u E c (UTry p q k) st = x_then (deferring (run_u E c p) (run_u E c q) st) (fun x => run_u E c (k x)).
Proof. done. Qed.

Lemma do_u_eq k s f do opts st : do_u E c (mkUA k s f do) opts st =
  let '(st, evs, r) := run_u E c (do opts) st in (st, VDo k opts :: evs ++ match r with AHalt => [] | _ => [VDid k] end, r).
Proof. done. Qed.
Lemma u_call fn i : u_action c cap (ActCall fn i) =
    mkUA (Some AkCall) (inl (cap (ActCall fn i))) (fun o => inl (mkPO (po_compare o) true)) (fun opts =>
      UBind opts (UTry
        match i with
        | None => u_test c cap fn
        | Some _ => UIntercept i (fun prev => UTry (u_test c cap fn) (UIntercept prev (fun _ => UDone None)) u_return)
        end
        (UUnbind (UDone None)) u_return)).
Proof. done. Qed.

Lemma execute_no_goexit b st st' evs : execute_command E c b st <> (st', evs, AGoexit).
Proof.
  assert (G : forall mk s s' l, engine_op E c mk s <> (s', l, AGoexit)).
  { intros mk s s' l. unfold engine_op. destruct (run_op _ _ _) as [[e' evs'] r']. destruct r' as [[|]|[]|]; discriminate. }
  assert (I : forall p opts s s' l, run_icpt E c opts p s <> (s', l, AGoexit)).
  { induction p as [[e|]|v|f k IH|b' k IH]; intros opts s s' l; cbn [run_icpt]; try discriminate.
    - destruct (run_icpt _ _ _ _ _) as [[s1 e1] r1] eqn:Er. intros [= -> _ ->]. by apply IH in Er.
    - destruct (engine_execute _ _ _ _ _) as [[s1 e1] r1] eqn:Ee. destruct (x_res r1) as [x|] eqn:Ex.
      + destruct (run_icpt _ _ _ _ _) as [[s2 e2] r2] eqn:Er. intros [= -> _ ->]. by apply IH in Er.
      + intros [= -> _ ->]. by apply G in Ee. }
  unfold execute_command. destruct (ts_bound st) as [opts|]; [|discriminate].
  destruct (ts_icpt st) as [i|].
  - destruct (run_icpt _ _ _ _ _) as [[s1 e1] r1] eqn:Er. intros [= -> _ ->]. by apply I in Er.
  - destruct (engine_execute _ _ _ _ _) as [[s1 e1] r1] eqn:Er. intros [= -> _ ->]. by apply G in Er.
Qed.

Definition plain_end (r : AOut) : Prop := match r with AErr _ => False | _ => True end.

Definition code_refines (p : TProg) : Prop := forall st st' evs r,
  run_u E c (u_test c cap p) st = (st', evs, r) ->
  plain_end r /\ run_test E c p st = (st', erase evs, t_out r).
Definition action_refines (a : Action) : Prop := forall opts st st' evs r,
  do_u E c (u_action c cap a) opts st = (st', evs, r) ->
  do_action E c a opts st = (st', erase evs, r).

Lemma prepare_refines a st st' evs r : action_refines a ->
  u_prepare E (u_action c cap a) (do_u E c (u_action c cap a)) st = (st', evs, r) ->
  plain_end r /\ prepare E (do_action E c a) st = (st', erase evs, t_out r).
Proof.
  intros Ha. unfold u_prepare, prepare.
  assert (ua_caption (u_action c cap a) = inl (cap a)) as -> by (destruct a; done).
  destruct (do_u _ _ _ _ _) as [[st1 evs1] r1] eqn:Ed. rewrite (Ha _ _ _ _ _ Ed). cbn [tell].
  destruct r1; cbn -[erase]; intros [= <- <- <-]; try done. er.
  unfold u_stop, stop. by destruct (te_stops E).
Qed.

Lemma expect_refines a e st st' evs r : action_refines a ->
  u_expect E c (u_action c cap a) (do_u E c (u_action c cap a)) e st = (st', evs, r) ->
  plain_end r /\ expect E c (a_kind a) (do_action E c a) e st = (st', erase evs, t_out r).
Proof.
  intros Ha. unfold u_expect, expect.
  assert (ua_caption (u_action c cap a) = inl (cap a)) as -> by (destruct a; done).
  set (o := mkPO _ _).
  assert (exists o', ua_conf (u_action c cap a) o = inl o' /\
    mkScope (app_types c) (default (te_compare E) (po_compare o')) (po_match o') = test_scope E c (a_kind a) st) as (o' & -> & ->)
    by (destruct a; eexists; split; reflexivity).
  assert (Hs : plain_end (u_stop E) /\ t_out (u_stop E) = stop E) by (unfold u_stop, stop; by destruct (te_stops E)).
  destruct Hs as [Hs1 Hs2].
  destruct (new_predicate _ _) as [p|er].
  2:{ cbn. intros [= <- <- <-]. split; [done|]. cbn. by rewrite Hs2. }
  destruct (do_u _ _ _ _ _) as [[st1 evs1] r1] eqn:Ed. rewrite (Ha _ _ _ _ _ Ed). cbn beta iota.
  rewrite u_observed_erase. destruct (p_done _) as [q dp]. cbn -[erase].
  destruct r1; cbn -[erase]; try (destruct dp as [dv|]); cbn -[erase]; try (destruct (p_ok q));
    intros [= <- <- <-]; (split; [done|]); rewrite ?Hs2; er; done.
Qed.

Lemma then_refines x k y ky st' evs r :
  (forall st1 evs1 r1, x = (st1, evs1, r1) -> plain_end r1 /\ y = (st1, erase evs1, t_out r1)) ->
  (forall v st1 st2 evs2 r2, k v st1 = (st2, evs2, r2) -> plain_end r2 /\ ky (x_panic v) st1 = (st2, erase evs2, t_out r2)) ->
  x_then x k = (st', evs, r) -> plain_end r /\ and_then y ky = (st', erase evs, t_out r).
Proof.
  intros Hx Hk. destruct x as [[st1 evs1] r1]. destruct (Hx _ _ _ eq_refl) as [Hp ->]. unfold x_then, and_then.
  destruct r1 as [|er|v| |]; cbn [x_res t_out]; [|done|..]; try (intros [= <- <- <-]; done).
  - destruct (k _ _) as [[st2 evs2] r2] eqn:Ek. intros [= <- <- <-]. destruct (Hk _ _ _ _ _ Ek) as [H1 H2]. cbn in H2. rewrite H2, erase_app. done.
  - destruct (k _ _) as [[st2 evs2] r2] eqn:Ek. intros [= <- <- <-]. destruct (Hk _ _ _ _ _ Ek) as [H1 H2]. cbn in H2. rewrite H2, erase_app. done.
Qed.

Lemma engine_refines mk st st' evs r :
  x_then (lift (engine_op E c mk st)) (fun x => run_u E c (u_return x)) = (st', evs, r) ->
  engine_op E c mk st = (st', erase evs, r).
Proof.
  destruct (engine_op E c mk st) as [[st1 evs1] r1]. unfold x_then, lift.
  destruct r1 as [|er|v| |]; cbn; intros [= <- <- <-]; by rewrite ?app_nil_r, erase_lift.
Qed.

Lemma enable_refines {A} (x : TState * list TEv * option PVal) (k : A -> option PVal -> TProg) (a : A) st' evs r :
  (forall v, code_refines (k a v)) ->
  (let '(st, l, v) := x in x_then (st, VT <$> l, v_res v) (fun y => run_u E c (u_test c cap (k a (x_panic y))))) = (st', evs, r) ->
  plain_end r /\ (let '(st, l, v) := x in let '(st, l', r) := run_test E c (k a v) st in (st, l ++ l', r)) = (st', erase evs, t_out r).
Proof.
  intros IH. destruct x as [[st l] [v|]]; cbn [x_then v_res x_res]; unfold x_then; cbn [x_res x_panic].
  - destruct (run_u _ _ _ _) as [[st1 evs1] r1] eqn:Er. intros [= <- <- <-]. apply IH in Er as [H1 H2].
    rewrite H2, erase_app, erase_lift. done.
  - destruct (run_u _ _ _ _) as [[st1 evs1] r1] eqn:Er. intros [= <- <- <-]. apply IH in Er as [H1 H2].
    rewrite H2, erase_app, erase_lift. done.
Qed.

Lemma refine_lemma : (forall p, code_refines p) /\ (forall a, action_refines a).
Proof.
  apply test_mutind.
  - intros st st' evs r [= <- <- <-]. done.
  - intros v st st' evs r [= <- <- <-]. done.
  - intros st st' evs r [= <- <- <-]. done.
  - intros f k IH st st' evs r. cbn [u_test run_u run_test]. destruct (run_u _ _ _ _) as [[st1 evs1] r1] eqn:Er. cbn [tell].
    intros [= <- <- <-]. apply IH in Er as [H1 H2]. rewrite H2. done.
  - intros b k IH st st' evs r. cbn [u_test run_u run_test]. destruct (execute_command _ _ _ _) as [[st1 evs1] r1] eqn:Ex.
    unfold x_then, lift. destruct (x_res r1) as [x|] eqn:Exr.
    + destruct (run_u _ _ _ _) as [[st2 evs2] r2] eqn:Er. intros [= <- <- <-]. apply IH in Er as [H1 H2].
      rewrite H2, erase_app, erase_lift. done.
    + intros [= <- <- <-]. destruct r1; try done; [by apply execute_no_goexit in Ex|]. by rewrite erase_lift.
  - intros a Ha k IH st st' evs r. cbn [u_test run_u run_test]. apply then_refines.
    + intros. by apply prepare_refines.
    + intros v st1 st2 evs2 r2 H. by apply IH in H.
  - intros a Ha e k IH st st' evs r. cbn [u_test run_u run_test]. apply then_refines.
    + intros. by apply expect_refines.
    + intros v st1 st2 evs2 r2 H. by apply IH in H.
  - intros names b k IH st st' evs r. cbn [u_test run_u run_test]. intros H.
    by apply (enable_refines _ (fun _ : unit => k) tt) in H.
  - intros pats b k IH st st' evs r. cbn [u_test run_u run_test]. intros H.
    by apply (enable_refines _ (fun _ : unit => k) tt) in H.
  - intros x k IH st st' evs r. cbn [u_test run_u run_test]. destruct (run_u _ _ _ _) as [[st1 evs1] r1] eqn:Er. cbn [tell].
    intros [= <- <- <-]. apply IH in Er as [H1 H2]. rewrite H2. done.
  - intros m opts st st' evs r. cbn [u_action do_u do_action]. unfold do_dispatch. destruct (app_types c (m_type m)).
    + cbn [run_u]. destruct (x_then _ _) as [[st1 evs1] r1] eqn:Ex. apply engine_refines in Ex. rewrite Ex.
      intros [= <- <- <-]. unfold bracket; destruct r1; er; done.
    + cbn. by intros [= <- <- <-].
  - intros j opts st st' evs r. cbn [u_action do_u do_action]. unfold do_advance. cbn [run_u]. destruct (adj_step j (ts_clock st)) as [now|v].
    2:{ cbn. by intros [= <- <- <-]. }
    destruct (now <? ts_clock st)%Z; [cbn; by intros [= <- <- <-]|].
    cbn [run_u]. destruct (x_then _ _) as [[st1 evs1] r1] eqn:Ex. apply engine_refines in Ex. rewrite Ex. cbn [tell].
    intros [= <- <- <-]. unfold bracket; destruct r1; er; done.
  - intros fn IH i opts st st' evs r. rewrite u_call, do_u_eq, run_bind, run_try.
    change (do_action E c (ActCall fn i) opts st) with (bracket AkCall (do_call (run_test E c fn) i opts st)).
    unfold do_call.
    set (st0 := set_bound (Some opts) st).
    (* the part inside Bind and Unbind *)
    assert (Hin : forall st2 evs2 r2,
      run_u E c (match i with
        | None => u_test c cap fn
        | Some _ => UIntercept i (fun prev => UTry (u_test c cap fn) (UIntercept prev (fun _ => UDone None)) u_return)
        end) st0 = (st2, evs2, r2) ->
      plain_end r2 /\
      (let prev := ts_icpt st0 in
       let st1 := match i with Some _ => set_icpt i st0 | None => st0 end in
       let '(st2, evs, r) := run_test E c fn st1 in
       (match r with Halted => st2 | _ => match i with Some _ => set_icpt prev st2 | None => st2 end end, evs, r)) = (st2, erase evs2, t_out r2)).
    { intros st2 evs2 r2. destruct i as [i|].
      - rewrite run_intercept, run_try. unfold deferring. destruct (run_u E c (u_test c cap fn) _) as [[st3 evs3] r3] eqn:Er.
        apply IH in Er as [H1 H2]. rewrite H2.
        destruct r3 as [|?|v| |]; cbn -[erase]; try done; intros [= <- <- <-]; (split; [done|]); er; done.
      - intros Er. apply IH in Er as [H1 H2]. split; [done|]. cbn. rewrite H2. by destruct (t_out r2). }
    unfold deferring. destruct (run_u E c _ st0) as [[st2 evs2] r2] eqn:Er0.
    destruct (Hin _ _ _ eq_refl) as [Hp Hr]. clear Hin. cbn zeta in Hr.
    destruct (run_test E c fn _) as [[st3 evs3] r3] eqn:Et. injection Hr as Hst -> Hr3.
    destruct r2 as [|?|v| |]; cbn [plain_end] in Hp; try done; cbn [t_out] in Hr3; subst r3; subst st2;
      cbn -[erase]; intros [= <- <- <-]; unfold bracket; er; destruct i; done.
Qed.
End Refine.
