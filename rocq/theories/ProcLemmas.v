(** * What one handling does to a process instance. *)
From Verif Require Import OpSpec ProgSim OpProof ProcProof ProcHist.

Section ProcLemmas.
Context {P : Params}.

Lemma p_run_leaves o h now env id meth p : forall g s g' s' fs res,
  p_run o h now env id meth p g s = (g', s', fs, res) -> Leaves p (ps_root s) (ps_root s') res.
Proof.
  induction p as [e|v|f k IH|f k IH|b k IH|b t k IH|k IH|str k IH]; intros g s g' s' fs res H; cbn in H.
  - injection H as <- <- <- <-. constructor.
  - injection H as <- <- <- <-. constructor.
  - econstructor. eapply IH. exact H.
  - constructor. apply IH in H. exact H.
  - destruct (p_execute _ _ _ _ _ _ _ _ _) as [[[g1 s1] fs1] v1] eqn:E1.
    destruct (p_run _ _ _ _ _ _ _ _ _) as [[[g2 s2] fs2] v2] eqn:E. injection H as <- <- <- <-.
    apply IH in E. econstructor. replace (ps_root s) with (ps_root s1); [exact E|].
    unfold p_execute in E1. destruct (p_check _ _ _ _); [injection E1 as <- <- <- <-; done|].
    unfold p_revert in E1. destruct (ps_ended s); injection E1 as <- <- <- <-; done.
  - destruct (p_schedule _ _ _ _ _ _ _ _ _ _) as [[[g1 s1] fs1] v1] eqn:E1.
    destruct (p_run _ _ _ _ _ _ _ _ _) as [[[g2 s2] fs2] v2] eqn:E. injection H as <- <- <- <-.
    apply IH in E. econstructor. replace (ps_root s) with (ps_root s1); [exact E|].
    unfold p_schedule in E1. destruct (p_check _ _ _ _); [injection E1 as <- <- <- <-; done|].
    unfold p_revert in E1. destruct (ps_ended s); cbn in E1; destruct (_ <? _)%Z; injection E1 as <- <- <- <-; done.
  - unfold p_end in H. destruct (ps_ended s) eqn:Ee;
      destruct (p_run _ _ _ _ _ _ _ _ _) as [[[g2 s2] fs2] v2] eqn:E; injection H as <- <- <- <-; apply IH in E; constructor; exact E.
  - destruct (p_run _ _ _ _ _ _ _ _ _) as [[[g2 s2] fs2] v2] eqn:E. injection H as <- <- <- <-. constructor. eapply IH. exact E.
Qed.

Lemma leaves_root_same p : leaves_root p -> forall r r' res, Leaves p r r' res -> r' = r.
Proof.
  intros Hp r r' res HL. revert Hp. induction HL; intros Hp; inversion Hp; subst; eauto.
  match goal with H : forall r, ?f r = r |- _ => rewrite IHHL, H; [done|eauto] end.
Qed.

(** The facts, in particular whether the process ended. *)
Lemma p_run_ended o h now env id meth p g r g' s fs res :
  p_run o h now env id meth p g (mkPScope r false [] [] []) = (g', s, fs, res) -> ps_ended s = ended_in fs.
Proof.
  intros H. eapply (p_run_reads o h now env id meth p _ _ _ _ _ _ []) in H; [|done]. apply H.
Qed.

Lemma p_run_engaged o h now env id meth p g s g' s' fs res h' i r e :
  p_run o h now env id meth p g s = (g', s', fs, res) -> ~ engaged h' i r e fs.
Proof.
  revert g s g' s' fs res.
  assert (Happ : forall a b, engaged h' i r e (a ++ b) -> engaged h' i r e a \/ engaged h' i r e b) by (unfold engaged; set_solver).
  assert (Hcons : forall f b, engaged h' i r e (f :: b) -> engaged h' i r e [f] \/ engaged h' i r e b) by (unfold engaged; set_solver).
  assert (Hnil : ~ engaged h' i r e []) by (unfold engaged; set_solver).
  induction p as [e0|v|f k IH|f k IH|b k IH|b t k IH|k IH|str k IH]; intros g s g' s' fs res H; cbn in H; eauto.
  - injection H as <- <- <- <-. done.
  - injection H as <- <- <- <-. done.
  - destruct (p_execute _ _ _ _ _ _ _ _ _) as [[[g1 s1] fs1] v1] eqn:E1.
    destruct (p_run _ _ _ _ _ _ _ _ _) as [[[g2 s2] fs2] v2] eqn:E. injection H as <- <- <- <-.
    intros [H|H]%Happ; [|eapply IH; eassumption].
    unfold p_execute in E1. destruct (p_check _ _ _ _); [injection E1 as <- <- <- <-; done|].
    unfold p_revert in E1. destruct (ps_ended s); injection E1 as <- <- <- <-; unfold engaged in H; set_solver.
  - destruct (p_schedule _ _ _ _ _ _ _ _ _ _) as [[[g1 s1] fs1] v1] eqn:E1.
    destruct (p_run _ _ _ _ _ _ _ _ _) as [[[g2 s2] fs2] v2] eqn:E. injection H as <- <- <- <-.
    intros [H|H]%Happ; [|eapply IH; eassumption].
    unfold p_schedule in E1. destruct (p_check _ _ _ _); [injection E1 as <- <- <- <-; done|].
    unfold p_revert in E1. destruct (ps_ended s); cbn in E1; destruct (_ <? _)%Z; injection E1 as <- <- <- <-; unfold engaged in H; set_solver.
  - unfold p_end in H. destruct (ps_ended s) eqn:Ee;
      destruct (p_run _ _ _ _ _ _ _ _ _) as [[[g2 s2] fs2] v2] eqn:E; injection H as <- <- <- <-.
    + eapply IH. exact E.
    + intros [H|H]%Hcons; [unfold engaged in H; set_solver|eapply IH; eassumption].
  - destruct (p_run _ _ _ _ _ _ _ _ _) as [[[g2 s2] fs2] v2] eqn:E. injection H as <- <- <- <-.
    intros [H|H]%Hcons; [unfold engaged in H; set_solver|eapply IH; eassumption].
Qed.

Lemma ended_in_pre h i r env pre fs :
  pre = [ProcessInstanceLoaded h i r env] \/ pre = [ProcessInstanceNotFound h i env; ProcessInstanceBegun h i (Some r) env] ->
  ended_in (pre ++ fs) = ended_in fs.
Proof. intros [->| ->]; done. Qed.

Lemma p_handle_root o h pi now env g ps g' ps' fs res i rt :
  p_handle o h pi now env g ps = (g', ps', fs, res) -> engaged (h_id h) i rt env fs ->
  (pc_instances ps !! i = Some rt \/ pc_instances ps !! i = None /\ pr_new pi = Some rt) /\
  exists rt' out, Leaves (method_of pi env i) rt rt' out /\
    match out with
    | inl None => (exists envs, res = HRet envs None) /\
        pc_instances ps' !! i = if ended_in fs then None else Some rt'
    | inl (Some e) => res = HRet [] (Some e) /\ pc_instances ps' !! i = const rt' <$> pc_instances ps !! i
    | inr v => (exists v', res = HPan v') /\ pc_instances ps' !! i = const rt' <$> pc_instances ps !! i
    end /\
    (forall ending, ending = ended_in fs -> out = inl None ->
       (ends_ending (method_of pi env i) -> ending = true) /\ (ends_continuing (method_of pi env i) -> ending = false)).
Proof.
  intros H He. apply p_handle_cases in H.
  destruct H as [g' v Hg|g' e Hg Hk|g' Hg Hk|og Hk Ho Hnone|g' id v Hg Hk Hnone Hnil|g1 id r pre g' s fs res Hc Hg Hk Hpre Hrun];
    try (exfalso; unfold engaged in He; set_solver).
  assert (Heq : id = i /\ r = rt).
  { destruct He as [He|He]; apply elem_of_app in He as [He|He];
      try (exfalso; eapply (p_run_engaged _ _ _ _ _ _ _ _ _ _ _ _ _ (h_id h) i rt env Hrun); unfold engaged; tauto);
      destruct Hpre as [[_ ->]|(_ & _ & ->)]; set_solver. }
  destruct Heq as [-> ->].
  assert (Hend : ended_in (pre ++ fs) = ps_ended s).
  { rewrite (p_run_ended _ _ _ _ _ _ _ _ _ _ _ _ _ Hrun). eapply ended_in_pre with (h := h_id h) (i := i) (r := rt) (env := env). tauto. }
  assert (Hm : (p_method pi env i).2 = method_of pi env i) by (unfold p_method, method_of; destruct (m_kind _); done).
  split; [tauto|]. exists (ps_root s), res.
  assert (Hleft : forall j s0, pc_instances (p_store_mutation j s0 ps) !! j = const (ps_root s0) <$> pc_instances ps !! j).
  { intros j s0. unfold p_store_mutation. destruct (pc_instances ps !! j) eqn:E; cbn; [rewrite lookup_insert|]; done. }
  split; [rewrite <- Hm; apply p_run_leaves in Hrun; exact Hrun|]. rewrite Hend. split.
  - unfold p_result, p_commit. destruct res as [[e|]|v].
    + split; [done|apply Hleft].
    + split; [eauto|]. destruct (ps_ended s).
      * destruct (bool_decide _) eqn:Eb; cbn; [rewrite lookup_delete; done|].
        apply bool_decide_eq_false in Eb. apply eq_None_not_Some. done.
      * cbn. rewrite lookup_insert. done.
    + split; [eauto|apply Hleft].
  - intros ? -> ->. rewrite <- Hm. split; intros Hp.
    + eapply p_run_ends_ending; eassumption.
    + eapply p_run_ends_continuing; [exact Hp|exact Hrun|done].
Qed.

Lemma C21_handle_lemma o h pi now env g ps u i ok err :
  m_type (e_msg env) ∈ h_consumed h -> m_kind (e_msg env) = KEvent ->
  pr_route pi (e_msg env) (g_user g) = (u, inl (i, ok, err)) ->
  let '(g', ps', fs, res) := p_handle o h pi now env g ps in
  match err, ok with
  | Some e, _ => fs = [] /\ ps' = ps /\ res = HRet [] (Some e) /\ g' = mkG (g_next g) u (g_step g)
  | None, false => fs = [ProcessEventIgnored (h_id h) env] /\ ps' = ps /\ res = HRet [] None /\ g' = mkG (g_next g) u (g_step g)
  | None, true =>
    if decide (i = "") then fs = [] /\ ps' = ps /\ exists v, res = HPan v
    else match pc_instances ps !! i with
         | Some r => exists fs', fs = ProcessInstanceLoaded (h_id h) i r env :: fs'
         | None => exists fs', fs = ProcessInstanceNotFound (h_id h) i env :: ProcessInstanceBegun (h_id h) i (pr_new pi) env :: fs'
         end
  end.
Proof.
  intros Hc Hk Hr. unfold p_handle, p_route, consumes. rewrite bool_decide_eq_true_2 by done. cbn [negb]. rewrite Hk, Hr.
  destruct err as [e|]; [destruct ok; done|]. destruct ok; [|done].
  destruct (decide (i = "")) as [->|Hi]; [eauto|].
  destruct (pc_instances ps !! i) as [r|] eqn:El.
  - destruct (p_handle_instance _ _ _ _ _ _ _ _ _) as [[[g4 ps4] fs4] r4]. cbn. eauto.
  - destruct (pr_new pi) as [r|]; cbn; [|eauto]. destruct (p_handle_instance _ _ _ _ _ _ _ _ _) as [[[g4 ps4] fs4] r4]. eauto.
Qed.

End ProcLemmas.
