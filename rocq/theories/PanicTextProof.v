(** * Proof of C93. *)
From Verif Require Import PanicTextSpec EngineSpec EngineLemmas PanicProof.

Section Proof.
Context {P : Params}.

Lemma ARaises_mono (S S' : Msg -> PVal -> Prop) p w :
  (forall b x, S (mkMsg KEvent b) x -> S' (mkMsg KEvent b) x) -> ARaises S p w -> ARaises S' p w.
Proof. intros H. induction 1; econstructor; eauto. Qed.
Lemma PRaises_mono (S S' : Msg -> PVal -> Prop) p w :
  (forall k b x, k = KCommand \/ k = KTimeout -> S (mkMsg k b) x -> S' (mkMsg k b) x) -> PRaises S p w -> PRaises S' p w.
Proof. intros H. induction 1; econstructor; eauto. Qed.
Lemma IRaises_mono (S S' : Msg -> PVal -> Prop) p w :
  (forall b x, S (mkMsg KEvent b) x -> S' (mkMsg KEvent b) x) -> IRaises S p w -> IRaises S' p w.
Proof. intros H. induction 1; econstructor; eauto. Qed.

Context (T : PanicTexts).

(** What the panic of a handling says. *)
Definition fine (h : Handler) (m : Msg) (v : PVal) : Prop :=
  (unexpected T h m (panic_text T v) \/ misbehaved T h m (panic_text T v)) \/ (users v \/ exists w, v = PFatal w /\ users w).

Lemma users_fine h m v : users v -> fine h m v.
Proof. intros H. right. by left. Qed.
Lemma users_user s : users (PUser s). Proof. left. by exists s. Qed.
Lemma users_raw : users PRaw. Proof. by right. Qed.

Lemma handler_text h : txt "the '" ++ txt (hid_name (h_id h)) ++ txt "' " ++ htype_text (hid_type (h_id h)) ++ txt " message handler" = the_handler h.
Proof. unfold the_handler, type_name, h_id, h_type. by destruct (h_impl h). Qed.
Lemma handler_text_1 h r : txt "the '" ++ txt (hid_name (h_id h)) ++ txt "' " ++ htype_text (hid_type (h_id h)) ++ txt " message handler did not expect " ++ r
  = the_handler h ++ txt " did not expect " ++ r.
Proof. rewrite <- handler_text, <- !app_assoc. reflexivity. Qed.
Lemma handler_text_2 h r : txt "the '" ++ txt (hid_name (h_id h)) ++ txt "' " ++ htype_text (hid_type (h_id h)) ++ txt " message handler behaved unexpectedly in " ++ r
  = the_handler h ++ txt " behaved unexpectedly in " ++ r.
Proof. rewrite <- handler_text, <- !app_assoc. reflexivity. Qed.

Lemma named_fine h m meth w : (routing_method h m meth \/ handling_method h m meth) -> fine h m w -> fine h m (named h (interface_of h) meth m w).
Proof.
  intros Hm Hw. destruct w; try exact Hw. cbn [named]. left. left. exists (interface_of h), meth, m. split; [|by left].
  cbn [panic_text]. apply handler_text_1.
Qed.
Lemma applies_fine h a m m' v : h_impl h = ImplAgg a -> own_panics h -> applies h a m' v -> fine h m v.
Proof.
  intros Ha Hown (Hk & Ht & r & r' & w & Hw & ->).
  assert (Hu : users w).
  { specialize (Hown users users_user users_raw). rewrite Ha in Hown. destruct Hown as (_ & Hown & _). eauto. }
  destruct Hu as [[s ->]| ->]; [right; left; apply users_user|]. left. left. exists "AggregateRoot"%string, "ApplyEvent"%string, m'.
  split; [cbn [named panic_text]; apply handler_text_1|]. right. eauto 10.
Qed.
Lemma misbehaved_fine h m meth d : misbehaves T h m meth (beh_text T (h_id h) d) ->
  fine h m (PUnexpBeh (h_id h) (interface_of h) meth m d).
Proof. intros H. left. right. exists meth, (beh_text T (h_id h) d). split; [done|]. cbn [panic_text]. apply handler_text_2. Qed.
Lemma complains_event h env meth b v :
  (exists x, h_impl h = ImplAgg x) \/ (exists x, h_impl h = ImplInt x) -> handling_method h (e_msg env) meth ->
  complains h (interface_of h) meth env (mkMsg KEvent b) v -> fine h (e_msg env) v.
Proof.
  intros Hh Hm (d & Hd & ->). apply misbehaved_fine. destruct d as [t| |t|t e]; try done; destruct Hd as [-> Hd]; cbn.
  - by apply mb_undeclared_event.
  - by apply mb_invalid_event.
Qed.
Lemma complains_process h p env meth k b v :
  h_impl h = ImplProc p -> handling_method h (e_msg env) meth -> k = KCommand \/ k = KTimeout ->
  complains h (interface_of h) meth env (mkMsg k b) v -> fine h (e_msg env) v.
Proof.
  intros Hh Hm Hk (d & Hd & ->). apply misbehaved_fine. destruct d as [t| |t|t e]; try done; destruct Hd as [-> Hd]; destruct Hk as [-> | ->]; cbn.
  - by eapply mb_undeclared_command.
  - by eapply mb_undeclared_timeout.
  - by eapply mb_invalid_command.
  - by eapply mb_invalid_timeout.
Qed.

Lemma handling_fine c now h env v : own_panics h -> (forall a, h_impl h = ImplAgg a -> m_kind (e_msg env) = KCommand) ->
  HandlingPanics c now h env v -> fine h (e_msg env) v.
Proof.
  intros Hown Hcom H.
  pose proof (Hown users users_user users_raw) as Hu.
  pose proof (Hown (fine h (e_msg env)) (fun s => users_fine _ _ _ (users_user s)) (users_fine _ _ _ users_raw)) as Hf.
  destruct H as [a w Hi Hr|a Hi Hr|a id Hi Hr Hid Hn|a id m v Hi Hr Hid Hn Ha|a id w Hi Hr Hid Hn Ha
                |p u u' w Hi Hk Hr|p u u' Hi Hk Hr|p Hi Hn|p id w Hi Hk Hr|p id w Hi Hk Hr
                |i w Hi Hr|j u u' w Hi Hr|j cur nxt w Hi Hr|j u u' w Hi Hr|j w Hi Hc Hr]; rewrite Hi in Hu, Hf.
  all: assert (Hif : interface_of h = match h_impl h with
    | ImplAgg _ => "AggregateMessageHandler"%string | ImplProc _ => "ProcessMessageHandler"%string
    | ImplInt _ => "IntegrationMessageHandler"%string | ImplProj _ => "ProjectionMessageHandler"%string end) by reflexivity;
    rewrite Hi in Hif.
  - rewrite <- Hif. apply named_fine; [left; unfold routing_method; by rewrite Hi|]. destruct Hf as [Hf _]. by eapply Hf.
  - rewrite <- Hif. apply misbehaved_fine.
    specialize (Hcom _ Hi). destruct (e_msg env) as [k b] eqn:Em. cbn in Hcom. subst k. cbn. by eapply mb_command.
  - rewrite <- Hif. apply misbehaved_fine. cbn. unfold h_type. rewrite Hi. by eapply mb_root_a.
  - by eapply applies_fine.
  - rewrite <- Hif. apply named_fine; [right; unfold handling_method; by rewrite Hi|]. destruct Hf as (_ & _ & Hf). eapply Hf.
    eapply ARaises_mono; [|exact Ha]. cbn beta. intros b x [Hx|Hx]; [|by eapply applies_fine].
    eapply complains_event; [left; by exists a| |rewrite Hif; exact Hx]. unfold handling_method. by rewrite Hi.
  - rewrite <- Hif. apply named_fine; [left; unfold routing_method; by rewrite Hi|]. destruct Hf as [Hf _]. by eapply Hf.
  - rewrite <- Hif. apply misbehaved_fine. cbn. destruct (e_msg env) as [k b] eqn:Em. cbn in Hk. subst k. cbn. by eapply mb_event.
  - rewrite <- Hif. apply misbehaved_fine. cbn. unfold h_type. rewrite Hi. by eapply mb_root_p.
  - assert (Hm : handling_method h (e_msg env) "HandleEvent") by (unfold handling_method; rewrite Hi; by left).
    rewrite <- Hif. apply named_fine; [by right|]. destruct Hf as (_ & Hf & _). eapply Hf.
    eapply PRaises_mono; [|exact Hr]. cbn beta. intros k b x Hkk Hx. eapply complains_process; [done|exact Hm|done|rewrite Hif; exact Hx].
  - assert (Hm : handling_method h (e_msg env) "HandleTimeout") by (unfold handling_method; rewrite Hi; by right).
    rewrite <- Hif. apply named_fine; [by right|]. destruct Hf as (_ & _ & Hf). eapply Hf.
    eapply PRaises_mono; [|exact Hr]. cbn beta. intros k b x Hkk Hx. eapply complains_process; [done|exact Hm|done|rewrite Hif; exact Hx].
  - assert (Hm : handling_method h (e_msg env) "HandleCommand") by (unfold handling_method; by rewrite Hi).
    rewrite <- Hif. apply named_fine; [by right|]. eapply Hf.
    eapply IRaises_mono; [|exact Hr]. cbn beta. intros b x Hx. eapply complains_event; [right; by exists i|exact Hm|rewrite Hif; exact Hx].
  - destruct Hf as [Hf _]. by eapply Hf.
  - rewrite <- Hif. apply named_fine; [right; unfold handling_method; by rewrite Hi|]. destruct Hf as (_ & _ & Hf & _). by eapply Hf.
  - destruct Hf as (_ & Hf & _). by eapply Hf.
  - right. right. eexists. split; [done|]. destruct Hu as (_ & _ & _ & Hu). by eapply Hu.
Qed.

Lemma C93_lemma c st op st' fs v :
  reachable c st -> op_ok c op -> (forall h, h ∈ c_app c -> own_panics h) ->
  run_op c op st = (st', EvFact <$> fs, Pan v) -> Explained T c op fs v (panic_text T v).
Proof.
  intros Hr Ho Hown Hrun.
  assert (Hok : app_ok c) by (destruct Hr as (u & ops & evs & Hh); exact (proj1 Hh)).
  destruct (C44_panics_lemma _ _ _ _ _ _ Hr Ho Hrun) as [[-> Hrej]|[(l & h & env & l' & -> & Hab & Hin & Hc & Hs & Hp)|(l & h & l' & j & -> & Hab & Hin & Hs & Hi & Hp)]].
  - destruct Hrej as [(n & b & Hn & Hno & ->)|Hrej]; [by eapply ex_unknown_name|].
    destruct op as [o f m opts| | |]; try done. destruct Hrej as [[Hk ->]|[[Hi ->]|[Hno ->]]].
    + by eapply ex_timeout.
    + destruct (m_invalid m) as [e|] eqn:Ei; [|done]. eapply ex_invalid; [done|done|exact Ei|]. cbn. by rewrite Ei.
    + by eapply ex_not_consumed.
  - assert (Hcom : forall a, h_impl h = ImplAgg a -> m_kind (e_msg env) = KCommand).
    { intros a Ha. destruct Hok as [_ Hok]. specialize (Hok _ Hin). unfold handler_ok in Hok. rewrite Ha in Hok. exact (proj1 Hok _ Hc). }
    destruct (handling_fine _ _ _ _ _ (Hown _ Hin) Hcom Hp) as [Hx|Hx]; [|by apply ex_user]. by eapply ex_handler.
  - apply ex_user. left. pose proof (Hown _ Hin users users_user users_raw) as Hu. rewrite Hi in Hu.
    destruct Hu as (_ & _ & _ & Hu). by eapply Hu.
Qed.
End Proof.
