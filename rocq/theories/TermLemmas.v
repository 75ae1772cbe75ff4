(** * Proofs about termination. *)
From Verif Require Export TermSpec StoreSim.

Section Heights.
Context {P : Params} (c : Config).

(** Types produced by the consumers of [t]. *)
Definition succs (t : MType) : list MType :=
  concat (map (fun h => if consumes h t then h_produced h else []) (c_app c)).
Definition all_types : list MType := concat (map h_produced (c_app c)).

Lemma succs_feeds t t' : t' ∈ succs t <-> feeds c t t'.
Proof.
  unfold succs, feeds. rewrite elem_of_list_In, in_concat. setoid_rewrite in_map_iff. split.
  - intros (l & (h & <- & Hh) & Hin). exists h. unfold consumes in Hin.
    destruct (bool_decide (t ∈ h_consumed h)) eqn:E; [|done].
    apply bool_decide_eq_true in E. split; [apply elem_of_list_In; done|]. split; [done|]. apply elem_of_list_In. done.
  - intros (h & Hh & Hc & Hp). exists (h_produced h). split; [|apply elem_of_list_In; done].
    exists h. rewrite <- elem_of_list_In. split; [|done]. unfold consumes. rewrite bool_decide_true; done.
Qed.
Lemma feeds_all t t' : feeds c t t' -> t' ∈ all_types.
Proof.
  intros (h & Hh & _ & Hp). unfold all_types. apply elem_of_list_In, in_concat.
  exists (h_produced h). rewrite in_map_iff, <- elem_of_list_In. split; [|done].
  exists h. rewrite <- elem_of_list_In. done.
Qed.

Fixpoint height (n : nat) (t : MType) : nat :=
  match n with
  | 0 => 0
  | S n => max_list (map (fun t' => S (height n t')) (succs t))
  end.

(** [walk t l]: the types in [l] follow one another from [t]. *)
Fixpoint walk (t : MType) (l : list MType) : Prop :=
  match l with [] => True | t' :: l => feeds c t t' /\ walk t' l end.

Lemma max_list_elem_of_inv l k : max_list l = S k -> S k ∈ l.
Proof.
  induction l as [|x l IH]; cbn; [done|]. intros H. destruct (Nat.max_spec x (max_list l)) as [[_ E]|[_ E]].
  - right. apply IH. congruence.
  - replace x with (S k) by congruence. left.
Qed.

Lemma height_walk n t : exists l, walk t l /\ length l = height n t.
Proof.
  revert t; induction n as [|n IH]; intros t; cbn [height]; [exists []; done|].
  destruct (max_list _) as [|k] eqn:E; [exists []; done|].
  apply max_list_elem_of_inv in E. apply elem_of_list_fmap in E as (t' & Hk & Hin).
  destruct (IH t') as (l & Hw & Hl). exists (t' :: l). cbn. split; [split; [apply succs_feeds|]; done|]. congruence.
Qed.
Lemma walk_height n t l : walk t l -> length l <= n -> length l <= height n t.
Proof.
  revert n t; induction l as [|t' l IH]; intros n t Hw Hn; cbn in *; [lia|].
  destruct n as [|n]; [lia|]. destruct Hw as [Hf Hw]. specialize (IH n t' Hw ltac:(lia)). cbn.
  etransitivity; [|apply max_list_elem_of_le; apply elem_of_list_fmap; exists t'; split; [reflexivity|]].
  - lia.
  - apply succs_feeds. done.
Qed.

Lemma walk_tc t l t' : walk t (l ++ [t']) -> tc (feeds c) t t'.
Proof.
  revert t; induction l as [|x l IH]; intros t; cbn.
  - intros [H _]. apply tc_once. done.
  - intros [H Hw]. eapply tc_l; [exact H|]. apply IH. done.
Qed.
Lemma walk_app t l l' : walk t (l ++ l') -> walk t l.
Proof. revert t; induction l as [|x l IH]; intros t; cbn; [done|]. intros [H Hw]. split; [done|]. eapply IH; done. Qed.
Lemma walk_drop t l x l' : walk t (l ++ x :: l') -> walk x l'.
Proof. revert t; induction l as [|y l IH]; intros t; cbn; intros [H Hw]; [done|]. eapply IH; done. Qed.

Lemma walk_nodup t l : acyclic c -> walk t l -> NoDup l.
Proof.
  intros Ha. revert t; induction l as [|x l IH]; intros t Hw; [constructor|]. destruct Hw as [Hf Hw].
  constructor; [|eapply IH; done]. intros Hin. apply elem_of_list_split in Hin as (l1 & l2 & ->).
  apply (Ha x). eapply (walk_tc x l1). apply (walk_app x (l1 ++ [x]) l2). rewrite <- app_assoc. done.
Qed.
Lemma walk_types t l : walk t l -> l ⊆ all_types.
Proof.
  revert t; induction l as [|x l IH]; intros t Hw y Hy; [set_solver|]. destruct Hw as [Hf Hw].
  apply elem_of_cons in Hy as [->|Hy]; [eapply feeds_all; done|]. eapply IH; done.
Qed.
Lemma walk_bound t l : acyclic c -> walk t l -> length l <= length all_types.
Proof.
  intros Ha Hw. apply submseteq_length. apply NoDup_submseteq; [eapply walk_nodup; done|].
  eapply walk_types. done.
Qed.

Definition rank (t : MType) : nat := height (S (length all_types)) t.
Lemma rank_decreases t t' : acyclic c -> feeds c t t' -> rank t' < rank t.
Proof.
  intros Ha Hf. unfold rank.
  destruct (height_walk (S (length all_types)) t') as (l & Hw & Hl).
  assert (Hw' : walk t (t' :: l)) by done.
  pose proof (walk_bound _ _ Ha Hw') as Hb. cbn in Hb.
  pose proof (walk_height (S (length all_types)) _ _ Hw' ltac:(cbn; lia)) as H. cbn [length] in H. lia.
Qed.
End Heights.

Section Term.
Context {P : Params} (c : Config).

(** What a controller returns is declared by its handler. *)
Definition declared (h : Handler) (l : list Env) : Prop := Forall (fun e => m_type (e_msg e) ∈ h_produced h) l.

Lemma produces_in h t : produces h t = true -> t ∈ h_produced h.
Proof. unfold produces. apply bool_decide_eq_true. Qed.
Lemma consumes_in h t : consumes h t = true -> t ∈ h_consumed h.
Proof. unfold consumes. apply bool_decide_eq_true. Qed.

Notation triv := (fun (_ : unit) (_ : Fact) => True).
Notation same := (fun (x : unit) (_ : Fact) => x).

Lemma a_handle_declared o h a now env g hist g' hist' fs envs e :
  a_handle o h a now env g hist = (g', hist', fs, HRet envs e) ->
  m_type (e_msg env) ∈ h_consumed h /\ declared h envs.
Proof.
  intros H. apply a_handle_cases in H. remember (HRet envs e) as r eqn:Er.
  destruct H as [|id r0 r ex f g1 s fs1 v Hc _ _ _ _ _ _ Hrun]; [done|].
  split; [apply consumes_in; done|].
  eapply (a_run_sim triv same o h a now env id (fun _ s _ => declared h (as_events s))) with (x := tt) in Hrun as [_ Hd];
    [| |constructor].
  - unfold a_result in Er. destruct (enrich _ _ _ _ v); [done|]. injection Er as <- _. done.
  - constructor; try done.
    + intros g2 s2 x b r2 v2 HI _ _. destruct s2 as [? [] ? ? ?]; exact HI.
    + intros g2 s2 x b r2 g3 mid HI _ Hp _ _ _. split; [done|]. cbn.
      apply Forall_app. split; [destruct s2 as [? [] ? ? ?]; exact HI|].
      constructor; [|constructor]. apply produces_in in Hp. exact Hp.
Qed.

Lemma i_handle_declared o h i now env g g' fs envs e :
  i_handle o h i now env g = (g', fs, HRet envs e) ->
  m_type (e_msg env) ∈ h_consumed h /\ declared h envs.
Proof.
  intros H. apply i_handle_cases in H. remember (HRet envs e) as r eqn:Er.
  destruct H as [|g1 evs fs1 r1 Hc Hrun]; [done|].
  split; [apply consumes_in; done|].
  eapply (i_run_sim triv same o h now env (fun _ s _ => declared h s)) with (x := tt) in Hrun as [_ Hd];
    [| |constructor].
  - unfold i_result in Er. destruct r1; [|done]. injection Er as <- _. done.
  - constructor; try done. intros g2 s2 x b g3 mid HI Hp _ _. split; [done|].
    apply Forall_app. split; [done|]. constructor; [|constructor]. apply produces_in in Hp. exact Hp.
Qed.

Lemma p_handle_declared o h pi now env g ps g' ps' fs envs e :
  p_handle o h pi now env g ps = (g', ps', fs, HRet envs e) ->
  (m_type (e_msg env) ∈ h_consumed h \/ envs = []) /\ declared h envs.
Proof.
  intros H. apply p_handle_cases in H. remember (HRet envs e) as r eqn:Er.
  destruct H as [| | | | |g1 id r1 pre g2 s fs1 res Hc _ _ _ Hrun]; try done;
    try (injection Er as <- _; split; [auto|constructor]).
  split; [left; apply consumes_in; done|].
  eapply (p_run_sim triv same o h now env id _
    (fun _ s _ => declared h (ps_commands s) /\ declared h (ps_ready s))) with (x := tt) in Hrun as [_ [Hd1 Hd2]];
    [| |split; constructor].
  - unfold p_result in Er. destruct res as [[e1|]|v]; [injection Er as <- _; constructor| |done].
    injection Er as <- _. apply Forall_app. split; [done|]. destruct (ps_ended s); [constructor|done].
  - constructor; try done.
    + intros g3 s3 x b g4 mid [H1 H2] _ Hp _ _. split; [done|]. split; [|done]. cbn. apply Forall_app. split; [done|].
      constructor; [|constructor]. apply produces_in in Hp. exact Hp.
    + intros g3 s3 x b t g4 mid [H1 H2] _ Hp _ _. split; [done|]. unfold ps_add_tmo.
      destruct (now <? t)%Z; [done|]. split; [done|]. cbn. apply Forall_app. split; [done|].
      constructor; [|constructor]. apply produces_in in Hp. exact Hp.
Qed.

Lemma ctrl_handle_declared o h now env g cs g' cs' fs envs e :
  ctrl_handle c o h now env g cs = (g', cs', fs, HRet envs e) ->
  (m_type (e_msg env) ∈ h_consumed h \/ envs = []) /\ declared h envs.
Proof.
  unfold ctrl_handle. destruct (h_impl h) as [a|pi|i|j], cs as [hist|ps| |last]; try done.
  - destruct (a_handle _ _ _ _ _ _ _) as [[[? ?] ?] ?] eqn:E. intros [= <- <- <- ->].
    apply a_handle_declared in E as [? ?]. auto.
  - destruct (p_handle _ _ _ _ _ _ _) as [[[? ?] ?] ?] eqn:E. intros [= <- <- <- ->].
    apply p_handle_declared in E. done.
  - destruct (i_handle _ _ _ _ _ _) as [[? ?] ?] eqn:E. intros [= <- <- <- ->].
    apply i_handle_declared in E as [? ?]. auto.
  - destruct (j_handle _ _ _ _ _ _ _) as [[? ?] ?] eqn:E. intros [= <- <- <- ->].
    apply j_handle_facts in E as (_ & _ & E). rewrite (E _ _ eq_refl). split; [auto|constructor].
Qed.

Context (Hok : app_ok c) (Ha : acyclic c).

Definition below (t : MType) (l : list Env) : Prop := Forall (fun e => rank c (m_type (e_msg e)) < rank c t) l.

Lemma e_handle_below o oo env oh st st' fs envs e :
  (forall h, oh = Some h -> h ∈ c_app c) ->
  e_handle c o oo env oh st = (st', fs, HRet envs e) -> below (m_type (e_msg env)) envs.
Proof.
  intros Hin. destruct oh as [h|]; [|done]. specialize (Hin h eq_refl). rewrite e_handle_eq.
  destruct (skip_handler h oo); [intros [= <- <- <- <-]; constructor|].
  destruct (es_cs st !! h_name h) as [cs|]; [|done].
  destruct (ctrl_handle _ _ _ _ _ _ _) as [[[g' cs'] fs'] r] eqn:E. intros [= <- <- ->].
  apply ctrl_handle_declared in E as [[Hc| ->] Hd]; [|constructor].
  eapply Forall_impl; [exact Hd|]. intros ev Hev. apply rank_decreases; [done|].
  exists h. done.
Qed.

Lemma e_handlers_below o oo env hs st st' fs envs errs :
  (forall h, Some h ∈ hs -> h ∈ c_app c) ->
  e_handlers c o oo env hs st = (st', fs, inl (envs, errs)) -> below (m_type (e_msg env)) envs.
Proof.
  revert st st' fs envs errs. induction hs as [|oh hs IH]; intros st st' fs envs errs Hin; cbn.
  - intros [= <- <- <- <-]. constructor.
  - destruct (e_handle c o oo env oh st) as [[st1 fs1] [envs1 e1|v1]] eqn:E1; [|done].
    destruct (e_handlers c o oo env hs st1) as [[st2 fs2] [[envs2 errs2]|v2]] eqn:E2; [|done].
    intros [= <- <- <- <-]. apply Forall_app. split.
    + eapply e_handle_below; [|exact E1]. intros h ->. apply Hin. left.
    + eapply IH; [|exact E2]. intros h Hh. apply Hin. right. done.
Qed.

Lemma e_message_below o oo env st st' fs envs errs :
  e_message c o oo env st = (st', fs, inl (envs, errs)) -> below (m_type (e_msg env)) envs.
Proof.
  unfold e_message. destruct (targets c env) as [hs|] eqn:Et; [|done].
  destruct (e_handlers c o oo env hs st) as [[st1 fs1] [[envs1 errs1]|v]] eqn:E; [|done].
  intros [= <- <- <- <-]. eapply e_handlers_below; [|exact E]. intros h Hh. eapply targets_in; eassumption.
Qed.

(** The loop ends whatever its queue. *)
Lemma loop_generation o oo N :
  (forall q err st, Forall (fun e => rank c (m_type (e_msg e)) < N) q ->
     exists n, forall fuel, n <= fuel -> (e_loop c o oo fuel q err st).2 <> Fuel) ->
  forall q1 q2 err st,
    Forall (fun e => rank c (m_type (e_msg e)) < S N) q1 -> Forall (fun e => rank c (m_type (e_msg e)) < N) q2 ->
    exists n, forall fuel, n <= fuel -> (e_loop c o oo fuel (q1 ++ q2) err st).2 <> Fuel.
Proof.
  intros IHN q1. induction q1 as [|env q1 IH]; intros q2 err st H1 H2; [apply IHN; done|].
  apply Forall_cons in H1 as [He H1].
  destruct (e_message c o oo env st) as [[st1 fs1] [[envs derr]|v]] eqn:E.
  - destruct (poll_ctx o (es_g st1)) as [g [ce|]] eqn:Ep.
    + exists 1. intros [|fuel] Hf; [lia|]. cbn [e_loop app]. rewrite E, Ep. done.
    + destruct (IH (q2 ++ envs) (err ++ derr) (es_set_g st1 g)) as [n Hn]; [done| |].
      { apply Forall_app. split; [done|]. apply e_message_below in E. eapply Forall_impl; [exact E|]. cbn beta. intros ev Hev. lia. }
      exists (S n). intros [|fuel] Hf; [lia|]. cbn [e_loop app]. rewrite E, Ep, <- app_assoc.
      specialize (Hn fuel ltac:(lia)).
      destruct (e_loop c o oo fuel (q1 ++ q2 ++ envs) (err ++ derr) (es_set_g st1 g)) as [[? ?] ?]. exact Hn.
  - exists 1. intros [|fuel] Hf; [lia|]. cbn [e_loop app]. rewrite E. done.
Qed.

Lemma loop_terminates o oo q err st : exists n, forall fuel, n <= fuel -> (e_loop c o oo fuel q err st).2 <> Fuel.
Proof.
  assert (H : forall N q err st, Forall (fun e => rank c (m_type (e_msg e)) < N) q ->
     exists n, forall fuel, n <= fuel -> (e_loop c o oo fuel q err st).2 <> Fuel).
  { intros N. induction N as [|N IHN]; intros q0 err0 st0 Hq.
    - destruct q0 as [|e q0]; [exists 0; intros [|fuel] _; done|]. apply Forall_cons in Hq as [? _]. lia.
    - rewrite <- (app_nil_r q0). apply (loop_generation o oo N IHN q0 [] err0 st0 Hq). constructor. }
  apply (H (S (max_list (map (fun e => rank c (m_type (e_msg e))) q)))).
  apply Forall_forall. intros e He. apply Nat.lt_succ_r. apply max_list_elem_of_le.
  apply elem_of_list_fmap. eauto.
Qed.

Lemma C37_dispatch_lemma o m opts st : exists n, forall fuel, n <= fuel -> (run_op c (OpDispatch o fuel m opts) st).2 <> Fuel.
Proof.
  cbn [run_op]. unfold e_dispatch. destruct (next_id o (es_g st)) as [g id].
  destruct (new_opts c (o_wall o) opts) as [oo|v]; [|exists 0; done].
  destruct (m_kind m); [| |exists 0; done].
  all: destruct (m_invalid m); [exists 0; done|].
  all: destruct (routes c !! m_type m); [|exists 0; done].
  all: destruct (lock o (es_g (es_set_g st g))) as [g1 [e|]]; [exists 0; done|].
  all: match goal with |- context [e_loop _ _ _ _ ?q ?err ?s] => destruct (loop_terminates o oo q err s) as [n Hn] end.
  all: exists n; intros fuel Hf; specialize (Hn fuel Hf).
  all: destruct (e_loop _ _ _ _ _ _ _) as [[? ?] r]; destruct r; done.
Qed.

Lemma C37_tick_lemma o order opts st : exists n, forall fuel, n <= fuel -> (run_op c (OpTick o fuel order opts) st).2 <> Fuel.
Proof.
  cbn [run_op]. unfold e_tick. destruct (new_opts c (o_wall o) opts) as [oo|v]; [|exists 0; done].
  destruct (lock o (es_g st)) as [g1 [e|]]; [exists 0; done|]. unfold e_tick_body.
  destruct (e_tick_handlers c o oo order (es_set_g st g1)) as [[st1 fs1] [q errs|e|v]]; [|exists 0; done|exists 0; done].
  destruct (loop_terminates o oo q [] st1) as [n Hn]. exists n. intros fuel Hf. specialize (Hn fuel Hf).
  destruct (e_loop _ _ _ _ _ _ _) as [[? ?] r]; destruct r; done.
Qed.
End Term.
