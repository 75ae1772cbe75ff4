(** * What an operation does depends only on the instances it names. *)
From Verif Require Import IsoSpec HistSim AggProof ProcProof ProcHist OpProof OpFacts ProcLemmas ProgSim EngineLemmas EngineFacts.

Section IsoProof.
Context {P : Params}.
Implicit Types (c : Config) (o : Oracle) (h hd : Handler) (st : EState).

Section Rel.
Variable i : string.
Variable R : list Env -> list Env -> Prop.
Hypothesis Rsort : forall o l1 l2 p, sort_ok o -> R l1 l2 -> R (o_sort o (l1 ++ p)) (o_sort o (l2 ++ p)).
Hypothesis Rdel : forall id l1 l2, id <> i -> R l1 l2 ->
  R (filter (fun e => origin_instance e <> id) l1) (filter (fun e => origin_instance e <> id) l2).

Definition PR (a b : PState) : Prop :=
  (forall j, j <> i -> pc_instances a !! j = pc_instances b !! j) /\ R (pc_timeouts a) (pc_timeouts b).
Definition csrel (a b : option CState) : Prop :=
  match a, b with
  | Some (CSAgg h1), Some (CSAgg h2) => forall j, j <> i -> h1 !! j = h2 !! j
  | Some (CSProc p1), Some (CSProc p2) => PR p1 p2
  | _, _ => a = b
  end.

Lemma p_handle_instance_iso o h pi now env id r g ps1 ps2 :
  sort_ok o -> PR ps1 ps2 -> id <> i ->
  match p_handle_instance o h pi now env id r g ps1, p_handle_instance o h pi now env id r g ps2 with
  | (g1, p1, fs1, r1), (g2, p2, fs2, r2) => g1 = g2 /\ fs1 = fs2 /\ r1 = r2 /\ PR p1 p2
  end.
Proof.
  intros Hs [Hi Ht] Hne. unfold p_handle_instance, p_store_mutation, p_delete, p_update.
  rewrite (Hi id Hne).
  destruct (match m_kind (e_msg env) with KTimeout => _ | _ => _ end) as [meth prog].
  destruct (p_run _ _ _ _ _ _ _ _ _) as [[[g1 s] fs] res].
  assert (Hins : forall x, forall j, j <> i -> (<[id := x]> (pc_instances ps1)) !! j = (<[id := x]> (pc_instances ps2)) !! j).
  { intros x j Hj. destruct (decide (j = id)) as [->|]; [rewrite !lookup_insert; done|].
    rewrite !lookup_insert_ne by done. apply Hi. done. }
  destruct res as [[e|]|v].
  - do 3 (split; [done|]). destruct (pc_instances ps2 !! id); [split; [apply Hins|exact Ht]|split; [exact Hi|exact Ht]].
  - destruct (ps_ended s).
    + do 3 (split; [done|]). destruct (bool_decide _); [|split; [exact Hi|exact Ht]].
      split; [|apply Rdel; done]. intros j Hj. cbn [pc_instances].
      destruct (decide (j = id)) as [->|]; [rewrite !lookup_delete; done|].
      rewrite !lookup_delete_ne by done. apply Hi. done.
    + do 3 (split; [done|]). split; [apply Hins|]. apply Rsort; done.
  - do 3 (split; [done|]). destruct (pc_instances ps2 !! id); [split; [apply Hins|exact Ht]|split; [exact Hi|exact Ht]].
Qed.

Lemma p_handle_iso o h pi now env g ps1 ps2 g' ps1' fs r :
  sort_ok o -> PR ps1 ps2 -> p_handle o h pi now env g ps1 = (g', ps1', fs, r) -> not_named (h_id h) i fs ->
  exists ps2', p_handle o h pi now env g ps2 = (g', ps2', fs, r) /\ PR ps1' ps2'.
Proof.
  intros Hs HR H Hn. unfold p_handle in *.
  destruct (negb (consumes h _)); [injection H as <- <- <- <-; eauto|].
  assert (Hr : p_route h pi env g ps1 = p_route h pi env g ps2 \/
               (exists og, e_origin env = Some og /\ o_instance og = i /\
                  (p_route h pi env g ps1 = (g, [], RouteTo i) /\ is_Some (pc_instances ps1 !! i) \/
                   p_route h pi env g ps1 = (g, [ProcessTimeoutIgnored (h_id h) i env], RouteNone)))).
  { unfold p_route. destruct (m_kind (e_msg env)); [left; done|left; done|].
    destruct (e_origin env) as [og|]; [|left; done].
    destruct (decide (o_instance og = i)) as [He|He].
    - right. exists og. split; [done|]. split; [done|]. rewrite He. destruct (pc_instances ps1 !! i); eauto.
    - left. rewrite (proj1 HR _ He). done. }
  destruct Hr as [Hr|(og & Ho & Hi & [[Hr [rt Hrt]]|Hr])].
  - rewrite <- Hr. destruct (p_route h pi env g ps1) as [[g1 fs1] [id| | |]]; try (injection H as <- <- <- <-; eauto; fail).
    assert (Hne : id <> i).
    { intros ->. destruct (pc_instances ps1 !! i) as [r0|].
      - destruct (p_handle_instance _ _ _ _ _ _ _ _ _) as [[[g2 p2] fs2] r2]. injection H as <- <- <- <-.
        apply not_named_app in Hn as [_ Hn]. apply not_named_cons in Hn as [Hn _]. apply Hn. done.
      - destruct (pr_new pi) as [r0|].
        + destruct (p_handle_instance _ _ _ _ _ _ _ _ _) as [[[g2 p2] fs2] r2]. injection H as <- <- <- <-.
          apply not_named_app in Hn as [Hn _]. apply not_named_app in Hn as [_ Hn].
          apply not_named_cons in Hn as [Hn _]. apply Hn. done.
        + injection H as <- <- <- <-. apply not_named_app in Hn as [_ Hn].
          apply not_named_cons in Hn as [Hn _]. apply Hn. done. }
    rewrite <- (proj1 HR _ Hne). destruct (pc_instances ps1 !! id) as [r0|].
    + pose proof (p_handle_instance_iso o h pi now env id r0 g1 ps1 ps2 Hs HR Hne) as Hx.
      destruct (p_handle_instance o h pi now env id r0 g1 ps1) as [[[g2 p2] fs2] r2].
      destruct (p_handle_instance o h pi now env id r0 g1 ps2) as [[[g3 p3] fs3] r3].
      destruct Hx as (<- & <- & <- & Hx). injection H as <- <- <- <-. eauto.
    + destruct (pr_new pi) as [r0|]; [|injection H as <- <- <- <-; eauto].
      pose proof (p_handle_instance_iso o h pi now env id r0 g1 ps1 ps2 Hs HR Hne) as Hx.
      destruct (p_handle_instance o h pi now env id r0 g1 ps1) as [[[g2 p2] fs2] r2].
      destruct (p_handle_instance o h pi now env id r0 g1 ps2) as [[[g3 p3] fs3] r3].
      destruct Hx as (<- & <- & <- & Hx). injection H as <- <- <- <-. eauto.
  - exfalso. rewrite Hr, Hrt in H.
    destruct (p_handle_instance _ _ _ _ _ _ _ _ _) as [[[g2 p2] fs2] r2]. injection H as <- <- <- <-.
    apply not_named_cons in Hn as [Hn _]. apply Hn. done.
  - exfalso. rewrite Hr in H. injection H as <- <- <- <-. apply not_named_cons in Hn as [Hn _]. apply Hn. done.
Qed.

Lemma a_handle_iso o h a now env g hi1 hi2 g' hi1' fs envs e :
  (forall j, j <> i -> hi1 !! j = hi2 !! j) ->
  a_handle o h a now env g hi1 = (g', hi1', fs, HRet envs e) -> not_named (h_id h) i fs ->
  exists hi2', a_handle o h a now env g hi2 = (g', hi2', fs, HRet envs e) /\ (forall j, j <> i -> hi1' !! j = hi2' !! j).
Proof.
  intros HR H Hn. unfold a_handle in *.
  destruct (negb (consumes h _)); [done|]. destruct (ag_route a (e_msg env)) as [id|v]; [|done].
  destruct (decide (id = "")); [done|]. destruct (ag_new a) as [r0|]; [|done].
  destruct (decide (id = i)) as [->|Hne].
  - exfalso. destruct (a_replay h a r0 _) as [r1 [v|]]; [done|].
    destruct (a_run _ _ _ _ _ _ _ _ _) as [[[g1 s] fs1] v1]. destruct (enrich _ _ _ _ v1); [done|].
    injection H as <- <- <- <- <-. apply not_named_cons in Hn as [Hn _]. destruct (bool_decide _); apply Hn; done.
  - rewrite <- (HR id Hne). destruct (a_replay h a r0 _) as [r1 [v|]]; [done|].
    destruct (a_run _ _ _ _ _ _ _ _ _) as [[[g1 s] fs1] v1]. destruct (enrich _ _ _ _ v1); [done|].
    injection H as <- <- <- <- <-. eexists. split; [reflexivity|]. intros j Hj.
    destruct (as_exists s).
    + destruct (decide (j = id)) as [->|]; [rewrite !lookup_insert; done|]. rewrite !lookup_insert_ne by done. auto.
    + destruct (decide (j = id)) as [->|]; [rewrite !lookup_delete; done|]. rewrite !lookup_delete_ne by done. auto.
Qed.

Section Hd.
Variables (c : Config) (hd : Handler).
Hypothesis Hok : app_ok c.
Hypothesis Hin : hd ∈ c_app c.

Definition srel (st1 st2 : EState) : Prop :=
  es_g st1 = es_g st2 /\ (forall n, n <> h_name hd -> es_cs st1 !! n = es_cs st2 !! n) /\
  csrel (es_cs st1 !! h_name hd) (es_cs st2 !! h_name hd).

Lemma srel_g st1 st2 g : srel st1 st2 -> srel (es_set_g st1 g) (es_set_g st2 g).
Proof. intros (_ & H1 & H2). split; [done|]. split; [exact H1|exact H2]. Qed.

Lemma srel_insert st1 st2 g n cs : srel st1 st2 -> n <> h_name hd ->
  srel (mkE g (<[n := cs]> (es_cs st1))) (mkE g (<[n := cs]> (es_cs st2))).
Proof.
  intros (_ & H1 & H2) Hne. split; [done|]. cbn [es_cs]. split.
  - intros k Hk. destruct (decide (k = n)) as [->|]; [rewrite !lookup_insert; done|].
    rewrite !lookup_insert_ne by done. auto.
  - rewrite !lookup_insert_ne by done. exact H2.
Qed.
Lemma srel_insert_hd st1 st2 g cs1 cs2 : srel st1 st2 -> csrel (Some cs1) (Some cs2) ->
  srel (mkE g (<[h_name hd := cs1]> (es_cs st1))) (mkE g (<[h_name hd := cs2]> (es_cs st2))).
Proof.
  intros (_ & H1 & H2) Hc. split; [done|]. cbn [es_cs]. split.
  - intros k Hk. rewrite !lookup_insert_ne by done. auto.
  - rewrite !lookup_insert. exact Hc.
Qed.

Lemma ctrl_handle_iso o h now env g cs1 cs2 g' cs1' fs envs e :
  sort_ok o -> csrel (Some cs1) (Some cs2) ->
  ctrl_handle c o h now env g cs1 = (g', cs1', fs, HRet envs e) -> not_named (h_id h) i fs ->
  exists cs2', ctrl_handle c o h now env g cs2 = (g', cs2', fs, HRet envs e) /\ csrel (Some cs1') (Some cs2').
Proof.
  intros Hs HR H Hn. unfold ctrl_handle in *.
  destruct cs1 as [hi1|ps1| |l1], cs2 as [hi2|ps2| |l2]; try discriminate HR; destruct (h_impl h); try discriminate H.
  - destruct (a_handle _ _ _ _ _ _ hi1) as [[[g1 h1] f1] r1] eqn:E. injection H as <- <- <- ->.
    apply (a_handle_iso _ _ _ _ _ _ _ hi2) in E as (h2 & E2 & Hh); [|exact HR|exact Hn]. rewrite E2. eauto.
  - destruct (p_handle _ _ _ _ _ _ ps1) as [[[g1 h1] f1] r1] eqn:E. injection H as <- <- <- ->.
    apply (p_handle_iso _ _ _ _ _ _ _ ps2) in E as (h2 & E2 & Hh); [|done|exact HR|exact Hn]. rewrite E2. eauto.
  - destruct (i_handle _ _ _ _ _ _) as [[g1 f1] r1]. injection H as <- <- <- ->. eexists. done.
  - injection HR as <-. destruct (j_handle _ _ _ _ _ _ _) as [[g1 f1] r1]. injection H as <- <- <- ->. eexists. done.
Qed.

Lemma e_handle_iso o oo env h st1 st2 st1' fs envs e :
  h ∈ c_app c -> sort_ok o -> srel st1 st2 ->
  e_handle c o oo env (Some h) st1 = (st1', fs, HRet envs e) -> not_named (h_id hd) i fs ->
  exists st2', e_handle c o oo env (Some h) st2 = (st2', fs, HRet envs e) /\ srel st1' st2'.
Proof.
  intros Hh Hs HR H Hn. unfold e_handle in *.
  destruct (skip_handler h oo) as [sr|]; [injection H as <- <- <- <-; eauto|].
  destruct (decide (h_name h = h_name hd)) as [He|Hne].
  - assert (h = hd) as -> by (eapply app_name_inj; eassumption).
    destruct HR as (Hg & Ho & Hc). rewrite <- Hg.
    destruct (es_cs st1 !! h_name hd) as [cs1|] eqn:E1; [|done].
    destruct (es_cs st2 !! h_name hd) as [cs2|] eqn:E2; [|destruct cs1; discriminate Hc].
    destruct (ctrl_handle c o hd _ _ _ cs1) as [[[g1 cs1'] fs1] [envs1 e1|v]] eqn:E; [|done].
    injection H as <- <- <- <-.
    apply (ctrl_handle_iso _ _ _ _ _ _ cs2) in E as (cs2' & E' & Hr); [|done|exact Hc|].
    + rewrite E'. eexists. split; [reflexivity|]. apply srel_insert_hd; [|exact Hr].
      split; [done|]. split; [done|]. rewrite E1, E2. exact Hc.
    + apply not_named_cons in Hn as [_ Hn]. apply not_named_app in Hn as [Hn _]. exact Hn.
  - rewrite <- (proj1 (proj2 HR) _ Hne), <- (proj1 HR).
    destruct (es_cs st1 !! h_name h) as [cs1|]; [|done].
    destruct (ctrl_handle c o h _ _ _ cs1) as [[[g1 cs1'] fs1] [envs1 e1|v]]; [|done].
    injection H as <- <- <- <-. eexists. split; [reflexivity|]. apply srel_insert; done.
Qed.

Lemma e_handlers_iso o oo env : sort_ok o -> forall hs st1 st2 st1' fs x,
  (forall h, Some h ∈ hs -> h ∈ c_app c) -> srel st1 st2 ->
  e_handlers c o oo env hs st1 = (st1', fs, inl x) -> not_named (h_id hd) i fs ->
  exists st2', e_handlers c o oo env hs st2 = (st2', fs, inl x) /\ srel st1' st2'.
Proof.
  intros Hs. induction hs as [|[h|] hs IH]; intros st1 st2 st1' fs x Happ HR; cbn [e_handlers].
  - intros [= <- <- <-] _. eauto.
  - destruct (e_handle c o oo env (Some h) st1) as [[sa fa] [envs e|v]] eqn:E; [|done].
    destruct (e_handlers c o oo env hs sa) as [[sb fb] [[envs' errs']|v]] eqn:E2; [|done].
    intros [= <- <- <-] Hn. apply not_named_app in Hn as [Hn1 Hn2].
    apply (e_handle_iso _ _ _ _ _ st2) in E as (sa2 & E' & Ha); [|apply Happ; set_solver|done|done|done].
    apply (IH _ sa2) in E2 as (sb2 & E2' & Hb); [|intros; apply Happ; set_solver|done|done].
    rewrite E', E2'. eauto.
  - done.
Qed.

Lemma e_message_iso o oo env st1 st2 st1' fs x : sort_ok o -> srel st1 st2 ->
  e_message c o oo env st1 = (st1', fs, inl x) -> not_named (h_id hd) i fs ->
  exists st2', e_message c o oo env st2 = (st2', fs, inl x) /\ srel st1' st2'.
Proof.
  intros Hs HR H Hn. unfold e_message in *. destruct (targets c env) as [hs|] eqn:Et; [|done].
  destruct (e_handlers c o oo env hs st1) as [[sa fa] [[envs errs]|v]] eqn:E; [|done].
  injection H as <- <- <-. apply not_named_cons in Hn as [_ Hn]. apply not_named_app in Hn as [Hn _].
  apply (e_handlers_iso _ _ _ Hs _ _ st2) in E as (sb & E' & Hb); [|intros h; eapply targets_in; done|done|done].
  rewrite E'. eauto.
Qed.

Lemma e_loop_iso o oo : sort_ok o -> forall fuel q err st1 st2 st1' fs r, srel st1 st2 ->
  e_loop c o oo fuel q err st1 = (st1', fs, r) -> did_not_panic r -> not_named (h_id hd) i fs ->
  exists st2', e_loop c o oo fuel q err st2 = (st2', fs, r) /\ srel st1' st2'.
Proof.
  intros Hs. induction fuel as [|fuel IH]; intros q err st1 st2 st1' fs r HR; destruct q as [|env q]; cbn [e_loop];
    try (intros [= <- <- <-] _ _; eauto; fail).
  destruct (e_message c o oo env st1) as [[sa fa] [[envs derr]|v]] eqn:E;
    [|intros [= <- <- <-] Hp; destruct (Hp v); done].
  destruct (poll_ctx o (es_g sa)) as [g ce] eqn:Ep.
  destruct ce as [ce|].
  - intros [= <- <- <-] _ Hn. apply (e_message_iso _ _ _ _ st2) in E as (sb & E' & Hb); [|done|done|done].
    rewrite E'. rewrite (proj1 Hb) in Ep. rewrite Ep. eexists. split; [reflexivity|]. apply srel_g. done.
  - destruct (e_loop c o oo fuel _ _ _) as [[s2 fs2] r2] eqn:E2. intros [= <- <- <-] Hp Hn.
    apply not_named_app in Hn as [Hn1 Hn2].
    apply (e_message_iso _ _ _ _ st2) in E as (sb & E' & Hb); [|done|done|done].
    rewrite E'. rewrite (proj1 Hb) in Ep. rewrite Ep.
    apply (IH _ _ _ (es_set_g sb g)) in E2 as (sd & E2' & Hd); [|apply srel_g; done|done|done].
    rewrite E2'. eauto.
Qed.

Lemma e_dispatch_iso o fuel m opts st1 st2 st1' fs r : sort_ok o -> srel st1 st2 ->
  e_dispatch c o fuel m opts st1 = (st1', fs, r) -> did_not_panic r -> not_named (h_id hd) i fs ->
  exists st2', e_dispatch c o fuel m opts st2 = (st2', fs, r) /\ srel st1' st2'.
Proof.
  intros Hs HR H Hp Hn. unfold e_dispatch in *. rewrite <- (proj1 HR).
  destruct (next_id o (es_g st1)) as [g id].
  destruct (new_opts c (o_wall o) opts) as [oo|v]; [|injection H as <- <- <-; destruct (Hp v); done].
  destruct (m_kind m) eqn:Ek; [| |injection H as <- <- <-; edestruct Hp; done].
  all: destruct (m_invalid m); [injection H as <- <- <-; edestruct Hp; done|].
  all: destruct (routes c !! m_type m); [|injection H as <- <- <-; edestruct Hp; done].
  all: cbn [es_set_g es_g] in *.
  all: destruct (lock o g) as [g1 [e|]];
    [injection H as <- <- <-; eexists; split; [reflexivity|]; apply (srel_g (es_set_g st1 g) (es_set_g st2 g)); apply srel_g; done|].
  all: destruct (e_loop c o oo fuel _ _ _) as [[s2 fs2] r2] eqn:E2.
  all: assert (Hx : s2 = st1' /\ did_not_panic r2 /\ not_named (h_id hd) i fs2) by
    (destruct r2; injection H as <- <- <-; (split; [done|]); (split; [intros v0; first [discriminate|exact (Hp v0)]|]);
     apply not_named_cons in Hn as [_ Hn]; try (apply not_named_app in Hn as [Hn _]); exact Hn).
  all: destruct Hx as (-> & Hp2 & Hn2).
  all: apply (e_loop_iso o oo Hs _ _ _ _ (es_set_g (es_set_g st2 g) g1)) in E2 as (sb & E' & Hb);
    [|apply srel_g, srel_g; done|done|done].
  all: cbn [es_set_g es_cs] in E' |- *; rewrite E'; destruct r2; injection H as <- <-; eauto.
Qed.

(** ** Ticks *)
Hypothesis Req : forall l1 l2, R l1 l2 <-> l1 = l2.

Lemma ctrl_tick_iso h now g cs1 cs2 g' cs1' fs r :
  csrel (Some cs1) (Some cs2) -> ctrl_tick h now g cs1 = (g', cs1', fs, r) ->
  exists cs2', ctrl_tick h now g cs2 = (g', cs2', fs, r) /\ csrel (Some cs1') (Some cs2').
Proof.
  intros HR H. unfold ctrl_tick in *.
  destruct cs1 as [hi1|ps1| |l1], cs2 as [hi2|ps2| |l2]; try discriminate HR.
  - destruct (h_impl h); injection H as <- <- <- <-; eauto.
  - destruct HR as [Hi Ht]. apply Req in Ht. unfold p_tick in *.
    destruct (h_impl h); try (injection H as <- <- <- <-; eexists; split; [reflexivity|]; split; [exact Hi|apply Req, Ht]).
    rewrite <- Ht. destruct (p_split now (pc_timeouts ps1)) as [a b]. injection H as <- <- <- <-.
    eexists. split; [reflexivity|]. split; [exact Hi|apply Req; done].
  - eexists. split; [exact H|]. destruct (h_impl h); injection H as <- <- <- <-; done.
  - injection HR as <-. eexists. split; [exact H|]. destruct (h_impl h); try (injection H as <- <- <- <-; done).
    destruct (j_tick_ctrl _ _ _ _ _) as [[[? ?] ?] ?]. injection H as <- <- <- <-. done.
Qed.

Lemma e_tick_one_iso o oo h st1 st2 st1' fs r : h ∈ c_app c -> srel st1 st2 ->
  e_tick_one c o oo h st1 = (st1', fs, r) ->
  exists st2', e_tick_one c o oo h st2 = (st2', fs, r) /\ srel st1' st2'.
Proof.
  intros Hh HR H. unfold e_tick_one in *.
  destruct (skip_handler h oo) as [sr|]; [injection H as <- <- <-; eauto|].
  destruct (decide (h_name h = h_name hd)) as [He|Hne].
  - assert (h = hd) as -> by (eapply app_name_inj; eassumption).
    pose proof HR as HR'. destruct HR as (Hg & Ho & Hc). rewrite <- Hg.
    destruct (es_cs st1 !! h_name hd) as [cs1|] eqn:E1; (destruct (es_cs st2 !! h_name hd) as [cs2|] eqn:E2);
      [|exfalso; destruct cs1; discriminate Hc|exfalso; discriminate Hc|].
    + destruct (ctrl_tick hd _ _ cs1) as [[[g1 cs1'] fs1] r1] eqn:E.
      apply (ctrl_tick_iso _ _ _ _ cs2) in E as (cs2' & E' & Hr); [|exact Hc]. rewrite E'.
      destruct r1; injection H as <- <- <-; eexists; (split; [reflexivity|]); apply srel_insert_hd; done.
    + injection H as <- <- <-. eauto.
  - rewrite <- (proj1 (proj2 HR) _ Hne), <- (proj1 HR).
    destruct (es_cs st1 !! h_name h) as [cs1|]; [|injection H as <- <- <-; eauto].
    destruct (ctrl_tick h _ _ cs1) as [[[g1 cs1'] fs1] r1].
    destruct r1; injection H as <- <- <-; eexists; (split; [reflexivity|]); apply srel_insert; done.
Qed.

Lemma poll_unless_skipped_iso o oo h st1 st2 st1' ce : srel st1 st2 ->
  poll_unless_skipped o oo h st1 = (st1', ce) ->
  exists st2', poll_unless_skipped o oo h st2 = (st2', ce) /\ srel st1' st2'.
Proof.
  intros HR H. unfold poll_unless_skipped in *. destruct (skip_handler h oo); [injection H as <- <-; eauto|].
  rewrite <- (proj1 HR). destruct (poll_ctx o (es_g st1)) as [g e]. injection H as <- <-.
  eexists. split; [reflexivity|]. apply srel_g. done.
Qed.

Lemma e_tick_handlers_iso o oo : forall hs st1 st2 st1' fs r,
  (forall h, h ∈ hs -> h ∈ c_app c) -> srel st1 st2 ->
  e_tick_handlers c o oo hs st1 = (st1', fs, r) ->
  exists st2', e_tick_handlers c o oo hs st2 = (st2', fs, r) /\ srel st1' st2'.
Proof.
  induction hs as [|h hs IH]; intros st1 st2 st1' fs r Happ HR; cbn [e_tick_handlers].
  - intros [= <- <- <-]. eauto.
  - destruct (e_tick_one c o oo h st1) as [[sa fa] r1] eqn:E.
    apply (e_tick_one_iso _ _ _ _ st2) in E as (sb & E' & Hb); [|apply Happ; set_solver|done]. rewrite E'.
    destruct r1 as [envs e|v]; [|intros [= <- <- <-]; eauto].
    destruct (poll_unless_skipped o oo h sa) as [sc ce] eqn:Ep.
    apply (poll_unless_skipped_iso _ _ _ _ sb) in Ep as (sd & Ep' & Hd); [|done]. rewrite Ep'.
    destruct ce as [ce|]; [intros [= <- <- <-]; eauto|].
    destruct (e_tick_handlers c o oo hs sc) as [[se fe] re] eqn:E2.
    apply (IH _ sd) in E2 as (sf & E2' & Hf); [|intros; apply Happ; set_solver|done]. rewrite E2'.
    intros [= <- <- <-]. eauto.
Qed.

Lemma e_tick_iso o fuel order opts st1 st2 st1' fs r : sort_ok o -> order ≡ₚ c_app c -> srel st1 st2 ->
  e_tick c o fuel order opts st1 = (st1', fs, r) -> did_not_panic r -> not_named (h_id hd) i fs ->
  exists st2', e_tick c o fuel order opts st2 = (st2', fs, r) /\ srel st1' st2'.
Proof.
  intros Hs Hord HR H Hp Hn. unfold e_tick in *. rewrite <- (proj1 HR).
  destruct (new_opts c (o_wall o) opts) as [oo|v]; [|injection H as <- <- <-; edestruct Hp; done].
  destruct (lock o (es_g st1)) as [g1 [e|]];
    [injection H as <- <- <-; eexists; split; [reflexivity|]; apply srel_g; done|].
  unfold e_tick_body in *.
  destruct (e_tick_handlers c o oo order (es_set_g st1 g1)) as [[sa fa] res] eqn:E.
  apply (e_tick_handlers_iso _ _ _ _ (es_set_g st2 g1)) in E as (sb & E' & Hb);
    [|intros h; rewrite Hord; done|apply srel_g; done]. rewrite E'.
  destruct res as [q errs|e|v]; [|injection H as <- <- <-; eauto|injection H as <- <- <-; eauto].
  destruct (e_loop c o oo fuel q [] sa) as [[sc fc] rc] eqn:E2.
  assert (Hx : sc = st1' /\ did_not_panic rc /\ not_named (h_id hd) i fc).
  { destruct rc; injection H as <- <- <-; (split; [done|]); (split; [intros v0; first [discriminate|exact (Hp v0)]|]).
    - apply not_named_cons in Hn as [_ Hn]. apply not_named_app in Hn as [Hn _]. apply not_named_app in Hn as [_ Hn]. exact Hn.
    - apply not_named_cons in Hn as [_ Hn]. apply not_named_app in Hn as [_ Hn]. exact Hn.
    - apply not_named_cons in Hn as [_ Hn]. apply not_named_app in Hn as [_ Hn]. exact Hn. }
  destruct Hx as (-> & Hp2 & Hn2).
  apply (e_loop_iso o oo Hs _ _ _ _ sb) in E2 as (sd & E2' & Hd); [|done|done|done].
  rewrite E2'. destruct rc; injection H as <- <-; eauto.
Qed.
End Hd.
End Rel.
End IsoProof.

Section IsoLemmas.
Context {P : Params}.
Implicit Types (c : Config) (o : Oracle) (h hd : Handler) (st : EState).

Definition others_alike (i : string) (l1 l2 : list Env) : Prop := forall j, j <> i -> mine j l2 ≡ₚ mine j l1.

Lemma alike_sort i o l1 l2 p : sort_ok o -> others_alike i l1 l2 -> others_alike i (o_sort o (l1 ++ p)) (o_sort o (l2 ++ p)).
Proof.
  intros Hs H j Hj. unfold mine. rewrite (proj1 (Hs (l1 ++ p))), (proj1 (Hs (l2 ++ p))), !filter_app.
  apply Permutation_app_tail. apply H. done.
Qed.
Lemma mine_delete_eq i l : mine i (filter (fun e => origin_instance e <> i) l) =
  filter (fun e => origin_instance e <> i) (mine i l).
Proof.
  unfold mine. rewrite !list_filter_filter. apply list_filter_iff. intros x. tauto.
Qed.
Lemma alike_del i id l1 l2 : id <> i -> others_alike i l1 l2 ->
  others_alike i (filter (fun e => origin_instance e <> id) l1) (filter (fun e => origin_instance e <> id) l2).
Proof.
  intros Hne H j Hj. destruct (decide (j = id)) as [->|Hjd].
  - rewrite !mine_delete_eq. rewrite (H id Hj). done.
  - rewrite !mine_delete by done. apply H. done.
Qed.

Lemma longer_ne (i : string) : String Ascii.zero i <> i.
Proof. induction i as [|a i IH]; [done|]. intros H. injection H as <- H. auto. Qed.

Lemma differ_only_in_srel hd i st1 st2 : differ_only_in hd i st1 st2 <-> srel i (others_alike i) hd st1 st2.
Proof.
  unfold differ_only_in, srel. split; intros (Hg & Ho & H); (split; [done|]); (split; [done|]).
  - pose proof (H _ (longer_ne i)) as Hx. unfold csrel, PR, others_alike.
    destruct (es_cs st1 !! h_name hd) as [[]|], (es_cs st2 !! h_name hd) as [[]|]; cbn in *; try done.
    + intros j Hj. symmetry. apply H. done.
    + split; intros j Hj; [symmetry|]; apply H; done.
    + congruence.
  - intros j Hj. unfold csrel, PR, others_alike in H.
    destruct (es_cs st1 !! h_name hd) as [[]|], (es_cs st2 !! h_name hd) as [[]|]; cbn in *; try done.
    + symmetry. apply H. done.
    + destruct H as [H1 H2]. split; [symmetry; apply H1|apply H2]; done.
    + congruence.
Qed.
Lemma differ_only_inside_srel hd i st1 st2 : differ_only_inside hd i st1 st2 <-> srel i eq hd st1 st2.
Proof. done. Qed.

Lemma facts_of_fmap fs : facts_of (EvFact <$> fs) = fs.
Proof. unfold facts_of. induction fs as [|f fs IH]; [done|]. cbn. f_equal. exact IH. Qed.

Lemma C107_dispatch_lemma c o fuel m opts hd i st1 st2 st1' evs r :
  app_ok c -> hd ∈ c_app c -> sort_ok o -> differ_only_in hd i st1 st2 ->
  run_op c (OpDispatch o fuel m opts) st1 = (st1', evs, r) -> did_not_panic r -> not_named (h_id hd) i (facts_of evs) ->
  exists st2', run_op c (OpDispatch o fuel m opts) st2 = (st2', evs, r) /\ differ_only_in hd i st1' st2'.
Proof.
  intros Hok Hin Hs HR H Hp Hn. apply differ_only_in_srel in HR. cbn [run_op] in *.
  destruct (e_dispatch c o fuel m opts st1) as [[sa fs] ra] eqn:E. injection H as <- <- <-.
  rewrite facts_of_fmap in Hn.
  apply (e_dispatch_iso i (others_alike i) (alike_sort i) (alike_del i) c hd Hok Hin _ _ _ _ _ st2) in E as (sb & E' & Hb); try done.
  rewrite E'. eexists. split; [reflexivity|]. apply differ_only_in_srel. done.
Qed.

Lemma C107_contents_lemma c op hd i st1 st2 st1' evs r :
  app_ok c -> op_ok c op -> hd ∈ c_app c -> differ_only_inside hd i st1 st2 ->
  run_op c op st1 = (st1', evs, r) -> did_not_panic r -> not_named (h_id hd) i (facts_of evs) ->
  exists st2', run_op c op st2 = (st2', evs, r) /\ differ_only_inside hd i st1' st2'.
Proof.
  intros Hok Hop Hin HR H Hp Hn. apply differ_only_inside_srel in HR. 
  assert (Rs : forall o l1 l2 p, sort_ok o -> l1 = l2 -> o_sort o (l1 ++ p) = o_sort o (l2 ++ p)) by (intros; congruence).
  assert (Rd : forall id (l1 l2 : list Env), id <> i -> l1 = l2 ->
    filter (fun e => origin_instance e <> id) l1 = filter (fun e => origin_instance e <> id) l2) by (intros; congruence).
  destruct op as [o fuel m opts|o fuel order opts| |f]; cbn [run_op] in *.
  - destruct (e_dispatch c o fuel m opts st1) as [[sa fs] ra] eqn:E. injection H as <- <- <-.
    rewrite facts_of_fmap in Hn.
    apply (e_dispatch_iso i eq Rs Rd c hd Hok Hin _ _ _ _ _ st2) in E as (sb & E' & Hb); try done.
    rewrite E'. eexists. split; [reflexivity|]. exact Hb.
  - destruct Hop as [Hs Hord]. destruct (e_tick c o fuel order opts st1) as [[sa fs] ra] eqn:E. injection H as <- <- <-.
    rewrite facts_of_fmap in Hn.
    apply (e_tick_iso i eq Rs Rd c hd Hok Hin (fun l1 l2 => reflexivity (l1 = l2)) _ _ _ _ _ st2) in E as (sb & E' & Hb); try done.
    rewrite E'. eexists. split; [reflexivity|]. exact Hb.
  - injection H as <- <- <-. eexists. split; [reflexivity|]. destruct HR as (Hg & Ho & Hc).
    unfold e_reset. split; [cbn; rewrite Hg; done|]. cbn [es_cs]. split.
    + intros n Hn'. rewrite !lookup_fmap, (Ho n Hn'). done.
    + rewrite !lookup_fmap. destruct (es_cs st1 !! h_name hd) as [[]|], (es_cs st2 !! h_name hd) as [[]|]; cbn in *; try done; try congruence.
  - injection H as <- <- <-. eexists. split; [reflexivity|]. rewrite <- (proj1 HR). apply srel_g. done.
Qed.
End IsoLemmas.
