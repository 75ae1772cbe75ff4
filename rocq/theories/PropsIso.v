(** * What an operation does depends only on the instances it names. *)
From Verif Require Import IsoSpec IsoProof EngDemo.

Section Props.
Context {P : Params}.

(** C107.  Let a Dispatch that does not panic notify of no fact about instance [i] of [hd].
    Then it does exactly the same, with the same facts and the same errors, whatever else has
    happened to that instance, and whatever timeouts it has pending; and afterwards the
    engines are again alike but for that instance. *)
Theorem C107_dispatch_depends_on_the_instances_it_names c o fuel m opts hd i st1 st2 st1' evs r :
  app_ok c -> hd ∈ c_app c -> sort_ok o -> differ_only_in hd i st1 st2 ->
  run_op c (OpDispatch o fuel m opts) st1 = (st1', evs, r) -> did_not_panic r -> not_named (h_id hd) i (facts_of evs) ->
  exists st2', run_op c (OpDispatch o fuel m opts) st2 = (st2', evs, r) /\ differ_only_in hd i st1' st2'.
Proof. exact (C107_dispatch_lemma c o fuel m opts hd i st1 st2 st1' evs r). Qed.

(** C107.  The same of every operation, ticks included, if the engines differ in the events or
    the root of the instance only. *)
Theorem C107_contents_are_seen_only_by_naming c op hd i st1 st2 st1' evs r :
  app_ok c -> op_ok c op -> hd ∈ c_app c -> differ_only_inside hd i st1 st2 ->
  run_op c op st1 = (st1', evs, r) -> did_not_panic r -> not_named (h_id hd) i (facts_of evs) ->
  exists st2', run_op c op st2 = (st2', evs, r) /\ differ_only_inside hd i st1' st2'.
Proof. exact (C107_contents_lemma c op hd i st1 st2 st1' evs r). Qed.
End Props.
Print Assumptions C107_dispatch_depends_on_the_instances_it_names.
Print Assumptions C107_contents_are_seen_only_by_naming.

(** ** Concrete cases *)

Definition names (h : HId) (i : string) (f : Fact) : bool := bool_decide (instance_named f = Some (h, i)).
Lemma not_named_b h i fs : forallb (fun f => negb (names h i f)) fs = true -> not_named h i fs.
Proof.
  intros H f Hf Hx. rewrite forallb_forall in H. specialize (H f (proj1 (elem_of_list_In _ _) Hf)).
  unfold names in H. rewrite bool_decide_eq_true_2 in H by done. done.
Qed.
Definition panicked (r : Out Errs) : bool := match r with Pan _ => true | _ => false end.
Lemma no_panic_b r : panicked r = false -> did_not_panic r.
Proof. intros H v ->. done. Qed.

(** The engine with another history of aggregate instance [i] of [h], or another root of
    process instance [i]. *)
Definition with_history (h : Handler) (i : string) (l : list Env) (st : EState) : EState :=
  match es_cs st !! h_name h with
  | Some (CSAgg hist) => mkE (es_g st) (<[h_name h := CSAgg (<[i := l]> hist)]> (es_cs st))
  | _ => st
  end.
Definition with_root (h : Handler) (i : string) (rt : Root) (st : EState) : EState :=
  match es_cs st !! h_name h with
  | Some (CSProc ps) =>
    mkE (es_g st) (<[h_name h := CSProc (mkPState (<[i := rt]> (pc_instances ps)) (pc_timeouts ps))]> (es_cs st))
  | _ => st
  end.
Lemma same_but_contents_refl i cs : same_but_contents i cs cs.
Proof. destruct cs as [[]|]; done. Qed.
Lemma with_history_differs h i l st : differ_only_inside h i st (with_history h i l st).
Proof.
  unfold with_history. destruct (es_cs st !! h_name h) as [[hist| | |]|] eqn:E;
    try (split; [done|]; split; [done|]; apply same_but_contents_refl).
  split; [done|]. cbn [es_cs]. split.
  - intros n Hn. rewrite lookup_insert_ne by done. done.
  - rewrite lookup_insert, E. cbn. intros j Hj. rewrite lookup_insert_ne by done. done.
Qed.
Lemma with_root_differs h i rt st : differ_only_inside h i st (with_root h i rt st).
Proof.
  unfold with_root. destruct (es_cs st !! h_name h) as [[|ps| |]|] eqn:E;
    try (split; [done|]; split; [done|]; apply same_but_contents_refl).
  split; [done|]. cbn [es_cs]. split.
  - intros n Hn. rewrite lookup_insert_ne by done. done.
  - rewrite lookup_insert, E. cbn. split; [|done]. intros j Hj. rewrite lookup_insert_ne by done. done.
Qed.
Lemma differ_inside_in h i st1 st2 : differ_only_inside h i st1 st2 -> differ_only_in h i st1 st2.
Proof.
  intros (Hg & Ho & H). split; [done|]. split; [done|]. intros j Hj.
  destruct (es_cs st1 !! h_name h) as [[]|], (es_cs st2 !! h_name h) as [[]|]; cbn in *; try done.
  - symmetry. auto.
  - destruct H as [H1 H2]. rewrite H2. split; [symmetry; auto|done].
  - congruence.
Qed.

Lemma same_dispatch c op hd i st1 st2 x :
  app_ok c -> op_ok c op -> hd ∈ c_app c -> differ_only_in hd i st1 st2 ->
  match op with OpDispatch _ _ _ _ => True | _ => False end -> run_op c op st1 = x ->
  panicked x.2 = false -> forallb (fun f => negb (names (h_id hd) i f)) (facts_of x.1.2) = true ->
  exists st2', run_op c op st2 = (st2', x.1.2, x.2).
Proof.
  intros Hc Hop Hh Hd Hk Hx Hp Hn. destruct x as [[s e] r]. destruct op as [o fuel m opts| | |]; try done.
  assert (Hs : sort_ok o) by apply Hop.
  destruct (C107_dispatch_depends_on_the_instances_it_names _ _ _ _ _ _ _ _ _ _ _ _ Hc Hh Hs Hd Hx (no_panic_b _ Hp) (not_named_b _ _ _ Hn)) as (s' & H & _).
  by exists s'.
Qed.
Lemma same_op c op hd i st1 st2 x :
  app_ok c -> op_ok c op -> hd ∈ c_app c -> differ_only_inside hd i st1 st2 -> run_op c op st1 = x ->
  panicked x.2 = false -> forallb (fun f => negb (names (h_id hd) i f)) (facts_of x.1.2) = true ->
  exists st2', run_op c op st2 = (st2', x.1.2, x.2).
Proof.
  intros Hc Hop Hh Hd Hx Hp Hn. destruct x as [[s e] r].
  destruct (C107_contents_are_seen_only_by_naming _ _ _ _ _ _ _ _ _ Hc Hop Hh Hd Hx (no_panic_b _ Hp) (not_named_b _ _ _ Hn)) as (s' & H & _).
  by exists s'.
Qed.

(** Dispatching "Open 5" concerns instance "b" of the aggregate, so it does the same whatever
    the history of instance "a"... *)
Definition before_open : EState := ops_st demo [] [open_at 100 4].
Local Notation open5 := (run_op demo (open_at 200 5) before_open).
Lemma open5_ok : op_ok demo (open_at 200 5).
Proof. exact quietly_ok. Qed.
Example open5_is_about_b :
  panicked open5.2 = false /\
  forallb (fun f => negb (names (h_id hAgg) "a" f)) (facts_of open5.1.2) = true /\
  existsb (names (h_id hAgg) "b") (facts_of open5.1.2) = true /\ length open5.1.2 = 30.
Proof. vm_compute. done. Qed.
Example open5_ignores_a l : exists st2,
  run_op demo (open_at 200 5) (with_history hAgg "a" l before_open) = (st2, open5.1.2, open5.2).
Proof.
  destruct open5_is_about_b as (Hp & Hn & _ & _).
  exact (same_dispatch demo (open_at 200 5) hAgg "a" before_open _ _ demo_ok open5_ok ltac:(left) (differ_inside_in _ _ _ _ (with_history_differs _ _ _ _)) I eq_refl Hp Hn).
Qed.
(** ... which is not so of "Open 6", which is about instance "a". *)
Definition root_loaded (f : Fact) : option (list nat) :=
  match f with AggregateInstanceLoaded _ _ rt _ => Some rt | _ => None end.
Example open6_looks_at_a :
  omap root_loaded (facts_of (run_op demo (open_at 200 6) before_open).1.2) = [[4]] /\
  omap root_loaded (facts_of (run_op demo (open_at 200 6) (with_history hAgg "a" [] before_open)).1.2) = [[]].
Proof. vm_compute. done. Qed.

(** A Tick at which a timeout of process instance "p" is due does the same whether or not there
    is an instance "q". *)
Definition before_tick : EState := ops_st flow [] [go_at 100 6].
Local Notation tick_p := (run_op flow (wait_until 200) before_tick).
Example tick_is_about_p :
  panicked tick_p.2 = false /\
  forallb (fun f => negb (names flow_id "q" f)) (facts_of tick_p.1.2) = true /\
  existsb (names flow_id "p") (facts_of tick_p.1.2) = true.
Proof. vm_compute. done. Qed.
Example tick_ignores_q rt : exists st2,
  run_op flow (wait_until 200) (with_root hFlow "q" rt before_tick) = (st2, tick_p.1.2, tick_p.2).
Proof.
  destruct tick_is_about_p as (Hp & Hn & _).
  exact (same_op flow (wait_until 200) hFlow "q" before_tick _ _ flow_ok (wait_ok 200) ltac:(right; left) (with_root_differs _ _ _ _) eq_refl Hp Hn).
Qed.
