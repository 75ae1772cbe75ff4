(** * C97: engines are built as their options say; the order of handlers does not matter *)
From Verif Require Import NewSpec NewProof Demo.

Section Props.
Context {P : Params}.

(** An engine has one controller for each handler, found under its name; for each type of
    message the controllers of the handlers that consume it, each once; and the hooks of all
    calls of WithResetter(), in order.  The controllers of projections compact during handling
    if the last option about it says so. *)
Theorem C97_new visited calls e :
  NoDup (h_name <$> visited) -> must_new visited calls = inl e ->
  exists b, compaction calls b /\ en_resetters e = hooks calls /\
    (forall n ctrl, en_controllers e !! n = Some ctrl <-> exists h, h ∈ visited /\ h_name h = n /\ controls b h ctrl) /\
    (forall t, Forall2 (controls b) (filter (fun h => t ∈ h_consumed h) visited) (default [] (en_routes e !! t))) /\
    (forall t, is_Some (en_routes e !! t) <-> exists h, h ∈ visited /\ t ∈ h_consumed h).
Proof.
  intros Hn He. apply must_new_built in He as (_ & c & (Ha & Hb & Hr) & H1 & H2 & H3).
  exists (c_compact c). split; [done|]. split; [by rewrite H3|]. subst visited. split; [|split].
  - intros n ctrl. rewrite H1, lookup_fmap. split.
    + intros H. destruct (controllers c !! n) as [h|] eqn:E; [|done]. injection H as <-.
      apply controllers_in in E as [Hin <-]. exists h. split; [done|]. split; [done|]. by apply controls_of.
    + intros (h & Hin & <- & Hc). apply controls_of in Hc as ->. unfold controllers.
      rewrite controllers_fold_lookup, filter_name_unique by done. done.
  - intros t. rewrite H2, lookup_fmap.
    assert (Hd : default [] (fmap (M := list) (ctrl_of (c_compact c)) <$> routes c !! t) = ctrl_of (c_compact c) <$> consumers (c_app c) t).
    { rewrite <- routes_default. by destruct (routes c !! t). }
    rewrite Hd. apply Forall2_fmap_r, Forall_Forall2_diag, Forall_true. intros h. by apply controls_of.
  - intros t. rewrite H2, lookup_fmap, fmap_is_Some, routes_lookup. split.
    + intros [l Hl]. destruct (consumers (c_app c) t) as [|h k] eqn:E; [done|].
      assert (Hin : h ∈ consumers (c_app c) t) by (rewrite E; by left).
      apply elem_of_list_filter in Hin as [Ht Hin]. by exists h.
    + intros (h & Hin & Ht). assert (Hc : h ∈ consumers (c_app c) t) by by apply elem_of_list_filter.
      destruct (consumers (c_app c) t) as [|x k]; [by apply elem_of_nil in Hc|]. by eexists.
Qed.

(** Building an engine panics exactly if WithResetter() is given nil. *)
Theorem C97_nil visited calls :
  (exists v, must_new visited calls = inr v) <-> CallResetter None ∈ calls.
Proof.
  split.
  - intros [v Hv]. by apply must_new_panics in Hv as [_ Hv].
  - intros Hin. destruct (must_new visited calls) as [e|v] eqn:E; [|by exists v].
    by apply must_new_built in E as [Hn _].
Qed.

(** The engine that is built has the controllers, the routes and the hooks that the model of
    its operations has, so that all other theorems are about it. *)
Theorem C97_same_engine visited calls e c :
  must_new visited calls = inl e -> configured visited calls c ->
  (forall n, ct_handler <$> en_controllers e !! n = controllers c !! n) /\
  (forall t, fmap (M := list) ct_handler <$> en_routes e !! t = routes c !! t) /\
  (forall n ctrl h j, en_controllers e !! n = Some ctrl -> ct_handler ctrl = h -> h_impl h = ImplProj j -> ct_compact ctrl = Some (c_compact c)) /\
  en_resetters e = c_resetters c.
Proof.
  intros He (Ha & Hb & Hr). apply must_new_built in He as (_ & c0 & (Ha0 & Hb0 & Hr0) & H1 & H2 & H3).
  assert (Hc : c0 = c).
  { destruct c0, c. cbn in *. f_equal; [congruence| |congruence]. by eapply compaction_unique. }
  subst c0. clear Ha0 Hb0 Hr0. split; [|split; [|split; [|done]]].
  - intros n. rewrite H1, lookup_fmap. by destruct (controllers c !! n).
  - intros t. rewrite H2, lookup_fmap. destruct (routes c !! t) as [l|]; [|done]. cbn. f_equal.
    rewrite <- list_fmap_compose. cbn. by rewrite list_fmap_id.
  - intros n ctrl h j Hn Hh Hj. rewrite H1, lookup_fmap in Hn. destruct (controllers c !! n) as [h'|]; [|done].
    injection Hn as <-. cbn in Hh. subst h'. cbn. by rewrite Hj.
Qed.

(** The order in which the handlers are visited decides only about the order in which the
    handlers of one type of message get it.  If no type has two consumers, nothing depends on it. *)
Theorem C97_order c c' : app_ok c -> reordered c c' ->
  controllers c' = controllers c /\
  (forall t, default [] (routes c' !! t) ≡ₚ default [] (routes c !! t)) /\
  (single_consumers c -> forall ops u, run_ops c' ops (e_init c' u) = run_ops c ops (e_init c u)).
Proof.
  intros Hok Hr. split; [by apply same_controllers|]. split; [intros t; by apply routes_permuted|].
  intros Hs ops u. rewrite (same_init c c' Hok Hr). by apply same_ops.
Qed.
End Props.
Print Assumptions C97_new.
Print Assumptions C97_nil.
Print Assumptions C97_same_engine.
Print Assumptions C97_order.

(** ** Concrete cases *)

Definition calls : list EngCall :=
  [CallResetter (Some (cons "first")); CallCompaction true; CallResetter (Some (cons "second")); CallCompaction false; CallCompaction true].
Definition the_engine : option Engine :=
  match must_new (c_app demo) calls with inl e => Some e | inr _ => None end.
(** Names in the routes of a type, what is said to projections, and what the hooks do. *)
Example C97_example :
  match the_engine with
  | Some e =>
    ((fun ctrl => h_name (ct_handler ctrl)) <$> default [] (en_routes e !! (KEvent, "Opened")),
     ct_compact <$> en_controllers e !! "proj", ct_compact <$> en_controllers e !! "agg",
     foldl (fun u f => f u) [] (en_resetters e))
    = (["proc"; "proj"], Some (Some true), Some None, ["second"; "first"])
  | None => False
  end.
Proof. vm_compute. reflexivity. Qed.
Example C97_example_compaction : compaction calls true /\ compaction (take 4 calls) false /\ compaction [CallResetter None] false.
Proof.
  split; [|split].
  - left. exists (take 4 calls), []. split; [done|]. intros b. apply not_elem_of_nil.
  - left. exists (take 3 calls), []. split; [done|]. intros b. apply not_elem_of_nil.
  - right. split; [|done]. intros b H. apply elem_of_list_singleton in H. done.
Qed.
Example C97_example_nil : must_new (c_app demo) [CallCompaction true; CallResetter None] = inr (PEngine "fn must not be nil" None).
Proof. reflexivity. Qed.
Example C97_example_configured : configured (c_app demo) calls (mkConfig (c_app demo) true [cons "first"; cons "second"]).
Proof. split; [done|]. split; [exact (proj1 C97_example_compaction)|done]. Qed.

(** An application without two consumers of a type; its handlers in another order. *)
Definition three : Config := mkConfig [hAgg; hProc; hInt] false [].
Definition three' : Config := mkConfig [hInt; hProc; hAgg] false [].
Example C97_example_order : app_ok three /\ reordered three three' /\ single_consumers three.
Proof.
  split; [solve_app_ok|]. split.
  - split; [|done]. exact (Permutation_sym (Permutation_rev [hAgg; hProc; hInt])).
  - intros t h h' _ Hh Hh' Ht Ht'. unfold three in *. cbn [c_app] in *.
    repeat (apply elem_of_cons in Hh as [->|Hh]); try (by apply elem_of_nil in Hh);
      repeat (apply elem_of_cons in Hh' as [->|Hh']); try (by apply elem_of_nil in Hh'); try done;
      exfalso; cbn [hAgg hProc hInt h_consumed] in Ht, Ht';
      repeat (apply elem_of_cons in Ht as [->|Ht]); try (by apply elem_of_nil in Ht);
      repeat (apply elem_of_cons in Ht' as [Ht'|Ht']); try done; by apply elem_of_nil in Ht'.
Qed.
(** With two consumers the order is visible: the names of the handlers in HandlingBegun. *)
Definition begun (c : Config) : list string :=
  omap (fun ev => match ev with EvFact (HandlingBegun h e) => if decide (m_type (e_msg e) = (KEvent, "Opened")) then Some (hid_name h) else None | _ => None end)
    (run_ops c [open_at 100 4] (e_init c [])).1.2.
Example C97_example_two_consumers :
  begun demo = ["proc"; "proj"] /\ begun (mkConfig [hProj; hProc; hInt; hAgg] false [cons "reset"]) = ["proj"; "proc"].
Proof. vm_compute. split; reflexivity. Qed.
