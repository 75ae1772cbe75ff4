(** * Proofs about the construction of engines *)
From Verif Require Export NewSpec EngineFacts.

Section Proofs.
Context {P : Params}.

Lemma make_options_panics calls v :
  make_options calls = inr v -> v = PEngine "fn must not be nil" None /\ CallResetter None ∈ calls.
Proof.
  induction calls as [|x l IH]; [done|]. cbn. destruct x as [[fn|]|b]; cbn.
  - destruct (make_options l); [done|]. intros [= ->]. destruct IH as [-> H]; [done|]. split; [done|]. by right.
  - intros [= <-]. split; [done|]. by left.
  - destruct (make_options l); [done|]. intros [= ->]. destruct IH as [-> H]; [done|]. split; [done|]. by right.
Qed.
Lemma make_options_ok calls os :
  make_options calls = inl os ->
  CallResetter None ∉ calls /\
  os = map (fun x => match x with CallResetter (Some fn) => EOResetter fn | CallResetter None => EOCompaction false | CallCompaction b => EOCompaction b end) calls.
Proof.
  revert os. induction calls as [|x l IH]; intros os; cbn.
  - intros [= <-]. split; [apply not_elem_of_nil|done].
  - destruct x as [[fn|]|b]; cbn; [|done|]; (destruct (make_options l) as [os'|]; [|done]); intros [= <-];
      destruct (IH os' eq_refl) as [H1 ->]; (split; [|done]); intros H; apply elem_of_cons in H as [H|H]; done.
Qed.

Definition opt_of (x : EngCall) : EngOption :=
  match x with CallResetter (Some fn) => EOResetter fn | CallResetter None => EOCompaction false | CallCompaction b => EOCompaction b end.

Lemma options_resetters calls eo :
  CallResetter None ∉ calls ->
  eo_resetters (foldl apply_engine_option eo (map opt_of calls)) = eo_resetters eo ++ hooks calls.
Proof.
  revert eo. induction calls as [|x l IH]; intros eo Hn; cbn; [by rewrite app_nil_r|].
  apply not_elem_of_cons in Hn as [Hx Hn]. rewrite IH by done. destruct x as [[fn|]|b]; cbn; [|done|done].
  by rewrite <- app_assoc.
Qed.
Lemma options_compact calls eo :
  CallResetter None ∉ calls ->
  let b := eo_compact (foldl apply_engine_option eo (map opt_of calls)) in
  (exists l1 l2, calls = l1 ++ CallCompaction b :: l2 /\ forall b', CallCompaction b' ∉ l2) \/
  ((forall b', CallCompaction b' ∉ calls) /\ b = eo_compact eo).
Proof.
  revert eo. induction calls as [|x l IH]; intros eo Hn; cbn zeta.
  - right. split; [|done]. intros b'. apply not_elem_of_nil.
  - apply not_elem_of_cons in Hn as [Hx Hn]. cbn [map foldl].
    destruct (IH (apply_engine_option eo (opt_of x)) Hn) as [(l1 & l2 & He & H2)|[H1 H2]].
    + left. exists (x :: l1), l2. split; [|done]. cbn [app]. f_equal. exact He.
    + destruct x as [[fn|]|b]; [|done|].
      * right. split; [|done]. intros b' H. apply elem_of_cons in H as [H|H]; [done|]. by apply (H1 b').
      * left. exists [], l. split; [|done]. cbn [app]. f_equal. f_equal. symmetry. exact H2.
Qed.
Lemma compaction_unique calls b b' : compaction calls b -> compaction calls b' -> b = b'.
Proof.
  assert (Hin : forall (l1 l2 : list EngCall) b, CallCompaction b ∈ l1 ++ CallCompaction b :: l2).
  { intros l1 l2 b0. apply elem_of_app. right. by left. }
  intros [(l1 & l2 & -> & H2)|[H1 ->]] [(k1 & k2 & He & K2)|[K1 ->]].
  - revert k1 He. induction l1 as [|x l1 IH]; intros k1 He.
    + destruct k1 as [|y k1]; cbn in He; [by injection He|]. injection He as Hy Hl. destruct (H2 b'). rewrite Hl. apply Hin.
    + destruct k1 as [|y k1]; cbn in He; injection He as Hy He; [|by apply (IH k1)].
      destruct (K2 b). rewrite <- He. apply Hin.
  - destruct (K1 b). apply Hin.
  - destruct (H1 b'). rewrite He. apply Hin.
  - done.
Qed.

Definition ctrl_of (b : bool) (h : Handler) : Ctrl :=
  mkCtrl h (match h_impl h with ImplProj _ => Some b | _ => None end).
Lemma controls_of b h ctrl : controls b h ctrl <-> ctrl = ctrl_of b h.
Proof. destruct ctrl. unfold controls, ctrl_of. cbn. split; [by intros [-> ->]|by intros [= -> ->]]. Qed.

Lemma visit_of eo e h : visit eo e h = register_ctrl (ctrl_of (eo_compact eo) h) e.
Proof. unfold visit, ctrl_of. by destruct (h_impl h). Qed.

(** The engine that is built agrees with the tables of EngineModel.v. *)
Definition built (b : bool) (e : Engine) (cs : gmap string Handler) (rs : gmap MType (list Handler)) (l : list (U -> U)) : Prop :=
  en_controllers e = ctrl_of b <$> cs /\ en_routes e = fmap (M := list) (ctrl_of b) <$> rs /\ en_resetters e = l.
Lemma register_in_fold b h ts e cs rs l :
  built b e cs rs l ->
  built b (foldl (register_in (ctrl_of b h)) e ts) cs (foldl (register_route h) rs ts) l.
Proof.
  revert e rs. induction ts as [|t ts IH]; intros e rs Hb; [done|]. cbn [foldl]. apply IH.
  destruct Hb as (H1 & H2 & H3). unfold register_in, register_route, built. cbn. split; [done|]. split; [|done].
  rewrite H2, fmap_insert, fmap_app. cbn. f_equal. rewrite lookup_fmap. by destruct (rs !! t).
Qed.
Lemma visit_built eo h e cs rs l :
  built (eo_compact eo) e cs rs l ->
  built (eo_compact eo) (visit eo e h) (register_controller cs h) (register_routes rs h) l.
Proof.
  intros (H1 & H2 & H3). rewrite visit_of. unfold register_ctrl, register_routes, register_controller. apply register_in_fold.
  split; [|done]. cbn. by rewrite H1, fmap_insert.
Qed.
Lemma new_built visited options :
  let eo := new_engine_options options in
  let c := mkConfig visited (eo_compact eo) (eo_resetters eo) in
  built (eo_compact eo) (e_new visited options) (controllers c) (routes c) (eo_resetters eo).
Proof.
  cbn zeta. unfold e_new, controllers, routes. cbn [c_app]. set (eo := new_engine_options options).
  assert (H : forall l e cs rs, built (eo_compact eo) e cs rs (eo_resetters eo) ->
    built (eo_compact eo) (foldl (visit eo) e l) (foldl register_controller cs l) (foldl register_routes rs l) (eo_resetters eo)).
  { induction l as [|h l IH]; intros e cs rs Hb; [done|]. cbn [foldl]. apply IH. by apply visit_built. }
  apply H. unfold built. cbn. by rewrite !fmap_empty.
Qed.

Lemma must_new_built visited calls e :
  must_new visited calls = inl e ->
  CallResetter None ∉ calls /\
  exists c, configured visited calls c /\ built (c_compact c) e (controllers c) (routes c) (c_resetters c).
Proof.
  unfold must_new. destruct (make_options calls) as [os|] eqn:Em; [|done]. intros [= <-].
  apply make_options_ok in Em as [Hn ->]. split; [done|]. change (map _ calls) with (map opt_of calls).
  set (eo := new_engine_options (map opt_of calls)).
  exists (mkConfig visited (eo_compact eo) (eo_resetters eo)).
  split; [|exact (new_built visited (map opt_of calls))].
  unfold configured. cbn [c_app c_compact c_resetters]. split; [done|]. split.
  - exact (options_compact calls (mkEO [] false) Hn).
  - unfold eo, new_engine_options. by rewrite (options_resetters calls (mkEO [] false) Hn).
Qed.
Lemma must_new_panics visited calls v :
  must_new visited calls = inr v -> v = PEngine "fn must not be nil" None /\ CallResetter None ∈ calls.
Proof. unfold must_new. destruct (make_options calls) eqn:Em; [done|]. intros [= ->]. by apply make_options_panics. Qed.

(** ** The order of the handlers *)

Section Order.
Context (c c' : Config) (Hok : app_ok c) (Hr : reordered c c') (Hs : single_consumers c).

Lemma ok' : app_ok c'.
Proof.
  destruct Hr as (Hp & _). destruct Hok as [Hn Hh]. split.
  - by rewrite Hp.
  - intros h Hin. apply Hh. by rewrite <- Hp.
Qed.
Lemma same_controllers : controllers c' = controllers c.
Proof.
  destruct Hr as (Hp & _). apply map_eq. intros n.
  destruct (controllers c !! n) as [h|] eqn:E.
  - apply controllers_in in E as [Hin <-]. apply controllers_complete; [apply ok'|]. by rewrite Hp.
  - destruct (controllers c' !! n) as [h|] eqn:E'; [|done].
    apply controllers_in in E' as [Hin <-]. rewrite Hp in Hin. by rewrite (controllers_complete c h Hok Hin) in E.
Qed.
Lemma routes_permuted t : default [] (routes c' !! t) ≡ₚ default [] (routes c !! t).
Proof. destruct Hr as (Hp & _). rewrite !routes_default. unfold consumers. by rewrite Hp. Qed.
Lemma single_list {A} (l : list A) : NoDup l -> (forall x y, x ∈ l -> y ∈ l -> x = y) -> length l <= 1.
Proof.
  destruct l as [|x [|y l]]; cbn; [lia|lia|]. intros Hn H. apply NoDup_cons in Hn as [Hn _].
  destruct Hn. rewrite (H x y); [by left|by left|right; by left].
Qed.
Lemma same_routes t : t.1 <> KTimeout -> routes c' !! t = routes c !! t.
Proof.
  intros Ht. destruct Hr as (Hp & _). rewrite !routes_lookup.
  assert (Hpc : consumers (c_app c') t ≡ₚ consumers (c_app c) t) by (unfold consumers; by rewrite Hp).
  assert (Hl : length (consumers (c_app c) t) <= 1).
  { apply single_list.
    - unfold consumers. apply NoDup_filter. destruct Hok as [Hn _]. by apply NoDup_fmap_1 in Hn.
    - intros x y Hx Hy. unfold consumers in Hx, Hy. apply elem_of_list_filter in Hx as [Hx1 Hx2], Hy as [Hy1 Hy2].
      by apply (Hs t). }
  destruct (consumers (c_app c) t) as [|x [|y l]]; cbn in Hl; [| |lia].
  - apply Permutation_nil_r in Hpc. by rewrite Hpc.
  - apply Permutation_singleton_r in Hpc. by rewrite Hpc.
Qed.

Lemma same_opts w opts : new_opts c' w opts = new_opts c w opts.
Proof.
  unfold new_opts. set (oo := mkOOs _ _ _ _). clearbody oo. revert oo. induction opts as [|x l IH]; intros oo; [done|].
  cbn [apply_opts]. assert (Hx : apply_opt c' oo x = apply_opt c oo x).
  { unfold apply_opt. by rewrite same_controllers. }
  rewrite Hx. destruct (apply_opt c oo x); [apply IH|done].
Qed.
Lemma same_handle o oo env h st : e_handle c' o oo env h st = e_handle c o oo env h st.
Proof. destruct Hr as (_ & Hc & _). unfold e_handle, ctrl_handle. by rewrite Hc. Qed.
Lemma same_handlers o oo env hs st : e_handlers c' o oo env hs st = e_handlers c o oo env hs st.
Proof.
  revert st. induction hs as [|h hs IH]; intros st; [done|]. cbn [e_handlers]. rewrite same_handle.
  destruct (e_handle c o oo env h st) as [[st1 fs] [envs e|v]]; [|done]. by rewrite IH.
Qed.
Lemma same_message o oo env st : e_message c' o oo env st = e_message c o oo env st.
Proof.
  unfold e_message. assert (Ht : targets c' env = targets c env).
  { unfold targets. destruct (m_kind (e_msg env)) eqn:Ek; [| |by rewrite same_controllers].
    all: rewrite same_routes; [done|]; unfold m_type; cbn; by rewrite Ek. }
  rewrite Ht. destruct (targets c env); [|done]. by rewrite same_handlers.
Qed.
Lemma same_loop o oo fuel q err st : e_loop c' o oo fuel q err st = e_loop c o oo fuel q err st.
Proof.
  revert q err st. induction fuel as [|fuel IH]; intros [|env q] err st; try done. cbn [e_loop]. rewrite same_message.
  destruct (e_message c o oo env st) as [[st1 fs] [[envs derr]|v]]; [|done].
  destruct (poll_ctx o (es_g st1)) as [g [e|]]; [done|]. by rewrite IH.
Qed.
Lemma same_dispatch o fuel m opts st : e_dispatch c' o fuel m opts st = e_dispatch c o fuel m opts st.
Proof.
  unfold e_dispatch. destruct (next_id o (es_g st)) as [g id]. rewrite same_opts.
  destruct (new_opts c (o_wall o) opts) as [oo|v]; [|done].
  destruct (m_kind m) eqn:Ek; [| |done].
  all: destruct (m_invalid m); [done|]; assert (Hro : routes c' !! m_type m = routes c !! m_type m)
         by (apply same_routes; unfold m_type; cbn; by rewrite Ek).
  all: destruct (routes c' !! m_type m), (routes c !! m_type m); try done; cbn zeta.
  all: match goal with |- context [lock ?a ?b] => destruct (lock a b) as [g' [e|]] end; [done|].
  all: by rewrite same_loop.
Qed.
Lemma same_tick_one o oo h st : e_tick_one c' o oo h st = e_tick_one c o oo h st.
Proof. done. Qed.
Lemma same_tick_handlers o oo hs st : e_tick_handlers c' o oo hs st = e_tick_handlers c o oo hs st.
Proof.
  revert st. induction hs as [|h hs IH]; intros st; [done|]. cbn [e_tick_handlers]. rewrite same_tick_one.
  destruct (e_tick_one c o oo h st) as [[st1 fs] [envs e|v]]; [|done].
  destruct (poll_unless_skipped o oo h st1) as [st2 [ce|]]; [done|]. by rewrite IH.
Qed.
Lemma same_tick o fuel order opts st : e_tick c' o fuel order opts st = e_tick c o fuel order opts st.
Proof.
  unfold e_tick. rewrite same_opts. destruct (new_opts c (o_wall o) opts) as [oo|v]; [|done].
  destruct (lock o (es_g st)) as [g [e|]]; [done|]. unfold e_tick_body. rewrite same_tick_handlers.
  destruct (e_tick_handlers c o oo order (es_set_g st g)) as [[st1 fs] [q err|e|v]]; [|done|done]. by rewrite same_loop.
Qed.
Lemma same_op op st : run_op c' op st = run_op c op st.
Proof.
  destruct op; cbn [run_op]; [by rewrite same_dispatch|by rewrite same_tick| |done].
  unfold e_reset. destruct Hr as (_ & _ & Hh). by rewrite Hh.
Qed.
Lemma same_ops ops st : run_ops c' ops st = run_ops c ops st.
Proof.
  revert st. induction ops as [|op ops IH]; intros st; [done|]. cbn [run_ops]. rewrite same_op.
  destruct (run_op c op st) as [[st1 evs] [e|v|]]; [by rewrite IH|by rewrite IH|done].
Qed.
Lemma same_init u : e_init c' u = e_init c u.
Proof. unfold e_init. by rewrite same_controllers. Qed.
End Order.
End Proofs.
