(** * Lemmas on locations. *)
From Verif Require Import LocationSpec InflectLemmas.

Lemma text_contains_spec k s : text_contains k s = true <-> contains k s.
Proof.
  unfold contains. induction s as [|c s IH]; cbn [text_contains]; rewrite orb_true_iff, starts_with_spec.
  - split; [intros [[s' H]|H]; [by exists [], s' | done]|]. intros (a & b & H). left. exists b.
    destruct a; [done | done].
  - rewrite IH. split.
    + intros [[s' H]|(a & b & ->)]; [by exists [], s' | by exists (c :: a), b].
    + intros (a & b & H). destruct a as [|x a]; [left; by exists b|]. right. inversion H; subst. by exists a, b.
Qed.

Lemma digit_spec c : digit c = true <-> c ∈ txt "0123456789".
Proof.
  assert (H : digit c = bool_decide (c ∈ txt "0123456789")); [|by rewrite H, bool_decide_eq_true].
  destruct c as [[] [] [] [] [] [] [] []]; vm_compute; reflexivity.
Qed.

Lemma digit_not_dot c : digit c = true -> c <> dot.
Proof. intros H ->. vm_compute in H. done. Qed.

Lemma numbers_spec seen s :
  numbers seen s = true <->
  exists d ds, s = d ++ concat (map (cons dot) ds) /\ Forall (fun c => c ∈ txt "0123456789") d /\
    (seen = true \/ d <> []) /\ Forall is_number ds.
Proof.
  revert seen. induction s as [|c s IH]; intros seen; cbn [numbers].
  - split.
    + intros ->. exists [], []. split_and!; [done | constructor | by left | constructor].
    + intros (d & ds & H & _ & Hor & _). symmetry in H. apply app_eq_nil in H. destruct H as [-> _]. by destruct Hor.
  - destruct (digit c) eqn:Ec.
    + rewrite IH. split.
      * intros (d & ds & -> & Hd & _ & Hds). exists (c :: d), ds. split_and!; [done | constructor; [by apply digit_spec | done] | by right | done].
      * intros (d & ds & H & Hd & Hor & Hds). destruct d as [|x d].
        { destruct ds as [|y ds]; [done|]. cbn in H. inversion H; subst. by apply digit_not_dot in Ec. }
        inversion H; subst. inversion Hd; subst. exists d, ds. split_and!; [done | done | by left | done].
    + destruct (bool_decide_reflect (c = dot)) as [->|Hn].
      * rewrite andb_true_iff, IH. split.
        -- intros [-> (d & ds & -> & Hd & [?|Hne] & Hds)]; [done|]. exists [], (d :: ds).
           split_and!; [done | constructor | by left |]. constructor; [by split | done].
        -- intros (d & ds & H & Hd & Hor & Hds). destruct d as [|x d].
           ++ destruct Hor as [->|]; [|done]. split; [done|]. destruct ds as [|y ds]; [done|]. cbn in H. inversion H; subst.
              inversion Hds as [|? ? [Hy1 Hy2] Hds']; subst. exists y, ds. split_and!; [done | done | by right | done].
           ++ exfalso. inversion H; subst. inversion Hd as [|? ? Hx _]; subst. apply digit_spec in Hx. congruence.
      * split; [done|]. intros (d & ds & H & Hd & Hor & Hds). destruct d as [|x d].
        { destruct ds as [|y ds]; [done|]. cbn in H. inversion H; subst. done. }
        inversion H; subst. inversion Hd as [|? ? Hx _]; subst. apply digit_spec in Hx. congruence.
Qed.

Lemma closure_pattern_spec f : closure_pattern f = true <-> literal_name f.
Proof.
  unfold literal_name. induction f as [|c f IH]; cbn [closure_pattern].
  - split; [done|]. intros (p & d & ds & H & _). destruct p; done.
  - rewrite orb_true_iff, andb_true_iff, IH, starts_with_spec, numbers_spec. split.
    + intros [[[s' Hs] (d & ds & Hd & H1 & H2 & H3)] | (p & d & ds & -> & H1 & H2)].
      * exists [], d, ds. rewrite Hs in Hd. rewrite Hs. change 5 with (length (txt ".func")) in Hd. rewrite drop_app in Hd. subst s'.
        split; [done|]. split; [|done]. split; [by destruct H2 | done].
      * by exists (c :: p), d, ds.
    + intros (p & d & ds & H & [Hd1 Hd2] & Hds). destruct p as [|x p].
      * left. cbn [app] in H. rewrite H. split; [eexists; done|]. exists d, ds. change 5 with (length (txt ".func")).
        rewrite drop_app. split_and!; [done | done | by right | done].
      * right. inversion H; subst. by exists p, d, ds.
Qed.

Lemma is_named_spec l : is_named_func l = true <-> telling_name (lo_func l).
Proof.
  unfold is_named_func, telling_name. destruct (lo_func l) as [|c f] eqn:E; [by split; [|intros [? _]]|].
  rewrite <- text_contains_spec, <- closure_pattern_spec.
  destruct (text_contains (txt "glob..") (c :: f)); [split; [done | intros (_ & H & _); by destruct H]|].
  destruct (closure_pattern (c :: f)); [split; [done | intros (_ & _ & H); by destruct H]|].
  split; [|done]. intros _. done.
Qed.

(** ** path.Base *)
Lemma strip_replicate n s : head s <> Some slash -> strip_slashes (replicate n slash ++ s) = s.
Proof. intros H. induction n as [|n IH]; cbn; [|done]. destruct s as [|c s]; [done|]. cbn. rewrite bool_decide_false; [done|]. by intros ->. Qed.
Lemma until_app b d : slash ∉ b -> (d = [] \/ head d = Some slash) -> until_slash (b ++ d) = b.
Proof.
  intros Hb Hd. induction b as [|c b IH]; cbn.
  - destruct d as [|x d]; [done|]. destruct Hd as [|Hd]; [done|]. inversion Hd; subst. done.
  - rewrite bool_decide_false; [|by intros ->; apply Hb; left]. f_equal. apply IH. intros H. apply Hb. by right.
Qed.
Lemma head_rev (d : text) : head (rev d) = last d.
Proof.
  induction d as [|c d IH] using rev_ind; [done|]. rewrite rev_app_distr. cbn. by rewrite last_snoc.
Qed.
Lemma rev_replicate n (c : ascii) : rev (replicate n c) = replicate n c.
Proof.
  induction n as [|n IH]; [done|]. cbn. rewrite IH. by rewrite <- replicate_cons_app.
Qed.
Lemma base_spec p b : last_element p b -> base p = b.
Proof.
  intros (Hb & Hs & d & n & -> & Hd). unfold base.
  destruct (d ++ b ++ replicate n slash) as [|x y] eqn:E; [destruct d, b; done|]. rewrite <- E.
  rewrite !rev_app_distr, rev_replicate, <- app_assoc. rewrite strip_replicate.
  - destruct (rev b ++ rev d) as [|x' y'] eqn:E'.
    { apply app_eq_nil in E'. destruct E' as [E' _]. apply (f_equal (@rev ascii)) in E'. by rewrite rev_involutive in E'. }
    rewrite <- E', until_app; [by rewrite rev_involutive| |].
    + rewrite elem_of_list_In, <- in_rev, <- elem_of_list_In. done.
    + destruct Hd as [->|Hd]; [by left | right]. by rewrite head_rev.
  - rewrite head_app_ne.
    + rewrite head_rev. intros Hl. apply Hs. by apply last_Some_elem_of.
    + intros Hr. apply (f_equal (@rev ascii)) in Hr. by rewrite rev_involutive in Hr.
Qed.

(** ** Frames *)
Lemma of_panic_spec frames f :
  panicked_at frames f ->
  each_frame_in of_panic_step (false, None) frames = (true, Some (frame_location f)).
Proof.
  intros (l1 & g & l2 & l3 & -> & H1 & Hg & H2 & Hf).
  assert (Hnot : starts_with (txt "runtime.") (fr_func f) = false).
  { destruct (starts_with (txt "runtime.") (fr_func f)) eqn:E; [|done]. by apply starts_with_spec in E. }
  assert (Hdone : forall l, Forall in_runtime l -> each_frame_in of_panic_step (true, None) (l ++ [f] ++ l3) = (true, Some (frame_location f))).
  { intros l Hl. induction Hl as [|x l Hx Hl IH]; cbn [app each_frame_in].
    - unfold of_panic_step. by rewrite Hnot.
    - unfold of_panic_step at 1. apply starts_with_spec in Hx. rewrite Hx. cbn -[txt each_frame_in].
      destruct (bool_decide (fr_func x = txt "runtime.gopanic")); exact IH. }
  induction H1 as [|x l1 Hx H1 IH]; cbn [app each_frame_in].
  - unfold of_panic_step at 1. rewrite Hg.
    assert (starts_with (txt "runtime.") (txt "runtime.gopanic") = true) as -> by done. rewrite bool_decide_true by done.
    by apply Hdone.
  - unfold of_panic_step at 1. rewrite bool_decide_false by done. cbn -[txt each_frame_in starts_with app].
    destruct (starts_with (txt "runtime.") (fr_func x)); exact IH.
Qed.

Lemma each_frame_prefix {S} (fn : S -> Frame -> S * bool) s stack :
  each_frame 0 fn s stack = each_frame_in fn s (concat (take 8 stack)).
Proof. done. Qed.

Lemma base_ne p : p <> [] -> base p <> [].
Proof.
  intros Hp. unfold base. destruct p as [|c p]; [done|].
  destruct (strip_slashes (rev (c :: p))) as [|x y] eqn:E; [done|].
  assert (Hx : x <> slash).
  { clear Hp. revert E. generalize (rev (c :: p)). intros r. induction r as [|a r IH]; [done|]. cbn.
    destruct (bool_decide_reflect (a = slash)); [done|]. intros [= <- <-]. done. }
  cbn [until_slash]. rewrite bool_decide_false by done. cbn. by destruct (rev (until_slash y)).
Qed.

Lemma C69_file_lemma l b :
  last_element (lo_file l) b ->
  (telling_name (lo_func l) ->
     location_string l = b ++ txt ":" ++ decimal (lo_line l) ++ txt " [" ++ lo_func l ++ txt "(...)]") /\
  (~ telling_name (lo_func l) -> location_string l = b ++ txt ":" ++ decimal (lo_line l)).
Proof.
  intros Hb. assert (Hne : lo_file l <> []).
  { destruct Hb as (Hb & _ & d & n & -> & _). destruct d, b; done. }
  unfold location_string, file_line. rewrite (base_spec _ _ Hb).
  destruct (lo_file l) as [|c f]; [done|]. rewrite <- is_named_spec. destruct (is_named_func l); split; intros H; try done.
  - by rewrite <- !app_assoc.
Qed.
Lemma C69_nofile_lemma l :
  lo_file l = [] ->
  (lo_func l <> [] -> location_string l = lo_func l ++ txt "(...)") /\
  (lo_func l = [] -> location_string l = txt "<unknown>").
Proof. intros H. unfold location_string, file_line. rewrite H. by destruct (lo_func l). Qed.
Lemma C69_iff_lemma l :
  lo_file l <> [] ->
  (telling_name (lo_func l) <-> location_string l = base (lo_file l) ++ txt ":" ++ decimal (lo_line l) ++ txt " [" ++ lo_func l ++ txt "(...)]").
Proof.
  intros Hne. rewrite <- is_named_spec. unfold location_string, file_line. destruct (lo_file l) as [|c f]; [done|].
  destruct (is_named_func l); [split; [|done]; by rewrite <- !app_assoc|].
  split; [done|]. intros H. exfalso. apply (f_equal length) in H. rewrite !app_length in H. cbn in H. lia.
Qed.
Lemma C73_lemma stack f : panicked_at (concat (take 8 stack)) f -> of_panic stack = Some (frame_location f).
Proof. intros H. unfold of_panic, each_frame. rewrite drop_0. by rewrite (of_panic_spec _ _ H). Qed.
Lemma C73_call_lemma x y caller inlined stack :
  of_call (x :: y :: (caller :: inlined) :: stack) = Some (frame_location caller).
Proof. done. Qed.
Lemma C73_refutation : exists stack f, panicked_at (concat stack) f /\ of_panic stack = None.
Proof.
  pose (u := fun n => {| fr_func := txt n; fr_file := txt "f.go"; fr_line := 1 |}).
  exists ([u "location.OfPanic"] :: replicate 7 [u "app.deferred"] ++ [[u "runtime.gopanic"]; [u "app.Handle"]]), (u "app.Handle").
  split; [|vm_compute; reflexivity].
  exists (u "location.OfPanic" :: replicate 7 (u "app.deferred")), (u "runtime.gopanic"), [], [].
  split; [reflexivity|]. split; [|split; [reflexivity | split; [constructor|]]].
  - apply Forall_cons; split; [done|]. apply Forall_replicate. done.
  - intros [s H]. vm_compute in H. inversion H.
Qed.
