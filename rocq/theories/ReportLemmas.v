(** * Lemmas on reports. *)
From Verif Require Import ReportSpec.

Lemma lines_nonempty s : lines s <> [].
Proof. induction s as [|c s IH]; cbn; [done|]. case_bool_decide; [done|]. by destruct (lines s). Qed.

(** A text followed by a newline is made of its lines. *)
Lemma unlines_lines s : unlines (lines s) = s ++ [nl].
Proof.
  induction s as [|c s IH]; cbn; [done|]. case_bool_decide as Hc.
  - subst c. unfold unlines in *. cbn. by rewrite IH.
  - destruct (lines s) as [|l ls] eqn:E; [by destruct (lines_nonempty s)|]. unfold unlines in *. cbn in *. by rewrite IH.
Qed.

Lemma unlines_app a b : unlines (a ++ b) = unlines a ++ unlines b.
Proof. unfold unlines. by rewrite map_app, concat_app. Qed.
Lemma unlines_cons l ls : unlines (l :: ls) = l ++ nl :: unlines ls.
Proof. unfold unlines. cbn. by rewrite <- app_assoc. Qed.

Lemma indent_nonl p l b s : nl ∉ l -> l <> [] -> indent_from p b (l ++ s) = (if b then p else []) ++ l ++ indent_from p false s.
Proof.
  revert b. induction l as [|c l IH]; intros b Hl Hne; [done|]. cbn. f_equal. f_equal.
  rewrite bool_decide_eq_false_2 by (intros ->; apply Hl; left).
  destruct l as [|d l]; [done|]. rewrite IH; [done | | done]. intros H. apply Hl. by right.
Qed.

Lemma lines_no_nl s : Forall (fun l => nl ∉ l) (lines s).
Proof.
  induction s as [|c s IH]; cbn.
  - constructor; [|constructor]. apply not_elem_of_nil.
  - case_bool_decide as Hc; [constructor; [apply not_elem_of_nil | done]|].
    destruct (lines s) as [|l ls] eqn:E; [by destruct (lines_nonempty s)|].
    inversion IH; subst. constructor; [|done]. rewrite elem_of_cons. intros [?|?]; [by subst | done].
Qed.

(** Indenting terminated lines. *)
Lemma indent_unlines p ls : Forall (fun l => nl ∉ l) ls -> indent p (unlines ls) = unlines (prefix_lines p ls).
Proof.
  unfold indent. induction 1 as [|l ls Hl Hls IH]; [done|].
  unfold prefix_lines in *. cbn [map]. rewrite !unlines_cons.
  destruct l as [|c l].
  - cbn [app indent_from]. rewrite (bool_decide_eq_true_2 (nl = nl)) by done. rewrite IH. by rewrite app_nil_r.
  - rewrite indent_nonl by done. cbn [indent_from].
    rewrite (bool_decide_eq_true_2 (nl = nl)) by done. rewrite IH. cbn [app]. by rewrite <- !app_assoc.
Qed.
Lemma prefix_content_cons p l ls : l <> [] \/ ls <> [] -> prefix_content p (l :: ls) = (p ++ l) :: prefix_content p ls.
Proof. intros H. destruct l, ls; try done. by destruct H. Qed.
(** Indenting a text that is then terminated. *)
Lemma indent_content p s : indent p s ++ [nl] = unlines (prefix_content p (lines s)).
Proof.
  unfold indent.
  assert (H : forall b, indent_from p b s ++ [nl] =
    match lines s with
    | [[]] => [nl]
    | l :: ls => (if b then p else []) ++ l ++ nl :: match ls with [] => [] | _ => unlines (prefix_content p ls) end
    | [] => [] end).
  { induction s as [|c s IH]; intros b; [done|]. cbn [lines indent_from].
    case_bool_decide as Hc.
    - subst c. rewrite <- app_assoc. cbn. f_equal. f_equal. rewrite IH.
      destruct (lines s) as [|l ls] eqn:E; [by destruct (lines_nonempty s)|].
      destruct l as [|d l], ls as [|l2 ls]; [done | rewrite (prefix_content_cons p []) by (by right) | rewrite (prefix_content_cons p (d :: l)) by (by left) ..];
        rewrite unlines_cons, <- ?app_assoc; done.
    - rewrite <- app_assoc. cbn. rewrite IH.
      destruct (lines s) as [|l ls] eqn:E; [by destruct (lines_nonempty s)|].
      destruct l as [|d l], ls as [|l2 ls]; done. }
  rewrite H. destruct (lines s) as [|l ls] eqn:E; [done|].
  destruct l as [|d l], ls as [|l2 ls]; [done | rewrite (prefix_content_cons p []) by (by right) | rewrite (prefix_content_cons p (d :: l)) by (by left) ..];
    rewrite unlines_cons, <- ?app_assoc; done.
Qed.

Lemma prefix_content_no_nl p ls : nl ∉ p -> Forall (fun l => nl ∉ l) ls -> Forall (fun l => nl ∉ l) (prefix_content p ls).
Proof.
  intros Hp. induction 1 as [|l ls Hl Hls IH]; [constructor|]. cbn.
  assert (Hpl : nl ∉ p ++ l) by (rewrite elem_of_app; tauto).
  destruct l, ls; first [constructor; [exact Hpl | exact IH] | by constructor].
Qed.
Lemma block_no_nl t c : Forall (fun l => nl ∉ l) (block t c).
Proof.
  unfold block. apply Forall_app. split; [apply lines_no_nl|]. apply prefix_content_no_nl; [|apply lines_no_nl].
  cbn. rewrite !elem_of_cons, elem_of_nil. intros H. repeat destruct H as [H|H]; done.
Qed.
Lemma separated_no_nl bs : Forall (Forall (fun l => nl ∉ l)) bs -> Forall (fun l => nl ∉ l) (separated bs).
Proof.
  induction 1 as [|b bs Hb Hbs IH]; [constructor|]. cbn. destruct bs; [done|].
  apply Forall_app. split; [done|]. constructor; [apply not_elem_of_nil | done].
Qed.

Lemma block_text t c : unlines (block t c) = t ++ [nl] ++ indent (txt "    ") c ++ [nl].
Proof. unfold block. rewrite unlines_app, unlines_lines, indent_content. by rewrite <- app_assoc. Qed.

Lemma write_sections_text l :
  write_sections l = unlines (separated (map (fun s => block (upper s.1) (trim_space s.2)) l)).
Proof.
  induction l as [|[t c] l IH]; [done|]. cbn [write_sections]. rewrite IH.
  destruct l as [|s l]; cbn [map separated fst snd].
  - rewrite block_text. cbn. by rewrite ?app_nil_r.
  - rewrite unlines_app, unlines_cons, block_text. rewrite <- !app_assoc. done.
Qed.

Lemma filter_nonempty (l : list (text * text)) :
  List.filter (fun s => nonempty s.2) l = filter (fun s => s.2 <> []) l.
Proof.
  induction l as [|[t c] l IH]; [done|]. destruct c as [|x c].
  - rewrite filter_cons_False; [exact IH|]. cbn. tauto.
  - rewrite filter_cons_True by done. rewrite <- IH. done.
Qed.

Lemma write_body_text r :
  write_body r = unlines (if decide (blocks r = []) then [] else [] :: prefix_lines (txt "  | ") (separated (blocks r))).
Proof.
  unfold write_body, blocks. rewrite filter_nonempty. set (ss := filter _ (rp_sections r)).
  assert (Hgen : forall bs, Forall (Forall (fun l => nl ∉ l)) bs -> 
    unlines ([] :: prefix_lines (txt "  | ") (separated bs)) = [nl] ++ indent (txt "  | ") (unlines (separated bs))).
  { intros bs Hbs. rewrite unlines_cons. cbn [app]. f_equal. symmetry. apply indent_unlines. by apply separated_no_nl. }
  assert (Hss : Forall (Forall (fun l => nl ∉ l)) (map (fun s => block (upper s.1) (trim_space s.2)) ss)).
  { apply Forall_forall. intros b Hb. apply elem_of_list_fmap in Hb. destruct Hb as (s & -> & _). apply block_no_nl. }
  destruct (rp_expl r) as [|e es] eqn:Ee; cbn [nonempty].
  - rewrite (decide_True (P := ([] : text) = [])) by done. cbn [app]. destruct ss as [|s ss']; cbn [nonempty orb map].
    + by rewrite decide_True.
    + rewrite decide_False by done. rewrite Hgen by exact Hss. f_equal. f_equal. apply write_sections_text.
  - rewrite (decide_False (P := e :: es = [])) by done. rewrite orb_true_r. cbn [app].
    rewrite decide_False by done. rewrite Hgen by (constructor; [apply block_no_nl | done]). f_equal. f_equal.
    rewrite write_sections_text. destruct ss as [|s ss']; cbn [map separated].
    + rewrite block_text. rewrite ?app_nil_r. reflexivity.
    + rewrite unlines_app, unlines_cons, block_text. cbn [app]. rewrite <- !app_assoc. cbn [app]. rewrite <- ?app_assoc. reflexivity.
Qed.

Lemma write_head_text r : write_head r = unlines (lines (head_text r)).
Proof.
  rewrite unlines_lines. unfold write_head, head_text. rewrite <- !app_assoc. f_equal. f_equal. f_equal.
  destruct (rp_outcome r); [by rewrite decide_True | by rewrite decide_False].
Qed.

Section ind.
Variable Q : Report -> Prop.
Hypothesis HQ : forall r, Forall Q (rp_sub r) -> Q r.
Fixpoint Report_ind' (r : Report) : Q r :=
  HQ r (match r return Forall Q (rp_sub r) with mkRep _ _ _ _ _ _ l =>
    (fix go (l : list Report) : Forall Q l :=
      match l with [] => Forall_nil_2 Q | x :: l => Forall_cons_2 Q x l (Report_ind' x) (go l) end) l end).
End ind.

Lemma blocks_no_nl r : Forall (Forall (fun l => nl ∉ l)) (blocks r).
Proof.
  unfold blocks. apply Forall_app. split.
  - destruct (decide _); constructor; [apply block_no_nl | constructor].
  - apply Forall_forall. intros b Hb. apply elem_of_list_fmap in Hb. destruct Hb as (s & -> & _). apply block_no_nl.
Qed.

Lemma prefix_lines_no_nl p ls : nl ∉ p -> Forall (fun l => nl ∉ l) ls -> Forall (fun l => nl ∉ l) (prefix_lines p ls).
Proof. intros Hp H. apply Forall_forall. intros l Hl. apply elem_of_list_fmap in Hl. destruct Hl as (l' & -> & Hin).
  rewrite elem_of_app. rewrite Forall_forall in H. intros [?|?]; [done | by eapply H]. Qed.
Lemma four_no_nl : nl ∉ txt "    ".
Proof. cbn. rewrite !elem_of_cons, elem_of_nil. intros H. repeat destruct H as [H|H]; done. Qed.
Lemma bar_no_nl : nl ∉ txt "  | ".
Proof. cbn. rewrite !elem_of_cons, elem_of_nil. intros H. repeat destruct H as [H|H]; done. Qed.

Lemma write_to_layout r : exists ls, layout r ls /\ write_to r = unlines ls /\ Forall (fun l => nl ∉ l) ls.
Proof.
  induction r as [r IH] using Report_ind'.
  assert (Hs : exists subs, Forall2 layout (rp_sub r) subs /\
    concat (map write_to (rp_sub r)) = unlines (concat subs) /\ Forall (fun l => nl ∉ l) (concat subs)).
  { induction IH as [|x l (ls & H1 & H2 & H3) _ (subs & G1 & G2 & G3)]; [exists []; by split_and!; [constructor| |constructor]|].
    exists (ls :: subs). split_and!; [by constructor | |].
    - cbn [map concat]. rewrite unlines_app. by f_equal.
    - cbn. by apply Forall_app. }
  destruct Hs as (subs & G1 & G2 & G3).
  eexists. split; [by apply (layout_report r subs)|]. split.
  - replace (write_to r) with (write_head r ++ write_body r ++ indent (txt "    ") (concat (map write_to (rp_sub r)))) by by destruct r.
    rewrite !unlines_app, <- write_head_text, <- write_body_text. f_equal. f_equal.
    rewrite G2. by apply indent_unlines.
  - apply Forall_app. split; [apply lines_no_nl|]. apply Forall_app. split.
    + destruct (decide _); [constructor|]. constructor; [apply not_elem_of_nil|].
      apply prefix_lines_no_nl; [apply bar_no_nl|]. apply separated_no_nl, blocks_no_nl.
    + apply prefix_lines_no_nl; [apply four_no_nl | done].
Qed.

Lemma unlines_inj a b : Forall (fun l => nl ∉ l) a -> Forall (fun l => nl ∉ l) b -> unlines a = unlines b -> a = b.
Proof.
  intros Ha. revert b. induction Ha as [|x a Hx Ha IH]; intros b Hb H.
  - destruct b as [|y b]; [done|]. rewrite unlines_cons in H. cbn in H. by destruct y.
  - destruct b as [|y b]; [rewrite unlines_cons in H; cbn in H; by destruct x|].
    inversion Hb as [|? ? Hy Hb']; subst. rewrite !unlines_cons in H.
    assert (x = y /\ unlines a = unlines b) as [-> H'].
    { clear -Hx Hy H. revert y Hy H. induction x as [|c x IHx]; intros y Hy H.
      - destruct y as [|d y]; cbn in H; inversion H; [done|]. subst d. destruct Hy. by left.
      - destruct y as [|d y]; cbn in H; inversion H; [subst c; destruct Hx; by left|].
        destruct (IHx) with (y := y) as [-> ?]; try done; intros ?; [apply Hx | apply Hy]; by right. }
    f_equal. by apply IH.
Qed.
Lemma layout_fun r ls ls' : layout r ls -> layout r ls' -> ls = ls'.
Proof.
  revert ls ls'. induction r as [r IH] using Report_ind'. intros ls ls' H H'.
  inversion H as [r1 subs F1]; inversion H' as [r2 subs' F2]; subst.
  assert (subs = subs') as ->; [|done]. clear H H'. revert subs' F2.
  induction F1 as [|x ls l lss Hx F IHF]; intros subs' F2; inversion F2; subst; [done|].
  inversion IH; subst. f_equal; [eauto|]. by apply IHF.
Qed.

(** ** White space and capitals *)
Lemma is_space_white c : is_space c = true <-> white c.
Proof.
  split.
  - destruct c as [[] [] [] [] [] [] [] []]; vm_compute; intros H; try discriminate H; constructor.
  - destruct 1; reflexivity.
Qed.
Lemma trim_left_spec s : exists a, s = a ++ trim_left s /\ Forall white a /\ forall c l, trim_left s = c :: l -> ~ white c.
Proof.
  induction s as [|c s (a & H1 & H2 & H3)]; [exists []; split; [done|]; split; [constructor|done]|].
  cbn [trim_left]. destruct (is_space c) eqn:E.
  - exists (c :: a). split; [cbn; f_equal; done|]. split; [constructor; [apply is_space_white|]; done|done].
  - exists []. split; [done|]. split; [constructor|]. intros c' l [= -> ->] Hw. apply is_space_white in Hw. congruence.
Qed.
Lemma trim_lemma s : trimmed s (trim_space s).
Proof.
  unfold trim_space. destruct (trim_left_spec s) as (a & H1 & H2 & H3).
  destruct (trim_left_spec (rev (trim_left s))) as (b & H4 & H5 & H6).
  set (t := trim_left s) in *. set (w := trim_left (rev t)) in *.
  assert (Ht : t = rev w ++ rev b) by (rewrite <- rev_app_distr, <- H4, rev_involutive; done).
  exists a, (rev b). split; [rewrite H1, Ht at 1; done|]. split; [done|].
  split; [apply Forall_forall; intros x Hx; rewrite Forall_forall in H5; apply H5; rewrite elem_of_list_In in *; apply in_rev; done|]. split.
  - intros c l Hw. apply (H3 c (l ++ rev b)). rewrite Ht, Hw. done.
  - intros c l Hw. apply (H6 c (rev l)). rewrite <- (rev_involutive w), Hw, rev_app_distr. done.
Qed.
Lemma upper_lemma s : Forall2 capital s (upper s).
Proof.
  induction s as [|c s IH]; cbn; [constructor|]. constructor; [|exact IH]. clear.
  destruct (decide (Exists (fun p => p.1 = c) letters)) as [He|Hn].
  - left. apply Exists_exists in He as ([x y] & Hin & Hx). cbn in Hx. subst x.
    assert (Hall : Forall (fun p => upper_char p.1 = p.2) letters) by (vm_compute; repeat constructor).
    rewrite Forall_forall in Hall. specialize (Hall _ Hin). cbn in Hall. rewrite Hall. exact Hin.
  - right. split.
    + destruct c as [[] [] [] [] [] [] [] []]; try reflexivity; exfalso; apply Hn; apply Exists_exists;
      match goal with |- exists x, _ /\ _ = ?c => exists (c, upper_char c) end; (split; [|reflexivity]);
      apply elem_of_list_In; vm_compute; tauto.
    + intros x Hx. apply Hn. apply Exists_exists. exists (c, x). done.
Qed.
