(** * Reading diffs back. *)
From Verif Require Import DiffSpec.

Definition turn (o : DiffOp) (c c2 : ascii) : option DiffOp :=
  match o with
  | DEqual => if decide (c = "{"%char /\ c2 = "+"%char) then Some DInsert else if decide (c = "["%char /\ c2 = "-"%char) then Some DDelete else None
  | DInsert => if decide (c = "+"%char /\ c2 = "}"%char) then Some DEqual else None
  | DDelete => if decide (c = "-"%char /\ c2 = "]"%char) then Some DEqual else None
  end.
(** Which character was equal, inserted or deleted. *)
Fixpoint read (o : DiffOp) (s : text) : list (DiffOp * ascii) :=
  match s with
  | [] => []
  | c :: s' =>
      match s' with
      | c2 :: s'' => match turn o c c2 with Some o' => read o' s'' | None => (o, c) :: read o s' end
      | [] => [(o, c)]
      end
  end.
Lemma read_char o c s : (forall c2, head s = Some c2 -> turn o c c2 = None) -> read o (c :: s) = (o, c) :: read o s.
Proof. destruct s as [|c2 s]; [done|]. intros H. cbn [read]. by rewrite (H c2 eq_refl). Qed.

Definition chars (ds : list Diff) : list (DiffOp * ascii) := concat ((fun d => (fun c => (df_op d, c)) <$> df_text d) <$> ds).
Definition render (ds : list Diff) : text := concat (write_one <$> ds).

Lemma contains_app_r k a s : contains k s -> contains k (a ++ s).
Proof. intros (x & y & ->). exists (a ++ x), y. by rewrite app_assoc. Qed.
Lemma contains_app_l k a s : contains k a -> contains k (a ++ s).
Proof. intros (x & y & ->). exists x, (y ++ s). by rewrite <- !app_assoc. Qed.
Lemma no_markers_app a s : no_markers (a ++ s) -> no_markers a /\ no_markers s.
Proof. intros H. split; intros k Hk Hc; apply (H k Hk); [by apply contains_app_l | by apply contains_app_r]. Qed.
Lemma no_markers_turn o c c2 s : no_markers (c :: c2 :: s) -> turn o c c2 = None.
Proof.
  intros H. assert (Hc : forall k, k = [c; c2] -> contains k (c :: c2 :: s)) by (intros k ->; by exists [], s).
  destruct o; cbn; repeat (case_decide as Hd; [destruct Hd as [-> ->]; exfalso; refine (H _ _ (Hc _ eq_refl)); apply elem_of_list_In; cbn; auto 6|clear Hd]); done.
Qed.
Lemma head_render ds c : head (render ds) = Some c -> c = "{"%char \/ c = "["%char \/ head (text_after ds) = Some c.
Proof.
  unfold render, text_after. induction ds as [|[o t] ds IH]; [done|]. cbn. destruct o; cbn.
  - destruct t as [|x t]; cbn; [done|]. intros [= ->]. auto.
  - intros [= <-]. auto.
  - intros [= <-]. auto.
Qed.
(** Characters of a piece of text. *)
Lemma read_text o t s : no_markers t -> (forall c c2, last t = Some c -> head s = Some c2 -> turn o c c2 = None) ->
  read o (t ++ s) = ((fun c => (o, c)) <$> t) ++ read o s.
Proof.
  induction t as [|c t IH]; intros Hn Hl; [done|]. change ((c :: t) ++ s) with (c :: (t ++ s)). rewrite read_char.
  - cbn. f_equal. apply IH.
    + change (c :: t) with ([c] ++ t) in Hn. by apply no_markers_app in Hn as [_ ?].
    + intros c1 c2 H1. apply Hl. destruct t; [done|]. done.
  - intros c2. destruct t as [|c1 t]; cbn.
    + intros Hs. by apply Hl.
    + intros [= ->]. by eapply no_markers_turn.
Qed.
Lemma turn_brace o c : turn o c "{" = None /\ turn o c "[" = None.
Proof. destruct o; cbn; split; repeat (case_decide as Hd; [by destruct Hd|clear Hd]); done. Qed.

Lemma read_render ds : no_markers (text_before ds) -> no_markers (text_after ds) -> read DEqual (render ds) = chars ds.
Proof.
  unfold render, chars, text_before, text_after. induction ds as [|[o t] ds IH]; [done|]. cbn. intros Hb Ha.
  destruct o; cbn in *.
  - assert (Ha' := Ha). apply no_markers_app in Ha as [Ha1 Ha2]. apply no_markers_app in Hb as [Hb1 Hb2]. rewrite read_text; [by rewrite IH|done|].
    intros c c2 Hc Hc2. apply head_render in Hc2. destruct Hc2 as [->|[->|Hc2]]; [apply turn_brace|apply turn_brace|].
    apply last_Some in Hc as [t' ->]. fold (text_after ds) in Ha'. destruct (text_after ds) as [|x s]; [done|]. injection Hc2 as ->.
    rewrite <- app_assoc in Ha'. apply no_markers_app in Ha' as [_ Ha']. cbn in Ha'. by apply no_markers_turn with s.
  - apply no_markers_app in Ha as [Ha1 Ha2]. rewrite <- app_assoc.
    transitivity (read DInsert (t ++ txt "+}" ++ concat (write_one <$> ds))); [reflexivity|]. rewrite read_text; [|done|].
    + f_equal. transitivity (read DEqual (concat (write_one <$> ds))); [reflexivity|]. by apply IH.
    + intros c c2 _ [= <-]. cbn. by case_decide as Hd; [destruct Hd|].
  - apply no_markers_app in Hb as [Hb1 Hb2]. rewrite <- app_assoc.
    transitivity (read DDelete (t ++ txt "-]" ++ concat (write_one <$> ds))); [reflexivity|]. rewrite read_text; [|done|].
    + f_equal. transitivity (read DEqual (concat (write_one <$> ds))); [reflexivity|]. by apply IH.
    + intros c c2 _ [= <-]. cbn. by case_decide as Hd; [destruct Hd|].
Qed.

Definition pick (p : DiffOp -> bool) (l : list (DiffOp * ascii)) : text := concat ((fun x => if p x.1 then [x.2] else []) <$> l).
Lemma pick_app p l l' : pick p (l ++ l') = pick p l ++ pick p l'.
Proof. unfold pick. by rewrite fmap_app, concat_app. Qed.
Lemma pick_one p o t : pick p ((fun c => (o, c)) <$> t) = if p o then t else [].
Proof. unfold pick. induction t as [|c t IH]; cbn; [by destruct (p o)|]. rewrite IH. by destruct (p o). Qed.
Lemma chars_before ds : pick (fun o => match o with DInsert => false | _ => true end) (chars ds) = text_before ds.
Proof.
  induction ds as [|[o t] ds IH]; [done|]. change (chars (mkDiff o t :: ds)) with (((fun c => (o, c)) <$> t) ++ chars ds).
  rewrite pick_app, IH, pick_one. by destruct o.
Qed.
Lemma chars_after ds : pick (fun o => match o with DDelete => false | _ => true end) (chars ds) = text_after ds.
Proof.
  induction ds as [|[o t] ds IH]; [done|]. change (chars (mkDiff o t :: ds)) with (((fun c => (o, c)) <$> t) ++ chars ds).
  rewrite pick_app, IH, pick_one. by destruct o.
Qed.

Lemma render_plain ds : ~ contains (txt "{+") (render ds) -> ~ contains (txt "[-") (render ds) -> text_before ds = text_after ds /\ render ds = text_after ds.
Proof.
  unfold render, text_before, text_after. induction ds as [|[o t] ds IH]; [done|]. cbn. intros H1 H2. destruct o; cbn in *.
  - destruct IH as [-> ->]; [intros Hc; by apply H1, contains_app_r|intros Hc; by apply H2, contains_app_r|]. done.
  - destruct H1. exists []. cbn. eauto.
  - destruct H2. exists []. cbn. eauto.
Qed.
