(** * Lemmas on log lines. *)
From Verif Require Import LoggerSpec.
Local Open Scope nat_scope.

Lemma text_le_refl a : text_le a a.
Proof. induction a; cbn; [done | by right]. Qed.
Lemma text_le_trans a b c : text_le a b -> text_le b c -> text_le a c.
Proof.
  revert b c. induction a as [|x a IH]; intros [|y b] [|z c]; cbn; try done.
  intros [H1|[-> H1]] [H2|[-> H2]]; [left; lia | by left | by left | right; split; [done | by eapply IH]].
Qed.
Lemma text_le_antisym a b : text_le a b -> text_le b a -> a = b.
Proof.
  revert b. induction a as [|x a IH]; intros [|y b]; cbn; try done.
  intros [H1|[-> H1]] [H2|[H2 H3]]; try lia.
  - subst. lia.
  - f_equal. by apply IH.
Qed.
Lemma txt_inj s t : txt s = txt t -> s = t.
Proof.
  unfold txt. intros H. rewrite <- (string_of_list_ascii_of_string s), <- (string_of_list_ascii_of_string t). by rewrite H.
Qed.
#[global] Instance string_le_trans : Transitive string_le.
Proof. intros a b c. apply text_le_trans. Qed.
#[global] Instance string_le_antisym : AntiSymm (=) string_le.
Proof. intros a b H1 H2. apply txt_inj. by apply text_le_antisym. Qed.

Lemma sorted_enumerations sort sort' l l' m :
  sorts sort -> sorts sort' -> enumerates l m -> enumerates l' m -> sort l = sort' l'.
Proof.
  intros Hs Hs' [H1 H2] [H3 H4]. destruct (Hs l) as [Hp Ho], (Hs' l') as [Hp' Ho'].
  apply (Sorted_unique string_le); [done | done |]. rewrite Hp, Hp'. apply NoDup_Permutation; [done | done |].
  intros x. by rewrite H2, H4.
Qed.

Lemma C65_lemma range_ range_' sort sort' et eh :
  enumerates (range_ eh) eh -> enumerates (range_' eh) eh -> sorts sort -> sorts sort' ->
  format_enabled range_ sort et eh = format_enabled range_' sort' et eh.
Proof. intros H1 H2 H3 H4. unfold format_enabled. by rewrite (sorted_enumerations sort sort' _ (range_' eh) eh). Qed.

Definition others (et : ETypes) (eh : gmap string bool) (names : list string) : text :=
  concat (map (fun t => if et_get et t then txt " +" ++ plural t else []) handler_types) ++
  concat (map (fun n => (if bool_decide (eh !! n = Some true) then txt " +" else txt " -") ++ txt n) names).

Lemma format_enabled_text range_ sort et eh names :
  enumerates (range_ eh) eh -> sorts sort -> enumerates names eh -> Sorted string_le names ->
  format_enabled range_ sort et eh = txt "enabled:" ++ others et eh names.
Proof.
  intros H1 H2 [H3a H3b] H4. unfold format_enabled, others. do 2 f_equal.
  assert (sort (range_ eh) = names) as ->.
  { destruct (H2 (range_ eh)) as [Hp Ho], H1 as [H1a H1b]. apply (Sorted_unique string_le); [done | done |].
    rewrite Hp. apply NoDup_Permutation; [done | done |]. intros x. by rewrite H1b, H3b. }
  f_equal. apply map_ext. intros n. do 2 f_equal. destruct (eh !! n) as [[]|]; done.
Qed.

Lemma write_texts_spec i ts :
  write_texts i ts =
  match not_empty ts with
  | [] => []
  | _ => txt " " ++ (if 0 <? i then txt "● " else []) ++ joined (txt " ● ") (not_empty ts)
  end.
Proof.
  revert i. induction ts as [|t ts IH]; intros i; [done|]. cbn [write_texts]. unfold not_empty in *.
  destruct t as [|c t].
  - rewrite filter_cons_False by (intros H; by apply H). apply IH.
  - rewrite filter_cons_True by done. rewrite IH. cbn [Nat.ltb Nat.leb].
    destruct (filter (fun t0 : text => t0 <> []) ts) as [|y ys] eqn:E.
    + cbn [joined]. rewrite app_nil_r. destruct (0 <? i); done.
    + cbn [joined]. destruct (0 <? i).
      * change (write_icon SeparatorIcon) with (txt "●"). change space1 with (txt " ").
        cbn. done.
      * cbn. done.
Qed.

Section Logger.
Context {P : Params}.

Lemma log_line_spec (env : option Env) i1 i2 i3 ts :
  log_line env [i1; i2; i3] ts =
  txt "= " ++ shown_id (from_option e_id "" env) ++ txt "  ∵ " ++ shown_id (from_option e_cause "" env) ++
  txt "  ⋲ " ++ shown_id (from_option e_corr "" env) ++ txt "  " ++
  cell i1 ++ txt " " ++ cell i2 ++ txt " " ++ cell i3 ++ txt " " ++
  (match not_empty ts with [] => [] | _ => txt " " ++ joined (txt " ● ") (not_empty ts) end).
Proof.
  assert (Hid : forall s, format_message_id (txt s) = shown_id s).
  { intros s. unfold shown_id. by destruct (txt s) as [|c [|c2 t]]. }
  assert (Hne : forall s, (match shown_id s with [] => txt "-" | _ => shown_id s end) = shown_id s).
  { intros s. unfold shown_id. by destruct (txt s) as [|c [|c' t]]. }
  unfold log_line, line_string. destruct env as [e|]; cbn [from_option].
  - cbn [map concat]. unfold with_label, write_labelled. cbn [fst snd]. rewrite !Hid, !Hne.
    rewrite write_texts_spec. rewrite !app_nil_r, <- !app_assoc. reflexivity.
  - cbn [map concat]. unfold with_label, write_labelled. cbn [fst snd].
    rewrite write_texts_spec. rewrite !app_nil_r, <- !app_assoc. reflexivity.
Qed.

Lemma log_parts_three T (f : Fact) e icons ts :
  log_parts T f = Some (e, icons, ts) -> exists i1 i2 i3, icons = [i1; i2; i3].
Proof.
  destruct f; cbn; try done; try (intros [= <- <- <-]; by do 3 eexists);
    destruct err; try done; intros [= <- <- <-]; by do 3 eexists.
Qed.

Lemma C66_lemma T (f : Fact) :
  log_notify T f = [] \/
  exists env i1 i2 i3 ts,
    log_notify T f =
    [txt "= " ++ shown_id (from_option e_id "" env) ++ txt "  ∵ " ++ shown_id (from_option e_cause "" env) ++
     txt "  ⋲ " ++ shown_id (from_option e_corr "" env) ++ txt "  " ++
     cell i1 ++ txt " " ++ cell i2 ++ txt " " ++ cell i3 ++ txt " " ++
     (match not_empty ts with [] => [] | _ => txt " " ++ joined (txt " ● ") (not_empty ts) end)] /\
    log_parts T f = Some (env, [i1; i2; i3], ts).
Proof.
  unfold log_notify. destruct (log_parts T f) as [[[e icons] ts]|] eqn:E; [right | by left].
  destruct (log_parts_three _ _ _ _ _ E) as (i1 & i2 & i3 & ->). exists e, i1, i2, i3, ts. by rewrite log_line_spec.
Qed.

Lemma C66_subject_lemma T (f : Fact) :
  (exists rest, log_notify T f =
     [txt "= " ++ shown_id (from_option e_id "" (subject f)) ++ txt "  ∵ " ++ shown_id (from_option e_cause "" (subject f)) ++
      txt "  ⋲ " ++ shown_id (from_option e_corr "" (subject f)) ++ txt "  " ++ rest]) \/
  log_notify T f = [].
Proof.
  destruct (C66_lemma T f) as [H|(env & i1 & i2 & i3 & ts & H & Hp)]; [by right | left].
  assert (env = subject f) as ->.
  { destruct f; cbn in Hp; try done; try (by inversion Hp); destruct err; try done; by inversion Hp. }
  eexists. exact H.
Qed.
Lemma C66_silent_lemma T (f : Fact) : log_notify T f = [] <-> silent f.
Proof.
  unfold log_notify. destruct f; cbn; try (destruct err; cbn); split; intros H; try done; try constructor; inversion H.
Qed.

Lemma C66_line_lemma T (f : Fact) :
  ~ silent f ->
  exists more,
    log_notify T f =
    [txt "= " ++ shown_id (from_option e_id "" (subject f)) ++ txt "  ∵ " ++ shown_id (from_option e_cause "" (subject f)) ++
     txt "  ⋲ " ++ shown_id (from_option e_corr "" (subject f)) ++ txt "  " ++
     direction_symbol f ++ txt " " ++ actor_symbol f ++ txt " " ++ failure_symbol f ++ txt " " ++
     (match not_empty (actor f ++ more) with [] => [] | _ => txt " " ++ joined (txt " ● ") (not_empty (actor f ++ more)) end)] /\
    (forall e, failure f = Some e -> exists t, more = [t ++ lt_error T e]) /\
    (forall e, produces f = true -> subject f = Some e ->
       exists what, more = [what; lt_type T (m_type (e_msg e)); lt_description T (e_msg e)]) /\
    (forall s, written f = Some s -> more = [txt s]).
Proof.
  intros Hs. unfold log_notify. destruct (log_parts T f) as [[[e icons] ts]|] eqn:E.
  2:{ exfalso. apply Hs, (C66_silent_lemma T). unfold log_notify. by rewrite E. }
  destruct f; cbn in E; try done;
    try (match type of E with context [match ?x with _ => _ end] => is_var x; destruct x end);
    try done; injection E as <- <- <-; rewrite log_line_spec; unfold actor, with_instance; cbn [actor handler_of instance_of subject from_option app];
    unfold direction_symbol, actor_symbol, failure_symbol; cbn [handler_type failure subject produces];
    try (match goal with |- context [type_icon (hid_type ?h)] => destruct (hid_type h) end);
    (lazymatch goal with
     | |- context [not_empty (?a :: ?l)] => first [exists l; split; [reflexivity|] | exists (a :: l); split; [reflexivity|]]
     end);
    (split; [|split]); cbn [failure produces written subject]; intros; simplify_eq;
    try first [done | by exists [] | by eexists].
  by exists (txt "compaction failed: ").
Qed.
End Logger.
