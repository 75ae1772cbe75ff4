(** * Lemmas on inflection. *)
From Verif Require Import InflectSpec.

Lemma starts_with_spec k s : starts_with k s = true <-> exists s', s = k ++ s'.
Proof.
  revert s. induction k as [|a k IH]; intros s; cbn.
  - split; [intros _; by exists s | done].
  - destruct s as [|b s].
    + split; [done | intros [s' H]; done].
    + rewrite andb_true_iff, bool_decide_eq_true, IH. split.
      * intros [-> [s' ->]]. by exists s'.
      * intros [s' H]. inversion H; subst. split; [done | by exists s'].
Qed.
Lemma starts_with_app k s : starts_with k (k ++ s) = true.
Proof. apply starts_with_spec. by exists s. Qed.

(** ** Simultaneous replacement *)

Fixpoint find_match (b : bool) (T : table) (prev : option ascii) (s : text) : option (text * text) :=
  match T with
  | [] => None
  | kv :: T => if matches b prev kv.1 s then Some kv else find_match b T prev s
  end.

Fixpoint sim_from (b : bool) (T : table) (prev : option ascii) (skip : nat) (s : text) : text :=
  match s with
  | [] => []
  | c :: s' =>
    match skip with
    | S n => sim_from b T (Some c) n s'
    | 0 =>
      match find_match b T prev s with
      | Some (k, v) => v ++ sim_from b T (Some c) (length k - 1) s'
      | None => c :: sim_from b T (Some c) 0 s'
      end
    end
  end.
Notation sim b T prev s := (sim_from b T prev 0 s).

Lemma replace_is_sim b k v prev n s : replace_from b k v prev n s = sim_from b [(k, v)] prev n s.
Proof.
  revert prev n. induction s as [|c s IH]; intros prev n; [done|].
  cbn -[matches]. destruct n; [|apply IH]. destruct (matches b prev k (c :: s)); by rewrite IH.
Qed.

Lemma sim_skip b T prev n s :
  n <= length s -> sim_from b T prev n s = sim b T (if decide (n = 0) then prev else last (take n s)) (drop n s).
Proof.
  revert prev n. induction s as [|c s IH]; intros prev n Hn.
  - cbn in Hn. assert (n = 0) as -> by lia. done.
  - destruct n; [done|]. cbn [sim_from drop take]. rewrite IH by (cbn in Hn; lia).
    destruct (decide (n = 0)) as [->|Hz]; cbn; [done|].
    destruct (take n s) eqn:E; [|done].
    apply (f_equal length) in E. rewrite take_length in E. cbn in *. lia.
Qed.

Lemma sim_eq b T prev s :
  (forall kv, kv ∈ T -> kv.1 <> []) ->
  sim b T prev s =
  match s with
  | [] => []
  | c :: s' =>
    match find_match b T prev s with
    | Some (k, v) => v ++ sim b T (last k) (drop (length k) s)
    | None => c :: sim b T (Some c) s'
    end
  end.
Proof.
  intros HT. destruct s as [|c s']; [done|]. cbn -[find_match drop].
  destruct (find_match b T prev (c :: s')) as [[k v]|] eqn:E; [|done].
  assert (Hk : matches b prev k (c :: s') = true /\ (k, v) ∈ T).
  { clear HT. induction T as [|kv T IH]; [done|]. cbn -[matches] in E.
    destruct (matches b prev kv.1 (c :: s')) eqn:Em.
    - inversion E; subst. split; [done | left].
    - destruct (IH E). split; [done | by right]. }
  destruct Hk as [Hm Hin]. pose proof (HT _ Hin) as Hne. cbn in Hne.
  unfold matches in Hm. apply andb_true_iff in Hm. destruct Hm as [Hs _].
  apply starts_with_spec in Hs. destruct Hs as [s'' Hs]. destruct k as [|a k]; [done|].
  inversion Hs; subst. f_equal. cbn [length]. replace (S (length k) - 1) with (length k) by lia.
  cbn [drop]. rewrite sim_skip by (rewrite app_length; lia). rewrite drop_app, take_app. f_equal.
  destruct (decide (length k = 0)) as [Hz|Hz].
  - destruct k; done.
  - destruct k; done.
Qed.

Lemma find_match_some b T prev s kv :
  find_match b T prev s = Some kv -> kv ∈ T /\ matches b prev kv.1 s = true.
Proof.
  induction T as [|x T IH]; [done|]. cbn -[matches]. destruct (matches b prev x.1 s) eqn:E.
  - intros [= <-]. split; [left | done].
  - intros H. destruct (IH H). split; [by right | done].
Qed.
Lemma find_match_none b T prev s kv :
  find_match b T prev s = None -> kv ∈ T -> matches b prev kv.1 s = false.
Proof.
  induction T as [|x T IH]; [by intros _ H%elem_of_nil|]. cbn -[matches].
  destruct (matches b prev x.1 s) eqn:E; [done|]. intros H [->|Hin]%elem_of_cons; [done | by apply IH].
Qed.
Lemma find_match_app b T T' prev s :
  find_match b (T ++ T') prev s = match find_match b T prev s with Some kv => Some kv | None => find_match b T' prev s end.
Proof. induction T as [|x T IH]; [done|]. cbn -[matches]. destruct (matches b prev x.1 s); done. Qed.

(** ** Conditions on the tables *)

Definition compat (a b : text) : bool := starts_with a b || starts_with b a.

(** Suffixes of [s] that are not empty, from the longest. *)
Fixpoint suffixes (s : text) : list text := match s with [] => [] | _ :: s' => s :: suffixes s' end.

Lemma compat_app x y s t : x ++ s = y ++ t -> compat x y = true.
Proof.
  revert y. induction x as [|a x IH]; intros y H; [done|].
  destruct y as [|b y]; [done|]. cbn in H. inversion H; subst. specialize (IH _ H2).
  unfold compat in *. cbn. rewrite bool_decide_true by done. done.
Qed.

(** No occurrence of the key [k] begins strictly inside of [x]... *)
Definition no_start_after (k x : text) : bool := forallb (fun y => negb (compat k y)) (suffixes (tail x)).
(** No occurrence of the key [k] begins inside of the value [v] of a phrase ([b]) or
    placeholder that was replaced. *)
Definition no_start_in (b : bool) (k v : text) : bool :=
  forallb (fun y => negb (starts_with k y) &&
                    (negb (starts_with y k) || (b && wordish (last v) && wordish (head (drop (length y) k)))))
          (suffixes v).
(** No value begins strictly inside of an occurrence of [k]. *)
Definition no_value_in (k v : text) : bool := forallb (fun y => negb (compat y v)) (suffixes (tail k)).

Definition shape (b : bool) (kv : text * text) : bool :=
  bool_decide (kv.1 <> []) && bool_decide (kv.2 <> []) &&
  (negb b || (wordish (head kv.1) && wordish (head kv.2) && wordish (last kv.1) && wordish (last kv.2))).

(** [k] is looked for (as a phrase if [bk]) in a text produced with table [T]. *)
Definition stable (bk b : bool) (T : table) (k : text) : bool :=
  forallb (fun kv => no_start_in b k kv.2 && no_value_in k kv.2) T.

Lemma suffixes_spec y s : y ∈ suffixes s <-> y <> [] /\ exists p, s = p ++ y.
Proof.
  induction s as [|c s IH]; cbn.
  - rewrite elem_of_nil. split; [done|]. intros [Hy [p Hp]]. symmetry in Hp. apply app_eq_nil in Hp. by destruct Hp.
  - rewrite elem_of_cons, IH. split.
    + intros [->|[Hy [p ->]]]; [split; [done | by exists []] | split; [done | by exists (c :: p)]].
    + intros [Hy [p Hp]]. destruct p as [|c' p]; [left; done|]. inversion Hp; subst. right. split; [done | by exists p].
Qed.

Lemma forallb_elem {A} (f : A -> bool) l x : forallb f l = true -> x ∈ l -> f x = true.
Proof. rewrite forallb_forall. intros H Hx. apply H. by apply elem_of_list_In. Qed.

Section sim.
  Context (b : bool) (T : table).
  Hypothesis Hshape : forall kv, kv ∈ T -> shape b kv = true.

  Lemma sim_keys kv : kv ∈ T -> kv.1 <> [].
  Proof. intros H. apply Hshape in H. unfold shape in H. rewrite !andb_true_iff, !bool_decide_eq_true in H. tauto. Qed.
  Lemma sim_vals kv : kv ∈ T -> kv.2 <> [].
  Proof. intros H. apply Hshape in H. unfold shape in H. rewrite !andb_true_iff, !bool_decide_eq_true in H. tauto. Qed.
  Lemma sim_words kv : b = true -> kv ∈ T ->
    wordish (head kv.1) = true /\ wordish (head kv.2) = true /\ wordish (last kv.1) = true /\ wordish (last kv.2) = true.
  Proof.
    intros Hb H. apply Hshape in H. unfold shape in H. rewrite Hb in H. cbn in H. rewrite !andb_true_iff in H. tauto.
  Qed.

  Lemma head_app_ne (x y : text) : x <> [] -> head (x ++ y) = head x.
  Proof. by destruct x. Qed.
  Lemma last_app_ne (x y : text) : y <> [] -> last (x ++ y) = last y.
  Proof. intros Hy. rewrite last_app. destruct (last y) eqn:E; [done|]. by apply last_None in E. Qed.

  (** A match, unfolded. *)
  Lemma matches_spec b' prev k s :
    matches b' prev k s = true <->
    exists s', s = k ++ s' /\ (b' = true -> boundary prev (head s) = true /\ boundary (last k) (head s') = true).
  Proof.
    unfold matches. rewrite andb_true_iff, starts_with_spec. split.
    - intros [[s' ->] Hb]. exists s'. split; [done|]. intros ->. cbn in Hb. rewrite drop_app in Hb.
      by apply andb_true_iff in Hb.
    - intros (s' & -> & Hb). split; [by exists s'|]. destruct b'; [|done]. cbn. rewrite drop_app.
      apply andb_true_iff. by apply Hb.
  Qed.

  (** Replacement keeps the nature of the first character. *)
  Lemma sim_head prev s : b = true -> wordish (head (sim b T prev s)) = wordish (head s).
  Proof.
    intros Hb. rewrite sim_eq by apply sim_keys. destruct s as [|c s]; [done|].
    destruct (find_match b T prev (c :: s)) as [[k v]|] eqn:E; [|done].
    apply find_match_some in E. destruct E as [Hin Hm]. apply matches_spec in Hm. cbn in Hm.
    destruct Hm as (s' & Hs & _). destruct (sim_words _ Hb Hin) as (H1 & H2 & _ & _). cbn in H1, H2.
    rewrite head_app_ne by apply (sim_vals _ Hin). rewrite H2, Hs, head_app_ne by apply (sim_keys _ Hin). by rewrite H1.
  Qed.

  (** A text that does not overlap with values is found only where it was before. *)
  Lemma sim_prefix prev x s r :
    (forall kv, kv ∈ T -> forallb (fun y => negb (compat y kv.2)) (suffixes x) = true) ->
    sim b T prev s = x ++ r ->
    exists s', s = x ++ s' /\ (b = true -> wordish (head r) = wordish (head s')).
  Proof.
    revert prev s. induction x as [|a x IH]; intros prev s Hx E.
    - exists s. split; [done|]. intros Hb. cbn in E. rewrite <- E. by apply sim_head.
    - rewrite sim_eq in E by apply sim_keys. destruct s as [|c s]; [done|].
      destruct (find_match b T prev (c :: s)) as [[k v]|] eqn:Ef.
      + exfalso. apply find_match_some in Ef. destruct Ef as [Hin _]. specialize (Hx _ Hin). cbn [snd suffixes forallb] in Hx.
        apply andb_true_iff in Hx. destruct Hx as [Hx _]. rewrite <- (compat_app _ _ _ _ (eq_sym E)) in Hx.
        by destruct (compat (a :: x) v).
      + inversion E as [[Hc E']]; subst c.
        destruct (IH (Some a) s) as (s' & -> & Hw); [|exact E' | by exists s'].
        intros kv Hkv. specialize (Hx _ Hkv). cbn [suffixes forallb] in Hx. apply andb_true_iff in Hx. tauto.
  Qed.

  (** ** A key that is looked for in the result *)
  Context (bk : bool) (k : text).
  Hypothesis Hk : k <> [].
  Hypothesis Hflag : bk = true -> b = true.
  Hypothesis Hstable : stable bk b T k = true.

  Lemma stable_start kv : kv ∈ T -> no_start_in b k kv.2 = true.
  Proof. intros H. pose proof (forallb_elem _ _ _ Hstable H) as H'. cbn in H'. apply andb_true_iff in H'. tauto. Qed.
  Lemma stable_value kv : kv ∈ T -> no_value_in k kv.2 = true.
  Proof. intros H. pose proof (forallb_elem _ _ _ Hstable H) as H'. cbn in H'. apply andb_true_iff in H'. tauto. Qed.

  (** It does not begin inside a value. *)
  Lemma no_match_in_value kv p y t prev' :
    kv ∈ T -> kv.2 = p ++ y -> y <> [] -> (b = true -> wordish (head t) = false) -> matches bk prev' k (y ++ t) = false.
  Proof.
    intros Hin Hp Hy Ht. destruct (matches bk prev' k (y ++ t)) eqn:E; [exfalso|done].
    apply matches_spec in E. destruct E as (s' & Hs & _).
    assert (Hmem : y ∈ suffixes kv.2) by (apply suffixes_spec; split; [done | by exists p]).
    pose proof (forallb_elem _ _ _ (stable_start _ Hin) Hmem) as Hc. cbn beta in Hc.
    apply andb_true_iff in Hc. destruct Hc as [Hc1 Hc2]. apply negb_true_iff in Hc1.
    pose proof (compat_app _ _ _ _ Hs) as Hcompat. unfold compat in Hcompat. rewrite Hc1, orb_false_r in Hcompat.
    rewrite Hcompat in Hc2. cbn in Hc2. rewrite !andb_true_iff in Hc2. destruct Hc2 as [[Hb Hl] Hw].
    apply starts_with_spec in Hcompat. destruct Hcompat as [k' Hk']. rewrite Hk' in Hw. rewrite drop_app in Hw.
    rewrite Hk', <- app_assoc in Hs. apply app_inv_head in Hs. subst t.
    destruct k' as [|a k']; [done|]. cbn in Hw. specialize (Ht Hb). cbn in Ht. congruence.
  Qed.

  (** The end of a replaced phrase is the end of a word. *)
  Lemma after_match_head prev s kv s' :
    kv ∈ T -> matches b prev kv.1 s = true -> s = kv.1 ++ s' ->
    b = true -> wordish (head (sim b T (last kv.1) s')) = false.
  Proof.
    intros Hin Hm -> Hb. apply matches_spec in Hm. destruct Hm as (s'' & Hs & Hbd).
    apply app_inv_head in Hs. subst s''. destruct (Hbd Hb) as [_ H2]. rewrite sim_head by done.
    destruct (sim_words _ Hb Hin) as (_ & _ & H3 & _). unfold boundary in H2. rewrite H3 in H2.
    by destruct (wordish (head s')).
  Qed.

  (** It does not begin at a character that was not replaced, unless it did before. *)
  Lemma no_match_at_char prev prev' c s :
    (bk = true -> wordish prev' = wordish prev) ->
    matches bk prev k (c :: s) = false -> matches bk prev' k (c :: sim b T (Some c) s) = false.
  Proof.
    intros Hprev Hn. destruct (matches bk prev' k (c :: sim b T (Some c) s)) eqn:E; [exfalso|done].
    apply matches_spec in E. destruct E as (r & Hr & Hbd).
    assert (exists k', k = c :: k') as [k' Ek].
    { clear -Hr Hk. destruct k as [|a k']; [done|]. inversion Hr; subst. by exists k'. }
    rewrite Ek in Hr. inversion Hr as [Hr'].
    destruct (sim_prefix (Some c) k' s r) as (s' & Hs & Hw).
    { intros kv Hin. pose proof (stable_value _ Hin) as Hv. rewrite Ek in Hv. exact Hv. }
    { exact Hr'. }
    assert (matches bk prev k (c :: s) = true); [|congruence].
    rewrite Ek in *. apply matches_spec. exists s'. split; [by rewrite Hs|]. intros Hb. destruct (Hbd Hb) as [H1 H2].
    unfold boundary in *. cbn [head hd_error] in *. rewrite <- (Hprev Hb), <- (Hw (Hflag Hb)). done.
  Qed.
End sim.

(** ** Looking for a key in a text *)

(** No occurrence of [k] in [s]. *)
Fixpoint absent (b : bool) (k : text) (prev : option ascii) (s : text) : Prop :=
  match s with [] => True | c :: s' => matches b prev k s = false /\ absent b k (Some c) s' end.

Lemma absent_prev b k prev prev' s :
  wordish prev = wordish prev' -> absent b k prev s -> absent b k prev' s.
Proof.
  intros Hw. destruct s as [|c s]; [done|]. intros [H1 H2]. split; [|done].
  unfold matches, boundary in *. by rewrite <- Hw.
Qed.

Lemma absent_unbounded k prev prev' s : absent false k prev s -> absent false k prev' s.
Proof. destruct s as [|c s]; [done|]. intros [H1 H2]. split; [|done]. exact H1. Qed.

Lemma sim_absent b T prev s :
  (forall kv, kv ∈ T -> absent b kv.1 prev s) -> sim b T prev s = s.
Proof.
  revert prev. induction s as [|c s IH]; intros prev H; [done|]. cbn -[find_match].
  destruct (find_match b T prev (c :: s)) as [[k v]|] eqn:E.
  - exfalso. apply find_match_some in E. destruct E as [Hin Hm]. destruct (H _ Hin) as [H1 _]. congruence.
  - f_equal. apply IH. intros kv Hkv. by apply H.
Qed.

Definition last_or (prev : option ascii) (x : text) : option ascii :=
  match last x with Some c => Some c | None => prev end.
Lemma last_or_cons prev c x : last_or prev (c :: x) = last_or (Some c) x.
Proof. unfold last_or. rewrite last_cons. by destruct (last x). Qed.
Lemma last_or_ne prev x : x <> [] -> last_or prev x = last x.
Proof. intros Hx. unfold last_or. destruct (last x) eqn:E; [done|]. by apply last_None in E. Qed.

Lemma absent_app b k prev x t :
  absent b k (last_or prev x) t ->
  (forall p y prev', x = p ++ y -> y <> [] -> matches b prev' k (y ++ t) = false) -> absent b k prev (x ++ t).
Proof.
  revert prev. induction x as [|c x IH]; intros prev Ht Hx; [done|].
  cbn [app absent]. split; [by apply (Hx [] (c :: x))|]. apply IH.
  - by rewrite <- (last_or_cons prev).
  - intros p y prev' -> Hy. by apply (Hx (c :: p)).
Qed.

(** What was absent before, or belongs to the table, is absent afterwards. *)
Lemma sim_keeps_absent b T bk k prev prev' s :
  (forall kv, kv ∈ T -> shape b kv = true) -> k <> [] -> (bk = true -> b = true) -> stable bk b T k = true ->
  (bk = true -> wordish prev' = wordish prev) ->
  (absent bk k prev s \/ bk = b /\ exists v, (k, v) ∈ T) -> absent bk k prev' (sim b T prev s).
Proof.
  intros Hshape Hk Hflag Hst. revert prev prev'. induction s as [s IH] using (induction_ltof1 _ length).
  unfold ltof in IH. intros prev prev' Hprev Hor.
  rewrite sim_eq by (intros kv Hin; by eapply sim_keys).
  destruct s as [|c s]; [done|].
  destruct (find_match b T prev (c :: s)) as [[k1 v1]|] eqn:E.
  - apply find_match_some in E. destruct E as [Hin Hm]. pose proof Hm as Hm'. apply matches_spec in Hm'. cbn in Hm'.
    destruct Hm' as (s' & Hs & Hbd). rewrite Hs, drop_app. pose proof (sim_keys _ _ Hshape _ Hin) as Hk1. cbn in Hk1.
    pose proof (sim_vals _ _ Hshape _ Hin) as Hv1. cbn in Hv1.
    apply absent_app.
    + rewrite last_or_ne by done. apply IH.
      * rewrite Hs, app_length. destruct k1; [done | cbn; lia].
      * intros Hb. destruct (sim_words _ _ Hshape _ (Hflag Hb) Hin) as (_ & _ & H3 & H4). cbn in H3, H4.
        by rewrite H3, H4.
      * destruct Hor as [Ha | Ht]; [left | by right]. clear -Ha Hs Hk1.
        rewrite Hs in Ha. clear Hs. revert prev Ha. induction k1 as [|x k1 IHk]; intros prev Ha; [done|].
        cbn in Ha. destruct Ha as [_ Ha]. destruct k1 as [|y k1]; [exact Ha|]. apply (IHk ltac:(done) _ Ha).
    + intros p y prev'' Hp Hy. eapply no_match_in_value; [exact Hst | exact Hin | exact Hp | exact Hy |].
      eapply (after_match_head b T Hshape prev (c :: s) (k1, v1) s'); done.
  - split.
    + eapply no_match_at_char; [exact Hshape | exact Hk | exact Hflag | exact Hst | exact Hprev |].
      destruct Hor as [[Ha _] | [-> [v Hv]]]; [exact Ha|]. by apply (find_match_none _ _ _ _ _ E Hv).
    + apply IH; [cbn; lia | done|]. destruct Hor as [[_ Ha] | Ht]; [by left | by right].
Qed.

(** One more key: replacing after a simultaneous replacement. *)
Definition no_key_in (k x : text) : bool := forallb (fun y => negb (compat k y)) (suffixes (tail x)).

Lemma sim_through_key b T prev k s :
  (forall kv, kv ∈ T -> shape b kv = true) -> k <> [] ->
  (forall kv, kv ∈ T -> no_key_in kv.1 k = true) ->
  find_match b T prev (k ++ s) = None -> sim b T prev (k ++ s) = k ++ sim b T (last k) s.
Proof.
  intros Hshape Hk Hno Hf. destruct k as [|c k]; [done|]. cbn [app]. rewrite sim_eq by (intros kv Hin; by eapply sim_keys).
  cbn [app] in Hf. rewrite Hf. f_equal.
  assert (Hgen : forall x prev', (forall kv, kv ∈ T -> forallb (fun y => negb (compat kv.1 y)) (suffixes x) = true) ->
    sim b T prev' (x ++ s) = x ++ sim b T (last_or prev' x) s).
  { clear. intros x. induction x as [|a x IH]; intros prev' Hx; [done|]. cbn [app]. cbn -[find_match last suffixes].
    destruct (find_match b T prev' (a :: x ++ s)) as [[k1 v1]|] eqn:E.
    - exfalso. apply find_match_some in E. destruct E as [Hin Hm]. apply matches_spec in Hm. destruct Hm as (s' & Hs & _).
      specialize (Hx _ Hin). cbn in Hx. apply andb_true_iff in Hx. destruct Hx as [Hx _].
      cbn in Hs. rewrite (compat_app k1 (a :: x) s' s) in Hx by done. done.
    - f_equal. rewrite IH.
      + by rewrite last_or_cons.
      + intros kv Hin. specialize (Hx _ Hin). cbn in Hx. apply andb_true_iff in Hx. tauto. }
  rewrite Hgen.
  - by rewrite <- (last_or_cons None), last_or_ne.
  - intros kv Hin. apply (Hno _ Hin).
Qed.

Lemma replace_app b k v prev x t :
  k <> [] ->
  (forall p y prev', x = p ++ y -> y <> [] -> matches b prev' k (y ++ t) = false) ->
  sim b [(k, v)] prev (x ++ t) = x ++ sim b [(k, v)] (last_or prev x) t.
Proof.
  intros Hk. revert prev. induction x as [|c x IH]; intros prev Hx; [done|].
  cbn [app]. cbn -[matches last]. rewrite (Hx [] (c :: x)) by done. f_equal. rewrite IH.
  - by rewrite last_or_cons.
  - intros p y prev' -> Hy. by apply (Hx (c :: p)).
Qed.

Lemma replace_here b k v prev r :
  (forall kv, kv ∈ [(k, v)] -> shape b kv = true) -> matches b prev k (k ++ r) = true ->
  sim b [(k, v)] prev (k ++ r) = v ++ sim b [(k, v)] (last k) r.
Proof.
  intros HK Hm. rewrite sim_eq by (intros kv Hin; by apply (sim_keys b _ HK)).
  assert (Hk : k <> []) by (apply (sim_keys _ _ HK (k, v)); left).
  cbn [find_match fst]. rewrite Hm, drop_app. by destruct k.
Qed.

Lemma replace_sim b T k v prev prev' s :
  (forall kv, kv ∈ T ++ [(k, v)] -> shape b kv = true) -> stable b b T k = true ->
  (forall kv, kv ∈ T -> no_key_in kv.1 k = true) ->
  (b = true -> wordish prev' = wordish prev) ->
  sim b [(k, v)] prev' (sim b T prev s) = sim b (T ++ [(k, v)]) prev s.
Proof.
  intros Hshape Hst Hno. revert prev prev'. induction s as [s IH] using (induction_ltof1 _ length).
  unfold ltof in IH. intros prev prev' Hprev.
  assert (HT : forall kv, kv ∈ T -> shape b kv = true) by (intros kv Hin; apply Hshape, elem_of_app; by left).
  assert (Hkv : shape b (k, v) = true) by (apply Hshape, elem_of_app; right; left).
  assert (HK : forall kv, kv ∈ [(k, v)] -> shape b kv = true).
  { intros kv Hin. apply Hshape, elem_of_app. by right. }
  assert (Hk : k <> []) by (apply (sim_keys _ _ HK (k, v)); left).
  rewrite (sim_eq b T) by (intros kv Hin; by apply (sim_keys b T HT)).
  rewrite (sim_eq b (T ++ [(k, v)])) by (intros kv Hin; by apply (sim_keys b _ Hshape)).
  destruct s as [|c s]; [done|]. rewrite find_match_app.
  destruct (find_match b T prev (c :: s)) as [[k1 v1]|] eqn:E.
  - apply find_match_some in E. destruct E as [Hin Hm]. pose proof Hm as Hm'. apply matches_spec in Hm'. cbn in Hm'.
    destruct Hm' as (s' & Hs & Hbd). rewrite Hs, drop_app. pose proof (sim_keys _ _ HT _ Hin) as Hk1. cbn in Hk1.
    pose proof (sim_vals _ _ HT _ Hin) as Hv1. cbn in Hv1.
    rewrite replace_app; [f_equal | done |].
    + rewrite last_or_ne by done. apply IH.
      * rewrite Hs, app_length. destruct k1; [done | cbn; lia].
      * intros Hb. destruct (sim_words _ _ HT _ Hb Hin) as (_ & _ & H3 & H4). cbn in H3, H4. by rewrite H3, H4.
    + intros p y prev'' Hp Hy. eapply no_match_in_value; [exact Hst | exact Hin | exact Hp | exact Hy |].
      eapply (after_match_head b T HT prev (c :: s) (k1, v1) s'); done.
  - cbn [find_match fst]. destruct (matches b prev k (c :: s)) eqn:Em.
    + apply matches_spec in Em. destruct Em as (s' & Hs & Hbd).
      assert (Hsim : c :: sim b T (Some c) s = k ++ sim b T (last k) s').
      { rewrite <- (sim_through_key b T prev k s'); [|done|done|done|by rewrite <- Hs].
        rewrite <- Hs. cbn -[find_match]. by rewrite E. }
      rewrite Hsim, Hs, drop_app, (replace_here b k v prev' _ HK).
      { f_equal. apply IH; [|done]. rewrite Hs, app_length. destruct k; [done | cbn; lia]. }
      assert (matches b prev' k (k ++ sim b T (last k) s') = true) as ->.
      { apply matches_spec. eexists. split; [done|]. intros Hb. destruct (Hbd Hb) as [H1 H2]. unfold boundary in *.
        rewrite (sim_head b T HT (last k) s' Hb). split; [|done].
        rewrite (Hprev Hb). rewrite Hs in H1. rewrite head_app_ne in * by done. done. }
      done.
    + rewrite (sim_eq b [(k, v)]) by (intros kv Hin; by apply (sim_keys b _ HK)). cbn [find_match fst].
      rewrite (no_match_at_char b T HT b k Hk ltac:(done) Hst prev prev' c s Hprev Em). f_equal.
      apply IH; [cbn; lia | done].
Qed.

(** ** Tables *)

Definition good_pair (b : bool) (kv kv' : text * text) : bool :=
  no_start_in b kv.1 kv'.2 && no_value_in kv.1 kv'.2 && no_key_in kv.1 kv'.1 && no_key_in kv'.1 kv.1.
Definition good_table (b : bool) (T : table) : bool :=
  forallb (shape b) T && forallb (fun kv => forallb (good_pair b kv) T) T.
(** No two keys match at the same place. *)
Definition apart (T : table) : Prop :=
  forall kv kv', kv ∈ T -> kv' ∈ T -> compat kv.1 kv'.1 = true -> kv = kv'.
Definition apartb (T : table) : bool :=
  forallb (fun kv => forallb (fun kv' => negb (compat kv.1 kv'.1) || bool_decide (kv = kv')) T) T.
Lemma apart_of T : apartb T = true -> apart T.
Proof.
  intros H kv kv' H1 H2 Hc. pose proof (forallb_elem _ _ _ H H1) as H3. cbn beta in H3.
  pose proof (forallb_elem _ _ _ H3 H2) as H4. cbn beta in H4. rewrite Hc in H4. cbn in H4. by apply bool_decide_eq_true in H4.
Qed.

Lemma find_match_perm b T T' prev s : apart T -> T ≡ₚ T' -> find_match b T prev s = find_match b T' prev s.
Proof.
  intros Ha HP.
  destruct (find_match b T prev s) as [kv|] eqn:E; destruct (find_match b T' prev s) as [kv'|] eqn:E'.
  - apply find_match_some in E, E'. destruct E as [H1 H2], E' as [H3 H4]. f_equal. apply Ha; [done | by rewrite HP |].
    apply matches_spec in H2, H4. destruct H2 as (s1 & H2 & _), H4 as (s2 & H4 & _). rewrite H2 in H4.
    by apply compat_app in H4.
  - apply find_match_some in E. destruct E as [H1 H2]. rewrite HP in H1.
    pose proof (find_match_none _ _ _ _ _ E' H1). congruence.
  - apply find_match_some in E'. destruct E' as [H1 H2]. rewrite <- HP in H1.
    pose proof (find_match_none _ _ _ _ _ E H1). congruence.
  - done.
Qed.
Lemma sim_perm b T T' prev n s : apart T -> T ≡ₚ T' -> sim_from b T prev n s = sim_from b T' prev n s.
Proof.
  intros Ha HP. revert prev n. induction s as [|c s IH]; intros prev n; [done|]. cbn -[find_match].
  destruct n; [|done]. rewrite (find_match_perm b T T') by done. destruct (find_match b T' prev (c :: s)) as [[k v]|]; by rewrite IH.
Qed.

Lemma sim_nil b prev s : sim b [] prev s = s.
Proof. revert prev. induction s as [|c s IH]; intros prev; [done|]. cbn. by rewrite IH. Qed.

(** Replacing entry by entry replaces all at once. *)
Lemma fold_replace b T l s :
  good_table b (T ++ l) = true ->
  foldl (fun s kv => replace_all b kv s) (sim b T None s) l = sim b (T ++ l) None s.
Proof.
  revert T. induction l as [|kv l IH]; intros T Hg; [by rewrite app_nil_r|].
  cbn [foldl]. unfold replace_all at 2. rewrite replace_is_sim.
  assert (Hs : forall x, x ∈ T ++ kv :: l -> shape b x = true).
  { intros x Hx. unfold good_table in Hg. apply andb_true_iff in Hg. destruct Hg as [Hg _]. by apply (forallb_elem _ _ _ Hg). }
  assert (Hp : forall x y, x ∈ T ++ kv :: l -> y ∈ T ++ kv :: l -> good_pair b x y = true).
  { intros x y Hx Hy. unfold good_table in Hg. apply andb_true_iff in Hg. destruct Hg as [_ Hg].
    pose proof (forallb_elem _ _ _ Hg Hx) as H'. cbn beta in H'. by apply (forallb_elem _ _ _ H'). }
  assert (Hkv : kv ∈ T ++ kv :: l) by (apply elem_of_app; right; left).
  assert (HTin : forall x, x ∈ T -> x ∈ T ++ kv :: l) by (intros x Hx; apply elem_of_app; by left).
  replace (T ++ kv :: l) with ((T ++ [kv]) ++ l) in * by (by rewrite <- app_assoc).
  rewrite <- (IH (T ++ [kv]) Hg).
  f_equal. destruct kv as [k v]. cbn [fst snd]. apply replace_sim.
  - intros x Hx. apply Hs. apply elem_of_app. by left.
  - unfold stable. apply forallb_forall. intros x Hx. apply elem_of_list_In in Hx.
    pose proof (Hp (k, v) x Hkv (HTin _ Hx)) as H'. unfold good_pair in H'. cbn in H'. rewrite !andb_true_iff in H'.
    apply andb_true_iff. tauto.
  - intros x Hx. pose proof (Hp (k, v) x Hkv (HTin _ Hx)) as H'. unfold good_pair in H'. cbn in H'.
    rewrite !andb_true_iff in H'. tauto.
  - done.
Qed.

Definition cases (kv : text * text) : table := [kv; (upper kv.1, upper kv.2)].
Lemma fold_apply b l s : foldl (apply_entry b) s l = foldl (fun s kv => replace_all b kv s) s (flat_map cases l).
Proof. revert s. induction l as [|kv l IH]; intros s; [done|]. cbn. by rewrite IH. Qed.
Lemma cases_perm l : flat_map cases l ≡ₚ both_cases l.
Proof.
  unfold both_cases. induction l as [|kv l IH]; [done|]. cbn. rewrite IH. f_equiv.
  by rewrite Permutation_middle.
Qed.
Lemma flat_cases_perm l l' : l ≡ₚ l' -> flat_map cases l ≡ₚ flat_map cases l'.
Proof. intros H. rewrite !cases_perm. unfold both_cases. by rewrite H. Qed.

Lemma good_table_perm b T T' : T ≡ₚ T' -> good_table b T = true -> good_table b T' = true.
Proof.
  intros HP. unfold good_table. rewrite !andb_true_iff, !forallb_forall. intros [H1 H2]. split.
  - intros x Hx. apply H1. apply elem_of_list_In. rewrite HP. by apply elem_of_list_In.
  - intros x Hx. apply forallb_forall. intros y Hy.
    specialize (H2 x). rewrite forallb_forall in H2. apply H2; apply elem_of_list_In; rewrite HP; by apply elem_of_list_In.
Qed.

Lemma fold_entries b T l s :
  good_table b (both_cases T) = true -> apart (both_cases T) -> l ≡ₚ T ->
  foldl (apply_entry b) s l = sim b (both_cases T) None s.
Proof.
  intros Hg Ha HP. rewrite fold_apply. rewrite <- (sim_nil b None s) at 1. rewrite fold_replace; cbn [app].
  - symmetry. apply sim_perm; [done|]. rewrite <- cases_perm. by apply flat_cases_perm.
  - eapply good_table_perm; [|exact Hg]. rewrite <- cases_perm. by apply flat_cases_perm.
Qed.

(** ** The tables of the code *)
Lemma subs_good k : good_table false (both_cases (substitutions k)) = true.
Proof. destruct k; vm_compute; reflexivity. Qed.
Lemma subs_apart k : apart (both_cases (substitutions k)).
Proof. apply apart_of. destruct k; vm_compute; reflexivity. Qed.
Lemma cors_good : good_table true (both_cases corrections) = true.
Proof. vm_compute; reflexivity. Qed.
Lemma cors_apart : apart (both_cases corrections).
Proof. apply apart_of. vm_compute. reflexivity. Qed.
Lemma subs_stable k kv : kv ∈ both_cases (substitutions k) -> stable false true (both_cases corrections) kv.1 = true.
Proof.
  assert (H : forallb (fun kv => stable false true (both_cases corrections) kv.1) (both_cases (substitutions k)) = true)
    by (destruct k; vm_compute; reflexivity).
  intros Hin. exact (forallb_elem _ _ _ H Hin).
Qed.

(** ** Sprint *)
Lemma sprint_sim k subs cors s :
  subs ≡ₚ substitutions k -> cors ≡ₚ corrections ->
  sprint subs cors s = sim true (both_cases corrections) None (sim false (both_cases (substitutions k)) None s).
Proof.
  intros H1 H2. unfold sprint.
  rewrite (fold_entries true corrections cors _ cors_good cors_apart H2).
  by rewrite (fold_entries false (substitutions k) subs s (subs_good k) (subs_apart k) H1).
Qed.

Lemma good_shape b T kv : good_table b T = true -> kv ∈ T -> shape b kv = true.
Proof. intros Hg Hin. unfold good_table in Hg. apply andb_true_iff in Hg. destruct Hg as [Hg _]. exact (forallb_elem _ _ _ Hg Hin). Qed.
Lemma good_stable b T kv : good_table b T = true -> kv ∈ T -> stable b b T kv.1 = true.
Proof.
  intros Hg Hin. unfold good_table in Hg. apply andb_true_iff in Hg. destruct Hg as [_ Hg].
  pose proof (forallb_elem _ _ _ Hg Hin) as H. cbn beta in H. apply forallb_forall. intros x Hx. apply elem_of_list_In in Hx.
  pose proof (forallb_elem _ _ _ H Hx) as H'. unfold good_pair in H'. rewrite !andb_true_iff in H'. apply andb_true_iff. tauto.
Qed.

(** What remains after Sprint. *)
Lemma sprint_no_placeholder k subs cors s kv :
  subs ≡ₚ substitutions k -> cors ≡ₚ corrections -> kv ∈ both_cases (substitutions k) ->
  absent false kv.1 None (sprint subs cors s).
Proof.
  intros H1 H2 Hin. rewrite (sprint_sim k) by done.
  pose proof (good_shape _ _ _ (subs_good k) Hin) as Hs.
  assert (Hk : kv.1 <> []).
  { unfold shape in Hs. rewrite !andb_true_iff, !bool_decide_eq_true in Hs. tauto. }
  eapply sim_keeps_absent; [|exact Hk | done | by apply (subs_stable k) | done |].
  { intros x Hx. by apply (good_shape _ _ _ cors_good). }
  left. eapply sim_keeps_absent; [|exact Hk | done | by apply (good_stable _ _ _ (subs_good k)) | done |].
  { intros x Hx. by apply (good_shape _ _ _ (subs_good k)). }
  right. split; [done|]. exists kv.2. by destruct kv.
Qed.
Lemma sprint_no_phrase k subs cors s kv :
  subs ≡ₚ substitutions k -> cors ≡ₚ corrections -> kv ∈ both_cases corrections ->
  absent true kv.1 None (sprint subs cors s).
Proof.
  intros H1 H2 Hin. rewrite (sprint_sim k) by done.
  pose proof (good_shape _ _ _ cors_good Hin) as Hs.
  assert (Hk : kv.1 <> []).
  { unfold shape in Hs. rewrite !andb_true_iff, !bool_decide_eq_true in Hs. tauto. }
  eapply sim_keeps_absent; [|exact Hk | done | by apply (good_stable _ _ _ cors_good) | done |].
  { intros x Hx. by apply (good_shape _ _ _ cors_good). }
  right. split; [done|]. exists kv.2. by destruct kv.
Qed.
Lemma sprint_absent k subs cors s :
  subs ≡ₚ substitutions k -> cors ≡ₚ corrections ->
  (forall kv, kv ∈ both_cases (substitutions k) -> absent false kv.1 None s) ->
  (forall kv, kv ∈ both_cases corrections -> absent true kv.1 None s) ->
  sprint subs cors s = s.
Proof.
  intros H1 H2 Ha Hb. rewrite (sprint_sim k) by done. rewrite (sim_absent false) by done. by apply sim_absent.
Qed.

(** [absent] in terms of the specification. *)
Lemma absent_spec b k prev s :
  k <> [] ->
  absent b k prev s <->
  ~ exists a c, s = a ++ k ++ c /\ (b = true -> boundary (last_or prev a) (head k) = true /\ boundary (last k) (head c) = true).
Proof.
  intros Hk. revert prev. induction s as [|x s IH]; intros prev; cbn [absent].
  - split; [|done]. intros _ (a & c & H & _). symmetry in H. apply app_eq_nil in H. destruct H as [_ H].
    apply app_eq_nil in H. by destruct H.
  - rewrite IH. split.
    + intros [Hm Hn] (a & c & H & Hb). destruct a as [|x' a].
      * cbn in H. assert (matches b prev k (x :: s) = true); [|congruence]. apply matches_spec. exists c. split; [done|].
        intros ->. destruct (Hb eq_refl) as [H1 H2]. split; [|done]. rewrite H. by rewrite head_app_ne.
      * inversion H; subst. apply Hn. exists a, c. split; [done|]. by rewrite <- (last_or_cons prev).
    + intros Hn. split.
      * destruct (matches b prev k (x :: s)) eqn:E; [exfalso|done]. apply matches_spec in E.
        destruct E as (c & Hc & Hb). apply Hn. exists [], c. split; [done|]. intros H. destruct (Hb H) as [H1 H2]. split; [|done].
        rewrite Hc in H1. by rewrite head_app_ne in H1.
      * intros (a & c & -> & Hb). apply Hn. exists (x :: a), c. split; [done|]. by rewrite last_or_cons.
Qed.
Lemma absent_contains k s : k <> [] -> absent false k None s <-> ~ contains k s.
Proof.
  intros Hk. rewrite absent_spec by done. unfold contains. split; intros H (a & c & E); apply H; exists a, c; [by split | by apply E].
Qed.
(** The characters of words are those of the specification. *)
Lemma word_char_spec c : word_char c = bool_decide (c ∈ word_characters).
Proof. destruct c as [[] [] [] [] [] [] [] []]; vm_compute; reflexivity. Qed.
Lemma outside_spec c : outside_word c <-> wordish c = false.
Proof.
  destruct c as [c|]; cbn [outside_word wordish]; [|done]. rewrite word_char_spec, bool_decide_eq_false. done.
Qed.
Lemma outside_left c k : wordish (head k) = true -> boundary c (head k) = true <-> outside_word c.
Proof. intros Hk. rewrite outside_spec. unfold boundary. rewrite Hk. by destruct (wordish c). Qed.
Lemma outside_right c k : wordish (last k) = true -> boundary (last k) c = true <-> outside_word c.
Proof. intros Hk. rewrite outside_spec. unfold boundary. rewrite Hk. by destruct (wordish c). Qed.
Lemma absent_phrase k s : k <> [] -> wordish (head k) = true -> wordish (last k) = true ->
  absent true k None s <-> ~ contains_phrase k s.
Proof.
  intros Hk Hh Hl. rewrite absent_spec by done. unfold contains_phrase, last_or. split.
  - intros H (a & c & E1 & E2 & E3). apply H. exists a, c. split; [done|]. intros _.
    rewrite outside_left, outside_right by done. split; [|done]. by destruct (last a).
  - intros H (a & c & E1 & E2). apply H. exists a, c. destruct (E2 eq_refl) as [E3 E4].
    rewrite outside_left in E3 by done. rewrite outside_right in E4 by done.
    split; [done|]. split; [|done]. by destruct (last a).
Qed.

(** [sim] in terms of the specification. *)
Lemma sim_substituted T prev s :
  (forall kv, kv ∈ T -> shape false kv = true) -> substituted T s (sim false T prev s).
Proof.
  intros HT. revert prev. induction s as [s IH] using (induction_ltof1 _ length). unfold ltof in IH. intros prev.
  rewrite sim_eq by (intros kv Hin; by apply (sim_keys false T HT)). destruct s as [|c s]; [constructor|].
  destruct (find_match false T prev (c :: s)) as [[k v]|] eqn:E.
  - apply find_match_some in E. destruct E as [Hin Hm]. apply matches_spec in Hm. destruct Hm as (s' & Hs & _). cbn in Hs.
    pose proof (sim_keys false T HT _ Hin) as Hk. cbn in Hk.
    rewrite Hs, drop_app. constructor; [done|]. apply IH. rewrite Hs, app_length. destruct k; [done | cbn; lia].
  - constructor; [|apply IH; cbn; lia]. intros kv Hin [s' Hs].
    pose proof (find_match_none _ _ _ _ _ E Hin) as Hm. assert (matches false prev kv.1 (c :: s) = true); [|congruence].
    apply matches_spec. by exists s'.
Qed.
Lemma sim_corrected T prev s :
  (forall kv, kv ∈ T -> shape true kv = true) -> corrected T prev s (sim true T prev s).
Proof.
  intros HT. revert prev. induction s as [s IH] using (induction_ltof1 _ length). unfold ltof in IH. intros prev.
  rewrite sim_eq by (intros kv Hin; by apply (sim_keys true T HT)). destruct s as [|c s]; [constructor|].
  destruct (find_match true T prev (c :: s)) as [[k v]|] eqn:E.
  - apply find_match_some in E. destruct E as [Hin Hm]. apply matches_spec in Hm. destruct Hm as (s' & Hs & Hb). cbn in Hs.
    pose proof (sim_keys true T HT _ Hin) as Hk. cbn in Hk.
    destruct (sim_words true T HT _ eq_refl Hin) as (Hw1 & _ & Hw2 & _). destruct (Hb eq_refl) as [Hb1 Hb2]. cbn in Hw1, Hw2.
    rewrite Hs, head_app_ne, outside_left in Hb1 by done. rewrite outside_right in Hb2 by done.
    econstructor; [exact Hin | split; [exact Hs | done] |]. rewrite Hs, drop_app. apply IH.
    rewrite Hs, app_length. destruct k; [done | cbn; lia].
  - constructor; [|apply IH; cbn; lia]. intros kv Hin (s' & Hs & Hb1 & Hb2).
    pose proof (find_match_none _ _ _ _ _ E Hin) as Hm. assert (matches true prev kv.1 (c :: s) = true); [|congruence].
    destruct (sim_words true T HT _ eq_refl Hin) as (Hw1 & _ & Hw2 & _). pose proof (sim_keys true T HT _ Hin) as Hk.
    apply matches_spec. exists s'. split; [done|]. intros _. rewrite outside_right by done. split; [|done].
    rewrite Hs, head_app_ne by done. by rewrite outside_left.
Qed.
Lemma sprint_result k subs cors s :
  subs ≡ₚ substitutions k -> cors ≡ₚ corrections ->
  exists t, substituted (both_cases (substitutions k)) s t /\ corrected (both_cases corrections) None t (sprint subs cors s).
Proof.
  intros H1 H2. rewrite (sprint_sim k) by done. eexists. split.
  - apply sim_substituted. intros kv. apply good_shape, subs_good.
  - apply sim_corrected. intros kv. apply good_shape, cors_good.
Qed.

Lemma C67_lemma k subs subs' cors cors' s :
  subs ≡ₚ substitutions k -> subs' ≡ₚ substitutions k -> cors ≡ₚ corrections -> cors' ≡ₚ corrections ->
  sprint subs cors s = sprint subs' cors' s.
Proof. intros H1 H2 H3 H4. by rewrite !(sprint_sim k). Qed.

Lemma subs_ne k p w : (p, w) ∈ both_cases (substitutions k) -> p <> [].
Proof.
  intros H. apply (good_shape _ _ _ (subs_good k)) in H. unfold shape in H.
  rewrite !andb_true_iff, !bool_decide_eq_true in H. tauto.
Qed.
Lemma cors_ne p w : (p, w) ∈ both_cases corrections -> p <> [].
Proof.
  intros H. apply (good_shape _ _ _ cors_good) in H. unfold shape in H.
  rewrite !andb_true_iff, !bool_decide_eq_true in H. tauto.
Qed.
Lemma cors_words p w : (p, w) ∈ both_cases corrections -> wordish (head p) = true /\ wordish (last p) = true.
Proof.
  intros H. pose proof (sim_words true _ (fun kv => good_shape _ _ kv cors_good) (p, w) eq_refl H). cbn in *. tauto.
Qed.
Lemma C68_placeholder_lemma k subs cors s p w :
  subs ≡ₚ substitutions k -> cors ≡ₚ corrections -> (p, w) ∈ both_cases (substitutions k) ->
  ~ contains p (sprint subs cors s).
Proof.
  intros H1 H2 Hin. apply absent_contains; [by eapply subs_ne|]. by apply (sprint_no_placeholder k subs cors s (p, w)).
Qed.
Lemma C68_phrase_lemma k subs cors s p w :
  subs ≡ₚ substitutions k -> cors ≡ₚ corrections -> (p, w) ∈ both_cases corrections ->
  ~ contains_phrase p (sprint subs cors s).
Proof.
  intros H1 H2 Hin. apply absent_phrase; [by eapply cors_ne | by eapply cors_words | by eapply cors_words |]. by apply (sprint_no_phrase k subs cors s (p, w)).
Qed.
Lemma C68_unchanged_lemma k subs cors s :
  subs ≡ₚ substitutions k -> cors ≡ₚ corrections ->
  (forall p w, (p, w) ∈ both_cases (substitutions k) -> ~ contains p s) ->
  (forall p w, (p, w) ∈ both_cases corrections -> ~ contains_phrase p s) ->
  sprint subs cors s = s.
Proof.
  intros H1 H2 Ha Hb. apply (sprint_absent k); [done | done | |].
  - intros [p w] Hin. apply absent_contains; [by eapply subs_ne|]. by eapply Ha.
  - intros [p w] Hin. apply absent_phrase; [by eapply cors_ne | by eapply cors_words | by eapply cors_words |]. by eapply Hb.
Qed.
Lemma C68_idempotent_lemma k subs cors subs' cors' s :
  subs ≡ₚ substitutions k -> cors ≡ₚ corrections -> subs' ≡ₚ substitutions k -> cors' ≡ₚ corrections ->
  sprint subs' cors' (sprint subs cors s) = sprint subs cors s.
Proof.
  intros H1 H2 H3 H4. apply (C68_unchanged_lemma k); [done | done | |].
  - intros p w. by apply (C68_placeholder_lemma k).
  - intros p w. by apply (C68_phrase_lemma k).
Qed.
