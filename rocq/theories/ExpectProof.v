(** * Verdicts and reports of whole expectation trees. *)
From Verif Require Import ExpectSpec ExpectLemmas SatisfyLemmas.

Section Proof.
Context {P : Params}.


(** ** Texts that are not empty *)
Lemma replace_nonempty b k v prev sk s0 : v <> [] -> (sk < length s0) -> replace_from b k v prev sk s0 <> [].
Proof.
  intros Hv. revert prev sk. induction s0 as [|c s0 IH]; intros prev sk Hl; cbn in *; [lia|].
  destruct sk as [|sk].
  - destruct (matches b prev k (c :: s0)); [|done]. by destruct v.
  - apply IH. lia.
Qed.
Lemma apply_entry_nonempty b s0 kv : kv.2 <> [] -> s0 <> [] -> apply_entry b s0 kv <> [].
Proof.
  intros Hv Hs. unfold apply_entry, replace_all. apply replace_nonempty.
  - cbn. by destruct (kv.2).
  - assert (H := replace_nonempty b kv.1 kv.2 None 0 s0 Hv). destruct s0; [done|].
    destruct (replace_from b kv.1 kv.2 None 0 (a :: s0)); cbn in *; [|lia]. exfalso. apply H; [lia | done].
Qed.
Lemma foldl_nonempty b tb s0 : Forall (fun kv => kv.2 <> []) tb -> s0 <> [] -> foldl (apply_entry b) s0 tb <> [].
Proof. intros H. revert s0. induction H as [|kv tb H1 H2 IH]; intros s0 Hs; cbn; [done|]. apply IH. by apply apply_entry_nonempty. Qed.
Lemma inflect_nonempty k s0 : s0 <> [] -> inflect k s0 <> [].
Proof.
  intros H. unfold inflect, sprint. apply foldl_nonempty; [|apply foldl_nonempty; [|done]].
  - repeat (constructor; [done|]). constructor.
  - destruct k; repeat (constructor; [done|]); constructor.
Qed.

(** ** reportNoMatch *)
Definition same_shape (r r' : Report) : Prop :=
  rp_ok r' = rp_ok r /\ rp_sub r' = rp_sub r /\ rp_criteria r' = rp_criteria r /\ rp_outcome r' = rp_outcome r /\ rp_tree r' = rp_tree r.
Lemma ss_refl r : same_shape r r. Proof. done. Qed.
Lemma ss_trans a b c : same_shape a b -> same_shape b c -> same_shape a c.
Proof. intros (?&?&?&?&?) (?&?&?&?&?). split_and!; congruence. Qed.
Lemma ss_section t x r : same_shape r (section t x r). Proof. done. Qed.
Lemma ss_expl x r : same_shape r (set_expl x r). Proof. done. Qed.
Lemma foldl_section {A} (f : Report -> A -> Report) l r :
  (forall r a, same_shape r (f r a) /\ rp_expl (f r a) = rp_expl r) ->
  same_shape r (foldl f r l) /\ rp_expl (foldl f r l) = rp_expl r.
Proof.
  intros H. revert r. induction l as [|a l IH]; intros r; cbn; [done|].
  destruct (IH (f r a)) as [I1 I2]. destruct (H r a) as [J1 J2]. split; [by eapply ss_trans | by rewrite I2].
Qed.
Lemma suggest_enable_same t r ht : same_shape r (suggest_enable t r ht) /\ rp_expl (suggest_enable t r ht) = rp_expl r.
Proof. unfold suggest_enable. by destruct (_ && _). Qed.

Lemma rnm_end t r : same_shape r (report_no_match_end t r) /\
  rp_expl (report_no_match_end t r) =
    (if t_total t =? 0 then txt "no messages were produced at all"
     else if t_produced t =? 0 then inflect (t_kind t) (txt "no <messages> were <produced> at all")
     else if t_match t then inflect (t_kind t) (txt "nothing <produced> a matching <message>")
     else inflect (t_kind t) (txt "none of the engaged handlers <produced> a matching <message>")).
Proof.
  unfold report_no_match_end. set (x := if t_total t =? 0 then _ else _).
  match goal with |- context [foldl ?f ?r0 ?l] => destruct (foldl_section f l r0) as [J1 J2]; [done|]; revert J1 J2; generalize (foldl f r0 l) end.
  intros r' J1 J2. destruct (t_match t); (split; [eapply ss_trans; [apply (ss_expl x)|]; done | cbn in *; done]).
Qed.

Lemma filter_all_false {A} (f : A -> bool) l : List.filter f l = [] <-> forall x, x ∈ l -> f x = false.
Proof.
  induction l as [|a l IH]; cbn.
  - split; [|done]. intros _ x Hx. by apply elem_of_nil in Hx.
  - destruct (f a) eqn:E; split; intros H.
    + done.
    + specialize (H a). rewrite E in H. by discriminate H; left.
    + intros x Hx. apply elem_of_cons in Hx. destruct Hx as [->|Hx]; [done|]. by apply IH.
    + apply IH. intros x Hx. apply H. by right.
Qed.

Lemma engagements_nil k fs r : first_occurrences (engagements k fs) r -> (r = [] <-> engagements k fs = []).
Proof. intros H. by destruct H. Qed.

Lemma rnm_spec s k fs r :
  same_shape r (report_no_match (t_run (t_init k s) fs) r) /\
  explains s k fs (rp_expl (report_no_match (t_run (t_init k s) fs) r)).
Proof.
  destruct (t_run_spec s k fs) as (A1 & A2 & A3 & A4 & A5 & A6 & A7). set (t := t_run (t_init k s) fs) in *. clearbody t.
  unfold report_no_match.
  set (r1 := section suggestions [] r). assert (S1 : same_shape r r1) by done. clearbody r1.
  set (r2 := foldl (suggest_enable t) r1 htypes).
  destruct (foldl_section (suggest_enable t) htypes r1 (suggest_enable_same t)) as [S2 _]. fold r2 in S2.
  assert (S12 := ss_trans _ _ _ S1 S2). clearbody r2.
  assert (Hend : forall r0, undiagnosed s k fs ->
     explains s k fs (rp_expl (report_no_match_end t r0))).
  { intros r0 Hc. destruct (rnm_end t r0) as [_ ->]. rewrite A4, A5, A1, A2.
    destruct (messages s fs) as [|m ms] eqn:Em; cbn [length Nat.eqb]; [by apply ex_nothing|].
    destruct (of_kind k (m :: ms)) as [|m' ms'] eqn:Ek; cbn [length Nat.eqb].
    - replace (inflect k (txt "no <messages> were <produced> at all")) with
        (match k with KCommand => txt "no commands were executed at all" | KEvent => txt "no events were recorded at all"
         | KTimeout => txt "no timeouts were scheduled at all" end) by (destruct k; vm_compute; reflexivity).
      apply ex_none_of_kind; [done | by rewrite Em | by rewrite Em].
    - destruct (sc_match s) eqn:Es.
      + replace (inflect k (txt "nothing <produced> a matching <message>")) with
          (match k with KCommand => txt "nothing executed a matching command" | KEvent => txt "nothing recorded a matching event"
           | KTimeout => txt "nothing scheduled a matching timeout" end) by (destruct k; vm_compute; reflexivity).
        apply ex_no_match_call; [done|]. by rewrite Em, Ek.
      + replace (inflect k (txt "none of the engaged handlers <produced> a matching <message>")) with
          (match k with KCommand => txt "none of the engaged handlers executed a matching command"
           | KEvent => txt "none of the engaged handlers recorded a matching event"
           | KTimeout => txt "none of the engaged handlers scheduled a matching timeout" end) by (destruct k; vm_compute; reflexivity).
        apply ex_no_match; [done | done | by rewrite Em, Ek]. }
  destruct (t_begun t) eqn:Eb.
  2:{ split; [eapply ss_trans; [exact S1 | apply rnm_end]|]. apply Hend. left. destruct (last_cycle fs) as [et0|]; [|done].
      exfalso. assert (false = true); [|done]. apply A3. done. }
  destruct (last_cycle fs) as [et|] eqn:El; [|exfalso; by apply (proj1 A3 eq_refl)].
  rewrite A2. destruct (sc_match s) eqn:Es.
  { split; [eapply ss_trans; [exact S12 | apply rnm_end]|]. apply Hend. by right; left. }
  assert (Hen : forall ht, t_enabled t ht = et_get et ht) by (intros; by rewrite (A7 et)).
  destruct (forallb (fun ht => negb (t_enabled t ht)) (relevant_types t)) eqn:Ed.
  { split; [by eapply ss_trans|]. cbn. eapply ex_disabled; [done.. |]. intros ht Hp. rewrite <- Hen.
    rewrite forallb_forall in Ed. apply negb_true_iff. apply Ed. unfold relevant_types. apply filter_In. rewrite A1. split; [|done].
    destruct ht; cbn; tauto. }
    assert (exists ht, is_producer_of ht k = true /\ et_get et ht = true) as (ht & H1 & H2).
    { apply not_true_iff_false in Ed. destruct (existsb (fun ht => t_enabled t ht) (relevant_types t)) eqn:Ex.
      - apply existsb_exists in Ex. destruct Ex as (ht & Hin & He). exists ht. rewrite <- Hen. split; [|done].
        unfold relevant_types in Hin. apply filter_In in Hin. rewrite A1 in Hin. apply Hin.
      - exfalso. apply Ed. apply forallb_forall. intros ht Hin. apply negb_true_iff. apply not_true_iff_false. intros He.
        apply not_true_iff_false in Ex. apply Ex. apply existsb_exists. by exists ht. }
  destruct (t_engaged t) as [|en ens] eqn:Ee.
  { split; [by eapply ss_trans|]. cbn [rp_expl section set_expl].
    assert (Ht : ExpectModel.join (txt " or ") (map htype_text (relevant_types t)) = match k with KEvent => txt "aggregate or integration" | _ => txt "process" end).
    { unfold relevant_types. rewrite A1. by destruct k. }
    rewrite Ht. eapply ex_unengaged; try done. by apply (engagements_nil _ _ _ A6). }
  { split; [eapply ss_trans; [exact S12 | apply rnm_end]|]. apply Hend. right; right. split; [intros H; by apply (engagements_nil _ _ _ A6) in H|]. by exists et, ht. }
Qed.
Lemma explains_nonempty s k fs x : explains s k fs x -> x <> [].
Proof. intros H. destruct H; try done; by destruct k. Qed.

(** ** Counting *)
Lemma count_true_le l : count_true l <= length l.
Proof. unfold count_true. induction l as [|[] l IH]; cbn; lia. Qed.
Lemma count_true_all l : count_true l = length l <-> Forall (fun b => b = true) l.
Proof.
  unfold count_true. induction l as [|b l IH]; cbn; [by split|]. assert (L := count_true_le l). unfold count_true in L.
  destruct b; cbn.
  - rewrite Forall_cons, <- IH. split; [intros H; split; [done | lia] | intros [_ H]; lia].
  - rewrite Forall_cons. split; [lia | by intros [? _]].
Qed.
Lemma count_true_some l : 0 < count_true l <-> Exists (fun b => b = true) l.
Proof.
  unfold count_true. induction l as [|b l IH]; cbn; [split; [lia | by intros H; inversion H]|].
  rewrite Exists_cons, <- IH. destruct b; cbn; [split; [by left | lia]|]. split; [by right | by intros [?|?]].
Qed.

(** ** Lists of children *)
Definition go_comp s := fix go (l : list Exp) : list Pred + PErr :=
  match l with
  | [] => inl []
  | e :: l =>
    match new_predicate s e with
    | inr er => inr er
    | inl p => match go l with inr er => inr er | inl ps => inl (p :: ps) end
    end
  end.
Lemma new_predicate_comp s c l :
  new_predicate s (XComp c l) = match go_comp s l with inr er => inr er | inl ps => inl (PdComp c ps) end.
Proof. done. Qed.
Definition go_repeat s (f : nat -> option Exp) := fix go (i k : nat) : list Pred + PErr :=
  match k with
  | 0 => inl []
  | S k =>
    match f i with
    | None => inr (PENil i)
    | Some x =>
      match new_predicate s x with
      | inr er => inr (PEIter i er)
      | inl p => match go (S i) k with inr er => inr er | inl ps => inl (p :: ps) end
      end
    end
  end.
Lemma new_predicate_repeat s d n f :
  new_predicate s (XRepeat d n f) = match go_repeat s f 0 n with inr er => inr er | inl ps => inl (PdRepeat d ps) end.
Proof. done. Qed.

Lemma go_comp_inl s l ps : go_comp s l = inl ps -> Forall2 (fun e p => new_predicate s e = inl p) l ps.
Proof.
  revert ps. induction l as [|e l IH]; intros ps H; cbn in H; [inversion H; constructor|].
  destruct (new_predicate s e) as [p|er] eqn:E; [|done]. destruct (go_comp s l) as [ps'|]; [|done]. inversion H; subst.
  constructor; [done | by apply IH].
Qed.
Lemma go_comp_inr s l : (exists er, go_comp s l = inr er) <-> exists e, e ∈ l /\ exists er, new_predicate s e = inr er.
Proof.
  induction l as [|e l IH]; cbn.
  - split; [by intros (er & H) | intros (e & H & _); by apply elem_of_nil in H].
  - destruct (new_predicate s e) as [p|er] eqn:E.
    + transitivity (exists er, go_comp s l = inr er).
      * destruct (go_comp s l); split; intros (er & H); try done; by eexists.
      * rewrite IH. split; intros (e' & H & er & He).
        -- exists e'. split; [by right|]. by exists er.
        -- apply elem_of_cons in H. destruct H as [->|H]; [congruence|]. exists e'. split; [done|]. by exists er.
    + split; [|by eexists]. intros _. exists e. split; [by left|]. by exists er.
Qed.
Lemma go_repeat_inl s f i k ps : go_repeat s f i k = inl ps ->
  exists es, Forall2 (fun j e => f j = Some e) (seq i k) es /\ Forall2 (fun e p => new_predicate s e = inl p) es ps.
Proof.
  revert i ps. induction k as [|k IH]; intros i ps H; cbn in H.
  - inversion H. exists []. by split; constructor.
  - destruct (f i) as [x|] eqn:Ef; [|done]. destruct (new_predicate s x) as [p|er] eqn:E; [|done].
    destruct (go_repeat s f (S i) k) as [ps'|] eqn:Eg; [|done]. inversion H; subst. destruct (IH _ _ Eg) as (es & F1 & F2).
    exists (x :: es). split; by constructor.
Qed.
Lemma go_repeat_inr s f i k : (exists er, go_repeat s f i k = inr er) <->
  exists j, i <= j < i + k /\ (f j = None \/ exists e er, f j = Some e /\ new_predicate s e = inr er).
Proof.
  revert i. induction k as [|k IH]; intros i; cbn.
  - split; [by intros (er & H) | intros (j & H & _); lia].
  - destruct (f i) as [x|] eqn:Ef.
    + destruct (new_predicate s x) as [p|er] eqn:E.
      * transitivity (exists er, go_repeat s f (S i) k = inr er).
        { destruct (go_repeat s f (S i) k); split; intros (er & H); try done; by eexists. }
        rewrite IH. split; intros (j & Hj & H).
        -- exists j. split; [lia | done].
        -- exists j. split; [|done]. destruct (decide (j = i)) as [->|]; [|lia]. rewrite Ef in H. destruct H as [H|(e & er & H & H')]; [done|]. congruence.
      * split; [|by eexists]. intros _. exists i. split; [lia|]. right. by exists x, er.
    + split; [|by eexists]. intros _. exists i. split; [lia|]. by left.
Qed.

Definition go_done := fix go (l : list Pred) : list Pred * option SPan :=
  match l with
  | [] => ([], None)
  | p :: l =>
    match p_done p with
    | (p, Some v) => (p :: l, Some v)
    | (p, None) => let '(l, r) := go l in (p :: l, r)
    end
  end.
Lemma p_done_comp c l : p_done (PdComp c l) = let '(l, r) := go_done l in (PdComp c l, r).
Proof. done. Qed.
Lemma p_done_repeat d l : p_done (PdRepeat d l) = let '(l, r) := go_done l in (PdRepeat d l, r).
Proof. done. Qed.
Lemma go_done_none l l' : go_done l = (l', None) -> Forall2 (fun p p' => p_done p = (p', None)) l l'.
Proof.
  revert l'. induction l as [|p l IH]; intros l' H; cbn in H; [inversion H; constructor|].
  destruct (p_done p) as [p' [v|]] eqn:E; [done|]. destruct (go_done l) as [l1 r1]. inversion H; subst. constructor; [done | by apply IH].
Qed.

(** ** The loop of repeatPredicate.Report *)
Lemma repeat_loop_later i l count shown rep : 0 < count ->
  repeat_loop i l count shown rep = (count + (length l - count_true l.*1), shown, rep).
Proof.
  revert i count. induction l as [|[b sr] l IH]; intros i count Hc; cbn; [f_equal; f_equal; lia|].
  assert (L := count_true_le l.*1). rewrite fmap_length in L. unfold count_true in *. destruct b; cbn.
  - by rewrite IH by done.
  - destruct count; [lia|]. cbn. rewrite IH by lia. f_equal; f_equal. lia.
Qed.
Lemma repeat_loop_first i l rep shown :
  match list_find (fun x : bool * Report => x.1 = false) l with
  | None => repeat_loop i l 0 shown rep = (0, shown, rep)
  | Some (j, x) => repeat_loop i l 0 shown rep = (length l - count_true l.*1, i + j, append_report x.2 rep)
  end.
Proof.
  revert i. induction l as [|[b sr] l IH]; intros i; cbn; [done|]. specialize (IH (S i)).
  destruct b; cbn.
  - destruct (list_find _ l) as [[j x]|]; cbn in *; [|done]. rewrite IH. f_equal; f_equal. f_equal; lia.
  - rewrite repeat_loop_later by lia. f_equal; f_equal; [|lia]. unfold count_true. cbn.
    assert (L := count_true_le l.*1). rewrite fmap_length in L. unfold count_true in L. lia.
Qed.

(** ** The main result *)
Definition good s fs (e : Exp) (p : Pred) : Prop :=
  (p_ok p = true <-> met s fs e) /\
  forall T cx, describes s fs (cx_tree cx) (cx_inv cx) e (report T cx p).

Lemma bare_new tree ok c o : bare (new_report tree ok c o).
Proof. done. Qed.

Lemma good_children s fs es ps ps' :
  Forall (fun e => forall p0, new_predicate s e = inl p0 -> forall p, p_done (feed fs p0) = (p, None) -> good s fs e p) es ->
  Forall2 (fun e p => new_predicate s e = inl p) es ps ->
  Forall2 (fun p p' => p_done p = (p', None)) (map (feed fs) ps) ps' ->
  Forall2 (good s fs) es ps'.
Proof.
  intros H F. revert ps'. induction F as [|e p es ps He F IH]; intros ps' G; cbn in G; inversion G; subst; [constructor|].
  inversion H; subst. constructor; [eauto|]. by apply IH.
Qed.

Lemma append_reports_shape l r :
  let r' := foldl (fun r sr => append_report sr r) r l in
  rp_ok r' = rp_ok r /\ rp_sub r' = rp_sub r ++ l /\ rp_expl r' = rp_expl r /\ rp_sections r' = rp_sections r.
Proof.
  cbn. revert r. induction l as [|a l IH]; intros r; cbn; [by rewrite app_nil_r|].
  destruct (IH (append_report a r)) as (-> & -> & -> & ->). cbn. by rewrite <- app_assoc.
Qed.

Lemma comp_verdict s fs c es ps :
  Forall2 (good s fs) es ps -> ((comp_pred c (length ps) (count_true (map p_ok ps))).2 = true <-> met s fs (XComp c es)).
Proof.
  intros G.
  assert (Hall : Forall id (map (met s fs) es) <-> Forall (fun b => b = true) (map p_ok ps)).
  { induction G as [|e p es ps [Hp _] G IH]; cbn; [split; constructor|]. rewrite !Forall_cons, IH. cbn. by rewrite Hp. }
  assert (Hex : Exists id (map (met s fs) es) <-> Exists (fun b => b = true) (map p_ok ps)).
  { clear Hall. induction G as [|e p es ps [Hp _] G IH]; cbn; [split; intros Hx; inversion Hx|]. rewrite !Exists_cons, IH. cbn. by rewrite Hp. }
  destruct c; cbn [met comp_pred].
  - rewrite Hall, <- count_true_all, map_length. destruct (Nat.eqb_spec (count_true (map p_ok ps)) (length ps)); cbn; [tauto|].
    split; intros; [done | lia].
  - rewrite Hex, <- count_true_some. destruct (Nat.ltb_spec 0 (count_true (map p_ok ps))); cbn; [tauto|]. split; [done | lia].
  - rewrite Hex, <- count_true_some. destruct (Nat.eqb_spec (count_true (map p_ok ps)) 0) as [->|]; cbn; [split; [lia | done]|].
    destruct (length ps =? 1); cbn; (split; [done | lia]).
Qed.

Lemma good_ok_false s fs e p : good s fs e p -> (p_ok p = false <-> ~ met s fs e).
Proof. intros [H _]. rewrite <- H. by destruct (p_ok p). Qed.

Lemma count_failed (l : list bool) i : exists failed, NoDup failed /\ length failed = length l - count_true l /\
  forall j, j ∈ failed <-> i <= j /\ l !! (j - i) = Some false.
Proof.
  revert i. induction l as [|b l IH]; intros i.
  - exists []. split_and!; [constructor | done |]. intros j. split; [intros H; by apply elem_of_nil in H | by intros [_ H]].
  - destruct (IH (S i)) as (failed & Hnd & Hlen & Hin). assert (L := count_true_le l). unfold count_true in *. destruct b; cbn.
    + exists failed. split_and!; [done | lia |]. intros j. rewrite Hin. split; intros [Hj Hl].
      * split; [lia|]. destruct (j - i) as [|d] eqn:E; [lia|]. cbn. by replace (j - S i) with d in Hl by lia.
      * destruct (j - i) as [|d] eqn:E; [done|]. cbn in Hl. split; [lia|]. by replace (j - S i) with d by lia.
    + exists (i :: failed). split_and!.
      * constructor; [|done]. rewrite Hin. intros [? _]. lia.
      * cbn. lia.
      * intros j. rewrite elem_of_cons, Hin. split.
        -- intros [->|[Hj Hl]]; [by rewrite Nat.sub_diag|]. split; [lia|]. destruct (j - i) as [|d] eqn:E; [lia|]. cbn. by replace (j - S i) with d in Hl by lia.
        -- intros [Hj Hl]. destruct (decide (j = i)) as [->|]; [by left|]. right. split; [lia|].
           destruct (j - i) as [|d] eqn:E; [lia|]. cbn in Hl. by replace (j - S i) with d by lia.
Qed.

Lemma verdict_lemma s fs e :
  forall p0, new_predicate s e = inl p0 -> forall p, p_done (feed fs p0) = (p, None) -> good s fs e p.
Proof.
  induction e as [m|ty|tp pred near ex|c l IH|e IH|desc n f IH|desc fn|u] using Exp_ind'; intros p0 H0 p Hd.
  - (* message *)
    cbn in H0. destruct (guard_type s (m_type m)); [done|]. inversion H0; subst p0.
    destruct (feed_message s m fs) as (ok & best & t & Hf & Hok & Hno). rewrite Hf in Hd. cbn in Hd. inversion Hd; subst p.
    split; [exact Hok|]. intros T cx. cbn [report]. unfold message_report.
    set (r0 := new_report _ _ _ _). assert (Hr0 : rp_ok r0 = ok /\ rp_sub r0 = [] /\ bare r0) by done. clearbody r0.
    destruct Hr0 as (R1 & R2 & R3).
    destruct (ok || cx_tree cx || cx_inv cx) eqn:E.
    + apply de_leaf; [constructor | by rewrite R1 | done | done|]. rewrite R1. intros -> E1 E2. by rewrite E1, E2 in E.
    + apply orb_false_iff in E. destruct E as [E E3]. apply orb_false_iff in E. destruct E as [E1 E2].
      destruct (Hno E1) as [-> ->]. clear Hno.
      destruct (last (filter _ _)) as [en|] eqn:El.
      * apply de_leaf.
        -- constructor.
        -- cbn. by rewrite R1.
        -- done.
        -- cbn. rewrite R1, E1, E2, E3. by intros [?|[?|?]].
        -- intros _ _ _. cbn. destruct (e_origin en); by apply inflect_nonempty.
      * destruct (rnm_spec s (m_kind m) fs r0) as [(S1 & S2 & _) S3]. apply de_leaf.
        -- constructor.
        -- by rewrite S1, R1.
        -- by rewrite S2.
        -- rewrite S1, R1, E1, E2, E3. by intros [?|[?|?]].
        -- intros _ _ _. by eapply explains_nonempty.
  - (* type *)
    cbn in H0. destruct (guard_type s ty); [done|]. inversion H0; subst p0.
    destruct (feed_type s ty fs) as (ok & t & Hf & Hok & Hno). rewrite Hf in Hd. cbn in Hd. inversion Hd; subst p.
    split; [exact Hok|]. intros T cx. cbn [report]. unfold type_report.
    set (r0 := new_report _ _ _ _). assert (Hr0 : rp_ok r0 = ok /\ rp_sub r0 = [] /\ bare r0) by done. clearbody r0.
    destruct Hr0 as (R1 & R2 & R3).
    destruct (ok || cx_tree cx || cx_inv cx) eqn:E.
    + apply de_leaf; [constructor | by rewrite R1 | done | done|]. rewrite R1. intros -> E1 E2. by rewrite E1, E2 in E.
    + apply orb_false_iff in E. destruct E as [E E3]. apply orb_false_iff in E. destruct E as [E1 E2].
      rewrite (Hno E1). destruct (rnm_spec s ty.1 fs r0) as [(S1 & S2 & _) S3]. apply de_leaf.
      * constructor.
      * by rewrite S1, R1.
      * by rewrite S2.
      * rewrite S1, R1, E1, E2, E3. by intros [?|[?|?]].
      * intros _ _ _. by eapply explains_nonempty.
  - (* match *)
    cbn [new_predicate] in H0.
    assert (p0 = PdMatch tp pred near ex [] [] 0 0 false (t_init (tp_kind tp) s)) as ->.
    { destruct tp as [t|]; [destruct (guard_type s t)|]; by inversion H0. }
    destruct (feed_match s tp pred near ex fs) as (calls & fl & ma & ig & ok & t & Hf & Hex & Hok & Hno).
    rewrite Hf in Hd. cbn in Hd. inversion Hd; subst p. set (ok' := ok || (ex && negb (nonempty fl))).
    assert (Hmet : ok' = true <-> met s fs (XMatch tp pred near ex)).
    { subst ok'. destruct ex.
      - rewrite (Hex eq_refl) in *. cbn. destruct (Hno eq_refl) as (_ & _ & Hg & _). apply grouped_nil in Hg.
        transitivity (fl = []); [by destruct fl|]. rewrite Hg. unfold failed_results.
        generalize (all_results s tp pred true fs) as rs. intros rs. induction rs as [|[m r] rs IH]; cbn.
        + split; [|done]. intros _ m' er Hin. by apply elem_of_nil in Hin.
        + destruct r; cbn.
          * rewrite IH. split; intros Hx m' er; [rewrite elem_of_cons; intros [?|?]; [done | by eapply Hx] | intros Hin; apply (Hx m' er); by right].
          * rewrite IH. split; intros Hx m' er; [rewrite elem_of_cons; intros [?|?]; [done | by eapply Hx] | intros Hin; apply (Hx m' er); by right].
          * split; [done|]. intros Hx. exfalso. apply (Hx m s0). by left.
      - cbn. rewrite orb_false_r. by apply Hok. }
    split; [exact Hmet|]. intros T cx. cbn [report]. unfold match_report. fold ok'.
    set (r0 := new_report _ _ _ _). assert (Hr0 : rp_ok r0 = ok' /\ rp_sub r0 = [] /\ bare r0) by done. clearbody r0.
    destruct Hr0 as (R1 & R2 & R3).
    destruct (ok' || cx_tree cx || cx_inv cx) eqn:E.
    + apply de_leaf; [constructor | by rewrite R1 | done | done|]. rewrite R1. intros Ek E1 E2. by rewrite Ek, E1, E2 in E.
    + apply orb_false_iff in E. destruct E as [E E3]. apply orb_false_iff in E. destruct E as [E1 E2].
      assert (ok = false) as Ok by (subst ok'; apply orb_false_iff in E1; apply E1).
      destruct (Hno Ok) as (-> & _).
      match goal with |- context [foldl ?g r0 fl] => destruct (foldl_section g fl r0) as [J1 _]; [done|]; revert J1; generalize (foldl g r0 fl) end.
      intros r1 J1.
      match goal with |- context [report_no_match _ ?x] => set (r2 := x) end.
      assert (J2 : same_shape r1 r2).
      { subst r2. destruct (0 <? ig); destruct (nonempty fl); done. }
      assert (J := ss_trans _ _ _ J1 J2). clearbody r2.
      destruct (rnm_spec s (tp_kind tp) fs r2) as [J3 S3]. assert (J4 := ss_trans _ _ _ J J3).
      set (r3 := report_no_match _ r2) in *. clearbody r3. destruct J4 as (S1 & S2 & _).
      clearbody ok'. destruct ex; apply de_leaf; cbn [rp_ok set_expl rp_sub rp_expl].
      * constructor.
      * by rewrite S1, R1.
      * by rewrite S2.
      * rewrite S1, R1, E1, E2, E3. intros [?|[?|?]]; done.
      * intros _ _ _. apply inflect_nonempty. by destruct (ma =? 0).
      * constructor.
      * by rewrite S1, R1.
      * by rewrite S2.
      * rewrite S1, R1, E1, E2, E3. intros [?|[?|?]]; done.
      * intros _ _ _. by eapply explains_nonempty.
  - (* composite *)
    rewrite new_predicate_comp in H0. destruct (go_comp s l) as [ps|] eqn:Eg; [|done]. inversion H0; subst p0.
    rewrite feed_comp, p_done_comp in Hd. destruct (go_done (map (feed fs) ps)) as [ps' r] eqn:Ed. inversion Hd; subst p r.
    assert (G : Forall2 (good s fs) l ps').
    { eapply good_children; [exact IH | by apply go_comp_inl | by apply go_done_none]. }
    split; [exact (comp_verdict s fs c l ps' G)|]. intros T cx. cbn [report].
    assert (V := comp_verdict s fs c l ps' G). destruct (comp_pred c (length ps') (count_true (map p_ok ps'))) as [out ok]. cbn in V.
    set (cx' := if comp_inverts c then _ else cx).
    match goal with |- describes _ _ _ _ _ (foldl ?g ?r ?k) => destruct (append_reports_shape k r) as (S1 & S2 & S3 & S4); set (rr := foldl g r k) in * end.
    apply de_comp.
    + rewrite S1. exact V.
    + split; [by rewrite S3 | by rewrite S4].
    + rewrite S2. cbn [rp_sub new_report app]. clear -G.
      assert (Htree : cx_tree cx' = cx_tree cx) by (subst cx'; by destruct c).
      assert (Hinv : cx_inv cx' = match c with CNone => negb (cx_inv cx) | _ => cx_inv cx end) by (subst cx'; by destruct c).
      induction G as [|e p es ps Hg G IH]; cbn; [constructor|]. constructor; [|done].
      rewrite <- Htree, <- Hinv. apply Hg.
  - (* not *)
    cbn in H0. destruct (new_predicate s e) as [q|] eqn:Eq; [|done]. inversion H0; subst p0. rewrite feed_not in Hd. cbn in Hd.
    destruct (p_done (feed fs q)) as [q' r] eqn:Ed. inversion Hd; subst p r. specialize (IH q eq_refl q' Ed).
    assert (V := good_ok_false _ _ _ _ IH). destruct IH as [V' R]. split.
    + cbn. rewrite negb_true_iff. exact V.
    + intros T cx. cbn [report]. eapply de_not; [cbn; by rewrite negb_true_iff | done | done | apply (R T (mkCtx (cx_tree cx) (negb (cx_inv cx)))) | done].
  - (* repeat *)
    rewrite new_predicate_repeat in H0. destruct (go_repeat s f 0 n) as [ps|] eqn:Eg; [|done]. inversion H0; subst p0.
    rewrite feed_repeat, p_done_repeat in Hd. destruct (go_done (map (feed fs) ps)) as [ps' r] eqn:Ed. inversion Hd; subst p r.
    destruct (go_repeat_inl _ _ _ _ _ Eg) as (es & F1 & F2).
    assert (G : Forall2 (good s fs) es ps').
    { eapply good_children; [| exact F2 | by apply go_done_none]. clear -IH F1.
      induction F1 as [|j e js es Hj F IHF]; constructor; [|done]. by apply (IH j). }
    assert (Hlook : forall i e, es !! i = Some e -> f i = Some e /\ i < n).
    { intros i e He. destruct (Forall2_lookup_r _ _ _ _ _ F1 He) as (j & Hj & Hf). apply lookup_seq in Hj. destruct Hj as [-> ?]. by split. }
    assert (Hlen : length es = n) by (apply Forall2_length in F1; by rewrite seq_length in F1).
    assert (Hlook' : forall i, i < n -> exists e p, es !! i = Some e /\ f i = Some e /\ ps' !! i = Some p /\ good s fs e p).
    { intros i Hi. rewrite <- Hlen in Hi. destruct (lookup_lt_is_Some_2 es i Hi) as [e He]. destruct (Forall2_lookup_l _ _ _ _ _ G He) as (p & Hp & Hg).
      exists e, p. split_and!; try done. by apply Hlook. }
    assert (Hlen' : length ps' = n) by (apply Forall2_length in G; lia).
    assert (V : p_ok (PdRepeat desc ps') = true <-> met s fs (XRepeat desc n f)).
    { cbn. rewrite forallb_forall. split.
      - intros H i Hi. destruct (Hlook' i Hi) as (e & p & He & Hf & Hp & Hg). rewrite Hf. apply Hg. apply H.
        apply in_map. apply elem_of_list_In. by eapply elem_of_list_lookup_2.
      - intros H b Hb. apply in_map_iff in Hb. destruct Hb as (p & <- & Hp). apply elem_of_list_In, elem_of_list_lookup_1 in Hp.
        destruct Hp as (i & Hi). assert (i < n) as Hlt by (rewrite <- Hlen'; by eapply lookup_lt_Some).
        destruct (Hlook' i Hlt) as (e & p' & He & Hf & Hp' & Hg). rewrite Hi in Hp'. inversion Hp'; subst p'.
        specialize (H i Hlt). rewrite Hf in H. by apply Hg. }
    split; [exact V|]. intros T cx. cbn [report].
    set (l := map (fun c => (p_ok c, report T cx c)) ps').
    assert (Hl1 : l.*1 = map p_ok ps').
    { subst l. change (fst <$> map (fun c => (p_ok c, report T cx c)) ps') with (map fst (map (fun c => (p_ok c, report T cx c)) ps')). by rewrite map_map. }
    assert (Hloop := repeat_loop_first 0 l (new_report (cx_tree cx) true desc []) 0).
    destruct (list_find (fun x : bool * Report => x.1 = false) l) as [[j x]|] eqn:Efi.
    + rewrite Hloop. apply list_find_Some in Efi. destruct Efi as (Hx & Hxf & Hmin).
      assert (Hj : exists p, ps' !! j = Some p /\ x = (p_ok p, report T cx p)).
      { subst l. change (map ?g ps') with (g <$> ps') in Hx. rewrite list_lookup_fmap in Hx. destruct (ps' !! j) as [p|] eqn:Ep; [|done]. exists p. split; [done|]. by inversion Hx. }
      destruct Hj as (p & Hp & ->). cbn in Hxf. assert (j < n) as Hjn by (rewrite <- Hlen'; by eapply lookup_lt_Some).
      destruct (Hlook' j Hjn) as (e & p' & He & Hf & Hp' & Hg). rewrite Hp in Hp'. inversion Hp'; subst p'.
      assert (Hcnt : length l - count_true l.*1 <> 0).
      { rewrite Hl1. assert (~ count_true (map p_ok ps') = length (map p_ok ps')).
        - rewrite count_true_all. intros Hall. rewrite Forall_forall in Hall. assert (p_ok p = true); [|congruence].
          apply Hall. apply elem_of_list_In, in_map, elem_of_list_In. by eapply elem_of_list_lookup_2.
        - assert (Lq := count_true_le (map p_ok ps')). subst l. rewrite map_length in *. lia. }
      destruct (Nat.eqb_spec (length l - count_true l.*1) 0) as [|_]; [done|].
      destruct (count_failed l.*1 0) as (failed & Hnd & Hfl & Hin).
      eapply (de_repeat_failed _ _ _ _ desc n f _ j e (report T cx p) failed); try done.
      * by apply (good_ok_false _ _ _ _ Hg).
      * intros k Hk. destruct (Hlook' k) as (ek & pk & Hek & Hfk & Hpk & Hgk); [lia|]. exists ek. split; [done|]. apply Hgk.
        destruct (p_ok pk) eqn:Epk; [done|]. exfalso. apply (Hmin k (p_ok pk, report T cx pk)); [|done|done].
        subst l. change (map ?g ps') with (g <$> ps'). rewrite list_lookup_fmap, Hpk. cbn. by rewrite Epk.
      * apply Hg.
      * intros k. rewrite Hin. rewrite Nat.sub_0_r, Hl1. split.
        -- intros [_ Hk]. change (map ?g ps') with (g <$> ps') in Hk. rewrite list_lookup_fmap in Hk. destruct (ps' !! k) as [pk|] eqn:Epk; [|done]. cbn in Hk.
           assert (k < n) as Hkn by (rewrite <- Hlen'; by eapply lookup_lt_Some). split; [done|].
           destruct (Hlook' k Hkn) as (ek & pk' & Hek & Hfk & Hpk & Hgk). rewrite Epk in Hpk. inversion Hpk; subst pk'. exists ek. split; [done|].
           apply (good_ok_false _ _ _ _ Hgk). congruence.
        -- intros [Hkn (ek & Hfk & Hnm)]. split; [lia|].
           destruct (Hlook' k Hkn) as (ek' & pk & Hek & Hfk' & Hpk & Hgk). rewrite Hfk in Hfk'. inversion Hfk'; subst ek'.
           change (map ?g ps') with (g <$> ps'). rewrite list_lookup_fmap, Hpk. cbn. f_equal. by apply (good_ok_false _ _ _ _ Hgk).
      * cbn [rp_outcome]. rewrite fmap_length in Hfl. rewrite Hfl. by rewrite Hlen'.
    + rewrite Hloop. cbn [Nat.eqb]. apply de_repeat_ok; try done. apply V. cbn. apply forallb_forall. intros b Hb. apply in_map_iff in Hb.
      destruct Hb as (p & <- & Hp). destruct (p_ok p) eqn:Epo; [done|]. exfalso. rewrite list_find_None in Efi. rewrite Forall_forall in Efi.
      apply (Efi (p_ok p, report T cx p)); [|done]. subst l. apply elem_of_list_In. by apply (in_map (fun c => (p_ok c, report T cx c))).
  - (* satisfy *)
    cbn in H0. inversion H0; subst p0. rewrite feed_satisfy in Hd. cbn in Hd.
    destruct (s_done (fn fs).1 (fn fs).2 s_init) as [[st evs] r] eqn:Es. inversion Hd; subst p r.
    destruct (done_lemma _ _ _ _ _ Es) as ((T1 & T2 & T3 & _) & _).
    assert (V : s_ok st = true <-> met s fs (XSatisfy desc fn)).
    { cbn. transitivity (called skipping evs \/ ~ called failing evs).
      - unfold s_ok. rewrite orb_true_iff, negb_true_iff, T2. split; (intros [?|Hx]; [by left | right]).
        + intros Hc. apply T1 in Hc. congruence.
        + destruct (ss_failed st); [|done]. by destruct Hx; apply T1.
      - split; [intros Hx; by exists st, evs, None|]. intros (st' & evs' & r' & E & Hx). rewrite Es in E. by inversion E; subst. }
    split; [exact V|]. intros T cx. cbn [report]. unfold satisfy_report.
    set (r0 := new_report _ _ _ _). assert (Hr0 : rp_ok r0 = s_ok st /\ rp_sub r0 = [] /\ bare r0) by done. clearbody r0.
    destruct Hr0 as (R1 & R2 & R3).
    destruct (negb (s_ok st) && cx_inv cx) eqn:E.
    + apply andb_true_iff in E. destruct E as [E1 E2]. apply negb_true_iff in E1.
      apply de_satisfy; [by rewrite R1 | done | done| |]; [intros _ E3; congruence|]. intros [E3|E3]; congruence.
    + match goal with |- context [foldl ?g ?r1 ?l] => destruct (foldl_section g l r1) as [(S1 & S2 & _) J2]; [done|]; revert S1 S2 J2; generalize (foldl g r1 l) end.
      intros r1 S1 S2 J2. cbn in S1, S2, J2. apply de_satisfy.
      * by rewrite S1, R1.
      * by rewrite S2.
      * rewrite S1, R1. intros E1 E2. by rewrite E1, E2 in E.
      * rewrite S1, R1, J2. intros E1 _. unfold s_ok in E1. apply orb_false_iff in E1. destruct E1 as [_ E1]. apply negb_false_iff in E1.
        destruct (ss_explanation st) as [|c0 t0]; [|done]. exfalso. apply T3. apply T1 in E1.
        destruct E1 as (m & s1 & a1 & Hin & Hf). exists m, s1, a1. split; [done | by left].
      * intros _ st' evs' e' Es'. rewrite Es in Es'. inversion Es'; subst. exact J2.
  - (* user *)
    cbn in H0. destruct (ux_reject u s); [done|]. inversion H0; subst p0. rewrite feed_user in Hd. cbn in Hd. inversion Hd; subst p.
    split; [done|]. intros T cx. cbn [report]. destruct cx as [t i]. apply de_user.
Qed.

(** Rejection. *)
Lemma guard_type_iff s t : guard_type s t <> None <-> impossible_type s t.
Proof.
  unfold guard_type, impossible_type. destruct (sc_types s t) as [[|]|]; destruct (sc_match s); cbn; split; intros H; try done; try tauto.
  - by destruct H as [?|[? ?]].
  - by destruct H as [?|[? ?]].
  - by destruct H as [?|[? ?]].
Qed.
Lemma reject_lemma s e : (exists er, new_predicate s e = inr er) <-> impossible s e.
Proof.
  induction e as [m|ty|tp pred near ex|c l IH|e IH|desc n f IH|desc fn|u] using Exp_ind'.
  - cbn. assert (G := guard_type_iff s (m_type m)). destruct (guard_type s (m_type m)).
    + split; [|by eexists]. intros _. constructor. by apply G.
    + split; [by intros (er & H)|]. intros H. inversion H; subst. by apply G in H1.
  - cbn. assert (G := guard_type_iff s ty). destruct (guard_type s ty).
    + split; [|by eexists]. intros _. constructor. by apply G.
    + split; [by intros (er & H)|]. intros H. inversion H; subst. by apply G in H1.
  - cbn. destruct tp as [t|k nm impl].
    + assert (G := guard_type_iff s t). destruct (guard_type s t).
      * split; [|by eexists]. intros _. constructor. by apply G.
      * split; [by intros (er & H)|]. intros H. inversion H; subst. by apply G in H1.
    + split; [by intros (er & H)|]. intros H. inversion H.
  - rewrite new_predicate_comp.
    transitivity (exists er, go_comp s l = inr er).
    { destruct (go_comp s l); split; intros (er & H); try done; by eexists. }
    rewrite go_comp_inr. rewrite Forall_forall in IH. split.
    + intros (e & Hin & Her). apply IH in Her; [|done]. by eapply im_comp.
    + intros H. inversion H; subst. exists e. split; [done|]. by apply IH.
  - cbn. transitivity (exists er, new_predicate s e = inr er).
    { destruct (new_predicate s e); split; intros (er & H); try done; by eexists. }
    rewrite IH. split; [by constructor|]. intros H. by inversion H.
  - rewrite new_predicate_repeat.
    transitivity (exists er, go_repeat s f 0 n = inr er).
    { destruct (go_repeat s f 0 n); split; intros (er & H); try done; by eexists. }
    rewrite go_repeat_inr. split.
    + intros (j & Hj & [Hn|(e & er & Hf & He)]); [eapply im_nil; [|done]; lia|]. eapply im_repeat; [|done|]; [lia|]. eapply IH; [done|]. by eexists.
    + intros H. inversion H; subst.
      * exists i. split; [lia|]. by left.
      * exists i. split; [lia|]. right. eapply IH in H5; [|done]. destruct H5 as (er & H5). by exists e, er.
  - cbn. split; [by intros (er & H)|]. intros H. inversion H.
  - cbn. destruct (ux_reject u s) eqn:E.
    + split; [|by eexists]. intros _. constructor. congruence.
    + split; [by intros (er & H)|]. intros H. by inversion H; subst.
Qed.
Lemma because_lemma s e : forall er, new_predicate s e = inr er -> because s e er.
Proof.
  assert (G : forall t e er, concerns e t -> guard_type s t = Some er -> because s e er).
  { clear e. intros t e er Hc. unfold guard_type. destruct (sc_types s t) as [[|]|] eqn:Et; [by destruct (sc_match s)| |intros [= <-]; by constructor].
    destruct (sc_match s) eqn:Em; [done|]. intros [= <-]. by apply bc_consumed. }
  induction e as [m|ty|tp pred near ex|c l IH|e IH|desc n f IH|desc fn|u] using Exp_ind'; intros er.
  - cbn. destruct (guard_type s (m_type m)) eqn:Eg; [|done]. intros [= <-]. by eapply G.
  - cbn. destruct (guard_type s ty) eqn:Eg; [|done]. intros [= <-]. by eapply G.
  - cbn. destruct tp as [t|k nm impl]; [|done]. destruct (guard_type s t) eqn:Eg; [|done]. intros [= <-]. by eapply G.
  - rewrite new_predicate_comp. destruct (go_comp s l) as [|er'] eqn:Eg; [done|]. intros [= ->].
    assert (H : exists l1 e l2, l = l1 ++ e :: l2 /\ Forall (fun x => ~ impossible s x) l1 /\ because s e er).
    { revert Eg. induction IH as [|x l Hx Hl IHl]; [done|]. cbn. destruct (new_predicate s x) as [p|er''] eqn:Ex.
      - destruct (go_comp s l) as [|er''] eqn:Eg; [done|]. intros [= ->]. destruct (IHl eq_refl) as (l1 & e & l2 & -> & Hl1 & Hb).
        exists (x :: l1), e, l2. split; [done|]. split; [|done]. constructor; [|done]. intros Hi. apply reject_lemma in Hi as [er' Hi]. congruence.
      - intros [= ->]. exists [], x, l. split; [done|]. split; [done|]. by apply Hx. }
    destruct H as (l1 & e & l2 & -> & Hl1 & Hb). by constructor.
  - cbn. destruct (new_predicate s e) as [|er'] eqn:Ee; [done|]. intros [= ->]. constructor. by apply IH.
  - rewrite new_predicate_repeat. destruct (go_repeat s f 0 n) as [|er'] eqn:Eg; [done|]. intros [= ->].
    assert (H : forall k i, go_repeat s f i k = inr er -> (forall j, j < i -> exists x, f j = Some x /\ ~ impossible s x) ->
      exists i', i' < i + k /\ (forall j, j < i' -> exists x, f j = Some x /\ ~ impossible s x) /\
        ((f i' = None /\ er = PENil i') \/ exists e er', f i' = Some e /\ because s e er' /\ er = PEIter i' er')).
    { clear Eg. induction k as [|k IHk]; intros i; cbn; [done|]. destruct (f i) as [x|] eqn:Ef.
      - destruct (new_predicate s x) as [p|er'] eqn:Ex.
        + destruct (go_repeat s f (S i) k) as [|er'] eqn:Eg; [done|]. intros [= ->] Hj. destruct (IHk (S i) Eg) as (i' & Hi' & H).
          * intros j Hji. destruct (decide (j = i)) as [->|]; [|apply Hj; lia]. exists x. split; [done|]. intros Hi. apply reject_lemma in Hi as [er' Hi]. congruence.
          * exists i'. split; [lia|done].
        + intros [= <-] Hj. exists i. split; [lia|]. split; [done|]. right. exists x, er'. split; [done|]. split; [|done]. by eapply IH.
      - intros [= <-] Hj. exists i. split; [lia|]. split; [done|]. by left. }
    destruct (H n 0 Eg) as (i & Hi & Hj & [[Hf ->]|(e & er' & Hf & He & ->)]); [lia|by apply bc_nil|]. by eapply bc_repeat.
  - done.
  - cbn. destruct (ux_reject u s) as [m|] eqn:Eu; [|done]. intros [= <-]. by constructor.
Qed.
Lemma because_iff s e er : new_predicate s e = inr er <-> because s e er.
Proof.
  split; [apply because_lemma|]. assert (Hok : forall x, ~ impossible s x -> exists p, new_predicate s x = inl p).
  { intros x Hx. destruct (new_predicate s x) as [p|er'] eqn:E; [by exists p|]. destruct Hx. apply reject_lemma. by exists er'. }
  induction 1 as [e t Hc Ht|e t Hc Ht Hm|c l1 e l2 er Hl Hb IH|e er Hb IH|desc n f i Hi Hj Hf|desc n f i e er Hi Hj Hf Hb IH|u m Hu].
  - destruct e as [| |[] | | | | |]; try done; cbn in *; subst; unfold guard_type; by rewrite Ht.
  - destruct e as [| |[] | | | | |]; try done; cbn in *; subst; unfold guard_type; by rewrite Ht, Hm.
  - rewrite new_predicate_comp. assert (Hg : go_comp s (l1 ++ e :: l2) = inr er); [|by rewrite Hg].
    induction Hl as [|x l1 Hx Hl IHl]; cbn; [by rewrite IH|]. destruct (Hok _ Hx) as [p ->]. by rewrite IHl.
  - cbn. by rewrite IH.
  - rewrite new_predicate_repeat. assert (Hg : forall d k, k <= i -> k + d = n -> go_repeat s f k d = inr (PENil i)); [|by rewrite (Hg n 0) by lia].
    induction d as [|d IHd]; intros k Hk Hd; [lia|]. cbn. destruct (decide (k = i)) as [->|Hn]; [by rewrite Hf|].
    destruct (Hj k) as (x & -> & Hx); [lia|]. destruct (Hok _ Hx) as [p ->]. by rewrite IHd by lia.
  - rewrite new_predicate_repeat. assert (Hg : forall d k, k <= i -> k + d = n -> go_repeat s f k d = inr (PEIter i er)); [|by rewrite (Hg n 0) by lia].
    induction d as [|d IHd]; intros k Hk Hd; [lia|]. cbn. destruct (decide (k = i)) as [->|Hn]; [by rewrite Hf, IH|].
    destruct (Hj k) as (x & -> & Hx); [lia|]. destruct (Hok _ Hx) as [p ->]. by rewrite IHd by lia.
  - cbn. by rewrite Hu.
Qed.
End Proof.
