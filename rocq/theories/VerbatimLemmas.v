(** * Inflection of a text with a part that it does not touch. *)
From Verif Require Export VerbatimSpec.
From Verif Require Import InflectLemmas.
From Coq Require Import Lia.

(** No suffix of [pre] is the beginning of [k]. *)
Definition sealed (pre k : text) : bool := forallb (fun y => negb (starts_with y k)) (suffixes pre).
(** No end of [k], apart from [k] itself, is the beginning of [post]. *)
Definition uncrossed (post k : text) : bool := forallb (fun z => negb (starts_with z post)) (suffixes (tail k)).

Lemma matches_sealed b prev k y s : y <> [] -> sealed y k = true -> matches b prev k (y ++ s) = matches b prev k y.
Proof.
  intros Hy Hs. destruct y as [|c y]; [done|].
  assert (Hl : forall y k, (starts_with y k = false) -> starts_with k (y ++ s) = starts_with k y /\ (starts_with k y = true -> length k < length y)).
  { clear. induction y as [|a y IH]; intros k Hk; [done|]. destruct k as [|x k]; cbn; [split; [done|lia]|].
    cbn in Hk. destruct (bool_decide (x = a)) eqn:E; cbn; [|done]. apply bool_decide_eq_true in E as ->.
    rewrite bool_decide_eq_true_2 in Hk by done. cbn in Hk. destruct (IH k Hk) as [H1 H2]. split; [exact H1|]. intros H. apply H2 in H. lia. }
  assert (Hk : starts_with (c :: y) k = false).
  { unfold sealed in Hs. cbn [suffixes forallb] in Hs. apply andb_true_iff in Hs as [Hs _]. by apply negb_true_iff in Hs. }
  destruct (Hl (c :: y) k Hk) as [H1 H2]. unfold matches. rewrite H1. destruct (starts_with k (c :: y)) eqn:E; [|done]. cbn [andb].
  specialize (H2 eq_refl).
  assert (Hh : head (drop (length k) ((c :: y) ++ s)) = head (drop (length k) (c :: y))).
  { rewrite drop_app_le by (cbn in *; lia). destruct (drop (length k) (c :: y)) as [|d r] eqn:Ed; [|done].
    apply (f_equal length) in Ed. rewrite drop_length in Ed. cbn in *. lia. }
  by rewrite Hh.
Qed.

Lemma sealed_drop n pre k : sealed pre k = true -> sealed (drop n pre) k = true.
Proof.
  revert pre. induction n as [|n IH]; intros pre H; [done|]. destruct pre as [|c pre]; [done|]. cbn. apply IH.
  unfold sealed in *. cbn in H. apply andb_true_iff in H. tauto.
Qed.
Lemma find_sealed b T prev y s : y <> [] -> (forall kv, kv ∈ T -> sealed y kv.1 = true) -> find_match b T prev (y ++ s) = find_match b T prev y.
Proof.
  intros Hy HT. induction T as [|kv T IH]; [done|]. cbn [find_match]. rewrite matches_sealed by (try done; apply HT; by left).
  destruct (matches b prev kv.1 y); [done|]. apply IH. intros x Hx. apply HT. by right.
Qed.

(** Matches do not reach the end of [pre]. *)
Lemma sim_sealed b T pre : forall prev s, (forall kv, kv ∈ T -> kv.1 <> []) -> (forall kv, kv ∈ T -> sealed pre kv.1 = true) ->
  sim b T prev (pre ++ s) = sim b T prev pre ++ sim b T (last_or prev pre) s.
Proof.
  induction pre as [pre IH] using (induction_ltof1 _ (@length ascii)). unfold ltof in IH. intros prev s HT Hs.
  destruct pre as [|c pre]; [done|].
  rewrite (sim_eq b T prev ((c :: pre) ++ s) HT), (sim_eq b T prev (c :: pre) HT). rewrite (find_sealed b T prev (c :: pre) s) by done.
  cbn [app]. destruct (find_match b T prev (c :: pre)) as [[k v]|] eqn:E.
  - apply find_match_some in E as [Hin Hm]. specialize (HT _ Hin) as Hk. cbn in Hk.
    unfold matches in Hm. apply andb_true_iff in Hm as [Hm _]. apply starts_with_spec in Hm as [r Hr]. cbn [fst] in Hr.
    assert (Hrn : r <> []).
    { intros ->. rewrite app_nil_r in Hr. specialize (Hs _ Hin). unfold sealed in Hs. cbn [suffixes forallb fst] in Hs. rewrite Hr in Hs.
      apply andb_true_iff in Hs as [Hs _]. apply negb_true_iff in Hs. rewrite <- (app_nil_r k) in Hs at 2. by rewrite starts_with_app in Hs. }
    rewrite app_comm_cons, Hr, <- app_assoc, !drop_app, <- app_assoc. f_equal.
    assert (Hlast : last_or prev (k ++ r) = last_or (last k) r) by (rewrite !last_or_ne; [|done|by destruct k]; by apply last_app_ne).
    rewrite Hlast. apply IH.
    + rewrite Hr, app_length. destruct k; [done|cbn; lia].
    + done.
    + intros kv Hkv. specialize (Hs _ Hkv). assert (Hd : r = drop (length k) (c :: pre)) by (by rewrite Hr, drop_app). rewrite Hd. by apply sealed_drop.
  - rewrite last_or_cons. cbn [app]. f_equal. apply IH; [cbn; lia|done|]. intros kv Hkv. apply (sealed_drop 1 (c :: pre)). by apply Hs.
Qed.

(** No match begins in [u]. *)
Lemma sim_over b T u : forall prev post, 
  (forall kv x y, kv ∈ T -> u = x ++ y -> y <> [] -> matches b (last_or prev x) kv.1 (y ++ post) = false) ->
  sim b T prev (u ++ post) = u ++ sim b T (last_or prev u) post.
Proof.
  induction u as [|c u IH]; intros prev post Hm; [done|]. cbn [app sim_from].
  destruct (find_match b T prev (c :: u ++ post)) as [kv|] eqn:E.
  - apply find_match_some in E as [Hin Hk]. assert (Hx := Hm kv [] (c :: u) Hin eq_refl ltac:(done)). change (last_or prev []) with prev in Hx. cbn [app] in Hx. congruence.
  - f_equal. rewrite IH.
    + by rewrite last_or_cons.
    + intros kv x y Hin -> Hy. rewrite <- (last_or_cons prev). by apply (Hm kv (c :: x)).
Qed.

Lemma absent_suffix b k : forall x prev y, absent b k prev (x ++ y) -> absent b k (last_or prev x) y.
Proof. induction x as [|c x IH]; intros prev y H; [done|]. destruct H as [_ H]. rewrite last_or_cons. by apply IH. Qed.

Lemma starts_split k : forall y post, starts_with k (y ++ post) = true -> starts_with k y = true \/ exists z, z <> [] /\ k = y ++ z /\ starts_with z post = true.
Proof.
  induction k as [|a k IH]; intros y post H; [by left|]. destruct y as [|c y]; [right; exists (a :: k); done|].
  cbn in H. apply andb_true_iff in H as [H1 H2]. apply bool_decide_eq_true in H1 as ->. apply IH in H2 as [H2|(z & Hz & -> & H2)].
  - left. cbn. by rewrite bool_decide_eq_true_2.
  - right. exists z. done.
Qed.
Lemma suffixes_tail k y z : y <> [] -> z <> [] -> k = y ++ z -> z ∈ suffixes (tail k).
Proof. intros Hy Hz ->. apply suffixes_spec. split; [done|]. destruct y as [|c y]; [done|]. by exists y. Qed.

(** Neither in [u] alone nor across its end. *)
Lemma over_user b k prev u post :
  k <> [] -> absent b k None u -> (b = true -> wordish prev = false /\ wordish (head post) = false) ->
  (forall x y z, u = x ++ y -> y <> [] -> k = y ++ z -> z <> [] -> starts_with z post = true -> b = true /\ boundary (last_or prev x) (head y) = false) ->
  forall x y, u = x ++ y -> y <> [] -> matches b (last_or prev x) k (y ++ post) = false.
Proof.
  intros Hk Ha Hb Hc x y -> Hy. apply absent_suffix in Ha. destruct y as [|c y]; [done|]. destruct Ha as [Hm _].
  apply not_true_is_false. intros H. unfold matches in H. apply andb_true_iff in H as [H1 H2]. apply starts_split in H1 as [H1|(z & Hz & Hkz & H1)].
  - unfold matches in Hm. rewrite H1 in Hm. cbn [andb] in Hm. destruct b; [|done]. cbn [negb orb] in *. destruct (Hb eq_refl) as [Hb1 Hb2].
    apply andb_true_iff in H2 as [H2 H3]. cbn [app head hd_error] in H2.
    assert (Hw : wordish (last_or None x) = wordish (last_or prev x)) by (unfold last_or; by destruct (last x)).
    unfold boundary in Hm, H2, H3. rewrite Hw in Hm. cbn [head hd_error] in Hm. rewrite H2 in Hm. cbn [andb] in Hm.
    assert (Hx : wordish (head (drop (length k) ((c :: y) ++ post))) = wordish (head (drop (length k) (c :: y)))).
    { apply starts_with_spec in H1 as [r Hr]. rewrite Hr, <- app_assoc, !drop_app. destruct r; [done|done]. }
    cbn [app] in H3. cbn [app] in Hx. rewrite Hx in H3. congruence.
  - destruct (Hc x (c :: y) z eq_refl Hy Hkz Hz H1) as [-> Hbd]. cbn [negb orb] in H2. apply andb_true_iff in H2 as [H2 _]. cbn [app head hd_error] in *. congruence.
Qed.

(** ** Inflection around a text *)

Definition clear_of (T : table) (pre post : text) : bool :=
  forallb (fun kv => sealed pre kv.1 && uncrossed post kv.1) T.

Lemma sim_around b T prev pre u post :
  (forall kv, kv ∈ T -> kv.1 <> []) -> clear_of T pre post = true -> (forall kv, kv ∈ T -> absent b kv.1 None u) ->
  (b = true -> wordish (last_or prev pre) = false /\ wordish (head post) = false) ->
  sim b T prev (pre ++ u ++ post) = sim b T prev pre ++ u ++ sim b T (last_or prev (pre ++ u)) post.
Proof.
  intros HT Hc Ha Hb. unfold clear_of in Hc. rewrite forallb_forall in Hc.
  rewrite sim_sealed; [|done|]. 2:{ intros kv Hkv. apply elem_of_list_In, Hc in Hkv. apply andb_true_iff in Hkv. tauto. }
  f_equal. rewrite sim_over.
  - f_equal. f_equal. unfold last_or. rewrite last_app. destruct (last u); done.
  - intros kv x y Hin Hu Hy. apply (over_user b kv.1 _ u); try done; [by apply HT|by apply Ha|].
    intros x' y' z -> Hy' Hk Hz Hst. exfalso. apply elem_of_list_In, Hc, andb_true_iff in Hin as [_ Hin].
    unfold uncrossed in Hin. rewrite forallb_forall in Hin. assert (Hz' := suffixes_tail _ _ _ Hy' Hz Hk). apply elem_of_list_In, Hin in Hz'. by rewrite Hst in Hz'.
Qed.

Lemma subs_keys k kv : kv ∈ both_cases (substitutions k) -> kv.1 <> [].
Proof. intros H. destruct kv as [p w]. by apply (subs_ne k p w). Qed.
Lemma cors_keys kv : kv ∈ both_cases corrections -> kv.1 <> [].
Proof. intros H. destruct kv as [p w]. by apply (cors_ne p w). Qed.

Lemma vocab_table k : vocabulary k = substitutions k.
Proof. by destruct k. Qed.
Lemma gram_table : grammar = corrections.
Proof. done. Qed.
Lemma untouched_absent k u : untouched k u ->
  (forall kv, kv ∈ both_cases (substitutions k) -> absent false kv.1 None u) /\
  (forall kv, kv ∈ both_cases corrections -> absent true kv.1 None u).
Proof.
  intros [H1 H2]. rewrite vocab_table in H1. rewrite gram_table in H2. split; intros [p w] Hin.
  - apply absent_contains; [by apply (subs_ne k p w)|by apply (H1 p w)].
  - apply absent_phrase; [by apply (cors_ne p w)|by apply (cors_words p w)|by apply (cors_words p w)|by apply (H2 p w)].
Qed.

(** What can be computed without knowing [u]. *)
Definition around (k : Kind) (pre post : text) (x : option ascii) : option (text * text) :=
  let S := both_cases (substitutions k) in let C := both_cases corrections in
  let pre' := sim false S None pre in let post' := sim false S x post in
  if clear_of S pre post && clear_of C pre' post' && negb (wordish (last pre')) && negb (wordish (head post'))
  then Some (sim true C None pre', sim true C x post') else None.

Lemma sprint_around k pre u post a b :
  untouched k u -> (forall x, around k pre post x = Some (a, b)) -> inflect k (pre ++ u ++ post) = a ++ u ++ b.
Proof.
  intros Hu Hx. unfold inflect. rewrite (sprint_sim k) by done. destruct (untouched_absent _ _ Hu) as [H1 H2].
  assert (Hx1 := Hx (last_or None (pre ++ u))). unfold around in Hx1.
  destruct (clear_of _ pre post) eqn:E1; [|done]. rewrite (sim_around false _ None pre u post (subs_keys k) E1 H1) by done.
  destruct (clear_of (both_cases corrections) _ _) eqn:E2; [|done]. cbn [andb] in Hx1.
  destruct (wordish (last (sim false (both_cases (substitutions k)) None pre))) eqn:E3; [done|]. cbn [negb andb] in Hx1.
  destruct (wordish (head (sim false (both_cases (substitutions k)) (last_or None (pre ++ u)) post))) eqn:E4; [done|].
  injection Hx1 as <- Hb1.
  rewrite (sim_around true _ None _ u _ cors_keys E2 H2); [|intros _; split; [|exact E4]; unfold last_or; by destruct (last (sim false _ None pre))].
  f_equal. f_equal. set (y := last_or None (_ ++ u)). assert (Hx2 := Hx y). unfold around in Hx2.
  (* the text after [u] does not depend on what comes before *)
  assert (Hsame : forall p p', sim false (both_cases (substitutions k)) p post = sim false (both_cases (substitutions k)) p' post).
  { clear. intros p p'. assert (H : forall prev prev' s, find_match false (both_cases (substitutions k)) prev s = find_match false (both_cases (substitutions k)) prev' s).
    { intros prev prev' s. induction (both_cases (substitutions k)) as [|kv T IH]; [done|]. cbn -[matches]. rewrite IH. done. }
    destruct post as [|c post]; [done|]. cbn [sim_from]. by rewrite (H p p'). }
  rewrite (Hsame y (last_or None (pre ++ u))) in Hx2. rewrite E1, E2, E3, E4 in Hx2. cbn in Hx2. by injection Hx2.
Qed.

(** The caption of actions that dispatch messages, where the noun follows. *)
Lemma sprint_dispatch k u :
  untouched k u -> ~ last_word (wrong_article k) u ->
  inflect k (txt "<producing> " ++ u ++ txt " <message>") = txt (verb k +:+ "ing ") ++ u ++ txt (" " +:+ noun k).
Proof.
  intros Hu Hw. unfold inflect. rewrite (sprint_sim k) by done. destruct (untouched_absent _ _ Hu) as [H1 H2].
  assert (Hc : clear_of (both_cases (substitutions k)) (txt "<producing> ") (txt " <message>") = true) by (by destruct k).
  rewrite (sim_around false _ None _ u _ (subs_keys k) Hc H1) by done.
  assert (Hpre : sim false (both_cases (substitutions k)) None (txt "<producing> ") = txt (verb k +:+ "ing ")) by (by destruct k).
  assert (Hpost : forall p, sim false (both_cases (substitutions k)) p (txt " <message>") = txt (" " +:+ noun k)) by (by destruct k).
  rewrite Hpre, Hpost.
  rewrite sim_sealed; [|apply cors_keys|].
  2:{ assert (Hf : forallb (fun kv => sealed (txt (verb k +:+ "ing ")) kv.1) (both_cases corrections) = true) by (by destruct k).
      rewrite forallb_forall in Hf. intros kv Hkv. by apply Hf, elem_of_list_In. }
  assert (Hpre' : sim true (both_cases corrections) None (txt (verb k +:+ "ing ")) = txt (verb k +:+ "ing ")) by (by destruct k).
  rewrite Hpre'. f_equal. rewrite sim_over.
  - f_equal. by destruct k.
  - intros kv x y Hin Hx Hy. apply (over_user true kv.1 _ u); try done; [by apply cors_keys|by apply H2|by destruct k|].
    intros x' y' z -> Hy' Hk Hz Hst. split; [done|].
    assert (Hf : forallb (fun kv => forallb (fun z => negb (starts_with z (txt (" " +:+ noun k))) || bool_decide (kv.1 = txt (wrong_article k) ++ z)) (suffixes (tail kv.1))) (both_cases corrections) = true) by (by destruct k).
    rewrite forallb_forall in Hf. apply elem_of_list_In, Hf in Hin. rewrite forallb_forall in Hin.
    assert (Hz' := suffixes_tail _ _ _ Hy' Hz Hk). apply elem_of_list_In, Hin in Hz'. rewrite Hst in Hz'. cbn [negb orb] in Hz'. apply bool_decide_eq_true in Hz'.
    rewrite Hk in Hz'. apply app_inv_tail in Hz' as ->.
    assert (Hh : wordish (head (txt (wrong_article k))) = true) by (by destruct k). unfold boundary. rewrite Hh.
    destruct (wordish (last_or _ x')) eqn:Ew; [done|]. exfalso. apply Hw. exists x'. split; [done|]. apply outside_spec.
    unfold last_or in Ew. by destruct (last x').
Qed.

Lemma untouched_simple k u : (forall c, c ∈ u -> c <> "<"%char /\ c <> " "%char) -> untouched k u.
Proof.
  intros H. split; intros p w Hin.
  - intros (a & b & ->). assert (Hp : exists q, p = "<"%char :: q).
    { rewrite vocab_table in Hin. assert (Hf : forallb (fun kv => match kv.1 with c :: _ => bool_decide (c = "<"%char) | [] => false end) (both_cases (substitutions k)) = true) by (by destruct k).
      rewrite forallb_forall in Hf. apply elem_of_list_In, Hf in Hin. cbn in Hin. destruct p as [|c q]; [done|]. apply bool_decide_eq_true in Hin as ->. eauto. }
    destruct Hp as [q ->]. destruct (H "<"%char) as [Hn _]; [|done]. apply elem_of_app. right. by left.
  - intros (a & b & -> & _). assert (Hp : " "%char ∈ p).
    { rewrite gram_table in Hin. assert (Hf : forallb (fun kv => existsb (fun c => bool_decide (c = " "%char)) kv.1) (both_cases corrections) = true) by done.
      rewrite forallb_forall in Hf. apply elem_of_list_In, Hf in Hin. cbn in Hin. apply existsb_exists in Hin as (c & Hc & Hd). apply bool_decide_eq_true in Hd as ->. by apply elem_of_list_In. }
    destruct (H " "%char) as [_ Hn]; [|done]. apply elem_of_app. right. apply elem_of_app. by left.
Qed.
