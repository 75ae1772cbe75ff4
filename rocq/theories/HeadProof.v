(** * Proofs about the first lines of reports. *)
From Verif Require Export HeadSpec.
From Verif Require Import ExpectLemmas ExpectProof ExpectReport SatisfySpec SatisfyLemmas.
From Coq Require Import Lia.

Section Proof.
Context {P : Params}.

Lemma children_counted s fs l ps : Forall2 (after s fs) l ps ->
  counted (met s fs) l (count_true (map p_ok ps)) /\ counted (fun e => ~ met s fs e) l (length ps - count_true (map p_ok ps)).
Proof.
  induction 1 as [|e p l ps He Hl [IH1 IH2]]; [split; constructor|].
  assert (Hv := proj1 (after_good _ _ _ _ He)). assert (L := count_true_le (map p_ok ps)). rewrite map_length in L.
  unfold count_true in *. cbn. destruct (p_ok p); cbn.
  - assert (Hm : met s fs e) by (by apply Hv). split; [by constructor|]. apply cd_no; [tauto|exact IH2].
  - assert (Hm : ~ met s fs e) by (intros Hm; by apply Hv in Hm). split; [by apply cd_no|].
    replace (S (length ps) - length (List.filter id (map p_ok ps))) with (S (length ps - length (List.filter id (map p_ok ps)))) by lia. by constructor.
Qed.

Lemma append_reports_head l : forall r,
  let r' := foldl (fun r sr => append_report sr r) r l in rp_criteria r' = rp_criteria r /\ rp_outcome r' = rp_outcome r.
Proof. induction l as [|a l IH]; intros r; [done|]. exact (IH (append_report a r)). Qed.
Lemma sections_head {A} (g : Report -> A -> Report) l : (forall r x, rp_criteria (g r x) = rp_criteria r /\ rp_outcome (g r x) = rp_outcome r) ->
  forall r, rp_criteria (foldl g r l) = rp_criteria r /\ rp_outcome (foldl g r l) = rp_outcome r.
Proof. intros Hg. induction l as [|x l IH]; intros r; [done|]. cbn. destruct (IH (g r x)) as [-> ->]. apply Hg. Qed.

Lemma foldl_out {A} (g : Report -> A -> Report) l : (forall r x, rp_outcome (g r x) = rp_outcome r) -> forall r, rp_outcome (foldl g r l) = rp_outcome r.
Proof. intros Hg. induction l as [|x l IH]; intros r; [done|]. cbn. by rewrite IH. Qed.

Lemma composite_head s fs c l p T tree inv : after s fs (XComp c l) p ->
  let r := report T (mkCtx tree inv) p in
  exists yes no, counted (met s fs) l yes /\ counted (fun e => ~ met s fs e) l no /\
    match c with
    | CAll => rp_criteria r = txt "all of" /\
        rp_outcome r = match no with 0 => [] | _ => txt (pretty.pretty (Z.of_nat no)) ++ txt " of the expectations failed" end
    | CAny => rp_criteria r = txt "any of" /\
        rp_outcome r = match yes with 0 => txt "all " ++ txt (pretty.pretty (Z.of_nat no)) ++ txt " of the expectations failed" | _ => [] end
    | CNone => rp_criteria r = txt "none of" /\
        rp_outcome r = match yes, l with
                       | 0, _ => []
                       | _, [_] => txt "the expectation passed unexpectedly"
                       | _, _ => txt (pretty.pretty (Z.of_nat yes)) ++ txt " of the expectations passed unexpectedly"
                       end
    end.
Proof.
  intros H. destruct (after_comp _ _ _ _ _ H) as (ps & -> & F). destruct (children_counted _ _ _ _ F) as [Hy Hn].
  eexists _, _. split; [exact Hy|]. split; [exact Hn|]. assert (L := count_true_le (map p_ok ps)). rewrite map_length in L.
  assert (Hlen := Forall2_length _ _ _ F). clear Hy Hn. cbn [report].
  destruct (comp_pred c (length ps) (count_true (map p_ok ps))) as [out ok] eqn:Ec.
  match goal with |- context [foldl ?g ?r ?k] => destruct (append_reports_head k r) as [H1 H2]; set (rr := foldl g r k) in *; clearbody rr end.
  cbn in H1, H2. destruct c; cbn [comp_pred] in Ec; (split; [exact H1|]); rewrite H2.
  - destruct (Nat.eqb_spec (count_true (map p_ok ps)) (length ps)) as [He|He]; injection Ec as <- <-.
    + by replace (length ps - count_true (map p_ok ps)) with 0 by lia.
    + destruct (length ps - count_true (map p_ok ps)) eqn:Ed; [lia|]. done.
  - destruct (Nat.ltb_spec 0 (count_true (map p_ok ps))) as [He|He]; injection Ec as <- <-.
    + by destruct (count_true (map p_ok ps)); [lia|].
    + replace (count_true (map p_ok ps)) with 0 by lia. by rewrite Nat.sub_0_r.
  - destruct (Nat.eqb_spec (count_true (map p_ok ps)) 0) as [He|He].
    + cbn in Ec. injection Ec as <- <-. by rewrite He.
    + destruct (Nat.eqb_spec (length ps) 1) as [Hl|Hl]; injection Ec as <- <-.
      * rewrite Hl in Hlen. destruct l as [|x [|y l]]; try done. by destruct (count_true (map p_ok ps)).
      * rewrite <- Hlen in Hl. destruct l as [|x [|y l]]; try done; by destruct (count_true (map p_ok ps)).
Qed.

Lemma no_match_end_head t r : rp_outcome (report_no_match_end t r) = rp_outcome r.
Proof. unfold report_no_match_end. destruct (t_match t); cbn [section rp_outcome set_expl]; by rewrite foldl_out. Qed.
Lemma enable_head t r x : rp_criteria (suggest_enable t r x) = rp_criteria r /\ rp_outcome (suggest_enable t r x) = rp_outcome r.
Proof. unfold suggest_enable. by destruct (_ && _). Qed.
Lemma no_match_head t r : rp_outcome (report_no_match t r) = rp_outcome r.
Proof.
  unfold report_no_match. destruct (t_begun t); [|by rewrite no_match_end_head].
  assert (H : rp_outcome (foldl (suggest_enable t) (section suggestions [] r) htypes) = rp_outcome r) by (by rewrite foldl_out; [|apply enable_head]).
  destruct (t_match t); [by rewrite no_match_end_head|]. destruct (forallb _ _); [done|]. destruct (t_engaged t); [done|]. by rewrite no_match_end_head.
Qed.

Lemma leaf_head s fs e p T tree inv : after s fs e p -> message_leaf e -> rp_outcome (report T (mkCtx tree inv) p) = [].
Proof.
  intros H Hl. destruct Hl as [m|t|tp pred near ex].
  - destruct (after_message _ _ _ _ H) as (ok & best & t & -> & _). cbn [report]. unfold message_report. destruct (_ || _ || _); [done|].
    destruct best; [done|]. by rewrite no_match_head.
  - destruct (after_type _ _ _ _ H) as (ok & tr & -> & _). cbn [report]. unfold type_report. destruct (_ || _ || _); [done|]. by rewrite no_match_head.
  - destruct (after_match _ _ _ _ _ _ _ H) as (calls & fl & ma & ig & ok & tr & -> & _). cbn [report]. unfold match_report.
    destruct (_ || _ || _); [done|]. set (r0 := new_report _ _ _ _). set (r1 := foldl _ r0 fl).
    assert (H1 : rp_outcome r1 = []) by (subst r1; by rewrite foldl_out).
    match goal with |- context [report_no_match tr ?x] => set (r3 := x) end.
    assert (H3 : rp_outcome r3 = []) by (subst r3; destruct (0 <? ig); [done|by destruct (nonempty fl)]).
    assert (H4 : rp_outcome (report_no_match tr r3) = []) by (by rewrite no_match_head). by destruct ex.
Qed.

Lemma repeat_loop_head l : forall i count shown rep, let '(_, _, rep') := repeat_loop i l count shown rep in
  rp_criteria rep' = rp_criteria rep /\ rp_outcome rep' = rp_outcome rep.
Proof.
  induction l as [|[[] sr] l IH]; intros i count shown rep; cbn [repeat_loop]; [done|apply IH|].
  destruct (S count =? 1); [|apply IH]. exact (IH (S i) (S count) i (append_report sr rep)).
Qed.
Lemma repeat_head s fs desc n f p T tree inv : after s fs (XRepeat desc n f) p ->
  let r := report T (mkCtx tree inv) p in
  rp_criteria r = desc /\ (p_ok p = true -> rp_outcome r = []).
Proof.
  intros H. destruct (after_repeat _ _ _ _ _ _ H) as (ps & -> & _ & _). cbn [report].
  set (l := map _ ps). assert (Hh := repeat_loop_head l 0 0 0 (new_report (cx_tree (mkCtx tree inv)) true desc [])).
  assert (Hf := repeat_loop_first 0 l (new_report (cx_tree (mkCtx tree inv)) true desc []) 0).
  destruct (repeat_loop _ _ _ _ _) as [[count shown] rep]. destruct Hh as [H1 H2]. cbn.
  destruct (count =? 0) eqn:Ec; [done|]. split; [exact H1|]. intros Hok. exfalso.
  destruct (list_find (fun x : bool * Report => x.1 = false) l) as [[j x]|] eqn:El.
  - apply list_find_Some in El as (Hx & Hxf & _). subst l. change (map ?g ps) with (g <$> ps) in Hx. rewrite list_lookup_fmap in Hx.
    destruct (ps !! j) as [q|] eqn:Eq; [|done]. injection Hx as <-. cbn in Hxf. rewrite forallb_forall in Hok.
    assert (p_ok q = true); [|congruence]. apply (Hok (p_ok q)), in_map, elem_of_list_In. by eapply elem_of_list_lookup_2.
  - injection Hf as -> _ _. done.
Qed.

Lemma satisfy_head s fs desc fn p T tree inv : after s fs (XSatisfy desc fn) p ->
  let r := report T (mkCtx tree inv) p in
  rp_criteria r = desc /\
  exists st evs, s_done (fn fs).1 (fn fs).2 s_init = (st, evs, None) /\
    (called skipping evs -> rp_outcome r = txt "the expectation was skipped") /\
    (~ called skipping evs -> called failing evs -> rp_outcome r = txt "the expectation failed") /\
    (~ called skipping evs -> ~ called failing evs -> rp_outcome r = []).
Proof.
  intros (p0 & Hp & Hd). cbn in Hp. injection Hp as <-. change (foldl ?g ?a fs) with (feed fs a) in Hd. rewrite feed_satisfy in Hd. cbn in Hd.
  destruct (s_done (fn fs).1 (fn fs).2 s_init) as [[st evs] r] eqn:Es. injection Hd as <- ->.
  destruct (proj1 (done_lemma _ _ _ _ _ Es)) as (T1 & T2 & _). cbn [report]. unfold satisfy_report.
  assert (Hh : forall r0, rp_criteria r0 = desc -> rp_criteria (foldl (fun r s => section (txt "Log Messages") (txt s ++ [nl]) r) (set_expl (ss_explanation st) r0) (ss_messages st)) = desc /\
    rp_outcome (foldl (fun r s => section (txt "Log Messages") (txt s ++ [nl]) r) (set_expl (ss_explanation st) r0) (ss_messages st)) = rp_outcome r0).
  { intros r0 H0. destruct (sections_head (fun r s => section (txt "Log Messages") (txt s ++ [nl]) r) (ss_messages st) (fun r x => conj eq_refl eq_refl) (set_expl (ss_explanation st) r0)) as [-> ->]. done. }
  set (r0 := new_report _ _ _ _). destruct (Hh r0 eq_refl) as [H1 H2].
  assert (Ho : rp_outcome r0 = if ss_skipped st then txt "the expectation was skipped" else if ss_failed st then txt "the expectation failed" else []) by done.
  match goal with |- context [if negb (s_ok st) && ?b then r0 else ?x] => set (r1 := if negb (s_ok st) && b then r0 else x) end. assert (Hr : rp_criteria r1 = desc /\ rp_outcome r1 = rp_outcome r0) by (subst r1; by destruct (_ && _)).
  destruct Hr as [Hr1 Hr2]. cbn. split; [exact Hr1|]. exists st, evs. split; [done|]. rewrite Hr2, Ho. rewrite <- T1, <- T2.
  split_and!; destruct (ss_skipped st), (ss_failed st); done.
Qed.

Lemma log_sections ms : forall r0, rp_sections r0 = [] ->
  let r := foldl (fun r s => section (txt "Log Messages") (txt s ++ [nl]) r) r0 ms in
  rp_sections r = (if decide (ms = []) then [] else [(txt "Log Messages", concat (map (fun m => txt m ++ [nl]) ms))]) /\
  rp_expl r = rp_expl r0 /\ rp_sub r = rp_sub r0.
Proof.
  assert (H : forall ms r0 c, rp_sections r0 = [(txt "Log Messages", c)] ->
    let r := foldl (fun r s => section (txt "Log Messages") (txt s ++ [nl]) r) r0 ms in
    rp_sections r = [(txt "Log Messages", c ++ concat (map (fun m => txt m ++ [nl]) ms))] /\ rp_expl r = rp_expl r0 /\ rp_sub r = rp_sub r0).
  { clear. induction ms as [|m ms IH]; intros r0 c H0.
    - cbn. rewrite app_nil_r. done.
    - cbn [foldl map concat]. destruct (IH (section (txt "Log Messages") (txt m ++ [nl]) r0) (c ++ txt m ++ [nl])) as (H1 & H2 & H3).
      + unfold section. rewrite H0. reflexivity.
      + cbv zeta. rewrite H1, H2, H3. rewrite <- !app_assoc. done. }
  intros r0 H0. destruct ms as [|m ms]; [done|]. cbn [foldl map concat].
  destruct (H ms (section (txt "Log Messages") (txt m ++ [nl]) r0) (txt m ++ [nl])) as (H1 & H2 & H3).
  - unfold section. rewrite H0. reflexivity.
  - cbv zeta. rewrite H1, H2, H3. done.
Qed.

Lemma satisfy_report_lemma s fs desc fn p T tree inv : after s fs (XSatisfy desc fn) p ->
  let r := report T (mkCtx tree inv) p in
  exists st evs ms, s_done (fn fs).1 (fn fs).2 s_init = (st, evs, None) /\ logged evs ms /\ rp_sub r = [] /\
    ((p_ok p = false /\ inv = true) /\ rp_sections r = [] /\ rp_expl r = [] \/
     ~ (p_ok p = false /\ inv = true) /\ rp_expl r = ss_explanation st /\
     rp_sections r = if decide (ms = []) then [] else [(txt "Log Messages", concat (map (fun m => txt m ++ [nl]) ms))]).
Proof.
  intros (p0 & Hp & Hd). cbn in Hp. injection Hp as <-. change (foldl ?g ?a fs) with (feed fs a) in Hd. rewrite feed_satisfy in Hd. cbn in Hd.
  destruct (s_done (fn fs).1 (fn fs).2 s_init) as [[st evs] r] eqn:Es. injection Hd as <- ->.
  exists st, evs, (ss_messages st). split; [done|].
  split; [apply (proj1 (done_lemma _ _ _ _ _ Es))|]. cbn [report p_ok]. unfold satisfy_report.
  match goal with |- context [set_expl (ss_explanation st) ?r0] => destruct (log_sections (ss_messages st) (set_expl (ss_explanation st) r0) eq_refl) as (H1 & H2 & H3) end.
  destruct (s_ok st), inv; cbn [negb andb cx_inv].
  3: by split; [done|]; left.
  all: (split; [exact H3|]); right; (split; [by intros [? ?]|]); (split; [exact H2|exact H1]).
Qed.
End Proof.
