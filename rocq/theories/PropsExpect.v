(** * Expectations: C45 to C51 and C60 to C64. *)
From Verif Require Import ExpectSpec ExpectLemmas ExpectProof ExpectReport.
From Verif Require Import Demo.

(** ** Verdicts *)

(** C45.  ToExecuteCommand and ToRecordEvent. *)
Theorem C45_message : forall {P : Params} s fs m p,
  after s fs (XMessage m) p ->
  p_ok p = true <->
  exists f e, f ∈ fs /\ considered (sc_match s) f = Some e /\
              m_type (e_msg e) = m_type m /\ sc_compare s (e_msg e) m = true.
Proof.
  intros P s fs m p H. destruct (after_good _ _ _ _ H) as [-> _]. cbn. split.
  - intros (m' & Hin & H1 & H2). unfold messages in Hin. apply elem_of_list_fmap in Hin. destruct Hin as (e & -> & Hin).
    apply elem_of_list_omap in Hin. destruct Hin as (f & Hf & Hc). by exists f, e.
  - intros (f & e & Hf & Hc & H1 & H2). exists (e_msg e). split; [|done]. unfold messages. apply elem_of_list_fmap. exists e.
    split; [done|]. apply elem_of_list_omap. by exists f.
Qed.
Print Assumptions C45_message.

(** C46.  ToExecuteCommandType and ToRecordEventType. *)
Theorem C46_type : forall {P : Params} s fs t p,
  after s fs (XType t) p ->
  p_ok p = true <-> exists f e, f ∈ fs /\ considered (sc_match s) f = Some e /\ m_type (e_msg e) = t.
Proof.
  intros P s fs t p H. destruct (after_good _ _ _ _ H) as [-> _]. cbn. split.
  - intros (m' & Hin & H1). unfold messages in Hin. apply elem_of_list_fmap in Hin. destruct Hin as (e & -> & Hin).
    apply elem_of_list_omap in Hin. destruct Hin as (f & Hf & Hc). by exists f, e.
  - intros (f & e & Hf & Hc & H1). exists (e_msg e). split; [|done]. unfold messages. apply elem_of_list_fmap. exists e.
    split; [done|]. apply elem_of_list_omap. by exists f.
Qed.
Print Assumptions C46_type.

Lemma in_of_kind {P : Params} s fs k m :
  m ∈ of_kind k (messages s fs) <-> exists f e, f ∈ fs /\ considered (sc_match s) f = Some e /\ e_msg e = m /\ m_kind m = k.
Proof.
  unfold of_kind, messages. rewrite elem_of_list_filter, elem_of_list_fmap. split.
  - intros (Hk & e & -> & Hin). apply elem_of_list_omap in Hin. destruct Hin as (f & Hf & Hc). by exists f, e.
  - intros (f & e & Hf & Hc & <- & Hk). split; [done|]. exists e. split; [done|]. apply elem_of_list_omap. by exists f.
Qed.

(** C47.  Matching expectations, for functions that give the same answer each time... *)
Theorem C47_match : forall {P : Params} s fs tp g near p,
  after s fs (XMatch tp (fun _ => g) near false) p ->
  p_ok p = true <->
  exists f e, f ∈ fs /\ considered (sc_match s) f = Some e /\
              m_kind (e_msg e) = tp_kind tp /\ tp_assignable tp (m_type (e_msg e)) = true /\ g (e_msg e) = RNil.
Proof.
  intros P s fs tp g near p H. destruct (after_good _ _ _ _ H) as [-> _]. cbn. unfold all_results. split.
  - intros (m' & Hin). apply pure_results in Hin. destruct Hin as [Hin Hr]. apply in_of_kind in Hin.
    destruct Hin as (f & e & Hf & Hc & <- & Hk). destruct (tp_assignable tp (m_type (e_msg e))) eqn:E; [|done]. by exists f, e.
  - intros (f & e & Hf & Hc & Hk & Ha & Hg). exists (e_msg e). apply pure_results. rewrite Ha. split; [|done]. apply in_of_kind. by exists f, e.
Qed.
Print Assumptions C47_match.
(** ... and for any function: [results] calls it with the messages of the kind that are
    assignable to its parameter, in order. *)
Theorem C47_match_any : forall {P : Params} s fs tp pred near p,
  after s fs (XMatch tp pred near false) p ->
  p_ok p = true <-> exists m, (m, RNil) ∈ results tp pred false [] (of_kind (tp_kind tp) (messages s fs)).
Proof. intros P s fs tp pred near p H. by destruct (after_good _ _ _ _ H) as [-> _]. Qed.
Print Assumptions C47_match_any.

(** C48.  Exhaustive matching. *)
Theorem C48_only : forall {P : Params} s fs tp g near p,
  after s fs (XMatch tp (fun _ => g) near true) p ->
  p_ok p = true <->
  forall f e, f ∈ fs -> considered (sc_match s) f = Some e -> m_kind (e_msg e) = tp_kind tp ->
              tp_assignable tp (m_type (e_msg e)) = true /\ (g (e_msg e) = RNil \/ g (e_msg e) = RIgnore).
Proof.
  intros P s fs tp g near p H. destruct (after_good _ _ _ _ H) as [-> _]. cbn. unfold all_results. split.
  - intros Hn f e Hf Hc Hk. assert (Hin : e_msg e ∈ of_kind (tp_kind tp) (messages s fs)) by (apply in_of_kind; by exists f, e).
    destruct (tp_assignable tp (m_type (e_msg e))) eqn:E.
    + split; [done|]. destruct (g (e_msg e)) as [| |er] eqn:Eg; [by left | by right|]. exfalso. apply (Hn (e_msg e) er).
      apply pure_results. by rewrite E, Eg.
    + exfalso. apply (Hn (e_msg e) (expected_error tp)). apply pure_results. by rewrite E.
  - intros Hall m er Hin. apply pure_results in Hin. destruct Hin as [Hin Hr]. apply in_of_kind in Hin.
    destruct Hin as (f & e & Hf & Hc & <- & Hk). destruct (Hall f e Hf Hc Hk) as [Ha Hg]. rewrite Ha in Hr. destruct Hg; congruence.
Qed.
Print Assumptions C48_only.
Theorem C48_only_any : forall {P : Params} s fs tp pred near p,
  after s fs (XMatch tp pred near true) p ->
  p_ok p = true <-> forall m er, (m, RErr er) ∉ results tp pred true [] (of_kind (tp_kind tp) (messages s fs)).
Proof. intros P s fs tp pred near p H. by destruct (after_good _ _ _ _ H) as [-> _]. Qed.
Print Assumptions C48_only_any.

(** C49.  The verdict of every tree is that of the specification. *)
Theorem C49_verdict : forall {P : Params} s fs e p, after s fs e p -> (p_ok p = true <-> met s fs e).
Proof. intros P s fs e p H. apply (after_good _ _ _ _ H). Qed.
Print Assumptions C49_verdict.

(** A composite is decided by what the verdicts of its children are on the same facts. *)
Theorem C49_composite : forall {P : Params} s fs c l p,
  after s fs (XComp c l) p ->
  exists ps, Forall2 (after s fs) l ps /\
    (p_ok p = true <->
     match c with
     | CAll => Forall (fun q => p_ok q = true) ps
     | CAny => Exists (fun q => p_ok q = true) ps
     | CNone => Forall (fun q => p_ok q = false) ps
     end).
Proof.
  intros P s fs c l p H. destruct (after_comp _ _ _ _ _ H) as (ps & -> & F). exists ps. split; [done|]. cbn [p_ok]. destruct c; cbn [comp_pred].
  - assert (C := count_true_all (map p_ok ps)). rewrite map_length in C. change (map p_ok ps) with (p_ok <$> ps) in *. rewrite Forall_fmap in C.
    destruct (Nat.eqb_spec (count_true (p_ok <$> ps)) (length ps)); cbn; [tauto|]. split; [done|]. intros Hx. by apply C in Hx.
  - assert (C := count_true_some (map p_ok ps)). change (map p_ok ps) with (p_ok <$> ps) in *. rewrite Exists_fmap in C.
    destruct (Nat.ltb_spec 0 (count_true (p_ok <$> ps))); cbn; [tauto|]. split; [done|]. intros Hx. apply C in Hx. lia.
  - assert (C := count_true_some (map p_ok ps)). change (map p_ok ps) with (p_ok <$> ps) in *. rewrite Exists_fmap in C.
    destruct (Nat.eqb_spec (count_true (p_ok <$> ps)) 0) as [E|E]; cbn.
    + split; [|done]. intros _. apply Forall_forall. intros q Hq. destruct (p_ok q) eqn:Eq; [|done]. exfalso.
      assert (0 < count_true (p_ok <$> ps)); [|lia]. apply C. apply Exists_exists. by exists q.
    + split; [by destruct (length ps =? 1)|]. intros Hall. exfalso. assert (Hc : 0 < count_true (p_ok <$> ps)) by lia. apply C in Hc.
      apply Exists_exists in Hc. destruct Hc as (q & Hq & Hk). rewrite Forall_forall in Hall. specialize (Hall q Hq). cbn in *. congruence.
Qed.
Print Assumptions C49_composite.
Theorem C49_not : forall {P : Params} s fs e p,
  after s fs (XNot e) p -> exists q, after s fs e q /\ p_ok p = negb (p_ok q).
Proof. intros P s fs e p H. destruct (after_not _ _ _ _ H) as (q & -> & Hq). by exists q. Qed.
Print Assumptions C49_not.
Theorem C49_repeat : forall {P : Params} s fs desc n f p,
  after s fs (XRepeat desc n f) p ->
  exists ps, length ps = n /\
    (forall i q, ps !! i = Some q -> exists e, f i = Some e /\ after s fs e q) /\
    (p_ok p = true <-> Forall (fun q => p_ok q = true) ps).
Proof.
  intros P s fs desc n f p H. destruct (after_repeat _ _ _ _ _ _ H) as (ps & -> & Hl & Hc). exists ps. split_and!; [done..|].
  cbn. rewrite forallb_forall. rewrite Forall_forall. split.
  - intros Ha q Hq. apply (Ha (p_ok q)). apply in_map. by apply elem_of_list_In.
  - intros Ha b Hb. apply in_map_iff in Hb. destruct Hb as (q & <- & Hq). apply Ha. by apply elem_of_list_In.
Qed.
Print Assumptions C49_repeat.

(** AllOf(), AnyOf() and NoneOf() of any expectations mean what their names say. *)
Theorem C49_constructors : forall {P : Params} s fs l x p, after s fs x p ->
  (all_of l = Some x -> l <> [] /\ (p_ok p = true <-> forall e, e ∈ l -> met s fs e)) /\
  (any_of l = Some x -> l <> [] /\ (p_ok p = true <-> exists e, e ∈ l /\ met s fs e)) /\
  (none_of l = Some x -> l <> [] /\ (p_ok p = true <-> forall e, e ∈ l -> ~ met s fs e)) /\
  (forall desc n f, to_repeatedly desc n f = Some x -> (1 <= n)%Z /\ desc <> [] /\
     (p_ok p = true <-> forall i, (Z.of_nat i < n)%Z -> exists e, f i = Some e /\ met s fs e)).
Proof.
  intros P s fs l x p H. destruct (after_good _ _ _ _ H) as [V _]. clear H. split_and!; [rewrite V.. | ].
  - destruct l as [|a [|b l]]; [done| |]; intros [= <-]; (split; [done|]).
    + split; [intros Hm e He; apply elem_of_list_singleton in He; by subst e | intros Hm; apply Hm; by left].
    + cbn [met]. change (map (met s fs) (a :: b :: l)) with (met s fs <$> (a :: b :: l)). by rewrite Forall_fmap, Forall_forall.
  - destruct l as [|a [|b l]]; [done| |]; intros [= <-]; (split; [done|]).
    + split; [intros Hm; exists a; split; [by left|done] | intros (e & He & Hm); apply elem_of_list_singleton in He; by subst e].
    + cbn [met]. change (map (met s fs) (a :: b :: l)) with (met s fs <$> (a :: b :: l)). by rewrite Exists_fmap, Exists_exists.
  - destruct l as [|a l]; [done|]. intros [= <-]. split; [done|]. cbn [met].
    change (map (met s fs) (a :: l)) with (met s fs <$> (a :: l)). rewrite Exists_fmap, Exists_exists. split.
    + intros Hn e He Hm. apply Hn. by exists e.
    + intros Hn (e & He & Hm). by apply (Hn e).
  - intros desc n f. unfold to_repeatedly. destruct (n <? 1)%Z eqn:En; [done|]. destruct desc as [|ch desc]; [done|]. intros [= <-].
    apply Z.ltb_ge in En. split; [done|]. split; [done|]. rewrite V. cbn [met]. split.
    + intros Hm i Hi. specialize (Hm i ltac:(lia)). destruct (f i) as [e|]; [by exists e|done].
    + intros Hm i Hi. destruct (Hm i ltac:(lia)) as (e & -> & He). done.
Qed.
Print Assumptions C49_constructors.

(** Not(e) and NoneOf(e) agree; ToRepeatedly(n, f) and AllOf(f(0), ..., f(n-1)) agree. *)
Theorem C49_not_none : forall {P : Params} s fs e x p q,
  none_of [e] = Some x -> after s fs (XNot e) p -> after s fs x q -> p_ok p = p_ok q.
Proof.
  intros P s fs e x p q Hx Hp Hq. inversion Hx; subst x. destruct (after_good _ _ _ _ Hp) as [V _]. destruct (after_good _ _ _ _ Hq) as [V' _].
  cbn in V, V'. assert (p_ok p = true <-> p_ok q = true).
  { rewrite V, V'. rewrite Exists_cons. split; [intros Hn [?|Hx']; [by apply Hn | inversion Hx'] | intros Hn Hm; apply Hn; by left]. }
  destruct (p_ok p), (p_ok q); try done; [symmetry; by apply H | by apply H].
Qed.
Print Assumptions C49_not_none.
Theorem C49_repeat_all : forall {P : Params} s fs desc n f l x y p q,
  Forall2 (fun i e => f i = Some e) (seq 0 (Z.to_nat n)) l ->
  to_repeatedly desc n f = Some x -> all_of l = Some y ->
  after s fs x p -> after s fs y q -> p_ok p = p_ok q.
Proof.
  intros P s fs desc n f l x y p q F Hx Hy Hp Hq.
  assert (Hb : p_ok p = true <-> p_ok q = true).
  { destruct (after_good _ _ _ _ Hp) as [-> _]. destruct (after_good _ _ _ _ Hq) as [-> _].
    assert (Hy' : met s fs y <-> Forall (met s fs) l).
    { destruct l as [|a [|b l]]; [done | |].
      - inversion Hy; subst y. rewrite Forall_singleton. done.
      - inversion Hy; subst y. cbn [met]. by rewrite Forall_fmap. }
    rewrite Hy'. unfold to_repeatedly in Hx. destruct (n <? 1)%Z; [done|]. destruct desc; [done|]. inversion Hx; subst x. cbn [met].
    rewrite Forall_lookup. split.
    - intros H i e He. destruct (Forall2_lookup_r _ _ _ _ _ F He) as (j & Hj & Hf). apply lookup_seq in Hj. destruct Hj as [-> Hlt].
      specialize (H i Hlt). cbn in Hf. by rewrite Hf in H.
    - intros H i Hi. assert (Hs : seq 0 (Z.to_nat n) !! i = Some i) by (apply lookup_seq; done).
      destruct (Forall2_lookup_l _ _ _ _ _ F Hs) as (e & He & ->). by apply (H i). }
  destruct (p_ok p), (p_ok q); try done; [symmetry; by apply Hb | by apply Hb].
Qed.
Print Assumptions C49_repeat_all.
(** AllOf and AnyOf of one expectation are that expectation; of none, they panic. *)
Theorem C49_single : forall {P : Params} (e : Exp) desc f,
  all_of [e] = Some e /\ any_of [e] = Some e /\ all_of [] = None /\ any_of [] = None /\ none_of [] = None /\
  to_repeatedly desc 0 f = None /\ to_repeatedly [] 1 f = None.
Proof. done. Qed.
Print Assumptions C49_single.

(** C50.  Which expectations are rejected before the action is performed. *)
Theorem C50_rejected : forall {P : Params} s e, (exists er, new_predicate s e = inr er) <-> impossible s e.
Proof. intros P s e. apply reject_lemma. Qed.
Print Assumptions C50_rejected.
(** The error is that of the first part that is impossible, with the iterations in which it
    occurs. *)
Theorem C50_reason : forall {P : Params} s e er, new_predicate s e = inr er <-> because s e er.
Proof. intros P s e er. apply because_iff. Qed.
Print Assumptions C50_reason.

(** C51.  No further facts change the verdict [v] of an expectation for which [stays v]. *)
Theorem C51_stable : forall {P : Params} s fs fs' v e p p',
  stays v e -> after s fs e p -> after s (fs ++ fs') e p' -> p_ok p = v -> p_ok p' = v.
Proof.
  intros P s fs fs' v e p p' Hst Hp Hp' Hv. assert (L := stays_lemma s fs fs' v e Hst).
  destruct (after_good _ _ _ _ Hp) as [V _]. destruct (after_good _ _ _ _ Hp') as [V' _]. destruct v.
  - apply V', L, V. done.
  - destruct (p_ok p') eqn:E; [|done]. rewrite <- Hv. symmetry. by apply V, L, V'.
Qed.
Print Assumptions C51_stable.

(** ** Reports *)

(** C60.  Every report describes its expectation (ExpectSpec.v): the verdicts agree at
    every node, and explanations and sections appear only where they should. *)
Theorem C60_reports : forall {P : Params} s fs e p T tree inv,
  after s fs e p -> describes s fs tree inv e (report T (mkCtx tree inv) p).
Proof. intros P s fs e p T tree inv H. apply (proj2 (after_good _ _ _ _ H) T (mkCtx tree inv)). Qed.
Print Assumptions C60_reports.

(** The report that Test.Expect writes. *)
Theorem C60_root : forall {P : Params} s fs e p T,
  after s fs e p -> (forall u, e <> XUser u) ->
  rp_ok (report T (mkCtx (p_ok p) false) p) = p_ok p.
Proof.
  intros P s fs e p T H Hu. assert (V := C49_verdict _ _ _ _ H). assert (D := C60_reports _ _ _ _ T (p_ok p) false H).
  assert (Hb : rp_ok (report T (mkCtx (p_ok p) false) p) = true <-> met s fs e).
  { revert Hu. destruct D as [inv e r _ D|inv c l r D|inv e r r' D|inv desc n f r Hm D|inv desc n f r i e r' failed D _ Hi Hf Hn|inv desc fn r D|inv u]; intros Hu.
    - exact D.
    - exact D.
    - exact D.
    - by rewrite D.
    - rewrite D. split; [done|]. intros Hx. cbn in Hx. specialize (Hx i Hi). by rewrite Hf in Hx.
    - exact D.
    - by destruct (Hu u). }
  revert V Hb. generalize (met s fs e) as M. intros M V Hb. destruct (p_ok p), (rp_ok _); try done.
  - exfalso. assert (false = true); [|done]. by apply Hb, V.
  - exfalso. assert (false = true); [|done]. by apply V, Hb.
Qed.
Print Assumptions C60_root.

(** The sub-reports of AllOf, AnyOf and NoneOf are the reports of the children, in order. *)
Theorem C60_children : forall {P : Params} s fs c l p T tree inv,
  after s fs (XComp c l) p ->
  exists ps, Forall2 (after s fs) l ps /\
    rp_sub (report T (mkCtx tree inv) p) =
      map (report T (mkCtx tree (match c with CNone => negb inv | _ => inv end))) ps.
Proof.
  intros P s fs c l p T tree inv H. destruct (after_comp _ _ _ _ _ H) as (ps & -> & F). exists ps. split; [done|]. cbn [report cx_tree cx_inv].
  destruct (comp_pred _ _ _) as [out ok]. match goal with |- rp_sub (foldl _ ?r ?k) = _ => rewrite (proj1 (proj2 (append_reports_shape k r))) end.
  by destruct c.
Qed.
Print Assumptions C60_children.

(** C61.  A failed ToRepeatedly. *)
Theorem C61_repeat : forall {P : Params} s fs desc n f p T tree inv,
  after s fs (XRepeat desc n f) p -> p_ok p = false ->
  let r := report T (mkCtx tree inv) p in
  exists i e q failed,
    i < n /\ f i = Some e /\ after s fs e q /\ p_ok q = false /\
    (forall j, j < i -> exists e' q', f j = Some e' /\ after s fs e' q' /\ p_ok q' = true) /\
    rp_sub r = [report T (mkCtx tree inv) q] /\
    NoDup failed /\ (forall j, j ∈ failed <-> j < n /\ exists e' q', f j = Some e' /\ after s fs e' q' /\ p_ok q' = false) /\
    rp_outcome r = num (length failed) ++ txt " of " ++ num n ++ txt " iteration(s) failed, iteration #" ++ num i ++ txt " shown".
Proof.
  intros P s fs desc n f p T tree inv H Hno r. assert (Hno' : ~ met s fs (XRepeat desc n f)).
  { intros Hm. apply (proj1 (after_good _ _ _ _ H)) in Hm. congruence. }
  destruct (after_repeat _ _ _ _ _ _ H) as (ps & -> & Hlen & Hlook). subst r. cbn [report]. set (cx := mkCtx tree inv).
  assert (D := C60_reports _ _ _ _ T tree inv H). cbn [report] in D. fold cx in D.
  set (l := map (fun c => (p_ok c, report T cx c)) ps) in *.
  assert (Hloop := repeat_loop_first 0 l (new_report (cx_tree cx) true desc []) 0).
  destruct (list_find (fun x : bool * Report => x.1 = false) l) as [[j x]|] eqn:Efi.
  2:{ exfalso. rewrite list_find_None in Efi. rewrite Forall_forall in Efi. cbn in Hno.
      apply not_true_iff_false in Hno. apply Hno. apply forallb_forall. intros b Hb. apply in_map_iff in Hb. destruct Hb as (q & <- & Hq).
      destruct (p_ok q) eqn:E; [done|]. exfalso. apply (Efi (p_ok q, report T cx q)); [|done]. apply elem_of_list_In.
      subst l. by apply (in_map (fun c => (p_ok c, report T cx c))). }
  rewrite Hloop in *. apply list_find_Some in Efi. destruct Efi as (Hx & Hxf & Hmin).
  assert (Hl : forall k, l !! k = (fun c => (p_ok c, report T cx c)) <$> ps !! k).
  { intros k. subst l. change (map ?g ps) with (g <$> ps). by rewrite list_lookup_fmap. }
  rewrite Hl in Hx. destruct (ps !! j) as [q|] eqn:Eq; [|done]. inversion Hx; subst x. cbn in Hxf. destruct (Hlook j q Eq) as (e & Hf & Hq).
  assert (Hj : j < n) by (rewrite <- Hlen; by eapply lookup_lt_Some).
  assert (Hps : forall k, k < n -> exists e' q', ps !! k = Some q' /\ f k = Some e' /\ after s fs e' q').
  { intros k Hk. rewrite <- Hlen in Hk. destruct (lookup_lt_is_Some_2 ps k Hk) as [q' Hq']. destruct (Hlook k q' Hq') as (e' & H1 & H2). by exists e', q'. }
  inversion D as [inv0 e0 r0 Hml|inv0 c0 l0 r0 D1|inv0 e0 r0 r'0 D1|inv0 d0 n0 f0 r0 Hm D1|inv0 d0 n0 f0 r0 i e0 r' failed D1 D2 D3 D4 D5 D6 D7 D8 D9 D10 D11|inv0 d0 fn0 r0 D1|inv0 u0]; subst.
  - inversion Hml.
  - done.
  - assert (i = j) as ->.
    { destruct (Nat.lt_trichotomy i j) as [Hlt|[->|Hlt]]; [|done|]; exfalso.
      - destruct (Hps i D3) as (e' & q' & Hq' & Hf' & Ha'). rewrite D4 in Hf'. inversion Hf'; subst e'.
        apply (Hmin i (p_ok q', report T cx q')); [by rewrite Hl, Hq' | done|]. cbn. by apply (good_ok_false _ _ _ _ (after_good _ _ _ _ Ha')).
      - destruct (D6 j Hlt) as (e' & Hf' & Hm'). rewrite Hf in Hf'. inversion Hf'; subst e'.
        apply (proj1 (after_good _ _ _ _ Hq)) in Hm'. congruence. }
    exists j, e, q, failed. split_and!; try done.
    + intros k Hk. destruct (Hps k) as (e' & q' & Hq' & Hf' & Ha'); [lia|]. exists e', q'. split_and!; try done.
      destruct (D6 k Hk) as (e'' & Hf'' & Hm''). rewrite Hf' in Hf''. inversion Hf''; subst e''. by apply (after_good _ _ _ _ Ha').
    + destruct (length l - count_true l.*1 =? 0) eqn:E0; [|done]. done.
    + intros k. rewrite D10. split; intros [Hk Hr].
      * split; [done|]. destruct Hr as (e' & Hf' & Hn'). destruct (Hps k Hk) as (e'' & q' & Hq' & Hf'' & Ha'). rewrite Hf' in Hf''. inversion Hf''; subst e''.
        exists e', q'. split_and!; try done. by apply (good_ok_false _ _ _ _ (after_good _ _ _ _ Ha')).
      * split; [done|]. destruct Hr as (e' & q' & Hf' & Ha' & Hk'). exists e'. split; [done|]. by apply (good_ok_false _ _ _ _ (after_good _ _ _ _ Ha')).
Qed.
Print Assumptions C61_repeat.

(** ** Explanations *)

(** The message leaves and the kind of the messages they are about; [bare_leaf]: there is
    nothing similar to report. *)
Inductive bare_leaf {P : Params} (s : Scope) (fs : list Fact) : Exp -> Kind -> Prop :=
| bl_message m : (forall m', m' ∈ messages s fs -> m_type m' <> m_type m) -> bare_leaf s fs (XMessage m) (m_kind m)
| bl_type t : bare_leaf s fs (XType t) t.1.

(** C62.  What a failed expectation says about the messages, the enabled handler types and
    the engaged handlers is true of the facts ([explains]). *)
Theorem C62_explanation : forall {P : Params} s fs e k p T,
  after s fs e p -> p_ok p = false ->
  bare_leaf s fs e k \/ (exists tp pred near, e = XMatch tp pred near false /\ k = tp_kind tp) ->
  explains s k fs (rp_expl (report T (mkCtx false false) p)).
Proof.
  intros P s fs e k p T H Hno [Hl|(tp & pred & near & -> & ->)].
  1: destruct Hl as [m Hm|t].
  - destruct (after_message _ _ _ _ H) as (ok & best & t & -> & Ht). cbn in Hno. subst ok. destruct (Ht eq_refl) as [-> ->].
    cbn [report]. unfold message_report. cbn [orb cx_tree cx_inv].
    destruct (last (filter _ _)) as [en|] eqn:El; [|apply rnm_spec].
    exfalso. apply last_Some_elem_of, elem_of_list_filter in El. destruct El as [Hty Hin]. apply (Hm (e_msg en)); [|done].
    unfold messages. apply elem_of_list_fmap. by exists en.
  - destruct (after_type _ _ _ _ H) as (ok & tr & -> & Ht). cbn in Hno. subst ok. rewrite (Ht eq_refl).
    cbn [report]. unfold type_report. cbn [orb cx_tree cx_inv]. apply rnm_spec.
  - destruct (after_match _ _ _ _ _ _ _ H) as (calls & fl & ma & ig & ok & tr & -> & Ht). cbn in Hno. subst ok. destruct (Ht eq_refl) as (-> & _).
    cbn [report]. unfold match_report. cbn [orb cx_tree cx_inv]. apply rnm_spec.
Qed.
Print Assumptions C62_explanation.

(** ... and so is what it suggests. *)
Theorem C62_suggestions : forall {P : Params} s fs e k p T,
  after s fs e p -> p_ok p = false -> bare_leaf s fs e k ->
  exists items, suggests s k fs items /\
    rp_sections (report T (mkCtx false false) p) = [(txt "Suggestions", concat (map item items))].
Proof.
  intros P s fs e k p T H Hno Hl.
  assert (G : forall r, rp_sections r = [] -> exists items, suggests s k fs items /\
     rp_sections (report_no_match (t_run (t_init k s) fs) r) = [(txt "Suggestions", concat (map item items))]).
  { intros r Hr. destruct (rnm_suggests s k fs r [] []) as (items & H1 & _ & H2).
    - left. rewrite Hr. split_and!; try done. apply not_elem_of_nil.
    - by exists items. }
  destruct Hl as [m Hm|t].
  - destruct (after_message _ _ _ _ H) as (ok & best & t & -> & Ht). cbn in Hno. subst ok. destruct (Ht eq_refl) as [-> ->].
    cbn [report]. unfold message_report. cbn [orb cx_tree cx_inv].
    destruct (last (filter _ _)) as [en|] eqn:El; [|by apply G].
    exfalso. apply last_Some_elem_of, elem_of_list_filter in El. destruct El as [Hty Hin]. apply (Hm (e_msg en)); [|done].
    unfold messages. apply elem_of_list_fmap. by exists en.
  - destruct (after_type _ _ _ _ H) as (ok & tr & -> & Ht). cbn in Hno. subst ok. rewrite (Ht eq_refl).
    cbn [report]. unfold type_report. cbn [orb cx_tree cx_inv]. by apply G.
Qed.
Print Assumptions C62_suggestions.

(** If a message of the expected type was seen, the last such message is reported. *)
Theorem C62_similar : forall {P : Params} s fs m p T e,
  after s fs (XMessage m) p -> p_ok p = false ->
  last (filter (fun e => m_type (e_msg e) = m_type m) (omap (considered (sc_match s)) fs)) = Some e ->
  let r := report T (mkCtx false false) p in
  rp_expl r =
    inflect (m_kind m) (txt "a similar <message> was <produced> " ++
      match e_origin e with
      | None => txt "via a <dispatcher>"
      | Some og => txt "by the '" ++ txt (hid_name (o_handler og)) ++ txt "' " ++ htype_text (o_type og) ++ txt " message handler"
      end) /\
  rp_sections r = [(txt "Suggestions", item (txt "check the content of the message"));
                   (txt "Message Diff", rt_diff T (rt_render T m) (rt_render T (e_msg e)))].
Proof.
  intros P s fs m p T e H Hno El r. subst r. destruct (after_message _ _ _ _ H) as (ok & best & t & -> & Ht). cbn in Hno. subst ok.
  destruct (Ht eq_refl) as [-> ->]. cbn [report]. unfold message_report. cbn [orb cx_tree cx_inv]. rewrite El. split; [|done].
  cbn [rp_expl section set_expl]. by destruct (e_origin e).
Qed.
Print Assumptions C62_similar.

(** C64.  The failures of a matching expectation are grouped, and the numbers of failed,
    ignored and matched messages are exact. *)
Theorem C64_failures : forall {P : Params} s fs tp pred near ex p T,
  after s fs (XMatch tp pred near ex) p -> p_ok p = false ->
  let rs := all_results s tp pred ex fs in
  let r := report T (mkCtx false false) p in
  exists fl items,
    grouped (failed_results rs) fl /\ suggests s (tp_kind tp) fs items /\
    rp_sections r =
      (match fl with [] => [] | _ => [(txt "Failed Matches", concat (map (failure_item T) fl))] end) ++
      [(txt "Suggestions",
        (if 0 <? count_res RIgnore rs
         then item (txt "verify the logic within the predicate function, it ignored " ++
                    inflect (tp_kind tp) (num (count_res RIgnore rs) ++ txt " <messages>"))
         else match fl with [] => [] | _ => item (txt "verify the logic within the predicate function") end) ++
        concat (map item items))] /\
    (ex = true ->
     rp_expl r = inflect (tp_kind tp)
       ((if count_res RNil rs =? 0 then txt "none of the " else txt "only " ++ num (count_res RNil rs) ++ txt " of ") ++
        num (length rs - count_res RIgnore rs) ++ txt " relevant <messages> matched the predicate")).
Proof.
  intros P s fs tp pred near ex p T H Hno rs r. subst r.
  destruct (after_match _ _ _ _ _ _ _ H) as (calls & fl & ma & ig & ok & tr & -> & Ht). cbn in Hno. subst ok.
  destruct (Ht eq_refl) as (-> & Hg & Hma & Hig). fold rs in Hg, Hma, Hig. subst ma ig.
  cbn [report]. unfold match_report. cbn [orb cx_tree cx_inv].
  set (r0 := new_report _ _ _ _). assert (Hr0 : rp_sections r0 = []) by done. clearbody r0.
  assert (Hf := failed_section T fl r0 Hr0). set (r1 := foldl _ r0 fl) in *. clearbody r1.
  set (pre := match fl with [] => [] | _ => _ end) in *.
  assert (Hpre : suggestions ∉ pre.*1).
  { subst pre. destruct fl; cbn; [apply not_elem_of_nil|]. intros Hin. apply elem_of_list_singleton in Hin. done. }
  set (extra := if 0 <? count_res RIgnore rs
         then item (txt "verify the logic within the predicate function, it ignored " ++
                    inflect (tp_kind tp) (num (count_res RIgnore rs) ++ txt " <messages>"))
         else match fl with [] => [] | _ => item (txt "verify the logic within the predicate function") end).
  match goal with |- context [report_no_match _ ?x] => set (r2 := x) end.
  assert (Hr2 : says r2 pre extra).
  { assert (S1 : says (section suggestions [] r1) pre []) by (rewrite <- Hf; apply says_new; by rewrite Hf). subst r2 extra.
    destruct (0 <? count_res RIgnore rs); [by apply (says_section _ _ [])|]. destruct fl; cbn [nonempty]; [exact S1|]. by apply (says_section _ _ []). }
  clearbody r2. destruct (rnm_suggests s (tp_kind tp) fs r2 pre extra (or_intror Hr2)) as (items & Hs & _ & Hsec).
  exists fl, items. split_and!; [done | done | |].
  - destruct ex; exact Hsec.
  - intros ->. cbn [rp_expl set_expl]. f_equal.
    destruct (t_run_spec s (tp_kind tp) fs) as (_ & _ & _ & _ & -> & _).
    assert (Hlen : length (of_kind (tp_kind tp) (messages s fs)) = length rs).
    { subst rs. unfold all_results. generalize (of_kind (tp_kind tp) (messages s fs)) as ms. generalize (@nil Msg) as b. intros b ms. revert b.
      induction ms as [|m ms IH]; intros b; cbn [results]; [done|]. destruct (tp_assignable tp (m_type m)); cbn; by rewrite <- IH. }
    assert (Hle : count_res RIgnore rs <= length rs).
    { unfold count_res. generalize rs. intros l. induction l as [|[m r] l IH]; cbn; [lia|]. destruct r; cbn; lia. }
    rewrite Hlen. unfold num. rewrite Nat2Z.inj_sub by done. destruct (count_res RNil rs =? 0); by rewrite <- ?app_assoc.
Qed.
Print Assumptions C64_failures.

(** What [grouped] means in numbers. *)
Theorem C64_counts : forall l r, grouped l r ->
  NoDup (map (fun f => (fl_type f, fl_error f)) r) /\
  (forall f, f ∈ r -> fl_count f = length (filter (fun x => x = (fl_type f, fl_error f)) l)) /\
  sum_list (map fl_count r) = length l.
Proof.
  intros l r H. split_and!; [by eapply grouped_distinct | | by apply grouped_sum]. intros f Hf. by apply (grouped_count l r).
Qed.
Print Assumptions C64_counts.

(** ** C63 *)

(** If all handler types that could produce the message were disabled for the last
    dispatch cycle, the explanation says so. *)
Theorem C63_dispatch : forall {P : Params} s fs e k p T et,
  after s fs e p -> p_ok p = false -> bare_leaf s fs e k ->
  sc_match s = false -> last_cycle fs = Some et ->
  (forall ht, is_producer_of ht k = true -> et_get et ht = false) ->
  rp_expl (report T (mkCtx false false) p) = txt "no relevant handler types were enabled".
Proof.
  intros P s fs e k p T et H Hno Hl Hs Hc Hd. assert (Hx := C62_explanation s fs e k p T H Hno (or_introl Hl)).
  assert (Hu : ~ undiagnosed s k fs).
  { intros [?|[?|(_ & et' & ht & Hl' & H1 & H2)]]; [congruence.. |]. rewrite Hc in Hl'. inversion Hl'; subst et'. rewrite (Hd ht H1) in H2. done. }
  inversion Hx as [et' H1 H2 H3 Heq|et' ht H1 H2 H3 H4 H5 Heq|H1 H2 Heq|H1 H2 H3 Heq|H1 H2 H3 Heq|H1 H2 Heq]; try done.
  - rewrite Hc in H1. inversion H1; subst et'. rewrite (Hd ht H3) in H4. done.
  - congruence.
Qed.
Print Assumptions C63_dispatch.

(** A tick for which all handler types are disabled. *)
Definition off_ops : list Op :=
  [OpTick quietly 20 [hProj; hProc; hAgg; hInt]
     [OptNow 5%Z; OptType HTAggregate false; OptType HTProcess false; OptType HTIntegration false; OptType HTProjection false]].
Definition off_run := run_ops demo off_ops (e_init demo []).

(** A scope for the demo application, and texts. *)
Definition demo_scope (call : bool) : Scope :=
  mkScope (fun t => if bool_decide (t.1 = KCommand /\ t.2 = "Open"%string) then Some false
                    else if bool_decide (t.2 ∈ ["Opened"; "Notified"; "Notify"; "Remind"]) then Some true else None)
          (fun a b => bool_decide (b_data (m_body a) = b_data (m_body b))) call.
Definition demo_texts : RepTexts := mkRT (fun t => txt t.2) (fun m => txt (b_name (m_body m)) ++ num (b_data (m_body m))) (fun a b => a ++ txt "/" ++ b).

(** During ticks the diagnostics know nothing: although no handler that could produce the
    message was enabled, the report says nothing about it. *)
Theorem C63_refuted :
  exists (c : Config) u ops st evs s t p now et eh,
    history c u ops st evs true /\
    let fs := facts_of evs in
    TickCycleBegun now et eh ∈ fs /\ (forall ht, et_get et ht = false) /\
    after s fs (XType t) p /\ p_ok p = false /\ sc_match s = false /\
    let r := report demo_texts (mkCtx false false) p in
    rp_expl r = txt "no messages were produced at all" /\ rp_sections r = [(txt "Suggestions", [])].
Proof.
  exists demo, [], off_ops, off_run.1.1, off_run.1.2, (demo_scope false), (KEvent, "Opened"%string).
  assert (Hc : exists now et eh, match facts_of off_run.1.2 with TickCycleBegun a b d :: _ => (now, et, eh) = (a, b, d) | _ => False end).
  { do 3 eexists. vm_compute. reflexivity. }
  destruct Hc as (now & et & eh & Hf).
  assert (Hd : match facts_of off_run.1.2 with
               | TickCycleBegun _ b _ :: _ => forallb (fun ht => negb (et_get b ht)) [HTAggregate; HTProcess; HTIntegration; HTProjection] = true
               | _ => False end) by (vm_compute; reflexivity).
  assert (Hfin : off_run.2 = true) by (vm_compute; reflexivity).
  assert (Hr : exists p, after (demo_scope false) (facts_of off_run.1.2) (XType (KEvent, "Opened"%string)) p /\
     p_ok p = false /\ rp_expl (report demo_texts (mkCtx false false) p) = txt "no messages were produced at all" /\
     rp_sections (report demo_texts (mkCtx false false) p) = [(txt "Suggestions", [])]).
  { eexists. split; [eexists; split; [reflexivity|]; vm_compute; reflexivity|]. vm_compute. done. }
  destruct Hr as (p & H1 & H2 & H3 & H4). exists p, now, et, eh. split.
  { split; [apply demo_ok|]. split.
    - unfold off_ops. apply Forall_singleton. exact (tick_ok 0).
    - unfold off_run in *. destruct (run_ops _ _ _) as [[? ?] ?]. cbn in *. by subst. }
  cbv zeta. generalize dependent (facts_of off_run.1.2). intros fs Hf Hd H1. split_and!; try done.
  - destruct fs as [|[] fs]; try done. inversion Hf; subst. by left.
  - destruct fs as [|[] fs]; try done. inversion Hf; subst. cbn in Hd. intros ht. 
    repeat (apply andb_true_iff in Hd; destruct Hd as [? Hd]). destruct ht; by apply negb_true_iff.
Qed.
Print Assumptions C63_refuted.

(** ** Examples: the facts of a history of the demo application. *)
Definition demo_facts : list Fact := facts_of demo_evs.
Definition names_event (n : string) : TParam := TConcrete (KEvent, n).

(** An expectation tree with every connective; it is met. *)
Definition tree : Exp :=
  XComp CAll
    [XMessage (event "Opened" 4);
     XNot (XMessage (event "Opened" 5));
     XComp CNone [XMessage (event "Opened" 6); XType (KCommand, "Opened"%string)];
     XRepeat (txt "twice") 2 (fun i => Some (XComp CAny [XType (KEvent, "Notified"%string); XMessage (event "Opened" i)]));
     XMatch (names_event "Notified") (fun before m => if 1 <? length before then RNil else RErr "too early"%string) (txt "x.go:1") false].
Example C49_example :
  exists p, after (demo_scope false) demo_facts tree p /\ p_ok p = true /\ stays true (XComp CAny [XType (KEvent, "Notified"%string); XMessage (event "Opened" 1)]).
Proof.
  eexists. split; [eexists; split; [reflexivity|]; vm_compute; reflexivity|]. split; [vm_compute; reflexivity|].
  constructor. intros e He. repeat (apply elem_of_cons in He; destruct He as [->|He]; [constructor|]). by apply elem_of_nil in He.
Qed.

(** Failed ones, with their explanations. *)
Definition explanation (call : bool) (fs : list Fact) (e : Exp) : option (bool * string * list (string * string)) :=
  match new_predicate (demo_scope call) e with
  | inl p =>
    let p := (p_done (foldl (fun p f => notify f p) p fs)).1 in
    let r := report demo_texts (mkCtx false false) p in
    Some (p_ok p, string_of_list_ascii (rp_expl r),
          map (fun x => (string_of_list_ascii x.1, string_of_list_ascii x.2)) (rp_sections r))
  | inr _ => None
  end.
Example C62_example_similar :
  explanation false demo_facts (XMessage (event "Opened" 5)) =
  Some (false, "a similar event was recorded by the 'agg' aggregate message handler"%string,
        [("Suggestions", "• check the content of the message
"); ("Message Diff", "Opened5/Opened7")]%string).
Proof. vm_compute. reflexivity. Qed.
Example C64_example :
  explanation false demo_facts (XMatch (names_event "Notified")
    (fun before m => if Nat.eqb (length before) 1 then RNil else RErr "no"%string) (txt "x.go:1") true) =
  Some (false, "only 1 of 5 relevant events matched the predicate"%string,
        [("Failed Matches", "• Opened: predicate function expected Notified (repeated 2 times)
• Notified: no (repeated 2 times)
"); ("Suggestions", "• verify the logic within the predicate function
• verify the logic within the 'agg' aggregate message handler
• verify the logic within the 'int' integration message handler
")]%string).
Proof. vm_compute. reflexivity. Qed.
(** A failed repetition: iterations 0 and 1 of 3 fail. *)
Example C61_example :
  exists p, after (demo_scope false) demo_facts (XRepeat (txt "thrice") 3 (fun i => Some (XMessage (event "Opened" (i + 2))))) p /\
    p_ok p = false /\
    string_of_list_ascii (rp_outcome (report demo_texts (mkCtx false false) p)) = "2 of 3 iteration(s) failed, iteration #0 shown"%string.
Proof.
  eexists. split; [eexists; split; [reflexivity|]; vm_compute; reflexivity|]. split; vm_compute; reflexivity.
Qed.
Example C50_example : impossible (demo_scope false) (XNot (XType (KCommand, "Open"%string))) /\ ~ impossible (demo_scope true) (XNot (XType (KCommand, "Open"%string))).
Proof.
  split; [constructor; constructor; right; split; vm_compute; reflexivity|]. rewrite <- C50_rejected. intros (er & H). vm_compute in H. done.
Qed.
