(** * Proofs about writers *)
From Verif Require Export WriterSpec.

(** ** Indentation *)

Definition after (b : bool) (s : text) : bool := match last s with Some c => bool_decide (c = nl) | None => b end.
Lemma after_cons b c s : after b (c :: s) = after (bool_decide (c = nl)) s.
Proof. unfold after. rewrite last_cons. by destruct (last s). Qed.
Lemma after_app b s t : after b (s ++ t) = after (after b s) t.
Proof. unfold after. rewrite last_app. by destruct (last t). Qed.
Lemma indent_from_app p b s t : indent_from p b (s ++ t) = indent_from p b s ++ indent_from p (after b s) t.
Proof.
  revert b. induction s as [|c s IH]; intros b; [done|]. cbn [app indent_from]. rewrite IH, after_cons.
  by rewrite <- app_assoc, <- app_comm_cons.
Qed.

(** A line: it is not empty, and only its last character may be a line break. *)
Definition line (x : text) : Prop := exists y c, x = y ++ [c] /\ nl ∉ y.
Lemma pieces_lines s : concat (pieces s) = s /\ Forall line (pieces s).
Proof.
  induction s as [|c s [IH1 IH2]]; [by split; [|constructor]|]. cbn. case_bool_decide as Hc.
  - cbn. rewrite IH1. split; [done|]. constructor; [|done]. exists [], c. split; [done|]. apply not_elem_of_nil.
  - destruct (pieces s) as [|l ls].
    + cbn in *. subst s. split; [done|]. constructor; [|done]. exists [], c. split; [done|]. apply not_elem_of_nil.
    + cbn in *. subst s. split; [done|]. apply Forall_cons in IH2 as [Hl Hls]. constructor; [|done].
      destruct Hl as (y & d & -> & Hy). exists (c :: y), d. split; [done|]. apply not_elem_of_cons. by split.
Qed.
Lemma indent_line p b x : line x -> indent_from p b x = (if b then p else []) ++ x.
Proof.
  intros (y & c & -> & Hy). rewrite indent_from_app.
  assert (H : forall y, nl ∉ y -> indent_from p false y = y).
  { clear. induction y as [|d y IH]; intros Hy; [done|]. apply not_elem_of_cons in Hy as [Hd Hy]. cbn.
    rewrite bool_decide_eq_false_2 by congruence. by rewrite IH. }
  destruct y as [|d y]; cbn [indent_from app].
  - by destruct b.
  - apply not_elem_of_cons in Hy as [Hd Hy]. rewrite bool_decide_eq_false_2 by congruence. rewrite H by done.
    assert (Ha : after b (d :: y) = false).
    { unfold after. destruct (last (d :: y)) as [z|] eqn:E; [|by apply last_None in E].
      apply bool_decide_eq_false_2. intros ->. apply last_Some in E as [l E].
      assert (nl ∈ d :: y) by (rewrite E; apply elem_of_app; right; by left).
      apply elem_of_cons in H0 as [|]; done. }
    rewrite Ha. cbn. rewrite <- app_assoc. done.
Qed.
Lemma line_after b x : line x -> after b x = match last x with Some c => bool_decide (c = nl) | None => false end.
Proof. intros (y & c & -> & _). unfold after. by rewrite last_snoc. Qed.

(** ** What arrives at the user's writer *)

Fixpoint base {ls} : State ls -> Calls :=
  match ls with
  | [] => fun st => st
  | LCount :: _ => fun st => base st.2
  | LIndent _ :: _ => fun st => base st.2
  end.
Fixpoint Shape (ls : list Layer) : Type :=
  match ls with
  | [] => unit
  | LCount :: ls => Shape ls
  | LIndent _ :: ls => bool * Shape ls
  end%type.
Fixpoint shape {ls} : State ls -> Shape ls :=
  match ls with
  | [] => fun _ => tt
  | LCount :: _ => fun st => shape st.2
  | LIndent _ :: _ => fun st => (st.1, shape st.2)
  end.
Fixpoint sends {ls} : Shape ls -> text -> text :=
  match ls with
  | [] => fun _ s => s
  | LCount :: ls => fun sh => sends (ls := ls) sh
  | LIndent p :: _ => fun sh s => sends sh.2 (indent_from p sh.1 s)
  end.
Fixpoint next {ls} : Shape ls -> text -> Shape ls :=
  match ls with
  | [] => fun sh _ => sh
  | LCount :: ls => fun sh => next (ls := ls) sh
  | LIndent p :: _ => fun sh s => (after sh.1 s, next sh.2 (indent_from p sh.1 s))
  end.
Lemma sends_app ls (sh : Shape ls) s t : sends sh (s ++ t) = sends sh s ++ sends (next sh s) t.
Proof.
  revert sh s t. induction ls as [|[|p] ls IH]; intros sh s t; cbn; [done|apply IH|]. by rewrite indent_from_app, IH.
Qed.
Lemma next_app ls (sh : Shape ls) s t : next sh (s ++ t) = next (next sh s) t.
Proof.
  revert sh s t. induction ls as [|[|p] ls IH]; intros sh s t; cbn; [done|apply IH|]. by rewrite indent_from_app, IH, after_app.
Qed.
Lemma sends_nil ls (sh : Shape ls) : sends sh [] = [].
Proof. revert sh. induction ls as [|[|p] ls IH]; intros sh; cbn; [done|apply IH|apply IH]. Qed.
Lemma next_nil ls (sh : Shape ls) : next sh [] = sh.
Proof. revert sh. induction ls as [|[|p] ls IH]; intros sh; cbn; [by destruct sh|apply IH|]. rewrite IH. by destruct sh. Qed.

(** The count of the layer around the user's writer. *)
Fixpoint tally {ls} : State ls -> nat :=
  match ls with
  | [] => fun _ => 0
  | LCount :: ls' => match ls' as l return (State l -> nat) -> State (LCount :: l) -> nat with
                     | [] => fun _ st => st.1
                     | _ => fun f st => f st.2
                     end tally
  | LIndent _ :: _ => fun st => tally st.2
  end.
Definition tallied (ls : list Layer) : Prop := last ls = Some LCount.

Section Proofs.
Context (k : Sink) (Hk : is_writer k).

(** From [st] to [st'] the text [t] was written. *)
Record wrote {ls} (st st' : State ls) (t : text) : Prop := {
  wr_well : all_well k (base st');
  wr_got : received (base st') = received (base st) ++ sends (shape st) t;
  wr_shape : shape st' = next (shape st) t;
  wr_tally : tallied ls -> tally st' = tally st + length (sends (shape st) t) }.
(** From [st] to [st'], while [t] was being written, the user's writer failed. *)
Record broke {ls} (st st' : State ls) (t : text) (e : string) : Prop := {
  br_failed : failed_with k (base st') e;
  br_got : exists x, x `prefix_of` sends (shape st) t /\ received (base st') = received (base st) ++ x }.
Arguments wr_well {ls st st' t}. Arguments wr_got {ls st st' t}. Arguments wr_shape {ls st st' t}. Arguments wr_tally {ls st st' t}.

Lemma wrote_nil {ls} (st : State ls) : all_well k (base st) -> wrote st st [].
Proof. intros H. split; [done| | |]; rewrite ?sends_nil, ?next_nil, ?app_nil_r; [done|done|]. intros _. cbn. lia. Qed.
Lemma wrote_app {ls} (st st1 st2 : State ls) s t : wrote st st1 s -> wrote st1 st2 t -> wrote st st2 (s ++ t).
Proof.
  intros [A1 A2 A3 A4] [B1 B2 B3 B4]. split; [done| | |].
  - by rewrite B2, A2, sends_app, A3, app_assoc.
  - by rewrite B3, A3, next_app.
  - intros H. rewrite B4, A4, sends_app, app_length, A3 by done. lia.
Qed.
Lemma broke_app_l {ls} (st st' : State ls) s t e : broke st st' s e -> broke st st' (s ++ t) e.
Proof.
  intros [A (x & Hx & Hr)]. split; [done|]. exists x. split; [|done]. rewrite sends_app. by apply prefix_app_r.
Qed.
Lemma broke_app_r {ls} (st st1 st2 : State ls) s t e : wrote st st1 s -> broke st1 st2 t e -> broke st st2 (s ++ t) e.
Proof.
  intros [A1 A2 A3 _] [B (x & Hx & Hr)]. split; [done|]. exists (sends (shape st) s ++ x). split.
  - rewrite sends_app. apply prefix_app. by rewrite <- A3.
  - by rewrite Hr, A2, app_assoc.
Qed.

(** *** Write() *)

Definition puts {ls} (f : State ls -> State ls * Res) (t : text) : Prop := forall st, all_well k (base st) ->
  match f st with
  | (st', (n, None)) => wrote st st' t /\ (ls = [] -> n = length t)
  | (st', (n, Some e)) => broke st st' t e
  end.

Lemma received_snoc calls s n : received (calls ++ [(s, n)]) = received calls ++ take n s.
Proof. unfold received. rewrite map_app, concat_app. cbn. by rewrite app_nil_r. Qed.
Lemma well_snoc calls s n : all_well k calls -> k calls s = (n, None) -> all_well k (calls ++ [(s, n)]).
Proof.
  intros H He l1 s' n' l2 Heq. destruct l2 as [|y l2 _] using rev_ind.
  - apply app_inj_tail in Heq as [-> [= -> ->]]. done.
  - change ((s', n') :: l2 ++ [y]) with (((s', n') :: l2) ++ [y]) in Heq. rewrite app_assoc in Heq.
    apply app_inj_tail in Heq as [Heq _]. by eapply H.
Qed.

(** A writer around a writer: the states of the inner one. *)
Lemma wrote_count {ls} c (st st' : State ls) c' t n :
  wrote st st' t -> (ls = [] -> n = length t) -> c' = c + n ->
  wrote (ls := LCount :: ls) (c, st) (c', st') t.
Proof.
  intros [A1 A2 A3 A4] Hn ->. split; [exact A1|exact A2|exact A3|].
  intros Ht. unfold tallied in Ht. destruct ls as [|l ls]; [cbn; by rewrite Hn|].
  cbn [tally snd]. apply A4. exact Ht.
Qed.
Lemma wrote_indent {ls} p b (st st' : State ls) b' t :
  wrote st st' (indent_from p b t) -> b' = after b t -> wrote (ls := LIndent p :: ls) (b, st) (b', st') t.
Proof.
  intros [A1 A2 A3 A4] ->. split; [exact A1|exact A2| |].
  - cbn. by rewrite A3.
  - intros Ht. unfold tallied in Ht. destruct ls as [|l ls]; [done|]. cbn [tally snd]. apply A4. exact Ht.
Qed.

Lemma pieces_put {ls} p (wr : State ls -> text -> State ls * Res) :
  (forall s, puts (fun st => wr st s) s) ->
  forall l b n st, Forall line l -> all_well k (base st) ->
    match write_pieces wr p b n l st with
    | (b', st', (_, None)) => wrote st st' (indent_from p b (concat l)) /\ b' = after b (concat l)
    | (b', st', (_, Some e)) => broke st st' (indent_from p b (concat l)) e
    end.
Proof.
  intros Hwr l. induction l as [|x l IH]; intros b n st Hl Hw.
  - cbn. split; [by apply wrote_nil|done].
  - apply Forall_cons in Hl as [Hx Hl]. cbn [write_pieces concat].
    rewrite indent_from_app, after_app, indent_line by done.
    assert (H1 : match (if b then wr st p else (st, (0, None))) with
                 | (st', (n, None)) => wrote st st' (if b then p else [])
                 | (st', (n, Some e)) => broke st st' (if b then p else []) e end).
    { destruct b; [|by apply wrote_nil]. assert (H := Hwr p st Hw). cbn beta in H.
      destruct (wr st p) as [st' [n' [e|]]]; [done|]. by destruct H. }
    destruct (if b then wr st p else (st, (0, None))) as [st1 [n1 [e|]]].
    { rewrite <- app_assoc. by apply broke_app_l. }
    assert (H2 := Hwr x st1 (wr_well H1)). cbn beta in H2. destruct (wr st1 x) as [st2 [n2 [e|]]].
    { rewrite <- app_assoc. eapply broke_app_r; [exact H1|]. by apply broke_app_l. }
    destruct H2 as [H2 _]. assert (H12 := wrote_app _ _ _ _ _ H1 H2).
    specialize (IH (match last x with Some c => bool_decide (c = nl) | None => false end) (n + n1 + n2) st2 Hl (wr_well H12)).
    rewrite (line_after b x Hx).
    destruct (write_pieces wr p _ (n + n1 + n2) l st2) as [[b' st3] [n3 [e|]]].
    + eapply broke_app_r; [exact H12|exact IH].
    + destruct IH as [IH1 IH2]. split; [by eapply wrote_app|done].
Qed.

Lemma write_puts ls s : puts (fun st => write k ls st s) s.
Proof.
  revert s. induction ls as [|[|p] ls IH]; intros s st Hw.
  - cbn in st. cbn [write]. destruct (k st s) as [n e] eqn:E. destruct (Hk _ _ _ _ E) as [Hn He]. destruct e as [e|].
    + split.
      * exists st, s, n. done.
      * exists (take n s). split; [|apply received_snoc]. exists (drop n s). cbn. by rewrite take_drop.
    + specialize (He eq_refl). subst n. split; [|done]. split; [by apply well_snoc| |done|done].
      change (received (st ++ [(s, length s)]) = received st ++ s). by rewrite received_snoc, firstn_all.
  - destruct st as [c st]. assert (H := IH s st Hw). cbn beta in H. cbn [write fst snd].
    destruct (write k ls st s) as [st' [n [e|]]].
    + destruct H as [A B]. split; [exact A|exact B].
    + destruct H as [H Hn]. split; [by eapply wrote_count|done].
  - destruct st as [b st]. cbn [write fst snd]. destruct (pieces_lines s) as [Hc Hl].
    assert (H := pieces_put p (write k ls) IH (pieces s) b 0 st Hl Hw). rewrite Hc in H.
    destruct (write_pieces (write k ls) p b 0 (pieces s) st) as [[b' st'] [n [e|]]].
    + destruct H as [A B]. split; [exact A|exact B].
    + destruct H as [H1 H2]. split; [by apply wrote_indent|done].
Qed.

(** *** Code that writes *)

Definition does {ls} (m : Must ls nat) (t : text) (R : nat -> Prop) : Prop := forall st, all_well k (base st) ->
  match m st with
  | (st', inl n) => wrote st st' t /\ R n
  | (st', inr e) => broke st st' t e
  end.
Lemma does_ret {ls} n (R : nat -> Prop) : R n -> does (ls := ls) (mret n) [] R.
Proof. intros HR st Hw. cbn. split; [by apply wrote_nil|done]. Qed.
Lemma does_bind {ls} (m : Must ls nat) f s t (R R' : nat -> Prop) :
  does m s R' -> (forall n, R' n -> does (f n) t R) -> does (mbind m f) (s ++ t) R.
Proof.
  intros Hm Hf st Hw. unfold mbind. assert (H := Hm st Hw). destruct (m st) as [st1 [n|e]]; [|by apply broke_app_l].
  destruct H as [H HR]. assert (H2 := Hf n HR st1 (wr_well H)). destruct (f n st1) as [st2 [n'|e]].
  - destruct H2 as [H2 HR2]. split; [by eapply wrote_app|done].
  - by eapply broke_app_r.
Qed.
Lemma does_weaken {ls} (m : Must ls nat) t (R R' : nat -> Prop) : does m t R' -> (forall n, R' n -> R n) -> does m t R.
Proof. intros Hm HR st Hw. assert (H := Hm st Hw). destruct (m st) as [st1 [n|e]]; [|done]. destruct H. auto. Qed.
Lemma does_bind_ret {ls} (m : Must ls nat) g s (R R' : nat -> Prop) :
  does m s R' -> (forall n, R' n -> R (g n)) -> does (mbind m (fun n => mret (g n))) s R.
Proof. intros Hm HR. rewrite <- (app_nil_r s). eapply does_bind; [exact Hm|]. intros n Hn. apply does_ret. auto. Qed.
Lemma does_eq {ls} (m : Must ls nat) s t R : does m s R -> s = t -> does m t R.
Proof. by intros H <-. Qed.

Definition counts (ls : list Layer) (t : text) (n : nat) : Prop := ls = [] -> n = length t.
Lemma does_write_to {ls} (f : WriterTo) t : puts (f ls) t -> does (ls := ls) (must_write_to f) t (counts ls t).
Proof.
  intros Hf st Hw. unfold must_write_to. assert (H := Hf st Hw). by destruct (f ls st) as [st' [n [e|]]].
Qed.
Lemma does_write {ls} s : does (ls := ls) (must_write k s) s (counts ls s).
Proof. apply does_write_to. apply write_puts. Qed.

Notation any := (fun _ : nat => True).
Lemma does_any {ls} (m : Must ls nat) t R : does m t R -> does m t any.
Proof. intros H. by eapply does_weaken. Qed.
Lemma does_seq {ls} (m m' : Must ls nat) s t : does m s any -> does m' t any -> does (mbind m (fun _ => m')) (s ++ t) any.
Proof. intros H H'. eapply does_bind; [exact H|]. by intros n _. Qed.
Lemma does_put {ls} s : does (ls := ls) (must_write k s) s any.
Proof. eapply does_any, does_write. Qed.
Lemma does_nothing {ls} : does (ls := ls) (mret 0) [] any.
Proof. by apply does_ret. Qed.

Lemma does_indenting {ls} p (m : Must (LIndent p :: ls) nat) t : does m t any -> does (indenting p m) (indent p t) any.
Proof.
  intros Hm st Hw. unfold indenting. assert (H := Hm (true, st) Hw). destruct (m (true, st)) as [[b st'] [n|e]]; cbn [snd].
  - destruct H as [[A1 A2 A3 A4] _]. split; [|done]. split; [exact A1|exact A2| |].
    + cbn in A3. by injection A3.
    + intros Ht. apply A4. unfold tallied in *. by rewrite last_cons, Ht.
  - destruct H as [A B]. split; [exact A|exact B].
Qed.
Lemma puts_counting {ls} (m : Must (LCount :: ls) nat) t : does m t any -> puts (recovering (counting m)) t.
Proof.
  intros Hm st Hw. unfold recovering, counting. assert (H := Hm (0, st) Hw). destruct (m (0, st)) as [[c st'] [n|e]]; cbn [fst snd].
  - destruct H as [[A1 A2 A3 A4] _]. split.
    + split; [exact A1|exact A2|exact A3|]. intros Ht. unfold tallied in *. destruct ls as [|l ls]; [done|]. apply A4.
      by rewrite last_cons, Ht.
    + intros ->. apply (A4 eq_refl).
  - destruct H as [A B]. split; [exact A|exact B].
Qed.

(** *** Reports *)

Lemma does_head {ls} r : does (ls := ls) (must_head k r) (write_head r) any.
Proof.
  unfold must_head, write_head. apply does_seq; [apply does_put|]. apply does_seq; [apply does_put|].
  apply does_seq; [|apply does_put]. destruct (rp_outcome r) as [|c o]; [apply does_nothing|].
  apply does_seq; [apply does_put|]. apply does_seq; apply does_put.
Qed.
Lemma does_sections {ls} l : does (ls := ls) (must_sections k l) (write_sections l) any.
Proof.
  induction l as [|[title content] l IH]; [apply does_nothing|]. cbn [must_sections write_sections].
  do 4 (apply does_seq; [apply does_put|]). apply does_seq; [|exact IH]. destruct l; [apply does_nothing|apply does_put].
Qed.
Lemma does_body {ls} r : does (ls := ls) (must_body k r) (write_body r) any.
Proof.
  unfold must_body, write_body. set (sections := List.filter _ _). destruct (_ || _); [|apply does_nothing].
  apply does_seq; [apply does_put|]. apply does_indenting. apply does_seq; [|apply does_sections].
  destruct (rp_expl r) as [|c e]; [apply does_nothing|]. rewrite app_assoc. apply does_seq; [apply does_put|].
  do 2 (apply does_seq; [apply does_put|]). destruct sections; [apply does_nothing|apply does_put].
Qed.

Fixpoint report_ind' (Q : Report -> Prop) (H : forall r, Forall Q (rp_sub r) -> Q r) (r : Report) : Q r :=
  H r (match r with
       | mkRep _ _ _ _ _ _ subs =>
         (fix go (l : list Report) : Forall Q l :=
            match l with [] => Forall_nil_2 _ | x :: l => Forall_cons_2 _ _ _ (report_ind' Q H x) (go l) end) subs
       end).

Lemma report_puts r : forall ls, puts (report_write_to k r ls) (write_to r).
Proof.
  induction r as [r IH] using report_ind'. intros ls. destruct r as [tr ok cr oc ex secs subs]. cbn [rp_sub] in IH.
  set (r := mkRep tr ok cr oc ex secs subs). unfold r at 1 2. cbn [report_write_to write_to]. fold r.
  apply puts_counting. apply does_seq; [apply does_head|]. apply does_seq; [apply does_body|]. unfold r. cbn [rp_sub].
  assert (H : forall l, Forall (fun r => forall ls, puts (report_write_to k r ls) (write_to r)) l ->
    does ((fix subs (l : list Report) : Must (LIndent (txt "    ") :: LCount :: ls) nat :=
            match l with [] => mret 0 | sr :: l => mbind (must_write_to (report_write_to k sr)) (fun _ => subs l) end) l)
      (concat (map write_to l)) any).
  { intros l Hl. induction Hl as [|x l Hx Hl IHl]; [apply does_nothing|]. cbn [map concat].
    apply does_seq; [|exact IHl]. eapply does_any, does_write_to, Hx. }
  destruct subs as [|s0 subs]; [apply does_nothing|]. apply does_indenting. exact (H (s0 :: subs) IH).
Qed.

(** *** Log lines *)

Lemma does_bind_n {ls} (m : Must ls nat) f s t :
  does m s (counts ls s) -> (forall n, counts ls s n -> does (f n) t (counts ls (s ++ t))) ->
  does (mbind m f) (s ++ t) (counts ls (s ++ t)).
Proof. apply does_bind. Qed.
Lemma counts_app ls s t n n' : counts ls s n -> counts ls t n' -> counts ls (s ++ t) (n + n').
Proof. intros H H' He. rewrite app_length, H, H' by done. done. Qed.
Lemma does_add {ls} (m m' : Must ls nat) s t :
  does m s (counts ls s) -> does m' t (counts ls t) ->
  does (mbind m (fun n => mbind m' (fun n' => mret (n + n')))) (s ++ t) (counts ls (s ++ t)).
Proof.
  intros H H'. apply does_bind_n; [exact H|]. intros n Hn. 
  eapply does_bind_ret; [exact H'|]. intros n' Hn'. by apply counts_app.
Qed.
Lemma does_each {ls A} (f : A -> Must ls nat) (g : A -> text) l :
  (forall x, does (f x) (g x) (counts ls (g x))) -> does (each f l) (concat (map g l)) (counts ls (concat (map g l))).
Proof. intros H. induction l as [|x l IH]; [by apply does_ret|]. cbn [each map concat]. apply does_add; [apply H|exact IH]. Qed.

Lemma icon_puts i ls : puts (icon_write_to k i ls) (write_icon i).
Proof. unfold icon_write_to, write_icon. apply write_puts. Qed.
Lemma does_icon {ls} i : does (ls := ls) (must_write_to (icon_write_to k i)) (write_icon i) (counts ls (write_icon i)).
Proof. apply does_write_to, icon_puts. Qed.
Lemma puts_recovering {ls} (m : Must ls nat) t : does m t (counts ls t) -> puts (recovering m) t.
Proof. intros H st Hw. unfold recovering. assert (Hm := H st Hw). by destruct (m st) as [st' [n|e]]. Qed.
Lemma labelled_puts x ls : puts (labelled_write_to k x ls) (write_labelled x).
Proof.
  unfold labelled_write_to, write_labelled. apply puts_recovering.
  eapply does_bind; [apply does_icon|]. intros n1 H1. eapply does_bind; [apply does_write|]. intros n2 H2.
  eapply does_bind_ret; [apply does_write|]. intros n3 H3.
  rewrite app_assoc. apply counts_app; [|done]. by apply counts_app.
Qed.
Lemma does_texts {ls} i ts : does (ls := ls) (must_texts k i ts) (write_texts i ts) (counts ls (write_texts i ts)).
Proof.
  revert i. induction ts as [|t ts IH]; intros i; [by apply does_ret|]. destruct t as [|c t]; [apply IH|].
  cbn [must_texts write_texts]. eapply does_bind; [apply does_write|]. intros n1 H1.
  apply (does_bind _ _ _ _ _ (counts ls (if 0 <? i then write_icon SeparatorIcon ++ space1 else []))).
  { destruct (0 <? i); [|by apply does_ret]. apply does_add; [apply does_icon|apply does_write]. }
  intros n2 H2. eapply does_bind; [apply does_write|]. intros n3 H3. 
  eapply does_bind_ret; [apply IH|]. intros n4 H4. rewrite !app_assoc.
  apply counts_app; [|done]. apply counts_app; [|done]. by apply counts_app.
Qed.
Lemma line_puts ids icons ts ls : puts (line_write k ids icons ts ls) (line_string ids icons ts).
Proof.
  unfold line_write, line_string. apply puts_recovering. unfold must_line.
  eapply does_bind; [apply (does_each _ (fun v => write_labelled v ++ space2))|].
  { intros x. apply does_add; [|apply does_write]. apply does_write_to, labelled_puts. }
  intros n1 H1. eapply does_bind; [apply (does_each _ (fun v => write_icon v ++ space1))|].
  { intros x. apply does_add; [apply does_icon|apply does_write]. }
  intros n2 H2. 
  eapply does_bind_ret; [apply does_texts|]. intros n3 H3. rewrite app_assoc.
  apply counts_app; [|done]. by apply counts_app.
Qed.

(** After an error, methods WriteTo() return zero. *)
Lemma recovering_zero {ls} (m : Must ls nat) st st' n e : recovering m st = (st', (n, Some e)) -> n = 0.
Proof. unfold recovering. destruct (m st) as [s [x|x]]; intros [= <- <- <-]. done. Qed.
Lemma puts_writes (f : WriterTo) t :
  puts (f []) t -> (forall st st' n e, f [] st = (st', (n, Some e)) -> n = 0) -> writes k f t.
Proof.
  intros Hp Hz. unfold writes. assert (Hw : all_well k (base (ls := []) [])).
  { intros l1 s n l2 H. cbn in H. by destruct l1. }
  assert (H := Hp [] Hw). specialize (Hz []). destruct (f [] []) as [calls [n [e|]]].
  - destruct H as [A (x & Hx & Hr)]. change (received calls = x) in Hr. split; [exact A|]. split; [by rewrite Hr|]. by eapply Hz.
  - destruct H as [[A1 A2 A3 A4] Hn]. split; [exact A1|]. split; [exact A2|]. by apply Hn.
Qed.
End Proofs.
