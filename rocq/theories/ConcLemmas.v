(** * Proofs about concurrent use of an engine. *)
From Verif Require Export ConcSpec.
From Verif Require Import EnvProof.

Section ConcLemmas.
Context {S F E : Type}.
Implicit Types tr : list (OpId * Label F E).
Context (calls : list (list (Call S F E))) (s0 : S).

(** ** Traces *)
Lemma holder_snoc tr (o : OpId) (l : Label F E) :
  holder (tr ++ [(o, l)]) = match l with LLock => Some o | LUnlock => None | _ => holder tr end.
Proof. unfold holder. rewrite foldl_app. done. Qed.
Lemma sections_snoc tr (e : OpId * Label F E) : sections (tr ++ [e]) = add_step e (sections tr).
Proof. unfold sections. rewrite foldl_app. done. Qed.
Lemma own_id_snoc tr (e : OpId * Label F E) o :
  own_id o (tr ++ [e]) = match own_id o tr with
                         | Some i => Some i
                         | None => match e.2 with LNext id => if decide (e.1 = o) then Some id else None | _ => None end
                         end.
Proof.
  unfold own_id. rewrite omap_app. destruct (omap _ tr); [|done]. cbn.
  destruct e as [o' []]; cbn; try done. destruct (decide _); done.
Qed.
Lemma own_id_keep tr e o i : own_id o tr = Some i -> own_id o (tr ++ [e]) = Some i.
Proof. intros H. rewrite own_id_snoc, H. done. Qed.
Lemma own_id_other tr (o o' : OpId) (l : Label F E) : o' <> o -> own_id o (tr ++ [(o', l)]) = own_id o tr.
Proof.
  intros H. rewrite own_id_snoc. destruct (own_id o tr); [done|]. cbn. destruct l; try done.
  destruct (decide _); done.
Qed.
Lemma own_id_same tr (o o' : OpId) (l : Label F E) : (forall i, l <> LNext i) -> own_id o (tr ++ [(o', l)]) = own_id o tr.
Proof. intros H. rewrite own_id_snoc. destruct (own_id o tr); [done|]. cbn. destruct l; try done. by destruct (H id). Qed.

Lemma call_alone_id c id id' s ls s' :
  (forall i, id = Some i -> id' = Some i) -> CallAlone c id s ls s' -> CallAlone (S:=S) (F:=F) (E:=E) c id' s ls s'.
Proof. intros Hi. destruct c; cbn; [|done..]. intros (i & ls' & r & Hid & H). exists i, ls', r. split; [auto|done]. Qed.
Lemma serially_keep tr e s l s' : Serially calls tr s l s' -> Serially calls (tr ++ [e]) s l s'.
Proof.
  induction 1 as [|o c ls l s s' s'' Hc Ha _ IH]; [constructor|]. econstructor; [done| |exact IH].
  eapply call_alone_id; [|exact Ha]. intros i. apply own_id_keep.
Qed.
Lemma serially_snoc tr s l s' o c ls s'' :
  Serially calls tr s l s' -> call_at calls o = Some c -> CallAlone c (own_id o tr) s' ls s'' ->
  Serially calls tr s (l ++ [(o, ls)]) s''.
Proof. induction 1; intros Hc Ha; cbn; econstructor; eauto. constructor. Qed.

Lemma add_step_other (o : OpId) (l : Label F E) ss :
  l <> LLock -> o ∉ ss.*1 -> add_step (o, l) ss = ss.
Proof.
  intros Hl Ho. assert (Hid : (fun p : OpId * list (Label F E) => if decide (p.1 = o) then (p.1, p.2 ++ [l]) else p) <$> ss = ss).
  { clear Hl. induction ss as [|[o' ls] ss IH]; [done|]. cbn in *. apply not_elem_of_cons in Ho as [Hn Ho].
    rewrite decide_False by done. f_equal. auto. }
  destruct l; try done.
Qed.
Lemma add_step_last (o : OpId) (l : Label F E) ss ls :
  l <> LLock -> l <> LUnlock -> (forall r, l <> LEnd r) -> o ∉ ss.*1 -> add_step (o, l) (ss ++ [(o, ls)]) = ss ++ [(o, ls ++ [l])].
Proof.
  intros H1 H2 H3 Ho.
  assert (H : (fun p : OpId * list (Label F E) => if decide (p.1 = o) then (p.1, p.2 ++ [l]) else p) <$> (ss ++ [(o, ls)]) = ss ++ [(o, ls ++ [l])]).
  { rewrite fmap_app. cbn. rewrite decide_True by done. f_equal. clear -Ho. induction ss as [|[o' ls'] ss IH]; [done|]. cbn in *.
    apply not_elem_of_cons in Ho as [Hn Ho]. rewrite decide_False by done. f_equal. auto. }
  destruct l; try done. by destruct (H3 r).
Qed.
Lemma add_step_fst (o : OpId) (l : Label F E) ss : l <> LLock -> (add_step (o, l) ss).*1 = ss.*1.
Proof.
  intros Hl.
  assert (H : ((fun p : OpId * list (Label F E) => if decide (p.1 = o) then (p.1, p.2 ++ [l]) else p) <$> ss).*1 = ss.*1).
  { clear Hl. induction ss as [|[o' ls'] ss IH]; [done|]. cbn. f_equal; [by destruct (decide _)|done]. }
  destruct l; done.
Qed.
Lemma locked_sections tr o : o ∈ (sections tr).*1 <-> (o, LLock) ∈ tr.
Proof.
  induction tr as [|[o' l] tr IH] using rev_ind; [split; intros H; by apply elem_of_nil in H|]. rewrite sections_snoc, elem_of_app, elem_of_list_singleton.
  assert (Hl : l <> LLock -> o ∈ (add_step (o', l) (sections tr)).*1 <-> (o, LLock) ∈ tr \/ (o, LLock) = (o', l)).
  { intros Hl. rewrite add_step_fst by done. rewrite IH. split; [auto|]. intros [H|[= _ H]]; [done|]. by destruct Hl. }
  destruct l; try (apply Hl; done). clear Hl. cbn. rewrite fmap_app, elem_of_app. cbn. rewrite elem_of_list_singleton.
  rewrite IH. split; intros [H|H]; auto; right; [by rewrite H|congruence].
Qed.

(** ** The invariant *)

(** What is left of a call that has locked the mutex. *)
Definition ret_code (fin : option (E -> F)) (e : E) : Code S F E :=
  match fin with
  | Some f => CNotify (f e) (CUnlock (CEnd (Returned e)))
  | None => CUnlock (CEnd (Returned e))
  end.
Definition fin_labels (fin : option (E -> F)) (r : Ret E) : list (Label F E) :=
  match fin with Some f => closing f r | None => [] end.
Definition inside_code (b : Body S F E) (fin : option (E -> F)) : Code S F E :=
  run_body b (ret_code fin) (CUnlock (CEnd Panicked)).

(** The code of a call that has not locked the mutex yet. *)
Definition d_locked (body : string -> Body S F E) completed id : option E -> Code S F E := fun err =>
  match err with
  | None => run_body (body id) (fun e => CNotify (completed id e) (CUnlock (CEnd (Returned e)))) (CUnlock (CEnd Panicked))
  | Some e => CNotify (completed id e) (CEnd (Returned e))
  end.
Inductive Before : Call S F E -> option string -> Code S F E -> Prop :=
| bf_start c : Before c None (code_of c)
| bf_dispatch ctx begun body completed i f : begun i = Some f ->
    Before (KDispatch ctx begun body completed) (Some i) (CNotify f (CLock ctx (d_locked body completed i)))
| bf_dispatch_lock ctx begun body completed i :
    Before (KDispatch ctx begun body completed) (Some i) (CLock ctx (d_locked body completed i))
| bf_tick_lock ctx begun body completed :
    Before (KTick ctx begun body completed) None (CLock ctx (fun err => d_locked (fun _ => body) (fun _ => completed) "" err))
| bf_gave_up c id f r : Before c id (CNotify f (CEnd r)).
(** The code of a call that is about to end. *)
Inductive After : Code S F E -> Prop := af_end r : After (CEnd r).
(** The code of the call that holds the mutex, which it locked in the state [s1],
    when it has done [ls] and the state is [s]. *)
Inductive Inside (c : Call S F E) (id : option string) (s1 : S) (ls : list (Label F E)) (s : S) : Code S F E -> Prop :=
| in_body b fin :
    (forall ls' s' r, Alone b s ls' s' r -> CallAlone c id s1 (ls ++ ls' ++ fin_labels fin r) s') ->
    Inside c id s1 ls s (inside_code b fin)
| in_unlock r : CallAlone c id s1 ls s -> Inside c id s1 ls s (CUnlock (CEnd r)).

Lemma before_step c id p l n b s n' b' s' p' :
  Before c id p -> cstep n b s p l n' b' s' p' ->
  s' = s /\ ~ guarded l /\ l <> LUnlock /\
  ((l = LLock /\ b = false /\ b' = true /\ n' = n /\ Inside c id s [] s p') \/
   (l <> LLock /\ b' = b /\
    (After p' \/ Before c (match id, l with None, LNext i => Some i | _, _ => id end) p'))).
Proof.
  intros Hb Hs. destruct Hb as [c|ctx begun body completed i f Hf|ctx begun body completed i|ctx begun body completed|c id f r].
  - destruct c as [ctx begun body completed|ctx begun body completed|body]; cbn in Hs.
    + unfold dispatch_code in Hs. inversion Hs; subst. split; [done|split; [by intros []|split; [done|]]]. right. split; [done|split; [done|]].
      destruct (begun _) eqn:Hg; [|left; constructor]. right. by constructor.
    + unfold tick_code in Hs. inversion Hs; subst. split; [done|split; [by intros []|split; [done|]]]. right. split; [done|split; [done|]].
      right. apply bf_tick_lock.
    + unfold reset_code in Hs. inversion Hs; subst. split; [done|split; [by intros []|split; [done|]]]. left. split; [done|split; [done|split; [done|split; [done|]]]].
      apply (in_body _ _ _ _ _ (BZero body) None). intros ls2 s2 r Ha. inversion Ha; subst. cbn. rewrite app_nil_r. by repeat eexists.
  - inversion Hs; subst. split; [done|split; [by intros []|split; [done|]]]. right. split; [done|split; [done|]]. right. constructor.
  - inversion Hs; subst; (split; [done|split; [by intros []|split; [done|]]]).
    + left. split; [done|split; [done|split; [done|split; [done|]]]]. apply (in_body _ _ _ _ _ (body i) (Some (completed i))). intros ls2 s2 r Ha. cbn. exists i, ls2, r. done.
    + right. split; [done|split; [done|]]. right. constructor.
  - inversion Hs; subst; (split; [done|split; [by intros []|split; [done|]]]).
    + left. split; [done|split; [done|split; [done|split; [done|]]]]. apply (in_body _ _ _ _ _ body (Some completed)). intros ls2 s2 r Ha. cbn. exists ls2, r. done.
    + right. split; [done|split; [done|]]. right. constructor.
  - inversion Hs; subst. split; [done|split; [by intros []|split; [done|]]]. right. split; [done|split; [done|]]. left. constructor.
Qed.
Lemma after_step p l n b s n' b' s' p' : After p -> ~ cstep (S:=S) (F:=F) (E:=E) n b s p l n' b' s' p'.
Proof. intros Ha Hs. destruct Ha; inversion Hs. Qed.
Lemma inside_step c id s1 ls s p l n b n' b' s' p' :
  Inside c id s1 ls s p -> cstep n b s p l n' b' s' p' ->
  l <> LLock /\ l <> LGiveUp /\
  ((l = LUnlock /\ s' = s /\ b' = false /\ After p' /\ CallAlone c id s1 ls s) \/
   (l <> LUnlock /\ b' = b /\ Inside c id s1 (ls ++ [l]) s' p')).
Proof.
  intros Hi Hs. destruct Hi as [bd fin Hc|r Hc].
  - destruct bd as [[e|]|f k|k|k|f k]; cbn in Hs.
    + specialize (Hc [] s (Returned e) (al_end _ _)). destruct fin as [f|]; cbn in *; inversion Hs; subst; (split; [done|split; [done|]]).
      * right. split; [done|split; [done|]]. by constructor.
      * left. split; [done|split; [done|split; [done|split; [constructor|]]]]. rewrite app_nil_r in Hc. done.
    + specialize (Hc [] s Panicked (al_end _ _)). inversion Hs; subst. split; [done|split; [done|]].
      left. split; [done|split; [done|split; [done|split; [constructor|]]]]. destruct fin; cbn in Hc; rewrite app_nil_r in Hc; done.
    + inversion Hs; subst. split; [done|split; [done|]]. right. split; [done|split; [done|]]. apply in_body.
      intros ls' s'' r Ha. rewrite <- app_assoc. apply (Hc (LNotify f :: ls')). by constructor.
    + inversion Hs; subst. split; [done|split; [done|]]. right. split; [done|split; [done|]]. apply in_body.
      intros ls' s'' r Ha. rewrite <- app_assoc. apply (Hc (LNext _ :: ls')). by constructor.
    + inversion Hs; subst. split; [done|split; [done|]]. right. split; [done|split; [done|]]. apply in_body.
      intros ls' s'' r Ha. rewrite <- app_assoc. apply (Hc (LZero :: ls')). by constructor.
    + inversion Hs; subst. split; [done|split; [done|]]. right. split; [done|split; [done|]]. apply in_body.
      intros ls' s'' r Ha. rewrite <- app_assoc. apply (Hc (LAccess :: ls')). by constructor.
  - inversion Hs; subst. split; [done|split; [done|]]. left. split; [done|split; [done|split; [done|split; [constructor|done]]]].
Qed.

(** The calls of a goroutine whose events may already have happened. *)
Definition begun_calls (th : Thread S F E) : nat := th_n th + (if th_code th then 1 else 0).
Record thread_ok tr (t : nat) (th : Thread S F E) : Prop := {
  to_calls : exists cs, calls !! t = Some cs /\ drop (begun_calls th) cs = th_rest th;
  to_new : forall i l, ((t, i), l) ∈ tr -> (i < begun_calls th)%nat;
  to_code : forall p, th_code th = Some p -> exists c, call_at calls (t, th_n th) = Some c /\
    (holder tr = Some (t, th_n th) \/ After p \/
     Before c (own_id (t, th_n th) tr) p /\ (t, th_n th) ∉ (sections tr).*1) }.
Record inv tr (y : Sys S F E) : Prop := {
  iv_threads : forall t th, sy_threads y !! t = Some th -> thread_ok tr t th;
  iv_free : holder tr = None -> sy_locked y = false /\ Serially calls tr s0 (sections tr) (sy_state y);
  iv_held : forall o, holder tr = Some o -> sy_locked y = true /\
    exists l ls s1 th p c, sections tr = l ++ [(o, ls)] /\ o ∉ l.*1 /\ Serially calls tr s0 l s1 /\
      sy_threads y !! o.1 = Some th /\ th_n th = o.2 /\ th_code th = Some p /\ call_at calls o = Some c /\
      Inside c (own_id o tr) s1 ls (sy_state y) p }.

Lemma inv_init n : inv [] (sys_init n s0 calls).
Proof.
  split; cbn.
  - intros t th. rewrite list_lookup_fmap. destruct (calls !! t) as [cs|] eqn:Hc; [|done]. intros [= <-].
    split; cbn; [eauto| |done]. intros i l H. by apply elem_of_nil in H.
  - intros _. split; [done|constructor].
  - intros o H. done.
Qed.

(** Steps of other goroutines do not matter to a goroutine. *)
Lemma thread_ok_other tr t th t' i (l : Label F E) :
  t' <> t -> thread_ok tr t th -> (l = LUnlock -> holder tr = Some (t', i)) ->
  (l = LLock -> holder tr = None) ->
  thread_ok (tr ++ [((t', i), l)]) t th.
Proof.
  intros Hne [Hc Hn Hp] Hu Hk. split; [done| |].
  - intros j x [H|H]%elem_of_app; [eauto|]. apply elem_of_list_singleton in H. by injection H as <- <- <-.
  - intros p Hcode. destruct (Hp p Hcode) as (c & Hca & H). exists c. split; [done|].
    rewrite own_id_other by congruence. rewrite holder_snoc, sections_snoc. destruct H as [H|[H|[H Hs]]]; [|by auto|].
    + left. destruct l; try done; [by rewrite Hk in H|]. specialize (Hu eq_refl). rewrite H in Hu. injection Hu as Hx _. by destruct Hne.
    + right. right. split; [done|]. destruct l; try (rewrite add_step_fst; done).
      cbn. rewrite fmap_app, elem_of_app. intros [?|Hx]; [done|]. apply elem_of_list_singleton in Hx. injection Hx as Hx _. by destruct Hne.
Qed.

Lemma inv_step tr y (e : OpId * Label F E) y' : inv tr y -> step y e y' -> inv (tr ++ [e]) y'.
Proof.
  intros [Ht Hfree Hheld] Hs. destruct Hs as [n b s ths t th l n' b' s' th' Hth Hs]. cbn in *.
  pose proof (Ht t th Hth) as [Hcalls Hnew Hcode].
  assert (Hlt : (t < length ths)%nat) by (eapply lookup_lt_Some; done).
  (* how the step affects the whole, given that it is harmless *)
  assert (Hquiet : forall (l' : Label F E), l' = l -> l <> LLock -> l <> LUnlock -> ((t, th_n th) ∉ (sections tr).*1 \/ exists r, l = LEnd r) ->
    b' = b -> s' = s -> holder tr <> Some (t, th_n th) -> thread_ok (tr ++ [((t, th_n th), l)]) t th' ->
    inv (tr ++ [((t, th_n th), l)]) (mkSys n' b' s' (<[t:=th']> ths))).
  { intros l' _ Hl1 Hl2 Hns -> -> Hnh Hok. assert (Hho : holder (tr ++ [((t, th_n th), l)]) = holder tr).
    { rewrite holder_snoc. destruct l; done. }
    assert (Hse : sections (tr ++ [((t, th_n th), l)]) = sections tr).
    { rewrite sections_snoc. destruct Hns as [Hns|[r ->]]; [|done]. by apply add_step_other. }
    split; cbn.
    - intros t2 th2. destruct (decide (t2 = t)) as [->|Hne].
      + rewrite list_lookup_insert by done. intros [= <-]. done.
      + rewrite list_lookup_insert_ne by done. intros H2. apply thread_ok_other; by auto.
    - rewrite Hho, Hse. intros H0. destruct (Hfree H0). split; [done|]. by apply serially_keep.
    - rewrite Hho. intros o Ho. destruct (Hheld o Ho) as (Hl & l1 & ls & s1 & th1 & p & c & H1 & H2 & H3 & H4 & H5 & H6 & H7 & H8).
      split; [done|]. exists l1, ls, s1, th1, p, c. rewrite Hse.
      assert (Hne : (t, th_n th) <> o) by congruence.
      rewrite own_id_other by done. repeat split; try done; [by apply serially_keep|].
      rewrite list_lookup_insert_ne; [done|]. intros ->. rewrite Hth in H4. injection H4 as <-. destruct o; cbn in *. congruence. }
  inversion Hs as [? ? ? i c rest|? ? ? ? ? ? ? i p p' rest Hcs|? ? ? i r rest]; subst.
  - (* a call begins *)
    cbn in *.
    assert (Hno : (t, i) ∉ (sections tr).*1).
    { intros Hx%locked_sections. apply Hnew in Hx. unfold begun_calls in Hx. cbn in Hx. lia. }
    apply (Hquiet LCall); try done; [by left| |].
    + intros Hho. destruct (Hheld _ Hho) as (_ & l1 & ls & s1 & th1 & p & c1 & H1 & _ & _ & H4 & _ & H6 & _). cbn in H4.
      rewrite Hth in H4. injection H4 as <-. done.
    + destruct Hcalls as (cs & Hcs & Hd). unfold begun_calls in *. cbn in *. rewrite Nat.add_0_r in *.
      assert (Hci : cs !! i = Some c).
      { rewrite <- (Nat.add_0_r i), <- lookup_drop, Hd. done. }
      split; cbn.
      * exists cs. split; [done|]. rewrite <- drop_drop, Hd. done.
      * intros j x [H|H]%elem_of_app; [apply Hnew in H; lia|]. apply elem_of_list_singleton in H. injection H as -> ->. unfold begun_calls. cbn. lia.
      * intros p [= <-]. exists c. split; [unfold call_at; cbn; by rewrite Hcs|]. right. right.
        rewrite own_id_same by done. split.
        -- assert (own_id (t, i) tr = None) as ->; [|constructor].
           unfold own_id. destruct (omap _ tr) as [|x ?] eqn:Hom; [done|]. exfalso.
           assert (Hx : x ∈ x :: l) by left. rewrite <- Hom in Hx. apply elem_of_list_omap in Hx as ([o2 l2] & Hin & Hx). cbn in Hx.
           destruct l2; try done. destruct (decide _) as [->|]; [|done]. apply Hnew in Hin. lia.
        -- rewrite sections_snoc, add_step_fst by done. done.
  - (* a step of the code of a call *)
    cbn in *.
    assert (Hok' : forall tr', (forall j x, ((t, j), x) ∈ tr' -> ((t, j), x) ∈ tr \/ j = i) -> forall q : Code S F E,
      (exists c, call_at calls (t, i) = Some c /\ (holder tr' = Some (t, i) \/ After q \/ Before c (own_id (t, i) tr') q /\ (t, i) ∉ (sections tr').*1)) ->
      thread_ok tr' t (mkThread i (Some q) rest)).
    { intros tr' Htr' q Hq. split; [done| |intros ? [= <-]; done].
      intros j x H. unfold begun_calls in *. cbn in *. destruct (Htr' _ _ H) as [H1| ->]; [apply Hnew in H1; lia|lia]. }
    assert (Htr' : forall j x, ((t, j), x) ∈ tr ++ [((t, i), l)] -> ((t, j), x) ∈ tr \/ j = i).
    { intros j x [H|H]%elem_of_app; [by left|]. apply elem_of_list_singleton in H. injection H as -> ->. by right. }
    destruct (Hcode p eq_refl) as (c & Hca & Hph).
    destruct (decide (holder tr = Some (t, i))) as [Hho|Hnh].
    + destruct (Hheld _ Hho) as (Hlk & l1 & ls & s1 & th1 & p1 & c1 & H1 & H2 & H3 & H4 & H5 & H6 & H7 & H8). cbn in *.
      rewrite Hth in H4. injection H4 as <-. cbn in *. injection H6 as <-. rewrite Hca in H7. injection H7 as <-. subst b.
      assert (Hid : forall i0, own_id (t, i) tr = Some i0 -> own_id (t, i) (tr ++ [((t, i), l)]) = Some i0) by (intros; by apply own_id_keep).
      destruct (inside_step _ _ _ _ _ _ _ _ _ _ _ _ _ H8 Hcs) as (Hl1 & Hl2 & [(-> & -> & -> & Haf & Hal)|(Hl3 & -> & Hin)]).
      * split; cbn.
        -- intros t2 th2. destruct (decide (t2 = t)) as [->|Hne].
           ++ rewrite list_lookup_insert by done. intros [= <-]. apply Hok'; [done|]. exists c. auto.
           ++ rewrite list_lookup_insert_ne by done. intros Hx. apply thread_ok_other; by auto.
        -- intros _. split; [done|]. rewrite sections_snoc. cbn. rewrite H1. eapply serially_snoc; [by apply serially_keep|done|].
           eapply call_alone_id; [|exact Hal]. done.
        -- intros o. rewrite holder_snoc. done.
      * assert (Hho' : holder (tr ++ [((t, i), l)]) = Some (t, i)) by (rewrite holder_snoc; destruct l; done).
        split; cbn.
        -- intros t2 th2. destruct (decide (t2 = t)) as [->|Hne].
           ++ rewrite list_lookup_insert by done. intros [= <-]. apply Hok'; [done|]. exists c. auto.
           ++ rewrite list_lookup_insert_ne by done. intros Hx. apply thread_ok_other; by auto.
        -- rewrite Hho'. done.
        -- rewrite Hho'. intros o [= <-]. split; [done|]. exists l1, (ls ++ [l]), s1, (mkThread i (Some p') rest), p', c.
           rewrite sections_snoc, H1. cbn. rewrite list_lookup_insert by done.
           split; [apply add_step_last; try done; intros r ->; inversion Hcs|].
           repeat split; try done; [by apply serially_keep|].
           inversion Hin as [bd fin Hc0 Heq|r Hc0 Heq]; subst.
           ++ apply in_body. intros ls' s'' r Ha. eapply call_alone_id; [exact Hid|auto].
           ++ apply in_unlock. eapply call_alone_id; [exact Hid|auto].
    + destruct Hph as [?|[Haf|[Hbf Hns]]]; [done| |].
      * destruct (after_step _ _ _ _ _ _ _ _ _ Haf Hcs).
      * destruct (before_step _ _ _ _ _ _ _ _ _ _ _ Hbf Hcs) as (-> & _ & Hl1 & [(-> & -> & -> & -> & Hin)|(Hl2 & -> & Hnext)]).
        -- (* it locks the mutex *)
           assert (Hfr : holder tr = None).
           { destruct (holder tr) as [o|] eqn:Ho; [|done]. destruct (Hheld o eq_refl) as [? _]. done. }
           destruct (Hfree Hfr) as [_ Hser].
           split; cbn.
           ++ intros t2 th2. destruct (decide (t2 = t)) as [->|Hne].
              ** rewrite list_lookup_insert by done. intros [= <-]. apply Hok'; [done|]. exists c. split; [done|]. left. rewrite holder_snoc. done.
              ** rewrite list_lookup_insert_ne by done. intros Hx. apply thread_ok_other; by auto.
           ++ rewrite holder_snoc. done.
           ++ intros o. rewrite holder_snoc. intros [= <-]. split; [done|].
              exists (sections tr), [], s, (mkThread i (Some p') rest), p', c. rewrite sections_snoc. cbn. rewrite list_lookup_insert by done.
              rewrite own_id_same by done. repeat split; try done. by apply serially_keep.
        -- apply (Hquiet l); try done; [by left|]. apply Hok'; [done|]. exists c. split; [done|].
           destruct Hnext as [?|Hb]; [by auto|]. right. right. split; [|rewrite sections_snoc, add_step_fst; done].
           rewrite own_id_snoc. cbn. destruct (own_id (t, i) tr); [done|]. destruct l; try done. by rewrite decide_True.
  - (* the call ends *)
    cbn in *. assert (Hnh : holder tr <> Some (t, i)).
    { intros Hho. destruct (Hheld _ Hho) as (_ & l1 & ls & s1 & th1 & p1 & c1 & _ & _ & _ & H4 & _ & H6 & _ & H8). cbn in *.
      rewrite Hth in H4. injection H4 as <-. cbn in *. injection H6 as <-.
      inversion H8 as [bd fin Hc0 Heq|]. destruct bd as [[]| | | |]; try done. destruct fin; done. }
    apply (Hquiet (LEnd r)); try done; [eauto|].
    destruct Hcalls as (cs & Hcs & Hd). unfold begun_calls in *. cbn in *. split; cbn; [|unfold begun_calls; cbn|done].
    + exists cs. split; [done|]. unfold begun_calls. cbn. rewrite <- Hd. f_equal. lia.
    + intros j x [H|H]%elem_of_app; [apply Hnew in H; lia|]. apply elem_of_list_singleton in H. injection H as -> ->. lia.
Qed.

Lemma runs_inv n tr y : runs (sys_init n s0 calls) tr y -> inv tr y.
Proof.
  intros H. remember (sys_init n s0 calls) as y0 eqn:Hy. induction H as [|? tr y' e y'' _ IH Hs]; subst.
  - apply inv_init.
  - eapply inv_step; eauto.
Qed.
Lemma runs_snoc_inv y0 tr (e : OpId * Label F E) y :
  runs y0 (tr ++ [e]) y -> exists y1, runs (S:=S) y0 tr y1 /\ step y1 e y.
Proof.
  intros H. remember (tr ++ [e]) as tr' eqn:Htr. destruct H as [y|y0 tr1 y1 e1 y2 H1 H2]; [by destruct tr|].
  apply app_inj_tail in Htr as [-> ->]. eauto.
Qed.
Lemma runs_split y0 pre (e : OpId * Label F E) post y :
  runs y0 (pre ++ e :: post) y -> exists y1 y2, runs y0 pre y1 /\ step (S:=S) y1 e y2.
Proof.
  revert y. induction post as [|e' post IH] using rev_ind; intros y H.
  - apply runs_snoc_inv in H as (y1 & H1 & H2). eauto.
  - rewrite app_comm_cons, app_assoc in H. apply runs_snoc_inv in H as (y1 & H1 & H2). eauto.
Qed.

(** ** Mutual exclusion *)
Lemma step_holder tr y (o : OpId) (l : Label F E) y' :
  inv tr y -> step y (o, l) y' ->
  (guarded l -> holder tr = Some o) /\ (l = LUnlock -> holder tr = Some o) /\
  (l = LLock -> holder tr = None /\ (o, LLock) ∉ tr).
Proof.
  intros [Ht Hfree Hheld] Hs. inversion Hs as [n b s ths t th l' n' b' s' th' Hth Hts]; subst. cbn in *.
  destruct (Ht t th Hth) as [_ _ Hcode].
  inversion Hts as [? ? ? i c rest|? ? ? ? ? ? ? i p p' rest Hcs|? ? ? i r rest]; subst; [split; [intros []|done]| |split; [intros []|done]].
  cbn in *. destruct (Hcode p eq_refl) as (c & Hca & Hph).
  destruct (decide (holder tr = Some (t, i))) as [Hho|Hnh].
  - split; [done|split; [done|]]. intros ->.
    destruct (Hheld _ Hho) as (Hlk & l1 & ls & s1 & th1 & p1 & c1 & _ & _ & _ & _ & _ & _ & _ & _). subst. inversion Hcs.
  - destruct Hph as [?|[Haf|[Hbf Hns]]]; [done|by destruct (after_step _ _ _ _ _ _ _ _ _ Haf Hcs)|].
    destruct (before_step _ _ _ _ _ _ _ _ _ _ _ Hbf Hcs) as (_ & Hg & Hu & Hor). split; [done|split; [done|]]. intros ->.
    destruct Hor as [(_ & -> & _)|[? _]]; [|done]. split; [|by rewrite <- locked_sections].
    destruct (holder tr) as [o|] eqn:Ho; [|done]. destruct (Hheld o eq_refl) as [? _]. done.
Qed.
Lemma runs_step_holder n tr y pre o l post :
  runs (sys_init n s0 calls) tr y -> tr = pre ++ (o, l) :: post ->
  (guarded l -> holder pre = Some o) /\ (l = LUnlock -> holder pre = Some o) /\
  (l = LLock -> holder pre = None /\ (o, LLock) ∉ pre).
Proof.
  intros H ->. destruct (runs_split _ _ _ _ _ H) as (y1 & y2 & H1 & H2). eapply step_holder; [|done]. eapply runs_inv; done.
Qed.
(** A call that holds the mutex has locked it. *)
Lemma holder_locked tr o : holder tr = Some o -> (o, LLock) ∈ tr.
Proof.
  induction tr as [|[o' l] tr IH] using rev_ind; [done|]. rewrite holder_snoc, elem_of_app. intros H.
  destruct l; try (by left; auto). - injection H as ->. right. by apply elem_of_list_singleton.
Qed.
Lemma holder_locked_since (pre mid : list (OpId * Label F E)) o :
  holder pre <> Some o -> holder (pre ++ mid) = Some o ->
  exists m1 m2, mid = m1 ++ (o, LLock) :: m2.
Proof.
  intros Hp. induction mid as [|[o' l] mid IH] using rev_ind; [by rewrite app_nil_r|]. rewrite app_assoc, holder_snoc. intros H.
  assert (Hk : holder (pre ++ mid) = Some o -> exists m1 m2, mid ++ [(o', l)] = m1 ++ (o, LLock) :: m2).
  { intros Hx. destruct (IH Hx) as (m1 & m2 & ->). exists m1, (m2 ++ [(o', l)]). by rewrite <- app_assoc. }
  destruct l; auto; [|done]. injection H as ->. exists mid, []. done.
Qed.
Lemma C40_contiguous_lemma n tr y pre o x mid x' post o' z :
  runs (sys_init n s0 calls) tr y -> tr = pre ++ (o, x) :: mid ++ (o, x') :: post ->
  guarded x -> guarded x' -> (o', z) ∈ mid -> guarded z -> o' = o.
Proof.
  intros H Htr Hx Hx' Hin Hz. apply elem_of_list_split in Hin as (m1 & m2 & ->).
  destruct (runs_step_holder _ _ _ pre o x _ H Htr) as [H1 _].
  destruct (runs_step_holder _ _ _ (pre ++ (o, x) :: m1) o' z (m2 ++ (o, x') :: post) H) as [H2 _].
  { rewrite Htr. cbn. rewrite <- ?app_assoc. cbn. rewrite <- ?app_assoc. cbn. done. }
  destruct (runs_step_holder _ _ _ (pre ++ (o, x) :: m1 ++ (o', z) :: m2) o x' post H) as [H3 _].
  { rewrite Htr. cbn. rewrite <- ?app_assoc. cbn. rewrite <- ?app_assoc. cbn. done. }
  specialize (H1 Hx). specialize (H2 Hz). specialize (H3 Hx'). destruct (decide (o' = o)) as [|Hne]; [done|]. exfalso.
  assert (H3' : holder ((pre ++ (o, x) :: m1) ++ (o', z) :: m2) = Some o) by (rewrite <- H3, <- app_assoc; done).
  assert (Hq : holder (pre ++ (o, x) :: m1) <> Some o) by (rewrite H2; congruence).
  destruct (holder_locked_since _ _ o Hq H3') as (k1 & k2 & Hk).
  destruct (runs_step_holder _ _ _ (pre ++ (o, x) :: m1 ++ k1) o LLock (k2 ++ (o, x') :: post) H) as (_ & _ & H4).
  { rewrite Htr. transitivity (pre ++ (o, x) :: m1 ++ ((o', z) :: m2) ++ (o, x') :: post); [cbn; by rewrite <- ?app_assoc|].
    rewrite Hk. cbn. rewrite <- ?app_assoc. cbn. by rewrite <- ?app_assoc. }
  destruct (H4 eq_refl) as [_ H5]. apply H5. apply elem_of_app. left. by apply holder_locked.
Qed.

(** ** Message IDs *)
Lemma allocated_app (tr1 tr2 : list (OpId * Label F E)) : allocated (tr1 ++ tr2) = allocated tr1 ++ allocated tr2.
Proof. unfold allocated. apply omap_app. Qed.
Lemma step_allocates y o (l : Label F E) y' : step (S:=S) y (o, l) y' -> l <> LZero ->
  sy_ctr y' = (sy_ctr y + N.of_nat (length (allocated [(o, l)])))%N /\
  (forall id, l = LNext id -> id = id_string (sy_ctr y')).
Proof.
  intros Hs Hz. inversion Hs as [n b s ths t th l' n' b' s' th' Hth Hts]; subst. cbn in *.
  inversion Hts as [? ? ? i c rest|? ? ? ? ? ? ? i p p' rest Hcs|? ? ? i r rest]; subst; cbn; [split; [lia|done]| |split; [lia|done]].
  inversion Hcs; subst; cbn; try (by destruct Hz); (split; [lia|]); try done. by intros id [= <-].
Qed.
Lemma runs_app y0 pre post (y : Sys S F E) : runs y0 (pre ++ post) y -> exists y1, runs y0 pre y1 /\ runs y1 post y.
Proof.
  revert y. induction post as [|e post IH] using rev_ind; intros y H.
  - rewrite app_nil_r in H. exists y. split; [done|constructor].
  - rewrite app_assoc in H. apply runs_snoc_inv in H as (y1 & H1 & H2). destruct (IH _ H1) as (y3 & H3 & H4). exists y3. split; [done|]. econstructor; done.
Qed.
Lemma runs_allocates y0 tr (y : Sys S F E) : runs y0 tr y -> (forall o, (o, LZero) ∉ tr) ->
  sy_ctr y = (sy_ctr y0 + N.of_nat (length (allocated tr)))%N /\
  forall k id, allocated tr !! k = Some id -> id = id_string (sy_ctr y0 + 1 + N.of_nat k).
Proof.
  induction 1 as [y0|y0 tr y1 [o l] y2 _ IH Hs]; intros Hz.
  - cbn. split; [lia|done].
  - destruct IH as [IH1 IH2]. { intros o' Ho'. apply (Hz o'). apply elem_of_app. by left. }
    assert (Hl : l <> LZero). { intros ->. apply (Hz o). apply elem_of_app. right. by apply elem_of_list_singleton. }
    destruct (step_allocates _ _ _ _ Hs Hl) as [H1 H2]. rewrite allocated_app, app_length. split; [lia|].
    intros k id. rewrite lookup_app. destruct (allocated tr !! k) as [id'|] eqn:Hk; [intros [= <-]; auto|].
    apply lookup_ge_None in Hk. intros Hlk. destruct l; cbn in Hlk; try done.
    apply list_lookup_singleton_Some in Hlk as [Hk' <-]. rewrite (H2 _ eq_refl). cbn in H1. f_equal. lia.
Qed.
Lemma C41_distinct_lemma y0 pre post (y : Sys S F E) : runs y0 (pre ++ post) y -> (forall o, (o, LZero) ∉ post) ->
  (sy_ctr y < 2 ^ 64)%N -> NoDup (allocated post).
Proof.
  intros H Hz Hlt. destruct (runs_app _ _ _ _ H) as (y1 & _ & H2). destruct (runs_allocates _ _ _ H2 Hz) as [H3 H4].
  apply NoDup_alt. intros i j id Hi Hj. pose proof (lookup_lt_Some _ _ _ Hi) as Li. pose proof (lookup_lt_Some _ _ _ Hj) as Lj.
  apply H4 in Hi. apply H4 in Hj. rewrite Hi in Hj. apply id_string_inj in Hj; lia.
Qed.

(** ** No deadlock *)
Lemma thread_steps n b s (ths : list (Thread S F E)) t i p rest : ths !! t = Some (mkThread i (Some p) rest) ->
  (exists r, p = CEnd r) \/ (exists l n' b' s' p', cstep n b s p l n' b' s' p') -> exists e y', step (mkSys n b s ths) e y'.
Proof.
  intros Ht [[r ->]|(l & n' & b' & s' & p' & Hc)].
  - eexists _, _. econstructor; [done|]. apply ts_end.
  - eexists _, _. econstructor; [done|]. by apply ts_code.
Qed.
Lemma C77_progress_lemma n tr y : runs (sys_init n s0 calls) tr y -> finished y \/ exists e y', step y e y'.
Proof.
  intros H. apply runs_inv in H. destruct H as [Ht Hfree Hheld]. destruct y as [c b s ths]. cbn in *.
  destruct (holder tr) as [o|] eqn:Ho.
  - right. destruct (Hheld o eq_refl) as (-> & l1 & ls & s1 & [i q rest] & p & cl & _ & _ & _ & H4 & _ & H6 & _ & H8). cbn in *. subst q.
    eapply thread_steps; [exact H4|]. right. destruct H8 as [bd fin _|r _]; [|by eexists _, _, _, _, _; constructor].
    destruct bd as [[e|]|f k|k|k|f k]; cbn; [destruct fin; cbn|..]; by eexists _, _, _, _, _; constructor.
  - destruct (Hfree eq_refl) as [-> _].
    destruct (decide (Forall (fun th => is_Some (th_code th) -> False) ths)) as [Hall|Hex].
    2: { apply not_Forall_Exists in Hex; [|intros []; apply _]. apply Exists_exists in Hex as (th & Hin & Hx).
         apply elem_of_list_lookup in Hin as [t Hth]. destruct th as [i [p|] rest]; [|by destruct Hx; intros []]. clear Hx. right.
         destruct (to_code _ _ _ (Ht t _ Hth) p eq_refl) as (cl & _ & Hph). cbn in Hph. rewrite Ho in Hph.
         eapply thread_steps; [exact Hth|]. destruct Hph as [?|[[r]|[Hb _]]]; [done|eauto|].
         destruct Hb as [[]| | | |]; cbn; right; by eexists _, _, _, _, _; constructor. }
    destruct (decide (Forall (fun th => th_rest th = []) ths)) as [Hr|Hr].
    + left. unfold finished. cbn. apply Forall_forall. intros th Hin. rewrite Forall_forall in Hall, Hr.
      split; [|auto]. specialize (Hall th Hin). destruct (th_code th); [|done]. by destruct Hall.
    + right. apply not_Forall_Exists in Hr; [|intros th; destruct (th_rest th); [by left|by right]].
      apply Exists_exists in Hr as (th & Hin & Hx). rewrite Forall_forall in Hall. specialize (Hall th Hin).
      apply elem_of_list_lookup in Hin as [t Hth]. destruct th as [i [p|] [|c0 rest]]; cbn in *; try done; [by destruct Hall|].
      eexists _, _. econstructor; [done|]. constructor.
Qed.

(** ** Every schedule ends *)
Definition clt (p' p : Code S F E) : Prop := exists n b s l n' b' s', cstep n b s p l n' b' s' p'.
Lemma clt_wf p : Acc clt p.
Proof.
  induction p; constructor; intros p' (n1 & b1 & s1 & l1 & n2 & b2 & s2 & Hc); inversion Hc; subst; auto.
Qed.
Definition tlt (th' th : Thread S F E) : Prop := exists n b s l n' b' s', tstep n b s th l n' b' s' th'.
Lemma tlt_wf th : Acc tlt th.
Proof.
  destruct th as [i q rest]. revert i q. induction rest as [|c rest IH]; intros i q.
  - assert (Hend : forall j, Acc tlt (mkThread j None [])).
    { intros j. constructor. intros th' (n1 & b1 & s1 & l1 & n2 & b2 & s2 & Hc). inversion Hc. }
    destruct q as [p|]; [|done]. induction (clt_wf p) as [p _ IHp]. constructor.
    intros th' (n1 & b1 & s1 & l1 & n2 & b2 & s2 & Hc). inversion Hc; subst; [|done]. apply IHp. by repeat eexists.
  - assert (Hnext : forall j, Acc tlt (mkThread j None (c :: rest))).
    { intros j. constructor. intros th' (n1 & b1 & s1 & l1 & n2 & b2 & s2 & Hc). inversion Hc; subst. apply IH. }
    destruct q as [p|]; [|done]. induction (clt_wf p) as [p _ IHp]. constructor.
    intros th' (n1 & b1 & s1 & l1 & n2 & b2 & s2 & Hc). inversion Hc; subst; [|done]. apply IHp. by repeat eexists.
Qed.
Definition llt (ths' ths : list (Thread S F E)) : Prop :=
  exists t th th', ths !! t = Some th /\ tlt th' th /\ ths' = <[t := th']> ths.
Lemma llt_wf ths : Acc llt ths.
Proof.
  induction ths as [|th ths IH].
  - constructor. intros ths' (t & th & th' & H & _). done.
  - revert ths IH. induction (tlt_wf th) as [th _ IHt]. intros ths IH. induction IH as [ths Hths IHl].
    constructor. intros ths' ([|t] & th1 & th2 & H & Hlt & ->); cbn in *.
    + injection H as <-. apply IHt; [done|]. by constructor.
    + apply IHl. exists t, th1, th2. done.
Qed.
Lemma C77_finite_lemma (y : nat -> Sys S F E) : ~ forall k, exists e, step (y k) e (y (1 + k)).
Proof.
  intros H. assert (Hgo : forall ths, Acc llt ths -> forall k, sy_threads (y k) = ths -> False).
  { intros ths Hacc. induction Hacc as [ths _ IH]. intros k Hk. destruct (H k) as [e Hs].
    inversion Hs as [n b s ths1 t th l n' b' s' th' Hth Hts Heq1 Heq2 Heq3].
    eapply (IH (<[t:=th']> ths1)); [|rewrite <- Heq3; done]. rewrite <- Hk, <- Heq1. cbn.
    exists t, th, th'. split; [done|]. split; [by repeat eexists|done]. }
  eapply Hgo; [apply llt_wf|]. exact (eq_refl (sy_threads (y 0))).
Qed.
End ConcLemmas.
