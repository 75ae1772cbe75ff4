(** * Lemmas on concurrent use of a CommandExecutor. *)
From Verif Require Import ExecSpec.

Section ExecLemmas.
Context {B M R I : Type} (engine : B -> nat) (icpt : I -> option R -> M -> B -> Prog B M R I) (handle : B -> M -> Prog B M R I).
Context (b0 : option B) (i0 : option I) (ps : list (Prog B M R I)).
Notation Ev := (nat * nat * Label B M R I)%type.
Notation tstep := (tstep engine icpt handle).
Notation step := (step engine icpt handle).
Notation runs := (runs engine icpt handle).
Notation Thread := (Thread B M R I).
Notation Sys := (Sys B M R I).

(** ** The RWMutex *)

Definition execs (th : Thread) : nat := length (List.filter (fun f => match f with FExec _ => true | _ => false end) (th_stack th)).
Fixpoint total (ths : list Thread) : nat := match ths with [] => 0 | th :: ths => execs th + total ths end.
Definition writes (th : Thread) : bool := match th_ctl th with CWait _ _ | CWrite _ _ | CUnlock _ => true | _ => false end.

Lemma total_insert ths t th th' : ths !! t = Some th -> total (<[t := th']> ths) + execs th = total ths + execs th'.
Proof.
  revert t. induction ths as [|x ths IH]; intros [|t] Ht; try done.
  - injection Ht as ->. cbn. lia.
  - specialize (IH t Ht). change (<[S t := th']> (x :: ths)) with (x :: <[t := th']> ths). cbn [total]. lia.
Qed.
Lemma total_le ths t th : ths !! t = Some th -> execs th <= total ths.
Proof.
  revert t. induction ths as [|x ths IH]; intros [|t] Ht; cbn in *; try done.
  - injection Ht as ->. lia.
  - specialize (IH t Ht). lia.
Qed.

Record winv (s : Shared B I) (ths : list Thread) : Prop := {
  wi_readers : sh_readers s = total ths;
  wi_free : sh_writer s = WFree -> forall t th, ths !! t = Some th -> writes th = false;
  wi_one : forall t th t' th', ths !! t = Some th -> ths !! t' = Some th' -> writes th = true -> writes th' = true -> t = t';
  wi_some : sh_writer s <> WFree -> exists t th, ths !! t = Some th /\ writes th = true;
  wi_wait : forall t th w k, ths !! t = Some th -> th_ctl th = CWait w k -> sh_writer s = WPending;
  wi_held : forall t th, ths !! t = Some th -> (exists w k, th_ctl th = CWrite w k) \/ (exists p, th_ctl th = CUnlock p) -> sh_writer s = WHeld;
  wi_none : sh_writer s = WHeld -> sh_readers s = 0 }.

Lemma winv_init : winv (sy_sh (sys_init b0 i0 ps)) (sy_threads (sys_init b0 i0 ps)).
Proof.
  assert (Hc : forall t th, sy_threads (sys_init (M:=M) (R:=R) b0 i0 ps) !! t = Some th -> exists p, th = mkThread (CRun p) []).
  { intros t th. cbn. rewrite list_lookup_fmap. destruct (ps !! t) as [p|]; [|done]. intros [= <-]. by exists p. }
  split; cbn [sys_init sy_sh sh_writer sh_readers].
  - cbn. clear Hc. induction ps as [|p l IH]; [done|]. cbn. exact IH.
  - intros _ t th Ht. apply Hc in Ht as [p ->]. done.
  - intros t th t' th' Ht _ Hw. apply Hc in Ht as [p ->]. done.
  - done.
  - intros t th w k Ht. by apply Hc in Ht as [p ->].
  - intros t th Ht. apply Hc in Ht as [p ->]. by intros [(? & ? & ?)|(? & ?)].
  - done.
Qed.

(** A step that leaves the writer alone. *)
Lemma winv_same s s' ths t th th' : ths !! t = Some th -> winv s ths ->
  sh_writer s' = sh_writer s -> writes th = false -> writes th' = false ->
  sh_readers s' + execs th = sh_readers s + execs th' -> (sh_writer s = WHeld -> execs th' <= execs th) ->
  winv s' (<[t := th']> ths).
Proof.
  intros Ht [W1 W2 W3 W4 W5 W6 W7] Hw H1 H2 Hr Hh.
  assert (Hlt := lookup_lt_Some _ _ _ Ht). assert (Hti := total_insert ths t th th' Ht).
  assert (Hl : forall u x, <[t := th']> ths !! u = Some x -> u = t /\ x = th' \/ u <> t /\ ths !! u = Some x).
  { intros u x Hu. apply list_lookup_insert_Some in Hu as [(-> & -> & _)|[Hn Hu]]; [by left|right; split; [congruence|done]]. }
  split.
  - lia.
  - rewrite Hw. intros Hf u x Hu. apply Hl in Hu as [[-> ->]|[_ Hu]]; [done|]. by eapply W2.
  - intros u x u' x' Hu Hu' Hx Hx'. apply Hl in Hu as [[-> ->]|[_ Hu]]; [congruence|]. apply Hl in Hu' as [[-> ->]|[_ Hu']]; [congruence|]. by eapply W3.
  - rewrite Hw. intros Hf. destruct (W4 Hf) as (u & x & Hu & Hx). exists u, x. split; [|done].
    rewrite list_lookup_insert_ne; [done|]. intros ->. congruence.
  - rewrite Hw. intros u x w k Hu Hx. apply Hl in Hu as [[-> ->]|[_ Hu]]; [unfold writes in H2; by rewrite Hx in H2|]. by eapply W5.
  - rewrite Hw. intros u x Hu Hx. apply Hl in Hu as [[-> ->]|[_ Hu]]; [|by eapply W6].
    exfalso. unfold writes in H2. by destruct Hx as [(w & k & Hx)|(p & Hx)]; rewrite Hx in H2.
  - rewrite Hw. intros Hf. specialize (W7 Hf). specialize (Hh Hf). lia.
Qed.
(** A step of the writer. *)
Lemma winv_writer s s' ths t th th' : ths !! t = Some th -> winv s ths ->
  (writes th = true \/ sh_writer s = WFree) -> execs th' = execs th -> sh_readers s' = sh_readers s ->
  (sh_writer s' = WFree /\ writes th' = false \/
   sh_writer s' = WPending /\ (exists w k, th_ctl th' = CWait w k) \/
   sh_writer s' = WHeld /\ ((exists w k, th_ctl th' = CWrite w k) \/ (exists p, th_ctl th' = CUnlock p)) /\ sh_readers s = 0) ->
  winv s' (<[t := th']> ths).
Proof.
  intros Ht [W1 W2 W3 W4 W5 W6 W7] Hth He Hr Hs.
  assert (Hlt := lookup_lt_Some _ _ _ Ht). assert (Hti := total_insert ths t th th' Ht).
  assert (Hl : forall u x, <[t := th']> ths !! u = Some x -> u = t /\ x = th' \/ u <> t /\ ths !! u = Some x).
  { intros u x Hu. apply list_lookup_insert_Some in Hu as [(-> & -> & _)|[Hn Hu]]; [by left|right; split; [congruence|done]]. }
  assert (Hot : forall u x, u <> t -> ths !! u = Some x -> writes x = false).
  { intros u x Hn Hu. destruct (writes x) eqn:Ex; [|done]. destruct Hth as [Hth|Hth].
    - exfalso. apply Hn. by eapply W3.
    - rewrite (W2 Hth _ _ Hu) in Ex. done. }
  assert (Hmine : <[t := th']> ths !! t = Some th') by by apply list_lookup_insert.
  split.
  - lia.
  - intros Hf u x Hu. apply Hl in Hu as [[-> ->]|[Hn Hu]]; [|by eapply Hot]. destruct Hs as [[_ Hs]|[[Hs _]|[Hs _]]]; congruence.
  - intros u x u' x' Hu Hu' Hx Hx'. apply Hl in Hu as [[-> ->]|[Hn Hu]]; [|rewrite (Hot _ _ Hn Hu) in Hx; done].
    apply Hl in Hu' as [[-> ->]|[Hn Hu']]; [done|rewrite (Hot _ _ Hn Hu') in Hx'; done].
  - intros Hf. exists t, th'. split; [done|]. unfold writes.
    destruct Hs as [[Hs _]|[[_ (w & k & ->)]|(_ & [(w & k & ->)|(p & ->)] & _)]]; done.
  - intros u x w k Hu Hx. apply Hl in Hu as [[-> ->]|[Hn Hu]].
    + destruct Hs as [[_ Hs]|[[Hs _]|(_ & [(? & ? & Hs)|(? & Hs)] & _)]]; [unfold writes in Hs; by rewrite Hx in Hs|done|congruence|congruence].
    + specialize (Hot _ _ Hn Hu). unfold writes in Hot. by rewrite Hx in Hot.
  - intros u x Hu Hx. apply Hl in Hu as [[-> ->]|[Hn Hu]].
    + destruct Hs as [[_ Hs]|[[_ (w & k & Hs)]|(Hs & _)]]; [|destruct Hx as [(?&?&Hx)|(?&Hx)]; congruence|done].
      unfold writes in Hs. by destruct Hx as [(?&?&Hx)|(?&Hx)]; rewrite Hx in Hs.
    + specialize (Hot _ _ Hn Hu). unfold writes in Hot. by destruct Hx as [(?&?&Hx)|(?&Hx)]; rewrite Hx in Hot.
  - intros Hf. destruct Hs as [[Hs _]|[[Hs _]|(_ & _ & Hs)]]; try congruence.
Qed.

Lemma winv_step s ths e y' : winv s ths -> step (mkSys s ths) e y' -> winv (sy_sh y') (sy_threads y').
Proof.
  intros W Hs. inversion Hs as [s1 ths1 t th l s' th' Ht Hstep]; subst. cbn [sy_sh sy_threads].
  inversion Hstep; subst.
  - eapply winv_same; try exact Ht; try exact W; cbn; done || lia.
  - eapply winv_same; try exact Ht; try exact W; cbn; done || (unfold execs; cbn; lia) || done.
  - eapply winv_same; try exact Ht; try exact W; cbn; done.
  - eapply winv_same; try exact Ht; try exact W; cbn; try done; unfold execs; cbn; lia.
  - eapply winv_same; try exact Ht; try exact W; cbn; try done; unfold execs; cbn; lia.
  - eapply winv_same; try exact Ht; try exact W; cbn; done || lia.
  - eapply winv_same; try exact Ht; try exact W; cbn; try done; unfold execs; cbn; lia.
  - eapply winv_writer; try exact Ht; try exact W; cbn; try done; [by right|]. right. left. eauto.
  - eapply winv_writer; try exact Ht; try exact W; cbn; try done; [by left|]. right. right. split; [done|]. split; [left; eauto|done].
  - eapply winv_writer; try exact Ht; try exact W; cbn; try done; [by left|]. right. right.
    assert (Hh := wi_held _ _ W _ _ Ht ltac:(left; eauto)). cbn in Hh. subst. split; [done|]. split; [right; eauto|]. apply (wi_none _ _ W). done.
  - eapply winv_writer; try exact Ht; try exact W; cbn; try done; [by left|]. left. done.
Qed.

(** ** Traces *)

Lemma bound_app (l l' : list Ev) : bound b0 (l ++ l') = bound (bound b0 l) l'.
Proof. apply foldl_app. Qed.
Lemma installed_app (l l' : list Ev) : installed i0 (l ++ l') = installed (installed i0 l) l'.
Proof. apply foldl_app. Qed.

Definition call_at (th : Thread) (d : nat) : Prop := exists k, rev (th_stack th) !! d = Some (FExec k).
Record inv (tr : list Ev) (y : Sys) : Prop := {
  in_w : winv (sy_sh y) (sy_threads y);
  in_bound : sh_bound (sy_sh y) = bound b0 tr;
  in_icpt : sh_icpt (sy_sh y) = installed i0 tr;
  in_calls : forall pre mid t d ctx m, tr = pre ++ (t, d, LExec ctx m) :: mid -> unended t d mid ->
    exists th, sy_threads y !! t = Some th /\ call_at th d;
  in_reads : forall pre mid t d ctx m, tr = pre ++ (t, d, LExec ctx m) :: mid -> idle t mid ->
    exists stk, sy_threads y !! t = Some (mkThread (CRead ctx m) stk) /\ length stk = S d;
  in_found : forall pre mid1 mid2 t d ctx m d' o, tr = pre ++ (t, d, LExec ctx m) :: mid1 ++ (t, d', LFound o) :: mid2 -> idle t mid1 -> idle t mid2 ->
    exists stk, sy_threads y !! t = Some (mkThread (CRun (outcome_prog icpt ctx m o)) stk) /\ length stk = S d /\ exists k, head stk = Some (FExec k) }.

Lemma snoc_split {A} (tr : list A) e pre x mid : tr ++ [e] = pre ++ x :: mid ->
  mid = [] /\ e = x /\ tr = pre \/ exists mid', mid = mid' ++ [e] /\ tr = pre ++ x :: mid'.
Proof.
  destruct mid as [|z mid _] using rev_ind.
  - intros H. apply app_inj_tail in H as [-> ->]. by left.
  - intros H. rewrite app_comm_cons, app_assoc in H. apply app_inj_tail in H as [-> ->]. right. by exists mid.
Qed.
Lemma idle_app t (l l' : list Ev) : idle t (l ++ l') <-> idle t l /\ idle t l'.
Proof. unfold idle. setoid_rewrite elem_of_app. firstorder. Qed.
Lemma unended_app t d (l l' : list Ev) : unended t d (l ++ l') <-> unended t d l /\ unended t d l'.
Proof. unfold unended. setoid_rewrite elem_of_app. firstorder. Qed.
Lemma idle_one t u d (l : Label B M R I) : idle t [(u, d, l)] <-> u <> t.
Proof.
  split.
  - intros H ->. apply (H d l). by left.
  - intros H d' l' Hin. apply elem_of_list_singleton in Hin. congruence.
Qed.

Lemma tstep_bound s th l s' th' : tstep s th l s' th' ->
  sh_bound s' = match l with LWrite (WBind b') => Some b' | LWrite WUnbind => None | _ => sh_bound s end /\
  sh_icpt s' = match l with LWrite (WIntercept i') => i' | _ => sh_icpt s end.
Proof. intros H. inversion H; subst; cbn; done. Qed.

(** Calls stay where they are on the stack until they end. *)
Lemma tstep_call s th l s' th' d : tstep s th l s' th' -> call_at th d ->
  (forall r, l = LExecEnd r -> depth l th <> d) -> call_at th' d.
Proof.
  intros H [k Hk] Hne. unfold call_at in *. inversion H; subst; cbn in *; eauto.
  - exists k. by apply lookup_app_l_Some.
  - rewrite lookup_app in Hk. destruct (rev stk !! d) as [f|] eqn:Ed; [injection Hk as ->; eauto|].
    exfalso. apply (Hne _ eq_refl). apply lookup_ge_None in Ed. rewrite rev_length in Ed.
    apply list_lookup_singleton_Some in Hk as [Hk _]. rewrite rev_length in Hk. lia.
  - exists k. by apply lookup_app_l_Some.
  - rewrite lookup_app in Hk. destruct (rev stk !! d) as [f|] eqn:Ed; [injection Hk as ->; eauto|].
    exfalso. by apply list_lookup_singleton_Some in Hk as [_ Hk].
Qed.

Lemma inv_init : inv [] (sys_init b0 i0 ps).
Proof.
  split; try done; [apply winv_init| | |]; intros pre.
  - intros mid t d ctx m H. by destruct pre.
  - intros mid t d ctx m H. by destruct pre.
  - intros mid1 mid2 t d ctx m d' o H. by destruct pre.
Qed.

Lemma inv_step tr y e y' : inv tr y -> step y e y' -> inv (tr ++ [e]) y'.
Proof.
  intros [W Hb Hi Hc Hr Hf] Hs. inversion Hs as [s ths t th l s' th' Ht Hstep]; subst y e y'. cbn [sy_sh sy_threads] in *.
  assert (Hlt := lookup_lt_Some _ _ _ Ht). destruct (tstep_bound _ _ _ _ _ Hstep) as [B1 B2].
  assert (Hmine : <[t := th']> ths !! t = Some th') by by apply list_lookup_insert.
  split; cbn [sy_sh sy_threads].
  - apply (winv_step _ _ _ _ W Hs).
  - rewrite bound_app, <- Hb, B1. cbn. by destruct l as [| | | | | | | |[]| |].
  - rewrite installed_app, <- Hi, B2. cbn. by destruct l as [| | | | | | | |[]| |].
  - intros pre mid u d ctx m Htr Hun. apply snoc_split in Htr as [(-> & [= -> <- ->] & ->)|(mid' & -> & ->)].
    + exists th'. split; [done|]. inversion Hstep; subst. cbn. exists k. cbn. rewrite lookup_app_r; rewrite rev_length; [|lia]. by rewrite Nat.sub_diag.
    + apply unended_app in Hun as [Hun1 Hun2]. destruct (Hc _ _ _ _ _ _ eq_refl Hun1) as (th1 & Hth1 & Hcall).
      destruct (decide (u = t)) as [->|Hn]; [|exists th1; by rewrite list_lookup_insert_ne].
      rewrite Ht in Hth1. injection Hth1 as <-. exists th'. split; [done|]. eapply tstep_call; [exact Hstep|done|].
      intros r -> Hd. subst d. apply (Hun2 r). by left.
  - intros pre mid u d ctx m Htr Hid. apply snoc_split in Htr as [(-> & [= -> <- ->] & ->)|(mid' & -> & ->)].
    + inversion Hstep; subst. rewrite Hmine. eexists. split; [done|]. done.
    + apply idle_app in Hid as [Hid1 Hid2]. apply idle_one in Hid2. rewrite list_lookup_insert_ne by done. by eapply Hr.
  - intros pre mid1 mid2 u d ctx m d' o Htr Hid1 Hid2. rewrite app_comm_cons, app_assoc in Htr.
    apply snoc_split in Htr as [(-> & [= -> <- ->] & ->)|(mid' & -> & ->)].
    + destruct (Hr _ _ _ _ _ _ eq_refl Hid1) as (stk & Hth & Hlen). rewrite Ht in Hth. injection Hth as ->.
      destruct (Hc pre mid1 u d ctx m eq_refl ltac:(by intros r Hin; apply Hid1 in Hin)) as (th1 & Hth1 & k & Hk).
      rewrite Ht in Hth1. injection Hth1 as <-. cbn in Hk.
      inversion Hstep; subst. rewrite Hmine. exists stk. split; [done|]. split; [done|]. exists k.
      destruct stk as [|f stk]; [done|]. cbn in *. rewrite lookup_app_r in Hk by (rewrite rev_length; lia).
      by apply list_lookup_singleton_Some in Hk as [_ ->].
    + apply idle_app in Hid2 as [Hid2 Hid3]. apply idle_one in Hid3. rewrite list_lookup_insert_ne by done.
      apply (Hf pre mid1 mid' u d ctx m d' o); [|done|done]. by rewrite <- app_assoc.
Qed.
Lemma runs_inv tr y : runs (sys_init b0 i0 ps) tr y -> inv tr y.
Proof.
  intros H. remember (sys_init b0 i0 ps) as y0 eqn:Hy. induction H as [|? tr y' e y'' _ IH Hs]; subst.
  - apply inv_init.
  - eapply inv_step; [by apply IH|exact Hs].
Qed.
Lemma runs_last y0 tr e y : runs y0 (tr ++ [e]) y -> exists y1, runs y0 tr y1 /\ step y1 e y.
Proof.
  intros H. remember (tr ++ [e]) as tr' eqn:Htr. destruct H as [y|y tr1 y1 e1 y2 H1 H2]; [by destruct tr|].
  apply app_inj_tail in Htr as [-> ->]. eauto.
Qed.
Lemma runs_prefix y0 pre post y : runs y0 (pre ++ post) y -> exists y1, runs y0 pre y1.
Proof.
  revert y. induction post as [|e post IH] using rev_ind; intros y H; [rewrite app_nil_r in H; eauto|].
  rewrite app_assoc in H. apply runs_last in H as (y1 & H1 & _). eauto.
Qed.

(** Nothing is written while a call is in progress. *)
Lemma no_write tr y pre mid t d ctx m : runs (sys_init b0 i0 ps) tr y -> tr = pre ++ (t, d, LExec ctx m) :: mid -> unended t d mid ->
  forall t' d' w, (t', d', LWrite w) ∉ mid.
Proof.
  intros H. revert mid. revert y H. induction tr as [|e tr IH] using rev_ind; intros y H mid Htr Hun t' d' w Hin; [by destruct pre|].
  apply runs_last in H as (y1 & H1 & Hs). apply snoc_split in Htr as [(-> & _)|(mid' & -> & ->)]; [by apply elem_of_nil in Hin|].
  apply unended_app in Hun as [Hun1 Hun2]. apply elem_of_app in Hin as [Hin|Hin]; [by eapply IH|]. apply elem_of_list_singleton in Hin as <-.
  destruct (runs_inv _ _ H1) as [W _ _ Hc _ _]. destruct (Hc _ _ _ _ _ _ eq_refl Hun1) as (th & Hth & k & Hk).
  inversion Hs as [s ths t1 th1 l s' th' Ht Hstep E1 E2]; subst. cbn in *. inversion Hstep; subst.
  assert (Hh := wi_held _ _ W _ _ Ht ltac:(left; eauto)). assert (H0 := wi_none _ _ W Hh). rewrite (wi_readers _ _ W) in H0.
  assert (Hle := total_le _ _ _ Hth). assert (0 < execs th); [|lia].
  unfold execs. apply elem_of_list_lookup_2 in Hk. apply elem_of_list_In, in_rev in Hk.
  assert (Hf : In (FExec k) (List.filter (fun f : Frm B M R I => match f with FExec _ => true | _ => false end) (th_stack th))) by (apply filter_In; done).
  destruct (List.filter _ _); [done|cbn; lia].
Qed.
Lemma bound_quiet (l : list Ev) b : (forall t d w, (t, d, LWrite w) ∉ l) -> bound (M:=M) (R:=R) (I:=I) b l = b.
Proof.
  induction l as [|[[t d] x] l IH] using rev_ind; [done|]. intros H. unfold bound. rewrite foldl_app. cbn. fold (bound b l).
  rewrite IH; [|intros t' d' w Hin; apply (H t' d' w), elem_of_app; by left].
  destruct x; try done. exfalso. apply (H t d w), elem_of_app. right. by left.
Qed.
Lemma installed_quiet (l : list Ev) i : (forall t d w, (t, d, LWrite w) ∉ l) -> installed (B:=B) (M:=M) (R:=R) i l = i.
Proof.
  induction l as [|[[t d] x] l IH] using rev_ind; [done|]. intros H. unfold installed. rewrite foldl_app. cbn. fold (installed i l).
  rewrite IH; [|intros t' d' w Hin; apply (H t' d' w), elem_of_app; by left].
  destruct x; try done. exfalso. apply (H t d w), elem_of_app. right. by left.
Qed.

(** ** No deadlock *)
Section Progress.
Context (Hicpt : forall i ctx m b, plain (icpt i ctx m b)) (Hhandle : forall b m, quiet (handle b m)).

(** The goroutines of programs that respect the hypotheses. *)
Inductive shape : Thread -> Prop :=
| sp_top c : (forall ctx m, c <> CRead ctx m) -> shape (mkThread c [])
| sp_read ctx m k : shape (mkThread (CRead ctx m) [FExec k])
| sp_icpt p k : plain p -> shape (mkThread (CRun p) [FExec k])
| sp_engine p e k : quiet p -> shape (mkThread (CRun p) [FEngine e k])
| sp_both p e k k' : quiet p -> (forall r, plain (k r)) -> shape (mkThread (CRun p) [FEngine e k; FExec k']).
Lemma outcome_plain ctx m o : plain (outcome_prog icpt ctx m o).
Proof. destruct o; cbn; [constructor|apply Hicpt|]. constructor. intros r. constructor. Qed.
Lemma shape_step s th l s' th' : shape th -> tstep s th l s' th' -> shape th'.
Proof.
  intros Hsh H. inversion Hsh as [c Hc|ctx m k|p k Hp|p e k Hp|p e k k' Hp Hk]; subst; inversion H; subst;
    try (by constructor); try (inversion Hp; subst; by constructor); try (apply sp_icpt; apply outcome_plain); try (by destruct (Hc ctx m)).
Qed.
Record pinv (y : Sys) : Prop := {
  pi_w : winv (sy_sh y) (sy_threads y);
  pi_shape : forall t th, sy_threads y !! t = Some th -> shape th;
  pi_locked : forall e, e ∈ sh_locked (sy_sh y) -> exists t th k, sy_threads y !! t = Some th /\ FEngine e k ∈ th_stack th }.
Lemma pinv_init : pinv (sys_init b0 i0 ps).
Proof.
  split; [apply winv_init| |done]. intros t th. cbn. rewrite list_lookup_fmap. destruct (ps !! t); [|done]. intros [= <-]. by constructor.
Qed.
Lemma pinv_step y e y' : pinv y -> step y e y' -> pinv y'.
Proof.
  intros [W Sh L] Hs. inversion Hs as [s ths t th l s' th' Ht Hstep]; subst y e y'. cbn [sy_sh sy_threads] in *.
  assert (Hlt := lookup_lt_Some _ _ _ Ht). assert (Hmine : <[t := th']> ths !! t = Some th') by by apply list_lookup_insert.
  split; cbn [sy_sh sy_threads].
  - apply (winv_step _ _ _ _ W Hs).
  - intros u x Hu. apply list_lookup_insert_Some in Hu as [(-> & <- & _)|[_ Hu]]; [|by eapply Sh]. eapply shape_step; [by eapply Sh|done].
  - assert (Hkeep : forall e, (forall k, FEngine e k ∈ th_stack th -> exists k', FEngine e k' ∈ th_stack th') -> e ∈ sh_locked s ->
      exists u x k, <[t := th']> ths !! u = Some x /\ FEngine e k ∈ th_stack x).
    { intros e Hk He. destruct (L e He) as (u & x & k & Hu & Hx). destruct (decide (u = t)) as [->|Hn].
      - rewrite Ht in Hu. injection Hu as <-. destruct (Hk k Hx) as [k' Hk']. exists t, th', k'. done.
      - exists u, x, k. by rewrite list_lookup_insert_ne. }
    intros e He. inversion Hstep; subst; cbn in *; try (apply Hkeep; [intros k0 Hk0; cbn in *; exists k0; done|done]).
    + apply Hkeep; [|done]. intros k0 Hk0. exists k0. cbn in *. by right.
    + apply Hkeep; [|done]. intros k0 Hk0. exists k0. cbn in *. by apply elem_of_cons in Hk0 as [?|?].
    + apply elem_of_union in He as [He|He]; [apply elem_of_singleton in He as ->; exists t; eexists _, k; split; [done|]; by left|].
      apply Hkeep; [|done]. intros k0 Hk0. exists k0. cbn in *. by right.
    + apply elem_of_difference in He as [He Hne]. apply Hkeep; [|done]. intros k0 Hk0. exists k0. cbn in *.
      apply elem_of_cons in Hk0 as [[= -> ->]|?]; [|done]. by destruct Hne; apply elem_of_singleton.
Qed.
Lemma runs_pinv tr y : runs (sys_init b0 i0 ps) tr y -> pinv y.
Proof.
  intros H. remember (sys_init b0 i0 ps) as y0 eqn:Hy. induction H as [|? tr y' e y'' _ IH Hs]; subst.
  - apply pinv_init.
  - eapply pinv_step; [by apply IH|exact Hs].
Qed.

Definition on_top (b : bool) (th : Thread) : Prop :=
  match th_stack th with FEngine _ _ :: _ => b = true | FExec _ :: _ => b = false | [] => False end.
Lemma progress tr y : runs (sys_init b0 i0 ps) tr y -> finished y \/ exists e y', step y e y'.
Proof.
  intros H. apply runs_pinv in H. destruct y as [s ths]. destruct H as [W Sh L]. cbn in *.
  assert (Hgo : forall t th l s' th', ths !! t = Some th -> tstep s th l s' th' -> exists e y', step (mkSys s ths) e y').
  { intros t th l s' th' Ht Hstep. eexists _, _. by econstructor. }
  destruct (decide (Exists (fun th => match th_stack th with FEngine _ _ :: _ => true | _ => false end = true) ths)) as [Hex|Hno].
  { right. apply Exists_exists in Hex as (th & Hin & Hth). apply elem_of_list_lookup in Hin as [t Ht].
    destruct s as [n w b i l]. destruct (Sh _ _ Ht) as [c Hc|ctx m k|p k Hp|p e k Hp|p e k k' Hp Hk]; cbn in Hth; try done.
    all: destruct Hp; [eapply Hgo; [exact Ht|apply ts_engine_end] | eapply Hgo; [exact Ht|apply ts_step]]. }
  assert (Hlock : forall e, e ∉ sh_locked s).
  { intros e He. destruct (L e He) as (t & th & k & Ht & Hin). apply Hno. apply Exists_exists. exists th. split; [by eapply elem_of_list_lookup_2|].
    destruct (Sh _ _ Ht) as [c Hc|ctx m k1|p k1 Hp|p e1 k1 Hp|p e1 k1 k' Hp Hk]; cbn in *; try done.
    - by apply elem_of_nil in Hin.
    - by apply elem_of_list_singleton in Hin.
    - by apply elem_of_list_singleton in Hin. }
  destruct (decide (Exists (fun th => match th_stack th with FExec _ :: _ => true | _ => false end = true) ths)) as [Hex|Hno2].
  { right. apply Exists_exists in Hex as (th & Hin & Hth). apply elem_of_list_lookup in Hin as [t Ht].
    assert (Hr : 0 < sh_readers s).
    { rewrite (wi_readers _ _ W). eapply Nat.lt_le_trans; [|by eapply total_le]. unfold execs. destruct (th_stack th) as [|[] ?]; try done. cbn. lia. }
    destruct s as [[|n] w b i l]; [cbn in Hr; lia|].
    destruct (Sh _ _ Ht) as [c Hc|ctx m k|p k Hp|p e k Hp|p e k k' Hp Hk]; cbn in Hth; try done.
    - eapply Hgo; [exact Ht|apply ts_read].
    - destruct Hp; [eapply Hgo; [exact Ht|apply ts_exec_end] | eapply Hgo; [exact Ht|apply ts_step] | eapply Hgo; [exact Ht|apply ts_engine; apply Hlock]]. }
  assert (Hemp : forall t th, ths !! t = Some th -> th_stack th = []).
  { intros t th Ht. destruct (th_stack th) as [|f k] eqn:Es; [done|]. exfalso. destruct f as [k1|e k1].
    - apply Hno2. apply Exists_exists. exists th. split; [by eapply elem_of_list_lookup_2|]. by rewrite Es.
    - apply Hno. apply Exists_exists. exists th. split; [by eapply elem_of_list_lookup_2|]. by rewrite Es. }
  assert (Hr0 : sh_readers s = 0).
  { rewrite (wi_readers _ _ W). clear -Hemp. induction ths as [|th l IH]; [done|]. cbn.
    rewrite IH; [|intros t x Hx; by apply (Hemp (S t))]. unfold execs. by rewrite (Hemp 0 th eq_refl). }
  destruct s as [n w b i l]. cbn in Hr0. subst n. destruct w.
  - (* nobody writes *)
    destruct (decide (Exists (fun th => match th_ctl th with CRun (GRet _) => false | _ => true end = true) ths)) as [Hex|Hall].
    + right. apply Exists_exists in Hex as (th & Hin & Hth). apply elem_of_list_lookup in Hin as [t Ht].
      assert (Hw := wi_free _ _ W eq_refl _ _ Ht). assert (He := Hemp _ _ Ht). assert (Hs := Sh _ _ Ht).
      destruct th as [c stk]. cbn in He. subst stk. inversion Hs as [c' Hc| | | |]; subst. cbn in Hth, Hw.
      destruct c as [p|ctx m|w k|w k|p]; try done; [|by destruct (Hc ctx m)].
      destruct p as [r|k|ctx m k|ctx b1 m k|w k]; [done|..]; eapply Hgo; try exact Ht; [apply ts_step|apply ts_exec|apply ts_engine; apply Hlock|apply ts_wait].
    + left. unfold finished. apply Forall_forall. intros th Hin. cbn in Hin. assert (Hin' := Hin). apply elem_of_list_lookup in Hin' as [t Ht].
      split; [|by eapply Hemp]. destruct (th_ctl th) as [p|ctx m|w k|w k|p] eqn:Ec; [|exfalso; apply Hall, Exists_exists; exists th; by rewrite Ec..].
      destruct p; [eauto|..]; exfalso; apply Hall, Exists_exists; exists th; by rewrite Ec.
  - right. destruct (wi_some _ _ W ltac:(done)) as (t & th & Ht & Hw). destruct th as [c stk]. unfold writes in Hw. cbn in Hw. destruct c as [p|ctx m|w k|w k|p]; try done.
    + eapply Hgo; [exact Ht|]. apply ts_lock.
    + eapply Hgo; [exact Ht|]. apply ts_write.
    + eapply Hgo; [exact Ht|]. apply ts_unlock.
  - right. destruct (wi_some _ _ W ltac:(done)) as (t & th & Ht & Hw). destruct th as [c stk]. unfold writes in Hw. cbn in Hw. destruct c as [p|ctx m|w k|w k|p]; try done.
    + by specialize (wi_wait _ _ W _ _ _ _ Ht eq_refl).
    + eapply Hgo; [exact Ht|]. apply ts_write.
    + eapply Hgo; [exact Ht|]. apply ts_unlock.
Qed.

(** ** Every schedule ends *)
Definition tlt (th' th : Thread) : Prop := exists s l s', tstep s th l s' th'.
Ltac next := constructor; let th' := fresh "th" in let s1 := fresh "s" in let l1 := fresh "l" in let s2 := fresh "s" in let Hst := fresh "Hst" in intros th' (s1 & l1 & s2 & Hst); inversion Hst; subst; cbn in *.
Lemma quiet_acc p e k stk : quiet p -> (forall r, Acc tlt (mkThread (CRun (k r)) stk)) -> Acc tlt (mkThread (CRun p) (FEngine e k :: stk)).
Proof. intros Hq Hk. induction Hq as [r|p Hq IH]; next; auto. Qed.
Lemma plain_acc p k : plain p -> (forall r, Acc tlt (mkThread (CRun (k r)) [])) -> Acc tlt (mkThread (CRun p) [FExec k]).
Proof. intros Hq Hk. induction Hq as [r|p Hq IH|ctx b m k1 Hq IH]; next; auto. by apply quiet_acc. Qed.
Lemma top_acc p : Acc tlt (mkThread (CRun p) []).
Proof.
  induction p as [r|k IH|ctx m k IH|ctx b m k IH|w k IH]; next; auto.
  - next. apply plain_acc; [apply outcome_plain|done].
  - by apply quiet_acc.
  - next. next. next. auto.
Qed.
Definition llt (ths' ths : list Thread) : Prop := exists t th th', ths !! t = Some th /\ tlt th' th /\ ths' = <[t := th']> ths.
Lemma llt_wf ths : Forall (Acc tlt) ths -> Acc llt ths.
Proof.
  induction 1 as [|th ths Hth _ IH].
  - constructor. intros ths' (t & th & th' & H & _). done.
  - revert ths IH. induction Hth as [th _ IHt]. intros ths IH. induction IH as [ths Hths IHl].
    constructor. intros ths' ([|t] & th1 & th2 & H & Hlt & ->); cbn in *.
    + injection H as <-. apply IHt; [done|]. by constructor.
    + apply IHl. exists t, th1, th2. done.
Qed.
Lemma finite (y : nat -> Sys) : y 0 = sys_init b0 i0 ps -> ~ forall k, exists e, step (y k) e (y (1 + k)).
Proof.
  intros H0 H. assert (Hgo : forall ths, Acc llt ths -> forall k, sy_threads (y k) = ths -> False).
  { intros ths Hacc. induction Hacc as [ths _ IH]. intros k Hk. destruct (H k) as [e Hs].
    inversion Hs as [s ths1 t th l s' th' Hth Hts Heq1 Heq2 Heq3].
    eapply (IH (<[t:=th']> ths1)); [|rewrite <- Heq3; done]. rewrite <- Hk, <- Heq1. cbn.
    exists t, th, th'. split; [done|]. split; [by repeat eexists|done]. }
  eapply Hgo; [apply (llt_wf (sy_threads (y 0)))|done]. rewrite H0. cbn. apply Forall_fmap, Forall_forall. intros p _. apply top_acc.
Qed.
End Progress.

(** ** One goroutine that writes *)
Section Script.
Context (Hicpt : forall i ctx m b, no_writes (icpt i ctx m b)) (Hhandle : forall b m, no_writes (handle b m)).
Context (F : Outcome B I -> Prop) (Q : option B -> option I -> Prop) (t0 : nat).

Definition frame_cont (f : Frm B M R I) : Res R -> Prog B M R I := match f with FExec k => k | FEngine _ k => k end.
(** What a goroutine that is the only one to write finds and leaves. *)
Inductive safe : option B -> option I -> Prog B M R I -> Prop :=
| sa_ret b i r : Q b i -> safe b i (GRet r)
| sa_step b i k : safe b i k -> safe b i (GStep k)
| sa_exec b i ctx m k : F (outcome b i) -> (forall r, safe b i (k r)) -> safe b i (GExec ctx m k)
| sa_dispatch b i ctx b1 m k : F (outcome b i) -> (forall r, safe b i (k r)) -> safe b i (GDispatch ctx b1 m k)
| sa_write b i w k : safe (write_bound w b) (write_icpt w i) (k (write_result w i)) -> safe b i (GWrite w k).
(** Its states. *)
Inductive tsafe : option B -> option I -> Thread -> Prop :=
| ta_run b i p : safe b i p -> tsafe b i (mkThread (CRun p) [])
| ta_wait b i w k : safe (write_bound w b) (write_icpt w i) (k (write_result w i)) -> tsafe b i (mkThread (CWait w k) [])
| ta_write b i w k : safe (write_bound w b) (write_icpt w i) (k (write_result w i)) -> tsafe b i (mkThread (CWrite w k) [])
| ta_unlock b i p : safe b i p -> tsafe b i (mkThread (CUnlock p) [])
| ta_read b i ctx m stk f : F (outcome b i) -> Forall (fun f => forall r, no_writes (frame_cont f r)) stk -> (forall r, safe b i (frame_cont f r)) ->
    tsafe b i (mkThread (CRead ctx m) (stk ++ [f]))
| ta_in b i p stk f : F (outcome b i) -> no_writes p -> Forall (fun f => forall r, no_writes (frame_cont f r)) stk -> (forall r, safe b i (frame_cont f r)) ->
    tsafe b i (mkThread (CRun p) (stk ++ [f])).
(** The states of goroutines that do not write. *)
Inductive tnw : Thread -> Prop :=
| tn_run p stk : no_writes p -> Forall (fun f => forall r, no_writes (frame_cont f r)) stk -> tnw (mkThread (CRun p) stk)
| tn_read ctx m stk : Forall (fun f => forall r, no_writes (frame_cont f r)) stk -> tnw (mkThread (CRead ctx m) stk).
Lemma outcome_nw ctx m o : no_writes (outcome_prog icpt ctx m o).
Proof. destruct o; cbn; [constructor|apply Hicpt|]. constructor. intros r. constructor. Qed.
Lemma tnw_step s th l s' th' : tnw th -> tstep s th l s' th' -> tnw th' /\ sh_bound s' = sh_bound s /\ sh_icpt s' = sh_icpt s.
Proof.
  intros Hn H. inversion H; subst; inversion Hn as [p1 stk1 Hp Hf|ctx1 m1 stk1 Hf]; subst; cbn; (split; [|done]).
  all: try (inversion Hp; subst; by constructor).
  - inversion Hp; subst. constructor. by constructor.
  - constructor; [apply outcome_nw|done].
  - apply Forall_cons in Hf as [Hf1 Hf2]. by constructor.
  - inversion Hp; subst. constructor; [apply Hhandle|by constructor].
  - apply Forall_cons in Hf as [Hf1 Hf2]. by constructor.
Qed.
Lemma app_cons_inv {A} (stk : list A) f x s : stk ++ [f] = x :: s -> stk = [] /\ f = x /\ s = [] \/ exists stk', stk = x :: stk' /\ s = stk' ++ [f].
Proof. destruct stk as [|y stk]; cbn; intros [= -> <-]; [by left|right; eauto]. Qed.
Lemma tsafe_step s th l s' th' : tsafe (sh_bound s) (sh_icpt s) th -> tstep s th l s' th' ->
  tsafe (sh_bound s') (sh_icpt s') th' /\ forall o, l = LFound o -> F o.
Proof.
  intros Ha H. inversion Ha as [b i p Hp|b i w k Hk|b i w k Hk|b i p Hp|b i ctx m stk f HF Hf Hs|b i p stk f HF Hp Hf Hs]; subst th b i.
  - inversion H; subst; cbn in *; inversion Hp; subst; (split; [|done]); try (by constructor).
    + by apply (ta_read _ _ _ _ [] (FExec k)); [|constructor|].
    + by apply (ta_in _ _ _ [] (FEngine _ k)); [|apply Hhandle|constructor|].
  - inversion H; subst; cbn in *; (split; [|done]); by constructor.
  - inversion H; subst; cbn in *; (split; [|done]); by constructor.
  - inversion H; subst; cbn in *; (split; [|done]); by constructor.
  - inversion H; subst; cbn in *. split; [|by intros o [= <-]]. apply ta_in; [done|apply outcome_nw|done|done].
  - assert (Hpop : forall g st r, stk ++ [f] = g :: st -> tsafe (sh_bound s) (sh_icpt s) (mkThread (CRun (frame_cont g r)) st)).
    { intros g st r Hst. apply app_cons_inv in Hst as [(-> & -> & ->)|(stk' & -> & ->)]; [by constructor|].
      apply Forall_cons in Hf as [Hf1 Hf2]. by apply ta_in. }
    inversion H; subst; cbn in *; inversion Hp; subst; (split; [|done]).
    + by apply ta_in.
    + rewrite app_comm_cons. apply ta_read; [done|by constructor|done].
    + match goal with E : _ = stk ++ [f] |- _ => symmetry in E; by apply (Hpop _ _ r) in E end.
    + rewrite app_comm_cons. apply ta_in; [done|apply Hhandle|by constructor|done].
    + apply ta_in; auto.
    + match goal with E : _ = stk ++ [f] |- _ => symmetry in E; by apply (Hpop _ _ r) in E end.
Qed.

Record sinv (tr : list Ev) (y : Sys) : Prop := {
  si_me : exists th, sy_threads y !! t0 = Some th /\ tsafe (sh_bound (sy_sh y)) (sh_icpt (sy_sh y)) th;
  si_others : forall t th, t <> t0 -> sy_threads y !! t = Some th -> tnw th;
  si_found : forall d o, (t0, d, LFound o) ∈ tr -> F o }.
Lemma sinv_step tr y e y' : sinv tr y -> step y e y' -> sinv (tr ++ [e]) y'.
Proof.
  intros [(th0 & H0 & Hsafe) Ho Hfd] Hs. inversion Hs as [s ths t th l s' th' Ht Hstep]; subst y e y'. cbn [sy_sh sy_threads] in *.
  assert (Hlt := lookup_lt_Some _ _ _ Ht). assert (Hmine : <[t := th']> ths !! t = Some th') by by apply list_lookup_insert.
  destruct (decide (t = t0)) as [->|Hn].
  - rewrite Ht in H0. injection H0 as <-. destruct (tsafe_step _ _ _ _ _ Hsafe Hstep) as [Hsafe' Hl]. split; cbn.
    + eauto.
    + intros u x Hu. rewrite list_lookup_insert_ne by done. by apply Ho.
    + intros d o Hin. apply elem_of_app in Hin as [Hin|Hin]; [by eapply Hfd|]. apply elem_of_list_singleton in Hin as [= _ <-]. by apply Hl.
  - destruct (tnw_step _ _ _ _ _ (Ho _ _ Hn Ht) Hstep) as (Hnw & E1 & E2). split; cbn.
    + exists th0. rewrite list_lookup_insert_ne by done. by rewrite E1, E2.
    + intros u x Hu Hx. apply list_lookup_insert_Some in Hx as [(-> & <- & _)|[_ Hx]]; [done|by eapply Ho].
    + intros d o Hin. apply elem_of_app in Hin as [Hin|Hin]; [by eapply Hfd|]. apply elem_of_list_singleton in Hin as [= -> _]. done.
Qed.
Lemma safe_then b i p k : F (outcome b i) -> no_writes p -> (forall r, safe b i (k r)) -> safe b i (g_then p k).
Proof. intros HF Hp Hk. induction Hp; cbn; try constructor; auto. Qed.
Lemma script tr y p : runs (sys_init b0 i0 ps) tr y -> ps !! t0 = Some p -> safe b0 i0 p ->
  (forall t q, t <> t0 -> ps !! t = Some q -> no_writes q) ->
  (forall d o, (t0, d, LFound o) ∈ tr -> F o) /\ (ended y t0 -> Q (bound b0 tr) (installed i0 tr)).
Proof.
  intros H Hp Hsafe Ho. assert (Hv := runs_inv _ _ H). destruct Hv as [_ Eb Ei _ _ _]. rewrite <- Eb, <- Ei. clear Eb Ei.
  assert (Hi : sinv tr y).
  { remember (sys_init b0 i0 ps) as y0 eqn:Hy. induction H as [|? tr y' e y'' _ IH Hs]; subst; [|eapply sinv_step; [by apply IH|exact Hs]].
    split; cbn.
    - rewrite list_lookup_fmap, Hp. cbn. eexists. split; [done|]. by constructor.
    - intros t th Hn. rewrite list_lookup_fmap. destruct (ps !! t) as [q|] eqn:Eq; [|done]. intros [= <-]. constructor; [by eapply Ho|constructor].
    - intros d o Hin. by apply elem_of_nil in Hin. }
  destruct Hi as [(th & Hth & Hts) _ Hfd]. split; [done|]. intros [r Hr]. rewrite Hth in Hr. injection Hr as ->.
  inversion Hts as [b i q Hq| | | | |b i q stk f ? ? ? ?]; subst.
  - by inversion Hq.
  - by destruct stk.
Qed.
End Script.
End ExecLemmas.
