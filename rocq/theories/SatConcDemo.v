(** * Schedules of goroutines that use a *SatisfyT, for examples and refutations. *)
From Verif Require Import SatConcSpec.

Definition endedb (th : Thr) : bool := match th with mkT (Run (TRet _)) [] => true | _ => false end.
Lemma endedb_ok th : endedb th = true <-> ended th.
Proof.
  split.
  - destruct th as [[[]|] []]; try done. intros _. by eexists.
  - by intros [s ->].
Qed.
(** The next step of a goroutine. *)
Definition tnext (ths : list Thr) (t : nat) (st : SState) (lk : option nat) (th : Thr) : option (Lab * SState * option nat * Thr) :=
  let stk := th_stk th in
  match th_ctl th with
  | Run (TStep k) => Some (LTau, st, lk, mkT (Run k) stk)
  | Run (TCall MParallel _ _ k) => Some (LTau, st, lk, mkT (Run k) stk)
  | Run (TCall m a at_ k) =>
      match lk with None => Some (LTau, st, Some t, mkT (Run (if formats m then a else TRet "")) (FFmt m at_ k :: stk)) | _ => None end
  | Run (TRet s) =>
      match stk with
      | FFmt m at_ k :: stk => Some (LTau, st, lk, mkT (Body (method_steps m s at_) (method_panic m) k) stk)
      | FTry k :: stk => Some (LTried None, st, lk, mkT (Run (k None)) stk)
      | [] => None
      end
  | Run (TPanic v) =>
      match stk with
      | FFmt m at_ k :: stk => Some (LTau, st, lk, mkT (Body (method_steps m (fmt_panic v) at_) (method_panic m) k) stk)
      | FTry k :: stk => Some (LTried (Some v), st, lk, mkT (Run (k (Some v))) stk)
      | [] => None
      end
  | Body ((o, f) :: l) r k => Some (lab o, f st, lk, mkT (Body l r k) stk)
  | Body [] r k => Some (LTau, st, None, mkT (Run match r with Some v => TPanic v | None => k end) stk)
  | Run (TFailed k) => match lk with None => Some (LSat (SvFailed (ss_failed st)), st, None, mkT (Run (k (ss_failed st))) stk) | _ => None end
  | Run (TSkipped k) => match lk with None => Some (LSat (SvSkipped (ss_skipped st)), st, None, mkT (Run (k (ss_skipped st))) stk) | _ => None end
  | Run (TCleanup fn k) => match lk with None => Some (LTau, st, Some t, mkT (Body [(Some (SvCleanup fn), add_cleanup fn)] None k) stk) | _ => None end
  | Run (TWait u k) => match ths !! u with Some th' => if endedb th' then Some (LTau, st, lk, mkT (Run k) stk) else None | None => None end
  | Run (TTry p k) => Some (LTau, st, lk, mkT (Run p) (FTry k :: stk))
  | Run (TPeek k) => Some (LTau, st, lk, mkT (Run (k st)) stk)
  | Run (TOut o k) => Some (LOut o, st, lk, mkT (Run k) stk)
  end.
Lemma tnext_ok ths t st lk th l st' lk' th' : tnext ths t st lk th = Some (l, st', lk', th') -> tstep ths t st lk th l st' lk' th'.
Proof.
  destruct th as [[p|[|[o f] l0] r k] stk]; unfold tnext; cbn [th_ctl th_stk];
    [|intros [= <- <- <- <-]; constructor|intros [= <- <- <- <-]; constructor].
  destruct p as [s|v|k|m a at_ k|k|k|fn k|u k|p k|k|o k].
  - destruct stk as [|[m at_ k|k] stk]; [done| |]; intros [= <- <- <- <-]; constructor.
  - destruct stk as [|[m at_ k|k] stk]; [done| |]; intros [= <- <- <- <-]; constructor.
  - intros [= <- <- <- <-]; constructor.
  - destruct m; try (destruct lk; [done|]); intros [= <- <- <- <-]; first [apply T_parallel | match goal with |- tstep _ _ _ _ (mkT (Run (TCall ?m _ _ _)) _) _ _ _ _ => refine (T_lock ths t _ m a at_ k stk _); discriminate end].
  - destruct lk; [done|]. intros [= <- <- <- <-]; constructor.
  - destruct lk; [done|]. intros [= <- <- <- <-]; constructor.
  - destruct lk; [done|]. intros [= <- <- <- <-]; constructor.
  - destruct (ths !! u) as [th0|] eqn:Hu; [|done]. destruct (endedb th0) eqn:He; [|done]. intros [= <- <- <- <-].
    eapply T_wait; [exact Hu|]. by apply endedb_ok.
  - intros [= <- <- <- <-]; constructor.
  - intros [= <- <- <- <-]; constructor.
  - intros [= <- <- <- <-]; constructor.
Qed.
Lemma tnext_complete ths t st lk th l st' lk' th' : tstep ths t st lk th l st' lk' th' -> tnext ths t st lk th <> None.
Proof.
  intros H. destruct H as [|st m a at_ k stk Hm| | | | | | | | |st lk u k stk th' Hu He| | | | |]; cbn; try done; try by destruct m.
  rewrite Hu. apply endedb_ok in He. by rewrite He.
Qed.

(** One step of a system, if the goroutine [t] can take one. *)
Definition snext (y : Sys) (t : nat) : option (Lab * Sys) :=
  match sy_crash y, sy_ths y !! t with
  | None, Some th =>
      match th with
      | mkT (Run (TPanic v)) [] => Some (LCrash v, mkSys (sy_st y) (sy_lock y) (Some v) (sy_ths y))
      | _ => match tnext (sy_ths y) t (sy_st y) (sy_lock y) th with
             | Some (l, st', lk', th') => Some (l, mkSys st' lk' None (<[t := th']> (sy_ths y)))
             | None => None
             end
      end
  | _, _ => None
  end.
Lemma snext_ok y t l y' : snext y t = Some (l, y') -> step y (t, l) y'.
Proof.
  destruct y as [st lk cr ths]. unfold snext. cbn. destruct cr; [done|]. destruct (ths !! t) as [th|] eqn:Ht; [|done].
  assert (Hx : match tnext ths t st lk th with Some (l, st', lk', th') => Some (l, mkSys st' lk' None (<[t := th']> ths)) | None => None end
    = Some (l, y') -> step (mkSys st lk None ths) (t, l) y').
  { destruct (tnext ths t st lk th) as [[[[l1 st1] lk1] th1]|] eqn:En; [|done]. intros [= <- <-]. econstructor; [exact Ht|by apply tnext_ok]. }
  destruct th as [[[]|] []]; try exact Hx. intros [= <- <-]. by constructor.
Qed.
Lemma snext_complete y t l y' : step y (t, l) y' -> snext y t <> None.
Proof.
  intros H. inversion H as [st lk ths t' th l' st' lk' th' Ht Hst|st lk ths t' v Ht]; subst; unfold snext; cbn; rewrite Ht; [|done].
  apply tnext_complete in Hst. destruct (tnext ths t st lk th) as [[[[l1 st1] lk1] th1]|] eqn:En; [|done].
  destruct th as [[[]|] []]; done.
Qed.
(** Run a schedule: the goroutine of each step. *)
Fixpoint sched (sc : list nat) (tr : list (nat * Lab)) (y : Sys) : option (list (nat * Lab) * Sys) :=
  match sc with
  | [] => Some (tr, y)
  | t :: sc => match snext y t with Some (l, y') => sched sc (tr ++ [(t, l)]) y' | None => None end
  end.
Lemma sched_ok y0 sc tr y tr' y' : runs y0 tr y -> sched sc tr y = Some (tr', y') -> runs y0 tr' y'.
Proof.
  revert tr y. induction sc as [|t sc IH]; intros tr y Hr; cbn; [by intros [= <- <-]|].
  destruct (snext y t) as [[l y1]|] eqn:En; [|done]. intros H. eapply IH; [|exact H]. econstructor; [exact Hr|by apply snext_ok].
Qed.
(** A state in which no goroutine can take a step. *)
Definition jammed (y : Sys) : bool := forallb (fun t => match snext y t with None => true | _ => false end) (seq 0 (length (sy_ths y))).
Lemma jammed_ok y : jammed y = true -> forall e y', ~ step y e y'.
Proof.
  unfold jammed. rewrite forallb_forall. intros H [t l] y' Hs. assert (Ht : t < length (sy_ths y)).
  { inversion Hs; subst; cbn; by eapply lookup_lt_Some. }
  assert (Hin : In t (seq 0 (length (sy_ths y)))) by (apply in_seq; lia). specialize (H _ Hin).
  apply snext_complete in Hs. by destruct (snext y t).
Qed.

(** An environment and code for examples. *)
Definition ex_fn : Fn := {| fn_name := txt "example.check"; fn_file := txt "/src/check_test.go" |}.
Definition ex_site (n : Z) : Site := {| si_pc := 7; si_line := n |}.
Definition ex_stack (n : Z) : list SFrame := [frame_at ex_fn (ex_site n)].
Definition ex_env : SEnv := mkSEnv (txt "/testkit/expectation.satisfy.go") (ex_site 93) (ex_site 94) (ex_site 368) [] [].
