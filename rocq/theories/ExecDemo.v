(** * Schedules of a CommandExecutor, for examples and refutations. *)
From Verif Require Import ExecSpec.

Section ExecDemo.
Context {B M R I : Type} (engine : B -> nat) (icpt : I -> option R -> M -> B -> Prog B M R I) (handle : B -> M -> Prog B M R I).

(** The next step of a goroutine; [g]: a pending call of an engine gives up. *)
Definition tnext (g : bool) (s : Shared B I) (th : Thread B M R I) : option (Label B M R I * Shared B I * Thread B M R I) :=
  let '(mkShared n w b i l) := s in
  let stk := th_stack th in
  match th_ctl th with
  | CRun (GStep k) => Some (LStep, s, mkThread (CRun k) stk)
  | CRun (GExec ctx m k) =>
      match w with WFree => Some (LExec ctx m, mkShared (S n) w b i l, mkThread (CRead ctx m) (FExec k :: stk)) | _ => None end
  | CRun (GDispatch ctx b1 m k) =>
      if g then match ctx with Some e => Some (LGiveUp e, s, mkThread (CRun (k (Returned e))) stk) | None => None end
      else if decide (engine b1 ∈ l) then None
      else Some (LEngine ctx b1 m, mkShared n w b i ({[engine b1]} ∪ l), mkThread (CRun (handle b1 m)) (FEngine (engine b1) k :: stk))
  | CRun (GWrite w1 k) => match w with WFree => Some (LWait, mkShared n WPending b i l, mkThread (CWait w1 k) stk) | _ => None end
  | CRun (GRet r) =>
      match stk with
      | FExec k :: stk' => match n with S n => Some (LExecEnd r, mkShared n w b i l, mkThread (CRun (k r)) stk') | _ => None end
      | FEngine e k :: stk' => Some (LEngineEnd r, mkShared n w b i (l ∖ {[e]}), mkThread (CRun (k r)) stk')
      | [] => None
      end
  | CRead ctx m => Some (LFound (outcome b i), s, mkThread (CRun (outcome_prog icpt ctx m (outcome b i))) stk)
  | CWait w1 k => match w, n with WPending, 0 => Some (LLock, mkShared 0 WHeld b i l, mkThread (CWrite w1 k) stk) | _, _ => None end
  | CWrite w1 k => Some (LWrite w1, mkShared n w (write_bound w1 b) (write_icpt w1 i) l, mkThread (CUnlock (k (write_result w1 i))) stk)
  | CUnlock p => Some (LUnlock, mkShared n WFree b i l, mkThread (CRun p) stk)
  end.
Lemma tnext_ok g s th l s' th' : tnext g s th = Some (l, s', th') -> tstep engine icpt handle s th l s' th'.
Proof.
  destruct s as [n w b i lk], th as [c stk]. unfold tnext. cbn.
  destruct c as [[r|k|ctx m k|ctx b1 m k|w1 k]|ctx m|w1 k|w1 k|p].
  - destruct stk as [|[k|e k] stk]; [done| |intros [= <- <- <-]; constructor]. destruct n; [done|]. intros [= <- <- <-]; constructor.
  - intros [= <- <- <-]; constructor.
  - destruct w; try done. intros [= <- <- <-]; constructor.
  - destruct g; [destruct ctx; [|done]; intros [= <- <- <-]; constructor|]. destruct (decide _); [done|]. intros [= <- <- <-]; by constructor.
  - destruct w; try done. intros [= <- <- <-]; constructor.
  - intros [= <- <- <-]; constructor.
  - destruct w; try done. destruct n; try done. intros [= <- <- <-]; constructor.
  - intros [= <- <- <-]; constructor.
  - intros [= <- <- <-]; constructor.
Qed.
Lemma tnext_complete s th l s' th' : tstep engine icpt handle s th l s' th' -> exists g, tnext g s th <> None.
Proof.
  intros H. destruct s as [n w b i lk]. inversion H; subst;
    [exists false|exists false|exists false|exists false|exists false|exists true|exists false|exists false|exists false|exists false|exists false];
    cbn; try done. by destruct (decide _).
Qed.
(** A state in which no goroutine can take a step. *)
Definition jammed (y : Sys B M R I) : bool :=
  forallb (fun th => match tnext false (sy_sh y) th, tnext true (sy_sh y) th with None, None => true | _, _ => false end) (sy_threads y).
Lemma jammed_ok y : jammed y = true -> forall e y', ~ step engine icpt handle y e y'.
Proof.
  unfold jammed. rewrite forallb_forall. intros H e y' Hs. inversion Hs as [s ths t th l s' th' Ht Hst]; subst. cbn in H.
  apply elem_of_list_lookup_2, elem_of_list_In in Ht. specialize (H _ Ht). apply tnext_complete in Hst as [[] Hg];
    destruct (tnext false s th), (tnext true s th); done.
Qed.

(** Run a schedule: for each step the goroutine, and whether its call gives up. *)
Fixpoint sched (sc : list (nat * bool)) (tr : list (nat * nat * Label B M R I)) (y : Sys B M R I) : option (list (nat * nat * Label B M R I) * Sys B M R I) :=
  match sc with
  | [] => Some (tr, y)
  | (t, g) :: sc =>
      match sy_threads y !! t with
      | Some th =>
          match tnext g (sy_sh y) th with
          | Some (l, s', th') => sched sc (tr ++ [(t, depth l th, l)]) (mkSys s' (<[t := th']> (sy_threads y)))
          | None => None
          end
      | None => None
      end
  end.
Lemma sched_ok y0 sc tr y tr' y' : runs engine icpt handle y0 tr y -> sched sc tr y = Some (tr', y') -> runs engine icpt handle y0 tr' y'.
Proof.
  revert tr y. induction sc as [|[t g] sc IH]; intros tr y Hr; cbn; [by intros [= <- <-]|].
  destruct (sy_threads y !! t) as [th|] eqn:Et; [|done]. destruct (tnext g (sy_sh y) th) as [[[l s'] th']|] eqn:En; [|done].
  intros H. eapply IH; [|exact H]. econstructor; [exact Hr|]. apply tnext_ok in En. destruct y as [s ths]. by econstructor.
Qed.
End ExecDemo.
