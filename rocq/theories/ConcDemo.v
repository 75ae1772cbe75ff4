(** * Concrete schedules. *)
From Verif Require Export ConcSpec.

Section Exec.
Context {S F E : Type}.
(** A schedule is a list of goroutines; [true]: its wait for the mutex is given up. *)
Definition cstep_fun (give_up : bool) (n : N) (b : bool) (s : S) (p : Code S F E) : option (Label F E * N * bool * S * Code S F E) :=
  match p with
  | CEnd _ => None
  | CNotify f k => Some (LNotify f, n, b, s, k)
  | CNext k => Some (LNext (id_string (n + 1)), (n + 1)%N, b, s, k (id_string (n + 1)))
  | CZero k => Some (LZero, 0%N, b, s, k)
  | CAccess f k => Some (LAccess, n, b, f s, k (f s))
  | CLock ctx k =>
    match give_up, ctx, b with
    | true, Some e, _ => Some (LGiveUp, n, b, s, k (Some e))
    | false, _, false => Some (LLock, n, true, s, k None)
    | _, _, _ => None
    end
  | CUnlock k => if b then Some (LUnlock, n, false, s, k) else None
  end.
Lemma cstep_fun_ok give_up n b s p l n' b' s' p' :
  cstep_fun give_up n b s p = Some (l, n', b', s', p') -> cstep n b s p l n' b' s' p'.
Proof.
  destruct p; cbn; try done; try (by intros [= <- <- <- <- <-]; constructor).
  - destruct give_up, ctx, b; try done; intros [= <- <- <- <- <-]; constructor.
  - destruct b; [|done]. intros [= <- <- <- <- <-]; constructor.
Qed.
Definition tstep_fun (give_up : bool) (n : N) (b : bool) (s : S) (th : Thread S F E) : option (Label F E * N * bool * S * Thread S F E) :=
  match th with
  | mkThread i None [] => None
  | mkThread i None (c :: rest) => Some (LCall, n, b, s, mkThread i (Some (code_of c)) rest)
  | mkThread i (Some (CEnd r)) rest => Some (LEnd r, n, b, s, mkThread (1 + i) None rest)
  | mkThread i (Some p) rest =>
    match cstep_fun give_up n b s p with
    | Some (l, n', b', s', p') => Some (l, n', b', s', mkThread i (Some p') rest)
    | None => None
    end
  end.
Lemma tstep_fun_ok give_up n b s th l n' b' s' th' :
  tstep_fun give_up n b s th = Some (l, n', b', s', th') -> tstep n b s th l n' b' s' th'.
Proof.
  destruct th as [i [p|] rest]; cbn [tstep_fun].
  - assert (Hp : match cstep_fun give_up n b s p with
      | Some (l, n', b', s', p') => Some (l, n', b', s', mkThread i (Some p') rest)
      | None => None end = Some (l, n', b', s', th') -> tstep n b s (mkThread i (Some p) rest) l n' b' s' th').
    { destruct (cstep_fun give_up n b s p) as [[[[[? ?] ?] ?] ?]|] eqn:Hc; [|done]. intros [= <- <- <- <- <-].
      apply ts_code. eapply cstep_fun_ok. done. }
    destruct p; try exact Hp. intros [= <- <- <- <- <-]. apply ts_end.
  - destruct rest as [|c rest]; [done|]. intros [= <- <- <- <- <-]. apply ts_call.
Qed.
Fixpoint exec (sched : list (nat * bool)) (tr : list (OpId * Label F E)) (y : Sys S F E) : option (list (OpId * Label F E) * Sys S F E) :=
  match sched with
  | [] => Some (tr, y)
  | (t, give_up) :: sched =>
    match sy_threads y !! t with
    | Some th =>
      match tstep_fun give_up (sy_ctr y) (sy_locked y) (sy_state y) th with
      | Some (l, n', b', s', th') => exec sched (tr ++ [((t, th_n th), l)]) (mkSys n' b' s' (<[t := th']> (sy_threads y)))
      | None => None
      end
    | None => None
    end
  end.
Lemma exec_ok sched y0 tr y tr' y' : runs y0 tr y -> exec sched tr y = Some (tr', y') -> runs y0 tr' y'.
Proof.
  revert tr y. induction sched as [|[t g] sched IH]; intros tr y Hr; cbn; [by intros [= <- <-]|].
  destruct (sy_threads y !! t) as [th|] eqn:Ht; [|done].
  destruct (tstep_fun _ _ _ _ th) as [[[[[l n'] b'] s'] th']|] eqn:Hs; [|done]. apply IH. econstructor; [done|].
  destruct y as [n b s ths]. cbn in *. econstructor; [done|]. eapply tstep_fun_ok. done.
Qed.
End Exec.

(** The protected state counts the handled messages per ID; facts and errors are
    strings. *)
Definition demo_handle (id : string) : Body (list string) string string :=
  BAccess (fun s => s ++ [id]) (fun s => BNotify (String.append "handled " id) (BNext (fun id' =>
  BAccess (fun s => s ++ [id']) (fun _ => BEnd (Returned ""))))).
Definition demo_dispatch : Call (list string) string string :=
  KDispatch (Some "cancelled") (fun id => Some (String.append "dispatch " id)) demo_handle (fun id e => String.append "dispatched " id).
Definition demo_tick : Call (list string) string string :=
  KTick (Some "cancelled") "tick" (BAccess (fun s => s ++ ["tick"]) (fun _ => BEnd (Returned ""))) (fun e => String.append "ticked " e).
Definition demo_reset : Call (list string) string string :=
  KReset (BAccess (fun _ => []) (fun _ => BEnd (Returned ""))).

(** Goroutines 0 and 1 begin a Dispatch each, goroutine 1 is the first to lock the
    mutex; meanwhile goroutine 2 gives up a Tick. *)
Definition demo_calls : list (list (Call (list string) string string)) := [[demo_dispatch]; [demo_dispatch; demo_reset]; [demo_tick; demo_tick]].
Definition demo_sched : list (nat * bool) :=
  (fun t => (t, false)) <$> [0; 0; 1; 1; 1; 0; 1; 1; 2; 2].
Definition demo_sched' : list (nat * bool) :=
  demo_sched ++ (2, true) :: ((fun t => (t, false)) <$> [1; 2; 1; 1; 1; 1; 2; 1; 0; 0; 2; 0; 0; 2; 0; 0; 0; 0; 2; 2; 2; 2; 2; 1; 1; 1; 1; 1; 1]).
(** Goroutine 0 allocates an ID and is then overtaken by goroutine 1. *)
Definition reset_calls : list (list (Call (list string) string string)) := [[demo_dispatch]; [demo_reset; demo_dispatch]].
Definition reset_sched : list (nat * bool) :=
  (fun t => (t, false)) <$> ([0; 0] ++ replicate 17 1 ++ replicate 9 0).
