(** * expectation.satisfy.go: a *SatisfyT used by several goroutines.

    The function passed to ToSatisfy may start goroutines that use its *SatisfyT.  All
    methods lock its mutex; Done, close, Ok and Report read its fields without.  This file
    models each lock, each write and each read without the lock as a step of a goroutine.
    What the methods do is that of SatisfyModel.v, split into steps; [method_steps_ok] in
    SatConcLemmas.v proves that the steps together are [s_method]. *)
From Verif Require Export SatisfyModel.

(** What Report says, expectation.satisfy.go:96-125, without criteria and TreeOk. *)
Record CReport := mkCR { cr_ok : bool; cr_outcome : string; cr_explanation : text; cr_log : list string }.

(** What the predicate does, as seen from outside: a cleanup function begins; the
    function or a cleanup function ends; Done returns (nil) or panics; Ok and Report
    answer. *)
Inductive COut :=
| OBegin (fn : Fn * SProg) | OEnd (r : option SPan) | ODone (r : option SPan)
| OOk (b : bool) | OReport (r : CReport).

(** Code of a goroutine.  [TRet s] returns (a String method returns [s]); [TPanic v]
    panics; [TStep k] is code that does not use the *SatisfyT; [TCall m a stk k] calls
    the method [m] from the frames [stk], where [a] is the code that formats its
    arguments (their String, Error, Format methods), run by methods that log; [TFailed],
    [TSkipped] and [TCleanup] call Failed, Skipped and Cleanup; [TWait t k] waits until
    the goroutine [t] has ended; [TTry p k] runs [p] and goes on with [k], which learns
    whether it panicked (a deferred function that recovers).  [TPeek] and [TOut] are not
    for user code: they read one field without the lock, and make an answer visible. *)
Inductive TP :=
| TRet (s : string)
| TPanic (v : SPan)
| TStep (k : TP)
| TCall (m : SMethod) (a : TP) (stk : list SFrame) (k : TP)
| TFailed (k : bool -> TP)
| TSkipped (k : bool -> TP)
| TCleanup (fn : Fn * SProg) (k : TP)
| TWait (t : nat) (k : TP)
| TTry (p : TP) (k : option SPan -> TP)
| TPeek (k : SState -> TP)
| TOut (o : COut) (k : TP).

(** ** The methods in steps *)

(** A write, and the event it makes visible.  A call becomes visible when it sets failed
    or skipped; that of another method when it has its effect. *)
Definition Micro : Type := option SEv * (SState -> SState).
(** t.failed = true, 336; t.skipped = true, 328; append to t.cleanup, 165. *)
Definition set_failed (st : SState) : SState :=
  mkS (ss_skipped st) true (ss_explanation st) (ss_messages st) (ss_cleanup st) (ss_caller st) (ss_helpers st).
Definition set_skipped (st : SState) : SState :=
  mkS true (ss_failed st) (ss_explanation st) (ss_messages st) (ss_cleanup st) (ss_caller st) (ss_helpers st).
Definition add_cleanup (fn : Fn * SProg) (st : SState) : SState :=
  mkS (ss_skipped st) (ss_failed st) (ss_explanation st) (ss_messages st) (ss_cleanup st ++ [fn]) (ss_caller st) (ss_helpers st).
(** The writes of the methods, 169-303, made while the mutex is locked. *)
Definition method_steps (m : SMethod) (s : string) (stk : list SFrame) : list Micro :=
  let above := own_frame "(*SatisfyT).method" :: stk in
  let ev := Some (SvCall m s stk) in
  let fail := [(ev, set_failed); (None, s_explain m (own_frame "(*SatisfyT).fail" :: above))] in
  let skip := [(ev, set_skipped); (None, s_explain m (own_frame "(*SatisfyT).skip" :: above))] in
  match m with
  | MError | MErrorf | MFatal | MFatalf => (None, s_log s) :: fail          (* 169-184, 212-229 *)
  | MFail | MFailNow => fail                                                (* 187-201 *)
  | MLog | MLogf => [(ev, s_log s)]                                         (* 253-267 *)
  | MSkip | MSkipf => (None, s_log s) :: skip                               (* 280-286, 297-303 *)
  | MSkipNow => skip                                                        (* 289-294 *)
  | MHelper => [(ev, s_helper above)]                                       (* 240-249 *)
  | MParallel => []
  end.
(** Methods that panic(abortSentinel{}), after the deferred Unlock: 200, 218, 228, 330. *)
Definition method_panic (m : SMethod) : option SPan :=
  match m with MFailNow | MFatal | MFatalf | MSkip | MSkipNow | MSkipf => Some SAbort | _ => None end.
(** Methods that format arguments with the mutex locked, 314-323. *)
Definition formats (m : SMethod) : bool :=
  match m with MError | MErrorf | MFatal | MFatalf | MLog | MLogf | MSkip | MSkipf => true | _ => false end.
(** fmt.Sprint and fmt.Sprintf recover panics of String methods and print them; what they
    print does not matter. *)
Definition fmt_panic (v : SPan) : string := "%!v(PANIC=String method)".

(** ** Goroutines *)

(** Calls in progress: a method that formats its arguments (the mutex is locked); a
    [TTry]. *)
Inductive Frm := FFmt (m : SMethod) (stk : list SFrame) (k : TP) | FTry (k : option SPan -> TP).
(** [Body l r k]: the mutex is locked, the writes [l] are left, then it is unlocked and
    the method panics with [r] or returns to [k]. *)
Inductive Ctl := Run (p : TP) | Body (l : list Micro) (r : option SPan) (k : TP).
Record Thr := mkT { th_ctl : Ctl; th_stk : list Frm }.
(** The mutex is held by the goroutine [sy_lock]; a panic nobody recovered ends the
    process. *)
Record Sys := mkSys { sy_st : SState; sy_lock : option nat; sy_crash : option SPan; sy_ths : list Thr }.

(** What a step makes visible. *)
Inductive Lab := LTau | LSat (e : SEv) | LOut (o : COut) | LTried (r : option SPan) | LCrash (v : SPan).
Definition lab (o : option SEv) : Lab := match o with Some e => LSat e | None => LTau end.

Definition ended (th : Thr) : Prop := exists s, th = mkT (Run (TRet s)) [].

(** A step of the goroutine [t].  [ths] are all goroutines.  RLock, the read and RUnlock
    of Failed and Skipped are one step: what is read is protected meanwhile, and nothing
    is blocked for good by it. *)
Inductive tstep (ths : list Thr) (t : nat) : SState -> option nat -> Thr -> Lab -> SState -> option nat -> Thr -> Prop :=
| T_step st lk k stk : tstep ths t st lk (mkT (Run (TStep k)) stk) LTau st lk (mkT (Run k) stk)
(* t.m.Lock(), then the arguments are formatted *)
| T_lock st m a at_ k stk : m <> MParallel ->
    tstep ths t st None (mkT (Run (TCall m a at_ k)) stk) LTau
          st (Some t) (mkT (Run (if formats m then a else TRet "")) (FFmt m at_ k :: stk))
(* Parallel does nothing, 236-237 *)
| T_parallel st lk a at_ k stk : tstep ths t st lk (mkT (Run (TCall MParallel a at_ k)) stk) LTau st lk (mkT (Run k) stk)
| T_formatted st lk s m at_ k stk :
    tstep ths t st lk (mkT (Run (TRet s)) (FFmt m at_ k :: stk)) LTau st lk (mkT (Body (method_steps m s at_) (method_panic m) k) stk)
| T_fmt_panic st lk v m at_ k stk :
    tstep ths t st lk (mkT (Run (TPanic v)) (FFmt m at_ k :: stk)) LTau
          st lk (mkT (Body (method_steps m (fmt_panic v) at_) (method_panic m) k) stk)
| T_write st lk o f l r k stk : tstep ths t st lk (mkT (Body ((o, f) :: l) r k) stk) (lab o) (f st) lk (mkT (Body l r k) stk)
(* the deferred t.m.Unlock() *)
| T_unlock st lk r k stk :
    tstep ths t st lk (mkT (Body [] r k) stk) LTau st None (mkT (Run match r with Some v => TPanic v | None => k end) stk)
| T_failed st k stk :                                                       (* 204-209 *)
    tstep ths t st None (mkT (Run (TFailed k)) stk) (LSat (SvFailed (ss_failed st))) st None (mkT (Run (k (ss_failed st))) stk)
| T_skipped st k stk :                                                      (* 306-311 *)
    tstep ths t st None (mkT (Run (TSkipped k)) stk) (LSat (SvSkipped (ss_skipped st))) st None (mkT (Run (k (ss_skipped st))) stk)
| T_cleanup st fn k stk :                                                   (* 161-166 *)
    tstep ths t st None (mkT (Run (TCleanup fn k)) stk) LTau
          st (Some t) (mkT (Body [(Some (SvCleanup fn), add_cleanup fn)] None k) stk)
| T_wait st lk u k stk th : ths !! u = Some th -> ended th ->
    tstep ths t st lk (mkT (Run (TWait u k)) stk) LTau st lk (mkT (Run k) stk)
| T_try st lk p k stk : tstep ths t st lk (mkT (Run (TTry p k)) stk) LTau st lk (mkT (Run p) (FTry k :: stk))
| T_tried st lk s k stk : tstep ths t st lk (mkT (Run (TRet s)) (FTry k :: stk)) (LTried None) st lk (mkT (Run (k None)) stk)
| T_recovered st lk v k stk :
    tstep ths t st lk (mkT (Run (TPanic v)) (FTry k :: stk)) (LTried (Some v)) st lk (mkT (Run (k (Some v))) stk)
| T_peek st lk k stk : tstep ths t st lk (mkT (Run (TPeek k)) stk) LTau st lk (mkT (Run (k st)) stk)
| T_out st lk o k stk : tstep ths t st lk (mkT (Run (TOut o k)) stk) (LOut o) st lk (mkT (Run k) stk).

Inductive step : Sys -> nat * Lab -> Sys -> Prop :=
| S_step st lk ths t th l st' lk' th' : ths !! t = Some th -> tstep ths t st lk th l st' lk' th' ->
    step (mkSys st lk None ths) (t, l) (mkSys st' lk' None (<[t := th']> ths))
(* a panic that reaches the top of its goroutine ends the process *)
| S_crash st lk ths t v : ths !! t = Some (mkT (Run (TPanic v)) []) ->
    step (mkSys st lk None ths) (t, LCrash v) (mkSys st lk (Some v) ths).
Inductive runs (y0 : Sys) : list (nat * Lab) -> Sys -> Prop :=
| runs_nil : runs y0 [] y0
| runs_snoc tr y e y' : runs y0 tr y -> step y e y' -> runs y0 (tr ++ [e]) y'.

(** ** The goroutine that calls Done, Ok and Report *)

(** A user function of SatisfyModel.v (a cleanup function), as code of a goroutine. *)
Fixpoint t_prog (fn : Fn) (stk : list SFrame) (p : SProg) : TP :=
  match p with
  | SRet => TRet ""
  | SPanic v => TPanic v
  | SCall m s at_ k => TCall m (TRet s) (frame_at fn at_ :: stk) (t_prog fn stk k)
  | SFailed k => TFailed (fun b => t_prog fn stk (k b))
  | SSkipped k => TSkipped (fun b => t_prog fn stk (k b))
  | SCleanup g p k => TCleanup (g, p) (t_prog fn stk k)
  | SInvoke at_ g p k =>
      TTry (t_prog g (frame_at fn at_ :: stk) p) (fun r => match r with None => t_prog fn stk k | Some v => TPanic v end)
  | STry at_ g p k => TTry (t_prog g (frame_at fn at_ :: stk) p) (fun r => t_prog fn stk (k r))
  end.

(** Ok, 74-76. *)
Definition t_ok (k : bool -> TP) : TP :=
  TPeek (fun st => if ss_skipped st then k true else TPeek (fun st => k (negb (ss_failed st)))).
(** Report, 96-125. *)
Definition t_report (inverted : bool) (k : CReport -> TP) : TP :=
  t_ok (fun ok =>
  let rest outcome :=
    if negb ok && inverted then k (mkCR ok outcome [] [])
    else TPeek (fun st => let x := ss_explanation st in TPeek (fun st => k (mkCR ok outcome x (ss_messages st)))) in
  TPeek (fun st => if ss_skipped st then rest "the expectation was skipped"
                   else TPeek (fun st => rest (if ss_failed st then "the expectation failed" else "")%string))).
(** close, 366-370: the loop with i = n - 1, ..., 0. *)
Fixpoint t_close (stk : list SFrame) (n : nat) (k : option SPan -> TP) : TP :=
  match n with
  | 0 => k None
  | S i => TPeek (fun st =>
      match ss_cleanup st !! i with
      | None => k (Some (SUser "index out of range"))
      | Some fn =>
          TOut (OBegin fn) (TTry (t_prog fn.1 stk fn.2) (fun r =>
          TOut (OEnd r) (match r with Some v => k (Some v) | None => t_close stk i k end)))
      end)
  end.
(** What comes after Done: a panic of Done propagates; otherwise Ok and Report. *)
Definition t_after (inverted : bool) (r : option SPan) : TP :=
  TOut (ODone r)
    match r with
    | Some v => TPanic v
    | None => t_ok (fun b => TOut (OOk b) (t_report inverted (fun rep => TOut (OReport rep) (TRet ""))))
    end.
(** Done, 78-94, after line 92, where the user function is [f]; then Ok and Report. *)
Definition t_main (E : SEnv) (inverted : bool) (f : TP) : TP :=
  TTry f (fun r => TOut (OEnd r) (TPeek (fun st =>
    t_close (frame_at (close_fn E) (se_loop E) :: (match r with Some _ => se_panicking E | None => [] end) ++ frame_at (done_fn E) (se_end E) :: se_above E)
      (length (ss_cleanup st)) (fun r' =>
    t_after inverted match (match r' with Some v => Some v | None => r end) with Some SAbort => None | x => x end)))).

(** The goroutine 0 calls Done, the others are those that the user function starts (at
    any time after it is called).  Line 92 has set the caller. *)
Definition sys_init (E : SEnv) (inverted : bool) (f : TP) (ps : list TP) : Sys :=
  mkSys (mkS false false [] [] [] (fn_name (done_fn E)) []) None None
    (mkT (Run (t_main E inverted f)) [] :: map (fun p => mkT (Run p) []) ps).
