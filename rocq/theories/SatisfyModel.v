(** * expectation.satisfy.go: SatisfyT and the function it is passed to *)
From Verif Require Export LocationModel.

(** Panic values: abortSentinel (expectation.satisfy.go:157) and all others. *)
Inductive SPan := SAbort | SUser (s : string).

(** The methods of SatisfyT that return nothing, other than Cleanup. *)
Inductive SMethod :=
| MError | MErrorf | MFail | MFailNow | MFatal | MFatalf | MLog | MLogf
| MSkip | MSkipNow | MSkipf | MHelper | MParallel.
Definition smethod_text (m : SMethod) : text :=
  match m with
  | MError => txt "Error" | MErrorf => txt "Errorf" | MFail => txt "Fail" | MFailNow => txt "FailNow"
  | MFatal => txt "Fatal" | MFatalf => txt "Fatalf" | MLog => txt "Log" | MLogf => txt "Logf"
  | MSkip => txt "Skip" | MSkipNow => txt "SkipNow" | MSkipf => txt "Skipf"
  | MHelper => txt "Helper" | MParallel => txt "Parallel"
  end.

(** ** Call stacks *)

(** A function: its name and its file. *)
Record Fn := { fn_name : text; fn_file : text }.
(** A place in a function: a program counter and a line. *)
Record Site := { si_pc : positive; si_line : Z }.
(** runtime.Frame.  A call stack is a list of frames, innermost first; inlined calls
    have frames and program counters of their own. *)
Record SFrame := { sf_pc : N; sf_frame : Frame }.
Definition no_frame : SFrame := {| sf_pc := 0; sf_frame := {| fr_func := []; fr_file := []; fr_line := 0 |} |}.
Definition frame_at (fn : Fn) (a : Site) : SFrame :=
  {| sf_pc := Npos (si_pc a); sf_frame := {| fr_func := fn_name fn; fr_file := fn_file fn; fr_line := si_line a |} |}.
#[export] Instance frame_eq_dec : EqDecision Frame. Proof. solve_decision. Defined.
#[export] Instance sframe_eq_dec : EqDecision SFrame. Proof. solve_decision. Defined.

(** ** User functions *)

(** User functions that are passed a *SatisfyT.  [SCall m s at_ k] calls method [m],
    whose arguments format to [s], at the place [at_] and goes on with [k];
    [SInvoke at_ g p k] calls the function [g] with body [p]; [STry at_ g p k] calls a
    function [g] whose deferred function recovers any panic of its body [p], and goes on
    with [k]; [SCleanup g p k] registers a cleanup function.  (Calls from
    other goroutines: SatConcModel.v.) *)
Inductive SProg :=
| SRet
| SPanic (v : SPan)
| SCall (m : SMethod) (s : string) (at_ : Site) (k : SProg)
| SFailed (k : bool -> SProg)
| SSkipped (k : bool -> SProg)
| SCleanup (g : Fn) (p : SProg) (k : SProg)
| SInvoke (at_ : Site) (g : Fn) (p : SProg) (k : SProg)
| STry (at_ : Site) (g : Fn) (p : SProg) (k : option SPan -> SProg).

(** SatisfyT, expectation.satisfy.go:132-152, without Options, Facts, name and the
    mutex. *)
Record SState := mkS {
  ss_skipped : bool; ss_failed : bool; ss_explanation : text;
  ss_messages : list string; ss_cleanup : list (Fn * SProg);
  ss_caller : text; ss_helpers : list text }.
Definition s_init : SState := mkS false false [] [] [] [] [].

(** What can be observed: calls of methods (with the call stack), functions that begin
    and end. *)
Inductive SEv :=
| SvCall (m : SMethod) (s : string) (stk : list SFrame)
| SvFailed (b : bool)
| SvSkipped (b : bool)
| SvCleanup (fn : Fn * SProg)
| SvRecovered (v : SPan)
| SvBegin (fn : Fn * SProg)      (* a cleanup function begins *)
| SvEnd (r : option SPan).       (* the function or a cleanup function ends *)

(** stack, 411-422: at most [max] frames, after those of its caller and [skip] more.
    [above] are the frames above the caller of stack. *)
Definition s_stack (skip max : nat) (above : list SFrame) : list SFrame := take max (drop skip above).
(** callerName, 404-408. *)
Definition caller_name (skip : nat) (above : list SFrame) : text :=
  fr_func (sf_frame (hd no_frame (s_stack skip 1 above))).

(** The loop of findFrame, 382-399; Next of an exhausted iterator gives the zero frame. *)
Fixpoint find_loop (helpers : list text) (caller : text) (first prev : SFrame) (frames : list SFrame) : SFrame * bool :=
  match frames with
  | [] => (no_frame, bool_decide (no_frame = first))
  | f :: more =>
    let first := if decide (sf_pc first = 0%N) then f else first in
    if decide (fr_func (sf_frame f) = caller) then (prev, bool_decide (prev = first))
    else if bool_decide (fr_func (sf_frame f) ∉ helpers) || bool_decide (more = [])
    then (f, bool_decide (f = first))
    else find_loop helpers caller first f more
  end.
(** findFrame, 378-400.  [above]: the frames above findFrame. *)
Definition find_frame (skip : nat) (above : list SFrame) (st : SState) : SFrame * bool :=
  find_loop (ss_helpers st) (ss_caller st) no_frame no_frame (s_stack skip 50 above).

(** log and logf, 314-323. *)
Definition s_log (s : string) (st : SState) : SState :=
  mkS (ss_skipped st) (ss_failed st) (ss_explanation st) (ss_messages st ++ [s]) (ss_cleanup st) (ss_caller st) (ss_helpers st).
(** A frame of this package, at a place that does not matter. *)
Definition own_frame (f : string) : SFrame :=
  {| sf_pc := 1; sf_frame := {| fr_func := txt "github.com/dogmatiq/testkit." ++ txt f; fr_file := txt "expectation.satisfy.go"; fr_line := 0 |} |}.
(** The text of explain, 348-362. *)
Definition explain_text (m : SMethod) (x : SFrame * bool) : text :=
  let f := sf_frame x.1 in
  let file := match fr_file f with [] => txt "???" | p => base p end in
  let line := if decide (fr_line f = 0%Z) then 1%Z else fr_line f in
  smethod_text m ++ (if x.2 then txt "() called at " else txt "() called indirectly by call at ")
    ++ file ++ txt ":" ++ decimal line.
(** explain, 341-363.  [above]: the frames above explain. *)
Definition s_explain (m : SMethod) (above : list SFrame) (st : SState) : SState :=
  match ss_explanation st with
  | [] =>
    mkS (ss_skipped st) (ss_failed st) (explain_text m (find_frame 3 (own_frame "(*SatisfyT).explain" :: above) st))
      (ss_messages st) (ss_cleanup st) (ss_caller st) (ss_helpers st)
  | _ => st
  end.
(** skip, 327-331 (it always panics).  [above]: the frames above skip. *)
Definition s_skip (m : SMethod) (above : list SFrame) (st : SState) : SState * option SPan :=
  (s_explain m (own_frame "(*SatisfyT).skip" :: above)
     (mkS true (ss_failed st) (ss_explanation st) (ss_messages st) (ss_cleanup st) (ss_caller st) (ss_helpers st)), Some SAbort).
(** fail, 335-338.  [above]: the frames above fail. *)
Definition s_fail (m : SMethod) (above : list SFrame) (st : SState) : SState :=
  s_explain m (own_frame "(*SatisfyT).fail" :: above)
    (mkS (ss_skipped st) true (ss_explanation st) (ss_messages st) (ss_cleanup st) (ss_caller st) (ss_helpers st)).

(** Helper, 240-249. *)
Definition s_helper (above : list SFrame) (st : SState) : SState :=
  mkS (ss_skipped st) (ss_failed st) (ss_explanation st) (ss_messages st) (ss_cleanup st) (ss_caller st)
    (caller_name 1 above :: ss_helpers st).

(** The methods, 169-303.  [stk]: the frames above the method. *)
Definition s_method (m : SMethod) (s : string) (stk : list SFrame) (st : SState) : SState * option SPan :=
  let above := own_frame "(*SatisfyT).method" :: stk in
  match m with
  | MError | MErrorf => (s_fail m above (s_log s st), None)                (* 169-184 *)
  | MFail => (s_fail m above st, None)                                     (* 187-192 *)
  | MFailNow => (s_fail m above st, Some SAbort)                           (* 195-201 *)
  | MFatal | MFatalf => (s_fail m above (s_log s st), Some SAbort)         (* 212-229 *)
  | MLog | MLogf => (s_log s st, None)                                     (* 253-267 *)
  | MSkip | MSkipf => s_skip m above (s_log s st)                          (* 280-286, 297-303 *)
  | MSkipNow => s_skip m above st                                          (* 289-294 *)
  | MHelper => (s_helper above st, None)                                   (* 240-249 *)
  | MParallel => (st, None)                                                (* 236-237 *)
  end.

(** Running the user code of the function [fn], called from [stk]. *)
Fixpoint s_run (fn : Fn) (stk : list SFrame) (p : SProg) (st : SState) : SState * list SEv * option SPan :=
  match p with
  | SRet => (st, [], None)
  | SPanic v => (st, [], Some v)
  | SCall m s at_ k =>
    let stk' := frame_at fn at_ :: stk in
    match s_method m s stk' st with
    | (st, Some v) => (st, [SvCall m s stk'], Some v)
    | (st, None) => let '(st, evs, r) := s_run fn stk k st in (st, SvCall m s stk' :: evs, r)
    end
  | SFailed k =>                                                          (* 204-209 *)
    let '(st', evs, r) := s_run fn stk (k (ss_failed st)) st in (st', SvFailed (ss_failed st) :: evs, r)
  | SSkipped k =>                                                         (* 306-311 *)
    let '(st', evs, r) := s_run fn stk (k (ss_skipped st)) st in (st', SvSkipped (ss_skipped st) :: evs, r)
  | SCleanup g p k =>                                                     (* 161-166 *)
    let st := mkS (ss_skipped st) (ss_failed st) (ss_explanation st) (ss_messages st) (ss_cleanup st ++ [(g, p)])
                (ss_caller st) (ss_helpers st) in
    let '(st, evs, r) := s_run fn stk k st in (st, SvCleanup (g, p) :: evs, r)
  | SInvoke at_ g p k =>
    let '(st, evs, r) := s_run g (frame_at fn at_ :: stk) p st in
    match r with
    | Some v => (st, evs, Some v)
    | None => let '(st, evs', r') := s_run fn stk k st in (st, evs ++ evs', r')
    end
  | STry at_ g p k =>
    let '(st, evs, r) := s_run g (frame_at fn at_ :: stk) p st in
    let '(st, evs', r') := s_run fn stk (k r) st in
    (st, evs ++ match r with Some v => [SvRecovered v] | None => [] end ++ evs', r')
  end.

(** close, 366-370: the loop with i = n - 1, ..., 0, run from the frames [stk]. *)
Fixpoint s_close (stk : list SFrame) (n : nat) (st : SState) : SState * list SEv * option SPan :=
  match n with
  | 0 => (st, [], None)
  | S i =>
    match ss_cleanup st !! i with
    | None => (st, [], Some (SUser "index out of range"))
    | Some fn =>
      let '(st, evs, r) := s_run fn.1 stk fn.2 st in
      match r with
      | Some v => (st, SvBegin fn :: evs ++ [SvEnd r], Some v)
      | None => let '(st, evs', r') := s_close stk i st in (st, SvBegin fn :: evs ++ [SvEnd r] ++ evs', r')
      end
    end
  end.

(** What surrounds a call of Done: the places in Done and close from which user
    functions are called, the frames between close and Done when close is run because of
    a panic, and the frames above Done. *)
Record SEnv := mkSEnv {
  se_file : text; se_pred : Site; se_end : Site; se_loop : Site;
  se_panicking : list SFrame; se_above : list SFrame }.
Definition done_fn (E : SEnv) : Fn := {| fn_name := txt "github.com/dogmatiq/testkit.(*satisfyPredicate).Done"; fn_file := se_file E |}.
Definition close_fn (E : SEnv) : Fn := {| fn_name := txt "github.com/dogmatiq/testkit.(*SatisfyT).close"; fn_file := se_file E |}.

(** Done, 78-94: the user function, then the deferred close, then the deferred
    function that recovers.  A panic of close replaces that of the user function. *)
Definition s_done (E : SEnv) (fn : Fn * SProg) (st : SState) : SState * list SEv * option SPan :=
  let done a := frame_at (done_fn E) a :: se_above E in
  let st := mkS (ss_skipped st) (ss_failed st) (ss_explanation st) (ss_messages st) (ss_cleanup st)
              (caller_name 0 (done (se_pred E))) (ss_helpers st) in
  let '(st, evs, r) := s_run fn.1 (done (se_pred E)) fn.2 st in
  let close := frame_at (close_fn E) (se_loop E) ::
               (match r with Some _ => se_panicking E | None => [] end) ++ done (se_end E) in
  let '(st, evs', r') := s_close close (length (ss_cleanup st)) st in
  (st, evs ++ [SvEnd r] ++ evs',
   match (match r' with Some v => Some v | None => r end) with
   | Some SAbort => None
   | Some v => Some v
   | None => None
   end).

(** Ok, 74-76. *)
Definition s_ok (st : SState) : bool := ss_skipped st || negb (ss_failed st).
