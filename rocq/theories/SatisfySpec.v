(** * Vocabulary for ToSatisfy. *)
From Verif Require Export SatisfyModel LocationSpec.

(** Error, Fail, Fatal and their variants; Skip and its variants. *)
Inductive failing : SMethod -> Prop :=
| fa_error : failing MError | fa_errorf : failing MErrorf | fa_fail : failing MFail
| fa_failnow : failing MFailNow | fa_fatal : failing MFatal | fa_fatalf : failing MFatalf.
Inductive skipping : SMethod -> Prop :=
| sk_skip : skipping MSkip | sk_skipnow : skipping MSkipNow | sk_skipf : skipping MSkipf.
Definition deciding (m : SMethod) : Prop := failing m \/ skipping m.
(** Methods that stop the function that calls them. *)
Inductive aborting : SMethod -> Prop :=
| ab_failnow : aborting MFailNow | ab_fatal : aborting MFatal | ab_fatalf : aborting MFatalf
| ab_skip m : skipping m -> aborting m.
(** Methods that log their arguments. *)
Inductive logging : SMethod -> Prop :=
| lg_log : logging MLog | lg_logf : logging MLogf | lg_error : logging MError | lg_errorf : logging MErrorf
| lg_fatal : logging MFatal | lg_fatalf : logging MFatalf | lg_skip : logging MSkip | lg_skipf : logging MSkipf.

(** A method was called. *)
Definition called (K : SMethod -> Prop) (evs : list SEv) : Prop :=
  exists m s stk, SvCall m s stk ∈ evs /\ K m.
(** The first call of such a method: what happened before it and the calls in progress. *)
Definition first_called (K : SMethod -> Prop) (evs : list SEv) (l : list SEv) (m : SMethod) (stk : list SFrame) : Prop :=
  exists s l', evs = l ++ SvCall m s stk :: l' /\ K m /\ ~ called K l.

(** The functions registered with Cleanup, in order. *)
Definition registered (evs : list SEv) : list (Fn * SProg) :=
  omap (fun e => match e with SvCleanup fn => Some fn | _ => None end) evs.
(** What was logged, in order. *)
Inductive logged : list SEv -> list string -> Prop :=
| lo_nil : logged [] []
| lo_call m s stk evs l : logging m -> logged evs l -> logged (SvCall m s stk :: evs) (s :: l)
| lo_other e evs l : (forall m s stk, e = SvCall m s stk -> ~ logging m) -> logged evs l -> logged (e :: evs) l.

(** One cleanup function: what it is, what it did and how it ended. *)
Definition cleanup_run : Type := (Fn * SProg) * list SEv * option SPan.
Definition run_events (c : cleanup_run) : list SEv := SvBegin c.1.1 :: c.1.2 ++ [SvEnd c.2].
(** The last panic among those of the function and its cleanup functions. *)
Definition last_panic (l : list (option SPan)) : option SPan := last (omap id l).

(** The frames from which Done calls the function, and from which close calls the
    cleanup functions after the function ended with [o]. *)
Definition done_stack (E : SEnv) : list SFrame := frame_at (done_fn E) (se_pred E) :: se_above E.
Definition close_stack (E : SEnv) (o : option SPan) : list SFrame :=
  frame_at (close_fn E) (se_loop E) :: (match o with Some _ => se_panicking E | None => [] end) ++ frame_at (done_fn E) (se_end E) :: se_above E.

(** ** Where a method was called *)

Definition method_name (m : SMethod) : string :=
  match m with
  | MError => "Error" | MErrorf => "Errorf" | MFail => "Fail" | MFailNow => "FailNow" | MFatal => "Fatal" | MFatalf => "Fatalf"
  | MLog => "Log" | MLogf => "Logf" | MSkip => "Skip" | MSkipNow => "SkipNow" | MSkipf => "Skipf"
  | MHelper => "Helper" | MParallel => "Parallel"
  end.

Definition func (f : SFrame) : text := fr_func (sf_frame f).
(** A function called Helper. *)
Definition is_helper (evs : list SEv) (f : text) : Prop :=
  exists s x stk, SvCall MHelper s (x :: stk) ∈ evs /\ func x = f.

(** The frame to blame for what happens on top of the calls [us]: the innermost one that
    is not that of a helper; the outermost one if all are. *)
Definition blamed (evs : list SEv) (us : list SFrame) (f : SFrame) : Prop :=
  (exists l l', us = l ++ f :: l' /\ Forall (fun x => is_helper evs (func x)) l /\ ~ is_helper evs (func f)) \/
  (Forall (fun x => is_helper evs (func x)) us /\ last us = Some f).

(** The explanation: the method [m] was called at, or indirectly by the call at, the
    place of the frame [f]. *)
Definition explained (m : SMethod) (direct : bool) (f : SFrame) (x : text) : Prop :=
  forall b, last_element (fr_file (sf_frame f)) b -> (0 < fr_line (sf_frame f))%Z ->
    x = txt (method_name m) ++ txt (if direct then "() called at " else "() called indirectly by call at ")
          ++ b ++ txt ":" ++ decimal (fr_line (sf_frame f)).
