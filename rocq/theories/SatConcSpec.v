(** * Vocabulary for a *SatisfyT used by several goroutines. *)
From Verif Require Export SatisfySpec SatConcModel.

(** The calls of methods, by whichever goroutine, in the order of their effects. *)
Definition did (tr : list (nat * Lab)) : list SEv := omap (fun e => match e.2 with LSat x => Some x | _ => None end) tr.
(** What Done, Ok and Report did. *)
Definition answers (tr : list (nat * Lab)) : list COut := omap (fun e => match e.2 with LOut o => Some o | _ => None end) tr.

(** Code that users can write. *)
Inductive user : TP -> Prop :=
| us_ret s : user (TRet s)
| us_panic v : user (TPanic v)
| us_step k : user k -> user (TStep k)
| us_call m a stk k : user a -> user k -> user (TCall m a stk k)
| us_failed k : (forall b, user (k b)) -> user (TFailed k)
| us_skipped k : (forall b, user (k b)) -> user (TSkipped k)
| us_cleanup fn k : user k -> user (TCleanup fn k)
| us_wait t k : user k -> user (TWait t k)
| us_try p k : user p -> (forall r, user (k r)) -> user (TTry p k).

(** Code that does not use the *SatisfyT and waits for nothing. *)
Inductive quiet : TP -> Prop :=
| qu_ret s : quiet (TRet s)
| qu_panic v : quiet (TPanic v)
| qu_step k : quiet k -> quiet (TStep k)
| qu_try p k : quiet p -> (forall r, quiet (k r)) -> quiet (TTry p k).
(** User code all of whose arguments of methods are formatted by such code. *)
Inductive plain : TP -> Prop :=
| pl_ret s : plain (TRet s)
| pl_panic v : plain (TPanic v)
| pl_step k : plain k -> plain (TStep k)
| pl_call m a stk k : quiet a -> plain k -> plain (TCall m a stk k)
| pl_failed k : (forall b, plain (k b)) -> plain (TFailed k)
| pl_skipped k : (forall b, plain (k b)) -> plain (TSkipped k)
| pl_cleanup fn k : plain k -> plain (TCleanup fn k)
| pl_wait t k : plain k -> plain (TWait t k)
| pl_try p k : plain p -> (forall r, plain (k r)) -> plain (TTry p k).

(** All goroutines other than that of Done have ended. *)
Definition others_ended (y : Sys) : Prop := forall t th, t <> 0 -> sy_ths y !! t = Some th -> ended th.
(** The goroutine waits for one that has not ended. *)
Definition waiting (y : Sys) (th : Thr) : Prop :=
  exists u k, th_ctl th = Run (TWait u k) /\ ~ exists th', sy_ths y !! u = Some th' /\ ended th'.

(** A cleanup function that was run and how it ended. *)
Definition cleanup_answers (c : (Fn * SProg) * option SPan) : list COut := [OBegin c.1; OEnd c.2].

(** ** What the code of a goroutine says it does *)

(** The calls of the goroutine [t]. *)
Definition did_by (t : nat) (tr : list (nat * Lab)) : list SEv :=
  omap (fun e => match e.2 with LSat x => if decide (e.1 = t) then Some x else None | _ => None end) tr.
(** How code ends; what a String method that ends so gives. *)
Inductive Res := RRet (s : string) | RPanic (v : SPan).
Definition panic_of (r : Res) : option SPan := match r with RRet _ => None | RPanic v => Some v end.
Definition text_of (r : Res) : string := match r with RRet s => s | RPanic v => fmt_panic v end.
(** [acts p evs r]: run by a goroutine, the code [p] may make the calls [evs] and end
    with [r]; what it does may depend on what Failed and Skipped return.  Methods that
    log format their arguments first. *)
Inductive acts : TP -> list SEv -> Res -> Prop :=
| ac_ret s : acts (TRet s) [] (RRet s)
| ac_panic v : acts (TPanic v) [] (RPanic v)
| ac_step k evs r : acts k evs r -> acts (TStep k) evs r
| ac_parallel a stk k evs r : acts k evs r -> acts (TCall MParallel a stk k) evs r
| ac_call m a stk k evs ra evs' r : m <> MParallel -> ~ aborting m -> formatted m a evs ra -> acts k evs' r ->
    acts (TCall m a stk k) (evs ++ SvCall m (text_of ra) stk :: evs') r
| ac_abort m a stk k evs ra : aborting m -> formatted m a evs ra ->
    acts (TCall m a stk k) (evs ++ [SvCall m (text_of ra) stk]) (RPanic SAbort)
| ac_failed k b evs r : acts (k b) evs r -> acts (TFailed k) (SvFailed b :: evs) r
| ac_skipped k b evs r : acts (k b) evs r -> acts (TSkipped k) (SvSkipped b :: evs) r
| ac_cleanup fn k evs r : acts k evs r -> acts (TCleanup fn k) (SvCleanup fn :: evs) r
| ac_wait t k evs r : acts k evs r -> acts (TWait t k) evs r
| ac_try p k evs rp evs' r : acts p evs rp -> acts (k (panic_of rp)) evs' r -> acts (TTry p k) (evs ++ evs') r
| ac_peek k st evs r : acts (k st) evs r -> acts (TPeek k) evs r
| ac_out o k evs r : acts k evs r -> acts (TOut o k) evs r
with formatted : SMethod -> TP -> list SEv -> Res -> Prop :=
| fo_text m a evs ra : logging m -> acts a evs ra -> formatted m a evs ra
| fo_none m a : ~ logging m -> formatted m a [] (RRet "").

(** ** A single goroutine *)

(** The calls, and the functions that begin and end, among the events of SatisfyModel.v.
    (There, methods without arguments have a text all the same.) *)
Definition calls_of (evs : list SEv) : list SEv :=
  omap (fun e => match e with
    | SvCall MParallel _ _ => None
    | SvCall ((MFail | MFailNow | MSkipNow | MHelper) as m) _ stk => Some (SvCall m "" stk)
    | SvCall _ _ _ | SvFailed _ | SvSkipped _ | SvCleanup _ => Some e
    | SvRecovered _ | SvBegin _ | SvEnd _ => None
    end) evs.
Definition answers_of (evs : list SEv) : list COut :=
  omap (fun e => match e with SvBegin fn => Some (OBegin fn) | SvEnd r => Some (OEnd r) | _ => None end) evs.
