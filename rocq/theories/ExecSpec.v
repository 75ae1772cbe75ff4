(** * Vocabulary for concurrent use of a CommandExecutor. *)
From Verif Require Export ExecModel.

Section ExecSpec.
Context {B M R I : Type}.
Notation Ev := (nat * nat * Label B M R I)%type.
Implicit Types tr : list Ev.

(** The binding and the interceptor after [tr], according to the calls of Bind, Unbind and
    Intercept. *)
Definition bound (b0 : option B) tr : option B :=
  foldl (fun b (e : Ev) => match e.2 with LWrite (WBind b') => Some b' | LWrite WUnbind => None | _ => b end) b0 tr.
Definition installed (i0 : option I) tr : option I :=
  foldl (fun i (e : Ev) => match e.2 with LWrite (WIntercept i') => i' | _ => i end) i0 tr.

(** Goroutine [t] does nothing in [tr]. *)
Definition idle (t : nat) tr : Prop := forall d l, (t, d, l) ∉ tr.
(** The call of ExecuteCommand made by [t] at depth [d] does not end in [tr]. *)
Definition unended (t d : nat) tr : Prop := forall r, (t, d, LExecEnd r) ∉ tr.

(** Code that uses neither the executor nor an engine. *)
Inductive quiet : Prog B M R I -> Prop :=
| qu_ret r : quiet (GRet r)
| qu_step k : quiet k -> quiet (GStep k).
(** Code that does not use the executor. *)
Inductive plain : Prog B M R I -> Prop :=
| pl_ret r : plain (GRet r)
| pl_step k : plain k -> plain (GStep k)
| pl_dispatch ctx b m k : (forall r, plain (k r)) -> plain (GDispatch ctx b m k).

(** Code that does not call Bind, Unbind or Intercept. *)
Inductive no_writes : Prog B M R I -> Prop :=
| nw_ret r : no_writes (GRet r)
| nw_step k : no_writes k -> no_writes (GStep k)
| nw_exec ctx m k : (forall r, no_writes (k r)) -> no_writes (GExec ctx m k)
| nw_dispatch ctx b m k : (forall r, no_writes (k r)) -> no_writes (GDispatch ctx b m k).

(** A goroutine has ended. *)
Definition ended (y : Sys B M R I) (t : nat) : Prop := exists r, sy_threads y !! t = Some (mkThread (CRun (GRet r)) []).
(** All goroutines have ended. *)
Definition finished (y : Sys B M R I) : Prop :=
  Forall (fun th => (exists r, th_ctl th = CRun (GRet r)) /\ th_stack th = []) (sy_threads y).
End ExecSpec.
