(** * Vocabulary for concurrent use of an engine. *)
From Verif Require Export ConcModel.

Section ConcSpec.
Context {S F E : Type}.
Implicit Types tr : list (OpId * Label F E).

(** The call that holds the mutex after [tr], according to what happened. *)
Definition holder tr : option OpId :=
  foldl (fun h (e : OpId * Label F E) => match e.2 with LLock => Some e.1 | LUnlock => None | _ => h end) None tr.
(** What the mutex protects: the controllers, the resetters and the resetting of
    the counter. *)
Definition guarded (l : Label F E) : Prop := match l with LAccess | LZero => True | _ => False end.

(** The IDs allocated by everybody, in order. *)
Definition allocated tr : list string :=
  omap (fun e : OpId * Label F E => match e.2 with LNext id => Some id | _ => None end) tr.
(** The ID allocated by a call before it locks the mutex. *)
Definition own_id (o : OpId) tr : option string :=
  head (omap (fun e : OpId * Label F E =>
    match e.2 with LNext id => if decide (e.1 = o) then Some id else None | _ => None end) tr).

(** What each call did while it held the mutex, calls in the order in which they
    locked it. *)
Definition add_step (e : OpId * Label F E) (l : list (OpId * list (Label F E))) : list (OpId * list (Label F E)) :=
  match e.2 with
  | LLock => l ++ [(e.1, [])]
  | LUnlock | LEnd _ => l
  | x => (fun p : OpId * list (Label F E) => if decide (p.1 = e.1) then (p.1, p.2 ++ [x]) else p) <$> l
  end.
Definition sections tr : list (OpId * list (Label F E)) :=
  foldl (fun l e => add_step e l) [] tr.

(** [Alone b s ls s' r]: the code [b], started in the state [s] and not interrupted
    by anybody, does [ls], leaves the state [s'] and ends with [r].  The IDs it gets
    are arbitrary, because others may be allocating IDs at the same time. *)
Inductive Alone : Body S F E -> S -> list (Label F E) -> S -> Ret E -> Prop :=
| al_end r s : Alone (BEnd r) s [] s r
| al_notify f k s ls s' r : Alone k s ls s' r -> Alone (BNotify f k) s (LNotify f :: ls) s' r
| al_next k id s ls s' r : Alone (k id) s ls s' r -> Alone (BNext k) s (LNext id :: ls) s' r
| al_zero k s ls s' r : Alone k s ls s' r -> Alone (BZero k) s (LZero :: ls) s' r
| al_access f k s ls s' r : Alone (k (f s)) (f s) ls s' r -> Alone (BAccess f k) s (LAccess :: ls) s' r.
Definition closing (f : E -> F) (r : Ret E) : list (Label F E) :=
  match r with Returned e => [LNotify (f e)] | Panicked => [] end.
(** The same for a whole call, once it has locked the mutex; [id] is the ID of the
    message it dispatches. *)
Definition CallAlone (c : Call S F E) (id : option string) (s : S) (ls : list (Label F E)) (s' : S) : Prop :=
  match c with
  | KDispatch _ _ body completed =>
    exists i ls' r, id = Some i /\ Alone (body i) s ls' s' r /\ ls = ls' ++ closing (completed i) r
  | KTick _ _ body completed => exists ls' r, Alone body s ls' s' r /\ ls = ls' ++ closing completed r
  | KReset body => exists ls' r, Alone body s ls' s' r /\ ls = LZero :: ls'
  end.
Definition call_at (calls : list (list (Call S F E))) (o : OpId) : option (Call S F E) :=
  cs ← calls !! o.1; cs !! o.2.
(** The calls [l], made one after the other without any overlap, turn [s] into [s']. *)
Inductive Serially (calls : list (list (Call S F E))) tr : S -> list (OpId * list (Label F E)) -> S -> Prop :=
| se_nil s : Serially calls tr s [] s
| se_cons o c ls l s s' s'' : call_at calls o = Some c -> CallAlone c (own_id o tr) s ls s' ->
    Serially calls tr s' l s'' -> Serially calls tr s ((o, ls) :: l) s''.

(** All calls have ended. *)
Definition finished (y : Sys S F E) : Prop :=
  Forall (fun th => th_code th = None /\ th_rest th = []) (sy_threads y).
End ConcSpec.
