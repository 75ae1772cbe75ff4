(** * fact.Buffer: fact/observer.go:23-46

    Goroutines call Notify and Facts of one buffer; the arrays behind the slices are
    on a heap.  The machine interleaves atomic steps of the goroutines, which copy
    arrays element by element, and of the users of returned slices, who may write
    into them at any time. *)
From stdpp Require Export gmap list strings.

Section Buffer.
Context {F : Type}.

(** Arrays; an element that was never set is the zero value [None]. *)
Notation Heap := (gmap nat (list (option F))).

Inductive BCall := CNotify (f : F) | CFacts.
Inductive BRet := RNotify | RFacts (l : list (option F)).

(** Where a call is. *)
Inductive PC :=
(* Notify, fact/observer.go:30-35 *)
| NLock (f : F)                        (* before b.m.Lock() *)
| NAppend (f : F)                      (* before append() looks at the capacity *)
| NCopy (f : F) (l : nat) (i : nat)    (* append() copies to the new array [l] *)
| NWrite (f : F) (l : nat)             (* append() is about to set the element *)
| NSet (f : F) (l : nat)               (* before b.facts is set *)
| NUnlock                              (* before the deferred b.m.Unlock() *)
| NRet
(* Facts, fact/observer.go:38-46 *)
| FRLock                               (* before b.m.RLock() *)
| FMake                                (* before make() *)
| FCopy (l : nat) (i : nat)            (* copy() to the new array [l] *)
| FRUnlock (l : nat)                   (* before the deferred b.m.RUnlock() *)
| FRet (l : nat).

Record BThread := mkBThread { bt_n : nat; bt_pc : option PC; bt_rest : list BCall }.
(** The heap, the slice b.facts (array and length), the RWMutex (whether it is locked
    for writing, the number of readers), the arrays returned by Facts, the
    goroutines. *)
Record BSys := mkBSys {
  bs_heap : Heap; bs_array : nat; bs_len : nat; bs_writer : bool; bs_readers : nat;
  bs_given : list nat; bs_threads : list BThread }.

(** A call is identified by its goroutine and its position among its calls. *)
Notation OpId := (nat * nat)%type.
(** What the callers see. *)
Inductive BEvent := ECall (o : OpId) (c : BCall) | ERet (o : OpId) (r : BRet).

Definition start (c : BCall) : PC := match c with CNotify f => NLock f | CFacts => FRLock end.

(** Steps within a call. *)
Inductive pstep : Heap -> nat -> nat -> bool -> nat -> PC -> Heap -> nat -> nat -> bool -> nat -> PC -> Prop :=
| ps_lock h a n f : pstep h a n false 0 (NLock f) h a n true 0 (NAppend f)
| ps_append_fits h a n w r f x : h !! a = Some x -> (n < length x)%nat ->
    pstep h a n w r (NAppend f) h a n w r (NWrite f a)
| ps_append_grows h a n w r f x l extra : h !! a = Some x -> length x = n -> h !! l = None ->
    pstep h a n w r (NAppend f) (<[l := replicate (n + 1 + extra) None]> h) a n w r (NCopy f l 0)
| ps_append_copy h a n w r f l i x y v : h !! a = Some x -> h !! l = Some y -> (i < n)%nat -> x !! i = Some v ->
    pstep h a n w r (NCopy f l i) (<[l := <[i := v]> y]> h) a n w r (NCopy f l (i + 1))
| ps_append_copied h a n w r f l : pstep h a n w r (NCopy f l n) h a n w r (NWrite f l)
| ps_append_write h a n w r f l y : h !! l = Some y ->
    pstep h a n w r (NWrite f l) (<[l := <[n := Some f]> y]> h) a n w r (NSet f l)
| ps_append_set h a n w r f l : pstep h a n w r (NSet f l) h l (n + 1) w r NUnlock
| ps_unlock h a n r : pstep h a n true r NUnlock h a n false r NRet
| ps_rlock h a n r : pstep h a n false r FRLock h a n false (r + 1) FMake
| ps_make h a n w r l : h !! l = None ->
    pstep h a n w r FMake (<[l := replicate n None]> h) a n w r (FCopy l 0)
| ps_copy h a n w r l i x y v : h !! a = Some x -> h !! l = Some y -> (i < length y)%nat -> (i < n)%nat -> x !! i = Some v ->
    pstep h a n w r (FCopy l i) (<[l := <[i := v]> y]> h) a n w r (FCopy l (i + 1))
| ps_copied h a n w r l y : h !! l = Some y -> pstep h a n w r (FCopy l (length y)) h a n w r (FRUnlock l)
| ps_runlock h a n w r l : pstep h a n w (r + 1) (FRUnlock l) h a n w r (FRet l).

(** A step of goroutine [t], or of a user of a returned slice, who sets an element
    of it; what the callers see of it, if anything. *)
Inductive bstep : BSys -> option BEvent -> BSys -> Prop :=
| bs_call h a n w r g ths t i c rest : ths !! t = Some (mkBThread i None (c :: rest)) ->
    bstep (mkBSys h a n w r g ths) (Some (ECall (t, i) c))
      (mkBSys h a n w r g (<[t := mkBThread i (Some (start c)) rest]> ths))
| bs_step h a n w r g ths t i p rest h' a' n' w' r' p' :
    ths !! t = Some (mkBThread i (Some p) rest) -> pstep h a n w r p h' a' n' w' r' p' ->
    bstep (mkBSys h a n w r g ths) None (mkBSys h' a' n' w' r' g (<[t := mkBThread i (Some p') rest]> ths))
| bs_ret_notify h a n w r g ths t i rest : ths !! t = Some (mkBThread i (Some NRet) rest) ->
    bstep (mkBSys h a n w r g ths) (Some (ERet (t, i) RNotify))
      (mkBSys h a n w r g (<[t := mkBThread (i + 1) None rest]> ths))
| bs_ret_facts h a n w r g ths t i rest l x : ths !! t = Some (mkBThread i (Some (FRet l)) rest) -> h !! l = Some x ->
    bstep (mkBSys h a n w r g ths) (Some (ERet (t, i) (RFacts x)))
      (mkBSys h a n w r (l :: g) (<[t := mkBThread (i + 1) None rest]> ths))
| bs_user h a n w r g ths l x i v : l ∈ g -> h !! l = Some x ->
    bstep (mkBSys h a n w r g ths) None (mkBSys (<[l := <[i := v]> x]> h) a n w r g ths).

(** What the callers see of a schedule. *)
Inductive bruns : BSys -> list BEvent -> BSys -> Prop :=
| br_nil y : bruns y [] y
| br_silent y tr y' y'' : bruns y tr y' -> bstep y' None y'' -> bruns y tr y''
| br_event y tr y' e y'' : bruns y tr y' -> bstep y' (Some e) y'' -> bruns y (tr ++ [e]) y''.

(** An empty buffer (a nil slice) and its users. *)
Definition buf_init (calls : list (list BCall)) : BSys :=
  mkBSys {[0 := []]} 0 0 false 0 [] ((fun cs => mkBThread 0 None cs) <$> calls).
End Buffer.
Arguments BCall : clear implicits.
Arguments BRet : clear implicits.
Arguments PC : clear implicits.
Arguments BThread : clear implicits.
Arguments BSys : clear implicits.
Arguments BEvent : clear implicits.
