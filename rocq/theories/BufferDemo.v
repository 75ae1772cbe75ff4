(** * Concrete schedules of a buffer. *)
From Verif Require Export BufferSpec.

Section BufferExec.
Context {F : Type}.
Notation Heap := (gmap nat (list (option F))).
(** One step within a call; new arrays are put at [size h], with [extra] spare
    capacity. *)
Definition pstep_fun (extra : nat) (h : Heap) (a n : nat) (w : bool) (r : nat) (p : PC F) : option (Heap * nat * nat * bool * nat * PC F) :=
  match p with
  | NLock f => match w, r with false, 0 => Some (h, a, n, true, 0, NAppend f) | _, _ => None end
  | NAppend f =>
    x ← h !! a;
    if decide (n < length x)%nat then Some (h, a, n, w, r, NWrite f a)
    else if decide (length x = n) then
      if decide (h !! size h = None) then Some (<[size h := replicate (n + 1 + extra) None]> h, a, n, w, r, NCopy f (size h) 0) else None
    else None
  | NCopy f l i =>
    if decide (i = n) then Some (h, a, n, w, r, NWrite f l) else
    x ← h !! a; y ← h !! l; v ← x !! i;
    if decide (i < n)%nat then Some (<[l := <[i := v]> y]> h, a, n, w, r, NCopy f l (i + 1)) else None
  | NWrite f l => y ← h !! l; Some (<[l := <[n := Some f]> y]> h, a, n, w, r, NSet f l)
  | NSet f l => Some (h, l, n + 1, w, r, NUnlock)
  | NUnlock => if w then Some (h, a, n, false, r, NRet) else None
  | NRet => None
  | FRLock => if w then None else Some (h, a, n, false, r + 1, FMake)
  | FMake => if decide (h !! size h = None) then Some (<[size h := replicate n None]> h, a, n, w, r, FCopy (size h) 0) else None
  | FCopy l i =>
    x ← h !! a; y ← h !! l;
    if decide (i = length y) then Some (h, a, n, w, r, FRUnlock l) else
    v ← x !! i;
    if decide (i < length y)%nat then if decide (i < n)%nat then Some (<[l := <[i := v]> y]> h, a, n, w, r, FCopy l (i + 1)) else None else None
  | FRUnlock l => match r with 0 => None | S r => Some (h, a, n, w, r, FRet l) end
  | FRet _ => None
  end%nat.
Lemma pstep_fun_ok extra h a n w r p h' a' n' w' r' p' :
  pstep_fun extra h a n w r p = Some (h', a', n', w', r', p') -> pstep h a n w r p h' a' n' w' r' p'.
Proof.
  destruct p; cbn; intros H; simplify_option_eq; try (by econstructor).
  - destruct w, r; try done. simplify_eq. constructor.
  - destruct w; try done. simplify_eq. constructor.
  - destruct w; try done. simplify_eq. constructor.
  - destruct r; try done. simplify_eq. rewrite <- Nat.add_1_r. constructor.
Qed.

(** A schedule: a goroutine makes a step, or a user sets an element of a returned
    slice. *)
Inductive Act := Go (t extra : nat) | Set_ (l i : nat) (v : option F).
Definition bstep_fun (x : Act) (y : BSys F) : option (option (BEvent F) * BSys F) :=
  let '(mkBSys h a n w r g ths) := y in
  match x with
  | Go t extra =>
    match ths !! t with
    | Some (mkBThread i None (c :: rest)) =>
      Some (Some (ECall (t, i) c), mkBSys h a n w r g (<[t := mkBThread i (Some (start c)) rest]> ths))
    | Some (mkBThread i (Some NRet) rest) =>
      Some (Some (ERet (t, i) RNotify), mkBSys h a n w r g (<[t := mkBThread (i + 1) None rest]> ths))
    | Some (mkBThread i (Some (FRet l)) rest) =>
      match h !! l with
      | Some x => Some (Some (ERet (t, i) (RFacts x)), mkBSys h a n w r (l :: g) (<[t := mkBThread (i + 1) None rest]> ths))
      | None => None
      end
    | Some (mkBThread i (Some p) rest) =>
      match pstep_fun extra h a n w r p with
      | Some (h', a', n', w', r', p') => Some (None, mkBSys h' a' n' w' r' g (<[t := mkBThread i (Some p') rest]> ths))
      | None => None
      end
    | _ => None
    end
  | Set_ l i v =>
    match h !! l with
    | Some x => if decide (l ∈ g) then Some (None, mkBSys (<[l := <[i := v]> x]> h) a n w r g ths) else None
    | None => None
    end
  end.
Lemma bstep_fun_ok x y e y' : bstep_fun x y = Some (e, y') -> bstep y e y'.
Proof.
  destruct y as [h a n w r g ths]. destruct x as [t extra|l i v]; cbn.
  - destruct (ths !! t) as [[i [p|] rest]|] eqn:Ht; [| |done].
    + assert (Hp : match pstep_fun extra h a n w r p with
        | Some (h', a', n', w', r', p') => Some (None, mkBSys h' a' n' w' r' g (<[t := mkBThread i (Some p') rest]> ths))
        | None => None end = Some (e, y') -> bstep (mkBSys h a n w r g ths) e y').
      { destruct (pstep_fun extra h a n w r p) as [[[[[[? ?] ?] ?] ?] ?]|] eqn:Hs; [|done]. intros [= <- <-].
        econstructor; [done|]. eapply pstep_fun_ok. done. }
      destruct p; try exact Hp; clear Hp.
      * intros [= <- <-]. by econstructor.
      * destruct (h !! l) eqn:Hl; [|done]. intros [= <- <-]. by econstructor.
    + destruct rest as [|c rest]; [done|]. intros [= <- <-]. by econstructor.
  - destruct (h !! l) eqn:Hl; [|done]. destruct (decide (l ∈ g)); [|done]. intros [= <- <-]. by econstructor.
Qed.
Fixpoint bexec (sched : list Act) (tr : list (BEvent F)) (y : BSys F) : option (list (BEvent F) * BSys F) :=
  match sched with
  | [] => Some (tr, y)
  | x :: sched =>
    match bstep_fun x y with
    | Some (e, y') => bexec sched (tr ++ option_list e) y'
    | None => bexec sched tr y (* it has to wait *)
    end
  end.
Lemma bexec_ok sched y0 tr y tr' y' : bruns y0 tr y -> bexec sched tr y = Some (tr', y') -> bruns y0 tr' y'.
Proof.
  revert tr y. induction sched as [|x sched IH]; intros tr y Hr; cbn; [by intros [= <- <-]|].
  destruct (bstep_fun x y) as [[e y1]|] eqn:Hs; [|by apply IH]. apply bstep_fun_ok in Hs. apply IH.
  destruct e as [e|]; cbn; [by econstructor|]. rewrite app_nil_r. by econstructor.
Qed.
End BufferExec.

(** Facts is called while a fact is being added, and again later; its first result
    is overwritten by its user. *)
Definition buf_calls : list (list (BCall nat)) := [[CNotify 7; CNotify 8; CNotify 9]; [CFacts; CFacts]].
Definition buf_sched : list (Act (F:=nat)) :=
  let go := fun t => Go t 1 in
  (go <$> replicate 10 0) ++ concat (replicate 5 [go 1; go 0]) ++ (go <$> [1; 1; 1]) ++
  concat (replicate 20 [go 0; go 1; Set_ 2 0 (Some 99)]).
