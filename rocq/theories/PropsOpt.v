(** * C90: user code cannot interfere with the options of a test *)
From Coq Require Import Lia.
From Verif Require Import OptModel OptSpec OptProof Demo.

Section Theorems.
Context {P : Params}.

(** Whatever user code does with the slices that it has been given, each action is given the
    current time, the options of the test, and those of Expect(), in this order; and the
    engine is called by built-in actions with these. *)
Theorem C90_given grow h clock unsafe pre a extra post :
  exists now own after,
    (o_test grow h clock unsafe (pre ++ OAction a extra :: post)).2 =
      (o_test grow h clock unsafe pre).2 ++ (EGiven now (proper now unsafe pre extra) :: own) ++ after /\
    now = t_clock (o_test grow h clock unsafe pre).1 /\
    acts a now (proper now unsafe pre extra) own.
Proof. apply given_lemma. Qed.

(** The executor does not call the engine for code that runs between actions. *)
Theorem C90_outside grow h clock unsafe pre p post :
  exists own after,
    (o_test grow h clock unsafe (pre ++ OOther p :: post)).2 = (o_test grow h clock unsafe pre).2 ++ own ++ after /\
    forall o, EExecuted o ∉ own.
Proof. apply executed_lemma. Qed.

(** AdvanceTime() does not change the options in the scope it is performed with. *)
Theorem C90_advance_keeps grow f s st st' s' evs :
  l_len s <= l_cap s -> l_off s + l_cap s <= length (default [] (h_arr (t_heap st) !! l_arr s)) ->
  l_arr s < h_next (t_heap st) ->
  advance grow f s st = (st', s', evs) -> elems (t_heap st') s = elems (t_heap st) s.
Proof. apply advance_keeps_lemma. Qed.

End Theorems.

(** ** Examples *)
Definition twofold (h : Heap) (s : Slc) (n : nat) : nat := 2 * n.
Definition no_heap : Heap := mkHeap 0 ∅.
Definition first (k : Slc -> VProg) (seen : list Slc) : VProg :=
  match seen with s :: _ => k s | [] => VDone end.

(** A user-defined action that turns the options it is given, and all that is left of the
    capacity, into nil, and keeps them. *)
Fixpoint wipe (s : Slc) (n : nat) (k : VProg) : VProg :=
  match n with 0 => k | S n => VSet s n None (wipe s n k) end.
Definition vandal (seen : list Slc) : VProg :=
  first (fun s => let s' := mkSlc (l_arr s) (l_off s) (l_cap s) (l_cap s) in wipe s' (l_cap s) (VUse s VDone)) seen.
Definition everything (seen : list Slc) : VProg :=
  foldr (fun s k => let s' := mkSlc (l_arr s) (l_off s) (l_cap s) (l_cap s) in wipe s' (l_cap s) k) (VExecute VDone) seen.

Definition busy : list OCall :=
  [OEnable [OptHandler "a" true]; OAction (AUser vandal) [OptObserver 1];
   OEnable [OptHandler "b" true; OptHandler "c" false];
   OAction (ACall everything) [OptObserver 2]; OOther everything; OAction (AAdvance (Z.add 5)) [OptObserver 3]].

Definition used_len (ev : OEv) : option nat := match ev with EUsed l => Some (length l) | _ => None end.

(** The first action wipes what it can reach; the third one is unimpressed. *)
Example C90_given_nonvacuous :
  (o_test twofold no_heap 100 [[OptNow 1]; [OptHandler "z" false]] busy).2 =
  [EGiven 100 (Some <$> [OptNow 100; OptType HTProjection false; OptType HTIntegration false; OptObserver 0;
                         OptNow 1; OptHandler "z" false; OptHandler "a" true; OptObserver 1]);
   EUsed (replicate 8 None);
   EGiven 100 (Some <$> [OptNow 100; OptType HTProjection false; OptType HTIntegration false; OptObserver 0;
                         OptNow 1; OptHandler "z" false; OptHandler "a" true; OptHandler "b" true; OptHandler "c" false; OptObserver 2]);
   EExecuted (Some <$> [OptNow 100; OptType HTProjection false; OptType HTIntegration false; OptObserver 0;
                         OptNow 1; OptHandler "z" false; OptHandler "a" true; OptHandler "b" true; OptHandler "c" false; OptObserver 2]);
   EPanicked;
   EGiven 100 (Some <$> [OptNow 100; OptType HTProjection false; OptType HTIntegration false; OptObserver 0;
                         OptNow 1; OptHandler "z" false; OptHandler "a" true; OptHandler "b" true; OptHandler "c" false; OptObserver 3]);
   EUsed (Some <$> [OptNow 100; OptType HTProjection false; OptType HTIntegration false; OptObserver 0;
                         OptNow 1; OptHandler "z" false; OptHandler "a" true; OptHandler "b" true; OptHandler "c" false; OptObserver 3; OptNow 105])].
Proof. vm_compute. reflexivity. Qed.

(** The array that AdvanceTime() extends is the one it is given. *)
Example C90_advance_keeps_nonvacuous : exists st s st' s' evs,
  advance twofold (Z.add 5) s st = (st', s', evs) /\
  (l_len s, l_cap s) = (1, 2) /\ l_off s + l_cap s <= length (default [] (h_arr (t_heap st) !! l_arr s)) /\
  l_arr s < h_next (t_heap st) /\ t_heap st' <> t_heap st.
Proof.
  set (st := mkTMem (mkHeap 1 {[ 0 := [Some (OptNow 0); None] ]}) 0 (mkSlc 0 0 1 2) None [] []).
  exists st, (mkSlc 0 0 1 2), (advance twofold (Z.add 5) (mkSlc 0 0 1 2) st).1.1, (mkSlc 0 0 2 2), [EUsed [Some (OptNow 0); Some (OptNow 5)]].
  split; [vm_compute; reflexivity|]. split; [reflexivity|]. split; [vm_compute; lia|]. split; [vm_compute; lia|].
  intros H. apply (f_equal (fun h => h_arr h !! 0)) in H. vm_compute in H. discriminate H.
Qed.

(** AdvanceTime() may overwrite options that a user-defined action has appended to those of
    its scope, if it performs AdvanceTime() with that scope. *)
Definition combined (x : OOpt) (f : Z -> Z) : list Slc -> VProg :=
  first (fun s => VAppend s [x] (fun s1 => VAdvance f s (VUse s1 VDone))).
Theorem C90_appended_kept_refuted :
  ~ (forall (P : Params) grow h clock unsafe cs extra x f, exists now evs,
     (o_test grow h clock unsafe (cs ++ [OAction (AUser (combined x f)) extra])).2 =
       evs ++ [EUsed (proper now unsafe cs extra ++ [Some x])]).
Proof.
  intros F. destruct (F DemoP twofold no_heap 100%Z [] [] [OptObserver 1] (OptHandler "a" true) (Z.add 5)) as (now & evs & E).
  apply (f_equal (fun l => last l)) in E. rewrite last_snoc in E. vm_compute in E. discriminate E.
Qed.

(** A user-defined action that advances the time and then uses the options of its scope
    uses the engine at the time of its start. *)
Definition advance_then (f : Z -> Z) : list Slc -> VProg := first (fun s => VAdvance f s (VUse s VDone)).
Definition engine_time (opts : list (option OOpt)) : option Z :=
  last (omap (fun o => match o with Some (OptNow t) => Some t | _ => None end) opts).
Theorem C90_composed_time_refuted :
  ~ (forall (P : Params) grow h clock f, (clock <= f clock)%Z -> exists evs opts,
     (o_test grow h clock [] [OAction (AUser (advance_then f)) []]).2 = evs ++ [EUsed opts] /\
     engine_time opts = Some (f clock)).
Proof.
  intros F. destruct (F DemoP twofold no_heap 100%Z (Z.add 5) ltac:(lia)) as (evs & opts & E & T).
  apply (f_equal (fun l => last l)) in E. rewrite last_snoc in E. vm_compute in E. injection E as <-.
  vm_compute in T. discriminate T.
Qed.

Print Assumptions C90_given.
Print Assumptions C90_outside.
Print Assumptions C90_advance_keeps.
Print Assumptions C90_appended_kept_refuted.
Print Assumptions C90_composed_time_refuted.
