(** * Properties of ToSatisfy: C52 and C53. *)
From Verif Require Import SatisfySpec SatisfyLemmas.

(** The expectation is met iff a skipping method was called, or no failing one. *)
Theorem C52_ok : forall E fn st' evs r,
  s_done E fn s_init = (st', evs, r) ->
  s_ok st' = true <-> called skipping evs \/ ~ called failing evs.
Proof.
  intros E fn st' evs r H. destruct (proj1 (done_lemma E fn st' evs r H)) as (T1 & T2 & _). unfold s_ok.
  rewrite orb_true_iff, negb_true_iff, T2. split; (intros [?|Hx]; [by left | right]).
  - intros Hc. apply T1 in Hc. congruence.
  - destruct (ss_failed st'); [|done]. by destruct Hx; apply T1.
Qed.
Print Assumptions C52_ok.

(** Failed() and Skipped() answer according to the calls made before. *)
Theorem C52_queries : forall E fn st' evs r,
  s_done E fn s_init = (st', evs, r) ->
  (forall l b l', evs = l ++ SvFailed b :: l' -> b = true <-> called failing l) /\
  (forall l b l', evs = l ++ SvSkipped b :: l' -> b = true <-> called skipping l).
Proof.
  intros E fn st' evs r H. destruct (done_lemma E fn st' evs r H) as (_ & Q & _). split; intros l b l' He.
  - by apply (proj1 (Q l _ l' He)).
  - by apply (proj2 (Q l _ l' He)).
Qed.
Print Assumptions C52_queries.

(** Nothing of the function (or cleanup function) that calls FailNow, Fatal, Fatalf or a
    skipping method runs after the call, unless it recovers the panic itself. *)
Theorem C52_abort : forall E fn st' evs r,
  s_done E fn s_init = (st', evs, r) ->
  forall l m s at_ l', evs = l ++ SvCall m s at_ :: l' -> aborting m ->
    exists e l'', l' = e :: l'' /\ (e = SvRecovered SAbort \/ e = SvEnd (Some SAbort)).
Proof.
  intros E fn st' evs r H l m s at_ l' He Hm. destruct (done_lemma E fn st' evs r H) as (_ & _ & A & _).
  specialize (A None l m s at_ l' He Hm). destruct l' as [|e l'']; [done|]. by exists e, l''.
Qed.
Print Assumptions C52_abort.

(** The explanation is empty if no failing or skipping method was called; otherwise it
    begins with the name of the first one that was. *)
Theorem C52_explanation : forall E fn st' evs r,
  s_done E fn s_init = (st', evs, r) ->
  match ss_explanation st' with
  | [] => ~ called deciding evs
  | x => exists l m stk y, first_called deciding evs l m stk /\ x = txt (method_name m) ++ txt "() called " ++ y
  end.
Proof.
  intros E fn st' evs r H. destruct (proj1 (done_lemma E fn st' evs r H)) as (_ & _ & T & _).
  destruct (ss_explanation st') as [|c t]; [done|]. destruct T as (l & m & stk & Hf & ->). exists l, m, stk.
  unfold explanation, explain_text. rewrite smethod_name.
  destruct (find_loop _ _ _ _ _) as [f []]; cbn [fst snd]; eexists; (split; [exact Hf|]); done.
Qed.
Print Assumptions C52_explanation.

(** The log holds what was logged, in order. *)
Theorem C52_log : forall E fn st' evs r, s_done E fn s_init = (st', evs, r) -> logged evs (ss_messages st').
Proof. intros E fn st' evs r H. apply (proj1 (done_lemma E fn st' evs r H)). Qed.
Print Assumptions C52_log.

(** C53.  The cleanup functions registered by the function are run after it ended, in
    whichever way, the last registered first, each once; a cleanup function is run
    unless one run before it panicked.  What is left of a panic is the last one, and it
    propagates unless it is that of an aborting method. *)
Theorem C53_cleanup : forall E fn st' evs r,
  s_done E fn s_init = (st', evs, r) ->
  exists body o (runs : list cleanup_run),
    evs = body ++ SvEnd o :: concat (map run_events runs) /\
    (exists a b, s_run fn.1 (done_stack E) fn.2 a = (b, body, o)) /\
    map (fun c => c.1.1) runs = take (length runs) (rev (registered body)) /\
    Forall (fun c => exists a b, s_run c.1.1.1 (close_stack E o) c.1.1.2 a = (b, c.1.2, c.2)) runs /\
    (forall i c, runs !! i = Some c -> S i < length runs -> c.2 = None) /\
    (length runs < length (registered body) -> exists c v, last runs = Some c /\ c.2 = Some v) /\
    length runs <= length (registered body) /\
    r = match last_panic (o :: map snd runs) with Some (SUser v) => Some (SUser v) | _ => None end.
Proof.
  intros E fn st' evs r H. destruct (done_lemma E fn st' evs r H) as (_ & _ & _ & body & o & runs & He & (b & Hr) & Hrest).
  exists body, o, runs. split; [done|]. split; [by eexists _, b | done].
Qed.
Print Assumptions C53_cleanup.

(** So a panic of the function reaches the caller if no cleanup function panics. *)
Theorem C52_panic_propagates : forall E fn st' evs r l v l',
  s_done E fn s_init = (st', evs, r) ->
  evs = l ++ SvEnd (Some (SUser v)) :: l' ->
  (forall o, SvEnd o ∉ l) -> (forall x, SvEnd (Some x) ∉ l') ->
  r = Some (SUser v).
Proof.
  intros E fn st' evs r l v l' H Hev Hnl Hnl'.
  destruct (done_lemma E fn st' evs r H) as (_ & _ & _ & body & o & runs & Hev' & (b & Hrun) & _ & _ & _ & _ & _ & Hr).
  assert (Hb : l = body /\ o = Some (SUser v) /\ l' = concat (map run_events runs)).
  { rewrite Hev' in Hev. apply app_eq_app in Hev. destruct Hev as (k & [[-> Hx]|[-> Hx]]); destruct k as [|e k]; cbn in Hx.
    - injection Hx as <- <-. by rewrite app_nil_r.
    - injection Hx as <- Hx. exfalso. revert Hrun. intros Hrun. eapply run_no_end; [exact Hrun|]. apply elem_of_app. right. by left.
    - injection Hx as <- <-. by rewrite app_nil_r.
    - injection Hx as <- Hx. exfalso. apply (Hnl o), elem_of_app. right. by left. }
  destruct Hb as (-> & -> & ->). subst r.
  rewrite last_panic_cons. destruct (last_panic (map snd runs)) as [x|] eqn:Ex; [|done].
  exfalso. apply (Hnl' x). unfold last_panic in Ex. apply last_Some_elem_of, elem_of_list_omap in Ex.
  destruct Ex as (y & Hy & Hyx). cbn in Hyx. subst y. apply elem_of_list_fmap in Hy. destruct Hy as (c & Hc2 & Hin).
  apply elem_of_list_In, in_concat. exists (run_events c). split.
  - apply in_map. by apply elem_of_list_In.
  - unfold run_events. right. apply in_or_app. right. left. by rewrite Hc2.
Qed.
Print Assumptions C52_panic_propagates.

(** ** Where the explanation points (C80) *)

(** When the function itself (or what it calls) decides: the place in the innermost
    function that is not a helper, or that of the function if all are. *)
Theorem C80_function : forall E fn st' evs r l m stk,
  s_done E fn s_init = (st', evs, r) -> first_called deciding evs l m stk -> (forall o, SvEnd o ∉ l) ->
  exists us, stk = us ++ done_stack E /\ (exists a, last us = Some (frame_at fn.1 a)) /\
    (length us <= 50 -> Forall (fun x => func x <> fn_name (done_fn E)) us ->
     exists f, blamed l us f /\ explained m (bool_decide (head us = Some f)) f (ss_explanation st')).
Proof.
  intros E fn st' evs r l m stk H Hf Hno. rewrite (done_explanation _ _ _ _ _ _ _ _ H Hf).
  destruct Hf as (s & l' & He & Hk & Hfirst).
  destruct (done_stacks _ _ _ _ _ _ _ _ _ _ H He) as (us & Hpc & [(_ & -> & Hlast)|(o & g & Ho & _)]); [|by apply Hno in Ho].
  exists us. split; [done|]. split; [done|]. intros Hlen Hnc.
  assert (Hd : forall f, f ∈ rev (declared l) <-> is_helper l f).
  { intros f. rewrite <- (declared_helper l f) by by eapply done_no_empty. rewrite !elem_of_list_In. symmetry. apply in_rev. }
  unfold explanation. destruct (split_helpers (rev (declared l)) us) as [(k & f & k' & -> & Hk1 & Hk2)|Hall].
  - exists f. split.
    { left. exists k, k'. split_and!; [done| |by rewrite <- Hd]. eapply Forall_impl; [exact Hk1|]. intros x. apply Hd. }
    apply Forall_app in Hnc as [Hn1 Hn2]. apply Forall_cons in Hn2 as [Hn2 _].
    rewrite app_length in Hlen. cbn in Hlen.
    rewrite <- app_assoc. cbn [app]. rewrite find_nonhelper; [|apply Forall_and; by split|done|done|lia|right].
    + rewrite decide_True by done.
      replace (bool_decide (head (k ++ f :: k') = Some f)) with (bool_decide (f = hd no_frame (k ++ [f]))); [apply explain_explained|].
      apply bool_decide_ext. destruct k; cbn; split; congruence.
    + by destruct k.
  - destruct Hlast as (a & Hlast). exists (frame_at fn.1 a). split.
    { right. split; [|done]. eapply Forall_impl; [exact Hall|]. intros x. apply Hd. }
    unfold done_stack. rewrite (find_all_helpers _ _ _ _ (frame_at fn.1 a)); [|apply Forall_and; by split|done|done|done|by right].
    rewrite decide_True by done.
    replace (bool_decide (head us = Some (frame_at fn.1 a))) with (bool_decide (frame_at fn.1 a = hd no_frame us)); [apply explain_explained|].
    apply bool_decide_ext. destruct us; [done|]. cbn. split; congruence.
Qed.
Print Assumptions C80_function.

(** When a cleanup function decides: the place in the innermost function that is not a
    helper, unless all functions up to the cleanup function are helpers. *)
Theorem C80_cleanup : forall E fn st' evs r l m stk o,
  s_done E fn s_init = (st', evs, r) -> first_called deciding evs l m stk -> SvEnd o ∈ l ->
  exists us g o', SvBegin g ∈ l /\ stk = us ++ close_stack E o' /\ (exists a, last us = Some (frame_at g.1 a)) /\
    (length us <= 50 -> Forall (fun x => func x <> fn_name (done_fn E)) us -> Exists (fun x => ~ is_helper l (func x)) us ->
     exists f, blamed l us f /\ explained m (bool_decide (head us = Some f)) f (ss_explanation st')).
Proof.
  intros E fn st' evs r l m stk o H Hf Hno. rewrite (done_explanation _ _ _ _ _ _ _ _ H Hf).
  destruct Hf as (s & l' & He & Hk & Hfirst).
  destruct (done_stacks _ _ _ _ _ _ _ _ _ _ H He) as (us & Hpc & [(Ho & _)|(o' & g & _ & Hg & -> & Hlast)]); [by apply Ho in Hno|].
  exists us, g, o'. split; [done|]. split; [done|]. split; [done|]. intros Hlen Hnc Hex.
  assert (Hd : forall f, f ∈ rev (declared l) <-> is_helper l f).
  { intros f. rewrite <- (declared_helper l f) by by eapply done_no_empty. rewrite !elem_of_list_In. symmetry. apply in_rev. }
  unfold explanation. destruct (split_helpers (rev (declared l)) us) as [(k & f & k' & -> & Hk1 & Hk2)|Hall].
  - exists f. split.
    { left. exists k, k'. split_and!; [done| |by rewrite <- Hd]. eapply Forall_impl; [exact Hk1|]. intros x. apply Hd. }
    apply Forall_app in Hnc as [Hn1 Hn2]. apply Forall_cons in Hn2 as [Hn2 _].
    rewrite app_length in Hlen. cbn in Hlen.
    rewrite <- app_assoc. cbn [app]. rewrite find_nonhelper; [|apply Forall_and; by split|done|done|lia|right].
    + rewrite decide_True by done.
      replace (bool_decide (head (k ++ f :: k') = Some f)) with (bool_decide (f = hd no_frame (k ++ [f]))); [apply explain_explained|].
      apply bool_decide_ext. destruct k; cbn; split; congruence.
    + by destruct k.
  - exfalso. apply Exists_exists in Hex as (x & Hx & Hn). apply Hn, Hd. by eapply Forall_forall in Hall.
Qed.
Print Assumptions C80_cleanup.

(** ** Cases *)

Definition user_fn (s : string) : Fn := {| fn_name := txt "example.org/app." ++ txt s; fn_file := txt "/src/app/" ++ txt s ++ txt ".go" |}.
Definition place (pc : positive) (line : Z) : Site := {| si_pc := pc; si_line := line |}.
Definition test_env : SEnv :=
  {| se_file := txt "/src/testkit/expectation.satisfy.go"; se_pred := place 101 92; se_end := place 102 94; se_loop := place 103 368;
     se_panicking := [{| sf_pc := 104; sf_frame := {| fr_func := txt "runtime.gopanic"; fr_file := txt "/go/src/runtime/panic.go"; fr_line := 914 |} |}];
     se_above := [{| sf_pc := 105; sf_frame := {| fr_func := txt "github.com/dogmatiq/testkit.(*Test).Expect"; fr_file := txt "/src/testkit/test.go"; fr_line := 150 |} |}] |}.
Definition pred (p : SProg) : Fn * SProg := (user_fn "pred", p).
Definition fails_now : Fn * SProg := (user_fn "c1", SCall MFailNow "" (place 1 1) SRet).
Definition logs (s : string) : Fn * SProg := (user_fn "c2", SCall MLog s (place 2 2) SRet).

Ltac not_in := let H := fresh in intros H; repeat (apply elem_of_cons in H; destruct H as [H|H]; [discriminate H|]); by apply elem_of_nil in H.

(** Not all cleanup functions are run: not when one calls FailNow, and not when one is
    registered by another. *)
Theorem C53_refuted :
  exists E fn1 fn2 fn3 g st' evs r,
    s_done E (g, SCleanup fn1.1 fn1.2 (SCleanup fn2.1 fn2.2 SRet)) s_init = (st', evs, r) /\ r = None /\
    SvCleanup fn1 ∈ evs /\ SvBegin fn1 ∉ evs /\
    exists fn4 st'' evs' r',
      s_done E (g, SCleanup fn4.1 fn4.2 SRet) s_init = (st'', evs', r') /\ r' = None /\
      SvBegin fn4 ∈ evs' /\ SvCleanup fn3 ∈ evs' /\ SvBegin fn3 ∉ evs'.
Proof.
  exists test_env, (logs "a"), fails_now, (logs "a"), (user_fn "pred"). do 3 eexists. split; [reflexivity|]. split; [done|].
  split; [repeat (first [left | right])|]. split; [not_in|].
  exists (user_fn "c3", SCleanup (logs "a").1 (logs "a").2 SRet). do 3 eexists. split; [reflexivity|]. split; [done|].
  split; [repeat (first [left | right])|]. split; [repeat (first [left | right])|]. not_in.
Qed.
Print Assumptions C53_refuted.

(** A panic of the function does not always reach the caller. *)
Theorem C52_panic_refuted :
  exists E fn st' evs,
    s_done E (pred (SCleanup fn.1 fn.2 (SPanic (SUser "boom")))) s_init = (st', evs, None) /\
    SvEnd (Some (SUser "boom")) ∈ evs.
Proof. exists test_env, fails_now. do 2 eexists. split; [reflexivity|]. repeat (first [left | right]). Qed.
Print Assumptions C52_panic_refuted.

(** An example: the function fails, registers two cleanup functions, recovers from
    FailNow, and is skipped after that. *)
Definition c3 : Fn * SProg := (user_fn "c3", SCall MErrorf "two" (place 3 3) SRet).
Definition example : SProg :=
  SCleanup (logs "one").1 (logs "one").2 (SCleanup c3.1 c3.2
    (STry (place 4 4) (user_fn "attempt") (SCall MFailNow "" (place 5 5) SRet) (fun r => SFailed (fun b =>
       if b then SCall MSkipf "never mind" (place 6 6) (SCall MFatal "x" (place 7 7) SRet) else SRet)))).
Example satisfy_example :
  exists st' evs, s_done test_env (pred example) s_init = (st', evs, None) /\
    s_ok st' = true /\ called failing evs /\ called skipping evs /\
    ss_explanation st' = txt "FailNow() called at attempt.go:5" /\ ss_messages st' = ["never mind"; "two"; "one"] /\
    registered evs = [logs "one"; c3] /\
    ~ called (fun m => m = MFatal) evs.
Proof.
  do 2 eexists. split; [reflexivity|]. split_and!; try reflexivity.
  - exists MFailNow, ""; eexists. split; [repeat (first [left | right]) | constructor].
  - exists MSkipf, "never mind"; eexists. split; [repeat (first [left | right]) | constructor].
  - intros (m & s & a & H & ->).
    repeat (apply elem_of_cons in H; destruct H as [H|H]; [discriminate H|]). by apply elem_of_nil in H.
Qed.
Example satisfy_panics :
  exists st' evs, s_done test_env (pred (SCleanup (logs "one").1 (logs "one").2 (SCall MFail "" (place 1 1) (SPanic (SUser "boom"))))) s_init
    = (st', evs, Some (SUser "boom")) /\ s_ok st' = false /\ ss_messages st' = ["one"].
Proof. do 2 eexists. split; [reflexivity|]. by split. Qed.

(** A helper called by a helper called by the function; both have called Helper. *)
Definition assert_eq : SProg := SCall MHelper "" (place 10 10) (SCall MError "not equal" (place 11 11) SRet).
Definition assert_all : SProg := SCall MHelper "" (place 12 12) (SInvoke (place 13 13) (user_fn "asserteq") assert_eq SRet).
Example helpers_example :
  exists st' evs l stk us, s_done test_env (pred (SInvoke (place 14 20) (user_fn "assertall") assert_all SRet)) s_init = (st', evs, None) /\
    first_called deciding evs l MError stk /\ (forall o, SvEnd o ∉ l) /\ stk = us ++ done_stack test_env /\
    length us = 3 /\ Forall (fun x => func x <> fn_name (done_fn test_env)) us /\
    is_helper l (func (hd no_frame us)) /\
    ss_explanation st' = txt "Error() called indirectly by call at pred.go:20".
Proof.
  do 2 eexists. eexists [_; _], _, [_; _; _]. split; [reflexivity|]. split.
  { do 2 eexists. split; [reflexivity|]. split; [left; constructor|]. intros (m & s & a & Hm & Hd).
    apply elem_of_cons in Hm as [[= -> -> ->]|Hm]; [by destruct Hd as [Hd|Hd]; inversion Hd|].
    apply elem_of_list_singleton in Hm as [= -> -> ->]. by destruct Hd as [Hd|Hd]; inversion Hd. }
  split; [intros o; not_in|]. split; [reflexivity|]. split; [reflexivity|]. split; [repeat constructor; discriminate|]. split; [|reflexivity].
  do 3 eexists. split; [right; left|reflexivity].
Qed.
(** The same helper called by a cleanup function. *)
Example cleanup_example :
  exists st' evs, s_done test_env (pred (SCleanup (user_fn "clean") (SInvoke (place 15 30) (user_fn "assertall") assert_all SRet) SRet)) s_init = (st', evs, None) /\
    ss_explanation st' = txt "Error() called indirectly by call at clean.go:30".
Proof. do 2 eexists. split; [reflexivity|]. reflexivity. Qed.

(** The explanation points into testkit when a cleanup function is a helper. *)
Theorem C80_cleanup_refuted :
  exists E p st' evs, s_done E (pred (SCleanup (user_fn "asserteq") p SRet)) s_init = (st', evs, None) /\
    ss_explanation st' = txt "Error() called indirectly by call at expectation.satisfy.go:368".
Proof. exists test_env, assert_eq. do 2 eexists. split; [reflexivity|]. reflexivity. Qed.
Print Assumptions C80_cleanup_refuted.

(** The explanation points into a helper when 50 nested helpers have been called, and
    the first 49 of them are not mentioned. *)
Fixpoint nested (n : nat) (p : SProg) : SProg :=
  match n with 0 => p | S n => SCall MHelper "" (place 20 40) (SInvoke (place 21 41) (user_fn "rec") (nested n p) SRet) end.
Theorem C80_depth_refuted :
  exists E p st' evs, s_done E (pred (SInvoke (place 14 20) (user_fn "rec") p SRet)) s_init = (st', evs, None) /\
    (forall f, SvCall MHelper "" f ∈ evs -> func (hd no_frame f) = fn_name (user_fn "rec")) /\
    ss_explanation st' = txt "Fail() called indirectly by call at rec.go:41".
Proof.
  exists test_env, (nested 50 (SCall MFail "" (place 22 42) SRet)).
  assert (H : forall x : SState * list SEv * option SPan,
    forallb (fun ev => match ev with SvCall MHelper "" f => bool_decide (func (hd no_frame f) = fn_name (user_fn "rec")) | _ => true end) x.1.2 = true ->
    forall f, SvCall MHelper "" f ∈ x.1.2 -> func (hd no_frame f) = fn_name (user_fn "rec")).
  { intros x Hx f Hf. rewrite forallb_forall in Hx. apply elem_of_list_In, Hx in Hf. by apply bool_decide_eq_true in Hf. }
  specialize (H (s_done test_env (pred (SInvoke (place 14 20) (user_fn "rec") (nested 50 (SCall MFail "" (place 22 42) SRet)) SRet)) s_init)).
  eexists _, _. split; [|split; [apply H; vm_compute; reflexivity|]].
  2:{ instantiate (1 := (s_done test_env (pred (SInvoke (place 14 20) (user_fn "rec") (nested 50 (SCall MFail "" (place 22 42) SRet)) SRet)) s_init).1.1). vm_compute. reflexivity. }
  vm_compute. reflexivity.
Qed.
Print Assumptions C80_depth_refuted.
