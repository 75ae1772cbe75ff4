(** * C84: a *SatisfyT used by several goroutines. *)
From Verif Require Import SatConcSpec SatConcLemmas SatConcDone SatConcActs SatConcDemo SatConcFinite SatConcAlone SatisfyLemmas.

(** Every goroutine makes the calls that its code says, each once and in its order: the
    one of Done, which runs the function [f], and those that it starts.  (A goroutine
    whose panic nobody recovers ends the process.) *)
Theorem C84_calls : forall E inverted f ps tr y t p,
  runs (sys_init E inverted f ps) tr y -> (t_main E inverted f :: ps) !! t = Some p ->
  (forall s, sy_ths y !! t = Some (mkT (Run (TRet s)) []) -> acts p (did_by t tr) (RRet s)) /\
  (forall pre v post, tr = pre ++ (t, LCrash v) :: post -> acts p (did_by t pre) (RPanic v) /\ post = []).
Proof.
  intros E inverted f ps tr y t p H Hp. split.
  - intros s Hs. by eapply acts_ended.
  - intros pre v post ->. by eapply acts_crashed.
Qed.
Print Assumptions C84_calls.

(** Failed and Skipped answer according to the calls of all goroutines so far. *)
Theorem C84_queries : forall E inverted f ps pre t b post y,
  (runs (sys_init E inverted f ps) (pre ++ (t, LSat (SvFailed b)) :: post) y -> b = true <-> called failing (did pre)) /\
  (runs (sys_init E inverted f ps) (pre ++ (t, LSat (SvSkipped b)) :: post) y -> b = true <-> called skipping (did pre)).
Proof.
  intros E inverted f ps pre t b post y. split; intros H; apply queries_lemma in H as [H1 H2]; auto.
Qed.
Print Assumptions C84_queries.

(** Done runs the cleanup functions that had been registered, by whichever goroutine,
    when the function had ended ([before] ends after that), the last one first, unless
    one of them panics; it panics with the last panic, unless it is that of an aborting
    method. *)
Theorem C84_cleanup : forall E inverted f ps pre t r0 post y,
  user f -> Forall user ps ->
  runs (sys_init E inverted f ps) (pre ++ (t, LOut (ODone r0)) :: post) y ->
  t = 0 /\ exists before after r cs,
    pre = before ++ after /\ answers before = [OEnd r] /\ answers after = concat (map cleanup_answers cs) /\
    map fst cs = take (length cs) (rev (registered (did before))) /\
    (forall i c, cs !! i = Some c -> S i < length cs -> c.2 = None) /\
    (length cs < length (registered (did before)) -> exists c v, last cs = Some c /\ c.2 = Some v) /\
    length cs <= length (registered (did before)) /\
    r0 = match last_panic (r :: map snd cs) with Some SAbort => None | x => x end.
Proof.
  intros E inverted f ps pre t r0 post y Hf Hps H. destruct (answer_lemma _ _ _ Hf _ _ _ _ _ _ Hps H) as (-> & H1 & _). split; [done|].
  destruct (H1 _ eq_refl) as (r & fns & cs & (before & after & -> & -> & Ha & Hb) & (C1 & C2 & C3 & C4) & ->).
  exists before, after, r, cs. rewrite app_nil_r in Hb. split; [done|]. split; [done|]. split; [done|]. split; [done|]. split; [done|].
  split; [done|]. split; [done|]. rewrite last_panic_cons. by unfold result.
Qed.
Print Assumptions C84_cleanup.

(** Ok answers according to the calls made, by whichever goroutine, before Done ended
    and, if there are goroutines left, those made before it answers. *)
Theorem C84_ok : forall E inverted f ps pre t b post y,
  user f -> Forall user ps ->
  runs (sys_init E inverted f ps) (pre ++ (t, LOut (OOk b)) :: post) y ->
  exists pre0 mid, pre = pre0 ++ (0, LOut (ODone None)) :: mid /\
    (b = true -> called skipping (did pre) \/ ~ called failing (did pre0)) /\
    (b = false -> called failing (did pre) /\ ~ called skipping (did pre0)).
Proof.
  intros E inverted f ps pre t b post y Hf Hps H. destruct (answer_lemma _ _ _ Hf _ _ _ _ _ _ Hps H) as (_ & _ & H2).
  destruct (H2 _ eq_refl) as (pre0 & mid & -> & _ & H3). by exists pre0, mid.
Qed.
Print Assumptions C84_ok.

(** If the other goroutines have ended when Done does, Ok and Report answer according to
    all calls that were made: skipped or not failed; the log of all goroutines in the
    order of their calls; the first call of a failing or skipping method. *)
Theorem C84_report : forall E inverted f ps pre y1 post y,
  user f -> Forall user ps ->
  runs (sys_init E inverted f ps) pre y1 -> others_ended y1 -> runs y1 ((0, LOut (ODone None)) :: post) y ->
  did post = [] /\
  (forall t b, (t, LOut (OOk b)) ∈ post -> b = true <-> called skipping (did pre) \/ ~ called failing (did pre)) /\
  (forall t rep, (t, LOut (OReport rep)) ∈ post ->
     (cr_ok rep = true <-> called skipping (did pre) \/ ~ called failing (did pre)) /\
     (called skipping (did pre) -> cr_outcome rep = "the expectation was skipped") /\
     (~ called skipping (did pre) -> called failing (did pre) -> cr_outcome rep = "the expectation failed") /\
     (~ called skipping (did pre) -> ~ called failing (did pre) -> cr_outcome rep = "") /\
     (cr_ok rep = true \/ inverted = false ->
        logged (did pre) (cr_log rep) /\
        match cr_explanation rep with
        | [] => ~ called deciding (did pre)
        | x => exists l m stk y, first_called deciding (did pre) l m stk /\ x = txt (method_name m) ++ txt "() called " ++ y
        end)).
Proof.
  intros E inverted f ps pre y1 post y Hf Hps H1 Ho H2.
  destruct (report_lemma _ _ _ Hf _ _ _ _ _ Hps H1 Ho H2) as ((T1 & T2 & T3 & T4 & _) & Hd & _ & more & Hm).
  assert (Hok : s_ok (sy_st y1) = true <-> called skipping (did pre) \/ ~ called failing (did pre)).
  { unfold s_ok. rewrite orb_true_iff, negb_true_iff, T2. split; (intros [?|Hx]; [by left|right]).
    - intros Hc. apply T1 in Hc. congruence.
    - destruct (ss_failed (sy_st y1)); [|done]. destruct Hx. by apply T1. }
  assert (Hin : forall t o, (t, LOut o) ∈ post -> o = OOk (s_ok (sy_st y1)) \/ o = OReport (report_on inverted (sy_st y1))).
  { intros t o Hin. assert (Hx : o ∈ answers post) by (apply elem_of_list_omap; by exists (t, LOut o)).
    assert (Hy : o ∈ answers post ++ more) by (apply elem_of_app; by left). rewrite <- Hm in Hy.
    apply elem_of_cons in Hy as [->|Hy]; [by left|]. apply elem_of_list_singleton in Hy as ->. by right. }
  split; [done|]. split.
  - intros t b Hb. destruct (Hin _ _ Hb) as [[= ->]|]; [exact Hok|done].
  - intros t rep Hr. destruct (Hin _ _ Hr) as [|[= ->]]; [done|].
    assert (R1 : cr_ok (report_on inverted (sy_st y1)) = s_ok (sy_st y1)) by (unfold report_on; by destruct (negb _ && _)).
    assert (R2 : cr_outcome (report_on inverted (sy_st y1)) =
      if ss_skipped (sy_st y1) then "the expectation was skipped" else if ss_failed (sy_st y1) then "the expectation failed" else "")
      by (unfold report_on; by destruct (negb _ && _)).
    rewrite R1, R2. split; [exact Hok|]. split; [|split; [|split]].
    + intros Hs. apply T2 in Hs. by rewrite Hs.
    + intros Hs Hfa. apply T1 in Hfa. rewrite Hfa. destruct (ss_skipped (sy_st y1)); [by destruct Hs; apply T2|done].
    + intros Hs Hfa. destruct (ss_skipped (sy_st y1)); [by destruct Hs; apply T2|].
      destruct (ss_failed (sy_st y1)); [by destruct Hfa; apply T1|done].
    + intros Hc. assert (Hb : negb (s_ok (sy_st y1)) && inverted = false).
      { destruct Hc as [Hc|Hc]; rewrite Hc; [done|apply andb_false_r]. }
      unfold report_on. rewrite Hb. cbn. split; [done|].
      destruct (ss_explanation (sy_st y1)) as [|ch tl]; [done|]. destruct T3 as (l & m & stk & Hfc & ->). exists l, m, stk.
      unfold explanation, explain_text. rewrite smethod_name.
      destruct (find_loop _ _ _ _ _) as [fr []]; cbn [fst snd]; eexists; (split; [exact Hfc|]); done.
Qed.
Print Assumptions C84_report.

(** A goroutine that calls FailNow, Fatal, Fatalf or a skipping method does nothing more
    until the panic is recovered, or ends the process. *)
Theorem C84_abort : forall E inverted f ps pre t m s stk mid l post y,
  runs (sys_init E inverted f ps) (pre ++ (t, LSat (SvCall m s stk)) :: mid ++ (t, l) :: post) y ->
  aborting m -> (forall l', (t, l') ∈ mid -> l' = LTau) -> l <> LTau ->
  l = LTried (Some SAbort) \/ l = LCrash SAbort.
Proof.
  intros E inverted f ps pre t m s stk mid l post y H Ha Hmid Hl.
  destruct (abort_lemma _ _ _ _ _ _ _ _ _ _ _ _ _ H Ha Hmid) as [?|?]; [done|done].
Qed.
Print Assumptions C84_abort.

(** The methods never block for good if the arguments of those that log are formatted by
    code that does not use the *SatisfyT: goroutines that cannot go on have ended or wait
    for one another. *)
Theorem C84_no_deadlock : forall E inverted f ps tr y,
  plain f -> Forall plain ps -> runs (sys_init E inverted f ps) tr y -> sy_crash y = None ->
  (exists e y', step y e y') \/ forall t th, sy_ths y !! t = Some th -> ended th \/ waiting y th.
Proof. intros E inverted f ps tr y. apply progress_lemma. Qed.
Print Assumptions C84_no_deadlock.

(** Every schedule ends, whatever the goroutines do: there is no infinite sequence of steps. *)
Theorem C84_finite : forall E inverted f ps (y : nat -> Sys),
  y 0 = sys_init E inverted f ps -> ~ forall k, exists e, step (y k) e (y (1 + k)).
Proof. intros E inverted f ps y. apply finite_lemma. Qed.
Print Assumptions C84_finite.

(** Used by one goroutine only, a *SatisfyT behaves as C52 and others say of
    [s_done]: the function and its cleanup functions make the same calls, Done ends in the
    same way and Ok answers the same.  (Methods that take no text are given none.) *)
Theorem C84_alone : forall E inverted fn st evs r tr y,
  s_done E fn s_init = (st, evs, r) ->
  runs (sys_init E inverted (t_prog fn.1 (done_stack E) fn.2) []) tr y -> (forall e y', ~ step y e y') ->
  did tr = calls_of evs /\ sy_st y = st /\ sy_crash y = r /\
  exists rest, answers tr = answers_of evs ++ ODone r :: rest /\
    match r with None => exists rep, rest = [OOk (s_ok st); OReport rep] /\ cr_ok rep = s_ok st | Some _ => rest = [] end.
Proof.
  intros E inverted fn st evs r tr y H Hr Hend. destruct (alone_lemma _ _ _ _ _ _ _ _ H Hr Hend) as (H1 & H2 & H3 & H4).
  split; [done|]. split; [done|]. split; [done|]. eexists. split; [exact H4|]. destruct r; [done|].
  eexists. split; [done|]. unfold report_on. by destruct (negb _ && _).
Qed.
Print Assumptions C84_alone.

(** ** A run: two goroutines, for which the function waits *)

Definition ex_main : TP := TCall MLog (TRet "waiting") (ex_stack 10) (TWait 1 (TWait 2 (TFailed (fun b => TCleanup (ex_fn, SCall MLog "cleanup" (ex_site 5) SRet) (TRet ""))))).
Definition ex_one : TP := TCall MError (TRet "one") (ex_stack 20) (TRet "").
Definition ex_two : TP := TCall MLogf (TStep (TRet "two")) (ex_stack 30) (TCall MFail (TRet "") (ex_stack 31) (TRet "")).
Definition ex_sys : Sys := sys_init ex_env false ex_main [ex_one; ex_two].
Definition ex_sched : list nat :=
  [0; 1; 0] ++ repeat 1 5 ++ [2; 0] ++ repeat 2 4 ++ repeat 0 4 ++ repeat 2 5 ++ repeat 0 60.
(** A schedule as far as it goes. *)
Fixpoint go (sc : list nat) (tr : list (nat * Lab)) (y : Sys) : list (nat * Lab) * Sys :=
  match sc with [] => (tr, y) | t :: sc => match snext y t with Some (l, y') => go sc (tr ++ [(t, l)]) y' | None => go sc tr y end end.
Lemma go_ok sc : forall y0 tr y, runs y0 tr y -> runs y0 (go sc tr y).1 (go sc tr y).2.
Proof.
  induction sc as [|t sc IH]; intros y0 tr y H; [done|]. cbn. destruct (snext y t) as [[l y']|] eqn:E; [|by apply IH].
  apply IH. econstructor; [exact H|by apply snext_ok].
Qed.
Lemma all_ended ths : forallb endedb ths = true -> Forall ended ths.
Proof. intros H. apply Forall_forall. intros th Hth. rewrite forallb_forall in H. apply endedb_ok, H. by apply elem_of_list_In. Qed.
Example C84_example :
  let x := go ex_sched [] ex_sys in
  plain ex_main /\ plain ex_one /\ plain ex_two /\ runs ex_sys x.1 x.2 /\
  did x.1 = [SvCall MError "one" (ex_stack 20); SvCall MLogf "two" (ex_stack 30); SvCall MLog "waiting" (ex_stack 10); SvCall MFail "" (ex_stack 31);
             SvFailed true; SvCleanup (ex_fn, SCall MLog "cleanup" (ex_site 5) SRet);
             SvCall MLog "cleanup" (frame_at ex_fn (ex_site 5) :: close_stack ex_env None)] /\
  answers x.1 = [OEnd None; OBegin (ex_fn, SCall MLog "cleanup" (ex_site 5) SRet); OEnd None; ODone None; OOk false;
                 OReport (mkCR false "the expectation failed" (txt "Error() called at check_test.go:20") ["one"; "two"; "waiting"; "cleanup"])] /\
  Forall ended (sy_ths x.2).
Proof.
  intros x. split; [repeat constructor|]. split; [repeat constructor|]. split; [repeat constructor|].
  split; [apply go_ok; constructor|]. split; [vm_compute; reflexivity|]. split; [vm_compute; reflexivity|].
  apply all_ended. vm_compute. reflexivity.
Qed.

Definition ex_alone : SProg :=
  SCall MLog "a" (ex_site 1) (SCleanup ex_fn (SCall MError "b" (ex_site 2) SRet) (SCall MSkipNow "" (ex_site 3) (SPanic (SUser "x")))).
Example C84_alone_example :
  let x := go (repeat 0 60) [] (sys_init ex_env false (t_prog ex_fn (done_stack ex_env) ex_alone) []) in
  jammed x.2 = true /\ (s_done ex_env (ex_fn, ex_alone) s_init).2 = None /\
  map (fun e => match e with SvCall m s _ => (Some m, s) | _ => (None, "") end) (did x.1) = [(Some MLog, "a"); (None, ""); (Some MSkipNow, ""); (Some MError, "b")] /\
  match answers x.1 with [OEnd (Some SAbort); OBegin _; OEnd None; ODone None; OOk true; OReport _] => true | _ => false end = true.
Proof. split; [|split; [|split]]; vm_compute; reflexivity. Qed.

(** ** Limits *)

Lemma witness sc y0 (P : list (nat * Lab) -> Sys -> Prop) : P (go sc [] y0).1 (go sc [] y0).2 -> exists tr y, runs y0 tr y /\ P tr y.
Proof. intros H. eexists _, _. split; [apply go_ok; constructor|exact H]. Qed.

(** A goroutine that is left behind when Done ends can change the verdict: Ok answers
    true, and the report says that the expectation failed. *)
Definition left_behind : TP := TCall MFail (TRet "") (ex_stack 20) (TRet "").
Theorem C84_left_behind_refuted :
  exists E f p tr y rep, plain f /\ plain p /\ runs (sys_init E false f [p]) tr y /\ Forall ended (sy_ths y) /\
    (0, LOut (OOk true)) ∈ tr /\ (0, LOut (OReport rep)) ∈ tr /\ cr_ok rep = false.
Proof.
  set (rep := mkCR false "the expectation failed" (txt "Fail() called at check_test.go:20") []).
  destruct (witness (repeat 0 8 ++ repeat 1 10 ++ repeat 0 20) (sys_init ex_env false (TRet "") [left_behind])
    (fun tr y => answers tr = [OEnd None; ODone None; OOk true; OReport rep] /\ forallb endedb (sy_ths y) = true /\
       forallb (fun e => match e.2 with LOut _ => Nat.eqb e.1 0 | _ => true end) tr = true)) as (tr & y & Hr & Ha & He & H0).
  { split; [|split]; vm_compute; reflexivity. }
  exists ex_env, (TRet ""), left_behind, tr, y, rep.
  split; [constructor|]. split; [repeat constructor|]. split; [exact Hr|]. split; [by apply all_ended|].
  assert (Hin : forall o, o ∈ answers tr -> (0, LOut o) ∈ tr).
  { intros o Ho. apply elem_of_list_omap in Ho as ([t l] & Hin & Hl). destruct l; try done. injection Hl as ->.
    rewrite forallb_forall in H0. specialize (H0 _ (proj1 (elem_of_list_In _ _) Hin)). cbn in H0. apply Nat.eqb_eq in H0. by subst t. }
  rewrite Ha in Hin. split; [|split; [|done]]; apply Hin.
  - right. right. by left.
  - right. right. right. by left.
Qed.
Print Assumptions C84_left_behind_refuted.

(** A cleanup function that such a goroutine registers is never run. *)
Definition late_cleanup : TP := TCleanup (ex_fn, SRet) (TRet "").
Theorem C84_late_cleanup_refuted :
  exists E f p fn tr y, plain f /\ plain p /\ runs (sys_init E false f [p]) tr y /\ Forall ended (sy_ths y) /\
    fn ∈ registered (did tr) /\ ODone None ∈ answers tr /\ OBegin fn ∉ answers tr.
Proof.
  destruct (witness (repeat 0 4 ++ repeat 1 10 ++ repeat 0 20) (sys_init ex_env false (TRet "") [late_cleanup])
    (fun tr y => answers tr = [OEnd None; ODone None; OOk true; OReport (mkCR true "" [] [])] /\ forallb endedb (sy_ths y) = true /\
       registered (did tr) = [(ex_fn, SRet)])) as (tr & y & Hr & Ha & He & H0).
  { split; [|split]; vm_compute; reflexivity. }
  exists ex_env, (TRet ""), late_cleanup, (ex_fn, SRet), tr, y.
  split; [constructor|]. split; [repeat constructor|]. split; [exact Hr|]. split; [by apply all_ended|].
  rewrite Ha, H0. split; [by left|]. split; [right; by left|].
  intros H. repeat (apply elem_of_cons in H as [H|H]; [done|]). by apply elem_of_nil in H.
Qed.
Print Assumptions C84_late_cleanup_refuted.

(** Log blocks for good if the String method of an argument uses the *SatisfyT. *)
Definition self_log : TP := TCall MLog (TFailed (fun b => TRet "x")) (ex_stack 20) (TRet "").
Theorem C84_string_method_refuted :
  exists E f tr y, user f /\ runs (sys_init E false f []) tr y /\ (forall e y', ~ step y e y') /\ sy_crash y = None /\
    (forall th, sy_ths y !! 0 = Some th -> ~ ended th /\ ~ waiting y th).
Proof.
  destruct (witness (repeat 0 4) (sys_init ex_env false self_log [])
    (fun tr y => jammed y = true /\ sy_crash y = None /\
       match sy_ths y !! 0 with Some (mkT (Run (TFailed _)) _) => true | _ => false end = true)) as (tr & y & Hr & Hj & Hc & H).
  { split; [|split]; vm_compute; reflexivity. }
  exists ex_env, self_log, tr, y. split; [repeat constructor|]. split; [exact Hr|]. split; [by apply jammed_ok|]. split; [exact Hc|].
  intros th Hth. rewrite Hth in H. destruct th as [[p|] stk]; try done. destruct p; try done.
  split; [by intros [s Hs]|]. intros (u & k' & Hk & _). done.
Qed.
Print Assumptions C84_string_method_refuted.

(** FailNow called by a goroutine other than that of the function ends the process:
    Done does not recover its panic. *)
Definition fail_elsewhere : TP := TCall MFailNow (TRet "") (ex_stack 20) (TRet "").
Theorem C84_abort_elsewhere_refuted :
  exists E f p tr y, plain f /\ plain p /\ runs (sys_init E false f [p]) tr y /\
    (1, LCrash SAbort) ∈ tr /\ answers tr = [] /\ forall e y', ~ step y e y'.
Proof.
  destruct (witness (0 :: repeat 1 10 ++ repeat 0 10) (sys_init ex_env false (TWait 1 (TRet "")) [fail_elsewhere])
    (fun tr y => last tr = Some (1, LCrash SAbort) /\ answers tr = [] /\ jammed y = true)) as (tr & y & Hr & Hl & Ha & Hj).
  { split; [|split]; vm_compute; reflexivity. }
  exists ex_env, (TWait 1 (TRet "")), fail_elsewhere, tr, y.
  split; [repeat constructor|]. split; [repeat constructor|]. split; [exact Hr|].
  split; [by apply last_Some_elem_of|]. split; [exact Ha|by apply jammed_ok].
Qed.
Print Assumptions C84_abort_elsewhere_refuted.
