(** * Vocabulary for what an operation depends on. *)
From Verif Require Export EngineSpec.

Section IsoSpec.
Context {P : Params}.

(** Two engines that are alike, except that instance [i] of handler [h] may be there or
    not, and may have another history and other pending timeouts. *)
Definition differ_only_in (h : Handler) (i : string) (st1 st2 : EState) : Prop :=
  es_g st1 = es_g st2 /\
  (forall n, n <> h_name h -> es_cs st1 !! n = es_cs st2 !! n) /\
  (forall j, j <> i -> untouched j (es_cs st1 !! h_name h) (es_cs st2 !! h_name h)).

(** What is stored is the same but for the events of aggregate instance [i], or for the root
    of process instance [i]. *)
Definition same_but_contents (i : string) (cs1 cs2 : option CState) : Prop :=
  match cs1, cs2 with
  | Some (CSAgg hist1), Some (CSAgg hist2) => forall j, j <> i -> hist1 !! j = hist2 !! j
  | Some (CSProc ps1), Some (CSProc ps2) =>
    (forall j, j <> i -> pc_instances ps1 !! j = pc_instances ps2 !! j) /\ pc_timeouts ps1 = pc_timeouts ps2
  | _, _ => cs1 = cs2
  end.
(** Two engines that are alike, except that instance [i] of handler [h] may be there or not,
    and may have another history or root. *)
Definition differ_only_inside (h : Handler) (i : string) (st1 st2 : EState) : Prop :=
  es_g st1 = es_g st2 /\
  (forall n, n <> h_name h -> es_cs st1 !! n = es_cs st2 !! n) /\
  same_but_contents i (es_cs st1 !! h_name h) (es_cs st2 !! h_name h).

(** The facts among the events. *)
Definition facts_of (evs : list Ev) : list Fact :=
  omap (fun e => match e with EvFact f => Some f | EvReset => None end) evs.
(** The operation did not panic. *)
Definition did_not_panic (r : Out Errs) : Prop := forall v, r <> Pan v.
End IsoSpec.
