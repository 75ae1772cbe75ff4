(** * C102: a handler that is disabled might as well be absent *)
From Verif Require Import DisableSpec DisableProof ProcDemo EngDemo.

Section Props.
Context {P : Params}.

(** However an engine has been used so far: if the handler named [n] is disabled
    during all the operations that follow, then these go exactly as they do on an
    engine whose application does not have that handler (and whose options do not
    name it) and that otherwise is in the same state: the same facts in the same
    order, but for those that mention that [n] was skipped; the same effects on
    the world of the other handlers and on what the engine keeps for them; the
    same operations panic, fail, or are still in progress. *)
Theorem C102_disabled_is_absent c n u ops0 st0 evs0 fin0 ops st evs fin :
  history c u ops0 st0 evs0 fin0 -> (exists h, h ∈ c_app c /\ h_name h = n) ->
  Forall (op_ok c) ops -> Forall (disabled_during c n) ops ->
  run_ops c ops st0 = (st, evs, fin) ->
  run_ops (without n c) (op_without n <$> ops) (state_without n st0) = (state_without n st, evs_without n evs, fin).
Proof. intros H Hn. pose proof H as (Hok & _). by eapply disabled_lemma. Qed.

(** A handler that is disabled from the beginning. *)
Theorem C102_never_enabled_is_absent c n u ops st evs fin :
  history c u ops st evs fin -> (exists h, h ∈ c_app c /\ h_name h = n) -> Forall (disabled_during c n) ops ->
  history (without n c) u (op_without n <$> ops) (state_without n st) (evs_without n evs) fin.
Proof. intros H Hn. pose proof H as (Hok & _). by eapply absent_lemma. Qed.

(** One operation returns the same errors, or panics with the same value. *)
Theorem C102_same_results c n u ops0 st0 evs0 fin0 op st evs r :
  history c u ops0 st0 evs0 fin0 -> (exists h, h ∈ c_app c /\ h_name h = n) ->
  op_ok c op -> disabled_during c n op -> run_op c op st0 = (st, evs, r) ->
  run_op (without n c) (op_without n op) (state_without n st0) = (state_without n st, evs_without n evs, r).
Proof. intros H Hn Ho Hd. pose proof H as (Hok & _). eapply without_op; try done. by eapply without_good. Qed.

End Props.

(** Without the condition on the messages this is false: a message that only a
    disabled handler consumes is accepted and skipped, but an application that does
    not consume it rejects it. *)
Definition only : Config := mkConfig [hSrc; hFlow] false [].
Definition off_op : Op := OpDispatch quietly 20 (command "Go" 6) [OptNow 100; OptHandler "src" false].
Theorem C102_without_other_consumer_refuted :
  exists h, h ∈ c_app only /\ h_name h = "src" /\ skipped [OptNow 100; OptHandler "src" false] h <> None /\
  (run_op only off_op (e_init only [])).2 = Ok [] /\
  (run_op (without "src" only) (op_without "src" off_op) (state_without "src" (e_init only []))).2
    = Pan (PEngine "not consumed by any handlers" (Some (command "Go" 6))).
Proof. exists hSrc. split; [by left|]. split; [done|]. split; [done|]. split; vm_compute; reflexivity. Qed.

(** A process with a pending timeout is disabled, by name and by type; an always
    disabled projection. *)
Definition before_ops : list Op := [go_with quietly [OptNow 100] 6].
Definition after_ops : list Op :=
  [go_with quietly [OptNow 105; OptHandler "flow" false] 100; wait_with quietly [OptNow 200; OptType HTProcess false];
   OpUser (cons "x"); go_with quietly [OptNow 300; OptType HTProcess false] 99].
Lemma mixed_disabled n opts m :
  (forall h, h ∈ c_app mixed -> h_name h = n -> skipped opts h <> None) -> n <> "src" -> m_type m = (KCommand, "Go") ->
  disabled_during mixed n (OpDispatch quietly 20 m opts).
Proof.
  intros H Hn Hm. split; [exact H|]. intros _. exists hSrc. split; [by left|]. split; [by intros <-|]. rewrite Hm. by left.
Qed.
Ltac disabled :=
  let h := fresh "h" in let Hin := fresh in let Hh := fresh in intros h Hin Hh; unfold mixed in Hin; cbn [c_app] in Hin;
  repeat (apply elem_of_cons in Hin as [->|Hin]); try (by apply elem_of_nil in Hin); try discriminate Hh; done.
Example C102_example :
  history mixed [] before_ops (ops_st mixed [] before_ops) (ops_evs mixed [] before_ops) true /\
  Forall (op_ok mixed) after_ops /\ Forall (disabled_during mixed "flow") after_ops /\ Forall (disabled_during mixed "off") after_ops.
Proof.
  split; [|split; [|split]].
  - pose proof (ops_history mixed [] before_ops mixed_ok) as H.
    replace (run_ops mixed before_ops (e_init mixed [])).2 with true in H by (symmetry; vm_compute; reflexivity).
    apply H. apply Forall_singleton. apply go_with_ok.
  - repeat apply Forall_cons_2; [apply go_with_ok|apply wait_with_ok|done|apply go_with_ok|constructor].
  - repeat apply Forall_cons_2; [apply mixed_disabled; [disabled|done|done]|disabled|done|apply mixed_disabled; [disabled|done|done]|constructor].
  - repeat apply Forall_cons_2; [apply mixed_disabled; [disabled|done|done]|disabled|done|apply mixed_disabled; [disabled|done|done]|constructor].
Qed.
(** There is something to remove, and something remains. *)
Example C102_example_facts :
  let evs := (run_ops mixed after_ops (ops_st mixed [] before_ops)).1.2 in
  let named n ev := match ev with
    | EvFact (HandlingSkipped h _ _) | EvFact (TickSkipped h _) | EvFact (HandlingBegun h _) | EvFact (TickBegun h) => bool_decide (hid_name h = n)
    | _ => false end in
  (length (List.filter (named "flow") evs), length (List.filter (named "flow") (evs_without "flow" evs)),
   length (List.filter (named "picky") evs), length (List.filter (named "picky") (evs_without "flow" evs)),
   length evs - length (evs_without "flow" evs))
  = (5, 0, 5, 5, 5).
Proof. vm_compute. reflexivity. Qed.

Print Assumptions C102_disabled_is_absent.
Print Assumptions C102_never_enabled_is_absent.
Print Assumptions C102_same_results.
Print Assumptions C102_without_other_consumer_refuted.
