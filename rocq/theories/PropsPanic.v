(** * Properties of panics. *)
From Verif Require Import PanicSpec EngineSpec EngineLemmas PanicProof Demo.

Section Props.
Context {P : Params}.

(** C44.  The panic of any operation of any history is accounted for.  Either the call
    was rejected before anything happened; or it is the panic of the handling that was
    begun last, and comes from a method of that handler (dogma.UnexpectedMessage being
    replaced by the handler, interface, method and message of the innermost call) or from a
    misuse by that handler; or it is the panic of Compact() during a Tick. *)
Theorem C44_panics c st op st' fs v :
  reachable c st -> op_ok c op -> run_op c op st = (st', EvFact <$> fs, Pan v) -> OpPanics c op fs v.
Proof. exact (C44_panics_lemma c st op st' fs v). Qed.

(** No panic is lost: if a method that always panics is called, the operation panics,
    with exactly the value that C44 requires. *)
Theorem C44_propagates c st op st' fs r h f v :
  reachable c st -> op_ok c op -> run_op c op st = (st', EvFact <$> fs, r) ->
  h ∈ c_app c -> f ∈ fs -> MustPanic c h f v -> r = Pan v.
Proof. exact (C44_propagates_lemma c st op st' fs r h f v). Qed.

(** dogma.UnexpectedMessage itself leaves the engine only if a method panics with it that
    is not given a message. *)
Theorem C44_never_raw c st op st' evs v :
  no_raw_without_message c -> op_ok c op -> run_op c op st = (st', evs, Pan v) -> v <> PRaw.
Proof. exact (C44_lemma c st op st' evs v). Qed.

(** C74.  In no history does an operation panic with a nil dereference or with "does not
    handle", unless a handler panics with that very value. *)
Theorem C74_unreachable c st op st' fs v :
  reachable c st -> op_ok c op -> (forall h, h ∈ c_app c -> civil h) ->
  run_op c op st = (st', EvFact <$> fs, Pan v) -> ~ internal v.
Proof. exact (C74_lemma c st op st' fs v). Qed.
End Props.

(** ** A concrete case

    The integration does not know "Notify 4" and panics with dogma.UnexpectedMessage. *)
Definition picky : IntImpl := {| in_handle m := ILog "?" (IPanic PRaw) |}.
Definition hPicky := mkHandler "int" (ImplInt picky) [(KCommand, "Notify")] [(KEvent, "Notified")] false.
Definition panicky : Config := mkConfig [hAgg; hProc; hPicky; hProj] false [].
Lemma panicky_ok : app_ok panicky.
Proof. solve_app_ok. Qed.
Lemma panicky_reachable : reachable panicky (e_init panicky []).
Proof. exists [], [], []. split; [exact panicky_ok|]. split; [constructor|reflexivity]. Qed.
Definition panicky_run := run_op panicky (open_at 100 4) (e_init panicky []).
Definition panicky_facts : list Fact := omap (fun e => match e with EvFact f => Some f | _ => None end) panicky_run.1.2.

Example C44_case :
  panicky_run.2 = Pan (PUnexpMsg (mkHId "int" HTIntegration) "IntegrationMessageHandler" "HandleCommand" (command "Notify" 4)) /\
  panicky_run.1.2 = EvFact <$> panicky_facts /\
  exists env, HandlingBegun (h_id hPicky) env ∈ panicky_facts /\
    MustPanic panicky hPicky (HandlingBegun (h_id hPicky) env) (PUnexpMsg (mkHId "int" HTIntegration) "IntegrationMessageHandler" "HandleCommand" (command "Notify" 4)).
Proof.
  split; [vm_compute; reflexivity|]. split; [vm_compute; reflexivity|].
  eexists. split.
  - eapply elem_of_list_lookup_2 with (i := 20). vm_compute. reflexivity.
  - match goal with |- MustPanic _ _ (HandlingBegun _ ?e) _ => apply (mp_int panicky hPicky picky e PRaw) end; [reflexivity|].
    repeat constructor.
Qed.

(** Nobody in the demo application panics with an internal value. *)
Example C74_case : (forall h, h ∈ c_app panicky -> civil h).
Proof.
  intros h Hin. cbn in Hin.
  repeat (apply elem_of_cons in Hin as [->|Hin]); [| | | |apply elem_of_nil in Hin; done]; unfold civil; cbn.
  - split; [discriminate|]. split; [discriminate|]. intros id m w H.
    inversion H as [| | |b k v w0 Hs Hk| |]; subst. destruct v as [x|].
    + inversion Hk; subst. apply Hs. reflexivity.
    + destruct (decide _); [inversion Hk as [| | | |k w1 Hk'|]; subst; inversion Hk'|].
      inversion Hk as [| |f0 k r w1 Hk'| | |]; subst. inversion Hk'.
  - split; [discriminate|]. split; intros id t m w H.
    + inversion H as [| |f k r w0 Hk| | | |]; subst. inversion Hk as [| | |b k0 v0 w1 _ Hk1| | |]; subst.
      inversion Hk1 as [| | | |b1 t1 k1 v1 w2 _ Hk2| |]; subst. inversion Hk2.
    + inversion H as [| | |b k0 v0 w1 _ Hk1| | |]; subst. inversion Hk1 as [| | | | |k w2 Hk2|]; subst. inversion Hk2.
  - intros m w H. inversion H as [| | |s k w0 Hk]; subst. inversion Hk; subst. intros [Hx|[[? Hx]|(? & Hx & _)]]; discriminate Hx.
  - split; [discriminate|]. split; [discriminate|]. split.
    + intros id cur nxt t m w H. inversion H as [|f k u w0 Hk|]; subst. inversion Hk as [| |s k0 w1 Hk1]; subst. inversion Hk1.
    + intros now w H. inversion H as [| |s k0 w1 Hk1]; subst. inversion Hk1.
Qed.

Print Assumptions C44_panics.
Print Assumptions C44_propagates.
Print Assumptions C44_never_raw.
Print Assumptions C74_unreachable.
