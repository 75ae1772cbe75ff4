(** * C95: the facts are a transcript of what the handlers do. *)
From Verif Require Import StorySpec StoryProof PropsPanic Demo.

Section Props.
Context {P : Params}.

(** C95.  In any state that an engine can be in, the facts of a call of Dispatch or Tick
    that is not rejected tell, in order, what the handlers did: each handling tells exactly
    the calls that the handler's method makes on its scope, where the method is the one for
    the message, is given that message, the instance, the root told in the facts and the
    times of the message, and runs in the world that the handler before it left.  Each call
    is answered by success exactly if the handler declares the message and the message is
    valid.  The outcome told (or the panic that ends the operation) is that of the method. *)
Theorem C95_story c st op st' fs r :
  reachable c st -> op_ok c op -> run_op c op st = (st', EvFact <$> fs, r) ->
  match op with
  | OpDispatch _ _ _ _ | OpTick _ _ _ _ =>
    (fs = [] /\ world st' = world st /\ exists v, r = Pan v /\ Rejected c op v) \/
    Story c (op_now op) (world st) fs (match r with Pan v => Some v | _ => None end) (world st')
  | _ => True
  end.
Proof. exact (C95_lemma c st op st' fs r). Qed.
End Props.
Print Assumptions C95_story.

(** ** A concrete case

    The command is handled by the aggregate, its events by the process, whose command is
    handled by an integration that logs and then panics: an operation of 22 facts. *)
Example C95_example :
  reachable panicky (e_init panicky []) /\ op_ok panicky (open_at 100 4) /\
  panicky_run = (panicky_run.1.1, EvFact <$> panicky_facts, panicky_run.2) /\
  length panicky_facts = 22 /\ (exists v, panicky_run.2 = Pan v) /\ panicky_facts <> [].
Proof.
  split; [exact panicky_reachable|]. split; [exact quietly_ok|].
  split; [vm_compute; reflexivity|]. split; [vm_compute; reflexivity|].
  split; [eexists; vm_compute; reflexivity|]. intros H. assert (Hl : length panicky_facts = 0) by (rewrite H; reflexivity).
  vm_compute in Hl. discriminate Hl.
Qed.

(** A transcript that leaves out the call of Log, or the panic, is not accepted. *)
Example C95_discriminates env u u' :
  (forall res, ~ Handled panicky 100 hPicky env u [] res u') /\
  (forall e, ~ Handled panicky 100 hPicky env u [MessageLoggedByIntegration (h_id hPicky) env "?"] (inl e) u') /\
  Handled panicky 100 hPicky env u [MessageLoggedByIntegration (h_id hPicky) env "?"]
    (inr (PUnexpMsg (h_id hPicky) "IntegrationMessageHandler" "HandleCommand" (e_msg env))) u.
Proof.
  split; [|split].
  - intros res H. inversion H; try discriminate.
    match goal with H : h_impl hPicky = ImplInt _ |- _ => injection H as <- end.
    match goal with H : IScript _ _ _ _ _ |- _ => inversion H; subst end.
    match goal with H : Tells _ _ _ _ _ |- _ => inversion H; subst end.
    match goal with H : ITells _ _ _ _ _ _ |- _ => inversion H; subst end. discriminate.
  - intros e H. inversion H; try discriminate.
    match goal with H : h_impl hPicky = ImplInt _ |- _ => injection H as <- end.
    match goal with H : IScript _ _ _ _ _ |- _ => inversion H; subst end.
    match goal with H : IScript _ (IPanic _) _ _ _ |- _ => inversion H; subst end. discriminate.
  - eapply hd_conv; [apply (hd_int panicky 100 hPicky env picky [(CLog "?", None)] (inr PRaw)); [reflexivity|repeat constructor|]|done].
    eapply tells_one; [apply it_log|constructor|done].
Qed.
