(** * The functions that build actions and expectations (C88). *)
From Verif Require Import FrontSpec FrontProof Demo.
From Coq Require Import Lia.

(** Building an expectation panics exactly if the arguments of some call are wrong; the panic
    is about the first such call, and its text has the name of the function and the reason. *)
Theorem C88_expectation_panics : forall {P : Params} F e,
  (forall v, eval F e = inr v -> exists x f, first_fault e x /\ fault x f /\ tells v f) /\
  (forall x f, within e x -> fault x f -> exists v, eval F e = inr v).
Proof. intros P F e. split; [apply eval_panics|apply eval_faults]. Qed.
Print Assumptions C88_expectation_panics.

(** Otherwise the expectation is what was written. *)
Theorem C88_expectation_means : forall {P : Params} F e b,
  eval F e = inl b ->
  match b with
  | BNil => denotes_nil e
  | BBroken _ => lacking e
  | BExp x _ => ~ denotes_nil e /\ ~ lacking e /\ forall s fs, met s fs x <-> means s fs e
  end.
Proof. intros P F e b. apply eval_means. Qed.
Print Assumptions C88_expectation_means.

(** Not(e) and NoneOf(e) are interchangeable, and so are e, AllOf(e) and AnyOf(e). *)
Theorem C88_single : forall {P : Params} F e,
  eval F (EComp CAll [e]) = eval F e /\ eval F (EComp CAny [e]) = eval F e /\
  match eval F (ENot e), eval F (EComp CNone [e]) with
  | inl b, inl b' => caption_of b = caption_of b' /\ exists s, caption_of b = inl (txt "not " ++ s) /\
      exists b0, eval F e = inl b0 /\ caption_of b0 = inl s
  | inr v, inr v' => v = v'
  | _, _ => False
  end.
Proof. intros P F e. apply eval_single. Qed.
Print Assumptions C88_single.

(** Building an action panics exactly if an argument is wrong, with the reason; the text
    begins with the name of the function except for one case. *)
Theorem C88_action_panics : forall {P : Params} F a,
  (forall v, eval_action F a = inr v ->
     exists fn why, action_fault a (fn, why) /\ exists s, v = CSays s /\
       ((forall b er, a <> EDispatch true (Some b) \/ b_invalid b <> Some er) -> complains s fn why) /\
       exists fn', complains s fn' why) /\
  (forall f, action_fault a f -> exists v, eval_action F a = inr v).
Proof. intros P F a. split; [intros v; apply action_panics|intros f; apply action_faults]. Qed.
Print Assumptions C88_action_panics.

Theorem C88_action_does : forall {P : Params} F a x s, eval_action F a = inl (x, s) -> does a x.
Proof. intros P F a x s. apply action_does. Qed.
Print Assumptions C88_action_does.

Definition bad_body : Body := mkBody "Open" 4 (Some "bad"%string).
(** The exception: the panic of ExecuteCommand() for an invalid command names another
    function, whatever the names of types are. *)
Theorem C88_names_function_refuted : exists (P : Params) a why, action_fault a ("ExecuteCommand"%string, why) /\
  forall F, exists s, eval_action F a = inr (CSays s) /\ complains s "ToRecordEvent" why /\ ~ complains s "ExecuteCommand" why.
Proof.
  exists DemoP, (EDispatch true (Some bad_body)), "bad"%string. split; [by constructor|].
  intros F. eexists. split; [reflexivity|]. split; [by eexists|]. intros [xs Hx]. discriminate Hx.
Qed.
Print Assumptions C88_names_function_refuted.

(** A nil expectation is not always rejected where it is written: AllOf() returns it, and
    AnyOf() with another expectation keeps it. *)
Theorem C88_nil_rejected_refuted : exists (P : Params) e e', forall F,
  within e ENil /\ eval F e = inl BNil /\ within e' ENil /\ exists s, eval F e' = inl (BBroken s).
Proof.
  exists DemoP, (EComp CAll [ENil]), (EComp CAny [ENil; EType true "Open"]). intros F.
  split; [eapply wi_arg; [left|apply wi_here]|]. split; [done|]. split; [eapply wi_arg; [left|apply wi_here]|]. by eexists.
Qed.
Print Assumptions C88_nil_rejected_refuted.

(** ** Examples *)
Definition plain_fmt : Fmt := mkFmt (fun t => txt t.2) (fun s => txt """" ++ s ++ txt """") (fun _ => txt "-1ns") (fun _ => txt "now") (fun _ s => s).
(** Two calls are wrong; the panic is about the first. *)
Definition wrong : EExp :=
  EComp CAll [EType true "Open"; EComp CNone [EMessage false (Some (body "Opened" 4))];
              ENot (ERepeat (txt "open") 0 (Some (fun _ => None))); EMessage true None].
Example C88_panics_example : eval plain_fmt wrong = inr (CSays (txt "ToRepeatedly(""open"", 0, <func>): n must be 1 or greater")) /\
  first_fault wrong (ERepeat (txt "open") 0 (Some (fun _ => None))).
Proof.
  split; [vm_compute; reflexivity|].
  eapply (ff_arg _ [_; _] _ [_]); [reflexivity| |].
  - assert (Hl : forall e, args e = [] -> (forall f, ~ fault e f) -> faultless e).
    { intros e Ha Hf. apply args_faultless; [done|]. rewrite Ha. intros a Hx. inversion Hx. }
    repeat constructor; [apply Hl; [done|by inversion 1]|]. apply args_faultless.
    + intros f Hf. inversion Hf; subst. match goal with H : denotes_nil _ |- _ => inversion H end.
    + intros a Ha. apply elem_of_list_singleton in Ha as ->. apply Hl; [done|]. by inversion 1.
  - eapply (ff_arg _ [] _ []); [reflexivity|constructor|]. eapply ff_here; [|by constructor]. intros a Ha. inversion Ha.
Qed.
(** The caption and the value of a correct expression. *)
Definition right : EExp := EComp CAny [EComp CNone [EMessage false (Some (body "Opened" 4))]; ENot (EType true "Open")].
Example C88_means_example :
  eval plain_fmt right = inl (BExp (XComp CAny [XComp CNone [XMessage (event "Opened" 4)]; XNot (XType (KCommand, "Open"%string))]) (txt "to meet at least one of 2 expectations")) /\
  (exists b, eval plain_fmt (ENot (EType true "Open")) = inl b /\ caption_of b = inl (txt "not to <produce> a <message> of type Open")).
Proof. split; [vm_compute; reflexivity|]. eexists. split; vm_compute; reflexivity. Qed.
Example C88_action_example :
  eval_action plain_fmt (EAdvance (Some (JBy (-1)))) = inr (CSays (txt "ByDuration(-1ns): duration must not be negative")) /\
  eval_action plain_fmt (EDispatch true (Some bad_body)) = inr (CSays (txt "ToRecordEvent(Open): bad")) /\
  eval_action plain_fmt (EDispatch false (Some (body "Opened" 4))) = inl (ActDispatch (event "Opened" 4), txt "<producing> Opened <message>") /\
  eval_action plain_fmt (ECall (Some TRet) [None]) = inr (CSays (txt "InterceptCommandExecutor(<nil>): function must not be nil")).
Proof. vm_compute. done. Qed.
