(** * C93: panics name the handler, the method and the message. *)
From Verif Require Import PanicTextSpec PanicTextProof Demo.

Section Props.
Context {P : Params}.

(** C93.  The panic of any operation of any history, printed: either the call was rejected
    before anything happened, for a reason that the text states; or the text names the handler
    whose handling was begun last, the type that implements it (or its root), the method,
    and the message that was not expected or what the handler did wrong; or the value is the user's. *)
Theorem C93_panics_are_explained T c st op st' fs v :
  reachable c st -> op_ok c op -> (forall h, h ∈ c_app c -> own_panics h) ->
  run_op c op st = (st', EvFact <$> fs, Pan v) -> Explained T c op fs v (panic_text T v).
Proof. exact (C93_lemma T c st op st' fs v). Qed.
End Props.
Print Assumptions C93_panics_are_explained.

(** ** A concrete case

    An integration that panics with dogma.UnexpectedMessage for "Notify 4", and otherwise
    records an event that it does not declare, recovers the panic and panics again with it. *)
Definition careless : IntImpl := {| in_handle m :=
  if decide (b_data (m_body m) = 4) then ILog "?" (IPanic PRaw)
  else IRecord (mkBody "Lost" 0 None) (fun v => match v with Some v => IPanic v | None => IRet None end) |}.
Definition hCareless := mkHandler "int" (ImplInt careless) [(KCommand, "Notify")] [(KEvent, "Notified")] false.
Definition carelessly : Config := mkConfig [hCareless] false [].
Lemma carelessly_ok : app_ok carelessly.
Proof. solve_app_ok. Qed.
Lemma carelessly_reachable : reachable carelessly (e_init carelessly []).
Proof. exists [], [], []. split; [exact carelessly_ok|]. split; [constructor|reflexivity]. Qed.
Lemma careless_own h : h ∈ c_app carelessly -> own_panics h.
Proof.
  intros Hin. apply elem_of_list_singleton in Hin as ->. intros Q Hu Hr. cbn. intros m w.
  destruct (decide _); intros H; inversion H; subst.
  - match goal with X : IRaises _ (IPanic _) _ |- _ => inversion X; subst end. exact Hr.
  - destruct v as [v|]; match goal with X : IRaises _ _ _ |- _ => inversion X; subst end. eauto.
Qed.
Definition demo_texts : PanicTexts := {|
  pt_impl h i := txt "*main." ++ txt (hid_name h); pt_type t := txt "main." ++ txt t.2; pt_other _ := txt "?" |}.
Definition notify_at (t : Z) (d : nat) : Op := OpDispatch quietly 20 (command "Notify" d) [OptNow t].
Definition says (op : Op) : option text :=
  match (run_op carelessly op (e_init carelessly [])).2 with Pan v => Some (panic_text demo_texts v) | _ => None end.
Example C93_case :
  says (notify_at 1 4) = Some (txt "the 'int' integration message handler did not expect *main.int.HandleCommand() to be called with a message of type main.Notify") /\
  says (notify_at 1 5) = Some (txt "the 'int' integration message handler behaved unexpectedly in *main.int.HandleCommand(): recorded an event of type main.Lost, which is not produced by this handler") /\
  says (open_at 1 5) = Some (txt "the main.Open message type is not consumed by any handlers").
Proof. vm_compute. auto. Qed.
