(** * Vocabulary for fact.Buffer. *)
From Verif Require Export BufferModel.

Section BufferSpec.
Context {F : Type}.
Notation OpId := (nat * nat)%type.

(** The sequential log that the buffer is supposed to be: each call takes effect at
    one moment between its beginning and its end; at that moment Notify adds its fact
    to the end of the log, and Facts gets a copy of the log. *)
Inductive Status := Waiting (c : BCall F) | Done (r : BRet F).
Inductive LEvent := Seen (e : BEvent F) | Effect (o : OpId).

Inductive Log : list LEvent -> list F -> gmap OpId Status -> Prop :=
| lg_nil : Log [] [] ∅
| lg_call es log m o c : Log es log m -> (forall c', Seen (ECall o c') ∉ es) ->
    Log (es ++ [Seen (ECall o c)]) log (<[o := Waiting c]> m)
| lg_notify es log m o f : Log es log m -> m !! o = Some (Waiting (CNotify f)) ->
    Log (es ++ [Effect o]) (log ++ [f]) (<[o := Done RNotify]> m)
| lg_facts es log m o : Log es log m -> m !! o = Some (Waiting CFacts) ->
    Log (es ++ [Effect o]) log (<[o := Done (RFacts (Some <$> log))]> m)
| lg_ret es log m o r : Log es log m -> m !! o = Some (Done r) ->
    Log (es ++ [Seen (ERet o r)]) log (delete o m).

Definition seen (es : list LEvent) : list (BEvent F) :=
  omap (fun e => match e with Seen e => Some e | Effect _ => None end) es.
(** What the callers see can be explained by such a log. *)
Definition linearizable (tr : list (BEvent F)) (log : list F) : Prop :=
  exists es m, Log es log m /\ seen es = tr.

(** All calls have ended. *)
Definition at_rest (y : BSys F) : Prop :=
  Forall (fun th => bt_pc th = None /\ bt_rest th = []) (bs_threads y).
(** The facts passed to Notify. *)
Definition notified (tr : list (BEvent F)) : list F :=
  omap (fun e => match e with ECall _ (CNotify f) => Some f | _ => None end) tr.
End BufferSpec.
