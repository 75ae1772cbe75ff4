(** * C98: writing to any writer *)
From Verif Require Import WriterSpec WriterProof.

(** Report.WriteTo, with the text that C72 is about. *)
Theorem C98_report k r : is_writer k -> writes k (report_write_to k r) (write_to r).
Proof.
  intros Hk. apply puts_writes; [by apply report_puts|]. intros st st' n e H. destruct r. by apply recovering_zero in H.
Qed.
Print Assumptions C98_report.

(** logging.Write, with the text that C66 is about. *)
Theorem C98_line k ids icons ts : is_writer k -> writes k (line_write k ids icons ts) (line_string ids icons ts).
Proof.
  intros Hk. apply puts_writes; [by apply line_puts|]. intros st st' n e H. by apply recovering_zero in H.
Qed.
Print Assumptions C98_line.

(** With a writer that never fails, such as a strings.Builder, everything is written. *)
Theorem C98_complete k r : is_writer k -> (forall calls s, (k calls s).2 = None) ->
  exists calls, report_write_to k r [] [] = (calls, (length (write_to r), None)) /\ received calls = write_to r.
Proof.
  intros Hk Hn. assert (H := C98_report k r Hk). unfold writes in H.
  destruct (report_write_to k r [] []) as [calls [n [e|]]].
  - destruct H as [(l & s & m & _ & _ & H) _]. specialize (Hn l s). by rewrite H in Hn.
  - destruct H as (_ & H1 & ->). by exists calls.
Qed.
Print Assumptions C98_complete.

(** ** Concrete cases *)

(** A writer that has room for [room] bytes. *)
Definition limited (room : nat) : Sink := fun calls s =>
  let left := room - length (received calls) in
  if length s <=? left then (length s, None) else (left, Some "no space left").
Lemma limited_writer room : is_writer (limited room).
Proof.
  intros calls s n e. unfold limited. destruct (length s <=? _) eqn:E; intros [= <- <-]; [done|].
  apply Nat.leb_gt in E. split; [lia|done].
Qed.

Definition child : Report := mkRep false false (txt "record any event") [] (txt "nothing happened")
  [(txt "Suggestions", txt "• check" ++ [nl] ++ txt "• look" ++ [nl]); (txt "Empty", [])] [].
Definition parent : Report := mkRep false false (txt "all of") (txt "1 of the expectations failed") [] []
  [mkRep false true (txt "execute any command") [] [] [] []; child].
Definition whole : text := write_to parent.
(** Whatever room there is, exactly so many bytes are written, and the error is returned if there
    is not enough. *)
Definition filled (room : nat) : bool :=
  let '(calls, (n, e)) := report_write_to (limited room) parent [] [] in
  bool_decide (received calls = take room whole) &&
  (if length whole <=? room then bool_decide (e = None) && (n =? length whole) else bool_decide (e = Some "no space left") && (n =? 0)).
Example C98_example : length whole = 221 /\ forallb filled (seq 0 (length whole + 3)) = true.
Proof. split; vm_compute; reflexivity. Qed.
(** The number that is returned with an error is not the number of bytes written, as the
    documentation of io.WriterTo has it. *)
Example C98_count_after_error :
  let '(calls, (n, e)) := report_write_to (limited 30) parent [] [] in
  length (received calls) = 30 /\ n = 0 /\ e = Some "no space left".
Proof. vm_compute. done. Qed.
Example C98_example_line :
  let '(calls, (n, e)) := line_write (limited 9) [(txt "=", txt "10")] [[]; txt "!"] [txt "a"; []; txt "b"] [] [] in
  received calls = txt "= 10    !" /\ n = 0 /\ e = Some "no space left".
Proof. vm_compute. done. Qed.
