(** * Vocabulary for writers *)
From Verif Require Export WriterModel.

(** The contract of io.Writer: not more than what is given is written, and if it is less
    there is an error. *)
Definition is_writer (k : Sink) : Prop :=
  forall calls s n e, k calls s = (n, e) -> n <= length s /\ (e = None -> n = length s).

(** What a writer has been given, and what was written of it. *)
Definition received (calls : Calls) : text := concat (map (fun x => take x.2 x.1) calls).
(** No call failed. *)
Definition all_well (k : Sink) (calls : Calls) : Prop :=
  forall l1 s n l2, calls = l1 ++ (s, n) :: l2 -> k l1 s = (n, None).
(** The last call failed with [e], and it is the only one that did: nothing is written after
    a failure. *)
Definition failed_with (k : Sink) (calls : Calls) (e : string) : Prop :=
  exists l s n, calls = l ++ [(s, n)] /\ all_well k l /\ k l s = (n, Some e).

(** [writes k f t]: given a new writer, [f] writes the text [t] and returns its length; or the
    writer fails at some point, when a prefix of [t] has been written, and [f] returns the
    error of the writer and zero. *)
Definition writes (k : Sink) (f : WriterTo) (t : text) : Prop :=
  match f [] [] with
  | (calls, (n, None)) => all_well k calls /\ received calls = t /\ n = length t
  | (calls, (n, Some e)) => failed_with k calls e /\ received calls `prefix_of` t /\ n = 0
  end.
