(** * Vocabulary for names and other texts of the user in captions, reports and errors. *)
From Verif Require Export InflectSpec LogModel.

(** [u] has no placeholders and none of the ungrammatical phrases in it. *)
Definition untouched (k : Kind) (u : text) : Prop :=
  (forall p w, (p, w) ∈ both_cases (vocabulary k) -> ~ contains p u) /\
  (forall p w, (p, w) ∈ both_cases grammar -> ~ contains_phrase p u).

(** [w] is the last word of [u]. *)
Definition last_word (w : string) (u : text) : Prop :=
  exists x, u = x ++ txt w /\ outside_word (last x).

(** "execute", "record", "schedule". *)
Definition verb_text (k : Kind) : text := txt (verb k +:+ verb_e k).
Definition noun_text (k : Kind) : text := txt (noun k).

(** Texts are inflected by internal/inflect. *)
Definition inflecting `{Params} (T : Texts) : Prop := fm_inflect (tx_fmt T) = inflect.
