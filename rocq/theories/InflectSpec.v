(** * Vocabulary for inflection. *)
From Verif Require Export InflectModel.

(** The words a user expects for the placeholders, for each kind of message, written
    down independently of the tables of the model. *)
Definition words (l : list (string * string)) : table := map (fun pw => (txt pw.1, txt pw.2)) l.
Definition noun (k : Kind) : string := match k with KCommand => "command" | KEvent => "event" | KTimeout => "timeout" end.
Definition verb (k : Kind) : string := match k with KCommand => "execut" | KEvent => "record" | KTimeout => "schedul" end.
Definition verb_e (k : Kind) : string := match k with KEvent => "" | _ => "e" end.
Definition vocabulary (k : Kind) : table :=
  words ([("<message>", noun k); ("<messages>", noun k +:+ "s"); ("<produce>", verb k +:+ verb_e k);
          ("<produced>", verb k +:+ "ed"); ("<producing>", verb k +:+ "ing")] ++
         match k with
         | KCommand => [("<dispatcher>", "dogma.CommandExecutor")]
         | KEvent => [("<dispatcher>", "dogma.EventRecorder")]
         | KTimeout => []
         end).
(** The right article for each noun, and the singular after the number one. *)
Definition article (k : Kind) : string := match k with KEvent => "an" | _ => "a" end.
Definition wrong_article (k : Kind) : string := match k with KEvent => "a" | _ => "an" end.
Definition grammar : table :=
  words (map (fun k => (wrong_article k +:+ " " +:+ noun k, article k +:+ " " +:+ noun k)) [KCommand; KEvent; KTimeout] ++
         map (fun k => ("1 " +:+ noun k +:+ "s", "1 " +:+ noun k)) [KCommand; KEvent; KTimeout]).

(** Entries in both cases. *)
Definition both_cases (t : table) : table := t ++ map (fun kv => (upper kv.1, upper kv.2)) t.

(** The text [k] is part of [s]. *)
Definition contains (k s : text) : Prop := exists a b, s = a ++ k ++ b.
(** The characters words are made of; a character, or the end of the text, that is not
    part of a word. *)
Definition word_characters : text :=
  txt "0123456789_ABCDEFGHIJKLMNOPQRSTUVWXYZabcdefghijklmnopqrstuvwxyz".
Definition outside_word (c : option ascii) : Prop :=
  match c with Some c => c ∉ word_characters | None => True end.
(** The phrase [k] is part of [s], as whole words. *)
Definition contains_phrase (k s : text) : Prop :=
  exists a b, s = a ++ k ++ b /\ outside_word (last a) /\ outside_word (head b).

(** [t] is [s] with all placeholders of the table replaced at once. *)
Inductive substituted (T : table) : text -> text -> Prop :=
| su_nil : substituted T [] []
| su_key k v s t : (k, v) ∈ T -> substituted T s t -> substituted T (k ++ s) (v ++ t)
| su_char c s t : (forall kv, kv ∈ T -> ~ exists s', c :: s = kv.1 ++ s') -> substituted T s t ->
    substituted T (c :: s) (c :: t).

(** [t] is [s] with all phrases of the table replaced at once; [prev] is the
    character before [s]. *)
Definition phrase_here (prev : option ascii) (k s s' : text) : Prop :=
  s = k ++ s' /\ outside_word prev /\ outside_word (head s').
Inductive corrected (T : table) : option ascii -> text -> text -> Prop :=
| co_nil prev : corrected T prev [] []
| co_key prev k v s s' t : (k, v) ∈ T -> phrase_here prev k s s' -> corrected T (last k) s' t ->
    corrected T prev s (v ++ t)
| co_char prev c s t : (forall kv, kv ∈ T -> ~ exists s', phrase_here prev kv.1 (c :: s) s') ->
    corrected T (Some c) s t -> corrected T prev (c :: s) (c :: t).
