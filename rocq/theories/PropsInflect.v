(** * C67, C68: inflection *)
From Verif Require Import InflectSpec InflectLemmas.

(** C67.  The tables are Go maps: the order in which they are visited is arbitrary
    and may differ from call to call.  The result does not depend on it. *)
Theorem C67_order_does_not_matter k subs subs' cors cors' s :
  subs ≡ₚ substitutions k -> subs' ≡ₚ substitutions k -> cors ≡ₚ corrections -> cors' ≡ₚ corrections ->
  sprint subs cors s = sprint subs' cors' s.
Proof. exact (C67_lemma k subs subs' cors cors' s). Qed.
Print Assumptions C67_order_does_not_matter.

(** The tables of the program are the expected ones. *)
Lemma vocabulary_table k : vocabulary k = substitutions k.
Proof. by destruct k. Qed.
Lemma grammar_table : grammar = corrections.
Proof. done. Qed.

(** C68.  No placeholder of the table is left, in either case. *)
Theorem C68_no_placeholder_remains k subs cors s p w :
  subs ≡ₚ substitutions k -> cors ≡ₚ corrections -> (p, w) ∈ both_cases (vocabulary k) ->
  ~ contains p (sprint subs cors s).
Proof. rewrite ?vocabulary_table, ?grammar_table. exact (C68_placeholder_lemma k subs cors s p w). Qed.
Print Assumptions C68_no_placeholder_remains.

(** Neither is any of the ungrammatical phrases. *)
Theorem C68_no_bad_phrase_remains k subs cors s p w :
  subs ≡ₚ substitutions k -> cors ≡ₚ corrections -> (p, w) ∈ both_cases grammar ->
  ~ contains_phrase p (sprint subs cors s).
Proof. rewrite ?vocabulary_table, ?grammar_table. exact (C68_phrase_lemma k subs cors s p w). Qed.
Print Assumptions C68_no_bad_phrase_remains.

(** Text without placeholders and ungrammatical phrases is unchanged. *)
Theorem C68_other_text_is_unchanged k subs cors s :
  subs ≡ₚ substitutions k -> cors ≡ₚ corrections ->
  (forall p w, (p, w) ∈ both_cases (vocabulary k) -> ~ contains p s) ->
  (forall p w, (p, w) ∈ both_cases grammar -> ~ contains_phrase p s) ->
  sprint subs cors s = s.
Proof. rewrite ?vocabulary_table, ?grammar_table. exact (C68_unchanged_lemma k subs cors s). Qed.
Print Assumptions C68_other_text_is_unchanged.

(** The function is idempotent, whatever the orders of the two calls. *)
Theorem C68_idempotent k subs cors subs' cors' s :
  subs ≡ₚ substitutions k -> cors ≡ₚ corrections -> subs' ≡ₚ substitutions k -> cors' ≡ₚ corrections ->
  sprint subs' cors' (sprint subs cors s) = sprint subs cors s.
Proof. exact (C68_idempotent_lemma k subs cors subs' cors' s). Qed.
Print Assumptions C68_idempotent.

(** The result is the text with every placeholder replaced by its word and then every
    ungrammatical phrase by its correction. *)
Theorem C68_result k subs cors s :
  subs ≡ₚ substitutions k -> cors ≡ₚ corrections ->
  exists t, substituted (both_cases (vocabulary k)) s t /\ corrected (both_cases grammar) None t (sprint subs cors s).
Proof. rewrite ?vocabulary_table, ?grammar_table. exact (sprint_result k subs cors s). Qed.
Print Assumptions C68_result.

(** ** Examples *)
Definition example_text : text :=
  txt "<PRODUCED> an <message>, an <message>s or an <messages>; 1 <messages>, 21 <messages>, a <<produced>> x".
Example C67_example :
  sprint (substitutions KEvent) corrections example_text =
    txt "RECORDED an event, an events or an events; 1 event, 21 events, a <recorded> x" /\
  sprint (rev (substitutions KEvent)) (rev corrections) example_text =
    sprint (substitutions KEvent) corrections example_text /\
  sprint (substitutions KCommand) corrections example_text =
    txt "EXECUTED a command, an commands or an commands; 1 command, 21 commands, a <executed> x" /\
  sprint (substitutions KTimeout) corrections (txt "a <dispatcher> A EVENT") = txt "a <dispatcher> AN EVENT".
Proof. vm_compute. tauto. Qed.
(** The hypotheses of [C68_other_text_is_unchanged] are met. *)
Example C68_unchanged_example :
  sprint (substitutions KEvent) corrections (txt "an event, a events") = txt "an event, a events".
Proof. vm_compute. reflexivity. Qed.
