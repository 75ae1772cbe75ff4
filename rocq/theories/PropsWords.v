(** * C48, C61, C62, C64, C69: the words and numbers used in statements about texts *)
From Verif Require Import NumSpec NumProof ExpectSpec.

(** C69, C61.  Numbers are shown in decimal notation. *)
Theorem C69_decimal z :
  ((0 <= z)%Z -> numeral (decimal z) (Z.to_N z)) /\
  ((z < 0)%Z -> exists s, decimal z = txt "-" ++ s /\ numeral s (Z.to_N (- z))).
Proof. exact (decimal_lemma z). Qed.
Print Assumptions C69_decimal.

Theorem C61_numbers n : numeral (num n) (N.of_nat n).
Proof. exact (num_lemma n). Qed.
Print Assumptions C61_numbers.

(** A number has only one numeral. *)
Theorem C69_numeral_unique s s' n : numeral s n -> numeral s' n -> s = s'.
Proof. exact (numeral_unique s s' n). Qed.
Print Assumptions C69_numeral_unique.

(** C62.  The relevant types of handlers: aggregates and integrations for events, processes
    for commands and timeouts. *)
Theorem C62_relevant ht k :
  is_producer_of ht k = true <-> match k with KEvent => ht = HTAggregate \/ ht = HTIntegration | _ => ht = HTProcess end.
Proof. destruct ht, k; cbn; naive_solver. Qed.
Print Assumptions C62_relevant.

Theorem C62_type_words :
  map htype_text [HTAggregate; HTProcess; HTIntegration; HTProjection] =
  map txt ["aggregate"; "process"; "integration"; "projection"]%string.
Proof. reflexivity. Qed.
Print Assumptions C62_type_words.

(** C64.  An entry in the list of failed matches. *)
Theorem C64_entry {P : Params} (T : RepTexts) t er n :
  failure_item T (mkFailure t er n) =
  txt "• " ++ rt_type T t ++ txt ": " ++ txt er ++
  (if decide (2 <= n) then txt " (repeated " ++ num n ++ txt " times)" else []) ++ txt "
".
Proof.
  unfold failure_item, item. cbn [fl_type fl_error fl_count].
  case_decide as H; [rewrite (proj2 (Nat.ltb_lt 1 n)) by lia|rewrite (proj2 (Nat.ltb_ge 1 n)) by lia];
    rewrite <- ?app_assoc; reflexivity.
Qed.
Print Assumptions C64_entry.

(** C48.  Which messages the function of a matching expectation is called with: those of its
    parameter's type, or those that implement it; what is said of others. *)
Theorem C48_parameter :
  (forall t t', tp_assignable (TConcrete t) t' = true <-> t' = t) /\
  (forall k n impl t', tp_assignable (TInterface k n impl) t' = impl t') /\
  (forall t, tp_kind (TConcrete t) = t.1) /\ (forall k n impl, tp_kind (TInterface k n impl) = k) /\
  (forall t, expected_error (TConcrete t) = "predicate function expected " +:+ t.2)%string /\
  (forall k n impl, expected_error (TInterface k n impl) = "predicate function expected " +:+ n)%string.
Proof.
  split_and!; try done. intros t t'. cbn. by rewrite bool_decide_eq_true.
Qed.
Print Assumptions C48_parameter.

Example C69_decimal_example : decimal 1024 = txt "1024" /\ numeral (txt "1024") 1024 /\ ~ numeral (txt "01024") 1024.
Proof.
  assert (H : decimal 1024 = txt "1024") by (vm_compute; reflexivity). split; [exact H|].
  pose proof (proj1 (C69_decimal 1024) ltac:(lia)) as Hn. rewrite H in Hn. change (Z.to_N 1024) with 1024%N in Hn.
  split; [exact Hn|]. intros Hn'. pose proof (C69_numeral_unique _ _ _ Hn Hn') as He. vm_compute in He. discriminate.
Qed.
