(** * Vocabulary for the first lines of reports. *)
From Verif Require Export ExpectSpec.

(** [counted Q l n]: [n] of the elements of [l] have the property [Q]. *)
Inductive counted {A} (Q : A -> Prop) : list A -> nat -> Prop :=
| cd_nil : counted Q [] 0
| cd_yes x l n : Q x -> counted Q l n -> counted Q (x :: l) (S n)
| cd_no x l n : ~ Q x -> counted Q l n -> counted Q (x :: l) n.
