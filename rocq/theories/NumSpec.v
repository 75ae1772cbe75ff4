(** * Vocabulary for numbers and words in texts. *)
From Verif Require Export InflectModel.

(** The number a sequence of digits stands for, read from the left. *)
Definition digit_value (c : ascii) : N := N.of_nat (nat_of_ascii c) - 48.
Definition number_value (s : text) : N := fold_left (fun n c => (10 * n + digit_value c)%N) s 0%N.
(** [s] is [n] in decimal notation, without superfluous zeros. *)
Definition numeral (s : text) (n : N) : Prop :=
  s <> [] /\ Forall (fun c => c ∈ txt "0123456789") s /\ number_value s = n /\ (head s = Some "0"%char -> s = txt "0").
