(** * Numbers in texts. *)
From Verif Require Import NumSpec LocationModel ExpectModel FrontModel.
From stdpp Require Import pretty.

Lemma value_app s c n :
  fold_left (fun n c => (10 * n + digit_value c)%N) (s ++ [c]) n =
  (10 * fold_left (fun n c => (10 * n + digit_value c)%N) s n + digit_value c)%N.
Proof. by rewrite fold_left_app. Qed.

Lemma char_spec x : (x < 10)%N ->
  pretty_N_char x ∈ txt "0123456789" /\ digit_value (pretty_N_char x) = x /\ (pretty_N_char x = "0"%char -> x = 0%N).
Proof.
  intros H.
  assert (x = 0 \/ x = 1 \/ x = 2 \/ x = 3 \/ x = 4 \/ x = 5 \/ x = 6 \/ x = 7 \/ x = 8 \/ x = 9)%N as Hx by lia.
  assert (Hm : forall c s, bool_decide (c ∈ s) = true -> c ∈ (s : text)) by (intros ?? Hb; by apply bool_decide_eq_true in Hb).
  destruct Hx as [->|[->|[->|[->|[->|[->|[->|[->|[->| ->]]]]]]]]];
    (split; [apply Hm; vm_compute; reflexivity|split; [vm_compute; reflexivity|vm_compute; congruence]]).
Qed.

Lemma go_spec x s :
  exists d, txt (pretty_N_go x s) = d ++ txt s /\ Forall (fun c => c ∈ txt "0123456789") d /\ number_value d = x /\
    (x = 0%N -> d = []) /\ ((0 < x)%N -> exists c d', d = c :: d' /\ c <> "0"%char).
Proof.
  revert s. induction (N.lt_wf_0 x) as [x _ IH]; intros s.
  assert (x = 0 ∨ 0 < x)%N as [->|Hx] by lia.
  - rewrite pretty_N_go_0. exists []. split_and!; [done | constructor | done | done | lia].
  - rewrite pretty_N_go_step by done.
    destruct (IH (x `div` 10)%N (N.div_lt x 10 Hx eq_refl) (String (pretty_N_char (x `mod` 10)) s)) as (d & Ht & Hd & Hv & H0 & Hp).
    destruct (char_spec (x `mod` 10)) as (Hc & Hcv & Hc0); [by apply N.mod_lt|].
    exists (d ++ [pretty_N_char (x `mod` 10)]). split_and!.
    + rewrite Ht, <- app_assoc. done.
    + apply Forall_app. split; [done|]. by constructor.
    + unfold number_value. rewrite value_app. unfold number_value in Hv. rewrite Hv, Hcv.
      symmetry. apply N.div_mod. done.
    + lia.
    + intros _. destruct (decide (x `div` 10 = 0)%N) as [Hz|Hz].
      * rewrite (H0 Hz). exists (pretty_N_char (x `mod` 10)), []. split; [done|]. intros He. apply Hc0 in He.
        pose proof (N.div_mod x 10 ltac:(done)) as Hdm. rewrite Hz, He in Hdm. lia.
      * destruct (Hp ltac:(lia)) as (c & d' & -> & Hne). exists c, (d' ++ [pretty_N_char (x `mod` 10)]). done.
Qed.

Lemma pretty_N_numeral n : numeral (txt (pretty n)) n.
Proof.
  unfold pretty, pretty_N. case_decide as Hn.
  - subst. split_and!; [done | | vm_compute; reflexivity | done].
    constructor; [|constructor]. apply (bool_decide_eq_true ("0"%char ∈ txt "0123456789")). vm_compute. reflexivity.
  - destruct (go_spec n "") as (d & Ht & Hd & Hv & _ & Hp). rewrite Ht. change (txt "") with (@nil ascii).
    rewrite app_nil_r. destruct (Hp ltac:(lia)) as (c & d' & -> & Hne). split_and!; [done | done | done |].
    intros [= ->]. done.
Qed.

Lemma decimal_lemma z :
  ((0 <= z)%Z -> numeral (decimal z) (Z.to_N z)) /\
  ((z < 0)%Z -> exists s, decimal z = txt "-" ++ s /\ numeral s (Z.to_N (- z))).
Proof.
  unfold decimal. destruct z as [|p|p].
  - split; [intros _ | lia]. change (txt (pretty 0%Z)) with (txt (pretty 0%N)). apply (pretty_N_numeral 0).
  - split; [intros _ | lia]. exact (pretty_N_numeral (Npos p)).
  - split; [lia | intros _]. exists (txt (pretty (Npos p))). split; [done|]. exact (pretty_N_numeral (Npos p)).
Qed.

Lemma num_lemma n : numeral (num n) (N.of_nat n).
Proof.
  unfold num. rewrite <- (nat_N_Z n). rewrite <- (N2Z.id (N.of_nat n)) at 2. apply decimal_lemma. lia.
Qed.

Lemma decimal_nat_lemma n : numeral (decimal_nat n) (N.of_nat n).
Proof. exact (pretty_N_numeral (N.of_nat n)). Qed.

(** A number has one numeral. *)
Lemma digit_value_inj c c' : c ∈ txt "0123456789" -> c' ∈ txt "0123456789" -> digit_value c = digit_value c' -> c = c'.
Proof.
  intros H H'. cbn in H, H'. repeat (apply elem_of_cons in H as [->|H]); [..|by apply elem_of_nil in H];
    (repeat (apply elem_of_cons in H' as [->|H']); [..|by apply elem_of_nil in H']); vm_compute; congruence.
Qed.
Lemma digit_value_lt c : c ∈ txt "0123456789" -> (digit_value c < 10)%N.
Proof.
  intros H. cbn in H. repeat (apply elem_of_cons in H as [->|H]); [..|by apply elem_of_nil in H]; vm_compute; done.
Qed.
Lemma value_pos s : s <> [] -> Forall (fun c => c ∈ txt "0123456789") s -> head s <> Some "0"%char -> (0 < number_value s)%N.
Proof.
  induction s as [|c s IH] using rev_ind; intros Hne Hd Hh; [done|]. unfold number_value. rewrite value_app.
  apply Forall_app in Hd as [Hd Hc]. destruct s as [|x s].
  - cbn. inversion Hc; subst. destruct (decide (digit_value c = digit_value "0")) as [He|He].
    + apply digit_value_inj in He; [|done|]. { subst. done. }
      apply (bool_decide_eq_true ("0"%char ∈ txt "0123456789")). vm_compute. reflexivity.
    + change (digit_value "0") with 0%N in He. lia.
  - assert (0 < number_value (x :: s))%N as Hv by (by apply IH). unfold number_value in Hv. lia.
Qed.
Lemma value_inj s s' :
  Forall (fun c => c ∈ txt "0123456789") s -> Forall (fun c => c ∈ txt "0123456789") s' ->
  head s <> Some "0"%char -> head s' <> Some "0"%char -> number_value s = number_value s' -> s = s'.
Proof.
  revert s'. induction s as [|c s IH] using rev_ind; intros s' Hd Hd' Hh Hh' Hv.
  - destruct s' as [|x s']; [done|]. pose proof (value_pos (x :: s') ltac:(done) Hd' Hh') as Hp. rewrite <- Hv in Hp. done.
  - destruct s' as [|c' s' _] using rev_ind.
    + pose proof (value_pos (s ++ [c]) ltac:(by destruct s) Hd Hh) as Hp. rewrite Hv in Hp. done.
    + apply Forall_app in Hd as [Hd Hc], Hd' as [Hd' Hc']. inversion Hc; inversion Hc'; subst.
      unfold number_value in Hv. rewrite !value_app in Hv.
      pose proof (digit_value_lt c ltac:(done)). pose proof (digit_value_lt c' ltac:(done)).
      rewrite (IH s'); [| done | done | by destruct s | by destruct s' | unfold number_value; lia].
      rewrite (digit_value_inj c c'); [done | done | done |]. lia.
Qed.
Lemma numeral_unique s s' n : numeral s n -> numeral s' n -> s = s'.
Proof.
  intros (Hn & Hd & Hv & Hz) (Hn' & Hd' & Hv' & Hz').
  destruct (decide (head s = Some "0"%char)) as [H0|H0].
  - specialize (Hz H0). subst s. change (number_value (txt "0")) with 0%N in Hv. subst n.
    destruct (decide (head s' = Some "0"%char)) as [H1|H1]; [by rewrite (Hz' H1)|].
    pose proof (value_pos s' Hn' Hd' H1). lia.
  - destruct (decide (head s' = Some "0"%char)) as [H1|H1].
    + specialize (Hz' H1). subst s'. change (number_value (txt "0")) with 0%N in Hv'. subst n.
      pose proof (value_pos s Hn Hd H0). lia.
    + apply value_inj; [done..|]. congruence.
Qed.
