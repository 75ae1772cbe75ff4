(** * C99: functions called by Reset that panic *)
From Verif Require Import ResetSpec ResetProof PropsObs ObsDemo.

Section PropsReset.
Context {P : Params}.

(** Reset forgets all message IDs, histories, instances and timeouts whether or not a
    function given to WithResetter panics, and it releases the engine.  It calls these
    functions in order, up to the first one that panics; the caller gets that panic. *)
Theorem C99_reset x st s' evs r :
  xrun_op x OpReset (st, false) = (s', evs, r) ->
  evs = [XReset] /\ s'.2 = false /\ g_next (es_g s'.1) = 0%N /\
  (forall n cs, es_cs st !! n = Some cs -> exists cs', es_cs s'.1 !! n = Some cs' /\ forgotten cs cs') /\
  (forall n, es_cs st !! n = None -> es_cs s'.1 !! n = None) /\
  exists n v, called_in_order (x_resets x) (g_user (es_g st)) n (g_user (es_g s'.1)) v /\
    n <= length (x_resets x) /\ (v = None -> n = length (x_resets x)) /\
    r = match v with None => inl (RDone []) | Some v => inr v end.
Proof. apply reset_lemma. Qed.

(** These panics have no other effect: if the functions are replaced by one that has the same
    effects on the user's world but never panics, every sequence of operations ends in the
    same state, has the same facts and the same results, except that Reset returns. *)
Theorem C99_no_other_effect x f ops st b s evs rs :
  (forall u, exists n v, called_in_order (x_resets x) u n (f u) v) ->
  xrun_ops x ops (st, b) = (s, evs, rs) ->
  exists rs', xrun_ops (with_resets x [fun u => (f u, None)]) ops (st, b) = (s, evs, rs') /\
    Forall2 (fun or r' => same_but_reset or.1 or.2 r') (zip ops rs) rs'.
Proof. apply reset_difference. Qed.

(** Whatever the functions do, some of them are called, and in one way only. *)
Theorem C99_called fns u : exists n u' v, called_in_order fns u n u' v /\
  forall n2 u2 v2, called_in_order fns u n2 u2 v2 -> u2 = u' /\ v2 = v.
Proof.
  destruct (run_resets fns u) as [u' v] eqn:E. destruct (run_resets_spec _ _ _ _ E) as [n Hn].
  exists n, u', v. split; [exact Hn|]. intros n2 u2 v2 H2. apply called_unique in H2. rewrite E in H2. by injection H2 as -> ->.
Qed.
End PropsReset.

(** ** The hypotheses can be met

    The second of three functions panics: the third isn't called; the history is gone,
    and the engine is used again. *)
Definition note_reset (s : string) (v : option PVal) : U -> U * option PVal := fun u => (u ++ [s], v).
Definition xhooked : XApp := with_resets xdemo
  [note_reset "first" None; note_reset "second" (Some (PUser "hook")); note_reset "third" None].
Lemma hooked_reset_ok : op_ok (x_cfg xhooked) OpReset.
Proof. exact I. Qed.
Example C99_example : exists s evs rs, xhistory xhooked [] [xopen_at 0 4 0; OpReset; xopen_at 5 4 0] s evs rs /\
  (panicked <$> rs, length <$> kept s "agg" "a", s.2) = ([false; true; false], Some 1, false) /\
  filter (fun x => bool_decide (x ∈ ["first"; "second"; "third"])) (g_user (es_g s.1)) = ["first"; "second"].
Proof.
  apply xwitness; [apply demo_ok| |].
  - apply Forall_cons_2; [exact (xopen_ok _ _ _ _)|]. apply Forall_cons_2; [exact hooked_reset_ok|].
    apply Forall_cons_2; [exact (xopen_ok _ _ _ _)|]. apply Forall_nil_2.
  - split; vm_compute; reflexivity.
Qed.
Example C99_replaced_example : forall u, exists n v,
  called_in_order (x_resets xhooked) u n (u ++ ["first"; "second"]) v.
Proof.
  intros u. exists 2, (Some (PUser "hook")). eapply co_returns; [reflexivity|]. apply co_panics.
  unfold note_reset. by rewrite <- (assoc_L app).
Qed.

Print Assumptions C99_reset.
Print Assumptions C99_no_other_effect.
Print Assumptions C99_called.
