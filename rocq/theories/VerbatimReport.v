(** * The criteria of reports, and their texts. *)
From Verif Require Import VerbatimSpec VerbatimLemmas PropsExpect ExpectProof.

Section Criteria.
Context {P : Params}.

Lemma rnm_shape t r : same_shape r (report_no_match t r).
Proof.
  unfold report_no_match. set (r1 := section suggestions [] r). assert (S1 : same_shape r r1) by done. clearbody r1.
  destruct (t_begun t).
  2:{ eapply ss_trans; [exact S1|]. apply rnm_end. }
  destruct (foldl_section (suggest_enable t) htypes r1 (suggest_enable_same t)) as [S2 _]. revert S2. generalize (foldl (suggest_enable t) r1 htypes). intros r2 S2.
  assert (S12 := ss_trans _ _ _ S1 S2). destruct (t_match t); [eapply ss_trans; [exact S12|apply rnm_end]|].
  destruct (forallb _ _); [exact S12|]. destruct (t_engaged t); [exact S12|]. eapply ss_trans; [exact S12|apply rnm_end].
Qed.
Lemma message_criteria T cx m ok best t :
  rp_criteria (message_report T cx m ok best t) = inflect (m_kind m) (txt "<produce> a specific '" ++ rt_type T (m_type m) ++ txt "' <message>").
Proof. unfold message_report. destruct (_ || _); [done|]. destruct best; [done|]. by apply rnm_shape. Qed.
Lemma type_criteria T cx ty ok t :
  rp_criteria (type_report T cx ty ok t) = inflect ty.1 (txt "<produce> any '" ++ rt_type T ty ++ txt "' <message>").
Proof. unfold type_report. destruct (_ || _); [done|]. by apply rnm_shape. Qed.
Lemma match_criteria T cx tp near ex fl ma ig ok t :
  rp_criteria (match_report T cx tp near ex fl ma ig ok t) =
    inflect (tp_kind tp) ((if ex then txt "only <produce> <messages> that match the predicate near "
                           else txt "<produce> a <message> that matches the predicate near ") ++ near).
Proof.
  unfold match_report. destruct (_ || _); [done|]. set (r0 := new_report _ _ _ _).
  set (r1 := foldl _ r0 fl). assert (S1 : same_shape r0 r1).
  { subst r1. match goal with |- context [foldl ?f] => by destruct (foldl_section f fl r0) end. }
  set (r2 := if 0 <? ig then _ else _). assert (S2 : same_shape r0 r2).
  { subst r2. destruct (0 <? ig); [exact S1|]. destruct (nonempty fl); exact S1. }
  assert (S3 := ss_trans _ _ _ S2 (rnm_shape t r2)). clearbody r2. clear r1 S1 S2.
  destruct ex; exact (proj1 (proj2 (proj2 S3))).
Qed.

End Criteria.
