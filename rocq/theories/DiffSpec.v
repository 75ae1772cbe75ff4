(** * Vocabulary for diffs. *)
From Verif Require Export DiffModel InflectSpec.

(** The texts a list of diffs is about. *)
Definition text_before (ds : list Diff) : text := concat ((fun d => match df_op d with DInsert => [] | _ => df_text d end) <$> ds).
Definition text_after (ds : list Diff) : text := concat ((fun d => match df_op d with DDelete => [] | _ => df_text d end) <$> ds).
(** What diffmatchpatch guarantees. *)
Definition diffs_of (diff_main : text -> text -> list Diff) : Prop :=
  forall a b, text_before (diff_main a b) = a /\ text_after (diff_main a b) = b.
(** A text without markers. *)
Definition no_markers (s : text) : Prop :=
  forall k, k ∈ [txt "{+"; txt "+}"; txt "[-"; txt "-]"] -> ~ contains k s.
