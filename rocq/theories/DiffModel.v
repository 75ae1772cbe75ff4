(** * internal/report/diff.go: the text of a diff *)
From Verif Require Export InflectModel.

(** diffmatchpatch.Diff (a dependency). *)
Inductive DiffOp := DEqual | DInsert | DDelete.
Record Diff := mkDiff { df_op : DiffOp; df_text : text }.

(** The switch, diff.go:17-28. *)
Definition write_one (d : Diff) : text :=
  match df_op d with
  | DInsert => txt "{+" ++ df_text d ++ txt "+}"
  | DDelete => txt "[-" ++ df_text d ++ txt "-]"
  | DEqual => df_text d
  end.
(** WriteDiff, diff.go:11-30; [diff_main]: DiffMain(a, b, false). *)
Definition write_diff (diff_main : text -> text -> list Diff) (a b : text) : text := concat (write_one <$> diff_main a b).
