(** * report.go: reports and their text *)
From Verif Require Export InflectModel.

Definition nl : ascii := "010".

(** Report, report.go:53-77.  A section is its title and its content. *)
Inductive Report := mkRep {
  rp_tree : bool; rp_ok : bool; rp_criteria : text; rp_outcome : text; rp_expl : text;
  rp_sections : list (text * text); rp_sub : list Report }.

(** r.Section(title).Content.WriteString(s), 80-94.  [s] = [] only adds the section. *)
Fixpoint sec_append (title s : text) (l : list (text * text)) : list (text * text) :=
  match l with
  | [] => [(title, s)]
  | (t, c) :: l => if bool_decide (t = title) then (t, c ++ s) :: l else (t, c) :: sec_append title s l
  end.
Definition section (title s : text) (r : Report) : Report :=
  mkRep (rp_tree r) (rp_ok r) (rp_criteria r) (rp_outcome r) (rp_expl r)
        (sec_append title s (rp_sections r)) (rp_sub r).
(** ReportSection.AppendListItem, 186-194, after formatting. *)
Definition item (s : text) : text := txt "• " ++ s ++ [nl].
Definition set_expl (s : text) (r : Report) : Report :=
  mkRep (rp_tree r) (rp_ok r) (rp_criteria r) (rp_outcome r) s (rp_sections r) (rp_sub r).
(** Append, 97-99. *)
Definition append_report (sr r : Report) : Report :=
  mkRep (rp_tree r) (rp_ok r) (rp_criteria r) (rp_outcome r) (rp_expl r) (rp_sections r) (rp_sub r ++ [sr]).
(** &Report{TreeOk, Ok, Criteria, Outcome}. *)
Definition new_report (tree ok : bool) (criteria outcome : text) : Report :=
  mkRep tree ok criteria outcome [] [] [].

(** indent.NewIndenter and indent.String of dogmatiq/iago (a dependency): the prefix
    is written before the first character of every line. *)
Fixpoint indent_from (p : text) (bol : bool) (s : text) : text :=
  match s with
  | [] => []
  | c :: s => (if bol then p else []) ++ c :: indent_from p (bool_decide (c = nl)) s
  end.
Definition indent (p s : text) : text := indent_from p true s.

(** strings.TrimSpace, for ASCII. *)
Definition is_space (c : ascii) : bool :=
  let n := nat_of_ascii c in ((9 <=? n) && (n <=? 13)) || (n =? 32).
Fixpoint trim_left (s : text) : text :=
  match s with
  | [] => []
  | c :: s' => if is_space c then trim_left s' else s
  end.
Definition trim_space (s : text) : text := rev (trim_left (rev (trim_left s))).

Definition nonempty {A} (l : list A) : bool := match l with [] => false | _ => true end.

(** The loop over sections, 149-166. *)
Fixpoint write_sections (l : list (text * text)) : text :=
  match l with
  | [] => []
  | (title, content) :: l =>
    upper title ++ [nl] ++ indent (txt "    ") (trim_space content) ++ [nl] ++
    (match l with [] => [] | _ => [nl] end) ++ write_sections l
  end.

(** The first line, 106-120. *)
Definition write_head (r : Report) : text :=
  (if rp_ok r then txt "✓ " else txt "✗ ") ++ rp_criteria r ++
  (match rp_outcome r with [] => [] | m => txt " (" ++ m ++ txt ")" end) ++ [nl].

(** The explanation and the sections, 122-167. *)
Definition write_body (r : Report) : text :=
  let sections := List.filter (fun s => nonempty s.2) (rp_sections r) in
  if nonempty sections || nonempty (rp_expl r) then
    [nl] ++
    indent (txt "  | ")
      ((match rp_expl r with
        | [] => []
        | e => txt "EXPLANATION" ++ [nl] ++ indent (txt "    ") e ++ [nl] ++
               (match sections with [] => [] | _ => [nl] end)
        end) ++ write_sections sections)
  else [].

(** WriteTo, 102-177.  Errors of the underlying writer: see WriterModel.v. *)
Fixpoint write_to (r : Report) : text :=
  write_head r ++ write_body r ++ indent (txt "    ") (concat (map write_to (rp_sub r))).
