(** * Vocabulary for the layout of reports: texts as lists of lines. *)
From Verif Require Export ReportModel.

(** The lines of a text: "a\nb" has two, and so has "a\n" (the second is empty). *)
Fixpoint lines (s : text) : list text :=
  match s with
  | [] => [[]]
  | c :: s => if bool_decide (c = nl) then [] :: lines s
              else match lines s with l :: ls => (c :: l) :: ls | [] => [[c]] end
  end.
(** A text made of terminated lines. *)
Definition unlines (ls : list text) : text := concat (map (fun l => l ++ [nl]) ls).

Definition prefix_lines (p : text) (ls : list text) : list text := map (app p) ls.
(** All lines are prefixed, but for the last one if it is empty. *)
Fixpoint prefix_content (p : text) (ls : list text) : list text :=
  match ls with
  | [] => []
  | [[]] => [[]]
  | l :: ls => (p ++ l) :: prefix_content p ls
  end.

(** A title and, indented under it, a content. *)
Definition block (title content : text) : list text :=
  lines title ++ prefix_content (txt "    ") (lines content).
(** Blocks separated by one blank line. *)
Fixpoint separated (bs : list (list text)) : list text :=
  match bs with
  | [] => []
  | [b] => b
  | b :: bs => b ++ [] :: separated bs
  end.
Definition blocks (r : Report) : list (list text) :=
  (if decide (rp_expl r = []) then [] else [block (txt "EXPLANATION") (rp_expl r)]) ++
  map (fun s => block (upper s.1) (trim_space s.2)) (filter (fun s => s.2 <> []) (rp_sections r)).

(** White space: tab, line feed, vertical tab, form feed, carriage return, space. *)
Inductive white : ascii -> Prop :=
| white_tab : white "009"%char | white_lf : white "010"%char | white_vt : white "011"%char
| white_ff : white "012"%char | white_cr : white "013"%char | white_space : white " "%char.
(** [s'] is [s] without white space at either end. *)
Definition trimmed (s s' : text) : Prop :=
  exists a b, s = a ++ s' ++ b /\ Forall white a /\ Forall white b /\
    (forall c l, s' = c :: l -> ~ white c) /\ (forall c l, s' = l ++ [c] -> ~ white c).
(** [c'] is the upper-case version of [c]. *)
Definition letters : list (ascii * ascii) :=
  zip (txt "abcdefghijklmnopqrstuvwxyz") (txt "ABCDEFGHIJKLMNOPQRSTUVWXYZ").
Definition capital (c c' : ascii) : Prop :=
  (c, c') ∈ letters \/ c' = c /\ forall x, (c, x) ∉ letters.

(** The line(s) a report begins with. *)
Definition head_text (r : Report) : text :=
  (if rp_ok r then txt "✓ " else txt "✗ ") ++ rp_criteria r ++
  (if decide (rp_outcome r = []) then [] else txt " (" ++ rp_outcome r ++ txt ")").

(** [layout r ls]: the lines of the report [r]. *)
Inductive layout : Report -> list text -> Prop :=
| layout_report r subs :
    Forall2 layout (rp_sub r) subs ->
    layout r
      (lines (head_text r) ++
       (if decide (blocks r = []) then [] else [] :: prefix_lines (txt "  | ") (separated (blocks r))) ++
       prefix_lines (txt "    ") (concat subs)).
