(** * Writing reports and log lines to writers that may fail

    ReportModel.v and LoggerModel.v say what text is written.  Here it is written piece by
    piece, to an io.Writer that may fail at any call. *)
From Verif Require Export ReportModel LoggerModel.

(** The io.Writer that the user gives: what a call of Write() returns, given the earlier
    calls and how much of each was written. *)
Definition Calls : Type := list (text * nat).
Definition Sink : Type := Calls -> text -> nat * option string.

(** What is around it: count.Writer of dogmatiq/iago, which adds up what is written, and the
    Indenter of dogmatiq/iago, with its prefix.  A writer is a list of layers, the outermost
    first. *)
Inductive Layer := LCount | LIndent (p : text).
(** The state of a writer: the calls of the user's writer; the count; whether the prefix is to be
    written before the next character. *)
Fixpoint State (ls : list Layer) : Type :=
  match ls with
  | [] => Calls
  | LCount :: ls => nat * State ls
  | LIndent _ :: ls => bool * State ls
  end%type.

(** A result of Write() and of WriteTo(): a number of bytes and an error. *)
Definition Res : Type := nat * option string.

(** The lines of a text, each with its line break. *)
Fixpoint pieces (s : text) : list text :=
  match s with
  | [] => []
  | c :: s =>
    if bool_decide (c = nl) then [c] :: pieces s
    else match pieces s with
         | [] => [[c]]
         | l :: ls => (c :: l) :: ls
         end
  end.

(** Indenter.Write of dogmatiq/iago (a dependency): writes each line on its own, after the
    prefix if it is at the beginning of a line, until there is an error.  Nothing in the
    repository uses the number it returns if there is an error. *)
Fixpoint write_pieces {S} (wr : S -> text -> S * Res) (p : text) (bol : bool) (n : nat) (l : list text) (st : S)
  : bool * S * Res :=
  match l with
  | [] => (bol, st, (n, None))
  | x :: l =>
    let '(st, (n1, e)) := if bol then wr st p else (st, (0, None)) in
    match e with
    | Some e => (bol, st, (n, Some e))
    | None =>
      let '(st, (n2, e)) := wr st x in
      match e with
      | Some e => (false, st, (n, Some e))
      | None => write_pieces wr p (match last x with Some c => bool_decide (c = nl) | None => false end) (n + n1 + n2) l st
      end
    end
  end.

Section Writing.
Context (k : Sink).

(** Write(). *)
Fixpoint write (ls : list Layer) : State ls -> text -> State ls * Res :=
  match ls with
  | [] => fun calls s => let '(n, e) := k calls s in (calls ++ [(s, n)], (n, e))
  | LCount :: ls => fun st s =>
    let '(next, (n, e)) := write ls st.2 s in ((st.1 + n, next), (n, e))
  | LIndent p :: ls => fun st s => write_pieces (write ls) p st.1 0 (pieces s) st.2
  end.

(** Code that uses package must of dogmatiq/iago: it panics with the error of a writer, which
    must.Recover() turns into an error that is returned. *)
Definition Must (ls : list Layer) (A : Type) : Type := State ls -> State ls * (A + string).
Definition mret {ls A} (a : A) : Must ls A := fun st => (st, inl a).
Definition mbind {ls A B} (m : Must ls A) (f : A -> Must ls B) : Must ls B := fun st =>
  let '(st, r) := m st in match r with inl a => f a st | inr e => (st, inr e) end.
Notation "m >>> m'" := (mbind m (fun _ => m')) (at level 60, right associativity).
(** Methods WriteTo(). *)
Definition WriterTo : Type := forall ls, State ls -> State ls * Res.
(** must.WriteTo. *)
Definition must_write_to {ls} (f : WriterTo) : Must ls nat := fun st =>
  let '(st, (n, e)) := f ls st in match e with Some e => (st, inr e) | None => (st, inl n) end.
(** must.Write, must.WriteString, must.WriteByte. *)
Definition must_write {ls} (s : text) : Must ls nat := must_write_to (fun ls st => write ls st s).
(** Code that is given a new Indenter around the present writer, or a new count.Writer, whose
    count is returned. *)
Definition indenting {ls A} (p : text) (m : Must (LIndent p :: ls) A) : Must ls A := fun st =>
  let '(st, r) := m (true, st) in (st.2, r).
Definition counting {ls A} (m : Must (LCount :: ls) A) : Must ls nat := fun st =>
  let '(st, r) := m (0, st) in (st.2, match r with inl _ => inl st.1 | inr e => inr e end).
Fixpoint each {ls A} (f : A -> Must ls nat) (l : list A) : Must ls nat :=
  match l with [] => mret 0 | x :: l => mbind (f x) (fun n => mbind (each f l) (fun n' => mret (n + n'))) end.

(** ** Report.WriteTo, report.go:102-177 *)

(** The first line, 106-120. *)
Definition must_head {ls} (r : Report) : Must ls nat :=
  must_write (if rp_ok r then txt "✓ " else txt "✗ ") >>> must_write (rp_criteria r) >>>
  (match rp_outcome r with
   | [] => mret 0
   | o => must_write (txt " (") >>> must_write o >>> must_write (txt ")")
   end) >>> must_write [nl].
(** The sections, 149-166. *)
Fixpoint must_sections {ls} (l : list (text * text)) : Must ls nat :=
  match l with
  | [] => mret 0
  | (title, content) :: l =>
    must_write (upper title) >>> must_write [nl] >>>
    must_write (indent (txt "    ") (trim_space content)) >>> must_write [nl] >>>
    (match l with [] => mret 0 | _ => must_write [nl] end) >>> must_sections l
  end.
(** The explanation and the sections, 122-167. *)
Definition must_body {ls} (r : Report) : Must ls nat :=
  let sections := List.filter (fun s => nonempty s.2) (rp_sections r) in
  if nonempty sections || nonempty (rp_expl r) then
    must_write [nl] >>>
    indenting (txt "  | ")
      ((match rp_expl r with
        | [] => mret 0
        | e => must_write (txt "EXPLANATION" ++ [nl]) >>> must_write (indent (txt "    ") e) >>> must_write [nl] >>>
               (match sections with [] => mret 0 | _ => must_write [nl] end)
        end) >>> must_sections sections)
  else mret 0.
(** defer must.Recover(&err): the other result, which has no name, is zero after a panic. *)
Definition recovering {ls} (m : Must ls nat) : State ls -> State ls * Res := fun st =>
  let '(st, r) := m st in (st, match r with inl n => (n, None) | inr e => (0, Some e) end).

(** WriteTo, 102-177. *)
Fixpoint report_write_to (r : Report) : WriterTo := fun ls =>
  recovering (counting
    (must_head r >>> must_body r >>>
     (match rp_sub r with
      | [] => mret 0
      | l => indenting (txt "    ")
        ((fix subs (l : list Report) : Must (LIndent (txt "    ") :: LCount :: ls) nat :=
            match l with [] => mret 0 | sr :: l => must_write_to (report_write_to sr) >>> subs l end) l)
      end))).

(** ** Log lines *)

(** Icon.WriteTo, logging/icon.go:104-112. *)
Definition icon_write_to (i : text) : WriterTo := fun ls st =>
  write ls st (match i with [] => txt " " | _ => i end).
(** IconWithLabel.WriteTo, icon.go:133-141. *)
Definition labelled_write_to (x : text * text) : WriterTo := fun ls =>
  recovering
    (mbind (must_write_to (icon_write_to x.1)) (fun n1 =>
     mbind (must_write space1) (fun n2 =>
     mbind (must_write x.2) (fun n3 => mret (n1 + n2 + n3))))).
(** The loop over the texts, logging/write.go:49-64. *)
Fixpoint must_texts {ls} (i : nat) (ts : list text) : Must ls nat :=
  match ts with
  | [] => mret 0
  | [] :: ts => must_texts i ts
  | t :: ts =>
    mbind (must_write space1) (fun n1 =>
    mbind (if 0 <? i
           then mbind (must_write_to (icon_write_to SeparatorIcon)) (fun n => mbind (must_write space1) (fun n' => mret (n + n')))
           else mret 0) (fun n2 =>
    mbind (must_write t) (fun n3 => mbind (must_texts (S i) ts) (fun n4 => mret (n1 + n2 + n3 + n4)))))
  end.
(** mustWrite, write.go:33-67. *)
Definition must_line {ls} (ids : list (text * text)) (icons ts : list text) : Must ls nat :=
  mbind (each (fun v => mbind (must_write_to (labelled_write_to v)) (fun n => mbind (must_write space2) (fun n' => mret (n + n')))) ids) (fun n1 =>
  mbind (each (fun v => mbind (must_write_to (icon_write_to v)) (fun n => mbind (must_write space1) (fun n' => mret (n + n')))) icons) (fun n2 =>
  mbind (must_texts 0 ts) (fun n3 => mret (n1 + n2 + n3)))).
(** Write, write.go:22-31. *)
Definition line_write (ids : list (text * text)) (icons ts : list text) : WriterTo := fun ls =>
  recovering (must_line ids icons ts).
End Writing.
