(** * location *)
From Verif Require Export InflectModel.
From stdpp Require pretty.

Open Scope nat_scope.

(** Location, location.go:16-28. *)
Record Location := { lo_func : text; lo_file : text; lo_line : Z }.

Definition slash : ascii := "/".
(** path.Base: the last element of a path, without trailing slashes. *)
Fixpoint strip_slashes (rev_s : text) : text :=
  match rev_s with c :: s => if bool_decide (c = slash) then strip_slashes s else rev_s | [] => [] end.
Fixpoint until_slash (rev_s : text) : text :=
  match rev_s with c :: s => if bool_decide (c = slash) then [] else c :: until_slash s | [] => [] end.
Definition base (s : text) : text :=
  match s with
  | [] => txt "."
  | _ => match strip_slashes (rev s) with [] => txt "/" | r => rev (until_slash r) end
  end.

(** %d of fmt. *)
Definition decimal (z : Z) : text := txt (pretty.pretty z).

(** FileLine, location.go:61-71. *)
Definition file_line (l : Location) : option text :=
  match lo_file l with
  | [] => None
  | _ => Some (base (lo_file l) ++ txt ":" ++ decimal (lo_line l))
  end.

(** closurePattern, location.go:73: \.func\d+(\.\d+)*$, without (?m): the
    automaton of \d+(\.\d+)* run on a whole text, and a search over all positions. *)
Definition digit (c : ascii) : bool := let n := nat_of_ascii c in (48 <=? n) && (n <=? 57).
Definition dot : ascii := ".".
(** [seen]: at least one digit was read since the last dot. *)
Fixpoint numbers (seen : bool) (s : text) : bool :=
  match s with
  | [] => seen
  | c :: s => if digit c then numbers true s else if bool_decide (c = dot) then seen && numbers false s else false
  end.
Fixpoint closure_pattern (s : text) : bool :=
  match s with
  | [] => false
  | _ :: s' => (starts_with (txt ".func") s && numbers false (drop 5 s)) || closure_pattern s'
  end.

(** strings.Contains. *)
Fixpoint text_contains (k s : text) : bool :=
  starts_with k s || match s with [] => false | _ :: s' => text_contains k s' end.

(** isNamedFunc, location.go:75-86. *)
Definition is_named_func (l : Location) : bool :=
  match lo_func l with
  | [] => false
  | f => if text_contains (txt "glob..") f then false else if closure_pattern f then false else true
  end.

(** String, location.go:30-55. *)
Definition location_string (l : Location) : text :=
  match file_line l with
  | Some fl => if is_named_func l then fl ++ txt " [" ++ lo_func l ++ txt "(...)]" else fl
  | None => match lo_func l with [] => txt "<unknown>" | f => f ++ txt "(...)" end
  end.

(** ** Frames *)

(** runtime.Frame; a program counter stands for its frame and those of the functions
    inlined there. *)
Record Frame := { fr_func : text; fr_file : text; fr_line : Z }.
Definition frame_location (f : Frame) : Location :=
  {| lo_func := fr_func f; lo_file := fr_file f; lo_line := fr_line f |}.

(** The inner loop of eachFrame, location.go:209-215, with [fn] folding over a state;
    [inr] is the result when [fn] returned false or the iterator was exhausted (its
    Next then returns the zero frame, whose PC is 0). *)
Fixpoint each_frame_in {S} (fn : S -> Frame -> S * bool) (s : S) (frs : list Frame) : S :=
  match frs with
  | [] => s
  | fr :: frs => let '(s', more) := fn s fr in if more then each_frame_in fn s' frs else s'
  end.
(** eachFrame, location.go:200-217.  runtime.Callers fills at most 8 pointers; the
    outer loop never comes to its second iteration because the inner loop ends with
    return.  [stack] begins with the caller of eachFrame: runtime.Callers and eachFrame
    itself are skipped anyway. *)
Definition each_frame {S} (skip : nat) (fn : S -> Frame -> S * bool) (s : S) (stack : list (list Frame)) : S :=
  each_frame_in fn s (concat (take 8 (drop skip stack))).

(** OfCall, location.go:124-140. *)
Definition of_call (stack : list (list Frame)) : option Location :=
  each_frame 2 (fun _ fr => (Some (frame_location fr), false)) None stack.

(** OfPanic, location.go:147-197; the state is (foundPanicCall, loc). *)
Definition of_panic_step (s : bool * option Location) (fr : Frame) : (bool * option Location) * bool :=
  if starts_with (txt "runtime.") (fr_func fr) then
    ((if bool_decide (fr_func fr = txt "runtime.gopanic") then true else s.1, s.2), true)
  else if negb s.1 then (s, true)
  else ((s.1, Some (frame_location fr)), false).
Definition of_panic (stack : list (list Frame)) : option Location :=
  (each_frame 0 of_panic_step (false, None) stack).2.
