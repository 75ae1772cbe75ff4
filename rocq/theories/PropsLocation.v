(** * C69, C73: locations *)
From Verif Require Import LocationSpec LocationLemmas.

(** C69.  What a location is rendered as. *)
Theorem C69_file_and_line l b :
  last_element (lo_file l) b ->
  (telling_name (lo_func l) ->
     location_string l = b ++ txt ":" ++ decimal (lo_line l) ++ txt " [" ++ lo_func l ++ txt "(...)]") /\
  (~ telling_name (lo_func l) -> location_string l = b ++ txt ":" ++ decimal (lo_line l)).
Proof. exact (C69_file_lemma l b). Qed.
Print Assumptions C69_file_and_line.

Theorem C69_without_file l :
  lo_file l = [] ->
  (lo_func l <> [] -> location_string l = lo_func l ++ txt "(...)") /\
  (lo_func l = [] -> location_string l = txt "<unknown>").
Proof. exact (C69_nofile_lemma l). Qed.
Print Assumptions C69_without_file.

(** The file is part of the text iff it is known: without one, no file is mentioned;
    with one, the text begins with its base name and line, and continues with the
    name of the function iff that is telling. *)
Theorem C69_function_iff l :
  lo_file l <> [] ->
  (telling_name (lo_func l) <-> location_string l = base (lo_file l) ++ txt ":" ++ decimal (lo_line l) ++ txt " [" ++ lo_func l ++ txt "(...)]").
Proof. exact (C69_iff_lemma l). Qed.
Print Assumptions C69_function_iff.

(** C73.  OfPanic gives the location of the function that called panic, if that is
    among the first eight program counters of the stack. *)
Theorem C73_location_of_panic stack f :
  panicked_at (concat (take 8 stack)) f -> of_panic stack = Some (frame_location f).
Proof. exact (C73_lemma stack f). Qed.
Print Assumptions C73_location_of_panic.

(** Deeper in the stack it is not found, although the code is written to read the
    stack in batches of eight until the function is found. *)
Theorem C73_refuted :
  exists stack f, panicked_at (concat stack) f /\ of_panic stack = None.
Proof. exact C73_refutation. Qed.
Print Assumptions C73_refuted.

(** OfCall gives the location of the call of its caller. *)
Theorem C73_location_of_call x y caller inlined stack :
  of_call (x :: y :: (caller :: inlined) :: stack) = Some (frame_location caller).
Proof. exact (C73_call_lemma x y caller inlined stack). Qed.
Print Assumptions C73_location_of_call.

(** ** Examples *)
Definition loc (f file : string) (n : Z) : Location := {| lo_func := txt f; lo_file := txt file; lo_line := n |}.
Example C69_examples :
  location_string (loc "example.com/app.Handle" "/src/app/handler.go" 42) = txt "handler.go:42 [example.com/app.Handle(...)]" /\
  location_string (loc "example.com/app.Handle.func1.20" "/src/app/handler.go" 42) = txt "handler.go:42" /\
  location_string (loc "example.com/app.glob..func1" "/src/app/handler.go" 42) = txt "handler.go:42" /\
  location_string (loc "example.com/app.function1" "handler.go" 7) = txt "handler.go:7 [example.com/app.function1(...)]" /\
  location_string (loc "example.com/app.glob..func1" "" 0) = txt "example.com/app.glob..func1(...)" /\
  location_string (loc "" "" 3) = txt "<unknown>" /\ location_string (loc "" "/a/b.go" 3) = txt "b.go:3".
Proof. vm_compute. tauto. Qed.
Example C69_example_hypothesis :
  last_element (txt "/src/app/handler.go") (txt "handler.go") /\ telling_name (txt "example.com/app.Handle") /\
  literal_name (txt "example.com/app.Handle.func1.20").
Proof.
  split; [|split].
  - split; [done|]. split; [|exists (txt "/src/app/"), 0; split; [reflexivity | by right]].
    intros H. assert (bool_decide (slash ∈ txt "handler.go") = false) as Hf by reflexivity.
    by apply bool_decide_eq_false in Hf.
  - apply (is_named_spec (loc "example.com/app.Handle" "" 0)). reflexivity.
  - apply closure_pattern_spec. reflexivity.
Qed.
Definition fr (f : string) : Frame := {| fr_func := txt f; fr_file := txt "f.go"; fr_line := 1 |}.
Example C73_example :
  of_panic [[fr "location.OfPanic"]; [fr "panicx.func1"]; [fr "runtime.gopanic"]; [fr "runtime.panicmem"]; [fr "app.Handle"]; [fr "main"]]
  = Some (frame_location (fr "app.Handle")).
Proof. vm_compute. reflexivity. Qed.
