(** * C96: annotations *)
From Verif Require Import NonNote NoteSpec ConformBase TestLemmas.

Section Props.
Context {P : Params}.

Lemma begin_notes app u wall topts : ts_notes (begin app u wall topts) = [].
Proof.
  unfold begin. cbn [set_next ts_notes]. set (st0 := mkTS _ _ _ _ _ _ _ _ _ _).
  assert (H : forall st, ts_notes (foldl apply_topt st topts) = ts_notes st).
  { induction topts as [|o l IH]; intros st; [done|]. cbn [foldl]. rewrite IH. by destruct o. }
  rewrite H. done.
Qed.

(** Every report of a test is rendered with an annotator for each annotation made before it,
    in order, each of which annotates the values that are equal to the annotated one and
    of the same type. *)
Theorem C96_rendered E app u wall topts p st evs r l1 rep l2 :
  utesting E app u wall topts p st evs r -> evs = l1 ++ VT (TvReport rep) :: l2 ->
  rendered E (u_annotated l1) rep.
Proof.
  intros (_ & _ & Hr) ->. assert (H := proj1 (u_reports E (test_config app)) p (begin app u wall topts)).
  rewrite Hr, begin_notes in H. by eapply (H l1 rep l2).
Qed.

(** Without the calls of Annotate() the same happens, except that the differences of messages
    in reports may be shown differently; the test ends and fails alike. *)
Theorem C96_harmless E app u wall topts p st evs r :
  run_u E (test_config app) p (begin app u wall topts) = (st, evs, r) ->
  exists st' evs', run_u E (test_config app) (unannotated p) (begin app u wall topts) = (st', evs', r) /\
    apart evs = apart evs' /\ u_annotated evs' = [] /\
    ts_failed st' = ts_failed st /\ ts_clock st' = ts_clock st /\ ts_eng st' = ts_eng st /\ ts_opts st' = ts_opts st.
Proof.
  intros Hr. assert (H := proj1 (u_agree E (test_config app) []) p (begin app u wall topts)). rewrite Hr in H.
  assert (Hb : set_notes [] (begin app u wall topts) = begin app u wall topts).
  { assert (Hn := begin_notes app u wall topts). destruct (begin app u wall topts). cbn in *. by rewrite Hn. }
  rewrite Hb in H. destruct (run_u E (test_config app) (unannotated p) _) as [[st' evs'] r'] eqn:Er.
  destruct H as (-> & -> & He). exists (set_notes [] st), evs'. split; [done|]. split; [done|]. split; [|done].
  assert (Hk := proj1 (u_run_notes E (test_config app)) _ _ _ _ _ Er). rewrite begin_notes in Hk. cbn in Hk. by rewrite <- Hk.
Qed.
End Props.
Print Assumptions C96_rendered.
Print Assumptions C96_harmless.

(** ** test_test.go:285-347 *)

(** reflect.DeepEqual for values without parts; the texts "A1" and "A2" of type TypeA. *)
Definition lib : GoLib := mkGoLib (fun _ => false) (fun _ _ => false)
  (fun v w => match v, w with GvBasic t s, GvBasic t' s' => bool_decide (t = t') && bool_decide (s = s') | _, _ => false end).
Definition type_a (s : string) : GoVal := GvBasic "stubs.TypeA" s.
(** dapper: the content is a value of type TypeA; texts of annotators that are not empty follow it. *)
Definition noted (fs : list Annotator) (m : Msg) : text :=
  let notes := match content m with
    | CStr s => concat (map (fun f => match f (type_a s) with [] => [] | t => txt " <<" ++ t ++ txt ">>" end) fs)
    | _ => []
    end%list in
  (txt "stubs.EventStub[github.com/dogmatiq/enginekit/enginetest/stubs.TypeA]{" ++ [nl] ++
   txt "    Content:         """ ++ match content m with CStr s => txt s | _ => [] end ++ txt """" ++ notes ++ [nl] ++
   txt "    ValidationError: """"" ++ [nl] ++ txt "}")%list.
(** The differences before and after the first "<<". *)
Fixpoint cut (acc s : text) : text * text :=
  match s with
  | "<"%char :: "<"%char :: _ => (rev acc, s)
  | x :: s => cut (x :: acc) s
  | [] => (rev acc, [])
  end.
Definition diffs2 (a b : text) : list Diff :=
  let '(a1, a2) := cut [] a in let '(b1, b2) := cut [] b in (diffs a1 b1 ++ diffs a2 b2)%list.
Definition note_env (app : list Handler) : TEnv :=
  mkTEnv (fun _ => oracle) (fun _ => 50) (fun _ => app) (fun _ => mkRT (fun t => txt t.2) (fun _ => []) (write_diff diffs2)) (fun l => l)
    (fun a b => bool_decide (a = b)) false lib (fun _ => noted).
Definition note_app : list Handler :=
  [mkHandler "<aggregate>" (agg (fun _ => [body (Eve "TypeA") (CStr "A1")])) [com "TypeA"] [eve "TypeA"] false].
(** Annotate() of the two values; [extra] are annotations made while the action is performed, by
    the function of a Call, in place of dispatching the command. *)
Definition note_test (notes : list Annotation) (a : Action) : UProg :=
  foldr (fun n p => UAnnotate n p)
    (UExpect (u_action (test_config note_app) (fun _ => "") a) (XMessage (mkMsg KEvent (body (Eve "TypeA") (CStr "A2")))) (fun _ => UDone None)) notes.
Definition anna : Annotation := mkNote (Some (type_a "A1")) (txt "anna's customer ID").
Definition bob : Annotation := mkNote (Some (type_a "A2")) (txt "bob's customer ID").
Definition execute_a1 : Body := body (Com "TypeA") (CStr "A1").
Definition note_log (p : UProg) : list text :=
  let '(st, evs, r) := run_u (note_env note_app) (test_config note_app) p (begin note_app tt 0 []) in
  remainder (ConformBase.logged (log_of all_texts evs)).
Definition note_lines (content : string) : list text :=
  map txt [""; "✗ record a specific 'stubs.EventStub[TypeA]' event"; "";
   "  | EXPLANATION"; "  |     a similar event was recorded by the '<aggregate>' aggregate message handler"; "  | ";
   "  | SUGGESTIONS"; "  |     • check the content of the message"; "  | ";
   "  | MESSAGE DIFF"; "  |     stubs.EventStub[github.com/dogmatiq/enginekit/enginetest/stubs.TypeA]{";
   ("  |         Content:         " ++ content)%string; "  |         ValidationError: """""; "  |     }"; ""].
Example C96_example : note_log (note_test [anna; bob] (ActDispatch (mkMsg KCommand execute_a1))) =
  note_lines """A[-2-]{+1+}"" <<[-bob-]{+anna+}'s customer ID>>".
Proof. vm_compute. reflexivity. Qed.
(** Without annotations, with those of other types, and with ones made by the function of a Call. *)
Example C96_example_plain : note_log (note_test [] (ActDispatch (mkMsg KCommand execute_a1))) = note_lines """A[-2-]{+1+}""".
Proof. vm_compute. reflexivity. Qed.
Example C96_example_type :
  note_log (note_test [mkNote (Some (GvBasic "string" "A1")) (txt "text"); mkNote None (txt "nil")] (ActDispatch (mkMsg KCommand execute_a1))) =
  note_lines """A[-2-]{+1+}""".
Proof. vm_compute. reflexivity. Qed.
Example C96_example_call :
  note_log (note_test [bob] (ActCall (TAnnotate anna (TExecute execute_a1 (fun _ => TRet))) None)) =
  note_lines """A[-2-]{+1+}"" <<[-bob-]{+anna+}'s customer ID>>".
Proof. vm_compute. reflexivity. Qed.
(** The premises of [annotates] are met: a value in a variable of an interface type is annotated
    once, the variable is not. *)
Definition of_interface (ty : string) : Prop := ty = "fmt.Stringer".
Example C96_interface :
  typed of_interface (GvBoxed "fmt.Stringer" (Some (type_a "A1"))) /\ given of_interface (an_value anna) /\
  is_annotated lib anna (type_a "A1") /\ annotator lib anna (type_a "A1") = an_text anna /\
  annotator lib anna (GvBoxed "fmt.Stringer" (Some (type_a "A1"))) = [].
Proof.
  unfold of_interface. split; [by repeat split|]. split; [done|]. split; [|done].
  exists (type_a "A1"). repeat split; done.
Qed.
