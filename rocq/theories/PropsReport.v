(** * Layout of reports: C72. *)
From Verif Require Import ReportSpec ReportLemmas.

(** The text of a report is made of the lines given by [layout] (ReportSpec.v), which
    always exist and are unique. *)
Theorem C72_layout : forall r,
  exists ls, layout r ls /\ write_to r = unlines ls /\ (forall ls', layout r ls' -> ls' = ls).
Proof.
  intros r. destruct (write_to_layout r) as (ls & H1 & H2 & _). exists ls. split_and!; try done.
  intros ls' H. by eapply layout_fun.
Qed.
Print Assumptions C72_layout.

(** The contents of sections are shown without white space around them, and the titles in
    capitals. *)
Theorem C72_trimmed : forall s, trimmed s (trim_space s).
Proof. exact trim_lemma. Qed.
Print Assumptions C72_trimmed.
Theorem C72_titles : forall s, Forall2 capital s (upper s).
Proof. exact upper_lemma. Qed.
Print Assumptions C72_titles.

(** Sections without content leave no trace. *)
Theorem C72_empty_sections : forall tree ok crit out expl ss subs,
  write_to (mkRep tree ok crit out expl ss subs)
  = write_to (mkRep tree ok crit out expl (filter (fun s => s.2 <> []) ss) subs).
Proof.
  intros. cbn [write_to rp_sub]. unfold write_head, write_body. cbn [rp_ok rp_criteria rp_outcome rp_expl rp_sections].
  rewrite !filter_nonempty. assert (Hf : forall l : list (text * text), filter (fun s => s.2 <> []) (filter (fun s => s.2 <> []) l) = filter (fun s => s.2 <> []) l).
  { intros l. induction l as [|[t c] l IH]; [done|]. destruct c as [|x c].
    - rewrite (filter_cons_False _ (t, [])); [exact IH | cbn; tauto].
    - rewrite (filter_cons_True _ (t, x :: c)) by done. rewrite filter_cons_True by done. by rewrite IH. }
  by rewrite Hf.
Qed.
Print Assumptions C72_empty_sections.

Example C72_example :
  layout
    (mkRep false false (txt "all of") (txt "1 of the expectations failed") [] []
      [mkRep false true (txt "record a specific event") [] [] [] [];
       mkRep false false (txt "meet a friend") [] (txt "nobody came")
         [(txt "Suggestions", []); (txt "Log Messages", txt "hello" ++ [nl; nl] ++ txt "world" ++ [nl])] []])
    (map txt
      ["✗ all of (1 of the expectations failed)";
       "    ✓ record a specific event";
       "    ✗ meet a friend";
       "    ";
       "      | EXPLANATION";
       "      |     nobody came";
       "      | ";
       "      | LOG MESSAGES";
       "      |     hello";
       "      |     ";
       "      |     world"]).
Proof.
  match goal with |- layout ?r _ => apply (layout_report r [map txt ["✓ record a specific event"];
    map txt ["✗ meet a friend"; ""; "  | EXPLANATION"; "  |     nobody came"; "  | "; "  | LOG MESSAGES"; "  |     hello"; "  |     "; "  |     world"]]) end.
  constructor; [|constructor; [|constructor]].
  - match goal with |- layout ?r _ => apply (layout_report r []) end. constructor.
  - match goal with |- layout ?r _ => apply (layout_report r []) end. constructor.
Qed.
