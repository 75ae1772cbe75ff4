(** * The first lines of reports (C94). *)
From Verif Require Import HeadSpec HeadProof ExpectReport SatisfySpec PropsExpect Demo.

(** The report on AllOf(), AnyOf() and NoneOf() says how many children did not do as they
    should. *)
Theorem C94_composite : forall {P : Params} s fs c l p T tree inv,
  after s fs (XComp c l) p ->
  let r := report T (mkCtx tree inv) p in
  exists yes no, counted (met s fs) l yes /\ counted (fun e => ~ met s fs e) l no /\
    match c with
    | CAll => rp_criteria r = txt "all of" /\
        rp_outcome r = match no with 0 => [] | _ => txt (pretty.pretty (Z.of_nat no)) ++ txt " of the expectations failed" end
    | CAny => rp_criteria r = txt "any of" /\
        rp_outcome r = match yes with 0 => txt "all " ++ txt (pretty.pretty (Z.of_nat no)) ++ txt " of the expectations failed" | _ => [] end
    | CNone => rp_criteria r = txt "none of" /\
        rp_outcome r = match yes, l with
                       | 0, _ => []
                       | _, [_] => txt "the expectation passed unexpectedly"
                       | _, _ => txt (pretty.pretty (Z.of_nat yes)) ++ txt " of the expectations passed unexpectedly"
                       end
    end.
Proof. intros P s fs c l p T tree inv. apply composite_head. Qed.
Print Assumptions C94_composite.

(** The report on ToSatisfy() says whether the expectation was skipped or failed. *)
Theorem C94_satisfy : forall {P : Params} s fs desc fn p T tree inv,
  after s fs (XSatisfy desc fn) p ->
  let r := report T (mkCtx tree inv) p in
  rp_criteria r = desc /\
  exists st evs, s_done (fn fs).1 (fn fs).2 s_init = (st, evs, None) /\
    (called skipping evs -> rp_outcome r = txt "the expectation was skipped") /\
    (~ called skipping evs -> called failing evs -> rp_outcome r = txt "the expectation failed") /\
    (~ called skipping evs -> ~ called failing evs -> rp_outcome r = []).
Proof. intros P s fs desc fn p T tree inv. apply satisfy_head. Qed.
Print Assumptions C94_satisfy.

(** C52.  It shows what was logged, a line for each message, in order, and why the function
    failed or was skipped (see C80 for that explanation).  Only if the expectation should not
    be met, and is not, is there no need for that. *)
Theorem C52_report : forall {P : Params} s fs desc fn p T tree inv,
  after s fs (XSatisfy desc fn) p ->
  let r := report T (mkCtx tree inv) p in
  exists st evs ms, s_done (fn fs).1 (fn fs).2 s_init = (st, evs, None) /\ logged evs ms /\ rp_sub r = [] /\
    ((p_ok p = false /\ inv = true) /\ rp_sections r = [] /\ rp_expl r = [] \/
     ~ (p_ok p = false /\ inv = true) /\ rp_expl r = ss_explanation st /\
     rp_sections r = if decide (ms = []) then [] else [(txt "Log Messages", concat (map (fun m => txt m ++ [nl]) ms))]).
Proof. intros P s fs desc fn p T tree inv. apply satisfy_report_lemma. Qed.
Print Assumptions C52_report.

(** The reports on expectations about messages have no such remark; see C92 for what they say
    was expected. *)
Theorem C94_leaf : forall {P : Params} s fs e p T tree inv,
  after s fs e p -> message_leaf e -> rp_outcome (report T (mkCtx tree inv) p) = [].
Proof. intros P s fs e p T tree inv. apply leaf_head. Qed.
Print Assumptions C94_leaf.

(** Not() and ToRepeatedly(); for the remark on a failed ToRepeatedly() see C61. *)
Theorem C94_not : forall {P : Params} s fs e p T tree inv,
  after s fs (XNot e) p ->
  let r := report T (mkCtx tree inv) p in
  rp_outcome r = [] /\
  exists q, after s fs e q /\ rp_criteria r = txt "do not " ++ rp_criteria (report T (mkCtx tree (negb inv)) q).
Proof. intros P s fs e p T tree inv H. destruct (after_not _ _ _ _ H) as (q & -> & Hq). split; [done|]. by exists q. Qed.
Print Assumptions C94_not.
Theorem C94_repeat : forall {P : Params} s fs desc n f p T tree inv,
  after s fs (XRepeat desc n f) p ->
  let r := report T (mkCtx tree inv) p in
  rp_criteria r = desc /\ (p_ok p = true -> rp_outcome r = []).
Proof. intros P s fs desc n f p T tree inv. apply repeat_head. Qed.
Print Assumptions C94_repeat.

(** ** Examples *)

Definition opened : Exp := XMessage (event "Opened" 4).
Definition head_of (e : Exp) : option (string * string) :=
  match new_predicate (demo_scope false) e with
  | inl p0 =>
    let p := (p_done (foldl (fun p f => notify f p) p0 demo_facts)).1 in
    let r := report demo_texts (mkCtx false false) p in
    Some (string_of_list_ascii (rp_criteria r), string_of_list_ascii (rp_outcome r))
  | inr _ => None
  end.
Definition heads : list Exp :=
  [XComp CAll [opened; XNot opened; XType (KEvent, "Notified"%string)];
   XComp CAny [XNot opened; XMessage (event "Opened" 9)];
   XComp CNone [XNot opened; opened; opened]; XComp CNone [opened]; XNot opened;
   XRepeat (txt "thrice") 3 (fun i => Some opened)].
Example C94_example :
  (exists p, after (demo_scope false) demo_facts (XComp CAll [opened; XNot opened; XType (KEvent, "Notified"%string)]) p) /\
  map head_of heads =
    [Some ("all of", "1 of the expectations failed"); Some ("any of", "all 2 of the expectations failed");
     Some ("none of", "2 of the expectations passed unexpectedly"); Some ("none of", "the expectation passed unexpectedly");
     Some ("do not record a specific 'Opened' event", ""); Some ("thrice", "")]%string.
Proof. split; [eexists; eexists; split; [reflexivity|]; vm_compute; reflexivity|]. vm_compute. reflexivity. Qed.
