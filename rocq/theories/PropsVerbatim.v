(** * Names and locations appear verbatim in captions, reports and errors (C92). *)
From Verif Require Import VerbatimSpec ExpectSpec VerbatimLemmas VerbatimReport ExpectReport PropsExpect PropsTest PropsLog Demo.

(** Names without "<" and spaces, such as those of types of Go, are not touched. *)
Theorem C92_names k u : (forall c, c ∈ u -> c <> "<"%char /\ c <> " "%char) -> untouched k u.
Proof. apply untouched_simple. Qed.
Print Assumptions C92_names.

Ltac around := match goal with k : Kind |- _ => destruct k end; intros x; destruct x; reflexivity.

(** The captions of expectations. *)
Theorem C92_captions : forall {P : Params} T, inflecting T ->
  (forall m, untouched (m_kind m) (fm_type (tx_fmt T) (m_type m)) ->
     exp_caption T (XMessage m) =
       txt "to " ++ verb_text (m_kind m) ++ txt " a specific '" ++ fm_type (tx_fmt T) (m_type m) ++ txt "' " ++ noun_text (m_kind m)) /\
  (forall t, untouched t.1 (fm_type (tx_fmt T) t) ->
     exp_caption T (XType t) =
       txt "to " ++ verb_text t.1 ++ txt " " ++ txt (article t.1) ++ txt " " ++ noun_text t.1 ++ txt " of type " ++ fm_type (tx_fmt T) t) /\
  (forall tp pred near, untouched (tp_kind tp) near ->
     exp_caption T (XMatch tp pred near false) =
       txt "to " ++ verb_text (tp_kind tp) ++ txt " " ++ txt (article (tp_kind tp)) ++ txt " " ++ noun_text (tp_kind tp) ++
       txt " that matches the predicate near " ++ near) /\
  (forall tp pred near, untouched (tp_kind tp) near ->
     exp_caption T (XMatch tp pred near true) =
       txt "to only " ++ verb_text (tp_kind tp) ++ txt " " ++ noun_text (tp_kind tp) ++ txt "s that match the predicate near " ++ near).
Proof.
  intros P T HT. unfold inflecting in HT. split_and!.
  - intros m Hu. cbn [exp_caption]. rewrite HT. generalize dependent (fm_type (tx_fmt T) (m_type m)). intros u Hu.
    rewrite (sprint_around (m_kind m) (txt "to <produce> a specific '") u (txt "' <message>") (txt "to " ++ verb_text (m_kind m) ++ txt " a specific '") (txt "' " ++ noun_text (m_kind m)) Hu).
    + by rewrite <- !app_assoc.
    + generalize (m_kind m). intros k. around.
  - intros t Hu. cbn [exp_caption]. rewrite HT. generalize dependent (fm_type (tx_fmt T) t). intros u Hu. rewrite <- (app_nil_r u) at 1.
    rewrite (sprint_around t.1 (txt "to <produce> a <message> of type ") u [] (txt "to " ++ verb_text t.1 ++ txt " " ++ txt (article t.1) ++ txt " " ++ noun_text t.1 ++ txt " of type ") [] Hu).
    + by rewrite <- !app_assoc, app_nil_r.
    + generalize t.1. intros k. around.
  - intros tp pred near Hu. cbn [exp_caption]. rewrite HT. rewrite <- (app_nil_r near) at 1.
    rewrite (sprint_around (tp_kind tp) (txt "to <produce> a <message> that matches the predicate near ") near [] (txt "to " ++ verb_text (tp_kind tp) ++ txt " " ++ txt (article (tp_kind tp)) ++ txt " " ++ noun_text (tp_kind tp) ++ txt " that matches the predicate near ") [] Hu).
    + by rewrite <- !app_assoc, app_nil_r.
    + generalize (tp_kind tp). intros k. around.
  - intros tp pred near Hu. cbn [exp_caption]. rewrite HT. rewrite <- (app_nil_r near) at 1.
    rewrite (sprint_around (tp_kind tp) (txt "to only <produce> <messages> that match the predicate near ") near [] (txt "to only " ++ verb_text (tp_kind tp) ++ txt " " ++ noun_text (tp_kind tp) ++ txt "s that match the predicate near ") [] Hu).
    + by rewrite <- !app_assoc, app_nil_r.
    + generalize (tp_kind tp). intros k. around.
Qed.
Print Assumptions C92_captions.

(** The captions of the actions ExecuteCommand() and RecordEvent().  The noun follows the name
    of the type, so that the name must not end in the article that does not go with it. *)
Theorem C92_dispatch : forall {P : Params} T m, inflecting T ->
  let name := fm_type (tx_fmt T) (m_type m) in
  untouched (m_kind m) name -> ~ last_word (wrong_article (m_kind m)) name ->
  act_caption T (ActDispatch m) = txt (verb (m_kind m) +:+ "ing ") ++ name ++ txt (" " +:+ noun (m_kind m)).
Proof. intros P T m HT name Hu Hw. cbn [act_caption]. unfold inflecting in HT. rewrite HT. by apply sprint_dispatch. Qed.
Print Assumptions C92_dispatch.

(** The criteria in reports. *)
Theorem C92_criteria : forall {P : Params} s fs (T : RepTexts) cx p,
  (forall m, after s fs (XMessage m) p -> untouched (m_kind m) (rt_type T (m_type m)) ->
     rp_criteria (report T cx p) = verb_text (m_kind m) ++ txt " a specific '" ++ rt_type T (m_type m) ++ txt "' " ++ noun_text (m_kind m)) /\
  (forall t, after s fs (XType t) p -> untouched t.1 (rt_type T t) ->
     rp_criteria (report T cx p) = verb_text t.1 ++ txt " any '" ++ rt_type T t ++ txt "' " ++ noun_text t.1) /\
  (forall tp pred near, after s fs (XMatch tp pred near false) p -> untouched (tp_kind tp) near ->
     rp_criteria (report T cx p) =
       verb_text (tp_kind tp) ++ txt " " ++ txt (article (tp_kind tp)) ++ txt " " ++ noun_text (tp_kind tp) ++ txt " that matches the predicate near " ++ near) /\
  (forall tp pred near, after s fs (XMatch tp pred near true) p -> untouched (tp_kind tp) near ->
     rp_criteria (report T cx p) =
       txt "only " ++ verb_text (tp_kind tp) ++ txt " " ++ noun_text (tp_kind tp) ++ txt "s that match the predicate near " ++ near).
Proof.
  intros P s fs T cx p. split_and!.
  - intros m H Hu. destruct (after_message _ _ _ _ H) as (ok & best & t & -> & _). cbn [report]. rewrite message_criteria.
    generalize dependent (rt_type T (m_type m)). intros u Hu.
    rewrite (sprint_around (m_kind m) (txt "<produce> a specific '") u (txt "' <message>") (verb_text (m_kind m) ++ txt " a specific '") (txt "' " ++ noun_text (m_kind m)) Hu).
    + by rewrite <- !app_assoc.
    + generalize (m_kind m). intros k. around.
  - intros t H Hu. destruct (after_type _ _ _ _ H) as (ok & tr & -> & _). cbn [report]. rewrite type_criteria.
    generalize dependent (rt_type T t). intros u Hu.
    rewrite (sprint_around t.1 (txt "<produce> any '") u (txt "' <message>") (verb_text t.1 ++ txt " any '") (txt "' " ++ noun_text t.1) Hu).
    + by rewrite <- !app_assoc.
    + generalize t.1. intros k. around.
  - intros tp pred near H Hu. destruct (after_match _ _ _ _ _ _ _ H) as (calls & fl & ma & ig & ok & tr & -> & _). cbn [report]. rewrite match_criteria.
    cbv iota. rewrite <- (app_nil_r near) at 1.
    rewrite (sprint_around (tp_kind tp) (txt "<produce> a <message> that matches the predicate near ") near [] (verb_text (tp_kind tp) ++ txt " " ++ txt (article (tp_kind tp)) ++ txt " " ++ noun_text (tp_kind tp) ++ txt " that matches the predicate near ") [] Hu).
    + by rewrite <- !app_assoc, app_nil_r.
    + generalize (tp_kind tp). intros k. around.
  - intros tp pred near H Hu. destruct (after_match _ _ _ _ _ _ _ H) as (calls & fl & ma & ig & ok & tr & -> & _). cbn [report]. rewrite match_criteria.
    cbv iota. rewrite <- (app_nil_r near) at 1.
    rewrite (sprint_around (tp_kind tp) (txt "only <produce> <messages> that match the predicate near ") near [] (txt "only " ++ verb_text (tp_kind tp) ++ txt " " ++ noun_text (tp_kind tp) ++ txt "s that match the predicate near ") [] Hu).
    + by rewrite <- !app_assoc, app_nil_r.
    + generalize (tp_kind tp). intros k. around.
Qed.
Print Assumptions C92_criteria.

(** The name of the handler that produced a similar message. *)
Theorem C92_similar : forall {P : Params} s fs m p T e og,
  after s fs (XMessage m) p -> p_ok p = false ->
  last (filter (fun e => m_type (e_msg e) = m_type m) (omap (considered (sc_match s)) fs)) = Some e -> e_origin e = Some og ->
  untouched (m_kind m) (txt (hid_name (o_handler og))) ->
  rp_expl (report T (mkCtx false false) p) =
    txt "a similar " ++ noun_text (m_kind m) ++ txt " was " ++ txt (verb (m_kind m) +:+ "ed") ++ txt " by the '" ++
    txt (hid_name (o_handler og)) ++ txt "' " ++ htype_text (o_type og) ++ txt " message handler".
Proof.
  intros P s fs m p T e og H Hno Hl Ho Hu. destruct (C62_similar s fs m p T e H Hno Hl) as [-> _]. rewrite Ho.
  generalize dependent (txt (hid_name (o_handler og))). intros u Hu.
  rewrite app_assoc. change (txt "a similar <message> was <produced> " ++ txt "by the '") with (txt "a similar <message> was <produced> by the '").
  rewrite (sprint_around (m_kind m) (txt "a similar <message> was <produced> by the '") u (txt "' " ++ htype_text (o_type og) ++ txt " message handler")
    (txt "a similar " ++ noun_text (m_kind m) ++ txt " was " ++ txt (verb (m_kind m) +:+ "ed") ++ txt " by the '")
    (txt "' " ++ htype_text (o_type og) ++ txt " message handler") Hu).
  - by rewrite <- !app_assoc.
  - generalize (m_kind m), (o_type og). intros k h. destruct h; around.
Qed.
Print Assumptions C92_similar.

(** The errors. *)
Theorem C92_errors : forall {P : Params} T, inflecting T ->
  (forall t, untouched t.1 (fm_type (tx_fmt T) t) ->
     perr_text T (PEUnknown t) =
       txt (article t.1) ++ txt " " ++ noun_text t.1 ++ txt " of type " ++ fm_type (tx_fmt T) t ++
       txt " can never be " ++ txt (verb t.1 +:+ "ed") ++ txt ", the application does not use this message type") /\
  (forall t, untouched t.1 (fm_type (tx_fmt T) t) ->
     perr_text T (PEConsumed t) =
       txt "no handlers " ++ verb_text t.1 ++ txt " " ++ noun_text t.1 ++ txt "s of type " ++ fm_type (tx_fmt T) t ++ txt ", it is only ever consumed") /\
  (forall m, untouched (m_kind m) (fm_type (tx_fmt T) (m_type m)) ->
     terr_text T (TUnrecognised m) =
       txt "cannot " ++ verb_text (m_kind m) ++ txt " " ++ noun_text (m_kind m) ++ txt ", " ++ fm_type (tx_fmt T) (m_type m) ++
       txt " is a not a recognized message type").
Proof.
  intros P T HT. unfold inflecting in HT. split_and!.
  - intros t Hu. cbn [perr_text]. rewrite HT. generalize dependent (fm_type (tx_fmt T) t). intros u Hu.
    rewrite (sprint_around t.1 (txt "a <message> of type ") u (txt " can never be <produced>, the application does not use this message type")
      (txt (article t.1) ++ txt " " ++ noun_text t.1 ++ txt " of type ") (txt " can never be " ++ txt (verb t.1 +:+ "ed") ++ txt ", the application does not use this message type") Hu).
    + by rewrite <- !app_assoc.
    + generalize t.1. intros k. around.
  - intros t Hu. cbn [perr_text]. rewrite HT. generalize dependent (fm_type (tx_fmt T) t). intros u Hu.
    rewrite (sprint_around t.1 (txt "no handlers <produce> <messages> of type ") u (txt ", it is only ever consumed")
      (txt "no handlers " ++ verb_text t.1 ++ txt " " ++ noun_text t.1 ++ txt "s of type ") (txt ", it is only ever consumed") Hu).
    + by rewrite <- !app_assoc.
    + generalize t.1. intros k. around.
  - intros m Hu. cbn [terr_text]. rewrite HT. generalize dependent (fm_type (tx_fmt T) (m_type m)). intros u Hu.
    rewrite (sprint_around (m_kind m) (txt "cannot <produce> <message>, ") u (txt " is a not a recognized message type")
      (txt "cannot " ++ verb_text (m_kind m) ++ txt " " ++ noun_text (m_kind m) ++ txt ", ") (txt " is a not a recognized message type") Hu).
    + by rewrite <- !app_assoc.
    + generalize (m_kind m). intros k. around.
Qed.
Print Assumptions C92_errors.

(** ** Names that are changed *)

(** An event type whose name ends in "a" as a word, such as the type [a] of a package, appears
    under another name. *)
Theorem C92_dispatch_refuted :
  exists (P : Params) T m, inflecting T /\ untouched (m_kind m) (fm_type (tx_fmt T) (m_type m)) /\
    fm_type (tx_fmt T) (m_type m) = txt "main.a" /\ act_caption T (ActDispatch m) = txt "recording main.an event".
Proof.
  exists DemoP, demo_txt, (event "main.a" 1). split; [done|]. split; [|split; [done|vm_compute; reflexivity]].
  apply untouched_simple. assert (Hf : forallb (fun c => negb (bool_decide (c = "<"%char)) && negb (bool_decide (c = " "%char))) (txt "main.a") = true) by (vm_compute; reflexivity).
  intros c Hc. rewrite forallb_forall in Hf. apply elem_of_list_In, Hf, andb_true_iff in Hc as [H1 H2].
  apply negb_true_iff, bool_decide_eq_false in H1. apply negb_true_iff, bool_decide_eq_false in H2. done.
Qed.
Print Assumptions C92_dispatch_refuted.

(** Placeholders in texts of the user are replaced. *)
Theorem C92_untouched_refuted :
  exists (P : Params) T t, inflecting T /\ fm_type (tx_fmt T) t = txt "Box[<message>]" /\
    exp_caption T (XType t) = txt "to record an event of type Box[event]".
Proof. exists DemoP, demo_txt, (KEvent, "Box[<message>]"%string). split; [done|]. split; [done|]. vm_compute. reflexivity. Qed.
Print Assumptions C92_untouched_refuted.

(** ** Examples *)

Lemma demo_untouched k : untouched k (txt "stubs.EventStub[TypeA]").
Proof.
  apply untouched_simple. assert (Hf : forallb (fun c => negb (bool_decide (c = "<"%char)) && negb (bool_decide (c = " "%char))) (txt "stubs.EventStub[TypeA]") = true) by (vm_compute; reflexivity).
  intros c Hc. rewrite forallb_forall in Hf. apply elem_of_list_In, Hf, andb_true_iff in Hc as [H1 H2].
  apply negb_true_iff, bool_decide_eq_false in H1. apply negb_true_iff, bool_decide_eq_false in H2. done.
Qed.
Example C92_example :
  inflecting demo_txt /\ untouched KEvent (txt "stubs.EventStub[TypeA]") /\ ~ last_word "a" (txt "stubs.EventStub[TypeA]") /\
  fm_type (tx_fmt demo_txt) (KEvent, "stubs.EventStub[TypeA]"%string) = txt "stubs.EventStub[TypeA]" /\
  act_caption demo_txt (ActDispatch (event "stubs.EventStub[TypeA]" 1)) = txt "recording stubs.EventStub[TypeA] event" /\
  exp_caption demo_txt (XType (KEvent, "stubs.EventStub[TypeA]"%string)) = txt "to record an event of type stubs.EventStub[TypeA]".
Proof.
  split; [done|]. split; [apply demo_untouched|]. split.
  - intros (x & H & _). assert (Hl : last (txt "stubs.EventStub[TypeA]") = Some "]"%char) by done. rewrite H in Hl. rewrite last_app in Hl. vm_compute in Hl. discriminate.
  - split; [done|]. split; vm_compute; reflexivity.
Qed.
