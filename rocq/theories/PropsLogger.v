(** * C65, C66: log lines *)
From Verif Require Import LoggerSpec LoggerLemmas.

(** C65.  Whatever the order in which Go visits the map of handlers and whatever
    sorting algorithm is used, the list of enabled handlers is the same. *)
Theorem C65_deterministic range_ range_' sort sort' et eh :
  enumerates (range_ eh) eh -> enumerates (range_' eh) eh -> sorts sort -> sorts sort' ->
  format_enabled range_ sort et eh = format_enabled range_' sort' et eh.
Proof. exact (C65_lemma range_ range_' sort sort' et eh). Qed.
Print Assumptions C65_deterministic.

(** It names the enabled types of handlers and then, in alphabetical order, each
    individual handler with its sign. *)
Theorem C65_text range_ sort et eh names :
  enumerates (range_ eh) eh -> sorts sort -> enumerates names eh -> Sorted string_le names ->
  format_enabled range_ sort et eh =
  txt "enabled:" ++
  (concat (map (fun t => if et_get et t then txt " +" ++ handlers_of_type t else []) [HTAggregate; HTProcess; HTIntegration; HTProjection]) ++
   concat (map (fun n => (if bool_decide (eh !! n = Some true) then txt " +" else txt " -") ++ txt n) names)).
Proof. exact (format_enabled_text range_ sort et eh names). Qed.
Print Assumptions C65_text.

(** C66.  Every fact produces no line or one line of the same layout: three IDs, three
    icons and the texts that are not empty. *)
Theorem C66_layout `{Params} (T : LogTexts) (f : Fact) :
  log_notify T f = [] \/
  exists env i1 i2 i3 ts,
    log_notify T f =
    [txt "= " ++ shown_id (from_option e_id "" env) ++ txt "  ∵ " ++ shown_id (from_option e_cause "" env) ++
     txt "  ⋲ " ++ shown_id (from_option e_corr "" env) ++ txt "  " ++
     cell i1 ++ txt " " ++ cell i2 ++ txt " " ++ cell i3 ++ txt " " ++
     (match not_empty ts with [] => [] | _ => txt " " ++ joined (txt " ● ") (not_empty ts) end)] /\
    log_parts T f = Some (env, [i1; i2; i3], ts).
Proof. exact (C66_lemma T f). Qed.
Print Assumptions C66_layout.

(** The IDs are those of the message the fact is about. *)
Theorem C66_ids `{Params} (T : LogTexts) (f : Fact) :
  (exists rest, log_notify T f =
     [txt "= " ++ shown_id (from_option e_id "" (subject f)) ++ txt "  ∵ " ++ shown_id (from_option e_cause "" (subject f)) ++
      txt "  ⋲ " ++ shown_id (from_option e_corr "" (subject f)) ++ txt "  " ++ rest]) \/
  log_notify T f = [].
Proof. exact (C66_subject_lemma T f). Qed.
Print Assumptions C66_ids.

(** The line of a fact that is logged, in full: the IDs of its message; symbols for the
    direction of the message, for the type of handler and for failure; then the
    handler, the instance and the details.  A failure is told with the text of the
    error, a produced message with its type and description, and what a handler writes
    to the log is given as it was written. *)
Theorem C66_line `{Params} (T : LogTexts) (f : Fact) :
  ~ silent f ->
  exists more,
    log_notify T f =
    [txt "= " ++ shown_id (from_option e_id "" (subject f)) ++ txt "  ∵ " ++ shown_id (from_option e_cause "" (subject f)) ++
     txt "  ⋲ " ++ shown_id (from_option e_corr "" (subject f)) ++ txt "  " ++
     direction_symbol f ++ txt " " ++ actor_symbol f ++ txt " " ++ failure_symbol f ++ txt " " ++
     (match not_empty (actor f ++ more) with [] => [] | _ => txt " " ++ joined (txt " ● ") (not_empty (actor f ++ more)) end)] /\
    (forall e, failure f = Some e -> exists t, more = [t ++ lt_error T e]) /\
    (forall e, produces f = true -> subject f = Some e ->
       exists what, more = [what; lt_type T (m_type (e_msg e)); lt_description T (e_msg e)]) /\
    (forall s, written f = Some s -> more = [txt s]).
Proof. exact (C66_line_lemma T f). Qed.
Print Assumptions C66_line.

(** Which facts are not logged. *)
Theorem C66_silent `{Params} (T : LogTexts) (f : Fact) : log_notify T f = [] <-> silent f.
Proof. exact (C66_silent_lemma T f). Qed.
Print Assumptions C66_silent.

(** ** Examples *)
Definition two : gmap string bool := <["<proj>" := true]> (<["<agg>" := false]> ∅).
Definition only_some : ETypes := mkETypes true true false false.
(** Sorting by insertion. *)
Fixpoint text_leb (a b : text) : bool :=
  match a, b with
  | [], _ => true
  | _ :: _, [] => false
  | x :: a, y :: b => (nat_of_ascii x <? nat_of_ascii y) || (bool_decide (x = y) && text_leb a b)
  end.
Fixpoint insert_name (n : string) (l : list string) : list string :=
  match l with [] => [n] | m :: l' => if text_leb (txt n) (txt m) then n :: l else m :: insert_name n l' end.
Definition sort_names (l : list string) : list string := foldr insert_name [] l.

Lemma text_leb_spec a b : text_leb a b = true <-> text_le a b.
Proof.
  revert b. induction a as [|x a IH]; intros [|y b]; cbn [text_leb text_le]; try done.
  rewrite orb_true_iff, andb_true_iff, Nat.ltb_lt, bool_decide_eq_true, IH. done.
Qed.
Lemma text_le_total a b : text_leb a b = false -> text_le b a.
Proof.
  revert b. induction a as [|x a IH]; intros [|y b]; cbn [text_leb text_le]; try done.
  rewrite orb_false_iff, Nat.ltb_ge, andb_false_iff, bool_decide_eq_false. intros [H1 H2].
  destruct (decide (x = y)) as [->|Hn]; [right; split; [done|]; destruct H2; [done | by apply IH]|]. left.
  assert (nat_of_ascii x <> nat_of_ascii y); [|lia]. intros E. apply Hn.
  rewrite <- (ascii_nat_embedding x), <- (ascii_nat_embedding y). by rewrite E.
Qed.
Lemma insert_name_perm n l : insert_name n l ≡ₚ n :: l.
Proof. induction l as [|m l IH]; [done|]. cbn. destruct (text_leb (txt n) (txt m)); [done|]. rewrite IH. constructor. Qed.
Lemma insert_name_sorted n l : Sorted string_le l -> Sorted string_le (insert_name n l).
Proof.
  induction 1 as [|m l Hl IH Hhd]; cbn; [by repeat constructor|].
  destruct (text_leb (txt n) (txt m)) eqn:E.
  - constructor; [by constructor|]. constructor. by apply text_leb_spec.
  - constructor; [done|]. apply text_le_total in E. destruct l as [|k l]; cbn; [by constructor|].
    destruct (text_leb (txt n) (txt k)); constructor; [done|]. by inversion Hhd.
Qed.
Example sort_names_sorts : sorts sort_names.
Proof.
  intros l. induction l as [|n l [IH1 IH2]]; [split; constructor|]. cbn [sort_names foldr]. split.
  - etrans; [apply insert_name_perm|]. by constructor.
  - by apply insert_name_sorted.
Qed.
Example C65_example :
  enumerates ["<proj>"; "<agg>"] two /\ enumerates ["<agg>"; "<proj>"] two /\
  format_enabled (fun _ => ["<proj>"; "<agg>"]) sort_names only_some two = txt "enabled: +aggregates +processes -<agg> +<proj>".
Proof.
  assert (forall n : string, n = "<proj>" \/ n = "<agg>" <-> is_Some (two !! n)) as Hk.
  { intros n. unfold two. rewrite lookup_insert_is_Some, lookup_insert_is_Some, lookup_empty.
    destruct (decide ("<proj>" = n)), (decide ("<agg>" = n)); subst; try naive_solver.
    split; [naive_solver|]. intros [?|[_ [?|[_ [? ?]]]]]; naive_solver. }
  split; [|split; [|vm_compute; reflexivity]]; split.
  - by apply (bool_decide_unpack (NoDup ["<proj>"; "<agg>"])).
  - intros n. rewrite <- Hk, !elem_of_cons, elem_of_nil. naive_solver.
  - by apply (bool_decide_unpack (NoDup ["<agg>"; "<proj>"])).
  - intros n. rewrite <- Hk, !elem_of_cons, elem_of_nil. naive_solver.
Qed.
#[export] Instance LogP : Params := {| U := unit; Root := unit; D := string |}.
Definition ex_texts : LogTexts := {|
  lt_time := fun _ => txt "2006-01-02T15:04:05Z"; lt_type := fun t => txt (snd t) ++ txt "?";
  lt_description := fun m => txt (b_data (m_body m)); lt_error := fun _ => txt "error";
  lt_range := fun m => map fst (map_to_list m); lt_sort := sort_names |}.
Definition ex_env : Env := mkEnv "7" "10" "10" (mkMsg KCommand (mkBody "Deposit" "" None)) 0 0 None.
Example C66_example :
  log_notify ex_texts (DispatchBegun ex_env) = [txt "= 07  ∵ 10  ⋲ 10  ▼ ⚙    Deposit?"] /\
  log_notify ex_texts (AggregateInstanceLoaded (mkHId "account" HTAggregate) "A1" tt ex_env) =
    [txt "= 07  ∵ 10  ⋲ 10  ▼ ∴    account A1 ● loaded an existing instance"] /\
  log_notify ex_texts (ProjectionCompactionCompleted (mkHId "list" HTProjection) None) =
    [txt "= --  ∵ --  ⋲ --    Σ    list ● compacted"] /\
  log_notify ex_texts (HandlingBegun (mkHId "account" HTAggregate) ex_env) = [].
Proof. vm_compute. tauto. Qed.
