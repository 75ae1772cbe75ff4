(** * Vocabulary for expectations, independent of predicates and trackers. *)
From Verif Require Export ExpectModel SatisfySpec.

Section Spec.
Context {P : Params}.
Implicit Types s : Scope.

(** The messages an expectation considers, in order: those produced by handlers, and
    if [call] those dispatched by the action itself. *)
Definition considered (call : bool) (f : Fact) : option Env :=
  match f with
  | EventRecordedByAggregate _ _ _ _ e => Some e
  | EventRecordedByIntegration _ _ e => Some e
  | CommandExecutedByProcess _ _ _ _ e => Some e
  | TimeoutScheduledByProcess _ _ _ _ e => Some e
  | DispatchCycleBegun e _ _ _ => if call then Some e else None
  | _ => None
  end.
Definition messages s (fs : list Fact) : list Msg := map e_msg (omap (considered (sc_match s)) fs).
Definition of_kind (k : Kind) (ms : list Msg) : list Msg := filter (fun m => m_kind m = k) ms.

(** The result of a matching expectation's function for each message of its kind, given
    the messages it was called with [before]. *)
Fixpoint results (tp : TParam) (pred : list Msg -> Msg -> PredRes) (ex : bool) (before ms : list Msg)
  : list (Msg * PredRes) :=
  match ms with
  | [] => []
  | m :: ms =>
    if tp_assignable tp (m_type m) then (m, pred before m) :: results tp pred ex (before ++ [m]) ms
    else (m, if ex then RErr (expected_error tp) else RIgnore) :: results tp pred ex before ms
  end.
Definition all_results s tp pred ex fs := results tp pred ex [] (of_kind (tp_kind tp) (messages s fs)).

(** When an expectation is met by an action that produced the facts [fs]. *)
Fixpoint met s (fs : list Fact) (e : Exp) : Prop :=
  match e with
  | XMessage m => exists m', m' ∈ messages s fs /\ m_type m' = m_type m /\ sc_compare s m' m = true
  | XType t => exists m', m' ∈ messages s fs /\ m_type m' = t
  | XMatch tp pred _ false => exists m', (m', RNil) ∈ all_results s tp pred false fs
  | XMatch tp pred _ true => forall m' er, (m', RErr er) ∉ all_results s tp pred true fs
  | XComp CAll l => Forall id (map (met s fs) l)
  | XComp CAny l => Exists id (map (met s fs) l)
  | XComp CNone l => ~ Exists id (map (met s fs) l)
  | XNot e => ~ met s fs e
  | XRepeat _ n f => forall i, i < n -> match f i with Some e => met s fs e | None => False end
  | XSatisfy _ fn =>
    exists st evs r, s_done (fn fs).1 (fn fs).2 s_init = (st, evs, r) /\ (called skipping evs \/ ~ called failing evs)
  | XUser u => ux_ok u s fs = true
  end.

(** A type no message of which can be considered: the application does not use it, or
    none of its handlers produces it (and the action dispatches no messages itself). *)
Definition impossible_type s (t : MType) : Prop :=
  sc_types s t = None \/ (sc_match s = false /\ sc_types s t = Some false).
Inductive impossible s : Exp -> Prop :=
| im_message m : impossible_type s (m_type m) -> impossible s (XMessage m)
| im_type t : impossible_type s t -> impossible s (XType t)
| im_match t pred near ex : impossible_type s t -> impossible s (XMatch (TConcrete t) pred near ex)
| im_comp c l e : e ∈ l -> impossible s e -> impossible s (XComp c l)
| im_not e : impossible s e -> impossible s (XNot e)
| im_nil desc n f i : i < n -> f i = None -> impossible s (XRepeat desc n f)
| im_repeat desc n f i e : i < n -> f i = Some e -> impossible s e -> impossible s (XRepeat desc n f)
| im_user u : ux_reject u s <> None -> impossible s (XUser u).

(** Why it is impossible: the error of the first part that is. *)
Definition concerns (e : Exp) (t : MType) : Prop :=
  match e with
  | XMessage m => t = m_type m
  | XType t' => t = t'
  | XMatch (TConcrete t') _ _ _ => t = t'
  | _ => False
  end.
Inductive because s : Exp -> PErr -> Prop :=
| bc_unknown e t : concerns e t -> sc_types s t = None -> because s e (PEUnknown t)
| bc_consumed e t : concerns e t -> sc_types s t = Some false -> sc_match s = false -> because s e (PEConsumed t)
| bc_comp c l1 e l2 er : Forall (fun x => ~ impossible s x) l1 -> because s e er -> because s (XComp c (l1 ++ e :: l2)) er
| bc_not e er : because s e er -> because s (XNot e) er
| bc_nil desc n f i :
    i < n -> (forall j, j < i -> exists x, f j = Some x /\ ~ impossible s x) -> f i = None ->
    because s (XRepeat desc n f) (PENil i)
| bc_repeat desc n f i e er :
    i < n -> (forall j, j < i -> exists x, f j = Some x /\ ~ impossible s x) -> f i = Some e -> because s e er ->
    because s (XRepeat desc n f) (PEIter i er)
| bc_user u m : ux_reject u s = Some m -> because s (XUser u) (PEUser m).

(** What Test.Expect does with an expectation: create the predicate, notify it of the
    facts, finish it. *)
Definition after s (fs : list Fact) (e : Exp) (p : Pred) : Prop :=
  exists p0, new_predicate s e = inl p0 /\ p_done (foldl (fun p f => notify f p) p0 fs) = (p, None).

(** ** Diagnostics *)

(** [first_occurrences l r]: [r] is [l] without the later entries of the same name. *)
Inductive first_occurrences : list (string * HType) -> list (string * HType) -> Prop :=
| fo_nil : first_occurrences [] []
| fo_cons n t l r : first_occurrences (filter (fun x => x.1 <> n) l) r -> first_occurrences ((n, t) :: l) ((n, t) :: r).
(** The handlers that began to handle a message and can produce messages of kind [k]. *)
Definition engagements (k : Kind) (fs : list Fact) : list (string * HType) :=
  omap (fun f => match f with
                 | HandlingBegun h _ => if is_producer_of (hid_type h) k then Some (hid_name h, hid_type h) else None
                 | _ => None
                 end) fs.
(** The handler types that were enabled for the last dispatch cycle. *)
Definition last_cycle (fs : list Fact) : option ETypes :=
  last (omap (fun f => match f with DispatchCycleBegun _ _ et _ => Some et | _ => None end) fs).

(** Neither the enabled handler types nor the engaged handlers explain why no message
    was found. *)
Definition undiagnosed s (k : Kind) (fs : list Fact) : Prop :=
  last_cycle fs = None \/ sc_match s = true \/
  (engagements k fs <> [] /\
   exists et ht, last_cycle fs = Some et /\ is_producer_of ht k = true /\ et_get et ht = true).

(** [explains s k fs t]: [t] says why no message was found. *)
Inductive explains s (k : Kind) (fs : list Fact) : text -> Prop :=
| ex_disabled et :
    last_cycle fs = Some et -> sc_match s = false ->
    (forall ht, is_producer_of ht k = true -> et_get et ht = false) ->
    explains s k fs (txt "no relevant handler types were enabled")
| ex_unengaged et ht :
    last_cycle fs = Some et -> sc_match s = false -> is_producer_of ht k = true -> et_get et ht = true ->
    engagements k fs = [] ->
    explains s k fs (txt "no relevant handlers (" ++
      match k with KEvent => txt "aggregate or integration" | _ => txt "process" end ++ txt ") were engaged")
| ex_nothing :
    undiagnosed s k fs ->
    messages s fs = [] -> explains s k fs (txt "no messages were produced at all")
| ex_none_of_kind :
    undiagnosed s k fs ->
    messages s fs <> [] -> of_kind k (messages s fs) = [] ->
    explains s k fs (match k with
                     | KCommand => txt "no commands were executed at all"
                     | KEvent => txt "no events were recorded at all"
                     | KTimeout => txt "no timeouts were scheduled at all"
                     end)
| ex_no_match :
    sc_match s = false -> undiagnosed s k fs ->
    of_kind k (messages s fs) <> [] ->
    explains s k fs (match k with
                     | KCommand => txt "none of the engaged handlers executed a matching command"
                     | KEvent => txt "none of the engaged handlers recorded a matching event"
                     | KTimeout => txt "none of the engaged handlers scheduled a matching timeout"
                     end)
| ex_no_match_call :
    sc_match s = true -> of_kind k (messages s fs) <> [] ->
    explains s k fs (match k with
                     | KCommand => txt "nothing executed a matching command"
                     | KEvent => txt "nothing recorded a matching event"
                     | KTimeout => txt "nothing scheduled a matching timeout"
                     end).

(** The suggestions that go with an explanation. *)
Definition missing (k : Kind) (fs : list Fact) : list text :=
  match last_cycle fs with
  | None => []
  | Some et =>
    map (fun ht => txt "enable " ++ htype_text ht ++ txt " handlers using the EnableHandlerType() option")
        (filter (fun ht => is_producer_of ht k = true /\ et_get et ht = false)
                [HTAggregate; HTProcess; HTIntegration; HTProjection])
  end.
Definition verify (x : string * HType) : text :=
  txt "verify the logic within the '" ++ txt x.1 ++ txt "' " ++ htype_text x.2 ++ txt " message handler".
Inductive suggests s (k : Kind) (fs : list Fact) : list text -> Prop :=
| su_disabled et :
    last_cycle fs = Some et -> sc_match s = false ->
    (forall ht, is_producer_of ht k = true -> et_get et ht = false) ->
    suggests s k fs (missing k fs)
| su_unengaged et ht :
    last_cycle fs = Some et -> sc_match s = false -> is_producer_of ht k = true -> et_get et ht = true ->
    engagements k fs = [] ->
    suggests s k fs (missing k fs ++ [txt "check the application's routing configuration"])
| su_other r :
    undiagnosed s k fs ->
    first_occurrences (engagements k fs) r ->
    suggests s k fs
      (missing k fs ++ map verify r ++
       (if sc_match s then
          [match k with
           | KCommand => txt "verify the logic within the code that uses the dogma.CommandExecutor"
           | KEvent => txt "verify the logic within the code that uses the dogma.EventRecorder"
           | KTimeout => txt "verify the logic within the code that uses the <dispatcher>"
           end]
        else [])).

(** [stays v e]: once [e] has the verdict [v], it keeps it. *)
Inductive stays : bool -> Exp -> Prop :=
| st_message m : stays true (XMessage m)
| st_type t : stays true (XType t)
| st_match tp pred near : stays true (XMatch tp pred near false)
| st_only tp pred near : stays false (XMatch tp pred near true)
| st_all v l : (forall e, e ∈ l -> stays v e) -> stays v (XComp CAll l)
| st_any v l : (forall e, e ∈ l -> stays v e) -> stays v (XComp CAny l)
| st_none v l : (forall e, e ∈ l -> stays (negb v) e) -> stays v (XComp CNone l)
| st_not v e : stays (negb v) e -> stays v (XNot e)
| st_repeat v desc n f : (forall i e, f i = Some e -> stays v e) -> stays v (XRepeat desc n f).

(** [grouped l r]: [r] has one entry for every failure in [l], in order of first
    occurrence, with the number of occurrences. *)
Inductive grouped : list (MType * string) -> list Failure -> Prop :=
| gr_nil : grouped [] []
| gr_cons t er l r n :
    grouped (filter (fun x => x <> (t, er)) l) r -> n = S (length (filter (fun x => x = (t, er)) l)) ->
    grouped ((t, er) :: l) (mkFailure t er n :: r).
Definition failed_results (l : list (Msg * PredRes)) : list (MType * string) :=
  omap (fun x => match x.2 with RErr er => Some (m_type x.1, er) | _ => None end) l.
Definition count_res (r : PredRes) (l : list (Msg * PredRes)) : nat :=
  length (omap (fun x => match x.2, r with RNil, RNil => Some () | RIgnore, RIgnore => Some () | _, _ => None end) l).

(** ** Reports *)

(** A report that says nothing beyond its criteria and verdict. *)
Definition bare (r : Report) : Prop := rp_expl r = [] /\ rp_sections r = [].
Inductive message_leaf : Exp -> Prop :=
| ml_message m : message_leaf (XMessage m)
| ml_type t : message_leaf (XType t)
| ml_match tp pred near ex : message_leaf (XMatch tp pred near ex).

(** [describes s fs tree inv e r]: [r] is a proper report on the expectation [e]; [tree]:
    the whole tree passed; [inv]: the expectation is (overall) negated. *)
Inductive describes s (fs : list Fact) (tree : bool) : bool -> Exp -> Report -> Prop :=
| de_leaf inv e r :
    message_leaf e ->
    (rp_ok r = true <-> met s fs e) -> rp_sub r = [] ->
    (rp_ok r = true \/ tree = true \/ inv = true -> bare r) ->
    (rp_ok r = false -> tree = false -> inv = false -> rp_expl r <> []) ->
    describes s fs tree inv e r
| de_comp inv c l r :
    (rp_ok r = true <-> met s fs (XComp c l)) -> bare r ->
    Forall2 (describes s fs tree (match c with CNone => negb inv | _ => inv end)) l (rp_sub r) ->
    describes s fs tree inv (XComp c l) r
| de_not inv e r r' :
    (rp_ok r = true <-> ~ met s fs e) -> bare r -> rp_sub r = [] ->
    describes s fs tree (negb inv) e r' -> rp_criteria r = txt "do not " ++ rp_criteria r' ->
    describes s fs tree inv (XNot e) r
| de_repeat_ok inv desc n f r :
    met s fs (XRepeat desc n f) -> rp_ok r = true -> bare r -> rp_sub r = [] -> rp_outcome r = [] ->
    describes s fs tree inv (XRepeat desc n f) r
| de_repeat_failed inv desc n f r i e r' failed :
    rp_ok r = false -> bare r ->
    i < n -> f i = Some e -> ~ met s fs e ->
    (forall j, j < i -> exists e', f j = Some e' /\ met s fs e') ->
    describes s fs tree inv e r' -> rp_sub r = [r'] ->
    NoDup failed -> (forall j, j ∈ failed <-> j < n /\ exists e', f j = Some e' /\ ~ met s fs e') ->
    rp_outcome r = num (length failed) ++ txt " of " ++ num n ++ txt " iteration(s) failed, iteration #" ++ num i ++ txt " shown" ->
    describes s fs tree inv (XRepeat desc n f) r
| de_satisfy inv desc fn r :
    (rp_ok r = true <-> met s fs (XSatisfy desc fn)) -> rp_sub r = [] ->
    (rp_ok r = false -> inv = true -> bare r) -> (rp_ok r = false -> inv = false -> rp_expl r <> []) ->
    (rp_ok r = true \/ inv = false -> forall st evs e, s_done (fn fs).1 (fn fs).2 s_init = (st, evs, e) -> rp_expl r = ss_explanation st) ->
    describes s fs tree inv (XSatisfy desc fn) r
| de_user inv u : describes s fs tree inv (XUser u) (ux_report u s fs (mkCtx tree inv)).

End Spec.
