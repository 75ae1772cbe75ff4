(** * Vocabulary for the texts of panics. *)
From Verif Require Export PanicTextModel PanicSpec.

Section PanicTextSpec.
Context {P : Params}.

(** The methods of [h] panic only with values of their own, with dogma.UnexpectedMessage, or
    with values they recovered from calls of their scope: whatever holds for these holds for
    all the values they panic with. *)
Definition own_panics (h : Handler) : Prop :=
  forall Q : PVal -> Prop, (forall s, Q (PUser s)) -> Q PRaw ->
  match h_impl h with
  | ImplAgg a => (forall m w, ag_route a m = inr w -> Q w) /\ (forall r m r' w, ag_apply a r m = (r', Some w) -> Q w) /\
      (forall id m w, ARaises (fun _ x => Q x) (ag_handle a id m) w -> Q w)
  | ImplProc p => (forall m u u' w, pr_route p m u = (u', inr w) -> Q w) /\
      (forall id t m w, PRaises (fun _ x => Q x) (pr_event p id t m) w -> Q w) /\
      (forall id t m w, PRaises (fun _ x => Q x) (pr_timeout p id t m) w -> Q w)
  | ImplInt i => forall m w, IRaises (fun _ x => Q x) (in_handle i m) w -> Q w
  | ImplProj j => (forall id u u' w, pj_version j id u = (u', inr w) -> Q w) /\ (forall id u u' w, pj_close j id u = (u', inr w) -> Q w) /\
      (forall id cur nxt t m w, JRaises (pj_handle j id cur nxt t m) w -> Q w) /\
      (forall now w, JRaises (pj_compact j now) w -> Q w)
  end.

(** A panic value that user code made. *)
Definition users (v : PVal) : Prop := (exists s, v = PUser s) \/ v = PRaw.

Context (T : PanicTexts).
Notation ty := (pt_type T).

Definition type_name (h : Handler) : text :=
  match h_impl h with ImplAgg _ => txt "aggregate" | ImplProc _ => txt "process" | ImplInt _ => txt "integration" | ImplProj _ => txt "projection" end.
(** "the 'NAME' TYPE message handler". *)
Definition the_handler (h : Handler) : text := txt "the '" ++ txt (h_name h) ++ txt "' " ++ type_name h ++ txt " message handler".

(** The interface that the handler implements, and the methods of it that are given the message
    when it handles [m]. *)
Definition interface_of (h : Handler) : string :=
  match h_impl h with
  | ImplAgg _ => "AggregateMessageHandler" | ImplProc _ => "ProcessMessageHandler"
  | ImplInt _ => "IntegrationMessageHandler" | ImplProj _ => "ProjectionMessageHandler"
  end.
Definition routing_method (h : Handler) (m : Msg) (meth : string) : Prop :=
  match h_impl h with
  | ImplAgg _ => meth = "RouteCommandToInstance"%string
  | ImplProc _ => m_kind m = KEvent /\ meth = "RouteEventToInstance"%string
  | _ => False
  end.
Definition handling_method (h : Handler) (m : Msg) (meth : string) : Prop :=
  match h_impl h with
  | ImplAgg _ | ImplInt _ => meth = "HandleCommand"%string
  | ImplProc _ => (m_kind m = KEvent /\ meth = "HandleEvent"%string) \/ (m_kind m = KTimeout /\ meth = "HandleTimeout"%string)
  | ImplProj _ => meth = "HandleEvent"%string
  end.

(** [u]: [h] was given a message that it does not expect, while it handled [m]: [m] itself, or
    one of its own events. *)
Definition unexpected (h : Handler) (m : Msg) (u : text) : Prop :=
  exists iface meth m', u = the_handler h ++ txt " did not expect " ++ pt_impl T (h_id h) iface ++ txt "." ++ txt meth ++
      txt "() to be called with a message of type " ++ ty (m_type m') /\
    ((m' = m /\ iface = interface_of h /\ (routing_method h m meth \/ handling_method h m meth)) \/
     (m_kind m' = KEvent /\ m_type m' ∈ h_produced h /\ (exists a, h_impl h = ImplAgg a) /\ iface = "AggregateRoot"%string /\ meth = "ApplyEvent"%string)).

(** What a handler can do wrong while it handles [m]. *)
Inductive misbehaves (h : Handler) (m : Msg) : string -> text -> Prop :=
| mb_command a : h_impl h = ImplAgg a -> ag_route a m = inl ""%string ->
    misbehaves h m "RouteCommandToInstance" (txt "routed a command of type " ++ ty (m_type m) ++ txt " to an empty ID")
| mb_event p u u' : h_impl h = ImplProc p -> pr_route p m u = (u', inl (""%string, true, None)) ->
    misbehaves h m "RouteEventToInstance" (txt "routed an event of type " ++ ty (m_type m) ++ txt " to an empty ID")
| mb_root_a a : h_impl h = ImplAgg a -> ag_new a = None -> misbehaves h m "New" (txt "returned a nil AggregateRoot")
| mb_root_p p : h_impl h = ImplProc p -> pr_new p = None -> misbehaves h m "New" (txt "returned a nil ProcessRoot")
| mb_undeclared_event n meth : (KEvent, n) ∉ h_produced h -> (exists x, h_impl h = ImplAgg x) \/ (exists x, h_impl h = ImplInt x) ->
    handling_method h m meth ->
    misbehaves h m meth (txt "recorded an event of type " ++ ty (KEvent, n) ++ txt ", which is not produced by this handler")
| mb_undeclared_command n meth p : (KCommand, n) ∉ h_produced h -> h_impl h = ImplProc p -> handling_method h m meth ->
    misbehaves h m meth (txt "executed a command of type " ++ ty (KCommand, n) ++ txt ", which is not produced by this handler")
| mb_undeclared_timeout n meth p : (KTimeout, n) ∉ h_produced h -> h_impl h = ImplProc p -> handling_method h m meth ->
    misbehaves h m meth (txt "scheduled a timeout of type " ++ ty (KTimeout, n) ++ txt ", which is not produced by this handler")
| mb_invalid_event n e meth : (exists x, h_impl h = ImplAgg x) \/ (exists x, h_impl h = ImplInt x) ->
    handling_method h m meth ->
    misbehaves h m meth (txt "recorded an invalid " ++ ty (KEvent, n) ++ txt " event: " ++ txt e)
| mb_invalid_command n e meth p : h_impl h = ImplProc p ->
    handling_method h m meth ->
    misbehaves h m meth (txt "executed an invalid " ++ ty (KCommand, n) ++ txt " command: " ++ txt e)
| mb_invalid_timeout n e meth p : h_impl h = ImplProc p ->
    handling_method h m meth ->
    misbehaves h m meth (txt "scheduled an invalid " ++ ty (KTimeout, n) ++ txt " timeout: " ++ txt e).
Definition misbehaved (h : Handler) (m : Msg) (u : text) : Prop :=
  exists meth d, misbehaves h m meth d /\
    u = the_handler h ++ txt " behaved unexpectedly in " ++ pt_impl T (h_id h) (interface_of h) ++ txt "." ++ txt meth ++ txt "(): " ++ d.

(** The text [u] of the panic [v] of an operation that notified [fs]. *)
Inductive Explained (c : Config) (op : Op) (fs : list Fact) (v : PVal) (u : text) : Prop :=
| ex_unknown_name n b : fs = [] -> OptHandler n b ∈ op_opts op -> (forall h, h ∈ c_app c -> h_name h <> n) -> Explained c op fs v u
| ex_timeout o f m opts : fs = [] -> op = OpDispatch o f m opts -> m_kind m = KTimeout -> Explained c op fs v u
| ex_invalid o f m opts e : fs = [] -> op = OpDispatch o f m opts -> m_invalid m = Some e ->
    u = txt "cannot dispatch invalid " ++ ty (m_type m) ++ txt " message: " ++ txt e -> Explained c op fs v u
| ex_not_consumed o f m opts : fs = [] -> op = OpDispatch o f m opts -> (forall h, h ∈ c_app c -> m_type m ∉ h_consumed h) ->
    u = txt "the " ++ ty (m_type m) ++ txt " message type is not consumed by any handlers" -> Explained c op fs v u
| ex_handler l h env l' : fs = l ++ HandlingBegun (h_id h) env :: l' -> Forall (about (h_id h) env) l' -> h ∈ c_app c ->
    unexpected h (e_msg env) u \/ misbehaved h (e_msg env) u -> Explained c op fs v u
| ex_user : users v \/ (exists w, v = PFatal w /\ users w) -> Explained c op fs v u.

End PanicTextSpec.
