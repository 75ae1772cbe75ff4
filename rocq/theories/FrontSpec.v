(** * Vocabulary for the functions that build actions and expectations. *)
From Verif Require Export FrontModel ExpectSpec.

Section Spec.
Context {P : Params}.

(** ** Expressions *)
Definition args (e : EExp) : list EExp :=
  match e with EComp _ l => l | ENot e => [e] | _ => [] end.
(** [within e x]: the call [x] is part of [e]. *)
Inductive within : EExp -> EExp -> Prop :=
| wi_here e : within e e
| wi_arg e a x : a ∈ args e -> within a x -> within e x.

(** Expressions whose value is nil: AllOf() and AnyOf() return a single child. *)
Inductive denotes_nil : EExp -> Prop :=
| dn_nil : denotes_nil ENil
| dn_one c e : c <> CNone -> denotes_nil e -> denotes_nil (EComp c [e]).

(** ** Faults *)

(** The names of functions, for each that has siblings. *)
Definition function_of (f : Matching) : string :=
  match f with
  | MExecuteCommand => "ToExecuteCommandMatching"
  | MOnlyExecuteCommands => "ToOnlyExecuteCommandsMatching"
  | MRecordEvent => "ToRecordEventMatching"
  | MOnlyRecordEvents => "ToOnlyRecordEventsMatching"
  end.
Definition combinator (c : Comp) : string := match c with CAll => "AllOf" | CAny => "AnyOf" | CNone => "NoneOf" end.
(** ExecuteCommand() and its siblings are about commands, RecordEvent() and its siblings
    about events. *)
Definition commands_if (k : bool) : Kind := if k then KCommand else KEvent.

(** What is wrong with the arguments of a call themselves: the function and the reason, or
    [None] if nil is used as an expectation. *)
Inductive fault : EExp -> option (string * string) -> Prop :=
| fa_message_nil k :
    fault (EMessage k None) (Some ((if k then "ToExecuteCommand" else "ToRecordEvent")%string, "message must not be nil"%string))
| fa_message_invalid (k : bool) b er : b_invalid b = Some er ->
    fault (EMessage k (Some b)) (Some ((if k then "ToExecuteCommand" else "ToRecordEvent")%string, er))
| fa_of_type k :
    fault (EOfType k None) (Some ((if k then "ToExecuteCommandOfType" else "ToRecordEventOfType")%string, "message must not be nil"%string))
| fa_match f tp near : fault (EMatch f tp None near) (Some (function_of f, "function must not be nil"%string))
| fa_children c : fault (EComp c []) (Some (combinator c, "at least one child expectation must be provided"%string))
| fa_not e : denotes_nil e -> fault (ENot e) None
| fa_none_of e : denotes_nil e -> fault (EComp CNone [e]) None
| fa_repeat_nil desc n : fault (ERepeat desc n None) (Some ("ToRepeatedly"%string, "function must not be nil"%string))
| fa_repeat_few desc n f : (n < 1)%Z -> fault (ERepeat desc n (Some f)) (Some ("ToRepeatedly"%string, "n must be 1 or greater"%string))
| fa_repeat_desc n f : (1 <= n)%Z -> fault (ERepeat [] n (Some f)) (Some ("ToRepeatedly"%string, "description must not be empty"%string))
| fa_satisfy_nil desc : fault (ESatisfy desc None) (Some ("ToSatisfy"%string, "function must not be nil"%string))
| fa_satisfy_desc fn : fault (ESatisfy [] (Some fn)) (Some ("ToSatisfy"%string, "description must not be empty"%string)).

Definition faultless (e : EExp) : Prop := forall x f, within e x -> ~ fault x f.

(** [first_fault e x]: [x] is the first call, in the order in which calls are made, whose
    arguments are wrong. *)
Inductive first_fault : EExp -> EExp -> Prop :=
| ff_here e f : (forall a, a ∈ args e -> faultless a) -> fault e f -> first_fault e e
| ff_arg e l1 a l2 x : args e = l1 ++ a :: l2 -> Forall faultless l1 -> first_fault a x -> first_fault e x.

(** The text of a panic: "Function(...): reason". *)
Definition complains (s : text) (fn why : string) : Prop :=
  exists xs, s = txt fn ++ txt "(" ++ xs ++ txt "): " ++ txt why.
Definition tells (v : CPanic) (f : option (string * string)) : Prop :=
  match v, f with
  | CSays s, Some (fn, why) => complains s fn why
  | CNil, None => True
  | _, _ => False
  end.

(** ** Meaning *)

(** Composites of several expectations, one of which is nil; and whatever contains one. *)
Inductive lacking : EExp -> Prop :=
| la_nil c l e : 1 < length l -> e ∈ l -> denotes_nil e -> lacking (EComp c l)
| la_arg e a : a ∈ args e -> lacking a -> lacking e.

(** What the expectation says of the facts. *)
Fixpoint means s (fs : list Fact) (e : EExp) : Prop :=
  match e with
  | ENil => False
  | EGiven u _ => ux_ok u s fs = true
  | EMessage k (Some b) =>
    exists m, m ∈ messages s fs /\ m_kind m = commands_if k /\ b_name (m_body m) = b_name b /\ sc_compare s m (mkMsg (commands_if k) b) = true
  | EMessage k None => False
  | EType k n => exists m, m ∈ messages s fs /\ m_kind m = commands_if k /\ b_name (m_body m) = n
  | EOfType k (Some b) => exists m, m ∈ messages s fs /\ m_kind m = commands_if k /\ b_name (m_body m) = b_name b
  | EOfType k None => False
  | EMatch f tp pred near =>
    match pred with
    | None => False
    | Some pred =>
      match f with
      | MExecuteCommand | MRecordEvent => exists m, (m, RNil) ∈ all_results s tp pred false fs
      | MOnlyExecuteCommands | MOnlyRecordEvents => forall m er, (m, RErr er) ∉ all_results s tp pred true fs
      end
    end
  | EComp CAll l => Forall id (map (means s fs) l)
  | EComp CAny l => Exists id (map (means s fs) l)
  | EComp CNone l => ~ Exists id (map (means s fs) l)
  | ENot e => ~ means s fs e
  | ERepeat _ n f => forall i, (Z.of_nat i < n)%Z -> exists f' x, f = Some f' /\ f' i = Some x /\ met s fs x
  | ESatisfy _ None => False
  | ESatisfy _ (Some fn) =>
    exists st evs r, s_done (fn fs).1 (fn fs).2 s_init = (st, evs, r) /\ (called skipping evs \/ ~ called failing evs)
  end.

(** ** Actions *)
Inductive action_fault : EAct -> string * string -> Prop :=
| af_nil k : action_fault (EDispatch k None) ((if k then "ExecuteCommand" else "RecordEvent")%string, "message must not be nil"%string)
| af_invalid (k : bool) b er : b_invalid b = Some er ->
    action_fault (EDispatch k (Some b)) ((if k then "ExecuteCommand" else "RecordEvent")%string, er)
| af_adjustment : action_fault (EAdvance None) ("AdvanceTime"%string, "adjustment must not be nil"%string)
| af_duration d : (d < 0)%Z -> action_fault (EAdvance (Some (JBy d))) ("ByDuration"%string, "duration must not be negative"%string)
| af_interceptor fn opts : None ∈ opts -> action_fault (ECall fn opts) ("InterceptCommandExecutor"%string, "function must not be nil"%string)
| af_function opts : None ∉ opts -> action_fault (ECall None opts) ("Call"%string, "function must not be nil"%string).

(** What the action does. *)
Definition does (a : EAct) (x : Action) : Prop :=
  match a with
  | EDispatch k (Some b) => x = ActDispatch (mkMsg (commands_if k) b) /\ b_invalid b = None
  | EAdvance (Some j) =>
    exists j', x = ActAdvance j' /\
      match j with
      | JTo t => forall now, adj_step j' now = inl t
      | JBy d => (0 <= d)%Z /\ forall now, adj_step j' now = inl (now + d)%Z
      | JUser _ step => forall now, adj_step j' now = step now
      end
  | ECall (Some fn) opts => exists i, x = ActCall fn i /\ i = mjoin (last opts)
  | _ => False
  end.

End Spec.
