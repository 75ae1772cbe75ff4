(** * fact/logger.go and fact/internal/logging *)
From Verif Require Export InflectModel.
Open Scope nat_scope.

(** ** fact/internal/logging *)

(** Icons, logging/icon.go:11-93. *)
Definition MessageIDIcon : text := txt "=".
Definition CausationIDIcon : text := txt "∵".
Definition CorrelationIDIcon : text := txt "⋲".
Definition InboundIcon : text := txt "▼".
Definition InboundErrorIcon : text := txt "▽".
Definition OutboundIcon : text := txt "▲".
Definition ErrorIcon : text := txt "✖".
Definition AggregateIcon : text := txt "∴".
Definition ProcessIcon : text := txt "≡".
Definition IntegrationIcon : text := txt "⨝".
Definition ProjectionIcon : text := txt "Σ".
Definition SystemIcon : text := txt "⚙".
Definition SeparatorIcon : text := txt "●".

Definition space1 : text := txt " ".
Definition space2 : text := txt "  ".

(** Icon.WriteTo, logging/icon.go:104-112. *)
Definition write_icon (i : text) : text := match i with [] => txt " " | _ => i end.
(** Icon.WithLabel and formatLabel, icon.go:115-120, 144-150.  The label is passed
    as a format string; message IDs contain no verbs. *)
Definition with_label (i l : text) : text * text := (i, match l with [] => txt "-" | _ => l end).
(** IconWithLabel.WriteTo, icon.go:133-141. *)
Definition write_labelled (x : text * text) : text := write_icon x.1 ++ space1 ++ x.2.
(** HandlerTypeIcon, icon.go:170-183. *)
Definition type_icon (t : HType) : text :=
  match t with
  | HTAggregate => AggregateIcon | HTProcess => ProcessIcon
  | HTIntegration => IntegrationIcon | HTProjection => ProjectionIcon
  end.

(** The last loop of mustWrite, write.go:49-64; [i] counts the texts written. *)
Fixpoint write_texts (i : nat) (ts : list text) : text :=
  match ts with
  | [] => []
  | [] :: ts => write_texts i ts
  | t :: ts => space1 ++ (if 0 <? i then write_icon SeparatorIcon ++ space1 else []) ++ t ++ write_texts (S i) ts
  end.
(** mustWrite, write.go:33-67, and String, write.go:11-19. *)
Definition line_string (ids : list (text * text)) (icons : list text) (ts : list text) : text :=
  concat (map (fun v => write_labelled v ++ space2) ids) ++
  concat (map (fun v => write_icon v ++ space1) icons) ++ write_texts 0 ts.

(** ** fact/logger.go *)

(** formatMessageID, logger.go:551-557: %02s pads with zeros to two characters. *)
Definition format_message_id (id : text) : text :=
  match id with [] => txt "--" | [c] => txt "0" ++ [c] | _ => id end.

(** handlerTypePlurals, logger.go:563-568, and configkit.HandlerTypes. *)
Definition plural (t : HType) : text :=
  match t with
  | HTAggregate => txt "aggregates" | HTProcess => txt "processes"
  | HTIntegration => txt "integrations" | HTProjection => txt "projections"
  end.
Definition handler_types : list HType := [HTAggregate; HTProcess; HTIntegration; HTProjection].

(** formatEnabledHandlers, logger.go:570-598.  [range_] gives the keys of a map in
    the order of Go's map iteration and [sort] is sort.Strings. *)
Definition format_enabled (range_ : gmap string bool -> list string) (sort : list string -> list string)
    (by_type : ETypes) (by_name : gmap string bool) : text :=
  txt "enabled:" ++
  (concat (map (fun t => if et_get by_type t then txt " +" ++ plural t else []) handler_types) ++
   concat (map (fun n => (if default false (by_name !! n) then txt " +" else txt " -") ++ txt n)
               (sort (range_ by_name)))).

Section Logger.
Context {P : Params}.

(** Texts that come from other packages or from user code: time.Time.Format(RFC3339),
    message.Type.String() followed by the symbol of its kind, MessageDescription()
    and error.Error(). *)
Record LogTexts := {
  lt_time : Z -> text;
  lt_type : MType -> text;
  lt_description : Msg -> text;
  lt_error : Err -> text;
  lt_range : gmap string bool -> list string;
  lt_sort : list string -> list string }.

(** Logger.log, logger.go:522-549. *)
Definition log_line (env : option Env) (icons ts : list text) : text :=
  let '(i, ca, co) := match env with Some e => (txt (e_id e), txt (e_cause e), txt (e_corr e)) | None => ([], [], []) end in
  line_string [with_label MessageIDIcon (format_message_id i); with_label CausationIDIcon (format_message_id ca);
               with_label CorrelationIDIcon (format_message_id co)] icons ts.

Definition with_instance (h : HId) (i : string) : text := txt (hid_name h) ++ txt " " ++ txt i.

(** Logger.Notify and the methods it calls, logger.go:28-520: the envelope, icons and
    texts of the line logged for a fact, if any. *)
Definition log_parts (T : LogTexts) (f : Fact) : option (option Env * list text * list text) :=
  let mt (e : Env) := lt_type T (m_type (e_msg e)) in
  let desc (e : Env) := lt_description T (e_msg e) in
  match f with
  | DispatchCycleBegun e now et eh =>                                              (* 88-100 *)
      Some (Some e, [InboundIcon; SystemIcon; []],
            [txt "dispatching"; lt_time T now; format_enabled (lt_range T) (lt_sort T) et eh])
  | DispatchBegun e => Some (Some e, [InboundIcon; SystemIcon; []], [mt e; desc e]) (* 103-116 *)
  | HandlingCompleted h e (Some err) =>                                            (* 119-132 *)
      Some (Some e, [InboundErrorIcon; type_icon (hid_type h); ErrorIcon], [txt (hid_name h); lt_error T err])
  | HandlingSkipped h e r =>                                                       (* 135-157 *)
      Some (Some e, [InboundIcon; type_icon (hid_type h); []],
            [txt (hid_name h);
             match r with
             | SRType => txt "handler skipped because " ++
                 txt (match hid_type h with HTAggregate => "aggregate" | HTProcess => "process"
                      | HTIntegration => "integration" | HTProjection => "projection" end) ++ txt " handlers are disabled"
             | SRIndividual => txt "handler skipped because it is disabled during this tick of the test engine"
             | SRConfiguration => txt "handler skipped because it is disabled by its Configure() method"
             end])
  | TickCycleBegun now et eh =>                                                    (* 160-172 *)
      Some (None, [[]; SystemIcon; []], [txt "ticking"; lt_time T now; format_enabled (lt_range T) (lt_sort T) et eh])
  | TickCompleted h (Some err) =>                                                  (* 175-188 *)
      Some (None, [[]; type_icon (hid_type h); ErrorIcon], [txt (hid_name h); lt_error T err])
  | AggregateInstanceLoaded h i _ e =>
      Some (Some e, [InboundIcon; AggregateIcon; []], [with_instance h i; txt "loaded an existing instance"])
  | AggregateInstanceNotFound h i e =>
      Some (Some e, [InboundIcon; AggregateIcon; []], [with_instance h i; txt "instance does not yet exist"])
  | AggregateInstanceCreated h i _ e =>
      Some (Some e, [InboundIcon; AggregateIcon; []], [with_instance h i; txt "instance created"])
  | AggregateInstanceDestroyed h i _ e =>
      Some (Some e, [InboundIcon; AggregateIcon; []], [with_instance h i; txt "instance destroyed"])
  | AggregateInstanceDestructionReverted h i _ e =>
      Some (Some e, [InboundIcon; AggregateIcon; []], [with_instance h i; txt "destruction of instance reverted"])
  | EventRecordedByAggregate h i _ _ ev =>                                         (* 261-276 *)
      Some (Some ev, [OutboundIcon; AggregateIcon; []], [with_instance h i; txt "recorded an event"; mt ev; desc ev])
  | MessageLoggedByAggregate h i _ e s =>
      Some (Some e, [InboundIcon; AggregateIcon; []], [with_instance h i; txt s])
  | ProcessInstanceLoaded h i _ e =>
      Some (Some e, [InboundIcon; ProcessIcon; []], [with_instance h i; txt "loaded an existing instance"])
  | ProcessEventIgnored h e =>
      Some (Some e, [InboundIcon; ProcessIcon; []],
            [txt (hid_name h); txt "event ignored because it was not routed to any instance"])
  | ProcessTimeoutIgnored h i e =>
      Some (Some e, [InboundIcon; ProcessIcon; []],
            [with_instance h i; txt "timeout ignored because the target instance no longer exists"])
  | ProcessInstanceNotFound h i e =>
      Some (Some e, [InboundIcon; ProcessIcon; []], [with_instance h i; txt "instance does not yet exist"])
  | ProcessInstanceBegun h i _ e =>
      Some (Some e, [InboundIcon; ProcessIcon; []], [with_instance h i; txt "instance begun"])
  | ProcessInstanceEnded h i _ e =>
      Some (Some e, [InboundIcon; ProcessIcon; []], [with_instance h i; txt "instance ended"])
  | ProcessInstanceEndingReverted h i _ e =>
      Some (Some e, [InboundIcon; ProcessIcon; []], [with_instance h i; txt "reverted ending process instance"])
  | CommandExecutedByProcess h i _ _ c =>                                          (* 391-406 *)
      Some (Some c, [OutboundIcon; ProcessIcon; []], [with_instance h i; txt "executed a command"; mt c; desc c])
  | TimeoutScheduledByProcess h i _ _ t =>                                         (* 409-427 *)
      Some (Some t, [OutboundIcon; ProcessIcon; []],
            [with_instance h i; txt "scheduled a timeout for " ++ lt_time T (e_sched t); mt t; desc t])
  | MessageLoggedByProcess h i _ e s =>
      Some (Some e, [InboundIcon; ProcessIcon; []], [with_instance h i; txt s])
  | EventRecordedByIntegration h _ ev =>                                           (* 444-459 *)
      Some (Some ev, [OutboundIcon; IntegrationIcon; []], [txt (hid_name h); txt "recorded an event"; mt ev; desc ev])
  | MessageLoggedByIntegration h e s =>
      Some (Some e, [InboundIcon; IntegrationIcon; []], [txt (hid_name h); txt s])
  | ProjectionCompactionCompleted h None =>                                        (* 476-500 *)
      Some (None, [[]; ProjectionIcon; []], [txt (hid_name h); txt "compacted"])
  | ProjectionCompactionCompleted h (Some err) =>
      Some (None, [[]; ProjectionIcon; ErrorIcon], [txt (hid_name h); txt "compaction failed: " ++ lt_error T err])
  | MessageLoggedByProjection h e s =>                                             (* 503-520 *)
      Some (e, [match e with Some _ => InboundIcon | None => [] end; ProjectionIcon; []], [txt (hid_name h); txt s])
  | _ => None
  end.

(** What Logger.Notify passes to the log function. *)
Definition log_notify (T : LogTexts) (f : Fact) : list text :=
  match log_parts T f with Some (e, icons, ts) => [log_line e icons ts] | None => [] end.
End Logger.
Arguments LogTexts {P}.
