(** * The log of a test (C91). *)
From Verif Require Import LogSpec LogProof PropsExpect PropsTest PropsAct Demo.

(** The log of one Expect(): the heading, the log of the action, and then exactly one report
    whose mark is the verdict, or one fatal error; nothing if the action does not return.
    The expectation is not one of the user. *)
Theorem C91_expect : forall {P : Params} T E c a e st st' evs r o s,
  u_expect E c a (do_u E c a) e st = (st', evs, r) -> builtin e ->
  ua_conf a (plain_options st) = inl o -> ua_caption a = inl s ->
  let h := LgHeading (txt "--- expect " ++ txt s ++ txt " " ++ exp_caption T e ++ txt " ---") in
  (impossible (scope_of E c o) e /\ exists er u, because (scope_of E c o) e er /\ error_says T (TImpossible er) u /\
     log_of T evs = [h; LgFatal u]) \/
  (~ impossible (scope_of E c o) e /\ exists st1 evs1 ar concl,
     do_u E c a (action_options [OptObserver (ts_next st)] st) (set_next (S (ts_next st)) st) = (st1, evs1, ar) /\
     log_concludes T (scope_of E c o) (notified_to (ts_next st) evs1) e ar concl /\
     log_of T evs = h :: log_of T evs1 ++ concl).
Proof. intros P T E c a e st st' evs r o s. apply expect_log. Qed.
Print Assumptions C91_expect.

(** The log of one Prepare(). *)
Theorem C91_prepare : forall {P : Params} T E c a st st' evs r s,
  u_prepare E a (do_u E c a) st = (st', evs, r) -> ua_caption a = inl s ->
  exists st1 evs1 ar concl, do_u E c a (action_options [] st) st = (st1, evs1, ar) /\
    log_of T evs = LgHeading (txt "--- " ++ txt s ++ txt " ---") :: log_of T evs1 ++ concl /\
    match ar with AErr er => exists u, error_says T er u /\ concl = [LgFatal u] | _ => concl = [] end.
Proof. intros P T E c a st st' evs r s. apply prepare_log. Qed.
Print Assumptions C91_prepare.

(** The test has failed exactly if the log says so: there is a fatal error, or a report whose
    first line has a cross. *)
Theorem C91_verdict : forall {P : Params} T E app u wall topts p st evs r,
  utesting E app u wall topts p st evs r -> r <> AHalt ->
  (forall s e, VHeading s (Some e) ∈ evs -> builtin e) ->
  (ts_failed st = true <-> exists x, x ∈ log_of T evs /\ bad x).
Proof. intros P T E app u wall topts p st evs r. apply verdict_lemma. Qed.
Print Assumptions C91_verdict.

(** With the built-in actions the log has one line for each fact that is not silent (C66), in
    the order of the facts; the fact logger cannot be an observer of the user. *)
Theorem C91_facts : forall {P : Params} T E app u wall topts captions p st evs r,
  utesting E app u wall topts (u_test (test_config app) captions p) st evs r -> OptObserver 0 ∉ unsafe topts ->
  fact_lines (log_of T evs) = concat (map (log_notify (tx_log T)) (all_facts evs)).
Proof. intros P T E app u wall topts captions p st evs r. apply log_facts_lemma. Qed.
Print Assumptions C91_facts.

(** The captions in the headings are those that the functions that build actions and
    expectations define. *)
Theorem C91_captions : forall {P : Params} T,
  (forall e x s, eval (tx_fmt T) e = inl (BExp x s) -> (forall u s', gives u s' e -> tx_caption T u = s') -> exp_caption T x = s) /\
  (forall a x s, eval_action (tx_fmt T) a = inl (x, s) -> act_caption T x = s).
Proof. intros P T. split; [intros e x s; apply exp_captions|intros a x s; apply act_captions]. Qed.
Print Assumptions C91_captions.

(** ** What user code can break *)

Definition demo_log_texts : LogTexts := {|
  lt_time := fun _ => txt "now"; lt_type := fun t => txt (snd t); lt_description := fun m => txt "message"; lt_error := fun _ => txt "error";
  lt_range := fun m => map fst (map_to_list m); lt_sort := fun l => l |}.
Definition demo_txt : Texts :=
  mkTexts (mkFmt (fun t => txt t.2) (fun s => s) (fun _ => txt "1s") (fun _ => txt "noon") inflect) demo_log_texts (fun _ => txt "to lie").

(** C91_verdict needs built-in expectations: one of the user may report that it is met
    although its Ok() says that it is not. *)
Definition lying : Exp := XUser (mkUser (fun _ => None) (fun _ _ => false) (fun _ _ cx => new_report (cx_tree cx) true (txt "lie") [])).
Definition lying_test : UProg := UExpect (custom (fun _ => UDone None)) lying (fun _ => UDone None).
Theorem C91_verdict_refuted :
  exists (P : Params) T E app u wall topts p st evs r,
    utesting E app u wall topts p st evs r /\ r <> AHalt /\ ts_failed st = true /\
    log_of T evs = [LgHeading (txt "--- expect custom to lie ---"); LgReport (banner ++ txt "✓ lie" ++ [nl])] /\
    forall x, x ∈ log_of T evs -> ~ bad x.
Proof.
  exists DemoP, demo_txt. set (x := run_u demo_env (test_config demo_app) lying_test (begin demo_app [] 100 [])).
  assert (H : log_of demo_txt x.1.2 = [LgHeading (txt "--- expect custom to lie ---"); LgReport (banner ++ txt "✓ lie" ++ [nl])]) by (vm_compute; reflexivity).
  exists demo_env, demo_app, [], 100%Z, [], lying_test, x.1.1, x.1.2, x.2. split; [exact (u_demo_testing [] lying_test)|].
  split; [vm_compute; discriminate|]. split; [vm_compute; reflexivity|]. split; [exact H|]. rewrite H. intros y Hy.
  apply elem_of_cons in Hy as [->|Hy]; [exact (fun F => F)|]. apply elem_of_list_singleton in Hy as ->. intros [rest Hr]. vm_compute in Hr. discriminate.
Qed.
Print Assumptions C91_verdict_refuted.

(** C91_facts needs the built-in actions: one that gives its options to the engine twice logs
    everything twice. *)
Definition twice_test : UProg := UPrepare (custom (fun opts => UTick (opts ++ opts) u_return)) (fun _ => UDone None).
Theorem C91_facts_refuted :
  exists (P : Params) T E app u wall topts p st evs r,
    utesting E app u wall topts p st evs r /\ OptObserver 0 ∉ unsafe topts /\
    length (fact_lines (log_of T evs)) = 2 * length (concat (map (log_notify (tx_log T)) (all_facts evs))) /\
    fact_lines (log_of T evs) <> [].
Proof.
  exists DemoP, demo_txt. set (x := run_u demo_env (test_config demo_app) twice_test (begin demo_app [] 100 [])).
  exists demo_env, demo_app, [], 100%Z, [], twice_test, x.1.1, x.1.2, x.2. split; [exact (u_demo_testing [] twice_test)|].
  split; [cbn; intros H; inversion H|]. split; [vm_compute; reflexivity|]. vm_compute. discriminate.
Qed.
Print Assumptions C91_facts_refuted.

(** ** Examples *)

Definition log_test : TProg :=
  TPrepare (ActAdvance (JBy 5)) (fun _ =>
  TExpect (ActDispatch (command "Open" 4)) (XMessage (event "Opened" 4)) (fun _ =>
  TExpect (ActDispatch (command "Open" 5)) (XNot (XType (KEvent, "Opened"%string))) (fun _ => TRet))).
Definition log_utest : UProg := u_test (test_config demo_app) (fun a => string_of_list_ascii (act_caption demo_txt a)) log_test.
Definition log_out := run_u demo_env (test_config demo_app) log_utest (begin demo_app [] 100 []).
Definition not_fact (x : Entry) : bool := match x with LgFact _ => false | _ => true end.
Example C91_example :
  List.filter not_fact (log_of demo_txt log_out.1.2) =
    [LgHeading (txt "--- advancing time by 1s ---");
     LgHeading (txt "--- expect executing Open command to record a specific 'Opened' event ---");
     LgReport (banner ++ txt "✓ record a specific 'Opened' event" ++ [nl]);
     LgHeading (txt "--- expect executing Open command not to record an event of type Opened ---");
     LgReport (banner ++ txt "✗ do not record any 'Opened' event" ++ [nl])] /\
  length (fact_lines (log_of demo_txt log_out.1.2)) = 26 /\ ts_failed log_out.1.1 = true /\ log_out.2 = AGoexit /\
  (forall s e, VHeading s (Some e) ∈ log_out.1.2 -> builtin e) /\
  utesting demo_env demo_app [] 100 [] log_utest log_out.1.1 log_out.1.2 log_out.2.
Proof.
  split; [vm_compute; reflexivity|]. split; [vm_compute; reflexivity|]. split; [vm_compute; reflexivity|]. split; [vm_compute; reflexivity|].
  split; [|exact (u_demo_testing [] log_utest)]. intros s e H.
  assert (Hf : forallb (fun ev => match ev with VHeading _ (Some (XUser _)) => false | _ => true end) log_out.1.2 = true) by (vm_compute; reflexivity).
  rewrite forallb_forall in Hf. apply elem_of_list_In, Hf in H. by destruct e.
Qed.
