(** * Theorems: messages are dispatched once, events are given to projections once. *)
From stdpp Require Import sorting.
From Verif Require Import DeliverySpec DeliveryProof OpSpec.
From Verif Require Import RecDemo.

Section Props.
Context {P : Params}.

(** C78.  Since the last Reset, no two dispatches are of messages with the same ID. *)
Theorem C78_dispatched_once (c : Config) u ops st evs fin :
  history c u ops st evs fin -> (g_next (es_g st) < 2 ^ 64)%N ->
  NoDup (e_id <$> dispatched (since_reset evs)).
Proof. exact (dispatched_nodup c u ops st evs fin). Qed.

(** C78.  No handler is engaged twice by the same message, and each is engaged only by
    messages it consumes and timeouts it scheduled. *)
Theorem C78_engaged_once (c : Config) u ops st evs fin h :
  history c u ops st evs fin -> (g_next (es_g st) < 2 ^ 64)%N -> h ∈ c_app c ->
  NoDup (e_id <$> engaged_by (h_id h) (since_reset evs)) /\
  Forall (fun e => m_type (e_msg e) ∈ h_consumed h \/ exists i r env, TimeoutScheduledByProcess (h_id h) i r env e ∈ since_reset evs)
    (engaged_by (h_id h) (since_reset evs)).
Proof. exact (handler_engaged c u ops st evs fin h). Qed.

(** C78.  No projection is engaged twice by the same event, and only by events it
    consumes. *)
Theorem C78_projections_engaged_once (c : Config) u ops st evs fin h j :
  history c u ops st evs fin -> (g_next (es_g st) < 2 ^ 64)%N -> h ∈ c_app c -> h_impl h = ImplProj j ->
  NoDup (e_id <$> engaged_by (h_id h) (since_reset evs)) /\
  Forall (fun e => m_type (e_msg e) ∈ h_consumed h) (engaged_by (h_id h) (since_reset evs)).
Proof. exact (projection_engaged c u ops st evs fin h j). Qed.

(** C30.  Consider a projection that records the calls it receives in a part of the
    user's world that nobody else touches, whose ResourceVersion() knows only
    resources that were passed to HandleEvent(), and which is forgotten by Reset.
    Then the events passed to HandleEvent() since the last Reset are those for which
    the projection was engaged, each of them once, in this order, with the empty
    version as the current one. *)
Theorem C30_every_event_is_given_once (calls : U -> list Call) (c : Config) h j u ops st evs fin :
  history c u ops st evs fin -> (g_next (es_g st) < 2 ^ 64)%N ->
  h ∈ c_app c -> h_impl h = ImplProj j ->
  recording calls j -> forthright calls c j u ops -> private calls c h ops ->
  (c_compact c = true -> forall now, calm (pj_compact j now)) ->
  given (calls (g_user (es_g st))) =
    (fun e => (e_id e, e_created e, e_msg e)) <$> engaged_by (h_id h) (since_reset evs) /\
  NoDup (e_id <$> engaged_by (h_id h) (since_reset evs)) /\
  (forall id cur next t m, CHandle id cur next t m ∈ calls (g_user (es_g st)) -> cur = "" /\ next <> "").
Proof.
  exact (fun H Hn Hin Hj Hr Hf Hp Hc => C30_lemma calls c h j ops u Hin Hj Hr Hf Hc Hp (proj1 H) st evs fin H Hn).
Qed.
End Props.

Print Assumptions C78_dispatched_once.
Print Assumptions C78_engaged_once.
Print Assumptions C78_projections_engaged_once.
Print Assumptions C30_every_event_is_given_once.

(** ** The hypotheses can be met *)

(** An integration that records two events for each command, and the recording
    projection, which also compacts during handling. *)
Definition source : IntImpl := {|
  in_handle m := IRecord (mkBody "E" (b_data (m_body m)) None) (fun _ =>
                 IRecord (mkBody "E" (S (b_data (m_body m))) None) (fun _ => IRet None)) |}.
Definition hSource := mkHandler "source" (ImplInt source) [(KCommand, "Go")] [(KEvent, "E")] false.
Definition feed : Config := mkConfig [hSource; hRec] true [fun _ => []].

Definition by_time (a b : Env) : Prop := (e_sched a <= e_sched b)%Z.
#[local] Instance by_time_dec : RelDecision by_time.
Proof. intros a b. unfold by_time. apply _. Defined.
#[local] Instance by_time_trans : Transitive by_time.
Proof. intros a b d. unfold by_time. lia. Qed.
#[local] Instance by_time_total : Total by_time.
Proof. intros a b. unfold by_time. lia. Qed.
Definition mixing : Oracle :=
  mkOracle (fun _ => None) (fun _ => None) (fun _ => 0%N) Nat.even (merge_sort by_time) 0.
Lemma mixing_ok : sort_ok mixing.
Proof.
  intros l. split; [apply (merge_sort_Permutation by_time)|]. apply (StronglySorted_merge_sort by_time).
Qed.

Definition go (d : nat) : Op := OpDispatch mixing 20 (mkMsg KCommand (mkBody "Go" d None)) [OptNow 100].
Definition tell (d : nat) : Op := OpDispatch mixing 20 (mkMsg KEvent (mkBody "E" d None)) [OptNow 200].
Definition feed_tick : Op := OpTick mixing 20 [hRec; hSource] [OptNow (Z.of_nat 2 * hour)].
Definition feed_ops : list Op := [go 1; OpReset; go 3; feed_tick; tell 8].
Definition feed_run := run_ops feed feed_ops (e_init feed []).

Lemma feed_ok : app_ok feed.
Proof.
  split; [repeat constructor; set_solver|]. intros h Hh.
  apply elem_of_cons in Hh as [->|Hh]; [|apply elem_of_list_singleton in Hh as ->]; cbn; (split; [|try done]);
    intros t Ht; apply elem_of_list_singleton in Ht as ->; done.
Qed.
Lemma feed_ops_ok : Forall (op_ok feed) feed_ops.
Proof.
  repeat constructor; try exact (proj1 (mixing_ok _)); try exact (proj2 (mixing_ok _)).
Qed.
Lemma feed_private : private calls feed hRec feed_ops.
Proof.
  split.
  - intros h' Hh Hne. apply elem_of_cons in Hh as [->|Hh]; [|apply elem_of_list_singleton in Hh as ->; destruct (Hne eq_refl)].
    intros m. apply il_record. intros _. apply il_record. intros _. constructor.
  - intros f Hf. unfold feed_ops in Hf.
    repeat (apply elem_of_cons in Hf as [Hf|Hf]; [discriminate Hf|]). apply elem_of_nil in Hf. done.
Qed.
Lemma feed_forthright : forthright calls feed recorder [] feed_ops.
Proof.
  split; [|split].
  - intros id u Hn. cbn. destruct (existsb (handled_before id) u) eqn:E; [|done]. exfalso. apply Hn.
    apply existsb_exists in E as (r & Hr & E). destruct r as [|id' cur next t k n d inv| | | |]; try discriminate E.
    apply bool_decide_eq_true in E as ->. exists cur, next, t. eexists.
    apply elem_of_list_In. apply (in_map call) in Hr. exact Hr.
  - intros id (cur & next & t & m & Hk). apply elem_of_nil in Hk. done.
  - intros _ u id (cur & next & t & m & Hk). apply elem_of_nil in Hk. done.
Qed.
Lemma feed_calm now : calm (pj_compact recorder now).
Proof. apply ca_act. intros _. apply ca_log. apply ca_act. intros _. apply ca_ret. Qed.

(** Three events since Reset, and a message that is not an event. *)
Example C30_example :
  let st := feed_run.1.1 in let evs := feed_run.1.2 in
  history feed [] feed_ops st evs true /\ (g_next (es_g st) < 2 ^ 64)%N /\
  given (calls (g_user (es_g st))) =
    [("2", 100%Z, mkMsg KEvent (mkBody "E" 3 None)); ("3", 100%Z, mkMsg KEvent (mkBody "E" 4 None));
     ("4", 200%Z, mkMsg KEvent (mkBody "E" 8 None))] /\
  (e_id <$> dispatched (since_reset evs)) = ["1"; "2"; "3"; "4"].
Proof.
  cbv zeta.
  assert (H : feed_run.2 = true) by (vm_compute; reflexivity).
  split; [split; [exact feed_ok|]; split; [exact feed_ops_ok|]; unfold feed_run in *;
    destruct (run_ops feed feed_ops (e_init feed [])) as [[st evs] fin]; cbn in *; subst; done|].
  split; [vm_compute; reflexivity|]. split; vm_compute; reflexivity.
Qed.
Example C30_example_hypotheses :
  hRec ∈ c_app feed /\ recording calls recorder /\ forthright calls feed recorder [] feed_ops /\
  private calls feed hRec feed_ops /\ (c_compact feed = true /\ forall now, calm (pj_compact recorder now)).
Proof.
  split; [right; left|]. split; [exact recorder_ok|]. split; [exact feed_forthright|].
  split; [exact feed_private|]. split; [done|exact feed_calm].
Qed.
