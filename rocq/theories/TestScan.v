(** * A machine that reads what is observed of a test, and the proof that every test is
    accepted by it. *)
From Verif Require Export TestSpec OpFacts EngineFacts.
From Coq Require Import Lia.

Section Scan.
Context {P : Params}.

Record Abs := mkAbs {
  ab_clock : Z; ab_en : list (string * bool); ab_stack : list (AKind * list OOpt);
  ab_bound : option (list OOpt); ab_obs : option nat; ab_next : nat; ab_eng : EState; ab_live : bool; ab_failed : bool }.
Definition hopts (l : list (string * bool)) : list OOpt := map (fun x => OptHandler x.1 x.2) l.
Definition eopts (o : option nat) : list OOpt := match o with Some n => [OptObserver n] | None => [] end.

Section Machine.
Context (c : Config) (B : list OOpt).

Definition ab_opts (a : Abs) : list OOpt := OptNow (ab_clock a) :: (B ++ hopts (ab_en a)) ++ eopts (ab_obs a).

Definition a_do (k : AKind) (a : Abs) : Abs :=
  mkAbs (ab_clock a) (ab_en a) ((k, ab_opts a) :: ab_stack a)
    (match k with AkCall => Some (ab_opts a) | _ => ab_bound a end) None (ab_next a) (ab_eng a) (ab_live a) (ab_failed a).
Definition a_did (k : AKind) (s : list (AKind * list OOpt)) (a : Abs) : Abs :=
  mkAbs (ab_clock a) (ab_en a) s (match k with AkCall => None | _ => ab_bound a end) (ab_obs a) (ab_next a) (ab_eng a) (ab_live a) (ab_failed a).
Definition a_eng (e : EState) (live : bool) (a : Abs) : Abs :=
  mkAbs (ab_clock a) (ab_en a) (ab_stack a) (ab_bound a) (ab_obs a) (ab_next a) e live (ab_failed a).
Definition a_clock (t : Z) (a : Abs) : Abs :=
  mkAbs t (ab_en a) (ab_stack a) (ab_bound a) (ab_obs a) (ab_next a) (ab_eng a) (ab_live a) (ab_failed a).
Definition a_enable (n : string) (b : bool) (a : Abs) : Abs :=
  mkAbs (ab_clock a) (ab_en a ++ [(n, b)]) (ab_stack a) (ab_bound a) (ab_obs a) (ab_next a) (ab_eng a) (ab_live a) (ab_failed a).
Definition a_pred (a : Abs) : Abs :=
  mkAbs (ab_clock a) (ab_en a) (ab_stack a) (ab_bound a) (Some (ab_next a)) (S (ab_next a)) (ab_eng a) (ab_live a) (ab_failed a).

Definition a_fail (a : Abs) : Abs :=
  mkAbs (ab_clock a) (ab_en a) (ab_stack a) (ab_bound a) (ab_obs a) (ab_next a) (ab_eng a) (ab_live a) true.

(** The options of the operations of the innermost action. *)
Definition performed (a : Abs) (op : Op) : Prop :=
  exists opts s, ab_stack a = (AkDispatch, opts) :: s /\ (exists o fuel m, op = OpDispatch o fuel m opts) \/
    ab_stack a = (AkAdvance, opts) :: s /\ (exists o fuel order, op = OpTick o fuel order (opts ++ [OptNow (ab_clock a)])) \/
    ab_stack a = (AkCall, opts) :: s /\ ab_bound a = Some opts /\ (exists o fuel b, op = OpDispatch o fuel (mkMsg KCommand b) opts).

Inductive Step : Abs -> TEv -> Abs -> Prop :=
| st_do a k : Step a (TvDo k) (a_do k a)
| st_did a k opts s : ab_stack a = (k, opts) :: s -> Step a (TvDid k) (a_did k s a)
| st_op a op fs e r : ab_live a = true -> performed a op -> op_ok c op -> run_op c op (ab_eng a) = (e, EvFact <$> fs, r) ->
    Step a (TvOp op fs) (a_eng e (match r with Fuel => false | _ => true end) a)
| st_user a f : ab_live a = true -> Step a (TvUser f) (a_eng (es_set_g (ab_eng a) (g_act f (es_g (ab_eng a)))) true a)
| st_clock a t opts s : ab_stack a = (AkAdvance, opts) :: s -> (ab_clock a <= t)%Z -> Step a (TvClock t) (a_clock t a)
| st_execute a b opts s : ab_stack a = (AkCall, opts) :: s -> ab_bound a = Some opts -> Step a (TvExecute b) a
| st_outside a b : ab_bound a = None -> Step a (TvOutside b) a
| st_enable a n b h : controllers c !! n = Some h -> (b = true -> h_disabled h = false) -> Step a (TvEnable n b) (a_enable n b a)
| st_annotate a x : Step a (TvAnnotate x) a
| st_predicate a : Step a TvPredicate (a_pred a)
| st_final a : Step a TvFinal a
| st_report a r : Step a (TvReport r) a
| st_fatal a e : Step a (TvFatal e) (a_fail a)
| st_failnow a : Step a TvFailNow (a_fail a).

Inductive Scan : Abs -> list TEv -> Abs -> Prop :=
| sc_nil a : Scan a [] a
| sc_cons a ev a' l a'' : Step a ev a' -> Scan a' l a'' -> Scan a (ev :: l) a''.

Lemma scan_app a l l' a'' : Scan a (l ++ l') a'' <-> exists a', Scan a l a' /\ Scan a' l' a''.
Proof.
  split.
  - revert a. induction l as [|ev l IH]; cbn; intros a H; [exists a; split; [constructor|done]|].
    inversion H; subst; edestruct IH as (a9 & H1 & H2); [eassumption|]. exists a9. split; [econstructor; eassumption|done].
  - intros (a' & H1 & H2). induction H1; cbn; [done|]. econstructor; [eassumption|]. by apply IHScan.
Qed.
Lemma scan_one a ev a' : Step a ev a' -> Scan a [ev] a'.
Proof. intros. econstructor; [eassumption|constructor]. Qed.
End Machine.

(** ** Tests are accepted *)

Section Accept.
Context (E : TEnv) (c : Config) (B : list OOpt) (Hok : env_ok E c).

Record Rel (a : Abs) (st : TState) : Prop := mkRel {
  rel_clock : ab_clock a = ts_clock st;
  rel_opts : ts_opts st = B ++ hopts (ab_en a);
  rel_bound : ab_bound a = ts_bound st;
  rel_next : ab_next a = ts_next st;
  rel_eng : ab_eng a = ts_eng st;
  rel_live : ab_live a = true;
  rel_failed : ab_failed a = ts_failed st }.

Notation Scan := (Scan c B).
Notation Step := (Step c B).

Definition coherent (a : Abs) : Prop :=
  ab_bound a = None \/ exists opts s, ab_stack a = (AkCall, opts) :: s /\ ab_bound a = Some opts.

(** The machine is where it was, except that the executor may have been unbound. *)
Definition back (a a' : Abs) : Prop :=
  ab_stack a' = ab_stack a /\ ab_obs a' = None /\ (ab_bound a' = ab_bound a \/ ab_bound a' = None) /\ ab_next a <= ab_next a'.
Lemma back_refl a : ab_obs a = None -> back a a.
Proof. unfold back. auto. Qed.
Lemma back_trans a b d : back a b -> back b d -> back a d.
Proof. intros (H1 & H2 & H3 & H4) (H5 & H6 & H7 & H8). split; [congruence|]. split; [done|]. split; [|lia]. destruct H7, H3; [left|right..]; congruence. Qed.
Lemma coherent_back a a' : coherent a -> back a a' -> coherent a'.
Proof.
  intros Hc (H1 & _ & [H3|H3] & _); [|left; done]. destruct Hc as [Hc|(opts & s & Hs & Hb)]; [left; congruence|right].
  exists opts, s. split; congruence.
Qed.

Lemma facts_run op e : match op with OpReset => False | _ => True end ->
  let '(e', evs, r) := run_op c op e in evs = EvFact <$> ev_facts evs.
Proof.
  intros Hn. destruct op; cbn [run_op]; [| |done|done].
  - destruct (e_dispatch _ _ _ _ _ _) as [[? fs] ?]. unfold ev_facts. induction fs; cbn; [done|]. by f_equal.
  - destruct (e_tick _ _ _ _ _ _) as [[? fs] ?]. unfold ev_facts. induction fs; cbn; [done|]. by f_equal.
Qed.

Lemma engine_op_ok mk st a st' evs r :
  (forall o fuel order, match mk o fuel order with OpReset => False | _ => True end) ->
  (forall o fuel order, sort_ok o -> order ≡ₚ c_app c -> op_ok c (mk o fuel order)) ->
  (forall o fuel order, performed a (mk o fuel order)) ->
  Rel a st -> engine_op E c mk st = (st', evs, r) ->
  exists a', Scan a evs a' /\ (r <> AHalt -> Rel a' st') /\ ab_stack a' = ab_stack a /\ ab_obs a' = ab_obs a /\ ab_bound a' = ab_bound a /\ ab_next a' = ab_next a.
Proof.
  intros Hn Hop Hp HR. unfold engine_op. set (op := mk _ _ _). destruct (run_op c op (ts_eng st)) as [[es ev] res] eqn:Er.
  intros [= <- <- <-].
  assert (Hf := facts_run op (ts_eng st) (Hn _ _ _)). rewrite Er in Hf.
  destruct HR as [H1 H2 H3 H4 H5 H6 H7].
  eexists. split.
  - apply scan_one. eapply st_op; [done|apply Hp|apply Hop; apply Hok|]. rewrite H5, <- Hf. exact Er.
  - cbn. split; [|done]. intros Hh. split; cbn; try done. by destruct res.
Qed.

Lemma execute_ok opts s b st a st' evs r :
  ab_stack a = (AkCall, opts) :: s -> ab_bound a = Some opts ->
  Rel a st -> engine_execute E c opts b st = (st', evs, r) ->
  exists a', Scan a evs a' /\ (r <> AHalt -> Rel a' st') /\ ab_stack a' = ab_stack a /\ ab_obs a' = ab_obs a /\ ab_bound a' = ab_bound a /\ ab_next a' = ab_next a.
Proof.
  intros Hs Hb HR He. refine (engine_op_ok _ _ a _ _ _ _ _ _ HR He); [done|done|].
  intros. exists opts, s. right. right. split; [done|]. split; [done|]. by repeat eexists.
Qed.

Lemma icpt_ok opts s p : forall st a st' evs r,
  ab_stack a = (AkCall, opts) :: s -> ab_bound a = Some opts ->
  Rel a st -> run_icpt E c opts p st = (st', evs, r) ->
  exists a', Scan a evs a' /\ (r <> AHalt -> Rel a' st') /\ ab_stack a' = ab_stack a /\ ab_obs a' = ab_obs a /\ ab_bound a' = ab_bound a /\ ab_next a' = ab_next a.
Proof.
  induction p as [[e|]|v|f k IH|b k IH]; intros st a st' evs r Hs Hb HR; cbn [run_icpt].
  - intros [= <- <- <-]. exists a. split; [constructor|done].
  - intros [= <- <- <-]. exists a. split; [constructor|done].
  - intros [= <- <- <-]. exists a. split; [constructor|done].
  - destruct (run_icpt _ _ _ _ _) as [[st1 evs1] r1] eqn:Er. intros [= <- <- <-].
    destruct HR as [H1 H2 H3 H4 H5 H6 H7].
    eapply (IH _ _ (a_eng (es_set_g (ab_eng a) (g_act f (es_g (ab_eng a)))) true a)) in Er as (a' & HS & HR' & H'); [|done|done|by rewrite H5].
    exists a'. split; [|done]. econstructor; [by apply st_user|exact HS].
  - destruct (engine_execute _ _ _ _ _) as [[st1 evs1] r1] eqn:Ex.
    destruct (execute_ok _ _ _ _ _ _ _ _ Hs Hb HR Ex) as (a1 & HS1 & HR1 & Hs1 & Ho1 & Hb1 & Hn1).
    destruct (x_res r1) as [x|] eqn:Exr; [|intros [= <- <- <-]; by exists a1].
    destruct (run_icpt _ _ _ _ _) as [[st2 evs2] r2] eqn:Er. intros [= <- <- <-].
    eapply (IH _ _ a1) in Er as (a2 & HS2 & HR2 & Hs2 & Ho2 & Hb2 & Hn2); [|congruence..|apply HR1; by destruct r1].
    exists a2. split; [apply scan_app; eauto|]. split; [done|]. split_and!; congruence.
Qed.

Lemma command_ok b st a st' evs r :
  coherent a -> Rel a st -> execute_command E c b st = (st', evs, r) ->
  exists a', Scan a evs a' /\ (r <> AHalt -> Rel a' st') /\ ab_stack a' = ab_stack a /\ ab_obs a' = ab_obs a /\ ab_bound a' = ab_bound a /\ ab_next a' = ab_next a.
Proof.
  intros Hc HR. unfold execute_command. destruct (ts_bound st) as [opts|] eqn:Eb.
  - assert (Hb : ab_bound a = Some opts) by (rewrite (rel_bound _ _ HR); done).
    destruct Hc as [Hc|(opts' & s & Hs & Hb')]; [congruence|]. assert (opts' = opts) as -> by congruence.
    destruct (ts_icpt st) as [i|].
    + destruct (run_icpt _ _ _ _ _) as [[st1 evs1] r1] eqn:Ex. intros [= <- <- <-].
      destruct (icpt_ok _ _ _ _ _ _ _ _ Hs Hb HR Ex) as (a1 & HS1 & H1). exists a1. split; [|done].
      econstructor; [eapply st_execute; eassumption|done].
    + destruct (engine_execute _ _ _ _ _) as [[st1 evs1] r1] eqn:Ex. intros [= <- <- <-].
      destruct (execute_ok _ _ _ _ _ _ _ _ Hs Hb HR Ex) as (a1 & HS1 & H1). exists a1. split; [|done].
      econstructor; [eapply st_execute; eassumption|done].
  - intros [= <- <- <-]. exists a. split; [|done]. apply scan_one. constructor. rewrite (rel_bound _ _ HR). done.
Qed.

Lemma enable_ok names b : forall st a st' evs r,
  ab_obs a = None -> Rel a st -> enable_handlers c names b st = (st', evs, r) ->
  exists a', Scan a evs a' /\ Rel a' st' /\ back a a'.
Proof.
  induction names as [|n names IH]; intros st a st' evs r Ho HR; cbn [enable_handlers].
  - intros [= <- <- _]. exists a. split; [constructor|]. split; [done|by apply back_refl].
  - destruct (controllers c !! n) as [h|] eqn:Eh.
    2:{ intros [= <- <- _]. exists a. split; [constructor|]. split; [done|by apply back_refl]. }
    destruct (b && h_disabled h) eqn:Ed.
    { intros [= <- <- _]. exists a. split; [constructor|]. split; [done|by apply back_refl]. }
    destruct (enable_handlers _ _ _ _) as [[st1 evs1] r1] eqn:Ex. intros [= <- <- _].
    destruct HR as [H1 H2 H3 H4 H5 H6 H7].
    eapply (IH _ (a_enable n b a)) in Ex as (a' & HS & HR' & Hb); [|done|].
    + exists a'. split; [|split; [done|exact Hb]]. econstructor; [|exact HS].
      eapply st_enable; [exact Eh|]. intros ->. by destruct (h_disabled h).
    + split; cbn; [done| |done..]. unfold hopts. rewrite H2, map_app, <- app_assoc. done.
Qed.

Lemma match_handlers_names pats : forall acc names n,
  match_handlers c pats acc = inl names -> n ∈ names -> n ∈ acc \/ exists h, h ∈ c_app c /\ h_name h = n /\ h_disabled h = false.
Proof.
  induction pats as [|[m|] pats IH]; cbn [match_handlers]; intros acc names n; [intros [= <-]; by left| |done].
  destruct (map _ _) as [|x l] eqn:El; [done|]. intros H Hn. apply (IH _ _ n) in H; [|done]. destruct H as [H|H]; [|by right].
  rewrite <- El in H. apply elem_of_app in H as [H|H]; [by left|]. right.
  apply elem_of_list_In, in_map_iff in H as (h & Hh & Hin). apply filter_In in Hin as [Hin Hp]. exists h.
  split; [by apply elem_of_list_In|]. split; [done|]. by destruct (h_disabled h).
Qed.

Lemma enables_ok names b : forall st a,
  (forall n, n ∈ names -> exists h, controllers c !! n = Some h /\ h_disabled h = false) ->
  ab_obs a = None -> Rel a st ->
  exists a', Scan a (map (fun n => TvEnable n b) names) a' /\
    Rel a' (set_opts (ts_opts st ++ map (fun n => OptHandler n b) names) st) /\ back a a'.
Proof.
  induction names as [|n names IH]; intros st a Hn Ho [H1 H2 H3 H4 H5 H6 H7].
  - exists a. split; [constructor|]. split; [|by apply back_refl]. split; cbn; try done. by rewrite app_nil_r.
  - destruct (Hn n ltac:(left)) as (h & Hh & Hd).
    destruct (IH (set_opts (ts_opts st ++ [OptHandler n b]) st) (a_enable n b a)) as (a' & HS & HR' & Hb).
    + intros n' Hin. apply Hn. by right.
    + done.
    + split; cbn; [done| |done..]. unfold hopts. rewrite H2, map_app, <- app_assoc. done.
    + exists a'. split; [econstructor; [eapply st_enable; [exact Hh|done]|exact HS]|]. split; [|exact Hb].
      destruct HR' as [R1 R2 R3 R4 R5 R6 R7]. split; cbn in *; try done. rewrite <- R2, <- app_assoc. done.
Qed.

Lemma enable_like_ok pats b st a st' evs r :
  app_ok c -> ab_obs a = None -> Rel a st -> enable_handlers_like E c pats b st = (st', evs, r) ->
  exists a', Scan a evs a' /\ Rel a' st' /\ back a a'.
Proof.
  intros Ha Ho HR. unfold enable_handlers_like. destruct (match_handlers c pats []) as [names|v] eqn:Em.
  2:{ intros [= <- <- _]. exists a. split; [constructor|]. split; [done|by apply back_refl]. }
  intros [= <- <- _]. apply enables_ok; [|done..]. intros n Hn. destruct Hok as (_ & _ & Hsh). rewrite Hsh in Hn.
  rewrite elem_of_remove_dups in Hn. destruct (match_handlers_names _ _ _ _ Em Hn) as [Hx|(h & Hin & <- & Hd)]; [inversion Hx|].
  exists h. split; [|done]. by apply controllers_complete.
Qed.

Definition action_accepted (act : list OOpt -> TState -> TState * list TEv * AOut) : Prop :=
  forall st a st' evs r, Rel a st -> coherent a -> act (action_options (eopts (ab_obs a)) st) st = (st', evs, r) ->
  exists a', Scan a evs a' /\ (r <> AHalt -> Rel a' st' /\ back a a').
Definition code_accepted (run : TState -> TState * list TEv * TOut) : Prop :=
  forall st a st' evs r, Rel a st -> coherent a -> ab_obs a = None -> run st = (st', evs, r) ->
  exists a', Scan a evs a' /\ (r <> Halted -> Rel a' st' /\ back a a').

Lemma opts_rel a st : Rel a st -> action_options (eopts (ab_obs a)) st = ab_opts B a.
Proof. intros [H1 H2 _ _ _ _ _]. unfold action_options, ab_opts. by rewrite H1, H2. Qed.

Lemma rel_do k a st : Rel a st -> k <> AkCall -> Rel (a_do B k a) st /\ ab_stack (a_do B k a) = (k, ab_opts B a) :: ab_stack a.
Proof. intros [H1 H2 H3 H4 H5 H6 H7] Hk. split; [|done]. split; cbn; try done. destruct k; done. Qed.

Lemma halt_did (r : AOut) k : (r = AHalt /\ (match r with AHalt => [] | _ => [TvDid k] end) = []) \/
                        (r <> AHalt /\ (match r with AHalt => [] | _ => [TvDid k] end) = [TvDid k]).
Proof. destruct r; auto. Qed.

Lemma bracket_ok k opts s a a1 st1 evs1 r :
  ab_stack a = s -> ab_stack a1 = (k, opts) :: s -> Scan (a_do B k a) evs1 a1 -> (r <> AHalt -> Rel (a_did k s a1) st1 /\ ab_obs a1 = None /\ ab_next a <= ab_next a1 /\ (k <> AkCall -> ab_bound a1 = ab_bound a)) ->
  exists a', Scan a (TvDo k :: evs1 ++ match r with AHalt => [] | _ => [TvDid k] end) a' /\ (r <> AHalt -> Rel a' st1 /\ back a a').
Proof.
  intros Hs Hs1 HS HR. destruct (halt_did r k) as [[Hr ->]|[Hr ->]].
  - exists a1. rewrite app_nil_r. split; [|done]. econstructor; [constructor|done].
  - exists (a_did k s a1). split.
    + econstructor; [constructor|]. apply scan_app. exists a1. split; [done|]. apply scan_one. econstructor. exact Hs1.
    + intros _. destruct (HR Hr) as (H1 & H2 & H3 & H4). split; [done|]. split; [done|]. split; [done|]. split; [|done]. cbn.
      destruct k; [left; by apply H4..|by right].
Qed.

Lemma dispatch_ok m : action_accepted (fun opts st => bracket AkDispatch (do_dispatch E c m opts st)).
Proof.
  intros st a st' evs r HR Hc. rewrite (opts_rel _ _ HR). unfold bracket.
  destruct (do_dispatch _ _ _ _ _) as [[st1 evs1] r1] eqn:Ed. intros [= <- <- <-].
  assert (exists a1, Scan (a_do B AkDispatch a) evs1 a1 /\ ab_stack a1 = (AkDispatch, ab_opts B a) :: ab_stack a /\
            ((r1 <> AHalt -> Rel a1 st1) /\ ab_obs a1 = None /\ ab_next a <= ab_next a1 /\ ab_bound a1 = ab_bound a)) as (a1 & HS & Hs & HR1 & Ho & Hn & Hb).
  { destruct (rel_do AkDispatch a st HR ltac:(done)) as [HR0 Hs0]. unfold do_dispatch in Ed. destruct (app_types c (m_type m)).
    - eapply engine_op_ok in Ed as (a1 & HS & HR1 & Hs1 & Ho1 & Hb1 & Hn1); [| | | |exact HR0].
      + exists a1. split; [done|]. split; [by rewrite Hs1|]. split; [done|]. split; [by rewrite Ho1|]. split; [by rewrite Hn1|by rewrite Hb1].
      + done.
      + done.
      + intros. exists (ab_opts B a), (ab_stack a). left. split; [done|]. by repeat eexists.
    - injection Ed as <- <- <-. exists (a_do B AkDispatch a). split; [constructor|]. done. }
  eapply bracket_ok; [done|exact Hs|exact HS|]. intros Hr. split_and!; try done. by destruct (HR1 Hr).
Qed.

Lemma advance_ok step : action_accepted (fun opts st => bracket AkAdvance (do_advance E c step opts st)).
Proof.
  intros st a st' evs r HR Hc. rewrite (opts_rel _ _ HR). unfold bracket.
  destruct (do_advance _ _ _ _ _) as [[st1 evs1] r1] eqn:Ed. intros [= <- <- <-].
  assert (exists a1, Scan (a_do B AkAdvance a) evs1 a1 /\ ab_stack a1 = (AkAdvance, ab_opts B a) :: ab_stack a /\
            ((r1 <> AHalt -> Rel a1 st1) /\ ab_obs a1 = None /\ ab_next a <= ab_next a1 /\ ab_bound a1 = ab_bound a)) as (a1 & HS & Hs & HR1 & Ho & Hn & Hb).
  { destruct (rel_do AkAdvance a st HR ltac:(done)) as [HR0 Hs0]. unfold do_advance in Ed. destruct (adj_step step (ts_clock st)) as [now|v].
    2:{ injection Ed as <- <- <-. exists (a_do B AkAdvance a). split; [constructor|]. done. }
    destruct (Z.ltb_spec now (ts_clock st)) as [Hlt|Hge].
    { injection Ed as <- <- <-. exists (a_do B AkAdvance a). split; [constructor|]. done. }
    destruct (engine_op _ _ _ _) as [[st2 evs2] r2] eqn:Ee. injection Ed as <- <- <-.
    eapply (engine_op_ok _ _ (a_clock now (a_do B AkAdvance a))) in Ee as (a1 & HS & HR1 & Hs1 & Ho1 & Hb1 & Hn1).
    - exists a1. split; [|split; [by rewrite Hs1|]; split; [done|]; split; [by rewrite Ho1|]; split; [by rewrite Hn1|by rewrite Hb1]].
      econstructor; [|exact HS]. econstructor; [done|]. cbn. rewrite (rel_clock _ _ HR). lia.
    - done.
    - done.
    - intros. exists (ab_opts B a), (ab_stack a). right. left. split; [done|]. by repeat eexists.
    - by destruct HR0. }
  eapply bracket_ok; [done|exact Hs|exact HS|]. intros Hr. split_and!; try done. by destruct (HR1 Hr).
Qed.

Lemma call_ok run i : code_accepted run -> action_accepted (fun opts st => bracket AkCall (do_call run i opts st)).
Proof.
  intros Hrun st a st' evs r HR Hc. rewrite (opts_rel _ _ HR). unfold bracket.
  destruct (do_call _ _ _ _) as [[st1 evs1] r1] eqn:Ed. intros [= <- <- <-].
  unfold do_call in Ed. destruct (run _) as [[st2 evs2] r2] eqn:Er.
  destruct HR as [H1 H2 H3 H4 H5 H6 H7].
  eapply (Hrun _ (a_do B AkCall a)) in Er as (a1 & HS & HR1).
  - assert (Hf : r1 <> AHalt -> r2 <> Halted) by (destruct r2; injection Ed as <- <- <-; done).
    assert (Hst : r1 <> AHalt -> st1 = set_bound None (match i with Some _ => set_icpt (ts_icpt st) st2 | None => st2 end)).
    { intros Hr. destruct r2; injection Ed as <- <- <-; try done; destruct i; done. }
    assert (evs1 = evs2) as -> by (destruct r2; injection Ed as <- <- <-; done).
    destruct (halt_did r1 AkCall) as [[Hr ->]|[Hr ->]].
    + exists a1. rewrite app_nil_r. split; [|done]. econstructor; [constructor|done].
    + destruct (HR1 (Hf Hr)) as (HR2 & Hs & Ho & Hb & Hn). exists (a_did AkCall (ab_stack a) a1). split.
      * econstructor; [constructor|]. apply scan_app. exists a1. split; [done|]. apply scan_one. econstructor. rewrite Hs. done.
      * intros _. split; [|split; [done|]; split; [done|]; split; [by right|done]]. rewrite (Hst Hr). destruct HR2 as [R1 R2 R3 R4 R5 R6 R7].
        destruct i; split; cbn; done.
  - destruct i; split; cbn; done.
  - right. by exists (ab_opts B a), (ab_stack a).
  - done.
Qed.

Lemma fatal_ok e a : Scan a [TvFatal e] (a_fail a). Proof. apply scan_one. constructor. Qed.

Lemma rel_fail a st : Rel a st -> Rel (a_fail a) (set_failed st).
Proof. by intros [H1 H2 H3 H4 H5 H6 H7]. Qed.

Lemma prepare_ok act : action_accepted act -> code_accepted (prepare E act).
Proof.
  intros Ha st a st' evs r HR Hc Ho. unfold prepare. destruct (act _ _) as [[st1 evs1] r1] eqn:Ea.
  specialize (Ha st a). rewrite Ho in Ha. destruct (Ha _ _ _ HR Hc Ea) as (a1 & HS & H1).
  destruct r1; cbn [fatal]; intros [= <- <- <-]; try (exists a1; split; [done|intros _; by apply H1]).
  - exists (a_fail a1). split; [apply scan_app; exists a1; split; [done|apply fatal_ok]|]. intros _. destruct (H1 ltac:(done)) as [HR1 Hb].
    split; [by apply rel_fail|done].
  - exists a1. split; [done|]. done.
Qed.

Lemma expect_ok k act e : action_accepted act -> code_accepted (expect E c k act e).
Proof.
  intros Ha st a st' evs r HR Hc Ho. unfold expect. destruct (new_predicate _ _) as [p|er].
  2:{ intros [= <- <- <-]. exists (a_fail a). split; [apply fatal_ok|]. intros _. split; [by apply rel_fail|by apply (back_refl (a_fail a))]. }
  destruct (act _ _) as [[st1 evs1] r1] eqn:Ea.
  assert (HR0 : Rel (a_pred a) (set_next (S (ts_next st)) st)) by (destruct HR as [H1 H2 H3 H4 H5 H6 H7]; split; cbn; [done|done|done|by rewrite H4|done|done|done]).
  assert (Hc0 : coherent (a_pred a)) by done.
  specialize (Ha _ (a_pred a) st1 evs1 r1 HR0 Hc0). cbn in Ha.
  assert (Hact : action_options [OptObserver (ab_next a)] (set_next (S (ts_next st)) st) = action_options [OptObserver (ts_next st)] st)
    by (destruct HR as [H1 H2 H3 H4 H5 H6 H7]; unfold action_options; cbn; by rewrite H4).
  rewrite Hact in Ha. destruct (Ha Ea) as (a1 & HS & H1).
  assert (HS1 : Scan a (TvPredicate :: evs1) a1) by (econstructor; [constructor|done]).
  assert (HS2 : Scan a (TvPredicate :: evs1 ++ [TvFinal]) a1) by (rewrite app_comm_cons; apply scan_app; exists a1; split; [done|apply scan_one; constructor]).
  assert (Hb : r1 <> AHalt -> Rel a1 st1 /\ back a a1).
  { intros Hr. destruct (H1 Hr) as (R & B1 & B2 & B3 & B4). split; [done|]. split; [done|]. split; [done|]. split; [done|]. cbn in B4. lia. }
  destruct (p_done _) as [p1 dp].
  assert (Hx : forall x a2, Step a1 x a2 -> Scan a ((TvPredicate :: evs1 ++ [TvFinal]) ++ [x]) a2).
  { intros x a2 Hx. apply scan_app. exists a1. split; [done|by apply scan_one]. }
  destruct r1; [| | | |intros [= <- <- <-]; exists a1; done]; specialize (Hb ltac:(done)) as [HR1 Hbk];
    (destruct dp as [dv|]; [intros [= <- <- <-]; exists a1; done|]).
  - destruct (p_ok p1); cbn [fail_now]; intros [= <- <- <-].
    + exists a1. split; [apply (Hx (TvReport _)); constructor|done].
    + exists (a_fail a1). split; [|intros _; split; [by apply rel_fail|done]].
      rewrite app_comm_cons. apply scan_app. exists a1. split; [apply Hx; constructor|apply scan_one; constructor].
  - cbn [fatal]. intros [= <- <- <-]. exists (a_fail a1). split; [apply (Hx (TvFatal _)); constructor|]. intros _. split; [by apply rel_fail|done].
  - intros [= <- <- <-]. by exists a1.
  - intros [= <- <- <-]. by exists a1.
Qed.

Lemma and_then_ok f k : code_accepted f -> (forall v, code_accepted (k v)) -> code_accepted (fun st => and_then (f st) k).
Proof.
  intros Hf Hk st a st' evs r HR Hc Ho. unfold and_then. destruct (f st) as [[st1 evs1] r1] eqn:Ef.
  destruct (Hf _ _ _ _ _ HR Hc Ho Ef) as (a1 & HS & H1).
  assert (Hgo : forall v, r1 <> Halted -> (let '(st2, evs2, r2) := k v st1 in (st2, evs1 ++ evs2, r2)) = (st', evs, r) ->
    exists a', Scan a evs a' /\ (r <> Halted -> Rel a' st' /\ back a a')).
  { intros v Hr. destruct (k v st1) as [[st2 evs2] r2] eqn:Ek. intros [= <- <- <-].
    destruct (H1 Hr) as [HR1 Hb]. destruct (Hk v _ _ _ _ _ HR1 (coherent_back _ _ Hc Hb) ltac:(apply Hb) Ek) as (a2 & HS2 & H2).
    exists a2. split; [apply scan_app; eauto|]. intros Hr2. destruct (H2 Hr2). split; [done|]. by eapply back_trans. }
  destruct r1; try (by apply Hgo); intros [= <- <- <-]; exists a1; done.
Qed.

Scheme TProg_mind := Induction for TProg Sort Prop
with Action_mind := Induction for Action Sort Prop.
Combined Scheme test_mutind from TProg_mind, Action_mind.

Lemma test_ok : app_ok c ->
  (forall p, code_accepted (run_test E c p)) /\ (forall x, action_accepted (do_action E c x)).
Proof.
  intros Happ. apply test_mutind.
  - intros st a st' evs r HR Hc Ho. cbn. intros [= <- <- <-]. exists a. split; [constructor|]. intros _. split; [done|by apply back_refl].
  - intros v st a st' evs r HR Hc Ho. cbn. intros [= <- <- <-]. exists a. split; [constructor|]. intros _. split; [done|by apply back_refl].
  - intros st a st' evs r HR Hc Ho. cbn. intros [= <- <- <-]. exists a. split; [constructor|]. intros _. split; [done|by apply back_refl].
  - intros f k IH st a st' evs r HR Hc Ho. cbn [run_test]. destruct (run_test _ _ _ _) as [[st1 evs1] r1] eqn:Er. intros [= <- <- <-].
    destruct HR as [H1 H2 H3 H4 H5 H6 H7].
    eapply (IH _ _ (a_eng (es_set_g (ab_eng a) (g_act f (es_g (ab_eng a)))) true a)) in Er as (a' & HS & HR'); [|by rewrite H5|done|done].
    exists a'. split; [econstructor; [by apply st_user|exact HS]|]. done.
  - intros b k IH st a st' evs r HR Hc Ho. cbn [run_test]. destruct (execute_command _ _ _ _) as [[st1 evs1] r1] eqn:Ex.
    destruct (command_ok _ _ _ _ _ _ Hc HR Ex) as (a1 & HS1 & HR1 & Hs1 & Ho1 & Hb1 & Hn1).
    destruct (x_res r1) as [x|] eqn:Exr; [|intros [= <- <- <-]; by exists a1].
    assert (Hb : back a a1) by (split; [done|]; split; [congruence|]; split; [by left|by rewrite Hn1]).
    destruct (run_test _ _ _ _) as [[st2 evs2] r2] eqn:Er. intros [= <- <- <-].
    destruct (IH x _ a1 _ _ _ (HR1 ltac:(intros ->; done)) (coherent_back _ _ Hc Hb) ltac:(congruence) Er) as (a2 & HS2 & H2).
    exists a2. split; [apply scan_app; eauto|]. intros Hr. destruct (H2 Hr). split; [done|]. by eapply back_trans.
  - intros x IHx k IH. cbn [run_test]. apply (and_then_ok (prepare E (do_action E c x)) (fun v => run_test E c (k v))); [by apply prepare_ok|exact IH].
  - intros x IHx e k IH. cbn [run_test]. apply (and_then_ok (expect E c (a_kind x) (do_action E c x) e) (fun v => run_test E c (k v))); [by apply expect_ok|exact IH].
  - intros names b k IH st a st' evs r HR Hc Ho. cbn [run_test]. destruct (enable_handlers _ _ _ _) as [[st1 evs1] v] eqn:Ex.
    destruct (enable_ok _ _ _ _ _ _ _ Ho HR Ex) as (a1 & HS1 & HR1 & Hb).
    destruct (run_test _ _ _ _) as [[st2 evs2] r2] eqn:Er. intros [= <- <- <-].
    destruct (IH v _ a1 _ _ _ HR1 (coherent_back _ _ Hc Hb) ltac:(apply Hb) Er) as (a2 & HS2 & H2).
    exists a2. split; [apply scan_app; eauto|]. intros Hr. destruct (H2 Hr). split; [done|]. by eapply back_trans.
  - intros pats b k IH st a st' evs r HR Hc Ho. cbn [run_test]. destruct (enable_handlers_like _ _ _ _ _) as [[st1 evs1] v] eqn:Ex.
    destruct (enable_like_ok _ _ _ _ _ _ _ Happ Ho HR Ex) as (a1 & HS1 & HR1 & Hb).
    destruct (run_test _ _ _ _) as [[st2 evs2] r2] eqn:Er. intros [= <- <- <-].
    destruct (IH v _ a1 _ _ _ HR1 (coherent_back _ _ Hc Hb) ltac:(apply Hb) Er) as (a2 & HS2 & H2).
    exists a2. split; [apply scan_app; eauto|]. intros Hr. destruct (H2 Hr). split; [done|]. by eapply back_trans.
  - intros x k IH st a st' evs r HR Hc Ho. cbn [run_test]. destruct (run_test _ _ _ _) as [[st1 evs1] r1] eqn:Er. intros [= <- <- <-].
    destruct HR as [H1 H2 H3 H4 H5 H6 H7]. eapply (IH _ a) in Er as (a' & HS & HR'); [|done..].
    exists a'. split; [econstructor; [by apply st_annotate|exact HS]|]. done.
  - intros m. apply dispatch_ok.
  - intros step. apply advance_ok.
  - intros fn IH i. by apply call_ok.
Qed.
End Accept.
End Scan.
