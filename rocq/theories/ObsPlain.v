(** * With observers that do nothing, ObsModel.v is the model of the other files *)
From Verif Require Export ObsSpec EngineFacts.

Section ObsPlain.
Context {P : Params}.
Local Arguments note : simpl never.
Local Arguments next_id : simpl never.
Local Arguments fst_do : simpl never.
Local Arguments on_g : simpl never.

(** A notification of [n] observers, none of which panicked. *)
Definition say (n : nat) (f : Fact) : Seen := mkSeen f n None.

Lemma g_eta (g : GState) : mkG (g_next g) (g_user g) (g_step g) = g.
Proof. by destruct g. Qed.

Lemma st_eta (st : EState) : es_set_g st (es_g st) = st.
Proof. by destruct st. Qed.

Lemma group_quiet obs f u : Forall quiet obs -> group_notify obs f u = (u, length obs, None).
Proof.
  intros H. revert u. induction H as [|ob obs Hq _ IH]; intros u; [done|].
  cbn. rewrite Hq, IH. done.
Qed.

Lemma fst_mint {T} o g g1 mid (x : T) :
  next_id o g = (g1, mid) -> fst_do (mint o) (g, x) = (g1, x, [], inl mid).
Proof. intros E. unfold fst_do, mint. rewrite E. done. Qed.

Section Quiet.
Context (obs : list Observer) (Hq : Forall quiet obs).
Notation n := (length obs).
Notation says := (fmap (say n)).

Lemma note_quiet f g : note obs f g = (g, [say n f], inl tt).
Proof. unfold note. rewrite group_quiet, g_eta; done. Qed.

Lemma fst_note {T} f (g : GState) (x : T) : fst_do (note obs f) (g, x) = (g, x, [say n f], inl tt).
Proof. unfold fst_do. rewrite note_quiet. done. Qed.

Lemma on_note f st : on_g (note obs f) st = (st, [say n f], inl tt).
Proof. unfold on_g. rewrite note_quiet, st_eta. done. Qed.

Definition resu (v : option PVal) : unit + PVal := match v with None => inl tt | Some v => inr v end.
Lemma pan_resu v : pan (resu v) = v.
Proof. by destruct v. Qed.

(** ** Aggregates *)
Section Agg.
Context (o : Oracle) (h : Handler) (a : AggImpl) (now : Z) (cmd : Env) (id : string).

Lemma xa_destroy_plain g s :
  let '(s', fs) := a_destroy h a cmd id s in
  xa_destroy obs h a cmd id (g, s) = (g, s', says fs, inl tt).
Proof.
  unfold a_destroy, xa_destroy, bnd, a_get, a_set. destruct (as_exists s); [|done].
  rewrite fst_note. done.
Qed.

Lemma xa_record_plain b g s :
  let '(g', s', fs, v) := a_record o h a now cmd id b g s in
  xa_record obs o h a now cmd id b (g, s) = (g', s', says fs, resu v).
Proof.
  unfold a_record, xa_record. destruct (negb _); [done|]. destruct (m_invalid _); [done|].
  unfold bnd, a_get, a_set. destruct (as_exists s) eqn:Ex.
  - cbn. destruct (ag_apply a (as_root s) (mkMsg KEvent b)) as [r v]. cbn.
    destruct (enrich _ _ _ _ v) as [v'|]; [done|].
    destruct (next_id o g) as [g1 mid] eqn:En. rewrite (fst_mint _ _ _ _ _ En). cbn. rewrite fst_note. done.
  - rewrite fst_note. cbn.
    destruct (ag_apply a _ (mkMsg KEvent b)) as [r v]. cbn.
    destruct (enrich _ _ _ _ v) as [v'|]; [cbn; destruct (as_destroyed s); done|].
    destruct (next_id o g) as [g1 mid] eqn:En. rewrite (fst_mint _ _ _ _ _ En). cbn. rewrite fst_note. cbn.
    destruct (as_destroyed s); done.
Qed.

Lemma xa_run_plain p g s :
  let '(g', s', fs, v) := a_run o h a now cmd id p g s in
  xa_run obs o h a now cmd id (lift_a p) (g, s) = (g', s', says fs, resu v).
Proof.
  revert g s. induction p as [|v|f k IH|f k IH|b k IH|k IH|str k IH]; intros g s; cbn [a_run lift_a xa_run].
  - done.
  - done.
  - specialize (IH (g_user g) (g_act f g) s). destruct (a_run _ _ _ _ _ _ _ _ _) as [[[g' s'] fs] v].
    unfold bnd at 1, fst_do, user. cbn. unfold g_act in IH. rewrite IH. done.
  - specialize (IH (f (as_hroot s)) g (mkAScope (f (as_hroot s)) (as_own s) (as_exists s) (as_destroyed s) (as_events s))).
    destruct (a_run _ _ _ _ _ _ _ _ _) as [[[g' s'] fs] v].
    unfold bnd, a_get, a_set. cbn. rewrite IH. done.
  - pose proof (xa_record_plain b g s) as Hr. destruct (a_record _ _ _ _ _ _ _ _ _) as [[[g1 s1] fs1] v1].
    specialize (IH v1 g1 s1). destruct (a_run _ _ _ _ _ _ _ _ _) as [[[g' s'] fs] v].
    unfold bnd at 1, try. rewrite Hr. rewrite pan_resu, IH, fmap_app. done.
  - pose proof (xa_destroy_plain g s) as Hr. destruct (a_destroy _ _ _ _ _) as [s1 fs1].
    specialize (IH g s1). destruct (a_run _ _ _ _ _ _ _ _ _) as [[[g' s'] fs] v].
    unfold bnd at 1, try. rewrite Hr. cbn. rewrite IH, fmap_app. done.
  - specialize (IH g s). destruct (a_run _ _ _ _ _ _ _ _ _) as [[[g' s'] fs] v].
    unfold bnd at 1, try, xa_log, bnd, a_get. rewrite fst_note. cbn. rewrite IH. done.
Qed.
End Agg.

Definition reso (r : HRes) : (list Env * option Err) + PVal :=
  match r with HRet envs e => inl (envs, e) | HPan v => inr v end.

Lemma enrich_some h i me m v : enrich h i me m (Some v) = Some (default v (enrich h i me m (Some v))).
Proof. by destruct v. Qed.

Lemma xa_handle_plain x o h a now env g hist :
  (forall i m, x_agg x (h_name h) i m = lift_a (ag_handle a i m)) ->
  let '(g', hist', fs, r) := a_handle o h a now env g hist in
  xa_handle x obs o h a now env (g, hist) = (g', hist', says fs, reso r).
Proof.
  intros Hx. unfold a_handle, xa_handle. destruct (negb _); [done|].
  unfold bnd at 1, enriching at 1, result.
  destruct (ag_route a (e_msg env)) as [id|v]; [|done].
  destruct (decide (id = "")); [done|]. destruct (ag_new a) as [r0|]; [|done].
  destruct (a_replay h a r0 _) as [r [v|]]; [done|].
  unfold bnd. rewrite fst_note.
  pose proof (xa_run_plain o h a now env id (ag_handle a id (e_msg env)) g
    (mkAScope r None (bool_decide (is_Some (hist !! id))) false [])) as Hr.
  rewrite Hx. unfold enriching. destruct (a_run _ _ _ _ _ _ _ _ _) as [[[g1 s1] fs1] v1]. rewrite Hr.
  destruct v1 as [v|].
  - rewrite enrich_some. cbn. destruct (bool_decide _); done.
  - cbn. destruct (bool_decide _); done.
Qed.

(** ** Integrations *)
Section Int.
Context (o : Oracle) (h : Handler) (now : Z) (cmd : Env).
Lemma xi_record_plain b g evs :
  let '(g', evs', fs, v) := i_record o h now cmd b g evs in
  xi_record obs o h now cmd b (g, evs) = (g', evs', says fs, resu v).
Proof.
  unfold i_record, xi_record. destruct (negb _); [done|]. destruct (m_invalid _); [done|].
  unfold bnd, i_add. destruct (next_id o g) as [g1 mid] eqn:En. rewrite (fst_mint _ _ _ _ _ En). cbn. rewrite fst_note. done.
Qed.

Lemma xi_run_plain p g evs :
  let '(g', evs', fs, r) := i_run o h now cmd p g evs in
  xi_run obs o h now cmd (lift_i p) (g, evs) = (g', evs', says fs, r).
Proof.
  revert g evs. induction p as [e|v|f k IH|b k IH|str k IH]; intros g evs; cbn [i_run lift_i xi_run].
  - done.
  - done.
  - specialize (IH (g_user g) (g_act f g) evs). destruct (i_run _ _ _ _ _ _ _) as [[[g' evs'] fs] r].
    unfold bnd at 1, fst_do, user. cbn. unfold g_act in IH. rewrite IH. done.
  - pose proof (xi_record_plain b g evs) as Hr. destruct (i_record _ _ _ _ _ _ _) as [[[g1 evs1] fs1] v1].
    specialize (IH v1 g1 evs1). destruct (i_run _ _ _ _ _ _ _) as [[[g' evs'] fs] r].
    unfold bnd at 1, try. rewrite Hr. rewrite pan_resu, IH, fmap_app. done.
  - specialize (IH g evs). destruct (i_run _ _ _ _ _ _ _) as [[[g' evs'] fs] r].
    unfold bnd at 1, try. rewrite fst_note. cbn. rewrite IH. done.
Qed.
End Int.

Lemma xi_handle_plain x o h i now env g :
  (forall m, x_int x (h_name h) m = lift_i (in_handle i m)) ->
  let '(g', fs, r) := i_handle o h i now env g in
  xi_handle x obs o h now env g = (g', says fs, reso r).
Proof.
  intros Hx. unfold i_handle, xi_handle. destruct (negb _); [done|].
  pose proof (xi_run_plain o h now env (in_handle i (e_msg env)) g []) as Hr.
  rewrite Hx. unfold enriching. destruct (i_run _ _ _ _ _ _ _) as [[[g1 evs] fs] [e|v]]; rewrite Hr; done.
Qed.

(** ** Processes *)
Section Proc.
Context (o : Oracle) (h : Handler) (now : Z) (env : Env) (id : string) (meth : string).

Lemma xp_revert_plain g s :
  let '(s', fs) := p_revert h env id s in
  xp_revert obs h env id (g, s) = (g, s', says fs, inl tt).
Proof.
  unfold p_revert, xp_revert, bnd, p_get, p_set. destruct (ps_ended s); [|done]. rewrite fst_note. done.
Qed.

Lemma xp_execute_plain b g s :
  let '(g', s', fs, v) := p_execute o h now env id meth b g s in
  xp_execute obs o h now env id meth b (g, s) = (g', s', says fs, resu v).
Proof.
  unfold p_execute, xp_execute, xp_check. destruct (p_check _ _ _ _); [done|].
  pose proof (xp_revert_plain g s) as Hr. destruct (p_revert _ _ _ _) as [s1 fs1].
  unfold bnd, ret, p_get, p_set. rewrite Hr. destruct (next_id o g) as [g1 mid] eqn:En. rewrite (fst_mint _ _ _ _ _ En).
  cbn. rewrite fst_note, fmap_app. done.
Qed.

Lemma xp_schedule_plain b t g s :
  let '(g', s', fs, v) := p_schedule o h now env id meth b t g s in
  xp_schedule obs o h now env id meth b t (g, s) = (g', s', says fs, resu v).
Proof.
  unfold p_schedule, xp_schedule, xp_check. destruct (p_check _ _ _ _); [done|].
  pose proof (xp_revert_plain g s) as Hr. destruct (p_revert _ _ _ _) as [s1 fs1].
  unfold bnd, ret, p_get, p_set. rewrite Hr. destruct (next_id o g) as [g1 mid] eqn:En. rewrite (fst_mint _ _ _ _ _ En).
  cbn. rewrite fst_note, fmap_app. destruct (now <? t)%Z; done.
Qed.

Lemma xp_end_plain g s :
  let '(s', fs) := p_end h env id s in
  xp_end obs h env id (g, s) = (g, s', says fs, inl tt).
Proof.
  unfold p_end, xp_end, bnd, p_get, p_set. destruct (ps_ended s); [done|]. rewrite fst_note. done.
Qed.

Lemma xp_run_plain p g s :
  let '(g', s', fs, r) := p_run o h now env id meth p g s in
  xp_run obs o h now env id meth (lift_p p) (g, s) = (g', s', says fs, r).
Proof.
  revert g s. induction p as [e|v|f k IH|f k IH|b k IH|b t k IH|k IH|str k IH]; intros g s; cbn [p_run lift_p xp_run].
  - done.
  - done.
  - specialize (IH (g_user g) (g_act f g) s). destruct (p_run _ _ _ _ _ _ _ _ _) as [[[g' s'] fs] r].
    unfold bnd at 1, fst_do, user. cbn. unfold g_act in IH. rewrite IH. done.
  - specialize (IH (f (ps_root s)) g (mkPScope (f (ps_root s)) (ps_ended s) (ps_commands s) (ps_ready s) (ps_pending s))).
    destruct (p_run _ _ _ _ _ _ _ _ _) as [[[g' s'] fs] r].
    unfold bnd, p_get, p_set. cbn. rewrite IH. done.
  - pose proof (xp_execute_plain b g s) as Hr. destruct (p_execute _ _ _ _ _ _ _ _ _) as [[[g1 s1] fs1] v1].
    specialize (IH v1 g1 s1). destruct (p_run _ _ _ _ _ _ _ _ _) as [[[g' s'] fs] r].
    unfold bnd at 1, try. rewrite Hr. rewrite pan_resu, IH, fmap_app. done.
  - pose proof (xp_schedule_plain b t g s) as Hr. destruct (p_schedule _ _ _ _ _ _ _ _ _ _) as [[[g1 s1] fs1] v1].
    specialize (IH v1 g1 s1). destruct (p_run _ _ _ _ _ _ _ _ _) as [[[g' s'] fs] r].
    unfold bnd at 1, try. rewrite Hr. rewrite pan_resu, IH, fmap_app. done.
  - pose proof (xp_end_plain g s) as Hr. destruct (p_end _ _ _ _) as [s1 fs1].
    specialize (IH g s1). destruct (p_run _ _ _ _ _ _ _ _ _) as [[[g' s'] fs] r].
    unfold bnd at 1, try. rewrite Hr. cbn. rewrite IH, fmap_app. done.
  - specialize (IH g s). destruct (p_run _ _ _ _ _ _ _ _ _) as [[[g' s'] fs] r].
    unfold bnd at 1, try, xp_log, bnd, p_get. rewrite fst_note. cbn. rewrite IH. done.
Qed.
End Proc.

Definition resr (r : PRoute) : XRoute + PVal :=
  match r with
  | RouteTo i => inl (XTo i) | RouteNone => inl XNone | RouteErr e => inl (XErr e) | RoutePan v => inr v
  end.

Lemma xp_route_plain h pi env g ps :
  let '(g', fs, r) := p_route h pi env g ps in
  xp_route obs h pi env (g, ps) = (g', ps, says fs, resr r).
Proof.
  unfold p_route, xp_route. destruct (m_kind (e_msg env)).
  - done.
  - unfold bnd at 1, fst_do, user. destruct (pr_route pi (e_msg env) (g_user g)) as [u [[[id ok] e]|v]].
    + unfold bnd, enriching, result. destruct ok, e as [e|]; [done| |done|]; [destruct (decide _); done|].
      rewrite note_quiet. done.
    + done.
  - destruct (e_origin env) as [og|]; [|done]. unfold bnd, get_st.
    destruct (pc_instances ps !! o_instance og); [done|]. rewrite fst_note. done.
Qed.

Lemma xp_handle_instance_plain x o h pi now env id r g ps :
  (forall i t m, x_event x (h_name h) i t m = lift_p (pr_event pi i t m)) ->
  (forall i t m, x_timeout x (h_name h) i t m = lift_p (pr_timeout pi i t m)) ->
  let '(g', ps', fs, res) := p_handle_instance o h pi now env id r g ps in
  xp_handle_instance x obs o h now env id r (g, ps) = (g', ps', says fs, reso res).
Proof.
  intros He Ht. unfold p_handle_instance, xp_handle_instance. rewrite He, Ht.
  assert (exists meth prog,
    match m_kind (e_msg env) with
    | KTimeout => ("HandleTimeout", pr_timeout pi id (e_sched env) (e_msg env))
    | _ => ("HandleEvent", pr_event pi id (e_created env) (e_msg env))
    end = (meth, prog) /\
    match m_kind (e_msg env) with
    | KTimeout => ("HandleTimeout", lift_p (pr_timeout pi id (e_sched env) (e_msg env)))
    | _ => ("HandleEvent", lift_p (pr_event pi id (e_created env) (e_msg env)))
    end = (meth, lift_p prog)) as (meth & prog & -> & ->).
  { destruct (m_kind (e_msg env)); eauto. }
  pose proof (xp_run_plain o h now env id meth prog g (mkPScope r false [] [] [])) as Hr.
  destruct (p_run _ _ _ _ _ _ _ _ _) as [[[g1 s1] fs1] res]. unfold enriching. rewrite Hr.
  destruct res as [[e|]|v]; [done| |done]. destruct (ps_ended s1); done.
Qed.

Lemma xp_handle_plain x o h pi now env g ps :
  (forall i t m, x_event x (h_name h) i t m = lift_p (pr_event pi i t m)) ->
  (forall i t m, x_timeout x (h_name h) i t m = lift_p (pr_timeout pi i t m)) ->
  let '(g', ps', fs, r) := p_handle o h pi now env g ps in
  xp_handle x obs o h pi now env (g, ps) = (g', ps', says fs, reso r).
Proof.
  intros He Ht. unfold p_handle, xp_handle. destruct (negb _); [done|].
  pose proof (xp_route_plain h pi env g ps) as Hr. destruct (p_route _ _ _ _ _) as [[g1 fs1] rt].
  unfold bnd at 1. rewrite Hr. destruct rt as [id| |e|v]; cbn [resr]; [|unfold ret; rewrite app_nil_r; done..|done].
  unfold bnd at 1, get_st. destruct (pc_instances ps !! id) as [r|].
  - pose proof (xp_handle_instance_plain x o h pi now env id r g1 ps He Ht) as Hi.
    destruct (p_handle_instance _ _ _ _ _ _ _ _ _) as [[[g2 ps2] fs2] res].
    unfold bnd. rewrite fst_note, Hi, fmap_app. done.
  - unfold bnd. rewrite !fst_note. destruct (pr_new pi) as [r|].
    + pose proof (xp_handle_instance_plain x o h pi now env id r g1 ps He Ht) as Hi.
      destruct (p_handle_instance _ _ _ _ _ _ _ _ _) as [[[g2 ps2] fs2] res].
      rewrite Hi, !fmap_app, <- app_assoc. done.
    + rewrite fmap_app. done.
Qed.

(** ** Projections *)
Notation says2 l := (says (map snd l)).

Lemma xj_run_plain {A} th hid ev (p : JProg A) g :
  let '(g', fs, r) := j_run th hid ev p g in
  xj_run obs hid ev (lift_j p) g = (g', says2 fs, r).
Proof.
  revert g. induction p as [a|v|f k IH|str k IH]; intros g; cbn [j_run lift_j xj_run].
  - done.
  - done.
  - specialize (IH (g_user g) (g_act f g)). destruct (j_run _ _ _ _ _) as [[g' fs] r].
    unfold bnd at 1, user. cbn. unfold g_act in IH. rewrite IH. done.
  - specialize (IH g). destruct (j_run _ _ _ _ _) as [[g' fs] r].
    unfold bnd at 1, try. rewrite note_quiet. cbn. rewrite IH. done.
Qed.

Lemma j_par_eq {A B} o hid ev (m : JProg A) (c : JProg B) g :
  j_par o hid ev m c g =
    match m, c with
    | JRet a, _ =>
      let '(g, fs, r) := j_run TCompact hid None c g in
      (g, fs, match r with inl b => inl (a, b) | inr v => inr (PFatal v) end)
    | _, JRet b =>
      let '(g, fs, r) := j_run TMain hid (Some ev) m g in
      (g, fs, match r with inl a => inl (a, b) | inr v => inr v end)
    | _, _ =>
      if o_sched o (g_step g) then
        match m with
        | JRet _ => (j_tick g, [], inr PNil)
        | JPanic v => (j_tick g, [], inr v)
        | JAct f k => j_par o hid ev (k (g_user g)) c (g_act f (j_tick g))
        | JLog s k =>
          let '(g, fs, r) := j_par o hid ev k c (j_tick g) in
          (g, (TMain, MessageLoggedByProjection hid (Some ev) s) :: fs, r)
        end
      else
        match c with
        | JRet _ => (j_tick g, [], inr PNil)
        | JPanic v => (j_tick g, [], inr (PFatal v))
        | JAct f k => j_par o hid ev m (k (g_user g)) (g_act f (j_tick g))
        | JLog s k =>
          let '(g, fs, r) := j_par o hid ev m k (j_tick g) in
          (g, (TCompact, MessageLoggedByProjection hid None s) :: fs, r)
        end
    end.
Proof. destruct m, c; reflexivity. Qed.

Lemma xj_par_eq {A B} o hid ev (m : XJProg A) (c : XJProg B) :
  xj_par obs o hid ev m c =
    match m, c with
    | XJRet a, _ => bnd (fatal (xj_run obs hid None c)) (fun b => ret (a, b))
    | _, XJRet b => bnd (xj_run obs hid (Some ev) m) (fun a => ret (a, b))
    | _, _ =>
      bnd (sched o) (fun main =>
      if (main : bool) then
        match m with
        | XJRet _ => raise PNil
        | XJPanic v => raise v
        | XJAct f k => bnd (user (fun u => (f u, u))) (fun u => xj_par obs o hid ev (k u) c)
        | XJLog s k =>
          bnd (try (note obs (MessageLoggedByProjection hid (Some ev) s)))
            (fun v => xj_par obs o hid ev (k (pan v)) c)
        end
      else
        match c with
        | XJRet _ => raise PNil
        | XJPanic v => raise (PFatal v)
        | XJAct f k => bnd (user (fun u => (f u, u))) (fun u => xj_par obs o hid ev m (k u))
        | XJLog s k =>
          bnd (try (note obs (MessageLoggedByProjection hid None s))) (fun v => xj_par obs o hid ev m (k (pan v)))
        end)
    end.
Proof. destruct m, c; reflexivity. Qed.

Lemma xj_par_plain_step {A B} o hid ev (m : JProg A) (c : JProg B) :
    match m with
    | JRet _ | JPanic _ => True
    | JAct f k => forall u (c : JProg B) g, let '(g', fs, r) := j_par o hid ev (k u) c g in
                    xj_par obs o hid ev (lift_j (k u)) (lift_j c) g = (g', says2 fs, r)
    | JLog s k => forall (c : JProg B) g, let '(g', fs, r) := j_par o hid ev k c g in
                    xj_par obs o hid ev (lift_j k) (lift_j c) g = (g', says2 fs, r)
    end -> forall g, let '(g', fs, r) := j_par o hid ev m c g in
    xj_par obs o hid ev (lift_j m) (lift_j c) g = (g', says2 fs, r).
Proof.
  intros IHm. induction c as [b|w|f' k' IH|str' k' IH]; intros g; rewrite j_par_eq, xj_par_eq.
    - pose proof (xj_run_plain TMain hid (Some ev) m g) as Hr.
      destruct m as [a|v|f k|str k]; [done|..]; cbn [lift_j] in Hr |- *; unfold bnd at 1;
        destruct (j_run _ _ _ _ _) as [[g1 fs1] [a|w]]; rewrite Hr; unfold ret; rewrite ?app_nil_r; done.
    - destruct m as [a|v|f k|str k]; cbn [lift_j].
      + done.
      + unfold bnd, sched. destruct (o_sched o (g_step g)); done.
      + unfold bnd, sched. destruct (o_sched o (g_step g)); [|done].
        specialize (IHm (g_user g) (JPanic w) (g_act f (j_tick g))).
        destruct (j_par _ _ _ _ _ _) as [[g1 fs1] r]. unfold user. cbn in IHm |- *. unfold g_act in IHm. cbn in IHm.
        rewrite IHm. done.
      + unfold bnd, sched. destruct (o_sched o (g_step g)); [|done].
        specialize (IHm (JPanic w) (j_tick g)).
        destruct (j_par _ _ _ _ _ _) as [[g1 fs1] r]. unfold try. rewrite note_quiet. cbn [pan].
        cbn [lift_j] in IHm. rewrite IHm. done.
    - destruct m as [a|v|f k|str k]; cbn [lift_j].
      + pose proof (xj_run_plain TCompact hid None (JAct f' k') g) as Hr. cbn [lift_j] in Hr. unfold bnd, fatal.
        destruct (j_run _ _ _ _ _) as [[g1 fs1] [b|w']]; rewrite Hr; unfold ret; rewrite ?app_nil_r; done.
      + unfold bnd, sched. destruct (o_sched o (g_step g)); [done|].
        specialize (IH (g_user g) (g_act f' (j_tick g))). destruct (j_par _ _ _ _ _ _) as [[g1 fs1] r]. unfold user. cbn in IH |- *. unfold g_act in IH. cbn in IH. rewrite IH. done.
      + unfold bnd, sched. destruct (o_sched o (g_step g)).
        * specialize (IHm (g_user g) (JAct f' k') (g_act f (j_tick g))).
          destruct (j_par _ _ _ _ _ _) as [[g1 fs1] r]. unfold user. cbn in IHm |- *. unfold g_act in IHm. cbn in IHm.
          rewrite IHm. done.
        * specialize (IH (g_user g) (g_act f' (j_tick g))). destruct (j_par _ _ _ _ _ _) as [[g1 fs1] r]. unfold user. cbn in IH |- *. unfold g_act in IH. cbn in IH. rewrite IH. done.
      + unfold bnd, sched. destruct (o_sched o (g_step g)).
        * specialize (IHm (JAct f' k') (j_tick g)).
          destruct (j_par _ _ _ _ _ _) as [[g1 fs1] r]. unfold try. rewrite note_quiet. cbn [pan].
          cbn [lift_j] in IHm. rewrite IHm. done.
        * specialize (IH (g_user g) (g_act f' (j_tick g))). destruct (j_par _ _ _ _ _ _) as [[g1 fs1] r]. unfold user. cbn in IH |- *. unfold g_act in IH. cbn in IH. rewrite IH. done.
    - destruct m as [a|v|f k|str k]; cbn [lift_j].
      + pose proof (xj_run_plain TCompact hid None (JLog str' k') g) as Hr. cbn [lift_j] in Hr. unfold bnd, fatal.
        destruct (j_run _ _ _ _ _) as [[g1 fs1] [b|w']]; rewrite Hr; unfold ret; rewrite ?app_nil_r; done.
      + unfold bnd, sched. destruct (o_sched o (g_step g)); [done|].
        specialize (IH (j_tick g)). destruct (j_par _ _ _ _ _ _) as [[g1 fs1] r]. unfold try. rewrite note_quiet. cbn [pan]. cbn [lift_j] in IH. rewrite IH. done.
      + unfold bnd, sched. destruct (o_sched o (g_step g)).
        * specialize (IHm (g_user g) (JLog str' k') (g_act f (j_tick g))).
          destruct (j_par _ _ _ _ _ _) as [[g1 fs1] r]. unfold user. cbn in IHm |- *. unfold g_act in IHm. cbn in IHm.
          rewrite IHm. done.
        * specialize (IH (j_tick g)). destruct (j_par _ _ _ _ _ _) as [[g1 fs1] r]. unfold try. rewrite note_quiet. cbn [pan]. cbn [lift_j] in IH. rewrite IH. done.
      + unfold bnd, sched. destruct (o_sched o (g_step g)).
        * specialize (IHm (JLog str' k') (j_tick g)).
          destruct (j_par _ _ _ _ _ _) as [[g1 fs1] r]. unfold try. rewrite note_quiet. cbn [pan].
          cbn [lift_j] in IHm. rewrite IHm. done.
        * specialize (IH (j_tick g)). destruct (j_par _ _ _ _ _ _) as [[g1 fs1] r]. unfold try. rewrite note_quiet. cbn [pan]. cbn [lift_j] in IH. rewrite IH. done.
Qed.

Lemma xj_par_plain {A B} o hid ev (m : JProg A) : forall (c : JProg B) g,
  let '(g', fs, r) := j_par o hid ev m c g in
  xj_par obs o hid ev (lift_j m) (lift_j c) g = (g', says2 fs, r).
Proof.
  induction m as [a|v|f k IHm|str k IHm]; intros c; apply xj_par_plain_step; done.
Qed.

Lemma xj_tick_plain x h j now g last :
  (forall now, x_compact x (h_name h) now = lift_j (pj_compact j now)) ->
  let '(g', last', fs, r) := j_tick_ctrl h j now g last in
  xj_tick x obs h now (g, last) = (g', last', says fs, reso r).
Proof.
  intros Hx. unfold j_tick_ctrl, xj_tick. unfold bnd at 1, get_st. destruct (_ <=? _)%Z; [|done].
  pose proof (xj_run_plain TMain (h_id h) None (pj_compact j now) g) as Hr.
  unfold bnd, set_st. rewrite fst_note. unfold fst_do at 1. rewrite Hx.
  destruct (j_run _ _ _ _ _) as [[g1 fs1] [e|v]]; rewrite Hr.
  - rewrite fst_note. cbn. rewrite fmap_app. done.
  - done.
Qed.

Lemma xj_apply_plain x o cd h j now env g :
  (forall r c n t m, x_proj x (h_name h) r c n t m = lift_j (pj_handle j r c n t m)) ->
  (forall now, x_compact x (h_name h) now = lift_j (pj_compact j now)) ->
  let '(g', fs, r) := j_apply o cd h j now env g in
  xj_apply x obs o cd h now env g = (g', says2 fs, r).
Proof.
  intros Hx Hc. unfold j_apply, xj_apply. rewrite Hx, Hc. destruct cd.
  - unfold bnd, enriching. rewrite note_quiet.
    pose proof (xj_par_plain o (h_id h) env
      (pj_handle j (e_id env) "" (String (Ascii.ascii_of_nat 1) "") (e_created env) (e_msg env)) (pj_compact j now) g) as Hr.
    destruct (j_par _ _ _ _ _ _) as [[g1 fs1] [[[ok e] ce]|v]]; rewrite Hr.
    + rewrite note_quiet. cbn. rewrite map_app, fmap_app. done.
    + done.
  - unfold bnd, enriching.
    pose proof (xj_run_plain TMain (h_id h) (Some env)
      (pj_handle j (e_id env) "" (String (Ascii.ascii_of_nat 1) "") (e_created env) (e_msg env)) g) as Hr.
    destruct (j_run _ _ _ _ _) as [[g1 fs1] [[ok e]|v]]; rewrite Hr; [cbn; rewrite app_nil_r|]; done.
Qed.

Lemma xj_handle_plain x o h j now env g :
  (forall r c n t m, x_proj x (h_name h) r c n t m = lift_j (pj_handle j r c n t m)) ->
  (forall now, x_compact x (h_name h) now = lift_j (pj_compact j now)) ->
  let '(g', fs, r) := j_handle o (c_compact (x_cfg x)) h j now env g in
  xj_handle x obs o h j now env g = (g', says fs, reso r).
Proof.
  intros Hx Hc. unfold j_handle, j_handle_threads, xj_handle. destruct (negb _); [done|].
  unfold bnd at 1, user at 1. destruct (pj_version j (e_id env) (g_user g)) as [u [[cur [e|]]|v]]; [done| |done].
  unfold bnd at 1, result at 1. destruct (decide (cur = "")) as [_|_]; [|done].
  pose proof (xj_apply_plain x o (c_compact (x_cfg x)) h j now env (mkG (g_next g) u (g_step g)) Hx Hc) as Hr.
  destruct (j_apply _ _ _ _ _ _ _) as [[g1 fs1] [[[ok e] ce]|v]]; unfold bnd at 1; rewrite Hr; [|done].
  destruct e as [e|]; [cbn; rewrite app_nil_r; done|]. destruct ok; [|cbn; rewrite app_nil_r; done].
  unfold bnd, user. destruct (pj_close j (e_id env) (g_user g1)) as [u2 [[e|]|v]]; cbn; rewrite app_nil_r; done.
Qed.

(** ** Engine *)
Section Eng.
Context (c : Config) (xo : nat -> Observer) (Hok : app_ok c).
Notation x := (plain c xo).

Lemma impl_of_in h : h ∈ c_app c -> impl_of c (h_name h) = Some (h_impl h).
Proof. intros Hin. unfold impl_of. rewrite controllers_complete; done. Qed.

Lemma xctrl_handle_plain o h now env g cs :
  h ∈ c_app c ->
  let '(g', cs', fs, r) := ctrl_handle c o h now env g cs in
  xctrl_handle x obs o h now env (g, cs) = (g', cs', says fs, reso r).
Proof.
  intros Hin. apply impl_of_in in Hin. unfold ctrl_handle, xctrl_handle.
  destruct (h_impl h) as [a|pi|i|j] eqn:Ei; destruct cs as [hist|ps| |last]; try done.
  - pose proof (xa_handle_plain x o h a now env g hist) as H. destruct (a_handle _ _ _ _ _ _ _) as [[[g1 h1] fs1] r1].
    rewrite H; [done|]. intros i m. cbn. rewrite Hin. done.
  - pose proof (xp_handle_plain x o h pi now env g ps) as H. destruct (p_handle _ _ _ _ _ _ _) as [[[g1 h1] fs1] r1].
    rewrite H; [done|..]; intros i t m; cbn; rewrite Hin; done.
  - pose proof (xi_handle_plain x o h i now env g) as H. destruct (i_handle _ _ _ _ _ _) as [[g1 fs1] r1].
    rewrite H; [done|]. intros m. cbn. rewrite Hin. done.
  - pose proof (xj_handle_plain x o h j now env g) as H. cbn [x_cfg plain] in H.
    destruct (j_handle _ _ _ _ _ _ _) as [[g1 fs1] r1].
    rewrite H; [done|..]; intros; cbn; rewrite Hin; done.
Qed.

Lemma xctrl_tick_plain h now g cs :
  h ∈ c_app c ->
  let '(g', cs', fs, r) := ctrl_tick h now g cs in
  xctrl_tick x obs h now (g, cs) = (g', cs', says fs, reso r).
Proof.
  intros Hin. apply impl_of_in in Hin. unfold ctrl_tick, xctrl_tick.
  destruct (h_impl h) as [a|pi|i|j] eqn:Ei; destruct cs as [hist|ps| |last]; try done.
  - destruct (p_tick now ps) as [ps1 ready]. done.
  - pose proof (xj_tick_plain x h j now g last) as H.
    destruct (j_tick_ctrl _ _ _ _ _) as [[[g1 l1] fs1] r1].
    rewrite H; [done|]. intros; cbn; rewrite Hin; done.
Qed.

Lemma xe_handle_plain o oo env oh st :
  (forall h, oh = Some h -> h ∈ c_app c) ->
  let '(st', fs, r) := e_handle c o oo env oh st in
  xe_handle x obs o oo env oh st = (st', says fs, reso r).
Proof.
  intros Hin. unfold e_handle, xe_handle. destruct oh as [h|]; [|done]. specialize (Hin h eq_refl).
  destruct (skip_handler h oo) as [r|].
  - unfold bnd. rewrite on_note. done.
  - unfold bnd, on_ctrl. rewrite on_note. destruct (es_cs st !! h_name h) as [cs|]; [|done].
    pose proof (xctrl_handle_plain o h (oo_now oo) env (es_g st) cs Hin) as H.
    destruct (ctrl_handle _ _ _ _ _ _ _) as [[[g1 cs1] fs1] r1]. rewrite H.
    destruct r1 as [envs e|v]; cbn [reso].
    + rewrite on_note. cbn. rewrite fmap_app. done.
    + done.
Qed.

Lemma xe_handlers_plain o oo env hs st :
  (forall h, Some h ∈ hs -> h ∈ c_app c) ->
  let '(st', fs, r) := e_handlers c o oo env hs st in
  xe_handlers x obs o oo env hs st = (st', says fs, r).
Proof.
  revert st. induction hs as [|oh hs IH]; intros st Hin; cbn [e_handlers xe_handlers]; [done|].
  pose proof (xe_handle_plain o oo env oh st) as H.
  destruct (e_handle _ _ _ _ _ _) as [[st1 fs1] r1]. unfold bnd at 1. rewrite H; [|intros h ->; apply Hin; constructor].
  destruct r1 as [envs e|v]; cbn [reso]; [|done].
  specialize (IH st1). destruct (e_handlers _ _ _ _ _ _) as [[st2 fs2] r2]. unfold bnd. rewrite IH;
    [|intros h Hh; apply Hin; constructor; done].
  destruct r2 as [[envs' errs']|v]; [cbn; rewrite app_nil_r|]; rewrite fmap_app; done.
Qed.

Lemma xe_message_plain o oo env st :
  let '(st', fs, r) := e_message c o oo env st in
  xe_message x obs o oo env st = (st', says fs, r).
Proof.
  unfold e_message, xe_message. cbn [x_cfg plain]. destruct (targets c env) as [hs|] eqn:Et; [|done].
  pose proof (xe_handlers_plain o oo env hs st) as H.
  destruct (e_handlers _ _ _ _ _ _) as [[st1 fs1] r1].
  unfold bnd. rewrite on_note, H; [|intros h Hh; eapply targets_in; eassumption].
  destruct r1 as [[envs derr]|v]; [|done]. rewrite on_note. cbn. rewrite fmap_app. done.
Qed.

Definition outo (r : Out Errs) : option Errs + PVal :=
  match r with Ok e => inl (Some e) | Pan v => inr v | Fuel => inl None end.

Lemma xe_loop_plain o oo fuel q err st :
  let '(st', fs, r) := e_loop c o oo fuel q err st in
  xe_loop x obs o oo fuel q err st = (st', says fs, outo r).
Proof.
  revert q err st. induction fuel as [|fuel IH]; intros [|env q] err st; [done..|]. cbn [e_loop xe_loop].
  pose proof (xe_message_plain o oo env st) as H. destruct (e_message _ _ _ _ _) as [[st1 fs1] r1].
  unfold bnd at 1. rewrite H. destruct r1 as [[envs derr]|v]; [|done].
  unfold bnd, xpoll, on_g. destruct (poll_ctx o (es_g st1)) as [g ce]. destruct ce as [e|].
  - cbn. rewrite app_nil_r. done.
  - specialize (IH (q ++ envs) (err ++ derr) (es_set_g st1 g)).
    destruct (e_loop _ _ _ _ _ _ _) as [[st2 fs2] r2]. rewrite IH, fmap_app. done.
Qed.

Lemma xe_tick_one_plain o oo h st :
  h ∈ c_app c ->
  let '(st1, fs, r) := e_tick_one c o oo h st in
  let '(st2, ce) := poll_unless_skipped o oo h st1 in
  xe_tick_one x obs o oo h st =
    match r with
    | HRet envs e => (st2, says fs, inl (envs, e, ce))
    | HPan v => (st1, says fs, inr v)
    end.
Proof.
  intros Hin. unfold e_tick_one, xe_tick_one, poll_unless_skipped. destruct (skip_handler h oo) as [r|].
  - unfold bnd. rewrite on_note. done.
  - unfold bnd, on_ctrl. rewrite on_note. destruct (es_cs st !! h_name h) as [cs|].
    + pose proof (xctrl_tick_plain h (oo_now oo) (es_g st) cs Hin) as H.
      destruct (ctrl_tick _ _ _ _) as [[[g1 cs1] fs1] r1]. rewrite H.
      destruct r1 as [envs e|v]; cbn [reso].
      * rewrite on_note. unfold xpoll, on_g. destruct (poll_ctx _ _) as [g2 ce]. cbn.
        rewrite fmap_app. done.
      * destruct (poll_ctx _ _) as [g2 ce]. done.
    + destruct (poll_ctx _ _) as [g2 ce]. done.
Qed.

Lemma xe_tick_handlers_plain o oo hs st :
  (forall h, h ∈ hs -> h ∈ c_app c) ->
  let '(st', fs, r) := e_tick_handlers c o oo hs st in
  xe_tick_handlers x obs o oo hs st =
    (st', says fs, match r with TQueue q errs => inl (inl (q, errs)) | TCancel e => inl (inr e) | TPan v => inr v end).
Proof.
  revert st. induction hs as [|h hs IH]; intros st Hin; cbn [e_tick_handlers xe_tick_handlers]; [done|].
  pose proof (xe_tick_one_plain o oo h st (Hin h (elem_of_list_here _ _))) as H.
  destruct (e_tick_one _ _ _ _ _) as [[st1 fs1] r1].
  destruct (poll_unless_skipped _ _ _ _) as [st2 ce]. unfold bnd at 1. rewrite H.
  destruct r1 as [envs e|v]; [|done]. destruct ce as [e'|]; [cbn; rewrite app_nil_r; done|].
  specialize (IH st2). destruct (e_tick_handlers _ _ _ _ _) as [[st3 fs3] r3].
  unfold bnd. rewrite IH; [|intros h' Hh; apply Hin; constructor; done].
  destruct r3 as [q errs|e'|v]; cbn; rewrite ?app_nil_r, fmap_app; done.
Qed.

Lemma xe_tick_body_plain o oo fuel order st :
  (forall h, h ∈ order -> h ∈ c_app c) ->
  let '(st', fs, r) := e_tick_body c o oo fuel order st in
  xe_tick_body x obs o oo fuel order st = (st', says fs, outo r).
Proof.
  intros Hin. unfold e_tick_body, xe_tick_body.
  pose proof (xe_tick_handlers_plain o oo order st Hin) as H.
  destruct (e_tick_handlers _ _ _ _ _) as [[st1 fs1] r1]. unfold bnd at 1. rewrite H.
  destruct r1 as [q errs|e|v]; [|cbn; rewrite app_nil_r; done|done].
  pose proof (xe_loop_plain o oo fuel q [] st1) as H2. destruct (e_loop _ _ _ _ _ _ _) as [[st2 fs2] r2].
  unfold bnd. rewrite H2. destruct r2 as [errs'|v|]; cbn; rewrite ?app_nil_r, fmap_app; done.
Qed.
End Eng.
End Quiet.

(** The result of an operation. *)
Definition outx (r : Out Errs) : XRes + PVal :=
  match r with Ok e => inl (RDone e) | Pan v => inr v | Fuel => inl RRunning end.


Lemma apply_opts_observers c opts : forall oo oo',
  apply_opts c oo opts = inl oo' -> oo_observers oo' = oo_observers oo ++ given opts.
Proof.
  induction opts as [|opt opts IH]; intros oo oo'; cbn [apply_opts].
  - intros [= <-]. cbn. rewrite app_nil_r. done.
  - destruct (apply_opt c oo opt) as [oo1|v] eqn:E; [|done]. intros H. apply IH in H. rewrite H.
    destruct opt; cbn in E.
    + injection E as <-. cbn. rewrite <- app_assoc. done.
    + injection E as <-. done.
    + destruct (controllers c !! name); [|done]. injection E as <-. done.
    + injection E as <-. done.
Qed.

Section Ops.
Context (c : Config) (xo : nat -> Observer) (Hok : app_ok c) (Hq : forall n, quiet (xo n)).
Notation x := (plain c xo).

Lemma observers_quiet oo : Forall quiet (observers x oo).
Proof. unfold observers. apply Forall_fmap, Forall_forall. intros n _. apply Hq. Qed.

Lemma observers_length wall opts oo :
  new_opts c wall opts = inl oo -> length (observers x oo) = length (given opts).
Proof. intros H. unfold observers. rewrite fmap_length. apply apply_opts_observers in H. rewrite H. done. Qed.

Lemma xe_dispatch_plain o fuel m opts st :
  let '(st', fs, r) := e_dispatch c o fuel m opts st in
  xe_dispatch x o fuel m opts (st, false) =
    (st', match r with Fuel => true | _ => false end, say (length (given opts)) <$> fs, outx r).
Proof.
  unfold e_dispatch, xe_dispatch. destruct (next_id o (es_g st)) as [g id] eqn:En.
  unfold bnd at 1, fst_do at 1, on_g at 1, mint. rewrite En.
  cbn [x_cfg plain]. destruct (new_opts c (o_wall o) opts) as [oo|v] eqn:Eo; [|done].
  pose proof (observers_quiet oo) as Hqo. pose proof (observers_length _ _ _ Eo) as Hl.
  destruct (m_kind m) eqn:Ek; [| |done];
  (destruct (m_invalid m); [done|]; destruct (routes c !! m_type m) as [hs|]; [|done];
  unfold bnd at 1; unfold fst_do at 1; rewrite on_note by done;
  unfold bnd at 1; unfold acquire;
  destruct (lock o _) as [g2 [e|]];
  [ unfold bnd, fst_do; rewrite on_note by done; rewrite Hl; done |];
  pose proof (xe_loop_plain _ Hqo c xo Hok o oo fuel [new_root id m (oo_now oo)] []
    (es_set_g (es_set_g st g) g2)) as H;
  destruct (e_loop _ _ _ _ _ _ _) as [[st3 fs3] r3];
  unfold unlocking, bnd; unfold fst_do at 1; rewrite H;
  destruct r3 as [err|v|]; cbn [outo];
  [ unfold fst_do; rewrite on_note by done; cbn; rewrite Hl, fmap_app; done
  | rewrite Hl; done
  | cbn; rewrite Hl, app_nil_r; done ]).
Qed.

Lemma xe_tick_plain o fuel order opts st :
  order ≡ₚ c_app c ->
  let '(st', fs, r) := e_tick c o fuel order opts st in
  xe_tick x o fuel order opts (st, false) =
    (st', match r with Fuel => true | _ => false end, say (length (given opts)) <$> fs, outx r).
Proof.
  intros Hord. unfold e_tick, xe_tick. cbn [x_cfg plain].
  destruct (new_opts c (o_wall o) opts) as [oo|v] eqn:Eo; [|done].
  pose proof (observers_quiet oo) as Hqo. pose proof (observers_length _ _ _ Eo) as Hl.
  unfold bnd at 1; unfold fst_do at 1; rewrite on_note by done.
  unfold bnd at 1; unfold acquire.
  destruct (lock o _) as [g2 [e|]].
  { unfold bnd, fst_do; rewrite on_note by done; rewrite Hl; done. }
  pose proof (xe_tick_body_plain _ Hqo c xo Hok o oo fuel order (es_set_g st g2)) as H.
  destruct (e_tick_body _ _ _ _ _ _) as [[st3 fs3] r3].
  unfold unlocking, bnd; unfold fst_do at 1; rewrite H; [|intros h Hh; rewrite <- Hord; done].
  destruct r3 as [err|v|]; cbn [outo].
  - unfold fst_do; rewrite on_note by done; cbn; rewrite Hl, fmap_app; done.
  - rewrite Hl; done.
  - cbn; rewrite Hl, app_nil_r; done.
Qed.

Definition xev (n : nat) (e : Ev) : XEv := match e with EvFact f => XSeen (say n f) | EvReset => XReset end.

Lemma xrun_op_plain op st :
  op_ok c op ->
  let '(st', evs, r) := run_op c op st in
  xrun_op x op (st, false) =
    (st', match r with Fuel => true | _ => false end, xev (op_observers op) <$> evs, outx r).
Proof.
  intros Hop. destruct op as [o fuel m opts|o fuel order opts| |f]; unfold op_observers; cbn [run_op xrun_op op_given].
  - pose proof (xe_dispatch_plain o fuel m opts st) as H. destruct (e_dispatch _ _ _ _ _ _) as [[st1 fs1] r1].
    rewrite H. rewrite <- !list_fmap_compose. done.
  - destruct Hop as [_ Hop]. pose proof (xe_tick_plain o fuel order opts st Hop) as H.
    destruct (e_tick _ _ _ _ _ _) as [[st1 fs1] r1].
    rewrite H. rewrite <- !list_fmap_compose. done.
  - unfold xe_reset, e_reset.
    assert (Hr : forall fns u, run_resets (map (fun f u => (f u, None)) fns) u = (foldl (fun u f => f u) u fns, None)).
    { induction fns as [|f fns IH]; intros u; [done|]. cbn. apply IH. }
    change (x_resets x) with (map (fun (f : U -> U) u => (f u, @None PVal)) (c_resetters c)). rewrite Hr. done.
  - done.
Qed.
End Ops.
End ObsPlain.
