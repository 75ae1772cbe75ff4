(** * Vocabulary: which events a projection is given. *)
From Verif Require Export ProjSpec.

Section DeliverySpec.
Context {P : Params} (calls : U -> list Call).

(** An update of the user's world that does not touch the record of calls. *)
Definition untouched (f : U -> U) : Prop := forall u, calls (f u) = calls u.

(** Handler methods that never touch it. *)
Inductive a_leaves : AProg -> Prop :=
| al_ret : a_leaves ARet
| al_panic v : a_leaves (APanic v)
| al_act f k : untouched f -> (forall u, a_leaves (k u)) -> a_leaves (AAct f k)
| al_mutate f k : (forall r, a_leaves (k r)) -> a_leaves (AMutate f k)
| al_record b k : (forall v, a_leaves (k v)) -> a_leaves (ARecord b k)
| al_destroy k : a_leaves k -> a_leaves (ADestroy k)
| al_log s k : a_leaves k -> a_leaves (ALog s k).
Inductive p_leaves : PProg -> Prop :=
| pl_ret e : p_leaves (PRet e)
| pl_panic v : p_leaves (PPanic v)
| pl_act f k : untouched f -> (forall u, p_leaves (k u)) -> p_leaves (PAct f k)
| pl_mutate f k : (forall r, p_leaves (k r)) -> p_leaves (PMutate f k)
| pl_execute b k : (forall v, p_leaves (k v)) -> p_leaves (PExecute b k)
| pl_schedule b t k : (forall v, p_leaves (k v)) -> p_leaves (PSchedule b t k)
| pl_end k : p_leaves k -> p_leaves (PEnd k)
| pl_log s k : p_leaves k -> p_leaves (PLog s k).
Inductive i_leaves : IProg -> Prop :=
| il_ret e : i_leaves (IRet e)
| il_panic v : i_leaves (IPanic v)
| il_act f k : untouched f -> (forall u, i_leaves (k u)) -> i_leaves (IAct f k)
| il_record b k : (forall v, i_leaves (k v)) -> i_leaves (IRecord b k)
| il_log s k : i_leaves k -> i_leaves (ILog s k).
Inductive j_leaves {A} : JProg A -> Prop :=
| jl_ret a : j_leaves (JRet a)
| jl_panic v : j_leaves (JPanic v)
| jl_act f k : untouched f -> (forall u, j_leaves (k u)) -> j_leaves (JAct f k)
| jl_log s k : j_leaves k -> j_leaves (JLog s k).

(** Handlers that never touch it. *)
Definition impl_leaves (i : Impl) : Prop :=
  match i with
  | ImplAgg a => forall id m, a_leaves (ag_handle a id m)
  | ImplProc p => (forall m u, calls (pr_route p m u).1 = calls u) /\
      (forall id t m, p_leaves (pr_event p id t m)) /\ (forall id t m, p_leaves (pr_timeout p id t m))
  | ImplInt i => forall m, i_leaves (in_handle i m)
  | ImplProj j => (forall id u, calls (pj_version j id u).1 = calls u) /\
      (forall id cur next t m, j_leaves (pj_handle j id cur next t m)) /\
      (forall id u, calls (pj_close j id u).1 = calls u) /\ (forall now, j_leaves (pj_compact j now))
  end.

(** The user's code other than the handler [h], during these operations. *)
Definition private (c : Config) (h : Handler) (ops : list Op) : Prop :=
  (forall h', h' ∈ c_app c -> h_name h' <> h_name h -> impl_leaves (h_impl h')) /\
  (forall f, OpUser f ∈ ops -> untouched f).

(** HandleEvent was called with this resource. *)
Definition was_given (id : string) (ks : list Call) : Prop := exists cur next t m, CHandle id cur next t m ∈ ks.

(** A projection whose ResourceVersion() knows only resources that were passed to
    HandleEvent, for an engine that starts with nothing and whose hooks, if Reset is
    used, forget everything. *)
Definition forthright (c : Config) (j : ProjImpl) (u : U) (ops : list Op) : Prop :=
  (forall id u, ~ was_given id (calls u) -> (pj_version j id u).2 = inl ("", None)) /\
  (forall id, ~ was_given id (calls u)) /\
  (OpReset ∈ ops -> forall u id, ~ was_given id (calls (foldl (fun u f => f u) u (c_resetters c)))).

(** The messages that [h] is engaged to handle. *)
Definition engaged_by (h : HId) (fs : list Fact) : list Env :=
  omap (fun f => match f with HandlingBegun h' e => if decide (h' = h) then Some e else None | _ => None end) fs.

(** The events passed to HandleEvent: resource, RecordedAt() and event. *)
Definition given (ks : list Call) : list (string * Z * Msg) :=
  omap (fun k => match k with CHandle id _ _ t m => Some (id, t, m) | _ => None end) ks.
End DeliverySpec.
