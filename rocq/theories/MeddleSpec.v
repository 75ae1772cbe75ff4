(** * Specification of C100: user code that changes roots it has kept *)
From Verif Require Export MemModel MemSpec.

Section MeddleSpec.
Context {P : Params}.

(** What user code may do between two operations of an engine: allocate, and give any value to
    any root that it has kept - from a handler, or from a fact - unless it is the root of a
    process instance.  (The user's world is changed by [OpUser].)  It has no slices of the
    engine. *)
Definition meddled (st st' : MState) : Prop :=
  ms_g st' = ms_g st /\ ms_cs st' = ms_cs st /\
  m_next (ms_mem st) <= m_next (ms_mem st') /\
  (forall a, a < m_next (ms_mem st) -> m_arr (ms_mem st') !! a = m_arr (ms_mem st) !! a) /\
  (forall p, process_root st p -> m_obj (ms_mem st') !! p = m_obj (ms_mem st) !! p).

(** The engine performs the operations [ops], and user code meddles before, between and after
    them. *)
Inductive meddled_run (grow : Mem -> Slice -> nat -> nat) (junk : Root) (c : Config)
  : MState -> list Op -> MState -> list Ev -> list (Out Errs) -> Prop :=
| mr_done st : meddled_run grow junk c st [] st [] []
| mr_meddle st st1 ops st' evs rs :
    meddled st st1 -> meddled_run grow junk c st1 ops st' evs rs -> meddled_run grow junk c st ops st' evs rs
| mr_op st op st1 evs1 r ops st' evs rs :
    op_ok c op -> m_run_op grow junk c op st = (st1, evs1, r) -> r <> Fuel ->
    meddled_run grow junk c st1 ops st' evs rs -> meddled_run grow junk c st (op :: ops) st' (evs1 ++ evs) (r :: rs)
| mr_endless st op st1 evs1 ops :
    op_ok c op -> m_run_op grow junk c op st = (st1, evs1, Fuel) ->
    meddled_run grow junk c st (op :: ops) st1 evs1 [Fuel].

(** User code that gives values to any roots it has kept, those of process instances
    included. *)
Definition assigned (st st' : MState) : Prop :=
  ms_g st' = ms_g st /\ ms_cs st' = ms_cs st /\ m_next (ms_mem st') = m_next (ms_mem st) /\
  m_arr (ms_mem st') = m_arr (ms_mem st) /\
  (forall p, is_Some (m_obj (ms_mem st) !! p) -> is_Some (m_obj (ms_mem st') !! p)).

(** The value of the root of an instance. *)
Definition root_now (junk : Root) (st : MState) (n i : string) : Root :=
  match ms_cs st !! n with
  | Some (MCProc ps) => match mc_instances ps !! i with Some p => deref junk (ms_mem st) p | None => junk end
  | _ => junk
  end.
(** [e'] is [e], except that process instances may have other roots: those of [root], which is
    given the name of the process and the instance. *)
Definition with_roots (root : string -> string -> Root) (e e' : EState) : Prop :=
  es_g e' = es_g e /\
  forall n, es_cs e' !! n =
    match es_cs e !! n with
    | Some (CSProc ps) => Some (CSProc (mkPState (map_imap (fun i _ => Some (root n i)) (pc_instances ps)) (pc_timeouts ps)))
    | cs => cs
    end.
End MeddleSpec.
