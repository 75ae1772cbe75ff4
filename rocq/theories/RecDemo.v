(** * A projection that records the calls it receives. *)
From Verif Require Export ProjSpec.

(** Its world: the calls, in a form that does not depend on the application. *)
Inductive Raw :=
| RVersion (id cur : string)
| RHandle (id cur next : string) (t : Z) (k : Kind) (n : string) (d : nat) (inv : option string)
| RHandled (ok : bool) | RClose (id : string) | RCompact (now : Z) | RCompacted.
#[export] Instance RecP : Params := {| U := list Raw; Root := unit; D := nat |}.

Definition call (r : Raw) : Call :=
  match r with
  | RVersion id cur => CVersion id (inl (cur, None))
  | RHandle id cur next t k n d inv => CHandle id cur next t (mkMsg k (mkBody n d inv))
  | RHandled ok => CHandled ok None
  | RClose id => CClose id (inl None)
  | RCompact now => CCompact now
  | RCompacted => CCompacted None
  end.
Definition calls (u : U) : list Call := map call u.

Definition handled_before (id : string) (r : Raw) : bool :=
  match r with RHandle id' _ _ _ _ _ _ _ => bool_decide (id' = id) | _ => false end.
Definition recorder : ProjImpl := {|
  pj_version id u := let cur := if existsb (handled_before id) u then "x" else "" in
                     (u ++ [RVersion id cur], inl (cur, None));
  pj_handle id cur next t m :=
    JAct (fun u => u ++ [RHandle id cur next t (m_kind m) (b_name (m_body m)) (b_data (m_body m)) (b_invalid (m_body m))]) (fun _ =>
    JLog "handling" (
    JAct (fun u => u ++ [RHandled true]) (fun _ => JRet (true, None))));
  pj_close id u := (u ++ [RClose id], inl None);
  pj_compact now :=
    JAct (fun u => u ++ [RCompact now]) (fun _ =>
    JLog "compacting" (
    JAct (fun u => u ++ [RCompacted]) (fun _ => JRet None))) |}.

Lemma recorder_ok : recording calls recorder.
Proof.
  constructor.
  - intros id u u' a [= <- <-]. unfold calls. rewrite map_app. done.
  - intros id cur next t [k [n d inv]]. eexists _, _. split; [reflexivity|]. split.
    + intros u. unfold calls. rewrite map_app. done.
    + intros _. apply an_log. apply an_ret with (a := (true, None)); [|done].
      intros u. unfold calls. rewrite map_app. done.
  - intros id u u' a [= <- <-]. unfold calls. rewrite map_app. done.
  - intros now. eexists _, _. split; [reflexivity|]. split.
    + intros u. unfold calls. rewrite map_app. done.
    + intros _. apply an_log. apply an_ret with (a := None); [|done].
      intros u. unfold calls. rewrite map_app. done.
Qed.

Definition hRec := mkHandler "rec" (ImplProj recorder) [(KEvent, "E")] [] false.
(** A schedule that alternates between the goroutines. *)
Definition alternating : Oracle :=
  mkOracle (fun _ => None) (fun _ => None) (fun _ => 0%N) Nat.even (fun l => l) 0.
Definition rec_event : Env := new_root "1" (mkMsg KEvent (mkBody "E" 5 None)) 100.
Definition rec_handle (during : bool) (u : U) :=
  j_handle_threads alternating during hRec recorder 200 rec_event (mkG 1 u 0).
