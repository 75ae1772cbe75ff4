(** * Vocabulary for locations. *)
From Verif Require Export LocationModel InflectSpec.

(** A number: at least one digit and nothing else. *)
Definition is_number (d : text) : Prop := d <> [] /\ Forall (fun c => c ∈ txt "0123456789") d.
(** The name of a function literal: it ends with [.func] and numbers separated by dots. *)
Definition literal_name (f : text) : Prop :=
  exists p d ds, f = p ++ txt ".func" ++ d ++ concat (map (cons dot) ds) /\ is_number d /\ Forall is_number ds.
(** A function name that says where the function is. *)
Definition telling_name (f : text) : Prop := f <> [] /\ ~ contains (txt "glob..") f /\ ~ literal_name f.

(** [b] is the last element of the path [p]. *)
Definition last_element (p b : text) : Prop :=
  b <> [] /\ slash ∉ b /\ exists d n, p = d ++ b ++ replicate n slash /\ (d = [] \/ last d = Some slash).

(** Where [panic] was called: below the most recent call of runtime.gopanic, skipping
    functions of the runtime. *)
Definition in_runtime (f : Frame) : Prop := exists s, fr_func f = txt "runtime." ++ s.
Definition panicked_at (frames : list Frame) (f : Frame) : Prop :=
  exists l1 g l2 l3, frames = l1 ++ [g] ++ l2 ++ [f] ++ l3 /\
    Forall (fun x => fr_func x <> txt "runtime.gopanic") l1 /\ fr_func g = txt "runtime.gopanic" /\
    Forall in_runtime l2 /\ ~ in_runtime f.
