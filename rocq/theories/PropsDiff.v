(** * C83: the "Message Diff" of a report *)
From Verif Require Import DiffSpec DiffLemmas LocationModel LocationLemmas.

(** The diff tells both texts: if no text contains one of the markers, two pairs of texts
    with the same diff are the same. *)
Theorem C83_diff_is_unambiguous dm a b a' b' :
  diffs_of dm -> no_markers a -> no_markers b -> no_markers a' -> no_markers b' ->
  write_diff dm a b = write_diff dm a' b' -> a = a' /\ b = b'.
Proof.
  intros Hd Ha Hb Ha' Hb' He. destruct (Hd a b) as [E1 E2]. destruct (Hd a' b') as [E1' E2'].
  assert (Hc : chars (dm a b) = chars (dm a' b')).
  { rewrite <- !read_render; [by f_equal|by rewrite ?E1, ?E2, ?E1', ?E2'..]. }
  split.
  - rewrite <- E1, <- E1', <- !chars_before. by f_equal.
  - rewrite <- E2, <- E2', <- !chars_after. by f_equal.
Qed.
Print Assumptions C83_diff_is_unambiguous.

(** A diff in which nothing is marked is of equal texts, and is that text. *)
Theorem C83_unmarked dm a b : diffs_of dm ->
  ~ contains (txt "{+") (write_diff dm a b) -> ~ contains (txt "[-") (write_diff dm a b) ->
  a = b /\ write_diff dm a b = b.
Proof.
  intros Hd H1 H2. destruct (Hd a b) as [E1 E2]. destruct (render_plain (dm a b) H1 H2) as [E3 E4].
  unfold write_diff, render in *. split; congruence.
Qed.
Print Assumptions C83_unmarked.

(** A diff of texts with markers can be that of other texts. *)
Theorem C83_markers_refuted : exists dm a b a' b', diffs_of dm /\ write_diff dm a b = write_diff dm a' b' /\ a <> a'.
Proof.
  set (dm := fun a b : text => if decide (a = b) then [mkDiff DEqual a] else [mkDiff DDelete a; mkDiff DInsert b]).
  exists dm, (txt "[-x-]{++}"), (txt "[-x-]{++}"), (txt "x"), []. split; [|split; [vm_compute; done|vm_compute; done]].
  intros a b. unfold dm. case_decide; subst; unfold text_before, text_after; cbn; by rewrite ?app_nil_r.
Qed.
Print Assumptions C83_markers_refuted.

(** A diff as diffmatchpatch produces it, of texts that end in half a marker. *)
Example C83_example : let dm := fun a b : text => if decide (a = txt "Total{1+" /\ b = txt "Total{2") then
    [mkDiff DEqual (txt "Total{"); mkDiff DDelete (txt "1+"); mkDiff DInsert (txt "2")] else [mkDiff DDelete a; mkDiff DInsert b] in
  diffs_of dm /\ no_markers (txt "Total{1+") /\ no_markers (txt "Total{2") /\
  write_diff dm (txt "Total{1+") (txt "Total{2") = txt "Total{[-1+-]{+2+}".
Proof.
  assert (Hk : forall k s, k ∈ [txt "{+"; txt "+}"; txt "[-"; txt "-]"] -> contains k s -> Exists (fun k => text_contains k s = true) [txt "{+"; txt "+}"; txt "[-"; txt "-]"]).
  { intros k s Hin Hc. apply Exists_exists. exists k. split; [done|]. by apply text_contains_spec. }
  cbv zeta. split; [|split; [|split]].
  - intros a b. case_decide as Hd; [destruct Hd as [-> ->]; done|]. unfold text_before, text_after; cbn; by rewrite ?app_nil_r.
  - intros k Hin Hc. specialize (Hk k _ Hin Hc). vm_compute in Hk. repeat (apply Exists_cons in Hk as [Hk|Hk]; [done|]). by apply Exists_nil in Hk.
  - intros k Hin Hc. specialize (Hk k _ Hin Hc). vm_compute in Hk. repeat (apply Exists_cons in Hk as [Hk|Hk]; [done|]). by apply Exists_nil in Hk.
  - by vm_compute.
Qed.
