(** * From the store principle to histories. *)
From Verif Require Export TraceSpec StoreSim EnvProof.

Section HistSim.
Context {P : Params}.

Lemma cs_init_lookup c u hd cs :
  app_ok c -> hd ∈ c_app c -> es_cs (e_init c u) !! h_name hd = Some cs -> cs = cs_init hd.
Proof.
  intros Hok Hin Hl. cbn in Hl. rewrite lookup_fmap in Hl.
  destruct (controllers c !! h_name hd) as [h|] eqn:E; [|done]. cbn in Hl. injection Hl as <-.
  apply controllers_in in E as [Hin' Hn]. assert (h = hd) as ->; [|done]. eapply app_name_inj; eassumption.
Qed.

Lemma store_history c u (check : list Fact -> Fact -> Prop) R ops st evs fin :
  (app_ok c -> StoreOK c check snoc clear R) -> (app_ok c -> R None (es_cs (e_init c u)) []) ->
  history c u ops st evs fin ->
  good_evs check snoc clear [] evs /\ R None (es_cs st) (since_reset evs).
Proof.
  intros K HI (Hok & Hops & Hrun). specialize (K Hok). specialize (HI Hok).
  destruct (sim_ops c check snoc clear (SI R) (SO R) (SM R) (ST R) Hok (store_sim c check snoc clear R K)
              ops _ [] _ _ _ (e_init_ok c u Hok) HI Hops Hrun) as (_ & Hg & Ha).
  split; [done|]. rewrite since_reset_upd in Ha. unfold after_ops in Ha.
  destruct fin; [exact Ha|]. destruct Ha as (oo & cy & q & Ha). eapply sto_end; eassumption.
Qed.

Lemma store_checked c u (check : list Fact -> Fact -> Prop) R ops st evs fin pre f :
  (app_ok c -> StoreOK c check snoc clear R) -> (app_ok c -> R None (es_cs (e_init c u)) []) ->
  history c u ops st evs fin -> occurs evs pre f -> check pre f.
Proof.
  intros K HI H Ho. destruct (store_history c u check R ops st evs fin K HI H) as [Hg _].
  eapply good_evs_occurs; eassumption.
Qed.
Lemma occurs_before evs l1 g l2 f : occurs evs (l1 ++ g :: l2) f -> occurs evs l1 g.
Proof.
  intros (before & after & -> & Hl). symmetry in Hl. apply since_reset_occurs in Hl as (b & a & -> & ->).
  exists b, (a ++ EvFact f :: after). split; [rewrite <- app_assoc; done|done].
Qed.
End HistSim.
