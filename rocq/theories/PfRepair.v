(** C19: ensure_data_consistency repairs what an interrupted create left unpublished. *)
From Verif Require Import Api Spec Alone PfWp PfFrame PfHist PfEmits PfUpdate PfDevices PfInfo PfTrust PfExec PfNet PfPurge PfLog PfCreate PfReconcile.
Open Scope prog_scope. Open Scope string_scope. Open Scope list_scope.

Section repair.
  Context (P : prims) (fuel : nat) (a : create_args).
  Lemma create_loaded cf w w' : exec base (create P fuel a) w (Val cf) w' -> c_jid cf = a_jid a /\ w_loaded w' = a_backends a.
  Proof.
    intros H. apply create_split in H as (w2 & ev0 & L2 & _ & _ & [(dev & _ & -> & H)|(_ & k & dev & w3 & w4 & -> & H1 & H2 & H3)]).
    - apply (reconcile_exec _ (a_backends a)) in H as (ev & _ & _ & L & _); done.
    - apply (em_exec _ _ _ _ _ _ (em_local P fuel a k)) in H1 as (_ & ev1 & _ & E1).
      apply publish_exec in H2 as (L4 & _).
      assert (w_loaded w3 = a_backends a) as L3 by (by rewrite E1).
      apply (reconcile_exec _ (a_backends a)) in H3 as (ev & _ & _ & L & _); [done|by rewrite L4].
  Qed.
  Lemma create_repaired cf w w1 w2 : exec base (create P fuel a) w (Val cf) w1 -> exec base (ensure_data_consistency cf) w1 (Val tt) w2 ->
    exists evs, w_log w2 = evs ++ w_log w1 /\ forall ns, ns ∈ a_backends a ->
      listed ns (a_jid a) (c_dev cf) w2 /\
      exists b, EvGetBundle ns (a_jid a) (c_dev cf) (Val b) ∈ evs /\
        (EvDownloadBundle ns (a_jid a) (c_dev cf) (Val b) ∈ evs \/ EvUploadBundle b (Val tt) ∈ evs).
  Proof.
    intros [J L]%create_loaded H. apply ensure_exec in H as (evs & E & R). exists evs. split; [done|].
    intros ns Hns. rewrite <- L in Hns. destruct (R ns Hns) as [R1 R2]. rewrite J in R1, R2. split; [|exact R2]. unfold listed. rewrite E. exact R1.
  Qed.
End repair.
