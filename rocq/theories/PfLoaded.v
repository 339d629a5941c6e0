(** The loaded backends have distinct namespaces in every interleaving. *)
From Verif Require Import Api Spec Alone PfStrs PfTyped PfFrame PfAlone.
Open Scope prog_scope.
Open Scope list_scope.

Definition distinct (w : world) : Prop := NoDup (w_loaded w).

Lemma distinct_step w c r :
  distinct w -> F (fun _ _ => True) (fun _ => True) True c -> w_allowed w c r ->
  E (fun _ _ => True) (fun _ => True) True c r /\ distinct (w_apply w c r).
Proof.
  intros Hw HF Hr. split.
  - split; [by exists w|]. destruct c; try done; simpl in *.
    + by destruct r.
    + subst. split; [by apply Forall_forall|done].
    + by destruct r as [[]|].
    + by destruct r as [[]|].
  - unfold distinct in *. destruct c; simpl in *; try done; destruct r; simpl; try done. by apply HF.
Qed.
Lemma distinct_calls c : call_wr (fun _ _ => True) (fun _ _ => True) (fun _ => True) c.
Proof.
  assert (forall jid, wr_info (fun _ _ => True) (fun _ _ => True) jid) as Hi by (unfold wr_info; intros; repeat split).
  assert (forall jid, wr_dev (fun _ _ => True) (fun _ _ => True) jid) as Hd by (unfold wr_dev; intros; repeat split).
  destruct c; cbn [call_wr]; unfold wr_create, wr_ikp, wr_own, wr_purge, wr_queue; repeat split; auto.
  apply Forall_forall. done.
Qed.
Lemma distinct_app (ok : call -> Prop) {A} (p : api A) : appcode ok p -> psafe base distinct p.
Proof.
  intros Hp. eapply obeys_psafe; [exact distinct_step|].
  eapply (app_obeys (fun _ _ => True) (fun _ _ => True) (fun _ => True) False True); [tauto| |exact Hp].
  intros c _. apply distinct_calls.
Qed.

Lemma contract_preach (P : world -> forall c, resp c -> Prop) (I : world -> Prop) ps w cfg' :
  (forall w c r, I w -> w_allowed w c r -> P w c r) ->
  I w -> Forall (psafe base I) ps -> preach base (ps, w) cfg' -> preach (with_contract P) (ps, w) cfg'.
Proof.
  intros HP. remember (ps, w) as cfg eqn:E. intros Hw Hps H. revert ps w E Hw Hps.
  induction H as [cfg|cfg cfg1 cfg2 Hs Hr IH]; intros ps w -> Hw Hps; [apply preach_refl|].
  assert (preach base (ps, w) cfg1) as H1 by (eapply preach_step; [exact Hs|apply preach_refl]).
  destruct (psafe_preach base I ps w cfg1 Hw Hps H1) as [Hw1 Hps1].
  destruct Hs as (i & c & k & r & Hi & Ha & He). eapply preach_step.
  - exists i, c, k, r. split; [exact Hi|]. split; [|exact He]. split; [exact Ha|]. by apply HP.
  - destruct cfg1 as [ps1 w1]. by eapply IH.
Qed.
Lemma distinct_preach (ok : call -> Prop) (ps : list (api unit)) w cfg' :
  NoDup (w_loaded w) -> Forall (fun p => appcode ok p) ps -> preach base (ps, w) cfg' ->
  NoDup (w_loaded cfg'.2) /\ preach (with_contract distinct_backends) (ps, w) cfg'.
Proof.
  intros Hw Hps H.
  assert (Forall (psafe base distinct) ps) as Hs by (eapply Forall_impl; [exact Hps|]; intros p; apply distinct_app).
  split; [by eapply (psafe_preach base distinct) in H as [? _]|].
  apply (contract_preach _ distinct); [|exact Hw|exact Hs|exact H].
  intros w1 c r Hd Hr. destruct c; try done. simpl in *. by subst.
Qed.
Lemma pool_covered (ok : call -> Prop) (ps : list (api unit)) i p w ps' w' :
  NoDup (w_loaded w) -> Forall (fun p => appcode ok p) ps -> ps !! i = Some p -> preach base (ps, w) (ps', w') ->
  exists new evs, w_log w' = new ++ w_log w /\ evs `sublist_of` new /\ reach (alone distinct_backends) p [] evs /\
    (ps' !! i = Some (Ret tt) -> exec (alone distinct_backends) p [] (Val tt) evs) /\
    (forall e, ps' !! i = Some (Raise e) -> exec (alone distinct_backends) p [] (Exn e) evs).
Proof. intros Hw Hps Hi H. destruct (distinct_preach _ _ _ _ Hw Hps H) as [_ H']. by eapply alone_preach. Qed.
