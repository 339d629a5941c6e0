(** create: the pre keys of the bundles it uploads. *)
From Verif Require Import Api Spec Alone PfWp PfFrame PfHist PfEmits PfUpdate PfDevices PfInfo PfTrust PfExec PfNet PfPurge PfLog PfCreate.
Open Scope prog_scope.
Open Scope list_scope.

Definition fill_ok (a : create_args) (e : event) (pre : list event) : Prop :=
  match e with
  | EvUploadBundle b _ => exists ns dev l, pre = EvGetBundle ns (a_jid a) dev (Val b) :: l /\ ns ∈ a_backends a /\
      refilled (a_threshold a) ns l
  | _ => True
  end.

Section fill.
  Context (P : prims) (fuel : nat) (a : create_args) (L0 : list event).
  Notation j := (a_jid a).
  Definition calls (e : event) : Prop := match e with EvUploadBundle _ _ => False | _ => True end.
  Definition J (w : world) : Prop := exists evs, w_log w = evs ++ L0 /\ traced (fill_ok a) evs.

  Lemma J_calls w w' evs : w_log w' = evs ++ w_log w -> Forall calls evs -> J w -> J w'.
  Proof.
    intros E HF (e0 & E0 & T). exists (evs ++ e0). split; [by rewrite E, E0, app_assoc|].
    apply traced_app; [done|]. eapply Forall_impl; [exact HF|]. intros e He l. by destruct e.
  Qed.
  Lemma J_ev w c r : (match event_of c r with Some e => calls e | None => True end) -> J w -> J (w_apply w c r).
  Proof.
    intros H. eapply J_calls; [apply log_apply|]. destruct (event_of c r); [by constructor|constructor].
  Qed.
  Lemma wp_calls {A} (p : api A) (R : outcome A -> world -> Prop) w :
    em calls p -> J w -> (forall o w' evs, J w' -> w_loaded w' = w_loaded w -> w_log w' = evs ++ w_log w -> R o w') ->
    wp base J p R w.
  Proof.
    intros Hp HJ HR. eapply em_wp; [exact Hp| |].
    - intros evs HF. by eapply J_calls; [|exact HF|].
    - intros o evs HF _. eapply HR; [by eapply J_calls; [|exact HF|]|done|done].
  Qed.
  Lemma wp_calls' {A} (p : api A) (R : outcome A -> world -> Prop) w :
    lg calls p -> J w -> (forall o w', J w' -> R o w') -> wp base J p R w.
  Proof.
    intros Hp HJ HR. assert (forall w', reach base p w w' -> J w') as H.
    { intros w' H. apply (lg_reach _ _ _ _ Hp) in H as (evs & HF & Hl & _). by eapply J_calls. }
    apply exec_wp; [|done]. intros o w' Hx. apply HR, H. by eapply exec_reach'.
  Qed.

  Lemma c_ikp : em calls ikp_get.
  Proof. eapply em_mono; [apply em_ikp| |done]. by intros e (k & v & r & -> & _). Qed.
  Lemma c_info cf : em calls (get_own_device_information cf).
  Proof. eapply em_mono; [apply em_own| |done]. by intros e []. Qed.
  Lemma c_refresh cf ns x : em calls (refresh_device_list cf ns x).
  Proof. eapply em_mono; [apply em_refresh| |done]. by intros e [e' []|]. Qed.
  Lemma c_fresh_id n l : em calls (fresh_id n l).
  Proof. induction n as [|n IH]; [done|]. cbn [fresh_id]. emt. apply IH. Qed.
  Lemma c_local k : em calls (first_run_local P fuel a k).
  Proof. unfold first_run_local. emt; first [apply c_fresh_id|by ev]. Qed.
  Lemma c_purge cf ns : lg calls (purge_backend cf ns).
  Proof.
    eapply obeys_mono; [apply lg_purge_backend|done| |done]. intros c Hc r Hr. specialize (Hc r Hr).
    destruct (event_of c r); [|done]. by destruct Hc as [e []| | | | | |].
  Qed.

  Lemma wp_one dev ns w (R : outcome unit -> world -> Prop) :
    J w -> ns ∈ a_backends a -> (exists l, w_log w = l ++ L0 /\ refilled (a_threshold a) ns l) ->
    (forall o w' evs, J w' -> w_loaded w' = w_loaded w -> w_log w' = evs ++ w_log w -> R o w') ->
    wp base J (b <- b_get_bundle ns j dev ;; n_upload_bundle b) R w.
  Proof.
    intros HJ Hns (l & El & Hl) HR. apply wp_bind, wp_ext. intros r Hr.
    assert (J (w_apply w (BGetBundle ns j dev) r)) as HJ1 by (by apply J_ev).
    split; [done|]. destruct r as [b|e]; [|by apply (HR _ _ [EvGetBundle ns j dev (Exn e)])]. apply wp_ext. intros r2 Hr2.
    set (w1 := w_apply w (BGetBundle ns j dev) (Val b)) in *.
    assert (J (w_apply w1 (NUploadBundle b) r2)) as HJ2.
    { destruct HJ1 as (e1 & E1 & T1). exists (EvUploadBundle b r2 :: e1). split; [simpl; by rewrite <- E1|].
      apply traced_cons. split; [|done]. simpl in E1. rewrite El in E1.
      change (EvGetBundle ns j dev (Val b) :: l ++ L0) with ((EvGetBundle ns j dev (Val b) :: l) ++ L0) in E1.
      apply app_inv_tail in E1 as <-. by exists ns, dev, l. }
    split; [done|]. destruct r2 as [[]|e].
    - by apply (HR _ _ [EvUploadBundle b (Val tt); EvGetBundle ns j dev (Val b)]).
    - by apply (HR _ _ [EvUploadBundle b (Exn e); EvGetBundle ns j dev (Val b)]).
  Qed.

  Lemma wp_publish_fill dev w (R : outcome unit -> world -> Prop) :
    J w -> w_loaded w = a_backends a -> (exists l, w_log w = l ++ L0) ->
    (forall o w' evs, J w' -> w_loaded w' = w_loaded w -> w_log w' = evs ++ w_log w -> R o w') ->
    wp base J (first_run_publish (cfg_of a dev)) R w.
  Proof.
    intros HJ HL (l0 & El0) HR. unfold first_run_publish. apply wp_bind, wp_loaded; [done|]. apply wp_bind.
    apply (wp_for_each base J (fun pre w' => J w' /\ w_loaded w' = w_loaded w /\
      (exists l, w_log w' = l ++ w_log w /\ forall n, n ∈ pre -> EvGenerate n 100 (Val tt) ∈ l))).
    { split; [done|]. split; [done|]. exists []. split; [done|]. intros n Hn. by apply elem_of_nil in Hn. }
    { intros pre ns post w1 _ (HJ1 & HL1 & l & El & Hl). apply wp_ext. intros r Hr.
      assert (J (w_apply w1 (BGenerate ns 100) r)) as HJ2 by (by apply J_ev). split; [done|].
      destruct r as [[]|e]; [|by eapply (HR _ _ (EvGenerate ns 100 (Exn e) :: l)); [done|done|simpl; by rewrite El]].
      split; [done|]. split; [done|]. exists (EvGenerate ns 100 (Val tt) :: l). split; [simpl; by rewrite El|].
      intros n [Hn|Hn]%elem_of_app; [right; auto|]. apply elem_of_list_singleton in Hn as ->. left. }
    intros w1 (HJ1 & HL1 & l & El & Hl). apply wp_bind, wp_loaded; [done|]. apply wp_bind.
    apply (wp_for_each base J (fun pre w' => J w' /\ w_loaded w' = w_loaded w /\ (exists l', w_log w' = l' ++ l ++ w_log w))).
    { split; [done|]. split; [done|]. exists []. done. }
    { intros pre ns post w2 Epre (HJ2 & HL2 & l' & El'). rewrite HL1 in Epre. apply wp_one; [done| | |].
      - rewrite <- HL, Epre. apply elem_of_app. right. left.
      - exists (l' ++ l ++ l0). split; [by rewrite El', El0, !app_assoc|]. left. apply elem_of_app. right. apply elem_of_app. left.
        apply Hl. rewrite Epre. apply elem_of_app. right. left.
      - intros [[]|e] w3 evs HJ3 HL3 E3.
        + split; [done|]. split; [congruence|]. exists (evs ++ l'). by rewrite E3, El', app_assoc.
        + eapply (HR _ _ (evs ++ l' ++ l)); [done|congruence|]. by rewrite E3, El', !app_assoc. }
    intros w2 (HJ2 & HL2 & l' & El'). apply wp_bind, wp_loaded; [done|].
    apply wp_calls; [emt; apply c_refresh|done|]. intros o w3 evs HJ3 HL3 E3.
    eapply (HR _ _ (evs ++ l' ++ l)); [done|congruence|]. by rewrite E3, El', !app_assoc.
  Qed.

  Lemma wp_add_fill dev active ns w (R : outcome unit -> world -> Prop) :
    J w -> ns ∈ a_backends a -> (exists l, w_log w = l ++ L0) ->
    (forall o w' evs, J w' -> w_loaded w' = w_loaded w -> w_log w' = evs ++ w_log w -> R o w') ->
    wp base J (add_backend (cfg_of a dev) active ns) R w.
  Proof.
    intros HJ Hns (l0 & El0) HR. unfold add_backend. destruct (decide _); [by apply wp_ret, (HR _ _ [])|].
    apply wp_bind, wp_ext. intros r Hr. assert (J (w_apply w (BNumVisible ns) r)) as HJ1 by (by apply J_ev). split; [done|].
    destruct r as [n0|e]; [|by apply (HR _ _ [EvNumVisible ns (Exn e)])].
    set (w1 := w_apply w (BNumVisible ns) (Val n0)) in *.
    assert (forall w2 l, J w2 -> w_loaded w2 = w_loaded w -> w_log w2 = l ++ w_log w -> refilled (a_threshold a) ns (l ++ l0) ->
      wp base J (b <- b_get_bundle ns j dev ;; (n_upload_bundle b ;;; refresh_device_list (cfg_of a dev) ns j)) R w2) as H.
    { intros w2 l HJ2 HL2 El2 Hl. apply wp_assoc, wp_bind. apply wp_one; [done|done| |].
      - exists (l ++ l0). split; [by rewrite El2, El0, app_assoc|done].
      - intros [[]|e] w3 evs HJ3 HL3 E3.
        + apply wp_calls; [apply c_refresh|done|]. intros o w4 ev4 HJ4 HL4 E4.
          eapply (HR _ _ (ev4 ++ evs ++ l)); [done|congruence|]. by rewrite E4, E3, El2, !app_assoc.
        + eapply (HR _ _ (evs ++ l)); [done|congruence|]. by rewrite E3, El2, !app_assoc. }
    apply wp_bind. change (c_threshold (cfg_of a dev)) with (a_threshold a).
    destruct (Z.leb_spec n0 (a_threshold a)) as [Hle|Hlt].
    - apply wp_ext. intros r Hr'. assert (J (w_apply w1 (BGenerate ns (100 - n0)) r)) as HJ2 by (by apply J_ev). split; [done|].
      destruct r as [[]|e]; [|by apply (HR _ _ [EvGenerate ns (100 - n0) (Exn e); EvNumVisible ns (Val n0)])].
      apply (H _ [EvGenerate ns (100 - n0) (Val tt); EvNumVisible ns (Val n0)]); [done|done|done|].
      right. exists n0, l0. by right.
    - apply wp_ret. apply (H _ [EvNumVisible ns (Val n0)]); [done|done|done|]. right. exists n0, l0. by left.
  Qed.

  Lemma wp_reconcile_fill dev w (R : outcome unit -> world -> Prop) :
    J w -> w_loaded w = a_backends a -> (forall o w', J w' -> R o w') -> wp base J (reconcile (cfg_of a dev)) R w.
  Proof.
    intros HJ HL HR. unfold reconcile. apply wp_bind, wp_calls; [apply c_info|done|]. intros o w1 l1 HJ1 HL1 _.
    destruct o as [r|e]; [|auto]. apply wp_bind, wp_loaded; [done|]. cbv zeta. destruct (set_eqb _ _); [by apply wp_ret, HR|].
    apply wp_bind, wp_order; [done|]. intros o1 _.
    apply wp_bind, wp_calls; [by ev|done|]. intros o w2 ev2 HJ2 HL2 _. destruct o as [_|e]; [|auto].
    apply wp_bind, wp_order; [done|]. intros o2 _.
    apply wp_bind, wp_calls; [by ev|done|]. intros o w3 ev3 HJ3 HL3 _. destruct o as [_|e]; [|auto].
    apply wp_bind, wp_loaded; [done|]. apply wp_bind.
    apply (wp_for_each base J (fun _ w' => J w' /\ w_loaded w' = a_backends a)).
    { split; [done|congruence]. }
    { intros pre ns post w4 E [HJ4 HL4]. apply wp_add_fill; [done| | |].
      - rewrite <- HL, <- HL1, <- HL2, <- HL3, E. apply elem_of_app. right. left.
      - destruct HJ4 as (evs & El & _). by exists evs.
      - intros [[]|e] w5 ev5 HJ5 HL5 _; [|auto]. split; [done|congruence]. }
    intros w4 [HJ4 HL4]. apply wp_bind, wp_order; [done|]. intros o3 _.
    apply (wp_for_each base J (fun _ w' => J w')); [done| |auto].
    intros pre ns post w5 _ HJ5. apply wp_calls'; [apply c_purge|done|]. intros [[]|e]; auto.
  Qed.

  Lemma wp_create_fill w : w_log w = L0 -> wp base J (create P fuel a) (fun _ _ => True) w.
  Proof.
    intros EL. assert (J w) as HJ by (exists []; split; [done|apply traced_nil]).
    unfold create. destruct (negb (bool_decide _)); [by apply wp_raise|]. destruct (negb (_ && _)); [by apply wp_raise|].
    apply wp_bind, wp_ploaded; [exact HJ|]. set (w1 := World (w_disk w) (a_backends a) (w_sync w) (w_log w)).
    assert (J w1) as HJ1 by exact HJ. assert (w_loaded w1 = a_backends a) as HL1 by done. clearbody w1. clear HJ EL w.
    apply wp_bind, wp_calls; [apply c_ikp|done|]. intros o w2 ev2 HJ2 HL2 _. destruct o as [k|e]; [|done].
    apply wp_bind, wp_psync; [exact HJ2|].
    set (w3 := World (w_disk w2) (w_loaded w2) true (w_log w2)). assert (J w3) as HJ3 by exact HJ2.
    assert (w_loaded w3 = a_backends a) as HL3 by (by rewrite <- HL1). clearbody w3.
    apply wp_bind, wp_calls; [apply em_load|done|]. intros o w4 ev4 HJ4 HL4 _. destruct o as [[dev|]|e]; [| |done].
    - apply wp_bind, wp_ret. apply wp_bind, wp_reconcile_fill; [done|congruence|]. intros [[]|e] w5 HJ5; [|done]. by apply wp_ret.
    - apply wp_bind, wp_bind, wp_calls; [apply c_local|done|]. intros o w5 ev5 HJ5 HL5 _. destruct o as [dev|e]; [|done].
      apply wp_bind, wp_publish_fill; [done|congruence|destruct HJ5 as (evs & El & _); by exists evs|].
      intros [[]|e] w6 ev6 HJ6 HL6 _; [|done]. apply wp_ret.
      apply wp_bind, wp_reconcile_fill; [done|congruence|]. intros [[]|e] w7 HJ7; [|done]. by apply wp_ret.
  Qed.
End fill.

Lemma create_fill P fuel a w w' :
  reach base (create P fuel a) w w' -> exists evs, w_log w' = evs ++ w_log w /\ traced (fill_ok a) evs.
Proof.
  intros H. eapply (wp_reach base (J a (w_log w))) in H; [exact H| |].
  - by apply wp_create_fill.
  - exists []. split; [done|]. apply traced_nil.
Qed.
