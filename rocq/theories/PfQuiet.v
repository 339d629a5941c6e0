(** Calls that use no sessions (C93). *)
From Verif Require Import Api Spec PfStrs PfWp.
Open Scope prog_scope.
Open Scope list_scope.

Definition quiet_cmd (c : cmd) : bool :=
  match c with BEncKey _ _ _ | BDecKey _ _ _ | BBuildActive _ _ _ _ _ | BBuildPassive _ _ _ _ _ => false | _ => true end.

Section quiet.
  Context (E : forall c : cmd, resp c -> Prop) (F : cmd -> Prop) (HF : forall c, quiet_cmd c = true -> F c).
  Notation ob p := (obeys E F (fun _ => True) p).

  Lemma q_bind {A B} (p : api A) (f : A -> api B) : ob p -> (forall x, ob (f x)) -> ob (bind p f).
  Proof using. intros Hp Hf. apply obeys_bind. eapply obeys_conseq; [exact Hp|]. by intros [x|e] _; [apply Hf|]. Qed.
  Lemma q_try {A} (p : api A) : ob p -> ob (try_ p).
  Proof using. intros Hp. apply obeys_try. eapply obeys_conseq; [exact Hp|]. done. Qed.
  Lemma q_for_each {A} (l : list A) f : (forall x, x ∈ l -> ob (f x)) -> ob (for_each l f).
  Proof using. intros Hf. apply obeys_for_each; [|done]. intros x Hx. eapply obeys_conseq; [by apply Hf|]. by intros []. Qed.
  Lemma q_fold {A B} (l : list A) (f : B -> A -> api B) b : (forall b x, x ∈ l -> ob (f b x)) -> ob (fold_prog l f b).
  Proof using.
    intros Hf. apply obeys_fold_prog with (L := fun _ => True); [done| |done]. intros b' x _ Hx.
    eapply obeys_conseq; [by apply Hf|]. by intros [].
  Qed.
  Lemma q_map {A B} (l : list A) (f : A -> api B) : (forall x, x ∈ l -> ob (f x)) -> ob (map_prog f l).
  Proof using.
    intros Hf. apply obeys_map_prog with (L := fun _ => True); [|done]. intros x Hx. eapply obeys_conseq; [by apply Hf|]. by intros [].
  Qed.
  Lemma q_filter {A} (l : list A) (f : A -> api bool) : (forall x, x ∈ l -> ob (f x)) -> ob (filter_prog f l).
  Proof using. intros Hf. apply obeys_filter_prog; [|done]. intros x Hx. eapply obeys_conseq; [by apply Hf|]. by intros []. Qed.
  Lemma q_outcome {A} (o : outcome A) : ob (of_outcome o).
  Proof using. by destruct o. Qed.
  Lemma q_from_just {A} (o : option A) : ob (from_just o).
  Proof using. by destruct o. Qed.
  Lemma q_key_error {A} (o : option A) : ob (of_key_error o).
  Proof using. by destruct o. Qed.
  Lemma q_order {A} (l : list A) : ob (order l).
  Proof using HF. split; [by apply HF|done]. Qed.
  Lemma q_load {A} (check : json -> outcome A) k : ob (load_checked check k).
  Proof using HF. apply q_bind. { split; [by apply HF|]. intros r _. by destruct r. } intros [v|]; [|done]. by destruct (check v). Qed.

  Ltac q1 :=
    match goal with
    | |- obeys _ _ _ (bind _ _) => apply q_bind; [|intros ?]
    | |- obeys _ _ _ (try_ _) => apply q_try
    | |- obeys _ _ _ (Ret _) => exact I
    | |- obeys _ _ _ (Raise _) => exact I
    | |- obeys _ _ _ (for_each _ _) => apply q_for_each; intros ? ?
    | |- obeys _ _ _ (fold_prog _ _ _) => apply q_fold; intros ? ? ?
    | |- obeys _ _ _ (map_prog _ _) => apply q_map; intros ? ?
    | |- obeys _ _ _ (filter_prog _ _) => apply q_filter; intros ? ?
    | |- obeys _ _ _ (order _) => apply q_order
    | |- obeys _ _ _ (of_key_error _) => apply q_key_error
    | |- obeys _ _ _ (from_just _) => apply q_from_just
    | |- obeys _ _ _ (of_outcome _) => apply q_outcome
    | |- obeys _ _ _ (load_list _ _) => apply q_load
    | |- obeys _ _ _ (load_dict _ _) => apply q_load
    | |- obeys _ _ _ (load_bytes _) => apply q_load
    | |- obeys _ _ _ (load_optional _ _) => apply q_load
    | |- obeys _ _ _ (load_primitive _ _) => apply q_load
    | |- obeys _ _ _ (let '_ := ?b in _) => destruct b
    | |- obeys _ _ _ (match ?b with _ => _ end) => destruct b
    | |- obeys _ _ _ (if ?b then _ else _) => destruct b
    | |- obeys _ _ _ (Step ?c _) =>
        match c with
        | BEncKey _ _ _ => fail 1 | BDecKey _ _ _ => fail 1 | BBuildActive _ _ _ _ _ => fail 1 | BBuildPassive _ _ _ _ _ => fail 1
        | _ => split; [apply HF; reflexivity|intros ? _]; first [apply q_outcome|exact I|idtac]
        end
    end.
  Ltac unwr := unfold store_bytes, set_trust, b_load_session, b_store_session, b_enc_plain, b_enc_empty,
    b_dec_plain, b_spk_age, b_rotate, b_hide, b_delete, b_del_hidden, b_num_visible, b_generate,
    b_get_bundle, b_purge, b_purge_jid, n_upload_bundle, n_download_bundle, n_delete_bundle, n_upload_dl,
    n_download_dl, n_send, t_eval, t_blind, c_sleep, s_store, s_delete, k_same, g_loaded, g_sync, p_loaded,
    p_sync, c_randbelow, c_randbytes in *.
  Ltac qt := unwr; repeat (cbv zeta; q1).

  Lemma q_find_key jid dev l : ob (find_key jid dev l).
  Proof using HF. induction l as [|ns l IH]; [done|]. cbn [find_key]. qt; exact IH. Qed.
  Lemma q_info_rest cf jid dev nss ik : ob (dev_info_rest cf jid dev nss ik).
  Proof using HF. unfold dev_info_rest. qt. Qed.
  Lemma q_info_ cf jid : ob (get_device_information_ cf jid).
  Proof using HF. unfold get_device_information_. qt. unfold dev_info. qt; first [apply q_find_key|apply q_info_rest]. Qed.
  Lemma q_info cf jid : ob (get_device_information cf jid).
  Proof using HF. unfold get_device_information. qt. apply q_info_. Qed.
  Lemma q_own cf : ob (get_own_device_information cf).
  Proof using HF. unfold get_own_device_information. qt. apply q_info. Qed.
  Lemma q_update cf ns jid dl : ob (update_device_list cf ns jid dl).
  Proof using HF. unfold update_device_list. qt; [unfold upd_own|unfold upd_new|unfold upd_old]; qt. Qed.
  Lemma q_refresh cf ns jid : ob (refresh_device_list cf ns jid).
  Proof using HF. unfold refresh_device_list. qt. apply q_update. Qed.
  Lemma q_refresh_all cf jid : ob (refresh_device_lists cf jid).
  Proof using HF. unfold refresh_device_lists. qt. apply q_refresh. Qed.
  Lemma q_ikp : ob ikp_get.
  Proof using HF. unfold ikp_get. qt; unfold ikp_generate; qt. Qed.
  Lemma q_label cf label : ob (set_own_label cf label).
  Proof using HF. unfold set_own_label. qt. Qed.
  Lemma q_purge_backend cf ns : ob (purge_backend cf ns).
  Proof using HF. unfold purge_backend. qt; try apply q_info; try apply q_own. Qed.
  Lemma q_purge_jid jid : ob (purge_bare_jid jid).
  Proof using HF. unfold purge_bare_jid. qt; unfold collect_key; qt. Qed.
  Lemma q_rotate_upload cf fuel rd ns : ob (rotate_upload cf fuel rd ns).
  Proof using HF. revert rd. induction fuel as [|n IH]; intros rd; [done|]. cbn [rotate_upload]. qt; apply IH. Qed.
  Lemma q_rotation cf fuel period : ob (rotation cf fuel period).
  Proof using HF.
    induction fuel as [|n IH]; [done|]. cbn [rotation]. qt; try exact IH. unfold rotate_one. qt. apply q_rotate_upload.
  Qed.
  Lemma q_ensure cf : ob (ensure_data_consistency cf).
  Proof using HF. unfold ensure_data_consistency. qt; try apply q_refresh_all; try apply q_refresh. Qed.
  Lemma q_fresh_id fuel l : ob (fresh_id fuel l).
  Proof using HF. induction fuel as [|n IH]; [done|]. cbn [fresh_id]. qt. exact IH. Qed.
  Lemma q_create P fuel args : ob (create P fuel args).
  Proof using HF.
    unfold create. qt; try apply q_ikp.
    - unfold first_run_local. qt; try apply q_fresh_id.
    - unfold first_run_publish. qt; try apply q_update; try apply q_refresh_all; try apply q_refresh.
    - unfold reconcile. qt; try apply q_refresh_all; try apply q_own; try apply q_purge_backend; unfold add_backend; qt; try apply q_refresh; try apply q_update.
  Qed.
  Lemma q_chain j x nss : ob (get_sending_chain_length j x nss).
  Proof using HF. unfold get_sending_chain_length. qt. Qed.
  Lemma q_sender cf m : ob (dec_sender cf m).
  Proof using HF. unfold dec_sender. qt; try apply q_info; apply q_refresh. Qed.
  Lemma q_prekeys cf ns s : ob (dec_prekeys cf ns s).
  Proof using HF. unfold dec_prekeys. qt. Qed.

  Lemma q_call c :
    match c with KEncrypt _ _ _ _ _ _ | KDecrypt _ _ | KAfter _ | KReplace _ _ _ => False | _ => True end -> ob (run_call c).
  Proof using HF.
    intros Hc. destruct c; cbn [run_call call_ret]; try done.
    - apply q_create.
    - apply q_ikp.
    - apply q_update.
    - apply q_refresh.
    - apply q_refresh_all.
    - qt.
    - apply q_info.
    - apply q_own.
    - apply q_label.
    - apply q_purge_backend.
    - apply q_purge_jid.
    - apply q_rotation.
    - apply q_ensure.
    - apply q_chain.
    - unfold before_history_sync. qt.
  Qed.
End quiet.
