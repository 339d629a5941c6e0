(** C86: a traversal of the library for the exceptions it raises. *)
From Verif Require Import Docs PfWp PfEmits PfExec PfAlone PfLog.
Open Scope prog_scope.
Open Scope list_scope.

Definition okx (D : list exn) (e : exn) : Prop := is_omemo e = true -> kind e ∈ EStorage :: D.
Lemma okx_mono D D' e : D ⊆ D' -> okx D e -> okx D' e.
Proof. intros H Ho Hi. specialize (Ho Hi). set_solver. Qed.
Lemma ex_or_type {A} (o : option A) e : or_type_error o = Exn e -> is_omemo e = false.
Proof. destruct o; [done|]. by intros [= <-]. Qed.
Lemma doc_kind c e : e ∈ doc_cmd c -> kind e = e.
Proof. destruct c; simpl; rewrite ?elem_of_cons, ?elem_of_nil; intros H; destruct_or?; by subst. Qed.

Section docs.
  Context (P : world -> forall c, resp c -> Prop) (L : list string).
  Hypothesis HP : forall w c r, P w c r -> by_the_book w c r /\ fixed_backends L w c r.
  Definition Ed (c : cmd) (r : resp c) : Prop := exists w, w_allowed w c r /\ P w c r.
  Notation ex D p := (obeys Ed (fun _ => True) (fun o => match o with Val _ => True | Exn e => okx D e end) p).

  Lemma ex_mono {A} D D' (p : api A) : ex D p -> D ⊆ D' -> ex D' p.
  Proof using Type. intros Hp H. eapply obeys_conseq; [exact Hp|]. intros [a|e] Ho; [done|]. by eapply okx_mono. Qed.
  Lemma ex_bind {A B} D (p : api A) (f : A -> api B) : ex D p -> (forall a, ex D (f a)) -> ex D (bind p f).
  Proof using Type. intros Hp Hf. apply obeys_bind. eapply obeys_conseq; [exact Hp|]. intros [a|e] H; [apply Hf|done]. Qed.
  Lemma ex_try {A B} D D' (p : api A) (f : outcome A -> api B) :
    ex D' p -> (forall a, ex D (f (Val a))) -> (forall e, okx D' e -> ex D (f (Exn e))) -> ex D (bind (try_ p) f).
  Proof using Type. intros Hp Hv He. apply obeys_bind, obeys_try. eapply obeys_conseq; [exact Hp|]. intros [a|e] H; [apply Hv|by apply He]. Qed.
  Lemma ex_for_each {A} D (l : list A) f : (forall x, x ∈ l -> ex D (f x)) -> ex D (for_each l f).
  Proof using Type. intros Hf. apply obeys_for_each; [|done]. intros x Hx. eapply obeys_conseq; [by apply Hf|]. by intros []. Qed.
  Lemma ex_fold {A B} D (l : list A) (f : B -> A -> api B) b : (forall b x, x ∈ l -> ex D (f b x)) -> ex D (fold_prog l f b).
  Proof using Type. intros Hf. apply obeys_fold_prog with (L := fun _ => True); [done| |done]. intros c x _ Hx. eapply obeys_conseq; [by apply Hf|]. by intros []. Qed.
  Lemma ex_map {A B} D (l : list A) (f : A -> api B) : (forall x, x ∈ l -> ex D (f x)) -> ex D (map_prog f l).
  Proof using Type. intros Hf. apply obeys_map_prog with (L := fun _ => True); [|done]. intros x Hx. eapply obeys_conseq; [by apply Hf|]. by intros []. Qed.
  Lemma ex_filter {A} D (l : list A) (f : A -> api bool) : (forall x, x ∈ l -> ex D (f x)) -> ex D (filter_prog f l).
  Proof using Type. intros Hf. apply obeys_filter_prog; [|done]. intros x Hx. eapply obeys_conseq; [by apply Hf|]. by intros []. Qed.
  Lemma ex_quiet {A} D e : is_omemo e = false -> ex D (Raise e : api A).
  Proof using Type. intros H. cbn. intros H'. congruence. Qed.
  Lemma ex_raise {A} D e : kind e ∈ EStorage :: D -> ex D (Raise e : api A).
  Proof using Type. intros H. cbn. by intros _. Qed.
  Lemma ex_from_just {A} D (o : option A) : ex D (from_just o).
  Proof using Type. destruct o; [done|]. by apply ex_quiet. Qed.
  Lemma ex_key_error {A} D (o : option A) : ex D (of_key_error o).
  Proof using Type. destruct o; [done|]. by apply ex_quiet. Qed.
  Lemma ex_cmd {A} D c (cast : resp c -> outcome A) :
    (forall r e, cast r = Exn e -> resp_exn c r = Some e) -> doc_cmd c ⊆ EStorage :: D ->
    ex D (Step c (fun r => of_outcome (cast r))).
  Proof using HP.
    intros Hc HD. split; [done|]. intros r (w & Ha & Hp). destruct (cast r) as [a|e] eqn:E; [done|].
    apply HP in Hp as [Hp _]. unfold by_the_book in Hp. rewrite (Hc _ _ E) in Hp. cbn. intros Ho.
    destruct Hp as [->|Hp]; [done|]. rewrite (doc_kind _ _ Hp). by apply HD.
  Qed.
  Lemma ex_order {A} D (l : list A) : ex D (order l).
  Proof using Type. by split. Qed.
  Lemma ex_load {A} D (check : json -> outcome A) k : (forall v e, check v = Exn e -> is_omemo e = false) -> ex D (load_checked check k).
  Proof using HP.
    intros Hc. unfold load_checked. apply ex_bind.
    - apply (ex_cmd D (SLoad k) (fun r => r)); [by intros [v|e] e' [= ->]|]. set_solver.
    - intros [v|]; [|done]. destruct (check v) as [a|e] eqn:E; [done|]. apply ex_quiet. by eapply Hc.
  Qed.
  Lemma ex_primitive {A} D (prim : json -> option A) k : ex D (load_primitive prim k).
  Proof using HP. apply ex_load. intros v e. apply ex_or_type. Qed.
  Lemma ex_list {A} D (prim : json -> option A) k : ex D (load_list prim k).
  Proof using HP. apply ex_load. intros v e. destruct v; try (by intros [= <-]). apply ex_or_type. Qed.
  Lemma ex_dict {A} D (prim : json -> option A) k : ex D (load_dict prim k).
  Proof using HP. apply ex_load. intros v e. destruct v; try (by intros [= <-]). apply ex_or_type. Qed.
  Lemma ex_optional {A} D (prim : json -> option A) k : ex D (load_optional prim k).
  Proof using HP. apply ex_load. intros v e. destruct v; try done; destruct (prim _); try done; by intros [= <-]. Qed.
  Lemma ex_bytes D k : ex D (load_bytes k).
  Proof using HP. apply ex_load. intros v e. destruct v; try (by intros [= <-]). destruct (b64dec s); [done|]. by intros [= <-]. Qed.
  Lemma ex_loaded {A} D (k : list string -> api A) : ex D (k L) -> ex D (bind g_loaded k).
  Proof using HP. intros Hk. split; [done|]. intros r (w & Ha & [_ Hp]%HP). simpl in Hp. by subst r. Qed.
  Lemma ex_silent {A} D c (k : resp c -> api A) : (forall r, ex D (k r)) -> ex D (Step c k).
  Proof using Type. intros Hk. split; [done|]. intros r _. apply Hk. Qed.

  Ltac incl := let e := fresh "e" in let H := fresh "H" in
    first [progress intros e H|idtac]; cbn [doc_cmd kind] in *; repeat rewrite ?elem_of_cons, ?elem_of_nil in *; destruct_or?; subst; tauto.
  Ltac ex1 :=
    match goal with
    | |- obeys _ _ _ (bind g_loaded _) => apply ex_loaded
    | |- obeys _ _ _ (bind (try_ _) _) => fail 1
    | |- obeys _ _ _ (bind _ _) => apply ex_bind; [|intros ?]
    | |- obeys _ _ _ (Ret _) => exact I
    | |- obeys _ _ _ (Raise ENothing) => by apply ex_quiet
    | |- obeys _ _ _ (Raise ERuntime) => by apply ex_quiet
    | |- obeys _ _ _ (Raise EKeyError) => by apply ex_quiet
    | |- obeys _ _ _ (Raise EValueError) => by apply ex_quiet
    | |- obeys _ _ _ (Raise EOutOfFuel) => by apply ex_quiet
    | |- obeys _ _ _ (for_each _ _) => apply ex_for_each; intros ? ?
    | |- obeys _ _ _ (fold_prog _ _ _) => apply ex_fold; intros ? ? ?
    | |- obeys _ _ _ (map_prog _ _) => apply ex_map; intros ? ?
    | |- obeys _ _ _ (filter_prog _ _) => apply ex_filter; intros ? ?
    | |- obeys _ _ _ (order _) => apply ex_order
    | |- obeys _ _ _ (of_key_error _) => apply ex_key_error
    | |- obeys _ _ _ (from_just _) => apply ex_from_just
    | |- obeys _ _ _ (load_list _ _) => apply ex_list
    | |- obeys _ _ _ (load_dict _ _) => apply ex_dict
    | |- obeys _ _ _ (load_bytes _) => apply ex_bytes
    | |- obeys _ _ _ (load_optional _ _) => apply ex_optional
    | |- obeys _ _ _ (load_primitive _ _) => apply ex_primitive
    | |- obeys _ _ _ (let '_ := ?b in _) => destruct b
    | |- obeys _ _ _ (match ?b with _ => _ end) => destruct b
    | |- obeys _ _ _ (if ?b then _ else _) => destruct b
    end.
  Ltac xcmd := unfold store_bytes in *; unw; unfold g_loaded, g_sync, p_loaded, p_sync, c_randbelow, c_randbytes, s_load, k_same in *;
    match goal with
    | |- obeys _ _ _ (Step ?c of_outcome) => apply (ex_cmd _ c (fun r => r)); [by intros [?|?] ? [= ->]|incl]
    | |- obeys _ _ _ (Step _ _) => apply ex_silent; intros ?; exact I
    end.
  Ltac ext := repeat (cbv zeta; first [ex1|progress xcmd]).
  Ltac wk H := eapply ex_mono; [apply H|incl].

  Lemma ex_upd_own D cf ns j dl : EDeviceListUploadFailed ∈ D -> ex D (upd_own cf ns j dl).
  Proof using HP. intros HD. unfold upd_own. ext.  Qed.
  Lemma ex_upd_new D ns j dl x : ex D (upd_new ns j dl x).
  Proof using HP. unfold upd_new. ext. Qed.
  Lemma ex_upd_old D ns j dl x : ex D (upd_old ns j dl x).
  Proof using HP. unfold upd_old. ext. Qed.
  Lemma ex_update D cf ns j dl : EDeviceListUploadFailed ∈ D -> ns ∈ L \/ EUnknownNamespace ∈ D -> ex D (update_device_list cf ns j dl).
  Proof using HP.
    intros HD Hn. unfold update_device_list. apply ex_loaded. destruct (decide (ns ∈ L)) as [H|H].
    - ext; auto using ex_upd_own, ex_upd_new, ex_upd_old.
    - destruct Hn as [?|Hn]; [done|]. apply ex_raise. simpl. by right.
  Qed.
  Lemma ex_refresh D cf ns j : EDeviceListDownloadFailed ∈ D -> EDeviceListUploadFailed ∈ D -> ns ∈ L \/ EUnknownNamespace ∈ D ->
    ex D (refresh_device_list cf ns j).
  Proof using HP. intros H1 H2 Hn. unfold refresh_device_list. ext. by apply ex_update. Qed.

  Ltac sol := simpl; repeat rewrite ?elem_of_cons, ?elem_of_nil; tauto.
  Lemma ex_refresh_all cf j : ex [EDeviceListDownloadFailed; EDeviceListUploadFailed] (refresh_device_lists cf j).
  Proof using HP. unfold refresh_device_lists. ext. apply ex_refresh; [sol|sol|by left]. Qed.
  Lemma ex_find_key j x l : ex [] (find_key j x l).
  Proof using HP.
    induction l as [|ns l IH]; [done|]. cbn [find_key]. eapply (ex_try [] [EBundleDownloadFailed; EBundleNotFound]).
    - ext.
    - intros b. ext.
    - intros err He. destruct err; first [exact IH|by apply ex_quiet|apply ex_raise; specialize (He eq_refl); simpl in *;
        repeat rewrite ?elem_of_cons, ?elem_of_nil in *; naive_solver].
  Qed.
  Lemma ex_info_ cf j : ex [] (get_device_information_ cf j).
  Proof using HP. unfold get_device_information_, dev_info, dev_info_rest. ext; apply ex_find_key. Qed.
  Lemma ex_info cf j : ex [] (get_device_information cf j).
  Proof using HP. unfold get_device_information. ext. apply ex_info_. Qed.
  Lemma ex_own cf : ex [] (get_own_device_information cf).
  Proof using HP. unfold get_own_device_information. ext. apply ex_info. Qed.
  Lemma ex_label cf l : ex [EDeviceListUploadFailed; EDeviceListDownloadFailed] (set_own_label cf l).
  Proof using HP. unfold set_own_label. ext. Qed.
  Lemma ex_purge_backend cf ns : ex [EBundleDeletionFailed; EDeviceListUploadFailed; EDeviceListDownloadFailed] (purge_backend cf ns).
  Proof using HP. unfold purge_backend. ext. wk ex_own. Qed.
  Lemma ex_purge_jid j : ex [] (purge_bare_jid j).
  Proof using HP. unfold purge_bare_jid, collect_key. ext. Qed.
  Lemma ex_rotate_upload cf fuel rd ns : ex [] (rotate_upload cf fuel rd ns).
  Proof using HP.
    revert rd. induction fuel as [|n IH]; intros rd; [by apply ex_quiet|]. cbn [rotate_upload].
    eapply (ex_try [] [EBundleUploadFailed]); [ext|intros []; ext|].
    intros err He. destruct err; first [by apply ex_quiet|ext; apply IH|apply ex_raise; specialize (He eq_refl); simpl in *;
        repeat rewrite ?elem_of_cons, ?elem_of_nil in *; naive_solver].
  Qed.
  Lemma ex_rotation cf fuel period : ex [] (rotation cf fuel period).
  Proof using HP.
    assert (forall n m, ex [] (rotation cf n m)) as H; [|apply H].
    intros n. induction n as [|n IH]; intros m; [by apply ex_quiet|]. cbn [rotation]. unfold rotate_one. ext; [apply ex_rotate_upload|apply IH].
  Qed.
  Lemma ex_ensure cf : ex [EDeviceListDownloadFailed; EDeviceListUploadFailed; EBundleUploadFailed] (ensure_data_consistency cf).
  Proof using HP.
    unfold ensure_data_consistency. ext.
    - apply ex_refresh; [sol|sol|by left].
    - eapply (ex_try _ [EBundleDownloadFailed; EBundleNotFound]); [ext|intros b; ext|].
      intros err He. destruct err; ext; try (by apply ex_quiet); (apply ex_raise; specialize (He eq_refl); simpl in *;
        repeat rewrite ?elem_of_cons, ?elem_of_nil in *; naive_solver).
  Qed.
  Lemma ex_send_empty cf ns s : ex [EMessageSendingFailed] (send_empty_message cf ns s).
  Proof using HP. unfold send_empty_message. ext. Qed.
  Lemma ex_replace cf j x : ex [] (replace_sessions cf j x).
  Proof using HP.
    unfold replace_sessions. ext; [apply ex_info|].
    eapply (ex_try _ [EBundleDownloadFailed; EBundleNotFound; EKeyExchangeFailed; EMessageSendingFailed]); [unfold replace_one; ext|intros []; ext|].
    intros err He. destruct (is_omemo err) eqn:E; [ext|by apply ex_quiet].
  Qed.
  Lemma ex_chain j x nss : ex [] (get_sending_chain_length j x nss).
  Proof using HP. unfold get_sending_chain_length. ext. Qed.
  Lemma ex_after cf : ex [EMessageSendingFailed] (after_history_sync cf).
  Proof using HP. unfold after_history_sync, flush_ns, flush_jid, flush_dev. ext; apply ex_send_empty. Qed.
  Lemma ex_devices_with t l : ex [EUnknownTrustLevel] (devices_with t l).
  Proof using HP. unfold devices_with. ext. Qed.
  Lemma ex_enc_trust cf mtd ident l : (forall ds i, ex [ETrustDecisionFailed] (mtd ds i)) ->
    ex [EUnknownTrustLevel; ETrustDecisionFailed; EStillUndecided] (enc_trust cf mtd ident l).
  Proof using HP. intros Hm. unfold enc_trust, reload_trust. ext; first [wk ex_devices_with|wk Hm|apply ex_raise; sol]. Qed.
  Lemma ex_enc_backend cf pt cache st ns : ex [] (enc_backend cf pt cache st ns).
  Proof using HP.
    unfold enc_backend, enc_device. ext.
    eapply (ex_try _ [EBundleDownloadFailed; EBundleNotFound; EKeyExchangeFailed]); [ext|intros [s0 k0]; ext|].
    intros err He. destruct err; ext; try (by apply ex_quiet); (apply ex_raise; specialize (He eq_refl); simpl in *;
        repeat rewrite ?elem_of_cons, ?elem_of_nil in *; naive_solver).
  Qed.
  Lemma ex_encrypt cf mtd jids pt prio ident : (forall ds i, ex [ETrustDecisionFailed] (mtd ds i)) ->
    ex [EUnknownNamespace; EUnknownTrustLevel; ETrustDecisionFailed; EStillUndecided; ENoEligibleDevices []] (encrypt cf mtd jids pt prio ident).
  Proof using HP.
    intros Hm. unfold encrypt. ext; first [wk ex_info_|wk ex_enc_backend|apply ex_raise; sol|idtac].
    eapply ex_mono; [by apply ex_enc_trust|incl].
  Qed.
  Lemma ex_ikp : ex [] ikp_get.
  Proof using HP. unfold ikp_get, ikp_generate. ext. Qed.
  Lemma ex_dec_sender cf m : ex [EUnknownNamespace; ESenderNotFound; EDeviceListDownloadFailed; EDeviceListUploadFailed] (dec_sender cf m).
  Proof using HP. unfold dec_sender. ext; first [wk ex_info|apply ex_refresh; [sol|sol|right; sol]|apply ex_raise; sol]. Qed.
  Lemma ex_dec_respond cf ns s : ex [EMessageSendingFailed] (dec_respond cf ns s).
  Proof using HP. unfold dec_respond. ext. apply ex_send_empty. Qed.
  Lemma ex_dec_existing ns d e : ex [ENoSession; ETooManySkipped; EDecryptionFailed] (dec_existing ns d e).
  Proof using HP. unfold dec_existing. ext; apply ex_raise; sol. Qed.
  Lemma ex_dec_kex ns d k e : ex [EPublicDataInconsistency; EKeyExchangeFailed; ETooManySkipped; EDecryptionFailed] (dec_kex ns d k e).
  Proof using HP. unfold dec_kex. ext; apply ex_raise; sol. Qed.
  Lemma ex_decrypt cf m : ex [EUnknownNamespace; EUnknownTrustLevel; EKeyExchangeFailed; EMessageNotForUs; ESenderNotFound; ESenderDistrusted;
      ENoSession; EPublicDataInconsistency; EMessageSendingFailed; EDecryptionFailed;
      ETooManySkipped; EBundleUploadFailed; EDeviceListDownloadFailed; EDeviceListUploadFailed] (decrypt cf m).
  Proof using HP.
    unfold decrypt, dec_prekeys. ext; first [wk ex_dec_sender|wk ex_dec_kex|wk ex_dec_existing|wk ex_dec_respond|apply ex_raise; sol].
  Qed.
  Lemma ex_fresh fuel ids : ex [] (fresh_id fuel ids).
  Proof using HP. induction fuel as [|n IH]; [by apply ex_quiet|]. cbn [fresh_id]. ext. apply IH. Qed.
  Lemma ex_create Pr fuel a : ex [EBundleUploadFailed; EBundleDeletionFailed; EDeviceListUploadFailed; EDeviceListDownloadFailed] (create Pr fuel a).
  Proof using HP.
    unfold create, first_run_local, first_run_publish, reconcile, add_backend.
    ext; first [wk ex_ikp|wk ex_fresh|wk ex_own|wk ex_purge_backend|apply ex_refresh; [sol|sol|by left]].
  Qed.

  (** Back to executions *)
  Lemma alone_any {A} (p : api A) : forall l o l' l0, exec (alone P) p l o l' -> exists l0', exec (alone P) p l0 o l0'.
  Proof using Type.
    induction p as [a|e|c k IH]; intros l o l' l0 H; [by destruct H as [-> _]; exists l0|by destruct H as [-> _]; exists l0|].
    destruct H as (r & Hr & H). destruct (IH r _ _ _ (Prog.apply (alone P) l0 c r) H) as [l0' H']. exists l0', r. done.
  Qed.
  Lemma ex_of_exec {A} D (p : api A) :
    (forall l e l', exec (alone P) p l (Exn e) l' -> is_omemo e = true -> kind e ∈ EStorage :: D) -> ex D p.
  Proof using Type.
    induction p as [a|e|c k IH]; intros H; [done| |].
    - intros He. by apply (H [] e []).
    - split; [done|]. intros r Hr. apply IH. intros l e l' He.
      destruct (alone_any _ _ _ _ (Prog.apply (alone P) [] c r) He) as [l0 He0]. apply (H [] e l0). exists r. done.
  Qed.
  Lemma exec_ex {A} D (p : api A) l e l' : ex D p -> exec (alone P) p l (Exn e) l' -> is_omemo e = true -> kind e ∈ EStorage :: D.
  Proof using Type.
    revert l. induction p as [a|x|c k IH]; intros l Hp H; [by destruct H|by destruct H as [[= ->] _]; apply Hp|].
    destruct H as (r & Hr & H). destruct Hp as [_ Hp]. exact (IH r _ (Hp r Hr) H).
  Qed.

  Lemma ex_call c l e l' : documented_decision (alone P) c -> exec (alone P) (run_call c) l (Exn e) l' -> is_omemo e = true ->
    (documented c e \/ undocumented c e) /\ (forall cf mtd jids pt prio ident, c = KEncrypt cf mtd jids pt prio ident -> e <> EKeyExchangeFailed).
  Proof using HP.
    intros Hd H Ho. unfold documented.
    assert (forall D, ex D (run_call c) -> kind e ∈ EStorage :: D) as K by (intros D Hx; exact (exec_ex D _ _ _ _ Hx H Ho)).
    destruct c; cbn [run_call doc_call undocumented] in *;
      lazymatch goal with H : exec _ (encrypt _ _ _ _ _ _) _ _ _ |- _ => idtac | H : exec _ (decrypt _ _) _ _ _ |- _ => idtac | _ => split; [left|done] end.
    - apply K, ex_create.
    - apply K, ex_ikp.
    - apply K, ex_update; [sol|right; sol].
    - apply K, ex_refresh; [sol|sol|right; sol].
    - apply K, ex_refresh_all.
    - apply K. unfold set_trust. ext.
    - apply K, ex_info.
    - apply K, ex_own.
    - apply K, ex_label.
    - apply K, ex_purge_backend.
    - apply K, ex_purge_jid.
    - apply K, ex_rotation.
    - apply K, ex_ensure.
    - apply K, ex_replace.
    - apply K, ex_chain.
    - apply K. unfold before_history_sync. ext.
    - apply K, ex_after.
    - assert (kind e ∈ [EStorage; EUnknownNamespace; EUnknownTrustLevel; ETrustDecisionFailed; EStillUndecided; ENoEligibleDevices []]) as Hk.
      { apply K, ex_encrypt. intros ds i. apply ex_of_exec. intros l0 x l1 Hx Hxo.
        destruct (Hd _ _ _ _ _ _ eq_refl _ _ _ _ _ Hx Hxo) as [-> | ->]; sol. }
      split.
      + left. repeat rewrite ?elem_of_cons, ?elem_of_nil in *. tauto.
      + intros ???????  ->. simpl in Hk. repeat rewrite ?elem_of_cons, ?elem_of_nil in *. naive_solver.
    - assert (kind e ∈ [EStorage; EUnknownNamespace; EUnknownTrustLevel; EKeyExchangeFailed; EMessageNotForUs; ESenderNotFound; ESenderDistrusted;
        ENoSession; EPublicDataInconsistency; EMessageSendingFailed; EDecryptionFailed;
        ETooManySkipped; EBundleUploadFailed; EDeviceListDownloadFailed; EDeviceListUploadFailed]) as Hk by (apply K, ex_decrypt).
      split; [|done]. destruct e; simpl in *; repeat rewrite ?elem_of_cons, ?elem_of_nil in *; naive_solver.
  Qed.
End docs.

Lemma docs_call (P : world -> forall c, resp c -> Prop) L c l e l' :
  (forall w c r, P w c r -> by_the_book w c r /\ fixed_backends L w c r) ->
  (forall cf m, c <> KDecrypt cf m) -> documented_decision (alone P) c ->
  exec (alone P) (run_call c) l (Exn e) l' -> is_omemo e = true -> documented c e.
Proof.
  intros HP Hc Hd H Ho. destruct (ex_call P L HP c l e l' Hd H Ho) as [[Hx|Hx] _]; [exact Hx|].
  destruct c; try (by destruct Hx). by destruct (Hc cf m).
Qed.
Lemma docs_encrypt (P : world -> forall c, resp c -> Prop) L cf mtd jids pt prio ident l l' :
  (forall w c r, P w c r -> by_the_book w c r /\ fixed_backends L w c r) ->
  documented_decision (alone P) (KEncrypt cf mtd jids pt prio ident) ->
  ~ exec (alone P) (encrypt cf mtd jids pt prio ident) l (Exn EKeyExchangeFailed) l'.
Proof.
  intros HP Hd H. destruct (ex_call P L HP (KEncrypt cf mtd jids pt prio ident) l _ l' Hd H eq_refl) as [_ Hx].
  by eapply Hx.
Qed.
Lemma docs_decrypt (P : world -> forall c, resp c -> Prop) L cf m l e l' :
  (forall w c r, P w c r -> by_the_book w c r /\ fixed_backends L w c r) ->
  exec (alone P) (decrypt cf m) l (Exn e) l' -> is_omemo e = true -> documented (KDecrypt cf m) e \/
    e = ETooManySkipped \/ e = EBundleUploadFailed \/ e = EDeviceListDownloadFailed \/ e = EDeviceListUploadFailed.
Proof.
  intros HP H Ho. assert (documented_decision (alone P) (KDecrypt cf m)) as Hd by (intros ??????; discriminate).
  destruct (ex_call P L HP (KDecrypt cf m) l e l' Hd H Ho) as [[Hx|Hx] _]; [by left|right].
  cbn [undocumented] in Hx. repeat rewrite ?elem_of_cons, ?elem_of_nil in Hx. tauto.
Qed.
