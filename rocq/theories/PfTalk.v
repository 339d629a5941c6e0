(** Proofs for C97: which calls tell the network what. *)
From Verif Require Import Talk PfStrs PfTyped PfWp PfEmits PfLog PfDevices PfFoot.
Open Scope prog_scope.
Open Scope list_scope.

Section talk.
  Context (T : event -> Prop).
  Definition Et (c : cmd) (r : resp c) : Prop := forall w, all_named w c r.
  Definition Ft (c : cmd) : Prop :=
    match c with
    | NUploadBundle b => forall r, T (EvUploadBundle b r)
    | NDownloadBundle ns j x => forall r, T (EvDownloadBundle ns j x r)
    | NDeleteBundle ns x => forall r, T (EvDeleteBundle ns x r)
    | NUploadDL ns dl => forall r, T (EvUploadDL ns dl r)
    | NDownloadDL ns j => forall r, T (EvDownloadDL ns j r)
    | NSend m j => forall r, T (EvSend m j r)
    | _ => True
    end.
  Notation ttq Q p := (obeys Et Ft Q p).
  Notation tt_ p := (obeys Et Ft (fun _ => True) p).
  Lemma tk_bind {A B} (Q : outcome B -> Prop) (p : api A) (f : A -> api B) :
    tt_ p -> (forall e, Q (Exn e)) -> (forall a, ttq Q (f a)) -> ttq Q (bind p f).
  Proof. intros Hp He Hf. apply obeys_bind. eapply obeys_conseq; [exact Hp|]. intros [a|e] _; auto. Qed.
  Lemma tk_bindq {A B} (L : A -> Prop) (Q : outcome B -> Prop) (p : api A) (f : A -> api B) :
    ttq (val L) p -> (forall e, Q (Exn e)) -> (forall a, L a -> ttq Q (f a)) -> ttq Q (bind p f).
  Proof. intros Hp He Hf. apply obeys_bind. eapply obeys_conseq; [exact Hp|]. intros [a|e] H; auto. Qed.
  Lemma tk_try {A} (p : api A) : tt_ p -> tt_ (try_ p).
  Proof. intros H. apply obeys_try. eapply obeys_conseq; [exact H|]. by intros []. Qed.
  Lemma tk_for_each {A} (l : list A) f : (forall x, x ∈ l -> tt_ (f x)) -> tt_ (for_each l f).
  Proof. apply obeys_for_each'. Qed.
  Lemma tk_fold {A B} (l : list A) (f : B -> A -> api B) b : (forall b x, x ∈ l -> tt_ (f b x)) -> tt_ (fold_prog l f b).
  Proof.
    intros Hf. apply obeys_fold_prog with (L := fun _ => True); [done| |done].
    intros b' x _ Hx. eapply obeys_conseq; [by apply Hf|]. by intros [].
  Qed.
  Lemma tk_map {A B} (l : list A) (f : A -> api B) : (forall x, x ∈ l -> tt_ (f x)) -> tt_ (map_prog f l).
  Proof.
    intros Hf. apply obeys_map_prog with (L := fun _ => True); [|done]. intros x Hx. eapply obeys_conseq; [by apply Hf|]. by intros [].
  Qed.
  Lemma tk_filter {A} (l : list A) (f : A -> api bool) : (forall x, x ∈ l -> tt_ (f x)) -> tt_ (filter_prog f l).
  Proof. intros Hf. apply obeys_filter_prog; [|done]. intros x Hx. eapply obeys_conseq; [by apply Hf|]. by intros []. Qed.
  Lemma tk_outcome {A} (o : outcome A) : tt_ (of_outcome o).
  Proof. by destruct o. Qed.
  Lemma tk_from_just {A} (o : option A) : tt_ (from_just o).
  Proof. by destruct o. Qed.
  Lemma tk_key_error {A} (o : option A) : tt_ (of_key_error o).
  Proof. by destruct o. Qed.
  Lemma tk_order {A} (l : list A) : tt_ (order l).
  Proof. by split. Qed.
  Lemma tk_load {A} (check : json -> outcome A) k : tt_ (load_checked check k).
  Proof.
    unfold load_checked. apply tk_bind; [split; [done|intros ? _; apply tk_outcome]|done|].
    intros [v|]; [|done]. destruct (check v); done.
  Qed.
  Ltac tk1 :=
    match goal with
    | |- obeys _ _ (fun _ => True) (bind _ _) => apply tk_bind; [|done|intros ?]
    | |- obeys _ _ _ (try_ _) => apply tk_try
    | |- obeys _ _ _ (Ret _) => exact I
    | |- obeys _ _ _ (Raise _) => exact I
    | |- obeys _ _ _ (for_each _ _) => apply tk_for_each; intros ? ?
    | |- obeys _ _ _ (fold_prog _ _ _) => apply tk_fold; intros ? ? ?
    | |- obeys _ _ _ (map_prog _ _) => apply tk_map; intros ? ?
    | |- obeys _ _ _ (filter_prog _ _) => apply tk_filter; intros ? ?
    | |- obeys _ _ _ (order _) => apply tk_order
    | |- obeys _ _ _ (of_key_error _) => apply tk_key_error
    | |- obeys _ _ _ (from_just _) => apply tk_from_just
    | |- obeys _ _ _ (of_outcome _) => apply tk_outcome
    | |- obeys _ _ _ (load_list _ _) => apply tk_load
    | |- obeys _ _ _ (load_dict _ _) => apply tk_load
    | |- obeys _ _ _ (load_bytes _) => apply tk_load
    | |- obeys _ _ _ (load_optional _ _) => apply tk_load
    | |- obeys _ _ _ (load_primitive _ _) => apply tk_load
    | |- obeys _ _ _ (let '_ := ?b in _) => destruct b
    | |- obeys _ _ _ (match ?b with _ => _ end) => destruct b
    | |- obeys _ _ _ (if ?b then _ else _) => destruct b
    end.
  Ltac cmd1 := unfold store_bytes in *; unw; unfold g_loaded, g_sync, p_loaded, p_sync, c_randbelow, c_randbytes, s_load in *;
    match goal with |- obeys _ _ _ (Step _ _) => split; [simpl; auto|intros ? _; first [apply tk_outcome|exact I|cbn [obeys]]] end.
  Ltac tkt := repeat (cbv zeta; first [tk1|progress cmd1]).

  (** own bundles *)
  Lemma tk_publish cf ns (p : bundle -> api unit) :
    (forall b, b_ns b = ns /\ own_bundle cf b -> tt_ (p b)) -> tt_ (bind (b_get_bundle ns (c_jid cf) (c_dev cf)) p).
  Proof.
    intros H. apply (tk_bindq (fun b => b_ns b = ns /\ own_bundle cf b)); [|done|exact H].
    split; [done|]. intros r Hr. destruct r as [b|e]; [|done]. destruct (Hr (World ∅ [] false [])) as [_ Hb]. simpl in *. unfold own_bundle. tauto.
  Qed.
  Lemma tk_update cf ns j dl : (j = c_jid cf -> forall dl r, T (EvUploadDL ns dl r)) -> tt_ (update_device_list cf ns j dl).
  Proof. intros H. unfold update_device_list, upd_own, upd_new, upd_old. tkt; subst; auto. Qed.
  Lemma tk_refresh cf ns j : (j = c_jid cf -> forall dl r, T (EvUploadDL ns dl r)) -> (forall r, T (EvDownloadDL ns j r)) ->
    tt_ (refresh_device_list cf ns j).
  Proof. intros H1 H2. unfold refresh_device_list. tkt; auto. by apply tk_update. Qed.
  Lemma tk_refresh_all cf j : (j = c_jid cf -> forall ns dl r, T (EvUploadDL ns dl r)) -> (forall ns r, T (EvDownloadDL ns j r)) ->
    tt_ (refresh_device_lists cf j).
  Proof. intros H1 H2. unfold refresh_device_lists. tkt. apply tk_refresh; auto. Qed.
  Definition Tb (j : string) : Prop := forall ns x r, T (EvDownloadBundle ns j x r).
  Lemma tk_find_key j x l : Tb j -> tt_ (find_key j x l).
  Proof. intros H. induction l as [|ns l IH]; [done|]. cbn [find_key]. tkt; auto. Qed.
  Lemma tk_info_rest cf j x nss ik : ttq (val (from j)) (dev_info_rest cf j x nss ik).
  Proof. unfold dev_info_rest. cbv zeta. repeat (apply tk_bind; [|done|intros ?]); tkt; auto. done. Qed.
  Lemma tk_dev_info cf j acc x : Tb j -> Forall (from j) acc.1 -> ttq (val (fun r => Forall (from j) r.1)) (dev_info cf j acc x).
  Proof.
    intros H Ha. unfold dev_info. cbv zeta.
    apply tk_bind; [tkt; auto|done|intros m]. apply tk_bind; [tkt|done|intros l]. apply tk_bind; [tkt; auto|done|intros [ik|]].
    - eapply tk_bindq; [by apply tk_info_rest|done|]. intros d Hd. simpl. apply Forall_app. by repeat constructor.
    - apply tk_bind; [tkt|done|intros nso]. apply tk_bind; [by apply tk_find_key|done|intros [b|]]; [|done].
      eapply tk_bindq; [by apply tk_info_rest|done|]. intros d Hd. simpl. apply Forall_app. by repeat constructor.
  Qed.
  Lemma tk_info_ cf j : Tb j -> ttq (val (fun r => Forall (from j) r.1)) (get_device_information_ cf j).
  Proof.
    intros H. unfold get_device_information_. apply tk_bind; [tkt; auto|done|intros m]. apply tk_bind; [tkt|done|intros l].
    apply obeys_fold_prog with (L := fun r : list device * list bundle => Forall (from j) r.1); [constructor| |done].
    intros acc x Ha _. eapply obeys_conseq; [by apply tk_dev_info|]. by intros [].
  Qed.
  Lemma tk_infoq cf j : Tb j -> ttq (val (Forall (from j))) (get_device_information cf j).
  Proof. intros H. unfold get_device_information. eapply tk_bindq; [by apply tk_info_|done|]. by intros r Hr. Qed.
  Lemma tk_info cf j : Tb j -> tt_ (get_device_information cf j).
  Proof. intros H. eapply obeys_conseq; [by apply tk_infoq|done]. Qed.
  Lemma tk_own cf : Tb (c_jid cf) -> tt_ (get_own_device_information cf).
  Proof. intros H. unfold get_own_device_information. tkt. by apply tk_info. Qed.
  Lemma tk_label cf l : (forall ns r, T (EvDownloadDL ns (c_jid cf) r)) -> (forall ns dl r, T (EvUploadDL ns dl r)) -> tt_ (set_own_label cf l).
  Proof. intros H1 H2. unfold set_own_label. tkt; auto. Qed.
  Lemma tk_purge_backend cf ns : Tb (c_jid cf) -> (forall r, T (EvDownloadDL ns (c_jid cf) r)) -> (forall dl r, T (EvUploadDL ns dl r)) ->
    (forall r, T (EvDeleteBundle ns (c_dev cf) r)) -> tt_ (purge_backend cf ns).
  Proof. intros H1 H2 H3 H4. unfold purge_backend. tkt; auto using tk_own. Qed.
  Lemma tk_purge_jid j : tt_ (purge_bare_jid j).
  Proof. unfold purge_bare_jid, collect_key. tkt; auto. Qed.
  Lemma tk_rotate_upload cf fuel rd ns : (forall b r, own_bundle cf b -> T (EvUploadBundle b r)) -> tt_ (rotate_upload cf fuel rd ns).
  Proof.
    intros H. revert rd. induction fuel as [|fuel IH]; intros rd; [done|]. cbn [rotate_upload]. cbv zeta. apply tk_bind; [|done|intros o].
    - apply tk_try, tk_publish. intros b [_ Hb]. split; [simpl; auto|]. intros r _. apply tk_outcome.
    - tkt; auto.
  Qed.
  Lemma tk_rotation cf fuel period : (forall b r, own_bundle cf b -> T (EvUploadBundle b r)) -> tt_ (rotation cf fuel period).
  Proof. intros H. induction fuel as [|fuel IH]; [done|]. cbn [rotation]. unfold rotate_one. tkt; auto using tk_rotate_upload. Qed.
  Lemma tk_ensure cf : (forall b r, own_bundle cf b -> T (EvUploadBundle b r)) -> (forall ns r, T (EvDownloadDL ns (c_jid cf) r)) ->
    (forall ns dl r, T (EvUploadDL ns dl r)) -> (forall ns r, T (EvDownloadBundle ns (c_jid cf) (c_dev cf) r)) -> tt_ (ensure_data_consistency cf).
  Proof.
    intros H1 H2 H3 H4. unfold ensure_data_consistency. apply tk_bind; [tkt|done|intros bs]. apply tk_for_each. intros ns _.
    apply tk_bind; [apply tk_refresh; auto|done|intros _]. apply tk_publish. intros b [_ Hb].
    apply tk_bind; [tkt; auto|done|intros o]. apply tk_bind; [tkt|done|intros []]; [|done]. split; [simpl; auto|]. intros r _. apply tk_outcome.
  Qed.
  Lemma tk_send_empty cf ns s : (forall m r, T (EvSend m (s_jid s) r)) -> tt_ (send_empty_message cf ns s).
  Proof.
    intros H. unfold send_empty_message. apply tk_bind; [tkt|done|intros [c p]].
    apply (tk_bindq (fun r : session * ekm => s_jid r.1 = s_jid s)); [|done|].
    - split; [done|]. intros r Hr. destruct r as [[s' k]|e]; [|done]. destruct (Hr (World ∅ [] false [])) as [Hs _]. simpl in *. tauto.
    - intros [s' k] E. simpl in E. rewrite E. tkt; auto.
  Qed.
  Lemma tk_replace cf j x : Tb j -> (forall m r, T (EvSend m j r)) -> tt_ (replace_sessions cf j x).
  Proof. intros H1 H2. unfold replace_sessions, replace_one. tkt; auto using tk_info. Qed.
  Lemma tk_chain j x nss : tt_ (get_sending_chain_length j x nss).
  Proof. unfold get_sending_chain_length. tkt. Qed.
  Lemma tk_after cf : (forall m j r, T (EvSend m j r)) -> tt_ (after_history_sync cf).
  Proof. intros H. unfold after_history_sync, flush_ns, flush_jid, flush_dev. tkt; auto using tk_send_empty. Qed.
  Lemma tk_reload (J : string -> Prop) cf d : fromJ J d -> ttq (val (fromJ J)) (reload_trust cf d).
  Proof. intros Hd. unfold reload_trust. apply tk_bind; [tkt; auto|done|]. by intros m. Qed.
  Lemma tk_devices_with J t l : Forall (fromJ J) l -> ttq (val (Forall (fromJ J))) (devices_with t l).
  Proof.
    intros Hl. unfold devices_with. apply (tk_bindq (fun l' => l' ≡ₚ l)); [split; [done|]; intros r _; apply reorder_perm|done|].
    intros l' Hp. apply obeys_filter_prog.
    - intros d _. eapply obeys_conseq with (Q := fun _ => True); [tkt|]. intros o _. by destruct o.
    - intros r Hr. simpl. apply Forall_forall. intros d Hd. eapply Forall_forall; [exact Hl|].
      rewrite <- Hp. eapply elem_of_submseteq; [exact Hd|]. by apply sublist_submseteq.
  Qed.
  Lemma tk_enc_trust (J : string -> Prop) cf mtd ident l :
    (forall ds i, tt_ (mtd ds i)) -> Forall (fromJ J) l -> ttq (val (Forall (fromJ J))) (enc_trust cf mtd ident l).
  Proof.
    intros Hm Hl. unfold enc_trust. apply tk_bind; [eapply obeys_conseq; [by apply (tk_devices_with J)|done]|done|intros und].
    apply tk_bindq with (L := Forall (fromJ J)).
    - destruct und; [done|]. apply tk_bind; [apply Hm|done|intros _]. apply (tk_bindq (fun l' => l' ≡ₚ l)); [split; [done|]; intros r _; apply reorder_perm|done|].
      intros l' Hp. apply obeys_map_prog with (L := fromJ J); [|done]. intros dv Hd. eapply obeys_conseq; [apply (tk_reload J)|done].
      rewrite Hp in Hd. by eapply Forall_forall.
    - done.
    - intros l' Hl'. apply tk_bind; [eapply obeys_conseq; [by apply (tk_devices_with J)|done]|done|intros und'].
      destruct und'; [|done]. by apply (tk_devices_with J).
  Qed.
  Lemma tk_enc_device (J : string -> Prop) ns p cache acc d : (forall j, J j -> Tb j) -> fromJ J d -> Forall (fromJ J) (es_devices acc.1) ->
    ttq (val (fun r => Forall (fromJ J) (es_devices r.1))) (enc_device ns p cache acc d).
  Proof.
    intros H Hd Ha. destruct acc as [st keys]. unfold enc_device. pose proof (H _ Hd) as Hb. unfold Tb in Hb.
    apply tk_bind; [tkt|done|intros m]. apply tk_bind; [tkt|done|intros ca]. cbv zeta. apply tk_bind; [tkt; auto|done|intros o].
    assert (Forall (fromJ J) (es_devices (EncState (es_messages st) (es_errors st) (es_sessions st) (filter (fun d' => d' <> d) (es_devices st))))) as Hf.
    { simpl. apply Forall_forall. intros d' [_ Hd']%elem_of_list_filter. by eapply Forall_forall. }
    destruct o as [[s e]|e]; [exact Ha|]. destruct e; done || exact Hf.
  Qed.
  Lemma tk_enc_backend (J : string -> Prop) cf pt cache st ns : (forall j, J j -> Tb j) -> Forall (fromJ J) (es_devices st) ->
    ttq (val (fun st => Forall (fromJ J) (es_devices st))) (enc_backend cf pt cache st ns).
  Proof.
    intros H Hs. unfold enc_backend. destruct (filter _ (es_devices st)) as [|d0 l0] eqn:El; [exact Hs|].
    assert (Forall (fromJ J) (d0 :: l0)) as Hl.
    { rewrite <- El. apply Forall_forall. intros d' [_ Hd']%elem_of_list_filter. by eapply Forall_forall. }
    apply tk_bind; [tkt|done|intros pt']. apply tk_bind; [tkt|done|intros [c p]].
    apply (tk_bindq (fun l' => l' ≡ₚ d0 :: l0)); [split; [done|]; intros r _; apply reorder_perm|done|]. intros l' Hp.
    apply (tk_bindq (fun r : enc_state * list (ekm * option kex) => Forall (fromJ J) (es_devices r.1))); [|done|by intros [st' keys]].
    apply obeys_fold_prog with (L := fun r : enc_state * list (ekm * option kex) => Forall (fromJ J) (es_devices r.1)); [done| |done].
    intros acc x Ha Hx. rewrite Hp in Hx. eapply obeys_conseq; [apply (tk_enc_device J); [done|eapply Forall_forall; [exact Hl|exact Hx]|done]|]. by intros [].
  Qed.
  Lemma tk_encrypt cf mtd jids pt prio ident :
    (forall j, j ∈ jids \/ j = c_jid cf -> Tb j) -> (forall ds i, tt_ (mtd ds i)) -> tt_ (encrypt cf mtd jids pt prio ident).
  Proof.
    intros H Hm. pose (J := fun j => j ∈ jids \/ j = c_jid cf). unfold encrypt. cbv zeta.
    apply tk_bind; [tkt|done|intros av]. apply tk_bind; [tkt|done|intros pr].
    apply (tk_bindq (fun l => l ≡ₚ set_union (pyset jids) [c_jid cf])); [split; [done|]; intros r _; apply reorder_perm|done|]. intros jids' Hj'.
    apply tk_bindq with (L := Forall (fun r : list device * list bundle => Forall (fromJ J) r.1)); [|done|].
    { apply obeys_map_prog with (L := fun r : list device * list bundle => Forall (fromJ J) r.1); [|done].
      intros j Hj. rewrite Hj' in Hj.
      assert (J j) as HJ.
      { unfold set_union, set_diff in Hj. rewrite elem_of_app, elem_of_list_filter, elem_of_list_singleton in Hj.
        unfold pyset in Hj. rewrite elem_of_remove_dups in Hj. unfold J. tauto. }
      eapply obeys_conseq; [apply tk_info_; by apply H|]. intros [r|e]; [|done]. simpl. intros Hr.
      eapply Forall_impl; [exact Hr|]. intros d Hd. unfold fromJ. by rewrite Hd. }
    intros tmp Ht.
    assert (Forall (fromJ J) (concat (map fst tmp))) as Hc.
    { apply Forall_concat, Forall_map. exact Ht. }
    apply tk_bindq with (L := Forall (fromJ J)); [|done|].
    { destruct (valid_recipients cf pr _) as [d1|] eqn:E1; [|done]. by eapply recipients_from. }
    intros d1 H1. apply tk_bindq with (L := Forall (fromJ J)); [|done|].
    { destruct (mapM (apply_priority pr) d1) as [d2|] eqn:E2; [|done]. by eapply priority_from. }
    intros d2 H2.
    apply tk_bindq with (L := Forall (fromJ J)); [|done|].
    { apply (tk_enc_trust J); [exact Hm|]. apply Forall_forall. intros d [_ Hd]%elem_of_list_filter.
      by eapply Forall_forall. }
    intros ds Hds. apply tk_bind; [tkt|done|intros bs]. apply tk_bind; [|done|intros st; tkt].
    apply obeys_fold_prog with (L := fun st => Forall (fromJ J) (es_devices st)); [done| |done].
    intros st ns Hst _. eapply obeys_conseq; [apply (tk_enc_backend J); [exact H|done]|]. by intros [].
  Qed.

  Lemma tk_dec_sender cf m : Tb (m_jid m) -> (m_jid m = c_jid cf -> forall dl r, T (EvUploadDL (m_ns m) dl r)) ->
    (forall r, T (EvDownloadDL (m_ns m) (m_jid m) r)) -> ttq (val (from (m_jid m))) (dec_sender cf m).
  Proof.
    intros H1 H2 H3. unfold dec_sender.
    assert (forall l d l', Forall (from (m_jid m)) l -> filter (fun d => dv_id d = m_dev m) l = d :: l' -> from (m_jid m) d) as Hfl.
    { intros l d l' Hl E. eapply Forall_forall; [exact Hl|]. assert (d ∈ filter (fun d => dv_id d = m_dev m) l) as Hd by (rewrite E; left).
      by apply elem_of_list_filter in Hd as [_ Hd]. }
    eapply tk_bindq; [by apply tk_infoq|done|]. intros l Hl. destruct (filter _ l) as [|d l'] eqn:E; [|by eapply Hfl].
    apply tk_bind; [by apply tk_refresh|done|intros _]. eapply tk_bindq; [by apply tk_infoq|done|]. intros l2 Hl2.
    destruct (filter _ l2) as [|d l'] eqn:E'; [done|]. by eapply Hfl.
  Qed.
  Lemma tk_decrypt cf m : Tb (m_jid m) -> (m_jid m = c_jid cf -> forall dl r, T (EvUploadDL (m_ns m) dl r)) ->
    (forall r, T (EvDownloadDL (m_ns m) (m_jid m) r)) -> (forall m' r, T (EvSend m' (m_jid m) r)) ->
    (forall b r, own_bundle cf b /\ b_ns b = m_ns m -> T (EvUploadBundle b r)) -> tt_ (decrypt cf m).
  Proof.
    intros H1 H2 H3 H4 H5. unfold decrypt. apply tk_bind; [tkt|done|intros bs]. case_decide; [|done]. cbv zeta.
    apply tk_bind; [tkt|done|intros keys]. destruct (filter _ keys) as [|[e mk] l]; [done|].
    eapply tk_bindq; [by apply tk_dec_sender|done|]. intros d Hd. apply tk_bind; [tkt|done|intros t]. case_decide; [done|].
    apply (tk_bindq (fun r : session * pkm => s_jid r.1 = m_jid m)); [|done|].
    { unfold from in Hd. destruct mk as [k|].
      - unfold dec_kex. case_decide; [|done].
        apply (tk_bindq (fun o => match o with Some s => s_jid s = m_jid m | None => True end)); [|done|].
        { split; [done|]. intros r Hr. destruct r as [[s|]|]; try done. destruct (Hr (World ∅ [] false [])) as [Hs _]. simpl in *. intuition congruence. }
        intros o Ho. apply (tk_bindq (fun o => match o with Some s => s_jid s = m_jid m | None => True end)); [|done|].
        { destruct o as [s|]; [|done]. case_decide; [|done]. unfold k_same. apply tk_bind; [tkt|done|intros []]; done. }
        intros [s|] Hs.
        + split; [done|]. intros r Hr. destruct r as [[s' k']|]; try done. destruct (Hr (World ∅ [] false [])) as [Hs' _]. simpl in *. intuition congruence.
        + split; [done|]. intros r Hr. destruct r as [[s' k']|]; try done. destruct (Hr (World ∅ [] false [])) as [Hs' _]. simpl in *. intuition congruence.
      - unfold dec_existing. apply (tk_bindq (fun o => match o with Some s => s_jid s = m_jid m | None => True end)); [|done|].
        { split; [done|]. intros r Hr. destruct r as [[s|]|]; try done. destruct (Hr (World ∅ [] false [])) as [Hs _]. simpl in *. intuition congruence. }
        intros [s|] Hs; [|done].
        split; [done|]. intros r Hr. destruct r as [[s' k']|]; try done. destruct (Hr (World ∅ [] false [])) as [Hs' _]. simpl in *. intuition congruence. }
    intros [s p] Hs. simpl in Hs. apply tk_bind; [tkt|done|intros o]. apply tk_bind; [tkt|done|intros _].
    apply tk_bind; [|done|intros _].
    { destruct mk; [|done]. unfold dec_prekeys. apply tk_bind; [tkt|done|intros sy]. apply tk_bind; [destruct sy; tkt|done|intros []]; [|done].
      apply tk_bind; [tkt|done|intros n]. apply tk_bind; [tkt|done|intros _]. apply tk_publish. intros b [Hb1 Hb2].
      split; [simpl; auto|]. intros r _. apply tk_outcome. }
    apply tk_bind; [|done|done]. destruct (_ || _); [|done]. unfold dec_respond. apply tk_bind; [tkt|done|intros []]; [tkt|].
    apply tk_send_empty. rewrite Hs. auto.
  Qed.
  Lemma tk_ikp : tt_ ikp_get.
  Proof. unfold ikp_get, ikp_generate. tkt; auto. Qed.
  Lemma tk_fresh fuel l : tt_ (fresh_id fuel l).
  Proof. induction fuel as [|fuel IH]; [done|]. cbn [fresh_id]. tkt; auto. Qed.
  Lemma tk_create P fuel a :
    Tb (a_jid a) -> (forall ns r, T (EvDownloadDL ns (a_jid a) r)) -> (forall ns dl r, T (EvUploadDL ns dl r)) ->
    (forall b r, b_jid b = a_jid a -> T (EvUploadBundle b r)) -> (forall ns x r, T (EvDeleteBundle ns x r)) -> tt_ (create P fuel a).
  Proof.
    intros H1 H2 H3 H4 H5. unfold create, first_run_local.
    assert (forall dev ns, tt_ (refresh_device_list (cfg_of a dev) ns (c_jid (cfg_of a dev)))) as Hr by (intros; apply tk_refresh; auto).
    assert (forall dev ns (k : bundle -> api unit), (forall b, tt_ (k b)) -> tt_ (bind (b_get_bundle ns (c_jid (cfg_of a dev)) (c_dev (cfg_of a dev))) (fun b => n_upload_bundle b ;;; k b))) as Hu.
    { intros dev ns k Hk. apply tk_publish. intros b [_ [Hb _]]. apply tk_bind; [|done|auto]. split; [simpl; auto|]. intros r _. apply tk_outcome. }
    assert (forall dev, tt_ (first_run_publish (cfg_of a dev))) as Hp.
    { intros dev. unfold first_run_publish. apply tk_bind; [tkt|done|intros bs]. apply tk_bind; [tkt|done|intros _]. apply tk_bind; [tkt|done|intros bs'].
      apply tk_bind; [|done|intros _].
      - apply tk_for_each. intros ns _. apply tk_publish. intros b [_ [Hb _]]. split; [simpl; auto|]. intros r _. apply tk_outcome.
      - apply tk_bind; [tkt|done|intros bs'']. apply tk_for_each. intros ns _. apply Hr. }
    assert (forall dev, tt_ (reconcile (cfg_of a dev))) as Hc.
    { intros dev. unfold reconcile. apply tk_bind; [by apply tk_own|done|intros r]. apply tk_bind; [tkt|done|intros bs]. cbv zeta. destruct (set_eqb _ _); [done|].
      do 5 (apply tk_bind; [tkt|done|intros ?]). apply tk_bind; [|done|intros _].
      - apply tk_for_each. intros ns _. unfold add_backend. case_decide; [done|]. apply tk_bind; [tkt|done|intros n]. apply tk_bind; [tkt|done|intros _].
        apply Hu. intros b. apply Hr.
      - apply tk_bind; [tkt|done|intros rm]. apply tk_for_each. intros ns _. by apply tk_purge_backend. }
    tkt; auto using tk_ikp, tk_fresh.
  Qed.
End talk.
Notation tk T p := (obeys Et (Ft T) (fun _ => True) p).
Lemma tk_call (T : event -> Prop) c : (forall e, tells c e -> T e) ->
  (forall cf mtd jids pt prio ident, c = KEncrypt cf mtd jids pt prio ident -> forall ds i, tk T (mtd ds i)) -> tk T (run_call c).
Proof.
  intros H Hm. destruct c; cbn [run_call call_ret tells] in *.
  - apply tk_create; try (unfold Tb); intros; by apply H.
  - apply tk_ikp.
  - apply tk_update. intros; by apply H.
  - apply tk_refresh; intros; by apply H.
  - apply tk_refresh_all; intros; by apply H.
  - split; [done|]. intros r _. by destruct r.
  - apply tk_info. unfold Tb. intros; by apply H.
  - apply tk_own. unfold Tb. intros; by apply H.
  - apply tk_label; intros; by apply H.
  - apply tk_purge_backend; try (unfold Tb); intros; by apply H.
  - apply tk_purge_jid.
  - apply tk_rotation. intros; by apply H.
  - apply tk_ensure; intros; by apply H.
  - apply tk_replace; try (unfold Tb); intros; by apply H.
  - apply tk_chain.
  - by split.
  - apply tk_after. intros; by apply H.
  - apply tk_encrypt; [unfold Tb; intros; by apply H|by eapply Hm].
  - apply tk_decrypt; try (unfold Tb); intros; by apply H.
Qed.
Lemma tk_code (T : event -> Prop) (ok : call -> Prop) {A} (p : api A) : (forall c e, ok c -> tells c e -> T e) -> libcode ok p -> tk T p.
Proof.
  intros Hok H. induction H as [A a|A e|A B p f Hp IHp Hf IHf|A p Hp IHp|c Hc|c Hc Hm IHm]; [done|done| | | |].
  - apply tk_bind; [exact IHp|done|exact IHf].
  - by apply tk_try.
  - split; [destruct c; simpl in *; done|done].
  - apply tk_call; [by eauto|done].
Qed.
Lemma Ft_event (T : event -> Prop) c r e : Ft T c -> event_of c r = Some e -> to_network e -> T e.
Proof. intros H He Hn. destruct c; simpl in *; simplify_eq; simpl in *; try done; auto. Qed.
Lemma told (ok : call -> Prop) (ps : list (api unit)) w ps' w' :
  Forall (fun p => libcode ok p) ps -> preach (with_contract all_named) (ps, w) (ps', w') ->
  exists new, w_log w' = new ++ w_log w /\ forall e, e ∈ new -> to_network e -> exists c, ok c /\ tells c e.
Proof.
  intros Hps H. pose (T e := exists c, ok c /\ tells c e).
  assert (exists new, w_log w' = new ++ w_log w /\ forall e, e ∈ new -> to_network e -> T e); [|done].
  pose (I v := exists new, w_log v = new ++ w_log w /\ forall e, e ∈ new -> to_network e -> T e).
  enough (I w') by done. refine (proj1 (psafe_preach _ I ps w (ps', w') _ _ H)).
  - exists []. split; [done|]. intros e He. by apply elem_of_nil in He.
  - eapply Forall_impl; [exact Hps|]. intros p Hp. eapply obeys_psafe; [|apply (tk_code T ok); [|exact Hp]].
    + intros v c r (new & E1 & E2) Hc [Hr Hn]. split; [intros v'; by destruct c|]. change (I (w_apply v c r)). unfold I. rewrite log_apply.
      destruct (event_of c r) as [e|] eqn:Ee; simpl.
      * exists (e :: new). rewrite E1. split; [done|]. intros e' [->|He']%elem_of_cons; [by eapply Ft_event|by apply E2].
      * exists new. by rewrite E1.
    + intros c e Hc He. by exists c.
Qed.
Lemma strangers (ok : call -> Prop) (ps : list (api unit)) w ps' w' :
  Forall (fun p => libcode ok p) ps -> preach (with_contract all_named) (ps, w) (ps', w') ->
  exists new, w_log w' = new ++ w_log w /\ forall e j, e ∈ new -> addressed e = Some j -> exists c, ok c /\ about c j.
Proof.
  intros H1 H2. destruct (told ok ps w ps' w' H1 H2) as (new & E & H). exists new. split; [done|]. intros e j He Hj.
  destruct (H e He) as (c & Hc & Ht); [by destruct e|]. exists c. split; [done|].
  destruct c; simpl in *; try done; destruct e; try done; simpl in *; injection Hj as <-; naive_solver.
Qed.
