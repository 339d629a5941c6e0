(** Old session states are not used again (C91). *)
From Verif Require Import Ratchet PfStrs PfWp PfAlone PfExec PfEmits PfEmpty PfLog PfLoaded Dec PfDec5.
Open Scope prog_scope.
Open Scope list_scope.

Section floor.
  Context (age : session -> nat) (ns0 j0 : string) (x0 : Z) (a : nat) (N : Prop).

  (** sessions with the device are not older than [a] *)
  Definition fresh (ns : string) (s : session) : Prop := ns = ns0 -> s_jid s = j0 -> s_dev s = x0 -> (a <= age s)%nat.
  Definition Er (c : cmd) (r : resp c) : Prop :=
    match c return resp c -> Prop with
    | BLoadSession ns _ _ => fun r => match r with Val (Some s) => fresh ns s | _ => True end
    | BBuildActive ns _ _ _ _ => fun r => match r with Val (s, _) => fresh ns s | Exn _ => True end
    | BBuildPassive ns _ _ _ _ => fun r => match r with Val (s, _) => fresh ns s | Exn _ => True end
    | BEncKey ns _ _ => fun r => match r with Val (s, _) => fresh ns s | Exn _ => True end
    | BDecKey ns _ _ => fun r => match r with Val (s, _) => fresh ns s | Exn _ => True end
    | _ => fun _ => True
    end r.
  Definition Fr (c : cmd) : Prop :=
    match c with BEncKey ns s _ => N /\ fresh ns s | BStoreSession ns s | BDecKey ns s _ => fresh ns s | _ => True end.

  Definition tt_ {A} (o : outcome A) : Prop := True.
  Notation ob p := (obeys Er Fr tt_ p).
  Notation obq Q p := (obeys Er Fr Q p).

  Lemma r_bind {A B} (p : api A) (f : A -> api B) : ob p -> (forall x, ob (f x)) -> ob (bind p f).
  Proof. intros Hp Hf. apply obeys_bind. eapply obeys_conseq; [exact Hp|]. by intros [x|e] _; [apply Hf|]. Qed.
  Lemma r_bindq {A B} (Q : A -> Prop) (p : api A) (f : A -> api B) :
    obq (fun o => match o with Val v => Q v | Exn _ => True end) p -> (forall v, Q v -> ob (f v)) -> ob (bind p f).
  Proof. intros Hp Hf. apply obeys_bind. eapply obeys_conseq; [exact Hp|]. by intros [v|e] H; [apply Hf|]. Qed.
  Lemma r_try {A} (p : api A) : ob p -> ob (try_ p).
  Proof. intros Hp. apply obeys_try. eapply obeys_conseq; [exact Hp|]. done. Qed.
  Lemma r_for_each {A} (l : list A) f : (forall x, x ∈ l -> ob (f x)) -> ob (for_each l f).
  Proof. intros Hf. apply obeys_for_each; [|done]. intros x Hx. eapply obeys_conseq; [by apply Hf|]. by intros []. Qed.
  Lemma r_fold {A B} (l : list A) (f : B -> A -> api B) b : (forall b x, x ∈ l -> ob (f b x)) -> ob (fold_prog l f b).
  Proof.
    intros Hf. apply obeys_fold_prog with (L := fun _ => True); [done| |done]. intros b' x _ Hx.
    eapply obeys_conseq; [by apply Hf|]. by intros [].
  Qed.
  Lemma r_map {A B} (l : list A) (f : A -> api B) : (forall x, x ∈ l -> ob (f x)) -> ob (map_prog f l).
  Proof.
    intros Hf. apply obeys_map_prog with (L := fun _ => True); [|done]. intros x Hx. eapply obeys_conseq; [by apply Hf|]. by intros [].
  Qed.
  Lemma r_filter {A} (l : list A) (f : A -> api bool) : (forall x, x ∈ l -> ob (f x)) -> ob (filter_prog f l).
  Proof. intros Hf. apply obeys_filter_prog; [|done]. intros x Hx. eapply obeys_conseq; [by apply Hf|]. by intros []. Qed.
  Lemma r_outcome {A} (o : outcome A) : ob (of_outcome o).
  Proof. by destruct o. Qed.
  Lemma r_from_just {A} (o : option A) : ob (from_just o).
  Proof. by destruct o. Qed.
  Lemma r_key_error {A} (o : option A) : ob (of_key_error o).
  Proof. by destruct o. Qed.
  Lemma r_order {A} (l : list A) : ob (order l).
  Proof. by split. Qed.
  Lemma r_load {A} (check : json -> outcome A) k : ob (load_checked check k).
  Proof. apply r_bind. { split; [done|]. intros r _. by destruct r. } intros [v|]; [|done]. by destruct (check v). Qed.
  Lemma r_val {A} (o : outcome A) (Q : outcome A -> Prop) : Q o -> obq Q (of_outcome o).
  Proof. by destruct o. Qed.

  Ltac r1 :=
    match goal with
    | |- obeys _ _ _ (bind _ _) => apply r_bind; [|intros ?]
    | |- obeys _ _ _ (try_ _) => apply r_try
    | |- obeys _ _ _ (Ret _) => exact I
    | |- obeys _ _ _ (Raise _) => exact I
    | |- obeys _ _ _ (for_each _ _) => apply r_for_each; intros ? ?
    | |- obeys _ _ _ (fold_prog _ _ _) => apply r_fold; intros ? ? ?
    | |- obeys _ _ _ (map_prog _ _) => apply r_map; intros ? ?
    | |- obeys _ _ _ (filter_prog _ _) => apply r_filter; intros ? ?
    | |- obeys _ _ _ (order _) => apply r_order
    | |- obeys _ _ _ (of_key_error _) => apply r_key_error
    | |- obeys _ _ _ (from_just _) => apply r_from_just
    | |- obeys _ _ _ (of_outcome _) => apply r_outcome
    | |- obeys _ _ _ (load_list _ _) => apply r_load
    | |- obeys _ _ _ (load_dict _ _) => apply r_load
    | |- obeys _ _ _ (load_bytes _) => apply r_load
    | |- obeys _ _ _ (load_optional _ _) => apply r_load
    | |- obeys _ _ _ (load_primitive _ _) => apply r_load
    | |- obeys _ _ _ (let '_ := ?b in _) => destruct b
    | |- obeys _ _ _ (match ?b with _ => _ end) => destruct b
    | |- obeys _ _ _ (if ?b then _ else _) => destruct b
    | |- obeys _ _ _ (Step ?c _) =>
        match c with
        | BStoreSession _ _ => fail 1 | BEncKey _ _ _ => fail 1 | BDecKey _ _ _ => fail 1
        | _ => split; [exact I|intros ? _]; first [apply r_outcome|exact I|idtac]
        end
    end.
  Ltac unwr := unfold store_bytes, set_trust, b_load_session, b_build_active, b_build_passive, b_enc_plain, b_enc_empty,
    b_dec_plain, b_spk_age, b_rotate, b_hide, b_delete, b_del_hidden, b_num_visible, b_generate,
    b_get_bundle, b_purge, b_purge_jid, n_upload_bundle, n_download_bundle, n_delete_bundle, n_upload_dl,
    n_download_dl, n_send, t_eval, t_blind, c_sleep, s_store, s_delete, k_same, g_loaded, g_sync, p_loaded,
    p_sync, c_randbelow, c_randbytes in *.
  Ltac rt := unwr; repeat (cbv zeta; r1).

  Lemma r_find_key jid dev l : ob (find_key jid dev l).
  Proof. induction l as [|ns l IH]; [done|]. cbn [find_key]. rt; exact IH. Qed.
  Lemma r_info_rest cf jid dev nss ik : ob (dev_info_rest cf jid dev nss ik).
  Proof. unfold dev_info_rest. rt. Qed.
  Lemma r_info_ cf jid : ob (get_device_information_ cf jid).
  Proof. unfold get_device_information_. rt. unfold dev_info. rt; first [apply r_find_key|apply r_info_rest]. Qed.
  Lemma r_info cf jid : ob (get_device_information cf jid).
  Proof. unfold get_device_information. rt. apply r_info_. Qed.
  Lemma r_own cf : ob (get_own_device_information cf).
  Proof. unfold get_own_device_information. rt. apply r_info. Qed.
  Lemma r_update cf ns jid dl : ob (update_device_list cf ns jid dl).
  Proof. unfold update_device_list. rt; [unfold upd_own|unfold upd_new|unfold upd_old]; rt. Qed.
  Lemma r_refresh cf ns jid : ob (refresh_device_list cf ns jid).
  Proof. unfold refresh_device_list. rt. apply r_update. Qed.
  Lemma r_refresh_all cf jid : ob (refresh_device_lists cf jid).
  Proof. unfold refresh_device_lists. rt. apply r_refresh. Qed.
  Lemma r_ikp : ob ikp_get.
  Proof. unfold ikp_get. rt; unfold ikp_generate; rt. Qed.
  Lemma r_label cf label : ob (set_own_label cf label).
  Proof. unfold set_own_label. rt. Qed.
  Lemma r_purge_backend cf ns : ob (purge_backend cf ns).
  Proof. unfold purge_backend. rt; try apply r_info; try apply r_own. Qed.
  Lemma r_purge_jid jid : ob (purge_bare_jid jid).
  Proof. unfold purge_bare_jid. rt; unfold collect_key; rt. Qed.
  Lemma r_rotate_upload cf fuel rd ns : ob (rotate_upload cf fuel rd ns).
  Proof. revert rd. induction fuel as [|n IH]; intros rd; [done|]. cbn [rotate_upload]. rt; apply IH. Qed.
  Lemma r_rotation cf fuel period : ob (rotation cf fuel period).
  Proof.
    induction fuel as [|n IH]; [done|]. cbn [rotation]. rt; try exact IH. unfold rotate_one. rt. apply r_rotate_upload.
  Qed.
  Lemma r_ensure cf : ob (ensure_data_consistency cf).
  Proof. unfold ensure_data_consistency. rt; try apply r_refresh_all; try apply r_refresh. Qed.
  Lemma r_fresh_id fuel l : ob (fresh_id fuel l).
  Proof. induction fuel as [|n IH]; [done|]. cbn [fresh_id]. rt. exact IH. Qed.
  Lemma r_create P fuel args : ob (create P fuel args).
  Proof.
    unfold create. rt; try apply r_ikp.
    - unfold first_run_local. rt; try apply r_fresh_id.
    - unfold first_run_publish. rt; try apply r_update; try apply r_refresh_all; try apply r_refresh.
    - unfold reconcile. rt; try apply r_refresh_all; try apply r_own; try apply r_purge_backend; unfold add_backend; rt; try apply r_refresh; try apply r_update.
  Qed.
  Lemma r_chain j x nss : ob (get_sending_chain_length j x nss).
  Proof. unfold get_sending_chain_length. rt. Qed.

  Lemma r_delete k : ob (s_delete k). Proof. rt. Qed.
  Lemma r_loaded : ob g_loaded. Proof. rt. Qed.
  Lemma r_sync b : ob (p_sync b). Proof. rt. Qed.
  Lemma r_hidden ns : ob (b_del_hidden ns). Proof. rt. Qed.
  Lemma r_load_session ns j x : ob (b_load_session ns j x). Proof. rt. Qed.

  (** ** Calls that use sessions *)
  Lemma r_store ns s : fresh ns s -> ob (b_store_session ns s).
  Proof. intros H. split; [exact H|]. intros r _. apply r_outcome. Qed.
  Lemma r_enc ns s p : N -> fresh ns s -> obq (fun o => match o with Val v => fresh ns v.1 | Exn _ => True end) (b_enc_key ns s p).
  Proof. intros HN H. split; [by split|]. intros r Hr. apply r_val. by destruct r as [[? ?]|]. Qed.
  Lemma r_dec ns s e : fresh ns s -> obq (fun o => match o with Val v => fresh ns v.1 | Exn _ => True end) (b_dec_key ns s e).
  Proof. intros H. split; [exact H|]. intros r Hr. apply r_val. by destruct r as [[? ?]|]. Qed.
  Lemma r_active ns j x b p : obq (fun o => match o with Val v => fresh ns v.1 | Exn _ => True end) (b_build_active ns j x b p).
  Proof. split; [exact I|]. intros r Hr. apply r_val. by destruct r as [[? ?]|]. Qed.
  Lemma r_passive ns j x k e : obq (fun o => match o with Val v => fresh ns v.1 | Exn _ => True end) (b_build_passive ns j x k e).
  Proof. split; [exact I|]. intros r Hr. apply r_val. by destruct r as [[? ?]|]. Qed.
  Lemma r_ses ns j x : obq (fun o => match o with Val (Some s) => fresh ns s | _ => True end) (b_load_session ns j x).
  Proof. split; [exact I|]. intros r Hr. apply r_val. by destruct r as [[?|]|]. Qed.

  Lemma r_empty cf ns s : N -> fresh ns s -> ob (send_empty_message cf ns s).
  Proof.
    intros HN H. unfold send_empty_message. apply r_bind; [rt|]. intros [c p].
    eapply r_bindq; [by apply r_enc|]. intros [s' e] Hs. apply r_bind; [rt|]. intros _. by apply r_store.
  Qed.
  Lemma r_replace cf j x : ob (replace_sessions cf j x).
  Proof.
    unfold replace_sessions. rt; try apply r_info. unfold replace_one. apply r_bind; [rt|]. intros [c p]. apply r_bind; [rt|]. intros b'.
    eapply r_bindq; [apply r_active|]. intros [s e'] Hs. apply r_bind; [rt|]. intros _. by apply r_store.
  Qed.
  Lemma r_after cf : N -> ob (after_history_sync cf).
  Proof.
    intros HN. unfold after_history_sync. rt. unfold flush_ns. rt. unfold flush_jid. rt. unfold flush_dev.
    eapply (r_bindq (fun m => match m with Some s => fresh _ s | None => True end)); [eapply obeys_conseq; [apply r_ses|]; by intros [[]|]|].
    intros [s|] Hs; [by apply r_empty|done].
  Qed.
  Definition fresh_all (l : list (string * session)) : Prop := Forall (fun y => fresh y.1 y.2) l.
  Lemma r_enc_device ns p cache st keys d : N -> fresh_all (es_sessions st) ->
    obq (fun o => match o with Val v => fresh_all (es_sessions v.1) | Exn _ => True end) (enc_device ns p cache (st, keys) d).
  Proof.
    intros HN Hst. unfold enc_device. apply obeys_bind. eapply obeys_conseq; [apply r_ses|]. intros [m|e] Hm; [|done].
    apply obeys_bind. split; [exact I|]. intros code _. cbn [obeys]. cbv zeta. apply obeys_bind, obeys_try.
    assert (forall q : api (session * ekm), obq (fun o => match o with Val v => fresh ns v.1 | Exn _ => True end) q ->
      obq (fun o => match o with
        | Val (Val (s, e)) => fresh ns s
        | _ => True end) (try_ q)) as Hw.
    { intros q Hq. apply obeys_try. eapply obeys_conseq; [exact Hq|]. by intros [[]|]. }
    eapply obeys_conseq.
    - instantiate (1 := fun o => match o with Val v => fresh ns v.1 | Exn _ => True end). destruct m as [s|]; [by apply r_enc|].
      destruct (head _); [apply r_active|]. apply obeys_bind. split; [exact I|]. intros r _. apply r_val. destruct r; [apply r_active|done].
    - intros [[s e]|e] Hs; cbn beta iota in *.
      + cbn [obeys fst es_sessions]. apply Forall_app. split; [done|]. by constructor.
      + destruct e; try exact I; exact Hst.
  Qed.
  Lemma r_encrypt cf mtd jids pt prio ident : N -> (forall ds i, ob (mtd ds i)) -> ob (encrypt cf mtd jids pt prio ident).
  Proof.
    intros HN Hm. unfold encrypt. apply r_bind; [rt|]. intros av. apply r_bind; [rt|]. intros pr. cbv zeta.
    apply r_bind; [rt|]. intros js. apply r_bind; [apply r_map; intros ? _; apply r_info_|]. intros tmp.
    apply r_bind; [rt|]. intros ds. apply r_bind; [rt|]. intros ds'.
    apply r_bind. { unfold enc_trust, devices_with, reload_trust. rt. apply Hm. } intros ds2. apply r_bind; [rt|]. intros bks.
    apply (r_bindq (fun st => fresh_all (es_sessions st))).
    { apply obeys_fold_prog with (L := fun st => fresh_all (es_sessions st)); [constructor| |done]. intros st ns Hst _.
      unfold enc_backend. destruct (filter _ (es_devices st)); [exact Hst|]. apply obeys_bind.
      eapply obeys_conseq; [apply r_key_error|]. intros [b|] _; [|done]. apply obeys_bind. split; [exact I|]. intros r _. apply r_val.
      destruct r as [[c p]|]; [|done]. apply obeys_bind. split; [exact I|]. intros code _. cbn [obeys]. apply obeys_bind.
      apply obeys_fold_prog with (L := fun v => fresh_all (es_sessions v.1)); [done| |].
      - intros [st' keys] d' Hst' _. by apply r_enc_device.
      - intros [st' keys] Hst'. exact Hst'. }
    intros st Hst. destruct (no_eligible _ _ _); [|done]. apply (r_bindq (fun ss => fresh_all ss)).
    { split; [exact I|]. intros code _. simpl. unfold fresh_all. by rewrite reorder_perm. }
    intros ss Hss. apply r_bind; [|done]. apply r_for_each. intros y Hy. apply r_store. unfold fresh_all in Hss. rewrite Forall_forall in Hss. by apply Hss.
  Qed.
  Lemma r_decrypt cf m : N -> ob (decrypt cf m).
  Proof.
    intros HN. unfold decrypt. apply r_bind; [rt|]. intros bks. destruct (decide _) as [_|_]; [|done]. cbv zeta. apply r_bind; [rt|]. intros keys.
    destruct (filter _ keys) as [|[e mk] l]; [done|]. apply r_bind. { unfold dec_sender. rt; try apply r_info; apply r_refresh. }
    intros d. apply r_bind; [rt|]. intros t. destruct (decide _) as [_|_]; [done|]. apply (r_bindq (fun v => fresh (m_ns m) v.1)).
    { destruct mk as [k|].
      - unfold dec_kex. destruct (decide _) as [_|_]; [|done]. apply obeys_bind. eapply obeys_conseq; [apply r_ses|]. intros [m0|] Hm; [|done].
        apply obeys_bind. eapply (obeys_conseq _ _ (fun o => match o with Val (Some s) => fresh (m_ns m) s | _ => True end)).
        + destruct m0 as [s|]; [|done]. destruct (decide _) as [_|_]; [|done]. apply obeys_bind. split; [exact I|]. intros r _. cbn [obeys]. by destruct r.
        + intros [[s|]|] Hs; [by apply r_dec|apply r_passive|done].
      - unfold dec_existing. apply obeys_bind. eapply obeys_conseq; [apply r_ses|]. intros [[s|]|] Hs; [by apply r_dec|done|done]. }
    intros [s p] Hs. apply r_bind; [rt|]. intros pl. apply r_bind; [by apply r_store|]. intros _.
    apply r_bind. { unfold dec_prekeys. rt. } intros _. apply r_bind; [|done]. destruct (_ || _); [|done]. unfold dec_respond.
    apply r_bind; [rt|]. intros [|]; [rt|by apply r_empty].
  Qed.
  Lemma r_call c : (match c with KEncrypt _ _ _ _ _ _ | KDecrypt _ _ | KAfter _ => N | _ => True end) -> (forall cf mtd jids pt prio ident, c = KEncrypt cf mtd jids pt prio ident -> forall ds i, ob (mtd ds i)) ->
    ob (run_call c).
  Proof.
    intros HN Hm. destruct c; cbn [run_call call_ret].
    - apply r_create.
    - apply r_ikp.
    - apply r_update.
    - apply r_refresh.
    - apply r_refresh_all.
    - rt.
    - apply r_info.
    - apply r_own.
    - apply r_label.
    - apply r_purge_backend.
    - apply r_purge_jid.
    - apply r_rotation.
    - apply r_ensure.
    - apply r_replace.
    - apply r_chain.
    - unfold before_history_sync. rt.
    - by apply r_after.
    - apply r_encrypt; [done|]. by eapply Hm.
    - by apply r_decrypt.
  Qed.
  Lemma r_lib (ok : call -> Prop) {A} (p : api A) : N -> libcode ok p -> ob p.
  Proof.
    intros HN H. induction H as [A v|A e|A B p f Hp IHp Hf IHf|A p Hp IHp|c Hc|c Hc Hm IHm].
    - done.
    - done.
    - by apply r_bind.
    - by apply r_try.
    - split; [by destruct c|]. done.
    - apply r_call; [by destruct c|exact IHm].
  Qed.
End floor.

Section inv.
  Context (age : session -> nat) (P : world -> forall c, resp c -> Prop) (HP : forall w c r, P w c r -> ratchet age w c r).
  Context (ns0 j0 : string) (x0 : Z) (a : nat).
  Notation fresh := (fresh age ns0 j0 x0 a).

  Definition floor (l : list event) : Prop :=
    (exists s, (ns0, s) ∈ stored l /\ s_jid s = j0 /\ s_dev s = x0 /\ (a <= age s)%nat) /\
    forall s, last_session l ns0 j0 x0 = Some s -> (a <= age s)%nat.
  Definition ev_ok (e : event) : Prop := match e with EvEncKey ns s _ _ => fresh ns s | _ => True end.
  Definition inv (l0 : list event) (w : world) : Prop := floor (w_log w) /\ exists new, w_log w = new ++ l0 /\ Forall ev_ok new.

  Lemma floor_cons e l : floor l -> (match e with EvStoreSession ns s _ => fresh ns s | _ => True end) -> floor (e :: l).
  Proof using.
    intros [(s & Hs & Hj & Hx & Ha) Hl] He.
    assert ((exists s, (ns0, s) ∈ stored (e :: l) /\ s_jid s = j0 /\ s_dev s = x0 /\ (a <= age s)%nat)) as H1.
    { exists s. split; [|done]. destruct e; try exact Hs. cbn [stored]. destruct r as [[]|]; [by right|exact Hs]. }
    split; [exact H1|]. intros s'. destruct e; try apply Hl; cbn [last_session]; (destruct r as [[]|]; [|apply Hl]).
    - case_bool_decide as Hb; [|apply Hl]. intros [= ->]. destruct Hb as (-> & H2 & H3). by apply He.
    - case_decide; [done|apply Hl].
    - case_bool_decide; [done|apply Hl].
  Qed.
  Lemma inv_log l0 w c r : inv l0 w -> w_apply w c r = log (event_of c r) (effect w c r) ->
    (forall e, event_of c r = Some e -> ev_ok e /\ match e with EvStoreSession ns s _ => fresh ns s | _ => True end) ->
    inv l0 (w_apply w c r).
  Proof using.
    intros [Hf (new & El & Hn)] _ He. unfold w_apply.
    assert (w_log (effect w c r) = w_log w) as E by (destruct c; try done; by destruct r).
    unfold inv. destruct (event_of c r) as [e|] eqn:Ee; cbn [log w_log].
    - rewrite E. destruct (He e eq_refl) as [H1 H2]. split; [by apply floor_cons|]. exists (e :: new). split; [by rewrite El|by constructor].
    - rewrite E. eauto.
  Qed.
  Lemma inv_step l0 w c r : inv l0 w -> Fr age ns0 j0 x0 a True c -> allowed (with_contract P) w c r ->
    Er age ns0 j0 x0 a c r /\ inv l0 (Prog.apply (with_contract P) w c r).
  Proof using HP.
    intros HI HF [_ Hr]. apply HP in Hr. split.
    - destruct HI as [[(s1 & Hs & Hj & Hx & Ha) Hl] _].
      destruct c; try exact I; unfold Er; destruct r as [v|]; try exact I; simpl in Hr.
      + destruct v as [s|]; [|exact I]. intros -> H1 H2. symmetry in Hr. destruct (last_session_key _ _ _ _ _ Hr) as (E1 & E2 & _).
        apply Hl. by rewrite <- H1, <- H2, E1, E2.
      + destruct v as [s0 k0]. intros -> H1 H2. destruct Hr as (E1 & E2 & Hy). specialize (Hy _ Hs). rewrite <- E1, <- E2, H1, H2 in Hy.
        specialize (Hy Hj Hx). lia.
      + destruct v as [s0 k0]. intros -> H1 H2. destruct Hr as (E1 & E2 & Hy). specialize (Hy _ Hs). rewrite <- E1, <- E2, H1, H2 in Hy.
        specialize (Hy Hj Hx). lia.
      + destruct v as [s0 k0]. intros -> H1 H2. destruct Hr as (E1 & E2 & Hy). simpl in HF; try destruct HF as [_ HF]. rewrite E1 in H1. rewrite E2 in H2.
        specialize (HF eq_refl H1 H2). lia.
      + destruct v as [s0 k0]. intros -> H1 H2. destruct Hr as (E1 & E2 & Hy). simpl in HF; try destruct HF as [_ HF]. rewrite E1 in H1. rewrite E2 in H2.
        specialize (HF eq_refl H1 H2). lia.
    - change (inv l0 (w_apply w c r)). apply inv_log; [done|done|]. intros e He. destruct c; try discriminate He; injection He as <-; try (by split). split; [by destruct HF|done].
  Qed.
  Lemma inv_lib l0 (ok : call -> Prop) {A} (p : api A) : libcode ok p -> psafe (with_contract P) (inv l0) p.
  Proof using HP. intros H. eapply obeys_psafe; [|by eapply (r_lib age ns0 j0 x0 a True)]. intros w c r HI HF Hr. by apply inv_step. Qed.
  Lemma inv_later l0 w w' : inv l0 w -> later P w w' -> inv l0 w'.
  Proof using HP.
    intros HI H. induction H as [w|w w1 w' (ps & cfg' & Hps & Hpr & _ & El) _ IH]; [done|]. apply IH.
    assert (inv l0 cfg'.2) as H1.
    { destruct cfg' as [ps' w2]. eapply (psafe_preach (with_contract P) (inv l0) ps w _); [exact HI| |exact Hpr].
      eapply Forall_impl; [exact Hps|]. intros p Hp. by eapply inv_lib. }
    unfold inv in *. by rewrite El.
  Qed.
End inv.

Lemma ratchet_kept age w c r : ratchet age w c r -> sessions_kept w c r.
Proof. destruct c; try done; simpl; destruct r as [[? ?]|]; try done; unfold younger; tauto. Qed.

(** ** Calls that returned *)
Section settle.
  Context (age : session -> nat) (P : world -> forall c, resp c -> Prop) (HP : forall w c r, P w c r -> ratchet age w c r).
  Notation S := (with_contract P).

  (** Every session that encrypted key material is stored in the state it had afterwards, or a younger one. *)
  Definition settled (w w' : world) : Prop :=
    exists new, w_log w' = new ++ w_log w /\
      forall ns s p s' k, EvEncKey ns s p (Val (s', k)) ∈ new ->
        (age s < age s')%nat /\ s_jid s' = s_jid s /\ s_dev s' = s_dev s /\ floor age ns (s_jid s) (s_dev s) (age s') (w_log w').
  Definition sett {A} (p : api A) : Prop := forall w v w', exec S p w (Val v) w' -> settled w w'.
  Definition sane {A} (p : api A) : Prop := forall ns j x a, obeys (Er age ns j x a) (Fr age ns j x a True) tt_ p.
  Definition nokey {A} (p : api A) : Prop := obeys (Er age "" "" 0%Z 0) (Fr age "" "" 0%Z 0 False) tt_ p.

  Lemma sane_floor {A} (p : api A) w o w' ns j x a : sane p -> exec S p w o w' ->
    floor age ns j x a (w_log w) -> floor age ns j x a (w_log w').
  Proof using HP.
    intros Hp Hx Hf. eapply (psafeq_exec S (inv age ns j x a (w_log w))) in Hx as [_ Hi].
    - exact (proj1 Hi).
    - eapply obeys_psafeq; [|apply (Hp ns j x a)]. intros w1 c r HI HF Hr. by eapply inv_step.
    - split; [done|]. by exists [].
  Qed.
  Lemma grown {A} (p : api A) w o w' : exec S p w o w' -> exists new, w_log w' = new ++ w_log w.
  Proof using. intros H. destruct (alone_exec _ _ _ _ _ H) as (evs & El & _). by exists evs. Qed.
  Lemma nokey_exec {A} (p : api A) w o w' : nokey p -> exec S p w o w' -> settled w w'.
  Proof using HP.
    intros Hp Hx.
    eapply (psafeq_exec S (fun w' => exists new, w_log w' = new ++ w_log w /\ Forall (fun e => match e with EvEncKey _ _ _ _ => False | _ => True end) new)) in Hx as [_ (new & El & Hn)].
    - exists new. split; [done|]. intros ns s q s' k Hin. rewrite Forall_forall in Hn. by apply Hn in Hin.
    - eapply obeys_psafeq; [|exact Hp]. intros w1 c r (new & El & Hn) HF Hr. split.
      + destruct c; try exact I; unfold Er; destruct r as [v|]; try exact I; try (by destruct v as [s0 k0]; intros ? ? ?; lia).
        destruct v as [s0|]; [|exact I]. intros ? ? ?. lia.
      + cbn [Prog.apply with_contract]. unfold w_apply. assert (w_log (effect w1 c r) = w_log w1) as E by (destruct c; try done; by destruct r).
        destruct (event_of c r) as [e|] eqn:Ee; cbn [log w_log]; rewrite E; [|eauto]. exists (e :: new). split; [by rewrite El|].
        constructor; [|done]. destruct e; try exact I. destruct c; try discriminate Ee. by destruct HF.
    - by exists [].
  Qed.
  Lemma sett_nokey {A} (p : api A) : nokey p -> sett p.
  Proof using HP. intros Hp w v w' Hx. by eapply nokey_exec. Qed.
  Lemma sett_bind {A B} (p : api A) (f : A -> api B) : sett p -> (forall v, sett (f v)) -> (forall v, sane (f v)) -> sett (bind p f).
  Proof using HP.
    intros Hp Hf Hs w v w' Hx. apply exec_bind in Hx as [(u & w1 & H1 & H2)|(e & _ & [=])].
    destruct (Hp _ _ _ H1) as (n1 & E1 & K1). destruct (Hf _ _ _ _ H2) as (n2 & E2 & K2).
    exists (n2 ++ n1). split; [by rewrite E2, E1, app_assoc|]. intros ns s q s' k [Hin|Hin]%elem_of_app; [by eapply K2|].
    destruct (K1 _ _ _ _ _ Hin) as (? & ? & ? & Hfl). do 3 (split; [done|]). by eapply sane_floor.
  Qed.
  Lemma sane_for_each {A} (l : list A) f : (forall x, sane (f x)) -> sane (for_each l f).
  Proof using. intros Hf ns j x a. apply r_for_each. intros y _. apply Hf. Qed.
  Lemma sett_for_each {A} (l : list A) f : (forall x, sett (f x)) -> (forall x, sane (f x)) -> sett (for_each l f).
  Proof using HP.
    intros Hf Hs. induction l as [|x l IH]; [intros w v w' [_ ->]; exists []; split; [done|]; intros ns s q s' k Hin; by apply elem_of_nil in Hin|].
    apply sett_bind; [apply Hf|done|]. intros _. by apply sane_for_each.
  Qed.
  Lemma sett_empty cf ns s : sett (send_empty_message cf ns s).
  Proof using HP.
    intros w [] w' Hx. pose proof Hx as Hx'.
    apply (empty_advanced P) in Hx as (c & p & s' & e & El & Hl); [|intros; eapply ratchet_kept; by apply HP].
    exists [EvStoreSession ns s' (Val tt); EvSend (Message ns (c_jid cf) (c_dev cf) c [(e, kex_due s')]) (s_jid s') (Val tt);
      EvEncKey ns s p (Val (s', e)); EvEncEmpty ns (Val (c, p))]. split; [exact El|].
    destruct (alone_exec _ _ _ _ _ Hx') as (evs & El' & Ha). destruct (alone_answers _ _ _ _ _ Ha) as (new & En & Hans).
    rewrite app_nil_r in En. subst new. rewrite El in El'. apply app_inv_tail in El'. subst evs.
    do 2 (apply Forall_cons in Hans as [_ Hans]). apply Forall_cons in Hans as [(c0 & r0 & (w0 & _ & Hp) & Ee) _].
    destruct c0; try done. injection Ee as -> -> -> ->. apply HP in Hp as (E1 & E2 & Hlt).
    intros ns' s1 p1 s1' k1 Hin. do 2 (apply elem_of_cons in Hin as [Hin|Hin]; [discriminate Hin|]).
    apply elem_of_cons in Hin as [Hin|Hin]; [|apply elem_of_cons in Hin as [Hin|Hin]; [discriminate Hin|by apply elem_of_nil in Hin]].
    injection Hin as -> -> -> -> ->. do 3 (split; [done|]). split.
    - exists s'. rewrite El. split; [left|]. split; [done|]. split; [done|lia].
    - intros s2. rewrite Hl. intros [= <-]. lia.
  Qed.

  Definition both {A} (p : api A) : Prop := sane p /\ sett p.
  Lemma both_bind {A B} (p : api A) (f : A -> api B) : both p -> (forall v, both (f v)) -> both (bind p f).
  Proof using HP.
    intros [H1 H2] Hf. split; [|apply sett_bind; [done|intros v; apply Hf..]]. intros ns j x a. apply r_bind; [apply H1|]. intros v. apply Hf.
  Qed.
  Lemma both_for_each {A} (l : list A) f : (forall x, both (f x)) -> both (for_each l f).
  Proof using HP. intros Hf. split; [apply sane_for_each|apply sett_for_each]; intros x; apply Hf. Qed.
  Lemma both_quiet {A} (p : api A) : (forall ns j x a N, obeys (Er age ns j x a) (Fr age ns j x a N) tt_ p) -> both p.
  Proof using HP. intros Hp. split; [intros ns j x a; apply Hp|apply sett_nokey, Hp]. Qed.
  Lemma sett_flush_dev cf ns j x : sett (flush_dev cf ns j x).
  Proof using HP.
    unfold flush_dev. intros w v w' Hx. apply exec_bind in Hx as [(m & w1 & H1 & H2)|(e & _ & [=])].
    destruct (sett_nokey (b_load_session ns j x) (r_load_session _ _ _ _ _ _ _ _ _) _ _ _ H1) as (n1 & E1 & K1).
    destruct m as [s|].
    - destruct (sett_empty cf ns s _ _ _ H2) as (n2 & E2 & K2). exists (n2 ++ n1). split; [by rewrite E2, E1, app_assoc|].
      intros ns' s1 q s' k [Hin|Hin]%elem_of_app; [by eapply K2|]. apply (alone_exec P (b_load_session ns j x)) in H1 as (evs & El & Ha).
      rewrite E1 in El. apply app_inv_tail in El. subst evs. destruct Ha as (r & _ & Ha). simpl in Ha. destruct r as [?|]; destruct Ha as [_ ->]; apply elem_of_list_singleton in Hin; discriminate Hin.
    - destruct H2 as [_ ->]. by exists n1.
  Qed.
  Lemma both_flush_dev cf ns j x : both (flush_dev cf ns j x).
  Proof using HP.
    split; [|apply sett_flush_dev]. intros ns0 j0 x0 a. unfold flush_dev. 
    eapply (r_bindq _ _ _ _ _ _ (fun m => match m with Some s => fresh _ _ _ _ _ _ s | None => True end)); [eapply obeys_conseq; [apply r_ses|]; by intros [[]|]|].
    intros [s|] Hs; [by apply r_empty|done].
  Qed.
  Lemma both_after cf : both (after_history_sync cf).
  Proof using HP.
    unfold after_history_sync. apply both_bind; [apply both_quiet; intros; apply r_sync|intros _].
    apply both_bind; [apply both_quiet; intros; apply r_loaded|intros bs].
    apply both_bind; [apply both_for_each; intros ?; apply both_quiet; intros; apply r_hidden|intros _].
    apply both_bind; [apply both_quiet; intros; apply r_loaded|intros bs']. apply both_for_each. intros ns.
    unfold flush_ns. apply both_bind; [apply both_quiet; intros; apply r_load|intros m]. cbv zeta.
    apply both_bind; [apply both_quiet; intros; apply r_delete|intros _].
    apply both_bind; [apply both_quiet; intros; apply r_order|intros js]. apply both_for_each. intros j.
    unfold flush_jid. apply both_bind; [apply both_quiet; intros; apply r_load|intros m']. cbv zeta.
    apply both_bind; [apply both_quiet; intros; apply r_delete|intros _].
    apply both_bind; [apply both_quiet; intros; apply r_order|intros ds]. apply both_for_each. intros x. apply both_flush_dev.
  Qed.
  Lemma sett_decrypt cf m : sett (decrypt cf m).
  Proof using HP.
    intros w [[pt d] p] w' Hx. destruct (alone_exec _ _ _ _ _ Hx) as (evs & El & Ha).
    destruct (alone_answers _ _ _ _ _ Ha) as (new & En & Hans). rewrite app_nil_r in En. subst new.
    apply dec_responds in Ha as (e & mk & s & resp & rest & _ & -> & _ & _ & Hr & H1 & H2). exists (resp ++ rest). split; [done|].
    intros ns s1 q s' k [Hin|Hin]%elem_of_app; [|rewrite Forall_forall in Hr; by apply Hr in Hin].
    assert (responded cf (m_ns m) s resp) as Hres.
    { assert (resp <> []) as Hne by (intros ->; by apply elem_of_nil in Hin). destruct mk as [k0|]; [by apply H1; left|].
      destruct (s_rcl s) as [n|] eqn:En; [destruct (decide (53 < n)%Z)|].
      - apply H1. right. by exists n.
      - exfalso. apply Hne, H2; [done|]. intros n' [= <-]. lia.
      - exfalso. apply Hne, H2; [done|]. intros n' [=]. }
    destruct Hres as [(l & l' & _ & _ & ->)|(c & q' & s2 & k2 & ->)].
    - exfalso. do 2 (apply elem_of_cons in Hin as [Hin|Hin]; [discriminate Hin|]). by apply elem_of_nil in Hin.
    - assert (EvEncKey ns s1 q (Val (s', k)) ∈ [EvStoreSession (m_ns m) s2 (Val tt);
      EvSend (Message (m_ns m) (c_jid cf) (c_dev cf) c [(k2, kex_due s2)]) (s_jid s2) (Val tt);
      EvEncKey (m_ns m) s q' (Val (s2, k2)); EvEncEmpty (m_ns m) (Val (c, q'))] ++ rest) as Hin' by (apply elem_of_app; by left).
      do 2 (apply elem_of_cons in Hin as [Hin|Hin]; [discriminate Hin|]).
      apply elem_of_cons in Hin as [Hin|Hin]; [|apply elem_of_cons in Hin as [Hin|Hin]; [discriminate Hin|by apply elem_of_nil in Hin]].
      injection Hin as -> -> -> -> ->.
      rewrite Forall_forall in Hans. apply Hans in Hin' as (c0 & r0 & (w0 & _ & Hp) & Ee).
      destruct c0; try done. injection Ee as -> -> -> ->. apply HP in Hp as (E1 & E2 & Hlt).
      do 3 (split; [done|]). rewrite El. split.
      + exists s2. split; [left|]. split; [done|]. split; [done|lia].
      + intros s3. cbn [app last_session]. rewrite bool_decide_eq_true_2 by done. intros [= <-]. lia.
  Qed.
  Lemma sett_call c : (match c with KEncrypt _ _ _ _ _ _ => False | _ => True end) -> sett (run_call c).
  Proof using HP.
    intros Hc. destruct c; try done; try (apply sett_nokey, r_call; [exact I|by intros]).
    - apply both_after.
    - apply sett_decrypt.
  Qed.
End settle.

(** ** Everything later *)
Section later.
  Context (age : session -> nat) (P : world -> forall c, resp c -> Prop) (HP : forall w c r, P w c r -> ratchet age w c r).

  Lemma never_older w w' ns j x a : floor age ns j x a (w_log w) -> later P w w' ->
    exists new, w_log w' = new ++ w_log w /\
      forall s p r, EvEncKey ns s p r ∈ new -> s_jid s = j -> s_dev s = x -> (a <= age s)%nat.
  Proof using HP.
    intros Hf Hl. assert (inv age ns j x a (w_log w) w) as HI by (split; [done|by exists []]).
    apply (inv_later age P HP ns j x a _ _ _ HI) in Hl as [_ (new & El & Hn)]. exists new. split; [done|].
    intros s p r Hin. rewrite Forall_forall in Hn. apply Hn in Hin. by apply Hin.
  Qed.
  Lemma later_grown w w' : later P w w' -> exists new, w_log w' = new ++ w_log w.
  Proof using HP.
    intros H. induction H as [w|w w1 w' (ps & cfg' & Hps & Hpr & _ & El) _ (n & IH)]; [by exists []|].
    rewrite IH, El. assert (exists m, w_log cfg'.2 = m ++ w_log w) as (m & ->); [|by exists (n ++ m); rewrite app_assoc].
    apply (psafe_preach (with_contract P) (fun w1 => exists m, w_log w1 = m ++ w_log w) ps w _) in Hpr as [H _]; [done|by exists []|].
    apply Forall_forall. intros p _. clear. induction p as [v|e|c k IH]; [done|done|]. intros w1 r (m & El) _. split; [|apply IH].
    cbn [Prog.apply with_contract]. unfold w_apply. assert (w_log (effect w1 c r) = w_log w1) as E by (destruct c; try done; by destruct r).
    destruct (event_of c r) as [e|]; cbn [log w_log]; rewrite E; [|eauto]. exists (e :: m). by rewrite El.
  Qed.
  Lemma stored_floor w ns j x s : last_session (w_log w) ns j x = Some s -> floor age ns j x (age s) (w_log w).
  Proof using.
    intros H. destruct (last_session_key _ _ _ _ _ H) as (H1 & H2 & H3). split; [by exists s|]. intros s'. rewrite H. by intros [= <-].
  Qed.
  Lemma spent_call c w v w1 w2 : (match c with KEncrypt _ _ _ _ _ _ => False | _ => True end) ->
    exec (with_contract P) (run_call c) w (Val v) w1 -> later P w1 w2 ->
    exists own new, w_log w1 = own ++ w_log w /\ w_log w2 = new ++ w_log w1 /\ forall ns s, spent ns s own -> ~ used ns s new.
  Proof using HP.
    intros Hc Hx Hl. destruct (sett_call age P HP c Hc _ _ _ Hx) as (own & E1 & K). destruct (later_grown _ _ Hl) as (new & E2).
    exists own, new. split; [done|]. split; [done|]. intros ns s (p & [s' k] & Hin) (q & r & Hin'). destruct (K _ _ _ _ _ Hin) as (Hlt & _ & _ & Hf).
    destruct (never_older _ _ _ _ _ _ Hf Hl) as (new' & E3 & Hn). rewrite E2 in E3. apply app_inv_tail in E3. subst new'.
    specialize (Hn _ _ _ Hin' eq_refl eq_refl). lia.
  Qed.
  Lemma exec_nd {A} (p : api A) w o w' : psafe base distinct p -> distinct w -> exec (with_contract P) p w o w' ->
    exec (with_contract (fun w c r => P w c r /\ distinct_backends w c r)) p w o w'.
  Proof using.
    revert w. induction p as [a|e|c k IH]; intros w Hp HI H; [done|done|].
    destruct H as (r & [Hr Hh] & H). destruct (Hp w r HI Hr) as [H1 H2]. exists r. split; [|by apply IH].
    split; [done|]. split; [done|]. destruct c; try done. simpl in *. by subst.
  Qed.
  Lemma spent_encrypt cf mtd ident pt priority bare_jids w r w1 w2 :
    NoDup (w_loaded w) -> (forall ds i, appcode any_call (mtd ds i)) ->
    exec (with_contract P) (encrypt cf mtd bare_jids pt priority ident) w (Val r) w1 -> later P w1 w2 ->
    exists pre dec post new, w_log w1 = post ++ dec ++ pre ++ w_log w /\ Forall enc_pre pre /\ Forall enc_post post /\
      w_log w2 = new ++ w_log w1 /\ (forall ns s, spent ns s post -> ~ used ns s new) /\
      forall en s p r, en ∈ encs post -> EvEncKey (en_ns en) s p r ∈ new -> s_jid s = en_jid en -> s_dev s = en_dev en ->
        (age (en_session en) <= age s)%nat.
  Proof using HP.
    intros Hd Hm Hx Hl. pose proof Hx as Hx'. apply exec_nd in Hx; [|eapply distinct_app, (app_call _ any_call (KEncrypt cf mtd bare_jids pt priority ident))|exact Hd].
    2: exact I. 2: { intros ? ? ? ? ? ? [= <- <- <- <- <- <-]. exact Hm. }
    apply enc_advanced in Hx as (pre & dec & post & E1 & H1 & H2 & H3 & H4).
    2: { intros ? ? ? [Hp ?]. split; [done|]. eapply ratchet_kept. by apply HP. }
    destruct (later_grown _ _ Hl) as (new & E2). exists pre, dec, post, new. do 4 (split; [done|]).
    assert (forall en s p r, en ∈ encs post -> EvEncKey (en_ns en) s p r ∈ new -> s_jid s = en_jid en -> s_dev s = en_dev en ->
        (age (en_session en) <= age s)%nat) as Hold.
    { intros en s p r0 Hen Hin Hj Hx. destruct (never_older _ _ _ _ _ _ (stored_floor _ _ _ _ _ (H3 en Hen)) Hl) as (new' & E3 & Hn).
      rewrite E2 in E3. apply app_inv_tail in E3. subst new'. by eapply Hn. }
    split; [|done]. intros ns s (p & [s' k] & Hin) (q & r0 & Hin'). pose proof (H4 _ _ _ _ _ Hin) as Hen.
    specialize (Hold _ _ _ _ Hen Hin' eq_refl eq_refl). simpl in Hold.
    destruct (alone_exec _ _ _ _ _ Hx') as (evs & El & Ha). destruct (alone_answers _ _ _ _ _ Ha) as (evs' & En & Hans).
    rewrite app_nil_r in En. subst evs'. assert (EvEncKey ns s p (Val (s', k)) ∈ evs) as Hin2.
    { rewrite E1 in El. assert (evs = post ++ dec ++ pre) as ->; [|apply elem_of_app; by left].
      apply (app_inv_tail (w_log w)). by rewrite <- El, <- !app_assoc. }
    rewrite Forall_forall in Hans. apply Hans in Hin2 as (c0 & r1 & (w0 & _ & Hp) & Ee). destruct c0; try done.
    injection Ee as -> -> -> ->. apply HP in Hp as (_ & _ & Hlt). lia.
  Qed.
End later.
