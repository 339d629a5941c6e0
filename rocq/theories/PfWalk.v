(** Which commands the calls of the library may contain: one walk through the library for any property of programs that is
    kept by sequencing. *)
From Verif Require Import Api Spec Foot One PfStrs PfTyped PfWp PfHist PfEmits PfFoot.
Open Scope prog_scope.
Open Scope list_scope.

Definition queue_key (k : string) : Prop := exists i, queue_item i /\ k = item_key i.
(** The commands a call may use, as far as it matters here. *)
Definition uses (c : call) (m : cmd) : Prop :=
  match m with
  | BGenerate _ _ => match c with KCreate _ _ _ => True | _ => False end
  | BNumVisible _ => False
  | BHide ns _ | BDelete ns _ => match c with KDecrypt _ m => m_ns m = ns | _ => False end
  | BRotate _ => match c with KRotation _ _ _ => True | _ => False end
  | NUploadBundle _ => match c with KCreate _ _ _ | KRotation _ _ _ | KDecrypt _ _ | KEnsure _ => True | _ => False end
  | BGetBundle ns _ _ =>
      match c with KCreate _ _ _ | KRotation _ _ _ | KEnsure _ => True | KDecrypt _ m => m_ns m = ns | _ => False end
  | BStoreSession _ _ => match c with KEncrypt _ _ _ _ _ _ | KDecrypt _ _ | KReplace _ _ _ | KAfter _ => True | _ => False end
  | BPurge ns => match c with KPurgeBackend _ ns' => ns' = ns | KCreate _ _ _ => True | _ => False end
  | NDeleteBundle ns _ => match c with KPurgeBackend _ ns' => ns' = ns | KCreate _ _ _ => True | _ => False end
  | BPurgeJid _ j => match c with KPurgeJid j' => j' = j | _ => False end
  | PSync _ => match c with KBefore | KAfter _ | KCreate _ _ _ => True | _ => False end
  | PLoaded _ => match c with KCreate _ _ _ | KPurgeBackend _ _ => True | _ => False end
  | SStore k _ | SDelete k => queue_key k -> match c with KDecrypt _ _ | KAfter _ => True | _ => False end
  | _ => True
  end.
(** used by all *)
Definition common (m : cmd) : Prop :=
  match m with
  | BGenerate _ _ | BNumVisible _ | BHide _ _ | BDelete _ _ | BRotate _ | NUploadBundle _ | BGetBundle _ _ _ | BStoreSession _ _
  | BPurge _ | NDeleteBundle _ _ | BPurgeJid _ _ | PSync _ | PLoaded _ => False
  | SStore k _ | SDelete k => ~ queue_key k
  | _ => True
  end.
Lemma common_uses c m : common m -> uses c m.
Proof. destruct m; simpl; tauto. Qed.

Lemma nq_item i : ~ queue_item i -> ~ queue_key (item_key i).
Proof. intros H (i' & Hi & Hk). apply item_key_cases in Hk as [->|[? _]]; done. Qed.

Section walk.
  Context (T : forall A, api A -> Prop) (okc : cmd -> Prop).
  Local Notation "'T!' p" := (T _ p) (at level 10).
  Hypothesis T_ret : forall A (a : A), T _ (Ret a).
  Hypothesis T_raise : forall A e, T A (Raise e).
  Hypothesis T_bind : forall A B (p : api A) (f : A -> api B), T _ p -> (forall a, T _ (f a)) -> T _ (bind p f).
  Hypothesis T_try : forall A (p : api A), T _ p -> T _ (try_ p).
  Hypothesis T_cmd : forall A c (k : resp c -> api A), okc c -> (forall r, T _ (k r)) -> T _ (Step c k).
  Hypothesis Hcommon : forall m, common m -> okc m.
  (** counting the pre keys and filling them up *)
  Definition refill_ok (ns : string) : Prop := forall A th (rest : api A), T _ rest ->
    T _ (n <- b_num_visible ns ;; (if (n <=? th)%Z then b_generate ns (100 - n) else Ret tt) ;;; rest).

  Lemma t_outcome {A} (o : outcome A) : T _ (of_outcome o).
  Proof using All. destruct o; [apply T_ret|apply T_raise]. Qed.
  Lemma t_from_just {A} (o : option A) : T _ (from_just o).
  Proof using All. destruct o; [apply T_ret|apply T_raise]. Qed.
  Lemma t_key_error {A} (o : option A) : T _ (of_key_error o).
  Proof using All. destruct o; [apply T_ret|apply T_raise]. Qed.
  Lemma t_order {A} (l : list A) : T _ (order l).
  Proof using All. apply T_cmd; [by apply Hcommon|]. intros r. apply T_ret. Qed.
  Lemma t_load {A} (check : json -> outcome A) k : T _ (load_checked check k).
  Proof using All.
    unfold load_checked. apply T_bind; [apply T_cmd; [by apply Hcommon|intros r; apply t_outcome]|].
    intros [v|]; [|apply T_ret]. destruct (check v); [apply T_ret|apply T_raise].
  Qed.
  Lemma t_for_each {A} (l : list A) f : (forall x, x ∈ l -> T _ (f x)) -> T _ (for_each l f).
  Proof using All.
    induction l as [|x l IH]; intros Hf; [apply T_ret|]. cbn [for_each]. apply T_bind; [apply Hf; left|].
    intros _. apply IH. intros y Hy. apply Hf. by right.
  Qed.
  Lemma t_fold {A B} (l : list A) (f : B -> A -> api B) b : (forall b x, x ∈ l -> T _ (f b x)) -> T _ (fold_prog l f b).
  Proof using All.
    revert b. induction l as [|x l IH]; intros b Hf; [apply T_ret|]. cbn [fold_prog]. apply T_bind; [apply Hf; left|].
    intros b'. apply IH. intros b0 y Hy. apply Hf. by right.
  Qed.
  Lemma t_map {A B} (l : list A) (f : A -> api B) : (forall x, x ∈ l -> T _ (f x)) -> T _ (map_prog f l).
  Proof using All.
    induction l as [|x l IH]; intros Hf; [apply T_ret|]. cbn [map_prog]. apply T_bind; [apply Hf; left|].
    intros b. apply T_bind; [apply IH; intros y Hy; apply Hf; by right|]. intros bs. apply T_ret.
  Qed.
  Lemma t_filter {A} (l : list A) (f : A -> api bool) : (forall x, x ∈ l -> T _ (f x)) -> T _ (filter_prog f l).
  Proof using All.
    induction l as [|x l IH]; intros Hf; [apply T_ret|]. cbn [filter_prog]. apply T_bind; [apply Hf; left|].
    intros b. apply T_bind; [apply IH; intros y Hy; apply Hf; by right|]. intros bs. destruct b; apply T_ret.
  Qed.
  Lemma nq_list j : ~ queue_key (k_list j). Proof. apply (nq_item (IDeviceList j)). intros []. Qed.
  Lemma nq_ns j x : ~ queue_key (k_ns j x). Proof. apply (nq_item (INamespaces j x)). intros []. Qed.
  Lemma nq_act j x : ~ queue_key (k_active j x). Proof. apply (nq_item (IActive j x)). intros []. Qed.
  Lemma nq_lab j x : ~ queue_key (k_label j x). Proof. apply (nq_item (ILabel j x)). intros []. Qed.
  Lemma nq_ik j x : ~ queue_key (k_ik j x). Proof. apply (nq_item (IIdentityKey j x)). intros []. Qed.
  Lemma nq_trust j ik : ~ queue_key (k_trust j ik). Proof. apply (nq_item (ITrust j ik)). intros []. Qed.
  Lemma nq_own : ~ queue_key k_own. Proof. apply (nq_item IOwnDeviceId). intros []. Qed.
  Lemma nq_seed : ~ queue_key k_ikp_seed. Proof. apply (nq_item IKeyPairIsSeed). intros []. Qed.
  Lemma nq_key : ~ queue_key k_ikp_key. Proof. apply (nq_item IKeyPairKey). intros []. Qed.
  Hint Resolve nq_list nq_ns nq_act nq_lab nq_ik nq_trust nq_own nq_seed nq_key : core.

  Ltac t1 :=
    match goal with
    | |- T _ (bind _ _) => apply T_bind; [|intros ?]
    | |- T _ (try_ _) => apply T_try
    | |- T _ (Ret _) => apply T_ret
    | |- T _ (Raise _) => apply T_raise
    | |- T _ (for_each _ _) => apply t_for_each; intros ? ?
    | |- T _ (fold_prog _ _ _) => apply t_fold; intros ? ? ?
    | |- T _ (map_prog _ _) => apply t_map; intros ? ?
    | |- T _ (filter_prog _ _) => apply t_filter; intros ? ?
    | |- T _ (order _) => apply t_order
    | |- T _ (of_key_error _) => apply t_key_error
    | |- T _ (from_just _) => apply t_from_just
    | |- T _ (of_outcome _) => apply t_outcome
    | |- T _ (load_list _ _) => apply t_load
    | |- T _ (load_dict _ _) => apply t_load
    | |- T _ (load_bytes _) => apply t_load
    | |- T _ (load_optional _ _) => apply t_load
    | |- T _ (load_primitive _ _) => apply t_load
    | |- T _ (let '_ := ?b in _) => destruct b
    | |- T _ (match ?b with _ => _ end) => destruct b
    | |- T _ (if ?b then _ else _) => destruct b
    end.
  Ltac okt := first [assumption|by auto|apply Hcommon; simpl; by auto|idtac].
  Ltac cmd1 := unfold store_bytes in *; unw; unfold g_loaded, g_sync, p_loaded, p_sync, c_randbelow, c_randbytes, s_load in *;
    match goal with |- T _ (Step _ _) => apply T_cmd; [okt|intros ?; first [apply t_outcome|apply T_ret|idtac]] end.
  Ltac tt1 := repeat (cbv zeta; first [t1|progress cmd1]).

  Lemma t_update cf ns j dl : T _ (update_device_list cf ns j dl).
  Proof using All. unfold update_device_list, upd_own, upd_new, upd_old. tt1; auto. Qed.
  Lemma t_refresh cf ns j : T _ (refresh_device_list cf ns j).
  Proof using All. unfold refresh_device_list. tt1. apply t_update. Qed.
  Lemma t_refresh_all cf j : T _ (refresh_device_lists cf j).
  Proof using All. unfold refresh_device_lists. tt1. apply t_refresh. Qed.
  Lemma t_find_key j x l : T _ (find_key j x l).
  Proof using All. induction l as [|ns l IH]; [apply T_ret|]. cbn [find_key]. tt1; auto. Qed.
  Lemma t_info_ cf j : T _ (get_device_information_ cf j).
  Proof using All. unfold get_device_information_, dev_info, dev_info_rest. tt1; auto using t_find_key. Qed.
  Lemma t_info cf j : T _ (get_device_information cf j).
  Proof using All. unfold get_device_information. tt1. apply t_info_. Qed.
  Lemma t_own cf : T _ (get_own_device_information cf).
  Proof using All. unfold get_own_device_information. tt1. apply t_info. Qed.
  Lemma t_label cf l : T _ (set_own_label cf l).
  Proof using All. unfold set_own_label. tt1; auto. Qed.
  Lemma t_purge_backend cf ns : (forall l, okc (PLoaded l)) -> okc (BPurge ns) -> (forall x, okc (NDeleteBundle ns x)) -> T _ (purge_backend cf ns).
  Proof using All. intros H1 H2 H3. unfold purge_backend. tt1; auto using t_own. Qed.
  Lemma t_purge_jid j : (forall ns, okc (BPurgeJid ns j)) -> T _ (purge_bare_jid j).
  Proof using All. intros H. unfold purge_bare_jid, collect_key. tt1; auto. Qed.
  Lemma t_rotate_upload cf fuel rd ns : (forall ns j x, okc (BGetBundle ns j x)) -> (forall b, okc (NUploadBundle b)) -> T _ (rotate_upload cf fuel rd ns).
  Proof using All. intros H1 H2. revert rd. induction fuel as [|fuel IH]; intros rd; [apply T_raise|]. cbn [rotate_upload]. tt1; auto. Qed.
  Lemma t_rotation cf fuel period : (forall ns j x, okc (BGetBundle ns j x)) -> (forall b, okc (NUploadBundle b)) -> (forall ns, okc (BRotate ns)) ->
    T _ (rotation cf fuel period).
  Proof using All.
    intros H1 H2 H3. induction fuel as [|fuel IH]; [apply T_raise|]. cbn [rotation]. unfold rotate_one. tt1; auto using t_rotate_upload.
  Qed.
  Lemma t_ensure cf : (forall ns j x, okc (BGetBundle ns j x)) -> (forall b, okc (NUploadBundle b)) -> T _ (ensure_data_consistency cf).
  Proof using All. intros H1 H2. unfold ensure_data_consistency. tt1; auto. all: apply t_refresh. Qed.
  Lemma t_send_empty cf ns s : (forall s, okc (BStoreSession ns s)) -> T _ (send_empty_message cf ns s).
  Proof using All. intros H. unfold send_empty_message. tt1; auto. Qed.
  Lemma t_replace cf j x : (forall ns s, okc (BStoreSession ns s)) -> T _ (replace_sessions cf j x).
  Proof using All. intros H. unfold replace_sessions, replace_one. tt1; auto using t_info. Qed.
  Lemma t_chain j x nss : T _ (get_sending_chain_length j x nss).
  Proof using All. unfold get_sending_chain_length. tt1. Qed.
  Lemma t_after cf : (forall ns s, okc (BStoreSession ns s)) -> (forall b, okc (PSync b)) -> (forall k, okc (SDelete k)) -> T _ (after_history_sync cf).
  Proof using All. intros H1 H2 H3. unfold after_history_sync, flush_ns, flush_jid, flush_dev. tt1; auto using t_send_empty. Qed.
  Lemma t_encrypt cf mtd jids pt prio ident : (forall ds i, T _ (mtd ds i)) -> (forall ns s, okc (BStoreSession ns s)) ->
    T _ (encrypt cf mtd jids pt prio ident).
  Proof using All.
    intros Hm H. unfold encrypt, enc_trust, devices_with, reload_trust, enc_backend, enc_device. tt1; auto using t_info_.
  Qed.
  Lemma t_refill ns : okc (BNumVisible ns) -> (forall n, okc (BGenerate ns n)) -> refill_ok ns.
  Proof using All. intros H1 H2 A th rest Hr. tt1; auto. Qed.
  Lemma t_prekeys cf ns s : (forall s, okc (BHide ns s)) -> (forall s, okc (BDelete ns s)) -> (forall j x, okc (BGetBundle ns j x)) ->
    (forall b, okc (NUploadBundle b)) -> refill_ok ns -> T _ (dec_prekeys cf ns s).
  Proof using All.
    intros H1 H2 H3 H4 HR. unfold dec_prekeys. apply T_bind; [tt1|]. intros sync. apply T_bind; [destruct sync; tt1; auto|].
    intros [|]; [|apply T_ret]. apply HR. tt1; auto.
  Qed.
  Lemma t_decrypt cf m : (forall s, okc (BHide (m_ns m) s)) -> (forall s, okc (BDelete (m_ns m) s)) ->
    (forall j x, okc (BGetBundle (m_ns m) j x)) -> (forall b, okc (NUploadBundle b)) -> refill_ok (m_ns m) ->
    (forall ns s, okc (BStoreSession ns s)) -> (forall k v, okc (SStore k v)) -> T _ (decrypt cf m).
  Proof using All.
    intros H1 H2 H3 H4 HR H5 H6. unfold decrypt, dec_existing, dec_kex, dec_sender, dec_respond.
    tt1; auto using t_info, t_send_empty, t_prekeys, t_refresh.
  Qed.
  Lemma t_ikp : T _ ikp_get.
  Proof using All. unfold ikp_get, ikp_generate. tt1; auto. Qed.
  Lemma t_fresh fuel l : T _ (fresh_id fuel l).
  Proof using All. induction fuel as [|fuel IH]; [apply T_raise|]. cbn [fresh_id]. tt1; auto. Qed.
  Lemma t_create P fuel a : (forall m, uses (KCreate P fuel a) m -> okc m) -> (forall ns, refill_ok ns) -> T _ (create P fuel a).
  Proof using All.
    intros H HR. unfold create, first_run_local, first_run_publish, reconcile.
    assert (forall ns, okc (BPurge ns)) as H1 by (intros; by apply H). assert (forall ns x, okc (NDeleteBundle ns x)) as H2 by (intros; by apply H).
    assert (forall l, okc (PLoaded l)) as H3 by (intros; by apply H). assert (forall l, okc (PSync l)) as H4 by (intros; by apply H).
    assert (forall ns n, okc (BGenerate ns n)) as H5 by (intros; by apply H). assert (forall b, okc (NUploadBundle b)) as H6 by (intros; by apply H).
    assert (forall ns j x, okc (BGetBundle ns j x)) as H7 by (intros; by apply H).
    assert (forall c active ns, T _ (add_backend c active ns)) as Ha.
    { intros c active ns. unfold add_backend. destruct (decide _); [apply T_ret|]. apply HR. tt1; auto using t_refresh. }
    tt1; auto using t_ikp, t_fresh, t_own, t_refresh, t_purge_backend.
  Qed.
  Lemma t_call c :
    (forall m, uses c m -> okc m) -> (forall ns, refills ns c -> refill_ok ns) ->
    (forall cf mtd jids pt prio ident, c = KEncrypt cf mtd jids pt prio ident -> forall ds i, T _ (mtd ds i)) ->
    T _ (run_call c).
  Proof using All.
    intros Hc HR Hm. destruct c; cbn [run_call call_ret].
    - apply t_create; [done|]. intros ns. by apply HR.
    - apply t_ikp.
    - apply t_update.
    - apply t_refresh.
    - apply t_refresh_all.
    - unfold set_trust. tt1; auto.
    - apply t_info.
    - apply t_own.
    - apply t_label.
    - apply t_purge_backend; intros; by apply Hc.
    - apply t_purge_jid; intros; by apply Hc.
    - apply t_rotation; intros; by apply Hc.
    - apply t_ensure; intros; by apply Hc.
    - apply t_replace; intros; by apply Hc.
    - apply t_chain.
    - unfold before_history_sync. assert (forall b, okc (PSync b)) as H by (intros; by apply Hc). tt1; auto.
    - apply t_after; intros; by apply Hc.
    - apply t_encrypt; [by eapply Hm|]. intros; by apply Hc.
    - apply t_decrypt; try (intros; by apply Hc). by apply HR.
  Qed.
  Lemma t_code (ext : cmd -> bool) (ok : call -> Prop) {A} (p : api A) :
    (forall m, ext m = true -> okc m) -> (forall c, ok c -> (forall m, uses c m -> okc m) /\ forall ns, refills ns c -> refill_ok ns) ->
    code ext ok p -> T _ p.
  Proof using All.
    intros He Hok H. induction H as [A a|A e|A B p f Hp IHp Hf IHf|A p Hp IHp|c Hc|c Hc Hm IHm].
    - apply T_ret.
    - apply T_raise.
    - by apply T_bind.
    - by apply T_try.
    - apply T_cmd; [by apply He|]. intros r. apply T_ret.
    - destruct (Hok c Hc). by apply t_call.
  Qed.
End walk.
