(** Calls stay inside their footprint, and what follows for calls that run concurrently. *)
From Verif Require Import Foot PfStrs PfTyped PfWp PfEmits PfLog PfDevices.
Open Scope prog_scope.
Open Scope list_scope.

Lemma obeys_for_each' {A} (E : forall c, resp c -> Prop) (F : cmd -> Prop) (l : list A) (f : A -> api unit) :
  (forall x, x ∈ l -> obeys E F (fun _ => True) (f x)) -> obeys E F (fun _ => True) (for_each l f).
Proof. intros Hf. apply obeys_for_each; [|done]. intros x Hx. eapply obeys_conseq; [by apply Hf|]. by intros []. Qed.

Section foot.
  (** keys it may use; may it load backends, change and read the mode *)
  Context (S : string -> Prop) (ld ss rs : Prop).
  Definition Ff (c : cmd) : Prop :=
    match c with
    | SLoad k | SStore k _ | SDelete k => S k
    | PLoaded _ => ld
    | PSync _ => ss
    | GSync => rs
    | _ => True
    end.
  Notation En := (fun (c : cmd) (r : resp c) => True).
  Notation ftq Q p := (obeys En Ff Q p).
  Notation ft p := (obeys En Ff (fun _ => True) p).

  Lemma ft_bind {A B} (Q : outcome B -> Prop) (p : api A) (f : A -> api B) :
    ft p -> (forall e, Q (Exn e)) -> (forall a, ftq Q (f a)) -> ftq Q (bind p f).
  Proof. intros Hp He Hf. apply obeys_bind. eapply obeys_conseq; [exact Hp|]. intros [a|e] _; auto. Qed.
  Lemma ft_bindq {A B} (L : A -> Prop) (Q : outcome B -> Prop) (p : api A) (f : A -> api B) :
    ftq (fun o => match o with Val a => L a | Exn _ => True end) p -> (forall e, Q (Exn e)) -> (forall a, L a -> ftq Q (f a)) -> ftq Q (bind p f).
  Proof. intros Hp He Hf. apply obeys_bind. eapply obeys_conseq; [exact Hp|]. intros [a|e] H; auto. Qed.
  Lemma ft_try {A} (p : api A) : ft p -> ft (try_ p).
  Proof. intros Hp. apply obeys_try. eapply obeys_conseq; [exact Hp|]. done. Qed.
  Lemma ft_for_each {A} (l : list A) f : (forall x, x ∈ l -> ft (f x)) -> ft (for_each l f).
  Proof. intros Hf. apply obeys_for_each; [|done]. intros x Hx. eapply obeys_conseq; [by apply Hf|]. by intros []. Qed.
  Lemma ft_fold {A B} (l : list A) (f : B -> A -> api B) b : (forall b x, x ∈ l -> ft (f b x)) -> ft (fold_prog l f b).
  Proof.
    intros Hf. apply obeys_fold_prog with (L := fun _ => True); [done| |done]. intros c x _ Hx.
    eapply obeys_conseq; [by apply Hf|]. by intros [].
  Qed.
  Lemma ft_map {A B} (l : list A) (f : A -> api B) : (forall x, x ∈ l -> ft (f x)) -> ft (map_prog f l).
  Proof.
    intros Hf. apply obeys_map_prog with (L := fun _ => True); [|done]. intros x Hx. eapply obeys_conseq; [by apply Hf|]. by intros [].
  Qed.
  Lemma ft_filter {A} (l : list A) (f : A -> api bool) : (forall x, x ∈ l -> ft (f x)) -> ft (filter_prog f l).
  Proof. intros Hf. apply obeys_filter_prog; [|done]. intros x Hx. eapply obeys_conseq; [by apply Hf|]. by intros []. Qed.
  Lemma ft_outcome {A} (o : outcome A) : ft (of_outcome o).
  Proof. by destruct o. Qed.
  Lemma ft_from_just {A} (o : option A) : ft (from_just o).
  Proof. by destruct o. Qed.
  Lemma ft_key_error {A} (o : option A) : ft (of_key_error o).
  Proof. by destruct o. Qed.
  Lemma ft_order {A} (l : list A) : ft (order l).
  Proof. by split. Qed.
  Lemma ft_load {A} (check : json -> outcome A) k : S k -> ft (load_checked check k).
  Proof.
    intros Hk. unfold load_checked. apply ft_bind; [split; [exact Hk|intros ? _; apply ft_outcome]|done|].
    intros [v|]; [|done]. destruct (check v); done.
  Qed.

  Ltac ft1 :=
    match goal with
    | |- obeys _ _ (fun _ => True) (bind _ _) => apply ft_bind; [|done|intros ?]
    | |- obeys _ _ _ (try_ _) => apply ft_try
    | |- obeys _ _ _ (Ret _) => exact I
    | |- obeys _ _ _ (Raise _) => exact I
    | |- obeys _ _ _ (for_each _ _) => apply ft_for_each; intros ? ?
    | |- obeys _ _ _ (fold_prog _ _ _) => apply ft_fold; intros ? ? ?
    | |- obeys _ _ _ (map_prog _ _) => apply ft_map; intros ? ?
    | |- obeys _ _ _ (filter_prog _ _) => apply ft_filter; intros ? ?
    | |- obeys _ _ _ (order _) => apply ft_order
    | |- obeys _ _ _ (of_key_error _) => apply ft_key_error
    | |- obeys _ _ _ (from_just _) => apply ft_from_just
    | |- obeys _ _ _ (of_outcome _) => apply ft_outcome
    | |- obeys _ _ _ (load_list _ _) => apply ft_load
    | |- obeys _ _ _ (load_dict _ _) => apply ft_load
    | |- obeys _ _ _ (load_bytes _) => apply ft_load
    | |- obeys _ _ _ (load_optional _ _) => apply ft_load
    | |- obeys _ _ _ (load_primitive _ _) => apply ft_load
    | |- obeys _ _ _ (let '_ := ?b in _) => destruct b
    | |- obeys _ _ _ (match ?b with _ => _ end) => destruct b
    | |- obeys _ _ _ (if ?b then _ else _) => destruct b
    end.
  Ltac cmd1 := unfold store_bytes in *; unw; unfold g_loaded, g_sync, p_loaded, p_sync, c_randbelow, c_randbytes, s_load in *;
    match goal with |- obeys _ _ _ (Step _ _) => split; [simpl; auto|intros ? _; first [apply ft_outcome|exact I|cbn [obeys]]] end.
  Ltac ftt := repeat (cbv zeta; first [ft1|progress cmd1]).

  (** keys about an account *)
  Definition Sacc (j : string) : Prop := forall i, account_item j i -> S (item_key i).
  Lemma S_list j : Sacc j -> S (k_list j). Proof. intros H. by apply (H (IDeviceList j)). Qed.
  Lemma S_ns j x : Sacc j -> S (k_ns j x). Proof. intros H. by apply (H (INamespaces j x)). Qed.
  Lemma S_active j x : Sacc j -> S (k_active j x). Proof. intros H. by apply (H (IActive j x)). Qed.
  Lemma S_label j x : Sacc j -> S (k_label j x). Proof. intros H. by apply (H (ILabel j x)). Qed.
  Lemma S_ik j x : Sacc j -> S (k_ik j x). Proof. intros H. by apply (H (IIdentityKey j x)). Qed.
  Lemma S_trust j ik : Sacc j -> S (k_trust j ik). Proof. intros H. by apply (H (ITrust j ik)). Qed.
  Hint Resolve S_list S_ns S_active S_label S_ik S_trust : core.

  Lemma ft_update cf ns j dl : Sacc j -> ft (update_device_list cf ns j dl).
  Proof.
    intros H. unfold update_device_list, upd_own, upd_new, upd_old. ftt; subst; auto.
  Qed.
  Lemma ft_refresh cf ns j : Sacc j -> ft (refresh_device_list cf ns j).
  Proof. intros H. unfold refresh_device_list. ftt. by apply ft_update. Qed.
  Lemma ft_refresh_all cf j : Sacc j -> ft (refresh_device_lists cf j).
  Proof. intros H. unfold refresh_device_lists. ftt. by apply ft_refresh. Qed.
  Lemma ft_find_key j x l : Sacc j -> ft (find_key j x l).
  Proof. intros H. induction l as [|ns l IH]; [done|]. cbn [find_key]. ftt; auto. Qed.
  Definition from (j : string) (d : device) : Prop := dv_jid d = j.
  Definition val {A} (L : A -> Prop) (o : outcome A) : Prop := match o with Val a => L a | Exn _ => True end.
  Lemma ft_info_rest cf j x nss ik : Sacc j -> ftq (val (from j)) (dev_info_rest cf j x nss ik).
  Proof.
    intros H. unfold dev_info_rest. cbv zeta.
    repeat (apply ft_bind; [|done|intros ?]); ftt; auto. done.
  Qed.
  Lemma ft_dev_info cf j acc x : Sacc j -> Forall (from j) acc.1 -> ftq (val (fun r => Forall (from j) r.1)) (dev_info cf j acc x).
  Proof.
    intros H Ha. unfold dev_info. cbv zeta.
    apply ft_bind; [ftt; auto|done|intros m]. apply ft_bind; [ftt|done|intros l]. apply ft_bind; [ftt; auto|done|intros [ik|]].
    - eapply ft_bindq; [by apply ft_info_rest|done|]. intros d Hd. simpl. apply Forall_app. by repeat constructor.
    - apply ft_bind; [ftt|done|intros nso]. apply ft_bind; [by apply ft_find_key|done|intros [b|]]; [|done].
      eapply ft_bindq; [by apply ft_info_rest|done|]. intros d Hd. simpl. apply Forall_app. by repeat constructor.
  Qed.
  Lemma ft_info_ cf j : Sacc j -> ftq (val (fun r => Forall (from j) r.1)) (get_device_information_ cf j).
  Proof.
    intros H. unfold get_device_information_. apply ft_bind; [ftt; auto|done|intros m]. apply ft_bind; [ftt|done|intros l].
    apply obeys_fold_prog with (L := fun r : list device * list bundle => Forall (from j) r.1); [constructor| |done].
    intros acc x Ha _. eapply obeys_conseq; [by apply ft_dev_info|]. by intros [].
  Qed.
  Lemma ft_info cf j : Sacc j -> ft (get_device_information cf j).
  Proof. intros H. unfold get_device_information. ftt. eapply obeys_conseq; [by apply ft_info_|done]. Qed.
  Lemma ft_own cf : Sacc (c_jid cf) -> ft (get_own_device_information cf).
  Proof. intros H. unfold get_own_device_information. ftt. by apply ft_info. Qed.
  Lemma ft_label cf l : Sacc (c_jid cf) -> ft (set_own_label cf l).
  Proof. intros H. unfold set_own_label. ftt; auto. Qed.
  Lemma ft_purge_backend cf ns : ld -> Sacc (c_jid cf) -> ft (purge_backend cf ns).
  Proof. intros Hl H. unfold purge_backend. ftt; auto using ft_own. Qed.
  Lemma ft_purge_jid j : Sacc j -> ft (purge_bare_jid j).
  Proof. intros H. unfold purge_bare_jid, collect_key. ftt; auto. Qed.
  Lemma ft_rotate_upload cf fuel rd ns : ft (rotate_upload cf fuel rd ns).
  Proof. revert rd. induction fuel as [|fuel IH]; intros rd; [done|]. cbn [rotate_upload]. ftt; auto. Qed.
  Lemma ft_rotation cf fuel period : ft (rotation cf fuel period).
  Proof. induction fuel as [|fuel IH]; [done|]. cbn [rotation]. unfold rotate_one. ftt; auto using ft_rotate_upload. Qed.
  Lemma ft_ensure cf : Sacc (c_jid cf) -> ft (ensure_data_consistency cf).
  Proof. intros H. unfold ensure_data_consistency. ftt; auto using ft_refresh. Qed.
  Lemma ft_send_empty cf ns s : ft (send_empty_message cf ns s).
  Proof. unfold send_empty_message. ftt. Qed.
  Lemma ft_replace cf j x : Sacc j -> ft (replace_sessions cf j x).
  Proof. intros H. unfold replace_sessions, replace_one. ftt; auto using ft_info. Qed.
  Lemma ft_chain j x nss : ft (get_sending_chain_length j x nss).
  Proof. unfold get_sending_chain_length. ftt. Qed.

  Definition Squeue : Prop := forall i, queue_item i -> S (item_key i).
  Lemma S_queue n : Squeue -> S (k_queue n). Proof. intros H. by apply (H (IQueue n)). Qed.
  Lemma S_queue_jid n j : Squeue -> S (k_queue_jid n j). Proof. intros H. by apply (H (IQueueDevices n j)). Qed.
  Hint Resolve S_queue S_queue_jid : core.
  Lemma ft_after cf : ss -> Squeue -> ft (after_history_sync cf).
  Proof. intros Hs H. unfold after_history_sync, flush_ns, flush_jid, flush_dev. ftt; auto using ft_send_empty. Qed.

  Definition fromJ (J : string -> Prop) (d : device) : Prop := J (dv_jid d).
  Lemma ft_devices_with J t l : Forall (fromJ J) l -> ftq (val (Forall (fromJ J))) (devices_with t l).
  Proof.
    intros Hl. unfold devices_with. split; [done|]. intros code _. cbn [bind]. apply obeys_filter_prog.
    - intros d _. eapply obeys_conseq with (Q := fun _ => True); [ftt|]. intros o _. by destruct o.
    - intros r Hr. simpl. apply Forall_forall. intros d Hd. eapply Forall_forall; [exact Hl|].
      rewrite <- (reorder_perm code). eapply elem_of_submseteq; [exact Hd|]. by apply sublist_submseteq.
  Qed.
  Lemma recipients_from J cf prio l l' : Forall (fromJ J) l -> valid_recipients cf prio l = Some l' -> Forall (fromJ J) l'.
  Proof.
    intros Hl. revert l'. induction Hl as [|d l Hd Hl IH]; simpl; [by intros l' [= <-]|].
    intros l'. destruct (is_valid_recipient cf prio d) as [b|]; [|done]. simpl.
    destruct (valid_recipients cf prio l) as [r|]; [|done]. simpl. intros [= <-]. destruct b; [constructor|]; auto.
  Qed.
  Lemma priority_from J prio l l' : Forall (fromJ J) l -> mapM (apply_priority prio) l = Some l' -> Forall (fromJ J) l'.
  Proof.
    intros Hl. revert l'. induction Hl as [|d l Hd Hl IH]; simpl; [by intros l' [= <-]|].
    intros l'. destruct (apply_priority prio d) as [d'|] eqn:Ep; [|done]. simpl.
    destruct (mapM (apply_priority prio) l) as [r|]; [|done]. simpl. intros [= <-]. constructor; [|by apply IH].
    unfold apply_priority in Ep. destruct (active_namespaces _ _); [|done]. simpl in Ep. by injection Ep as <-.
  Qed.
  Lemma ft_reload (J : string -> Prop) cf d : (forall j, J j -> Sacc j) -> fromJ J d -> ftq (val (fromJ J)) (reload_trust cf d).
  Proof. intros H Hd. unfold reload_trust. apply ft_bind; [ftt; auto|done|]. by intros m. Qed.
  Lemma ft_enc_trust (J : string -> Prop) cf mtd ident l :
    (forall j, J j -> Sacc j) -> (forall ds i, ft (mtd ds i)) -> Forall (fromJ J) l ->
    ft (enc_trust cf mtd ident l).
  Proof.
    intros H Hm Hl. unfold enc_trust. apply ft_bind; [eapply obeys_conseq; [by apply (ft_devices_with J)|done]|done|intros und].
    apply ft_bindq with (L := Forall (fromJ J)).
    - destruct und; [done|]. apply ft_bind; [apply Hm|done|intros _]. split; [done|]. intros code _. cbn [bind].
      apply obeys_map_prog with (L := fromJ J); [|done]. intros dv Hd. eapply obeys_conseq; [apply ft_reload; [exact H|]|done].
      rewrite reorder_perm in Hd. by eapply Forall_forall.
    - done.
    - intros l' Hl'. apply ft_bind; [eapply obeys_conseq; [by apply (ft_devices_with J)|done]|done|intros und'].
      destruct und'; [|done]. eapply obeys_conseq; [by apply (ft_devices_with J)|done].
  Qed.
  Lemma ft_enc_backend cf pt cache st ns : ft (enc_backend cf pt cache st ns).
  Proof. unfold enc_backend, enc_device. ftt. Qed.
  Lemma ft_encrypt cf mtd jids pt prio ident :
    (forall j, j ∈ jids \/ j = c_jid cf -> Sacc j) -> (forall ds i, ft (mtd ds i)) -> ft (encrypt cf mtd jids pt prio ident).
  Proof.
    intros H Hm. pose (J := fun j => j ∈ jids \/ j = c_jid cf). unfold encrypt. cbv zeta.
    apply ft_bind; [ftt|done|intros av]. apply ft_bind; [ftt|done|intros pr].
    split; [done|]. intros code _. cbn [bind].
    apply ft_bindq with (L := Forall (fun r : list device * list bundle => Forall (fromJ J) r.1)); [|done|].
    { apply obeys_map_prog with (L := fun r : list device * list bundle => Forall (fromJ J) r.1); [|done].
      intros j Hj. rewrite reorder_perm in Hj.
      assert (J j) as HJ.
      { unfold set_union, set_diff in Hj. rewrite elem_of_app, elem_of_list_filter, elem_of_list_singleton in Hj.
        unfold pyset in Hj. rewrite elem_of_remove_dups in Hj. unfold J. tauto. }
      eapply obeys_conseq; [apply ft_info_; by apply H|]. intros [r|e]; [|done]. simpl. intros Hr.
      eapply Forall_impl; [exact Hr|]. intros d Hd. unfold fromJ. by rewrite Hd. }
    intros tmp Ht.
    assert (Forall (fromJ J) (concat (map fst tmp))) as Hc.
    { apply Forall_concat, Forall_map. exact Ht. }
    apply ft_bindq with (L := Forall (fromJ J)); [|done|].
    { destruct (valid_recipients cf pr _) as [d1|] eqn:E1; [|done]. by eapply recipients_from. }
    intros d1 H1. apply ft_bindq with (L := Forall (fromJ J)); [|done|].
    { destruct (mapM (apply_priority pr) d1) as [d2|] eqn:E2; [|done]. by eapply priority_from. }
    intros d2 H2.
    apply ft_bind; [|done|].
    { apply (ft_enc_trust J); [exact H|exact Hm|]. apply Forall_forall. intros d [_ Hd]%elem_of_list_filter.
      by eapply Forall_forall. }
    intros ds. ftt. apply ft_enc_backend.
  Qed.

  Lemma ft_dec_respond cf ns s : rs -> Squeue -> ft (dec_respond cf ns s).
  Proof. intros Hs H. unfold dec_respond. ftt; auto using ft_send_empty. Qed.
  Lemma ft_dec_prekeys cf ns s : rs -> ft (dec_prekeys cf ns s).
  Proof. intros Hs. unfold dec_prekeys. ftt; auto. Qed.
  Lemma ft_dec_sender cf m : Sacc (m_jid m) -> ft (dec_sender cf m).
  Proof. intros H. unfold dec_sender. ftt; auto using ft_info, ft_refresh. Qed.
  Lemma ft_decrypt cf m : rs -> Sacc (m_jid m) -> Squeue -> ft (decrypt cf m).
  Proof.
    intros Hs H Hq. unfold decrypt, dec_existing, dec_kex. ftt; auto using ft_dec_sender, ft_dec_prekeys, ft_dec_respond.
  Qed.
  Lemma ft_ikp : (forall i, keypair_item i -> S (item_key i)) -> ft ikp_get.
  Proof.
    intros H. assert (S k_ikp_seed) by (apply (H IKeyPairIsSeed); by left). assert (S k_ikp_key) by (apply (H IKeyPairKey); by right).
    unfold ikp_get, ikp_generate. ftt; auto.
  Qed.
  Lemma ft_fresh fuel l : ft (fresh_id fuel l).
  Proof. induction fuel as [|fuel IH]; [done|]. cbn [fresh_id]. ftt; auto. Qed.
  Lemma ft_create P fuel a :
    ld -> ss -> Sacc (a_jid a) -> (forall i, keypair_item i -> S (item_key i)) -> S (item_key IOwnDeviceId) ->
    ft (create P fuel a).
  Proof.
    intros Hl Hs H Hk Ho. change (S k_own) in Ho.
    unfold create, first_run_local, first_run_publish, reconcile, add_backend. ftt; auto using ft_ikp, ft_fresh.
    all: try (apply ft_refresh; done). all: try (apply ft_own; done). all: try (apply ft_purge_backend; done).
  Qed.
End foot.

Notation ft S ld ss rs p := (obeys (fun (c : cmd) (_ : resp c) => True) (Ff S ld ss rs) (fun _ => True) p).

Lemma ft_call (S : string -> Prop) (ld ss rs : Prop) c :
  (forall i, touches c i -> S (item_key i)) -> (sets_loaded c -> ld) -> (sets_sync c -> ss) -> (reads_sync c -> rs) ->
  (forall cf mtd jids pt prio ident, c = KEncrypt cf mtd jids pt prio ident -> forall ds i, ft S ld ss rs (mtd ds i)) ->
  ft S ld ss rs (run_call c).
Proof.
  intros HS Hl Hs Hr Hm. destruct c; cbn [run_call call_ret touches sets_loaded sets_sync reads_sync] in *.
  - apply ft_create; [auto|auto|intros i Hi; auto..|auto].
  - by apply ft_ikp.
  - by apply ft_update.
  - by apply ft_refresh.
  - by apply ft_refresh_all.
  - split; [|intros r _; by destruct r]. by apply (HS (ITrust jid ik)).
  - by apply ft_info.
  - by apply ft_own.
  - by apply ft_label.
  - apply ft_purge_backend; [auto|done].
  - by apply ft_purge_jid.
  - apply ft_rotation.
  - by apply ft_ensure.
  - by apply ft_replace.
  - apply ft_chain.
  - split; [by apply Hs|done].
  - apply ft_after; [auto|done].
  - apply ft_encrypt; [|by eapply Hm]. intros j Hj i Hi. apply HS. eauto.
  - apply ft_decrypt; [auto|intros i Hi; auto..].
Qed.
Lemma ft_code (ext : cmd -> bool) (ok : call -> Prop) (S : string -> Prop) (ld ss rs : Prop) {A} (p : api A) :
  (forall c, ext c = true -> Ff S ld ss rs c) ->
  (forall c, ok c -> (forall i, touches c i -> S (item_key i)) /\ (sets_loaded c -> ld) /\ (sets_sync c -> ss) /\ (reads_sync c -> rs)) ->
  code ext ok p -> ft S ld ss rs p.
Proof.
  intros He Hok H. induction H as [A a|A e|A B p f Hp IHp Hf IHf|A p Hp IHp|c Hc|c Hc Hm IHm]; [done|done| | | |].
  - apply ft_bind; [exact IHp|done|exact IHf].
  - by apply ft_try.
  - split; [by apply He|done].
  - destruct (Hok c Hc) as (H1 & H2 & H3 & H4). by apply ft_call.
Qed.

(** ** One coroutine among others that do not use its keys *)
Section isolate.
  Context (S S' : string -> Prop) (ld ss rs ss' : Prop).
  Hypothesis Hdis : forall k, S k -> S' k -> False.
  Hypothesis Hsync : rs -> ss' -> False.
  Definition agree (v w : world) : Prop :=
    (forall k, S k -> w_disk v !! k = w_disk w !! k) /\ w_loaded v = w_loaded w /\ (rs -> w_sync v = w_sync w).
  Lemma agree_allowed v w c r : agree v w -> Ff S ld ss rs c -> w_allowed w c r -> w_allowed v c r.
  Proof. intros (H1 & H2 & H3) HF Hr. destruct c; try done; simpl in *; [by rewrite H1|by rewrite H2|by rewrite H3]. Qed.
  Lemma agree_mine v w c r : agree v w -> Ff S ld ss rs c -> agree (w_apply v c r) (w_apply w c r).
  Proof.
    intros (H1 & H2 & H3) HF. destruct c; try (by split); simpl in *; destruct r; simpl; try (by split).
    - split; [|done]. intros k' Hk'. simpl. destruct (decide (k = k')) as [->|]; [by rewrite !lookup_insert|].
      rewrite !lookup_insert_ne by done. auto.
    - split; [|done]. intros k' Hk'. simpl. destruct (decide (k = k')) as [->|]; [by rewrite !lookup_delete|].
      rewrite !lookup_delete_ne by done. auto.
  Qed.
  Lemma agree_theirs v w c r : agree v w -> Ff S' False ss' True c -> agree v (w_apply w c r).
  Proof.
    intros (H1 & H2 & H3) HF. destruct c; try (by split); simpl in *; try destruct r; simpl; try (by split).
    - split; [|done]. intros k' Hk'. simpl. rewrite lookup_insert_ne; [auto|]. intros ->. by eapply Hdis.
    - split; [|done]. intros k' Hk'. simpl. rewrite lookup_delete_ne; [auto|]. intros ->. by eapply Hdis.
    - split; [done|]. split; [done|]. intros Hrs. by destruct (Hsync Hrs HF).
  Qed.

  Lemma isolate i cfg cfg' : preach base cfg cfg' -> forall p v,
    cfg.1 !! i = Some p -> ft S ld ss rs p -> (forall n q, n <> i -> cfg.1 !! n = Some q -> ft S' False ss' True q) ->
    agree v cfg.2 ->
    exists v' evs new, reach base p v v' /\
      (forall a, cfg'.1 !! i = Some (Ret a) -> exec base p v (Val a) v') /\
      (forall e, cfg'.1 !! i = Some (Raise e) -> exec base p v (Exn e) v') /\ agree v' cfg'.2 /\
      w_log v' = evs ++ w_log v /\ w_log cfg'.2 = new ++ w_log cfg.2 /\ evs `sublist_of` new.
  Proof using All.
    induction 1 as [cfg|cfg cfg1 cfg2 Hs Hr IH]; intros p v Hi Hp Ho Hv.
    { exists v, [], []. split; [by destruct p; left|]. rewrite Hi. split; [by intros a [= ->]|]. split; [by intros a [= ->]|]. done. }
    destruct Hs as (n & c & k & r & Hn & Ha & E1 & E2).
    assert (n < length cfg.1)%nat as Hlt by (by eapply lookup_lt_Some).
    destruct (decide (n = i)) as [->|Hne].
    - rewrite Hn in Hi. injection Hi as <-. destruct Hp as [HF Hk].
      destruct (IH (k r) (w_apply v c r)) as (v' & evs & new & H1 & H2 & H3 & H4 & H5 & H6 & H7).
      + rewrite E1. by apply list_lookup_insert.
      + by apply Hk.
      + intros m q Hm Hq. apply (Ho m q Hm). rewrite <- Hq, E1. symmetry. by apply list_lookup_insert_ne.
      + rewrite E2. by apply agree_mine.
      + assert (w_allowed v c r) as Hav by (by eapply agree_allowed).
        exists v', (evs ++ match event_of c r with Some e => [e] | None => [] end), (new ++ match event_of c r with Some e => [e] | None => [] end).
        split; [right; by exists r|]. split; [intros a Hx; exists r; auto|]. split; [intros e Hx; exists r; auto|]. split; [done|].
        split; [by rewrite H5, log_apply, app_assoc|]. split; [rewrite H6, E2; simpl; by rewrite log_apply, app_assoc|].
        by apply sublist_app.
    - destruct (Ho n _ Hne Hn) as [HF Hk].
      destruct (IH p v) as (v' & evs & new & H1 & H2 & H3 & H4 & H5 & H6 & H7).
      + rewrite <- Hi, E1. by apply list_lookup_insert_ne.
      + done.
      + intros m q Hm Hq. rewrite E1 in Hq. destruct (decide (m = n)) as [->|Hmn].
        * assert (Some q = Some (k r)) as [= ->] by (rewrite <- Hq; by apply list_lookup_insert). by apply Hk.
        * apply (Ho m q Hm). rewrite <- Hq. symmetry. by apply list_lookup_insert_ne.
      + rewrite E2. by apply agree_theirs.
      + exists v', evs, (new ++ match event_of c r with Some e => [e] | None => [] end).
        split; [done|]. split; [done|]. split; [done|]. split; [done|]. split; [done|].
        split; [rewrite H6, E2; simpl; by rewrite log_apply, app_assoc|]. by apply sublist_inserts_r.
  Qed.
End isolate.

(** Items of different kinds never share a key, whatever the namespaces. *)
Lemma item_key_cases i i' : item_key i = item_key i' -> i = i' \/ (queue_item i /\ queue_item i').
Proof.
  intros H. assert (forall n, ns_separated [n]) as Hs.
  { intros n a b Ha%elem_of_list_singleton Hb%elem_of_list_singleton x Hx. subst.
    assert (String.length n = String.length (n +:+ "/" +:+ x)) as Hl by (by rewrite <- Hx).
    assert (forall a b : string, String.length (a +:+ b) = String.length a + String.length b)%nat as Ha.
    { clear. induction a as [|c a IH]; intros b; [done|]. simpl. by rewrite IH. }
    rewrite !Ha in Hl. simpl in Hl. lia. }
  assert (forall n i, queue_item i \/ item_in [n] i) as Hq by (intros n []; simpl; auto).
  assert (queue_item i \/ (forall n, item_in [n] i)) as [Hi|Hi] by (destruct i; simpl; auto).
  - assert (queue_item i' \/ (forall n, item_in [n] i')) as [Hi'|Hi'] by (destruct i'; simpl; auto); [by right|].
    left. assert (exists n, item_in [n] i) as [n Hn] by (destruct i; try done; eexists; by left).
    by apply (item_key_inj [n]).
  - assert (exists n, item_in [n] i') as [n Hn] by (destruct i'; try (by exists ""); eexists; by left).
    left. by apply (item_key_inj [n]).
Qed.
Lemma touches_queue c i i' : queue_item i -> queue_item i' -> touches c i -> touches c i'.
Proof.
  intros Hi Hi' H. destruct c; simpl in *; try done; try (by destruct i).
  - by destruct H as [H|[[-> | ->]| ->]]; [destruct i|..].
  - by destruct H as [-> | ->].
  - destruct H as (j & _ & H). by destruct i.
  - by right.
Qed.

Definition keys_of (ok : call -> Prop) (k : string) : Prop := exists c i, ok c /\ touches c i /\ item_key i = k.
Lemma isolated (mine theirs : call -> Prop) (ps : list (api unit)) i p w ps' w' :
  (forall c c', mine c -> theirs c' -> independent c c') -> (forall c, theirs c -> ~ sets_loaded c) ->
  ps !! i = Some p -> code sync_free mine p -> (forall n q, n <> i -> ps !! n = Some q -> appcode theirs q) ->
  preach base (ps, w) (ps', w') ->
  exists v evs new, reach base p w v /\ (ps' !! i = Some (Ret tt) -> exec base p w (Val tt) v) /\
    (forall e, ps' !! i = Some (Raise e) -> exec base p w (Exn e) v) /\
    (forall c x, mine c -> touches c x -> w_disk w' !! item_key x = w_disk v !! item_key x) /\
    w_log v = evs ++ w_log w /\ w_log w' = new ++ w_log w /\ evs `sublist_of` new.
Proof.
  intros Hin Hnl Hi Hp Ho H.
  pose (rs := exists c, mine c /\ reads_sync c). pose (ss' := exists c, theirs c /\ sets_sync c).
  destruct (isolate (keys_of mine) (keys_of theirs) True True rs ss') with (i := i) (cfg := (ps, w)) (cfg' := (ps', w')) (p := p) (v := w)
    as (v & evs & new & H1 & H2 & H3 & (H4 & _) & H5 & H6 & H7); [| |exact H|exact Hi| | | |].
  - intros k (c & x & Hc & Hx & <-) (c' & x' & Hc' & Hx' & Hk). destruct (Hin c c' Hc Hc') as [Hd _].
    apply item_key_cases in Hk as [->|[Hq Hq']]; [by eapply Hd|]. eapply (Hd x'); [|done]. by eapply touches_queue.
  - intros (c & Hc & Hx) (c' & Hc' & Hx'). destruct (Hin c c' Hc Hc') as (_ & Hs). by apply Hs.
  - eapply ft_code; [|intros c Hc|exact Hp].
    + intros c Hc. by destruct c.
    + split; [intros x Hx; by exists c, x|]. split; [done|]. split; [done|]. intros Hr. by exists c.
  - intros n q Hn Hq. eapply ft_code; [| |by eapply Ho].
    + intros c Hc. by destruct c.
    + intros c Hc. split; [intros x Hx; by exists c, x|]. split; [|split; [intros Hr; by exists c|done]].
      intros Hl. by apply (Hnl c).
  - done.
  - exists v, evs, new. split; [done|]. split; [auto|]. split; [auto|]. split; [|done].
    intros c x Hc Hx. symmetry. apply H4. by exists c, x.
Qed.

Lemma account_kept (j : string) d d' : (forall i, account_item j i -> d !! item_key i = d' !! item_key i) -> forall x n b,
  (known d j x -> known d' j x) /\ (supports d j x n -> supports d' j x n) /\ (activity d j x n b -> activity d' j x n b).
Proof.
  intros H x n b. split; [|split].
  - intros (zs & (v & Hv & Ht) & Hx). exists zs. split; [|done]. exists v. split; [|done]. by rewrite <- H.
  - intros (zs & (v & Hv & Ht) & Hx). exists zs. split; [|done]. exists v. split; [|done]. by rewrite <- H.
  - intros (zs & (v & Hv & Ht) & Hx). exists zs. split; [|done]. exists v. split; [|done]. by rewrite <- H.
Qed.
Lemma app_call' ext (ok : call -> Prop) c :
  ok c -> (forall cf mtd jids pt prio ident, c <> KEncrypt cf mtd jids pt prio ident) -> code ext ok (run_call c).
Proof. intros Hc Hn. apply app_call; [done|]. intros. by destruct (Hn cf mtd jids pt prio ident). Qed.
Lemma isolated_update (theirs : call -> Prop) (ps : list (api unit)) i cf ns j dl w ps' w' x l :
  (forall c, theirs c -> ~ sets_loaded c /\ forall it, account_item j it -> ~ touches c it) ->
  ps !! i = Some (update_device_list cf ns j dl) -> (forall n q, n <> i -> ps !! n = Some q -> appcode theirs q) ->
  preach base (ps, w) (ps', w') -> ps' !! i = Some (Ret tt) -> dget x dl = Some l ->
  known (w_disk w') j x /\ supports (w_disk w') j x ns /\ activity (w_disk w') j x ns true.
Proof.
  intros Ht Hi Ho H Hr Hx.
  destruct (isolated (fun c => c = KUpdate cf ns j dl) theirs ps i (update_device_list cf ns j dl) w ps' w') as (v & evs & new & _ & He & _ & Hk & _).
  - intros c c' -> Hc'. destruct (Ht c' Hc') as [_ Hd]. by split.
  - intros c Hc. by apply Ht.
  - done.
  - by apply (app_call' sync_free _ (KUpdate cf ns j dl)).
  - done.
  - done.
  - destruct (update_listed cf ns j dl w v x l (He Hr) Hx) as (A1 & A2 & A3 & _).
    destruct (account_kept j (w_disk v) (w_disk w')) with (x := x) (n := ns) (b := true) as (B1 & B2 & B3).
    { intros it Hit. symmetry. by eapply Hk. }
    auto.
Qed.
