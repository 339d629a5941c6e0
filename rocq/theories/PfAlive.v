(** Every call keeps the records complete and does not fail for want of them (C25, C26). *)
From Verif Require Import Api Spec Life Env PfStrs PfTyped PfWp PfHist PfEmits PfUpdate PfDevices PfInfo PfLife.
Open Scope prog_scope.
Open Scope list_scope.

Lemma ext_not_internal e : ext_exn e = true -> ~ internal e.
Proof. intros H [->|[->|[->| ->]]]; discriminate H. Qed.
Lemma internal_ext e : internal e -> ext_exn e = false.
Proof. by intros [->|[->|[->| ->]]]. Qed.

Section app.
  Context (me : string) (dev : Z) (bad : exn -> Prop).
  Hypothesis Hbad : forall e, bad e -> ext_exn e = false.

  Definition JW (w : world) : Prop := sound me (w_disk w) /\ has_own dev (w_disk w).
  Definition fine {A} (o : outcome A) : Prop := match o with Val _ => True | Exn e => ~ bad e end.
  Definition good {A} (p : api A) : Prop := forall w, JW w -> wp base JW p (fun o w' => JW w' /\ fine o) w.

  Lemma ext_fine e : ext_exn e = true -> ~ bad e.
  Proof using Hbad. intros H Hb. apply Hbad in Hb. congruence. Qed.

  Lemma good_ret {A} (a : A) : good (Ret a).
  Proof. intros w HJ. by apply wp_ret. Qed.
  Lemma good_raise' {A} e : ~ bad e -> good (Raise (A := A) e).
  Proof. intros He w HJ. apply wp_raise. done. Qed.
  Lemma good_bind {A B} (p : api A) (f : A -> api B) : good p -> (forall a, good (f a)) -> good (bind p f).
  Proof.
    intros Hp Hf w HJ. apply wp_bind. eapply wp_conseq; [by apply Hp|]. intros [a|e] w' [HJ' H]; [by apply Hf|done].
  Qed.
  Lemma good_try {A} (p : api A) : good p -> good (try_ p).
  Proof. intros Hp w HJ. apply wp_try. eapply wp_conseq; [by apply Hp|]. by intros o w' [HJ' _]. Qed.
  (** afterwards the exception is known to be fine *)
  Lemma good_try_bind {A B} (p : api A) (f : outcome A -> api B) :
    good p -> (forall o, fine o -> good (f o)) -> good (bind (try_ p) f).
  Proof.
    intros Hp Hf w HJ. apply wp_bind, wp_try. eapply wp_conseq; [by apply Hp|]. intros o w' [HJ' H]. by apply Hf.
  Qed.
  Lemma good_for_each {A} (l : list A) f : (forall x, x ∈ l -> good (f x)) -> good (for_each l f).
  Proof.
    intros Hf w HJ. apply (wp_for_each _ _ (fun _ w' => JW w')); [done| |done].
    intros pre x post w1 Hl HJ1. eapply wp_conseq; [apply Hf; [rewrite Hl; apply elem_of_app; right; left|done]|].
    intros [[]|e] w' H; [by destruct H|done].
  Qed.
  Lemma good_fold {A B} (l : list A) (f : B -> A -> api B) b : (forall b x, x ∈ l -> good (f b x)) -> good (fold_prog l f b).
  Proof.
    intros Hf w HJ. apply (wp_fold_prog _ _ (fun _ _ w' => JW w')); [done| |done].
    intros pre x post b1 w1 Hl HJ1. eapply wp_conseq; [apply Hf; [rewrite Hl; apply elem_of_app; right; left|done]|].
    intros [b2|e] w' H; [by destruct H|done].
  Qed.
  Lemma good_map {A B} (l : list A) (f : A -> api B) : (forall x, x ∈ l -> good (f x)) -> good (map_prog f l).
  Proof.
    intros Hf w HJ. apply (wp_map_prog _ (fun _ _ w' => JW w')); [done| |done].
    intros pre x post b1 w1 Hl HJ1. eapply wp_conseq; [apply Hf; [rewrite Hl; apply elem_of_app; right; left|done]|].
    intros [b2|e] w' H; [by destruct H|done].
  Qed.
  Lemma good_filter {A} (l : list A) (f : A -> api bool) : (forall x, x ∈ l -> good (f x)) -> good (filter_prog f l).
  Proof.
    intros Hf w HJ. apply (wp_filter_prog _ (fun _ _ w' => JW w')); [done| |done].
    intros pre x post b1 w1 Hl HJ1. eapply wp_conseq; [apply Hf; [rewrite Hl; apply elem_of_app; right; left|done]|].
    intros [b2|e] w' H; [by destruct H|done].
  Qed.
  Lemma ext_disk w c r : external c = true -> w_disk (w_apply w c r) = w_disk w.
  Proof. by destruct c. Qed.
  Lemma good_step {A} c (k : resp c -> api A) :
    external c = true -> (forall w r, w_allowed w c r -> good (k r)) -> good (Step c k).
  Proof.
    intros Hc Hk w HJ. apply wp_step. intros r Hr.
    assert (JW (w_apply w c r)) as HJ' by (unfold JW; by rewrite ext_disk).
    split; [done|]. by eapply Hk.
  Qed.
  Lemma good_outcome {A} (o : outcome A) : fine o -> good (of_outcome o).
  Proof. intros H. destruct o; [apply good_ret|by apply good_raise']. Qed.
  Lemma good_order {A} (l : list A) : good (order l).
  Proof. apply good_step; [done|]. intros. apply good_ret. Qed.
  Lemma ext_okfine {A} (o : outcome A) : ext_ok o -> fine o.
  Proof using Hbad. destruct o; [done|]. apply ext_fine. Qed.

  Definition key_free (k : string) : Prop := k <> k_own.
  Lemma own_insert d k v : k <> k_own -> has_own dev d -> has_own dev (<[k := v]> d).
  Proof. intros Hk H. unfold has_own. by rewrite lookup_insert_ne. Qed.
  Lemma own_delete d k : k <> k_own -> has_own dev d -> has_own dev (delete k d).
  Proof. intros Hk H. unfold has_own. by rewrite lookup_delete_ne. Qed.

  Lemma good_store i v :
    match i with ILabel _ _ | IIdentityKey _ _ | ITrust _ _ => item_type i v | _ => False end -> good (s_store (item_key i) v).
  Proof using Hbad.
    intros Hi w [HJ HO].
    assert (item_key i <> k_own) as Hk.
    { change k_own with (item_key IOwnDeviceId). intros E. symmetry in E. apply core_inj in E; [|done]. by subst i. }
    assert (forall r, JW (w_apply w (SStore (item_key i) v) r)) as HW.
    { intros [[]|e]; [|done]. split; [by apply J_insert|by apply own_insert]. }
    apply wp_store; [by auto| |done]. intros e He. split; [done|by apply ext_fine].
  Qed.
  Lemma qkey_own k : qkey k -> k <> k_own.
  Proof. intros H. apply (qkey_ne k IOwnDeviceId H). done. Qed.
  Lemma good_qstore k v : qkey k -> good (s_store k v).
  Proof using Hbad.
    intros Hk w [HJ HO].
    assert (forall r, JW (w_apply w (SStore k v) r)) as HW.
    { intros [[]|e]; [|done]. split; [by apply J_queue|by apply own_insert; [apply qkey_own|]]. }
    apply wp_store; [by auto| |done]. intros e He. split; [done|by apply ext_fine].
  Qed.
  Lemma good_qdelete k : qkey k -> good (s_delete k).
  Proof using Hbad.
    intros Hk w [HJ HO].
    assert (forall r, JW (w_apply w (SDelete k) r)) as HW.
    { intros [[]|e]; [|done]. split; [by apply J_unqueue|by apply own_delete; [apply qkey_own|]]. }
    apply wp_delete; [by auto| |done]. intros e He. split; [done|by apply ext_fine].
  Qed.
  Lemma good_load {A} (check : json -> outcome A) T i :
    good_check check T -> item_in [] i -> (forall v, item_type i v -> exists a, T v a) -> good (load_checked check (item_key i)).
  Proof using Hbad.
    intros Hg Hi HT w HJ. apply (wp_typed _ _ _ _ _ _ Hg); [done| |done|done|].
    - intros e He. split; [done|by apply ext_fine].
    - intros v Hv Hn. exfalso. destruct HJ as [[HJ _] _]. destruct (HT v) as [a Ha]; [by apply HJ|]. by eapply Hn.
  Qed.
  Lemma good_qload {A} (check : json -> outcome A) T k : good_check check T -> ~ bad ETypeError -> good (load_checked check k).
  Proof using Hbad.
    intros Hg Hi w HJ. apply (wp_typed _ _ _ _ _ _ Hg); [done| |done|done|done].
    intros e He. split; [done|by apply ext_fine].
  Qed.

  (** ** Updates and queries *)
  Context (cf : cfg).
  Hypothesis Hme : c_jid cf = me.
  Hypothesis Hdev : c_dev cf = dev.

  Lemma own_frame_upd jid nd od d d' : frame_upd jid nd od d d' -> has_own dev d -> has_own dev d'.
  Proof.
    intros F H. unfold has_own in *. rewrite <- H. eapply item_frame; [exact F|]. intros [|(? & [|[|]])]; done.
  Qed.

  Lemma good_update ns jid dl : good (update_device_list cf ns jid dl).
  Proof using Hbad Hme Hdev.
    intros w [HJ HO]. eapply wp_conseq; [apply wp_inv; [apply update_wp|by split]|].
    - intros w' _ E. unfold JW. rewrite E. done.
    - intros w' old dl' _ Hold He HM. split; [by eapply J_update|]. destruct HM as (F & _). by eapply own_frame_upd.
    - intros [[]|e] w' [HJ' [_ H]]; (split; [done|]); [done|]. simpl. intros Hb. apply Hbad in Hb as Hi.
      destruct H as [H|[[-> _]|[H|[(Ej & _ & H)|(old & dl' & x & H1 & H2 & H3 & H4)]]]].
      + congruence.
      + discriminate Hi.
      + destruct (J_list me (w_disk w) jid HJ) as [ids Hids]. by eapply H.
      + destruct (HJ) as (_ & HR & _ & HK & _). destruct (HK dev HO) as [Hk _].
        apply HR, recorded_k in Hk as (l & m & o & _ & _ & Ho & _). apply (H o). by rewrite Ej, Hme, Hdev.
      + assert (known (w_disk w) jid x) as Hk by (by apply (known_ids _ _ _ _ H1)).
        destruct (J_rec me _ _ _ HJ Hk) as (l & m & o & B1 & B2 & B3 & B4). apply H4. exists l, m, o.
        split; [done|]. split; [done|]. split; [done|]. intros Hn Hns. apply B4; [|done]. intros [-> Hm].
        assert (x = dev) as -> by (by apply Hm). unfold eff in H2. destruct (decide _) as [_|Hc] in H2.
        * destruct H2 as (lab & _ & ->). rewrite dget_dset', Hdev, decide_True in Hn by done. discriminate.
        * apply Hc. rewrite Hdev, Hme. subst dl'. done.
  Qed.
  Lemma own_frame_info jid xs d d' : i_frame jid xs d d' -> has_own dev d -> has_own dev d'.
  Proof.
    intros [F _] H. unfold has_own in *. rewrite <- H. apply F. intros x _. change (item_key IOwnDeviceId) with k_own. split; kneq.
  Qed.

  (** devices have activity information for all their namespaces *)
  Definition covered (d : device) : Prop := forall n, n ∈ dv_namespaces d -> n ∈ dkeys (dv_active d).
  Lemma info_good jid w : JW w ->
    wp base JW (get_device_information_ cf jid) (fun o w' => JW w' /\ w_loaded w' = w_loaded w /\
      match o with
      | Val r => Forall covered r.1 /\
          exists ids, stored_ids jid (w_disk w) ids /\ info_mid jid ids w w' /\ info_val cf jid ids w r w'
      | Exn e => ext_exn e = true
      end) w.
  Proof.
    intros [HJ HO]. eapply wp_conseq; [apply wp_inv; [apply info_wp|by split]|].
    - intros ids xs w' Hids Hs [_ F]. split; [by eapply J_info_mid|by eapply own_frame_info].
    - by split.
    - intros [r|e] w' [HJ' H]; (split; [done|]).
      + destruct H as (ids & Hids & HM & HV). split; [by destruct HM as [[? _] _]|].
        split; [|by exists ids]. apply Forall_forall. intros dv Hdv. destruct HV as (V & _).
        destruct (V dv Hdv) as (_ & _ & l & _ & _ & _ & Hn & _). intros n Hn'. by apply Hn.
      + destruct H as [H1 H2]. split; [destruct H1 as [->|(ids & _ & [[? _] _])]; done|].
        destruct H2 as [H2|[H2|(x & Hx & H2)]]; [done| |].
        * exfalso. apply H2. by eapply J_list.
        * exfalso. apply H2. by eapply J_info.
  Qed.
  Lemma good_info_ jid : good (get_device_information_ cf jid).
  Proof using Hbad.
    intros w HJ. eapply wp_conseq; [by apply info_good|]. intros [r|e] w' (H1 & H2 & H3); (split; [done|]); [done|by apply ext_fine].
  Qed.
  Lemma good_info jid : good (get_device_information cf jid).
  Proof using Hbad. apply good_bind; [apply good_info_|]. intros a. apply good_ret. Qed.

  (** the own device is always among the own devices *)
  Lemma get_own_wp w : JW w ->
    wp base JW (get_own_device_information cf) (fun o w' => JW w' /\ w_loaded w' = w_loaded w /\
      match o with Val r => dv_id r.1 = dev | Exn e => ext_exn e = true end) w.
  Proof using Hme Hdev.
    intros HJ. unfold get_own_device_information, get_device_information. apply wp_bind, wp_bind.
    eapply wp_conseq; [by apply info_good|]. intros [r|e] w' (H1 & H2 & H3); [|done].
    apply wp_ret. destruct H3 as (_ & ids & Hids & _ & V1 & V2 & V3 & _).
    destruct HJ as [HJ HO]. pose proof HJ as (_ & _ & _ & HK & _). destruct (HK dev HO) as (Hk & ik & s & Hik & _).
    rewrite <- Hme in Hk. apply (known_ids _ _ _ _ Hids) in Hk. destruct (V3 dev Hk) as [(dv & Hdv & Hid)|[E _]].
    2:{ rewrite <- Hme in Hik. change (item_key (IIdentityKey (c_jid cf) dev)) with (k_ik (c_jid cf) dev) in Hik. congruence. }
    destruct (filter (fun d => d ∉ _) r.1) as [|d0 l] eqn:Ef.
    - exfalso. assert (dv ∈ filter (fun d => d ∉ filter (fun d => dv_id d <> c_dev cf) r.1) r.1) as Hin.
      { apply elem_of_list_filter. split; [|done]. rewrite elem_of_list_filter. rewrite Hdev. tauto. }
      rewrite Ef in Hin. by apply elem_of_nil in Hin.
    - apply wp_ret. split; [done|]. split; [done|]. simpl.
      assert (d0 ∈ filter (fun d => d ∉ filter (fun d => dv_id d <> c_dev cf) r.1) r.1) as Hin by (rewrite Ef; left).
      apply elem_of_list_filter in Hin as [Hn Hin]. rewrite elem_of_list_filter in Hn.
      destruct (decide (dv_id d0 = dev)) as [|Hne]; [done|]. exfalso. apply Hn. split; [|done]. by rewrite Hdev.
  Qed.
  Lemma good_get_own : good (get_own_device_information cf).
  Proof using Hbad Hme Hdev.
    intros w HJ. eapply wp_conseq; [by apply get_own_wp|]. intros [r|e] w' (H1 & H2 & H3); (split; [done|]); [done|by apply ext_fine].
  Qed.

  (** ** The records of this device *)
  Lemma J_own_insert d i v : sound me d -> has_own dev d -> i = INamespaces me dev \/ i = IActive me dev -> item_type i v ->
    sound me (<[item_key i := v]> d).
  Proof.
    intros HJ HO Hi Hv. pose proof HJ as (HT & HR & HOw & HK & HP).
    assert (item_in [] i) as Hin by (destruct Hi as [->| ->]; done).
    assert (forall i', i' <> i -> <[item_key i := v]> d !! item_key i' = d !! item_key i') as Hne.
    { intros i' Hi'. apply lookup_insert_ne. intros E. apply core_inj in E; [|done]. congruence. }
    assert (i <> IOwnDeviceId /\ i <> IKeyPairIsSeed /\ i <> IKeyPairKey /\ (forall j, i <> IDeviceList j) /\
      (forall j x, i <> ILabel j x) /\ forall j x, i <> IIdentityKey j x) as (N1 & N2 & N3 & N4 & N5 & N6) by (destruct Hi as [->| ->]; done).
    assert (forall id, has_own id (<[item_key i := v]> d) <-> has_own id d) as Eo by (intros id; unfold has_own; change k_own with (item_key IOwnDeviceId); rewrite Hne; [done|congruence]).
    split; [|split; [|split; [|split]]].
    - intros i' v' Hi' Hv'. destruct (decide (item_key i = item_key i')) as [E|E].
      + apply core_inj in E as <-; [|done]. rewrite lookup_insert in Hv'. by injection Hv' as <-.
      + rewrite lookup_insert_ne in Hv' by done. by apply HT.
    - intros j x Hk.
      assert (known d j x) as Hk0 by (unfold known, holds in *; rewrite Hne in Hk; [done|]; intros E; by eapply N4).
      apply HR, recorded_k in Hk0 as (l & m & o & H1 & H2 & H3 & H4).
      assert (hlab (<[item_key i := v]> d) j x o) as H3'.
      { eapply hk_eq; [|exact H3]. apply (Hne (ILabel j x)). intros E. by eapply N5. }
      apply recorded_k. destruct (decide (j = me /\ x = dev)) as [[-> ->]|Hd].
      + assert (mine me (<[item_key i := v]> d) me dev) as Hm.
        { split; [done|]. intros id Hid. apply Eo in Hid. unfold has_own in *. congruence. }
        destruct Hi as [->| ->].
        * destruct Hv as [l' Hl']. exists l', m, o. split; [exists v; split; [apply lookup_insert|done]|].
          split; [eapply hk_eq; [|exact H2]; by apply (Hne (IActive me dev))|]. done.
        * destruct Hv as [m' Hm']. exists l, m', o. split; [eapply hk_eq; [|exact H1]; by apply (Hne (INamespaces me dev))|].
          split; [exists v; split; [apply lookup_insert|done]|]. done.
      + exists l, m, o. split; [eapply hk_eq; [|exact H1]; apply (Hne (INamespaces j x)); destruct Hi as [->| ->]; intros E; first [discriminate E|injection E as -> ->; by apply Hd]|].
        split; [eapply hk_eq; [|exact H2]; apply (Hne (IActive j x)); destruct Hi as [->| ->]; intros E; first [discriminate E|injection E as -> ->; by apply Hd]|]. split; [done|].
        intros Hf. apply H4. intros [? Hm]. apply Hf. split; [done|]. intros id. rewrite Eo. auto.
    - unfold has_own in *. by rewrite Hne by congruence.
    - intros id Hid. apply Eo in Hid. apply HK in Hid as [Hk (ik & s & H1 & H2)]. split.
      + unfold known, holds in *. rewrite Hne; [done|]. intros E. by eapply N4.
      + exists ik, s. split; [|done]. rewrite Hne; [done|]. intros E. by eapply N6.
    - unfold ikp_wf, has_ikp in *. by rewrite !Hne by congruence.
  Qed.
  Lemma good_own_store i v : i = INamespaces me dev \/ i = IActive me dev -> item_type i v -> good (s_store (item_key i) v).
  Proof using Hbad.
    intros Hi Hv w [HJ HO].
    assert (item_key i <> k_own) as Hk.
    { change k_own with (item_key IOwnDeviceId). intros E. symmetry in E. apply core_inj in E; [|done]. destruct Hi as [->| ->]; done. }
    assert (forall r, JW (w_apply w (SStore (item_key i) v) r)) as HW.
    { intros [[]|e]; [|done]. split; [by apply J_own_insert|by apply own_insert]. }
    apply wp_store; [by auto| |done]. intros e He. split; [done|by apply ext_fine].
  Qed.
  Lemma good_store_ns l : good (s_store (k_ns (c_jid cf) (c_dev cf)) (j_strs l)).
  Proof using Hbad Hme Hdev.
    rewrite Hme, Hdev. apply (good_own_store (INamespaces me dev)); [by left|]. exists l. apply is_strs.
  Qed.
  Lemma good_store_active l : good (s_store (k_active (c_jid cf) (c_dev cf)) (j_bools l)).
  Proof using Hbad Hme Hdev.
    rewrite Hme, Hdev. apply (good_own_store (IActive me dev)); [by right|]. exists l. apply is_bools.
  Qed.

  (** ** All other calls *)
  Ltac gext := unfold b_load_session, b_store_session, b_build_active, b_build_passive, b_enc_plain, b_enc_empty,
    b_enc_key, b_dec_plain, b_dec_key, b_spk_age, b_rotate, b_hide, b_delete, b_del_hidden, b_num_visible, b_generate,
    b_get_bundle, b_purge, b_purge_jid, n_upload_bundle, n_download_bundle, n_delete_bundle, n_upload_dl,
    n_send, t_eval, t_blind, c_sleep in *;
    (apply good_step; [done|let Hr := fresh in intros ? ? Hr; apply good_outcome; by apply ext_okfine]).
  Lemma good_gloaded : good g_loaded.
  Proof. apply good_step; [done|]. intros. apply good_ret. Qed.
  Lemma good_gsync : good g_sync.
  Proof. apply good_step; [done|]. intros. apply good_ret. Qed.
  Lemma good_same a b : good (k_same a b).
  Proof. apply good_step; [done|]. intros. apply good_ret. Qed.
  Lemma good_psync b : good (p_sync b).
  Proof. intros w HJ. by apply wp_psync. Qed.
  Lemma good_ploaded l : good (p_loaded l).
  Proof. intros w HJ. by apply wp_ploaded. Qed.
  Lemma good_download ns jid : good (n_download_dl ns jid).
  Proof using Hbad.
    apply good_step; [done|]. intros w r Hr. apply good_outcome. destruct r; [done|]. by apply ext_fine.
  Qed.
  Ltac g :=
    match goal with
    | |- good (bind _ _) => apply good_bind; [|intros ?]
    | |- good (Ret _) => apply good_ret
    | |- good (order _) => apply good_order
    | |- good g_loaded => apply good_gloaded
    | |- good g_sync => apply good_gsync
    | |- good (k_same _ _) => apply good_same
    | |- good (p_sync _) => apply good_psync
    | |- good (p_loaded _) => apply good_ploaded
    | |- good (n_download_dl _ _) => apply good_download
    | |- good (for_each _ _) => apply good_for_each; intros ? _
    | |- good (fold_prog _ _ _) => apply good_fold; intros ? ? _
    | |- good (map_prog _ _) => apply good_map; intros ? _
    | |- good (filter_prog _ _) => apply good_filter; intros ? _
    | |- good (try_ _) => apply good_try
    | |- good (Raise _) => apply good_raise'; first [assumption|by apply ext_fine]
    | |- good (if ?b then _ else _) => destruct b
    | |- good (match ?b with _ => _ end) => destruct b
    | |- good (update_device_list _ _ _ _) => apply good_update
    | |- good (get_device_information_ _ _) => apply good_info_
    | |- good (get_device_information _ _) => apply good_info
    | |- good (get_own_device_information _) => apply good_get_own
    | |- good (s_store (k_ns (c_jid _) (c_dev _)) _) => apply good_store_ns
    | |- good (s_store (k_active (c_jid _) (c_dev _)) _) => apply good_store_active
    | _ => gext
    end.
  Ltac gg := repeat (g; cbv zeta; cbn beta iota).

  Lemma good_refresh ns jid : good (refresh_device_list cf ns jid).
  Proof using Hbad Hme Hdev. unfold refresh_device_list. gg. Qed.
  Lemma good_refresh_all jid : good (refresh_device_lists cf jid).
  Proof using Hbad Hme Hdev. unfold refresh_device_lists. gg. apply good_refresh. Qed.
  Lemma good_set_trust jid ik level : good (set_trust jid ik level).
  Proof using Hbad. apply (good_store (ITrust jid ik)). exists level. constructor. Qed.
  Lemma good_set_label label : good (set_own_label cf label).
  Proof using Hbad.
    unfold set_own_label. apply good_bind; [|intros _; gg]. apply (good_store (ILabel (c_jid cf) (c_dev cf))).
    exists label. apply is_label.
  Qed.
  Lemma good_purge_backend ns : good (purge_backend cf ns).
  Proof using Hbad Hme Hdev. unfold purge_backend. gg. Qed.
  Lemma good_rotate_upload fuel rd ns : ~ bad EOutOfFuel -> good (rotate_upload cf fuel rd ns).
  Proof using Hbad.
    intros HF. revert rd. induction fuel as [|fuel IH]; intros rd; cbn [rotate_upload]; [g|]. cbv zeta. apply good_try_bind; [gg|].
    intros [[]|e] He; [g|]. destruct e; try (by apply good_raise'). g; [gext|apply IH].
  Qed.
  Lemma good_rotation fuel period : ~ bad EOutOfFuel -> good (rotation cf fuel period).
  Proof using Hbad.
    intros HF. induction fuel as [|fuel IH]; cbn [rotation]; [g|]. g; [g|]. g.
    - g. unfold rotate_one. gg. by apply good_rotate_upload.
    - g; [gext|apply IH].
  Qed.
  Lemma good_ensure : good (ensure_data_consistency cf).
  Proof using Hbad Hme Hdev.
    unfold ensure_data_consistency. g; [g|]. g. g; [apply good_refresh|]. g; [gext|]. apply good_try_bind; [gext|].
    intros o Ho. g; [|gg]. destruct o as [b|e]; [g|]. destruct e; try (by apply good_raise'); g.
  Qed.
  Lemma good_send_empty ns s : good (send_empty_message cf ns s).
  Proof using Hbad. unfold send_empty_message. gg. Qed.
  Lemma good_replace jid x : ~ bad ERuntime -> good (replace_sessions cf jid x).
  Proof using Hbad.
    intros HR. unfold replace_sessions. g; [g|]. g; [g|]. g; [g|]. g; [gg|]. g; [g|]. g. g; [|g].
    apply good_try_bind; [unfold replace_one; gg|]. intros [[]|ex] He; [g|]. g; [g|by apply good_raise'].
  Qed.
  Lemma good_chain jid x nss : good (get_sending_chain_length jid x nss).
  Proof using Hbad. unfold get_sending_chain_length. gg. Qed.
  Lemma good_after : ~ bad ETypeError -> good (after_history_sync cf).
  Proof using Hbad.
    intros Ht. unfold after_history_sync. g; [g|]. g; [g|]. g; [gg|]. g; [g|]. g. unfold flush_ns.
    g; [apply (good_qload _ _ _ good_strs); done|]. cbv zeta. g; [apply good_qdelete; left; by eexists|]. g; [g|]. g.
    unfold flush_jid. g; [apply (good_qload _ _ _ good_ints); done|]. cbv zeta. g; [apply good_qdelete; right; by do 2 eexists|].
    g; [g|]. g. unfold flush_dev. g; [gext|]. g; [apply good_send_empty|g].
  Qed.
  Lemma good_decrypt m : ~ bad ETypeError -> good (decrypt cf m).
  Proof using Hbad Hme Hdev.
    intros Ht. unfold decrypt. g; [g|]. g; [|g]. cbv zeta. g; [g|]. g; [g|]. destruct p as [en mk]. g.
    { unfold dec_sender. gg. apply good_refresh. }
    g; [gext|]. case_decide; [g|].
    apply good_bind; [|intros [s pk]].
    { destruct mk; [unfold dec_kex|unfold dec_existing]; gg. }
    g; [gg|]. g; [gext|]. g; [destruct mk; [unfold dec_prekeys; gg|g]|]. g; [|g]. g; [|g].
    unfold dec_respond. g; [g|]. g; [|apply good_send_empty].
    g; [apply (good_qload _ _ _ good_strs); done|]. g; [g|]. g; [apply good_qstore; left; by eexists|].
    g; [apply (good_qload _ _ _ good_ints); done|]. g; [g|]. apply good_qstore; right; by do 2 eexists.
  Qed.
End app.
