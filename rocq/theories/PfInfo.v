(** What get_device_information returns and stores. *)
From Verif Require Import Api Spec Env PfStrs PfTyped PfWp PfHist PfEmits PfUpdate PfDevices.
Open Scope prog_scope.
Open Scope list_scope.

Notation hik d j x ik := (exists s, d !! k_ik j x = Some (JStr s) /\ b64dec s = Some ik).
(** The level read for a key: the stored one or the undecided one. *)
Definition level_of (cf : cfg) (d : gmap string json) (j : string) (ik : bytes) (lvl : string) : Prop :=
  match d !! k_trust j ik with None => lvl = c_undecided cf | Some v => is_str v lvl end.
Lemma level_fun cf d j ik a b : level_of cf d j ik a -> level_of cf d j ik b -> a = b.
Proof. unfold level_of. destruct (d !! k_trust j ik); [apply is_str_fun|congruence]. Qed.

(** load_bytes in terms of readings *)
Lemma wp_load_bytes (I : world -> Prop) k (Q : outcome (option bytes) -> world -> Prop) w :
  I w -> (forall e, ext_exn e = true -> Q (Exn e) w) ->
  (w_disk w !! k = None -> Q (Val None) w) ->
  (forall s b, w_disk w !! k = Some (JStr s) -> b64dec s = Some b -> Q (Val (Some b)) w) ->
  (forall e, w_disk w !! k <> None -> (forall s b, w_disk w !! k = Some (JStr s) -> b64dec s = Some b -> False) -> Q (Exn e) w) ->
  wp base I (load_bytes k) Q w.
Proof.
  intros HI He HN HS HT. apply wp_load; [done|done|]. destruct (w_disk w !! k) as [v|] eqn:Ek; [|auto].
  destruct v as [| | | |s| |]; try (by apply HT; [done|]; intros; discriminate).
  destruct (b64dec s) as [b|] eqn:Eb; [by eapply HS|].
  apply HT; [done|]. intros s' b [= <-]. congruence.
Qed.

Section info.
  Context (cf : cfg) (jid : string).

  (** keys of device [x] an information query may write *)
  Definition itouch (x : Z) (d d' : gmap string json) : Prop :=
    forall k, k <> k_ns jid x -> k <> k_ik jid x -> d' !! k = d !! k.
  Definition ns_upd (x : Z) (d d' : gmap string json) : Prop :=
    d' !! k_ns jid x = d !! k_ns jid x \/
    exists l m l', hns d jid x l /\ hact d jid x m /\ d' !! k_ns jid x = Some (j_strs l') /\
      forall n, n ∈ l' <-> n ∈ l /\ n ∈ dkeys m.
  Definition ik_upd (x : Z) (d d' : gmap string json) : Prop :=
    d' !! k_ik jid x = d !! k_ik jid x \/
    d !! k_ik jid x = None /\ exists ik, d' !! k_ik jid x = Some (JStr (b64enc ik)).
  Definition same_rt (w w' : world) : Prop :=
    w_loaded w' = w_loaded w /\ w_sync w' = w_sync w /\ exists evs, w_log w' = evs ++ w_log w.
  Definition i_mid (x : Z) (w w' : world) : Prop :=
    same_rt w w' /\ itouch x (w_disk w) (w_disk w') /\ ns_upd x (w_disk w) (w_disk w') /\ ik_upd x (w_disk w) (w_disk w').

  Lemma same_rt_refl w : same_rt w w.
  Proof. split; [done|]. split; [done|]. by exists []. Qed.
  Lemma same_rt_trans w1 w2 w3 : same_rt w1 w2 -> same_rt w2 w3 -> same_rt w1 w3.
  Proof.
    intros (A1 & A2 & e1 & A3) (B1 & B2 & e2 & B3). split; [congruence|]. split; [congruence|].
    exists (e2 ++ e1). by rewrite <- app_assoc, <- A3.
  Qed.

  (** the device as described by the storage before ([d]) and after ([d']) *)
  Definition described (d d' : gmap string json) (dv : device) : Prop :=
    dv_jid dv = jid /\ exists l, hns d jid (dv_id dv) l /\ hact d jid (dv_id dv) (dv_active dv) /\
      hlab d jid (dv_id dv) (dv_label dv) /\
      (forall n, n ∈ dv_namespaces dv <-> n ∈ l /\ n ∈ dkeys (dv_active dv)) /\ NoDup (dv_namespaces dv) /\
      hik d' jid (dv_id dv) (dv_ik dv) /\
      (d !! k_ik jid (dv_id dv) = d' !! k_ik jid (dv_id dv) \/ d !! k_ik jid (dv_id dv) = None) /\
      level_of cf d jid (dv_ik dv) (dv_trust dv).

  (** records an information query can process *)
  Definition info_ok (x : Z) (d : gmap string json) : Prop :=
    exists l m o, hns d jid x l /\ hact d jid x m /\ hlab d jid x o /\
      (d !! k_ik jid x = None \/ exists ik, hik d jid x ik) /\
      forall ik, exists lvl, level_of cf d jid ik lvl.

  Lemma dmem_keys {V} n (m : list (string * V)) : dmem n m = true <-> n ∈ dkeys m.
  Proof.
    unfold dmem. rewrite bool_decide_eq_true. induction m as [|[k v] m IH]; simpl.
    - split; [by intros []|by intros ?%elem_of_nil].
    - rewrite elem_of_cons. destruct (decide (n = k)) as [->|]; [split; [by left|by eexists]|]. rewrite IH. naive_solver.
  Qed.

  (** the part after the identity key is known; [w0] is the world before this device *)
  Lemma rest_info_wp (I : world -> Prop) x l ik w0 w :
    (forall w', i_mid x w0 w' -> I w') -> hns (w_disk w0) jid x l -> i_mid x w0 w ->
    w_disk w !! k_ns jid x = w_disk w0 !! k_ns jid x -> hik (w_disk w) jid x ik ->
    wp base I (dev_info_rest cf jid x (pyset l) ik) (fun o w' => i_mid x w0 w' /\
      match o with
      | Val dv => dv_id dv = x /\ dv_ik dv = ik /\ described (w_disk w0) (w_disk w') dv /\ (exists evs, w_log w' = evs ++ w_log w)
      | Exn e => ext_exn e = true \/ ~ info_ok x (w_disk w0)
      end) w.
  Proof.
    intros HI Hl HM Hns Hik. assert (I w) as HI0 by auto. unfold dev_info_rest.
    pose proof HM as (HR & HT & HN & HK).
    assert (k_active jid x <> k_ns jid x) as N1 by kneq. assert (k_active jid x <> k_ik jid x) as N2 by kneq.
    assert (k_label jid x <> k_ns jid x) as N3 by kneq. assert (k_label jid x <> k_ik jid x) as N4 by kneq.
    assert (k_ns jid x <> k_ik jid x) as N5 by kneq.
    assert (w_disk w !! k_active jid x = w_disk w0 !! k_active jid x) as E1 by (by apply HT).
    assert (w_disk w !! k_label jid x = w_disk w0 !! k_label jid x) as E2 by (by apply HT).
    assert (w_disk w !! k_trust jid ik = w_disk w0 !! k_trust jid ik) as E3 by (apply HT; kneq).
    apply wp_bind. apply (wp_typed _ _ _ _ _ _ good_bools); [done|by auto| | |].
    { intros Hn. apply wp_bind, wp_from_just; [|done]. intros _. split; [done|]. right.
      intros (? & m & o & _ & (v & H & _) & _). congruence. }
    2:{ intros v Hv Hn. split; [done|]. right. intros (? & m & o & _ & (v' & H & H') & _).
        rewrite <- E1, Hv in H. injection H as <-. by eapply Hn. }
    intros v m Hv Hm. assert (hact (w_disk w0) jid x m) as Hact by (exists v; by rewrite <- E1).
    apply wp_bind, wp_from_just; [done|]. intros ? [= <-].
    apply wp_bind. apply (wp_typed _ _ _ _ _ _ good_label); [done|by auto| | |].
    { intros Hn. apply wp_bind, wp_from_just; [|done]. intros _. split; [done|]. right.
      intros (? & ? & o & _ & _ & (v' & H & _) & _). congruence. }
    2:{ intros v' Hv' Hn. split; [done|]. right. intros (? & ? & o & _ & _ & (v'' & H & H') & _).
        rewrite <- E2, Hv' in H. injection H as <-. by eapply Hn. }
    intros v' o Hv' Ho. assert (hlab (w_disk w0) jid x o) as Hlab by (exists v'; by rewrite <- E2).
    apply wp_bind, wp_from_just; [done|]. intros ? [= <-].
    (* the level *)
    assert (forall m'', level_of cf (w_disk w0) jid ik (Model.maybe (c_undecided cf) m'') ->
      wp base I (namespaces' <-
        (if forallb (fun ns => dmem ns m) (pyset l) then Ret (pyset l)
         else let ns' := set_inter (pyset l) (dkeys m) in
              l <- order ns' ;; s_store (k_ns jid x) (j_strs l) ;;; Ret ns') ;;
        Ret (Device namespaces' m jid x ik (Model.maybe (c_undecided cf) m'') o))
      (fun o w' => i_mid x w0 w' /\
      match o with
      | Val dv => dv_id dv = x /\ dv_ik dv = ik /\ described (w_disk w0) (w_disk w') dv /\ (exists evs, w_log w' = evs ++ w_log w)
      | Exn e => ext_exn e = true \/ ~ info_ok x (w_disk w0)
      end) w) as Hgo.
    { intros m'' Hlvl. apply wp_bind.
      assert (forall w' nss, w_disk w' !! k_ik jid x = w_disk w !! k_ik jid x ->
        (forall n, n ∈ nss <-> n ∈ l /\ n ∈ dkeys m) -> NoDup nss ->
        described (w_disk w0) (w_disk w') (Device nss m jid x ik (Model.maybe (c_undecided cf) m'') o)) as Hdesc.
      { intros w' nss Ek Hn Hnd. split; [done|]. exists l. simpl. split; [done|]. split; [done|]. split; [done|].
        split; [done|]. split; [done|]. rewrite Ek. split; [done|]. split; [|done].
        destruct HK as [HK|[HK _]]; [left; by rewrite HK|by right]. }
      destruct (forallb (fun ns => dmem ns m) (pyset l)) eqn:Ef.
      - apply wp_ret. apply wp_ret. split; [done|]. split; [done|]. split; [done|]. split; [|by exists []].
        apply Hdesc; [done| |apply NoDup_remove_dups]. intros n. rewrite elem_pyset. split; [|tauto]. intros Hn. split; [done|].
        apply dmem_keys. rewrite forallb_forall in Ef. apply Ef. by apply elem_of_list_In, elem_pyset.
      - cbv zeta. apply wp_bind, wp_order; [done|]. intros l' Hl'.
        assert (forall n, n ∈ l' <-> n ∈ l /\ n ∈ dkeys m) as Hm'.
        { intros n. rewrite Hl'. unfold set_inter. rewrite elem_of_list_filter, elem_pyset. tauto. }
        set (w1 := w_apply w (SStore (k_ns jid x) (j_strs l')) (Val tt)).
        assert (i_mid x w0 w1) as HM1.
        { split; [|split; [|split]].
          - eapply same_rt_trans; [exact HR|]. split; [done|]. split; [done|]. by exists [EvStore (k_ns jid x) (j_strs l') (Val tt)].
          - intros k K1 K2. unfold w1. simpl. rewrite lookup_insert_ne by done. by apply HT.
          - right. exists l, m, l'. split; [done|]. split; [done|]. unfold w1. simpl. by rewrite lookup_insert.
          - unfold ik_upd, w1. simpl. rewrite lookup_insert_ne by done. exact HK. }
        assert (forall e, i_mid x w0 (w_apply w (SStore (k_ns jid x) (j_strs l')) (Exn e))) as HM2.
        { intros e. split; [|split; [|split]]; [|done..]. eapply same_rt_trans; [exact HR|].
          split; [done|]. split; [done|]. by exists [EvStore (k_ns jid x) (j_strs l') (Exn e)]. }
        apply wp_bind, wp_store.
        + intros [[]|e] _; [by apply HI|by apply HI].
        + intros e He. split; [done|by left].
        + fold w1. apply wp_ret, wp_ret. split; [done|]. split; [done|]. split; [done|].
          split; [|by exists [EvStore (k_ns jid x) (j_strs l') (Val tt)]]. apply Hdesc.
          * unfold w1. simpl. by rewrite lookup_insert_ne.
          * intros n. unfold set_inter. rewrite elem_of_list_filter, elem_pyset. tauto.
          * apply NoDup_filter, NoDup_remove_dups. }
    apply wp_bind. apply (wp_typed _ _ _ _ _ _ good_str); [done|by auto| | |].
    - intros Hn. apply Hgo. unfold level_of. by rewrite <- E3, Hn.
    - intros v1 a Hv1 Ha. apply Hgo. unfold level_of. by rewrite <- E3, Hv1.
    - intros v1 Hv1 Hn. split; [done|]. right. intros (? & ? & ? & _ & _ & _ & _ & H).
      destruct (H ik) as [lvl Hl']. unfold level_of in Hl'. rewrite <- E3, Hv1 in Hl'. by eapply Hn.
  Qed.

  (** downloading the key: only the first successful download counts *)
  Lemma find_key_wp (I : world -> Prop) x l w :
    (forall w', i_mid x w w' -> w_disk w' !! k_ns jid x = w_disk w !! k_ns jid x -> I w') -> w_disk w !! k_ik jid x = None ->
    wp base I (find_key jid x l) (fun o w' => i_mid x w w' /\ w_disk w' !! k_ns jid x = w_disk w !! k_ns jid x /\
      match o with
      | Val None => w_disk w' = w_disk w
      | Val (Some b) => w_disk w' !! k_ik jid x = Some (JStr (b64enc (b_ik b))) /\
          exists ns, ns ∈ l /\ EvDownloadBundle ns jid x (Val b) ∈ w_log w'
      | Exn e => ext_exn e = true
      end) w.
  Proof.
    intros HI Hn.
    assert (forall w1, same_rt w w1 -> w_disk w1 = w_disk w ->
      wp base I (find_key jid x l) (fun o w' => i_mid x w w' /\ w_disk w' !! k_ns jid x = w_disk w !! k_ns jid x /\
      match o with
      | Val None => w_disk w' = w_disk w
      | Val (Some b) => w_disk w' !! k_ik jid x = Some (JStr (b64enc (b_ik b))) /\
          exists ns, ns ∈ l /\ EvDownloadBundle ns jid x (Val b) ∈ w_log w'
      | Exn e => ext_exn e = true
      end) w1) as H; [|apply H; [apply same_rt_refl|done]].
    assert (k_ns jid x <> k_ik jid x) as N5 by kneq.
    induction l as [|ns l IH]; intros w1 HR HD; cbn [find_key].
    - apply wp_ret. rewrite HD. split; [|done]. split; [done|]. rewrite HD. split; [by intros k|]. split; by left.
    - apply wp_bind, wp_try. apply wp_step. intros r Hr.
      set (w2 := w_apply w1 _ r).
      assert (same_rt w w2) as HR2.
      { eapply same_rt_trans; [exact HR|]. split; [done|]. split; [done|]. by exists [EvDownloadBundle ns jid x r]. }
      assert (w_disk w2 = w_disk w) as HD2 by exact HD.
      assert (i_mid x w w2) as HM2.
      { split; [done|]. rewrite HD2. split; [by intros k|]. split; by left. }
      split; [apply HI; [done|by rewrite HD2]|]. apply wp_of_outcome.
      assert (forall e, wp base I (find_key jid x l) (fun o w' => i_mid x w w' /\ w_disk w' !! k_ns jid x = w_disk w !! k_ns jid x /\
        match o with
        | Val None => w_disk w' = w_disk w
        | Val (Some b) => w_disk w' !! k_ik jid x = Some (JStr (b64enc (b_ik b))) /\
            exists ns0, ns0 ∈ ns :: l /\ EvDownloadBundle ns0 jid x (Val b) ∈ w_log w'
        | Exn e => ext_exn e = true
        end) (w_apply w1 (NDownloadBundle ns jid x) (Exn e))) as Hnext.
      { intros e. eapply wp_conseq; [apply IH|].
        - eapply same_rt_trans; [exact HR|]. split; [done|]. split; [done|]. by exists [EvDownloadBundle ns jid x (Exn e)].
        - done.
        - intros [[b|]|e'] w3 (H1 & H2 & H3); [|done..]. split; [done|]. split; [done|].
          destruct H3 as (H3 & n & H4 & H5). split; [done|]. exists n. split; [by right|done]. }
      destruct r as [b|e].
      + set (w3 := w_apply w2 (SStore (k_ik jid x) (JStr (b64enc (b_ik b)))) (Val tt)).
        assert (i_mid x w w3) as HM3.
        { split; [|split; [|split]].
          - eapply same_rt_trans; [exact HR2|]. split; [done|]. split; [done|].
            by exists [EvStore (k_ik jid x) (JStr (b64enc (b_ik b))) (Val tt)].
          - intros k K1 K2. unfold w3. simpl. rewrite lookup_insert_ne by done. by rewrite HD.
          - left. unfold w3. simpl. rewrite lookup_insert_ne by done. by rewrite HD.
          - right. split; [done|]. exists (b_ik b). unfold w3. simpl. by rewrite lookup_insert. }
        assert (w_disk w3 !! k_ns jid x = w_disk w !! k_ns jid x) as HN3.
        { unfold w3. simpl. rewrite lookup_insert_ne by done. by rewrite HD. }
        assert (forall e, i_mid x w (w_apply w2 (SStore (k_ik jid x) (JStr (b64enc (b_ik b)))) (Exn e))) as HM4.
        { intros e. split; [|apply HM2]. eapply same_rt_trans; [exact HR2|]. split; [done|]. split; [done|].
          by exists [EvStore (k_ik jid x) (JStr (b64enc (b_ik b))) (Exn e)]. }
        apply wp_bind, wp_store.
        * intros [[]|e] _; [by apply HI|]. apply HI; [apply HM4|]. simpl. by rewrite HD.
        * intros e He. split; [apply HM4|]. split; [simpl; by rewrite HD|done].
        * fold w3. apply wp_ret. split; [done|]. split; [done|]. unfold w3. simpl. rewrite lookup_insert. split; [done|].
          exists ns. split; [left|]. right. left.
      + assert (ext_exn e = true) as He by exact Hr.
        destruct e; try apply Hnext; (apply wp_raise; split; [done|]; split; [by rewrite HD2|done]).
  Qed.

  (** one device *)
  Lemma dev_info_wp (I : world -> Prop) acc x w :
    (forall w', i_mid x w w' -> I w') ->
    wp base I (dev_info cf jid acc x) (fun o w' => i_mid x w w' /\
      match o with
      | Val acc' =>
          (acc' = acc /\ w_disk w' = w_disk w /\ w_disk w !! k_ik jid x = None) \/
          exists dv bs, acc' = (acc.1 ++ [dv], acc.2 ++ bs) /\ dv_id dv = x /\ described (w_disk w) (w_disk w') dv /\
            Forall (fun b => b_ik b = dv_ik dv /\ exists ns, EvDownloadBundle ns jid x (Val b) ∈ w_log w') bs
      | Exn e => ext_exn e = true \/ ~ info_ok x (w_disk w)
      end) w.
  Proof.
    intros HI. assert (i_mid x w w) as HM0.
    { split; [apply same_rt_refl|]. split; [by intros k|]. split; by left. }
    assert (I w) as HI0 by auto. unfold dev_info. apply wp_bind.
    apply (wp_typed _ _ _ _ _ _ good_strs); [done|by auto| | |].
    { intros Hn. apply wp_bind, wp_from_just; [|done]. intros _. split; [done|]. right.
      intros (? & m & o & (v & H & _) & _). congruence. }
    2:{ intros v Hv Hn. split; [done|]. right. intros (l & m & o & (v' & H & H') & _).
        rewrite Hv in H. injection H as <-. by eapply Hn. }
    intros v l Hv Hl. assert (hns (w_disk w) jid x l) as Hns by (by exists v).
    apply wp_bind, wp_from_just; [done|]. intros ? [= <-]. cbv zeta.
    apply wp_bind, wp_load_bytes; [done|by auto| | |].
    - intros Hn. apply wp_bind, wp_order; [done|]. intros nso Hnso. apply wp_bind.
      eapply wp_conseq; [apply find_key_wp; [auto|done]|].
      intros [[b|]|e] w1 (M1 & N1 & H1).
      + destruct H1 as (H1 & ns & Hin & Hev). apply wp_bind. eapply wp_conseq.
        { eapply (rest_info_wp I x l (b_ik b) w w1); [done|done|done|done|]. exists (b64enc (b_ik b)). by rewrite b64_roundtrip. }
        intros [dv|e] w2 (M2 & H2); [|done]. apply wp_ret. split; [done|]. right. destruct H2 as (H2 & H3 & H4 & evs & H5).
        exists dv, [b]. split; [done|]. split; [done|]. split; [done|]. apply Forall_singleton. split; [done|].
        exists ns. rewrite H5. apply elem_of_app. by right.
      + apply wp_ret. split; [done|]. by left.
      + split; [done|by left].
    - intros s ik Hs Hb. apply wp_bind. eapply wp_conseq.
      { eapply (rest_info_wp I x l ik w w); [done|done|done|done|]. by exists s. }
      intros [dv|e] w2 (M2 & H2); [|done]. apply wp_ret. split; [done|]. right. destruct H2 as (H2 & H3 & H4 & evs & H5).
      exists dv, []. split; [by rewrite app_nil_r|]. split; [done|]. split; [done|]. constructor.
    - intros e Hnone Hbad. split; [done|]. right. intros (? & ? & ? & _ & _ & _ & [?|(ik & s & H1 & H2)] & _); [done|].
      by eapply Hbad.
  Qed.

  (** ** All devices *)
  Definition i_frame (xs : list Z) (d d' : gmap string json) : Prop :=
    (forall k, (forall x, x ∈ xs -> k <> k_ns jid x /\ k <> k_ik jid x) -> d' !! k = d !! k) /\
    forall x, x ∈ xs -> ns_upd x d d' /\ ik_upd x d d'.
  Definition info_mid (xs : list Z) (w w' : world) : Prop := same_rt w w' /\ i_frame xs (w_disk w) (w_disk w').

  Lemma ns_upd_eq x d d1 d' : d1 !! k_ns jid x = d !! k_ns jid x -> d1 !! k_active jid x = d !! k_active jid x ->
    ns_upd x d1 d' -> ns_upd x d d'.
  Proof.
    intros E1 E2 [H|(l & m & l' & H1 & H2 & H3)]; [left; congruence|right]. exists l, m, l'.
    split; [by eapply hk_eq|]. split; [by eapply hk_eq|]. done.
  Qed.
  Lemma ik_upd_eq x d d1 d' : d1 !! k_ik jid x = d !! k_ik jid x -> ik_upd x d1 d' -> ik_upd x d d'.
  Proof. intros E [H|H]; [left; congruence|right]. by rewrite <- E. Qed.

  Lemma frame_ns xs d d' x : i_frame xs d d' -> x ∉ xs -> d' !! k_ns jid x = d !! k_ns jid x.
  Proof. intros [F _] Hx. apply F. intros y Hy. assert (x <> y) by congruence. split; kneq. Qed.
  Lemma frame_ik xs d d' x : i_frame xs d d' -> x ∉ xs -> d' !! k_ik jid x = d !! k_ik jid x.
  Proof. intros [F _] Hx. apply F. intros y Hy. assert (x <> y) by congruence. split; kneq. Qed.
  Lemma frame_act xs d d' x : i_frame xs d d' -> d' !! k_active jid x = d !! k_active jid x.
  Proof. intros [F _]. apply F. intros y Hy. split; kneq. Qed.
  Lemma frame_lab xs d d' x : i_frame xs d d' -> d' !! k_label jid x = d !! k_label jid x.
  Proof. intros [F _]. apply F. intros y Hy. split; kneq. Qed.
  Lemma frame_trust xs d d' ik : i_frame xs d d' -> d' !! k_trust jid ik = d !! k_trust jid ik.
  Proof. intros [F _]. apply F. intros y Hy. split; kneq. Qed.

  Lemma frame_step xs x w w1 w2 : x ∉ xs -> info_mid xs w w1 -> i_mid x w1 w2 -> info_mid (xs ++ [x]) w w2.
  Proof.
    intros Hx [R F] (R2 & T & N & K). split; [by eapply same_rt_trans|].
    pose proof (frame_ns _ _ _ _ F Hx) as E1. pose proof (frame_ik _ _ _ _ F Hx) as E2. pose proof (frame_act _ _ _ x F) as E3.
    split.
    - intros k Hk. rewrite T.
      + apply F. intros y Hy. apply Hk. apply elem_of_app. by left.
      + apply (Hk x). apply elem_of_app. right. left.
      + apply (Hk x). apply elem_of_app. right. left.
    - intros y Hy. apply elem_of_app in Hy as [Hy|Hy%elem_of_list_singleton].
      + assert (y <> x) by congruence. destruct F as [_ F]. destruct (F y Hy) as [A B]. unfold ns_upd, ik_upd in *.
        rewrite !T by kneq. done.
      + subst y. split; [by eapply ns_upd_eq|by eapply ik_upd_eq].
  Qed.

  Lemma described_start xs d d1 d' dv : dv_id dv ∉ xs -> i_frame xs d d1 -> described d1 d' dv -> described d d' dv.
  Proof.
    intros Hx F (J & l & H1 & H2 & H3 & H4 & H5 & H6 & H7 & H8). split; [done|]. exists l.
    unfold hk in *. rewrite <- (frame_ns _ _ _ _ F Hx), <- (frame_act _ _ _ (dv_id dv) F), <- (frame_lab _ _ _ (dv_id dv) F), <- (frame_ik _ _ _ _ F Hx).
    unfold level_of in *. rewrite <- (frame_trust _ _ _ _ F). auto 20.
  Qed.
  Lemma described_end d d1 d' dv : d' !! k_ik jid (dv_id dv) = d1 !! k_ik jid (dv_id dv) -> described d d1 dv -> described d d' dv.
  Proof. intros E (J & l & H). split; [done|]. exists l. by rewrite E. Qed.
  Lemma info_ok_frame xs d d1 x : x ∉ xs -> i_frame xs d d1 -> info_ok x d -> info_ok x d1.
  Proof.
    intros Hx F (l & m & o & H1 & H2 & H3 & H4 & H5). exists l, m, o.
    unfold hk in *. rewrite (frame_ns _ _ _ _ F Hx), (frame_act _ _ _ x F), (frame_lab _ _ _ x F), (frame_ik _ _ _ _ F Hx).
    split; [done|]. split; [done|]. split; [done|]. split; [done|].
    unfold level_of in *. intros ik. rewrite (frame_trust _ _ _ _ F). apply H5.
  Qed.

  Definition info_val (xs : list Z) (w : world) (r : list device * list bundle) (w' : world) : Prop :=
    (forall dv, dv ∈ r.1 -> dv_id dv ∈ xs /\ described (w_disk w) (w_disk w') dv) /\ NoDup (dv_id <$> r.1) /\
    (forall x, x ∈ xs -> (exists dv, dv ∈ r.1 /\ dv_id dv = x) \/ (w_disk w !! k_ik jid x = None /\ w_disk w' !! k_ik jid x = None)) /\
    (forall b, b ∈ r.2 -> exists dv ns, dv ∈ r.1 /\ b_ik b = dv_ik dv /\ EvDownloadBundle ns jid (dv_id dv) (Val b) ∈ w_log w').

  Lemma info_loop (I : world -> Prop) l w :
    NoDup l -> (forall xs w', (forall x, x ∈ xs -> x ∈ l) -> info_mid xs w w' -> I w') ->
    wp base I (fold_prog l (dev_info cf jid) ([], [])) (fun o w' => info_mid l w w' /\
      match o with
      | Val r => info_val l w r w'
      | Exn e => ext_exn e = true \/ exists x, x ∈ l /\ ~ info_ok x (w_disk w)
      end) w.
  Proof.
    intros Hnd HI.
    assert (forall xs ys w', (forall x, x ∈ xs -> x ∈ ys) -> info_mid xs w w' -> info_mid ys w w') as Hweak.
    { intros xs ys w' Hs [R [F U]]. split; [done|]. split; [intros k Hk; apply F; auto|].
      intros x Hx. destruct (decide (x ∈ xs)); [auto|]. split; left; [by eapply frame_ns|by eapply frame_ik]. }
    apply (wp_fold_prog _ _ (fun pre acc w' => info_mid pre w w' /\ info_val pre w acc w')).
    - split; [split; [apply same_rt_refl|]|].
      + split; [done|]. by intros x Hx%elem_of_nil.
      + split; [by intros dv Hd%elem_of_nil|]. split; [constructor|]. split; [by intros x Hx%elem_of_nil|]. by intros b Hb%elem_of_nil.
    - intros pre x post acc w1 Hl [M1 (V1 & V2 & V3 & V4)].
      assert (x ∉ pre) as Hx.
      { rewrite Hl in Hnd. apply NoDup_app in Hnd as (_ & Hd & _). intros Hc. apply (Hd x Hc). left. }
      assert (forall y, y ∈ pre ++ [x] -> y ∈ l) as Hsub.
      { intros y. rewrite Hl, !elem_of_app, elem_of_list_singleton, elem_of_cons. naive_solver. }
      eapply wp_conseq; [apply (dev_info_wp I acc x w1)|].
      + intros w' Hm. eapply HI; [exact Hsub|]. by eapply frame_step.
      + intros [acc'|e] w2 (M2 & H2).
        2:{ split; [eapply Hweak; [exact Hsub|]; by eapply frame_step|]. destruct H2 as [H2|H2]; [by left|right].
            exists x. split; [apply Hsub, elem_of_app; right; left|]. intros Hok. apply H2. eapply info_ok_frame; [done|apply M1|done]. }
        pose proof (frame_step _ _ _ _ _ Hx M1 M2) as M3. split; [done|].
        assert (forall y, y ∈ pre -> w_disk w2 !! k_ik jid y = w_disk w1 !! k_ik jid y) as Hik.
        { intros y Hy. assert (y <> x) by congruence. destruct M2 as (_ & T & _). apply T; kneq. }
        pose proof M2 as ((_ & _ & evs & Hevs) & _).
        destruct H2 as [(-> & HD & Hn)|(dv & bs & -> & Hid & Hdesc & Hbs)].
        * assert (w_disk w !! k_ik jid x = None) as Hn0 by (by rewrite <- (frame_ik _ _ _ _ (proj2 M1) Hx)).
          split; [intros dv Hdv; destruct (V1 dv Hdv) as [A B]; split; [apply elem_of_app; by left|by rewrite HD]|].
          split; [done|]. split.
          -- intros y [Hy| ->%elem_of_list_singleton]%elem_of_app; [rewrite HD; by apply V3|]. right. by rewrite HD.
          -- intros b Hb. destruct (V4 b Hb) as (dv & ns & A & B & C). exists dv, ns. rewrite Hevs. split; [done|]. split; [done|].
             apply elem_of_app. by right.
        * unfold info_val; cbn [fst snd]. split; [|split; [|split]].
          -- intros dv' [Hdv| ->%elem_of_list_singleton]%elem_of_app.
             ++ destruct (V1 dv' Hdv) as [A B]. split; [apply elem_of_app; by left|]. eapply described_end; [|exact B]. auto.
             ++ rewrite Hid. split; [apply elem_of_app; right; left|]. eapply described_start; [|apply M1|exact Hdesc]. by rewrite Hid.
          -- rewrite fmap_app. apply NoDup_app. split; [done|]. split; [|apply NoDup_singleton].
             simpl. intros y Hy ->%elem_of_list_singleton. apply elem_of_list_fmap in Hy as (dv' & E & Hdv).
             apply Hx. rewrite <- Hid, E. apply V1. done.
          -- intros y [Hy| ->%elem_of_list_singleton]%elem_of_app.
             ++ destruct (V3 y Hy) as [(dv' & A & B)|[A B]]; [left|right].
                ** exists dv'. split; [apply elem_of_app; by left|done].
                ** split; [done|]. by rewrite Hik.
             ++ left. exists dv. split; [apply elem_of_app; right; left|done].
          -- intros b [Hb|Hb]%elem_of_app.
             ++ destruct (V4 b Hb) as (dv' & ns & A & B & C). exists dv', ns. rewrite Hevs.
                split; [apply elem_of_app; by left|]. split; [done|]. apply elem_of_app. by right.
             ++ rewrite Forall_forall in Hbs. destruct (Hbs b Hb) as (A & ns & B). exists dv, ns.
                split; [apply elem_of_app; right; left|]. split; [done|]. by rewrite Hid.
    - intros acc w' [M V]. done.
  Qed.

  Definition list_ok (d : gmap string json) : Prop := exists ids, stored_ids jid d ids.

  Lemma info_wp (I : world -> Prop) w :
    (forall ids xs w', stored_ids jid (w_disk w) ids -> (forall x, x ∈ xs -> x ∈ ids) -> info_mid xs w w' -> I w') ->
    I w ->
    wp base I (get_device_information_ cf jid) (fun o w' =>
      match o with
      | Val r => exists ids, stored_ids jid (w_disk w) ids /\ info_mid ids w w' /\ info_val ids w r w'
      | Exn e => (w' = w \/ exists ids, stored_ids jid (w_disk w) ids /\ info_mid ids w w') /\
          (ext_exn e = true \/ ~ list_ok (w_disk w) \/ exists x, known (w_disk w) jid x /\ ~ info_ok x (w_disk w))
      end) w.
  Proof.
    intros HI HI0. unfold get_device_information_. apply wp_bind.
    assert (forall m ids, Model.maybe [] m = ids -> stored_ids jid (w_disk w) ids ->
      wp base I (l <- order (pyset (Model.maybe [] m)) ;; fold_prog l (dev_info cf jid) ([], [])) (fun o w' =>
      match o with
      | Val r => exists ids, stored_ids jid (w_disk w) ids /\ info_mid ids w w' /\ info_val ids w r w'
      | Exn e => (w' = w \/ exists ids, stored_ids jid (w_disk w) ids /\ info_mid ids w w') /\
          (ext_exn e = true \/ ~ list_ok (w_disk w) \/ exists x, known (w_disk w) jid x /\ ~ info_ok x (w_disk w))
      end) w) as Hgo.
    { intros m ids -> Hids. apply wp_bind, wp_order; [done|]. intros l Hl.
      assert (forall x, x ∈ l <-> x ∈ ids) as Hm by (intros x; rewrite Hl; apply elem_pyset).
      assert (forall w', info_mid l w w' -> info_mid ids w w') as Hmid.
      { intros w' [R [F U]]. split; [done|]. split; [intros k Hk; apply F; intros x Hx; apply Hk, Hm, Hx|].
        intros x Hx. apply U. by apply Hm. }
      eapply wp_conseq; [apply (info_loop I l w)|].
      - rewrite Hl. apply NoDup_remove_dups.
      - intros xs w' Hs M. eapply HI; [exact Hids| |exact M]. intros x Hx. by apply Hm, Hs.
      - intros [r|e] w' [M V].
        + exists ids. split; [done|]. split; [auto|]. destruct V as (V1 & V2 & V3 & V4).
          split; [intros dv Hdv; destruct (V1 dv Hdv); split; [by apply Hm|done]|].
          split; [done|]. split; [intros x Hx; apply V3; by apply Hm|done].
        + split; [right; exists ids; auto|]. destruct V as [V|(x & Hx & V)]; [by left|]. right. right. exists x.
          split; [|done]. eapply known_ids; [exact Hids|]. by apply Hm. }
    apply (wp_typed _ _ _ _ _ _ good_ints); [done| | | |].
    - intros e He. split; [by left|by left].
    - intros Hn. eapply Hgo; [done|]. unfold stored_ids. by rewrite Hn.
    - intros v a Hv Ha. eapply Hgo; [done|]. unfold stored_ids. by rewrite Hv.
    - intros v Hv Hn. split; [by left|]. right. left. intros [ids Hi]. unfold stored_ids in Hi. rewrite Hv in Hi. by eapply Hn.
  Qed.

  Lemma info_exec w r w' : exec base (get_device_information_ cf jid) w (Val r) w' ->
    exists ids, stored_ids jid (w_disk w) ids /\ info_mid ids w w' /\ info_val ids w r w'.
  Proof.
    intros H. eapply (wp_exec base (fun _ => True)) in H; [|by apply info_wp]. done.
  Qed.
  Lemma get_info_exec w ds w' : exec base (get_device_information cf jid) w (Val ds) w' ->
    exists ids bs, stored_ids jid (w_disk w) ids /\ info_mid ids w w' /\ info_val ids w (ds, bs) w'.
  Proof.
    intros H. unfold get_device_information in H. apply exec_bind in H as [([ds' bs] & w1 & H1 & H2)|(e & H1 & H2)]; [|done].
    simpl in H2. destruct H2 as [[= ->] ->]. apply info_exec in H1 as (ids & H). by exists ids, bs.
  Qed.
End info.
