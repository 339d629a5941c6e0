(** The records of a storage stay complete throughout its life (C10, C25, C26). *)
From Verif Require Import Api Spec Life Env PfStrs PfTyped PfWp PfHist PfEmits PfUpdate PfDevices PfInfo.
Open Scope prog_scope.
Open Scope list_scope.

(** ** The invariant in terms of keys *)
Lemma recorded_k me d j x :
  recorded me d j x <-> exists l m o, hns d j x l /\ hact d j x m /\ hlab d j x o /\
    (~ mine me d j x -> forall n, n ∈ l -> is_Some (dget n m)).
Proof.
  split.
  - intros ((l & Hl) & (m & Hm) & (o & Ho) & H). exists l, m, o. split; [done|]. split; [done|]. split; [done|].
    intros Hf n Hn. destruct (H Hf n) as (b & m' & Hm' & Hb); [by exists l|].
    rewrite (hact_fun d j x m m'); [by eexists|done|done].
  - intros (l & m & o & Hl & Hm & Ho & H). split; [by exists l|]. split; [by exists m|]. split; [by exists o|].
    intros Hf n Hn. apply (supports_ns _ _ _ _ _ Hl) in Hn. destruct (H Hf n Hn) as [b Hb]. exists b, m. done.
Qed.

Lemma item_inj i i' : item_in [] i -> item_in [] i' -> item_key i = item_key i' -> i = i'.
Proof. apply item_key_inj. by intros n n' Hn%elem_of_nil. Qed.

Section inv.
  Context (me : string).
  Notation J := (sound me).

  Lemma J_list d j : J d -> exists ids, stored_ids j d ids.
  Proof.
    intros [HT _]. unfold stored_ids. destruct (d !! k_list j) as [v|] eqn:E; [|by exists []].
    by destruct (HT (IDeviceList j) v) as [l Hl]; [|done|exists l].
  Qed.
  Lemma J_rec d j x : J d -> known d j x -> exists l m o, hns d j x l /\ hact d j x m /\ hlab d j x o /\
    (~ mine me d j x -> forall n, n ∈ l -> is_Some (dget n m)).
  Proof. intros (_ & HR & _) Hk. by apply recorded_k, HR. Qed.
  Lemma J_level cf d j ik : J d -> exists lvl, level_of cf d j ik lvl.
  Proof.
    intros [HT _]. unfold level_of. destruct (d !! k_trust j ik) as [v|] eqn:E; [|by eexists].
    by destruct (HT (ITrust j ik) v) as [l Hl]; [|done|exists l].
  Qed.
  Lemma J_info cf d j x : J d -> known d j x -> info_ok cf j x d.
  Proof.
    intros HJ Hk. destruct (J_rec d j x HJ Hk) as (l & m & o & H1 & H2 & H3 & _). exists l, m, o.
    split; [done|]. split; [done|]. split; [done|]. split; [|intros ik; by apply J_level].
    destruct (d !! k_ik j x) as [v|] eqn:E; [right|by left]. destruct HJ as [HT _].
    destruct (HT (IIdentityKey j x) v) as (s & b & -> & Hb); [done|done|]. by exists b, s.
  Qed.

  (** Writes to labels, identity keys, trust levels and the queue. *)
  Lemma J_safe d d' : J d ->
    (forall i, item_in [] i -> d' !! item_key i = d !! item_key i \/
       match i with
       | ILabel _ _ | IIdentityKey _ _ => exists v, d' !! item_key i = Some v /\ item_type i v
       | ITrust _ _ => forall v, d' !! item_key i = Some v -> item_type i v
       | _ => False
       end) -> J d'.
  Proof.
    intros (HT & HR & HO & HK & HP) Hi.
    assert (forall j, d' !! item_key (IDeviceList j) = d !! item_key (IDeviceList j)) as El by (intros j; by destruct (Hi (IDeviceList j))).
    assert (d' !! item_key IOwnDeviceId = d !! item_key IOwnDeviceId) as Eo by (by destruct (Hi IOwnDeviceId)).
    assert (forall j x, d' !! item_key (INamespaces j x) = d !! item_key (INamespaces j x)) as En by (intros j x; by destruct (Hi (INamespaces j x))).
    assert (forall j x, d' !! item_key (IActive j x) = d !! item_key (IActive j x)) as Ea by (intros j x; by destruct (Hi (IActive j x))).
    assert (forall j x, known d' j x <-> known d j x) as Ek by (intros; unfold known, holds; by rewrite El).
    split; [|split; [|split; [|split]]].
    - intros i v Hin Hv. destruct (Hi i Hin) as [E|H]; [rewrite E in Hv; by apply HT|].
      destruct i; try done; [destruct H as (v' & H1 & H2); rewrite Hv in H1; by injection H1 as <-..|by apply H].
    - intros j x Hk. apply Ek, HR, recorded_k in Hk as (l & m & o & H1 & H2 & H3 & H4). apply recorded_k.
      assert (exists o', hlab d' j x o') as [o' Ho'].
      { destruct (Hi (ILabel j x) Logic.I) as [E|(v & E & o' & Ho)]; [exists o; by eapply hk_eq|]. by exists o', v. }
      exists l, m, o'. split; [eapply hk_eq; [apply En|done]|]. split; [eapply hk_eq; [apply Ea|done]|]. split; [done|].
      intros Hf. apply H4. unfold mine, has_own in *. by rewrite Eo in Hf.
    - unfold has_own. by rewrite Eo.
    - unfold has_own. rewrite Eo. intros id Hid. apply HK in Hid as [H1 (ik & s & H2 & H3)]. split; [by apply Ek|].
      destruct (Hi (IIdentityKey me id) Logic.I) as [E|(v & E & s' & b & -> & Hb)].
      + exists ik, s. by rewrite E.
      + by exists b, s'.
    - unfold ikp_wf, has_ikp in *.
      assert (d' !! item_key IKeyPairIsSeed = d !! item_key IKeyPairIsSeed) as -> by (by destruct (Hi IKeyPairIsSeed)).
      by assert (d' !! item_key IKeyPairKey = d !! item_key IKeyPairKey) as -> by (by destruct (Hi IKeyPairKey)).
  Qed.

  Lemma J_insert d i v : J d -> match i with ILabel _ _ | IIdentityKey _ _ | ITrust _ _ => item_type i v | _ => False end ->
    J (<[item_key i := v]> d).
  Proof.
    intros HJ Hi. eapply J_safe; [exact HJ|]. intros i' Hi'. destruct (decide (item_key i = item_key i')) as [E|E].
    - apply item_inj in E as <-; [|by destruct i|done]. right. rewrite lookup_insert.
      destruct i; try done; [by eexists|by eexists|by intros ? [= <-]].
    - left. by rewrite lookup_insert_ne.
  Qed.
  Lemma J_delete_trust d j ik : J d -> J (delete (k_trust j ik) d).
  Proof.
    intros HJ. eapply J_safe; [exact HJ|]. intros i' Hi'. change (k_trust j ik) with (item_key (ITrust j ik)).
    destruct (decide (item_key (ITrust j ik) = item_key i')) as [E|E].
    - apply item_inj in E as <-; [|done..]. right. by rewrite lookup_delete.
    - left. by rewrite lookup_delete_ne.
  Qed.
  Definition qkey (k : string) : Prop := (exists n, k = k_queue n) \/ exists n j, k = k_queue_jid n j.
  Lemma qkey_ne k i : qkey k -> item_in [] i -> k <> item_key i.
  Proof.
    intros [(n & ->)|(n & j & ->)] Hi E.
    - symmetry in E. apply (core_inj i (IQueue n)) in E as ->; [by apply elem_of_nil in Hi|done].
    - symmetry in E. apply (core_inj i (IQueueDevices n j)) in E as ->; [by apply elem_of_nil in Hi|done].
  Qed.
  Lemma J_queue d k v : J d -> qkey k -> J (<[k := v]> d).
  Proof. intros HJ Hk. eapply J_safe; [exact HJ|]. intros i Hi. left. apply lookup_insert_ne. by apply qkey_ne. Qed.
  Lemma J_unqueue d k : J d -> qkey k -> J (delete k d).
  Proof. intros HJ Hk. eapply J_safe; [exact HJ|]. intros i Hi. left. apply lookup_delete_ne. by apply qkey_ne. Qed.

  (** ** Device list updates *)
  Lemma J_update ns jid dl old d d' : J d -> stored_ids jid d old ->
    (forall dl0 : list (Z * option string), rest_mid ns jid dl (set_diff (pyset (dkeys dl0)) (pyset old)) (pyset old) (set_union (pyset (dkeys dl0)) (pyset old)) d d' ->
    J d').
  Proof.
    intros HJ Hold dl0 (F & HN & HO & HL). pose proof HJ as (HT & HR & HOw & HK & HP).
    set (nds := set_diff _ _) in *.
    assert (forall i, item_in [] i -> ~ list_item jid i -> d' !! item_key i = d !! item_key i) as Hfr.
    { intros i Hi Hni. by eapply item_frame. }
    assert (d' !! item_key IOwnDeviceId = d !! item_key IOwnDeviceId) as Eo.
    { apply Hfr; [done|]. intros [|(x & [|[|]])]; done. }
    assert (forall j x, mine me d' j x <-> mine me d j x) as Em by (intros j x; unfold mine, has_own; by rewrite Eo).
    assert (forall x, x ∈ nds ++ pyset old \/ (d' !! k_ns jid x = d !! k_ns jid x /\ d' !! k_active jid x = d !! k_active jid x /\
      d' !! k_label jid x = d !! k_label jid x)) as Hdev.
    { intros x. destruct (decide (x ∈ nds ++ pyset old)) as [|Hx]; [by left|right].
      assert (forall y, y ∈ nds ++ pyset old -> y <> x) as Hne by (by intros y Hy ->).
      split; [|split]; (apply F; [kneq|intros y Hy; apply Hne in Hy; repeat split; kneq]). }
    assert (forall x, x ∈ nds ++ pyset old -> x ∈ old \/ x ∈ nds) as Hcase.
    { intros x. rewrite elem_of_app, elem_pyset. tauto. }
    assert (exists ids, stored_ids jid d' ids /\ (forall x, x ∈ old -> x ∈ ids) /\
      forall x, x ∈ ids -> x ∈ old \/ x ∈ nds /\ new_fin ns jid dl x d') as (ids & Hids & Hsub & Hfin).
    { destruct HL as [HL|(_ & l & Hl & HL & Hf)].
      - exists old. split; [unfold stored_ids in *; by rewrite HL|]. auto.
      - exists l. split; [unfold stored_ids; rewrite HL; apply is_ints|].
        split; [intros x Hx; by rewrite Hl, elem_union, !elem_pyset; right|].
        intros x Hx. destruct (decide (x ∈ old)); [by left|right].
        assert (x ∈ nds) as Hn.
        { rewrite Hl, elem_union, !elem_pyset in Hx. unfold nds. rewrite elem_diff, !elem_pyset. tauto. }
        auto. }
    split; [|split; [|split; [|split]]].
    - (* types *)
      intros i v Hi Hv. destruct i as [| | |j|j x|j x|j x|j x|j ik|n|n j];
        try (apply HT; [done|]; rewrite Hfr in Hv; [done|done|by intros [|(? & [|[|]])]]).
      + destruct (decide (j = jid)) as [->|]; [|apply HT; [done|]; rewrite Hfr in Hv; [done|done|intros [[=]|(? & [|[|]])]; done]].
        destruct HL as [HL|(_ & l & _ & HL & _)]; change (item_key (IDeviceList jid)) with (k_list jid) in *.
        * rewrite HL in Hv. by apply (HT (IDeviceList jid)).
        * rewrite HL in Hv. injection Hv as <-. exists l. apply is_ints.
      + destruct (decide (j = jid)) as [->|]; [|apply HT; [done|]; rewrite Hfr in Hv; [done|done|intros [|(? & [[=]|[|]])]; done]].
        change (item_key (INamespaces jid x)) with (k_ns jid x) in *.
        destruct (Hdev x) as [Hx|(E & _)]; [|rewrite E in Hv; by apply (HT (INamespaces jid x))].
        destruct (Hcase x Hx) as [Hx'|Hx'].
        * destruct (HO x) as ([E|(_ & l & l' & _ & (v' & H1 & H2) & _)] & _); [by apply elem_pyset| |].
          -- rewrite E in Hv. by apply (HT (INamespaces jid x)).
          -- rewrite Hv in H1. injection H1 as <-. by exists l'.
        * destruct (HN x Hx') as ([E|E] & _); rewrite E in Hv; [by apply (HT (INamespaces jid x))|].
          injection Hv as <-. eexists. apply is_strs.
      + destruct (decide (j = jid)) as [->|]; [|apply HT; [done|]; rewrite Hfr in Hv; [done|done|intros [|(? & [|[[=]|]])]; done]].
        change (item_key (IActive jid x)) with (k_active jid x) in *.
        destruct (Hdev x) as [Hx|(_ & E & _)]; [|rewrite E in Hv; by apply (HT (IActive jid x))].
        destruct (Hcase x Hx) as [Hx'|Hx'].
        * destruct (HO x) as (_ & [E|(l & m & m' & _ & _ & (v' & H1 & H2) & _)] & _); [by apply elem_pyset| |].
          -- rewrite E in Hv. by apply (HT (IActive jid x)).
          -- rewrite Hv in H1. injection H1 as <-. by exists m'.
        * destruct (HN x Hx') as (_ & [E|E] & _); rewrite E in Hv; [by apply (HT (IActive jid x))|].
          injection Hv as <-. eexists. apply is_bools.
      + destruct (decide (j = jid)) as [->|]; [|apply HT; [done|]; rewrite Hfr in Hv; [done|done|intros [|(? & [|[|[=]]])]; done]].
        change (item_key (ILabel jid x)) with (k_label jid x) in *.
        destruct (Hdev x) as [Hx|(_ & _ & E)]; [|rewrite E in Hv; by apply (HT (ILabel jid x))].
        destruct (Hcase x Hx) as [Hx'|Hx'].
        * destruct (HO x) as (_ & _ & [E|(s & _ & (v' & H1 & H2))]); [by apply elem_pyset| |].
          -- rewrite E in Hv. by apply (HT (ILabel jid x)).
          -- rewrite Hv in H1. injection H1 as <-. by exists (Some s).
        * destruct (HN x Hx') as (_ & _ & [E|(lab & _ & E)]); rewrite E in Hv; [by apply (HT (ILabel jid x))|].
          injection Hv as <-. exists lab. apply is_label.
    - (* records *)
      intros j x Hk. apply recorded_k. destruct (decide (j = jid)) as [->|Hj].
      2:{ assert (known d j x) as Hk0.
          { unfold known, holds in *. rewrite Hfr in Hk; [done|done|]. intros [[=]|(? & [|[|]])]; done. }
          destruct (J_rec d j x HJ Hk0) as (l & m & o & H1 & H2 & H3 & H4). exists l, m, o.
          split; [eapply hk_eq; [|exact H1]; apply (Hfr (INamespaces j x)); [done|]; intros [|(? & [[=]|[|]])]; done|].
          split; [eapply hk_eq; [|exact H2]; apply (Hfr (IActive j x)); [done|]; intros [|(? & [|[[=]|]])]; done|].
          split; [eapply hk_eq; [|exact H3]; apply (Hfr (ILabel j x)); [done|]; intros [|(? & [|[|[=]]])]; done|].
          by rewrite Em. }
      apply (known_ids _ _ _ _ Hids) in Hk. destruct (Hfin x Hk) as [Ho|[Hn (N1 & N2 & lab & _ & N3)]].
      2:{ exists [ns], [(ns, true)], lab. split; [eexists; split; [exact N1|apply is_strs]|].
          split; [eexists; split; [exact N2|apply is_bools]|]. split; [eexists; split; [exact N3|apply is_label]|].
          intros _ n ->%elem_of_list_singleton. simpl. rewrite decide_True by done. by eexists. }
      assert (known d jid x) as Hk0 by (by apply (known_ids _ _ _ _ Hold)).
      destruct (J_rec d jid x HJ Hk0) as (l & m & o & H1 & H2 & H3 & H4). rewrite <- Em in H4.
      destruct (HO x) as (O1 & O2 & O3); [by apply elem_pyset|].
      assert (exists m1, hact d' jid x m1 /\ forall n, is_Some (dget n m) -> is_Some (dget n m1)) as (m1 & A1 & A2).
      { destruct O2 as [E|(l1 & m1 & m2 & B1 & B2 & B3 & B4 & B5)]; [exists m; split; [by eapply hk_eq|done]|].
        exists m2. split; [done|]. intros n Hn. rewrite B5. rewrite (hact_fun _ _ _ _ _ B2 H2).
        destruct (decide (n = ns)); [by eexists|done]. }
      assert (exists o1, hlab d' jid x o1) as [o1 L1].
      { destruct O3 as [E|(s & _ & B)]; [exists o; by eapply hk_eq|by exists (Some s)]. }
      destruct O1 as [E|(_ & l1 & l2 & B1 & B2 & B3 & m2 & B4 & B5)].
      + exists l, m1, o1. split; [by eapply hk_eq|]. split; [done|]. split; [done|]. intros Hf n Hn. apply A2. auto.
      + exists l2, m1, o1. split; [done|]. split; [done|]. split; [done|]. intros Hf n Hn.
        apply B3 in Hn as [Hn| ->]; [apply A2, H4; [done|]; by rewrite <- (hns_fun _ _ _ _ _ B1 H1)|].
        by rewrite <- (hact_fun _ _ _ _ _ B4 A1).
    - unfold has_own. by rewrite Eo.
    - unfold has_own. rewrite Eo. intros id Hid. apply HK in Hid as [Hk (ik & s & H1 & H2)]. split.
      + destruct (decide (me = jid)) as [->|Hj].
        * apply (known_ids _ _ _ _ Hids), Hsub. by apply (known_ids _ _ _ _ Hold).
        * unfold known, holds in *. rewrite Hfr; [done|done|]. intros [[=]|(? & [|[|]])]; done.
      + exists ik, s. split; [|done]. rewrite Hfr; [done|done|]. intros [|(? & [|[|]])]; done.
    - unfold ikp_wf, has_ikp in *. rewrite (Hfr IKeyPairIsSeed), (Hfr IKeyPairKey); [done|done|by intros [|(? & [|[|]])]|done|by intros [|(? & [|[|]])]].
  Qed.

  (** ** Information queries *)
  Lemma J_info_mid jid xs ids d d' : J d -> stored_ids jid d ids -> (forall x, x ∈ xs -> x ∈ ids) -> i_frame jid xs d d' -> J d'.
  Proof.
    intros HJ Hids Hsub HF. pose proof HJ as (HT & HR & HOw & HK & HP). destruct (HF) as [F U].
    assert (forall i, item_in [] i -> (forall x, i <> INamespaces jid x /\ i <> IIdentityKey jid x) -> d' !! item_key i = d !! item_key i) as Hfr.
    { intros i Hi Hne. apply F. intros x _. destruct (Hne x). split.
      - intros E. by apply (item_inj i (INamespaces jid x)) in E.
      - intros E. by apply (item_inj i (IIdentityKey jid x)) in E. }
    assert (forall x, ns_upd jid x d d' /\ ik_upd jid x d d') as HU.
    { intros x. destruct (decide (x ∈ xs)) as [Hx|Hx]; [by apply U|]. split; left; [by eapply frame_ns|by eapply frame_ik]. }
    assert (forall j x, d' !! item_key (IActive j x) = d !! item_key (IActive j x)) as Ea by (intros; by apply Hfr).
    assert (forall j x, d' !! item_key (ILabel j x) = d !! item_key (ILabel j x)) as Elb by (intros; by apply Hfr).
    assert (forall j x, known d' j x <-> known d j x) as Ek by (intros; unfold known, holds; by rewrite Hfr).
    assert (d' !! item_key IOwnDeviceId = d !! item_key IOwnDeviceId) as Eo by (by apply Hfr).
    split; [|split; [|split; [|split]]].
    - intros i v Hi Hv. destruct i as [| | |j|j x|j x|j x|j x|j ik|n|n j];
        try (apply HT; [done|]; rewrite Hfr in Hv; done).
      + destruct (decide (j = jid)) as [->|]; [|apply HT; [done|]; rewrite Hfr in Hv; [done|done|split; congruence]].
        destruct (HU x) as [[E|(l & m & l' & _ & _ & E & _)] _]; change (item_key (INamespaces jid x)) with (k_ns jid x) in *; rewrite E in Hv.
        * by apply (HT (INamespaces jid x)).
        * injection Hv as <-. exists l'. apply is_strs.
      + destruct (decide (j = jid)) as [->|]; [|apply HT; [done|]; rewrite Hfr in Hv; [done|done|split; congruence]].
        destruct (HU x) as [_ [E|(_ & ik & E)]]; change (item_key (IIdentityKey jid x)) with (k_ik jid x) in *; rewrite E in Hv.
        * by apply (HT (IIdentityKey jid x)).
        * injection Hv as <-. exists (b64enc ik), ik. by rewrite b64_roundtrip.
    - intros j x Hk. apply Ek in Hk. apply recorded_k. destruct (J_rec d j x HJ Hk) as (l & m & o & H1 & H2 & H3 & H4).
      assert (hact d' j x m) as H2' by (eapply hk_eq; [apply Ea|done]).
      assert (hlab d' j x o) as H3' by (eapply hk_eq; [apply Elb|done]).
      assert (mine me d' j x <-> mine me d j x) as Em by (unfold mine, has_own; by rewrite Eo).
      assert (d' !! k_ns j x = d !! k_ns j x \/ exists l', hns d' j x l' /\ forall n, n ∈ l' -> n ∈ l) as [E|(l' & E & Hl')].
      { destruct (decide (j = jid)) as [->|]; [|left; apply (Hfr (INamespaces j x)); [done|split; congruence]].
        destruct (HU x) as [[E|(l1 & m1 & l' & B1 & B2 & B3 & B4)] _]; [by left|right]. exists l'.
        split; [eexists; split; [exact B3|apply is_strs]|]. intros n Hn. apply B4 in Hn as [Hn _].
        by rewrite <- (hns_fun _ _ _ _ _ B1 H1). }
      + exists l, m, o. split; [by eapply hk_eq|]. rewrite Em. done.
      + exists l', m, o. rewrite Em. split; [done|]. split; [done|]. split; [done|]. intros Hf n Hn. apply H4; auto.
    - unfold has_own. by rewrite Eo.
    - unfold has_own. rewrite Eo. intros id Hid. apply HK in Hid as [Hk (ik & s & H1 & H2)]. split; [by apply Ek|].
      exists ik, s. split; [|done]. destruct (decide (me = jid)) as [->|]; [|rewrite Hfr; [done|done|split; congruence]].
      change (item_key (IIdentityKey jid id)) with (k_ik jid id) in *.
      destruct (HU id) as [_ [E|(E & _)]]; congruence.
    - unfold ikp_wf, has_ikp in *. by rewrite (Hfr IKeyPairIsSeed), (Hfr IKeyPairKey).
  Qed.
End inv.
