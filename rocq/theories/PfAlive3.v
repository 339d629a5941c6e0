(** [create], [purge_bare_jid] and whole lives (C10, C25, C26). *)
From Verif Require Import Api Spec Life Env PfStrs PfTyped PfWp PfHist PfEmits PfUpdate PfDevices PfInfo PfPurge PfLife PfAlive PfAlive2.
Open Scope prog_scope.
Open Scope list_scope.

(** ** The identity key pair *)
Lemma ikp_frame w :
  wp base (fun w' => forall k, k <> k_ikp_seed -> k <> k_ikp_key -> w_disk w' !! k = w_disk w !! k) ikp_get (fun _ _ => True) w.
Proof.
  set (I := fun w' : world => forall k, k <> k_ikp_seed -> k <> k_ikp_key -> w_disk w' !! k = w_disk w !! k).
  assert (I w) as H0 by done.
  assert (forall k v w', I w' -> k = k_ikp_seed \/ k = k_ikp_key -> wp base I (s_store k v) (fun _ w'' => I w'') w') as Hst.
  { intros k v w' HI Hk.
    assert (forall r, I (w_apply w' (SStore k v) r)) as HW.
    { intros [[]|e]; [|done]. intros k' H1 H2. simpl. rewrite lookup_insert_ne; [by apply HI|]. destruct Hk; congruence. }
    apply wp_store; auto. }
  assert (forall w', I w' -> wp base I ikp_generate (fun _ _ => True) w') as Hgen.
  { intros w' HI. unfold ikp_generate. apply wp_bind, wp_randbytes; [done|]. intros b _.
    apply wp_bind. eapply wp_conseq; [apply Hst; auto|]. intros [[]|e] w1 H1; [|done].
    apply wp_bind. unfold store_bytes. eapply wp_conseq; [apply Hst; auto|]. intros [[]|e] w2 H2; [|done]. by apply wp_ret. }
  unfold ikp_get. apply wp_bind, wp_load; [done|done|]. destruct (w_disk w !! k_ikp_seed) as [v|]; [|by apply Hgen].
  destruct (or_type_error (as_bool v)) as [b|e]; [|done].
  apply wp_bind. unfold load_bytes. apply wp_load; [done|done|]. destruct (w_disk w !! k_ikp_key) as [v'|]; [|by apply Hgen].
  match goal with |- match ?c with _ => _ end => destruct c as [key|e] end; [by apply wp_ret|done].
Qed.
Lemma J_ikp me d d' : sound me d -> ikp_wf d' -> (forall k, k <> k_ikp_seed -> k <> k_ikp_key -> d' !! k = d !! k) -> sound me d'.
Proof.
  intros (HT & HR & HO & HK & HP) Hwf HF.
  assert (forall i, item_in [] i -> i <> IKeyPairIsSeed -> i <> IKeyPairKey -> d' !! item_key i = d !! item_key i) as HF'.
  { intros i Hi H1 H2. apply HF.
    - change k_ikp_seed with (item_key IKeyPairIsSeed). intros E. symmetry in E. apply core_inj in E; [by subst i|done].
    - change k_ikp_key with (item_key IKeyPairKey). intros E. symmetry in E. apply core_inj in E; [by subst i|done]. }
  assert (forall id, has_own id d' <-> has_own id d) as Eo by (intros id; unfold has_own; by rewrite HF').
  assert (forall j x, known d' j x <-> known d j x) as Ek by (intros; unfold known, holds; by rewrite HF').
  split; [|split; [|split; [|split]]].
  - intros i v Hi Hv.
    assert ({i = IKeyPairIsSeed} + {i = IKeyPairKey} + {i <> IKeyPairIsSeed /\ i <> IKeyPairKey}) as [[->| ->]|[H1 H2]].
    { destruct i; auto. }
    + apply ikp_wf_k in Hwf as [[H1 H2]|[(b & H1 & H2)|(k & Hk)]].
      * change (d' !! k_ikp_seed = Some v) in Hv. congruence.
      * change (d' !! k_ikp_seed = Some v) in Hv. rewrite Hv in H1. injection H1 as ->. exists b. constructor.
      * destruct Hk as [H1 _]. rewrite Hv in H1. injection H1 as ->. exists (ikp_flag k). constructor.
    + apply ikp_wf_k in Hwf as [[H1 H2]|[(b & H1 & H2)|(k & Hk)]].
      * change (d' !! k_ikp_key = Some v) in Hv. congruence.
      * change (d' !! k_ikp_key = Some v) in Hv. congruence.
      * destruct Hk as [_ (s & H1 & H2)]. rewrite Hv in H1. injection H1 as ->. by exists s, (ikp_bytes k).
    + rewrite HF' in Hv by done. by apply HT.
  - intros j x Hk. apply Ek, HR, recorded_k in Hk as (l & m & o & H1 & H2 & H3 & H4). apply recorded_k.
    exists l, m, o. split; [eapply hk_eq; [|exact H1]; by apply (HF' (INamespaces j x))|].
    split; [eapply hk_eq; [|exact H2]; by apply (HF' (IActive j x))|]. split; [eapply hk_eq; [|exact H3]; by apply (HF' (ILabel j x))|].
    intros Hf. apply H4. intros [? Hm]. apply Hf. split; [done|]. intros id. rewrite Eo. apply Hm.
  - rewrite HF' by done. destruct HO as [HO|[id Hid]]; [by left|]. right. exists id. by apply Eo.
  - intros id Hid. apply Eo, HK in Hid as [Hk (ik & s & H1 & H2)]. split; [by apply Ek|]. exists ik, s. by rewrite HF'.
  - done.
Qed.
Lemma ikp_sound me w : sound me (w_disk w) ->
  wp base (fun w' => sound me (w_disk w') /\ w_disk w' !! k_own = w_disk w !! k_own) ikp_get
    (fun o w' => match o with Val k => has_ikp k (w_disk w') | Exn e => ext_exn e = true end) w.
Proof.
  intros HJ. pose proof HJ as (_ & _ & _ & _ & Hwf).
  eapply wp_mono; [exact (wp_and base _ _ _ _ _ _ (ikp_wp w Hwf) (ikp_frame w))| |].
  - intros w' [(H1 & _) H2]. split; [by eapply J_ikp|]. by apply H2.
  - intros [k|e] w' [H _]; [by destruct H|done].
Qed.
Lemma good_ikp me dev (bad : exn -> Prop) : (forall e, bad e -> ext_exn e = false) -> good me dev bad ikp_get.
Proof.
  intros Hb w [HJ HO]. eapply wp_mono; [apply wp_inv; [by apply (ikp_sound me)|done]| |].
  - intros w' [H1 H2]. split; [done|]. unfold has_own. change (item_key IOwnDeviceId) with k_own. by rewrite H2.
  - intros [k|e] w' [[H1 H2] H3]; (split; [split; [done|]; unfold has_own; change (item_key IOwnDeviceId) with k_own; by rewrite H2|]);
      [done|]. by eapply ext_fine.
Qed.

(** ** The first run *)
Section boot.
  Context (me : string).
  Lemma mine_boot d x : d !! k_own = None -> mine me d me x.
  Proof.
    intros H. split; [done|]. intros id Hid. unfold has_own in Hid. change (item_key IOwnDeviceId) with k_own in Hid. congruence.
  Qed.
  (** while there is no own device id, records of own devices may be written freely *)
  Lemma J_boot_insert d x i v : sound me d -> d !! k_own = None -> i = INamespaces me x \/ i = IActive me x -> item_type i v ->
    sound me (<[item_key i := v]> d).
  Proof.
    intros HJ HO Hi Hv. pose proof HJ as (HT & HR & HOw & HK & HP).
    assert (item_in [] i) as Hin by (destruct Hi as [->| ->]; done).
    assert (forall i', i' <> i -> <[item_key i := v]> d !! item_key i' = d !! item_key i') as Hne.
    { intros i' Hi'. apply lookup_insert_ne. intros E. apply core_inj in E; [|done]. congruence. }
    assert (i <> IOwnDeviceId /\ i <> IKeyPairIsSeed /\ i <> IKeyPairKey /\ (forall j, i <> IDeviceList j) /\
      (forall j x, i <> ILabel j x) /\ forall j x, i <> IIdentityKey j x) as (N1 & N2 & N3 & N4 & N5 & N6) by (destruct Hi as [->| ->]; done).
    assert (<[item_key i := v]> d !! k_own = None) as HO'.
    { change k_own with (item_key IOwnDeviceId). rewrite Hne; [done|congruence]. }
    split; [|split; [|split; [|split]]].
    - intros i' v' Hi' Hv'. destruct (decide (item_key i = item_key i')) as [E|E].
      + apply core_inj in E as <-; [|done]. rewrite lookup_insert in Hv'. by injection Hv' as <-.
      + rewrite lookup_insert_ne in Hv' by done. by apply HT.
    - intros j y Hk.
      assert (known d j y) as Hk0 by (unfold known, holds in *; rewrite Hne in Hk; [done|]; intros E; by eapply N4).
      apply HR, recorded_k in Hk0 as (l & m & o & H1 & H2 & H3 & H4).
      assert (hlab (<[item_key i := v]> d) j y o) as H3'.
      { eapply hk_eq; [|exact H3]. apply (Hne (ILabel j y)). intros E. by eapply N5. }
      apply recorded_k. destruct (decide (j = me)) as [->|Hd].
      + pose proof (mine_boot _ y HO') as Hm. destruct (decide (y = x)) as [->|Hyx].
        * destruct Hi as [->| ->].
          -- destruct Hv as [l' Hl']. exists l', m, o. split; [exists v; split; [apply lookup_insert|done]|].
             split; [eapply hk_eq; [|exact H2]; by apply (Hne (IActive me x))|]. done.
          -- destruct Hv as [m' Hm']. exists l, m', o. split; [eapply hk_eq; [|exact H1]; by apply (Hne (INamespaces me x))|].
             split; [exists v; split; [apply lookup_insert|done]|]. done.
        * exists l, m, o. split; [eapply hk_eq; [|exact H1]; apply (Hne (INamespaces me y)); destruct Hi as [->| ->]; congruence|].
          split; [eapply hk_eq; [|exact H2]; apply (Hne (IActive me y)); destruct Hi as [->| ->]; congruence|]. done.
      + exists l, m, o. split; [eapply hk_eq; [|exact H1]; apply (Hne (INamespaces j y)); destruct Hi as [->| ->]; congruence|].
        split; [eapply hk_eq; [|exact H2]; apply (Hne (IActive j y)); destruct Hi as [->| ->]; congruence|]. split; [done|].
        intros _. apply H4. intros [? _]. done.
    - left. exact HO'.
    - intros id Hid. unfold has_own in Hid. change (item_key IOwnDeviceId) with k_own in Hid. congruence.
    - unfold ikp_wf, has_ikp in *. by rewrite !Hne by congruence.
  Qed.
  Lemma J_boot_list d x l m o : sound me d -> d !! k_own = None -> hns d me x l -> hact d me x m -> hlab d me x o ->
    sound me (<[k_list me := j_ints [x]]> d).
  Proof.
    intros HJ HO Hl Hm Hb. pose proof HJ as (HT & HR & HOw & HK & HP).
    set (i := IDeviceList me). change (k_list me) with (item_key i).
    assert (item_in [] i) as Hin by done.
    assert (forall i', i' <> i -> <[item_key i := j_ints [x]]> d !! item_key i' = d !! item_key i') as Hne.
    { intros i' Hi'. apply lookup_insert_ne. intros E. apply core_inj in E; [|done]. congruence. }
    set (d' := <[item_key i := _]> d) in *.
    assert (d' !! k_own = None) as HO' by (change k_own with (item_key IOwnDeviceId); by rewrite Hne).
    assert (forall j y l0 m0 o0, hns d j y l0 -> hact d j y m0 -> hlab d j y o0 -> hns d' j y l0 /\ hact d' j y m0 /\ hlab d' j y o0) as Eq.
    { intros j y l0 m0 o0 H1 H2 H3. split; [|split]; (eapply hk_eq; [|first [exact H1|exact H2|exact H3]]).
      - by apply (Hne (INamespaces j y)).
      - by apply (Hne (IActive j y)).
      - by apply (Hne (ILabel j y)). }
    split; [|split; [|split; [|split]]].
    - intros i' v' Hi' Hv'. destruct (decide (item_key i = item_key i')) as [E|E].
      + apply core_inj in E as <-; [|done]. unfold d' in Hv'. rewrite lookup_insert in Hv'. injection Hv' as <-. exists [x]. apply is_ints.
      + unfold d' in Hv'. rewrite lookup_insert_ne in Hv' by done. by apply HT.
    - intros j y Hk. apply recorded_k. destruct (decide (j = me)) as [->|Hd].
      + assert (y = x) as ->.
        { destruct Hk as (zs & (v & Hv & Ht) & Hy). unfold d' in Hv. rewrite lookup_insert in Hv. injection Hv as <-.
          assert (zs = [x]) as -> by (eapply is_list_fun; [apply is_int_fun|exact Ht|apply is_ints]).
          by apply elem_of_list_singleton in Hy. }
        destruct (Eq me x l m o) as (E1 & E2 & E3); [done..|]. exists l, m, o. split; [done|]. split; [done|]. split; [done|].
        intros Hf. by destruct Hf; apply mine_boot.
      + assert (known d j y) as Hk0 by (unfold known, holds in *; rewrite Hne in Hk; [done|]; unfold i; congruence).
        apply HR, recorded_k in Hk0 as (l0 & m0 & o0 & H1 & H2 & H3 & H4).
        destruct (Eq j y l0 m0 o0) as (E1 & E2 & E3); [done..|]. exists l0, m0, o0. split; [done|]. split; [done|]. split; [done|].
        intros _. apply H4. by intros [? _].
    - by left.
    - intros id Hid. unfold has_own in Hid. change (item_key IOwnDeviceId) with k_own in Hid. congruence.
    - unfold ikp_wf, has_ikp in *. by rewrite !Hne.
  Qed.
  Lemma J_boot_own d x : sound me d -> d !! k_own = None -> d !! k_list me = Some (j_ints [x]) -> (exists ik, keyed d me x ik) ->
    sound me (<[k_own := JInt x]> d).
  Proof.
    intros HJ HO Hlist Hik. pose proof HJ as (HT & HR & HOw & HK & HP).
    set (i := IOwnDeviceId). change k_own with (item_key i).
    assert (forall i', i' <> i -> <[item_key i := JInt x]> d !! item_key i' = d !! item_key i') as Hne.
    { intros i' Hi'. apply lookup_insert_ne. intros E. apply core_inj in E; [|done]. congruence. }
    set (d' := <[item_key i := _]> d) in *.
    assert (has_own x d') as Hx by apply lookup_insert.
    assert (forall y, known d me y <-> y = x) as Hkn.
    { intros y. split.
      - intros (zs & (v & Hv & Ht) & Hy). change (d !! k_list me = Some v) in Hv. rewrite Hlist in Hv. injection Hv as <-.
        assert (zs = [x]) as -> by (eapply is_list_fun; [apply is_int_fun|exact Ht|apply is_ints]). by apply elem_of_list_singleton in Hy.
      - intros ->. exists [x]. split; [|left]. exists (j_ints [x]). split; [done|apply is_ints]. }
    assert (forall j y, known d' j y <-> known d j y) as Ek by (intros; unfold known, holds; by rewrite Hne).
    split; [|split; [|split; [|split]]].
    - intros i' v' Hi' Hv'. destruct (decide (item_key i = item_key i')) as [E|E].
      + apply core_inj in E as <-; [|done]. unfold d' in Hv'. rewrite lookup_insert in Hv'. injection Hv' as <-. exists x. constructor.
      + unfold d' in Hv'. rewrite lookup_insert_ne in Hv' by done. by apply HT.
    - intros j y Hk. apply Ek in Hk. pose proof Hk as Hk0. apply HR, recorded_k in Hk as (l & m & o & H1 & H2 & H3 & H4).
      apply recorded_k. exists l, m, o. split; [eapply hk_eq; [|exact H1]; by apply (Hne (INamespaces j y))|].
      split; [eapply hk_eq; [|exact H2]; by apply (Hne (IActive j y))|].
      split; [eapply hk_eq; [|exact H3]; by apply (Hne (ILabel j y))|]. intros Hf. apply H4. intros [-> _]. apply Hf.
      split; [done|]. intros id Hid. apply Hkn in Hk0 as ->. unfold has_own in *. congruence.
    - right. by exists x.
    - intros id Hid. assert (id = x) as -> by (unfold has_own in *; congruence). split; [apply Ek; by apply Hkn|].
      destruct Hik as (ik & s & H1 & H2). exists ik, s. by rewrite Hne.
    - unfold ikp_wf, has_ikp in *. by rewrite !Hne.
  Qed.
End boot.
