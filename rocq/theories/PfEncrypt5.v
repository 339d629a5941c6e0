(** encrypt run on its own: what the selection and the levels have to do with the storage. *)
From Verif Require Import Api Spec Alone PfStrs PfTyped PfWp PfFrame PfHist PfEmits PfUpdate PfDevices PfInfo PfExec PfLog PfAlone PfEncrypt PfEncrypt2 PfEncrypt3 PfEncrypt4.
Open Scope prog_scope.
Open Scope list_scope.

Section base.
  Context (cf : cfg).
  (** what a looked up device has to do with the storage before ([d]) and after ([d']) *)
  Definition seen (d d' : gmap string json) (dv : device) : Prop :=
    known d (dv_jid dv) (dv_id dv) /\
    (forall n, usable dv n <-> supports d (dv_jid dv) (dv_id dv) n /\ activity d (dv_jid dv) (dv_id dv) n true) /\
    (keyed d (dv_jid dv) (dv_id dv) (dv_ik dv) \/ d !! k_ik (dv_jid dv) (dv_id dv) = None) /\
    level_of cf d' (dv_jid dv) (dv_ik dv) (dv_trust dv).
  Definition complete (d : gmap string json) (j : string) (r : list device) : Prop :=
    forall x ik, known d j x -> keyed d j x ik -> exists dv, dv ∈ r /\ dv_jid dv = j /\ dv_id dv = x.

  Lemma described_seen j ids w w' r dv : stored_ids j (w_disk w) ids -> info_mid j ids w w' ->
    info_val cf j ids w r w' -> dv ∈ r.1 -> dv_jid dv = j /\ seen (w_disk w) (w_disk w') dv.
  Proof.
    intros Hids [_ HF] (HV & _) Hdv. destruct (HV dv Hdv) as (Hx & Hj & l & H1 & H2 & H3 & H4 & H5 & H6 & H7 & H8).
    split; [done|]. unfold seen. rewrite Hj. split; [|split; [|split]].
    - by eapply known_ids.
    - intros n. unfold usable. rewrite H4. split.
      + intros [[A1 _] A2]. split; [by exists l|by exists (dv_active dv)].
      + intros [(l' & B1 & B2) (m & C1 & C2)]. assert (l' = l) as -> by (eapply hns_fun; eassumption).
        assert (m = dv_active dv) as -> by (eapply hact_fun; eassumption). split; [|done]. split; [done|].
        apply dmem_keys. unfold dmem. apply bool_decide_eq_true. by exists true.
    - destruct H7 as [H7|H7]; [left|by right]. destruct H6 as (s & A & B). exists s. by rewrite <- H7 in A.
    - unfold level_of in *. by rewrite (frame_trust _ _ _ _ _ HF).
  Qed.
  Lemma info_complete j ids w w' r : stored_ids j (w_disk w) ids -> info_val cf j ids w r w' -> complete (w_disk w) j r.1.
  Proof.
    intros Hids (HV & _ & HC & _) x ik Hk (s & Hs & _). assert (x ∈ ids) as Hx by (by eapply known_ids).
    destruct (HC x Hx) as [(dv & Hdv & E)|[Hn _]].
    - exists dv. split; [done|]. split; [|done]. by destruct (HV dv Hdv) as (_ & ? & _).
    - exfalso. change (item_key (IIdentityKey j x)) with (k_ik j x) in Hs. congruence.
  Qed.

  (** ** Several accounts *)
  Lemma mid_other j ids w w' k : info_mid j ids w w' -> (forall x, k <> k_ns j x /\ k <> k_ik j x) -> w_disk w' !! k = w_disk w !! k.
  Proof. intros [_ [F _]] Hk. apply F. auto. Qed.
  Lemma seen_before j ids w w' d' dv : info_mid j ids w w' -> dv_jid dv <> j -> seen (w_disk w') d' dv -> seen (w_disk w) d' dv.
  Proof.
    intros HM Hj (H1 & H2 & H3 & H4).
    assert (forall k, (forall x, k <> k_ns j x /\ k <> k_ik j x) -> w_disk w' !! k = w_disk w !! k) as E by (intros k; by eapply mid_other).
    set (jd := dv_jid dv) in *. set (x := dv_id dv) in *.
    assert (w_disk w' !! k_list jd = w_disk w !! k_list jd) as E1 by (apply E; split; kneq).
    assert (w_disk w' !! k_ns jd x = w_disk w !! k_ns jd x) as E2 by (apply E; split; kneq).
    assert (w_disk w' !! k_active jd x = w_disk w !! k_active jd x) as E3 by (apply E; split; kneq).
    assert (w_disk w' !! k_ik jd x = w_disk w !! k_ik jd x) as E4 by (apply E; split; kneq).
    split; [|split; [|split]]; [| | |done].
    - destruct H1 as (zs & (v & A & B) & C). exists zs. split; [|done]. exists v. split; [|done].
      change (w_disk w !! k_list jd = Some v). by rewrite <- E1.
    - intros n. rewrite H2. unfold supports, activity, holds. fold jd x.
      change (item_key (INamespaces jd x)) with (k_ns jd x). change (item_key (IActive jd x)) with (k_active jd x). by rewrite E2, E3.
    - fold jd x. rewrite <- E4. destruct H3 as [H3|H3]; [left|by right]. unfold keyed in *. fold jd x in H3.
      change (item_key (IIdentityKey jd x)) with (k_ik jd x) in *. by rewrite <- E4.
  Qed.
  Lemma complete_before j ids w w' j' r : info_mid j ids w w' -> j' <> j -> complete (w_disk w') j' r -> complete (w_disk w) j' r.
  Proof.
    intros HM Hj HC x ik H1 H2.
    assert (forall k, (forall x, k <> k_ns j x /\ k <> k_ik j x) -> w_disk w' !! k = w_disk w !! k) as E by (intros k; by eapply mid_other).
    apply (HC x ik).
    - unfold known, holds in *. change (item_key (IDeviceList j')) with (k_list j') in *. rewrite E; [done|]. split; kneq.
    - unfold keyed in *. change (item_key (IIdentityKey j' x)) with (k_ik j' x) in *. rewrite E; [done|]. split; kneq.
  Qed.
  Definition from_download (w' : world) (t : list device * list bundle) : Prop :=
    forall b, b ∈ t.2 -> exists dv ns, dv ∈ t.1 /\ b_ik b = dv_ik dv /\ EvDownloadBundle ns (dv_jid dv) (dv_id dv) (Val b) ∈ w_log w'.
  Lemma infos_exec js w tmp w' : exec base (map_prog (get_device_information_ cf) js) w (Val tmp) w' -> NoDup js ->
    Forall2 (fun j t => Forall (fun dv => dv_jid dv = j /\ seen (w_disk w) (w_disk w') dv) t.1 /\ complete (w_disk w) j t.1 /\ from_download w' t) js tmp /\
    (exists evs, w_log w' = evs ++ w_log w) /\
    (forall j ik, w_disk w' !! k_trust j ik = w_disk w !! k_trust j ik).
  Proof.
    revert w tmp. induction js as [|j js IH]; intros w tmp H Hnd; cbn [map_prog] in H.
    - destruct H as [[= ->] ->]. split; [constructor|]. split; [by exists []|done].
    - apply exec_bind in H as [(t & w1 & H1 & H2)|(e & _ & [=])]. apply exec_bind in H2 as [(tmp' & w2 & H2 & H3)|(e & _ & [=])].
      destruct H3 as [[= ->] ->]. apply NoDup_cons in Hnd as [Hj Hnd]. apply info_exec in H1 as (ids & Hids & HM & HV).
      destruct (IH _ _ H2 Hnd) as (HF & (evs & El) & Ht).
      assert (forall j' ik, w_disk w1 !! k_trust j' ik = w_disk w !! k_trust j' ik) as Ht1.
      { intros j' ik. eapply mid_other; [exact HM|]. intros x. split; kneq. }
      pose proof HM as [(_ & _ & evs1 & El1) _].
      split; [|split; [|intros; by rewrite Ht, Ht1]].
      + constructor.
        * split; [|split; [by eapply info_complete|]].
          -- apply Forall_forall. intros dv Hdv. destruct (described_seen j ids w w1 t dv Hids HM HV Hdv) as (E & S1 & S2 & S3 & S4).
             split; [done|]. split; [done|]. split; [done|]. split; [done|]. unfold level_of. by rewrite Ht.
          -- intros b Hb. destruct HV as (HV1 & _ & _ & HV). destruct (HV b Hb) as (dv & ns & Hdv & E & Hin). exists dv, ns. split; [done|]. split; [done|].
             destruct (HV1 dv Hdv) as (_ & Ej & _). rewrite Ej, El. apply elem_of_app. by right.
        * assert (Forall (fun j' => j' <> j) js) as Hne by (apply Forall_forall; intros j' Hj'; congruence). clear -HF HM Hne.
          induction HF as [|j' t' js tmp [A1 [A2 A3]] _ IH]; [constructor|]. apply Forall_cons in Hne as [Hne1 Hne]. constructor; [|auto].
          split; [|split; [by eapply complete_before|done]]. eapply Forall_impl; [exact A1|]. intros dv [E Hs]. split; [done|]. eapply seen_before; [exact HM|by rewrite E|done].
      + exists (evs ++ evs1). by rewrite El, El1, app_assoc.
  Qed.
End base.

Section baseinst.
  Context (P : world -> forall c, resp c -> Prop) (HP : forall w c r, P w c r -> distinct_backends w c r) (cf : cfg).
  Context (mtd : list device -> option string -> api unit) (ident : option string) (pt : list (string * bytes))
    (priority : option (list string)) (bare_jids : list string).
  Notation jids := (all_jids cf bare_jids).
  Notation S := (with_contract P).
  Definition sel_base (js : list string) (w : world) (tmp : list (list device * list bundle)) (w' : world) : Prop :=
    Forall2 (shape P) js tmp /\ exec S (map_prog (get_device_information_ cf) js) w (Val tmp) w'.
  Notation e_at := (encrypt_at S w_log w_disk P cf (level_of cf) mtd ident pt jids pre_info sel_base priority).
  Notation e_end okx := (encrypt_end S w_log w_disk P cf okx (level_of cf) mtd ident pt jids pre_info sel_base priority).
  Lemma encrypt_base_x (okx : exn -> Prop) (Hx : forall c r e, answer P c r -> resp_exn c r = Some e -> okx e \/ no_bundle c e)
    (Hint : okx EKeyError /\ okx ETypeError /\ okx ENothing /\ okx EBinascii) w :
    (forall l, priority = Some l -> set_diff l (w_loaded w) <> [] -> okx EUnknownNamespace) ->
    wp S (e_at w) (encrypt cf mtd bare_jids pt priority ident) (e_end okx w) w.
  Proof.
    intros Hun.
    apply (encrypt_wp S w_log w_disk P (base_logged P) cf okx Hx Hint (nd_loaded P HP) (level_of cf)); try done.
    - intros s j ik r [Hr _]. simpl in Hr. unfold level_of. destruct r as [m|e]; [|done]. subst m. destruct (w_disk s !! k_trust j ik) as [[]|]; done.
    - intros js Iv s HI.
      eapply wp_mono; [apply (wp_and _ Iv (fun _ => True /\ True)); [|apply (wp_and _ (fun _ => True) (fun _ => True)); [apply (infos_shape _ _ _ _ (base_logged P) cf okx Hx Hint js s)|apply (exec_wp S (fun _ => True) _ (fun o w' => exec S (map_prog (get_device_information_ cf) js) s o w')); auto]]| |].
      + eapply (gwp_em S w_log w_disk P (base_logged P) Iv pre_info (fun _ => True) _ s
          (fun o s' => exists evs, w_log s' = evs ++ w_log s /\ Forall pre_info evs)); [apply em_infos| |].
        * intros s' evs. apply HI.
        * intros o s' evs H1 H2 _. eauto.
      + by intros s' [H _].
      + intros o s' [(evs & H1 & H2) [H3 H4]]. split; [eauto|]. destruct o; [by split|done].
    - intros l av Ep [Hav _]. simpl in Hav. subst av. by apply Hun.
  Qed.
  Lemma encrypt_base w : wp S (e_at w) (encrypt cf mtd bare_jids pt priority ident) (e_end (fun _ => True) w) w.
  Proof. by apply (encrypt_base_x _ (any_x P) (conj I (conj I (conj I I)))). Qed.

  Notation recipient := (recipient cf priority bare_jids).
  Lemma level_force d j ik lvl : level_of cf d j ik lvl -> level_in_force cf d j ik lvl.
  Proof.
    unfold level_of, level_in_force, trusted_as. change (item_key (ITrust j ik)) with (k_trust j ik).
    destruct (d !! k_trust j ik) as [v|]; [|by right]. intros H. left. by inversion H; subst.
  Qed.

  Lemma chosen_base w s0 devs cache :
    chosen S w_log w_disk P cf jids pre_info sel_base priority w s0 devs cache ->
    (exists evs, w_log s0 = evs ++ w_log w /\ Forall pre_info evs) /\ cache_ok P devs cache /\ NoDup (dkey <$> devs) /\
    (forall d, d ∈ devs -> recipient w d /\ level_of cf (w_disk s0) (dv_jid d) (dv_ik d) (dv_trust d)) /\
    (forall j x ik, (j ∈ bare_jids \/ j = c_jid cf) -> ~ (j = c_jid cf /\ x = c_dev cf) -> known (w_disk w) j x -> keyed (w_disk w) j x ik ->
       (exists ns, ns ∈ priority_of priority w /\ active_for (w_disk w) j x ns) ->
       exists d, d ∈ devs /\ dkey d = (j, x)).
  Proof.
    intros (evs & js & prio & tmp & El & Hev & Hjs & (s' & [_ Ed] & Hsh & Hex) & [Hprio (av & [Hav _] & Hpa)] & Hs & ->).
    simpl in Hav. apply with_contract_exec in Hex. assert (NoDup js) as Hn by (rewrite Hjs; apply NoDup_jids).
    destruct (infos_exec cf js s' tmp s0 Hex Hn) as (HF & _ & _). rewrite Ed in HF.
    destruct (selected_spec cf P js prio tmp devs Hsh Hn Hs) as (H1 & H2 & H3). split; [eauto|]. split.
    { intros HN b d Hb Hd E1 E2. destruct (H2 d Hd) as (_ & d0 & ns & Hd0 & _ & _ & ->). by apply (cached_key P js tmp b d0). }
    assert (prio = priority_of priority w) as Ep.
    { destruct Hprio as (av' & _ & Hp). destruct priority as [l|]; [by destruct Hp|]. subst av. by apply Hpa. }
    split; [done|]. split.
    - intros d Hd. destruct (H2 d Hd) as (Hj & d0 & ns & Hd0 & Ho & Hf & ->). rewrite Hjs in Hj. apply elem_jids in Hj.
      assert (seen cf (w_disk w) (w_disk s0) d0) as (S1 & S2 & S3 & S4).
      { clear -HF Hd0. induction HF as [|j t js tmp [A _] _ IH]; simpl in Hd0; [by apply elem_of_nil in Hd0|].
        apply elem_of_app in Hd0 as [Hd0|Hd0]; [|auto]. rewrite Forall_forall in A. by apply A in Hd0 as [_ ?]. }
      split; [|exact S4]. split; [by split|]. split; [done|]. split; [|done].
      destruct Hf as (Hu & l1 & l2 & -> & Hl). exists l1, ns, l2. rewrite <- Ep. split; [done|]. split; [done|]. split; [by apply S2|].
      intros n Hn' Hact. apply (Hl n Hn'). by apply S2.
    - intros j x ik Hj Ho Hkn Hky (ns & Hns & Hact). rewrite <- Ep in Hns.
      assert (j ∈ js) as Hjs' by (rewrite Hjs; by apply elem_jids).
      assert (exists d0, d0 ∈ concat (map fst tmp) /\ dkey d0 = (j, x) /\ seen cf (w_disk w) (w_disk s0) d0) as (d0 & Hd0 & Ek & S1 & S2 & _).
      { clear -HF Hjs' Hkn Hky. induction HF as [|j' t js tmp (A & B & _) _ IH]; [by apply elem_of_nil in Hjs'|].
        apply elem_of_cons in Hjs' as [->|Hj].
        - destruct (B x ik Hkn Hky) as (dv & Hdv & E1 & E2). exists dv. split; [simpl; apply elem_of_app; by left|].
          split; [unfold dkey; congruence|]. rewrite Forall_forall in A. by apply A in Hdv as [_ ?].
        - destruct (IH Hj) as (d0 & Hd0 & H). exists d0. split; [simpl; apply elem_of_app; by right|done]. }
      injection Ek as <- <-.
      assert (exists ns', first_usable prio d0 ns') as [ns' Hf].
      { apply S2 in Hact. clear -Hns Hact. induction prio as [|n prio IH]; [by apply elem_of_nil in Hns|].
        assert (Decision (usable d0 n)) as Hdec by (unfold usable; apply _). destruct (decide (usable d0 n)) as [Hu|Hu].
        - exists n. split; [done|]. exists [], prio. split; [done|]. by intros m ?%elem_of_nil.
        - apply elem_of_cons in Hns as [->|Hns]; [done|]. destruct (IH Hns) as (ns' & Hu' & l1 & l2 & -> & Hl). exists ns'. split; [done|].
          exists (n :: l1), l2. split; [done|]. intros m [->|Hm]%elem_of_cons; [done|auto]. }
      exists (use_ns d0 ns'). split; [|done]. apply H3; [done| |done]. intros [E1 E2]. apply Ho. done.
  Qed.
  Lemma updated_base w s0 und s2 devs devs' cache :
    updated w_disk (level_of cf) und s2 devs devs' -> (und = [] -> w_disk s2 = w_disk s0) ->
    cache_ok P devs cache -> NoDup (dkey <$> devs) ->
    (forall d, d ∈ devs -> recipient w d /\ level_of cf (w_disk s0) (dv_jid d) (dv_ik d) (dv_trust d)) ->
    cache_ok P devs' cache /\ dkey <$> devs' ≡ₚ dkey <$> devs /\ NoDup (dkey <$> devs') /\
    (forall d, d ∈ devs' -> recipient w d /\ level_of cf (w_disk s2) (dv_jid d) (dv_ik d) (dv_trust d)).
  Proof.
    intros [[-> ->]|(_ & l & Hl & HF)] Hd HC H1 H2; [split; [done|]; split; [done|]; split; [done|]; by rewrite Hd|].
    assert (forall d', d' ∈ devs' -> exists d lvl, d ∈ devs /\ d' = with_level d lvl /\ level_of cf (w_disk s2) (dv_jid d) (dv_ik d) lvl) as HD.
    { intros d' Hd'. apply elem_of_list_lookup in Hd' as [i Hi]. destruct (Forall2_lookup_r _ _ _ _ _ HF Hi) as (d0 & Hi0 & lvl & -> & Hlv).
      exists d0, lvl. split; [|done]. rewrite <- Hl. by eapply elem_of_list_lookup_2. }
    split; [|split; [|split]].
    - intros HN b d' Hb Hd' E1 E2. destruct (HD d' Hd') as (d & lvl & Hin & -> & _). by apply (HC HN b d).
    - rewrite <- Hl. clear -HF. induction HF as [|x y l k (lvl & -> & _) _ IH]; [done|]. rewrite !fmap_cons. by rewrite IH.
    - assert (dkey <$> devs' = dkey <$> l) as ->; [|by rewrite Hl].
      clear -HF. induction HF as [|x y l k (lvl & -> & _) _ IH]; [done|]. rewrite !fmap_cons. by rewrite IH.
    - intros d' Hd'. destruct (HD d' Hd') as (d & lvl & Hin & -> & Hlv). destruct (H2 d Hin) as [Hr _]. by split.
  Qed.

  Lemma seq_trusted w w' : reach S (encrypt cf mtd bare_jids pt priority ident) w w' ->
    exists pre dec post, w_log w' = post ++ dec ++ pre ++ w_log w /\ Forall enc_pre pre /\ Forall enc_post post /\
      traced (fun e before => crypto e = true -> exists d, enc_for e before d /\ last_eval d before = Some (Val Trusted) /\
        recipient w d /\ level_in_force cf (w_disk w') (dv_jid d) (dv_ik d) (dv_trust d)) post /\
      (post <> [] -> forall j x ik, (j ∈ bare_jids \/ j = c_jid cf) -> ~ (j = c_jid cf /\ x = c_dev cf) ->
         known (w_disk w) j x -> keyed (w_disk w) j x ik ->
         (exists ns, ns ∈ priority_of priority w /\ active_for (w_disk w) j x ns) -> evaluated pre (j, x)).
  Proof.
    intros H. apply (wp_reach _ _ _ _ _ _ (encrypt_base w)) in H.
    2: { apply (ea_pre _ _ _ _ _ _ _ _ _ _ _ _ _ _ _ []); [done|constructor]. }
    assert (forall l, all_evals l -> Forall enc_post l /\ forall (C : event -> list event -> Prop), traced (fun e before => crypto e = true -> C e before) l) as Hevs.
    { intros l Hl. split; [eapply Forall_impl; [exact Hl|]; by intros []|]. intros C post e b E Hc. exfalso. unfold all_evals in Hl.
      rewrite Forall_forall in Hl. assert (e ∈ l) as He by (rewrite E; apply elem_of_app; right; left). apply Hl in He. by destruct e. }
    destruct H as [pre E HF|s0 devs cache Hch Hat].
    { exists pre, [], []. split; [done|]. split; [by apply pre_info_pre|]. split; [constructor|]. split; [apply traced_nil|done]. }
    destruct (chosen_base _ _ _ _ Hch) as ((pi & El0 & Hpi) & Hca & Hk & Hrec & Hcomp).
    assert (forall e1, all_evals e1 -> Forall enc_pre (e1 ++ pi)) as Hpre.
    { intros e1 He. apply Forall_app. split; [by apply evals_pre|by apply pre_info_pre]. }
    assert (forall e1 und, round devs Undecided e1 und -> forall j x ik, (j ∈ bare_jids \/ j = c_jid cf) -> ~ (j = c_jid cf /\ x = c_dev cf) ->
         known (w_disk w) j x -> keyed (w_disk w) j x ik ->
         (exists ns, ns ∈ priority_of priority w /\ active_for (w_disk w) j x ns) -> evaluated (e1 ++ pi) (j, x)) as Hcomp'.
    { intros e1 und Hr j x ik A1 A2 A3 A4 A5. destruct (Hcomp j x ik A1 A2 A3 A4 A5) as (d & Hd & Ek).
      destruct (round_first devs (dkey_nodup _ Hk) _ _ _ d [] Hr Hd) as (t & _ & Hin). exists d, (Val t). split; [apply elem_of_app; by left|done]. }
    assert (forall und s1 s2 e1, w_log s1 = e1 ++ w_log s0 -> w_disk s1 = w_disk s0 -> decided S w_log w_disk mtd ident und s1 s2 ->
      exists dec, w_log s2 = dec ++ e1 ++ pi ++ w_log w /\ (und = [] -> w_disk s2 = w_disk s0)) as Hdecd.
    { intros und s1 s2 e1 E1 D1 [(-> & E & D)|(Hne & s & Hm & E & D)].
      - exists []. simpl in *. split; [by rewrite E, E1, El0|]. intros _. congruence.
      - destruct (alone_exec_gen _ _ _ _ _ [] Hm) as (dec & Ed & _). exists dec. simpl in E. split; [by rewrite E, Ed, E1, El0|done]. }
    destruct Hat as [e1 [E _] He|e1 und s1 [Hs1 _] Hr Hne Hm|e1 und s1 s2 post [Hs1 D1] Hr Hdec [Hs D] He|e1 und s1 s2 devs' e2 e3 ds p3 [Hs1 D1] Hr Hdec Hup Hr2 Hr3 [Hs D] Hm].
    - exists (e1 ++ pi), [], []. split; [by rewrite E, El0, !app_assoc|]. split; [by apply Hpre|].
      split; [constructor|]. split; [apply traced_nil|done].
    - destruct (alone_reach_gen _ _ _ _ [] Hm) as (dec & Ed & _). exists (e1 ++ pi), dec, [].
      split; [by rewrite Ed, Hs1, El0, !app_assoc|]. split; [apply Hpre; by eapply round_evals|].
      split; [constructor|]. split; [apply traced_nil|done].
    - destruct (Hdecd _ _ _ _ Hs1 D1 Hdec) as (dec & Ed & _). exists (e1 ++ pi), dec, post.
      split; [by rewrite Hs, Ed, !app_assoc|]. split; [apply Hpre; by eapply round_evals|].
      split; [by apply Hevs|]. split; [by apply Hevs|]. intros _. by eapply Hcomp'.
    - destruct (Hdecd _ _ _ _ Hs1 D1 Hdec) as (dec & Ed & Du). exists (e1 ++ pi), dec, (p3 ++ e3 ++ e2).
      split; [by rewrite Hs, Ed, !app_assoc|]. split; [apply Hpre; by eapply round_evals|].
      destruct (updated_base w s0 und s2 devs devs' cache Hup Du Hca Hk Hrec) as (Hca' & _ & Hk' & Hrec').
      destruct (mid_facts _ _ _ _ _ _ _ Hm) as (Hpost & Hnev & Ht).
      assert (all_evals (e3 ++ e2)) as Hev by (apply Forall_app; split; by eapply round_evals). destruct (Hevs _ Hev) as [Hev1 Hev2].
      split; [by apply Forall_app|]. split; [|intros _; by eapply Hcomp'].
      eapply traced_app_mono; [exact Ht|apply Hev2|].
      intros e before He HC [l El] Hc. destruct (HC Hc) as [_ Hcond].
      assert (Forall (fun e => is_eval e = false) before) as Hneb.
      { subst p3. apply Forall_app in Hnev as [_ Hne]. by apply Forall_cons in Hne as [_ Hne]. }
      assert (forall d, d ∈ ds -> last_eval d (before ++ e3 ++ e2) = Some (Val Trusted) /\
        recipient w d /\ level_in_force cf (w_disk w') (dv_jid d) (dv_ik d) (dv_trust d)) as Hd.
      { intros d Hd. split; [by apply (rounds_trusted devs' (dkey_nodup _ Hk') e2 e3 ds before d)|].
        destruct (Hrec' d) as [R1 R2]; [eapply round_sub; [by apply dkey_nodup|exact Hr3|done]|]. split; [done|]. apply level_force. by rewrite D. }
      apply (enc_cond_mono _ _ _ _ _ (e3 ++ e2)) in Hcond. destruct e; try done.
      + destruct Hcond as ((d & Hin & E1 & E2 & E3) & _). exists d. split; [done|]. by apply Hd.
      + destruct Hcond as ((d & Hin & E1 & E2) & _). exists d. split; [done|]. by apply Hd.
  Qed.
End baseinst.
