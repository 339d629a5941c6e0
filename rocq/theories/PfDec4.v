(** decrypt run on its own: what the sending device has to do with the storage. *)
From Verif Require Import Api Spec Alone Dec PfStrs PfTyped PfFrame PfHist PfWp PfEmits PfUpdate PfDevices PfInfo PfExec PfTrust PfPurge PfAlone PfLog PfEncrypt PfEncrypt5 PfEmpty PfDec PfDec2 PfDec3.
Open Scope prog_scope.
Open Scope list_scope.

Section base.
  Context (P : world -> forall c, resp c -> Prop) (cf : cfg) (m : message).
  Notation S := (with_contract P).
  Notation ns := (m_ns m).
  Notation j := (m_jid m).

  (** ** decrypt only changes the storage, by its calls *)
  Definition evt (_ : event) : Prop := True.
  Lemma em_decrypt : em evt (decrypt cf m).
  Proof.
    unfold decrypt, dec_sender, dec_existing, dec_kex, dec_prekeys, dec_respond, send_empty_message.
    assert (forall A (p : api A) (Q : event -> Prop), em Q p -> em evt p) as Hm by (intros A p Q H; by eapply em_mono).
    emt; try (by unw; split; [done|intros; first [apply em_of_outcome|exact I]]);
      try (eapply Hm; apply em_info); try (eapply Hm; apply em_refresh).
  Qed.
  Lemma dec_after w o w' : exec S (decrypt cf m) w o w' -> exists evs, w' = after evs w /\ exec (alone P) (decrypt cf m) [] o evs.
  Proof.
    intros H. destruct (alone_exec _ _ _ _ _ H) as (evs & E & Ha). apply with_contract_exec in H.
    destruct (em_exec _ _ _ _ _ _ em_decrypt H) as (_ & evs' & _ & ->). simpl in E. apply app_inv_tail in E as ->. eauto.
  Qed.
  Lemma dec_after_reach w w' : reach S (decrypt cf m) w w' -> exists evs, w' = after evs w /\ reach (alone P) (decrypt cf m) [] evs.
  Proof.
    intros H. destruct (alone_reach _ _ _ _ H) as (evs & E & Ha). apply with_contract_reach in H.
    destruct (em_reach _ _ _ _ _ em_decrypt H) as (evs' & _ & ->). simpl in E. apply app_inv_tail in E as ->. eauto.
  Qed.

  (** ** The sender *)
  Lemma info_recorded w ds w' d : exec base (get_device_information cf j) w (Val ds) w' -> d ∈ ds ->
    recorded cf (w_disk w') d /\ dv_jid d = j /\ (forall ik, keyed (w_disk w) j (dv_id d) ik -> dv_ik d = ik) /\ known (w_disk w) j (dv_id d).
  Proof.
    intros H Hd. destruct (info_key _ _ _ _ _ H) as (K1 & K2 & _).
    apply get_info_exec in H as (ids & bs & Hids & HM & HV). pose proof HM as [_ HF]. destruct HV as (V & _).
    destruct (V d Hd) as (Hx & Hj & l & H1 & H2 & H3 & H4 & H5 & H6 & H7 & H8). rewrite <- Hj in *. set (x := dv_id d) in *.
    assert (known (w_disk w) (dv_jid d) x) as Hk by (by eapply known_ids).
    split; [|auto]. unfold recorded. fold x.
    assert (w_disk w' !! k_list (dv_jid d) = w_disk w !! k_list (dv_jid d)) as E1 by (eapply mid_other; [exact HM|]; intros; split; kneq).
    pose proof (frame_act _ _ _ _ x HF) as E2. pose proof (frame_lab _ _ _ _ x HF) as E3.
    split; [|split; [|split; [|split]]].
    - unfold known, holds in *. change (item_key (IDeviceList (dv_jid d))) with (k_list (dv_jid d)) in *. by rewrite E1.
    - by apply K1.
    - unfold labelled, holds. change (item_key (ILabel (dv_jid d) x)) with (k_label (dv_jid d) x). rewrite E3. exact H3.
    - apply level_force. unfold level_of in *. by rewrite (frame_trust _ _ _ _ _ HF).
    - intros n b. rewrite H4. apply (hk_eq _ _ (w_disk w') _ _ E2) in H2 as H2'.
      rewrite (activity_act _ _ _ _ _ _ H2').
      assert (dget n (dv_active d) = Some b -> n ∈ dkeys (dv_active d)) as Hdk.
      { intros Hb. apply dmem_keys. unfold dmem. apply bool_decide_eq_true. by exists b. }
      destruct HF as [_ HU]. destruct (HU x Hx) as [[E|(l0 & m0 & l' & A1 & A2 & A3 & A4)] _].
      + apply (hk_eq _ _ (w_disk w') _ _ E) in H1 as H1'. rewrite (supports_ns _ _ _ _ _ H1'). naive_solver.
      + apply hns_new in A3. rewrite (supports_ns _ _ _ _ _ A3), A4. assert (l0 = l) as -> by (eapply hns_fun; eassumption).
        assert (m0 = dv_active d) as -> by (eapply hact_fun; eassumption). naive_solver.
  Qed.
  Lemma info_keyed w o w' x ik : exec base (get_device_information cf j) w o w' -> keyed (w_disk w) j x ik -> keyed (w_disk w') j x ik.
  Proof.
    intros H (s & Hs & Hb). change (w_disk w !! k_ik j x = Some (JStr s)) in Hs.
    enough (w_disk w' !! k_ik j x = Some (JStr s)) as He by (by exists s).
    unfold get_device_information in H.
    assert (forall ids, info_mid j ids w w' -> w_disk w' !! k_ik j x = Some (JStr s)) as Hm.
    { intros ids [_ HF]. destruct (decide (x ∈ ids)) as [Hx|Hx].
      - destruct HF as [_ HU]. destruct (HU x Hx) as [_ [E|[E _]]]; congruence.
      - by rewrite (frame_ik _ _ _ _ _ HF Hx). }
    apply exec_bind in H as [([ds bs] & w1 & H1 & H2)|(e & H1 & ->)].
    - destruct H2 as [_ ->]. apply info_exec in H1 as (ids & _ & HM & _). eauto.
    - eapply (wp_exec base (fun _ => True)) in H1; [|by apply info_wp]. destruct H1 as [[->|(ids & _ & HM)] _]; [done|eauto].
  Qed.
  Lemma info_known w o w' x : exec base (get_device_information cf j) w o w' -> known (w_disk w') j x <-> known (w_disk w) j x.
  Proof.
    intros H. unfold known, holds. change (item_key (IDeviceList j)) with (k_list j).
    destruct (em_exec _ _ _ _ _ _ (em_info cf j) H) as (_ & evs & He & ->). simpl. rewrite replay_other; [done|].
    eapply Forall_impl; [exact He|]. intros e [ | | ]; simpl; try done; destruct r; try done; intros E%(inj Some); revert E; kneq.
  Qed.

  Definition found (w w' : world) (evs : list event) (d : device) : Prop :=
    recorded cf (w_disk w') d /\ (forall ik, keyed (w_disk w) j (m_dev m) ik -> dv_ik d = ik) /\
    (forall ik, known (w_disk w) j (m_dev m) -> keyed (w_disk w) j (m_dev m) ik -> List.filter is_list_download evs = []) /\
    (~ known (w_disk w) j (m_dev m) -> exists dl, EvDownloadDL ns j (Val dl) ∈ evs /\ m_dev m ∈ dkeys dl).

  Lemma sender_base w d w' : exec base (dec_sender cf m) w (Val d) w' -> exists evs, w' = after evs w /\ found w w' evs d.
  Proof.
    unfold dec_sender. intros H. apply exec_bind in H as [(ds & w1 & H1 & H)|(x & _ & [=])].
    destruct (em_exec _ _ _ _ _ _ (em_info cf j) H1) as (_ & evs1 & He1 & Ew1).
    assert (List.filter is_list_download evs1 = []) as Hn.
    { clear -He1. induction He1 as [|e l He _ IH]; [done|]. by destruct He. }
    destruct (filter _ ds) as [|d0 l0] eqn:E.
    - apply exec_bind in H as [([] & w2 & H2 & H)|(x & _ & [=])]. apply exec_bind in H as [(ds' & w3 & H3 & H)|(x & _ & [=])].
      destruct (filter _ ds') as [|d1 l1] eqn:E'; [by destruct H|]. destruct H as [[= ->] ->].
      apply head_sender in E' as [Hd Hx]. destruct (info_recorded _ _ _ _ H3 Hd) as (R & Hj & K & Kn).
      destruct (em_exec _ _ _ _ _ _ (em_refresh cf ns j) H2) as (_ & evs2 & He2 & Ew2).
      destruct (em_exec _ _ _ _ _ _ (em_info cf j) H3) as (_ & evs3 & He3 & Ew3).
      exists (evs3 ++ evs2 ++ evs1). split; [by rewrite Ew3, Ew2, Ew1, !after_app, <- ?app_assoc|]. split; [done|].
      assert (forall ik, keyed (w_disk w) j (m_dev m) ik -> keyed (w_disk w2) j (m_dev m) ik) as Hkk.
      { intros ik Hk. eapply info_keyed in Hk; [|exact H1]. destruct Hk as (s & Hs & Hb). exists s. split; [|done].
        rewrite Ew2. change (w_disk (after evs2 w1)) with (replay evs2 (w_disk w1)). rewrite replay_other; [done|]. eapply Forall_impl; [exact He2|].
        intros e [e' He|]; [|done]. change (item_key (IIdentityKey j (m_dev m))) with (k_ik j (m_dev m)).
        destruct He; simpl; try done; destruct r; try done; intros Ek%(inj Some); revert Ek; kneq. }
      split; [|split].
      + intros ik Hk. rewrite <- Hx in *. apply K. auto.
      + intros ik Hkn Hk. exfalso. destruct (info_key _ _ _ _ _ H1) as (_ & _ & K3). destruct (K3 _ _ Hk Hkn) as (dv & Hdv & Ed).
        assert (dv ∈ @nil device) as Hc; [|by apply elem_of_nil in Hc]. rewrite <- E. by apply elem_of_list_filter.
      + intros Hkn. assert (~ known (w_disk w1) j (m_dev m)) as Hkn1 by (by rewrite (info_known _ _ _ _ H1)).
        rewrite Hx in Kn. unfold refresh_device_list in H2. apply exec_bind in H2 as [(dl & w2' & (r & Hr & H2) & H2')|(x & _ & [=])].
        destruct r as [dl'|]; [|by destruct H2]. destruct H2 as [[= ->] ->].
        exists dl'. apply update_val in H2' as HV. destruct HV as (_ & old & dl1 & Ho & _ & HF).
        destruct (fin_ids _ _ _ _ _ _ _ HF Ho) as (l & Hl & Hm). split.
        * destruct (em_exec _ _ _ _ _ _ (em_update cf ns j dl') H2') as (_ & evs4 & _ & Ew4).
          assert (evs2 = evs4 ++ [EvDownloadDL ns j (Val dl')]) as ->.
          { apply (f_equal w_log) in Ew4. rewrite Ew2 in Ew4. simpl in Ew4.
            apply (app_inv_tail (w_log w1)). by rewrite Ew4, <- app_assoc. }
          apply elem_of_app. right. apply elem_of_app. left. apply elem_of_app. right. left.
        * apply (known_ids _ _ _ _ Hl), Hm in Kn as [Kn|Kn]; [|done]. exfalso. apply Hkn1. by apply (known_ids _ _ _ _ Ho).
    - destruct H as [[= ->] ->]. apply head_sender in E as [Hd Hx]. destruct (info_recorded _ _ _ _ H1 Hd) as (R & Hj & K & Kn).
      exists evs1. split; [done|]. rewrite Hx in *. split; [done|]. split; [done|]. split; [by intros|done].
  Qed.

  (** ** The whole *)
  Lemma queue_only (d : device) e mk post (dk : gmap string json) k :
    traced (dstep P cf m d e mk) post -> (forall s, k <> k_queue (s_ns s) /\ k <> k_queue_jid (s_ns s) (s_jid s)) -> replay post dk !! k = dk !! k.
  Proof.
    intros Ht Hk. apply replay_other. apply Forall_forall. intros ev (l1 & l2 & ->)%elem_of_list_split.
    specialize (Ht _ _ _ eq_refl). destruct ev; try done.
    simpl. destruct r; try done. intros ->%(inj Some). destruct Ht as [_ [(s & l & E & _)|(s & l & l0 & l' & E & _)]]; revert E; apply Hk.
  Qed.
  Lemma recorded_queue (d : device) e mk post dk :
    traced (dstep P cf m d e mk) post -> recorded cf dk d -> recorded cf (replay post dk) d.
  Proof.
    intros Ht (H1 & H2 & H3 & H4 & H5).
    assert (forall i, core i -> replay post dk !! item_key i = dk !! item_key i) as E.
    { intros i Hi. eapply queue_only; [exact Ht|]. intros s. split; apply not_eq_sym.
      - apply (kne i (IQueue (s_ns s))); [done|]. intros <-. by apply elem_of_nil in Hi.
      - apply (kne i (IQueueDevices (s_ns s) (s_jid s))); [done|]. intros <-. by apply elem_of_nil in Hi. }
    unfold recorded, known, keyed, labelled, level_in_force, trusted_as, supports, activity, holds in *.
    rewrite !E by done. done.
  Qed.

  Lemma eval_once d r d0 r0 post pre e mk :
    looked cf m 1 pre -> (post = [] \/ exists t, r0 = Val t /\ t <> Distrusted /\ same_key d0 mk /\ traced (dstep P cf m d0 e mk) post) ->
    EvEval d r ∈ post ++ EvEval d0 r0 :: pre -> d = d0 /\ r = r0.
  Proof.
    intros [Hl _] Hp [Hin|[E|Hin]%elem_of_cons]%elem_of_app.
    - destruct Hp as [->|(t & _ & _ & _ & Ht)]; [by apply elem_of_nil in Hin|]. apply elem_of_list_split in Hin as (l1 & l2 & ->).
      by specialize (Ht _ _ _ eq_refl).
    - by injection E as -> ->.
    - rewrite Forall_forall in Hl. by apply Hl in Hin.
  Qed.
  Lemma list_downloads_post d0 e mk post : traced (dstep P cf m d0 e mk) post -> List.filter is_list_download post = [].
  Proof.
    induction post as [|ev post IH]; [done|]. intros [H1 H2]%traced_cons. simpl. rewrite (IH H2). by destruct ev.
  Qed.
  Lemma dec_found w w' evs d r : reach S (decrypt cf m) w w' -> w' = after evs w -> EvEval d r ∈ evs -> found w w' evs d.
  Proof.
    intros H Hw Hin. apply split_reach in H as [->|(e & mk & Hg & [H|(d0 & w1 & H1 & H2)])]; [| | |done|done].
    - apply (f_equal w_log) in Hw. simpl in Hw. assert (evs = []) as -> by (apply (app_inv_tail (w_log w)); by rewrite <- Hw).
      by apply elem_of_nil in Hin.
    - destruct (alone_reach _ _ _ _ H) as (evs' & E & Ha). assert (evs' = evs) as ->.
      { rewrite Hw in E. simpl in E. by apply app_inv_tail in E. }
      apply sender_reach in Ha as [Ha _]. rewrite Forall_forall in Ha. by apply Ha in Hin.
    - destruct (alone_exec _ _ _ _ _ H1) as (pre & Epre & Hpre). destruct (alone_reach_gen _ _ _ _ pre H2) as (evs2 & E2 & Ha2).
      assert (evs = evs2 ++ pre) as ->.
      { apply (app_inv_tail (w_log w)). rewrite <- app_assoc, <- Epre, <- E2, Hw. done. }
      apply with_contract_exec in H1. destruct (sender_base _ _ _ H1) as (pre' & -> & F1 & F2 & F3 & F4).
      simpl in Epre. apply app_inv_tail in Epre as ->.
      apply sender_exec in Hpre as [Hl Hd].
      apply rest_reach in Ha2 as Hshape.
      assert (exists r0 post, evs2 ++ pre = post ++ EvEval d0 r0 :: pre /\
        (post = [] \/ exists t, r0 = Val t /\ t <> Distrusted /\ same_key d0 mk /\ traced (dstep P cf m d0 e mk) post)) as (r0 & post & Es & Hp).
      { destruct Hshape as [Es|(r0 & [Es|(t & -> & Ht & Hk & post & Es & Hp)])].
        - exfalso. rewrite Es in Hin. destruct Hl as [Hl _]. rewrite Forall_forall in Hl. by apply Hl in Hin.
        - exists r0, []. split; [done|by left].
        - exists (Val t), post. split; [done|]. right. eauto. }
      rewrite Es in *. destruct (eval_once _ _ _ _ _ _ _ _ Hl Hp Hin) as [-> ->].
      assert (w_disk w' = replay post (w_disk (after pre w))) as Ed by (by rewrite Hw; simpl; rewrite replay_app).
      split; [|split; [done|split]].
      + rewrite Ed. destruct Hp as [->|(t & _ & _ & _ & Ht)]; [done|]. by eapply recorded_queue.
      + intros ik K1 K2. rewrite List.filter_app. simpl. rewrite (F3 ik K1 K2), app_nil_r.
        destruct Hp as [->|(t & _ & _ & _ & Ht)]; [done|]. by eapply list_downloads_post.
      + intros K. destruct (F4 K) as (dl & A & B). exists dl. split; [|done]. apply elem_of_app. right. by right.
  Qed.
End base.
