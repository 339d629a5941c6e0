(** decrypt, call by call. *)
From Verif Require Import Api Spec Alone Dec PfWp PfEmits PfUpdate PfDevices PfInfo PfExec PfPurge PfAlone PfLog PfEncrypt PfEncrypt2 PfEncrypt4 PfEmpty.
Open Scope prog_scope.
Open Scope list_scope.

Section dec.
  Context (P : world -> forall c, resp c -> Prop) (cf : cfg) (m : message).
  Notation S := (alone P).
  Notation ns := (m_ns m).

  (** ** The parts of decrypt *)
  Definition dec_rest (d : device) (e : ekm) (mk : option kex) : api (option bytes * device * pkm) :=
    t <- t_eval d ;;
    if decide (t = Distrusted) then Raise ESenderDistrusted else
    '(s, p) <- match mk with None => dec_existing ns d e | Some k => dec_kex ns d k e end ;;
    plaintext <- (if ct_empty (m_content m) then Ret None
                  else pt <- b_dec_plain ns (m_content m) p ;; Ret (Some pt)) ;;
    b_store_session ns s ;;;
    match mk with None => Ret tt | Some _ => dec_prekeys cf ns s end ;;;
    (if bool_decide (mk <> None) || (STALENESS_MAGIC_NUMBER <? Model.maybe 0 (s_rcl s))%Z
     then dec_respond cf ns s else Ret tt) ;;;
    Ret (plaintext, d, p).

  Lemma first_given keys : keys ≡ₚ m_keys m ->
    match filter (fun k : ekm * option kex => ek_jid k.1 = c_jid cf /\ ek_dev k.1 = c_dev cf) keys with
    | [] => forall e mk, ~ given cf m e mk
    | (e, mk) :: _ => given cf m e mk
    end.
  Proof.
    intros Hk. destruct (filter _ keys) as [|[e mk] l] eqn:E.
    - intros e mk (H1 & H2 & H3). rewrite <- Hk in H1.
      assert ((e, mk) ∈ @nil (ekm * option kex)) as Hc; [|by apply elem_of_nil in Hc]. rewrite <- E. by apply elem_of_list_filter.
    - assert ((e, mk) ∈ filter (fun k : ekm * option kex => ek_jid k.1 = c_jid cf /\ ek_dev k.1 = c_dev cf) keys) as H by (rewrite E; left).
      apply elem_of_list_filter in H as [[H1 H2] H3]. rewrite Hk in H3. done.
  Qed.
  Lemma split_exec {W} (T : @sem cmd resp W) w o w' :
    (forall w r, Prog.apply T w GLoaded r = w) -> (forall w r, Prog.apply T w CPerm r = w) ->
    exec T (decrypt cf m) w o w' ->
    (w' = w /\ ((o = Exn EUnknownNamespace /\ exists l, allowed T w GLoaded l /\ ns ∉ l) \/
       (o = Exn EMessageNotForUs /\ forall e mk, ~ given cf m e mk))) \/
    exists e mk, given cf m e mk /\
      ((exists x, o = Exn x /\ exec T (dec_sender cf m) w (Exn x) w') \/
       exists d w1, exec T (dec_sender cf m) w (Val d) w1 /\ exec T (dec_rest d e mk) w1 o w').
  Proof.
    intros HL HO (l & Hl & H). rewrite HL in H. cbn beta iota in H.
    change (exec T (if decide (ns ∈ l) then
      keys <- order (m_keys m) ;;
      match filter (fun k => ek_jid k.1 = c_jid cf /\ ek_dev k.1 = c_dev cf) keys with
      | [] => Raise EMessageNotForUs
      | (e, mk) :: _ => d <- dec_sender cf m ;; dec_rest d e mk
      end else Raise EUnknownNamespace) w o w') in H.
    destruct (decide (ns ∈ l)) as [Hin|Hin].
    2: { left. destruct H as [-> ->]. split; [done|]. left. eauto. }
    destruct H as (r & _ & H). rewrite HO in H. change (exec T (match filter (fun k => ek_jid k.1 = c_jid cf /\ ek_dev k.1 = c_dev cf) (reorder r (m_keys m)) with
      | [] => Raise EMessageNotForUs
      | (e, mk) :: _ => d <- dec_sender cf m ;; dec_rest d e mk
      end) w o w') in H. pose proof (first_given _ (reorder_perm r (m_keys m))) as Hg.
    destruct (filter _ _) as [|[e mk] l0].
    - left. destruct H as [-> ->]. split; [done|]. by right.
    - right. exists e, mk. split; [done|]. apply exec_bind in H as [(d & w1 & H1 & H2)|(x & H1 & ->)]; [right|left]; eauto.
  Qed.
  Lemma split_reach {W} (T : @sem cmd resp W) w w' :
    (forall w r, Prog.apply T w GLoaded r = w) -> (forall w r, Prog.apply T w CPerm r = w) ->
    reach T (decrypt cf m) w w' ->
    w' = w \/ exists e mk, given cf m e mk /\
      (reach T (dec_sender cf m) w w' \/
       exists d w1, exec T (dec_sender cf m) w (Val d) w1 /\ reach T (dec_rest d e mk) w1 w').
  Proof.
    intros HL HO [->|(l & Hl & H)]; [by left|]. rewrite HL in H. cbn beta iota in H.
    change (reach T (if decide (ns ∈ l) then
      keys <- order (m_keys m) ;;
      match filter (fun k => ek_jid k.1 = c_jid cf /\ ek_dev k.1 = c_dev cf) keys with
      | [] => Raise EMessageNotForUs
      | (e, mk) :: _ => d <- dec_sender cf m ;; dec_rest d e mk
      end else Raise EUnknownNamespace) w w') in H.
    destruct (decide (ns ∈ l)) as [Hin|Hin].
    2: { left. by destruct H as [->|[]]. }
    destruct H as [->|(r & _ & H)]; [by left|]. rewrite HO in H. change (reach T (match filter (fun k => ek_jid k.1 = c_jid cf /\ ek_dev k.1 = c_dev cf) (reorder r (m_keys m)) with
      | [] => Raise EMessageNotForUs
      | (e, mk) :: _ => d <- dec_sender cf m ;; dec_rest d e mk
      end) w w') in H. pose proof (first_given _ (reorder_perm r (m_keys m))) as Hg.
    destruct (filter _ _) as [|[e mk] l0].
    - left. by destruct H as [->|[]].
    - right. exists e, mk. split; [done|]. by apply reach_bind.
  Qed.

  (** ** The sender *)
  Lemma em_alone {A} (Pe : event -> Prop) (Q : outcome A -> Prop) (p : api A) l :
    emq Pe Q p ->
    (forall o l', exec S p l o l' -> Q o /\ exists evs, l' = evs ++ l /\ Forall Pe evs) /\
    (forall l', reach S p l l' -> exists evs, l' = evs ++ l /\ Forall Pe evs).
  Proof.
    intros Hp.
    assert (wp S (fun l' => exists evs, l' = evs ++ l /\ Forall Pe evs) p (fun o l' => Q o /\ exists evs, l' = evs ++ l /\ Forall Pe evs) l) as H.
    { eapply (gwp_em S (fun l => l) (fun _ => tt) P (alone_logged P)); [exact Hp|eauto|eauto]. }
    split; [intros o l' Hx; exact (wp_exec _ _ _ _ _ _ _ H Hx)|]. intros l' Hx. refine (wp_reach _ _ _ _ _ _ H _ Hx). exists []. split; [done|constructor].
  Qed.

  Lemma info_lookup e : ev_info (m_jid m) e -> lookup_ev cf m e /\ is_list_download e = false.
  Proof. by destruct 1. Qed.
  Lemma upd_lookup e : ev_upd cf ns (m_jid m) e -> lookup_ev cf m e /\ is_list_download e = false.
  Proof. destruct 1 as [| | | |dl r Hj Hd]; try done. split; [|done]. split; [done|]. split; [done|]. rewrite dmem_keys' in Hd. by apply bool_decide_eq_true in Hd. Qed.
  (** lookups with at most [n] downloads of the device list *)
  Definition looked (n : nat) (evs : list event) : Prop :=
    Forall (lookup_ev cf m) evs /\ length (List.filter is_list_download evs) <= n.
  Lemma looked_app n n' l1 l2 : looked n l1 -> looked n' l2 -> looked (n + n') (l1 ++ l2).
  Proof. intros [A1 A2] [B1 B2]. split; [by apply Forall_app|]. rewrite List.filter_app, app_length. lia. Qed.
  Lemma looked_none (Q : event -> Prop) evs : (forall e, Q e -> lookup_ev cf m e /\ is_list_download e = false) -> Forall Q evs -> looked 0 evs.
  Proof.
    intros HQ. induction 1 as [|e evs He _ [IH1 IH2]]; [by split|]. apply HQ in He as [He1 He2].
    split; [by constructor|]. simpl. by rewrite He2.
  Qed.
  Lemma looked_mono n n' evs : looked n evs -> n <= n' -> looked n' evs.
  Proof. intros [A B] H. split; [done|lia]. Qed.
  Lemma info_looked l : (forall o l', exec S (get_device_information cf (m_jid m)) l o l' -> exists evs, l' = evs ++ l /\ looked 0 evs) /\
    (forall l', reach S (get_device_information cf (m_jid m)) l l' -> exists evs, l' = evs ++ l /\ looked 0 evs).
  Proof.
    destruct (em_alone (ev_info (m_jid m)) (fun _ => True) _ l (em_info cf (m_jid m))) as [H1 H2]. split.
    - intros o l' (_ & evs & E & H)%H1. exists evs. split; [done|]. by eapply looked_none; [apply info_lookup|].
    - intros l' (evs & E & H)%H2. exists evs. split; [done|]. by eapply looked_none; [apply info_lookup|].
  Qed.
  Lemma refresh_looked l : (forall o l', exec S (refresh_device_list cf ns (m_jid m)) l o l' -> exists evs, l' = evs ++ l /\ looked 1 evs) /\
    (forall l', reach S (refresh_device_list cf ns (m_jid m)) l l' -> exists evs, l' = evs ++ l /\ looked 1 evs).
  Proof.
    assert (forall l dl, (forall o l', exec S (update_device_list cf ns (m_jid m) dl) l o l' -> exists evs, l' = evs ++ l /\ looked 0 evs) /\
      (forall l', reach S (update_device_list cf ns (m_jid m) dl) l l' -> exists evs, l' = evs ++ l /\ looked 0 evs)) as HU.
    { intros l0 dl. destruct (em_alone (ev_upd cf ns (m_jid m)) (fun _ => True) _ l0 (em_update cf ns (m_jid m) dl)) as [H1 H2]. split.
      - intros o l' (_ & evs & E & H)%H1. exists evs. split; [done|]. by eapply looked_none; [apply upd_lookup|].
      - intros l' (evs & E & H)%H2. exists evs. split; [done|]. by eapply looked_none; [apply upd_lookup|]. }
    assert (forall r, looked 1 [EvDownloadDL ns (m_jid m) r]) as HD.
    { intros r. split; [by repeat constructor|simpl; lia]. }
    unfold refresh_device_list. split.
    - intros o l' H. apply exec_bind in H as [(dl & l1 & (r & _ & H1) & H2)|(x & (r & _ & H1) & ->)].
      + destruct r as [r|]; [|by destruct H1]. destruct H1 as [[= ->] ->]. apply HU in H2 as (evs & -> & H). simpl.
        exists (evs ++ [EvDownloadDL ns (m_jid m) (Val r)]). split; [by rewrite <- app_assoc|]. by apply (looked_app 0 1).
      + destruct r as [r|]; [by destruct H1|]. destruct H1 as [_ ->]. eexists [_]. split; [done|]. apply HD.
    - intros l' [H|(dl & l1 & (r & _ & H1) & H2)]%reach_bind.
      + destruct H as [->|(r & _ & H)]; [exists []; split; [done|by split; [constructor|simpl; lia]]|].
        assert (l' = EvDownloadDL ns (m_jid m) r :: l) as -> by (destruct r; by destruct H as [->|[]]). eexists [_]. split; [done|]. apply HD.
      + destruct r as [r|]; [|by destruct H1]. destruct H1 as [[= ->] ->]. apply HU in H2 as (evs & -> & H). simpl.
        exists (evs ++ [EvDownloadDL ns (m_jid m) (Val r)]). split; [by rewrite <- app_assoc|]. by apply (looked_app 0 1).
  Qed.
  Lemma info_jid l ds l' d : exec S (get_device_information cf (m_jid m)) l (Val ds) l' -> d ∈ ds -> dv_jid d = m_jid m.
  Proof.
    unfold get_device_information. intros H Hd. apply exec_bind in H as [([ds' bs] & l1 & H1 & H2)|(x & _ & [=])].
    destruct H2 as [[= ->] ->]. eapply (wp_exec S (fun _ => True)) in H1;
      [|apply (info_shape _ _ _ _ (alone_logged P) cf (fun _ => True) (any_x P) (conj I (conj I (conj I I))))].
    destruct H1 as (H1 & _). rewrite Forall_forall in H1. by apply H1.
  Qed.
  Lemma head_sender ds d l0 : filter (fun d => dv_id d = m_dev m) ds = d :: l0 -> d ∈ ds /\ dv_id d = m_dev m.
  Proof.
    intros E. assert (d ∈ filter (fun d => dv_id d = m_dev m) ds) as H by (rewrite E; left).
    by apply elem_of_list_filter in H as [? ?].
  Qed.
  Lemma sender_exec o l : exec S (dec_sender cf m) [] o l ->
    looked 1 l /\ match o with Val d => dkey d = (m_jid m, m_dev m) | Exn _ => True end.
  Proof.
    unfold dec_sender. intros H.
    apply exec_bind in H as [(ds & l1 & H1 & H)|(x & H1 & ->)].
    2: { apply info_looked in H1 as (evs & -> & H1). rewrite app_nil_r. split; [|done]. eapply looked_mono; [done|lia]. }
    pose proof (info_looked []) as [HI _]. destruct (HI _ _ H1) as (evs & -> & L1). rewrite app_nil_r in *.
    destruct (filter _ ds) as [|d l0] eqn:E.
    - apply exec_bind in H as [([] & l2 & H2 & H)|(x & H2 & ->)].
      2: { apply refresh_looked in H2 as (evs2 & -> & L2). split; [|done]. apply (looked_app 1 0); [done|done]. }
      apply refresh_looked in H2 as (evs2 & -> & L2). pose proof (looked_app 1 0 _ _ L2 L1) as L3.
      apply exec_bind in H as [(ds' & l3 & H3 & H)|(x & H3 & ->)].
      2: { apply info_looked in H3 as (evs3 & -> & L4). split; [|done]. by apply (looked_app 0 1). }
      pose proof H3 as H4. apply info_looked in H3 as (evs3 & -> & L4). pose proof (looked_app 0 1 _ _ L4 L3) as L5.
      destruct (filter _ ds') as [|d l0] eqn:E'; destruct H as [-> ->]; [done|]. split; [done|].
      apply head_sender in E' as [A B]. unfold dkey. rewrite B. f_equal. by eapply info_jid.
    - destruct H as [-> ->]. split; [eapply looked_mono; [exact L1|lia]|]. apply head_sender in E as [A B]. unfold dkey. rewrite B. f_equal. by eapply info_jid.
  Qed.
  Lemma sender_reach l : reach S (dec_sender cf m) [] l -> looked 1 l.
  Proof.
    unfold dec_sender. intros [H|(ds & l1 & H1 & H)]%reach_bind.
    { apply info_looked in H as (evs & -> & H1). rewrite app_nil_r. eapply looked_mono; [done|lia]. }
    pose proof (info_looked []) as [HI _]. destruct (HI _ _ H1) as (evs & -> & L1). rewrite app_nil_r in *.
    destruct (filter _ ds) as [|d l0] eqn:E.
    - apply reach_bind in H as [H|([] & l2 & H2 & H)].
      { apply refresh_looked in H as (evs2 & -> & L2). apply (looked_app 1 0); [done|done]. }
      apply refresh_looked in H2 as (evs2 & -> & L2). pose proof (looked_app 1 0 _ _ L2 L1) as L3.
      apply reach_bind in H as [H|(ds' & l3 & H3 & H)].
      { apply info_looked in H as (evs3 & -> & L4). by apply (looked_app 0 1). }
      apply info_looked in H3 as (evs3 & -> & L4). pose proof (looked_app 0 1 _ _ L4 L3) as L5.
      destruct (filter _ ds') as [|d l0] eqn:E'; destruct H as [->|[]]; done.
    - destruct H as [->|[]]. eapply looked_mono; [exact L1|lia].
  Qed.
End dec.
