(** C89: why decrypt fails when nothing outside fails. *)
From Verif Require Import Deliver Env PfWp PfEmits PfExec PfAlone PfHist PfLife PfTyped PfTrust PfInfo PfUpdate PfDevices PfDec PfDec4 PfHealth.
Open Scope prog_scope.
Open Scope list_scope.
Notation hs := (with_contract healthy).
Notation T := (fun _ : world => True).

Lemma hcmd {A} c (cast : resp c -> outcome A) (ev : resp c -> event) (R : outcome A -> world -> Prop) w :
  match c with PLoaded _ | PSync _ | NDownloadBundle _ _ _ => False | _ => True end ->
  (forall r, event_of c r = Some (ev r)) -> (forall r e, cast r = Exn e -> resp_exn c r = Some e) ->
  (forall r v, cast r = Val v -> R (Val v) (after [ev r] w)) -> wp hs T (Step c (fun r => of_outcome (cast r))) R w.
Proof.
  intros Hc He Hx HR. change (forall r, allowed hs w c r -> True /\ wp hs T (of_outcome (cast r)) R (w_apply w c r)).
  intros r [_ Hh]. split; [done|]. rewrite after_cmd by (by destruct c). rewrite He. apply wp_of_outcome.
  destruct (cast r) as [v|e] eqn:E; [by apply (HR r)|]. exfalso. apply Hx in E. unfold healthy in Hh. rewrite E in Hh.
  destruct Hh as [(ns & j & x & ->) _]. done.
Qed.
Lemma hsync w (R : outcome bool -> world -> Prop) : R (Val (w_sync w)) w -> wp hs T g_sync R w.
Proof.
  intros HR. change (forall r, allowed hs w GSync r -> True /\ R (Val r) w). intros r [Hr _]. simpl in Hr. by subst.
Qed.
Lemma hsame a b w (R : outcome bool -> world -> Prop) : (forall r, R (Val r) (after [EvSame a b r] w)) -> wp hs T (k_same a b) R w.
Proof.
  intros HR. change (forall r, allowed hs w (KSame a b) r -> True /\ R (Val r) (w_apply w (KSame a b) r)). intros r _.
  split; [done|]. rewrite after_cmd by done. apply HR.
Qed.
Ltac hc c ev := eapply (hcmd c (fun r => r) ev); [exact I|reflexivity|by intros [?|?] ? [= ->]|].

Lemma h_load {A} (prim : json -> option A) T0 k w (R : outcome (option (list A)) -> world -> Prop) :
  good_check (fun v => match v with JList l => or_type_error (mapM prim l) | _ => Exn ETypeError end) T0 ->
  (forall v, R (Val v) w) -> (forall v, w_disk w !! k = Some v -> (forall a, ~ T0 v a) -> R (Exn ETypeError) w) -> wp hs T (load_list prim k) R w.
Proof.
  intros Hg HV HE. unfold load_list. set (check := fun v : json => match v with JList l => or_type_error (mapM prim l) | _ => Exn ETypeError end) in *. unfold load_checked. apply wp_bind.
  change (forall r, allowed hs w (SLoad k) r -> True /\ wp hs T (of_outcome r) (fun o w' => match o with
    Val m => wp hs T (match m with None => Ret None | Some v => match check v with Val a => Ret (Some a) | Exn e => Raise e end end) R w'
    | Exn e => R (Exn e) w' end) w).
  intros r [Hr Hh]. split; [done|]. apply wp_of_outcome. destruct r as [[v|]|e].
  - destruct (Hg v) as [(a & _ & E)|[Hn E]]; fold (check v) in E; rewrite E; [apply HV|]. simpl in Hr. by apply (HE v).
  - apply HV.
  - unfold healthy in Hh. cbn [resp_exn exn_of] in Hh. destruct Hh as [(? & ? & ? & [=]) _].
Qed.
Lemma h_order {A} (l : list A) w (R : outcome (list A) -> world -> Prop) : (forall l', l' ≡ₚ l -> R (Val l') w) -> wp hs T (order l) R w.
Proof.
  intros HR. change (forall r, allowed hs w CPerm r -> True /\ R (Val (reorder r l)) w). intros r _. split; [done|]. apply HR, reorder_perm.
Qed.

Section dec.
  Context (cf : cfg) (m : message).
  Notation ns := (m_ns m).

  Lemma h_send s w (R : outcome unit -> world -> Prop) : (forall evs, R (Val tt) (after evs w)) -> wp hs T (send_empty_message cf ns s) R w.
  Proof using Type.
    intros HR. unfold send_empty_message. apply wp_bind. hc (BEncEmpty ns) (fun r => EvEncEmpty ns r). intros r1 [c p] ->.
    apply wp_bind. hc (BEncKey ns s p) (fun r => EvEncKey ns s p r). intros r2 [s' e] ->.
    apply wp_bind. hc (NSend (Message ns (c_jid cf) (c_dev cf) c [(e, kex_to_send s')]) (s_jid s')) (fun r => EvSend (Message ns (c_jid cf) (c_dev cf) c [(e, kex_to_send s')]) (s_jid s') r).
    intros r3 [] ->. hc (BStoreSession ns s') (fun r => EvStoreSession ns s' r). intros r4 [] ->. rewrite !after_app. apply HR.
  Qed.
  Lemma h_respond s w (R : outcome unit -> world -> Prop) :
    (forall evs, R (Val tt) (after evs w)) -> (forall evs, w_sync w = true -> queue_broken (w_disk (after evs w)) -> R (Exn ETypeError) (after evs w)) -> wp hs T (dec_respond cf ns s) R w.
  Proof using Type.
    intros HR HE. unfold dec_respond. apply wp_bind, hsync. destruct (w_sync w) eqn:Es; [|by apply h_send].
    apply wp_bind, (h_load _ _ _ _ _ good_strs); [|intros v Hv Hn; rewrite <- (after_nil w); apply HE; [done|]; rewrite after_nil; exists (IQueue (s_ns s)), v; split; [done|]; split; [exact Hv|]; by intros (l & Hl); apply (Hn l)]. intros v. apply wp_bind, h_order. intros l' _.
    apply wp_bind. hc (SStore (k_queue (s_ns s)) (j_strs l')) (fun r => EvStore (k_queue (s_ns s)) (j_strs l') r). intros r1 [] ->.
    apply wp_bind, (h_load _ _ _ _ _ good_ints); [|intros v' Hv Hn; apply HE; [done|]; exists (IQueueDevices (s_ns s) (s_jid s)), v'; split; [done|]; split; [exact Hv|]; by intros (l & Hl); apply (Hn l)]. intros v'. apply wp_bind, h_order. intros l2 _.
    hc (SStore (k_queue_jid (s_ns s) (s_jid s)) (j_ints l2)) (fun r => EvStore (k_queue_jid (s_ns s) (s_jid s)) (j_ints l2) r).
    intros r2 [] ->. rewrite after_app. apply HR.
  Qed.
  Lemma h_prekeys s w (R : outcome unit -> world -> Prop) : (forall evs, R (Val tt) (after evs w)) -> wp hs T (dec_prekeys cf ns s) R w.
  Proof using Type.
    intros HR. unfold dec_prekeys. apply wp_bind, hsync.
    assert (forall evs, wp hs T (
      n <- b_num_visible ns ;;
      (if (n <=? c_threshold cf)%Z then b_generate ns (100 - n) else Ret tt) ;;;
      b <- b_get_bundle ns (c_jid cf) (c_dev cf) ;; n_upload_bundle b) R (after evs w)) as Hrest.
    { intros evs. apply wp_bind. hc (BNumVisible ns) (fun r => EvNumVisible ns r). intros r1 n ->. rewrite after_app. apply wp_bind.
      assert (forall evs, wp hs T (b <- b_get_bundle ns (c_jid cf) (c_dev cf) ;; n_upload_bundle b) R (after evs w)) as Hl.
      { intros evs'. apply wp_bind. hc (BGetBundle ns (c_jid cf) (c_dev cf)) (fun r => EvGetBundle ns (c_jid cf) (c_dev cf) r).
        intros r2 b ->. hc (NUploadBundle b) (fun r => EvUploadBundle b r). intros r3 [] ->. rewrite !after_app. apply HR. }
      destruct (n <=? c_threshold cf)%Z.
      - hc (BGenerate ns (100 - n)) (fun r => EvGenerate ns (100 - n) r). intros r2 [] ->. rewrite after_app. apply Hl.
      - exact (Hl _). }
    apply wp_bind. destruct (w_sync w).
    - hc (BHide ns s) (fun r => EvHide ns s r). intros r1 [] ->; [apply Hrest|apply HR].
    - hc (BDelete ns s) (fun r => EvDeletePk ns s r). intros r1 [] ->; [apply Hrest|apply HR].
  Qed.

  (** what can go wrong once the sending device [d] is known *)
  Definition rest_exn (d : device) (mk : option kex) (evs : list event) (sync : bool) (dk : gmap string json) (x : exn) : Prop :=
    (x = ESenderDistrusted /\ EvEval d (Val Distrusted) ∈ evs) \/
    (x = ENoSession /\ mk = None /\ EvLoadSession ns (dv_jid d) (dv_id d) (Val None) ∈ evs) \/
    (x = EPublicDataInconsistency /\ exists k t, mk = Some k /\ kx_ik k <> dv_ik d /\ EvEval d (Val t) ∈ evs) \/
    (x = ETypeError /\ sync = true /\ queue_broken dk).
  Lemma h_rest d e mk w : wp hs T (dec_rest cf m d e mk) (fun o w' => exists evs, w' = after evs w /\
    match o with Val _ => True | Exn x => rest_exn d mk evs (w_sync w) (w_disk w') x end) w.
  Proof using Type.
    unfold dec_rest. apply wp_bind. hc (TEval d) (fun r => EvEval d r). intros r1 t ->.
    destruct (decide (t = Distrusted)) as [->|_].
    { exists [EvEval d (Val Distrusted)]. split; [done|]. left. split; [done|]. left. }
    apply wp_bind.
    assert (forall evs s p, wp hs T (
      plaintext <- (if ct_empty (m_content m) then Ret None
                    else pt <- b_dec_plain ns (m_content m) p ;; Ret (Some pt)) ;;
      b_store_session ns s ;;;
      match mk with None => Ret tt | Some _ => dec_prekeys cf ns s end ;;;
      (if bool_decide (mk <> None) || (STALENESS_MAGIC_NUMBER <? Model.maybe 0 (s_rcl s))%Z
       then dec_respond cf ns s else Ret tt) ;;;
      Ret (plaintext, d, p)) (fun o w' => exists evs, w' = after evs w /\
      match o with Val _ => True | Exn x => rest_exn d mk evs (w_sync w) (w_disk w') x end) (after evs w)) as Hrest.
    { intros evs s p. apply wp_bind.
      assert (forall evs (pt : option bytes), wp hs T (b_store_session ns s ;;;
        match mk with None => Ret tt | Some _ => dec_prekeys cf ns s end ;;;
        (if bool_decide (mk <> None) || (STALENESS_MAGIC_NUMBER <? Model.maybe 0 (s_rcl s))%Z
         then dec_respond cf ns s else Ret tt) ;;;
        Ret (pt, d, p)) (fun o w' => exists evs, w' = after evs w /\
        match o with Val _ => True | Exn x => rest_exn d mk evs (w_sync w) (w_disk w') x end) (after evs w)) as Hst.
      { intros evs1 pt. apply wp_bind. hc (BStoreSession ns s) (fun r => EvStoreSession ns s r). intros r2 [] ->. rewrite after_app.
        apply wp_bind.
        assert (forall evs, wp hs T (
          (if bool_decide (mk <> None) || (STALENESS_MAGIC_NUMBER <? Model.maybe 0 (s_rcl s))%Z
           then dec_respond cf ns s else Ret tt) ;;;
          Ret (pt, d, p)) (fun o w' => exists evs, w' = after evs w /\
          match o with Val _ => True | Exn x => rest_exn d mk evs (w_sync w) (w_disk w') x end) (after evs w)) as Hre.
        { intros evs2. apply wp_bind. destruct (_ || _); [|by exists evs2]. apply h_respond.
          - intros evs3. exists (evs3 ++ evs2). by rewrite after_app.
          - intros evs3 Hs Hq. exists (evs3 ++ evs2). rewrite after_app in Hq |- *. split; [done|]. right. right. right. done. }
        destruct mk; [|exact (Hre _)]. apply h_prekeys. intros evs2. rewrite after_app. apply Hre. }
      destruct (ct_empty (m_content m)); [exact (Hst _ _)|]. apply wp_bind.
      hc (BDecPlain ns (m_content m) p) (fun r => EvDecPlain ns (m_content m) p r). intros r2 b ->. rewrite after_app. exact (Hst _ _). }
    destruct mk as [k|].
    - unfold dec_kex. destruct (decide (kx_ik k = dv_ik d)) as [_|Hne].
      2:{ exists [EvEval d (Val t)]. split; [done|]. right. right. left. split; [done|]. exists k, t. split; [done|]. split; [done|]. left. }
      apply wp_bind. hc (BLoadSession ns (dv_jid d) (dv_id d)) (fun r => EvLoadSession ns (dv_jid d) (dv_id d) r). intros r2 ms ->.
      rewrite after_app. apply wp_bind.
      assert (forall ms' evs, wp hs T (match ms' with None => b_build_passive ns (dv_jid d) (dv_id d) k e | Some s => b_dec_key ns s e end)
        (fun o w' => match o with Val r => wp hs T (let (s, p) := r in
           plaintext <- (if ct_empty (m_content m) then Ret None
                    else pt <- b_dec_plain ns (m_content m) p ;; Ret (Some pt)) ;;
      b_store_session ns s ;;;
      dec_prekeys cf ns s ;;;
      (if bool_decide (Some k <> None) || (STALENESS_MAGIC_NUMBER <? Model.maybe 0 (s_rcl s))%Z
       then dec_respond cf ns s else Ret tt) ;;;
      Ret (plaintext, d, p)) (fun o w' => exists evs, w' = after evs w /\
      match o with Val _ => True | Exn x => rest_exn d (Some k) evs (w_sync w) (w_disk w') x end) w'
        | Exn x => exists evs, w' = after evs w /\ rest_exn d (Some k) evs (w_sync w) (w_disk w') x end) (after evs w)) as Hk.
      { intros [s|] evs.
        - hc (BDecKey ns s e) (fun r => EvDecKey ns s e r). intros r3 [s' p] ->. rewrite after_app. apply Hrest.
        - hc (BBuildPassive ns (dv_jid d) (dv_id d) k e) (fun r => EvBuildPassive ns (dv_jid d) (dv_id d) k e r). intros r3 [s' p] ->. rewrite after_app. apply Hrest. }
      destruct ms as [s|]; [|exact (Hk None _)]. destruct (decide (s_init s = Passive)) as [_|_]; [|exact (Hk None _)].
      apply wp_bind, hsame. intros [|]; rewrite after_app; [exact (Hk (Some s) _)|exact (Hk None _)].
    - unfold dec_existing. apply wp_bind. hc (BLoadSession ns (dv_jid d) (dv_id d)) (fun r => EvLoadSession ns (dv_jid d) (dv_id d) r). intros r2 [s|] ->.
      + rewrite after_app. hc (BDecKey ns s e) (fun r => EvDecKey ns s e r). intros r3 [s' p] ->. rewrite after_app. apply Hrest.
      + rewrite after_app. eexists. split; [done|]. right. left. split; [done|]. split; [done|]. left.
  Qed.
End dec.

Lemma life_after me w0 w cf c o w' : life me (Off, w0) (On cf, w) -> on cf c ->
  (forall cf mtd jids pt prio ident, c <> KEncrypt cf mtd jids pt prio ident) ->
  exec hs (run_call c) w o w' -> life me (Off, w0) (On cf, w').
Proof.
  intros HL Hon Hn H. eapply PfAlive4.life_trans; [exact HL|]. eapply PfAlive4.life_app; [|by eapply with_contract_exec]. apply app_call; [done|].
  intros ?????? ->. by edestruct Hn.
Qed.
Section why.
  Context (me : string) (w0 : world) (cf cf' : cfg) (m : message) (H0 : w_disk w0 = ∅) (Hcf : same_device cf cf').
  Notation ns := (m_ns m).
  Notation j := (m_jid m).
  Lemma h_sender w o w' : life me (Off, w0) (On cf, w) -> ns ∈ w_loaded w -> exec hs (dec_sender cf' m) w o w' ->
    exists evs, w' = after evs w /\
    match o with
    | Val d => Dec.recorded cf' (w_disk w') d /\ dkey d = (j, m_dev m)
    | Exn x => x = ESenderNotFound /\ (exists dl, EvDownloadDL ns j (Val dl) ∈ evs) /\
        ~ found_in (w_disk w) m /\ ~ found_in (w_disk w') m
    end.
  Proof using H0 Hcf.
    intros HL Hns H. destruct o as [d|x].
    { apply with_contract_exec in H. destruct (sender_base healthy cf' m _ _ _ H) as (evs & -> & F1 & _). exists evs. split; [done|]. split; [done|].
      unfold dec_sender in H. apply exec_bind in H as [(ds & w1 & H1 & H)|(? & _ & [=])].
      destruct (filter _ ds) as [|d0 l0] eqn:E.
      - apply exec_bind in H as [(? & w2 & _ & H)|(? & _ & [=])]. apply exec_bind in H as [(ds' & w3 & H3 & H)|(? & _ & [=])].
        destruct (filter _ ds') as [|d0 l0] eqn:E'; [by destruct H|]. destruct H as [[= ->] _]. apply head_sender in E' as [Hd Hx].
        destruct (info_recorded healthy cf' m _ _ _ _ H3 Hd) as (_ & Hj & _). unfold dkey. by rewrite Hj, Hx.
      - destruct H as [[= ->] _]. apply head_sender in E as [Hd Hx]. destruct (info_recorded healthy cf' m _ _ _ _ H1 Hd) as (_ & Hj & _).
        unfold dkey. by rewrite Hj, Hx. }
    unfold dec_sender in H. apply exec_bind in H as [(ds & w1 & H1 & H)|(e & H1 & _)].
    2:{ eapply (life_sure me w0 w cf (KGetInfo cf' j)) in H1 as (v & [=]); done. }
    pose proof (life_after _ _ _ _ (KGetInfo cf' j) _ _ HL Hcf ltac:(done) H1) as HL1.
    apply with_contract_exec in H1. destruct (em_exec _ _ _ _ _ _ (em_info cf' j) H1) as (_ & evs1 & _ & ->).
    destruct (filter _ ds) as [|d0 l0] eqn:E; [|by destruct H].
    apply exec_bind in H as [([] & w2 & H2 & H)|(e & H2 & _)].
    2:{ eapply (life_sure me w0 _ cf (KRefresh cf' ns j)) in H2 as (v & [=]); done. }
    pose proof (life_after _ _ _ _ (KRefresh cf' ns j) _ _ HL1 Hcf ltac:(done) H2) as HL2.
    assert (exists evs2 dl, w2 = after evs2 (after evs1 w) /\ EvDownloadDL ns j (Val dl) ∈ evs2) as (evs2 & dl & -> & Hdl).
    { apply with_contract_exec in H2. destruct (em_exec _ _ _ _ _ _ (em_refresh cf' ns j) H2) as (_ & evs2 & _ & E2).
      unfold refresh_device_list in H2. apply exec_bind in H2 as [(dl & w2' & (r & Hr & H2) & H2')|(y & _ & [=])].
      destruct r as [dl'|]; [|by destruct H2]. destruct H2 as [[= ->] ->].
      destruct (em_exec _ _ _ _ _ _ (em_update cf' ns j dl') H2') as (_ & evs4 & _ & Ew4).
      exists evs2, dl'. split; [done|]. apply (f_equal w_log) in Ew4. rewrite E2 in Ew4. simpl in Ew4.
      change (evs2 ++ evs1 ++ w_log w = evs4 ++ [EvDownloadDL ns j (Val dl')] ++ (evs1 ++ w_log w)) in Ew4.
      rewrite (app_assoc evs4) in Ew4. apply app_inv_tail in Ew4. rewrite Ew4. apply elem_of_app. right. left. }
    apply exec_bind in H as [(ds' & w3 & H3 & H)|(e & H3 & _)].
    2:{ eapply (life_sure me w0 _ cf (KGetInfo cf' j)) in H3 as (v & [=]); done. }
    apply with_contract_exec in H3. destruct (em_exec _ _ _ _ _ _ (em_info cf' j) H3) as (_ & evs3 & _ & E3).
    destruct (filter _ ds') as [|d1 l1] eqn:E'; [|by destruct H]. destruct H as [[= ->] ->].
    exists (evs3 ++ evs2 ++ evs1). split; [by rewrite E3, !after_app, <- ?app_assoc|]. split; [done|]. split.
    { exists dl. apply elem_of_app. right. apply elem_of_app. by left. }
    split.
    { intros [Hkn (ik & Hk)]. apply get_info_exec in H1 as (ids & bs & Hids & _ & _ & _ & V1 & _). simpl in V1. apply (known_ids _ _ _ _ Hids) in Hkn.
      destruct (V1 _ Hkn) as [(dv & Hdv & Ed)|[HN _]].
      - assert (dv ∈ @nil device) as Hc; [|by apply elem_of_nil in Hc]. rewrite <- E. by apply elem_of_list_filter.
      - destruct Hk as (s & Hs & _). change (item_key (IIdentityKey j (m_dev m))) with (k_ik j (m_dev m)) in Hs. congruence. }
    intros [Hkn (ik & Hk)]. rewrite (info_known cf' m _ _ _ _ H3) in Hkn.
    apply get_info_exec in H3 as (ids & bs & Hids & _ & _ & _ & V3 & _). simpl in V3. apply (known_ids _ _ _ _ Hids) in Hkn.
    destruct (V3 _ Hkn) as [(dv & Hdv & Ed)|[_ HN]].
    - assert (dv ∈ @nil device) as Hc; [|by apply elem_of_nil in Hc]. rewrite <- E'. by apply elem_of_list_filter.
    - destruct Hk as (s & Hs & _). change (item_key (IIdentityKey j (m_dev m))) with (k_ik j (m_dev m)) in Hs. congruence.
  Qed.
  Lemma dec_why w x w' : life me (Off, w0) (On cf, w) -> exec hs (decrypt cf' m) w (Exn x) w' ->
    exists evs, w' = after evs w /\ dec_reason cf' m w w' evs x.
  Proof using H0 Hcf.
    intros HL H. destruct (decide (ns ∈ w_loaded w)) as [Hns|Hns].
    2:{ unfold decrypt in H. apply exec_bind in H as [(l & w1 & H1 & H)|(e & H1 & _)].
      - apply with_contract_exec, exec_loaded in H1 as [[= ->] ->]. rewrite decide_False in H by done. destruct H as [[= ->] ->].
        exists []. split; [by rewrite after_nil|done].
      - by apply with_contract_exec, exec_loaded in H1 as [[=] _]. }
    pose proof (exec_reach _ _ _ _ _ H) as HR0. apply split_exec in H as [(-> & [([= ->] & l & [Hl _] & Hn)|([= ->] & Hn)])|(e & mk & Hg & H)]; [| | |done|done].
    - simpl in Hl. by subst.
    - exists []. split; [by rewrite after_nil|done].
    - destruct H as [(y & [= <-] & H)|(d & w1 & H1 & H2)].
      + apply h_sender in H as (evs & -> & -> & Hx); [|done|done]. exists evs. done.
      + apply h_sender in H1 as (evs1 & -> & Hrec & Hd); [|done|done]. injection Hd as Hj Hx.
        apply (wp_exec _ _ _ _ _ _ _ (h_rest cf' m d e mk (after evs1 w))) in H2 as (evs2 & -> & HR).
        rewrite after_app in HR0 |- *. exists (evs2 ++ evs1). split; [done|].
        assert (forall r, EvEval d r ∈ evs2 -> Dec.recorded cf' (w_disk (after (evs2 ++ evs1) w)) d /\
          forall ik, keyed (w_disk w) j (m_dev m) ik -> dv_ik d = ik) as Hrec'.
        { intros r Hr. destruct (dec_found healthy cf' m w _ (evs2 ++ evs1) d r HR0 eq_refl) as (F1 & F2 & _); [|done]. apply elem_of_app. by left. }
        destruct HR as [[-> HR]|[(-> & -> & HR)|[(-> & k & t & -> & HR & Ht)|[-> HR]]]].
        * exists d. split; [unfold dkey; by rewrite Hj, Hx|]. split; [by eapply (proj1 (Hrec' _ HR))|]. apply elem_of_app. by left.
        * split; [by exists e|]. rewrite <- Hj, <- Hx. apply elem_of_app. by left.
        * exists e, k, (dv_ik d). destruct (Hrec' _ Ht) as [HR1 HR2]. split; [done|]. split; [done|]. split; [rewrite <- Hj, <- Hx; apply HR1|]. intros ik Hik. symmetry. by apply HR2.
        * rewrite after_app in HR. exact HR.
  Qed.
  Lemma dec_delivered w o w' ik : life me (Off, w0) (On cf, w) -> exec hs (decrypt cf' m) w o w' ->
    m_ns m ∈ w_loaded w -> (exists e mk, given cf' m e mk) ->
    known (w_disk w) j (m_dev m) -> keyed (w_disk w) j (m_dev m) ik -> (forall e k, given cf' m e (Some k) -> kx_ik k = ik) ->
    (w_sync w = true -> ~ queue_broken (w_disk w')) ->
    exists evs, w_log w' = evs ++ w_log w /\
      ((forall d, EvEval d (Val Distrusted) ∉ evs) ->
       (forall e, given cf' m e None -> EvLoadSession ns j (m_dev m) (Val None) ∉ evs) ->
       exists r, o = Val r).
  Proof using H0 Hcf.
    intros HL H Hns (e & mk & Hg) Hkn Hk Hik Hq. destruct o as [r|x].
    { pose proof (dec_after healthy cf' m _ _ _ H) as (evs & -> & _). exists evs. split; [done|]. by exists r. }
    destruct (dec_why w x w' HL H) as (evs & -> & HR). exists evs. split; [done|]. intros Ht Hs. exfalso.
    destruct x; try exact HR.
    - by apply (HR e mk).
    - destruct HR as (_ & HR & _). apply HR. split; [done|]. by exists ik.
    - destruct HR as (d & _ & _ & HR). by apply (Ht d).
    - destruct HR as ((e0 & He) & HR). by apply (Hs e0).
    - destruct HR as (e0 & k & ik' & Hg' & Hne & _ & HR). apply Hne. rewrite <- (HR ik Hk). by apply (Hik e0).
    - by apply HR.
    - destruct HR as [HR1 HR2]. by apply Hq.
  Qed.
End why.
