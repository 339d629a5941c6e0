(** Set-up and whole lives (C10, C25, C26). *)
From Verif Require Import Api Spec Life Env PfStrs PfTyped PfWp PfHist PfEmits PfUpdate PfDevices PfInfo PfPurge PfFrame PfLife PfAlive PfAlive2 PfAlive3 PfFoot.
Open Scope prog_scope.
Open Scope list_scope.

(** what [create] raises *)
Definition raised_create (a : create_args) (e : exn) : Prop :=
  ext_exn e = true \/ e = EOutOfFuel \/
  (e = EValueError /\ (~ NoDup (a_backends a) \/ (a_threshold a < 25)%Z \/ (99 < a_threshold a)%Z)).
Lemma raised_not_internal a e : raised_create a e -> ~ internal e.
Proof. intros [H|[->|[-> _]]]; [by apply ext_not_internal|by intros [|[|[|]]]|by intros [|[|[|]]]]. Qed.

Section create.
  Context (me : string).
  Definition J0 (w : world) : Prop := sound me (w_disk w).

  Lemma wp_ext0 (I : world -> Prop) {A} c (k : resp c -> api A) (Q : outcome A -> world -> Prop) w :
    external c = true -> (forall w', w_disk w' = w_disk w -> I w') ->
    (forall r, w_allowed w c r -> forall w', w_disk w' = w_disk w -> wp base I (k r) Q w') -> wp base I (Step c k) Q w.
  Proof.
    intros Hc HI Hk. apply wp_step. intros r Hr. assert (w_disk (w_apply w c r) = w_disk w) as E by (by apply ext_disk).
    split; [by apply HI|]. by apply Hk.
  Qed.
  Lemma wp_store0 k v (Q : outcome unit -> world -> Prop) w :
    J0 w -> sound me (<[k := v]> (w_disk w)) ->
    (forall e w', ext_exn e = true -> J0 w' -> Q (Exn e) w') ->
    (forall w', w_disk w' = <[k := v]> (w_disk w) -> Q (Val tt) w') ->
    wp base J0 (s_store k v) Q w.
  Proof.
    intros HJ HJ' He Hv. apply wp_store; [by intros [[]|e] Hr|by intros e Hr; apply He|by apply Hv].
  Qed.
  (** draws and downloads leave the storage alone *)
  Lemma fresh_same fuel ids w (I : world -> Prop) : (forall w', w_disk w' = w_disk w -> I w') ->
    wp base I (fresh_id fuel ids) (fun o w' => w_disk w' = w_disk w /\ match o with Exn e => e = EOutOfFuel | _ => True end) w.
  Proof.
    intros HI. induction fuel as [|fuel IH]; cbn [fresh_id].
    - by apply wp_raise.
    - apply wp_bind, wp_randbelow; [by apply HI|]. intros r _. case_decide; [done|]. by apply wp_ret.
  Qed.
  Lemma first_local_wp P fuel a k w : a_jid a = me -> J0 w -> w_disk w !! k_own = None ->
    wp base J0 (first_run_local P fuel a k)
      (fun o w' => match o with Val dev => JW me dev w' | Exn e => J0 w' /\ raised_create a e end) w.
  Proof.
    intros Ha HJ HO. unfold first_run_local. rewrite Ha.
    assert (forall w', w_disk w' = w_disk w -> J0 w') as HI by (intros w' E; unfold J0; by rewrite E).
    apply wp_bind, wp_loaded; [done|].
    apply wp_bind. apply (wp_map_prog _ (fun _ _ w' => w_disk w' = w_disk w)); [done| |].
    { intros pre ns post ys w1 _ E. apply wp_bind. unfold n_download_dl. apply wp_ext0; [done|intros w' E'; apply HI; congruence|].
      intros r Hr w' E'. apply wp_of_outcome. destruct r as [dl|e].
      - apply wp_ret. congruence.
      - split; [apply HI; congruence|]. by left. }
    intros lists w1 E1. apply wp_bind. eapply wp_conseq; [apply fresh_same|].
    { intros w' E. apply HI. congruence. }
    intros [dev|e] w2 [E2 He]; [|split; [apply HI; congruence|by right; left]]. cbv zeta. rewrite E1 in E2. clear w1 E1.
    apply wp_bind, wp_loaded; [by apply HI|]. assert (J0 w2) as HJ2 by (by apply HI).
    assert (forall e w', ext_exn e = true -> J0 w' -> J0 w' /\ raised_create a e) as HE.
    { intros e w' H1 H2. split; [done|]. by left. }
    assert (w_disk w2 !! k_own = None) as HO2 by (by rewrite E2). clear w HJ HO HI E2.
    apply wp_bind, wp_store0; [done| |done|].
    { apply (J_boot_insert me _ dev (INamespaces me dev)); [done|done|by left|]. exists (w_loaded w2). apply is_strs. }
    intros w3 E3. assert (J0 w3) as HJ3.
    { unfold J0. rewrite E3. apply (J_boot_insert me _ dev (INamespaces me dev)); [done|done|by left|]. exists (w_loaded w2). apply is_strs. }
    assert (w_disk w3 !! k_own = None) as HO3 by (rewrite E3, lookup_insert_ne; [done|kneq]).
    assert (hns (w_disk w3) me dev (w_loaded w2)) as HN by (rewrite E3; apply hns_new, lookup_insert).
    apply wp_bind, wp_loaded; [done|]. clear E3.
    assert (forall l, sound me (<[k_active me dev := j_bools l]> (w_disk w3))) as HA.
    { intros l. apply (J_boot_insert me _ dev (IActive me dev)); [done|done|by right|]. exists l. apply is_bools. }
    apply wp_bind, wp_store0; [done|apply HA|done|]. intros w4 E4.
    assert (J0 w4) as HJ4 by (unfold J0; rewrite E4; apply HA). clear HA.
    assert (w_disk w4 !! k_own = None) as HO4 by (rewrite E4, lookup_insert_ne; [done|kneq]).
    assert (hns (w_disk w4) me dev (w_loaded w2)) as HN4.
    { eapply hk_eq; [|exact HN]. rewrite E4, lookup_insert_ne; [done|kneq]. }
    match type of E4 with context [j_bools ?m] => set (mm := m) in * end.
    assert (hact (w_disk w4) me dev mm) as HA4 by (rewrite E4; apply hact_new, lookup_insert). clear E4 HN.
    assert (sound me (<[k_label me dev := j_opt (a_label a)]> (w_disk w4))) as HS.
    { apply (J_insert me _ (ILabel me dev)); [done|]. exists (a_label a). apply is_label. }
    apply wp_bind, wp_store0; [done|done|done|]. intros w5 E5. rewrite <- E5 in HS.
    assert (w_disk w5 !! k_own = None) as HO5 by (rewrite E5, lookup_insert_ne; [done|kneq]).
    assert (hns (w_disk w5) me dev (w_loaded w2)) as HN5 by (eapply hk_eq; [|exact HN4]; rewrite E5, lookup_insert_ne; [done|kneq]).
    assert (hact (w_disk w5) me dev mm) as HA5 by (eapply hk_eq; [|exact HA4]; rewrite E5, lookup_insert_ne; [done|kneq]).
    assert (hlab (w_disk w5) me dev (a_label a)) as HL5 by (rewrite E5; apply hlab_new, lookup_insert).
    clear E5 HN4 HA4. set (ik := ikp_identity_key P k).
    assert (sound me (<[k_ik me dev := JStr (b64enc ik)]> (w_disk w5))) as HS6.
    { apply (J_insert me _ (IIdentityKey me dev)); [done|]. exists (b64enc ik), ik. split; [done|]. apply b64_roundtrip. }
    apply wp_bind. unfold store_bytes. apply wp_store0; [done|done|done|]. intros w6 E6. rewrite <- E6 in HS6.
    assert (w_disk w6 !! k_own = None) as HO6 by (rewrite E6, lookup_insert_ne; [done|kneq]).
    assert (hns (w_disk w6) me dev (w_loaded w2)) as HN6 by (eapply hk_eq; [|exact HN5]; rewrite E6, lookup_insert_ne; [done|kneq]).
    assert (hact (w_disk w6) me dev mm) as HA6 by (eapply hk_eq; [|exact HA5]; rewrite E6, lookup_insert_ne; [done|kneq]).
    assert (hlab (w_disk w6) me dev (a_label a)) as HL6 by (eapply hk_eq; [|exact HL5]; rewrite E6, lookup_insert_ne; [done|kneq]).
    assert (keyed (w_disk w6) me dev ik) as HK6.
    { exists (b64enc ik). split; [rewrite E6; apply lookup_insert|apply b64_roundtrip]. }
    clear E6 HN5 HA5 HL5.
    assert (sound me (<[k_list me := j_ints [dev]]> (w_disk w6))) as HS7 by (by eapply J_boot_list).
    apply wp_bind, wp_store0; [done|done|done|]. intros w7 E7. rewrite <- E7 in HS7.
    assert (w_disk w7 !! k_own = None) as HO7 by (rewrite E7, lookup_insert_ne; [done|kneq]).
    assert (w_disk w7 !! k_list me = Some (j_ints [dev])) as HL7 by (rewrite E7; apply lookup_insert).
    assert (keyed (w_disk w7) me dev ik) as HK7.
    { destruct HK6 as (s & H1 & H2). exists s. split; [|done]. rewrite E7, lookup_insert_ne; [done|].
      change (item_key (IIdentityKey me dev)) with (k_ik me dev). kneq. }
    assert (sound me (<[k_trust me ik := JStr (a_undecided a)]> (w_disk w7))) as HS8.
    { apply (J_insert me _ (ITrust me ik)); [done|]. exists (a_undecided a). constructor. }
    apply wp_bind, wp_store0; [done|done|done|]. intros w8 E8. rewrite <- E8 in HS8.
    assert (w_disk w8 !! k_own = None) as HO8 by (rewrite E8, lookup_insert_ne; [done|kneq]).
    assert (w_disk w8 !! k_list me = Some (j_ints [dev])) as HL8 by (rewrite E8, lookup_insert_ne; [done|kneq]).
    assert (keyed (w_disk w8) me dev ik) as HK8.
    { destruct HK7 as (s & H1 & H2). exists s. split; [|done]. rewrite E8, lookup_insert_ne; [done|].
      change (item_key (IIdentityKey me dev)) with (k_ik me dev). kneq. }
    assert (sound me (<[k_own := JInt dev]> (w_disk w8))) as HS9.
    { apply J_boot_own; [done|done|done|]. by exists ik. }
    apply wp_bind, wp_store0; [done|done|done|]. intros w9 E9. rewrite <- E9 in HS9.
    apply wp_ret. split; [done|]. rewrite E9. apply lookup_insert.
  Qed.

  Ltac gext Hb := unfold b_load_session, b_store_session, b_build_active, b_build_passive, b_enc_plain, b_enc_empty,
    b_enc_key, b_dec_plain, b_dec_key, b_spk_age, b_rotate, b_hide, b_delete, b_del_hidden, b_num_visible, b_generate,
    b_get_bundle, b_purge, b_purge_jid, n_upload_bundle, n_download_bundle, n_delete_bundle, n_upload_dl,
    n_send, t_eval, t_blind, c_sleep in *;
    (apply good_step; [done|let Hr := fresh in intros ? ? Hr; apply good_outcome; eapply ext_okfine; [exact Hb|exact Hr]]).
  Section started.
    Context (dev : Z) (bad : exn -> Prop).
    Hypothesis Hbad : forall e, bad e -> ext_exn e = false.
    Context (cf : cfg).
    Hypothesis Hme : c_jid cf = me.
    Hypothesis Hdev : c_dev cf = dev.
    Lemma good_publish : good me dev bad (first_run_publish cf).
    Proof using Hbad Hme Hdev.
      unfold first_run_publish. apply good_bind; [apply good_gloaded|]. intros l. apply good_bind.
      { apply good_for_each. intros ns _. gext Hbad. }
      intros _. apply good_bind; [apply good_gloaded|]. intros l'. apply good_bind.
      { apply good_for_each. intros ns _. apply good_bind; [gext Hbad|]. intros b. gext Hbad. }
      intros _. apply good_bind; [apply good_gloaded|]. intros l''. apply good_for_each. intros ns _. by apply good_refresh.
    Qed.
    Lemma good_reconcile : good me dev bad (reconcile cf).
    Proof using Hbad Hme Hdev.
      unfold reconcile. apply good_bind; [by apply good_get_own|]. intros r.
      apply good_bind; [apply good_gloaded|]. intros bs. cbv zeta. destruct (set_eqb _ _); [apply good_ret|].
      apply good_bind; [apply good_order|]. intros l1. apply good_bind; [by apply good_store_active|]. intros _.
      apply good_bind; [apply good_order|]. intros l2. apply good_bind; [by apply good_store_ns|]. intros _.
      apply good_bind; [apply good_gloaded|]. intros bs'. apply good_bind.
      { apply good_for_each. intros ns _. unfold add_backend. case_decide; [apply good_ret|].
        apply good_bind; [gext Hbad|]. intros n. apply good_bind; [destruct (_ <=? _)%Z; [gext Hbad|apply good_ret]|]. intros _.
        apply good_bind; [gext Hbad|]. intros b. apply good_bind; [gext Hbad|]. intros _. by apply good_refresh. }
      intros _. apply good_bind; [apply good_order|]. intros rem. apply good_for_each. intros ns _. by apply good_purge_backend.
    Qed.
  End started.

  (** [create] on a sound storage; the own device never changes *)
  Lemma create_wp P fuel a w : a_jid a = me -> J0 w ->
    wp base (fun w' => J0 w' /\ forall id, has_own id (w_disk w) -> has_own id (w_disk w')) (create P fuel a)
      (fun o w' => match o with Val c => c_jid c = me /\ JW me (c_dev c) w' | Exn e => raised_create a e end) w.
  Proof.
    intros Ha HJ. set (I := fun w' : world => _). assert (I w) as HI by done.
    assert (forall w', w_disk w' = w_disk w -> I w') as HI0 by (intros w' E; unfold I, J0; by rewrite E).
    assert (forall A e, raised_create a e -> wp base I (Raise (A := A) e) (fun o w' => match o with Exn e => raised_create a e | Val _ => True end) w) as HR.
    { intros A e He. by apply wp_raise. }
    unfold create. destruct (negb _) eqn:En.
    { apply wp_raise. right; right. split; [done|]. left. intros HN. apply negb_true_iff, bool_decide_eq_false in En. by apply En, pyset_length. }
    clear En. destruct (negb _) eqn:Et.
    { apply wp_raise. right; right. split; [done|]. right. apply negb_true_iff, andb_false_iff in Et.
      destruct Et as [Et|Et]; apply Z.leb_gt in Et; [by left|by right]. }
    clear Et.
    apply wp_bind, wp_ploaded; [by apply HI0|]. apply wp_bind.
    match goal with |- wp _ _ _ _ ?u => set (w1 := u); assert (w_disk w1 = w_disk w) as E1 by done; clearbody w1 end.
    assert (sound me (w_disk w1)) as HJ1 by (by rewrite E1).
    eapply wp_mono; [apply wp_inv; [apply (ikp_sound me); exact HJ1|done]| |].
    { intros w' [H1 H2]. split; [done|]. intros id. unfold has_own. change (item_key IOwnDeviceId) with k_own. by rewrite H2, E1. }
    intros [k|e] w2 [[HJ2 HO2] Hk]; [|by left]. rewrite E1 in HO2. clear w1 E1 HJ1 Hk.
    assert (I w2) as HI2.
    { split; [done|]. intros id. unfold has_own. change (item_key IOwnDeviceId) with k_own. by rewrite HO2. }
    apply wp_bind, wp_psync; [done|]. apply wp_bind.
    assert (forall e, ext_exn e = true -> raised_create a e) as HX by (by left).
    assert (forall e, ext_exn e = false -> ext_exn e = false) as HX' by done.
    assert (forall e, ~ ext_exn e = false -> raised_create a e) as HX'' by (intros e He; left; by destruct (ext_exn e)).
    assert (forall dev w3, JW me dev w3 -> (forall id, has_own id (w_disk w) -> id = dev) ->
      wp base I (reconcile (cfg_of a dev);;; Ret (cfg_of a dev))
        (fun o w' => match o with Val c => c_jid c = me /\ JW me (c_dev c) w' | Exn e => raised_create a e end) w3) as Hrest.
    { intros dev w3 HJ3 Hid. apply wp_bind.
      eapply wp_mono; [apply (good_reconcile dev (fun e => ext_exn e = false)); [done|done|done|exact HJ3]| |].
      - intros w' [H1 H2]. split; [done|]. intros id Hi. by apply Hid in Hi as ->.
      - intros [[]|e] w' [H1 H2]; [|by apply HX'']. by apply wp_ret. }
    apply (wp_typed _ _ _ _ _ _ good_int).
    - apply HI2.
    - by intros e He; apply HX.
    - intros Hn. cbn [w_disk w_apply] in Hn. change (w_disk w2 !! k_own = None) in Hn. apply wp_bind.
      assert (forall id, ~ has_own id (w_disk w)) as Hno.
      { intros id. unfold has_own. change (item_key IOwnDeviceId) with k_own. rewrite <- HO2. congruence. }
      apply wp_bind. eapply wp_mono; [apply (first_local_wp P fuel a k); [done| |]| |].
      + exact HJ2.
      + exact Hn.
      + intros w' H. split; [done|]. intros id Hi. by apply Hno in Hi.
      + intros [dev|e] w3 H3; [|by destruct H3]. apply wp_bind.
        eapply wp_mono; [apply (good_publish dev (fun e => ext_exn e = false)); [done|done|done|exact H3]| |].
        * intros w' [H _]. split; [done|]. intros id Hi. by apply Hno in Hi.
        * intros [[]|e] w4 [H4 He]; [|by apply HX'']. apply wp_ret. apply Hrest; [done|]. intros id Hi. by apply Hno in Hi.
    - intros v dev Hv Ht. change (w_disk w2 !! k_own = Some v) in Hv. apply wp_bind, wp_ret.
      assert (has_own dev (w_disk w2)) as Hd.
      { pose proof HJ2 as (_ & _ & [HN|[id Hid]] & _); [change (w_disk w2 !! k_own = None) in HN; congruence|].
        unfold has_own in *. change (item_key IOwnDeviceId) with k_own in *. rewrite Hv in Hid. injection Hid as ->.
        rewrite Hv. by inversion Ht. }
      apply Hrest; [by split|]. intros id. unfold has_own in *. change (item_key IOwnDeviceId) with k_own in *. rewrite <- HO2. congruence.
    - intros v Hv Hn. exfalso. change (w_disk w2 !! k_own = Some v) in Hv. destruct HJ2 as [HT _].
      destruct (HT IOwnDeviceId v) as [z Hz]; [done|done|]. by apply (Hn z).
  Qed.
  Lemma good_create dev (bad : exn -> Prop) P fuel a : (forall e, raised_create a e -> ~ bad e) -> a_jid a = me -> good me dev bad (create P fuel a).
  Proof.
    intros Hb Ha w [HJ HO]. eapply wp_mono; [apply wp_inv; [by apply create_wp|by split]| |].
    - intros w' [H1 H2]. split; [done|]. by apply H2.
    - intros [c|e] w' [[H1 H2] H3]; (split; [split; [done|by apply H2]|]); [done|]. by apply Hb.
  Qed.
End create.

(** ** Calls, application code and lives *)
Section calls.
  Context (me : string) (dev : Z) (bad : exn -> Prop).
  Hypothesis Hbad : forall e, bad e -> ext_exn e = false.
  Context (cf : cfg).
  Hypothesis Hme : c_jid cf = me.
  Hypothesis Hdev : c_dev cf = dev.
  Lemma good_call c : on cf c ->
    match c with
    | KEncrypt _ mtd _ _ _ _ => ~ bad EKeyError /\ forall ds i, good me dev bad (mtd ds i)
    | KDecrypt _ _ | KAfter _ => ~ bad ETypeError
    | KRotation _ _ _ => ~ bad EOutOfFuel
    | KReplace _ _ _ => ~ bad ERuntime
    | KCreate _ _ a => forall e, raised_create a e -> ~ bad e
    | _ => True
    end -> good me dev bad (run_call c).
  Proof using Hbad Hme Hdev.
    intros Hon Hc. destruct c; simpl in Hon |- *;
      try (assert (c_jid cf0 = me /\ c_dev cf0 = dev) as [Hm' Hd'] by (destruct Hon as [-> ->]; done)).
    - apply good_create; [done|]. congruence.
    - by apply good_ikp.
    - by apply good_update.
    - by apply good_refresh.
    - by apply good_refresh_all.
    - by apply good_set_trust.
    - by apply good_info.
    - by apply good_get_own.
    - by apply good_set_label.
    - by apply good_purge_backend.
    - done.
    - by apply good_rotation.
    - by apply good_ensure.
    - by apply good_replace.
    - by apply good_chain.
    - apply good_psync.
    - by apply good_after.
    - destruct Hc as [Hk Hmtd]. intros w HJ. by apply good_encrypt.
    - by apply good_decrypt.
  Qed.
End calls.

Lemma good_app cf A (p : api A) : appcode (on cf) p -> good (c_jid cf) (c_dev cf) (fun _ => False) p.
Proof.
  intros H. induction H as [A a|A e|A B p f Hp IHp Hf IHf|A p Hp IHp|c Hc|c Hc Hm IHm].
  - apply good_ret.
  - apply good_raise'. by intros [].
  - by apply good_bind.
  - by apply good_try.
  - unfold act. apply good_step; [done|]. intros. apply good_ret.
  - eapply good_call; [done|reflexivity|reflexivity|done|]. destruct c; try exact Logic.I; try (by intros []); try (by intros ? _ []).
    split; [by intros []|]. intros ds i. by eapply IHm.
Qed.
Lemma good_tame cf A (p : api A) : tame (on cf) p -> good (c_jid cf) (c_dev cf) internal p.
Proof.
  pose proof internal_ext as HX. intros H. induction H as [A a|A e He|A B p f Hp IHp Hf IHf|A p Hp|A c k Hc Hk IHk|c Hc Hm].
  - apply good_ret.
  - by apply good_raise'.
  - by apply good_bind.
  - intros w HJ. apply wp_try. eapply wp_conseq; [by apply good_app|]. by intros o w' [H1 _].
  - by apply good_step.
  - eapply good_call; [done|reflexivity|reflexivity|done|]. destruct c; try done; try (by intros [|[|[|]]]).
    intros e He. by eapply raised_not_internal.
Qed.
Lemma boots_sound me A (p : api A) w : appcode (boots me) p -> J0 me w -> wp base (J0 me) p (fun _ w' => J0 me w') w.
Proof.
  intros H. revert w. induction H as [A a|A e|A B p f Hp IHp Hf IHf|A p Hp IHp|c Hc|c Hc Hm IHm]; intros w HJ.
  - by apply wp_ret.
  - by apply wp_raise.
  - apply wp_bind. eapply wp_conseq; [by apply IHp|]. intros [a|e] w' H; [by apply IHf|done].
  - apply wp_try. by apply IHp.
  - unfold act. apply wp_ext0; [done|intros w' E; unfold J0; by rewrite E|]. intros r Hr w' E. apply wp_ret. unfold J0. by rewrite E.
  - destruct c; try done.
    + eapply wp_mono; [apply wp_inv; [by apply (create_wp me)|done]|intros w' [H _]; done|intros o w' [[H _] _]; done].
    + eapply wp_mono; [apply wp_inv; [by apply (ikp_sound me)|done]|intros w' [H _]; done|intros o w' [[H _] _]; done].
Qed.

(** The records of one account are gone, its device list included. *)
Lemma J_gone me jid d d' : sound me d -> jid <> me ->
  (forall i, ~ account_item jid i -> d' !! item_key i = d !! item_key i) ->
  (forall i v, d' !! item_key i = Some v -> d !! item_key i = Some v) ->
  d' !! k_list jid = None -> sound me d'.
Proof.
  intros (HT & HR & HO & HK & HP) Hj Hk Hsub Hnone.
  assert (forall id, has_own id d' <-> has_own id d) as Eo by (intros id; unfold has_own; rewrite Hk; [done|intros []]).
  split; [|split; [|split; [|split]]].
  - intros i v Hi Hv. by apply HT, Hsub.
  - intros j x Hkn. destruct (decide (j = jid)) as [->|Hne].
    { exfalso. destruct Hkn as (l & (v & Hv & _) & _). change (d' !! k_list jid = Some v) in Hv. congruence. }
    assert (known d j x) as Hkn0 by (unfold known, holds in *; by rewrite Hk in Hkn).
    apply HR, recorded_k in Hkn0 as (l & m & o & H1 & H2 & H3 & H4). apply recorded_k. exists l, m, o.
    split; [eapply hk_eq; [|exact H1]; by apply (Hk (INamespaces j x))|].
    split; [eapply hk_eq; [|exact H2]; by apply (Hk (IActive j x))|].
    split; [eapply hk_eq; [|exact H3]; by apply (Hk (ILabel j x))|].
    intros Hf. apply H4. intros [? Hm]. apply Hf. split; [done|]. intros id. rewrite Eo. apply Hm.
  - rewrite Hk by (intros []). destruct HO as [HO|[id Hid]]; [by left|]. right. exists id. by apply Eo.
  - intros id Hid. apply Eo, HK in Hid as [Hkn (ik & s & H1 & H2)]. split.
    + unfold known, holds in *. rewrite Hk; [done|]. simpl. congruence.
    + exists ik, s. split; [|done]. rewrite Hk; [done|]. simpl. congruence.
  - unfold ikp_wf, has_ikp in *. by rewrite !Hk by (intros []).
Qed.

(** ** While purges are outstanding *)
(** the storage without the device lists of some accounts *)
Definition cut (D : list string) (d : gmap string json) : gmap string json := filter (fun e => e.1 ∉ map k_list D) d.
Definition cutw (D : list string) (w : world) : world := World (cut D (w_disk w)) (w_loaded w) (w_sync w) (w_log w).
Lemma cut_ne D d k : k ∉ map k_list D -> cut D d !! k = d !! k.
Proof.
  intros Hk. unfold cut. destruct (d !! k) as [v|] eqn:E.
  - by apply map_filter_lookup_Some.
  - apply map_filter_lookup_None. by left.
Qed.
Lemma cut_in D d k : k ∈ map k_list D -> cut D d !! k = None.
Proof. intros Hk. unfold cut. apply map_filter_lookup_None. right. intros v _ H. by apply H. Qed.
Lemma cut_nil d : cut [] d = d.
Proof. apply map_eq. intros k. apply cut_ne. apply not_elem_of_nil. Qed.
Lemma cut_some D d k v : cut D d !! k = Some v -> d !! k = Some v.
Proof. intros [H _]%map_filter_lookup_Some. done. Qed.
Lemma in_lists j i : item_key i = k_list j -> i = IDeviceList j.
Proof. intros H. symmetry. by apply core_inj. Qed.

Lemma in_cut D j : j ∈ D -> k_list j ∈ map k_list D.
Proof. intros H. apply elem_of_list_In, in_map, elem_of_list_In, H. Qed.
Lemma in_cut_inv D i : item_key i ∈ map k_list D -> exists j, j ∈ D /\ i = IDeviceList j.
Proof.
  intros (j & E & Hj)%elem_of_list_In%in_map_iff. exists j. split; [by apply elem_of_list_In|]. symmetry in E.
  by apply (in_lists j).
Qed.

Section cutsim.
  Context (D : list string).
  Notation S := (fun k : string => k ∉ map k_list D).
  Lemma cut_allowed w c r : Ff S True True True c -> w_allowed w c r -> w_allowed (cutw D w) c r.
  Proof. intros HF Hr. destruct c; try done; simpl in *. by rewrite cut_ne. Qed.
  Lemma cut_apply w c r : Ff S True True True c -> w_apply (cutw D w) c r = cutw D (w_apply w c r).
  Proof.
    intros HF. destruct c; try done; simpl in *; destruct r; try done; unfold cutw; simpl; f_equal.
    - unfold cut. by rewrite map_filter_insert_True.
    - unfold cut. by rewrite map_filter_delete.
  Qed.
  Lemma cut_frame w c r k : Ff S True True True c -> k ∈ map k_list D -> w_disk (w_apply w c r) !! k = w_disk w !! k.
  Proof.
    intros HF Hk. destruct c; try done; simpl in *; destruct r; try done; simpl.
    - apply lookup_insert_ne. by intros ->.
    - apply lookup_delete_ne. by intros ->.
  Qed.
  Lemma cut_exec {A} (p : api A) w o w' : ft S True True True p -> exec base p w o w' ->
    exec base p (cutw D w) o (cutw D w') /\ forall k, k ∈ map k_list D -> w_disk w' !! k = w_disk w !! k.
  Proof.
    revert w. induction p as [a|e|c k IH]; intros w Hp H.
    - destruct H as [-> ->]. done.
    - destruct H as [-> ->]. done.
    - destruct Hp as [HF Hp]. destruct H as (r & Hr & H). apply IH in H as [H1 H2]; [|by apply Hp]. split.
      + exists r. split; [by apply cut_allowed|]. by rewrite cut_apply.
      + intros k0 Hk0. rewrite H2 by done. by apply cut_frame.
  Qed.
  Lemma cut_reach {A} (p : api A) w w' : ft S True True True p -> reach base p w w' ->
    reach base p (cutw D w) (cutw D w') /\ forall k, k ∈ map k_list D -> w_disk w' !! k = w_disk w !! k.
  Proof.
    revert w. induction p as [a|e|c k IH]; intros w Hp H.
    - destruct H as [->|H]; [split; [by left|done]|]. done.
    - destruct H as [->|H]; [split; [by left|done]|]. done.
    - destruct H as [->|(r & Hr & H)]; [split; [by left|done]|].
      destruct Hp as [HF Hp]. apply IH in H as [H1 H2]; [|by apply Hp]. split.
      + right. exists r. split; [by apply cut_allowed|]. by rewrite cut_apply.
      + intros k0 Hk0. rewrite H2 by done. by apply cut_frame.
  Qed.
  Lemma spares_ft (ok : call -> Prop) {A} (p : api A) : (forall c, ok c -> spares D c) -> appcode ok p -> ft S True True True p.
  Proof.
    intros Hok. apply ft_code; [by intros []|]. intros c Hc. split; [|done]. intros i Hi (j & Hj & ->)%in_cut_inv.
    exact (Hok c Hc j (IDeviceList j) Hj eq_refl Hi).
  Qed.
  Lemma boots_spares me c : Forall (fun j => j <> me) D -> boots me c -> spares D c.
  Proof.
    intros HD Hc j i Hj Hi Ht. rewrite Forall_forall in HD. apply HD in Hj. destruct c; try done; simpl in *.
    - destruct Ht as [Ht|[[Ht|Ht]|Ht]]; subst; try done. destruct i; simpl in *; congruence.
    - destruct Ht; by subst.
  Qed.
End cutsim.
Lemma code_sub ext (ok ok' : call -> Prop) {A} (p : api A) : (forall c, ok c -> ok' c) -> code ext ok p -> code ext ok' p.
Proof.
  intros Hok H. induction H; [by constructor..|]. apply app_call; auto.
Qed.

Definition life_ok (me : string) (s : stage * world) : Prop :=
  match s.1 with Off => J0 me s.2 | On cf => c_jid cf = me /\ JW me (c_dev cf) s.2 end.
(** with purges of the accounts in [D] outstanding *)
Definition worn_ok (me : string) (s : stage * world * list string) : Prop :=
  Forall (fun j => j <> me) s.2 /\
  (forall j v, j ∈ s.2 -> w_disk s.1.2 !! k_list j = Some v -> item_type (IDeviceList j) v) /\
  life_ok me (s.1.1, cutw s.2 s.1.2).
Lemma purge_account d j i : purge_item d j i -> account_item j i.
Proof. by intros [->|(x & _ & [->|[->|[->|[->|(ik & _ & ->)]]]])]. Qed.
Lemma cut_purge me j D D' d d' : sound me (cut D d) -> j <> me ->
  (forall i, d' !! item_key i = d !! item_key i \/ purge_item d j i /\ d' !! item_key i = None) ->
  (forall j', j' ∈ D' -> j' ∈ D \/ j' = j) -> (forall j', j' ∈ D -> j' <> j -> j' ∈ D') ->
  (j ∈ D' \/ d' !! k_list j = None) -> sound me (cut D' d').
Proof.
  intros HS Hj Hd H1 H2 H3.
  assert (forall i v, cut D' d' !! item_key i = Some v -> i <> IDeviceList j) as Hnj.
  { intros i v Hv ->. change (cut D' d' !! k_list j = Some v) in Hv. destruct H3 as [H3|H3].
    - rewrite cut_in in Hv; [done|]. by apply in_cut.
    - apply cut_some in Hv. congruence. }
  apply (J_gone me j (cut D d)); [done|done| | |].
  - intros i Hi. destruct (decide (item_key i ∈ map k_list D')) as [Hin|Hin].
    + rewrite cut_in by done. apply in_cut_inv in Hin as (j' & Hj' & ->). simpl in Hi. rewrite cut_in; [done|].
      apply in_cut. by destruct (H1 j' Hj').
    + rewrite cut_ne by done. rewrite cut_ne.
      * destruct (Hd i) as [?|[Hp _]]; [done|]. by apply purge_account in Hp.
      * intros (j' & Hj' & ->)%in_cut_inv. apply Hin. apply (in_cut D'). apply H2; [done|]. simpl in Hi. congruence.
  - intros i v Hv. pose proof (Hnj i v Hv) as Hni. pose proof (cut_some _ _ _ _ Hv) as Hv'.
    rewrite cut_ne; [destruct (Hd i) as [<-|[_ ?]]; [done|congruence]|].
    intros (j' & Hj' & ->)%in_cut_inv. assert (j' ∈ D') as HD' by (apply H2; [done|congruence]).
    rewrite cut_in in Hv; [done|]. by apply (in_cut D').
  - destruct (cut D' d' !! k_list j) as [v|] eqn:E; [|done]. by edestruct (Hnj (IDeviceList j) v E).
Qed.
Lemma worn_purge me j D D' w w' cf st : worn_ok me (On cf, w, D) -> j <> me -> (st = On cf \/ st = Off) ->
  (forall i, w_disk w' !! item_key i = w_disk w !! item_key i \/ purge_item (w_disk w) j i /\ w_disk w' !! item_key i = None) ->
  (forall j', j' ∈ D' -> j' ∈ D \/ j' = j) -> (forall j', j' ∈ D -> j' <> j -> j' ∈ D') ->
  (j ∈ D' \/ w_disk w' !! k_list j = None) -> worn_ok me (st, w', D').
Proof.
  intros (HD & HT & Hcf & HS & HO) Hj Hst Hd H1 H2 H3. split; [|split]; simpl in *.
  - rewrite Forall_forall in HD |- *. intros j' [Hj'| ->]%H1; auto.
  - intros j' v Hj' Hv. assert (w_disk w !! k_list j' = Some v) as Hv'.
    { destruct (Hd (IDeviceList j')) as [E|[_ E]]; change (item_key (IDeviceList j')) with (k_list j') in E; congruence. }
    destruct (decide (j' ∈ D)) as [Hin|Hin]; [by apply (HT j')|].
    assert (k_list j' ∉ map k_list D) as Hn.
    { intros (j0 & Hj0 & [= ->])%(in_cut_inv D (IDeviceList j')). done. }
    destruct HS as [HS _]. apply (HS (IDeviceList j')); [done|]. simpl. by rewrite cut_ne.
  - assert (sound me (cut D' (w_disk w'))) as HS' by (by eapply cut_purge).
    destruct Hst as [-> | ->]; [|done]. split; [done|]. split; [done|].
    assert (forall E d i, (forall j, i <> IDeviceList j) -> cut E d !! item_key i = d !! item_key i) as Hc.
    { intros E d i Hi. apply cut_ne. intros (j' & _ & ->)%in_cut_inv. by eapply Hi. }
    pose proof (Hc D (w_disk w) IOwnDeviceId ltac:(done)) as E1. pose proof (Hc D' (w_disk w') IOwnDeviceId ltac:(done)) as E2.
    unfold has_own in *. simpl in HO, E1, E2 |- *. rewrite E2. rewrite E1 in HO.
    destruct (Hd IOwnDeviceId) as [E|[Hp _]]; [|by apply purge_account in Hp]. simpl in E. by rewrite E.
Qed.

Lemma J_empty me : sound me ∅.
Proof.
  split; [|split; [|split; [|split]]].
  - intros i v _ H. done.
  - intros j x (l & (v & Hv & _) & _). done.
  - by left.
  - intros id H. done.
  - by left.
Qed.
Lemma lives_ok me s s' : lives me s s' -> worn_ok me s -> worn_ok me s'.
Proof.
  destruct 1 as [P fuel a w cf w' D Ha H|A p w o w' D Hp H|A p w w1 w' D Hp H Hr|cf A p w o w' D Hp H|cf A p w w1 w' D Hp H Hr
    |cf j w w' D Hj H|cf j e w w' D Hj H|cf j w w1 w' D Hj H Hr].
  - intros (HD & HT & HJ). simpl in *.
    assert (appcode (boots me) (run_call (KCreate P fuel a))) as Hp by (by apply app_call).
    apply (cut_exec D) in H as [H E]; [|eapply spares_ft; [|exact Hp]; intros c Hc; by eapply boots_spares].
    split; [done|]. split; simpl.
    + intros j v Hj Hv. apply (HT j); [done|]. rewrite <- E; [done|by apply in_cut].
    + by destruct (wp_exec _ _ _ _ _ _ _ (create_wp me P fuel a _ Ha HJ) H).
  - intros (HD & HT & HJ). simpl in *.
    apply (cut_exec D) in H as [H E]; [|eapply spares_ft; [|exact Hp]; intros c Hc; by eapply boots_spares].
    split; [done|]. split; simpl.
    + intros j v Hj Hv. apply (HT j); [done|]. rewrite <- E; [done|by apply in_cut].
    + exact (wp_exec _ _ _ _ _ _ _ (boots_sound me _ p _ Hp HJ) H).
  - intros (HD & HT & HJ). simpl in *.
    apply (cut_reach D) in H as [H E]; [|eapply spares_ft; [|exact Hp]; intros c Hc; by eapply boots_spares].
    split; [done|]. split; simpl.
    + intros j v Hj Hv. apply (HT j); [done|]. rewrite <- E; [by rewrite <- Hr|by apply in_cut].
    + unfold life_ok, J0; simpl. rewrite Hr. exact (wp_reach _ _ _ _ _ _ (boots_sound me _ p _ Hp HJ) HJ H).
  - intros (HD & HT & HJ). simpl in *. destruct HJ as [<- HJ].
    apply (cut_exec D) in H as [H E]; [|eapply spares_ft; [|exact Hp]; by intros c [_ Hc]].
    split; [done|]. split; simpl.
    + intros j v Hj Hv. apply (HT j); [done|]. rewrite <- E; [done|by apply in_cut].
    + split; [done|]. apply code_sub with (ok' := on cf) in Hp; [|by intros c []].
      by destruct (wp_exec _ _ _ _ _ _ _ (good_app cf _ p Hp _ HJ) H).
  - intros (HD & HT & HJ). simpl in *. destruct HJ as [<- HJ].
    apply (cut_reach D) in H as [H E]; [|eapply spares_ft; [|exact Hp]; by intros c [_ Hc]].
    split; [done|]. split; simpl.
    + intros j v Hj Hv. apply (HT j); [done|]. rewrite <- E; [by rewrite <- Hr|by apply in_cut].
    + apply code_sub with (ok' := on cf) in Hp; [|by intros c []]. unfold life_ok, J0; simpl. rewrite Hr.
      by destruct (wp_reach _ _ _ _ _ _ (good_app cf _ p Hp _ HJ) HJ H).
  - intros Hok. assert (reach base (purge_bare_jid j) w w') as Hre by (by eapply exec_reach).
    apply purge_jid_exec in H as (H1 & _). eapply (worn_purge me j D); [exact Hok|done|by left| | | |].
    + intros i. by apply (purge_jid_crash j w w' i).
    + intros j' [_ ?]%elem_of_list_filter. by left.
    + intros j' ? ?. by apply elem_of_list_filter.
    + right. apply (H1 (IDeviceList j)). by left.
  - intros Hok. assert (reach base (purge_bare_jid j) w w') as Hre by (by eapply exec_reach).
    eapply (worn_purge me j D); [exact Hok|done|by left| | | |].
    + intros i. by apply (purge_jid_crash j w w' i).
    + intros j' [?|?]%elem_of_cons; auto.
    + intros j' ? ?. by right.
    + left. by left.
  - intros Hok. eapply (worn_purge me j D); [exact Hok|done|by right| | | |].
    + intros i. unfold restart in Hr. rewrite Hr. by apply (purge_jid_crash j w w1 i).
    + intros j' [?|?]%elem_of_cons; auto.
    + intros j' ? ?. by right.
    + left. by left.
Qed.
Lemma worn_sound me w0 s : w_disk w0 = ∅ -> rtc (lives me) (Off, w0, []) s -> worn_ok me s.
Proof.
  intros H0 H. assert (worn_ok me (Off, w0, [])) as Hok.
  { split; [constructor|]. split; [intros j v Hj; by apply not_elem_of_nil in Hj|]. unfold life_ok, J0; simpl. rewrite cut_nil, H0. apply J_empty. }
  clear H0. induction H as [s|s1 s2 s3 H _ IH]; [done|]. apply IH. by eapply lives_ok.
Qed.
Lemma life_sound me w0 s : w_disk w0 = ∅ -> life me (Off, w0) s -> life_ok me s.
Proof.
  intros H0 H. apply (worn_sound me w0 _ H0) in H as (_ & _ & H). destruct s as [st w]. simpl in H. destruct w as [d l y g].
  unfold cutw in H. simpl in H. by rewrite cut_nil in H.
Qed.

(** building lives *)
Lemma life_trans me s1 s2 s3 : life me s1 s2 -> life me s2 s3 -> life me s1 s3.
Proof. intros H1 H2. by eapply rtc_transitive. Qed.
Lemma life_boot me P fuel a w cf w' : a_jid a = me -> exec base (create P fuel a) w (Val cf) w' -> life me (Off, w) (On cf, w').
Proof. intros H1 H2. apply rtc_once. by eapply l_boot. Qed.
Lemma spares_nil c : spares [] c.
Proof. intros j i Hj. by apply not_elem_of_nil in Hj. Qed.
Lemma life_app me cf {A} (p : api A) w o w' : appcode (on cf) p -> exec base p w o w' -> life me (On cf, w) (On cf, w').
Proof.
  intros H1 H2. apply rtc_once. eapply l_app; [|exact H2]. eapply code_sub; [|exact H1]. intros c Hc. split; [done|apply spares_nil].
Qed.
Lemma life_crash me cf {A} (p : api A) w w1 w' : appcode (on cf) p -> reach base p w w1 -> restart w1 w' -> life me (On cf, w) (Off, w').
Proof.
  intros H1 H2 H3. apply rtc_once. eapply l_crash; [|exact H2|exact H3]. eapply code_sub; [|exact H1].
  intros c Hc. split; [done|apply spares_nil].
Qed.

(** ** C27 on lives *)
Lemma worn_records me w0 st w D j x : w_disk w0 = ∅ -> rtc (lives me) (Off, w0, []) (st, w, D) -> j ∉ D ->
  known (w_disk w) j x -> Life.recorded me (w_disk w) j x.
Proof.
  intros H0 HL Hj Hk. apply (worn_sound me w0 _ H0) in HL as (_ & _ & HL). simpl in HL.
  assert (sound me (cut D (w_disk w))) as (_ & HR & _).
  { destruct st as [|cf]; unfold life_ok in HL; simpl in HL; [exact HL|]. by destruct HL as [_ [HL _]]. }
  assert (forall i, (forall j', j' ∈ D -> i <> IDeviceList j') -> cut D (w_disk w) !! item_key i = w_disk w !! item_key i) as Hc.
  { intros i Hi. apply cut_ne. intros (j' & ? & ->)%in_cut_inv. by eapply Hi. }
  assert (forall id, has_own id (cut D (w_disk w)) <-> has_own id (w_disk w)) as Eo by (intros id; unfold has_own; by rewrite Hc).
  assert (known (cut D (w_disk w)) j x) as Hk'.
  { unfold known, holds in *. rewrite Hc; [done|]. intros j' Hj' [= <-]. done. }
  apply HR, recorded_k in Hk' as (l & m & o & H1 & H2 & H3 & H4). apply recorded_k. exists l, m, o.
  split; [eapply hk_eq; [|exact H1]; symmetry; by apply (Hc (INamespaces j x))|].
  split; [eapply hk_eq; [|exact H2]; symmetry; by apply (Hc (IActive j x))|].
  split; [eapply hk_eq; [|exact H3]; symmetry; by apply (Hc (ILabel j x))|].
  intros Hf. apply H4. intros [? Hm]. apply Hf. split; [done|]. intros id. rewrite <- Eo. apply Hm.
Qed.
Lemma worn_exec me w0 cf w D A (p : api A) (Q : outcome A -> Prop) o w' : w_disk w0 = ∅ -> rtc (lives me) (Off, w0, []) (On cf, w, D) ->
  ft (fun k => k ∉ map k_list D) True True True p ->
  (forall v, JW (c_jid cf) (c_dev cf) v -> wp base (JW (c_jid cf) (c_dev cf)) p (fun o w' => Q o) v) -> exec base p w o w' -> Q o.
Proof.
  intros H0 HL Hp Hwp H. apply (worn_sound me w0 _ H0) in HL as (_ & _ & HL). destruct HL as [E HL]; simpl in E, HL. subst me.
  apply (cut_exec D) in H as [H _]; [|done]. exact (wp_exec _ _ _ _ _ _ _ (Hwp _ HL) H).
Qed.
Lemma worn_info me w0 cf w D j e w' : w_disk w0 = ∅ -> rtc (lives me) (Off, w0, []) (On cf, w, D) -> j ∉ D ->
  exec base (get_device_information cf j) w (Exn e) w' -> ~ internal e.
Proof.
  intros H0 HL Hj H. refine (worn_exec me w0 cf w D _ _ (fun o => match o with Exn e => ~ internal e | _ => True end) (Exn e) w' H0 HL _ _ H).
  - apply (ft_call _ _ _ _ (KGetInfo cf j)); [|done..]. intros i Hi (j' & Hj' & ->)%in_cut_inv. simpl in Hi. by subst.
  - intros v Hv. eapply wp_conseq; [apply (good_info (c_jid cf) (c_dev cf) internal internal_ext); done|]. intros [a|e'] v' [_ HQ]; done.
Qed.
Lemma worn_healed me w0 cf w D j w' : rtc (lives me) (Off, w0, []) (On cf, w, D) -> (forall j', j' ∈ D -> j' = j) -> j <> me ->
  exec base (purge_bare_jid j) w (Val tt) w' -> life me (Off, w0) (On cf, w').
Proof.
  intros HL HD Hj H. eapply rtc_r; [exact HL|].
  replace [] with (filter (fun j' => j' <> j) D); [by apply l_purge|].
  clear -HD. induction D as [|j' D IH]; [done|]. rewrite filter_cons_False.
  - apply IH. intros j0 H0. apply HD. by right.
  - intros Hn. apply Hn, HD. by left.
Qed.

Lemma life_records me w0 w st A (p : api A) w' : w_disk w0 = ∅ -> life me (Off, w0) (st, w) ->
  match st with Off => appcode (boots me) p | On cf => appcode (on cf) p end -> reach base p w w' -> sound me (w_disk w').
Proof.
  intros H0 HL Hp H. apply (life_sound _ _ _ H0) in HL. destruct st as [|cf]; unfold life_ok in HL; simpl in HL.
  - exact (wp_reach _ _ _ _ _ _ (boots_sound me _ p w Hp HL) HL H).
  - destruct HL as [<- HJ]. by destruct (wp_reach _ _ _ _ _ _ (good_app cf _ p Hp w HJ) HJ H).
Qed.
Lemma life_quiet me w0 w cf A (p : api A) e w' : w_disk w0 = ∅ -> life me (Off, w0) (On cf, w) ->
  tame (on cf) p -> exec base p w (Exn e) w' -> ~ internal e.
Proof.
  intros H0 HL Hp H. apply (life_sound _ _ _ H0) in HL as [Hj HJ]; simpl in *. subst me.
  by destruct (wp_exec _ _ _ _ _ _ _ (good_tame cf _ p Hp w HJ) H).
Qed.
Lemma life_encrypt me w0 w cf mtd jids pt prio ident e w' : w_disk w0 = ∅ -> life me (Off, w0) (On cf, w) ->
  (forall ds i, tame (on cf) (mtd ds i)) ->
  (forall n, n ∈ from_option id (w_loaded w) prio -> exists b, dget n pt = Some b) ->
  exec base (encrypt cf mtd jids pt prio ident) w (Exn e) w' -> ~ internal e.
Proof.
  intros H0 HL Hp Hpt H. apply (life_sound _ _ _ H0) in HL as [Hj HJ]; simpl in *. subst me.
  edestruct (wp_exec _ _ _ _ _ _ _ (good_encrypt (c_jid cf) (c_dev cf) internal internal_ext cf eq_refl eq_refl mtd pt
    (fun ds i => good_tame cf _ _ (Hp ds i)) jids prio ident w HJ (fun _ => Hpt)) H); done.
Qed.
(** C10 over whole lives *)
Lemma life_ikp me w0 w st e w' : w_disk w0 = ∅ -> life me (Off, w0) (st, w) -> exec base ikp_get w (Exn e) w' -> ext_exn e = true.
Proof.
  intros H0 HL H. apply (life_sound _ _ _ H0) in HL. assert (sound me (w_disk w)) as HJ.
  { destruct st; [done|]. by destruct HL as [_ [? _]]. }
  pose proof HJ as (_ & _ & _ & _ & Hwf). exact (wp_exec _ _ _ _ _ _ _ (ikp_wp w Hwf) H).
Qed.
Lemma not_internal e : ~ internal e -> e <> ENothing /\ e <> EKeyError /\ e <> ETypeError /\ e <> EBinascii.
Proof. unfold internal. tauto. Qed.
Lemma life_recorded me w0 w st A (p : api A) w' :
  w_disk w0 = ∅ -> life me (Off, w0) (st, w) ->
  match st with Off => appcode (boots me) p | On cf => appcode (on cf) p end -> reach base p w w' ->
  forall j x, known (w_disk w') j x ->
    (exists l, holds (is_list is_str) (w_disk w') (INamespaces j x) l) /\
    (exists m, holds (is_dict is_bool) (w_disk w') (IActive j x) m) /\
    (exists o, labelled (w_disk w') j x o) /\
    (j <> me \/ (exists id, has_own id (w_disk w') /\ x <> id) ->
     forall n, supports (w_disk w') j x n -> exists b, activity (w_disk w') j x n b).
Proof.
  intros H0 HL Hp H j x Hk. destruct (life_records me w0 w st A p w' H0 HL Hp H) as (_ & HR & _).
  destruct (HR j x Hk) as (H1 & H2 & H3 & H4). split; [done|]. split; [done|]. split; [done|]. intros Hf. apply H4.
  intros [-> Hm]. destruct Hf as [Hf|(id & Hid & Hx)]; [done|]. by apply Hx, Hm.
Qed.
Lemma life_tame me w0 w cf A (p : api A) e w' :
  w_disk w0 = ∅ -> life me (Off, w0) (On cf, w) -> tame (on cf) p -> exec base p w (Exn e) w' ->
  e <> ENothing /\ e <> EKeyError /\ e <> ETypeError /\ e <> EBinascii.
Proof. intros H0 HL Hp H. apply not_internal. by eapply life_quiet. Qed.
Lemma life_info me w0 w cf jid e w' :
  w_disk w0 = ∅ -> life me (Off, w0) (On cf, w) -> exec base (get_device_information cf jid) w (Exn e) w' ->
  e <> ENothing /\ e <> EKeyError /\ e <> ETypeError /\ e <> EBinascii.
Proof.
  intros H0 HL H. eapply life_tame; [done|done| |exact H]. by apply (tame_call _ (KGetInfo cf jid)).
Qed.
Lemma life_update me w0 w cf ns jid dl e w' :
  w_disk w0 = ∅ -> life me (Off, w0) (On cf, w) -> exec base (update_device_list cf ns jid dl) w (Exn e) w' ->
  e <> ENothing /\ e <> EKeyError /\ e <> ETypeError /\ e <> EBinascii.
Proof.
  intros H0 HL H. eapply life_tame; [done|done| |exact H]. by apply (tame_call _ (KUpdate cf ns jid dl)).
Qed.
Lemma life_enc me w0 w cf mtd jids pt prio ident e w' :
  w_disk w0 = ∅ -> life me (Off, w0) (On cf, w) ->
  (forall ds i, tame (on cf) (mtd ds i)) ->
  (forall n, n ∈ from_option id (w_loaded w) prio -> exists b, dget n pt = Some b) ->
  exec base (encrypt cf mtd jids pt prio ident) w (Exn e) w' ->
  e <> ENothing /\ e <> EKeyError /\ e <> ETypeError /\ e <> EBinascii.
Proof. intros H0 HL Hm Hpt H. apply not_internal. by eapply life_encrypt. Qed.
Lemma life_crash_ikp me w0 w st w1 w2 o w3 : w_disk w0 = ∅ -> life me (Off, w0) (st, w) ->
  reach base ikp_get w w1 -> restart w1 w2 -> exec base ikp_get w2 o w3 ->
  (exists e, ext_exn e = true /\ o = Exn e) \/
  exists k, o = Val k /\ has_ikp k (w_disk w3) /\
    (forall k0, has_ikp k0 (w_disk w) -> k = k0) /\ (forall k0, has_ikp k0 (w_disk w1) -> k = k0) /\
    (w_disk w !! item_key IKeyPairKey = None -> exists s, k = IkpSeed s).
Proof.
  intros H0 HL. apply ikp_crash. apply (life_sound _ _ _ H0) in HL.
  destruct st; [by destruct HL as (_ & _ & _ & _ & ?)|by destruct HL as [_ [(_ & _ & _ & _ & ?) _]]].
Qed.
Lemma update_twice cf n m jid dl dl' x lab lab' w w1 w2 :
  n <> m -> exec base (update_device_list cf n jid dl) w (Val tt) w1 -> dget x dl = Some lab ->
  exec base (update_device_list cf m jid dl') w1 (Val tt) w2 -> dget x dl' = Some lab' ->
  known (w_disk w2) jid x /\
  supports (w_disk w2) jid x n /\ activity (w_disk w2) jid x n true /\
  supports (w_disk w2) jid x m /\ activity (w_disk w2) jid x m true.
Proof.
  intros Hne H1 D1 H2 D2. pose proof (update_listed _ _ _ _ _ _ _ _ H1 D1) as (A1 & A2 & A3 & _).
  pose proof (update_listed _ _ _ _ _ _ _ _ H2 D2) as (B1 & B2 & B3 & _ & B4).
  apply exec_reach in H2. destruct (update_known_dev _ _ _ _ _ _ _ H2 A1) as (C1 & C2 & _).
  split; [done|]. split; [by apply C2|]. split; [by apply C1|]. done.
Qed.

(** ** C63 on lives *)
Definition eok {A} (E : exn -> Prop) (p : api A) : Prop := forall w, wp base (fun _ => True) p (fun o _ => match o with Exn e => E e | _ => True end) w.
Section eok.
  Context (E : exn -> Prop).
  Lemma eok_ret {A} (a : A) : eok E (Ret a). Proof. intros w. by apply wp_ret. Qed.
  Lemma eok_raise {A} e : E e -> eok E (Raise (A := A) e). Proof. intros H w. by apply wp_raise. Qed.
  Lemma eok_bind {A B} (p : api A) (f : A -> api B) : eok E p -> (forall a, eok E (f a)) -> eok E (bind p f).
  Proof. intros Hp Hf w. apply wp_bind. eapply wp_conseq; [apply Hp|]. intros [a|e] w' H; [apply Hf|done]. Qed.
  Lemma eok_step {A} c (k : resp c -> api A) : (forall w r, w_allowed w c r -> eok E (k r)) -> eok E (Step c k).
  Proof. intros Hk w. apply wp_step. intros r Hr. split; [done|]. by eapply Hk. Qed.
  Lemma eok_filter {A} (l : list A) f : (forall x, eok E (f x)) -> eok E (filter_prog f l).
  Proof.
    intros Hf w. apply (wp_filter_prog _ (fun _ _ _ => True)); [done| |done]. intros. eapply wp_conseq; [apply Hf|]. by intros [b|e] w'.
  Qed.
  Lemma eok_fold {A B} (l : list A) (f : B -> A -> api B) b : (forall b x, eok E (f b x)) -> eok E (fold_prog l f b).
  Proof.
    intros Hf w. apply (wp_fold_prog _ _ (fun _ _ _ => True)); [done| |done]. intros. eapply wp_conseq; [apply Hf|]. by intros [b'|e] w'.
  Qed.
  Lemma eok_try_bind {A B} (p : api A) (f : outcome A -> api B) : eok E p -> (forall o, match o with Exn e => E e | _ => True end -> eok E (f o)) -> eok E (bind (try_ p) f).
  Proof. intros Hp Hf w. apply wp_bind, wp_try. eapply wp_conseq; [apply Hp|]. intros o w' H. by apply Hf. Qed.
End eok.
Lemma replace_raises w cf j x e w' : JW (c_jid cf) (c_dev cf) w ->
  exec base (replace_sessions cf j x) w (Exn e) w' ->
  ext_exn e = true \/
  (e = ERuntime /\ exists ds, exec base (get_device_information cf j) w (Val ds) w' /\ forall d, d ∈ ds -> dv_id d <> x).
Proof.
  intros HJ H.
  unfold replace_sessions in H. apply exec_bind in H. destruct H as [(ds & w1 & H1 & H)|(e' & H1 & [= ->])].
  2:{ left. unfold get_device_information in H1. apply exec_bind in H1. destruct H1 as [(r & w2 & _ & H1)|(e'' & H1 & [= ->])].
      { destruct H1. done. }
      by destruct (wp_exec _ _ _ _ _ _ _ (info_good (c_jid cf) (c_dev cf) cf j w HJ) H1) as (_ & _ & ?). }
  destruct (filter (fun d => dv_id d = x) ds) as [|d0 l] eqn:Ef.
  - right. destruct H as [[= ->] ->]. split; [done|]. exists ds. split; [done|]. intros d Hd Hx.
    assert (d ∈ filter (fun d => dv_id d = x) ds) as Hin by (by apply elem_of_list_filter). rewrite Ef in Hin. by apply elem_of_nil in Hin.
  - left. revert H. match goal with |- exec base ?p w1 _ _ -> _ => enough (eok (fun e => ext_exn e = true) p) as He end.
    { intros H. exact (wp_exec _ _ _ _ _ _ _ (He w1) H). }
    assert (forall A (o : outcome A), ext_ok o -> eok (fun e => ext_exn e = true) (of_outcome o)) as Ho.
    { intros A [a|e0] H; [apply eok_ret|by apply eok_raise]. }
    assert (eok (fun e => ext_exn e = true) g_loaded) as Hg by (apply eok_step; intros; apply eok_ret).
    apply eok_bind; [done|]. intros bs. apply eok_bind.
    { apply eok_filter. intros ns. apply eok_bind; [apply eok_step; intros; by apply Ho|]. intros m. apply eok_ret. }
    intros ws. cbv zeta. apply eok_bind; [done|]. intros bs'. apply eok_fold. intros b ns. case_decide; [|apply eok_ret].
    apply eok_try_bind.
    + unfold replace_one. repeat (apply eok_bind; [apply eok_step; intros; by apply Ho|]; intros ?).
      repeat first [apply eok_ret|match goal with |- eok _ (match ?u with _ => _ end) => destruct u end|
        apply eok_bind; [apply eok_step; intros; by apply Ho|]; intros ?|apply eok_step; intros; by apply Ho].
    + intros [[]|e0] He; [apply eok_ret|]. destruct (is_omemo e0); [apply eok_ret|by apply eok_raise].
Qed.
Lemma life_replace me w0 w cf j x e w' : w_disk w0 = ∅ -> life me (Off, w0) (On cf, w) ->
  exec base (replace_sessions cf j x) w (Exn e) w' ->
  ext_exn e = true \/
  (e = ERuntime /\ exists ds, exec base (get_device_information cf j) w (Val ds) w' /\ forall d, d ∈ ds -> dv_id d <> x).
Proof.
  intros H0 HL H. apply (life_sound _ _ _ H0) in HL as [Hj HJ]; simpl in Hj, HJ. subst me. by eapply replace_raises.
Qed.

Lemma worn_others me w0 st w D :
  w_disk w0 = ∅ -> rtc (lives me) (Off, w0, []) (st, w, D) ->
  (forall j x, j ∉ D -> known (w_disk w) j x ->
     (exists l, holds (is_list is_str) (w_disk w) (INamespaces j x) l) /\
     (exists m, holds (is_dict is_bool) (w_disk w) (IActive j x) m) /\ (exists o, labelled (w_disk w) j x o)) /\
  (forall cf j e w', st = On cf -> j ∉ D -> exec base (get_device_information cf j) w (Exn e) w' ->
     e <> ENothing /\ e <> EKeyError /\ e <> ETypeError /\ e <> EBinascii).
Proof.
  intros H0 HL. split.
  - intros j x Hj Hk. by destruct (worn_records me w0 st w D j x H0 HL Hj Hk) as (? & ? & ? & _).
  - intros cf j e w' -> Hj H. pose proof (worn_info me w0 cf w D j e w' H0 HL Hj H) as Hn. repeat split; intros ->; apply Hn; unfold internal; tauto.
Qed.
Lemma worn_healed_records me w0 cf w D j w' :
  w_disk w0 = ∅ -> rtc (lives me) (Off, w0, []) (On cf, w, D) -> (forall j', j' ∈ D -> j' = j) -> j <> me ->
  exec base (purge_bare_jid j) w (Val tt) w' ->
  life me (Off, w0) (On cf, w') /\
  (forall j x, known (w_disk w') j x ->
     (exists l, holds (is_list is_str) (w_disk w') (INamespaces j x) l) /\
     (exists m, holds (is_dict is_bool) (w_disk w') (IActive j x) m) /\ (exists o, labelled (w_disk w') j x o)) /\
  (forall j e w'', exec base (get_device_information cf j) w' (Exn e) w'' ->
     e <> ENothing /\ e <> EKeyError /\ e <> ETypeError /\ e <> EBinascii).
Proof.
  intros H0 HL HD Hj H. pose proof (worn_healed me w0 cf w D j w' HL HD Hj H) as HL'. split; [done|].
  destruct (worn_others me w0 _ w' [] H0 HL') as [H1 H2]. split.
  - intros j' x. apply H1. apply not_elem_of_nil.
  - intros j' e w''. apply (H2 cf); [done|]. apply not_elem_of_nil.
Qed.
