(** create: device id, order of publication, results. *)
From Verif Require Import Api Spec Alone PfWp PfFrame PfHist PfEmits PfUpdate PfDevices PfInfo PfTrust PfExec PfNet PfPurge PfLog.
Open Scope prog_scope.
Open Scope list_scope.

Lemma wp_assoc {A B D} (I : world -> Prop) (p : api A) (f : A -> api B) (g : B -> api D) (Q : outcome D -> world -> Prop) w :
  wp base I (bind (bind p f) g) Q w -> wp base I (bind p (fun x => bind (f x) g)) Q w.
Proof.
  intros H. apply wp_bind_inv, wp_bind_inv in H. apply wp_bind. eapply wp_conseq; [exact H|].
  intros [a|e] w' H'; [|done]. by apply wp_bind.
Qed.

Definition ev_ikp (e : event) : Prop := exists k v r, e = EvStore k v r /\ (k = k_ikp_seed \/ k = k_ikp_key).
Lemma em_ikp : em ev_ikp ikp_get.
Proof.
  assert (em ev_ikp ikp_generate) as H.
  { unfold ikp_generate. emt; ev; (eexists _, _, _; split; [reflexivity|auto]). }
  unfold ikp_get. emt; apply H.
Qed.

Lemma published_app j dev ns new evs : published j dev ns evs -> published j dev ns (new ++ evs).
Proof. intros (p1 & b & p2 & -> & H). exists (new ++ p1), b, p2. by rewrite <- app_assoc. Qed.

Definition fresh_ok (a : create_args) (e : event) (pre : list event) : Prop :=
  match e with
  | EvStore k v _ => k = item_key IOwnDeviceId ->
      exists id, v = JInt id /\ (1 <= id <= 2 ^ 31 - 1)%Z /\
        (forall ns, ns ∈ a_backends a -> exists dl, EvDownloadDL ns (a_jid a) (Val dl) ∈ pre) /\
        (forall ns dl, EvDownloadDL ns (a_jid a) (Val dl) ∈ pre -> id ∉ dkeys dl)
  | _ => True
  end.
Definition announce_ok (a : create_args) (id : Z) (e : event) (pre : list event) : Prop :=
  match e with
  | EvUploadDL ns dl _ => id ∈ dkeys dl -> published (a_jid a) id ns pre
  | _ => True
  end.

Section create.
  Context (P : prims) (fuel : nat) (a : create_args) (L0 : list event).
  Notation j := (a_jid a).

  Definition own_is (w : world) (id : Z) : Prop := exists v, w_disk w !! k_own = Some v /\ is_int v id.
  Definition Inv (w : world) : Prop :=
    exists evs, w_log w = evs ++ L0 /\ traced (fresh_ok a) evs /\ forall id, own_is w id -> traced (announce_ok a id) evs.

  Definition noown (e : event) : Prop := match e with EvStore k _ _ | EvDelete k _ => k <> k_own | _ => True end.
  Lemma noown_key e : noown e -> ev_key e <> Some k_own.
  Proof. destruct e; simpl; try done; destruct r; simpl; congruence. Qed.
  Definition nopub (e : event) : Prop := match e with EvUploadDL _ _ _ => False | _ => True end.
  Definition quiet (e : event) : Prop := noown e /\ nopub e.

  Lemma I_gen w w' evs :
    w_log w' = evs ++ w_log w -> w_disk w' !! k_own = w_disk w !! k_own ->
    Inv w -> Forall noown evs ->
    (forall evs0 id, w_log w = evs0 ++ L0 -> own_is w id -> Forall (fun e => forall l, announce_ok a id e (l ++ evs0)) evs) ->
    Inv w'.
  Proof.
    intros Hl Hd (evs0 & E0 & T1 & T2) Hk Ha. exists (evs ++ evs0). split; [by rewrite Hl, E0, app_assoc|]. split.
    - apply traced_app; [done|]. eapply Forall_impl; [exact Hk|]. intros e He l. destruct e; try done. simpl.
      intros ->. exfalso. by apply He.
    - intros id Hid. assert (own_is w id) as Hid' by (unfold own_is in *; by rewrite <- Hd).
      apply traced_app; [by apply T2|]. by apply Ha.
  Qed.
  Lemma quiet_ok id evs evs0 : Forall quiet evs -> Forall (fun e => forall l, announce_ok a id e (l ++ evs0)) evs.
  Proof. intros H. eapply Forall_impl; [exact H|]. intros e [_ He] l. by destruct e. Qed.
  Lemma I_quiet w evs : Inv w -> Forall quiet evs -> Inv (after evs w).
  Proof.
    intros HI HF. eapply I_gen; [done| |exact HI| |].
    - apply replay_other. eapply Forall_impl; [exact HF|]. intros e [? _]. by apply noown_key.
    - eapply Forall_impl; [exact HF|]. by intros e [? _].
    - intros. by apply quiet_ok.
  Qed.
  Lemma wp_quiet {A} (PE : event -> Prop) (p : api A) (R : outcome A -> world -> Prop) w :
    em PE p -> (forall e, PE e -> quiet e) -> Inv w ->
    (forall o evs, Forall PE evs -> Inv (after evs w) -> R o (after evs w)) -> wp base Inv p R w.
  Proof.
    intros Hp HP HI HR. eapply em_wp; [exact Hp| |].
    - intros evs Hev. apply I_quiet; [done|]. eapply Forall_impl; [exact Hev|exact HP].
    - intros o evs Hev _. apply HR; [done|]. apply I_quiet; [done|]. eapply Forall_impl; [exact Hev|exact HP].
  Qed.
  Lemma q_store k v r : k <> k_own -> quiet (EvStore k v r).
  Proof. intros H. split; [simpl; congruence|done]. Qed.
  Lemma kn_ns x d : k_ns x d <> k_own. Proof. kneq. Qed.
  Lemma kn_active x d : k_active x d <> k_own. Proof. kneq. Qed.
  Lemma kn_label x d : k_label x d <> k_own. Proof. kneq. Qed.
  Lemma kn_ik x d : k_ik x d <> k_own. Proof. kneq. Qed.
  Lemma kn_list x : k_list x <> k_own. Proof. kneq. Qed.
  Lemma kn_trust x d : k_trust x d <> k_own. Proof. kneq. Qed.
  Hint Resolve q_store kn_ns kn_active kn_label kn_ik kn_list kn_trust : core.
  Lemma q_ikp e : ev_ikp e -> quiet e.
  Proof. intros (k & v & r & -> & [-> | ->]); apply q_store; done. Qed.
  Lemma q_info x e : ev_info x e -> quiet e.
  Proof. intros []; auto. done. Qed.

  Lemma no_refresh cf ns x e : ev_refresh cf ns x e -> noown e.
  Proof. intros [e' []|]; simpl; auto. Qed.
  Lemma own_kept w evs dev : own_is w dev -> Forall noown evs -> own_is (after evs w) dev.
  Proof.
    intros (v & Hv & Ht) H. exists v. split; [|done]. simpl. rewrite replay_other; [done|].
    eapply Forall_impl; [exact H|]. apply noown_key.
  Qed.
  Lemma own_fun w d d' : own_is w d -> own_is w d' -> d = d'.
  Proof. intros (v & H1 & T1) (v' & H2 & T2). rewrite H1 in H2. injection H2 as <-. by eapply is_int_fun. Qed.
  Lemma own_eq w w' d : w_disk w' !! k_own = w_disk w !! k_own -> own_is w d -> own_is w' d.
  Proof. intros E (v & ?). exists v. by rewrite E. Qed.
  (** the bundle of [ns] was published since [L0] *)
  Definition pub (dev : Z) (ns : string) (w : world) : Prop := exists evs, w_log w = evs ++ L0 /\ published j dev ns evs.
  Lemma pub_log dev ns w w' evs : w_log w' = evs ++ w_log w -> pub dev ns w -> pub dev ns w'.
  Proof.
    intros E (e0 & E0 & Hp). exists (evs ++ e0). split; [by rewrite E, E0, app_assoc|]. by apply published_app.
  Qed.
  Lemma I_refresh w dev ns evs :
    Inv w -> own_is w dev -> pub dev ns w -> Forall (ev_refresh (cfg_of a dev) ns j) evs -> Inv (after evs w).
  Proof.
    intros HI Ho (ep & Ep & Hp) HF.
    assert (Forall noown evs) as HN by (eapply Forall_impl; [exact HF|]; intros; by eapply no_refresh).
    eapply I_gen; [done| |exact HI|exact HN|].
    - apply replay_other. eapply Forall_impl; [exact HN|]. apply noown_key.
    - intros e0 id E0 Hid. rewrite (own_fun _ _ _ Hid Ho). rewrite Ep in E0. apply app_inv_tail in E0 as <-.
      eapply Forall_impl; [exact HF|]. intros e He l1. destruct He as [e' []|]; simpl; try done. intros _. by apply published_app.
  Qed.
  Lemma wp_refresh w dev ns (R : outcome unit -> world -> Prop) :
    Inv w -> own_is w dev -> pub dev ns w ->
    (forall o evs, Inv (after evs w) -> own_is (after evs w) dev -> R o (after evs w)) ->
    wp base Inv (refresh_device_list (cfg_of a dev) ns j) R w.
  Proof.
    intros HI Ho Hp HR. eapply em_wp; [apply em_refresh| |].
    - intros evs HF. by eapply I_refresh.
    - intros o evs HF _. apply HR; [by eapply I_refresh|]. apply own_kept; [done|].
      eapply Forall_impl; [exact HF|]. intros; by eapply no_refresh.
  Qed.
  Lemma wp_purge w dev ns (R : outcome unit -> world -> Prop) :
    Inv w -> own_is w dev -> (forall o w', Inv w' -> own_is w' dev -> R o w') ->
    wp base Inv (purge_backend (cfg_of a dev) ns) R w.
  Proof.
    intros HI Ho HR.
    assert (forall w', reach base (purge_backend (cfg_of a dev) ns) w w' -> Inv w' /\ own_is w' dev) as H.
    { intros w' H. apply (lg_reach _ _ _ _ (lg_purge_backend _ _)) in H as (evs & HF & Hl & Hd).
      assert (Forall noown evs) as HN.
      { eapply Forall_impl; [exact HF|]. intros e [e' He| | | | | |]; simpl; auto. by apply q_info in He as [? _]. }
      assert (w_disk w' !! k_own = w_disk w !! k_own) as Hk.
      { rewrite Hd. apply replay_other. eapply Forall_impl; [exact HN|]. apply noown_key. }
      split; [|by apply (own_eq w)]. eapply I_gen; [exact Hl|exact Hk|exact HI|exact HN|].
      intros e0 id _ Hid. rewrite (own_fun _ _ _ Hid Ho). eapply Forall_impl; [exact HF|].
      intros e He0 l1. destruct He0 as [e' He| | dl r Hm | | | |]; simpl; try done.
      - apply q_info in He as [_ ?]. by destruct e'.
      - intros Hin. exfalso. unfold dmem in Hm. apply bool_decide_eq_false in Hm. apply Hm. by apply dget_keys. }
    apply exec_wp; [|intros w' Hr; by apply H]. intros o w' Hx. apply exec_reach' in Hx. apply H in Hx as [? ?]. auto.
  Qed.

  Lemma wp_fresh_id w ids n (R : outcome Z -> world -> Prop) :
    Inv w -> (forall e, R (Exn e) w) -> (forall id, (1 <= id <= 2 ^ 31 - 1)%Z -> id ∉ ids -> R (Val id) w) ->
    wp base Inv (fresh_id n ids) R w.
  Proof.
    intros HI HE HV. induction n as [|n IH]; [by apply wp_raise|]. cbn [fresh_id]. apply wp_bind, wp_randbelow; [done|].
    intros r Hr. cbv zeta. destruct (decide _) as [Hin|Hin]; [apply IH|]. apply wp_ret, HV; [|done].
    unfold DEVICE_ID_MAX, DEVICE_ID_MIN in *. lia.
  Qed.

  Lemma wp_store_quiet k v (R : outcome unit -> world -> Prop) w :
    k <> k_own -> Inv w -> (forall o evs, Inv (after evs w) -> Forall (fun e => exists r, e = EvStore k v r) evs -> R o (after evs w)) ->
    wp base Inv (s_store k v) R w.
  Proof.
    intros Hk HI HR. eapply (wp_quiet (fun e => exists r, e = EvStore k v r)); [ev| |done|auto].
    intros e (r & ->). by apply q_store.
  Qed.

  (** the first run up to the point where the own id is stored *)
  Lemma wp_local k w (R : outcome Z -> world -> Prop) :
    Inv w -> w_loaded w = a_backends a ->
    (exists evs, w_log w = evs ++ L0 /\ Forall (fun e => nopub e /\ forall n x r, e <> EvDownloadDL n x r) evs) ->
    (forall e w', Inv w' -> R (Exn e) w') ->
    (forall id w', Inv w' -> w_loaded w' = w_loaded w -> own_is w' id -> R (Val id) w') ->
    wp base Inv (first_run_local P fuel a k) R w.
  Proof.
    intros HI HL (e0 & E0 & N0) HE HV. unfold first_run_local. apply wp_bind, wp_loaded; [done|].
    apply wp_bind. rewrite HL.
    eapply (wp_map_prog Inv (fun pre acc w' => Inv w' /\ w_loaded w' = a_backends a /\ exists evs, w_log w' = evs ++ L0 /\
      Forall nopub evs /\ (forall ns, ns ∈ pre -> exists dl, EvDownloadDL ns j (Val dl) ∈ evs) /\
      (forall ns dl, EvDownloadDL ns j (Val dl) ∈ evs -> forall z, z ∈ dkeys dl -> z ∈ concat acc))).
    - split; [done|]. split; [done|]. exists e0. split; [done|]. split; [eapply Forall_impl; [exact N0|]; by intros e [? _]|].
      split; [intros ns Hns; by apply elem_of_nil in Hns|]. intros ns dl Hin. rewrite Forall_forall in N0.
      exfalso. by eapply (proj2 (N0 _ Hin)).
    - intros pre ns post acc w1 _ (HI1 & HL1 & evs & El & Np & D1 & D2).
      apply wp_bind, wp_ext. intros r Hr.
      assert (Inv (w_apply w1 (NDownloadDL ns j) r)) as HI2.
      { change (w_apply w1 (NDownloadDL ns j) r) with (after [EvDownloadDL ns j r] w1). apply I_quiet; [done|]. by repeat constructor. }
      split; [done|]. destruct r as [dl|e]; cbn [obeys]; [|by apply HE]. apply wp_ret.
      split; [done|]. split; [done|]. exists (EvDownloadDL ns j (Val dl) :: evs). split; [simpl; by rewrite El|].
      split; [by constructor|]. split.
      + intros n Hn. apply elem_of_app in Hn as [Hn|Hn].
        * destruct (D1 n Hn) as [dl' ?]. exists dl'. by right.
        * apply elem_of_list_singleton in Hn as ->. exists dl. left.
      + intros n dl' Hin z Hz. rewrite concat_app. apply elem_of_app. apply elem_of_cons in Hin as [Heq|Hin].
        * right. simpl. rewrite app_nil_r. by injection Heq as _ ->.
        * left. by eapply D2.
    - intros lists w1 (HI1 & HL1 & evs & El & Np & D1 & D2). apply wp_bind, wp_fresh_id; [done|intros e; by apply HE|].
      intros id Hid Hfresh. cbv zeta.
      assert (forall w2 evs2, Inv w2 -> w_loaded w2 = a_backends a -> w_log w2 = evs2 ++ w_log w1 ->
        Forall (fun e => nopub e /\ forall n x r, e <> EvDownloadDL n x r) evs2 ->
        wp base Inv (s_store k_own (JInt id) ;;; Ret id) R w2) as Hend.
      { intros w2 evs2 HI2 HL2 El2 N2.
        assert (forall r, Inv (w_apply w2 (SStore k_own (JInt id)) r)) as HI3.
        { intros r. destruct HI2 as (es & Es & T1 & T2).
          assert (es = evs2 ++ evs) as -> by (rewrite El2, El, app_assoc in Es; by apply app_inv_tail in Es).
          exists (EvStore k_own (JInt id) r :: evs2 ++ evs). split; [rewrite log_apply; simpl; by rewrite Es|]. split.
          - apply traced_cons. split; [|done]. intros _. exists id. split; [done|]. split; [done|]. split.
            + intros ns Hns. destruct (D1 ns Hns) as [dl ?]. exists dl. apply elem_of_app. by right.
            + intros ns dl Hin Hz. apply elem_of_app in Hin as [Hin|Hin].
              * rewrite Forall_forall in N2. by eapply (proj2 (N2 _ Hin)).
              * apply Hfresh. by eapply D2.
          - intros x _. apply traced_cons. split; [done|]. intros post e pre Hsp.
            assert (nopub e) as Hn.
            { assert (Forall nopub (evs2 ++ evs)) as HF.
              { apply Forall_app. split; [|done]. eapply Forall_impl; [exact N2|]. by intros ? [? _]. }
              rewrite Forall_forall in HF. apply HF. rewrite Hsp. apply elem_of_app. right. left. }
            by destruct e. }
        apply wp_bind, wp_store.
        - intros r _. apply HI3.
        - intros e _. apply HE, HI3.
        - apply wp_ret. apply HV; [apply HI3|rewrite HL; exact HL2|]. exists (JInt id). split; [apply lookup_insert|constructor]. }
      assert (forall k v evs2, Forall (fun e => exists r, e = EvStore k v r) evs2 ->
        Forall (fun e => nopub e /\ forall n x r, e <> EvDownloadDL n x r) evs2) as Hst.
      { intros k' v evs2 HF. eapply Forall_impl; [exact HF|]. intros e (r & ->). done. }
      apply wp_bind, wp_loaded; [done|].
      apply wp_bind, wp_store_quiet; [auto|done|]. intros o1 v1 HI2 F1. destruct o1 as [_|e]; [|by apply HE].
      apply wp_bind, wp_loaded; [done|].
      apply wp_bind, wp_store_quiet; [auto|done|]. intros o2 v2 HI3 F2. destruct o2 as [_|e]; [|by apply HE].
      apply wp_bind, wp_store_quiet; [auto|done|]. intros o3 v3 HI4 F3. destruct o3 as [_|e]; [|by apply HE].
      apply wp_bind. unfold store_bytes. apply wp_store_quiet; [auto|done|]. intros o4 v4 HI5 F4. destruct o4 as [_|e]; [|by apply HE].
      apply wp_bind, wp_store_quiet; [auto|done|]. intros o5 v5 HI6 F5. destruct o5 as [_|e]; [|by apply HE].
      apply wp_bind, wp_store_quiet; [auto|done|]. intros o6 v6 HI7 F6. destruct o6 as [_|e]; [|by apply HE].
      eapply (Hend _ (v6 ++ v5 ++ v4 ++ v3 ++ v2 ++ v1)); [done|done|simpl; by rewrite <- !app_assoc|].
      repeat (apply Forall_app; split); eapply Hst; eassumption.
  Qed.

  (** fetching and uploading one bundle *)
  Lemma wp_publish_one dev ns w (R : outcome unit -> world -> Prop) :
    Inv w -> own_is w dev -> (forall e w', Inv w' -> R (Exn e) w') ->
    (forall w' evs, w_log w' = evs ++ w_log w -> w_loaded w' = w_loaded w -> Inv w' -> own_is w' dev -> pub dev ns w' -> R (Val tt) w') ->
    wp base Inv (b <- b_get_bundle ns j dev ;; n_upload_bundle b) R w.
  Proof.
    intros HI Ho HE HV. apply wp_bind, wp_ext. intros r Hr.
    assert (Inv (w_apply w (BGetBundle ns j dev) r)) as HI1.
    { change (w_apply w (BGetBundle ns j dev) r) with (after [EvGetBundle ns j dev r] w). apply I_quiet; [done|]. by repeat constructor. }
    split; [done|]. destruct r as [b|e]; [|by apply HE]. apply wp_ext. intros r2 Hr2.
    set (w1 := w_apply w (BGetBundle ns j dev) (Val b)) in *.
    assert (Inv (w_apply w1 (NUploadBundle b) r2)) as HI2.
    { change (w_apply w1 (NUploadBundle b) r2) with (after [EvUploadBundle b r2] w1). apply I_quiet; [done|]. by repeat constructor. }
    split; [done|]. destruct r2 as [[]|e]; [|by apply HE].
    apply (HV _ [EvUploadBundle b (Val tt); EvGetBundle ns j dev (Val b)]); [done|done|done|done|].
    destruct HI as (evs & El & _). exists (EvUploadBundle b (Val tt) :: EvGetBundle ns j dev (Val b) :: evs).
    split; [simpl; by rewrite El|]. exists [], b, (EvGetBundle ns j dev (Val b) :: evs). split; [done|left].
  Qed.

  Lemma wp_publish dev w (R : outcome unit -> world -> Prop) :
    Inv w -> own_is w dev -> (forall o w', Inv w' -> own_is w' dev -> R o w') -> (forall e w', Inv w' -> R (Exn e) w') ->
    wp base Inv (first_run_publish (cfg_of a dev)) R w.
  Proof.
    intros HI Ho HV HE. unfold first_run_publish. apply wp_bind, wp_loaded; [done|].
    apply wp_bind. eapply (wp_quiet (fun e => exists n r, e = EvGenerate n 100 r)); [| |done|].
    { emt. ev. } { intros e (n & r & ->). done. }
    intros o evs HF HI1. destruct o as [_|e]; [|by apply HE].
    assert (own_is (after evs w) dev) as Ho1.
    { apply own_kept; [done|]. eapply Forall_impl; [exact HF|]. by intros e (n & r & ->). }
    revert HI1 Ho1. generalize (after evs w). clear HF evs HI Ho w. intros w HI Ho.
    apply wp_bind, wp_loaded; [done|]. apply wp_bind.
    apply (wp_for_each base Inv (fun pre w' => Inv w' /\ own_is w' dev /\ w_loaded w' = w_loaded w /\ forall n, n ∈ pre -> pub dev n w')).
    - split; [done|]. split; [done|]. split; [done|]. intros n Hn. by apply elem_of_nil in Hn.
    - intros pre ns post w1 _ (HI1 & Ho1 & HL1 & Hp1). apply wp_publish_one; [done|done|auto|].
      intros w2 evs El HL2 HI2 Ho2 Hp2. split; [done|]. split; [done|]. split; [congruence|].
      intros n [Hn|Hn]%elem_of_app; [by eapply pub_log; eauto|]. by apply elem_of_list_singleton in Hn as ->.
    - intros w1 (HI1 & Ho1 & HL1 & Hp1). apply wp_bind, wp_loaded; [done|]. rewrite HL1.
      apply (wp_for_each base Inv (fun _ w' => Inv w' /\ own_is w' dev /\ exists evs, w_log w' = evs ++ w_log w1)).
      + split; [done|]. split; [done|]. by exists [].
      + intros pre ns post w2 El (HI2 & Ho2 & evs & E2). apply wp_refresh; [done|done| |].
        { eapply pub_log; [exact E2|]. apply Hp1. rewrite El. apply elem_of_app. right. left. }
        intros o ev2 HI3 Ho3. destruct o as [_|e]; [|by apply HE]. split; [done|]. split; [done|].
        exists (ev2 ++ evs). simpl. by rewrite E2, app_assoc.
      + intros w2 (HI2 & Ho2 & _). by apply HV.
  Qed.

  Lemma wp_add dev active ns w (R : outcome unit -> world -> Prop) :
    Inv w -> own_is w dev -> (forall w', Inv w' -> own_is w' dev -> R (Val tt) w') -> (forall e w', Inv w' -> R (Exn e) w') ->
    wp base Inv (add_backend (cfg_of a dev) active ns) R w.
  Proof.
    intros HI Ho HV HE. unfold add_backend. destruct (decide _); [by apply wp_ret, HV|].
    apply wp_bind. eapply (wp_quiet (fun e => exists r, e = EvNumVisible ns r)); [ev| |done|].
    { intros e (r & ->). done. }
    intros o evs HF HI1. destruct o as [n0|e]; [|by apply HE].
    assert (own_is (after evs w) dev) as Ho1.
    { apply own_kept; [done|]. eapply Forall_impl; [exact HF|]. by intros e (r & ->). }
    revert HI1 Ho1. generalize (after evs w). clear HF evs HI Ho w. intros w HI Ho.
    apply wp_bind. eapply (wp_quiet (fun e => exists m r, e = EvGenerate ns m r)); [| |done|].
    { emt. ev. } { intros e (m & r & ->). done. }
    intros o evs HF HI1. destruct o as [_|e]; [|by apply HE].
    assert (own_is (after evs w) dev) as Ho1.
    { apply own_kept; [done|]. eapply Forall_impl; [exact HF|]. by intros e (m & r & ->). }
    revert HI1 Ho1. generalize (after evs w). clear HF evs HI Ho w. intros w HI Ho.
    change (wp base Inv (b <- b_get_bundle ns j dev ;; (n_upload_bundle b ;;; refresh_device_list (cfg_of a dev) ns j)) R w).
    apply wp_assoc, wp_bind. apply wp_publish_one; [done|done|auto|].
    intros w2 evs El HL2 HI2 Ho2 Hp2. apply wp_refresh; [done|done|done|]. intros [[]|e] ev2 HI3 Ho3; auto.
  Qed.

  Lemma wp_reconcile dev w (R : outcome unit -> world -> Prop) :
    Inv w -> own_is w dev -> (forall w', Inv w' -> own_is w' dev -> R (Val tt) w') -> (forall e w', Inv w' -> R (Exn e) w') ->
    wp base Inv (reconcile (cfg_of a dev)) R w.
  Proof.
    intros HI Ho HV HE. unfold reconcile. apply wp_bind. eapply (wp_quiet (ev_info j)); [apply (em_own (cfg_of a dev))|apply q_info|done|].
    intros o evs HF HI1. destruct o as [r|e]; [|by apply HE].
    assert (own_is (after evs w) dev) as Ho1.
    { apply own_kept; [done|]. eapply Forall_impl; [exact HF|]. intros e He. by apply q_info in He as [? _]. }
    revert HI1 Ho1. generalize (after evs w). clear HF evs HI Ho w. intros w HI Ho.
    apply wp_bind, wp_loaded; [done|]. cbv zeta. destruct (set_eqb _ _); [by apply wp_ret, HV|].
    apply wp_bind, wp_order; [done|]. intros l1 _.
    apply wp_bind, wp_store_quiet; [auto|done|]. intros o1 v1 HI2 F1. destruct o1 as [_|e]; [|by apply HE].
    assert (own_is (after v1 w) dev) as Ho1.
    { apply own_kept; [done|]. eapply Forall_impl; [exact F1|]. intros e (r0 & ->). simpl. auto. }
    apply wp_bind, wp_order; [done|]. intros l2 _.
    apply wp_bind, wp_store_quiet; [auto|done|]. intros o2 v2 HI3 F2. destruct o2 as [_|e]; [|by apply HE].
    assert (own_is (after v2 (after v1 w)) dev) as Ho2.
    { apply own_kept; [done|]. eapply Forall_impl; [exact F2|]. intros e (r0 & ->). simpl. auto. }
    apply wp_bind, wp_loaded; [done|]. apply wp_bind.
    apply (wp_for_each base Inv (fun _ w' => Inv w' /\ own_is w' dev)); [done| |].
    { intros pre ns post w1 _ [? ?]. apply wp_add; auto. }
    intros w1 [HI4 Ho4]. apply wp_bind, wp_order; [done|]. intros l3 _.
    apply (wp_for_each base Inv (fun _ w' => Inv w' /\ own_is w' dev)); [done| |].
    { intros pre ns post w2 _ [? ?]. apply wp_purge; [done|done|]. intros [[]|e] w' ? ?; auto. }
    intros w2 [? ?]. auto.
  Qed.

  Lemma wp_create w : w_log w = L0 -> wp base Inv (create P fuel a) (fun _ _ => True) w.
  Proof.
    intros EL. assert (Inv w) as HI.
    { exists []. split; [done|]. split; [apply traced_nil|]. intros. apply traced_nil. }
    unfold create. destruct (negb (bool_decide _)); [by apply wp_raise|]. destruct (negb (_ && _)); [by apply wp_raise|].
    apply wp_bind, wp_ploaded; [exact HI|]. set (w1 := World (w_disk w) (a_backends a) (w_sync w) (w_log w)).
    assert (Inv w1) as HI1 by exact HI. assert (w_log w1 = L0) as EL1 by exact EL.
    assert (w_loaded w1 = a_backends a) as HL1 by done. clearbody w1. clear HI EL w.
    apply wp_bind. eapply wp_quiet; [apply em_ikp|apply q_ikp|done|]. intros o evs HF HI2.
    destruct o as [k|e]; [|done].
    apply wp_bind, wp_psync; [exact HI2|].
    set (w2 := World (w_disk (after evs w1)) (w_loaded (after evs w1)) true (w_log (after evs w1))).
    assert (Inv w2) as HI3 by exact HI2.
    assert (exists evs, w_log w2 = evs ++ L0 /\ Forall (fun e => nopub e /\ forall n x r, e <> EvDownloadDL n x r) evs) as HN.
    { exists evs. split; [simpl; by rewrite EL1|]. eapply Forall_impl; [exact HF|]. by intros e (kk & v & r & -> & _). }
    assert (w_loaded w2 = a_backends a) as HL2 by exact HL1. clearbody w2. clear HI2 HF.
    apply wp_bind. eapply (wp_typed _ _ _ _ _ _ good_int); [done|done| | |done].
    - intros Hno. apply wp_bind. apply wp_bind. apply wp_local; [done|done|done|done|]. intros id w3 HI4 HL4 Ho4.
      apply wp_bind. apply wp_publish; [done|done| |done]. intros [[]|e] w4 HI5 Ho5; [|done]. apply wp_ret.
      apply wp_bind, wp_reconcile; [done|done| |done]. intros w5 _ _. by apply wp_ret.
    - intros v id Hv Ht. apply wp_bind, wp_ret. assert (own_is w2 id) as Ho by (by exists v).
      apply wp_bind, wp_reconcile; [done|done| |done]. intros w5 _ _. by apply wp_ret.
  Qed.
End create.

Lemma create_traced P fuel a w w' :
  reach base (create P fuel a) w w' ->
  exists evs, w_log w' = evs ++ w_log w /\ traced (fresh_ok a) evs /\
    forall id, holds is_int (w_disk w') IOwnDeviceId id -> traced (announce_ok a id) evs.
Proof.
  intros H. eapply (wp_reach base (Inv a (w_log w))) in H; [exact H| |].
  - by apply wp_create.
  - exists []. split; [done|]. split; [apply traced_nil|]. intros. apply traced_nil.
Qed.
