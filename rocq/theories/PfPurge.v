(** C27, C33, C60, C61: purging. *)
From Verif Require Import Api Spec Env PfStrs PfTyped PfWp PfFrame PfHist PfEmits PfUpdate PfDevices PfInfo PfTrust PfExec PfNet.
Open Scope prog_scope.
Open Scope list_scope.

(** ** C61 *)
Lemma ev_info_local j e : ev_info j e -> local_ev e.
Proof. by destruct 1. Qed.

Lemma dget_keys {K V} `{EqDecision K} (k : K) (d : list (K * V)) : k ∈ dkeys d <-> exists v, dget k d = Some v.
Proof.
  unfold dkeys. induction d as [|[k0 v] d IH]; simpl.
  - split; [by intros ?%elem_of_nil|by intros [? ?]].
  - rewrite elem_of_cons. destruct (decide (k = k0)) as [->|]; [split; [by eexists|by left]|]. rewrite IH. naive_solver.
Qed.
Lemma dmem_keys' {K V} `{EqDecision K} (k : K) (d : list (K * V)) : dmem k d = bool_decide (k ∈ dkeys d).
Proof.
  unfold dmem. apply bool_decide_ext. rewrite dget_keys. split; intros [v H]; eauto.
Qed.

Lemma purge_backend_exec cf ns w w' :
  exec base (purge_backend cf ns) w (Val tt) w' ->
  (forall m, holds (is_dict is_bool) (w_disk w) (IActive (c_jid cf) (c_dev cf)) m -> NoDup (dkeys m)) ->
  (exists dl evs, Forall local_ev evs /\
     w_log w' = EvDeleteBundle ns (c_dev cf) (Val tt) ::
       (if decide (ns ∈ w_loaded w) then [EvPurge ns (Val tt)] else []) ++ evs ++
       (if decide (c_dev cf ∈ dkeys dl) then [EvUploadDL ns (without (c_dev cf) dl) (Val tt)] else []) ++
       EvDownloadDL ns (c_jid cf) (Val dl) :: w_log w) /\
  w_loaded w' = filter (fun n => n <> ns) (w_loaded w) /\ w_sync w' = w_sync w /\
  ~ supports (w_disk w') (c_jid cf) (c_dev cf) ns /\
  (forall b, ~ activity (w_disk w') (c_jid cf) (c_dev cf) ns b) /\
  (forall n, n <> ns ->
     (forall b, activity (w_disk w') (c_jid cf) (c_dev cf) n b <-> activity (w_disk w) (c_jid cf) (c_dev cf) n b) /\
     (supports (w_disk w') (c_jid cf) (c_dev cf) n <->
        supports (w_disk w) (c_jid cf) (c_dev cf) n /\ exists b, activity (w_disk w) (c_jid cf) (c_dev cf) n b)) /\
  (forall i, i <> IActive (c_jid cf) (c_dev cf) -> (forall x, i <> INamespaces (c_jid cf) x) ->
     (forall x, i <> IIdentityKey (c_jid cf) x) -> w_disk w' !! item_key i = w_disk w !! item_key i) /\
  (forall x ik, keyed (w_disk w) (c_jid cf) x ik -> keyed (w_disk w') (c_jid cf) x ik) /\
  (forall x n, supports (w_disk w') (c_jid cf) x n -> supports (w_disk w) (c_jid cf) x n) /\
  (forall m, holds (is_dict is_bool) (w_disk w') (IActive (c_jid cf) (c_dev cf)) m -> NoDup (dkeys m)).
Proof.
  set (j := c_jid cf). set (dev := c_dev cf).
  intros H Hnd. unfold purge_backend in H. fold j dev in H.
  xbind H as dl w1 H1. xext H1. rename r into dl. xbind H as [] w2 H2.
  assert (w2 = after ((if decide (dev ∈ dkeys dl) then [EvUploadDL ns (without dev dl) (Val tt)] else []) ++ [EvDownloadDL ns j (Val dl)]) w) as ->.
  { rewrite dmem_keys' in H2. destruct (decide (dev ∈ dkeys dl)) as [Hd|Hd].
    - rewrite bool_decide_true in H2 by done. destruct H2 as (r & Hr0 & H2). destruct r as [[]|e]; simpl in H2; [|by destruct H2].
      destruct H2 as [_ ->]. rewrite dpop_filter. by destruct w.
    - rewrite bool_decide_false in H2 by done. simpl in H2. destruct H2 as [_ ->]. by destruct w. }
  set (evs1 := (if decide _ then _ else _) ++ _) in H.
  assert (w_disk (after evs1 w) = w_disk w) as HD.
  { unfold after, evs1. simpl. by destruct (decide _). }
  xbind H as [d others] w3 H3. clear H2 Hr.
  pose proof (em_exec _ _ _ _ _ _ (em_own cf) H3) as (_ & evs2 & Hevs2 & E3).
  assert (w_loaded w3 = w_loaded w /\ w_sync w3 = w_sync w /\ w_log w3 = evs2 ++ evs1 ++ w_log w) as (EL3 & ES3 & EG3) by (by rewrite E3).
  clear E3.
  apply own_split in H3 as (ds & Hinfo & Hperm & Hdj & Hdid & _). simpl fst in H.
  apply get_info_exec in Hinfo as (ids & bs & Hids & Hmid & V1 & _). cbn [fst snd] in V1.
  destruct (V1 d) as (Hidin & _ & l & Hns & Hact & Hlab & Hl & Hlnd & _); [rewrite Hperm; left|]. clear V1.
  rewrite HD in Hns, Hact. fold j in Hmid, Hns, Hact. rewrite Hdid in Hns, Hact. fold dev in Hns, Hact.
  assert (NoDup (dkeys (dv_active d))) as Hnda by (by apply Hnd).
  destruct Hmid as [_ [Hframe Hupd]]. rewrite HD in Hframe, Hupd.
  xbind H as act w4 H4. apply exec_order in H4 as (act' & Hact' & [= ->] & ->).
  xbind H as [] w5 H5. xext H5.
  xbind H as nss w6 H6. apply exec_order in H6 as (nss' & Hnss' & [= ->] & ->).
  xbind H as [] w7 H7. xext H7.
  xbind H as ? w8 H8. apply exec_loaded in H8 as [[= ->] ->].
  xbind H as ? w9 H9. apply exec_loaded in H9 as [[= ->] ->].
  xbind H as [] w10 H10. apply exec_ploaded in H10 as [_ ->].
  xbind H as [] w11 H11.
  set (evs3 := [EvStore (k_ns j dev) (j_strs nss') (Val tt); EvStore (k_active j dev) (j_bools act') (Val tt)]).
  set (D := <[k_ns j dev := j_strs nss']> (<[k_active j dev := j_bools act']> (w_disk w3))).
  assert (w_disk w' = D /\ w_loaded w' = filter (fun n => n <> ns) (w_loaded w) /\ w_sync w' = w_sync w /\
    w_log w' = EvDeleteBundle ns dev (Val tt) :: (if decide (ns ∈ w_loaded w) then [EvPurge ns (Val tt)] else []) ++
      evs3 ++ w_log w3) as (ED & EL & ES & EG).
  {
    change (w_loaded _) with (w_loaded w3) in H11. rewrite EL3 in H11.
    assert (exists evs4, evs4 = (if decide (ns ∈ w_loaded w) then [EvPurge ns (Val tt)] else []) /\
      w11 = World D (filter (fun n => n <> ns) (w_loaded w)) (w_sync w) (evs4 ++ evs3 ++ w_log w3)) as (evs4 & E4 & ->).
    { eexists. split; [reflexivity|]. destruct (decide (ns ∈ w_loaded w)).
      - destruct H11 as (r0 & Hr9 & H2). destruct r0 as [[]|e0]; simpl in H2; [|by destruct H2].
        destruct H2 as [_ ->]. simpl. rewrite ?EL3, ES3. done.
      - simpl in H11. destruct H11 as [_ ->]. simpl. rewrite ?EL3, ES3. done. }
    destruct H as (r0 & Hr9 & H2). destruct r0 as [[]|e0]; simpl in H2; [|by destruct H2].
    destruct H2 as [_ ->]. simpl. by rewrite E4. }
  clear H H11 Hr Hr0. rewrite ED, EL, ES.
  assert (D !! k_ns j dev = Some (j_strs nss')) as DN by apply lookup_insert.
  assert (D !! k_active j dev = Some (j_bools act')) as DA.
  { unfold D. rewrite lookup_insert_ne by kneq. apply lookup_insert. }
  apply hns_new in DN. apply hact_new in DA.
  assert (NoDup (dkeys (dpop ns (dv_active d)))) as Hndp by (by apply nodup_dpop).
  split; [|split; [done|split; [done|]]].
  { exists dl, (evs3 ++ evs2). split.
    - apply Forall_app. split; [by repeat constructor|]. eapply Forall_impl; [exact Hevs2|]. apply ev_info_local.
    - rewrite EG, EG3. unfold evs1.
      rewrite <- !app_assoc. by destruct (decide (dev ∈ dkeys dl)). }
  split; [|split; [|split; [|split; [|split; [|split]]]]].
  - rewrite (supports_ns _ _ _ _ _ DN). rewrite Hnss', elem_diff. intros [_ Hc]. apply Hc. left.
  - intros b. rewrite (activity_act _ _ _ _ _ _ DA). rewrite (dget_perm _ _ _ Hndp Hact'), dget_dpop, decide_True by done. done.
  - intros n Hn. split.
    + intros b. rewrite (activity_act _ _ _ _ _ _ DA), (activity_act _ _ _ _ _ _ Hact).
      by rewrite (dget_perm _ _ _ Hndp Hact'), dget_dpop, decide_False.
    + rewrite (supports_ns _ _ _ _ _ DN), (supports_ns _ _ _ _ _ Hns), Hnss', elem_diff, Hl, dget_keys.
      setoid_rewrite (activity_act _ _ _ _ _ _ Hact). split; [tauto|]. intros [? ?]. split; [done|].
      by intros ?%elem_of_list_singleton.
  - intros i Hi1 Hi2 Hi3. unfold D.
    rewrite lookup_insert_ne, lookup_insert_ne.
    + apply Hframe. intros x Hx. split.
      * change (k_ns j x) with (item_key (INamespaces j x)). intros Hc. apply (kne (INamespaces j x) i); [done|apply Hi2|done].
      * change (k_ik j x) with (item_key (IIdentityKey j x)). intros Hc. apply (kne (IIdentityKey j x) i); [done|apply Hi3|done].
    + change (k_active j dev) with (item_key (IActive j dev)). intros Hc. by apply (kne (IActive j dev) i).
    + change (k_ns j dev) with (item_key (INamespaces j dev)). intros Hc. by apply (kne (INamespaces j dev) i).
  - intros x ik (s & Hs & Hb). exists s. split; [|done]. change (w_disk w !! k_ik j x = Some (JStr s)) in Hs.
    change (D !! k_ik j x = Some (JStr s)). unfold D. rewrite !lookup_insert_ne by kneq.
    destruct (decide (x ∈ ids)) as [Hx|Hx].
    + destruct (Hupd x Hx) as [_ [HK|[HK _]]]; congruence.
    + erewrite frame_ik; [exact Hs| |exact Hx]. done.
  - intros x n. destruct (decide (x = dev)) as [->|Hx].
    + rewrite (supports_ns _ _ _ _ _ DN), (supports_ns _ _ _ _ _ Hns), Hnss', elem_diff, Hl. tauto.
    + unfold supports, holds. intros (l0 & (v & Hv & Ht) & Hn). change (D !! k_ns j x = Some v) in Hv.
      unfold D in Hv. rewrite !lookup_insert_ne in Hv by kneq.
      destruct (decide (x ∈ ids)) as [Hx'|Hx'].
      2:{ erewrite frame_ns in Hv; [|done|exact Hx']. exists l0. split; [|done]. by exists v. }
      destruct (Hupd x Hx') as [[HN|(l1 & m1 & l' & Hl1 & Hm1 & HN & Hel)] _].
      * rewrite HN in Hv. exists l0. split; [|done]. by exists v.
      * exists l1. split; [exact Hl1|]. rewrite HN in Hv. injection Hv as <-.
        assert (l0 = l') as -> by (eapply strs_fun; [exact Ht|apply is_strs]). by apply Hel.
  - intros m Hm. assert (m = act') as -> by (eapply hact_fun; [exact Hm|exact DA]).
    unfold dkeys. by rewrite Hact'.
Qed.

Lemma purge_backend_crash cf ns w w' :
  reach base (purge_backend cf ns) w w' ->
  exists evs, w_log w' = evs ++ w_log w /\ Forall (purge_ev cf ns) evs /\
    (forall r, EvPurge ns r ∈ evs \/ EvDeleteBundle ns (c_dev cf) r ∈ evs ->
       exists dl, EvDownloadDL ns (c_jid cf) (Val dl) ∈ evs /\
         (c_dev cf ∈ dkeys dl -> EvUploadDL ns (without (c_dev cf) dl) (Val tt) ∈ evs)).
Proof.
  set (Q := fun e => purge_ev cf ns e /\ match e with EvPurge _ _ | EvDeleteBundle _ _ _ => False | _ => True end).
  assert (forall w', grew Q w w' -> exists evs, w_log w' = evs ++ w_log w /\ Forall (purge_ev cf ns) evs /\
    (forall r, EvPurge ns r ∈ evs \/ EvDeleteBundle ns (c_dev cf) r ∈ evs ->
       exists dl, EvDownloadDL ns (c_jid cf) (Val dl) ∈ evs /\
         (c_dev cf ∈ dkeys dl -> EvUploadDL ns (without (c_dev cf) dl) (Val tt) ∈ evs))) as Hearly.
  { intros w1 (evs & He & HF). exists evs. split; [done|]. rewrite Forall_forall in HF. split.
    - apply Forall_forall. intros e Hin. by apply HF.
    - intros r [Hin|Hin]; by apply HF in Hin as [_ []]. }
  unfold purge_backend. intros H. rbind H as dl w1 H1.
  { apply Hearly. apply reach_ext in H as [->|(r & _ & ->)]; [apply grew_refl|apply grew_ext]. by repeat split. }
  xext H1. rename r into dl. rbind H as [] w2 H2.
  { apply Hearly. gstep H; [apply grew_ext; by repeat split|].
    rewrite dmem_keys' in H. destruct (bool_decide _).
    - apply reach_ext in H as [->|(r & _ & ->)]; [apply grew_refl|apply grew_ext]. split; [|done]. split; [done|].
      rewrite dpop_filter. unfold dkeys. intros Hc. apply elem_of_list_fmap in Hc as ([x l] & E1 & Hc).
      apply elem_of_list_filter in Hc as [Hc _]. by simpl in *.
    - apply reach_ret in H as ->. apply grew_refl. }
  (* from here on only purge_ev matters *)
  assert (exists evs1, w_log w2 = evs1 ++ w_log w /\ Forall (purge_ev cf ns) evs1 /\
    EvDownloadDL ns (c_jid cf) (Val dl) ∈ evs1 /\ (c_dev cf ∈ dkeys dl -> EvUploadDL ns (without (c_dev cf) dl) (Val tt) ∈ evs1))
    as (evs1 & E1 & F1 & G1 & G2).
  { rewrite dmem_keys' in H2. case_bool_decide as Hd.
    - xext H2. rewrite dpop_filter. eexists [_; _]. split; [reflexivity|]. split.
      + constructor; [|by repeat constructor]. split; [done|].
        unfold dkeys. intros Hc. apply elem_of_list_fmap in Hc as ([x l] & E1 & Hc).
        apply elem_of_list_filter in Hc as [Hc _]. by simpl in *.
      + split; [right; left|]. intros _. left.
    - destruct H2 as [_ ->]. eexists [_]. split; [reflexivity|]. split; [by repeat constructor|]. split; [left|done]. }
  assert (grew (purge_ev cf ns) w2 w') as (evs2 & E2 & F2).
  2:{ exists (evs2 ++ evs1). rewrite E2, E1, app_assoc. split; [done|]. split; [by apply Forall_app|].
      intros r _. exists dl. setoid_rewrite elem_of_app. auto. }
  clear -H.
  assert (forall e, ev_info (c_jid cf) e -> purge_ev cf ns e) as HP by (by destruct 1).
  rbind H as [d others] w3 H3.
  { apply (em_reach _ _ _ _ _ (em_own cf)) in H as (evs & He & ->). apply grew_after. eapply Forall_impl; eauto. }
  apply (em_exec _ _ _ _ _ _ (em_own cf)) in H3 as (_ & evs & He & ->).
  eapply grew_trans; [apply grew_after; eapply Forall_impl; eauto|]. generalize dependent (after evs w2). clear w2. intros w H.
  cbv zeta in H. rbind H as act w4 H4; [apply reach_order in H as ->; apply grew_refl|].
  apply exec_order in H4 as (act' & Hact' & [= ->] & ->).
  rbind H as [] w4 H4; [apply reach_ext in H as [->|(r & _ & ->)]; [apply grew_refl|apply grew_ext; by repeat split]|].
  xext H4. gstep H; [apply grew_ext; by repeat split|].
  rbind H as act w4 H4; [apply reach_order in H as ->; apply grew_refl|].
  apply exec_order in H4 as (nss' & Hnss' & [= ->] & ->).
  rbind H as [] w4 H4; [apply reach_ext in H as [->|(r & _ & ->)]; [apply grew_refl|apply grew_ext; by repeat split]|].
  xext H4. gstep H; [apply grew_ext; by repeat split|].
  rbind H as ? w4 H4; [apply reach_loaded in H as ->; apply grew_refl|]. apply exec_loaded in H4 as [[= ->] ->].
  rbind H as ? w4 H4; [apply reach_loaded in H as ->; apply grew_refl|]. apply exec_loaded in H4 as [[= ->] ->].
  rbind H as [] w4 H4; [apply reach_ploaded in H as [->| ->]; [apply grew_refl|by exists []]|].
  apply exec_ploaded in H4 as [_ ->]. gstep H; [by exists []|].
  rbind H as [] w4 H4.
  { destruct (decide _); [|apply reach_ret in H as ->; apply grew_refl].
    apply reach_ext in H as [->|(r1 & _ & ->)]; [apply grew_refl|apply grew_ext; by repeat split]. }
  eapply grew_trans with (w2 := w4).
  { destruct (decide _); [xext H4; apply grew_ext; by repeat split|]. destruct H4 as [_ ->]. apply grew_refl. }
  apply reach_ext in H as [->|(r1 & _ & ->)]; [apply grew_refl|apply grew_ext; by repeat split].
Qed.

(** ** C33, C27 *)
Lemma elem_add {A} `{EqDecision A} (x y : A) l : y ∈ set_add x l <-> y = x \/ y ∈ l.
Proof.
  unfold set_add. destruct (decide (x ∈ l)); rewrite ?elem_of_app, ?elem_of_list_singleton; [|tauto].
  split; [by right|]. by intros [->|?].
Qed.
Section purge.
  Context (jid : string) (w0 : world).
  Notation d0 := (w_disk w0).

  Definition pkey (k : string) : Prop := exists i, purge_item d0 jid i /\ k = item_key i.
  Definition recs_gone (d : gmap string json) : Prop :=
    forall x, known d0 jid x -> d !! k_ns jid x = None /\ d !! k_active jid x = None /\ d !! k_label jid x = None /\ d !! k_ik jid x = None.
  (** only keys to be purged are touched, all of [N] are gone; the list goes after the records *)
  Definition pst (N : string -> Prop) (w : world) : Prop :=
    w_loaded w = w_loaded w0 /\ w_sync w = w_sync w0 /\
    (forall k, w_disk w !! k = d0 !! k \/ pkey k /\ w_disk w !! k = None) /\
    (w_disk w !! k_list jid = d0 !! k_list jid \/ recs_gone (w_disk w)) /\
    (forall k, N k -> w_disk w !! k = None).
  Definition pst_del (N : string -> Prop) (w : world) : Prop := pst N w /\ grew is_delete w0 w.

  Lemma pst_mono (N N' : string -> Prop) w : (forall k, N' k -> N k) -> pst N w -> pst N' w.
  Proof. intros H (A & B & C & D & E). repeat (split; [done|]). auto. Qed.
  Lemma recs_gone_pst (N : string -> Prop) w :
    (forall x, known d0 jid x -> N (k_ns jid x) /\ N (k_active jid x) /\ N (k_label jid x) /\ N (k_ik jid x)) -> pst N w -> recs_gone (w_disk w).
  Proof. intros H (_ & _ & _ & _ & E) x Hx. destruct (H x Hx) as (?&?&?&?). auto 10. Qed.

  Definition pinv (w : world) : Prop :=
    pst (fun _ => False) w /\ grew (fun e => is_delete e \/ exists ns r, ns ∈ w_loaded w0 /\ e = EvPurgeJid ns jid r) w0 w.
  Lemma pst_del_inv N w : pst_del N w -> pinv w.
  Proof. intros [A B]. split; [by eapply pst_mono; [|exact A]|]. eapply grew_mono; [exact B|auto]. Qed.

  Lemma del_wp (N : string -> Prop) k w :
    pst_del N w -> pkey k -> (k = k_list jid -> recs_gone (w_disk w)) ->
    wp base pinv (s_delete k) (fun o w' => match o with Val _ => pst_del (fun k' => N k' \/ k' = k) w' | Exn e => pinv w' /\ ext_exn e = true end) w.
  Proof.
    intros HS Hk Hlist.
    assert (forall r, ext_ok r -> pst_del (fun k' => N k' \/ (k' = k /\ r = Val tt)) (w_apply w (SDelete k) r)) as HI.
    { intros r Hr. destruct HS as [(A & B & C & D & E) G]. split; [|eapply grew_trans; [exact G|by apply grew_ext]].
      destruct r as [[]|e].
      2:{ split; [done|]. split; [done|]. split; [done|]. split; [done|]. intros k' [?|[_ ?]]; [auto|done]. }
      split; [done|]. split; [done|]. simpl. split; [|split].
      - intros k'. destruct (decide (k' = k)) as [->|]; [right; by rewrite lookup_delete|]. rewrite lookup_delete_ne by done. apply C.
      - destruct (decide (k = k_list jid)) as [Heq|Hne].
        + right. intros x Hx. destruct (Hlist Heq x Hx) as (H1 & H2 & H3 & H4).
          rewrite !lookup_delete_None. auto 10.
        + rewrite lookup_delete_ne by done. destruct D as [D|D]; [by left|]. right. intros x Hx.
          destruct (D x Hx) as (H1 & H2 & H3 & H4). rewrite !lookup_delete_None. auto 10.
      - intros k' [Hk'|[-> _]]; [|by rewrite lookup_delete]. rewrite lookup_delete_None. auto. }
    apply wp_delete.
    - intros r Hr. eapply pst_del_inv. by apply HI.
    - intros e He. split; [|done]. eapply pst_del_inv. by apply HI.
    - destruct (HI (Val tt) I) as [A B]. split; [|done]. eapply pst_mono; [|exact A]. intros k' [?| ->]; auto.
  Qed.

  Definition pfail (e : exn) : Prop := ext_exn e = true \/ ~ purgeable d0 jid.

  Lemma purge_wp :
    wp base pinv (purge_bare_jid jid) (fun o w' => pinv w' /\
      match o with
      | Val _ => pst pkey w' /\ exists evs, Forall is_delete evs /\
          w_log w' = rev (map (fun ns => EvPurgeJid ns jid (Val tt)) (w_loaded w0)) ++ evs ++ w_log w0
      | Exn e => pfail e
      end) w0.
  Proof.
    assert (pst_del (fun _ => False) w0) as H0.
    { split; [|apply grew_refl]. split; [done|]. split; [done|]. split; [auto|]. split; [by left|done]. }
    assert (pinv w0) as HI0 by (by eapply pst_del_inv).
    unfold purge_bare_jid. apply wp_bind.
    assert (forall m ids, Model.maybe [] m = ids -> stored_ids jid d0 ids ->
      wp base pinv (let device_list := pyset (Model.maybe [] m) in
        l1 <- order device_list ;;
        keys <- fold_prog l1 (collect_key jid) [] ;;
        l2 <- order device_list ;;
        for_each l2 (fun dev =>
          s_delete (k_ns jid dev) ;;;
          s_delete (k_active jid dev) ;;;
          s_delete (k_label jid dev) ;;;
          s_delete (k_ik jid dev)) ;;;
        s_delete (k_list jid) ;;;
        ks <- order keys ;;
        for_each ks (fun ik => s_delete (k_trust jid ik)) ;;;
        backends <- g_loaded ;;
        for_each backends (fun ns => b_purge_jid ns jid)) (fun o w' => pinv w' /\
      match o with
      | Val _ => pst pkey w' /\ exists evs, Forall is_delete evs /\
          w_log w' = rev (map (fun ns => EvPurgeJid ns jid (Val tt)) (w_loaded w0)) ++ evs ++ w_log w0
      | Exn e => pfail e
      end) w0) as Hgo.
    { intros m ids -> Hids. cbv zeta. pose proof (fun x => known_ids d0 jid x ids Hids) as Hknown.
      apply wp_bind, wp_order; [done|]. intros l1 Hl1.
      assert (forall x, x ∈ l1 <-> known d0 jid x) as Hk1 by (intros x; rewrite Hl1, elem_pyset; by rewrite Hknown).
      apply wp_bind.
      apply (wp_fold_prog _ _ (fun pre keys w => w = w0 /\ forall ik, ik ∈ keys <-> exists x, x ∈ pre /\ hik d0 jid x ik)).
      { split; [done|]. intros ik. split; [by intros ?%elem_of_nil|]. intros (x & Hx & _). by apply elem_of_nil in Hx. }
      { intros pre x post keys w Hl [-> Hkeys]. unfold collect_key. apply wp_bind, wp_load_bytes; [done| | | |].
        - intros e He. split; [done|by left].
        - intros Hn. apply wp_ret. split; [done|]. intros ik. rewrite Hkeys. setoid_rewrite elem_of_app. setoid_rewrite elem_of_list_singleton.
          split; [intros (y & Hy & ?); eauto|]. intros (y & [Hy| ->] & s & Hs & Hb); [eauto 10|congruence].
        - intros s ik Hs Hb. apply wp_ret. split; [done|]. intros ik'. rewrite elem_add.
          rewrite Hkeys. setoid_rewrite elem_of_app. setoid_rewrite elem_of_list_singleton. split.
          + intros [->|(y & ? & ?)]; eauto 10.
          + intros (y & [Hy| ->] & s' & Hs' & Hb'); [eauto 10|]. left. congruence.
        - intros e Hv Hn. split; [done|]. right. intros [_ Hp]. destruct (d0 !! k_ik jid x) as [v|] eqn:Ev; [|done].
          destruct (Hp x v) as (ik & s & Hs & Hb); [|done|].
          + apply Hk1. rewrite Hl. apply elem_of_app. right. left.
          + change (d0 !! k_ik jid x = Some (JStr s)) in Hs. rewrite Ev in Hs. by apply (Hn s ik). }
      intros keys w [-> Hkeys].
      apply wp_bind, wp_order; [done|]. intros l2 Hl2.
      assert (forall x, x ∈ l2 <-> known d0 jid x) as Hk2 by (intros x; rewrite Hl2, elem_pyset; by rewrite Hknown).
      set (recs := fun (P : Z -> Prop) k => exists x, P x /\ (k = k_ns jid x \/ k = k_active jid x \/ k = k_label jid x \/ k = k_ik jid x)).
      apply wp_bind.
      apply (wp_for_each _ _ (fun pre w => pst_del (recs (fun x => x ∈ pre)) w)).
      { destruct H0 as [A B]. split; [|done]. eapply pst_mono; [|exact A]. intros k (x & Hx & _). by apply elem_of_nil in Hx. }
      { intros pre x post w Hl HS.
        assert (known d0 jid x) as Hx by (apply Hk2; rewrite Hl; apply elem_of_app; right; left).
        assert (pkey (k_ns jid x)) as P1 by (exists (INamespaces jid x); split; [right; eauto 10|done]).
        assert (pkey (k_active jid x)) as P2 by (exists (IActive jid x); split; [right; eauto 10|done]).
        assert (pkey (k_label jid x)) as P3 by (exists (ILabel jid x); split; [right; eauto 10|done]).
        assert (pkey (k_ik jid x)) as P4 by (exists (IIdentityKey jid x); split; [right; eauto 10|done]).
        apply wp_bind. eapply wp_conseq; [eapply del_wp; [exact HS|exact P1|intros Hc; exfalso; revert Hc; kneq]|].
        intros [[]|e] w1 S1; [|destruct S1; split; [done|by left]].
        apply wp_bind. eapply wp_conseq; [eapply del_wp; [exact S1|exact P2|intros Hc; exfalso; revert Hc; kneq]|].
        intros [[]|e] w2 S2; [|destruct S2; split; [done|by left]].
        apply wp_bind. eapply wp_conseq; [eapply del_wp; [exact S2|exact P3|intros Hc; exfalso; revert Hc; kneq]|].
        intros [[]|e] w3 S3; [|destruct S3; split; [done|by left]].
        eapply wp_conseq; [eapply del_wp; [exact S3|exact P4|intros Hc; exfalso; revert Hc; kneq]|].
        intros [[]|e] w4 S4; [|destruct S4; split; [done|by left]].
        destruct S4 as [A B]. split; [|done]. eapply pst_mono; [|exact A]. intros k (y & Hy & Hk).
        apply elem_of_app in Hy as [Hy| ->%elem_of_list_singleton].
        - left. left. left. left. by exists y.
        - destruct Hk as [?|[?|[?|?]]]; tauto. }
      intros w1 S1. apply wp_bind.
      assert (recs_gone (w_disk w1)) as Hrg.
      { eapply recs_gone_pst; [|apply S1]. intros x Hx%Hk2. repeat split; exists x; tauto. }
      eapply wp_conseq; [eapply del_wp; [exact S1|exists (IDeviceList jid); split; [by left|done]|done]|].
      intros [[]|e] w2 S2; [|destruct S2; split; [done|by left]].
      apply wp_bind, wp_order; [by eapply pst_del_inv|]. intros ks Hks. apply wp_bind.
      apply (wp_for_each _ _ (fun pre w => pst_del (fun k => (recs (fun x => x ∈ l2) k \/ k = k_list jid) \/ exists ik, ik ∈ pre /\ k = k_trust jid ik) w)).
      { destruct S2 as [A B]. split; [|done]. eapply pst_mono; [|exact A]. intros k [?|(ik & Hik & _)]; [done|]. by apply elem_of_nil in Hik. }
      { intros pre ik post w Hl HS.
        assert (pkey (k_trust jid ik)) as P1.
        { assert (ik ∈ keys) as Hin by (rewrite <- Hks, Hl; apply elem_of_app; right; left).
          apply Hkeys in Hin as (x & Hx & Hik). exists (ITrust jid ik). split; [|done]. right. exists x.
          split; [by apply Hk1|]. do 4 right. by exists ik. }
        eapply wp_conseq; [eapply del_wp; [exact HS|exact P1|intros Hc; exfalso; revert Hc; kneq]|].
        intros [[]|e] w4 S4; [|destruct S4; split; [done|by left]].
        destruct S4 as [A B]. split; [|done]. eapply pst_mono; [|exact A]. intros k [?|(ik' & Hik & ->)]; [by left; left|].
        apply elem_of_app in Hik as [Hik| ->%elem_of_list_singleton]; [left; right; eauto|by right]. }
      intros w3 [S3 G3].
      assert (pst pkey w3) as S3'.
      { eapply pst_mono; [|exact S3]. intros k (i & Hi & ->). destruct Hi as [->|(x & Hx & Hi)]; [left; by right|].
        destruct Hi as [->|[->|[->|[->|(ik & Hik & ->)]]]]; try (left; left; exists x; split; [by apply Hk2|tauto]).
        right. exists ik. split; [|done]. rewrite Hks. apply Hkeys. exists x. split; [by apply Hk1|exact Hik]. }
      assert (w_loaded w3 = w_loaded w0) as EL by apply S3.
      apply wp_bind, wp_loaded; [by eapply pst_del_inv|]. rewrite EL.
      destruct G3 as (evs & Eg & Fg).
      assert (forall w4 ev4, pst pkey w4 -> w_log w4 = ev4 ++ evs ++ w_log w0 ->
        Forall (fun e => exists ns r, ns ∈ w_loaded w0 /\ e = EvPurgeJid ns jid r) ev4 -> pinv w4) as Hinv4.
      { intros w4 ev4 A B C. split; [by eapply pst_mono; [|exact A]|]. exists (ev4 ++ evs). rewrite B, app_assoc. split; [done|].
        apply Forall_app. split; [eapply Forall_impl; [exact C|eauto]|]. eapply Forall_impl; [exact Fg|auto]. }
      assert (forall pre, (forall x, x ∈ pre -> x ∈ w_loaded w0) ->
        Forall (fun e => exists ns r, ns ∈ w_loaded w0 /\ e = EvPurgeJid ns jid r) (rev (map (fun ns => EvPurgeJid ns jid (Val tt)) pre))) as Hpre.
      { intros pre Hsub. apply Forall_rev, Forall_forall. intros e He. apply elem_of_list_fmap in He as (ns & -> & Hns). eauto. }
      apply (wp_for_each _ _ (fun pre w => pst pkey w /\
        w_log w = rev (map (fun ns => EvPurgeJid ns jid (Val tt)) pre) ++ evs ++ w_log w0)).
      { done. }
      { intros pre ns post w Hl [A B].
        assert (forall y, y ∈ pre -> y ∈ w_loaded w0) as Hsub.
        { intros y Hy. rewrite Hl. apply elem_of_app. by left. }
        assert (ns ∈ w_loaded w0) as Hns by (rewrite Hl; apply elem_of_app; right; left).
        unfold b_purge_jid. apply wp_step. intros r Hr.
        assert (pinv (w_apply w (BPurgeJid ns jid) r)) as HP.
        { eapply (Hinv4 _ (EvPurgeJid ns jid r :: _)); [exact A|simpl; rewrite B; reflexivity|].
          constructor; [eauto|by apply Hpre]. }
        split; [done|]. apply wp_of_outcome. destruct r as [[]|e].
        - split; [exact A|]. simpl. rewrite B, map_app, rev_app_distr. done.
        - split; [done|]. left. exact Hr. }
      intros w4 [A B]. split; [|split; [done|by exists evs]].
      eapply Hinv4; [exact A|exact B|]. by apply Hpre. }
    apply (wp_typed _ _ _ _ _ _ good_ints); [done| | | |].
    - intros e He. split; [done|by left].
    - intros Hn. eapply Hgo; [done|]. unfold stored_ids. by rewrite Hn.
    - intros v a Hv Ha. eapply Hgo; [done|]. unfold stored_ids. by rewrite Hv.
    - intros v Hv Hn. split; [done|]. right. intros [Hl _]. destruct (Hl v Hv) as [l Hl']. by eapply Hn.
  Qed.
End purge.

Lemma purge_item_core d jid i : purge_item d jid i -> core i.
Proof. intros [->|(x & _ & [->|[->|[->|[->|(ik & _ & ->)]]]])]; done. Qed.
Lemma pkey_item jid w0 i : pkey jid w0 (item_key i) -> purge_item (w_disk w0) jid i.
Proof.
  intros (i' & Hi & E). assert (i' = i) as <-; [|done]. apply core_inj; [|done]. by eapply purge_item_core.
Qed.

(** ** C33 *)
Lemma purge_jid_exec jid w w' :
  exec base (purge_bare_jid jid) w (Val tt) w' ->
  (forall i, purge_item (w_disk w) jid i -> w_disk w' !! item_key i = None) /\
  (forall i, ~ purge_item (w_disk w) jid i -> w_disk w' !! item_key i = w_disk w !! item_key i) /\
  w_loaded w' = w_loaded w /\ w_sync w' = w_sync w /\
  exists evs, Forall is_delete evs /\
    w_log w' = rev (map (fun ns => EvPurgeJid ns jid (Val tt)) (w_loaded w)) ++ evs ++ w_log w.
Proof.
  intros H. apply (wp_exec _ _ _ _ _ _ _ (purge_wp jid w)) in H as (_ & (A & B & C & D & F) & G).
  split; [|split; [|done]].
  - intros i Hi. apply F. by exists i.
  - intros i Hi. destruct (C (item_key i)) as [?|[Hk _]]; [done|]. by apply pkey_item in Hk.
Qed.
Lemma purge_jid_crash jid w w' i :
  reach base (purge_bare_jid jid) w w' ->
  (w_disk w' !! item_key i = w_disk w !! item_key i \/ purge_item (w_disk w) jid i /\ w_disk w' !! item_key i = None) /\
  grew (fun e => is_delete e \/ exists ns r, ns ∈ w_loaded w /\ e = EvPurgeJid ns jid r) w w'.
Proof.
  intros H. assert (pinv jid w w) as H0.
  { split; [|apply grew_refl]. split; [done|]. split; [done|]. split; [auto|]. split; [by left|done]. }
  apply (wp_reach _ _ _ _ _ _ (purge_wp jid w) H0) in H as ((A & B & C & D & _) & G). split; [|done].
  destruct (C (item_key i)) as [?|[Hk ?]]; [by left|]. right. split; [|done]. by apply pkey_item.
Qed.

(** ** C27 *)
Lemma known_same d d' j x : d' !! item_key (IDeviceList j) = d !! item_key (IDeviceList j) -> known d' j x <-> known d j x.
Proof. intros E. unfold known, holds. by rewrite E. Qed.
Lemma purge_retry jid w w1 w2 w3 :
  reach base (purge_bare_jid jid) w w1 -> restart w1 w2 ->
  exec base (purge_bare_jid jid) w2 (Val tt) w3 ->
  w_disk w3 !! item_key (IDeviceList jid) = None /\
  (forall x, known (w_disk w) jid x -> w_disk w3 !! item_key (INamespaces jid x) = None /\ w_disk w3 !! item_key (IActive jid x) = None /\
     w_disk w3 !! item_key (ILabel jid x) = None /\ w_disk w3 !! item_key (IIdentityKey jid x) = None) /\
  (forall i, ~ purge_item (w_disk w) jid i -> w_disk w3 !! item_key i = w_disk w !! item_key i).
Proof.
  intros H1 Hr H2. assert (pinv jid w w) as H0.
  { split; [|apply grew_refl]. split; [done|]. split; [done|]. split; [auto|]. split; [by left|done]. }
  apply (wp_reach _ _ _ _ _ _ (purge_wp jid w) H0) in H1 as ((_ & _ & C & D & _) & _).
  apply purge_jid_exec in H2 as (P1 & P2 & _). unfold restart in Hr. rewrite <- Hr in C, D.
  assert (forall i, w_disk w3 !! item_key i = w_disk w2 !! item_key i \/ w_disk w3 !! item_key i = None) as P3.
  { intros i. assert (Decision (w_disk w3 !! item_key i = None)) as [?|Hn] by (destruct (w_disk w3 !! item_key i); [right|left]; done).
    - by right.
    - left. apply P2. intros Hi. by apply Hn, P1. }
  split; [|split].
  - apply P1. by left.
  - intros x Hx. destruct D as [D|D].
    + assert (known (w_disk w2) jid x) as Hx2 by (by apply (known_same (w_disk w))).
      repeat split; apply P1; right; exists x; tauto.
    + destruct (D x Hx) as (D1 & D2 & D3 & D4).
      repeat split; match goal with |- _ !! item_key ?i = None => destruct (P3 i) as [P|P]; [rewrite P; assumption|exact P] end.
  - intros i Hi. destruct (C (item_key i)) as [HC|[HC _]]; [|by apply pkey_item in HC].
    rewrite P2; [done|]. intros Hi2. apply Hi.
    destruct Hi2 as [->|(x & Hx & Hi2)]; [by left|].
    assert (w_disk w2 !! k_list jid = w_disk w !! k_list jid) as EL.
    { destruct (C (k_list jid)) as [?|[_ Hn]]; [done|]. exfalso. destruct Hx as (zs & (v & Hv & _) & _).
      change (w_disk w2 !! k_list jid = Some v) in Hv. congruence. }
    apply (known_same (w_disk w) _ _ _ EL) in Hx. right. exists x. split; [done|].
    destruct Hi2 as [?|[?|[?|[?|(ik & (s & Hs & Hb) & ?)]]]]; try tauto. do 4 right. exists ik. split; [|done].
    exists s. split; [|done]. destruct (C (item_key (IIdentityKey jid x))) as [E|[_ E]]; congruence.
Qed.
Lemma purge_retry_exn jid w w1 w2 e w3 :
  purgeable (w_disk w) jid -> reach base (purge_bare_jid jid) w w1 -> restart w1 w2 ->
  exec base (purge_bare_jid jid) w2 (Exn e) w3 -> ext_exn e = true.
Proof.
  intros Hp H1 Hr H2. assert (pinv jid w w) as H0.
  { split; [|apply grew_refl]. split; [done|]. split; [done|]. split; [auto|]. split; [by left|done]. }
  apply (wp_reach _ _ _ _ _ _ (purge_wp jid w) H0) in H1 as ((_ & _ & C & D & _) & _).
  apply (wp_exec _ _ _ _ _ _ _ (purge_wp jid w2)) in H2 as (_ & [H2|H2]); [done|]. exfalso. apply H2.
  unfold restart in Hr. rewrite Hr. destruct Hp as [Hp1 Hp2].
  split.
  - intros v Hv. apply Hp1. change (w_disk w !! k_list jid = Some v). destruct (C (k_list jid)) as [E|[_ E]]; [by rewrite <- E|].
    change (w_disk w1 !! k_list jid = Some v) in Hv. congruence.
  - intros x v Hx Hv.
    assert (w_disk w1 !! k_list jid = w_disk w !! k_list jid) as EL.
    { destruct (C (k_list jid)) as [?|[_ Hn]]; [done|]. exfalso. destruct Hx as (zs & (v' & Hv' & _) & _).
      change (w_disk w1 !! k_list jid = Some v') in Hv'. congruence. }
    apply (known_same (w_disk w) _ _ _ EL) in Hx.
    destruct (C (item_key (IIdentityKey jid x))) as [E|[_ E]]; [|congruence].
    destruct (Hp2 x v Hx) as (ik & s & Hs & Hb); [by rewrite <- E|]. exists ik, s. by rewrite E.
Qed.

(** ** C60 *)
Lemma purged_offline cf ns (ok : call -> Prop) w w1 ps cfg' :
  exec base (purge_backend cf ns) w (Val tt) w1 ->
  (forall c, ok c -> keeps_offline ns c) -> Forall (fun p => libcode ok p) ps ->
  preach (with_contract bundles_named) (ps, w1) cfg' ->
  exists evs, w_log cfg'.2 = evs ++ w_log w1 /\ Forall (offline ns) evs.
Proof.
  intros H Hok Hps Hp.
  assert (ns ∉ w_loaded w1) as Hns.
  { clear Hp. unfold purge_backend in H. xbind H as dl w2 H1. xbind H as [] w3 H2. xbind H as r w4 H3. cbv zeta in H.
    xbind H as a w5 H5. xbind H as [] w6 H6. xbind H as b w7 H7. xbind H as [] w8 H8. xbind H as l w9 H9. xbind H as l' w10 H10.
    xbind H as [] w11 H11. apply exec_ploaded in H11 as [_ ->]. xbind H as [] w12 H12.
    assert (w_loaded w12 = filter (fun n => n <> ns) l') as EL.
    { destruct (decide _); [by xext H12|]. destruct H12 as [_ ->]. done. }
    xext H. change (ns ∉ w_loaded w12). rewrite EL. by intros [? _]%elem_of_list_filter. }
  by destruct (offline_stays ns ok ps w1 cfg' Hok Hps Hns Hp).
Qed.

(** ** C64 *)
Definition about (ns : string) (e : event) : Prop :=
  match e with EvUploadDL n _ _ | EvDownloadDL n _ _ => n = ns | _ => True end.
Definition nolist (e : event) : Prop := match e with EvUploadDL _ _ _ | EvDownloadDL _ _ _ => False | _ => True end.
Lemma last_other ns ns' j evs l : ns' <> ns -> Forall (about ns') evs -> last_list ns j (evs ++ l) = last_list ns j l.
Proof.
  intros Hn. induction 1 as [|e evs He _ IH]; [done|]. destruct e; simpl in *; try done; destruct r; try done.
  - rewrite decide_False by congruence. done.
  - rewrite decide_False by naive_solver. done.
Qed.
Lemma last_no ns j evs l : Forall nolist evs -> last_list ns j (evs ++ l) = last_list ns j l.
Proof. induction 1 as [|e evs He _ IH]; [done|]. by destruct e; simpl in *. Qed.

Section ensure.
  Context (cf : cfg).
  Notation j := (c_jid cf). Notation x := (c_dev cf).
  (** [ns] is repaired by the events [evs] on top of the log [l] *)
  Definition repaired (ns : string) (evs l : list event) : Prop :=
    (exists dl, last_list ns j (evs ++ l) = Some dl /\ x ∈ dkeys dl) /\
    exists b, EvGetBundle ns j x (Val b) ∈ evs /\ (EvDownloadBundle ns j x (Val b) ∈ evs \/ EvUploadBundle b (Val tt) ∈ evs).
  Definition ensure_one (ns : string) : api unit :=
    refresh_device_list cf ns j ;;;
    local_bundle <- b_get_bundle ns j x ;;
    o <- try_ (n_download_bundle ns j x) ;;
    upload <- match o with
              | Exn EBundleDownloadFailed | Exn EBundleNotFound => Ret true
              | Exn e => Raise e
              | Val remote_bundle => Ret (bool_decide (remote_bundle <> local_bundle))
              end ;;
    if upload : bool then n_upload_bundle local_bundle else Ret tt.
  Lemma refresh_listed ns w w1 :
    exec base (refresh_device_list cf ns j) w (Val tt) w1 ->
    exists evs, w_log w1 = evs ++ w_log w /\ Forall (about ns) evs /\
      exists dl, last_list ns j (w_log w1) = Some dl /\ x ∈ dkeys dl.
  Proof.
    intros H1. pose proof H1 as H1'. apply (em_exec _ _ _ _ _ _ (em_refresh cf ns j)) in H1 as (_ & evs & He & ->).
      exists evs. split; [done|]. split; [eapply Forall_impl; [exact He|]; intros e [e' []|]; done|].
      unfold refresh_device_list in H1'. xbind H1' as dl w2 H2. xext H2. rename r into dl.
      pose proof H1' as H3. apply (em_exec _ _ _ _ _ _ (em_update cf ns j dl)) in H3 as (_ & evs2 & He2 & Ew).
      assert (forall evs', Forall noup evs' -> forall l pre, evs2 = evs' ++ pre -> last_list ns j (evs' ++ l) = last_list ns j l) as Hskip.
      { intros evs' Hn l pre ->. apply last_no. apply Forall_app in He2 as [He2 _].
        clear -Hn He2. induction Hn as [|e l0 Hne _ IH]; [constructor|]. inversion He2; subst. constructor; [|auto]. by destruct H1. }
      assert (w_log (after evs w) = evs2 ++ EvDownloadDL ns j (Val dl) :: w_log w) as El by (by rewrite Ew).
      apply up_exec in H1' as (evs' & Hn & [(Hm & lab & _ & Hlog)|(Hm & Hlog)]).
      - rewrite Hlog. rewrite El in Hlog. change (EvDownloadDL ns j (Val dl) :: w_log w) with ([EvDownloadDL ns j (Val dl)] ++ w_log w) in Hlog.
        simpl in Hlog.
        assert (evs2 = evs' ++ [EvUploadDL ns (dl ++ [(x, lab)]) (Val tt)]) as Ee.
        { apply (app_inv_tail (EvDownloadDL ns j (Val dl) :: w_log w)). rewrite Hlog, <- app_assoc. done. }
        rewrite (Hskip evs' Hn _ _ Ee). simpl. rewrite decide_True by done. eexists. split; [done|].
        unfold dkeys. rewrite map_app. apply elem_of_app. right. left.
      - rewrite Hlog. rewrite El in Hlog. simpl in Hlog.
        assert (evs2 = evs' ++ []) as Ee by (rewrite app_nil_r; by apply app_inv_tail in Hlog).
        rewrite (Hskip evs' Hn _ _ Ee). simpl. rewrite decide_True by done. exists dl. split; [done|].
        unfold own_missing in Hm. apply dget_keys. destruct (dget x dl) as [v|] eqn:Ed; [eauto|]. exfalso. by apply Hm.
  Qed.
  Lemma ensure_one_exec ns w w' :
    exec base (ensure_one ns) w (Val tt) w' ->
    exists evs, w_log w' = evs ++ w_log w /\ Forall (about ns) evs /\ repaired ns evs (w_log w).
  Proof.
    intros H. unfold ensure_one in H. xbind H as [] w1 H1.
    apply refresh_listed in H1 as (evs1 & E1 & F1 & dl & L1 & L2).
    xbind H as b w2 H2. xext H2. rename r into b. xbind H as o w3 H3. apply exec_try in H3 as (o' & [= ->] & H3).
    apply exec_ext in H3 as (r & _ & -> & ->).
    set (w2 := w_apply (w_apply w1 _ _) _ _) in H.
    assert (w_log w2 = [EvDownloadBundle ns j x r; EvGetBundle ns j x (Val b)] ++ w_log w1) as El by done. clearbody w2.
    assert (forall ev3, w_log w' = ev3 ++ w_log w2 -> Forall nolist ev3 -> (r = Val b \/ EvUploadBundle b (Val tt) ∈ ev3) ->
      exists evs, w_log w' = evs ++ w_log w /\ Forall (about ns) evs /\ repaired ns evs (w_log w)) as Hfin.
    { intros ev3 E3 F3 Hb. exists (ev3 ++ [EvDownloadBundle ns j x r; EvGetBundle ns j x (Val b)] ++ evs1).
      split; [rewrite E3, El, E1, <- !app_assoc; done|]. split.
      - apply Forall_app. split; [eapply Forall_impl; [exact F3|]; by intros []|]. apply Forall_app. split; [by repeat constructor|done].
      - split.
        + exists dl. split; [|done]. rewrite <- !app_assoc, last_no by done. rewrite last_no by (by repeat constructor). by rewrite <- E1.
        + exists b. rewrite !elem_of_app. split; [right; left; right; left|].
          destruct Hb as [->|Hb]; [left; right; left; left|]. right. by left. }
    xbind H as up w3 H3.
    assert (w3 = w2 /\ (up = false -> r = Val b)) as [-> Hup].
    { destruct r as [rb|e]; [|destruct e; simpl in H3; destruct H3 as [Hv ->]; try discriminate Hv; injection Hv as ->; done].
      destruct H3 as [Hv ->]. injection Hv as ->. split; [done|]. intros Hd. apply bool_decide_eq_false in Hd. f_equal.
      apply dec_stable. done. }
    destruct up.
    - xext H. eapply (Hfin [_]); [reflexivity|by repeat constructor|]. right. by left.
    - destruct H as [_ ->]. eapply (Hfin []); [done|done|]. left. by apply Hup.
  Qed.
  Lemma ensure_exec w w' :
    exec base (ensure_data_consistency cf) w (Val tt) w' ->
    exists evs, w_log w' = evs ++ w_log w /\ forall ns, ns ∈ w_loaded w -> repaired ns evs (w_log w).
  Proof.
    intros H. unfold ensure_data_consistency in H. xbind H as l w1 H1. apply exec_loaded in H1 as [[= ->] ->].
    change (exec base (for_each (w_loaded w) ensure_one) w (Val tt) w') in H. revert H. generalize (w_loaded w). intros l H.
    cut (exists evs, w_log w' = evs ++ w_log w /\ Forall (fun e => exists n, n ∈ l /\ about n e) evs /\
      forall ns, ns ∈ l -> repaired ns evs (w_log w)); [naive_solver|].
    revert w H. induction l as [|ns l IH]; intros w H.
    - destruct H as [_ ->]. exists []. split; [done|]. split; [constructor|]. intros n Hn. by apply elem_of_nil in Hn.
    - cbn [for_each] in H. xbind H as [] w1 H1. apply ensure_one_exec in H1 as (e1 & E1 & F1 & R1).
      apply IH in H as (e2 & E2 & F2 & R2).
      exists (e2 ++ e1). rewrite E2, E1, app_assoc. split; [done|]. split.
      { apply Forall_app. split; eapply Forall_impl; [exact F2| |exact F1|].
        - intros e (n & Hn & He). exists n. split; [by right|done].
        - intros e He. exists ns. split; [left|done]. }
      intros n Hn. destruct (decide (n ∈ l)) as [Hl|Hl].
      + destruct (R2 n Hl) as [A (b & B & C)]. split; [by rewrite <- app_assoc, <- E1|]. exists b. rewrite !elem_of_app. tauto.
      + apply elem_of_cons in Hn as [->|Hn]; [|done]. destruct R1 as [(dl & A1 & A2) (b & B & C)]. split.
        * exists dl. split; [|done]. rewrite <- app_assoc.
          rewrite <- A1. clear -F2 Hl. induction F2 as [|e e2 (n & Hn & He) _ IH]; [done|].
          change ((e :: e2) ++ e1 ++ w_log w) with ([e] ++ (e2 ++ e1 ++ w_log w)).
          rewrite (last_other ns n) by (first [by intros ->|by constructor]). done.
        * exists b. rewrite !elem_of_app. tauto.
  Qed.
End ensure.
