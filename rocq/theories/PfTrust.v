(** C30, C32, C65, C66, C73: trust levels, identity keys, own device, own label. *)
From Verif Require Import Api Spec Env PfStrs PfTyped PfWp PfFrame PfHist PfEmits PfUpdate PfDevices PfInfo.
Open Scope prog_scope.
Open Scope list_scope.

(** ** C30 *)
Lemma set_trust_exec jid ik lvl w w' :
  exec base (set_trust jid ik lvl) w (Val tt) w' ->
  w_disk w' = <[k_trust jid ik := JStr lvl]> (w_disk w).
Proof. unfold set_trust. intros (r & _ & H). destruct r as [[]|e]; simpl in H; [destruct H as [_ ->]|destruct H; done]. done. Qed.

Lemma info_level cf j w ds w' dv :
  exec base (get_device_information cf j) w (Val ds) w' -> dv ∈ ds ->
  dv_jid dv = j /\
  match w_disk w !! k_trust j (dv_ik dv) with None => dv_trust dv = c_undecided cf | Some v => v = JStr (dv_trust dv) end.
Proof.
  intros (ids & bs & _ & _ & V & _)%get_info_exec Hd. destruct (V dv Hd) as (_ & J & l & H).
  split; [done|]. destruct H as (_ & _ & _ & _ & _ & _ & _ & H). unfold level_of in H.
  destruct (w_disk w !! k_trust j (dv_ik dv)) as [v|]; [|done]. by inversion H.
Qed.
Lemma set_trust_reported jid ik lvl cf (ok : call -> Prop) w w1 w2 w3 ds dv :
  exec base (set_trust jid ik lvl) w (Val tt) w1 ->
  (forall c, ok c -> keeps_trust (w_disk w1) jid ik c) -> hist ok w1 w2 ->
  exec base (get_device_information cf jid) w2 (Val ds) w3 -> dv ∈ ds -> dv_ik dv = ik -> dv_trust dv = lvl.
Proof.
  intros H1 Hok Hh H2 Hd Hik. apply set_trust_exec in H1.
  pose proof (trust_kept _ _ _ ok w1 w2 Hok Hh eq_refl) as HT.
  destruct (info_level _ _ _ _ _ _ H2 Hd) as [_ H]. rewrite Hik, HT, H1, lookup_insert in H. congruence.
Qed.
Lemma set_trust_frame jid ik lvl w w' i :
  reach base (set_trust jid ik lvl) w w' -> i <> ITrust jid ik -> w_disk w' !! item_key i = w_disk w !! item_key i.
Proof.
  intros H Hi. revert H. by_reach; [|done]. unfold set_trust. apply wp_store.
  - intros [[]|e] _; [|done]. simpl. rewrite lookup_insert_ne; [done|].
    change (k_trust jid ik) with (item_key (ITrust jid ik)). intros Hc. symmetry in Hc. revert Hc. by apply kne.
  - done.
  - done.
Qed.

(** ** C32 *)
Lemma info_key cf j w ds w' :
  exec base (get_device_information cf j) w (Val ds) w' ->
  (forall dv, dv ∈ ds -> keyed (w_disk w') j (dv_id dv) (dv_ik dv)) /\
  (forall dv ik, dv ∈ ds -> keyed (w_disk w) j (dv_id dv) ik -> dv_ik dv = ik) /\
  (forall x ik, keyed (w_disk w) j x ik -> known (w_disk w) j x -> exists dv, dv ∈ ds /\ dv_id dv = x).
Proof.
  intros (ids & bs & Hids & _ & V1 & V2 & V3 & _)%get_info_exec. simpl in *. split; [|split].
  - intros dv Hd. destruct (V1 dv Hd) as (_ & _ & l & _ & _ & _ & _ & _ & H & _). exact H.
  - intros dv ik Hd (s & Hs & Hb). change (w_disk w !! k_ik j (dv_id dv) = Some (JStr s)) in Hs.
    destruct (V1 dv Hd) as (_ & _ & l & _ & _ & _ & _ & _ & (s' & Hs' & Hb') & [H|H] & _); [|congruence].
    congruence.
  - intros x ik (s & Hs & Hb) Hk. change (w_disk w !! k_ik j x = Some (JStr s)) in Hs. apply (known_ids _ _ _ _ Hids) in Hk.
    destruct (V3 x Hk) as [H|[H _]]; [done|congruence].
Qed.
Lemma key_pinned cf j x ik (ok : call -> Prop) w w1 ds w2 :
  keyed (w_disk w) j x ik -> (forall c, ok c -> keeps_key (w_disk w) j c) -> hist ok w w1 ->
  exec base (get_device_information cf j) w1 (Val ds) w2 ->
  (forall dv, dv ∈ ds -> dv_id dv = x -> dv_ik dv = ik) /\
  (known (w_disk w1) j x -> exists dv, dv ∈ ds /\ dv_id dv = x /\ dv_ik dv = ik).
Proof.
  intros (s & Hs & Hb) Hok Hh Hi. change (w_disk w !! k_ik j x = Some (JStr s)) in Hs.
  pose proof (key_kept _ _ _ _ ok w w1 Hok Hh eq_refl Hs) as Hk.
  assert (keyed (w_disk w1) j x ik) as Hk1 by (by exists s).
  destruct (info_key _ _ _ _ _ Hi) as (_ & I2 & I3).
  split; [intros dv Hd <-; by apply I2|]. intros Hkn. destruct (I3 x ik Hk1 Hkn) as (dv & Hd & Hx). exists dv.
  split; [done|]. split; [done|]. subst x. by apply I2.
Qed.

(** ** C66 *)
Lemma own_split cf w d others w' :
  exec base (get_own_device_information cf) w (Val (d, others)) w' ->
  exists ds, exec base (get_device_information cf (c_jid cf)) w (Val ds) w' /\ ds ≡ₚ d :: others /\
    dv_jid d = c_jid cf /\ dv_id d = c_dev cf /\ forall d', d' ∈ others -> dv_id d' <> c_dev cf.
Proof.
  intros H. unfold get_own_device_information in H. apply exec_bind in H as [(ds & w1 & H1 & H2)|(e & _ & ?)]; [|done].
  pose proof H1 as (ids & bs & _ & _ & V & N & _)%get_info_exec. simpl in V, N.
  exists ds. revert H2. set (oth := filter (fun d => dv_id d <> c_dev cf) ds).
  assert (forall x, x ∈ ds -> x ∉ oth <-> dv_id x = c_dev cf) as Hm.
  { intros x Hx. unfold oth. rewrite elem_of_list_filter. destruct (decide (dv_id x = c_dev cf)); tauto. }
  destruct (filter (fun d => d ∉ oth) ds) as [|d0 r] eqn:Ef; simpl; [by intros [? _]|].
  intros [Hv ->]. assert (d = d0 /\ others = oth) as [-> ->] by (split; congruence). clear Hv.
  assert (d0 ∈ filter (fun d => d ∉ oth) ds) as H0 by (rewrite Ef; left).
  apply elem_of_list_filter in H0 as [H01 H02]. apply Hm in H01; [|done].
  split; [done|]. split.
  2:{ split; [by apply V|]. split; [done|]. intros d' Hd'. by apply elem_of_list_filter in Hd' as [? _]. }
  (* d0 is the only one *)
  assert (forall x, x ∈ ds -> dv_id x = c_dev cf -> x = d0) as Huniq.
  { intros x Hx Hi. apply elem_of_list_lookup in Hx as [i Hx]. apply elem_of_list_lookup in H02 as [j Hj].
    assert (i = j) as ->; [|congruence]. eapply (NoDup_lookup _ i j (dv_id x)); [exact N|..]; rewrite list_lookup_fmap.
    - by rewrite Hx.
    - rewrite Hj. simpl. congruence. }
  assert (filter (fun d => ~ dv_id d <> c_dev cf) ds = [d0]) as Hone.
  { assert (NoDup (filter (fun d => ~ dv_id d <> c_dev cf) ds)) as Hnd by (apply NoDup_filter; by eapply NoDup_fmap_1).
    assert (forall x, x ∈ filter (fun d => ~ dv_id d <> c_dev cf) ds <-> x = d0) as Hel.
    { intros x. rewrite elem_of_list_filter. split.
      - intros [Hx Hd]. apply Huniq; [done|]. destruct (decide (dv_id x = c_dev cf)); tauto.
      - intros ->. split; [tauto|done]. }
    clearbody oth. destruct (filter (fun d => ~ dv_id d <> c_dev cf) ds) as [|a [|b l]].
    - exfalso. assert (d0 ∈ @nil device) as Hc by (by apply Hel). by apply elem_of_nil in Hc.
    - f_equal. apply Hel. left.
    - apply NoDup_cons in Hnd as [Hnd _]. exfalso. apply Hnd.
      assert (a = d0) as -> by (apply Hel; left). assert (b = d0) as -> by (apply Hel; right; left). left. }
  clear -Hone. unfold oth. 
  assert (forall l, l ≡ₚ filter (fun d => ~ dv_id d <> c_dev cf) l ++ filter (fun d => dv_id d <> c_dev cf) l) as Hp.
  { intros l. induction l as [|x l IH]; [done|]. rewrite !filter_cons. destruct (decide (dv_id x = c_dev cf)) as [E|E].
    - rewrite (decide_True (P := ~ dv_id x <> c_dev cf)) by tauto. rewrite (decide_False (P := dv_id x <> c_dev cf)) by tauto.
      simpl. by constructor.
    - rewrite (decide_False (P := ~ dv_id x <> c_dev cf)) by tauto. rewrite (decide_True (P := dv_id x <> c_dev cf)) by tauto.
      by rewrite <- Permutation_middle, <- IH. }
  rewrite (Hp ds) at 1. by rewrite Hone.
Qed.

(** ** C65 *)
Lemma relabel dev lab dl : relabelled dev lab dl (dset dev lab dl).
Proof.
  split; [|split].
  - by rewrite dget_dset, decide_True.
  - intros x Hx. by rewrite dget_dset, decide_False.
  - induction dl as [|[k v] dl IH]; [done|]. simpl. destruct (decide (dev = k)) as [->|Hk]; simpl.
    + rewrite decide_True by (left). by rewrite app_nil_r.
    + unfold dkeys in *. cbn [fmap list_fmap fst app]. f_equal. rewrite IH. f_equal. destruct (decide (dev ∈ dl.*1)) as [H|H].
      * rewrite decide_True; [done|]. by right.
      * rewrite decide_False; [done|]. intros Hc. apply elem_of_cons in Hc as [?|?]; [done|done].
Qed.

Section label.
  Context (cf : cfg) (lab : option string) (w : world).
  Definition lab_log (evs : list event) : Prop :=
    forall pre post ns dl' r, evs = pre ++ EvUploadDL ns dl' r :: post ->
      exists dl post', post = EvDownloadDL ns (c_jid cf) (Val dl) :: post' /\ relabelled (c_dev cf) lab dl dl'.
  Lemma lab_log_cons evs e : noup e -> lab_log evs -> lab_log (e :: evs).
  Proof.
    intros He H pre post ns dl' r Heq. destruct pre as [|e' pre]; injection Heq as -> Heq; [done|]. by eapply H.
  Qed.
  Definition lab_mid (w' : world) : Prop :=
    w_loaded w' = w_loaded w /\ w_sync w' = w_sync w /\
    (w_disk w' = w_disk w \/ w_disk w' = <[k_label (c_jid cf) (c_dev cf) := j_opt lab]> (w_disk w)) /\
    exists evs, w_log w' = evs ++ w_log w /\ lab_log evs.
  Definition lab_done (l : list string) (w' : world) : Prop :=
    w_loaded w' = w_loaded w /\
    w_disk w' = <[k_label (c_jid cf) (c_dev cf) := j_opt lab]> (w_disk w) /\
    exists dls, Forall2 (fun _ p => relabelled (c_dev cf) lab p.1 p.2) l dls /\
      w_log w' = rev (concat (zip_with (fun ns p => [EvDownloadDL ns (c_jid cf) (Val p.1); EvUploadDL ns p.2 (Val tt)]) l dls))
        ++ EvStore (k_label (c_jid cf) (c_dev cf)) (j_opt lab) (Val tt) :: w_log w.

  Lemma label_wp : wp base lab_mid (set_own_label cf lab) (fun o w' =>
    match o with Val _ => lab_done (w_loaded w) w' | Exn e => ext_exn e = true end) w.
  Proof.
    unfold set_own_label. apply wp_bind, wp_store.
    - intros [[]|e] _; (split; [done|]); (split; [done|]); (split; [by auto|]); eexists [_]; (split; [done|]);
        intros pre post ns dl' r Heq; destruct pre as [|e' [|? ?]]; done.
    - done.
    - set (w1 := w_apply _ _ _).
      assert (lab_mid w1) as HM1.
      { split; [done|]. split; [done|]. split; [by right|]. eexists [_]. split; [done|].
        intros pre post ns dl' r Heq; destruct pre as [|e' [|? ?]]; done. }
      apply wp_bind, wp_loaded; [done|].
      apply (wp_for_each _ _ (fun pre w' => lab_mid w' /\ lab_done pre w')).
      + split; [done|]. split; [done|]. split; [done|]. exists []. split; [constructor|]. done.
      + intros pre ns post w2 Hl [HM2 (L2 & D2 & dls & F2 & G2)]. unfold w1 in Hl. simpl in Hl.
        assert (forall w', w_loaded w' = w_loaded w2 -> w_sync w' = w_sync w2 -> w_disk w' = w_disk w2 ->
           forall evs, w_log w' = evs ++ w_log w2 ->
           (forall evs0, lab_log evs0 -> lab_log (evs ++ evs0)) -> lab_mid w') as Hmid.
        { intros w' A B C evs E1 E2. destruct HM2 as (M1 & M2 & M3 & evs0 & M4 & M5).
          split; [congruence|]. split; [congruence|]. split; [rewrite C; done|]. exists (evs ++ evs0).
          split; [by rewrite E1, M4, app_assoc|by apply E2]. }
        apply wp_bind. apply wp_step. intros r Hr. split.
        { apply (Hmid (w_apply w2 (NDownloadDL ns (c_jid cf)) r) eq_refl eq_refl eq_refl [EvDownloadDL ns (c_jid cf) r] eq_refl). intros evs0 H0.
          by apply lab_log_cons. }
        apply wp_of_outcome. destruct r as [dl|e]; [|done]. apply wp_step. intros r Hr'.
        assert (lab_mid (w_apply (w_apply w2 (NDownloadDL ns (c_jid cf)) (Val dl)) (NUploadDL ns (dset (c_dev cf) lab dl)) r)) as HM3.
        { apply (Hmid (w_apply (w_apply w2 (NDownloadDL ns (c_jid cf)) (Val dl)) (NUploadDL ns (dset (c_dev cf) lab dl)) r) eq_refl eq_refl eq_refl [EvUploadDL ns (dset (c_dev cf) lab dl) r; EvDownloadDL ns (c_jid cf) (Val dl)] eq_refl).
          intros evs0 H0 p q ns' dl' r' Heq. destruct p as [|e0 p].
          - injection Heq as <- <- <- <-. exists dl, evs0. split; [done|apply relabel].
          - injection Heq as _ Heq. destruct p as [|e1 p]; [done|]. injection Heq as _ Heq. by eapply H0. }
        split; [done|]. apply wp_of_outcome. destruct r as [[]|e]; [|done].
        split; [done|]. split; [done|]. split; [done|]. exists (dls ++ [(dl, dset (c_dev cf) lab dl)]). split.
        * apply Forall2_app; [done|]. constructor; [apply relabel|constructor].
        * simpl. rewrite G2. rewrite zip_with_app by (by eapply Forall2_length). rewrite concat_app, rev_app_distr. simpl. done.
      + intros w' [_ H]. unfold w1 in H. done.
  Qed.
  Lemma label_exec w' : exec base (set_own_label cf lab) w (Val tt) w' -> lab_done (w_loaded w) w'.
  Proof.
    intros H. eapply (wp_exec base lab_mid _ (fun o w' =>
    match o with Val _ => lab_done (w_loaded w) w' | Exn e => ext_exn e = true end)) in H; [exact H|apply label_wp].
  Qed.
  Lemma label_reach w' : reach base (set_own_label cf lab) w w' -> lab_mid w'.
  Proof.
    by_reach; [eapply wp_conseq; [apply label_wp|done]|].
    split; [done|]. split; [done|]. split; [by left|]. exists []. split; [done|]. intros pre post ns dl' r Heq. by destruct pre.
  Qed.
End label.
Lemma label_crash cf lab w w' :
  reach base (set_own_label cf lab) w w' ->
  (forall i, i <> ILabel (c_jid cf) (c_dev cf) -> w_disk w' !! item_key i = w_disk w !! item_key i) /\
  exists evs, w_log w' = evs ++ w_log w /\
    forall pre post ns dl' r, evs = pre ++ EvUploadDL ns dl' r :: post ->
      exists dl post', post = EvDownloadDL ns (c_jid cf) (Val dl) :: post' /\ relabelled (c_dev cf) lab dl dl'.
Proof.
  intros (_ & _ & H & He)%label_reach. split; [|exact He]. intros i Hi. destruct H as [->| ->]; [done|].
  rewrite lookup_insert_ne; [done|]. change (k_label (c_jid cf) (c_dev cf)) with (item_key (ILabel (c_jid cf) (c_dev cf))).
  intros Hc. symmetry in Hc. revert Hc. by apply kne.
Qed.

(** ** C73, positive part *)
Definition info_expect (cf : cfg) (j : string) (x : Z) (ik : bytes) : api unit :=
  o <- try_ (get_device_information cf j) ;;
  match o with
  | Val ds => if decide (Forall (fun d => dv_id d = x -> dv_ik d = ik) ds) then Ret tt else Raise ERuntime
  | Exn _ => Ret tt
  end.

Section keys.
  Context (L Wr : string -> option json -> Prop) (NS : string -> Prop) (j : string).
  Definition ikL (d : device) : Prop :=
    L (k_ik j (dv_id d)) None \/ exists s, L (k_ik j (dv_id d)) (Some (JStr s)) /\ b64dec s = Some (dv_ik d).
  Notation ob Q p := (obeys (E L NS False) (F Wr NS False) Q p).
  Lemma ob_rest_key cf dev nss ik : wr_info L Wr j ->
    ob (fun o => match o with Val d => dv_id d = dev /\ dv_ik d = ik | Exn _ => True end) (dev_info_rest cf j dev nss ik).
  Proof.
    intros HW. unfold dev_info_rest. 
    assert (forall A (p : api A) (f : A -> api device) Q, ob (@okres L NS False A) p -> (forall a, ob Q (f a)) ->
      (forall e, Q (Exn e)) -> ob Q (bind p f)) as HB.
    { intros A p f Q Hp Hf HQ. apply obeys_bind. eapply obeys_conseq; [exact Hp|]. intros [a|e] _; auto. }
    apply HB; [apply ob_load_active|intros m|done]. apply HB; [destruct m; simpl; [done|by apply okN]|intros active|done].
    apply HB; [apply ob_load_label|intros m'|done]. apply HB; [destruct m'; simpl; [done|by apply okN]|intros lab|done].
    apply HB; [apply ob_load_trust|intros m''|done]. apply HB; [|intros nss'; simpl; done|done].
    destruct (forallb _ _); [done|]. apply obeys_bind. split; [done|]. intros r _. cbn [obeys]. cbn beta iota.
    apply obeys_bind. split; [apply HW|]. intros r' Hr'. apply ob_outcome. destruct r' as [[]|e]; cbn; [done|].
    intros _ [].
  Qed.
  Lemma ob_info_keys cf : wr_info L Wr j ->
    ob (fun o => match o with Val ds => Forall ikL ds | Exn _ => True end) (get_device_information cf j).
  Proof.
    intros HW. unfold get_device_information, get_device_information_. apply obeys_bind, obeys_bind.
    eapply obeys_conseq; [apply (ob_load_list L Wr NS False False)|]. intros [m|e] _; [|done]. cbn beta iota.
    apply obeys_bind. split; [done|]. intros r _. cbn [obeys]. cbn beta iota.
    apply obeys_fold_prog with (L := fun acc => Forall ikL acc.1); [constructor| |].
    2:{ intros b Hb. done. }
    intros [ds bs] dev Hacc _. unfold dev_info. apply obeys_bind.
    eapply obeys_conseq; [apply (ob_load_ns L Wr NS False False)|]. intros [m'|e] _; [|done]. cbn beta iota.
    apply obeys_bind. destruct m' as [l|]; [|done]. cbn [from_just obeys]. cbn beta iota. apply obeys_bind. apply ob_load'.
    - done.
    - intros v Hv. destruct v; try done. destruct (b64dec s) as [ik|] eqn:Eb; [|done]. cbn beta iota.
      apply obeys_bind. eapply obeys_conseq; [by apply ob_rest_key|]. intros [d|e]; [|done]. intros [Hd Hk]. cbn.
      apply Forall_app. split; [exact Hacc|]. constructor; [|constructor]. right. exists s. rewrite Hd, Hk. done.
    - intros HN. apply obeys_bind. split; [done|]. intros r' _. cbn [obeys]. cbn beta iota.
      apply obeys_bind. eapply obeys_conseq; [apply (f_find_key L Wr NS False False)|].
      + intros b. by apply HW.
      + intros [mb|e] _; [|done]. cbn beta iota. destruct mb as [b|]; [|exact Hacc].
        apply obeys_bind. eapply obeys_conseq; [by apply ob_rest_key|]. intros [d|e]; [|done]. intros [Hd Hk]. cbn.
        apply Forall_app. split; [exact Hacc|]. constructor; [|constructor]. left. by rewrite Hd.
  Qed.
End keys.

Lemma info_agrees cf j x ik (ok : call -> Prop) ps w i ps' w' :
  keyed (w_disk w) j x ik -> (forall c, ok c -> keeps_key (w_disk w) j c) ->
  Forall (fun p => appcode ok p) ps -> ps !! i = Some (info_expect cf j x ik) ->
  preach base (ps, w) (ps', w') -> ps' !! i <> Some (Raise ERuntime).
Proof.
  intros (s & Hs & Hb) Hok Hps Hi H. change (w_disk w !! k_ik j x = Some (JStr s)) in Hs.
  set (D := kept (IIdentityKey j x) (w_disk w)).
  pose proof (inv_step D (Lof D) (Wof D) (Lof_L _) (Wof_S _) (Wof_D _)) as Hstep.
  assert (forall v, Lof D (k_ik j x) v -> v = Some (JStr s)) as HL.
  { intros v (d & (Hd & _) & ->). change (d !! k_ik j x = w_disk w !! k_ik j x) in Hd. congruence. }
  eapply (psafeq_preach base (fun w => D (w_disk w)) (fun o => o <> Exn ERuntime)) in H as (p' & Hp' & HQ & _);
    [|by repeat split|exact Hi| |].
  - rewrite Hp'. intros [= ->]. by apply HQ.
  - eapply obeys_psafeq; [exact Hstep|]. unfold info_expect. apply obeys_bind, obeys_try.
    eapply obeys_conseq; [apply ob_info_keys|].
    + eapply (key_footprint (w_disk w) j x _ (KGetInfo cf j)); [done|exact Hs].
    + intros [ds|e] Hq; [|done]. cbn beta iota. rewrite decide_True; [done|].
      eapply Forall_impl; [exact Hq|]. intros d Hd Hx. unfold ikL in Hd. rewrite Hx in Hd.
      destruct Hd as [Hd|(s' & Hd & Hb')]; apply HL in Hd; congruence.
  - eapply Forall_impl; [exact Hps|]. intros p Hp.
    eapply (inv_app D _ _ (Lof_L _) (Wof_S _) (Wof_D _) ok); [|exact Hp]. intros c Hc.
    eapply key_footprint; [by apply Hok|exact Hs].
Qed.
