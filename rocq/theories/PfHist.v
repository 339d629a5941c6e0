(** Invariants of the storage over all histories, and the identity key pair. *)
From Verif Require Import Api Spec Env PfStrs PfTyped PfFrame PfWp.
Open Scope prog_scope.
Open Scope list_scope.

(** ** From footprints to invariants *)
Section inv.
  Context (D : gmap string json -> Prop) (L Wr : string -> option json -> Prop).
  Hypothesis HL : forall d k, D d -> L k (d !! k).
  Hypothesis HS : forall d k v, D d -> Wr k (Some v) -> D (<[k := v]> d).
  Hypothesis HD : forall d k, D d -> Wr k None -> D (delete k d).

  Let NS (_ : string) : Prop := True.
  Let I (w : world) : Prop := D (w_disk w).

  Lemma inv_step w c r : I w -> F Wr NS False c -> w_allowed w c r -> E L NS False c r /\ I (w_apply w c r).
  Proof using All.
    intros Hw HF Hr. split.
    - split; [by exists w|]. destruct c; try done; simpl in *.
      + destruct r; [|done]. rewrite Hr. by apply HL.
      + split; [by apply Forall_forall|done].
      + by destruct r as [[]|].
      + by destruct r as [[]|].
    - unfold I in *. destruct c; simpl in *; try done; destruct r; simpl; auto.
  Qed.

  Lemma inv_app (ok : call -> Prop) {A} (p : api A) :
    (forall c, ok c -> call_wr L Wr NS c) -> appcode ok p -> psafe base I p.
  Proof using All.
    intros Hok Hp. eapply (obeys_psafe base I (E L NS False) (F Wr NS False)); [exact inv_step|].
    eapply (app_obeys L Wr NS False False); [tauto|exact Hok|exact Hp].
  Qed.

  Lemma inv_call c w o w' :
    call_wr L Wr NS c -> (forall cf mtd jids pt prio ident, c <> KEncrypt cf mtd jids pt prio ident) ->
    I w -> exec base (run_call c) w o w' -> I w'.
  Proof using All.
    intros Hc Hne Hw H. eapply psafe_reach; [|exact Hw|by eapply exec_reach].
    eapply (inv_app (fun c' => c' = c)); [by intros ? ->|]. apply app_call; [done|].
    intros. subst. naive_solver.
  Qed.

  Lemma inv_hist (ok : call -> Prop) w w' :
    (forall c, ok c -> call_wr L Wr NS c) -> hist ok w w' -> D (w_disk w) -> D (w_disk w').
  Proof using All.
    intros Hok. induction 1 as [|w w1 w' (ps & cfg' & Hps & Hr & Hd) _ IH]; [done|].
    intros Hw. apply IH. rewrite Hd.
    eapply (psafe_preach base I) in Hr; [by destruct Hr|exact Hw|].
    eapply Forall_impl; [exact Hps|]. intros p Hp. by eapply inv_app.
  Qed.
End inv.

(** ** Keys of different kinds *)
Definition core (i : item) : Prop := item_in [] i.
Lemma core_inj i j : core i -> item_key i = item_key j -> i = j.
Proof.
  intros Hi H.
  assert (core j -> i = j) as Hc.
  { intros Hj. apply (item_key_inj [] i j); try done. intros n n' Hn. by apply elem_of_nil in Hn. }
  destruct j; try (by apply Hc); exfalso; destruct i; try (by apply elem_of_nil in Hi); discriminate H.
Qed.
Lemma kne i j : core i -> j <> i -> item_key j <> item_key i.
Proof. intros Hi Hne H. apply Hne. symmetry. by apply core_inj. Qed.
Ltac item_of t :=
  lazymatch t with
  | item_key ?i => i | k_ikp_seed => constr:(IKeyPairIsSeed) | k_ikp_key => constr:(IKeyPairKey) | k_own => constr:(IOwnDeviceId)
  | k_list ?a => constr:(IDeviceList a)
  | k_ns ?a ?b => constr:(INamespaces a b) | k_active ?a ?b => constr:(IActive a b)
  | k_label ?a ?b => constr:(ILabel a b) | k_ik ?a ?b => constr:(IIdentityKey a b)
  | k_trust ?a ?b => constr:(ITrust a b) | k_queue ?a => constr:(IQueue a) | k_queue_jid ?a ?b => constr:(IQueueDevices a b)
  end.
Ltac kneq_ a b :=
  let i := item_of a in let j := item_of b in
  first [apply (kne j i); [exact I|try congruence] | apply not_eq_sym, (kne i j); [exact I|try congruence]].
(** Solve or reduce [k <> k'] for storage keys; one of them must not be a queue key. *)
Ltac kneq :=
  lazymatch goal with
  | |- not (?a = ?b) => kneq_ a b
  | |- ?a = ?b -> False => change (a <> b); kneq_ a b
  end.

(** ** C09: the key pair is stable *)
(** The same in terms of the keys of the model. *)
Lemma has_ikp_k k d :
  has_ikp k d -> d !! k_ikp_seed = Some (JBool (ikp_flag k)) /\
                  exists s, d !! k_ikp_key = Some (JStr s) /\ b64dec s = Some (ikp_bytes k).
Proof. done. Qed.
Lemma ikp_wf_k d :
  ikp_wf d -> (d !! k_ikp_seed = None /\ d !! k_ikp_key = None) \/
    (exists b, d !! k_ikp_seed = Some (JBool b) /\ d !! k_ikp_key = None) \/ (exists k, has_ikp k d).
Proof. done. Qed.
Definition L_ikp (k : string) (m : option json) : Prop := k = k_ikp_seed \/ k = k_ikp_key -> m <> None.
Definition Wr_ikp (k : string) (m : option json) : Prop := k <> k_ikp_seed /\ k <> k_ikp_key.

(** Key classes other than the ones at hand are recognised by their constant prefix. *)
Lemma ikp_footprint c : call_wr L_ikp Wr_ikp (fun _ => True) c.
Proof.
  assert (wr_ikp L_ikp Wr_ikp) as Hi by (intros [H|H]; exfalso; apply H; auto).
  assert (forall j, wr_dev L_ikp Wr_ikp j) as Hd by (intros; repeat split; intros; done).
  assert (forall j, wr_info L_ikp Wr_ikp j) as Hf by (intros; repeat split; intros; done).
  assert (wr_queue Wr_ikp (fun _ => True)) as Hq by (intros ? _; repeat split; intros; done).
  destruct c; cbn [call_wr]; auto; try done.
  - split; [done|]. split; [by apply Forall_forall|]. split; [done|]. split; [done|].
    intros _; repeat split; intros; done.
Qed.

Lemma has_ikp_hist (ok : call -> Prop) k w w' :
  hist ok w w' -> has_ikp k (w_disk w) -> has_ikp k (w_disk w').
Proof.
  apply (inv_hist (has_ikp k) L_ikp Wr_ikp).
  - intros d key [H1 (s & H2 & _)]%has_ikp_k [->| ->]; [by rewrite H1|by rewrite H2].
  - intros d key v (H1 & H2)%has_ikp_k [Hn1 Hn2]. split; rewrite lookup_insert_ne; done.
  - intros d key (H1 & H2)%has_ikp_k [Hn1 Hn2]. split; rewrite lookup_delete_ne; done.
  - intros c _. apply ikp_footprint.
Qed.

(** no complete pair yet *)
Definition ikp_none (d : gmap string json) : Prop := ikp_wf d /\ d !! k_ikp_key = None.

Lemma ikp_wp w :
  ikp_wf (w_disk w) ->
  wp base
    (fun w' => ikp_wf (w_disk w') /\
       (forall k, has_ikp k (w_disk w) -> w_disk w' = w_disk w) /\
       (w_disk w !! k_ikp_key = None -> w_disk w' !! k_ikp_key = None \/ exists s, has_ikp (IkpSeed s) (w_disk w')))
    ikp_get
    (fun o w' => match o with
       | Val k => has_ikp k (w_disk w') /\ (w_disk w !! k_ikp_key = None -> exists s, k = IkpSeed s)
       | Exn e => ext_exn e = true
       end) w.
Proof.
  intros Hwf%ikp_wf_k. set (I := fun w' => _). unfold ikp_get. apply wp_bind.
  assert (I w) as HI by (repeat split; auto).
  assert (k_ikp_seed <> k_ikp_key) as Hne by done.
  assert (forall key, has_ikp (IkpSeed key) (<[k_ikp_key := JStr (b64enc key)]> (<[k_ikp_seed := JBool true]> (w_disk w)))) as Hnew.
  { intros key. split; [by rewrite lookup_insert_ne, lookup_insert|]. exists (b64enc key).
    by rewrite lookup_insert, b64_roundtrip. }
  assert (w_disk w !! k_ikp_key = None ->
    wp base I ikp_generate (fun o w' => match o with
       | Val k => has_ikp k (w_disk w') /\ (w_disk w !! k_ikp_key = None -> exists s, k = IkpSeed s)
       | Exn e => ext_exn e = true
       end) w) as Hgen.
  { intros Hk. unfold ikp_generate. apply wp_bind, wp_randbytes; [done|]. intros key Hkey.
    assert (I (w_apply w (SStore k_ikp_seed (JBool true)) (Val tt))) as HI1.
    { split; [|split].
      - right; left. exists true. simpl. rewrite lookup_insert, lookup_insert_ne by done. done.
      - intros k (_ & s & ? & _)%has_ikp_k. congruence.
      - intros _. left. simpl. by rewrite lookup_insert_ne. }
    apply wp_bind, wp_store; [intros [[]|e]; simpl; auto|done|].
    apply wp_bind, wp_store.
    - intros [[]|e] He; [|exact HI1]. split; [|split].
      + right; right. exists (IkpSeed key). apply Hnew.
      + intros k (_ & s & ? & _)%has_ikp_k. congruence.
      + intros _. right. exists key. apply Hnew.
    - intros e He. done.
    - split; [|eauto]. apply Hnew. }
  apply wp_load; [done|done|].
  destruct Hwf as [[H1 H2]|[(b & H1 & H2)|(k & Hk)]].
  - rewrite H1. by apply Hgen.
  - rewrite H1. cbn [as_bool or_type_error]. apply wp_bind, wp_load; [done|done|]. rewrite H2.
    eapply wp_conseq; [by apply Hgen|]. intros [k|e] w1 H; [|done]. destruct H; auto.
  - pose proof (has_ikp_k _ _ Hk) as (H1 & s & H2 & H3). rewrite H1. cbn [as_bool or_type_error]. apply wp_bind, wp_load; [done|done|].
    rewrite H2, H3. simpl. split; [|congruence]. by destruct k.
Qed.

Lemma ikp_get_has w k w' : exec base ikp_get w (Val k) w' -> has_ikp k (w_disk w').
Proof.
  intros H. eapply (wp_exec base (fun _ => True) _ (fun o w' => match o with Val k => has_ikp k (w_disk w') | _ => True end))
    in H; [exact H|].
  clear. unfold ikp_get.
  assert (wp base (fun _ => True) ikp_generate
    (fun o w' => match o with Val k => has_ikp k (w_disk w') | _ => True end) w) as Hgen.
  { unfold ikp_generate. apply wp_bind, wp_randbytes; [done|]. intros key _.
    apply wp_bind, wp_store; [done|done|]. apply wp_bind, wp_store; [done|done|].
    split; [simpl; by rewrite lookup_insert_ne, lookup_insert|]. exists (b64enc key). simpl.
    by rewrite lookup_insert, b64_roundtrip. }
  apply wp_bind, wp_load; [done|done|].
  destruct (w_disk w !! k_ikp_seed) as [v|] eqn:E1; [|done].
  destruct v; cbn [as_bool or_type_error]; try done. apply wp_bind, wp_load; [done|done|].
  destruct (w_disk w !! k_ikp_key) as [v|] eqn:E2; [|done]. destruct v as [| | | |s| |]; simpl; try done.
  destruct (b64dec s) as [key|] eqn:E3; simpl; [|done].
  destruct b; split; eauto.
Qed.

Lemma has_ikp_get w k o w' :
  has_ikp k (w_disk w) -> exec base ikp_get w o w' -> w' = w /\ (o = Val k \/ exists e, ext_exn e = true /\ o = Exn e).
Proof.
  intros (H1 & s & H2 & H3)%has_ikp_k H.
  eapply (wp_exec base (fun _ => True) _ (fun o w' => _)) in H; [exact H|].
  unfold ikp_get. apply wp_bind, wp_load; [done|by eauto|]. rewrite H1. cbn [as_bool or_type_error].
  apply wp_bind, wp_load; [done|by eauto|]. rewrite H2, H3. simpl. split; [done|]. left. by destruct k.
Qed.

(** C09 *)
Lemma ikp_stable (ok : call -> Prop) w k w1 w2 o w3 :
  exec base ikp_get w (Val k) w1 -> hist ok w1 w2 -> exec base ikp_get w2 o w3 ->
  w3 = w2 /\ (o = Val k \/ exists e, ext_exn e = true /\ o = Exn e).
Proof.
  intros H1 Hh H2. apply ikp_get_has in H1. eapply has_ikp_hist in H1; [|exact Hh].
  by eapply has_ikp_get.
Qed.

(** C10 *)
Lemma ikp_crash w w1 w2 o w3 :
  ikp_wf (w_disk w) -> reach base ikp_get w w1 -> restart w1 w2 -> exec base ikp_get w2 o w3 ->
  (exists e, ext_exn e = true /\ o = Exn e) \/
  exists k, o = Val k /\ has_ikp k (w_disk w3) /\
    (forall k0, has_ikp k0 (w_disk w) -> k = k0) /\
    (forall k0, has_ikp k0 (w_disk w1) -> k = k0) /\
    (w_disk w !! k_ikp_key = None -> exists s, k = IkpSeed s).
Proof.
  intros Hwf Hr Hre Hex. unfold restart in Hre.
  pose proof (wp_reach _ _ _ _ _ _ (ikp_wp w Hwf) ltac:(repeat split; auto) Hr) as (Hwf1 & Hk1 & Hn1). simpl in *.
  rewrite <- Hre in Hwf1.
  pose proof (wp_exec _ _ _ _ _ _ _ (ikp_wp w2 Hwf1) Hex) as HQ. destruct o as [k|e]; [|by eauto].
  right. exists k. destruct HQ as [Hk Hs]. split; [done|]. split; [done|].
  assert (forall k0, has_ikp k0 (w_disk w1) -> k = k0) as Hk0.
  { intros k0 H0. rewrite <- Hre in H0. destruct (has_ikp_get _ _ _ _ H0 Hex) as [_ [[= ->]|(e & _ & ?)]]; done. }
  split; [|split].
  - intros k0 H0. apply Hk0. by rewrite (Hk1 k0 H0).
  - done.
  - intros Hn. destruct (Hn1 Hn) as [Hn'|(s & Hs')].
    + apply Hs. by rewrite Hre.
    + exists s. by apply Hk0.
Qed.

(** The library only produces such storages. *)
Lemma ikp_wf_empty : ikp_wf ∅.
Proof. left. done. Qed.


(** ** C16: the own device id *)
Definition L_own (id : Z) (k : string) (m : option json) : Prop := k = k_own -> m = Some (JInt id).
Definition Wr_own (k : string) (m : option json) : Prop := k <> k_own.

Lemma own_footprint id c : call_wr (L_own id) Wr_own (fun _ => True) c.
Proof.
  assert (wr_ikp (L_own id) Wr_own) as Hi by (intros _; done).
  assert (forall j, wr_dev (L_own id) Wr_own j) as Hd by (intros; repeat split; intros; done).
  assert (forall j, wr_info (L_own id) Wr_own j) as Hf by (intros; repeat split; intros; done).
  assert (wr_queue Wr_own (fun _ => True)) as Hq by (intros ? _; repeat split; intros; done).
  destruct c; cbn [call_wr]; auto; try done.
  split; [done|]. split; [by apply Forall_forall|]. split; [done|]. split; [done|].
  intros Hn. by specialize (Hn eq_refl).
Qed.

Lemma own_L id d k : has_own id d -> L_own id k (d !! k).
Proof. by intros H ->. Qed.
Lemma own_S id (d : gmap string json) k v : has_own id d -> Wr_own k (Some v) -> has_own id (<[k := v]> d).
Proof. intros H Hk. unfold has_own. by rewrite lookup_insert_ne. Qed.
Lemma own_D id (d : gmap string json) k : has_own id d -> Wr_own k None -> has_own id (delete k d).
Proof. intros H Hk. unfold has_own. by rewrite lookup_delete_ne. Qed.

Lemma own_hist (ok : call -> Prop) id w w' : hist ok w w' -> has_own id (w_disk w) -> has_own id (w_disk w').
Proof.
  apply (inv_hist (has_own id) (L_own id) Wr_own); [apply own_L|apply own_S|apply own_D|]. intros c _. apply own_footprint.
Qed.
Lemma own_create id P fuel a w c w' :
  has_own id (w_disk w) -> exec base (create P fuel a) w (Val c) w' -> c = cfg_of a id.
Proof.
  intros H Hex.
  eapply (psafeq_exec base (fun w => has_own id (w_disk w))
    (fun o => match o with Val c => c = cfg_of a id | Exn _ => True end)) in Hex; [exact (proj1 Hex)| |done].
  eapply obeys_psafeq; [apply (inv_step (has_own id) (L_own id) Wr_own); [apply own_L|apply own_S|apply own_D]|].
  eapply obeys_conseq; [apply (f_create_dev (L_own id) Wr_own (fun _ => True) False False P fuel a id)|].
  - apply (own_footprint id (KCreate P fuel a)).
  - intros m Hm. by apply Hm.
  - by intros [x|e].
Qed.

(** ** C31, C32: what stays at an item *)
(** The weakest loads and writes that go with a storage invariant. *)
Definition Lof (D : gmap string json -> Prop) (k : string) (m : option json) : Prop := exists d, D d /\ m = d !! k.
Definition Wof (D : gmap string json -> Prop) (k : string) (m : option json) : Prop :=
  forall d, D d -> D (match m with Some v => <[k := v]> d | None => delete k d end).
Lemma Lof_L (D : gmap string json -> Prop) d k : D d -> Lof D k (d !! k).
Proof. exists d. done. Qed.
Lemma Wof_S (D : gmap string json -> Prop) (d : gmap string json) k v : D d -> Wof D k (Some v) -> D (<[k := v]> d).
Proof. intros Hd H. by apply (H d). Qed.
Lemma Wof_D (D : gmap string json -> Prop) (d : gmap string json) k : D d -> Wof D k None -> D (delete k d).
Proof. intros Hd H. by apply (H d). Qed.
Lemma hist_inv (D : gmap string json -> Prop) (ok : call -> Prop) w w' :
  (forall c, ok c -> call_wr (Lof D) (Wof D) (fun _ => True) c) -> hist ok w w' -> D (w_disk w) -> D (w_disk w').
Proof. apply inv_hist; [apply Lof_L|apply Wof_S|apply Wof_D]. Qed.

(** The content of one item is kept, and so are the own id and the key pair if they are there. *)
Section kept.
  Context (i : item) (d0 : gmap string json).
  Definition own_stored : Prop := exists id, has_own id d0.
  Definition ikp_stored : Prop := exists k, has_ikp k d0.
  Definition kept (d : gmap string json) : Prop :=
    d !! item_key i = d0 !! item_key i /\ (own_stored -> d !! k_own = d0 !! k_own) /\
    (ikp_stored -> d !! k_ikp_seed = d0 !! k_ikp_seed /\ d !! k_ikp_key = d0 !! k_ikp_key).
  Lemma kept_W k m :
    k <> item_key i -> (k = k_own -> ~ own_stored) -> (k = k_ikp_seed \/ k = k_ikp_key -> ~ ikp_stored) -> Wof kept k m.
  Proof.
    intros Hi Ho Hk d (H1 & H2 & H3).
    assert (forall k', k' <> k -> match m with Some v => <[k := v]> d | None => delete k d end !! k' = d !! k') as Hsame.
    { intros k' Hp. destruct m; [by apply lookup_insert_ne|by apply lookup_delete_ne]. }
    split; [by rewrite Hsame by done|]. split.
    - intros Hs. rewrite Hsame; [auto|]. intros <-. by apply Ho.
    - intros Hs. split; (rewrite Hsame; [by apply H3|]); intros <-; apply Hk; auto.
  Qed.
  Lemma kept_own : Lof kept k_own None -> ~ own_stored.
  Proof. intros (d & (_ & H & _) & Hn) Hs. specialize (H Hs). destruct Hs as [id Hid]. change (d0 !! k_own = Some (JInt id)) in Hid. congruence. Qed.
  Lemma kept_no_ikp : Lof kept k_ikp_seed None \/ Lof kept k_ikp_key None -> ~ ikp_stored.
  Proof.
    intros [(d & (_ & _ & H) & Hn)|(d & (_ & _ & H) & Hn)] Hs; specialize (H Hs);
      destruct Hs as (k & (Hs1 & s & Hs2 & _)%has_ikp_k); destruct H; congruence.
  Qed.
  Lemma kept_ikp k k0 : ikpL (Lof kept) k -> has_ikp k0 d0 -> k = k0.
  Proof.
    intros Hk Hk0. assert ikp_stored as Hs by (by exists k0).
    destruct Hk as [(b & s & (d & (_ & _ & Hd) & H1) & (d' & (_ & _ & Hd') & H2) & key & H3 & ->)|Hk];
      [|by apply kept_no_ikp in Hk].
    destruct (Hd Hs) as [Hd1 _], (Hd' Hs) as [_ Hd2]. apply has_ikp_k in Hk0 as (K1 & s' & K2 & K3).
    assert (b = ikp_flag k0) as -> by congruence. assert (s' = s) as -> by congruence.
    assert (key = ikp_bytes k0) as -> by congruence. by destruct k0.
  Qed.
End kept.

Ltac kw := apply kept_W; [kneq|let H := fresh in intros H; exfalso; revert H; kneq|let H := fresh in intros H; exfalso; destruct H as [H|H]; revert H; kneq].

Ltac spl := unfold wr_dev, wr_info, wr_queue, wr_purge, wr_own; repeat (intros; match goal with |- _ /\ _ => split end); intros.

Lemma trust_kept d0 j ik (ok : call -> Prop) w w' :
  (forall c, ok c -> keeps_trust d0 j ik c) -> hist ok w w' -> w_disk w = d0 ->
  w_disk w' !! k_trust j ik = d0 !! k_trust j ik.
Proof.
  intros Hok Hh Hd. apply (hist_inv (kept (ITrust j ik) d0) ok w w'); [|done|subst d0; by repeat split].
  intros c Hc. apply Hok in Hc. set (D := kept (ITrust j ik) d0).
  assert (wr_ikp (Lof D) (Wof D)) as Hi.
  { intros Hn. apply kept_no_ikp in Hn.
    split; [|intros b]; apply kept_W; try (by intros; discriminate); try done. }
  assert (forall j, wr_dev (Lof D) (Wof D) j) as Hwd by (spl; kw).
  assert (forall j, wr_info (Lof D) (Wof D) j) as Hwi by (spl; kw).
  assert (wr_queue (Wof D) (fun _ => True)) as Hq by (spl; kw).
  destruct c; cbn [call_wr keeps_trust] in *; auto.
  - split; [done|]. split; [by apply Forall_forall|]. split; [done|]. split; [done|].
    intros Hn k Hk. apply kept_own in Hn. spl; [kw|kw| |].
    + kw. assert ((a_jid a, ikp_identity_key P k) <> (j, ik)) as Hne; [|congruence].
      destruct Hc as [Hc|[Hc|(k0 & Hk0 & Hc)]]; [congruence|done|].
      rewrite (kept_ikp _ _ _ _ Hk Hk0). congruence.
    + apply kept_W; [kneq|done|]. intros H; exfalso; destruct H as [H|H]; revert H; kneq.
  - kw.
  - kw.
  - split; [done|]. spl; kw.
  - spl; kw.
Qed.

Lemma key_footprint d0 j dev v c :
  keeps_key d0 j c -> d0 !! k_ik j dev = Some v ->
  call_wr (Lof (kept (IIdentityKey j dev) d0)) (Wof (kept (IIdentityKey j dev) d0)) (fun _ => True) c.
Proof.
  intros Hc Hv. set (D := kept (IIdentityKey j dev) d0).
  assert (wr_ikp (Lof D) (Wof D)) as Hi.
  { intros Hn. apply kept_no_ikp in Hn.
    split; [|intros b]; apply kept_W; try (by intros; discriminate); try done. }
  assert (forall j, wr_dev (Lof D) (Wof D) j) as Hwd by (spl; kw).
  assert (forall j, wr_info (Lof D) (Wof D) j) as Hwi.
  { intros j'. split; [intros; kw|]. intros d' b (d & Hd' & Hn). kw. intros [= -> ->].
    destruct Hd' as [Hd' _]. simpl in Hd'. change (d !! k_ik j dev = d0 !! k_ik j dev) in Hd'. congruence. }
  assert (wr_queue (Wof D) (fun _ => True)) as Hq by (spl; kw).
  destruct c; cbn [call_wr keeps_key] in *; auto.
  - split; [done|]. split; [by apply Forall_forall|]. split; [done|]. split; [done|].
    intros Hn k Hk. apply kept_own in Hn. spl; [|kw|kw|].
    + kw. destruct Hc as [Hc|Hc]; [congruence|done].
    + apply kept_W; [kneq|done|]. intros H; exfalso; destruct H as [H|H]; revert H; kneq.
  - kw.
  - kw.
  - split; [done|]. spl; kw.
  - spl; kw.
Qed.
Lemma key_kept d0 j dev v (ok : call -> Prop) w w' :
  (forall c, ok c -> keeps_key d0 j c) -> hist ok w w' -> w_disk w = d0 -> d0 !! k_ik j dev = Some v ->
  w_disk w' !! k_ik j dev = Some v.
Proof.
  intros Hok Hh Hd Hv. rewrite <- Hv.
  apply (hist_inv (kept (IIdentityKey j dev) d0) ok w w'); [|done|subst d0; by repeat split].
  intros c Hc. eapply key_footprint; [by apply Hok|exact Hv].
Qed.
