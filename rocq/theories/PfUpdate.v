(** update_device_list (C21-C23, C29). *)
From Verif Require Import Api Spec PfTyped PfWp PfHist PfEmits.
Open Scope prog_scope.
Open Scope list_scope.

(** A value of type [T] under the key. *)
Definition hk {A} (T : json -> A -> Prop) (d : gmap string json) (k : string) (a : A) : Prop :=
  exists v, d !! k = Some v /\ T v a.
Notation hns d j x l := (hk (is_list is_str) d (k_ns j x) l).
Notation hact d j x m := (hk (is_dict is_bool) d (k_active j x) m).
Notation hlab d j x o := (hk (is_opt is_str) d (k_label j x) o).
Notation hlist d j l := (hk (is_list is_int) d (k_list j) l).

Lemma hk_eq {A} (T : json -> A -> Prop) (d d' : gmap string json) k a : d' !! k = d !! k -> hk T d k a -> hk T d' k a.
Proof. intros He (v & H1 & H2). exists v. by rewrite He. Qed.
Lemma hk_fun {A} (T : json -> A -> Prop) d k a b :
  (forall v x y, T v x -> T v y -> x = y) -> hk T d k a -> hk T d k b -> a = b.
Proof. intros HT (v & H1 & H2) (v' & H3 & H4). rewrite H1 in H3. injection H3 as <-. eauto. Qed.
Lemma hns_fun d j x a b : hns d j x a -> hns d j x b -> a = b.
Proof. apply hk_fun. intros ???. apply is_list_fun, is_str_fun. Qed.
Lemma hact_fun d j x a b : hact d j x a -> hact d j x b -> a = b.
Proof. apply hk_fun. intros ???. apply is_dict_fun, is_bool_fun. Qed.
Lemma hlab_fun d j x a b : hlab d j x a -> hlab d j x b -> a = b.
Proof. apply hk_fun. intros ???. apply is_opt_fun, is_str_fun. Qed.
Lemma hlist_fun d j a b : hlist d j a -> hlist d j b -> a = b.
Proof. apply hk_fun. intros ???. apply is_list_fun, is_int_fun. Qed.

(** Loading something that is there. *)
Lemma wp_has {A} (I : world -> Prop) (check : json -> outcome A) (T : json -> A -> Prop) k a
    (Q : outcome (option A) -> world -> Prop) w :
  good_check check T -> (forall v x y, T v x -> T v y -> x = y) -> hk T (w_disk w) k a ->
  I w -> (forall e, ext_exn e = true -> Q (Exn e) w) -> Q (Val (Some a)) w ->
  wp base I (load_checked check k) Q w.
Proof.
  intros Hg HT (v & Hv & Ha) HI He HQ. apply (wp_typed _ _ _ _ _ _ Hg); [done|done|congruence| |].
  - intros v' a' Hv' Ha'. assert (v' = v) as -> by congruence. by rewrite (HT _ _ _ Ha' Ha).
  - intros v' Hv' Hn. assert (v' = v) as -> by congruence. by destruct (Hn a).
Qed.
Lemma strs_fun v (x y : list string) : is_list is_str v x -> is_list is_str v y -> x = y.
Proof. apply is_list_fun, is_str_fun. Qed.
Lemma ints_fun v (x y : list Z) : is_list is_int v x -> is_list is_int v y -> x = y.
Proof. apply is_list_fun, is_int_fun. Qed.
Lemma bools_fun v (x y : list (string * bool)) : is_dict is_bool v x -> is_dict is_bool v y -> x = y.
Proof. apply is_dict_fun, is_bool_fun. Qed.
Lemma label_fun v (x y : option string) : is_opt is_str v x -> is_opt is_str v y -> x = y.
Proof. apply is_opt_fun, is_str_fun. Qed.
Definition wp_has_ns I k a Q w := wp_has I _ _ k a Q w good_strs strs_fun.
Definition wp_has_act I k a Q w := wp_has I _ _ k a Q w good_bools bools_fun.
Definition wp_has_lab I k a Q w := wp_has I _ _ k a Q w good_label label_fun.
Definition wp_has_list I k a Q w := wp_has I _ _ k a Q w good_ints ints_fun.

Lemma dget_dset' {K V} `{EqDecision K} (k k' : K) (v : V) d : dget k (dset k' v d) = if decide (k = k') then Some v else dget k d.
Proof.
  induction d as [|[k0 v0] d IH]; simpl; [done|]. destruct (decide (k' = k0)) as [->|]; simpl.
  - by destruct (decide (k = k0)).
  - rewrite IH. destruct (decide (k = k0)) as [->|]; [|done]. by rewrite decide_False.
Qed.

(** Only the three keys of device [x]. *)
Definition touch (j : string) (x : Z) (d d' : gmap string json) : Prop :=
  forall k, k <> k_ns j x -> k <> k_active j x -> k <> k_label j x -> d' !! k = d !! k.
Definition same_dev (j : string) (x : Z) (d d' : gmap string json) : Prop :=
  d' !! k_ns j x = d !! k_ns j x /\ d' !! k_active j x = d !! k_active j x /\ d' !! k_label j x = d !! k_label j x.

Section upd.
  Context (ns jid : string) (dl : list (Z * option string)).
  Notation listed x := (bool_decide (is_Some (dget x dl))).

  (** A known device while it is being updated, and afterwards. *)
  Definition old_mid (x : Z) (d d' : gmap string json) : Prop :=
    (d' !! k_ns jid x = d !! k_ns jid x \/
      is_Some (dget x dl) /\ exists l l', hns d jid x l /\ hns d' jid x l' /\ (forall n, n ∈ l' <-> n ∈ l \/ n = ns) /\
        exists m', hact d' jid x m' /\ is_Some (dget ns m')) /\
    (d' !! k_active jid x = d !! k_active jid x \/
      exists l m m', hns d jid x l /\ hact d jid x m /\ hact d' jid x m' /\ (dget x dl = None -> ns ∈ l) /\
        forall n, dget n m' = if decide (n = ns) then Some (listed x) else dget n m) /\
    (d' !! k_label jid x = d !! k_label jid x \/ exists s, dget x dl = Some (Some s) /\ hlab d' jid x (Some s)).
  Definition old_fin (x : Z) (d d' : gmap string json) : Prop :=
    exists l m l' m', hns d jid x l /\ hact d jid x m /\ hns d' jid x l' /\ hact d' jid x m' /\
    match dget x dl with
    | Some lab =>
        (forall n, n ∈ l' <-> n ∈ l \/ n = ns) /\
        (forall n, dget n m' = if decide (n = ns) then Some true else dget n m) /\
        exists o, hlab d jid x o /\ hlab d' jid x (match lab with Some s => Some s | None => o end)
    | None =>
        d' !! k_ns jid x = d !! k_ns jid x /\ d' !! k_label jid x = d !! k_label jid x /\
        forall n, dget n m' = if decide (n = ns /\ ns ∈ l) then Some false else dget n m
    end.
  (** A new device likewise. *)
  Definition new_mid (x : Z) (d d' : gmap string json) : Prop :=
    (d' !! k_ns jid x = d !! k_ns jid x \/ d' !! k_ns jid x = Some (j_strs [ns])) /\
    (d' !! k_active jid x = d !! k_active jid x \/ d' !! k_active jid x = Some (j_bools [(ns, true)])) /\
    (d' !! k_label jid x = d !! k_label jid x \/ exists lab, dget x dl = Some lab /\ d' !! k_label jid x = Some (j_opt lab)).
  Definition new_fin (x : Z) (d' : gmap string json) : Prop :=
    d' !! k_ns jid x = Some (j_strs [ns]) /\ d' !! k_active jid x = Some (j_bools [(ns, true)]) /\
    exists lab, dget x dl = Some lab /\ d' !! k_label jid x = Some (j_opt lab).

  Lemma new_wp (I : world -> Prop) x w :
    (forall w', w_loaded w' = w_loaded w -> touch jid x (w_disk w) (w_disk w') ->
       new_mid x (w_disk w) (w_disk w') -> I w') ->
    wp base I (upd_new ns jid dl x) (fun o w' => w_loaded w' = w_loaded w /\ touch jid x (w_disk w) (w_disk w') /\
      match o with Val _ => new_fin x (w_disk w') | Exn e => ext_exn e = true \/ (e = EKeyError /\ dget x dl = None) end) w.
  Proof.
    intros HI. unfold upd_new.
    assert (k_active jid x <> k_label jid x) as N1 by kneq. assert (k_ns jid x <> k_label jid x) as N2 by kneq.
    assert (k_ns jid x <> k_active jid x) as N3 by kneq.
    set (w1 := w_apply w (SStore (k_active jid x) (j_bools [(ns, true)])) (Val tt)).
    assert (touch jid x (w_disk w) (w_disk w1)) as T1 by (intros k ???; simpl; by rewrite lookup_insert_ne).
    assert (new_mid x (w_disk w) (w_disk w1)) as M1.
    { simpl. split; [left; by rewrite lookup_insert_ne|]. split; [right; by rewrite lookup_insert|]. left; by rewrite lookup_insert_ne. }
    assert (I w) as HI0 by (apply HI; [done|by intros k|by (repeat split; left)]).
    assert (I w1) as HI1 by (by apply HI).
    apply wp_bind, wp_store.
    { intros [[]|e] _; [done|]. apply HI; [done|by intros k|by (repeat split; left)]. }
    { intros e He. split; [done|]. split; [by intros k|auto]. }
    fold w1. destruct (dget x dl) as [lab|] eqn:Ex; [|split; [done|]; split; auto].
    set (w2 := w_apply w1 (SStore (k_label jid x) (j_opt lab)) (Val tt)).
    assert (touch jid x (w_disk w) (w_disk w2)) as T2.
    { intros k ???; unfold w2; simpl; by rewrite !lookup_insert_ne. }
    assert (new_mid x (w_disk w) (w_disk w2)) as M2.
    { unfold w2; simpl. split; [left; by rewrite !lookup_insert_ne|].
      split; [right; by rewrite lookup_insert_ne, lookup_insert|]. right. exists lab. by rewrite lookup_insert. }
    assert (I w2) as HI2 by (by apply HI).
    apply wp_bind, wp_store.
    { intros [[]|e] _; [done|]. by apply HI. }
    { intros e He. split; [done|]. split; [done|auto]. }
    fold w2. set (w3 := w_apply w2 (SStore (k_ns jid x) (j_strs [ns])) (Val tt)).
    assert (touch jid x (w_disk w) (w_disk w3)) as T3.
    { intros k ???; unfold w3; simpl; by rewrite !lookup_insert_ne. }
    assert (new_fin x (w_disk w3)) as F3.
    { unfold w3; simpl. split; [by rewrite lookup_insert|]. split.
      - rewrite !lookup_insert_ne by done. by rewrite lookup_insert.
      - exists lab. rewrite lookup_insert_ne by done. by rewrite lookup_insert. }
    apply wp_store.
    { intros [[]|e] _; [|by apply HI]. apply HI; [done|done|]. destruct F3 as (F1 & F2 & F4). repeat split; auto. }
    { intros e He. split; [done|]. split; [done|auto]. }
    fold w3. done.
  Qed.

  (** The record of a known device can be processed. *)
  Definition rec_ok (x : Z) (d : gmap string json) : Prop :=
    exists l m o, hns d jid x l /\ hact d jid x m /\ hlab d jid x o /\
      (dget x dl = None -> ns ∈ l -> is_Some (dget ns m)).

  Lemma old_wp (I : world -> Prop) x w :
    (forall w', w_loaded w' = w_loaded w -> touch jid x (w_disk w) (w_disk w') ->
       old_mid x (w_disk w) (w_disk w') -> I w') ->
    wp base I (upd_old ns jid dl x) (fun o w' => w_loaded w' = w_loaded w /\ touch jid x (w_disk w) (w_disk w') /\
      match o with Val _ => old_mid x (w_disk w) (w_disk w') /\ old_fin x (w_disk w) (w_disk w')
      | Exn e => ext_exn e = true \/ ~ rec_ok x (w_disk w) end) w.
  Proof.
    intros HI. unfold upd_old.
    assert (k_active jid x <> k_label jid x) as N1 by kneq. assert (k_ns jid x <> k_label jid x) as N2 by kneq.
    assert (k_ns jid x <> k_active jid x) as N3 by kneq.
    assert (I w) as HI0 by (apply HI; [done|by intros k|by (repeat split; left)]).
    assert (touch jid x (w_disk w) (w_disk w)) as T0 by (by intros k).
    apply wp_bind. apply (wp_typed _ _ _ _ _ _ good_strs); [done|by auto| | |].
    { intros Hn. apply wp_bind, wp_from_just; [|done]. intros _. repeat split; auto. right.
      intros (l & m & o & (v & H & _) & _). congruence. }
    2:{ intros v Hv Hn. repeat split; auto. right. intros (l & m & o & (v' & H & H') & _).
        rewrite Hv in H. injection H as <-. by eapply Hn. }
    intros v l Hv Hl. assert (hns (w_disk w) jid x l) as Hns by (by exists v).
    apply wp_bind, wp_from_just; [done|]. intros ? [= <-]. cbv zeta. apply wp_bind.
    apply (wp_typed _ _ _ _ _ _ good_bools); [done|by auto| | |].
    { intros Hn. apply wp_bind, wp_from_just; [|done]. intros _. repeat split; auto. right.
      intros (? & m & o & _ & (v' & H & _) & _). congruence. }
    2:{ intros v' Hv' Hn. repeat split; auto. right. intros (? & m & o & _ & (v'' & H & H') & _).
        rewrite Hv' in H. injection H as <-. by eapply Hn. }
    intros v' m Hv' Hm. assert (hact (w_disk w) jid x m) as Hact by (by exists v').
    apply wp_bind, wp_from_just; [done|]. intros ? [= <-].
    assert (forall n, n ∈ pyset l <-> n ∈ l) as Hset by (intros n; apply elem_of_remove_dups).
    destruct (dget x dl) as [lab|] eqn:Ex.
    - (* listed *)
      (* after the first store *)
      assert (forall w1 m1, w_loaded w1 = w_loaded w -> touch jid x (w_disk w) (w_disk w1) ->
          w_disk w1 !! k_ns jid x = w_disk w !! k_ns jid x ->
          w_disk w1 !! k_label jid x = w_disk w !! k_label jid x ->
          hact (w_disk w1) jid x m1 ->
          (forall n, dget n m1 = if decide (n = ns) then Some true else dget n m) ->
          (w_disk w1 !! k_active jid x = w_disk w !! k_active jid x \/ True) ->
          wp base I (m'' <- load_optional as_str (k_label jid x) ;;
              label <- from_just m'' ;;
              (if bool_decide (lab <> None) && bool_decide (lab <> label)
               then s_store (k_label jid x) (j_opt lab) else Ret tt) ;;;
              (if decide (ns ∈ pyset l) then Ret tt
               else l' <- order (set_add ns (pyset l)) ;; s_store (k_ns jid x) (j_strs l')))
            (fun o w' => w_loaded w' = w_loaded w /\ touch jid x (w_disk w) (w_disk w') /\
              match o with Val _ => old_mid x (w_disk w) (w_disk w') /\ old_fin x (w_disk w) (w_disk w')
              | Exn e => ext_exn e = true \/ ~ rec_ok x (w_disk w) end) w1) as Hrest; [|].
      { intros w1 m1 L1 T1 E1 E2 A1 A1' _.
        assert (forall d', d' !! k_active jid x = w_disk w1 !! k_active jid x -> 
          (d' !! k_active jid x = w_disk w !! k_active jid x \/
           exists l m m', hns (w_disk w) jid x l /\ hact (w_disk w) jid x m /\ hact d' jid x m' /\ (dget x dl = None -> ns ∈ l) /\
        forall n, dget n m' = if decide (n = ns) then Some (listed x) else dget n m)) as HA.
        { intros d' Hd'. right. exists l, m, m1. split; [done|]. split; [done|]. split; [by eapply hk_eq|].
          split; [congruence|]. intros n. rewrite A1'. destruct (decide _); [|done].
          rewrite Ex, bool_decide_eq_true_2; [done|by eexists]. }
        assert (I w1) as HI1 by (apply HI; [done|done|]; split; [by left|]; split; [by apply HA|by left]).
        apply wp_bind. apply (wp_typed _ _ _ _ _ _ good_label); [done|by auto| | |].
        { intros Hn. apply wp_bind, wp_from_just; [|done]. intros _. repeat split; auto. right.
          intros (? & ? & o & _ & _ & (v'' & H & _) & _). congruence. }
        2:{ intros v'' Hv'' Hn. repeat split; auto. right. intros (? & ? & o & _ & _ & (v1 & H & H') & _).
            rewrite <- E2, Hv'' in H. injection H as <-. by eapply Hn. }
        intros v'' o Hv'' Ho. assert (hlab (w_disk w) jid x o) as Hlab by (exists v''; by rewrite <- E2).
        apply wp_bind, wp_from_just; [done|]. intros ? [= <-].
        (* after the second *)
        assert (forall w2, w_loaded w2 = w_loaded w -> touch jid x (w_disk w) (w_disk w2) ->
            w_disk w2 !! k_ns jid x = w_disk w !! k_ns jid x ->
            w_disk w2 !! k_active jid x = w_disk w1 !! k_active jid x ->
            hlab (w_disk w2) jid x (match lab with Some s => Some s | None => o end) ->
            (w_disk w2 !! k_label jid x = w_disk w !! k_label jid x \/
              exists s, dget x dl = Some (Some s) /\ hlab (w_disk w2) jid x (Some s)) ->
            wp base I (if decide (ns ∈ pyset l) then Ret tt
               else l' <- order (set_add ns (pyset l)) ;; s_store (k_ns jid x) (j_strs l'))
              (fun o w' => w_loaded w' = w_loaded w /\ touch jid x (w_disk w) (w_disk w') /\
              match o with Val _ => old_mid x (w_disk w) (w_disk w') /\ old_fin x (w_disk w) (w_disk w')
              | Exn e => ext_exn e = true \/ ~ rec_ok x (w_disk w) end) w2) as Hrest2.
        { intros w2 L2 T2 E3 E4 B1 B2.
          assert (I w2) as HI2 by (apply HI; [done|done|]; split; [by left|]; split; [by apply HA|done]).
          destruct (decide _) as [Hin|Hnin].
          { split; [done|]. split; [done|].
            split; [split; [by left|]; split; [by apply HA|done]|]. exists l, m, l, m1. split; [done|]. split; [done|].
            split; [by eapply hk_eq|]. split; [by eapply hk_eq|]. rewrite Ex. split; [|split; [done|by eauto]].
            intros n. split; [by left|]. intros [?| ->]; [done|by apply Hset]. }
          apply wp_bind, wp_order; [done|]. intros l' Hl'.
          set (w3 := w_apply w2 (SStore (k_ns jid x) (j_strs l')) (Val tt)).
          assert (hns (w_disk w3) jid x l') as C1.
          { exists (j_strs l'). split; [simpl; by rewrite lookup_insert|apply is_strs]. }
          assert (forall n, n ∈ l' <-> n ∈ l \/ n = ns) as C2.
          { intros n. rewrite Hl'. unfold set_add. rewrite decide_False by done.
            rewrite elem_of_app, Hset, elem_of_list_singleton. done. }
          assert (w_disk w3 !! k_active jid x = w_disk w1 !! k_active jid x) as C3.
          { simpl. by rewrite lookup_insert_ne. }
          assert (w_disk w3 !! k_label jid x = w_disk w2 !! k_label jid x) as C4.
          { simpl. by rewrite lookup_insert_ne. }
          assert (touch jid x (w_disk w) (w_disk w3)) as T3.
          { intros k ???. simpl. rewrite lookup_insert_ne by done. by apply T2. }
          assert (old_mid x (w_disk w) (w_disk w3)) as M3.
          { split.
            { right. split; [by eexists|]. exists l, l'. split; [done|]. split; [done|]. split; [done|]. exists m1.
              split; [by eapply hk_eq|]. rewrite A1', decide_True by done. by eexists. }
            split; [by apply HA|].
            rewrite C4. destruct B2 as [B2|(s & B2 & B3)]; [by left|right]. exists s. split; [done|]. by eapply hk_eq. }
          apply wp_store.
          { intros [[]|e] _; [|apply HI; [done|done|]; split; [by left|]; split; [by apply HA|done]]. fold w3. by apply HI. }
          { intros e He. split; [done|]. split; [done|by left]. }
          fold w3. split; [done|]. split; [done|]. split; [done|]. exists l, m, l', m1. split; [done|]. split; [done|]. split; [done|].
          split; [by eapply hk_eq|]. rewrite Ex. split; [done|]. split; [done|]. exists o. split; [done|]. by eapply hk_eq. }
        apply wp_bind. destruct (bool_decide (lab <> None) && bool_decide (lab <> o)) eqn:Eb.
        + apply andb_true_iff in Eb as [Eb1 Eb2]. apply bool_decide_eq_true in Eb1, Eb2.
          destruct lab as [s|]; [|done].
          set (w2 := w_apply w1 (SStore (k_label jid x) (j_opt (Some s))) (Val tt)).
          assert (touch jid x (w_disk w) (w_disk w2)) as T2.
          { intros k ???. simpl. rewrite lookup_insert_ne by done. by apply T1. }
          assert (hlab (w_disk w2) jid x (Some s)) as B1.
          { exists (JStr s). split; [simpl; by rewrite lookup_insert|apply (is_label (Some s))]. }
          apply wp_store.
          * intros [[]|e] _; [|apply HI; [done|done|]; split; [by left|]; split; [by apply HA|by left]]. fold w2. apply HI; [done|done|].
            split; [left; simpl; by rewrite lookup_insert_ne|].
            split; [apply HA; simpl; by rewrite lookup_insert_ne|]. right. eauto.
          * intros e He. split; [done|]. split; [done|by left].
          * fold w2. apply Hrest2; [done|done|simpl; by rewrite lookup_insert_ne|simpl; by rewrite lookup_insert_ne|done|eauto].
        + apply wp_ret. apply Hrest2; [done|done|done|done| |by left].
          assert (match lab with Some s => Some s | None => o end = o) as ->; [|by eapply hk_eq].
          destruct lab as [s|]; [|done]. apply andb_false_iff in Eb as [Eb|Eb]; apply bool_decide_eq_false in Eb.
          * exfalso. apply Eb. done.
          * destruct (decide (Some s = o)); [done|]. by exfalso. }
      apply wp_bind. destruct (bool_decide (dget ns m = Some true)) eqn:Hb; [apply bool_decide_eq_true in Hb|clear Hb].
      + apply wp_ret. apply (Hrest w m); auto. intros n. destruct (decide (n = ns)) as [->|]; done.
      + set (w1 := w_apply w (SStore (k_active jid x) (j_bools (dset ns true m))) (Val tt)).
        assert (hact (w_disk w1) jid x (dset ns true m)) as A1.
        { eexists. split; [simpl; by rewrite lookup_insert|apply is_bools]. }
        assert (touch jid x (w_disk w) (w_disk w1)) as T1.
        { intros k ???. simpl. by rewrite lookup_insert_ne. }
        apply wp_store.
        * intros [[]|e] _; [|apply HI; [done|by intros k|by (repeat split; left)]]. fold w1. apply HI; [done|done|].
          split; [left; simpl; by rewrite lookup_insert_ne|].
          split; [|left; simpl; by rewrite lookup_insert_ne]. right. exists l, m, (dset ns true m).
          split; [done|]. split; [done|]. split; [done|]. split; [congruence|]. intros n. rewrite dget_dset'.
          destruct (decide (n = ns)); [|done]. rewrite Ex, bool_decide_eq_true_2; [done|by eexists].
        * intros e He. split; [done|]. split; [done|by left].
        * fold w1. apply (Hrest w1 (dset ns true m)); auto; try (simpl; by rewrite lookup_insert_ne).
          intros n. apply dget_dset'.
    - (* not listed *)
      assert (forall n, n = ns /\ ns ∈ l -> n = ns) as _ by naive_solver.
      destruct (decide _) as [Hin|Hnin].
      + apply Hset in Hin. destruct (dget ns m) as [[]|] eqn:En.
        * set (w1 := w_apply w (SStore (k_active jid x) (j_bools (dset ns false m))) (Val tt)).
          assert (hact (w_disk w1) jid x (dset ns false m)) as A1.
          { eexists. split; [simpl; by rewrite lookup_insert|apply is_bools]. }
          assert (touch jid x (w_disk w) (w_disk w1)) as T1.
          { intros k ???. simpl. by rewrite lookup_insert_ne. }
          assert (old_mid x (w_disk w) (w_disk w1)) as M1.
          { split; [left; simpl; by rewrite lookup_insert_ne|].
            split; [|left; simpl; by rewrite lookup_insert_ne]. right. exists l, m, (dset ns false m).
            split; [done|]. split; [done|]. split; [done|]. split; [done|]. intros n. rewrite dget_dset'.
            destruct (decide (n = ns)); [|done]. rewrite Ex, bool_decide_eq_false_2; [done|]. by intros []. }
          apply wp_store.
          -- intros [[]|e] _; [|apply HI; [done|by intros k|by (repeat split; left)]]. fold w1. by apply HI.
          -- intros e He. split; [done|]. split; [done|by left].
          -- fold w1. split; [done|]. split; [done|]. split; [done|]. exists l, m, l, (dset ns false m).
             split; [done|]. split; [done|]. split; [eapply hk_eq; [|done]; simpl; by rewrite lookup_insert_ne|].
             split; [done|]. rewrite Ex. split; [simpl; by rewrite lookup_insert_ne|].
             split; [simpl; by rewrite lookup_insert_ne|]. intros n. rewrite dget_dset'.
             destruct (decide (n = ns)); [rewrite decide_True by done|rewrite decide_False by tauto]; done.
        * apply wp_ret. split; [done|]. split; [done|]. split; [by (repeat split; left)|].
          exists l, m, l, m. rewrite Ex. repeat split; auto.
          intros n. destruct (decide (n = ns /\ ns ∈ l)) as [[-> _]|]; done.
        * apply wp_raise. split; [done|]. split; [done|]. right. intros (l2 & m2 & o & R1 & R2 & _ & R4).
          rewrite (hns_fun _ _ _ _ _ R1 Hns) in R4. rewrite (hact_fun _ _ _ _ _ R2 Hact) in R4.
          destruct (R4 Ex Hin). congruence.
      + apply wp_ret. split; [done|]. split; [done|]. split; [by (repeat split; left)|]. exists l, m, l, m. rewrite Ex. repeat split; auto.
        intros n. rewrite decide_False; [done|]. rewrite <- Hset. tauto.
  Qed.
End upd.

(** ** The whole update *)
Lemma old_fin_l ns j dl x d0 d d' : same_dev j x d0 d -> old_fin ns j dl x d d' -> old_fin ns j dl x d0 d'.
Proof.
  intros (E1 & E2 & E3) (l & m & l' & m' & H1 & H2 & H3 & H4 & H5). exists l, m, l', m'.
  split; [by eapply hk_eq; [symmetry|]|]. split; [by eapply hk_eq; [symmetry|]|]. split; [done|]. split; [done|].
  destruct (dget x dl) as [lab|].
  - destruct H5 as (H5 & H6 & o & H7 & H8). split; [done|]. split; [done|]. exists o. split; [|done]. by eapply hk_eq; [symmetry|].
  - by rewrite <- E1, <- E3.
Qed.
Lemma old_fin_r ns j dl x d d1 d' : same_dev j x d1 d' -> old_fin ns j dl x d d1 -> old_fin ns j dl x d d'.
Proof.
  intros (E1 & E2 & E3) (l & m & l' & m' & H1 & H2 & H3 & H4 & H5). exists l, m, l', m'.
  split; [done|]. split; [done|]. split; [by eapply hk_eq|]. split; [by eapply hk_eq|].
  destruct (dget x dl) as [lab|].
  - destruct H5 as (H5 & H6 & o & H7 & H8). split; [done|]. split; [done|]. exists o. split; [done|]. by eapply hk_eq.
  - by rewrite E1, E3.
Qed.
Lemma old_mid_l ns j dl x d0 d d' : same_dev j x d0 d -> old_mid ns j dl x d d' -> old_mid ns j dl x d0 d'.
Proof.
  intros (E1 & E2 & E3) (H1 & H2 & H3). split; [|split].
  - rewrite <- E1. destruct H1 as [H1|(H0 & l & l' & H1 & H4)]; [by left|right]. split; [done|]. exists l, l'.
    split; [by eapply hk_eq; [symmetry|]|done].
  - rewrite <- E2. destruct H2 as [H2|(l & m & m' & H2 & H4 & H5)]; [by left|right]. exists l, m, m'.
    split; [by eapply hk_eq; [symmetry|]|]. split; [by eapply hk_eq; [symmetry|]|done].
  - by rewrite <- E3.
Qed.
Lemma old_mid_r ns j dl x d d1 d' : same_dev j x d1 d' -> old_mid ns j dl x d d1 -> old_mid ns j dl x d d'.
Proof.
  intros (E1 & E2 & E3) (H1 & H2 & H3). split; [|split].
  - rewrite E1. destruct H1 as [H1|(H0 & l & l' & H1 & H4 & H5)]; [by left|right]. split; [done|]. exists l, l'.
    split; [done|]. split; [by eapply hk_eq|]. destruct H5 as (H5 & m' & H6 & H7). split; [done|]. exists m'.
    split; [by eapply hk_eq|done].
  - rewrite E2. destruct H2 as [H2|(l & m & m' & H2 & H4 & H5 & H6)]; [by left|right]. exists l, m, m'.
    split; [done|]. split; [done|]. split; [by eapply hk_eq|done].
  - rewrite E3. destruct H3 as [H3|(s & H3 & H4)]; [by left|right]. exists s. split; [done|]. by eapply hk_eq.
Qed.
Lemma old_mid_refl ns j dl x d d' : same_dev j x d d' -> old_mid ns j dl x d d'.
Proof. intros (E1 & E2 & E3). split; [|split]; by left. Qed.

Lemma new_fin_r ns j dl x d1 d' : same_dev j x d1 d' -> new_fin ns j dl x d1 -> new_fin ns j dl x d'.
Proof. intros (E1 & E2 & E3) (H1 & H2 & H3). unfold new_fin. by rewrite E1, E2, E3. Qed.
Lemma new_mid_l ns j dl x d0 d d' : same_dev j x d0 d -> new_mid ns j dl x d d' -> new_mid ns j dl x d0 d'.
Proof. intros (E1 & E2 & E3). unfold new_mid. by rewrite E1, E2, E3. Qed.
Lemma new_fin_mid ns j dl x d d' : new_fin ns j dl x d' -> new_mid ns j dl x d d'.
Proof. intros (H1 & H2 & H3). split; [by right|]. split; by right. Qed.
Lemma new_mid_refl ns j dl x d d' : same_dev j x d d' -> new_mid ns j dl x d d'.
Proof. intros (E1 & E2 & E3). split; [|split]; by left. Qed.

(** Only keys of the devices in [xs]. *)
Definition frame_on (j : string) (xs : list Z) (d d' : gmap string json) : Prop :=
  forall k, (forall x, x ∈ xs -> k <> k_ns j x /\ k <> k_active j x /\ k <> k_label j x) -> d' !! k = d !! k.
Lemma frame_same j xs d d' x : frame_on j xs d d' -> x ∉ xs -> same_dev j x d d'.
Proof.
  intros H Hx. assert (forall y, y ∈ xs -> x <> y) as Hne by (by intros y Hy ->).
  split; [|split]; apply H; intros y Hy; apply Hne in Hy; repeat split; kneq.
Qed.
Lemma frame_touch j xs d d1 d' x : frame_on j xs d d1 -> touch j x d1 d' -> frame_on j (xs ++ [x]) d d'.
Proof.
  intros H T k Hk. destruct (Hk x) as (H1 & H2 & H3); [apply elem_of_app; right; by left|].
  rewrite T by done. apply H. intros y Hy. apply Hk. apply elem_of_app. by left.
Qed.
Lemma touch_same j x y d d' : touch j x d d' -> y <> x -> same_dev j y d d'.
Proof. intros T Hne. split; [|split]; apply T; kneq. Qed.
Lemma frame_list j xs d d' : frame_on j xs d d' -> d' !! k_list j = d !! k_list j.
Proof. intros H. apply H. intros x _. repeat split; kneq. Qed.

Lemma frame_on_mono j xs ys d d' : (forall x, x ∈ xs -> x ∈ ys) -> frame_on j xs d d' -> frame_on j ys d d'.
Proof. intros Hs H k Hk. apply H. auto. Qed.
Lemma same_dev_trans j x d1 d2 d3 : same_dev j x d1 d2 -> same_dev j x d2 d3 -> same_dev j x d1 d3.
Proof. intros (E1 & E2 & E3) (F1 & F2 & F3). split; [|split]; congruence. Qed.

(** Everything after the own device was looked at: [nds] are the new devices, [ods] the known ones, [all] the
    list stored at the end. *)
Definition upd_rest (ns jid : string) (dl : list (Z * option string)) (nds ods all : list Z) : api unit :=
  nd <- order nds ;;
  for_each nd (upd_new ns jid dl) ;;;
  od <- order ods ;;
  for_each od (upd_old ns jid dl) ;;;
  match nds with
  | [] => Ret tt
  | _ => l <- order all ;; s_store (k_list jid) (j_ints l)
  end.

Section rest.
  Context (ns jid : string) (dl : list (Z * option string)) (nds ods all : list Z).
  Hypothesis Hnd : NoDup nds.
  Hypothesis Hod : NoDup ods.
  Hypothesis Hdisj : forall x, x ∈ nds -> x ∉ ods.
  Hypothesis Hlisted : forall x, x ∈ nds -> is_Some (dget x dl).

  Definition frame_upd (d d' : gmap string json) : Prop :=
    forall k, k <> k_list jid -> (forall x, x ∈ nds ++ ods -> k <> k_ns jid x /\ k <> k_active jid x /\ k <> k_label jid x) ->
    d' !! k = d !! k.
  Definition rest_mid (d d' : gmap string json) : Prop :=
    frame_upd d d' /\
    (forall x, x ∈ nds -> new_mid ns jid dl x d d') /\
    (forall x, x ∈ ods -> old_mid ns jid dl x d d') /\
    (d' !! k_list jid = d !! k_list jid \/ nds <> [] /\ exists l, l ≡ₚ all /\ d' !! k_list jid = Some (j_ints l) /\
      forall x, x ∈ nds -> new_fin ns jid dl x d').
  Definition rest_fin (d d' : gmap string json) : Prop :=
    frame_upd d d' /\
    (forall x, x ∈ nds -> new_fin ns jid dl x d') /\
    (forall x, x ∈ ods -> old_mid ns jid dl x d d' /\ old_fin ns jid dl x d d') /\
    match nds with
    | [] => d' !! k_list jid = d !! k_list jid
    | _ => exists l, l ≡ₚ all /\ d' !! k_list jid = Some (j_ints l)
    end.

  (** After the new devices [xs] and the known devices [ys]. *)
  Definition progr (xs ys : list Z) (d d' : gmap string json) : Prop :=
    frame_on jid (xs ++ ys) d d' /\
    (forall x, x ∈ xs -> new_fin ns jid dl x d') /\
    (forall x, x ∈ ys -> old_mid ns jid dl x d d' /\ old_fin ns jid dl x d d').

  Lemma progr_mid xs ys d d' :
    (forall x, x ∈ xs -> x ∈ nds) -> (forall x, x ∈ ys -> x ∈ ods) -> progr xs ys d d' -> rest_mid d d'.
  Proof.
    intros Hx Hy (F & N & O). split; [|split; [|split]].
    - intros k _ Hk. apply F. intros x. rewrite elem_of_app. intros [?|?]; apply Hk, elem_of_app; auto.
    - intros x Hi. destruct (decide (x ∈ xs)) as [Hin|Hin]; [by apply new_fin_mid, N|].
      apply new_mid_refl. eapply frame_same; [done|]. rewrite elem_of_app. intros [?|Hc]; [done|].
      apply Hy in Hc. by eapply Hdisj.
    - intros x Hi. destruct (decide (x ∈ ys)) as [Hin|Hin]; [by apply O|].
      apply old_mid_refl. eapply frame_same; [done|]. rewrite elem_of_app. intros [Hc|?]; [|done].
      apply Hx in Hc. by eapply Hdisj.
    - left. by eapply frame_list.
  Qed.
  Lemma progr_touch xs ys x d d1 d2 :
    progr xs ys d d1 -> touch jid x d1 d2 -> x ∉ xs -> x ∉ ys ->
    frame_on jid (xs ++ ys ++ [x]) d d2 /\
    (forall x, x ∈ xs -> new_fin ns jid dl x d2) /\
    (forall x, x ∈ ys -> old_mid ns jid dl x d d2 /\ old_fin ns jid dl x d d2) /\ same_dev jid x d d1.
  Proof.
    intros (F & N & O) T Hx Hy. split; [|split; [|split]].
    - rewrite app_assoc. by eapply frame_touch.
    - intros y Hin. eapply new_fin_r; [|by apply N]. eapply touch_same; [done|]. by intros ->.
    - intros y Hin. destruct (O y Hin). assert (same_dev jid y d1 d2) by (eapply touch_same; [done|by intros ->]).
      split; [by eapply old_mid_r|by eapply old_fin_r].
    - eapply frame_same; [done|]. rewrite elem_of_app. tauto.
  Qed.

  Lemma touch_mid xs ys x d d1 d2 :
    (forall x, x ∈ xs -> x ∈ nds) -> (forall x, x ∈ ys -> x ∈ ods) ->
    progr xs ys d d1 -> touch jid x d1 d2 -> x ∉ xs -> x ∉ ys ->
    (x ∈ nds -> new_mid ns jid dl x d1 d2) -> (x ∈ ods -> old_mid ns jid dl x d1 d2) -> x ∈ nds ++ ods ->
    rest_mid d d2.
  Proof.
    intros Hxs Hys HP T Hx Hy HN HO Hin. destruct (progr_touch _ _ _ _ _ _ HP T Hx Hy) as (F & N & O & S).
    split; [|split; [|split]].
    - intros k _ Hk. apply F. intros z. rewrite !elem_of_app, elem_of_list_singleton.
      intros [?|[?| ->]]; apply Hk; [apply elem_of_app; auto|apply elem_of_app; auto|done].
    - intros z Hz. destruct (decide (z = x)) as [->|Hne]; [eapply new_mid_l; [done|by apply HN]|].
      destruct (decide (z ∈ xs)) as [Hi|Hi]; [by apply new_fin_mid, N|].
      apply new_mid_refl. eapply frame_same; [done|]. rewrite !elem_of_app, elem_of_list_singleton.
      intros [?|[Hc|?]]; [done| |done]. apply Hys in Hc. by eapply Hdisj.
    - intros z Hz. destruct (decide (z = x)) as [->|Hne]; [eapply old_mid_l; [done|by apply HO]|].
      destruct (decide (z ∈ ys)) as [Hi|Hi]; [by apply O|].
      apply old_mid_refl. eapply frame_same; [done|]. rewrite !elem_of_app, elem_of_list_singleton.
      intros [Hc|[?|?]]; [|done|done]. apply Hxs in Hc. by eapply Hdisj.
    - left. by eapply frame_list.
  Qed.

  Lemma rest_wp (I : world -> Prop) w :
    (forall w', w_loaded w' = w_loaded w -> rest_mid (w_disk w) (w_disk w') -> I w') ->
    wp base I (upd_rest ns jid dl nds ods all) (fun o w' => w_loaded w' = w_loaded w /\
      match o with Val _ => rest_fin (w_disk w) (w_disk w')
      | Exn e => ext_exn e = true \/ exists x, x ∈ ods /\ ~ rec_ok ns jid dl x (w_disk w) end) w.
  Proof using All.
    intros HI. unfold upd_rest.
    assert (progr [] [] (w_disk w) (w_disk w)) as P0.
    { split; [by intros k|]. split; intros x Hx; by apply elem_of_nil in Hx. }
    assert (I w) as HI0 by (apply HI; [done|]; eapply progr_mid; [| |exact P0]; intros x Hx; by apply elem_of_nil in Hx).
    apply wp_bind, wp_order; [done|]. intros nd Pnd.
    assert (forall x, x ∈ nd <-> x ∈ nds) as Mnd by (intros x; by rewrite Pnd).
    assert (NoDup nd) as NDnd by (by rewrite Pnd).
    apply wp_bind.
    apply (wp_for_each _ _ (fun pre w' => w_loaded w' = w_loaded w /\ progr pre [] (w_disk w) (w_disk w'))); [done| |].
    { intros pre x post w1 Hl [L1 P1]. rewrite Hl in NDnd. apply NoDup_app in NDnd as (_ & Hpre & ND2).
      assert (x ∉ pre) as Hxp by (intros Hc; apply Hpre in Hc; apply Hc; left).
      assert (forall y, y ∈ pre -> y ∈ nds) as Hsub by (intros y Hy; rewrite <- Mnd, Hl; apply elem_of_app; auto).
      assert (x ∈ nds) as Hx by (rewrite <- Mnd, Hl; apply elem_of_app; right; left).
      eapply wp_conseq; [apply new_wp|].
      - intros w' L2 T2 M2. apply HI; [congruence|].
        eapply (touch_mid pre []); [done|by intros y Hy; apply elem_of_nil in Hy|done|done|done|apply not_elem_of_nil|done| |apply elem_of_app; auto].
        intros Hc. by destruct (Hdisj x).
      - intros [[]|e] w' (L2 & T2 & HQ).
        + split; [congruence|]. destruct (progr_touch _ _ _ _ _ _ P1 T2 Hxp ltac:(apply not_elem_of_nil)) as (F & N & O & S).
          split; [by rewrite app_nil_r|]. split; [|done]. intros y. rewrite elem_of_app, elem_of_list_singleton.
          intros [?| ->]; [by apply N|done].
        + split; [congruence|]. destruct HQ as [?|[_ Hn]]; [by left|]. destruct (Hlisted _ Hx). congruence. }
    intros w1 [L1 P1].
    assert (forall ys w', w_loaded w' = w_loaded w -> (forall x, x ∈ ys -> x ∈ ods) ->
      progr nd ys (w_disk w) (w_disk w') -> I w') as HIp.
    { intros ys w' L' Hy HP. apply HI; [done|]. eapply progr_mid; [|exact Hy|exact HP]. intros x. by rewrite Mnd. }
    assert (I w1) as HI1 by (eapply HIp; [done| |done]; intros x Hx; by apply elem_of_nil in Hx).
    apply wp_bind, wp_order; [done|]. intros od Pod.
    assert (forall x, x ∈ od <-> x ∈ ods) as Mod by (intros x; by rewrite Pod).
    assert (NoDup od) as NDod by (by rewrite Pod).
    apply wp_bind.
    apply (wp_for_each _ _ (fun pre w' => w_loaded w' = w_loaded w /\ progr nd pre (w_disk w) (w_disk w'))); [done| |].
    { intros pre x post w2 Hl [L2 P2]. rewrite Hl in NDod. apply NoDup_app in NDod as (_ & Hpre & ND2).
      assert (x ∉ pre) as Hxp by (intros Hc; apply Hpre in Hc; apply Hc; left).
      assert (forall y, y ∈ pre -> y ∈ ods) as Hsub by (intros y Hy; rewrite <- Mod, Hl; apply elem_of_app; auto).
      assert (x ∈ ods) as Hx by (rewrite <- Mod, Hl; apply elem_of_app; right; left).
      assert (x ∉ nds) as Hxn by (intros Hc; by destruct (Hdisj x)).
      assert (x ∉ nd) as Hxn' by (by rewrite Mnd).
      eapply wp_conseq; [apply old_wp|].
      - intros w' L3 T3 M3. apply HI; [congruence|].
        eapply (touch_mid nd pre); [intros y; by rewrite Mnd|done|done|done|done|done|done|done|apply elem_of_app; auto].
      - intros [[]|e] w' (L3 & T3 & HQ); (split; [congruence|]).
        + destruct (progr_touch _ _ _ _ _ _ P2 T3 Hxn' Hxp) as (F & N & O & S).
          split; [done|]. split; [done|]. intros y. rewrite elem_of_app, elem_of_list_singleton.
          intros [?| ->]; [by apply O|]. destruct HQ. split; [by eapply old_mid_l|by eapply old_fin_l].
        + destruct HQ as [?|HQ]; [by left|right]. exists x. split; [done|].
          assert (same_dev jid x (w_disk w) (w_disk w2)) as (E1 & E2 & E3).
          { eapply frame_same; [apply P2|]. rewrite elem_of_app. tauto. }
          intros (l & m & o & R1 & R2 & R3 & R4). apply HQ. exists l, m, o. split; [by eapply hk_eq|].
          split; [by eapply hk_eq|]. split; [by eapply hk_eq|done]. }
    intros w2 [L2 P2]. assert (I w2) as HI2 by (eapply HIp; [done| |exact P2]; intros x; by rewrite Mod).
    assert (frame_upd (w_disk w) (w_disk w2)) as F2.
    { intros k _ Hk. apply P2. intros x Hx. apply Hk. rewrite elem_of_app in *. by rewrite <- Mnd, <- Mod. }
    assert (forall x, x ∈ nds -> new_fin ns jid dl x (w_disk w2)) as N2 by (intros x Hx; apply P2; by rewrite Mnd).
    assert (forall x, x ∈ ods -> old_mid ns jid dl x (w_disk w) (w_disk w2) /\ old_fin ns jid dl x (w_disk w) (w_disk w2)) as O2
      by (intros x Hx; apply P2; by rewrite Mod).
    destruct (decide (nds = [])) as [En|En].
    { assert (forall A (a b : A), match nds with [] => a | _ => b end = a) as Hm by (by rewrite En). rewrite Hm.
      apply wp_ret. split; [done|]. split; [done|]. split; [done|]. split; [done|]. rewrite Hm.
      eapply frame_list, P2. }
    assert (forall A (a b : A), match nds with [] => a | _ => b end = b) as Hm by (by destruct nds).
    rewrite Hm. apply wp_bind, wp_order; [done|]. intros l Hl.
    assert (forall x, k_list jid <> k_ns jid x /\ k_list jid <> k_active jid x /\ k_list jid <> k_label jid x) as Kn.
    { intros x. repeat split; kneq. }
    assert (forall v, frame_upd (w_disk w) (<[k_list jid := v]> (w_disk w2))) as F3.
    { intros v k Hk Hk'. rewrite lookup_insert_ne by done. by apply F2. }
    assert (forall v x, same_dev jid x (w_disk w2) (<[k_list jid := v]> (w_disk w2))) as S3.
    { intros v x. destruct (Kn x) as (K1 & K2 & K3). split; [|split]; by rewrite lookup_insert_ne. }
    assert (rest_fin (w_disk w) (<[k_list jid := j_ints l]> (w_disk w2))) as R3.
    { split; [by apply F3|]. split; [intros x Hx; eapply new_fin_r; [apply S3|by apply N2]|].
      split.
      - intros x Hx. destruct (O2 x Hx). split; [by eapply old_mid_r|by eapply old_fin_r].
      - rewrite Hm. exists l. split; [done|]. by rewrite lookup_insert. }
    apply wp_store.
    - intros [[]|e] _; [|eapply HIp; [done| |exact P2]; intros x; by rewrite Mod]. apply HI; [done|]. simpl.
      destruct R3 as (R1 & R2 & R3 & R4). split; [done|]. split; [intros x Hx; by apply new_fin_mid, R2|].
      split; [intros x Hx; by apply R3|]. right. split; [done|]. rewrite Hm in R4. destruct R4 as (l0 & ? & ?). exists l0. done.
    - intros e He. split; [done|auto].
    - split; [done|]. exact R3.
  Qed.
End rest.

Section whole.
  Context (cf : cfg) (ns jid : string) (dl : list (Z * option string)).

  (** The ids on the stored list. *)
  Definition stored_ids (d : gmap string json) (old : list Z) : Prop :=
    match d !! k_list jid with None => old = [] | Some v => is_list is_int v old end.
  (** The list this update works with: this device is added if it is missing on its own account's list. *)
  Definition eff (d : gmap string json) (dl' : list (Z * option string)) : Prop :=
    if decide (jid = c_jid cf /\ dget (c_dev cf) dl = None)
    then exists lab, hlab d jid (c_dev cf) lab /\ dl' = dset (c_dev cf) lab dl
    else dl' = dl.
  Notation nds old := (set_diff (pyset (dkeys dl)) (pyset old)).
  Notation all old := (set_union (pyset (dkeys dl)) (pyset old)).

  Lemma own_wp (I : world -> Prop) w :
    (forall w', w_loaded w' = w_loaded w -> w_disk w' = w_disk w -> I w') -> ns ∈ w_loaded w ->
    wp base I (upd_own cf ns jid dl) (fun o w' => w_loaded w' = w_loaded w /\ w_disk w' = w_disk w /\
      match o with Val dl' => eff (w_disk w) dl'
      | Exn e => ext_exn e = true \/ jid = c_jid cf /\ dget (c_dev cf) dl = None /\ forall o, ~ hlab (w_disk w) jid (c_dev cf) o
      end) w.
  Proof.
    intros HI Hns. unfold upd_own, eff. assert (I w) as HI0 by (by apply HI).
    destruct (decide (jid = c_jid cf)) as [Ej|Ej]; [|by apply wp_ret; rewrite decide_False by tauto].
    apply wp_bind, wp_loaded; [done|]. rewrite bool_decide_eq_true_2 by done.
    assert (dmem (c_dev cf) dl = true <-> dget (c_dev cf) dl <> None) as Hd.
    { unfold dmem. rewrite bool_decide_eq_true. split; [by intros [? ->]|]. destruct (dget _ _); [by eexists|done]. }
    destruct (dmem (c_dev cf) dl); simpl.
    { apply wp_ret. rewrite decide_False; [done|]. intros [_ Hc]. by apply Hd. }
    assert (dget (c_dev cf) dl = None) as Hn.
    { destruct (dget (c_dev cf) dl); [|done]. assert (false = true) by (by apply Hd). done. }
    destruct (decide (jid = c_jid cf /\ dget (c_dev cf) dl = None)) as [_|Hc]; [|destruct Hc; done]. rewrite <- Ej.
    apply wp_bind. apply (wp_typed _ _ _ _ _ _ good_label); [done|by auto| | |].
    { intros Hl. apply wp_bind, wp_from_just; [|done]. intros _. split; [done|]. split; [done|]. right.
      split; [done|]. split; [done|]. intros o (v & H & _). congruence. }
    2:{ intros v Hv Hno. split; [done|]. split; [done|]. right. split; [done|]. split; [done|].
        intros o (v' & H & H'). rewrite Hv in H. injection H as <-. by eapply Hno. }
    intros v o Hv Ho. apply wp_bind, wp_from_just; [done|]. intros ? [= <-].
    apply wp_bind. apply wp_step. intros r Hr. split; [by apply HI|]. apply wp_of_outcome.
    destruct r as [[]|e]; [|by auto]. apply wp_ret. split; [done|]. split; [done|]. exists o. split; [by exists v|done].
  Qed.

  (** Exceptions of an update. *)
  Definition upd_exn (w : world) (e : exn) : Prop :=
    ext_exn e = true \/ (e = EUnknownNamespace /\ ns ∉ w_loaded w) \/
    (forall old, ~ stored_ids (w_disk w) old) \/
    (jid = c_jid cf /\ dget (c_dev cf) dl = None /\ forall o, ~ hlab (w_disk w) jid (c_dev cf) o) \/
    (exists old dl' x, stored_ids (w_disk w) old /\ eff (w_disk w) dl' /\ x ∈ old /\ ~ rec_ok ns jid dl' x (w_disk w)).

  Lemma dget_dkeys {V} (x : Z) (l : list (Z * V)) : x ∈ dkeys l <-> is_Some (dget x l).
  Proof.
    induction l as [|[y v] l IH]; simpl.
    - rewrite elem_of_nil. split; [done|by intros []].
    - rewrite elem_of_cons. destruct (decide (x = y)) as [->|]; [|naive_solver]. split; [by eexists|by left].
  Qed.

  Lemma update_wp (I : world -> Prop) w :
    (forall w', w_loaded w' = w_loaded w -> w_disk w' = w_disk w -> I w') ->
    (forall w' old dl', w_loaded w' = w_loaded w -> stored_ids (w_disk w) old -> eff (w_disk w) dl' ->
       rest_mid ns jid dl' (nds old) (pyset old) (all old) (w_disk w) (w_disk w') -> I w') ->
    wp base I (update_device_list cf ns jid dl) (fun o w' => w_loaded w' = w_loaded w /\
      match o with
      | Val _ => ns ∈ w_loaded w /\ exists old dl', stored_ids (w_disk w) old /\ eff (w_disk w) dl' /\
          rest_fin ns jid dl' (nds old) (pyset old) (all old) (w_disk w) (w_disk w')
      | Exn e => upd_exn w e
      end) w.
  Proof.
    intros HI1 HI2. unfold update_device_list. assert (I w) as HI0 by (by apply HI1).
    apply wp_bind, wp_loaded; [done|]. destruct (decide (ns ∈ w_loaded w)) as [Hns|Hns].
    2:{ apply wp_raise. split; [done|]. right; left. done. }
    cbv zeta. apply wp_bind.
    assert (forall old, stored_ids (w_disk w) old ->
      wp base I (dl' <- upd_own cf ns jid dl ;; upd_rest ns jid dl' (nds old) (pyset old) (all old))
      (fun o w' => w_loaded w' = w_loaded w /\
      match o with
      | Val _ => ns ∈ w_loaded w /\ exists old dl', stored_ids (w_disk w) old /\ eff (w_disk w) dl' /\
          rest_fin ns jid dl' (nds old) (pyset old) (all old) (w_disk w) (w_disk w')
      | Exn e => upd_exn w e
      end) w) as Hgo.
    { intros old Hold. apply wp_bind. eapply wp_conseq; [apply own_wp; [exact HI1|done]|].
      intros [dl'|e] w1 (L1 & D1 & H1).
      2:{ split; [done|]. destruct H1 as [H1|H1]; [by left|]. right; right; right; by left. }
      rewrite <- D1 in *. eapply wp_conseq; [apply rest_wp|].
      - apply NoDup_filter, NoDup_remove_dups.
      - apply NoDup_remove_dups.
      - intros x Hx. by apply elem_of_list_filter in Hx as [? _].
      - intros x Hx. apply elem_of_list_filter in Hx as [_ Hx]. unfold pyset in Hx. rewrite elem_of_remove_dups in Hx.
        apply dget_dkeys in Hx. unfold eff in H1. destruct (decide _) in H1; [|by subst].
        destruct H1 as (lab & _ & ->). rewrite dget_dset'. destruct (decide _); [by eexists|done].
      - intros w' L' M'. by eapply HI2; [congruence|done|done|].
      - intros [[]|e] w' (L' & H'); (split; [congruence|]).
        + split; [done|]. exists old, dl'. done.
        + destruct H' as [H'|(x & Hx & H')]; [by left|]. unfold upd_exn. try rewrite <- D1. do 4 right. exists old, dl', x.
          split; [done|]. split; [done|]. split; [|done]. unfold pyset in Hx. by rewrite elem_of_remove_dups in Hx. }
    apply (wp_typed _ _ _ _ _ _ good_ints); [done|by split; [|left]| | |].
    - intros Hn. apply (Hgo []). unfold stored_ids. by rewrite Hn.
    - intros v a Hv Ha. apply (Hgo a). unfold stored_ids. by rewrite Hv.
    - intros v Hv Hn. split; [done|]. right; right; left. intros old Ho. unfold stored_ids in Ho. rewrite Hv in Ho. by eapply Hn.
  Qed.
End whole.
