(** Selection of the recipients of encrypt, and the instances of the phases of encrypt. *)
From Verif Require Import Api Spec Alone PfWp PfFrame PfHist PfEmits PfInfo PfExec PfLog PfAlone PfEncrypt.
Open Scope prog_scope.
Open Scope list_scope.

(** ** The shape of what get_device_information returns *)
Definition of_device (P : world -> forall c, resp c -> Prop) (b : bundle) (d : device) : Prop :=
  b_ik b = dv_ik d /\ exists ns, answer P (NDownloadBundle ns (dv_jid d) (dv_id d)) (Val b).
Definition shape (P : world -> forall c, resp c -> Prop) (j : string) (t : list device * list bundle) : Prop :=
  Forall (fun d => dv_jid d = j) t.1 /\ NoDup (dv_id <$> t.1) /\ forall b, b ∈ t.2 -> exists d, d ∈ t.1 /\ of_device P b d.
Section info.
  Context {W : Type} (S : @sem cmd resp W) (lg : W -> list event) {D : Type} (dk : W -> D)
    (P : world -> forall c, resp c -> Prop) (HS : logged S lg dk P).
  Context (cf : cfg).
  Context (okx : exn -> Prop) (Hx : forall c r e, answer P c r -> resp_exn c r = Some e -> okx e \/ no_bundle c e)
    (Hint : okx EKeyError /\ okx ETypeError /\ okx ENothing /\ okx EBinascii).
  Notation ob := (obeys (answer P) (fun _ => True)).
  Notation xq := (xq okx).

  Lemma xq_load {A} (check : json -> outcome A) k (Q : outcome (option A) -> Prop) :
    (forall v e, check v = Exn e -> okx e) -> (forall a, Q (Val a)) -> (forall e, okx e -> Q (Exn e)) -> ob Q (load_checked check k).
  Proof.
    intros Hc HV HE. unfold load_checked, s_load. apply obeys_bind.
    split; [done|]. intros r Hr. destruct r as [[v|]|e]; simpl; [|apply HV|apply HE; by destruct (Hx _ _ _ Hr eq_refl)].
    destruct (check v) as [a|e] eqn:Ec; simpl; [apply HV|]. apply HE. by eapply Hc.
  Qed.
  Lemma xq_just {A} (o : option A) (Q : outcome A -> Prop) : (forall a, Q (Val a)) -> (forall e, okx e -> Q (Exn e)) -> ob Q (from_just o).
  Proof. intros HV HE. destruct o; [apply HV|]. apply HE, Hint. Qed.
  Ltac chk := let v := fresh in let e := fresh in intros v e; unfold or_type_error; repeat case_match; intros; simplify_eq; tauto.
  Ltac xqe x := unw; match goal with |- obeys _ _ _ (Step ?c _) => apply (xq_ext P okx Hx c (fun r => r)); [by intros ? []|by intros ? ? ->|intros x|done] end.

  Lemma find_key_x jid dev l : ob (fun o => match o with
      | Val (Some b) => exists ns, answer P (NDownloadBundle ns jid dev) (Val b) | Val None => True | Exn e => okx e end) (find_key jid dev l).
  Proof.
    induction l as [|ns l IH]; cbn [find_key]; [done|]. apply obeys_bind, obeys_try. unw.
    split; [done|]. intros [b|e] Hr.
    - cbn beta iota. apply obeys_bind. xqe u. cbn. eauto.
    - destruct (Hx _ _ _ Hr eq_refl) as [He|[->| ->]]; [destruct e; done|done|done].
  Qed.
  Lemma rest_x jid dev nss ik : ob (fun o => match o with Val d => dv_jid d = jid /\ dv_id d = dev /\ dv_ik d = ik | Exn e => okx e end)
    (dev_info_rest cf jid dev nss ik).
  Proof.
    unfold dev_info_rest. apply obeys_bind, xq_load; [chk| |done]. intros m. apply obeys_bind, xq_just; [|done].
    intros act. apply obeys_bind, xq_load; [chk| |done]. intros m'. apply obeys_bind, xq_just; [|done]. intros lab.
    apply obeys_bind, xq_load; [chk| |done]. intros m''. cbv zeta. apply obeys_bind. destruct (forallb _ nss); [done|].
    apply obeys_bind, xq_order. intros l. apply obeys_bind. by xqe u.
  Qed.
  Lemma dev_info_x jid acc dev :
    ob (fun o => match o with
        | Val r => r = acc \/ exists d bs, r = (acc.1 ++ [d], acc.2 ++ bs) /\ dv_jid d = jid /\ dv_id d = dev /\ (forall b, b ∈ bs -> of_device P b d)
        | Exn e => okx e end) (dev_info cf jid acc dev).
  Proof.
    unfold dev_info. apply obeys_bind, xq_load; [chk| |done]. intros m. apply obeys_bind, xq_just; [|done]. intros l. cbv zeta.
    apply obeys_bind, xq_load; [chk| |done]. intros [ik|].
    - apply obeys_bind. eapply obeys_conseq; [apply rest_x|]. intros [d|e]; [|done]. intros (H1 & H2 & H3). right. exists d, []. split; [by rewrite app_nil_r|]. split; [done|]. split; [done|]. by intros b ?%elem_of_nil.
    - apply obeys_bind, xq_order. intros nso. apply obeys_bind. eapply obeys_conseq; [apply find_key_x|].
      intros [[b|]|e]; [|by left|done]. intros [ns Hb]. apply obeys_bind. eapply obeys_conseq; [apply rest_x|].
      intros [d|e]; [|done]. intros (H1 & H2 & H3). right. exists d, [b]. split; [done|]. split; [done|]. split; [done|].
      intros b' ->%elem_of_list_singleton. split; [done|]. exists ns. by rewrite H1, H2.
  Qed.
  Lemma info_shape j s : wp S (fun _ => True) (get_device_information_ cf j)
    (fun o _ => match o with Val r => shape P j r | Exn e => okx e end) s.
  Proof.
    unfold get_device_information_. apply wp_bind.
    eapply wp_conseq; [apply (obeys_wp S lg dk P HS xq); apply xq_load; [chk|done|done]|].
    intros [m|e] s1; [|done]. intros _. apply wp_bind. eapply (gwp_order S lg dk P HS). intros l s2 Hl _. split; [done|].
    assert (NoDup l) as Hnd by (rewrite Hl; apply NoDup_remove_dups).
    eapply wp_fold_prog with (L := fun pre acc _ => shape P j acc /\ dv_id <$> acc.1 ⊆ pre).
    - split; [|done]. split; [constructor|]. split; [constructor|]. by intros b ?%elem_of_nil.
    - intros pre x post acc s3 El [(H1 & H2 & H4) H3].
      eapply wp_conseq; [apply (obeys_wp S lg dk P HS), dev_info_x|]. intros [r|e] s4; [|done].
      assert (x ∉ pre) as Hnew.
      { subst l. apply NoDup_app in Hnd as (_ & Hd & _). intros Hin. apply (Hd x Hin). left. }
      intros [->|(d & bs & -> & Hj & Hi & Hb)].
      + split; [done|]. intros y Hy. apply elem_of_app. left. auto.
      + split.
        * split; [|split]; simpl.
          -- apply Forall_app. split; [done|by constructor].
          -- rewrite fmap_app. apply NoDup_app. split; [done|]. split; [|apply NoDup_singleton].
             intros y Hy Hy'. apply elem_of_list_singleton in Hy'. simpl in Hy'. rewrite Hi in Hy'. subst y. auto.
          -- intros b [Hb'|Hb']%elem_of_app.
             ++ destruct (H4 b Hb') as (d' & Hd' & Hof). exists d'. split; [apply elem_of_app; by left|done].
             ++ exists d. split; [apply elem_of_app; right; left|auto].
        * simpl. rewrite fmap_app. intros y [Hy|Hy]%elem_of_app; apply elem_of_app; [left; auto|right].
          apply elem_of_list_singleton in Hy as ->. simpl. rewrite Hi. left.
    - intros acc s3 [H _]. exact H.
  Qed.
  Lemma infos_shape js s : wp S (fun _ => True) (map_prog (get_device_information_ cf) js)
    (fun o _ => match o with Val tmp => Forall2 (shape P) js tmp | Exn e => okx e end) s.
  Proof.
    revert s. induction js as [|j js IH]; intros s; cbn [map_prog]; [by apply wp_ret', Forall2_nil|]. apply wp_bind.
    eapply wp_conseq; [apply info_shape|]. intros [t|e] s1 H1; [|done]. apply wp_bind.
    eapply wp_conseq; [apply IH|]. intros [tmp|e] s2 H2; [|done]. by constructor.
  Qed.
End info.
Definition pre_info (e : event) : Prop := exists j, ev_info j e.
Lemma em_infos cf js : em pre_info (map_prog (get_device_information_ cf) js).
Proof. apply em_map. intros j _. eapply em_mono; [apply em_info_|by eexists|done]. Qed.

(** ** Selection *)
Lemma sublist_elem {A} (l k : list A) x : l `sublist_of` k -> x ∈ l -> x ∈ k.
Proof.
  intros Hs. induction Hs as [|y l k Hs IH|y l k Hs IH]; [done| |]; intros H; [|right; auto].
  apply elem_of_cons in H as [->|H]; [left|right; auto].
Qed.
Lemma sublist_nodup {A} (l k : list A) : NoDup k -> l `sublist_of` k -> NoDup l.
Proof.
  intros H Hs. induction Hs as [|x l k Hs IH|x l k Hs IH]; [done| |].
  - apply NoDup_cons in H as [H1 H2]. apply NoDup_cons. split; [|auto]. intros Hin. apply H1. by eapply sublist_elem.
  - apply NoDup_cons in H as [_ H]. auto.
Qed.
Lemma filter_sublist {A} (P : A -> Prop) `{!forall x, Decision (P x)} l : filter P l `sublist_of` l.
Proof.
  induction l as [|x l IH]; [constructor|]. rewrite filter_cons. destruct (decide (P x)); [by apply sublist_skip|by apply sublist_cons].
Qed.
(** the namespace can be used for the device *)
Definition usable (d : device) (ns : string) : Prop := ns ∈ dv_namespaces d /\ dget ns (dv_active d) = Some true.
(** the first usable namespace in the priority order *)
Definition first_usable (prio : list string) (d : device) (ns : string) : Prop :=
  usable d ns /\ exists l1 l2, prio = l1 ++ ns :: l2 /\ forall n, n ∈ l1 -> ~ usable d n.
Definition use_ns (d : device) (ns : string) : device :=
  Device [ns] (dv_active d) (dv_jid d) (dv_id d) (dv_ik d) (dv_trust d) (dv_label d).

Lemma first_usable_fun prio d ns ns' : first_usable prio d ns -> first_usable prio d ns' -> ns' = ns.
Proof.
  intros (Hu & l1 & l2 & E & Hl) (Hu' & k1 & k2 & E' & Hk). rewrite E in E'. clear E. revert k1 E' Hk Hl.
  induction l1 as [|x l1 IH]; intros [|y k1] E' Hk Hl; simpl in E'.
  - by injection E'.
  - injection E' as -> _. exfalso. apply (Hk y); [left|done].
  - injection E' as -> _. exfalso. apply (Hl ns'); [left|done].
  - injection E' as -> E'. apply (IH k1 E'); intros n Hn; [apply Hk|apply Hl]; by right.
Qed.
Lemma active_spec act nss a : active_namespaces act nss = Some a -> forall n, n ∈ a <-> n ∈ nss /\ dget n act = Some true.
Proof.
  revert a. induction nss as [|ns nss IH]; intros a; simpl.
  - intros [= <-] n. rewrite elem_of_nil. tauto.
  - destruct (dget ns act) as [b|] eqn:Eb; [|done]. simpl. destruct (active_namespaces act nss) as [r|] eqn:Er; [|done]. simpl.
    intros [= <-] n. destruct b; rewrite !elem_of_cons, ?(IH r) by done; [|].
    + split; [intros [->|H]; tauto|]. intros [[->|H] H']; tauto.
    + split; [tauto|]. intros [[->|H] H']; [congruence|tauto].
Qed.
Lemma insert_by_perm f x l : insert_by f x l ≡ₚ x :: l.
Proof.
  induction l as [|y l IH]; simpl; [done|]. destruct (_ <=? _)%nat; [|done]. rewrite IH. apply perm_swap.
Qed.
Lemma sort_by_perm f l : sort_by f l ≡ₚ l.
Proof.
  unfold sort_by. assert (fold_right (insert_by f) [] (rev l) ≡ₚ rev l) as H.
  { generalize (rev l). intros k. induction k as [|x k IH]; simpl; [done|]. rewrite insert_by_perm. by apply perm_skip. }
  rewrite H. symmetry. apply Permutation_rev.
Qed.
Lemma insert_by_head f x l y l' : insert_by f x l = y :: l' ->
  (forall z l'', l = z :: l'' -> forall u, u ∈ l -> (f z <= f u)%nat) -> forall u, u ∈ y :: l' -> (f y <= f u)%nat.
Proof.
  intros E Hl u Hu. rewrite <- E in Hu. rewrite insert_by_perm in Hu. destruct l as [|z l]; simpl in E.
  - injection E as <- <-. apply elem_of_cons in Hu as [->|Hu]; [done|]. by apply elem_of_nil in Hu.
  - specialize (Hl z l eq_refl). destruct (f z <=? f x)%nat eqn:Ez.
    + injection E as <- <-. apply Nat.leb_le in Ez. apply elem_of_cons in Hu as [->|Hu]; [done|]. by apply Hl.
    + injection E as <- <-. apply Nat.leb_gt in Ez. apply elem_of_cons in Hu as [->|Hu]; [done|]. specialize (Hl u Hu). lia.
Qed.
Lemma sort_by_head f l y l' : sort_by f l = y :: l' -> y ∈ l /\ forall u, u ∈ l -> (f y <= f u)%nat.
Proof.
  intros E. split; [rewrite <- (sort_by_perm f l), E; left|]. intros u Hu. rewrite <- (sort_by_perm f l), E in Hu.
  unfold sort_by in E. revert y l' E u Hu. generalize (rev l) as k. intros k.
  induction k as [|x k IH]; intros y l' E u Hu; [done|]. simpl in E. eapply insert_by_head; [exact E| |exact Hu].
  intros z l'' Ez v Hv. rewrite Ez in Hv. by eapply IH.
Qed.
Lemma index_split prio ns : ns ∈ prio -> exists l1 l2, prio = l1 ++ ns :: l2 /\ forall n, n ∈ l1 -> (index_of prio n < index_of prio ns)%nat.
Proof.
  induction prio as [|x prio IH]; intros Hin; [by apply elem_of_nil in Hin|]. simpl. destruct (decide (ns = x)) as [->|Hne].
  - exists [], prio. split; [done|]. by intros n ?%elem_of_nil.
  - apply elem_of_cons in Hin as [->|Hin]; [done|]. destruct (IH Hin) as (l1 & l2 & -> & H). exists (x :: l1), l2. split; [done|].
    intros n [->|Hn]%elem_of_cons; [rewrite decide_True by done; lia|]. destruct (decide (n = x)); [lia|]. specialize (H n Hn). lia.
Qed.
Lemma apply_priority_spec prio d d' : apply_priority prio d = Some d' ->
  (exists ns, first_usable prio d ns /\ d' = use_ns d ns) \/
  (dv_namespaces d' = [] /\ forall ns, ns ∈ prio -> ~ usable d ns).
Proof.
  unfold apply_priority. destruct (active_namespaces (dv_active d) (dv_namespaces d)) as [a|] eqn:Ea; [|done]. simpl. intros [= <-].
  pose proof (active_spec _ _ _ Ea) as Ha.
  destruct (sort_by (index_of prio) (filter (fun ns => ns ∈ prio) a)) as [|ns l] eqn:Es.
  - right. split; [done|]. intros ns Hp Hu. assert (ns ∈ filter (fun ns => ns ∈ prio) a) as H.
    { apply elem_of_list_filter. split; [done|]. by apply Ha. }
    rewrite <- (sort_by_perm (index_of prio)), Es in H. by apply elem_of_nil in H.
  - left. apply sort_by_head in Es as [Hin Hmin]. apply elem_of_list_filter in Hin as [Hp Hin]. exists ns. split; [|done].
    split; [by apply Ha|]. destruct (index_split prio ns Hp) as (l1 & l2 & E & Hl). exists l1, l2. split; [done|]. intros n Hn Hu.
    assert (n ∈ prio) as Hnp by (rewrite E; apply elem_of_app; by left). specialize (Hl n Hn).
    assert (index_of prio ns <= index_of prio n)%nat; [|lia]. apply Hmin. apply elem_of_list_filter. split; [done|]. by apply Ha.
Qed.
Section sel.
  Context (cf : cfg).
  Definition is_own (d : device) : Prop := dv_jid d = c_jid cf /\ dv_id d = c_dev cf.
  Lemma valid_spec prio l v : valid_recipients cf prio l = Some v ->
    v `sublist_of` l /\ (forall d, d ∈ v <-> d ∈ l /\ ~ is_own d /\ exists ns, ns ∈ prio /\ usable d ns).
  Proof.
    revert v. induction l as [|d l IH]; intros v; simpl.
    - intros [= <-]. split; [constructor|]. intros d. rewrite elem_of_nil. tauto.
    - destruct (is_valid_recipient cf prio d) as [b|] eqn:Eb; [|done]. simpl.
      destruct (valid_recipients cf prio l) as [r|] eqn:Er; [|done]. simpl. intros [= <-].
      destruct (IH r eq_refl) as [Hs Hr].
      assert (b = true <-> ~ is_own d /\ exists ns, ns ∈ prio /\ usable d ns) as Hb.
      { unfold is_valid_recipient in Eb. destruct (bool_decide (dv_jid d = c_jid cf) && bool_decide (dv_id d = c_dev cf)) eqn:Eo.
        - injection Eb as <-. apply andb_true_iff in Eo as [E1%bool_decide_eq_true E2%bool_decide_eq_true]. split; [done|].
          intros [H _]. exfalso. by apply H.
        - destruct (active_namespaces (dv_active d) (dv_namespaces d)) as [a|] eqn:Ea; [|done]. simpl in Eb. injection Eb as <-.
          rewrite bool_decide_eq_true. pose proof (active_spec _ _ _ Ea) as Ha. split.
          + intros Hne. split.
            * intros [E1 E2]. rewrite !bool_decide_eq_true_2 in Eo by done. done.
            * destruct (set_inter a prio) as [|ns k] eqn:Ek; [done|]. exists ns.
              assert (ns ∈ set_inter a prio) as H by (rewrite Ek; left). apply elem_of_list_filter in H as [H1 H2]. split; [done|]. by apply Ha.
          + intros [_ (ns & Hp & Hu)] E. assert (ns ∈ set_inter a prio) as H; [|rewrite E in H; by apply elem_of_nil in H].
            apply elem_of_list_filter. split; [done|]. by apply Ha. }
      destruct b.
      + split; [by apply sublist_skip|]. intros d'. rewrite !elem_of_cons, Hr. split; [|tauto].
        intros [->|H]; [|tauto]. split; [by left|]. by apply Hb.
      + split; [by apply sublist_cons|]. intros d'. rewrite elem_of_cons, Hr. split; [tauto|]. intros [[->|H] H']; [|tauto].
        apply Hb in H'. done.
  Qed.
  Lemma mapM_forall2 {A B} (f : A -> option B) l k : mapM f l = Some k -> Forall2 (fun x y => f x = Some y) l k.
  Proof. apply mapM_Some. Qed.

  Lemma shape_keys P js tmp : Forall2 (shape P) js tmp -> NoDup js ->
    NoDup (dkey <$> concat (map fst tmp)) /\ Forall (fun d => dv_jid d ∈ js) (concat (map fst tmp)).
  Proof.
    intros Hsh Hnd. induction Hsh as [|j t js tmp (H1 & H2 & _) _ IH]; [split; constructor|]. apply NoDup_cons in Hnd as [Hj Hnd].
      destruct (IH Hnd) as [I1 I2]. simpl. rewrite fmap_app. split.
      - apply NoDup_app. split; [|split; [|done]].
        + clear -H1 H2. destruct t as [l0 bs]. cbn [fst] in *. induction l0 as [|d l IH]; [constructor|]. rewrite fmap_cons. rewrite fmap_cons in H2. apply NoDup_cons in H2 as [H2 H3].
          apply Forall_cons in H1 as [H1 H4]. apply NoDup_cons. split; [|by apply IH]. intros (d' & E & Hd')%elem_of_list_fmap.
          apply H2. apply elem_of_list_fmap. exists d'. split; [|done]. by injection E.
        + intros k (d & -> & Hd)%elem_of_list_fmap (d' & E & Hd')%elem_of_list_fmap. rewrite Forall_forall in H1, I2.
          apply H1 in Hd. apply I2 in Hd'. injection E as E1 E2. congruence.
      - apply Forall_app. split; (eapply Forall_impl; [eassumption|]); simpl; intros d Hd; [subst; left|by right].
  Qed.
  (** a cached bundle has the key of the device it was downloaded for *)
  Lemma cached_key (P : world -> forall c, resp c -> Prop) js tmp b d : (forall w c r, P w c r -> downloads_named w c r) ->
    Forall2 (shape P) js tmp -> NoDup js -> b ∈ concat (map snd tmp) -> d ∈ concat (map fst tmp) ->
    b_jid b = dv_jid d -> b_dev b = dv_id d -> b_ik b = dv_ik d.
  Proof.
    intros HN Hsh Hnd Hb Hd E1 E2. destruct (shape_keys P js tmp Hsh Hnd) as [Hk _].
    assert (exists d', d' ∈ concat (map fst tmp) /\ of_device P b d') as (d' & Hd' & Eik & ns & w & _ & HPb).
    { clear -Hsh Hb. induction Hsh as [|j t js tmp (_ & _ & H) _ IH]; simpl in *; [by apply elem_of_nil in Hb|].
      apply elem_of_app in Hb as [Hb|Hb].
      - destruct (H b Hb) as (d & Hd & Ho). exists d. split; [apply elem_of_app; by left|done].
      - destruct (IH Hb) as (d & Hd & Ho). exists d. split; [apply elem_of_app; by right|done]. }
    destruct (HN _ _ _ HPb) as (_ & F1 & F2). assert (dkey d = dkey d') as Ek by (unfold dkey; congruence).
    apply elem_of_list_lookup in Hd as [i Hi]. apply elem_of_list_lookup in Hd' as [i' Hi'].
    assert (i = i') as <-; [|congruence].
    eapply (NoDup_lookup (dkey <$> concat (map fst tmp)) i i' (dkey d)); [done| |]; rewrite list_lookup_fmap, ?Hi, ?Hi'; simpl; by f_equal.
  Qed.

  (** what the selection is: exactly the devices with a usable namespace, except ourselves *)
  Lemma selected_spec P js prio tmp devs : Forall2 (shape P) js tmp -> NoDup js -> selected cf prio tmp devs ->
    NoDup (dkey <$> devs) /\
    (forall d, d ∈ devs -> dv_jid d ∈ js /\ exists d0 ns, d0 ∈ concat (map fst tmp) /\ ~ is_own d0 /\ first_usable prio d0 ns /\ d = use_ns d0 ns) /\
    (forall d0 ns, d0 ∈ concat (map fst tmp) -> ~ is_own d0 -> first_usable prio d0 ns -> use_ns d0 ns ∈ devs).
  Proof.
    intros Hsh Hnd (v & a & Ev & Ea & ->). apply valid_spec in Ev as [Hsub Hv]. apply mapM_forall2 in Ea.
    assert (dkey <$> a = dkey <$> v) as Ek.
    { clear -Ea. induction Ea as [|x y v a Hxy _ IH]; [done|]. rewrite !fmap_cons, IH. f_equal.
      apply apply_priority_spec in Hxy as Hxy'. unfold apply_priority in Hxy. destruct (active_namespaces _ _); [|done].
      simpl in Hxy. by injection Hxy as <-. }
    assert (NoDup (dkey <$> concat (map fst tmp)) /\ Forall (fun d => dv_jid d ∈ js) (concat (map fst tmp))) as [HN HF].
    { by eapply shape_keys. }
    assert (NoDup (dkey <$> v)) as HNv.
    { eapply (sublist_nodup _ (dkey <$> concat (map fst tmp))); [done|]. by apply fmap_sublist. }
    split; [|split].
    - rewrite <- Ek in HNv. eapply (sublist_nodup _ (dkey <$> a)); [done|]. apply fmap_sublist, filter_sublist.
    - intros d [Hne Hd]%elem_of_list_filter. apply elem_of_list_lookup in Hd as [i Hi].
      destruct (Forall2_lookup_r _ _ _ _ _ Ea Hi) as (d0 & Hi0 & Hp). apply apply_priority_spec in Hp as [(ns & Hf & ->)|[H _]]; [|done].
      assert (d0 ∈ v) as Hd0 by (by eapply elem_of_list_lookup_2). apply Hv in Hd0 as (Hd0 & Hown & _).
      rewrite Forall_forall in HF. split; [apply (HF d0 Hd0)|]. by exists d0, ns.
    - intros d0 ns Hd0 Hown Hf. assert (d0 ∈ v) as Hin.
      { apply Hv. split; [done|]. split; [done|]. exists ns. destruct Hf as (Hu & l1 & l2 & -> & _). split; [|done]. apply elem_of_app. right. left. }
      apply elem_of_list_lookup in Hin as [i Hi]. destruct (Forall2_lookup_l _ _ _ _ _ Ea Hi) as (d & Hid & Hp).
      apply apply_priority_spec in Hp as [(ns' & Hf' & ->)|[_ H]].
      + assert (ns' = ns) as ->; [|apply elem_of_list_filter; split; [done|by eapply elem_of_list_lookup_2]].
        by eapply first_usable_fun.
      + exfalso. destruct Hf as (Hu & l1 & l2 & -> & _). apply (H ns); [|done]. apply elem_of_app. right. left.
  Qed.
End sel.
