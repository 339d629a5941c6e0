(** C21-C24, C28, C29: device list updates in terms of the specification. *)
From Verif Require Import Api Spec Env PfTyped PfWp PfHist PfEmits PfUpdate.
Open Scope prog_scope.
Open Scope list_scope.

(** ** Readings *)
Lemma known_ids d j x old : stored_ids j d old -> (known d j x <-> x ∈ old).
Proof.
  unfold stored_ids, known, holds. change (item_key (IDeviceList j)) with (k_list j).
  destruct (d !! k_list j) as [v|] eqn:Ev; intros H; split.
  - intros (zs & (v' & H1 & H2) & Hx). injection H1 as <-. by rewrite (is_list_fun _ _ _ _ is_int_fun H H2).
  - intros Hx. exists old. split; [by exists v|done].
  - by intros (zs & (v' & H1 & H2) & Hx).
  - subst old. by intros Hx%elem_of_nil.
Qed.
Lemma known_ids_ex d j x : known d j x -> exists old, stored_ids j d old /\ x ∈ old.
Proof.
  intros (zs & (v & H1 & H2) & Hx). change (d !! k_list j = Some v) in H1. exists zs. split; [|done].
  unfold stored_ids. by rewrite H1.
Qed.
Lemma supports_ns d j x l n : hns d j x l -> (supports d j x n <-> n ∈ l).
Proof.
  intros H. split; [|intros Hn; by exists l]. intros (l' & H' & Hn).
  by rewrite (hns_fun _ _ _ _ _ H H').
Qed.
Lemma activity_act d j x m n b : hact d j x m -> (activity d j x n b <-> dget n m = Some b).
Proof.
  intros H. split; [|intros Hn; by exists m]. intros (l' & H' & Hn).
  by rewrite (hact_fun _ _ _ _ _ H H').
Qed.
Lemma labelled_lab d j x o o' : hlab d j x o -> (labelled d j x o' <-> o' = o).
Proof. intros H. split; [intros H'; by eapply hlab_fun|intros ->; done]. Qed.
Lemma hns_new d j x l : d !! k_ns j x = Some (j_strs l) -> hns d j x l.
Proof. intros H. exists (j_strs l). split; [done|apply is_strs]. Qed.
Lemma hact_new d j x l : d !! k_active j x = Some (j_bools l) -> hact d j x l.
Proof. intros H. exists (j_bools l). split; [done|apply is_bools]. Qed.
Lemma hlab_new d j x l : d !! k_label j x = Some (j_opt l) -> hlab d j x l.
Proof. intros H. exists (j_opt l). split; [done|apply is_label]. Qed.
Lemma hlist_new d j l : d !! k_list j = Some (j_ints l) -> hlist d j l.
Proof. intros H. exists (j_ints l). split; [done|apply is_ints]. Qed.

Lemma elem_pyset {A} `{EqDecision A} (x : A) l : x ∈ pyset l <-> x ∈ l.
Proof. apply elem_of_remove_dups. Qed.
Lemma elem_diff {A} `{EqDecision A} (x : A) l1 l2 : x ∈ set_diff l1 l2 <-> x ∈ l1 /\ x ∉ l2.
Proof. unfold set_diff. rewrite elem_of_list_filter. tauto. Qed.
Lemma elem_union {A} `{EqDecision A} (x : A) l1 l2 : x ∈ set_union l1 l2 <-> x ∈ l1 \/ x ∈ l2.
Proof. unfold set_union. rewrite elem_of_app, elem_diff. destruct (decide (x ∈ l1)); tauto. Qed.

(** The effective list agrees with the given one. *)
Lemma eff_listed cf jid dl d dl' x lab : eff cf jid dl d dl' -> dget x dl = Some lab -> dget x dl' = Some lab.
Proof.
  unfold eff. destruct (decide _) as [[-> H]|]; [|by intros ->]. intros (o & _ & ->) Hx.
  rewrite dget_dset'. destruct (decide _); congruence.
Qed.
Lemma eff_missing cf jid dl d dl' x : eff cf jid dl d dl' -> dget x dl = None ->
  (dget x dl' = None /\ ~ (jid = c_jid cf /\ x = c_dev cf)) \/
  (jid = c_jid cf /\ x = c_dev cf /\ exists o, dget x dl' = Some o /\ hlab d jid x o).
Proof.
  unfold eff. destruct (decide _) as [[-> H]|Hn].
  - intros (o & Ho & ->) Hx. rewrite dget_dset'. destruct (decide (x = c_dev cf)) as [->|]; [right|left; naive_solver].
    split; [done|]. split; [done|]. by exists o.
  - intros -> Hx. left. split; [done|]. intros [-> ->]. tauto.
Qed.

Section dev.
  Context (cf : cfg) (ns jid : string) (dl : list (Z * option string)).
  Notation nds old := (set_diff (pyset (dkeys dl)) (pyset old)).
  Notation all old := (set_union (pyset (dkeys dl)) (pyset old)).
  Notation upd := (update_device_list cf ns jid dl).

  Lemma update_val w w' : exec base upd w (Val tt) w' ->
    ns ∈ w_loaded w /\ exists old dl', stored_ids jid (w_disk w) old /\ eff cf jid dl (w_disk w) dl' /\
      rest_fin ns jid dl' (nds old) (pyset old) (all old) (w_disk w) (w_disk w').
  Proof.
    intros H. eapply (wp_exec base (fun _ => True)) in H; [|by apply update_wp]. by destruct H.
  Qed.
  Lemma update_reach w w' : reach base upd w w' ->
    w_loaded w' = w_loaded w /\
    (w_disk w' = w_disk w \/ exists old dl', stored_ids jid (w_disk w) old /\ eff cf jid dl (w_disk w) dl' /\
      rest_mid ns jid dl' (nds old) (pyset old) (all old) (w_disk w) (w_disk w')).
  Proof.
    intros H. revert H. by_reach; [eapply wp_conseq; [apply update_wp|done]|]; simpl; eauto 10.
  Qed.

  Lemma fin_ids old dl' d d' : rest_fin ns jid dl' (nds old) (pyset old) (all old) d d' -> stored_ids jid d old ->
    exists l, stored_ids jid d' l /\ forall x, x ∈ l <-> x ∈ old \/ x ∈ dkeys dl.
  Proof.
    intros (F & N & O & HL) Hold. destruct (nds old) as [|z nd] eqn:En.
    - exists old. split; [unfold stored_ids in *; by rewrite HL|]. intros x. split; [by left|]. intros [?|Hx]; [done|].
      destruct (decide (x ∈ old)); [done|]. assert (x ∈ nds old) as Hin by (by rewrite elem_diff, !elem_pyset).
      rewrite En in Hin. by apply elem_of_nil in Hin.
    - destruct HL as (l & Hl & HL). exists l. split; [unfold stored_ids; rewrite HL; apply is_ints|].
      intros x. rewrite Hl, elem_union, !elem_pyset. tauto.
  Qed.

  (** C21 *)
  Lemma update_listed w w' x lab : exec base upd w (Val tt) w' -> dget x dl = Some lab ->
    known (w_disk w') jid x /\ supports (w_disk w') jid x ns /\ activity (w_disk w') jid x ns true /\
    (~ known (w_disk w) jid x -> labelled (w_disk w') jid x lab /\ forall n, supports (w_disk w') jid x n -> n = ns) /\
    (known (w_disk w) jid x ->
      match lab with
      | Some s => labelled (w_disk w') jid x (Some s)
      | None => exists o, labelled (w_disk w) jid x o /\ labelled (w_disk w') jid x o
      end /\ forall n, supports (w_disk w') jid x n <-> supports (w_disk w) jid x n \/ n = ns).
  Proof.
    intros (Hns & old & dl' & Hold & He & HF)%update_val Hx.
    destruct (fin_ids _ _ _ _ HF Hold) as (l & Hl & Hm).
    assert (x ∈ dkeys dl) as Hd by (apply dget_dkeys; by eexists).
    assert (known (w_disk w') jid x) as Hk by (eapply known_ids; [done|]; apply Hm; auto).
    split; [done|]. pose proof (known_ids (w_disk w) jid x old Hold) as Hko.
    pose proof (eff_listed _ _ _ _ _ _ _ He Hx) as Hx'.
    destruct HF as (F & N & O & _). destruct (decide (x ∈ old)) as [Hin|Hin].
    - destruct (O x) as (_ & l1 & m1 & l2 & m2 & H1 & H2 & H3 & H4 & H5); [by apply elem_pyset|]. rewrite Hx' in H5.
      destruct H5 as (H5 & H6 & o & H7 & H8).
      split; [apply (supports_ns _ _ _ _ _ H3), H5; auto|].
      split; [apply (activity_act _ _ _ _ _ _ H4); by rewrite H6, decide_True|].
      split; [tauto|]. intros _. split; [destruct lab; [done|by exists o]|].
      intros n. rewrite (supports_ns _ _ _ _ _ H3), (supports_ns _ _ _ _ _ H1). apply H5.
    - destruct (N x) as (H1 & H2 & lab' & H3 & H4); [by rewrite elem_diff, !elem_pyset|].
      apply hns_new in H1. apply hact_new in H2. apply hlab_new in H4. rewrite Hx' in H3. injection H3 as <-.
      split; [apply (supports_ns _ _ _ _ _ H1); by left|].
      split; [apply (activity_act _ _ _ _ _ _ H2); simpl; by rewrite decide_True|].
      split; [|tauto]. intros _. split; [done|]. intros n. rewrite (supports_ns _ _ _ _ _ H1). by intros ->%elem_of_list_singleton.
  Qed.

  (** C22 *)
  Lemma item_frame (d d' : gmap string json) nd od i : frame_upd jid nd od d d' -> ~ list_item jid i ->
    d' !! item_key i = d !! item_key i.
  Proof.
    intros F Hi. apply F.
    - kneq. intros ->. apply Hi. by left.
    - intros x _. split; [|split]; (kneq; intros ->; apply Hi; right; exists x; auto).
  Qed.

  Lemma update_frame w w' i : reach base upd w w' -> ~ list_item jid i -> w_disk w' !! item_key i = w_disk w !! item_key i.
  Proof.
    intros (_ & [->|(old & dl' & _ & _ & F & _)])%update_reach Hi; [done|]. by eapply item_frame.
  Qed.

  Lemma mid_ids old dl' d d' : rest_mid ns jid dl' (nds old) (pyset old) (all old) d d' -> stored_ids jid d old ->
    stored_ids jid d' old \/ exists l, stored_ids jid d' l /\ forall x, x ∈ l <-> x ∈ old \/ x ∈ dkeys dl.
  Proof.
    intros (F & N & O & HL) Hold. destruct HL as [HL|(_ & l & Hl & HL & _)].
    - left. unfold stored_ids in *. by rewrite HL.
    - right. exists l. split; [unfold stored_ids; rewrite HL; apply is_ints|].
      intros x. rewrite Hl, elem_union, !elem_pyset. tauto.
  Qed.
  Lemma update_known w w' x : reach base upd w w' -> known (w_disk w) jid x -> known (w_disk w') jid x.
  Proof.
    intros (_ & [->|(old & dl' & Hold & _ & HM)])%update_reach Hk; [done|].
    apply (known_ids _ _ _ _ Hold) in Hk. destruct (mid_ids _ _ _ _ HM Hold) as [Ho|(l & Hl & Hm)].
    - by eapply known_ids.
    - eapply known_ids; [done|]. apply Hm. auto.
  Qed.

  Lemma update_known_dev w w' x : reach base upd w w' -> known (w_disk w) jid x ->
    (forall n b, n <> ns -> activity (w_disk w') jid x n b <-> activity (w_disk w) jid x n b) /\
    (forall n, n <> ns -> supports (w_disk w') jid x n <-> supports (w_disk w) jid x n) /\
    (dget x dl = None -> forall o, labelled (w_disk w') jid x o <-> labelled (w_disk w) jid x o) /\
    (dget x dl = None -> ~ (jid = c_jid cf /\ x = c_dev cf) ->
      (forall n, supports (w_disk w') jid x n <-> supports (w_disk w) jid x n) /\
      (activity (w_disk w') jid x ns true -> activity (w_disk w) jid x ns true)).
  Proof.
    intros (_ & [->|(old & dl' & Hold & He & HM)])%update_reach Hk.
    { split; [done|]. split; [done|]. done. }
    apply (known_ids _ _ _ _ Hold) in Hk. destruct HM as (F & N & O & HL).
    destruct (O x) as (O1 & O2 & O3); [by apply elem_pyset|].
    split; [|split; [|split]].
    - intros n b Hn. destruct O2 as [O2|(l & m & m' & H1 & H2 & H3 & H4 & H5)].
      + unfold activity, holds. change (item_key (IActive jid x)) with (k_active jid x). by rewrite O2.
      + rewrite (activity_act _ _ _ _ _ _ H2), (activity_act _ _ _ _ _ _ H3), H5. by rewrite decide_False.
    - intros n Hn. destruct O1 as [O1|(_ & l & l' & H1 & H2 & H3 & _)].
      + unfold supports, holds. change (item_key (INamespaces jid x)) with (k_ns jid x). by rewrite O1.
      + rewrite (supports_ns _ _ _ _ _ H1), (supports_ns _ _ _ _ _ H2), H3. naive_solver.
    - intros Hx o. destruct O3 as [O3|(s & H1 & H2)].
      + unfold labelled, holds. change (item_key (ILabel jid x)) with (k_label jid x). by rewrite O3.
      + destruct (eff_missing _ _ _ _ _ _ He Hx) as [[H3 _]|(_ & _ & o' & H3 & H4)]; [congruence|].
        rewrite H1 in H3. injection H3 as <-.
        by rewrite (labelled_lab _ _ _ _ _ H2), (labelled_lab _ _ _ _ _ H4).
    - intros Hx Hno. destruct (eff_missing _ _ _ _ _ _ He Hx) as [[H0 _]|(? & ? & _)]; [|tauto]. split.
      + intros n. destruct O1 as [O1|([? H1] & _)]; [|congruence].
        unfold supports, holds. change (item_key (INamespaces jid x)) with (k_ns jid x). by rewrite O1.
      + destruct O2 as [O2|(l & m & m' & H1 & H2 & H3 & H4 & H5)].
        * unfold activity, holds. change (item_key (IActive jid x)) with (k_active jid x). by rewrite O2.
        * rewrite (activity_act _ _ _ _ _ _ H3), H5, decide_True by done. intros [= H6]. 
          rewrite bool_decide_eq_false_2 in H6; [done|]. rewrite H0. by intros [].
  Qed.
  (** devices that are neither known nor listed *)
  Lemma update_unrelated w w' x : reach base upd w w' -> ~ known (w_disk w) jid x -> dget x dl = None ->
    w_disk w' !! item_key (INamespaces jid x) = w_disk w !! item_key (INamespaces jid x) /\
    w_disk w' !! item_key (IActive jid x) = w_disk w !! item_key (IActive jid x) /\
    w_disk w' !! item_key (ILabel jid x) = w_disk w !! item_key (ILabel jid x).
  Proof.
    intros (_ & [->|(old & dl' & Hold & He & F & _)])%update_reach Hk Hx; [done|].
    rewrite (known_ids _ _ _ _ Hold) in Hk.
    assert (forall y, y ∈ nds old ++ pyset old -> y <> x) as Hne.
    { intros y Hy ->. rewrite elem_of_app, elem_diff, !elem_pyset, dget_dkeys, Hx in Hy.
      destruct Hy as [[[? ?] _]|?]; done. }
    split; [|split]; (apply F; [kneq|intros y Hy; apply Hne in Hy; repeat split; kneq]).
  Qed.
  (** a known device missing on the list is inactive afterwards *)
  Lemma update_missing w w' x : exec base upd w (Val tt) w' -> known (w_disk w) jid x -> dget x dl = None ->
    ~ (jid = c_jid cf /\ x = c_dev cf) ->
    known (w_disk w') jid x /\ (supports (w_disk w) jid x ns -> activity (w_disk w') jid x ns false).
  Proof.
    intros Hex Hk Hx Hno. split; [eapply update_known; [by eapply exec_reach|done]|].
    apply update_val in Hex as (_ & old & dl' & Hold & He & _ & _ & O & _).
    apply (known_ids _ _ _ _ Hold) in Hk.
    destruct (O x) as (_ & l1 & m1 & l2 & m2 & H1 & H2 & H3 & H4 & H5); [by apply elem_pyset|].
    destruct (eff_missing _ _ _ _ _ _ He Hx) as [[H0 _]|(? & ? & _)]; [|tauto]. rewrite H0 in H5.
    destruct H5 as (_ & _ & H5). rewrite (supports_ns _ _ _ _ _ H1), (activity_act _ _ _ _ _ _ H4), H5.
    intros Hn. by rewrite decide_True.
  Qed.
End dev.

(** ** C23 *)
Lemma dset_new {K V} `{EqDecision K} (k : K) (v : V) d : dget k d = None -> dset k v d = d ++ [(k, v)].
Proof.
  induction d as [|[k0 v0] d IH]; simpl; [done|]. destruct (decide (k = k0)); [done|]. intros H. by rewrite IH.
Qed.
Lemma em_rest ns jid dl nd od all : em noup (upd_rest ns jid dl nd od all).
Proof.
  unfold upd_rest. emt; try by ev.
  - unfold upd_new. emt; ev.
  - unfold upd_old. emt; ev.
Qed.

Section up.
  Context (cf : cfg) (ns jid : string) (dl : list (Z * option string)).
  Local Notation own_missing := (own_missing cf jid dl).
  Definition up_mid (w w' : world) : Prop :=
    exists evs, Forall noup evs /\
      ((w_log w' = evs ++ w_log w /\ (own_missing -> evs = [] /\ w_disk w' = w_disk w)) \/
       (own_missing /\ exists lab r, labelled (w_disk w) jid (c_dev cf) lab /\
          w_log w' = evs ++ EvUploadDL ns (dl ++ [(c_dev cf, lab)]) r :: w_log w /\
          (r <> Val tt -> evs = [] /\ w_disk w' = w_disk w))).
  Definition up_fin (w w' : world) : Prop :=
    exists evs, Forall noup evs /\
      ((own_missing /\ exists lab, labelled (w_disk w) jid (c_dev cf) lab /\
          w_log w' = evs ++ EvUploadDL ns (dl ++ [(c_dev cf, lab)]) (Val tt) :: w_log w) \/
       (~ own_missing /\ w_log w' = evs ++ w_log w)).

  Lemma up_wp w : wp base (up_mid w) (update_device_list cf ns jid dl)
    (fun o w' => match o with Val _ => up_fin w w' | Exn _ => True end) w.
  Proof.
    assert (up_mid w w) as HI0 by (exists []; split; [done|]; left; done).
    unfold update_device_list. apply wp_bind, wp_loaded; [done|].
    destruct (decide (ns ∈ w_loaded w)) as [Hns|Hns]; [|by apply wp_raise]. cbv zeta. apply wp_bind.
    assert (forall nd od all,
      wp base (up_mid w) (dl' <- upd_own cf ns jid dl ;; upd_rest ns jid dl' nd od all)
        (fun o w' => match o with Val _ => up_fin w w' | Exn _ => True end) w) as Hgo.
    { intros nd od all. apply wp_bind. unfold upd_own.
      assert (~ own_missing -> forall dl', wp base (up_mid w) (upd_rest ns jid dl' nd od all)
        (fun o w' => match o with Val _ => up_fin w w' | Exn _ => True end) w) as Hr.
      { intros Hno dl'. eapply em_wp; [apply em_rest| |].
        - intros evs He. exists evs. split; [done|]. left. done.
        - intros [[]|e] evs He _; [|done]. exists evs. split; [done|]. by right. }
      destruct (decide (jid = c_jid cf)) as [Ej|Ej]; [|apply wp_ret, Hr; by intros [? _]].
      apply wp_bind, wp_loaded; [done|]. rewrite bool_decide_eq_true_2 by done. simpl.
      destruct (dmem (c_dev cf) dl) eqn:Em; simpl.
      { apply wp_ret, Hr. intros [_ Hc]. unfold dmem in Em. apply bool_decide_eq_true in Em. rewrite Hc in Em. by destruct Em. }
      assert (dget (c_dev cf) dl = None) as Hn.
      { unfold dmem in Em. apply bool_decide_eq_false in Em. destruct (dget (c_dev cf) dl); [|done]. exfalso. by apply Em; eexists. }
      assert own_missing as Hom by done.
      rewrite <- Ej. apply wp_bind. apply (wp_typed _ _ _ _ _ _ good_label); [done|done| | |done].
      { intros Hl. by apply wp_bind, wp_from_just. }
      intros v o Hv Ho. assert (labelled (w_disk w) jid (c_dev cf) o) as Hlab by (by exists v).
      apply wp_bind, wp_from_just; [done|]. intros ? [= <-].
      apply wp_bind. apply wp_step. intros r Hr'. rewrite dset_new by done. split.
      { exists []. split; [done|]. right. split; [done|]. exists o, r. done. }
      apply wp_of_outcome. destruct r as [[]|e]; [|done]. apply wp_ret.
      eapply em_wp; [apply em_rest| |].
      - intros evs He. exists evs. split; [done|]. right. split; [done|]. exists o, (Val tt). split; [done|]. split; done.
      - intros [[]|e] evs He _; [|done]. exists evs. split; [done|]. left. split; [done|]. exists o. done. }
    apply (wp_typed _ _ _ _ _ _ good_ints); [done|done| | |done]; intros; apply Hgo.
  Qed.
  Lemma up_reach w w' : reach base (update_device_list cf ns jid dl) w w' -> up_mid w w'.
  Proof.
    by_reach; [eapply wp_conseq; [apply up_wp|done]|]. exists []; split; [done|]; left; done.
  Qed.
  Lemma up_exec w w' : exec base (update_device_list cf ns jid dl) w (Val tt) w' -> up_fin w w'.
  Proof.
    intros H. eapply (wp_exec base _ _ (fun o w' => match o with Val _ => up_fin w w' | Exn _ => True end)) in H; [exact H|].
    apply up_wp.
  Qed.
End up.

(** ** C24 *)
Lemma unknown_update cf ns jid dl w o w' :
  ns ∉ w_loaded w -> exec base (update_device_list cf ns jid dl) w o w' -> o = Exn EUnknownNamespace /\ w' = w.
Proof.
  intros Hn. by_exec. unfold update_device_list. apply wp_bind, wp_loaded; [done|]. rewrite decide_False by done. done.
Qed.
Lemma unknown_refresh cf ns jid w o w' :
  ns ∉ w_loaded w -> exec base (refresh_device_list cf ns jid) w o w' ->
  w_disk w' = w_disk w /\ exists r, w_log w' = EvDownloadDL ns jid r :: w_log w /\
    o = Exn (match r with Val _ => EUnknownNamespace | Exn e => e end).
Proof.
  intros Hn. by_exec. unfold refresh_device_list. apply wp_bind, wp_step. intros r Hr. split; [done|].
  apply wp_of_outcome. destruct r as [dl|e]; [|by split; [|eexists]].
  unfold update_device_list. apply wp_bind, wp_loaded; [done|]. simpl. rewrite decide_False by done.
  split; [done|]. by exists (Val dl).
Qed.
Lemma unknown_decrypt cf m w o w' :
  m_ns m ∉ w_loaded w -> exec base (decrypt cf m) w o w' -> o = Exn EUnknownNamespace /\ w' = w.
Proof.
  intros Hn. by_exec. unfold decrypt. apply wp_bind, wp_loaded; [done|]. rewrite decide_False by done. done.
Qed.
Lemma unknown_encrypt cf mtd jids pt l ident ns w o w' :
  ns ∈ l -> ns ∉ w_loaded w -> exec base (encrypt cf mtd jids pt (Some l) ident) w o w' -> o = Exn EUnknownNamespace /\ w' = w.
Proof.
  intros Hin Hn. by_exec. unfold encrypt. apply wp_bind, wp_loaded; [done|].
  assert (ns ∈ set_diff l (w_loaded w)) as Hd by (by apply elem_diff). destruct (set_diff l (w_loaded w)); [by apply elem_of_nil in Hd|].
  apply wp_bind. done.
Qed.
(** nothing changes at crash points either *)
Lemma unknown_reach cf ns jid dl w w' :
  ns ∉ w_loaded w -> reach base (refresh_device_list cf ns jid) w w' \/ reach base (update_device_list cf ns jid dl) w w' ->
  w_disk w' = w_disk w.
Proof.
  intros Hn [H|H]; revert H; by_reach; try done.
  - unfold refresh_device_list. apply wp_bind, wp_step. intros r Hr. split; [done|].
    apply wp_of_outcome. destruct r as [dl'|e]; [|done].
    unfold update_device_list. apply wp_bind, wp_loaded; [done|]. simpl. by rewrite decide_False by done.
  - unfold update_device_list. apply wp_bind, wp_loaded; [done|]. by rewrite decide_False by done.
Qed.

(** ** C29: idempotence *)
Definition settled (ns jid : string) (dl : list (Z * option string)) (x : Z) (d : gmap string json) : Prop :=
  exists l m, hns d jid x l /\ hact d jid x m /\
  match dget x dl with
  | Some lab => ns ∈ l /\ dget ns m = Some true /\ exists o, hlab d jid x o /\ (lab = None \/ lab = o)
  | None => ns ∈ l -> dget ns m = Some false
  end.

Lemma settled_wp ns jid dl x w (I : world -> Prop) :
  I w -> settled ns jid dl x (w_disk w) ->
  wp base I (upd_old ns jid dl x) (fun o w' => w' = w /\ match o with Val _ => True | Exn e => ext_exn e = true end) w.
Proof.
  intros HI (l & m & Hl & Hm & HS). unfold upd_old.
  apply wp_bind. apply (wp_has_ns _ _ l); [done|done|done|]. apply wp_bind, wp_from_just; [done|]. intros ? [= <-]. cbv zeta.
  apply wp_bind. apply (wp_has_act _ _ m); [done|done|done|]. apply wp_bind, wp_from_just; [done|]. intros ? [= <-].
  destruct (dget x dl) as [lab|].
  - destruct HS as (H1 & H2 & o & Ho & H3). rewrite bool_decide_eq_true_2 by done.
    apply wp_bind, wp_ret. apply wp_bind. apply (wp_has_lab _ _ o); [done|done|done|].
    apply wp_bind, wp_from_just; [done|]. intros ? [= <-].
    assert (bool_decide (lab <> None) && bool_decide (lab <> o) = false) as ->.
    { destruct H3 as [->| ->]; [done|]. apply andb_false_intro2. apply bool_decide_eq_false. intros Hc. by apply Hc. }
    apply wp_bind, wp_ret. rewrite decide_True by (by apply elem_pyset). done.
  - destruct (decide (ns ∈ pyset l)) as [Hin|]; [|done]. rewrite elem_pyset in Hin. by rewrite (HS Hin).
Qed.

Lemma fin_settled cf ns jid dl old dl' d d' x :
  stored_ids jid d old -> eff cf jid dl d dl' ->
  rest_fin ns jid dl' (set_diff (pyset (dkeys dl)) (pyset old)) (pyset old) (set_union (pyset (dkeys dl)) (pyset old)) d d' ->
  x ∈ old \/ x ∈ dkeys dl -> settled ns jid dl' x d'.
Proof.
  intros Hold He (F & N & O & _) Hx. destruct (decide (x ∈ old)) as [Hin|Hin].
  - destruct (O x) as (_ & l1 & m1 & l2 & m2 & H1 & H2 & H3 & H4 & H5); [by apply elem_pyset|].
    exists l2, m2. split; [done|]. split; [done|]. destruct (dget x dl') as [lab|].
    + destruct H5 as (H5 & H6 & o & H7 & H8). split; [apply H5; auto|]. split; [by rewrite H6, decide_True|].
      eexists. split; [exact H8|]. destruct lab; auto.
    + destruct H5 as (H5 & H6 & H7). intros Hn. rewrite H7.
      assert (ns ∈ l1); [|by rewrite decide_True].
      erewrite (hns_fun d' jid x l2 l1) in Hn; [done|done|]. by eapply hk_eq.
  - destruct Hx as [?|Hx]; [done|]. destruct (N x) as (H1 & H2 & lab & H3 & H4); [by rewrite elem_diff, !elem_pyset|].
    exists [ns], [(ns, true)]. split; [by apply hns_new|]. split; [by apply hact_new|]. rewrite H3.
    split; [by left|]. split; [simpl; by rewrite decide_True|]. exists lab. split; [by apply hlab_new|by right].
Qed.

Lemma fin_eff cf ns jid dl old dl' d d' :
  stored_ids jid d old -> eff cf jid dl d dl' ->
  rest_fin ns jid dl' (set_diff (pyset (dkeys dl)) (pyset old)) (pyset old) (set_union (pyset (dkeys dl)) (pyset old)) d d' ->
  eff cf jid dl d' dl'.
Proof.
  intros Hold He (F & N & O & _). pose proof He as He'. unfold eff in *. destruct (decide _) as [[Hj Hn]|]; [|done].
  destruct He as (lab & Hlab & ->). exists lab. split; [|done].
  destruct (decide (c_dev cf ∈ old)) as [Hin|Hin].
  - destruct (O (c_dev cf)) as (_ & l1 & m1 & l2 & m2 & _ & _ & _ & _ & H5); [by apply elem_pyset|].
    rewrite dget_dset', decide_True in H5 by done. destruct H5 as (_ & _ & o & H7 & H8).
    rewrite (hlab_fun _ _ _ _ _ H7 Hlab) in H8. by destruct lab.
  - eapply hk_eq; [|exact Hlab]. apply F; [kneq|]. intros y Hy.
    assert (c_dev cf <> y) as Hne.
    { intros <-. rewrite elem_of_app, elem_diff, !elem_pyset, dget_dkeys, Hn in Hy. destruct Hy as [[[? ?] _]|?]; done. }
    repeat split; kneq.
Qed.

Lemma diff_nil {A} `{EqDecision A} (l1 l2 : list A) : (forall x, x ∈ l1 -> x ∈ l2) -> set_diff l1 l2 = [].
Proof.
  intros H. unfold set_diff. induction l1 as [|x l1 IH]; [done|].
  rewrite filter_cons_False; [apply IH; intros y Hy; apply H; by right|]. intros Hc. apply Hc, H. left.
Qed.

Lemma idem_wp cf ns jid dl dl' ids w :
  ns ∈ w_loaded w -> stored_ids jid (w_disk w) ids -> (forall x, x ∈ dkeys dl -> x ∈ ids) ->
  eff cf jid dl (w_disk w) dl' -> (forall x, x ∈ ids -> settled ns jid dl' x (w_disk w)) ->
  wp base (fun w' => w_disk w' = w_disk w) (update_device_list cf ns jid dl)
    (fun o _ => match o with Val _ => True | Exn e => ext_exn e = true end) w.
Proof.
  intros Hns Hids Hsub He HS. unfold update_device_list. apply wp_bind, wp_loaded; [done|].
  rewrite decide_True by done. cbv zeta.
  assert (forall m : option (list Z), Model.maybe [] m = ids ->
    wp base (fun w' => w_disk w' = w_disk w)
      (dl'' <- upd_own cf ns jid dl ;;
       upd_rest ns jid dl'' (set_diff (pyset (dkeys dl)) (pyset (Model.maybe [] m))) (pyset (Model.maybe [] m))
         (set_union (pyset (dkeys dl)) (pyset (Model.maybe [] m))))
      (fun o _ => match o with Val _ => True | Exn e => ext_exn e = true end) w) as Hgo.
  { intros m ->. apply wp_bind. eapply wp_conseq; [apply (own_wp cf ns jid dl); [by intros|done]|].
    intros [dl''|e] w1 (L1 & D1 & H1).
    2:{ destruct H1 as [?|(Hj & Hn & H1)]; [done|]. exfalso. unfold eff in He. rewrite decide_True in He by done.
        destruct He as (lab & Hlab & _). by destruct (H1 lab). }
    assert (dl'' = dl') as ->.
    { unfold eff in *. destruct (decide _) as [_|_]; [|congruence]. destruct He as (a1 & Ha & ->), H1 as (b & Hb & ->).
      by rewrite (hlab_fun _ _ _ _ _ Ha Hb). }
    unfold upd_rest. rewrite (diff_nil (pyset (dkeys dl))).
    2:{ intros x. rewrite !elem_pyset. apply Hsub. }
    apply wp_bind, wp_order; [done|]. intros nd ->%Permutation_nil_r. simpl. apply wp_bind, wp_ret.
    apply wp_bind, wp_order; [done|]. intros od Hod. apply wp_bind.
    apply (wp_for_each _ _ (fun _ w' => w_disk w' = w_disk w)); [done| |done].
    intros pre x post w2 Hl D2. eapply wp_conseq; [apply settled_wp; [done|]|].
    - rewrite D2. apply HS. apply elem_pyset. rewrite <- Hod, Hl. apply elem_of_app. right. left.
    - intros [[]|e] w3 [-> H3]; done. }
  unfold stored_ids in Hids. apply wp_bind. apply (wp_typed _ _ _ _ _ _ good_ints); [done|done| | |].
  - intros Hn. apply Hgo. rewrite Hn in Hids. done.
  - intros v a Hv Ha. apply Hgo. rewrite Hv in Hids. by eapply ints_fun.
  - intros v Hv Hn. rewrite Hv in Hids. by destruct (Hn ids).
Qed.

Lemma idem cf ns jid dl w w1 w2 :
  exec base (update_device_list cf ns jid dl) w (Val tt) w1 -> w_disk w2 = w_disk w1 -> w_loaded w2 = w_loaded w1 ->
  (forall o w3, exec base (update_device_list cf ns jid dl) w2 o w3 ->
     w_disk w3 = w_disk w1 /\ match o with Val _ => True | Exn e => ext_exn e = true end) /\
  (forall w3, reach base (update_device_list cf ns jid dl) w2 w3 -> w_disk w3 = w_disk w1).
Proof.
  intros Hex Hd Hl. assert (w_loaded w1 = w_loaded w) as Hl1 by (eapply update_reach, exec_reach; done).
  apply update_val in Hex as (Hns & old & dl' & Hold & He & HF).
  destruct (fin_ids _ _ _ _ _ _ _ HF Hold) as (ids & Hids & Hm).
  assert (wp base (fun w' => w_disk w' = w_disk w2) (update_device_list cf ns jid dl)
    (fun o _ => match o with Val _ => True | Exn e => ext_exn e = true end) w2) as Hwp.
  { eapply (idem_wp _ _ _ _ dl' ids); rewrite ?Hd.
    - congruence.
    - done.
    - intros x Hx. apply Hm. auto.
    - exact (fin_eff _ _ _ _ _ _ _ _ Hold He HF).
    - intros x Hx. apply (fin_settled _ _ _ _ _ _ _ _ _ Hold He HF). by apply Hm. }
  rewrite <- Hd. split.
  - intros o w3 H3. apply (wp_exec _ _ _ _ _ _ _ (wp_inv _ _ _ _ _ Hwp eq_refl)) in H3. done.
  - intros w3 H3. by eapply (wp_reach _ _ _ _ _ _ Hwp).
Qed.

(** Two runs of the same update from the same storage. *)
Lemma stored_ids_fun j d a b : stored_ids j d a -> stored_ids j d b -> a = b.
Proof. unfold stored_ids. destruct (d !! k_list j); [apply ints_fun|congruence]. Qed.
Lemma eff_fun cf jid dl d a b : eff cf jid dl d a -> eff cf jid dl d b -> a = b.
Proof.
  unfold eff. destruct (decide _); [|congruence]. intros (x & Hx & ->) (y & Hy & ->). by rewrite (hlab_fun _ _ _ _ _ Hx Hy).
Qed.

Lemma order_free cf ns jid dl w v w1 v1 :
  w_disk v = w_disk w ->
  exec base (update_device_list cf ns jid dl) w (Val tt) w1 ->
  exec base (update_device_list cf ns jid dl) v (Val tt) v1 ->
  same_readings jid (w_disk w1) (w_disk v1).
Proof.
  intros Hd H1 H2. split.
  { intros i Hi. rewrite (update_frame _ _ _ _ _ _ _ (exec_reach _ _ _ _ _ H1) Hi).
    rewrite (update_frame _ _ _ _ _ _ _ (exec_reach _ _ _ _ _ H2) Hi). by rewrite Hd. }
  apply update_val in H1 as (_ & old & dl' & Ho & He & HF). apply update_val in H2 as (_ & old2 & dl2 & Ho2 & He2 & HF2).
  rewrite Hd in *. rewrite (stored_ids_fun _ _ _ _ Ho2 Ho) in *. rewrite (eff_fun _ _ _ _ _ _ He2 He) in *.
  destruct (fin_ids _ _ _ _ _ _ _ HF Ho) as (l1 & Hl1 & Hm1). destruct (fin_ids _ _ _ _ _ _ _ HF2 Ho) as (l2 & Hl2 & Hm2).
  intros x. split; [by rewrite (known_ids _ _ _ _ Hl1), (known_ids _ _ _ _ Hl2), Hm1, Hm2|].
  destruct HF as (F & N & O & _), HF2 as (F2 & N2 & O2 & _).
  assert (x ∈ old \/ x ∉ old /\ x ∈ dkeys dl \/ x ∉ old /\ x ∉ dkeys dl) as [Hx|[[Hx1 Hx2]|[Hx1 Hx2]]].
  { destruct (decide (x ∈ old)), (decide (x ∈ dkeys dl)); auto. }
  - destruct (O x) as (_ & a & m & a1 & m1 & A1 & A2 & A3 & A4 & A5); [by apply elem_pyset|].
    destruct (O2 x) as (_ & b & n & b1 & n1 & B1 & B2 & B3 & B4 & B5); [by apply elem_pyset|].
    rewrite (hns_fun _ _ _ _ _ B1 A1), (hact_fun _ _ _ _ _ B2 A2) in *.
    destruct (dget x dl') as [lab|].
    + destruct A5 as (A5 & A6 & o & A7 & A8), B5 as (B5 & B6 & o' & B7 & B8).
      rewrite (hlab_fun _ _ _ _ _ B7 A7) in *. split; [|split].
      * intros k. by rewrite (supports_ns _ _ _ _ _ A3), (supports_ns _ _ _ _ _ B3), A5, B5.
      * intros k c. by rewrite (activity_act _ _ _ _ _ _ A4), (activity_act _ _ _ _ _ _ B4), A6, B6.
      * intros k. by rewrite (labelled_lab _ _ _ _ _ A8), (labelled_lab _ _ _ _ _ B8).
    + destruct A5 as (A5 & A6 & A7), B5 as (B5 & B6 & B7). split; [|split].
      * intros k. unfold supports, holds. change (item_key (INamespaces jid x)) with (k_ns jid x). by rewrite A5, B5.
      * intros k c. by rewrite (activity_act _ _ _ _ _ _ A4), (activity_act _ _ _ _ _ _ B4), A7, B7.
      * intros k. unfold labelled, holds. change (item_key (ILabel jid x)) with (k_label jid x). by rewrite A6, B6.
  - destruct (N x) as (A1 & A2 & la & A3 & A4); [by rewrite elem_diff, !elem_pyset|].
    destruct (N2 x) as (B1 & B2 & lb & B3 & B4); [by rewrite elem_diff, !elem_pyset|].
    rewrite A3 in B3. injection B3 as <-. unfold supports, activity, labelled, holds.
    change (item_key (INamespaces jid x)) with (k_ns jid x). change (item_key (IActive jid x)) with (k_active jid x).
    change (item_key (ILabel jid x)) with (k_label jid x). by rewrite A1, B1, A2, B2, A4, B4.
  - assert (forall y, y ∈ set_diff (pyset (dkeys dl)) (pyset old) ++ pyset old -> y <> x) as Hne.
    { intros y Hy ->. rewrite elem_of_app, elem_diff, !elem_pyset in Hy. tauto. }
    unfold supports, activity, labelled, holds.
    change (item_key (INamespaces jid x)) with (k_ns jid x). change (item_key (IActive jid x)) with (k_active jid x).
    change (item_key (ILabel jid x)) with (k_label jid x).
    rewrite !F, !F2; [done|..]; try kneq; intros y Hy; apply Hne in Hy; repeat split; kneq.
Qed.

(** ** C28 *)
Lemma list_race :
  exists w', areach base awaited
      ([update_device_list (Cfg "me" 1 "U" 50) "n" "you" [(5%Z, None)];
        update_device_list (Cfg "me" 1 "U" 50) "m" "you" [(6%Z, None)]], World ∅ ["n"; "m"]%string false [], None)
      ([Ret tt; Ret tt], w', None) /\
    known (w_disk w') "you" 6 /\ ~ known (w_disk w') "you" 5.
Proof.
  pose proof (run_sched_areach base awaited env ([0;0;1;1] ++ replicate 12 0 ++ replicate 12 1)%nat
    ([update_device_list (Cfg "me" 1 "U" 50) "n" "you" [(5%Z, None)];
      update_device_list (Cfg "me" 1 "U" 50) "m" "you" [(6%Z, None)]], World ∅ ["n"; "m"]%string false [], None) env_allowed) as H.
  set (s := run_sched _ _ _ _ _) in H. assert (s = ([Ret tt; Ret tt], s.1.2, None)) as E by (vm_compute; reflexivity).
  exists s.1.2. split; [rewrite <- E; exact H|]. clear H E. split.
  - exists [6%Z]. split; [|by left]. exists (JList [JInt 6]). split; [vm_compute; reflexivity|]. repeat constructor.
  - intros (zs & (v & Hv & Hzs) & Hx). assert (v = JList [JInt 6]) as -> by (apply (inj Some); rewrite <- Hv; vm_compute; reflexivity).
    inversion Hzs as [? ? HF]; subst. inversion HF as [|? ? ? ? H1 H2]; subst. inversion H1; subst. inversion H2; subst.
    by apply elem_of_list_singleton in Hx.
Qed.

Lemma seq_updates cf ns1 ns2 jid dl1 dl2 w w1 w2 x1 l1 x2 l2 :
  ns1 <> ns2 -> exec base (update_device_list cf ns1 jid dl1) w (Val tt) w1 ->
  exec base (update_device_list cf ns2 jid dl2) w1 (Val tt) w2 ->
  dget x1 dl1 = Some l1 -> dget x2 dl2 = Some l2 ->
  known (w_disk w2) jid x1 /\ known (w_disk w2) jid x2 /\
  supports (w_disk w2) jid x1 ns1 /\ supports (w_disk w2) jid x2 ns2 /\
  activity (w_disk w2) jid x1 ns1 true /\ activity (w_disk w2) jid x2 ns2 true.
Proof.
  intros Hne H1 H2 D1 D2. destruct (update_listed _ _ _ _ _ _ _ _ H1 D1) as (K1 & S1 & A1 & _).
  destruct (update_listed _ _ _ _ _ _ _ _ H2 D2) as (K2 & S2 & A2 & _).
  apply exec_reach in H2. destruct (update_known_dev _ _ _ _ _ _ _ H2 K1) as (B1 & B2 & _).
  split; [by eapply update_known|]. split; [done|]. split; [by apply B2|]. split; [done|]. split; [by apply B1|done].
Qed.
