(** What the storage says has a source (C99). *)
From Verif Require Import Origin PfStrs PfWp PfEmits PfExec PfHist PfTyped PfUpdate PfDevices PfPurge PfLog PfEmpty PfAlone PfEncrypt PfEncrypt2.
Open Scope prog_scope.
Open Scope list_scope.

Section origin.
  Context (X : inputs) (strict : Prop).

  Section fixed.
  Context (l : list event).
  Definition item_from (i : item) (v : json) : Prop :=
    match i with
    | IIdentityKey j x => forall s ik, v = JStr s -> b64dec s = Some ik -> key_from X l j x ik
    | IDeviceList j => forall zs x, is_list is_int v zs -> x ∈ zs -> ours X j \/ exists ns, on_list X l ns j x
    | INamespaces j x => forall ns n, is_list is_str v ns -> n ∈ ns -> ours X j \/ on_list X l n j x
    | IActive j x => forall m n b, is_dict is_bool v m -> dget n m = Some b -> ours X j \/ on_list X l n j x
    | ILabel j x => forall s, is_opt is_str v (Some s) -> ours X j \/ with_label X l j x s
    | ITrust j ik => forall level, v = JStr level -> in_level X j ik level
    | _ => True
    end.
  Definition Eo (c : cmd) : resp c -> Prop :=
    match c return resp c -> Prop with
    | SLoad k => fun r => forall i v, k = item_key i -> r = Val (Some v) -> item_from i v
    | c => fun r => match event_of c r with Some e => e ∈ l | None => True end
    end.
  Definition Fo (c : cmd) : Prop :=
    match c with
    | SStore k v => forall i, k = item_key i -> item_from i v
    | TEval d => strict -> device_from X l d
    | _ => True
    end.
  Definition to_ {A} (o : outcome A) : Prop := True.
  Notation ob p := (obeys Eo Fo to_ p).
  Notation obq Q p := (obeys Eo Fo Q p).
  Definition val {A} (Q : A -> Prop) (o : outcome A) : Prop := match o with Val a => Q a | Exn _ => True end.

  Lemma o_bind {A B} (p : api A) (f : A -> api B) : ob p -> (forall x, ob (f x)) -> ob (bind p f).
  Proof. intros Hp Hf. apply obeys_bind. eapply obeys_conseq; [exact Hp|]. by intros [x|e] _; [apply Hf|]. Qed.
  Lemma o_bindq {A B} (Q : A -> Prop) (R : B -> Prop) (p : api A) (f : A -> api B) :
    obq (val Q) p -> (forall v, Q v -> obq (val R) (f v)) -> obq (val R) (bind p f).
  Proof. intros Hp Hf. apply obeys_bind. eapply obeys_conseq; [exact Hp|]. by intros [v|e] H; [apply Hf|]. Qed.
  Lemma o_weak {A} (Q : A -> Prop) (p : api A) : obq (val Q) p -> ob p.
  Proof. intros H. eapply obeys_conseq; [exact H|done]. Qed.
  Lemma o_any {A} (p : api A) : ob p -> obq (val (fun _ => True)) p.
  Proof. intros H. eapply obeys_conseq; [exact H|]. by intros [|]. Qed.
  Lemma o_try {A} (p : api A) : ob p -> ob (try_ p).
  Proof. intros Hp. apply obeys_try. eapply obeys_conseq; [exact Hp|]. done. Qed.
  Lemma o_for_each {A} (xs : list A) f : (forall x, x ∈ xs -> ob (f x)) -> ob (for_each xs f).
  Proof. intros Hf. apply obeys_for_each; [|done]. intros x Hx. eapply obeys_conseq; [by apply Hf|]. by intros []. Qed.
  Lemma o_fold {A B} (xs : list A) (f : B -> A -> api B) b : (forall b x, x ∈ xs -> ob (f b x)) -> ob (fold_prog xs f b).
  Proof.
    intros Hf. apply obeys_fold_prog with (L := fun _ => True); [done| |done]. intros b' x _ Hx.
    eapply obeys_conseq; [by apply Hf|]. by intros [].
  Qed.
  Lemma o_map {A B} (xs : list A) (f : A -> api B) : (forall x, x ∈ xs -> ob (f x)) -> ob (map_prog f xs).
  Proof.
    intros Hf. apply obeys_map_prog with (L := fun _ => True); [|done]. intros x Hx. eapply obeys_conseq; [by apply Hf|]. by intros [].
  Qed.
  Lemma o_mapq {A B} (L : B -> Prop) (xs : list A) (f : A -> api B) : (forall x, x ∈ xs -> obq (val L) (f x)) -> obq (val (Forall L)) (map_prog f xs).
  Proof.
    intros Hf. apply obeys_map_prog with (L := L); [|done]. intros x Hx. eapply obeys_conseq; [by apply Hf|]. by intros [].
  Qed.
  Lemma o_filter {A} (xs : list A) (f : A -> api bool) : (forall x, x ∈ xs -> ob (f x)) -> ob (filter_prog f xs).
  Proof. intros Hf. apply obeys_filter_prog; [|done]. intros x Hx. eapply obeys_conseq; [by apply Hf|]. by intros []. Qed.
  Lemma o_filterq {A} (xs : list A) (f : A -> api bool) : (forall x, x ∈ xs -> ob (f x)) ->
    obq (val (fun ys => ys `sublist_of` xs)) (filter_prog f xs).
  Proof. intros Hf. apply obeys_filter_prog; [|done]. intros x Hx. eapply obeys_conseq; [by apply Hf|]. by intros []. Qed.
  Lemma o_outcome {A} (o : outcome A) : ob (of_outcome o).
  Proof. by destruct o. Qed.
  Lemma o_from_just {A} (o : option A) : obq (val (fun a => o = Some a)) (from_just o).
  Proof. by destruct o. Qed.
  Lemma o_key_error {A} (o : option A) : obq (val (fun a => o = Some a)) (of_key_error o).
  Proof. by destruct o. Qed.
  Lemma o_order {A} (xs : list A) : obq (val (fun ys => ys ≡ₚ xs)) (order xs).
  Proof. split; [done|]. intros r _. simpl. apply reorder_perm. Qed.
  Lemma o_checked {A} (check : json -> outcome A) k :
    obq (val (fun m => forall a, m = Some a -> exists v, check v = Val a /\ forall i, k = item_key i -> item_from i v)) (load_checked check k).
  Proof.
    split; [done|]. intros r Hr. destruct r as [[v|]|e]; simpl; [|done|done]. destruct (check v) eqn:E; simpl; [|done].
    intros a' [= <-]. exists v. split; [done|]. intros i Hk. by apply Hr.
  Qed.
  Lemma o_load {A} (check : json -> outcome A) k : ob (load_checked check k).
  Proof. eapply o_weak, o_checked. Qed.
  Lemma good_val {A} (check : json -> outcome A) T v a : good_check check T -> check v = Val a -> T v a.
  Proof. intros Hg Hc. destruct (Hg v) as [(a' & Ha & E)|[_ E]]; rewrite E in Hc; [by injection Hc as <-|done]. Qed.
  Lemma o_typed {A} (check : json -> outcome A) T i : good_check check T ->
    obq (val (fun m => forall a, m = Some a -> exists v, T v a /\ item_from i v)) (load_checked check (item_key i)).
  Proof.
    intros Hg. eapply obeys_conseq; [apply o_checked|]. intros [m|] Hm; [|done]. intros a Ha. destruct (Hm a Ha) as (v & Hv & Hi).
    exists v. split; [by eapply good_val|by apply Hi].
  Qed.
  Lemma o_ns j x : obq (val (fun m => forall ns n, m = Some ns -> n ∈ ns -> ours X j \/ on_list X l n j x)) (load_list as_str (k_ns j x)).
  Proof.
    eapply obeys_conseq; [apply (o_typed _ _ (INamespaces j x) good_strs)|]. intros [m|] Hm; [|done]. intros ns n Ha Hn.
    destruct (Hm ns Ha) as (v & Hv & Hi). by eapply Hi.
  Qed.
  Lemma o_active j x : obq (val (fun m => forall a n b, m = Some a -> dget n a = Some b -> ours X j \/ on_list X l n j x)) (load_dict as_bool (k_active j x)).
  Proof.
    eapply obeys_conseq; [apply (o_typed _ _ (IActive j x) good_bools)|]. intros [m|] Hm; [|done]. intros a n b Ha Hn.
    destruct (Hm a Ha) as (v & Hv & Hi). by eapply Hi.
  Qed.
  Lemma o_label j x : obq (val (fun m => forall s, m = Some (Some s) -> ours X j \/ with_label X l j x s)) (load_optional as_str (k_label j x)).
  Proof.
    eapply obeys_conseq; [apply (o_typed _ _ (ILabel j x) good_label)|]. intros [m|] Hm; [|done]. intros s Ha.
    destruct (Hm _ Ha) as (v & Hv & Hi). by eapply Hi.
  Qed.
  Lemma o_list j : obq (val (fun m => forall zs x, m = Some zs -> x ∈ zs -> ours X j \/ exists ns, on_list X l ns j x)) (load_list as_int (k_list j)).
  Proof.
    eapply obeys_conseq; [apply (o_typed _ _ (IDeviceList j) good_ints)|]. intros [m|] Hm; [|done]. intros zs x Ha Hx.
    destruct (Hm zs Ha) as (v & Hv & Hi). by eapply Hi.
  Qed.
  Lemma o_trust j ik : obq (val (fun m => forall s, m = Some s -> in_level X j ik s)) (load_primitive as_str (k_trust j ik)).
  Proof.
    eapply obeys_conseq; [apply (o_typed _ _ (ITrust j ik) good_str)|]. intros [m|] Hm; [|done]. intros s Ha.
    destruct (Hm _ Ha) as (v & Hv & Hi). destruct Hv. by apply Hi.
  Qed.
  Lemma o_key j x : obq (val (fun m => forall ik, m = Some ik -> key_from X l j x ik)) (load_bytes (k_ik j x)).
  Proof.
    eapply obeys_conseq; [apply o_checked|]. intros [m|] Hm; [|done]. intros ik Ha. destruct (Hm ik Ha) as (v & Hv & Hi).
    specialize (Hi (IIdentityKey j x) eq_refl). destruct v; try discriminate Hv. destruct (b64dec s) eqn:E; [|done]. injection Hv as <-.
    by eapply Hi.
  Qed.
  (** stores *)
  Lemma f_store i v : core i -> item_from i v -> Fo (SStore (item_key i) v).
  Proof. intros Hc H i' Hi. apply core_inj in Hi as <-; done. Qed.
  Lemma o_store i v : core i -> item_from i v -> ob (s_store (item_key i) v).
  Proof. intros Hc H. split; [by apply f_store|]. intros r _. apply o_outcome. Qed.
  Lemma o_store_q i v : ~ core i -> ob (s_store (item_key i) v).
  Proof.
    intros Hc. split.
    - intros i' Hi. destruct i'; try exact I; symmetry in Hi; apply core_inj in Hi as <-; try done; exfalso; by apply Hc.
    - intros r _. apply o_outcome.
  Qed.
  Lemma o_store_ns j x ns : (forall n, n ∈ ns -> ours X j \/ on_list X l n j x) -> ob (s_store (k_ns j x) (j_strs ns)).
  Proof.
    intros H. apply (o_store (INamespaces j x)); [done|]. intros ns' n Hns Hn. apply H.
    assert (ns' = ns) as ->; [|done]. destruct (is_strs ns). inversion Hns; subst. eapply Forall2_fun; [|eassumption..]. intros ???. apply is_str_fun.
  Qed.
  Lemma o_store_active j x m : (forall n b, dget n m = Some b -> ours X j \/ on_list X l n j x) -> ob (s_store (k_active j x) (j_bools m)).
  Proof.
    intros H. apply (o_store (IActive j x)); [done|]. intros m' n b Hm Hn. eapply H.
    assert (m' = m) as <-; [|done]. eapply is_dict_fun; [apply is_bool_fun|exact Hm|apply is_bools].
  Qed.
  Lemma o_store_label j x o : (forall s, o = Some s -> ours X j \/ with_label X l j x s) -> ob (s_store (k_label j x) (j_opt o)).
  Proof.
    intros H. apply (o_store (ILabel j x)); [done|]. intros s Hs. apply H. eapply is_opt_fun; [apply is_str_fun|apply is_label|exact Hs].
  Qed.
  Lemma o_store_key j x ik : key_from X l j x ik -> ob (store_bytes (k_ik j x) ik).
  Proof.
    intros H. apply (o_store (IIdentityKey j x)); [done|]. intros s ik' [= <-] E. rewrite b64_roundtrip in E. by injection E as <-.
  Qed.
  Lemma o_store_list j zs : (forall x, x ∈ zs -> ours X j \/ exists ns, on_list X l ns j x) -> ob (s_store (k_list j) (j_ints zs)).
  Proof.
    intros H. apply (o_store (IDeviceList j)); [done|]. intros zs' x Hzs Hx. apply H.
    assert (zs' = zs) as ->; [|done]. destruct (is_ints zs). inversion Hzs; subst. eapply Forall2_fun; [|eassumption..]. intros ???. apply is_int_fun.
  Qed.
  Lemma o_store_trust j ik level : in_level X j ik level -> ob (s_store (k_trust j ik) (JStr level)).
  Proof. intros H. apply (o_store (ITrust j ik)); [done|]. by intros level' [= <-]. Qed.

  Lemma o_cmd {A B} (c : cmd) (k : resp c -> api A) (f : A -> api B) Q :
    Fo c -> (forall r, Eo c r -> obq Q (bind (k r) f)) -> obq Q (bind (Step c k) f).
  Proof. intros H1 H2. by split. Qed.
  Lemma o_ret {A B} (a : A) (f : A -> api B) Q : obq Q (f a) -> obq Q (bind (Ret a) f).
  Proof. done. Qed.
  Ltac o1 :=
    match goal with
    | |- obeys _ _ _ (bind (s_store _ _) _) => apply o_bind; [|intros ?]
    | |- obeys _ _ _ (bind (store_bytes _ _) _) => apply o_bind; [|intros ?]
    | |- obeys _ _ _ (bind (Step ?c ?k) _) =>
        apply o_cmd; [exact I|let r := fresh "r" in let H := fresh "He" in intros r H; cbn in H;
          try (let T := type of r in let T := eval cbn in T in
            lazymatch T with outcome _ => destruct r as [?|?]; cbn [of_outcome]; [|exact I] end)]
    | |- obeys _ _ _ (bind (Ret _) _) => apply o_ret
    | |- obeys _ _ _ (bind (load_list _ _) _) => apply o_bind; [apply o_load|intros ?]
    | |- obeys _ _ _ (bind _ _) => apply o_bind; [|intros ?]
    | |- obeys _ _ _ (try_ _) => apply o_try
    | |- obeys _ _ _ (Ret _) => exact I
    | |- obeys _ _ _ (Raise _) => exact I
    | |- obeys _ _ _ (for_each _ _) => apply o_for_each; intros ? ?
    | |- obeys _ _ _ (fold_prog _ _ _) => apply o_fold; intros ? ? ?
    | |- obeys _ _ _ (map_prog _ _) => apply o_map; intros ? ?
    | |- obeys _ _ _ (filter_prog _ _) => apply o_filter; intros ? ?
    | |- obeys _ _ _ (order _) => eapply o_weak, o_order
    | |- obeys _ _ _ (of_key_error _) => eapply o_weak, o_key_error
    | |- obeys _ _ _ (from_just _) => eapply o_weak, o_from_just
    | |- obeys _ _ _ (of_outcome _) => apply o_outcome
    | |- obeys _ _ _ (load_list _ _) => apply o_load
    | |- obeys _ _ _ (load_dict _ _) => apply o_load
    | |- obeys _ _ _ (load_bytes _) => apply o_load
    | |- obeys _ _ _ (load_optional _ _) => apply o_load
    | |- obeys _ _ _ (load_primitive _ _) => apply o_load
    | |- obeys _ _ _ (let '_ := ?b in _) => destruct b
    | |- obeys _ _ _ (match ?b with _ => _ end) => destruct b
    | |- obeys _ _ _ (if ?b then _ else _) => destruct b
    | |- obeys _ _ _ (Step ?c _) =>
        split; [exact I|let H := fresh "He" in intros ? H; cbn in H]; first [apply o_outcome|exact I|idtac]
    end.
  Ltac unwr := unfold set_trust, b_load_session, b_build_active, b_build_passive, b_enc_plain, b_enc_empty, b_enc_key, b_dec_key,
    b_store_session, b_dec_plain, b_spk_age, b_rotate, b_hide, b_delete, b_del_hidden, b_num_visible, b_generate,
    b_get_bundle, b_purge, b_purge_jid, n_upload_bundle, n_download_bundle, n_delete_bundle, n_upload_dl,
    n_download_dl, n_send, t_eval, t_blind, c_sleep, s_delete, k_same, g_loaded, g_sync, p_loaded,
    p_sync, c_randbelow, c_randbytes in *.
  Ltac rt := unwr; repeat (cbv zeta; o1).

  (** ** Device lists *)
  Lemma o_upd_new ns j dl dev : (ours X j \/ announced X l ns j dl) -> dev ∈ dkeys dl -> ob (upd_new ns j dl dev).
  Proof.
    intros Ha Hd. assert (ours X j \/ on_list X l ns j dev) as Hon by (destruct Ha; [by left|right; by exists dl]).
    unfold upd_new. apply o_bind.
    { apply o_store_active. intros n b. simpl. destruct (decide (n = ns)) as [->|]; done. }
    intros _. destruct (dget dev dl) as [label|] eqn:E; [|done]. apply o_bind.
    { apply o_store_label. intros s ->. destruct Ha; [by left|right]. by exists ns, dl. }
    intros _. apply o_store_ns. intros n ->%elem_of_list_singleton. done.
  Qed.
  Lemma o_upd_old ns j dl dev : (ours X j \/ announced X l ns j dl) -> ob (upd_old ns j dl dev).
  Proof.
    intros Ha. unfold upd_old. apply (o_weak (fun _ => True)). eapply o_bindq; [apply o_ns|]. intros m Hm.
    eapply o_bindq; [apply o_from_just|]. intros nss ->. cbv zeta. eapply o_bindq; [apply o_active|]. intros m' Hm'.
    eapply o_bindq; [apply o_from_just|]. intros act ->. apply o_any. destruct (dget dev dl) as [label|] eqn:E.
    - assert (ours X j \/ on_list X l ns j dev) as Hon.
      { destruct Ha; [by left|right]. exists dl. split; [done|]. apply dget_keys. eauto. }
      apply o_bind.
      { case_bool_decide; [done|]. apply o_store_active. intros n b. rewrite dget_dset'. destruct (decide (n = ns)) as [->|]; [done|]. by apply (Hm' act). }
      intros _. apply o_bind; [apply o_load|]. intros m''. apply o_bind; [eapply o_weak, o_from_just|]. intros lb. apply o_bind.
      { destruct (_ && _); [|done]. apply o_store_label. intros s ->. destruct Ha; [by left|right]. by exists ns, dl. }
      intros _. destruct (decide _); [done|]. apply (o_weak (fun _ => True)). eapply o_bindq; [apply o_order|]. intros l' Hl'. apply o_any, o_store_ns.
      intros n1 Hn. rewrite Hl' in Hn. apply elem_add in Hn as [->|Hn]; [done|]. rewrite elem_pyset in Hn. by apply (Hm nss).
    - destruct (decide _) as [Hns|]; [|done]. destruct (dget ns act) as [[|]|] eqn:Ea; [|done|done]. apply o_store_active.
      intros n b. rewrite dget_dset'. destruct (decide (n = ns)) as [->|]; [|by apply (Hm' act)]. intros _. apply (Hm nss); [done|]. by apply elem_pyset.
  Qed.
  Lemma o_update cf ns j dl : in_cfg X cf -> announced X l ns j dl -> ob (update_device_list cf ns j dl).
  Proof.
    intros Hcf Ha. unfold update_device_list. apply o_cmd; [exact I|]. intros bks _. apply (o_weak (fun _ => True)).
    apply o_ret. cbv beta.
    destruct (decide _); [|done]. cbv zeta. eapply o_bindq; [apply o_list|]. intros m Hm.
    eapply (o_bindq (fun dl' => (ours X j \/ announced X l ns j dl') /\ forall x, x ∈ dkeys dl -> x ∈ dkeys dl')).
    { unfold upd_own. destruct (decide (j = c_jid cf)) as [->|]; [|by split; [right|]].
      assert (ours X (c_jid cf)) as Ho by (by exists cf). apply o_cmd; [exact I|]. intros bks' _. apply o_ret. cbv beta.
      destruct (_ && _); [|by split; [left|]]. eapply o_bindq; [eapply o_any, o_load|]. intros m0 _.
      eapply o_bindq; [eapply o_any, o_weak, o_from_just|]. intros lb _. eapply o_bindq; [apply o_any; rt|]. intros _ _. split; [by left|].
      intros x Hx. apply dget_keys in Hx as [v Hv]. apply dget_keys. rewrite dget_dset'. destruct (decide _); eauto. }
    intros dl' [Ha' Hdl']. eapply o_bindq; [apply o_order|]. intros nd Hnd.
    assert (forall x, x ∈ nd -> x ∈ dkeys dl') as Hnd'.
    { intros x Hx. rewrite Hnd in Hx. apply elem_diff in Hx as [Hx _]. rewrite elem_pyset in Hx. auto. }
    apply o_any, o_bind. { apply o_for_each. intros x Hx. apply o_upd_new; auto. }
    intros _. apply o_bind; [eapply o_weak, o_order|]. intros od. apply o_bind. { apply o_for_each. intros x Hx. by apply o_upd_old. }
    intros _. destruct (set_diff _ _) as [|z zs] eqn:E; [done|]. apply (o_weak (fun _ => True)). eapply o_bindq; [apply o_order|]. intros l' Hl'. apply o_any, o_store_list.
    intros x Hx. rewrite Hl' in Hx. apply elem_union in Hx as [Hx|Hx]; rewrite elem_pyset in Hx.
    - right. exists ns, dl. by split.
    - destruct m as [zs'|]; [|by apply elem_of_nil in Hx]. by apply (Hm zs').
  Qed.
  Lemma o_refresh cf ns j : in_cfg X cf -> ob (refresh_device_list cf ns j).
  Proof. intros Hc. unfold refresh_device_list. rt. apply o_update; [done|by left]. Qed.
  Lemma o_refresh_all cf j : in_cfg X cf -> ob (refresh_device_lists cf j).
  Proof. intros Hc. unfold refresh_device_lists. rt. by apply o_refresh. Qed.

  (** ** Device information *)
  Lemma o_find_key j dev nss : obq (val (fun mb => forall b, mb = Some b -> key_from X l j dev (b_ik b))) (find_key j dev nss).
  Proof.
    induction nss as [|ns nss IH]; [done|]. cbn [find_key]. apply obeys_bind, obeys_try. split; [exact I|]. intros r Hr. cbn in Hr.
    destruct r as [b|e]; [|by destruct e]. cbn [of_outcome obeys]. assert (key_from X l j dev (b_ik b)) by (left; by exists ns, b).
    eapply o_bindq; [by apply o_any, o_store_key|]. intros _ _. by intros b' [= <-].
  Qed.
  Lemma o_info_rest cf j dev nss ik : in_cfg X cf -> key_from X l j dev ik -> (forall n, n ∈ nss -> ours X j \/ on_list X l n j dev) ->
    obq (val (device_from X l)) (dev_info_rest cf j dev nss ik).
  Proof.
    intros Hcf Hk Hns. unfold dev_info_rest. eapply o_bindq; [apply o_active|]. intros m Hm. eapply o_bindq; [apply o_from_just|]. intros act ->.
    eapply o_bindq; [apply o_label|]. intros m' Hm'. eapply o_bindq; [apply o_from_just|]. intros lb ->.
    eapply o_bindq; [apply o_trust|]. intros m'' Hm''. cbv zeta. eapply (o_bindq (fun ns' => forall n, n ∈ ns' -> n ∈ nss)).
    { destruct (forallb _ _); [exact (fun n Hn => Hn)|]. eapply o_bindq; [apply o_order|]. intros l' Hl'. eapply o_bindq; [apply o_any, o_store_ns|].
      - intros n Hn. rewrite Hl' in Hn. apply elem_of_list_filter in Hn as [_ Hn]. auto.
      - intros _ _ n [_ Hn]%elem_of_list_filter. done. }
    intros ns' Hns'. split; [done|]. split; [by auto|]. split; [intros n b Hb; by eapply Hm|]. split; [intros s Hs; apply Hm'; simpl in Hs; by rewrite Hs|].
    destruct m'' as [s|]; [left; by apply Hm''|right]. by exists cf.
  Qed.
  Lemma o_info_ cf j : in_cfg X cf -> obq (val (fun v => Forall (device_from X l) v.1)) (get_device_information_ cf j).
  Proof.
    intros Hcf. unfold get_device_information_. eapply o_bindq; [apply o_any, o_load|]. intros m _. eapply o_bindq; [apply o_order|]. intros xs _.
    apply obeys_fold_prog with (L := fun v => Forall (device_from X l) v.1); [constructor| |done].
    intros [ds bs] x Hds _. change (obq (val (fun v => Forall (device_from X l) v.1)) (dev_info cf j (ds, bs) x)). unfold dev_info.
    eapply o_bindq; [apply o_ns|]. intros m1 Hm1. eapply o_bindq; [apply o_from_just|]. intros nss ->. cbv zeta.
    assert (forall n, n ∈ pyset nss -> ours X j \/ on_list X l n j x) as Hns. { intros n Hn. rewrite elem_pyset in Hn. by apply (Hm1 nss). }
    eapply o_bindq; [apply o_key|]. intros [ik|] Hik.
    - eapply o_bindq; [apply o_info_rest; auto|]. intros d Hd. simpl. apply Forall_app. split; [done|]. by constructor.
    - eapply o_bindq; [apply o_order|]. intros nso _. eapply o_bindq; [apply o_find_key|]. intros [b|] Hb; [|done].
      eapply o_bindq; [apply o_info_rest; auto|]. intros d Hd. simpl. apply Forall_app. split; [done|]. by constructor.
  Qed.
  Lemma o_info cf j : in_cfg X cf -> obq (val (Forall (device_from X l))) (get_device_information cf j).
  Proof. intros Hcf. unfold get_device_information. eapply o_bindq; [by apply o_info_|]. by intros v Hv. Qed.
  Lemma o_own cf : in_cfg X cf -> ob (get_own_device_information cf).
  Proof. intros Hcf. unfold get_own_device_information. apply o_bind; [by eapply o_weak, o_info|]. intros ds. cbv zeta. by destruct (filter _ _). Qed.

  Lemma sublist_elem {A} (y : A) ys xs : ys `sublist_of` xs -> y ∈ ys -> y ∈ xs.
  Proof. intros Hs Hy. apply sublist_submseteq in Hs. by eapply elem_of_submseteq. Qed.
  (** ** The other calls *)
  Ltac q := first [by apply o_refresh | by apply o_refresh_all | by eapply o_weak, o_info | by eapply o_weak, o_info_ | by apply o_own
                  | apply (o_store IKeyPairIsSeed); done | apply (o_store IKeyPairKey); done | apply (o_store IOwnDeviceId); done
                  | apply (o_store_q (IQueue _)); apply not_elem_of_nil | apply (o_store_q (IQueueDevices _ _)); apply not_elem_of_nil].
  Lemma o_ikp : ob ikp_get.
  Proof. unfold ikp_get. rt; unfold ikp_generate; rt; unfold store_bytes; q. Qed.
  Lemma o_setlabel cf label : in_cfg X cf -> ob (set_own_label cf label).
  Proof. intros Hc. unfold set_own_label. rt. apply o_store_label. intros s _. left. by exists cf. Qed.
  Lemma o_purge_backend cf ns : in_cfg X cf -> ob (purge_backend cf ns).
  Proof.
    intros Hc. assert (ours X (c_jid cf)) as Ho by (by exists cf). unfold purge_backend. rt; try q.
    all: first [apply o_store_active; by left|apply o_store_ns; by left].
  Qed.
  Lemma o_purge_jid jid : ob (purge_bare_jid jid).
  Proof. unfold purge_bare_jid. rt; unfold collect_key; rt. Qed.
  Lemma o_rotate_upload cf fuel rd ns : ob (rotate_upload cf fuel rd ns).
  Proof. revert rd. induction fuel as [|n IH]; intros rd; [done|]. cbn [rotate_upload]. rt; apply IH. Qed.
  Lemma o_rotation cf fuel period : ob (rotation cf fuel period).
  Proof.
    induction fuel as [|n IH]; [done|]. cbn [rotation]. rt; try exact IH. unfold rotate_one. rt. apply o_rotate_upload.
  Qed.
  Lemma o_ensure cf : in_cfg X cf -> ob (ensure_data_consistency cf).
  Proof. intros Hc. unfold ensure_data_consistency. rt; q. Qed.
  Lemma o_fresh_id fuel ids : ob (fresh_id fuel ids).
  Proof. induction fuel as [|n IH]; [done|]. cbn [fresh_id]. rt. exact IH. Qed.
  Lemma o_create P fuel a : uses X (KCreate P fuel a) -> ob (create P fuel a).
  Proof.
    intros (HP & Hc & Hl). assert (forall dev, in_cfg X (cfg_of a dev)) as Hc' by exact Hc.
    assert (ours X (a_jid a)) as Ho by (exists (cfg_of a 0); by split).
    assert (forall k, in_level X (a_jid a) (ikp_identity_key P k) (a_undecided a)) as Hlv by (intros [s|s]; apply Hl).
    assert (forall k dev, key_from X l (a_jid a) dev (ikp_identity_key P k)) as Hk.
    { intros [s|s] dev; right; (split; [done|]); exists P, s; split; auto. }
    unfold create. rt; try apply o_ikp; try q.
    - unfold first_run_local. rt; try apply o_fresh_id; try q.
      + apply o_store_ns; by left.
      + apply o_store_active; by left.
      + apply o_store_label; by left.
      + by apply o_store_key.
      + apply o_store_list; by left.
      + by apply o_store_trust.
    - unfold first_run_publish. rt; try q.
    - unfold reconcile. rt; try q; try by apply o_purge_backend.
      + apply o_store_active; by left.
      + apply o_store_ns; by left.
      + unfold add_backend; rt; q.
  Qed.
  Lemma o_chain j x nss : ob (get_sending_chain_length j x nss).
  Proof. unfold get_sending_chain_length. rt. Qed.
  Lemma o_empty cf ns s : ob (send_empty_message cf ns s).
  Proof. unfold send_empty_message. rt. Qed.
  Lemma o_replace cf j x : in_cfg X cf -> ob (replace_sessions cf j x).
  Proof. intros HC. unfold replace_sessions. rt; try q; unfold replace_one; rt. Qed.
  Lemma o_after cf : ob (after_history_sync cf).
  Proof. unfold after_history_sync. rt. unfold flush_ns. rt. unfold flush_jid. rt. unfold flush_dev. rt; apply o_empty. Qed.

  Lemma from_priority prio d d' : device_from X l d -> apply_priority prio d = Some d' -> device_from X l d'.
  Proof.
    unfold apply_priority. destruct (active_namespaces _ _) as [a|] eqn:Ea; [|done]. simpl. intros (H1 & H2 & H3 & H4 & H5) [= <-].
    split; [exact H1|]. split; [|by split]. simpl. intros n Hn. apply H2.
    assert (n ∈ sort_by (index_of prio) (filter (fun ns => ns ∈ prio) a)) as Hs.
    { destruct (sort_by _ _); [done|]. simpl in Hn. rewrite take_0 in Hn. apply elem_of_list_singleton in Hn as ->. left. }
    rewrite sort_by_perm in Hs. apply elem_of_list_filter in Hs as [_ Hs]. by apply (active_spec _ _ _ Ea) in Hs as [Hs _].
  Qed.
  Lemma from_priorities prio ds ds' : Forall (device_from X l) ds -> mapM (apply_priority prio) ds = Some ds' -> Forall (device_from X l) ds'.
  Proof.
    intros Hds Hm. apply mapM_Some in Hm. induction Hm as [|d d' ds ds' Hd _ IH]; [constructor|].
    inversion Hds; subst. constructor; [by eapply from_priority|auto].
  Qed.
  Lemma from_valid cf prio ds ds' : Forall (device_from X l) ds -> valid_recipients cf prio ds = Some ds' -> Forall (device_from X l) ds'.
  Proof.
    intros Hds. revert ds'. induction Hds as [|d ds Hd _ IH]; intros ds'; simpl; [by intros [= <-]|].
    destruct (is_valid_recipient _ _ _) as [b|]; [|done]. simpl. destruct (valid_recipients _ _ _) as [r|]; [|done]. simpl.
    intros [= <-]. specialize (IH r eq_refl). destruct b; [by constructor|done].
  Qed.
  Lemma o_eval d : device_from X l d -> ob (t_eval d).
  Proof. intros Hd. split; [by intros _|]. intros r _. apply o_outcome. Qed.
  Lemma o_with tr ds : Forall (device_from X l) ds -> obq (val (Forall (device_from X l))) (devices_with tr ds).
  Proof.
    intros Hds. unfold devices_with. eapply o_bindq; [apply o_order|]. intros l' Hl'.
    assert (Forall (device_from X l) l') as Hl'' by (by rewrite Hl').
    eapply obeys_conseq; [apply o_filterq|].
    - intros d Hd. apply o_bind; [|done]. apply o_eval. rewrite Forall_forall in Hl''. auto.
    - intros [ys|] Hys; [|done]. simpl in *. rewrite Forall_forall in Hl'' |- *. intros y Hy. apply Hl''. by eapply sublist_elem.
  Qed.
  Lemma o_reload cf d : in_cfg X cf -> device_from X l d -> obq (val (device_from X l)) (reload_trust cf d).
  Proof.
    intros Hc (H1 & H2 & H3 & H4 & H5). unfold reload_trust. eapply o_bindq; [apply o_trust|]. intros m Hm. simpl.
    split; [exact H1|]. split; [exact H2|]. split; [exact H3|]. split; [exact H4|]. simpl.
    destruct m as [s|]; [left; by apply Hm|right; by exists cf].
  Qed.
  Lemma o_encrypt cf mtd jids pt prio ident : in_cfg X cf -> (forall ds i, ob (mtd ds i)) -> ob (encrypt cf mtd jids pt prio ident).
  Proof.
    intros Hc Hm. unfold encrypt. apply o_bind; [rt|]. intros av. apply o_bind; [rt|]. intros pr. cbv zeta.
    apply o_bind; [rt|]. intros js. apply (o_weak (fun _ => True)).
    eapply (o_bindq (fun tmp => Forall (device_from X l) (concat (map fst tmp)))).
    { eapply obeys_conseq; [apply (o_mapq (fun v => Forall (device_from X l) v.1))|].
      - intros j _. by apply o_info_.
      - intros [tmp|] Ht; [|done]. simpl in *. induction Ht as [|v tmp Hv _ IH]; [constructor|]. simpl. apply Forall_app. by split. }
    intros tmp Ht. eapply o_bindq; [apply o_key_error|]. intros ds Hds. apply (from_valid _ _ _ _ Ht) in Hds. clear Ht.
    eapply o_bindq; [apply o_key_error|]. intros ds' Hds'. apply (from_priorities _ _ _ Hds) in Hds'. clear Hds.
    assert (Forall (device_from X l) (filter (fun d => dv_namespaces d <> []) ds')) as Hf.
    { apply Forall_forall. intros d [_ Hd]%elem_of_list_filter. rewrite Forall_forall in Hds'. auto. }
    apply o_any, o_bind; [|intros ?; rt; unfold enc_backend; rt; unfold enc_device; rt].
    unfold enc_trust. apply (o_weak (fun _ => True)). eapply o_bindq; [by apply o_with|]. intros und _.
    eapply (o_bindq (Forall (device_from X l))).
    { destruct und; [done|]. eapply o_bindq; [apply o_any, Hm|]. intros _ _. eapply o_bindq; [apply o_order|]. intros l' Hl'.
      apply o_mapq. intros d0 Hd. apply o_reload; [done|]. rewrite Forall_forall in Hf. apply Hf. by rewrite <- Hl'. }
    intros ds2 Hds2. eapply o_bindq; [by apply o_with|]. intros und' _. destruct und'; [|done]. by eapply o_any, o_weak, o_with.
  Qed.
  Lemma o_sender cf m : in_cfg X cf -> obq (val (device_from X l)) (dec_sender cf m).
  Proof.
    intros Hc. unfold dec_sender. eapply o_bindq; [by apply o_info|]. intros ds Hds.
    assert (forall ds d r, Forall (device_from X l) ds -> filter (fun d => dv_id d = m_dev m) ds = d :: r -> device_from X l d) as Hf.
    { intros ds0 d r H0 E. rewrite Forall_forall in H0. apply H0. assert (d ∈ filter (fun d => dv_id d = m_dev m) ds0) as Hd by (rewrite E; left).
      by apply elem_of_list_filter in Hd as [_ Hd]. }
    destruct (filter _ ds) as [|d r] eqn:E; [|by eapply Hf].
    eapply o_bindq; [by apply o_any, o_refresh|]. intros _ _. eapply o_bindq; [by apply o_info|]. intros ds' Hds'.
    destruct (filter _ ds') as [|d r] eqn:E'; [done|by eapply Hf].
  Qed.
  Lemma o_decrypt cf m : in_cfg X cf -> ob (decrypt cf m).
  Proof.
    intros HC. unfold decrypt. apply o_bind; [rt|]. intros bks. destruct (decide _) as [_|_]; [|done]. cbv zeta. apply o_bind; [rt|]. intros keys.
    destruct (filter _ keys) as [|[e mk] ks]; [done|]. apply (o_weak (fun _ => True)). eapply o_bindq; [by apply o_sender|].
    intros d Hd. apply o_any, o_bind; [by apply o_eval|]. intros t. destruct (decide _) as [_|_]; [done|].
    apply o_bind. { unfold dec_existing, dec_kex. rt. }
    intros [s p]. apply o_bind; [rt|]. intros pl. apply o_bind; [rt|]. intros _. apply o_bind; [unfold dec_prekeys; rt|].
    intros _. apply o_bind; [|done]. unfold dec_respond. rt; first [q|apply o_empty].
  Qed.
  Lemma o_call c : uses X c -> (forall cf mtd jids pt prio ident, c = KEncrypt cf mtd jids pt prio ident -> forall ds i, ob (mtd ds i)) ->
    ob (run_call c).
  Proof.
    intros HG Hm. destruct c; cbn [run_call call_ret].
    - by apply o_create.
    - apply o_ikp.
    - destruct HG. apply o_update; [done|by right].
    - by apply o_refresh.
    - by apply o_refresh_all.
    - by apply o_store_trust.
    - by eapply o_weak, o_info.
    - by apply o_own.
    - by apply o_setlabel.
    - by apply o_purge_backend.
    - apply o_purge_jid.
    - apply o_rotation.
    - by apply o_ensure.
    - by apply o_replace.
    - apply o_chain.
    - unfold before_history_sync. rt.
    - by apply o_after.
    - apply o_encrypt; [done|]. by eapply Hm.
    - by apply o_decrypt.
  Qed.
  Lemma o_code ext {A} (p : api A) : (forall c, ext c = true -> external c = true /\ Fo c) -> code ext (uses X) p -> ob p.
  Proof.
    intros Hext H. induction H as [A v|A e|A B p f Hp IHp Hf IHf|A p Hp IHp|c Hc|c Hc Hm IHm].
    - done.
    - done.
    - by apply o_bind.
    - by apply o_try.
    - split; [by apply Hext|]. done.
    - apply o_call; [done|exact IHm].
  Qed.
  End fixed.

  (** ** Pools *)
  Lemma key_mono l l' j x ik : l ⊆ l' -> key_from X l j x ik -> key_from X l' j x ik.
  Proof. intros Hs [(ns & b & H & E)|H]; [left; exists ns, b; auto|by right]. Qed.
  Lemma ann_mono l l' ns j dl : l ⊆ l' -> announced X l ns j dl -> announced X l' ns j dl.
  Proof. intros Hs [H|H]; [left; auto|by right]. Qed.
  Lemma on_mono l l' ns j x : l ⊆ l' -> on_list X l ns j x -> on_list X l' ns j x.
  Proof. intros Hs (dl & H & E). exists dl. split; [by eapply ann_mono|done]. Qed.
  Lemma label_mono l l' j x s : l ⊆ l' -> with_label X l j x s -> with_label X l' j x s.
  Proof. intros Hs (ns & dl & H & E). exists ns, dl. split; [by eapply ann_mono|done]. Qed.
  Lemma item_mono l l' i v : l ⊆ l' -> item_from l i v -> item_from l' i v.
  Proof.
    intros Hs. destruct i; simpl; auto.
    - intros H zs x H1 H2. destruct (H zs x H1 H2) as [|(ns & Ho)]; [by left|right]. exists ns. by eapply on_mono.
    - intros H ns n H1 H2. destruct (H ns n H1 H2); [by left|right]. by eapply on_mono.
    - intros H m n b H1 H2. destruct (H m n b H1 H2); [by left|right]. by eapply on_mono.
    - intros H s H1. destruct (H s H1); [by left|right]. by eapply label_mono.
    - intros H s ik H1 H2. eapply key_mono; eauto.
  Qed.
  Definition disk_from (w : world) : Prop := forall i v, w_disk w !! item_key i = Some v -> item_from (w_log w) i v.
  Lemma disk_storage w : disk_from w <-> storage_from X (w_log w) (w_disk w).
  Proof.
    split.
    - intros H. split; [|split; [|split; [|split; [|split]]]].
      + intros j x ik (s & Hs & E). by apply (H (IIdentityKey j x) _ Hs s).
      + intros j x (zs & (v & Hv & T) & Hx). by eapply (H (IDeviceList j) _ Hv).
      + intros j x n (ns & (v & Hv & T) & Hn). by eapply (H (INamespaces j x) _ Hv).
      + intros j x n b (m & (v & Hv & T) & Hn). by eapply (H (IActive j x) _ Hv).
      + intros j x s (v & Hv & T). by eapply (H (ILabel j x) _ Hv).
      + intros j ik level Hl. by eapply (H (ITrust j ik) _ Hl).
    - intros (H1 & H2 & H3 & H4 & H5 & H6) i v Hv. destruct i; simpl; auto.
      + intros zs x T Hx. apply H2. exists zs. split; [by exists v|done].
      + intros ns n T Hn. apply H3. exists ns. split; [by exists v|done].
      + intros m n b T Hn. apply (H4 _ _ _ b). exists m. split; [by exists v|done].
      + intros s T. apply H5. by exists v.
      + intros s ik -> E. apply H1. by exists s.
      + intros level ->. by apply H6.
  Qed.
  Definition backed (new : list event) (p : api unit) : Prop := forall l, new ⊆ l -> obeys (Eo l) (Fo l) to_ p.
  Definition log_step (c : cmd) (r : resp c) (log : list event) : list event := match event_of c r with Some e => [e] | None => [] end ++ log.
  Lemma log_sub c r log : log ⊆ log_step c r log.
  Proof. intros e He. apply elem_of_app. by right. Qed.
  Lemma answer_ok w c r l : disk_from w -> w_allowed w c r -> log_step c r (w_log w) ⊆ l -> Eo l c r.
  Proof.
    intros Hd Ha Hs. assert (match event_of c r with Some e => e ∈ l | None => True end) as He.
    { unfold log_step in Hs. destruct (event_of c r); [|done]. apply Hs. left. }
    destruct c; try exact He. intros i v -> ->. simpl in Ha. eapply item_mono; [|apply Hd; by rewrite <- Ha]. etrans; [apply log_sub|exact Hs].
  Qed.
  Lemma disk_step w c r : disk_from w -> Fo (w_log w) c -> disk_from (w_apply w c r).
  Proof.
    intros Hd Hf i v Hv. rewrite log_apply. change (item_from (log_step c r (w_log w)) i v). apply (item_mono (w_log w)); [apply log_sub|].
    destruct c; try (apply Hd; exact Hv); simpl in Hv.
    - destruct r as [[]|]; [|by apply Hd]. simpl in Hv. destruct (decide (k = item_key i)) as [->|Hne].
      + rewrite lookup_insert in Hv. injection Hv as <-. by apply Hf.
      + rewrite lookup_insert_ne in Hv by done. by apply Hd.
    - destruct r as [[]|]; [|by apply Hd]. simpl in Hv. apply lookup_delete_Some in Hv as [_ Hv]. by apply Hd.
  Qed.
  Lemma origin_preach (P : world -> forall c, resp c -> Prop) ps w ps' w' l0 new :
    preach (with_contract P) (ps, w) (ps', w') -> w_log w = new ++ l0 -> disk_from w -> Forall (backed (w_log w)) ps ->
    (strict -> forall post e pre, new = post ++ e :: pre -> judged X e (pre ++ l0)) ->
    disk_from w' /\ exists new', w_log w' = new' ++ l0 /\ (strict -> forall post e pre, new' = post ++ e :: pre -> judged X e (pre ++ l0)).
  Proof.
    intros H. remember (ps, w) as cfg eqn:E1. remember (ps', w') as cfg' eqn:E2. revert ps w E1 new.
    induction H as [cfg|cfg cfg1 cfg' (i & c & k & r & Hi & [Hr _] & Ep' & Ew) _ IH]; intros ps w -> new El Hd Hb Ht.
    - injection E2 as -> ->. eauto.
    - destruct cfg1 as [ps1 w1]. cbn [fst snd] in Hi, Hr, Ep', Ew. subst ps1. subst w1.
      rewrite Forall_lookup in Hb. pose proof (Hb _ _ Hi) as Hp. destruct (Hp (w_log w)) as [HF _]; [done|].
      eapply (IH E2 _ _ eq_refl (log_step c r new)).
      + change (w_log (w_apply w c r) = log_step c r new ++ l0). rewrite log_apply, El. unfold log_step. by rewrite app_assoc.
      + by apply disk_step.
      + change (Forall (backed (w_log (w_apply w c r))) (<[i:=k r]> ps)). rewrite log_apply. change (Forall (backed (log_step c r (w_log w))) (<[i:=k r]> ps)).
        apply Forall_insert.
        * apply Forall_lookup. intros i' p' Hi' l Hl. apply (Hb _ _ Hi'). etrans; [apply log_sub|exact Hl].
        * intros l Hl. destruct (Hp l) as [_ Hk]; [etrans; [apply log_sub|exact Hl]|]. apply Hk. by eapply answer_ok.
      + intros Hs post e pre E. unfold log_step in E. destruct post as [|e0 post].
        * destruct c; try (by eapply (Ht Hs [])); cbn in E; injection E as <- <-; try exact I. rewrite <- El. by apply HF.
        * destruct (event_of c r); [|by eapply (Ht Hs (e0 :: post))]. injection E as _ E. by eapply Ht.
  Qed.
End origin.

Lemma origin (X : inputs) (P : world -> forall c, resp c -> Prop) (ps : list (api unit)) w ps' w' :
  Forall (fun p => appcode (uses X) p) ps -> storage_from X (w_log w) (w_disk w) ->
  preach (with_contract P) (ps, w) (ps', w') -> storage_from X (w_log w') (w_disk w').
Proof.
  intros Hps Hd H. apply disk_storage. apply disk_storage in Hd.
  eapply (origin_preach X False P ps w ps' w' (w_log w) []); [exact H|done|done| |done].
  eapply Forall_impl; [exact Hps|]. intros p Hp l _. eapply o_code; [|exact Hp]. intros c Hc. split; [done|]. by destruct c.
Qed.
Lemma origin_judged (X : inputs) (P : world -> forall c, resp c -> Prop) (ps : list (api unit)) w ps' w' :
  Forall (fun p => code unjudging (uses X) p) ps -> storage_from X (w_log w) (w_disk w) ->
  preach (with_contract P) (ps, w) (ps', w') ->
  exists new, w_log w' = new ++ w_log w /\ forall post e pre, new = post ++ e :: pre -> judged X e (pre ++ w_log w).
Proof.
  intros Hps Hd H. apply disk_storage in Hd.
  destruct (origin_preach X True P ps w ps' w' (w_log w) [] H) as (_ & new & El & Hj); [done|done| | |].
  - eapply Forall_impl; [exact Hps|]. intros p Hp l _. eapply o_code; [|exact Hp]. intros c Hc. by destruct c.
  - intros _ post e pre E. by destruct post.
  - exists new. split; [done|]. by apply Hj.
Qed.
Lemma origin_exec (X : inputs) {A} (Q : list event -> A -> Prop) (p : api A) w a w' :
  (forall l, w_log w ⊆ l -> obeys (Eo X l) (Fo X False l) (val (Q l)) p) -> disk_from X w -> exec base p w (Val a) w' -> Q (w_log w') a.
Proof.
  revert w. induction p as [a0|e|c k IH]; intros w Hp Hd H.
  - destruct H as [[= ->] ->]. by apply Hp.
  - by destruct H.
  - destruct H as (r & Hr & H). apply (IH r (w_apply w c r)).
    + intros l Hl. rewrite log_apply in Hl. destruct (Hp l) as [_ Hk]; [etrans; [apply (log_sub c r)|exact Hl]|]. apply Hk. by eapply answer_ok.
    + eapply disk_step; [done|]. by destruct (Hp (w_log w)) as [HF _].
    + exact H.
Qed.
Lemma origin_reported (X : inputs) cf j w ds w' : in_cfg X cf -> storage_from X (w_log w) (w_disk w) ->
  exec base (get_device_information cf j) w (Val ds) w' -> Forall (device_from X (w_log w')) ds.
Proof.
  intros Hc Hd H. apply disk_storage in Hd. eapply (origin_exec X (fun l => Forall (device_from X l))); [|exact Hd|exact H].
  intros l _. by apply o_info.
Qed.
