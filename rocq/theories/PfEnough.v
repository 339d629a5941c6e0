(** A trust decision about everyone is enough (C104). *)
From Verif Require Import Enough PfWp PfExec PfStrs PfInfo PfTrust PfEncrypt2 PfBtbv.
Open Scope prog_scope.
Open Scope list_scope.

(** ** Who raises StillUndecided *)
Fixpoint nr {A} (p : api A) : Prop :=
  match p with
  | Ret _ => True
  | Raise e => e <> EStillUndecided
  | Step c k => forall r, resp_exn c r <> Some EStillUndecided -> nr (k r)
  end.
Section enough.
Context (ev : string -> trust).
Notation S := (with_contract (by_level ev)).
Lemma nr_exec {A} (p : api A) w o w' : nr p -> exec S p w o w' -> o <> Exn EStillUndecided.
Proof.
  revert w. induction p as [a|e|c k IH]; intros w Hp H.
  - by destruct H as [-> _].
  - destruct H as [-> _]. simpl in Hp. congruence.
  - destruct H as (r & [_ [Hr _]] & H). by eapply IH; [apply Hp|].
Qed.
End enough.
Lemma nr_bind {A B} (p : api A) (f : A -> api B) : nr p -> (forall a, nr (f a)) -> nr (bind p f).
Proof. intros Hp Hf. induction p as [a|e|c k IH]; [apply Hf|exact Hp|]. intros r Hr. apply IH, Hp, Hr. Qed.
Lemma nr_try {A B} (p : api A) (f : outcome A -> api B) : nr p -> (forall o, o <> Exn EStillUndecided -> nr (f o)) -> nr (bind (try_ p) f).
Proof. intros Hp Hf. induction p as [a|e|c k IH]; [by apply Hf|apply Hf; simpl in Hp; congruence|]. intros r Hr. apply IH, Hp, Hr. Qed.
Lemma nr_for_each {A} (xs : list A) f : (forall x, nr (f x)) -> nr (for_each xs f).
Proof. intros Hf. induction xs as [|x xs IH]; [exact I|]. cbn [for_each]. by apply nr_bind. Qed.
Lemma nr_fold {A B} (xs : list A) (f : B -> A -> api B) b : (forall b x, nr (f b x)) -> nr (fold_prog xs f b).
Proof. intros Hf. revert b. induction xs as [|x xs IH]; intros b; [exact I|]. cbn [fold_prog]. by apply nr_bind. Qed.
Lemma nr_map {A B} (xs : list A) (f : A -> api B) : (forall x, nr (f x)) -> nr (map_prog f xs).
Proof. intros Hf. induction xs as [|x xs IH]; [exact I|]. cbn [map_prog]. apply nr_bind; [done|]. intros y. by apply nr_bind. Qed.
Lemma nr_filter {A} (xs : list A) (f : A -> api bool) : (forall x, nr (f x)) -> nr (filter_prog f xs).
Proof. intros Hf. induction xs as [|x xs IH]; [exact I|]. cbn [filter_prog]. apply nr_bind; [done|]. intros y. by apply nr_bind. Qed.
Lemma nr_outcome {A} (o : outcome A) : o <> Exn EStillUndecided -> nr (of_outcome o).
Proof. destruct o; simpl; [done|congruence]. Qed.
Lemma nr_order {A} (xs : list A) : nr (order xs).
Proof. by intros r _. Qed.
Lemma nr_load {A} (check : json -> outcome A) k : (forall v, check v <> Exn EStillUndecided) -> nr (load_checked check k).
Proof.
  intros Hc r Hr. destruct r as [[v|]|e]; simpl; [|done|simpl in Hr; congruence]. specialize (Hc v). destruct (check v); simpl; [done|congruence].
Qed.
Ltac n1 :=
  match goal with
  | |- nr (bind (try_ _) _) => apply nr_try; [|intros ? ?]
  | |- nr (bind _ _) => apply nr_bind; [|intros ?]
  | |- nr (Ret _) => exact I
  | |- nr (Raise _) => simpl; congruence
  | |- nr (for_each _ _) => apply nr_for_each; intros ?
  | |- nr (fold_prog _ _ _) => apply nr_fold; intros ? ?
  | |- nr (map_prog _ _) => apply nr_map; intros ?
  | |- nr (filter_prog _ _) => apply nr_filter; intros ?
  | |- nr (order _) => apply nr_order
  | |- nr (load_list _ _) => apply nr_load; intros []; simpl; try discriminate; by destruct (mapM _ _)
  | |- nr (load_dict _ _) => apply nr_load; intros []; simpl; try discriminate; by destruct (mapM _ _)
  | |- nr (load_bytes _) => apply nr_load; intros []; simpl; try discriminate; by destruct (b64dec _)
  | |- nr (load_optional as_str _) => apply nr_load; intros []; simpl; discriminate
  | |- nr (load_primitive as_str _) => apply nr_load; intros []; simpl; discriminate
  | |- nr (of_key_error ?o) => by destruct o
  | |- nr (from_just ?o) => by destruct o
  | |- nr (let '_ := ?b in _) => destruct b
  | |- nr (match ?b with _ => _ end) => destruct b
  | |- nr (if ?b then _ else _) => destruct b
  | |- nr (of_outcome _) => apply nr_outcome; simpl in *; congruence
  | |- nr (Step ?c _) => let r := fresh "r" in let Hr := fresh "Hr" in
      intros r Hr; try (apply nr_outcome; destruct r; simpl in Hr; congruence); try exact I
  end.
Ltac unws := unfold store_bytes, set_trust, b_load_session, b_build_active, b_build_passive, b_enc_plain, b_enc_empty, b_enc_key, b_dec_key,
    b_store_session, b_dec_plain, b_spk_age, b_rotate, b_hide, b_delete, b_del_hidden, b_num_visible, b_generate,
    b_get_bundle, b_purge, b_purge_jid, n_upload_bundle, n_download_bundle, n_delete_bundle, n_upload_dl,
    n_download_dl, n_send, t_eval, t_blind, c_sleep, s_store, s_load, s_delete, k_same, g_loaded, g_sync, p_loaded,
    p_sync, c_randbelow, c_randbytes in *.
Ltac nst := unws; repeat (cbv zeta beta; n1).
Lemma nr_find_key j dev nss : nr (find_key j dev nss).
Proof. induction nss as [|ns nss IH]; [exact I|]. cbn [find_key]. nst; try exact IH. Qed.
Lemma nr_info cf j : nr (get_device_information_ cf j).
Proof. unfold get_device_information_, dev_info, dev_info_rest. nst. apply nr_find_key. Qed.
Lemma nr_backend cf pt cache st ns : nr (enc_backend cf pt cache st ns).
Proof. unfold enc_backend, enc_device. nst. Qed.
Lemma nr_with t l : nr (devices_with t l).
Proof. unfold devices_with. nst. Qed.
Lemma nr_reload cf d : nr (reload_trust cf d).
Proof. unfold reload_trust. nst. Qed.

Section call.
Context (ev : string -> trust) (cf : cfg).
Notation S := (with_contract (by_level ev)).
Definition trust_at (w : world) j ik := w_disk w !! k_trust j ik.
(** What a device is said to be is what is stored. *)
Definition linked (w : world) (d : device) : Prop :=
  match trust_at w (dv_jid d) (dv_ik d) with None => dv_trust d = c_undecided cf | Some v => v = JStr (dv_trust d) end.
Definition same_trust (w w' : world) : Prop := forall j ik, trust_at w' j ik = trust_at w j ik.
Lemma linked_same w w' d : same_trust w w' -> linked w d -> linked w' d.
Proof. unfold linked. by intros ->. Qed.

Lemma info_linked j w r w' : exec S (get_device_information_ cf j) w (Val r) w' -> same_trust w w' /\ Forall (linked w') r.1.
Proof.
  intros H%with_contract_exec. assert (same_trust w w') as Hs.
  { apply info_exec in H as (ids & _ & (_ & F & _) & _). intros j' ik. apply F. intros x _.
    split; intros E.
    - assert (INamespaces j x = ITrust j' ik) by (apply PfHist.core_inj; [done|by symmetry]). done.
    - assert (IIdentityKey j x = ITrust j' ik) by (apply PfHist.core_inj; [done|by symmetry]). done. }
  split; [done|]. apply Forall_forall. intros d Hd. apply (linked_same w); [done|].
  assert (exec base (get_device_information cf j) w (Val r.1) w') as H'.
  { unfold get_device_information. apply exec_bind. left. exists r, w'. split; [done|]. by split. }
  destruct (info_level cf j w r.1 w' d H' Hd) as [<- HL]. exact HL.
Qed.
Lemma infos_linked js w rs w' : exec S (map_prog (get_device_information_ cf) js) w (Val rs) w' ->
  same_trust w w' /\ Forall (linked w') (concat (map fst rs)).
Proof.
  revert w rs. induction js as [|j js IH]; intros w rs H.
  - destruct H as [[= ->] ->]. split; [by intros ? ?|constructor].
  - cbn [map_prog] in H. apply exec_bind in H as [(r & w1 & H1 & H)|(e & _ & ?)]; [|done].
    apply exec_bind in H as [(rs' & w2 & H2 & H)|(e & _ & ?)]; [|done]. destruct H as [[= ->] ->].
    apply info_linked in H1 as [S1 L1]. apply IH in H2 as [S2 L2]. split; [intros ? ?; by rewrite S2, S1|].
    simpl. apply Forall_app. split; [|done]. eapply Forall_impl; [exact L1|]. intros d. by apply linked_same.
Qed.
Lemma exec_order_S {A} (l : list A) w l' w' : exec S (order l) w (Val l') w' -> l' ≡ₚ l /\ w' = w.
Proof. intros (l0 & H1 & [= ->] & ->)%with_contract_exec%exec_order. done. Qed.
(** Evaluations go by the level, and change no level. *)
Lemma filter_eval t l w und w' : exec S (filter_prog (fun d => t' <- t_eval d ;; Ret (bool_decide (t' = t))) l) w (Val und) w' ->
  same_trust w w' /\ forall d, d ∈ und <-> d ∈ l /\ ev (dv_trust d) = t.
Proof.
  revert w und. induction l as [|x l IH]; intros w und H.
  - destruct H as [[= ->] ->]. split; [by intros ? ?|]. intros d. rewrite elem_of_nil. tauto.
  - cbn [filter_prog] in H. apply exec_bind in H as [(b & w1 & H1 & H)|(e & _ & ?)]; [|done].
    apply exec_bind in H as [(und' & w2 & H2 & H)|(e & _ & ?)]; [|done]. destruct H as [[= ->] ->].
    apply IH in H2 as [S2 E2]. apply exec_bind in H1 as [(t' & w3 & H1 & H3)|(e & _ & ?)]; [|done]. destruct H3 as [[= ->] ->].
    destruct H1 as (r & [_ [_ Hr]] & H1). destruct r as [t0|e]; [|by destruct H1]. destruct H1 as [[= ->] ->]. simpl in Hr. subst t0.
    split; [intros j ik; by rewrite S2|]. intros d. case_bool_decide as Eb.
    + rewrite !elem_of_cons, E2. naive_solver.
    + rewrite elem_of_cons, E2. naive_solver.
Qed.
Lemma with_exec t l w und w' : exec S (devices_with t l) w (Val und) w' -> same_trust w w' /\ forall d, d ∈ und <-> d ∈ l /\ ev (dv_trust d) = t.
Proof.
  intros H. apply exec_bind in H as [(l' & w1 & H1 & H)|(e & _ & ?)]; [|done]. apply exec_order_S in H1 as [Hl ->].
  apply filter_eval in H as [H1 H2]. split; [done|]. intros d. by rewrite H2, Hl.
Qed.
Lemma reloads l w ds w' : exec S (map_prog (reload_trust cf) l) w (Val ds) w' ->
  same_trust w w' /\ forall d, d ∈ ds -> linked w' d /\ exists d0, d0 ∈ l /\ dv_jid d0 = dv_jid d /\ dv_ik d0 = dv_ik d.
Proof.
  revert w ds. induction l as [|x l IH]; intros w ds H.
  - destruct H as [[= ->] ->]. split; [by intros ? ?|]. by intros d ?%elem_of_nil.
  - cbn [map_prog] in H. apply exec_bind in H as [(d1 & w1 & H1 & H)|(e & _ & ?)]; [|done].
    apply exec_bind in H as [(ds' & w2 & H2 & H)|(e & _ & ?)]; [|done]. destruct H as [[= ->] ->].
    apply IH in H2 as [S2 E2].
    assert (w1 = w /\ linked w d1 /\ dv_jid x = dv_jid d1 /\ dv_ik x = dv_ik d1) as (-> & Hd & E3 & E4).
    { unfold reload_trust in H1. apply exec_bind in H1 as [(m & w3 & H1 & H3)|(e & _ & ?)]; [|done]. destruct H3 as [[= ->] ->].
      destruct H1 as (r & [Hr _] & H1). destruct r as [o|e]; [|by destruct H1]. simpl in Hr. subst o.
      unfold linked, trust_at. simpl. unfold load_primitive in H1. simpl in H1. destruct (w_disk w !! k_trust (dv_jid x) (dv_ik x)) as [v|].
      - destruct v; simpl in H1; destruct H1 as [H1 H1']; try discriminate H1. injection H1 as ->. by rewrite H1'.
      - destruct H1 as [[= ->] ->]. done. }
    split; [done|]. intros d [->|Hin]%elem_of_cons.
    + split; [by eapply linked_same|]. exists x. split; [left|done].
    + destruct (E2 d Hin) as (? & d0 & ? & ?). split; [done|]. exists d0. split; [by right|done].
Qed.
Lemma trust_exec mtd i l w o w' : settles ev mtd -> Forall (linked w) l -> exec S (enc_trust cf mtd i l) w o w' -> o <> Exn EStillUndecided.
Proof.
  intros Hm Hl H. unfold enc_trust in H.
  apply exec_bind in H as [(und & w1 & H1 & H)|(e & H1 & ->)]; [|intros [= ->]; by eapply nr_exec; [apply (nr_with Undecided l)|exact H1|]].
  apply with_exec in H1 as [S1 E1].
  assert (forall ds w2, (forall d, d ∈ ds -> ev (dv_trust d) <> Undecided) ->
    exec S (bind (devices_with Undecided ds) (fun undecided' => match undecided' with _ :: _ => Raise EStillUndecided | [] => devices_with Trusted ds end)) w2 o w' ->
    o <> Exn EStillUndecided) as Hend.
  { intros ds w2 Hd Hx. apply exec_bind in Hx as [(und' & w3 & H2 & Hx)|(e & H2 & ->)]; [|intros [= ->]; by eapply nr_exec; [apply (nr_with Undecided ds)|exact H2|]].
    apply with_exec in H2 as [_ E2]. destruct und' as [|d und']; [by eapply nr_exec; [apply nr_with|]|].
    destruct (proj1 (E2 d)) as [Hin Hu]; [left|]. by destruct (Hd d Hin). }
  apply exec_bind in H as [(ds & w2 & H1 & H)|(e & H1 & ->)].
  - eapply Hend; [|exact H]. destruct und as [|u und].
    + destruct H1 as [[= ->] ->]. intros d Hd Hu. assert (d ∈ @nil device) as []%elem_of_nil by (by apply E1).
    + apply exec_bind in H1 as [([] & w3 & H1 & H2)|(e & _ & ?)]; [|done]. apply exec_bind in H2 as [(l' & w4 & H2 & H3)|(e & _ & ?)]; [|done].
      apply exec_order_S in H2 as [Hp ->]. apply reloads in H3 as [S3 E3]. destruct (Hm _ _ _ _ _ H1) as [_ Hs]. destruct (Hs eq_refl) as [Hs1 Hs2].
      intros d Hd. destruct (E3 d Hd) as (Hk & d0 & Hd0 & Ej & Ei). rewrite Hp in Hd0.
      assert (settled ev w3 (dv_jid d) (dv_ik d) -> ev (dv_trust d) <> Undecided) as Hset.
      { intros (lv & Hlv & Hne). unfold linked in Hk. rewrite S3 in Hk. unfold trust_at in Hk. unfold trusted_as in Hlv.
        change (item_key (ITrust (dv_jid d) (dv_ik d))) with (k_trust (dv_jid d) (dv_ik d)) in Hlv. rewrite Hlv in Hk. by injection Hk as ->. }
      destruct (decide (ev (dv_trust d0) = Undecided)) as [Hu|Hu].
      * apply Hset. rewrite <- Ej, <- Ei. apply Hs1, E1. done.
      * destruct (Hs2 (dv_jid d) (dv_ik d)) as [Hsame|?]; [|by apply Hset].
        rewrite Forall_forall in Hl. specialize (Hl d0 Hd0). apply (linked_same w w1) in Hl; [|done]. unfold linked in Hl, Hk. rewrite Ej, Ei in Hl.
        rewrite S3 in Hk. unfold trust_at in Hl, Hk.
        change (item_key (ITrust (dv_jid d) (dv_ik d))) with (k_trust (dv_jid d) (dv_ik d)) in Hsame. rewrite Hsame in Hk.
        destruct (w_disk w1 !! k_trust (dv_jid d) (dv_ik d)); congruence.
  - destruct und as [|u und]; [by destruct H1|].
    apply exec_bind in H1 as [([] & w3 & H1 & H2)|(e' & H1 & [= <-])]; [|intros [= ->]; by destruct (Hm _ _ _ _ _ H1)].
    intros [= ->]. eapply nr_exec; [|exact H2|done]. nst. apply nr_reload.
Qed.
Lemma enough mtd jids pt prio i w o w' : settles ev mtd -> exec S (encrypt cf mtd jids pt prio i) w o w' -> o <> Exn EStillUndecided.
Proof.
  intros Hm H. unfold encrypt in H. cbv zeta in H.
  apply exec_bind in H as [(av & w1 & H1 & H)|(e & H1 & ->)]; [|intros [= ->]; eapply nr_exec; [|exact H1|done]; nst].
  apply exec_bind in H as [(pr & w2 & H2 & H)|(e & H2 & ->)]; [|intros [= ->]; eapply nr_exec; [|exact H2|done]; nst].
  apply exec_bind in H as [(js & w3 & H3 & H)|(e & H3 & ->)]; [|intros [= ->]; eapply nr_exec; [|exact H3|done]; nst].
  apply exec_bind in H as [(tmp & w4 & H4 & H)|(e & H4 & ->)]; [|intros [= ->]; eapply nr_exec; [|exact H4|done]; nst; apply nr_info].
  apply infos_linked in H4 as [_ HL].
  apply exec_bind in H as [(d1 & w5 & H5 & H)|(e & H5 & ->)]; [|intros [= ->]; eapply nr_exec; [|exact H5|done]; nst].
  apply exec_bind in H as [(d2 & w6 & H6 & H)|(e & H6 & ->)]; [|intros [= ->]; eapply nr_exec; [|exact H6|done]; nst].
  destruct (valid_recipients cf pr (concat (map fst tmp))) as [v|] eqn:Ev; [|by destruct H5]. destruct H5 as [[= ->] ->].
  destruct (mapM (apply_priority pr) v) as [v2|] eqn:Ev2; [|by destruct H6]. destruct H6 as [[= ->] ->].
  assert (Forall (linked w4) (filter (fun d => dv_namespaces d <> []) v2)) as HL2.
  { apply valid_spec in Ev as [Hsub _]. apply mapM_Some in Ev2. rewrite Forall_forall in HL.
    apply Forall_forall. intros d [_ Hd]%elem_of_list_filter. apply elem_of_list_lookup in Hd as (n & Hd). destruct (Forall2_lookup_r _ _ _ _ _ Ev2 Hd) as (d0 & Hd0 & Ea).
    assert (linked w4 d0) as H0. { apply HL. eapply elem_of_submseteq; [by eapply elem_of_list_lookup_2|by apply sublist_submseteq]. }
    unfold apply_priority in Ea. destruct (active_namespaces _ _); [|done]. simpl in Ea. by injection Ea as <-. }
  apply exec_bind in H as [(d3 & w7 & H7 & H)|(e & H7 & ->)]; [|intros [= ->]; by eapply trust_exec].
  eapply nr_exec; [|exact H]. nst. apply nr_backend.
Qed.
End call.

(** Raised, it is true. *)
Section honest.
Context (ev : string -> trust) (cf : cfg) (mtd : list device -> option string -> api unit).
Notation S := (with_contract (by_level ev)).
Context (Hm : forall und i w w', ~ exec S (mtd und i) w (Exn EStillUndecided) w').
Lemma infos_jid js w rs w' d : exec S (map_prog (get_device_information_ cf) js) w (Val rs) w' -> d ∈ concat (map fst rs) -> dv_jid d ∈ js.
Proof.
  revert w rs. induction js as [|j js IH]; intros w rs H Hd.
  - destruct H as [[= ->] ->]. by apply elem_of_nil in Hd.
  - cbn [map_prog] in H. apply exec_bind in H as [(r & w1 & H1 & H)|(e & _ & ?)]; [|done].
    apply exec_bind in H as [(rs' & w2 & H2 & H)|(e & _ & ?)]; [|done]. destruct H as [[= ->] ->].
    simpl in Hd. apply elem_of_app in Hd as [Hd|Hd]; [|right; by eapply IH].
    apply with_contract_exec in H1. assert (exec base (get_device_information cf j) w (Val r.1) w1) as H'.
    { unfold get_device_information. apply exec_bind. left. exists r, w1. split; [done|]. by split. }
    destruct (info_level cf j w r.1 w1 d H' Hd) as [<- _]. left.
Qed.
Lemma trust_still i l w w' : Forall (linked cf w) l -> exec S (enc_trust cf mtd i l) w (Exn EStillUndecided) w' ->
  exists d, linked cf w' d /\ ev (dv_trust d) = Undecided /\ exists d0, d0 ∈ l /\ dv_jid d0 = dv_jid d.
Proof.
  intros Hl H. unfold enc_trust in H.
  apply exec_bind in H as [(und & w1 & H1 & H)|(e & H1 & [= <-])]; [|by destruct (nr_exec _ _ _ _ _ (nr_with Undecided l) H1)].
  apply with_exec in H1 as [S1 E1].
  apply exec_bind in H as [(ds & w2 & H1 & H)|(e & H1 & [= <-])].
  - assert (forall d, d ∈ ds -> linked cf w2 d /\ exists d0, d0 ∈ l /\ dv_jid d0 = dv_jid d) as Hds.
    { destruct und as [|u und].
      - destruct H1 as [[= ->] ->]. intros d Hd. split; [|by exists d]. rewrite Forall_forall in Hl. eapply linked_same; [exact S1|by apply Hl].
      - apply exec_bind in H1 as [([] & w3 & H1 & H2)|(e & _ & ?)]; [|done]. apply exec_bind in H2 as [(l' & w4 & H2 & H3)|(e & _ & ?)]; [|done].
        apply exec_order_S in H2 as [Hp ->]. apply reloads in H3 as [S3 E3]. intros d Hd. destruct (E3 d Hd) as (? & d0 & Hd0 & ? & _).
        split; [done|]. exists d0. split; [by rewrite <- Hp|done]. }
    apply exec_bind in H as [(und' & w3 & H2 & H)|(e & H2 & [= <-])]; [|by destruct (nr_exec _ _ _ _ _ (nr_with Undecided ds) H2)].
    apply with_exec in H2 as [S2 E2]. destruct und' as [|d und']; [by destruct (nr_exec _ _ _ _ _ (nr_with Trusted ds) H)|].
    destruct H as [_ ->]. destruct (proj1 (E2 d)) as [Hin Hu]; [left|]. destruct (Hds d Hin) as (? & ?). exists d. split; [by eapply linked_same|done].
  - destruct und as [|u und]; [by destruct H1|].
    apply exec_bind in H1 as [([] & w3 & H1 & H2)|(e' & H1 & [= <-])]; [|by destruct (Hm _ _ _ _ H1)].
    exfalso. eapply nr_exec; [|exact H2|done]. nst. apply nr_reload.
Qed.
Lemma still jids pt prio i w w' : exec S (encrypt cf mtd jids pt prio i) w (Exn EStillUndecided) w' ->
  exists j ik lv, (j ∈ jids \/ j = c_jid cf) /\ level_in_force cf (w_disk w') j ik lv /\ ev lv = Undecided.
Proof.
  intros H. unfold encrypt in H. cbv zeta in H.
  apply exec_bind in H as [(av & w1 & H1 & H)|(e & H1 & [= <-])]; [|exfalso; eapply nr_exec; [|exact H1|done]; nst].
  apply exec_bind in H as [(pr & w2 & H2 & H)|(e & H2 & [= <-])]; [|exfalso; eapply nr_exec; [|exact H2|done]; nst].
  apply exec_bind in H as [(js & w3 & H3 & H)|(e & H3 & [= <-])]; [|exfalso; eapply nr_exec; [|exact H3|done]; nst].
  apply exec_order_S in H3 as [Hj ->].
  apply exec_bind in H as [(tmp & w4 & H4 & H)|(e & H4 & [= <-])]; [|exfalso; eapply nr_exec; [|exact H4|done]; nst; apply nr_info].
  pose proof (fun d => infos_jid js w2 tmp w4 d H4) as HJ. apply infos_linked in H4 as [_ HL].
  apply exec_bind in H as [(d1 & w5 & H5 & H)|(e & H5 & [= <-])]; [|exfalso; eapply nr_exec; [|exact H5|done]; nst].
  apply exec_bind in H as [(d2 & w6 & H6 & H)|(e & H6 & [= <-])]; [|exfalso; eapply nr_exec; [|exact H6|done]; nst].
  destruct (valid_recipients cf pr (concat (map fst tmp))) as [v|] eqn:Ev; [|by destruct H5]. destruct H5 as [[= ->] ->].
  destruct (mapM (apply_priority pr) v) as [v2|] eqn:Ev2; [|by destruct H6]. destruct H6 as [[= ->] ->].
  assert (forall d, d ∈ filter (fun d => dv_namespaces d <> []) v2 -> linked cf w4 d /\ dv_jid d ∈ js) as HL2.
  { apply valid_spec in Ev as [Hsub _]. apply mapM_Some in Ev2. rewrite Forall_forall in HL.
    intros d [_ Hd]%elem_of_list_filter. apply elem_of_list_lookup in Hd as (n & Hd). destruct (Forall2_lookup_r _ _ _ _ _ Ev2 Hd) as (d0 & Hd0 & Ea).
    assert (d0 ∈ concat (map fst tmp)) as H0. { eapply elem_of_submseteq; [by eapply elem_of_list_lookup_2|by apply sublist_submseteq]. }
    specialize (HL d0 H0). specialize (HJ d0 H0). unfold apply_priority in Ea. destruct (active_namespaces _ _); [|done]. simpl in Ea. by injection Ea as <-. }
  apply exec_bind in H as [(d3 & w7 & H7 & H)|(e & H7 & [= <-])]; [exfalso; eapply nr_exec; [|exact H|done]; nst; apply nr_backend|].
  apply trust_still in H7 as (d & Hk & Hu & d0 & Hd0 & Ej); [|apply Forall_forall; intros d Hd; by apply HL2].
  exists (dv_jid d), (dv_ik d), (dv_trust d). split.
  - destruct (HL2 d0 Hd0) as [_ Hin]. rewrite Hj, Ej in Hin. apply PfDevices.elem_union in Hin as [Hin|Hin]; [left; by apply elem_of_remove_dups|right; by apply elem_of_list_singleton].
  - split; [|done]. unfold linked, trust_at in Hk. unfold level_in_force, trusted_as.
    change (item_key (ITrust (dv_jid d) (dv_ik d))) with (k_trust (dv_jid d) (dv_ik d)).
    destruct (w_disk w' !! k_trust (dv_jid d) (dv_ik d)) as [lv|]; [left; by rewrite Hk|by right].
Qed.
End honest.

(** Setting the level of everyone *)
Section level.
Context (ev : string -> trust) (lv : string) (Hlv : ev lv <> Undecided).
Notation S := (with_contract (by_level ev)).
Definition leaves (l : list device) (o : outcome unit) (w w' : world) : Prop :=
  (forall j ik, w_disk w' !! k_trust j ik = w_disk w !! k_trust j ik \/ w_disk w' !! k_trust j ik = Some (JStr lv)) /\
  (o = Val tt -> forall d, d ∈ l -> w_disk w' !! k_trust (dv_jid d) (dv_ik d) = Some (JStr lv)).
Lemma set_all_exec l w o w' : exec S (for_each l (fun d => set_trust (dv_jid d) (dv_ik d) lv)) w o w' ->
  o <> Exn EStillUndecided /\ leaves l o w w'.
Proof.
  intros H. split; [eapply nr_exec; [|exact H]; nst|]. revert w H. induction l as [|x l IH]; intros w H.
  - destruct H as [-> ->]. split; [by left|]. by intros _ d ?%elem_of_nil.
  - cbn [for_each] in H. apply exec_bind in H as [([] & w1 & H1 & H)|(e & H1 & ->)].
    + destruct H1 as (r & _ & H1). destruct r as [[]|e]; [|by destruct H1]. destruct H1 as [_ ->]. destruct (IH _ H) as [A B].
      simpl in A. split.
      * intros j ik. destruct (A j ik) as [->| ->]; [|by right]. destruct (decide (k_trust (dv_jid x) (dv_ik x) = k_trust j ik)) as [->|Hn]; [right; by rewrite lookup_insert|left; by rewrite lookup_insert_ne].
      * intros -> d [->|Hd]%elem_of_cons; [|by apply B]. destruct (A (dv_jid x) (dv_ik x)) as [->|A']; [|done]. by rewrite lookup_insert.
    + destruct H1 as (r & _ & H1). destruct r as [[]|e']; [by destruct H1|]. destruct H1 as [_ ->]. split; [by left|done].
Qed.
Definition settling (und : list device) (o : outcome unit) (w w' : world) : Prop :=
  o <> Exn EStillUndecided /\
    (o = Val tt -> (forall d, d ∈ und -> settled ev w' (dv_jid d) (dv_ik d)) /\
       forall j ik, w_disk w' !! item_key (ITrust j ik) = w_disk w !! item_key (ITrust j ik) \/ settled ev w' j ik).
Lemma leaves_settling l und o w w' : o <> Exn EStillUndecided -> und ≡ₚ l -> leaves l o w w' -> settling und o w w'.
Proof.
  intros Ho Hp [A B]. split; [done|]. intros ->. split.
  - intros d Hd. exists lv. split; [|done]. apply (B eq_refl). by rewrite <- Hp.
  - intros j ik. destruct (A j ik) as [?|?]; [by left|right]. by exists lv.
Qed.
Lemma set_all_settles : settles ev (fun und i => l <- order und ;; for_each l (fun d => set_trust (dv_jid d) (dv_ik d) lv)).
Proof.
  intros und i w o w' H. apply exec_bind in H as [(l & w1 & H1 & H)|(e & H1 & ->)].
  - apply exec_order_S in H1 as [Hp ->]. apply set_all_exec in H as [H1 H2]. by apply (leaves_settling l).
  - split; [|done]. intros [= ->]. by eapply nr_exec; [apply (nr_order und)|exact H1|].
Qed.
End level.
Lemma trust_all_settles : settles simple_eval trust_all.
Proof. by apply set_all_settles. Qed.

(** Blind trust before verification *)
Section btbv.
Context (ev : string -> trust) (cf : cfg) (prompt : list device -> option string -> api unit).
Context (Hb : ev "BLINDLY_TRUSTED"%string <> Undecided) (Hp : settles ev prompt).
Notation S := (with_contract (by_level ev)).
Lemma nr_look acc j : nr (btbv_look cf acc j).
Proof.
  unfold btbv_look, get_device_information. nst; try apply nr_info. apply nr_outcome.
  induction a0 as [|d l IH]; [done|]. simpl. by destruct (btbv_of _) as [[]|].
Qed.
Lemma look_exec acc j w r w' : exec S (btbv_look cf acc j) w (Val r) w' ->
  same_trust w w' /\ forall x, (x ∈ r.1 \/ x ∈ r.2) <-> (x ∈ acc.1 \/ x ∈ acc.2 \/ x = j).
Proof.
  intros H. apply exec_bind in H as [(ds & w1 & H1 & H)|(e & _ & ?)]; [|done].
  apply exec_bind in H1 as [(r0 & w2 & H1 & H2)|(e & _ & ?)]; [|done]. destruct H2 as [_ ->].
  apply (info_linked ev cf) in H1 as [Hs _].
  apply exec_bind in H as [(ds' & w3 & H2 & H)|(e & _ & ?)]; [|done]. apply exec_order_S in H2 as [_ ->].
  apply exec_bind in H as [(b & w3 & H2 & H)|(e & _ & ?)]; [|done].
  destruct (btbv_all_blind ds'); [|by destruct H2]. destruct H2 as [_ ->]. destruct H as [[= ->] ->]. split; [done|].
  intros x. destruct b; simpl; rewrite elem_of_app, elem_of_list_singleton; tauto.
Qed.
Lemma looks_exec js acc w r w' : exec S (fold_prog js (btbv_look cf) acc) w (Val r) w' ->
  same_trust w w' /\ forall x, (x ∈ r.1 \/ x ∈ r.2) <-> (x ∈ acc.1 \/ x ∈ acc.2 \/ x ∈ js).
Proof.
  revert acc w. induction js as [|j js IH]; intros acc w H.
  - destruct H as [[= ->] ->]. split; [by intros ? ?|]. intros x. rewrite elem_of_nil. tauto.
  - cbn [fold_prog] in H. apply exec_bind in H as [(r1 & w1 & H1 & H)|(e & _ & ?)]; [|done].
    apply look_exec in H1 as [S1 E1]. apply IH in H as [S2 E2]. split; [intros ? ?; by rewrite S2, S1|].
    intros x. rewrite E2, elem_of_cons. specialize (E1 x). tauto.
Qed.
Lemma btbv_settles : settles ev (btbv_mtd cf prompt).
Proof.
  intros und i w o w' H. apply btbv_split_exec in H. fold (settling ev und o w w').
  assert (nr (btbv_own cf und i)) as Hn. { unfold btbv_own, btbv_trust. nst. apply nr_look. }
  apply exec_bind in H as [(man & w1 & H1 & H)|(e & H1 & ->)]; [|split; [|done]; intros [= ->]; by eapply nr_exec; [exact Hn|exact H1|]].
  unfold btbv_own in H1. apply exec_bind in H1 as [(js & w2 & H1 & H2)|(e & _ & ?)]; [|done]. apply exec_order_S in H1 as [Hj ->].
  apply exec_bind in H2 as [(pools & w3 & H1 & H2)|(e & _ & ?)]; [|done]. apply looks_exec in H1 as [S1 E1].
  apply exec_bind in H2 as [([] & w4 & H1 & H2)|(e & _ & ?)]; [|done]. destruct H2 as [[= ->] ->].
  assert (settling ev (filter (fun d => dv_jid d ∈ pools.1) und) (Val tt) w w4) as [_ HA].
  { unfold btbv_trust in H1. destruct (filter (fun d => dv_jid d ∈ pools.1) und) as [|d0 bl] eqn:Eb.
    - destruct H1 as [_ ->]. split; [done|]. intros _. split; [by intros d ?%elem_of_nil|]. intros j ik. left. apply S1.
    - rewrite <- Eb in *. clear Eb. apply exec_bind in H1 as [(l & w5 & H1 & H2)|(e & _ & ?)]; [|done]. apply exec_order_S in H1 as [Hl ->].
      apply exec_bind in H2 as [([] & w5 & H1 & H2)|(e & _ & ?)]; [|done]. apply set_all_exec in H1 as [_ [A B]].
      destruct H2 as (r & _ & H2). destruct r as [[]|e]; [|by destruct H2]. destruct H2 as [_ ->].
      apply (leaves_settling ev "BLINDLY_TRUSTED"%string Hb l); [done|by symmetry|]. split; [|exact B].
      intros j ik. specialize (S1 j ik). unfold trust_at in S1. rewrite <- S1. apply A. }
  destruct (HA eq_refl) as [HA1 HA2]. clear HA.
  assert (settling ev (filter (fun d => dv_jid d ∈ pools.2) und) o w4 w') as [Ho HB].
  { unfold btbv_ask in H. destruct (filter (fun d => dv_jid d ∈ pools.2) und) as [|d0 ml].
    - destruct H as [-> ->]. split; [done|]. intros _. split; [by intros d ?%elem_of_nil|by left].
    - by apply (Hp (d0 :: ml) i). }
  split; [done|]. intros ->. destruct (HB eq_refl) as [HB1 HB2].
  assert (forall j ik, settled ev w4 j ik -> settled ev w' j ik) as Hmono.
  { intros j ik (lv & H1' & H2'). destruct (HB2 j ik) as [E|?]; [|done]. exists lv. split; [|done]. unfold trusted_as in *. by rewrite E. }
  split.
  - intros d Hd. assert (dv_jid d ∈ pools.1 \/ dv_jid d ∈ pools.2) as [Hx|Hx].
    { apply E1. right. right. rewrite Hj. apply elem_of_remove_dups. by apply elem_of_list_fmap_1. }
    + apply Hmono, HA1, elem_of_list_filter. done.
    + apply HB1, elem_of_list_filter. done.
  - intros j ik. destruct (HB2 j ik) as [->|?]; [|by right]. destruct (HA2 j ik) as [?|?]; [by left|].
    right. by apply Hmono.
Qed.
End btbv.
