(** Storage failures and cancellation end a call (C101). *)
From Verif Require Import Stop.
Open Scope prog_scope.
Open Scope list_scope.

Fixpoint fs {A} (p : api A) : Prop :=
  match p with
  | Step c k => forall r, fs (k r) /\ forall e, ends (existT c r) e -> k r = Raise e
  | _ => True
  end.
Fixpoint nostore {A} (p : api A) : Prop :=
  match p with Step c k => ~ of_storage c /\ forall r, nostore (k r) | _ => True end.

Lemma fs_bind {A B} (p : api A) (f : A -> api B) : fs p -> (forall a, fs (f a)) -> fs (bind p f).
Proof.
  intros Hp Hf. induction p as [a|e|c k IH]; [apply Hf|exact I|]. intros r. destruct (Hp r) as [H1 H2]. split; [by apply IH|].
  intros e He. cbn [bind]. by rewrite (H2 e He).
Qed.
Lemma fs_try {A B} (p : api A) (f : outcome A -> api B) :
  fs p -> nostore p -> f (Exn ECancelled) = Raise ECancelled -> (forall o, fs (f o)) -> fs (bind (try_ p) f).
Proof.
  intros Hp Hn Hc Hf. induction p as [a|e|c k IH]; [apply Hf|apply Hf|]. intros r. destruct (Hp r) as [H1 H2]. destruct Hn as [N1 N2].
  split; [by apply IH|]. intros e He. pose proof He as [_ [?| ->]]; [done|]. cbn [bind try_]. rewrite (H2 _ He). exact Hc.
Qed.
Lemma nostore_bind {A B} (p : api A) (f : A -> api B) : nostore p -> (forall a, nostore (f a)) -> nostore (bind p f).
Proof. intros Hp Hf. induction p as [a|e|c k IH]; [apply Hf|exact I|]. destruct Hp as [H1 H2]. split; [done|]. intros r. by apply IH. Qed.

(** ** Traces *)
Lemma free_reach {A} (p : api A) l0 l : fs p -> reach free p l0 l ->
  exists new, l = new ++ l0 /\ forall post s pre e, new = post ++ s :: pre -> ends s e -> post = [].
Proof.
  revert l0. induction p as [a|e|c k IH]; intros l0 Hp H.
  - destruct H as [->|[]]. exists []. split; [done|]. by intros [].
  - destruct H as [->|[]]. exists []. split; [done|]. by intros [].
  - destruct H as [->|(r & _ & H)]; [exists []; split; [done|]; by intros []|]. destruct (Hp r) as [H1 H2]. cbn [apply free] in H.
    destruct (IH r _ H1 H) as (new & -> & Hn). exists (new ++ [existT c r]). split; [by rewrite <- app_assoc|].
    intros post s pre e E He. destruct pre as [|s' pre] using rev_ind.
    + apply app_inj_tail in E as [<- <-]. rewrite (H2 e He) in H. destruct H as [E|[]].
      destruct new as [|x new]; [done|]. apply (f_equal length) in E. rewrite app_length in E. simpl in E. lia.
    + rewrite app_comm_cons, app_assoc in E. apply app_inj_tail in E as [-> _]. by eapply Hn.
Qed.
Lemma free_exec {A} (p : api A) l0 o l : fs p -> exec free p l0 o l ->
  exists new, l = new ++ l0 /\ forall s e, s ∈ new -> ends s e -> o = Exn e.
Proof.
  revert l0. induction p as [a|e|c k IH]; intros l0 Hp H.
  - destruct H as [-> ->]. exists []. split; [done|]. by intros s e Hs%elem_of_nil.
  - destruct H as [-> ->]. exists []. split; [done|]. by intros s e' Hs%elem_of_nil.
  - destruct H as (r & _ & H). destruct (Hp r) as [H1 H2]. cbn [apply free] in H. destruct (IH r _ H1 H) as (new & -> & Hn).
    exists (new ++ [existT c r]). split; [by rewrite <- app_assoc|]. intros s e [Hs|Hs%elem_of_list_singleton]%elem_of_app He; [eauto|].
    rewrite Hs in He. rewrite (H2 e He) in H. by destruct H.
Qed.
Lemma fs_stops {A} (p : api A) : fs p -> stops p.
Proof.
  intros Hp. split.
  - intros post s pre e H He. destruct (free_reach p [] _ Hp H) as (new & E & Hn). rewrite app_nil_r in E. by eapply Hn.
  - intros o l s e H Hs He. destruct (free_exec p [] o _ Hp H) as (new & -> & Hn). rewrite app_nil_r in Hs. by eapply Hn.
Qed.
Lemma shift_reach {A} (p : api A) l0 l m : reach free p l0 l -> reach free p (l0 ++ m) (l ++ m).
Proof.
  revert l0. induction p as [a|e|c k IH]; intros l0 H.
  - destruct H as [->|[]]. by left.
  - destruct H as [->|[]]. by left.
  - destruct H as [->|(r & _ & H)]; [by left|right]. exists r. split; [done|]. by apply (IH r (existT c r :: l0)).
Qed.
Lemma shift_exec {A} (p : api A) l0 o l m : exec free p l0 o l -> exec free p (l0 ++ m) o (l ++ m).
Proof.
  revert l0. induction p as [a|e|c k IH]; intros l0 H.
  - destruct H as [-> ->]. by split.
  - destruct H as [-> ->]. by split.
  - destruct H as (r & _ & H). exists r. split; [done|]. by apply (IH r (existT c r :: l0)).
Qed.
Lemma some_answer (c : cmd) : exists r : resp c, True.
Proof. destruct c; first [by exists (Exn EStorage)|by exists tt|by exists []|by exists true|by exists 0%Z|by exists ""%string]. Qed.
Lemma stops_fs {A} (p : api A) : stops p -> fs p.
Proof.
  induction p as [a|e|c k IH]; intros Hp; [exact I|exact I|]. intros r. destruct Hp as [H1 H2]. split.
  - apply IH. split.
    + intros post s pre e H He. apply (H1 post s (pre ++ [existT c r]) e); [|done]. right. exists r. split; [done|].
      apply (shift_reach _ _ _ [existT c r]) in H. by rewrite <- app_assoc in H.
    + intros o l s e H Hs He. apply (H2 o (l ++ [existT c r]) s e); [|apply elem_of_app; by left|done]. exists r. split; [done|].
      by apply (shift_exec _ _ _ _ [existT c r]) in H.
  - intros e He. destruct (k r) as [a|e'|c' k'] eqn:E.
    + assert (Val a = Exn e) as H; [|done]. apply (H2 _ [existT c r] (existT c r)); [|by left|done]. exists r. split; [done|]. rewrite E. by split.
    + assert (Exn (A:=A) e' = Exn e) as [= ->]; [|done]. apply (H2 _ [existT c r] (existT c r)); [|by left|done]. exists r. split; [done|]. rewrite E. by split.
    + destruct (some_answer c') as [r' _]. assert ([existT c' r'] = []) as H; [|done]. apply (H1 _ (existT c r) [] e); [|done].
      right. exists r. split; [done|]. rewrite E. right. exists r'. split; [done|]. destruct (k' r'); by left.
Qed.

(** ** The calls *)
Lemma fs_for_each {A} (xs : list A) f : (forall x, x ∈ xs -> fs (f x)) -> fs (for_each xs f).
Proof.
  induction xs as [|x xs IH]; intros Hf; [exact I|]. cbn [for_each]. apply fs_bind; [apply Hf; left|]. intros _. apply IH. intros y Hy. apply Hf. by right.
Qed.
Lemma fs_fold {A B} (xs : list A) (f : B -> A -> api B) b : (forall b x, fs (f b x)) -> fs (fold_prog xs f b).
Proof. intros Hf. revert b. induction xs as [|x xs IH]; intros b; [exact I|]. cbn [fold_prog]. by apply fs_bind. Qed.
Lemma fs_map {A B} (xs : list A) (f : A -> api B) : (forall x, fs (f x)) -> fs (map_prog f xs).
Proof. intros Hf. induction xs as [|x xs IH]; [exact I|]. cbn [map_prog]. apply fs_bind; [done|]. intros y. by apply fs_bind. Qed.
Lemma fs_filter {A} (xs : list A) (f : A -> api bool) : (forall x, fs (f x)) -> fs (filter_prog f xs).
Proof. intros Hf. induction xs as [|x xs IH]; [exact I|]. cbn [filter_prog]. apply fs_bind; [done|]. intros y. by apply fs_bind. Qed.
Lemma fs_outcome {A} (o : outcome A) : fs (of_outcome o).
Proof. by destruct o. Qed.
Lemma fs_load {A} (check : json -> outcome A) k : fs (load_checked check k).
Proof.
  intros r. split; [destruct r as [[v|]|e]; simpl; [|done|done]; by destruct (check v)|]. intros e [He _]. cbn in He. destruct r; [done|]. by injection He as ->.
Qed.
Lemma fs_order {A} (xs : list A) : fs (order xs).
Proof. intros r. split; [exact I|]. by intros e [? _]. Qed.
Ltac f1 :=
  match goal with
  | |- fs (bind (try_ _) _) => apply fs_try; [| |try reflexivity|intros ?]
  | |- fs (bind _ _) => apply fs_bind; [|intros ?]
  | |- fs (Ret _) => exact I
  | |- fs (Raise _) => exact I
  | |- fs (for_each _ _) => apply fs_for_each; intros ? ?
  | |- fs (fold_prog _ _ _) => apply fs_fold; intros ? ?
  | |- fs (map_prog _ _) => apply fs_map; intros ?
  | |- fs (filter_prog _ _) => apply fs_filter; intros ?
  | |- fs (order _) => apply fs_order
  | |- fs (of_outcome _) => apply fs_outcome
  | |- fs (load_list _ _) => apply fs_load
  | |- fs (load_dict _ _) => apply fs_load
  | |- fs (load_bytes _) => apply fs_load
  | |- fs (load_optional _ _) => apply fs_load
  | |- fs (load_primitive _ _) => apply fs_load
  | |- fs (of_key_error ?o) => by destruct o
  | |- fs (from_just ?o) => by destruct o
  | |- fs (let '_ := ?b in _) => destruct b
  | |- fs (match ?b with _ => _ end) => destruct b
  | |- fs (if ?b then _ else _) => destruct b
  | |- fs (Step ?c _) =>
      let r := fresh "r" in let e := fresh "e" in let He := fresh "He" in
      intros r; split; [try apply fs_outcome; try exact I|intros e [He _]; cbn in He;
        first [discriminate He|destruct r; [discriminate He|injection He as ->; reflexivity]]]
  end.
Ltac unws := unfold store_bytes, set_trust, b_load_session, b_build_active, b_build_passive, b_enc_plain, b_enc_empty, b_enc_key, b_dec_key,
    b_store_session, b_dec_plain, b_spk_age, b_rotate, b_hide, b_delete, b_del_hidden, b_num_visible, b_generate,
    b_get_bundle, b_purge, b_purge_jid, n_upload_bundle, n_download_bundle, n_delete_bundle, n_upload_dl,
    n_download_dl, n_send, t_eval, t_blind, c_sleep, s_store, s_load, s_delete, k_same, g_loaded, g_sync, p_loaded,
    p_sync, c_randbelow, c_randbytes in *.
Ltac fst_ := unws; repeat (cbv zeta beta; f1).
Lemma ns_outcome {A} (o : outcome A) : nostore (of_outcome o).
Proof. by destruct o. Qed.
Ltac n1 :=
  match goal with
  | |- nostore (bind _ _) => apply nostore_bind; [|intros ?]
  | |- nostore (Ret _) => exact I
  | |- nostore (Raise _) => exact I
  | |- nostore (of_outcome _) => apply ns_outcome
  | |- nostore (let '_ := ?b in _) => destruct b
  | |- nostore (match ?b with _ => _ end) => destruct b
  | |- nostore (Step ?c _) => split; [intros []|intros ?]
  end.
Ltac nst := unws; repeat (cbv zeta beta; n1).

Lemma fs_update cf ns j dl : fs (update_device_list cf ns j dl).
Proof. unfold update_device_list, upd_own, upd_new, upd_old. fst_. Qed.
Lemma fs_refresh cf ns j : fs (refresh_device_list cf ns j).
Proof. unfold refresh_device_list. fst_. apply fs_update. Qed.
Lemma fs_find_key j dev nss : fs (find_key j dev nss).
Proof. induction nss as [|ns nss IH]; [exact I|]. cbn [find_key]. fst_; try exact IH; nst. Qed.
Lemma fs_info_ cf j : fs (get_device_information_ cf j).
Proof. unfold get_device_information_, dev_info, dev_info_rest. fst_. apply fs_find_key. Qed.
Lemma fs_info cf j : fs (get_device_information cf j).
Proof. unfold get_device_information. fst_. apply fs_info_. Qed.
Lemma fs_own cf : fs (get_own_device_information cf).
Proof. unfold get_own_device_information. fst_. apply fs_info. Qed.
Lemma fs_ikp : fs ikp_get.
Proof. unfold ikp_get, ikp_generate. fst_. Qed.
Lemma fs_rotate_upload cf fuel rd ns : fs (rotate_upload cf fuel rd ns).
Proof. revert rd. induction fuel as [|n IH]; intros rd; [exact I|]. cbn [rotate_upload]. fst_; try apply IH; nst. Qed.
Lemma fs_rotation cf fuel period : fs (rotation cf fuel period).
Proof. induction fuel as [|n IH]; [exact I|]. cbn [rotation]. fst_; try exact IH. unfold rotate_one. fst_. apply fs_rotate_upload. Qed.
Lemma fs_ensure cf : fs (ensure_data_consistency cf).
Proof. unfold ensure_data_consistency. fst_; try apply fs_refresh; nst. Qed.
Lemma fs_fresh_id fuel ids : fs (fresh_id fuel ids).
Proof. induction fuel as [|n IH]; [exact I|]. cbn [fresh_id]. fst_. exact IH. Qed.
Lemma fs_purge_backend cf ns : fs (purge_backend cf ns).
Proof. unfold purge_backend. fst_. apply fs_own. Qed.
Lemma fs_create P fuel a : fs (create P fuel a).
Proof.
  unfold create. fst_; try apply fs_ikp; unfold first_run_local, first_run_publish, reconcile; fst_;
    try apply fs_fresh_id; try apply fs_refresh; try apply fs_own; try apply fs_update; try apply fs_purge_backend; unfold add_backend; fst_; try apply fs_update; try apply fs_refresh.
Qed.
Lemma fs_empty cf ns s : fs (send_empty_message cf ns s).
Proof. unfold send_empty_message. fst_. Qed.
Lemma fs_replace cf j x : fs (replace_sessions cf j x).
Proof. unfold replace_sessions, replace_one. fst_; try apply fs_info; nst. Qed.
Lemma fs_after cf : fs (after_history_sync cf).
Proof. unfold after_history_sync, flush_ns, flush_jid, flush_dev. fst_. apply fs_empty. Qed.
Lemma fs_purge_jid j : fs (purge_bare_jid j).
Proof. unfold purge_bare_jid. fst_; unfold collect_key; fst_. Qed.
Lemma fs_decrypt cf m : fs (decrypt cf m).
Proof.
  unfold decrypt, dec_sender, dec_existing, dec_kex, dec_prekeys, dec_respond. fst_; try apply fs_info; try apply fs_refresh; try apply fs_empty.
Qed.
Lemma fs_encrypt cf mtd jids pt prio ident : (forall ds i, fs (mtd ds i)) -> fs (encrypt cf mtd jids pt prio ident).
Proof.
  intros Hm. unfold encrypt, enc_trust, enc_backend, enc_device, devices_with, reload_trust. fst_; try apply fs_info_; try apply Hm; nst.
Qed.
Lemma fs_call c : (forall cf mtd jids pt prio ident, c = KEncrypt cf mtd jids pt prio ident -> forall ds i, fs (mtd ds i)) -> fs (run_call c).
Proof.
  intros Hm. destruct c; cbn [run_call call_ret].
  - apply fs_create.
  - apply fs_ikp.
  - apply fs_update.
  - apply fs_refresh.
  - unfold refresh_device_lists. fst_. apply fs_refresh.
  - fst_.
  - apply fs_info.
  - apply fs_own.
  - unfold set_own_label. fst_.
  - apply fs_purge_backend.
  - apply fs_purge_jid.
  - apply fs_rotation.
  - apply fs_ensure.
  - apply fs_replace.
  - unfold get_sending_chain_length. fst_.
  - unfold before_history_sync. fst_.
  - apply fs_after.
  - apply fs_encrypt. by eapply Hm.
  - apply fs_decrypt.
Qed.
Lemma call_stops c : stopping_decision c -> stops (run_call c).
Proof. intros Hm. apply fs_stops, fs_call. intros. eapply stops_fs. by eapply Hm. Qed.
Lemma stops_bind {A B} (p : api A) (f : A -> api B) : stops p -> (forall a, stops (f a)) -> stops (bind p f).
Proof. intros Hp Hf. apply fs_stops, fs_bind; [by apply stops_fs|]. intros a. by apply stops_fs. Qed.

(** ** Failing writes that took effect *)
Lemma flaky_cases w bs c (r : resp c) :
  (exists bs', flaky_apply (w, bs) c r = (w_apply w c r, bs')) \/
  (exists e bs' w'', of_storage c /\ ends (existT c r) e /\ (flaky_apply (w, bs) c r).2 = bs' /\ (exists r', w_allowed w c r' /\ w'' = w_apply w c r') /\ as_written (flaky_apply (w, bs) c r).1 w'').
Proof.
  destruct c; try (left; by eexists).
  - destruct r as [[]|e]; [left; by eexists|]. destruct bs as [|[|] bs]; [left; by eexists| |left; by eexists]. right.
    exists e, bs, (w_apply w (SStore k v) (Val tt)). split; [done|]. split; [split; [done|by left]|]. split; [done|]. split; [by exists (Val tt)|].
    split; [done|]. split; [done|]. split; [done|]. exists (w_log w). left. by exists k, v, e.
  - destruct r as [[]|e]; [left; by eexists|]. destruct bs as [|[|] bs]; [left; by eexists| |left; by eexists]. right.
    exists e, bs, (w_apply w (SDelete k) (Val tt)). split; [done|]. split; [split; [done|by left]|]. split; [done|]. split; [by exists (Val tt)|].
    split; [done|]. split; [done|]. split; [done|]. exists (w_log w). right. by exists k, e.
Qed.
Lemma flaky_exec {A} (p : api A) w bs o w' bs' : stops p -> exec flaky p (w, bs) o (w', bs') ->
  exec base p w o w' \/ exists e w'', o = Exn e /\ reach base p w w'' /\ as_written w' w''.
Proof.
  intros Hp%stops_fs. revert w bs. induction p as [a|e|c k IH]; intros w bs H.
  - destruct H as [-> [= -> ->]]. left. by split.
  - destruct H as [-> [= -> ->]]. left. by split.
  - destruct H as (r & Hr & H). destruct (Hp r) as [H1 H2]. cbn [apply flaky] in H.
    destruct (flaky_cases w bs c r) as [(bs1 & E)|(e & bs1 & w'' & Hst & He & _ & (r' & Hr' & ->) & Hw)].
    + change (exec flaky (k r) (flaky_apply (w, bs) c r) o (w', bs')) in H. rewrite E in H.
      destruct (IH r H1 _ _ H) as [Hx|(e & w'' & -> & Hx & Hw)]; [left; by exists r|right]. exists e, w''. split; [done|]. split; [|done]. right. by exists r.
    + rewrite (H2 e He) in H. destruct H as [-> E]. right. exists e, (w_apply w c r'). split; [done|]. split.
      * right. exists r'. split; [done|]. change (reach base (k r') (w_apply w c r') (w_apply w c r')). destruct (k r'); by left.
      * change ((w', bs') = flaky_apply (w, bs) c r) in E. by rewrite <- E in Hw.
Qed.

(** ** Interleavings *)
Definition stopped (p p' : api unit) : Prop := p = p' \/ exists e, p = Raise e.
Lemma w_allowed_same w w' c r : w_disk w' = w_disk w -> w_loaded w' = w_loaded w -> w_sync w' = w_sync w -> w_allowed w c r -> w_allowed w' c r.
Proof. intros E1 E2 E3. destruct c; simpl; auto; by rewrite ?E1, ?E2, ?E3. Qed.
Lemma all_apply w w' c r : all_written w w' -> all_written (w_apply w c r) (w_apply w' c r).
Proof.
  intros (E1 & E2 & E3 & HL).
  assert (forall e l l', Forall2 same_write l l' -> Forall2 same_write (e :: l) (e :: l')) as Hc by (intros; constructor; [by left|done]).
  destruct c; try destruct r; (split; [|split; [|split]]); simpl; try congruence; auto.
Qed.
Lemma as_all u v v' : as_written u v -> all_written v v' -> all_written u v'.
Proof.
  intros (E1 & E2 & E3 & l & HL) (F1 & F2 & F3 & HF). split; [congruence|]. split; [congruence|]. split; [congruence|].
  destruct HL as [(k & x & e & -> & Ev)|(k & e & -> & Ev)]; rewrite Ev in HF; apply Forall2_cons_inv_l in HF as (y & l' & Hy & HF & ->); constructor; auto.
  - right; left. exists k, x, e. split; [done|]. destruct Hy as [->|[(? & ? & ? & [=] & _)|(? & ? & [=] & _)]]; done.
  - right; right. exists k, e. split; [done|]. destruct Hy as [->|[(? & ? & ? & [=] & _)|(? & ? & [=] & _)]]; done.
Qed.
Lemma flaky_sim a b : preach flaky a b -> forall qs v, Forall fs a.1 -> Forall2 stopped a.1 qs -> all_written a.2.1 v ->
  exists ps'' w'', preach base (qs, v) (ps'', w'') /\ all_written b.2.1 w''.
Proof.
  induction 1 as [a|a a' b Hst Hre IH]; intros qs v Hf Hs Hw; [exists qs, v; split; [constructor|done]|].
  destruct a as [ps [w bs]], a' as [ps' s']. destruct Hst as (i & c & k & r & Hi & Hr & E1 & E2). simpl in Hi, Hr, E1, E2, Hf, Hs, Hw. subst ps' s'.
  destruct (Forall2_lookup_l _ _ _ _ _ Hs Hi) as (q & Hq & [<-|[e [=]]]).
  pose proof (Forall_lookup_1 _ _ _ _ Hf Hi) as Hp. destruct (Hp r) as [H1 H2].
  assert (Forall fs (<[i := k r]> ps)) as Hf' by (by apply Forall_insert).
  destruct Hw as (D1 & D2 & D3 & DL). assert (all_written w v) as Hw by done.
  destruct (flaky_cases w bs c r) as [(bs1 & E)|(e & bs1 & w'' & Hst & He & _ & (r' & Hr' & ->) & Hwr)].
  - destruct (IH (<[i := k r]> qs) (w_apply v c r)) as (ps'' & w'' & Hre' & Hw''); simpl.
    + done.
    + apply Forall2_insert; [done|by left].
    + rewrite E. by apply all_apply.
    + exists ps'', w''. split; [|done]. eapply preach_step; [|exact Hre']. exists i, c, k, r. split; [done|]. split; [|done]. by eapply w_allowed_same.
  - destruct (IH (<[i := k r']> qs) (w_apply v c r')) as (ps'' & w'' & Hre' & Hw''); simpl.
    + done.
    + apply Forall2_insert; [done|]. right. exists e. by apply H2.
    + eapply as_all; [exact Hwr|]. by apply all_apply.
    + exists ps'', w''. split; [|done]. eapply preach_step; [|exact Hre']. exists i, c, k, r'. split; [done|]. split; [|done]. by eapply w_allowed_same.
Qed.
Lemma flaky_preach ps w bs ps' w' bs' : Forall stops ps -> preach flaky (ps, (w, bs)) (ps', (w', bs')) ->
  exists ps'' w'', preach base (ps, w) (ps'', w'') /\ all_written w' w''.
Proof.
  intros Hps H. apply (flaky_sim _ _ H ps w); simpl.
  - eapply Forall_impl; [exact Hps|]; intros p; apply stops_fs.
  - apply Forall2_same_length_lookup_2; [done|]. intros i x y E1 E2. left. congruence.
  - split; [done|]. split; [done|]. split; [done|]. apply Forall2_same_length_lookup_2; [done|]. intros i x y E1 E2. left. congruence.
Qed.

(** ** Histories: what an application does after catching the failure can be done by another coroutine after a crash of the first *)
Lemma insert_perm {A} (l : list A) i x y : l !! i = Some x -> exists m, l ≡ₚ x :: m /\ <[i := y]> l ≡ₚ y :: m.
Proof.
  intros Hi. exists (delete i l). split; [by apply delete_Permutation|].
  rewrite (delete_Permutation (<[i := y]> l) i y) by (apply list_lookup_insert; by eapply lookup_lt_Some).
  assert (delete i (<[i := y]> l) = delete i l) as ->; [|done]. clear Hi. revert i. induction l as [|z l IH]; intros [|i]; simpl; [done..|]. by rewrite IH.
Qed.
Lemma preach_more a b : preach base a b -> forall qs, a.1 ⊆+ qs -> exists qs', preach base (qs, a.2) (qs', b.2).
Proof.
  induction 1 as [a|a a' b Hst Hre IH]; intros qs Hs; [exists qs; constructor|].
  destruct a as [ps w], a' as [ps' w']. destruct Hst as (i & c & k & r & Hi & Hr & E1 & E2). simpl in Hi, Hr, E1, E2, Hs. subst ps' w'.
  apply submseteq_Permutation in Hs as (rest & Hq).
  destruct (insert_perm ps i _ (k r) Hi) as (m & Hm1 & Hm2).
  assert (Step c k ∈ qs) as (j & Hj)%elem_of_list_lookup by (rewrite Hq, Hm1; left).
  destruct (insert_perm qs j _ (k r) Hj) as (m' & Hn1 & Hn2).
  assert (m' ≡ₚ m ++ rest) as Hmm. { apply (Permutation_cons_inv (a := Step c k)). rewrite <- Hn1, Hq, Hm1. done. }
  destruct (IH (<[j := k r]> qs)) as (qs' & Hqs).
  { simpl. rewrite Hn2, Hm2, Hmm. apply submseteq_skip, submseteq_inserts_r. done. }
  exists qs'. eapply preach_step; [|exact Hqs]. by exists j, c, k, r.
Qed.

Section histories.
Context (ok : call -> Prop) (Hok : forall c, ok c -> stopping_decision c).
Fixpoint resumes {A} (p : api A) : Prop :=
  match p with
  | Step c k => forall r, resumes (k r) /\ forall e, of_storage c -> resp_exn c r = Some e -> appcode ok (k r)
  | _ => True
  end.
Lemma resumes_bind {A B} (p : api A) (f : A -> api B) : resumes p -> (forall a, resumes (f a)) -> (forall a, appcode ok (f a)) -> resumes (bind p f).
Proof.
  intros Hp Hf Hc. induction p as [a|e|c k IH]; [apply Hf|exact I|]. intros r. destruct (Hp r) as [H1 H2]. split; [by apply IH|].
  intros e Hs He. cbn [bind]. apply app_bind; [by eapply H2|exact Hc].
Qed.
Lemma resumes_try {A} (p : api A) : resumes p -> resumes (try_ p).
Proof.
  intros Hp. induction p as [a|e|c k IH]; [exact I|exact I|]. intros r. destruct (Hp r) as [H1 H2]. split; [by apply IH|].
  intros e Hs He. cbn [try_]. apply app_try. by eapply H2.
Qed.
Lemma resumes_fs {A} (p : api A) : fs p -> resumes p.
Proof.
  intros Hp. induction p as [a|e|c k IH]; [exact I|exact I|]. intros r. destruct (Hp r) as [H1 H2]. split; [by apply IH|].
  intros e Hs He. rewrite (H2 e); [constructor|]. split; [done|by left].
Qed.
Lemma code_resumes {A} (p : api A) : appcode ok p -> resumes p.
Proof.
  induction 1.
  - exact I.
  - exact I.
  - by apply resumes_bind.
  - by apply resumes_try.
  - intros r. split; [exact I|]. intros e Hs. by destruct c.
  - apply resumes_fs, stops_fs, call_stops. by apply Hok.
Qed.
Lemma flaky_more a b : preach flaky a b -> forall v, Forall resumes a.1 -> all_written a.2.1 v ->
  exists more qs w'', Forall (fun p : api unit => appcode ok p) more /\ preach base (a.1 ++ more, v) (qs, w'') /\ all_written b.2.1 w''.
Proof.
  induction 1 as [a|a a' b Hst Hre IH]; intros v Hf Hw; [exists [], (a.1 ++ []), v; split; [constructor|split; [constructor|done]]|].
  destruct a as [ps [w bs]], a' as [ps' s']. destruct Hst as (i & c & k & r & Hi & Hr & E1 & E2). simpl in Hi, Hr, E1, E2, Hf, Hw |- *. subst ps' s'.
  pose proof (Forall_lookup_1 _ _ _ _ Hf Hi) as Hp. destruct (Hp r) as [H1 H2].
  assert (Forall resumes (<[i := k r]> ps)) as Hf' by (by apply Forall_insert).
  destruct Hw as (D1 & D2 & D3 & DL). assert (all_written w v) as Hw by done.
  pose proof (lookup_lt_Some _ _ _ Hi) as Hlt.
  destruct (flaky_cases w bs c r) as [(bs1 & E)|(e & bs1 & w'' & Hst & He & _ & (r' & Hr' & ->) & Hwr)].
  - destruct (IH (w_apply v c r)) as (more & qs & w'' & Hm & Hre' & Hw''); simpl.
    + done.
    + rewrite E. by apply all_apply.
    + exists more, qs, w''. split; [done|]. split; [|done]. eapply preach_step; [|exact Hre']. exists i, c, k, r.
      split; [by apply lookup_app_l_Some|]. split; [by eapply w_allowed_same|]. split; [symmetry; by apply insert_app_l|done].
  - assert (appcode ok (k r)) as Hk by (eapply H2; [exact Hst|exact (proj1 He)]).
    destruct (IH (w_apply v c r')) as (more & qs & w'' & Hm & Hre' & Hw''); simpl.
    + done.
    + eapply as_all; [exact Hwr|]. by apply all_apply.
    + destruct (preach_more _ _ Hre' (<[i := k r']> ps ++ k r :: more)) as (qs' & Hqs).
      { simpl. destruct (insert_perm ps i _ (k r) Hi) as (m & Hm1 & Hm2). destruct (insert_perm ps i _ (k r') Hi) as (m' & Hn1 & Hn2).
        rewrite Hm2, Hn2. assert (m ≡ₚ m') as -> by (apply (Permutation_cons_inv (a := Step c k)); by rewrite <- Hm1, <- Hn1).
        rewrite <- Permutation_middle. simpl. apply submseteq_skip. by apply submseteq_cons. }
      exists (k r :: more), qs', w''. split; [by constructor|]. split; [|done]. eapply preach_step; [|exact Hqs]. exists i, c, k, r'.
      split; [by apply lookup_app_l_Some|]. split; [by eapply w_allowed_same|]. split; [symmetry; by apply insert_app_l|done].
Qed.
Lemma flaky_history w w' : rtc (flaky_epoch ok) w w' -> hist ok w w'.
Proof.
  induction 1 as [w|w w1 w' (ps & bs & cfg' & Hps & Hre & Hrs) _ IH]; [constructor|]. eapply rtc_l; [|exact IH].
  destruct (flaky_more _ _ Hre w) as (more & qs & w'' & Hm & Hb & Hw).
  - simpl. eapply Forall_impl; [exact Hps|]. intros p. apply code_resumes.
  - simpl. split; [done|]. split; [done|]. split; [done|]. apply Forall2_same_length_lookup_2; [done|]. intros i x y E1 E2. left. congruence.
  - exists (ps ++ more), (qs, w''). split; [by apply Forall_app|]. split; [done|]. unfold restart in *. rewrite Hrs. simpl. symmetry. apply Hw.
Qed.
End histories.
Lemma exec_preach {W} (S : @sem cmd resp W) (p : api unit) w o w' : exec S p w o w' -> exists ps', preach S ([p], w) (ps', w').
Proof.
  revert w. induction p as [a|e|c k IH]; intros w H.
  - destruct H as [_ ->]. exists [Ret a]. constructor.
  - destruct H as [_ ->]. exists [Raise e]. constructor.
  - destruct H as (r & Hr & H). destruct (IH r _ H) as (ps' & Hp). exists ps'. eapply preach_step; [|exact Hp]. by exists 0%nat, c, k, r.
Qed.
