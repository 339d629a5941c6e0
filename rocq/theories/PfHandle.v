(** The failures a call handles (C102). *)
From Verif Require Import Handle.
From Verif Require PfStop.
Open Scope prog_scope.
Open Scope list_scope.

Section but.
Context (HH : cmd -> exn -> Prop).
Fixpoint fs {A} (p : api A) : Prop :=
  match p with
  | Step c k => forall r, fs (k r) /\ forall e, unhandled HH (existT c r) e -> k r = Raise e
  | _ => True
  end.
Fixpoint cmds (T : cmd -> Prop) {A} (p : api A) : Prop :=
  match p with Step c k => T c /\ forall r, cmds T (k r) | _ => True end.
Lemma fs_bind {A B} (p : api A) (f : A -> api B) : fs p -> (forall a, fs (f a)) -> fs (bind p f).
Proof.
  intros Hp Hf. induction p as [a|e|c k IH]; [apply Hf|exact I|]. intros r. destruct (Hp r) as [H1 H2]. split; [by apply IH|].
  intros e He. cbn [bind]. by rewrite (H2 e He).
Qed.
Lemma fs_try {A B} (p : api A) (f : outcome A -> api B) :
  fs p -> cmds (fun c => forall e, ~ HH c e -> f (Exn e) = Raise e) p -> (forall o, fs (f o)) -> fs (bind (try_ p) f).
Proof.
  intros Hp Hn Hf. induction p as [a|e|c k IH]; [apply Hf|apply Hf|]. intros r. destruct (Hp r) as [H1 H2]. destruct Hn as [N1 N2].
  split; [by apply IH|]. intros e He. cbn [bind try_]. rewrite (H2 _ He). destruct He as [_ He]. by apply N1.
Qed.
Lemma cmds_bind T {A B} (p : api A) (f : A -> api B) : cmds T p -> (forall a, cmds T (f a)) -> cmds T (bind p f).
Proof. intros Hp Hf. induction p as [a|e|c k IH]; [apply Hf|exact I|]. destruct Hp as [H1 H2]. split; [done|]. intros r. by apply IH. Qed.
Lemma cmds_outcome T {A} (o : outcome A) : cmds T (of_outcome o).
Proof. by destruct o. Qed.
(** ** Traces *)
Lemma free_reach {A} (p : api A) l0 l : fs p -> reach free p l0 l ->
  exists new, l = new ++ l0 /\ forall post s pre e, new = post ++ s :: pre -> unhandled HH s e -> post = [].
Proof.
  revert l0. induction p as [a|e|c k IH]; intros l0 Hp H.
  - destruct H as [->|[]]. exists []. split; [done|]. by intros [].
  - destruct H as [->|[]]. exists []. split; [done|]. by intros [].
  - destruct H as [->|(r & _ & H)]; [exists []; split; [done|]; by intros []|]. destruct (Hp r) as [H1 H2]. cbn [apply free] in H.
    destruct (IH r _ H1 H) as (new & -> & Hn). exists (new ++ [existT c r]). split; [by rewrite <- app_assoc|].
    intros post s pre e E He. destruct pre as [|s' pre] using rev_ind.
    + apply app_inj_tail in E as [<- <-]. rewrite (H2 e He) in H. destruct H as [E|[]].
      destruct new as [|x new]; [done|]. apply (f_equal length) in E. rewrite app_length in E. simpl in E. lia.
    + rewrite app_comm_cons, app_assoc in E. apply app_inj_tail in E as [-> _]. by eapply Hn.
Qed.
Lemma free_exec {A} (p : api A) l0 o l : fs p -> exec free p l0 o l ->
  exists new, l = new ++ l0 /\ forall s e, s ∈ new -> unhandled HH s e -> o = Exn e.
Proof.
  revert l0. induction p as [a|e|c k IH]; intros l0 Hp H.
  - destruct H as [-> ->]. exists []. split; [done|]. by intros s e Hs%elem_of_nil.
  - destruct H as [-> ->]. exists []. split; [done|]. by intros s e' Hs%elem_of_nil.
  - destruct H as (r & _ & H). destruct (Hp r) as [H1 H2]. cbn [apply free] in H. destruct (IH r _ H1 H) as (new & -> & Hn).
    exists (new ++ [existT c r]). split; [by rewrite <- app_assoc|]. intros s e [Hs|Hs%elem_of_list_singleton]%elem_of_app He; [eauto|].
    rewrite Hs in He. rewrite (H2 e He) in H. by destruct H.
Qed.
Lemma fs_stops {A} (p : api A) : fs p -> stops_but HH p.
Proof.
  intros Hp. split.
  - intros post s pre e H He. destruct (free_reach p [] _ Hp H) as (new & E & Hn). rewrite app_nil_r in E. by eapply Hn.
  - intros o l s e H Hs He. destruct (free_exec p [] o _ Hp H) as (new & -> & Hn). rewrite app_nil_r in Hs. by eapply Hn.
Qed.
Lemma stops_fs {A} (p : api A) : stops_but HH p -> fs p.
Proof.
  induction p as [a|e|c k IH]; intros Hp; [exact I|exact I|]. intros r. destruct Hp as [H1 H2]. split.
  - apply IH. split.
    + intros post s pre e H He. apply (H1 post s (pre ++ [existT c r]) e); [|done]. right. exists r. split; [done|].
      apply (PfStop.shift_reach _ _ _ [existT c r]) in H. by rewrite <- app_assoc in H.
    + intros o l s e H Hs He. apply (H2 o (l ++ [existT c r]) s e); [|apply elem_of_app; by left|done]. exists r. split; [done|].
      by apply (PfStop.shift_exec _ _ _ _ [existT c r]) in H.
  - intros e He. destruct (k r) as [a|e'|c' k'] eqn:E.
    + assert (Val a = Exn e) as H; [|done]. apply (H2 _ [existT c r] (existT c r)); [|by left|done]. exists r. split; [done|]. rewrite E. by split.
    + assert (Exn (A:=A) e' = Exn e) as [= ->]; [|done]. apply (H2 _ [existT c r] (existT c r)); [|by left|done]. exists r. split; [done|]. rewrite E. by split.
    + destruct (PfStop.some_answer c') as [r' _]. assert ([existT c' r'] = []) as H; [|done]. apply (H1 _ (existT c r) [] e); [|done].
      right. exists r. split; [done|]. rewrite E. right. exists r'. split; [done|]. destruct (k' r'); by left.
Qed.

Lemma fs_for_each {A} (xs : list A) f : (forall x, x ∈ xs -> fs (f x)) -> fs (for_each xs f).
Proof.
  induction xs as [|x xs IH]; intros Hf; [exact I|]. cbn [for_each]. apply fs_bind; [apply Hf; left|]. intros _. apply IH. intros y Hy. apply Hf. by right.
Qed.
Lemma fs_fold {A B} (xs : list A) (f : B -> A -> api B) b : (forall b x, fs (f b x)) -> fs (fold_prog xs f b).
Proof. intros Hf. revert b. induction xs as [|x xs IH]; intros b; [exact I|]. cbn [fold_prog]. by apply fs_bind. Qed.
Lemma fs_map {A B} (xs : list A) (f : A -> api B) : (forall x, fs (f x)) -> fs (map_prog f xs).
Proof. intros Hf. induction xs as [|x xs IH]; [exact I|]. cbn [map_prog]. apply fs_bind; [done|]. intros y. by apply fs_bind. Qed.
Lemma fs_filter {A} (xs : list A) (f : A -> api bool) : (forall x, fs (f x)) -> fs (filter_prog f xs).
Proof. intros Hf. induction xs as [|x xs IH]; [exact I|]. cbn [filter_prog]. apply fs_bind; [done|]. intros y. by apply fs_bind. Qed.
Lemma fs_outcome {A} (o : outcome A) : fs (of_outcome o).
Proof. by destruct o. Qed.
Lemma fs_load {A} (check : json -> outcome A) k : fs (load_checked check k).
Proof.
  intros r. split; [destruct r as [[v|]|e]; simpl; [|done|done]; by destruct (check v)|]. intros e [He _]. cbn in He. destruct r; [done|]. by injection He as ->.
Qed.
Lemma fs_order {A} (xs : list A) : fs (order xs).
Proof. intros r. split; [exact I|]. by intros e [? _]. Qed.
End but.
Ltac f1 :=
  match goal with
  | |- fs _ (bind (try_ _) _) => apply fs_try; [| |intros ?]
  | |- fs _ (bind _ _) => apply fs_bind; [|intros ?]
  | |- fs _ (Ret _) => exact I
  | |- fs _ (Raise _) => exact I
  | |- fs _ (for_each _ _) => apply fs_for_each; intros ? ?
  | |- fs _ (fold_prog _ _ _) => apply fs_fold; intros ? ?
  | |- fs _ (map_prog _ _) => apply fs_map; intros ?
  | |- fs _ (filter_prog _ _) => apply fs_filter; intros ?
  | |- fs _ (order _) => apply fs_order
  | |- fs _ (of_outcome _) => apply fs_outcome
  | |- fs _ (load_list _ _) => apply fs_load
  | |- fs _ (load_dict _ _) => apply fs_load
  | |- fs _ (load_bytes _) => apply fs_load
  | |- fs _ (load_optional _ _) => apply fs_load
  | |- fs _ (load_primitive _ _) => apply fs_load
  | |- fs _ (of_key_error ?o) => by destruct o
  | |- fs _ (from_just ?o) => by destruct o
  | |- fs _ (let '_ := ?b in _) => destruct b
  | |- fs _ (match ?b with _ => _ end) => destruct b
  | |- fs _ (if ?b then _ else _) => destruct b
  | |- fs _ (Step ?c _) =>
      let r := fresh "r" in let e := fresh "e" in let He := fresh "He" in
      intros r; split; [try apply fs_outcome; try exact I|intros e [He _]; cbn in He;
        first [discriminate He|destruct r; [discriminate He|injection He as ->; reflexivity]]]
  end.
Ltac unws := unfold store_bytes, set_trust, b_load_session, b_build_active, b_build_passive, b_enc_plain, b_enc_empty, b_enc_key, b_dec_key,
    b_store_session, b_dec_plain, b_spk_age, b_rotate, b_hide, b_delete, b_del_hidden, b_num_visible, b_generate,
    b_get_bundle, b_purge, b_purge_jid, n_upload_bundle, n_download_bundle, n_delete_bundle, n_upload_dl,
    n_download_dl, n_send, t_eval, t_blind, c_sleep, s_store, s_load, s_delete, k_same, g_loaded, g_sync, p_loaded,
    p_sync, c_randbelow, c_randbytes in *.
Ltac fst_ := unws; repeat (cbv zeta beta; f1).
Ltac n1 :=
  match goal with
  | |- cmds _ (bind _ _) => apply cmds_bind; [|intros ?]
  | |- cmds _ (Ret _) => exact I
  | |- cmds _ (Raise _) => exact I
  | |- cmds _ (of_outcome _) => apply cmds_outcome
  | |- cmds _ (let '_ := ?b in _) => destruct b
  | |- cmds _ (match ?b with _ => _ end) => destruct b
  | |- cmds _ (Step ?c _) => let e := fresh "e" in let He := fresh "He" in
      split; [intros e He; destruct e; try reflexivity; exfalso; apply He; auto|intros ?]
  end.
Ltac nst := unws; repeat (cbv zeta beta; n1).
Section calls.
Context (H : cmd -> exn -> Prop).
Lemma fs_update cf ns j dl : fs H (update_device_list cf ns j dl).
Proof. unfold update_device_list, upd_own, upd_new, upd_old. fst_. Qed.
Lemma fs_refresh cf ns j : fs H (refresh_device_list cf ns j).
Proof. unfold refresh_device_list. fst_. apply fs_update. Qed.
Lemma fs_ikp : fs H ikp_get.
Proof. unfold ikp_get, ikp_generate. fst_. Qed.
Lemma fs_fresh_id fuel ids : fs H (fresh_id fuel ids).
Proof. induction fuel as [|n IH]; [exact I|]. cbn [fresh_id]. fst_. exact IH. Qed.
Lemma fs_empty cf ns s : fs H (send_empty_message cf ns s).
Proof. unfold send_empty_message. fst_. Qed.
Lemma fs_after cf : fs H (after_history_sync cf).
Proof. unfold after_history_sync, flush_ns, flush_jid, flush_dev. fst_. apply fs_empty. Qed.
Lemma fs_purge_jid j : fs H (purge_bare_jid j).
Proof. unfold purge_bare_jid. fst_; unfold collect_key; fst_. Qed.
(** with a handler for bundles that cannot be had *)
Context (Hb : forall c e, no_bundle c e -> H c e).
Lemma fs_find_key j dev nss : fs H (find_key j dev nss).
Proof. induction nss as [|ns nss IH]; [exact I|]. cbn [find_key]. fst_; try exact IH; nst; apply Hb; simpl; auto. Qed.
Lemma fs_info_ cf j : fs H (get_device_information_ cf j).
Proof. unfold get_device_information_, dev_info, dev_info_rest. fst_. apply fs_find_key. Qed.
Lemma fs_info cf j : fs H (get_device_information cf j).
Proof. unfold get_device_information. fst_. apply fs_info_. Qed.
Lemma fs_own cf : fs H (get_own_device_information cf).
Proof. unfold get_own_device_information. fst_. apply fs_info. Qed.
Lemma fs_ensure cf : fs H (ensure_data_consistency cf).
Proof. unfold ensure_data_consistency. fst_; try apply fs_refresh; nst; apply Hb; simpl; auto. Qed.
Lemma fs_purge_backend cf ns : fs H (purge_backend cf ns).
Proof. unfold purge_backend. fst_. apply fs_own. Qed.
Lemma fs_create P fuel a : fs H (create P fuel a).
Proof.
  unfold create. fst_; try apply fs_ikp; unfold first_run_local, first_run_publish, reconcile; fst_;
    try apply fs_fresh_id; try apply fs_refresh; try apply fs_own; try apply fs_update; try apply fs_purge_backend; unfold add_backend; fst_; try apply fs_update; try apply fs_refresh.
Qed.
Lemma fs_decrypt cf m : fs H (decrypt cf m).
Proof.
  unfold decrypt, dec_sender, dec_existing, dec_kex, dec_prekeys, dec_respond. fst_; try apply fs_info; try apply fs_refresh; try apply fs_empty.
Qed.
End calls.
Lemma fs_rotate_upload cf fuel rd ns : fs no_upload (rotate_upload cf fuel rd ns).
Proof. revert rd. induction fuel as [|n IH]; intros rd; [exact I|]. cbn [rotate_upload]. fst_; try apply IH; nst; try reflexivity; simpl; auto. Qed.
Lemma fs_rotation cf fuel period : fs no_upload (rotation cf fuel period).
Proof. induction fuel as [|n IH]; [exact I|]. cbn [rotation]. fst_; try exact IH. unfold rotate_one. fst_. apply fs_rotate_upload. Qed.
Lemma fs_replace cf j x : fs no_replacement (replace_sessions cf j x).
Proof.
  unfold replace_sessions, replace_one. fst_; try (apply fs_info; intros [] ? Hc; simpl in *; try done; by destruct Hc as [->| ->]); nst; try reflexivity; simpl; auto.
Qed.
Lemma fs_encrypt cf mtd jids pt prio ident : (forall ds i, fs no_session (mtd ds i)) -> fs no_session (encrypt cf mtd jids pt prio ident).
Proof.
  intros Hm. unfold encrypt, enc_trust, enc_backend, enc_device, devices_with, reload_trust.
  fst_; try (apply fs_info_; intros [] ? Hc; simpl in *; try done; tauto); try apply Hm; nst; try reflexivity; simpl; auto.
Qed.
Lemma fs_call c : (forall cf mtd jids pt prio ident, c = KEncrypt cf mtd jids pt prio ident -> forall ds i, fs no_session (mtd ds i)) -> fs (handled c) (run_call c).
Proof.
  intros Hm. destruct c; cbn [run_call call_ret handled].
  - by apply fs_create.
  - apply fs_ikp.
  - apply fs_update.
  - apply fs_refresh.
  - unfold refresh_device_lists. fst_. apply fs_refresh.
  - fst_.
  - by apply fs_info.
  - by apply fs_own.
  - unfold set_own_label. fst_.
  - by apply fs_purge_backend.
  - apply fs_purge_jid.
  - apply fs_rotation.
  - by apply fs_ensure.
  - apply fs_replace.
  - unfold get_sending_chain_length. fst_.
  - unfold before_history_sync. fst_.
  - apply fs_after.
  - apply fs_encrypt. by eapply Hm.
  - by apply fs_decrypt.
Qed.
Lemma call_stops_but c :
  (forall cf mtd jids pt prio ident, c = KEncrypt cf mtd jids pt prio ident -> forall ds i, stops_but (handled c) (mtd ds i)) ->
  stops_but (handled c) (run_call c).
Proof.
  intros Hm. apply fs_stops, fs_call. intros cf mtd jids pt prio ident E ds i. apply stops_fs. specialize (Hm _ _ _ _ _ _ E ds i). by rewrite E in Hm.
Qed.
