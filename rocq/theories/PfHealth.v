(** Calls fail only when something outside fails (C80, C81). *)
From Verif Require Import Api Spec Alone Life Env PfStrs PfTyped PfWp PfHist PfUpdate PfDevices PfInfo PfPurge PfLife PfAlive PfAlive2 PfAlive3 PfAlive4.
Open Scope prog_scope.
Open Scope list_scope.

(** Only the loaded backends are tracked. *)
Definition tiny : @sem cmd resp (list string) :=
  Sem (list string) (fun L c r => healthy empty_world c r /\ match c return resp c -> Prop with GLoaded => fun r => r = L | _ => fun _ => True end r)
    (fun L c r => match c with PLoaded l => l | _ => L end).
Lemma tiny_exec {A} (p : api A) w o w' :
  exec (with_contract healthy) p w o w' -> exec tiny p (w_loaded w) o (w_loaded w').
Proof.
  revert w. induction p as [a|e|c k IH]; intros w.
  - by intros [-> ->].
  - by intros [-> ->].
  - intros (r & [Hr Hh] & H). exists r. split.
    + split; [exact Hh|]. by destruct c.
    + apply IH in H. destruct c; simpl in H |- *; try exact H; repeat case_match; exact H.
Qed.

(** exceptions made by the library itself that code outside never raises *)
Definition own_exn {A} (o : outcome A) : Prop := match o with Exn e => ext_exn e = false | Val _ => True end.
Definition calm {A} (p : api A) : Prop := forall L, wp tiny (fun _ => True) p (fun o L' => L' = L /\ own_exn o) L.
Definition calm_at (L : list string) {A} (p : api A) : Prop := wp tiny (fun _ => True) p (fun o L' => L' = L /\ own_exn o) L.

Lemma tstep {A} c (k : resp c -> api A) (Q : outcome A -> list string -> Prop) L :
  (forall r, allowed tiny L c r -> wp tiny (fun _ => True) (k r) Q (Prog.apply tiny L c r)) -> wp tiny (fun _ => True) (Step c k) Q L.
Proof. intros H. unfold wp. intros r Hr. split; [done|]. by apply H. Qed.

Section calm.
  Context (L : list string).
  Lemma calm_in {A} (p : api A) : calm p -> calm_at L p. Proof. intros H. apply H. Qed.
  Lemma calm_ret {A} (a : A) : calm_at L (Ret a). Proof. done. Qed.
  Lemma calm_raise {A} e : ext_exn e = false -> calm_at L (Raise (A := A) e). Proof. done. Qed.
  Lemma calm_bind {A B} (p : api A) (f : A -> api B) : calm_at L p -> (forall a, calm_at L (f a)) -> calm_at L (bind p f).
  Proof. intros Hp Hf. apply wp_bind. eapply wp_conseq; [apply Hp|]. intros [a|e] L' [-> H]; [apply Hf|done]. Qed.
  Lemma calm_try_bind {A B} (p : api A) (f : outcome A -> api B) :
    calm_at L p -> (forall o, own_exn o -> calm_at L (f o)) -> calm_at L (bind (try_ p) f).
  Proof. intros Hp Hf. apply wp_bind, wp_try. eapply wp_conseq; [apply Hp|]. intros o L' [-> H]. by apply Hf. Qed.
  Lemma calm_for {A} (l : list A) f : (forall x, x ∈ l -> calm_at L (f x)) -> calm_at L (for_each l f).
  Proof.
    intros Hf. apply (wp_for_each _ _ (fun _ L' => L' = L)); [done| |done].
    intros pre x post L' Hl ->. eapply wp_conseq; [apply Hf; rewrite Hl; apply elem_of_app; right; left|].
    by intros [[]|e] L' [-> H].
  Qed.
  Lemma calm_fold {A B} (l : list A) (f : B -> A -> api B) b : (forall b x, calm_at L (f b x)) -> calm_at L (fold_prog l f b).
  Proof.
    intros Hf. apply (wp_fold_prog _ _ (fun _ _ L' => L' = L)); [done| |done]. intros pre x post b' L' _ ->.
    eapply wp_conseq; [apply Hf|]. by intros [b2|e] L' [-> H].
  Qed.
  Lemma calm_map {A B} (l : list A) (f : A -> api B) : (forall x, calm_at L (f x)) -> calm_at L (map_prog f l).
  Proof. intros Hf. induction l as [|x l IH]; simpl; [done|]. apply calm_bind; [apply Hf|]. intros y. by apply calm_bind. Qed.
  Lemma calm_step {A} c (k : resp c -> api A) : match c with PLoaded _ => False | _ => True end ->
    (forall r, healthy empty_world c r -> calm_at L (k r)) -> calm_at L (Step c k).
  Proof. unfold calm_at. intros Hc Hk. apply tstep. intros r [Hr _]. assert (Prog.apply tiny L c r = L) as -> by (by destruct c). by apply Hk. Qed.
  Lemma calm_loaded : calm_at L g_loaded. Proof. by apply calm_step. Qed.
  Lemma loaded_bind {A} (f : list string -> api A) : calm_at L (f L) -> calm_at L (bind g_loaded f).
  Proof. intros H. apply wp_bind. unfold g_loaded, act. apply tstep. intros r [_ Hr]. simpl in Hr. by subst. Qed.
  Lemma calm_order {A} (l : list A) : calm_at L (order l). Proof. by apply calm_step. Qed.
  Lemma calm_out {A} (o : outcome A) : exn_of o = None -> calm_at L (of_outcome o).
  Proof. by destruct o. Qed.

  Ltac hext := unfold s_store, s_delete, s_load, b_load_session, b_store_session, b_build_active, b_build_passive, b_enc_plain, b_enc_empty,
    b_enc_key, b_dec_plain, b_dec_key, b_spk_age, b_rotate, b_hide, b_delete, b_del_hidden, b_num_visible, b_generate,
    b_get_bundle, b_purge, b_purge_jid, n_upload_bundle, n_delete_bundle, n_upload_dl, n_download_dl,
    n_send, t_eval, t_blind, c_sleep in *;
    (apply calm_step; [done|let r := fresh "r" in let Hr := fresh in intros r Hr; apply calm_out; unfold healthy in Hr; cbn [resp_exn] in Hr; destruct r; [done|]; destruct Hr as [(? & ? & ? & Hr) _]; discriminate Hr]).
  Lemma calm_download ns j x A (f : outcome bundle -> api A) :
    (forall b, calm_at L (f (Val b))) -> calm_at L (f (Exn EBundleNotFound)) -> calm_at L (f (Exn EBundleDownloadFailed)) ->
    calm_at L (bind (try_ (n_download_bundle ns j x)) f).
  Proof.
    intros H1 H2 H3. apply wp_bind, wp_try. unfold n_download_bundle. apply tstep. intros r [Hr _]. apply wp_of_outcome. unfold healthy in Hr.
    cbn [resp_exn] in Hr. destruct r as [b|e]; [apply H1|]. destruct Hr as [_ [-> | ->]]; done.
  Qed.
  Lemma calm_checked {A} (check : json -> outcome A) k : (forall v, own_exn (check v)) -> calm_at L (load_checked check k).
  Proof.
    intros H. unfold load_checked. apply calm_bind; [hext|]. intros [v|]; [|by apply calm_ret]. specialize (H v). by destruct (check v); [apply calm_ret|apply calm_raise].
  Qed.

  Ltac own_check := intros [| | | | | |]; simpl; unfold own_exn, or_type_error; repeat case_match; simplify_eq/=; done.
  Lemma calm_prim {A} (prim : json -> option A) k : calm_at L (load_primitive prim k). Proof. apply calm_checked. own_check. Qed.
  Lemma calm_bytes k : calm_at L (load_bytes k). Proof. apply calm_checked. own_check. Qed.
  Lemma calm_optional {A} (prim : json -> option A) k : calm_at L (load_optional prim k). Proof. apply calm_checked. own_check. Qed.
  Lemma calm_list {A} (prim : json -> option A) k : calm_at L (load_list prim k). Proof. apply calm_checked. own_check. Qed.
  Lemma calm_dict {A} (prim : json -> option A) k : calm_at L (load_dict prim k). Proof. apply calm_checked. own_check. Qed.
  Lemma calm_just {A} (o : option A) : calm_at L (from_just o). Proof. by destruct o. Qed.

  Ltac h :=
    match goal with
    | |- calm_at _ (bind (try_ (n_download_bundle _ _ _)) _) => apply calm_download; [intros ?| |]
    | |- calm_at _ (bind _ _) => apply calm_bind; [|intros ?]
    | |- calm_at _ (Ret _) => apply calm_ret
    | |- calm_at _ (Raise _) => by apply calm_raise
    | |- calm_at _ (order _) => apply calm_order
    | |- calm_at _ g_loaded => apply calm_loaded
    | |- calm_at _ (load_primitive _ _) => apply calm_prim
    | |- calm_at _ (load_bytes _) => apply calm_bytes
    | |- calm_at _ (load_optional _ _) => apply calm_optional
    | |- calm_at _ (load_list _ _) => apply calm_list
    | |- calm_at _ (load_dict _ _) => apply calm_dict
    | |- calm_at _ (from_just _) => apply calm_just
    | |- calm_at _ (for_each _ _) => apply calm_for; intros ? ?
    | |- calm_at _ (fold_prog _ _ _) => apply calm_fold; intros ? ?
    | |- calm_at _ (map_prog _ _) => apply calm_map; intros ?
    | |- calm_at _ (if ?b then _ else _) => destruct b
    | |- calm_at _ (match ?b with _ => _ end) => destruct b
    | |- calm_at _ (store_bytes _ _) => unfold store_bytes
    | _ => hext
    end.
  Ltac hh := repeat (h; cbv zeta; cbn beta iota).
  Lemma calm_find_key j x l : calm_at L (find_key j x l).
  Proof. induction l as [|ns l IH]; cbn [find_key]; [done|]. h; try done. hh. Qed.
  Context (cf : cfg).
  Lemma calm_info_ j : calm_at L (get_device_information_ cf j).
  Proof. unfold get_device_information_, dev_info, dev_info_rest. hh; try apply calm_find_key; hh. Qed.
  Lemma calm_info j : calm_at L (get_device_information cf j).
  Proof. apply calm_bind; [apply calm_info_|done]. Qed.
  Lemma calm_get_own : calm_at L (get_own_device_information cf).
  Proof. apply calm_bind; [apply calm_info|]. intros ds. cbv zeta. hh. Qed.
  Lemma calm_update ns j dl : ns ∈ L -> calm_at L (update_device_list cf ns j dl).
  Proof.
    intros Hn. unfold update_device_list. apply loaded_bind. rewrite decide_True by done.
    unfold upd_own, upd_new, upd_old. hh.
  Qed.
  Lemma calm_refresh ns j : ns ∈ L -> calm_at L (refresh_device_list cf ns j).
  Proof. intros Hn. unfold refresh_device_list. h; [hext|]. by apply calm_update. Qed.
  Lemma calm_refresh_all j : calm_at L (refresh_device_lists cf j).
  Proof. apply loaded_bind. h. by apply calm_refresh. Qed.
  Lemma calm_set_trust j ik l : calm_at L (set_trust j ik l). Proof. unfold set_trust. hh. Qed.
  Lemma calm_set_label l : calm_at L (set_own_label cf l). Proof. unfold set_own_label. hh. Qed.
  Lemma calm_ikp : calm_at L ikp_get. Proof. unfold ikp_get, ikp_generate, c_randbytes. hh; by apply calm_step. Qed.
  Lemma calm_purge_jid j : calm_at L (purge_bare_jid j). Proof. unfold purge_bare_jid, collect_key. hh. Qed.
  Lemma calm_ensure : calm_at L (ensure_data_consistency cf).
  Proof.
    unfold ensure_data_consistency. apply loaded_bind. h. h; [by apply calm_refresh|]. h; [hext|]. h; hh.
  Qed.
  Lemma calm_before : calm_at L (before_history_sync). Proof. by apply calm_step. Qed.
  Lemma calm_chain j x nss : calm_at L (get_sending_chain_length j x nss). Proof. unfold get_sending_chain_length. hh. Qed.
  Lemma calm_fresh fuel ids : calm_at L (fresh_id fuel ids).
  Proof. induction fuel as [|fuel IH]; cbn [fresh_id]; [done|]. h; [by apply calm_step|]. h; [done|h]. Qed.
  Lemma calm_first P fuel a k : calm_at L (first_run_local P fuel a k).
  Proof. unfold first_run_local. h; [h|]. h; [hh|]. h; [apply calm_fresh|]. hh. Qed.
  Lemma calm_publish : calm_at L (first_run_publish cf).
  Proof. unfold first_run_publish. h; [h|]. h; [hh|]. h; [h|]. h; [hh|]. apply loaded_bind. h. by apply calm_refresh. Qed.
  Lemma calm_add active ns : ns ∈ L -> calm_at L (add_backend cf active ns).
  Proof. intros Hn. unfold add_backend. case_decide; [h|]. h; [h|]. h; [hh|]. h; [h|]. h; [h|]. by apply calm_refresh. Qed.
End calm.

(** programs that also change the loaded backends *)
Definition calm_end (L : list string) {A} (p : api A) : Prop := wp tiny (fun _ => True) p (fun o _ => own_exn o) L.
Lemma end_bind L {A B} (p : api A) (f : A -> api B) : calm_at L p -> (forall a, calm_end L (f a)) -> calm_end L (bind p f).
Proof. intros Hp Hf. apply wp_bind. eapply wp_conseq; [apply Hp|]. intros [a|e] L' [-> H]; [apply Hf|done]. Qed.
Lemma at_end L {A} (p : api A) : calm_at L p -> calm_end L p.
Proof. intros H. eapply wp_conseq; [exact H|]. by intros o L' [_ ?]. Qed.
Lemma end_ploaded L l {A} (f : unit -> api A) : calm_end l (f tt) -> calm_end L (bind (p_loaded l) f).
Proof. intros H. apply wp_bind. unfold p_loaded, act. apply tstep. intros [] _. exact H. Qed.
Lemma end_for {A} (l : list A) f L : (forall x L, calm_end L (f x)) -> calm_end L (for_each l f).
Proof.
  intros Hf. apply (wp_for_each _ _ (fun _ _ => True)); [done| |done]. intros pre x post L' _ _.
  eapply wp_conseq; [apply Hf|]. by intros [[]|e] L'' H.
Qed.
Ltac hstep := unfold s_store, n_upload_dl, n_download_dl, b_purge, n_delete_bundle;
  (apply calm_step; [done|let r := fresh "r" in let Hr := fresh in intros r Hr; apply calm_out; unfold healthy in Hr; cbn [resp_exn] in Hr; destruct r; [done|]; destruct Hr as [(? & ? & ? & Hr) _]; discriminate Hr]).
Lemma end_purge cf ns L : calm_end L (purge_backend cf ns).
Proof.
  unfold purge_backend. apply end_bind; [hstep|]. intros dl. apply end_bind; [destruct (dmem _ _); [hstep|apply calm_ret]|].
  intros _. apply end_bind; [apply calm_get_own|]. intros r. cbv zeta. apply end_bind; [apply calm_order|]. intros l1.
  apply end_bind; [hstep|]. intros _. apply end_bind; [apply calm_order|]. intros l2. apply end_bind; [hstep|]. intros _.
  apply end_bind; [apply calm_loaded|]. intros bs. apply end_bind; [apply calm_loaded|]. intros bs'. apply end_ploaded, at_end.
  apply calm_bind; [destruct (decide _); [hstep|apply calm_ret]|]. intros _. hstep.
Qed.
Lemma end_reconcile cf L : calm_end L (reconcile cf).
Proof.
  unfold reconcile. apply end_bind; [apply calm_get_own|]. intros r. apply wp_bind. unfold g_loaded, act. apply tstep. intros bs [_ Hb].
  simpl in Hb. subst bs. change (calm_end L (if set_eqb (pyset L) (dv_namespaces r.1) then Ret tt else
    l1 <- order (pyset L) ;;
    s_store (k_active (c_jid cf) (c_dev cf)) (j_bools (map (fun ns => (ns, true)) l1)) ;;;
    l2 <- order (pyset L) ;;
    s_store (k_ns (c_jid cf) (c_dev cf)) (j_strs l2) ;;;
    backends' <- g_loaded ;;
    for_each backends' (add_backend cf (dv_namespaces r.1)) ;;;
    removed <- order (set_diff (dv_namespaces r.1) (pyset L)) ;;
    for_each removed (purge_backend cf))).
  destruct (set_eqb _ _); [apply at_end, calm_ret|]. apply end_bind; [apply calm_order|]. intros l1.
  apply end_bind; [hstep|]. intros _. apply end_bind; [apply calm_order|]. intros l2. apply end_bind; [hstep|]. intros _.
  apply wp_bind. apply tstep. intros bs [_ Hb]. simpl in Hb. subst bs.
  change (calm_end L (for_each L (add_backend cf (dv_namespaces r.1)) ;;;
    removed <- order (set_diff (dv_namespaces r.1) (pyset L)) ;;
    for_each removed (purge_backend cf))).
  apply end_bind; [apply calm_for; intros ns Hn; by apply calm_add|]. intros _. apply end_bind; [apply calm_order|].
  intros l. apply end_for. intros. apply end_purge.
Qed.
Lemma end_create P fuel a L : calm_end L (create P fuel a).
Proof.
  unfold create. destruct (negb _); [by apply at_end, calm_raise|]. destruct (negb _); [by apply at_end, calm_raise|].
  apply end_ploaded. apply end_bind; [apply calm_ikp|]. intros k. apply end_bind; [by apply calm_step|]. intros _.
  apply end_bind; [apply calm_prim|]. intros m. apply end_bind.
  - destruct m as [dev|]; [apply calm_ret|]. apply calm_bind; [apply calm_first|]. intros dev. apply calm_bind; [apply calm_publish|].
    intros _. apply calm_ret.
  - intros dev. apply wp_bind. eapply wp_conseq; [apply end_reconcile|]. by intros [[]|e] L' H.
Qed.

(** ** On lives *)
Lemma calm_call L c : sure L c -> calm_end L (run_call c).
Proof.
  destruct c; simpl; intros H; try done; try (apply end_purge); apply at_end.
  - apply calm_ikp.
  - by apply calm_update.
  - by apply calm_refresh.
  - apply calm_refresh_all.
  - apply calm_set_trust.
  - apply calm_info.
  - apply calm_get_own.
  - apply calm_set_label.
  - apply calm_ensure.
  - apply calm_chain.
  - apply calm_before.
Qed.
Lemma own_ext {A} (p : api A) w (e : exn) w' : calm_end (w_loaded w) p -> exec (with_contract healthy) p w (Exn e) w' -> ext_exn e = false.
Proof. intros Hp H. apply tiny_exec in H. exact (wp_exec _ _ _ _ _ _ _ Hp H). Qed.
Lemma life_sure me w0 w cf c o w' : w_disk w0 = ∅ -> life me (Off, w0) (On cf, w) -> on cf c -> sure (w_loaded w) c ->
  exec (with_contract healthy) (run_call c) w o w' -> exists v, o = Val v.
Proof.
  intros H0 HL Hon Hs H. destruct o as [v|e]; [by exists v|]. exfalso. pose proof H as H'.
  apply own_ext in H'; [|by apply calm_call]. apply with_contract_exec in H.
  apply (life_sound _ _ _ H0) in HL as [Hj HJ]; simpl in Hj, HJ. subst me.
  assert (good (c_jid cf) (c_dev cf) (fun e => ext_exn e = false) (run_call c)) as HG.
  { eapply good_call; [done|reflexivity|reflexivity|done|]. by destruct c. }
  by destruct (wp_exec _ _ _ _ _ _ _ (HG w HJ) H) as [_ Hn].
Qed.
Lemma sound_purgeable me d j : sound me d -> purgeable d j.
Proof.
  intros [HT _]. split.
  - intros v Hv. by apply (HT (IDeviceList j)) in Hv.
  - intros x v _ Hv. apply (HT (IIdentityKey j x)) in Hv as Hi; [|done]. destruct Hi as (s & ik & -> & Hb).
    exists ik, s. done.
Qed.
Lemma life_purge_sure me w0 w st j o w' : w_disk w0 = ∅ -> life me (Off, w0) (st, w) ->
  exec (with_contract healthy) (purge_bare_jid j) w o w' -> o = Val tt.
Proof.
  intros H0 HL H. destruct o as [[]|e]; [done|]. exfalso. pose proof H as H'.
  apply own_ext in H'; [|apply at_end, calm_purge_jid]. apply with_contract_exec in H.
  assert (sound me (w_disk w)) as HJ.
  { apply (life_sound _ _ _ H0) in HL. destruct st; [done|]. by destruct HL as [_ [? _]]. }
  apply (wp_exec _ _ _ _ _ _ _ (purge_wp j w)) in H as (_ & [H|H]); [congruence|]. by apply H, (sound_purgeable me).
Qed.
Lemma life_create_sure me w0 w st P fuel a o w' : w_disk w0 = ∅ -> life me (Off, w0) (st, w) -> a_jid a = me ->
  NoDup (a_backends a) -> (25 <= a_threshold a <= 99)%Z ->
  exec (with_contract healthy) (create P fuel a) w o w' -> (exists cf, o = Val cf) \/ o = Exn EOutOfFuel.
Proof.
  intros H0 HL Ha Hn Ht H. destruct o as [v|e]; [left; by exists v|]. right. pose proof H as H'.
  apply own_ext in H'; [|apply end_create]. apply with_contract_exec in H.
  assert (sound me (w_disk w)) as HJ.
  { apply (life_sound _ _ _ H0) in HL. destruct st; [done|]. by destruct HL as [_ [? _]]. }
  apply (wp_exec _ _ _ _ _ _ _ (create_wp me P fuel a w Ha HJ)) in H. destruct H as [H|[->|[_ [H|H]]]]; [congruence|done|done|lia].
Qed.

(** ** Which exceptions *)
Lemma good_mtd cf (bad : exn -> Prop) {A} (p : api A) : appcode (on cf) p ->
  (forall w e w', exec base p w (Exn e) w' -> ~ bad e) -> good (c_jid cf) (c_dev cf) bad p.
Proof.
  intros Hp He w HJ. pose proof (good_app cf _ p Hp w HJ) as HW. apply exec_wp.
  - intros o w' H. destruct (wp_exec _ _ _ _ _ _ _ HW H) as [H1 _]. split; [done|]. destruct o as [a|e]; [done|]. by eapply He.
  - intros w' H. exact (wp_reach _ _ _ _ _ _ HW HJ H).
Qed.
Lemma life_raises me w0 w cf c e w' : w_disk w0 = ∅ -> life me (Off, w0) (On cf, w) -> on cf c ->
  match c with
  | KEncrypt _ mtd _ _ _ _ => forall ds i, appcode (on cf) (mtd ds i) /\
      forall w1 e' w2, exec base (mtd ds i) w1 (Exn e') w2 -> is_omemo e' = true \/ e' = ECancelled
  | _ => True
  end ->
  exec base (run_call c) w (Exn e) w' -> is_omemo e = true \/ e = ECancelled \/ raises_here w w' c e.
Proof.
  intros H0 HL Hon Hm H.
  assert (forall e, ext_exn e = true <-> is_omemo e = true \/ e = ECancelled) as HX.
  { intros e'. unfold ext_exn. rewrite orb_true_iff, bool_decide_eq_true. done. }
  enough (ext_exn e = true \/ raises_here w w' c e) as [Hc|Hc].
  { apply HX in Hc. tauto. }
  { tauto. }
  pose proof HL as HL'. apply (life_sound _ _ _ H0) in HL as [Hj HJ]; simpl in Hj, HJ. subst me.
  assert (forall bad : exn -> Prop, (forall e, bad e -> ext_exn e = false) ->
    match c with
    | KEncrypt _ mtd _ _ _ _ => ~ bad EKeyError /\ forall ds i, good (c_jid cf) (c_dev cf) bad (mtd ds i)
    | KDecrypt _ _ | KAfter _ => ~ bad ETypeError
    | KRotation _ _ _ => ~ bad EOutOfFuel
    | KReplace _ _ _ => ~ bad ERuntime
    | KCreate _ _ a => forall e, raised_create a e -> ~ bad e
    | _ => True
    end -> ~ bad e) as HG.
  { intros bad Hb Hc. assert (good (c_jid cf) (c_dev cf) bad (run_call c)) as HG by (by eapply good_call).
    by destruct (wp_exec _ _ _ _ _ _ _ (HG w HJ) H) as [_ Hn]. }
  assert (forall (E : exn -> Prop) , (forall e, E e \/ ~ E e) -> ((~ (ext_exn e = false /\ ~ E e)) -> ext_exn e = true \/ E e)) as HD.
  { intros E HE Hn. destruct (ext_exn e) eqn:Ee; [by left|]. right. destruct (HE e); [done|]. exfalso. by apply Hn. }
  assert (forall x e : exn, e = x \/ ~ e = x) as Heq by (intros x e'; destruct (decide (e' = x)); tauto).
  destruct c; try (left; destruct (ext_exn e) eqn:Ee; [done|]; exfalso; by apply (HG (fun e => ext_exn e = false))).
  - (* create *) simpl. assert (raised_create a e) as [?|?]; [|by left|by right].
    simpl in H, Hon. apply (wp_exec _ _ _ _ _ _ _ (create_wp _ P fuel a w Hon (proj1 HJ)) H).
  - (* rotation *) apply (HD (fun e => e = EOutOfFuel)); [apply Heq|]. apply (HG (fun e => ext_exn e = false /\ e <> EOutOfFuel)); [by intros ? [? _]|]. by intros [_ ?].
  - (* replace *) destruct Hon as [E1 E2]. simpl in H. rename cf0 into cf'.
    assert (c_jid cf' = c_jid cf /\ c_dev cf' = c_dev cf) as _ by done. simpl.
    assert (JW (c_jid cf') (c_dev cf') w) as HJ' by (by rewrite E1, E2). eapply replace_raises; done.
  - (* after *) apply (HD (fun e => e = ETypeError)); [apply Heq|]. apply (HG (fun e => ext_exn e = false /\ e <> ETypeError)); [by intros ? [? _]|]. by intros [_ ?].
  - (* encrypt *) simpl in H, Hm |- *.
    assert (forall (bad : exn -> Prop), (forall e, bad e -> ext_exn e = false) -> forall ds i, good (c_jid cf) (c_dev cf) bad (mtd ds i)) as Hmtd.
    { intros bad Hb ds i. destruct (Hm ds i) as [Ha He]. apply good_mtd; [done|]. intros w1 e' w2 Hx Hb'.
      apply He, HX in Hx. apply Hb in Hb'. congruence. }
    destruct (decide (e = EKeyError)) as [->|Hne].
    + destruct (decide (Forall (fun n => is_Some (dget n pt)) (from_option id (w_loaded w) prio))) as [Hf|Hf].
      * exfalso. rewrite Forall_forall in Hf. destruct Hon as [E1 E2].
        destruct (wp_exec _ _ _ _ _ _ _ (good_encrypt (c_jid cf) (c_dev cf) (fun e => ext_exn e = false) (fun e H => H) cf0 E1 E2 mtd pt
          (Hmtd _ (fun e H => H)) jids prio ident w HJ (fun _ => Hf)) H) as [_ Hn]. by apply Hn.
      * right. split; [done|]. apply not_Forall_Exists, Exists_exists in Hf as (n & Hn & Hf); [|apply _]. exists n. split; [done|].
        apply eq_None_not_Some. exact Hf.
    + left. destruct (ext_exn e) eqn:Ee; [done|]. exfalso.
      apply (HG (fun e => ext_exn e = false /\ e <> EKeyError)); [by intros ? [? _]| |done]. split; [by intros [_ ?]|].
      apply Hmtd. by intros ? [? _].
  - (* decrypt *) apply (HD (fun e => e = ETypeError)); [apply Heq|]. apply (HG (fun e => ext_exn e = false /\ e <> ETypeError)); [by intros ? [? _]|]. by intros [_ ?].
Qed.
