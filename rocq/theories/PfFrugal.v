(** Proofs for C98: bundles of known devices are downloaded for new sessions only. *)
From Verif Require Import Frugal PfStrs PfTyped PfWp PfFrame PfHist PfEmits PfLog PfDevices PfInfo PfTrust PfOne PfFoot.
Open Scope prog_scope.
Open Scope list_scope.

Lemma obeys_both {A} (E1 E2 : forall c : cmd, resp c -> Prop) (F1 F2 : cmd -> Prop) (p : api A) :
  obeys E1 F1 (fun _ => True) p -> obeys E2 F2 (fun _ => True) p ->
  obeys (fun c r => E1 c r /\ E2 c r) (fun c => F1 c /\ F2 c) (fun _ => True) p.
Proof. induction p as [a|e|c k IH]; simpl; [done|done|]. intros [H1 H2] [H3 H4]. split; [done|]. intros r [Hr1 Hr2]. auto. Qed.

(** Coroutines among which an absorbing state may occur, after which nothing more is claimed. *)
Lemma escape (X I : world -> Prop) (E : forall c : cmd, resp c -> Prop) (F : cmd -> Prop) (ps : list (api unit)) w ps' w' :
  (forall w c r, X w -> w_allowed w c r -> X (w_apply w c r)) ->
  (forall w c r, I w -> F c -> w_allowed w c r -> X (w_apply w c r) \/ E c r /\ I (w_apply w c r)) ->
  Forall (fun p => obeys E F (fun _ => True) p) ps -> I w -> preach base (ps, w) (ps', w') -> X w' \/ I w'.
Proof.
  intros HX HI Hps Hw H. assert (X w \/ I w /\ Forall (fun p => obeys E F (fun _ => True) p) ps) as Hc by auto. clear Hps Hw.
  remember (ps, w) as cfg eqn:Ec. remember (ps', w') as cfg' eqn:Ec'. revert ps w Ec Hc.
  induction H as [cfg|[ps0 v0] [ps1 v1] cfg'' (i & c & k & r & Hi & Hr & Hc1 & Hc2) Hpr IH]; intros ps w Ec Hc; subst.
  - injection Ec as <- <-. tauto.
  - simpl in *. injection Ec as -> ->. subst ps1 v1. apply (IH eq_refl _ _ eq_refl). destruct Hc as [Hc|[Hc Hps]]; [left; by apply HX|].
    pose proof (proj1 (Forall_lookup _ ps) Hps i _ Hi) as [HF Hk]. destruct (HI w c r Hc HF Hr) as [?|[HE ?]]; [by left|]. right. split; [done|].
    apply Forall_insert; [done|]. by apply Hk.
Qed.

Section frugal.
  Context (n j : string) (x : Z) (enc : Prop).
  Definition Ef (c : cmd) : resp c -> Prop :=
    match c return resp c -> Prop with
    | SLoad k => fun r => k = k_ik j x -> r <> Val None
    | BLoadSession ns j' x' => fun r => enc -> ns = n -> j' = j -> x' = x -> r <> Val None
    | _ => fun _ => True
    end.
  Definition Ff (c : cmd) : Prop :=
    match c with NDownloadBundle ns j' x' => ~ (ns = n /\ j' = j /\ x' = x) | _ => True end.
  Notation ftq Q p := (obeys Ef Ff Q p).
  Notation ft_ p := (obeys Ef Ff (fun _ => True) p).
  Lemma fr_bind {A B} (Q : outcome B -> Prop) (p : api A) (f : A -> api B) :
    ft_ p -> (forall e, Q (Exn e)) -> (forall a, ftq Q (f a)) -> ftq Q (bind p f).
  Proof. intros Hp He Hf. apply obeys_bind. eapply obeys_conseq; [exact Hp|]. intros [a|e] _; auto. Qed.
  Lemma fr_bindq {A B} (L : outcome A -> Prop) (Q : outcome B -> Prop) (p : api A) (f : A -> api B) :
    ftq L p -> (forall e, Q (Exn e)) -> (forall a, L (Val a) -> ftq Q (f a)) -> ftq Q (bind p f).
  Proof. intros Hp He Hf. apply obeys_bind. eapply obeys_conseq; [exact Hp|]. intros [a|e] H; auto. Qed.
  Lemma fr_try {A} (p : api A) : ft_ p -> ft_ (try_ p).
  Proof. intros H. apply obeys_try. eapply obeys_conseq; [exact H|]. by intros []. Qed.
  Lemma fr_for_each {A} (l : list A) f : (forall x, x ∈ l -> ft_ (f x)) -> ft_ (for_each l f).
  Proof. apply obeys_for_each'. Qed.
  Lemma fr_fold {A B} (l : list A) (f : B -> A -> api B) b : (forall b x, x ∈ l -> ft_ (f b x)) -> ft_ (fold_prog l f b).
  Proof.
    intros Hf. apply obeys_fold_prog with (L := fun _ => True); [done| |done].
    intros b' y _ Hx. eapply obeys_conseq; [by apply Hf|]. by intros [].
  Qed.
  Lemma fr_map {A B} (l : list A) (f : A -> api B) : (forall x, x ∈ l -> ft_ (f x)) -> ft_ (map_prog f l).
  Proof.
    intros Hf. apply obeys_map_prog with (L := fun _ => True); [|done]. intros y Hx. eapply obeys_conseq; [by apply Hf|]. by intros [].
  Qed.
  Lemma fr_filter {A} (l : list A) (f : A -> api bool) : (forall x, x ∈ l -> ft_ (f x)) -> ft_ (filter_prog f l).
  Proof. intros Hf. apply obeys_filter_prog; [|done]. intros y Hx. eapply obeys_conseq; [by apply Hf|]. by intros []. Qed.
  Lemma fr_outcome {A} (o : outcome A) : ft_ (of_outcome o).
  Proof. by destruct o. Qed.
  Lemma fr_from_just {A} (o : option A) : ft_ (from_just o).
  Proof. by destruct o. Qed.
  Lemma fr_key_error {A} (o : option A) : ft_ (of_key_error o).
  Proof. by destruct o. Qed.
  Lemma fr_order {A} (l : list A) : ft_ (order l).
  Proof. by split. Qed.
  Lemma fr_load {A} (check : json -> outcome A) k : ftq (fun o => o = Val None -> k <> k_ik j x) (load_checked check k).
  Proof.
    unfold load_checked. apply (fr_bindq (fun o => o = Val None -> k <> k_ik j x)); [|done|].
    - split; [done|]. intros r Hr. destruct r as [v|e]; [|done]. intros [= ->] ->. by apply Hr.
    - intros [v|] Hv; [destruct (check v); done|]. intros _. by apply Hv.
  Qed.
  Lemma fr_load' {A} (check : json -> outcome A) k : ft_ (load_checked check k).
  Proof. eapply obeys_conseq; [apply fr_load|done]. Qed.
  Ltac tk1 :=
    match goal with
    | |- obeys _ _ (fun _ => True) (bind _ _) => apply fr_bind; [|done|intros ?]
    | |- obeys _ _ _ (try_ _) => apply fr_try
    | |- obeys _ _ _ (Ret _) => exact I
    | |- obeys _ _ _ (Raise _) => exact I
    | |- obeys _ _ _ (for_each _ _) => apply fr_for_each; intros ? ?
    | |- obeys _ _ _ (fold_prog _ _ _) => apply fr_fold; intros ? ? ?
    | |- obeys _ _ _ (map_prog _ _) => apply fr_map; intros ? ?
    | |- obeys _ _ _ (filter_prog _ _) => apply fr_filter; intros ? ?
    | |- obeys _ _ _ (order _) => apply fr_order
    | |- obeys _ _ _ (of_key_error _) => apply fr_key_error
    | |- obeys _ _ _ (from_just _) => apply fr_from_just
    | |- obeys _ _ _ (of_outcome _) => apply fr_outcome
    | |- obeys _ _ _ (load_list _ _) => apply fr_load'
    | |- obeys _ _ _ (load_dict _ _) => apply fr_load'
    | |- obeys _ _ _ (load_bytes _) => apply fr_load'
    | |- obeys _ _ _ (load_optional _ _) => apply fr_load'
    | |- obeys _ _ _ (load_primitive _ _) => apply fr_load'
    | |- obeys _ _ _ (let '_ := ?b in _) => destruct b
    | |- obeys _ _ _ (match ?b with _ => _ end) => destruct b
    | |- obeys _ _ _ (if ?b then _ else _) => destruct b
    end.
  Ltac cmd1 := unfold store_bytes in *; unw; unfold g_loaded, g_sync, p_loaded, p_sync, c_randbelow, c_randbytes, s_load, k_same in *;
    match goal with |- obeys _ _ _ (Step _ _) => split; [simpl; auto|intros ? _; first [apply fr_outcome|exact I|cbn [obeys]]] end.
  Ltac tkt := repeat (cbv zeta; first [tk1|progress cmd1]).

  Lemma fr_update cf ns j' dl : ft_ (update_device_list cf ns j' dl).
  Proof. unfold update_device_list, upd_own, upd_new, upd_old. tkt; auto. Qed.
  Lemma fr_refresh cf ns j' : ft_ (refresh_device_list cf ns j').
  Proof. unfold refresh_device_list. tkt; auto. apply fr_update. Qed.
  Lemma fr_refresh_all cf j' : ft_ (refresh_device_lists cf j').
  Proof. unfold refresh_device_lists. tkt. apply fr_refresh. Qed.
  Lemma fr_find_key j' x' l : k_ik j' x' <> k_ik j x -> ft_ (find_key j' x' l).
  Proof.
    intros H. induction l as [|ns l IH]; [done|]. cbn [find_key]. tkt; auto. simpl. intros (_ & -> & ->). by apply H.
  Qed.
  Lemma fr_info_rest cf j' x' nss ik : ft_ (dev_info_rest cf j' x' nss ik).
  Proof. unfold dev_info_rest. tkt; auto. Qed.
  Lemma fr_info_ cf j' : ft_ (get_device_information_ cf j').
  Proof.
    unfold get_device_information_. apply fr_bind; [tkt|done|intros m]. apply fr_bind; [tkt|done|intros l]. apply fr_fold. intros acc x' _.
    unfold dev_info. apply fr_bind; [tkt|done|intros m']. apply fr_bind; [tkt|done|intros l']. cbv zeta.
    eapply fr_bindq; [apply fr_load|done|]. intros [ik|] Hk; [tkt; apply fr_info_rest|].
    specialize (Hk eq_refl). tkt; auto using fr_find_key, fr_info_rest.
  Qed.
  Lemma fr_info cf j' : ft_ (get_device_information cf j').
  Proof. unfold get_device_information. tkt. apply fr_info_. Qed.
  Lemma fr_own cf : ft_ (get_own_device_information cf).
  Proof. unfold get_own_device_information. tkt. by apply fr_info. Qed.
  Lemma fr_label cf l : ft_ (set_own_label cf l).
  Proof. unfold set_own_label. tkt; auto. Qed.
  Lemma fr_purge_backend cf ns : ft_ (purge_backend cf ns).
  Proof. unfold purge_backend. tkt; auto using fr_own. Qed.
  Lemma fr_purge_jid j' : ft_ (purge_bare_jid j').
  Proof. unfold purge_bare_jid, collect_key. tkt; auto. Qed.
  Lemma fr_rotate_upload cf fuel rd ns : ft_ (rotate_upload cf fuel rd ns).
  Proof. revert rd. induction fuel as [|fuel IH]; intros rd; [done|]. cbn [rotate_upload]. tkt; auto. Qed.
  Lemma fr_rotation cf fuel period : ft_ (rotation cf fuel period).
  Proof. induction fuel as [|fuel IH]; [done|]. cbn [rotation]. unfold rotate_one. tkt; auto using fr_rotate_upload. Qed.
  Lemma fr_ensure cf : ~ (c_jid cf = j /\ c_dev cf = x) -> ft_ (ensure_data_consistency cf).
  Proof. intros H. unfold ensure_data_consistency. tkt; auto using fr_refresh. simpl. tauto. Qed.
  Lemma fr_send_empty cf ns s : ft_ (send_empty_message cf ns s).
  Proof. unfold send_empty_message. tkt; auto. Qed.
  Lemma fr_replace cf j' x' : ~ (j' = j /\ x' = x) -> ft_ (replace_sessions cf j' x').
  Proof. intros H. unfold replace_sessions, replace_one. tkt; auto using fr_info. simpl. tauto. Qed.
  Lemma fr_chain j' x' nss : ft_ (get_sending_chain_length j' x' nss).
  Proof. unfold get_sending_chain_length. tkt. Qed.
  Lemma fr_after cf : ft_ (after_history_sync cf).
  Proof. unfold after_history_sync, flush_ns, flush_jid, flush_dev. tkt; auto using fr_send_empty. Qed.
  Lemma fr_enc_trust cf mtd ident l : (forall ds i, ft_ (mtd ds i)) -> ft_ (enc_trust cf mtd ident l).
  Proof. intros Hm. unfold enc_trust, devices_with, reload_trust. tkt; auto. Qed.
  Lemma fr_enc_device ns p cache acc d : enc -> ft_ (enc_device ns p cache acc d).
  Proof.
    intros He. destruct acc as [st keys]. unfold enc_device. unfold b_load_session.
    apply (fr_bindq (fun o => o = Val None -> ~ (ns = n /\ dv_jid d = j /\ dv_id d = x))); [|done|].
    { split; [done|]. intros r Hr. destruct r as [m|e]; [|done]. intros [= ->] (-> & H1 & H2). by apply (Hr He eq_refl H1 H2). }
    intros m Hm. tkt; auto.
  Qed.
  Lemma fr_encrypt cf mtd jids pt prio ident : enc -> (forall ds i, ft_ (mtd ds i)) -> ft_ (encrypt cf mtd jids pt prio ident).
  Proof.
    intros He Hm. unfold encrypt. cbv zeta. tkt; auto using fr_info_, fr_enc_trust. unfold enc_backend. tkt. by apply fr_enc_device.
  Qed.
  Lemma fr_decrypt cf m : ft_ (decrypt cf m).
  Proof.
    unfold decrypt, dec_sender, dec_kex, dec_existing, dec_prekeys, dec_respond. tkt; auto using fr_info, fr_refresh, fr_send_empty.
  Qed.
  Lemma fr_ikp : ft_ ikp_get.
  Proof. unfold ikp_get, ikp_generate. tkt; auto. Qed.
  Lemma fr_fresh fuel l : ft_ (fresh_id fuel l).
  Proof. induction fuel as [|fuel IH]; [done|]. cbn [fresh_id]. tkt; auto. Qed.
  Lemma fr_create P fuel a : ft_ (create P fuel a).
  Proof.
    unfold create, first_run_local, first_run_publish, reconcile, add_backend.
    tkt; auto using fr_ikp, fr_fresh, fr_refresh, fr_own, fr_purge_backend.
  Qed.
  Lemma fr_call c : ~ wants_bundle c j x -> (is_encrypt c -> enc) ->
    (forall cf mtd jids pt prio ident, c = KEncrypt cf mtd jids pt prio ident -> forall ds i, ft_ (mtd ds i)) -> ft_ (run_call c).
  Proof.
    intros Hw He Hm. destruct c; cbn [run_call call_ret wants_bundle is_encrypt] in *;
      auto using fr_create, fr_ikp, fr_update, fr_refresh, fr_refresh_all, fr_info, fr_own, fr_label, fr_purge_backend, fr_purge_jid, fr_rotation,
        fr_ensure, fr_replace, fr_chain, fr_after, fr_decrypt.
    - split; [done|]. intros r _. by destruct r.
    - by split.
    - apply fr_encrypt; [auto|]. by eapply Hm.
  Qed.
  Lemma fr_code (ok : call -> Prop) {A} (p : api A) :
    (forall c, ok c -> ~ wants_bundle c j x /\ (is_encrypt c -> enc)) -> libcode ok p -> ft_ p.
  Proof.
    intros Hok H. induction H as [A a|A e|A B p f Hp IHp Hf IHf|A p Hp IHp|c Hc|c Hc Hm IHm]; [done|done| | | |].
    - apply fr_bind; [exact IHp|done|exact IHf].
    - by apply fr_try.
    - split; [destruct c; simpl in *; done|done].
    - destruct (Hok c Hc). by apply fr_call.
  Qed.
End frugal.

(** The recorded key stays, and is found whenever it is looked up. *)
Lemma key_obeys n j x s ik (enc : Prop) (ok : call -> Prop) w (p : api unit) :
  w_disk w !! k_ik j x = Some (JStr s) -> b64dec s = Some ik ->
  (forall c, ok c -> keeps_key (w_disk w) j c /\ ~ wants_bundle c j x /\ (is_encrypt c -> enc)) -> libcode ok p ->
  obeys (fun c r => PfFrame.E (Lof (kept (IIdentityKey j x) (w_disk w))) (fun _ => True) False c r /\ Ef n j x enc c r)
    (fun c => PfFrame.F (Wof (kept (IIdentityKey j x) (w_disk w))) (fun _ => True) False c /\ Ff n j x c) (fun _ => True) p.
Proof.
  intros Hs Hb Hok Hp. set (D := kept (IIdentityKey j x) (w_disk w)). apply obeys_both.
  - assert (appcode ok p) as Ha. { eapply code_mono; [| |exact Hp]; [intros c; by destruct c|done]. }
    eapply obeys_conseq; [eapply (PfFrame.app_obeys (Lof D) (Wof D) (fun _ => True) False False ok); [tauto| |exact Ha]|done].
    intros c Hc. eapply key_footprint; [by apply Hok|exact Hs].
  - eapply fr_code; [|exact Hp]. intros c Hc. split; by apply Hok.
Qed.
Lemma key_step n j x s (enc : Prop) w v c r :
  w_disk w !! k_ik j x = Some (JStr s) ->
  kept (IIdentityKey j x) (w_disk w) (w_disk v) -> PfFrame.F (Wof (kept (IIdentityKey j x) (w_disk w))) (fun _ => True) False c -> w_allowed v c r ->
  event_of c r <> Some (EvLoadSession n j x (Val None)) \/ ~ enc ->
  (PfFrame.E (Lof (kept (IIdentityKey j x) (w_disk w))) (fun _ => True) False c r /\ Ef n j x enc c r) /\
    kept (IIdentityKey j x) (w_disk w) (w_disk (w_apply v c r)).
Proof.
  intros Hs Hv HF Hr Hn. set (D := kept (IIdentityKey j x) (w_disk w)) in *.
  destruct (inv_step D (Lof D) (Wof D) (Lof_L _) (Wof_S _) (Wof_D _) v c r Hv HF Hr) as [HE HI]. split; [|exact HI]. split; [exact HE|].
  destruct c; try exact I; simpl.
  - intros -> ->. destruct Hv as [Hv _]. change (w_disk v !! k_ik j x = w_disk w !! k_ik j x) in Hv. simpl in Hr. congruence.
  - intros He -> -> -> ->. by destruct Hn.
Qed.

Lemma lookup_dec n j x c r : event_of c r = Some (EvLoadSession n j x (Val None)) \/ event_of c r <> Some (EvLoadSession n j x (Val None)).
Proof.
  destruct c; try (right; done). simpl. destruct r as [[s|]|e]; [by right| |by right].
  destruct (decide (ns = n)) as [->|]; [|right; congruence]. destruct (decide (jid = j)) as [->|]; [|right; congruence].
  destruct (decide (dev = x)) as [->|]; [by left|right; congruence].
Qed.
Lemma frugal_enc j x ik (ok : call -> Prop) (ps : list (api unit)) w ps' w' :
  keyed (w_disk w) j x ik -> (forall c, ok c -> keeps_key (w_disk w) j c /\ ~ wants_bundle c j x) ->
  Forall (fun p => libcode ok p) ps -> preach base (ps, w) (ps', w') ->
  exists new, w_log w' = new ++ w_log w /\ missing_first j x new.
Proof.
  intros (s & Hs & Hb) Hok Hps H. change (w_disk w !! k_ik j x = Some (JStr s)) in Hs.
  assert (forall n, exists new, w_log w' = new ++ w_log w /\
    forall a r b, new = a ++ EvDownloadBundle n j x r :: b -> EvLoadSession n j x (Val None) ∈ b) as HN.
  { intros n. pose (mf := fun new => forall a r b, new = a ++ EvDownloadBundle n j x r :: b -> EvLoadSession n j x (Val None) ∈ b).
    pose (X := fun v => exists new, w_log v = new ++ w_log w /\ EvLoadSession n j x (Val None) ∈ new /\ mf new).
    pose (J := fun v => kept (IIdentityKey j x) (w_disk w) (w_disk v) /\
      exists new, w_log v = new ++ w_log w /\ forall r, EvDownloadBundle n j x r ∉ new).
    destruct (escape X J (fun c r => PfFrame.E (Lof (kept (IIdentityKey j x) (w_disk w))) (fun _ => True) False c r /\ Ef n j x True c r)
      (fun c => PfFrame.F (Wof (kept (IIdentityKey j x) (w_disk w))) (fun _ => True) False c /\ Ff n j x c) ps w ps' w') as [HX|HJ]; [| | | |exact H| |].
    - intros v c r (new & E1 & E2 & E3) _. unfold X. rewrite log_apply. destruct (event_of c r) as [e|]; simpl; [|by exists new].
      exists (e :: new). rewrite E1. split; [done|]. split; [by right|]. intros a r' b Eq. destruct a as [|e' a]; [by injection Eq as _ <-|].
      injection Eq as _ Eq. by eapply E3.
    - intros v c r [Hv (new & E1 & E2)] [HF1 HF2] Hr.
      assert (forall e r', event_of c r = Some e -> e <> EvDownloadBundle n j x r') as Hnd.
      { intros e r' Ee ->. destruct c; simpl in *; try discriminate Ee. injection Ee as -> -> ->. tauto. }
      assert (forall r', EvDownloadBundle n j x r' ∉ option_list (event_of c r) ++ new) as E2'.
      { intros r' [He|He]%elem_of_app; [|by eapply E2]. destruct (event_of c r) as [e|] eqn:Ee; [|by apply elem_of_nil in He].
        apply elem_of_list_singleton in He as <-. by apply (Hnd _ r' eq_refl). }
      assert (w_log (w_apply v c r) = (option_list (event_of c r) ++ new) ++ w_log w) as E1'.
      { rewrite log_apply, E1. by destruct (event_of c r). }
      destruct (lookup_dec n j x c r) as [He|He].
      + left. eexists. split; [exact E1'|]. split; [rewrite He; left|]. intros a r' b Eq. exfalso. apply (E2' r'). rewrite Eq. apply elem_of_app. right. left.
      + right. destruct (key_step n j x s True w v c r Hs Hv HF1 Hr (or_introl He)) as [HE HK]. split; [exact HE|]. split; [exact HK|]. by eexists.
    - eapply Forall_impl; [exact Hps|]. intros p Hp. eapply key_obeys; [exact Hs|exact Hb| |exact Hp]. intros c Hc. destruct (Hok c Hc). tauto.
    - split; [by split|]. exists []. split; [done|]. intros r Hr. by apply elem_of_nil in Hr.
    - destruct HX as (new & E1 & _ & E3). by exists new.
    - destruct HJ as [_ (new & E1 & E2)]. exists new. split; [done|]. intros a r b ->. exfalso. apply (E2 r). apply elem_of_app. right. left. }
  destruct (HN "") as (new & E1 & _). exists new. split; [done|]. intros n a r b Eq. destruct (HN n) as (new' & E1' & H').
  assert (new' = new) as -> by (eapply app_inv_tail; by rewrite <- E1', <- E1). by eapply H'.
Qed.
Lemma frugal_no_enc j x ik (ok : call -> Prop) (ps : list (api unit)) w ps' w' :
  keyed (w_disk w) j x ik -> (forall c, ok c -> keeps_key (w_disk w) j c /\ ~ wants_bundle c j x /\ ~ is_encrypt c) ->
  Forall (fun p => libcode ok p) ps -> preach base (ps, w) (ps', w') ->
  exists new, w_log w' = new ++ w_log w /\ no_bundles j x new.
Proof.
  intros (s & Hs & Hb) Hok Hps H. change (w_disk w !! k_ik j x = Some (JStr s)) in Hs.
  assert (forall n, exists new, w_log w' = new ++ w_log w /\ forall r, EvDownloadBundle n j x r ∉ new) as HN.
  { intros n.
    pose (J := fun v => kept (IIdentityKey j x) (w_disk w) (w_disk v) /\
      exists new, w_log v = new ++ w_log w /\ forall r, EvDownloadBundle n j x r ∉ new).
    destruct (escape (fun _ => False) J (fun c r => PfFrame.E (Lof (kept (IIdentityKey j x) (w_disk w))) (fun _ => True) False c r /\ Ef n j x False c r)
      (fun c => PfFrame.F (Wof (kept (IIdentityKey j x) (w_disk w))) (fun _ => True) False c /\ Ff n j x c) ps w ps' w') as [[]|HJ]; [done| | | |exact H|].
    - intros v c r [Hv (new & E1 & E2)] [HF1 HF2] Hr. right.
      destruct (key_step n j x s False w v c r Hs Hv HF1 Hr (or_intror (fun f : False => f))) as [HE HK]. split; [exact HE|]. split; [exact HK|].
      rewrite log_apply. destruct (event_of c r) as [e|] eqn:Ee; [|by exists new]. exists (e :: new). simpl. rewrite E1. split; [done|].
      intros r' [He|He]%elem_of_cons; [|by eapply E2]. subst e. destruct c; simpl in *; try discriminate Ee. injection Ee as -> -> ->. tauto.
    - eapply Forall_impl; [exact Hps|]. intros p Hp. eapply key_obeys; [exact Hs|exact Hb| |exact Hp]. intros c Hc. destruct (Hok c Hc) as (? & ? & ?). tauto.
    - split; [by split|]. exists []. split; [done|]. intros r Hr. by apply elem_of_nil in Hr.
    - exact (proj2 HJ). }
  destruct (HN "") as (new & E1 & _). exists new. split; [done|]. intros n r Hr. destruct (HN n) as (new' & E1' & H').
  assert (new' = new) as -> by (eapply app_inv_tail; by rewrite <- E1', <- E1). by eapply H'.
Qed.

(** ** The sender of a message *)
Lemma nl_info cf j : em no_list (get_device_information cf j).
Proof. eapply em_mono; [apply em_info| |done]. by intros e []. Qed.
Lemma nl_loaded w bs w' : exec base g_loaded w (Val bs) w' -> w' = w.
Proof. intros (r & _ & H). simpl in H. by destruct H. Qed.
Lemma sender_known cf m ik w w' :
  known (w_disk w) (m_jid m) (m_dev m) -> keyed (w_disk w) (m_jid m) (m_dev m) ik -> reach base (decrypt cf m) w w' ->
  exists new, w_log w' = new ++ w_log w /\ Forall no_list new.
Proof.
  intros Hk Hi H.
  assert (forall A (p : api A) v v', em no_list p -> reach base p v v' -> exists new, w_log v' = new ++ w_log v /\ Forall no_list new) as Hem.
  { intros A p v v' Hp Hr. destruct (em_reach _ _ _ _ _ Hp Hr) as (evs & H1 & ->). by exists evs. }
  unfold decrypt in H. apply reach_bind in H as [H|(bs & w1 & H1 & H)]; [eapply Hem; [|exact H]; apply em_loaded|].
  apply nl_loaded in H1 as ->. destruct (decide (m_ns m ∈ bs)) as [Hns|Hns]; [|eapply Hem; [|exact H]; exact I].
  apply reach_bind in H as [H|(keys & w1 & H1 & H)]; [eapply Hem; [|exact H]; apply em_order|].
  assert (w1 = w) as ->. { destruct H1 as (r & _ & H1). simpl in H1. by destruct H1. }
  destruct (filter _ keys) as [|[e mk] l]; [eapply Hem; [|exact H]; exact I|].
  unfold dec_sender in H.
  assert (forall ds w1, exec base (get_device_information cf (m_jid m)) w (Val ds) w1 ->
    exists d l, filter (fun d => dv_id d = m_dev m) ds = d :: l /\ exists new, w_log w1 = new ++ w_log w /\ Forall no_list new) as Hd.
  { intros ds w1 Hx. pose proof Hx as (_ & _ & H3)%info_key. destruct (H3 _ _ Hi Hk) as (dv & Hv & Hx').
    destruct (em_exec _ _ _ _ _ _ (nl_info cf (m_jid m)) Hx) as [_ (evs & He & ->)].
    destruct (filter (fun d => dv_id d = m_dev m) ds) as [|d l0] eqn:Ef.
    - exfalso. assert (dv ∈ filter (fun d => dv_id d = m_dev m) ds) as Hin by (by apply elem_of_list_filter). rewrite Ef in Hin. by apply elem_of_nil in Hin.
    - exists d, l0. split; [done|]. by exists evs. }
  apply reach_bind in H as [H|(d & w1 & Ho & H)].
  - apply reach_bind in H as [H|(ds & w1 & Ho & H)]; [eapply Hem; [apply nl_info|exact H]|].
    destruct (Hd _ _ Ho) as (d & l0 & Ef & new & E1 & E2). rewrite Ef in H. destruct H as [->|[]]. by exists new.
  - apply exec_bind in Ho as [(ds & w2 & Ho & H2)|(e' & _ & ?)]; [|done].
    destruct (Hd _ _ Ho) as (d' & l0 & Ef & new & E1 & E2). rewrite Ef in H2. destruct H2 as [_ ->].
    assert (exists new', w_log w' = new' ++ w_log w2 /\ Forall no_list new') as (new' & E1' & E2').
    { eapply Hem; [|exact H]. unfold dec_kex, dec_existing, dec_prekeys, dec_respond, send_empty_message. emt; ev. }
    exists (new' ++ new). split; [by rewrite E1', E1, app_assoc|by apply Forall_app].
Qed.
