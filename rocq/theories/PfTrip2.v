(** C88: messages sent by the library itself *)
From Verif Require Import Trip PfWp PfEmits PfExec PfAlone PfLog PfEncrypt PfDec5 PfTrip.
Open Scope prog_scope.
Open Scope list_scope.

Definition mute (e : event) : Prop := match e with EvSend _ _ _ => False | _ => True end.
Notation qu p := (obeys Eany (Flog mute) (fun _ => True) p).

Lemma qu_bind {A B} (p : api A) (f : A -> api B) : qu p -> (forall a, qu (f a)) -> qu (bind p f).
Proof. apply lg_bind. Qed.
Lemma qu_try {A} (p : api A) : qu p -> qu (try_ p).
Proof. intros Hp. apply obeys_try. by eapply obeys_conseq. Qed.
Lemma qu_for_each {A} (l : list A) f : (forall x, x ∈ l -> qu (f x)) -> qu (for_each l f).
Proof. intros Hf. apply obeys_for_each; [|done]. intros x Hx. eapply obeys_conseq; [by apply Hf|]. by intros []. Qed.
Lemma qu_fold {A B} (l : list A) (f : B -> A -> api B) b : (forall b x, x ∈ l -> qu (f b x)) -> qu (fold_prog l f b).
Proof.
  intros Hf. apply obeys_fold_prog with (L := fun _ => True); [done| |done]. intros c x _ Hx.
  eapply obeys_conseq; [by apply Hf|]. by intros [].
Qed.
Lemma qu_map {A B} (l : list A) (f : A -> api B) : (forall x, x ∈ l -> qu (f x)) -> qu (map_prog f l).
Proof.
  intros Hf. apply obeys_map_prog with (L := fun _ => True); [|done]. intros x Hx. eapply obeys_conseq; [by apply Hf|]. by intros [].
Qed.
Lemma qu_filter {A} (l : list A) (f : A -> api bool) : (forall x, x ∈ l -> qu (f x)) -> qu (filter_prog f l).
Proof. intros Hf. apply obeys_filter_prog; [|done]. intros x Hx. eapply obeys_conseq; [by apply Hf|]. by intros []. Qed.
Lemma qu_outcome {A} (o : outcome A) : qu (of_outcome o).
Proof. by destruct o. Qed.
Lemma qu_from_just {A} (o : option A) : qu (from_just o).
Proof. by destruct o. Qed.
Lemma qu_key_error {A} (o : option A) : qu (of_key_error o).
Proof. by destruct o. Qed.
Lemma qu_order {A} (l : list A) : qu (order l).
Proof. by split. Qed.
Lemma qu_load {A} (check : json -> outcome A) k : qu (load_checked check k).
Proof.
  unfold load_checked. apply qu_bind; [split; [done|intros ? _; apply qu_outcome]|].
  intros [v|]; [|done]. destruct (check v); done.
Qed.

Ltac qu1 :=
  match goal with
  | |- obeys _ _ _ (bind _ _) => apply qu_bind; [|intros ?]
  | |- obeys _ _ _ (try_ _) => apply qu_try
  | |- obeys _ _ _ (Ret _) => exact I
  | |- obeys _ _ _ (Raise _) => exact I
  | |- obeys _ _ _ (for_each _ _) => apply qu_for_each; intros ? ?
  | |- obeys _ _ _ (fold_prog _ _ _) => apply qu_fold; intros ? ? ?
  | |- obeys _ _ _ (map_prog _ _) => apply qu_map; intros ? ?
  | |- obeys _ _ _ (filter_prog _ _) => apply qu_filter; intros ? ?
  | |- obeys _ _ _ (order _) => apply qu_order
  | |- obeys _ _ _ (of_key_error _) => apply qu_key_error
  | |- obeys _ _ _ (from_just _) => apply qu_from_just
  | |- obeys _ _ _ (of_outcome _) => apply qu_outcome
  | |- obeys _ _ _ (load_list _ _) => apply qu_load
  | |- obeys _ _ _ (load_dict _ _) => apply qu_load
  | |- obeys _ _ _ (load_bytes _) => apply qu_load
  | |- obeys _ _ _ (load_optional _ _) => apply qu_load
  | |- obeys _ _ _ (load_primitive _ _) => apply qu_load
  | |- obeys _ _ _ (let '_ := ?b in _) => destruct b
  | |- obeys _ _ _ (match ?b with _ => _ end) => destruct b
  | |- obeys _ _ _ (if ?b then _ else _) => destruct b
  end.
Ltac qcmd := unfold store_bytes in *; unw; unfold g_loaded, g_sync, p_loaded, p_sync, c_randbelow, c_randbytes, s_load, k_same in *;
  match goal with |- obeys _ _ _ (Step _ _) => split; [intros ? _; exact I|intros ? _; first [apply qu_outcome|exact I|cbn [obeys]]] end.
Ltac qut := repeat (cbv zeta; first [qu1|progress qcmd]).

Lemma qu_update cf ns j dl : qu (update_device_list cf ns j dl).
Proof. unfold update_device_list, upd_own, upd_new, upd_old. qut. Qed.
Lemma qu_refresh cf ns j : qu (refresh_device_list cf ns j).
Proof. unfold refresh_device_list. qut. apply qu_update. Qed.
Lemma qu_refresh_all cf j : qu (refresh_device_lists cf j).
Proof. unfold refresh_device_lists. qut. apply qu_refresh. Qed.
Lemma qu_find_key j x l : qu (find_key j x l).
Proof. induction l as [|ns l IH]; [done|]. cbn [find_key]. qut; auto. Qed.
Lemma qu_info_ cf j : qu (get_device_information_ cf j).
Proof. unfold get_device_information_, dev_info, dev_info_rest. qut; apply qu_find_key. Qed.
Lemma qu_info cf j : qu (get_device_information cf j).
Proof. unfold get_device_information. qut. apply qu_info_. Qed.
Lemma qu_own cf : qu (get_own_device_information cf).
Proof. unfold get_own_device_information. qut. apply qu_info. Qed.
Lemma qu_label cf l : qu (set_own_label cf l).
Proof. unfold set_own_label. qut. Qed.
Lemma qu_purge_backend cf ns : qu (purge_backend cf ns).
Proof. unfold purge_backend. qut; auto using qu_own. Qed.
Lemma qu_purge_jid j : qu (purge_bare_jid j).
Proof. unfold purge_bare_jid, collect_key. qut. Qed.
Lemma qu_chain j x nss : qu (get_sending_chain_length j x nss).
Proof. unfold get_sending_chain_length. qut. Qed.
Lemma qu_devices_with t l : qu (devices_with t l).
Proof. unfold devices_with. qut. Qed.
Lemma qu_enc_backend cf pt cache st ns : qu (enc_backend cf pt cache st ns).
Proof. unfold enc_backend, enc_device. qut. Qed.
Lemma qu_ikp : qu ikp_get.
Proof. unfold ikp_get, ikp_generate. qut. Qed.
Lemma qu_dec_sender cf m : qu (dec_sender cf m).
Proof. unfold dec_sender. qut; auto using qu_info, qu_refresh. Qed.
Lemma qu_dec_existing ns d e : qu (dec_existing ns d e).
Proof. unfold dec_existing. qut. Qed.
Lemma qu_dec_kex ns d k e : qu (dec_kex ns d k e).
Proof. unfold dec_kex. qut. Qed.
Lemma qu_prekeys cf ns s : qu (dec_prekeys cf ns s).
Proof. unfold dec_prekeys. qut. Qed.
Lemma qu_ensure cf : qu (ensure_data_consistency cf).
Proof. unfold ensure_data_consistency. qut; auto using qu_refresh. Qed.
Lemma qu_fresh fuel ids : qu (fresh_id fuel ids).
Proof. induction fuel as [|n IH]; [done|]. cbn [fresh_id]. qut; auto. Qed.
Lemma qu_rotate_upload cf fuel rd ns : qu (rotate_upload cf fuel rd ns).
Proof. revert rd. induction fuel as [|n IH]; intros rd; [done|]. cbn [rotate_upload]. qut; auto. Qed.
Lemma qu_rotation cf fuel period : qu (rotation cf fuel period).
Proof.
  induction fuel as [|n IH]; [done|]. cbn [rotation]. unfold rotate_one. qut; auto using qu_rotate_upload.
Qed.
Lemma qu_reconcile cf : qu (reconcile cf).
Proof. unfold reconcile, add_backend. qut; auto using qu_own, qu_refresh, qu_purge_backend. Qed.
Lemma qu_create P fuel a : qu (create P fuel a).
Proof. unfold create, first_run_local, first_run_publish. qut; auto using qu_ikp, qu_fresh, qu_refresh, qu_reconcile. Qed.

Section sends.
  Context (P : world -> forall c, resp c -> Prop) (cf : cfg).
  Definition sent_ok (e : event) (before : list event) : Prop :=
    match e with EvSend m _ _ => exists p, written_empty cf m p before | _ => True end.
  Notation J := (traced sent_ok).
  Definition st {A} (p : api A) : Prop := forall l, J l -> wp (alone P) J p (fun _ l' => J l') l.

  Lemma st_qu {A} (p : api A) : qu p -> st p.
  Proof using Type.
    induction p as [a|e|c k IH]; intros Hp l Hl; [exact Hl|exact Hl|]. destruct Hp as [Hc Hk].
    change (forall r, allowed (alone P) l c r -> J (Prog.apply (alone P) l c r) /\
      wp (alone P) J (k r) (fun _ l' => J l') (Prog.apply (alone P) l c r)).
    intros r (w & Hr & _). assert (Eany c r) as HE by (by eexists). specialize (Hc r HE).
    assert (J (Prog.apply (alone P) l c r)) as Hl'.
    { simpl. destruct (event_of c r) as [e|]; [|done]. apply traced_cons. split; [|done]. by destruct e. }
    split; [done|]. apply IH; [by apply Hk|done].
  Qed.
  Lemma st_bind {A B} (p : api A) (f : A -> api B) : st p -> (forall a, st (f a)) -> st (bind p f).
  Proof using Type.
    intros Hp Hf l Hl. apply wp_bind. eapply wp_conseq; [by apply Hp|]. intros [a|e] l' Hl'; [by apply Hf|done].
  Qed.
  Lemma st_try {A} (p : api A) : st p -> st (try_ p).
  Proof using Type. intros Hp l Hl. apply wp_try. eapply wp_conseq; [by apply Hp|]. done. Qed.
  Lemma st_for_each {A} (xs : list A) f : (forall x, st (f x)) -> st (for_each xs f).
  Proof using Type.
    intros Hf l Hl. apply (wp_for_each _ _ (fun _ => J)); [done| |done]. intros pre x post l' _ Hl'.
    eapply wp_conseq; [by apply Hf|]. by intros [].
  Qed.
  Lemma st_fold {A B} (xs : list A) (f : B -> A -> api B) b : (forall b x, st (f b x)) -> st (fold_prog xs f b).
  Proof using Type.
    intros Hf l Hl. apply (wp_fold_prog _ _ (fun _ _ => J)); [done| |done]. intros pre x post c l' _ Hl'.
    eapply wp_conseq; [by apply Hf|]. by intros [].
  Qed.
  Lemma jcmd {A} c (cast : resp c -> outcome A) (ev : resp c -> event) (R : outcome A -> list event -> Prop) l :
    (forall r, event_of c r = Some (ev r)) -> (forall r, sent_ok (ev r) l) -> J l ->
    (forall r, J (ev r :: l) -> R (cast r) (ev r :: l)) -> wp (alone P) J (Step c (fun r => of_outcome (cast r))) R l.
  Proof using Type.
    intros He Hs Hl HR. change (forall r, allowed (alone P) l c r -> J (Prog.apply (alone P) l c r) /\
      wp (alone P) J (of_outcome (cast r)) R (Prog.apply (alone P) l c r)).
    intros r _. assert (J (ev r :: l)) as Hl' by (apply traced_cons; auto). simpl. rewrite He. split; [done|].
    apply wp_of_outcome. auto.
  Qed.

  Context (cf' : cfg) (Hcf : c_jid cf' = c_jid cf /\ c_dev cf' = c_dev cf).
  Lemma st_send_empty ns s : st (send_empty_message cf' ns s).
  Proof using Hcf.
    intros l Hl. destruct Hcf as [Ej Ed]. unfold send_empty_message. apply wp_bind. unfold b_enc_empty.
    eapply (jcmd (BEncEmpty ns) (fun r => r) (fun r => EvEncEmpty ns r)); [done|done|done|]. intros [[c p]|x] Hl1; [|done].
    apply wp_bind. unfold b_enc_key.
    eapply (jcmd (BEncKey ns s p) (fun r => r) (fun r => EvEncKey ns s p r)); [done|done|done|]. intros [[s' e]|x] Hl2; [|done].
    apply wp_bind. unfold n_send.
    eapply (jcmd (NSend _ (s_jid s')) (fun r => r) (fun r => EvSend _ (s_jid s') r)); [done| |done|].
    - intros r. exists p. split; [done|]. split; [done|]. split; [right; left|].
      exists e, (kex_to_send s'). split; [done|]. left. exists s, s'. left.
    - intros [[]|x] Hl3; [|done]. apply st_qu; [qut|done].
  Qed.
  Lemma st_replace_one ns j x : st (replace_one cf' ns j x).
  Proof using Hcf.
    intros l Hl. destruct Hcf as [Ej Ed]. unfold replace_one. apply wp_bind. unfold b_enc_empty.
    eapply (jcmd (BEncEmpty ns) (fun r => r) (fun r => EvEncEmpty ns r)); [done|done|done|]. intros [[c p]|er] Hl1; [|done].
    apply wp_bind. unfold n_download_bundle.
    eapply (jcmd (NDownloadBundle ns j x) (fun r => r) (fun r => EvDownloadBundle ns j x r)); [done|done|done|]. intros [b|er] Hl2; [|done].
    apply wp_bind. unfold b_build_active.
    eapply (jcmd (BBuildActive ns j x b p) (fun r => r) (fun r => EvBuildActive ns j x b p r)); [done|done|done|]. intros [[s e]|er] Hl3; [|done].
    apply wp_bind. unfold n_send.
    eapply (jcmd (NSend _ j) (fun r => r) (fun r => EvSend _ j r)); [done| |done|].
    - intros r. exists p. split; [done|]. split; [done|]. split; [right; right; left|].
      exists e, (Some (s_kex s)). split; [done|]. right. exists j, x, b, s. left.
    - intros [[]|er] Hl4; [|done]. apply st_qu; [qut|done].
  Qed.
  Lemma st_replace j x : st (replace_sessions cf' j x).
  Proof using Hcf.
    unfold replace_sessions. apply st_bind; [apply st_qu, qu_info|intros ds]. destruct (filter _ ds) as [|d ds']; [apply st_qu; qut|].
    apply st_bind; [apply st_qu; qut|intros bs]. apply st_bind; [apply st_qu; qut|intros wi]. cbv zeta.
    apply st_bind; [apply st_qu; qut|intros bs']. apply st_fold. intros u ns. destruct (decide _) as [_|_]; [|apply st_qu; qut].
    apply st_bind; [apply st_try, st_replace_one|]. intros [[]|e]; apply st_qu; qut.
  Qed.
  Lemma st_after : st (after_history_sync cf').
  Proof using Hcf.
    unfold after_history_sync. apply st_bind; [apply st_qu; qut|intros _]. apply st_bind; [apply st_qu; qut|intros bs].
    apply st_bind; [apply st_qu; qut|intros _]. apply st_bind; [apply st_qu; qut|intros bs']. apply st_for_each. intros ns.
    unfold flush_ns. apply st_bind; [apply st_qu; qut|intros m]. cbv zeta. apply st_bind; [apply st_qu; qut|intros _].
    apply st_bind; [apply st_qu; qut|intros js]. apply st_for_each. intros j.
    unfold flush_jid. apply st_bind; [apply st_qu; qut|intros m']. cbv zeta. apply st_bind; [apply st_qu; qut|intros _].
    apply st_bind; [apply st_qu; qut|intros xs]. apply st_for_each. intros x.
    unfold flush_dev. apply st_bind; [apply st_qu; qut|intros [s|]]; [apply st_send_empty|apply st_qu; qut].
  Qed.
  Lemma st_respond ns s : st (dec_respond cf' ns s).
  Proof using Hcf.
    unfold dec_respond. apply st_bind; [apply st_qu; qut|intros [|]]; [|apply st_send_empty]. apply st_qu. qut.
  Qed.
  Lemma st_decrypt m : st (decrypt cf' m).
  Proof using Hcf.
    unfold decrypt. cbv zeta. apply st_bind; [apply st_qu; qut|intros l]. destruct (decide (_ ∈ _)) as [_|_]; [|apply st_qu; qut].
    apply st_bind; [apply st_qu; qut|intros keys]. destruct (filter _ keys) as [|[e mk] ks]; [apply st_qu; qut|].
    apply st_bind; [apply st_qu, qu_dec_sender|intros d]. apply st_bind; [apply st_qu; qut|intros t].
    destruct (decide (t = Distrusted)) as [_|_]; [apply st_qu; qut|].
    apply st_bind; [apply st_qu; destruct mk; [apply qu_dec_kex|apply qu_dec_existing]|intros [s p]].
    apply st_bind; [apply st_qu; qut|intros pt]. apply st_bind; [apply st_qu; qut|intros _].
    apply st_bind; [apply st_qu; destruct mk; [apply qu_prekeys|qut]|intros _].
    apply st_bind; [|intros _; apply st_qu; qut]. destruct (_ || _); [apply st_respond|apply st_qu; qut].
  Qed.
End sends.

Lemma st_encrypt P cf cf' mtd jids pt prio ident :
  (forall ds i, st P cf (mtd ds i)) -> st P cf (encrypt cf' mtd jids pt prio ident).
Proof.
  intros Hm. unfold encrypt. cbv zeta. repeat (apply st_bind; [apply st_qu; qut; apply qu_info_|intros ?]).
  apply st_bind.
  - unfold enc_trust. apply st_bind; [apply st_qu, qu_devices_with|intros u]. apply st_bind.
    + destruct u; [apply st_qu; qut|]. apply st_bind; [apply Hm|intros _]. apply st_qu. unfold reload_trust. qut.
    + intros ds. apply st_qu. qut; apply qu_devices_with.
  - intros ds. apply st_qu. qut. apply qu_enc_backend.
Qed.
Lemma st_code {A} P cf (p : api A) : libcode (sends_as cf) p -> st P cf p.
Proof.
  induction 1 as [A a|A e|A B p f Hp IHp Hf IHf|A p Hp IHp|c Hc|c Hc Hm IHm];
    [apply st_qu; qut|apply st_qu; qut|by apply st_bind|by apply st_try| |].
  - apply st_qu. split; [|done]. intros r _. by destruct c.
  - destruct c; cbn [run_call sends_as] in *.
    + apply st_qu, qu_create.
    + apply st_qu, qu_ikp.
    + apply st_qu, qu_update.
    + apply st_qu, qu_refresh.
    + apply st_qu, qu_refresh_all.
    + apply st_qu. unfold set_trust. qut.
    + apply st_qu, qu_info.
    + apply st_qu, qu_own.
    + apply st_qu, qu_label.
    + apply st_qu, qu_purge_backend.
    + apply st_qu, qu_purge_jid.
    + apply st_qu, qu_rotation.
    + apply st_qu, qu_ensure.
    + by apply st_replace.
    + apply st_qu, qu_chain.
    + apply st_qu. unfold before_history_sync. qut.
    + by apply st_after.
    + apply st_encrypt. by eapply IHm.
    + by apply st_decrypt.
Qed.
Lemma sent_written {A} P cf (p : api A) evs :
  libcode (sends_as cf) p -> reach (alone P) p [] evs -> traced (sent_ok cf) evs.
Proof.
  intros Hp H. eapply (wp_reach (alone P) (traced (sent_ok cf))) in H; [exact H| |].
  - apply (st_code P cf p Hp). apply traced_nil.
  - apply traced_nil.
Qed.

Lemma opened_unsealed m d e mk l s p : opened m d e mk l s p -> unsealed (m_ns m) e p l.
Proof. intros [(s0 & _ & H)|(k & _ & H)]; [left|right]; eauto. Qed.

Lemma round_trip P P' cfA cfB mtd jids pt prio ident msgs errs m p la o d p' lb :
  exec (alone P) (encrypt cfA mtd jids pt prio ident) [] (Val (msgs, errs)) la -> (m, p) ∈ msgs ->
  exec (alone P') (decrypt cfB m) [] (Val (o, d, p')) lb -> correct_crypto la lb ->
  (exists b, o = Some b /\ dget (m_ns m) pt = Some b) /\ p' = p /\ dv_jid d = c_jid cfA /\ dv_id d = c_dev cfA.
Proof.
  intros HA Hin HB (C1 & C2 & C3 & _).
  destruct (enc_written P _ _ _ _ _ _ _ _ _ _ _ HA Hin) as (Ej & Ed & (b & Hb & Hp) & Hk).
  apply dec_returned in HB as (H1 & H2 & (e & mk & s & (Hg & _) & Ho) & Hj & Hd & _).
  assert (p' = p) as -> by (eapply C1; [by eapply Hk|by eapply opened_unsealed]).
  split; [|split; [done|split; congruence]]. destruct o as [b'|].
  - exists b'. split; [done|]. assert (b' = b) as ->; [|done]. eapply C2; [exact Hp|]. by apply H2.
  - exfalso. assert (ct_empty (m_content m) = true) as E by (by apply H1). rewrite (C3 _ _ _ _ Hp) in E. done.
Qed.
Lemma sent_read {A} P P' cfA cfB (prog : api A) m j r la o d p' lb :
  libcode (sends_as cfA) prog -> reach (alone P) prog [] la -> EvSend m j r ∈ la ->
  exec (alone P') (decrypt cfB m) [] (Val (o, d, p')) lb -> correct_crypto la lb ->
  o = None /\ dv_jid d = c_jid cfA /\ dv_id d = c_dev cfA /\ EvEncEmpty (m_ns m) (Val (m_content m, p')) ∈ la.
Proof.
  intros Hc HA Hin HB (C1 & _ & _ & C4). apply (sent_written _ _ _ _ Hc) in HA.
  apply elem_of_list_split in Hin as (post & before & E). destruct (HA _ _ _ E) as (p & Ej & Ed & Hp & e & k & Hm & Hs).
  assert (forall ev, ev ∈ before -> ev ∈ la) as Hsub by (intros ev Hev; subst la; apply elem_of_app; right; by right).
  apply dec_returned in HB as (H1 & _ & (e' & mk & s & (Hg & _) & Ho) & Hj & Hd & _).
  rewrite Hm in Hg. apply elem_of_list_singleton in Hg. injection Hg as Eq1 Eq2. subst e' mk.
  assert (p' = p) as ->.
  { eapply C1; [|by eapply opened_unsealed]. destruct Hs as [(s1 & s2 & Hx)|(j1 & x1 & b1 & s1 & Hx)]; [left; exists s1, s2|right; exists j1, x1, b1, s1]; auto. }
  split; [apply H1; eapply C4; by apply Hsub|]. split; [congruence|]. split; [congruence|]. by apply Hsub.
Qed.
