(** C84, C85: a traversal of the library for what it does to pre keys and bundles. *)
From Verif Require Import Publish PfWp PfEmits PfExec PfAlone PfLog PfRot PfFill.
Open Scope prog_scope.
Open Scope list_scope.

Definition neutral (e : event) : Prop :=
  match e with
  | EvRotate _ _ | EvGenerate _ _ _ | EvHide _ _ _ | EvDeletePk _ _ _ | EvUploadBundle _ _ => False
  | _ => True
  end.
Notation ne p := (obeys Eany (Flog neutral) (fun _ => True) p).

Lemma ne_bind {A B} (p : api A) (f : A -> api B) : ne p -> (forall a, ne (f a)) -> ne (bind p f).
Proof. apply lg_bind. Qed.
Lemma ne_try {A} (p : api A) : ne p -> ne (try_ p).
Proof. intros Hp. apply obeys_try. by eapply obeys_conseq. Qed.
Lemma ne_for_each {A} (l : list A) f : (forall x, x ∈ l -> ne (f x)) -> ne (for_each l f).
Proof. intros Hf. apply obeys_for_each; [|done]. intros x Hx. eapply obeys_conseq; [by apply Hf|]. by intros []. Qed.
Lemma ne_fold {A B} (l : list A) (f : B -> A -> api B) b : (forall b x, x ∈ l -> ne (f b x)) -> ne (fold_prog l f b).
Proof.
  intros Hf. apply obeys_fold_prog with (L := fun _ => True); [done| |done]. intros c x _ Hx.
  eapply obeys_conseq; [by apply Hf|]. by intros [].
Qed.
Lemma ne_map {A B} (l : list A) (f : A -> api B) : (forall x, x ∈ l -> ne (f x)) -> ne (map_prog f l).
Proof.
  intros Hf. apply obeys_map_prog with (L := fun _ => True); [|done]. intros x Hx. eapply obeys_conseq; [by apply Hf|]. by intros [].
Qed.
Lemma ne_filter {A} (l : list A) (f : A -> api bool) : (forall x, x ∈ l -> ne (f x)) -> ne (filter_prog f l).
Proof. intros Hf. apply obeys_filter_prog; [|done]. intros x Hx. eapply obeys_conseq; [by apply Hf|]. by intros []. Qed.
Lemma ne_outcome {A} (o : outcome A) : ne (of_outcome o).
Proof. by destruct o. Qed.
Lemma ne_from_just {A} (o : option A) : ne (from_just o).
Proof. by destruct o. Qed.
Lemma ne_key_error {A} (o : option A) : ne (of_key_error o).
Proof. by destruct o. Qed.
Lemma ne_order {A} (l : list A) : ne (order l).
Proof. by split. Qed.
Lemma ne_load {A} (check : json -> outcome A) k : ne (load_checked check k).
Proof.
  unfold load_checked. apply ne_bind; [split; [done|intros ? _; apply ne_outcome]|].
  intros [v|]; [|done]. destruct (check v); done.
Qed.

Ltac ne1 :=
  match goal with
  | |- obeys _ _ _ (bind _ _) => apply ne_bind; [|intros ?]
  | |- obeys _ _ _ (try_ _) => apply ne_try
  | |- obeys _ _ _ (Ret _) => exact I
  | |- obeys _ _ _ (Raise _) => exact I
  | |- obeys _ _ _ (for_each _ _) => apply ne_for_each; intros ? ?
  | |- obeys _ _ _ (fold_prog _ _ _) => apply ne_fold; intros ? ? ?
  | |- obeys _ _ _ (map_prog _ _) => apply ne_map; intros ? ?
  | |- obeys _ _ _ (filter_prog _ _) => apply ne_filter; intros ? ?
  | |- obeys _ _ _ (order _) => apply ne_order
  | |- obeys _ _ _ (of_key_error _) => apply ne_key_error
  | |- obeys _ _ _ (from_just _) => apply ne_from_just
  | |- obeys _ _ _ (of_outcome _) => apply ne_outcome
  | |- obeys _ _ _ (load_list _ _) => apply ne_load
  | |- obeys _ _ _ (load_dict _ _) => apply ne_load
  | |- obeys _ _ _ (load_bytes _) => apply ne_load
  | |- obeys _ _ _ (load_optional _ _) => apply ne_load
  | |- obeys _ _ _ (load_primitive _ _) => apply ne_load
  | |- obeys _ _ _ (let '_ := ?b in _) => destruct b
  | |- obeys _ _ _ (match ?b with _ => _ end) => destruct b
  | |- obeys _ _ _ (if ?b then _ else _) => destruct b
  end.
Ltac ncmd := unfold store_bytes in *; unw; unfold g_loaded, g_sync, p_loaded, p_sync, c_randbelow, c_randbytes, s_load, k_same in *;
  match goal with |- obeys _ _ _ (Step _ _) => split; [intros ? _; exact I|intros ? _; first [apply ne_outcome|exact I|cbn [obeys]]] end.
Ltac net := repeat (cbv zeta; first [ne1|progress ncmd]).

Lemma ne_update cf ns j dl : ne (update_device_list cf ns j dl).
Proof. unfold update_device_list, upd_own, upd_new, upd_old. net. Qed.
Lemma ne_refresh cf ns j : ne (refresh_device_list cf ns j).
Proof. unfold refresh_device_list. net. apply ne_update. Qed.
Lemma ne_refresh_all cf j : ne (refresh_device_lists cf j).
Proof. unfold refresh_device_lists. net. apply ne_refresh. Qed.
Lemma ne_find_key j x l : ne (find_key j x l).
Proof. induction l as [|ns l IH]; [done|]. cbn [find_key]. net; auto. Qed.
Lemma ne_info_ cf j : ne (get_device_information_ cf j).
Proof. unfold get_device_information_, dev_info, dev_info_rest. net; apply ne_find_key. Qed.
Lemma ne_info cf j : ne (get_device_information cf j).
Proof. unfold get_device_information. net. apply ne_info_. Qed.
Lemma ne_own cf : ne (get_own_device_information cf).
Proof. unfold get_own_device_information. net. apply ne_info. Qed.
Lemma ne_label cf l : ne (set_own_label cf l).
Proof. unfold set_own_label. net. Qed.
Lemma ne_purge_backend cf ns : ne (purge_backend cf ns).
Proof. unfold purge_backend. net; auto using ne_own. Qed.
Lemma ne_purge_jid j : ne (purge_bare_jid j).
Proof. unfold purge_bare_jid, collect_key. net. Qed.
Lemma ne_send_empty cf ns s : ne (send_empty_message cf ns s).
Proof. unfold send_empty_message. net. Qed.
Lemma ne_replace cf j x : ne (replace_sessions cf j x).
Proof. unfold replace_sessions, replace_one. net; auto using ne_info. Qed.
Lemma ne_chain j x nss : ne (get_sending_chain_length j x nss).
Proof. unfold get_sending_chain_length. net. Qed.
Lemma ne_after cf : ne (after_history_sync cf).
Proof. unfold after_history_sync, flush_ns, flush_jid, flush_dev. net; auto using ne_send_empty. Qed.
Lemma ne_devices_with t l : ne (devices_with t l).
Proof. unfold devices_with. net. Qed.
Lemma ne_enc_trust cf mtd ident l : (forall ds i, ne (mtd ds i)) -> ne (enc_trust cf mtd ident l).
Proof. intros Hm. unfold enc_trust, reload_trust. net; auto using ne_devices_with. Qed.
Lemma ne_enc_backend cf pt cache st ns : ne (enc_backend cf pt cache st ns).
Proof. unfold enc_backend, enc_device. net. Qed.
Lemma ne_encrypt cf mtd jids pt prio ident : (forall ds i, ne (mtd ds i)) -> ne (encrypt cf mtd jids pt prio ident).
Proof. intros Hm. unfold encrypt. net; auto using ne_info_, ne_enc_trust, ne_enc_backend. Qed.
Lemma ne_ikp : ne ikp_get.
Proof. unfold ikp_get, ikp_generate. net. Qed.
Lemma ne_dec_sender cf m : ne (dec_sender cf m).
Proof. unfold dec_sender. net; auto using ne_info, ne_refresh. Qed.
Lemma ne_dec_respond cf ns s : ne (dec_respond cf ns s).
Proof. unfold dec_respond. net. apply ne_send_empty. Qed.
Lemma ne_dec_existing ns d e : ne (dec_existing ns d e).
Proof. unfold dec_existing. net. Qed.
Lemma ne_dec_kex ns d k e : ne (dec_kex ns d k e).
Proof. unfold dec_kex. net. Qed.

Lemma ne_code {A} (p : api A) : libcode keeps_prekeys p -> ne p.
Proof.
  induction 1 as [A a|A e|A B p f Hp IHp Hf IHf|A p Hp IHp|c Hc|c Hc Hm IHm]; [done|done|by apply ne_bind|by apply ne_try| |].
  - split; [|done]. intros r _. by destruct c.
  - destruct c; try done; cbn [run_call].
    + apply ne_ikp.
    + apply ne_update.
    + apply ne_refresh.
    + apply ne_refresh_all.
    + unfold set_trust. net.
    + apply ne_info.
    + apply ne_own.
    + apply ne_label.
    + apply ne_purge_backend.
    + apply ne_purge_jid.
    + apply ne_replace.
    + apply ne_chain.
    + apply ne_after.
    + apply ne_encrypt. by eapply IHm.
Qed.

(** ** Events *)
Definition up_ok (e : event) (before : list event) : Prop :=
  match e with EvUploadBundle b _ => exists ns, current ns b before | _ => True end.

Lemma neutral_changes ns e : neutral e -> ~ changes ns e.
Proof. intros H Hc. by destruct e. Qed.
Lemma neutral_up e l : neutral e -> up_ok e l.
Proof. by destruct e. Qed.
Lemma published_more j x ns e l : published j x ns l -> published j x ns (e :: l).
Proof. intros (p1 & b & p2 & -> & H). by exists (e :: p1), b, p2. Qed.
Lemma settled_nil ns : settled ns [].
Proof. intros post e pre E. by destruct post. Qed.
Lemma settled_cons ns e l : ~ changes ns e -> settled ns l -> settled ns (e :: l).
Proof.
  intros Hn H [|e' post] e0 pre E Hc; simpl in E; injection E as <- E; [done|].
  destruct (H _ _ _ E Hc) as (j & x & Hp). exists j, x. by apply published_more.
Qed.
Lemma settled_uploaded ns b j x mid l :
  Forall (fun e => ~ changes ns e) mid -> settled ns (EvUploadBundle b (Val tt) :: mid ++ EvGetBundle ns j x (Val b) :: l).
Proof.
  intros Hm post e pre E Hc. exists j, x. destruct post as [|e' post]; simpl in E; injection E as <- E; [done|].
  apply app_eq_inv in E as [(k & -> & E)|(k & -> & E)].
  - destruct k as [|e1 k]; simpl in E; injection E as E1 E; subst; [by destruct Hc|].
    exfalso. apply Forall_app in Hm as [_ [Hx _]%Forall_cons]. by apply Hx.
  - destruct k as [|e1 k]; simpl in E; injection E as E1 E; subst; [by destruct Hc|]. exists [], b, (mid ++ EvGetBundle ns j x (Val b) :: k).
    split; [done|]. apply elem_of_app. right. left.
Qed.

(** ** Worlds. [D]: backends with changes not yet published *)
Section worlds.
  Context (L0 : list event).
  Definition Tr (l : list event) : Prop := exists evs, l = evs ++ L0 /\ traced up_ok evs.
  Definition St (D : list string) (l : list event) : Prop :=
    exists evs, l = evs ++ L0 /\ traced up_ok evs /\ forall ns, ns ∉ D -> settled ns evs.
  Lemma St_Tr D l : St D l -> Tr l.
  Proof. intros (evs & E & T & _). by exists evs. Qed.
  Lemma St_event D D' e l : St D l -> up_ok e [] \/ neutral e -> (forall ns, changes ns e -> ns ∈ D') -> (forall ns, ns ∈ D -> ns ∈ D') ->
    (forall b r, e <> EvUploadBundle b r) -> St D' (e :: l).
  Proof.
    intros (evs & -> & T & H) _ Hc HD Hu. exists (e :: evs). split; [done|]. split.
    - apply traced_cons. split; [|done]. destruct e; try done. by destruct (Hu b r).
    - intros ns Hn. apply settled_cons; [intros Hx; by apply Hn, Hc|]. apply H. intros Hx. by apply Hn, HD.
  Qed.
  Lemma St_neutral D l evs : Forall neutral evs -> St D l -> St D (evs ++ l).
  Proof.
    intros HF Hl. induction HF as [|e evs He HF IH]; [done|]. simpl. apply (St_event D); [done|by right| |done|].
    - intros ns Hx. by apply neutral_changes in Hx.
    - intros b r ->. done.
  Qed.
  Lemma St_upload D ns b j x r mid l : Forall neutral mid -> (forall n j' x' r', EvGetBundle n j' x' r' ∉ mid) ->
    St D l -> Tr (EvUploadBundle b r :: mid ++ EvGetBundle ns j x (Val b) :: l) /\
      (r = Val tt -> St (filter (fun n => n <> ns) D) (EvUploadBundle b r :: mid ++ EvGetBundle ns j x (Val b) :: l)).
  Proof.
    intros HF Hm Hl.
    assert (St D (mid ++ EvGetBundle ns j x (Val b) :: l)) as (evs & E & T & H).
    { apply St_neutral; [done|]. apply (St_event D); [done|by right|done|done|done]. }
    destruct Hl as (evs0 & -> & T0 & H0).
    assert (evs = mid ++ EvGetBundle ns j x (Val b) :: evs0) as ->.
    { change (EvGetBundle ns j x (Val b) :: evs0 ++ L0) with ((EvGetBundle ns j x (Val b) :: evs0) ++ L0) in E.
      rewrite app_assoc in E. by apply app_inv_tail in E. }
    assert (traced up_ok (EvUploadBundle b r :: mid ++ EvGetBundle ns j x (Val b) :: evs0)) as T'.
    { apply traced_cons. split; [|done]. exists ns, mid, j, x, evs0. split; [done|]. apply Forall_forall. intros e He. split.
      - apply neutral_changes. by eapply Forall_forall in HF.
      - intros j' x' r' ->. by eapply Hm. }
    assert (EvUploadBundle b r :: mid ++ EvGetBundle ns j x (Val b) :: evs0 ++ L0 =
      (EvUploadBundle b r :: mid ++ EvGetBundle ns j x (Val b) :: evs0) ++ L0) as E' by (simpl; by rewrite <- app_assoc).
    split; [by exists (EvUploadBundle b r :: mid ++ EvGetBundle ns j x (Val b) :: evs0)|]. intros ->.
    exists (EvUploadBundle b (Val tt) :: mid ++ EvGetBundle ns j x (Val b) :: evs0). split; [exact E'|]. split; [exact T'|].
    intros n Hn. destruct (decide (n = ns)) as [->|Hne].
    - apply settled_uploaded. eapply Forall_impl; [exact HF|]. intros e. apply neutral_changes.
    - apply settled_cons; [by intros []|]. apply H. intros Hx. apply Hn, elem_of_list_filter. done.
  Qed.
End worlds.

Ltac tr := match goal with H : _ |- _ => exact (St_Tr _ _ _ H) end.
(** ** Calls, in any semantics with a log *)
Section gen.
  Context {W : Type} (S : @sem cmd resp W) (lgf : W -> list event) {D0 : Type} (dk : W -> D0)
    (P : world -> forall c, resp c -> Prop) (HS : logged S lgf dk P) (L0 : list event).
  Notation I := (fun s => Tr L0 (lgf s)).
  Notation st D := (fun s => St L0 D (lgf s)).

  Lemma gret {A} (J : W -> Prop) (a : A) (R : outcome A -> W -> Prop) s : R (Val a) s -> wp S J (Ret a) R s.
  Proof. done. Qed.
  Lemma graise {A} (J : W -> Prop) e (R : outcome A -> W -> Prop) s : R (Exn e) s -> wp S J (Raise e) R s.
  Proof. done. Qed.
  Lemma gwp_ne {A} (p : api A) D s (R : outcome A -> W -> Prop) :
    ne p -> st D s -> (forall o s', st D s' -> R o s') -> wp S I p R s.
  Proof using HS.
    intros Hp. revert s. induction p as [a|e|c k IH]; intros s Hs HR; [by apply HR|by apply HR|].
    destruct Hp as [Hc Hk]. eapply gwp_step; [exact HS|]. intros r s' (w & Ha & _) Hl _.
    assert (Eany c r) as HE by (by eexists).
    assert (st D s') as Hs'.
    { rewrite Hl. specialize (Hc r HE). destruct (event_of c r) as [e|]; [|done]. apply (St_neutral L0 D (lgf s) [e]); [by constructor|done]. }
    split; [tr|]. apply IH; auto.
  Qed.
  Lemma gwp_ev {A} c (cast : resp c -> outcome A) (ev : resp c -> event) D D' s (R : outcome A -> W -> Prop) :
    plain_cmd c -> (forall r, event_of c r = Some (ev r)) -> (forall r b q, ev r <> EvUploadBundle b q) ->
    (forall r ns, changes ns (ev r) -> ns ∈ D') -> (forall ns, ns ∈ D -> ns ∈ D') -> st D s ->
    (forall r s', st D' s' -> lgf s' = ev r :: lgf s -> R (cast r) s') -> wp S I (Step c (fun r => of_outcome (cast r))) R s.
  Proof using HS.
    intros Hc He Hu Hch HD Hs HR. eapply gwp_ext; [exact HS|done|exact He|]. intros r s' _ [El _]. simpl in El.
    assert (st D' s') as Hs'. { rewrite El. apply (St_event L0 D); [done|left; destruct (ev r) eqn:E; try done; by destruct (Hu _ _ _ E)|apply Hch|done|apply Hu]. }
    split; [tr|]. by apply HR.
  Qed.
  Definition done_or (D : list string) {A} (o : outcome A) (s : W) : Prop :=
    match o with Val _ => st D s | Exn _ => I s end.
  Lemma gwp_fetch ns j x D s (R : outcome unit -> W -> Prop) :
    st D s -> (forall o s', done_or (filter (fun n => n <> ns) D) o s' -> R o s') ->
    wp S I (b <- b_get_bundle ns j x ;; n_upload_bundle b) R s.
  Proof using HS.
    intros Hs HR. apply wp_bind. unfold b_get_bundle.
    eapply (gwp_ev (BGetBundle ns j x) (fun r => r) (fun r => EvGetBundle ns j x r) D D); [done|done|done|done|done|done|].
    intros [b|e] s1 Hs1 El1; [|apply HR; tr]. unfold n_upload_bundle.
    eapply gwp_ext; [exact HS|done|done|]. intros r s2 _ [El2 _]. simpl in El2. rewrite El1 in El2.
    destruct (St_upload L0 D ns b j x r [] (lgf s)) as [H1 H2]; [constructor|by intros ???? ?%elem_of_nil|done|]. simpl in H1, H2.
    split; [by rewrite El2|]. apply HR. destruct r as [[]|e]; simpl; rewrite El2; auto.
  Qed.

  Lemma gwp_prekeys cf ns s0 s (R : outcome unit -> W -> Prop) :
    st [] s -> (forall o s', done_or [] o s' -> R o s') -> wp S I (dec_prekeys cf ns s0) R s.
  Proof using HS.
    intros Hs HR. unfold dec_prekeys. apply wp_bind.
    apply (gwp_ne _ []); [by split|done|]. intros [sync|e] s1 Hs1; [|apply HR; tr].
    assert (forall s2, st [ns] s2 -> wp S I (
      n <- b_num_visible ns ;;
      (if (n <=? c_threshold cf)%Z then b_generate ns (100 - n) else Ret tt) ;;;
      b <- b_get_bundle ns (c_jid cf) (c_dev cf) ;; n_upload_bundle b) R s2) as Hrest.
    { intros s2 Hs2. apply wp_bind. apply (gwp_ne _ [ns]); [net|done|]. intros [n|e] s3 Hs3; [|apply HR; tr].
      apply wp_bind.
      assert (forall s4, st [ns] s4 -> wp S I (b <- b_get_bundle ns (c_jid cf) (c_dev cf) ;; n_upload_bundle b) R s4) as Hlast.
      { intros s4 Hs4. apply (gwp_fetch _ _ _ [ns]); [done|]. intros o s5 Hs5. apply HR.
        rewrite filter_cons, decide_False in Hs5 by tauto. done. }
      destruct (n <=? c_threshold cf)%Z; [|apply gret; by apply Hlast].
      eapply (gwp_ev (BGenerate ns (100 - n)) (fun r => r) (fun r => EvGenerate ns (100 - n) r) [ns] [ns]); [done|done|done| |done|done|].
      - intros [[]|e] n0; simpl; [|done]. intros <-. left.
      - intros [[]|e] s4 Hs4 _; [by apply Hlast|]. apply HR. tr. }
    apply wp_bind. destruct sync.
    - eapply gwp_ext; [exact HS|done|done|]. intros r s2 _ [El _]. simpl in El.
      assert (match r with Val true => st [ns] s2 | _ => st [] s2 end) as Hs2.
      { rewrite El. destruct r as [[]|e]; (apply (St_event L0 []); [done|by left|intros n0; simpl; try done; intros <-; left|by intros ? ?%elem_of_nil|done]). }
      split; [destruct r as [[]|e]; tr|]. destruct r as [[]|e]; [by apply Hrest|apply gret; by apply HR|]. apply HR. tr.
    - eapply gwp_ext; [exact HS|done|done|]. intros r s2 _ [El _]. simpl in El.
      assert (match r with Val true => st [ns] s2 | _ => st [] s2 end) as Hs2.
      { rewrite El. destruct r as [[]|e]; (apply (St_event L0 []); [done|by left|intros n0; simpl; try done; intros <-; left|by intros ? ?%elem_of_nil|done]). }
      split; [destruct r as [[]|e]; tr|]. destruct r as [[]|e]; [by apply Hrest|apply gret; by apply HR|]. apply HR. tr.
  Qed.

  Lemma gwp_decrypt cf m s : st [] s -> wp S I (decrypt cf m) (fun o s' => done_or [] o s') s.
  Proof using HS.
    intros Hs. unfold decrypt. cbv zeta. apply wp_bind. apply (gwp_ne _ []); [by split|done|]. intros [l|e] s1 Hs1; [|tr].
    destruct (decide (_ ∈ _)) as [_|_]; [|apply graise; tr]. apply wp_bind. apply (gwp_ne _ []); [apply ne_order|done|]. intros [keys|x] s2 Hs2; [|tr].
    destruct (filter _ keys) as [|[e mk] l0]; [apply graise; tr|].
    apply wp_bind. apply (gwp_ne _ []); [apply ne_dec_sender|done|]. intros [d|x] s3 Hs3; [|tr].
    apply wp_bind. apply (gwp_ne _ []); [net|done|]. intros [t|x] s4 Hs4; [|tr].
    destruct (decide (t = Distrusted)) as [_|_]; [apply graise; tr|].
    apply wp_bind. apply (gwp_ne _ []); [destruct mk; [apply ne_dec_kex|apply ne_dec_existing]|done|]. intros [[s0 p]|x] s5 Hs5; [|tr].
    apply wp_bind. apply (gwp_ne _ []); [net|done|]. intros [pt|x] s6 Hs6; [|tr].
    apply wp_bind. apply (gwp_ne _ []); [net|done|]. intros [[]|x] s7 Hs7; [|tr].
    apply wp_bind. assert (forall s8, st [] s8 -> wp S I ((if bool_decide (mk <> None) || (STALENESS_MAGIC_NUMBER <? Model.maybe 0 (s_rcl s0))%Z
       then dec_respond cf (m_ns m) s0 else Ret tt) ;;; Ret (pt, d, p)) (fun o s' => done_or [] o s') s8) as Hr.
    { intros s8 Hs8. apply (gwp_ne _ []); [apply ne_bind; [destruct (_ || _); [apply ne_dec_respond|done]|done]|done|].
      intros [v|x] s9 Hs9; [done|tr]. }
    destruct mk as [k|]; [|apply gret; by apply Hr]. apply gwp_prekeys; [done|]. intros [[]|x] s8 Hs8; [by apply Hr|done].
  Qed.
  Lemma gwp_ensure cf s : st [] s -> wp S I (ensure_data_consistency cf) (fun o s' => done_or [] o s') s.
  Proof using HS.
    intros Hs. unfold ensure_data_consistency. apply wp_bind. apply (gwp_ne _ []); [by split|done|]. intros [l|e] s1 Hs1; [|tr].
    apply (wp_for_each S I (fun _ s => st [] s)); [done| |done]. intros pre ns post s2 _ Hs2.
    apply wp_bind. apply (gwp_ne _ []); [apply ne_refresh|done|]. intros [[]|e] s3 Hs3; [|tr].
    apply wp_bind. unfold b_get_bundle. eapply (gwp_ev (BGetBundle ns (c_jid cf) (c_dev cf)) (fun r => r) (fun r => EvGetBundle ns (c_jid cf) (c_dev cf) r) [] []); [done|done|done|done|done|done|].
    intros [b|e] s4 Hs4 El4; [|tr]. apply wp_bind, wp_try. unfold n_download_bundle.
    eapply (gwp_ev (NDownloadBundle ns (c_jid cf) (c_dev cf)) (fun r => r) (fun r => EvDownloadBundle ns (c_jid cf) (c_dev cf) r) [] []); [done|done|done|done|done|done|].
    intros r s5 Hs5 El5. apply wp_bind.
    assert (wp S I (n_upload_bundle b) (fun o s' => match o with Val _ => st [] s' | Exn _ => I s' end) s5) as Hup.
    { eapply gwp_ext; [exact HS|done|done|]. intros q s6 _ [El6 _]. simpl in El6. rewrite El5, El4 in El6.
      destruct (St_upload L0 [] ns b (c_jid cf) (c_dev cf) q [EvDownloadBundle ns (c_jid cf) (c_dev cf) r] (lgf s3)) as [H1 H2].
      - repeat constructor.
      - intros n j x r' Hx. apply elem_of_list_singleton in Hx. done.
      - done.
      - simpl in H1, H2. split; [by rewrite El6|]. destruct q as [[]|e]; simpl; rewrite El6; auto. }
    assert (forall up : bool, wp S I (if up then n_upload_bundle b else Ret tt) (fun o s' => match o with Val _ => st [] s' | Exn e => done_or [] (@Exn unit e) s' end) s5) as Hfin.
    { intros []; [exact Hup|]. by apply gret. }
    destruct r as [rb|e]; [exact (Hfin _)|]. destruct e; first [exact (Hfin true)|exact (St_Tr _ _ _ Hs5)].
  Qed.
End gen.

Lemma St_start : St [] [] [].
Proof. exists []. split; [done|]. split; [apply traced_nil|]. intros ns _. apply settled_nil. Qed.
Lemma St_end evs : St [] [] evs -> forall ns, settled ns evs.
Proof. intros (e & -> & _ & H) ns. rewrite app_nil_r. apply H. by intros ?%elem_of_nil. Qed.
Lemma Tr_end evs : Tr [] evs -> traced up_ok evs.
Proof. intros (e & -> & H). by rewrite app_nil_r. Qed.

Lemma call_wp P c : returns c -> plain_decision c ->
  wp (alone P) (Tr []) (run_call c) (fun o l => match o with Val _ => St [] [] l | Exn _ => Tr [] l end) [].
Proof.
  intros Hr Hd. pose proof (alone_logged P) as HS.
  assert (keeps_prekeys c \/ ~ keeps_prekeys c) as [Hk|Hk] by (destruct c; simpl; tauto).
  - eapply (gwp_ne _ _ _ _ HS [] _ []); [|apply St_start|].
    + apply ne_code, app_call; [done|]. exact Hd.
    + intros [a|e] l Hl; [exact Hl|]. by eapply St_Tr.
  - destruct c; try (by destruct Hr); try (by destruct (Hk I)).
    + eapply (gwp_ensure _ _ _ _ HS []). apply St_start.
    + eapply (gwp_decrypt _ _ _ _ HS []). apply St_start.
Qed.
Lemma call_published P c a evs :
  returns c -> plain_decision c -> exec (alone P) (run_call c) [] (Val a) evs -> forall ns, settled ns evs.
Proof.
  intros Hr Hd H. apply St_end. eapply wp_exec in H; [|by apply call_wp]. exact H.
Qed.
Lemma current_now ns b j x l : current ns b (EvGetBundle ns j x (Val b) :: l).
Proof. by exists [], j, x, l. Qed.
Lemma call_current P c evs : not_create c -> plain_decision c -> reach (alone P) (run_call c) [] evs -> traced up_ok evs.
Proof.
  intros Hr Hd H. assert (returns c \/ exists cf n z, c = KRotation cf n z) as [Hc|(cf & n & z & ->)].
  { destruct c; simpl; eauto. }
  - apply Tr_end. eapply wp_reach in H; [exact H|by apply call_wp|]. by eapply St_Tr, St_start.
  - apply rotation_steps in H. intros post e before E. specialize (H post e before E). destruct e; try done.
    destruct H as (ns & l & ->). exists ns. apply current_now.
Qed.

(** ** create *)
Section create.
  Context (P : prims) (fuel : nat) (a : create_args) (L0 : list event).
  Notation J := (fun w => Tr L0 (w_log w)).
  Notation st D w := (St L0 D (w_log w)).

  Lemma cr_em {A} (p : api A) D w (R : outcome A -> world -> Prop) :
    em neutral p -> st D w -> (forall o w', st D w' -> w_loaded w' = w_loaded w -> R o w') -> wp base J p R w.
  Proof.
    intros Hp Hw HR. eapply em_wp; [exact Hp| |].
    - intros evs HF. eapply St_Tr. by apply St_neutral.
    - intros o evs HF _. apply HR; [|done]. by apply St_neutral.
  Qed.
  Lemma cr_lg {A} (p : api A) D w (R : outcome A -> world -> Prop) :
    ne p -> st D w -> (forall o w', st D w' -> R o w') -> wp base J p R w.
  Proof.
    intros Hp. revert w. induction p as [x|e|c k IH]; intros w Hw HR; [by apply HR|by apply HR|].
    destruct Hp as [Hc Hk]. change (forall r, w_allowed w c r -> J (w_apply w c r) /\ wp base J (k r) R (w_apply w c r)).
    intros r Hr. assert (Eany c r) as HE by (by eexists).
    assert (st D (w_apply w c r)) as Hs'.
    { rewrite log_apply. apply St_neutral; [|done]. specialize (Hc r HE). destruct (event_of c r); [by constructor|constructor]. }
    split; [by eapply St_Tr|]. apply IH; auto.
  Qed.

  Lemma n_ikp : em neutral ikp_get.
  Proof. eapply em_mono; [apply PfCreate.em_ikp| |done]. by intros e (k & v & r & -> & _). Qed.
  Lemma n_info cf : em neutral (get_own_device_information cf).
  Proof. eapply em_mono; [apply em_own| |done]. by intros e []. Qed.
  Lemma n_refresh cf ns x : em neutral (refresh_device_list cf ns x).
  Proof. eapply em_mono; [apply em_refresh| |done]. by intros e [e' []|]. Qed.
  Lemma n_fresh_id n l : em neutral (fresh_id n l).
  Proof. induction n as [|n IH]; [done|]. cbn [fresh_id]. emt. apply IH. Qed.
  Lemma n_local k : em neutral (first_run_local P fuel a k).
  Proof. unfold first_run_local. emt; first [apply n_fresh_id|by ev]. Qed.

  Lemma cr_one dev ns D w (R : outcome unit -> world -> Prop) :
    st D w ->
    (forall o w', match o with Val _ => st (filter (fun n => n <> ns) D) w' /\ w_loaded w' = w_loaded w | Exn _ => J w' end -> R o w') ->
    wp base J (b <- b_get_bundle ns (a_jid a) dev ;; n_upload_bundle b) R w.
  Proof.
    intros Hw HR. apply wp_bind, wp_ext. intros r Hr.
    assert (st D (w_apply w (BGetBundle ns (a_jid a) dev) r)) as H1.
    { apply (St_event L0 D); [exact Hw|by left|done|done|done]. }
    split; [by eapply St_Tr|]. destruct r as [b|e]; [|apply HR; by eapply St_Tr]. apply wp_ext. intros r2 Hr2.
    destruct (St_upload L0 D ns b (a_jid a) dev r2 [] (w_log w)) as [H2 H3]; [constructor|by intros ???? ?%elem_of_nil|done|].
    split; [exact H2|]. apply HR. destruct r2 as [[]|e]; [split; [by apply H3|done]|exact H2].
  Qed.

  Lemma cr_publish dev w (R : outcome unit -> world -> Prop) :
    st [] w -> w_loaded w = a_backends a ->
    (forall o w', match o with Val _ => st [] w' /\ w_loaded w' = w_loaded w | Exn _ => J w' end -> R o w') ->
    wp base J (first_run_publish (cfg_of a dev)) R w.
  Proof.
    intros Hw HL HR. unfold first_run_publish. apply wp_bind, wp_loaded; [by eapply St_Tr|]. apply wp_bind.
    apply (wp_for_each base J (fun pre w' => st pre w' /\ w_loaded w' = w_loaded w)); [done| |].
    { intros pre ns post w1 _ [H1 HL1]. apply wp_ext. intros r Hr.
      assert (st (pre ++ [ns]) (w_apply w1 (BGenerate ns 100) r)) as H2.
      { apply (St_event L0 pre); [exact H1|by left| |intros n Hn; apply elem_of_app; by left|done].
        intros n. destruct r as [[]|e]; simpl; [|done]. intros <-. apply elem_of_app. right. left. }
      split; [by eapply St_Tr|]. destruct r as [[]|e]; [by split|]. apply HR. by eapply St_Tr. }
    intros w1 [H1 HL1]. apply wp_bind, wp_loaded; [by eapply St_Tr|]. apply wp_bind.
    apply (wp_for_each base J (fun pre w' => st (filter (fun n => n ∉ pre) (w_loaded w)) w' /\ w_loaded w' = w_loaded w)).
    { split; [|done]. destruct H1 as (evs & E & T & H). exists evs. split; [done|]. split; [done|]. intros n Hn. apply H.
      intros Hx. apply Hn, elem_of_list_filter. split; [apply not_elem_of_nil|done]. }
    { intros pre ns post w2 Epre [H2 HL2]. eapply cr_one; [exact H2|]. intros [[]|e] w3 H3; [|by apply HR].
      destruct H3 as [H3 HL3]. split; [|congruence]. destruct H3 as (evs & E & T & H). exists evs. split; [done|]. split; [done|].
      intros n Hn. apply H. intros Hx. apply Hn. rewrite !elem_of_list_filter in *. destruct Hx as (X1 & X2 & X3).
      split; [|done]. rewrite elem_of_app, elem_of_list_singleton. tauto. }
    intros w2 [H2 HL2]. rewrite HL1 in H2.
    assert (st [] w2) as H2'.
    { destruct H2 as (evs & E & T & H). exists evs. split; [done|]. split; [done|]. intros n _. apply H.
      rewrite elem_of_list_filter. tauto. }
    apply wp_bind, wp_loaded; [by eapply St_Tr|].
    apply (cr_em _ []); [emt; apply n_refresh|done|]. intros [[]|e] w3 H3 HL3; apply HR; [|by eapply St_Tr].
    split; [done|congruence].
  Qed.

  Lemma cr_add dev active ns w (R : outcome unit -> world -> Prop) :
    st [] w -> (forall o w', match o with Val _ => st [] w' /\ w_loaded w' = w_loaded w | Exn _ => J w' end -> R o w') ->
    wp base J (add_backend (cfg_of a dev) active ns) R w.
  Proof.
    intros Hw HR. unfold add_backend. destruct (decide _) as [_|_]; [by apply wp_ret, HR|].
    apply wp_bind, (cr_em _ []); [by ev|done|]. intros [n0|e] w1 H1 HL1; [|apply HR; by eapply St_Tr].
    assert (forall w2, st [ns] w2 -> w_loaded w2 = w_loaded w ->
      wp base J (b <- b_get_bundle ns (a_jid a) dev ;; (n_upload_bundle b ;;; refresh_device_list (cfg_of a dev) ns (a_jid a))) R w2) as H.
    { intros w2 H2 HL2. apply PfCreate.wp_assoc, wp_bind. eapply cr_one; [exact H2|]. intros [[]|e] w3 H3; [|by apply HR].
      destruct H3 as [H3 HL3]. rewrite filter_cons, decide_False in H3 by tauto.
      apply (cr_em _ []); [apply n_refresh|exact H3|]. intros [[]|e] w4 H4 HL4; apply HR; [|by eapply St_Tr].
      split; [done|congruence]. }
    apply wp_bind. change (c_threshold (cfg_of a dev)) with (a_threshold a). destruct (Z.leb_spec n0 (a_threshold a)) as [Hle|Hlt].
    - apply wp_ext. intros r Hr'.
      assert (st [ns] (w_apply w1 (BGenerate ns (100 - n0)) r)) as H2.
      { apply (St_event L0 []); [exact H1|by left| |by intros n ?%elem_of_nil|done].
        intros n. destruct r as [[]|e]; simpl; [|done]. intros <-. left. }
      split; [by eapply St_Tr|]. destruct r as [[]|e]; [by apply H|apply HR; by eapply St_Tr].
    - apply wp_ret. apply H; [|done]. destruct H1 as (evs & E & T & H1). exists evs. split; [done|]. split; [done|].
      intros n _. apply H1. apply not_elem_of_nil.
  Qed.

  Lemma cr_reconcile dev w (R : outcome unit -> world -> Prop) :
    st [] w -> (forall o w', match o with Val _ => st [] w' | Exn _ => J w' end -> R o w') ->
    wp base J (reconcile (cfg_of a dev)) R w.
  Proof.
    intros Hw HR. unfold reconcile. apply wp_bind, (cr_lg _ []); [apply ne_own|done|].
    intros [r|e] w1 H1; [|apply HR; by eapply St_Tr]. apply wp_bind, wp_loaded; [by eapply St_Tr|]. cbv zeta.
    destruct (set_eqb _ _); [by apply wp_ret, HR|].
    apply wp_bind, (cr_lg _ []); [apply ne_order|done|]. intros [o1|e] w2 H2; [|apply HR; by eapply St_Tr].
    apply wp_bind, (cr_lg _ []); [net|done|]. intros [[]|e] w3 H3; [|apply HR; by eapply St_Tr].
    apply wp_bind, (cr_lg _ []); [apply ne_order|done|]. intros [o4|e] w4 H4; [|apply HR; by eapply St_Tr].
    apply wp_bind, (cr_lg _ []); [net|done|]. intros [[]|e] w5 H5; [|apply HR; by eapply St_Tr].
    apply wp_bind, wp_loaded; [by eapply St_Tr|]. apply wp_bind.
    apply (wp_for_each base J (fun _ w' => st [] w')); [done| |].
    { intros pre ns post w6 E H6. apply cr_add; [done|]. intros [[]|e] w7 H7; [by destruct H7|by apply HR]. }
    intros w6 H6. apply (cr_lg _ []); [net; apply ne_purge_backend|done|]. intros [[]|e] w7 H7; apply HR; [done|by eapply St_Tr].
  Qed.

  Lemma cr_create w : w_log w = L0 -> wp base J (create P fuel a) (fun o w' => match o with Val _ => st [] w' | Exn _ => J w' end) w.
  Proof.
    intros EL. assert (st [] w) as Hw.
    { exists []. split; [done|]. split; [apply traced_nil|]. intros ns _. apply settled_nil. }
    unfold create. destruct (negb (bool_decide _)); [apply wp_raise; by eapply St_Tr|]. destruct (negb (_ && _)); [apply wp_raise; by eapply St_Tr|].
    apply wp_bind, wp_ploaded; [by eapply St_Tr|]. set (w1 := World (w_disk w) (a_backends a) (w_sync w) (w_log w)).
    assert (st [] w1) as H1 by exact Hw. assert (w_loaded w1 = a_backends a) as HL1 by done. clearbody w1. clear Hw EL w.
    apply wp_bind, (cr_em _ []); [apply n_ikp|done|]. intros [k|e] w2 H2 HL2; [|by eapply St_Tr].
    apply wp_bind, wp_psync; [by eapply St_Tr|].
    set (w3 := World (w_disk w2) (w_loaded w2) true (w_log w2)). assert (st [] w3) as H3 by exact H2.
    assert (w_loaded w3 = a_backends a) as HL3 by (by rewrite <- HL1). clearbody w3.
    apply wp_bind, (cr_em _ []); [apply em_load|done|]. intros [[dev|]|e] w4 H4 HL4; [| |by eapply St_Tr].
    - apply wp_bind, wp_ret. apply wp_bind, cr_reconcile; [done|]. intros [[]|e] w5 H5; [|done]. by apply wp_ret.
    - apply wp_bind, wp_bind, (cr_em _ []); [apply n_local|done|]. intros [dev|e] w5 H5 HL5; [|by eapply St_Tr].
      apply wp_bind, cr_publish; [done|congruence|]. intros [[]|e] w6 H6; [|done]. apply wp_ret.
      apply wp_bind, cr_reconcile; [by destruct H6|]. intros [[]|e] w7 H7; [|done]. by apply wp_ret.
  Qed.
End create.

Lemma create_published P fuel a w cf w' : exec base (create P fuel a) w (Val cf) w' ->
  exists evs, w_log w' = evs ++ w_log w /\ forall ns, settled ns evs.
Proof.
  intros H. eapply wp_exec in H; [|by apply (cr_create P fuel a (w_log w))]. destruct H as (evs & E & _ & H).
  exists evs. split; [done|]. intros ns. apply H, not_elem_of_nil.
Qed.
Lemma create_current P fuel a w w' : reach base (create P fuel a) w w' ->
  exists evs, w_log w' = evs ++ w_log w /\ traced up_ok evs.
Proof.
  intros H. eapply (wp_reach base (fun w' => Tr (w_log w) (w_log w'))) in H; [exact H| |].
  - by apply cr_create.
  - exists []. split; [done|apply traced_nil].
Qed.
Lemma current_base c w w' : plain_decision c -> reach base (run_call c) w w' ->
  exists evs, w_log w' = evs ++ w_log w /\ traced up_ok evs.
Proof.
  intros Hd H. assert (not_create c \/ exists P n a, c = KCreate P n a) as [Hc|(P & n & a & ->)] by (destruct c; simpl; eauto).
  - apply (reach_contract base (with_contract anything)) in H; [|done|done].
    apply alone_reach in H as (evs & E & H). exists evs. split; [done|]. by eapply call_current.
  - simpl in H. by eapply create_current.
Qed.

(** Code made of calls, one after the other *)
Lemma current_more ns b l l' : current ns b l -> current ns b (l ++ l').
Proof. intros (mid & j & x & pre & -> & H). exists mid, j, x, (pre ++ l'). split; [by rewrite <- app_assoc|done]. Qed.
Lemma traced_up_app l1 l2 : traced up_ok l1 -> traced up_ok l2 -> traced up_ok (l1 ++ l2).
Proof.
  intros H1 H2. induction l1 as [|x l1 IH]; [done|]. apply traced_cons in H1 as [Hx H1]. simpl. apply traced_cons. split; [|by apply IH].
  destruct x; try done. destruct Hx as [ns Hc]. exists ns. by apply current_more.
Qed.
Lemma reach_try' {A} (p : api A) w w' : reach base (try_ p) w w' -> reach base p w w'.
Proof.
  revert w. induction p as [a|e|c k IH]; intros w H; [destruct H as [->|[]]; by left|destruct H as [->|[]]; by left|].
  destruct H as [->|(r & Hr & H)]; [by left|]. right. exists r. split; [done|]. by apply IH.
Qed.
Lemma current_code {A} (p : api A) : libcode plain_decision p -> forall w w', reach base p w w' ->
  exists evs, w_log w' = evs ++ w_log w /\ traced up_ok evs.
Proof.
  induction 1 as [A a|A e|A B p f Hp IHp Hf IHf|A p Hp IHp|c Hc|c Hc Hm IHm]; intros w w' H.
  - destruct H as [->|[]]. exists []. split; [done|apply traced_nil].
  - destruct H as [->|[]]. exists []. split; [done|apply traced_nil].
  - apply reach_bind in H as [H|(a & w1 & H1 & H2)]; [by apply IHp|].
    apply exec_reach in H1. apply IHp in H1 as (e1 & E1 & T1). apply IHf in H2 as (e2 & E2 & T2).
    exists (e2 ++ e1). split; [by rewrite E2, E1, app_assoc|]. by apply traced_up_app.
  - apply reach_try' in H. by apply IHp.
  - destruct H as [->|(r & _ & [->|[]])]; [exists []; split; [done|apply traced_nil]|].
    destruct c; try done; simpl; try (exists []; split; [done|apply traced_nil]); try (destruct r; (exists []; split; [done|apply traced_nil])).
    all: eexists [_]; split; [reflexivity|]; apply traced_cons; split; [done|apply traced_nil].
  - exact (current_base c w w' Hc H).
Qed.
