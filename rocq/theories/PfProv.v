(** What the library hands out has a source (C94). *)
From Verif Require Import Prov PfStrs PfWp PfEmits PfExec PfUpdate PfLog PfEmpty.
Open Scope prog_scope.
Open Scope list_scope.

Section prov.
  Context (C : cfg -> Prop) (G : string -> list (Z * option string) -> Prop) (l : list event).

  (** All answers are in [l]; what is handed out has a source in [l]. *)
  Definition Ep (c : cmd) (r : resp c) : Prop := match event_of c r with Some e => e ∈ l | None => True end.
  Definition Fp (c : cmd) : Prop := forall r, match event_of c r with Some e => sourced C G e l | None => True end.
  Definition tp_ {A} (o : outcome A) : Prop := True.
  Notation ob p := (obeys Ep Fp tp_ p).
  Notation obq Q p := (obeys Ep Fp Q p).

  Lemma p_bind {A B} (p : api A) (f : A -> api B) : ob p -> (forall x, ob (f x)) -> ob (bind p f).
  Proof. intros Hp Hf. apply obeys_bind. eapply obeys_conseq; [exact Hp|]. by intros [x|e] _; [apply Hf|]. Qed.
  Lemma p_bindq {A B} (Q : A -> Prop) (p : api A) (f : A -> api B) :
    obq (fun o => match o with Val v => Q v | Exn _ => True end) p -> (forall v, Q v -> ob (f v)) -> ob (bind p f).
  Proof. intros Hp Hf. apply obeys_bind. eapply obeys_conseq; [exact Hp|]. by intros [v|e] H; [apply Hf|]. Qed.
  Lemma p_try {A} (p : api A) : ob p -> ob (try_ p).
  Proof. intros Hp. apply obeys_try. eapply obeys_conseq; [exact Hp|]. done. Qed.
  Lemma p_for_each {A} (xs : list A) f : (forall x, x ∈ xs -> ob (f x)) -> ob (for_each xs f).
  Proof. intros Hf. apply obeys_for_each; [|done]. intros x Hx. eapply obeys_conseq; [by apply Hf|]. by intros []. Qed.
  Lemma p_fold {A B} (xs : list A) (f : B -> A -> api B) b : (forall b x, x ∈ xs -> ob (f b x)) -> ob (fold_prog xs f b).
  Proof.
    intros Hf. apply obeys_fold_prog with (L := fun _ => True); [done| |done]. intros b' x _ Hx.
    eapply obeys_conseq; [by apply Hf|]. by intros [].
  Qed.
  Lemma p_map {A B} (xs : list A) (f : A -> api B) : (forall x, x ∈ xs -> ob (f x)) -> ob (map_prog f xs).
  Proof.
    intros Hf. apply obeys_map_prog with (L := fun _ => True); [|done]. intros x Hx. eapply obeys_conseq; [by apply Hf|]. by intros [].
  Qed.
  Lemma p_filter {A} (xs : list A) (f : A -> api bool) : (forall x, x ∈ xs -> ob (f x)) -> ob (filter_prog f xs).
  Proof. intros Hf. apply obeys_filter_prog; [|done]. intros x Hx. eapply obeys_conseq; [by apply Hf|]. by intros []. Qed.
  Lemma p_outcome {A} (o : outcome A) : ob (of_outcome o).
  Proof. by destruct o. Qed.
  Lemma p_from_just {A} (o : option A) : ob (from_just o).
  Proof. by destruct o. Qed.
  Lemma p_key_error {A} (o : option A) : ob (of_key_error o).
  Proof. by destruct o. Qed.
  Lemma p_order {A} (xs : list A) : ob (order xs).
  Proof. by split. Qed.
  Lemma p_load {A} (check : json -> outcome A) k : ob (load_checked check k).
  Proof. apply p_bind. { split; [done|]. intros r _. by destruct r. } intros [v|]; [|done]. by destruct (check v). Qed.
  Lemma p_val {A} (o : outcome A) (Q : outcome A -> Prop) : Q o -> obq Q (of_outcome o).
  Proof. by destruct o. Qed.
  Lemma p_ret {A B} (a : A) (f : A -> api B) Q : obq Q (f a) -> obq Q (bind (Ret a) f).
  Proof. done. Qed.
  (** A command whose answer is used. *)
  Lemma p_cmd {A B} (c : cmd) (k : resp c -> api A) (f : A -> api B) :
    Fp c -> (forall r, Ep c r -> ob (bind (k r) f)) -> ob (bind (Step c k) f).
  Proof. intros H1 H2. by split. Qed.

  Lemma s_bundle b ns j x : EvGetBundle ns j x (Val b) ∈ l -> Fp (NUploadBundle b).
  Proof. intros H r. simpl. eauto. Qed.
  Lemma s_gen100 ns : Fp (BGenerate ns 100).
  Proof. intros r. by left. Qed.
  Lemma s_gen ns v : EvNumVisible ns (Val v) ∈ l -> Fp (BGenerate ns (100 - v)).
  Proof. intros H r. right. eauto. Qed.
  Lemma s_rotate ns a : EvSpkAge ns (Val a) ∈ l -> Fp (BRotate ns).
  Proof. intros H r. simpl. eauto. Qed.
  Definition listed (ns : string) (dl : list (Z * option string)) : Prop := (exists j, EvDownloadDL ns j (Val dl) ∈ l) \/ G ns dl.
  Lemma s_dset ns dl id v : listed ns dl -> Fp (NUploadDL ns (dset id v dl)).
  Proof. intros H r. simpl. exists id, dl. split; [done|]. intros x Hx. rewrite dget_dset'. by rewrite decide_False. Qed.
  Lemma s_dpop ns dl id : listed ns dl -> Fp (NUploadDL ns (dpop id dl)).
  Proof. intros H r. simpl. exists id, dl. split; [done|]. intros x Hx. rewrite dget_dpop. by rewrite decide_False. Qed.
  Lemma s_listed ns j dl : EvDownloadDL ns j (Val dl) ∈ l -> listed ns dl.
  Proof. left. eauto. Qed.
  Hint Resolve s_bundle s_gen100 s_gen s_rotate s_dset s_dpop s_listed : src.

  Ltac src := first [intros ?; exact I | solve [eauto 3 with src]].
  Ltac p1 :=
    match goal with
    | |- obeys _ _ _ (bind (Step ?c ?k) _) =>
        apply p_cmd; [src|let r := fresh "r" in let H := fresh "He" in intros r H; unfold Ep in H; cbn in H;
          try (let T := type of r in let T := eval cbn in T in
            lazymatch T with outcome _ => destruct r as [?|?]; cbn [of_outcome]; [|exact I] end)]
    | |- obeys _ _ _ (bind (Ret _) _) => apply p_ret
    | |- obeys _ _ _ (bind _ _) => apply p_bind; [|intros ?]
    | |- obeys _ _ _ (try_ _) => apply p_try
    | |- obeys _ _ _ (Ret _) => exact I
    | |- obeys _ _ _ (Raise _) => exact I
    | |- obeys _ _ _ (for_each _ _) => apply p_for_each; intros ? ?
    | |- obeys _ _ _ (fold_prog _ _ _) => apply p_fold; intros ? ? ?
    | |- obeys _ _ _ (map_prog _ _) => apply p_map; intros ? ?
    | |- obeys _ _ _ (filter_prog _ _) => apply p_filter; intros ? ?
    | |- obeys _ _ _ (order _) => apply p_order
    | |- obeys _ _ _ (of_key_error _) => apply p_key_error
    | |- obeys _ _ _ (from_just _) => apply p_from_just
    | |- obeys _ _ _ (of_outcome _) => apply p_outcome
    | |- obeys _ _ _ (load_list _ _) => apply p_load
    | |- obeys _ _ _ (load_dict _ _) => apply p_load
    | |- obeys _ _ _ (load_bytes _) => apply p_load
    | |- obeys _ _ _ (load_optional _ _) => apply p_load
    | |- obeys _ _ _ (load_primitive _ _) => apply p_load
    | |- obeys _ _ _ (let '_ := ?b in _) => destruct b
    | |- obeys _ _ _ (match ?b with _ => _ end) => destruct b
    | |- obeys _ _ _ (if ?b then _ else _) => destruct b
    | |- obeys _ _ _ (Step ?c _) =>
        split; [src|let H := fresh "He" in intros ? H; unfold Ep in H; cbn in H]; first [apply p_outcome|exact I|idtac]
    end.
  Ltac unwr := unfold store_bytes, set_trust, b_load_session, b_build_active, b_build_passive, b_enc_plain, b_enc_empty,
    b_dec_plain, b_spk_age, b_rotate, b_hide, b_delete, b_del_hidden, b_num_visible, b_generate,
    b_get_bundle, b_purge, b_purge_jid, n_upload_bundle, n_download_bundle, n_delete_bundle, n_upload_dl,
    n_download_dl, n_send, t_eval, t_blind, c_sleep, s_store, s_delete, k_same, g_loaded, g_sync, p_loaded,
    p_sync, c_randbelow, c_randbytes in *.
  Ltac rt := unwr; repeat (cbv zeta; p1).

  Definition in_cache (b : bundle) : Prop := exists ns j x, EvDownloadBundle ns j x (Val b) ∈ l.
  Definition cached {A} (o : outcome (A * list bundle)) : Prop := match o with Val v => Forall in_cache v.2 | Exn _ => True end.
  Lemma p_find_key jid dev nss :
    obq (fun o => match o with Val (Some b) => in_cache b | _ => True end) (find_key jid dev nss).
  Proof.
    induction nss as [|ns nss IH]; [done|]. cbn [find_key]. apply obeys_bind, obeys_try. split; [intros ?; exact I|]. intros r Hr. apply p_val.
    destruct r as [b|e]; [|by destruct e]. apply obeys_bind. split; [intros ?; exact I|]. intros r' _. apply p_val. destruct r'; [|done].
    exists ns, jid, dev. exact Hr.
  Qed.
  Lemma p_info_rest cf jid dev nss ik : ob (dev_info_rest cf jid dev nss ik).
  Proof. unfold dev_info_rest. rt. Qed.
  Lemma p_info_q cf jid : obq cached (get_device_information_ cf jid).
  Proof.
    unfold get_device_information_. apply obeys_bind. eapply obeys_conseq; [apply p_load|]. intros [m|] _; [|done].
    apply obeys_bind. eapply obeys_conseq; [apply p_order|]. intros [xs|] _; [|done].
    apply obeys_fold_prog with (L := fun v => Forall in_cache v.2); [constructor| |done].
    intros [ds bs] x Hbs _. unfold dev_info. apply obeys_bind. eapply obeys_conseq; [apply p_load|]. intros [m1|] _; [|done].
    apply obeys_bind. eapply obeys_conseq; [apply p_from_just|]. intros [nss|] _; [|done]. cbv zeta.
    apply obeys_bind. eapply obeys_conseq; [apply p_load|]. intros [[ik|]|] _; [| |done].
    - apply obeys_bind. eapply obeys_conseq; [apply p_info_rest|]. by intros [d|] _.
    - apply obeys_bind. eapply obeys_conseq; [apply p_order|]. intros [nso|] _; [|done].
      apply obeys_bind. eapply obeys_conseq; [apply p_find_key|]. intros [[b|]|] Hb; [|done|done].
      apply obeys_bind. eapply obeys_conseq; [apply p_info_rest|]. intros [d|] _; [|done].
      apply Forall_app. split; [done|]. by constructor.
  Qed.
  Lemma p_info_ cf jid : ob (get_device_information_ cf jid).
  Proof. eapply obeys_conseq; [apply p_info_q|]. done. Qed.
  Lemma p_info cf jid : ob (get_device_information cf jid).
  Proof. unfold get_device_information. rt. apply p_info_. Qed.
  Lemma p_own cf : ob (get_own_device_information cf).
  Proof. unfold get_own_device_information. rt. apply p_info. Qed.
  Lemma p_update cf ns jid dl : listed ns dl -> ob (update_device_list cf ns jid dl).
  Proof. intros Hl. unfold update_device_list. rt; [unfold upd_own|unfold upd_new|unfold upd_old]; rt. Qed.
  Lemma p_refresh cf ns jid : ob (refresh_device_list cf ns jid).
  Proof. unfold refresh_device_list. rt. apply p_update. by eapply s_listed. Qed.
  Lemma p_refresh_all cf jid : ob (refresh_device_lists cf jid).
  Proof. unfold refresh_device_lists. rt. apply p_refresh. Qed.
  Lemma p_ikp : ob ikp_get.
  Proof. unfold ikp_get. rt; unfold ikp_generate; rt. Qed.
  Lemma p_label cf label : ob (set_own_label cf label).
  Proof. unfold set_own_label. rt. Qed.
  Lemma p_purge_backend cf ns : ob (purge_backend cf ns).
  Proof. unfold purge_backend. rt; try apply p_info; try apply p_own. Qed.
  Lemma p_purge_jid jid : ob (purge_bare_jid jid).
  Proof. unfold purge_bare_jid. rt; unfold collect_key; rt. Qed.
  Lemma p_rotate_upload cf fuel rd ns : ob (rotate_upload cf fuel rd ns).
  Proof. revert rd. induction fuel as [|n IH]; intros rd; [done|]. cbn [rotate_upload]. rt; apply IH. Qed.
  Lemma p_rotation cf fuel period : ob (rotation cf fuel period).
  Proof.
    induction fuel as [|n IH]; [done|]. cbn [rotation]. rt; try exact IH. unfold rotate_one. rt. apply p_rotate_upload.
  Qed.
  Lemma p_ensure cf : ob (ensure_data_consistency cf).
  Proof. unfold ensure_data_consistency. rt; try apply p_refresh_all; try apply p_refresh. Qed.
  Lemma p_fresh_id fuel ids : ob (fresh_id fuel ids).
  Proof. induction fuel as [|n IH]; [done|]. cbn [fresh_id]. rt. exact IH. Qed.
  Lemma p_create P fuel args : ob (create P fuel args).
  Proof.
    unfold create. rt; try apply p_ikp.
    - unfold first_run_local. rt; try apply p_fresh_id.
    - unfold first_run_publish. rt; try apply p_refresh_all; try apply p_refresh.
    - unfold reconcile. rt; try apply p_refresh_all; try apply p_own; try apply p_purge_backend; unfold add_backend; rt; try apply p_refresh.
  Qed.
  Lemma p_chain j x nss : ob (get_sending_chain_length j x nss).
  Proof. unfold get_sending_chain_length. rt. Qed.

  (** ** Calls that use sessions *)
  Definition loaded_ses (ns : string) (s : session) : Prop := exists j x, EvLoadSession ns j x (Val (Some s)) ∈ l.
  Definition usable (ns : string) (s : session) : Prop := loaded_ses ns s \/ exists p, received l ns s p.
  Lemma p_ses ns j x : obq (fun o => match o with Val (Some s) => loaded_ses ns s | _ => True end) (b_load_session ns j x).
  Proof. split; [intros ?; exact I|]. intros r Hr. apply p_val. destruct r as [[s|]|]; [|done|done]. exists j, x. exact Hr. Qed.
  Lemma p_store ns s : advanced l ns s -> ob (b_store_session ns s).
  Proof. intros H. split; [intros ?; exact H|]. intros r _. apply p_outcome. Qed.
  Lemma p_empty cf ns s : C cf -> usable ns s -> ob (send_empty_message cf ns s).
  Proof.
    intros HC Hs. unfold send_empty_message. apply (p_bindq (fun v => EvEncEmpty ns (Val v) ∈ l)).
    { split; [intros ?; exact I|]. intros r Hr. apply p_val. by destruct r. }
    intros [c p] Hc. apply (p_bindq (fun v => EvEncKey ns s p (Val v) ∈ l)).
    { split. { intros r. split; [right; by exists c|exact Hs]. } intros r Hr. apply p_val. by destruct r. }
    intros [s' e] He. apply p_bind.
    - split; [|intros; apply p_outcome]. intros r. simpl. split; [by exists cf|]. exists p, s', e. split; [exact Hc|]. left. exists s. split; [exact He|]. by rewrite kex_same.
    - intros _. apply p_store. right. right. left. eauto.
  Qed.
  Lemma p_active ns j x b p : content_key l ns p -> fetched l ns j x b ->
    obq (fun o => match o with Val v => EvBuildActive ns j x b p (Val v) ∈ l | _ => True end) (b_build_active ns j x b p).
  Proof. intros Hp Hb. split; [intros ?; by split|]. intros r Hr. apply p_val. by destruct r. Qed.
  Lemma p_replace_one cf ns j x : C cf -> ob (replace_one cf ns j x).
  Proof.
    intros HC. unfold replace_one. apply (p_bindq (fun v => EvEncEmpty ns (Val v) ∈ l)).
    { split; [intros ?; exact I|]. intros r Hr. apply p_val. by destruct r. }
    intros [c p] Hc. apply (p_bindq (fun b => EvDownloadBundle ns j x (Val b) ∈ l)).
    { split; [intros ?; exact I|]. intros r Hr. apply p_val. by destruct r. }
    intros b' Hb. eapply p_bindq; [apply p_active; [right; eauto|by left]|]. intros [s e] Hs. apply p_bind.
    - split; [|intros; apply p_outcome]. intros r. simpl. split; [by exists cf|]. exists p, s, e. split; [exact Hc|]. right. exists x, b'. by split.
    - intros _. apply p_store. left. eauto 10.
  Qed.
  Lemma p_replace cf j x : C cf -> ob (replace_sessions cf j x).
  Proof. intros HC. unfold replace_sessions. rt; first [apply p_info|by apply p_replace_one]. Qed.
  Lemma p_after cf : C cf -> ob (after_history_sync cf).
  Proof.
    intros HC. unfold after_history_sync. rt. unfold flush_ns. rt. unfold flush_jid. rt. unfold flush_dev.
    eapply (p_bindq (fun m => match m with Some s => loaded_ses _ s | None => True end)); [eapply obeys_conseq; [apply p_ses|]; by intros [[]|]|].
    intros [s|] Hs; [|done]. apply p_empty; [done|by left].
  Qed.
  Definition adv_all (ss : list (string * session)) : Prop := Forall (fun y => advanced l y.1 y.2) ss.
  Lemma p_enc_device ns p cache st keys d : content_key l ns p -> Forall in_cache cache -> adv_all (es_sessions st) ->
    obq (fun o => match o with Val v => adv_all (es_sessions v.1) | Exn _ => True end) (enc_device ns p cache (st, keys) d).
  Proof.
    intros Hp Hca Hst. unfold enc_device. apply obeys_bind. eapply obeys_conseq; [apply p_ses|]. intros [m|e] Hm; [|done].
    apply obeys_bind. split; [intros ?; exact I|]. intros code _. cbn [obeys]. cbv zeta. apply obeys_bind, obeys_try.
    eapply (obeys_conseq _ _ (fun o => match o with Val v => advanced l ns v.1 | Exn _ => True end)).
    - destruct m as [s|].
      + split. { intros r. split; [exact Hp|by left]. } intros r Hr. apply p_val. destruct r as [[s' k]|]; [|done]. right. right. left. exists s, p, k. exact Hr.
      + assert (forall b, fetched l ns (dv_jid d) (dv_id d) b ->
          obq (fun o => match o with Val v => advanced l ns v.1 | Exn _ => True end) (b_build_active ns (dv_jid d) (dv_id d) b p)) as Hb.
        { intros b Hb. eapply obeys_conseq; [by apply p_active|]. intros [[s k]|] Hv; [|done]. left. eauto 10. }
        destruct (head _) as [b|] eqn:Eb.
        * apply obeys_bind. apply Hb. apply head_Some_elem_of in Eb. apply elem_of_list_filter in Eb as [(E1 & E2 & E3) Eb].
          right. repeat (split; [done|]). rewrite Forall_forall in Hca. apply Hca. by rewrite reorder_perm in Eb.
        * apply obeys_bind. split; [intros ?; exact I|]. intros r Hr. apply p_val. destruct r as [b|]; [|done]. apply Hb. by left.
    - intros [[s e]|e] Hs; cbn beta iota in *.
      + cbn [obeys fst es_sessions]. apply Forall_app. split; [done|]. by constructor.
      + destruct e; try exact I; exact Hst.
  Qed.
  Lemma p_encrypt cf mtd jids pt prio ident : (forall ds i, ob (mtd ds i)) -> ob (encrypt cf mtd jids pt prio ident).
  Proof.
    intros Hm. unfold encrypt. apply p_bind; [rt|]. intros av. apply p_bind; [rt|]. intros pr. cbv zeta.
    apply p_bind; [rt|]. intros js. apply (p_bindq (fun tmp => Forall in_cache (concat (map snd tmp)))).
    { apply obeys_map_prog with (L := fun v => Forall in_cache v.2).
      - intros j _. eapply obeys_conseq; [apply p_info_q|]. by intros [|].
      - intros xs Hxs. simpl. induction Hxs as [|v xs Hv _ IH]; [constructor|]. simpl. apply Forall_app. by split. }
    intros tmp Hca. apply p_bind; [rt|]. intros ds. apply p_bind; [rt|]. intros ds'.
    apply p_bind. { unfold enc_trust, devices_with, reload_trust. rt. apply Hm. } intros ds2. apply p_bind; [rt|]. intros bks.
    apply (p_bindq (fun st => adv_all (es_sessions st))).
    { apply obeys_fold_prog with (L := fun st => adv_all (es_sessions st)); [constructor| |done]. intros st ns Hst _.
      unfold enc_backend. destruct (filter _ (es_devices st)); [exact Hst|]. apply obeys_bind.
      eapply obeys_conseq; [apply p_key_error|]. intros [b|] _; [|done]. apply obeys_bind. split; [intros ?; exact I|]. intros r Hr. apply p_val.
      destruct r as [[c p]|]; [|done]. apply obeys_bind. split; [intros ?; exact I|]. intros code _. cbn [obeys]. apply obeys_bind.
      apply obeys_fold_prog with (L := fun v => adv_all (es_sessions v.1)); [done| |].
      - intros [st' keys] d' Hst' _. apply p_enc_device; [left; by exists b, c|done|done].
      - intros [st' keys] Hst'. exact Hst'. }
    intros st Hst. destruct (no_eligible _ _ _); [|done]. apply (p_bindq (fun ss => adv_all ss)).
    { split; [intros ?; exact I|]. intros code _. simpl. unfold adv_all. by rewrite reorder_perm. }
    intros ss Hss. apply p_bind; [|done]. apply p_for_each. intros y Hy. apply p_store. unfold adv_all in Hss. rewrite Forall_forall in Hss. by apply Hss.
  Qed.
  Lemma p_dec ns s e : loaded_ses ns s -> obq (fun o => match o with Val v => received l ns v.1 v.2 | Exn _ => True end) (b_dec_key ns s e).
  Proof.
    intros H. split; [intros ?; exact H|]. intros r Hr. apply p_val. destruct r as [[s' p]|]; [|done]. right. exists s, e. exact Hr.
  Qed.
  Lemma p_passive ns j x k e : obq (fun o => match o with Val v => received l ns v.1 v.2 | Exn _ => True end) (b_build_passive ns j x k e).
  Proof.
    split; [intros ?; exact I|]. intros r Hr. apply p_val. destruct r as [[s' p]|]; [|done]. left. exists j, x, k, e. exact Hr.
  Qed.
  Lemma received_advanced ns s p : received l ns s p -> advanced l ns s.
  Proof. intros [(j & x & k & e & H)|(s0 & e & H)]; [right; left|right; right; right]; eauto 10. Qed.
  Lemma p_prekeys cf ns s p : received l ns s p -> ob (dec_prekeys cf ns s).
  Proof.
    intros H. assert (Fp (BHide ns s)) by (intros ?; by exists p). assert (Fp (BDelete ns s)) by (intros ?; by exists p).
    unfold dec_prekeys. rt.
  Qed.
  Lemma p_decrypt cf m : C cf -> ob (decrypt cf m).
  Proof.
    intros HC. unfold decrypt. apply p_bind; [rt|]. intros bks. destruct (decide _) as [_|_]; [|done]. cbv zeta. apply p_bind; [rt|]. intros keys.
    destruct (filter _ keys) as [|[e mk] ks]; [done|]. apply p_bind. { unfold dec_sender. rt; try apply p_info; apply p_refresh. }
    intros d. apply p_bind; [rt|]. intros t. destruct (decide _) as [_|_]; [done|]. apply (p_bindq (fun v => received l (m_ns m) v.1 v.2)).
    { destruct mk as [k|].
      - unfold dec_kex. destruct (decide _) as [_|_]; [|done]. apply obeys_bind. eapply obeys_conseq; [apply p_ses|]. intros [m0|] Hm; [|done].
        apply obeys_bind. eapply (obeys_conseq _ _ (fun o => match o with Val (Some s) => loaded_ses (m_ns m) s | _ => True end)).
        + destruct m0 as [s|]; [|done]. destruct (decide _) as [_|_]; [|done]. apply obeys_bind. split; [intros ?; exact I|]. intros r _. cbn [obeys]. by destruct r.
        + intros [[s|]|] Hs; [by apply p_dec|apply p_passive|done].
      - unfold dec_existing. apply obeys_bind. eapply obeys_conseq; [apply p_ses|]. intros [[s|]|] Hs; [by apply p_dec|done|done]. }
    intros [s p] Hs. apply p_bind.
    { assert (Fp (BDecPlain (m_ns m) (m_content m) p)) by (intros ?; by exists s). rt. }
    intros pl. apply p_bind; [by eapply p_store, received_advanced|]. intros _.
    apply p_bind. { destruct mk; [by eapply p_prekeys|done]. } intros _. apply p_bind; [|done]. destruct (_ || _); [|done]. unfold dec_respond.
    apply p_bind; [rt|]. intros [|]; [rt|apply p_empty; [done|right; eauto]].
  Qed.
  Lemma p_call c : gives C G c -> (forall cf mtd jids pt prio ident, c = KEncrypt cf mtd jids pt prio ident -> forall ds i, ob (mtd ds i)) ->
    ob (run_call c).
  Proof.
    intros HG Hm. destruct c; cbn [run_call call_ret].
    - apply p_create.
    - apply p_ikp.
    - apply p_update. by right.
    - apply p_refresh.
    - apply p_refresh_all.
    - rt.
    - apply p_info.
    - apply p_own.
    - apply p_label.
    - apply p_purge_backend.
    - apply p_purge_jid.
    - apply p_rotation.
    - apply p_ensure.
    - by apply p_replace.
    - apply p_chain.
    - unfold before_history_sync. rt.
    - by apply p_after.
    - apply p_encrypt. by eapply Hm.
    - by apply p_decrypt.
  Qed.
  Lemma p_lib {A} (p : api A) : libcode (gives C G) p -> ob p.
  Proof.
    intros H. induction H as [A v|A e|A B p f Hp IHp Hf IHf|A p Hp IHp|c Hc|c Hc Hm IHm].
    - done.
    - done.
    - by apply p_bind.
    - by apply p_try.
    - split; [by destruct c|]. done.
    - apply p_call; [done|exact IHm].
  Qed.
End prov.

(** ** Pools *)
Definition backed (C : cfg -> Prop) (G : string -> list (Z * option string) -> Prop) (new : list event) (p : api unit) : Prop :=
  forall l, new ⊆ l -> obeys (Ep l) (Fp C G l) tp_ p.
Lemma backed_step C G new c k r : backed C G new (Step c k) -> backed C G (match event_of c r with Some e => e :: new | None => new end) (k r).
Proof.
  intros H l Hl. destruct (H l) as [_ Hk].
  - destruct (event_of c r); [|done]. intros e0 He0. apply Hl. by right.
  - apply Hk. unfold Ep. destruct (event_of c r); [|done]. apply Hl. by left.
Qed.
Lemma backed_mono C G new new' p : new ⊆ new' -> backed C G new p -> backed C G new' p.
Proof. intros Hs H l Hl. apply H. etrans; eauto. Qed.
Lemma prov_preach P C G ps w ps' w' l0 new :
  preach (with_contract P) (ps, w) (ps', w') -> w_log w = new ++ l0 -> traced (sourced C G) new -> Forall (backed C G new) ps ->
  exists new', w_log w' = new' ++ l0 /\ traced (sourced C G) new'.
Proof.
  intros H. remember (ps, w) as cfg eqn:E1. remember (ps', w') as cfg' eqn:E2. revert ps w E1 new.
  induction H as [cfg|cfg cfg1 cfg' (i & c & k & r & Hi & Hr & Ep' & Ew) _ IH]; intros ps w -> new El Ht Hb.
  - injection E2 as -> ->. eauto.
  - destruct cfg1 as [ps1 w1]. cbn [fst snd] in Hi, Hr, Ep', Ew. subst ps1. subst w1.
    pose (new1 := match event_of c r with Some e => e :: new | None => new end).
    assert (new ⊆ new1) as Hs. { unfold new1. destruct (event_of c r); [|done]. intros e0 He0. by right. }
    rewrite Forall_lookup in Hb. pose proof (Hb _ _ Hi) as Hp.
    eapply (IH E2 _ _ eq_refl new1).
    + change (w_log (w_apply w c r) = new1 ++ l0). rewrite log_apply, El. unfold new1. by destruct (event_of c r).
    + unfold new1. destruct (Hp new) as [HF _]; [done|]. specialize (HF r). destruct (event_of c r); [|done]. by apply traced_cons.
    + apply Forall_insert; [|by apply backed_step]. apply Forall_lookup. intros i' p' Hi'. eapply backed_mono; [exact Hs|by eapply Hb].
Qed.
Lemma provenance P C G (ps : list (api unit)) w ps' w' : Forall (fun p => libcode (gives C G) p) ps ->
  preach (with_contract P) (ps, w) (ps', w') -> exists new, w_log w' = new ++ w_log w /\ traced (sourced C G) new.
Proof.
  intros Hps H. eapply (prov_preach P C G _ _ _ _ (w_log w) []); [exact H|done|apply traced_nil|].
  eapply Forall_impl; [exact Hps|]. intros p Hp l _. by apply p_lib.
Qed.

(** ** Only empty messages are sent *)
Definition marked_empty (e : event) : Prop := match e with EvEncEmpty _ (Val (c, _)) => ct_empty c = true | _ => True end.
Lemma empties_preach (P : world -> forall c, resp c -> Prop) ps w ps' w' l0 new : (forall w c r, P w c r -> marks_empty w c r) ->
  preach (with_contract P) (ps, w) (ps', w') -> w_log w = new ++ l0 -> Forall marked_empty new ->
  exists new', w_log w' = new' ++ l0 /\ Forall marked_empty new'.
Proof.
  intros HP H. remember (ps, w) as cfg eqn:E1. remember (ps', w') as cfg' eqn:E2. revert ps w E1 new.
  induction H as [cfg|cfg cfg1 cfg' (i & c & k & r & Hi & [_ Hr] & Ep' & Ew) _ IH]; intros ps w -> new El Hn.
  - injection E2 as -> ->. eauto.
  - destruct cfg1 as [ps1 w1]. cbn [fst snd] in Hr, Ep', Ew. subst ps1. subst w1. apply HP in Hr.
    eapply (IH E2 _ _ eq_refl (match event_of c r with Some e => [e] | None => [] end ++ new)).
    + change (w_log (w_apply w c r) = (match event_of c r with Some e => [e] | None => [] end ++ new) ++ l0). by rewrite log_apply, El, app_assoc.
    + apply Forall_app. split; [|done]. destruct c; try constructor; try done.
Qed.
Lemma only_empty (P : world -> forall c, resp c -> Prop) C G (ps : list (api unit)) w ps' w' : (forall w c r, P w c r -> marks_empty w c r) ->
  Forall (fun p => libcode (gives C G) p) ps -> preach (with_contract P) (ps, w) (ps', w') ->
  exists new, w_log w' = new ++ w_log w /\ forall m j r, EvSend m j r ∈ new -> ct_empty (m_content m) = true /\ length (m_keys m) = 1%nat.
Proof.
  intros HP Hps H. destruct (provenance P C G ps w ps' w' Hps H) as (new & El & Ht).
  destruct (empties_preach P ps w ps' w' (w_log w) [] HP H) as (new' & El' & Hm); [done|constructor|].
  assert (new' = new) as -> by (rewrite El in El'; by apply app_inv_tail in El'). exists new. split; [done|].
  intros m j r Hs. apply elem_of_list_split in Hs as (post & pre & ->). destruct (Ht post _ pre eq_refl) as (_ & p & s & k & He & Hk). split.
  - rewrite Forall_forall in Hm. apply (Hm (EvEncEmpty (m_ns m) (Val (m_content m, p)))). apply elem_of_app. right. by right.
  - by destruct Hk as [(? & _ & _ & ->)|(? & ? & _ & ->)].
Qed.
