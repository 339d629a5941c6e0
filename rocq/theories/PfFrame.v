(** What every call may write, which exceptions it may raise on well-typed data: one traversal of the whole
    library, parametrised by what loads may return ([L]), what may be written ([Wr]) and which namespaces are in
    use ([NS]) and whether the loaded backends are distinct ([ND]). *)
From Verif Require Import Api Spec PfStrs PfTyped.
Open Scope prog_scope.
Open Scope list_scope.

Lemma pyset_length {A} `{EqDecision A} (l : list A) : length (pyset l) = length l <-> NoDup l.
Proof.
  split.
  - assert (forall l : list A, length (remove_dups l) <= length l)%nat as Hle.
    { clear. intros l. induction l as [|x l IH]; simpl; [done|]. destruct (decide_rel _ x l); simpl; lia. }
    unfold pyset. induction l as [|x l IH]; simpl; [constructor|].
    pose proof (Hle l). destruct (decide_rel _ x l); simpl; [lia|]. intros [= Hl]. constructor; [|by apply IH].
    done.
  - unfold pyset. induction 1 as [|x l Hx Hl IH]; simpl; [done|].
    destruct (decide_rel _ x l); [done|]. simpl. by rewrite IH.
Qed.

(** namespaces an item mentions *)
Definition item_ns (NS : string -> Prop) (i : item) : Prop :=
  match i with IQueue ns | IQueueDevices ns _ => NS ns | _ => True end.

Section frame.
  Context (L : string -> option json -> Prop) (Wr : string -> option json -> Prop) (NS : string -> Prop)
    (T ND : Prop).

  Definition typedL : Prop := forall i v, item_ns NS i -> L (item_key i) (Some v) -> item_type i v.
  (** exceptions a call may end with ([T = False]: anything) *)
  Definition okexn (e : exn) : Prop := e = ETypeError \/ e = EBinascii -> T -> ~ typedL.
  Definition okres {A} (o : outcome A) : Prop := match o with Val _ => True | Exn e => okexn e end.

  Definition ns_kept (ns : string) {A} (r : outcome (session * A)) : Prop :=
    match r with Val (s, _) => NS ns -> NS (s_ns s) | Exn _ => True end.
  Definition E (c : cmd) (r : resp c) : Prop :=
    (exists w, w_allowed w c r) /\
    match c return resp c -> Prop with
    | SLoad k => fun r => match r with Val m => L k m | Exn _ => True end
    | GLoaded => fun r => Forall NS r /\ (ND -> NoDup r)
    | BDecKey ns _ _ => fun r => ns_kept ns r
    | BBuildPassive ns _ _ _ _ => fun r => ns_kept ns r
    | _ => fun _ => True
    end r.
  Definition F (c : cmd) : Prop :=
    match c with
    | SStore k v => Wr k (Some v)
    | SDelete k => Wr k None
    | PLoaded l => Forall NS l /\ (ND -> NoDup l)
    | _ => True
    end.

  Notation ob Q p := (obeys E F Q p).

  Lemma okexn_ext e : ext_exn e = true -> okexn e.
  Proof. intros H [->| ->]; discriminate H. Qed.
  Lemma ext_okres {A} (r : outcome A) : ext_ok r -> okres r.
  Proof. destruct r; simpl; [done|]. apply okexn_ext. Qed.

  Lemma ob_outcome {A} (o : outcome A) (Q : outcome A -> Prop) : Q o -> ob Q (of_outcome o).
  Proof. by destruct o. Qed.

  (** one outside call *)
  Lemma ob_ext {A} c (cast : resp c -> outcome A) (Q : outcome A -> Prop) :
    F c -> (forall r, E c r -> Q (cast r)) -> ob Q (Step c (fun r => of_outcome (cast r))).
  Proof. intros HF HQ. split; [done|]. intros r Hr. apply ob_outcome. auto. Qed.

  Ltac ext := unfold b_load_session, b_store_session, b_build_active, b_build_passive, b_enc_plain, b_enc_empty,
    b_enc_key, b_dec_plain, b_dec_key, b_spk_age, b_rotate, b_hide, b_delete, b_del_hidden, b_num_visible, b_generate,
    b_get_bundle, b_purge, b_purge_jid, n_upload_bundle, n_download_bundle, n_delete_bundle, n_upload_dl,
    n_download_dl, n_send, t_eval, t_blind, c_sleep, s_store, s_delete in *;
    (split; [try done|let Hr := fresh "Hr" in intros ? [[? Hr] ?]; apply ob_outcome; simpl in Hr;
    try apply (ext_okres _ Hr)]).

  Lemma ob_load {A} (check : json -> outcome A) k (Q : outcome (option A) -> Prop) :
    Q (Val None) -> (forall e, ext_exn e = true -> Q (Exn e)) ->
    (forall v, L k (Some v) -> match check v with Val a => Q (Val (Some a)) | Exn e => Q (Exn e) end) ->
    (L k None -> Q (Val None)) ->
    ob Q (load_checked check k).
  Proof.
    intros HN He Hv HN'. unfold load_checked. apply obeys_bind. split; [done|].
    intros r [[w Hr] HL]. apply ob_outcome. destruct r as [[v|]|e]; simpl in *; [|auto|auto].
    pose proof (Hv v HL). by destruct (check v).
  Qed.
  Lemma ob_load' {A} (check : json -> outcome A) k (Q : outcome (option A) -> Prop) :
    (forall e, ext_exn e = true -> Q (Exn e)) ->
    (forall v, L k (Some v) -> match check v with Val a => Q (Val (Some a)) | Exn e => Q (Exn e) end) ->
    (L k None -> Q (Val None)) ->
    ob Q (load_checked check k).
  Proof.
    intros He Hv HN'. unfold load_checked. apply obeys_bind. split; [done|].
    intros r [[w Hr] HL]. apply ob_outcome. destruct r as [[v|]|e]; simpl in *; [|auto|auto].
    pose proof (Hv v HL). by destruct (check v).
  Qed.

  Lemma mapM_map {A B C} (g : A -> C) (f : C -> option B) (h : A -> B) l :
    (forall a, f (g a) = Some (h a)) -> mapM f (map g l) = Some (map h l).
  Proof. intros H. induction l as [|x l IH]; simpl; [done|]. by rewrite H, IH. Qed.

  (** typed loads at an item *)
  Lemma ob_typed {A} (check : json -> outcome A) T0 i :
    item_ns NS i -> good_check check T0 -> (forall v, item_type i v -> exists a, T0 v a) ->
    ob okres (load_checked check (item_key i)).
  Proof.
    intros Hi Hg Ht. apply ob_load'; [intros; by apply okexn_ext| |done].
    intros v Hv. destruct (Hg v) as [(a & _ & ->)|[Hn ->]]; [done|]. intros _ _ HT. apply HT in Hv; [|done].
    apply Ht in Hv as [a Ha]. by apply Hn in Ha.
  Qed.
  Lemma ob_load_ints i :
    item_ns NS i -> (match i with IDeviceList _ | IQueueDevices _ _ => True | _ => False end) ->
    ob okres (load_list as_int (item_key i)).
  Proof.
    intros Hi Hk. eapply ob_typed; [done|apply (check_list _ _ _ prim_int)|]. by destruct i.
  Qed.
  Lemma ob_load_strs i :
    item_ns NS i -> (match i with INamespaces _ _ | IQueue _ => True | _ => False end) ->
    ob okres (load_list as_str (item_key i)).
  Proof.
    intros Hi Hk. eapply ob_typed; [done|apply (check_list _ _ _ prim_str)|]. by destruct i.
  Qed.
  Lemma ob_load_list j : ob okres (load_list as_int (k_list j)).
  Proof. by apply (ob_load_ints (IDeviceList j)). Qed.
  Lemma ob_load_queue_jid n j : NS n -> ob okres (load_list as_int (k_queue_jid n j)).
  Proof. intros H. by apply (ob_load_ints (IQueueDevices n j)). Qed.
  Lemma ob_load_ns j d : ob okres (load_list as_str (k_ns j d)).
  Proof. by apply (ob_load_strs (INamespaces j d)). Qed.
  Lemma ob_load_queue n : NS n -> ob okres (load_list as_str (k_queue n)).
  Proof. intros H. by apply (ob_load_strs (IQueue n)). Qed.
  Lemma ob_load_active j d : ob okres (load_dict as_bool (k_active j d)).
  Proof. by apply (ob_typed _ (is_dict is_bool) (IActive j d)); [|apply check_dict; constructor|]. Qed.
  Lemma ob_load_label j d : ob okres (load_optional as_str (k_label j d)).
  Proof. by apply (ob_typed _ (is_opt is_str) (ILabel j d)); [|apply check_optional; constructor|]. Qed.
  Lemma ob_load_trust j ik : ob okres (load_primitive as_str (k_trust j ik)).
  Proof. by apply (ob_typed _ (is_str) (ITrust j ik)); [|apply check_primitive; constructor|]. Qed.
  Lemma okres_bytes i v :
    (match i with IKeyPairKey | IIdentityKey _ _ => True | _ => False end) -> L (item_key i) (Some v) ->
    match match v with
          | JStr s => match b64dec s with Some b => Val b | None => Exn EBinascii end
          | _ => Exn ETypeError
          end with Val _ => True | Exn e => okexn e end.
  Proof.
    intros Hi Hv. assert (item_ns NS i) as Hn by (by destruct i).
    destruct v; simpl; try (intros _ _ HT; apply HT in Hv; [|done]; destruct i; try done; destruct Hv as (? & ? & ? & ?); done).
    destruct (b64dec s) eqn:Eb; [done|]. intros _ _ HT. apply HT in Hv; [|done].
    destruct i; try done; destruct Hv as (s' & b & [= ->] & Hs); congruence.
  Qed.
  Lemma ob_load_ik j d (Q : outcome (option bytes) -> Prop) :
    (forall e, okexn e -> Q (Exn e)) -> (forall b, Q (Val (Some b))) -> (L (k_ik j d) None -> Q (Val None)) ->
    ob Q (load_bytes (k_ik j d)).
  Proof.
    intros He Hb HN. apply ob_load'; [intros; by apply He, okexn_ext| |done].
    intros v Hv. pose proof (okres_bytes (IIdentityKey j d) v I Hv) as H. destruct v; simpl in *; try by apply He.
    destruct (b64dec s); simpl; auto.
  Qed.

  Lemma ob_from_just {A} (m : option A) (Q : outcome A -> Prop) :
    Q (Exn ENothing) -> (forall a, Q (Val a)) -> ob Q (from_just m).
  Proof. destruct m; simpl; auto. Qed.
  Lemma ob_key_error {A} (m : option A) (Q : outcome A -> Prop) :
    Q (Exn EKeyError) -> (forall a, Q (Val a)) -> ob Q (of_key_error m).
  Proof. destruct m; simpl; auto. Qed.
  Lemma okN : okexn ENothing. Proof. intros [|]; done. Qed.
  Lemma okK : okexn EKeyError. Proof. intros [|]; done. Qed.
  Lemma okR : okexn ERuntime. Proof. intros [|]; done. Qed.

  (** Step through a program: [o] uses lemmas for known calls. *)
  Ltac oke := simpl; try (intros [?|?]; done); try done.
  Ltac stp :=
    match goal with
    | |- obeys _ _ _ (bind _ _) => apply obeys_bind
    | |- obeys _ _ _ (Ret _) => simpl; try done
    | |- obeys _ _ _ (Raise _) => oke
    | |- obeys _ _ _ (from_just _) => apply ob_from_just; [oke|intros ?; cbn beta iota]
    | |- obeys _ _ _ (order _) => split; [exact I|intros ? _]; cbn [obeys]
    | |- obeys _ _ _ (load_list as_int (k_list _)) => eapply obeys_conseq; [apply ob_load_list|intros [?|?] ?; cbn beta iota; [|done]]
    | |- obeys _ _ _ (load_list as_str (k_ns _ _)) => eapply obeys_conseq; [apply ob_load_ns|intros [?|?] ?; cbn beta iota; [|done]]
    | |- obeys _ _ _ (load_dict as_bool (k_active _ _)) => eapply obeys_conseq; [apply ob_load_active|intros [?|?] ?; cbn beta iota; [|done]]
    | |- obeys _ _ _ (load_optional as_str (k_label _ _)) => eapply obeys_conseq; [apply ob_load_label|intros [?|?] ?; cbn beta iota; [|done]]
    | |- obeys _ _ _ (load_primitive as_str (k_trust _ _)) => eapply obeys_conseq; [apply ob_load_trust|intros [?|?] ?; cbn beta iota; [|done]]
    | |- obeys _ _ _ g_loaded => split; [exact I|let HL := fresh "HL" in let HND := fresh "HND" in intros ? [_ [HL HND]]]; cbn [obeys]
    | |- obeys _ _ _ g_sync => split; [exact I|intros ? _]; cbn [obeys]
    | |- obeys _ _ _ (k_same _ _) => split; [exact I|intros ? _]; cbn [obeys]
    | |- obeys _ _ _ (p_sync _) => split; [exact I|intros ? _]; cbn [obeys]
    | |- obeys _ _ _ (of_key_error _) => apply ob_key_error; [oke|intros ?; cbn beta iota]
    end.
  (** an outside call whose result does not matter *)
  Lemma ob_call {A} (p : api A) (Q : outcome A -> Prop) :
    ob okres p -> (forall a, Q (Val a)) -> (forall e, okexn e -> Q (Exn e)) -> ob Q p.
  Proof. intros H Hv He. eapply obeys_conseq; [exact H|]. intros [a|e] ?; auto. Qed.

  Ltac call l := eapply ob_call; [apply l|intros ?; cbn beta iota|oke].
  Ltac extc := eapply ob_call; [by ext|intros ?; cbn beta iota|oke].
  Ltac st := eapply ob_call; [ext; simpl; auto|intros ?; cbn beta iota|oke].
  Ltac dd := match goal with
    | |- obeys _ _ _ (if ?b then _ else _) => destruct b
    | |- obeys _ _ _ (match ?b with _ => _ end) => destruct b
    end.

  Definition wr_dev (jid : string) : Prop :=
    (forall d l, Wr (k_ns jid d) (Some (j_strs l))) /\ (forall d l, Wr (k_active jid d) (Some (j_bools l))) /\
    (forall d l, Wr (k_label jid d) (Some (j_opt l))) /\
    (forall m l, L (k_list jid) m -> (forall v l0 x, m = Some v -> is_list is_int v l0 -> x ∈ l0 -> x ∈ l) ->
      Wr (k_list jid) (Some (j_ints l))).
  Definition wr_info (jid : string) : Prop :=
    (forall d l, Wr (k_ns jid d) (Some (j_strs l))) /\
    (forall d b, L (k_ik jid d) None -> Wr (k_ik jid d) (Some (JStr (b64enc b)))).

  Lemma f_update cf ns jid dl : wr_dev jid -> ob okres (update_device_list cf ns jid dl).
  Proof.
    intros (H1 & H2 & H3 & H4). unfold update_device_list. repeat stp. dd; [|oke]. stp.
    assert (ob okres (upd_own cf ns jid dl)) as Hown.
    { unfold upd_own. dd; [|done]. repeat stp. dd; [|done]. repeat stp. extc. done. }
    apply obeys_conseq with (Q := fun o => match o with
      | Val m => forall l, (forall x, x ∈ Model.maybe ([] : list Z) m -> x ∈ l) -> Wr (k_list jid) (Some (j_ints l)) | Exn e => okexn e end).
    { apply ob_load'; [intros; by apply okexn_ext| |].
      - intros v Hv. destruct (check_list _ _ _ prim_int v) as [(l0 & Hl0 & ->)|[Hn ->]].
        + intros l Hl. apply (H4 _ l Hv). intros v0 l1 x [= <-] Hl1. rewrite (is_list_fun is_int _ l1 l0 is_int_fun Hl1 Hl0). apply Hl.
        + intros _ _ HT. apply (HT (IDeviceList jid)) in Hv; [|done]. destruct Hv as [l Hl]. by apply Hn in Hl.
      - intros Hn l _. apply (H4 _ l Hn). done. }
    clear H4. intros [m|?]; cbn beta iota; [intros H4|done]. cbv zeta. stp.
    call Hown. repeat stp.
    eapply obeys_conseq; [apply obeys_for_each with (Q := okres); [|done]|].
    { intros d _. unfold upd_new. repeat stp. st. dd; [|oke]. stp. st. st. done. }
    intros [[]|?] ?; [|done]. repeat stp.
    eapply obeys_conseq; [apply obeys_for_each with (Q := okres); [|done]|].
    { intros d _. unfold upd_old. repeat stp. dd.
      - repeat stp. eapply ob_call with (p := if bool_decide _ then _ else _); [dd; [done|]; ext; simpl; auto|intros _|oke].
        repeat stp. eapply ob_call with (p := if _ && _ then _ else _); [dd; [|done]; ext; simpl; auto|intros _|oke].
        dd; [done|]. repeat stp. st. done.
      - dd; [|done]. dd; [|oke]. dd; [|done]. st. done. }
    intros [[]|?] ?; [|done]. dd; [done|]. stp. split; [exact I|intros ? _]. cbn [obeys]. st; [|done].
    apply H4. intros x Hx. rewrite reorder_perm. unfold set_union, set_diff. destruct (decide (x ∈ pyset (dkeys dl))); apply elem_of_app; [by left|right].
    apply elem_of_list_filter. split; [done|]. unfold pyset. by apply elem_of_remove_dups.
  Qed.

  Lemma f_refresh cf ns jid : wr_dev jid -> ob okres (refresh_device_list cf ns jid).
  Proof.
    intros H. unfold refresh_device_list. stp. eapply ob_call; [|intros dl|oke].
    - ext. destruct r as [dl|e]; simpl in *; [done|]. by apply okexn_ext.
    - cbn beta iota. by apply f_update.
  Qed.
  Lemma f_refresh_all cf jid : wr_dev jid -> ob okres (refresh_device_lists cf jid).
  Proof.
    intros H. unfold refresh_device_lists. repeat stp. apply obeys_for_each; [|done].
    intros ns _. by apply f_refresh.
  Qed.

  Lemma f_set_trust jid ik level : Wr (k_trust jid ik) (Some (JStr level)) -> ob okres (set_trust jid ik level).
  Proof. intros H. unfold set_trust. by ext. Qed.

  Lemma f_find_key jid d l :
    (forall b, Wr (k_ik jid d) (Some (JStr (b64enc b)))) -> ob okres (find_key jid d l).
  Proof.
    intros H. induction l as [|ns l IH]; [done|]. cbn [find_key]. stp. apply obeys_try. ext.
    destruct r as [b|e]; cbn beta iota.
    - stp. unfold store_bytes. st. done.
    - pose proof (okexn_ext e Hr). destruct e; done.
  Qed.

  Lemma f_info_rest cf jid d nss ik :
    (forall d l, Wr (k_ns jid d) (Some (j_strs l))) -> ob okres (dev_info_rest cf jid d nss ik).
  Proof.
    intros H. unfold dev_info_rest. repeat stp.
    eapply ob_call with (p := if forallb _ _ then _ else _); [|intros ?; cbn beta iota; done|oke].
    dd; [done|]. repeat stp. st. done.
  Qed.

  Lemma f_info cf jid : wr_info jid -> ob okres (get_device_information_ cf jid).
  Proof.
    intros [H1 H2]. unfold get_device_information_. repeat stp.
    apply obeys_fold_prog with (L := fun _ => True); [done| |done].
    intros acc d _ _. unfold dev_info. repeat stp. apply ob_load_ik.
    - oke.
    - intros ik. stp. call f_info_rest; [done|]. done.
    - intros HN. repeat stp. eapply ob_call; [apply f_find_key; auto|intros mb|oke].
      dd; [|done]. stp. call f_info_rest; [done|]. done.
  Qed.
  Lemma f_get_info cf jid : wr_info jid -> ob okres (get_device_information cf jid).
  Proof. intros H. unfold get_device_information. stp. call f_info; [done|]. done. Qed.
  Lemma f_get_own cf : wr_info (c_jid cf) -> ob okres (get_own_device_information cf).
  Proof. intros H. unfold get_own_device_information. stp. call f_get_info; [done|]. dd; oke. Qed.

  Lemma f_download ns jid : ob okres (n_download_dl ns jid).
  Proof. ext. destruct r as [dl|e]; simpl in *; [done|]. by apply okexn_ext. Qed.

  Lemma f_label cf label :
    Wr (k_label (c_jid cf) (c_dev cf)) (Some (j_opt label)) -> ob okres (set_own_label cf label).
  Proof.
    intros H. unfold set_own_label. stp. st. repeat stp. apply obeys_for_each; [|done].
    intros ns _. stp. call f_download. extc. done.
  Qed.

  Definition wr_own (cf : cfg) : Prop :=
    (forall l, Wr (k_ns (c_jid cf) (c_dev cf)) (Some (j_strs l))) /\
    (forall l, Wr (k_active (c_jid cf) (c_dev cf)) (Some (j_bools l))).

  Lemma f_purge_backend cf ns : wr_info (c_jid cf) -> wr_own cf -> ob okres (purge_backend cf ns).
  Proof.
    intros Hi [H1 H2]. unfold purge_backend. stp. call f_download. stp.
    eapply ob_call with (p := if dmem _ _ then _ else _); [dd; [by ext|done]|intros _; cbn beta iota|oke].
    stp. call f_get_own; [done|]. repeat stp. st. repeat stp. st. repeat stp.
    split.
    { simpl. split; [|intros HN; apply NoDup_filter; auto].
      apply Forall_forall. intros x Hx. apply elem_of_list_filter in Hx as [_ Hx].
      by eapply (proj1 (Forall_forall _ _)). }
    intros [] _. cbn [obeys]. stp. eapply ob_call; [dd; [by ext|done]|intros _; cbn beta iota|oke].
    by ext.
  Qed.

  Definition wr_purge (jid : string) : Prop :=
    (forall d, Wr (k_ns jid d) None /\ Wr (k_active jid d) None /\ Wr (k_label jid d) None /\ Wr (k_ik jid d) None) /\
    Wr (k_list jid) None /\ (forall ik, Wr (k_trust jid ik) None).

  Lemma f_purge_jid jid : wr_purge jid -> ob okres (purge_bare_jid jid).
  Proof.
    intros (H1 & H2 & H3). unfold purge_bare_jid. repeat stp.
    eapply ob_call; [apply obeys_fold_prog with (L := fun _ => True); [done| |done]|intros keys|oke].
    { intros acc d _ _. unfold collect_key. stp. apply ob_load_ik; oke. }
    repeat stp.
    eapply ob_call; [apply obeys_for_each; [|done]|intros ?|oke].
    { intros d _. destruct (H1 d) as (?&?&?&?). stp. st. stp. st. stp. st. st. done. }
    stp. st. repeat stp.
    eapply ob_call; [apply obeys_for_each; [|done]|intros ?|oke].
    { intros ik _. st. done. }
    repeat stp. apply obeys_for_each; [|done]. intros ns _. extc. done.
  Qed.

  Lemma f_rotate_upload cf fuel rd ns : ob okres (rotate_upload cf fuel rd ns).
  Proof.
    revert rd. induction fuel as [|fuel IH]; intros rd; [oke|]. cbn [rotate_upload]. stp. apply obeys_try. stp.
    eapply obeys_conseq with (Q := okres); [by ext|]. intros [b|e] He; cbn beta iota.
    - eapply obeys_conseq with (Q := okres); [by ext|]. intros [u|e] He'; cbn beta iota; [done|].
      destruct e; try done. stp. extc. apply IH.
    - destruct e; try done. stp. extc. apply IH.
  Qed.
  Lemma f_rotation cf fuel period : ob okres (rotation cf fuel period).
  Proof.
    induction fuel as [|fuel IH]; [oke|]. cbn [rotation]. repeat stp.
    eapply ob_call; [apply obeys_fold_prog with (L := fun _ => True); [done| |done]|intros nc|oke].
    { intros acc ns _ _. unfold rotate_one. stp. extc. dd; [|done]. stp. extc. stp. call f_rotate_upload. done. }
    stp. extc. apply IH.
  Qed.

  Lemma f_ensure cf : wr_dev (c_jid cf) -> ob okres (ensure_data_consistency cf).
  Proof.
    intros H. unfold ensure_data_consistency. repeat stp. apply obeys_for_each; [|done]. intros ns _.
    stp. call f_refresh; [done|]. stp. extc. stp. apply obeys_try.
    eapply obeys_conseq with (Q := okres); [by ext|]. intros o Ho. stp.
    assert (forall u : bool, ob okres (if u then n_upload_bundle a0 else Ret tt)) as Hu.
    { intros []; [by ext|done]. }
    destruct o as [b|e]; cbn [obeys]; [apply Hu|]. destruct e; try done; apply Hu.
  Qed.

  Lemma f_send_empty cf ns s : ob okres (send_empty_message cf ns s).
  Proof. unfold send_empty_message. stp. extc. destruct a. stp. extc. destruct a. stp. extc. extc. done. Qed.

  Lemma f_replace cf jid d : wr_info jid -> ob okres (replace_sessions cf jid d).
  Proof.
    intros H. unfold replace_sessions. stp. call f_get_info; [done|]. dd; [oke|]. repeat stp.
    eapply ob_call; [apply obeys_filter_prog; [|done]|intros ws|oke].
    { intros ns _. stp. extc. done. }
    repeat stp. apply obeys_fold_prog with (L := fun _ => True); [done| |done].
    intros acc ns _ _. dd; [|done]. stp. apply obeys_try.
    eapply obeys_conseq with (Q := okres).
    - unfold replace_one. stp. extc. destruct a0. stp. extc. stp. extc. destruct a1. stp. extc. extc. done.
    - intros [u|ex] He; [done|]. dd; done.
  Qed.

  Lemma f_chain jid d nss : ob okres (get_sending_chain_length jid d nss).
  Proof.
    unfold get_sending_chain_length. repeat stp. apply obeys_fold_prog with (L := fun _ => True); [done| |done].
    intros acc ns _ _. dd; [|done]. stp. extc. done.
  Qed.

  Definition wr_queue : Prop :=
    forall n, NS n -> (forall l, Wr (k_queue n) (Some (j_strs l))) /\ Wr (k_queue n) None /\
      (forall j l, Wr (k_queue_jid n j) (Some (j_ints l))) /\ (forall j, Wr (k_queue_jid n j) None).

  Lemma f_after cf : wr_queue -> ob okres (after_history_sync cf).
  Proof.
    intros Hq. unfold after_history_sync. repeat stp.
    eapply ob_call; [apply obeys_for_each; [|done]|intros ?|oke].
    { intros ns _. extc. done. }
    repeat stp. apply obeys_for_each; [|done]. intros ns Hns.
    assert (NS ns) as HN by (by eapply Forall_forall).
    destruct (Hq ns HN) as (H1 & H2 & H3 & H4).
    unfold flush_ns. stp. call ob_load_queue; [done|]. stp. st. repeat stp. apply obeys_for_each; [|done].
    intros j _. unfold flush_jid. stp. call ob_load_queue_jid; [done|]. stp. st. repeat stp.
    apply obeys_for_each; [|done]. intros d _. unfold flush_dev. stp. extc. dd; [|done].
    call f_send_empty. done.
  Qed.

  Lemma f_devices_with t l : ob okres (devices_with t l).
  Proof.
    unfold devices_with. repeat stp. apply obeys_filter_prog; [|done]. intros d _. stp. extc. done.
  Qed.

  Lemma f_encrypt cf mtd jids pt prio ident :
    (forall j, wr_info j) -> (forall ds i, ob okres (mtd ds i)) -> ob okres (encrypt cf mtd jids pt prio ident).
  Proof.
    intros Hi Hm. unfold encrypt. repeat stp.
    eapply ob_call with (p := match prio with _ => _ end); [|intros pr|oke].
    { dd; [|done]. dd; oke. }
    repeat stp.
    eapply ob_call; [apply obeys_map_prog with (L := fun _ => True); [|done]|intros tmp|oke].
    { intros j _. call f_info; [done|]. done. }
    cbv zeta. repeat stp.
    assert (forall ds, ob okres (enc_trust cf mtd ident ds)) as Ht.
    { intros ds. unfold enc_trust. stp. call f_devices_with. stp.
      eapply ob_call; [|intros ds'|oke].
      - dd; [done|]. stp. call Hm. repeat stp. apply obeys_map_prog with (L := fun _ => True); [|done].
        intros dv _. unfold reload_trust. repeat stp.
      - stp. call f_devices_with. dd; [|oke]. call f_devices_with. done. }
    call Ht. repeat stp.
    eapply ob_call; [apply obeys_fold_prog with (L := fun _ => True); [done| |done]|intros st|oke].
    { intros st ns _ _. unfold enc_backend. dd; [done|]. repeat stp. extc. destruct a3. repeat stp.
      eapply ob_call; [apply obeys_fold_prog with (L := fun _ => True); [done| |done]|intros []; done|oke].
      intros [st' keys] dv _ _. unfold enc_device. stp. extc. repeat stp. apply obeys_try.
      eapply obeys_conseq with (Q := okres).
      - dd; [by ext|]. stp. eapply ob_call; [dd; [done|by ext]|intros b|oke]. by ext.
      - intros [[]|e] He; [done|]. destruct e; done. }
    cbn beta iota. dd; [|oke]. repeat stp.
    eapply ob_call; [apply obeys_for_each; [|done]|intros ?; done|oke].
    intros x _. extc. done.
  Qed.

  Definition nsres (o : outcome (session * pkm)) : Prop :=
    match o with Val (s, _) => NS (s_ns s) | Exn e => okexn e end.

  Lemma f_dec_existing ns d e : NS ns -> ob nsres (dec_existing ns d e).
  Proof.
    intros H. unfold dec_existing. stp. extc. dd; [|oke]. split; [done|].
    intros r [[? Hr] Hn]. apply ob_outcome. simpl in Hn. destruct r as [[]|]; simpl in *; [auto|by apply okexn_ext].
  Qed.
  Lemma f_dec_kex ns d k e : NS ns -> ob nsres (dec_kex ns d k e).
  Proof.
    intros H. unfold dec_kex. dd; [|oke]. stp. extc. stp.
    eapply ob_call; [dd; [|done]; dd; [|done]; by repeat stp|intros m|oke].
    cbn beta iota. dd; (split; [done|]);
      intros r [[? Hr] Hn]; apply ob_outcome; simpl in Hn; destruct r as [[]|]; simpl in *; auto; by apply okexn_ext.
  Qed.

  Lemma f_dec_sender cf m : wr_info (m_jid m) -> wr_dev (m_jid m) -> ob okres (dec_sender cf m).
  Proof.
    intros H1 H2. unfold dec_sender. stp. call f_get_info; [done|]. dd; [|done]. stp. call f_refresh; [done|].
    stp. call f_get_info; [done|]. dd; oke.
  Qed.

  Lemma f_decrypt cf m : wr_info (m_jid m) -> wr_dev (m_jid m) -> wr_queue -> ob okres (decrypt cf m).
  Proof.
    intros H1 H2 H3. unfold decrypt. repeat stp. dd; [|oke].
    assert (NS (m_ns m)) as HN by (by eapply Forall_forall). cbv zeta.
    repeat stp. dd; [oke|]. destruct p as [em mk]. stp. call f_dec_sender; [done|done|]. stp. extc. dd; [oke|]. stp.
    eapply obeys_conseq with (Q := nsres); [dd; [by apply f_dec_kex|by apply f_dec_existing]|].
    intros [[s p]|ex] Hs; cbn beta iota; [|done]. simpl in Hs. stp.
    eapply ob_call; [dd; [done|]; stp; extc; done|intros x|oke]. cbn beta iota.
    stp. extc. stp.
    eapply ob_call; [|intros y|oke].
    { dd; [|done]. unfold dec_prekeys. repeat stp.
      eapply ob_call; [dd; by ext|intros bc|oke]. cbn beta iota. dd; [|done]. stp. extc. stp.
      eapply ob_call; [dd; [by ext|done]|intros ?|oke]. cbn beta iota. stp. extc. by ext. }
    cbn beta iota. stp. eapply ob_call; [|intros z|oke]; [|done].
    dd; [|done]. unfold dec_respond. repeat stp. dd; [|apply f_send_empty].
    destruct (H3 _ Hs) as (Q1 & Q2 & Q3 & Q4).
    stp. call ob_load_queue; [done|]. repeat stp. st. stp. call ob_load_queue_jid; [done|]. repeat stp.
    by ext; simpl; auto.
  Qed.

  Definition wr_ikp : Prop :=
    L k_ikp_seed None \/ L k_ikp_key None ->
    Wr k_ikp_seed (Some (JBool true)) /\ forall b, Wr k_ikp_key (Some (JStr (b64enc b))).
  (** key pairs [ikp_get] may return *)
  Definition ikpL (k : ikp) : Prop :=
    (exists b s, L k_ikp_seed (Some (JBool b)) /\ L k_ikp_key (Some (JStr s)) /\
       exists key, b64dec s = Some key /\ k = (if b then IkpSeed key else IkpPriv key)) \/
    L k_ikp_seed None \/ L k_ikp_key None.
  Lemma f_ikp_val :
    wr_ikp -> ob (fun o => match o with Val k => ikpL k | Exn e => okexn e end) ikp_get.
  Proof.
    intros H. unfold ikp_get. stp.
    assert (forall k, L k_ikp_seed None \/ L k_ikp_key None -> ikpL k) as HK by (by right).
    assert (L k_ikp_seed None \/ L k_ikp_key None ->
      ob (fun o => match o with Val k => ikpL k | Exn e => okexn e end) ikp_generate) as Hg.
    { intros Hn. destruct (H Hn) as [H1 H2]. unfold ikp_generate. stp. split; [done|].
      intros b _. cbn [obeys]. stp. st. stp. unfold store_bytes. st. by apply HK. }
    apply ob_load'; [intros; by apply okexn_ext| |auto].
    intros v Hv. destruct v; cbn [as_bool or_type_error];
      try (intros _ _ HT; apply (HT IKeyPairIsSeed) in Hv; [|done]; destruct Hv as [? Hv]; inversion Hv).
    stp. apply ob_load'; [intros; by apply okexn_ext| |auto].
    intros v Hv'. pose proof (okres_bytes IKeyPairKey v I Hv') as Hb.
    destruct v; simpl in *; try done; destruct (b64dec _) eqn:Eb; simpl; [|done].
    left. exists b, s. eauto.
  Qed.
  Lemma f_ikp_exn :
    wr_ikp -> ob (fun o => match o with Val k => ikpL k | Exn e => e <> ERuntime end) ikp_get.
  Proof.
    intros H. unfold ikp_get. stp.
    assert (forall k, L k_ikp_seed None \/ L k_ikp_key None -> ikpL k) as HK by (by right).
    assert (forall e, ext_exn e = true -> e <> ERuntime) as He by (intros e He ->; discriminate He).
    assert (L k_ikp_seed None \/ L k_ikp_key None ->
      ob (fun o => match o with Val k => ikpL k | Exn e => e <> ERuntime end) ikp_generate) as Hg.
    { intros Hn. destruct (H Hn) as [H1 H2]. unfold ikp_generate. stp. split; [done|].
      intros b _. cbn [obeys]. stp. split; [done|]. intros [[]|e] [[? Hr] _]; cbn [of_outcome obeys]; [|by apply He].
      stp. split; [apply H2|]. intros [[]|e] [[? Hr'] _]; cbn [of_outcome obeys]; [|by apply He]. by apply HK. }
    apply ob_load'; [done| |auto].
    intros v Hv. destruct v; cbn [as_bool or_type_error]; try done.
    stp. apply ob_load'; [done| |auto].
    intros v Hv'. destruct v; simpl in *; try done; destruct (b64dec _) eqn:Eb; simpl; [|done].
    left. exists b, s. eauto.
  Qed.
  Lemma f_ikp : wr_ikp -> ob okres ikp_get.
  Proof. intros H. eapply obeys_conseq; [by apply f_ikp_val|]. by intros [|]. Qed.

  Definition wr_create (P : prims) (a : create_args) : Prop :=
    wr_ikp /\ Forall NS (a_backends a) /\ wr_info (a_jid a) /\ wr_dev (a_jid a) /\
    (L k_own None -> forall k, ikpL k ->
      (forall d, Wr (k_ik (a_jid a) d) (Some (JStr (b64enc (ikp_identity_key P k))))) /\
      (forall d, Wr (k_list (a_jid a)) (Some (j_ints [d]))) /\
      Wr (k_trust (a_jid a) (ikp_identity_key P k)) (Some (JStr (a_undecided a))) /\
      (forall d, Wr k_own (Some (JInt d)))).

  Lemma f_fresh fuel ids : ob okres (fresh_id fuel ids).
  Proof.
    induction fuel as [|fuel IH]; [oke|]. cbn [fresh_id]. stp. split; [done|]. intros r _. cbn [obeys].
    dd; [apply IH|done].
  Qed.

  Lemma f_first_local P fuel a k : wr_create P a -> L k_own None -> ikpL k -> ob okres (first_run_local P fuel a k).
  Proof.
    intros (_ & _ & _ & (H1 & H2 & H3 & H4) & H5) Hn Hk. destruct (H5 Hn k Hk) as (K1 & K4 & K2 & K3).
    unfold first_run_local. repeat stp.
    eapply ob_call; [apply obeys_map_prog with (L := fun _ => True); [|done]|intros ls|oke].
    { intros ns _. stp. call f_download. done. }
    cbn beta iota. stp. call f_fresh. cbv zeta. repeat stp. st. repeat stp. st. stp. st. stp. unfold store_bytes.
    st. stp. st. stp. st. stp. st. done.
  Qed.

  Lemma f_first_publish c : wr_dev (c_jid c) -> ob okres (first_run_publish c).
  Proof.
    intros H. unfold first_run_publish. repeat stp.
    eapply ob_call; [apply obeys_for_each; [|done]|intros ?|oke].
    { intros ns _. extc. done. }
    repeat stp.
    eapply ob_call; [apply obeys_for_each; [|done]|intros ?|oke].
    { intros ns _. stp. extc. extc. done. }
    repeat stp. apply obeys_for_each; [|done]. intros ns _. call f_refresh; done.
  Qed.

  Lemma f_reconcile c : wr_dev (c_jid c) -> wr_info (c_jid c) -> ob okres (reconcile c).
  Proof.
    intros Hd Hi. destruct (Hd) as (H1 & H2 & H3 & H4). unfold reconcile. stp. call f_get_own; [done|]. repeat stp. cbv zeta. dd; [done|].
    repeat stp. st. repeat stp. st. repeat stp.
    eapply ob_call; [apply obeys_for_each; [|done]|intros ?|oke].
    { intros ns _. unfold add_backend. dd; [done|]. stp. extc. stp.
      eapply ob_call; [dd; [by ext|done]|intros ?|oke]. cbn beta iota. stp. extc. stp. extc. call f_refresh; done. }
    repeat stp. apply obeys_for_each; [|done]. intros ns _. call f_purge_backend; [done| |done]. by split; auto.
  Qed.

  Lemma f_create P fuel a : wr_create P a -> ob okres (create P fuel a).
  Proof.
    intros H. pose proof H as (Hk & Hb & Hi & Hd & Hf). unfold create. destruct (bool_decide _) eqn:Hp; cbn [negb]; [|oke].
    apply bool_decide_eq_true, pyset_length in Hp. dd; [oke|].
    stp. split; [by split|]. intros [] _. cbn [obeys]. stp.
    eapply obeys_conseq; [by apply f_ikp_val|]. intros [k|e] Hkp; cbn beta iota; [|done]. repeat stp.
    apply ob_load'; [intros; by apply okexn_ext| |].
    - assert (forall d, ob okres (dev <- Ret d ;; reconcile (cfg_of a dev) ;;; Ret (cfg_of a dev))) as Hr.
      { intros d. cbn [bind]. stp. call f_reconcile; done. }
      intros v Hv. destruct v; cbn [as_int or_type_error]; try apply Hr;
        try (intros _ _ HT; apply (HT IOwnDeviceId) in Hv; [|done]; destruct Hv as [? Hv]; inversion Hv).
    - intros Hn. stp. eapply ob_call; [|intros d|oke].
      + stp. call f_first_local; [done|done|done|]. stp. call f_first_publish; [done|]. done.
      + cbn beta iota. stp. call f_reconcile; done.
  Qed.

  Lemma f_create_dev P fuel a id :
    wr_create P a -> (forall m, L k_own m -> m = Some (JInt id)) ->
    ob (fun o => match o with Val c => c = cfg_of a id | Exn e => okexn e end) (create P fuel a).
  Proof.
    intros H Hid. pose proof H as (Hk & Hb & Hi & Hd & Hf). unfold create. destruct (bool_decide _) eqn:Hp; cbn [negb]; [|oke].
    apply bool_decide_eq_true, pyset_length in Hp. dd; [oke|].
    stp. split; [by split|]. intros [] _. cbn [obeys]. stp.
    eapply obeys_conseq; [by apply f_ikp_val|]. intros [k|e] Hkp; cbn beta iota; [|done]. repeat stp.
    apply ob_load'; [intros; by apply okexn_ext| |].
    - intros v Hv. apply Hid in Hv. injection Hv as ->. cbn [as_int or_type_error bind].
      stp. call f_reconcile; done.
    - intros Hn. by apply Hid in Hn.
  Qed.

  (** Everything a call may write. *)
  Definition call_wr (c : call) : Prop :=
    match c with
    | KCreate P _ a => wr_create P a
    | KIkpGet => wr_ikp
    | KUpdate _ _ jid _ | KRefresh _ _ jid | KRefreshAll _ jid => wr_dev jid
    | KSetTrust jid ik level => Wr (k_trust jid ik) (Some (JStr level))
    | KGetInfo _ jid => wr_info jid
    | KGetOwn cf => wr_info (c_jid cf)
    | KSetLabel cf label => Wr (k_label (c_jid cf) (c_dev cf)) (Some (j_opt label))
    | KPurgeBackend cf _ => wr_info (c_jid cf) /\ wr_own cf
    | KPurgeJid jid => wr_purge jid
    | KRotation _ _ _ | KChain _ _ _ | KBefore => True
    | KEnsure cf => wr_dev (c_jid cf)
    | KReplace _ jid _ => wr_info jid
    | KAfter _ => wr_queue
    | KEncrypt _ _ _ _ _ _ => forall j, wr_info j
    | KDecrypt _ m => wr_info (m_jid m) /\ wr_dev (m_jid m) /\ wr_queue
    end.

  Lemma f_call c :
    call_wr c ->
    (forall cf mtd jids pt prio ident, c = KEncrypt cf mtd jids pt prio ident -> forall ds i, ob okres (mtd ds i)) ->
    ob okres (run_call c).
  Proof.
    intros Hc Hm. destruct c; cbn [run_call call_ret call_wr] in *.
    - by apply f_create.
    - by apply f_ikp.
    - by apply f_update.
    - by apply f_refresh.
    - by apply f_refresh_all.
    - by apply f_set_trust.
    - by apply f_get_info.
    - by apply f_get_own.
    - by apply f_label.
    - destruct Hc. by apply f_purge_backend.
    - by apply f_purge_jid.
    - apply f_rotation.
    - by apply f_ensure.
    - by apply f_replace.
    - apply f_chain.
    - unfold before_history_sync. by split.
    - by apply f_after.
    - apply f_encrypt; [done|]. by eapply Hm.
    - destruct Hc as (?&?&?). by apply f_decrypt.
  Qed.

  (** Application code writes what its calls write. Its own exceptions are its own business. *)
  Lemma app_obeys (ok : call -> Prop) {A} (p : api A) :
    ~ T -> (forall c, ok c -> call_wr c) -> appcode ok p -> ob okres p.
  Proof.
    intros HT Hok H. assert (forall e, okexn e) as Hany by (intros e _ ?; done).
    induction H as [A a|A e|A B p f Hp IHp Hf IHf|A p Hp IHp|c Hc|c Hc Hm IHm].
    - done.
    - apply Hany.
    - apply obeys_bind. eapply obeys_conseq; [exact IHp|]. intros [a|e] ?; [apply IHf|done].
    - apply obeys_try. eapply obeys_conseq; [exact IHp|]. done.
    - split; [by destruct c|]. done.
    - apply f_call; auto.
  Qed.
End frame.
