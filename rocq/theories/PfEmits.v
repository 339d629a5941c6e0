(** Which observable calls each function of the library makes, and the resulting state change. *)
From Verif Require Import Api Spec PfWp.
Open Scope prog_scope.
Open Scope list_scope.

(** ** Programs that emit only events in [P] and leave the instance attributes alone *)
Definition Eany (c : cmd) (r : resp c) : Prop := exists w, w_allowed w c r.
Definition Fev (P : event -> Prop) (c : cmd) : Prop :=
  match c with
  | PLoaded _ | PSync _ => False
  | c => forall r, Eany c r -> match event_of c r with Some e => P e | None => True end
  end.
Notation emq P Q p := (obeys Eany (Fev P) Q p).
Notation em P p := (obeys Eany (Fev P) (fun _ => True) p).

(** What the storage operations among the events (newest first) do to the storage. *)
Fixpoint replay (evs : list event) (d : gmap string json) : gmap string json :=
  match evs with
  | [] => d
  | EvStore k v (Val _) :: l => <[k := v]> (replay l d)
  | EvDelete k (Val _) :: l => delete k (replay l d)
  | _ :: l => replay l d
  end.

(** [w'] results from [w] by the events [evs]. *)
Definition after (evs : list event) (w : world) : world :=
  World (replay evs (w_disk w)) (w_loaded w) (w_sync w) (evs ++ w_log w).

Lemma after_nil w : after [] w = w.
Proof. by destruct w. Qed.
Lemma replay_app l1 l2 d : replay (l1 ++ l2) d = replay l1 (replay l2 d).
Proof.
  induction l1 as [|e l1 IH]; [done|]. destruct e; simpl; try done; destruct r; by rewrite ?IH.
Qed.
Lemma after_app l1 l2 w : after l1 (after l2 w) = after (l1 ++ l2) w.
Proof. unfold after. simpl. by rewrite replay_app, app_assoc. Qed.
Lemma after_cmd w c r :
  (match c with PLoaded _ | PSync _ => False | _ => True end) ->
  w_apply w c r = after (match event_of c r with Some e => [e] | None => [] end) w.
Proof. intros Hc. destruct w. destruct c; try done; destruct r; done. Qed.

(** keys written by an event *)
Definition ev_key (e : event) : option string :=
  match e with EvStore k _ (Val _) | EvDelete k (Val _) => Some k | _ => None end.
Lemma replay_other evs d k : Forall (fun e => ev_key e <> Some k) evs -> replay evs d !! k = d !! k.
Proof.
  induction 1 as [|e evs He Hevs IH]; [done|].
  destruct e; simpl in *; try done; destruct r; try done;
    [rewrite lookup_insert_ne by congruence|rewrite lookup_delete_ne by congruence]; done.
Qed.

Section em.
  Context (P : event -> Prop).
  Lemma em_bind {A B} (p : api A) (f : A -> api B) : em P p -> (forall a, em P (f a)) -> em P (bind p f).
  Proof. intros Hp Hf. apply obeys_bind. eapply obeys_conseq; [exact Hp|]. by intros [a|e] _; [apply Hf|]. Qed.
  Lemma em_try {A} (p : api A) : em P p -> em P (try_ p).
  Proof. intros Hp. apply obeys_try. eapply obeys_conseq; [exact Hp|]. done. Qed.
  Lemma em_for_each {A} (l : list A) f : (forall x, x ∈ l -> em P (f x)) -> em P (for_each l f).
  Proof. intros Hf. apply obeys_for_each; [|done]. intros x Hx. eapply obeys_conseq; [by apply Hf|]. by intros []. Qed.
  Lemma em_fold {A B} (l : list A) (f : B -> A -> api B) b :
    (forall b x, x ∈ l -> em P (f b x)) -> em P (fold_prog l f b).
  Proof.
    intros Hf. apply obeys_fold_prog with (L := fun _ => True); [done| |done]. intros b' x _ Hx.
    eapply obeys_conseq; [by apply Hf|]. by intros [].
  Qed.
  Lemma em_map {A B} (l : list A) (f : A -> api B) : (forall x, x ∈ l -> em P (f x)) -> em P (map_prog f l).
  Proof.
    intros Hf. apply obeys_map_prog with (L := fun _ => True); [|done]. intros x Hx.
    eapply obeys_conseq; [by apply Hf|]. by intros [].
  Qed.
  Lemma em_filter {A} (l : list A) (f : A -> api bool) : (forall x, x ∈ l -> em P (f x)) -> em P (filter_prog f l).
  Proof.
    intros Hf. apply obeys_filter_prog; [|done]. intros x Hx. eapply obeys_conseq; [by apply Hf|]. by intros [].
  Qed.
  Lemma em_step {A} c (cast : resp c -> outcome A) :
    (match c with PLoaded _ | PSync _ => False | _ => True end) ->
    (forall r, Eany c r -> match event_of c r with Some e => P e | None => True end) ->
    em P (Step c (fun r => of_outcome (cast r))).
  Proof. intros Hc HP. split; [by destruct c|]. intros r _. by destruct (cast r). Qed.
  Lemma em_of_outcome {A} (o : outcome A) : em P (of_outcome o).
  Proof. by destruct o. Qed.
  Lemma em_from_just {A} (o : option A) : em P (from_just o).
  Proof. by destruct o. Qed.
  Lemma em_key_error {A} (o : option A) : em P (of_key_error o).
  Proof. by destruct o. Qed.
  Lemma em_order {A} (l : list A) : em P (order l).
  Proof. split; [|done]. intros r _. done. Qed.
  Lemma em_load {A} (check : json -> outcome A) k : em P (load_checked check k).
  Proof.
    apply em_bind. { split; [done|]. intros r _. by destruct r. }
    intros [v|]; [|done]. by destruct (check v).
  Qed.
  Lemma em_loaded : em P g_loaded. Proof. split; [|done]. intros r _. done. Qed.
  Lemma em_sync : em P g_sync. Proof. split; [|done]. intros r _. done. Qed.
  Lemma em_randbelow n : em P (c_randbelow n). Proof. split; [|done]. intros r _. done. Qed.
  Lemma em_randbytes n : em P (c_randbytes n). Proof. split; [|done]. intros r _. done. Qed.
End em.

Lemma em_mono {A} (P P' : event -> Prop) (Q Q' : outcome A -> Prop) p :
  emq P Q p -> (forall e, P e -> P' e) -> (forall o, Q o -> Q' o) -> emq P' Q' p.
Proof.
  intros Hp HP HQ. eapply obeys_mono; [exact Hp|done| |exact HQ].
  intros c Hc. destruct c; try (exact Hc); intros r Hr; specialize (Hc r Hr); simpl in *; auto.
Qed.
Lemma em_q {A} (P : event -> Prop) (Q : outcome A -> Prop) p : em P p -> (forall o, Q o) -> emq P Q p.
Proof. intros Hp HQ. eapply obeys_conseq; eauto. Qed.

(** The result of such a program. *)
Lemma em_wp {A} (I : world -> Prop) (P : event -> Prop) (Q : outcome A -> Prop) p w (R : outcome A -> world -> Prop) :
  emq P Q p -> (forall evs, Forall P evs -> I (after evs w)) ->
  (forall o evs, Forall P evs -> Q o -> R o (after evs w)) -> wp base I p R w.
Proof.
  intros Hp HI HR.
  assert (forall evs0, Forall P evs0 -> wp base I p R (after evs0 w)) as H; [|by rewrite <- (after_nil w); apply H].
  induction p as [a|e|c k IH]; intros evs0 H0.
  - by apply HR.
  - by apply HR.
  - destruct Hp as [Hc Hk]. apply wp_step. intros r Hr.
    assert (Eany c r) as HE by (by eexists).
    assert (Forall P (match event_of c r with Some e => [e] | None => [] end)) as Hev.
    { destruct c; simpl in Hc; try done; specialize (Hc r HE); simpl in *; auto. }
    assert (w_apply (after evs0 w) c r =
      after ((match event_of c r with Some e => [e] | None => [] end) ++ evs0) w) as Happ.
    { rewrite after_cmd by (by destruct c). apply after_app. }
    rewrite Happ.
    assert (Forall P (match event_of c r with Some e => [e] | None => [] end ++ evs0)) by (by apply Forall_app).
    split; [by apply HI|]. apply IH; auto.
Qed.
Lemma em_exec {A} (P : event -> Prop) (Q : outcome A -> Prop) p w o w' :
  emq P Q p -> exec base p w o w' -> Q o /\ exists evs, Forall P evs /\ w' = after evs w.
Proof.
  intros Hp Hex. eapply (wp_exec base (fun _ => True) p
    (fun o w' => Q o /\ exists evs, Forall P evs /\ w' = after evs w)) in Hex; [exact Hex|].
  eapply em_wp; [exact Hp|done|]. eauto.
Qed.
Lemma em_reach {A} (P : event -> Prop) (Q : outcome A -> Prop) p w w' :
  emq P Q p -> reach base p w w' -> exists evs, Forall P evs /\ w' = after evs w.
Proof.
  intros Hp Hex. eapply (wp_reach base (fun w' => exists evs, Forall P evs /\ w' = after evs w) p
    (fun _ _ => True)) in Hex; [exact Hex| |].
  - eapply em_wp; [exact Hp|eauto|done].
  - exists []. by rewrite after_nil.
Qed.

Ltac unw := unfold b_load_session, b_store_session, b_build_active, b_build_passive, b_enc_plain, b_enc_empty,
    b_enc_key, b_dec_plain, b_dec_key, b_spk_age, b_rotate, b_hide, b_delete, b_del_hidden, b_num_visible, b_generate,
    b_get_bundle, b_purge, b_purge_jid, n_upload_bundle, n_download_bundle, n_delete_bundle, n_upload_dl,
    n_download_dl, n_send, t_eval, t_blind, c_sleep, s_store, s_delete, store_bytes, set_trust, k_same in *.
Ltac em1 :=
  match goal with
  | |- obeys _ _ _ (bind _ _) => apply em_bind; [|intros ?]
  | |- obeys _ _ _ (try_ _) => apply em_try
  | |- obeys _ _ _ (Ret _) => exact I
  | |- obeys _ _ _ (Raise _) => exact I
  | |- obeys _ _ _ (for_each _ _) => apply em_for_each; intros ? ?
  | |- obeys _ _ _ (fold_prog _ _ _) => apply em_fold; intros ? ? ?
  | |- obeys _ _ _ (map_prog _ _) => apply em_map; intros ? ?
  | |- obeys _ _ _ (filter_prog _ _) => apply em_filter; intros ? ?
  | |- obeys _ _ _ (order _) => apply em_order
  | |- obeys _ _ _ g_loaded => apply em_loaded
  | |- obeys _ _ _ g_sync => apply em_sync
  | |- obeys _ _ _ (c_randbelow _) => apply em_randbelow
  | |- obeys _ _ _ (c_randbytes _) => apply em_randbytes
  | |- obeys _ _ _ (of_key_error _) => apply em_key_error
  | |- obeys _ _ _ (from_just _) => apply em_from_just
  | |- obeys _ _ _ (of_outcome _) => apply em_of_outcome
  | |- obeys _ _ _ (load_list _ _) => apply em_load
  | |- obeys _ _ _ (load_dict _ _) => apply em_load
  | |- obeys _ _ _ (load_bytes _) => apply em_load
  | |- obeys _ _ _ (load_optional _ _) => apply em_load
  | |- obeys _ _ _ (load_primitive _ _) => apply em_load
  | |- obeys _ _ _ (let '_ := ?b in _) => destruct b
  | |- obeys _ _ _ (match ?b with _ => _ end) => destruct b
  | |- obeys _ _ _ (if ?b then _ else _) => destruct b
  end.
Ltac ev := unw; (split; [intros ? ?; simpl; eauto|intros ? _; first [apply em_of_outcome|exact I|cbn [obeys]]]).
Ltac emt := repeat (cbv zeta; em1).

(** ** Footprints *)
Inductive ev_info (jid : string) : event -> Prop :=
  | ei_ns d l r : ev_info jid (EvStore (k_ns jid d) (j_strs l) r)
  | ei_ik d ik r : ev_info jid (EvStore (k_ik jid d) (JStr (b64enc ik)) r)
  | ei_dl ns d r : ev_info jid (EvDownloadBundle ns jid d r).
Global Hint Constructors ev_info : core.

Lemma em_find_key jid dev l : em (ev_info jid) (find_key jid dev l).
Proof.
  induction l as [|ns l IH]; [done|]. cbn [find_key]. emt; try apply IH; ev.
Qed.
Lemma em_info_rest cf jid dev nss ik : em (ev_info jid) (dev_info_rest cf jid dev nss ik).
Proof. unfold dev_info_rest. emt. ev. Qed.
Lemma em_info_ cf jid : em (ev_info jid) (get_device_information_ cf jid).
Proof.
  unfold get_device_information_. emt. unfold dev_info. emt; auto using em_info_rest, em_find_key.
Qed.
Lemma em_info cf jid : em (ev_info jid) (get_device_information cf jid).
Proof. unfold get_device_information. emt. apply em_info_. Qed.
Lemma em_own cf : em (ev_info (c_jid cf)) (get_own_device_information cf).
Proof. unfold get_own_device_information. emt. apply em_info. Qed.

Inductive ev_upd (cf : cfg) (ns jid : string) : event -> Prop :=
  | eu_ns d l r : ev_upd cf ns jid (EvStore (k_ns jid d) (j_strs l) r)
  | eu_active d l r : ev_upd cf ns jid (EvStore (k_active jid d) (j_bools l) r)
  | eu_label d l r : ev_upd cf ns jid (EvStore (k_label jid d) (j_opt l) r)
  | eu_list l r : ev_upd cf ns jid (EvStore (k_list jid) (j_ints l) r)
  | eu_up dl r : jid = c_jid cf -> dmem (c_dev cf) dl = true -> ev_upd cf ns jid (EvUploadDL ns dl r).
Global Hint Constructors ev_upd : core.

Lemma dget_dset {V} (k k' : Z) (v : V) d : dget k (dset k' v d) = if decide (k = k') then Some v else dget k d.
Proof.
  induction d as [|[k0 v0] d IH]; simpl; [done|]. destruct (decide (k' = k0)) as [->|]; simpl.
  - by destruct (decide (k = k0)).
  - rewrite IH. destruct (decide (k = k0)) as [->|]; [|done]. by rewrite decide_False.
Qed.

Lemma em_update cf ns jid dl : em (ev_upd cf ns jid) (update_device_list cf ns jid dl).
Proof.
  unfold update_device_list. emt; try by ev.
  - unfold upd_own. emt. ev. constructor; [done|]. unfold dmem. rewrite dget_dset, decide_True by done.
    apply bool_decide_eq_true. by eexists.
  - unfold upd_new. emt; ev.
  - unfold upd_old. emt; ev.
Qed.

Inductive ev_refresh (cf : cfg) (ns jid : string) : event -> Prop :=
  | er_upd e : ev_upd cf ns jid e -> ev_refresh cf ns jid e
  | er_down r : ev_refresh cf ns jid (EvDownloadDL ns jid r).
Global Hint Constructors ev_refresh : core.
Lemma em_refresh cf ns jid : em (ev_refresh cf ns jid) (refresh_device_list cf ns jid).
Proof. unfold refresh_device_list. emt; [ev|]. eapply em_mono; [apply em_update|auto|auto]. Qed.
Lemma em_refresh_all cf jid : em (fun e => exists ns, ev_refresh cf ns jid e) (refresh_device_lists cf jid).
Proof. unfold refresh_device_lists. emt. eapply em_mono; [apply em_refresh|eauto|auto]. Qed.
