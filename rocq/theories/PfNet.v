(** C60: a traversal of the library tracking which backends are used and for which namespaces something is published. *)
From Verif Require Import Api Spec PfWp PfEmits PfExec.
Open Scope prog_scope.
Open Scope list_scope.

Section net.
  Context (ns0 : string).

  Definition En (c : cmd) (r : resp c) : Prop :=
    match c return resp c -> Prop with
    | GLoaded => fun r => ns0 ∉ r
    | BGetBundle ns _ _ => fun r => match r with Val b => b_ns b = ns | Exn _ => True end
    | _ => fun _ => True
    end r.
  Definition Fn (c : cmd) : Prop :=
    match c with
    | PLoaded l => ns0 ∉ l
    | PSync _ => True
    | c => forall r : resp c, match event_of c r with Some e => offline ns0 e | None => True end
    end.
  Notation ob p := (obeys En Fn (fun _ => True) p).

  Lemma nbind {A B} (p : api A) (f : A -> api B) : ob p -> (forall a, ob (f a)) -> ob (bind p f).
  Proof. intros Hp Hf. apply obeys_bind. eapply obeys_conseq; [exact Hp|]. by intros [a|e] _; [apply Hf|]. Qed.
  Lemma nbindq {A B} (Q : A -> Prop) (p : api A) (f : A -> api B) :
    obeys En Fn (fun o => match o with Val a => Q a | Exn _ => True end) p -> (forall a, Q a -> ob (f a)) -> ob (bind p f).
  Proof. intros Hp Hf. apply obeys_bind. eapply obeys_conseq; [exact Hp|]. by intros [a|e] ?; [apply Hf|]. Qed.
  Lemma ntry {A} (p : api A) : ob p -> ob (try_ p).
  Proof. intros Hp. apply obeys_try. by eapply obeys_conseq. Qed.
  Lemma nfor {A} (l : list A) f : (forall x, x ∈ l -> ob (f x)) -> ob (for_each l f).
  Proof. intros Hf. apply obeys_for_each; [|done]. intros x Hx. eapply obeys_conseq; [by apply Hf|]. by intros []. Qed.
  Lemma nfold {A B} (l : list A) (f : B -> A -> api B) b : (forall b x, x ∈ l -> ob (f b x)) -> ob (fold_prog l f b).
  Proof.
    intros Hf. apply obeys_fold_prog with (L := fun _ => True); [done| |done]. intros b' x _ Hx.
    eapply obeys_conseq; [by apply Hf|]. by intros [].
  Qed.
  Lemma nmap {A B} (l : list A) (f : A -> api B) : (forall x, x ∈ l -> ob (f x)) -> ob (map_prog f l).
  Proof.
    intros Hf. apply obeys_map_prog with (L := fun _ => True); [|done]. intros x Hx.
    eapply obeys_conseq; [by apply Hf|]. by intros [].
  Qed.
  Lemma nfilter {A} (l : list A) (f : A -> api bool) : (forall x, x ∈ l -> ob (f x)) -> ob (filter_prog f l).
  Proof. intros Hf. apply obeys_filter_prog; [|done]. intros x Hx. eapply obeys_conseq; [by apply Hf|]. by intros []. Qed.
  Lemma nload {A} (check : json -> outcome A) k : ob (load_checked check k).
  Proof.
    apply nbind. { split; [done|]. intros r _. by destruct r. }
    intros [v|]; [|done]. by destruct (check v).
  Qed.
  Lemma norder {A} (l : list A) : ob (order l).
  Proof. split; [|done]. done. Qed.
  Lemma nout {A} (o : outcome A) : ob (of_outcome o).
  Proof. by destruct o. Qed.
  Lemma njust {A} (o : option A) : ob (from_just o).
  Proof. by destruct o. Qed.
  Lemma nkey {A} (o : option A) : ob (of_key_error o).
  Proof. by destruct o. Qed.
  Lemma nloaded {B} (f : list string -> api B) : (forall l, ns0 ∉ l -> ob (f l)) -> ob (bind g_loaded f).
  Proof. intros H. split; [done|]. intros r Hr. apply H. exact Hr. Qed.
  Lemma nextc {A} c (cast : resp c -> outcome A) :
    (forall r : resp c, match event_of c r with Some e => offline ns0 e | None => True end) ->
    (match c with PLoaded _ => False | _ => True end) ->
    ob (Step c (fun r => of_outcome (cast r))).
  Proof. intros H Hc. split; [by destruct c|]. intros r _. apply nout. Qed.
  (** the local bundle has the right namespace *)
  Lemma nbundle {B} ns j x (f : bundle -> api B) : ns <> ns0 -> (forall b, b_ns b <> ns0 -> ob (f b)) -> ob (bind (b_get_bundle ns j x) f).
  Proof.
    intros Hn H. split; [intros ?; exact Hn|]. intros r Hr. destruct r as [b|e]; [|done]. apply H. simpl in Hr. congruence.
  Qed.

  Ltac n1 :=
    match goal with
    | |- obeys _ _ _ (bind g_loaded _) => apply nloaded; intros ? ?
    | |- obeys _ _ _ (bind (b_get_bundle _ _ _) _) => apply nbundle; [|intros ? ?]
    | |- obeys _ _ _ (bind _ _) => apply nbind; [|intros ?]
    | |- obeys _ _ _ (try_ _) => apply ntry
    | |- obeys _ _ _ (Ret _) => exact I
    | |- obeys _ _ _ (Raise _) => exact I
    | |- obeys _ _ _ (for_each _ _) => apply nfor; intros ? ?
    | |- obeys _ _ _ (fold_prog _ _ _) => apply nfold; intros ? ? ?
    | |- obeys _ _ _ (map_prog _ _) => apply nmap; intros ? ?
    | |- obeys _ _ _ (filter_prog _ _) => apply nfilter; intros ? ?
    | |- obeys _ _ _ (order _) => apply norder
    | |- obeys _ _ _ (of_key_error _) => apply nkey
    | |- obeys _ _ _ (from_just _) => apply njust
    | |- obeys _ _ _ (of_outcome _) => apply nout
    | |- obeys _ _ _ (load_list _ _) => apply nload
    | |- obeys _ _ _ (load_dict _ _) => apply nload
    | |- obeys _ _ _ (load_bytes _) => apply nload
    | |- obeys _ _ _ (load_optional _ _) => apply nload
    | |- obeys _ _ _ (load_primitive _ _) => apply nload
    | |- obeys _ _ _ (let '_ := ?b in _) => destruct b
    | |- obeys _ _ _ (match ?b with _ => _ end) => destruct b eqn:?
    | |- obeys _ _ _ (if ?b then _ else _) => destruct b eqn:?
    end.
  Ltac nx := unw; apply nextc; [intros ?; simpl; try done|done].
  Ltac nt := repeat (cbv zeta; n1); try nx; try assumption.
  Ltac ne := match goal with H : ns0 ∉ ?l, H' : ?x ∈ ?l |- ?x <> ns0 => let E := fresh in intros E; rewrite E in H'; done end.

  Lemma n_find jid dev l : ob (find_key jid dev l).
  Proof. induction l as [|ns l IH]; [done|]. cbn [find_key]. nt; apply IH. Qed.
  Lemma n_info_ cf jid : ob (get_device_information_ cf jid).
  Proof. unfold get_device_information_, dev_info, dev_info_rest. nt; apply n_find. Qed.
  Lemma n_info cf jid : ob (get_device_information cf jid).
  Proof. unfold get_device_information. nt. apply n_info_. Qed.
  Lemma n_own cf : ob (get_own_device_information cf).
  Proof. unfold get_own_device_information. nt. apply n_info. Qed.
  Lemma n_upd cf ns jid dl : ob (update_device_list cf ns jid dl).
  Proof.
    unfold update_device_list, upd_own, upd_new, upd_old. nt.
    ne.
  Qed.
  Lemma n_refresh cf ns jid : ob (refresh_device_list cf ns jid).
  Proof. unfold refresh_device_list. nt. apply n_upd. Qed.
  Lemma n_send_empty cf ns s : ns <> ns0 -> ob (send_empty_message cf ns s).
  Proof. intros Hn. unfold send_empty_message. nt. Qed.
  Lemma n_rot_up cf fuel rd ns : ns <> ns0 -> ob (rotate_upload cf fuel rd ns).
  Proof. intros Hn. revert rd. induction fuel as [|fuel IH]; intros rd; cbn [rotate_upload]; nt; apply IH. Qed.
  Lemma n_rotation cf fuel period : ob (rotation cf fuel period).
  Proof.
    induction fuel as [|fuel IH]; cbn [rotation]; [done|]. unfold rotate_one. nt; try ne.
    apply n_rot_up. ne.
  Qed.
  Lemma n_prekeys cf ns s : ns <> ns0 -> ob (dec_prekeys cf ns s).
  Proof. intros Hn. unfold dec_prekeys. nt. by split. Qed.
  Lemma n_respond cf ns s : ns <> ns0 -> ob (dec_respond cf ns s).
  Proof. intros Hn. unfold dec_respond. nt; [by split|]. by apply n_send_empty. Qed.
  Lemma n_decrypt cf m : ob (decrypt cf m).
  Proof.
    unfold decrypt, dec_sender, dec_existing, dec_kex. nt; try ne; try apply n_info; try apply n_refresh.
    all: try (apply n_prekeys; ne); try (apply n_respond; ne). by split.
  Qed.
  Lemma n_trust cf mtd ident ds : (forall ds i, ob (mtd ds i)) -> ob (enc_trust cf mtd ident ds).
  Proof. intros Hm. unfold enc_trust, devices_with, reload_trust. nt. apply Hm. Qed.
  (** the sessions collected by encrypt belong to loaded backends *)
  Definition ses_ok (st : enc_state) : Prop := Forall (fun x => x.1 <> ns0) (es_sessions st).
  Lemma n_device ns p cache acc d : ns <> ns0 -> ses_ok acc.1 ->
    obeys En Fn (fun o => match o with Val a => ses_ok a.1 | Exn _ => True end) (enc_device ns p cache acc d).
  Proof.
    intros Hn Ha. destruct acc as [st keys]. cbn [fst] in Ha. unfold enc_device.
    apply obeys_bind. unw. split; [by intros ?|]. intros r _. destruct r as [m|e]; [|done]. cbn [of_outcome obeys].
    apply obeys_bind. split; [done|]. intros code _. cbn [obeys]. cbv zeta. apply obeys_bind.
    eapply obeys_conseq; [apply ntry; destruct m; [|apply nbind; [|intros ?]]; nt|].
    intros [o|e] _; [|done]. destruct o as [[s e]|e].
    - cbn [obeys fst es_sessions]. unfold ses_ok. cbn [es_sessions]. apply Forall_app. split; [done|]. by constructor.
    - destruct e; try done; exact Ha.
  Qed.
  Lemma n_backend cf pt cache st ns : ns <> ns0 -> ses_ok st ->
    obeys En Fn (fun o => match o with Val a => ses_ok a | Exn _ => True end) (enc_backend cf pt cache st ns).
  Proof.
    intros Hn Ha. unfold enc_backend. destruct (filter _ _) as [|d ds]; [done|].
    apply obeys_bind. eapply obeys_conseq; [apply nkey|]. intros [b|e] _; [|done].
    apply obeys_bind. eapply obeys_conseq; [nt|]. intros [[c p]|e] _; [|done].
    apply obeys_bind. eapply obeys_conseq; [apply norder|]. intros [l|e] _; [|done].
    apply obeys_bind. apply obeys_fold_prog with (L := fun a => ses_ok a.1); [done| |].
    - intros acc x Hacc _. eapply obeys_conseq; [by apply n_device|]. by intros [].
    - intros [st' keys] H. exact H.
  Qed.
  Lemma n_encrypt cf mtd jids pt prio ident : (forall ds i, ob (mtd ds i)) -> ob (encrypt cf mtd jids pt prio ident).
  Proof.
    intros Hm. unfold encrypt. n1. n1; [nt|]. cbv zeta. n1; [nt|]. n1; [nt; apply n_info_|]. n1; [nt|]. cbv zeta. n1; [nt|]. cbv zeta.
    n1; [by apply n_trust|]. n1. apply nbindq with (Q := ses_ok).
    - apply obeys_fold_prog with (L := ses_ok); [constructor| |done].
      intros st x Hst Hx. eapply obeys_conseq; [apply n_backend; [ne|done]|]. by intros [].
    - intros st Hst. n1; [|done]. apply nbindq with (Q := fun l => Forall (fun x => x.1 <> ns0) l).
      + split; [done|]. intros code _. cbn [obeys]. unfold ses_ok in Hst. rewrite reorder_perm. exact Hst.
      + intros sl Hsl. n1; [|done]. apply nfor. intros x Hx. rewrite Forall_forall in Hsl. specialize (Hsl x Hx). nx.
  Qed.
  Lemma n_replace cf jid dev : ob (replace_sessions cf jid dev).
  Proof. unfold replace_sessions, replace_one. nt; try ne. apply n_info. Qed.
  Lemma n_chain jid dev nss : ob (get_sending_chain_length jid dev nss).
  Proof. unfold get_sending_chain_length. nt; ne. Qed.
  Lemma n_after cf : ob (after_history_sync cf).
  Proof.
    unfold after_history_sync, flush_ns, flush_jid, flush_dev. apply nbind; [by split|]. intros _. nt; try ne.
    apply n_send_empty. ne.
  Qed.
  Lemma n_ensure cf : ob (ensure_data_consistency cf).
  Proof. unfold ensure_data_consistency. nt; try ne. apply n_refresh. Qed.
  Lemma n_purge cf ns : ns <> ns0 -> ob (purge_backend cf ns).
  Proof.
    intros Hn. unfold purge_backend. n1; [nt|]. n1; [nt|]. n1; [apply n_own|]. cbv zeta. n1; [nt|]. n1; [nt|]. n1; [nt|]. n1; [nt|].
    n1. n1. n1; [|nt]. split; [|done]. simpl. intros [_ Hc]%elem_of_list_filter. done.
  Qed.
  Lemma n_purge_jid jid : ob (purge_bare_jid jid).
  Proof. unfold purge_bare_jid, collect_key. nt. ne. Qed.
  Lemma n_label cf lab : ob (set_own_label cf lab).
  Proof. unfold set_own_label. nt. ne. Qed.
  Lemma n_ikp : ob ikp_get.
  Proof. unfold ikp_get, ikp_generate. nt; by split. Qed.

  Notation keeps_offline := (keeps_offline ns0).

  Lemma n_call c : keeps_offline c ->
    (forall cf mtd jids pt prio ident, c = KEncrypt cf mtd jids pt prio ident -> forall ds i, ob (mtd ds i)) ->
    ob (run_call c).
  Proof.
    intros Hc Hm. destruct c; cbn [run_call call_ret Spec.keeps_offline] in *; try done.
    - apply n_ikp.
    - apply n_upd.
    - apply n_refresh.
    - unfold refresh_device_lists. nt. apply n_refresh.
    - unfold set_trust. nt.
    - apply n_info.
    - apply n_own.
    - apply n_label.
    - by apply n_purge.
    - apply n_purge_jid.
    - apply n_rotation.
    - apply n_ensure.
    - apply n_replace.
    - apply n_chain.
    - apply n_after.
    - apply n_encrypt. by eapply Hm.
    - apply n_decrypt.
  Qed.
  Lemma n_code (ok : call -> Prop) {A} (p : api A) : (forall c, ok c -> keeps_offline c) -> libcode ok p -> ob p.
  Proof.
    intros Hok H. induction H as [A a|A e|A B p f Hp IHp Hf IHf|A p Hp IHp|c Hc|c Hc Hm IHm].
    - done.
    - done.
    - by apply nbind.
    - by apply ntry.
    - split; [|done]. destruct c; try done; intros r; try done.
    - apply n_call; auto.
  Qed.

  Definition off_inv (w0 w : world) : Prop := ns0 ∉ w_loaded w /\ grew (offline ns0) w0 w.
  Lemma n_step w0 w c r :
    off_inv w0 w -> Fn c -> allowed (with_contract bundles_named) w c r -> En c r /\ off_inv w0 (w_apply w c r).
  Proof.
    intros [H1 H2] HF [Hr Hb]. split.
    - destruct c; try done. simpl in *. by subst.
    - split.
      + destruct c; try done; destruct r; done.
      + eapply grew_trans; [exact H2|]. apply grew_ext. destruct c; try done; by apply HF.
  Qed.
  Lemma offline_stays (ok : call -> Prop) ps w cfg' :
    (forall c, ok c -> keeps_offline c) -> Forall (fun p => libcode ok p) ps -> ns0 ∉ w_loaded w ->
    preach (with_contract bundles_named) (ps, w) cfg' -> off_inv w cfg'.2.
  Proof.
    intros Hok Hps Hns H. eapply (psafe_preach _ (off_inv w)) in H; [by apply H| |].
    - split; [done|apply grew_refl].
    - eapply Forall_impl; [exact Hps|]. intros p Hp. eapply obeys_psafe; [|eapply n_code; [exact Hok|exact Hp]].
      intros w1 c r. apply n_step.
  Qed.
End net.
