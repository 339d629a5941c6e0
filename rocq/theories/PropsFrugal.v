(** Theorem C98: bundles and device lists are not downloaded needlessly. *)
From Verif Require Import Api Spec Alone Env Frugal PfFrugal PfFrugal2 PropsDevices PropsTrust PropsEncrypt PropsDecrypt PropsSync PropsProv PropsTalk.
Open Scope prog_scope. Open Scope string_scope. Open Scope list_scope.

(** ** C98 *)
(** Once the identity key of a device is recorded, its bundle is downloaded for a namespace only after a session for
    that namespace was looked up and not found, whatever coroutines do. Exempt are replace_sessions for the device,
    which replaces existing sessions, and ensure_data_consistency, which compares the own bundle. *)
Theorem C98_sessions j x ik (ok : call -> Prop) (ps : list (api unit)) w ps' w' :
  keyed (w_disk w) j x ik -> (forall c, ok c -> keeps_key (w_disk w) j c /\ ~ wants_bundle c j x) ->
  Forall (fun p => libcode ok p) ps -> preach base (ps, w) (ps', w') ->
  exists new, w_log w' = new ++ w_log w /\ missing_first j x new.
Proof. exact (frugal_enc j x ik ok ps w ps' w'). Qed.
Print Assumptions C98_sessions.
(** Calls other than encrypt do not download it at all. *)
Theorem C98_lookups j x ik (ok : call -> Prop) (ps : list (api unit)) w ps' w' :
  keyed (w_disk w) j x ik -> (forall c, ok c -> keeps_key (w_disk w) j c /\ ~ wants_bundle c j x /\ ~ is_encrypt c) ->
  Forall (fun p => libcode ok p) ps -> preach base (ps, w) (ps', w') ->
  exists new, w_log w' = new ++ w_log w /\ no_bundles j x new.
Proof. exact (frugal_no_enc j x ik ok ps w ps' w'). Qed.
Print Assumptions C98_lookups.
(** decrypt asks for the device list only if the sending device is not known. *)
Theorem C98_sender cf m ik w w' :
  known (w_disk w) (m_jid m) (m_dev m) -> keyed (w_disk w) (m_jid m) (m_dev m) ik -> reach base (decrypt cf m) w w' ->
  exists new, w_log w' = new ++ w_log w /\ Forall no_list new.
Proof. exact (sender_known cf m ik w w'). Qed.
Print Assumptions C98_sender.
(** encrypt does not ask again for a bundle it received, whatever other coroutines do. The decision callback
    downloads nothing. *)
Theorem C98_not_again (P : world -> forall c, resp c -> Prop) cf mtd jids pt prio ident evs :
  (forall w c r, P w c r -> distinct_backends w c r /\ downloads_named w c r) ->
  (forall ds i l l', reach (alone P) (mtd ds i) l l' -> exists new, l' = new ++ l /\ Forall no_download new) ->
  reach (alone P) (encrypt cf mtd jids pt prio ident) [] evs -> not_again evs.
Proof. intros HP Hm. exact (encrypt_once P HP cf mtd Hm jids pt prio ident evs). Qed.
Print Assumptions C98_not_again.

(** A message is encrypted for "you" and one of theirs is decrypted. Device 5 has a session and its bundle is not
    downloaded; those of devices 6 and 7 are. A message of an unknown device makes decrypt ask for the list. *)
Definition ex_frugal_calls : list call := [KEncrypt cf0 ignore ["you"] ex_pt None None; KDecrypt cf0 (ex_msg 5 ex_hi None); KGetInfo cf0 "you"].
Definition ex_frugal : list (api unit) := map (fun c => run_call c ;;; Ret tt) ex_frugal_calls.
Definition ex_frugal_end := run_sched base awaited env_n (concat (replicate 60 [0; 1; 2])%nat) (ex_frugal, ex_w_ses, None).
Lemma env_n_allowed w c : allowed base w c (env_n w c).
Proof. exact (proj1 (env_named w c)). Qed.
Definition fetched (e : event) : option (string * string * Z) := match e with EvDownloadBundle n j x _ => Some (n, j, x) | _ => None end.
Definition listed (e : event) : option string := match e with EvDownloadDL _ j _ => Some j | _ => None end.
Example C98_example :
  keyed (w_disk ex_w_ses) "you" 5 "same" /\ keyed (w_disk ex_w_ses) "you" 6 "same" /\ known (w_disk ex_w_ses) "you" 5 /\
  (forall c x, c ∈ ex_frugal_calls -> keeps_key (w_disk ex_w_ses) "you" c /\ ~ wants_bundle c "you" x) /\
  Forall (fun p => libcode (fun c => c ∈ ex_frugal_calls) p) ex_frugal /\ preach base (ex_frugal, ex_w_ses) ex_frugal_end.1 /\
  ex_frugal_end.1.1 = [Ret tt; Ret tt; Ret tt] /\ omap fetched (w_log ex_frugal_end.1.2) = [("n", "you", 7%Z); ("n", "you", 6%Z)] /\
  omap listed (w_log (run base env_n (decrypt cf0 (ex_msg 99 ex_hi None)) ex_w_ses).2) = ["you"].
Proof.
  assert (preach base (ex_frugal, ex_w_ses) ex_frugal_end.1) as H.
  { unfold ex_frugal_end. generalize (concat (replicate 60 [0; 1; 2])%nat). intros t.
    exact (areach_preach _ _ _ _ (run_sched_areach base awaited env_n t (ex_frugal, ex_w_ses, None) env_n_allowed)). }
  split; [exists (b64enc "same"); split; vm_compute; reflexivity|]. split; [exists (b64enc "same"); split; vm_compute; reflexivity|].
  split. { exists [5; 6; 7]%Z. split; [|left]. eexists. split; [vm_compute; reflexivity|exact (PfWp.is_ints [5; 6; 7]%Z)]. }
  split. { intros c x Hc. repeat (apply elem_of_cons in Hc as [->|Hc]; [by split; [|intros []]|]). by apply elem_of_nil in Hc. }
  split.
  { unfold ex_frugal. apply Forall_map, Forall_forall. intros c Hc. apply app_bind; [|intros; constructor].
    apply (app_call _ _ c); [exact Hc|]. intros cf mtd jids pt prio ident ->. intros ds i.
    assert (mtd = ignore) as ->; [|constructor].
    repeat (apply elem_of_cons in Hc as [E|Hc]; [first [discriminate E|injection E; congruence]|]). by apply elem_of_nil in Hc. }
  split; [exact H|]. clear H. split; [vm_compute; reflexivity|]. split; [vm_compute; reflexivity|]. vm_compute; reflexivity.
Qed.

(** The key of device 5 is not recorded: its bundle is downloaded once, for the key, and used for the session. *)
Definition ex_unkeyed : gmap string json :=
  <[item_key (ITrust "you" "ik:you") := JStr "TRUSTED"]> (delete (item_key (IIdentityKey "you" 5)) ex_w_trust).
Definition ex_again := run (alone ex_P) (env_l ex_unkeyed) (encrypt cf0 ignore ["you"] ex_pt None None) [].
Definition built (e : event) : option Z := match e with EvBuildActive _ _ x _ _ _ => Some x | _ => None end.
Example C98_not_again_example :
  (forall w c r, ex_P w c r -> distinct_backends w c r /\ downloads_named w c r) /\
  (forall ds i l l', reach (alone ex_P) (ignore ds i) l l' -> exists new, l' = new ++ l /\ Forall no_download new) /\
  reach (alone ex_P) (encrypt cf0 ignore ["you"] ex_pt None None) [] ex_again.2 /\
  omap fetched (rev ex_again.2) = [("n", "you", 5%Z); ("n", "you", 6%Z)] /\ omap built (rev ex_again.2) = [5%Z; 6%Z] /\
  ~ not_again [EvDownloadBundle "n" "you" 5 (Exn EBundleNotFound); EvDownloadBundle "n" "you" 5 (Val (Bundle "n" "you" 5 "k" ""))].
Proof.
  split; [by intros w c r [_ [H1 H2]]|]. split; [intros ds i l l' [->|[]]; by exists []|]. split.
  { unfold ex_again. generalize ex_unkeyed. intros d. eapply exec_reach.
    exact (run_exec (alone ex_P) (env_l d) (encrypt cf0 ignore ["you"] ex_pt None None) [] (env_l_allowed d)). }
  split; [vm_compute; reflexivity|]. split; [vm_compute; reflexivity|].
  intros H. apply (H [] "n" "you" 5%Z _ _ eq_refl). eexists. left.
Qed.
