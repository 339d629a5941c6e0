(** Properties of Blind Trust Before Verification, examples/btbv_session_manager.py. *)
From Verif Require Import Api Spec Alone Btbv Env PfExec PfBtbv PropsDevices PropsTrust.
Open Scope prog_scope.
Open Scope string_scope.
Open Scope list_scope.

(** ** C69 *)
Theorem C69_levels d :
  (btbv_eval d = Val Trusted <-> dv_trust d = "TRUSTED" \/ dv_trust d = "BLINDLY_TRUSTED") /\
  (btbv_eval d = Val Undecided <-> dv_trust d = "UNDECIDED") /\
  (btbv_eval d = Val Distrusted <-> dv_trust d = "DISTRUSTED") /\
  (btbv_eval d = Exn EUnknownTrustLevel <-> dv_trust d ∉ ["TRUSTED"; "BLINDLY_TRUSTED"; "UNDECIDED"; "DISTRUSTED"]).
Proof. exact (btbv_levels d). Qed.
Print Assumptions C69_levels.
Example C69_example :
  map (fun s => btbv_eval (Device ["n"] [("n", true)] "you" 5 "ik" s None)) ["TRUSTED"; "BLINDLY_TRUSTED"; "UNDECIDED"; "DISTRUSTED"; "trusted"; ""] =
    [Val Trusted; Val Trusted; Val Undecided; Val Distrusted; Exn EUnknownTrustLevel; Exn EUnknownTrustLevel].
Proof. vm_compute. reflexivity. Qed.

(** ** C70 *)
(** In every run, with any concurrent activity: no trust level is set before all accounts were looked up. Then a trust level
    is set only for an account whose looked up devices all have levels of blind trust, and the prompt is called with exactly
    the devices of the accounts with a device that was decided manually. *)
Theorem C70_accounts (P : world -> forall c, resp c -> Prop) cf prompt und ident evs :
  reach (alone P) (btbv_mtd cf prompt und ident) [] evs ->
  (Forall (btbv_ev und ident) evs /\ forall e j, e ∈ evs -> ~ sets_trust j e) \/
  exists looks l own, looked_up (alone P) cf looks [] l /\ map fst looks ≡ₚ pyset (map dv_jid und) /\ l `suffix_of` own /\ Forall (btbv_ev und ident) own /\
    (forall j e, e ∈ own -> sets_trust j e -> exists ds, (j, ds) ∈ looks /\ forall d, d ∈ ds -> blind_level (dv_trust d)) /\
    (evs = own \/ exists man, man <> [] /\ reach (alone P) (prompt man ident) own evs /\
       forall d, d ∈ man <-> d ∈ und /\ exists ds d', (dv_jid d, ds) ∈ looks /\ d' ∈ ds /\ manual_level (dv_trust d')).
Proof. exact (btbv_reach P cf prompt und ident evs). Qed.
Print Assumptions C70_accounts.
(** In terms of the storage, if no other call runs: a device of account [j] is on the device list, its key recorded and
    decided manually. Then at every point before the prompt is called all trust levels of [j] are as they were, and the
    prompt gets all undecided devices of [j]. *)
Theorem C70_storage cf prompt und ident w w' j x ik level :
  reach base (btbv_mtd cf prompt und ident) w w' ->
  known (w_disk w) j x -> keyed (w_disk w) j x ik -> trusted_as (w_disk w) j ik level -> level = "TRUSTED" \/ level = "DISTRUSTED" ->
  exists w1, (forall ik', w_disk w1 !! item_key (ITrust j ik') = w_disk w !! item_key (ITrust j ik')) /\
    (w' = w1 \/ exists man, reach base (prompt man ident) w1 w' /\ forall d, d ∈ und -> dv_jid d = j -> d ∈ man).
Proof. intros H H1 H2 H3 H4. exact (btbv_storage cf prompt und ident w w' j x ik level H (conj H1 (conj H2 H3)) H4). Qed.
Print Assumptions C70_storage.
Theorem C70_prompted cf prompt und ident w w' j x ik level d :
  exec base (btbv_mtd cf prompt und ident) w (Val tt) w' ->
  known (w_disk w) j x -> keyed (w_disk w) j x ik -> trusted_as (w_disk w) j ik level -> level = "TRUSTED" \/ level = "DISTRUSTED" ->
  d ∈ und -> dv_jid d = j -> exists w1 man, exec base (prompt man ident) w1 (Val tt) w' /\ d ∈ man.
Proof. intros H H1 H2 H3 H4. exact (btbv_prompted cf prompt und ident w w' j x ik level d H (conj H1 (conj H2 H3)) H4). Qed.
Print Assumptions C70_prompted.
(** Devices 5, 6 (one key) and 7 of "you"; the key of 7 was distrusted manually. Device 8 of "her" is new. The prompt records
    the ids of the devices it is called with. *)
Definition cf_b : cfg := Cfg "me" 1 "UNDECIDED" 50.
Definition ex_prompt (ds : list device) (_ : option string) : api unit := for_each ds (fun d => c_sleep (dv_id d)).
Definition ex_w_btbv : world :=
  World (w_disk (run base env (update_device_list cf_b "n" "her" [(8%Z, None)] ;;; set_trust "you" "other" "DISTRUSTED") ex_w_keys).2) ["n"] false [].
Definition ex_und : list device :=
  match (run base env (a <- get_device_information cf_b "you" ;; b <- get_device_information cf_b "her" ;; Ret (a ++ b)) ex_w_btbv).1 with Val l => filter (fun d => dv_trust d = "UNDECIDED") l | _ => [] end.
Definition btbv_shown (l : list event) : list (string + Z + list Z) :=
  omap (fun e => match e with EvStore k _ _ => Some (inl (inl k)) | EvSleep z _ => Some (inl (inr z)) | EvBlind ds _ _ => Some (inr (map dv_id ds)) | _ => None end) (rev l).
Example C70_example :
  let r := run base env (btbv_mtd cf_b ex_prompt ex_und None) ex_w_btbv in
  map dv_id ex_und = [5%Z; 6%Z; 8%Z] /\ r.1 = Val tt /\
  btbv_shown (w_log r.2) = [inl (inl (item_key (IIdentityKey "her" 8))); inl (inl (item_key (ITrust "her" "ik:her"))); inr [8%Z]; inl (inr 5%Z); inl (inr 6%Z)] /\
  w_disk ex_w_btbv !! item_key (ITrust "you" "other") = Some (JStr "DISTRUSTED").
Proof. vm_compute. repeat split. Qed.

(** ** C71 *)
(** In every run, with any concurrent activity: until it calls the prompt, the decision only looks up devices, stores
    BLINDLY_TRUSTED for keys of devices it was asked about and announces such devices; the prompt is only called with such
    devices. *)
Theorem C71_only_blindly (P : world -> forall c, resp c -> Prop) cf prompt und ident evs :
  reach (alone P) (btbv_mtd cf prompt und ident) [] evs ->
  exists own, Forall (btbv_ev und ident) own /\
    (evs = own \/ exists man, man <> [] /\ (forall d, d ∈ man -> d ∈ und) /\ reach (alone P) (prompt man ident) own evs).
Proof.
  intros [[H _]|(looks & l & own & _ & _ & _ & H & _ & [->|(man & H1 & H2 & H3)])]%btbv_reach.
  - exists evs. auto.
  - exists own. auto.
  - exists own. split; [done|]. right. exists man. split; [done|]. split; [|done]. intros d Hd. by apply H3.
Qed.
Print Assumptions C71_only_blindly.
(** Everything else is left alone: a trust level that was stored is the same or BLINDLY_TRUSTED afterwards, and it only
    changes for a device asked about. Here the prompt does nothing. *)
Theorem C71_storage cf und ident w w' j ik :
  reach base (btbv_mtd cf (fun _ _ => Ret tt) und ident) w w' ->
  w_disk w' !! item_key (ITrust j ik) = w_disk w !! item_key (ITrust j ik) \/
  (w_disk w' !! item_key (ITrust j ik) = Some (JStr "BLINDLY_TRUSTED") /\ exists d, d ∈ und /\ dv_jid d = j /\ dv_ik d = ik).
Proof. exact (btbv_level cf und ident w w' j ik). Qed.
Print Assumptions C71_storage.
Example C71_example :
  let r := run base env (btbv_mtd cf_b (fun _ _ => Ret tt) ex_und None) ex_w_btbv in
  w_disk r.2 !! item_key (ITrust "her" "ik:her") = Some (JStr "BLINDLY_TRUSTED") /\ w_disk r.2 !! item_key (ITrust "you" "same") = None.
Proof. vm_compute. split; reflexivity. Qed.
