(** Theorems C30, C32, C65, C66, C73: trust levels, identity keys, own device and label. *)
From Verif Require Import Api Spec Env PfTrust PropsDevices.
Open Scope prog_scope.
Open Scope string_scope.
Open Scope list_scope.

(** ** C30 *)
Theorem C30_reported jid ik lvl cf (ok : call -> Prop) w w1 w2 w3 ds dv :
  exec base (set_trust jid ik lvl) w (Val tt) w1 ->
  (forall c, ok c -> keeps_trust (w_disk w1) jid ik c) -> hist ok w1 w2 ->
  exec base (get_device_information cf jid) w2 (Val ds) w3 -> dv ∈ ds -> dv_ik dv = ik -> dv_trust dv = lvl.
Proof. exact (set_trust_reported jid ik lvl cf ok w w1 w2 w3 ds dv). Qed.
Print Assumptions C30_reported.
Theorem C30_others_unchanged jid ik lvl w w' i :
  reach base (set_trust jid ik lvl) w w' -> i <> ITrust jid ik -> w_disk w' !! item_key i = w_disk w !! item_key i.
Proof. exact (set_trust_frame jid ik lvl w w' i). Qed.
Print Assumptions C30_others_unchanged.
Theorem C30_level cf j w ds w' dv :
  exec base (get_device_information cf j) w (Val ds) w' -> dv ∈ ds ->
  dv_jid dv = j /\
  match w_disk w !! item_key (ITrust j (dv_ik dv)) with
  | None => dv_trust dv = c_undecided cf
  | Some v => v = JStr (dv_trust dv)
  end.
Proof. exact (info_level cf j w ds w' dv). Qed.
Print Assumptions C30_level.
(** Devices 5 and 6 of "you" have the same key; 7 has another one. *)
Definition ex_w_keys : world := World
  (w_disk (run base env (for_each [5; 6; 7]%Z (fun x =>
     store_bytes (k_ik "you" x) (if decide (x = 7%Z) then "other" else "same"))) (run base env
    (update_device_list cf0 "n" "you" [(5%Z, Some "phone"); (6%Z, None); (7%Z, None)]) w0).2).2) ["n"; "m"] false [].
Definition ex_trust := run base env (set_trust "you" "same" "TRUSTED") ex_w_keys.
Definition levels (o : outcome (list device)) : list (Z * string) :=
  match o with Val ds => map (fun d => (dv_id d, dv_trust d)) ds | Exn _ => [] end.
Example C30_example :
  ex_trust.1 = Val tt /\
  levels (run base env (get_device_information cf0 "you") ex_w_keys).1 = [(5%Z, "U"); (6%Z, "U"); (7%Z, "U")] /\
  levels (run base env (get_device_information cf0 "you") ex_trust.2).1 = [(5%Z, "TRUSTED"); (6%Z, "TRUSTED"); (7%Z, "U")].
Proof. vm_compute. repeat split. Qed.

(** ** C32 *)
Theorem C32_key_pinned cf j x ik (ok : call -> Prop) w w1 ds w2 :
  keyed (w_disk w) j x ik -> (forall c, ok c -> keeps_key (w_disk w) j c) -> hist ok w w1 ->
  exec base (get_device_information cf j) w1 (Val ds) w2 ->
  (forall dv, dv ∈ ds -> dv_id dv = x -> dv_ik dv = ik) /\
  (known (w_disk w1) j x -> exists dv, dv ∈ ds /\ dv_id dv = x /\ dv_ik dv = ik).
Proof. exact (key_pinned cf j x ik ok w w1 ds w2). Qed.
Print Assumptions C32_key_pinned.
(** Whatever is reported is recorded by the time it is reported. *)
Theorem C32_reported_is_recorded cf j w ds w' :
  exec base (get_device_information cf j) w (Val ds) w' ->
  (forall dv, dv ∈ ds -> keyed (w_disk w') j (dv_id dv) (dv_ik dv)) /\
  (forall dv ik, dv ∈ ds -> keyed (w_disk w) j (dv_id dv) ik -> dv_ik dv = ik) /\
  (forall x ik, keyed (w_disk w) j x ik -> known (w_disk w) j x -> exists dv, dv ∈ ds /\ dv_id dv = x).
Proof. exact (info_key cf j w ds w'). Qed.
Print Assumptions C32_reported_is_recorded.

(** A server that serves another key with every download. *)
Fixpoint count_dl (l : list event) : string :=
  match l with [] => "" | EvDownloadBundle _ _ _ _ :: l' => "x" +:+ count_dl l' | _ :: l' => count_dl l' end.
Definition env_keys (w : world) (c : cmd) : resp c :=
  match c return resp c with
  | NDownloadBundle ns j d => Val (Bundle ns j d ("k" +:+ count_dl (w_log w)) "remote")
  | c => env w c
  end.
Lemma env_keys_allowed w c : w_allowed w c (env_keys w c).
Proof. destruct c; try apply env_allowed. done. Qed.
Definition reported (o : outcome (list device)) : list (Z * bytes) :=
  match o with Val ds => map (fun d => (dv_id d, dv_ik d)) ds | Exn _ => [] end.
Example C32_example :
  let w1 := (run base env_keys (update_device_list cf0 "n" "you" [(5%Z, None)]) w0).2 in
  let r1 := run base env_keys (get_device_information cf0 "you") w1 in
  let w2 := (run base env_keys (update_device_list cf0 "n" "you" [(5%Z, None); (6%Z, None)]) r1.2).2 in
  reported r1.1 = [(5%Z, "k")] /\
  reported (run base env_keys (get_device_information cf0 "you") w2).1 = [(5%Z, "k"); (6%Z, "kx")].
Proof. vm_compute. repeat split. Qed.

(** ** C73: at first contact two concurrent calls download two bundles, report two keys for the same device, and the
    second overwrites the first in the storage. [report] is application code that evaluates every device it is told of. *)
Definition report (j : string) : api unit :=
  ds <- get_device_information cf0 j ;; for_each ds (fun d => t_eval d ;;; Ret tt).
Definition ex_w_new : world :=
  World (w_disk (run base env (update_device_list cf0 "n" "you" [(5%Z, None)]) w0).2) ["n"; "m"] false [].
Theorem C73_first_contact_refuted :
  exists w', areach base awaited ([report "you"; report "you"], ex_w_new, None) ([Ret tt; Ret tt], w', None) /\
    exists d1 d2 r1 r2, EvEval d1 r1 ∈ w_log w' /\ EvEval d2 r2 ∈ w_log w' /\
      dv_jid d1 = dv_jid d2 /\ dv_id d1 = dv_id d2 /\ dv_ik d1 <> dv_ik d2 /\
      keyed (w_disk w') (dv_jid d1) (dv_id d1) (dv_ik d2) /\ ~ keyed (w_disk w') (dv_jid d1) (dv_id d1) (dv_ik d1).
Proof.
  pose proof (run_sched_areach base awaited env_keys (replicate 6 0 ++ replicate 6 1 ++ replicate 12 0 ++ replicate 12 1)%nat
    ([report "you"; report "you"], ex_w_new, None) env_keys_allowed) as H.
  set (s := run_sched _ _ _ _ _) in H. assert (s = ([Ret tt; Ret tt], s.1.2, None)) as E by (vm_compute; reflexivity).
  exists s.1.2. split; [rewrite <- E; exact H|]. clear H E.
  assert (exists d1 d2 r1 r2, w_log s.1.2 !! 2%nat = Some (EvEval d1 r1) /\ w_log s.1.2 !! 0%nat = Some (EvEval d2 r2) /\
    dv_jid d1 = dv_jid d2 /\ dv_id d1 = dv_id d2 /\ dv_jid d1 = "you" /\ dv_id d1 = 5%Z /\ dv_ik d1 = "k" /\ dv_ik d2 = "kx")
    as (d1 & d2 & r1 & r2 & H1 & H2 & E1 & E2 & E3 & E4 & E5 & E6).
  { vm_compute. eexists _, _, _, _. repeat split. }
  exists d1, d2, r1, r2. split; [exact (elem_of_list_lookup_2 _ _ _ H1)|]. split; [exact (elem_of_list_lookup_2 _ _ _ H2)|].
  clear H1 H2. split; [exact E1|]. split; [exact E2|]. rewrite E3, E4, E5, E6. split; [discriminate|]. split.
  - exists (b64enc "kx"). split; vm_compute; reflexivity.
  - intros (t & Ht & Hb). assert (Some (JStr t) = Some (JStr (b64enc "kx"))) as E7 by (rewrite <- Ht; vm_compute; reflexivity).
    injection E7 as ->. vm_compute in Hb. discriminate Hb.
Qed.
Print Assumptions C73_first_contact_refuted.
(** What does hold: once the key is recorded, a call among any concurrent application code reports it
    ([info_expect] raises RuntimeError if another key is reported for the device). *)
Theorem C73_recorded_key_partial cf j x ik (ok : call -> Prop) ps w i ps' w' :
  keyed (w_disk w) j x ik -> (forall c, ok c -> keeps_key (w_disk w) j c) ->
  Forall (fun p => appcode ok p) ps -> ps !! i = Some (info_expect cf j x ik) ->
  preach base (ps, w) (ps', w') -> ps' !! i <> Some (Raise ERuntime).
Proof. exact (info_agrees cf j x ik ok ps w i ps' w'). Qed.
Print Assumptions C73_recorded_key_partial.
Example C73_example :
  keyed (w_disk ex_w_keys) "you" 5 "same" /\ (run_sched base awaited env_keys (concat (replicate 40 [0; 1]))%nat
    ([info_expect cf0 "you" 5 "same"; report "you"], ex_w_keys, None)).1.1 = [Ret tt; Ret tt] /\
  (run base env (info_expect cf0 "you" 5 "another") ex_w_keys).1 = Exn ERuntime.
Proof.
  split; [exists (b64enc "same"); split; vm_compute; reflexivity|]. split; vm_compute; reflexivity.
Qed.

(** ** C65: [evs] are the events of the call so far, newest first. *)
Theorem C65_set_own_label cf lab w w' :
  exec base (set_own_label cf lab) w (Val tt) w' ->
  w_disk w' = <[item_key (ILabel (c_jid cf) (c_dev cf)) := j_opt lab]> (w_disk w) /\
  exists dls, Forall2 (fun _ p => relabelled (c_dev cf) lab p.1 p.2) (w_loaded w) dls /\
    w_log w' = rev (concat (zip_with (fun ns p => [EvDownloadDL ns (c_jid cf) (Val p.1); EvUploadDL ns p.2 (Val tt)])
                              (w_loaded w) dls))
      ++ EvStore (item_key (ILabel (c_jid cf) (c_dev cf))) (j_opt lab) (Val tt) :: w_log w.
Proof. intros H. exact (proj2 (label_exec cf lab w w' H)). Qed.
Print Assumptions C65_set_own_label.
Theorem C65_crash cf lab w w' :
  reach base (set_own_label cf lab) w w' ->
  (forall i, i <> ILabel (c_jid cf) (c_dev cf) -> w_disk w' !! item_key i = w_disk w !! item_key i) /\
  exists evs, w_log w' = evs ++ w_log w /\
    forall pre post ns dl' r, evs = pre ++ EvUploadDL ns dl' r :: post ->
      exists dl post', post = EvDownloadDL ns (c_jid cf) (Val dl) :: post' /\ relabelled (c_dev cf) lab dl dl'.
Proof. exact (label_crash cf lab w w'). Qed.
Print Assumptions C65_crash.
Definition ex_w_pub : world := World (w_disk ex_w_own) ["n"] false
  [EvUploadDL "n" [(7%Z, None); (1%Z, Some "pc")] (Val tt)].
Example C65_example :
  let r := run base env (set_own_label cf0 (Some "laptop")) ex_w_pub in
  r.1 = Val tt /\
  w_log r.2 = [EvUploadDL "n" [(7%Z, None); (1%Z, Some "laptop")] (Val tt);
               EvDownloadDL "n" "me" (Val [(7%Z, None); (1%Z, Some "pc")]);
               EvStore (item_key (ILabel "me" 1)) (JStr "laptop") (Val tt)] ++ w_log ex_w_pub.
Proof. vm_compute. repeat split. Qed.

(** ** C66 *)
Theorem C66_own_device_information cf w d others w' :
  exec base (get_own_device_information cf) w (Val (d, others)) w' ->
  exists ds, exec base (get_device_information cf (c_jid cf)) w (Val ds) w' /\ ds ≡ₚ d :: others /\
    dv_jid d = c_jid cf /\ dv_id d = c_dev cf /\ forall d', d' ∈ others -> dv_id d' <> c_dev cf.
Proof. exact (own_split cf w d others w'). Qed.
Print Assumptions C66_own_device_information.
Example C66_example :
  let w := (run base env (update_device_list cf0 "n" "me" [(7%Z, None); (1%Z, None)]) ex_w_own).2 in
  exists d d', (run base env (get_own_device_information cf0) w).1 = Val (d, [d']) /\ dv_id d = 1%Z /\ dv_id d' = 7%Z.
Proof. vm_compute. eexists _, _. repeat split. Qed.
