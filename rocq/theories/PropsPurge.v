(** Theorems C27, C33, C60, C61, C64: purging an account, purging a backend, repairing the published data. *)
From Verif Require Import Api Spec Env PfNet PfPurge PropsDevices PropsTrust.
Open Scope prog_scope.
Open Scope string_scope.
Open Scope list_scope.

(** "you" with devices 5, 6 (same key, trusted) and 7; two backends loaded. *)
Definition ex_w_you : world := World (w_disk ex_trust.2) ["n"; "m"] false [].

(** ** C27 *)
(** Interrupted after the first record was deleted: the device list still names the device, and asking for the
    device information of the account raises NothingException. *)
Theorem C27_usable_after_crash_refuted :
  exists w w1 w2 w3, reach base (purge_bare_jid "you") w w1 /\ restart w1 w2 /\ w_loaded w2 = w_loaded w /\
    (exists ds w', exec base (get_device_information cf0 "you") w (Val ds) w') /\
    exec base (get_device_information cf0 "you") w2 (Exn ENothing) w3.
Proof.
  exists ex_w_you, (run_crash base env 7 (purge_bare_jid "you") ex_w_you).
  exists (World (w_disk (run_crash base env 7 (purge_bare_jid "you") ex_w_you)) ["n"; "m"] false []).
  eexists. split; [apply run_crash_reach, env_allowed|]. split; [reflexivity|]. split; [reflexivity|]. split.
  - pose proof (run_exec base env (get_device_information cf0 "you") ex_w_you env_allowed) as H.
    set (r := run _ _ _ _) in H. assert (exists ds, r.1 = Val ds) as [ds E] by (vm_compute; eauto).
    rewrite E in H. eauto.
  - pose proof (run_exec base env (get_device_information cf0 "you")
      (World (w_disk (run_crash base env 7 (purge_bare_jid "you") ex_w_you)) ["n"; "m"] false []) env_allowed) as H.
    set (r := run _ _ _ _) in H. assert (r.1 = Exn ENothing) as E by (vm_compute; reflexivity).
    rewrite E in H. exact H.
Qed.
Print Assumptions C27_usable_after_crash_refuted.
(** Interrupted after the identity keys were deleted and before the trust levels are: the second call does not
    find the trust level the first one would have deleted. *)
Theorem C27_trust_after_retry_refuted :
  exists w w1 w2 w3 ik, reach base (purge_bare_jid "you") w w1 /\ restart w1 w2 /\
    exec base (purge_bare_jid "you") w2 (Val tt) w3 /\
    purge_item (w_disk w) "you" (ITrust "you" ik) /\ trusted_as (w_disk w3) "you" ik "TRUSTED".
Proof.
  exists ex_w_you, (run_crash base env 14 (purge_bare_jid "you") ex_w_you).
  set (w2 := World (w_disk (run_crash base env 14 (purge_bare_jid "you") ex_w_you)) ["n"; "m"] false []).
  exists w2, (run base env (purge_bare_jid "you") w2).2, "same". split; [apply run_crash_reach, env_allowed|]. split; [reflexivity|]. split.
  - pose proof (run_exec base env (purge_bare_jid "you") w2 env_allowed) as H.
    assert ((run base env (purge_bare_jid "you") w2).1 = Val tt) as E by (vm_compute; reflexivity). rewrite E in H. exact H.
  - split.
    + right. exists 5%Z. split.
      * exists [5; 6; 7]%Z. split; [|left]. exists (j_ints [5; 6; 7]%Z). split; [vm_compute; reflexivity|]. repeat constructor.
      * do 4 right. exists "same". split; [|reflexivity]. exists (b64enc "same"). split; vm_compute; reflexivity.
    + vm_compute; reflexivity.
Qed.
Print Assumptions C27_trust_after_retry_refuted.
(** What does hold: a completed second call leaves neither the list nor a record of any device known before the
    first call, touches nothing else, and, on readable data, raises only what storage or backends raise. *)
Theorem C27_retry_partial jid w w1 w2 w3 :
  reach base (purge_bare_jid jid) w w1 -> restart w1 w2 ->
  exec base (purge_bare_jid jid) w2 (Val tt) w3 ->
  w_disk w3 !! item_key (IDeviceList jid) = None /\
  (forall x, known (w_disk w) jid x -> w_disk w3 !! item_key (INamespaces jid x) = None /\ w_disk w3 !! item_key (IActive jid x) = None /\
     w_disk w3 !! item_key (ILabel jid x) = None /\ w_disk w3 !! item_key (IIdentityKey jid x) = None) /\
  (forall i, ~ purge_item (w_disk w) jid i -> w_disk w3 !! item_key i = w_disk w !! item_key i).
Proof. exact (purge_retry jid w w1 w2 w3). Qed.
Print Assumptions C27_retry_partial.
Theorem C27_retry_succeeds_partial jid w w1 w2 e w3 :
  purgeable (w_disk w) jid -> reach base (purge_bare_jid jid) w w1 -> restart w1 w2 ->
  exec base (purge_bare_jid jid) w2 (Exn e) w3 -> ext_exn e = true.
Proof. exact (purge_retry_exn jid w w1 w2 e w3). Qed.
Print Assumptions C27_retry_succeeds_partial.
(** Storage that fails when a key is deleted. *)
Definition env_nodel (w : world) (c : cmd) : resp c := match c return resp c with SDelete _ => Exn EStorage | c => env w c end.
Lemma env_nodel_allowed w c : w_allowed w c (env_nodel w c).
Proof. destruct c; try apply env_allowed. done. Qed.
Example C27_example :
  let w1 := run_crash base env 9 (purge_bare_jid "you") ex_w_you in
  let w2 := World (w_disk w1) ["n"; "m"] false [] in
  known (w_disk ex_w_you) "you" 6 /\ known (w_disk w2) "you" 6 /\
  w_disk w2 !! item_key (INamespaces "you" 5) = None /\
  (run base env (purge_bare_jid "you") w2).1 = Val tt /\
  map_to_list (w_disk (run base env (purge_bare_jid "you") w2).2) = [] /\
  (run base env_nodel (purge_bare_jid "you") w2).1 = Exn EStorage.
Proof.
  assert (forall d, d !! item_key (IDeviceList "you") = Some (JList [JInt 5; JInt 6; JInt 7]) -> known d "you" 6) as Hk.
  { intros d Hd. eexists [5; 6; 7]%Z. split; [|right; left]. eexists. split; [exact Hd|]. repeat constructor. }
  cbv zeta. split; [apply Hk; vm_compute; reflexivity|]. split; [apply Hk; vm_compute; reflexivity|]. vm_compute. repeat split.
Qed.

(** ** C33 *)
(** A trust level set for a key that no known device has is not deleted, ... *)
Theorem C33_trust_refuted :
  exists w w', exec base (purge_bare_jid "you") w (Val tt) w' /\ trusted_as (w_disk w') "you" "k" "TRUSTED".
Proof.
  set (w := (run base env (set_trust "you" "k" "TRUSTED") w0).2).
  exists w, (run base env (purge_bare_jid "you") w).2. split.
  - pose proof (run_exec base env (purge_bare_jid "you") w env_allowed) as H.
    assert ((run base env (purge_bare_jid "you") w).1 = Val tt) as E by (vm_compute; reflexivity). rewrite E in H. exact H.
  - vm_compute; reflexivity.
Qed.
Print Assumptions C33_trust_refuted.
(** ... and neither is the entry a message received during history synchronization leaves. *)
Definition ex_kex_msg : message := Message "n" "you" 5 (Content false "hi") [(Ekm "me" 1 "k", Some (Kex "same" "r"))].
Theorem C33_queue_refuted :
  exists w0 w r w', exec base (decrypt cf0 ex_kex_msg) w0 (Val r) w /\
    exec base (purge_bare_jid "you") w (Val tt) w' /\
    holds (is_list is_str) (w_disk w') (IQueue "n") ["you"] /\
    holds (is_list is_int) (w_disk w') (IQueueDevices "n" "you") [5%Z].
Proof.
  set (wa := World (w_disk ex_w_you) ["n"; "m"] true []).
  set (wb := (run base env (decrypt cf0 ex_kex_msg) wa).2).
  exists wa, wb. pose proof (run_exec base env (decrypt cf0 ex_kex_msg) wa env_allowed) as H. fold wb in H.
  assert (exists r, (run base env (decrypt cf0 ex_kex_msg) wa).1 = Val r) as [r E] by (vm_compute; eauto). rewrite E in H.
  exists r, (run base env (purge_bare_jid "you") wb).2. split; [exact H|]. split.
  - pose proof (run_exec base env (purge_bare_jid "you") wb env_allowed) as H2.
    assert ((run base env (purge_bare_jid "you") wb).1 = Val tt) as E2 by (vm_compute; reflexivity). rewrite E2 in H2. exact H2.
  - split; [exists (j_strs ["you"])|exists (j_ints [5%Z])]; (split; [vm_compute; reflexivity|]; repeat constructor).
Qed.
Print Assumptions C33_queue_refuted.
(** What does hold: the list, all records of listed devices and the trust levels of their recorded keys are gone,
    nothing else in storage changed, and the loaded backends were told in order. *)
Theorem C33_purge_partial jid w w' :
  exec base (purge_bare_jid jid) w (Val tt) w' ->
  (forall i, purge_item (w_disk w) jid i -> w_disk w' !! item_key i = None) /\
  (forall i, ~ purge_item (w_disk w) jid i -> w_disk w' !! item_key i = w_disk w !! item_key i) /\
  w_loaded w' = w_loaded w /\ w_sync w' = w_sync w /\
  exists evs, Forall is_delete evs /\
    w_log w' = rev (map (fun ns => EvPurgeJid ns jid (Val tt)) (w_loaded w)) ++ evs ++ w_log w.
Proof. exact (purge_jid_exec jid w w'). Qed.
Print Assumptions C33_purge_partial.
Theorem C33_crash_partial jid w w' i :
  reach base (purge_bare_jid jid) w w' ->
  (w_disk w' !! item_key i = w_disk w !! item_key i \/ purge_item (w_disk w) jid i /\ w_disk w' !! item_key i = None) /\
  exists evs, w_log w' = evs ++ w_log w /\
    Forall (fun e => is_delete e \/ exists ns r, ns ∈ w_loaded w /\ e = EvPurgeJid ns jid r) evs.
Proof. exact (purge_jid_crash jid w w' i). Qed.
Print Assumptions C33_crash_partial.
Example C33_example :
  let w1 := (run base env (set_trust "other" "same" "TRUSTED") ex_w_you).2 in
  let r := run base env (purge_bare_jid "you") w1 in
  r.1 = Val tt /\ map_to_list (w_disk r.2) = [(item_key (ITrust "other" "same"), JStr "TRUSTED")] /\
  size (w_disk w1) = 15%nat /\
  take 3 (w_log r.2) = [EvPurgeJid "m" "you" (Val tt); EvPurgeJid "n" "you" (Val tt);
    EvDelete (item_key (ITrust "you" "other")) (Val tt)].
Proof. vm_compute. repeat split. Qed.

(** ** C60 *)
(** The signed pre key is due. *)
Definition env_old (w : world) (c : cmd) : resp c := match c return resp c with BSpkAge _ => Val 9%Z | c => env w c end.
Lemma env_old_allowed w c : w_allowed w c (env_old w c).
Proof. destruct c; try apply env_allowed. done. Qed.
(** The rotation task has fetched the bundle of "n" when the backend is purged; it uploads it after the purge has
    returned and the bundle was deleted. *)
Theorem C60_rotation_refuted :
  exists p1 w1 p2 w2 b l,
    areach base awaited ([purge_backend cf0 "n"; rotation cf0 5 8], ex_w_own, None) ([Ret tt; p1], w1, None) /\
    "n" ∉ w_loaded w1 /\ (exists l', w_log w1 = EvDeleteBundle "n" 1 (Val tt) :: l') /\
    areach base awaited ([Ret tt; p1], w1, None) ([Ret tt; p2], w2, l) /\
    w_log w2 = EvUploadBundle b (Val tt) :: w_log w1 /\ b_ns b = "n" /\ w_loaded w2 = w_loaded w1.
Proof.
  pose (A := (replicate 4 1 ++ replicate 40 0)%nat).
  pose (s := run_sched base awaited env_old A ([purge_backend cf0 "n"; rotation cf0 5 8], ex_w_own, None)).
  pose proof (run_sched_areach base awaited env_old A ([purge_backend cf0 "n"; rotation cf0 5 8], ex_w_own, None) env_old_allowed) as H1.
  pose proof (run_sched_areach base awaited env_old [1]%nat s env_old_allowed) as H2. fold s in H1.
  assert (exists p1, s = ([Ret tt; p1], s.1.2, None)) as [p1 E1] by (vm_compute; eauto).
  set (s2 := run_sched base awaited env_old [1]%nat s) in H2.
  assert (exists p2, s2 = ([Ret tt; p2], s2.1.2, s2.2)) as [p2 E2] by (vm_compute; eauto).
  exists p1, s.1.2, p2, s2.1.2. do 2 eexists. split; [rewrite <- E1; exact H1|].
  split; [vm_compute; intros Hin; by apply elem_of_nil in Hin|].
  split; [eexists; vm_compute; reflexivity|]. split; [rewrite <- E1; rewrite E2 in H2; exact H2|].
  split; [vm_compute; reflexivity|]. split; vm_compute; reflexivity.
Qed.
Print Assumptions C60_rotation_refuted.
(** What does hold: library code that starts after purge_backend(ns) returned, in any number of concurrent
    coroutines, publishes nothing for [ns] and does not use that backend, as long as no session manager is created
    and the same backend is not purged again. Assumed: backends return bundles of their own namespace. *)
Theorem C60_later_code_partial cf ns (ok : call -> Prop) w w1 ps cfg' :
  exec base (purge_backend cf ns) w (Val tt) w1 ->
  (forall c, ok c -> keeps_offline ns c) -> Forall (fun p => libcode ok p) ps ->
  preach (with_contract bundles_named) (ps, w1) cfg' ->
  exists evs, w_log cfg'.2 = evs ++ w_log w1 /\ Forall (offline ns) evs.
Proof. exact (purged_offline cf ns ok w w1 ps cfg'). Qed.
Print Assumptions C60_later_code_partial.
Definition ex_w_two : world := World (w_disk ex_w_own) ["n"; "m"] false [].
Example C60_example :
  let r := run base env_old (purge_backend cf0 "n") ex_w_two in
  r.1 = Val tt /\ libcode (keeps_offline "n") (rotation cf0 2 8) /\
  let r2 := run base env_old (rotation cf0 2 8) r.2 in
  omap (fun e => match e with EvUploadBundle b _ => Some (b_ns b) | _ => None end) (w_log r2.2) = ["m"; "m"] /\
  (forall w c, bundles_named w c (env_old w c)).
Proof.
  cbv zeta. split; [vm_compute; reflexivity|]. split; [apply (app_call _ _ (KRotation cf0 2 8)); done|].
  split; [vm_compute; reflexivity|]. intros w c. by destruct c.
Qed.

(** ** C61 *)
Theorem C61_purge_backend cf ns w w' :
  exec base (purge_backend cf ns) w (Val tt) w' ->
  (forall m, holds (is_dict is_bool) (w_disk w) (IActive (c_jid cf) (c_dev cf)) m -> NoDup (dkeys m)) ->
  (exists dl evs, Forall local_ev evs /\
     w_log w' = EvDeleteBundle ns (c_dev cf) (Val tt) ::
       (if decide (ns ∈ w_loaded w) then [EvPurge ns (Val tt)] else []) ++ evs ++
       (if decide (c_dev cf ∈ dkeys dl) then [EvUploadDL ns (without (c_dev cf) dl) (Val tt)] else []) ++
       EvDownloadDL ns (c_jid cf) (Val dl) :: w_log w) /\
  w_loaded w' = filter (fun n => n <> ns) (w_loaded w) /\ w_sync w' = w_sync w /\
  ~ supports (w_disk w') (c_jid cf) (c_dev cf) ns /\
  (forall b, ~ activity (w_disk w') (c_jid cf) (c_dev cf) ns b) /\
  (forall n, n <> ns ->
     (forall b, activity (w_disk w') (c_jid cf) (c_dev cf) n b <-> activity (w_disk w) (c_jid cf) (c_dev cf) n b) /\
     (supports (w_disk w') (c_jid cf) (c_dev cf) n <->
        supports (w_disk w) (c_jid cf) (c_dev cf) n /\ exists b, activity (w_disk w) (c_jid cf) (c_dev cf) n b)) /\
  (forall i, i <> IActive (c_jid cf) (c_dev cf) -> (forall x, i <> INamespaces (c_jid cf) x) ->
     (forall x, i <> IIdentityKey (c_jid cf) x) -> w_disk w' !! item_key i = w_disk w !! item_key i) /\
  (forall x ik, keyed (w_disk w) (c_jid cf) x ik -> keyed (w_disk w') (c_jid cf) x ik) /\
  (forall x n, supports (w_disk w') (c_jid cf) x n -> supports (w_disk w) (c_jid cf) x n) /\
  (forall m, holds (is_dict is_bool) (w_disk w') (IActive (c_jid cf) (c_dev cf)) m -> NoDup (dkeys m)).
Proof. exact (purge_backend_exec cf ns w w'). Qed.
Print Assumptions C61_purge_backend.
(** Stopped anywhere: nothing but a list without this device was published, and neither the backend was purged nor
    the bundle deleted before that. *)
Theorem C61_crash cf ns w w' :
  reach base (purge_backend cf ns) w w' ->
  exists evs, w_log w' = evs ++ w_log w /\ Forall (purge_ev cf ns) evs /\
    (forall r, EvPurge ns r ∈ evs \/ EvDeleteBundle ns (c_dev cf) r ∈ evs ->
       exists dl, EvDownloadDL ns (c_jid cf) (Val dl) ∈ evs /\
         (c_dev cf ∈ dkeys dl -> EvUploadDL ns (without (c_dev cf) dl) (Val tt) ∈ evs)).
Proof. exact (purge_backend_crash cf ns w w'). Qed.
Print Assumptions C61_crash.
Example C61_example :
  let w := World (<[item_key (IActive "me" 1) := JDict [("n", JBool true); ("m", JBool false)]]>
    (<[item_key (INamespaces "me" 1) := JList [JStr "n"; JStr "m"]]> (w_disk ex_w_own))) ["n"; "m"] false
    [EvUploadDL "n" [(7%Z, None); (1%Z, Some "pc")] (Val tt)] in
  let r := run base env (purge_backend cf0 "n") w in
  r.1 = Val tt /\ w_loaded r.2 = ["m"] /\
  w_disk r.2 !! item_key (INamespaces "me" 1) = Some (JList [JStr "m"]) /\
  w_disk r.2 !! item_key (IActive "me" 1) = Some (JDict [("m", JBool false)]) /\
  EvUploadDL "n" [(7%Z, None)] (Val tt) ∈ w_log r.2 /\ hd_error (w_log r.2) = Some (EvDeleteBundle "n" 1 (Val tt)).
Proof. vm_compute. do 4 (split; [reflexivity|]). split; [|reflexivity]. repeat constructor. Qed.

(** ** C64 *)
Theorem C64_ensure cf w w' :
  exec base (ensure_data_consistency cf) w (Val tt) w' ->
  exists evs, w_log w' = evs ++ w_log w /\ forall ns, ns ∈ w_loaded w ->
    (exists dl, last_list ns (c_jid cf) (w_log w') = Some dl /\ c_dev cf ∈ dkeys dl) /\
    exists b, EvGetBundle ns (c_jid cf) (c_dev cf) (Val b) ∈ evs /\
      (EvDownloadBundle ns (c_jid cf) (c_dev cf) (Val b) ∈ evs \/ EvUploadBundle b (Val tt) ∈ evs).
Proof.
  intros H. destruct (ensure_exec cf w w' H) as (evs & E & R). exists evs. split; [exact E|]. rewrite E. exact R.
Qed.
Print Assumptions C64_ensure.
(** A server whose list lacks the device and whose bundle is outdated. *)
Example C64_example :
  let w := World (w_disk ex_w_own) ["n"] false [EvUploadDL "n" [(7%Z, None)] (Val tt)] in
  let r := run base env (ensure_data_consistency cf0) w in
  r.1 = Val tt /\ last_list "n" "me" (w_log r.2) = Some [(7%Z, None); (1%Z, Some "pc")] /\
  omap (fun e => match e with EvUploadBundle b (Val _) => Some b | _ => None end) (w_log r.2) = [Bundle "n" "me" 1 "own" "local"] /\
  last_list "n" "me" (w_log w) = Some [(7%Z, None)].
Proof. vm_compute. repeat split. Qed.
