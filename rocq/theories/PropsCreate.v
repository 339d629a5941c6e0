(** Theorems C15, C17, C18, C19, C20, C82: what create publishes. *)
From Verif Require Import Api Spec Alone Env PfLog PfCreate PfFill PfReconcile PfRepair PropsIdentity.
Open Scope prog_scope.
Open Scope string_scope.
Open Scope list_scope.

(** ** C15 *)
(** Whenever create stores an own device id, at whatever point it is stopped: the id is in range, the device list
    of every given backend was downloaded before, and no device list downloaded before contains it. *)
Theorem C15_fresh_id P fuel a w w' :
  reach base (create P fuel a) w w' ->
  exists evs, w_log w' = evs ++ w_log w /\
  forall post v r pre, evs = post ++ EvStore (item_key IOwnDeviceId) v r :: pre ->
  exists id, v = JInt id /\ (1 <= id <= 2 ^ 31 - 1)%Z /\
    (forall ns, ns ∈ a_backends a -> exists dl, EvDownloadDL ns (a_jid a) (Val dl) ∈ pre) /\
    (forall ns dl, EvDownloadDL ns (a_jid a) (Val dl) ∈ pre -> id ∉ dkeys dl).
Proof.
  intros (evs & E & H & _)%create_traced. exists evs. split; [done|].
  intros post v r pre ->. exact (H _ _ _ eq_refl eq_refl).
Qed.
Print Assumptions C15_fresh_id.
(** Id 1 is taken on the server, and the random number generator returns 0 first. *)
Definition env_taken (w : world) (c : cmd) : resp c :=
  match c return resp c with
  | NDownloadDL ns j => match env_list (w_log w) ns with [] => Val [(1%Z, None)] | l => Val l end
  | CRandBelow n => match w_log w with EvDownloadDL _ _ _ :: _ => 5%Z | _ => 0%Z end
  | c => env w c
  end.
Example C15_example :
  let r := run base env_taken (create ex_prims 9 ex_args) empty_world in
  r.1 = Val (Cfg "me" 6 "U" 50) /\ existsb (fun e => match e with EvDownloadDL "n" _ (Val ((1%Z, _) :: _)) => true | _ => false end) (w_log r.2) = true.
Proof. vm_compute. split; reflexivity. Qed.

(** ** C17 *)
(** Let [id] be the own device id at any point in or after a call to create. Each device list with [id] in it that
    this call tried to upload so far was preceded, in the same call, by a successful upload of the bundle of that
    device for that namespace. *)
Theorem C17_announce_after_publish P fuel a w w' id :
  reach base (create P fuel a) w w' -> holds is_int (w_disk w') IOwnDeviceId id ->
  exists evs, w_log w' = evs ++ w_log w /\
  forall post ns dl r pre, evs = post ++ EvUploadDL ns dl r :: pre -> id ∈ dkeys dl ->
  published (a_jid a) id ns pre.
Proof.
  intros (evs & E & _ & H)%create_traced Hid. exists evs. split; [done|].
  intros post ns dl r pre ->. exact (H id Hid _ _ _ eq_refl).
Qed.
Print Assumptions C17_announce_after_publish.
Example C17_example :
  let w' := (run base env_taken (create ex_prims 9 ex_args) empty_world).2 in
  w_disk w' !! item_key IOwnDeviceId = Some (JInt 6) /\
  map (fun e => match e with EvUploadDL ns dl _ => (ns, dkeys dl) | EvUploadBundle b _ => (b_ns b, [0%Z]) | _ => ("", []) end)
    (List.filter (fun e => match e with EvUploadDL _ _ _ | EvUploadBundle _ _ => true | _ => false end) (w_log w')) =
  [("m", [1; 6]%Z); ("n", [1; 6]%Z); ("m", [0%Z]); ("n", [0%Z])].
Proof. vm_compute. split; reflexivity. Qed.

(** ** C18 *)
(** create on a storage without own device id, returning normally: for each backend, 100 pre keys were generated,
    the bundle was uploaded, and the device list as last seen contains the new device. *)
Theorem C18_first_run_published P fuel a cf w w' :
  exec base (create P fuel a) w (Val cf) w' -> w_disk w !! item_key IOwnDeviceId = None ->
  exists evs, w_log w' = evs ++ w_log w /\ c_jid cf = a_jid a /\
  forall ns, ns ∈ a_backends a ->
    EvGenerate ns 100 (Val tt) ∈ evs /\ published (a_jid a) (c_dev cf) ns evs /\ listed ns (a_jid a) (c_dev cf) w'.
Proof. exact (create_first P fuel a cf w w'). Qed.
Print Assumptions C18_first_run_published.
Example C18_example :
  let r := run base env_taken (create ex_prims 9 ex_args) empty_world in
  r.1 = Val (Cfg "me" 6 "U" 50) /\ w_disk empty_world !! item_key IOwnDeviceId = None /\
  last_list "n" "me" (w_log r.2) = Some [(1%Z, None); (6%Z, Some "phone")].
Proof. vm_compute. repeat split; reflexivity. Qed.

(** ** C19 *)
(** The first call fails because the upload of a bundle fails, after the own device id was stored. The second call
    returns normally although nothing was ever uploaded: no bundle, and no device list. The next refresh of the
    device list then announces a device that has no bundle. *)
Definition env_noupload (w : world) (c : cmd) : resp c :=
  match c return resp c with
  | NUploadBundle _ => Exn EBundleUploadFailed
  | c => env w c
  end.
Lemma env_noupload_allowed w c : w_allowed w c (env_noupload w c).
Proof. destruct c; try apply env_allowed. done. Qed.
Definition fail1 := run base env_noupload (create ex_prims 9 ex_args) empty_world.
Definition fail2 := run base env (create ex_prims 9 ex_args) fail1.2.
Theorem C19_published_after_retry_refuted :
  exists w w1 w2 cf w3,
    exec base (create ex_prims 9 ex_args) w (Exn EBundleUploadFailed) w1 /\
    exec base (create ex_prims 9 ex_args) w1 (Val cf) w2 /\ w_loaded w2 = ["n"; "m"] /\
    (forall b r, EvUploadBundle b r ∈ w_log w2 -> r <> Val tt) /\ (forall ns dl r, EvUploadDL ns dl r ∉ w_log w2) /\
    exec base (refresh_device_list cf "n" (c_jid cf)) w2 (Val tt) w3 /\ listed "n" (c_jid cf) (c_dev cf) w3 /\
    (exists dl, EvUploadDL "n" dl (Val tt) ∈ w_log w3 /\ c_dev cf ∈ dkeys dl) /\
    (forall b r, EvUploadBundle b r ∈ w_log w3 -> r <> Val tt).
Proof.
  exists empty_world, fail1.2, fail2.2, (Cfg "me" 1 "U" 50), (run base env (refresh_device_list (Cfg "me" 1 "U" 50) "n" "me") fail2.2).2.
  pose proof (run_exec base env_noupload (create ex_prims 9 ex_args) empty_world env_noupload_allowed) as H1. fold fail1 in H1.
  assert (fail1.1 = Exn EBundleUploadFailed) as E1 by (vm_compute; reflexivity). rewrite E1 in H1.
  pose proof (run_exec base env (create ex_prims 9 ex_args) fail1.2 env_allowed) as H2. fold fail2 in H2.
  assert (fail2.1 = Val (Cfg "me" 1 "U" 50)) as E2 by (vm_compute; reflexivity). rewrite E2 in H2.
  pose proof (run_exec base env (refresh_device_list (Cfg "me" 1 "U" 50) "n" "me") fail2.2 env_allowed) as H3.
  set (r3 := run _ _ _ _) in H3 |- *.
  assert (r3.1 = Val tt) as E3 by (vm_compute; reflexivity). rewrite E3 in H3.
  assert (forall l : list event, Forall (fun e => match e with EvUploadBundle _ (Val tt) => False | _ => True end) l ->
    forall b r, EvUploadBundle b r ∈ l -> r <> Val tt) as Hb.
  { intros l HF b r Hin ->. by apply (proj1 (Forall_forall _ _) HF) in Hin. }
  split; [exact H1|]. split; [exact H2|]. split; [vm_compute; reflexivity|]. split.
  { apply Hb. vm_compute. repeat constructor. }
  split.
  { intros ns dl r Hin.
    assert (Forall (fun e => match e with EvUploadDL _ _ _ => False | _ => True end) (w_log fail2.2)) as HF by (vm_compute; repeat constructor).
    by apply (proj1 (Forall_forall _ _) HF) in Hin. }
  split; [exact H3|]. split; [|split].
  - eexists. split; [vm_compute; reflexivity|]. vm_compute. left.
  - eexists. split; [|].
    + vm_compute. repeat first [left|right].
    + vm_compute. left.
  - apply Hb. vm_compute. repeat constructor.
Qed.
Print Assumptions C19_published_after_retry_refuted.
(** What does hold: if the first call was stopped or failed before it stored the own device id, a later call that
    returns has published everything. *)
Theorem C19_published_after_retry_partial P fuel a P' fuel' a' w w1 w2 cf w3 :
  reach base (create P fuel a) w w1 -> w_disk w1 !! item_key IOwnDeviceId = None -> restart w1 w2 ->
  exec base (create P' fuel' a') w2 (Val cf) w3 ->
  exists evs, w_log w3 = evs ++ w_log w2 /\
  forall ns, ns ∈ a_backends a' ->
    EvGenerate ns 100 (Val tt) ∈ evs /\ published (a_jid a') (c_dev cf) ns evs /\ listed ns (a_jid a') (c_dev cf) w3.
Proof.
  intros _ Hn Hr H. apply create_first in H as (evs & E & _ & H); [by exists evs|]. by rewrite <- Hn, Hr.
Qed.
Print Assumptions C19_published_after_retry_partial.
Example C19_example :
  let w1 := run_crash base env 12 (create ex_prims 9 ex_args) empty_world in
  w_disk w1 !! item_key IOwnDeviceId = None /\ map_to_list (w_disk w1) <> [] /\
  (run base env (create ex_prims 9 ex_args) w1).1 = Val (Cfg "me" 1 "U" 50).
Proof. vm_compute. split; [reflexivity|]. split; [discriminate|reflexivity]. Qed.
(** The remedy: whatever happened before, once create and then ensure_data_consistency have returned, this device is on
    the device list of every backend and the bundle online is the local one. *)
Theorem C19_repaired_partial P fuel a cf w w1 w2 :
  exec base (create P fuel a) w (Val cf) w1 -> exec base (ensure_data_consistency cf) w1 (Val tt) w2 ->
  exists evs, w_log w2 = evs ++ w_log w1 /\ forall ns, ns ∈ a_backends a ->
    listed ns (a_jid a) (c_dev cf) w2 /\
    exists b, EvGetBundle ns (a_jid a) (c_dev cf) (Val b) ∈ evs /\
      (EvDownloadBundle ns (a_jid a) (c_dev cf) (Val b) ∈ evs \/ EvUploadBundle b (Val tt) ∈ evs).
Proof. exact (create_repaired P fuel a cf w w1 w2). Qed.
Print Assumptions C19_repaired_partial.
(** After the failure of C19_published_after_retry_refuted. *)
Example C19_repaired_example :
  let cf := Cfg "me" 1 "U" 50 in let r := run base env (ensure_data_consistency cf) fail2.2 in
  fail2.1 = Val cf /\ r.1 = Val tt /\ last_list "n" "me" (w_log fail2.2) <> last_list "n" "me" (w_log r.2) /\
  omap (fun e => match e with EvUploadBundle b r => Some (b_ns b, r) | _ => None end) (rev (w_log r.2)) =
    [("n", Exn EBundleUploadFailed); ("n", Val tt); ("m", Val tt)].
Proof. vm_compute. split; [reflexivity|]. split; [reflexivity|]. split; [discriminate|reflexivity]. Qed.

(** ** C20 *)
(** create on a storage with the own device id [dev], whose own record does not list exactly the given backends:
    each added backend got its bundle uploaded and this device is on its device list; each removed backend has
    this device off its list and its bundle deleted; the record lists exactly the given backends, as active. *)
Theorem C20_reconciled P fuel a cf dev w w' :
  exec base (create P fuel a) w (Val cf) w' -> holds is_int (w_disk w) IOwnDeviceId dev ->
  let had := fun n => supports (w_disk w) (a_jid a) dev n /\ exists b, activity (w_disk w) (a_jid a) dev n b in
  ~ (forall n, n ∈ a_backends a <-> had n) ->
  c_jid cf = a_jid a /\ c_dev cf = dev /\ w_loaded w' = a_backends a /\
  exists evs, w_log w' = evs ++ w_log w /\
  (forall n, n ∈ a_backends a -> ~ had n -> published (a_jid a) dev n evs /\ listed n (a_jid a) dev w') /\
  (forall n, n ∉ a_backends a -> had n -> EvDeleteBundle n dev (Val tt) ∈ evs /\ unlisted n (a_jid a) dev w') /\
  (forall n, supports (w_disk w') (a_jid a) dev n <-> n ∈ a_backends a) /\
  (forall n b, activity (w_disk w') (a_jid a) dev n b <-> n ∈ a_backends a /\ b = true).
Proof.
  intros H Ho had Hne. apply (create_again P fuel a cf w w' dev) in H as (-> & evs & E & L & [H|(H1 & H2 & H3 & H4)]); [done| |done].
  split; [done|]. split; [done|]. split; [done|]. exists evs. split; [done|]. split; [done|]. split; [|done].
  intros n Hn [Hs Ha]. by apply H2.
Qed.
Print Assumptions C20_reconciled.
Example C20_example :
  let w := (run base env (create ex_prims 9 ex_args) empty_world).2 in
  let r := run base env (create ex_prims 9 (CreateArgs ["x"; "m"] "me" None "U" 50)) w in
  r.1 = Val (Cfg "me" 1 "U" 50) /\
  w_disk w !! item_key IOwnDeviceId = Some (JInt 1) /\
  w_disk w !! item_key (INamespaces "me" 1) = Some (JList [JStr "n"; JStr "m"]) /\
  w_disk r.2 !! item_key (INamespaces "me" 1) = Some (JList [JStr "x"; JStr "m"]) /\
  last_list "n" "me" (w_log r.2) = Some [] /\ last_list "x" "me" (w_log r.2) = Some [(1%Z, Some "phone")].
Proof. vm_compute. repeat split; reflexivity. Qed.

(** ** C82 *)
(** Whenever create uploads a bundle, at whatever point it is stopped: the bundle was fetched right before from one of
    the given backends, for the own account, and what [refilled] says had been done about its pre keys by then. *)
Theorem C82_bundles_filled P fuel a w w' :
  reach base (create P fuel a) w w' ->
  exists evs, w_log w' = evs ++ w_log w /\
  forall post b r pre, evs = post ++ EvUploadBundle b r :: pre ->
  exists ns dev l, pre = EvGetBundle ns (a_jid a) dev (Val b) :: l /\ ns ∈ a_backends a /\ refilled (a_threshold a) ns l.
Proof.
  intros (evs & E & H)%create_fill. exists evs. split; [done|]. intros post b r pre ->. exact (H _ _ _ eq_refl).
Qed.
Print Assumptions C82_bundles_filled.
(** On the first run [n] and [m] get their pre keys; the later run with the new backend [x] finds 10 visible ones. *)
Definition env_few (w : world) (c : cmd) : resp c :=
  match c return resp c with
  | BNumVisible _ => Val 10%Z
  | c => env w c
  end.
Lemma env_few_allowed w c : w_allowed w c (env_few w c).
Proof. destruct c; try apply env_allowed. done. Qed.
Fixpoint prekey_events (l : list event) : list (string * Z) :=
  match l with
  | [] => []
  | EvGenerate ns n (Val _) :: l' => (ns, n) :: prekey_events l'
  | EvUploadBundle b (Val _) :: l' => (b_ns b, 0%Z) :: prekey_events l'
  | _ :: l' => prekey_events l'
  end.
Example C82_example :
  let w := (run base env (create ex_prims 9 ex_args) empty_world).2 in
  let r := run base env_few (create ex_prims 9 (CreateArgs ["x"; "m"] "me" None "U" 50)) (World (w_disk w) [] false []) in
  prekey_events (w_log w) = [("m", 0); ("n", 0); ("m", 100); ("n", 100)]%Z /\
  prekey_events (w_log r.2) = [("x", 0); ("x", 90)]%Z.
Proof. vm_compute. repeat split; reflexivity. Qed.
