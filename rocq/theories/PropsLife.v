(** Theorems C10, C25, C26, C27, C79: the records of devices over the life of a storage. *)
From Verif Require Import Api Spec Env Life PfIdentity PfAlive4 PropsIdentity PropsDevices.
Open Scope prog_scope.
Open Scope string_scope.
Open Scope list_scope.

(** A life: set-up, use of the instance, a crash inside a device list update, and another start. *)
Definition ex_boot := run base env (create ex_prims 9 ex_args) empty_world.
Definition ex_upd : api unit := update_device_list cf0 "n" "you" [(5%Z, Some "phone"); (6%Z, None)].
Definition ex_use := run base env ex_upd ex_boot.2.
Definition ex_upd2 : api unit := update_device_list cf0 "m" "you" [(6%Z, Some "tablet"); (7%Z, None)].
(** the new device 7 and the activity of device 6 are written, the namespaces of device 6 and the list are not *)
Definition ex_cut : world := run_crash base env 12 ex_upd2 ex_use.2.
Definition ex_boot2 := run base env (create ex_prims 9 ex_args) (World (w_disk ex_cut) [] false []).
Lemma ex_life1 : life "me" (Off, empty_world) (On cf0, ex_use.2).
Proof.
  eapply life_trans; [eapply (life_boot "me" ex_prims 9 ex_args _ cf0 ex_boot.2); [done|]|].
  - pose proof (run_exec base env (create ex_prims 9 ex_args) empty_world env_allowed) as H. fold ex_boot in H.
    assert (ex_boot.1 = Val cf0) as E by (vm_compute; reflexivity). rewrite E in H. exact H.
  - eapply (life_app "me" cf0 ex_upd _ ex_use.1).
    + apply (app_call _ _ (KUpdate cf0 "n" "you" [(5%Z, Some "phone"); (6%Z, None)])); [by split|]. intros. discriminate.
    + pose proof (run_exec base env ex_upd ex_boot.2 env_allowed) as H. fold ex_use in H. exact H.
Qed.
Lemma ex_cut_reach : reach base ex_upd2 ex_use.2 ex_cut.
Proof. unfold ex_cut. exact (run_crash_reach base env 12 ex_upd2 ex_use.2 env_allowed). Qed.
Lemma ex_life2 : life "me" (Off, empty_world) (On cf0, ex_boot2.2).
Proof.
  eapply life_trans; [apply ex_life1|]. eapply life_trans.
  - eapply (life_crash "me" cf0 ex_upd2 _ ex_cut (World (w_disk ex_cut) [] false [])); [|apply ex_cut_reach|reflexivity].
    apply (app_call _ _ (KUpdate cf0 "m" "you" [(6%Z, Some "tablet"); (7%Z, None)])); [by split|]. intros. discriminate.
  - eapply (life_boot "me" ex_prims 9 ex_args _ cf0 ex_boot2.2); [done|].
    assert (ex_boot2.1 = Val cf0) as E by (vm_compute; reflexivity). rewrite <- E. unfold ex_boot2.
    refine (run_exec base env _ _ env_allowed).
Qed.

(** ** C25 *)
(** At every point of a life that began with an empty storage. *)
Theorem C25_records_complete me w0 w st A (p : api A) w' :
  w_disk w0 = ∅ -> life me (Off, w0) (st, w) ->
  match st with Off => appcode (boots me) p | On cf => appcode (on cf) p end -> reach base p w w' ->
  forall j x, known (w_disk w') j x ->
    (exists l, holds (is_list is_str) (w_disk w') (INamespaces j x) l) /\
    (exists m, holds (is_dict is_bool) (w_disk w') (IActive j x) m) /\
    (exists o, labelled (w_disk w') j x o) /\
    (j <> me \/ (exists id, has_own id (w_disk w') /\ x <> id) ->
     forall n, supports (w_disk w') j x n -> exists b, activity (w_disk w') j x n b).
Proof. exact (life_recorded me w0 w st A p w'). Qed.
Print Assumptions C25_records_complete.
Example C25_example :
  life "me" (Off, empty_world) (On cf0, ex_use.2) /\ appcode (on cf0) ex_upd2 /\ reach base ex_upd2 ex_use.2 ex_cut /\
  known (w_disk ex_cut) "you" 6 /\ ~ known (w_disk ex_cut) "you" 7 /\
  w_disk ex_cut !! item_key (IActive "you" 7) = Some (JDict [("m", JBool true)]) /\
  w_disk ex_cut !! item_key (IActive "you" 6) = Some (JDict [("n", JBool true); ("m", JBool true)]) /\
  w_disk ex_cut !! item_key (INamespaces "you" 6) = Some (JList [JStr "n"]) /\
  w_disk ex_cut !! item_key (INamespaces "me" 1) = Some (JList [JStr "n"; JStr "m"]).
Proof.
  split; [apply ex_life1|]. split.
  { apply (app_call _ _ (KUpdate cf0 "m" "you" [(6%Z, Some "tablet"); (7%Z, None)])); [by split|]. intros. discriminate. }
  split; [apply ex_cut_reach|].
  assert (w_disk ex_cut !! item_key (IDeviceList "you") = Some (JList [JInt 5; JInt 6])) as E by (vm_compute; reflexivity).
  split; [|split; [|vm_compute; repeat split; reflexivity]].
  - exists [5; 6]%Z. split; [|right; left]. exists (JList [JInt 5; JInt 6]). split; [exact E|]. repeat constructor.
  - intros (zs & (v & Hv & Ht) & Hx). rewrite E in Hv. injection Hv as <-.
    assert (zs = [5; 6]%Z) as -> by (eapply PfTyped.is_list_fun; [apply PfTyped.is_int_fun|exact Ht|repeat constructor]).
    repeat (apply elem_of_cons in Hx as [Hx|Hx]; [discriminate|]). by apply elem_of_nil in Hx.
Qed.

(** ** C26 *)
Theorem C26_information me w0 w cf jid e w' :
  w_disk w0 = ∅ -> life me (Off, w0) (On cf, w) -> exec base (get_device_information cf jid) w (Exn e) w' ->
  e <> ENothing /\ e <> EKeyError /\ e <> ETypeError /\ e <> EBinascii.
Proof. exact (life_info me w0 w cf jid e w'). Qed.
Print Assumptions C26_information.
Theorem C26_update me w0 w cf ns jid dl e w' :
  w_disk w0 = ∅ -> life me (Off, w0) (On cf, w) -> exec base (update_device_list cf ns jid dl) w (Exn e) w' ->
  e <> ENothing /\ e <> EKeyError /\ e <> ETypeError /\ e <> EBinascii.
Proof. exact (life_update me w0 w cf ns jid dl e w'). Qed.
Print Assumptions C26_update.
(** Missing: [encrypt] needs a plaintext for every namespace it may use, and a trust decision that raises none of these. *)
Theorem C26_encrypt_partial me w0 w cf mtd jids pt prio ident e w' :
  w_disk w0 = ∅ -> life me (Off, w0) (On cf, w) ->
  (forall ds i, tame (on cf) (mtd ds i)) ->
  (forall n, n ∈ from_option id (w_loaded w) prio -> exists b, dget n pt = Some b) ->
  exec base (encrypt cf mtd jids pt prio ident) w (Exn e) w' ->
  e <> ENothing /\ e <> EKeyError /\ e <> ETypeError /\ e <> EBinascii.
Proof. exact (life_enc me w0 w cf mtd jids pt prio ident e w'). Qed.
Print Assumptions C26_encrypt_partial.
(** The same for every other call, and application code made of them, except calls that read the message queue. *)
Theorem C26_other_calls me w0 w cf A (p : api A) e w' :
  w_disk w0 = ∅ -> life me (Off, w0) (On cf, w) -> tame (on cf) p -> exec base p w (Exn e) w' ->
  e <> ENothing /\ e <> EKeyError /\ e <> ETypeError /\ e <> EBinascii.
Proof. exact (life_tame me w0 w cf A p e w'). Qed.
Print Assumptions C26_other_calls.
Definition env_full (w : world) (c : cmd) : resp c := match c return resp c with SStore _ _ => Exn EStorage | c => env w c end.
Lemma env_full_allowed w c : w_allowed w c (env_full w c).
Proof. destruct c; try apply env_allowed. done. Qed.
(** Devices 5 and 6 of "you" after the second start; failures come from the storage only; an encryption. *)
Example C26_example :
  life "me" (Off, empty_world) (On cf0, ex_boot2.2) /\
  (exists d5 d6, (run base env (get_device_information cf0 "you") ex_boot2.2).1 = Val [d5; d6] /\
     dv_namespaces d6 = ["n"] /\ dv_active d6 = [("n", true); ("m", true)]) /\
  (run base env_full (get_device_information cf0 "you") ex_boot2.2).1 = Exn EStorage /\
  (run base env_full ex_upd2 ex_boot2.2).1 = Exn EStorage /\
  (run base env ex_upd2 ex_boot2.2).1 = Val tt /\
  (exists r, (run base env (encrypt cf0 (fun _ _ => Ret tt) ["you"] [("n", "hi"); ("m", "hi")] None None) ex_boot2.2).1 = Val r) /\
  (forall n, n ∈ from_option id (w_loaded ex_boot2.2) None -> exists b, dget n [("n", "hi"); ("m", "hi")] = Some b).
Proof.
  split; [apply ex_life2|]. split; [do 2 eexists; vm_compute; repeat split; reflexivity|].
  split; [vm_compute; reflexivity|]. split; [vm_compute; reflexivity|]. split; [vm_compute; reflexivity|].
  split; [eexists; vm_compute; reflexivity|].
  assert (w_loaded ex_boot2.2 = ["n"; "m"]) as -> by (vm_compute; reflexivity). intros n Hn.
  apply elem_of_cons in Hn as [->|Hn]; [by exists "hi"|]. apply elem_of_list_singleton in Hn as ->. by exists "hi".
Qed.
(** Without a plaintext for the namespace of a recipient, [encrypt] fails with KeyError. *)
Theorem C26_missing_plaintext_refuted :
  exists w w', life "me" (Off, empty_world) (On cf0, w) /\
    exec base (encrypt cf0 (fun _ _ => Ret tt) ["you"] [("m", "hi")] None None) w (Exn EKeyError) w'.
Proof.
  exists ex_boot2.2. pose proof (run_exec base env (encrypt cf0 (fun _ _ => Ret tt) ["you"] [("m", "hi")] None None) ex_boot2.2 env_allowed) as H.
  set (r := run _ _ _ _) in H. exists r.2. split; [apply ex_life2|].
  assert (r.1 = Exn EKeyError) as E by (vm_compute; reflexivity). rewrite E in H. exact H.
Qed.
Print Assumptions C26_missing_plaintext_refuted.

(** ** C10 *)
(** On every storage a life can produce, so whatever else was interrupted before. *)
Theorem C10_over_lives me w0 w st w1 w2 o w3 :
  w_disk w0 = ∅ -> life me (Off, w0) (st, w) ->
  reach base ikp_get w w1 -> restart w1 w2 -> exec base ikp_get w2 o w3 ->
  (exists e, ext_exn e = true /\ o = Exn e) \/
  exists k, o = Val k /\ has_ikp k (w_disk w3) /\
    (forall k0, has_ikp k0 (w_disk w) -> k = k0) /\
    (forall k0, has_ikp k0 (w_disk w1) -> k = k0) /\
    (w_disk w !! item_key IKeyPairKey = None -> exists s, k = IkpSeed s).
Proof. exact (life_crash_ikp me w0 w st w1 w2 o w3). Qed.
Print Assumptions C10_over_lives.
Example C10_lives_example :
  life "me" (Off, empty_world) (On cf0, ex_boot2.2) /\ has_ikp (IkpSeed (zeros 32)) (w_disk ex_boot2.2) /\
  (run base env_rand ikp_get ex_boot2.2).1 = Val (IkpSeed (zeros 32)).
Proof.
  split; [apply ex_life2|]. split; [|vm_compute; reflexivity]. split; [vm_compute; reflexivity|].
  eexists. split; [vm_compute; reflexivity|vm_compute; reflexivity].
Qed.

(** ** C79 *)
(** Two updates at the same time for the same new device, one per namespace: the second one's activity and the first
    one's namespaces survive. The device supports "n" without activity information, "m" is lost, and the next update
    that misses the device fails with KeyError. *)
Theorem C79_concurrent_updates_refuted :
  exists w w1 w2, life "me" (Off, empty_world) (On cf0, w) /\
    areach base awaited ([update_device_list cf0 "n" "you" [(5%Z, None)]; update_device_list cf0 "m" "you" [(5%Z, None)]], w, None)
      ([Ret tt; Ret tt], w1, None) /\
    known (w_disk w1) "you" 5 /\ supports (w_disk w1) "you" 5 "n" /\ (forall b, ~ activity (w_disk w1) "you" 5 "n" b) /\
    ~ supports (w_disk w1) "you" 5 "m" /\
    exec base (update_device_list cf0 "n" "you" []) w1 (Exn EKeyError) w2.
Proof.
  set (ps := [_; _] : list (api unit)).
  pose (A := (replicate 4 0 ++ replicate 6 1 ++ replicate 20 0 ++ replicate 20 1)%nat).
  pose proof (run_sched_areach base awaited env A (ps, ex_boot.2, None) env_allowed) as H.
  set (s := run_sched base awaited env A (ps, ex_boot.2, None)) in H.
  assert (s.1.1 = [Ret tt; Ret tt] /\ s.2 = None) as [E1 E2] by (vm_compute; split; reflexivity).
  set (w1 := s.1.2).
  assert (s = ([Ret tt; Ret tt], w1, None)) as E by (destruct s as [[? ?] ?]; simpl in *; subst; reflexivity).
  rewrite E in H.
  assert (w_disk w1 !! item_key (IDeviceList "you") = Some (JList [JInt 5])) as D1 by (vm_compute; reflexivity).
  assert (w_disk w1 !! item_key (INamespaces "you" 5) = Some (JList [JStr "n"])) as D2 by (vm_compute; reflexivity).
  assert (w_disk w1 !! item_key (IActive "you" 5) = Some (JDict [("m", JBool true)])) as D3 by (vm_compute; reflexivity).
  pose proof (run_exec base env (update_device_list cf0 "n" "you" []) w1 env_allowed) as H2.
  set (r := run base env _ w1) in H2. assert (r.1 = Exn EKeyError) as E3 by (vm_compute; reflexivity). rewrite E3 in H2.
  set (w2 := r.2) in H2. clearbody w2. clear r E3. clearbody w1. clear s E E1 E2.
  exists ex_boot.2, w1, w2.
  split.
  { eapply (life_boot "me" ex_prims 9 ex_args _ cf0 ex_boot.2); [done|].
    pose proof (run_exec base env (create ex_prims 9 ex_args) empty_world env_allowed) as Hb. fold ex_boot in Hb.
    assert (ex_boot.1 = Val cf0) as E by (vm_compute; reflexivity). rewrite E in Hb. exact Hb. }
  split; [exact H|]. split; [|split; [|split; [|split]]].
  - exists [5%Z]. split; [|left]. exists (JList [JInt 5]). split; [exact D1|]. repeat constructor.
  - exists ["n"]. split; [|left]. exists (JList [JStr "n"]). split; [exact D2|]. repeat constructor.
  - intros b Hb. apply (PfDevices.activity_act _ _ _ [("m", true)]) in Hb; [discriminate Hb|].
    exists (JDict [("m", JBool true)]). split; [exact D3|]. repeat constructor.
  - intros Hb. apply (PfDevices.supports_ns _ _ _ ["n"]) in Hb.
    + by apply elem_of_list_singleton in Hb.
    + exists (JList [JStr "n"]). split; [exact D2|]. repeat constructor.
  - exact H2.
Qed.
Print Assumptions C79_concurrent_updates_refuted.
(** One after the other, both namespaces are recorded. *)
Theorem C79_one_after_other_partial cf n m jid dl dl' x lab lab' w w1 w2 :
  n <> m -> exec base (update_device_list cf n jid dl) w (Val tt) w1 -> dget x dl = Some lab ->
  exec base (update_device_list cf m jid dl') w1 (Val tt) w2 -> dget x dl' = Some lab' ->
  known (w_disk w2) jid x /\
  supports (w_disk w2) jid x n /\ activity (w_disk w2) jid x n true /\
  supports (w_disk w2) jid x m /\ activity (w_disk w2) jid x m true.
Proof. exact (update_twice cf n m jid dl dl' x lab lab' w w1 w2). Qed.
Print Assumptions C79_one_after_other_partial.
Example C79_example :
  let r1 := run base env (update_device_list cf0 "n" "you" [(5%Z, None)]) ex_boot.2 in
  let r2 := run base env (update_device_list cf0 "m" "you" [(5%Z, None)]) r1.2 in
  r1.1 = Val tt /\ r2.1 = Val tt /\
  w_disk r2.2 !! item_key (INamespaces "you" 5) = Some (JList [JStr "n"; JStr "m"]) /\
  w_disk r2.2 !! item_key (IActive "you" 5) = Some (JDict [("n", JBool true); ("m", JBool true)]).
Proof. vm_compute. repeat split; reflexivity. Qed.

(** ** C63 *)
(** On the storages of lives: exceptions come from the outside, except for the RuntimeError about a device that the
    device information does not contain. Missing: that RuntimeError is not documented. *)
Theorem C63_on_lives_partial me w0 w cf j x e w' :
  w_disk w0 = ∅ -> life me (Off, w0) (On cf, w) -> exec base (replace_sessions cf j x) w (Exn e) w' ->
  ext_exn e = true \/
  (e = ERuntime /\ exists ds, exec base (get_device_information cf j) w (Val ds) w' /\ forall d, d ∈ ds -> dv_id d <> x).
Proof. exact (life_replace me w0 w cf j x e w'). Qed.
Print Assumptions C63_on_lives_partial.
Example C63_lives_example :
  life "me" (Off, empty_world) (On cf0, ex_boot2.2) /\
  (run base env (replace_sessions cf0 "you" 9) ex_boot2.2).1 = Exn ERuntime /\
  (run base env_full (replace_sessions cf0 "you" 5) ex_boot2.2).1 = Exn EStorage.
Proof. split; [apply ex_life2|]. vm_compute. split; reflexivity. Qed.

(** ** C27 *)
(** [D] are the accounts whose purge failed or was cut off and did not complete since. The records of all other
    accounts stay complete, and their device information available. *)
Theorem C27_others_partial me w0 st w D :
  w_disk w0 = ∅ -> rtc (lives me) (Off, w0, []) (st, w, D) ->
  (forall j x, j ∉ D -> known (w_disk w) j x ->
     (exists l, holds (is_list is_str) (w_disk w) (INamespaces j x) l) /\
     (exists m, holds (is_dict is_bool) (w_disk w) (IActive j x) m) /\ (exists o, labelled (w_disk w) j x o)) /\
  (forall cf j e w', st = On cf -> j ∉ D -> exec base (get_device_information cf j) w (Exn e) w' ->
     e <> ENothing /\ e <> EKeyError /\ e <> ETypeError /\ e <> EBinascii).
Proof. exact (worn_others me w0 st w D). Qed.
Print Assumptions C27_others_partial.
(** Once a run of [purge_bare_jid] completes, the storage is as good as if no purge had ever been interrupted. *)
Theorem C27_healed_partial me w0 cf w D j w' :
  w_disk w0 = ∅ -> rtc (lives me) (Off, w0, []) (On cf, w, D) -> (forall j', j' ∈ D -> j' = j) -> j <> me ->
  exec base (purge_bare_jid j) w (Val tt) w' ->
  life me (Off, w0) (On cf, w') /\
  (forall j x, known (w_disk w') j x ->
     (exists l, holds (is_list is_str) (w_disk w') (INamespaces j x) l) /\
     (exists m, holds (is_dict is_bool) (w_disk w') (IActive j x) m) /\ (exists o, labelled (w_disk w') j x o)) /\
  (forall j e w'', exec base (get_device_information cf j) w' (Exn e) w'' ->
     e <> ENothing /\ e <> EKeyError /\ e <> ETypeError /\ e <> EBinascii).
Proof. exact (worn_healed_records me w0 cf w D j w'). Qed.
Print Assumptions C27_healed_partial.
(** A purge cut off after two records, the next start, another attempt. *)
Definition ex_torn : world := run_crash base env 9 (purge_bare_jid "you") ex_use.2.
Definition ex_boot3 := run base env (create ex_prims 9 ex_args) (World (w_disk ex_torn) [] false []).
Example C27_lives_example :
  rtc (lives "me") (Off, empty_world, []) (On cf0, ex_boot3.2, ["you"]) /\
  w_disk ex_boot3.2 !! item_key (IDeviceList "you") = Some (JList [JInt 5; JInt 6]) /\
  w_disk ex_boot3.2 !! item_key (INamespaces "you" 5) = None /\
  (run base env (get_device_information cf0 "you") ex_boot3.2).1 = Exn ENothing /\
  (exists d, (run base env (get_device_information cf0 "me") ex_boot3.2).1 = Val [d]) /\
  (run base env (purge_bare_jid "you") ex_boot3.2).1 = Val tt /\
  (run base env (get_device_information cf0 "you") (run base env (purge_bare_jid "you") ex_boot3.2).2).1 = Val [].
Proof.
  split.
  { eapply rtc_transitive; [exact ex_life1|]. eapply rtc_l; [|apply rtc_once].
    - eapply (l_purge_crash "me" cf0 "you" _ ex_torn (World (w_disk ex_torn) [] false [])); [done| |reflexivity].
      unfold ex_torn. exact (run_crash_reach base env 9 (purge_bare_jid "you") ex_use.2 env_allowed).
    - eapply (l_boot "me" ex_prims 9 ex_args _ cf0 ex_boot3.2); [done|].
      assert (ex_boot3.1 = Val cf0) as E by (vm_compute; reflexivity). rewrite <- E. unfold ex_boot3.
      refine (run_exec base env _ _ env_allowed). }
  split; [vm_compute; reflexivity|]. split; [vm_compute; reflexivity|]. split; [vm_compute; reflexivity|].
  split; [eexists; vm_compute; reflexivity|]. split; vm_compute; reflexivity.
Qed.
