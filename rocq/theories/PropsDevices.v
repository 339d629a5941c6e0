(** Theorems C21-C24, C28, C29: device list updates. *)
From Verif Require Import Api Spec Env PfDevices.
Open Scope prog_scope.
Open Scope string_scope.
Open Scope list_scope.

Definition cf0 : cfg := Cfg "me" 1 "U" 50.
Definition w0 : world := World ∅ ["n"; "m"] false [].

(** ** C21 *)
Theorem C21_listed_devices cf ns jid dl w w' x lab :
  exec base (update_device_list cf ns jid dl) w (Val tt) w' -> dget x dl = Some lab ->
  known (w_disk w') jid x /\ supports (w_disk w') jid x ns /\ activity (w_disk w') jid x ns true /\
  (~ known (w_disk w) jid x -> labelled (w_disk w') jid x lab /\ forall n, supports (w_disk w') jid x n -> n = ns) /\
  (known (w_disk w) jid x ->
    match lab with
    | Some s => labelled (w_disk w') jid x (Some s)
    | None => exists o, labelled (w_disk w) jid x o /\ labelled (w_disk w') jid x o
    end /\ forall n, supports (w_disk w') jid x n <-> supports (w_disk w) jid x n \/ n = ns).
Proof. exact (update_listed cf ns jid dl w w' x lab). Qed.
Print Assumptions C21_listed_devices.

(** ** C22: at every crash point. *)
Theorem C22_frame cf ns jid dl w w' i :
  reach base (update_device_list cf ns jid dl) w w' -> ~ list_item jid i ->
  w_disk w' !! item_key i = w_disk w !! item_key i.
Proof. exact (update_frame cf ns jid dl w w' i). Qed.
Print Assumptions C22_frame.
Theorem C22_known_kept cf ns jid dl w w' x :
  reach base (update_device_list cf ns jid dl) w w' -> known (w_disk w) jid x -> known (w_disk w') jid x.
Proof. exact (update_known cf ns jid dl w w' x). Qed.
Print Assumptions C22_known_kept.
Theorem C22_known_device cf ns jid dl w w' x :
  reach base (update_device_list cf ns jid dl) w w' -> known (w_disk w) jid x ->
  (forall n b, n <> ns -> activity (w_disk w') jid x n b <-> activity (w_disk w) jid x n b) /\
  (forall n, n <> ns -> supports (w_disk w') jid x n <-> supports (w_disk w) jid x n) /\
  (dget x dl = None -> forall o, labelled (w_disk w') jid x o <-> labelled (w_disk w) jid x o) /\
  (dget x dl = None -> ~ (jid = c_jid cf /\ x = c_dev cf) ->
    (forall n, supports (w_disk w') jid x n <-> supports (w_disk w) jid x n) /\
    (activity (w_disk w') jid x ns true -> activity (w_disk w) jid x ns true)).
Proof. exact (update_known_dev cf ns jid dl w w' x). Qed.
Print Assumptions C22_known_device.
Theorem C22_unrelated_device cf ns jid dl w w' x :
  reach base (update_device_list cf ns jid dl) w w' -> ~ known (w_disk w) jid x -> dget x dl = None ->
  w_disk w' !! item_key (INamespaces jid x) = w_disk w !! item_key (INamespaces jid x) /\
  w_disk w' !! item_key (IActive jid x) = w_disk w !! item_key (IActive jid x) /\
  w_disk w' !! item_key (ILabel jid x) = w_disk w !! item_key (ILabel jid x).
Proof. exact (update_unrelated cf ns jid dl w w' x). Qed.
Print Assumptions C22_unrelated_device.
Theorem C22_missing_device cf ns jid dl w w' x :
  exec base (update_device_list cf ns jid dl) w (Val tt) w' -> known (w_disk w) jid x -> dget x dl = None ->
  ~ (jid = c_jid cf /\ x = c_dev cf) ->
  known (w_disk w') jid x /\ (supports (w_disk w) jid x ns -> activity (w_disk w') jid x ns false).
Proof. exact (update_missing cf ns jid dl w w' x). Qed.
Print Assumptions C22_missing_device.

(** First [5], then [6] with 5 missing, from an empty storage: 5 stays known, and becomes inactive. *)
Definition ex_upd1 := run base env (update_device_list cf0 "n" "you" [(5%Z, Some "phone")]) w0.
Definition ex_upd2 := run base env (update_device_list cf0 "n" "you" [(6%Z, None)]) ex_upd1.2.
Example C21_C22_example :
  ex_upd1.1 = Val tt /\ ex_upd2.1 = Val tt /\
  known (w_disk ex_upd1.2) "you" 5 /\ activity (w_disk ex_upd1.2) "you" 5 "n" true /\
  labelled (w_disk ex_upd1.2) "you" 5 (Some "phone") /\
  known (w_disk ex_upd2.2) "you" 5 /\ known (w_disk ex_upd2.2) "you" 6 /\
  activity (w_disk ex_upd2.2) "you" 5 "n" false /\ activity (w_disk ex_upd2.2) "you" 6 "n" true.
Proof.
  assert (ex_upd1.1 = Val tt) as E1 by (vm_compute; reflexivity).
  assert (ex_upd2.1 = Val tt) as E2 by (vm_compute; reflexivity).
  pose proof (run_exec base env (update_device_list cf0 "n" "you" [(5%Z, Some "phone")]) w0 env_allowed) as H1.
  fold ex_upd1 in H1. rewrite E1 in H1.
  pose proof (run_exec base env (update_device_list cf0 "n" "you" [(6%Z, None)]) ex_upd1.2 env_allowed) as H2.
  fold ex_upd2 in H2. rewrite E2 in H2.
  pose proof (C21_listed_devices _ _ _ _ _ _ 5%Z _ H1 eq_refl) as (A1 & A2 & A3 & A4 & _).
  pose proof (C21_listed_devices _ _ _ _ _ _ 6%Z _ H2 eq_refl) as (B1 & B2 & B3 & _).
  pose proof (C22_missing_device _ _ _ _ _ _ 5%Z H2 A1 eq_refl) as [D1 D2]; [by intros [? _]|].
  assert (~ known (w_disk w0) "you" 5) as Hn by (intros (zs & (v & Hv & _) & _); vm_compute in Hv; discriminate Hv).
  destruct (A4 Hn) as [A5 _]. apply D2 in A2. repeat (split; [assumption|]). assumption.
Qed.

(** ** C23: [evs] are the events of the call, newest first; none but the one mentioned uploads a device list. *)
Theorem C23_own_device_stays cf ns jid dl w w' :
  (exec base (update_device_list cf ns jid dl) w (Val tt) w' ->
   exists evs, Forall noup evs /\
     ((own_missing cf jid dl /\ exists lab, labelled (w_disk w) jid (c_dev cf) lab /\
         w_log w' = evs ++ EvUploadDL ns (dl ++ [(c_dev cf, lab)]) (Val tt) :: w_log w) \/
      (~ own_missing cf jid dl /\ w_log w' = evs ++ w_log w))) /\
  (reach base (update_device_list cf ns jid dl) w w' ->
   exists evs, Forall noup evs /\
     ((w_log w' = evs ++ w_log w /\ (own_missing cf jid dl -> evs = [] /\ w_disk w' = w_disk w)) \/
      (own_missing cf jid dl /\ exists lab r, labelled (w_disk w) jid (c_dev cf) lab /\
         w_log w' = evs ++ EvUploadDL ns (dl ++ [(c_dev cf, lab)]) r :: w_log w /\
         (r <> Val tt -> evs = [] /\ w_disk w' = w_disk w)))).
Proof. split; [exact (up_exec cf ns jid dl w w')|exact (up_reach cf ns jid dl w w')]. Qed.
Print Assumptions C23_own_device_stays.
(** An own list without this device: first the upload, then the local data. *)
Definition ex_w_own : world :=
  World (<[item_key (ILabel "me" 1) := JStr "pc"]> (<[item_key (INamespaces "me" 1) := JList [JStr "n"]]>
    (<[item_key (IActive "me" 1) := JDict [("n", JBool true)]]> (<[item_key (IDeviceList "me") := JList [JInt 1]]> ∅)))) ["n"] false [].
Example C23_example :
  own_missing cf0 "me" [(7%Z, None)] /\
  (run base env (update_device_list cf0 "n" "me" [(7%Z, None)]) ex_w_own).1 = Val tt /\
  last (w_log (run base env (update_device_list cf0 "n" "me" [(7%Z, None)]) ex_w_own).2)
    = Some (EvUploadDL "n" [(7%Z, None); (1%Z, Some "pc")] (Val tt)).
Proof. vm_compute. repeat split. Qed.

(** ** C24 *)
Theorem C24_update cf ns jid dl w o w' :
  ns ∉ w_loaded w -> exec base (update_device_list cf ns jid dl) w o w' -> o = Exn EUnknownNamespace /\ w' = w.
Proof. exact (unknown_update cf ns jid dl w o w'). Qed.
Print Assumptions C24_update.
(** refresh downloads the list first; a failing download is reported instead. *)
Theorem C24_refresh cf ns jid w o w' :
  ns ∉ w_loaded w -> exec base (refresh_device_list cf ns jid) w o w' ->
  w_disk w' = w_disk w /\ exists r, w_log w' = EvDownloadDL ns jid r :: w_log w /\
    o = Exn (match r with Val _ => EUnknownNamespace | Exn e => e end).
Proof. exact (unknown_refresh cf ns jid w o w'). Qed.
Print Assumptions C24_refresh.
Theorem C24_decrypt cf m w o w' :
  m_ns m ∉ w_loaded w -> exec base (decrypt cf m) w o w' -> o = Exn EUnknownNamespace /\ w' = w.
Proof. exact (unknown_decrypt cf m w o w'). Qed.
Print Assumptions C24_decrypt.
Theorem C24_encrypt cf mtd jids pt l ident ns w o w' :
  ns ∈ l -> ns ∉ w_loaded w -> exec base (encrypt cf mtd jids pt (Some l) ident) w o w' ->
  o = Exn EUnknownNamespace /\ w' = w.
Proof. exact (unknown_encrypt cf mtd jids pt l ident ns w o w'). Qed.
Print Assumptions C24_encrypt.
Theorem C24_crash cf ns jid dl w w' :
  ns ∉ w_loaded w -> reach base (refresh_device_list cf ns jid) w w' \/ reach base (update_device_list cf ns jid dl) w w' ->
  w_disk w' = w_disk w.
Proof. exact (unknown_reach cf ns jid dl w w'). Qed.
Print Assumptions C24_crash.
Example C24_example :
  "x" ∉ w_loaded w0 /\
  (run base env (update_device_list cf0 "x" "you" [(5%Z, None)]) w0).1 = Exn EUnknownNamespace /\
  (run base env (refresh_device_list cf0 "x" "you") w0).1 = Exn EUnknownNamespace /\
  (run base env (decrypt cf0 (Message "x" "you" 5 (Content true "") [])) w0).1 = Exn EUnknownNamespace /\
  (run base env (encrypt cf0 (fun _ _ => Ret tt) ["you"] [] (Some ["n"; "x"]) None) w0).1 = Exn EUnknownNamespace.
Proof. split; [intros H; by repeat apply elem_of_cons in H as [H|H]; try apply elem_of_nil in H|]. vm_compute. auto. Qed.

(** ** C28: two updates of the same account running concurrently can lose a device: both read the stored list before
    either writes it. *)
Theorem C28_concurrent_updates_refuted :
  exists w', areach base awaited
      ([update_device_list cf0 "n" "you" [(5%Z, None)]; update_device_list cf0 "m" "you" [(6%Z, None)]], w0, None)
      ([Ret tt; Ret tt], w', None) /\
    known (w_disk w') "you" 6 /\ ~ known (w_disk w') "you" 5.
Proof. exact list_race. Qed.
Print Assumptions C28_concurrent_updates_refuted.
(** What does hold: run one after the other (in either order, with restarts and crashed or failed third updates in
    between not considered), both lists are known, supported and active, provided they are for different namespaces. *)
Theorem C28_sequential_updates_partial cf ns1 ns2 jid dl1 dl2 w w1 w2 x1 l1 x2 l2 :
  ns1 <> ns2 -> exec base (update_device_list cf ns1 jid dl1) w (Val tt) w1 ->
  exec base (update_device_list cf ns2 jid dl2) w1 (Val tt) w2 ->
  dget x1 dl1 = Some l1 -> dget x2 dl2 = Some l2 ->
  known (w_disk w2) jid x1 /\ known (w_disk w2) jid x2 /\
  supports (w_disk w2) jid x1 ns1 /\ supports (w_disk w2) jid x2 ns2 /\
  activity (w_disk w2) jid x1 ns1 true /\ activity (w_disk w2) jid x2 ns2 true.
Proof. exact (seq_updates cf ns1 ns2 jid dl1 dl2 w w1 w2 x1 l1 x2 l2). Qed.
Print Assumptions C28_sequential_updates_partial.
Example C28_example :
  ex_upd1.1 = Val tt /\ (run base env (update_device_list cf0 "m" "you" [(6%Z, None); (5%Z, None)]) ex_upd1.2).1 = Val tt.
Proof. vm_compute. auto. Qed.

(** ** C29 *)
Theorem C29_idempotent cf ns jid dl w w1 w2 :
  exec base (update_device_list cf ns jid dl) w (Val tt) w1 -> w_disk w2 = w_disk w1 -> w_loaded w2 = w_loaded w1 ->
  (forall o w3, exec base (update_device_list cf ns jid dl) w2 o w3 ->
     w_disk w3 = w_disk w1 /\ match o with Val _ => True | Exn e => ext_exn e = true end) /\
  (forall w3, reach base (update_device_list cf ns jid dl) w2 w3 -> w_disk w3 = w_disk w1).
Proof. exact (idem cf ns jid dl w w1 w2). Qed.
Print Assumptions C29_idempotent.
(** Two runs from the same storage, with whatever iteration orders, leave storages that read the same. *)
Theorem C29_order_free cf ns jid dl w v w1 v1 :
  w_disk v = w_disk w ->
  exec base (update_device_list cf ns jid dl) w (Val tt) w1 ->
  exec base (update_device_list cf ns jid dl) v (Val tt) v1 ->
  same_readings jid (w_disk w1) (w_disk v1).
Proof. exact (order_free cf ns jid dl w v w1 v1). Qed.
Print Assumptions C29_order_free.
(** The list is stored in another order if the sets are iterated in another order. *)
Definition env_rev (w : world) (c : cmd) : resp c := match c return resp c with CPerm => [1; 0]%nat | c => env w c end.
Example C29_example :
  let p := update_device_list cf0 "n" "you" [(5%Z, None); (6%Z, Some "x")] in
  (run base env p w0).1 = Val tt /\ (run base env_rev p w0).1 = Val tt /\
  (forall w c, w_allowed w c (env_rev w c)) /\
  w_disk (run base env p w0).2 !! item_key (IDeviceList "you") = Some (JList [JInt 5; JInt 6]) /\
  w_disk (run base env_rev p w0).2 !! item_key (IDeviceList "you") = Some (JList [JInt 6; JInt 5]) /\
  w_log (run base env p (run base env p w0).2).2 = w_log (run base env p w0).2.
Proof.
  split; [by vm_compute|]. split; [by vm_compute|]. split; [|by vm_compute].
  intros w c. destruct c; try apply env_allowed. done.
Qed.
