(** Theorems C09-C14, C16, C31: identity key pair, limits, argument checks, own device id, trust levels. *)
From Verif Require Import Api Spec Env PfStrs PfHist PfIdentity.
Open Scope prog_scope.
Open Scope list_scope.
Open Scope string_scope.

(** ** C09: the identity key pair never changes once it has been returned. [hist] is any number of processes, each
    an arbitrary interleaving of application code cut off anywhere, restarted on the surviving storage. *)
Theorem C09_key_pair_stable (ok : call -> Prop) w k w1 w2 o w3 :
  exec base ikp_get w (Val k) w1 -> hist ok w1 w2 -> exec base ikp_get w2 o w3 ->
  w3 = w2 /\ (o = Val k \/ exists e, ext_exn e = true /\ o = Exn e).
Proof. exact (ikp_stable ok w k w1 w2 o w3). Qed.
Print Assumptions C09_key_pair_stable.
Example C09_example :
  let r := run base env ikp_get empty_world in
  r.1 = Val (IkpSeed (zeros 32)) /\ has_ikp (IkpSeed (zeros 32)) (w_disk r.2) /\
  (run base env_rand ikp_get r.2).1 = Val (IkpSeed (zeros 32)).
Proof.
  cbv zeta. split; [vm_compute; reflexivity|]. split; [|vm_compute; reflexivity].
  split; [vm_compute; reflexivity|]. exists (b64enc (zeros 32)). split; vm_compute; reflexivity.
Qed.

(** ** C10: a crash inside get. *)
Theorem C10_key_pair_crash_safe w w1 w2 o w3 :
  ikp_wf (w_disk w) -> reach base ikp_get w w1 -> restart w1 w2 -> exec base ikp_get w2 o w3 ->
  (exists e, ext_exn e = true /\ o = Exn e) \/
  exists k, o = Val k /\ has_ikp k (w_disk w3) /\
    (forall k0, has_ikp k0 (w_disk w) -> k = k0) /\
    (forall k0, has_ikp k0 (w_disk w1) -> k = k0) /\
    (w_disk w !! item_key IKeyPairKey = None -> exists s, k = IkpSeed s).
Proof. exact (ikp_crash w w1 w2 o w3). Qed.
Print Assumptions C10_key_pair_crash_safe.
(** The process dies between the two stores; the next get generates a fresh seed. *)
Example C10_example :
  let w1 := run_crash base env 3 ikp_get empty_world in
  w_disk w1 !! item_key IKeyPairIsSeed = Some (JBool true) /\ w_disk w1 !! item_key IKeyPairKey = None /\
  ikp_wf (w_disk empty_world) /\ (run base env_rand ikp_get w1).1 = Val (IkpSeed (ones 32)).
Proof.
  cbv zeta. split; [vm_compute; reflexivity|]. split; [vm_compute; reflexivity|].
  split; [left; split; reflexivity|vm_compute; reflexivity].
Qed.

(** ** C11: concurrent gets on a storage without key pair can return different pairs: both calls find nothing,
    both generate and store a key, and the first caller goes on with a key that is no longer in the storage. *)
Theorem C11_concurrent_get_refuted :
  exists w', areach base awaited ([get_upload; get_upload], empty_world, None) ([Ret tt; Ret tt], w', None) /\
    exists b1 b2, EvUploadBundle b1 (Val tt) ∈ w_log w' /\ EvUploadBundle b2 (Val tt) ∈ w_log w' /\ b_ik b1 <> b_ik b2.
Proof. exact get_race. Qed.
Print Assumptions C11_concurrent_get_refuted.
(** What does hold: once a complete pair is stored, a get returns that pair ([get_expect] raises RuntimeError, which
    neither storage nor get ever does, if it got another one) among any other application code. *)
Theorem C11_concurrent_get_partial k0 (ok : call -> Prop) ps w i ps' w' :
  has_ikp k0 (w_disk w) -> Forall (fun p => appcode ok p) ps -> ps !! i = Some (get_expect k0) ->
  preach base (ps, w) (ps', w') -> ps' !! i <> Some (Raise ERuntime).
Proof. exact (get_agrees k0 ok ps w i ps' w'). Qed.
Print Assumptions C11_concurrent_get_partial.
Example C11_example :
  let w := (run base env ikp_get empty_world).2 in
  has_ikp (IkpSeed (zeros 32)) (w_disk w) /\
  (run_sched base awaited env_rand [0;1;1;0]%nat ([get_expect (IkpSeed (zeros 32)); get_expect (IkpSeed (zeros 32))], w, None)).1.1
    = [Ret tt; Ret tt] /\
  (run base env (get_expect (IkpPriv "")) w).1 = Exn ERuntime.
Proof.
  cbv zeta. split; [|split; vm_compute; reflexivity].
  split; [vm_compute; reflexivity|]. exists (b64enc (zeros 32)). split; vm_compute; reflexivity.
Qed.

(** ** C12: seed and private key forms. *)
Theorem C12_seed_priv (P : prims) k :
  ikp_is_priv k = negb (ikp_is_seed k) /\ ikp_is_priv (ikp_as_priv P k) = true /\
  ikp_as_priv P (ikp_as_priv P k) = ikp_as_priv P k /\
  ((forall s, priv_to_ed25519_pub P (seed_to_priv P s) = seed_to_ed25519_pub P s) ->
   ikp_identity_key P (ikp_as_priv P k) = ikp_identity_key P k).
Proof. exact (seed_priv P k). Qed.
Print Assumptions C12_seed_priv.
Example C12_example :
  let P := Prims (fun s => "h" +:+ s) (fun s => "Eh" +:+ s) (fun p => "E" +:+ p) id in
  (forall s, priv_to_ed25519_pub P (seed_to_priv P s) = seed_to_ed25519_pub P s) /\
  ikp_as_priv P (IkpSeed "x") = IkpPriv "hx" /\ ikp_identity_key P (IkpPriv "hx") = "Ehx".
Proof. repeat split. Qed.

(** ** C13: the limits of skipped message keys. [if m or 0 > s] parses as [m or (0 > s)], so every per-message limit
    other than None and 0 is rejected (backend.py:114). *)
Theorem C13_limits_refuted :
  exists s m, (1 <= m <= s)%Z /\ backend_init s (Some m) = Exn EValueError.
Proof. exists 1000%Z, 1000%Z. split; [lia|reflexivity]. Qed.
Print Assumptions C13_limits_refuted.
(** Exactly what is accepted, and the limits reported then. *)
Theorem C13_limits_partial s m r :
  backend_init s m = Val r <->
  (m = None /\ (0 <= s)%Z /\ r = (s, s)) \/ (m = Some 0%Z /\ s = 0%Z /\ r = (0%Z, 0%Z)).
Proof. exact (limits s m r). Qed.
Print Assumptions C13_limits_partial.
Example C13_example : backend_init 1000 None = Val (1000%Z, 1000%Z) /\ backend_init 0 (Some 0%Z) = Val (0%Z, 0%Z).
Proof. split; reflexivity. Qed.

(** ** C14: bad arguments are rejected before anything happens. *)
Theorem C14_bad_arguments_rejected P fuel a w :
  bad_args a ->
  exec base (create P fuel a) w (Exn EValueError) w /\
  (forall o w', exec base (create P fuel a) w o w' -> o = Exn EValueError /\ w' = w) /\
  (forall w', reach base (create P fuel a) w w' -> w' = w).
Proof. exact (create_bad P fuel a w). Qed.
Print Assumptions C14_bad_arguments_rejected.
Example C14_example :
  bad_args (CreateArgs ["n"; "m"; "n"] "me" None "U" 50) /\ bad_args (CreateArgs ["n"] "me" None "U" 100) /\
  ~ bad_args (CreateArgs ["n"; "m"] "me" None "U" 99).
Proof.
  split; [left|split; [right; right; reflexivity|]].
  - intros H. apply NoDup_cons in H as [H _]. set_solver.
  - intros [H|[H|H]]; [|simpl in H; lia..]. apply H. simpl. repeat constructor; set_solver.
Qed.

(** ** C16: the own device id is fixed. *)
Theorem C16_own_id_kept (ok : call -> Prop) id w w' :
  hist ok w w' -> has_own id (w_disk w) -> has_own id (w_disk w').
Proof. exact (own_hist ok id w w'). Qed.
Print Assumptions C16_own_id_kept.
Theorem C16_create_uses_own_id id P fuel a w c w' :
  has_own id (w_disk w) -> exec base (create P fuel a) w (Val c) w' -> c_jid c = a_jid a /\ c_dev c = id.
Proof. intros H1 H2. rewrite (own_create id P fuel a w c w' H1 H2). split; reflexivity. Qed.
Print Assumptions C16_create_uses_own_id.
Definition ex_prims : prims := Prims id id id id.
Definition ex_args : create_args := CreateArgs ["n"; "m"] "me" (Some "phone") "U" 50.
Example C16_example :
  let r := run base env (create ex_prims 9 ex_args) empty_world in
  r.1 = Val (Cfg "me" 1 "U" 50) /\ has_own 1 (w_disk r.2) /\
  (run base env (create ex_prims 9 (CreateArgs ["m"] "me" None "V" 60)) r.2).1 = Val (Cfg "me" 1 "V" 60).
Proof. vm_compute. repeat split; reflexivity. Qed.

(** ** C31: trust levels change only by set_trust, purge_bare_jid and the first-run setup. *)
Theorem C31_trust_kept d0 j ik (ok : call -> Prop) w w' :
  (forall c, ok c -> keeps_trust d0 j ik c) -> hist ok w w' -> w_disk w = d0 ->
  w_disk w' !! item_key (ITrust j ik) = d0 !! item_key (ITrust j ik).
Proof. exact (trust_kept d0 j ik ok w w'). Qed.
Print Assumptions C31_trust_kept.
Example C31_example :
  let w := (run base env (set_trust "a" "key" "T") (run base env (create ex_prims 9 ex_args) empty_world).2).2 in
  let cf := Cfg "me" 1 "U" 50 in
  let p := set_trust "a" "key2" "D" ;;; update_device_list cf "n" "a" [(5%Z, None)] ;;; purge_bare_jid "b" in
  let w' := (run base env p w).2 in
  appcode (keeps_trust (w_disk w) "a" "key") p /\
  w_disk w' !! item_key (ITrust "a" "key2") = Some (JStr "D") /\
  w_disk w' !! item_key (ITrust "a" "key") = Some (JStr "T").
Proof.
  cbv zeta. split; [|vm_compute; split; reflexivity].
  apply app_bind; [apply (app_call _ _ (KSetTrust _ _ _)); [simpl; congruence|done]|intros _].
  apply app_bind; [apply (app_call _ _ (KUpdate _ _ _ _)); done|intros _].
  apply (app_call _ _ (KPurgeJid _)); [simpl; congruence|done].
Qed.
