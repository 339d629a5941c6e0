(** Theorems C80, C81: what makes a call fail. *)
From Verif Require Import Api Spec Env Alone Life PfHealth PropsIdentity PropsDevices PropsLife.
Open Scope prog_scope.
Open Scope string_scope.
Open Scope list_scope.

(** ** C80 *)
(** Whatever happened before (failures, crashes, restarts): as long as nothing outside fails during the call, updating and
    refreshing device lists of loaded backends, device information, trust and label changes, purging a backend,
    ensure_data_consistency and the chain lengths return normally. Missing bundles do not matter. *)
Theorem C80_calls_succeed me w0 w cf c o w' :
  w_disk w0 = ∅ -> life me (Off, w0) (On cf, w) -> on cf c -> sure (w_loaded w) c ->
  exec (with_contract healthy) (run_call c) w o w' -> exists v, o = Val v.
Proof. exact (life_sure me w0 w cf c o w'). Qed.
Print Assumptions C80_calls_succeed.
(** Purging an account, also the own one and also without an instance. *)
Theorem C80_purge_bare_jid me w0 w st j o w' :
  w_disk w0 = ∅ -> life me (Off, w0) (st, w) ->
  exec (with_contract healthy) (purge_bare_jid j) w o w' -> o = Val tt.
Proof. exact (life_purge_sure me w0 w st j o w'). Qed.
Print Assumptions C80_purge_bare_jid.
(** A start with valid arguments; [fuel] bounds the draws of a device id in the model. *)
Theorem C80_create me w0 w st P fuel a o w' :
  w_disk w0 = ∅ -> life me (Off, w0) (st, w) -> a_jid a = me ->
  NoDup (a_backends a) -> (25 <= a_threshold a <= 99)%Z ->
  exec (with_contract healthy) (create P fuel a) w o w' -> (exists cf, o = Val cf) \/ o = Exn EOutOfFuel.
Proof. exact (life_create_sure me w0 w st P fuel a o w'). Qed.
Print Assumptions C80_create.

(** no bundles can be downloaded, otherwise everything works *)
Definition env_nob (w : world) (c : cmd) : resp c :=
  match c return resp c with
  | NDownloadBundle _ _ _ => Exn EBundleNotFound
  | c => env w c
  end.
Lemma env_nob_healthy w c : w_allowed w c (env_nob w c) /\ healthy w c (env_nob w c).
Proof.
  split; [destruct c; try apply env_allowed; done|]. destruct c; try exact Logic.I.
  split; [by do 3 eexists|by left].
Qed.
Example C80_example :
  let p := ds <- get_device_information cf0 "you" ;; update_device_list cf0 "n" "you" [(8%Z, None)] ;;;
           ensure_data_consistency cf0 ;;; purge_backend cf0 "n" ;;; set_own_label cf0 (Some "desk") in
  life "me" (Off, empty_world) (On cf0, ex_boot2.2) /\ "n" ∈ w_loaded ex_boot2.2 /\
  exec (with_contract healthy) p ex_boot2.2 (Val tt) (run (with_contract healthy) env_nob p ex_boot2.2).2 /\
  (run base env_nob (get_device_information cf0 "you") ex_boot2.2).1 = Val [] /\
  (run base env_nob (create ex_prims 9 ex_args) (World (w_disk ex_boot2.2) [] false [])).1 = Val cf0 /\
  (run base env_nob (purge_bare_jid "you") ex_boot2.2).1 = Val tt.
Proof.
  split; [apply ex_life2|]. split; [vm_compute; apply elem_of_list_here|]. split.
  - match goal with |- exec _ ?p _ _ _ =>
      assert ((run (with_contract healthy) env_nob p ex_boot2.2).1 = Val tt) as E by (vm_compute; reflexivity) end.
    rewrite <- E. refine (run_exec (with_contract healthy) env_nob _ _ env_nob_healthy).
  - vm_compute. repeat split; reflexivity.
Qed.

(** ** C81 *)
(** All exceptions of all calls: exceptions of the library, the cancellation of the task, and the ones of [raises_here].
    For [encrypt] under the condition that the application's own callback behaves so as well. *)
Theorem C81_exceptions me w0 w cf c e w' :
  w_disk w0 = ∅ -> life me (Off, w0) (On cf, w) -> on cf c ->
  match c with
  | KEncrypt _ mtd _ _ _ _ => forall ds i, appcode (on cf) (mtd ds i) /\
      forall w1 e' w2, exec base (mtd ds i) w1 (Exn e') w2 -> is_omemo e' = true \/ e' = ECancelled
  | _ => True
  end ->
  exec base (run_call c) w (Exn e) w' -> is_omemo e = true \/ e = ECancelled \/ raises_here w w' c e.
Proof. exact (life_raises me w0 w cf c e w'). Qed.
Print Assumptions C81_exceptions.
Example C81_example :
  life "me" (Off, empty_world) (On cf0, ex_boot2.2) /\
  (run base env (refresh_device_list cf0 "other" "you") ex_boot2.2).1 = Exn EUnknownNamespace /\
  (run base env (replace_sessions cf0 "you" 99) ex_boot2.2).1 = Exn ERuntime /\
  (run base env (create ex_prims 9 (CreateArgs ["n"; "n"] "me" None "U" 99)) ex_boot2.2).1 = Exn EValueError /\
  (run base env_full (set_trust "you" "k" "T") ex_boot2.2).1 = Exn EStorage.
Proof. split; [apply ex_life2|]. vm_compute. repeat split; reflexivity. Qed.
