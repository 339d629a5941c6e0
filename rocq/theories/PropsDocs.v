(** Theorems C86, C87: the exceptions the docstrings announce. *)
From Verif Require Import Docs Env Life PfDocs PropsIdentity PropsDevices PropsLife.
Open Scope prog_scope.
Open Scope string_scope.
Open Scope list_scope.

(** ** C86 *)
(** Whatever other coroutines do meanwhile (short of unloading backends) and whatever the storage contains: if the methods of
    storage, backends and application raise what they document, and the network methods know the namespaces they are called
    with, every exception of the library that a public method other than decrypt raises is in its docstring. *)
Theorem C86_documented (P : world -> forall c, resp c -> Prop) L c l e l' :
  (forall w c r, P w c r -> by_the_book w c r /\ fixed_backends L w c r) ->
  (forall cf m, c <> KDecrypt cf m) -> documented_decision (alone P) c ->
  exec (alone P) (run_call c) l (Exn e) l' -> is_omemo e = true -> documented c e.
Proof. exact (docs_call P L c l e l'). Qed.
Print Assumptions C86_documented.
(** One documented exception does not occur: encrypt reports failed key exchanges in its result instead. *)
Theorem C86_encrypt_key_exchange (P : world -> forall c, resp c -> Prop) L cf mtd jids pt prio ident l l' :
  (forall w c r, P w c r -> by_the_book w c r /\ fixed_backends L w c r) ->
  documented_decision (alone P) (KEncrypt cf mtd jids pt prio ident) ->
  ~ exec (alone P) (encrypt cf mtd jids pt prio ident) l (Exn EKeyExchangeFailed) l'.
Proof. exact (docs_encrypt P L cf mtd jids pt prio ident l l'). Qed.
Print Assumptions C86_encrypt_key_exchange.

(** A failing device list upload, and a failing key exchange *)
Definition env_kex (w : world) (c : cmd) : resp c :=
  match c return resp c with
  | NUploadDL _ _ => Exn EDeviceListUploadFailed
  | BBuildActive _ _ _ _ _ => Exn EKeyExchangeFailed
  | BLoadSession _ _ _ => Val None
  | c => env w c
  end.
Lemma env_kex_book w c : w_allowed w c (env_kex w c) /\ by_the_book w c (env_kex w c).
Proof. split; [destruct c; try apply env_allowed; done|]. destruct c; try exact Logic.I; right; left. Qed.
Example C86_example :
  let set := run (with_contract by_the_book) env_kex (set_own_label cf0 None) ex_boot2.2 in
  let enc := run (with_contract by_the_book) env_kex (encrypt cf0 (fun _ _ => Ret tt) ["you"] [("n", "hi"); ("m", "hi")] None None) ex_boot2.2 in
  exec (with_contract by_the_book) (set_own_label cf0 None) ex_boot2.2 (Exn EDeviceListUploadFailed) set.2 /\
  documented (KSetLabel cf0 None) EDeviceListUploadFailed /\
  exec (with_contract by_the_book) (encrypt cf0 (fun _ _ => Ret tt) ["you"] [("n", "hi"); ("m", "hi")] None None) ex_boot2.2
    (Exn (ENoEligibleDevices ["you"])) enc.2 /\
  documented (KEncrypt cf0 (fun _ _ => Ret tt) ["you"] [("n", "hi"); ("m", "hi")] None None) (ENoEligibleDevices ["you"]).
Proof.
  intros set enc.
  assert (set.1 = Exn EDeviceListUploadFailed) as E1 by (vm_compute; reflexivity).
  assert (enc.1 = Exn (ENoEligibleDevices ["you"])) as E2 by (vm_compute; reflexivity).
  split; [rewrite <- E1; refine (run_exec (with_contract by_the_book) env_kex _ _ env_kex_book)|].
  split; [vm_compute; right; left|].
  split; [rewrite <- E2; refine (run_exec (with_contract by_the_book) env_kex _ _ env_kex_book)|].
  vm_compute. do 5 right. left.
Qed.

(** ** C87 *)
(** decrypt: four more. *)
Theorem C87_decrypt_partial (P : world -> forall c, resp c -> Prop) L cf m l e l' :
  (forall w c r, P w c r -> by_the_book w c r /\ fixed_backends L w c r) ->
  exec (alone P) (decrypt cf m) l (Exn e) l' -> is_omemo e = true -> documented (KDecrypt cf m) e \/
    e = ETooManySkipped \/ e = EBundleUploadFailed \/ e = EDeviceListDownloadFailed \/ e = EDeviceListUploadFailed.
Proof. exact (docs_decrypt P L cf m l e l'). Qed.
Print Assumptions C87_decrypt_partial.

(** Each of the four does occur, on storages the library produces itself. *)
Definition env_bad (e : exn) (w : world) (c : cmd) : resp c :=
  match c return resp c with
  | NUploadBundle _ => if decide (e = EBundleUploadFailed) then Exn e else Val tt
  | NUploadDL _ _ => if decide (e = EDeviceListUploadFailed) then Exn e else Val tt
  | NDownloadDL _ _ => if decide (e = EDeviceListDownloadFailed) then Exn e else Val []
  | BDecKey _ s _ => if decide (e = ETooManySkipped) then Exn e else Val (s, "km")
  | BLoadSession ns j d => Val (if decide (e = ETooManySkipped) then Some (Session ns j d Passive true (Kex "ik:you" "remote") None 0 "s") else None)
  | c => env w c
  end.
Lemma env_bad_book e w c : w_allowed w c (env_bad e w c) /\ by_the_book w c (env_bad e w c).
Proof.
  split.
  - destruct c; try apply env_allowed; try done. all: cbn; destruct (decide _) as [->|_]; try done; constructor.
  - destruct c; try exact Logic.I; cbn; try exact Logic.I; destruct (decide _) as [->|_]; try exact Logic.I; right; left.
Qed.
Definition msg_bad (e : exn) : message :=
  match e with
  | ETooManySkipped => Message "n" "you" 5 (Content false "x") [(Ekm "me" (c_dev cf0) "k", None)]
  | EBundleUploadFailed => Message "n" "you" 5 (Content false "x") [(Ekm "me" (c_dev cf0) "k", Some (Kex "ik:you" "remote"))]
  | EDeviceListDownloadFailed => Message "n" "you" 99 (Content false "x") [(Ekm "me" (c_dev cf0) "k", None)]
  | _ => Message "n" "me" 99 (Content false "x") [(Ekm "me" (c_dev cf0) "k", None)]
  end.
Ltac undoc := unfold documented; cbn [kind doc_call]; repeat rewrite ?elem_of_cons, ?elem_of_nil;
  let H := fresh in intros H; repeat destruct H as [H|H]; try discriminate H; exact H.
Theorem C87_decrypt_refuted :
  exists w, life "me" (Off, empty_world) (On cf0, w) /\
    forall e, e ∈ [ETooManySkipped; EBundleUploadFailed; EDeviceListDownloadFailed; EDeviceListUploadFailed] ->
      exists m w', exec (with_contract by_the_book) (decrypt cf0 m) w (Exn e) w' /\ ~ documented (KDecrypt cf0 m) e.
Proof.
  exists ex_boot2.2. split; [apply ex_life2|]. intros e He. exists (msg_bad e).
  pose proof (run_exec (with_contract by_the_book) (env_bad e) (decrypt cf0 (msg_bad e)) ex_boot2.2 (env_bad_book e)) as H.
  set (r := run _ _ _ _) in H. exists r.2. split.
  - assert (r.1 = Exn e) as E; [|rewrite E in H; exact H]. clear H. subst r.
    repeat rewrite ?elem_of_cons, ?elem_of_nil in He. destruct He as [->|[->|[->|[->|[]]]]]; vm_compute; reflexivity.
  - clear H. repeat rewrite ?elem_of_cons, ?elem_of_nil in He. 
    destruct He as [->|[->|[->|[->|[]]]]]; undoc.
Qed.
Print Assumptions C87_decrypt_refuted.

(** If the network methods only know the namespaces of loaded backends: device information (so also encrypt, decrypt, replace_sessions)
    fails once a backend with devices whose identity key is not known yet has been purged, purging a backend that is not loaded
    fails, and so does a start with a backend removed. *)
Definition env_unl (w : world) (c : cmd) : resp c :=
  match c return resp c with
  | NDownloadBundle ns j d => if decide (ns ∈ w_loaded w) then Val (Bundle ns j d ("ik:" +:+ j) "remote") else Exn EUnknownNamespace
  | NDownloadDL ns j => if decide (ns ∈ w_loaded w) then Val (env_list (w_log w) ns) else Exn EUnknownNamespace
  | c => env w c
  end.
Lemma env_unl_book w c : w_allowed w c (env_unl w c) /\ by_the_book_loaded w c (env_unl w c).
Proof.
  split.
  - destruct c; try apply env_allowed; cbn; destruct (decide _); try done. apply env_list_nodup.
  - destruct c; try exact Logic.I; cbn; destruct (decide _) as [|Hn]; try exact Logic.I; right; right; (split; [done|exact Hn]).
Qed.
Definition ex_unl : api unit := update_device_list cf0 "m" "you" [(7%Z, None)] ;;; purge_backend cf0 "m".
Definition ex_unl_w := run base env ex_unl ex_use.2.
Lemma ex_life_unl : life "me" (Off, empty_world) (On cf0, ex_unl_w.2).
Proof.
  eapply PfAlive4.life_trans; [apply ex_life1|]. eapply (PfAlive4.life_app "me" cf0 ex_unl _ ex_unl_w.1).
  - apply app_bind; [|intros _].
    + apply (app_call _ _ (KUpdate cf0 "m" "you" [(7%Z, None)])); [by split|]. intros. discriminate.
    + apply (app_call _ _ (KPurgeBackend cf0 "m")); [by split|]. intros. discriminate.
  - unfold ex_unl_w. refine (run_exec base env _ _ env_allowed).
Qed.
Theorem C87_namespaces_refuted :
  exists w w1 w2 w3 a, life "me" (Off, empty_world) (On cf0, w) /\
    exec (with_contract by_the_book_loaded) (get_device_information cf0 "you") w (Exn EUnknownNamespace) w1 /\
    ~ documented (KGetInfo cf0 "you") EUnknownNamespace /\
    exec (with_contract by_the_book_loaded) (purge_backend cf0 "m") w (Exn EUnknownNamespace) w2 /\
    ~ documented (KPurgeBackend cf0 "m") EUnknownNamespace /\
    a_jid a = "me" /\
    exec (with_contract by_the_book_loaded) (create ex_prims 9 a) (World (w_disk ex_use.2) [] false []) (Exn EUnknownNamespace) w3 /\
    ~ documented (KCreate ex_prims 9 a) EUnknownNamespace.
Proof.
  exists ex_unl_w.2.
  pose proof (run_exec (with_contract by_the_book_loaded) env_unl (get_device_information cf0 "you") ex_unl_w.2 env_unl_book) as H1.
  set (r1 := run _ _ _ _) in H1. exists r1.2.
  pose proof (run_exec (with_contract by_the_book_loaded) env_unl (purge_backend cf0 "m") ex_unl_w.2 env_unl_book) as H2.
  set (r2 := run _ _ _ _) in H2. exists r2.2. pose (a := CreateArgs ["n"] "me" None "U" 50).
  pose proof (run_exec (with_contract by_the_book_loaded) env_unl (create ex_prims 9 a) (World (w_disk ex_use.2) [] false []) env_unl_book) as H3.
  set (r3 := run _ _ _ _) in H3. exists r3.2, a. split; [apply ex_life_unl|].
  assert (r1.1 = Exn EUnknownNamespace) as E1 by (vm_compute; reflexivity). rewrite E1 in H1.
  assert (r2.1 = Exn EUnknownNamespace) as E2 by (vm_compute; reflexivity). rewrite E2 in H2.
  assert (r3.1 = Exn EUnknownNamespace) as E3 by (vm_compute; reflexivity). rewrite E3 in H3.
  split; [exact H1|]. clear H1. split; [undoc|].
  split; [exact H2|]. clear H2. split; [undoc|].
  split; [reflexivity|]. split; [exact H3|]. undoc.
Qed.
Print Assumptions C87_namespaces_refuted.
