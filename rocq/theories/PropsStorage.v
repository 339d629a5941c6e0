(** Theorems C01-C08 and C68: storage, typed loads, storage keys, Maybe, fingerprints. *)
From Verif Require Import Spec StorageImpl Model Env PfStrs PfStorage PfTyped Heap PfHeap.
Open Scope prog_scope.
Open Scope list_scope.
Open Scope string_scope.

(** ** C01: the caching Storage behaves like a map. *)
Theorem C01_cached_storage_is_a_map ops w o w' :
  coherent w -> exec rbase (run_ops ops) w o w' ->
  exists rs, o = Val rs /\ map_spec (r_disk w) ops rs /\ coherent w' /\ r_disk w' = acked (r_disk w) ops rs.
Proof. exact (run_ops_spec ops w o w'). Qed.
Print Assumptions C01_cached_storage_is_a_map.

(** A new Storage object (empty cache, or no cache) is coherent with whatever is on disk. *)
Theorem C01_new_storage_coherent w : coherent (RWorld w (Some ∅)) /\ coherent (RWorld w None).
Proof. exact (conj (coherent_empty w) (coherent_nocache w)). Qed.
Print Assumptions C01_new_storage_coherent.

Definition ex_ops : list sop :=
  [OStore "a" (JInt 1); OLoad "a"; OLoad "b"; ODelete "a"; OLoad "a"; OStore "a" JNull; OLoad "a"].
Example C01_example :
  (run rbase renv (run_ops ex_ops) (RWorld empty_world (Some ∅))).1 =
  Val [RDone (Val tt); RLoaded (Val (Some (JInt 1))); RLoaded (Val None); RDone (Val tt);
       RLoaded (Val None); RDone (Val tt); RLoaded (Val (Some JNull))].
Proof. vm_compute. reflexivity. Qed.

(** ** C02: the cache is transparent to every program. *)
Theorem C02_cache_sound {A} (p : api A) w o w' :
  coherent w -> exec rbase (lower p) w o w' -> exec base p (r_world w) o (r_world w') /\ coherent w'.
Proof. exact (lower_sound p w o w'). Qed.
Print Assumptions C02_cache_sound.

(** Conversely every bare-storage behaviour is a behaviour with the cache, except that a cached load cannot
    fail. *)
Theorem C02_cache_complete {A} (p : api A) w o w' :
  coherent w -> exec (with_contract loads_ok) p (r_world w) o w' ->
  exists rw', exec rbase (lower p) w o rw' /\ r_world rw' = w'.
Proof. exact (lower_complete p w o w'). Qed.
Print Assumptions C02_cache_complete.

Example C02_example :
  let p := s_store "k" (JInt 7) ;;; a <- s_load "k" ;; b <- s_load "k" ;; s_delete "k" ;;; c <- s_load "k" ;;
           Ret (a, b, c) in
  let r := run rbase renv (lower p) (RWorld empty_world (Some ∅)) in
  r.1 = Val (Some (JInt 7), Some (JInt 7), None) /\ (run base env p empty_world).1 = r.1.
Proof. vm_compute. split; reflexivity. Qed.

(** ** C03: durability at every crash point. *)
Theorem C03_durable ops w w' :
  coherent w -> reach rbase (run_ops ops) w w' ->
  exists done rest rs w1, ops = (done ++ rest)%list /\ exec rbase (run_ops done) w (Val rs) w1 /\
    r_disk w1 = acked (r_disk w) done rs /\
    (r_disk w' = r_disk w1 \/ exists op rest', rest = op :: rest' /\ r_disk w' = op_effect (r_disk w1) op).
Proof. exact (run_ops_crash ops w w'). Qed.
Print Assumptions C03_durable.

Example C03_example :
  let w' := run_crash rbase renv 3 (run_ops ex_ops) (RWorld empty_world (Some ∅)) in
  reach rbase (run_ops ex_ops) (RWorld empty_world (Some ∅)) w' /\ r_disk w' = {["a" := JInt 1]}.
Proof. split; [apply run_crash_reach, renv_allowed|vm_compute; reflexivity]. Qed.

(** ** C04: concurrent users of one Storage. *)
(** Partial: only with [disable_cache=True], and for a coroutine that waits between its own store and load,
    against any other coroutines that do not write the key. *)
Theorem C04_no_cache_partial k v ps i w ps' w' :
  r_cache w = None -> ps !! i = Some (store_then_check k v) ->
  (forall j q, j <> i -> ps !! j = Some q -> never_writes k q) ->
  preach rbase (ps, w) (ps', w') -> ps' !! i <> Some (Raise ERuntime).
Proof. exact (no_cache_concurrent k v ps i w ps' w'). Qed.
Print Assumptions C04_no_cache_partial.

Example C04_no_cache_example :
  let ps := [store_then_check "k" "new"; just_load "k"] in
  let w := RWorld (set_disk {["k" := JStr "old"]} empty_world) None in
  let r := run_sched rbase r_awaited renv [0;0;0;0;1;1;1;0;0;0;0]%nat (ps, w, None) in
  r_cache w = None /\ ps !! 0%nat = Some (store_then_check "k" "new") /\
  never_writes "k" (just_load "k") /\
  match r.1.1 !! 0%nat with Some (Ret tt) => True | _ => False end.
Proof.
  split; [done|]. split; [done|]. split; [|vm_compute; done].
  simpl. split; [tauto|]. intros [v|]; simpl; [done|]. split; [tauto|]. intros [v|e]; simpl; [|done].
  split; [tauto|]. done.
Qed.

(** Partial: with or without the cache, but the other coroutines do not use the key at all. *)
Theorem C04_own_keys_partial k v ps i w ps' w' :
  ps !! i = Some (store_then_check k v) ->
  (forall j q, j <> i -> ps !! j = Some q -> never_uses k q) ->
  preach rbase (ps, w) (ps', w') -> ps' !! i <> Some (Raise ERuntime).
Proof. exact (alone_concurrent k v ps i w ps' w'). Qed.
Print Assumptions C04_own_keys_partial.
Example C04_own_keys_example :
  let ps := [store_then_check "k" "new"; just_load "l"] in
  let w := RWorld (set_disk {["k" := JStr "old"]} empty_world) (Some ∅) in
  let r := run_sched rbase r_awaited renv [0;0;0;0;1;1;1;0;0;0;0]%nat (ps, w, None) in
  ps !! 0%nat = Some (store_then_check "k" "new") /\ never_uses "k" (just_load "l") /\
  match r.1.1 !! 0%nat with Some (Ret tt) => True | _ => False end.
Proof.
  split; [done|]. split; [|vm_compute; done].
  simpl. split; [done|]. intros [v|]; simpl; [done|]. split; [done|]. intros [v|e]; simpl; [|done].
  split; [done|]. done.
Qed.

(** With the cache a concurrent load of the old value overwrites the cache entry of a completed store, and
    keeps it stale. *)
Theorem C04_cache_race_refuted :
  exists w ps' w' l',
    coherent w /\
    areach rbase r_awaited ([just_load "k"; store_then_check "k" "new"], w, None) (ps', w', l') /\
    ps' !! 1%nat = Some (Raise ERuntime) /\ r_disk w' !! "k" = Some (JStr "new") /\
    (exists c, r_cache w' = Some c /\ c !! "k" = Some (Some (JStr "old"))).
Proof. exact cache_race. Qed.
Print Assumptions C04_cache_race_refuted.

(** ** C05 *)
Theorem C05_bytes_roundtrip (b : bytes) k w o w' :
  exec base (store_bytes k b ;;; load_bytes k) w o w' ->
  o = Val (Some b) \/ exists e, ext_exn e = true /\ o = Exn e.
Proof. exact (bytes_roundtrip b k w o w'). Qed.
Print Assumptions C05_bytes_roundtrip.
Theorem C05_bytes_roundtrip_cached (b : bytes) k w o w' :
  coherent w -> exec rbase (lower (store_bytes k b ;;; load_bytes k)) w o w' ->
  o = Val (Some b) \/ exists e, ext_exn e = true /\ o = Exn e.
Proof. exact (fun Hc H => bytes_roundtrip b k _ o _ (proj1 (lower_sound _ w o w' Hc H))). Qed.
Print Assumptions C05_bytes_roundtrip_cached.
Example C05_example :
  (run rbase renv (lower (store_bytes "k" "ab?>" ;;; load_bytes "k")) (RWorld empty_world (Some ∅))).1 =
    Val (Some "ab?>") /\ b64enc "ab?>" = "YWI_Pg==".
Proof. vm_compute. split; reflexivity. Qed.

(** ** C06: typed loads. [typed_result] is the specification; [A], [prim], [T] range over the primitive types. *)
Definition loads_typed {A} (load : string -> api (option A)) (T : json -> A -> Prop) : Prop :=
  forall k w,
  (forall o w', exec base (load k) w o w' ->
     w' = w /\ ((exists e, ext_exn e = true /\ o = Exn e) \/ typed_result T (w_disk w !! k) o)) /\
  (exists o, exec base (load k) w o w /\ typed_result T (w_disk w !! k) o).
Theorem C06_load_primitive A prim T : primitive A prim T -> loads_typed (load_primitive prim) T.
Proof. exact (fun H k w => typed_load _ T k w (check_primitive A prim T H)). Qed.
Print Assumptions C06_load_primitive.
Theorem C06_load_optional A prim T : primitive A prim T -> loads_typed (load_optional prim) (is_opt T).
Proof. exact (fun H k w => typed_load _ (is_opt T) k w (check_optional A prim T H)). Qed.
Print Assumptions C06_load_optional.
Theorem C06_load_list A prim T : primitive A prim T -> loads_typed (load_list prim) (is_list T).
Proof. exact (fun H k w => typed_load _ (is_list T) k w (check_list A prim T H)). Qed.
Print Assumptions C06_load_list.
Theorem C06_load_dict A prim T : primitive A prim T -> loads_typed (load_dict prim) (is_dict T).
Proof. exact (fun H k w => typed_load _ (is_dict T) k w (check_dict A prim T H)). Qed.
Print Assumptions C06_load_dict.
Theorem C06_load_bytes k w o w' :
  exec base (load_bytes k) w o w' ->
  w' = w /\
  ((exists e, ext_exn e = true /\ o = Exn e) \/
   match w_disk w !! k with
   | None => o = Val None
   | Some (JStr s) => o = match b64dec s with Some b => Val (Some b) | None => Exn EBinascii end
   | Some _ => o = Exn ETypeError
   end).
Proof. exact (load_bytes_exec k w o w'). Qed.
Print Assumptions C06_load_bytes.
Example C06_example :
  let w v := set_disk {["k" := v]} empty_world in
  (run base env (load_optional as_int "k") (w JNull)).1 = Val (Some None) /\
  (run base env (load_optional as_int "k") empty_world).1 = Val None /\
  (run base env (load_primitive as_int "k") (w (JBool true))).1 = Val (Some 1%Z) /\
  (run base env (load_primitive as_bool "k") (w (JInt 1))).1 = Exn ETypeError /\
  (run base env (load_list as_str "k") (w (JList [JStr "a"; JInt 1]))).1 = Exn ETypeError /\
  (run base env (load_dict as_bool "k") (w (JDict [("n", JBool true)]))).1 = Val (Some [("n", true)]) /\
  (run base env (load_bytes "k") (w (JStr "YWI_Pg=="))).1 = Val (Some "ab?>") /\
  (run base env (load_bytes "k") (w (JStr "Y WI/P!g==?"))).1 = Val (Some "ab?>") /\
  (run base env (load_bytes "k") (w (JStr "YWI_Pg="))).1 = Exn EBinascii.
Proof. vm_compute. repeat split; reflexivity. Qed.

(** ** C07: no two items share a storage key. *)
Theorem C07_keys_distinct nss i j :
  ns_separated nss -> item_in nss i -> item_in nss j -> item_key i = item_key j -> i = j.
Proof. exact (item_key_inj nss i j). Qed.
Print Assumptions C07_keys_distinct.
(** The keys the model uses are the ones of the specification. *)
Theorem C07_keys_of_model :
  k_ikp_seed = item_key IKeyPairIsSeed /\ k_ikp_key = item_key IKeyPairKey /\ k_own = item_key IOwnDeviceId /\
  (forall j, k_list j = item_key (IDeviceList j)) /\
  (forall j d, k_ns j d = item_key (INamespaces j d)) /\
  (forall j d, k_active j d = item_key (IActive j d)) /\
  (forall j d, k_label j d = item_key (ILabel j d)) /\
  (forall j d, k_ik j d = item_key (IIdentityKey j d)) /\
  (forall j ik, k_trust j ik = item_key (ITrust j ik)) /\
  (forall ns, k_queue ns = item_key (IQueue ns)) /\
  (forall ns j, k_queue_jid ns j = item_key (IQueueDevices ns j)).
Proof. exact item_key_model. Qed.
Print Assumptions C07_keys_of_model.
Example C07_example :
  ns_separated ["urn:xmpp:omemo:2"; "eu.siacs.conversations.axolotl"] /\
  item_key (INamespaces "a@b/list" 5) = "/devices/a@b/list/5/namespaces" /\
  item_key (IDeviceList "a@b/list/5/namespaces") = "/devices/a@b/list/5/namespaces/list".
Proof.
  split; [|vm_compute; split; reflexivity].
  intros n n' Hn Hn' x Hx.
  repeat (apply elem_of_cons in Hn as [->|Hn]); repeat (apply elem_of_cons in Hn' as [->|Hn']);
    try (by apply elem_of_nil in Hn); try (by apply elem_of_nil in Hn'); simpl in Hx; discriminate Hx.
Qed.
(** The side condition is needed: a namespace that extends another one by a slash does collide. *)
Example C07_separation_needed : item_key (IQueue "n/j") = item_key (IQueueDevices "n" "j").
Proof. reflexivity. Qed.

(** ** C08: values inside Just are isolated from the outside. *)
Theorem C08_just_isolated h0 h own cells v n j fuel h1 v1 s2 :
  wf_heap h0 -> msteps (m_init h0) (MState h own cells) ->
  refs_in own [v] -> read n (h_objs h) v = Some j -> deepcopy fuel h v = Some (h1, v1) ->
  msteps (MState h1 own (cells ++ [v1])) s2 ->
  exists c, m_cells s2 !! length cells = Some c /\
    (exists fuel', is_Some (deepcopy fuel' (m_heap s2) c)) /\
    forall fuel' h' v', deepcopy fuel' (m_heap s2) c = Some (h', v') -> exists m, read m (h_objs h') v' = Some j.
Proof. exact (just_isolated h0 h own cells v n j fuel h1 v1 s2). Qed.
Print Assumptions C08_just_isolated.

(** x = [1]; y = [x, x]; m = Just(y); x.append(2) *)
Definition ex_heap : heap :=
  Heap {[0%nat := OList [RAtom (JInt 1)]; 1%nat := OList [RPtr 0; RPtr 0]]} 2.
Example C08_example :
  wf_heap ex_heap /\
  read 2 (h_objs ex_heap) (RPtr 1) = Some (JList [JList [JInt 1]; JList [JInt 1]]) /\
  exists h1 v1, deepcopy 2 ex_heap (RPtr 1) = Some (h1, v1) /\
    let own := m_own (m_init ex_heap) in
    let s2 := MState (Heap (<[0%nat := OList [RAtom (JInt 1); RAtom (JInt 2)]]> (h_objs h1)) (h_next h1)) own [v1] in
    mstep (MState h1 own [v1]) s2 /\
    read 2 (h_objs (m_heap s2)) (RPtr 1) = Some (JList [JList [JInt 1; JInt 2]; JList [JInt 1; JInt 2]]) /\
    read 2 (h_objs (m_heap s2)) v1 = Some (JList [JList [JInt 1]; JList [JInt 1]]).
Proof.
  split.
  { intros l o H. unfold ex_heap in *. simpl in *.
    apply lookup_insert_Some in H as [[<- <-]|[_ H]];
      [|apply lookup_singleton_Some in H as [<- <-]];
      (split; [lia|]); intros l' Hl; simpl in Hl;
      repeat (apply elem_of_cons in Hl as [Hl'|Hl]; [first [discriminate Hl' | injection Hl' as ->; lia]|]);
      by apply elem_of_nil in Hl. }
  split; [vm_compute; reflexivity|].
  eexists _, _. split; [vm_compute; reflexivity|]. cbv zeta. split.
  { constructor; [set_solver|]. intros l Hl. simpl in Hl.
    repeat (apply elem_of_cons in Hl as [?|Hl]; [done|]). by apply elem_of_nil in Hl. }
  split; vm_compute; reflexivity.
Qed.

(** ** C68: fingerprints. *)
Theorem C68_fingerprint P ik :
  let raw := ed25519_pub_to_curve25519_pub P ik in
  sconcat (format_identity_key P ik) = hex raw /\
  String.length (hex raw) = (2 * String.length raw)%nat /\
  all_chars is_lower_hex (hex raw).
Proof. exact (conj (fingerprint_concat P ik) (conj (hex_length _) (hex_lower _))). Qed.
Print Assumptions C68_fingerprint.
(** Read as hexadecimal numbers of two digits, the fingerprint spells exactly the bytes of the key. *)
Theorem C68_spells_key P ik : spells (sconcat (format_identity_key P ik)) (ed25519_pub_to_curve25519_pub P ik).
Proof. exact (fingerprint_spells P ik). Qed.
Print Assumptions C68_spells_key.
Theorem C68_groups P ik :
  String.length (ed25519_pub_to_curve25519_pub P ik) = 32%nat ->
  length (format_identity_key P ik) = 8%nat /\ Forall (fun g => String.length g = 8%nat) (format_identity_key P ik).
Proof. exact (fingerprint_groups P ik). Qed.
Print Assumptions C68_groups.
Theorem C68_injective P P' ik ik' :
  format_identity_key P ik = format_identity_key P' ik' ->
  ed25519_pub_to_curve25519_pub P ik = ed25519_pub_to_curve25519_pub P' ik'.
Proof. exact (fingerprint_inj P P' ik ik'). Qed.
Print Assumptions C68_injective.
Example C68_example :
  format_identity_key (Prims id id id id) "abcdefghijklmnopqrstuvwxyz012345" =
  ["61626364"; "65666768"; "696a6b6c"; "6d6e6f70"; "71727374"; "75767778"; "797a3031"; "32333435"].
Proof. vm_compute. reflexivity. Qed.
