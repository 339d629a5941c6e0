(** The life of a storage: set-up, use, crashes and restarts of one account on one device (C10, C25, C26). *)
From Verif Require Export Api Spec Alone Typed Foot.
Open Scope prog_scope.
Open Scope list_scope.

(** This device; while no own device id is stored (the set-up is not finished) any device of the own account. *)
Definition mine (me : string) (d : gmap string json) (j : string) (x : Z) : Prop :=
  j = me /\ forall id, has_own id d -> x = id.

(** Namespaces, activity and label of the device are stored; if it is not this device, there is activity information
    for each of its namespaces. *)
Definition recorded (me : string) (d : gmap string json) (j : string) (x : Z) : Prop :=
  (exists l, holds (is_list is_str) d (INamespaces j x) l) /\
  (exists m, holds (is_dict is_bool) d (IActive j x) m) /\
  (exists o, labelled d j x o) /\
  (~ mine me d j x -> forall n, supports d j x n -> exists b, activity d j x n b).

(** Storages of the account [me] between and inside calls. *)
Definition sound (me : string) (d : gmap string json) : Prop :=
  typed [] d /\
  (forall j x, known d j x -> recorded me d j x) /\
  (d !! item_key IOwnDeviceId = None \/ exists id, has_own id d) /\
  (forall id, has_own id d -> known d me id /\ exists ik, keyed d me id ik) /\
  ikp_wf d.

(** No instance, or an instance described by [cf] is in use. *)
Inductive stage := Off | On (cf : cfg).

(** Calls before there is an instance. *)
Definition boots (me : string) (c : call) : Prop :=
  match c with KCreate _ _ a => a_jid a = me | KIkpGet => True | _ => False end.
(** Calls on the instance. Those made by [create] itself use the same account and device. *)
Definition same_device (cf cf' : cfg) : Prop := c_jid cf' = c_jid cf /\ c_dev cf' = c_dev cf.
Definition on (cf : cfg) (c : call) : Prop :=
  match c with
  | KCreate _ _ a => a_jid a = c_jid cf
  | KUpdate cf' _ _ _ | KRefresh cf' _ _ | KRefreshAll cf' _ | KGetInfo cf' _ | KGetOwn cf' | KSetLabel cf' _
  | KPurgeBackend cf' _ | KRotation cf' _ _ | KEnsure cf' | KReplace cf' _ _ | KAfter cf'
  | KEncrypt cf' _ _ _ _ _ | KDecrypt cf' _ => same_device cf cf'
  | KPurgeJid _ => False
  | KIkpGet | KSetTrust _ _ _ | KChain _ _ _ | KBefore => True
  end.

(** The call has nothing to do with the accounts in [D]. *)
Definition spares (D : list string) (c : call) : Prop := forall j i, j ∈ D -> account_item j i -> ~ touches c i.

(** One step: set-up attempts, application code with any calls but [purge_bare_jid], and runs of [purge_bare_jid] for
    another account; each may be cut off anywhere. Accounts whose purge failed or was cut off are remembered, and
    left alone until a run of [purge_bare_jid] completes. *)
Inductive lives (me : string) : stage * world * list string -> stage * world * list string -> Prop :=
  | l_boot P fuel a w cf w' D : a_jid a = me -> exec base (create P fuel a) w (Val cf) w' ->
      lives me (Off, w, D) (On cf, w', D)
  | l_start A (p : api A) w o w' D : appcode (boots me) p -> exec base p w o w' -> lives me (Off, w, D) (Off, w', D)
  | l_start_crash A (p : api A) w w1 w' D : appcode (boots me) p -> reach base p w w1 -> restart w1 w' ->
      lives me (Off, w, D) (Off, w', D)
  | l_app cf A (p : api A) w o w' D : appcode (fun c => on cf c /\ spares D c) p -> exec base p w o w' ->
      lives me (On cf, w, D) (On cf, w', D)
  | l_crash cf A (p : api A) w w1 w' D : appcode (fun c => on cf c /\ spares D c) p -> reach base p w w1 -> restart w1 w' ->
      lives me (On cf, w, D) (Off, w', D)
  | l_purge cf j w w' D : j <> me -> exec base (purge_bare_jid j) w (Val tt) w' ->
      lives me (On cf, w, D) (On cf, w', filter (fun j' => j' <> j) D)
  | l_purge_fail cf j e w w' D : j <> me -> exec base (purge_bare_jid j) w (Exn e) w' ->
      lives me (On cf, w, D) (On cf, w', j :: D)
  | l_purge_crash cf j w w1 w' D : j <> me -> reach base (purge_bare_jid j) w w1 -> restart w1 w' ->
      lives me (On cf, w, D) (Off, w', j :: D).
(** From a state without interrupted purges to another one. *)
Definition life (me : string) (s s' : stage * world) : Prop := rtc (lives me) (s, []) (s', []).

(** Exceptions that would show damaged or missing records. *)
Definition internal (e : exn) : Prop := e = ENothing \/ e = EKeyError \/ e = ETypeError \/ e = EBinascii.

(** Nothing outside fails: no call to the storage, a backend, the network or the trust evaluation raises, except that
    bundles may be missing or unavailable. *)
Definition healthy (w : world) (c : cmd) (r : resp c) : Prop :=
  match resp_exn c r with
  | None => True
  | Some e => (exists ns j x, c = NDownloadBundle ns j x) /\ (e = EBundleNotFound \/ e = EBundleDownloadFailed)
  end.

(** Code that raises none of these itself. Calls of [encrypt] and calls that read the message queue are left out. *)
Inductive tame (ok : call -> Prop) : forall A, api A -> Prop :=
  | tame_ret A (a : A) : tame ok A (Ret a)
  | tame_raise A e : ~ internal e -> tame ok A (Raise e)
  | tame_bind A B (p : api A) (f : A -> api B) :
      tame ok A p -> (forall a, tame ok B (f a)) -> tame ok B (bind p f)
  | tame_try A (p : api A) : appcode ok p -> tame ok (outcome A) (try_ p)
  | tame_step A c (k : resp c -> api A) :
      external c = true -> (forall w r, w_allowed w c r -> tame ok A (k r)) -> tame ok A (Step c k)
  | tame_call c : ok c ->
      match c with KEncrypt _ _ _ _ _ _ | KDecrypt _ _ | KAfter _ => False | _ => True end ->
      tame ok (call_ret c) (run_call c).
Global Arguments tame ok {A} _.

(** Calls that have no other reason to fail than something outside, while the namespaces in [L] are loaded. *)
Definition sure (L : list string) (c : call) : Prop :=
  match c with
  | KUpdate _ ns _ _ | KRefresh _ ns _ => ns ∈ L
  | KIkpGet | KRefreshAll _ _ | KSetTrust _ _ _ | KGetInfo _ _ | KGetOwn _ | KSetLabel _ _ | KPurgeBackend _ _ | KEnsure _
  | KChain _ _ _ | KBefore => True
  | _ => False
  end.

(** Exceptions that are neither the library's own (OMEMOException) nor a cancellation: which call raises them, and when.
    [w] and [w'] are the worlds before and after the call. EOutOfFuel is no exception of the code but the end of the
    draws or rounds given to the model. *)
Definition raises_here (w : world) (w' : world) (c : call) (e : exn) : Prop :=
  match c with
  | KCreate _ _ a => e = EOutOfFuel \/
      e = EValueError /\ (~ NoDup (a_backends a) \/ (a_threshold a < 25)%Z \/ (99 < a_threshold a)%Z)
  | KRotation _ _ _ => e = EOutOfFuel
  | KReplace cf' j x => e = ERuntime /\
      exists ds, exec base (get_device_information cf' j) w (Val ds) w' /\ forall d, d ∈ ds -> dv_id d <> x
  | KEncrypt _ _ _ pt prio _ => e = EKeyError /\ exists n, n ∈ from_option id (w_loaded w) prio /\ dget n pt = None
  | KDecrypt _ _ | KAfter _ => e = ETypeError
  | _ => False
  end.
