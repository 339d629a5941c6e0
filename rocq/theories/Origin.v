(** Vocabulary of C99: where the things come from that the storage says about accounts and devices. Nothing here is computed
    from the model of the calls. *)
From Verif Require Export Api Spec Alone.
Open Scope list_scope.

(** What the application gives to the library: instances, the cryptographic functions, device lists passed to
    update_device_list, trust levels passed to set_trust. *)
Record inputs := Inputs
  { in_cfg : cfg -> Prop; in_prims : prims -> Prop; in_list : string -> string -> list (Z * option string) -> Prop;
    in_level : string -> bytes -> string -> Prop }.

Section origin.
  Context (X : inputs) (log : list event).
  (** An account this library is used with. *)
  Definition ours (j : string) : Prop := exists cf, in_cfg X cf /\ c_jid cf = j.
  (** The device list [dl] of the account was downloaded or given. *)
  Definition announced (ns j : string) (dl : list (Z * option string)) : Prop :=
    EvDownloadDL ns j (Val dl) ∈ log \/ in_list X ns j dl.
  Definition on_list (ns j : string) (x : Z) : Prop := exists dl, announced ns j dl /\ x ∈ dkeys dl.
  Definition with_label (j : string) (x : Z) (s : string) : Prop := exists ns dl, announced ns j dl /\ dget x dl = Some (Some s).
  (** The key is in a bundle downloaded for that device, or is the public key of a key pair of this library. *)
  Definition key_from (j : string) (x : Z) (ik : bytes) : Prop :=
    (exists ns b, EvDownloadBundle ns j x (Val b) ∈ log /\ b_ik b = ik) \/
    (ours j /\ exists P s, in_prims X P /\ (ik = seed_to_ed25519_pub P s \/ ik = priv_to_ed25519_pub P s)).
  Definition storage_from (d : gmap string json) : Prop :=
    (forall j x ik, keyed d j x ik -> key_from j x ik) /\
    (forall j x, known d j x -> ours j \/ exists ns, on_list ns j x) /\
    (forall j x n, supports d j x n -> ours j \/ on_list n j x) /\
    (forall j x n b, activity d j x n b -> ours j \/ on_list n j x) /\
    (forall j x s, labelled d j x (Some s) -> ours j \/ with_label j x s) /\
    (forall j ik level, trusted_as d j ik level -> in_level X j ik level).
  (** The same for what the library says about a device. *)
  Definition device_from (d : device) : Prop :=
    key_from (dv_jid d) (dv_id d) (dv_ik d) /\
    (forall n, n ∈ dv_namespaces d -> ours (dv_jid d) \/ on_list n (dv_jid d) (dv_id d)) /\
    (forall n b, dget n (dv_active d) = Some b -> ours (dv_jid d) \/ on_list n (dv_jid d) (dv_id d)) /\
    (forall s, dv_label d = Some s -> ours (dv_jid d) \/ with_label (dv_jid d) (dv_id d) s) /\
    (in_level X (dv_jid d) (dv_ik d) (dv_trust d) \/ exists cf, in_cfg X cf /\ dv_trust d = c_undecided cf).
End origin.

(** Calls that use the given things. *)
Definition uses (X : inputs) (c : call) : Prop :=
  match c with
  | KCreate P _ a =>
      in_prims X P /\ (forall dev, in_cfg X (Cfg (a_jid a) dev (a_undecided a) (a_threshold a))) /\
      forall s, in_level X (a_jid a) (seed_to_ed25519_pub P s) (a_undecided a) /\ in_level X (a_jid a) (priv_to_ed25519_pub P s) (a_undecided a)
  | KUpdate cf ns j dl => in_cfg X cf /\ in_list X ns j dl
  | KSetTrust j ik level => in_level X j ik level
  | KRefresh cf _ _ | KRefreshAll cf _ | KGetInfo cf _ | KGetOwn cf | KSetLabel cf _ | KPurgeBackend cf _ | KRotation cf _ _
  | KEnsure cf | KReplace cf _ _ | KAfter cf | KEncrypt cf _ _ _ _ _ | KDecrypt cf _ => in_cfg X cf
  | KIkpGet | KPurgeJid _ | KChain _ _ _ | KBefore => True
  end.
(** Application code that evaluates no trust levels itself. *)
Definition unjudging (c : cmd) : bool := match c with TEval _ => false | c => external c end.
Definition judged (X : inputs) (e : event) (before : list event) : Prop :=
  match e with EvEval d _ => device_from X before d | _ => True end.
