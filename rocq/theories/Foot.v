(** What a call touches: the items of the storage it may read or write, and the instance attributes. Nothing here is
    computed from the model of the calls; PfFoot.v proves that the calls stay inside. *)
From Verif Require Export Api Spec.
Open Scope list_scope.

(** The items about the account [j]. *)
Definition account_item (j : string) (i : item) : Prop :=
  match i with
  | IDeviceList j' | INamespaces j' _ | IActive j' _ | ILabel j' _ | IIdentityKey j' _ | ITrust j' _ => j' = j
  | _ => False
  end.
Definition queue_item (i : item) : Prop := match i with IQueue _ | IQueueDevices _ _ => True | _ => False end.
Definition keypair_item (i : item) : Prop := i = IKeyPairIsSeed \/ i = IKeyPairKey.

Definition touches (c : call) (i : item) : Prop :=
  match c with
  | KCreate _ _ a => account_item (a_jid a) i \/ keypair_item i \/ i = IOwnDeviceId
  | KIkpGet => keypair_item i
  | KUpdate _ _ j _ | KRefresh _ _ j | KRefreshAll _ j | KSetTrust j _ _ | KGetInfo _ j | KPurgeJid j | KReplace _ j _ =>
      account_item j i
  | KGetOwn cf | KSetLabel cf _ | KPurgeBackend cf _ | KEnsure cf => account_item (c_jid cf) i
  | KRotation _ _ _ | KChain _ _ _ | KBefore => False
  | KAfter _ => queue_item i
  | KEncrypt cf _ jids _ _ _ => exists j, (j ∈ jids \/ j = c_jid cf) /\ account_item j i
  | KDecrypt _ m => account_item (m_jid m) i \/ queue_item i
  end.

(** Calls that load or unload backends, that change the history synchronization mode, and that depend on it. *)
Definition sets_loaded (c : call) : Prop := match c with KCreate _ _ _ | KPurgeBackend _ _ => True | _ => False end.
Definition sets_sync (c : call) : Prop := match c with KCreate _ _ _ | KBefore | KAfter _ => True | _ => False end.
Definition reads_sync (c : call) : Prop := match c with KDecrypt _ _ => True | _ => False end.

(** [c'] does not get in the way of [c], if it neither loads nor unloads a backend. *)
Definition independent (c c' : call) : Prop :=
  (forall i, touches c i -> ~ touches c' i) /\ (reads_sync c -> ~ sets_sync c').

(** Commands of application code that does not look at the synchronization mode. *)
Definition sync_free (c : cmd) : bool := match c with GSync => false | c => external c end.
