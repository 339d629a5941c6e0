(** Calls that may change what is recorded about an account. *)
From Verif Require Export Life.
Open Scope list_scope.

(** The call may write the device list of the account [j], or the namespaces, activity or labels of its devices, on the
    strength of a new device list. [decrypt] does so for senders that are not known yet. *)
Definition updates (j : string) (c : call) : Prop :=
  match c with
  | KUpdate _ _ j' _ | KRefresh _ _ j' | KRefreshAll _ j' | KPurgeJid j' => j' = j
  | KDecrypt _ m => m_jid m = j
  | _ => False
  end.

(** Device list, namespaces, activity and labels of the account [j]. *)
Definition record_item (j : string) (i : item) : Prop :=
  match i with IDeviceList j' | INamespaces j' _ | IActive j' _ | ILabel j' _ => j' = j | _ => False end.

(** Device list updates of the account [j] by themselves. *)
Definition only_updates (j : string) (c : call) : Prop :=
  match c with KUpdate _ _ j' _ | KRefresh _ _ j' | KRefreshAll _ j' => j' = j | _ => False end.
