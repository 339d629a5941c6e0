(** Vocabulary of C97: what calls tell the network. Nothing here is computed from the model of the calls. *)
From Verif Require Export Api Spec Alone Dec.
Open Scope list_scope.

(** Calls to the network: other accounts, or the server, learn about them. *)
Definition to_network (e : event) : Prop :=
  match e with
  | EvUploadBundle _ _ | EvDownloadBundle _ _ _ _ | EvDeleteBundle _ _ _ | EvUploadDL _ _ _ | EvDownloadDL _ _ _ | EvSend _ _ _ => True
  | _ => False
  end.
(** The bundle of this device. *)
Definition own_bundle (cf : cfg) (b : bundle) : Prop := b_jid b = c_jid cf /\ b_dev b = c_dev cf.

(** What a call may tell the network. *)
Definition tells (c : call) (e : event) : Prop :=
  match c with
  | KCreate _ _ a =>
      match e with
      | EvDownloadDL _ j _ | EvDownloadBundle _ j _ _ => j = a_jid a
      | EvUploadBundle b _ => b_jid b = a_jid a
      | EvUploadDL _ _ _ | EvDeleteBundle _ _ _ => True
      | _ => False
      end
  | KUpdate cf ns j _ => match e with EvUploadDL ns' _ _ => ns' = ns /\ j = c_jid cf | _ => False end
  | KRefresh cf ns j =>
      match e with EvDownloadDL ns' j' _ => ns' = ns /\ j' = j | EvUploadDL ns' _ _ => ns' = ns /\ j = c_jid cf | _ => False end
  | KRefreshAll cf j => match e with EvDownloadDL _ j' _ => j' = j | EvUploadDL _ _ _ => j = c_jid cf | _ => False end
  | KGetInfo _ j => match e with EvDownloadBundle _ j' _ _ => j' = j | _ => False end
  | KGetOwn cf => match e with EvDownloadBundle _ j _ _ => j = c_jid cf | _ => False end
  | KSetLabel cf _ => match e with EvDownloadDL _ j _ => j = c_jid cf | EvUploadDL _ _ _ => True | _ => False end
  | KPurgeBackend cf ns =>
      match e with
      | EvDownloadDL ns' j _ => ns' = ns /\ j = c_jid cf
      | EvUploadDL ns' _ _ => ns' = ns
      | EvDownloadBundle _ j _ _ => j = c_jid cf
      | EvDeleteBundle ns' x _ => ns' = ns /\ x = c_dev cf
      | _ => False
      end
  | KRotation cf _ _ => match e with EvUploadBundle b _ => own_bundle cf b | _ => False end
  | KEnsure cf =>
      match e with
      | EvDownloadDL _ j _ => j = c_jid cf
      | EvDownloadBundle _ j x _ => j = c_jid cf /\ x = c_dev cf
      | EvUploadDL _ _ _ => True
      | EvUploadBundle b _ => own_bundle cf b
      | _ => False
      end
  | KReplace _ j _ => match e with EvDownloadBundle _ j' _ _ | EvSend _ j' _ => j' = j | _ => False end
  | KAfter _ => match e with EvSend _ _ _ => True | _ => False end
  | KEncrypt cf _ jids _ _ _ => match e with EvDownloadBundle _ j _ _ => j ∈ jids \/ j = c_jid cf | _ => False end
  | KDecrypt cf m =>
      match e with
      | EvDownloadBundle _ j _ _ | EvSend _ j _ => j = m_jid m
      | EvDownloadDL ns j _ => ns = m_ns m /\ j = m_jid m
      | EvUploadDL ns _ _ => ns = m_ns m /\ m_jid m = c_jid cf
      | EvUploadBundle b _ => own_bundle cf b /\ b_ns b = m_ns m
      | _ => False
      end
  | KIkpGet | KSetTrust _ _ _ | KPurgeJid _ | KChain _ _ _ | KBefore => False
  end.

(** Contract: sessions and own bundles carry the names they were asked for. *)
Definition all_named (w : world) (c : cmd) (r : resp c) : Prop :=
  sessions_named w c r /\
  match c return resp c -> Prop with
  | BGetBundle ns j x => fun r => match r with Val b => b_ns b = ns /\ b_jid b = j /\ b_dev b = x | Exn _ => True end
  | _ => fun _ => True
  end r.

(** The account that is asked about or written to. *)
Definition addressed (e : event) : option string :=
  match e with EvDownloadBundle _ j _ _ | EvDownloadDL _ j _ | EvSend _ j _ => Some j | _ => None end.
(** The accounts a call is about; after_history_sync is about those queued before. *)
Definition about (c : call) (j : string) : Prop :=
  match c with
  | KCreate _ _ a => j = a_jid a
  | KUpdate _ _ j' _ | KRefresh _ _ j' | KRefreshAll _ j' | KSetTrust j' _ _ | KGetInfo _ j' | KPurgeJid j' | KReplace _ j' _ | KChain j' _ _ => j = j'
  | KGetOwn cf | KSetLabel cf _ | KPurgeBackend cf _ | KEnsure cf | KRotation cf _ _ => j = c_jid cf
  | KEncrypt cf _ jids _ _ _ => j ∈ jids \/ j = c_jid cf
  | KDecrypt _ m => j = m_jid m
  | KAfter _ => True
  | KIkpGet | KBefore => False
  end.
