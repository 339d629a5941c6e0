(** Vocabulary of C94: where the things come from that the library hands to backends and network. *)
From Verif Require Export Api Spec Alone.
Open Scope list_scope.

(** [s] came out of cryptography done with it, and is to be stored. *)
Definition advanced (before : list event) (ns : string) (s : session) : Prop :=
  (exists j x b p k, EvBuildActive ns j x b p (Val (s, k)) ∈ before) \/
  (exists j x k e p, EvBuildPassive ns j x k e (Val (s, p)) ∈ before) \/
  (exists s0 p k, EvEncKey ns s0 p (Val (s, k)) ∈ before) \/
  (exists s0 e p, EvDecKey ns s0 e (Val (s, p)) ∈ before).
(** [s] was used for the decryption of something received, which gave the key [p]. *)
Definition received (before : list event) (ns : string) (s : session) (p : pkm) : Prop :=
  (exists j x k e, EvBuildPassive ns j x k e (Val (s, p)) ∈ before) \/ (exists s0 e, EvDecKey ns s0 e (Val (s, p)) ∈ before).
(** [p] is the key of some content encrypted before. *)
Definition content_key (before : list event) (ns : string) (p : pkm) : Prop :=
  (exists pt c, EvEncPlain ns pt (Val (c, p)) ∈ before) \/ (exists c, EvEncEmpty ns (Val (c, p)) ∈ before).
(** The bundle [b] was downloaded for the device, or downloaded and says that it belongs to the device. *)
Definition fetched (before : list event) (ns j : string) (x : Z) (b : bundle) : Prop :=
  EvDownloadBundle ns j x (Val b) ∈ before \/
  (b_ns b = ns /\ b_jid b = j /\ b_dev b = x /\ exists ns' j' x', EvDownloadBundle ns' j' x' (Val b) ∈ before).
(** Sources of what is passed in a call. [C]: the instances that are used. [G]: the device lists given to the library by the
    application. *)
Definition sourced (C : cfg -> Prop) (G : string -> list (Z * option string) -> Prop) (e : event) (before : list event) : Prop :=
  match e with
  | EvSend m j _ =>
      (exists cf, C cf /\ m_jid m = c_jid cf /\ m_dev m = c_dev cf) /\
      exists p s k,
        EvEncEmpty (m_ns m) (Val (m_content m, p)) ∈ before /\
        ((exists s0, EvEncKey (m_ns m) s0 p (Val (s, k)) ∈ before /\ j = s_jid s /\ m_keys m = [(k, kex_due s)]) \/
         (exists x b, EvBuildActive (m_ns m) j x b p (Val (s, k)) ∈ before /\ m_keys m = [(k, Some (s_kex s))]))
  | EvEncKey ns s p _ =>
      content_key before ns p /\ ((exists j x, EvLoadSession ns j x (Val (Some s)) ∈ before) \/ exists p', received before ns s p')
  | EvDecKey ns s _ _ => exists j x, EvLoadSession ns j x (Val (Some s)) ∈ before
  | EvBuildActive ns j x b p _ => content_key before ns p /\ fetched before ns j x b
  | EvDecPlain ns _ p _ => exists s, received before ns s p
  | EvStoreSession ns s _ => advanced before ns s
  | EvHide ns s _ | EvDeletePk ns s _ => exists p, received before ns s p
  | EvGenerate ns n _ => n = 100%Z \/ exists v, EvNumVisible ns (Val v) ∈ before /\ n = (100 - v)%Z
  | EvRotate ns _ => exists age, EvSpkAge ns (Val age) ∈ before
  | EvUploadBundle b _ => exists ns j x, EvGetBundle ns j x (Val b) ∈ before
  | EvUploadDL ns dl _ =>
      exists id dl0, ((exists j, EvDownloadDL ns j (Val dl0) ∈ before) \/ G ns dl0) /\ forall x, x <> id -> dget x dl = dget x dl0
  | _ => True
  end.
(** Applications that hand device lists in [G] to update_device_list, and use instances in [C]. *)
Definition gives (C : cfg -> Prop) (G : string -> list (Z * option string) -> Prop) (c : call) : Prop :=
  match c with
  | KUpdate _ ns _ dl => G ns dl
  | KReplace cf _ _ | KAfter cf | KDecrypt cf _ => C cf
  | _ => True
  end.
(** Contract: the backends make contents that can be told apart. *)
Definition marks_empty (w : world) (c : cmd) : resp c -> Prop :=
  match c return resp c -> Prop with
  | BEncEmpty _ => fun r => match r with Val (c, _) => ct_empty c = true | Exn _ => True end
  | _ => fun _ => True
  end.
