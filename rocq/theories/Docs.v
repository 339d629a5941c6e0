(** What the docstrings say about exceptions: vocabulary of C86. *)
From Verif Require Export Api Spec Alone.
Open Scope list_scope.

(** "Raises" sections of the methods the application and the backends implement: Storage (storage.py:187-233), Backend
    (backend.py:145-433; any of them may also fail because of the storage), SessionManager (sm:781-978).
    UnknownNamespace of the network methods is left out here: they know every namespace they are asked for. *)
Definition doc_cmd (c : cmd) : list exn :=
  match c with
  | SLoad _ | SStore _ _ | SDelete _ => [EStorage]
  | BBuildActive _ _ _ _ _ => [EKeyExchangeFailed; EStorage]
  | BBuildPassive _ _ _ _ _ => [EKeyExchangeFailed; EDecryptionFailed; EStorage]
  | BDecPlain _ _ _ => [EDecryptionFailed; EStorage]
  | BDecKey _ _ _ => [ETooManySkipped; EDecryptionFailed; EStorage]
  | BLoadSession _ _ _ | BStoreSession _ _ | BEncPlain _ _ | BEncEmpty _ | BEncKey _ _ _ | BSpkAge _ | BRotate _ | BHide _ _
  | BDelete _ _ | BDelHidden _ | BNumVisible _ | BGenerate _ _ | BGetBundle _ _ _ | BPurge _ | BPurgeJid _ _ => [EStorage]
  | NUploadBundle _ => [EBundleUploadFailed]
  | NDownloadBundle _ _ _ => [EBundleDownloadFailed; EBundleNotFound]
  | NDeleteBundle _ _ => [EBundleDeletionFailed]
  | NUploadDL _ _ => [EDeviceListUploadFailed]
  | NDownloadDL _ _ => [EDeviceListDownloadFailed]
  | NSend _ _ => [EMessageSendingFailed]
  | TEval _ => [EUnknownTrustLevel]
  | TBlind _ _ => [ETrustDecisionFailed]
  | _ => []
  end.
(** The answers the documentation allows, besides the cancellation of the task. *)
Definition by_the_book (w : world) (c : cmd) (r : resp c) : Prop :=
  match resp_exn c r with None => True | Some e => e = ECancelled \/ e ∈ doc_cmd c end.
(** As [by_the_book], but the network methods may not know the namespaces of backends that are not loaded: sm:791, 821, 870, 898
    ("must be able to handle at least the namespaces of all loaded backends"). _delete_bundle has to know more (sm:845-847). *)
Definition by_the_book_loaded (w : world) (c : cmd) (r : resp c) : Prop :=
  match resp_exn c r with
  | None => True
  | Some e => e = ECancelled \/ e ∈ doc_cmd c \/
      e = EUnknownNamespace /\ match c with NDownloadBundle ns _ _ | NUploadDL ns _ | NDownloadDL ns _ => ns ∉ w_loaded w | _ => False end
  end.

(** "Raises" sections of the public methods: sm:292-298, 506-511, 722-726, 1000-1004, 1106-1112, 1132-1137, 1317-1321,
    1567-1569, 1686-1700, 1982-2003. StorageException goes without saying. *)
Definition doc_call (c : call) : list exn :=
  match c with
  | KCreate _ _ _ => [EBundleUploadFailed; EBundleDeletionFailed; EDeviceListUploadFailed; EDeviceListDownloadFailed]
  | KPurgeBackend _ _ => [EBundleDeletionFailed; EDeviceListUploadFailed; EDeviceListDownloadFailed]
  | KEnsure _ => [EDeviceListDownloadFailed; EDeviceListUploadFailed; EBundleUploadFailed]
  | KUpdate _ _ _ _ => [EUnknownNamespace; EDeviceListUploadFailed]
  | KRefresh _ _ _ => [EUnknownNamespace; EDeviceListDownloadFailed; EDeviceListUploadFailed]
  | KRefreshAll _ _ => [EDeviceListDownloadFailed; EDeviceListUploadFailed]
  | KSetLabel _ _ => [EDeviceListUploadFailed; EDeviceListDownloadFailed]
  | KAfter _ => [EMessageSendingFailed]
  | KEncrypt _ _ _ _ _ _ => [EUnknownNamespace; EUnknownTrustLevel; ETrustDecisionFailed; EStillUndecided;
      ENoEligibleDevices []; EKeyExchangeFailed]
  | KDecrypt _ _ => [EUnknownNamespace; EUnknownTrustLevel; EKeyExchangeFailed; EMessageNotForUs; ESenderNotFound; ESenderDistrusted;
      ENoSession; EPublicDataInconsistency; EMessageSendingFailed; EDecryptionFailed]
  | _ => []
  end.
(** NoEligibleDevices carries the accounts concerned. *)
Definition kind (e : exn) : exn := match e with ENoEligibleDevices _ => ENoEligibleDevices [] | e => e end.
Definition documented (c : call) (e : exn) : Prop := kind e ∈ EStorage :: doc_call c.
(** What decrypt raises in addition (C86_decrypt_refuted). *)
Definition undocumented (c : call) (e : exn) : Prop :=
  match c with
  | KDecrypt _ _ => e ∈ [ETooManySkipped; EBundleUploadFailed; EDeviceListDownloadFailed; EDeviceListUploadFailed]
  | _ => False
  end.
(** The trust decision of the application raises TrustDecisionFailed only (sm:941-943). *)
Definition documented_decision (S : @sem cmd resp (list event)) (c : call) : Prop :=
  forall cf mtd jids pt prio ident, c = KEncrypt cf mtd jids pt prio ident ->
    forall ds i l e l', exec S (mtd ds i) l (Exn e) l' -> is_omemo e = true -> e = ETrustDecisionFailed \/ e = EStorage.
