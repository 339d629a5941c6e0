(** Vocabulary of C102: the failures a call handles. *)
From Verif Require Export Stop.
Open Scope list_scope.

(** The answer is an exception that is not handled. *)
Definition unhandled (H : cmd -> exn -> Prop) (s : step) (e : exn) : Prop :=
  resp_exn (projT1 s) (projT2 s) = Some e /\ ~ H (projT1 s) e.
(** Nothing is done after such an answer, and its exception is the result. *)
Definition stops_but (H : cmd -> exn -> Prop) {A} (p : api A) : Prop :=
  (forall post s pre e, reach free p [] (post ++ s :: pre) -> unhandled H s e -> post = []) /\
  (forall o l s e, exec free p [] o l -> s ∈ l -> unhandled H s e -> o = Exn e).

Definition nothing (c : cmd) (e : exn) : Prop := False.
(** A bundle cannot be had. *)
Definition no_bundle (c : cmd) (e : exn) : Prop :=
  match c with NDownloadBundle _ _ _ => e = EBundleDownloadFailed \/ e = EBundleNotFound | _ => False end.
(** The upload of a rotated bundle fails; it is retried. *)
Definition no_upload (c : cmd) (e : exn) : Prop :=
  match c with BGetBundle _ _ _ | NUploadBundle _ => e = EBundleUploadFailed | _ => False end.
(** No session can be built or continued with a recipient; it is reported. *)
Definition no_session (c : cmd) (e : exn) : Prop :=
  match c with
  | NDownloadBundle _ _ _ | BBuildActive _ _ _ _ _ | BEncKey _ _ _ => e = EBundleDownloadFailed \/ e = EBundleNotFound \/ e = EKeyExchangeFailed
  | _ => False
  end.
(** A session cannot be replaced; it is reported. *)
Definition no_replacement (c : cmd) (e : exn) : Prop :=
  match c with
  | BEncEmpty _ | NDownloadBundle _ _ _ | BBuildActive _ _ _ _ _ | NSend _ _ | BStoreSession _ _ => is_omemo e = true
  | _ => False
  end.
Definition handled (c : call) : cmd -> exn -> Prop :=
  match c with
  | KIkpGet | KUpdate _ _ _ _ | KRefresh _ _ _ | KRefreshAll _ _ | KSetTrust _ _ _ | KPurgeJid _ | KChain _ _ _ | KBefore | KAfter _ | KSetLabel _ _ => nothing
  | KCreate _ _ _ | KGetInfo _ _ | KGetOwn _ | KPurgeBackend _ _ | KEnsure _ | KDecrypt _ _ => no_bundle
  | KRotation _ _ _ => no_upload
  | KReplace _ _ _ => no_replacement
  | KEncrypt _ _ _ _ _ _ => no_session
  end.
