(** Vocabulary of C98: which bundles and device lists are downloaded. Nothing here is computed from the model of the calls. *)
From Verif Require Export Api Spec Alone.
Open Scope list_scope.

(** Calls that download the bundle of device [x] of account [j] without asking whether there is a session. *)
Definition wants_bundle (c : call) (j : string) (x : Z) : Prop :=
  match c with
  | KReplace _ j' x' => j' = j /\ x' = x
  | KEnsure cf => c_jid cf = j /\ c_dev cf = x
  | _ => False
  end.
Definition is_encrypt (c : call) : Prop := match c with KEncrypt _ _ _ _ _ _ => True | _ => False end.
(** Before every download of a bundle of the device for namespace [n] a session for [n] was looked up and not found.
    Newest event first. *)
Definition missing_first (j : string) (x : Z) (log : list event) : Prop :=
  forall n a r b, log = a ++ EvDownloadBundle n j x r :: b -> EvLoadSession n j x (Val None) ∈ b.
Definition no_bundles (j : string) (x : Z) (log : list event) : Prop := forall n r, EvDownloadBundle n j x r ∉ log.
(** No device list is downloaded or uploaded. *)
Definition no_list (e : event) : Prop := match e with EvDownloadDL _ _ _ | EvUploadDL _ _ _ => False | _ => True end.

(** Which bundles were received, newest event first; none is asked for again. *)
Definition got (log : list event) (n j : string) (x : Z) : Prop := exists b, EvDownloadBundle n j x (Val b) ∈ log.
Definition not_again (log : list event) : Prop :=
  forall a n j x r b, log = a ++ EvDownloadBundle n j x r :: b -> ~ got b n j x.
Definition no_download (e : event) : Prop := match e with EvDownloadBundle _ _ _ _ => False | _ => True end.
