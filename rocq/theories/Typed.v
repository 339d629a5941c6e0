(** Storage below the cache, many coroutines, crashes and restarts (C72). *)
From Verif Require Export Api Spec StorageImpl.
Open Scope prog_scope.
Open Scope list_scope.

(** Every value stored at an item of the namespaces [nss] is one the readers of the item accept. *)
Definition typed (nss : list string) (d : gmap string json) : Prop :=
  forall i v, item_in nss i -> d !! item_key i = Some v -> item_type i v.
(** The same for the backing store and the entries of the cache; the loaded backends are for those namespaces. *)
Definition typed_state (nss : list string) (w : rworld) : Prop :=
  typed nss (w_disk (r_world w)) /\
  (forall c i v, r_cache w = Some c -> item_in nss i -> c !! item_key i = Some (Some v) -> item_type i v) /\
  Forall (.∈ nss) (w_loaded (r_world w)).

(** Contract: the session returned after receiving a message is one of the backend asked. *)
Definition sessions_own (w : world) (c : cmd) : resp c -> Prop :=
  match c return resp c -> Prop with
  | BDecKey ns _ _ => fun r => match r with Val (s, _) => s_ns s = ns | Exn _ => True end
  | BBuildPassive ns _ _ _ _ => fun r => match r with Val (s, _) => s_ns s = ns | Exn _ => True end
  | _ => fun _ => True
  end.

(** [rbase] with a contract on the commands other than storage accesses. *)
Definition rsem (P : world -> forall c, resp c -> Prop) : @sem rcmd rresp rworld :=
  Sem rworld
    (fun w c => match c return rresp c -> Prop with
                | ROther c => fun r => w_allowed (r_world w) c r /\ P (r_world w) c r
                | c => fun r => r_allowed w c r
                end) r_apply.

(** Backends passed to [create] are for the namespaces [nss]. *)
Definition backends_in (nss : list string) (c : call) : Prop :=
  match c with KCreate _ _ a => Forall (.∈ nss) (a_backends a) | _ => True end.

(** One process on a storage with or without cache: coroutines run interleaved and are cut off anywhere. *)
Definition repoch (P : world -> forall c, resp c -> Prop) (nss : list string) (w w' : rworld) : Prop :=
  exists (ps : list (api unit)) cfg',
    Forall (fun p => appcode (backends_in nss) p) ps /\ preach (rsem P) (map lower ps, w) cfg' /\
    w_disk (r_world w') = w_disk (r_world cfg'.2) /\ (r_cache w' = None \/ r_cache w' = Some ∅) /\
    Forall (.∈ nss) (w_loaded (r_world w')).
Definition rhist (P : world -> forall c, resp c -> Prop) (nss : list string) : rworld -> rworld -> Prop :=
  rtc (repoch P nss).

(** Code whose [TypeError] and [binascii.Error] exceptions do not escape: a trust decision callback that fails
    with one of these is not the library's doing. *)
Definition no_type_error {A} (p : api A) : api A :=
  r <- try_ p ;;
  match r with
  | Val a => Ret a
  | Exn e => if decide (e = ETypeError \/ e = EBinascii) then Raise ERuntime else Raise e
  end.
(** The trust decision callback, if the call has one, is such code. *)
Definition calm (ok : call -> Prop) (c : call) : Prop :=
  match c with
  | KEncrypt _ mtd _ _ _ _ => exists m, (forall ds i, appcode ok (m ds i)) /\ forall ds i, mtd ds i = no_type_error (m ds i)
  | _ => True
  end.
