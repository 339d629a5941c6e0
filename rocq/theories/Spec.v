(** Specification vocabulary used in the statements of the properties. Plain data, plain recursion: of the model
    only record types, the list of public calls and the identity key accessor occur here, never its programs. *)
From Verif Require Export Sem.
From Verif Require Import Api.
Open Scope list_scope.

(* ------------------------------------------------------------------------------------------------ *)
(** * Storage as a map (C01-C04) *)

Inductive sop := OLoad (k : string) | OStore (k : string) (v : json) | ODelete (k : string).
Inductive sret := RLoaded (o : outcome (option json)) | RDone (o : outcome unit).

(** What a client may observe of a map with contents [m]: loads see exactly the current contents, failed
    operations change nothing. *)
Fixpoint map_spec (m : gmap string json) (ops : list sop) (rs : list sret) : Prop :=
  match ops, rs with
  | [], [] => True
  | OLoad k :: ops', RLoaded (Val v) :: rs' => v = m !! k /\ map_spec m ops' rs'
  | OLoad _ :: ops', RLoaded (Exn _) :: rs' => map_spec m ops' rs'
  | OStore k v :: ops', RDone (Val _) :: rs' => map_spec (<[k := v]> m) ops' rs'
  | OStore _ _ :: ops', RDone (Exn _) :: rs' => map_spec m ops' rs'
  | ODelete k :: ops', RDone (Val _) :: rs' => map_spec (delete k m) ops' rs'
  | ODelete _ :: ops', RDone (Exn _) :: rs' => map_spec m ops' rs'
  | _, _ => False
  end.

(** The effect of one operation, and of the acknowledged ones of a sequence. *)
Definition op_effect (m : gmap string json) (op : sop) : gmap string json :=
  match op with OLoad _ => m | OStore k v => <[k := v]> m | ODelete k => delete k m end.
Fixpoint acked (m : gmap string json) (ops : list sop) (rs : list sret) : gmap string json :=
  match ops, rs with
  | op :: ops', RDone (Val _) :: rs' => acked (op_effect m op) ops' rs'
  | _ :: ops', _ :: rs' => acked m ops' rs'
  | _, _ => m
  end.

(* ------------------------------------------------------------------------------------------------ *)
(** * JSON values of a given type (C06) *)

(** [isinstance(v, t)]; in Python a bool is an int. *)
Inductive is_str : json -> string -> Prop := is_str_intro s : is_str (JStr s) s.
Inductive is_bool : json -> bool -> Prop := is_bool_intro b : is_bool (JBool b) b.
Inductive is_float : json -> string -> Prop := is_float_intro r : is_float (JFloat r) r.
Inductive is_none : json -> unit -> Prop := is_none_intro : is_none JNull tt.
Inductive is_int : json -> Z -> Prop :=
  | is_int_int z : is_int (JInt z) z
  | is_int_false : is_int (JBool false) 0%Z
  | is_int_true : is_int (JBool true) 1%Z.
Inductive is_opt {A} (T : json -> A -> Prop) : json -> option A -> Prop :=
  | is_opt_none : is_opt T JNull None
  | is_opt_some v a : v <> JNull -> T v a -> is_opt T v (Some a).
Inductive is_list {A} (T : json -> A -> Prop) : json -> list A -> Prop :=
  | is_list_intro l la : Forall2 T l la -> is_list T (JList l) la.
Inductive is_dict {A} (T : json -> A -> Prop) : json -> list (string * A) -> Prop :=
  | is_dict_intro d da : Forall2 (fun kv ka => kv.1 = ka.1 /\ T kv.2 ka.2) d da -> is_dict T (JDict d) da.

(** What a typed load may return for the stored value [m] if values of the type are described by [T]. *)
Definition typed_result {A} (T : json -> A -> Prop) (m : option json) (o : outcome (option A)) : Prop :=
  match m with
  | None => o = Val None
  | Some v => (exists a, T v a /\ o = Val (Some a)) \/ ((forall a, ~ T v a) /\ o = Exn ETypeError)
  end.

(* ------------------------------------------------------------------------------------------------ *)
(** * What is stored where (C07) *)

Inductive item :=
  | IKeyPairIsSeed | IKeyPairKey | IOwnDeviceId
  | IDeviceList (jid : string)
  | INamespaces (jid : string) (dev : Z) | IActive (jid : string) (dev : Z)
  | ILabel (jid : string) (dev : Z) | IIdentityKey (jid : string) (dev : Z)
  | ITrust (jid : string) (ik : bytes)
  | IQueue (ns : string) | IQueueDevices (ns jid : string).

(** The f-strings of the source, written out. *)
Definition item_key (i : item) : string :=
  match i with
  | IKeyPairIsSeed => "/ikp/is_seed"
  | IKeyPairKey => "/ikp/key"
  | IOwnDeviceId => "/own_device_id"
  | IDeviceList j => "/devices/" +:+ j +:+ "/list"
  | INamespaces j d => "/devices/" +:+ j +:+ "/" +:+ pretty d +:+ "/namespaces"
  | IActive j d => "/devices/" +:+ j +:+ "/" +:+ pretty d +:+ "/active"
  | ILabel j d => "/devices/" +:+ j +:+ "/" +:+ pretty d +:+ "/label"
  | IIdentityKey j d => "/devices/" +:+ j +:+ "/" +:+ pretty d +:+ "/identity_key"
  | ITrust j ik => "/trust/" +:+ j +:+ "/" +:+ b64enc ik
  | IQueue ns => "/queue/" +:+ ns
  | IQueueDevices ns j => "/queue/" +:+ ns +:+ "/" +:+ j
  end%string.

(** The namespaces in use do not extend one another by a slash. *)
Definition ns_separated (nss : list string) : Prop :=
  forall n n', n ∈ nss -> n' ∈ nss -> forall x, n' <> (n +:+ "/" +:+ x)%string.

(** Items that only concern namespaces from [nss]. *)
Definition item_in (nss : list string) (i : item) : Prop :=
  match i with IQueue ns | IQueueDevices ns _ => ns ∈ nss | _ => True end.

(** The values readers of an item accept: [Storage.load_primitive], [load_list], [load_dict], [load_optional] and
    [load_bytes] with the type the library uses for that key. *)
Definition item_type (i : item) (v : json) : Prop :=
  match i with
  | IKeyPairIsSeed => exists b, is_bool v b
  | IKeyPairKey | IIdentityKey _ _ => exists s b, v = JStr s /\ b64dec s = Some b
  | IOwnDeviceId => exists z, is_int v z
  | IDeviceList _ | IQueueDevices _ _ => exists l, is_list is_int v l
  | INamespaces _ _ | IQueue _ => exists l, is_list is_str v l
  | IActive _ _ => exists l, is_dict is_bool v l
  | ILabel _ _ => exists o, is_opt is_str v o
  | ITrust _ _ => exists s, is_str v s
  end.

(** [c] is the lowercase hexadecimal digit for [n]; two digits per byte. *)
Definition digit_for (n : N) (c : Ascii.ascii) : Prop := String.get (N.to_nat n) "0123456789abcdef"%string = Some c.
Inductive spells : string -> bytes -> Prop :=
  | spells_nil : spells ""%string ""%string
  | spells_byte h l s a b : digit_for (Ascii.N_of_ascii a / 16)%N h -> digit_for (Ascii.N_of_ascii a mod 16)%N l -> spells s b ->
      spells (String h (String l s)) (String a b).

(* ------------------------------------------------------------------------------------------------ *)
(** * What a storage says about accounts and devices (C21-C33) *)

(** A value of type [T] is stored at the item. *)
Definition holds {A} (T : json -> A -> Prop) (d : gmap string json) (i : item) (a : A) : Prop :=
  exists v, d !! item_key i = Some v /\ T v a.
(** [x] is on the stored device list of [j]. *)
Definition known (d : gmap string json) (j : string) (x : Z) : Prop :=
  exists zs, holds (is_list is_int) d (IDeviceList j) zs /\ x ∈ zs.
(** [n] is among the stored namespaces of device [x] of [j]. *)
Definition supports (d : gmap string json) (j : string) (x : Z) (n : string) : Prop :=
  exists l, holds (is_list is_str) d (INamespaces j x) l /\ n ∈ l.
(** The stored activity of the device for the namespace. *)
Definition activity (d : gmap string json) (j : string) (x : Z) (n : string) (b : bool) : Prop :=
  exists m, holds (is_dict is_bool) d (IActive j x) m /\ dget n m = Some b.
Definition labelled (d : gmap string json) (j : string) (x : Z) (o : option string) : Prop :=
  holds (is_opt is_str) d (ILabel j x) o.
(** The identity key recorded for the device. *)
Definition keyed (d : gmap string json) (j : string) (x : Z) (ik : bytes) : Prop :=
  exists s, d !! item_key (IIdentityKey j x) = Some (JStr s) /\ b64dec s = Some ik.
Definition trusted_as (d : gmap string json) (j : string) (ik : bytes) (level : string) : Prop :=
  d !! item_key (ITrust j ik) = Some (JStr level).

(** Items a device list update of [j] may change. *)
Definition list_item (j : string) (i : item) : Prop :=
  i = IDeviceList j \/ exists x, i = INamespaces j x \/ i = IActive j x \/ i = ILabel j x.

(** The two storages tell the same about the devices of [jid], and hold the same for everything else. *)
Definition same_readings (jid : string) (d1 d2 : gmap string json) : Prop :=
  (forall i, ~ list_item jid i -> d1 !! item_key i = d2 !! item_key i) /\
  forall x, (known d1 jid x <-> known d2 jid x) /\
    (forall n, supports d1 jid x n <-> supports d2 jid x n) /\
    (forall n b, activity d1 jid x n b <-> activity d2 jid x n b) /\
    (forall o, labelled d1 jid x o <-> labelled d2 jid x o).

(** Events other than the upload of a device list. *)
Definition noup (e : event) : Prop := match e with EvUploadDL _ _ _ => False | _ => True end.
(** The list is for the own account and lacks this device. *)
Definition own_missing (cf : cfg) (jid : string) (dl : list (Z * option string)) : Prop :=
  jid = c_jid cf /\ dget (c_dev cf) dl = None.

(** [dl'] is [dl] except that device [dev] is on it with label [lab]. *)
Definition relabelled (dev : Z) (lab : option string) (dl dl' : list (Z * option string)) : Prop :=
  dget dev dl' = Some lab /\ (forall x, x <> dev -> dget x dl' = dget x dl) /\
  dkeys dl' = dkeys dl ++ (if decide (dev ∈ dkeys dl) then [] else [dev]).

(* ------------------------------------------------------------------------------------------------ *)
(** * Identity key pair and own device id (C09-C16, C31, C32) *)

Definition ikp_flag (k : ikp) : bool := match k with IkpSeed _ => true | IkpPriv _ => false end.
Definition ikp_bytes (k : ikp) : bytes := match k with IkpSeed b | IkpPriv b => b end.
(** The storage holds the complete key pair [k]. *)
Definition has_ikp (k : ikp) (d : gmap string json) : Prop :=
  d !! item_key IKeyPairIsSeed = Some (JBool (ikp_flag k)) /\
  exists s, d !! item_key IKeyPairKey = Some (JStr s) /\ b64dec s = Some (ikp_bytes k).
(** No pair, or only its flag, or a complete pair: the key is never there without the flag. *)
Definition ikp_wf (d : gmap string json) : Prop :=
  (d !! item_key IKeyPairIsSeed = None /\ d !! item_key IKeyPairKey = None) \/
  (exists b, d !! item_key IKeyPairIsSeed = Some (JBool b) /\ d !! item_key IKeyPairKey = None) \/
  (exists k, has_ikp k d).
Definition has_own (id : Z) (d : gmap string json) : Prop := d !! item_key IOwnDeviceId = Some (JInt id).

(** Calls that are not meant to change the trust level of key [ik] of account [j]: everything but [set_trust] for
    that pair, [purge_bare_jid] of the account, and the first-run setup for that account and key. *)
Definition keeps_trust (d0 : gmap string json) (j : string) (ik : bytes) (c : call) : Prop :=
  match c with
  | KSetTrust j' ik' _ => (j', ik') <> (j, ik)
  | KPurgeJid j' => j' <> j
  | KCreate P _ a => a_jid a <> j \/ (exists id, has_own id d0) \/ (exists k, has_ikp k d0 /\ ikp_identity_key P k <> ik)
  | _ => True
  end.
(** Calls that are not meant to change the identity keys of account [j]. *)
Definition keeps_key (d0 : gmap string json) (j : string) (c : call) : Prop :=
  match c with
  | KPurgeJid j' => j' <> j
  | KCreate _ _ a => a_jid a <> j \/ (exists id, has_own id d0)
  | _ => True
  end.

(** Arguments [create] must reject: a namespace twice, or a refill threshold outside 25..99. *)
Definition bad_args (a : create_args) : Prop :=
  ~ NoDup (a_backends a) \/ (a_threshold a < 25)%Z \/ (99 < a_threshold a)%Z.

(* ------------------------------------------------------------------------------------------------ *)
(** * Purging (C27, C33, C60, C61, C64) *)

(** Events of looking up device information: local writes and bundle downloads. *)
Definition local_ev (e : event) : Prop :=
  match e with EvStore _ _ _ | EvDownloadBundle _ _ _ _ => True | _ => False end.
(** Dictionary without one key. *)
Definition without {V} (k : Z) (d : list (Z * V)) : list (Z * V) := filter (fun p => p.1 <> k) d.
(** What purging backend [ns] may do to the outside: never publish anything but a device list without this device. *)
Definition purge_ev (cf : cfg) (ns : string) (e : event) : Prop :=
  match e with
  | EvStore _ _ _ | EvDownloadBundle _ _ _ _ => True
  | EvDownloadDL n j _ => n = ns /\ j = c_jid cf
  | EvUploadDL n dl _ => n = ns /\ c_dev cf ∉ dkeys dl
  | EvPurge n _ => n = ns
  | EvDeleteBundle n x _ => n = ns /\ x = c_dev cf
  | _ => False
  end.
(** What [purge_bare_jid jid] finds in storage [d] and deletes: the list, the records of the listed devices, and the
    trust levels of their recorded identity keys. *)
Definition purge_item (d : gmap string json) (jid : string) (i : item) : Prop :=
  i = IDeviceList jid \/
  exists x, known d jid x /\ (i = INamespaces jid x \/ i = IActive jid x \/ i = ILabel jid x \/ i = IIdentityKey jid x \/
    exists ik, keyed d jid x ik /\ i = ITrust jid ik).
(** The device list and the identity keys of the listed devices can be read. *)
Definition purgeable (d : gmap string json) (jid : string) : Prop :=
  (forall v, d !! item_key (IDeviceList jid) = Some v -> exists l, is_list is_int v l) /\
  (forall x v, known d jid x -> d !! item_key (IIdentityKey jid x) = Some v -> exists ik, keyed d jid x ik).
Definition is_delete (e : event) : Prop := match e with EvDelete _ _ => True | _ => False end.
(** The event does not involve backend [ns], nor publish anything for it. *)
Definition offline (ns : string) (e : event) : Prop :=
  match e with
  | EvUploadBundle b _ => b_ns b <> ns
  | EvSend m _ _ => m_ns m <> ns
  | EvUploadDL n _ _ | EvDeleteBundle n _ _ | EvLoadSession n _ _ _ | EvStoreSession n _ _ | EvBuildActive n _ _ _ _ _
  | EvBuildPassive n _ _ _ _ _ | EvEncPlain n _ _ | EvEncEmpty n _ | EvEncKey n _ _ _ | EvDecPlain n _ _ _ | EvDecKey n _ _ _
  | EvSpkAge n _ | EvRotate n _ | EvHide n _ _ | EvDeletePk n _ _ | EvDelHidden n _ | EvNumVisible n _ | EvGenerate n _ _
  | EvGetBundle n _ _ _ | EvPurge n _ | EvPurgeJid n _ _ => n <> ns
  | _ => True
  end.
(** A backend returns bundles of its own namespace. *)
Definition bundles_named (w : world) (c : cmd) : resp c -> Prop :=
  match c return resp c -> Prop with
  | BGetBundle ns _ _ => fun r => match r with Val b => b_ns b = ns | Exn _ => True end
  | _ => fun _ => True
  end.
(** The device list of the own account [j] for [ns] as last downloaded or successfully uploaded. *)
Fixpoint last_list (ns j : string) (l : list event) : option (list (Z * option string)) :=
  match l with
  | [] => None
  | EvUploadDL n dl (Val _) :: l' => if decide (n = ns) then Some dl else last_list ns j l'
  | EvDownloadDL n j' (Val dl) :: l' => if decide (n = ns /\ j' = j) then Some dl else last_list ns j l'
  | _ :: l' => last_list ns j l'
  end.
(** As far as was seen, that list contains / does not contain the device. *)
Definition listed (ns j : string) (dev : Z) (w : world) : Prop :=
  exists dl, last_list ns j (w_log w) = Some dl /\ dev ∈ dkeys dl.
Definition unlisted (ns j : string) (dev : Z) (w : world) : Prop :=
  exists dl, last_list ns j (w_log w) = Some dl /\ dev ∉ dkeys dl.
(** The backend of [ns] delivered the bundle of the device [dev] of [j], and it was then uploaded successfully. *)
Definition published (j : string) (dev : Z) (ns : string) (evs : list event) : Prop :=
  exists p1 b p2, evs = (p1 ++ EvUploadBundle b (Val tt) :: p2)%list /\ EvGetBundle ns j dev (Val b) ∈ p2.
(** What was done about the pre keys of [ns] before its bundle is fetched; [l] are the events, newest first: the first
    100 were generated at some point, or the visible ones were just counted and refilled to 100 unless there are more
    than [threshold]. *)
Definition refilled (threshold : Z) (ns : string) (l : list event) : Prop :=
  EvGenerate ns 100 (Val tt) ∈ l \/
  exists n l', ((threshold < n)%Z /\ l = EvNumVisible ns (Val n) :: l') \/
    ((n <= threshold)%Z /\ l = EvGenerate ns (100 - n) (Val tt) :: EvNumVisible ns (Val n) :: l').
(** Calls after which [ns] stays unloaded: no restart, no second purge of it. *)
Definition keeps_offline (ns0 : string) (c : call) : Prop :=
  match c with KCreate _ _ _ => False | KPurgeBackend _ ns => ns <> ns0 | _ => True end.
