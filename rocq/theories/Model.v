(** The library, function by function. Line numbers refer to /repo at the pinned commit; "sm" abbreviates
    omemo/session_manager.py. Logging calls are not modelled. *)
From Verif Require Export Sem.
Open Scope prog_scope.
Open Scope Z_scope.
Open Scope list_scope.

(* ------------------------------------------------------------------------------------------------ *)
(** * Maybe and typed loads, storage.py *)

(** [Maybe] is [option]: [Just v] = [Some v], [Nothing] = [None] (value semantics; the deep copies that
    justify it are modelled in Heap.v). from_just: storage.py:60-67, 118, 157. *)
Definition from_just {A} (m : option A) : api A :=
  match m with Some a => Ret a | None => Raise ENothing end.

(** maybe(default): storage.py:120-121, 160-161 *)
Definition maybe {A} (d : A) (m : option A) : A := match m with Some a => a | None => d end.

(** isinstance(value, int) is also true for bool; True/False then act as 1/0.
    Simplification: f"{True}" would print "True" where the model prints 1. *)
Definition as_int (v : json) : option Z :=
  match v with JInt z => Some z | JBool b => Some (if b then 1 else 0) | _ => None end.
Definition as_str (v : json) : option string := match v with JStr s => Some s | _ => None end.
Definition as_bool (v : json) : option bool := match v with JBool b => Some b | _ => None end.
Definition as_float (v : json) : option string := match v with JFloat r => Some r | _ => None end.
Definition as_null (v : json) : option unit := match v with JNull => Some tt | _ => None end.

(** load(key).fmap(check_type): storage.py:303-419; fmap: 123-124, 163-164 *)
Definition load_checked {A} (check : json -> outcome A) (k : string) : api (option A) :=
  m <- s_load k ;;
  match m with
  | None => Ret None
  | Some v => match check v with Val a => Ret (Some a) | Exn e => Raise e end
  end.

Definition or_type_error {A} (o : option A) : outcome A :=
  match o with Some a => Val a | None => Exn ETypeError end.

(** load_primitive: storage.py:303-323 *)
Definition load_primitive {A} (prim : json -> option A) (k : string) : api (option A) :=
  load_checked (fun v => or_type_error (prim v)) k.

(** load_bytes: storage.py:325-344 *)
Definition load_bytes (k : string) : api (option bytes) :=
  load_checked (fun v =>
    match v with
    | JStr s => match b64dec s with Some b => Val b | None => Exn EBinascii end
    | _ => Exn ETypeError
    end) k.

(** load_optional: storage.py:346-370 *)
Definition load_optional {A} (prim : json -> option A) (k : string) : api (option (option A)) :=
  load_checked (fun v =>
    match v with
    | JNull => Val None
    | _ => match prim v with Some a => Val (Some a) | None => Exn ETypeError end
    end) k.

(** load_list: storage.py:372-393 *)
Definition load_list {A} (prim : json -> option A) (k : string) : api (option (list A)) :=
  load_checked (fun v =>
    match v with JList l => or_type_error (mapM prim l) | _ => Exn ETypeError end) k.

(** load_dict: storage.py:395-419 *)
Definition load_dict {A} (prim : json -> option A) (k : string) : api (option (list (string * A))) :=
  load_checked (fun v =>
    match v with
    | JDict d => or_type_error (mapM (fun kv => a ← prim kv.2; Some (kv.1, a)) d)
    | _ => Exn ETypeError
    end) k.

(** store_bytes: storage.py:289-301 *)
Definition store_bytes (k : string) (v : bytes) : api unit := s_store k (JStr (b64enc v)).

(** JSON forms of the values the library stores. *)
Definition j_strs (l : list string) : json := JList (map JStr l).
Definition j_ints (l : list Z) : json := JList (map JInt l).
Definition j_bools (d : list (string * bool)) : json := JDict (map (fun kv => (kv.1, JBool kv.2)) d).
Definition j_opt (o : option string) : json := match o with Some s => JStr s | None => JNull end.

(* ------------------------------------------------------------------------------------------------ *)
(** * Identity key pair, identity_key_pair.py *)

(** IdentityKeyPairSeed / IdentityKeyPairPriv: identity_key_pair.py:124-191 *)
Inductive ikp := IkpSeed (seed : bytes) | IkpPriv (priv : bytes).

(** The xeddsa bindings used: identity_key_pair.py:146, 150, 184; sm:1525 *)
Record prims := Prims
  { seed_to_priv : bytes -> bytes;
    seed_to_ed25519_pub : bytes -> bytes;
    priv_to_ed25519_pub : bytes -> bytes;
    ed25519_pub_to_curve25519_pub : bytes -> bytes }.

(** identity_key_pair.py:137-143, 174-180 *)
Definition ikp_is_seed (k : ikp) : bool := match k with IkpSeed _ => true | IkpPriv _ => false end.
Definition ikp_is_priv (k : ikp) : bool := match k with IkpSeed _ => false | IkpPriv _ => true end.
(** identity_key_pair.py:145-146, 182-183 *)
Definition ikp_as_priv (P : prims) (k : ikp) : ikp :=
  match k with IkpSeed s => IkpPriv (seed_to_priv P s) | IkpPriv p => IkpPriv p end.
(** identity_key_pair.py:148-150, 185-187 *)
Definition ikp_identity_key (P : prims) (k : ikp) : bytes :=
  match k with IkpSeed s => seed_to_ed25519_pub P s | IkpPriv p => priv_to_ed25519_pub P p end.

(** The except NothingException branch: identity_key_pair.py:74-84 *)
Definition ikp_generate : api ikp :=
  key <- c_randbytes 32 ;;
  s_store k_ikp_seed (JBool true) ;;;
  store_bytes k_ikp_key key ;;;
  Ret (IkpSeed key).

(** IdentityKeyPair.get: identity_key_pair.py:45-88. The only source of NothingException inside the try is
    from_just, so the handler is attached to the two [None] cases. *)
Definition ikp_get : api ikp :=
  m <- load_primitive as_bool k_ikp_seed ;;
  match m with
  | None => ikp_generate
  | Some is_seed =>
      m' <- load_bytes k_ikp_key ;;
      match m' with
      | None => ikp_generate
      | Some key => Ret (if is_seed : bool then IkpSeed key else IkpPriv key)
      end
  end.

(* ------------------------------------------------------------------------------------------------ *)
(** * Backend.__init__, backend.py:91-122 *)

(** Python truthiness of Optional[int] and the value of [x or y] *)
Definition py_or_int (x : option Z) (y : bool) : bool :=
  match x with None => y | Some 0 => y | Some _ => true end.

(** backend.py:108-122: [if m == 0 and s != 0: raise], [if m or 0 > s: raise] (which parses as
    [m or (0 > s)]), then the two attributes (per session, per message). *)
Definition backend_init (s : Z) (m : option Z) : outcome (Z * Z) :=
  if bool_decide (m = Some 0) && negb (s =? 0) then Exn EValueError
  else if py_or_int m (s <? 0) then Exn EValueError
  else Val (s, match m with None => s | Some m => m end).

(* ------------------------------------------------------------------------------------------------ *)
(** * SessionManager instance *)

(** The attributes that are constant after [create]: sm:344-350, 354/369 *)
Record cfg := Cfg { c_jid : string; c_dev : Z; c_undecided : string; c_threshold : Z }.

(** DEVICE_ID_MIN, DEVICE_ID_MAX, STALENESS_MAGIC_NUMBER: sm:235-237 *)
Definition DEVICE_ID_MIN : Z := 1.
Definition DEVICE_ID_MAX : Z := 2 ^ 31 - 1.
Definition STALENESS_MAGIC_NUMBER : Z := 53.

(* ------------------------------------------------------------------------------------------------ *)
(** * Device lists *)

Section manager.
Context (cf : cfg).
Notation own_jid := (c_jid cf).
Notation own_dev := (c_dev cf).

(** for device_id in new_devices: sm:1048-1051 *)
Definition upd_new (ns jid : string) (dl : list (Z * option string)) (dev : Z) : api unit :=
  s_store (k_active jid dev) (j_bools [(ns, true)]) ;;;
  match dget dev dl with
  | None => Raise EKeyError
  | Some label =>
      s_store (k_label jid dev) (j_opt label) ;;;
      s_store (k_ns jid dev) (j_strs [ns])
  end.

(** for device_id in old_device_list: sm:1054-1089 *)
Definition upd_old (ns jid : string) (dl : list (Z * option string)) (dev : Z) : api unit :=
  m <- load_list as_str (k_ns jid dev) ;;
  l <- from_just m ;;
  let namespaces := pyset l in
  m' <- load_dict as_bool (k_active jid dev) ;;
  active <- from_just m' ;;
  match dget dev dl with
  | Some new_label =>
      (* sm:1064-1066 *)
      (if bool_decide (dget ns active = Some true) then Ret tt
       else s_store (k_active jid dev) (j_bools (dset ns true active))) ;;;
      (* sm:1070-1078 *)
      m'' <- load_optional as_str (k_label jid dev) ;;
      label <- from_just m'' ;;
      (if bool_decide (new_label <> None) && bool_decide (new_label <> label)
       then s_store (k_label jid dev) (j_opt new_label) else Ret tt) ;;;
      (* sm:1081-1083 *)
      (if decide (ns ∈ namespaces) then Ret tt
       else l' <- order (set_add ns namespaces) ;; s_store (k_ns jid dev) (j_strs l'))
  | None =>
      (* sm:1086-1089 *)
      if decide (ns ∈ namespaces) then
        match dget ns active with
        | None => Raise EKeyError
        | Some true => s_store (k_active jid dev) (j_bools (dset ns false active))
        | Some false => Ret tt
        end
      else Ret tt
  end.

(** sm:1031-1045: make sure this device is on its own list. Returns the possibly extended list. *)
Definition upd_own (ns jid : string) (dl : list (Z * option string)) : api (list (Z * option string)) :=
  if decide (jid = own_jid) then
    backends <- g_loaded ;;
    if bool_decide (ns ∈ backends) && negb (dmem own_dev dl) then
      m <- load_optional as_str (k_label own_jid own_dev) ;;
      label <- from_just m ;;
      let dl' := dset own_dev label dl in
      n_upload_dl ns dl' ;;;
      Ret dl'
    else Ret dl
  else Ret dl.

(** update_device_list: sm:985-1096. A Python dict is an association list with distinct keys. *)
Definition update_device_list (ns jid : string) (dl : list (Z * option string)) : api unit :=
  backends <- g_loaded ;;
  if decide (ns ∈ backends) then
    let new_device_list := pyset (dkeys dl) in
    m <- load_list as_int (k_list jid) ;;
    let old_device_list := pyset (maybe [] m) in
    let new_devices := set_diff new_device_list old_device_list in
    dl' <- upd_own ns jid dl ;;
    nd <- order new_devices ;;
    for_each nd (upd_new ns jid dl') ;;;
    od <- order old_device_list ;;
    for_each od (upd_old ns jid dl') ;;;
    match new_devices with
    | [] => Ret tt
    | _ => l <- order (set_union new_device_list old_device_list) ;; s_store (k_list jid) (j_ints l)
    end
  else Raise EUnknownNamespace.

(** refresh_device_list: sm:1098-1123 *)
Definition refresh_device_list (ns jid : string) : api unit :=
  dl <- n_download_dl ns jid ;;
  update_device_list ns jid dl.

(** refresh_device_lists: sm:1125-1141 *)
Definition refresh_device_lists (jid : string) : api unit :=
  backends <- g_loaded ;;
  for_each backends (fun ns => refresh_device_list ns jid).

(* ------------------------------------------------------------------------------------------------ *)
(** * Trust and device information *)

(** set_trust: sm:1147-1164 *)
Definition set_trust (jid : string) (ik : bytes) (level : string) : api unit :=
  s_store (k_trust jid ik) (JStr level).

(** for namespace in namespaces (identity key unknown): sm:1427-1462. [None] is the for-else branch. *)
Fixpoint find_key (jid : string) (dev : Z) (l : list string) : api (option bundle) :=
  match l with
  | [] => Ret None
  | ns :: l' =>
      o <- try_ (n_download_bundle ns jid dev) ;;
      match o with
      | Exn EBundleDownloadFailed | Exn EBundleNotFound => find_key jid dev l'
      | Exn e => Raise e
      | Val b => store_bytes (k_ik jid dev) (b_ik b) ;;; Ret (Some b)
      end
  end.

(** The part of the loop body after the identity key is known: sm:1464-1489 *)
Definition dev_info_rest (jid : string) (dev : Z) (namespaces : list string) (ik : bytes) : api device :=
  m <- load_dict as_bool (k_active jid dev) ;;
  active <- from_just m ;;
  m' <- load_optional as_str (k_label jid dev) ;;
  label <- from_just m' ;;
  m'' <- load_primitive as_str (k_trust jid ik) ;;
  let level := maybe (c_undecided cf) m'' in
  namespaces' <-
    (if forallb (fun ns => dmem ns active) namespaces then Ret namespaces
     else let ns' := set_inter namespaces (dkeys active) in
          l <- order ns' ;;
          s_store (k_ns jid dev) (j_strs l) ;;;
          Ret ns') ;;
  Ret (Device namespaces' active jid dev ik level label).

(** One iteration of the loop: sm:1406-1489 *)
Definition dev_info (jid : string) (acc : list device * list bundle) (dev : Z)
  : api (list device * list bundle) :=
  m <- load_list as_str (k_ns jid dev) ;;
  l <- from_just m ;;
  let namespaces := pyset l in
  m' <- load_bytes (k_ik jid dev) ;;
  match m' with
  | Some ik =>
      d <- dev_info_rest jid dev namespaces ik ;;
      Ret (acc.1 ++ [d], acc.2)
  | None =>
      nso <- order namespaces ;;
      mb <- find_key jid dev nso ;;
      match mb with
      | None => Ret acc
      | Some b =>
          d <- dev_info_rest jid dev namespaces (b_ik b) ;;
          Ret (acc.1 ++ [d], acc.2 ++ [b])
      end
  end.

(** __get_device_information: sm:1367-1493. The two sets are returned as lists: the devices have distinct
    ids, and of the bundle cache only membership is ever used. *)
Definition get_device_information_ (jid : string) : api (list device * list bundle) :=
  m <- load_list as_int (k_list jid) ;;
  l <- order (pyset (maybe [] m)) ;;
  fold_prog l (dev_info jid) ([], []).

(** get_device_information: sm:1341-1365 *)
Definition get_device_information (jid : string) : api (list device) :=
  r <- get_device_information_ jid ;; Ret r.1.

(** get_own_device_information: sm:1495-1510. next(iter(empty set)) raises StopIteration, which leaves a
    coroutine as RuntimeError. *)
Definition get_own_device_information : api (device * list device) :=
  all_own <- get_device_information own_jid ;;
  let other := filter (fun d => dv_id d <> own_dev) all_own in
  match filter (fun d => d ∉ other) all_own with
  | d :: _ => Ret (d, other)
  | [] => Raise ERuntime
  end.

(** set_own_label: sm:1310-1339 *)
Definition set_own_label (label : option string) : api unit :=
  s_store (k_label own_jid own_dev) (j_opt label) ;;;
  backends <- g_loaded ;;
  for_each backends (fun ns =>
    dl <- n_download_dl ns own_jid ;;
    n_upload_dl ns (dset own_dev label dl)).

(* ------------------------------------------------------------------------------------------------ *)
(** * Purging *)

(** purge_backend: sm:495-572 *)
Definition purge_backend (ns : string) : api unit :=
  dl <- n_download_dl ns own_jid ;;
  (if dmem own_dev dl then n_upload_dl ns (dpop own_dev dl) else Ret tt) ;;;
  r <- get_own_device_information ;;
  let device := r.1 in
  active' <- order (dpop ns (dv_active device)) ;;
  s_store (k_active own_jid own_dev) (j_bools active') ;;;
  namespaces' <- order (set_diff (dv_namespaces device) [ns]) ;;
  s_store (k_ns own_jid own_dev) (j_strs namespaces') ;;;
  backends <- g_loaded ;;
  backends' <- g_loaded ;;
  p_loaded (filter (fun n => n <> ns) backends') ;;;
  (if decide (ns ∈ backends) then b_purge ns else Ret tt) ;;;
  n_delete_bundle ns own_dev.

(** Collect identity keys: sm:592-599 *)
Definition collect_key (jid : string) (keys : list bytes) (dev : Z) : api (list bytes) :=
  m <- load_bytes (k_ik jid dev) ;;
  Ret (match m with Some ik => set_add ik keys | None => keys end).

(** purge_bare_jid: sm:574-624 *)
Definition purge_bare_jid (jid : string) : api unit :=
  m <- load_list as_int (k_list jid) ;;
  let device_list := pyset (maybe [] m) in
  l1 <- order device_list ;;
  keys <- fold_prog l1 (collect_key jid) [] ;;
  l2 <- order device_list ;;
  for_each l2 (fun dev =>
    s_delete (k_ns jid dev) ;;;
    s_delete (k_active jid dev) ;;;
    s_delete (k_label jid dev) ;;;
    s_delete (k_ik jid dev)) ;;;
  s_delete (k_list jid) ;;;
  ks <- order keys ;;
  for_each ks (fun ik => s_delete (k_trust jid ik)) ;;;
  backends <- g_loaded ;;
  for_each backends (fun ns => b_purge_jid ns jid).

(* ------------------------------------------------------------------------------------------------ *)
(** * Signed pre key rotation, sm:626-713 *)

(** The inner [while True]: sm:679-695. [rd] is the value [retry_delay] has from the previous iteration; it
    is overwritten at the start of the loop body (sm:680). *)
Fixpoint rotate_upload (fuel : nat) (rd : Z) (ns : string) : api unit :=
  match fuel with
  | O => Raise EOutOfFuel
  | S fuel' =>
      let rd := 60 in
      o <- try_ (b <- b_get_bundle ns own_jid own_dev ;; n_upload_bundle b) ;;
      match o with
      | Exn EBundleUploadFailed =>
          c_sleep rd ;;;
          let rd := rd * 2 in
          let rd := Z.min rd (60 * 60) in
          rotate_upload fuel' rd ns
      | Exn e => Raise e
      | Val _ => Ret tt
      end
  end.

(** One backend of the inner for loop: sm:667-703 *)
Definition rotate_one (fuel : nat) (period next_check : Z) (ns : string) : api Z :=
  age <- b_spk_age ns ;;
  let next_rotation := period - age in
  if next_rotation <? 0 then
    b_rotate ns ;;;
    rotate_upload fuel 0 ns ;;;
    Ret next_check
  else Ret (Z.min next_check next_rotation).

(** __manage_signed_pre_key_rotation: sm:662-713, [fuel] passes *)
Fixpoint rotation (fuel : nat) (period : Z) : api unit :=
  match fuel with
  | O => Raise EOutOfFuel
  | S fuel' =>
      backends <- g_loaded ;;
      next_check <- fold_prog backends (rotate_one fuel period) period ;;
      c_sleep (next_check + 60) ;;;
      rotation fuel' period
  end.

(* ------------------------------------------------------------------------------------------------ *)
(** * ensure_data_consistency: sm:715-766 *)
Definition ensure_data_consistency : api unit :=
  backends <- g_loaded ;;
  for_each backends (fun ns =>
    refresh_device_list ns own_jid ;;;
    local_bundle <- b_get_bundle ns own_jid own_dev ;;
    o <- try_ (n_download_bundle ns own_jid own_dev) ;;
    upload <- match o with
              | Exn EBundleDownloadFailed | Exn EBundleNotFound => Ret true
              | Exn e => Raise e
              | Val remote_bundle => Ret (bool_decide (remote_bundle <> local_bundle))
              end ;;
    if upload : bool then n_upload_bundle local_bundle else Ret tt).

(* ------------------------------------------------------------------------------------------------ *)
(** * Empty messages *)

(** the key exchange to attach: sm:1646-1650, 1924-1928 *)
Definition kex_to_send (s : session) : option kex :=
  if bool_decide (s_init s = Active) && negb (s_confirmed s) then Some (s_kex s) else None.

(** __send_empty_message: sm:1622-1652 *)
Definition send_empty_message (ns : string) (s : session) : api unit :=
  '(content, p) <- b_enc_empty ns ;;
  '(s', e) <- b_enc_key ns s p ;;
  n_send (Message ns own_jid own_dev content [(e, kex_to_send s')]) (s_jid s') ;;;
  b_store_session ns s'.

(* ------------------------------------------------------------------------------------------------ *)
(** * Sessions *)

(** The body of the try in replace_sessions: sm:1235-1260 *)
Definition replace_one (ns jid : string) (dev : Z) : api unit :=
  '(content, p) <- b_enc_empty ns ;;
  b <- n_download_bundle ns jid dev ;;
  '(s, e) <- b_build_active ns jid dev b p ;;
  n_send (Message ns own_jid own_dev content [(e, Some (s_kex s))]) jid ;;;
  b_store_session ns s.

(** replace_sessions: sm:1170-1270. Only bare_jid and device_id of the argument are used. *)
Definition replace_sessions (jid : string) (dev : Z) : api (list (string * exn)) :=
  devices <- get_device_information jid ;;
  match filter (fun d => dv_id d = dev) devices with
  | [] => Raise ERuntime                          (* next() on an exhausted filter, sm:1213 *)
  | device :: _ =>
      backends <- g_loaded ;;
      with_session <- filter_prog (fun ns =>
        m <- b_load_session ns jid dev ;; Ret (bool_decide (m <> None))) backends ;;
      let namespaces := set_inter (dv_namespaces device) with_session in
      backends' <- g_loaded ;;
      fold_prog backends' (fun unsuccessful ns =>
        if decide (ns ∈ namespaces) then
          o <- try_ (replace_one ns jid dev) ;;
          match o with
          | Val _ => Ret unsuccessful
          | Exn e => if is_omemo e then Ret (dset ns e unsuccessful) else Raise e
          end
        else Ret unsuccessful) []
  end.

(** get_sending_chain_length: sm:1272-1304 *)
Definition get_sending_chain_length (jid : string) (dev : Z) (namespaces : list string)
  : api (list (string * option Z)) :=
  backends <- g_loaded ;;
  fold_prog backends (fun acc ns =>
    if decide (ns ∈ namespaces) then
      m <- b_load_session ns jid dev ;;
      Ret (dset ns (s_scl <$> m) acc)
    else Ret acc) [].

(** format_identity_key: sm:1512-1528 *)
Definition format_identity_key (P : prims) (ik : bytes) : list string :=
  groups 8 (hex (ed25519_pub_to_curve25519_pub P ik)).

(* ------------------------------------------------------------------------------------------------ *)
(** * History synchronization *)

(** before_history_sync: sm:1534-1559 *)
Definition before_history_sync : api unit := p_sync true.

(** for device_id in queued_device_ids: sm:1604-1614 *)
Definition flush_dev (ns jid : string) (dev : Z) : api unit :=
  m <- b_load_session ns jid dev ;;
  match m with None => Ret tt | Some s => send_empty_message ns s end.

(** for bare_jid in queued_jids: sm:1593-1614 *)
Definition flush_jid (ns jid : string) : api unit :=
  m <- load_list as_int (k_queue_jid ns jid) ;;
  let devs := pyset (maybe [] m) in
  s_delete (k_queue_jid ns jid) ;;;
  devs' <- order devs ;;
  for_each devs' (flush_dev ns jid).

(** for backend in self.__backends: sm:1583-1614 *)
Definition flush_ns (ns : string) : api unit :=
  m <- load_list as_str (k_queue ns) ;;
  let jids := pyset (maybe [] m) in
  s_delete (k_queue ns) ;;;
  jids' <- order jids ;;
  for_each jids' (flush_jid ns).

(** after_history_sync: sm:1561-1616 *)
Definition after_history_sync : api unit :=
  p_sync false ;;;
  backends <- g_loaded ;;
  for_each backends b_del_hidden ;;;
  backends' <- g_loaded ;;
  for_each backends' flush_ns.

(* ------------------------------------------------------------------------------------------------ *)
(** * encrypt: sm:1654-1966 *)

(** The namespaces of a device for which it is active, in set order: [dict(device.active)[namespace]] raises
    KeyError for a namespace without activity information. sm:1753-1756, 1802 *)
Fixpoint active_namespaces (active : list (string * bool)) (namespaces : list string)
  : option (list string) :=
  match namespaces with
  | [] => Some []
  | ns :: l =>
      b ← dget ns active;
      r ← active_namespaces active l;
      Some (if b : bool then ns :: r else r)
  end.

(** is_valid_recipient_device: sm:1733-1763; [None] is the KeyError *)
Definition is_valid_recipient (prio : list string) (d : device) : option bool :=
  if bool_decide (dv_jid d = own_jid) && bool_decide (dv_id d = own_dev) then Some false
  else a ← active_namespaces (dv_active d) (dv_namespaces d);
       Some (bool_decide (set_inter a prio <> [])).

(** filter(is_valid_recipient_device, devices): sm:1772 *)
Fixpoint valid_recipients (prio : list string) (l : list device) : option (list device) :=
  match l with
  | [] => Some []
  | d :: l' =>
      b ← is_valid_recipient prio d;
      r ← valid_recipients prio l';
      Some (if b : bool then d :: r else r)
  end.

(** sorted(l, key=f), stable insertion sort *)
Fixpoint insert_by (f : string -> nat) (x : string) (l : list string) : list string :=
  match l with
  | [] => [x]
  | y :: l' => if (f y <=? f x)%nat then y :: insert_by f x l' else x :: l
  end.
Definition sort_by (f : string -> nat) (l : list string) : list string :=
  fold_right (insert_by f) [] (rev l).

(** list.index (only called for members) *)
Fixpoint index_of (l : list string) (x : string) : nat :=
  match l with
  | [] => 0%nat
  | y :: l' => if decide (x = y) then 0%nat else S (index_of l' x)
  end.

(** apply_backend_priorty_order: sm:1781-1803. The comprehension looks the namespace up in
    [dict(device.active)] first (KeyError, [None]). *)
Definition apply_priority (prio : list string) (d : device) : option device :=
  a ← active_namespaces (dv_active d) (dv_namespaces d);
  Some (Device (take 1 (sort_by (index_of prio) (filter (fun ns => ns ∈ prio) a)))
          (dv_active d) (dv_jid d) (dv_id d) (dv_ik d) (dv_trust d) (dv_label d)).

Definition of_key_error {A} (o : option A) : api A :=
  match o with Some a => Ret a | None => Raise EKeyError end.

(** devices with a given core trust level, in set order: sm:1816-1819, 1834-1837, 1845-1848 *)
Definition devices_with (t : trust) (devices : list device) : api (list device) :=
  l <- order devices ;;
  filter_prog (fun d => t' <- t_eval d ;; Ret (bool_decide (t' = t))) l.

(** device._replace(trust_level_name=...): sm:1826-1829 *)
Definition reload_trust (d : device) : api device :=
  m <- load_primitive as_str (k_trust (dv_jid d) (dv_ik d)) ;;
  Ret (Device (dv_namespaces d) (dv_active d) (dv_jid d) (dv_id d) (dv_ik d)
         (maybe (c_undecided cf) m) (dv_label d)).

(** Accumulated state of the encryption loop: sm:1862-1864 and [devices] *)
Record enc_state := EncState
  { es_messages : list (message * pkm); es_errors : list enc_error;
    es_sessions : list (string * session); es_devices : list device }.

(** One device: sm:1884-1931. Messages, errors, keys and sessions are Python sets/dicts of objects compared
    by identity (or carrying the recipient); they are accumulated as lists. *)
Definition enc_device (ns : string) (p : pkm) (cache : list bundle)
    (acc : enc_state * list (ekm * option kex)) (d : device)
    : api (enc_state * list (ekm * option kex)) :=
  let '(st, keys) := acc in
  m <- b_load_session ns (dv_jid d) (dv_id d) ;;
  cache' <- order cache ;;
  let cached := head (filter (fun b => b_ns b = ns /\ b_jid b = dv_jid d /\ b_dev b = dv_id d) cache') in
  o <- try_ (match m with
             | None =>
                 b <- match cached with
                      | None => n_download_bundle ns (dv_jid d) (dv_id d)
                      | Some b => Ret b
                      end ;;
                 b_build_active ns (dv_jid d) (dv_id d) b p
             | Some s => b_enc_key ns s p
             end) ;;
  match o with
  | Exn (EBundleDownloadFailed as e) | Exn (EBundleNotFound as e) | Exn (EKeyExchangeFailed as e) =>
      Ret (EncState (es_messages st) (es_errors st ++ [EncError ns (dv_jid d) (dv_id d) e])
             (es_sessions st) (filter (fun d' => d' <> d) (es_devices st)), keys)
  | Exn e => Raise e
  | Val (s, e) =>
      Ret (EncState (es_messages st) (es_errors st) (es_sessions st ++ [(ns, s)]) (es_devices st),
           keys ++ [(e, kex_to_send s)])
  end.

(** One backend: sm:1865-1940 *)
Definition enc_backend (plaintext : list (string * bytes)) (cache : list bundle) (st : enc_state)
    (ns : string) : api enc_state :=
  match filter (fun d => head (dv_namespaces d) = Some ns) (es_devices st) with
  | [] => Ret st
  | backend_devices =>
      pt <- of_key_error (dget ns plaintext) ;;
      '(content, p) <- b_enc_plain ns pt ;;
      l <- order backend_devices ;;
      '(st', keys) <- fold_prog l (enc_device ns p cache) (st, []) ;;
      Ret (EncState (es_messages st' ++ [(Message ns own_jid own_dev content keys, p)])
             (es_errors st') (es_sessions st') (es_devices st'))
  end.

(** Recipients without a remaining device: sm:1945-1948 *)
Definition no_eligible (jids : list string) (devices : list device) : list string :=
  filter (fun j => j <> own_jid /\ Forall (fun d => dv_jid d <> j) devices) jids.

(** The trust part of encrypt: sm:1814-1850. [mtd] is _make_trust_decision, an arbitrary program. *)
Definition enc_trust (mtd : list device -> option string -> api unit) (identifier : option string)
    (devices : list device) : api (list device) :=
  undecided <- devices_with Undecided devices ;;
  devices' <- match undecided with
              | [] => Ret devices
              | _ =>
                  mtd undecided identifier ;;;
                  l <- order devices ;;
                  map_prog reload_trust l
              end ;;
  undecided' <- devices_with Undecided devices' ;;
  match undecided' with
  | _ :: _ => Raise EStillUndecided
  | [] => devices_with Trusted devices'
  end.

(** encrypt: sm:1654-1966 *)
Definition encrypt (mtd : list device -> option string -> api unit) (bare_jids : list string)
    (plaintext : list (string * bytes)) (priority : option (list string)) (identifier : option string)
    : api (list (message * pkm) * list enc_error) :=
  available <- g_loaded ;;
  prio <- match priority with
          | None => Ret available
          | Some l => match set_diff l available with [] => Ret l | _ => Raise EUnknownNamespace end
          end ;;
  let jids := set_union (pyset bare_jids) [own_jid] in
  jids' <- order jids ;;
  tmp <- map_prog get_device_information_ jids' ;;
  devices <- of_key_error (valid_recipients prio (concat (map fst tmp))) ;;
  let cache := concat (map snd tmp) in
  devices <- of_key_error (mapM (apply_priority prio) devices) ;;
  let devices := filter (fun d => dv_namespaces d <> []) devices in
  devices <- enc_trust mtd identifier devices ;;
  backends <- g_loaded ;;
  st <- fold_prog backends (enc_backend plaintext cache) (EncState [] [] [] devices) ;;
  match no_eligible jids (es_devices st) with
  | (_ :: _) as l => Raise (ENoEligibleDevices l)
  | [] =>
      ss <- order (es_sessions st) ;;
      for_each ss (fun x => b_store_session x.1 x.2) ;;;
      Ret (es_messages st, es_errors st)
  end.

(* ------------------------------------------------------------------------------------------------ *)
(** * decrypt: sm:1968-2254 *)

(** decrypt_key_material: sm:2078-2110 *)
Definition dec_existing (ns : string) (d : device) (e : ekm) : api (session * pkm) :=
  m <- b_load_session ns (dv_jid d) (dv_id d) ;;
  match m with
  | None => Raise ENoSession
  | Some s => b_dec_key ns s e
  end.

(** handle_key_exchange: sm:2112-2179 *)
Definition dec_kex (ns : string) (d : device) (k : kex) (e : ekm) : api (session * pkm) :=
  if decide (kx_ik k = dv_ik d) then
    m <- b_load_session ns (dv_jid d) (dv_id d) ;;
    m' <- match m with
          | None => Ret None
          | Some s =>
              if decide (s_init s = Passive) then
                same <- k_same (s_kex s) k ;;
                Ret (if same : bool then Some s else None)
              else Ret None
          end ;;
    match m' with
    | None => b_build_passive ns (dv_jid d) (dv_id d) k e
    | Some s => b_dec_key ns s e
    end
  else Raise EPublicDataInconsistency.

(** Find the sending device, refreshing once: sm:2040-2070 *)
Definition dec_sender (m : message) : api device :=
  devices <- get_device_information (m_jid m) ;;
  match filter (fun d => dv_id d = m_dev m) devices with
  | d :: _ => Ret d
  | [] =>
      refresh_device_list (m_ns m) (m_jid m) ;;;
      devices' <- get_device_information (m_jid m) ;;
      match filter (fun d => dv_id d = m_dev m) devices' with
      | d :: _ => Ret d
      | [] => Raise ESenderNotFound
      end
  end.

(** Pre key hiding/deletion and refill: sm:2201-2221 *)
Definition dec_prekeys (ns : string) (s : session) : api unit :=
  sync <- g_sync ;;
  bundle_changed <- (if sync : bool then b_hide ns s else b_delete ns s) ;;
  if bundle_changed : bool then
    n <- b_num_visible ns ;;
    (if n <=? c_threshold cf then b_generate ns (100 - n) else Ret tt) ;;;
    b <- b_get_bundle ns own_jid own_dev ;;
    n_upload_bundle b
  else Ret tt.

(** Queue or send the empty message: sm:2232-2249 *)
Definition dec_respond (ns : string) (s : session) : api unit :=
  sync <- g_sync ;;
  if sync : bool then
    m <- load_list as_str (k_queue (s_ns s)) ;;
    l <- order (set_add (s_jid s) (pyset (maybe [] m))) ;;
    s_store (k_queue (s_ns s)) (j_strs l) ;;;
    m' <- load_list as_int (k_queue_jid (s_ns s) (s_jid s)) ;;
    l' <- order (set_add (s_dev s) (pyset (maybe [] m'))) ;;
    s_store (k_queue_jid (s_ns s) (s_jid s)) (j_ints l')
  else send_empty_message ns s.

(** decrypt: sm:1968-2254 *)
Definition decrypt (m : message) : api (option bytes * device * pkm) :=
  backends <- g_loaded ;;
  if decide (m_ns m ∈ backends) then
    let ns := m_ns m in
    keys <- order (m_keys m) ;;
    match filter (fun k => ek_jid k.1 = own_jid /\ ek_dev k.1 = own_dev) keys with
    | [] => Raise EMessageNotForUs
    | (e, mk) :: _ =>
        d <- dec_sender m ;;
        t <- t_eval d ;;
        if decide (t = Distrusted) then Raise ESenderDistrusted else
        '(s, p) <- match mk with None => dec_existing ns d e | Some k => dec_kex ns d k e end ;;
        plaintext <- (if ct_empty (m_content m) then Ret None
                      else pt <- b_dec_plain ns (m_content m) p ;; Ret (Some pt)) ;;
        b_store_session ns s ;;;
        match mk with None => Ret tt | Some _ => dec_prekeys ns s end ;;;
        (if bool_decide (mk <> None) || (STALENESS_MAGIC_NUMBER <? maybe 0 (s_rcl s))
         then dec_respond ns s else Ret tt) ;;;
        Ret (plaintext, d, p)
    end
  else Raise EUnknownNamespace.

End manager.

(* ------------------------------------------------------------------------------------------------ *)
(** * create: sm:251-493 *)

Record create_args := CreateArgs
  { a_backends : list string; a_jid : string; a_label : option string; a_undecided : string;
    a_threshold : Z }.

(** next(filter(not in device_ids, (randbelow(...) + MIN for _ in count()))): sm:369-376, [fuel] draws *)
Fixpoint fresh_id (fuel : nat) (device_ids : list Z) : api Z :=
  match fuel with
  | O => Raise EOutOfFuel
  | S fuel' =>
      r <- c_randbelow (DEVICE_ID_MAX - DEVICE_ID_MIN) ;;
      let id := r + DEVICE_ID_MIN in
      if decide (id ∈ device_ids) then fresh_id fuel' device_ids else Ret id
  end.

Definition cfg_of (a : create_args) (dev : Z) : cfg := Cfg (a_jid a) dev (a_undecided a) (a_threshold a).

(** Local set-up of the first run: sm:361-416. Returns the new device id. *)
Definition first_run_local (P : prims) (fuel : nat) (a : create_args) (k : ikp) : api Z :=
  backends <- g_loaded ;;
  lists <- map_prog (fun ns => dl <- n_download_dl ns (a_jid a) ;; Ret (dkeys dl)) backends ;;
  dev <- fresh_id fuel (concat lists) ;;
  let jid := a_jid a in
  backends1 <- g_loaded ;;
  s_store (k_ns jid dev) (j_strs backends1) ;;;
  backends2 <- g_loaded ;;
  s_store (k_active jid dev) (j_bools (map (fun ns => (ns, true)) backends2)) ;;;
  s_store (k_label jid dev) (j_opt (a_label a)) ;;;
  store_bytes (k_ik jid dev) (ikp_identity_key P k) ;;;
  s_store (k_list jid) (j_ints [dev]) ;;;
  s_store (k_trust jid (ikp_identity_key P k)) (JStr (a_undecided a)) ;;;
  s_store k_own (JInt dev) ;;;
  Ret dev.

(** Publishing of the first run: sm:418-429 *)
Definition first_run_publish (c : cfg) : api unit :=
  backends <- g_loaded ;;
  for_each backends (fun ns => b_generate ns 100) ;;;
  backends' <- g_loaded ;;
  for_each backends' (fun ns => b <- b_get_bundle ns (c_jid c) (c_dev c) ;; n_upload_bundle b) ;;;
  backends'' <- g_loaded ;;
  for_each backends'' (fun ns => refresh_device_list c ns (c_jid c)).

(** Initialization of one added backend: sm:454-469 *)
Definition add_backend (c : cfg) (active : list string) (ns : string) : api unit :=
  if decide (ns ∈ active) then Ret tt else
  n <- b_num_visible ns ;;
  (if n <=? c_threshold c then b_generate ns (100 - n) else Ret tt) ;;;
  b <- b_get_bundle ns (c_jid c) (c_dev c) ;;
  n_upload_bundle b ;;;
  refresh_device_list c ns (c_jid c).

(** Changes in the loaded backends: sm:431-473 *)
Definition reconcile (c : cfg) : api unit :=
  r <- get_own_device_information c ;;
  backends <- g_loaded ;;
  let loaded := pyset backends in
  let active := dv_namespaces r.1 in
  if set_eqb loaded active then Ret tt else
  l1 <- order loaded ;;
  s_store (k_active (c_jid c) (c_dev c)) (j_bools (map (fun ns => (ns, true)) l1)) ;;;
  l2 <- order loaded ;;
  s_store (k_ns (c_jid c) (c_dev c)) (j_strs l2) ;;;
  backends' <- g_loaded ;;
  for_each backends' (add_backend c active) ;;;
  removed <- order (set_diff active loaded) ;;
  for_each removed (purge_backend c).

(** create: sm:325-493. The rotation task it starts (sm:475-487) is the separate program [rotation]. *)
Definition create (P : prims) (fuel : nat) (a : create_args) : api cfg :=
  if negb (bool_decide (length (pyset (a_backends a)) = length (a_backends a))) then Raise EValueError else
  if negb ((25 <=? a_threshold a) && (a_threshold a <=? 99)) then Raise EValueError else
  p_loaded (a_backends a) ;;;
  k <- ikp_get ;;
  p_sync true ;;;
  m <- load_primitive as_int k_own ;;
  dev <- match m with
         | Some dev => Ret dev
         | None =>
             dev <- first_run_local P fuel a k ;;
             first_run_publish (cfg_of a dev) ;;;
             Ret dev
         end ;;
  reconcile (cfg_of a dev) ;;;
  Ret (cfg_of a dev).

(* ------------------------------------------------------------------------------------------------ *)
(** * BTBVSessionManager, examples/btbv_session_manager.py *)

(** BTBVTrustLevel: lines 16-25 *)
Inductive btbv := BTrusted | BBlindlyTrusted | BUndecided | BDistrusted.
Global Instance btbv_eq_dec : EqDecision btbv. Proof. solve_decision. Defined.

(** BTBVTrustLevel(name), [None] = ValueError; the names equal the values *)
Definition btbv_of (name : string) : option btbv :=
  if decide (name = "TRUSTED"%string) then Some BTrusted
  else if decide (name = "BLINDLY_TRUSTED"%string) then Some BBlindlyTrusted
  else if decide (name = "UNDECIDED"%string) then Some BUndecided
  else if decide (name = "DISTRUSTED"%string) then Some BDistrusted
  else None.

(** _evaluate_custom_trust_level: lines 34-47 *)
Definition btbv_eval (d : device) : outcome trust :=
  match btbv_of (dv_trust d) with
  | None => Exn EUnknownTrustLevel
  | Some BTrusted | Some BBlindlyTrusted => Val Trusted
  | Some BUndecided => Val Undecided
  | Some BDistrusted => Val Distrusted
  end.

(** all(BTBVTrustLevel(name) in {...}): lines 69-72; raises ValueError on an unknown name reached before the
    first counterexample ([all] stops at the first False) *)
Fixpoint btbv_all_blind (l : list device) : outcome bool :=
  match l with
  | [] => Val true
  | d :: l' =>
      match btbv_of (dv_trust d) with
      | None => Exn EValueError
      | Some b => if decide (b = BUndecided \/ b = BBlindlyTrusted) then btbv_all_blind l' else Val false
      end
  end.

(** _make_trust_decision: lines 49-94. [prompt] is _prompt_manual_trust, an arbitrary program. *)
Definition btbv_mtd (c : cfg) (prompt : list device -> option string -> api unit)
    (undecided : list device) (identifier : option string) : api unit :=
  jids <- order (pyset (map dv_jid undecided)) ;;
  pools <- fold_prog jids (fun acc jid =>
    devices <- get_device_information c jid ;;
    devices' <- order devices ;;
    blind <- of_outcome (btbv_all_blind devices') ;;
    Ret (if blind : bool then (acc.1 ++ [jid], acc.2) else (acc.1, acc.2 ++ [jid]))) ([], []) ;;
  let blindly := filter (fun d => dv_jid d ∈ pools.1) undecided in
  let manually := filter (fun d => dv_jid d ∈ pools.2) undecided in
  match blindly with
  | [] => Ret tt
  | _ =>
      l <- order blindly ;;
      for_each l (fun d => set_trust (dv_jid d) (dv_ik d) "BLINDLY_TRUSTED"%string) ;;;
      t_blind blindly identifier
  end ;;;
  match manually with
  | [] => Ret tt
  | _ => prompt manually identifier
  end.
