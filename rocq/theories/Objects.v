(** Device lists as Python objects: vocabulary of C105. The model treats the dictionaries exchanged with the application
    ([_download_device_list], [_upload_device_list], [update_device_list]) as values. Here they have identities, and the
    functions that use them are written with the reads and in-place changes the source contains. *)
From Verif Require Export Api Spec Alone.
Open Scope prog_scope.
Open Scope list_scope.

Notation dlist := (list (Z * option string)) (only parsing).
(** dict(d); reading and changing an object; the two callbacks, which exchange objects; any other command. *)
Inductive ocmd : Type :=
  | ONew (d : dlist) | OGet (l : nat) | OPut (l : nat) (d : dlist)
  | ODown (ns j : string) | OUp (ns : string) (l : nat)
  | OLib (c : cmd).
Definition oresp (c : ocmd) : Type :=
  match c with
  | ONew _ => nat
  | OGet _ => dlist
  | OPut _ _ => unit
  | ODown _ _ => outcome (nat * dlist)
  | OUp _ _ => outcome unit
  | OLib c => resp c
  end.
Notation oapi := (prog oresp).
Notation oworld := (world * gmap nat (list (Z * option string)))%type.
Definition at_ (h : gmap nat dlist) (l : nat) : dlist := default [] (h !! l).
(** The application returns an object it has, unchanged, or a new one. It keeps the objects it is given. *)
Definition o_allowed (s : oworld) (c : ocmd) : oresp c -> Prop :=
  match c return oresp c -> Prop with
  | ONew _ => fun l => s.2 !! l = None
  | OGet l => fun d => d = at_ s.2 l
  | OPut _ _ => fun _ => True
  | ODown ns j => fun r => match r with
      | Val (l, d) => (s.2 !! l = None \/ s.2 !! l = Some d) /\ w_allowed s.1 (NDownloadDL ns j) (Val d)
      | Exn e => w_allowed s.1 (NDownloadDL ns j) (Exn e) end
  | OUp ns l => fun r => w_allowed s.1 (NUploadDL ns (at_ s.2 l)) r
  | OLib c => fun r => w_allowed s.1 c r
  end.
Definition o_apply (s : oworld) (c : ocmd) : oresp c -> oworld :=
  match c return oresp c -> oworld with
  | ONew d => fun l => (s.1, <[l := d]> s.2)
  | OGet _ => fun _ => s
  | OPut l d => fun _ => (s.1, <[l := d]> s.2)
  | ODown ns j => fun r => match r with
      | Val (l, d) => (w_apply s.1 (NDownloadDL ns j) (Val d), <[l := d]> s.2)
      | Exn e => (w_apply s.1 (NDownloadDL ns j) (Exn e), s.2) end
  | OUp ns l => fun r => (w_apply s.1 (NUploadDL ns (at_ s.2 l)) r, s.2)
  | OLib c => fun r => (w_apply s.1 c r, s.2)
  end.
Definition osem : @sem ocmd oresp oworld := Sem _ o_allowed o_apply.
(** Control changes hands at the callbacks and at what is awaited otherwise. *)
Definition o_awaited (c : ocmd) : bool :=
  match c with ONew _ | OGet _ | OPut _ _ => false | ODown _ _ | OUp _ _ => true | OLib c => awaited c end.

(** Code that uses no device list object. *)
Fixpoint lift {A} (p : api A) : oapi A :=
  match p with Ret a => Ret a | Raise e => Raise e | Step c k => Step (OLib c) (fun r => lift (k r)) end.
Definition o_new (d : dlist) : oapi nat := act (ONew d).
Definition o_get (l : nat) : oapi dlist := act (OGet l).
Definition o_put (l : nat) (d : dlist) : oapi unit := act (OPut l d).
Definition o_down ns j : oapi nat := Step (ODown ns j) (fun r => match r with Val x => Ret x.1 | Exn e => Raise e end).
Definition o_up ns l : oapi unit := Step (OUp ns l) of_outcome.

Section functions.
Context (cf : cfg).
(** set_own_label: sm:1310-1339; device_list[...] = own_label is sm:1338 *)
Definition set_own_label_o (label : option string) : oapi unit :=
  lift (s_store (k_label (c_jid cf) (c_dev cf)) (j_opt label)) ;;;
  backends <- lift g_loaded ;;
  for_each backends (fun ns =>
    l <- o_down ns (c_jid cf) ;;
    d <- o_get l ;;
    o_put l (dset (c_dev cf) label d) ;;;
    o_up ns l).
(** The first part of purge_backend: sm:524-532; pop is sm:528. The rest uses no device list. *)
Definition purge_list_o (ns : string) : oapi unit :=
  l <- o_down ns (c_jid cf) ;;
  d <- o_get l ;;
  if dmem (c_dev cf) d then o_put l (dpop (c_dev cf) d) ;;; o_up ns l else Ret tt.
Definition purge_list (ns : string) : api unit :=
  dl <- n_download_dl ns (c_jid cf) ;;
  if dmem (c_dev cf) dl then n_upload_dl ns (dpop (c_dev cf) dl) else Ret tt.

(** purge_backend: sm:495-572 *)
Definition purge_rest (ns : string) : api unit :=
  r <- get_own_device_information cf ;;
  let device := r.1 in
  active' <- order (dpop ns (dv_active device)) ;;
  s_store (k_active (c_jid cf) (c_dev cf)) (j_bools active') ;;;
  namespaces' <- order (set_diff (dv_namespaces device) [ns]) ;;
  s_store (k_ns (c_jid cf) (c_dev cf)) (j_strs namespaces') ;;;
  backends <- g_loaded ;;
  backends' <- g_loaded ;;
  p_loaded (filter (fun n => n <> ns) backends') ;;;
  (if decide (ns ∈ backends) then b_purge ns else Ret tt) ;;;
  n_delete_bundle ns (c_dev cf).
Definition purge_backend_o (ns : string) : oapi unit := purge_list_o ns ;;; lift (purge_rest ns).

(** update_device_list: sm:985-1096; the copy is sm:1021, the change of the copy sm:1041, reads are sm:1023, 1050, 1062,
    1077-1078 *)
Definition upd_own_o (ns jid : string) (l : nat) : oapi unit :=
  if decide (jid = c_jid cf) then
    backends <- lift g_loaded ;;
    d <- o_get l ;;
    if bool_decide (ns ∈ backends) && negb (dmem (c_dev cf) d) then
      m <- lift (load_optional as_str (k_label (c_jid cf) (c_dev cf))) ;;
      label <- lift (from_just m) ;;
      d' <- o_get l ;;
      o_put l (dset (c_dev cf) label d') ;;;
      o_up ns l
    else Ret tt
  else Ret tt.
Definition upd_new_o (ns jid : string) (l : nat) (dev : Z) : oapi unit :=
  lift (s_store (k_active jid dev) (j_bools [(ns, true)])) ;;;
  d <- o_get l ;;
  match dget dev d with
  | None => Raise EKeyError
  | Some label => lift (s_store (k_label jid dev) (j_opt label) ;;; s_store (k_ns jid dev) (j_strs [ns]))
  end.
Definition upd_old_o (ns jid : string) (l : nat) (dev : Z) : oapi unit :=
  m <- lift (load_list as_str (k_ns jid dev)) ;;
  l0 <- lift (from_just m) ;;
  let namespaces := pyset l0 in
  m' <- lift (load_dict as_bool (k_active jid dev)) ;;
  active <- lift (from_just m') ;;
  d <- o_get l ;;
  if dmem dev d then
    lift (if bool_decide (dget ns active = Some true) then Ret tt
          else s_store (k_active jid dev) (j_bools (dset ns true active))) ;;;
    m'' <- lift (load_optional as_str (k_label jid dev)) ;;
    label <- lift (from_just m'') ;;
    d' <- o_get l ;;
    match dget dev d' with
    | None => Raise EKeyError
    | Some new_label =>
        lift ((if bool_decide (new_label <> None) && bool_decide (new_label <> label)
               then s_store (k_label jid dev) (j_opt new_label) else Ret tt) ;;;
              (if decide (ns ∈ namespaces) then Ret tt
               else l' <- order (set_add ns namespaces) ;; s_store (k_ns jid dev) (j_strs l')))
    end
  else
    lift (if decide (ns ∈ namespaces) then
            match dget ns active with
            | None => Raise EKeyError
            | Some true => s_store (k_active jid dev) (j_bools (dset ns false active))
            | Some false => Ret tt
            end
          else Ret tt).
Definition update_device_list_o (ns jid : string) (arg : nat) : oapi unit :=
  backends <- lift g_loaded ;;
  if decide (ns ∈ backends) then
    given <- o_get arg ;;
    l <- o_new given ;;
    d <- o_get l ;;
    let new_device_list := pyset (dkeys d) in
    m <- lift (load_list as_int (k_list jid)) ;;
    let old_device_list := pyset (Model.maybe [] m) in
    let new_devices := set_diff new_device_list old_device_list in
    upd_own_o ns jid l ;;;
    nd <- lift (order new_devices) ;;
    for_each nd (upd_new_o ns jid l) ;;;
    od <- lift (order old_device_list) ;;
    for_each od (upd_old_o ns jid l) ;;;
    lift match new_devices with
         | [] => Ret tt
         | _ => l' <- order (set_union new_device_list old_device_list) ;; s_store (k_list jid) (j_ints l')
         end
  else lift (Raise EUnknownNamespace).
End functions.

(** The application returns a new dictionary every time, and keeps none of those it is given. *)
Definition o_fresh : @sem ocmd oresp oworld :=
  Sem _ (fun s c r => o_allowed s c r /\
    match c return oresp c -> Prop with ODown _ _ => fun r => match r with Val (l, _) => s.2 !! l = None | Exn _ => True end | _ => fun _ => True end r)
    o_apply.
(** A call and what the model says it does. *)
Inductive called (cf : cfg) : gmap nat dlist -> oapi unit -> api unit -> Prop :=
  | c_label label : called cf ∅ (set_own_label_o cf label) (set_own_label cf label)
  | c_purge ns : called cf ∅ (purge_backend_o cf ns) (purge_backend cf ns)
  | c_update ns j l d : called cf {[l := d]} (update_device_list_o cf ns j l) (update_device_list cf ns j d)
  | c_other (p : api unit) : called cf ∅ (lift p) p.
(** Coroutines with the objects they were given; no object is given to two of them. *)
Definition apart (cs : list (gmap nat dlist * oapi unit * api unit)) : Prop :=
  forall i j a b, cs !! i = Some a -> cs !! j = Some b -> i <> j -> a.1.1 ##ₘ b.1.1.
