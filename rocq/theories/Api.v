(** The public interface as data, the applications that can be written with it, and the histories (interleaved
    runs, crashes, restarts) a storage can go through. *)
From Verif Require Export Model.
Open Scope prog_scope.
Open Scope list_scope.

(** Calls of public methods. [SessionManager] methods are called on the instance described by the [cfg]. *)
Inductive call : Type :=
  | KCreate (P : prims) (fuel : nat) (a : create_args)
  | KIkpGet
  | KUpdate (cf : cfg) (ns jid : string) (dl : list (Z * option string))
  | KRefresh (cf : cfg) (ns jid : string)
  | KRefreshAll (cf : cfg) (jid : string)
  | KSetTrust (jid : string) (ik : bytes) (level : string)
  | KGetInfo (cf : cfg) (jid : string)
  | KGetOwn (cf : cfg)
  | KSetLabel (cf : cfg) (label : option string)
  | KPurgeBackend (cf : cfg) (ns : string)
  | KPurgeJid (jid : string)
  | KRotation (cf : cfg) (fuel : nat) (period : Z)
  | KEnsure (cf : cfg)
  | KReplace (cf : cfg) (jid : string) (dev : Z)
  | KChain (jid : string) (dev : Z) (nss : list string)
  | KBefore
  | KAfter (cf : cfg)
  | KEncrypt (cf : cfg) (mtd : list device -> option string -> api unit) (jids : list string)
      (pt : list (string * bytes)) (prio : option (list string)) (ident : option string)
  | KDecrypt (cf : cfg) (m : message).

Definition call_ret (c : call) : Type :=
  match c with
  | KCreate _ _ _ => cfg
  | KIkpGet => ikp
  | KGetInfo _ _ => list device
  | KGetOwn _ => device * list device
  | KReplace _ _ _ => list (string * exn)
  | KChain _ _ _ => list (string * option Z)
  | KEncrypt _ _ _ _ _ _ => list (message * pkm) * list enc_error
  | KDecrypt _ _ => option bytes * device * pkm
  | _ => unit
  end.

Definition run_call (c : call) : api (call_ret c) :=
  match c return api (call_ret c) with
  | KCreate P fuel a => create P fuel a
  | KIkpGet => ikp_get
  | KUpdate cf ns jid dl => update_device_list cf ns jid dl
  | KRefresh cf ns jid => refresh_device_list cf ns jid
  | KRefreshAll cf jid => refresh_device_lists cf jid
  | KSetTrust jid ik level => set_trust jid ik level
  | KGetInfo cf jid => get_device_information cf jid
  | KGetOwn cf => get_own_device_information cf
  | KSetLabel cf label => set_own_label cf label
  | KPurgeBackend cf ns => purge_backend cf ns
  | KPurgeJid jid => purge_bare_jid jid
  | KRotation cf fuel period => rotation cf fuel period
  | KEnsure cf => ensure_data_consistency cf
  | KReplace cf jid dev => replace_sessions cf jid dev
  | KChain jid dev nss => get_sending_chain_length jid dev nss
  | KBefore => before_history_sync
  | KAfter cf => after_history_sync cf
  | KEncrypt cf mtd jids pt prio ident => encrypt cf mtd jids pt prio ident
  | KDecrypt cf m => decrypt cf m
  end.

(** Commands that leave storage and instance attributes alone: what application code may do by itself. *)
Definition external (c : cmd) : bool :=
  match c with SLoad _ | SStore _ _ | SDelete _ | PLoaded _ | PSync _ => false | _ => true end.

(** Code built from calls allowed by [ok] and commands allowed by [ext]. The trust decision callback passed to
    [encrypt] is such code too. *)
Inductive code (ext : cmd -> bool) (ok : call -> Prop) : forall A, api A -> Prop :=
  | app_ret A (a : A) : code ext ok A (Ret a)
  | app_raise A e : code ext ok A (Raise e)
  | app_bind A B (p : api A) (f : A -> api B) :
      code ext ok A p -> (forall a, code ext ok B (f a)) -> code ext ok B (bind p f)
  | app_try A (p : api A) : code ext ok A p -> code ext ok (outcome A) (try_ p)
  | app_cmd c : ext c = true -> code ext ok (resp c) (act c)
  | app_call c : ok c ->
      (forall cf mtd jids pt prio ident, c = KEncrypt cf mtd jids pt prio ident ->
         forall ds i, code ext ok unit (mtd ds i)) ->
      code ext ok (call_ret c) (run_call c).
Global Arguments code ext ok {A} _.

(** Application code: any calls allowed by [ok], any commands outside the storage. *)
Notation appcode := (code external).
(** Code whose only backend calls and network traffic are those of the library. *)
Definition harmless (c : cmd) : bool :=
  match c with CPerm | CRandBelow _ | CRandBytes _ | CSleep _ | GLoaded | GSync | TEval _ | TBlind _ _ => true | _ => false end.
Notation libcode := (code harmless).

(** The storage survives a restart; the instance attributes are set anew. *)
Definition restart (w w' : world) : Prop := w_disk w' = w_disk w.

(** One process: some coroutines run interleaved and are cut off anywhere. Then a restart. *)
Definition epoch (ok : call -> Prop) (w w' : world) : Prop :=
  exists (ps : list (api unit)) cfg', Forall (fun p => appcode ok p) ps /\ preach base (ps, w) cfg' /\ restart cfg'.2 w'.
Definition hist (ok : call -> Prop) : world -> world -> Prop := rtc (epoch ok).

Definition any_call : call -> Prop := fun _ => True.
