(** The commands a SessionManager performs on its environment, the world they act on, the contract of the
    environment, and the log of observable calls. *)
From Verif Require Export Prog Strs.

(* ------------------------------------------------------------------------------------------------ *)
(** * Commands *)

(** One constructor per awaited call, instance-attribute access or set iteration.
    A backend is identified by its namespace ([Backend.namespace]); [create] rejects duplicates. *)
Inductive cmd : Type :=
  (* Storage.load/store/delete, storage.py:233-287 (the cache below is modelled in StorageImpl.v) *)
  | SLoad (k : string) | SStore (k : string) (v : json) | SDelete (k : string)
  (* self.__backends and self.__synchronizing, session_manager.py:242, 249 *)
  | GLoaded | PLoaded (l : list string) | GSync | PSync (b : bool)
  (* the iteration order of one Python set/frozenset *)
  | CPerm
  (* secrets.randbelow, secrets.token_bytes; session_manager.py:372, identity_key_pair.py:79 *)
  | CRandBelow (n : Z) | CRandBytes (n : nat)
  (* async_sleep, session_manager.py:647-660 *)
  | CSleep (seconds : Z)
  (* KeyExchange.builds_same_session, message.py:66-77 *)
  | KSame (mine theirs : kex)
  (* Backend, backend.py:141-430 *)
  | BLoadSession (ns jid : string) (dev : Z)
  | BStoreSession (ns : string) (s : session)
  | BBuildActive (ns jid : string) (dev : Z) (b : bundle) (p : pkm)
  | BBuildPassive (ns jid : string) (dev : Z) (k : kex) (e : ekm)
  | BEncPlain (ns : string) (pt : bytes)
  | BEncEmpty (ns : string)
  | BEncKey (ns : string) (s : session) (p : pkm)
  | BDecPlain (ns : string) (c : content) (p : pkm)
  | BDecKey (ns : string) (s : session) (e : ekm)
  | BSpkAge (ns : string)
  | BRotate (ns : string)
  | BHide (ns : string) (s : session)
  | BDelete (ns : string) (s : session)
  | BDelHidden (ns : string)
  | BNumVisible (ns : string)
  | BGenerate (ns : string) (n : Z)
  | BGetBundle (ns jid : string) (dev : Z)
  | BPurge (ns : string)
  | BPurgeJid (ns jid : string)
  (* abstract methods of SessionManager, session_manager.py:772-979 *)
  | NUploadBundle (b : bundle)
  | NDownloadBundle (ns jid : string) (dev : Z)
  | NDeleteBundle (ns : string) (dev : Z)
  | NUploadDL (ns : string) (dl : list (Z * option string))
  | NDownloadDL (ns jid : string)
  | NSend (m : message) (jid : string)
  | TEval (d : device)
  (* BTBVSessionManager._devices_blindly_trusted, btbv_session_manager.py:96-111 *)
  | TBlind (ds : list device) (ident : option string).

(** Responses. [outcome] where the call may raise. A Session is mutable in Python; calls that mutate it
    return the new value. *)
Definition resp (c : cmd) : Type :=
  match c with
  | SLoad _ => outcome (option json)
  | SStore _ _ | SDelete _ => outcome unit
  | GLoaded => list string
  | PLoaded _ | PSync _ => unit
  | GSync => bool
  | CPerm => list nat
  | CRandBelow _ => Z
  | CRandBytes _ => bytes
  | CSleep _ => outcome unit
  | KSame _ _ => bool
  | BLoadSession _ _ _ => outcome (option session)
  | BStoreSession _ _ => outcome unit
  | BBuildActive _ _ _ _ _ => outcome (session * ekm)
  | BBuildPassive _ _ _ _ _ => outcome (session * pkm)
  | BEncPlain _ _ => outcome (content * pkm)
  | BEncEmpty _ => outcome (content * pkm)
  | BEncKey _ _ _ => outcome (session * ekm)
  | BDecPlain _ _ _ => outcome bytes
  | BDecKey _ _ _ => outcome (session * pkm)
  | BSpkAge _ => outcome Z
  | BRotate _ => outcome unit
  | BHide _ _ | BDelete _ _ => outcome bool
  | BDelHidden _ => outcome unit
  | BNumVisible _ => outcome Z
  | BGenerate _ _ => outcome unit
  | BGetBundle _ _ _ => outcome bundle
  | BPurge _ | BPurgeJid _ _ => outcome unit
  | NUploadBundle _ => outcome unit
  | NDownloadBundle _ _ _ => outcome bundle
  | NDeleteBundle _ _ | NUploadDL _ _ => outcome unit
  | NDownloadDL _ _ => outcome (list (Z * option string))
  | NSend _ _ => outcome unit
  | TEval _ => outcome trust
  | TBlind _ _ => outcome unit
  end.

(** Coroutines of the library. *)
Notation api := (prog resp).

(** Awaited calls, at which another coroutine may run. Attribute accesses, set iterations, the random
    generator and the synchronous [builds_same_session] are not. *)
Definition awaited (c : cmd) : bool :=
  match c with
  | GLoaded | PLoaded _ | GSync | PSync _ | CPerm | CRandBelow _ | CRandBytes _ | KSame _ _ => false
  | _ => true
  end.

(* ------------------------------------------------------------------------------------------------ *)
(** * Log of observable calls *)

(** Everything the library did to the outside, with the answer it got. Loads, attribute accesses, set
    iteration orders and random numbers are not logged. *)
Inductive event : Type :=
  | EvStore (k : string) (v : json) (r : outcome unit)
  | EvDelete (k : string) (r : outcome unit)
  | EvSleep (seconds : Z) (r : outcome unit)
  | EvSame (mine theirs : kex) (r : bool)
  | EvLoadSession (ns jid : string) (dev : Z) (r : outcome (option session))
  | EvStoreSession (ns : string) (s : session) (r : outcome unit)
  | EvBuildActive (ns jid : string) (dev : Z) (b : bundle) (p : pkm) (r : outcome (session * ekm))
  | EvBuildPassive (ns jid : string) (dev : Z) (k : kex) (e : ekm) (r : outcome (session * pkm))
  | EvEncPlain (ns : string) (pt : bytes) (r : outcome (content * pkm))
  | EvEncEmpty (ns : string) (r : outcome (content * pkm))
  | EvEncKey (ns : string) (s : session) (p : pkm) (r : outcome (session * ekm))
  | EvDecPlain (ns : string) (c : content) (p : pkm) (r : outcome bytes)
  | EvDecKey (ns : string) (s : session) (e : ekm) (r : outcome (session * pkm))
  | EvSpkAge (ns : string) (r : outcome Z)
  | EvRotate (ns : string) (r : outcome unit)
  | EvHide (ns : string) (s : session) (r : outcome bool)
  | EvDeletePk (ns : string) (s : session) (r : outcome bool)
  | EvDelHidden (ns : string) (r : outcome unit)
  | EvNumVisible (ns : string) (r : outcome Z)
  | EvGenerate (ns : string) (n : Z) (r : outcome unit)
  | EvGetBundle (ns jid : string) (dev : Z) (r : outcome bundle)
  | EvPurge (ns : string) (r : outcome unit)
  | EvPurgeJid (ns jid : string) (r : outcome unit)
  | EvUploadBundle (b : bundle) (r : outcome unit)
  | EvDownloadBundle (ns jid : string) (dev : Z) (r : outcome bundle)
  | EvDeleteBundle (ns : string) (dev : Z) (r : outcome unit)
  | EvUploadDL (ns : string) (dl : list (Z * option string)) (r : outcome unit)
  | EvDownloadDL (ns jid : string) (r : outcome (list (Z * option string)))
  | EvSend (m : message) (jid : string) (r : outcome unit)
  | EvEval (d : device) (r : outcome trust)
  | EvBlind (ds : list device) (ident : option string) (r : outcome unit).

Definition event_of (c : cmd) : resp c -> option event :=
  match c return resp c -> option event with
  | SStore k v => fun r => Some (EvStore k v r)
  | SDelete k => fun r => Some (EvDelete k r)
  | CSleep n => fun r => Some (EvSleep n r)
  | KSame a b => fun r => Some (EvSame a b r)
  | BLoadSession ns j d => fun r => Some (EvLoadSession ns j d r)
  | BStoreSession ns s => fun r => Some (EvStoreSession ns s r)
  | BBuildActive ns j d b p => fun r => Some (EvBuildActive ns j d b p r)
  | BBuildPassive ns j d k e => fun r => Some (EvBuildPassive ns j d k e r)
  | BEncPlain ns pt => fun r => Some (EvEncPlain ns pt r)
  | BEncEmpty ns => fun r => Some (EvEncEmpty ns r)
  | BEncKey ns s p => fun r => Some (EvEncKey ns s p r)
  | BDecPlain ns c p => fun r => Some (EvDecPlain ns c p r)
  | BDecKey ns s e => fun r => Some (EvDecKey ns s e r)
  | BSpkAge ns => fun r => Some (EvSpkAge ns r)
  | BRotate ns => fun r => Some (EvRotate ns r)
  | BHide ns s => fun r => Some (EvHide ns s r)
  | BDelete ns s => fun r => Some (EvDeletePk ns s r)
  | BDelHidden ns => fun r => Some (EvDelHidden ns r)
  | BNumVisible ns => fun r => Some (EvNumVisible ns r)
  | BGenerate ns n => fun r => Some (EvGenerate ns n r)
  | BGetBundle ns j d => fun r => Some (EvGetBundle ns j d r)
  | BPurge ns => fun r => Some (EvPurge ns r)
  | BPurgeJid ns j => fun r => Some (EvPurgeJid ns j r)
  | NUploadBundle b => fun r => Some (EvUploadBundle b r)
  | NDownloadBundle ns j d => fun r => Some (EvDownloadBundle ns j d r)
  | NDeleteBundle ns d => fun r => Some (EvDeleteBundle ns d r)
  | NUploadDL ns dl => fun r => Some (EvUploadDL ns dl r)
  | NDownloadDL ns j => fun r => Some (EvDownloadDL ns j r)
  | NSend m j => fun r => Some (EvSend m j r)
  | TEval d => fun r => Some (EvEval d r)
  | TBlind ds i => fun r => Some (EvBlind ds i r)
  | _ => fun _ => None
  end.

(* ------------------------------------------------------------------------------------------------ *)
(** * World *)

(** One storage, one SessionManager instance.
    - [w_disk]: the contents of the storage (core keys; backends keep their data elsewhere);
    - [w_loaded]: the namespaces of [self.__backends], in order;
    - [w_sync]: [self.__synchronizing];
    - [w_log]: observable calls, newest first. *)
Record world := World
  { w_disk : gmap string json; w_loaded : list string; w_sync : bool; w_log : list event }.

Definition set_disk (d : gmap string json) (w : world) : world :=
  World d (w_loaded w) (w_sync w) (w_log w).
Definition log (e : option event) (w : world) : world :=
  match e with
  | Some e => World (w_disk w) (w_loaded w) (w_sync w) (e :: w_log w)
  | None => w
  end.

(** Effect of a command on disk and instance. A failed storage operation has no effect. *)
Definition effect (w : world) (c : cmd) : resp c -> world :=
  match c return resp c -> world with
  | SStore k v => fun r => match r with Val _ => set_disk (<[k := v]> (w_disk w)) w | Exn _ => w end
  | SDelete k => fun r => match r with Val _ => set_disk (delete k (w_disk w)) w | Exn _ => w end
  | PLoaded l => fun _ => World (w_disk w) l (w_sync w) (w_log w)
  | PSync b => fun _ => World (w_disk w) (w_loaded w) b (w_log w)
  | _ => fun _ => w
  end.

Definition w_apply (w : world) (c : cmd) (r : resp c) : world := log (event_of c r) (effect w c r).

(** An awaited outside call may return anything or raise a library exception or be cancelled. *)
Definition ext_ok {A} (r : outcome A) : Prop :=
  match r with Val _ => True | Exn e => ext_exn e = true end.

(** The base contract of the environment. *)
Definition w_allowed (w : world) (c : cmd) : resp c -> Prop :=
  match c return resp c -> Prop with
  | SLoad k => fun r => match r with Val v => v = w_disk w !! k | Exn e => ext_exn e = true end
  | GLoaded => fun r => r = w_loaded w
  | GSync => fun r => r = w_sync w
  | CRandBelow n => fun r => (0 < n -> 0 <= r < n)%Z
  | CRandBytes n => fun r => String.length r = n
  | PLoaded _ | PSync _ | CPerm | KSame _ _ => fun _ => True
  | NDownloadDL _ _ => fun r => match r with Val dl => NoDup (dkeys dl) | Exn e => ext_exn e = true end
  | SStore _ _ | SDelete _ | CSleep _ | BStoreSession _ _ | BRotate _ | BDelHidden _ | BGenerate _ _
  | BPurge _ | BPurgeJid _ _ | NUploadBundle _ | NDeleteBundle _ _ | NUploadDL _ _ | NSend _ _
  | TBlind _ _ => fun r => ext_ok r
  | BLoadSession _ _ _ => fun r => ext_ok r
  | BBuildActive _ _ _ _ _ => fun r => ext_ok r
  | BBuildPassive _ _ _ _ _ => fun r => ext_ok r
  | BEncPlain _ _ => fun r => ext_ok r
  | BEncEmpty _ => fun r => ext_ok r
  | BEncKey _ _ _ => fun r => ext_ok r
  | BDecPlain _ _ _ => fun r => ext_ok r
  | BDecKey _ _ _ => fun r => ext_ok r
  | BSpkAge _ => fun r => ext_ok r
  | BHide _ _ | BDelete _ _ => fun r => ext_ok r
  | BNumVisible _ => fun r => ext_ok r
  | BGetBundle _ _ _ => fun r => ext_ok r
  | NDownloadBundle _ _ _ => fun r => ext_ok r
  | TEval _ => fun r => ext_ok r
  end.

Definition base : @sem cmd resp world := Sem world w_allowed w_apply.

(** The base contract strengthened by [P]. *)
Definition with_contract (P : world -> forall c, resp c -> Prop) : @sem cmd resp world :=
  Sem world (fun w c r => w_allowed w c r /\ P w c r) w_apply.

Lemma with_contract_exec P {A} (p : api A) w o w' :
  exec (with_contract P) p w o w' -> exec base p w o w'.
Proof. apply exec_contract; simpl; tauto. Qed.
Lemma with_contract_reach P {A} (p : api A) w w' : reach (with_contract P) p w w' -> reach base p w w'.
Proof. apply reach_contract; simpl; tauto. Qed.

(* ------------------------------------------------------------------------------------------------ *)
(** * Wrappers *)

Definition s_load k : api (option json) := Step (SLoad k) of_outcome.
Definition s_store k v : api unit := Step (SStore k v) of_outcome.
Definition s_delete k : api unit := Step (SDelete k) of_outcome.
Definition g_loaded : api (list string) := Step GLoaded Ret.
Definition p_loaded l : api unit := Step (PLoaded l) Ret.
Definition g_sync : api bool := Step GSync Ret.
Definition p_sync b : api unit := Step (PSync b) Ret.
(** the elements of a set in the order they are iterated *)
Definition order {A} (l : list A) : api (list A) := Step CPerm (fun code => Ret (reorder code l)).
Definition c_randbelow n : api Z := Step (CRandBelow n) Ret.
Definition c_randbytes n : api bytes := Step (CRandBytes n) Ret.
Definition c_sleep n : api unit := Step (CSleep n) of_outcome.
Definition k_same a b : api bool := Step (KSame a b) Ret.
Definition b_load_session ns j d : api (option session) := Step (BLoadSession ns j d) of_outcome.
Definition b_store_session ns s : api unit := Step (BStoreSession ns s) of_outcome.
Definition b_build_active ns j d b p : api (session * ekm) := Step (BBuildActive ns j d b p) of_outcome.
Definition b_build_passive ns j d k e : api (session * pkm) := Step (BBuildPassive ns j d k e) of_outcome.
Definition b_enc_plain ns pt : api (content * pkm) := Step (BEncPlain ns pt) of_outcome.
Definition b_enc_empty ns : api (content * pkm) := Step (BEncEmpty ns) of_outcome.
Definition b_enc_key ns s p : api (session * ekm) := Step (BEncKey ns s p) of_outcome.
Definition b_dec_plain ns c p : api bytes := Step (BDecPlain ns c p) of_outcome.
Definition b_dec_key ns s e : api (session * pkm) := Step (BDecKey ns s e) of_outcome.
Definition b_spk_age ns : api Z := Step (BSpkAge ns) of_outcome.
Definition b_rotate ns : api unit := Step (BRotate ns) of_outcome.
Definition b_hide ns s : api bool := Step (BHide ns s) of_outcome.
Definition b_delete ns s : api bool := Step (BDelete ns s) of_outcome.
Definition b_del_hidden ns : api unit := Step (BDelHidden ns) of_outcome.
Definition b_num_visible ns : api Z := Step (BNumVisible ns) of_outcome.
Definition b_generate ns n : api unit := Step (BGenerate ns n) of_outcome.
Definition b_get_bundle ns j d : api bundle := Step (BGetBundle ns j d) of_outcome.
Definition b_purge ns : api unit := Step (BPurge ns) of_outcome.
Definition b_purge_jid ns j : api unit := Step (BPurgeJid ns j) of_outcome.
Definition n_upload_bundle b : api unit := Step (NUploadBundle b) of_outcome.
Definition n_download_bundle ns j d : api bundle := Step (NDownloadBundle ns j d) of_outcome.
Definition n_delete_bundle ns d : api unit := Step (NDeleteBundle ns d) of_outcome.
Definition n_upload_dl ns dl : api unit := Step (NUploadDL ns dl) of_outcome.
Definition n_download_dl ns j : api (list (Z * option string)) := Step (NDownloadDL ns j) of_outcome.
Definition n_send m j : api unit := Step (NSend m j) of_outcome.
Definition t_eval d : api trust := Step (TEval d) of_outcome.
Definition t_blind ds i : api unit := Step (TBlind ds i) of_outcome.
