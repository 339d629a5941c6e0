(** Vocabulary for the statements about decrypt (C44-C53) and about history synchronization (C54-C56). *)
From Verif Require Import Api Spec Alone.
Open Scope list_scope.

(** The message contains key material [e] for this device, with or without a key exchange. *)
Definition given (cf : cfg) (m : message) (e : ekm) (mk : option kex) : Prop :=
  (e, mk) ∈ m_keys m /\ ek_jid e = c_jid cf /\ ek_dev e = c_dev cf.
(** Calls of looking up the sender: local writes, bundle downloads, one refresh of its device list. The own list may
    be uploaded again if this device was missing on it. *)
Definition lookup_ev (cf : cfg) (m : message) (e : event) : Prop :=
  match e with
  | EvStore _ _ _ => True
  | EvDownloadBundle _ j _ _ => j = m_jid m
  | EvDownloadDL ns j _ => ns = m_ns m /\ j = m_jid m
  | EvUploadDL ns dl _ => ns = m_ns m /\ m_jid m = c_jid cf /\ c_dev cf ∈ dkeys dl
  | _ => False
  end.
Definition is_list_download (e : event) : bool := match e with EvDownloadDL _ _ _ => true | _ => false end.
(** The trust of the sending device was evaluated, and it is not distrusted. *)
Definition accepted (m : message) (l : list event) (d : device) : Prop :=
  dkey d = (m_jid m, m_dev m) /\ exists t, EvEval d (Val t) ∈ l /\ t <> Distrusted.
(** The device is the one the storage has. *)
Definition recorded (cf : cfg) (dk : gmap string json) (d : device) : Prop :=
  known dk (dv_jid d) (dv_id d) /\ keyed dk (dv_jid d) (dv_id d) (dv_ik d) /\ labelled dk (dv_jid d) (dv_id d) (dv_label d) /\
  level_in_force cf dk (dv_jid d) (dv_ik d) (dv_trust d) /\
  (forall n b, n ∈ dv_namespaces d /\ dget n (dv_active d) = Some b <->
     supports dk (dv_jid d) (dv_id d) n /\ activity dk (dv_jid d) (dv_id d) n b).

(** The session [s] and the plain key material [p] resulting from the key material for this device, by an existing
    session or one built with the key exchange. *)
Definition opened (m : message) (d : device) (e : ekm) (mk : option kex) (l : list event) (s : session) (p : pkm) : Prop :=
  (exists s0, EvLoadSession (m_ns m) (dv_jid d) (dv_id d) (Val (Some s0)) ∈ l /\ EvDecKey (m_ns m) s0 e (Val (s, p)) ∈ l) \/
  (exists k, mk = Some k /\ EvBuildPassive (m_ns m) (dv_jid d) (dv_id d) k e (Val (s, p)) ∈ l).
(** The content was decrypted with [p], or there is none. *)
Definition read (m : message) (l : list event) (p : pkm) (plaintext : option bytes) : Prop :=
  if ct_empty (m_content m) then plaintext = None
  else exists b, plaintext = Some b /\ EvDecPlain (m_ns m) (m_content m) p (Val b) ∈ l.
(** An empty message is due: key exchanges have to be completed, receiving chains must not become too long. *)
Definition response_due (mk : option kex) (s : session) : Prop :=
  mk <> None \/ exists n, s_rcl s = Some n /\ (53 < n)%Z.

(** Pre key events *)
Definition consumes (e : event) : bool := match e with EvHide _ _ _ | EvDeletePk _ _ _ => true | _ => false end.
(** Events of the response: the queue in the storage, or the empty message. *)
Definition responds (e : event) : bool :=
  match e with EvStore _ _ _ | EvEncEmpty _ _ | EvEncKey _ _ _ _ | EvSend _ _ _ => true | _ => false end.

(** What a successful decrypt of a key exchange does about pre keys: the used one is hidden or deleted, and if that
    changed the bundle, it is filled up to 100 pre keys if needed and published. *)
Definition consume (ns : string) (sync : bool) (s : session) (r : outcome bool) : event :=
  if sync then EvHide ns s r else EvDeletePk ns s r.
Definition replenished (cf : cfg) (ns : string) (s : session) (pk : list event) : Prop :=
  exists sync, pk = [consume ns sync s (Val false)] \/
    exists n b, pk = [EvUploadBundle b (Val tt); EvGetBundle ns (c_jid cf) (c_dev cf) (Val b)] ++
      (if (n <=? c_threshold cf)%Z then [EvGenerate ns (100 - n) (Val tt)] else []) ++
      [EvNumVisible ns (Val n); consume ns sync s (Val true)].
(** The response to a message received by session [s]: queued in the storage, or sent. *)
Definition responded (cf : cfg) (ns : string) (s : session) (resp : list event) : Prop :=
  (exists l l', s_jid s ∈ l /\ s_dev s ∈ l' /\
     resp = [EvStore (item_key (IQueueDevices (s_ns s) (s_jid s))) (j_ints l') (Val tt);
             EvStore (item_key (IQueue (s_ns s))) (j_strs l) (Val tt)]) \/
  (exists c p s' k, resp = [EvStoreSession ns s' (Val tt);
      EvSend (Message ns (c_jid cf) (c_dev cf) c [(k, kex_due s')]) (s_jid s') (Val tt);
      EvEncKey ns s p (Val (s', k)); EvEncEmpty ns (Val (c, p))]).

(** The number of visible pre keys of a backend according to the calls made. *)
Fixpoint visible (ns : string) (l : list event) : Z :=
  match l with
  | [] => 0
  | EvGenerate n k (Val _) :: l' => if decide (n = ns) then visible ns l' + k else visible ns l'
  | EvHide n _ (Val true) :: l' | EvDeletePk n _ (Val true) :: l' => if decide (n = ns) then visible ns l' - 1 else visible ns l'
  | EvPurge n (Val _) :: l' => if decide (n = ns) then 0 else visible ns l'
  | _ :: l' => visible ns l'
  end%Z.
(** Contract: backends report this number. *)
Definition prekeys_counted (w : world) (c : cmd) : resp c -> Prop :=
  match c return resp c -> Prop with
  | BNumVisible ns => fun r => match r with Val n => n = visible ns (w_log w) | Exn _ => True end
  | _ => fun _ => True
  end.

(** The device is queued for an empty message after history synchronization. *)
Definition queued (d : gmap string json) (ns j : string) (x : Z) : Prop :=
  (exists l, holds (is_list is_str) d (IQueue ns) l /\ j ∈ l) /\
  (exists l, holds (is_list is_int) d (IQueueDevices ns j) l /\ x ∈ l).
(** The calls made for a queued device after history synchronization (newest first): its session is looked up; if
    there is one, an empty message is encrypted and sent to its account, then the session is stored. *)
Definition flushed (cf : cfg) (ns j : string) (x : Z) (b : list event) : Prop :=
  b = [EvLoadSession ns j x (Val None)] \/
  exists s c p s' k, (s_ns s = ns /\ s_jid s = j /\ s_dev s = x) /\
    b = [EvStoreSession ns s' (Val tt);
         EvSend (Message ns (c_jid cf) (c_dev cf) c [(k, kex_due s')]) j (Val tt);
         EvEncKey ns s p (Val (s', k)); EvEncEmpty ns (Val (c, p)); EvLoadSession ns j x (Val (Some s))].
(** a deletion in the storage *)
Definition is_delete (e : event) : Prop := match e with EvDelete _ _ => True | _ => False end.
Global Instance is_delete_dec e : Decision (is_delete e).
Proof. destruct e; simpl; apply _. Defined.
(** Contract: sessions carry the namespace, account and device id they were asked for. *)
Definition sessions_named (w : world) (c : cmd) : resp c -> Prop :=
  match c return resp c -> Prop with
  | BLoadSession ns j x => fun r => match r with Val (Some s) => s_ns s = ns /\ s_jid s = j /\ s_dev s = x | _ => True end
  | BDecKey _ s _ => fun r => match r with Val (s', _) => s_ns s' = s_ns s /\ s_jid s' = s_jid s /\ s_dev s' = s_dev s | _ => True end
  | BEncKey _ s _ => fun r => match r with Val (s', _) => s_ns s' = s_ns s /\ s_jid s' = s_jid s /\ s_dev s' = s_dev s | _ => True end
  | BBuildPassive ns j x _ _ => fun r => match r with Val (s', _) => s_ns s' = ns /\ s_jid s' = j /\ s_dev s' = x | _ => True end
  | BBuildActive ns j x _ _ => fun r => match r with Val (s', _) => s_ns s' = ns /\ s_jid s' = j /\ s_dev s' = x | _ => True end
  | _ => fun _ => True
  end.
(** Contract: history synchronization mode is on / off. *)
Definition sync_mode (b : bool) (w : world) (c : cmd) : resp c -> Prop :=
  match c return resp c -> Prop with GSync => fun r => r = b | _ => fun _ => True end.
(** The exception a logged call raised. *)
Definition event_exn (e : event) : option exn :=
  match e with
  | EvStore _ _ r | EvDelete _ r | EvSleep _ r | EvStoreSession _ _ r | EvRotate _ r | EvDelHidden _ r | EvGenerate _ _ r
  | EvPurge _ r | EvPurgeJid _ _ r | EvUploadBundle _ r | EvDeleteBundle _ _ r | EvUploadDL _ _ r | EvSend _ _ r
  | EvBlind _ _ r => exn_of r
  | EvSame _ _ _ => None
  | EvLoadSession _ _ _ r => exn_of r
  | EvBuildActive _ _ _ _ _ r => exn_of r
  | EvBuildPassive _ _ _ _ _ r => exn_of r
  | EvEncPlain _ _ r => exn_of r
  | EvEncEmpty _ r => exn_of r
  | EvEncKey _ _ _ r => exn_of r
  | EvDecPlain _ _ _ r => exn_of r
  | EvDecKey _ _ _ r => exn_of r
  | EvSpkAge _ r | EvNumVisible _ r => exn_of r
  | EvHide _ _ r | EvDeletePk _ _ r => exn_of r
  | EvGetBundle _ _ _ r => exn_of r
  | EvDownloadBundle _ _ _ r => exn_of r
  | EvDownloadDL _ _ r => exn_of r
  | EvEval _ r => exn_of r
  end.
