(** Vocabulary of C88: one account encrypts, another decrypts. *)
From Verif Require Export Api Spec Alone Dec.
Open Scope list_scope.

(** The calls [l] include an encryption of the key material [p] that resulted in [e]. *)
Definition sealed (ns : string) (p : pkm) (e : ekm) (l : list event) : Prop :=
  (exists s s', EvEncKey ns s p (Val (s', e)) ∈ l) \/ (exists j x b s, EvBuildActive ns j x b p (Val (s, e)) ∈ l).
(** The calls [l] include a decryption of [e] that resulted in the key material [p]. *)
Definition unsealed (ns : string) (e : ekm) (p : pkm) (l : list event) : Prop :=
  (exists s s', EvDecKey ns s e (Val (s', p)) ∈ l) \/ (exists j x k s, EvBuildPassive ns j x k e (Val (s, p)) ∈ l).

(** The message is from this device, its content is the plaintext given for its namespace, encrypted with [p], and
    all its recipients get [p]. *)
Definition written (cf : cfg) (pt : list (string * bytes)) (m : message) (p : pkm) (l : list event) : Prop :=
  m_jid m = c_jid cf /\ m_dev m = c_dev cf /\
  (exists b, dget (m_ns m) pt = Some b /\ EvEncPlain (m_ns m) b (Val (m_content m, p)) ∈ l) /\
  forall e k, (e, k) ∈ m_keys m -> sealed (m_ns m) p e l.
(** As above with empty content, for one recipient. *)
Definition written_empty (cf : cfg) (m : message) (p : pkm) (l : list event) : Prop :=
  m_jid m = c_jid cf /\ m_dev m = c_dev cf /\ EvEncEmpty (m_ns m) (Val (m_content m, p)) ∈ l /\
  exists e k, m_keys m = [(e, k)] /\ sealed (m_ns m) p e l.

(** What the cryptography of the backends is for: the calls [la] of the sender and [lb] of the receiver fit together.
    Encrypted key material opens to the key material it was made of, content opens to its plaintext, and only
    encrypt_empty makes content without plaintext. *)
Definition correct_crypto (la lb : list event) : Prop :=
  (forall ns p e p', sealed ns p e la -> unsealed ns e p' lb -> p' = p) /\
  (forall ns b c p b', EvEncPlain ns b (Val (c, p)) ∈ la -> EvDecPlain ns c p (Val b') ∈ lb -> b' = b) /\
  (forall ns b c p, EvEncPlain ns b (Val (c, p)) ∈ la -> ct_empty c = false) /\
  (forall ns c p, EvEncEmpty ns (Val (c, p)) ∈ la -> ct_empty c = true).

(** The call, if it sends messages, does so for this device. *)
Definition sends_as (cf : cfg) (c : call) : Prop :=
  match c with
  | KReplace cf' _ _ | KAfter cf' | KDecrypt cf' _ => c_jid cf' = c_jid cf /\ c_dev cf' = c_dev cf
  | _ => True
  end.
