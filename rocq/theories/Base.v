(** Base vocabulary shared by the whole model: Python values, dictionaries, sets, exceptions and the
    data-carrying records of the library. *)
From stdpp Require Export base tactics list gmap strings pretty.
From Coq Require Export ZArith.

(** Python [bytes]: Coq [string] is a list of 8-bit characters, i.e. exactly a byte string.
    Python [str] is modelled by the same type, read as the UTF-8 encoding of the string: the library only
    ever concatenates and compares strings, and both operations commute with UTF-8 encoding. *)
Notation bytes := string (only parsing).

(* ------------------------------------------------------------------------------------------------ *)
(** * Exceptions *)

(** Exception classes that occur in the library.
    storage.py:22-25, 94-97; backend.py:19-47; session_manager.py:55-192; Python built-ins.
    Subclasses raised by applications ("feel free to raise a subclass") are identified with their parent. *)
Inductive exn : Type :=
  | EStorage                       (* StorageException, storage.py:22 *)
  | EBackend                       (* any other BackendException, backend.py:19 *)
  | EDecryptionFailed              (* backend.py:25 *)
  | EKeyExchangeFailed             (* backend.py:31 *)
  | ETooManySkipped                (* backend.py:44 *)
  | ETrustDecisionFailed           (* session_manager.py:61 *)
  | EStillUndecided                (* session_manager.py:68 *)
  | ENoEligibleDevices (l : list string) (* session_manager.py:75-90, carries the bare JIDs *)
  | EMessageNotForUs               (* session_manager.py:93 *)
  | ESenderNotFound                (* session_manager.py:100 *)
  | ESenderDistrusted              (* session_manager.py:107 *)
  | ENoSession                     (* session_manager.py:113 *)
  | EPublicDataInconsistency       (* session_manager.py:120 *)
  | EUnknownTrustLevel             (* session_manager.py:127 *)
  | EUnknownNamespace              (* session_manager.py:134 *)
  | EBundleUploadFailed            (* session_manager.py:147 *)
  | EBundleDownloadFailed          (* session_manager.py:154 *)
  | EBundleNotFound                (* session_manager.py:161 *)
  | EBundleDeletionFailed          (* session_manager.py:168 *)
  | EDeviceListUploadFailed        (* session_manager.py:174 *)
  | EDeviceListDownloadFailed      (* session_manager.py:181 *)
  | EMessageSendingFailed          (* session_manager.py:188 *)
  | ENothing                       (* NothingException, storage.py:94 (NOT an OMEMOException) *)
  | ETypeError                     (* Python TypeError, raised by the typed loads *)
  | EValueError                    (* Python ValueError *)
  | EBinascii                      (* binascii.Error from base64 decoding *)
  | EKeyError                      (* Python KeyError, dictionary access *)
  | ERuntime                       (* RuntimeError: a StopIteration escaping a coroutine (PEP 479) *)
  | ECancelled                     (* asyncio.CancelledError: may be delivered at any await *)
  | EOutOfFuel.                    (* model artefact: an unbounded Python loop was cut off *)

Global Instance exn_eq_dec : EqDecision exn.
Proof. solve_decision. Defined.

(** Whether the exception is an instance of OMEMOException (types.py:27-30): what
    [except OMEMOException] (session_manager.py:1261) catches. *)
Definition is_omemo (e : exn) : bool :=
  match e with
  | ENothing | ETypeError | EValueError | EBinascii | EKeyError | ERuntime | ECancelled | EOutOfFuel => false
  | _ => true
  end.

(** What code outside the library (storage, backend, application callbacks) may raise: any library
    exception, or the cancellation of the running task. *)
Definition ext_exn (e : exn) : bool := is_omemo e || bool_decide (e = ECancelled).

(** Result of a Python call: a value or an exception. *)
Inductive outcome (A : Type) : Type := Val (a : A) | Exn (e : exn).
Global Arguments Val {_} _.
Global Arguments Exn {_} _.

(* ------------------------------------------------------------------------------------------------ *)
(** * JSON values (types.py:71-74) *)

(** The finite nesting depth of the Python type alias is not enforced. [JFloat] is opaque. *)
Inductive json : Type :=
  | JNull
  | JBool (b : bool)
  | JInt (z : Z)
  | JFloat (repr : string)
  | JStr (s : string)
  | JList (l : list json)
  | JDict (d : list (string * json)).

(* ------------------------------------------------------------------------------------------------ *)
(** * Python dictionaries: association lists in insertion order *)

Section dict.
  Context {K V : Type} `{EqDecision K}.

  (** d.get(k) *)
  Fixpoint dget (k : K) (d : list (K * V)) : option V :=
    match d with
    | [] => None
    | (k', v) :: d' => if decide (k = k') then Some v else dget k d'
    end.

  (** d[k] = v : replaces in place, or appends *)
  Fixpoint dset (k : K) (v : V) (d : list (K * V)) : list (K * V) :=
    match d with
    | [] => [(k, v)]
    | (k', v') :: d' => if decide (k = k') then (k, v) :: d' else (k', v') :: dset k v d'
    end.

  (** d.pop(k, None) *)
  Fixpoint dpop (k : K) (d : list (K * V)) : list (K * V) :=
    match d with
    | [] => []
    | (k', v) :: d' => if decide (k = k') then dpop k d' else (k', v) :: dpop k d'
    end.

  (** d.keys() *)
  Definition dkeys (d : list (K * V)) : list K := d.*1.

  (** k in d *)
  Definition dmem (k : K) (d : list (K * V)) : bool := bool_decide (is_Some (dget k d)).
End dict.

(* ------------------------------------------------------------------------------------------------ *)
(** * Python sets: duplicate-free lists; the iteration order is chosen by the environment *)

(** frozenset(l) / set(l) *)
Definition pyset {A} `{EqDecision A} (l : list A) : list A := remove_dups l.

(** s1 - s2 *)
Definition set_diff {A} `{EqDecision A} (s1 s2 : list A) : list A := filter (fun x => x ∉ s2) s1.
(** s1 & s2 *)
Definition set_inter {A} `{EqDecision A} (s1 s2 : list A) : list A := filter (fun x => x ∈ s2) s1.
(** s1 | s2 *)
Definition set_union {A} `{EqDecision A} (s1 s2 : list A) : list A := s1 ++ set_diff s2 s1.
(** s.add(x) *)
Definition set_add {A} `{EqDecision A} (x : A) (s : list A) : list A :=
  if decide (x ∈ s) then s else s ++ [x].
(** s1 == s2 *)
Definition set_eqb {A} `{EqDecision A} (s1 s2 : list A) : bool :=
  bool_decide (Forall (fun x => x ∈ s2) s1) && bool_decide (Forall (fun x => x ∈ s1) s2).

(** Order in which a set is iterated: given by a Lehmer code supplied by the environment. Every code gives
    a permutation and every permutation has a code, so "any code" is exactly "any order". *)
Fixpoint pick {A} (n : nat) (x : A) (l : list A) : A * list A :=
  match n, l with
  | 0, _ => (x, l)
  | S n', y :: l' => let '(z, r) := pick n' y l' in (z, x :: r)
  | S _, [] => (x, [])
  end.
Fixpoint permute {A} (fuel : nat) (code : list nat) (l : list A) : list A :=
  match fuel, l with
  | S fuel', x :: l' =>
      let '(n, code') := match code with [] => (0, []) | n :: code' => (n, code') end in
      let '(z, r) := pick n x l' in z :: permute fuel' code' r
  | _, _ => []
  end.
Definition reorder {A} (code : list nat) (l : list A) : list A := permute (length l) code l.

(* ------------------------------------------------------------------------------------------------ *)
(** * Data records *)

(** bundle.py:9-64. [b_rest] stands for everything else (signed pre key, pre keys) in a canonical form, so
    that Leibniz equality is Bundle.__eq__ (bundle.py:43-55). *)
Record bundle := Bundle { b_ns : string; b_jid : string; b_dev : Z; b_ik : bytes; b_rest : string }.

(** message.py:56-77 *)
Record kex := Kex { kx_ik : bytes; kx_rest : string }.
(** message.py:36-53 *)
Record ekm := Ekm { ek_jid : string; ek_dev : Z; ek_data : string }.
(** message.py:14-27 *)
Record content := Content { ct_empty : bool; ct_data : string }.
(** PlainKeyMaterial, message.py:30-33: opaque *)
Notation pkm := string (only parsing).

(** message.py:80-90; [m_keys] is a frozenset *)
Record message := Message
  { m_ns : string; m_jid : string; m_dev : Z; m_content : content; m_keys : list (ekm * option kex) }.

(** session.py:14-21 *)
Inductive initiation := Active | Passive.

(** session.py:24-110. A Session is a mutable object in Python; here every backend operation that mutates it
    returns the new value. [s_state] is the opaque ratchet state. *)
Record session := Session
  { s_ns : string; s_jid : string; s_dev : Z; s_init : initiation; s_confirmed : bool;
    s_kex : kex; s_rcl : option Z; s_scl : Z; s_state : string }.

(** types.py:33-45; namespaces and active are frozensets *)
Record device := Device
  { dv_namespaces : list string; dv_active : list (string * bool); dv_jid : string; dv_id : Z;
    dv_ik : bytes; dv_trust : string; dv_label : option string }.

(** types.py:48-56 *)
Inductive trust := Trusted | Distrusted | Undecided.

(** session_manager.py:195-204 *)
Record enc_error := EncError { ee_ns : string; ee_jid : string; ee_dev : Z; ee_exn : exn }.

Global Instance bundle_eq_dec : EqDecision bundle. Proof. solve_decision. Defined.
Global Instance kex_eq_dec : EqDecision kex. Proof. solve_decision. Defined.
Global Instance ekm_eq_dec : EqDecision ekm. Proof. solve_decision. Defined.
Global Instance content_eq_dec : EqDecision content. Proof. solve_decision. Defined.
Global Instance initiation_eq_dec : EqDecision initiation. Proof. solve_decision. Defined.
Global Instance session_eq_dec : EqDecision session. Proof. solve_decision. Defined.
Global Instance device_eq_dec : EqDecision device. Proof. solve_decision. Defined.
Global Instance trust_eq_dec : EqDecision trust. Proof. solve_decision. Defined.
Global Instance message_eq_dec : EqDecision message. Proof. solve_decision. Defined.
