(** Vocabulary of C93: what the library does with a device after its identity key was distrusted. *)
From Verif Require Export Api Spec Dec.
Open Scope prog_scope.
Open Scope list_scope.

(** The key [ik] of device [x] of account [j] is on record, and [level] is its trust level. *)
Definition marked (d : gmap string json) (j : string) (x : Z) (ik : bytes) (level : string) : Prop :=
  keyed d j x ik /\ trusted_as d j ik level.
(** Contract: the level means distrust. *)
Definition distrusts (j : string) (ik : bytes) (level : string) (w : world) (c : cmd) : resp c -> Prop :=
  match c return resp c -> Prop with
  | TEval d => fun r => dv_jid d = j -> dv_ik d = ik -> dv_trust d = level -> forall t, r = Val t -> t = Distrusted
  | _ => fun _ => True
  end.
(** Calls that do not take the decision back. [d0] is the storage at the time of the decision. *)
Definition upholds (nss : list string) (d0 : gmap string json) (j : string) (x : Z) (ik : bytes) (level : string) (c : call) : Prop :=
  match c with
  | KSetTrust j' ik' l => j' = j -> ik' = ik -> l = level
  | KPurgeJid j' => j' <> j
  | KReplace _ j' x' => ~ (j' = j /\ x' = x)
  | KCreate _ _ a => Forall (.∈ nss) (a_backends a) /\ (a_jid a <> j \/ exists id, has_own id d0)
  | _ => True
  end.
(** The device is among those a queued empty message is for. *)
Definition queued_dev (d : gmap string json) (ns j : string) (x : Z) : Prop :=
  exists l, holds (is_list is_int) d (IQueueDevices ns j) l /\ x ∈ l.
(** Code of an application. The trust decision callback may do anything allowed, given devices that do not have the key. *)
Inductive heeds (j : string) (ik : bytes) (ok : call -> Prop) : forall A, api A -> Prop :=
  | he_ret A (a : A) : heeds j ik ok A (Ret a)
  | he_raise A e : heeds j ik ok A (Raise e)
  | he_bind A B (p : api A) (f : A -> api B) : heeds j ik ok A p -> (forall a, heeds j ik ok B (f a)) -> heeds j ik ok B (bind p f)
  | he_try A (p : api A) : heeds j ik ok A p -> heeds j ik ok (outcome A) (try_ p)
  | he_cmd c : harmless c = true -> heeds j ik ok (resp c) (act c)
  | he_call c : ok c -> (forall cf mtd jids pt prio ident, c <> KEncrypt cf mtd jids pt prio ident) -> heeds j ik ok (call_ret c) (run_call c)
  | he_encrypt cf mtd jids pt prio ident :
      (forall ds i, Forall (fun d => ~ (dv_jid d = j /\ dv_ik d = ik)) ds -> heeds j ik ok unit (mtd ds i)) ->
      heeds j ik ok _ (encrypt cf mtd jids pt prio ident).
Global Arguments heeds j ik ok {A} _.
(** Runs of such code, interleaved and cut off anywhere, one after the other; the backends loaded are for [nss]. *)
Definition heeding_run (P : world -> forall c, resp c -> Prop) (nss : list string) (j : string) (ik : bytes) (ok : call -> Prop) (w w' : world) : Prop :=
  exists (ps : list (api unit)) cfg', Forall (fun p => heeds j ik ok p) ps /\ preach (with_contract P) (ps, w) cfg' /\
    w_disk w' = w_disk cfg'.2 /\ w_log w' = w_log cfg'.2 /\ Forall (.∈ nss) (w_loaded w').
Definition heeding (P : world -> forall c, resp c -> Prop) (nss : list string) (j : string) (ik : bytes) (ok : call -> Prop) : world -> world -> Prop :=
  rtc (heeding_run P nss j ik ok).
(** Contract: [K] contains the keys with which empty messages are encrypted. *)
Definition empties (K : pkm -> Prop) (w : world) (c : cmd) : resp c -> Prop :=
  match c return resp c -> Prop with
  | BEncEmpty _ => fun r => match r with Val (_, p) => K p | _ => True end
  | _ => fun _ => True
  end.
(** Not an encryption for the device (except of keys in [K]), nor a decryption of something from it. *)
Definition shuns_but (K : pkm -> Prop) (j : string) (x : Z) (e : event) : Prop :=
  match e with
  | EvEncKey _ s p _ => s_jid s = j /\ s_dev s = x -> K p
  | EvDecKey _ s _ _ => ~ (s_jid s = j /\ s_dev s = x)
  | EvBuildActive _ j' x' _ _ _ => ~ (j' = j /\ x' = x)
  | EvBuildPassive _ j' x' _ _ _ => ~ (j' = j /\ x' = x)
  | _ => True
  end.
Notation shuns := (shuns_but (fun _ => False)).
