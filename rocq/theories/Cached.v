(** Coroutines that do not get in each other's way, on the storage with its cache (C96). *)
From Verif Require Export Typed Uncached Foot.
Open Scope list_scope.

(** Runs of several coroutines with the commands they execute, in order: which coroutine, and what. *)
Inductive traced_run (S : @sem cmd resp world) : list (api unit) * world -> list (nat * cmd) -> list (api unit) * world -> Prop :=
  | traced_refl cfg : traced_run S cfg [] cfg
  | traced_step ps w i c k r tr cfg : ps !! i = Some (Step c k) -> allowed S w c r ->
      traced_run S (<[i := k r]> ps, Prog.apply S w c r) tr cfg -> traced_run S (ps, w) ((i, c) :: tr) cfg.

(** The key a command reads or writes, and the key it writes. *)
Definition key_used (c : cmd) : option string := match c with SLoad k | SStore k _ | SDelete k => Some k | _ => None end.
Definition key_written (c : cmd) : option string := match c with SStore k _ | SDelete k => Some k | _ => None end.

(** A key that a coroutine writes is not used by any other. *)
Definition race_free (tr : list (nat * cmd)) : Prop :=
  forall i j c d k, (i, c) ∈ tr -> (j, d) ∈ tr -> key_written c = Some k -> key_used d = Some k -> i = j.

(** Nothing is left to do. *)
Definition all_done (ps : list (rapi unit)) : Prop := forall n q, ps !! n = Some q -> q = Ret tt \/ exists e, q = Raise e.

(** The devices of the account are completely recorded, identity keys included. *)
Definition complete_account (d : gmap string json) (j : string) : Prop :=
  forall x, known d j x -> (exists ik, keyed d j x ik) /\ forall n, supports d j x n -> exists b, activity d j x n b.

(** What a call may change, if the accounts in [st] are complete, and history synchronization is off if [off]. Lookups, encrypt
    and decrypt then only read what is stored about these accounts, and decrypt does not use the queue. *)
Definition may_change (st : string -> bool) (off : bool) (c : call) (i : item) : Prop :=
  match c with
  | KGetInfo _ j => st j = false /\ account_item j i
  | KGetOwn cf => st (c_jid cf) = false /\ account_item (c_jid cf) i
  | KEncrypt cf _ jids _ _ _ => exists j, (j ∈ jids \/ j = c_jid cf) /\ st j = false /\ account_item j i
  | KDecrypt _ m => (st (m_jid m) = false /\ account_item (m_jid m) i) \/ (off = false /\ queue_item i)
  | c => touches c i
  end.
(** decrypt refreshes the device list if it does not know the sender. *)
Definition sender_known (st : string -> bool) (d : gmap string json) (c : call) : Prop :=
  match c with KDecrypt _ m => st (m_jid m) = true -> known d (m_jid m) (m_dev m) | _ => True end.
