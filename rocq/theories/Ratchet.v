(** Backends whose sessions are ratchets, and everything that can happen later (C91). *)
From Verif Require Export Api Spec Alone.
Open Scope list_scope.

(** Contract: backends load what was stored last and not purged since; sessions belong to the device they were asked for.
    [age] tells the states of the sessions with a device apart: it grows with every encryption, does not fall on decryption,
    and a session just built is younger than those stored for the device before. *)
Definition younger (age : session -> nat) (w : world) (ns j : string) (x : Z) (s : session) : Prop :=
  s_jid s = j /\ s_dev s = x /\
  forall s0, (ns, s0) ∈ stored (w_log w) -> s_jid s0 = j -> s_dev s0 = x -> (age s0 < age s)%nat.
Definition ratchet (age : session -> nat) (w : world) (c : cmd) : resp c -> Prop :=
  match c return resp c -> Prop with
  | BLoadSession ns j x => fun r => match r with Val m => m = last_session (w_log w) ns j x | Exn _ => True end
  | BEncKey _ s _ => fun r =>
      match r with Val (s', _) => s_jid s' = s_jid s /\ s_dev s' = s_dev s /\ (age s < age s')%nat | Exn _ => True end
  | BDecKey _ s _ => fun r =>
      match r with Val (s', _) => s_jid s' = s_jid s /\ s_dev s' = s_dev s /\ (age s <= age s')%nat | Exn _ => True end
  | BBuildActive ns j x _ _ => fun r => match r with Val (s, _) => younger age w ns j x s | Exn _ => True end
  | BBuildPassive ns j x _ _ => fun r => match r with Val (s, _) => younger age w ns j x s | Exn _ => True end
  | _ => fun _ => True
  end.

(** One run of a program: any code using the library, interleaved and cut off anywhere. The storage and the backends (the
    log) survive it, the instance does not. *)
Definition later_run (P : world -> forall c, resp c -> Prop) (w w' : world) : Prop :=
  exists (ps : list (api unit)) cfg', Forall (fun p => libcode any_call p) ps /\ preach (with_contract P) (ps, w) cfg' /\
    w_disk w' = w_disk cfg'.2 /\ w_log w' = w_log cfg'.2.
Definition later (P : world -> forall c, resp c -> Prop) : world -> world -> Prop := rtc (later_run P).

(** the session states key material was encrypted with *)
Definition used (ns : string) (s : session) (evs : list event) : Prop := exists p r, EvEncKey ns s p r ∈ evs.
Definition spent (ns : string) (s : session) (evs : list event) : Prop := exists p r, EvEncKey ns s p (Val r) ∈ evs.
