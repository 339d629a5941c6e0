(** Vocabulary of C103: the cache of [Storage] after writes that raised. *)
From Verif Require Export Stop StorageImpl.
Open Scope list_scope.

(** [Storage] with its cache on raw operations whose failing writes may have taken effect: storage.py:254-287 *)
Definition rflaky_apply (s : rworld * list bool) (c : rcmd) : rresp c -> rworld * list bool :=
  match c return rresp c -> rworld * list bool with
  | RStore k v => fun r => let s' := flaky_apply (r_world s.1, s.2) (SStore k v) r in (RWorld s'.1 (r_cache s.1), s'.2)
  | RDelete k => fun r => let s' := flaky_apply (r_world s.1, s.2) (SDelete k) r in (RWorld s'.1 (r_cache s.1), s'.2)
  | c => fun r => (r_apply s.1 c r, s.2)
  end.
Definition rflaky : @sem rcmd rresp (rworld * list bool) := Sem _ (fun s c r => r_allowed s.1 c r) rflaky_apply.

Definition write_of (k : string) (e : event) (failed : bool) : Prop :=
  match e with
  | EvStore k' _ (Val _) | EvDelete k' (Val _) => k' = k /\ failed = false
  | EvStore k' _ (Exn _) | EvDelete k' (Exn _) => k' = k /\ failed = true
  | _ => False
  end.
(** A write of the key raised, and none has succeeded since. *)
Definition in_doubt (k : string) (log : list event) : Prop :=
  exists post e pre, log = post ++ e :: pre /\ write_of k e true /\ forall e', e' ∈ post -> ~ write_of k e' false.
