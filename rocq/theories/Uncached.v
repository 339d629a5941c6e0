(** Coroutines and processes on a storage without cache (C02, C95). *)
From Verif Require Export Typed.
Open Scope list_scope.

Definition storage_cmd (c : cmd) : Prop := match c with SLoad _ | SStore _ _ | SDelete _ => True | _ => False end.

(** Processes running any interleaved application code on a Storage with [disable_cache=True], cut off anywhere. *)
Definition uepoch (ok : call -> Prop) (w w' : rworld) : Prop :=
  exists (ps : list (api unit)) cfg', Forall (fun p => appcode ok p) ps /\ preach rbase (map lower ps, w) cfg' /\
    w_disk (r_world w') = w_disk (r_world cfg'.2) /\ r_cache w' = None.
Definition uhist (ok : call -> Prop) : rworld -> rworld -> Prop := rtc (uepoch ok).
