(** One coroutine does the work of a kind, the others do anything else (C42, C77, C78, C85). *)
From Verif Require Export Api Spec Alone Dec Publish.
Open Scope list_scope.

(** The calls made meanwhile, newest first: those of one coroutine, [own], and others, of kind [E]. *)
Inductive merged (E : event -> Prop) : list event -> list event -> Prop :=
  | merged_nil : merged E [] []
  | merged_own e own all : merged E own all -> merged E (e :: own) (e :: all)
  | merged_other e own all : E e -> merged E own all -> merged E own (e :: all).

(** Calls that may make pre keys of the backend [ns], store or delete sessions, publish bundles or change their content,
    or use the queue of answers. *)
Definition refills (ns : string) (c : call) : Prop :=
  match c with KCreate _ _ _ => True | KDecrypt _ m => m_ns m = ns | _ => False end.
Definition stores_sessions (c : call) : Prop :=
  match c with
  | KEncrypt _ _ _ _ _ _ | KDecrypt _ _ | KReplace _ _ _ | KAfter _ | KPurgeBackend _ _ | KPurgeJid _ | KCreate _ _ _ => True
  | _ => False
  end.
Definition publishes (c : call) : Prop :=
  match c with KCreate _ _ _ | KRotation _ _ _ | KDecrypt _ _ | KEnsure _ => True | _ => False end.
Definition uses_queue (c : call) : Prop :=
  match c with KDecrypt _ _ | KAfter _ | KBefore | KCreate _ _ _ => True | _ => False end.
