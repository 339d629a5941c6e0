(** Publication of changed pre keys: vocabulary of C84 and C85. *)
From Verif Require Export Api Spec Alone.
Open Scope list_scope.

(** Calls that change what the bundle of the backend [ns] contains (backend.py:317-412: rotate_signed_pre_key,
    generate_pre_keys, and hide_pre_key and delete_pre_key if they say so). *)
Definition changes (ns : string) (e : event) : Prop :=
  match e with
  | EvRotate n (Val _) | EvGenerate n _ (Val _) | EvHide n _ (Val true) | EvDeletePk n _ (Val true) => n = ns
  | _ => False
  end.
(** Events are listed newest first. After every change, a bundle was fetched and then uploaded successfully. *)
Definition settled (ns : string) (evs : list event) : Prop :=
  forall post e pre, evs = post ++ e :: pre -> changes ns e -> exists j x, published j x ns post.
(** [b] is the bundle last fetched from [ns], and it was not changed since. *)
Definition current (ns : string) (b : bundle) (evs : list event) : Prop :=
  exists mid j x pre, evs = mid ++ EvGetBundle ns j x (Val b) :: pre /\
    Forall (fun e => ~ changes ns e /\ forall j x r, e <> EvGetBundle ns j x r) mid.

(** Calls that leave the pre keys and the published bundles alone. *)
Definition keeps_prekeys (c : call) : Prop :=
  match c with KCreate _ _ _ | KRotation _ _ _ | KDecrypt _ _ | KEnsure _ => False | _ => True end.
(** The trust decision of an encrypt does. *)
Definition plain_decision (c : call) : Prop :=
  forall cf mtd jids pt prio ident, c = KEncrypt cf mtd jids pt prio ident -> forall ds i, libcode keeps_prekeys (mtd ds i).

(** Calls other than create, and than the rotation task, which never returns. *)
Definition not_create (c : call) : Prop := match c with KCreate _ _ _ => False | _ => True end.
Definition returns (c : call) : Prop := match c with KCreate _ _ _ | KRotation _ _ _ => False | _ => True end.
