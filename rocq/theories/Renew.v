(** Vocabulary of C100: an account starts over once it is purged. *)
From Verif Require Export Origin.
Open Scope list_scope.

(** Only listed devices of the account have records: no device list update was interrupted half way. *)
Definition tidy (d : gmap string json) (j : string) : Prop :=
  forall x i, i = INamespaces j x \/ i = IActive j x \/ i = ILabel j x \/ i = IIdentityKey j x -> d !! item_key i <> None -> known d j x.

Section renew.
  Context (X : inputs) (j : string) (old : gmap string json) (since : list event).
  Definition received (x : Z) (ik : bytes) : Prop := exists ns b, EvDownloadBundle ns j x (Val b) ∈ since /\ b_ik b = ik.
  (** The level was set since, or it was there before for a key that no listed device had. *)
  Definition level_from (ik : bytes) (level : string) : Prop :=
    in_level X j ik level \/ (trusted_as old j ik level /\ ~ exists x, known old j x /\ keyed old j x ik).
  (** What the storage [d] says about the account has come since. *)
  Definition renewed (d : gmap string json) : Prop :=
    (forall x ik, keyed d j x ik -> received x ik) /\
    (forall x, known d j x -> exists ns, on_list X since ns j x) /\
    (forall x n, supports d j x n -> on_list X since n j x) /\
    (forall x n b, activity d j x n b -> on_list X since n j x) /\
    (forall x s, labelled d j x (Some s) -> with_label X since j x s) /\
    (forall ik level, trusted_as d j ik level -> level_from ik level).
  (** The same for a device of the account that the library describes. *)
  Definition new_device (und : string) (d : device) : Prop :=
    received (dv_id d) (dv_ik d) /\
    (forall n, n ∈ dv_namespaces d -> on_list X since n j (dv_id d)) /\
    (forall n b, dget n (dv_active d) = Some b -> on_list X since n j (dv_id d)) /\
    (forall s, dv_label d = Some s -> with_label X since j (dv_id d) s) /\
    (dv_trust d = und \/ level_from (dv_ik d) (dv_trust d)).
End renew.
