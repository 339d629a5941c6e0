(** Vocabulary of C89 and C90: when are messages sent, and when do they arrive? *)
From Verif Require Export Api Spec Alone Dec Life.
Open Scope list_scope.

(** A record of the queue of empty messages has the wrong type: not written by the library (see C72). *)
Definition queue_broken (d : gmap string json) : Prop :=
  exists i v, match i with IQueue _ | IQueueDevices _ _ => True | _ => False end /\ d !! item_key i = Some v /\ ~ item_type i v.
(** The sending device is known, with its identity key. *)
Definition found_in (d : gmap string json) (m : message) : Prop :=
  known d (m_jid m) (m_dev m) /\ exists ik, keyed d (m_jid m) (m_dev m) ik.
(** Why decrypt may fail although nothing outside fails. [w], [w'] are the worlds before and after, [evs] the calls made. *)
Definition dec_reason (cf : cfg) (m : message) (w w' : world) (evs : list event) (x : exn) : Prop :=
  match x with
  | EUnknownNamespace => m_ns m ∉ w_loaded w
  | EMessageNotForUs => forall e mk, ~ given cf m e mk
  | ESenderNotFound => (exists dl, EvDownloadDL (m_ns m) (m_jid m) (Val dl) ∈ evs) /\
      ~ found_in (w_disk w) m /\ ~ found_in (w_disk w') m
  | ESenderDistrusted => exists d, dkey d = (m_jid m, m_dev m) /\ Dec.recorded cf (w_disk w') d /\ EvEval d (Val Distrusted) ∈ evs
  | ENoSession => (exists e, given cf m e None) /\ EvLoadSession (m_ns m) (m_jid m) (m_dev m) (Val None) ∈ evs
  | EPublicDataInconsistency => exists e k ik, given cf m e (Some k) /\ kx_ik k <> ik /\
      keyed (w_disk w') (m_jid m) (m_dev m) ik /\ forall ik0, keyed (w_disk w) (m_jid m) (m_dev m) ik0 -> ik0 = ik
  | ETypeError => w_sync w = true /\ queue_broken (w_disk w')
  | _ => False
  end.

(** An account has a device that can be reached: known, with its key, and active in a namespace that may be used. *)
Definition reachable (d : gmap string json) (prio : list string) (j : string) (x : Z) : Prop :=
  known d j x /\ (exists ik, keyed d j x ik) /\ exists ns, ns ∈ prio /\ active_for d j x ns.
(** Why encrypt may fail although nothing outside fails (apart from downloads of bundles), and the callback does not. *)
Definition enc_reason (cf : cfg) (bare_jids : list string) (pt : list (string * bytes)) (priority : option (list string))
    (w : world) (evs : list event) (x : exn) : Prop :=
  match x with
  | EUnknownNamespace => exists l n, priority = Some l /\ n ∈ l /\ n ∉ w_loaded w
  | EKeyError => exists n, n ∈ priority_of priority w /\ dget n pt = None
  | EStillUndecided => exists d, requested cf bare_jids d /\ last_eval d evs = Some (Val Undecided)
  | ENoEligibleDevices l => l <> [] /\ forall j, j ∈ l -> j ∈ bare_jids /\ j <> c_jid cf /\
      forall i, reachable (w_disk w) (priority_of priority w) j i ->
        (exists d t, dkey d = (j, i) /\ last_eval d evs = Some (Val t) /\ t <> Trusted) \/
        (exists ns e, EvDownloadBundle ns j i (Exn e) ∈ evs)
  | _ => False
  end.
