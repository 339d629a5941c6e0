(** Vocabulary for Blind Trust Before Verification (C69-C71), examples/btbv_session_manager.py. *)
From Verif Require Import Api Spec Alone.
Open Scope list_scope.
Open Scope string_scope.

(** a level that only a manual decision sets; levels of blind trust *)
Definition manual_level (name : string) : Prop := name = "TRUSTED" \/ name = "DISTRUSTED".
Definition blind_level (name : string) : Prop := name = "UNDECIDED" \/ name = "BLINDLY_TRUSTED".

(** What the decision itself does to the outside, when asked about the devices [und] with identifier [ident]: it looks up
    the devices of their accounts, stores BLINDLY_TRUSTED for their keys, and announces devices trusted blindly. *)
Definition btbv_ev (und : list device) (ident : option string) (e : event) : Prop :=
  (exists d, d ∈ und /\ ((exists ns x r, e = EvDownloadBundle ns (dv_jid d) x r) \/
     (exists x v r, e = EvStore (item_key (INamespaces (dv_jid d) x)) v r) \/
     (exists x v r, e = EvStore (item_key (IIdentityKey (dv_jid d) x)) v r))) \/
  (exists d r, d ∈ und /\ e = EvStore (item_key (ITrust (dv_jid d) (dv_ik d))) (JStr "BLINDLY_TRUSTED") r) \/
  (exists ds r, (forall d, d ∈ ds -> d ∈ und) /\ e = EvBlind ds ident r).
(** a trust level is stored for some key of account [j] *)
Definition sets_trust (j : string) (e : event) : Prop := exists ik v r, e = EvStore (item_key (ITrust j ik)) v r.

(** the decision looks up the devices of accounts one after the other *)
Inductive looked_up {W} (S : @sem cmd resp W) (c : cfg) : list (string * list device) -> W -> W -> Prop :=
  | lu_nil w : looked_up S c [] w w
  | lu_cons j ds l w w1 w2 : exec S (get_device_information c j) w (Val ds) w1 -> looked_up S c l w1 w2 -> looked_up S c ((j, ds) :: l) w w2.

(** ** Manual decisions (C92) *)
(** the user has decided about some device of account [j] *)
Definition user_decided (d : gmap string json) (j : string) : Prop :=
  exists x ik level, known d j x /\ keyed d j x ik /\ trusted_as d j ik level /\ manual_level level.
(** Calls other than those that change trust levels of [j] by purpose: [set_trust] may set manual levels only; [create] may
    not be the first run for that account. *)
Definition keeps_decisions (d0 : gmap string json) (j : string) (c : call) : Prop :=
  match c with
  | KSetTrust j' _ level => j' <> j \/ manual_level level
  | KPurgeJid j' => j' <> j
  | KCreate _ _ a => a_jid a <> j \/ exists id, has_own id d0
  | _ => True
  end.
(** Code of an application with the BTBV session manager: every encrypt decides trust by BTBV, with any prompt. *)
Inductive btbv_code (ok : call -> Prop) : forall A, api A -> Prop :=
  | bt_ret A (a : A) : btbv_code ok A (Ret a)
  | bt_raise A e : btbv_code ok A (Raise e)
  | bt_bind A B (p : api A) (f : A -> api B) : btbv_code ok A p -> (forall a, btbv_code ok B (f a)) -> btbv_code ok B (bind p f)
  | bt_try A (p : api A) : btbv_code ok A p -> btbv_code ok (outcome A) (try_ p)
  | bt_cmd c : external c = true -> btbv_code ok (resp c) (act c)
  | bt_call c : ok c -> (forall cf mtd jids pt prio ident, c <> KEncrypt cf mtd jids pt prio ident) -> btbv_code ok (call_ret c) (run_call c)
  | bt_encrypt cf prompt jids pt prio ident : (forall ds i, btbv_code ok unit (prompt ds i)) ->
      btbv_code ok _ (encrypt cf (btbv_mtd cf prompt) jids pt prio ident).
Global Arguments btbv_code ok {A} _.
(** Interleaved runs of such code, cut off anywhere, and restarts. *)
Definition btbv_epoch (ok : call -> Prop) (w w' : world) : Prop :=
  exists (ps : list (api unit)) cfg', Forall (fun p => btbv_code ok p) ps /\ preach base (ps, w) cfg' /\ restart cfg'.2 w'.
Definition btbv_hist (ok : call -> Prop) : world -> world -> Prop := rtc (btbv_epoch ok).
