(** Vocabulary for replace_sessions and get_sending_chain_length (C62, C63, C67). Events are listed newest first. *)
From Verif Require Import Api Spec Alone Dec Rot.
Open Scope list_scope.

Section repl.
  Context (cf : cfg) (j : string) (x : Z).

  (** The calls which replace the session of one backend with device [x] of account [j]: an empty message is encrypted for a
      session built from the device's bundle, sent to the device with the key exchange, and the new session stored last. *)
  Definition replaced (ns : string) (l : list event) : Prop :=
    exists c p b s e, l =
      [EvStoreSession ns s (Val tt);
       EvSend (Message ns (c_jid cf) (c_dev cf) c [(e, Some (s_kex s))]) j (Val tt);
       EvBuildActive ns j x b p (Val (s, e));
       EvDownloadBundle ns j x (Val b);
       EvEncEmpty ns (Val (c, p))].
  (** One of these calls raised [err] and the calls after it were not made. *)
  Definition not_replaced (ns : string) (err : exn) (l : list event) : Prop :=
    exists full e e' l', replaced ns full /\ l = e :: l' /\ (e' :: l') `suffix_of` full /\ same_call e e' /\ event_exn e = Some err.

  (** What was done for a backend, and the error returned for it. *)
  Definition outcome_of (wanted : Prop) (ns : string) (r : option exn) (l : list event) : Prop :=
    match r with
    | None => (~ wanted /\ l = []) \/ (wanted /\ replaced ns l)
    | Some err => wanted /\ is_omemo err = true /\ not_replaced ns err l
    end.
End repl.

(** the calls of replacing a session *)
Definition replacing_ev (e : event) : bool :=
  match e with EvEncEmpty _ _ | EvBuildActive _ _ _ _ _ _ | EvSend _ _ _ | EvStoreSession _ _ _ => true | _ => false end.
