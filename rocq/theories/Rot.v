(** Vocabulary for the signed pre key rotation task (C57-C59). Events are listed newest first. *)
From Verif Require Import Api Spec Alone Dec.
Open Scope list_scope.

Section rot.
  Context (cf : cfg).
  Notation me := (c_jid cf).
  Notation dev := (c_dev cf).

  (** a failed attempt to upload the bundle of a backend *)
  Definition attempt_failed (ns : string) (a : list event) : Prop :=
    a = [EvGetBundle ns me dev (Exn EBundleUploadFailed)] \/
    exists b, a = [EvUploadBundle b (Exn EBundleUploadFailed); EvGetBundle ns me dev (Val b)].
  (** failed attempts, each followed by a sleep; the argument lists the delays, newest first *)
  Inductive retries (ns : string) : list Z -> list event -> Prop :=
  | retries_nil : retries ns [] []
  | retries_more z zs l a : retries ns zs l -> attempt_failed ns a -> retries ns (z :: zs) (EvSleep z (Val tt) :: a ++ l).
  (** the bundle of a backend was uploaded, possibly after failed attempts *)
  Definition uploaded (ns : string) (l : list event) : Prop :=
    exists b zs l', Forall (fun z => z = 60%Z) zs /\ retries ns zs l' /\
      l = [EvUploadBundle b (Val tt); EvGetBundle ns me dev (Val b)] ++ l'.
  (** One backend was dealt with: its signed pre key is not older than the period and nothing was done, or the key is
      older, it was rotated and the new bundle was uploaded. *)
  Definition visited (period : Z) (ns : string) (age : Z) (l : list event) : Prop :=
    ((age <= period)%Z /\ l = [EvSpkAge ns (Val age)]) \/
    ((period < age)%Z /\ exists u, uploaded ns u /\ l = u ++ [EvRotate ns (Val tt); EvSpkAge ns (Val age)]).
  (** The start of dealing with a backend; the last call may have raised an exception instead. *)
  Definition same_call (e e' : event) : Prop :=
    match e, e' with
    | EvSpkAge n _, EvSpkAge n' _ | EvRotate n _, EvRotate n' _ => n = n'
    | EvGetBundle n j x _, EvGetBundle n' j' x' _ => n = n' /\ j = j' /\ x = x'
    | EvUploadBundle b _, EvUploadBundle b' _ => b = b'
    | EvSleep z _, EvSleep z' _ => z = z'
    | EvEncEmpty n _, EvEncEmpty n' _ => n = n'
    | EvDownloadBundle n j x _, EvDownloadBundle n' j' x' _ => n = n' /\ j = j' /\ x = x'
    | EvBuildActive n j x b p _, EvBuildActive n' j' x' b' p' _ => n = n' /\ j = j' /\ x = x' /\ b = b' /\ p = p'
    | EvSend m j _, EvSend m' j' _ => m = m' /\ j = j'
    | EvStoreSession n s _, EvStoreSession n' s' _ => n = n' /\ s = s'
    | _, _ => False
    end.
  Definition visiting (period : Z) (ns : string) (l : list event) : Prop :=
    exists age full, visited period ns age full /\
      (l `suffix_of` full \/ exists e e' x l', l = e :: l' /\ (e' :: l') `suffix_of` full /\ same_call e e' /\ event_exn e = Some x).
  (** The time until the next pass: the smallest time left for a key that was not rotated, at most the period. *)
  Definition time_left (period : Z) (ages : list Z) : Z :=
    foldr Z.min period (map (fun age => period - age)%Z (filter (fun age => (age <= period)%Z) ages)).

  (** Complete passes over the backends [nss] that were loaded when the pass started. *)
  Inductive passes (L : list string -> Prop) (period : Z) : list event -> Prop :=
  | passes_nil : passes L period []
  | passes_more l nss ages vs : passes L period l -> L nss ->
      length ages = length nss -> length vs = length nss ->
      (forall i ns age v, nss !! i = Some ns -> ages !! i = Some age -> vs !! i = Some v -> visited period ns age v) ->
      passes L period (EvSleep (time_left period ages + 60) (Val tt) :: concat (rev vs) ++ l).
  (** An unfinished pass: some backends were dealt with in order, then the next one was started or the sleep failed. *)
  Definition passing (L : list string -> Prop) (period : Z) (l : list event) : Prop :=
    exists nss ages vs last, L nss /\ length ages = length vs /\ length vs <= length nss /\
      (forall i ns age v, nss !! i = Some ns -> ages !! i = Some age -> vs !! i = Some v -> visited period ns age v) /\
      l = last ++ concat (rev vs) /\
      (last = [] \/ (exists ns, nss !! length vs = Some ns /\ visiting period ns last) \/
       (length vs = length nss /\ exists x, last = [EvSleep (time_left period ages + 60) (Exn x)])).

  (** The task is not busy with a backend: it has just started, the key looked at last is not older than the period, the
      last upload worked, or such a situation was followed by a sleep. *)
  Fixpoint ready (period : Z) (before : list event) : Prop :=
    match before with
    | [] | EvUploadBundle _ (Val _) :: _ => True
    | EvSpkAge _ (Val age) :: _ => (age <= period)%Z
    | EvSleep _ (Val _) :: l => ready period l
    | _ => False
    end.
End rot.
