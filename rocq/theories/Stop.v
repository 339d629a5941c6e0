(** Vocabulary of C101: storage failures and cancellation end a call. *)
From Verif Require Export Api Alone.
Open Scope list_scope.

(** A command and its answer. Traces are newest first. *)
Definition step := {c : cmd & resp c}.
(** Every answer whatsoever is possible; the trace is kept. *)
Definition free : @sem cmd resp (list step) := Sem (list step) (fun _ _ _ => True) (fun l c r => existT c r :: l).
Definition of_storage (c : cmd) : Prop := match c with SLoad _ | SStore _ _ | SDelete _ => True | _ => False end.
(** The storage raised [e], or the task was cancelled while it was waiting for the answer. *)
Definition ends (s : step) (e : exn) : Prop :=
  resp_exn (projT1 s) (projT2 s) = Some e /\ (of_storage (projT1 s) \/ e = ECancelled).
(** Nothing is done after such an answer, and its exception is the result. *)
Definition stops {A} (p : api A) : Prop :=
  (forall post s pre e, reach free p [] (post ++ s :: pre) -> ends s e -> post = []) /\
  (forall o l s e, exec free p [] o l -> s ∈ l -> ends s e -> o = Exn e).
Definition stopping_decision (c : call) : Prop :=
  forall cf mtd jids pt prio ident, c = KEncrypt cf mtd jids pt prio ident -> forall ds i, stops (mtd ds i).

(** Storages whose failing writes may have taken effect: the second part of the state says, for each failing write to come, whether
    it did. *)
Definition flaky_apply (s : world * list bool) (c : cmd) : resp c -> world * list bool :=
  match c return resp c -> world * list bool with
  | SStore k v => fun r =>
      match r, s.2 with
      | Exn e, true :: bs => (set_disk (<[k := v]> (w_disk s.1)) (w_apply s.1 (SStore k v) r), bs)
      | Exn e, false :: bs => (w_apply s.1 (SStore k v) r, bs)
      | _, _ => (w_apply s.1 (SStore k v) r, s.2)
      end
  | SDelete k => fun r =>
      match r, s.2 with
      | Exn e, true :: bs => (set_disk (delete k (w_disk s.1)) (w_apply s.1 (SDelete k) r), bs)
      | Exn e, false :: bs => (w_apply s.1 (SDelete k) r, bs)
      | _, _ => (w_apply s.1 (SDelete k) r, s.2)
      end
  | c => fun r => (w_apply s.1 c r, s.2)
  end.
Definition flaky : @sem cmd resp (world * list bool) := Sem _ (fun s c r => w_allowed s.1 c r) flaky_apply.
(** As if the write had succeeded: the same, but for the answer of the last write. *)
Definition as_written (w w' : world) : Prop :=
  w_disk w' = w_disk w /\ w_loaded w' = w_loaded w /\ w_sync w' = w_sync w /\
  exists l, (exists k v e, w_log w = EvStore k v (Exn e) :: l /\ w_log w' = EvStore k v (Val tt) :: l) \/
            (exists k e, w_log w = EvDelete k (Exn e) :: l /\ w_log w' = EvDelete k (Val tt) :: l).
(** The same for interleavings: equal but for the answers of writes. *)
Definition same_write (e e' : event) : Prop :=
  e' = e \/ (exists k v x, e = EvStore k v (Exn x) /\ e' = EvStore k v (Val tt)) \/ (exists k x, e = EvDelete k (Exn x) /\ e' = EvDelete k (Val tt)).
Definition all_written (w w' : world) : Prop :=
  w_disk w' = w_disk w /\ w_loaded w' = w_loaded w /\ w_sync w' = w_sync w /\ Forall2 same_write (w_log w) (w_log w').
(** One process on such a storage, see [epoch]. *)
Definition flaky_epoch (ok : call -> Prop) (w w' : world) : Prop :=
  exists (ps : list (api unit)) bs cfg', Forall (fun p => appcode ok p) ps /\ preach flaky (ps, (w, bs)) cfg' /\ restart cfg'.2.1 w'.
