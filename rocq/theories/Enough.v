(** Vocabulary of C104: a trust decision about everyone is enough. *)
From Verif Require Export Api Spec Alone.
Open Scope prog_scope.
Open Scope list_scope.
Open Scope string_scope.

(** The application evaluates levels by their names ([_evaluate_custom_trust_level]), or raises; nothing outside raises
    StillUndecided. *)
Definition by_level (ev : string -> trust) (w : world) (c : cmd) (r : resp c) : Prop :=
  resp_exn c r <> Some EStillUndecided /\
  match c return resp c -> Prop with
  | TEval d => fun r => match r with Val t => t = ev (dv_trust d) | Exn _ => True end
  | _ => fun _ => True
  end r.
(** A level that is not undecided is stored for the key. *)
Definition settled (ev : string -> trust) (w : world) (j : string) (ik : bytes) : Prop :=
  exists level, trusted_as (w_disk w) j ik level /\ ev level <> Undecided.
(** When the decision returns, the devices it was asked about are settled, and other levels are as they were, or settled too. *)
Definition settles (ev : string -> trust) (mtd : list device -> option string -> api unit) : Prop :=
  forall und i w o w', exec (with_contract (by_level ev)) (mtd und i) w o w' ->
    o <> Exn EStillUndecided /\
    (o = Val tt -> (forall d, d ∈ und -> settled ev w' (dv_jid d) (dv_ik d)) /\
       forall j ik, w_disk w' !! item_key (ITrust j ik) = w_disk w !! item_key (ITrust j ik) \/ settled ev w' j ik).

(** The implementation in the tests, tests/session_manager_impl.py: [_evaluate_custom_trust_level], lines 126-139 (an unknown name
    raises UnknownTrustLevel; here it is not undecided), and [_make_trust_decision], lines 141-147: everyone is trusted. *)
Definition simple_eval (level : string) : trust :=
  if decide (level = "TRUSTED") then Trusted else if decide (level = "UNDECIDED") then Undecided else Distrusted.
Definition trust_all (und : list device) (i : option string) : api unit :=
  l <- order und ;; for_each l (fun d => set_trust (dv_jid d) (dv_ik d) "TRUSTED").

(** The same for the BTBV example, examples/btbv_session_manager.py, lines 34-47: names that are not levels raise. *)
Definition blind_eval (level : string) : trust :=
  match btbv_of level with
  | Some BTrusted | Some BBlindlyTrusted => Trusted
  | Some BUndecided => Undecided
  | Some BDistrusted | None => Distrusted
  end.
