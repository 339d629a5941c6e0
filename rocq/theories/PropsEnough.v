(** Theorem C104: a trust decision about everyone is enough. *)
From Verif Require Import Api Spec Alone Env Enough PfStorage PfEnough PropsIdentity PropsDevices PropsTrust PropsBtbv PropsEncrypt PropsManual.
Open Scope prog_scope.
Open Scope string_scope.
Open Scope list_scope.

(** ** C104 *)
(** Levels are evaluated by their names; the decision leaves nobody it was asked about undecided and makes nobody undecided. *)
Theorem C104_no_more_undecided ev cf mtd jids pt prio ident w o w' :
  settles ev mtd -> exec (with_contract (by_level ev)) (encrypt cf mtd jids pt prio ident) w o w' -> o <> Exn EStillUndecided.
Proof. exact (enough ev cf mtd jids pt prio ident w o w'). Qed.
Print Assumptions C104_no_more_undecided.
(** Raised, it tells the truth: the level in force of some key of a recipient or of the own account is undecided, now. *)
Theorem C104_still_undecided ev cf mtd jids pt prio ident w w' :
  (forall und i w w', ~ exec (with_contract (by_level ev)) (mtd und i) w (Exn EStillUndecided) w') ->
  exec (with_contract (by_level ev)) (encrypt cf mtd jids pt prio ident) w (Exn EStillUndecided) w' ->
  exists j ik level, (j ∈ jids \/ j = c_jid cf) /\ level_in_force cf (w_disk w') j ik level /\ ev level = Undecided.
Proof. intros Hm. exact (still ev cf mtd Hm jids pt prio ident w w'). Qed.
Print Assumptions C104_still_undecided.
(** The implementation in the tests decides in this way. *)
Theorem C104_test_decision : settles simple_eval trust_all.
Proof. exact trust_all_settles. Qed.
Print Assumptions C104_test_decision.
(** Blind trust before verification does if the user, when asked, decides about everyone. *)
Theorem C104_blind_trust cf prompt : settles blind_eval prompt -> settles blind_eval (btbv_mtd cf prompt).
Proof. apply btbv_settles. discriminate. Qed.
Print Assumptions C104_blind_trust.

(** Both evaluations answer by the name of the level. *)
Definition env_s (w : world) (c : cmd) : resp c := match c return resp c with TEval d => Val (simple_eval (dv_trust d)) | c => env w c end.
Lemma env_s_allowed w c : allowed (with_contract (by_level simple_eval)) w c (env_s w c).
Proof. destruct c; (split; [try apply env_allowed; done|by split]). Qed.
Lemma env_b_by_level w c : allowed (with_contract (by_level blind_eval)) w c (env_b w c).
Proof.
  split; [apply env_b_allowed|]. destruct c; try by split.
  unfold by_level. cbn. unfold blind_eval, btbv_eval. by destruct (btbv_of (dv_trust d)) as [[]|].
Qed.
(** Three devices are asked about, trusted and encrypted for. A key of the account was verified: the user is asked about the
    device with another one. A decision that does nothing is not enough. *)
Definition ex_say (l : list event) : list (Z * outcome trust + string) :=
  omap (fun e => match e with EvEval d r => Some (inl (dv_id d, r)) | EvStore k (JStr s) _ => Some (inr s) | _ => None end) (rev l).
Definition ex_all := run (with_contract (by_level simple_eval)) env_s (encrypt cf_b trust_all ["you"] ex_pt None None) ex_w_keys.
Definition ex_blind := run (with_contract (by_level blind_eval)) env_b (encrypt cf_b (btbv_mtd cf_b trust_all) ["you"] ex_pt None None) (World (w_disk ex_trust.2) ["n"; "m"] false []).
Definition ex_ign := run (with_contract (by_level simple_eval)) env_s (encrypt cf_b ignore ["you"] ex_pt None None) ex_w_keys.
Example C104_example :
  settles simple_eval trust_all /\ settles blind_eval (btbv_mtd cf_b trust_all) /\
  exec (with_contract (by_level simple_eval)) (encrypt cf_b trust_all ["you"] ex_pt None None) ex_w_keys ex_all.1 ex_all.2 /\
  sent ex_all.1 = Some ([("n", [("you", 5, true); ("you", 6, true); ("you", 7, true)])], [])%Z /\
  firstn 6 (ex_say (w_log ex_all.2)) =
    [inl (5%Z, Val Undecided); inl (6%Z, Val Undecided); inl (7%Z, Val Undecided); inr "TRUSTED"; inr "TRUSTED"; inr "TRUSTED"] /\
  exec (with_contract (by_level blind_eval)) (encrypt cf_b (btbv_mtd cf_b trust_all) ["you"] ex_pt None None) (World (w_disk ex_trust.2) ["n"; "m"] false []) ex_blind.1 ex_blind.2 /\
  sent ex_blind.1 = Some ([("n", [("you", 5, true); ("you", 6, true); ("you", 7, true)])], [])%Z /\
  firstn 5 (ex_say (w_log ex_blind.2)) =
    [inl (5%Z, Val Trusted); inl (6%Z, Val Trusted); inl (7%Z, Val Undecided); inr "TRUSTED"; inl (5%Z, Val Trusted)] /\
  (forall und i w w', ~ exec (with_contract (by_level simple_eval)) (ignore und i) w (Exn EStillUndecided) w') /\
  exec (with_contract (by_level simple_eval)) (encrypt cf_b ignore ["you"] ex_pt None None) ex_w_keys (Exn EStillUndecided) ex_ign.2 /\
  level_in_force cf_b (w_disk ex_ign.2) "you" "same" "UNDECIDED".
Proof.
  split; [exact C104_test_decision|]. split; [apply C104_blind_trust, (set_all_settles blind_eval "TRUSTED"); discriminate|].
  split; [unfold ex_all; apply run_exec, env_s_allowed|]. split; [vm_compute; reflexivity|]. split; [vm_compute; reflexivity|].
  split; [unfold ex_blind; generalize (World (w_disk ex_trust.2) ["n"; "m"] false []); intros w; apply run_exec, env_b_by_level|]. split; [vm_compute; reflexivity|]. split; [vm_compute; reflexivity|].
  split; [by intros ? ? ? ? [? _]|]. split; [|right; split; vm_compute; reflexivity].
  assert (ex_ign.1 = Exn EStillUndecided) as <- by (vm_compute; reflexivity). unfold ex_ign. apply run_exec, env_s_allowed.
Qed.
