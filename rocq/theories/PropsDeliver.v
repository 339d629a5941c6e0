(** Theorem C89: messages arrive. Vocabulary in Deliver.v; events are listed newest first. *)
From Verif Require Import Api Spec Env Alone Dec Life Deliver PfDeliver PropsIdentity PropsDevices PropsLife PropsDecrypt PropsHealth.
Open Scope prog_scope.
Open Scope string_scope.
Open Scope list_scope.

(** ** C89 *)
(** If nothing outside fails during the call, decrypt fails only for the reasons of [dec_reason], whatever happened before
    (failures, crashes, restarts). *)
Theorem C89_reasons me w0 w cf cf' m x w' :
  w_disk w0 = ∅ -> life me (Off, w0) (On cf, w) -> same_device cf cf' ->
  exec (with_contract healthy) (decrypt cf' m) w (Exn x) w' ->
  exists evs, w_log w' = evs ++ w_log w /\ dec_reason cf' m w w' evs x.
Proof.
  intros H0 HL Hcf H. destruct (dec_why me w0 cf cf' m H0 Hcf w x w' HL H) as (evs & -> & HR). by exists evs.
Qed.
Print Assumptions C89_reasons.
(** So a message for this device from a known device, with the identity key on record, is decrypted: unless the device
    is evaluated as distrusted, or the message needs a session and the backend has none. The sender is not looked up
    again, so device lists play no role. *)
Theorem C89_delivered me w0 w cf cf' m ik o w' :
  w_disk w0 = ∅ -> life me (Off, w0) (On cf, w) -> same_device cf cf' ->
  exec (with_contract healthy) (decrypt cf' m) w o w' ->
  m_ns m ∈ w_loaded w -> (exists e mk, given cf' m e mk) ->
  known (w_disk w) (m_jid m) (m_dev m) -> keyed (w_disk w) (m_jid m) (m_dev m) ik ->
  (forall e k, given cf' m e (Some k) -> kx_ik k = ik) -> (w_sync w = true -> ~ queue_broken (w_disk w')) ->
  exists evs, w_log w' = evs ++ w_log w /\
    ((forall d, EvEval d (Val Distrusted) ∉ evs) ->
     (forall e, given cf' m e None -> EvLoadSession (m_ns m) (m_jid m) (m_dev m) (Val None) ∉ evs) ->
     exists r, o = Val r).
Proof. intros H0 HL Hcf H. exact (dec_delivered me w0 cf cf' m H0 Hcf w o w' ik HL H). Qed.
Print Assumptions C89_delivered.

(** The devices of "you" were looked up; device 5 has the key "ik:you". *)
Definition ex_met : world := (run base env (get_device_information cf0 "you") ex_boot2.2).2.
Lemma ex_life3 : life "me" (Off, empty_world) (On cf0, ex_met).
Proof.
  eapply PfAlive4.life_trans; [apply ex_life2|]. eapply (PfAlive4.life_app "me" cf0 (get_device_information cf0 "you")).
  - apply (app_call _ _ (KGetInfo cf0 "you")); [by split|]. intros. discriminate.
  - unfold ex_met. exact (run_exec base env (get_device_information cf0 "you") ex_boot2.2 env_allowed).
Qed.
Lemma env_healthy w c : allowed (with_contract healthy) w c (env w c).
Proof. split; [apply env_allowed|]. by destruct c. Qed.
Definition env_dis (w : world) (c : cmd) : resp c := match c return resp c with TEval _ => Val Distrusted | c => env w c end.
Lemma env_dis_healthy w c : allowed (with_contract healthy) w c (env_dis w c).
Proof. destruct c; try apply env_healthy; done. Qed.
Definition ex_good : message := ex_msg 5 ex_hi (Some (Kex "ik:you" "r")).
(** the failures, and a message that arrives *)
Example C89_example :
  let o (m : message) := (run (with_contract healthy) env (decrypt cf0 m) ex_met).1 in
  life "me" (Off, empty_world) (On cf0, ex_met) /\
  o (Message "other" "you" 5 ex_hi []) = Exn EUnknownNamespace /\
  o (Message "n" "you" 5 ex_hi [(Ekm "me" 2 "k", None)]) = Exn EMessageNotForUs /\
  o (ex_msg 9 ex_hi None) = Exn ESenderNotFound /\
  (run (with_contract healthy) env_dis (decrypt cf0 ex_good) ex_met).1 = Exn ESenderDistrusted /\
  o (ex_msg 5 ex_hi None) = Exn ENoSession /\
  o (ex_msg 5 ex_hi (Some (Kex "other" "r"))) = Exn EPublicDataInconsistency /\
  "n" ∈ w_loaded ex_met /\ known (w_disk ex_met) "you" 5 /\ keyed (w_disk ex_met) "you" 5 "ik:you" /\
  (exists d w', exec (with_contract healthy) (decrypt cf0 ex_good) ex_met (Val (Some "hi", d, "km")) w').
Proof.
  intros o. split; [apply ex_life3|].
  do 6 (split; [vm_compute; reflexivity|]). split; [vm_compute; left|].
  split; [exists [5%Z; 6%Z]; split; [|left]; exists (j_ints [5%Z; 6%Z]); split; [vm_compute; reflexivity|repeat constructor]|].
  split; [exists "aWs6eW91"; split; vm_compute; reflexivity|].
  pose proof (run_exec (with_contract healthy) env (decrypt cf0 ex_good) ex_met env_healthy) as H.
  set (r := run _ _ _ _) in H. destruct r.1 as [[[pt d] p]|e] eqn:E; [|vm_compute in E; discriminate].
  exists d, r.2. assert (pt = Some "hi" /\ p = "km") as [-> ->]; [|exact H].
  clear H. unfold r in E. vm_compute in E. injection E as <- _ <-. by split.
Qed.
