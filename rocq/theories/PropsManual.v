(** Theorem C92: manual decisions and blind trust. *)
From Verif Require Import Api Spec Alone Btbv Env PfManual PropsDevices PropsTrust PropsBtbv.
Open Scope prog_scope.
Open Scope string_scope.
Open Scope list_scope.

(** ** C92 *)
(** The trust levels are evaluated as BTBV does. *)
Definition btbv_levels_used (w : world) (c : cmd) : resp c -> Prop :=
  match c return resp c -> Prop with TEval d => fun r => r = btbv_eval d | _ => fun _ => True end.
Definition env_b (w : world) (c : cmd) : resp c :=
  match c return resp c with TEval d => btbv_eval d | c => env w c end.
Lemma env_b_allowed w c : allowed (with_contract btbv_levels_used) w c (env_b w c).
Proof.
  split; [|by destruct c]. destruct c; try apply env_allowed. cbn. unfold btbv_eval. by destruct (btbv_of _) as [[]|].
Qed.
Lemma ex_prompt_code ok ds i : btbv_code ok (ex_prompt ds i).
Proof.
  unfold ex_prompt. induction ds as [|d ds IH]; [constructor|]. cbn [for_each]. apply bt_bind; [|auto].
  unfold c_sleep. apply (bt_bind _ _ _ (act (CSleep (dv_id d)))); [by apply bt_cmd|]. intros [a|e]; constructor.
Qed.
Definition ex_race : list (api unit) :=
  [encrypt cf_b (btbv_mtd cf_b ex_prompt) ["you"] [("n", "hi"); ("m", "hi")] None None ;;; Ret tt; set_trust "you" "other" "DISTRUSTED"].
Definition ex_race_w : world := World (w_disk ex_w_keys) ["n"; "m"] false [].
Lemma second_done (s : list (api unit) * world * option nat) :
  match s.1.1 with [_; Ret _] => true | _ => false end = true -> s = ([default (Ret tt) (head s.1.1); Ret tt], s.1.2, s.2).
Proof. destruct s as [[[|p [|[[]| |] []]] w] n]; done. Qed.
Lemma both_done (s : list (api unit) * world * option nat) :
  match s.1.1 with [Ret _; Ret _] => true | _ => false end = true -> s = ([Ret tt; Ret tt], s.1.2, s.2).
Proof. destruct s as [[[|[[]| |] [|[[]| |] []]] w] n]; done. Qed.
(** The manual decision can be lost: an encrypt call that has already looked up the levels stores blind trust over the
    decision, although [set_trust] has returned before, and goes on to build a session with the distrusted device. *)
Theorem C92_concurrent_refuted : exists ps p w w1 n1 w2 n2 ns b pk r l,
  Forall (fun p => btbv_code any_call p) ps /\
  areach (with_contract btbv_levels_used) awaited (ps, w, None) ([p; Ret tt], w1, n1) /\
  ps !! 1%nat = Some (set_trust "you" "other" "DISTRUSTED") /\ trusted_as (w_disk w1) "you" "other" "DISTRUSTED" /\
  areach (with_contract btbv_levels_used) awaited ([p; Ret tt], w1, n1) ([Ret tt; Ret tt], w2, n2) /\
  trusted_as (w_disk w2) "you" "other" "BLINDLY_TRUSTED" /\
  keyed (w_disk w1) "you" 7 "other" /\ w_log w2 = l ++ w_log w1 /\ EvBuildActive ns "you" 7 b pk (Val r) ∈ l.
Proof.
  pose (A := (replicate 47 0 ++ [1; 1; 1])%nat). pose (B := (replicate 200 0)%nat).
  pose (s1 := run_sched (with_contract btbv_levels_used) awaited env_b A (ex_race, ex_race_w, None)).
  pose proof (run_sched_areach (with_contract btbv_levels_used) awaited env_b A (ex_race, ex_race_w, None) env_b_allowed) as H1. fold s1 in H1.
  pose (s2 := run_sched (with_contract btbv_levels_used) awaited env_b B s1).
  pose proof (run_sched_areach (with_contract btbv_levels_used) awaited env_b B s1 env_b_allowed) as H2. fold s2 in H2.
  pose (p := default (Ret tt) (head s1.1.1)).
  assert (s1 = ([p; Ret tt], s1.1.2, s1.2)) as E1 by (apply second_done; vm_compute; reflexivity).
  assert (s2 = ([Ret tt; Ret tt], s2.1.2, s2.2)) as E2 by (apply both_done; vm_compute; reflexivity).
  assert (trusted_as (w_disk s1.1.2) "you" "other" "DISTRUSTED") as T1 by (vm_compute; reflexivity).
  assert (trusted_as (w_disk s2.1.2) "you" "other" "BLINDLY_TRUSTED") as T2 by (vm_compute; reflexivity).
  assert (keyed (w_disk s1.1.2) "you" 7 "other") as T3 by (exists "b3RoZXI="; vm_compute; split; reflexivity).
  pose (l := take (length (w_log s2.1.2) - length (w_log s1.1.2)) (w_log s2.1.2)).
  assert (w_log s2.1.2 = l ++ w_log s1.1.2) as T4 by (vm_compute; reflexivity).
  pose (b := Bundle "n" "you" 7 "ik:you" "remote").
  pose (r := (Session "n" "you" 7 Active false (Kex "own" "remote") None 0 "a:ik:you", Ekm "you" 7 "k:km")).
  assert (EvBuildActive "n" "you" 7 b "km" (Val r) ∈ l) as T5 by (vm_compute; repeat first [left|right]).
  exists ex_race, p, ex_race_w, s1.1.2, s1.2, s2.1.2, s2.2, "n", b, "km", r, l.
  clearbody l. rewrite <- E1. split; [|split; [exact H1|split; [reflexivity|split; [exact T1|split; [|auto]]]]].
  - apply Forall_cons. split; [|apply Forall_singleton].
    + apply bt_bind; [|intros; constructor]. apply bt_encrypt. intros ds i. apply ex_prompt_code.
    + apply (bt_call _ (KSetTrust "you" "other" "DISTRUSTED")); [exact Logic.I|discriminate].
  - rewrite E2 in H2. exact H2.
Qed.
Print Assumptions C92_concurrent_refuted.
(** What does hold: everything that starts after the decision respects it. In all interleavings and after all failures,
    crashes and restarts, the trust levels of the account are as they were or were set manually since. *)
Theorem C92_later_calls_partial (ok : call -> Prop) w w' j ik :
  user_decided (w_disk w) j -> (forall c, ok c -> keeps_decisions (w_disk w) j c) -> btbv_hist ok w w' ->
  user_decided (w_disk w') j /\
  (w_disk w' !! item_key (ITrust j ik) = w_disk w !! item_key (ITrust j ik) \/
   exists level, w_disk w' !! item_key (ITrust j ik) = Some (JStr level) /\ manual_level level).
Proof. exact (decided_kept ok w w' j ik). Qed.
Print Assumptions C92_later_calls_partial.
(** The decision about one device is made first: then the other devices of the account are not trusted blindly, while a device
    of "her" is. *)
Definition ex_after : world := World (w_disk ex_w_btbv) ["n"] false [].
Definition ex_ps : list (api unit) :=
  [encrypt cf_b (btbv_mtd cf_b ex_prompt) ["you"; "her"] [("n", "hi")] None None ;;; Ret tt; set_trust "you" "same" "TRUSTED"].
Definition ex_hist := run_sched base awaited env_b (concat (replicate 100 [0; 1]))%nat (ex_ps, ex_after, None).
Example C92_example :
  user_decided (w_disk ex_after) "you" /\ btbv_hist (keeps_decisions (w_disk ex_after) "you") ex_after ex_hist.1.2 /\
  w_disk ex_hist.1.2 !! item_key (ITrust "you" "same") = Some (JStr "TRUSTED") /\
  w_disk ex_hist.1.2 !! item_key (ITrust "you" "other") = Some (JStr "DISTRUSTED") /\
  w_disk ex_hist.1.2 !! item_key (ITrust "her" "ik:her") = Some (JStr "BLINDLY_TRUSTED").
Proof.
  split; [|split].
  - exists 7%Z, "other", "DISTRUSTED". split; [|split; [|split]].
    + exists [5; 6; 7]%Z. split; [|set_solver]. eexists. split; [vm_compute; reflexivity|]. apply (is_list_intro _ [JInt 5; JInt 6; JInt 7]). repeat constructor.
    + exists "b3RoZXI=". split; vm_compute; reflexivity.
    + vm_compute; reflexivity.
    + by right.
  - apply rtc_once. exists ex_ps, ex_hist.1. split; [|split; [|reflexivity]].
    + apply Forall_cons. split; [|apply Forall_singleton].
      * apply bt_bind; [|intros; constructor]. apply bt_encrypt. intros ds i. apply ex_prompt_code.
      * apply (bt_call _ (KSetTrust "you" "same" "TRUSTED")); [by right; left|discriminate].
    + exact (areach_preach _ _ _ _ (run_sched_areach base awaited env_b _ (ex_ps, ex_after, None) (fun w c => proj1 (env_b_allowed w c)))).
  - vm_compute. repeat split.
Qed.
