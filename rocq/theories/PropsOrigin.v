(** Theorem C99: what the storage says about accounts and devices has a source. *)
From Verif Require Import Api Spec Alone Env Origin PfOrigin PropsDevices PropsTrust PropsEncrypt PropsIdentity.
Open Scope prog_scope.
Open Scope string_scope.
Open Scope list_scope.

(** ** C99 *)
(** In every interleaving of code using the library, with all failures, and at every moment: recorded identity keys are from
    bundles downloaded for that device (or are the own key), recorded devices, namespaces, activity and labels are from device
    lists of that account, stored trust levels were set by the application. As storage and log survive the process, this
    carries over to the next one. *)
Theorem C99_stored (X : inputs) (ps : list (api unit)) w ps' w' :
  Forall (fun p => appcode (uses X) p) ps -> storage_from X (w_log w) (w_disk w) ->
  preach (with_contract anything) (ps, w) (ps', w') -> storage_from X (w_log w') (w_disk w').
Proof. exact (origin X anything ps w ps' w'). Qed.
Print Assumptions C99_stored.
(** The devices the library has judged: in every interleaving, what it says about them has a source at that moment. *)
Theorem C99_judged (X : inputs) (ps : list (api unit)) w ps' w' :
  Forall (fun p => code unjudging (uses X) p) ps -> storage_from X (w_log w) (w_disk w) ->
  preach (with_contract anything) (ps, w) (ps', w') ->
  exists new, w_log w' = new ++ w_log w /\ forall post e pre, new = post ++ e :: pre -> judged X e (pre ++ w_log w).
Proof. exact (origin_judged X anything ps w ps' w'). Qed.
Print Assumptions C99_judged.
(** The devices reported by get_device_information. *)
Theorem C99_reported (X : inputs) cf j w ds w' :
  in_cfg X cf -> storage_from X (w_log w) (w_disk w) -> exec base (get_device_information cf j) w (Val ds) w' ->
  Forall (device_from X (w_log w')) ds.
Proof. exact (origin_reported X cf j w ds w'). Qed.
Print Assumptions C99_reported.

(** From the empty storage: an instance is created, a device list given, trust decided, a message encrypted, while another
    coroutine asks for the devices. *)
Definition ex_inputs : inputs :=
  Inputs (fun cf => c_jid cf = "me" /\ c_undecided cf = "U") (eq ex_prims)
    (fun ns j dl => ns = "n" /\ j = "you" /\ dl = [(5%Z, Some "pad")])
    (fun j ik level => (j = "me" /\ level = "U") \/ (j = "you" /\ ik = "ik:you" /\ level = "TRUSTED")).
Definition ex_orig : list (api unit) :=
  [create ex_prims 9 ex_args ;;; update_device_list cf0 "n" "you" [(5%Z, Some "pad")] ;;;
   set_trust "you" "ik:you" "TRUSTED" ;;; encrypt cf0 ignore ["you"] ex_pt None None ;;; Ret tt;
   get_device_information cf0 "you" ;;; get_device_information cf0 "you" ;;; Ret tt].
Definition ex_orig_end := run_sched (with_contract anything) awaited env (concat (replicate 120 [0; 0; 1])%nat) (ex_orig, empty_world, None).
Definition judged_device (e : event) : option (string * Z * bytes * list string) :=
  match e with EvEval d _ => Some (dv_jid d, dv_id d, dv_ik d, dv_namespaces d) | _ => None end.
Lemma any_allowed w c : allowed (with_contract anything) w c (env w c).
Proof. split; [apply env_allowed|exact Logic.I]. Qed.
Example C99_example :
  (forall ext, Forall (fun p => code ext (uses ex_inputs) p) ex_orig) /\
  storage_from ex_inputs (w_log empty_world) (w_disk empty_world) /\
  preach (with_contract anything) (ex_orig, empty_world) ex_orig_end.1 /\ ex_orig_end.1.1 = [Ret tt; Ret tt] /\
  keyed (w_disk ex_orig_end.1.2) "you" 5 "ik:you" /\ keyed (w_disk ex_orig_end.1.2) "me" 1 "00000000000000000000000000000000" /\
  labelled (w_disk ex_orig_end.1.2) "you" 5 (Some "pad") /\ trusted_as (w_disk ex_orig_end.1.2) "you" "ik:you" "TRUSTED" /\
  omap judged_device (w_log ex_orig_end.1.2) = replicate 3 ("you", 5%Z, "ik:you", ["n"]) /\
  ~ key_from ex_inputs (w_log ex_orig_end.1.2) "you" 5 "ik:me".
Proof.
  assert (preach (with_contract anything) (ex_orig, empty_world) ex_orig_end.1) as H.
  { unfold ex_orig_end. generalize (concat (replicate 120 [0; 0; 1])%nat). intros t.
    exact (areach_preach _ _ _ _ (run_sched_areach (with_contract anything) awaited env t (ex_orig, empty_world, None) any_allowed)). }
  assert (ex_orig_end.1.1 = [Ret tt; Ret tt]) as E1 by (vm_compute; reflexivity).
  assert (omap judged_device (w_log ex_orig_end.1.2) = replicate 3 ("you", 5%Z, "ik:you", ["n"])) as E2 by (vm_compute; reflexivity).
  assert (keyed (w_disk ex_orig_end.1.2) "you" 5 "ik:you") as E3 by (eexists; split; vm_compute; reflexivity).
  assert (keyed (w_disk ex_orig_end.1.2) "me" 1 "00000000000000000000000000000000") as E4 by (eexists; split; vm_compute; reflexivity).
  assert (labelled (w_disk ex_orig_end.1.2) "you" 5 (Some "pad")) as E5.
  { exists (JStr "pad"). split; [vm_compute; reflexivity|]. constructor; [discriminate|constructor]. }
  assert (trusted_as (w_disk ex_orig_end.1.2) "you" "ik:you" "TRUSTED") as E6 by (vm_compute; reflexivity).
  assert (omap (fun e => match e with EvDownloadBundle _ _ _ (Val b) => Some (b_ik b) | _ => None end) (w_log ex_orig_end.1.2) = ["ik:you"]) as E7
    by (vm_compute; reflexivity).
  revert H E1 E2 E3 E4 E5 E6 E7. generalize ex_orig_end.1. intros fin H E1 E2 E3 E4 E5 E6 E7.
  split; [|split; [|split; [exact H|split; [exact E1|split; [exact E3|split; [exact E4|split; [exact E5|split; [exact E6|split; [exact E2|]]]]]]]]].
  - intros ext. assert (in_cfg ex_inputs cf0) as Hc by (split; reflexivity).
    apply Forall_cons_2; [|apply Forall_singleton].
    + apply app_bind; [apply (app_call _ _ (KCreate ex_prims 9 ex_args)); [|discriminate]|intros _].
      { split; [reflexivity|]. split; [intros dev; split; reflexivity|]. intros s. split; left; split; reflexivity. }
      apply app_bind; [apply (app_call _ _ (KUpdate cf0 "n" "you" _)); [split; [exact Hc|repeat split]|discriminate]|intros _].
      apply app_bind; [apply (app_call _ _ (KSetTrust "you" "ik:you" "TRUSTED")); [right; repeat split|discriminate]|intros _].
      apply app_bind; [apply (app_call _ _ (KEncrypt cf0 ignore ["you"] ex_pt None None)); [exact Hc|]|intros; constructor].
      intros ? ? ? ? ? ? [= <- <- <- <- <- <-]. intros. constructor.
    + apply app_bind; [apply (app_call _ _ (KGetInfo cf0 "you")); [exact Hc|discriminate]|intros _].
      apply app_bind; [apply (app_call _ _ (KGetInfo cf0 "you")); [exact Hc|discriminate]|intros; constructor].
  - repeat split.
    + by intros j x ik (s & Hs & _).
    + by intros j x (zs & (v & Hv & _) & _).
    + by intros j x n (zs & (v & Hv & _) & _).
    + by intros j x n b (zs & (v & Hv & _) & _).
    + by intros j x s (v & Hv & _).
    + intros j ik level Hl. discriminate Hl.
  - intros [(ns & b & Hb & E)|[(cf & [Hj _] & Hc) _]].
    + assert ("ik:me" ∈ ["ik:you"]) as Hin; [|apply elem_of_list_singleton in Hin; discriminate Hin].
      rewrite <- E7. apply elem_of_list_omap. eexists. split; [exact Hb|]. by rewrite <- E.
    + rewrite Hj in Hc. discriminate Hc.
Qed.
Example C99_reported_example :
  in_cfg ex_inputs cf0 /\ storage_from ex_inputs (w_log ex_orig_end.1.2) (w_disk ex_orig_end.1.2) /\
  exists ds w', exec base (get_device_information cf0 "you") ex_orig_end.1.2 (Val ds) w' /\
    map (fun d => (dv_jid d, dv_id d, dv_ik d, dv_trust d, dv_label d)) ds = [("you", 5%Z, "ik:you", "TRUSTED", Some "pad")].
Proof.
  split; [split; reflexivity|]. split.
  { destruct C99_example as (Hp & Hs & Hr & _). destruct ex_orig_end.1 as [ps' w'] eqn:E. exact (C99_stored ex_inputs ex_orig empty_world ps' w' (Hp external) Hs Hr). }
  assert (match run base env (get_device_information cf0 "you") ex_orig_end.1.2 with
    (Val ds, _) => map (fun d => (dv_jid d, dv_id d, dv_ik d, dv_trust d, dv_label d)) ds = [("you", 5%Z, "ik:you", "TRUSTED", Some "pad")]
    | _ => False end) as H by (vm_compute; reflexivity).
  revert H. generalize ex_orig_end.1.2. intros w H.
  destruct (run base env (get_device_information cf0 "you") w) as [[ds|e] w'] eqn:R; [|contradiction]. exists ds, w'. split; [|exact H].
  pose proof (run_exec base env (get_device_information cf0 "you") w env_allowed) as Hx. rewrite R in Hx. exact Hx.
Qed.
