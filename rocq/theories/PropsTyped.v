(** Theorem C72: values of the wrong type are never stored, below the cache and under every schedule. *)
From Verif Require Import Api Spec Env Typed PfKinds PropsDevices PropsTrust PropsPurge PropsDecrypt.
Open Scope prog_scope.
Open Scope string_scope.
Open Scope list_scope.

(** ** C72 *)
(** Processes start, run any application code interleaved in any way on a storage with or without cache, and are cut
    off anywhere: what the storage holds for the namespaces in use always has the type its readers expect. *)
Theorem C72_histories (P : world -> forall c, resp c -> Prop) (nss : list string) w w' :
  (forall w c r, P w c r -> sessions_own w c r) -> ns_separated nss ->
  typed_state nss w -> rhist P nss w w' -> typed_state nss w'.
Proof. exact (fun H1 H2 => typed_rhist P nss H1 H2 w w'). Qed.
Print Assumptions C72_histories.

(** The same at every moment of one process, including what is in the cache. *)
Theorem C72_every_moment (P : world -> forall c, resp c -> Prop) (nss : list string) (ps : list (api unit)) w ps' w' :
  (forall w c r, P w c r -> sessions_own w c r) -> ns_separated nss ->
  typed_state nss w -> Forall (fun p => appcode (backends_in nss) p) ps ->
  preach (rsem P) (map lower ps, w) (ps', w') -> typed_state nss w'.
Proof. exact (fun H1 H2 => typed_pool P nss H1 H2 ps w ps' w'). Qed.
Print Assumptions C72_every_moment.

(** Whatever a coroutine did before (code [p]) and whatever the others do: a call never ends with a TypeError, nor with
    an error from decoding stored bytes. *)
Theorem C72_no_type_error (P : world -> forall c, resp c -> Prop) (nss : list string) {A} (p : api A)
    (c : outcome A -> call) (ps : list (api unit)) i w ps' w' e :
  (forall w c r, P w c r -> sessions_own w c r) -> ns_separated nss ->
  typed_state nss w -> Forall (fun p => appcode (backends_in nss) p) ps ->
  appcode (backends_in nss) p -> (forall r, backends_in nss (c r) /\ calm (backends_in nss) (c r)) ->
  preach (rsem P) (map lower (<[i := r <- try_ p ;; run_call (c r) ;;; Ret tt]> ps), w) (ps', w') ->
  (i < length ps)%nat -> ps' !! i = Some (Raise e) -> e <> ETypeError /\ e <> EBinascii.
Proof. exact (fun H1 H2 => typed_no_error P nss H1 H2 p c ps i w ps' w' e). Qed.
Print Assumptions C72_no_type_error.

(** Two coroutines on an empty storage with cache, during history synchronization: one receives a key exchange from
    device 5 of "you", the other looks up the devices of "you". *)
Definition env_t (w : rworld) (c : rcmd) : rresp c :=
  match c return rresp c with
  | ROther (NDownloadDL ns j) => Val [(5%Z, None)]
  | ROther (BDecKey ns s e) => Val (Session ns (s_jid s) (s_dev s) (s_init s) (s_confirmed s) (s_kex s) (s_rcl s) (s_scl s) (s_state s), "km")
  | c => renv w c
  end.
Lemma env_t_allowed w c : Prog.allowed (rsem sessions_own) w c (env_t w c).
Proof.
  destruct c as [| | | | |c]; try apply renv_allowed.
  destruct c; (split; [try exact (env_allowed (r_world w) _); try done|done]). simpl. apply NoDup_singleton.
Qed.
Definition ex_ps : list (api unit) :=
  [decrypt cf0 (ex_msg 5 ex_hi (Some (Kex "ik:you" "r"))) ;;; Ret tt; refresh_device_list cf0 "m" "you" ;;; get_device_information cf0 "you" ;;; Ret tt].
Definition ex_w_t : rworld := RWorld (World ∅ ["n"; "m"] true []) (Some ∅).
Definition ex_sched : list nat := (replicate 40 0 ++ replicate 50 1 ++ replicate 200 0)%nat.
Example C72_example :
  let r := run_sched (rsem sessions_own) r_awaited env_t ex_sched (map lower ex_ps, ex_w_t, None) in
  r.1.1 = [Ret tt; Ret tt] /\ w_disk (r_world r.1.2) !! k_queue "n" = Some (j_strs ["you"]) /\
  w_disk (r_world r.1.2) !! k_ns "you" 5 = Some (j_strs ["n"; "m"]) /\
  ns_separated ["n"; "m"] /\ typed_state ["n"; "m"] ex_w_t /\
  Forall (fun p => appcode (backends_in ["n"; "m"]) p) ex_ps /\
  preach (rsem sessions_own) (map lower ex_ps, ex_w_t) (r.1.1, r.1.2).
Proof.
  assert (ns_separated ["n"; "m"]) as H1.
  { intros n n' Hn Hn' x. repeat (apply elem_of_cons in Hn as [->|Hn]; [|]); try (by apply elem_of_nil in Hn);
      repeat (apply elem_of_cons in Hn' as [->|Hn']; [|]); try (by apply elem_of_nil in Hn'); done. }
  assert (typed_state ["n"; "m"] ex_w_t) as H2.
  { split; [|split].
    - intros i v _ Hv. simpl in Hv. by rewrite lookup_empty in Hv.
    - intros c i v [= <-] _ Hv. by rewrite lookup_empty in Hv.
    - repeat constructor. }
  assert (Forall (fun p => appcode (backends_in ["n"; "m"]) p) ex_ps) as H3.
  { apply Forall_cons. split; [|apply Forall_singleton].
    - apply app_bind; [|intros; constructor].
      apply (app_call _ _ (KDecrypt cf0 (ex_msg 5 ex_hi (Some (Kex "ik:you" "r"))))); [exact Logic.I|discriminate].
    - apply app_bind; [apply (app_call _ _ (KRefresh cf0 "m" "you")); [exact Logic.I|discriminate]|].
      intros ?. apply app_bind; [|intros; constructor].
      apply (app_call _ _ (KGetInfo cf0 "you")); [exact Logic.I|discriminate]. }
  pose proof (run_sched_areach (rsem sessions_own) r_awaited env_t ex_sched (map lower ex_ps, ex_w_t, None) env_t_allowed) as H.
  apply areach_preach in H. intros r. fold r in H.
  assert (r.1.1 = [Ret tt; Ret tt]) as E1 by (vm_compute; reflexivity).
  assert (w_disk (r_world r.1.2) !! k_queue "n" = Some (j_strs ["you"])) as E2 by (vm_compute; reflexivity).
  assert (w_disk (r_world r.1.2) !! k_ns "you" 5 = Some (j_strs ["n"; "m"])) as E3 by (vm_compute; reflexivity).
  clearbody r. destruct r as [[? ?] ?]. auto 10.
Qed.

(** The namespaces must be separated. Here "n/you" extends "n", and the list of accounts queued for "n/you" is read as
    the list of devices of "you" queued for "n": receiving a key exchange during history synchronization fails. *)
Example C72_separation_needed :
  let q := k_queue "n/you" in
  let w := World (<[q := j_strs ["her"]]> (w_disk ex_w_you)) ["n"; "n/you"] true [] in
  let r := run base env (decrypt cf0 (ex_msg 5 ex_hi (Some ex_kex))) w in
  item_type (IQueue "n/you") (j_strs ["her"]) /\ q = k_queue_jid "n" "you" /\
  r.1 = Exn ETypeError /\ exec base (decrypt cf0 (ex_msg 5 ex_hi (Some ex_kex))) w r.1 r.2.
Proof.
  intros q w r. pose proof (run_exec base env (decrypt cf0 (ex_msg 5 ex_hi (Some ex_kex))) w env_allowed) as H. fold r in H.
  split; [exists ["her"]; apply (is_strs ["her"])|]. split; [reflexivity|].
  split; [vm_compute; reflexivity|exact H].
Qed.
