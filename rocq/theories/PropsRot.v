(** Theorems C57 to C59: the signed pre key rotation task, with any concurrent activity. The task is an endless loop; the
    theorems are about every state it reaches with any number of passes and attempts ([fuel]). Events are listed newest
    first; the vocabulary is in Rot.v. *)
From Verif Require Import Api Spec Alone Env Dec Rot PfAlone PfRot PropsDevices PropsTrust PropsPurge PropsEncrypt.
Open Scope prog_scope.
Open Scope string_scope.
Open Scope list_scope.

(** ** C57 *)
(** The log is made of complete passes over the loaded backends, and a part of the current pass. Each pass looks at the
    backends one after the other; a backend is left alone or, if its key is older than the period, rotated and then
    uploaded before the next backend is looked at ([visited]). *)
Theorem C57_passes (P : world -> forall c, resp c -> Prop) cf fuel period evs : reach (alone P) (rotation cf fuel period) [] evs ->
  exists cur finished, evs = cur ++ finished /\ passes cf (answer P GLoaded) period finished /\
    (cur = [] \/ passing cf (answer P GLoaded) period cur).
Proof. exact (rotation_reach P cf fuel period [] evs (passes_nil cf (answer P GLoaded) period)). Qed.
Print Assumptions C57_passes.
(** In particular, going by what each call is immediately preceded by: the age of the key of a backend is only asked for at
    the start, after the sleep between passes, after a key that is not older than the period or after a successful upload;
    a key is rotated only right after it was found to be older than the period; then the bundle of this backend is
    uploaded, and nothing else is done before that has worked, except sleeping after each failure. *)
Theorem C57_steps (P : world -> forall c, resp c -> Prop) cf fuel period evs : reach (alone P) (rotation cf fuel period) [] evs ->
  traced (fun ev before =>
    match ev with
    | EvSpkAge _ _ => ready period before
    | EvRotate ns _ => exists age l, before = EvSpkAge ns (Val age) :: l /\ (period < age)%Z
    | EvGetBundle ns j x _ => j = c_jid cf /\ x = c_dev cf /\
        ((exists l, before = EvRotate ns (Val tt) :: l) \/ exists a l, attempt_failed cf ns a /\ before = EvSleep 60 (Val tt) :: a ++ l)
    | EvUploadBundle b _ => exists ns l, before = EvGetBundle ns (c_jid cf) (c_dev cf) (Val b) :: l
    | EvSleep z _ => (z = 60%Z /\ exists ns a l, attempt_failed cf ns a /\ before = a ++ l) \/ ready period before
    | _ => False
    end) evs.
Proof. exact (rotation_steps P cf fuel period evs). Qed.
Print Assumptions C57_steps.
(** two backends; the keys of both are 9 seconds old *)
Definition flow (evs : list event) : list string :=
  rev (map (fun e => match e with
    | EvSpkAge ns _ => "age " +:+ ns | EvRotate ns _ => "rotate " +:+ ns | EvGetBundle ns _ _ _ => "bundle " +:+ ns
    | EvUploadBundle b (Val _) => "upload " +:+ b_ns b | EvUploadBundle b (Exn _) => "fail " +:+ b_ns b
    | EvSleep z _ => "sleep " +:+ pretty z | _ => "" end) evs).
(** the first two uploads fail *)
Definition env_up2 (w : world) (c : cmd) : resp c :=
  match c return resp c with
  | NUploadBundle b => if decide (length (List.filter (fun e => match e with EvUploadBundle _ _ => true | _ => false end) (w_log w)) < 2)
                       then Exn EBundleUploadFailed else Val tt
  | c => env_old w c
  end.
Lemma env_up2_allowed w c : w_allowed w c (env_up2 w c).
Proof. destruct c; try apply env_old_allowed. simpl. by destruct (decide _). Qed.
Definition ex_w_rot : world := World (w_disk ex_w_own) ["n"; "m"] false [].
Example C57_example :
  flow (w_log (run base env_up2 (rotation cf0 3 8) ex_w_rot).2) =
    ["age n"; "rotate n"; "bundle n"; "fail n"; "sleep 60"; "bundle n"; "fail n"; "sleep 60"; "bundle n"; "upload n";
     "age m"; "rotate m"; "bundle m"; "upload m"; "sleep 68";
     "age n"; "rotate n"; "bundle n"; "upload n"; "age m"; "rotate m"; "bundle m"; "upload m"; "sleep 68";
     "age n"; "rotate n"; "bundle n"; "upload n"; "age m"; "rotate m"; "bundle m"; "upload m"; "sleep 68"] /\
  flow (w_log (run base env_old (rotation cf0 2 9) ex_w_rot).2) =
    ["age n"; "age m"; "sleep 60"; "age n"; "age m"; "sleep 60"].
Proof. vm_compute. repeat split. Qed.

(** ** C58 *)
(** Every sleep is a retry delay after a failed upload, or comes at the end of a complete pass and takes 60 seconds more
    than the smallest time left for a key that was not rotated, at most the period plus 60. *)
Theorem C58_sleep (P : world -> forall c, resp c -> Prop) cf fuel period evs post z before :
  reach (alone P) (rotation cf fuel period) [] evs -> evs = post ++ EvSleep z (Val tt) :: before ->
  (z = 60%Z /\ exists ns a l, attempt_failed cf ns a /\ before = a ++ l) \/
  exists nss ages vs l, answer P GLoaded nss /\ length ages = length nss /\ length vs = length nss /\
    (forall i ns age v, nss !! i = Some ns -> ages !! i = Some age -> vs !! i = Some v -> visited cf period ns age v) /\
    before = concat (rev vs) ++ l /\
    (z <= period + 60)%Z /\ (forall age, age ∈ ages -> (age <= period)%Z -> (z <= period - age + 60)%Z) /\
    (z = (period + 60)%Z \/ exists age, age ∈ ages /\ (age <= period)%Z /\ z = (period - age + 60)%Z) /\
    ((0 <= period)%Z -> (60 <= z)%Z).
Proof. exact (pass_time P cf fuel period evs post z before). Qed.
Print Assumptions C58_sleep.
(** the key of "n" is 4 seconds old, the key of "m" 9 *)
Definition env_ages (w : world) (c : cmd) : resp c :=
  match c return resp c with BSpkAge ns => Val (if decide (ns = "n") then 4%Z else 9%Z) | c => env w c end.
Example C58_example :
  flow (w_log (run base env_ages (rotation cf0 1 8) ex_w_rot).2) = ["age n"; "age m"; "rotate m"; "bundle m"; "upload m"; "sleep 64"] /\
  flow (w_log (run base env_ages (rotation cf0 1 3) ex_w_rot).2) = ["age n"; "rotate n"; "bundle n"; "upload n"; "age m"; "rotate m"; "bundle m"; "upload m"; "sleep 63"] /\
  flow (w_log (run base env_ages (rotation cf0 1 20) ex_w_rot).2) = ["age n"; "age m"; "sleep 71"].
Proof. vm_compute. repeat split. Qed.

(** ** C59 *)
(** The variable holding the delay is set to 60 at the start of every iteration (sm:680): after two failures in a row the
    second delay is 60 seconds again. *)
Theorem C59_backoff_refuted : exists cf fuel period w w' post l b,
  reach base (rotation cf fuel period) w w' /\ w_log w' = post ++
    [EvSleep 60 (Val tt); EvUploadBundle b (Exn EBundleUploadFailed); EvGetBundle (b_ns b) (c_jid cf) (c_dev cf) (Val b);
     EvSleep 60 (Val tt); EvUploadBundle b (Exn EBundleUploadFailed); EvGetBundle (b_ns b) (c_jid cf) (c_dev cf) (Val b);
     EvRotate (b_ns b) (Val tt)] ++ l.
Proof.
  pose (r := run base env_up2 (rotation cf0 3 8) ex_w_rot).
  pose proof (exec_reach _ _ _ _ _ (run_exec base env_up2 (rotation cf0 3 8) ex_w_rot env_up2_allowed)) as H. fold r in H.
  pose (b := Bundle "n" "me" 1 "own" "local").
  assert (w_log r.2 = take 25 (w_log r.2) ++
    [EvSleep 60 (Val tt); EvUploadBundle b (Exn EBundleUploadFailed); EvGetBundle (b_ns b) "me" 1 (Val b);
     EvSleep 60 (Val tt); EvUploadBundle b (Exn EBundleUploadFailed); EvGetBundle (b_ns b) "me" 1 (Val b);
     EvRotate (b_ns b) (Val tt)] ++ drop 32 (w_log r.2)) as E by (vm_compute; reflexivity).
  exists cf0, 3%nat, 8%Z, ex_w_rot, r.2, (take 25 (w_log r.2)), (drop 32 (w_log r.2)), b. split; [exact H|]. exact E.
Qed.
Print Assumptions C59_backoff_refuted.
(** What holds instead: each failed upload is followed by a delay of exactly one minute and another attempt for the same
    backend. Missing: the delay never grows. *)
Theorem C59_minute_partial (P : world -> forall c, resp c -> Prop) cf fuel period evs post e b before :
  reach (alone P) (rotation cf fuel period) [] evs -> evs = post ++ e :: EvUploadBundle b (Exn EBundleUploadFailed) :: before ->
  exists ns l r, before = EvGetBundle ns (c_jid cf) (c_dev cf) (Val b) :: l /\ e = EvSleep 60 r /\
    forall post' e', r = Val tt -> post = post' ++ [e'] -> exists r', e' = EvGetBundle ns (c_jid cf) (c_dev cf) r'.
Proof. exact (failed_upload P cf fuel period evs post e b before). Qed.
Print Assumptions C59_minute_partial.
(** the log of C57_example: two failed uploads, each followed by "sleep 60" and another attempt *)
Example C59_example :
  take 10 (flow (w_log (run base env_up2 (rotation cf0 3 8) ex_w_rot).2)) =
    ["age n"; "rotate n"; "bundle n"; "fail n"; "sleep 60"; "bundle n"; "fail n"; "sleep 60"; "bundle n"; "upload n"].
Proof. vm_compute. reflexivity. Qed.
