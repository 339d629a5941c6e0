(** Theorem C102: the failures a call handles. *)
From Verif Require Import Api Spec Alone Env Stop Handle PfHandle PropsDevices PropsTrust PropsEncrypt PropsIdentity PropsOrigin.
Open Scope prog_scope.
Open Scope string_scope.
Open Scope list_scope.

(** ** C102 *)
(** Whatever everything answers: when the storage, a backend, the network or a callback raises an exception other than the ones the
    call has a use for ([handled]), the call does nothing more and raises that exception. *)
Theorem C102_call (c : call) :
  (forall cf mtd jids pt prio ident, c = KEncrypt cf mtd jids pt prio ident -> forall ds i, stops_but (handled c) (mtd ds i)) ->
  stops_but (handled c) (run_call c).
Proof. exact (call_stops_but c). Qed.
Print Assumptions C102_call.

(** Every entry of [handled] is needed: calls that meet such failures, and return. Devices whose bundles cannot be had are left out,
    encrypt reports them, replace_sessions reports the failure; the rotation goes on to sleep; anything else is raised. *)
Definition failing (c0 : cmd -> bool) (x : exn) (w : world) (c : cmd) : resp c :=
  if c0 c then
    match c return resp c with
    | NDownloadBundle _ _ _ | BBuildActive _ _ _ _ _ | BEncKey _ _ _ | BEncEmpty _ | NSend _ _ | BStoreSession _ _ | NUploadBundle _ => Exn x
    | c => env w c
    end
  else env w c.
Definition downloads (c : cmd) : bool := match c with NDownloadBundle _ _ _ => true | _ => false end.
Definition builds (c : cmd) : bool := match c with BBuildActive _ _ d _ _ => bool_decide (d = 5%Z) | _ => false end.
Definition uploads (c : cmd) : bool := match c with NUploadBundle _ => true | _ => false end.
Definition sends (c : cmd) : bool := match c with NSend _ _ => true | _ => false end.
Definition ex_hd_w : world := World (w_disk (run base env (update_device_list cf0 "n" "you" [(5%Z, None); (6%Z, None)]) w0).2) ["n"] false [].
Definition ex_hd_k : world := World (w_disk (run base env (get_device_information cf0 "you") ex_hd_w).2) ["n"] false [].
Definition ex_hd_s : world := (run base env (encrypt cf0 ignore ["you"] ex_pt None None) ex_hd_k).2.
Definition ex_hd_enc x := (run base (failing builds x) (encrypt cf0 ignore ["you"] ex_pt None None) ex_hd_k).1.
Definition ex_hd_rep x := (run base (failing sends x) (replace_sessions cf0 "you" 5) ex_hd_s).1.
(** uploads fail the first time *)
Definition once (x : exn) (w : world) (c : cmd) : resp c :=
  match c return resp c with
  | BSpkAge _ => Val 11%Z
  | c => failing (fun c => uploads c && forallb (fun e => match e with EvUploadBundle _ _ => false | _ => true end) (w_log w)) x w c
  end.
Definition ex_hd_rot x := (run base (once x) (rotation cf0 2 10) ex_hd_w).
Definition slept (e : event) : option Z := match e with EvSleep n _ => Some n | _ => None end.
Example C102_example :
  (forall ds i, stops_but (handled (KEncrypt cf0 ignore ["you"] ex_pt None None)) (ignore ds i)) /\
  (run base (failing downloads EBundleNotFound) (get_device_information cf0 "you") ex_hd_w).1 = Val [] /\
  (run base (failing downloads EBundleDownloadFailed) (get_device_information cf0 "you") ex_hd_w).1 = Val [] /\
  (run base (failing downloads EBackend) (get_device_information cf0 "you") ex_hd_w).1 = Exn EBackend /\
  (run base (failing downloads ECancelled) (get_device_information cf0 "you") ex_hd_w).1 = Exn ECancelled /\
  (exists ms, ex_hd_enc EKeyExchangeFailed = Val (ms, [EncError "n" "you" 5 EKeyExchangeFailed])) /\
  ex_hd_enc EBackend = Exn EBackend /\
  ex_hd_rep EMessageSendingFailed = Val [("n", EMessageSendingFailed)] /\ ex_hd_rep ECancelled = Exn ECancelled /\
  (run base (failing downloads EBundleNotFound) (ensure_data_consistency (cfg_of ex_args 1)) (run base env (create ex_prims 1 ex_args) empty_world).2).1 = Val tt /\
  omap slept (w_log (ex_hd_rot EBundleUploadFailed).2) = [70; 70; 60]%Z /\ (ex_hd_rot EBackend).1 = Exn EBackend /\ omap slept (w_log (ex_hd_rot EBackend).2) = [].
Proof.
  split; [intros ds i; apply fs_stops; exact Logic.I|]. do 4 (split; [vm_compute; reflexivity|]). split; [eexists; vm_compute; reflexivity|].
  repeat split; vm_compute; reflexivity.
Qed.
