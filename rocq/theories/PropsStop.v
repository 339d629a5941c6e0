(** Theorem C101: a failing storage operation or a cancellation ends a call. *)
From Verif Require Import Api Spec Alone Env Stop PfStop PropsDevices PropsTrust PropsEncrypt PropsIdentity PropsOrigin.
Open Scope prog_scope.
Open Scope string_scope.
Open Scope list_scope.

(** ** C101 *)
(** Whatever everything answers: once the storage raises, or the task is cancelled, the call does nothing more and raises that
    exception. *)
Theorem C101_call (c : call) : stopping_decision c -> stops (run_call c).
Proof. exact (call_stops c). Qed.
Print Assumptions C101_call.
(** Code that makes calls one after the other and catches nothing. *)
Theorem C101_sequence {A B} (p : api A) (f : A -> api B) : stops p -> (forall a, stops (f a)) -> stops (bind p f).
Proof. exact (stops_bind p f). Qed.
Print Assumptions C101_sequence.
(** So storages without cache whose failing writes may have taken effect show nothing new: such a failure is a crash right after
    the same write succeeded. *)
Theorem C101_flaky {A} (p : api A) w bs o w' bs' : stops p -> exec flaky p (w, bs) o (w', bs') ->
  exec base p w o w' \/ exists e w'', o = Exn e /\ reach base p w w'' /\ as_written w' w''.
Proof. exact (flaky_exec p w bs o w' bs'). Qed.
Print Assumptions C101_flaky.
Theorem C101_flaky_coroutines (ps : list (api unit)) w bs ps' w' bs' : Forall stops ps -> preach flaky (ps, (w, bs)) (ps', (w', bs')) ->
  exists ps'' w'', preach base (ps, w) (ps'', w'') /\ all_written w' w''.
Proof. exact (flaky_preach ps w bs ps' w' bs'). Qed.
Print Assumptions C101_flaky_coroutines.

(** Whole histories of applications that catch failures and go on, with restarts: what follows a failing write is done by another
    coroutine. So every theorem about [hist] holds for such storages too. *)
Theorem C101_flaky_history (ok : call -> Prop) w w' : (forall c, ok c -> stopping_decision c) -> rtc (flaky_epoch ok) w w' -> hist ok w w'.
Proof. exact (fun Hok => flaky_history ok Hok w w'). Qed.
Print Assumptions C101_flaky_history.

(** A storage that fails to write device lists, though it does write them. *)
Definition env_flaky (s : world * list bool) (c : cmd) : resp c :=
  match c return resp c with
  | SStore k v => if decide (k = k_list "you") then Exn EStorage else Val tt
  | c => env s.1 c
  end.
Definition ex_stop : api unit := update_device_list cf0 "n" "you" [(5%Z, Some "pad")].
Definition ex_stop_end := run flaky env_flaky ex_stop (w0, [true]).
(** The trust decision of the example makes no calls; one that swallows failures of the storage does not stop. *)
Definition ex_swallow : api unit := try_ (set_trust "you" "ik:you" "TRUSTED") ;;; x <- g_loaded ;; Ret tt.
Definition env_fails (l : list step) (c : cmd) : resp c :=
  match c return resp c with SStore k v => Exn EStorage | c => env w0 c end.
Lemma env_flaky_allowed s c : allowed flaky s c (env_flaky s c).
Proof.
  pose proof (env_allowed s.1 c) as H. destruct c; try exact H. change (w_allowed s.1 (SStore k v) (env_flaky s (SStore k v))). cbn [env_flaky].
  destruct (decide _); [|exact H]. vm_compute. tauto.
Qed.
Example C101_example :
  stops ex_stop /\ stopping_decision (KEncrypt cf0 ignore ["you"] ex_pt None None) /\
  exec flaky ex_stop (w0, [true]) (Exn EStorage) ex_stop_end.2 /\
  w_disk ex_stop_end.2.1 !! k_list "you" = Some (JList [JInt 5]) /\
  ~ stops ex_swallow.
Proof.
  split; [apply (C101_call (KUpdate cf0 "n" "you" [(5%Z, Some "pad")])); intros ? ? ? ? ? ? [=]|]. split.
  { intros ? ? ? ? ? ? [= <- <- <- <- <- <-] ds i. apply fs_stops. exact Logic.I. }
  split.
  { assert (ex_stop_end.1 = Exn EStorage) as E by (vm_compute; reflexivity). rewrite <- E. unfold ex_stop_end. apply run_exec. apply env_flaky_allowed. }
  split; [vm_compute; reflexivity|].
  intros [H _].
  assert (exists post s pre e, (run free env_fails ex_swallow []).2 = post ++ s :: pre /\ ends s e /\ post <> []) as (post & s & pre & e & E & He & Hp).
  { eexists [_], _, [], EStorage. split; [vm_compute; reflexivity|]. split; [|discriminate]. split; [reflexivity|left; exact Logic.I]. }
  apply Hp, (H post s pre e); [|exact He]. rewrite <- E. eapply exec_reach, (run_exec free env_fails). done.
Qed.
(** An application that catches the failure and tries again. *)
Definition ex_stop_app : api unit := o <- try_ ex_stop ;; match o with Exn _ => set_trust "you" "ik:you" "TRUSTED" | Val _ => Ret tt end.
Definition ex_stop_app_end := run flaky env_flaky ex_stop_app (w0, [true]).
Definition ex_stop_ok (c : call) : Prop := match c with KUpdate _ _ _ _ | KSetTrust _ _ _ => True | _ => False end.
Example C101_history_example :
  (forall c, ex_stop_ok c -> stopping_decision c) /\ appcode ex_stop_ok ex_stop_app /\
  exec flaky ex_stop_app (w0, [true]) (Val tt) ex_stop_app_end.2 /\
  w_disk ex_stop_app_end.2.1 !! k_list "you" = Some (JList [JInt 5]) /\ w_disk ex_stop_app_end.2.1 !! k_trust "you" "ik:you" = Some (JStr "TRUSTED") /\
  rtc (flaky_epoch ex_stop_ok) w0 ex_stop_app_end.2.1.
Proof.
  assert (appcode ex_stop_ok ex_stop_app) as Hc.
  { apply app_bind; [apply app_try, (app_call _ _ (KUpdate cf0 "n" "you" [(5%Z, Some "pad")])); [exact Logic.I|intros ? ? ? ? ? ? [=]]|].
    intros [[]|e]; [constructor|]. apply (app_call _ _ (KSetTrust "you" "ik:you" "TRUSTED")); [exact Logic.I|intros ? ? ? ? ? ? [=]]. }
  assert (exec flaky ex_stop_app (w0, [true]) (Val tt) ex_stop_app_end.2) as He.
  { assert (ex_stop_app_end.1 = Val tt) as E by (vm_compute; reflexivity). rewrite <- E. unfold ex_stop_app_end. apply run_exec. apply env_flaky_allowed. }
  split; [intros c Hk ? ? ? ? ? ? ->; destruct Hk|]. split; [exact Hc|]. split; [exact He|].
  split; [vm_compute; reflexivity|]. split; [vm_compute; reflexivity|].
  apply rtc_once. revert He. generalize ex_stop_app_end.2. intros s He. clear -Hc He.
  exists [ex_stop_app], [true]. revert He Hc. generalize ex_stop_app. intros p He Hc.
  destruct (exec_preach flaky p _ _ _ He) as (ps' & Hp).
  exists (ps', s). split; [by apply Forall_singleton|]. split; [exact Hp|reflexivity].
Qed.
