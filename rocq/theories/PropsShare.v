(** Theorems C28 and C79 (one coroutine updates an account, the others use it). *)
From Verif Require Import Api Spec Env Share PfIdentity PfShare2 PropsIdentity PropsDevices PropsLife.
Open Scope prog_scope. Open Scope string_scope. Open Scope list_scope.

(** ** C79 *)
(** Coroutine [i] makes any calls; all others make any calls that do not write the records of the account [j] on the
    strength of new device lists (they may encrypt for [j], look up its devices, and so on). The records of [j] are
    complete at every moment of every interleaving. Missing: two coroutines updating [j], which
    [C79_concurrent_updates_refuted] shows to fail. *)
Theorem C79_one_writer_partial me w0 cf w j i (ps : list (api unit)) ps' w' x :
  w_disk w0 = ∅ -> life me (Off, w0) (On cf, w) -> j <> me ->
  (forall p, ps !! i = Some p -> appcode (on cf) p) ->
  (forall n q, n <> i -> ps !! n = Some q -> appcode (fun c => on cf c /\ ~ updates j c) q) ->
  preach base (ps, w) (ps', w') -> known (w_disk w') j x ->
  (exists l, holds (is_list is_str) (w_disk w') (INamespaces j x) l) /\
  (exists m, holds (is_dict is_bool) (w_disk w') (IActive j x) m) /\
  (exists o, labelled (w_disk w') j x o) /\
  (forall n, supports (w_disk w') j x n -> exists b, activity (w_disk w') j x n b).
Proof. exact (share_records me w0 cf w j i ps ps' w' x). Qed.
Print Assumptions C79_one_writer_partial.

(** Looking up the devices of [j] meanwhile, in any coroutine, after anything else: nothing is found missing. *)
Theorem C79_readers_partial me w0 cf w j i (ps : list (api unit)) ps' w' n {A} (p : api A) e :
  w_disk w0 = ∅ -> life me (Off, w0) (On cf, w) -> j <> me ->
  (forall q, n <> i -> ps !! i = Some q -> appcode (on cf) q) ->
  (forall m q, m <> i -> m <> n -> ps !! m = Some q -> appcode (fun c => on cf c /\ ~ updates j c) q) ->
  ps !! n = Some (_ <- try_ p ;; get_device_information cf j ;;; Ret tt) ->
  appcode (fun c => on cf c /\ (n <> i -> ~ updates j c)) p ->
  preach base (ps, w) (ps', w') -> ps' !! n = Some (Raise e) -> e <> ENothing /\ e <> EKeyError.
Proof. exact (share_info me w0 cf w j i ps ps' w' n p e). Qed.
Print Assumptions C79_readers_partial.

(** Any sequence of device list updates for [j] in one coroutine has the effect on the records of [j], and the result,
    of a run of this coroutine by itself; also in the middle of it. *)
Theorem C79_as_alone_partial me w0 cf w j i (ps : list (api unit)) p ps' w' :
  w_disk w0 = ∅ -> life me (Off, w0) (On cf, w) -> j <> me ->
  ps !! i = Some p -> code sync_free (fun c => on cf c /\ only_updates j c) p ->
  (forall n q, n <> i -> ps !! n = Some q -> appcode (fun c => on cf c /\ ~ updates j c /\ ~ sets_loaded c) q) ->
  preach base (ps, w) (ps', w') ->
  exists v, reach base p w v /\ (ps' !! i = Some (Ret tt) -> exec base p w (Val tt) v) /\
    (forall e, ps' !! i = Some (Raise e) -> exec base p w (Exn e) v) /\
    forall it, record_item j it -> w_disk w' !! item_key it = w_disk v !! item_key it.
Proof. exact (share_alone me w0 cf w j i ps p ps' w'). Qed.
Print Assumptions C79_as_alone_partial.

(** ** C28 *)
(** The effect of one update among coroutines that look up and use the account in any other way, at any later moment. *)
Theorem C28_one_writer_partial me w0 cf w j i (ps : list (api unit)) ns dl ps' w' :
  w_disk w0 = ∅ -> life me (Off, w0) (On cf, w) -> j <> me ->
  ps !! i = Some (update_device_list cf ns j dl) ->
  (forall n q, n <> i -> ps !! n = Some q -> appcode (fun c => on cf c /\ ~ updates j c /\ ~ sets_loaded c) q) ->
  preach base (ps, w) (ps', w') -> ps' !! i = Some (Ret tt) ->
  (forall x, known (w_disk w) j x -> known (w_disk w') j x) /\
  (forall x l, dget x dl = Some l -> known (w_disk w') j x /\ supports (w_disk w') j x ns /\ activity (w_disk w') j x ns true) /\
  (forall x, known (w_disk w) j x -> dget x dl = None -> supports (w_disk w) j x ns -> activity (w_disk w') j x ns false).
Proof. exact (share_listed me w0 cf w j i ps ns dl ps' w'). Qed.
Print Assumptions C28_one_writer_partial.

(** The lists of "you" grow while two coroutines look up the devices of "you", one of them after trusting a key and one in
    the middle of the update. *)
Definition ex_share : list (api unit) :=
  [ex_upd2; (_ <- try_ (Ret tt) ;; get_device_information cf0 "you" ;;; Ret tt);
   (_ <- try_ (set_trust "you" "k" "TRUSTED") ;; get_device_information cf0 "you" ;;; Ret tt)].
Definition ex_share_sched : list nat := (replicate 8 0 ++ replicate 4 2 ++ replicate 9 1 ++ replicate 4 0 ++ replicate 9 1)%nat.
Definition ex_share_mid := run_sched base awaited env ex_share_sched (ex_share, ex_use.2, None).
Definition ex_share_end := run_sched base awaited env (ex_share_sched ++ concat (replicate 40 [0; 1; 2]))%nat (ex_share, ex_use.2, None).
Lemma ex_share_writer : code sync_free (fun c => on cf0 c /\ only_updates "you" c) ex_upd2.
Proof. apply (app_call _ _ (KUpdate cf0 "m" "you" [(6%Z, Some "tablet"); (7%Z, None)])); [by repeat split|done]. Qed.
Lemma ex_share_others n q : n <> 0%nat -> ex_share !! n = Some q ->
  appcode (fun c => on cf0 c /\ ~ updates "you" c /\ ~ sets_loaded c) q.
Proof.
  assert (appcode (fun c => on cf0 c /\ ~ updates "you" c /\ ~ sets_loaded c) (get_device_information cf0 "you" ;;; Ret tt)) as G.
  { eapply app_bind; [apply (app_call _ _ (KGetInfo cf0 "you")); [repeat split; by intros []|done]|]. intros. apply app_ret. }
  intros Hn Hq. destruct n as [|[|[|n]]]; [done| | |done]; injection Hq as <-.
  - exact G.
  - apply (app_bind _ _ _ _ (try_ (set_trust "you" "k" "TRUSTED")) (fun _ => get_device_information cf0 "you" ;;; Ret tt));
      [|intros; exact G].
    apply (app_try _ _ _ (set_trust "you" "k" "TRUSTED")), (app_call _ _ (KSetTrust "you" "k" "TRUSTED")); [repeat split; by intros []|done].
Qed.
Example C79_share_example :
  life "me" (Off, empty_world) (On cf0, ex_use.2) /\
  preach base (ex_share, ex_use.2) ex_share_mid.1 /\ preach base (ex_share, ex_use.2) ex_share_end.1 /\
  w_disk ex_share_mid.1.2 !! item_key (IDeviceList "you") = Some (JList [JInt 5; JInt 6]) /\
  w_disk ex_share_mid.1.2 !! item_key (IActive "you" 6) = Some (JDict [("n", JBool true); ("m", JBool true)]) /\
  w_disk ex_share_mid.1.2 !! item_key (INamespaces "you" 6) = Some (JList [JStr "n"]) /\
  ex_share_mid.1.1 !! 0%nat <> Some (Ret tt) /\
  ex_share_end.1.1 = [Ret tt; Ret tt; Ret tt] /\
  w_disk ex_share_end.1.2 !! item_key (IDeviceList "you") = w_disk (run base env ex_upd2 ex_use.2).2 !! item_key (IDeviceList "you") /\
  w_disk ex_share_end.1.2 !! item_key (INamespaces "you" 6) = Some (JList [JStr "n"; JStr "m"]).
Proof.
  split; [exact ex_life1|].
  split; [exact (areach_preach _ _ _ _ (run_sched_areach base awaited env ex_share_sched (ex_share, ex_use.2, None) env_allowed))|].
  split; [exact (areach_preach _ _ _ _ (run_sched_areach base awaited env _ (ex_share, ex_use.2, None) env_allowed))|].
  split; [vm_compute; reflexivity|]. split; [vm_compute; reflexivity|]. split; [vm_compute; reflexivity|].
  split; [vm_compute; discriminate|].
  split; [vm_compute; reflexivity|]. split; vm_compute; reflexivity.
Qed.
