(** Theorems C02 (coroutines without cache), C74 and C79 (on the cache) and C95: what the cache does to concurrent calls. *)
From Verif Require Import Api Spec Alone Env Life Uncached PfUncached PropsIdentity PropsDevices PropsTrust PropsEncrypt PropsBtbv PropsManual PropsLife.
Open Scope prog_scope. Open Scope string_scope. Open Scope list_scope.

(** ** C02 *)
(** With [disable_cache=True], coroutines in any interleaving do what they do on the storage interface of the other
    theorems, and the other way round: these theorems hold for such storages, and the counterexamples occur. *)
Theorem C02_uncached_coroutines (P : world -> forall c, resp c -> Prop) (ps : list (api unit)) w ps' w' :
  (forall w c r, storage_cmd c -> P w c r) ->
  r_cache w = None -> preach (rsem P) (map lower ps, w) (ps', w') ->
  r_cache w' = None /\ exists qs, preach (with_contract P) (ps, r_world w) (qs, r_world w') /\
    forall n, (ps' !! n = Some (Ret tt) -> qs !! n = Some (Ret tt)) /\
              (forall e, ps' !! n = Some (Raise e) -> qs !! n = Some (Raise e)).
Proof. exact (fun HP => uncached_pool P HP ps w ps' w'). Qed.
Print Assumptions C02_uncached_coroutines.
Theorem C02_uncached_complete (P : world -> forall c, resp c -> Prop) (ps : list (api unit)) w cfg :
  preach (with_contract P) (ps, w) cfg ->
  preach (rsem P) (map lower ps, RWorld w None) (map lower cfg.1, RWorld cfg.2 None).
Proof. exact (pool_up P ps w cfg). Qed.
Print Assumptions C02_uncached_complete.

(** ** C74 *)
(** What any coroutine of any pool does on the storage with its cache is an execution of kind [alone], too: statements about
    calls among any concurrent activity hold whatever the concurrent activity does to the cache. *)
Theorem C74_cached_covered (ok : call -> Prop) (ps : list (api unit)) i p w ps' w' :
  NoDup (w_loaded (r_world w)) -> Forall (fun p => appcode ok p) ps -> ps !! i = Some p ->
  preach rbase (map lower ps, w) (ps', w') ->
  exists new evs, w_log (r_world w') = new ++ w_log (r_world w) /\ evs `sublist_of` new /\
    reach (alone distinct_backends) p [] evs /\
    (ps' !! i = Some (Ret tt) -> exec (alone distinct_backends) p [] (Val tt) evs) /\
    (forall e, ps' !! i = Some (Raise e) -> exec (alone distinct_backends) p [] (Exn e) evs).
Proof. exact (cached_covered ok ps i p w ps' w'). Qed.
Print Assumptions C74_cached_covered.

(** ** C95 *)
Definition renv_b (w : rworld) (c : rcmd) : rresp c :=
  match c return rresp c with ROther (TEval d) => btbv_eval d | c => renv w c end.
Lemma renv_b_allowed w c : allowed (rsem btbv_levels_used) w c (renv_b w c).
Proof.
  destruct c as [k|k v|k|k|k v|c]; [exact (renv_allowed w (RLoad k))|exact (renv_allowed w (RStore k v))|
    exact (renv_allowed w (RDelete k))|exact (renv_allowed w (RCacheGet k))|exact (renv_allowed w (RCachePut k v))|].
  split; [|by destruct c]. destruct c; try exact (env_allowed (r_world w) _). cbn. unfold btbv_eval. by destruct (btbv_of _) as [[]|].
Qed.
(** The devices of "you" are looked up while the key of two of them is distrusted. The lookup has read the old level and puts
    it into the cache after the new one. set_trust has returned, the storage holds the new level, but messages are encrypted
    for the distrusted devices until the process restarts. *)
Definition ex_race : rworld := RWorld (World (w_disk (run base env (set_trust "you" "other" "DISTRUSTED") ex_trust.2).2) ["n"; "m"] false []) (Some ∅).
Definition ex_race_ps : list (api unit) := [set_trust "you" "same" "DISTRUSTED"; get_device_information cf_b "you" ;;; Ret tt].
Definition ex_race_end := run_sched (rsem btbv_levels_used) r_awaited renv_b (replicate 18 1 ++ replicate 3 0 ++ replicate 80 1)%nat
  (map lower ex_race_ps, ex_race, None).
Definition ex_race_call : api (list (message * pkm) * list enc_error) := encrypt cf_b (btbv_mtd cf_b ex_prompt) ["you"] ex_pt None None.
Definition ex_race_msg := run (rsem btbv_levels_used) renv_b (lower ex_race_call) ex_race_end.1.2.
Theorem C95_cached_refuted : exists cf jid ik w w1 w2 r m k,
  r_cache w = Some ∅ /\
  areach (rsem btbv_levels_used) r_awaited
    (map lower [set_trust jid ik "DISTRUSTED"; get_device_information cf jid ;;; Ret tt], w, None) ([Ret tt; Ret tt], w1, None) /\
  w_disk (r_world w1) !! item_key (ITrust jid ik) = Some (JStr "DISTRUSTED") /\
  exec (rsem btbv_levels_used) (lower (encrypt cf (btbv_mtd cf ex_prompt) [jid] ex_pt None None)) w1 (Val r) w2 /\
  m ∈ r.1.*1 /\ k ∈ (m_keys m).*1 /\ ek_jid k = jid /\
  w_disk (r_world w2) !! item_key (IIdentityKey jid (ek_dev k)) = Some (JStr (b64enc ik)) /\
  w_disk (r_world w2) !! item_key (ITrust jid ik) = Some (JStr "DISTRUSTED").
Proof.
  assert (areach (rsem btbv_levels_used) r_awaited (map lower ex_race_ps, ex_race, None) ex_race_end) as H
    by exact (run_sched_areach (rsem btbv_levels_used) r_awaited renv_b _ _ renv_b_allowed).
  assert (ex_race_end.1.1 = [Ret tt; Ret tt] /\ ex_race_end.2 = None) as [E1 E2] by (vm_compute; split; reflexivity).
  assert (ex_race_end = ([Ret tt; Ret tt], ex_race_end.1.2, None)) as E
    by (destruct ex_race_end as [[? ?] ?]; simpl in *; subst; reflexivity).
  rewrite E in H.
  assert (exec (rsem btbv_levels_used) (lower ex_race_call) ex_race_end.1.2 ex_race_msg.1 ex_race_msg.2) as H2
    by exact (run_exec (rsem btbv_levels_used) renv_b _ _ renv_b_allowed).
  assert (exists r, ex_race_msg.1 = Val r /\ exists m, m ∈ r.1.*1 /\ Ekm "you" 5 "k:km" ∈ (m_keys m).*1) as (r & E3 & m & Hm & Hk).
  { assert (match ex_race_msg.1 with Val r => (fun m => head (m_keys m.1).*1) <$> head r.1 | Exn _ => None end = Some (Some (Ekm "you" 5 "k:km")))
      as E3 by (vm_compute; reflexivity).
    destruct ex_race_msg.1 as [[ms es]|e]; [|discriminate E3]. exists (ms, es). split; [reflexivity|]. cbn [fst snd] in *.
    destruct ms as [|[m p] ms]; [discriminate E3|]. exists m. split; [left|]. cbn [head fmap option_fmap option_map fst] in E3.
    injection E3 as E3. destruct (m_keys m).*1; [discriminate E3|]. injection E3 as ->. left. }
  rewrite E3 in H2.
  exists cf_b, "you", "same", ex_race, ex_race_end.1.2, ex_race_msg.2, r, m, (Ekm "you" 5 "k:km").
  split; [reflexivity|]. split; [exact H|]. split; [vm_compute; reflexivity|]. split; [exact H2|].
  split; [exact Hm|]. split; [exact Hk|]. split; [reflexivity|]. split; vm_compute; reflexivity.
Qed.
Print Assumptions C95_cached_refuted.
(** Without the cache: any code that does not set the level itself, in any interleaving, cut off anywhere, any number of
    processes. Missing: the cache. *)
Theorem C95_uncached_partial jid ik lvl cf (ok : call -> Prop) w w1 w2 w3 ds dv :
  r_cache w = None -> exec rbase (lower (set_trust jid ik lvl)) w (Val tt) w1 ->
  (forall c, ok c -> keeps_trust (w_disk (r_world w1)) jid ik c) -> uhist ok w1 w2 ->
  exec rbase (lower (get_device_information cf jid)) w2 (Val ds) w3 -> dv ∈ ds -> dv_ik dv = ik -> dv_trust dv = lvl.
Proof. exact (trust_uncached jid ik lvl cf ok w w1 w2 w3 ds dv). Qed.
Print Assumptions C95_uncached_partial.
Definition ex_unc : rworld := RWorld (r_world ex_race) None.
Definition ex_unc_set := run rbase renv (lower (set_trust "you" "same" "DISTRUSTED")) ex_unc.
Definition ex_unc_ps : list (api unit) :=
  [get_device_information cf_b "you" ;;; Ret tt; update_device_list cf_b "n" "you" [(5%Z, None); (8%Z, None)];
   set_trust "you" "ik:you" "TRUSTED"].
Definition ex_unc_run := run_sched rbase r_awaited renv (concat (replicate 60 [0; 1; 2]))%nat (map lower ex_unc_ps, ex_unc_set.2, None).
Definition ex_unc_end : rworld := RWorld (World (w_disk (r_world ex_unc_run.1.2)) ["n"; "m"] false []) None.
Definition ex_unc_ok (c : call) : Prop :=
  match c with KGetInfo _ _ | KUpdate _ _ _ _ => True | KSetTrust j ik _ => (j, ik) = ("you", "ik:you") | _ => False end.
Lemma uepoch_intro (ok : call -> Prop) ps w cfg' l b q :
  Forall (fun p => appcode ok p) ps -> preach rbase (map lower ps, w) cfg' ->
  uepoch ok w (RWorld (World (w_disk (r_world cfg'.2)) l b q) None).
Proof. intros H1 H2. by exists ps, cfg'. Qed.
Example C95_example :
  r_cache ex_unc = None /\ ex_unc_set.1 = Val tt /\ uhist ex_unc_ok ex_unc_set.2 ex_unc_end /\
  (forall c, ex_unc_ok c -> keeps_trust (w_disk (r_world ex_unc_set.2)) "you" "same" c) /\
  levels (run rbase renv (lower (get_device_information cf_b "you")) ex_unc_end).1 =
    [(5%Z, "DISTRUSTED"); (8%Z, "TRUSTED"); (6%Z, "DISTRUSTED"); (7%Z, "DISTRUSTED")].
Proof.
  split; [reflexivity|]. split; [vm_compute; reflexivity|]. split.
  { apply rtc_once. apply (uepoch_intro ex_unc_ok ex_unc_ps ex_unc_set.2 ex_unc_run.1 ["n"; "m"] false []).
    - apply Forall_cons_2; [|apply Forall_cons_2; [|apply Forall_cons_2; [|constructor]]].
      + apply (app_bind _ _ _ _ (get_device_information cf_b "you") (fun _ => Ret tt)); [|intros; apply app_ret].
        by apply (app_call _ _ (KGetInfo cf_b "you")).
      + by apply (app_call _ _ (KUpdate cf_b "n" "you" [(5%Z, None); (8%Z, None)])).
      + by apply (app_call _ _ (KSetTrust "you" "ik:you" "TRUSTED")).
    - exact (areach_preach _ _ _ _ (run_sched_areach rbase r_awaited renv _ (map lower ex_unc_ps, ex_unc_set.2, None) renv_allowed)). }
  split; [|vm_compute; reflexivity].
  intros [] Hc; simpl in *; try done. injection Hc as -> ->. discriminate.
Qed.
(** The pool finishes on the storage without cache; its result on the interface is the one C02_uncached_coroutines speaks of. *)
Example C02_uncached_example :
  r_cache ex_unc_set.2 = None /\ ex_unc_run.1.1 = [Ret tt; Ret tt; Ret tt] /\
  w_disk (r_world ex_unc_run.1.2) !! item_key (INamespaces "you" 8) = Some (JList [JStr "n"]).
Proof. split; [vm_compute; reflexivity|]. split; vm_compute; reflexivity. Qed.

(** ** C79 *)
(** One coroutine updates, another one looks up the devices, on a storage with its cache. The lookup caches the empty device
    list it has read before the update; the next update takes the device for a new one and forgets its first namespace. *)
Definition ex_stale : rworld := RWorld ex_boot.2 (Some ∅).
Definition ex_stale_ps : list (api unit) := [update_device_list cf0 "n" "you" [(5%Z, None)]; get_device_information cf0 "you" ;;; Ret tt].
Definition ex_stale_run := run_sched rbase r_awaited renv (replicate 2 1 ++ replicate 80 0 ++ replicate 80 1)%nat (map lower ex_stale_ps, ex_stale, None).
Definition ex_stale_upd := run rbase renv (lower (update_device_list cf0 "m" "you" [(5%Z, None)])) ex_stale_run.1.2.
Theorem C79_cached_refuted : exists w w1 w2,
  life "me" (Off, empty_world) (On cf0, r_world w) /\ r_cache w = Some ∅ /\
  areach rbase r_awaited (map lower [update_device_list cf0 "n" "you" [(5%Z, None)]; get_device_information cf0 "you" ;;; Ret tt], w, None)
    ([Ret tt; Ret tt], w1, None) /\
  supports (w_disk (r_world w1)) "you" 5 "n" /\
  exec rbase (lower (update_device_list cf0 "m" "you" [(5%Z, None)])) w1 (Val tt) w2 /\
  ~ supports (w_disk (r_world w2)) "you" 5 "n" /\ (forall b, ~ activity (w_disk (r_world w2)) "you" 5 "n" b).
Proof.
  assert (areach rbase r_awaited (map lower ex_stale_ps, ex_stale, None) ex_stale_run) as H
    by exact (run_sched_areach rbase r_awaited renv _ _ renv_allowed).
  assert (ex_stale_run.1.1 = [Ret tt; Ret tt] /\ ex_stale_run.2 = None) as [E1 E2] by (vm_compute; split; reflexivity).
  assert (ex_stale_run = ([Ret tt; Ret tt], ex_stale_run.1.2, None)) as E
    by (destruct ex_stale_run as [[? ?] ?]; simpl in *; subst; reflexivity).
  rewrite E in H. clear E E1 E2.
  assert (exec rbase (lower (update_device_list cf0 "m" "you" [(5%Z, None)])) ex_stale_run.1.2 ex_stale_upd.1 ex_stale_upd.2) as H2
    by exact (run_exec rbase renv _ _ renv_allowed).
  assert (ex_stale_upd.1 = Val tt) as E by (vm_compute; reflexivity). rewrite E in H2. clear E.
  assert (w_disk (r_world ex_stale_run.1.2) !! item_key (INamespaces "you" 5) = Some (JList [JStr "n"])) as D1 by (vm_compute; reflexivity).
  assert (w_disk (r_world ex_stale_upd.2) !! item_key (INamespaces "you" 5) = Some (JList [JStr "m"])) as D2 by (vm_compute; reflexivity).
  assert (w_disk (r_world ex_stale_upd.2) !! item_key (IActive "you" 5) = Some (JDict [("m", JBool true)])) as D3 by (vm_compute; reflexivity).
  exists ex_stale, ex_stale_run.1.2, ex_stale_upd.2. split.
  { eapply (PfAlive4.life_boot "me" ex_prims 9 ex_args _ cf0 ex_boot.2); [done|].
    pose proof (run_exec base env (create ex_prims 9 ex_args) empty_world env_allowed) as Hb. fold ex_boot in Hb.
    assert (ex_boot.1 = Val cf0) as E by (vm_compute; reflexivity). rewrite E in Hb. exact Hb. }
  split; [reflexivity|]. split; [exact H|]. split.
  { exists ["n"]. split; [|left]. exists (JList [JStr "n"]). split; [exact D1|]. repeat constructor. }
  split; [exact H2|]. split.
  - intros Hb. apply (PfDevices.supports_ns _ _ _ ["m"]) in Hb.
    + by apply elem_of_list_singleton in Hb.
    + exists (JList [JStr "m"]). split; [exact D2|]. repeat constructor.
  - intros b Hb. apply (PfDevices.activity_act _ _ _ [("m", true)]) in Hb; [discriminate Hb|].
    exists (JDict [("m", JBool true)]). split; [exact D3|]. repeat constructor.
Qed.
Print Assumptions C79_cached_refuted.
(** This pool satisfies the hypotheses of C74_cached_covered; the update wrote four records. *)
Example C74_cached_example :
  NoDup (w_loaded (r_world ex_stale)) /\
  Forall (fun p => appcode (fun c => match c with KGetInfo _ _ | KUpdate _ _ _ _ => True | _ => False end) p) ex_stale_ps /\
  preach rbase (map lower ex_stale_ps, ex_stale) ex_stale_run.1 /\ ex_stale_run.1.1 = [Ret tt; Ret tt] /\
  (length (w_log (r_world ex_stale_run.1.2)) = 4 + length (w_log (r_world ex_stale)))%nat.
Proof.
  assert (w_loaded (r_world ex_stale) = ["n"; "m"]) as -> by (vm_compute; reflexivity).
  split; [repeat constructor; set_solver|]. split.
  { apply Forall_cons_2; [|apply Forall_cons_2; [|constructor]].
    - by apply (app_call _ _ (KUpdate cf0 "n" "you" [(5%Z, None)])).
    - apply (app_bind _ _ _ _ (get_device_information cf0 "you") (fun _ => Ret tt)); [|intros; apply app_ret].
      by apply (app_call _ _ (KGetInfo cf0 "you")). }
  split; [exact (areach_preach _ _ _ _ (run_sched_areach rbase r_awaited renv _ (map lower ex_stale_ps, ex_stale, None) renv_allowed))|].
  split; vm_compute; reflexivity.
Qed.
