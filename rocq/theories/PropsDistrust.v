(** Theorem C93: distrusted devices. *)
From Verif Require Import Api Spec Alone Btbv Env Dec Distrust PfDistrust PropsDevices PropsTrust PropsPurge PropsBtbv PropsEncrypt PropsDecrypt PropsSync PropsManual.
Open Scope prog_scope.
Open Scope string_scope.
Open Scope list_scope.

(** ** C93 *)
(** Sessions are for the device they were asked for, and the trust levels are evaluated as BTBV does. *)
Definition btbv_named (w : world) (c : cmd) (r : resp c) : Prop := sessions_named w c r /\ btbv_levels_used w c r.
Definition env_bn (w : world) (c : cmd) : resp c :=
  match c return resp c with TEval d => btbv_eval d | c => env_n w c end.
Lemma env_bn_allowed w c : allowed (with_contract btbv_named) w c (env_bn w c).
Proof.
  destruct c; try (split; [apply env_named|split; [apply env_named|done]]).
  split; [cbn; unfold btbv_eval; by destruct (btbv_of _) as [[]|]|by split].
Qed.
(** A device of which an answer is pending is distrusted. The answer is sent all the same: after_history_sync does not look
    at trust levels, so it encrypts for a distrusted device and sends the message. *)
Theorem C93_queued_refuted : exists cf w w1 w2 l ns j x ik s p r m,
  exec (with_contract btbv_named) (set_trust j ik "DISTRUSTED") w (Val tt) w1 /\ marked (w_disk w1) j x ik "DISTRUSTED" /\
  exec (with_contract btbv_named) (after_history_sync cf) w1 (Val tt) w2 /\
  w_log w2 = l ++ w_log w1 /\ EvEncKey ns s p (Val r) ∈ l /\ s_jid s = j /\ s_dev s = x /\ EvSend m j (Val tt) ∈ l.
Proof.
  pose (r1 := run (with_contract btbv_named) env_bn (set_trust "you" "same" "DISTRUSTED") ex_w_flush).
  pose (r2 := run (with_contract btbv_named) env_bn (after_history_sync cf_b) r1.2).
  pose proof (run_exec (with_contract btbv_named) env_bn (set_trust "you" "same" "DISTRUSTED") ex_w_flush env_bn_allowed) as H1. fold r1 in H1.
  pose proof (run_exec (with_contract btbv_named) env_bn (after_history_sync cf_b) r1.2 env_bn_allowed) as H2. fold r2 in H2.
  assert (r1.1 = Val tt) as E1 by (vm_compute; reflexivity). rewrite E1 in H1.
  assert (r2.1 = Val tt) as E2 by (vm_compute; reflexivity). rewrite E2 in H2.
  pose (l := take (length (w_log r2.2) - length (w_log r1.2)) (w_log r2.2)).
  assert (w_log r2.2 = l ++ w_log r1.2) as L by (vm_compute; reflexivity).
  assert (marked (w_disk r1.2) "you" 5 "same" "DISTRUSTED") as M.
  { split; [exists "c2FtZQ=="; vm_compute; split; reflexivity|vm_compute; reflexivity]. }
  pose (s := ex_ses Active true).
  pose (s' := Session "n" "you" 5 Active true (Kex "a" "b") None 4 "st+"). pose (e := Ekm "you" 5 "st").
  pose (m := Message "n" "me" 1 (Content true "") [(e, None)]).
  assert (l !! 10 = Some (EvEncKey "n" s "empty" (Val (s', e)))) as X1 by (vm_compute; reflexivity).
  assert (l !! 9 = Some (EvSend m "you" (Val tt))) as X2 by (vm_compute; reflexivity).
  exists cf_b, ex_w_flush, r1.2, r2.2, l, "n", "you", 5%Z, "same", s, "empty", (s', e), m.
  clearbody l r1 r2. do 4 (split; [assumption|]). split; [exact (elem_of_list_lookup_2 _ _ _ X1)|].
  split; [reflexivity|]. split; [reflexivity|]. exact (elem_of_list_lookup_2 _ _ _ X2).
Qed.
Print Assumptions C93_queued_refuted.
(** What does hold: when no answer to the device is queued, nothing is encrypted for it and nothing from it is decrypted by
    calls made after the decision, in all interleavings and after all failures, crashes and restarts. The decision stays.
    Not covered: calls that were running when the decision was stored, and those by which the application itself takes it
    back ([upholds]): another level, purging the account, replacing the sessions with this very device. *)
Theorem C93_shunned_partial (P : world -> forall c, resp c -> Prop) nss (ok : call -> Prop) w w' j x ik level :
  ns_separated nss -> (forall w c r, P w c r -> sessions_named w c r /\ distrusts j ik level w c r) ->
  marked (w_disk w) j x ik level -> (forall ns, ns ∈ nss -> ~ queued_dev (w_disk w) ns j x) -> Forall (.∈ nss) (w_loaded w) ->
  (forall c, ok c -> upholds nss (w_disk w) j x ik level c) -> heeding P nss j ik ok w w' ->
  marked (w_disk w') j x ik level /\ exists evs, w_log w' = evs ++ w_log w /\ Forall (shuns j x) evs.
Proof. exact (distrusted_shunned P nss ok w w' j x ik level). Qed.
Print Assumptions C93_shunned_partial.
(** Whatever is queued: only empty messages are ever encrypted for the device. [K] is any set that contains the keys of all
    empty messages. *)
Theorem C93_content_partial (K : pkm -> Prop) (P : world -> forall c, resp c -> Prop) nss (ok : call -> Prop) w w' j x ik level :
  ns_separated nss -> (forall w c r, P w c r -> sessions_named w c r /\ distrusts j ik level w c r /\ empties K w c r) ->
  marked (w_disk w) j x ik level -> Forall (.∈ nss) (w_loaded w) ->
  (forall c, ok c -> upholds nss (w_disk w) j x ik level c) -> heeding P nss j ik ok w w' ->
  marked (w_disk w') j x ik level /\ exists evs, w_log w' = evs ++ w_log w /\ Forall (shuns_but K j x) evs.
Proof. exact (distrusted_empties K P nss ok w w' j x ik level). Qed.
Print Assumptions C93_content_partial.
(** The trust decisions of BTBV are such code. *)
Theorem C93_btbv_partial nss d0 j x ik cf prompt jids pt prio ident :
  (forall ds i, Forall (fun d => ~ (dv_jid d = j /\ dv_ik d = ik)) ds -> heeds j ik (upholds nss d0 j x ik "DISTRUSTED") (prompt ds i)) ->
  heeds j ik (upholds nss d0 j x ik "DISTRUSTED") (encrypt cf (btbv_mtd cf prompt) jids pt prio ident).
Proof.
  intros Hp. apply he_encrypt. apply btbv_heeds; [done| |done]. intros j' ik' Hne H1 H2. by exfalso; apply Hne.
Qed.
Print Assumptions C93_btbv_partial.
(** The key of devices 5 and 6 is distrusted, that of device 7 trusted. There is a session with device 5. *)
Definition ex_dis : world := (run (with_contract btbv_named) env_bn
  (set_trust "you" "same" "DISTRUSTED" ;;; set_trust "you" "other" "TRUSTED") ex_w_ses).2.
Definition ex_dis_ps : list (api unit) :=
  [encrypt cf_b (btbv_mtd cf_b ex_prompt) ["you"] [("n", "hi"); ("m", "hi")] None None ;;; Ret tt;
   r <- try_ (decrypt cf_b (ex_msg 5 ex_hi (Some ex_kex))) ;; match r with Exn ESenderDistrusted => Ret tt | _ => Raise EValueError end;
   replace_sessions cf_b "you" 7 ;;; Ret tt].
Definition ex_dis_end := run_sched (with_contract btbv_named) awaited env_bn (concat (replicate 150 [0; 1; 2]))%nat (ex_dis_ps, ex_dis, None).
Definition used (l : list event) : list (string * Z) :=
  omap (fun e => match e with EvEncKey _ s _ _ | EvDecKey _ s _ _ => Some (s_jid s, s_dev s) | EvBuildActive _ j x _ _ _ | EvBuildPassive _ j x _ _ _ => Some (j, x) | _ => None end) l.
Lemma ex_prompt_heeds j ik ok ds i : heeds j ik ok (ex_prompt ds i).
Proof.
  unfold ex_prompt. induction ds as [|d ds IH]; [constructor|]. cbn [for_each]. apply he_bind; [|auto].
  unfold c_sleep. apply (he_bind _ _ _ _ _ (act (CSleep (dv_id d)))); [by apply he_cmd|]. intros [a|e]; constructor.
Qed.
Example C93_example :
  ns_separated ["n"; "m"] /\ (forall w c r, btbv_named w c r -> sessions_named w c r /\ distrusts "you" "same" "DISTRUSTED" w c r) /\
  marked (w_disk ex_dis) "you" 5 "same" "DISTRUSTED" /\ (forall ns, ns ∈ ["n"; "m"] -> ~ queued_dev (w_disk ex_dis) ns "you" 5) /\
  Forall (.∈ ["n"; "m"]) (w_loaded ex_dis) /\
  heeding btbv_named ["n"; "m"] "you" "same" (upholds ["n"; "m"] (w_disk ex_dis) "you" 5 "same" "DISTRUSTED") ex_dis ex_dis_end.1.2 /\
  forallb (fun p => match p with Ret _ => true | _ => false end) ex_dis_end.1.1 = true /\
  used (w_log ex_dis_end.1.2) = [("you", 7%Z)] /\ env_session (w_log ex_dis_end.1.2) "n" "you" 5 = Some (ex_ses Active true).
Proof.
  split; [|split; [|split; [|split; [|split; [|split; [|split; [|split]]]]]]].
  - exact (fun n n' Hn Hn' x => ltac:(apply elem_of_cons in Hn as [->|Hn%elem_of_list_singleton]; [|subst n];
      apply elem_of_cons in Hn' as [->|Hn'%elem_of_list_singleton]; [done|subst n'; done|done|subst n'; done])).
  - intros w c r [H1 H2]. split; [exact H1|]. destruct c; try exact Logic.I. simpl in *. intros _ _ Hl t Ht. subst r.
    unfold btbv_eval in Ht. rewrite Hl in Ht. by injection Ht.
  - split; [exists "c2FtZQ=="; vm_compute; split; reflexivity|vm_compute; reflexivity].
  - assert (forall ns, ns ∈ ["n"; "m"] -> w_disk ex_dis !! item_key (IQueueDevices ns "you") = None) as HN.
    { intros ns Hns. apply elem_of_cons in Hns as [->|Hns%elem_of_list_singleton]; [vm_compute; reflexivity|]. subst ns. vm_compute. reflexivity. }
    intros ns Hns (l & (v & Hv & _) & _). rewrite (HN ns Hns) in Hv. discriminate Hv.
  - assert (w_loaded ex_dis = ["n"; "m"]) as -> by (vm_compute; reflexivity). repeat constructor; set_solver.
  - apply rtc_once. exists ex_dis_ps, ex_dis_end.1. split; [|split; [|split; [reflexivity|split; [reflexivity|]]]].
    + apply Forall_cons_2; [|apply Forall_cons_2; [|apply Forall_cons_2; [|constructor]]].
      * apply he_bind; [|intros; constructor]. apply C93_btbv_partial. intros. apply ex_prompt_heeds.
      * apply he_bind; [apply he_try; apply (he_call _ _ _ (KDecrypt cf_b (ex_msg 5 ex_hi (Some ex_kex)))); [exact Logic.I|discriminate]|].
        intros [a|[]]; constructor.
      * apply he_bind; [|intros; constructor]. apply (he_call _ _ _ (KReplace cf_b "you" 7)); [|discriminate]. by intros [_ ?].
    + exact (areach_preach _ _ _ _ (run_sched_areach (with_contract btbv_named) awaited env_bn _ (ex_dis_ps, ex_dis, None) env_bn_allowed)).
    + assert (w_loaded ex_dis_end.1.2 = ["n"; "m"]) as -> by (vm_compute; reflexivity). repeat constructor; set_solver.
  - vm_compute. reflexivity.
  - vm_compute. reflexivity.
  - vm_compute. reflexivity.
Qed.
(** Answers to devices 5 and 6 are queued when their key is distrusted; both are sent, and device 7 gets the content. *)
Definition btbv_empties (w : world) (c : cmd) (r : resp c) : Prop := btbv_named w c r /\ empties (eq "empty") w c r.
Lemma env_be_allowed w c : allowed (with_contract btbv_empties) w c (env_bn w c).
Proof. destruct (env_bn_allowed w c) as [H1 H2]. split; [exact H1|]. split; [exact H2|]. by destruct c. Qed.
Definition ex_queue : world := (run (with_contract btbv_empties) env_bn
  (set_trust "you" "same" "DISTRUSTED" ;;; set_trust "you" "other" "TRUSTED") ex_w_flush).2.
Definition ex_queue_ps : list (api unit) :=
  [after_history_sync cf_b; encrypt cf_b (btbv_mtd cf_b ex_prompt) ["you"] [("n", "hi"); ("m", "hi")] None None ;;; Ret tt].
Definition ex_queue_end := run_sched (with_contract btbv_empties) awaited env_bn (concat (replicate 150 [0; 1]))%nat (ex_queue_ps, ex_queue, None).
Definition given_keys (l : list event) : list (Z * pkm) :=
  omap (fun e => match e with EvEncKey _ s p _ => Some (s_dev s, p) | EvBuildActive _ j x _ p _ => Some (x, p) | _ => None end) l.
Example C93_content_example :
  marked (w_disk ex_queue) "you" 5 "same" "DISTRUSTED" /\ w_loaded ex_queue = ["n"; "m"] /\
  heeding btbv_empties ["n"; "m"] "you" "same" (upholds ["n"; "m"] (w_disk ex_queue) "you" 5 "same" "DISTRUSTED") ex_queue ex_queue_end.1.2 /\
  forallb (fun p => match p with Ret _ => true | _ => false end) ex_queue_end.1.1 = true /\
  given_keys (w_log ex_queue_end.1.2) = [(7%Z, "km"); (6%Z, "empty"); (5%Z, "empty")].
Proof.
  split; [|split; [|split; [|split]]].
  - split; [exists "c2FtZQ=="; vm_compute; split; reflexivity|vm_compute; reflexivity].
  - vm_compute; reflexivity.
  - apply rtc_once. exists ex_queue_ps, ex_queue_end.1. split; [|split; [|split; [reflexivity|split; [reflexivity|]]]].
    + apply Forall_cons_2; [|apply Forall_cons_2; [|constructor]].
      * apply (he_call _ _ _ (KAfter cf_b)); [exact Logic.I|discriminate].
      * apply he_bind; [|intros; constructor]. apply C93_btbv_partial. intros. apply ex_prompt_heeds.
    + exact (areach_preach _ _ _ _ (run_sched_areach (with_contract btbv_empties) awaited env_bn _ (ex_queue_ps, ex_queue, None) env_be_allowed)).
    + assert (w_loaded ex_queue_end.1.2 = ["n"; "m"]) as -> by (vm_compute; reflexivity). repeat constructor; set_solver.
  - vm_compute. reflexivity.
  - vm_compute. reflexivity.
Qed.
