(** Theorems C54 to C56: history synchronization. Events are listed newest first. *)
From Verif Require Import Api Spec Alone Env Dec PfWp PfEmits PfSync PropsDevices PropsTrust PropsPurge PropsEncrypt PropsDecrypt.
Open Scope prog_scope.
Open Scope string_scope.
Open Scope list_scope.

(** ** C54 *)
(** When after_history_sync returns, it has deleted the hidden pre keys of every loaded backend and then dealt with
    every queued device once ([flushed]: an empty message was sent if there is a session); nothing else was done apart
    from deletions in the storage, and nothing is queued any more. *)
Theorem C54_flush cf w w' : NoDup (w_loaded w) -> ns_separated (w_loaded w) ->
  exec (with_contract sessions_named) (after_history_sync cf) w (Val tt) w' ->
  exists evs (fs : list ((string * string * Z) * list event)),
    w_log w' = evs ++ w_log w /\
    filter (fun e => ~ is_delete e) evs = concat (rev (map snd fs)) ++ rev (map (fun ns => EvDelHidden ns (Val tt)) (w_loaded w)) /\
    Forall (fun f => flushed cf f.1.1.1 f.1.1.2 f.1.2 f.2) fs /\ NoDup (map fst fs) /\
    (forall ns j x, (ns, j, x) ∈ map fst fs <-> ns ∈ w_loaded w /\ queued (w_disk w) ns j x) /\
    (forall ns, ns ∈ w_loaded w -> w_disk w' !! item_key (IQueue ns) = None /\
       forall l j, holds (is_list is_str) (w_disk w) (IQueue ns) l -> j ∈ l -> w_disk w' !! item_key (IQueueDevices ns j) = None) /\
    w_sync w' = false.
Proof. exact (sync_flush cf w w'). Qed.
Print Assumptions C54_flush.
(** sessions exist with devices 5 and 6 of "you", not with device 3 of "her" *)
Definition ex_ses6 : session := Session "n" "you" 6 Active true (Kex "a" "b") (Some 2%Z) 3 "st6".
Definition ex_w_flush : world := World (<[k_queue "n" := j_strs ["you"; "her"]]> (<[k_queue_jid "n" "you" := j_ints [5; 6]%Z]> (<[k_queue_jid "n" "her" := j_ints [3%Z]]> (w_disk ex_w_you))))
  ["n"; "m"] true [EvStoreSession "n" (ex_ses Active true) (Val tt); EvStoreSession "n" ex_ses6 (Val tt)].
Definition flow (r : outcome unit * world) : outcome unit * list did := (r.1, drop 2 (rev (map did_of (w_log r.2)))).
Example C54_example :
  let r := run (with_contract sessions_named) env_n (after_history_sync cf0) ex_w_flush in
  flow r = (Val tt, [DOther; DOther; DOther; DOther; DLoad; DEmpty; DEnc; DSend "you"; DStored "st+"; DLoad; DEmpty; DEnc; DSend "you"; DStored "st6+"; DOther; DLoad; DOther]) /\
  NoDup (w_loaded ex_w_flush) /\ ns_separated (w_loaded ex_w_flush) /\
  exec (with_contract sessions_named) (after_history_sync cf0) ex_w_flush (Val tt) r.2.
Proof.
  assert (NoDup (w_loaded ex_w_flush)) as H1.
  { repeat constructor; simpl; try (by intros ?%elem_of_nil). by intros ?%elem_of_list_singleton. }
  assert (ns_separated (w_loaded ex_w_flush)) as H2.
  { intros n n' Hn Hn' x. simpl in Hn, Hn'. repeat (apply elem_of_cons in Hn as [->|Hn]; [|]); try (by apply elem_of_nil in Hn);
      repeat (apply elem_of_cons in Hn' as [->|Hn']; [|]); try (by apply elem_of_nil in Hn'); done. }
  intros r. pose proof (run_exec (with_contract sessions_named) env_n (after_history_sync cf0) ex_w_flush env_named) as H. fold r in H.
  assert (r.1 = Val tt) as E by (vm_compute; reflexivity). rewrite E in H.
  split; [vm_compute; reflexivity|]. split; [exact H1|]. split; [exact H2|exact H].
Qed.

(** ** C55 *)
(** The queue is removed from the storage before any message is sent (sm:1588-1591, 1597-1602). Here sending the message
    for device 5 fails. Device 6 was never tried, and the next after_history_sync does nothing for either. *)
Definition env_nosend (w : world) (c : cmd) : resp c :=
  match c return resp c with NSend _ _ => Exn EMessageSendingFailed | c => env_n w c end.
Lemma env_nosend_allowed w c : allowed (with_contract sessions_named) w c (env_nosend w c).
Proof. destruct c; try apply env_named. done. Qed.
Theorem C55_retry_refuted : exists cf w w1 w2 l1 l2 ns j x y,
  queued (w_disk w) ns j x /\ queued (w_disk w) ns j y /\ x <> y /\
  exec (with_contract sessions_named) (after_history_sync cf) w (Exn EMessageSendingFailed) w1 /\
  exec (with_contract sessions_named) (after_history_sync cf) w1 (Val tt) w2 /\
  w_log w1 = l1 ++ w_log w /\ w_log w2 = l2 ++ w_log w1 /\
  (exists s, EvLoadSession ns j x (Val (Some s)) ∈ l1) /\
  Forall (fun e => match e with EvLoadSession _ _ z _ => z <> y | _ => True end) l1 /\
  Forall (fun e => match e with EvDelHidden _ _ | EvDelete _ _ => True | _ => False end) l2.
Proof.
  assert (forall x, x ∈ [5; 6]%Z -> queued (w_disk ex_w_flush) "n" "you" x) as Q.
  { intros x Hx. split; [exists ["you"; "her"]|exists [5; 6]%Z]; (split; [eexists; split; [vm_compute; reflexivity|]|]);
      [apply (is_strs ["you"; "her"])|left|apply (is_ints [5; 6]%Z)|exact Hx]. }
  assert (queued (w_disk ex_w_flush) "n" "you" 5) as Q5 by (apply Q; left).
  assert (queued (w_disk ex_w_flush) "n" "you" 6) as Q6 by (apply Q; right; left). clear Q.
  pose (r1 := run (with_contract sessions_named) env_nosend (after_history_sync cf0) ex_w_flush).
  pose (r2 := run (with_contract sessions_named) env_n (after_history_sync cf0) r1.2).
  pose proof (run_exec (with_contract sessions_named) env_nosend (after_history_sync cf0) ex_w_flush env_nosend_allowed) as H1. fold r1 in H1.
  pose proof (run_exec (with_contract sessions_named) env_n (after_history_sync cf0) r1.2 env_named) as H2. fold r2 in H2.
  assert (r1.1 = Exn EMessageSendingFailed) as E1 by (vm_compute; reflexivity). rewrite E1 in H1.
  assert (r2.1 = Val tt) as E2 by (vm_compute; reflexivity). rewrite E2 in H2.
  assert (w_log r1.2 = take 8 (w_log r1.2) ++ w_log ex_w_flush) as L1 by (vm_compute; reflexivity).
  assert (w_log r2.2 = take 4 (w_log r2.2) ++ w_log r1.2) as L2 by (vm_compute; reflexivity).
  assert (take 8 (w_log r1.2) !! 3 = Some (EvLoadSession "n" "you" 5 (Val (Some (ex_ses Active true))))) as L3 by (vm_compute; reflexivity).
  assert (Forall (fun e => match e with EvLoadSession _ _ z _ => z <> 6%Z | _ => True end) (take 8 (w_log r1.2))) as F1.
  { vm_compute. repeat constructor; discriminate. }
  assert (Forall (fun e => match e with EvDelHidden _ _ | EvDelete _ _ => True | _ => False end) (take 4 (w_log r2.2))) as F2.
  { vm_compute. repeat constructor. }
  exists cf0, ex_w_flush, r1.2, r2.2, (take 8 (w_log r1.2)), (take 4 (w_log r2.2)), "n", "you", 5%Z, 6%Z.
  clearbody r1 r2. do 2 (split; [assumption|]). split; [discriminate|]. do 4 (split; [assumption|]).
  split; [|split; assumption]. eexists. exact (elem_of_list_lookup_2 _ _ _ L3).
Qed.
Print Assumptions C55_retry_refuted.
(** However after_history_sync is interrupted or fails: what was queued for a backend whose queue it has not yet deleted
    is dealt with by the next successful call. Missing: the devices of the backend whose queue has been deleted. *)
Theorem C55_retry_partial cf w w1 w2 ns j x : NoDup (w_loaded w) -> ns_separated (w_loaded w) ->
  reach (with_contract sessions_named) (after_history_sync cf) w w1 ->
  exec (with_contract sessions_named) (after_history_sync cf) w1 (Val tt) w2 -> ns ∈ w_loaded w -> queued (w_disk w) ns j x ->
  exists e1 e2, w_log w1 = e1 ++ w_log w /\ w_log w2 = e2 ++ w_log w1 /\
    (EvDelete (item_key (IQueue ns)) (Val tt) ∈ e1 \/
     exists b pre post, flushed cf ns j x b /\ filter (fun e => ~ is_delete e) e2 = post ++ b ++ pre).
Proof. exact (sync_retry cf w w1 w2 ns j x). Qed.
Print Assumptions C55_retry_partial.
(** deleting the hidden pre keys of the second backend fails; the next call sends both messages *)
Definition env_nohide (w : world) (c : cmd) : resp c :=
  match c return resp c with BDelHidden ns => if decide (ns = "m") then Exn EBackend else Val tt | c => env_n w c end.
Example C55_example :
  let r := run (with_contract sessions_named) env_nohide (after_history_sync cf0) ex_w_flush in
  flow r = (Exn EBackend, [DOther; DOther]) /\
  flow (run (with_contract sessions_named) env_n (after_history_sync cf0) r.2) =
    (Val tt, [DOther; DOther; DOther; DOther; DOther; DOther; DLoad; DEmpty; DEnc; DSend "you"; DStored "st+"; DLoad; DEmpty; DEnc; DSend "you"; DStored "st6+"; DOther; DLoad; DOther]).
Proof. vm_compute. repeat split. Qed.

(** ** C56 *)
(** decrypt has read that history synchronization is going on and added the account to the queue; then the whole of
    after_history_sync runs; then decrypt adds the device. The response is neither sent nor queued. *)
Theorem C56_lost_refuted : exists m w w' n,
  areach (with_contract sessions_named) awaited ([decrypt cf0 m ;;; Ret tt; after_history_sync cf0], w, None) ([Ret tt; Ret tt], w', n) /\
  w_sync w = true /\ w_sync w' = false /\ w_log w = [] /\ (exists e k, m_keys m = [e; (k, Some ex_kex)] /\ given cf0 m k (Some ex_kex)) /\
  Forall (fun e => match e with EvSend _ _ _ => False | _ => True end) (w_log w') /\
  ~ queued (w_disk w') (m_ns m) (m_jid m) (m_dev m).
Proof.
  assert (exists e k, m_keys (ex_msg 5 ex_hi (Some ex_kex)) = [e; (k, Some ex_kex)] /\ given cf0 (ex_msg 5 ex_hi (Some ex_kex)) k (Some ex_kex)) as G.
  { exists (Ekm "you" 9 "other", None), (Ekm "me" 1 "k"). split; [reflexivity|]. split; [right; left|]. split; reflexivity. }
  pose (ps := [decrypt cf0 (ex_msg 5 ex_hi (Some ex_kex)) ;;; Ret tt; after_history_sync cf0]).
  pose (A := (replicate 33 0 ++ replicate 200 1 ++ replicate 200 0)%nat).
  pose (s := run_sched (with_contract sessions_named) awaited env_n A (ps, ex_w_sync, None)).
  pose proof (run_sched_areach (with_contract sessions_named) awaited env_n A (ps, ex_w_sync, None) env_named) as H. fold s in H.
  assert (s = ([Ret tt; Ret tt], s.1.2, s.2)) as E by (vm_compute; reflexivity).
  assert (w_disk s.1.2 !! item_key (IQueue "n") = None) as Eq by (vm_compute; reflexivity).
  assert (w_sync s.1.2 = false) as Es by (vm_compute; reflexivity).
  assert (Forall (fun e => match e with EvSend _ _ _ => False | _ => True end) (w_log s.1.2)) as F by (vm_compute; repeat constructor).
  exists (ex_msg 5 ex_hi (Some ex_kex)), ex_w_sync, s.1.2, s.2.
  split; [rewrite E in H; exact H|]. split; [done|]. split; [exact Es|]. split; [done|]. split; [exact G|]. split; [exact F|].
  clearbody s. intros [(l & (v & El & Hl) & Hx) _]. cbn [m_ns m_jid m_dev ex_msg] in *. rewrite Eq in El. discriminate.
Qed.
Print Assumptions C56_lost_refuted.
(** after_history_sync runs before decrypt adds anything: the device stays in the queue although the synchronization is
    over, and no message is sent. *)
Theorem C56_stranded_refuted : exists m w w' n,
  areach (with_contract sessions_named) awaited ([decrypt cf0 m ;;; Ret tt; after_history_sync cf0], w, None) ([Ret tt; Ret tt], w', n) /\
  w_sync w = true /\ w_sync w' = false /\ w_log w = [] /\
  Forall (fun e => match e with EvSend _ _ _ => False | _ => True end) (w_log w') /\
  queued (w_disk w') (m_ns m) (m_jid m) (m_dev m).
Proof.
  pose (ps := [decrypt cf0 (ex_msg 5 ex_hi (Some ex_kex)) ;;; Ret tt; after_history_sync cf0]).
  pose (A := (replicate 31 0 ++ replicate 200 1 ++ replicate 200 0)%nat).
  pose (s := run_sched (with_contract sessions_named) awaited env_n A (ps, ex_w_sync, None)).
  pose proof (run_sched_areach (with_contract sessions_named) awaited env_n A (ps, ex_w_sync, None) env_named) as H. fold s in H.
  assert (s = ([Ret tt; Ret tt], s.1.2, s.2)) as E by (vm_compute; reflexivity).
  assert (w_disk s.1.2 !! item_key (IQueue "n") = Some (j_strs ["you"])) as Eq by (vm_compute; reflexivity).
  assert (w_disk s.1.2 !! item_key (IQueueDevices "n" "you") = Some (j_ints [5%Z])) as Eq' by (vm_compute; reflexivity).
  assert (w_sync s.1.2 = false) as Es by (vm_compute; reflexivity).
  assert (Forall (fun e => match e with EvSend _ _ _ => False | _ => True end) (w_log s.1.2)) as F by (vm_compute; repeat constructor).
  exists (ex_msg 5 ex_hi (Some ex_kex)), ex_w_sync, s.1.2, s.2.
  split; [rewrite E in H; exact H|]. split; [done|]. split; [exact Es|]. split; [done|]. split; [exact F|].
  clearbody s. split; [exists ["you"]|exists [5%Z]]; (split; [eexists; split; [first [exact Eq|exact Eq']|]|left]); [apply is_strs|apply is_ints].
Qed.
Print Assumptions C56_stranded_refuted.
(** When the calls do not overlap: a decrypt that has returned before after_history_sync starts gets its response sent by
    after_history_sync (if the session is still there), a decrypt started afterwards sends it. Missing: overlapping calls. *)
Theorem C56_decrypt_first_partial cf m pt d p w w1 w2 : NoDup (w_loaded w) -> ns_separated (w_loaded w) -> w_sync w = true ->
  exec (with_contract sessions_named) (decrypt cf m) w (Val (pt, d, p)) w1 ->
  exec (with_contract sessions_named) (after_history_sync cf) w1 (Val tt) w2 ->
  exists e mk s l l2, given cf m e mk /\ w_log w1 = l ++ w_log w /\ w_log w2 = l2 ++ w_log w1 /\
    EvStoreSession (m_ns m) s (Val tt) ∈ l /\ opened m d e mk l s p /\
    (mk <> None \/ (exists n, s_rcl s = Some n /\ (53 < n)%Z) ->
     exists b pre post, flushed cf (m_ns m) (m_jid m) (m_dev m) b /\ filter (fun e => ~ is_delete e) l2 = post ++ b ++ pre).
Proof. exact (dec_then_sync cf m pt d p w w1 w2). Qed.
Print Assumptions C56_decrypt_first_partial.
Theorem C56_sync_first_partial cf m pt d p w w1 : w_sync w = false ->
  exec (with_contract sessions_named) (decrypt cf m) w (Val (pt, d, p)) w1 ->
  exists e mk s resp rest, given cf m e mk /\ w_log w1 = resp ++ rest ++ w_log w /\
    EvStoreSession (m_ns m) s (Val tt) ∈ rest /\ opened m d e mk rest s p /\
    (mk <> None \/ (exists n, s_rcl s = Some n /\ (53 < n)%Z) -> exists c p' s' k, resp = [EvStoreSession (m_ns m) s' (Val tt);
      EvSend (Message (m_ns m) (c_jid cf) (c_dev cf) c [(k, kex_due s')]) (s_jid s') (Val tt);
      EvEncKey (m_ns m) s p' (Val (s', k)); EvEncEmpty (m_ns m) (Val (c, p'))]).
Proof. exact (sync_then_dec cf m pt d p w w1). Qed.
Print Assumptions C56_sync_first_partial.
Example C56_example :
  let r := run (with_contract sessions_named) env_n (decrypt cf0 (ex_msg 5 ex_hi (Some ex_kex))) ex_w_sync in
  let r' := run (with_contract sessions_named) env_n (after_history_sync cf0) r.2 in
  let q := run (with_contract sessions_named) env_n (decrypt cf0 (ex_msg 5 ex_hi (Some ex_kex))) (run (with_contract sessions_named) env_n (after_history_sync cf0) ex_w_sync).2 in
  (show r).1 = (None, Some "hi") /\ w_sync r.2 = true /\ flow (r'.1, r'.2) =
    (Val tt, [DBuild; DRead; DStored "p:same"; DHide; DCount; DBundle; DUpload; DQueue "/queue/n"; DQueue "/queue/n/you"; DOther; DOther;
              DOther; DOther; DLoad; DEmpty; DEnc; DSend "you"; DStored "p:same+"; DOther]) /\
  w_sync q.2 = false /\ drop 4 (show q).2 = [DTrust 5; DLoad; DBuild; DRead; DStored "p:same"; DDelete; DCount; DBundle; DUpload; DEmpty; DEnc; DSend "you"; DStored "p:same+"].
Proof. vm_compute. repeat split. Qed.
