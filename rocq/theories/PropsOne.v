(** C42, C77, C78 and C85 with several coroutines, when one of them does all the work concerned. Vocabulary in One.v; events
    are listed newest first. *)
From Verif Require Import Api Spec Alone Env Foot Dec Publish One PfAlone PfFoot PfOne PfOne2 PfOne3 PropsDevices PropsTrust PropsPurge PropsEncrypt
  PropsDecrypt PropsRot PropsPublish.
Open Scope prog_scope.
Open Scope string_scope.
Open Scope list_scope.

(** ** C42 *)
(** One coroutine calls encrypt, the others make no call that stores or deletes sessions: once encrypt has returned, every
    session it built or used is stored as the encryption left it, whatever the others did and do. Missing: several coroutines
    encrypting or decrypting, see C42_concurrent_refuted; calls that fail. *)
Theorem C42_one_user_partial (P : world -> forall c, resp c -> Prop) cf mtd ident pt priority bare_jids i ps w ps' w' :
  (forall w c r, P w c r -> sessions_kept w c r) -> NoDup (w_loaded w) -> (forall ds id, appcode (fun _ => True) (mtd ds id)) ->
  ps !! i = Some (encrypt cf mtd bare_jids pt priority ident ;;; Ret tt) ->
  (forall n p, n <> i -> ps !! n = Some p -> libcode (fun c => ~ stores_sessions c) p) ->
  preach (with_contract P) (ps, w) (ps', w') -> ps' !! i = Some (Ret tt) ->
  exists own all pre dec post, w_log w' = all ++ w_log w /\
    merged (fun e => match e with EvStoreSession _ _ _ | EvPurge _ _ | EvPurgeJid _ _ _ => False | _ => True end) own all /\
    own = post ++ dec ++ pre /\ Forall enc_pre pre /\ Forall enc_post post /\
    (forall en, en ∈ encs post -> last_session (w_log w') (en_ns en) (en_jid en) (en_dev en) = Some (en_session en)) /\
    forall ns s p s' k, EvEncKey ns s p (Val (s', k)) ∈ post -> Enc ns (s_jid s) (s_dev s) s' k ∈ encs post.
Proof. exact (one_advanced P cf mtd ident pt priority bare_jids i ps w ps' w'). Qed.
Print Assumptions C42_one_user_partial.

(** Schedules of the examples: the coroutines take turns. *)
Definition turns : list nat := concat (replicate 200 [0; 1])%nat.
Definition ex_asks : api unit := get_device_information cf0 "you" ;;; set_trust "you" "same" "TRUSTED" ;;; get_device_information cf0 "me" ;;; Ret tt.
Lemma ex_asks_code (ok : call -> Prop) : ok (KGetInfo cf0 "you") -> ok (KSetTrust "you" "same" "TRUSTED") -> ok (KGetInfo cf0 "me") -> libcode ok ex_asks.
Proof.
  intros H1 H2 H3. unfold ex_asks.
  apply app_bind; [by apply (app_call' _ _ (KGetInfo cf0 "you"))|intros _]. apply app_bind; [by apply (app_call' _ _ (KSetTrust "you" "same" "TRUSTED"))|intros _].
  apply app_bind; [by apply (app_call' _ _ (KGetInfo cf0 "me"))|intros _]. apply app_ret.
Qed.
Definition ex_one_enc : list (api unit) := [encrypt cf0 ignore ["you"] ex_pt None None ;;; Ret tt; ex_asks].
Definition ex_one_enc_end := run_sched (with_contract sessions_kept) awaited env turns (ex_one_enc, ex_w_ses, None).
Example C42_one_example :
  NoDup (w_loaded ex_w_ses) /\ libcode (fun c => ~ stores_sessions c) ex_asks /\
  preach (with_contract sessions_kept) (ex_one_enc, ex_w_ses) ex_one_enc_end.1 /\ ex_one_enc_end.1.1 = [Ret tt; Ret tt] /\
  last_session (w_log ex_one_enc_end.1.2) "n" "you" 5 = Some (advance (ex_ses Active true)).
Proof.
  split; [change (NoDup ["n"; "m"]); repeat constructor; set_solver|].
  split; [apply ex_asks_code; by intros []|].
  split; [exact (areach_preach _ _ _ _ (run_sched_areach (with_contract sessions_kept) awaited env turns (ex_one_enc, ex_w_ses, None) env_kept))|].
  split; vm_compute; reflexivity.
Qed.

(** ** C77 *)
(** One coroutine makes any calls except create, the others make no call that may fill up the pre keys of the backend: there
    are never more than 100 of them. Missing: several coroutines receiving messages of the backend, see
    C77_concurrent_refill_refuted; create. *)
Theorem C77_one_refiller_partial (P : world -> forall c, resp c -> Prop) ns i p ps w ps' w' :
  (forall w c r, P w c r -> prekeys_counted w c r) -> (forall w n v, P w (BNumVisible n) (Val v) -> (0 <= v)%Z) ->
  ps !! i = Some p -> libcode not_create p ->
  (forall n q, n <> i -> ps !! n = Some q -> libcode (fun c => ~ refills ns c) q) ->
  preach (with_contract P) (ps, w) (ps', w') -> (visible ns (w_log w) <= 100)%Z -> (visible ns (w_log w') <= 100)%Z.
Proof. exact (one_refiller P ns i p ps w ps' w'). Qed.
Print Assumptions C77_one_refiller_partial.
Definition counted (w : world) (c : cmd) (r : resp c) : Prop :=
  prekeys_counted w c r /\ match c return resp c -> Prop with BNumVisible _ => fun r => match r with Val v => (0 <= v)%Z | Exn _ => True end | _ => fun _ => True end r.
Definition env_count (w : world) (c : cmd) : resp c :=
  match c return resp c with
  | BNumVisible n => if (0 <=? visible n (w_log w))%Z then Val (visible n (w_log w)) else Exn EKeyExchangeFailed
  | c => env w c
  end.
Lemma env_count_allowed w c : allowed (with_contract counted) w c (env_count w c).
Proof.
  split; [destruct c; try apply env_allowed; simpl; by case_match|]. destruct c; try done. unfold env_count.
  destruct (Z.leb_spec 0 (visible ns (w_log w))); done.
Qed.
(** Receiving two messages of backend n while a message of m is received. *)
Definition ex_msg_m : message := Message "m" "you" 6 ex_hi [(Ekm "me" 1 "k", Some ex_kex)].
Definition ex_one_pk : list (api unit) :=
  [(decrypt cf0 (ex_msg 5 ex_hi (Some ex_kex)) ;;; decrypt cf0 (ex_msg 6 ex_hi (Some ex_kex)) ;;; Ret tt);
   (decrypt cf0 ex_msg_m ;;; ex_asks)].
Definition ex_one_pk_end := run_sched (with_contract counted) awaited env_count turns (ex_one_pk, ex_w_pk 51 false, None).
Example C77_one_example :
  Forall (fun p => libcode not_create p) ex_one_pk /\ (forall p, ex_one_pk !! 1%nat = Some p -> libcode (fun c => ~ refills "n" c) p) /\
  preach (with_contract counted) (ex_one_pk, ex_w_pk 51 false) ex_one_pk_end.1 /\ ex_one_pk_end.1.1 = [Ret tt; Ret tt] /\
  visible "n" (w_log (ex_w_pk 51 false)) = 51%Z /\ visible "n" (w_log ex_one_pk_end.1.2) = 99%Z /\ visible "m" (w_log ex_one_pk_end.1.2) = 99%Z.
Proof.
  assert (forall (ok : call -> Prop), ok (KDecrypt cf0 ex_msg_m) -> ok (KGetInfo cf0 "you") -> ok (KSetTrust "you" "same" "TRUSTED") -> ok (KGetInfo cf0 "me") ->
    libcode ok (decrypt cf0 ex_msg_m ;;; ex_asks)) as H2.
  { intros ok A B C D. apply app_bind; [by apply (app_call' _ _ (KDecrypt cf0 ex_msg_m))|intros _]. by apply ex_asks_code. }
  split; [|split; [|split; [exact (areach_preach _ _ _ _ (run_sched_areach (with_contract counted) awaited env_count turns (ex_one_pk, ex_w_pk 51 false, None) env_count_allowed))|]]].
  - constructor; [|constructor; [by apply H2|constructor]].
    apply app_bind; [by apply (app_call' _ _ (KDecrypt cf0 (ex_msg 5 ex_hi (Some ex_kex))))|intros _].
    apply app_bind; [by apply (app_call' _ _ (KDecrypt cf0 (ex_msg 6 ex_hi (Some ex_kex))))|intros _]. apply app_ret.
  - intros p [= <-]. apply H2; [discriminate|by intros []..].
  - split; [vm_compute; reflexivity|]. split; [vm_compute; reflexivity|]. split; vm_compute; reflexivity.
Qed.

(** ** C78 *)
(** One coroutine receives a message in history synchronization mode, the others do not use the queue of answers nor change
    the mode: once decrypt has returned, the device is queued if an answer is due, and stays so. Missing: several coroutines
    receiving messages, see C78_concurrent_queue_refuted. *)
Theorem C78_one_user_partial (P : world -> forall c, resp c -> Prop) cf m i ps w ps' w' :
  (forall w c r, P w c r -> sessions_named w c r) -> w_sync w = true ->
  ps !! i = Some (decrypt cf m ;;; Ret tt) ->
  (forall n q, n <> i -> ps !! n = Some q -> libcode (fun c => ~ uses_queue c) q) ->
  preach (with_contract P) (ps, w) (ps', w') -> ps' !! i = Some (Ret tt) ->
  exists e mk s d p l, given cf m e mk /\ w_log w' = l ++ w_log w /\ EvStoreSession (m_ns m) s (Val tt) ∈ l /\ opened m d e mk l s p /\
    (response_due mk s -> queued (w_disk w') (m_ns m) (m_jid m) (m_dev m)).
Proof. exact (one_queued P cf m i ps w ps' w'). Qed.
Print Assumptions C78_one_user_partial.
Definition ex_one_q : list (api unit) := [ex_asks; decrypt cf0 (ex_msg 6 ex_hi (Some ex_kex)) ;;; Ret tt].
Definition ex_one_q_end := run_sched (with_contract sessions_named) awaited env_n turns (ex_one_q, ex_w_sync, None).
Example C78_one_example :
  w_sync ex_w_sync = true /\ libcode (fun c => ~ uses_queue c) ex_asks /\
  preach (with_contract sessions_named) (ex_one_q, ex_w_sync) ex_one_q_end.1 /\ ex_one_q_end.1.1 = [Ret tt; Ret tt] /\
  w_disk ex_one_q_end.1.2 !! k_queue "n" = Some (j_strs ["you"]) /\ w_disk ex_one_q_end.1.2 !! k_queue_jid "n" "you" = Some (j_ints [6%Z]).
Proof.
  split; [done|]. split; [apply ex_asks_code; by intros []|].
  split; [exact (areach_preach _ _ _ _ (run_sched_areach (with_contract sessions_named) awaited env_n turns (ex_one_q, ex_w_sync, None) env_named))|].
  split; [vm_compute; reflexivity|]. split; vm_compute; reflexivity.
Qed.

(** The same for any number of messages received one after another: at every moment whatever was queued for a namespace that
    does not extend the others by a slash is still queued, and once all messages are received every device that sent a key
    exchange is queued, also those of earlier messages. *)
Theorem C78_one_sequence_partial (P : world -> forall c, resp c -> Prop) cf ms i ps w ps' w' :
  (forall w c r, P w c r -> sessions_named w c r) ->
  ps !! i = Some (for_each ms (fun m => decrypt cf m ;;; Ret tt)) ->
  (forall n q, n <> i -> ps !! n = Some q -> libcode (fun c => ~ uses_queue c) q) ->
  preach (with_contract P) (ps, w) (ps', w') ->
  (forall n j x, ns_separated (n :: (m_ns <$> ms)) -> queued (w_disk w) n j x -> queued (w_disk w') n j x) /\
  (ns_separated (m_ns <$> ms) -> w_sync w = true -> ps' !! i = Some (Ret tt) ->
   forall m, m ∈ ms -> (forall e mk, given cf m e mk -> mk <> None) -> queued (w_disk w') (m_ns m) (m_jid m) (m_dev m)).
Proof. exact (one_sequence P cf ms i ps w ps' w'). Qed.
Print Assumptions C78_one_sequence_partial.
Definition ex_one_qs : list (api unit) :=
  [ex_asks; for_each [ex_msg 5 ex_hi (Some ex_kex); ex_msg 6 ex_hi (Some ex_kex)] (fun m => decrypt cf0 m ;;; Ret tt)].
Definition ex_one_qs_end := run_sched (with_contract sessions_named) awaited env_n turns (ex_one_qs, ex_w_sync, None).
Example C78_one_sequence_example :
  libcode (fun c => ~ uses_queue c) ex_asks /\ ns_separated ["n"; "n"] /\
  preach (with_contract sessions_named) (ex_one_qs, ex_w_sync) ex_one_qs_end.1 /\ ex_one_qs_end.1.1 = [Ret tt; Ret tt] /\
  w_disk ex_one_qs_end.1.2 !! k_queue "n" = Some (j_strs ["you"]) /\ w_disk ex_one_qs_end.1.2 !! k_queue_jid "n" "you" = Some (j_ints [5; 6]%Z).
Proof.
  split; [apply ex_asks_code; by intros []|]. split.
  { intros a b Ha Hb x. assert (forall y, y ∈ ["n"; "n"] -> y = "n") as Hy by set_solver. rewrite (Hy _ Ha), (Hy _ Hb). done. }
  split; [exact (areach_preach _ _ _ _ (run_sched_areach (with_contract sessions_named) awaited env_n turns (ex_one_qs, ex_w_sync, None) env_named))|].
  split; [vm_compute; reflexivity|]. split; vm_compute; reflexivity.
Qed.

(** ** C85 *)
(** One coroutine makes any calls except create, the others make no call that publishes bundles or changes pre keys: every
    bundle is up to date when it is uploaded. Missing: two coroutines publishing, see C85_concurrent_refuted; create. *)
Theorem C85_one_publisher_partial (P : world -> forall c, resp c -> Prop) i p ps w ps' w' :
  ps !! i = Some p -> libcode (fun c => not_create c /\ plain_decision c) p ->
  (forall n q, n <> i -> ps !! n = Some q -> libcode (fun c => ~ publishes c) q) ->
  preach (with_contract P) (ps, w) (ps', w') ->
  exists evs, w_log w' = evs ++ w_log w /\
    traced (fun e before => match e with EvUploadBundle b _ => exists ns, current ns b before | _ => True end) evs.
Proof. exact (one_current P i p ps w ps' w'). Qed.
Print Assumptions C85_one_publisher_partial.
Definition ex_one_pub : list (api unit) :=
  [try_ (rotation cf0 1 8) ;;; decrypt cf0 (ex_msg 5 ex_hi (Some ex_kex)) ;;; Ret tt; encrypt cf0 ignore ["you"] ex_pt None None ;;; ex_asks].
Lemma env_v_anything w c : allowed (with_contract anything) w c (env_v w c).
Proof. split; [apply env_v_allowed|done]. Qed.
Definition ex_one_pub_end := run_sched (with_contract anything) awaited env_v turns (ex_one_pub, ex_w_you, None).
Example C85_one_example :
  (forall p, ex_one_pub !! 0%nat = Some p -> libcode (fun c => not_create c /\ plain_decision c) p) /\
  (forall p, ex_one_pub !! 1%nat = Some p -> libcode (fun c => ~ publishes c) p) /\
  preach (with_contract anything) (ex_one_pub, ex_w_you) ex_one_pub_end.1 /\
  moves (w_log ex_one_pub_end.1.2) =
    ["rotate n"; "bundle 1"; "upload 1"; "rotate m"; "bundle 1"; "upload 1"; "delete n"; "generate 93"; "bundle 3"; "upload 3"].
Proof.
  split; [|split; [|split; [exact (areach_preach _ _ _ _ (run_sched_areach (with_contract anything) awaited env_v turns (ex_one_pub, ex_w_you, None) env_v_anything))|]]].
  - intros p [= <-]. apply app_bind; [apply (app_try _ _ _ (run_call (KRotation cf0 1 8))), app_call'; done|intros _].
    apply app_bind; [by apply (app_call' _ _ (KDecrypt cf0 (ex_msg 5 ex_hi (Some ex_kex))))|intros _]. apply app_ret.
  - intros p [= <-]. apply app_bind; [apply (app_call _ _ (KEncrypt cf0 ignore ["you"] ex_pt None None)); [by intros []|]|intros _; apply ex_asks_code; by intros []].
    intros ?????? [= <- <- <- <- <- <-] ds id. apply app_ret.
  - vm_compute. reflexivity.
Qed.
