(** Theorems C44 to C53: decrypt. [alone P] (Alone.v) is a single call with any concurrent activity, [with_contract P] a
    call with nothing else going on. Events are listed newest first. *)
From Verif Require Import Api Spec Alone Env Dec PfAlone PfLog PfDec5 PfDec6 PfDec4 PfEmits PfWp PropsDevices PropsTrust PropsPurge PropsEncrypt.
Open Scope prog_scope.
Open Scope string_scope.
Open Scope list_scope.

(** ** Examples: "you" has devices 5, 6 and 7, with identity key "same". Messages carry key material for device 9 of
    "you" and for this device, device 1 of "me". *)
Definition ex_msg (x : Z) (c : content) (k : option kex) : message := Message "n" "you" x c [(Ekm "you" 9 "other", None); (Ekm "me" 1 "k", k)].
Definition ex_hi : content := Content false "hi".
Definition ex_kex : kex := Kex "same" "r".
(** what happened: the logged calls, oldest first *)
Inductive did := DLookup | DTrust (x : Z) | DLoad | DSame | DOpen | DBuild | DRead | DStored (s : string) | DHide | DDelete | DCount | DGenerate (n : Z) | DBundle | DUpload | DEmpty | DEnc | DSend (j : string) | DQueue (k : string) | DOther.
Definition did_of (e : event) : did :=
  match e with
  | EvStore k _ _ => DQueue k | EvDownloadBundle _ _ _ _ | EvDownloadDL _ _ _ | EvUploadDL _ _ _ => DLookup
  | EvEval d _ => DTrust (dv_id d) | EvLoadSession _ _ _ _ => DLoad | EvSame _ _ _ => DSame | EvDecKey _ _ _ _ => DOpen
  | EvBuildPassive _ _ _ _ _ _ => DBuild | EvDecPlain _ _ _ _ => DRead | EvStoreSession _ s _ => DStored (s_state s)
  | EvHide _ _ _ => DHide | EvDeletePk _ _ _ => DDelete | EvNumVisible _ _ => DCount | EvGenerate _ n _ => DGenerate n
  | EvGetBundle _ _ _ _ => DBundle | EvUploadBundle _ _ => DUpload | EvEncEmpty _ _ => DEmpty | EvEncKey _ _ _ _ => DEnc
  | EvSend _ j _ => DSend j | _ => DOther
  end.
Definition show (r : outcome (option bytes * device * pkm) * world) : (option exn * option bytes) * list did :=
  (match r.1 with Val (pt, _, _) => (None, pt) | Exn x => (Some x, None) end, rev (map did_of (w_log r.2))).
Definition ex_w (w : world) : world := World (w_disk w) (w_loaded w) (w_sync w) [].
Definition ex_w_sync : world := World (w_disk ex_w_you) ["n"; "m"] true [].
(** trust levels are evaluated as in the encrypt examples *)
Definition dec (w : world) (m : message) : (option exn * option bytes) * list did := show (run base env_t (decrypt cf0 m) w).

(** ** C44 *)
(** Before the sending device has been accepted, only the sender is looked up. Trust is evaluated at most once. *)
Theorem C44_sessions_after_trust (P : world -> forall c, resp c -> Prop) cf m evs : reach (alone P) (decrypt cf m) [] evs ->
  length (List.filter is_eval evs) <= 1 /\
  traced (fun ev before => lookup_ev cf m ev \/ is_eval ev = true \/ exists d, accepted m before d) evs.
Proof. exact (dec_trust P cf m evs). Qed.
Print Assumptions C44_sessions_after_trust.
Theorem C44_distrusted (P : world -> forall c, resp c -> Prop) cf m d o evs :
  exec (alone P) (decrypt cf m) [] o evs -> EvEval d (Val Distrusted) ∈ evs ->
  o = Exn ESenderDistrusted /\ exists pre, evs = EvEval d (Val Distrusted) :: pre /\ Forall (lookup_ev cf m) pre.
Proof. exact (dec_distrusted P cf m d o evs). Qed.
Print Assumptions C44_distrusted.
(** With nothing else going on, the evaluated device is the recorded one, with the trust level in force. *)
Theorem C44_recorded (P : world -> forall c, resp c -> Prop) cf m w w' evs d r :
  reach (with_contract P) (decrypt cf m) w w' -> w' = after evs w -> EvEval d r ∈ evs ->
  recorded cf (w_disk w') d /\ dkey d = (m_jid m, m_dev m).
Proof.
  intros H Hw Hin. split; [by apply (dec_found P cf m w w' evs d r H Hw Hin)|].
  destruct (dec_after_reach P cf m w w' H) as (evs' & E & Ha). assert (evs' = evs) as ->.
  { subst w'. apply (f_equal w_log) in E. simpl in E. by apply app_inv_tail in E. }
  by eapply dec_eval_sender.
Qed.
Print Assumptions C44_recorded.
Example C44_example :
  let w := (run base env (set_trust "you" "same" "NO") ex_w_you).2 in
  dec (ex_w w) (ex_msg 5 ex_hi (Some ex_kex)) = (Some ESenderDistrusted, None, [DTrust 5]) /\
  (dec (ex_w ex_w_keys) (ex_msg 5 ex_hi (Some ex_kex))).1 = (None, Some "hi").
Proof. vm_compute. repeat split. Qed.

(** ** C45 *)
(** Every use of a key exchange: with the identity key of the accepted device. Existing sessions too are only used then. *)
Theorem C45_identity_key (P : world -> forall c, resp c -> Prop) cf m evs : reach (alone P) (decrypt cf m) [] evs ->
  traced (fun ev before => match ev with
    | EvSame a k r => exists d e, accepted m before d /\ given cf m e (Some k) /\ kx_ik k = dv_ik d
    | EvBuildPassive n j x k e r => exists d, accepted m before d /\ given cf m e (Some k) /\ kx_ik k = dv_ik d /\ n = m_ns m /\ dkey d = (j, x)
    | EvDecKey n s e r => exists d mk, accepted m before d /\ given cf m e mk /\ n = m_ns m /\
        EvLoadSession (m_ns m) (dv_jid d) (dv_id d) (Val (Some s)) ∈ before /\
        match mk with
        | None => True
        | Some k => kx_ik k = dv_ik d /\ s_init s = Passive /\ EvSame (s_kex s) k true ∈ before
        end
    | _ => True
    end) evs.
Proof. exact (dec_keys P cf m evs). Qed.
Print Assumptions C45_identity_key.
Theorem C45_inconsistent (P : world -> forall c, resp c -> Prop) cf m d t o evs :
  exec (alone P) (decrypt cf m) [] o evs -> EvEval d (Val t) ∈ evs -> t <> Distrusted ->
  (forall e mk, given cf m e mk -> exists k, mk = Some k /\ kx_ik k <> dv_ik d) ->
  o = Exn EPublicDataInconsistency /\ exists pre, evs = EvEval d (Val t) :: pre /\ Forall (lookup_ev cf m) pre.
Proof. exact (dec_inconsistent P cf m d t o evs). Qed.
Print Assumptions C45_inconsistent.
(** The identity key is the one recorded before, if any. *)
Theorem C45_recorded_key (P : world -> forall c, resp c -> Prop) cf m w w' evs d r ik :
  reach (with_contract P) (decrypt cf m) w w' -> w' = after evs w -> EvEval d r ∈ evs ->
  keyed (w_disk w') (m_jid m) (m_dev m) (dv_ik d) /\ (keyed (w_disk w) (m_jid m) (m_dev m) ik -> dv_ik d = ik).
Proof.
  intros H Hw Hin. destruct (C44_recorded P cf m w w' evs d r H Hw Hin) as [(_ & H1 & _) [= E1 E2]]. rewrite E1, E2 in H1. split; [done|].
  destruct (dec_found P cf m w w' evs d r H Hw Hin) as (_ & H2 & _). apply H2.
Qed.
Print Assumptions C45_recorded_key.
Example C45_example :
  dec ex_w_you (ex_msg 5 ex_hi (Some (Kex "other" "r"))) = (Some EPublicDataInconsistency, None, [DTrust 5]) /\
  keyed (w_disk ex_w_you) "you" 5 "same".
Proof. split; [vm_compute; reflexivity|]. exists (b64enc "same"). split; vm_compute; reflexivity. Qed.

(** ** C46 *)
Theorem C46_not_for_us (P : world -> forall c, resp c -> Prop) cf m o evs :
  exec (alone P) (decrypt cf m) [] o evs -> (forall e mk, ~ given cf m e mk) ->
  evs = [] /\ (o = Exn EMessageNotForUs \/ (o = Exn EUnknownNamespace /\ exists l, answer P GLoaded l /\ m_ns m ∉ l)).
Proof. exact (dec_not_for_us P cf m o evs). Qed.
Print Assumptions C46_not_for_us.
(** If no device was found, nothing but the lookup happened; the list is downloaded at most once. *)
Theorem C46_sender_not_found (P : world -> forall c, resp c -> Prop) cf m o evs :
  exec (alone P) (decrypt cf m) [] o evs -> Forall (fun e => is_eval e = false) evs ->
  Forall (lookup_ev cf m) evs /\ length (List.filter is_list_download evs) <= 1 /\ exists x, o = Exn x.
Proof.
  intros H Hn. destruct (dec_unknown P cf m o evs H Hn) as [H1 H2]. split; [done|]. split; [|done].
  by eapply dec_downloads, exec_reach.
Qed.
Print Assumptions C46_sender_not_found.
(** With nothing else going on: an unknown device that is not on the downloaded list. *)
Theorem C46_unknown_sender (P : world -> forall c, resp c -> Prop) cf m o w w' :
  exec (with_contract P) (decrypt cf m) w o w' -> (exists e mk, given cf m e mk) -> m_ns m ∈ w_loaded w ->
  (forall evs dl, w_log w' = evs ++ w_log w -> EvDownloadDL (m_ns m) (m_jid m) (Val dl) ∈ evs -> m_dev m ∉ dkeys dl) ->
  ~ known (w_disk w) (m_jid m) (m_dev m) ->
  exists evs x, w' = after evs w /\ Forall (lookup_ev cf m) evs /\ length (List.filter is_list_download evs) <= 1 /\ o = Exn x /\
    (x = ESenderNotFound \/ exists w1 w2, exec (with_contract P) (get_device_information cf (m_jid m)) w1 (Exn x) w2 \/
       exec (with_contract P) (refresh_device_list cf (m_ns m) (m_jid m)) w1 (Exn x) w2).
Proof. exact (dec_unknown_sender P cf m o w w'). Qed.
Print Assumptions C46_unknown_sender.
(** A recorded device is not looked up on the network again; an unknown one has to be on the downloaded list. *)
Theorem C46_known_sender (P : world -> forall c, resp c -> Prop) cf m w w' evs d r :
  reach (with_contract P) (decrypt cf m) w w' -> w' = after evs w -> EvEval d r ∈ evs ->
  (forall ik, known (w_disk w) (m_jid m) (m_dev m) -> keyed (w_disk w) (m_jid m) (m_dev m) ik -> List.filter is_list_download evs = []) /\
  (~ known (w_disk w) (m_jid m) (m_dev m) -> exists dl, EvDownloadDL (m_ns m) (m_jid m) (Val dl) ∈ evs /\ m_dev m ∈ dkeys dl).
Proof. intros H Hw Hin. by destruct (dec_found P cf m w w' evs d r H Hw Hin) as (_ & _ & H3 & H4). Qed.
Print Assumptions C46_known_sender.
Definition env_8 (w : world) (c : cmd) : resp c := match c return resp c with NDownloadDL _ _ => Val [(5%Z, None); (8%Z, None)] | c => env_t w c end.
Lemma env_8_allowed w c : w_allowed w c (env_8 w c).
Proof. destruct c; try apply env_t_allowed. vm_compute. repeat constructor; set_solver. Qed.
Example C46_example :
  dec ex_w_you (Message "n" "you" 5 ex_hi [(Ekm "me" 2 "k", None); (Ekm "you" 1 "k", None)]) = (Some EMessageNotForUs, None, []) /\
  (dec ex_w_you (ex_msg 8 ex_hi (Some ex_kex))).1 = (Some ESenderNotFound, None) /\
  (dec ex_w_you (ex_msg 8 ex_hi (Some ex_kex))).2 =
    [DLookup; DQueue "/devices/you/5/active"; DQueue "/devices/you/6/active"; DQueue "/devices/you/7/active"] /\
  List.filter is_list_download (w_log (run base env_8 (decrypt cf0 (ex_msg 8 ex_hi (Some (Kex "ik:you" "r")))) ex_w_you).2) = [EvDownloadDL "n" "you" (Val [(5%Z, None); (8%Z, None)])] /\
  (show (run base env_8 (decrypt cf0 (ex_msg 8 ex_hi (Some (Kex "ik:you" "r")))) ex_w_you)).1 = (None, Some "hi").
Proof. vm_compute. repeat split. Qed.

(** ** C47 *)
(** Sessions are stored after key material and content were decrypted; once before the response, once by the response. *)
Theorem C47_stored_after_decryption (P : world -> forall c, resp c -> Prop) cf m evs : reach (alone P) (decrypt cf m) [] evs ->
  traced (fun ev before => match ev with
    | EvStoreSession n s r => n = m_ns m /\
        ((stored before = [] /\ exists d e mk p pt, accepted m before d /\ given cf m e mk /\ opened m d e mk before s p /\ read m before p pt) \/
         (exists s0 c p k before', stored before = [(m_ns m, s0)] /\
            before = EvSend (Message (m_ns m) (c_jid cf) (c_dev cf) c [(k, kex_due s)]) (s_jid s) (Val tt) ::
              EvEncKey (m_ns m) s0 p (Val (s, k)) :: EvEncEmpty (m_ns m) (Val (c, p)) :: before'))
    | _ => True
    end) evs.
Proof. exact (dec_stores P cf m evs). Qed.
Print Assumptions C47_stored_after_decryption.
(** All that happens in a successful call. *)
Theorem C47_success (P : world -> forall c, resp c -> Prop) cf m pt d p evs : exec (alone P) (decrypt cf m) [] (Val (pt, d, p)) evs ->
  exists e mk t s pre core pk resp, given cf m e mk /\
    evs = resp ++ pk ++ EvStoreSession (m_ns m) s (Val tt) :: core ++ EvEval d (Val t) :: pre /\
    Forall (lookup_ev cf m) pre /\ dkey d = (m_jid m, m_dev m) /\ t <> Distrusted /\ (forall k, mk = Some k -> kx_ik k = dv_ik d) /\
    Forall (fun e => inner e = true) core /\ opened m d e mk core s p /\ read m core p pt /\
    (mk = None -> pk = []) /\ (mk <> None -> replenished cf (m_ns m) s pk) /\
    (response_due mk s -> responded cf (m_ns m) s resp) /\ (~ response_due mk s -> resp = []).
Proof. exact (dec_success P cf m pt d p evs). Qed.
Print Assumptions C47_success.
Definition env_bad (w : world) (c : cmd) : resp c := match c return resp c with BDecPlain _ _ _ => Exn EDecryptionFailed | c => env w c end.
Example C47_example :
  dec ex_w_you (ex_msg 5 ex_hi (Some ex_kex)) =
    (None, Some "hi", [DTrust 5; DLoad; DBuild; DRead; DStored "p:same"; DDelete; DCount; DBundle; DUpload; DEmpty; DEnc; DSend "you"; DStored "p:same+"]) /\
  show (run base env_bad (decrypt cf0 (ex_msg 5 ex_hi (Some ex_kex))) ex_w_you) =
    (Some EDecryptionFailed, None, [DTrust 5; DLoad; DBuild; DRead]).
Proof. vm_compute. repeat split. Qed.

(** ** C48 *)
(** The bundle upload fails after the session was stored and the pre key deleted. *)
Definition env_up (w : world) (c : cmd) : resp c := match c return resp c with NUploadBundle _ => Exn EBundleUploadFailed | c => env w c end.
Lemma env_up_allowed w c : w_allowed w c (env_up w c).
Proof. destruct c; try apply env_allowed. done. Qed.
Theorem C48_no_trace_refuted : exists cf m w w' x s,
  exec base (decrypt cf m) w (Exn x) w' /\ (forall s r, EvStoreSession (m_ns m) s r ∉ w_log w) /\
  EvStoreSession (m_ns m) s (Val tt) ∈ w_log w' /\ EvDeletePk (m_ns m) s (Val true) ∈ w_log w'.
Proof.
  pose (r := run base env_up (decrypt cf0 (ex_msg 5 ex_hi (Some ex_kex))) ex_w_you).
  exists cf0, (ex_msg 5 ex_hi (Some ex_kex)), ex_w_you, r.2, EBundleUploadFailed, (Session "n" "you" 5 Passive true ex_kex (Some 1%Z) 0 "p:same").
  pose proof (run_exec base env_up (decrypt cf0 (ex_msg 5 ex_hi (Some ex_kex))) ex_w_you env_up_allowed) as H. fold r in H.
  assert (r.1 = Exn EBundleUploadFailed) as E by (vm_compute; reflexivity). rewrite E in H. split; [exact H|].
  split; [by intros ? ? ?%elem_of_nil|]. split.
  - apply (elem_of_list_lookup_2 _ 4). vm_compute. reflexivity.
  - apply (elem_of_list_lookup_2 _ 3). vm_compute. reflexivity.
Qed.
Print Assumptions C48_no_trace_refuted.
(** What does hold: before the session is stored nothing is left behind, and afterwards the message has been decrypted
    completely and a later call has failed (during history synchronization: or reading the queue). *)
Theorem C48_failed_partial (P : world -> forall c, resp c -> Prop) cf m x evs : exec (alone P) (decrypt cf m) [] (Exn x) evs ->
  (stored evs = [] /\ Forall (fun e => consumes e = false) evs) \/
  exists l1 s l2, evs = l1 ++ EvStoreSession (m_ns m) s (Val tt) :: l2 /\
    (exists d e mk p pt, accepted m l2 d /\ given cf m e mk /\ opened m d e mk l2 s p /\ read m l2 p pt) /\
    stored l2 = [] /\ Forall (fun e => consumes e = false) l2 /\
    ((exists ev l', l1 = ev :: l' /\ event_exn ev = Some x) \/ answer P GSync true).
Proof. exact (dec_failed P cf m x evs). Qed.
Print Assumptions C48_failed_partial.
Example C48_example :
  let r := run base env_up (decrypt cf0 (ex_msg 5 ex_hi (Some ex_kex))) ex_w_you in
  show r = (Some EBundleUploadFailed, None, [DTrust 5; DLoad; DBuild; DRead; DStored "p:same"; DDelete; DCount; DBundle; DUpload]) /\
  (show (run base env (decrypt cf0 (ex_msg 5 ex_hi None)) ex_w_you)).1 = (Some ENoSession, None).
Proof. vm_compute. repeat split. Qed.

(** ** C49 *)
Theorem C49_prekey_calls (P : world -> forall c, resp c -> Prop) cf m evs : reach (alone P) (decrypt cf m) [] evs ->
  traced (fun ev before => match ev with
    | EvHide n s r => n = m_ns m /\ answer P GSync true /\ head before = Some (EvStoreSession (m_ns m) s (Val tt)) /\
        exists e k, given cf m e (Some k)
    | EvDeletePk n s r => n = m_ns m /\ answer P GSync false /\ head before = Some (EvStoreSession (m_ns m) s (Val tt)) /\
        exists e k, given cf m e (Some k)
    | EvGenerate n k r => n = m_ns m /\ exists v, head before = Some (EvNumVisible (m_ns m) (Val v)) /\ (v <= c_threshold cf)%Z /\ (v + k = 100)%Z
    | EvUploadBundle b r => head before = Some (EvGetBundle (m_ns m) (c_jid cf) (c_dev cf) (Val b))
    | _ => True
    end) evs.
Proof. exact (dec_prekeys_traced P cf m evs). Qed.
Print Assumptions C49_prekey_calls.
(** On success: the used pre key is hidden or deleted, the bundle filled up and published. *)
Theorem C49_replenished (P : world -> forall c, resp c -> Prop) cf m pt d p evs : exec (alone P) (decrypt cf m) [] (Val (pt, d, p)) evs ->
  (forall e mk, given cf m e mk -> mk <> None) ->
  exists s pk, replenished cf (m_ns m) s pk /\ EvStoreSession (m_ns m) s (Val tt) ∈ evs /\ pk `sublist_of` evs.
Proof.
  intros H Hk. destruct (dec_success P cf m pt d p evs H) as (e & mk & t & s & pre & core & pk & resp & Hg & -> & _ & _ & _ & _ & _ & _ & _ & _ & Hp & _).
  exists s, pk. split; [by eapply Hp, Hk|]. split; [do 2 (apply elem_of_app; right); left|].
  apply sublist_inserts_l, sublist_inserts_r. done.
Qed.
Print Assumptions C49_replenished.
(** With backends that report the right number, the number of visible pre keys never exceeds 100, at any time during
    the call (other backends are not touched); after publishing the bundle it exceeds the threshold. *)
Theorem C49_visible (P : world -> forall c, resp c -> Prop) cf m w w' :
  (forall w c r, P w c r -> prekeys_counted w c r) -> reach (with_contract P) (decrypt cf m) w w' ->
  (forall n, n <> m_ns m -> visible n (w_log w') = visible n (w_log w)) /\
  ((visible (m_ns m) (w_log w) <= 100)%Z -> (visible (m_ns m) (w_log w') <= 100)%Z).
Proof. exact (dec_visible P cf m w w'). Qed.
Print Assumptions C49_visible.
Theorem C49_above_threshold (P : world -> forall c, resp c -> Prop) cf m w w' pt d p :
  (forall w c r, P w c r -> prekeys_counted w c r) -> (c_threshold cf < 100)%Z ->
  exec (with_contract P) (decrypt cf m) w (Val (pt, d, p)) w' ->
  forall b evs, w_log w' = evs ++ w_log w -> EvUploadBundle b (Val tt) ∈ evs -> (c_threshold cf < visible (m_ns m) (w_log w'))%Z.
Proof. exact (dec_threshold P cf m w w' pt d p). Qed.
Print Assumptions C49_above_threshold.
(** 51 pre keys are visible, the threshold is 50 *)
Definition env_pk (w : world) (c : cmd) : resp c := match c return resp c with BNumVisible n => Val (visible n (w_log w)) | c => env w c end.
Lemma env_pk_allowed w c : allowed (with_contract prekeys_counted) w c (env_pk w c).
Proof. split; [destruct c; try apply env_allowed; done|]. by destruct c. Qed.
Definition ex_w_pk (n : Z) (sync : bool) : world := World (w_disk ex_w_you) ["n"; "m"] sync [EvGenerate "n" n (Val tt); EvGenerate "m" 100 (Val tt)].
Example C49_example :
  let r n sync := run (with_contract prekeys_counted) env_pk (decrypt cf0 (ex_msg 5 ex_hi (Some ex_kex))) (ex_w_pk n sync) in
  map (fun n => visible "n" (w_log (r n false).2)) [51; 52; 100; 30]%Z = [100; 51; 99; 100]%Z /\ visible "m" (w_log (r 51%Z true).2) = 100%Z /\
  drop 7 (show (r 51%Z true)).2 = [DHide; DCount; DGenerate 50; DBundle; DUpload; DQueue "/queue/n"; DQueue "/queue/n/you"].
Proof. vm_compute. repeat split. Qed.

(** ** C50 *)
(** The documentation (sm:962, "the number of messages required to trigger this behaviour") names 53; with a receiving
    chain of 53 no response is sent. *)
Definition env_rcl (n : Z) (w : world) (c : cmd) : resp c :=
  match c return resp c with BDecKey ns s e => Val (Session (s_ns s) (s_jid s) (s_dev s) (s_init s) true (s_kex s) (Some n) 0 "new", "km") | c => env w c end.
Lemma env_rcl_allowed n w c : w_allowed w c (env_rcl n w c).
Proof. destruct c; try apply env_allowed. done. Qed.
Theorem C50_limit_refuted : exists cf m w w' r s,
  exec base (decrypt cf m) w (Val r) w' /\ s_rcl s = Some 53%Z /\ w_log w' !! 0 = Some (EvStoreSession (m_ns m) s (Val tt)) /\
  w_disk w' = w_disk w /\ Forall (fun e => match e with EvSend _ _ _ | EvStore _ _ _ => False | _ => True end) (w_log w').
Proof.
  pose (r := run base (env_rcl 53) (decrypt cf0 (ex_msg 5 ex_hi None)) ex_w_ses).
  exists cf0, (ex_msg 5 ex_hi None), ex_w_ses, r.2.
  destruct r.1 as [v|] eqn:E; [|vm_compute in E; discriminate].
  exists v, (Session "n" "you" 5 Active true (Kex "a" "b") (Some 53%Z) 0 "new").
  pose proof (run_exec base (env_rcl 53) (decrypt cf0 (ex_msg 5 ex_hi None)) ex_w_ses (env_rcl_allowed 53)) as H. fold r in H.
  rewrite E in H. split; [exact H|]. split; [done|]. split; [vm_compute; reflexivity|]. split; [reflexivity|]. vm_compute. repeat constructor.
Qed.
Print Assumptions C50_limit_refuted.
(** The response is sent or queued exactly if the message was a key exchange or the receiving chain is longer than 53. *)
Theorem C50_response_partial (P : world -> forall c, resp c -> Prop) cf m pt d p evs : exec (alone P) (decrypt cf m) [] (Val (pt, d, p)) evs ->
  exists e mk s resp rest, given cf m e mk /\ evs = resp ++ rest /\ EvStoreSession (m_ns m) s (Val tt) ∈ rest /\ opened m d e mk rest s p /\
    Forall (fun e => match e with EvSend _ _ _ | EvEncEmpty _ _ | EvEncKey _ _ _ _ => False | _ => True end) rest /\
    (mk <> None \/ (exists n, s_rcl s = Some n /\ (53 < n)%Z) -> responded cf (m_ns m) s resp) /\
    (mk = None -> (forall n, s_rcl s = Some n -> (n <= 53)%Z) -> resp = []).
Proof. exact (dec_responds P cf m pt d p evs). Qed.
Print Assumptions C50_response_partial.
Example C50_example :
  let r n := (show (run base (env_rcl n) (decrypt cf0 (ex_msg 5 ex_hi None)) ex_w_ses)).2 in
  map (fun n => drop 4 (r n)) [0; 53; 54]%Z = [[DRead; DStored "new"]; [DRead; DStored "new"]; [DRead; DStored "new"; DEmpty; DEnc; DSend "you"; DStored "new+"]].
Proof. vm_compute. repeat split. Qed.

(** ** C51 *)
Theorem C51_plaintext (P : world -> forall c, resp c -> Prop) cf m pt d p evs : exec (alone P) (decrypt cf m) [] (Val (pt, d, p)) evs ->
  (pt = None <-> ct_empty (m_content m) = true) /\
  (forall b, pt = Some b -> EvDecPlain (m_ns m) (m_content m) p (Val b) ∈ evs) /\
  (exists e mk s, given cf m e mk /\ opened m d e mk evs s p) /\ dv_jid d = m_jid m /\ dv_id d = m_dev m /\
  (exists t, EvEval d (Val t) ∈ evs).
Proof. exact (dec_returned P cf m pt d p evs). Qed.
Print Assumptions C51_plaintext.
Theorem C51_recorded (P : world -> forall c, resp c -> Prop) cf m w w' pt d p : exec (with_contract P) (decrypt cf m) w (Val (pt, d, p)) w' ->
  recorded cf (w_disk w') d /\ dv_jid d = m_jid m /\ dv_id d = m_dev m.
Proof. exact (dec_recorded P cf m w w' pt d p). Qed.
Print Assumptions C51_recorded.
Example C51_example :
  let r c := run base env (decrypt cf0 (ex_msg 6 c (Some ex_kex))) ex_w_you in
  match (r ex_hi).1 with Val (pt, d, _) => Some (pt, dv_jid d, dv_id d, dv_ik d, dv_trust d) | _ => None end = Some (Some "hi", "you", 6%Z, "same", "TRUSTED") /\
  match (r (Content true "x")).1 with Val (pt, d, _) => Some (pt, dv_jid d, dv_id d) | _ => None end = Some (None, "you", 6%Z).
Proof. vm_compute. repeat split. Qed.

(** ** C52 *)
(** A session is built only if there is none, or the existing one was not initiated passively or by another key exchange
    (for the use of existing sessions see C45_identity_key). *)
Theorem C52_built (P : world -> forall c, resp c -> Prop) cf m evs : reach (alone P) (decrypt cf m) [] evs ->
  traced (fun ev before => match ev with
    | EvBuildPassive n j x k e r => EvLoadSession (m_ns m) j x (Val None) ∈ before \/
        exists s, EvLoadSession (m_ns m) j x (Val (Some s)) ∈ before /\ (s_init s <> Passive \/ EvSame (s_kex s) k false ∈ before)
    | _ => True
    end) evs.
Proof. exact (dec_built P cf m evs). Qed.
Print Assumptions C52_built.
Theorem C52_reused (P : world -> forall c, resp c -> Prop) cf m evs : reach (alone P) (decrypt cf m) [] evs ->
  traced (fun ev before => match ev with
    | EvDecKey n s e r => exists mk, given cf m e mk /\ match mk with None => True | Some k => s_init s = Passive /\ EvSame (s_kex s) k true ∈ before end
    | _ => True
    end) evs.
Proof.
  intros H. pose proof (dec_keys P cf m evs H) as Ht. intros l1 ev l2 E. specialize (Ht l1 ev l2 E). destruct ev; try done.
  destruct Ht as (d & mk & _ & Hg & _ & _ & Hk). exists mk. split; [done|]. destruct mk; [|done]. by destruct Hk as (_ & ? & ?).
Qed.
Print Assumptions C52_reused.
Theorem C52_no_session (P : world -> forall c, resp c -> Prop) cf m o evs n j x :
  exec (alone P) (decrypt cf m) [] o evs -> (forall e mk, given cf m e mk -> mk = None) ->
  EvLoadSession n j x (Val None) ∈ evs ->
  o = Exn ENoSession /\ exists d t pre, evs = EvLoadSession n j x (Val None) :: EvEval d (Val t) :: pre /\ Forall (lookup_ev cf m) pre.
Proof. exact (dec_no_session P cf m o evs n j x). Qed.
Print Assumptions C52_no_session.
Definition ex_w_s (i : initiation) (k : kex) : world := World (w_disk ex_w_you) ["n"; "m"] false [EvStoreSession "n" (Session "n" "you" 5 i true k None 3 "st") (Val tt)].
Example C52_example :
  let r i k := take 5 (dec (ex_w_s i k) (ex_msg 5 ex_hi (Some ex_kex))).2 in
  r Passive ex_kex = [DStored "st"; DTrust 5; DLoad; DSame; DOpen] /\ r Passive (Kex "same" "x") = [DStored "st"; DTrust 5; DLoad; DSame; DBuild] /\
  r Active ex_kex = [DStored "st"; DTrust 5; DLoad; DBuild; DRead] /\
  take 4 (dec (ex_w_s Active ex_kex) (ex_msg 5 ex_hi None)).2 = [DStored "st"; DTrust 5; DLoad; DOpen] /\
  dec ex_w_you (ex_msg 5 ex_hi None) = (Some ENoSession, None, [DTrust 5; DLoad]).
Proof. vm_compute. repeat split. Qed.

(** ** C53 *)
Theorem C53_sends_nothing (P : world -> forall c, resp c -> Prop) cf m evs :
  (forall w c r, P w c r -> sync_mode true w c r) -> reach (alone P) (decrypt cf m) [] evs ->
  Forall (fun ev => match ev with EvSend _ _ _ | EvEncEmpty _ _ | EvEncKey _ _ _ _ | EvDeletePk _ _ _ => False | _ => True end) evs.
Proof. exact (dec_sync P cf m evs). Qed.
Print Assumptions C53_sends_nothing.
(** In particular: *)
Theorem C53_in_sync_mode (P : world -> forall c, resp c -> Prop) cf m w w' :
  w_sync w = true -> reach (with_contract P) (decrypt cf m) w w' ->
  exists evs, w_log w' = evs ++ w_log w /\ w_sync w' = true /\
    Forall (fun ev => match ev with EvSend _ _ _ | EvEncEmpty _ _ | EvEncKey _ _ _ _ | EvDeletePk _ _ _ => False | _ => True end) evs.
Proof. exact (dec_in_sync P cf m w w'). Qed.
Print Assumptions C53_in_sync_mode.
Theorem C53_queued (P : world -> forall c, resp c -> Prop) cf m pt d p w w' :
  (forall w c r, P w c r -> sessions_named w c r) -> w_sync w = true ->
  exec (with_contract P) (decrypt cf m) w (Val (pt, d, p)) w' ->
  exists e mk s, given cf m e mk /\ (exists l, w_log w' = l ++ w_log w /\ EvStoreSession (m_ns m) s (Val tt) ∈ l /\ opened m d e mk l s p) /\
    (mk <> None \/ (exists n, s_rcl s = Some n /\ (53 < n)%Z) -> queued (w_disk w') (m_ns m) (m_jid m) (m_dev m)).
Proof. exact (dec_queued P cf m pt d p w w'). Qed.
Print Assumptions C53_queued.
Theorem C53_previously_queued (P : world -> forall c, resp c -> Prop) cf m n w w' j x :
  (forall w c r, P w c r -> sessions_named w c r) -> ns_separated [n; m_ns m] ->
  reach (with_contract P) (decrypt cf m) w w' -> queued (w_disk w) n j x -> queued (w_disk w') n j x.
Proof. exact (dec_queue P cf m n w w' j x). Qed.
Print Assumptions C53_previously_queued.
Definition env_n (w : world) (c : cmd) : resp c :=
  match c return resp c with
  | BLoadSession ns j x => Val (match env_session (w_log w) ns j x with
      | Some s => if decide (s_ns s = ns /\ s_jid s = j /\ s_dev s = x) then Some s else None | None => None end)
  | c => env w c
  end.
Lemma env_named w c : allowed (with_contract sessions_named) w c (env_n w c).
Proof.
  split; [destruct c; try apply env_allowed; done|]. destruct c; try done. simpl. destruct (env_session _ _ _ _); [|done]. by case_decide.
Qed.
Definition ex_w_q : world := World (<[k_queue "n" := j_strs ["you"; "her"]]> (<[k_queue_jid "n" "you" := j_ints [7%Z]]> (<[k_queue_jid "n" "her" := j_ints [3%Z]]> (w_disk ex_w_you)))) ["n"; "m"] true [].
Example C53_example :
  let r := run (with_contract sessions_named) env_n (decrypt cf0 (ex_msg 5 ex_hi (Some ex_kex))) ex_w_q in
  show r = (None, Some "hi", [DTrust 5; DLoad; DBuild; DRead; DStored "p:same"; DHide; DCount; DBundle; DUpload; DQueue "/queue/n"; DQueue "/queue/n/you"]) /\
  queued (w_disk ex_w_q) "n" "you" 7 /\ queued (w_disk ex_w_q) "n" "her" 3 /\ ~ queued (w_disk ex_w_q) "n" "you" 5 /\
  w_disk r.2 !! k_queue "n" = Some (j_strs ["you"; "her"]) /\ w_disk r.2 !! k_queue_jid "n" "you" = Some (j_ints [7; 5]%Z) /\
  w_disk r.2 !! k_queue_jid "n" "her" = Some (j_ints [3%Z]).
Proof.
  split; [vm_compute; reflexivity|].
  split; [split; [exists ["you"; "her"]|exists [7%Z]]; (split; [eexists; split; [vm_compute; reflexivity|]|left]); [apply (is_strs ["you"; "her"])|apply (is_ints [7%Z])]|].
  split; [split; [exists ["you"; "her"]|exists [3%Z]]; (split; [eexists; split; [vm_compute; reflexivity|]|]); [apply (is_strs ["you"; "her"])|right; left|apply (is_ints [3%Z])|left]|].
  split; [|vm_compute; repeat split].
  intros [_ (l & (v & E & Hl) & Hx)]. assert (v = j_ints [7%Z]) as -> by (vm_compute in E; injection E as <-; reflexivity).
  assert (l = [7%Z]) as -> by (eapply is_list_fun; [apply is_int_fun|done|apply (is_ints [7%Z])]).
  by apply elem_of_list_singleton in Hx.
Qed.

(** ** C77 *)
(** Two concurrent calls both find too few pre keys and both generate the missing ones. *)
Theorem C77_concurrent_refill_refuted : exists m1 m2 w w' n,
  areach (with_contract prekeys_counted) awaited ([decrypt cf0 m1 ;;; Ret tt; decrypt cf0 m2 ;;; Ret tt], w, None) ([Ret tt; Ret tt], w', n) /\
  (visible "n" (w_log w) <= 100)%Z /\ (100 < visible "n" (w_log w'))%Z.
Proof.
  pose (ps := [decrypt cf0 (ex_msg 5 ex_hi (Some ex_kex)) ;;; Ret tt; decrypt cf0 (ex_msg 6 ex_hi (Some ex_kex)) ;;; Ret tt]).
  pose (A := (replicate 27 0 ++ replicate 27 1 ++ replicate 200 0 ++ replicate 200 1)%nat).
  pose (s := run_sched (with_contract prekeys_counted) awaited env_pk A (ps, ex_w_pk 51 false, None)).
  pose proof (run_sched_areach (with_contract prekeys_counted) awaited env_pk A (ps, ex_w_pk 51 false, None) env_pk_allowed) as H. fold s in H.
  assert (s = ([Ret tt; Ret tt], s.1.2, s.2)) as E by (vm_compute; reflexivity).
  exists (ex_msg 5 ex_hi (Some ex_kex)), (ex_msg 6 ex_hi (Some ex_kex)), (ex_w_pk 51 false), s.1.2, s.2.
  split; [rewrite E in H; exact H|]. split; vm_compute; [discriminate|reflexivity].
Qed.
Print Assumptions C77_concurrent_refill_refuted.
Theorem C77_sequence_partial (P : world -> forall c, resp c -> Prop) cf ms n w w' :
  (forall w c r, P w c r -> prekeys_counted w c r) ->
  reach (with_contract P) (for_each ms (fun m => try_ (decrypt cf m) ;;; Ret tt)) w w' ->
  (visible n (w_log w) <= 100)%Z -> (visible n (w_log w') <= 100)%Z.
Proof. exact (many_visible P cf ms n w w'). Qed.
Print Assumptions C77_sequence_partial.
Definition ex_msgs : list message := [ex_msg 5 ex_hi (Some ex_kex); ex_msg 9 ex_hi (Some ex_kex); ex_msg 6 ex_hi (Some ex_kex)].
Example C77_example :
  let r := run (with_contract prekeys_counted) env_pk (for_each ex_msgs (fun m => try_ (decrypt cf0 m) ;;; Ret tt)) (ex_w_pk 51 false) in
  r.1 = Val tt /\ visible "n" (w_log r.2) = 99%Z.
Proof. vm_compute. repeat split. Qed.

(** ** C78 *)
(** Two concurrent calls both read the queue before either writes it. *)
Theorem C78_concurrent_queue_refuted : exists m1 m2 w w' n,
  areach (with_contract sessions_named) awaited ([decrypt cf0 m1 ;;; Ret tt; decrypt cf0 m2 ;;; Ret tt], w, None) ([Ret tt; Ret tt], w', n) /\
  w_sync w = true /\ w_sync w' = true /\ (exists e k, m_keys m1 = [e; (k, Some ex_kex)] /\ given cf0 m1 k (Some ex_kex)) /\
  ~ queued (w_disk w') (m_ns m1) (m_jid m1) (m_dev m1).
Proof.
  assert (exists e k, m_keys (ex_msg 5 ex_hi (Some ex_kex)) = [e; (k, Some ex_kex)] /\ given cf0 (ex_msg 5 ex_hi (Some ex_kex)) k (Some ex_kex)) as G.
  { exists (Ekm "you" 9 "other", None), (Ekm "me" 1 "k"). split; [reflexivity|]. split; [right; left|]. split; reflexivity. }
  pose (ps := [decrypt cf0 (ex_msg 5 ex_hi (Some ex_kex)) ;;; Ret tt; decrypt cf0 (ex_msg 6 ex_hi (Some ex_kex)) ;;; Ret tt]).
  pose (A := (replicate 34 0 ++ replicate 34 1 ++ replicate 200 0 ++ replicate 200 1)%nat).
  pose (s := run_sched (with_contract sessions_named) awaited env_n A (ps, ex_w_sync, None)).
  pose proof (run_sched_areach (with_contract sessions_named) awaited env_n A (ps, ex_w_sync, None) env_named) as H. fold s in H.
  assert (s = ([Ret tt; Ret tt], s.1.2, s.2)) as E by (vm_compute; reflexivity).
  assert (w_disk s.1.2 !! item_key (IQueueDevices "n" "you") = Some (j_ints [6%Z])) as Eq by (vm_compute; reflexivity).
  assert (w_sync s.1.2 = true) as Es by (vm_compute; reflexivity).
  exists (ex_msg 5 ex_hi (Some ex_kex)), (ex_msg 6 ex_hi (Some ex_kex)), ex_w_sync, s.1.2, s.2.
  split; [rewrite E in H; exact H|]. split; [done|]. split; [exact Es|]. split.
  { exact G. }
  clearbody s. intros [_ (l & (v & El & Hl) & Hx)]. cbn [m_ns m_jid m_dev ex_msg] in *. rewrite Eq in El. injection El as <-.
  assert (l = [6%Z]) as -> by (eapply is_list_fun; [apply is_int_fun|done|apply (is_ints [6%Z])]).
  by apply elem_of_list_singleton in Hx.
Qed.
Print Assumptions C78_concurrent_queue_refuted.
Theorem C78_sequence_partial (P : world -> forall c, resp c -> Prop) cf ms w w' :
  (forall w c r, P w c r -> sessions_named w c r) -> ns_separated (m_ns <$> ms) -> w_sync w = true ->
  exec (with_contract P) (for_each ms (fun m => decrypt cf m ;;; Ret tt)) w (Val tt) w' ->
  forall m, m ∈ ms -> (forall e mk, given cf m e mk -> mk <> None) -> queued (w_disk w') (m_ns m) (m_jid m) (m_dev m).
Proof. exact (many_queued P cf ms w w'). Qed.
Print Assumptions C78_sequence_partial.
Example C78_example :
  let r := run (with_contract sessions_named) env_n (for_each [ex_msg 5 ex_hi (Some ex_kex); ex_msg 6 ex_hi (Some ex_kex)] (fun m => decrypt cf0 m ;;; Ret tt)) ex_w_sync in
  r.1 = Val tt /\ w_disk r.2 !! k_queue "n" = Some (j_strs ["you"]) /\ w_disk r.2 !! k_queue_jid "n" "you" = Some (j_ints [5; 6]%Z).
Proof. vm_compute. repeat split. Qed.
