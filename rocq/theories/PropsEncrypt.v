(** Theorems C34 to C43: encrypt. [alone P] (Alone.v) is a single call with any concurrent activity. *)
From Verif Require Import Api Spec Alone Env PfAlone PfLog PfLoaded PfEncrypt PfEncrypt3 PfEncrypt4 PfEncrypt5 PfEmpty PropsIdentity PropsDevices PropsTrust.
Open Scope prog_scope.
Open Scope string_scope.
Open Scope list_scope.

(** ** The contract "the loaded backends are distinct" is met in every interleaving of application code, and what one
    coroutine of a pool does is covered by [alone]. *)
Theorem C74_loaded_distinct (ok : call -> Prop) (ps : list (api unit)) w cfg' :
  NoDup (w_loaded w) -> Forall (fun p => appcode ok p) ps -> preach base (ps, w) cfg' ->
  NoDup (w_loaded cfg'.2) /\ preach (with_contract distinct_backends) (ps, w) cfg'.
Proof. exact (distinct_preach ok ps w cfg'). Qed.
Print Assumptions C74_loaded_distinct.
Theorem C74_pool_covered (ok : call -> Prop) (ps : list (api unit)) i p w ps' w' :
  NoDup (w_loaded w) -> Forall (fun p => appcode ok p) ps -> ps !! i = Some p -> preach base (ps, w) (ps', w') ->
  exists new evs, w_log w' = new ++ w_log w /\ evs `sublist_of` new /\ reach (alone distinct_backends) p [] evs /\
    (ps' !! i = Some (Ret tt) -> exec (alone distinct_backends) p [] (Val tt) evs) /\
    (forall e, ps' !! i = Some (Raise e) -> exec (alone distinct_backends) p [] (Exn e) evs).
Proof. exact (pool_covered ok ps i p w ps' w'). Qed.
Print Assumptions C74_pool_covered.
Definition ex_w_both : world := World (w_disk ex_w_own) ["n"; "m"] false [].
Example C74_example :
  let ps := [purge_backend cf0 "n"; create ex_prims 5 ex_args ;;; Ret tt] in
  NoDup (w_loaded ex_w_both) /\ w_loaded (run_sched base awaited env (replicate 60 0)%nat (ps, ex_w_both, None)).1.2 = ["m"] /\
  w_loaded (run_sched base awaited env (replicate 60 0 ++ replicate 400 1)%nat (ps, ex_w_both, None)).1.2 = ["n"; "m"].
Proof. split; [|vm_compute; split; reflexivity]. repeat constructor; set_solver. Qed.

(** ** Examples: "you" has devices 5, 6 and 7. The trust level "TRUSTED" is trusted, "U" undecided; no session can be
    built with device 6. [accept] is a decision callback that trusts everything, [ignore] one that does nothing. *)
Definition env_t (w : world) (c : cmd) : resp c :=
  match c return resp c with
  | TEval d => Val (if decide (dv_trust d = "TRUSTED") then Trusted else if decide (dv_trust d = "U") then Undecided else Distrusted)
  | BBuildActive ns j x b p => if decide (x = 6%Z) then Exn EKeyExchangeFailed else env w (BBuildActive ns j x b p)
  | c => env w c
  end.
Lemma env_t_allowed w c : w_allowed w c (env_t w c).
Proof. destruct c; try apply env_allowed; [|done]. simpl. by case_decide. Qed.
Definition accept (ds : list device) (_ : option string) : api unit :=
  for_each ds (fun d => set_trust (dv_jid d) (dv_ik d) "TRUSTED").
Definition ignore (_ : list device) (_ : option string) : api unit := Ret tt.
Definition ex_pt : list (string * bytes) := [("n", "hi"); ("m", "ho")].
(** everything assumed in any theorem below *)
Definition ex_P (w : world) (c : cmd) (r : resp c) : Prop :=
  (fixed_backends ["n"; "m"] w c r /\ not_no_eligible w c r) /\ downloads_named w c r /\ distinct_backends w c r.
(** the environment with fixed loaded backends *)
(** the same for a lone call whose storage contains [d] throughout *)
Definition env_l (d : gmap string json) (l : list event) (c : cmd) : resp c := env_t (World d ["n"; "m"] false l) c.
Lemma env_l_allowed d l c : allowed (alone ex_P) l c (env_l d l c).
Proof.
  exists (World d ["n"; "m"] false l). split; [apply env_t_allowed|]. destruct c; try (split; [split; [done|by intros ? ?]|done]).
  - split; [split; [done|by intros ? ?]|]. split; [done|]. vm_compute. repeat constructor; set_solver.
  - split; [|done]. split; [done|]. intros js H. cbn in H. by case_decide.
Qed.
(** [sent] is what encrypt produced: namespace, account, device and attached key exchange of every key; and the errors. *)
Definition sent (o : outcome (list (message * pkm) * list enc_error)) :=
  match o with
  | Val (ms, es) => Some (map (fun m => (m_ns m.1, map (fun k => (ek_jid k.1, ek_dev k.1, bool_decide (k.2 <> None))) (m_keys m.1))) ms,
                          map (fun e => (ee_jid e, ee_dev e)) es)
  | Exn _ => None
  end.
(** the key of 5 and 6 is trusted, the one of 7 distrusted *)
Definition ex_w_trust : gmap string json :=
  w_disk (run base env (set_trust "you" "same" "TRUSTED" ;;; set_trust "you" "other" "DISTRUSTED") ex_w_keys).2.
Definition ex_enc := run (alone ex_P) (env_l ex_w_trust) (encrypt cf0 ignore ["you"] ex_pt None None) [].
(** Undecided devices are decided by the callback. *)
Definition ex_dec := run base env_t (encrypt cf0 accept ["you"] ex_pt None None) ex_w_keys.
(** The callback decides nothing. *)
Definition ex_und := run base env_t (encrypt cf0 ignore ["you"] ex_pt None None) ex_w_keys.

(** ** C34 *)
Theorem C34_trusted_only (P : world -> forall c, resp c -> Prop) cf mtd ident pt priority bare_jids evs :
  (forall w c r, P w c r -> distinct_backends w c r) ->
  reach (alone P) (encrypt cf mtd bare_jids pt priority ident) [] evs ->
  exists pre dec post, evs = post ++ dec ++ pre /\ Forall enc_pre pre /\ asked P mtd ident pre dec post /\ Forall enc_post post /\
    traced (fun e before => crypto e = true -> exists d, enc_for e before d /\ last_eval d before = Some (Val Trusted)) post.
Proof. exact (enc_trusted P cf mtd ident pt priority bare_jids evs). Qed.
Print Assumptions C34_trusted_only.
(** Without concurrent calls: the evaluated level is the one in force in the storage. *)
Theorem C34_current_level (P : world -> forall c, resp c -> Prop) cf mtd ident pt priority bare_jids w w' :
  (forall w c r, P w c r -> distinct_backends w c r) ->
  reach (with_contract P) (encrypt cf mtd bare_jids pt priority ident) w w' ->
  exists pre dec post, w_log w' = post ++ dec ++ pre ++ w_log w /\ Forall enc_pre pre /\ Forall enc_post post /\
    traced (fun e before => crypto e = true -> exists d, enc_for e before d /\ last_eval d before = Some (Val Trusted) /\
      level_in_force cf (w_disk w') (dv_jid d) (dv_ik d) (dv_trust d)) post.
Proof. exact (enc_level P cf mtd ident pt priority bare_jids w w'). Qed.
Print Assumptions C34_current_level.

(** ** C35 *)
(** With any concurrent activity: *)
Theorem C35_requested (P : world -> forall c, resp c -> Prop) cf mtd ident pt priority bare_jids evs :
  (forall w c r, P w c r -> distinct_backends w c r) ->
  reach (alone P) (encrypt cf mtd bare_jids pt priority ident) [] evs ->
  exists pre dec post, evs = post ++ dec ++ pre /\ Forall enc_pre pre /\ asked P mtd ident pre dec post /\ Forall enc_post post /\
    traced (fun e before => crypto e = true -> exists d ns, enc_for e before d /\ requested cf bare_jids d /\
      head (dv_namespaces d) = Some ns /\ forall l, priority = Some l -> ns ∈ l) post.
Proof. exact (enc_requested P cf mtd ident pt priority bare_jids evs). Qed.
Print Assumptions C35_requested.
(** Without: recipients are known and active, the namespace is the preferred one, and no eligible device is left out. *)
Theorem C35_recipients (P : world -> forall c, resp c -> Prop) cf mtd ident pt priority bare_jids w w' :
  (forall w c r, P w c r -> distinct_backends w c r) ->
  reach (with_contract P) (encrypt cf mtd bare_jids pt priority ident) w w' ->
  exists pre dec post, w_log w' = post ++ dec ++ pre ++ w_log w /\ Forall enc_pre pre /\ Forall enc_post post /\
    traced (fun e before => crypto e = true -> exists d, enc_for e before d /\ last_eval d before = Some (Val Trusted) /\
      recipient cf priority bare_jids w d /\ level_in_force cf (w_disk w') (dv_jid d) (dv_ik d) (dv_trust d)) post /\
    (post <> [] -> forall j x ik, (j ∈ bare_jids \/ j = c_jid cf) -> ~ (j = c_jid cf /\ x = c_dev cf) ->
       known (w_disk w) j x -> keyed (w_disk w) j x ik ->
       (exists ns, ns ∈ priority_of priority w /\ active_for (w_disk w) j x ns) -> evaluated pre (j, x)).
Proof. intros HP. exact (seq_trusted P HP cf mtd ident pt priority bare_jids w w'). Qed.
Print Assumptions C35_recipients.
(** Trusted, distrusted and failing devices; devices trusted by the callback; undecided ones; the preferred namespace. *)
Example C34_C35_example :
  sent ex_enc.1 = Some ([("n", [("you", 5, true)])], [("you", 6)])%Z /\ sent ex_dec.1 = Some ([("n", [("you", 5, true); ("you", 7, true)])], [("you", 6)])%Z /\
  sent ex_und.1 = None /\ ex_und.1 = Exn EStillUndecided /\
  (let w := (run base env (update_device_list cf0 "m" "you" [(5%Z, None); (8%Z, None)]) ex_w_both).2 in
   let w := (run base env (update_device_list cf0 "n" "you" [(5%Z, None)]) w).2 in
   sent (run base env (encrypt cf0 ignore ["you"] ex_pt (Some ["m"; "n"]) None) w).1 =
     Some ([("m", [("you", 5, true); ("you", 8, true)])], [])%Z /\
   sent (run base env (encrypt cf0 ignore ["you"] ex_pt (Some ["n"; "m"]) None) w).1 =
     Some ([("n", [("you", 5, true)]); ("m", [("you", 8, true)])], [])%Z).
Proof. vm_compute. repeat split. Qed.

(** ** C36: no backend is purged meanwhile, and nothing but the library raises NoEligibleDevices. *)
Theorem C36_nobody_dropped (P : world -> forall c, resp c -> Prop) cf mtd ident pt priority bare_jids L o evs :
  NoDup L -> (forall w c r, P w c r -> fixed_backends L w c r /\ not_no_eligible w c r) ->
  (forall und l l' js, ~ exec (alone P) (mtd und ident) l (Exn (ENoEligibleDevices js)) l') ->
  exec (alone P) (encrypt cf mtd bare_jids pt priority ident) [] o evs ->
  exists pre dec post, evs = post ++ dec ++ pre /\ Forall enc_pre pre /\ asked P mtd ident pre dec post /\ Forall enc_post post /\
    match o with
    | Val _ => forall j, j ∈ bare_jids -> j <> c_jid cf -> exists en, en ∈ encs post /\ en_jid en = j
    | Exn (ENoEligibleDevices l) =>
        l <> [] /\ NoDup l /\
        forall j, j ∈ l <-> j ∈ bare_jids /\ j <> c_jid cf /\ ~ exists en, en ∈ encs post /\ en_jid en = j
    | Exn _ => True
    end.
Proof. intros H1 H2 H3. exact (enc_eligible P cf mtd ident pt priority bare_jids L H1 H2 H3 o evs). Qed.
Print Assumptions C36_nobody_dropped.
(** "you" has device 6 only, for which no session can be built, "he" has none. *)
Definition ex_w_six : gmap string json := w_disk (run base env (set_trust "you" "ik:you" "TRUSTED")
  (run base env (update_device_list cf0 "n" "you" [(6%Z, None)]) w0).2).2.
Definition ex_none := run (alone ex_P) (env_l ex_w_six) (encrypt cf0 ignore ["you"; "me"; "he"] ex_pt None None) [].
Example C36_example :
  exec (alone ex_P) (encrypt cf0 ignore ["you"; "me"; "he"] ex_pt None None) [] (Exn (ENoEligibleDevices ["you"; "he"])) ex_none.2 /\
  exec (alone ex_P) (encrypt cf0 ignore ["you"] ex_pt None None) [] ex_enc.1 ex_enc.2 /\
  sent ex_enc.1 = Some ([("n", [("you", 5, true)])], [("you", 6)])%Z.
Proof.
  split; [|split].
  - assert (ex_none.1 = Exn (ENoEligibleDevices ["you"; "he"])) as E by (vm_compute; reflexivity).
    pose proof (run_exec (alone ex_P) (env_l ex_w_six) (encrypt cf0 ignore ["you"; "me"; "he"] ex_pt None None) [] (env_l_allowed _)) as H.
    fold ex_none in H. by rewrite E in H.
  - apply run_exec, env_l_allowed.
  - vm_compute. reflexivity.
Qed.
(** With a concurrent purge_backend the recipient is dropped without an error: encrypt returns, and encrypted for nobody. *)
Definition got (o : list (message * pkm) * list enc_error) : api unit :=
  match o with ([], []) => Ret tt | _ => Raise ERuntime end.
Theorem C75_concurrent_purge_refuted :
  exists w w' n, areach base awaited ([o <- encrypt cf0 ignore ["you"] ex_pt None None ;; got o; purge_backend cf0 "n"], w, None)
      ([Ret tt; Ret tt], w', n) /\
    NoDup (w_loaded w) /\ "n" ∈ w_loaded w /\ known (w_disk w) "you" 5 /\ active_for (w_disk w) "you" 5 "n" /\
    forall d r, EvEval d r ∈ w_log w' -> r = Val Trusted.
Proof.
  pose (w := World (w_disk (run base env (update_device_list cf0 "n" "you" [(5%Z, None)]) ex_w_own).2) ["n"; "m"] false []).
  pose (ps := [o <- encrypt cf0 ignore ["you"] ex_pt None None ;; got o; purge_backend cf0 "n"]).
  pose (A := (replicate 20 0 ++ replicate 60 1 ++ replicate 60 0)%nat).
  pose (s := run_sched base awaited env A (ps, w, None)).
  pose proof (run_sched_areach base awaited env A (ps, w, None) env_allowed) as H. fold s in H.
  assert (s = ([Ret tt; Ret tt], s.1.2, s.2)) as E by (vm_compute; reflexivity).
  exists w, s.1.2, s.2. split; [rewrite E in H; exact H|].
  split; [repeat constructor; rewrite ?elem_of_cons, elem_of_nil; intuition discriminate|]. split; [left|].
  split; [|split; [split|]].
  - exists [5%Z]. split; [|left]. exists (JList [JInt 5]). split; [vm_compute; reflexivity|]. constructor. constructor; [constructor|constructor].
  - exists ["n"]. split; [|left]. exists (JList [JStr "n"]). split; [vm_compute; reflexivity|]. constructor. constructor; [constructor|constructor].
  - exists [("n", true)]. split; [|reflexivity]. exists (JDict [("n", JBool true)]). split; [vm_compute; reflexivity|]. constructor.
    constructor; [split; [reflexivity|constructor]|constructor].
  - assert (Forall (fun e => match e with EvEval d r => r = Val Trusted | _ => True end) (w_log s.1.2)) as Hf
      by (vm_compute; repeat constructor).
    rewrite Forall_forall in Hf. intros d r Hr. exact (Hf _ Hr).
Qed.
Print Assumptions C75_concurrent_purge_refuted.
(** Backends come and go while encrypt runs, but the ones of [K] stay. Trusted devices whose preferred namespace is in [K]
    are encrypted for or reported; an account is dropped only if a trusted device of it prefers a namespace outside [K]. *)
Theorem C75_kept_backends_partial (P : world -> forall c, resp c -> Prop) cf mtd ident pt priority bare_jids K msgs errs evs :
  (forall w c r, P w c r -> keeps_backends K w c r) ->
  exec (alone P) (encrypt cf mtd bare_jids pt priority ident) [] (Val (msgs, errs)) evs ->
  exists pre dec post, evs = post ++ dec ++ pre /\ Forall enc_pre pre /\ asked P mtd ident pre dec post /\ Forall enc_post post /\
    (forall d, last_eval d post = Some (Val Trusted) -> (exists ns, head (dv_namespaces d) = Some ns /\ ns ∈ K) ->
       dkey d ∈ (en_dkey <$> encs post) ++ (ee_dkey <$> errs)) /\
    (forall j, j ∈ bare_jids -> j <> c_jid cf ->
       (exists en, en ∈ encs post /\ en_jid en = j) \/
       (exists d, dv_jid d = j /\ last_eval d post = Some (Val Trusted) /\
          ~ exists ns, head (dv_namespaces d) = Some ns /\ ns ∈ K)).
Proof. intros HP. exact (enc_kept P cf mtd ident pt priority bare_jids K HP msgs errs evs). Qed.
Print Assumptions C75_kept_backends_partial.
(** "m" disappears once the devices are evaluated: "you" (device 5, "n") is served, "he" (device 8, "m") dropped. *)
Definition ex_w_two : gmap string json :=
  w_disk (run base env (update_device_list cf0 "m" "he" [(8%Z, None)]) (run base env (update_device_list cf0 "n" "you" [(5%Z, None)]) ex_w_both).2).2.
Definition env_going (l : list event) (c : cmd) : resp c :=
  env (World ex_w_two (match l with [] => ["n"; "m"] | _ => ["n"] end) false l) c.
Lemma env_going_allowed l c : allowed (alone (keeps_backends ["n"])) l c (env_going l c).
Proof.
  exists (World ex_w_two (match l with [] => ["n"; "m"] | _ => ["n"] end) false l). split; [apply env_allowed|].
  destruct c; try exact I. unfold env_going. destruct l; (split; [repeat constructor; set_solver|set_solver]).
Qed.
Definition ex_going := run (alone (keeps_backends ["n"])) env_going (encrypt cf0 ignore ["you"; "he"] ex_pt None None) [].
Example C75_example :
  exec (alone (keeps_backends ["n"])) (encrypt cf0 ignore ["you"; "he"] ex_pt None None) [] ex_going.1 ex_going.2 /\
  sent ex_going.1 = Some ([("n", [("you", 5, true)])], [])%Z.
Proof. split; [apply run_exec, env_going_allowed|vm_compute; reflexivity]. Qed.

(** ** C37: [asked] says that the callback is called at most once, with exactly the undecided devices. [post] starts with
    the evaluations after the decision. *)
Theorem C37_no_encryption_while_undecided (P : world -> forall c, resp c -> Prop) cf mtd ident pt priority bare_jids evs :
  (forall w c r, P w c r -> distinct_backends w c r) ->
  reach (alone P) (encrypt cf mtd bare_jids pt priority ident) [] evs ->
  exists pre dec post, evs = post ++ dec ++ pre /\ Forall enc_pre pre /\ asked P mtd ident pre dec post /\ Forall enc_post post /\
    ((exists d, first_eval d post = Some (Val Undecided)) -> all_evals post).
Proof. exact (enc_once P cf mtd ident pt priority bare_jids evs). Qed.
Print Assumptions C37_no_encryption_while_undecided.
Theorem C37_still_undecided (P : world -> forall c, resp c -> Prop) cf mtd ident pt priority bare_jids o evs :
  (forall w c r, P w c r -> distinct_backends w c r) ->
  exec (alone P) (encrypt cf mtd bare_jids pt priority ident) [] o evs ->
  exists pre dec post, evs = post ++ dec ++ pre /\ Forall enc_pre pre /\ asked P mtd ident pre dec post /\
    ((exists d, first_eval d post = Some (Val Undecided)) -> all_evals post /\
       (o = Exn EStillUndecided \/ exists e d rest, o = Exn e /\ post = EvEval d (Exn e) :: rest)).
Proof. intros HP. exact (enc_undecided P cf mtd ident pt priority bare_jids HP o evs). Qed.
Print Assumptions C37_still_undecided.
(** One bulk decision for 5, 6 and 7; then, with a callback that does nothing, two evaluations of each and nothing else. *)
Definition ex_note (ds : list device) (_ : option string) : api unit := t_blind ds None.
Example C37_example :
  let r := run base env_t (encrypt cf0 ex_note ["you"] ex_pt None None) ex_w_keys in
  r.1 = Exn EStillUndecided /\
  map (fun e => match e with EvEval d t => (dv_id d, match t with Val t => Some t | _ => None end)
                         | EvBlind ds _ _ => (Z.of_nat (length ds), None) | _ => (0%Z, None) end) (rev (w_log r.2)) =
    [(5, Some Undecided); (6, Some Undecided); (7, Some Undecided); (3, None);
     (5, Some Undecided); (6, Some Undecided); (7, Some Undecided)]%Z.
Proof. vm_compute. split; reflexivity. Qed.

(** ** C38, C40: [encs post] are the encryptions of the call. *)
Theorem C38_served_or_reported (P : world -> forall c, resp c -> Prop) cf mtd ident pt priority bare_jids L msgs errs evs :
  NoDup L -> (forall w c r, P w c r -> fixed_backends L w c r) ->
  exec (alone P) (encrypt cf mtd bare_jids pt priority ident) [] (Val (msgs, errs)) evs ->
  exists pre dec post, evs = post ++ dec ++ pre /\ Forall enc_pre pre /\ asked P mtd ident pre dec post /\ Forall enc_post post /\
    exists ds, NoDup (dkey <$> ds) /\ (forall d, d ∈ ds <-> last_eval d post = Some (Val Trusted)) /\
      (forall k, evaluated pre k -> evaluated post k) /\
      (en_dkey <$> encs post) ++ (ee_dkey <$> errs) ≡ₚ dkey <$> ds /\
      flat_map (fun m => pair (m_ns m.1) <$> m_keys m.1) msgs ≡ₚ en_keyns <$> encs post /\
      NoDup ((fun m => m_ns m.1) <$> msgs) /\
      (forall m, m ∈ msgs -> m_jid m.1 = c_jid cf /\ m_dev m.1 = c_dev cf /\
         exists b, dget (m_ns m.1) pt = Some b /\ EvEncPlain (m_ns m.1) b (Val (m_content m.1, m.2)) ∈ post) /\
      plains post ≡ₚ (fun m => m_ns m.1) <$> msgs.
Proof. intros HL HP. exact (enc_served P cf mtd ident pt priority bare_jids L HL HP msgs errs evs). Qed.
Print Assumptions C38_served_or_reported.
Example C38_example :
  exec (alone ex_P) (encrypt cf0 ignore ["you"] ex_pt None None) [] ex_enc.1 ex_enc.2 /\
  sent ex_enc.1 = Some ([("n", [("you", 5, true)])], [("you", 6)])%Z /\
  map en_dkey (encs ex_enc.2) = [("you", 5%Z)].
Proof. split; [apply run_exec, env_l_allowed|]. vm_compute. split; reflexivity. Qed.

(** ** C40: for messages see [en_keyns] in C38; here empty messages. *)
Theorem C40_empty_message (P : world -> forall c, resp c -> Prop) cf ns s l evs :
  reach (alone P) (send_empty_message cf ns s) l evs -> exists new, evs = new ++ l /\ empty_calls cf ns s new.
Proof. exact (empty_reach P cf ns s l evs). Qed.
Print Assumptions C40_empty_message.
Theorem C40_encrypt (P : world -> forall c, resp c -> Prop) cf mtd ident pt priority bare_jids L msgs errs evs m k x :
  NoDup L -> (forall w c r, P w c r -> fixed_backends L w c r) ->
  exec (alone P) (encrypt cf mtd bare_jids pt priority ident) [] (Val (msgs, errs)) evs ->
  m ∈ msgs -> (k, x) ∈ m_keys m.1 ->
  exists en, en ∈ encs evs /\ en_ns en = m_ns m.1 /\ en_key en = k /\ x = kex_due (en_session en).
Proof. intros HL HP. exact (enc_kex P cf mtd ident pt priority bare_jids L HL HP msgs errs evs m k x). Qed.
Print Assumptions C40_encrypt.
Definition ex_ses (init : initiation) (confirmed : bool) : session := Session "n" "you" 5 init confirmed (Kex "a" "b") None 3 "st".
Definition env_ses (init : initiation) (confirmed : bool) (w : world) (c : cmd) : resp c :=
  match c return resp c with BLoadSession _ _ 5%Z => Val (Some (ex_ses init confirmed)) | c => env_t w c end.
Example C40_example :
  let r i c := sent (run base (env_ses i c) (encrypt cf0 accept ["you"] ex_pt None None) ex_w_keys).1 in
  r Active true = Some ([("n", [("you", 5, false); ("you", 7, true)])], [("you", 6)])%Z /\
  r Active false = Some ([("n", [("you", 5, true); ("you", 7, true)])], [("you", 6)])%Z /\
  r Passive true = r Active true /\ r Passive false = r Active true /\
  map (fun b => match w_log (run base env (send_empty_message cf0 "n" (ex_ses Active b)) ex_w_keys).2 with
       | [_; EvSend m j _; _; _] => Some (j, map snd (m_keys m)) | _ => None end) [false; true] =
    [Some ("you", [Some (Kex "a" "b")]); Some ("you", [None])].
Proof. vm_compute. repeat split. Qed.

(** ** C39 *)
Theorem C39_store_after_encrypting (P : world -> forall c, resp c -> Prop) cf mtd ident pt priority bare_jids evs :
  (forall w c r, P w c r -> distinct_backends w c r) ->
  reach (alone P) (encrypt cf mtd bare_jids pt priority ident) [] evs ->
  exists pre dec post, evs = post ++ dec ++ pre /\ Forall enc_pre pre /\ asked P mtd ident pre dec post /\ Forall enc_post post /\
    traced (fun e before => crypto e = true -> Forall (fun e => is_store_session e = false) before) post.
Proof. exact (enc_before_store P cf mtd ident pt priority bare_jids evs). Qed.
Print Assumptions C39_store_after_encrypting.
Theorem C39_all_stored (P : world -> forall c, resp c -> Prop) cf mtd ident pt priority bare_jids o evs :
  (forall w c r, P w c r -> distinct_backends w c r) ->
  exec (alone P) (encrypt cf mtd bare_jids pt priority ident) [] o evs ->
  exists pre dec post, evs = post ++ dec ++ pre /\ Forall enc_pre pre /\ asked P mtd ident pre dec post /\ Forall enc_post post /\
    traced (fun e before => crypto e = true -> exists d, enc_for e before d) post /\
    match o with
    | Val _ => stored post ≡ₚ (fun en => (en_ns en, en_session en)) <$> encs post /\ NoDup (en_dkey <$> encs post)
    | Exn e => Forall (fun e => is_store_session e = false) post \/ exists ns s rest, post = EvStoreSession ns s (Exn e) :: rest
    end.
Proof. intros HP. exact (enc_sessions P cf mtd ident pt priority bare_jids HP o evs). Qed.
Print Assumptions C39_all_stored.
Example C39_example :
  let r := run base (env_ses Active true) (encrypt cf0 accept ["you"] ex_pt None None) ex_w_keys in
  let f := run base (env_ses Active true) (encrypt cf0 accept ["you"; "he"] ex_pt None None) ex_w_keys in
  map (fun x => (s_dev x.2, s_state x.2)) (stored (w_log r.2)) = [(7%Z, "a:ik:you"); (5%Z, "st+")] /\
  map (fun en => (en_dev en, s_state (en_session en))) (encs (w_log r.2)) = [(7%Z, "a:ik:you"); (5%Z, "st+")] /\
  f.1 = Exn (ENoEligibleDevices ["he"]) /\ length (encs (w_log f.2)) = 2%nat /\ stored (w_log f.2) = [].
Proof. vm_compute. repeat split. Qed.

(** ** C76: sessions are continued, new ones built only without a session; every recipient gets the key of the content. *)
Theorem C76_session_and_material (P : world -> forall c, resp c -> Prop) cf mtd ident pt priority bare_jids evs :
  (forall w c r, P w c r -> distinct_backends w c r) ->
  reach (alone P) (encrypt cf mtd bare_jids pt priority ident) [] evs ->
  exists pre dec post, evs = post ++ dec ++ pre /\ Forall enc_pre pre /\ asked P mtd ident pre dec post /\ Forall enc_post post /\
    traced (fun e before => crypto e = true -> enc_material pt e before /\ exists d, enc_for e before d /\ enc_start e before d) post.
Proof. exact (enc_with P cf mtd ident pt priority bare_jids evs). Qed.
Print Assumptions C76_session_and_material.
Example C76_example :
  let r := run base (env_ses Active true) (encrypt cf0 accept ["you"] ex_pt None None) ex_w_keys in
  (EvEncKey "n" (ex_ses Active true) "km" (Val (advance (ex_ses Active true), Ekm "you" 5 "st")) ∈ w_log r.2) /\
  (EvEncPlain "n" "hi" (Val (Content false "hi", "km")) ∈ w_log r.2).
Proof. split; vm_compute; repeat first [left|right]. Qed.

(** ** C41 *)
(** Device 5 of "you" has the recorded, evaluated and trusted key "same"; the server serves a bundle with another key
    and the session is built with that one. *)
Theorem C41_bundle_key_refuted :
  exists w w' r d b x, exec (with_contract downloads_named) (encrypt cf0 accept ["you"] ex_pt None None) w (Val r) w' /\
    keyed (w_disk w) "you" 5 "same" /\ dkey d = ("you", 5%Z) /\ dv_ik d = "same" /\ last_eval d (w_log w') = Some (Val Trusted) /\
    EvBuildActive "n" "you" 5 b "km" (Val x) ∈ w_log w' /\ b_ik b <> "same".
Proof.
  pose (run (with_contract downloads_named) env_t (encrypt cf0 accept ["you"] ex_pt None None) ex_w_keys) as r.
  assert (forall w c, allowed (with_contract downloads_named) w c (env_t w c)) as Ha.
  { intros w c. split; [apply env_t_allowed|]. by destruct c. }
  pose proof (run_exec _ env_t (encrypt cf0 accept ["you"] ex_pt None None) ex_w_keys Ha) as H. fold r in H.
  destruct r.1 as [v|] eqn:E; [|vm_compute in E; discriminate].
  exists ex_w_keys, r.2, v, (Device ["n"] [("n", true)] "you" 5 "same" "TRUSTED" (Some "phone")).
  set (b := Bundle "n" "you" 5 "ik:you" "remote").
  set (built := fun e => match e with EvBuildActive n j z b' p (Val x) => bool_decide ((n, j, z, p) = ("n", "you", 5%Z, "km") /\ b' = b) | _ => false end).
  assert (exists x, EvBuildActive "n" "you" 5 b "km" (Val x) ∈ w_log r.2) as [x Hx].
  { assert (existsb built (w_log r.2) = true) as Hb by (vm_compute; reflexivity).
    apply existsb_exists in Hb as (e & He & Hb). apply elem_of_list_In in He. clear H E.
    destruct e; try discriminate Hb. destruct r0 as [x|]; [|discriminate Hb].
    apply bool_decide_eq_true in Hb as [[= -> -> -> ->] ->]. exists x. exact He. }
  exists b, x. split; [exact H|]. clear H E.
  split; [exists (b64enc "same"); split; vm_compute; reflexivity|]. do 2 (split; [reflexivity|]). split; [vm_compute; reflexivity|].
  split; [exact Hx|discriminate].
Qed.
Print Assumptions C41_bundle_key_refuted.
(** What does hold: sessions are built with the evaluated key, unless the bundle was downloaded after the evaluation. *)
Theorem C41_bundle_key_partial (P : world -> forall c, resp c -> Prop) cf mtd ident pt priority bare_jids evs :
  (forall w c r, P w c r -> distinct_backends w c r /\ downloads_named w c r) ->
  reach (alone P) (encrypt cf mtd bare_jids pt priority ident) [] evs ->
  exists pre dec post, evs = post ++ dec ++ pre /\ Forall enc_pre pre /\ asked P mtd ident pre dec post /\ Forall enc_post post /\
    traced (fun e before => crypto e = true -> exists d, enc_for e before d /\ last_eval d before = Some (Val Trusted) /\
      enc_bundle e before d) post.
Proof. exact (enc_key_used P cf mtd ident pt priority bare_jids evs). Qed.
Print Assumptions C41_bundle_key_partial.
(** The bundle downloaded to learn the key is the one used. *)
Example C41_example :
  let r := run base env_keys (encrypt cf0 ignore ["you"] ex_pt None None) (run base env (update_device_list cf0 "n" "you" [(5%Z, None)]) w0).2 in
  List.filter (fun e => match e with EvDownloadBundle _ _ _ _ => true | _ => crypto e end) (w_log r.2) =
    [EvBuildActive "n" "you" 5 (Bundle "n" "you" 5 "k" "remote") "km"
       (Val (Session "n" "you" 5 Active false (Kex "own" "remote") None 0 "a:k", Ekm "you" 5 "k:km"));
     EvDownloadBundle "n" "you" 5 (Val (Bundle "n" "you" 5 "k" "remote"))].
Proof. vm_compute. reflexivity. Qed.

(** ** C42, C43: backends that keep their sessions properly *)
Lemma env_kept w c : allowed (with_contract sessions_kept) w c (env w c).
Proof. split; [apply env_allowed|]. by destruct c. Qed.
(** a session with device 5 is stored *)
Definition ex_w_ses : world := World (w_disk ex_w_keys) ["n"; "m"] false [EvStoreSession "n" (ex_ses Active true) (Val tt)].
(** Two concurrent calls encrypt different messages with the same state of the same session. *)
Theorem C42_concurrent_refuted :
  exists pt1 pt2 w w' n a b ns s p1 p2 r1 r2,
    areach (with_contract sessions_kept) awaited
      ([encrypt cf0 ignore ["you"] pt1 None None ;;; Ret tt; encrypt cf0 ignore ["you"] pt2 None None ;;; Ret tt], w, None)
      ([Ret tt; Ret tt], w', n) /\
    pt1 <> pt2 /\ a <> b /\ w_log w' !! a = Some (EvEncKey ns s p1 (Val r1)) /\ w_log w' !! b = Some (EvEncKey ns s p2 (Val r2)).
Proof.
  pose (pt2 := [("n", "bye"); ("m", "bye")]).
  pose (ps := [encrypt cf0 ignore ["you"] ex_pt None None ;;; Ret tt; encrypt cf0 ignore ["you"] pt2 None None ;;; Ret tt]).
  pose (A := concat (replicate 100 [0; 1])%nat).
  pose (s := run_sched (with_contract sessions_kept) awaited env A (ps, ex_w_ses, None)).
  pose proof (run_sched_areach (with_contract sessions_kept) awaited env A (ps, ex_w_ses, None) env_kept) as H. fold s in H.
  assert (s = ([Ret tt; Ret tt], s.1.2, s.2)) as E by (vm_compute; reflexivity).
  pose (r := (advance (ex_ses Active true), Ekm "you" 5 "st")).
  exists ex_pt, pt2, ex_w_ses, s.1.2, s.2, 18%nat, 19%nat, "n", (ex_ses Active true), "km", "km", r, r. split; [rewrite E in H; exact H|].
  split; [discriminate|]. split; [discriminate|]. split; vm_compute; reflexivity.
Qed.
Print Assumptions C42_concurrent_refuted.
(** What does hold: once encrypt has returned, every session it built or used is stored as the encryption left it, so the
    next call starts from that state. *)
Theorem C42_next_call_partial (P : world -> forall c, resp c -> Prop) cf mtd ident pt priority bare_jids w r w' :
  (forall w c r, P w c r -> distinct_backends w c r /\ sessions_kept w c r) ->
  exec (with_contract P) (encrypt cf mtd bare_jids pt priority ident) w (Val r) w' ->
  exists pre dec post, w_log w' = post ++ dec ++ pre ++ w_log w /\ Forall enc_pre pre /\ Forall enc_post post /\
    (forall en, en ∈ encs post -> last_session (w_log w') (en_ns en) (en_jid en) (en_dev en) = Some (en_session en)) /\
    forall ns s p s' k, EvEncKey ns s p (Val (s', k)) ∈ post -> Enc ns (s_jid s) (s_dev s) s' k ∈ encs post.
Proof. exact (enc_advanced P cf mtd ident pt priority bare_jids w r w'). Qed.
Print Assumptions C42_next_call_partial.
Example C42_example :
  let w1 := (run base env (encrypt cf0 ignore ["you"] ex_pt None None) ex_w_ses).2 in
  let w2 := (run base env (encrypt cf0 ignore ["you"] ex_pt None None) w1).2 in
  last_session (w_log w1) "n" "you" 5 = Some (advance (ex_ses Active true)) /\
  last_session (w_log w2) "n" "you" 5 = Some (advance (advance (ex_ses Active true))).
Proof. vm_compute. split; reflexivity. Qed.

(** ** C43 *)
(** The process dies after the empty message was handed to the network; after a restart the same state is used again. *)
Theorem C43_crash_refuted :
  exists s w w1 w2 r w3 m p1 r1 p2 r2 l,
    reach (with_contract sessions_kept) (send_empty_message cf0 "n" s) w w1 /\
    EvSend m "you" (Val tt) ∈ w_log w1 /\ EvEncKey "n" s p1 (Val r1) ∈ w_log w1 /\
    w_disk w2 = w_disk w1 /\ w_log w2 = w_log w1 /\
    exec (with_contract sessions_kept) (encrypt cf0 ignore ["you"] ex_pt None None) w2 (Val r) w3 /\
    w_log w3 = l ++ w_log w2 /\ EvEncKey "n" s p2 (Val r2) ∈ l.
Proof.
  pose (w1 := run_crash (with_contract sessions_kept) env 3 (send_empty_message cf0 "n" (ex_ses Active true)) ex_w_ses).
  pose (r := run (with_contract sessions_kept) env (encrypt cf0 ignore ["you"] ex_pt None None) w1).
  pose proof (run_exec (with_contract sessions_kept) env (encrypt cf0 ignore ["you"] ex_pt None None) w1 env_kept) as H. fold r in H.
  destruct r.1 as [v|] eqn:E; [|vm_compute in E; discriminate].
  pose (x := (advance (ex_ses Active true), Ekm "you" 5 "st")).
  exists (ex_ses Active true), ex_w_ses, w1, w1, v, r.2, (Message "n" "me" 1 (Content true "") [(x.2, None)]), "empty", x, "km", x.
  exists (take (length (w_log r.2) - length (w_log w1)) (w_log r.2)).
  split; [apply run_crash_reach, env_kept|].
  split; [vm_compute; left|]. split; [vm_compute; right; left|]. do 2 (split; [reflexivity|]). split; [exact H|]. clear H E.
  split; [vm_compute; reflexivity|].
  vm_compute. repeat first [left|right].
Qed.
Print Assumptions C43_crash_refuted.
(** What does hold: if the call returns, the advanced session is the stored one. *)
Theorem C43_returned_partial (P : world -> forall c, resp c -> Prop) cf ns s w w' :
  (forall w c r, P w c r -> sessions_kept w c r) ->
  exec (with_contract P) (send_empty_message cf ns s) w (Val tt) w' ->
  exists c p s' e, w_log w' = [EvStoreSession ns s' (Val tt);
        EvSend (Message ns (c_jid cf) (c_dev cf) c [(e, kex_due s')]) (s_jid s') (Val tt);
        EvEncKey ns s p (Val (s', e)); EvEncEmpty ns (Val (c, p))] ++ w_log w /\
    last_session (w_log w') ns (s_jid s) (s_dev s) = Some s'.
Proof. exact (empty_advanced P cf ns s w w'). Qed.
Print Assumptions C43_returned_partial.
Example C43_example :
  let r := run (with_contract sessions_kept) env (send_empty_message cf0 "n" (ex_ses Active true)) ex_w_ses in
  exec (with_contract sessions_kept) (send_empty_message cf0 "n" (ex_ses Active true)) ex_w_ses r.1 r.2 /\ r.1 = Val tt /\
  last_session (w_log r.2) "n" "you" 5 = Some (advance (ex_ses Active true)).
Proof. split; [apply run_exec, env_kept|]. vm_compute. split; reflexivity. Qed.
