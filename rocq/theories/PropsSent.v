(** Theorem C90: messages are sent. Vocabulary in Alone.v and Deliver.v; events are listed newest first. *)
From Verif Require Import Api Spec Env Alone Dec Life Deliver PfEncrypt4 PfSent PropsIdentity PropsDevices PropsLife PropsDecrypt PropsHealth PropsDeliver PropsEncrypt.
Open Scope prog_scope.
Open Scope string_scope.
Open Scope list_scope.

(** ** C90 *)
(** If nothing outside fails during the call (bundles may be missing), encrypt fails only for the reasons of
    [enc_reason], or because the callback fails; whatever happened before (failures, crashes, restarts). *)
Theorem C90_reasons me w0 w cf cf' mtd ident pt priority bare_jids x w' :
  w_disk w0 = ∅ -> life me (Off, w0) (On cf, w) -> same_device cf cf' ->
  (forall ds i, appcode (on cf) (mtd ds i) /\
     forall w1 e w2, exec base (mtd ds i) w1 (Exn e) w2 -> is_omemo e = true \/ e = ECancelled) ->
  exec (with_contract healthy) (encrypt cf' mtd bare_jids pt priority ident) w (Exn x) w' ->
  exists evs, w_log w' = evs ++ w_log w /\
    ((exists und w1, exec (with_contract healthy) (mtd und ident) w1 (Exn x) w') \/
     enc_reason cf' bare_jids pt priority w evs x).
Proof. intros H0 HL Hcf Hm. exact (sent_why me w0 cf cf' H0 Hcf mtd ident pt priority bare_jids Hm w x w' HL). Qed.
Print Assumptions C90_reasons.
(** So a message is sent if there is a plaintext for each of the namespaces, no requested device is still undecided, and
    every other recipient has a device that is reachable and trusted and whose bundle is not missing. *)
Theorem C90_sent me w0 w cf cf' mtd ident pt priority bare_jids o w' :
  w_disk w0 = ∅ -> life me (Off, w0) (On cf, w) -> same_device cf cf' ->
  (forall ds i, appcode (on cf) (mtd ds i) /\
     forall w1 e w2, exec base (mtd ds i) w1 (Exn e) w2 -> is_omemo e = true \/ e = ECancelled) ->
  exec (with_contract healthy) (encrypt cf' mtd bare_jids pt priority ident) w o w' ->
  (forall ds i w1 e w2, ~ exec (with_contract healthy) (mtd ds i) w1 (Exn e) w2) ->
  (forall n, n ∈ priority_of priority w -> n ∈ w_loaded w /\ dget n pt <> None) ->
  exists evs, w_log w' = evs ++ w_log w /\
    ((forall d, requested cf' bare_jids d -> last_eval d evs <> Some (Val Undecided)) ->
     (forall j, j ∈ bare_jids -> j <> c_jid cf' -> exists x, reachable (w_disk w) (priority_of priority w) j x /\
        (forall d t, dkey d = (j, x) -> last_eval d evs = Some (Val t) -> t = Trusted) /\
        (forall ns e, EvDownloadBundle ns j x (Exn e) ∉ evs)) ->
     exists r, o = Val r).
Proof. intros H0 HL Hcf Hm H. exact (sent_ok me w0 cf cf' H0 Hcf mtd ident pt priority bare_jids Hm w o w' HL H). Qed.
Print Assumptions C90_sent.
(** With any concurrent activity: what is reported for a device is the exception of the call that failed for it. *)
Theorem C90_blame (P : world -> forall c, resp c -> Prop) cf mtd ident pt priority bare_jids msgs errs evs :
  (forall w c r, P w c r -> distinct_backends w c r) ->
  exec (alone P) (encrypt cf mtd bare_jids pt priority ident) [] (Val (msgs, errs)) evs ->
  exists pre dec post, evs = post ++ dec ++ pre /\ Forall enc_pre pre /\ asked P mtd ident pre dec post /\ Forall enc_post post /\
    forall er, er ∈ errs -> failed_with (ee_ns er) (ee_jid er) (ee_dev er) (ee_exn er) post /\
      exists d, dkey d = ee_dkey er /\ head (dv_namespaces d) = Some (ee_ns er) /\ last_eval d post = Some (Val Trusted).
Proof. intros HP. exact (enc_blamed P cf mtd ident pt priority bare_jids msgs errs evs HP). Qed.
Print Assumptions C90_blame.

Definition env_und (w : world) (c : cmd) : resp c := match c return resp c with TEval _ => Val Undecided | c => env w c end.
(** the bundle of device 6 is missing *)
Definition env_no6 (w : world) (c : cmd) : resp c :=
  match c return resp c with NDownloadBundle ns j x => if decide (x = 6%Z) then Exn EBundleNotFound else env w (NDownloadBundle ns j x) | c => env w c end.
Lemma env_no6_healthy w c : allowed (with_contract healthy) w c (env_no6 w c).
Proof.
  destruct c; try apply env_healthy. unfold env_no6. destruct (decide _) as [_|_]; [|apply env_healthy].
  split; [reflexivity|]. split; [eauto|by left].
Qed.
(** the failures, and a message that is sent *)
Example C90_example :
  let o e js pt prio := match (run (with_contract healthy) e (encrypt cf0 ignore js pt prio None) ex_met).1 with Exn x => Some x | Val _ => None end in
  let r := run (with_contract healthy) env_no6 (encrypt cf0 ignore ["you"] ex_pt None None) ex_met in
  life "me" (Off, empty_world) (On cf0, ex_met) /\
  o env ["you"] ex_pt (Some ["n"; "q"]) = Some EUnknownNamespace /\
  o env ["you"] [] None = Some EKeyError /\
  o env_und ["you"] ex_pt None = Some EStillUndecided /\
  o env ["you"; "he"] ex_pt None = Some (ENoEligibleDevices ["he"]) /\
  o env_dis ["you"] ex_pt None = Some (ENoEligibleDevices ["you"]) /\
  reachable (w_disk ex_met) ["n"; "m"] "you" 5 /\
  exec (with_contract healthy) (encrypt cf0 ignore ["you"] ex_pt None None) ex_met r.1 r.2 /\
  match r.1 with Val (_, errs) => errs = [EncError "n" "you" 6 EBundleNotFound] | Exn _ => False end /\
  sent r.1 = Some ([("n", [("you", 5, true)])], [("you", 6)])%Z.
Proof.
  intros o r. split; [apply ex_life3|]. do 5 (split; [vm_compute; reflexivity|]).
  split; [|split; [exact (run_exec (with_contract healthy) env_no6 (encrypt cf0 ignore ["you"] ex_pt None None) ex_met env_no6_healthy)|vm_compute; split; reflexivity]].
  split; [exists [5%Z; 6%Z]; split; [|left]; exists (j_ints [5%Z; 6%Z]); split; [vm_compute; reflexivity|repeat constructor]|].
  split; [exists "ik:you"; exists "aWs6eW91"; split; vm_compute; reflexivity|]. exists "n". split; [left|]. split.
  - exists ["n"]. split; [|left]. exists (JList [JStr "n"]). split; [vm_compute; reflexivity|]. constructor. constructor; [constructor|constructor].
  - exists [("n", true)]. split; [|reflexivity]. exists (JDict [("n", JBool true)]). split; [vm_compute; reflexivity|]. constructor.
    constructor; [split; [reflexivity|constructor]|constructor].
Qed.
