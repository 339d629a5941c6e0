(** A single coroutine seen on its own, whatever the rest of the program does in the meantime. Used to state
    properties of one call that hold with any concurrent activity. *)
From Verif Require Import Api Spec.
Open Scope list_scope.

(** Whenever the coroutine performs a command, it gets an answer the environment could give in some world: other
    coroutines may have changed everything since the last answer. The state is the list of the calls this
    coroutine made (newest first). [P] is a contract on the answers, as in [with_contract]. *)
Definition alone (P : world -> forall c, resp c -> Prop) : @sem cmd resp (list event) :=
  Sem (list event) (fun _ c r => exists w, w_allowed w c r /\ P w c r)
    (fun l c r => match event_of c r with Some e => e :: l | None => l end).
Definition anything (w : world) (c : cmd) (r : resp c) : Prop := True.

(** the exception of an answer *)
Definition exn_of {A} (o : outcome A) : option exn := match o with Exn e => Some e | Val _ => None end.
Definition resp_exn (c : cmd) : resp c -> option exn :=
  match c return resp c -> option exn with
  | SLoad _ | SStore _ _ | SDelete _ | CSleep _ | BLoadSession _ _ _ | BStoreSession _ _ | BBuildActive _ _ _ _ _
  | BBuildPassive _ _ _ _ _ | BEncPlain _ _ | BEncEmpty _ | BEncKey _ _ _ | BDecPlain _ _ _ | BDecKey _ _ _ | BSpkAge _
  | BRotate _ | BHide _ _ | BDelete _ _ | BDelHidden _ | BNumVisible _ | BGenerate _ _ | BGetBundle _ _ _ | BPurge _
  | BPurgeJid _ _ | NUploadBundle _ | NDownloadBundle _ _ _ | NDeleteBundle _ _ | NUploadDL _ _ | NDownloadDL _ _
  | NSend _ _ | TEval _ | TBlind _ _ => exn_of
  | _ => fun _ => None
  end.

(** Contracts. The namespaces of the loaded backends are distinct (create refuses anything else); they do not
    change (no purge_backend is running); nothing outside raises NoEligibleDevices. *)
Definition distinct_backends (w : world) (c : cmd) : resp c -> Prop :=
  match c return resp c -> Prop with GLoaded => fun r => NoDup r | _ => fun _ => True end.
Definition fixed_backends (l : list string) (w : world) (c : cmd) : resp c -> Prop :=
  match c return resp c -> Prop with GLoaded => fun r => r = l | _ => fun _ => True end.
(** Backends may come and go, except the ones of [K], which stay loaded. *)
Definition keeps_backends (K : list string) (w : world) (c : cmd) : resp c -> Prop :=
  match c return resp c -> Prop with GLoaded => fun r => NoDup r /\ forall ns, ns ∈ K -> ns ∈ r | _ => fun _ => True end.
Definition not_no_eligible (w : world) (c : cmd) (r : resp c) : Prop := forall l, resp_exn c r <> Some (ENoEligibleDevices l).

(* ------------------------------------------------------------------------------------------------ *)
(** * Encryption calls in a log *)

(** calls that encrypt key material for a device: Backend.build_session_active, Backend.encrypt_key_material *)
Definition crypto (e : event) : bool :=
  match e with EvBuildActive _ _ _ _ _ _ | EvEncKey _ _ _ _ => true | _ => false end.
Definition is_eval (e : event) : bool := match e with EvEval _ _ => true | _ => false end.
Definition is_store_session (e : event) : bool := match e with EvStoreSession _ _ _ => true | _ => false end.

(** One successful encryption of key material: for which device in which namespace, the session afterwards and
    the encrypted key material. An existing session is the one just loaded for the device. Newest first. *)
Record enc := Enc { en_ns : string; en_jid : string; en_dev : Z; en_session : session; en_key : ekm }.
Fixpoint encs (l : list event) : list enc :=
  match l with
  | [] => []
  | e :: l' =>
      match e, l' with
      | EvBuildActive ns j x _ _ (Val (s, k)), _ => Enc ns j x s k :: encs l'
      | EvEncKey ns _ _ (Val (s, k)), EvLoadSession _ j x _ :: _ => Enc ns j x s k :: encs l'
      | _, _ => encs l'
      end
  end.

(** the result of the latest, and of the first, evaluation of the trust of a device *)
Fixpoint last_eval (d : device) (l : list event) : option (outcome trust) :=
  match l with
  | [] => None
  | EvEval d' r :: l' => if decide (d' = d) then Some r else last_eval d l'
  | _ :: l' => last_eval d l'
  end.
Definition first_eval (d : device) (l : list event) : option (outcome trust) := last_eval d (rev l).

(** the key exchange a message has to carry: only while we opened the session and the peer has not answered *)
Definition kex_due (s : session) : option kex :=
  match s_init s, s_confirmed s with Active, false => Some (s_kex s) | _, _ => None end.

(** the successfully stored sessions, newest first *)
Fixpoint stored (l : list event) : list (string * session) :=
  match l with
  | [] => []
  | EvStoreSession ns s (Val _) :: l' => (ns, s) :: stored l'
  | _ :: l' => stored l'
  end.

(** The three parts of the calls of one encrypt: [pre] up to and including the first evaluation of the devices,
    [dec] the calls made by the trust decision callback [mtd], [post] everything later. [mtd] is called at most
    once, and then with exactly the devices that evaluated to UNDECIDED; [post] starts when it has returned. *)
Definition asked (P : world -> forall c, resp c -> Prop) (mtd : list device -> option string -> api unit)
    (ident : option string) (pre dec post : list event) : Prop :=
  (dec = [] /\ (post <> [] -> forall d, EvEval d (Val Undecided) ∉ pre)) \/
  (exists und, und <> [] /\ NoDup und /\ (forall d, d ∈ und <-> EvEval d (Val Undecided) ∈ pre) /\
     (exec (alone P) (mtd und ident) pre (Val tt) (dec ++ pre) \/
      (post = [] /\ reach (alone P) (mtd und ident) pre (dec ++ pre)))).
(** Before the decision: devices are looked up and evaluated. *)
Definition enc_pre (e : event) : Prop :=
  match e with EvStore _ _ _ | EvDownloadBundle _ _ _ _ | EvEval _ _ => True | _ => False end.
(** After the decision: evaluations, then the encryption itself. *)
Definition enc_post (e : event) : Prop :=
  match e with
  | EvEval _ _ | EvLoadSession _ _ _ _ | EvDownloadBundle _ _ _ _ | EvEncPlain _ _ _ | EvEncKey _ _ _ _
  | EvBuildActive _ _ _ _ _ _ | EvStoreSession _ _ _ => True
  | _ => False
  end.
(** [e] encrypts for device [d] *)
Definition enc_for (e : event) (before : list event) (d : device) : Prop :=
  match e with
  | EvBuildActive ns j x _ _ _ => dv_jid d = j /\ dv_id d = x /\ head (dv_namespaces d) = Some ns
  | EvEncKey ns s _ _ => head (dv_namespaces d) = Some ns /\ head before = Some (EvLoadSession ns (dv_jid d) (dv_id d) (Val (Some s)))
  | _ => False
  end.
(** Downloaded bundles carry the namespace, account and device id they were asked for. *)
Definition downloads_named (w : world) (c : cmd) : resp c -> Prop :=
  match c return resp c -> Prop with
  | NDownloadBundle ns j x => fun r => match r with Val b => b_ns b = ns /\ b_jid b = j /\ b_dev b = x | Exn _ => True end
  | _ => fun _ => True
  end.
(** The trust level in force for a key: the stored one, or the one for undecided keys. *)
Definition level_in_force (cf : cfg) (d : gmap string json) (j : string) (ik : bytes) (level : string) : Prop :=
  trusted_as d j ik level \/ (d !! item_key (ITrust j ik) = None /\ level = c_undecided cf).
(** The storage says the device can be reached in namespace [n]. *)
Definition active_for (d : gmap string json) (j : string) (x : Z) (n : string) : Prop :=
  supports d j x n /\ activity d j x n true.
(** The session of [e] is continued, or built because there is none. *)
Definition enc_start (e : event) (before : list event) (d : device) : Prop :=
  match e with
  | EvBuildActive ns j x _ _ _ => EvLoadSession ns j x (Val None) ∈ before
  | EvEncKey ns s _ _ => head before = Some (EvLoadSession ns (dv_jid d) (dv_id d) (Val (Some s)))
  | _ => False
  end.
(** A session is built with a bundle downloaded since the decision, or with the evaluated identity key. *)
Definition enc_bundle (e : event) (before : list event) (d : device) : Prop :=
  match e with
  | EvBuildActive ns j x b _ _ => b_ik b = dv_ik d \/ EvDownloadBundle ns j x (Val b) ∈ before
  | _ => True
  end.
(** The encrypted key material is the one the given plaintext was encrypted with in that namespace. *)
Definition enc_material (pt : list (string * bytes)) (e : event) (before : list event) : Prop :=
  match e with
  | EvBuildActive ns _ _ _ p _ | EvEncKey ns _ p _ => exists b c, dget ns pt = Some b /\ EvEncPlain ns b (Val (c, p)) ∈ before
  | _ => False
  end.

(* ------------------------------------------------------------------------------------------------ *)
(** * Devices *)

(** account and device id *)
Definition dkey (d : device) : string * Z := (dv_jid d, dv_id d).
Definition en_dkey (en : enc) : string * Z := (en_jid en, en_dev en).
Definition ee_dkey (er : enc_error) : string * Z := (ee_jid er, ee_dev er).
(** Device [x] of account [j] could not be encrypted for in namespace [ns]: the failures that are reported, and the call
    that failed with [e]. *)
Definition failed_with (ns : string) (j : string) (x : Z) (e : exn) (evs : list event) : Prop :=
  (e = EBundleDownloadFailed \/ e = EBundleNotFound \/ e = EKeyExchangeFailed) /\
  (EvDownloadBundle ns j x (Exn e) ∈ evs \/ (exists b p, EvBuildActive ns j x b p (Exn e) ∈ evs) \/
   (exists s p, EvLoadSession ns j x (Val (Some s)) ∈ evs /\ EvEncKey ns s p (Exn e) ∈ evs)).
(** the trust of the device was evaluated *)
Definition evaluated (l : list event) (k : string * Z) : Prop := exists d r, EvEval d r ∈ l /\ dkey d = k.
Definition all_evals (evs : list event) : Prop := Forall (fun e => is_eval e = true) evs.
(** what a message has to contain for an encryption: its namespace, the key material, the key exchange if due *)
Definition en_keyns (en : enc) : string * (ekm * option kex) := (en_ns en, (en_key en, kex_due (en_session en))).
(** the namespaces of the plaintext encryptions *)
Fixpoint plains (l : list event) : list string :=
  match l with [] => [] | EvEncPlain ns _ _ :: l' => ns :: plains l' | _ :: l' => plains l' end.
(** [C e before] holds of every [e] in the log, [before] being the part older than it. *)
Definition traced (C : event -> list event -> Prop) (evs : list event) : Prop :=
  forall post e pre, evs = post ++ e :: pre -> C e pre.

(** The device of an encryption belongs to a requested account or the own one, and is not the sending device. *)
Definition requested (cf : cfg) (bare_jids : list string) (d : device) : Prop :=
  (dv_jid d ∈ bare_jids \/ dv_jid d = c_jid cf) /\ ~ (dv_jid d = c_jid cf /\ dv_id d = c_dev cf).
(** Its namespace is the first one in the priority order in which the storage has it active. *)
Definition first_active (d : gmap string json) (dv : device) (prio : list string) : Prop :=
  exists l1 ns l2, prio = l1 ++ ns :: l2 /\ head (dv_namespaces dv) = Some ns /\ active_for d (dv_jid dv) (dv_id dv) ns /\
    forall n, n ∈ l1 -> ~ active_for d (dv_jid dv) (dv_id dv) n.
Definition priority_of (priority : option (list string)) (w : world) : list string :=
  match priority with Some l => l | None => w_loaded w end.
(** A device that may be encrypted for, judged by the storage when encrypt was called. *)
Definition recipient (cf : cfg) (priority : option (list string)) (bare_jids : list string) (w : world) (d : device) : Prop :=
  requested cf bare_jids d /\ known (w_disk w) (dv_jid d) (dv_id d) /\
  first_active (w_disk w) d (priority_of priority w) /\
  (keyed (w_disk w) (dv_jid d) (dv_id d) (dv_ik d) \/ w_disk w !! item_key (IIdentityKey (dv_jid d) (dv_id d)) = None).

(* ------------------------------------------------------------------------------------------------ *)
(** * Sessions *)

(** The session of a device: the one stored last, unless the backend was told to forget it since. *)
Fixpoint last_session (l : list event) (ns j : string) (x : Z) : option session :=
  match l with
  | [] => None
  | EvStoreSession ns' s (Val _) :: l' =>
      if bool_decide (ns' = ns /\ s_jid s = j /\ s_dev s = x) then Some s else last_session l' ns j x
  | EvPurge ns' (Val _) :: l' => if decide (ns' = ns) then None else last_session l' ns j x
  | EvPurgeJid ns' j' (Val _) :: l' => if bool_decide (ns' = ns /\ j' = j) then None else last_session l' ns j x
  | _ :: l' => last_session l' ns j x
  end.
(** Contract: backends load what was stored last, and their sessions belong to the device they were asked for. *)
Definition sessions_kept (w : world) (c : cmd) : resp c -> Prop :=
  match c return resp c -> Prop with
  | BLoadSession ns j x => fun r => match r with Val m => m = last_session (w_log w) ns j x | Exn _ => True end
  | BEncKey _ s _ => fun r => match r with Val (s', _) => s_jid s' = s_jid s /\ s_dev s' = s_dev s | Exn _ => True end
  | BBuildActive _ j x _ _ => fun r => match r with Val (s', _) => s_jid s' = j /\ s_dev s' = x | Exn _ => True end
  | _ => fun _ => True
  end.

(** The calls of one empty message, newest first. *)
Inductive empty_calls (cf : cfg) (ns : string) (s : session) : list event -> Prop :=
  | em_none : empty_calls cf ns s []
  | em_content r : empty_calls cf ns s [EvEncEmpty ns r]
  | em_key c p r : empty_calls cf ns s [EvEncKey ns s p r; EvEncEmpty ns (Val (c, p))]
  | em_send c p s' e r :
      empty_calls cf ns s [EvSend (Message ns (c_jid cf) (c_dev cf) c [(e, kex_due s')]) (s_jid s') r;
        EvEncKey ns s p (Val (s', e)); EvEncEmpty ns (Val (c, p))]
  | em_store c p s' e r :
      empty_calls cf ns s [EvStoreSession ns s' r;
        EvSend (Message ns (c_jid cf) (c_dev cf) c [(e, kex_due s')]) (s_jid s') (Val tt);
        EvEncKey ns s p (Val (s', e)); EvEncEmpty ns (Val (c, p))].
