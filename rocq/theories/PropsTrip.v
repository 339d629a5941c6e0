(** Theorems C88: what one account sends is what another one reads. Vocabulary in Trip.v; events are listed newest first. *)
From Verif Require Import Api Spec Alone Env Dec Trip PfAlone PfTrip PfTrip2 PropsDevices PropsTrust PropsPurge PropsEncrypt.
Open Scope prog_scope.
Open Scope string_scope.
Open Scope list_scope.

(** Each message returned by encrypt comes from this device, its content is the plaintext given for its namespace, and
    every recipient gets the key material that belongs to it. *)
Theorem C88_written (P : world -> forall c, resp c -> Prop) cf mtd jids pt prio ident msgs errs m p evs :
  exec (alone P) (encrypt cf mtd jids pt prio ident) [] (Val (msgs, errs)) evs -> (m, p) ∈ msgs ->
  m_jid m = c_jid cf /\ m_dev m = c_dev cf /\
  (exists b, dget (m_ns m) pt = Some b /\ EvEncPlain (m_ns m) b (Val (m_content m, p)) ∈ evs) /\
  forall e k, (e, k) ∈ m_keys m -> sealed (m_ns m) p e evs.
Proof. exact (enc_written P cf mtd ident pt prio jids msgs errs m p evs). Qed.
Print Assumptions C88_written.

(** Round trip: another device that decrypts a message returned by encrypt gets the plaintext given for the namespace
    of the message, the key material returned by encrypt, and the device information of the sender. Whatever else goes on
    at both ends, provided their cryptography fits together. *)
Theorem C88_round_trip (P P' : world -> forall c, resp c -> Prop) cfA cfB mtd jids pt prio ident msgs errs m p la o d p' lb :
  exec (alone P) (encrypt cfA mtd jids pt prio ident) [] (Val (msgs, errs)) la -> (m, p) ∈ msgs ->
  exec (alone P') (decrypt cfB m) [] (Val (o, d, p')) lb -> correct_crypto la lb ->
  (exists b, o = Some b /\ dget (m_ns m) pt = Some b) /\ p' = p /\ dv_jid d = c_jid cfA /\ dv_id d = c_dev cfA.
Proof. exact (round_trip P P' cfA cfB mtd jids pt prio ident msgs errs m p la o d p' lb). Qed.
Print Assumptions C88_round_trip.

(** The messages sent by the library itself: at every point of any code that uses the library (trust decisions included)
    they come from this device, they are empty, and they have one recipient, who gets the key material that belongs to
    the content. *)
Theorem C88_sent {A} (P : world -> forall c, resp c -> Prop) cf (prog : api A) evs :
  libcode (sends_as cf) prog -> reach (alone P) prog [] evs ->
  traced (fun e before => match e with EvSend m _ _ => exists p, written_empty cf m p before | _ => True end) evs.
Proof. exact (sent_written P cf prog evs). Qed.
Print Assumptions C88_sent.

(** A device that decrypts such a message gets no plaintext, and the device information of the sender. *)
Theorem C88_empty_trip {A} (P P' : world -> forall c, resp c -> Prop) cfA cfB (prog : api A) m j r la o d p' lb :
  libcode (sends_as cfA) prog -> reach (alone P) prog [] la -> EvSend m j r ∈ la ->
  exec (alone P') (decrypt cfB m) [] (Val (o, d, p')) lb -> correct_crypto la lb ->
  o = None /\ dv_jid d = c_jid cfA /\ dv_id d = c_dev cfA /\ EvEncEmpty (m_ns m) (Val (m_content m, p')) ∈ la.
Proof. exact (sent_read P P' cfA cfB prog m j r la o d p' lb). Qed.
Print Assumptions C88_empty_trip.

(** ** Example: "me" encrypts "hi" for "you", who decrypts it and answers with an empty message, which "me" decrypts. *)
Definition unseal (s : string) : string := match s with String _ (String _ s') => s' | _ => s end.
Definition env_c (w : world) (c : cmd) : resp c :=
  match c return resp c with
  | NDownloadBundle ns j d => Val (Bundle ns j d "own" "remote")
  | BEncPlain ns pt => Val (Content false ("c:" +:+ pt), "p:" +:+ pt)
  | BEncKey ns s p => Val (advance s, Ekm (s_jid s) (s_dev s) ("k:" +:+ p))
  | BDecPlain ns c p => Val (unseal (ct_data c))
  | BBuildPassive ns j d k e => Val (Session ns j d Passive true k (Some 1%Z) 0 "s", unseal (ek_data e))
  | BDecKey ns s e => Val (advance s, unseal (ek_data e))
  | c => env w c
  end.
Lemma env_c_allowed w c : w_allowed w c (env_c w c).
Proof. destruct c; try apply env_allowed; done. Qed.
(** this cryptography fits together *)
Definition sound (e : event) : Prop :=
  match e with
  | EvEncPlain _ b (Val (c, p)) => c = Content false ("c:" +:+ b)
  | EvEncEmpty _ (Val (c, p)) => ct_empty c = true
  | EvEncKey _ _ p (Val (_, e)) | EvBuildActive _ _ _ _ p (Val (_, e)) => ek_data e = "k:" +:+ p
  | EvDecKey _ _ e (Val (_, p)) | EvBuildPassive _ _ _ _ e (Val (_, p)) => p = unseal (ek_data e)
  | EvDecPlain _ c _ (Val b) => b = unseal (ct_data c)
  | _ => True
  end.
Lemma sound_crypto la lb : Forall sound la -> Forall sound lb -> correct_crypto la lb.
Proof.
  rewrite !Forall_forall. intros HA HB. split; [|split; [|split]].
  - intros ns p e p' Hs Hu.
    assert (ek_data e = "k:" +:+ p) as E by (destruct Hs as [(s & s' & H)|(j & x & b & s & H)]; exact (HA _ H)).
    assert (p' = unseal (ek_data e)) as -> by (destruct Hu as [(s & s' & H)|(j & x & k & s & H)]; exact (HB _ H)). by rewrite E.
  - intros ns b c p b' H1%HA H2%HB. simpl in *. by subst.
  - intros ns b c p H1%HA. simpl in *. by subst.
  - intros ns c p H1%HA. exact H1.
Qed.
Definition cf_you : cfg := Cfg "you" 5 "U" 50.
Definition fresh (w : world) : world := World (w_disk w) (w_loaded w) (w_sync w) [].
Definition ex_me : world := fresh (run base env_c (update_device_list cf0 "n" "you" [(5%Z, None)]) w0).2.
Definition ex_you : world := fresh (run base env_c (update_device_list cf_you "n" "me" [(1%Z, None)]) w0).2.
Definition ex_sent := run base env_c (encrypt cf0 ignore ["you"] [("n", "hi")] None None) ex_me.
Definition ex_sent_m : message := Message "n" "me" 1 (Content false "c:hi") [(Ekm "you" 5 "k:p:hi", Some (Kex "own" "remote"))].
Definition ex_read := run base env_c (decrypt cf_you ex_sent_m) ex_you.
Definition ex_answer : message := Message "n" "you" 5 (Content true "") [(Ekm "me" 1 "k:empty", None)].
Definition ex_last := run base env_c (decrypt cf0 ex_answer) ex_sent.2.

(** the calls of a run *)
Lemma run_alone {A} (p : api A) w : exists evs, w_log (run base env_c p w).2 = evs ++ w_log w /\
  exec (alone anything) p [] (run base env_c p w).1 evs /\ reach (alone anything) p [] evs.
Proof.
  pose proof (run_exec base env_c p w env_c_allowed) as H.
  apply (exec_contract base (with_contract anything)) in H; [|done|done].
  apply alone_exec in H as (evs & E & H). exists evs. split; [done|]. split; [done|]. by eapply Prog.exec_reach.
Qed.
Example C88_example :
  (ex_sent.1 = Val ([(ex_sent_m, "p:hi")], []) /\
   exec (alone anything) (encrypt cf0 ignore ["you"] [("n", "hi")] None None) [] ex_sent.1 (w_log ex_sent.2)) /\
  ((exists d, ex_read.1 = Val (Some "hi", d, "p:hi")) /\
   exec (alone anything) (decrypt cf_you ex_sent_m) [] ex_read.1 (w_log ex_read.2) /\
   correct_crypto (w_log ex_sent.2) (w_log ex_read.2)) /\
  (libcode (sends_as cf_you) (decrypt cf_you ex_sent_m) /\ EvSend ex_answer "me" (Val tt) ∈ w_log ex_read.2) /\
  ((exists d, ex_last.1 = Val (None, d, "empty")) /\
   exists evs, exec (alone anything) (decrypt cf0 ex_answer) [] ex_last.1 evs /\ correct_crypto (w_log ex_read.2) evs).
Proof.
  assert (forall {A} (p : api A) w, w_log w = [] -> exec (alone anything) p [] (run base env_c p w).1 (w_log (run base env_c p w).2)) as Hrun.
  { intros A p w E. destruct (run_alone p w) as (evs & E1 & H & _). rewrite E1, E, app_nil_r. exact H. }
  assert (Forall sound (w_log ex_sent.2)) as F1 by (vm_compute; repeat constructor).
  assert (Forall sound (w_log ex_read.2)) as F2 by (vm_compute; repeat constructor).
  assert (Forall sound (w_log ex_last.2)) as F3 by (vm_compute; repeat constructor).
  split; [|split; [|split]].
  - split; [vm_compute; reflexivity|]. by apply Hrun.
  - split; [eexists; vm_compute; reflexivity|]. split; [by apply Hrun|]. by apply sound_crypto.
  - split; [by apply (app_call _ _ (KDecrypt cf_you ex_sent_m))|]. vm_compute. right. left.
  - split; [eexists; vm_compute; reflexivity|]. destruct (run_alone (decrypt cf0 ex_answer) ex_sent.2) as (evs & E & H & _).
    exists evs. split; [exact H|]. apply sound_crypto; [done|]. unfold ex_last in F3. rewrite E in F3. by apply Forall_app in F3 as [F3 _].
Qed.
