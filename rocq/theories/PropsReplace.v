(** Properties of replace_sessions and get_sending_chain_length. *)
From Verif Require Import Api Spec Alone Dec Rot Repl Env PfAlone PfReplace PfExec PropsDevices PropsTrust PropsEncrypt PropsDecrypt.
Open Scope prog_scope.
Open Scope string_scope.
Open Scope list_scope.

(** ** C62 *)
(** In every run, with any concurrent activity: a session is stored only directly after the message announcing it was sent to
    the device; the message carries the key exchange of this very session, which was built from the bundle just downloaded. *)
Theorem C62_store_after_send (P : world -> forall c, resp c -> Prop) cf j x evs :
  reach (alone P) (replace_sessions cf j x) [] evs ->
  traced (fun e before =>
    match e with
    | EvStoreSession ns s _ => exists c p b k l, before =
        [EvSend (Message ns (c_jid cf) (c_dev cf) c [(k, Some (s_kex s))]) j (Val tt); EvBuildActive ns j x b p (Val (s, k));
         EvDownloadBundle ns j x (Val b); EvEncEmpty ns (Val (c, p))] ++ l
    | EvSend m j' _ => j' = j /\ exists ns c p b s k l, m = Message ns (c_jid cf) (c_dev cf) c [(k, Some (s_kex s))] /\
        before = [EvBuildActive ns j x b p (Val (s, k)); EvDownloadBundle ns j x (Val b); EvEncEmpty ns (Val (c, p))] ++ l
    | _ => True
    end) evs.
Proof. exact (replace_order P cf j x evs). Qed.
Print Assumptions C62_store_after_send.
(** The whole of a successful call: the backends loaded at the start are asked for their session with the device, then each
    backend loaded now, in order, replaces its session if it had one and the device supports it, and is left alone otherwise.
    An exception of the library while doing so is returned for the backend, and the others are served. *)
Theorem C62_each_backend (P : world -> forall c, resp c -> Prop) cf j x res evs :
  (forall w c r, P w c r -> distinct_backends w c r) ->
  exec (alone P) (replace_sessions cf j x) [] (Val res) evs ->
  exists pre ds d bs ms bs' rs vs,
    exec (alone P) (get_device_information cf j) [] (Val ds) pre /\ d ∈ ds /\ dv_id d = x /\
    answer P GLoaded bs /\ length ms = length bs /\ answer P GLoaded bs' /\ length rs = length bs' /\ length vs = length bs' /\
    evs = concat (rev vs) ++ rev (zip_with (fun ns m => EvLoadSession ns j x (Val m)) bs ms) ++ pre /\
    (forall i ns r v, bs' !! i = Some ns -> rs !! i = Some r -> vs !! i = Some v ->
      outcome_of cf j x (ns ∈ dv_namespaces d /\ exists k s, bs !! k = Some ns /\ ms !! k = Some (Some s)) ns r v) /\
    (forall ns err, (ns, err) ∈ res <-> exists i, bs' !! i = Some ns /\ rs !! i = Some (Some err)).
Proof.
  intros HP H. assert (forall bs, answer P GLoaded bs -> NoDup bs) as HL by (intros bs (w & _ & Hp); by apply HP in Hp).
  destruct (replace_sessions_val P cf j x res evs H HL) as (pre & ds & d & bs & ms & bs' & rs & vs & H1 & H2 & H3 & H4 & H5 & H6 & H7 & H8 & H9 & H10 & ->).
  exists pre, ds, d, bs, ms, bs', rs, vs. do 10 (split; [done|]). apply errors_elem.
Qed.
Print Assumptions C62_each_backend.
(** A returned error is an exception of the library; the calls made for the backend stopped there and nothing was stored. *)
Theorem C62_returned_error (P : world -> forall c, resp c -> Prop) cf j x res evs :
  (forall w c r, P w c r -> distinct_backends w c r) ->
  exec (alone P) (replace_sessions cf j x) [] (Val res) evs ->
  forall ns err, (ns, err) ∈ res -> is_omemo err = true /\
    (exists l1 l2 v, evs = l1 ++ v ++ l2 /\ not_replaced cf j x ns err v) /\ forall s, EvStoreSession ns s (Val tt) ∉ evs.
Proof.
  intros HP H. assert (forall bs, answer P GLoaded bs -> NoDup bs) as HL by (intros bs (w & _ & Hp); by apply HP in Hp).
  exact (replace_results P cf j x res evs H HL).
Qed.
Print Assumptions C62_returned_error.
(** An exception of the library that is raised rather than returned comes from before the first replacement. *)
Theorem C62_raised_error (P : world -> forall c, resp c -> Prop) cf j x err evs :
  exec (alone P) (replace_sessions cf j x) [] (Exn err) evs -> is_omemo err = true -> Forall (fun e => replacing_ev e = false) evs.
Proof. exact (replace_exn P cf j x err evs). Qed.
Print Assumptions C62_raised_error.
(** Device 5 of "you" has sessions with two backends; no session can be built with the first one. *)
Definition env_nobuild (w : world) (c : cmd) : resp c :=
  match c return resp c with
  | BBuildActive ns j x b p => if decide (ns = "n") then Exn EKeyExchangeFailed else env w (BBuildActive ns j x b p)
  | c => env w c
  end.
Lemma env_nobuild_allowed w c : w_allowed w c (env_nobuild w c).
Proof. destruct c; try apply env_allowed. simpl. by case_decide. Qed.
Definition ex_ses_m : session := Session "m" "you" 5 Passive true (Kex "a" "b") None 3 "old".
Definition ex_w_repl : world := World (w_disk (run base env (update_device_list cf0 "m" "you" [(5%Z, None)]) ex_w_keys).2) ["n"; "m"] false
  [EvStoreSession "n" (ex_ses Active true) (Val tt); EvStoreSession "m" ex_ses_m (Val tt)].
Definition shown (r : outcome (list (string * exn)) * world) : outcome (list (string * exn)) * list (string * string * nat) :=
  (r.1, omap (fun e => match e with EvSend m j _ => Some ("send", m_ns m, length (m_keys m)) | EvStoreSession n s _ => Some (s_state s, n, 0) | EvEncEmpty n _ => Some ("empty", n, 0)
              | EvBuildActive n _ _ _ _ r => Some (match r with Val _ => "built" | Exn _ => "failed" end, n, 0) | _ => None end) (drop 2 (rev (w_log r.2))))%nat.
Example C62_example :
  shown (run base env_nobuild (replace_sessions cf0 "you" 5) ex_w_repl) =
    (Val [("n", EKeyExchangeFailed)], [("empty", "n", 0); ("failed", "n", 0); ("empty", "m", 0); ("built", "m", 0); ("send", "m", 1); ("a:ik:you", "m", 0)]%nat) /\
  shown (run base env (replace_sessions cf0 "you" 5) ex_w_repl) =
    (Val [], [("empty", "n", 0); ("built", "n", 0); ("send", "n", 1); ("a:ik:you", "n", 0); ("empty", "m", 0); ("built", "m", 0); ("send", "m", 1); ("a:ik:you", "m", 0)]%nat) /\
  NoDup (w_loaded ex_w_repl).
Proof. split; [vm_compute; reflexivity|]. split; [vm_compute; reflexivity|]. repeat constructor; set_solver. Qed.

(** ** C63 *)
(** A device which the library does not know makes [next] raise StopIteration inside a coroutine, which surfaces as
    RuntimeError, neither an exception of the library nor one of the outside. *)
Theorem C63_runtime_error_refuted :
  exists cf j x w w', exec base (replace_sessions cf j x) w (Exn ERuntime) w' /\ ~ known (w_disk w) j x /\ is_omemo ERuntime = false /\
    Forall (fun e => event_exn e = None) (w_log w').
Proof.
  pose (r := run base env (replace_sessions cf0 "you" 9) w0).
  pose proof (run_exec base env (replace_sessions cf0 "you" 9) w0 env_allowed) as H. fold r in H.
  assert (r.1 = Exn ERuntime) as E by (vm_compute; reflexivity). rewrite E in H.
  exists cf0, "you", 9%Z, w0, r.2. split; [exact H|]. split.
  - intros (l & (v & Hv & _) & _). vm_compute in Hv. discriminate Hv.
  - split; [reflexivity|]. vm_compute. constructor.
Qed.
Print Assumptions C63_runtime_error_refuted.
(** An exception is that RuntimeError, with the device missing in the device information and nothing replaced; or it was
    raised by the call last made to the outside; or get_device_information raised it (for which see C26). Missing: the
    RuntimeError is not one of the documented exceptions. *)
Theorem C63_exceptions_partial (P : world -> forall c, resp c -> Prop) cf j x err evs :
  exec (alone P) (replace_sessions cf j x) [] (Exn err) evs ->
  exec (alone P) (get_device_information cf j) [] (Exn err) evs \/
  (err = ERuntime /\ exists ds, exec (alone P) (get_device_information cf j) [] (Val ds) evs /\ forall d, d ∈ ds -> dv_id d <> x) \/
  exists e l, evs = e :: l /\ event_exn e = Some err.
Proof. exact (replace_raised P cf j x err evs). Qed.
Print Assumptions C63_exceptions_partial.
(** It is always raised if the device is missing. *)
Theorem C63_unknown_device_partial (P : world -> forall c, resp c -> Prop) cf j x ds evs :
  exec (alone P) (get_device_information cf j) [] (Val ds) evs -> (forall d, d ∈ ds -> dv_id d <> x) ->
  exec (alone P) (replace_sessions cf j x) [] (Exn ERuntime) evs.
Proof. exact (replace_unknown P cf j x ds evs). Qed.
Print Assumptions C63_unknown_device_partial.
Definition env_nostore (w : world) (c : cmd) : resp c :=
  match c return resp c with BStoreSession _ _ => Exn EBackend | NSend _ _ => Exn ECancelled | c => env w c end.
Example C63_example :
  (run base env_nostore (replace_sessions cf0 "you" 5) ex_w_repl).1 = Exn ECancelled /\
  (run base env_nostore (replace_sessions cf0 "you" 8) ex_w_repl).1 = Exn ERuntime.
Proof. vm_compute. split; reflexivity. Qed.

(** ** C67 *)
(** get_sending_chain_length asks each loaded backend in one of the given namespaces once and returns what it answered, in
    order; it raises exactly what a backend raised. *)
Theorem C67_entries (P : world -> forall c, resp c -> Prop) j x namespaces o evs :
  (forall w c r, P w c r -> distinct_backends w c r) ->
  exec (alone P) (get_sending_chain_length j x namespaces) [] o evs ->
  exists bs, answer P GLoaded bs /\
    let asked := filter (fun ns => ns ∈ namespaces) bs in
    match o with
    | Val res => exists ms, length ms = length asked /\ evs = rev (zip_with (fun ns m => EvLoadSession ns j x (Val m)) asked ms) /\
        res = zip asked (map (fmap s_scl) ms)
    | Exn err => exists ms ns, asked !! length ms = Some ns /\
        evs = EvLoadSession ns j x (Exn err) :: rev (zip_with (fun ns m => EvLoadSession ns j x (Val m)) asked ms)
    end.
Proof.
  intros HP H. unfold get_sending_chain_length in H. cbn [bind g_loaded exec] in H. destruct H as (bs & Hbs & H).
  exists bs. split; [exact Hbs|]. apply chain_fold in H; [|destruct Hbs as (w & _ & Hp); by apply HP in Hp|done].
  cbv zeta. destruct o as [res|err].
  - destruct H as (ms & E1 & E2 & E3). exists ms. split; [done|]. by rewrite app_nil_r in E2.
  - destruct H as (ms & ns & E1 & E2). exists ms, ns. split; [done|]. by rewrite app_nil_r in E2.
Qed.
Print Assumptions C67_entries.
(** Nothing is changed: at every point, the only calls made are loads of sessions of the device in the given namespaces. *)
Theorem C67_read_only (P : world -> forall c, resp c -> Prop) j x namespaces evs :
  reach (alone P) (get_sending_chain_length j x namespaces) [] evs ->
  Forall (fun e => exists ns r, ns ∈ namespaces /\ e = EvLoadSession ns j x r) evs.
Proof. exact (chain_reach P j x namespaces evs). Qed.
Print Assumptions C67_read_only.
Example C67_example :
  (run base env (get_sending_chain_length "you" 5 ["m"; "n"; "o"]) ex_w_repl).1 = Val [("n", Some 3%Z); ("m", Some 3%Z)] /\
  (run base env (get_sending_chain_length "you" 6 ["m"; "o"]) ex_w_repl).1 = Val [("m", None)].
Proof. vm_compute. split; reflexivity. Qed.
