(** Theorem C91: session states that were used for a message handed out are not used again. *)
From Verif Require Import Ratchet Env PfRatchet PropsIdentity PropsDevices PropsTrust PropsEncrypt PropsSync.
Open Scope prog_scope.
Open Scope string_scope.
Open Scope list_scope.

(** ** C91 *)
(** Whatever starts later (any calls in any interleaving, failing or not, crashes, restarts, purges) uses the session that is
    stored now, or younger ones. *)
Theorem C91_never_older (age : session -> nat) (P : world -> forall c, resp c -> Prop) w w' ns j x s :
  (forall w c r, P w c r -> ratchet age w c r) -> last_session (w_log w) ns j x = Some s -> later P w w' ->
  exists new, w_log w' = new ++ w_log w /\
    forall s2 p r, EvEncKey ns s2 p r ∈ new -> s_jid s2 = j -> s_dev s2 = x -> (age s <= age s2)%nat.
Proof. intros HP Hs. exact (never_older age P HP w w' ns j x _ (stored_floor age w ns j x s Hs)). Qed.
Print Assumptions C91_never_older.
(** Messages returned by encrypt: [post] are the calls encrypt made after the trust decision. *)
Theorem C91_messages (age : session -> nat) (P : world -> forall c, resp c -> Prop) cf mtd ident pt priority bare_jids w r w1 w2 :
  (forall w c r, P w c r -> ratchet age w c r) -> NoDup (w_loaded w) -> (forall ds i, appcode any_call (mtd ds i)) ->
  exec (with_contract P) (encrypt cf mtd bare_jids pt priority ident) w (Val r) w1 -> later P w1 w2 ->
  exists pre dec post new, w_log w1 = post ++ dec ++ pre ++ w_log w /\ Forall enc_pre pre /\ Forall enc_post post /\
    w_log w2 = new ++ w_log w1 /\ (forall ns s, spent ns s post -> ~ used ns s new) /\
    forall en s p r, en ∈ encs post -> EvEncKey (en_ns en) s p r ∈ new -> s_jid s = en_jid en -> s_dev s = en_dev en ->
      (age (en_session en) <= age s)%nat.
Proof. intros HP. exact (spent_encrypt age P HP cf mtd ident pt priority bare_jids w r w1 w2). Qed.
Print Assumptions C91_messages.
(** Empty messages sent by any other call that returned (decrypt, after_history_sync). *)
Theorem C91_other_calls (age : session -> nat) (P : world -> forall c, resp c -> Prop) c w v w1 w2 :
  (forall w c r, P w c r -> ratchet age w c r) -> (match c with KEncrypt _ _ _ _ _ _ => False | _ => True end) ->
  exec (with_contract P) (run_call c) w (Val v) w1 -> later P w1 w2 ->
  exists own new, w_log w1 = own ++ w_log w /\ w_log w2 = new ++ w_log w1 /\ forall ns s, spent ns s own -> ~ used ns s new.
Proof. intros HP. exact (spent_call age P HP c w v w1 w2). Qed.
Print Assumptions C91_other_calls.

(** A backend with such sessions: the age is the length of the sending chain, new sessions start above all stored ones. *)
Definition ex_age (s : session) : nat := Z.to_nat (s_scl s).
Fixpoint newest (l : list (string * session)) : nat := match l with [] => 0%nat | (_, s) :: l' => Nat.max (ex_age s) (newest l') end.
Definition env_r (w : world) (c : cmd) : resp c :=
  match c return resp c with
  | BBuildActive ns j x b p =>
      Val (Session ns j x Active false (Kex "own" (b_rest b)) None (1 + Z.of_nat (newest (stored (w_log w)))) "a", Ekm j x "k")
  | BBuildPassive ns j x k e => Val (Session ns j x Passive true k (Some 1%Z) (1 + Z.of_nat (newest (stored (w_log w)))) "p", "km")
  | BEncKey ns s p => Val (Session (s_ns s) (s_jid s) (s_dev s) (s_init s) true (s_kex s) None (Z.max 0 (s_scl s) + 1) "e", Ekm (s_jid s) (s_dev s) "k")
  | BDecKey ns s e => Val (s, "km")
  | c => env w c
  end.
Lemma newest_le l ns s : (ns, s) ∈ l -> (ex_age s <= newest l)%nat.
Proof.
  induction l as [|[n s0] l IH]; [by intros ?%elem_of_nil|]. intros [[= -> ->]|H]%elem_of_cons; simpl; [lia|]. apply IH in H. lia.
Qed.
Lemma env_r_allowed w c : allowed (with_contract (ratchet ex_age)) w c (env_r w c).
Proof.
  split; [destruct c; try apply env_allowed; done|]. destruct c; try done; cbn.
  - split; [done|]. split; [done|]. intros s0 Hs _ _. apply newest_le in Hs. unfold ex_age in *. cbn [s_scl]. lia.
  - split; [done|]. split; [done|]. intros s0 Hs _ _. apply newest_le in Hs. unfold ex_age in *. cbn [s_scl]. lia.
  - split; [done|]. split; [done|]. unfold ex_age. cbn [s_scl]. lia.
Qed.
(** A message for device 5 (existing session) and 6, 7 (new sessions); later another one, sent by a program running next to
    a history synchronization that ends. *)
Definition ex_r1 := run (with_contract (ratchet ex_age)) env_r (encrypt cf0 ignore ["you"] ex_pt None None) ex_w_ses.
Definition ex_later : list (api unit) :=
  [encrypt cf0 ignore ["you"] ex_pt None None ;;; Ret tt; before_history_sync ;;; after_history_sync cf0].
Definition ex_turns : list nat := concat (replicate 100 [0; 1])%nat.
Definition ex_r2 := run_sched (with_contract (ratchet ex_age)) awaited env_r ex_turns (ex_later, ex_r1.2, None).
Definition states (l : list event) : list (Z * Z) :=
  omap (fun e => match e with EvEncKey _ s _ (Val _) => Some (s_dev s, s_scl s) | _ => None end) l.
Example C91_example :
  exec (with_contract (ratchet ex_age)) (run_call (KEncrypt cf0 ignore ["you"] ex_pt None None)) ex_w_ses ex_r1.1 ex_r1.2 /\
  (forall ds i, appcode any_call (ignore ds i)) /\ NoDup (w_loaded ex_w_ses) /\
  later_run (ratchet ex_age) ex_r1.2 ex_r2.1.2 /\ ex_r2.1.1 = [Ret tt; Ret tt] /\
  states (w_log ex_r1.2) = [(5, 3)]%Z /\ states (w_log ex_r2.1.2) = [(7, 4); (6, 4); (5, 4); (5, 3)]%Z.
Proof.
  assert (exec (with_contract (ratchet ex_age)) (encrypt cf0 ignore ["you"] ex_pt None None) ex_w_ses ex_r1.1 ex_r1.2) as H1.
  { exact (run_exec (with_contract (ratchet ex_age)) env_r (encrypt cf0 ignore ["you"] ex_pt None None) ex_w_ses env_r_allowed). }
  assert (preach (with_contract (ratchet ex_age)) (ex_later, ex_r1.2) ex_r2.1) as H2.
  { unfold ex_r2. generalize ex_r1.2 ex_turns. intros w t.
    exact (areach_preach _ _ _ _ (run_sched_areach (with_contract (ratchet ex_age)) awaited env_r t (ex_later, w, None) env_r_allowed)). }
  assert (ex_r2.1.1 = [Ret tt; Ret tt]) as E1 by (vm_compute; reflexivity).
  assert (states (w_log ex_r1.2) = [(5, 3)]%Z) as E2 by (vm_compute; reflexivity).
  assert (states (w_log ex_r2.1.2) = [(7, 4); (6, 4); (5, 4); (5, 3)]%Z) as E3 by (vm_compute; reflexivity).
  split; [exact H1|]. clear H1. split; [intros; constructor|]. split; [apply (bool_decide_unpack _); vm_compute; exact Logic.I|].
  split; [|split; [exact E1|split; [exact E2|exact E3]]]. clear E1 E2 E3.
  revert H2. generalize ex_r2.1. intros cfg H2. exists ex_later, cfg. split; [|split; [exact H2|split; reflexivity]]. clear H2.
  apply Forall_cons. split; [|apply Forall_singleton].
  - apply app_bind; [|intros; constructor].
    apply (app_call _ _ (KEncrypt cf0 ignore ["you"] ex_pt None None)); [exact Logic.I|]. intros ? ? ? ? ? ? [= <- <- <- <- <- <-]. intros. constructor.
  - apply app_bind; [apply (app_call _ _ KBefore); [exact Logic.I|discriminate]|].
    intros ?. apply (app_call _ _ (KAfter cf0)); [exact Logic.I|discriminate].
Qed.
