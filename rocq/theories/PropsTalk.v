(** Theorem C97: which calls tell the network what. *)
From Verif Require Import Api Spec Alone Env Talk PfTalk PropsDevices PropsTrust PropsEncrypt PropsDecrypt PropsSync PropsProv.
Open Scope prog_scope. Open Scope string_scope. Open Scope list_scope.

(** ** C97 *)
(** Whatever the coroutines do, however they are interleaved and whatever fails: everything that goes to the network is
    something one of the calls made by the application may say. *)
Theorem C97_told (ok : call -> Prop) (ps : list (api unit)) w ps' w' :
  Forall (fun p => libcode ok p) ps -> preach (with_contract all_named) (ps, w) (ps', w') ->
  exists new, w_log w' = new ++ w_log w /\ forall e, e ∈ new -> to_network e -> exists c, ok c /\ tells c e.
Proof. exact (told ok ps w ps' w'). Qed.
Print Assumptions C97_told.
(** Accounts that no call is about are not asked about and not written to. *)
Theorem C97_strangers (ok : call -> Prop) (ps : list (api unit)) w ps' w' :
  Forall (fun p => libcode ok p) ps -> preach (with_contract all_named) (ps, w) (ps', w') ->
  exists new, w_log w' = new ++ w_log w /\ forall e j, e ∈ new -> addressed e = Some j -> exists c, ok c /\ about c j.
Proof. exact (strangers ok ps w ps' w'). Qed.
Print Assumptions C97_strangers.

(** A message is encrypted for "you" while one is decrypted, sessions are replaced, and "her" is forgotten. *)
Lemma env_all_named w c : allowed (with_contract all_named) w c (env_n w c).
Proof.
  destruct (env_named w c) as [H1 H2]. split; [exact H1|]. split; [exact H2|]. destruct c; try exact Logic.I. by cbn.
Qed.
Definition ex_talk_calls : list call :=
  [KEncrypt cf0 ignore ["you"] ex_pt None None; KDecrypt cf0 (ex_msg 5 ex_hi (Some ex_kex)); KReplace cf0 "you" 5; KPurgeJid "her"].
Definition ex_talk_ok (c : call) : Prop := c ∈ ex_talk_calls.
Definition ex_talk : list (api unit) := map (fun c => run_call c ;;; Ret tt) ex_talk_calls.
Definition ex_talk_end := run_sched (with_contract all_named) awaited env_n (concat (replicate 60 [0; 1; 2; 3])%nat) (ex_talk, ex_w_ses, None).
Definition said (e : event) : option (string * string) :=
  match e with
  | EvUploadBundle b _ => Some ("publish", b_ns b) | EvDownloadBundle ns j _ _ => Some ("bundle", j) | EvDeleteBundle ns _ _ => Some ("unpublish", ns)
  | EvUploadDL ns _ _ => Some ("announce", ns) | EvDownloadDL _ j _ => Some ("list", j) | EvSend _ j _ => Some ("send", j) | _ => None
  end.
Example C97_example :
  Forall (fun p => libcode ex_talk_ok p) ex_talk /\ preach (with_contract all_named) (ex_talk, ex_w_ses) ex_talk_end.1 /\
  ex_talk_end.1.1 = [Ret tt; Ret tt; Ret tt; Ret tt] /\ omap said (w_log ex_w_ses) = [] /\
  omap said (rev (w_log ex_talk_end.1.2)) =
    [("bundle", "you"); ("send", "you"); ("publish", "n"); ("send", "you"); ("bundle", "you"); ("bundle", "you")] /\
  forall e, to_network e -> ~ tells (KPurgeJid "her") e.
Proof.
  assert (preach (with_contract all_named) (ex_talk, ex_w_ses) ex_talk_end.1) as H.
  { unfold ex_talk_end. generalize (concat (replicate 60 [0; 1; 2; 3])%nat). intros t.
    exact (areach_preach _ _ _ _ (run_sched_areach (with_contract all_named) awaited env_n t (ex_talk, ex_w_ses, None) env_all_named)). }
  split.
  - unfold ex_talk. apply Forall_map, Forall_forall. intros c Hc. apply app_bind; [|intros; constructor].
    apply (app_call _ _ c); [exact Hc|]. intros cf mtd jids pt prio ident ->. intros ds i.
    assert (mtd = ignore) as ->; [|constructor].
    repeat (apply elem_of_cons in Hc as [E|Hc]; [first [discriminate E|injection E; congruence]|]). by apply elem_of_nil in Hc.
  - split; [exact H|]. clear H. split; [vm_compute; reflexivity|]. split; [reflexivity|]. split; [vm_compute; reflexivity|]. by intros e _ [].
Qed.
