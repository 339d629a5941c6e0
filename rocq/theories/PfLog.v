(** Traces: every event satisfies a condition on the events before it (newest first). *)
From Verif Require Import Api Spec Alone PfWp PfFrame PfHist PfEmits PfExec.
Open Scope prog_scope.
Open Scope list_scope.

(** Like [em], but the instance attributes may change. *)
Definition Flog (P : event -> Prop) (c : cmd) : Prop :=
  forall r, Eany c r -> match event_of c r with Some e => P e | None => True end.
Notation lg P p := (obeys Eany (Flog P) (fun _ => True) p).
Lemma em_lg {A} (P P' : event -> Prop) (p : api A) : em P p -> (forall e, P e -> P' e) -> lg P' p.
Proof.
  intros Hp HP. eapply obeys_mono; [exact Hp|done| |done].
  intros c Hc. destruct c; intros r Hr; try done; specialize (Hc r Hr); simpl in *; auto.
Qed.
Lemma lg_bind {A B} (P : event -> Prop) (p : api A) (f : A -> api B) : lg P p -> (forall a, lg P (f a)) -> lg P (bind p f).
Proof. intros Hp Hf. apply obeys_bind. eapply obeys_conseq; [exact Hp|]. by intros [a|e] _. Qed.
Lemma replay_apply w c r : replay (match event_of c r with Some e => [e] | None => [] end) (w_disk w) = w_disk (w_apply w c r).
Proof. destruct c; simpl; try done; by destruct r. Qed.
Lemma log_apply w c r : w_log (w_apply w c r) = match event_of c r with Some e => [e] | None => [] end ++ w_log w.
Proof. destruct c; simpl; try done; by destruct r. Qed.
Lemma lg_reach {A} (P : event -> Prop) (p : api A) w w' :
  lg P p -> reach base p w w' -> exists evs, Forall P evs /\ w_log w' = evs ++ w_log w /\ w_disk w' = replay evs (w_disk w).
Proof.
  revert w. induction p as [a|e|c k IH]; simpl; intros w Hp H.
  - destruct H as [->|[]]. exists []. split; [constructor|done].
  - destruct H as [->|[]]. exists []. split; [constructor|done].
  - destruct Hp as [Hc Hk]. destruct H as [->|(r & Hr & H)]; [exists []; split; [constructor|done]|].
    assert (Eany c r) as HE by (by eexists). specialize (Hc r HE).
    apply IH in H as (evs & HF & Hl & Hd); [|by apply Hk].
    exists (evs ++ match event_of c r with Some e => [e] | None => [] end). split; [|split].
    + apply Forall_app. split; [done|]. destruct (event_of c r); [by constructor|constructor].
    + rewrite Hl. simpl. rewrite log_apply, app_assoc. done.
    + rewrite replay_app. simpl in Hd. rewrite replay_apply; done.
Qed.
Lemma exec_reach' {A} (p : api A) w o w' : exec base p w o w' -> reach base p w w'.
Proof. apply exec_reach. Qed.

Lemma traced_nil (C : event -> list event -> Prop) : traced C [].
Proof. intros [|] ? ? ?; done. Qed.
Lemma traced_cons (C : event -> list event -> Prop) e evs : traced C (e :: evs) <-> C e evs /\ traced C evs.
Proof.
  split.
  - intros H. split; [by apply (H [])|]. intros post e' pre ->. by apply (H (e :: post)).
  - intros [H1 H2] [|e' post] e0 pre [= -> ->]; [done|]. by apply (H2 post).
Qed.
Lemma traced_app (C : event -> list event -> Prop) new evs :
  traced C evs -> Forall (fun e => forall l, C e (l ++ evs)) new -> traced C (new ++ evs).
Proof. intros H. induction 1 as [|e new He _ IH]; [done|]. simpl. apply traced_cons. auto. Qed.

Inductive ev_purge (cf : cfg) (ns : string) : event -> Prop :=
  | ep_info e : ev_info (c_jid cf) e -> ev_purge cf ns e
  | ep_down r : ev_purge cf ns (EvDownloadDL ns (c_jid cf) r)
  | ep_up dl r : dmem (c_dev cf) dl = false -> ev_purge cf ns (EvUploadDL ns dl r)
  | ep_active l r : ev_purge cf ns (EvStore (k_active (c_jid cf) (c_dev cf)) l r)
  | ep_ns l r : ev_purge cf ns (EvStore (k_ns (c_jid cf) (c_dev cf)) l r)
  | ep_purge r : ev_purge cf ns (EvPurge ns r)
  | ep_delete r : ev_purge cf ns (EvDeleteBundle ns (c_dev cf) r).
Global Hint Constructors ev_purge : core.
Lemma lg_purge_backend cf ns : lg (ev_purge cf ns) (purge_backend cf ns).
Proof.
  unfold purge_backend.
  assert (forall A (p : api A), em (ev_purge cf ns) p -> lg (ev_purge cf ns) p) as E.
  { intros A p Hp. eapply em_lg; [exact Hp|auto]. }
  apply lg_bind; [apply E; ev|intros dl].
  apply lg_bind; [|intros _].
  { apply E. destruct (dmem _ _); [|exact I]. ev. apply ep_up. unfold dmem. rewrite dget_dpop, decide_True by done. done. }
  apply lg_bind; [eapply em_lg; [apply em_own|auto]|intros r]. cbv zeta.
  repeat (apply lg_bind; [first [apply E; solve [emt|ev]|split; [intros ? ?; done|done]]|intros ?]).
  apply lg_bind; [|intros _; apply E; ev]. apply E. destruct (decide _); [|exact I]. ev.
Qed.
