(** Inversion of complete executions. *)
From Verif Require Import Api Spec PfWp PfEmits.
Open Scope prog_scope.
Open Scope list_scope.

Lemma exec_bind_val {A B} (p : api A) (f : A -> api B) w b w' :
  exec base (bind p f) w (Val b) w' -> exists a w1, exec base p w (Val a) w1 /\ exec base (f a) w1 (Val b) w'.
Proof. intros [(a & w1 & H)|(e & _ & ?)]%exec_bind; [eauto|done]. Qed.
Lemma exec_outcome {A} (o : outcome A) w o' w' : exec base (of_outcome o) w o' w' <-> o' = o /\ w' = w.
Proof. by destruct o. Qed.
Lemma exec_ext {A} c (cast : resp c -> outcome A) w o w' :
  exec base (Step c (fun r => of_outcome (cast r))) w o w' <-> exists r, w_allowed w c r /\ o = cast r /\ w' = w_apply w c r.
Proof. simpl. setoid_rewrite exec_outcome. done. Qed.
Lemma exec_order {A} (l : list A) w o w' : exec base (order l) w o w' -> exists l', l' ≡ₚ l /\ o = Val l' /\ w' = w.
Proof. intros (r & _ & H1 & H2). simpl in H2. exists (reorder r l). split; [apply reorder_perm|done]. Qed.
Lemma exec_loaded w o w' : exec base g_loaded w o w' -> o = Val (w_loaded w) /\ w' = w.
Proof. intros (r & Hr & H1 & H2). simpl in *. by subst. Qed.
Lemma exec_sync w o w' : exec base g_sync w o w' -> o = Val (w_sync w) /\ w' = w.
Proof. intros (r & Hr & H1 & H2). simpl in *. by subst. Qed.
Lemma exec_ploaded l w o w' : exec base (p_loaded l) w o w' -> o = Val tt /\ w' = World (w_disk w) l (w_sync w) (w_log w).
Proof. intros (r & Hr & H1 & H2). destruct r. simpl in *. by subst. Qed.
Lemma exec_psync b w o w' : exec base (p_sync b) w o w' -> o = Val tt /\ w' = World (w_disk w) (w_loaded w) b (w_log w).
Proof. intros (r & Hr & H1 & H2). destruct r. simpl in *. by subst. Qed.

(** one value-returning bind *)
Tactic Notation "xbind" hyp(H) "as" simple_intropattern(a) ident(w1) ident(H1) := apply exec_bind_val in H as (a & w1 & H1 & H).
(** an outside call that returned: the world is the logged one *)
Ltac xext H :=
  let r := fresh "r" in let Hr := fresh "Hr" in
  destruct H as (r & Hr & H); destruct r as [r|?]; simpl in H; [|by destruct H];
  let E := fresh in destruct H as [E H]; injection E as E; subst.

Lemma dget_dpop {K V} `{EqDecision K} (k k' : K) (d : list (K * V)) :
  dget k (dpop k' d) = if decide (k = k') then None else dget k d.
Proof.
  induction d as [|[k0 v] d IH]; simpl; [by destruct (decide (k = k'))|].
  destruct (decide (k' = k0)) as [->|Hk].
  - rewrite IH. by destruct (decide (k = k0)).
  - simpl. rewrite IH. destruct (decide (k = k0)) as [->|]; [|done]. rewrite decide_False by congruence. done.
Qed.
Lemma dpop_filter {K V} `{EqDecision K} (k : K) (d : list (K * V)) : dpop k d = filter (fun p => p.1 <> k) d.
Proof.
  induction d as [|[k0 v] d IH]; [done|]. rewrite filter_cons. simpl. destruct (decide (k = k0)) as [->|Hk].
  - rewrite decide_False by tauto. done.
  - rewrite decide_True by congruence. by rewrite IH.
Qed.
(** dictionaries with distinct keys can be permuted *)
Lemma dget_elem {K V} `{EqDecision K} (k : K) (v : V) d : NoDup (dkeys d) -> dget k d = Some v <-> (k, v) ∈ d.
Proof.
  unfold dkeys. induction d as [|[k0 v0] d IH]; simpl; intros Hn.
  - split; [done|by intros ?%elem_of_nil].
  - apply NoDup_cons in Hn as [Hn1 Hn2]. rewrite elem_of_cons. destruct (decide (k = k0)) as [->|Hk].
    + split; [intros [= ->]; by left|]. intros [[= ->]|Hin]; [done|]. exfalso. apply Hn1.
      apply elem_of_list_fmap. by exists (k0, v).
    + rewrite IH by done. split; [by right|]. intros [[= ? ?]|?]; done.
Qed.
Lemma dget_perm {K V} `{EqDecision K} (k : K) (d d' : list (K * V)) : NoDup (dkeys d) -> d' ≡ₚ d -> dget k d' = dget k d.
Proof.
  intros Hn Hp. assert (NoDup (dkeys d')) as Hn'. { unfold dkeys. by rewrite Hp. }
  apply option_eq. intros v. rewrite !dget_elem by done. by rewrite Hp.
Qed.
Lemma nodup_dpop {K V} `{EqDecision K} (k : K) (d : list (K * V)) : NoDup (dkeys d) -> NoDup (dkeys (dpop k d)).
Proof.
  rewrite dpop_filter. unfold dkeys. induction d as [|[k0 v] d IH]; [done|]. simpl. intros [H1 H2]%NoDup_cons.
  rewrite filter_cons. destruct (decide _); simpl; [|auto]. apply NoDup_cons. split; [|auto].
  intros Hc. apply H1. apply elem_of_list_fmap in Hc as (p & -> & Hp). apply elem_of_list_filter in Hp as [_ Hp].
  apply elem_of_list_fmap. eauto.
Qed.

(** ** Crash points *)
Lemma reach_outcome {A} (o : outcome A) w w' : reach base (of_outcome o) w w' -> w' = w.
Proof. destruct o; simpl; naive_solver. Qed.
Lemma reach_ext {A} c (cast : resp c -> outcome A) w w' :
  reach base (Step c (fun r => of_outcome (cast r))) w w' -> w' = w \/ exists r, w_allowed w c r /\ w' = w_apply w c r.
Proof. intros [->|(r & Hr & H)]; [by left|]. right. exists r. split; [done|]. by eapply reach_outcome. Qed.
Lemma reach_order {A} (l : list A) w w' : reach base (order l) w w' -> w' = w.
Proof. intros [->|(r & _ & H)]; [done|]. simpl in H. naive_solver. Qed.
Lemma reach_loaded w w' : reach base g_loaded w w' -> w' = w.
Proof. intros [->|(r & Hr & H)]; [done|]. simpl in *. naive_solver. Qed.
Lemma reach_ploaded l w w' : reach base (p_loaded l) w w' -> w' = w \/ w' = World (w_disk w) l (w_sync w) (w_log w).
Proof. intros [->|(r & Hr & H)]; [by left|]. simpl in *. naive_solver. Qed.
Lemma reach_ret {A} (a : A) w w' : reach base (Ret a) w w' -> w' = w.
Proof. simpl. naive_solver. Qed.
Lemma reach_raise {A} e w w' : reach base (Raise e : api A) w w' -> w' = w.
Proof. simpl. naive_solver. Qed.
Tactic Notation "rbind" hyp(H) "as" simple_intropattern(a) ident(w1) ident(H1) :=
  apply reach_bind in H as [H|(a & w1 & H1 & H)].

(** [w'] is [w] plus new events satisfying [P]. *)
Definition grew (P : event -> Prop) (w w' : world) : Prop := exists evs, w_log w' = evs ++ w_log w /\ Forall P evs.
Lemma grew_refl (P : event -> Prop) w : grew P w w.
Proof. by exists []. Qed.
Lemma grew_trans (P : event -> Prop) w1 w2 w3 : grew P w1 w2 -> grew P w2 w3 -> grew P w1 w3.
Proof. intros (e1 & E1 & F1) (e2 & E2 & F2). exists (e2 ++ e1). rewrite E2, E1, app_assoc. split; [done|]. by apply Forall_app. Qed.
Lemma grew_ext (P : event -> Prop) w c r : (match event_of c r with Some e => P e | None => True end) -> grew P w (w_apply w c r).
Proof.
  intros HP. exists (match event_of c r with Some e => [e] | None => [] end).
  split; [|destruct (event_of c r); auto]. unfold w_apply.
  assert (w_log (effect w c r) = w_log w) as HE by (destruct c; try done; by destruct r).
  destruct (event_of c r); simpl; by rewrite HE.
Qed.
Lemma grew_mono (P P' : event -> Prop) w w' : grew P w w' -> (forall e, P e -> P' e) -> grew P' w w'.
Proof. intros (e & E & F) H. exists e. split; [done|]. eapply Forall_impl; eauto. Qed.
Lemma grew_after (P : event -> Prop) w evs : Forall P evs -> grew P w (after evs w).
Proof. by exists evs. Qed.
Ltac gstep H := match type of H with reach _ _ ?w1 _ => apply (grew_trans _ _ w1) end.
