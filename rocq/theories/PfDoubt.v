(** The cache after writes that raised (C103). *)
From Verif Require Import Doubt PfStorage.
Open Scope prog_scope.
Open Scope list_scope.

Definition agree (L : list event) (w : rworld) : Prop :=
  exists new, w_log (r_world w) = new ++ L /\
    forall c k v, r_cache w = Some c -> c !! k = Some v -> w_disk (r_world w) !! k = v \/ in_doubt k new.

Lemma doubt_cons k e l : ~ write_of k e false -> in_doubt k l -> in_doubt k (e :: l).
Proof.
  intros He (post & e0 & pre & -> & H1 & H2). exists (e :: post), e0, pre. split; [done|]. split; [done|].
  intros e' [->|H]%elem_of_cons; [done|by apply H2].
Qed.
Lemma doubt_new k e l : write_of k e true -> in_doubt k (e :: l).
Proof. intros He. exists [], e, l. split; [done|]. split; [done|]. by intros e' H%elem_of_nil. Qed.

Lemma agree_other L w c r : match c with SLoad _ | SStore _ _ | SDelete _ => False | _ => True end ->
  agree L w -> agree L (RWorld (w_apply (r_world w) c r) (r_cache w)).
Proof.
  intros Hc (new & E & H). unfold w_apply.
  assert (w_log (effect (r_world w) c r) = w_log (r_world w) /\ w_disk (effect (r_world w) c r) = w_disk (r_world w)) as [El Ed] by (by destruct c).
  assert (forall e k, event_of c r = Some e -> ~ write_of k e false) as Hw.
  { intros e k He. destruct c; try done; simpl in He; injection He as <-; simpl; auto. }
  destruct (event_of c r) as [e|] eqn:Ee.
  - exists (e :: new). split; [simpl; by rewrite El, E|]. intros c' k v Hk Hv. simpl. rewrite Ed. destruct (H c' k v Hk Hv) as [?|?]; [by left|right].
    apply doubt_cons; [by apply Hw|done].
  - exists new. split; [simpl; by rewrite El|]. intros c' k v Hk Hv. simpl. rewrite Ed. by eapply H.
Qed.
(** A write that succeeded and is cached; a write that raised. *)
Lemma agree_done L w k (x : option json) e d w1 : agree L w -> write_of k e false -> (forall k', k' <> k -> ~ write_of k' e false) ->
  (forall k', k' <> k -> d !! k' = w_disk (r_world w) !! k') -> d !! k = x -> w_disk w1 = d -> w_log w1 = e :: w_log (r_world w) ->
  agree L (RWorld w1 (fmap (insert k x) (r_cache w))).
Proof.
  intros (new & E & Hc) He Hne Hd Hx <- El. exists (e :: new). split; [simpl; by rewrite El, E|].
  intros c k' v' Hk Hv'. simpl in *. destruct (r_cache w) as [c0|]; [|done]. injection Hk as <-. destruct (decide (k' = k)) as [->|Hn].
  - rewrite lookup_insert in Hv'. injection Hv' as <-. by left.
  - rewrite lookup_insert_ne in Hv' by done. destruct (Hc c0 k' v') as [?|?]; [done|done|left; by rewrite Hd|right]. by apply doubt_cons; [apply Hne|].
Qed.
Lemma agree_failed L w k e d w1 : agree L w -> write_of k e true -> (forall k', ~ write_of k' e false) ->
  (forall k', k' <> k -> d !! k' = w_disk (r_world w) !! k') -> w_disk w1 = d -> w_log w1 = e :: w_log (r_world w) ->
  agree L (RWorld w1 (r_cache w)).
Proof.
  intros (new & E & Hc) He Hne Hd <- El. exists (e :: new). split; [simpl; by rewrite El, E|].
  intros c k' v' Hk Hv'. simpl in *. destruct (decide (k' = k)) as [->|Hn]; [right; by apply doubt_new|].
  destruct (Hc c k' v') as [?|?]; [done|done|left; by rewrite Hd|right]. by apply doubt_cons.
Qed.
Lemma agree_lower {A} (p : api A) L w bs o w' bs' : agree L w -> exec rflaky (lower p) (w, bs) o (w', bs') -> agree L w'.
Proof.
  revert w bs. induction p as [a|e|c k IH]; intros w bs Hc H.
  - by destruct H as [_ [= -> ->]].
  - by destruct H as [_ [= -> ->]].
  - destruct c; cbn [lower] in H;
      try (destruct H as (r & Ha & H); eapply IH; [|exact H]; by apply agree_other).
    + (* load *)
      destruct H as (r & Ha & H). destruct r as [v|].
      * eapply IH; [|exact H]. exact Hc.
      * destruct H as ([v|e] & Hv & H).
        -- destruct H as ([] & _ & H). eapply IH; [|exact H]. destruct Hc as (new & E & Hc). exists new.
           split; [done|]. intros c k' v' Hk Hv'. simpl in Hk, Hv |- *. destruct (r_cache w) as [c0|]; [|done]. injection Hk as <-.
           destruct (decide (k' = k0)) as [->|Hn].
           ++ rewrite lookup_insert in Hv'. injection Hv' as <-. by left.
           ++ rewrite lookup_insert_ne in Hv' by done. by apply (Hc c0).
        -- eapply IH; [|exact H]. exact Hc.
    + (* store *)
      destruct H as ([[]|e] & _ & H).
      * destruct H as ([] & _ & H). eapply IH; [|exact H].
        apply (agree_done L w k0 (Some v) (EvStore k0 v (Val tt)) (<[k0:=v]> (w_disk (r_world w)))); try done.
        -- intros k' Hn [? _]. congruence.
        -- intros k' Hn. by rewrite lookup_insert_ne.
        -- by rewrite lookup_insert.
      * destruct bs as [|[|] bs]; (eapply IH; [|exact H]).
        -- apply (agree_failed L w k0 (EvStore k0 v (Exn e)) (w_disk (r_world w))); try done. by intros k' [_ ?].
        -- apply (agree_failed L w k0 (EvStore k0 v (Exn e)) (<[k0:=v]> (w_disk (r_world w)))); try done; [by intros k' [_ ?]|].
           intros k' Hn. by rewrite lookup_insert_ne.
        -- apply (agree_failed L w k0 (EvStore k0 v (Exn e)) (w_disk (r_world w))); try done. by intros k' [_ ?].
    + (* delete *)
      destruct H as ([[]|e] & _ & H).
      * destruct H as ([] & _ & H). eapply IH; [|exact H].
        apply (agree_done L w k0 None (EvDelete k0 (Val tt)) (delete k0 (w_disk (r_world w)))); try done.
        -- intros k' Hn [? _]. congruence.
        -- intros k' Hn. by rewrite lookup_delete_ne.
        -- by rewrite lookup_delete.
      * destruct bs as [|[|] bs]; (eapply IH; [|exact H]).
        -- apply (agree_failed L w k0 (EvDelete k0 (Exn e)) (w_disk (r_world w))); try done. by intros k' [_ ?].
        -- apply (agree_failed L w k0 (EvDelete k0 (Exn e)) (delete k0 (w_disk (r_world w)))); try done; [by intros k' [_ ?]|].
           intros k' Hn. by rewrite lookup_delete_ne.
        -- apply (agree_failed L w k0 (EvDelete k0 (Exn e)) (w_disk (r_world w))); try done. by intros k' [_ ?].
Qed.
Lemma doubt_only {A} (p : api A) w bs o w' bs' : coherent w -> exec rflaky (lower p) (w, bs) o (w', bs') ->
  exists new, w_log (r_world w') = new ++ w_log (r_world w) /\
    forall c k v, r_cache w' = Some c -> c !! k = Some v -> w_disk (r_world w') !! k = v \/ in_doubt k new.
Proof.
  intros Hc H. eapply agree_lower; [|exact H]. exists []. split; [done|]. intros c k v Hk Hv. left. by eapply Hc.
Qed.
