(** Device lists as objects (C105). *)
From Verif Require Import Objects PfBtbv PfWp PfExec PfStrs.
Open Scope prog_scope.
Open Scope list_scope.

Lemma lift_exec {A} (p : api A) s o s' : exec osem (lift p) s o s' -> exec base p s.1 o s'.1 /\ s'.2 = s.2.
Proof.
  revert s. induction p as [a|e|c k IH]; intros s H.
  - by destruct H as [-> ->].
  - by destruct H as [-> ->].
  - destruct H as (r & Hr & H). apply IH in H as [H E]. split; [|done]. exists r. done.
Qed.
Lemma get_exec l s o s' : exec osem (o_get l) s o s' -> o = Val (at_ s.2 l) /\ s' = s.
Proof. intros (r & Hr & H). simpl in Hr. subst r. by destruct H as [-> ->]. Qed.
Lemma put_exec l d s o s' : exec osem (o_put l d) s o s' -> o = Val tt /\ s' = (s.1, <[l := d]> s.2).
Proof. intros ([] & _ & H). by destruct H as [-> ->]. Qed.
Lemma new_exec d s o s' : exec osem (o_new d) s o s' -> exists l, o = Val l /\ s.2 !! l = None /\ s' = (s.1, <[l := d]> s.2).
Proof. intros (l & Hl & H). exists l. by destruct H as [-> ->]. Qed.
Lemma up_exec ns l s o s' : exec osem (o_up ns l) s o s' -> exec base (n_upload_dl ns (at_ s.2 l)) s.1 o s'.1 /\ s'.2 = s.2.
Proof.
  intros (r & Hr & H). split; [exists r; split; [exact Hr|]|]; destruct r as [[]|e]; by destruct H as [-> ->].
Qed.
Lemma down_exec ns j s o s' : exec osem (o_down ns j) s o s' ->
  (exists l d, o = Val l /\ (s.2 !! l = None \/ s.2 !! l = Some d) /\ exec base (n_download_dl ns j) s.1 (Val d) s'.1 /\ s'.2 = <[l := d]> s.2) \/
  (exists e, o = Exn e /\ exec base (n_download_dl ns j) s.1 (Exn e) s'.1 /\ s'.2 = s.2).
Proof.
  intros (r & Hr & H). destruct r as [[l d]|e]; destruct H as [-> ->].
  - left. exists l, d. destruct Hr as [Hr Hd]. split; [done|]. split; [done|]. split; [|done]. exists (Val d). done.
  - right. exists e. split; [done|]. split; [|done]. exists (Exn e). done.
Qed.
Ltac stp H s x :=
  let Hx := fresh H in
  apply exec_bind in H as [(x & s & Hx & H)|(? & Hx & ->)].
Lemma bind_val {A B} (p : api A) (f : A -> api B) a w w1 o w' :
  exec base p w (Val a) w1 -> exec base (f a) w1 o w' -> exec base (bind p f) w o w'.
Proof. intros. apply exec_bind. left. eauto. Qed.
Lemma bind_exn {A B} (p : api A) (f : A -> api B) e w w' :
  exec base p w (Exn e) w' -> exec base (bind p f) w (Exn e) w'.
Proof. intros. apply exec_bind. right. eauto. Qed.
Lemma at_insert h l d : at_ (<[l := d]> h) l = d.
Proof. unfold at_. by rewrite lookup_insert. Qed.

Section functions.
Context (cf : cfg).
Lemma label_one ns label s o s' :
  exec osem (l <- o_down ns (c_jid cf) ;; d <- o_get l ;; o_put l (dset (c_dev cf) label d) ;;; o_up ns l) s o s' ->
  exec base (dl <- n_download_dl ns (c_jid cf) ;; n_upload_dl ns (dset (c_dev cf) label dl)) s.1 o s'.1 /\
  forall l d, s.2 !! l = Some d -> s'.2 !! l = Some d \/ s'.2 !! l = Some (dset (c_dev cf) label d).
Proof.
  intros H. stp H s1 l.
  - apply down_exec in H0 as [(l0 & d & [= ->] & Hl & H1 & E1)|(? & ? & _)]; [|done].
    stp H s2 d'; apply get_exec in H0 as [Hd ->]; [|done]. injection Hd as ->.
    stp H s3 u; apply put_exec in H0 as [Hd ->]; [|done]. apply up_exec in H as [H E]. cbn [fst snd] in *. rewrite at_insert in H.
    rewrite E1, at_insert in H. split; [by eapply bind_val|]. intros l1 d1 Hd1. rewrite E, E1, at_insert.
    destruct (decide (l0 = l1)) as [->|Hn]; [|left; by rewrite !lookup_insert_ne].
    right. rewrite lookup_insert. destruct Hl; congruence.
  - apply down_exec in H0 as [(l0 & d & ? & _)|(e' & [= ->] & H1 & E1)]; [done|]. split; [by apply bind_exn|].
    intros l d Hd. rewrite E1. by left.
Qed.
Lemma label_exec label s o s' : exec osem (set_own_label_o cf label) s o s' ->
  exec base (set_own_label cf label) s.1 o s'.1 /\
  forall l d, s.2 !! l = Some d -> s'.2 !! l = Some d \/ s'.2 !! l = Some (dset (c_dev cf) label d).
Proof.
  intros H. unfold set_own_label_o in H. stp H s1 u.
  2:{ apply lift_exec in H0 as [H1 E]. split; [by apply bind_exn|]. intros l d ?. rewrite E. by left. }
  apply lift_exec in H0 as [H1 E1]. stp H s2 bs.
  2:{ apply lift_exec in H0 as [H2 E]. split; [eapply bind_val; [exact H1|]; by apply bind_exn|]. intros l d ?. rewrite E, E1. by left. }
  apply lift_exec in H0 as [H2 E2].
  assert (exec base (for_each bs (fun ns => dl <- n_download_dl ns (c_jid cf) ;; n_upload_dl ns (dset (c_dev cf) label dl))) s2.1 o s'.1 /\
    forall l d, s2.2 !! l = Some d -> s'.2 !! l = Some d \/ s'.2 !! l = Some (dset (c_dev cf) label d)) as [H3 F].
  { clear H1 H2 E1 E2. revert s2 H. induction bs as [|n bs IH]; intros s2 H.
    - destruct H as [-> ->]. split; [done|]. by left.
    - cbn [for_each] in *. stp H s3 u3.
      + apply label_one in H0 as [H1 F1]. destruct (IH _ H) as [H2 F2]. split; [by eapply bind_val|]. intros l d Hd.
        destruct (F1 l d Hd) as [Hd'|Hd']; destruct (F2 l _ Hd') as [Hx|Hx]; rewrite Hx; auto.
        right. f_equal. clear. induction d as [|[k v] d IH]; simpl; [by rewrite decide_True|].
        destruct (decide (c_dev cf = k)) as [->|Hn]; simpl; [by rewrite decide_True|]. rewrite decide_False by done. by rewrite IH.
      + apply label_one in H0 as [H1 F1]. split; [by apply bind_exn|done]. }
  split; [eapply bind_val; [exact H1|]; by eapply bind_val|]. intros l d Hd. apply F. by rewrite E2, E1.
Qed.
Lemma purge_list_exec ns s o s' : exec osem (purge_list_o cf ns) s o s' ->
  exec base (purge_list cf ns) s.1 o s'.1 /\
  forall l d, s.2 !! l = Some d -> s'.2 !! l = Some d \/ s'.2 !! l = Some (dpop (c_dev cf) d).
Proof.
  intros H. unfold purge_list_o in H. stp H s1 l.
  - apply down_exec in H0 as [(l0 & d & [= ->] & Hl & H1 & E1)|(? & ? & _)]; [|done].
    stp H s2 d'; apply get_exec in H0 as [Hd ->]; [|done]. injection Hd as ->. rewrite E1, at_insert in H.
    unfold purge_list. destruct (dmem (c_dev cf) d) eqn:Em.
    + stp H s3 u; apply put_exec in H0 as [Hd ->]; [|done]. apply up_exec in H as [H E]. cbn [fst snd] in *. rewrite at_insert in H.
      split; [eapply bind_val; [exact H1|]; by rewrite Em|]. intros l1 d1 Hd1. rewrite E, E1.
      destruct (decide (l0 = l1)) as [->|Hn]; [|left; by rewrite !lookup_insert_ne].
      right. rewrite lookup_insert. destruct Hl; congruence.
    + destruct H as [-> ->]. split; [eapply bind_val; [exact H1|]; by rewrite Em|]. intros l1 d1 Hd1. rewrite E1. left.
      destruct (decide (l0 = l1)) as [->|Hn]; [|by rewrite lookup_insert_ne]. rewrite lookup_insert. destruct Hl; congruence.
  - apply down_exec in H0 as [(l0 & d & ? & _)|(e' & [= ->] & H1 & E1)]; [done|]. split; [by apply bind_exn|].
    intros l d Hd. rewrite E1. by left.
Qed.
Lemma purge_exec ns s o s' : exec osem (purge_backend_o cf ns) s o s' ->
  exec base (purge_backend cf ns) s.1 o s'.1 /\
  forall l d, s.2 !! l = Some d -> s'.2 !! l = Some d \/ s'.2 !! l = Some (dpop (c_dev cf) d).
Proof.
  intros H. enough (exec base (bind (purge_list cf ns) (fun _ => purge_rest cf ns)) s.1 o s'.1 /\
    forall l d, s.2 !! l = Some d -> s'.2 !! l = Some d \/ s'.2 !! l = Some (dpop (c_dev cf) d)) as [H1 H2].
  { split; [|exact H2]. clear H H2. unfold purge_list in H1. exact (proj1 (exec_assoc base _ _ (fun _ => purge_rest cf ns) _ _ _) H1). }
  unfold purge_backend_o in H. stp H s1 u.
  - apply purge_list_exec in H0 as [H1 F]. apply lift_exec in H as [H E]. split; [by eapply bind_val|]. intros l d Hd. rewrite E. by apply F.
  - apply purge_list_exec in H0 as [H1 F]. split; [by apply bind_exn|done].
Qed.

(** update_device_list *)
Lemma each_exec {A} (xs : list A) (f : A -> oapi unit) (g : A -> api unit) l d :
  (forall x s o s', s.2 !! l = Some d -> exec osem (f x) s o s' -> exec base (g x) s.1 o s'.1 /\ s'.2 = s.2) ->
  forall s o s', s.2 !! l = Some d -> exec osem (for_each xs f) s o s' -> exec base (for_each xs g) s.1 o s'.1 /\ s'.2 = s.2.
Proof.
  intros Hf. induction xs as [|x xs IH]; intros s o s' Hl H; [by destruct H as [-> ->]|].
  cbn [for_each] in *. stp H s1 u.
  - apply Hf in H0 as [H1 E1]; [|done]. apply IH in H as [H2 E2]; [|by rewrite E1]. split; [by eapply bind_val|congruence].
  - apply Hf in H0 as [H1 E1]; [|done]. split; [by apply bind_exn|done].
Qed.
Ltac lifted H s x :=
  stp H s x; [|match goal with Hx : exec osem (lift _) _ (Exn _) _ |- _ => apply lift_exec in Hx as [Hx ?] end;
    split; [by repeat first [apply bind_exn; eassumption|eapply bind_val; [eassumption|]]|congruence]];
  match goal with Hx : exec osem (lift _) _ (Val x) s |- _ => apply lift_exec in Hx as [Hx ?] end.
Ltac got H d :=
  let s := fresh "s" in let Hd := fresh "Hd" in
  stp H s d; [|match goal with Hx : exec osem (o_get _) _ _ _ |- _ => by apply get_exec in Hx as [? _] end];
  match goal with Hx : exec osem (o_get _) _ _ _ |- _ => apply get_exec in Hx as [Hd ->] end; injection Hd as ->.
Lemma new_one ns jid l d dev s o s' : s.2 !! l = Some d -> exec osem (upd_new_o ns jid l dev) s o s' ->
  exec base (upd_new ns jid d dev) s.1 o s'.1 /\ s'.2 = s.2.
Proof.
  intros Hl H. unfold upd_new_o, upd_new in *. lifted H s1 u. got H d'.
  unfold at_ in H. replace (s1.2 !! l) with (Some d) in H by congruence. cbn [default from_option id] in H.
  destruct (dget dev d) as [lab|].
  - apply lift_exec in H as [H E]. split; [by eapply bind_val|congruence].
  - destruct H as [-> ->]. split; [by eapply bind_val|congruence].
Qed.
Lemma old_one ns jid l d dev s o s' : s.2 !! l = Some d -> exec osem (upd_old_o ns jid l dev) s o s' ->
  exec base (upd_old ns jid d dev) s.1 o s'.1 /\ s'.2 = s.2.
Proof.
  intros Hl H. unfold upd_old_o, upd_old in *. cbv zeta in *. lifted H s1 u1. lifted H s2 u2. lifted H s3 u3. lifted H s4 u4.
  got H d'.
  assert (s4.2 !! l = Some d) as Hl4 by congruence. unfold at_ in H at 1. rewrite Hl4 in H. cbn [default from_option id] in H. unfold dmem in H.
  destruct (dget dev d) as [lab|] eqn:Eg.
  - rewrite bool_decide_true in H by eauto.
    lifted H s5 u5. lifted H s6 u6. lifted H s7 u7.
    got H d'.
    assert (s7.2 !! l = Some d) as Hl7 by congruence. unfold at_ in H. rewrite Hl7 in H. cbn [default from_option id] in H. rewrite Eg in H.
    apply lift_exec in H as [H E]. split; [|congruence]. do 7 (eapply bind_val; [eassumption|]). exact H.
  - rewrite bool_decide_false in H by (by intros [? [=]]). apply lift_exec in H as [H E]. split; [|congruence]. do 4 (eapply bind_val; [eassumption|]). exact H.
Qed.
Lemma own_one ns jid l d s o s' : s.2 !! l = Some d -> exec osem (upd_own_o cf ns jid l) s o s' ->
  (forall l', l' <> l -> s'.2 !! l' = s.2 !! l') /\
  match o with
  | Val _ => exists d', exec base (upd_own cf ns jid d) s.1 (Val d') s'.1 /\ s'.2 !! l = Some d'
  | Exn e => exec base (upd_own cf ns jid d) s.1 (Exn e) s'.1
  end.
Proof.
  intros Hl H. unfold upd_own_o, upd_own in *. destruct (decide (jid = c_jid cf)) as [Ej|Ej].
  2:{ destruct H as [-> ->]. split; [done|]. exists d. done. }
  stp H s1 bs; [|apply lift_exec in H0 as [H0 E]; split; [by rewrite E|by apply bind_exn]]. apply lift_exec in H0 as [H0 E1].
  got H d'. assert (s1.2 !! l = Some d) as Hl1 by congruence. unfold at_ in H at 1. rewrite Hl1 in H. cbn [default from_option id] in H.
  destruct (bool_decide (ns ∈ bs) && negb (dmem (c_dev cf) d)) eqn:Eb.
  2:{ destruct H as [-> ->]. split; [by rewrite E1|]. exists d. split; [|done]. eapply bind_val; [exact H0|]. cbn beta. by rewrite Eb. }
  stp H s3 m; [|apply lift_exec in H1 as [H1 E]; split; [by rewrite E, E1|]; eapply bind_val; [exact H0|]; cbn beta; rewrite Eb; by apply bind_exn].
  apply lift_exec in H1 as [H1 E3].
  stp H s4 lab; [|apply lift_exec in H2 as [H2 E]; split; [by rewrite E, E3, E1|]; eapply bind_val; [exact H0|]; cbn beta; rewrite Eb;
    eapply bind_val; [exact H1|]; by apply bind_exn].
  apply lift_exec in H2 as [H2 E4]. got H d''. assert (s4.2 !! l = Some d) as Hl4 by congruence.
  unfold at_ in H. rewrite Hl4 in H. cbn [default from_option id] in H.
  stp H s6 u; apply put_exec in H3 as [Hd ->]; [|done]. apply up_exec in H as [H E6]. cbn [fst snd] in *. rewrite at_insert in H.
  split; [intros l' Hn; rewrite E6, lookup_insert_ne by done; by rewrite E4, E3, E1|].
  destruct o as [[]|e].
  - exists (dset (c_dev cf) lab d). split; [|rewrite E6; apply lookup_insert].
    eapply bind_val; [exact H0|]. cbn beta. rewrite Eb. eapply bind_val; [exact H1|]. eapply bind_val; [exact H2|]. cbv zeta.
    eapply bind_val; [exact H|]. done.
  - eapply bind_val; [exact H0|]. cbn beta. rewrite Eb. eapply bind_val; [exact H1|]. eapply bind_val; [exact H2|]. cbv zeta. by apply bind_exn.
Qed.
Lemma update_exec ns jid l d s o s' : s.2 !! l = Some d -> exec osem (update_device_list_o cf ns jid l) s o s' ->
  exec base (update_device_list cf ns jid d) s.1 o s'.1 /\ forall l' d', s.2 !! l' = Some d' -> s'.2 !! l' = Some d'.
Proof.
  intros Hl H. unfold update_device_list_o, update_device_list in *. cbv zeta in *.
  stp H s1 bs; [|apply lift_exec in H0 as [H0 E]; split; [by apply bind_exn|by rewrite E]]. apply lift_exec in H0 as [H0 E1].
  destruct (decide (ns ∈ bs)) as [Hns|Hns].
  2:{ apply lift_exec in H as [H E]. split; [|intros l' d'; by rewrite E, E1]. eapply bind_val; [exact H0|]. cbn beta. by rewrite decide_False. }
  enough (exec base (m <- load_list as_int (k_list jid) ;;
      dl' <- upd_own cf ns jid d ;;
      nd <- order (set_diff (pyset (dkeys d)) (pyset (Model.maybe [] m))) ;; for_each nd (upd_new ns jid dl') ;;;
      od <- order (pyset (Model.maybe [] m)) ;; for_each od (upd_old ns jid dl') ;;;
      match set_diff (pyset (dkeys d)) (pyset (Model.maybe [] m)) with
      | [] => Ret tt
      | _ => l <- order (set_union (pyset (dkeys d)) (pyset (Model.maybe [] m))) ;; s_store (k_list jid) (j_ints l)
      end) s1.1 o s'.1 /\ forall l' d', s1.2 !! l' = Some d' -> s'.2 !! l' = Some d') as [HA HB].
  { split; [|by rewrite <- E1]. eapply bind_val; [exact H0|]. cbn beta. rewrite decide_True by done. exact HA. }
  clear H0. rewrite <- E1 in Hl. clear E1 s. got H given. unfold at_ in H at 1. rewrite Hl in H. cbn [default from_option id] in H.
  stp H s2 lc; [|apply new_exec in H0 as (? & ? & _); done]. apply new_exec in H0 as (l0 & [= <-] & Hfresh & ->).
  got H dc. cbn [fst snd] in H. rewrite at_insert in H.
  enough (forall (P : Prop), (P /\ forall l', l' <> lc -> s'.2 !! l' = s1.2 !! l') -> P /\ forall l' d', s1.2 !! l' = Some d' -> s'.2 !! l' = Some d') as Hgo.
  2:{ intros P [HP HF]. split; [done|]. intros l' d' Hd'. rewrite HF; [done|]. intros ->. congruence. }
  apply Hgo. clear Hgo.
  set (s2 := (s1.1, <[lc := d]> s1.2)) in *. assert (s2.2 !! lc = Some d) as Hc by apply lookup_insert.
  assert (forall l', l' <> lc -> s2.2 !! l' = s1.2 !! l') as Hf2 by (intros l' ?; by apply lookup_insert_ne).
  assert (s2.1 = s1.1) as <- by done. clearbody s2.
  stp H s3 m; [|apply lift_exec in H0 as [H0 E]; split; [by apply bind_exn|by rewrite E]]. apply lift_exec in H0 as [H0 E3].
  rewrite <- E3 in Hc, Hf2. clear E3.
  enough (exec base (dl' <- upd_own cf ns jid d ;;
      nd <- order (set_diff (pyset (dkeys d)) (pyset (Model.maybe [] m))) ;; for_each nd (upd_new ns jid dl') ;;;
      od <- order (pyset (Model.maybe [] m)) ;; for_each od (upd_old ns jid dl') ;;;
      match set_diff (pyset (dkeys d)) (pyset (Model.maybe [] m)) with
      | [] => Ret tt
      | _ => l <- order (set_union (pyset (dkeys d)) (pyset (Model.maybe [] m))) ;; s_store (k_list jid) (j_ints l)
      end) s3.1 o s'.1 /\ forall l', l' <> lc -> s'.2 !! l' = s3.2 !! l') as [HA HB].
  { split; [by eapply bind_val|]. intros l' ?. by rewrite HB, Hf2. }
  clear H0 Hf2. stp H s4 u.
  2:{ apply (own_one ns jid lc d) in H0 as [HF HE]; [|done]. split; [by apply bind_exn|done]. }
  apply (own_one ns jid lc d) in H0 as [HF (d' & HE & Hc')]; [|done].
  enough (exec base (nd <- order (set_diff (pyset (dkeys d)) (pyset (Model.maybe [] m))) ;; for_each nd (upd_new ns jid d') ;;;
      od <- order (pyset (Model.maybe [] m)) ;; for_each od (upd_old ns jid d') ;;;
      match set_diff (pyset (dkeys d)) (pyset (Model.maybe [] m)) with
      | [] => Ret tt
      | _ => l <- order (set_union (pyset (dkeys d)) (pyset (Model.maybe [] m))) ;; s_store (k_list jid) (j_ints l)
      end) s4.1 o s'.1 /\ s'.2 = s4.2) as [HA HB].
  { split; [by eapply bind_val|]. intros l' ?. rewrite HB. by apply HF. }
  clear HE HF. lifted H s5 nd.
  stp H s6 u6; [|match goal with Hx : exec osem (for_each _ _) _ _ _ |- _ => eapply (each_exec _ _ (upd_new ns jid d') lc d') in Hx as [Hx ?];
    [|intros; by eapply new_one|congruence] end; split; [eapply bind_val; [eassumption|]; by apply bind_exn|congruence]].
  match goal with Hx : exec osem (for_each _ _) _ _ _ |- _ => eapply (each_exec _ _ (upd_new ns jid d') lc d') in Hx as [Hx ?];
    [|intros; by eapply new_one|congruence] end.
  lifted H s7 od.
  stp H s8 u8; [|match goal with Hx : exec osem (for_each _ _) _ _ _ |- _ => eapply (each_exec _ _ (upd_old ns jid d') lc d') in Hx as [Hx ?];
    [|intros; by eapply old_one|congruence] end; split; [do 3 (eapply bind_val; [eassumption|]); by apply bind_exn|congruence]].
  match goal with Hx : exec osem (for_each _ _) _ _ _ |- _ => eapply (each_exec _ _ (upd_old ns jid d') lc d') in Hx as [Hx ?];
    [|intros; by eapply old_one|congruence] end.
  apply lift_exec in H as [H E]. split; [|congruence]. do 4 (eapply bind_val; [eassumption|]). exact H.
Qed.
End functions.
