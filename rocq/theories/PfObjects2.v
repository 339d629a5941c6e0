(** Device lists as objects: coroutines (C105). *)
From Verif Require Import Objects PfWp PfExec PfStrs PfBtbv PfObjects.
Open Scope prog_scope.
Open Scope list_scope.
Notation oheap := (gmap nat (list (Z * option string))) (only parsing).

(** With the objects in [h] to itself, a program does what a program on values does. *)
Inductive rel {A B} (Q : oheap -> A -> B -> Prop) : oheap -> oapi A -> api B -> Prop :=
  | rel_ret h a b : Q h a b -> rel Q h (Ret a) (Ret b)
  | rel_raise h e : rel Q h (Raise e) (Raise e)
  | rel_lib h c k k' : (forall r, rel Q h (k r) (k' r)) -> rel Q h (Step (OLib c) k) (Step c k')
  | rel_get h l d k p : h !! l = Some d -> rel Q h (k d) p -> rel Q h (Step (OGet l) k) p
  | rel_put h l d d' k p : h !! l = Some d -> rel Q (<[l := d']> h) (k tt) p -> rel Q h (Step (OPut l d') k) p
  | rel_new h d k p : (forall l, h !! l = None -> rel Q (<[l := d]> h) (k l) p) -> rel Q h (Step (ONew d) k) p
  | rel_down h ns j k k' : (forall l d, h !! l = None -> rel Q (<[l := d]> h) (k (Val (l, d))) (k' (Val d))) ->
      (forall e, rel Q h (k (Exn e)) (k' (Exn e))) -> rel Q h (Step (ODown ns j) k) (Step (NDownloadDL ns j) k')
  | rel_up h ns l d k k' : h !! l = Some d -> (forall r, rel Q h (k r) (k' r)) -> rel Q h (Step (OUp ns l) k) (Step (NUploadDL ns d) k').

Lemma rel_bind {A B C D} (Q : oheap -> A -> B -> Prop) (Q' : oheap -> C -> D -> Prop) h po p (f : A -> oapi C) (g : B -> api D) :
  rel Q h po p -> (forall h' a b, Q h' a b -> rel Q' h' (f a) (g b)) -> rel Q' h (bind po f) (bind p g).
Proof.
  intros H Hf. induction H; cbn [bind]; [by apply Hf|constructor|constructor; auto|econstructor; eauto|econstructor; eauto|constructor; auto|constructor; auto|econstructor; eauto].
Qed.
Lemma rel_lift {A} (p : api A) h : rel (fun h' a b => h' = h /\ a = b) h (lift p) p.
Proof. induction p as [a|e|c k IH]; cbn [lift]; constructor; auto. Qed.
Lemma rel_bind_lift {A C D} (Q' : oheap -> C -> D -> Prop) h (p : api A) (f : A -> oapi C) (g : A -> api D) :
  (forall a, rel Q' h (f a) (g a)) -> rel Q' h (bind (lift p) f) (bind p g).
Proof. intros Hf. eapply rel_bind; [apply rel_lift|]. intros h' a b [-> ->]. apply Hf. Qed.
Lemma rel_bind_get {C D} (Q' : oheap -> C -> D -> Prop) h l d (f : _ -> oapi C) (p : api D) :
  h !! l = Some d -> rel Q' h (f d) p -> rel Q' h (bind (o_get l) f) p.
Proof. intros Hl H. by eapply rel_get. Qed.
Lemma rel_weaken {A B} (Q Q' : oheap -> A -> B -> Prop) h po p : (forall h a b, Q h a b -> Q' h a b) -> rel Q h po p -> rel Q' h po p.
Proof. intros HQ H. induction H; [constructor; auto|constructor|constructor; auto|econstructor; eauto|econstructor; eauto|constructor; auto|constructor; auto|econstructor; eauto]. Qed.
Lemma rel_each {A} (xs : list A) f g h : (forall x, rel (fun h' a b => h' = h /\ a = b) h (f x) (g x)) ->
  rel (fun h' (a b : unit) => h' = h /\ a = b) h (for_each xs f) (for_each xs g).
Proof.
  intros Hf. induction xs as [|x xs IH]; cbn [for_each]; [by constructor|]. eapply rel_bind; [apply Hf|]. by intros h' a b [-> ->].
Qed.
Section functions.
Context (cf : cfg).
Notation T := (fun (_ : oheap) (_ _ : unit) => True).
Lemma rel_label label : rel T ∅ (set_own_label_o cf label) (set_own_label cf label).
Proof.
  unfold set_own_label_o, set_own_label. apply rel_bind_lift. intros _. apply rel_bind_lift. intros bs. generalize (∅ : oheap).
  induction bs as [|n bs IH]; intros h; cbn [for_each]; [by constructor|].
  apply (rel_bind T); [|intros h' _ _ _; apply IH].
  apply rel_down; [|intros e; constructor]. intros l d Hl. cbn. eapply rel_get; [apply lookup_insert|]. cbn.
  eapply rel_put; [apply lookup_insert|]. cbn. eapply rel_up; [apply lookup_insert|]. intros [[]|e]; by constructor.
Qed.
Lemma rel_purge ns : rel T ∅ (purge_backend_o cf ns) (purge_backend cf ns).
Proof.
  unfold purge_backend_o, purge_backend, purge_list_o, purge_rest.
  apply rel_down; [|intros e; constructor]. intros l d Hl. cbn [bind of_outcome fst]. eapply rel_get; [apply lookup_insert|].
  cbn [bind]. eapply (rel_bind T); [|intros h' _ _ _; eapply rel_weaken; [|apply rel_lift]; done].
  destruct (dmem (c_dev cf) d); [|by constructor]. eapply rel_put; [apply lookup_insert|]. cbn.
  eapply rel_up; [apply lookup_insert|]. intros [[]|e]; by constructor.
Qed.
Lemma rel_new_one ns jid l d dev h : h !! l = Some d -> rel (fun h' a b => h' = h /\ a = b) h (upd_new_o ns jid l dev) (upd_new ns jid d dev).
Proof.
  intros Hl. unfold upd_new_o, upd_new. apply rel_bind_lift. intros _. eapply rel_bind_get; [exact Hl|].
  destruct (dget dev d); [apply rel_lift|constructor].
Qed.
Lemma rel_old_one ns jid l d dev h : h !! l = Some d -> rel (fun h' a b => h' = h /\ a = b) h (upd_old_o ns jid l dev) (upd_old ns jid d dev).
Proof.
  intros Hl. unfold upd_old_o, upd_old. cbv zeta. do 4 (apply rel_bind_lift; intros ?). eapply rel_bind_get; [exact Hl|].
  unfold dmem. destruct (dget dev d) as [lab|] eqn:Eg.
  - rewrite bool_decide_true by eauto. do 3 (apply rel_bind_lift; intros ?). eapply rel_bind_get; [exact Hl|]. rewrite Eg. apply rel_lift.
  - rewrite bool_decide_false by (by intros [? [=]]). apply rel_lift.
Qed.
Lemma rel_own_one ns jid l d h : h !! l = Some d ->
  rel (fun h' (_ : unit) d' => h' !! l = Some d') h (upd_own_o cf ns jid l) (upd_own cf ns jid d).
Proof.
  intros Hl. unfold upd_own_o, upd_own. destruct (decide _); [|by constructor]. apply rel_bind_lift. intros bs.
  eapply rel_bind_get; [exact Hl|]. destruct (_ && _); [|by constructor]. apply rel_bind_lift. intros m. apply rel_bind_lift. intros lab.
  eapply rel_bind_get; [exact Hl|]. cbv zeta. eapply rel_put; [exact Hl|]. cbn [bind].
  eapply rel_up; [apply lookup_insert|]. intros [[]|err]; constructor. apply lookup_insert.
Qed.
Lemma rel_update ns jid l d : rel T {[l := d]} (update_device_list_o cf ns jid l) (update_device_list cf ns jid d).
Proof.
  unfold update_device_list_o, update_device_list. cbv zeta. apply rel_bind_lift. intros bs.
  destruct (decide (ns ∈ bs)); [|constructor]. eapply rel_bind_get; [apply lookup_singleton|].
  apply rel_new. intros lc Hc. cbn [bind]. eapply rel_bind_get; [apply lookup_insert|].
  apply rel_bind_lift. intros m. eapply rel_bind; [apply rel_own_one, lookup_insert|]. intros h [] d' Hd'. cbn beta.
  apply rel_bind_lift. intros nd. eapply rel_bind; [apply rel_each; intros x; by apply rel_new_one|]. intros h' _ _ [-> _].
  apply rel_bind_lift. intros od. eapply rel_bind; [apply rel_each; intros x; by apply rel_old_one|]. intros h' _ _ [-> _].
  eapply rel_weaken; [|apply rel_lift]. done.
Qed.
Lemma rel_called h po p : called cf h po p -> rel T h po p.
Proof. intros []; [apply rel_label|apply rel_purge|apply rel_update|eapply rel_weaken; [|apply rel_lift]; done]. Qed.
End functions.

(** Coroutines, each with objects of its own *)
Section pool.
Notation T := (fun (_ : oheap) (_ _ : unit) => True).
Definition relU := rel T.
Lemma at_sub (h H : oheap) l d : h !! l = Some d -> h ⊆ H -> at_ H l = d.
Proof. intros Hl Hs. assert (H !! l = Some d) as E by (by eapply lookup_weaken). unfold at_. by rewrite E. Qed.
Lemma rel_step h po p : relU h po p ->
  match po with
  | Ret _ => p = Ret tt
  | Raise e => p = Raise e
  | Step c k => match c return (oresp c -> oapi unit) -> Prop with
    | OLib c => fun k => exists k', p = Step c k' /\ forall r, relU h (k r) (k' r)
    | OGet l => fun k => exists d, h !! l = Some d /\ relU h (k d) p
    | OPut l d' => fun k => exists d, h !! l = Some d /\ relU (<[l := d']> h) (k tt) p
    | ONew d => fun k => forall l, h !! l = None -> relU (<[l := d]> h) (k l) p
    | ODown ns j => fun k => exists k', p = Step (NDownloadDL ns j) k' /\
        (forall l d, h !! l = None -> relU (<[l := d]> h) (k (Val (l, d))) (k' (Val d))) /\ forall e, relU h (k (Exn e)) (k' (Exn e))
    | OUp ns l => fun k => exists d k', p = Step (NUploadDL ns d) k' /\ h !! l = Some d /\ forall r, relU h (k r) (k' r)
    end k
  end.
Proof. intros H. destruct H as [h a []| | | | | | |]; simpl; eauto 10. Qed.
Definition fits (cs : list (oheap * oapi unit * api unit)) (H : oheap) : Prop :=
  (forall i a, cs !! i = Some a -> relU a.1.1 a.1.2 a.2 /\ a.1.1 ⊆ H) /\ apart cs.
Lemma fits_upd cs H H' i a h' po' p' : fits cs H -> cs !! i = Some a -> relU h' po' p' -> h' ⊆ H' ->
  (forall j b, cs !! j = Some b -> i <> j -> b.1.1 ⊆ H' /\ h' ##ₘ b.1.1) -> fits (<[i := (h', po', p')]> cs) H'.
Proof.
  intros [F1 F2] Hi Hr Hs Ho. assert (i < length cs)%nat as Hlen by (by eapply lookup_lt_Some). split.
  - intros j b Hb. destruct (decide (i = j)) as [<-|Hn].
    + rewrite list_lookup_insert in Hb by done. by injection Hb as <-.
    + rewrite list_lookup_insert_ne in Hb by done. split; [by eapply F1|by eapply Ho].
  - intros j1 j2 a1 a2 H1 H2 Hn.
    destruct (decide (i = j1)) as [<-|Hn1]; [rewrite list_lookup_insert in H1 by done; injection H1 as <-|rewrite list_lookup_insert_ne in H1 by done];
    (destruct (decide (i = j2)) as [<-|Hn2]; [rewrite list_lookup_insert in H2 by done; injection H2 as <-|rewrite list_lookup_insert_ne in H2 by done]); [done| | |].
    + by eapply Ho.
    + apply map_disjoint_sym. by eapply Ho.
    + by eapply F2.
Qed.
Lemma fits_other cs H i a j b : fits cs H -> cs !! i = Some a -> cs !! j = Some b -> i <> j -> b.1.1 ⊆ H /\ a.1.1 ##ₘ b.1.1.
Proof. intros [F1 F2] Hi Hj Hn. split; [by eapply F1|by eapply (F2 i j)]. Qed.
(** A new object *)
Lemma fits_new cs H i a l d po' p' : fits cs H -> cs !! i = Some a -> H !! l = None -> relU (<[l := d]> a.1.1) po' p' ->
  fits (<[i := (<[l := d]> a.1.1, po', p')]> cs) (<[l := d]> H).
Proof.
  intros F Hi Hl Hr. eapply fits_upd; [exact F|exact Hi|done| |].
  - apply insert_mono. by eapply F.
  - intros j b Hj Hn. destruct (fits_other _ _ _ _ _ _ F Hi Hj Hn) as [S1 D1]. assert (b.1.1 !! l = None) as Hb by (by eapply lookup_weaken_None).
    split; [by apply insert_subseteq_r|]. by apply map_disjoint_insert_l_2.
Qed.
(** Own objects change *)
Lemma fits_put cs H i a l d0 d po' p' : fits cs H -> cs !! i = Some a -> a.1.1 !! l = Some d0 -> relU (<[l := d]> a.1.1) po' p' ->
  fits (<[i := (<[l := d]> a.1.1, po', p')]> cs) (<[l := d]> H).
Proof.
  intros F Hi Hl Hr. eapply fits_upd; [exact F|exact Hi|done| |].
  - apply insert_mono. by eapply F.
  - intros j b Hj Hn. destruct (fits_other _ _ _ _ _ _ F Hi Hj Hn) as [S1 D1].
    assert (b.1.1 !! l = None) as Hb by (eapply map_disjoint_Some_l; [exact D1|exact Hl]).
    split; [by apply insert_subseteq_r|]. by apply map_disjoint_insert_l_2.
Qed.
Lemma fits_same cs H i a po' p' : fits cs H -> cs !! i = Some a -> relU a.1.1 po' p' -> fits (<[i := (a.1.1, po', p')]> cs) H.
Proof. intros F Hi Hr. eapply fits_upd; [exact F|exact Hi|done|by eapply F|]. intros j b Hj Hn. by eapply fits_other. Qed.
Lemma base_step ps w i c k r : ps !! i = Some (Step c k) -> w_allowed w c r -> preach base (ps, w) (<[i := k r]> ps, w_apply w c r).
Proof. intros H1 H2. eapply preach_step; [|apply preach_refl]. exists i, c, k, r. done. Qed.
Lemma fits_step cs w H pos' w' H' : fits cs H -> pstep o_fresh (map (fun a => a.1.2) cs, (w, H)) (pos', (w', H')) ->
  exists cs', pos' = map (fun a => a.1.2) cs' /\ fits cs' H' /\ preach base (map snd cs, w) (map snd cs', w').
Proof.
  intros F (i & c & k & r & Hi & [Hr Hf] & Hp & Hs). cbn [fst snd] in Hi, Hp, Hs.
  assert (((fun a : oheap * oapi unit * api unit => a.1.2) <$> cs) !! i = Some (Step c k)) as Hi' by exact Hi. clear Hi. rename Hi' into Hi.
  rewrite list_lookup_fmap in Hi. destruct (cs !! i) as [[[h po] p]|] eqn:Ei; [|done]. simpl in Hi. injection Hi as ->.
  destruct (proj1 F i _ Ei) as [Hrel Hsub]. simpl in Hrel, Hsub. apply rel_step in Hrel. subst pos'.
  assert (forall h' po' p', <[i := po']> (map (fun a : oheap * oapi unit * api unit => a.1.2) cs) = map (fun a => a.1.2) (<[i := (h', po', p')]> cs)) as Hm.
  { intros h' po' p'. change (map ?f ?l) with (f <$> l). by rewrite list_fmap_insert. }
  assert (forall h' po' p', map snd (<[i := (h', po', p')]> cs) = <[i := p']> (map snd cs)) as Hm2.
  { intros h' po' p'. change (map ?f ?l) with (f <$> l). by rewrite list_fmap_insert. }
  assert (map snd cs !! i = Some p) as Hpi. { change (map snd cs) with (snd <$> cs). by rewrite list_lookup_fmap, Ei. }
  assert (<[i := p]> (map snd cs) = map snd cs) as Hid by (by apply list_insert_id).
  destruct c as [d|l|l d'|ns j|ns l|c]; simpl in Hr, Hf, Hs; try (injection Hs as -> ->).
  - exists (<[i := (<[r := d]> h, k r, p)]> cs). split; [apply Hm|]. split.
    + refine (fits_new _ _ _ _ _ _ _ _ F Ei Hr _). apply Hrel. by eapply lookup_weaken_None.
    + rewrite Hm2, Hid. apply preach_refl.
  - destruct Hrel as (d & Hd & Hrel). assert (r = d) as -> by (rewrite Hr; by eapply at_sub).
    exists (<[i := (h, k d, p)]> cs). split; [apply Hm|]. split.
    + exact (fits_same _ _ _ _ _ _ F Ei Hrel).
    + rewrite Hm2, Hid. apply preach_refl.
  - destruct Hrel as (d & Hd & Hrel). destruct r. exists (<[i := (<[l := d']> h, k tt, p)]> cs). split; [apply Hm|]. split.
    + exact (fits_put _ _ _ _ _ _ _ _ _ F Ei Hd Hrel).
    + rewrite Hm2, Hid. apply preach_refl.
  - destruct Hrel as (k' & -> & H1 & H2). destruct r as [[l d]|e]; injection Hs as -> ->.
    + exists (<[i := (<[l := d]> h, k (Val (l, d)), k' (Val d))]> cs). split; [apply Hm|]. split.
      * refine (fits_new _ _ _ _ _ _ _ _ F Ei Hf _). apply H1. by eapply lookup_weaken_None.
      * rewrite Hm2. apply (base_step (map snd cs) w i (NDownloadDL ns j) k' (Val d)); [done|apply Hr].
    + exists (<[i := (h, k (Exn e), k' (Exn e))]> cs). split; [apply Hm|]. split.
      * refine (fits_same _ _ _ _ _ _ F Ei _). apply H2.
      * rewrite Hm2. by apply (base_step (map snd cs) w i (NDownloadDL ns j) k' (Exn e)).
  - destruct Hrel as (d & k' & -> & Hd & H2). assert (at_ H l = d) as -> by (by eapply at_sub).
    exists (<[i := (h, k r, k' r)]> cs). split; [apply Hm|]. split.
    + refine (fits_same _ _ _ _ _ _ F Ei _). apply H2.
    + rewrite Hm2. by apply (base_step (map snd cs) w i (NUploadDL ns d) k' r).
  - destruct Hrel as (k' & -> & H2). exists (<[i := (h, k r, k' r)]> cs). split; [apply Hm|]. split.
    + refine (fits_same _ _ _ _ _ _ F Ei _). apply H2.
    + rewrite Hm2. by apply (base_step (map snd cs) w i c k' r).
Qed.
Lemma fits_reach cs w H cfg' : fits cs H -> preach o_fresh (map (fun a => a.1.2) cs, (w, H)) cfg' ->
  exists cs', cfg'.1 = map (fun a => a.1.2) cs' /\ fits cs' cfg'.2.2 /\ preach base (map snd cs, w) (map snd cs', cfg'.2.1).
Proof.
  intros F Hr. remember (map (fun a : oheap * oapi unit * api unit => a.1.2) cs, (w, H)) as cfg eqn:Ec.
  revert cs w H F Ec. induction Hr as [cfg|cfg cfg1 cfg2 H1 H2 IH]; intros cs w H F ->.
  - exists cs. split; [done|]. split; [done|]. apply preach_refl.
  - destruct cfg1 as [pos1 [w1 H1']]. destruct (fits_step cs w H pos1 w1 H1' F H1) as (cs1 & -> & F1 & R1).
    destruct (IH cs1 w1 H1' F1 eq_refl) as (cs2 & E2 & F2 & R2). exists cs2. split; [done|]. split; [done|]. by eapply preach_trans.
Qed.
Lemma coroutines cf cs w H pos' w' H' :
  (forall i a, cs !! i = Some a -> called cf a.1.1 a.1.2 a.2 /\ a.1.1 ⊆ H) -> apart cs ->
  preach o_fresh (map (fun a => a.1.2) cs, (w, H)) (pos', (w', H')) ->
  exists ps', preach base (map snd cs, w) (ps', w') /\ length ps' = length pos' /\
    forall i, (pos' !! i = Some (Ret tt) -> ps' !! i = Some (Ret tt)) /\ forall e, pos' !! i = Some (Raise e) -> ps' !! i = Some (Raise e).
Proof.
  intros Hc Ha Hr. assert (fits cs H) as F. { split; [|done]. intros i a Hi. destruct (Hc i a Hi) as [H1 H2]. split; [by apply (rel_called cf)|done]. }
  destruct (fits_reach cs w H _ F Hr) as (cs' & E & [F' _] & R). simpl in E, F', R. subst pos'. exists (map snd cs'). split; [done|].
  split; [by rewrite !map_length|]. intros i.
  assert (forall x, map (fun a : oheap * oapi unit * api unit => a.1.2) cs' !! i = Some x -> exists a, cs' !! i = Some a /\ a.1.2 = x) as Hx.
  { intros x Hx. assert (((fun a : oheap * oapi unit * api unit => a.1.2) <$> cs') !! i = Some x) as Hx' by exact Hx.
    apply list_lookup_fmap_Some in Hx' as (a & ? & ?). by exists a. }
  assert (forall a, cs' !! i = Some a -> map snd cs' !! i = Some a.2) as Hy.
  { intros a Hi. assert ((snd <$> cs') !! i = Some a.2) as Hy by (by rewrite list_lookup_fmap, Hi). exact Hy. }
  split; [|intros e]; intros (a & Hi & Ea)%Hx; specialize (Hy a Hi); destruct (F' i a Hi) as [Hrel%rel_step _]; rewrite Ea in Hrel; rewrite Hrel in Hy; exact Hy.
Qed.
End pool.
