(** Completed runs of create: what was published, and the own record. *)
From Verif Require Import Api Spec Alone PfWp PfFrame PfHist PfEmits PfUpdate PfDevices PfInfo PfTrust PfExec PfNet PfPurge PfLog PfCreate.
Open Scope prog_scope.
Open Scope list_scope.

(** ** Dictionaries read and written at [k0] have distinct keys *)
Section nodup.
  Context (k0 : string).
  Definition ndj (v : json) : Prop := forall l, v = JDict l -> NoDup (map fst l).
  Definition Ed (c : cmd) (r : resp c) : Prop :=
    match c return resp c -> Prop with
    | SLoad k => fun r => match r with Val (Some v) => k = k0 -> ndj v | _ => True end
    | _ => fun _ => True
    end r.
  Definition Fd (c : cmd) : Prop := match c with SStore k v => k = k0 -> ndj v | _ => True end.
  Definition ndw (w : world) : Prop := forall v, w_disk w !! k0 = Some v -> ndj v.
  Notation ob p := (obeys Ed Fd (fun _ => True) p).
  Lemma nd_step w c r : ndw w -> Fd c -> w_allowed w c r -> Ed c r /\ ndw (w_apply w c r).
  Proof.
    intros Hw HF Hr. split.
    - destruct c; try done. simpl in *. destruct r as [[v|]|]; try done. intros ->. by apply Hw.
    - unfold ndw in *. destruct c; simpl in *; try done; destruct r; try done; simpl; intros v0 Hv.
      + destruct (decide (k = k0)) as [->|Hn]; [rewrite lookup_insert in Hv|rewrite lookup_insert_ne in Hv by done].
        * injection Hv as <-. by apply HF.
        * by apply Hw.
      + destruct (decide (k = k0)) as [->|Hn]; [by rewrite lookup_delete in Hv|rewrite lookup_delete_ne in Hv by done]. by apply Hw.
  Qed.
  Lemma nd_exec {A} (p : api A) w o w' : ob p -> ndw w -> exec base p w o w' -> ndw w'.
  Proof.
    intros Hp Hw Hx. eapply (psafeq_exec base ndw (fun _ => True)) in Hx; [by destruct Hx| |done].
    eapply obeys_psafeq; [|exact Hp]. apply nd_step.
  Qed.
  Lemma nd_bind {A B} (p : api A) (f : A -> api B) : ob p -> (forall a, ob (f a)) -> ob (bind p f).
  Proof. intros Hp Hf. apply obeys_bind. eapply obeys_conseq; [exact Hp|]. by intros [a|e] _. Qed.
  Lemma nd_bindq {A B} (Q : outcome A -> Prop) (p : api A) (f : A -> api B) :
    obeys Ed Fd Q p -> (forall a, Q (Val a) -> ob (f a)) -> ob (bind p f).
  Proof. intros Hp Hf. apply obeys_bind. eapply obeys_conseq; [exact Hp|]. intros [a|e] Ha; [auto|done]. Qed.
  Lemma nd_load {A} (check : json -> outcome A) k : ob (load_checked check k).
  Proof.
    unfold load_checked. apply nd_bind; [split; [done|]; intros r _; by destruct r|].
    intros [v|]; [|done]. destruct (check v); done.
  Qed.
  Lemma mapM_keys {B} (f : json -> option B) (d : list (string * json)) m :
    mapM (fun p => match f p.2 with Some v => Some (p.1, v) | None => None end) d = Some m -> dkeys m = map fst d.
  Proof.
    revert m. induction d as [|[k v] d IH]; intros m; simpl.
    - intros [= <-]. done.
    - destruct (f v); [|done]. simpl. destruct (mapM _ d) eqn:E; [|done]. simpl. intros [= <-]. simpl. f_equal. by apply IH.
  Qed.
  Lemma nd_load_dict k :
    obeys Ed Fd (fun o => match o with Val (Some m) => k = k0 -> NoDup (dkeys m) | _ => True end) (load_dict as_bool k).
  Proof.
    unfold load_dict, load_checked. apply obeys_bind. split; [done|]. intros r Hr. simpl in Hr.
    destruct r as [[v|]|e]; try done. simpl. destruct v; try done. simpl.
    destruct (mapM _ d) as [m|] eqn:E; [|done]. simpl. intros ->. rewrite (mapM_keys as_bool d m).
    - by apply Hr.
    - rewrite <- E. apply mapM_ext. intros [k v]. simpl. by destruct (as_bool v).
  Qed.
  Lemma nd_ext {A} c (cast : resp c -> outcome A) : Fd c -> ob (Step c (fun r => of_outcome (cast r))).
  Proof. intros H. split; [done|]. intros r _. by destruct (cast r). Qed.
  Lemma nd_for_each {A} (l : list A) f : (forall x, ob (f x)) -> ob (for_each l f).
  Proof. intros H. apply obeys_for_each; [|done]. intros x _. eapply obeys_conseq; [apply H|]. by intros [|]. Qed.
  Lemma ndj_bools m : NoDup (dkeys m) -> ndj (j_bools m).
  Proof. intros H l [= <-]. rewrite map_map. exact H. Qed.
  Lemma nodup_dset {V} (k : string) (v : V) d : NoDup (dkeys d) -> NoDup (dkeys (dset k v d)).
  Proof.
    induction d as [|[k' v'] d IH]; simpl; intros H.
    - repeat constructor. by apply not_elem_of_nil.
    - inversion H as [|? ? H1 H2]; subst. destruct (decide (k = k')) as [->|Hn]; simpl; [by constructor|]. constructor; [|auto].
      intros Hin. apply H1. unfold dkeys in *. clear -Hin Hn. induction d as [|[k2 v2] d IH]; simpl in *.
      + by apply elem_of_list_singleton in Hin.
      + destruct (decide (k = k2)) as [->|]; simpl in Hin.
        * apply elem_of_cons; apply elem_of_cons in Hin as [|]; auto.
        * apply elem_of_cons; apply elem_of_cons in Hin as [|]; auto.
  Qed.
  Lemma nd_bool (b : bool) (p q : api unit) : ob p -> ob q -> ob (if b then p else q).
  Proof. by destruct b. Qed.
  Lemma nd_update cf ns jid dl : (forall x, k_ns jid x <> k0) -> (forall x, k_label jid x <> k0) -> k_list jid <> k0 ->
    ob (update_device_list cf ns jid dl).
  Proof.
    intros N1 N2 N3. unfold update_device_list.
    apply nd_bind; [split; [exact I|done]|intros l]. destruct (decide _); [|exact I]. cbv zeta.
    apply nd_bind; [apply nd_load|intros m].
    apply nd_bind; [|intros dl'].
    { unfold upd_own. destruct (decide (jid = c_jid cf)); [|exact I]. apply nd_bind; [split; [exact I|done]|intros ?].
      destruct (_ && _); [|exact I]. apply nd_bind; [apply nd_load|intros ?]. apply nd_bind; [by destruct a0|intros ?]. cbv zeta.
      apply nd_bind; [apply nd_ext; done|done]. }
    apply nd_bind; [split; [exact I|done]|intros nl]. apply nd_bind.
    { apply nd_for_each. intros x. unfold upd_new.
      apply nd_bind; [apply nd_ext; intros _; apply ndj_bools; simpl; repeat constructor; by apply not_elem_of_nil|intros _].
      destruct (dget x dl'); [|exact I].
      apply nd_bind; [apply nd_ext; intros Hc; by destruct (N2 x)|intros _]. apply nd_ext; intros Hc; by destruct (N1 x). }
    intros _. apply nd_bind; [split; [exact I|done]|intros ol]. apply nd_bind.
    { apply nd_for_each. intros x. unfold upd_old.
      apply nd_bind; [apply nd_load|intros ?]. apply nd_bind; [by destruct a|intros ?]. cbv zeta.
      eapply nd_bindq; [apply nd_load_dict|]. intros m' Hm'.
      apply (nd_bindq (fun o => match o with Val a => m' = Some a | _ => True end)); [by destruct m'|]. intros act ->.
      assert (forall b, ob (s_store (k_active jid x) (j_bools (dset ns b act)))) as Hst.
      { intros b. apply nd_ext. intros Hk. apply ndj_bools, nodup_dset. by apply Hm'. }
      destruct (dget x dl').
      - apply nd_bind; [apply nd_bool; [exact I|apply Hst]|intros _].
        apply nd_bind; [apply nd_load|intros ?]. apply nd_bind; [by destruct a1|intros ?].
        apply nd_bind; [apply nd_bool; [apply nd_ext; intros Hc; by destruct (N2 x)|exact I]|intros _].
        destruct (decide _); [exact I|]. apply nd_bind; [split; [exact I|done]|intros ?].
        apply nd_ext; intros Hc; by destruct (N1 x).
      - destruct (decide _); [|exact I]. destruct (dget ns act) as [[]|]; [apply Hst|exact I|exact I]. }
    intros _. destruct (set_diff _ _); [exact I|]. apply nd_bind; [split; [exact I|done]|intros ?].
    apply nd_ext. done.
  Qed.
End nodup.

Lemma update_own_dev cf ns dl w w' :
  exec base (update_device_list cf ns (c_jid cf) dl) w (Val tt) w' -> known (w_disk w) (c_jid cf) (c_dev cf) ->
  (forall n, supports (w_disk w') (c_jid cf) (c_dev cf) n <-> supports (w_disk w) (c_jid cf) (c_dev cf) n \/ n = ns) /\
  (forall n b, activity (w_disk w') (c_jid cf) (c_dev cf) n b <->
     (n = ns /\ b = true \/ n <> ns /\ activity (w_disk w) (c_jid cf) (c_dev cf) n b)).
Proof.
  intros (Hns & old & dl' & Hold & He & HF)%update_val Hk.
  assert (exists lab, dget (c_dev cf) dl' = Some lab) as [lab Hx].
  { destruct (dget (c_dev cf) dl) as [lab|] eqn:Ed; [eauto using eff_listed|].
    destruct (eff_missing _ _ _ _ _ _ He Ed) as [[_ Hn]|(_ & _ & o & Ho & _)]; [tauto|eauto]. }
  apply (known_ids _ _ _ _ Hold) in Hk. destruct HF as (F & N & O & _).
  destruct (O (c_dev cf)) as (_ & l1 & m1 & l2 & m2 & H1 & H2 & H3 & H4 & H5); [by apply elem_pyset|]. rewrite Hx in H5.
  destruct H5 as (H5 & H6 & _). split.
  - intros n. rewrite (supports_ns _ _ _ _ _ H3), (supports_ns _ _ _ _ _ H1). apply H5.
  - intros n b. rewrite (activity_act _ _ _ _ _ _ H4), (activity_act _ _ _ _ _ _ H2), H6.
    destruct (decide (n = ns)) as [->|]; naive_solver.
Qed.

Lemma for_each_split {A} (f : A -> api unit) pre x post w w' :
  exec base (for_each (pre ++ x :: post) f) w (Val tt) w' ->
  exists w1 w2, exec base (for_each pre f) w (Val tt) w1 /\ exec base (f x) w1 (Val tt) w2 /\
    exec base (for_each post f) w2 (Val tt) w'.
Proof.
  revert w. induction pre as [|y pre IH]; intros w H.
  - cbn [app for_each] in H. xbind H as [] w1 H1. exists w, w1. split; [|done]. split; done.
  - cbn [app for_each] in H. xbind H as [] w0 H0. apply IH in H as (w1 & w2 & H1 & H2 & H3).
    exists w1, w2. split; [|done]. cbn [for_each]. apply exec_bind. left. by exists tt, w0.
Qed.
Lemma for_each_inv {A} (Q : world -> Prop) (f : A -> api unit) l w w' :
  exec base (for_each l f) w (Val tt) w' -> Q w ->
  (forall x w1 w2, x ∈ l -> Q w1 -> exec base (f x) w1 (Val tt) w2 -> Q w2) -> Q w'.
Proof.
  revert w. induction l as [|x l IH]; intros w H HQ Hs.
  - destruct H as [_ ->]. done.
  - cbn [for_each] in H. xbind H as [] w1 H1. eapply IH; [exact H| |].
    + eapply Hs; [left|exact HQ|exact H1].
    + intros y w2 w3 Hy. apply Hs. by right.
Qed.

Definition notlist (ns : string) (e : event) : Prop :=
  match e with EvUploadDL n _ _ | EvDownloadDL n _ _ => n <> ns | _ => True end.
Lemma last_skip ns j evs l : Forall (notlist ns) evs -> last_list ns j (evs ++ l) = last_list ns j l.
Proof.
  induction 1 as [|e evs He _ IH]; [done|]. destruct e; simpl in *; try done; destruct r; try done.
  - by rewrite decide_False.
  - rewrite decide_False by naive_solver. done.
Qed.
Lemma last_keep ns j w w' evs : w_log w' = evs ++ w_log w -> Forall (notlist ns) evs ->
  last_list ns j (w_log w') = last_list ns j (w_log w).
Proof. intros E H. rewrite E. by apply last_skip. Qed.

Section rec.
  Context (cf : cfg).
  Notation j := (c_jid cf). Notation dev := (c_dev cf).
  Definition adds (ns : string) (w w' : world) (evs : list event) : Prop :=
    w_log w' = evs ++ w_log w /\ w_loaded w' = w_loaded w /\ Forall (fun e => forall n, n <> ns -> notlist n e) evs.

  Lemma refresh_exec ns w w' : exec base (refresh_device_list cf ns j) w (Val tt) w' ->
    exists evs, adds ns w w' evs /\ listed ns j dev w' /\
      exists w1 dl, w_disk w1 = w_disk w /\ exec base (update_device_list cf ns j dl) w1 (Val tt) w'.
  Proof.
    intros H. pose proof H as (_ & evs & HF & E)%(em_exec _ _ _ _ _ _ (em_refresh cf ns j)).
    exists evs. split; [|split].
    - rewrite E. split; [done|]. split; [done|]. eapply Forall_impl; [exact HF|].
      intros e He n Hn. destruct He as [e' []|]; simpl; auto.
    - apply refresh_listed in H as (_ & _ & _ & H). exact H.
    - unfold refresh_device_list in H. xbind H as dl w1 H1. xext H1. eexists _, _. split; [|exact H]. done.
  Qed.
  Lemma add_exec active ns w w' : exec base (add_backend cf active ns) w (Val tt) w' ->
    (ns ∈ active /\ w' = w) \/
    (ns ∉ active /\ exists evs, adds ns w w' evs /\ published j dev ns evs /\ listed ns j dev w' /\
      exists w1 dl, w_disk w1 = w_disk w /\ exec base (update_device_list cf ns j dl) w1 (Val tt) w').
  Proof.
    unfold add_backend. destruct (decide _) as [Ha|Ha]; intros H; [left; by destruct H as [_ ->]|]. right. split; [done|].
    xbind H as n w1 H1. xext H1. rename r into n. xbind H as [] w2 H2.
    set (w1 := w_apply w (BNumVisible ns) (Val _)) in H2.
    assert (exists ev2, Forall (fun e => exists m r, e = EvGenerate ns m r) ev2 /\ w2 = after ev2 w1) as (ev2 & F2 & ->).
    { destruct (n <=? c_threshold cf)%Z.
      - xext H2. eexists [_]. split; [constructor; [by eexists _, _|constructor]|done].
      - destruct H2 as [_ ->]. exists []. split; [constructor|done]. }
    xbind H as b w3 H3. xext H3. rename r into b. xbind H as [] w4 H4. xext H4.
    apply refresh_exec in H as (ev5 & (E5 & L5 & F5) & Hl & w5 & dl & Hd & Hu).
    exists (ev5 ++ EvUploadBundle b (Val tt) :: EvGetBundle ns j dev (Val b) :: ev2 ++ [EvNumVisible ns (Val n)]).
    split; [split; [|split]|].
    - rewrite E5. simpl. rewrite <- !app_assoc. simpl. by rewrite <- app_assoc.
    - by rewrite L5.
    - apply Forall_app. split; [done|]. constructor; [done|]. constructor; [done|]. apply Forall_app. split; [|by repeat constructor].
      eapply Forall_impl; [exact F2|]. by intros e (m & r & ->).
    - split; [|split; [done|]].
      + eexists ev5, b, _. split; [done|left].
      + exists w5, dl. split; [|done]. rewrite Hd. simpl. clear -F2. induction F2 as [|e l (m & r & ->) _ IH]; [done|]. exact IH.
  Qed.
  Lemma purge_log ns w w' : exec base (purge_backend cf ns) w (Val tt) w' ->
    exists evs, w_log w' = evs ++ w_log w /\ Forall (fun e => forall n, n <> ns -> notlist n e) evs /\
      unlisted ns j dev w' /\ EvDeleteBundle ns dev (Val tt) ∈ evs.
  Proof.
    intros H. pose proof H as Hr. apply exec_reach' in Hr.
    apply (lg_reach _ _ _ _ (lg_purge_backend cf ns)) in Hr as (evs & HF & Hl & _). exists evs. split; [done|].
    split; [|].
    { eapply Forall_impl; [exact HF|]. intros e He n Hn. destruct He as [e' []| | | | | |]; simpl; auto. }
    unfold purge_backend in H. xbind H as dl w1 H1. xext H1. rename r into dl. xbind H as [] w2 H2.
    assert (unlisted ns j dev w2 /\ exists ev0, w_log w2 = ev0 ++ w_log w) as [Hun [ev2 E2]].
    { unfold unlisted. rewrite dmem_keys' in H2. destruct (decide (dev ∈ dkeys dl)) as [Hd|Hd].
      - rewrite bool_decide_true in H2 by done. xext H2. simpl. rewrite decide_True by done. split; [|by eexists [_; _]]. eexists. split; [done|].
        intros Hin. apply dget_keys in Hin as [v Hv]. by rewrite dget_dpop, decide_True in Hv.
      - rewrite bool_decide_false in H2 by done. destruct H2 as [_ ->]. simpl. rewrite decide_True by done. split; [eauto|by eexists [_]]. }
    clear H2 Hr. xbind H as r w3 H3.
    apply (em_exec _ _ _ _ _ _ (em_own cf)) in H3 as (_ & ev3 & F3 & ->).
    assert (unlisted ns j dev (after ev3 w2)) as Hun3.
    { destruct Hun as (dl' & Hd & Hn). exists dl'. split; [|done]. rewrite <- Hd. apply last_skip.
      eapply Forall_impl; [exact F3|]. by intros e []. }
    assert (exists ev0, w_log (after ev3 w2) = ev0 ++ w_log w) as [ev0 E0].
    { exists (ev3 ++ ev2). simpl. by rewrite E2, app_assoc. }
    clear Hun E2 ev2. revert H Hun3 E0. generalize (after ev3 w2). clear F3 ev3 w2. intros w2 H Hun E0. cbv zeta in H.
    assert (exists ev4, w_log w' = EvDeleteBundle ns dev (Val tt) :: ev4 ++ w_log w2 /\ Forall (notlist ns) ev4) as (ev4 & E4 & F4).
    { xbind H as a w5 H5. apply exec_order in H5 as (? & _ & [= <-] & ->). xbind H as [] w6 H6. xext H6.
      xbind H as b w7 H7. apply exec_order in H7 as (? & _ & [= <-] & ->). xbind H as [] w8 H8. xext H8.
      xbind H as l w9 H9. apply exec_loaded in H9 as [[= ->] ->]. xbind H as l' w10 H10. apply exec_loaded in H10 as [[= ->] ->].
      xbind H as [] w11 H11. apply exec_ploaded in H11 as [_ ->]. xbind H as [] w12 H12. xext H.
      destruct (decide _).
      - xext H12. eexists [_; _; _]. split; [reflexivity|]. by repeat constructor.
      - destruct H12 as [_ ->]. eexists [_; _]. split; [reflexivity|]. by repeat constructor. }
    split.
    - destruct Hun as (dl' & Hd & Hn). exists dl'. split; [|done]. rewrite E4, <- Hd. simpl. by apply last_skip.
    - rewrite E4, E0, app_comm_cons, app_assoc in Hl. apply app_inv_tail in Hl as <-. left.
  Qed.
End rec.

Lemma dict_keys d m : is_dict is_bool (JDict d) m -> dkeys m = map fst d.
Proof.
  intros H. inversion H as [d' da HF]; subst. clear H. induction HF as [|x y d m [E _] _ IH]; [done|]. simpl.
  unfold dkeys in *. simpl. by rewrite E, IH.
Qed.
Lemma ndw_holds cf w m : ndw (k_active (c_jid cf) (c_dev cf)) w ->
  holds (is_dict is_bool) (w_disk w) (IActive (c_jid cf) (c_dev cf)) m -> NoDup (dkeys m).
Proof.
  intros Hn (v & Hv & HT). specialize (Hn v Hv). destruct v; try (by inversion HT).
  rewrite (dict_keys _ _ HT). by apply Hn.
Qed.
Lemma dget_all_true (l : list string) n b : dget n (map (fun ns => (ns, true)) l) = Some b <-> n ∈ l /\ b = true.
Proof.
  induction l as [|m l IH]; simpl.
  - split; [done|]. intros [H _]. by apply elem_of_nil in H.
  - destruct (decide (n = m)) as [->|Hn]; rewrite elem_of_cons.
    + naive_solver.
    + rewrite IH. naive_solver.
Qed.
Lemma keys_all_true (l : list string) : dkeys (map (fun ns => (ns, true)) l) = l.
Proof. unfold dkeys. induction l as [|x l IH]; simpl; [done|]. f_equal. exact IH. Qed.
Lemma set_eqb_true {A} `{EqDecision A} (s1 s2 : list A) : set_eqb s1 s2 = true <-> forall x, x ∈ s1 <-> x ∈ s2.
Proof.
  unfold set_eqb. rewrite andb_true_iff, !bool_decide_eq_true, !Forall_forall. split; [|intros H; split; intros; by apply H].
  intros [H1 H2] x. split; auto.
Qed.

Lemma el_mid {A} (n : A) pre post : n ∈ pre ++ n :: post.
Proof. apply elem_of_app. right. left. Qed.
Lemma el_pre {A} (n y : A) pre post : y ∈ pre -> y ∈ pre ++ n :: post.
Proof. intros H. apply elem_of_app. by left. Qed.
Lemma el_post {A} (n y : A) pre post : y ∈ post -> y ∈ pre ++ n :: post.
Proof. intros H. apply elem_of_app. right. by right. Qed.

Section rec2.
  Context (cf : cfg) (L : list string).
  Notation j := (c_jid cf). Notation dev := (c_dev cf).
  (** the own record lists exactly the loaded namespaces, all active *)
  Definition exact_own (w : world) : Prop :=
    w_loaded w = L /\ known (w_disk w) j dev /\ (forall n, supports (w_disk w) j dev n <-> n ∈ L) /\
    (forall n b, activity (w_disk w) j dev n b <-> n ∈ L /\ b = true).
  Definition keeps (w w' : world) : Prop :=
    (exists evs, w_log w' = evs ++ w_log w) /\ (forall ns, ns ∈ L -> listed ns j dev w -> listed ns j dev w').
  Lemma keeps_refl w : keeps w w.
  Proof. split; [by exists []|done]. Qed.
  Lemma keeps_trans w1 w2 w3 : keeps w1 w2 -> keeps w2 w3 -> keeps w1 w3.
  Proof. intros [[e1 E1] H1] [[e2 E2] H2]. split; [exists (e2 ++ e1); by rewrite <- app_assoc, <- E1|auto]. Qed.

  Lemma listed_skip ns w w' evs : w_log w' = evs ++ w_log w -> Forall (notlist ns) evs -> listed ns j dev w -> listed ns j dev w'.
  Proof. intros E HF (dl & H & Hi). exists dl. split; [|done]. by rewrite (last_keep _ _ _ _ _ E HF). Qed.

  Lemma add_step active ns w w' : ns ∈ L -> exec base (add_backend cf active ns) w (Val tt) w' ->
    exact_own w -> ndw (k_active j dev) w -> keeps w w' /\ exact_own w' /\ ndw (k_active j dev) w'.
  Proof.
    intros Hn H HE HD. apply add_exec in H as [(_ & ->)|(_ & evs & (E & El & HF) & _ & Hl & w1 & dl & Ed & Hu)]; [by auto using keeps_refl|].
    split; [|split].
    - split; [eauto|]. intros n HnL. destruct (decide (n = ns)) as [->|Hne]; [done|]. eapply listed_skip; [exact E|].
      eapply Forall_impl; [exact HF|]. auto.
    - destruct HE as (A & B & C & D). pose proof (update_own_dev cf ns dl w1 w' Hu) as HU. rewrite Ed in HU. destruct (HU B) as [S1 S2].
      split; [by rewrite El|]. split.
      { eapply update_known; [by eapply exec_reach'|]. by rewrite Ed. }
      split; [intros n; rewrite S1, C; naive_solver|]. intros n b. rewrite S2, D. destruct (decide (n = ns)); naive_solver.
    - eapply nd_exec; [|intros v Hv; rewrite Ed in Hv; by apply HD|exact Hu]. apply nd_update; intros; kneq.
  Qed.
  Lemma purge_step ns w w' : ns ∉ L -> exec base (purge_backend cf ns) w (Val tt) w' ->
    exact_own w -> (forall m, holds (is_dict is_bool) (w_disk w) (IActive j dev) m -> NoDup (dkeys m)) ->
    keeps w w' /\ (forall n, n ∉ L -> unlisted n j dev w -> unlisted n j dev w') /\ exact_own w' /\
    (forall m, holds (is_dict is_bool) (w_disk w') (IActive j dev) m -> NoDup (dkeys m)).
  Proof.
    intros Hn H (A & B & C & D) HD. pose proof H as (evs & El & HF & Hu & _)%purge_log.
    apply purge_backend_exec in H as (_ & P1 & _ & P2 & P3 & P4 & P5 & _ & _ & P6); [|done].
    split; [|split; [|split; [|done]]].
    - split; [eauto|]. intros n HnL. eapply listed_skip; [exact El|]. eapply Forall_impl; [exact HF|].
      intros e He. apply He. by intros ->.
    - intros n HnL (dl & H1 & H2). destruct (decide (n = ns)) as [->|Hne]; [done|]. exists dl. split; [|done].
      erewrite last_keep; [exact H1|exact El|]. eapply Forall_impl; [exact HF|]. auto.
    - split; [|split; [|split]].
      + rewrite P1, A. clear -Hn. induction L as [|y l IH]; [done|]. rewrite filter_cons_True by (intros ->; apply Hn; left).
        f_equal. apply IH. intros Hi. apply Hn. by right.
      + destruct B as (zs & (v & Hv & HT) & Hz). exists zs. split; [|done]. exists v. split; [|done].
        rewrite P5; [done|done|done|done].
      + intros n. destruct (decide (n = ns)) as [->|Hne]; [tauto|]. destruct (P4 n Hne) as [P4a P4b]. rewrite P4b, C.
        split; [tauto|]. intros Hi. split; [done|]. exists true. by apply D.
      + intros n b. destruct (decide (n = ns)) as [->|Hne]; [specialize (P3 b); tauto|]. destruct (P4 n Hne) as [P4a P4b]. by rewrite P4a, D.
  Qed.

  Lemma loop_add active l w w' : (forall n, n ∈ l -> n ∈ L) -> exec base (for_each l (add_backend cf active)) w (Val tt) w' ->
    exact_own w -> ndw (k_active j dev) w -> keeps w w' /\ exact_own w' /\ ndw (k_active j dev) w'.
  Proof.
    intros Hs H HE HD.
    apply (for_each_inv (fun w1 => keeps w w1 /\ exact_own w1 /\ ndw (k_active j dev) w1)) in H; [done|by auto using keeps_refl|].
    intros x w1 w2 Hx (K & E & D) H1. destruct (add_step active x w1 w2) as (K' & E' & D'); eauto using keeps_trans.
  Qed.
  Lemma loop_purge l w w' : (forall n, n ∈ l -> n ∉ L) -> exec base (for_each l (purge_backend cf)) w (Val tt) w' ->
    exact_own w -> (forall m, holds (is_dict is_bool) (w_disk w) (IActive j dev) m -> NoDup (dkeys m)) ->
    keeps w w' /\ (forall n, n ∉ L -> unlisted n j dev w -> unlisted n j dev w') /\ exact_own w' /\
    (forall m, holds (is_dict is_bool) (w_disk w') (IActive j dev) m -> NoDup (dkeys m)).
  Proof.
    intros Hs H HE HD.
    apply (for_each_inv (fun w' => keeps w w' /\ (forall n, n ∉ L -> unlisted n j dev w -> unlisted n j dev w') /\ exact_own w' /\
    (forall m, holds (is_dict is_bool) (w_disk w') (IActive j dev) m -> NoDup (dkeys m)))) in H; [done|by auto using keeps_refl|].
    intros x w1 w2 Hx (K & U & E & D) H1. destruct (purge_step x w1 w2) as (K' & U' & E' & D'); eauto 10 using keeps_trans.
  Qed.

  Lemma reconcile_exec w w' : exec base (reconcile cf) w (Val tt) w' -> w_loaded w = L ->
    exists evs, w_log w' = evs ++ w_log w /\ keeps w w' /\ w_loaded w' = L /\
      ((forall n, n ∈ L <-> supports (w_disk w) j dev n /\ exists b, activity (w_disk w) j dev n b) \/
       (forall n, n ∈ L -> ~ (supports (w_disk w) j dev n /\ exists b, activity (w_disk w) j dev n b) ->
          published j dev n evs /\ listed n j dev w') /\
       (forall n, n ∉ L -> supports (w_disk w) j dev n -> (exists b, activity (w_disk w) j dev n b) ->
          EvDeleteBundle n dev (Val tt) ∈ evs /\ unlisted n j dev w') /\
       exact_own w').
  Proof.
    intros H HL. unfold reconcile in H. xbind H as r w1 H1. destruct r as [d others].
    pose proof H1 as (_ & ev1 & HF1 & Ew1)%(em_exec _ _ _ _ _ _ (em_own cf)).
    pose proof H1 as (ds & Hd & Hp & Ej & Ei & _)%own_split.
    apply get_info_exec in Hd as (ids & bs & Hids & [_ HM] & V & _). simpl in V.
    destruct (V d) as [Hid HD]; [rewrite Hp; left|]. rewrite Ei in Hid.
    assert (known (w_disk w) j dev) as Hk by (by eapply known_ids).
    assert (known (w_disk w1) j dev) as Hk1.
    { destruct Hk as (zs & (v & Hv & HT) & Hz). exists zs. split; [|done]. exists v. split; [|done].
      rewrite <- Hv. apply HM. intros y Hy. split; kneq. }
    assert (forall n, n ∈ dv_namespaces d <-> supports (w_disk w) j dev n /\ exists b, activity (w_disk w) j dev n b) as Hns.
    { intros n. destruct HD as (_ & l & A1 & A2 & _ & A3 & _). rewrite Ei in A1, A2.
      rewrite A3, (supports_ns _ _ _ _ _ A1). setoid_rewrite (activity_act _ _ _ _ _ _ A2).
      by rewrite dget_keys. }
    clear V Hp HD HM Hids Hid ds ids bs H1 Ej Ei.
    xbind H as l w2 H2. apply exec_loaded in H2 as [[= ->] ->]. cbn [fst] in H.
    assert (w_loaded w1 = L) as HL1 by (by rewrite Ew1).
    assert (keeps w w1) as K1.
    { split; [exists ev1; by rewrite Ew1|]. intros ns _. eapply listed_skip; [by rewrite Ew1|].
      eapply Forall_impl; [exact HF1|]. by intros e []. }
    assert (w_log w1 = ev1 ++ w_log w) as El1 by (by rewrite Ew1). clear Ew1 HF1.
    cbv zeta in H. destruct (set_eqb _ _) eqn:Eq.
    { destruct H as [_ ->]. exists ev1. rewrite El1. split; [done|]. split; [done|]. split; [done|]. left.
      intros n. rewrite <- Hns, <- HL1. rewrite set_eqb_true in Eq. by rewrite <- Eq, elem_pyset. }
    clear Eq. xbind H as l1 w3 H3. apply exec_order in H3 as (? & Hl1 & [= <-] & ->). rewrite HL1 in *.
    xbind H as [] w3 H3. xext H3. xbind H as l2 w4 H4. apply exec_order in H4 as (? & Hl2 & [= <-] & ->).
    xbind H as [] w4 H4. xext H4. xbind H as l w5 H5. apply exec_loaded in H5 as [[= ->] ->]. cbn [w_apply w_loaded] in H.
    match type of H with exec _ _ (w_apply ?a ?c ?r) _ _ => set (w2 := w_apply a c r) in H end.
    assert (w_log w2 = [EvStore (k_ns j dev) (j_strs l2) (Val tt); EvStore (k_active j dev) (j_bools (map (λ ns : string, (ns, true)) l1)) (Val tt)] ++ w_log w1) as El2 by done.
    assert (w_disk w2 = <[k_ns j dev := j_strs l2]> (<[k_active j dev := j_bools (map (λ ns : string, (ns, true)) l1)]> (w_disk w1))) as Dw by done.
    assert (keeps w1 w2) as K2.
    { split; [eauto|]. intros ns _. eapply listed_skip; [exact El2|]. by repeat constructor. }
    assert (forall n, n ∈ l1 <-> n ∈ L) as M1 by (intros n; by rewrite Hl1, elem_pyset).
    assert (forall n, n ∈ l2 <-> n ∈ L) as M2 by (intros n; by rewrite Hl2, elem_pyset).
    assert (w_disk w2 !! k_active j dev = Some (j_bools (map (λ ns : string, (ns, true)) l1))) as Da.
    { simpl. rewrite lookup_insert_ne by kneq. apply lookup_insert. }
    assert (w_disk w2 !! k_ns j dev = Some (j_strs l2)) as Dn by apply lookup_insert.
    assert (exact_own w2) as E2.
    { split; [done|]. split.
      { destruct Hk1 as (zs & (v & Hv & HT) & Hz). exists zs. split; [|done]. exists v. split; [|done].
        change (w_disk w2 !! k_list j = Some v). rewrite Dw, !lookup_insert_ne by kneq. done. }
      split.
      - intros n. rewrite (supports_ns _ _ _ l2); [apply M2|by apply hns_new].
      - intros n b. rewrite (activity_act _ _ _ (map (λ ns : string, (ns, true)) l1)); [|by apply hact_new].
        by rewrite dget_all_true, M1. }
    assert (ndw (k_active j dev) w2) as D2.
    { intros v Hv. rewrite Da in Hv. injection Hv as <-. apply ndj_bools. rewrite keys_all_true, Hl1. apply NoDup_remove_dups. }
    clearbody w2. rewrite HL1 in H.
    xbind H as [] w3 H3. pose proof H3 as (K3 & E3 & D3)%loop_add; [|done..].
    xbind H as rem w4 H4. apply exec_order in H4 as (? & Hrem & [= <-] & ->).
    assert (forall n, n ∈ rem -> n ∉ L) as HR.
    { intros n Hn. rewrite Hrem in Hn. unfold set_diff in Hn. apply elem_of_list_filter in Hn as [Hn _]. by rewrite elem_pyset in Hn. }
    pose proof H as (K4 & U4 & E4 & D4)%loop_purge; [|done|done|by intros m; apply ndw_holds].
    assert (keeps w w') as K by (eapply keeps_trans; [exact K1|]; eapply keeps_trans; [exact K2|]; by eapply keeps_trans). pose proof (proj1 K) as [evs Ee].
    exists evs. split; [done|]. split; [done|]. split; [apply E4|]. right. split; [|split; [|done]].
    - intros n Hn Hno. rewrite <- Hns in Hno.
      apply elem_of_list_split in Hn as (pre & post & EL). rewrite EL in H3.
      assert (n ∈ L) as Hn by (rewrite EL; apply el_mid).
      apply for_each_split in H3 as (wa & wb & Ha & Hb & Hc).
      apply loop_add in Ha as (Ka & Ea & Da'); [|intros y Hy; rewrite EL; by apply el_pre|done|done].
      pose proof Hb as (Kb & Eb & Db)%add_step; [|done..].
      apply loop_add in Hc as (Kc & Ec & Dc); [|intros y Hy; rewrite EL; by apply el_post|done|done].
      apply add_exec in Hb as [(? & _)|(_ & evb & (Elb & _ & _) & Hp & Hl & _)]; [done|]. split.
      + assert (keeps w wa) as [[e1 E1] _] by (eapply keeps_trans; [exact K1|]; by eapply keeps_trans).
        assert (keeps wb w') as [[e5 E5] _] by (by eapply keeps_trans).
        rewrite E5, Elb, E1, !app_assoc in Ee. apply app_inv_tail in Ee as <-. rewrite <- app_assoc. apply published_app.
        destruct Hp as (p1 & b & p2 & -> & Hp). exists p1, b, (p2 ++ e1). rewrite <- app_assoc. split; [done|].
        apply elem_of_app. by left.
      + apply K4; [done|]. by apply Kc.
    - intros n Hn Hs Hb. assert (n ∈ rem) as Hin.
      { rewrite Hrem. apply elem_of_list_filter. rewrite elem_pyset. split; [done|]. by apply Hns. }
      apply elem_of_list_split in Hin as (pre & post & ->).
      apply for_each_split in H as (wa & wb & Ha & Hc & Hd).
      apply loop_purge in Ha as (Ka & Ua & Ea & Da'); [|intros y Hy; by apply HR, el_pre|done|by intros m; apply ndw_holds].
      pose proof Hc as (Kb & Ub & Eb & Db)%purge_step; [|done..].
      apply loop_purge in Hd as (Kc & Uc & Ec & Dc); [|intros y Hy; by apply HR, el_post|done|done].
      apply purge_log in Hc as (evp & Elp & _ & Hun & Hdel). split; [|by apply Uc].
      assert (keeps w wa) as [[e1 E1] _] by (eapply keeps_trans; [exact K1|]; eapply keeps_trans; [exact K2|]; by eapply keeps_trans).
      destruct Kc as [[e5 E5] _].
      rewrite E5, Elp, E1, !app_assoc in Ee. apply app_inv_tail in Ee as <-. apply elem_of_app. left. apply elem_of_app. by right.
  Qed.
End rec2.

Section created.
  Context (P : prims) (fuel : nat) (a : create_args).
  Notation j := (a_jid a).
  Definition anyev (e : event) : Prop := True.
  Local Hint Unfold anyev : core.

  Lemma create_split cf w w' : exec base (create P fuel a) w (Val cf) w' ->
    exists w2 ev0, w_loaded w2 = a_backends a /\ w_log w2 = ev0 ++ w_log w /\
      (forall k, k <> k_ikp_seed -> k <> k_ikp_key -> w_disk w2 !! k = w_disk w !! k) /\
      ((exists dev, own_is w dev /\ cf = cfg_of a dev /\ exec base (reconcile cf) w2 (Val tt) w') \/
       (w_disk w !! k_own = None /\ exists k dev w3 w4, cf = cfg_of a dev /\
          exec base (first_run_local P fuel a k) w2 (Val dev) w3 /\ exec base (first_run_publish cf) w3 (Val tt) w4 /\
          exec base (reconcile cf) w4 (Val tt) w')).
  Proof.
    intros H. unfold create in H. destruct (negb (bool_decide _)); [by destruct H|]. destruct (negb _); [by destruct H|].
    xbind H as [] w1 H1. apply exec_ploaded in H1 as [_ ->]. xbind H as k w1 H1.
    apply (em_exec _ _ _ _ _ _ em_ikp) in H1 as (_ & ev1 & F1 & ->).
    xbind H as [] w1 H1. apply exec_psync in H1 as [_ ->].
    match type of H with exec _ _ ?x _ _ => set (w2 := x) in H end.
    exists w2, ev1. split; [done|]. split; [done|].
    assert (forall k, k <> k_ikp_seed -> k <> k_ikp_key -> w_disk w2 !! k = w_disk w !! k) as Hd.
    { intros k0 N1 N2. simpl. apply replay_other. eapply Forall_impl; [exact F1|]. intros e (k1 & v & r & -> & Hk).
      simpl. destruct r; simpl; [|done]. intros [= ->]. naive_solver. }
    split; [done|]. xbind H as m w3 H3.
    assert (w3 = w2 /\ match m with Some dev => own_is w dev | None => w_disk w !! k_own = None end) as [-> Hm].
    { rewrite <- (Hd k_own) by kneq.
      revert H3. intros H3. apply (wp_exec base (fun _ => True) (load_primitive as_int k_own)
        (fun o w3 => w3 = w2 /\ match o with Val (Some dev) => own_is w dev | Val None => w_disk w2 !! k_own = None | _ => True end)) in H3.
      - destruct H3 as [-> H3]. split; [done|]. by destruct m.
      - apply wp_typed with (T := is_int); [apply good_int|done|by intros|done|..].
        + intros v dev Hv HT. split; [done|]. exists v. split; [|done]. rewrite <- Hd by kneq. done.
        + done. }
    xbind H as dev w4 H4. xbind H as [] w5 H5. destruct H as [[= ->] ->].
    destruct m as [dev'|].
    - destruct H4 as [[= <-] ->]. left. by exists dev.
    - right. split; [done|]. xbind H4 as d w6 H6. xbind H4 as [] w7 H7. destruct H4 as [[= <-] ->].
      by exists k, dev, w6, w7.
  Qed.

  Lemma published_mid dev ns p q evs : published j dev ns evs -> published j dev ns (p ++ evs ++ q).
  Proof.
    intros H. apply published_app. destruct H as (p1 & b & p2 & -> & H). exists p1, b, (p2 ++ q).
    rewrite <- app_assoc. split; [done|]. apply elem_of_app. by left.
  Qed.
  Lemma em_local k : em anyev (first_run_local P fuel a k).
  Proof.
    assert (forall l, em anyev (fresh_id fuel l)) as Hf.
    { intros l. induction fuel as [|n IH]; [exact I|]. cbn [fresh_id]. emt; apply IH. }
    unfold first_run_local. emt; try apply Hf; ev.
  Qed.

  (** a completed first publication *)
  Lemma publish_exec dev w w' : exec base (first_run_publish (cfg_of a dev)) w (Val tt) w' ->
    w_loaded w' = w_loaded w /\ exists evs, w_log w' = evs ++ w_log w /\
    forall ns, ns ∈ w_loaded w -> EvGenerate ns 100 (Val tt) ∈ evs /\ published j dev ns evs /\ listed ns j dev w'.
  Proof.
    intros H. unfold first_run_publish in H.
    xbind H as l1 w1 H1. apply exec_loaded in H1 as [[= ->] ->]. xbind H as [] w1 H1.
    assert (em anyev (for_each (w_loaded w) (λ ns, b_generate ns 100))) as EM1 by (emt; ev).
    pose proof H1 as (_ & ev1 & _ & E1)%(em_exec _ _ _ _ _ _ EM1).
    assert (w_loaded w1 = w_loaded w) as L1 by (by rewrite E1).
    assert (w_log w1 = ev1 ++ w_log w) as X1 by (by rewrite E1). clear E1.
    xbind H as l2 w2 H2. apply exec_loaded in H2 as [[= ->] ->]. xbind H as [] w2 H2. rewrite L1 in H2.
    set (f2 := λ ns : string, b <- b_get_bundle ns (c_jid (cfg_of a dev)) (c_dev (cfg_of a dev));; n_upload_bundle b) in *.
    assert (forall l, em anyev (for_each l f2)) as EM2 by (intros l; emt; unfold f2; emt; ev).
    pose proof H2 as (_ & ev2 & _ & E2)%(em_exec _ _ _ _ _ _ (EM2 _)).
    assert (w_loaded w2 = w_loaded w) as L2 by (by rewrite E2).
    assert (w_log w2 = ev2 ++ w_log w1) as X2 by (by rewrite E2). clear E2.
    xbind H as l3 w3 H3. apply exec_loaded in H3 as [[= ->] ->]. rewrite L2 in H.
    set (f3 := λ ns : string, refresh_device_list (cfg_of a dev) ns (c_jid (cfg_of a dev))) in *.
    assert (forall l, em anyev (for_each l f3)) as EM3.
    { intros l. emt. unfold f3. eapply em_mono; [apply em_refresh|done|done]. }
    pose proof H as (_ & ev3 & _ & E3)%(em_exec _ _ _ _ _ _ (EM3 _)).
    split; [by rewrite E3|]. exists (ev3 ++ ev2 ++ ev1).
    split; [rewrite E3; cbn [w_log after]; by rewrite X2, X1, !app_assoc|]. clear E3.
    intros ns Hns. apply elem_of_list_split in Hns as (pre & post & Hl). rewrite Hl in *. split; [|split].
    - apply for_each_split in H1 as (wa & wb & Ha & Hb & Hc).
      assert (forall l, em anyev (for_each l (λ ns, b_generate ns 100))) as EM1' by (intros; emt; ev).
      apply (em_exec _ _ _ _ _ _ (EM1' _)) in Ha as (_ & eva & _ & Ea).
      apply (em_exec _ _ _ _ _ _ (EM1' _)) in Hc as (_ & evc & _ & Ec). xext Hb.
      simpl in X1. rewrite app_comm_cons, app_assoc in X1. apply app_inv_tail in X1 as <-.
      apply elem_of_app. right. apply elem_of_app. right. apply el_mid.
    - apply for_each_split in H2 as (wa & wb & Ha & Hb & Hc).
      apply (em_exec _ _ _ _ _ _ (EM2 _)) in Ha as (_ & eva & _ & Ea).
      apply (em_exec _ _ _ _ _ _ (EM2 _)) in Hc as (_ & evc & _ & Ec).
      unfold f2 in Hb. xbind Hb as b wx Hb1. xext Hb1. xext Hb.
      simpl in X2. rewrite !app_comm_cons, app_assoc in X2. apply app_inv_tail in X2 as <-.
      apply published_mid. eexists evc, _, _. split; [reflexivity|left].
    - apply for_each_split in H as (wa & wb & Ha & Hb & Hc).
      unfold f3 in Hb. apply refresh_exec in Hb as (evb & _ & Hlist & _).
      eapply (for_each_inv (fun w => listed ns j dev w)); [exact Hc|exact Hlist|].
      intros x w3 w4 _ Hw Hx. unfold f3 in Hx. apply refresh_exec in Hx as (evx & (Ex & _ & Fx) & Hlx & _).
      destruct (decide (x = ns)) as [->|Hne]; [exact Hlx|].
      change (listed ns (c_jid (cfg_of a dev)) (c_dev (cfg_of a dev)) w4). eapply listed_skip; [exact Ex| |exact Hw].
      eapply Forall_impl; [exact Fx|]. auto.
  Qed.

  Lemma create_first cf w w' : exec base (create P fuel a) w (Val cf) w' -> w_disk w !! k_own = None ->
    exists evs, w_log w' = evs ++ w_log w /\ c_jid cf = j /\
    forall ns, ns ∈ a_backends a ->
      EvGenerate ns 100 (Val tt) ∈ evs /\ published j (c_dev cf) ns evs /\ listed ns j (c_dev cf) w'.
  Proof.
    intros H Ho. apply create_split in H as (w2 & ev0 & L2 & E2 & _ & [(dev & (v & Hv & _) & _)|(_ & k & dev & w3 & w4 & -> & H1 & H2 & H3)]);
      [congruence|].
    apply (em_exec _ _ _ _ _ _ (em_local k)) in H1 as (_ & ev1 & _ & E1).
    apply publish_exec in H2 as (L4 & ev2 & E4 & Hp).
    assert (w_loaded w3 = a_backends a) as L3 by (by rewrite E1).
    apply (reconcile_exec _ (a_backends a)) in H3 as (ev3 & E3 & K & _); [|by rewrite L4].
    exists (ev3 ++ ev2 ++ ev1 ++ ev0). split; [rewrite E3, E4, E1; cbn [w_log after]; by rewrite E2, !app_assoc|]. split; [done|].
    intros ns Hns. destruct (Hp ns) as (G & Pu & Li); [by rewrite L3|]. split; [|split].
    - apply elem_of_app. right. apply elem_of_app. by left.
    - by apply published_mid.
    - by apply K.
  Qed.

  Lemma create_again cf w w' dev : exec base (create P fuel a) w (Val cf) w' -> own_is w dev ->
    cf = cfg_of a dev /\ exists evs, w_log w' = evs ++ w_log w /\ w_loaded w' = a_backends a /\
      ((forall n, n ∈ a_backends a <-> supports (w_disk w) j dev n /\ exists b, activity (w_disk w) j dev n b) \/
       (forall n, n ∈ a_backends a -> ~ (supports (w_disk w) j dev n /\ exists b, activity (w_disk w) j dev n b) ->
          published j dev n evs /\ listed n j dev w') /\
       (forall n, n ∉ a_backends a -> supports (w_disk w) j dev n -> (exists b, activity (w_disk w) j dev n b) ->
          EvDeleteBundle n dev (Val tt) ∈ evs /\ unlisted n j dev w') /\
       (forall n, supports (w_disk w') j dev n <-> n ∈ a_backends a) /\
       (forall n b, activity (w_disk w') j dev n b <-> n ∈ a_backends a /\ b = true)).
  Proof.
    intros H Ho. apply create_split in H as (w2 & ev0 & L2 & E2 & Hd & [(dev' & Ho' & -> & H)|(Ho' & _)]);
      [|destruct Ho as (v & Hv & _); congruence].
    assert (dev' = dev) as ->.
    { destruct Ho as (v & Hv & H1), Ho' as (v' & Hv' & H2). rewrite Hv in Hv'. injection Hv' as <-. inversion H1; subst; inversion H2; by subst. }
    split; [done|]. apply (reconcile_exec _ (a_backends a)) in H as (ev & E & K & L & H); [|done].
    exists (ev ++ ev0). split; [by rewrite E, E2, app_assoc|]. split; [done|]. cbn [c_jid c_dev cfg_of] in *.
    assert (forall n, supports (w_disk w2) j dev n <-> supports (w_disk w) j dev n) as S.
    { intros n. unfold supports, holds. by rewrite Hd by kneq. }
    assert (forall n b, activity (w_disk w2) j dev n b <-> activity (w_disk w) j dev n b) as S'.
    { intros n b. unfold activity, holds. by rewrite Hd by kneq. }
    setoid_rewrite S in H. setoid_rewrite S' in H. destruct H as [H|(H1 & H2 & H3)]; [by left|right]. split; [|split; [|split; apply H3]].
    - intros n Hn Hno. destruct (H1 n Hn Hno) as [H4 H5]. split; [|done]. rewrite <- (app_nil_l (ev ++ ev0)). by apply published_mid.
    - intros n Hn Hs Ha. destruct (H2 n Hn Hs Ha) as [H4 H5]. split; [|done]. apply elem_of_app. by left.
  Qed.
End created.
