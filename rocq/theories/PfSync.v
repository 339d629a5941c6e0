(** History synchronization: what after_history_sync does with the queued devices. *)
From Verif Require Import Api Spec Alone Dec PfStrs PfTyped PfWp PfExec PfEmits PfAlone PfLog PfDevices PfEmpty PfEncrypt4 PfDec2 PfDec3 PfDec4 PfDec5 PfDec6.
Open Scope prog_scope.
Open Scope list_scope.

Notation dkey := (string * string * Z)%type.

Lemma forall2_in {A B} (R R' : A -> B -> Prop) l l' : Forall2 R l l' -> (forall x y, x ∈ l -> R x y -> R' x y) -> Forall2 R' l l'.
Proof. induction 1 as [|x y l l' H _ IH]; intros HR; constructor; [apply HR; [left|done]|apply IH; intros; apply HR; [by right|done]]. Qed.

Section sync.
  Context (cf : cfg).
  Notation S := (with_contract sessions_named).

  Lemma flushed_replay ns j x b d : flushed cf ns j x b -> replay b d = d.
  Proof. intros [->|(s & c & p & s' & k & _ & ->)]; done. Qed.
  Lemma flushed_plain ns j x b : flushed cf ns j x b -> filter (fun e => ~ is_delete e) b = b.
  Proof. intros [->|(s & c & p & s' & k & _ & ->)]; done. Qed.

  Lemma em_flush_dev ns j x : em nostore (flush_dev cf ns j x).
  Proof.
    unfold flush_dev, send_empty_message. emt; try (by unw; split; [done|intros; first [apply em_of_outcome|exact Logic.I]]).
  Qed.
  Lemma flush_dev_exec ns j x w w' : exec S (flush_dev cf ns j x) w (Val tt) w' ->
    exists b, flushed cf ns j x b /\ w' = after b w.
  Proof.
    intros H. destruct (em_exec _ _ _ _ _ _ (em_flush_dev ns j x) (with_contract_exec _ _ _ _ _ H)) as (_ & evs & _ & ->).
    exists evs. split; [|done]. apply alone_exec in H as (evs' & E & H). simpl in E. apply app_inv_tail in E as <-.
    unfold flush_dev in H. cbn [bind b_load_session exec] in H. destruct H as ([[s|]|e] & Hr & H); [| |by destruct H].
    - right. destruct Hr as (w0 & _ & Hs). cbn [of_outcome bind] in H.
      unfold send_empty_message in H. cbn [bind b_enc_empty exec] in H.
      destruct H as ([[c p]|e] & _ & H); [|by destruct H].
      cbn [of_outcome bind b_enc_key exec] in H. destruct H as ([[s' k]|e] & (w1 & _ & Hk) & H); [|by destruct H].
      cbn [of_outcome bind n_send exec] in H. rewrite kex_same in H. destruct H as ([[]|e] & _ & H); [|by destruct H].
      cbn [of_outcome bind b_store_session exec] in H. destruct H as ([[]|e] & _ & H); [|by destruct H].
      destruct H as [_ ->]. simpl in Hs, Hk. destruct Hs as (E1 & E2 & E3), Hk as (F1 & F2 & F3).
      exists s, c, p, s', k. rewrite <- E2, <- F2. done.
    - left. by destruct H as [_ ->].
  Qed.

  (** The log [evs], apart from deletions, is one block for each of the devices in [Q]. *)
  Definition fl (Q : dkey -> Prop) (evs : list event) : Prop :=
    exists fs : list (dkey * list event), NoDup (map fst fs) /\ (forall q, q ∈ map fst fs <-> Q q) /\
      Forall (fun f => flushed cf f.1.1.1 f.1.1.2 f.1.2 f.2) fs /\
      filter (fun e => ~ is_delete e) evs = concat (rev (map snd fs)).
  (** [evs] removes exactly the keys [ks]. *)
  Definition dels (ks : list string) (evs : list event) : Prop :=
    forall d k, replay evs d !! k = if decide (k ∈ ks) then None else d !! k.

  Lemma dels_nil : dels [] [].
  Proof. intros d k. done. Qed.
  Lemma dels_app ks1 e1 ks2 e2 : dels ks1 e1 -> dels ks2 e2 -> dels (ks1 ++ ks2) (e2 ++ e1).
  Proof. intros H1 H2 d k. rewrite replay_app, H2, H1. repeat case_decide; set_solver. Qed.
  Lemma dels_one k : dels [k] [EvDelete k (Val tt)].
  Proof.
    intros d k'. simpl. destruct (decide (k' ∈ [k])) as [->%elem_of_list_singleton|H]; [apply lookup_delete|].
    apply lookup_delete_ne. set_solver.
  Qed.
  Lemma fl_mono (Q Q' : dkey -> Prop) evs : (forall q, Q q <-> Q' q) -> fl Q evs -> fl Q' evs.
  Proof. intros HQ (fs & H1 & H2 & H3). exists fs. split; [done|]. split; [|done]. intros q. rewrite H2. apply HQ. Qed.
  Lemma fl_app (Q1 Q2 : dkey -> Prop) (e1 e2 : list event) : (forall q, Q1 q -> Q2 q -> False) -> fl Q1 e1 -> fl Q2 e2 -> fl (fun q => Q1 q \/ Q2 q) (e2 ++ e1).
  Proof.
    intros Hd (f1 & H1 & H2 & H3 & H4) (f2 & G1 & G2 & G3 & G4). exists (f1 ++ f2). rewrite !map_app. split; [|split; [|split]].
    - apply NoDup_app. split; [done|]. split; [|done]. intros q Hq%H2 Hq'%G2. by apply (Hd q).
    - intros q. by rewrite elem_of_app, H2, G2.
    - by apply Forall_app.
    - by rewrite rev_app_distr, concat_app, filter_app, H4, G4.
  Qed.
  Lemma fl_del Q evs k r : fl Q evs -> fl Q (evs ++ [EvDelete k r]).
  Proof. intros (fs & H1 & H2 & H3 & H4). exists fs. by rewrite filter_app, H4, app_nil_r. Qed.
  Lemma fl_concat {A} (Q : A -> dkey -> Prop) l bs : NoDup l -> (forall x y q, x ∈ l -> y ∈ l -> Q x q -> Q y q -> x = y) ->
    Forall2 (fun x b => fl (Q x) b) l bs -> fl (fun q => exists x, x ∈ l /\ Q x q) (concat (rev bs)).
  Proof.
    intros Hl Hd H. induction H as [|x b l bs Hb _ IH].
    { exists []. split; [constructor|]. split; [|by repeat constructor]. intros q. split; [by intros ?%elem_of_nil|by intros (x & ?%elem_of_nil & _)]. }
    apply NoDup_cons in Hl as [Hx Hl]. simpl. rewrite concat_app. simpl. rewrite app_nil_r.
    eapply fl_mono; [|apply (fl_app (Q x) (fun q => exists y, y ∈ l /\ Q y q)); [|exact Hb|apply IH; [done|]]].
    - intros q. split.
      + intros [?|(y & ? & ?)]; [exists x; split; [left|done]|exists y; split; [by right|done]].
      + intros (y & Hy & HQ). apply elem_of_cons in Hy as [->|Hy]; [by left|right; eauto].
    - intros q H1 (y & Hy & H2). apply Hx. replace x with y; [done|]. eapply Hd; [by right|left|done|done].
    - intros y z q Hy Hz. apply Hd; by right.
  Qed.
  Lemma dels_concat {A} (K : A -> list string) l bs : Forall2 (fun x b => dels (K x) b) l bs -> dels (concat (map K l)) (concat (rev bs)).
  Proof.
    induction 1 as [|x b l bs Hb _ IH]; [apply dels_nil|]. simpl. rewrite concat_app. simpl. rewrite app_nil_r.
    by apply dels_app.
  Qed.

  Lemma dels_ex {A} (Q : A -> list string -> Prop) l bs : Forall2 (fun x b => exists ks, dels ks b /\ Q x ks) l bs ->
    exists kss, Forall2 Q l kss /\ dels (mjoin kss) (concat (rev bs)).
  Proof.
    induction 1 as [|x b l bs (ks & Hb & HQ) _ (kss & H1 & H2)]; [exists []; split; [done|apply dels_nil]|].
    exists (ks :: kss). split; [by constructor|]. simpl. rewrite concat_app. simpl. rewrite app_nil_r. by apply dels_app.
  Qed.

  (** loops whose bodies do not look at what earlier rounds changed *)
  Lemma loop {A} (f : A -> api unit) (R : A -> gmap string json -> list event -> Prop) l w w' :
    (forall x w w', x ∈ l -> exec S (f x) w (Val tt) w' -> exists b, R x (w_disk w) b /\ w' = after b w) ->
    (forall x y d b b', x ∈ l -> y ∈ l -> x <> y -> R x d b -> R y (replay b d) b' -> R y d b') -> NoDup l ->
    exec S (for_each l f) w (Val tt) w' -> exists bs, Forall2 (fun x b => R x (w_disk w) b) l bs /\ w' = after (concat (rev bs)) w.
  Proof.
    revert w. induction l as [|x l IH]; intros w Hf Hr Hl H.
    { destruct H as [_ ->]. exists []. split; [done|]. by rewrite after_nil. }
    cbn [for_each] in H. apply exec_bind in H as [([] & w1 & H1 & H)|(e & _ & ?)]; [|done].
    apply Hf in H1 as (b & Hb & ->); [|left]. apply NoDup_cons in Hl as [Hx Hl].
    apply IH in H as (bs & Hbs & ->); [|intros; apply Hf; [by right|done]|intros; eapply Hr; try done; by right|done].
    exists (b :: bs). split.
    - constructor; [done|]. eapply forall2_in; [exact Hbs|]. intros y b' Hy Hb'.
      apply (Hr x y _ b); [left|by right| |done|exact Hb']. by intros ->.
    - rewrite after_app. simpl. rewrite concat_app. simpl. by rewrite app_nil_r.
  Qed.

  Lemma ints_exec k w m w' : exec S (load_list as_int k) w (Val m) w' -> w' = w /\
    forall l, (exists v, w_disk w !! k = Some v /\ is_list is_int v l) <-> m = Some l.
  Proof.
    intros H%with_contract_exec. 
    assert (wp base (fun _ => True) (load_list as_int k) (fun o w1 => w1 = w /\ forall m, o = Val m -> 
      forall l, (exists v, w_disk w !! k = Some v /\ is_list is_int v l) <-> m = Some l) w) as Hw.
    { unfold load_list. eapply wp_typed; [apply good_ints|done|..].
      - intros e _. by split.
      - intros E. split; [done|]. intros m0 [= <-] l. rewrite E. split; [by intros (v & ? & _)|done].
      - intros v a E Ha. split; [done|]. intros m0 [= <-] l. rewrite E. split.
        + intros (v' & [= <-] & Hl). f_equal. eapply is_list_fun; [apply is_int_fun|done|done].
        + intros [= <-]. eauto.
      - intros v E _. by split. }
    destruct (wp_exec _ _ _ _ _ _ _ Hw H) as [-> Hm]. split; [done|]. by apply Hm.
  Qed.
  Lemma strs_exec k w m w' : exec S (load_list as_str k) w (Val m) w' -> w' = w /\
    forall l, (exists v, w_disk w !! k = Some v /\ is_list is_str v l) <-> m = Some l.
  Proof.
    intros H%with_contract_exec. 
    assert (wp base (fun _ => True) (load_list as_str k) (fun o w1 => w1 = w /\ forall m, o = Val m -> 
      forall l, (exists v, w_disk w !! k = Some v /\ is_list is_str v l) <-> m = Some l) w) as Hw.
    { unfold load_list. eapply wp_typed; [apply good_strs|done|..].
      - intros e _. by split.
      - intros E. split; [done|]. intros m0 [= <-] l. rewrite E. split; [by intros (v & ? & _)|done].
      - intros v a E Ha. split; [done|]. intros m0 [= <-] l. rewrite E. split.
        + intros (v' & [= <-] & Hl). f_equal. eapply is_list_fun; [apply is_str_fun|done|done].
        + intros [= <-]. eauto.
      - intros v E _. by split. }
    destruct (wp_exec _ _ _ _ _ _ _ Hw H) as [-> Hm]. split; [done|]. by apply Hm.
  Qed.

  Definition devs_of (d : gmap string json) ns j (x : Z) : Prop :=
    exists l, holds (is_list is_int) d (IQueueDevices ns j) l /\ x ∈ l.
  Definition jids_of (d : gmap string json) ns j : Prop :=
    exists l, holds (is_list is_str) d (IQueue ns) l /\ j ∈ l.
  Lemma maybe_set {A} `{EqDecision A} (m : option (list A)) (T : list A -> Prop) x :
    (forall l, T l <-> m = Some l) -> x ∈ pyset (Model.maybe [] m) <-> exists l, T l /\ x ∈ l.
  Proof.
    intros HT. rewrite elem_pyset. destruct m as [l|]; simpl.
    - split; [intros; exists l; split; [by apply HT|done]|]. intros (l' & [= <-]%HT & ?). done.
    - split; [by intros ?%elem_of_nil|]. by intros (l' & ?%HT & ?).
  Qed.

  Lemma flush_jid_exec ns j w w' : exec S (flush_jid cf ns j) w (Val tt) w' ->
    exists b, (fl (fun q => q.1 = (ns, j) /\ devs_of (w_disk w) ns j q.2) b /\ dels [k_queue_jid ns j] b) /\ w' = after b w.
  Proof.
    unfold flush_jid. intros H. apply exec_bind in H as [(m & w1 & H1 & H)|(e & _ & ?)]; [|done].
    apply ints_exec in H1 as [-> Hm]. cbn beta zeta in H.
    apply exec_bind in H as [([] & w1 & H1 & H)|(e & _ & ?)]; [|done].
    destruct H1 as ([[]|e] & _ & H1); [|by destruct H1]. destruct H1 as [_ ->].
    apply exec_bind in H as [(l & w1 & H1 & H)|(e & _ & ?)]; [|done].
    apply with_contract_exec in H1. apply exec_order in H1 as (l' & Hl & [= <-] & ->).
    apply (loop _ (fun x _ b => flushed cf ns j x b)) in H as (bs & Hbs & ->); [| |done|].
    2: { intros x w1 w2 _. apply flush_dev_exec. }
    2: { rewrite Hl. unfold pyset. apply NoDup_remove_dups. }
    exists (concat (rev bs) ++ [EvDelete (k_queue_jid ns j) (Val tt)]). split; [|by rewrite <- after_app].
    assert (NoDup l) as Hn by (rewrite Hl; unfold pyset; apply NoDup_remove_dups). split.
    - apply fl_del. eapply fl_mono; [|apply (fl_concat (fun x q => q = (ns, j, x)) l); [done|congruence|]].
      + intros [[ns' j'] x]. split.
        * intros (y & Hy & [= -> -> ->]). split; [done|]. rewrite Hl in Hy. by apply (maybe_set _ _ _ Hm) in Hy.
        * simpl. intros [[= -> ->] Hx]. exists x. split; [|done]. rewrite Hl. by apply (maybe_set _ _ _ Hm).
      + eapply Forall2_impl; [exact Hbs|]. intros x b Hb. exists [((ns, j, x), b)]. split; [repeat constructor; by intros ?%elem_of_nil|].
        split; [intros q; apply elem_of_list_singleton|]. split; [constructor; [exact Hb|constructor]|]. simpl. rewrite app_nil_r. by eapply flushed_plain.
    - change [k_queue_jid ns j] with ([k_queue_jid ns j] ++ []). apply dels_app; [apply dels_one|].
      assert (Forall2 (fun x b => dels ((fun _ => []) x) b) l bs) as Hd.
      { eapply Forall2_impl; [exact Hbs|]. intros x b Hb d k. by rewrite (flushed_replay _ _ _ _ _ Hb). }
      apply dels_concat in Hd. replace (concat (map (fun _ : Z => []) l)) with (@nil string) in Hd; [done|].
      clear. by induction l.
  Qed.

  Lemma holds_at {A} (T : json -> A -> Prop) d d' i : d !! item_key i = d' !! item_key i -> forall a, holds T d i a <-> holds T d' i a.
  Proof. intros E a. unfold holds. by rewrite E. Qed.
  Lemma devs_at d d' ns j x : d !! k_queue_jid ns j = d' !! k_queue_jid ns j -> devs_of d ns j x <-> devs_of d' ns j x.
  Proof. intros E. unfold devs_of. by setoid_rewrite (holds_at _ d d' (IQueueDevices ns j) E). Qed.
  Lemma jids_at d d' ns j : d !! k_queue ns = d' !! k_queue ns -> jids_of d ns j <-> jids_of d' ns j.
  Proof. intros E. unfold jids_of. by setoid_rewrite (holds_at _ d d' (IQueue ns) E). Qed.

  (** the keys removed for one backend *)
  Definition queue_keys ns js := k_queue ns :: map (k_queue_jid ns) js.
  Definition ns_res ns (d : gmap string json) (b : list event) : Prop :=
    fl (fun q => q.1.1 = ns /\ queued d ns q.1.2 q.2) b /\
    exists js, (forall j, j ∈ js <-> jids_of d ns j) /\ dels (queue_keys ns js) b.
  Lemma k_queue_self ns j : k_queue ns <> k_queue_jid ns j.
  Proof.
    unfold k_queue_jid, k_queue. intros E%app_inj_l. revert E. induction ns as [|c ns IH]; [done|].
    intros E. injection E as E. by apply IH.
  Qed.
  Lemma flush_ns_exec ns w w' : exec S (flush_ns cf ns) w (Val tt) w' -> exists b, ns_res ns (w_disk w) b /\ w' = after b w.
  Proof.
    unfold flush_ns. intros H. apply exec_bind in H as [(m & w1 & H1 & H)|(e & _ & ?)]; [|done].
    apply strs_exec in H1 as [-> Hm]. cbn beta zeta in H.
    apply exec_bind in H as [([] & w1 & H1 & H)|(e & _ & ?)]; [|done].
    destruct H1 as ([[]|e] & _ & H1); [|by destruct H1]. destruct H1 as [_ ->].
    apply exec_bind in H as [(l & w1 & H1 & H)|(e & _ & ?)]; [|done].
    apply with_contract_exec in H1. apply exec_order in H1 as (l' & Hl & [= <-] & ->).
    assert (NoDup l) as Hn by (rewrite Hl; unfold pyset; apply NoDup_remove_dups).
    apply (loop _ (fun j d b => fl (fun q => q.1 = (ns, j) /\ devs_of d ns j q.2) b /\ dels [k_queue_jid ns j] b)) in H as (bs & Hbs & ->);
      [|intros x w1 w2 _; apply flush_jid_exec| |done].
    2: { intros j j' d b b' _ _ Hj [_ Hb] [Hb' ?]. split; [|done]. eapply fl_mono; [|exact Hb']. intros q.
         cbn beta. rewrite (devs_at (replay b d) d); [done|]. rewrite Hb. rewrite decide_False; [done|].
         intros ->%elem_of_list_singleton%k_queue_jid_inj. done. }
    exists (concat (rev bs) ++ [EvDelete (k_queue ns) (Val tt)]). split; [|by rewrite <- after_app]. 
    assert (forall j, j ∈ l <-> jids_of (w_disk w) ns j) as Hj.
    { intros j. rewrite Hl. by apply maybe_set. }
    split.
    - apply fl_del. eapply fl_mono; [|apply (fl_concat (fun j q => q.1 = (ns, j) /\ devs_of (delete (k_queue ns) (w_disk w)) ns j q.2) l _ Hn); [|eapply Forall2_impl; [exact Hbs|by intros j b [Hb _]]]].
      + intros [[ns' j] x]. split.
        * intros (j' & Hj' & [= -> ->] & Hx). split; [done|]. simpl in Hx. simpl. split; [by apply Hj|].
          eapply devs_at; [|exact Hx]. simpl. by rewrite lookup_delete_ne by apply k_queue_self.
        * intros [E [H1 H2]]. simpl in E, H1, H2. subst ns'. exists j. split; [by apply Hj|]. split; [done|].
          eapply devs_at; [|exact H2]. simpl. by rewrite lookup_delete_ne by apply k_queue_self.
      + intros j j' q _ _ [E _] [E' _]. congruence.
    - exists l. split; [done|]. unfold queue_keys. change (k_queue ns :: map (k_queue_jid ns) l) with ([k_queue ns] ++ map (k_queue_jid ns) l).
      apply dels_app; [apply dels_one|].
      assert (Forall2 (fun j b => dels ((fun j => [k_queue_jid ns j]) j) b) l bs) as Hd.
      { eapply Forall2_impl; [exact Hbs|]. by intros x b [_ Hb]. }
      apply dels_concat in Hd. replace (map (k_queue_jid ns) l) with (concat (map (fun j => [k_queue_jid ns j]) l)); [done|].
      clear. induction l as [|a l IH]; [done|]. simpl. by rewrite IH.
  Qed.

  Lemma del_hidden_exec l w w' : exec S (for_each l b_del_hidden) w (Val tt) w' ->
    w' = after (rev (map (fun ns => EvDelHidden ns (Val tt)) l)) w.
  Proof.
    revert w. induction l as [|ns l IH]; intros w H; [destruct H as [_ ->]; by rewrite after_nil|].
    cbn [for_each] in H. apply exec_bind in H as [([] & w1 & H1 & H)|(e & _ & ?)]; [|done].
    destruct H1 as ([[]|e] & _ & H1); [|by destruct H1]. destruct H1 as [_ ->]. apply IH in H as ->. simpl.
    rewrite <- after_app. reflexivity.
  Qed.

  Lemma after_sync_exec w w' : NoDup (w_loaded w) -> ns_separated (w_loaded w) -> exec S (after_history_sync cf) w (Val tt) w' ->
    w_sync w' = false /\ w_loaded w' = w_loaded w /\
    exists bs, Forall2 (fun ns b => ns_res ns (w_disk w) b) (w_loaded w) bs /\
      w_disk w' = replay (concat (rev bs)) (w_disk w) /\
      w_log w' = concat (rev bs) ++ rev (map (fun ns => EvDelHidden ns (Val tt)) (w_loaded w)) ++ w_log w.
  Proof.
    intros Hl Hs H. unfold after_history_sync in H.
    apply exec_bind in H as [([] & w1 & H1 & H)|(e & _ & ?)]; [|done]. apply with_contract_exec, exec_psync in H1 as [_ ->].
    apply exec_bind in H as [(l & w1 & H1 & H)|(e & _ & ?)]; [|done]. apply with_contract_exec, exec_loaded in H1 as [[= ->] ->].
    apply exec_bind in H as [([] & w1 & H1 & H)|(e & _ & ?)]; [|done]. apply del_hidden_exec in H1 as ->.
    apply exec_bind in H as [(l & w1 & H1 & H)|(e & _ & ?)]; [|done]. apply with_contract_exec, exec_loaded in H1 as [[= ->] ->].
    simpl in H. assert (forall d, replay (rev (map (fun ns => EvDelHidden ns (Val tt)) (w_loaded w))) d = d) as Er.
    { intros d. rewrite <- map_rev. by induction (rev (w_loaded w)). }
    apply (loop _ ns_res) in H as (bs & Hbs & ->); [| | |done].
    - simpl in *. rewrite Er in *. split; [done|]. split; [done|]. exists bs. done.
    - intros ns w1 w2 _. apply flush_ns_exec.
    - intros ns ns' d b b' Hns Hns' Hne (_ & js & _ & Hd) (Hf & js' & Hj & Hd').
      assert (replay b d !! k_queue ns' = d !! k_queue ns') as E1.
      { rewrite Hd. apply decide_False. unfold queue_keys. intros [E|(j & E & _)%elem_of_list_fmap]%elem_of_cons.
        - apply Hne. symmetry. by apply k_queue_inj in E.
        - assert (IQueue ns' = IQueueDevices ns j) as [=]. by apply (item_key_inj (w_loaded w)). }
      assert (forall j, replay b d !! k_queue_jid ns' j = d !! k_queue_jid ns' j) as E2.
      { intros j. rewrite Hd. apply decide_False. unfold queue_keys. intros [E|(j' & E & _)%elem_of_list_fmap]%elem_of_cons.
        - assert (IQueueDevices ns' j = IQueue ns) as [=]. by apply (item_key_inj (w_loaded w)).
        - assert (IQueueDevices ns' j = IQueueDevices ns j') as [= -> _]; [|done]. by apply (item_key_inj (w_loaded w)). }
      split.
      + eapply fl_mono; [|exact Hf]. intros [[ns0 j] x]. simpl. unfold queued. fold (jids_of (replay b d) ns' j) (devs_of (replay b d) ns' j x) (jids_of d ns' j) (devs_of d ns' j x).
        by rewrite (jids_at _ _ _ _ E1), (devs_at _ _ _ _ _ (E2 j)).
      + exists js'. split; [|done]. intros j. by rewrite Hj, (jids_at _ _ _ _ E1).
  Qed.

  Lemma sync_done w w' : NoDup (w_loaded w) -> ns_separated (w_loaded w) -> exec S (after_history_sync cf) w (Val tt) w' ->
    w_sync w' = false /\ exists evs, w_log w' = evs ++ rev (map (fun ns => EvDelHidden ns (Val tt)) (w_loaded w)) ++ w_log w /\
      fl (fun q => q.1.1 ∈ w_loaded w /\ queued (w_disk w) q.1.1 q.1.2 q.2) evs /\
      forall ns, ns ∈ w_loaded w -> w_disk w' !! k_queue ns = None /\ 
        forall j, jids_of (w_disk w) ns j -> w_disk w' !! k_queue_jid ns j = None.
  Proof.
    intros Hl Hs H. destruct (after_sync_exec _ _ Hl Hs H) as (H1 & _ & bs & Hbs & Ed & Elog). split; [done|].
    exists (concat (rev bs)). split; [done|]. split.
    - eapply fl_mono; [|apply (fl_concat (fun ns q => q.1.1 = ns /\ queued (w_disk w) ns q.1.2 q.2) _ _ Hl); [|eapply Forall2_impl; [exact Hbs|by intros ns b [Hb _]]]].
      + intros [[ns j] x]. simpl. split; [intros (y & ? & <- & ?); done|intros [? ?]; by exists ns].
      + intros x y q _ _ [<- _] [<- _]. done.
    - assert (Forall2 (fun ns b => exists ks, dels ks b /\ (k_queue ns ∈ ks /\ forall j, jids_of (w_disk w) ns j -> k_queue_jid ns j ∈ ks))
        (w_loaded w) bs) as Hk.
      { eapply Forall2_impl; [exact Hbs|]. intros ns b (_ & js & Hj & Hb). exists (queue_keys ns js). split; [done|]. split; [left|].
        intros j Hq. right. apply elem_of_list_fmap. exists j. split; [done|]. by apply Hj. }
      apply dels_ex in Hk as (kss & Hk & Hd). intros ns Hns. rewrite Ed.
      apply elem_of_list_lookup in Hns as [i Hi]. destruct (Forall2_lookup_l _ _ _ _ _ Hk Hi) as (ks & Hi' & Hq & Hqj).
      assert (ks ∈ kss) as Hin by (by eapply elem_of_list_lookup_2).
      split; [|intros j Hj]; rewrite Hd; apply decide_True; apply elem_of_list_join; exists ks; auto.
  Qed.

  (** ** Interrupted synchronization *)
  Definition own_queue ns (e : event) : Prop :=
    match ev_key e with Some k => k = k_queue ns \/ exists j, k = k_queue_jid ns j | None => True end.
  Lemma em_flush_jid ns j : em (own_queue ns) (flush_jid cf ns j).
  Proof.
    unfold flush_jid, flush_dev, send_empty_message.
    emt; try (unw; split; [|intros; first [apply em_of_outcome|exact Logic.I]]; intros; try done; unfold own_queue; simpl; destruct r; simpl; eauto).
  Qed.
  Lemma em_flush_ns ns : em (own_queue ns) (flush_ns cf ns).
  Proof.
    unfold flush_ns.
    emt; try apply em_flush_jid; try (unw; split; [|intros; first [apply em_of_outcome|exact Logic.I]]; intros; try done; unfold own_queue; simpl; destruct r; simpl; eauto).
  Qed.
  Lemma queued_at d d' ns j x : d !! k_queue ns = d' !! k_queue ns -> d !! k_queue_jid ns j = d' !! k_queue_jid ns j ->
    queued d ns j x <-> queued d' ns j x.
  Proof.
    intros E1 E2. unfold queued. fold (jids_of d ns j) (devs_of d ns j x) (jids_of d' ns j) (devs_of d' ns j x).
    by rewrite (jids_at _ _ _ _ E1), (devs_at _ _ _ _ _ E2).
  Qed.
  Lemma reach_load {A} (check : json -> outcome A) k w w' : reach base (load_checked check k) w w' -> w' = w.
  Proof.
    intros H. assert (wp base (fun w1 => w1 = w) (load_checked check k) (fun _ _ => True) w) as Hw.
    { apply wp_load; [done|done|]. destruct (w_disk w !! k); [|done]. by destruct (check j). }
    exact (wp_reach _ _ _ _ _ _ Hw eq_refl H).
  Qed.
  Definition flush_started ns (evs : list event) : Prop := EvDelete (k_queue ns) (Val tt) ∈ evs.
  Lemma flush_ns_reach nss ns ns' w w' : ns_separated nss -> ns ∈ nss -> ns' ∈ nss -> reach base (flush_ns cf ns') w w' ->
    exists evs, w' = after evs w /\ (flush_started ns evs \/ forall j x, queued (w_disk w) ns j x <-> queued (w_disk w') ns j x).
  Proof.
    intros Hs Hn Hn' H. destruct (decide (ns = ns')) as [<-|Hne].
    - unfold flush_ns in H. apply reach_bind in H as [H|(m & w1 & H1 & H)].
      { exists []. rewrite after_nil. apply reach_load in H as ->. split; [done|]. by right. }
      apply exec_reach, reach_load in H1 as ->.
      apply reach_bind in H as [H|([] & w1 & H1 & H)].
      { destruct H as [->|([[]|e] & _ & H)].
        - exists []. rewrite after_nil. split; [done|]. by right.
        - exists [EvDelete (k_queue ns) (Val tt)]. destruct H as [->|[]]. split; [done|]. left. left.
        - exists [EvDelete (k_queue ns) (Exn e)]. destruct H as [->|[]]. split; [done|]. by right. }
      destruct H1 as ([[]|e] & _ & H1); [|by destruct H1]. destruct H1 as [_ ->].
      assert (em (own_queue ns) (devs' <- order (pyset (Model.maybe [] m)) ;; for_each devs' (flush_jid cf ns))) as Hem.
      { emt; try apply em_flush_jid; try (unw; split; [done|]; intros; exact Logic.I). }
      destruct (em_reach _ _ _ _ _ Hem H) as (evs & _ & ->). exists (evs ++ [EvDelete (k_queue ns) (Val tt)]).
      split; [by rewrite <- after_app|]. left. apply elem_of_app. right. left.
    - destruct (em_reach _ _ _ _ _ (em_flush_ns ns') H) as (evs & He & ->). exists evs. split; [done|]. right. intros j x.
      assert (forall k, (k = k_queue ns \/ exists j, k = k_queue_jid ns j) -> replay evs (w_disk w) !! k = w_disk w !! k) as Hk.
      { intros k Hk. apply replay_other. eapply Forall_impl; [exact He|]. intros e Hq. unfold own_queue in Hq. intros E. rewrite E in Hq.
        destruct Hk as [->|[j0 ->]], Hq as [Hq|[j1 Hq]].
        - apply Hne. by apply k_queue_inj in Hq.
        - assert (IQueue ns = IQueueDevices ns' j1) as [=]. by apply (item_key_inj nss).
        - assert (IQueueDevices ns j0 = IQueue ns') as [=]. by apply (item_key_inj nss).
        - assert (IQueueDevices ns j0 = IQueueDevices ns' j1) as [= -> _]; [|done]. by apply (item_key_inj nss). }
      apply queued_at; symmetry; apply Hk; eauto.
  Qed.
  Lemma flush_all_reach nss ns l w w' : ns_separated nss -> ns ∈ nss -> (forall n, n ∈ l -> n ∈ nss) -> reach base (for_each l (flush_ns cf)) w w' ->
    exists evs, w' = after evs w /\ (flush_started ns evs \/ forall j x, queued (w_disk w) ns j x <-> queued (w_disk w') ns j x).
  Proof.
    intros Hs Hn. revert w. induction l as [|n l IH]; intros w Hl H.
    { destruct H as [->|[]]. exists []. rewrite after_nil. split; [done|]. by right. }
    cbn [for_each] in H. apply reach_bind in H as [H|([] & w1 & H1 & H)].
    - eapply flush_ns_reach; [done|done|apply Hl; left|done].
    - apply exec_reach in H1. apply (flush_ns_reach nss ns) in H1 as (e1 & -> & H1); [|done|done|apply Hl; left].
      apply IH in H as (e2 & -> & H2); [|intros; apply Hl; by right]. exists (e2 ++ e1). split; [by rewrite after_app|].
      destruct H1 as [H1|H1]; [left; apply elem_of_app; by right|]. destruct H2 as [H2|H2]; [left; apply elem_of_app; by left|].
      right. intros j x. by rewrite H1.
  Qed.
  Lemma sync_interrupted ns w w' : ns_separated (w_loaded w) -> ns ∈ w_loaded w -> reach base (after_history_sync cf) w w' ->
    exists evs, w_log w' = evs ++ w_log w /\ w_loaded w' = w_loaded w /\
      (flush_started ns evs \/ forall j x, queued (w_disk w) ns j x <-> queued (w_disk w') ns j x).
  Proof.
    intros Hs Hn H. unfold after_history_sync in H. 
    apply reach_bind in H as [H|([] & w1 & H1 & H)].
    { destruct H as [->|([] & _ & [->|[]])]; exists []; (split; [done|]; split; [done|]; by right). }
    apply exec_psync in H1 as [_ ->].
    apply reach_bind in H as [H|(l & w1 & H1 & H)].
    { apply reach_loaded in H as ->. exists []. split; [done|]. split; [done|]. by right. }
    apply exec_loaded in H1 as [[= ->] ->].
    assert (forall l, em nostore (for_each l b_del_hidden)) as Hd.
    { intros l. emt; unw; split; [done|]; intros; apply em_of_outcome. }
    assert (forall evs d, Forall nostore evs -> replay evs d = d) as Hr.
    { intros evs d. induction 1 as [|e evs He _ IH]; [done|]. destruct e; simpl in *; try done; by destruct r. }
    apply reach_bind in H as [H|([] & w1 & H1 & H)].
    { destruct (em_reach _ _ _ _ _ (Hd _) H) as (evs & He & ->). exists evs. simpl. rewrite Hr by done. split; [done|]. split; [done|]. by right. }
    destruct (em_exec _ _ _ _ _ _ (Hd _) H1) as (_ & e1 & He & ->). clear H1.
    apply reach_bind in H as [H|(l & w1 & H1 & H)].
    { apply reach_loaded in H as ->. exists e1. simpl. rewrite Hr by done. split; [done|]. split; [done|]. by right. }
    apply exec_loaded in H1 as [[= ->] ->]. simpl in H.
    apply (flush_all_reach (w_loaded w) ns) in H as (e2 & -> & H2); [|done|done|done].
    exists (e2 ++ e1). simpl in *. rewrite (Hr e1) in H2 by done. rewrite (Hr e1) by done. split; [by rewrite app_assoc|]. split; [done|].
    destruct H2 as [H2|H2]; [left; apply elem_of_app; by left|by right].
  Qed.
End sync.

(** ** decrypt around history synchronization *)
Section around.
  Context (P : world -> forall c, resp c -> Prop) (cf : cfg) (m : message).
  Notation ns := (m_ns m).
  Lemma dec_sent pt d p evs : (forall w c r, P w c r -> sync_mode false w c r) -> exec (alone P) (decrypt cf m) [] (Val (pt, d, p)) evs ->
    exists e mk s resp rest, given cf m e mk /\ evs = resp ++ rest /\ EvStoreSession ns s (Val tt) ∈ rest /\ opened m d e mk rest s p /\
      (response_due mk s -> exists c p' s' k, resp = [EvStoreSession ns s' (Val tt);
        EvSend (Message ns (c_jid cf) (c_dev cf) c [(k, kex_due s')]) (s_jid s') (Val tt);
        EvEncKey ns s p' (Val (s', k)); EvEncEmpty ns (Val (c, p'))]).
  Proof.
    intros HP H. assert (~ answer P GSync true) as Hs by (intros (w & _ & Hc); by apply HP in Hc).
    assert (traced (fun ev before => match ev with EvStore _ _ _ => Forall (fun e => is_eval e = false) before | _ => True end) evs) as Ht.
    { destruct (dec_reach _ _ _ _ (exec_reach _ _ _ _ _ H)) as [[[Hl _] _]|(e & mk & d0 & pre & r & post & Hg & [Hl _] & Hd & -> & Hp)].
      - intros l1 ev l2 ->. destruct ev; try done. apply Forall_app in Hl as [_ Hl]. apply Forall_cons in Hl as [_ Hl].
        eapply Forall_impl; [exact Hl|]. by intros [].
      - assert (Forall (fun e => is_eval e = false) pre) as Hn by (eapply Forall_impl; [exact Hl|]; by intros []).
        destruct Hp as [->|(t & -> & _ & _ & Hp)].
        + intros l1 ev l2 E. destruct l1 as [|e1 l1]; [injection E as <- _; done|]. injection E as _ ->. destruct ev; try done.
          apply Forall_app in Hn as [_ Hn]. by apply Forall_cons in Hn as [_ Hn].
        + intros l1 ev l2 E. destruct ev; try done. 
          assert (exists l3, pre = l3 ++ EvStore k v r :: l2) as [l3 ->].
          { clear -E Hp Hs. revert l1 E. induction post as [|e1 post IH]; intros l1 E.
            - destruct l1 as [|e1 l1]; [done|]. injection E as _ ->. by exists l1.
            - apply traced_cons in Hp as [Hp1 Hp]. destruct l1 as [|e2 l1]; simpl in E; injection E as -> E.
              + by destruct Hp1 as [? _].
              + by eapply IH. }
          apply Forall_app in Hn as [_ Hn]. by apply Forall_cons in Hn as [_ Hn]. }
    destruct (dec_success _ _ _ _ _ _ _ H) as (e & mk & t & s & pre & core & pk & resp & Hg & -> & Hl & Hd & _ & _ & Hi & Hop & _ & _ & _ & Hr1 & _).
    exists e, mk, s, resp, (pk ++ EvStoreSession ns s (Val tt) :: core ++ EvEval d (Val t) :: pre).
    split; [done|]. split; [done|]. split; [apply elem_of_app; right; left|]. split.
    { destruct Hop as [(s0 & A & B)|(k & A & B)]; [left; exists s0; split|right; exists k; split; [done|]];
        apply elem_of_app; right; right; apply elem_of_app; by left. }
    intros Hdue. destruct (Hr1 Hdue) as [(l & l' & _ & _ & ->)|?]; [exfalso|done].
    specialize (Ht [] _ _ eq_refl). simpl in Ht. apply Forall_cons in Ht as [_ Ht]. apply Forall_app in Ht as [_ Ht].
    apply Forall_cons in Ht as [_ Ht]. apply Forall_app in Ht as [_ Ht]. apply Forall_cons in Ht as [Ht _]. done.
  Qed.
End around.

(** a device in the flushed set has its block *)
Lemma fl_block cf Q evs q : fl cf Q evs -> Q q -> exists b pre post, flushed cf q.1.1 q.1.2 q.2 b /\
  filter (fun e => ~ is_delete e) evs = post ++ b ++ pre.
Proof.
  intros (fs & _ & H2 & H3 & H4) Hq. apply H2, elem_of_list_fmap in Hq as ([q' b] & -> & Hin).
  rewrite Forall_forall in H3. apply H3 in Hin as Hb. apply elem_of_list_split in Hin as (l1 & l2 & ->).
  rewrite H4, map_app. simpl. rewrite rev_app_distr. simpl. rewrite !concat_app. simpl.
  exists b, (concat (rev (map snd l1))), (concat (rev (map snd l2))). split; [done|]. by rewrite app_nil_r, <- app_assoc.
Qed.

Section packaged.
  Context (cf : cfg).
  Notation S := (with_contract sessions_named).
  Lemma sync_flush w w' : NoDup (w_loaded w) -> ns_separated (w_loaded w) -> exec S (after_history_sync cf) w (Val tt) w' ->
    exists evs (fs : list (dkey * list event)),
      w_log w' = evs ++ w_log w /\
      filter (fun e => ~ is_delete e) evs = concat (rev (map snd fs)) ++ rev (map (fun ns => EvDelHidden ns (Val tt)) (w_loaded w)) /\
      Forall (fun f => flushed cf f.1.1.1 f.1.1.2 f.1.2 f.2) fs /\ NoDup (map fst fs) /\
      (forall ns j x, (ns, j, x) ∈ map fst fs <-> ns ∈ w_loaded w /\ queued (w_disk w) ns j x) /\
      (forall ns, ns ∈ w_loaded w -> w_disk w' !! item_key (IQueue ns) = None /\
         forall l j, holds (is_list is_str) (w_disk w) (IQueue ns) l -> j ∈ l -> w_disk w' !! item_key (IQueueDevices ns j) = None) /\
      w_sync w' = false.
  Proof.
    intros Hl Hs H. destruct (sync_done _ _ _ Hl Hs H) as (H1 & evs & El & (fs & F1 & F2 & F3 & F4) & Hd).
    exists (evs ++ rev (map (fun ns => EvDelHidden ns (Val tt)) (w_loaded w))), fs. split; [by rewrite <- app_assoc|].
    split. { rewrite filter_app, F4. f_equal. rewrite <- map_rev. clear. by induction (rev (w_loaded w)) as [|n l IH]; [|simpl; rewrite filter_cons_True, IH by tauto]. }
    split; [done|]. split; [done|]. split; [intros ns j x; by rewrite F2|]. split; [|done].
    intros ns Hns. destruct (Hd ns Hns) as [D1 D2]. split; [exact D1|]. intros l j Hh Hj. apply D2. exists l. done.
  Qed.
  Lemma sync_retry w w1 w2 ns j x : NoDup (w_loaded w) -> ns_separated (w_loaded w) -> reach S (after_history_sync cf) w w1 ->
    exec S (after_history_sync cf) w1 (Val tt) w2 -> ns ∈ w_loaded w -> queued (w_disk w) ns j x ->
    exists e1 e2, w_log w1 = e1 ++ w_log w /\ w_log w2 = e2 ++ w_log w1 /\
      (EvDelete (item_key (IQueue ns)) (Val tt) ∈ e1 \/
       exists b pre post, flushed cf ns j x b /\ filter (fun e => ~ is_delete e) e2 = post ++ b ++ pre).
  Proof.
    intros Hl Hs H1 H2 Hn Hq. apply with_contract_reach in H1. destruct (sync_interrupted _ _ _ _ Hs Hn H1) as (e1 & E1 & El & Hst).
    rewrite <- El in Hl, Hs, Hn. destruct (sync_done _ _ _ Hl Hs H2) as (_ & e2 & E2 & Hf & _).
    exists e1, (e2 ++ rev (map (fun ns => EvDelHidden ns (Val tt)) (w_loaded w1))). split; [done|]. split; [by rewrite <- app_assoc|].
    destruct Hst as [Hst|Hst]; [by left|right]. apply Hst in Hq.
    destruct (fl_block _ _ _ (ns, j, x) Hf) as (b & pre & post & Hb & E); [done|].
    eexists b, _, post. split; [exact Hb|]. rewrite filter_app, E. by rewrite <- !app_assoc.
  Qed.
  Lemma dec_known m w r w' : exec S (decrypt cf m) w (Val r) w' -> m_ns m ∈ w_loaded w.
  Proof.
    intros H%with_contract_exec. unfold decrypt in H. apply exec_bind_val in H as (l & w1 & H1 & H).
    apply exec_loaded in H1 as [[= ->] ->]. destruct (decide _); [done|]. by destruct H.
  Qed.
  Lemma dec_then_sync m pt d p w w1 w2 : NoDup (w_loaded w) -> ns_separated (w_loaded w) -> w_sync w = true ->
    exec S (decrypt cf m) w (Val (pt, d, p)) w1 -> exec S (after_history_sync cf) w1 (Val tt) w2 ->
    exists e mk s l l2, given cf m e mk /\ w_log w1 = l ++ w_log w /\ w_log w2 = l2 ++ w_log w1 /\
      EvStoreSession (m_ns m) s (Val tt) ∈ l /\ opened m d e mk l s p /\
      (mk <> None \/ (exists n, s_rcl s = Some n /\ (53 < n)%Z) ->
       exists b pre post, flushed cf (m_ns m) (m_jid m) (m_dev m) b /\ filter (fun e => ~ is_delete e) l2 = post ++ b ++ pre).
  Proof.
    intros Hl Hs Hy H1 H2. destruct (dec_queued _ _ _ _ _ _ _ _ (fun _ _ _ H => H) Hy H1) as (e & mk & s & Hg & (l & E & Hst & Ho) & Hq).
    pose proof (dec_known _ _ _ _ H1) as Hk.
    destruct (dec_after _ _ _ _ _ _ H1) as (evs & -> & _). change (w_loaded w) with (w_loaded (after evs w)) in Hl, Hs.
    destruct (sync_done _ _ _ Hl Hs H2) as (_ & e2 & E2 & Hf & _).
    exists e, mk, s, l, (e2 ++ rev (map (fun ns => EvDelHidden ns (Val tt)) (w_loaded (after evs w)))).
    split; [done|]. split; [done|]. split; [by rewrite <- app_assoc|]. split; [done|]. split; [done|]. intros Hdue. apply Hq in Hdue.
    destruct (fl_block _ _ _ (m_ns m, m_jid m, m_dev m) Hf) as (b & pre & post & Hb & Eb); [done|].
    eexists b, _, post. split; [exact Hb|]. rewrite filter_app, Eb. by rewrite <- !app_assoc.
  Qed.
  Lemma sync_then_dec m pt d p w w1 : w_sync w = false -> exec S (decrypt cf m) w (Val (pt, d, p)) w1 ->
    exists e mk s resp rest, given cf m e mk /\ w_log w1 = resp ++ rest ++ w_log w /\
      EvStoreSession (m_ns m) s (Val tt) ∈ rest /\ opened m d e mk rest s p /\
      (mk <> None \/ (exists n, s_rcl s = Some n /\ (53 < n)%Z) -> exists c p' s' k, resp = [EvStoreSession (m_ns m) s' (Val tt);
        EvSend (Message (m_ns m) (c_jid cf) (c_dev cf) c [(k, kex_due s')]) (s_jid s') (Val tt);
        EvEncKey (m_ns m) s p' (Val (s', k)); EvEncEmpty (m_ns m) (Val (c, p'))]).
  Proof.
    intros Hy H. apply sync_exec in H; [|apply em_decrypt]. rewrite Hy in H.
    destruct (dec_after _ _ _ _ _ _ H) as (evs & -> & Hx).
    destruct (dec_sent _ _ _ _ _ _ _ (fun _ _ _ H => proj2 H) Hx) as (e & mk & s & resp & rest & Hg & -> & H1 & H2 & H3).
    exists e, mk, s, resp, rest. split; [done|]. split; [simpl; by rewrite app_assoc|]. done.
  Qed.
End packaged.
