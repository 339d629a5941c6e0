(** decrypt run on its own: pre key numbers and the queue of history synchronization. *)
From Verif Require Import Api Spec Alone Dec PfStrs PfTyped PfFrame PfHist PfWp PfEmits PfUpdate PfDevices PfInfo PfExec PfTrust PfPurge PfAlone PfLog PfEncrypt PfEncrypt4 PfEncrypt5 PfEmpty PfDec PfDec2 PfDec3 PfDec4 PfDec5.
Open Scope prog_scope.
Open Scope list_scope.

(** ** The answers to the logged calls, with the log at that time *)
Definition answered (S : @sem cmd resp world) (l : list event) (ev : event) (before : list event) : Prop :=
  exists c r w, event_of c r = Some ev /\ w_log w = before ++ l /\ allowed S w c r.
Lemma apply_log w c r : w_log (w_apply w c r) = match event_of c r with Some e => e :: w_log w | None => w_log w end.
Proof. destruct c; try done; by destruct r. Qed.
Lemma reach_answered P {A} (p : api A) w w' : reach (with_contract P) p w w' ->
  exists evs, w_log w' = evs ++ w_log w /\ traced (answered (with_contract P) (w_log w)) evs.
Proof.
  set (S := with_contract P).
  enough (forall new w0, w_log w0 = new ++ w_log w -> traced (answered S (w_log w)) new -> reach S p w0 w' ->
    exists evs, w_log w' = evs ++ w_log w /\ traced (answered S (w_log w)) evs) as H.
  { intros Hr. by apply (H []) in Hr; [|done|apply traced_nil]. }
  induction p as [a|e|c k IH]; intros new w0 E Ht; cbn [reach].
  - intros [->|[]]. eauto.
  - intros [->|[]]. eauto.
  - intros [->|(r & Hr & H)]; [eauto|]. destruct (event_of c r) as [ev|] eqn:Ee.
    + apply (IH r (ev :: new)) in H; [done| |].
      * change (w_log (w_apply w0 c r) = ev :: new ++ w_log w). rewrite apply_log, Ee. by rewrite E.
      * apply traced_cons. split; [|done]. by exists c, r, w0.
    + apply (IH r new) in H; [done| |done].
      change (w_log (w_apply w0 c r) = new ++ w_log w). by rewrite apply_log, Ee.
Qed.

(** ** The synchronization mode does not change during a decrypt *)
Lemma sync_exec P {A} (p : api A) w o w' : em evt p -> exec (with_contract P) p w o w' ->
  exec (with_contract (fun w1 c r => P w1 c r /\ sync_mode (w_sync w) w1 c r)) p w o w'.
Proof.
  set (b := w_sync w). assert (w_sync w = b) as Eb by done. clearbody b. revert w Eb.
  induction p as [a|e|c k IH]; intros w Eb Hp; cbn [exec]; [done|done|]. destruct Hp as [Hc Hk]. intros (r & [Hr HP] & H).
  exists r. split.
  - split; [done|]. split; [done|]. destruct c; try exact Logic.I. change (r = b). change (r = w_sync w) in Hr. congruence.
  - apply IH; [|apply Hk; by exists w|done]. change (w_sync (w_apply w c r) = b). destruct c; try done; by destruct r.
Qed.
Lemma sync_reach P {A} (p : api A) w w' : em evt p -> reach (with_contract P) p w w' ->
  reach (with_contract (fun w1 c r => P w1 c r /\ sync_mode (w_sync w) w1 c r)) p w w'.
Proof.
  set (b := w_sync w). assert (w_sync w = b) as Eb by done. clearbody b. revert w Eb.
  induction p as [a|e|c k IH]; intros w Eb Hp; cbn [reach]; [done|done|]. destruct Hp as [Hc Hk]. intros [->|(r & [Hr HP] & H)]; [by left|].
  right. exists r. split.
  - split; [done|]. split; [done|]. destruct c; try exact Logic.I. change (r = b). change (r = w_sync w) in Hr. congruence.
  - apply IH; [|apply Hk; by exists w|done]. change (w_sync (w_apply w c r) = b). destruct c; try done; by destruct r.
Qed.

Lemma k_queue_ne n j : k_queue_jid n j <> k_queue n.
Proof.
  intros H. apply app_inj_l in H. apply (f_equal String.length) in H. clear -H.
  assert (forall a b, String.length (a +:+ b) = String.length a + String.length b)%nat as E.
  { induction a as [|c a IH]; intros b; [done|]. change (S (String.length (a +:+ b)) = S (String.length a + String.length b)). by rewrite IH. }
  rewrite !E in H. simpl in H. lia.
Qed.

Section base.
  Context (P : world -> forall c, resp c -> Prop) (cf : cfg) (m : message).
  Notation S := (with_contract P).
  Notation ns := (m_ns m).

  (** ** Pre keys *)
  Global Instance response_due_dec mk s : Decision (response_due mk s).
  Proof. destruct (bool_decide (mk <> None) || (STALENESS_MAGIC_NUMBER <? Model.maybe 0 (s_rcl s))%Z) eqn:E; [left|right; intros H]; apply due_dec in E || apply due_dec in H; congruence. Defined.
  Lemma visible_app n l1 l2 : Forall (fun e => match e with EvGenerate _ _ _ | EvHide _ _ _ | EvDeletePk _ _ _ | EvPurge _ _ => False | _ => True end) l1 ->
    visible n (l1 ++ l2) = visible n l2.
  Proof. induction 1 as [|e l He _ IH]; [done|]. by destruct e. Qed.
  Lemma dec_visible w w' : (forall w c r, P w c r -> prekeys_counted w c r) -> reach S (decrypt cf m) w w' ->
    (forall n, n <> ns -> visible n (w_log w') = visible n (w_log w)) /\
    ((visible ns (w_log w) <= 100)%Z -> (visible ns (w_log w') <= 100)%Z).
  Proof.
    intros HP H. destruct (reach_answered _ _ _ _ H) as (evs & E & Ha).
    destruct (dec_after_reach _ _ _ _ _ H) as (evs' & -> & Hr). simpl in E. apply app_inv_tail in E as ->.
    assert (traced (fun ev before => match ev with
      | EvGenerate n k r => n = ns /\ exists v, head before = Some (EvNumVisible ns (Val v)) /\ (v + k = 100)%Z
      | EvHide n s r | EvDeletePk n s r => n = ns
      | EvPurge n r => False
      | _ => True end) evs) as Ht.
    { revert Hr. apply dec_traced; [intros ev before [?|?]; by destruct ev|].
      intros e mk d t pre before ev _ _ _ _ _ _ Hd. destruct ev; try done; simpl in Hd; try tauto.
      destruct Hd as (-> & v & l' & -> & _ & ->). split; [done|]. exists v. split; [done|lia]. }
    simpl. clear H Hr. split.
    - intros n Hn. induction evs as [|ev evs IH]; [done|]. apply traced_cons in Ht as [H1 H2]. apply traced_cons in Ha as [_ Ha].
      rewrite <- (IH Ha H2). destruct ev; try done; simpl in *; destruct r as [[]|]; try done; [..|destruct H1 as [-> _]]; rewrite decide_False; congruence.
    - intros H0. induction evs as [|ev evs IH]; [done|]. apply traced_cons in Ht as [H1 H2]. apply traced_cons in Ha as [_ Ha].
      specialize (IH Ha H2). destruct ev; try done; simpl in *; destruct r as [[]|]; try done; [destruct (decide _); lia..|].
      destruct H1 as (-> & v & Hh & Hv). rewrite decide_True by done. destruct evs as [|ev0 evs]; [done|]. injection Hh as ->.
      apply traced_cons in Ha as [(c & r & w0 & Ee & El & [_ Hw]) _]. destruct c; try done. injection Ee as -> ->.
      apply HP in Hw. simpl in Hw. rewrite Hw, El in Hv. simpl. lia.
  Qed.
  (** after a success, the bundle published last has more pre keys than the threshold *)
  Lemma dec_threshold w w' pt d p : (forall w c r, P w c r -> prekeys_counted w c r) -> (c_threshold cf < 100)%Z ->
    exec S (decrypt cf m) w (Val (pt, d, p)) w' ->
    forall b evs, w_log w' = evs ++ w_log w -> EvUploadBundle b (Val tt) ∈ evs -> (c_threshold cf < visible ns (w_log w'))%Z.
  Proof.
    intros HP Hthr H b evs E Hin. destruct (reach_answered _ _ _ _ (exec_reach _ _ _ _ _ H)) as (evs0 & E0 & Ha).
    rewrite E in E0. apply app_inv_tail in E0 as <-.
    destruct (dec_after _ _ _ _ _ _ H) as (evs' & -> & Hx). simpl in E. apply app_inv_tail in E as ->.
    destruct (dec_success _ _ _ _ _ _ _ Hx) as (e & mk & t & s & pre & core & pk & resp & _ & -> & Hl & _ & _ & _ & Hi & _ & _ & Hp1 & Hp2 & Hr1 & Hr2).
    assert (Forall (fun e => match e with EvGenerate _ _ _ | EvHide _ _ _ | EvDeletePk _ _ _ | EvPurge _ _ | EvUploadBundle _ _ => False | _ => True end) resp) as Hresp.
    { destruct (decide (response_due mk s)) as [Hdue|Hdue].
      - destruct (Hr1 Hdue) as [(l & l' & _ & _ & ->)|(c & p0 & s' & k & ->)]; by repeat constructor.
      - rewrite (Hr2 Hdue). constructor. }
    assert (EvUploadBundle b (Val tt) ∈ pk) as Hpk.
    { apply elem_of_app in Hin as [Hin|[Hin|[Hin|[Hin|[Hin|Hin]%elem_of_cons]%elem_of_app]%elem_of_cons]%elem_of_app]; [|done|done| |done|].
      - rewrite Forall_forall in Hresp. by apply Hresp in Hin.
      - rewrite Forall_forall in Hi. by apply Hi in Hin.
      - rewrite Forall_forall in Hl. by apply Hl in Hin. }
    assert (mk <> None) as Hm by (intros ->; rewrite Hp1 in Hpk by done; by apply elem_of_nil in Hpk).
    destruct (Hp2 Hm) as (sync & [->|(n & b' & ->)]).
    { apply elem_of_cons in Hpk as [Hpk|Hpk%elem_of_nil]; [by destruct sync|done]. }
    simpl. rewrite <- app_assoc. rewrite visible_app; [|eapply Forall_impl; [exact Hresp|]; by intros []].
    set (base := EvStoreSession ns s (Val tt) :: core ++ EvEval d (Val t) :: pre) in *.
    assert (answered S (w_log w) (EvNumVisible ns (Val n)) (consume ns sync s (Val true) :: base)) as (c & r & w0 & Ee & El & [_ Hw]).
    { eapply (Ha (resp ++ [EvUploadBundle b' (Val tt); EvGetBundle ns (c_jid cf) (c_dev cf) (Val b')] ++ (if (n <=? c_threshold cf)%Z then [EvGenerate ns (100 - n) (Val tt)] else []))).
      rewrite <- !app_assoc. simpl. rewrite <- ?app_assoc. done. }
    destruct c; try done. injection Ee as -> ->. apply HP in Hw. simpl in Hw. rewrite El in Hw.
    rewrite <- !app_assoc. simpl. destruct (n <=? c_threshold cf)%Z eqn:El'.
    - simpl. rewrite decide_True by done. simpl in Hw. rewrite <- Hw. lia.
    - simpl. simpl in Hw. rewrite <- Hw. lia.
  Qed.

  (** ** The queue *)
  Definition keeps (n : string) (dk dk' : gmap string json) : Prop :=
    (forall l, holds (is_list is_str) dk (IQueue n) l -> exists l', holds (is_list is_str) dk' (IQueue n) l' /\ l ⊆ l') /\
    (forall j l, holds (is_list is_int) dk (IQueueDevices n j) l -> exists l', holds (is_list is_int) dk' (IQueueDevices n j) l' /\ l ⊆ l').
  Lemma keeps_refl n dk : keeps n dk dk. Proof. split; eauto. Qed.
  Lemma keeps_trans n d1 d2 d3 : keeps n d1 d2 -> keeps n d2 d3 -> keeps n d1 d3.
  Proof.
    intros [A B] [C D]. split.
    - intros l (l' & (l'' & ? & ?)%C & ?)%A. exists l''. split; [done|]. by etrans.
    - intros j l (l' & (l'' & ? & ?)%D & ?)%B. exists l''. split; [done|]. by etrans.
  Qed.
  Lemma keeps_other n dk evs : Forall (fun e => forall j, ev_key e <> Some (k_queue n) /\ ev_key e <> Some (k_queue_jid n j)) evs -> keeps n dk (replay evs dk).
  Proof.
    intros H. split.
    - intros l Hl. exists l. split; [|done]. unfold holds in *. change (item_key (IQueue n)) with (k_queue n) in *. rewrite replay_other; [done|].
      eapply Forall_impl; [exact H|]. intros e He. by destruct (He EmptyString).
    - intros j l Hl. exists l. split; [|done]. unfold holds in *. change (item_key (IQueueDevices n j)) with (k_queue_jid n j) in *. rewrite replay_other; [done|].
      eapply Forall_impl; [exact H|]. intros e He. by destruct (He j).
  Qed.

  Lemma load_strs_wp (I : world -> Prop) k w (Q : outcome (option (list string)) -> world -> Prop) : I w ->
    (forall o, (forall l l0, o = Val (Some l0) -> w_disk w !! k = Some l -> is_list is_str l l0) ->
       (o = Val None -> w_disk w !! k = None) -> Q o w) -> wp base I (load_list as_str k) Q w.
  Proof.
    intros HI HQ. unfold load_list. eapply wp_typed; [apply good_strs|done|..].
    - intros e _. by apply HQ.
    - intros E. by apply HQ.
    - intros v a E Ha. apply HQ; [|done]. intros l l0 [= <-] E'. rewrite E in E'. by injection E' as <-.
    - intros v E _. by apply HQ.
  Qed.
  Lemma load_ints_wp (I : world -> Prop) k w (Q : outcome (option (list Z)) -> world -> Prop) : I w ->
    (forall o, (forall l l0, o = Val (Some l0) -> w_disk w !! k = Some l -> is_list is_int l l0) ->
       (o = Val None -> w_disk w !! k = None) -> Q o w) -> wp base I (load_list as_int k) Q w.
  Proof.
    intros HI HQ. unfold load_list. eapply wp_typed; [apply good_ints|done|..].
    - intros e _. by apply HQ.
    - intros E. by apply HQ.
    - intros v a E Ha. apply HQ; [|done]. intros l l0 [= <-] E'. rewrite E in E'. by injection E' as <-.
    - intros v E _. by apply HQ.
  Qed.

  Lemma respond_keeps n s w w' : ns_separated [n; s_ns s] -> reach base (dec_respond cf ns s) w w' -> keeps n (w_disk w) (w_disk w').
  Proof.
    intros Hsep H. set (I := fun w' => keeps n (w_disk w) (w_disk w')).
    assert (I w) as HI by apply keeps_refl.
    refine (wp_reach base I _ (fun _ _ => True) _ _ _ HI H). unfold dec_respond.
    apply wp_bind, wp_sync; [done|]. destruct (w_sync w).
    - apply wp_bind, load_strs_wp; [done|]. intros [ml|x] Hl1 Hl2; [|done]. apply wp_bind, wp_order; [done|]. intros l Hl.
      assert (forall w1, keeps n (w_disk w) (w_disk (World (<[k_queue (s_ns s) := j_strs l]> (w_disk w)) (w_loaded w) (w_sync w) w1))) as Hk.
      { intros w1. split; simpl.
        - intros l0 Hl0. unfold holds in *. change (item_key (IQueue n)) with (k_queue n) in *. destruct (decide (n = s_ns s)) as [->|Hn].
          + exists l. rewrite lookup_insert. split; [eexists; split; [done|apply is_strs]|]. destruct Hl0 as (v & Hv & Hi).
            destruct ml as [l1|]; [|rewrite Hl2 in Hv by done; discriminate].
            specialize (Hl1 _ _ eq_refl Hv). assert (l1 = l0) as -> by (eapply is_list_fun; [apply is_str_fun|done|done]).
            intros a Ha. rewrite Hl. simpl. unfold set_add. case_decide as Hc; [|apply elem_of_app; left]; by apply elem_of_remove_dups.
          + exists l0. rewrite lookup_insert_ne; [done|]. intros Hc. apply Hn. symmetry. by apply k_queue_inj in Hc.
        - intros j l0 Hl0. exists l0. split; [|done]. unfold holds in *. rewrite lookup_insert_ne; [done|].
          intros Hc. assert (IQueue (s_ns s) = IQueueDevices n j) as [=].
          apply (item_key_inj [n; s_ns s]); [done|simpl; set_solver|simpl; set_solver|exact Hc]. }
      apply wp_bind, wp_store.
      + intros [|] _; [apply (Hk [])|done].
      + done.
      + apply wp_bind, load_ints_wp; [apply (Hk [])|]. intros [ml'|x] Hl1' Hl2'; [|done]. apply wp_bind, wp_order; [apply (Hk [])|]. intros l' Hl'.
        assert (forall w1 w2, keeps n (w_disk w) (w_disk (World (<[k_queue_jid (s_ns s) (s_jid s) := j_ints l']> (w_disk (w_apply w (SStore (k_queue (s_ns s)) (j_strs l)) (Val tt)))) (w_loaded w) w1 w2))) as Hk'.
        { intros w1 w2. eapply keeps_trans; [apply (Hk [])|]. cbn [w_disk]. change (w_disk (w_apply w (SStore (k_queue (s_ns s)) (j_strs l)) (Val tt))) with (<[k_queue (s_ns s) := j_strs l]> (w_disk w)) in *.
          set (D := <[k_queue (s_ns s) := j_strs l]> (w_disk w)) in *. split.
          - intros l0 Hl0. exists l0. split; [|done]. unfold holds in *. rewrite lookup_insert_ne; [done|].
            intros Hc. assert (IQueueDevices (s_ns s) (s_jid s) = IQueue n) as [=].
            apply (item_key_inj [n; s_ns s]); [done|simpl; set_solver|simpl; set_solver|exact Hc].
          - intros j l0 Hl0. unfold holds in *. destruct (decide ((s_ns s, s_jid s) = (n, j))) as [[= E1 E2]|Hn].
            + rewrite <- E1, <- E2 in *. change (item_key (IQueueDevices (s_ns s) (s_jid s))) with (k_queue_jid (s_ns s) (s_jid s)) in *.
              exists l'. rewrite lookup_insert. split; [eexists; split; [done|apply is_ints]|]. destruct Hl0 as (v & Hv & Hi).
              destruct ml' as [l1|]; [|rewrite Hl2' in Hv by done; discriminate].
              specialize (Hl1' _ _ eq_refl Hv). assert (l1 = l0) as -> by (eapply is_list_fun; [apply is_int_fun|done|done]).
              intros a Ha. rewrite Hl'. simpl. unfold set_add. case_decide as Hc; [|apply elem_of_app; left]; by apply elem_of_remove_dups.
            + exists l0. split; [|done]. rewrite lookup_insert_ne; [done|]. intros Hc. apply Hn.
              assert (IQueueDevices (s_ns s) (s_jid s) = IQueueDevices n j) as [= -> ->]; [|done].
              apply (item_key_inj [n; s_ns s]); [done|simpl; set_solver|simpl; set_solver|exact Hc]. }
        apply wp_store.
        * intros [|] _; [apply (Hk' (w_sync w) [])|apply (Hk [])].
        * done.
        * done.
    - eapply (em_wp _ (fun e => ev_key e = None) (fun _ => True)).
      + unfold send_empty_message. emt; try (by unw; split; [done|intros; first [apply em_of_outcome|exact Logic.I]]).
      + intros evs He. change (keeps n (w_disk w) (replay evs (w_disk w))). apply keeps_other. eapply Forall_impl; [exact He|].
        intros e Hv j. by rewrite Hv.
      + done.
  Qed.

  (** Calls that do not write to the storage *)
  Definition nostore (e : event) : Prop := ev_key e = None.
  Lemma nostore_exec {A} (p : api A) w o w' : em nostore p -> exec S p w o w' -> w_disk w' = w_disk w.
  Proof.
    intros Hp H%with_contract_exec. destruct (em_exec _ _ _ _ _ _ Hp H) as (_ & evs & He & ->). simpl. clear -He.
    induction He as [|e l He _ IH]; [done|]. unfold nostore in He. destruct e; simpl in *; try done; by destruct r.
  Qed.
  Lemma nostore_reach {A} (p : api A) w w' : em nostore p -> reach S p w w' -> w_disk w' = w_disk w.
  Proof.
    intros Hp H%with_contract_reach. destruct (em_reach _ _ _ _ _ Hp H) as (evs & He & ->). simpl. clear -He.
    induction He as [|e l He _ IH]; [done|]. unfold nostore in He. destruct e; simpl in *; try done; by destruct r.
  Qed.
  Lemma open_named d e mk w s p w' : (forall w c r, P w c r -> sessions_named w c r) ->
    exec S (match mk with None => dec_existing ns d e | Some k => dec_kex ns d k e end) w (Val (s, p)) w' ->
    s_ns s = ns /\ s_jid s = dv_jid d /\ s_dev s = dv_id d.
  Proof.
    intros HP H.
    assert (forall s0 w1 w2, s_ns s0 = ns /\ s_jid s0 = dv_jid d /\ s_dev s0 = dv_id d -> exec S (b_dec_key ns s0 e) w1 (Val (s, p)) w2 ->
      s_ns s = ns /\ s_jid s = dv_jid d /\ s_dev s = dv_id d) as Hd.
    { intros s0 w1 w2 (E1 & E2 & E3) (r & [_ Hr] & Hx). destruct r as [[s1 p1]|]; [|by destruct Hx]. destruct Hx as [[= -> ->] _].
      apply HP in Hr. simpl in Hr. destruct Hr as (-> & -> & ->). done. }
    destruct mk as [k|].
    - unfold dec_kex in H. destruct (decide _) as [Hk|]; [|by destruct H].
      assert (forall w1 w2, exec S (b_build_passive ns (dv_jid d) (dv_id d) k e) w1 (Val (s, p)) w2 -> s_ns s = ns /\ s_jid s = dv_jid d /\ s_dev s = dv_id d) as Hb.
      { intros w1 w2 (r & [_ Hr] & Hx). destruct r as [[s1 p1]|]; [|by destruct Hx]. destruct Hx as [[= -> ->] _]. by apply HP in Hr. }
      apply exec_bind in H as [(ms & w1 & (r & [_ Hr] & H1) & H2)|(x & _ & [=])]. apply HP in Hr. destruct r as [o|]; [|by destruct H1]. destruct H1 as [[= ->] ->].
      apply exec_bind in H2 as [(b & w2 & H1 & H2)|(x & _ & [=])]. destruct o as [s0|].
      + destruct b as [s1|]; [|by eapply Hb]. eapply Hd; [|exact H2].
        destruct (decide _).
        * apply exec_bind in H1 as [(b & w3 & _ & H1)|(x & _ & [=])]. destruct b; destruct H1 as [[= ->] _]. done.
        * by destruct H1.
      + destruct H1 as [[= ->] ->]. by eapply Hb.
    - unfold dec_existing in H. apply exec_bind in H as [(ms & w1 & (r & [_ Hr] & H1) & H2)|(x & _ & [=])]. apply HP in Hr.
      destruct r as [o|]; [|by destruct H1]. destruct H1 as [[= ->] ->]. destruct o as [s0|]; [|by destruct H2]. by eapply Hd.
  Qed.
  Lemma rest_keeps n d e mk w w' : (forall w c r, P w c r -> sessions_named w c r) -> ns_separated [n; ns] ->
    reach S (dec_rest cf m d e mk) w w' -> keeps n (w_disk w) (w_disk w').
  Proof.
    intros HP Hsep H. unfold dec_rest in H.
    assert (forall {A} (p : api A) w1 w2, em nostore p -> w_disk w1 = w_disk w -> reach S p w1 w2 -> keeps n (w_disk w) (w_disk w2)) as Hq.
    { intros A p w1 w2 Hp E Hr. rewrite (nostore_reach _ _ _ Hp Hr), E. apply keeps_refl. }
    apply reach_bind in H as [H|(t & w1 & H1 & H)].
    { eapply Hq; [|reflexivity|exact H]. unw. split; [done|]. intros; first [apply em_of_outcome|exact Logic.I]. }
    assert (w_disk w1 = w_disk w) as E1.
    { eapply nostore_exec; [|exact H1]. unw. split; [done|]. intros; first [apply em_of_outcome|exact Logic.I]. }
    destruct (decide (t = Distrusted)). { destruct H as [->|[]]. rewrite E1. apply keeps_refl. }
    assert (em nostore (match mk with None => dec_existing ns d e | Some k => dec_kex ns d k e end)) as Ho.
    { unfold dec_existing, dec_kex. emt; try (by unw; split; [done|intros; first [apply em_of_outcome|exact Logic.I]]). }
    apply reach_bind in H as [H|([s p] & w2 & H2 & H)]; [by eapply Hq|].
    destruct (open_named _ _ _ _ _ _ _ HP H2) as (Ens & _ & _). assert (w_disk w2 = w_disk w) as E2 by (rewrite <- E1; by eapply nostore_exec).
    apply reach_bind in H as [H|(pt & w3 & H3 & H)].
    { eapply Hq; [|exact E2|exact H]. emt; try (by unw; split; [done|intros; first [apply em_of_outcome|exact Logic.I]]). }
    assert (w_disk w3 = w_disk w) as E3.
    { rewrite <- E2. eapply nostore_exec; [|exact H3]. emt; try (by unw; split; [done|intros; first [apply em_of_outcome|exact Logic.I]]). }
    apply reach_bind in H as [H|([] & w4 & H4 & H)].
    { eapply Hq; [|exact E3|exact H]. unw. split; [done|]. intros; first [apply em_of_outcome|exact Logic.I]. }
    assert (w_disk w4 = w_disk w) as E4.
    { rewrite <- E3. eapply nostore_exec; [|exact H4]. unw. split; [done|]. intros; first [apply em_of_outcome|exact Logic.I]. }
    assert (em nostore (match mk with None => Ret tt | Some _ => dec_prekeys cf ns s end)) as Hp.
    { unfold dec_prekeys. emt; try (by unw; split; [done|intros; first [apply em_of_outcome|exact Logic.I]]). }
    apply reach_bind in H as [H|([] & w5 & H5 & H)]; [by eapply Hq|].
    assert (w_disk w5 = w_disk w) as E5 by (rewrite <- E4; by eapply nostore_exec).
    assert (forall w6, reach S (if bool_decide (mk <> None) || (STALENESS_MAGIC_NUMBER <? Model.maybe 0 (s_rcl s))%Z
       then dec_respond cf ns s else Ret tt) w5 w6 -> keeps n (w_disk w) (w_disk w6)) as Hr.
    { intros w6 Hr. destruct (_ || _).
      - rewrite <- E5. apply with_contract_reach in Hr. eapply respond_keeps; [|exact Hr]. by rewrite Ens.
      - destruct Hr as [->|[]]. rewrite E5. apply keeps_refl. }
    apply reach_bind in H as [H|([] & w6 & H6 & H)]; [auto|]. destruct H as [->|[]]. apply exec_reach in H6. by apply Hr.
  Qed.
  Lemma lookup_keeps n evs dk : Forall (fun e => match ev_key e with Some k => forall j, k <> k_queue n /\ k <> k_queue_jid n j | None => True end) evs -> keeps n dk (replay evs dk).
  Proof.
    intros H. apply keeps_other. eapply Forall_impl; [exact H|]. intros e He j. cbn beta in He. destruct (ev_key e); [|done].
    destruct (He j). split; congruence.
  Qed.
  Lemma em_sender n : em (fun e => match ev_key e with Some k => forall j, k <> k_queue n /\ k <> k_queue_jid n j | None => True end) (dec_sender cf m).
  Proof.
    assert (em (fun e => match ev_key e with Some k => forall j, k <> k_queue n /\ k <> k_queue_jid n j | None => True end) (get_device_information cf (m_jid m))) as H1.
    { eapply em_mono; [apply em_info| |done]. intros e [ | | ]; simpl; try done; destruct r; try done; intros j0; split; kneq. }
    assert (em (fun e => match ev_key e with Some k => forall j, k <> k_queue n /\ k <> k_queue_jid n j | None => True end) (refresh_device_list cf ns (m_jid m))) as H2.
    { eapply em_mono; [apply em_refresh| |done]. intros e [e' He|]; [|done]. destruct He; simpl; try done; destruct r; try done; intros j0; split; kneq. }
    unfold dec_sender. emt; done.
  Qed.
  Lemma dec_keeps n w w' : (forall w c r, P w c r -> sessions_named w c r) -> ns_separated [n; ns] ->
    reach S (decrypt cf m) w w' -> keeps n (w_disk w) (w_disk w').
  Proof.
    intros HP Hsep [->|(e & mk & _ & [H|(d & w1 & H1 & H2)])]%split_reach; [apply keeps_refl| | |done|done].
    - apply with_contract_reach in H. destruct (em_reach _ _ _ _ _ (em_sender n) H) as (evs & He & ->). by apply lookup_keeps.
    - apply with_contract_exec in H1. destruct (em_exec _ _ _ _ _ _ (em_sender n) H1) as (_ & evs & He & ->).
      apply rest_keeps with (n := n) in H2; [|done|done]. eapply keeps_trans; [|exact H2]. by apply lookup_keeps.
  Qed.
  Lemma dec_queue n w w' j x : (forall w c r, P w c r -> sessions_named w c r) -> ns_separated [n; ns] ->
    reach S (decrypt cf m) w w' -> queued (w_disk w) n j x -> queued (w_disk w') n j x.
  Proof.
    intros HP Hsep H [(l & Hl & Hj) (l' & Hl' & Hx)]. destruct (dec_keeps _ _ _ HP Hsep H) as [K1 K2].
    destruct (K1 _ Hl) as (l1 & A & B). destruct (K2 _ _ Hl') as (l2 & C & D). split; [exists l1|exists l2]; split; auto.
  Qed.
  Lemma dec_queued pt d p w w' : (forall w c r, P w c r -> sessions_named w c r) -> w_sync w = true ->
    exec S (decrypt cf m) w (Val (pt, d, p)) w' ->
    exists e mk s, given cf m e mk /\ (exists l, w_log w' = l ++ w_log w /\ EvStoreSession ns s (Val tt) ∈ l /\ opened m d e mk l s p) /\
      (response_due mk s -> queued (w_disk w') ns (m_jid m) (m_dev m)).
  Proof.
    intros HP Hs H. apply sync_exec in H; [|apply em_decrypt]. rewrite Hs in H.
    set (P' := fun w1 c r => P w1 c r /\ sync_mode true w1 c r) in *.
    assert (forall w c r, P' w c r -> sync_mode true w c r) as HP' by (by intros ??? []).
    destruct (dec_after _ _ _ _ _ _ H) as (evs & -> & Hx).
    pose proof (dec_sync _ _ _ _ HP' (exec_reach _ _ _ _ _ Hx)) as Hq.
    destruct (alone_answers _ _ _ _ _ Hx) as (new & En & Hans). rewrite app_nil_r in En. subst new.
    destruct (dec_success _ _ _ _ _ _ _ Hx) as (e & mk & t & s & pre & core & pk & resp & Hg & E & Hl & Hd & _ & _ & Hi & Hop & _ & _ & _ & Hr1 & _).
    assert (opened m d e mk evs s p) as Hop'.
    { rewrite E. destruct Hop as [(s0 & A & B)|(k & A & B)]; [left; exists s0; split|right; exists k; split; [done|]];
        do 2 (apply elem_of_app; right); right; apply elem_of_app; by left. }
    exists e, mk, s. split; [done|]. split.
    { exists evs. split; [done|]. split; [|done]. rewrite E. do 2 (apply elem_of_app; right). left. }
    intros Hdue. injection Hd as Ej Ed.
    assert (s_ns s = ns /\ s_jid s = dv_jid d /\ s_dev s = dv_id d) as (N1 & N2 & N3).
    { rewrite Forall_forall in Hans. destruct Hop' as [(s0 & A & B)|(k & A & B)].
      - apply Hans in A as (c & r & (w1 & _ & A & _) & Ee). destruct c; try done. injection Ee as -> -> -> ->. apply HP in A. simpl in A.
        apply Hans in B as (c & r & (w2 & _ & B & _) & Ee). destruct c; try done. injection Ee as -> -> -> ->. apply HP in B. simpl in B.
        destruct A as (E1 & E2 & E3). destruct B as (-> & -> & ->). done.
      - apply Hans in B as (c & r & (w2 & _ & B & _) & Ee). destruct c; try done. injection Ee as -> -> -> -> -> ->. by apply HP in B. }
    destruct (Hr1 Hdue) as [(l & l' & Hj & Hdv & ->)|(c & p0 & s' & k & ->)].
    - rewrite N1, N2, N3, Ej, Ed in *. rewrite E. split.
      + exists l. split; [|done]. unfold holds. exists (j_strs l). split; [|apply is_strs].
        change (item_key (IQueue ns)) with (k_queue ns). change (item_key (IQueueDevices ns (m_jid m))) with (k_queue_jid ns (m_jid m)).
        change (<[k_queue_jid ns (m_jid m) := j_ints l']> (<[k_queue ns := j_strs l]> (replay (pk ++ EvStoreSession ns s (Val tt) :: core ++ EvEval d (Val t) :: pre) (w_disk w))) !! k_queue ns = Some (j_strs l)).
        rewrite lookup_insert_ne, lookup_insert; [done|]. by apply k_queue_ne.
      + exists l'. split; [|done]. unfold holds. exists (j_ints l'). split; [|apply is_ints].
        change (item_key (IQueue ns)) with (k_queue ns). change (item_key (IQueueDevices ns (m_jid m))) with (k_queue_jid ns (m_jid m)).
        change (<[k_queue_jid ns (m_jid m) := j_ints l']> (<[k_queue ns := j_strs l]> (replay (pk ++ EvStoreSession ns s (Val tt) :: core ++ EvEval d (Val t) :: pre) (w_disk w))) !! k_queue_jid ns (m_jid m) = Some (j_ints l')).
        by rewrite lookup_insert.
    - rewrite E in Hq. simpl in Hq. repeat (apply Forall_cons in Hq as [? Hq]). done.
  Qed.

  (** ** An unknown sender *)
  Lemma sender_raises x w w' : exec S (dec_sender cf m) w (Exn x) w' ->
    x = ESenderNotFound \/ exists w1 w2, exec S (get_device_information cf (m_jid m)) w1 (Exn x) w2 \/ exec S (refresh_device_list cf ns (m_jid m)) w1 (Exn x) w2.
  Proof.
    unfold dec_sender. intros [(ds & w1 & H1 & H)|(x' & H1 & [= <-])]%exec_bind; [|eauto].
    destruct (filter _ ds) as [|d l]; [|by destruct H].
    apply exec_bind in H as [([] & w2 & H2 & H)|(x' & H2 & [= <-])]; [|eauto].
    apply exec_bind in H as [(ds' & w3 & H3 & H)|(x' & H3 & [= <-])]; [|eauto].
    destruct (filter _ ds') as [|d l]; [|by destruct H]. destruct H as [[= ->] _]. by left.
  Qed.
  Lemma dec_unknown_sender o w w' : exec S (decrypt cf m) w o w' -> (exists e mk, given cf m e mk) -> ns ∈ w_loaded w ->
    (forall evs dl, w_log w' = evs ++ w_log w -> EvDownloadDL ns (m_jid m) (Val dl) ∈ evs -> m_dev m ∉ dkeys dl) ->
    ~ known (w_disk w) (m_jid m) (m_dev m) ->
    exists evs x, w' = after evs w /\ Forall (lookup_ev cf m) evs /\ length (List.filter is_list_download evs) <= 1 /\ o = Exn x /\
      (x = ESenderNotFound \/ exists w1 w2, exec S (get_device_information cf (m_jid m)) w1 (Exn x) w2 \/ exec S (refresh_device_list cf ns (m_jid m)) w1 (Exn x) w2).
  Proof.
    intros H (e0 & mk0 & Hg0) Hns Hdl Hkn. destruct (dec_after _ _ _ _ _ _ H) as (evs & -> & Hx).
    assert (forall d r, EvEval d r ∉ evs) as Hne.
    { intros d r Hin. destruct (dec_found _ _ _ _ _ _ _ _ (exec_reach _ _ _ _ _ H) eq_refl Hin) as (_ & _ & _ & F).
      destruct (F Hkn) as (dl & A & B). by eapply (Hdl evs). }
    destruct (dec_unknown _ _ _ _ _ Hx) as [Hl [x ->]].
    { apply Forall_forall. intros ev Hev. destruct ev; try done. by apply Hne in Hev. }
    exists evs, x. split; [done|]. split; [done|]. split; [by eapply dec_downloads, exec_reach|]. split; [done|].
    apply split_exec in H as [[_ [[_ Hc]|[_ Hc]]]|(e & mk & Hg & [(x' & [= <-] & Hs)|(d & w1 & H1 & H2)])]; [| | | |done|done].
    - exfalso. destruct Hc as (l & [Hl' _] & Hc). simpl in Hl'. by subst l.
    - by apply Hc in Hg0.
    - by eapply sender_raises.
    - exfalso. unfold dec_rest in H2.
      assert (exists r, EvEval d r ∈ evs) as [r Hin]; [|by apply Hne in Hin].
      destruct (alone_exec _ _ _ _ _ H1) as (pre & Epre & _).
      apply exec_bind in H2 as [(t & w2 & (r & _ & Ht) & H2)|(y & (r & _ & Ht) & _)].
      + exists r. destruct (alone_exec _ _ _ _ _ H2) as (l2 & El2 & _).
        assert (w2 = Prog.apply S w1 (TEval d) r) as -> by (destruct r; by destruct Ht).
        change (w_log (Prog.apply S w1 (TEval d) r)) with (EvEval d r :: w_log w1) in El2. rewrite Epre in El2.
        assert (evs = l2 ++ EvEval d r :: pre) as ->.
        { apply (app_inv_tail (w_log w)). rewrite <- app_assoc. exact El2. }
        apply elem_of_app. right. left.
      + exists r. assert (after evs w = Prog.apply S w1 (TEval d) r) as E by (destruct r; by destruct Ht).
        apply (f_equal w_log) in E. change (evs ++ w_log w = EvEval d r :: w_log w1) in E. rewrite Epre in E.
        assert (evs = EvEval d r :: pre) as -> by (by apply (app_inv_tail (w_log w))). left.
  Qed.

  Lemma dec_recorded w w' pt d p : exec S (decrypt cf m) w (Val (pt, d, p)) w' ->
    recorded cf (w_disk w') d /\ dv_jid d = m_jid m /\ dv_id d = m_dev m.
  Proof.
    intros H. destruct (dec_after _ _ _ _ _ _ H) as (evs & -> & Hx).
    destruct (dec_returned _ _ _ _ _ _ _ Hx) as (_ & _ & _ & Hj & Hd & t & Ht). split; [|done].
    by apply (dec_found _ _ _ _ _ _ _ _ (exec_reach _ _ _ _ _ H) eq_refl Ht).
  Qed.
  Lemma dec_in_sync w w' : w_sync w = true -> reach S (decrypt cf m) w w' ->
    exists evs, w_log w' = evs ++ w_log w /\ w_sync w' = true /\
      Forall (fun ev => match ev with EvSend _ _ _ | EvEncEmpty _ _ | EvEncKey _ _ _ _ | EvDeletePk _ _ _ => False | _ => True end) evs.
  Proof.
    intros Hs H. apply sync_reach in H; [|apply em_decrypt]. rewrite Hs in H.
    destruct (dec_after_reach _ _ _ _ _ H) as (evs & -> & Ha). exists evs. split; [done|]. split; [done|].
    eapply dec_sync; [|exact Ha]. by intros ??? [].
  Qed.
End base.

(** ** Several messages, one after the other *)
Lemma reach_try {W} (T : @sem cmd resp W) {A} (p : api A) w w' : reach T (try_ p) w w' -> reach T p w w'.
Proof.
  revert w. induction p as [a|e|c k IH]; simpl; intros w; [tauto|tauto|]. intros [->|(r & Hr & H)]; [by left|]. right. exists r. auto.
Qed.
Section many.
  Context (P : world -> forall c, resp c -> Prop) (cf : cfg).
  Notation S := (with_contract P).
  Lemma many_visible ms n w w' : (forall w c r, P w c r -> prekeys_counted w c r) ->
    reach S (for_each ms (fun m => try_ (decrypt cf m) ;;; Ret tt)) w w' -> (visible n (w_log w) <= 100)%Z -> (visible n (w_log w') <= 100)%Z.
  Proof.
    intros HP. revert w. induction ms as [|m ms IH]; intros w H H0; cbn [for_each] in H.
    { by destruct H as [->|[]]. }
    assert (forall w1, reach S (decrypt cf m) w w1 -> (visible n (w_log w1) <= 100)%Z) as H1.
    { intros w1 Hr. destruct (dec_visible P cf m _ _ HP Hr) as [A B]. destruct (decide (n = m_ns m)) as [->|Hn]; [auto|]. by rewrite A. }
    apply reach_bind in H as [H|([] & w1 & H & H2)].
    - apply reach_bind in H as [H|(o & w1 & H & H2)]; [apply H1; by apply reach_try in H|]. destruct H2 as [->|[]].
      apply exec_try in H as (o' & _ & H). apply exec_reach in H. by apply H1.
    - apply exec_bind in H as [(o & w2 & H & H3)|(x & H & [=])]. destruct H3 as [_ ->]. apply exec_try in H as (o' & _ & H).
      apply IH in H2; [done|]. apply H1. by apply exec_reach in H.
  Qed.
  Lemma many_queued ms w w' : (forall w c r, P w c r -> sessions_named w c r) -> ns_separated (m_ns <$> ms) -> w_sync w = true ->
    exec S (for_each ms (fun m => decrypt cf m ;;; Ret tt)) w (Val tt) w' ->
    forall m, m ∈ ms -> (forall e mk, given cf m e mk -> mk <> None) -> queued (w_disk w') (m_ns m) (m_jid m) (m_dev m).
  Proof.
    intros HP.
    assert (forall ms w w' n j x, ns_separated (n :: (m_ns <$> ms)) -> exec S (for_each ms (fun m => decrypt cf m ;;; Ret tt)) w (Val tt) w' ->
      queued (w_disk w) n j x -> queued (w_disk w') n j x) as Hkeep.
    { clear ms w w'. induction ms as [|m ms IH]; intros w w' n j x Hsep H Hq; cbn [for_each] in H.
      { by destruct H as [_ ->]. }
      apply exec_bind in H as [([] & w1 & H & H2)|(y & _ & [=])]. apply exec_bind in H as [(r & w2 & H & H3)|(y & _ & [=])]. destruct H3 as [_ ->].
      eapply IH; [|exact H2|].
      - intros a b Ha Hb. apply Hsep; [apply elem_of_cons in Ha as [->|Ha]|apply elem_of_cons in Hb as [->|Hb]]; try left; right; by right.
      - apply exec_reach in H. eapply dec_queue; [done| |exact H|done].
        intros a b Ha Hb. apply Hsep; [set_solver +Ha|set_solver +Hb]. }
    revert w. induction ms as [|m0 ms IH]; intros w Hsep Hs H m Hm Hk; [by apply elem_of_nil in Hm|]. cbn [for_each] in H.
    apply exec_bind in H as [([] & w1 & H & H2)|(y & _ & [=])]. apply exec_bind in H as [([[pt d] p] & w2 & H & H3)|(y & _ & [=])]. destruct H3 as [_ ->].
    assert (w_sync w2 = true) as Hs2 by (destruct (dec_in_sync P cf m0 w w2 Hs (exec_reach _ _ _ _ _ H)) as (? & _ & ? & _); done).
    apply elem_of_cons in Hm as [->|Hm].
    - destruct (dec_queued P cf m0 pt d p w w2 HP Hs H) as (e & mk & s & Hg & _ & Hq). eapply Hkeep; [exact Hsep|exact H2|]. apply Hq. left. by eapply Hk.
    - eapply IH; [|exact Hs2|exact H2|done|done]. intros a b Ha Hb. apply Hsep; by right.
  Qed.
End many.
