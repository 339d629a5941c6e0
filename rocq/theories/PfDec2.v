(** The calls of decrypt after the evaluation of the sender's trust. *)
From Verif Require Import Api Spec Alone Dec PfWp PfEmits PfUpdate PfDevices PfInfo PfExec PfPurge PfAlone PfLog PfEncrypt PfEmpty PfDec.
Open Scope prog_scope.
Open Scope list_scope.

Section body.
  Context (P : world -> forall c, resp c -> Prop) (cf : cfg) (m : message) (d : device) (e : ekm) (mk : option kex).
  Notation S := (alone P).
  Notation ns := (m_ns m).
  Notation load r := (EvLoadSession ns (dv_jid d) (dv_id d) r).
  Notation own_jid := (c_jid cf).
  Notation own_dev := (c_dev cf).

  (** the existing session [s] is used *)
  Definition existing (s : session) (o : list event) : Prop :=
    match mk with
    | None => o = [load (Val (Some s))]
    | Some k => s_init s = Passive /\ o = [EvSame (s_kex s) k true; load (Val (Some s))]
    end.
  (** a new session is built with [k] *)
  Definition replaced (k : kex) (o : list event) : Prop :=
    o = [load (Val None)] \/
    exists s, (s_init s <> Passive /\ o = [load (Val (Some s))]) \/
              (s_init s = Passive /\ o = [EvSame (s_kex s) k false; load (Val (Some s))]).
  Definition open_done (o : list event) (s : session) (p : pkm) : Prop :=
    (exists s0 o', o = EvDecKey ns s0 e (Val (s, p)) :: o' /\ existing s0 o') \/
    (exists k o', mk = Some k /\ o = EvBuildPassive ns (dv_jid d) (dv_id d) k e (Val (s, p)) :: o' /\ replaced k o').
  Definition core_done (core : list event) (s : session) (p : pkm) (pt : option bytes) : Prop :=
    exists o, open_done o s p /\
      if ct_empty (m_content m) then pt = None /\ core = o
      else exists b, pt = Some b /\ core = EvDecPlain ns (m_content m) p (Val b) :: o.
  Definition after_store (s : session) (l : list event) : Prop :=
    exists core p pt, l = EvStoreSession ns s (Val tt) :: core /\ core_done core s p pt.
  Definition pk_done (s : session) (pk : list event) : Prop :=
    match mk with
    | None => pk = []
    | Some _ => replenished cf ns s pk
    end.
  Definition resp_start (s : session) (l : list event) : Prop :=
    response_due mk s /\ exists pk l', l = pk ++ l' /\ after_store s l' /\ pk_done s pk.
  Definition resp_done (s : session) (resp : list event) : Prop := responded cf ns s resp.

  Definition dstep (ev : event) (before : list event) : Prop :=
    match ev with
    | EvLoadSession n j x r => n = ns /\ j = dv_jid d /\ x = dv_id d /\ before = []
    | EvSame a k r => exists s, mk = Some k /\ a = s_kex s /\ s_init s = Passive /\ before = [load (Val (Some s))]
    | EvDecKey n s e' r => n = ns /\ e' = e /\ existing s before
    | EvBuildPassive n j x k e' r => n = ns /\ j = dv_jid d /\ x = dv_id d /\ mk = Some k /\ e' = e /\ replaced k before
    | EvDecPlain n c p r => n = ns /\ c = m_content m /\ ct_empty c = false /\ exists s, open_done before s p
    | EvStoreSession n s r => n = ns /\
        ((exists p pt, core_done before s p pt) \/
         exists s0 c p k l', before = EvSend (Message ns own_jid own_dev c [(k, kex_due s)]) (s_jid s) (Val tt) ::
           EvEncKey ns s0 p (Val (s, k)) :: EvEncEmpty ns (Val (c, p)) :: l' /\ resp_start s0 l')
    | EvHide n s r => n = ns /\ mk <> None /\ after_store s before /\ answer P GSync true
    | EvDeletePk n s r => n = ns /\ mk <> None /\ after_store s before /\ answer P GSync false
    | EvNumVisible n r => n = ns /\ exists sync s l', before = consume ns sync s (Val true) :: l' /\ mk <> None /\ after_store s l'
    | EvGenerate n k r => n = ns /\ exists v l', before = EvNumVisible ns (Val v) :: l' /\ (v <= c_threshold cf)%Z /\ k = (100 - v)%Z
    | EvGetBundle n j x r => n = ns /\ j = own_jid /\ x = own_dev /\ mk <> None /\
        ((exists v l', before = EvNumVisible ns (Val v) :: l' /\ (c_threshold cf < v)%Z) \/ exists k l', before = EvGenerate ns k (Val tt) :: l')
    | EvUploadBundle b r => mk <> None /\ exists l', before = EvGetBundle ns own_jid own_dev (Val b) :: l'
    | EvEncEmpty n r => n = ns /\ answer P GSync false /\ exists s, resp_start s before
    | EvEncKey n s p r => n = ns /\ answer P GSync false /\ exists c l', before = EvEncEmpty ns (Val (c, p)) :: l' /\ resp_start s l'
    | EvSend msg j r => answer P GSync false /\ exists s s' c p k l', before = EvEncKey ns s p (Val (s', k)) :: EvEncEmpty ns (Val (c, p)) :: l' /\
        resp_start s l' /\ msg = Message ns own_jid own_dev c [(k, kex_due s')] /\ j = s_jid s'
    | EvStore k v r => answer P GSync true /\
        ((exists s l, k = k_queue (s_ns s) /\ v = j_strs l /\ s_jid s ∈ l /\ resp_start s before) \/
         (exists s l l0 l', k = k_queue_jid (s_ns s) (s_jid s) /\ v = j_ints l /\ s_dev s ∈ l /\
            before = EvStore (k_queue (s_ns s)) (j_strs l0) (Val tt) :: l' /\ resp_start s l'))
    | _ => False
    end.

  (** how the part after the evaluation may end *)
  Definition fail (x : exn) (post : list event) : Prop :=
    (exists ev rest, post = ev :: rest /\ event_exn ev = Some x) \/
    (x = ENoSession /\ mk = None /\ post = [load (Val None)]) \/
    (x = EPublicDataInconsistency /\ post = [] /\ exists k, mk = Some k /\ kx_ik k <> dv_ik d) \/
    (answer P GSync true /\ exists s post1 post2, post = post1 ++ post2 /\ resp_start s post2).
  Definition fin (o : outcome (option bytes * device * pkm)) (post : list event) : Prop :=
    match o with
    | Exn x => fail x post
    | Val (pt, d', p) => d' = d /\ exists s core pk resp,
        post = resp ++ pk ++ EvStoreSession ns s (Val tt) :: core /\ core_done core s p pt /\ pk_done s pk /\
        (response_due mk s -> resp_done s resp) /\ (~ response_due mk s -> resp = [])
    end.

  Context (B : list event).
  Definition J (l : list event) : Prop := exists post, l = post ++ B /\ traced dstep post.

  Lemma a_ext {A} c (cast : resp c -> outcome A) (ev : resp c -> event) (Q : outcome A -> list event -> Prop) post :
    (forall r, event_of c r = Some (ev r)) -> traced dstep post ->
    (forall r, answer P c r -> dstep (ev r) post) ->
    (forall r, answer P c r -> traced dstep (ev r :: post) -> Q (cast r) ((ev r :: post) ++ B)) ->
    wp S J (Step c (fun r => of_outcome (cast r))) Q (post ++ B).
  Proof.
    intros He Ht Hd HQ. change (forall r, allowed S (post ++ B) c r -> J (Prog.apply S (post ++ B) c r) /\
      wp S J (of_outcome (cast r)) Q (Prog.apply S (post ++ B) c r)).
    intros r Hr. change (Prog.apply S (post ++ B) c r) with (ocons (event_of c r) (post ++ B)). rewrite He. simpl.
    assert (traced dstep (ev r :: post)) as Ht' by (apply traced_cons; auto).
    split; [by exists (ev r :: post)|]. apply wp_of_outcome. by apply HQ.
  Qed.
  Lemma a_step {A} c (k : resp c -> api A) (ev : resp c -> event) (Q : outcome A -> list event -> Prop) post :
    (forall r, event_of c r = Some (ev r)) -> traced dstep post ->
    (forall r, answer P c r -> dstep (ev r) post) ->
    (forall r, answer P c r -> traced dstep (ev r :: post) -> wp S J (k r) Q ((ev r :: post) ++ B)) ->
    wp S J (Step c k) Q (post ++ B).
  Proof.
    intros He Ht Hd HQ. change (forall r, allowed S (post ++ B) c r -> J (Prog.apply S (post ++ B) c r) /\
      wp S J (k r) Q (Prog.apply S (post ++ B) c r)).
    intros r Hr. change (Prog.apply S (post ++ B) c r) with (ocons (event_of c r) (post ++ B)). rewrite He. simpl.
    assert (traced dstep (ev r :: post)) as Ht' by (apply traced_cons; auto).
    split; [by exists (ev r :: post)|]. by apply HQ.
  Qed.
  Lemma a_quiet {A} c (k : resp c -> api A) (Q : outcome A -> list event -> Prop) post :
    (forall r, event_of c r = None) -> traced dstep post ->
    (forall r, answer P c r -> wp S J (k r) Q (post ++ B)) ->
    wp S J (Step c k) Q (post ++ B).
  Proof.
    intros He Ht HQ. change (forall r, allowed S (post ++ B) c r -> J (Prog.apply S (post ++ B) c r) /\
      wp S J (k r) Q (Prog.apply S (post ++ B) c r)).
    intros r Hr. change (Prog.apply S (post ++ B) c r) with (ocons (event_of c r) (post ++ B)). rewrite He. simpl.
    split; [by exists post|]. by apply HQ.
  Qed.
  Lemma a_load {A} (check : json -> outcome A) k (Q : outcome (option A) -> list event -> Prop) post :
    traced dstep post -> (forall o, Q o (post ++ B)) -> wp S J (load_checked check k) Q (post ++ B).
  Proof.
    intros Ht HQ. unfold load_checked, s_load. apply wp_bind, a_quiet; [done|done|]. intros r Hr. apply wp_of_outcome.
    destruct r as [[v|]|x]; [destruct (check v)|..]; apply HQ.
  Qed.

  Lemma fail_head ev rest x : event_exn ev = Some x -> fail x (ev :: rest).
  Proof. intros H. left. eauto. Qed.

  Lemma open_wp (Hk : forall k, mk = Some k -> kx_ik k = dv_ik d) :
    wp S J (match mk with None => dec_existing ns d e | Some k => dec_kex ns d k e end)
      (fun o l => exists post, l = post ++ B /\ traced dstep post /\
         match o with Val (s, p) => open_done post s p | Exn x => fail x post end) B.
  Proof.
    set (Q := fun (o : outcome (session * pkm)) l => _).
    assert (forall s0 o, traced dstep o -> existing s0 o -> wp S J (b_dec_key ns s0 e) Q (o ++ B)) as Hdk.
    { intros s0 o Ht Ho. apply (a_ext (BDecKey ns s0 e) (fun r => r) (EvDecKey ns s0 e)); [done|done|by intros|].
      intros r _ Ht'. exists (EvDecKey ns s0 e r :: o). split; [done|]. split; [done|].
      destruct r as [[s p]|x]; [|by apply fail_head]. left. eauto. }
    change (wp S J (match mk with None => dec_existing ns d e | Some k => dec_kex ns d k e end) Q ([] ++ B)).
    destruct mk as [k|] eqn:Emk.
    - unfold dec_kex. rewrite decide_True by auto.
      assert (forall o, traced dstep o -> replaced k o -> wp S J (b_build_passive ns (dv_jid d) (dv_id d) k e) Q (o ++ B)) as Hb.
      { intros o Ht Ho. apply (a_ext (BBuildPassive ns (dv_jid d) (dv_id d) k e) (fun r => r) (EvBuildPassive ns (dv_jid d) (dv_id d) k e)); [done|done|by intros|].
        intros r _ Ht'. exists (EvBuildPassive ns (dv_jid d) (dv_id d) k e r :: o). split; [done|]. split; [done|].
        destruct r as [[s p]|x]; [|by apply fail_head]. right. exists k, o. done. }
      apply wp_bind. apply (a_ext (BLoadSession ns (dv_jid d) (dv_id d)) (fun r => r) (EvLoadSession ns (dv_jid d) (dv_id d))); [done|apply traced_nil|done|].
      intros [[s|]|x] _ Ht.
      + apply wp_bind. destruct (decide (s_init s = Passive)) as [Hp|Hp].
        * apply wp_bind. unfold k_same.
          apply (a_step (KSame (s_kex s) k) _ (EvSame (s_kex s) k)); [done|done|intros r _; exists s; done|]. intros r _ Ht'.
          destruct r.
          -- apply (Hdk s [EvSame (s_kex s) k true; load (Val (Some s))]); [done|]. unfold existing. by rewrite Emk.
          -- apply (Hb [EvSame (s_kex s) k false; load (Val (Some s))]); [done|]. right. exists s. by right.
        * apply (Hb [load (Val (Some s))]); [done|]. right. exists s. by left.
      + apply wp_bind. apply (Hb [load (Val None)]); [done|]. by left.
      + exists [load (Exn x)]. split; [done|]. split; [done|]. by apply fail_head.
    - unfold dec_existing. apply wp_bind. apply (a_ext (BLoadSession ns (dv_jid d) (dv_id d)) (fun r => r) (EvLoadSession ns (dv_jid d) (dv_id d))); [done|apply traced_nil|done|].
      intros [[s|]|x] _ Ht.
      + apply (Hdk s [load (Val (Some s))]); [done|]. unfold existing. by rewrite Emk.
      + exists [load (Val None)]. split; [done|]. split; [done|]. right. left. done.
      + exists [load (Exn x)]. split; [done|]. split; [done|]. by apply fail_head.
  Qed.

  Definition done_with {A} (R : list event -> Prop) : outcome A -> list event -> Prop :=
    fun o l => exists post, l = post ++ B /\ traced dstep post /\ match o with Val _ => R post | Exn x => fail x post end.

  Lemma core_wp s p o : traced dstep o -> open_done o s p ->
    wp S J (if ct_empty (m_content m) then Ret None else pt <- b_dec_plain ns (m_content m) p ;; Ret (Some pt))
      (fun r l => exists post, l = post ++ B /\ traced dstep post /\ match r with Val pt => core_done post s p pt | Exn x => fail x post end) (o ++ B).
  Proof.
    intros Ht Ho. destruct (ct_empty (m_content m)) eqn:Ec.
    - exists o. split; [done|]. split; [done|]. exists o. split; [done|]. by rewrite Ec.
    - apply wp_bind. apply (a_ext (BDecPlain ns (m_content m) p) (fun r => r) (EvDecPlain ns (m_content m) p)); [done|done|intros r _; repeat split; eauto|].
      intros [b|x] _ Ht'.
      + exists (EvDecPlain ns (m_content m) p (Val b) :: o). split; [done|]. split; [done|]. exists o. split; [done|]. rewrite Ec. eauto.
      + exists (EvDecPlain ns (m_content m) p (Exn x) :: o). split; [done|]. split; [done|]. by apply fail_head.
  Qed.

  Lemma store_wp s core p pt : traced dstep core -> core_done core s p pt ->
    wp S J (b_store_session ns s) (done_with (fun post => post = EvStoreSession ns s (Val tt) :: core)) (core ++ B).
  Proof.
    intros Ht Hc. apply (a_ext (BStoreSession ns s) (fun r => r) (EvStoreSession ns s)); [done|done|intros r _; split; [done|left; eauto]|].
    intros [[]|x] _ Ht'; (eexists (_ :: core); split; [reflexivity|]; split; [done|]); [done|by apply fail_head].
  Qed.

  Lemma prekeys_wp s l : traced dstep l -> after_store s l -> mk <> None ->
    wp S J (dec_prekeys cf ns s) (done_with (fun post => exists pk, post = pk ++ l /\ pk_done s pk)) (l ++ B).
  Proof.
    intros Ht Hl Hk. unfold dec_prekeys, g_sync. cbn [bind]. apply a_quiet; [done|done|]. intros sync Hs. cbn [bind].
    apply wp_bind.
    assert (wp S J (if sync then b_hide ns s else b_delete ns s) (fun o l' => exists r, l' = (consume ns sync s r :: l) ++ B /\ traced dstep (consume ns sync s r :: l) /\ o = r) (l ++ B)) as Hc.
    { destruct sync.
      - apply (a_ext (BHide ns s) (fun r => r) (EvHide ns s)); [done|done|by intros|]. intros r _ Ht'. by exists r.
      - apply (a_ext (BDelete ns s) (fun r => r) (EvDeletePk ns s)); [done|done|by intros|]. intros r _ Ht'. by exists r. }
    eapply wp_conseq; [exact Hc|]. clear Hc. intros o l' (r & -> & Ht1 & ->).
    destruct r as [[]|x].
    3: { exists (consume ns sync s (Exn x) :: l). split; [done|]. split; [done|]. apply fail_head. by destruct sync. }
    2: { exists (consume ns sync s (Val false) :: l). split; [done|]. split; [done|]. exists [consume ns sync s (Val false)]. split; [done|].
         unfold pk_done. destruct mk; [|done]. exists sync. by left. }
    apply wp_bind. set (l1 := consume ns sync s (Val true) :: l) in *.
    apply (a_ext (BNumVisible ns) (fun r => r) (EvNumVisible ns)); [done|done|intros r _; split; [done|]; exists sync, s, l; done|].
    intros [n|x] _ Ht2.
    2: { eexists (_ :: l1). split; [done|]. split; [done|]. by apply fail_head. }
    apply wp_bind. set (l2 := EvNumVisible ns (Val n) :: l1) in *.
    assert (forall l3, traced dstep l3 -> (l3 = l2 /\ (c_threshold cf < n)%Z \/ l3 = EvGenerate ns (100 - n) (Val tt) :: l2 /\ (n <= c_threshold cf)%Z) ->
      wp S J (b <- b_get_bundle ns own_jid own_dev ;; n_upload_bundle b) (done_with (fun post => exists pk, post = pk ++ l /\ pk_done s pk)) (l3 ++ B)) as Hrest.
    { intros l3 Ht3 H3. apply wp_bind.
      apply (a_ext (BGetBundle ns own_jid own_dev) (fun r => r) (EvGetBundle ns own_jid own_dev)); [done|done| |].
      { intros r _. do 4 (split; [done|]). destruct H3 as [[-> H3]|[-> H3]]; [left|right]; eauto. }
      intros [b|x] _ Ht4.
      2: { eexists (_ :: l3). split; [done|]. split; [done|]. by apply fail_head. }
      apply (a_ext (NUploadBundle b) (fun r => r) (EvUploadBundle b)); [done|done|intros r _; split; [done|eauto]|].
      intros [[]|x] _ Ht5; (eexists (_ :: _ :: l3); split; [reflexivity|]; split; [done|]); [|by apply fail_head].
      unfold pk_done. destruct mk; [|done].
      destruct H3 as [[-> H3]|[-> H3]].
      - eexists [_; _; _; _]. split; [reflexivity|]. exists sync. right. exists n, b. rewrite (proj2 (Z.leb_gt _ _)) by lia. done.
      - eexists [_; _; _; _; _]. split; [reflexivity|]. exists sync. right. exists n, b. rewrite (proj2 (Z.leb_le _ _)) by lia. done. }
    destruct (n <=? c_threshold cf)%Z eqn:En.
    - apply Z.leb_le in En. apply (a_ext (BGenerate ns (100 - n)) (fun r => r) (EvGenerate ns (100 - n))); [done|done|intros r _; split; [done|]; exists n, l1; done|].
      intros [[]|x] _ Ht3.
      + apply (Hrest (_ :: l2)); [done|]. right. done.
      + eexists (_ :: l2). split; [done|]. split; [done|]. by apply fail_head.
    - apply Z.leb_gt in En. apply (Hrest l2); [done|]. by left.
  Qed.

  Lemma respond_wp s l : traced dstep l -> resp_start s l ->
    wp S J (dec_respond cf ns s) (done_with (fun post => exists resp, post = resp ++ l /\ resp_done s resp)) (l ++ B).
  Proof.
    intros Ht Hl. unfold dec_respond, g_sync. cbn [bind]. apply a_quiet; [done|done|]. intros sync Hs. cbn [bind]. destruct sync.
    - assert (forall x post1, traced dstep (post1 ++ l) -> done_with (fun post => exists resp, post = resp ++ l /\ resp_done s resp) (Exn x : outcome unit) ((post1 ++ l) ++ B)) as Hq.
      { intros x post1 Ht1. exists (post1 ++ l). split; [done|]. split; [done|]. right. right. right. split; [done|]. by exists s, post1, l. }
      apply wp_bind. apply a_load; [done|]. intros [m1|x]; [|by apply (Hq x [])].
      unfold order. cbn [bind]. apply a_quiet; [done|done|]. intros r _. cbn [bind].
      set (l1 := reorder r _). apply wp_bind.
      assert (s_jid s ∈ l1) as H1.
      { unfold l1. rewrite reorder_perm. unfold set_add. case_decide; [done|]. apply elem_of_app. right. apply elem_of_list_here. }
      apply (a_ext (SStore (k_queue (s_ns s)) (j_strs l1)) (fun r => r) (EvStore (k_queue (s_ns s)) (j_strs l1))); [done|done|intros r' _; split; [done|]; left; exists s, l1; done|].
      intros [[]|x] _ Ht1.
      2: { eexists (_ :: l). split; [done|]. split; [done|]. by apply fail_head. }
      apply wp_bind. apply a_load; [done|]. intros [m2|x]; [|by apply (Hq x [_])].
      unfold order. cbn [bind]. apply a_quiet; [done|done|]. intros r2 _. cbn [bind].
      set (l2 := reorder r2 _).
      assert (s_dev s ∈ l2) as H2.
      { unfold l2. rewrite reorder_perm. unfold set_add. case_decide; [done|]. apply elem_of_app. right. apply elem_of_list_here. }
      apply (a_ext (SStore (k_queue_jid (s_ns s) (s_jid s)) (j_ints l2)) (fun r => r) (EvStore (k_queue_jid (s_ns s) (s_jid s)) (j_ints l2)));
        [done|done|intros r' _; split; [done|]; right; exists s, l2, l1, l; done|].
      intros [[]|x] _ Ht2; (eexists (_ :: _ :: l); split; [reflexivity|]; split; [done|]); [|by apply fail_head].
      eexists [_; _]. split; [reflexivity|]. left. by exists l1, l2.
    - unfold send_empty_message. apply wp_bind.
      apply (a_ext (BEncEmpty ns) (fun r => r) (EvEncEmpty ns)); [done|done|intros r _; split; [done|]; split; [done|eauto]|].
      intros [[c p]|x] _ Ht1.
      2: { eexists (_ :: l). split; [done|]. split; [done|]. by apply fail_head. }
      apply wp_bind. apply (a_ext (BEncKey ns s p) (fun r => r) (EvEncKey ns s p)); [done|done|intros r _; split; [done|]; split; [done|eauto]|].
      intros [[s' k]|x] _ Ht2.
      2: { eexists (_ :: _ :: l). split; [done|]. split; [done|]. by apply fail_head. }
      apply wp_bind. rewrite kex_same. apply (a_ext (NSend (Message ns own_jid own_dev c [(k, kex_due s')]) (s_jid s')) (fun r => r) (EvSend (Message ns own_jid own_dev c [(k, kex_due s')]) (s_jid s')));
        [done|done|intros r _; split; [done|]; exists s, s', c, p, k, l; done|].
      intros [[]|x] _ Ht3.
      2: { eexists (_ :: _ :: _ :: l). split; [done|]. split; [done|]. by apply fail_head. }
      apply (a_ext (BStoreSession ns s') (fun r => r) (EvStoreSession ns s')); [done|done|intros r _; split; [done|]; right; exists s, c, p, k, l; done|].
      intros [[]|x] _ Ht4; (eexists (_ :: _ :: _ :: _ :: l); split; [reflexivity|]; split; [done|]); [|by apply fail_head].
      eexists [_; _; _; _]. split; [reflexivity|]. right. by exists c, p, s', k.
  Qed.

  Lemma due_dec s : bool_decide (mk <> None) || (STALENESS_MAGIC_NUMBER <? Model.maybe 0 (s_rcl s))%Z = true <-> response_due mk s.
  Proof.
    rewrite orb_true_iff, bool_decide_eq_true, Z.ltb_lt. unfold response_due, STALENESS_MAGIC_NUMBER. destruct (s_rcl s) as [n|]; simpl.
    - split; (intros [?|H]; [by left|right]); [eauto|]. by destruct H as (? & [= <-] & ?).
    - split; (intros [?|H]; [by left|right]); [lia|]. by destruct H as (? & ? & ?).
  Qed.

  Definition dec_body : api (option bytes * device * pkm) :=
    '(s, p) <- match mk with None => dec_existing ns d e | Some k => dec_kex ns d k e end ;;
    plaintext <- (if ct_empty (m_content m) then Ret None
                  else pt <- b_dec_plain ns (m_content m) p ;; Ret (Some pt)) ;;
    b_store_session ns s ;;;
    match mk with None => Ret tt | Some _ => dec_prekeys cf ns s end ;;;
    (if bool_decide (mk <> None) || (STALENESS_MAGIC_NUMBER <? Model.maybe 0 (s_rcl s))%Z
     then dec_respond cf ns s else Ret tt) ;;;
    Ret (plaintext, d, p).

  Lemma body_wp (Hk : forall k, mk = Some k -> kx_ik k = dv_ik d) :
    wp S J dec_body (fun o l => exists post, l = post ++ B /\ traced dstep post /\ fin o post) B.
  Proof.
    unfold dec_body. apply wp_bind. eapply wp_conseq; [apply (open_wp Hk)|]. intros [[s p]|x] l (o & -> & Ht & Ho); [|by exists o].
    apply wp_bind. eapply wp_conseq; [apply (core_wp s p o Ht Ho)|]. intros [pt|x] l (core & -> & Ht1 & Hc); [|by exists core].
    apply wp_bind. eapply wp_conseq; [apply (store_wp s core p pt Ht1 Hc)|]. intros [[]|x] l (post & -> & Ht2 & H); [subst post|by exists post].
    assert (after_store s (EvStoreSession ns s (Val tt) :: core)) as Ha by (exists core, p, pt; done).
    apply wp_bind.
    assert (wp S J (match mk with None => Ret tt | Some _ => dec_prekeys cf ns s end)
      (done_with (fun post => exists pk, post = pk ++ EvStoreSession ns s (Val tt) :: core /\ pk_done s pk)) ((EvStoreSession ns s (Val tt) :: core) ++ B)) as Hp.
    { destruct mk eqn:Emk.
      - rewrite <- Emk in *. apply prekeys_wp; [done|done|]. by rewrite Emk.
      - eexists. split; [reflexivity|]. split; [done|]. exists []. unfold pk_done. by rewrite Emk. }
    eapply wp_conseq; [exact Hp|]. clear Hp. intros [[]|x] l (post & -> & Ht3 & H); [destruct H as (pk & -> & Hpk)|by exists post].
    apply wp_bind. destruct (bool_decide (mk <> None) || _) eqn:Ed.
    - apply due_dec in Ed. eapply wp_conseq; [apply (respond_wp s _ Ht3); split; [done|]; exists pk, (EvStoreSession ns s (Val tt) :: core); done|].
      intros [[]|x] l (post & -> & Ht4 & H); [destruct H as (resp & -> & Hr)|by exists post].
      exists (resp ++ pk ++ EvStoreSession ns s (Val tt) :: core). split; [done|]. split; [done|]. split; [done|].
      exists s, core, pk, resp. repeat split; auto. done.
    - exists (pk ++ EvStoreSession ns s (Val tt) :: core). split; [done|]. split; [done|]. split; [done|].
      exists s, core, pk, []. repeat split; auto. intros Hd. apply due_dec in Hd. congruence.
  Qed.
End body.
