(** Empty messages; what the storing of sessions means for later calls. *)
From Verif Require Import Api Spec Alone PfEmits PfAlone PfLog PfEncrypt PfEncrypt2 PfEncrypt3 PfEncrypt4 PfEncrypt5.
Open Scope prog_scope.
Open Scope list_scope.

Lemma kex_same s : kex_to_send s = kex_due s.
Proof. unfold kex_to_send, kex_due. by destruct (s_init s), (s_confirmed s). Qed.

Lemma empty_reach P cf ns s l evs :
  reach (alone P) (send_empty_message cf ns s) l evs -> exists new, evs = new ++ l /\ empty_calls cf ns s new.
Proof.
  unfold send_empty_message. cbn [bind b_enc_empty reach].
  intros [->|([[c p]|x] & _ & H)].
  { exists []. split; [done|constructor]. }
  2: { destruct H as [->|[]]. eexists [_]. split; [reflexivity|constructor]. }
  cbn [of_outcome bind b_enc_key reach] in H. destruct H as [->|([[s' e]|x] & _ & H)].
  { eexists [_]. split; [reflexivity|constructor]. }
  2: { destruct H as [->|[]]. eexists [_; _]. split; [reflexivity|constructor]. }
  cbn [of_outcome bind n_send reach] in H. rewrite kex_same in H. destruct H as [->|([[]|x] & _ & H)].
  { eexists [_; _]. split; [reflexivity|constructor]. }
  2: { destruct H as [->|[]]. eexists [_; _; _]. split; [reflexivity|constructor]. }
  cbn [of_outcome bind b_store_session reach] in H. destruct H as [->|(r & _ & H)].
  { eexists [_; _; _]. split; [reflexivity|constructor]. }
  assert (evs = EvStoreSession ns s' r :: EvSend (Message ns (c_jid cf) (c_dev cf) c [(e, kex_due s')]) (s_jid s') (Val ()) :: EvEncKey ns s p (Val (s', e)) :: EvEncEmpty ns (Val (c, p)) :: l) as ->.
  { destruct r; by destruct H as [->|[]]. }
  eexists [_; _; _; _]. split; [reflexivity|constructor].
Qed.
Lemma empty_exec P cf ns s l evs :
  exec (alone P) (send_empty_message cf ns s) l (Val tt) evs ->
  exists c p s' e, evs = [EvStoreSession ns s' (Val tt);
        EvSend (Message ns (c_jid cf) (c_dev cf) c [(e, kex_due s')]) (s_jid s') (Val tt);
        EvEncKey ns s p (Val (s', e)); EvEncEmpty ns (Val (c, p))] ++ l.
Proof.
  unfold send_empty_message. cbn [bind b_enc_empty exec].
  intros ([[c p]|x] & _ & H); [|by destruct H].
  cbn [of_outcome bind b_enc_key exec] in H. destruct H as ([[s' e]|x] & _ & H); [|by destruct H].
  cbn [of_outcome bind n_send exec] in H. rewrite kex_same in H. destruct H as ([[]|x] & _ & H); [|by destruct H].
  cbn [of_outcome bind b_store_session exec] in H. destruct H as ([[]|x] & _ & H); [|by destruct H].
  destruct H as [_ ->]. by exists c, p, s', e.
Qed.

Lemma dev_requested P cf priority bare_jids d :
  dev_ok P cf priority bare_jids d ->
  requested cf bare_jids d /\ exists ns, head (dv_namespaces d) = Some ns /\ forall l, priority = Some l -> ns ∈ l.
Proof.
  intros (H1 & H2 & ns & prio & H3 & H4 & av & _ & Hp). split; [split; [by apply elem_jids in H1|done]|].
  exists ns. split; [done|]. intros l ->. by destruct Hp as [-> _].
Qed.

(** ** Answers seen in a log *)
Definition ev_answer (P : world -> forall c, resp c -> Prop) (e : event) : Prop :=
  exists c r, answer P c r /\ event_of c r = Some e.
Lemma alone_answers P {A} (p : api A) l o evs :
  exec (alone P) p l o evs -> exists new, evs = new ++ l /\ Forall (ev_answer P) new.
Proof.
  revert l. induction p as [a|e|c k IH]; intros l; cbn [exec].
  - intros [_ ->]. by exists [].
  - intros [_ ->]. by exists [].
  - intros (r & Hr & H). apply IH in H as (new & -> & Hn). simpl. destruct (event_of c r) as [e|] eqn:E.
    + exists (new ++ [e]). split; [by rewrite <- app_assoc|]. apply Forall_app. split; [done|]. constructor; [|done]. by exists c, r.
    + by exists new.
Qed.

Lemma last_session_key l ns j x s : last_session l ns j x = Some s -> s_jid s = j /\ s_dev s = x /\ (ns, s) ∈ stored l.
Proof.
  induction l as [|e l IH]; [done|]. destruct e; cbn [last_session stored]; try exact IH; destruct r as [[]|]; try exact IH.
  - case_bool_decide as Hb.
    + intros [= <-]. destruct Hb as (-> & H1 & H2). split; [done|]. split; [done|left].
    + intros H. destruct (IH H) as (H1 & H2 & H3). split; [done|]. split; [done|]. by right.
  - by case_decide.
  - by case_bool_decide.
Qed.
Lemma stored_last l l' ns s : Forall enc_post l -> (ns, s) ∈ stored l ->
  exists s', last_session (l ++ l') ns (s_jid s) (s_dev s) = Some s' /\ (ns, s') ∈ stored l /\ s_jid s' = s_jid s /\ s_dev s' = s_dev s.
Proof.
  induction 1 as [|e l He _ IH]; simpl; [by intros ?%elem_of_nil|]. intros H.
  assert (forall l0 : list (string * session), (ns, s) ∈ stored l -> (forall x, x ∈ stored l -> x ∈ l0) ->
    exists s', last_session (l ++ l') ns (s_jid s) (s_dev s) = Some s' /\ (ns, s') ∈ l0 /\ s_jid s' = s_jid s /\ s_dev s' = s_dev s) as Hrec.
  { intros l0 Hin Hl0. destruct (IH Hin) as (s' & E & Hs & Hs'). eauto. }
  destruct e; try done; try (apply Hrec; [exact H|done]). destruct r as [[]|]; [|apply Hrec; [exact H|done]].
  apply elem_of_cons in H as [[= <- <-]|H].
  - rewrite bool_decide_eq_true_2 by done. exists s. split; [done|]. split; [left|done].
  - case_bool_decide as Hb; [|apply Hrec; [done|by right]]. destruct Hb as (-> & Hb). eexists. split; [done|]. split; [left|done].
Qed.
Lemma encs_mem en e l1 l2 : en ∈ encs (e :: l2) -> en ∈ encs (l1 ++ e :: l2).
Proof.
  intros H. induction l1 as [|x l1 IH]; [done|]. cbn [app].
  assert (forall l, en ∈ encs l -> en ∈ encs (x :: l)) as Hc; [|by apply Hc].
  intros l Hl. destruct x; cbn [encs]; try done.
  - destruct r as [[? ?]|]; [by right|done].
  - destruct r as [[? ?]|]; [|done]. destruct l as [|[] ?]; try done. by right.
Qed.

Lemma encs_split en l : en ∈ encs l -> exists l1 e l2, l = l1 ++ e :: l2 /\
  match e with
  | EvBuildActive ns j x _ _ (Val (s, k)) => en = Enc ns j x s k
  | EvEncKey ns s p (Val (s', k)) => exists ns' r l3 j x, l2 = EvLoadSession ns' j x r :: l3 /\ en = Enc ns j x s' k
  | _ => False
  end.
Proof.
  induction l as [|e l IH]; [by intros ?%elem_of_nil|]. intros H.
  assert (en ∈ encs l -> exists l1 e' l2, e :: l = l1 ++ e' :: l2 /\
    match e' with
    | EvBuildActive ns j x _ _ (Val (s, k)) => en = Enc ns j x s k
    | EvEncKey ns s p (Val (s', k)) => exists ns' r l3 j x, l2 = EvLoadSession ns' j x r :: l3 /\ en = Enc ns j x s' k
    | _ => False
    end) as Hrec.
  { intros (l1 & e' & l2 & -> & He)%IH. by exists (e :: l1), e', l2. }
  destruct e; cbn [encs] in H; try (by apply Hrec).
  - destruct r as [[s k]|]; [|by apply Hrec]. apply elem_of_cons in H as [->|H]; [|by apply Hrec]. by eexists [], _, l.
  - destruct r as [[s' k]|]; [|by apply Hrec]. destruct l as [|[] l]; try (by apply Hrec).
    apply elem_of_cons in H as [->|H]; [|by apply Hrec]. eexists [], _, _. split; [done|]. simpl. eauto 10.
Qed.
Lemma enc_advanced_alone (P : world -> forall c, resp c -> Prop) cf mtd ident pt priority bare_jids r evs :
  (forall w c r, P w c r -> distinct_backends w c r /\ sessions_kept w c r) ->
  exec (alone P) (encrypt cf mtd bare_jids pt priority ident) [] (Val r) evs ->
  exists pre dec post, evs = post ++ dec ++ pre /\ Forall enc_pre pre /\ Forall enc_post post /\
    (forall en L, en ∈ encs post -> last_session (evs ++ L) (en_ns en) (en_jid en) (en_dev en) = Some (en_session en)) /\
    forall ns s p s' k, EvEncKey ns s p (Val (s', k)) ∈ post -> Enc ns (s_jid s) (s_dev s) s' k ∈ encs post.
Proof.
  intros HP Hx.
  assert (forall w c r, P w c r -> distinct_backends w c r) as HP1 by (intros; by apply HP).
  destruct (enc_sessions P cf mtd ident pt priority bare_jids HP1 _ _ Hx) as (pre & dec & post & -> & H1 & _ & H2 & Ht & Hst).
  exists pre, dec, post. split; [done|]. split; [done|]. split; [done|].
  destruct (alone_answers _ _ _ _ _ Hx) as (new & En & Hans). rewrite app_nil_r in En. subst new.
  destruct Hst as [Hst Hnd]. apply Forall_app in Hans as [Hans _]. rewrite Forall_forall in Hans.
  assert (forall ns s p s' k, EvEncKey ns s p (Val (s', k)) ∈ post -> s_jid s' = s_jid s /\ s_dev s' = s_dev s) as Hkeep.
  { intros ns s p s' k Hin. apply Hans in Hin as (c & r0 & (w0 & _ & Hp) & Ee).
    destruct c; try done. injection Ee as -> -> -> ->. by destruct (HP _ _ _ Hp) as [_ Hk]. }
  assert (forall ns j x s, EvLoadSession ns j x (Val (Some s)) ∈ post -> s_jid s = j /\ s_dev s = x) as Hload.
  { intros ns j x s Hin. apply Hans in Hin as (c & r0 & (w0 & _ & Hp) & Ee).
    destruct c; try done. injection Ee as -> -> -> ->. destruct (HP _ _ _ Hp) as [_ Hk]. simpl in Hk. symmetry in Hk.
    by apply last_session_key in Hk as (? & ? & _). }
  assert (forall en, en ∈ encs post -> s_jid (en_session en) = en_jid en /\ s_dev (en_session en) = en_dev en) as Hown.
  { intros en Hen. apply encs_split in Hen as (l1 & e & l2 & El' & Hen).
    assert (e ∈ post) as He by (rewrite El'; apply elem_of_app; right; left). destruct e; try done.
    - destruct r0 as [[s k]|]; [|done]. subst en. simpl. apply Hans in He as (c & r0 & (w0 & _ & Hp) & Ee).
      destruct c; try done. injection Ee as -> -> -> -> -> ->. by destruct (HP _ _ _ Hp) as [_ Hk].
    - destruct r0 as [[s' k]|]; [|done]. destruct Hen as (d & r1 & l3 & j & x & -> & ->). simpl.
      destruct (Ht _ _ _ El' eq_refl) as (d' & _ & Hh). injection Hh as -> -> -> ->.
      destruct (Hkeep _ _ _ _ _ He) as [-> ->]. eapply Hload. rewrite El'. apply elem_of_app. right. right. left. }
  split.
  - intros en L Hen. destruct (Hown en Hen) as [E1 E2].
    assert ((en_ns en, en_session en) ∈ stored post) as Hs by (rewrite Hst; apply elem_of_list_fmap; by exists en).
    destruct (stored_last post (dec ++ pre ++ L) _ _ H2 Hs) as (s'' & E & Hs'' & E3 & E4). rewrite Hst in Hs''.
    apply elem_of_list_fmap in Hs'' as (en' & [= En' ->] & Hen'). destruct (Hown en' Hen') as [E5 E6].
    rewrite <- !app_assoc, <- E1, <- E2, E. f_equal.
    apply elem_of_list_lookup in Hen as [i Hi]. apply elem_of_list_lookup in Hen' as [i' Hi'].
    assert (i = i') as <-; [|congruence]. eapply (NoDup_lookup (en_dkey <$> encs post) i i' (en_dkey en)); [done| |].
    + by rewrite list_lookup_fmap, Hi.
    + rewrite list_lookup_fmap, Hi'. simpl. f_equal. unfold en_dkey. f_equal; congruence.
  - intros ns s p s' k Hin. apply elem_of_list_split in Hin as (l1 & l2 & ->).
    destruct (Ht _ _ _ eq_refl eq_refl) as (d & _ & Hh). destruct l2 as [|e2 l2]; [done|]. injection Hh as ->.
    destruct (Hload ns (dv_jid d) (dv_id d) s) as [-> ->]; [apply elem_of_app; right; right; left|]. apply encs_mem. left.
Qed.
Lemma enc_advanced (P : world -> forall c, resp c -> Prop) cf mtd ident pt priority bare_jids w r w' :
  (forall w c r, P w c r -> distinct_backends w c r /\ sessions_kept w c r) ->
  exec (with_contract P) (encrypt cf mtd bare_jids pt priority ident) w (Val r) w' ->
  exists pre dec post, w_log w' = post ++ dec ++ pre ++ w_log w /\ Forall enc_pre pre /\ Forall enc_post post /\
    (forall en, en ∈ encs post -> last_session (w_log w') (en_ns en) (en_jid en) (en_dev en) = Some (en_session en)) /\
    forall ns s p s' k, EvEncKey ns s p (Val (s', k)) ∈ post -> Enc ns (s_jid s) (s_dev s) s' k ∈ encs post.
Proof.
  intros HP H. destruct (alone_exec _ _ _ _ _ H) as (evs & El & Hx).
  destruct (enc_advanced_alone _ _ _ _ _ _ _ _ _ HP Hx) as (pre & dec & post & -> & H1 & H2 & H3 & H4).
  exists pre, dec, post. split; [by rewrite El, <- !app_assoc|]. split; [done|]. split; [done|]. split; [|done].
  intros en Hen. rewrite El. by apply H3.
Qed.

(** ** Corollaries *)
Section cor.
  Context (P : world -> forall c, resp c -> Prop) (cf : cfg) (mtd : list device -> option string -> api unit) (ident : option string)
    (pt : list (string * bytes)) (priority : option (list string)) (bare_jids : list string).
  Notation enc := (encrypt cf mtd bare_jids pt priority ident).

  Lemma enc_trusted evs :
    (forall w c r, P w c r -> distinct_backends w c r) -> reach (alone P) enc [] evs ->
    exists pre dec post, evs = post ++ dec ++ pre /\ Forall enc_pre pre /\ asked P mtd ident pre dec post /\ Forall enc_post post /\
      traced (fun e before => crypto e = true -> exists d, enc_for e before d /\ last_eval d before = Some (Val Trusted)) post.
  Proof.
    intros HP H. destruct (enc_anytime P cf mtd ident pt priority bare_jids HP evs H) as (pre & dec & post & E & H1 & H2 & H3 & H4 & _).
    exists pre, dec, post. do 4 (split; [done|]). eapply traced_mono; [exact H4|]. intros e b Hc Hx.
    destruct (Hc Hx) as (_ & _ & d & A1 & A2 & _). by exists d.
  Qed.
  Lemma enc_requested evs :
    (forall w c r, P w c r -> distinct_backends w c r) -> reach (alone P) enc [] evs ->
    exists pre dec post, evs = post ++ dec ++ pre /\ Forall enc_pre pre /\ asked P mtd ident pre dec post /\ Forall enc_post post /\
      traced (fun e before => crypto e = true -> exists d ns, enc_for e before d /\ requested cf bare_jids d /\
        head (dv_namespaces d) = Some ns /\ forall l, priority = Some l -> ns ∈ l) post.
  Proof.
    intros HP H. destruct (enc_anytime P cf mtd ident pt priority bare_jids HP evs H) as (pre & dec & post & E & H1 & H2 & H3 & H4 & _).
    exists pre, dec, post. do 4 (split; [done|]). eapply traced_mono; [exact H4|]. intros e b Hc Hx.
    destruct (Hc Hx) as (_ & _ & d & A1 & _ & A3 & _). apply dev_requested in A3 as (A3 & ns & A4 & A5). by exists d, ns.
  Qed.
  Lemma enc_level w w' :
    (forall w c r, P w c r -> distinct_backends w c r) -> reach (with_contract P) enc w w' ->
    exists pre dec post, w_log w' = post ++ dec ++ pre ++ w_log w /\ Forall enc_pre pre /\ Forall enc_post post /\
      traced (fun e before => crypto e = true -> exists d, enc_for e before d /\ last_eval d before = Some (Val Trusted) /\
        level_in_force cf (w_disk w') (dv_jid d) (dv_ik d) (dv_trust d)) post.
  Proof.
    intros HP H. destruct (seq_trusted P HP cf mtd ident pt priority bare_jids w w' H) as (pre & dec & post & E & H1 & H2 & H4 & _).
    exists pre, dec, post. do 3 (split; [done|]). eapply traced_mono; [exact H4|]. intros e b Hc Hx.
    destruct (Hc Hx) as (d & A1 & A2 & _ & A3). by exists d.
  Qed.
  Lemma enc_once evs :
    (forall w c r, P w c r -> distinct_backends w c r) -> reach (alone P) enc [] evs ->
    exists pre dec post, evs = post ++ dec ++ pre /\ Forall enc_pre pre /\ asked P mtd ident pre dec post /\ Forall enc_post post /\
      ((exists d, first_eval d post = Some (Val Undecided)) -> all_evals post).
  Proof.
    intros HP H. destruct (enc_anytime P cf mtd ident pt priority bare_jids HP evs H) as (pre & dec & post & E & H1 & H2 & H3 & _ & H5).
    exists pre, dec, post. do 4 (split; [done|]). done.
  Qed.
  Lemma enc_before_store evs :
    (forall w c r, P w c r -> distinct_backends w c r) -> reach (alone P) enc [] evs ->
    exists pre dec post, evs = post ++ dec ++ pre /\ Forall enc_pre pre /\ asked P mtd ident pre dec post /\ Forall enc_post post /\
      traced (fun e before => crypto e = true -> Forall (fun e => is_store_session e = false) before) post.
  Proof.
    intros HP H. destruct (enc_anytime P cf mtd ident pt priority bare_jids HP evs H) as (pre & dec & post & E & H1 & H2 & H3 & H4 & _).
    exists pre, dec, post. do 4 (split; [done|]). eapply traced_mono; [exact H4|]. intros e b Hc Hx. by destruct (Hc Hx).
  Qed.
  Lemma enc_with evs :
    (forall w c r, P w c r -> distinct_backends w c r) -> reach (alone P) enc [] evs ->
    exists pre dec post, evs = post ++ dec ++ pre /\ Forall enc_pre pre /\ asked P mtd ident pre dec post /\ Forall enc_post post /\
      traced (fun e before => crypto e = true -> enc_material pt e before /\ exists d, enc_for e before d /\ enc_start e before d) post.
  Proof.
    intros HP H. destruct (enc_anytime P cf mtd ident pt priority bare_jids HP evs H) as (pre & dec & post & E & H1 & H2 & H3 & H4 & _).
    exists pre, dec, post. do 4 (split; [done|]). eapply traced_mono; [exact H4|]. intros e b Hc Hx.
    destruct (Hc Hx) as (_ & A0 & d & A1 & _ & _ & A2 & _). split; [done|]. by exists d.
  Qed.
  Lemma enc_key_used evs :
    (forall w c r, P w c r -> distinct_backends w c r /\ downloads_named w c r) -> reach (alone P) enc [] evs ->
    exists pre dec post, evs = post ++ dec ++ pre /\ Forall enc_pre pre /\ asked P mtd ident pre dec post /\ Forall enc_post post /\
      traced (fun e before => crypto e = true -> exists d, enc_for e before d /\ last_eval d before = Some (Val Trusted) /\ enc_bundle e before d) post.
  Proof.
    intros HP H. assert (forall w c r, P w c r -> distinct_backends w c r) as HP1 by (intros; by apply HP).
    destruct (enc_anytime P cf mtd ident pt priority bare_jids HP1 evs H) as (pre & dec & post & E & H1 & H2 & H3 & H4 & _).
    exists pre, dec, post. do 4 (split; [done|]). eapply traced_mono; [exact H4|]. intros e b Hc Hx.
    destruct (Hc Hx) as (_ & _ & d & A1 & A2 & _ & _ & A3). exists d. split; [done|]. split; [done|]. apply A3. intros; by apply HP.
  Qed.
End cor.
Lemma encs_app en l1 l2 : en ∈ encs l1 -> en ∈ encs (l1 ++ l2).
Proof.
  induction l1 as [|x l1 IH]; [by intros ?%elem_of_nil|]. cbn [app]. intros H.
  destruct x; cbn [encs] in *; auto.
  - destruct r as [[? ?]|]; [|auto]. apply elem_of_cons in H as [->|H]; [left|right; auto].
  - destruct r as [[? ?]|]; [|auto]. destruct l1 as [|e0 l1]; [by apply elem_of_nil in H|]. cbn [app].
    destruct e0; auto. apply elem_of_cons in H as [->|H]; [left|right; auto].
Qed.
Lemma enc_kex (P : world -> forall c, resp c -> Prop) cf mtd ident pt priority bare_jids L :
  NoDup L -> (forall w c r, P w c r -> fixed_backends L w c r) -> forall msgs errs evs m k x,
  exec (alone P) (encrypt cf mtd bare_jids pt priority ident) [] (Val (msgs, errs)) evs ->
  m ∈ msgs -> (k, x) ∈ m_keys m.1 ->
  exists en, en ∈ encs evs /\ en_ns en = m_ns m.1 /\ en_key en = k /\ x = kex_due (en_session en).
Proof.
  intros HL HP msgs errs evs m k x H Hm Hk.
  destruct (enc_served P cf mtd ident pt priority bare_jids L HL HP msgs errs evs H) as (pre & dec & post & -> & _ & _ & _ & ds & _ & _ & _ & _ & Hf & _).
  assert ((m_ns m.1, (k, x)) ∈ en_keyns <$> encs post) as Hin.
  { rewrite <- Hf. apply elem_of_list_In, in_flat_map. exists m. split; [by apply elem_of_list_In|].
    apply elem_of_list_In, elem_of_list_fmap. by exists (k, x). }
  apply elem_of_list_fmap in Hin as (en & [= -> -> ->] & Hen). exists en. split; [by apply encs_app|]. done.
Qed.
Lemma empty_advanced (P : world -> forall c, resp c -> Prop) cf ns s w w' :
  (forall w c r, P w c r -> sessions_kept w c r) ->
  exec (with_contract P) (send_empty_message cf ns s) w (Val tt) w' ->
  exists c p s' e, w_log w' = [EvStoreSession ns s' (Val tt);
        EvSend (Message ns (c_jid cf) (c_dev cf) c [(e, kex_due s')]) (s_jid s') (Val tt);
        EvEncKey ns s p (Val (s', e)); EvEncEmpty ns (Val (c, p))] ++ w_log w /\
    last_session (w_log w') ns (s_jid s) (s_dev s) = Some s'.
Proof.
  intros HP H. destruct (alone_exec _ _ _ _ _ H) as (evs & El & Hx).
  destruct (alone_answers _ _ _ _ _ Hx) as (new & En & Hans). rewrite app_nil_r in En. subst new.
  destruct (empty_exec _ _ _ _ _ _ Hx) as (c & p & s' & e & ->). rewrite app_nil_r in *.
  exists c, p, s', e. split; [done|]. rewrite El. cbn [app last_session].
  do 2 (apply Forall_cons in Hans as [_ Hans]). apply Forall_cons in Hans as [(c0 & r0 & (w0 & _ & Hp) & Ee) _].
  destruct c0; try done. injection Ee as -> -> -> ->. apply HP in Hp as [E1 E2]. rewrite bool_decide_eq_true_2; done.
Qed.
