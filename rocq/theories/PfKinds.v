(** Proofs for C72. *)
From Verif Require Import Api Spec StorageImpl Typed PfStrs PfStorage PfTyped PfFrame.
Open Scope prog_scope.
Open Scope list_scope.

Section lower.
  Context (L Wr : string -> option json -> Prop) (NS : string -> Prop).
  Hypothesis HWL : forall k v, Wr k (Some v) -> L k (Some v).
  Hypothesis HNone : forall k, L k None.
  Notation E0 := (E L NS False).
  Notation F0 := (F Wr NS False).

  Definition rE (c : rcmd) : rresp c -> Prop :=
    match c return rresp c -> Prop with
    | RLoad k => fun r => E0 (SLoad k) r
    | RStore k v => fun r => E0 (SStore k v) r
    | RDelete k => fun r => E0 (SDelete k) r
    | RCacheGet k => fun r => match r with Some m => L k m | None => True end
    | RCachePut _ _ => fun _ => True
    | ROther c => fun r => E0 c r
    end.
  Definition rF (c : rcmd) : Prop :=
    match c with
    | RLoad k => True
    | RStore k v => F0 (SStore k v)
    | RDelete k => F0 (SDelete k)
    | RCacheGet k => True
    | RCachePut k m => L k m
    | ROther c => F0 c
    end.

  Lemma load_answer k m : exists w, w_allowed w (SLoad k) (Val m).
  Proof.
    exists (World (match m with Some v => {[k := v]} | None => ∅ end) [] false []).
    simpl. destruct m; [by rewrite lookup_singleton|by rewrite lookup_empty].
  Qed.

  Lemma obeys_lower {A} (p : api A) Q : obeys E0 F0 Q p -> obeys rE rF Q (lower p).
  Proof using All.
    induction p as [a|e|c k IH]; [done..|].
    intros [HF Hk].
    assert (forall r, E0 c r -> obeys rE rF Q (lower (k r))) as Hn by auto. clear IH Hk.
    destruct c; cbn [lower]; try (split; [exact HF|exact Hn]).
    - apply obeys_bind, obeys_try. unfold st_load. apply obeys_bind. split; [done|].
      intros [m|] Hc; cbn [obeys].
      { apply Hn. split; [apply load_answer|exact Hc]. }
      apply obeys_bind. split; [done|]. intros [m|e] Hm; cbn [of_outcome obeys].
      + apply obeys_bind. split; [apply Hm|]. intros [] _. cbn [obeys]. apply Hn. exact Hm.
      + apply Hn. exact Hm.
    - apply obeys_bind, obeys_try. unfold st_store. apply obeys_bind. split; [exact HF|].
      intros [[]|e] Hm; cbn [of_outcome obeys].
      + split; [by apply HWL|]. intros [] _. apply Hn. exact Hm.
      + apply Hn. exact Hm.
    - apply obeys_bind, obeys_try. unfold st_delete. apply obeys_bind. split; [exact HF|].
      intros [[]|e] Hm; cbn [of_outcome obeys].
      + split; [by apply HNone|]. intros [] _. apply Hn. exact Hm.
      + apply Hn. exact Hm.
  Qed.
End lower.

Section typed.
  Context (P : world -> forall c, resp c -> Prop) (nss : list string).
  Hypothesis HP : forall w c r, P w c r -> sessions_own w c r.
  Hypothesis Hsep : ns_separated nss.

  Definition L_t (k : string) (m : option json) : Prop :=
    forall i v, item_in nss i -> item_key i = k -> m = Some v -> item_type i v.
  Let NS (n : string) : Prop := n ∈ nss.

  Lemma item_in_ns i : item_ns NS i <-> item_in nss i.
  Proof. by destruct i. Qed.
  Lemma typedL_t : typedL L_t NS.
  Proof. intros i v Hi H. apply (H i v); [by apply item_in_ns|done|done]. Qed.

  Lemma L_t_at i v : item_in nss i -> item_type i v -> L_t (item_key i) (Some v).
  Proof using Hsep.
    intros Hi Hv j v' Hj Hk [= <-]. apply (item_key_inj nss) in Hk; [|done|done|done]. by subst.
  Qed.
  Lemma t_none k : L_t k None.
  Proof. by intros i v _ _ ?. Qed.

  Lemma is_strs l : is_list is_str (j_strs l) l.
  Proof. constructor. apply Forall2_fmap_l, Forall_Forall2_diag, Forall_forall. intros. constructor. Qed.
  Lemma is_ints l : is_list is_int (j_ints l) l.
  Proof. constructor. apply Forall2_fmap_l, Forall_Forall2_diag, Forall_forall. intros. constructor. Qed.
  Lemma is_bools l : is_dict is_bool (j_bools l) l.
  Proof.
    constructor. apply Forall2_fmap_l, Forall_Forall2_diag, Forall_forall. intros [] _. split; [done|]. constructor.
  Qed.
  Lemma is_optstr o : is_opt is_str (j_opt o) o.
  Proof. destruct o; constructor; [done|]. constructor. Qed.

  Lemma t_ns j d l : L_t (k_ns j d) (Some (j_strs l)).
  Proof using Hsep. apply (L_t_at (INamespaces j d)); [done|]. exists l. apply is_strs. Qed.
  Lemma t_active j d l : L_t (k_active j d) (Some (j_bools l)).
  Proof using Hsep. apply (L_t_at (IActive j d)); [done|]. exists l. apply is_bools. Qed.
  Lemma t_label j d l : L_t (k_label j d) (Some (j_opt l)).
  Proof using Hsep. apply (L_t_at (ILabel j d)); [done|]. exists l. apply is_optstr. Qed.
  Lemma t_list j l : L_t (k_list j) (Some (j_ints l)).
  Proof using Hsep. apply (L_t_at (IDeviceList j)); [done|]. exists l. apply is_ints. Qed.
  Lemma t_ik j d b : L_t (k_ik j d) (Some (JStr (b64enc b))).
  Proof using Hsep.
    apply (L_t_at (IIdentityKey j d)); [done|]. exists (b64enc b), b. split; [done|]. apply b64_roundtrip.
  Qed.
  Lemma t_trust j ik s : L_t (k_trust j ik) (Some (JStr s)).
  Proof using Hsep. apply (L_t_at (ITrust j ik)); [done|]. exists s. constructor. Qed.
  Lemma t_queue : wr_queue L_t NS.
  Proof using Hsep.
    intros n Hn. repeat split; intros; try apply t_none.
    - apply (L_t_at (IQueue n)); [done|]. eexists. apply is_strs.
    - apply (L_t_at (IQueueDevices n j)); [done|]. eexists. apply is_ints.
  Qed.

  Lemma typed_calls c : backends_in nss c -> call_wr L_t L_t NS c.
  Proof using Hsep.
    intros Hb.
    assert (forall j, wr_dev L_t L_t j) as Hd by (intros; repeat split; intros; auto using t_ns, t_active, t_label, t_list).
    assert (forall j, wr_info L_t L_t j) as Hi by (intros; repeat split; intros; auto using t_ns, t_ik).
    pose proof t_queue as Hq.
    assert (wr_ikp L_t L_t) as Hk.
    { intros _. split; [apply (L_t_at IKeyPairIsSeed); [done|]; eexists; constructor|].
      intros b. apply (L_t_at IKeyPairKey); [done|]. exists (b64enc b), b. split; [done|]. apply b64_roundtrip. }
    destruct c; cbn [call_wr]; auto using t_trust, t_label.
    - split; [done|]. split; [exact Hb|]. split; [done|]. split; [done|]. intros _ k _.
      repeat split; intros; auto using t_ik, t_trust, t_list. apply (L_t_at IOwnDeviceId); [done|]. eexists. constructor.
    - split; [done|]. split; intros; auto using t_ns, t_active.
    - repeat split; intros; apply t_none.
  Qed.

  Lemma typed_lookup d : typed nss d <-> forall k, L_t k (d !! k).
  Proof.
    split.
    - intros H k' i v Hi <- Hv. by eapply H.
    - intros H i v Hi Hv. by eapply (H (item_key i)).
  Qed.
  Lemma typed_insert d k v : typed nss d -> L_t k (Some v) -> typed nss (<[k := v]> d).
  Proof.
    intros Hd Hv i v' Hi Hl. destruct (decide (k = item_key i)) as [->|Hne].
    - rewrite lookup_insert in Hl. injection Hl as ->. by eapply Hv.
    - rewrite lookup_insert_ne in Hl by done. by eapply Hd.
  Qed.
  Lemma typed_delete d k : typed nss d -> typed nss (delete k d).
  Proof. intros Hd i v' Hi Hl. apply lookup_delete_Some in Hl as [_ Hl]. by eapply Hd. Qed.

  Lemma typed_effect w c r :
    typed nss (w_disk w) /\ Forall (.∈ nss) (w_loaded w) -> F L_t NS False c -> 
    typed nss (w_disk (w_apply w c r)) /\ Forall (.∈ nss) (w_loaded (w_apply w c r)).
  Proof.
    intros [Hw Hl] HF. destruct c; simpl in *; try done; destruct r; simpl; try done;
      (split; [|first [done|by destruct HF]]); auto using typed_insert, typed_delete.
  Qed.

  Lemma typed_E w c r :
    typed nss (w_disk w) -> Forall (.∈ nss) (w_loaded w) -> w_allowed w c r -> P w c r -> E L_t NS False c r.
  Proof using HP.
    intros Hw Hl Hr HPr%HP. split; [by exists w|]. destruct c; try done; simpl in *.
    - destruct r as [m|]; [|done]. intros i v Hi <- Hv. subst m. by eapply Hw.
    - by subst.
    - destruct r as [[]|]; [|done]. simpl. by rewrite HPr.
    - destruct r as [[]|]; [|done]. simpl. by rewrite HPr.
  Qed.
  Lemma typed_rstep w c r :
    typed_state nss w -> rF L_t L_t NS c -> Prog.allowed (rsem P) w c r ->
    rE L_t NS c r /\ typed_state nss (r_apply w c r).
  Proof using HP.
    intros (Hd & Hc & Hl) HF Hr.
    assert (forall c r, F L_t NS False c ->
      typed_state nss (RWorld (w_apply (r_world w) c r) (r_cache w))) as Hst.
    { intros c0 r0 HF0. destruct (typed_effect (r_world w) c0 r0 ltac:(done) HF0). done. }
    destruct c as [k|k v|k|k|k v|c]; simpl in Hr; cbn [rE r_apply].
    - split; [|by apply Hst]. split; [by exists (r_world w)|]. destruct r as [m|e]; [|done].
      simpl in Hr. subst m. intros i v Hi <- Hv. by eapply Hd.
    - split; [|by apply Hst]. split; [by exists (r_world w)|done].
    - split; [|by apply Hst]. split; [by exists (r_world w)|done].
    - split; [|done]. subst r. destruct (r_cache w) as [m|] eqn:Em; simpl; [|done].
      destruct (m !! k) as [o|] eqn:Ek; [|done]. intros i v Hi <- ->. by eapply Hc.
    - split; [done|]. split; [done|]. split; [|done]. simpl. intros c i v' Hcc Hi Hv.
      destruct (r_cache w) as [m|] eqn:Em; simpl in Hcc; [|done]. injection Hcc as <-.
      destruct (decide (k = item_key i)) as [->|Hne].
      + rewrite lookup_insert in Hv. injection Hv as ->. by eapply HF.
      + rewrite lookup_insert_ne in Hv by done. by eapply Hc.
    - destruct Hr as [Hr HPr]. split; [|by apply Hst]. by eapply typed_E.
  Qed.

  Lemma typed_app {A} (p : api A) : appcode (backends_in nss) p -> psafe (rsem P) (typed_state nss) (lower p).
  Proof using All.
    intros Hp. eapply obeys_psafe; [exact typed_rstep|]. apply obeys_lower; [done|apply t_none|].
    eapply (app_obeys L_t L_t NS False False); [tauto| |exact Hp]. apply typed_calls.
  Qed.

  Lemma typed_pool (ps : list (api unit)) w ps' w' :
    typed_state nss w -> Forall (fun p => appcode (backends_in nss) p) ps ->
    preach (rsem P) (map lower ps, w) (ps', w') -> typed_state nss w'.
  Proof using All.
    intros Hw Hps H. eapply (psafe_preach (rsem P) (typed_state nss)) in H; [by destruct H|exact Hw|].
    apply Forall_fmap. eapply Forall_impl; [exact Hps|]. intros p. apply typed_app.
  Qed.
  Lemma typed_rhist w w' : typed_state nss w -> rhist P nss w w' -> typed_state nss w'.
  Proof using All.
    intros Hw H. induction H as [|w w1 w' (ps & [ps' w0] & Hps & Hr & Hd & Hc & Hl) _ IH]; [done|]. apply IH.
    eapply typed_pool in Hr; [|done|done]. destruct Hr as (Hr & _ & _). split; [by rewrite Hd|]. split; [|done].
    intros c i v Hcc Hi Hv. destruct Hc as [Hc|Hc]; rewrite Hc in Hcc; [done|]. injection Hcc as <-.
    by rewrite lookup_empty in Hv.
  Qed.

  Definition fine {A} (o : outcome A) : Prop := o <> Exn ETypeError /\ o <> Exn EBinascii.
  Lemma typed_call c :
    backends_in nss c -> calm (backends_in nss) c -> obeys (E L_t NS False) (F L_t NS False) fine (run_call c).
  Proof using Hsep.
    intros Hb Hc. eapply obeys_conseq; [apply (f_call L_t L_t NS True False c)|].
    - by apply typed_calls.
    - intros cf mtd jids pt prio ident ->. destruct Hc as (m & Hm & He). intros ds i. rewrite He. unfold no_type_error.
      apply obeys_bind, obeys_try. eapply obeys_conseq.
      { eapply (app_obeys L_t L_t NS False False); [tauto|apply typed_calls|apply Hm]. }
      intros [a|e] _; cbn beta iota; [done|]. destruct (decide _) as [Hd|Hd]; simpl.
      + by intros [|].
      + intros ?. by destruct Hd.
    - intros [a|e] Ho; simpl in Ho; split; [done|done|..]; intros [= ->]; apply Ho; auto using typedL_t.
  Qed.

  Lemma typed_no_error {A} (p : api A) (c : outcome A -> call) (ps : list (api unit)) i w ps' w' e :
    typed_state nss w -> Forall (fun p => appcode (backends_in nss) p) ps ->
    appcode (backends_in nss) p -> (forall r, backends_in nss (c r) /\ calm (backends_in nss) (c r)) ->
    preach (rsem P) (map lower (<[i := r <- try_ p ;; run_call (c r) ;;; Ret tt]> ps), w) (ps', w') ->
    (i < length ps)%nat -> ps' !! i = Some (Raise e) -> e <> ETypeError /\ e <> EBinascii.
  Proof using All.
    intros Hw Hps Hp Hc H Hi He. set (q := r <- try_ p ;; _) in *.
    assert (psafeq (rsem P) (typed_state nss) fine (lower q)) as Hq.
    { eapply obeys_psafeq; [exact typed_rstep|]. apply obeys_lower; [done|apply t_none|].
      apply obeys_bind, obeys_try. eapply obeys_conseq.
      { eapply (app_obeys L_t L_t NS False False); [tauto|apply typed_calls|exact Hp]. }
      intros r _. cbn beta iota. apply obeys_bind. destruct (Hc r). eapply obeys_conseq; [by apply typed_call|].
      intros [a|e'] Ho; cbn beta iota; [by split|]. destruct Ho. split; intros [= ->]; done. }
    destruct (psafeq_preach (rsem P) (typed_state nss) fine (map lower (<[i := q]> ps)) w i (lower q) ps' w')
      as (p' & Hp' & Hs & _).
    - done.
    - change ((lower <$> <[i := q]> ps) !! i = Some (lower q)). rewrite list_lookup_fmap, list_lookup_insert by done. done.
    - done.
    - apply Forall_fmap. apply Forall_insert.
      + eapply Forall_impl; [exact Hps|]. intros p0. apply typed_app.
      + simpl. by eapply psafeq_psafe.
    - done.
    - rewrite He in Hp'. injection Hp' as <-. destruct Hs as [H1 H2]. split; intros ->; done.
  Qed.
End typed.
