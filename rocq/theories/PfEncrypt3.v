(** encrypt seen on its own: normal forms of its calls. *)
From Verif Require Import Api Spec Alone PfWp PfFrame PfHist PfEmits PfInfo PfExec PfLog PfAlone PfEncrypt PfEncrypt2.
Open Scope prog_scope.
Open Scope list_scope.

(** ** Evaluations in a log *)
Lemma last_eval_app d l1 l2 : last_eval d (l1 ++ l2) = match last_eval d l1 with Some r => Some r | None => last_eval d l2 end.
Proof. induction l1 as [|e l1 IH]; [done|]. destruct e; simpl; try done. by destruct (decide _). Qed.
Lemma last_eval_elem d l r : last_eval d l = Some r -> EvEval d r ∈ l.
Proof.
  induction l as [|e l IH]; [done|]. destruct e; simpl; try (intros; right; auto; fail).
  destruct (decide (d0 = d)) as [->|]; [intros [= ->]; left|]. intros. right. auto.
Qed.
Lemma last_eval_unique d l r : EvEval d r ∈ l -> (forall r', EvEval d r' ∈ l -> r' = r) -> last_eval d l = Some r.
Proof.
  induction l as [|e l IH]; intros H Hu; [by apply elem_of_nil in H|].
  destruct e; simpl; try (apply IH; [by apply elem_of_cons in H as [H|H]|intros; apply Hu; by right]; fail).
  destruct (decide (d0 = d)) as [->|Hne].
  - f_equal. apply Hu. left.
  - apply IH; [|intros; apply Hu; by right]. apply elem_of_cons in H as [H|H]; [congruence|done].
Qed.
Lemma last_eval_none d l : (forall r, EvEval d r ∉ l) -> last_eval d l = None.
Proof. intros H. destruct (last_eval d l) as [r|] eqn:E; [|done]. apply last_eval_elem in E. by apply H in E. Qed.
Lemma last_eval_noev d l : Forall (fun e => is_eval e = false) l -> last_eval d l = None.
Proof. intros H. apply last_eval_none. intros r Hin. rewrite Forall_forall in H. by apply H in Hin. Qed.
Lemma elem_evals d r ts : EvEval d r ∈ evals ts <-> exists t, r = Val t /\ (d, t) ∈ ts.
Proof.
  unfold evals. split.
  - intros H. rewrite <- (Permutation_rev) in H. apply elem_of_list_fmap in H as ([d' t] & [= -> ->] & H). eauto.
  - intros (t & -> & H). rewrite <- Permutation_rev. apply elem_of_list_fmap. by exists (d, t).
Qed.
Lemma pairs_fun {A B} (ts : list (A * B)) a b b' : NoDup ts.*1 -> (a, b) ∈ ts -> (a, b') ∈ ts -> b' = b.
Proof.
  induction ts as [|[x y] ts IH]; intros Hnd H1 H2; [by apply elem_of_nil in H1|]. rewrite fmap_cons in Hnd. apply NoDup_cons in Hnd as [Hx Hnd].
  apply elem_of_cons in H1 as [H1|H1]; apply elem_of_cons in H2 as [H2|H2]; simplify_eq; try done; [| |by apply IH].
  - exfalso. apply Hx. apply elem_of_list_fmap. by exists (x, b').
  - exfalso. apply Hx. apply elem_of_list_fmap. by exists (x, b).
Qed.
Lemma evals_last ts d t : NoDup ts.*1 -> (d, t) ∈ ts -> last_eval d (evals ts) = Some (Val t).
Proof.
  intros Hnd H. apply last_eval_unique; [apply elem_evals; eauto|]. intros r' (t' & -> & H')%elem_evals. by rewrite (pairs_fun ts d t t').
Qed.
Lemma evals_first ts d t l : NoDup ts.*1 -> (d, t) ∈ ts -> first_eval d (l ++ evals ts) = Some (Val t).
Proof.
  intros Hnd H. unfold first_eval. rewrite rev_app_distr, last_eval_app.
  rewrite (last_eval_unique d (rev (evals ts)) (Val t)); [done| |].
  - rewrite <- Permutation_rev. apply elem_evals. eauto.
  - intros r'. rewrite <- Permutation_rev. intros (t' & -> & H')%elem_evals. by rewrite (pairs_fun ts d t t').
Qed.
Lemma dkey_nodup devs : NoDup (dkey <$> devs) -> NoDup devs.
Proof. apply NoDup_fmap_1. Qed.

Section round.
  Context (devs : list device) (Hnd : NoDup devs).
  Lemma round_ts t evs r : round devs t evs r -> exists ts, NoDup ts.*1 /\ ts.*1 ≡ₚ devs /\ evs = evals ts /\ r = (filter (fun x => x.2 = t) ts).*1.
  Proof. intros (ts & H1 & H2 & H3). exists ts. split; [by rewrite H1|done]. Qed.
  Lemma round_nodup t evs r : round devs t evs r -> NoDup r.
  Proof.
    intros (ts & H1 & H2 & H3 & ->)%round_ts. eapply sublist_nodup; [exact H1|]. apply fmap_sublist, filter_sublist.
  Qed.
  Lemma round_sub t evs r : round devs t evs r -> r ⊆ devs.
  Proof.
    intros (ts & H1 & H2 & H3 & ->)%round_ts d (x & -> & [_ Hx]%elem_of_list_filter)%elem_of_list_fmap. rewrite <- H2.
    apply elem_of_list_fmap. eauto.
  Qed.
  Lemma round_elem t evs r d : round devs t evs r -> d ∈ r <-> EvEval d (Val t) ∈ evs.
  Proof.
    intros (ts & H1 & H2 & -> & ->)%round_ts. rewrite elem_evals. split.
    - intros ([d' t'] & -> & [E Hx]%elem_of_list_filter)%elem_of_list_fmap. simpl in *. subst. eauto.
    - intros (t' & [= <-] & H). apply elem_of_list_fmap. exists (d, t). split; [done|]. apply elem_of_list_filter. done.
  Qed.
  Lemma round_first t evs r d l : round devs t evs r -> d ∈ devs -> exists t', first_eval d (l ++ evs) = Some (Val t') /\ EvEval d (Val t') ∈ evs.
  Proof.
    intros (ts & H1 & H2 & -> & ->)%round_ts Hd. rewrite <- H2 in Hd. apply elem_of_list_fmap in Hd as ([d' t'] & -> & Hd).
    exists t'. split; [by apply evals_first|]. apply elem_evals. eauto.
  Qed.
  Lemma round_last t evs r d : round devs t evs r -> last_eval d evs = Some (Val t) <-> d ∈ r.
  Proof.
    intros Hr. rewrite (round_elem _ _ _ _ Hr). destruct (round_ts _ _ _ Hr) as (ts & H1 & H2 & -> & _). split.
    - apply last_eval_elem.
    - intros (t' & [= <-] & H)%elem_evals. by apply evals_last.
  Qed.
  Lemma round_evaluated t evs r d r' : round devs t evs r -> EvEval d r' ∈ evs -> d ∈ devs.
  Proof.
    intros (ts & H1 & H2 & -> & _)%round_ts (t' & -> & H)%elem_evals. rewrite <- H2. apply elem_of_list_fmap. by exists (d, t').
  Qed.
  (** after a round without UNDECIDED and a round selecting the trusted ones *)
  Lemma rounds_undecided e2 e3 ds p3 d : round devs Undecided e2 [] -> round devs Trusted e3 ds ->
    (forall r, EvEval d r ∉ p3) -> first_eval d (p3 ++ e3 ++ e2) <> Some (Val Undecided).
  Proof.
    intros H2 H3 Hp H. destruct (decide (d ∈ devs)) as [Hd|Hd].
    - destruct (round_first _ _ _ d (p3 ++ e3) H2 Hd) as (t' & E & Hin). rewrite <- app_assoc in E. rewrite E in H. injection H as ->.
      apply (round_elem _ _ _ _ H2) in Hin. by apply elem_of_nil in Hin.
    - unfold first_eval in H. apply last_eval_elem in H. rewrite <- Permutation_rev in H.
      apply elem_of_app in H as [H|[H|H]%elem_of_app]; [by apply Hp in H| |]; apply Hd; (eapply round_evaluated; [|exact H]; eassumption).
  Qed.
  Lemma rounds_trusted e2 e3 ds p3 d : round devs Undecided e2 [] -> round devs Trusted e3 ds ->
    Forall (fun e => is_eval e = false) p3 -> last_eval d (p3 ++ e3 ++ e2) = Some (Val Trusted) <-> d ∈ ds.
  Proof.
    intros H2 H3 Hp. rewrite last_eval_app, last_eval_noev by done. rewrite last_eval_app.
    destruct (last_eval d e3) as [r|] eqn:E; [rewrite <- E; by apply round_last|]. rewrite <- (round_last _ _ _ d H3), E.
    destruct (decide (d ∈ devs)) as [Hd|Hd].
    - exfalso. destruct (round_ts _ _ _ H3) as (ts & A1 & A2 & -> & _). rewrite <- A2 in Hd. apply elem_of_list_fmap in Hd as ([d' t] & -> & Hd).
      pose proof (evals_last ts d' t A1 Hd) as E'. simpl in E. congruence.
    - rewrite last_eval_none; [done|]. intros r H. apply Hd. eapply round_evaluated; [|exact H]; eassumption.
  Qed.
End round.

Lemma exec_alone_grow P {A} (p : api A) l o l' : exec (alone P) p l o l' -> exists evs, l' = evs ++ l.
Proof.
  revert l. induction p as [a|e|c k IH]; intros l H; simpl in H.
  - destruct H as [_ ->]. by exists [].
  - destruct H as [_ ->]. by exists [].
  - destruct H as (r & _ & H). apply IH in H as (evs & ->). simpl. destruct (event_of c r) as [e|]; [|by exists evs].
    exists (evs ++ [e]). by rewrite <- app_assoc.
Qed.
Lemma reach_alone_grow P {A} (p : api A) l l' : reach (alone P) p l l' -> exists evs, l' = evs ++ l.
Proof.
  revert l. induction p as [a|e|c k IH]; intros l H; simpl in H.
  - destruct H as [->|[]]. by exists [].
  - destruct H as [->|[]]. by exists [].
  - destruct H as [->|(r & _ & H)]; [by exists []|]. apply IH in H as (evs & ->). simpl. destruct (event_of c r) as [e|]; [|by exists evs].
    exists (evs ++ [e]). by rewrite <- app_assoc.
Qed.

Section al.
  Context (P : world -> forall c, resp c -> Prop) (cf : cfg).
  Context (okx : exn -> Prop) (Hx : forall c r e, answer P c r -> resp_exn c r = Some e -> okx e \/ no_bundle c e)
    (Hint : okx EKeyError /\ okx ETypeError /\ okx ENothing /\ okx EBinascii /\ okx EUnknownNamespace).
  Definition Hint' : okx EKeyError /\ okx ETypeError /\ okx ENothing /\ okx EBinascii.
  Proof. tauto. Qed.
  Context (Hnd : forall l, answer P GLoaded l -> NoDup l).
  Context (mtd : list device -> option string -> api unit) (ident : option string) (pt : list (string * bytes))
    (priority : option (list string)) (bare_jids : list string).
  Definition all_jids : list string := set_union (pyset bare_jids) [c_jid cf].
  Notation jids := all_jids.
  Definition lva (_ : unit) (_ : string) (_ : bytes) (_ : string) : Prop := True.
  Definition sel_alone (js : list string) (_ : list event) (tmp : list (list device * list bundle)) (_ : list event) : Prop :=
    Forall2 (shape P) js tmp.
  Notation e_at := (encrypt_at (alone P) (fun l => l) (fun _ => tt) P cf lva mtd ident pt jids pre_info sel_alone priority).
  Notation e_end := (encrypt_end (alone P) (fun l => l) (fun _ => tt) P cf okx lva mtd ident pt jids pre_info sel_alone priority).

  Lemma encrypt_alone l : wp (alone P) (e_at l) (encrypt cf mtd bare_jids pt priority ident) (e_end l) l.
  Proof.
    apply (encrypt_wp (alone P) (fun l => l) (fun _ => tt) P (alone_logged P) cf okx Hx Hint' Hnd lva); try done.
    - intros s j ik r _. by destruct r as [[[]|]|].
    - intros js I s HI.
      eapply wp_mono; [apply (wp_and _ I (fun _ => True)); [|apply (infos_shape _ _ _ _ (alone_logged P) cf okx Hx Hint' js s)]| |].
      + eapply (gwp_em (alone P) (fun l => l) (fun _ => tt) P (alone_logged P) I pre_info (fun _ => True) _ s
          (fun o s' => exists evs, s' = evs ++ s /\ Forall pre_info evs)); [apply em_infos| |].
        * intros s' evs. apply HI.
        * intros o s' evs H1 H2 _. eauto.
      + by intros s' [H _].
      + intros o s' [(evs & H1 & H2) H3]. split; [eauto|]. by destruct o.
    - intros l0 av _ _ _. apply Hint.
  Qed.

  Lemma NoDup_jids : NoDup jids.
  Proof.
    unfold all_jids, set_union. apply NoDup_app. split; [apply NoDup_remove_dups|]. split.
    - intros x H1 [H2 _]%elem_of_list_filter. done.
    - apply NoDup_filter, NoDup_singleton.
  Qed.
  Lemma elem_jids j : j ∈ jids <-> j ∈ bare_jids \/ j = c_jid cf.
  Proof.
    clear Hx Hint Hnd. unfold all_jids, set_union, set_diff. rewrite elem_of_app, elem_of_list_filter, elem_of_list_singleton.
    unfold pyset. rewrite elem_of_remove_dups. split; [tauto|]. intros [H|H]; [by left|]. destruct (decide (j ∈ bare_jids)); [by left|by right].
  Qed.

  Definition dev_ok (d : device) : Prop :=
    dv_jid d ∈ jids /\ ~ is_own cf d /\ exists ns prio, head (dv_namespaces d) = Some ns /\ ns ∈ prio /\ prio_ok P priority prio.
  Definition cache_ok (devs : list device) (cache : list bundle) : Prop :=
    (forall w c r, P w c r -> downloads_named w c r) ->
    forall b d, b ∈ cache -> d ∈ devs -> b_jid b = dv_jid d -> b_dev b = dv_id d -> b_ik b = dv_ik d.
  Definition loop_part (pre post : list event) (mid : list device -> list bundle -> list event -> Prop) : Prop :=
    exists devs' ds cache e2 e3 p3, cache_ok devs' cache /\ (forall k, evaluated pre k -> k ∈ dkey <$> devs') /\ NoDup (dkey <$> devs') /\ Forall dev_ok devs' /\ round devs' Undecided e2 [] /\ round devs' Trusted e3 ds /\
      post = p3 ++ e3 ++ e2 /\ mid ds cache p3.

  Lemma chosen_ok s0 devs cache :
    chosen (alone P) (fun l => l) (fun _ => tt) P cf jids pre_info sel_alone priority [] s0 devs cache ->
    Forall pre_info s0 /\ cache_ok devs cache /\ NoDup (dkey <$> devs) /\ Forall dev_ok devs.
  Proof.
    intros (evs & js & prio & tmp & E & HF & Hjs & (s' & _ & Hsh) & [Hprio _] & Hs & ->). rewrite app_nil_r in E. subst s0.
    assert (NoDup js) as Hn by (rewrite Hjs; apply NoDup_jids).
    destruct (selected_spec cf P js prio tmp devs Hsh Hn Hs) as (H1 & H2 & _). split; [done|]. split.
    { intros HN b d Hb Hd E1 E2. destruct (H2 d Hd) as (_ & d0 & ns & Hd0 & _ & _ & ->). by apply (cached_key P js tmp b d0). }
    split; [done|].
    apply Forall_forall. intros d Hd. destruct (H2 d Hd) as (Hj & d0 & ns & _ & Ho & Hf & ->). split; [by rewrite <- Hjs|]. split; [done|].
    exists ns, prio. split; [done|]. split; [|done]. destruct Hf as (_ & l1 & l2 & -> & _). apply elem_of_app. right. left.
  Qed.
  Lemma updated_ok und s2 devs devs' cache : updated (fun _ : list event => tt) lva und s2 devs devs' ->
    cache_ok devs cache -> NoDup (dkey <$> devs) -> Forall dev_ok devs -> cache_ok devs' cache /\ dkey <$> devs' ≡ₚ dkey <$> devs /\ NoDup (dkey <$> devs') /\ Forall dev_ok devs'.
  Proof.
    intros [[-> ->]|(_ & l & Hl & HF)]; [done|]. intros HC H1 H2. split.
    { intros HN b d Hb Hd E1 E2. apply elem_of_list_lookup in Hd as [i Hi]. destruct (Forall2_lookup_r _ _ _ _ _ HF Hi) as (d0 & Hi0 & lvl & -> & _).
      apply (HC HN b d0); try done. rewrite <- Hl. by eapply elem_of_list_lookup_2. }
    clear HC. rewrite <- Hl in H1, H2. rewrite <- Hl. clear Hl.
    assert (dkey <$> devs' = dkey <$> l) as Ek.
    { clear -HF. induction HF as [|x y l k (lvl & -> & _) _ IH]; [done|]. rewrite !fmap_cons, IH. done. }
    split; [by rewrite Ek|]. split; [by rewrite Ek|]. clear -HF H2. induction HF as [|x y l k (lvl & -> & _) _ IH]; [constructor|].
    apply Forall_cons in H2 as [H2 H3]. constructor; [|auto]. exact H2.
  Qed.
  Lemma pre_info_noeval evs d r : Forall pre_info evs -> EvEval d r ∉ evs.
  Proof. intros H Hin. rewrite Forall_forall in H. apply H in Hin as [j Hj]. by inversion Hj. Qed.
  Lemma pre_info_pre evs : Forall pre_info evs -> Forall enc_pre evs.
  Proof. intros H. eapply Forall_impl; [exact H|]. intros e [j Hj]. by destruct Hj. Qed.
  Lemma evals_pre evs : all_evals evs -> Forall enc_pre evs.
  Proof. intros H. eapply Forall_impl; [exact H|]. by intros []. Qed.

  (** the parts up to the decision *)
  Lemma first_part s0 devs cache e1 und s1 s2 post :
    chosen (alone P) (fun l => l) (fun _ => tt) P cf jids pre_info sel_alone priority [] s0 devs cache ->
    since (fun l => l) (fun _ : list event => tt) s0 e1 s1 -> round devs Undecided e1 und ->
    decided (alone P) (fun l => l) (fun _ => tt) mtd ident und s1 s2 ->
    exists dec, s2 = dec ++ s1 /\ Forall enc_pre s1 /\ asked P mtd ident s1 dec post.
  Proof.
    intros Hch [Hs1 _] Hr Hdec. destruct (chosen_ok _ _ _ Hch) as (Hpre & _ & Hk & _). apply dkey_nodup in Hk. subst s1.
    assert (Forall enc_pre (e1 ++ s0)) as Hep.
    { apply Forall_app. split; [apply evals_pre; by eapply round_evals|by apply pre_info_pre]. }
    assert (forall d, d ∈ und <-> EvEval d (Val Undecided) ∈ e1 ++ s0) as Hu.
    { intros d. rewrite (round_elem devs Hk _ _ _ d Hr), elem_of_app. split; [by left|]. intros [H|H]; [done|]. by apply pre_info_noeval in H. }
    destruct Hdec as [(-> & E & _)|(Hne & s & Hm & E & _)]; simpl in E; subst s2.
    - exists []. split; [done|]. split; [done|]. left. split; [done|]. intros _ d Hd. apply Hu in Hd. by apply elem_of_nil in Hd.
    - destruct (exec_alone_grow _ _ _ _ _ Hm) as (dec & ->). exists dec. split; [done|]. split; [done|]. right. exists und.
      split; [done|]. split; [by eapply round_nodup|]. split; [done|]. by left.
  Qed.

  Lemma evaluated_devs s0 devs cache e1 und s1 k :
    chosen (alone P) (fun l => l) (fun _ => tt) P cf jids pre_info sel_alone priority [] s0 devs cache ->
    since (fun l => l) (fun _ : list event => tt) s0 e1 s1 -> round devs Undecided e1 und -> evaluated s1 k -> k ∈ dkey <$> devs.
  Proof.
    intros Hch [Hs1 _] Hr (d & r & Hin & <-). destruct (chosen_ok _ _ _ Hch) as (Hpre & _ & Hk & _). subst s1. apply elem_of_list_fmap_1.
    apply elem_of_app in Hin as [Hin|Hin]; [|by apply pre_info_noeval in Hin]. eapply round_evaluated; [by apply dkey_nodup|done|done].
  Qed.

  Lemma norm_reach evs : reach (alone P) (encrypt cf mtd bare_jids pt priority ident) [] evs ->
    exists pre dec post, evs = post ++ dec ++ pre /\ Forall enc_pre pre /\ asked P mtd ident pre dec post /\
      (all_evals post \/ loop_part pre post (fun ds cache => enc_mid P cf ds pt cache jids)).
  Proof.
    intros H. apply (wp_reach _ _ _ _ _ _ (encrypt_alone [])) in H.
    2: { apply (ea_pre _ _ _ _ _ _ _ _ _ _ _ _ _ _ _ []); [done|constructor]. }
    destruct H as [pre E HF|s0 devs cache Hch Hat].
    { rewrite app_nil_r in E. subst. exists pre, [], []. split; [done|]. split; [by apply pre_info_pre|]. split; [left; done|]. left. constructor. }
    destruct (chosen_ok _ _ _ Hch) as (Hpre & Hca & Hk & Hok).
    destruct Hat as [e1 [E _] He|e1 und s1 Hs1 Hr Hne Hm|e1 und s1 s2 post Hs1 Hr Hdec [Hs _] He|e1 und s1 s2 devs' e2 e3 ds p3 Hs1 Hr Hdec Hup Hr2 Hr3 [Hs _] Hm].
    - subst evs. exists (e1 ++ s0), [], []. split; [done|]. split; [|split; [left; done|left; constructor]].
      apply Forall_app. split; [by apply evals_pre|by apply pre_info_pre].
    - destruct (reach_alone_grow _ _ _ _ Hm) as (dec & ->). exists s1, dec, []. split; [done|].
      assert (forall d, d ∈ und <-> EvEval d (Val Undecided) ∈ s1) as Hu.
      { intros d. destruct Hs1 as [-> _]. rewrite (round_elem devs (dkey_nodup _ Hk) _ _ _ d Hr), elem_of_app. split; [by left|].
        intros [H|H]; [done|]. by apply pre_info_noeval in H. }
      split; [|split; [|left; constructor]].
      + destruct Hs1 as [-> _]. apply Forall_app. split; [apply evals_pre; by eapply round_evals|by apply pre_info_pre].
      + right. exists und. split; [done|]. split; [eapply round_nodup; [by apply dkey_nodup|exact Hr]|]. split; [done|]. by right.
    - destruct (first_part _ _ _ _ _ _ _ post Hch Hs1 Hr Hdec) as (dec & E2 & Hep & Hask).
      exists s1, dec, post. split; [by rewrite Hs, E2|]. split; [done|]. split; [done|]. by left.
    - destruct (first_part _ _ _ _ _ _ _ (p3 ++ e3 ++ e2) Hch Hs1 Hr Hdec) as (dec & E2 & Hep & Hask).
      exists s1, dec, (p3 ++ e3 ++ e2). split; [by rewrite Hs, E2|]. split; [done|]. split; [done|]. right.
      destruct (updated_ok _ _ _ _ _ Hup Hca Hk Hok) as (Hca' & Hd' & Hk' & Hok'). exists devs', ds, cache, e2, e3, p3. split; [done|]. split; [|done].
      intros k Hev. rewrite Hd'. by eapply evaluated_devs.
  Qed.

  Definition end_part (o : outcome (list (message * pkm) * list enc_error)) (pre post : list event) : Prop :=
    (post = [] /\ exists e, o = Exn e /\ (okx e \/ exists und l l', exec (alone P) (mtd und ident) l (Exn e) l')) \/
    (all_evals post /\ o = Exn EStillUndecided) \/
    (all_evals post /\ exists e d rest, o = Exn e /\ okx e /\ post = EvEval d (Exn e) :: rest) \/
    loop_part pre post (fun ds cache => enc_fin P cf okx ds pt cache jids o).
  Lemma norm_exec o evs : exec (alone P) (encrypt cf mtd bare_jids pt priority ident) [] o evs ->
    exists pre dec post, evs = post ++ dec ++ pre /\ Forall enc_pre pre /\ asked P mtd ident pre dec post /\ end_part o pre post.
  Proof.
    intros H. pose proof (norm_reach evs) as HR. apply (wp_exec _ _ _ _ _ _ _ (encrypt_alone [])) in H as HE.
    assert (reach (alone P) (encrypt cf mtd bare_jids pt priority ident) [] evs) as Hreach by (by eapply exec_reach). clear HR Hreach.
    destruct HE as [pre e s' E HF He|s0 devs cache o s' Hch Hend].
    { rewrite app_nil_r in E. subst. exists pre, [], []. split; [done|]. split; [by apply pre_info_pre|]. split; [left; done|]. left. eauto. }
    destruct (chosen_ok _ _ _ Hch) as (Hpre & Hca & Hk & Hok).
    destruct Hend as [e evs s [E _] Hb He|e1 und s1 e s Hs1 Hr Hne Hm|e1 und s1 s2 e s Hs1 Hr Hdec [Hs _] He
      |e1 und s1 s2 devs' e2 und' s Hs1 Hr Hdec Hup Hr2 Hne [Hs _]|e1 und s1 s2 devs' e2 e s Hs1 Hr Hdec Hup Hb [Hs _] He
      |e1 und s1 s2 devs' e2 e3 e s Hs1 Hr Hdec Hup Hr2 Hb [Hs _] He|e1 und s1 s2 devs' e2 e3 ds p3 o s Hs1 Hr Hdec Hup Hr2 Hr3 [Hs _] Hf].
    - subst s. exists (evs ++ s0), [], []. split; [done|]. split; [|split; [left; done|left; eauto]].
      apply Forall_app. split; [apply evals_pre; by eapply broken_evals|by apply pre_info_pre].
    - destruct (exec_alone_grow _ _ _ _ _ Hm) as (dec & ->). exists s1, dec, []. split; [done|].
      assert (forall d, d ∈ und <-> EvEval d (Val Undecided) ∈ s1) as Hu.
      { intros d. destruct Hs1 as [-> _]. rewrite (round_elem devs (dkey_nodup _ Hk) _ _ _ d Hr), elem_of_app. split; [by left|].
        intros [H'|H']; [done|]. by apply pre_info_noeval in H'. }
      split; [|split; [|left; split; [done|]; exists e; split; [done|]; right; eauto]].
      + destruct Hs1 as [-> _]. apply Forall_app. split; [apply evals_pre; by eapply round_evals|by apply pre_info_pre].
      + right. exists und. split; [done|]. split; [eapply round_nodup; [by apply dkey_nodup|exact Hr]|]. split; [done|]. right.
        split; [done|]. by eapply exec_reach.
    - destruct (first_part _ _ _ _ _ _ _ [] Hch Hs1 Hr Hdec) as (dec & E2 & Hep & Hask).
      exists s1, dec, []. split; [by rewrite Hs, E2|]. split; [done|]. split; [done|]. left. eauto.
    - destruct (first_part _ _ _ _ _ _ _ e2 Hch Hs1 Hr Hdec) as (dec & E2 & Hep & Hask).
      exists s1, dec, e2. split; [by rewrite Hs, E2|]. split; [done|]. split; [done|]. right. left. split; [by eapply round_evals|done].
    - destruct (first_part _ _ _ _ _ _ _ e2 Hch Hs1 Hr Hdec) as (dec & E2 & Hep & Hask).
      exists s1, dec, e2. split; [by rewrite Hs, E2|]. split; [done|]. split; [done|]. right. right. left. split; [by eapply broken_evals|].
      destruct Hb as (ts & d & -> & _). by eexists _, _, _.
    - destruct (first_part _ _ _ _ _ _ _ (e3 ++ e2) Hch Hs1 Hr Hdec) as (dec & E2 & Hep & Hask).
      exists s1, dec, (e3 ++ e2). split; [by rewrite Hs, E2|]. split; [done|]. split; [done|]. right. right. left. split.
      + apply Forall_app. split; [by eapply broken_evals|by eapply round_evals].
      + destruct Hb as (ts & d & -> & _). by eexists _, _, _.
    - destruct (first_part _ _ _ _ _ _ _ (p3 ++ e3 ++ e2) Hch Hs1 Hr Hdec) as (dec & E2 & Hep & Hask).
      exists s1, dec, (p3 ++ e3 ++ e2). split; [by rewrite Hs, E2|]. split; [done|]. split; [done|]. right. right. right.
      destruct (updated_ok _ _ _ _ _ Hup Hca Hk Hok) as (Hca' & Hd' & Hk' & Hok'). exists devs', ds, cache, e2, e3, p3. split; [done|]. split; [|done].
      intros k Hev. rewrite Hd'. by eapply evaluated_devs.
  Qed.
End al.
