(** The theorems about encrypt, from the normal forms of its calls. *)
From Verif Require Import Api Spec Alone PfWp PfFrame PfHist PfEmits PfInfo PfExec PfLog PfAlone PfEncrypt PfEncrypt2 PfEncrypt3.
Open Scope prog_scope.
Open Scope list_scope.

Lemma traced_app_mono (C C' : event -> list event -> Prop) l1 l2 :
  traced C l1 -> traced C' l2 -> (forall e before, e ∈ l1 -> C e before -> (exists l, l1 = l ++ e :: before) -> C' e (before ++ l2)) ->
  traced C' (l1 ++ l2).
Proof.
  induction l1 as [|x l1 IH]; intros H1 H2 H; [done|]. apply traced_cons in H1 as [Hx H1]. simpl. apply traced_cons. split.
  - apply H; [left|done|]. by exists [].
  - apply IH; [done|done|]. intros e before He HC [l ->]. apply H; [by right|done|]. by exists (x :: l).
Qed.
Lemma traced_forall (C : event -> Prop) l : traced (fun e _ => C e) l <-> Forall C l.
Proof.
  induction l as [|x l IH]; [split; [constructor|intros; apply traced_nil]|]. rewrite traced_cons, IH, Forall_cons. done.
Qed.
Lemma traced_mono (C C' : event -> list event -> Prop) l : traced C l -> (forall e before, C e before -> C' e before) -> traced C' l.
Proof. intros H HC post e pre E. apply HC. by eapply H. Qed.

Lemma encs_evals l1 l2 : all_evals l2 -> encs (l1 ++ l2) = encs l1.
Proof.
  intros H2. induction l1 as [|e l1 IH].
  - simpl. induction H2 as [|e l2 He _ IH]; [done|]. by destruct e.
  - simpl. rewrite IH. destruct e; try done. destruct r as [[s' k]|]; [|done].
    destruct l1 as [|e1 l1]; simpl; [|by destruct e1]. destruct l2 as [|e2 l2]; [done|]. apply Forall_cons in H2 as [H2 _]. by destruct e2.
Qed.
Lemma encs_stores ss l : encs (stores ss ++ l) = encs l.
Proof.
  pose proof (stores_all ss) as H. induction H as [|e k He _ IH]; [done|]. simpl. rewrite IH. by destruct e.
Qed.
Lemma stored_app l1 l2 : stored (l1 ++ l2) = stored l1 ++ stored l2.
Proof. induction l1 as [|e l1 IH]; [done|]. destruct e; simpl; try done. destruct r; simpl; by rewrite IH. Qed.
Lemma stored_stores ss : stored (stores ss) = rev ss.
Proof.
  induction ss as [|x ss IH] using rev_ind; [done|]. rewrite stores_snoc, rev_app_distr. simpl. rewrite IH. by destruct x.
Qed.
Lemma stored_none l : Forall (fun e => is_store_session e = false) l -> stored l = [].
Proof. induction 1 as [|e l He _ IH]; [done|]. by destruct e. Qed.

(** ** What the encryption loop and the stores leave in the log *)
Section mid.
  Context (P : world -> forall c, resp c -> Prop) (cf : cfg) (ds : list device) (pt : list (string * bytes)) (cache : list bundle) (jids : list string).
  Definition loop_ev (e : event) : Prop :=
    match e with
    | EvLoadSession _ _ _ _ | EvDownloadBundle _ _ _ _ | EvEncPlain _ _ _ | EvEncKey _ _ _ _ | EvBuildActive _ _ _ _ _ _ => True
    | _ => False end.
  Lemma cond_loop l : traced (enc_cond ds pt cache) l -> Forall loop_ev l.
  Proof. intros H. apply traced_forall. eapply traced_mono; [exact H|]. by intros []. Qed.
  Lemma loop_nostore l : Forall loop_ev l -> Forall (fun e => is_store_session e = false) l.
  Proof. intros H. eapply Forall_impl; [exact H|]. by intros []. Qed.
  Lemma mid_facts p3 : enc_mid P cf ds pt cache jids p3 ->
    Forall enc_post p3 /\ Forall (fun e => is_eval e = false) p3 /\
    traced (fun e before => crypto e = true -> Forall (fun e => is_store_session e = false) before /\ enc_cond ds pt cache e before) p3.
  Proof.
    assert (forall l, traced (enc_cond ds pt cache) l -> Forall enc_post l /\ Forall (fun e => is_eval e = false) l /\
      traced (fun e before => crypto e = true -> Forall (fun e => is_store_session e = false) before /\ enc_cond ds pt cache e before) l) as H.
    { intros l Hl. pose proof (cond_loop l Hl) as HF. split; [|split].
      - eapply Forall_impl; [exact HF|]. by intros [].
      - eapply Forall_impl; [exact HF|]. by intros [].
      - intros post e pre E _. split; [|by eapply Hl]. apply loop_nostore. subst l. apply Forall_app in HF as [_ HF]. by apply Forall_cons in HF as [_ HF]. }
    intros [Hl|(bks & st & e1 & items & e2 & -> & _ & HD & _ & He2)]; [by apply H|].
    destruct (H e1 (ed_traced _ _ _ _ _ _ _ _ HD)) as (H1 & H2 & H3). split; [|split].
    - apply Forall_app. split; [|done]. eapply Forall_impl; [exact He2|]. by intros [].
    - apply Forall_app. split; [|done]. eapply Forall_impl; [exact He2|]. by intros [].
    - eapply (traced_app_mono (fun e _ => is_store_session e = true)); [by apply traced_forall|done|]. intros e before _ He _ Hc. by destruct e.
  Qed.
  Lemma fin_mid okx o p3 : enc_fin P cf okx ds pt cache jids o p3 -> enc_mid P cf ds pt cache jids p3.
  Proof.
    intros [e evs _ H|bks st evs items _ HD _|bks st evs items ss x e Hb HD Hn _|bks st evs items ss Hb HD Hn _].
    - by left.
    - left. by destruct HD.
    - right. exists bks, st, evs, items, (EvStoreSession x.1 x.2 (Exn e) :: stores ss). do 4 (split; [done|]). constructor; [done|apply stores_all].
    - right. exists bks, st, evs, items, (stores ss). do 4 (split; [done|]). apply stores_all.
  Qed.
End mid.


Lemma nodup_filter_keys {A B} (f : A -> B) (Q : A -> Prop) `{!forall x, Decision (Q x)} l : NoDup (f <$> l) -> NoDup (f <$> filter Q l).
Proof.
  induction l as [|x l IH]; [done|]. rewrite fmap_cons, filter_cons. intros [Hx Hl]%NoDup_cons. case_decide; [|by apply IH].
  rewrite fmap_cons. apply NoDup_cons. split; [|by apply IH]. intros (y & E & [_ Hy]%elem_of_list_filter)%elem_of_list_fmap.
  apply Hx. rewrite E. by apply elem_of_list_fmap_1.
Qed.
Lemma items_keys (items : list eitem) : (en_dkey <$> omap it_enc items) ++ (ee_dkey <$> omap it_err items) ≡ₚ dkey <$> (it_dev <$> items).
Proof.
  induction items as [|i items IH]; [done|]. cbn [omap list_omap]. rewrite !fmap_cons. unfold it_enc at 1, it_err at 1.
  destruct (it_res i) as [[a k]|e]; rewrite fmap_cons.
  - simpl. apply perm_skip. exact IH.
  - rewrite <- Permutation_middle. simpl. apply perm_skip. exact IH.
Qed.
Lemma items_msgs (items : list eitem) : omap it_keyns items = en_keyns <$> omap it_enc items.
Proof.
  induction items as [|i items IH]; [done|]. cbn [omap list_omap]. unfold it_enc at 1, it_keyns at 1.
  destruct (it_res i) as [[a k]|e]; [|done]. rewrite fmap_cons. f_equal. exact IH.
Qed.
Lemma filter_all {A} (Q : A -> Prop) `{!forall x, Decision (Q x)} l : Forall Q l -> filter Q l = l.
Proof. induction 1 as [|x l Hx _ IH]; [done|]. by rewrite filter_cons, decide_True, IH. Qed.
Lemma no_elig cf js ds j : j ∈ no_eligible cf js ds <-> j ∈ js /\ j <> c_jid cf /\ forall d, d ∈ ds -> dv_jid d <> j.
Proof.
  unfold no_eligible. rewrite elem_of_list_filter. split.
  - intros ((H1 & H2) & H3). split; [done|]. split; [done|]. by rewrite Forall_forall in H2.
  - intros (H1 & H2 & H3). split; [split; [done|by apply Forall_forall]|done].
Qed.
Lemma round_keys devs t evs ds : NoDup (dkey <$> devs) -> round devs t evs ds -> NoDup (dkey <$> ds).
Proof.
  intros Hk Hr. apply NoDup_alt. intros i j k Hi Hj. rewrite list_lookup_fmap in Hi, Hj.
  destruct (ds !! i) as [d|] eqn:Ei; [|done]. destruct (ds !! j) as [d'|] eqn:Ej; [|done]. cbn in Hi, Hj. assert (dkey d = k) as <- by congruence. assert (dkey d' = dkey d) as E by congruence. clear Hi Hj.
  pose proof (round_nodup devs (dkey_nodup _ Hk) _ _ _ Hr) as Hn.
  assert (d = d') as <-; [|by eapply NoDup_lookup].
  apply elem_of_list_lookup_2 in Ei, Ej. pose proof (round_sub devs (dkey_nodup _ Hk) _ _ _ Hr) as Hs. apply Hs in Ei, Ej.
  apply elem_of_list_lookup in Ei as [a Ha]. apply elem_of_list_lookup in Ej as [b Hb].
  assert (a = b) as <-; [|congruence]. eapply (NoDup_lookup (dkey <$> devs) a b (dkey d)); [exact Hk| |]; rewrite list_lookup_fmap, ?Ha, ?Hb; simpl; by f_equal.
Qed.

Section thm.
  Context (P : world -> forall c, resp c -> Prop) (cf : cfg) (mtd : list device -> option string -> api unit) (ident : option string)
    (pt : list (string * bytes)) (priority : option (list string)) (bare_jids : list string).
  Notation enc := (encrypt cf mtd bare_jids pt priority ident).
  Notation jids := (all_jids cf bare_jids).

  Lemma any_x c (r : resp c) e : answer P c r -> resp_exn c r = Some e -> True \/ no_bundle c e. Proof. by left. Qed.
  Section distinct.
    Context (HP : forall w c r, P w c r -> distinct_backends w c r).
    Lemma nd_loaded l : answer P GLoaded l -> NoDup l.
    Proof. intros (w & _ & H). exact (HP _ _ _ H). Qed.
    Definition nreach := norm_reach P cf (fun _ => True) any_x (conj I (conj I (conj I (conj I I)))) nd_loaded mtd ident pt priority bare_jids.
    Definition nexec := norm_exec P cf (fun _ => True) any_x (conj I (conj I (conj I (conj I I)))) nd_loaded mtd ident pt priority bare_jids.

    Lemma loop_trusted devs' ds cache e2 e3 p3 :
      cache_ok P devs' cache -> NoDup (dkey <$> devs') -> Forall (dev_ok P cf priority bare_jids) devs' -> round devs' Undecided e2 [] -> round devs' Trusted e3 ds ->
      enc_mid P cf ds pt cache jids p3 ->
      Forall enc_post (p3 ++ e3 ++ e2) /\
      traced (fun e before => crypto e = true ->
        Forall (fun e => is_store_session e = false) before /\
        enc_material pt e before /\
        exists d, enc_for e before d /\ last_eval d before = Some (Val Trusted) /\ dev_ok P cf priority bare_jids d /\ d ∈ ds /\
          enc_start e before d /\ ((forall w c r, P w c r -> downloads_named w c r) -> enc_bundle e before d)) (p3 ++ e3 ++ e2).
    Proof.
      intros Hca Hk Hok H2 H3 Hm. apply dkey_nodup in Hk. destruct (mid_facts _ _ _ _ _ _ _ Hm) as (Hpost & Hne & Ht).
      assert (all_evals (e3 ++ e2)) as Hev by (apply Forall_app; split; by eapply round_evals). split.
      { apply Forall_app. split; [done|]. eapply Forall_impl; [exact Hev|]. by intros []. }
      eapply traced_app_mono; [exact Ht| |].
      - intros post e pre E Hc. exfalso. assert (e ∈ e3 ++ e2) as He by (rewrite E; apply elem_of_app; right; left).
        unfold all_evals in Hev. rewrite Forall_forall in Hev. apply Hev in He. by destruct e.
      - intros e before He HC [l El] Hc. destruct (HC Hc) as [Hns Hcond]. split.
        { apply Forall_app. split; [done|]. eapply Forall_impl; [exact Hev|]. by intros []. }
        assert (Forall (fun e => is_eval e = false) before) as Hneb.
        { subst p3. apply Forall_app in Hne as [_ Hne]. by apply Forall_cons in Hne as [_ Hne]. }
        assert (forall d, d ∈ ds -> last_eval d (before ++ e3 ++ e2) = Some (Val Trusted) /\ dev_ok P cf priority bare_jids d /\ d ∈ ds) as Hd.
        { intros d Hd. split; [by apply (rounds_trusted devs' Hk e2 e3 ds before d)|]. split; [|done]. rewrite Forall_forall in Hok. apply Hok. by eapply round_sub. }
        apply (enc_cond_mono _ _ _ _ _ (e3 ++ e2)) in Hcond. destruct e; try done.
        + destruct Hcond as ((d & Hin & E1 & E2 & E3) & Hses & Hb & Hmat). split; [done|]. exists d. split; [done|].
          destruct (Hd d Hin) as (A1 & A2 & A3). do 4 (split; [done|]). intros HN.
          destruct Hb as [(B1 & B2 & B3 & B4)|Hb]; [left|by right]. apply (Hca HN); try congruence. by eapply round_sub.
        + destruct Hcond as ((d & Hin & E1 & E2) & Hmat). split; [done|]. exists d. split; [done|].
          destruct (Hd d Hin) as (A1 & A2 & A3). done.
    Qed.

    (** C34, C37, C39: at any time *)
    Lemma enc_anytime evs : reach (alone P) enc [] evs ->
      exists pre dec post, evs = post ++ dec ++ pre /\ Forall enc_pre pre /\ asked P mtd ident pre dec post /\ Forall enc_post post /\
        traced (fun e before => crypto e = true ->
          Forall (fun e => is_store_session e = false) before /\
          enc_material pt e before /\
          exists d, enc_for e before d /\ last_eval d before = Some (Val Trusted) /\ dev_ok P cf priority bare_jids d /\
            enc_start e before d /\ ((forall w c r, P w c r -> downloads_named w c r) -> enc_bundle e before d)) post /\
        ((exists d, first_eval d post = Some (Val Undecided)) -> all_evals post).
    Proof.
      intros (pre & dec & post & E & H1 & H2 & H3)%nreach. exists pre, dec, post. split; [done|]. split; [done|]. split; [done|].
      destruct H3 as [H3|(devs' & ds & cache & e2 & e3 & p3 & Hca & Hpk & Hk & Hok & Hr2 & Hr3 & -> & Hm)].
      - split; [eapply Forall_impl; [exact H3|]; by intros []|]. split; [|done].
        intros l e b El Hc. exfalso. assert (e ∈ post) as He by (rewrite El; apply elem_of_app; right; left).
        unfold all_evals in H3. rewrite Forall_forall in H3. apply H3 in He. by destruct e.
      - destruct (loop_trusted _ _ _ _ _ _ Hca Hk Hok Hr2 Hr3 Hm) as [Hp Ht]. split; [done|]. split.
        + eapply traced_mono; [exact Ht|]. intros e b H Hc. destruct (H Hc) as (Hn & Hmt & d & A1 & A2 & A3 & _ & A4 & A5). split; [done|]. split; [done|]. by exists d.
        + intros [d Hd]. exfalso. eapply (rounds_undecided devs' (dkey_nodup _ Hk)); [done|done| |exact Hd].
          intros r Hr. destruct (mid_facts _ _ _ _ _ _ _ Hm) as (_ & Hne & _). rewrite Forall_forall in Hne. by apply Hne in Hr.
    Qed.

    (** C37: the outcome *)
    Lemma enc_undecided o evs : exec (alone P) enc [] o evs ->
      exists pre dec post, evs = post ++ dec ++ pre /\ Forall enc_pre pre /\ asked P mtd ident pre dec post /\
        ((exists d, first_eval d post = Some (Val Undecided)) -> all_evals post /\
           (o = Exn EStillUndecided \/ exists e d rest, o = Exn e /\ post = EvEval d (Exn e) :: rest)).
    Proof.
      intros (pre & dec & post & E & H1 & H2 & H3)%nexec. exists pre, dec, post. split; [done|]. split; [done|]. split; [done|].
      intros [d Hd]. destruct H3 as [[-> _]|[[H3 ->]|[(H3 & e & d' & rest & -> & _ & ->)|H3]]].
      - done.
      - split; [done|by left].
      - split; [done|]. right. by exists e, d', rest.
      - exfalso. destruct H3 as (devs' & ds & cache & e2 & e3 & p3 & Hca & Hpk & Hk & Hok & Hr2 & Hr3 & -> & Hf). apply fin_mid in Hf as Hm.
        eapply (rounds_undecided devs' (dkey_nodup _ Hk)); [done|done| |exact Hd].
        intros r Hr. destruct (mid_facts _ _ _ _ _ _ _ Hm) as (_ & Hne & _). rewrite Forall_forall in Hne. by apply Hne in Hr.
    Qed.

    (** C39: the sessions *)
    Lemma enc_sessions o evs : exec (alone P) enc [] o evs ->
      exists pre dec post, evs = post ++ dec ++ pre /\ Forall enc_pre pre /\ asked P mtd ident pre dec post /\ Forall enc_post post /\
        traced (fun e before => crypto e = true -> exists d, enc_for e before d) post /\
        match o with
        | Val _ => stored post ≡ₚ (fun en => (en_ns en, en_session en)) <$> encs post /\ NoDup (en_dkey <$> encs post)
        | Exn e => Forall (fun e => is_store_session e = false) post \/ exists ns s rest, post = EvStoreSession ns s (Exn e) :: rest
        end.
    Proof.
      intros (pre & dec & post & E & H1 & H2 & H3)%nexec. exists pre, dec, post. split; [done|]. split; [done|]. split; [done|].
      assert (forall l, all_evals l -> Forall enc_post l /\ Forall (fun e => is_store_session e = false) l) as Hev.
      { intros l Hl. split; (eapply Forall_impl; [exact Hl|]); by intros []. }
      assert (forall l, all_evals l -> traced (fun e before => crypto e = true -> exists d, enc_for e before d) l) as Hevt.
      { intros l Hl l' e b El Hc. exfalso. assert (e ∈ l) as He by (rewrite El; apply elem_of_app; right; left).
        unfold all_evals in Hl. rewrite Forall_forall in Hl. apply Hl in He. by destruct e. }
      destruct H3 as [[-> (e & -> & _)]|[[H3 ->]|[(H3 & e & d' & rest & -> & _ & ->)|H3]]].
      - split; [constructor|]. split; [apply traced_nil|]. left. constructor.
      - split; [by apply Hev|]. split; [by apply Hevt|]. left. by apply Hev.
      - split; [by apply Hev|]. split; [by apply Hevt|]. left. by apply Hev.
      - destruct H3 as (devs' & ds & cache & e2 & e3 & p3 & Hca & Hpk & Hk & Hok & Hr2 & Hr3 & -> & Hf). apply fin_mid in Hf as Hm.
        destruct (loop_trusted _ _ _ _ _ _ Hca Hk Hok Hr2 Hr3 Hm) as [Hp Ht]. split; [done|].
        split; [eapply traced_mono; [exact Ht|]; intros e b H Hc; destruct (H Hc) as (_ & _ & d & A1 & _); by exists d|].
        assert (all_evals (e3 ++ e2)) as He by (apply Forall_app; split; by eapply round_evals). destruct (Hev _ He) as [_ Hns].
        destruct Hf as [e evs0 _ H|bks st evs0 items _ HD _|bks st evs0 items ss x e Hb HD Hn _|bks st evs0 items ss Hb HD Hn Hss].
        + left. apply Forall_app. split; [|done]. by eapply loop_nostore, cond_loop.
        + left. apply Forall_app. split; [|done]. destruct HD. by eapply loop_nostore, cond_loop.
        + right. by eexists _, _, _.
        + rewrite encs_evals by done. rewrite encs_stores, (ed_encs _ _ _ _ _ _ _ _ HD). split; cycle 1.
          { rewrite <- Permutation_rev. assert (NoDup (dkey <$> (it_dev <$> items))) as HN.
            { rewrite (ed_items _ _ _ _ _ _ _ _ HD). apply (round_keys _ _ _ _ Hk) in Hr3. by apply nodup_filter_keys. }
            rewrite <- items_keys in HN. by apply NoDup_app in HN as (HN & _). }
          rewrite stored_app, (stored_none (e3 ++ e2)), stored_app, stored_stores, (stored_none evs0) by (done || (destruct HD; by eapply loop_nostore, cond_loop)).
          rewrite !app_nil_r, <- !Permutation_rev, Hss, (ed_sess _ _ _ _ _ _ _ _ HD).
          clear. induction items as [|i items IH]; [done|]. cbn [omap list_omap]. unfold it_sess at 1, it_enc at 1.
          destruct (it_res i) as [[a k]|e]; [|exact IH]. cbn [fmap list_fmap]. by apply perm_skip.
    Qed.
  End distinct.

  (** ** With a fixed set of backends *)
  Section fixed.
    Context (L : list string) (HL : NoDup L) (HP : forall w c r, P w c r -> fixed_backends L w c r).
    Lemma fx_loaded l : answer P GLoaded l -> l = L.
    Proof. intros (w & _ & H). exact (HP _ _ _ H). Qed.
    Lemma fx_nd l : answer P GLoaded l -> NoDup l.
    Proof. by intros ->%fx_loaded. Qed.
    Lemma ok_served d : dev_ok P cf priority bare_jids d -> served_by L d.
    Proof.
      intros (_ & _ & ns & prio & Hh & Hin & av & Hav & Hp). apply fx_loaded in Hav as ->. apply Exists_exists. exists ns. split; [|done].
      destruct priority as [l|]; [|by subst]. destruct Hp as [-> Hd]. destruct (decide (ns ∈ L)) as [|Hn]; [done|].
      exfalso. assert (ns ∈ set_diff l L) as H by (by apply elem_of_list_filter). rewrite Hd in H. by apply elem_of_nil in H.
    Qed.

    Lemma loop_fixed devs' ds cache e2 e3 bks st evs items p :
      NoDup (dkey <$> devs') -> Forall (dev_ok P cf priority bare_jids) devs' -> round devs' Undecided e2 [] -> round devs' Trusted e3 ds ->
      answer P GLoaded bks -> enc_done cf ds pt cache bks st evs items -> Forall (fun e => is_eval e = false) p ->
      NoDup (dkey <$> ds) /\ it_dev <$> items ≡ₚ ds /\ (forall d, d ∈ ds <-> last_eval d (p ++ e3 ++ e2) = Some (Val Trusted)).
    Proof.
      intros Hk Hok H2 H3 Hb HD Hp. split; [by eapply round_keys|]. apply fx_loaded in Hb as ->. split.
      - rewrite (ed_items _ _ _ _ _ _ _ _ HD), filter_all; [done|]. apply Forall_forall. intros d Hd. apply ok_served.
        rewrite Forall_forall in Hok. apply Hok. eapply round_sub; [by apply dkey_nodup|exact H3|done].
      - intros d. symmetry. eapply rounds_trusted; [by apply dkey_nodup|done|done|done].
    Qed.
    (** the accounts that are served *)
    Lemma eligible ds cache bks st evs items j :
      enc_done cf ds pt cache bks st evs items -> NoDup (dkey <$> ds) -> it_dev <$> items ≡ₚ ds ->
      (exists d, d ∈ es_devices st /\ dv_jid d = j) <-> (exists en, en ∈ encs evs /\ en_jid en = j).
    Proof.
      intros HD Hk Hi. rewrite (ed_encs _ _ _ _ _ _ _ _ HD), (ed_devs _ _ _ _ _ _ _ _ HD). split.
      - intros (d & [Hf Hd]%elem_of_list_filter & Ej). rewrite <- Hi in Hd. apply elem_of_list_fmap in Hd as (i & -> & Hin).
        destruct (it_res i) as [[a k]|e] eqn:E.
        + eexists (Enc (it_ns i) (dv_jid (it_dev i)) (dv_id (it_dev i)) a k). split; [|done]. rewrite <- Permutation_rev.
          apply elem_of_list_omap. exists i. split; [done|]. unfold it_enc. by rewrite E.
        + exfalso. apply Hf. apply elem_of_list_omap. exists i. split; [done|]. unfold it_failed. by rewrite E.
      - intros (en & Hen & <-). rewrite <- Permutation_rev in Hen. apply elem_of_list_omap in Hen as (i & Hin & E).
        unfold it_enc in E. destruct (it_res i) as [[a k]|e] eqn:Er; [|done]. injection E as <-. exists (it_dev i). split; [|done].
        apply elem_of_list_filter. split; [|rewrite <- Hi; by apply elem_of_list_fmap_1].
        intros (i' & Hin' & E')%elem_of_list_omap. unfold it_failed in E'. destruct (it_res i') as [|e'] eqn:Er'; [done|]. injection E' as E'.
        apply dkey_nodup in Hk. rewrite <- Hi in Hk. apply elem_of_list_lookup in Hin as [x Hx]. apply elem_of_list_lookup in Hin' as [y Hy].
        assert (x = y) as <-; [|congruence]. eapply (NoDup_lookup (it_dev <$> items) x y (it_dev i)); [exact Hk| |]; rewrite list_lookup_fmap, ?Hx, ?Hy; simpl; by f_equal.
    Qed.

    (** C38 *)
    Lemma enc_served msgs errs evs : exec (alone P) enc [] (Val (msgs, errs)) evs ->
      exists pre dec post, evs = post ++ dec ++ pre /\ Forall enc_pre pre /\ asked P mtd ident pre dec post /\ Forall enc_post post /\
        exists ds, NoDup (dkey <$> ds) /\ (forall d, d ∈ ds <-> last_eval d post = Some (Val Trusted)) /\
          (forall k, evaluated pre k -> evaluated post k) /\
          (en_dkey <$> encs post) ++ (ee_dkey <$> errs) ≡ₚ dkey <$> ds /\
          flat_map (fun m => pair (m_ns m.1) <$> m_keys m.1) msgs ≡ₚ en_keyns <$> encs post /\
          NoDup ((fun m => m_ns m.1) <$> msgs) /\
          (forall m, m ∈ msgs -> m_jid m.1 = c_jid cf /\ m_dev m.1 = c_dev cf /\
             exists b, dget (m_ns m.1) pt = Some b /\ EvEncPlain (m_ns m.1) b (Val (m_content m.1, m.2)) ∈ post) /\
          plains post ≡ₚ (fun m => m_ns m.1) <$> msgs.
    Proof.
      intros (pre & dec & post & E & H1 & H2 & H3)%(norm_exec P cf (fun _ => True) any_x (conj I (conj I (conj I (conj I I)))) fx_nd).
      exists pre, dec, post. split; [done|]. split; [done|]. split; [done|].
      destruct H3 as [[_ (e & He & _)]|[[_ H3]|[(_ & e & d' & rest & He & _)|H3]]]; [done|done|done|].
      destruct H3 as (devs' & ds & cache & e2 & e3 & p3 & Hca & Hpk & Hk & Hok & Hr2 & Hr3 & -> & Hf). apply fin_mid in Hf as Hm.
      assert (forall w c r, P w c r -> distinct_backends w c r) as HP'.
      { intros w [] r Hr; try done. simpl. by rewrite (HP _ _ _ Hr). }
      destruct (loop_trusted _ _ _ _ _ _ Hca Hk Hok Hr2 Hr3 Hm) as [Hp _]. split; [done|].
      destruct (mid_facts _ _ _ _ _ _ _ Hm) as (_ & Hne & _).
      assert (all_evals (e3 ++ e2)) as He by (apply Forall_app; split; by eapply round_evals).
      inversion Hf as [| | |bks st evs0 items ss Hb HD Hn Hss Ev Ep]; subst.
      destruct (loop_fixed _ _ _ _ _ _ _ _ _ _ Hk Hok Hr2 Hr3 Hb HD Hne) as (Hkd & Hi & Hl).
      exists ds. split; [done|]. split; [done|].
      rewrite encs_evals by done. rewrite encs_stores. split; [|split; [|split; [|split; [|split]]]].
      - intros k Hev. apply Hpk in Hev. apply elem_of_list_fmap in Hev as (d & -> & Hd).
        destruct (round_first devs' (dkey_nodup _ Hk) _ _ _ d [] Hr2 Hd) as (t & _ & Hin). exists d, (Val t). split; [|done].
        apply elem_of_app. right. apply elem_of_app. by right.
      - rewrite (ed_encs _ _ _ _ _ _ _ _ HD), (ed_err _ _ _ _ _ _ _ _ HD), <- Permutation_rev, items_keys, Hi. done.
      - rewrite (ed_encs _ _ _ _ _ _ _ _ HD), <- Permutation_rev, (ed_msgs _ _ _ _ _ _ _ _ HD), items_msgs. done.
      - by destruct HD.
      - intros m Hm'. destruct (ed_in _ _ _ _ _ _ _ _ HD m Hm') as (_ & A1 & A2 & b & A3 & A4). split; [done|]. split; [done|]. exists b.
        split; [done|]. apply elem_of_app. left. apply elem_of_app. by right.
      - rewrite !plains_app, (ed_plain _ _ _ _ _ _ _ _ HD), <- Permutation_rev.
        assert (forall l, Forall (fun e => match e with EvEncPlain _ _ _ => False | _ => True end) l -> plains l = []) as Hpl.
        { induction 1 as [|x l Hx _ IH]; [done|]. by destruct x. }
        rewrite (Hpl (stores ss)), (Hpl e3), (Hpl e2), ?app_nil_r; [done| | |].
        + eapply Forall_impl; [by eapply round_evals|]. by intros [].
        + eapply Forall_impl; [by eapply round_evals|]. by intros [].
        + eapply Forall_impl; [apply stores_all|]. by intros [].
    Qed.
  End fixed.

  (** C90: what is reported is what failed *)
  Lemma enc_blamed msgs errs evs : (forall w c r, P w c r -> distinct_backends w c r) -> exec (alone P) enc [] (Val (msgs, errs)) evs ->
    exists pre dec post, evs = post ++ dec ++ pre /\ Forall enc_pre pre /\ asked P mtd ident pre dec post /\ Forall enc_post post /\
      forall er, er ∈ errs -> failed_with (ee_ns er) (ee_jid er) (ee_dev er) (ee_exn er) post /\
        exists d, dkey d = ee_dkey er /\ head (dv_namespaces d) = Some (ee_ns er) /\ last_eval d post = Some (Val Trusted).
  Proof.
    intros HP (pre & dec & post & E & H1 & H2 & H3)%(norm_exec P cf (fun _ => True) any_x (conj I (conj I (conj I (conj I I)))) (nd_loaded HP)).
    exists pre, dec, post. split; [done|]. split; [done|]. split; [done|].
    destruct H3 as [[_ (e & He & _)]|[[_ H3]|[(_ & e & d' & rest & He & _)|H3]]]; [done|done|done|].
    destruct H3 as (devs' & ds & cache & e2 & e3 & p3 & Hca & Hpk & Hk & Hok & Hr2 & Hr3 & -> & Hf). apply fin_mid in Hf as Hm.
    destruct (loop_trusted _ _ _ _ _ _ Hca Hk Hok Hr2 Hr3 Hm) as [Hp _]. split; [done|].
    destruct (mid_facts _ _ _ _ _ _ _ Hm) as (_ & Hne & _).
    inversion Hf as [| | |bks st evs0 items ss Hb HD Hn Hss Ev Ep]; subst.
    intros er Her. rewrite (ed_err _ _ _ _ _ _ _ _ HD) in Her. apply elem_of_list_omap in Her as (i & Hi & Ei).
    unfold it_err in Ei. destruct (it_res i) as [|e] eqn:Er; [done|]. injection Ei as <-. simpl.
    pose proof (ed_blame _ _ _ _ _ _ _ _ HD) as Hbl. rewrite Forall_forall in Hbl. split.
    - eapply failed_mono; [by apply Hbl|]. intros y Hy. apply elem_of_app. left. apply elem_of_app. by right.
    - exists (it_dev i). split; [done|]. pose proof (ed_ns _ _ _ _ _ _ _ _ HD) as Hns. rewrite Forall_forall in Hns. split; [by apply Hns|].
      eapply rounds_trusted; [by apply dkey_nodup|done|done|done|].
      assert (it_dev i ∈ it_dev <$> items) as Hin by (by apply elem_of_list_fmap_1).
      rewrite (ed_items _ _ _ _ _ _ _ _ HD) in Hin. by apply elem_of_list_filter in Hin as [_ ?].
  Qed.

  (** C75: with a set of backends that stay *)
  Section kept.
    Context (K : list string) (HP : forall w c r, P w c r -> keeps_backends K w c r).
    Lemma kp_distinct w c r : P w c r -> distinct_backends w c r.
    Proof. intros H%HP. destruct c; try done. by destruct H. Qed.
    Lemma kp_loaded l : answer P GLoaded l -> NoDup l /\ forall ns, ns ∈ K -> ns ∈ l.
    Proof. intros (w & _ & H). exact (HP _ _ _ H). Qed.
    Definition kept_by (d : device) : Prop := exists ns, head (dv_namespaces d) = Some ns /\ ns ∈ K.
    Lemma enc_kept msgs errs evs : exec (alone P) enc [] (Val (msgs, errs)) evs ->
      exists pre dec post, evs = post ++ dec ++ pre /\ Forall enc_pre pre /\ asked P mtd ident pre dec post /\ Forall enc_post post /\
        (forall d, last_eval d post = Some (Val Trusted) -> kept_by d -> dkey d ∈ (en_dkey <$> encs post) ++ (ee_dkey <$> errs)) /\
        (forall j, j ∈ bare_jids -> j <> c_jid cf ->
           (exists en, en ∈ encs post /\ en_jid en = j) \/
           (exists d, dv_jid d = j /\ last_eval d post = Some (Val Trusted) /\ ~ kept_by d)).
    Proof.
      intros (pre & dec & post & E & H1 & H2 & H3)%(norm_exec P cf (fun _ => True) any_x (conj I (conj I (conj I (conj I I)))) (fun l H => proj1 (kp_loaded l H))).
      exists pre, dec, post. split; [done|]. split; [done|]. split; [done|].
      destruct H3 as [[_ (e & He & _)]|[[_ H3]|[(_ & e & d' & rest & He & _)|H3]]]; [done|done|done|].
      destruct H3 as (devs' & ds & cache & e2 & e3 & p3 & Hca & Hpk & Hk & Hok & Hr2 & Hr3 & -> & Hf). apply fin_mid in Hf as Hm.
      pose proof kp_distinct as HP'.
      destruct (loop_trusted _ _ _ _ _ _ Hca Hk Hok Hr2 Hr3 Hm) as [Hp _]. split; [done|].
      destruct (mid_facts _ _ _ _ _ _ _ Hm) as (_ & Hne & _).
      assert (all_evals (e3 ++ e2)) as He by (apply Forall_app; split; by eapply round_evals).
      inversion Hf as [| | |bks st evs0 items ss Hb HD Hn Hss Ev Ep]; subst.
      assert (forall d, d ∈ ds <-> last_eval d ((stores ss ++ evs0) ++ e3 ++ e2) = Some (Val Trusted)) as Hl.
      { intros d. symmetry. eapply rounds_trusted; [by apply dkey_nodup|done|done|done]. }
      assert (forall d, d ∈ ds -> kept_by d -> exists i, i ∈ items /\ it_dev i = d) as Hit.
      { intros d Hd (ns & Hh & Hns). assert (d ∈ it_dev <$> items) as Hin.
        - rewrite (ed_items _ _ _ _ _ _ _ _ HD). apply elem_of_list_filter. split; [|done]. apply Exists_exists. exists ns.
          split; [by apply kp_loaded|done].
        - apply elem_of_list_fmap in Hin as (i & -> & Hi). by exists i. }
      rewrite encs_evals by done. rewrite encs_stores. split.
      - intros d Hd Hkp. apply Hl in Hd. destruct (Hit d Hd Hkp) as (i & Hi & <-).
        rewrite (ed_encs _ _ _ _ _ _ _ _ HD), (ed_err _ _ _ _ _ _ _ _ HD), <- Permutation_rev, items_keys.
        apply elem_of_list_fmap. exists (it_dev i). split; [done|]. by apply elem_of_list_fmap_1.
      - intros j Hj Hown.
        destruct (decide (Exists (fun d => dv_jid d = j) (es_devices st))) as [Hex|Hex].
        2: { exfalso. assert (j ∈ no_eligible cf jids (es_devices st)) as Hin; [|rewrite Hn in Hin; by apply elem_of_nil in Hin].
             apply no_elig. split; [apply elem_jids; by left|]. split; [done|]. intros d Hd Ej. apply Hex, Exists_exists. by exists d. }
        apply Exists_exists in Hex as (d & Hd & <-). rewrite (ed_devs _ _ _ _ _ _ _ _ HD) in Hd.
        apply elem_of_list_filter in Hd as [Hnf Hd].
        assert (Decision (kept_by d)) as [Hkp|Hkp].
        { destruct (head (dv_namespaces d)) as [ns|] eqn:Hh.
          - destruct (decide (ns ∈ K)); [left; by exists ns|right]. intros (ns' & Hh' & ?). congruence.
          - right. intros (ns' & Hh' & _). congruence. }
        + left. destruct (Hit d Hd Hkp) as (i & Hi & <-). destruct (it_res i) as [[x k]|e] eqn:Er.
          * eexists (Enc (it_ns i) (dv_jid (it_dev i)) (dv_id (it_dev i)) x k). split; [|done].
            rewrite (ed_encs _ _ _ _ _ _ _ _ HD), <- Permutation_rev.
            apply elem_of_list_omap. exists i. split; [done|]. unfold it_enc. by rewrite Er.
          * exfalso. apply Hnf. apply elem_of_list_omap. exists i. split; [done|]. unfold it_failed. by rewrite Er.
        + right. exists d. split; [done|]. split; [by apply Hl|done].
    Qed.
  End kept.

  (** C36 *)
  Section eligible.
    Context (L : list string) (HL : NoDup L) (HP : forall w c r, P w c r -> fixed_backends L w c r /\ not_no_eligible w c r)
      (Hm : forall und l l' js, ~ exec (alone P) (mtd und ident) l (Exn (ENoEligibleDevices js)) l').
    Lemma enc_eligible o evs : exec (alone P) enc [] o evs ->
      exists pre dec post, evs = post ++ dec ++ pre /\ Forall enc_pre pre /\ asked P mtd ident pre dec post /\ Forall enc_post post /\
        match o with
        | Val _ => forall j, j ∈ bare_jids -> j <> c_jid cf -> exists en, en ∈ encs post /\ en_jid en = j
        | Exn (ENoEligibleDevices l) => l <> [] /\ NoDup l /\ forall j, j ∈ l <-> j ∈ bare_jids /\ j <> c_jid cf /\ ~ exists en, en ∈ encs post /\ en_jid en = j
        | Exn _ => True
        end.
    Proof.
      set (okx := fun e => forall l, e <> ENoEligibleDevices l).
      assert (forall c r e, answer P c r -> resp_exn c r = Some e -> okx e \/ no_bundle c e) as Hx.
      { intros c r e (w & _ & H) Hr. left. intros l ->. destruct (HP _ _ _ H) as [_ H']. by apply (H' l). }
      assert (okx EKeyError /\ okx ETypeError /\ okx ENothing /\ okx EBinascii /\ okx EUnknownNamespace) as Hint.
      { unfold okx. do 4 (split; [done|]). done. }
      assert (forall w c r, P w c r -> fixed_backends L w c r) as HPf by (intros w c r H; by apply HP).
      intros H. apply (norm_exec P cf okx Hx Hint (fx_nd L HL HPf)) in H as (pre & dec & post & E & H1 & H2 & H3).
      exists pre, dec, post. split; [done|]. split; [done|]. split; [done|].
      assert (forall w c r, P w c r -> distinct_backends w c r) as HP'.
      { intros w [] r Hr; try done. simpl. by rewrite (HPf _ _ _ Hr). }
      destruct H3 as [[-> (e & -> & He)]|[[Hev ->]|[(Hev & e & d' & rest & -> & He & _)|H3]]].
      - split; [constructor|]. destruct e; try done. exfalso. destruct He as [He|(und & l0 & l0' & He)]; [by eapply He|]. by eapply Hm.
      - split; [|done]. eapply Forall_impl; [exact Hev|]. by intros [].
      - split; [eapply Forall_impl; [exact Hev|]; by intros []|]. destruct e; try done. exfalso. by eapply He.
      - destruct H3 as (devs' & ds & cache & e2 & e3 & p3 & Hca & Hpk & Hk & Hok & Hr2 & Hr3 & -> & Hf). apply fin_mid in Hf as Hmid.
        destruct (loop_trusted _ _ _ _ _ _ Hca Hk Hok Hr2 Hr3 Hmid) as [Hp _]. split; [done|].
        assert (all_evals (e3 ++ e2)) as He by (apply Forall_app; split; by eapply round_evals).
        rewrite encs_evals by done. destruct (mid_facts _ _ _ _ _ _ _ Hmid) as (_ & Hne & _).
        inversion Hf as [e evs0 He' Ht Ev Ep|bks st evs0 items Hb HD Hn Ev Ep|bks st evs0 items ss x e Hb HD Hn He' Ev Ep|bks st evs0 items ss Hb HD Hn Hss Ev Ep]; subst.
        + destruct e; try done. exfalso. by eapply He'.
        + destruct (loop_fixed L HPf _ _ _ _ _ _ _ _ _ _ Hk Hok Hr2 Hr3 Hb HD Hne) as (Hkd & Hi & Hl). split; [done|].
          split; [apply NoDup_filter, NoDup_jids|].
          intros j. rewrite no_elig, elem_jids. rewrite <- (eligible _ _ _ _ _ _ j HD Hkd Hi). split.
          * intros (A1 & A2 & A3). split; [by destruct A1|]. split; [done|]. intros (d & Hd & Ej). by eapply A3.
          * intros (A1 & A2 & A3). split; [by left|]. split; [done|]. intros d Hd Ej. apply A3. by exists d.
        + destruct e; try done. exfalso. by eapply He'.
        + destruct (loop_fixed L HPf _ _ _ _ _ _ _ _ _ _ Hk Hok Hr2 Hr3 Hb HD Hne) as (Hkd & Hi & Hl).
          intros j Hj Hown. rewrite encs_stores. apply (eligible _ _ _ _ _ _ j HD Hkd Hi).
          destruct (decide (Exists (fun d => dv_jid d = j) (es_devices st))) as [Hex|Hex].
          { apply Exists_exists in Hex as (d & H' & Hd). by exists d. }
          exfalso. assert (j ∈ no_eligible cf jids (es_devices st)) as Hin; [|rewrite Hn in Hin; by apply elem_of_nil in Hin].
          apply no_elig. split; [apply elem_jids; by left|]. split; [done|]. intros d Hd Ej. apply Hex, Exists_exists. by exists d.
    Qed.
  End eligible.
End thm.
