(** Proofs for C98: encrypt downloads no bundle twice. *)
From Verif Require Import Frugal PfStrs PfTyped PfWp PfFrame PfHist PfEmits PfInfo PfExec PfLog PfAlone PfEncrypt PfEncrypt2 PfFoot.
Open Scope prog_scope.
Open Scope list_scope.

Definition named (b : bundle) (n j : string) (x : Z) : Prop := b_ns b = n /\ b_jid b = j /\ b_dev b = x.
Lemma got_app l1 l2 n j x : got (l1 ++ l2) n j x <-> got l1 n j x \/ got l2 n j x.
Proof. unfold got. setoid_rewrite elem_of_app. naive_solver. Qed.
Lemma got_nil n j x : ~ got [] n j x.
Proof. intros (b & H). by apply elem_of_nil in H. Qed.
Lemma got_quiet evs n j x : Forall no_download evs -> ~ got evs n j x.
Proof. intros H (b & Hb). by apply (proj1 (Forall_forall _ _) H) in Hb. Qed.
Lemma na_cons e l : not_again l -> (forall n j x r, e = EvDownloadBundle n j x r -> ~ got l n j x) -> not_again (e :: l).
Proof.
  intros H He a n j x r b Eq. destruct a as [|e' a]; [injection Eq as -> ->; by eapply He|]. injection Eq as _ Eq. by eapply H.
Qed.
Lemma na_quiet evs l : Forall no_download evs -> not_again l -> not_again (evs ++ l).
Proof.
  intros H Hl. induction H as [|e evs He _ IH]; [done|]. simpl. apply na_cons; [done|]. intros n j x r ->. done.
Qed.

Section once.
  Context (P : world -> forall c, resp c -> Prop)
    (HP : forall w c r, P w c r -> distinct_backends w c r /\ downloads_named w c r).
  Notation WP p Q l := (wp (alone P) not_again p Q l).
  Notation HS := (alone_logged P).
  (** [l'] follows [l]; the bundles received meanwhile are in [K]. *)
  Definition gets (l l' : list event) (K : string -> string -> Z -> Prop) : Prop :=
    not_again l' /\ forall n j x, got l' n j x -> got l n j x \/ K n j x.
  Lemma gets_quiet l l' evs K : not_again l -> l' = evs ++ l -> Forall no_download evs -> gets l l' K.
  Proof.
    intros H -> He. split; [by apply na_quiet|]. intros n j x [Hg|Hg]%got_app; [|by left]. by apply (got_quiet _ n j x) in He.
  Qed.
  Lemma gets_trans l1 l2 l3 K1 K2 (K : string -> string -> Z -> Prop) : gets l1 l2 K1 -> gets l2 l3 K2 ->
    (forall n j x, K1 n j x -> K n j x) -> (forall n j x, K2 n j x -> K n j x) -> gets l1 l3 K.
  Proof. intros [_ H2] [H3 H4] HK1 HK2. split; [done|]. intros n j x Hg. apply H4 in Hg as [Hg|Hg]; [apply H2 in Hg as [Hg|Hg]|]; auto. Qed.
  Lemma wp_quiet {A} (Qo : outcome A -> Prop) (p : api A) l (Q : outcome A -> list event -> Prop) :
    emq no_download Qo p -> not_again l -> (forall o l', Qo o -> gets l l' (fun _ _ _ => False) -> Q o l') -> WP p Q l.
  Proof.
    intros Hp Hl HQ. eapply (gwp_em (alone P) (fun l => l) (fun _ => tt) P HS); [exact Hp| |].
    - intros s' evs -> He. by apply na_quiet.
    - intros o s' evs E He Ho. apply HQ; [done|]. by eapply gets_quiet.
  Qed.
  Lemma wp_quiet' {A} (p : api A) l (Q : outcome A -> list event -> Prop) :
    em no_download p -> not_again l -> (forall o l', gets l l' (fun _ _ _ => False) -> Q o l') -> WP p Q l.
  Proof. intros Hp Hl HQ. eapply wp_quiet; [exact Hp|done|auto]. Qed.
  Lemma wp_download n j x l (Q : outcome bundle -> list event -> Prop) :
    not_again l -> ~ got l n j x ->
    (forall r l', gets l l' (fun n' j' x' => n' = n /\ j' = j /\ x' = x /\ exists b, r = Val b) ->
       match r with Val b => named b n j x | Exn _ => True end -> Q r l') -> WP (n_download_bundle n j x) Q l.
  Proof.
    intros Hl Hg HQ. unfold n_download_bundle. apply (gwp_step (alone P) (fun l => l) (fun _ => tt) P HS).
    intros r l' (w & _ & Hr) -> _. apply HP in Hr as [_ Hr]. simpl.
    assert (not_again (EvDownloadBundle n j x r :: l)) as Hn by (apply na_cons; [done|]; by intros n' j' x' r' [= <- <- <- <-]).
    split; [done|]. apply wp_of_outcome. apply HQ; [|by destruct r]. split; [done|]. intros n' j' x' (b & [Hb|Hb]%elem_of_cons); [|by left; exists b].
    injection Hb as -> -> -> <-. right. eauto.
  Qed.
  Lemma wp_na {A} (p : api A) l (Q : outcome A -> list event -> Prop) : WP p Q l -> not_again l -> WP p (fun o l' => not_again l' /\ Q o l') l.
  Proof. intros H1 H2. by apply wp_inv. Qed.

  Context (cf : cfg).
  Lemma once_find j x l0 l : not_again l -> (forall n, ~ got l n j x) ->
    WP (find_key j x l0) (fun o l' => match o with
      | Val (Some b) => gets l l' (fun n' j' x' => j' = j /\ x' = x /\ named b n' j x)
      | Val None => gets l l' (fun _ _ _ => False)
      | Exn _ => True end) l.
  Proof.
    revert l. induction l0 as [|ns l0 IH]; intros l Hl Hg; cbn [find_key].
    - apply wp_ret'. by eapply (gets_quiet l l []).
    - apply wp_bind, wp_try, wp_download; [done|done|]. intros r l' Hgets Hr. destruct r as [b|e].
      + apply wp_bind. eapply wp_quiet'; [unfold store_bytes; ev|apply Hgets|]. intros o l2 H2. destruct o as [[]|e]; [|done]. apply wp_ret'.
        eapply gets_trans; [exact Hgets|exact H2| |done]. intros n' j' x' (-> & -> & -> & _). done.
      + assert (gets l l' (fun _ _ _ => False)) as Hq.
        { destruct Hgets as [G1 G2]. split; [done|]. intros n' j' x' [H|(_ & _ & _ & b & [=])]%G2. by left. }
        assert (WP (find_key j x l0) (fun o l' => match o with
          | Val (Some b) => gets l l' (fun n' j' x' => j' = j /\ x' = x /\ named b n' j x)
          | Val None => gets l l' (fun _ _ _ => False)
          | Exn _ => True end) l') as Hrec.
        { eapply wp_conseq; [apply IH|].
          - apply Hq.
          - intros n Hn. apply Hq in Hn as [Hn|[]]. by apply (Hg n).
          - intros [[b|]|e'] l2 H2; [| |done]; eapply gets_trans; (done || exact Hq || exact H2). }
        destruct e; try exact Hrec; exact I.
  Qed.
  Lemma em_rest j x nss ik : em no_download (dev_info_rest cf j x nss ik).
  Proof. unfold dev_info_rest. emt. ev. Qed.
  Lemma once_dev j acc x l : not_again l -> (forall n, ~ got l n j x) ->
    WP (dev_info cf j acc x) (fun o l' => match o with
      | Val acc' => gets l l' (fun n' j' x' => j' = j /\ x' = x /\ exists b, b ∈ acc'.2 /\ named b n' j x) /\ acc.2 ⊆ acc'.2
      | Exn _ => True end) l.
  Proof.
    intros Hl Hg. unfold dev_info.
    assert (forall l2 n, gets l l2 (fun _ _ _ => False) -> ~ got l2 n j x) as Hng.
    { intros l2 n [_ H] [H'|[]]%H. by apply (Hg n). }
    apply wp_bind. eapply wp_quiet'; [apply em_load|done|]. intros [m|e] l1 H1; [|done].
    apply wp_bind. eapply wp_quiet'; [apply em_from_just|apply H1|]. intros [nss|e] l2 H2; [|done].
    assert (gets l l2 (fun _ _ _ => False)) as G2 by (by eapply gets_trans).
    apply wp_bind. eapply wp_quiet'; [apply em_load|apply H2|]. intros [[ik|]|e] l3 H3; [| |done].
    - apply wp_bind. eapply wp_quiet'; [apply em_rest|apply H3|]. intros [d|e] l4 H4; [|done]. apply wp_ret'. split; [|done].
      eapply gets_trans; [eapply gets_trans; [exact G2|exact H3|done|intros ? ? ? []]|exact H4|intros ? ? ? []|intros ? ? ? []].
    - assert (gets l l3 (fun _ _ _ => False)) as G3 by (by eapply gets_trans).
      apply wp_bind. eapply wp_quiet'; [apply em_order|apply H3|]. intros [nso|e] l4 H4; [|done].
      assert (gets l l4 (fun _ _ _ => False)) as G4 by (by eapply gets_trans).
      apply wp_bind. eapply wp_conseq; [apply once_find; [apply G4|intros n; by apply Hng]|]. intros [[b|]|e] l5 H5; [| |done].
      + apply wp_bind. eapply wp_quiet'; [apply em_rest|apply H5|]. intros [d|e] l6 H6; [|done]. apply wp_ret'. split.
        * eapply gets_trans; [eapply gets_trans; [exact G4|exact H5|intros ? ? ? []|intros ? ? ? Hk; exact Hk]|exact H6| |intros ? ? ? []].
          intros n' j' x' (-> & -> & Hb). split; [done|]. split; [done|]. exists b. split; [|done]. simpl. apply elem_of_app. right. left.
        * simpl. intros b' Hb'. apply elem_of_app. by left.
      + apply wp_ret'. split; [|done]. eapply gets_trans; [exact G4|exact H5|intros ? ? ? []|intros ? ? ? []].
  Qed.
  Lemma once_info j l : not_again l -> (forall n x, ~ got l n j x) ->
    WP (get_device_information_ cf j) (fun o l' => match o with
      | Val r => gets l l' (fun n' j' x' => j' = j /\ exists b, b ∈ r.2 /\ named b n' j x')
      | Exn _ => True end) l.
  Proof.
    intros Hl Hg. unfold get_device_information_.
    apply wp_bind. eapply wp_quiet'; [apply em_load|done|]. intros [m|e] l1 H1; [|done].
    apply wp_bind. eapply (wp_quiet (val (fun l0 => l0 ≡ₚ pyset (Model.maybe [] m)))); [split; [by intros r _|]; intros r _; apply reorder_perm|apply H1|].
    intros [ids|e] l2 Hp H2; [|done]. cbn [val] in Hp.
    assert (gets l l2 (fun _ _ _ => False)) as G2 by (by eapply gets_trans).
    assert (NoDup ids) as Hnd by (rewrite Hp; apply NoDup_remove_dups).
    eapply wp_fold_prog with (L := fun pre (acc : list device * list bundle) l' => gets l l' (fun n' j' x' => j' = j /\ x' ∈ pre /\ exists b, b ∈ acc.2 /\ named b n' j x')).
    - eapply gets_trans; [exact G2|by eapply (gets_quiet l2 l2 [] (fun _ _ _ => False)); [apply G2| |]|intros ? ? ? []|intros ? ? ? []].
    - intros pre x post acc l3 El H3. eapply wp_conseq; [apply once_dev; [apply H3|]|].
      + intros n Hn. apply H3 in Hn as [Hn|(_ & Hx & _)]; [by apply (Hg n x)|]. subst ids. apply NoDup_app in Hnd as (_ & Hd & _). apply (Hd x Hx). left.
      + intros [acc'|e] l4; [|done]. intros [H4 Hs]. eapply gets_trans; [exact H3|exact H4| |].
        * intros n' j' x' (-> & Hx' & b & Hb & Hn). split; [done|]. split; [apply elem_of_app; by left|]. exists b. auto.
        * intros n' j' x' (-> & -> & b & Hb & Hn). split; [done|]. split; [apply elem_of_app; right; left|]. by exists b.
    - intros acc l3 H3. eapply gets_trans; [exact H3|eapply (gets_quiet l3 l3 [] (fun _ _ _ => False)); [apply H3|done|constructor]| |intros ? ? ? []].
      intros n' j' x' (-> & _ & Hb). by split.
  Qed.
  Lemma once_infos js l : NoDup js -> not_again l -> (forall n j x, j ∈ js -> ~ got l n j x) ->
    WP (map_prog (get_device_information_ cf) js) (fun o l' => match o with
      | Val tmp => gets l l' (fun n' j' x' => j' ∈ js /\ exists b, b ∈ concat (map snd tmp) /\ named b n' j' x')
      | Exn _ => True end) l.
  Proof.
    revert l. induction js as [|j js IH]; intros l Hnd Hl Hg; cbn [map_prog].
    - apply wp_ret'. by eapply (gets_quiet l l []).
    - apply NoDup_cons in Hnd as [Hj Hnd]. apply wp_bind. eapply wp_conseq; [apply once_info; [done|]|].
      + intros n x. apply Hg. left.
      + intros [t|e] l1 H1; [|done]. apply wp_bind. eapply wp_conseq; [apply IH; [done|apply H1|]|].
        * intros n j' x Hj' Hn. apply H1 in Hn as [Hn|(-> & _)]; [|done]. by apply (Hg n j' x); [right|].
        * intros [tmp|e] l2 H2; [|done]. apply wp_ret'. eapply gets_trans; [exact H1|exact H2| |].
          -- intros n' j' x' (-> & b & Hb & Hn). split; [left|]. exists b. split; [|done]. simpl. apply elem_of_app. by left.
          -- intros n' j' x' (Hj' & b & Hb & Hn). split; [by right|]. exists b. split; [|done]. simpl. apply elem_of_app. by right.
  Qed.

  (** the trust decision *)
  Lemma em_with t l : NoDup (dkey <$> l) -> emq no_download (val (fun r => NoDup (dkey <$> r))) (devices_with t l).
  Proof.
    intros Hn. unfold devices_with. apply obeys_bind. split; [by intros r _|]. intros r _. cbn [obeys].
    apply obeys_filter_prog.
    - intros d _. eapply obeys_conseq with (Q := fun _ => True); [emt; ev|]. by intros [].
    - intros r' Hr'. cbn [val]. eapply sublist_nodup; [|by apply fmap_sublist]. by rewrite reorder_perm.
  Qed.
  Lemma em_reload l : emq no_download (val (fun r => dkey <$> r = dkey <$> l)) (map_prog (reload_trust cf) l).
  Proof.
    induction l as [|d l IH]; cbn [map_prog]; [done|]. apply obeys_bind.
    eapply obeys_conseq with (Q := val (fun d' => dkey d' = dkey d)).
    - unfold reload_trust. apply obeys_bind. eapply obeys_conseq; [apply em_load|]. by intros [m|e] _.
    - intros [d'|e] Hd; [|done]. apply obeys_bind. eapply obeys_conseq; [exact IH|]. intros [r|e] Hr; [|done]. cbn [val] in *. cbn [obeys].
      change (dkey d' :: (dkey <$> r) = dkey d :: (dkey <$> l)). by rewrite Hd, Hr.
  Qed.
  Context (mtd : list device -> option string -> api unit) (Hm : forall ds i l l', reach (alone P) (mtd ds i) l l' ->
    exists new, l' = new ++ l /\ Forall no_download new).
  Lemma once_trust ident ds l : NoDup (dkey <$> ds) -> not_again l ->
    WP (enc_trust cf mtd ident ds) (fun o l' => match o with
      | Val ds' => gets l l' (fun _ _ _ => False) /\ NoDup (dkey <$> ds') | Exn _ => True end) l.
  Proof.
    intros Hn Hl. unfold enc_trust. apply wp_bind. eapply wp_quiet; [by apply em_with|done|]. intros [und|e] l1 _ H1; [|done].
    apply wp_bind. apply wp_conseq with (Q := fun o l' => match o with
      | Val ds' => gets l l' (fun _ _ _ => False) /\ NoDup (dkey <$> ds') | Exn _ => True end).
    - destruct und as [|u und]; [by apply wp_ret'|]. apply wp_bind. apply exec_wp.
      + intros o l2 Hx%exec_reach. destruct (Hm _ _ _ _ Hx) as (new & E & Hnew). destruct o as [[]|e]; [|done].
        assert (gets l l2 (fun _ _ _ => False)) as G2. { eapply gets_trans; [exact H1|eapply (gets_quiet l1 l2 new (fun _ _ _ => False)); [apply H1|exact E|exact Hnew]|done|done]. }
        apply wp_bind. eapply (wp_quiet (val (fun l0 => l0 ≡ₚ ds))); [split; [by intros r _|]; intros r _; apply reorder_perm|apply G2|].
        intros [ds2|e] l3 Hp H3; [|done]. cbn [val] in Hp. eapply wp_quiet; [apply em_reload|apply H3|].
        intros [ds3|e] l4 Hk H4; [|done]. cbn [val] in Hk. split; [|by rewrite Hk, Hp].
        eapply gets_trans; [eapply gets_trans; [exact G2|exact H3|done|intros ? ? ? []]|exact H4|intros ? ? ? []|done].
      + intros l2 Hx. destruct (Hm _ _ _ _ Hx) as (new & -> & Hnew). apply na_quiet; [done|apply H1].
    - intros [ds'|e] l2; [|done]. intros [H2 Hn2]. apply wp_bind. eapply wp_quiet; [by apply em_with|apply H2|]. intros [und'|e] l3 _ H3; [|done].
      destruct und'; [|done]. eapply wp_quiet; [by apply em_with|apply H3|]. intros [ds3|e] l4 Hn4 H4; [|done]. split; [|exact Hn4].
      eapply gets_trans; [eapply gets_trans; [exact H2|exact H3|done|intros ? ? ? []]|exact H4|intros ? ? ? []|done].
  Qed.

  (** the encryption loop *)
  Section loop.
    Context (cache : list bundle).
    Definition cached (n j : string) (x : Z) : Prop := exists b, b ∈ cache /\ named b n j x.
    Lemma once_device ns p acc d l :
      not_again l -> (cached ns (dv_jid d) (dv_id d) \/ ~ got l ns (dv_jid d) (dv_id d)) ->
      WP (enc_device ns p cache acc d) (fun o l' => match o with
        | Val r => gets l l' (fun n' j' x' => n' = ns /\ j' = dv_jid d /\ x' = dv_id d) /\ es_devices r.1 `sublist_of` es_devices acc.1
        | Exn _ => True end) l.
    Proof.
      intros Hl Hg. destruct acc as [st keys]. unfold enc_device.
      apply wp_bind. eapply wp_quiet'; [ev|done|]. intros [m|e] l1 H1; [|done].
      apply wp_bind. eapply (wp_quiet (val (fun l0 => l0 ≡ₚ cache))); [split; [by intros r _|]; intros r _; apply reorder_perm|apply H1|].
      intros [ca|e] l2 Hp H2; [|done]. cbn [val] in Hp. cbv zeta.
      assert (gets l l2 (fun _ _ _ => False)) as G2 by (by eapply gets_trans).
      apply wp_bind, wp_try.
      apply wp_conseq with (Q := fun _ l' => gets l l' (fun n' j' x' => n' = ns /\ j' = dv_jid d /\ x' = dv_id d)).
      - assert (forall l3, gets l l3 (fun n' j' x' => n' = ns /\ j' = dv_jid d /\ x' = dv_id d) -> forall (q : api (session * ekm)), em no_download q ->
          WP q (fun _ l' => gets l l' (fun n' j' x' => n' = ns /\ j' = dv_jid d /\ x' = dv_id d)) l3) as Hq.
        { intros l3 G3 q Hq. eapply wp_quiet'; [exact Hq|apply G3|]. intros o l4 H4. by eapply gets_trans. }
        assert (gets l l2 (fun n' j' x' => n' = ns /\ j' = dv_jid d /\ x' = dv_id d)) as G2'.
        { destruct G2 as [G G']. split; [done|]. intros n j x [H|[]]%G'. by left. }
        destruct m as [s|]; [apply Hq; [exact G2'|ev]|].
        apply wp_bind. destruct (head _) as [b|] eqn:Eh; [apply wp_ret', Hq; [exact G2'|ev]|].
        apply wp_download; [apply G2| |].
        + intros Hgot. apply G2 in Hgot as [Hgot|[]]. destruct Hg as [(b & Hb & Hn)|Hg]; [|done].
          assert (b ∈ filter (fun b => b_ns b = ns /\ b_jid b = dv_jid d /\ b_dev b = dv_id d) ca) as Hin.
          { apply elem_of_list_filter. split; [exact Hn|]. by rewrite Hp. }
          destruct (filter _ ca); [by apply elem_of_nil in Hin|done].
        + intros r l3 H3 _. assert (gets l l3 (fun n' j' x' => n' = ns /\ j' = dv_jid d /\ x' = dv_id d)) as G3.
          { eapply gets_trans; [exact G2|exact H3|intros ? ? ? []|]. naive_solver. }
          destruct r as [b|e]; [|exact G3]. apply Hq; [exact G3|ev].
      - intros o l3 G3. assert (forall l0 : list device, filter (fun d' => d' <> d) l0 `sublist_of` l0) as Hsub by (intros; apply filter_sublist).
        destruct o as [[s e]|e]; [by apply wp_ret'|]. destruct e; try exact I; apply wp_ret'; split; (exact G3 || apply Hsub).
    Qed.
    Definition sofar (bks : list string) (n j : string) (x : Z) : Prop := cached n j x \/ n ∈ bks.
    Lemma once_backend pt st ns bks l : not_again l -> (forall n j x, got l n j x -> sofar bks n j x) -> ns ∉ bks -> NoDup (dkey <$> es_devices st) ->
      WP (enc_backend cf pt cache st ns) (fun o l' => match o with
        | Val st' => not_again l' /\ (forall n j x, got l' n j x -> sofar (bks ++ [ns]) n j x) /\ NoDup (dkey <$> es_devices st')
        | Exn _ => True end) l.
    Proof.
      intros Hl Hg Hns Hn. unfold enc_backend.
      assert (forall n j x, sofar bks n j x -> sofar (bks ++ [ns]) n j x) as Hmore.
      { intros n j x [H|H]; [by left|right]. apply elem_of_app. by left. }
      assert (NoDup (dkey <$> filter (fun d => head (dv_namespaces d) = Some ns) (es_devices st))) as Hnf.
      { eapply sublist_nodup; [exact Hn|]. apply fmap_sublist, filter_sublist. }
      destruct (filter _ (es_devices st)) as [|d0 l0]; [apply wp_ret'; split; [done|]; split; [auto|done]|].
      apply wp_bind. eapply wp_quiet'; [apply em_key_error|done|]. intros [pt'|e] l1 H1; [|done].
      apply wp_bind. eapply wp_quiet'; [ev|apply H1|]. intros [[c p]|e] l2 H2; [|done].
      apply wp_bind. eapply (wp_quiet (val (fun l' => l' ≡ₚ d0 :: l0))); [split; [by intros r _|]; intros r _; apply reorder_perm|apply H2|].
      intros [ds|e] l3 Hp H3; [|done]. cbn [val] in Hp. rewrite <- Hp in Hnf.
      assert (gets l l3 (fun _ _ _ => False)) as G3. { eapply gets_trans; [eapply gets_trans; [exact H1|exact H2|done|done]|exact H3|intros ? ? ? []|done]. }
      apply wp_bind.
      eapply wp_fold_prog with (L := fun pre (acc : enc_state * list (ekm * option kex)) l' => not_again l' /\
        (forall n j x, got l' n j x -> sofar bks n j x \/ (n = ns /\ (j, x) ∈ dkey <$> pre)) /\ es_devices acc.1 `sublist_of` es_devices st).
      - split; [apply G3|]. split; [|done]. intros n j x [H|[]]%G3. left. auto.
      - intros pre d post acc l4 El (I1 & I2 & I3). eapply wp_conseq; [apply once_device; [exact I1|]|].
        + assert (dkey d ∉ dkey <$> pre) as Hd.
          { rewrite El, fmap_app, fmap_cons in Hnf. apply NoDup_app in Hnf as (_ & Hd & _). intros Hin. apply (Hd _ Hin). left. }
          destruct (decide (Exists (fun b => b_ns b = ns /\ b_jid b = dv_jid d /\ b_dev b = dv_id d) cache)) as [He|He].
          * left. apply Exists_exists in He as (b & Hb & Hb'). by exists b.
          * right. intros [[(b & Hb & Hb')|H]|[_ H]]%I2; [|done|by apply Hd]. apply He, Exists_exists. by exists b.
        + intros [r|e] l5; [|done]. intros [[J1 J2] J3]. split; [done|]. split; [|by etrans].
          intros n j x [H|(-> & -> & ->)]%J2.
          * apply I2 in H as [H|[-> H]]; [by left|right]. split; [done|]. rewrite fmap_app. apply elem_of_app. by left.
          * right. split; [done|]. rewrite fmap_app. apply elem_of_app. right. left.
      - intros [st' keys] l4 (I1 & I2 & I3). apply wp_ret'. split; [done|]. split.
        + intros n j x [H|[-> _]]%I2; [auto|]. right. apply elem_of_app. right. left.
        + eapply sublist_nodup; [exact Hn|]. by apply fmap_sublist.
    Qed.
  End loop.
  Lemma encrypt_once jids pt prio ident evs : reach (alone P) (encrypt cf mtd jids pt prio ident) [] evs -> not_again evs.
  Proof.
    assert (not_again []) as H0 by (intros [|? ?]; done).
    apply (wp_reach _ not_again _ (fun _ _ => True)); [|exact H0]. unfold encrypt. cbv zeta.
    assert (forall A (p : api A) l, em no_download p -> not_again l -> WP p (fun _ _ => True) l) as Hem.
    { intros A p l Hp Hl. by eapply wp_quiet'. }
    apply wp_bind. eapply wp_quiet'; [apply em_loaded|done|]. intros [av|e] l1 H1; [|done].
    apply wp_bind. eapply wp_quiet'; [emt|apply H1|]. intros [pr|e] l2 H2; [|done].
    apply wp_bind. eapply (wp_quiet (val (fun l' => l' ≡ₚ set_union (pyset jids) [c_jid cf]))); [split; [by intros r _|]; intros r _; apply reorder_perm|apply H2|].
    intros [js|e] l3 Hp H3; [|done]. cbn [val] in Hp.
    assert (forall n j x, ~ got l3 n j x) as Hg.
    { intros n j x [H|[]]%H3. apply H2 in H as [H|[]]. apply H1 in H as [H|[]]. by apply got_nil in H. }
    assert (NoDup js) as Hnd.
    { rewrite Hp. unfold set_union. apply NoDup_app. split; [apply NoDup_remove_dups|]. split.
      - intros j Hj Hj'. unfold set_diff in Hj'. apply elem_of_list_filter in Hj' as [Hj' _]. done.
      - unfold set_diff. apply NoDup_filter, NoDup_singleton. }
    apply wp_bind. eapply wp_conseq; [eapply wp_mono; [apply wp_and; [apply once_infos; [exact Hnd|apply H3|]|
      apply (infos_shape (alone P) (fun l => l) (fun _ => tt) P HS cf (fun _ => True)); [auto|done]]| |]|].
    { intros n j x _. apply Hg. }
    { intros l [H _]. exact H. }
    { intros o l H. exact H. }
    intros [tmp|e] l4; [|done]. intros [H4 Hsh].
    apply wp_bind. destruct (valid_recipients cf pr _) as [v|] eqn:Ev; [|done]. apply wp_ret'.
    apply wp_bind. destruct (mapM (apply_priority pr) v) as [a|] eqn:Ea; [|done]. apply wp_ret'.
    destruct (selected_spec cf P js pr tmp (filter (fun d => dv_namespaces d <> []) a) Hsh Hnd) as (Hk & _); [by exists v, a|].
    apply wp_bind. eapply wp_conseq; [apply once_trust; [exact Hk|apply H4]|]. intros [ds|e] l5; [|done]. intros [H5 Hkd].
    apply wp_bind. eapply (gwp_loaded (alone P) (fun l => l) (fun _ => tt) P HS). intros bks l6 (w & _ & Hb) [-> _]. apply HP in Hb as [Hb _]. simpl in Hb.
    split; [apply H5|]. apply wp_bind.
    eapply wp_fold_prog with (L := fun bks' st l' => not_again l' /\ (forall n j x, got l' n j x -> sofar (concat (map snd tmp)) bks' n j x) /\ NoDup (dkey <$> es_devices st)).
    - split; [apply H5|]. split; [|done]. intros n j x Hx. simpl in Hx. apply H5 in Hx as [Hx|[]]. apply H4 in Hx as [Hx|(_ & Hx)]; [by apply Hg in Hx|]. by left.
    - intros pre ns post st l7 El (I1 & I2 & I3). eapply wp_conseq; [apply once_backend; [exact I1|exact I2| |exact I3]|].
      + rewrite El in Hb. apply NoDup_app in Hb as (_ & Hd & _). intros Hin. apply (Hd _ Hin). left.
      + intros [st'|e] l8 H8; [exact H8|done].
    - intros st l7 (I1 & _). apply Hem; [|exact I1]. emt. ev.
  Qed.
End once.
