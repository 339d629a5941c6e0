(** Blind Trust Before Verification. *)
From Verif Require Import Api Spec Alone Btbv PfWp PfHist PfEmits PfAlone PfLog PfExec PfDevices PfInfo PfTrust PfDec.
Open Scope prog_scope.
Open Scope list_scope.

Lemma exec_assoc {C} {R : C -> Type} {W} (S : @sem C R W) {A B D} (p : prog R A) (f : A -> prog R B) (g : B -> prog R D) w o w' :
  exec S (bind (bind p f) g) w o w' <-> exec S (bind p (fun a => bind (f a) g)) w o w'.
Proof.
  revert w. induction p as [a|e|c k IH]; intros w; [done|done|]. cbn [bind exec]. split; intros (r & Hr & H); exists r; split; [done| |done|]; by apply IH.
Qed.
Lemma reach_assoc {C} {R : C -> Type} {W} (S : @sem C R W) {A B D} (p : prog R A) (f : A -> prog R B) (g : B -> prog R D) w w' :
  reach S (bind (bind p f) g) w w' <-> reach S (bind p (fun a => bind (f a) g)) w w'.
Proof.
  revert w. induction p as [a|e|c k IH]; intros w; [done|done|]. cbn [bind reach].
  split; (intros [->|(r & Hr & H)]; [by left|right]; exists r; split; [done|]; by apply IH).
Qed.

Lemma btbv_levels d :
  (btbv_eval d = Val Trusted <-> dv_trust d = "TRUSTED" \/ dv_trust d = "BLINDLY_TRUSTED")%string /\
  (btbv_eval d = Val Undecided <-> dv_trust d = "UNDECIDED")%string /\
  (btbv_eval d = Val Distrusted <-> dv_trust d = "DISTRUSTED")%string /\
  (btbv_eval d = Exn EUnknownTrustLevel <-> dv_trust d ∉ ["TRUSTED"; "BLINDLY_TRUSTED"; "UNDECIDED"; "DISTRUSTED"])%string.
Proof.
  unfold btbv_eval, btbv_of. rewrite !not_elem_of_cons. assert (dv_trust d ∉ []) by apply not_elem_of_nil.
  repeat case_decide; repeat split; intros; try done; try (by auto); try congruence; naive_solver congruence.
Qed.

Lemma all_blind l :
  match btbv_all_blind l with
  | Val true => forall d, d ∈ l -> blind_level (dv_trust d)
  | Val false => exists d, d ∈ l /\ manual_level (dv_trust d)
  | Exn e => e = EValueError /\ exists d, d ∈ l /\ btbv_eval d = Exn EUnknownTrustLevel
  end.
Proof.
  induction l as [|d l IH]; simpl; [by intros d ?%elem_of_nil|].
  assert (btbv_of (dv_trust d) = None -> btbv_eval d = Exn EUnknownTrustLevel) as HN by (unfold btbv_eval; by intros ->).
  assert (forall b, btbv_of (dv_trust d) = Some b -> match b with BTrusted | BDistrusted => manual_level (dv_trust d) | _ => blind_level (dv_trust d) end) as HS.
  { intros b. unfold btbv_of, manual_level, blind_level. repeat case_decide; intros [= <-]; auto. }
  destruct (btbv_of (dv_trust d)) as [b|] eqn:E.
  - specialize (HS b eq_refl). destruct (decide _) as [Hb|Hb].
    + assert (blind_level (dv_trust d)) by (destruct Hb as [->| ->]; exact HS).
      destruct (btbv_all_blind l) as [[|]|].
      * intros d' [->|H']%elem_of_cons; [done|]. by apply IH.
      * destruct IH as (d' & ? & ?). exists d'. split; [by right|done].
      * destruct IH as (-> & d' & ? & ?). split; [done|]. exists d'. split; [by right|done].
    + exists d. split; [left|]. destruct b; [done| | |done]; by destruct Hb; auto.
  - split; [done|]. exists d. split; [left|by apply HN].
Qed.

(** the decision without the prompt: returns the devices to be decided manually *)
Definition btbv_look (c : cfg) (acc : list string * list string) (jid : string) : api (list string * list string) :=
  devices <- get_device_information c jid ;;
  devices' <- order devices ;;
  blind <- of_outcome (btbv_all_blind devices') ;;
  Ret (if blind : bool then (acc.1 ++ [jid], acc.2) else (acc.1, acc.2 ++ [jid])).
Definition btbv_trust (undecided : list device) (identifier : option string) (pools : list string * list string) : api unit :=
  let blindly := filter (fun d => dv_jid d ∈ pools.1) undecided in
  match blindly with
  | [] => Ret tt
  | _ =>
      l <- order blindly ;;
      for_each l (fun d => set_trust (dv_jid d) (dv_ik d) "BLINDLY_TRUSTED"%string) ;;;
      t_blind blindly identifier
  end.
Definition btbv_own (c : cfg) (undecided : list device) (identifier : option string) : api (list device) :=
  jids <- order (pyset (map dv_jid undecided)) ;;
  pools <- fold_prog jids (btbv_look c) ([], []) ;;
  btbv_trust undecided identifier pools ;;;
  Ret (filter (fun d => dv_jid d ∈ pools.2) undecided).
Definition btbv_ask (prompt : list device -> option string -> api unit) (identifier : option string) (manually : list device) : api unit :=
  match manually with [] => Ret tt | _ => prompt manually identifier end.

Section gen.
  Context {W} (S : @sem cmd resp W) (c : cfg) (prompt : list device -> option string -> api unit).
  Lemma btbv_split_exec und ident w o w' :
    exec S (btbv_mtd c prompt und ident) w o w' -> exec S (bind (btbv_own c und ident) (btbv_ask prompt ident)) w o w'.
  Proof.
    intros H. unfold btbv_own. apply exec_assoc. unfold btbv_mtd in H.
    apply exec_bind in H as [(jids & w1 & H1 & H)|(e & H1 & ->)]; apply exec_bind; [left|right; eauto]. exists jids, w1. split; [done|].
    apply exec_assoc.
    apply exec_bind in H as [(pools & w2 & H2 & H)|(e & H2 & ->)]; apply exec_bind; [left|right; eauto]. exists pools, w2. split; [exact H2|].
    apply exec_assoc.
    apply exec_bind in H as [([] & w3 & H3 & H)|(e & H3 & ->)]; apply exec_bind; [left|right]; [exists tt, w3|exists e; split; [|done]]; [split|].
    - unfold btbv_trust. exact H3.
    - cbn [bind]. exact H.
    - exact H3.
  Qed.
  Lemma btbv_split_reach und ident w w' :
    reach S (btbv_mtd c prompt und ident) w w' -> reach S (bind (btbv_own c und ident) (btbv_ask prompt ident)) w w'.
  Proof.
    intros H. unfold btbv_own. apply reach_assoc. unfold btbv_mtd in H.
    apply reach_bind in H as [H|(jids & w1 & H1 & H)]; apply reach_bind; [left; done|right]. exists jids, w1. split; [done|].
    apply reach_assoc.
    apply reach_bind in H as [H|(pools & w2 & H2 & H)]; apply reach_bind; [left; exact H|right]. exists pools, w2. split; [exact H2|].
    apply reach_assoc.
    apply reach_bind in H as [H|([] & w3 & H3 & H)]; apply reach_bind; [left; exact H|right]. exists tt, w3. split; [exact H3|].
    cbn [bind]. exact H.
  Qed.

  Definition pool_spec (l : list (string * list device)) (blind manual : list string) : Prop :=
    (forall j, j ∈ blind -> exists ds, (j, ds) ∈ l /\ forall d, d ∈ ds -> blind_level (dv_trust d)) /\
    (forall j, j ∈ manual -> exists ds d, (j, ds) ∈ l /\ d ∈ ds /\ manual_level (dv_trust d)) /\
    (forall j ds, (j, ds) ∈ l -> j ∈ blind \/ j ∈ manual).
  Lemma order_exec {A} (l : list A) w o w' : exec S (order l) w o w' -> exists l' r, l' ≡ₚ l /\ o = Val l' /\ w' = Prog.apply S w CPerm r /\ allowed S w CPerm r.
  Proof. intros (r & Hr & H1 & H2). simpl in H2. exists (reorder r l), r. split; [apply reorder_perm|done]. Qed.
  Context (Hq : forall w r, allowed S w CPerm r -> Prog.apply S w CPerm r = w).
  Lemma look_fold jids acc w p w' : exec S (fold_prog jids (btbv_look c) acc) w (Val p) w' ->
    exists l b m, looked_up S c l w w' /\ map fst l = jids /\ p = (acc.1 ++ b, acc.2 ++ m) /\ pool_spec l b m.
  Proof.
    revert acc w. induction jids as [|j jids IH]; intros acc w.
    { intros [[= ->] ->]. exists [], [], []. split; [constructor|]. split; [done|]. split; [rewrite !app_nil_r; by destruct acc|].
      split; [by intros j ?%elem_of_nil|]. split; [by intros j ?%elem_of_nil|]. by intros j ds ?%elem_of_nil. }
    cbn [fold_prog]. intros H. apply exec_bind in H as [(acc' & w1 & H1 & H)|(e & _ & ?)]; [|done].
    unfold btbv_look in H1. apply exec_bind in H1 as [(ds & w2 & H1 & H2)|(e & _ & ?)]; [|done].
    apply exec_bind in H2 as [(ds' & w3 & Ho & H2)|(e & _ & ?)]; [|done]. apply order_exec in Ho as (ds0 & r & Hp & [= <-] & -> & Hr). rewrite Hq in H2 by done.
    pose proof (all_blind ds') as Hb. destruct (btbv_all_blind ds') as [b|e]; [|by destruct H2]. cbn [of_outcome bind] in H2. destruct H2 as [[= ->] ->].
    apply IH in H as (l & b0 & m0 & Hl & El & -> & S1 & S2 & S3).
    destruct b; simpl.
    - exists ((j, ds) :: l), (j :: b0), m0. split; [by econstructor|]. split; [simpl; by rewrite El|]. split; [by rewrite <- app_assoc|].
      split; [|split].
      + intros j' [->|Hj]%elem_of_cons; [exists ds; split; [left|]; intros d Hd; apply Hb; by rewrite Hp|].
        destruct (S1 j' Hj) as (ds1 & ? & ?). exists ds1. split; [by right|done].
      + intros j' Hj. destruct (S2 j' Hj) as (ds1 & d & ? & ?). exists ds1, d. split; [by right|done].
      + intros j' ds1 [[= -> ->]|Hj]%elem_of_cons; [left; left|]. destruct (S3 _ _ Hj); [left; by right|by right].
    - exists ((j, ds) :: l), b0, (j :: m0). split; [by econstructor|]. split; [simpl; by rewrite El|]. split; [by rewrite <- app_assoc|].
      destruct Hb as (d & Hd & Hm). split; [|split].
      + intros j' Hj. destruct (S1 j' Hj) as (ds1 & ? & ?). exists ds1. split; [by right|done].
      + intros j' [->|Hj]%elem_of_cons; [exists ds, d; split; [left|]; by rewrite <- Hp|].
        destruct (S2 j' Hj) as (ds1 & d' & ? & ?). exists ds1, d'. split; [by right|done].
      + intros j' ds1 [[= -> ->]|Hj]%elem_of_cons; [right; left|]. destruct (S3 _ _ Hj); [by left|right; by right].
  Qed.
  (** Everything: the lookups are under way; or they are done and the blind trust is under way; or the prompt was reached. *)
  Lemma own_reach und ident w w' : reach S (btbv_own c und ident) w w' ->
    (exists jids, jids ≡ₚ pyset (map dv_jid und) /\ reach S (fold_prog jids (btbv_look c) ([], [])) w w') \/
    exists l b m w1, looked_up S c l w w1 /\ map fst l ≡ₚ pyset (map dv_jid und) /\ pool_spec l b m /\ reach S (btbv_trust und ident (b, m)) w1 w'.
  Proof.
    unfold btbv_own. cbn [order bind reach]. intros [->|(r & Hr & H)].
    { left. exists (pyset (map dv_jid und)). split; [done|]. by destruct (fold_prog _ _ _); left. }
    rewrite Hq in H by done. apply reach_bind in H as [H|(p & w1 & H1 & H)].
    { left. eexists. split; [apply reorder_perm|exact H]. }
    apply look_fold in H1 as (l & b & m & Hl & El & -> & Hp). right. exists l, b, m, w1. split; [done|]. split; [rewrite El; apply reorder_perm|]. split; [done|].
    apply reach_bind in H as [H|([] & w2 & H2 & H)]; [exact H|]. destruct H as [->|[]]. by eapply exec_reach.
  Qed.
  Lemma own_exec und ident w man w' : exec S (btbv_own c und ident) w (Val man) w' ->
    exists l b m w1, looked_up S c l w w1 /\ map fst l ≡ₚ pyset (map dv_jid und) /\ pool_spec l b m /\
      exec S (btbv_trust und ident (b, m)) w1 (Val tt) w' /\ man = filter (fun d => dv_jid d ∈ m) und.
  Proof.
    unfold btbv_own. cbn [order bind exec]. intros (r & Hr & H). rewrite Hq in H by done.
    apply exec_bind in H as [(p & w1 & H1 & H)|(e & _ & ?)]; [|done].
    apply look_fold in H1 as (l & b & m & Hl & El & -> & Hp). exists l, b, m, w1. split; [done|]. split; [rewrite El; apply reorder_perm|]. split; [done|].
    apply exec_bind in H as [([] & w2 & H2 & H)|(e & _ & ?)]; [|done]. by destruct H as [[= ->] ->].
  Qed.
End gen.

(** events of the parts *)
Lemma em_look c jids acc : em (fun e => exists j, j ∈ jids /\ ev_info j e) (fold_prog jids (btbv_look c) acc).
Proof.
  apply em_fold. intros b j Hj. unfold btbv_look. apply em_bind; [|intros ds; emt].
  eapply em_mono; [apply em_info|eauto|done].
Qed.
Definition trust_ev (und : list device) (ident : option string) (b : list string) (e : event) : Prop :=
  (exists d r, d ∈ und /\ dv_jid d ∈ b /\ e = EvStore (item_key (ITrust (dv_jid d) (dv_ik d))) (JStr "BLINDLY_TRUSTED"%string) r) \/
  (exists ds r, (forall d, d ∈ ds -> d ∈ und /\ dv_jid d ∈ b) /\ e = EvBlind ds ident r).
Lemma em_trust und ident p : em (trust_ev und ident p.1) (btbv_trust und ident p).
Proof.
  unfold btbv_trust. cbv zeta. assert (forall d, d ∈ filter (fun d => dv_jid d ∈ p.1) und -> d ∈ und /\ dv_jid d ∈ p.1) as Hf.
  { intros d [? ?]%elem_of_list_filter. done. }
  destruct (filter _ und) as [|d0 l0]; [exact Logic.I|]. set (l1 := d0 :: l0) in *. clearbody l1. split; [by intros r _|]. intros r _. cbn [bind].
  apply em_bind; [|intros _].
  - apply em_for_each. intros d Hd. rewrite reorder_perm in Hd. apply Hf in Hd as [? ?]. unw. split; [|intros; apply em_of_outcome].
    intros r' _. left. by exists d, r'.
  - unw. split; [|intros; apply em_of_outcome]. intros r' _. right. by exists l1, r'.
Qed.

Notation accounts und := (pyset (map dv_jid und)).
Lemma elem_accounts j und : j ∈ accounts und <-> exists d, d ∈ und /\ dv_jid d = j.
Proof. rewrite elem_pyset, (elem_of_list_fmap dv_jid). naive_solver. Qed.
Lemma looks_unique (looks : list (string * list device)) l j ds ds' : map fst looks ≡ₚ pyset l -> (j, ds) ∈ looks -> (j, ds') ∈ looks -> ds = ds'.
Proof.
  intros Hp H1 H2. assert (NoDup (map fst looks)) as Hn by (rewrite Hp; apply NoDup_remove_dups).
  clear Hp. induction looks as [|[j0 d0] looks IH]; [by apply elem_of_nil in H1|]. simpl in Hn. apply NoDup_cons in Hn as [Hn0 Hn].
  assert (forall d, (j, d) ∈ looks -> j ∈ map fst looks) as Hin by (intros d Hd; apply (elem_of_list_fmap_1 fst _ _ Hd)).
  apply elem_of_cons in H1, H2. destruct H1 as [[= -> ->]|H1], H2 as [E|H2]; [by injection E as ->|by destruct Hn0; eauto|injection E as -> ->; by destruct Hn0; eauto|by apply IH].
Qed.
Lemma levels_disjoint s : manual_level s -> blind_level s -> False.
Proof. intros [->| ->] [H|H]; discriminate H. Qed.
(** a device is handed to the prompt iff its account has a device that was decided manually *)
Lemma manual_iff (looks : list (string * list device)) und b m d : map fst looks ≡ₚ accounts und -> pool_spec looks b m ->
  (d ∈ filter (fun d => dv_jid d ∈ m) und <-> d ∈ und /\ exists ds d', (dv_jid d, ds) ∈ looks /\ d' ∈ ds /\ manual_level (dv_trust d')).
Proof.
  intros Hp (S1 & S2 & S3). rewrite elem_of_list_filter. split.
  - intros [H1 H2]. split; [done|]. destruct (S2 _ H1) as (ds & d' & ? & ? & ?). eauto.
  - intros (Hd & ds & d' & H1 & H2 & H3). split; [|done]. destruct (S3 _ _ H1) as [Hb|]; [|done].
    destruct (S1 _ Hb) as (ds' & H4 & H5). rewrite (looks_unique _ _ _ _ _ Hp H1 H4) in H2. by destruct (levels_disjoint _ H3 (H5 _ H2)).
Qed.
Definition store_key (e : event) : option string := match e with EvStore k _ _ => Some k | _ => None end.
Lemma sets_key j e : sets_trust j e -> exists ik, store_key e = Some (k_trust j ik).
Proof. intros (ik & v & r & ->). by exists ik. Qed.
Lemma info_btbv und ident j e : j ∈ accounts und -> ev_info j e -> btbv_ev und ident e /\ forall j', ~ sets_trust j' e.
Proof.
  intros (d & Hd & <-)%elem_accounts [x l r|x ik r|ns x r]; (split; [left; exists d; split; [done|]|intros j' (ik' & E)%sets_key; cbn [store_key] in E]).
  - right. left. by exists x, (j_strs l), r.
  - apply (inj Some) in E. revert E. kneq.
  - right. right. by exists x, (JStr (b64enc ik)), r.
  - apply (inj Some) in E. revert E. kneq.
  - left. by exists ns, x, r.
  - discriminate E.
Qed.
Lemma trust_btbv und ident b e : trust_ev und ident b e -> btbv_ev und ident e.
Proof.
  intros [(d & r & H1 & _ & ->)|(ds & r & H & ->)]; right; [left; by exists d, r|right]. exists ds, r. split; [|done]. intros d Hd. by apply H.
Qed.
Lemma trust_sets und ident b e j : trust_ev und ident b e -> sets_trust j e -> j ∈ b.
Proof.
  intros [(d & r & H1 & H2 & ->)|(ds & r & H & ->)] (ik & E)%sets_key; [|discriminate E]. cbn [store_key] in E. apply (inj Some) in E.
  apply (core_inj (ITrust (dv_jid d) (dv_ik d)) (ITrust j ik)) in E; [|exact Logic.I]. by injection E as <- _.
Qed.

Section alone.
  Context (P : world -> forall c, resp c -> Prop) (c : cfg) (prompt : list device -> option string -> api unit).
  Notation S := (alone P).
  Lemma quiet_alone w r : allowed S w CPerm r -> Prog.apply S w CPerm r = w.
  Proof. done. Qed.
  Lemma looked_alone looks l l' : looked_up S c looks l l' -> exists new, l' = new ++ l /\ Forall (fun e => exists j, j ∈ map fst looks /\ ev_info j e) new.
  Proof.
    induction 1 as [w|j ds looks w w1 w2 H _ (new & -> & IH)]; [by exists []|].
    destruct (em_alone P (ev_info j) (fun _ => True) _ w (em_info c j)) as [H1 _]. apply H1 in H as (_ & evs & -> & He).
    exists (new ++ evs). split; [by rewrite app_assoc|]. apply Forall_app. split.
    - eapply Forall_impl; [exact IH|]. intros e (j' & Hj & He'). exists j'. split; [by right|done].
    - eapply Forall_impl; [exact He|]. intros e He'. exists j. split; [left|done].
  Qed.
  Lemma btbv_reach und ident evs : reach S (btbv_mtd c prompt und ident) [] evs ->
    (Forall (btbv_ev und ident) evs /\ forall e j, e ∈ evs -> ~ sets_trust j e) \/
    exists looks l own, looked_up S c looks [] l /\ map fst looks ≡ₚ accounts und /\ l `suffix_of` own /\ Forall (btbv_ev und ident) own /\
      (forall j e, e ∈ own -> sets_trust j e -> exists ds, (j, ds) ∈ looks /\ forall d, d ∈ ds -> blind_level (dv_trust d)) /\
      (evs = own \/ exists man, man <> [] /\ reach S (prompt man ident) own evs /\
         forall d, d ∈ man <-> d ∈ und /\ exists ds d', (dv_jid d, ds) ∈ looks /\ d' ∈ ds /\ manual_level (dv_trust d')).
  Proof.
    intros H%btbv_split_reach.
    assert (forall looks b m l l', looked_up S c looks [] l -> map fst looks ≡ₚ accounts und -> pool_spec looks b m -> reach S (btbv_trust und ident (b, m)) l l' ->
      l `suffix_of` l' /\ Forall (btbv_ev und ident) l' /\
      (forall j e, e ∈ l' -> sets_trust j e -> exists ds, (j, ds) ∈ looks /\ forall d, d ∈ ds -> blind_level (dv_trust d))) as Htr.
    { intros looks b m l l' Hl Hp Hs Hr. destruct (em_alone P _ (fun _ => True) _ l (em_trust und ident (b, m))) as [_ H1]. apply H1 in Hr as (new & -> & Hn). simpl in Hn.
      apply looked_alone in Hl as (l0 & -> & Hl0). rewrite app_nil_r in *.
      assert (forall e, e ∈ l0 -> btbv_ev und ident e /\ forall j', ~ sets_trust j' e) as Hinfo.
      { intros e He. rewrite Forall_forall in Hl0. apply Hl0 in He as (j & Hj & He). rewrite Hp in Hj. by eapply info_btbv. }
      split; [by exists new|]. split.
      - apply Forall_app. split; [eapply Forall_impl; [exact Hn|]; by eapply trust_btbv|]. apply Forall_forall. intros e He. by apply Hinfo.
      - intros j e He Hj. apply elem_of_app in He as [He|He].
        + rewrite Forall_forall in Hn. apply Hn in He. pose proof (trust_sets _ _ _ _ _ He Hj) as Hb. destruct Hs as (S1 & _). by apply S1.
        + apply Hinfo in He as [_ He]. by apply He in Hj. }
    apply reach_bind in H as [H|(man & l' & H & Ha)].
    - apply (own_reach _ _ quiet_alone) in H as [(jids & Hj & H)|(looks & b & m & l & Hl & Hp & Hs & H)].
      + left. destruct (em_alone P _ (fun _ => True) _ [] (em_look c jids ([], []))) as [_ H1]. apply H1 in H as (new & -> & Hn). rewrite app_nil_r.
        assert (forall e, e ∈ new -> btbv_ev und ident e /\ forall j', ~ sets_trust j' e) as Hinfo.
        { intros e He. rewrite Forall_forall in Hn. apply Hn in He as (j & Hj' & He). rewrite Hj in Hj'. by eapply info_btbv. }
        split; [apply Forall_forall; intros e He; by apply Hinfo|]. intros e j He. by apply Hinfo.
      + right. destruct (Htr _ _ _ _ _ Hl Hp Hs H) as (H1 & H2 & H3). exists looks, l, evs. do 5 (split; [done|]). by left.
    - apply (own_exec _ _ quiet_alone) in H as (looks & b & m & l & Hl & Hp & Hs & H & ->). right. apply exec_reach in H.
      destruct (Htr _ _ _ _ _ Hl Hp Hs H) as (H1 & H2 & H3). exists looks, l, l'. do 5 (split; [done|]).
      pose proof (manual_iff looks und b m) as Hm. destruct (filter (fun d => dv_jid d ∈ m) und) as [|d0 man] eqn:E; simpl in Ha; [left; by destruct Ha as [->|[]]|].
      right. exists (d0 :: man). split; [done|]. split; [exact Ha|]. intros d. by apply Hm.
  Qed.
End alone.

(** ** On the storage, without concurrent calls *)
Lemma quiet_base w r : allowed base w CPerm r -> Prog.apply base w CPerm r = w.
Proof. done. Qed.
Definition decided (d : gmap string json) (j : string) (x : Z) (ik : bytes) (level : string) : Prop :=
  known d j x /\ keyed d j x ik /\ trusted_as d j ik level.
Lemma info_decided c j j' x ik level w o w' : j' <> j -> exec base (get_device_information c j') w o w' ->
  decided (w_disk w) j x ik level -> decided (w_disk w') j x ik level.
Proof.
  intros Hj H. destruct (em_exec _ _ _ _ _ _ (em_info c j') H) as (_ & evs & He & ->). unfold decided, known, holds, keyed, trusted_as, after. cbn [w_disk].
  assert (forall i, core i -> (forall y, i <> INamespaces j' y) -> (forall y, i <> IIdentityKey j' y) -> replay evs (w_disk w) !! item_key i = w_disk w !! item_key i) as Hr.
  { intros i Hi H1 H2. apply replay_other. eapply Forall_impl; [exact He|]. intros e [y l r|y l r|ns y r]; simpl; try done; destruct r; try done; intros E%(inj Some).
    - symmetry in E. apply (core_inj i (INamespaces j' y) Hi) in E. by apply H1 in E.
    - symmetry in E. apply (core_inj i (IIdentityKey j' y) Hi) in E. by apply H2 in E. }
  rewrite !Hr; try done. intros y [=]. by subst.
Qed.
Lemma looked_decided c looks w w' j x ik level : looked_up base c looks w w' -> NoDup (map fst looks) -> decided (w_disk w) j x ik level ->
  manual_level level -> forall ds, (j, ds) ∈ looks -> exists d', d' ∈ ds /\ manual_level (dv_trust d').
Proof.
  intros H. induction H as [w|j0 ds0 looks w w1 w2 H _ IH]; intros Hn Hd Hm ds Hin; [by apply elem_of_nil in Hin|].
  simpl in Hn. apply NoDup_cons in Hn as [Hn0 Hn]. apply elem_of_cons in Hin as [[= -> ->]|Hin].
  - destruct Hd as (H1 & H2 & H3). pose proof (info_key _ _ _ _ _ H) as (_ & K2 & K3). destruct (K3 _ _ H2 H1) as (dv & Hdv & <-).
    exists dv. split; [done|]. apply (K2 _ _ Hdv) in H2. destruct (info_level _ _ _ _ _ _ H Hdv) as [_ HL]. rewrite H2 in HL.
    change (w_disk w !! k_trust j0 ik = Some (JStr level)) in H3. rewrite H3 in HL. injection HL as <-. done.
  - assert (j0 <> j). { intros ->. apply Hn0. apply (elem_of_list_fmap_1 fst _ _ Hin). }
    apply IH; [done| |done|done]. by eapply info_decided.
Qed.
Lemma looked_base c looks w w' : looked_up base c looks w w' -> exists evs, w' = after evs w /\ Forall (fun e => exists j, j ∈ map fst looks /\ ev_info j e) evs.
Proof.
  induction 1 as [w|j ds looks w w1 w2 H _ (new & -> & IH)]; [exists []; split; [by rewrite after_nil|done]|].
  destruct (em_exec _ _ _ _ _ _ (em_info c j) H) as (_ & evs & He & ->). exists (new ++ evs). split; [by rewrite after_app|]. apply Forall_app. split.
  - eapply Forall_impl; [exact IH|]. intros e (j' & Hj & He'). exists j'. split; [by right|done].
  - eapply Forall_impl; [exact He|]. intros e He'. exists j. split; [left|done].
Qed.
Section seq.
  Context (c : cfg) (prompt : list device -> option string -> api unit).
  Lemma btbv_storage und ident w w' j x ik level : reach base (btbv_mtd c prompt und ident) w w' ->
    decided (w_disk w) j x ik level -> manual_level level ->
    exists w1, (forall ik', w_disk w1 !! item_key (ITrust j ik') = w_disk w !! item_key (ITrust j ik')) /\
      (w' = w1 \/ exists man, reach base (prompt man ident) w1 w' /\ forall d, d ∈ und -> dv_jid d = j -> d ∈ man).
  Proof.
    intros H%btbv_split_reach Hd Hm.
    assert (forall evs, Forall (fun e => exists j', ev_info j' e) evs -> forall ik', w_disk (after evs w) !! item_key (ITrust j ik') = w_disk w !! item_key (ITrust j ik')) as Hinfo.
    { intros evs He ik'. apply replay_other. eapply Forall_impl; [exact He|]. intros e [j' [y l r|y l r|ns y r]]; simpl; try done; destruct r; try done; intros E%(inj Some); revert E; kneq. }
    assert (forall looks b m w1 w2, looked_up base c looks w w1 -> map fst looks ≡ₚ accounts und -> pool_spec looks b m -> reach base (btbv_trust und ident (b, m)) w1 w2 ->
      j ∉ b /\ forall ik', w_disk w2 !! item_key (ITrust j ik') = w_disk w !! item_key (ITrust j ik')) as Htr.
    { intros looks b m w1 w2 Hl Hp Hs Hr. assert (j ∉ b) as Hj.
      { intros Hj. destruct Hs as (S1 & _). destruct (S1 j Hj) as (ds & H1 & H2).
        destruct (looked_decided _ _ _ _ _ _ _ _ Hl ltac:(rewrite Hp; apply NoDup_remove_dups) Hd Hm ds H1) as (d' & H3 & H4). by destruct (levels_disjoint _ H4 (H2 _ H3)). }
      split; [done|]. intros ik'. destruct (looked_base _ _ _ _ Hl) as (evs & -> & He).
      destruct (em_reach _ _ _ _ _ (em_trust und ident (b, m)) Hr) as (evs2 & He2 & ->). simpl in He2.
      transitivity (w_disk (after evs w) !! item_key (ITrust j ik')); [|apply Hinfo; eapply Forall_impl; [exact He|]; intros e (j' & _ & ?); eauto].
      apply replay_other. eapply Forall_impl; [exact He2|]. intros e [(d & r & H1 & H2 & ->)|(ds & r & _ & ->)]; simpl; [|done]. destruct r; [|done].
      intros E%(inj Some). apply (core_inj (ITrust (dv_jid d) (dv_ik d)) (ITrust j ik')) in E; [|exact Logic.I]. injection E as E _. by rewrite E in H2. }
    apply reach_bind in H as [H|(man & w1 & H & Ha)].
    - exists w'. split; [|by left]. apply (own_reach _ _ quiet_base) in H as [(jids & Hj & H)|(looks & b & m & w1 & Hl & Hp & Hs & H)].
      + destruct (em_reach _ _ _ _ _ (em_look c jids ([], [])) H) as (evs & He & ->). apply Hinfo. eapply Forall_impl; [exact He|]. intros e (j' & _ & ?). eauto.
      + by apply (Htr _ _ _ _ _ Hl Hp Hs H).
    - apply (own_exec _ _ quiet_base) in H as (looks & b & m & w0 & Hl & Hp & Hs & H & ->). apply exec_reach in H.
      destruct (Htr _ _ _ _ _ Hl Hp Hs H) as (H1 & H2). exists w1. split; [done|].
      assert (forall d, d ∈ und -> dv_jid d = j -> d ∈ filter (fun d => dv_jid d ∈ m) und) as Hman.
      { intros d Hdu Hdj. apply elem_of_list_filter. split; [|done]. destruct Hs as (_ & _ & S3).
        assert (j ∈ map fst looks) as Hin by (rewrite Hp; apply elem_accounts; eauto). apply (elem_of_list_fmap fst) in Hin as ([j' ds] & E & Hin). simpl in E. subst j'.
        rewrite Hdj. destruct (S3 _ _ Hin); [done|done]. }
      destruct (filter (fun d => dv_jid d ∈ m) und) as [|d0 man]; simpl in Ha; [left; by destruct Ha as [->|[]]|]. right. by exists (d0 :: man).
  Qed.
  (** and if it succeeds, the prompt was called with these devices *)
  Lemma btbv_prompted und ident w w' j x ik level d : exec base (btbv_mtd c prompt und ident) w (Val tt) w' ->
    decided (w_disk w) j x ik level -> manual_level level -> d ∈ und -> dv_jid d = j ->
    exists w1 man, exec base (prompt man ident) w1 (Val tt) w' /\ d ∈ man.
  Proof.
    intros H%btbv_split_exec Hd Hm Hdu Hdj. apply exec_bind in H as [(man & w1 & H & Ha)|(e & _ & ?)]; [|done].
    apply (own_exec _ _ quiet_base) in H as (looks & b & m & w0 & Hl & Hp & Hs & H & ->). exists w1, (filter (fun d => dv_jid d ∈ m) und).
    assert (d ∈ filter (fun d => dv_jid d ∈ m) und) as Hin.
    { apply elem_of_list_filter. split; [|done]. destruct Hs as (S1 & _ & S3).
      assert (j ∈ map fst looks) as Hin by (rewrite Hp; apply elem_accounts; eauto). apply (elem_of_list_fmap fst) in Hin as ([j' ds] & E & Hin). simpl in E. subst j'.
      rewrite Hdj. destruct (S3 _ _ Hin) as [Hb|]; [|done]. destruct (S1 j Hb) as (ds' & H1 & H2).
      destruct (looked_decided _ _ _ _ _ _ _ _ Hl ltac:(rewrite Hp; apply NoDup_remove_dups) Hd Hm ds' H1) as (d' & H3 & H4). by destruct (levels_disjoint _ H4 (H2 _ H3)). }
    split; [|done]. destruct (filter (fun d => dv_jid d ∈ m) und); [by apply elem_of_nil in Hin|]. exact Ha.
  Qed.
End seq.
Lemma btbv_level c und ident w w' j ik : reach base (btbv_mtd c (fun _ _ => Ret tt) und ident) w w' ->
  w_disk w' !! item_key (ITrust j ik) = w_disk w !! item_key (ITrust j ik) \/
  (w_disk w' !! item_key (ITrust j ik) = Some (JStr "BLINDLY_TRUSTED"%string) /\ exists d, d ∈ und /\ dv_jid d = j /\ dv_ik d = ik).
Proof.
  intros H%btbv_split_reach. assert (reach base (btbv_own c und ident) w w') as Hr.
  { apply reach_bind in H as [H|(man & w1 & H & Ha)]; [done|]. assert (w' = w1) as -> by (destruct man; by destruct Ha as [->|[]]). by eapply exec_reach. }
  clear H. assert (em (fun e => (exists j', ev_info j' e) \/ exists b, trust_ev und ident b e) (btbv_own c und ident)) as He.
  { unfold btbv_own. split; [by intros r _|]. intros r _. cbn [bind]. apply em_bind; [eapply em_mono; [apply em_look| |done]; intros e (j' & _ & ?); eauto|].
    intros p. apply em_bind; [eapply em_mono; [apply em_trust| |done]; eauto|]. by intros _. }
  destruct (em_reach _ _ _ _ _ He Hr) as (evs & Hev & ->). unfold after. cbn [w_disk]. clear He Hr.
  induction Hev as [|e evs He Hev IH]; [by left|].
  destruct He as [[j' He]|[b He]].
  - assert (replay (e :: evs) (w_disk w) !! item_key (ITrust j ik) = replay evs (w_disk w) !! item_key (ITrust j ik)) as ->; [|done].
    apply (replay_other [e]). constructor; [|done]. destruct He as [y l r|y l r|ns y r]; cbn [ev_key]; try done; destruct r; try done; intros E%(inj Some); revert E; kneq.
  - destruct He as [(d & r & H1 & H2 & ->)|(ds & r & _ & ->)]; [|exact IH]. destruct r as [[]|]; [|exact IH]. cbn [replay].
    destruct (decide (item_key (ITrust j ik) = item_key (ITrust (dv_jid d) (dv_ik d)))) as [E|E].
    + right. rewrite E at 1. rewrite lookup_insert. split; [done|]. apply (core_inj (ITrust j ik)) in E; [|exact Logic.I]. injection E as -> ->. eauto.
    + rewrite lookup_insert_ne by congruence. done.
Qed.
