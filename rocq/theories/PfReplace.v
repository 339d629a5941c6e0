(** replace_sessions and get_sending_chain_length. *)
From Verif Require Import Api Spec Alone Dec Rot Repl PfAlone PfLog PfDevices PfUpdate PfEmits PfEncrypt4 PfEmpty PfDec PfRot.
Open Scope prog_scope.
Open Scope list_scope.

Lemma reach_try {C} {R : C -> Type} {W} (S : @sem C R W) {A} (p : prog R A) w w' : reach S (try_ p) w w' -> reach S p w w'.
Proof.
  revert w. induction p as [a|e|c k IH]; intros w; [done|done|]. cbn [try_ reach]. intros [->|(r & Hr & H)]; [by left|]. right. eauto.
Qed.

Lemma elem_of_rev {A} (a : A) l : a ∈ rev l <-> a ∈ l.
Proof. rewrite !elem_of_list_In. symmetry. apply in_rev. Qed.

Section repl.
  Context (P : world -> forall c, resp c -> Prop) (cf : cfg) (j : string) (x : Z).
  Notation S := (alone P).
  Notation me := (c_jid cf).
  Notation dev := (c_dev cf).

  Definition some_ekm : ekm := Ekm "" 0 "".
  Definition some_ses : session := Session "" "" 0 Active false (Kex "" "") None 0 "".
  Lemma not_prefix ns e e' l err k : replaced cf j x ns (k ++ e' :: l) -> same_call e e' -> event_exn e = Some err -> not_replaced cf j x ns err (e :: l).
  Proof. intros H1 H2 H3. exists (k ++ e' :: l), e, e', l. split; [done|]. split; [done|]. split; [by exists k|done]. Qed.
  Lemma replace_one_all ns l o evs : exec S (replace_one cf ns j x) l o evs ->
    exists new, evs = new ++ l /\ match o with Val _ => replaced cf j x ns new | Exn e => not_replaced cf j x ns e new end.
  Proof.
    unfold replace_one, b_enc_empty, n_download_bundle, b_build_active, n_send, b_store_session. cbn [bind exec].
    assert (forall c p b s e, replaced cf j x ns
      [EvStoreSession ns s (Val tt); EvSend (Message ns me dev c [(e, Some (s_kex s))]) j (Val tt); EvBuildActive ns j x b p (Val (s, e));
       EvDownloadBundle ns j x (Val b); EvEncEmpty ns (Val (c, p))]) as Hr by (intros c p b s e; by exists c, p, b, s, e).
    intros ([[c p]|err] & _ & H).
    2: { destruct H as [-> ->]. eexists [_]. split; [done|]. eapply (not_prefix ns _ _ _ _ [_; _; _; _]); [exact (Hr (Content true "") "" some_bundle some_ses some_ekm)|done|done]. }
    cbn [of_outcome bind exec] in H. destruct H as ([b|err] & _ & H).
    2: { destruct H as [-> ->]. eexists [_; _]. split; [done|]. eapply (not_prefix ns _ _ _ _ [_; _; _]); [exact (Hr c p some_bundle some_ses some_ekm)|done|done]. }
    cbn [of_outcome bind exec] in H. destruct H as ([[s e]|err] & _ & H).
    2: { destruct H as [-> ->]. eexists [_; _; _]. split; [done|]. eapply (not_prefix ns _ _ _ _ [_; _]); [exact (Hr c p b some_ses some_ekm)|done|done]. }
    cbn [of_outcome bind exec] in H. destruct H as ([[]|err] & _ & H).
    2: { destruct H as [-> ->]. eexists [_; _; _; _]. split; [done|]. eapply (not_prefix ns _ _ _ _ [_]); [exact (Hr c p b s e)|done|done]. }
    cbn [of_outcome bind exec] in H. destruct H as ([[]|err] & _ & H).
    - destruct H as [-> ->]. eexists [_; _; _; _; _]. split; [done|]. apply Hr.
    - destruct H as [-> ->]. eexists [_; _; _; _; _]. split; [done|]. eapply (not_prefix ns _ _ _ _ []); [exact (Hr c p b s e)|done|done].
  Qed.
  Lemma replace_one_reach ns l evs : reach S (replace_one cf ns j x) l evs ->
    exists new, evs = new ++ l /\ part (replaced cf j x ns) new.
  Proof.
    unfold replace_one, b_enc_empty, n_download_bundle, b_build_active, n_send, b_store_session. cbn [bind reach].
    assert (forall c p b s e, replaced cf j x ns
      [EvStoreSession ns s (Val tt); EvSend (Message ns me dev c [(e, Some (s_kex s))]) j (Val tt); EvBuildActive ns j x b p (Val (s, e));
       EvDownloadBundle ns j x (Val b); EvEncEmpty ns (Val (c, p))]) as Hr by (intros c p b s e; by exists c, p, b, s, e).
    assert (forall (F : list event -> Prop) e e' l err k, F (k ++ e' :: l) -> same_call e e' -> event_exn e = Some err -> part F (e :: l)) as PE.
    { intros F e e' l0 err k H1 H2 H3. by eapply part_exn. }
    intros [->|([[c p]|err] & _ & H)].
    { exists []. split; [done|]. eapply (part_pre _ _ [_; _; _; _; _]). exact (Hr (Content true "") "" some_bundle some_ses some_ekm). }
    2: { destruct H as [->|[]]. eexists [_]. split; [done|]. eapply (PE _ _ _ _ _ [_; _; _; _]); [exact (Hr (Content true "") "" some_bundle some_ses some_ekm)|done|done]. }
    cbn [of_outcome bind reach] in H. destruct H as [->|([b|err] & _ & H)].
    { eexists [_]. split; [done|]. eapply (part_pre _ _ [_; _; _; _]). exact (Hr c p some_bundle some_ses some_ekm). }
    2: { destruct H as [->|[]]. eexists [_; _]. split; [done|]. eapply (PE _ _ _ _ _ [_; _; _]); [exact (Hr c p some_bundle some_ses some_ekm)|done|done]. }
    cbn [of_outcome bind reach] in H. destruct H as [->|([[s e]|err] & _ & H)].
    { eexists [_; _]. split; [done|]. eapply (part_pre _ _ [_; _; _]). exact (Hr c p b some_ses some_ekm). }
    2: { destruct H as [->|[]]. eexists [_; _; _]. split; [done|]. eapply (PE _ _ _ _ _ [_; _]); [exact (Hr c p b some_ses some_ekm)|done|done]. }
    cbn [of_outcome bind reach] in H. destruct H as [->|([[]|err] & _ & H)].
    { eexists [_; _; _]. split; [done|]. eapply (part_pre _ _ [_; _]). exact (Hr c p b s e). }
    2: { destruct H as [->|[]]. eexists [_; _; _; _]. split; [done|]. eapply (PE _ _ _ _ _ [_]); [exact (Hr c p b s e)|done|done]. }
    cbn [of_outcome bind reach] in H. destruct H as [->|([[]|err] & _ & H)].
    { eexists [_; _; _; _]. split; [done|]. eapply (part_pre _ _ [_]). exact (Hr c p b s e). }
    - destruct H as [->|[]]. eexists [_; _; _; _; _]. split; [done|]. apply (part_pre _ _ []). apply Hr.
    - destruct H as [->|[]]. eexists [_; _; _; _; _]. split; [done|]. eapply (PE _ _ _ _ _ []); [exact (Hr c p b s e)|done|done].
  Qed.

  (** the loading of the sessions *)
  Definition ld (ns : string) (m : option session) : event := EvLoadSession ns j x (Val m).
  Lemma with_session_exec nss l o evs :
    exec S (filter_prog (fun ns => m <- b_load_session ns j x ;; Ret (bool_decide (m <> None))) nss) l o evs ->
    match o with
    | Val ws => exists ms, length ms = length nss /\ evs = rev (zip_with ld nss ms) ++ l /\
        ws = map fst (filter (fun q => q.2 <> None) (zip nss ms))
    | Exn err => exists ms ns, nss !! length ms = Some ns /\ evs = EvLoadSession ns j x (Exn err) :: rev (zip_with ld nss ms) ++ l
    end.
  Proof.
    revert l o. induction nss as [|ns nss IH]; intros l o.
    { intros [-> ->]. exists []. done. }
    cbn [filter_prog bind b_load_session exec]. intros ([m|err] & _ & H); cbn [of_outcome bind] in H.
    2: { destruct H as [-> ->]. exists [], ns. done. }
    change (Prog.apply S l (BLoadSession ns j x) (Val m)) with (ld ns m :: l) in H.
    apply exec_bind in H as [(ws & l1 & H1 & [-> ->])|(err & H1 & ->)].
    - apply IH in H1 as (ms & E1 & -> & ->). exists (m :: ms). split; [simpl; by rewrite E1|]. split; [simpl; by rewrite <- app_assoc|].
      change (zip (ns :: nss) (m :: ms)) with ((ns, m) :: zip nss ms). destruct m as [m|]; [by rewrite filter_cons_True|].
      rewrite filter_cons_False; [done|]. intros F; by apply F.
    - apply IH in H1 as (ms & n & E1 & ->). exists (m :: ms), n. split; [done|]. simpl. by rewrite <- app_assoc.
  Qed.
  Lemma with_session_reach nss l evs :
    reach S (filter_prog (fun ns => m <- b_load_session ns j x ;; Ret (bool_decide (m <> None))) nss) l evs ->
    exists new, evs = new ++ l /\ Forall (fun e => exists n r, e = EvLoadSession n j x r) new.
  Proof.
    revert l. induction nss as [|ns nss IH]; intros l.
    { intros [->|[]]. by exists []. }
    cbn [filter_prog bind b_load_session reach]. intros [->|([m|err] & _ & H)]; [by exists []| |]; cbn [of_outcome bind] in H.
    2: { destruct H as [->|[]]. eexists [_]. split; [done|]. constructor; [eauto|done]. }
    change (Prog.apply S l (BLoadSession ns j x) (Val m)) with (ld ns m :: l) in H.
    assert (exists new, evs = new ++ (ld ns m :: l) /\ Forall (fun e => exists n r, e = EvLoadSession n j x r) new) as (new & -> & Hn).
    { apply reach_bind in H as [H|(ws & l1 & H1 & H)]; [by apply IH|].
      destruct H as [->|[]]. by apply exec_reach in H1; apply IH in H1. }
    exists (new ++ [ld ns m]). split; [by rewrite <- app_assoc|]. apply Forall_app. split; [done|]. constructor; [by eexists _, _|done].
  Qed.

  Definition replace_body (nss : list string) (unsuccessful : list (string * exn)) (ns : string) : api (list (string * exn)) :=
    if decide (ns ∈ nss) then
      o <- try_ (replace_one cf ns j x) ;;
      match o with
      | Val _ => Ret unsuccessful
      | Exn e => if is_omemo e then Ret (dset ns e unsuccessful) else Raise e
      end
    else Ret unsuccessful.
  Definition errors (nss : list string) (rs : list (option exn)) : list (string * exn) :=
    omap (fun q => pair q.1 <$> q.2) (zip nss rs).
  Lemma replace_fold_exec nss bs acc l o evs : exec S (fold_prog bs (replace_body nss) acc) l o evs ->
    NoDup bs -> (forall ns, ns ∈ bs -> dget ns acc = None) ->
    match o with
    | Val res => exists rs vs, length rs = length bs /\ length vs = length bs /\ evs = concat (rev vs) ++ l /\
        (forall i ns r v, bs !! i = Some ns -> rs !! i = Some r -> vs !! i = Some v -> outcome_of cf j x (ns ∈ nss) ns r v) /\
        res = acc ++ errors bs rs
    | Exn err => is_omemo err = false
    end.
  Proof.
    revert acc l. induction bs as [|ns bs IH]; intros acc l H Hnd Hacc.
    { destruct H as [-> ->]. exists [], []. do 3 (split; [done|]). split; [by intros i|]. by rewrite app_nil_r. }
    apply NoDup_cons in Hnd as [Hni Hnd]. cbn [fold_prog] in H.
    apply exec_bind in H as [(acc' & l1 & H1 & H)|(err & H1 & ->)].
    2: { unfold replace_body in H1. destruct (decide (ns ∈ nss)); [|by destruct H1].
      apply exec_bind in H1 as [(o' & l1 & _ & H1)|(z & H1 & _)].
      - destruct o' as [|z]; [by destruct H1|]. destruct (is_omemo z) eqn:E; destruct H1 as [[=] _]. by subst.
      - apply exec_try in H1 as (? & ? & _). done. }
    assert (exists r v, l1 = v ++ l /\ outcome_of cf j x (ns ∈ nss) ns r v /\ acc' = acc ++ errors [ns] [r]) as (r & v & -> & Hv & ->).
    { unfold replace_body in H1. destruct (decide (ns ∈ nss)) as [Hin|Hin].
      - apply exec_bind in H1 as [(o' & l2 & H1 & H2)|(e & _ & ?)]; [|done].
        apply exec_try in H1 as (? & [= <-] & H1). apply replace_one_all in H1 as (new & -> & H1). destruct o' as [[]|e].
        + destruct H2 as [[= ->] ->]. exists None, new. split; [done|]. split; [by right|]. by rewrite app_nil_r.
        + destruct (is_omemo e) eqn:E; [|by destruct H2]. destruct H2 as [[= ->] ->]. exists (Some e), new. split; [done|]. split; [done|].
          simpl. apply dset_new. apply Hacc. left.
      - destruct H1 as [[= ->] ->]. exists None, []. split; [done|]. split; [by left|]. by rewrite app_nil_r. }
    apply IH in H; [|done|].
    - destruct o as [res|err]; [|done]. destruct H as (rs & vs & E1 & E2 & -> & Hall & ->).
      exists (r :: rs), (v :: vs). split; [simpl; lia|]. split; [simpl; lia|].
      split; [simpl; rewrite concat_app; simpl; by rewrite app_nil_r, <- app_assoc|].
      split.
      + intros [|i] ns' r' v'; simpl; [intros; by simplify_eq|apply Hall].
      + rewrite <- app_assoc. f_equal. unfold errors. simpl. by destruct r.
    - intros n Hn. assert (dget n acc = None) as En by (apply Hacc; by right).
      assert (n <> ns) by (intros ->; done). destruct r as [e|]; [|by rewrite app_nil_r].
      change (errors [ns] [Some e]) with [(ns, e)]. rewrite <- dset_new by (apply Hacc; left). rewrite dget_dset'. by rewrite decide_False.
  Qed.

  Lemma replace_fold_reach nss bs acc l evs : reach S (fold_prog bs (replace_body nss) acc) l evs ->
    exists vs last, evs = last ++ concat (rev vs) ++ l /\ length vs <= length bs /\
      (forall i ns v, bs !! i = Some ns -> vs !! i = Some v -> v = [] \/ exists r, outcome_of cf j x (ns ∈ nss) ns r v) /\
      (last = [] \/ exists ns, ns ∈ nss /\ bs !! length vs = Some ns /\ part (replaced cf j x ns) last).
  Proof.
    revert acc l. induction bs as [|ns bs IH]; intros acc l H.
    { destruct H as [->|[]]. exists [], []. split; [done|]. split; [done|]. split; [by intros i|]. by left. }
    cbn [fold_prog] in H. apply reach_bind in H as [H|(acc' & l1 & H1 & H)].
    - exists []. unfold replace_body in H. destruct (decide (ns ∈ nss)) as [Hin|Hin].
      2: { destruct H as [->|[]]. exists []. split; [done|]. split; [simpl; lia|]. split; [by intros i|]. by left. }
      assert (exists new, evs = new ++ l /\ part (replaced cf j x ns) new) as (new & -> & Hn).
      { apply reach_bind in H as [H|(o & l1 & H1 & H)].
        - apply replace_one_reach. by apply reach_try in H.
        - apply replace_one_reach. apply exec_try in H1 as (? & [= <-] & H1). apply exec_reach in H1.
          assert (evs = l1) as ->; [|done]. destruct o as [|e]; [by destruct H as [->|[]]|]. destruct (is_omemo e); by destruct H as [->|[]]. }
      exists new. split; [done|]. split; [simpl; lia|]. split; [by intros i|]. right. exists ns. done.
    - assert (exists v, l1 = v ++ l /\ (v = [] \/ exists r, outcome_of cf j x (ns ∈ nss) ns r v)) as (v & -> & Hv).
      { unfold replace_body in H1. destruct (decide (ns ∈ nss)) as [Hin|Hin].
        - apply exec_bind in H1 as [(o' & l2 & H1 & H2)|(e & _ & ?)]; [|done].
          apply exec_try in H1 as (? & [= <-] & H1). apply replace_one_all in H1 as (new & -> & H1). destruct o' as [[]|e].
          + destruct H2 as [[= ->] ->]. exists new. split; [done|]. right. exists None. by right.
          + destruct (is_omemo e) eqn:E; [|by destruct H2]. destruct H2 as [[= ->] ->]. exists new. split; [done|]. right. by exists (Some e).
        - destruct H1 as [[= ->] ->]. exists []. split; [done|]. by left. }
      apply IH in H as (vs & last & -> & E2 & Hall & Hl). exists (v :: vs), last.
      split; [simpl; rewrite concat_app; simpl; by rewrite app_nil_r, <- app_assoc|]. split; [simpl; lia|]. split; [|done].
      intros [|i] ns' v'; simpl; [intros; by simplify_eq|apply Hall].
  Qed.

  (** ** replace_sessions *)
  Notation L := (answer P GLoaded).
  (** the sessions loaded with the first loop *)
  Definition wanted (d : device) (bs : list string) (ms : list (option session)) (ns : string) : Prop :=
    ns ∈ dv_namespaces d /\ exists i s, bs !! i = Some ns /\ ms !! i = Some (Some s).
  Lemma wanted_elem d bs ms ns : ns ∈ set_inter (dv_namespaces d) (map fst (filter (fun q => q.2 <> None) (zip bs ms))) <-> wanted d bs ms ns.
  Proof.
    unfold set_inter. rewrite elem_of_list_filter. unfold wanted.
    cut (ns ∈ map fst (filter (fun q => q.2 <> None) (zip bs ms)) <-> exists i s, bs !! i = Some ns /\ ms !! i = Some (Some s)); [tauto|].
    rewrite (elem_of_list_fmap fst). split.
    - intros ([n m] & -> & [Hm Hin]%elem_of_list_filter). apply elem_of_list_lookup in Hin as [i Hi]. apply lookup_zip_with_Some in Hi as (n' & m' & [= -> ->] & H1 & H2).
      simpl in *. destruct m' as [s|]; [|done]. by exists i, s.
    - intros (i & s & H1 & H2). exists (ns, Some s). split; [done|]. apply elem_of_list_filter. split; [done|].
      apply elem_of_list_lookup. exists i. apply lookup_zip_with_Some. by exists ns, (Some s).
  Qed.
  Lemma outcome_iff (A B : Prop) ns r v : (A <-> B) -> outcome_of cf j x A ns r v -> outcome_of cf j x B ns r v.
  Proof. intros H. unfold outcome_of. destruct r; tauto. Qed.
  Lemma replace_sessions_val res evs : exec S (replace_sessions cf j x) [] (Val res) evs -> (forall bs, L bs -> NoDup bs) ->
    exists pre ds d bs ms bs' rs vs,
      exec S (get_device_information cf j) [] (Val ds) pre /\ d ∈ ds /\ dv_id d = x /\
      L bs /\ length ms = length bs /\ L bs' /\ length rs = length bs' /\ length vs = length bs' /\
      evs = concat (rev vs) ++ rev (zip_with ld bs ms) ++ pre /\
      (forall i ns r v, bs' !! i = Some ns -> rs !! i = Some r -> vs !! i = Some v -> outcome_of cf j x (wanted d bs ms ns) ns r v) /\
      res = errors bs' rs.
  Proof.
    intros H HL. unfold replace_sessions in H. apply exec_bind in H as [(ds & pre & H1 & H)|(e & _ & ?)]; [|done].
    destruct (filter _ ds) as [|d l] eqn:Ed; [by destruct H|].
    assert (d ∈ filter (fun d => dv_id d = x) ds) as Hd by (rewrite Ed; left). apply elem_of_list_filter in Hd as [Hd Hin].
    cbn [bind g_loaded exec] in H. destruct H as (bs & Hbs & H). change (Prog.apply S pre GLoaded bs) with pre in H.
    apply exec_bind in H as [(ws & l1 & H2 & H)|(e & _ & ?)]; [|done]. apply with_session_exec in H2 as (ms & Em & -> & ->).
    cbn [bind g_loaded exec] in H. destruct H as (bs' & Hbs' & H). change (Prog.apply S ?l GLoaded bs') with l in H.
    apply replace_fold_exec in H as (rs & vs & E1 & E2 & -> & Hall & ->); [|by apply HL|done].
    exists pre, ds, d, bs, ms, bs', rs, vs. do 5 (split; [done|]). split; [done|]. do 3 (split; [done|]). split; [|done].
    intros i ns r v Hi Hr Hv. eapply outcome_iff; [apply wanted_elem|]. by eapply Hall.
  Qed.

  (** what comes before a stored session and a message *)
  Definition repl_order (e : event) (before : list event) : Prop :=
    match e with
    | EvStoreSession ns s _ => exists c p b k l, before =
        [EvSend (Message ns me dev c [(k, Some (s_kex s))]) j (Val tt); EvBuildActive ns j x b p (Val (s, k));
         EvDownloadBundle ns j x (Val b); EvEncEmpty ns (Val (c, p))] ++ l
    | EvSend m j' _ => j' = j /\ exists ns c p b s k l, m = Message ns me dev c [(k, Some (s_kex s))] /\
        before = [EvBuildActive ns j x b p (Val (s, k)); EvDownloadBundle ns j x (Val b); EvEncEmpty ns (Val (c, p))] ++ l
    | _ => True
    end.
  Definition local (v : list event) : Prop := forall p e b rest, v = p ++ e :: b -> repl_order e (b ++ rest).
  Lemma repl_order_call e e' b : same_call e e' -> repl_order e' b -> repl_order e b.
  Proof. destruct e, e'; try done; simpl. - intros [-> ->]. done. - intros [-> ->]. done. Qed.
  Lemma replaced_local ns full : replaced cf j x ns full -> local full.
  Proof.
    intros (c & p & b & s & e & ->) post ev bf rest H.
    destruct post as [|? [|? [|? [|? [|? post]]]]]; simpl in H; simplify_eq; simpl; try done.
    - by exists c, p, b, e, rest.
    - split; [done|]. by exists ns, c, p, b, s, e, rest.
    - by destruct post.
  Qed.
  Lemma part_local ns v : part (replaced cf j x ns) v -> local v.
  Proof.
    intros (full & Hf & [[k ->]|(e & e' & err & l' & -> & [k ->] & Hs & He)]) post ev bf rest H.
    - subst v. apply (replaced_local _ _ Hf (k ++ post)). by rewrite <- app_assoc.
    - destruct post as [|a post]; simpl in H; injection H as -> ->.
      + eapply repl_order_call; [exact Hs|]. by apply (replaced_local _ _ Hf k).
      + apply (replaced_local _ _ Hf (k ++ e' :: post)). by rewrite <- app_assoc.
  Qed.
  Lemma outcome_part W ns r v : outcome_of cf j x W ns r v -> v = [] \/ part (replaced cf j x ns) v.
  Proof.
    destruct r as [err|]; [|intros [[_ ->]|[_ H]]; [by left|right; by apply (part_pre _ _ [])]].
    intros (_ & _ & full & e & e' & l' & Hf & -> & Hs & Hc & He). right. exists full. split; [done|]. right. by exists e, e', err, l'.
  Qed.
  Lemma local_app v l : local v -> traced repl_order l -> traced repl_order (v ++ l).
  Proof.
    intros Hv Hl post e bf [(b & -> & ->)|(p & -> & ->)]%app_split; [by eapply Hv|by eapply Hl].
  Qed.
  Lemma local_concat vs l : Forall local vs -> traced repl_order l -> traced repl_order (concat vs ++ l).
  Proof. induction 1 as [|v vs Hv _ IH]; [done|]. intros Hl. simpl. rewrite <- app_assoc. apply local_app; [done|]. by apply IH. Qed.
  Lemma local_nil : local [].
  Proof. intros [|]; done. Qed.
  Lemma local_forall l : Forall (fun e => forall b, repl_order e b) l -> traced repl_order l.
  Proof. intros H post e bf ->. apply Forall_app in H as [_ H]. apply Forall_cons in H as [H _]. apply H. Qed.

  Lemma info_log (l evs : list event) : reach S (get_device_information cf j) l evs -> exists new, evs = new ++ l /\ Forall (ev_info j) new.
  Proof. destruct (em_alone P (ev_info j) (fun _ => True) _ l (em_info cf j)) as [_ H1]. apply H1. Qed.
  Lemma replace_shape evs : reach S (replace_sessions cf j x) [] evs ->
    exists pre loads vs, evs = concat vs ++ loads ++ pre /\ Forall (ev_info j) pre /\
      Forall (fun e => exists n r, e = EvLoadSession n j x r) loads /\ Forall (fun v => v = [] \/ exists ns, part (replaced cf j x ns) v) vs.
  Proof.
    intros H. unfold replace_sessions in H. apply reach_bind in H as [H|(ds & l1 & H1 & H)].
    { apply info_log in H as (pre & -> & Hp). exists pre, [], []. rewrite app_nil_r. done. }
    apply exec_reach in H1. apply info_log in H1 as (pre & -> & Hp). rewrite app_nil_r in H. destruct (filter _ ds) as [|d l].
    { destruct H as [->|[]]. by exists pre, [], []. }
    cbn [bind g_loaded reach] in H. destruct H as [->|(bs & Hbs & H)]; [by exists pre, [], []|]. change (Prog.apply S pre GLoaded bs) with pre in H.
    apply reach_bind in H as [H|(ws & l1 & H1 & H)].
    { apply with_session_reach in H as (new & -> & Hn). by exists pre, new, []. }
    apply exec_reach in H1. apply with_session_reach in H1 as (new & -> & Hn).
    cbn [bind g_loaded reach] in H. destruct H as [->|(bs' & Hbs' & H)]; [by exists pre, new, []|]. change (Prog.apply S ?l GLoaded bs') with l in H.
    apply replace_fold_reach in H as (vs & last & -> & Hlen & Hall & Hlast). exists pre, new, (last :: rev vs).
    split; [simpl; by rewrite <- app_assoc|]. split; [done|]. split; [done|]. constructor.
    - destruct Hlast as [->|(ns & _ & _ & H)]; [by left|right; eauto].
    - apply Forall_forall. intros v. rewrite elem_of_rev, elem_of_list_lookup. intros [i Hi].
      destruct (lookup_lt_is_Some_2 bs' i) as [ns Hns]; [apply lookup_lt_Some in Hi; lia|].
      destruct (Hall _ _ _ Hns Hi) as [->|[r Hr]]; [by left|]. destruct (outcome_part _ _ _ _ Hr) as [->|?]; [by left|right; eauto].
  Qed.
  Lemma replace_order evs : reach S (replace_sessions cf j x) [] evs -> traced repl_order evs.
  Proof.
    intros (pre & loads & vs & -> & Hp & Hl & Hv)%replace_shape. apply local_concat.
    - eapply Forall_impl; [exact Hv|]. intros v [->|[ns H]]; [apply local_nil|by eapply part_local].
    - apply local_forall, Forall_app. split; (eapply Forall_impl; [eassumption|]); [intros e (n & r & ->); done|intros e []; done].
  Qed.

  (** library errors are returned: an error that is raised comes from before the first replacement *)
  Lemma replace_fold_exn nss bs acc l err evs : exec S (fold_prog bs (replace_body nss) acc) l (Exn err) evs -> is_omemo err = false.
  Proof.
    revert acc l. induction bs as [|ns bs IH]; intros acc l H; [by destruct H|]. cbn [fold_prog] in H.
    apply exec_bind in H as [(acc' & l1 & H1 & H)|(z & H1 & [= <-])]; [by eapply IH|].
    unfold replace_body in H1. destruct (decide (ns ∈ nss)); [|by destruct H1].
    apply exec_bind in H1 as [(o' & l1 & _ & H1)|(z & H1 & _)].
    - destruct o' as [|z]; [by destruct H1|]. destruct (is_omemo z) eqn:E; destruct H1 as [[=] _]. by subst.
    - apply exec_try in H1 as (? & ? & _). done.
  Qed.
  Lemma replace_exn err evs : exec S (replace_sessions cf j x) [] (Exn err) evs -> is_omemo err = true ->
    Forall (fun e => replacing_ev e = false) evs.
  Proof.
    intros H Ho. unfold replace_sessions in H.
    assert (forall pre, Forall (ev_info j) pre -> Forall (fun e => replacing_ev e = false) pre) as Hi.
    { intros pre Hp. eapply Forall_impl; [exact Hp|]. by intros e []. }
    apply exec_bind in H as [(ds & l1 & H1 & H)|(z & H1 & [= <-])].
    2: { apply exec_reach in H1. apply info_log in H1 as (pre & -> & Hp). rewrite app_nil_r. auto. }
    apply exec_reach in H1. apply info_log in H1 as (pre & -> & Hp). rewrite app_nil_r in H. destruct (filter _ ds) as [|d l].
    { destruct H as [_ ->]. auto. }
    cbn [bind g_loaded exec] in H. destruct H as (bs & Hbs & H). change (Prog.apply S pre GLoaded bs) with pre in H.
    apply exec_bind in H as [(ws & l1 & H1 & H)|(z & H1 & [= <-])].
    2: { apply exec_reach in H1. apply with_session_reach in H1 as (new & -> & Hn). apply Forall_app. split; [|auto].
      eapply Forall_impl; [exact Hn|]. by intros e (n & r & ->). }
    cbn [bind g_loaded exec] in H. destruct H as (bs' & Hbs' & H). apply replace_fold_exn in H. congruence.
  Qed.

  (** where an exception comes from *)
  Lemma replace_fold_raised nss bs acc l err evs : exec S (fold_prog bs (replace_body nss) acc) l (Exn err) evs ->
    exists e l', evs = e :: l' /\ event_exn e = Some err.
  Proof.
    revert acc l. induction bs as [|ns bs IH]; intros acc l H; [by destruct H|]. cbn [fold_prog] in H.
    apply exec_bind in H as [(acc' & l1 & H1 & H)|(z & H1 & [= <-])]; [by eapply IH|].
    unfold replace_body in H1. destruct (decide (ns ∈ nss)); [|by destruct H1].
    apply exec_bind in H1 as [(o' & l1 & H1 & H2)|(z & H1 & _)]; [|apply exec_try in H1 as (? & ? & _); done].
    destruct o' as [|z]; [by destruct H2|]. apply exec_try in H1 as (? & [= <-] & H1).
    apply replace_one_all in H1 as (new & -> & full & e1 & e2 & l' & _ & -> & _ & _ & He). destruct (is_omemo z) eqn:E; [by destruct H2|].
    destruct H2 as [[= ->] ->]. exists e1, (l' ++ l). done.
  Qed.
  Lemma replace_raised err evs : exec S (replace_sessions cf j x) [] (Exn err) evs ->
    exec S (get_device_information cf j) [] (Exn err) evs \/
    (err = ERuntime /\ exists ds, exec S (get_device_information cf j) [] (Val ds) evs /\ forall d, d ∈ ds -> dv_id d <> x) \/
    exists e l, evs = e :: l /\ event_exn e = Some err.
  Proof.
    intros H. unfold replace_sessions in H. apply exec_bind in H as [(ds & l1 & H1 & H)|(z & H1 & [= <-])]; [|by left]. right.
    destruct (filter _ ds) as [|d l] eqn:Ed.
    { destruct H as [[= ->] ->]. left. split; [done|]. exists ds. split; [done|]. intros d Hd Hx.
      assert (d ∈ filter (fun d => dv_id d = x) ds) as Hf by (by apply elem_of_list_filter). rewrite Ed in Hf. by apply elem_of_nil in Hf. }
    right. cbn [bind g_loaded exec] in H. destruct H as (bs & Hbs & H). change (Prog.apply S ?l GLoaded bs) with l in H.
    apply exec_bind in H as [(ws & l2 & H2 & H)|(z & H2 & [= <-])].
    2: { apply with_session_exec in H2 as (ms & ns & _ & ->). by eexists _, _. }
    cbn [bind g_loaded exec] in H. destruct H as (bs' & Hbs' & H). change (Prog.apply S ?l GLoaded bs') with l in H.
    by apply replace_fold_raised in H.
  Qed.
  Lemma replace_unknown ds pre : exec S (get_device_information cf j) [] (Val ds) pre -> (forall d, d ∈ ds -> dv_id d <> x) ->
    exec S (replace_sessions cf j x) [] (Exn ERuntime) pre.
  Proof.
    intros H Hx. unfold replace_sessions. apply exec_bind. left. exists ds, pre. split; [done|].
    destruct (filter _ ds) as [|d l] eqn:Ed; [done|]. assert (d ∈ filter (fun d => dv_id d = x) ds) as Hf by (rewrite Ed; left).
    apply elem_of_list_filter in Hf as [? ?]. by destruct (Hx d).
  Qed.

  (** a returned error means that no session was stored *)
  Lemma not_replaced_store ns err v s n : not_replaced cf j x ns err v -> EvStoreSession n s (Val tt) ∉ v.
  Proof.
    intros (full & e & e' & l' & (c & p & b & s' & k & ->) & -> & [q Hq] & Hs & He) Hin.
    apply elem_of_cons in Hin as [<-|Hin]; [done|].
    destruct q as [|? [|? [|? [|? [|? q]]]]]; simpl in Hq; simplify_eq; try (repeat (apply elem_of_cons in Hin as [[=]|Hin]); by apply elem_of_nil in Hin).
    all: destruct q; discriminate.
  Qed.
  Lemma part_ns ns v n s r : part (replaced cf j x ns) v -> EvStoreSession n s r ∈ v -> n = ns.
  Proof.
    intros Hv Hin. assert (forall full, replaced cf j x ns full -> forall n s r, EvStoreSession n s r ∈ full -> n = ns) as Hf.
    { intros full (c & p & b & s' & k & ->) n' s0 r0. intros H. apply elem_of_cons in H as [[= -> _ _]|H]; [done|]. repeat (apply elem_of_cons in H as [[=]|H]). by apply elem_of_nil in H. }
    destruct Hv as (full & Hr & [[k ->]|(e & e' & err & l' & -> & [k ->] & Hs & He)]).
    - eapply Hf; [exact Hr|]. apply elem_of_app. by right.
    - apply elem_of_cons in Hin as [<-|Hin].
      + destruct e'; try done. destruct Hs as [-> ->]. eapply (Hf _ Hr). apply elem_of_app. right. left.
      + eapply Hf; [exact Hr|]. apply elem_of_app. right. by right.
  Qed.
  Lemma errors_elem bs rs ns err : (ns, err) ∈ errors bs rs <-> exists i, bs !! i = Some ns /\ rs !! i = Some (Some err).
  Proof.
    unfold errors. rewrite elem_of_list_omap. split.
    - intros ([n [e|]] & Hin & [=]); subst. apply elem_of_list_lookup in Hin as [i Hi].
      apply lookup_zip_with_Some in Hi as (n' & r' & [= -> <-] & H1 & H2). by exists i.
    - intros (i & H1 & H2). exists (ns, Some err). split; [|done]. apply elem_of_list_lookup. exists i. apply lookup_zip_with_Some. by exists ns, (Some err).
  Qed.
  Lemma replace_results res evs : exec S (replace_sessions cf j x) [] (Val res) evs -> (forall bs, L bs -> NoDup bs) ->
    (forall ns err, (ns, err) ∈ res -> is_omemo err = true /\ (exists l1 l2 v, evs = l1 ++ v ++ l2 /\ not_replaced cf j x ns err v) /\
       forall s, EvStoreSession ns s (Val tt) ∉ evs).
  Proof.
    intros H HL ns err Hin.
    destruct (replace_sessions_val _ _ H HL) as (pre & ds & d & bs & ms & bs' & rs & vs & Hpre & _ & _ & _ & _ & Hbs' & E1 & E2 & -> & Hall & ->).
    apply errors_elem in Hin as (i & Hi & Hr). destruct (lookup_lt_is_Some_2 vs i) as [v Hv]; [apply lookup_lt_Some in Hi; lia|].
    pose proof (Hall _ _ _ _ Hi Hr Hv) as (Hw & Ho & Hn). split; [done|]. split.
    - apply elem_of_list_split_length in Hv as (v1 & v2 & -> & _). rewrite rev_app_distr. simpl. rewrite !concat_app. simpl. rewrite app_nil_r.
      exists (concat (rev v2)), (concat (rev v1) ++ rev (zip_with ld bs ms) ++ pre), v. split; [by rewrite <- !app_assoc|done].
    - intros s Hin. apply elem_of_app in Hin as [Hin|Hin].
      + apply elem_of_list_In, in_concat in Hin as (u & Hu & Hin). apply elem_of_list_In in Hu, Hin. rewrite elem_of_rev in Hu. apply elem_of_list_lookup in Hu as [k Hk].
        destruct (lookup_lt_is_Some_2 bs' k) as [n Hn']; [rewrite <- E2; by eapply lookup_lt_Some|].
        destruct (lookup_lt_is_Some_2 rs k) as [r Hr']; [rewrite E1, <- E2; by eapply lookup_lt_Some|].
        pose proof (Hall _ _ _ _ Hn' Hr' Hk) as Hu. destruct (outcome_part _ _ _ _ Hu) as [->|Hp]; [by apply elem_of_nil in Hin|].
        pose proof (part_ns _ _ _ _ _ Hp Hin) as <-. assert (i = k) as <- by (eapply NoDup_lookup; [by apply HL|done|done]).
        rewrite Hv in Hk. injection Hk as <-. by eapply not_replaced_store.
      + apply elem_of_app in Hin as [Hin|Hin].
        * rewrite elem_of_rev in Hin. apply elem_of_list_lookup in Hin as [k Hk]. by apply lookup_zip_with_Some in Hk as (? & ? & ? & _).
        * apply exec_reach in Hpre. apply info_log in Hpre as (new & -> & Hpre). rewrite app_nil_r in Hin. rewrite Forall_forall in Hpre. by apply Hpre in Hin; inversion Hin.
  Qed.

  (** ** get_sending_chain_length *)
  Lemma chain_fold (nss : list string) bs acc l o evs : exec S (fold_prog bs (fun acc ns => if decide (ns ∈ nss) then m <- b_load_session ns j x ;; Ret (dset ns (s_scl <$> m) acc) else Ret acc) acc) l o evs ->
    NoDup bs -> (forall ns, ns ∈ bs -> dget ns acc = None) ->
    match o with
    | Val res => exists ms, length ms = length (filter (fun ns => ns ∈ nss) bs) /\ evs = rev (zip_with ld (filter (fun ns => ns ∈ nss) bs) ms) ++ l /\
        res = acc ++ zip (filter (fun ns => ns ∈ nss) bs) (map (fmap s_scl) ms)
    | Exn err => exists ms ns, filter (fun ns => ns ∈ nss) bs !! length ms = Some ns /\
        evs = EvLoadSession ns j x (Exn err) :: rev (zip_with ld (filter (fun ns => ns ∈ nss) bs) ms) ++ l
    end.
  Proof.
    revert acc l. induction bs as [|ns bs IH]; intros acc l H Hnd Hacc.
    { destruct H as [-> ->]. exists []. split; [done|]. split; [done|]. by rewrite app_nil_r. }
    apply NoDup_cons in Hnd as [Hni Hnd]. cbn [fold_prog] in H. destruct (decide (ns ∈ nss)) as [Hin|Hin].
    - rewrite filter_cons_True by done. cbn [bind b_load_session exec] in H. destruct H as ([m|err] & _ & H); cbn [of_outcome bind] in H.
      2: { destruct H as [-> ->]. exists [], ns. done. }
      apply IH in H; [|done|].
      + destruct o as [res|err].
        * destruct H as (ms & E1 & -> & ->). exists (m :: ms). split; [simpl; lia|]. split; [simpl; by rewrite <- app_assoc|].
          rewrite dset_new by (apply Hacc; left). by rewrite <- app_assoc.
        * destruct H as (ms & n & E1 & ->). exists (m :: ms), n. split; [done|]. simpl. by rewrite <- app_assoc.
      + intros n Hn. rewrite dget_dset', decide_False by (intros ->; done). apply Hacc. by right.
    - rewrite filter_cons_False by done. cbn [bind exec] in H. apply IH in H; [done|done|]. intros n Hn. apply Hacc. by right.
  Qed.
  Lemma chain_reach nss evs : reach S (get_sending_chain_length j x nss) [] evs -> Forall (fun e => exists ns r, ns ∈ nss /\ e = EvLoadSession ns j x r) evs.
  Proof.
    unfold get_sending_chain_length. cbn [bind g_loaded reach]. intros [->|(bs & Hbs & H)]; [done|]. change (Prog.apply S ?l GLoaded bs) with l in H.
    assert (forall bs acc l, reach S (fold_prog bs (fun acc ns => if decide (ns ∈ nss) then m <- b_load_session ns j x ;; Ret (dset ns (s_scl <$> m) acc) else Ret acc) acc) l evs ->
      Forall (fun e => exists ns r, ns ∈ nss /\ e = EvLoadSession ns j x r) l -> Forall (fun e => exists ns r, ns ∈ nss /\ e = EvLoadSession ns j x r) evs) as G; [|by eapply G].
    clear. induction bs as [|ns bs IH]; intros acc l H Hl; [by destruct H as [->|[]]|]. cbn [fold_prog] in H. destruct (decide (ns ∈ nss)) as [Hin|Hin].
    - cbn [bind b_load_session reach] in H. destruct H as [->|([m|err] & _ & H)]; [done| |]; cbn [of_outcome bind] in H.
      + eapply IH; [exact H|]. constructor; [eauto|done].
      + destruct H as [->|[]]. constructor; [eauto|done].
    - cbn [bind reach] in H. by eapply IH.
  Qed.
End repl.
