(** The signed pre key rotation task. *)
From Verif Require Import Api Spec Alone Dec Rot PfAlone PfLog.
Open Scope prog_scope.
Open Scope list_scope.

Section rot.
  Context (P : world -> forall c, resp c -> Prop) (cf : cfg).
  Notation S := (alone P).
  Notation me := (c_jid cf).
  Notation dev := (c_dev cf).

  (** an initial part of a log in [F], possibly ending with an exception *)
  Definition part (F : list event -> Prop) (l : list event) : Prop :=
    exists full, F full /\ (l `suffix_of` full \/ exists e e' x l', l = e :: l' /\ (e' :: l') `suffix_of` full /\ same_call e e' /\ event_exn e = Some x).
  Lemma part_app (F F' : list event -> Prop) l l0 : (forall full, F full -> F' (full ++ l0)) -> part F l -> part F' (l ++ l0).
  Proof.
    intros HF (full & H1 & H3). exists (full ++ l0). split; [by apply HF|]. destruct H3 as [[k ->]|(e & e' & x & l' & -> & [k ->] & H3)].
    - left. exists k. by rewrite app_assoc.
    - right. exists e, e', x, (l' ++ l0). split; [done|]. split; [|done]. exists k. by rewrite <- app_assoc.
  Qed.
  Lemma part_pre (F : list event -> Prop) l k : F (k ++ l) -> part F l.
  Proof. intros H. exists (k ++ l). split; [done|]. left. by exists k. Qed.
  Lemma part_exn (F : list event -> Prop) e e' x l k : F (k ++ e' :: l) -> same_call e e' -> event_exn e = Some x -> part F (e :: l).
  Proof. intros H He Hx. exists (k ++ e' :: l). split; [done|]. right. exists e, e', x, l. split; [done|]. split; [by exists k|done]. Qed.

  Definition some_bundle : bundle := Bundle "" "" 0 "" "".
  Lemma retries_app ns zs l z a : retries cf ns zs l -> attempt_failed cf ns a -> retries cf ns (zs ++ [z]) (l ++ EvSleep z (Val tt) :: a).
  Proof.
    intros H Ha. induction H as [|z' zs l a' H IH Ha']; simpl.
    - rewrite <- (app_nil_r a). constructor; [constructor|done].
    - rewrite <- app_assoc. by constructor.
  Qed.
  Lemma uploaded_more ns a u : attempt_failed cf ns a -> uploaded cf ns u -> uploaded cf ns (u ++ EvSleep 60 (Val tt) :: a).
  Proof.
    intros Ha (b & zs & l' & Hz & Hr & ->). exists b, (zs ++ [60%Z]), (l' ++ EvSleep 60 (Val tt) :: a). split; [|split; [by apply retries_app|]].
    - apply Forall_app. split; [done|]. by constructor.
    - by rewrite <- app_assoc.
  Qed.
  Definition up_full : list event := [EvUploadBundle some_bundle (Val tt); EvGetBundle "" me dev (Val some_bundle)].
  Lemma uploaded_now ns b : uploaded cf ns [EvUploadBundle b (Val tt); EvGetBundle ns me dev (Val b)].
  Proof. exists b, [], []. split; [done|]. split; [constructor|done]. Qed.
  Lemma part_start ns : part (uploaded cf ns) [].
  Proof. apply (part_pre _ _ [EvUploadBundle some_bundle (Val tt); EvGetBundle ns me dev (Val some_bundle)]), uploaded_now. Qed.
  Lemma part_failed ns a : attempt_failed cf ns a -> part (uploaded cf ns) a.
  Proof.
    intros Ha. apply (part_pre _ _ [EvUploadBundle some_bundle (Val tt); EvGetBundle ns me dev (Val some_bundle); EvSleep 60 (Val tt)]).
    apply (uploaded_more ns a _ Ha (uploaded_now ns some_bundle)).
  Qed.

  (** both kinds of inversion at once: [o] is the outcome if the program has ended *)
  Lemma upload_all fuel rd ns l evs :
    (reach S (rotate_upload cf fuel rd ns) l evs -> exists new, evs = new ++ l /\ part (uploaded cf ns) new) /\
    (forall u, exec S (rotate_upload cf fuel rd ns) l (Val u) evs -> exists new, evs = new ++ l /\ uploaded cf ns new).
  Proof.
    revert rd l. induction fuel as [|fuel IH]; intros rd l.
    { split; [intros [->|[]]; exists []; split; [done|apply part_start]|by intros u []]. }
    assert (forall a, attempt_failed cf ns a ->
      (reach S (Step (CSleep 60) (fun r => bind (of_outcome r) (fun _ => rotate_upload cf fuel (Z.min (60 * 2) (60 * 60)) ns))) (a ++ l) evs ->
         exists new, evs = new ++ l /\ part (uploaded cf ns) new) /\
      (forall u, exec S (Step (CSleep 60) (fun r => bind (of_outcome r) (fun _ => rotate_upload cf fuel (Z.min (60 * 2) (60 * 60)) ns))) (a ++ l) (Val u) evs ->
         exists new, evs = new ++ l /\ uploaded cf ns new)) as Hfail.
    { intros a Ha. split.
      - cbn [reach]. intros [->|([[]|x] & _ & H)].
        + exists a. split; [done|]. by apply part_failed.
        + cbn [of_outcome bind] in H. apply IH in H as (new & -> & H). exists (new ++ EvSleep 60 (Val tt) :: a).
          split; [simpl; by rewrite <- app_assoc|]. eapply part_app; [|exact H]. intros full. by apply uploaded_more.
        + destruct H as [->|[]]. exists (EvSleep 60 (Exn x) :: a). split; [done|].
          apply (part_exn _ _ (EvSleep 60 (Val tt)) x _ [EvUploadBundle some_bundle (Val tt); EvGetBundle ns me dev (Val some_bundle)]); [|done|done].
          apply (uploaded_more ns a _ Ha (uploaded_now ns some_bundle)).
      - cbn [exec]. intros u ([[]|x] & _ & H); [|by destruct H]. cbn [of_outcome bind] in H. apply IH in H as (new & -> & H).
        exists (new ++ EvSleep 60 (Val tt) :: a). split; [simpl; by rewrite <- app_assoc|]. by apply uploaded_more. }
    assert (forall b, attempt_failed cf ns [EvUploadBundle b (Exn EBundleUploadFailed); EvGetBundle ns me dev (Val b)]) as Hb by (right; eauto).
    split.
    - cbn [rotate_upload bind try_ b_get_bundle n_upload_bundle reach]. intros [->|([b|x] & _ & H)]; [exists []; split; [done|apply part_start]| |].
      + cbn [of_outcome bind try_ reach] in H. destruct H as [->|([[]|x] & _ & H)].
        * exists [EvGetBundle ns me dev (Val b)]. split; [done|]. eapply (part_pre _ _ [_]). apply uploaded_now.
        * destruct H as [->|[]]. eexists [_; _]. split; [done|]. eapply (part_pre _ _ []). apply uploaded_now.
        * cbn [of_outcome bind try_] in H. destruct (decide (x = EBundleUploadFailed)) as [->|Hx].
          -- exact (proj1 (Hfail _ (Hb b)) H).
          -- assert (evs = [EvUploadBundle b (Exn x); EvGetBundle ns me dev (Val b)] ++ l) as -> by (destruct x; try done; by destruct H as [->|[]]).
             eexists. split; [done|]. apply (part_exn _ _ (EvUploadBundle b (Val tt)) x _ []); [apply uploaded_now|done|done].
      + cbn [of_outcome bind try_] in H. destruct (decide (x = EBundleUploadFailed)) as [->|Hx].
        * assert (attempt_failed cf ns [EvGetBundle ns me dev (Exn EBundleUploadFailed)]) as Ha by (by left). exact (proj1 (Hfail _ Ha) H).
        * assert (evs = [EvGetBundle ns me dev (Exn x)] ++ l) as -> by (destruct x; try done; by destruct H as [->|[]]).
          eexists. split; [done|]. apply (part_exn _ _ (EvGetBundle ns me dev (Val some_bundle)) x _ [EvUploadBundle some_bundle (Val tt)]); [apply uploaded_now|done|done].
    - intros u. cbn [rotate_upload bind try_ b_get_bundle n_upload_bundle exec]. intros ([b|x] & _ & H).
      + cbn [of_outcome bind try_ exec] in H. destruct H as ([[]|x] & _ & H).
        * destruct H as [_ ->]. eexists [_; _]. split; [done|]. apply uploaded_now.
        * cbn [of_outcome bind try_] in H. destruct (decide (x = EBundleUploadFailed)) as [->|Hx].
          -- exact (proj2 (Hfail _ (Hb b)) _ H).
          -- exfalso. destruct x; try done; by destruct H.
      + cbn [of_outcome bind try_] in H. destruct (decide (x = EBundleUploadFailed)) as [->|Hx].
        * assert (attempt_failed cf ns [EvGetBundle ns me dev (Exn EBundleUploadFailed)]) as Ha by (by left). exact (proj2 (Hfail _ Ha) _ H).
        * exfalso. destruct x; try done; by destruct H.
  Qed.

  Definition left1 (period age nc : Z) : Z := if decide (age <= period)%Z then Z.min (period - age) nc else nc.
  Lemma one_all fuel period nc ns l evs :
    (reach S (rotate_one cf fuel period nc ns) l evs -> exists new, evs = new ++ l /\ visiting cf period ns new) /\
    (forall z, exec S (rotate_one cf fuel period nc ns) l (Val z) evs ->
       exists age new, evs = new ++ l /\ visited cf period ns age new /\ z = left1 period age nc).
  Proof.
    assert (forall a, exists f, visited cf period ns a (f ++ [EvSpkAge ns (Val a)])) as Hfull.
    { intros a. destruct (decide (a <= period)%Z) as [Ha|Ha]; [exists []; by left|].
      exists ([EvUploadBundle some_bundle (Val tt); EvGetBundle ns me dev (Val some_bundle)] ++ [EvRotate ns (Val tt)]).
      right. split; [lia|]. eexists. split; [apply uploaded_now|]. by rewrite <- app_assoc. }
    assert (forall x : list event, part (fun f => exists age, visited cf period ns age f) x -> visiting cf period ns x) as Hv.
    { intros x (full & [age H] & H'). by exists age, full. }
    unfold rotate_one, b_spk_age, b_rotate. split.
    - cbn [bind reach]. intros [->|([age|x] & _ & H)].
      + exists []. split; [done|]. apply Hv. destruct (Hfull 0%Z) as [f Hf]. eapply (part_pre _ _ (f ++ [EvSpkAge ns (Val 0%Z)])). rewrite app_nil_r. eauto.
      + cbn [of_outcome bind] in H. destruct (Z.ltb_spec (period - age) 0) as [Hlt|Hge].
        * cbn [bind reach] in H. destruct H as [->|([[]|x] & _ & H)].
          -- exists [EvSpkAge ns (Val age)]. split; [done|]. apply Hv. destruct (Hfull age) as [f Hf]. eapply (part_pre _ _ f). eauto.
          -- cbn [of_outcome bind] in H. apply reach_bind in H as [H|([] & l1 & H1 & H)].
             ++ apply upload_all in H as (new & -> & H). exists (new ++ [EvRotate ns (Val tt); EvSpkAge ns (Val age)]).
                split; [by rewrite <- app_assoc|]. apply Hv. eapply part_app; [|exact H]. intros full Hf. exists age. right. split; [lia|]. eauto.
             ++ apply upload_all in H1 as (new & -> & H1). destruct H as [->|[]]. exists (new ++ [EvRotate ns (Val tt); EvSpkAge ns (Val age)]).
                split; [by rewrite <- app_assoc|]. apply Hv. apply (part_pre _ _ []). exists age. right. split; [lia|]. eauto.
          -- destruct H as [->|[]]. exists [EvRotate ns (Exn x); EvSpkAge ns (Val age)]. split; [done|]. apply Hv.
             eapply (part_exn _ _ (EvRotate ns (Val tt)) x _ [EvUploadBundle some_bundle (Val tt); EvGetBundle ns me dev (Val some_bundle)]); [|done|done].
             exists age. right. split; [lia|]. eexists. split; [apply uploaded_now|done].
        * destruct H as [->|[]]. exists [EvSpkAge ns (Val age)]. split; [done|]. apply Hv. apply (part_pre _ _ []). exists age. left. split; [lia|done].
      + destruct H as [->|[]]. exists [EvSpkAge ns (Exn x)]. split; [done|]. apply Hv. destruct (Hfull 0%Z) as [f Hf].
        eapply (part_exn _ _ (EvSpkAge ns (Val 0%Z)) x _ f); [eauto|done|done].
    - intros z. cbn [bind exec]. intros ([age|x] & _ & H); [|by destruct H]. cbn [of_outcome bind] in H.
      exists age. unfold left1. destruct (Z.ltb_spec (period - age) 0) as [Hlt|Hge].
      + cbn [bind exec] in H. destruct H as ([[]|x] & _ & H); [|by destruct H]. cbn [of_outcome bind] in H.
        apply exec_bind in H as [([] & l1 & H1 & H)|(e & _ & ?)]; [|done]. apply upload_all in H1 as (new & -> & H1).
        destruct H as [[= ->] ->]. exists (new ++ [EvRotate ns (Val tt); EvSpkAge ns (Val age)]). split; [by rewrite <- app_assoc|].
        split; [right; split; [lia|eauto]|]. by rewrite decide_False by lia.
      + destruct H as [[= ->] ->]. exists [EvSpkAge ns (Val age)]. split; [done|]. split; [left; split; [lia|done]|].
        rewrite decide_True by lia. lia.
  Qed.

  Definition all_visited period (nss : list string) (ages : list Z) (vs : list (list event)) : Prop :=
    forall i ns age v, nss !! i = Some ns -> ages !! i = Some age -> vs !! i = Some v -> visited cf period ns age v.
  Lemma all_cons period ns nss age ages v vs : visited cf period ns age v -> all_visited period nss ages vs ->
    all_visited period (ns :: nss) (age :: ages) (v :: vs).
  Proof. intros H1 H2 [|i] ns' age' v'; simpl; [intros; by simplify_eq|apply H2]. Qed.
  Definition left_all period ages nc : Z := foldr Z.min nc (map (fun age => period - age)%Z (filter (fun age => (age <= period)%Z) ages)).
  Lemma left_min period ages z nc : left_all period ages (Z.min z nc) = Z.min z (left_all period ages nc).
  Proof. unfold left_all. induction (map _ _) as [|a l IH]; [done|]. simpl. rewrite IH. lia. Qed.
  Lemma left_cons period age ages nc : left_all period ages (left1 period age nc) = left_all period (age :: ages) nc.
  Proof.
    unfold left1. destruct (decide (age <= period)%Z) as [Ha|Ha].
    - rewrite left_min. unfold left_all. by rewrite filter_cons_True.
    - unfold left_all. by rewrite filter_cons_False.
  Qed.
  Lemma fold_all fuel period nss nc l evs :
    (reach S (fold_prog nss (rotate_one cf fuel period) nc) l evs -> exists ages vs last,
       length ages = length vs /\ length vs <= length nss /\ all_visited period nss ages vs /\ evs = last ++ concat (rev vs) ++ l /\
       (last = [] \/ exists ns, nss !! length vs = Some ns /\ visiting cf period ns last)) /\
    (forall z, exec S (fold_prog nss (rotate_one cf fuel period) nc) l (Val z) evs -> exists ages vs,
       length ages = length nss /\ length vs = length nss /\ all_visited period nss ages vs /\ evs = concat (rev vs) ++ l /\ z = left_all period ages nc).
  Proof.
    revert nc l. induction nss as [|ns nss IH]; intros nc l.
    { split.
      - intros [->|[]]. exists [], [], []. split; [done|]. split; [done|]. split; [by intros i|]. split; [done|]. by left.
      - intros z [[= ->] ->]. exists [], []. split; [done|]. split; [done|]. split; [by intros i|]. done. }
    cbn [fold_prog]. split.
    - intros [H|(z & l1 & H1 & H)]%reach_bind.
      + apply one_all in H as (new & -> & H). exists [], [], new. split; [done|]. split; [simpl; lia|]. split; [by intros i|].
        split; [done|]. right. exists ns. done.
      + apply one_all in H1 as (age & new & -> & Hv & ->). apply IH in H as (ages & vs & last & E1 & E2 & E3 & -> & H).
        exists (age :: ages), (new :: vs), last. split; [simpl; lia|]. split; [simpl; lia|]. split; [by apply all_cons|].
        split; [simpl; rewrite concat_app; simpl; by rewrite app_nil_r, <- app_assoc|]. done.
    - intros z H. apply exec_bind in H as [(z1 & l1 & H1 & H)|(e & _ & ?)]; [|done].
      apply one_all in H1 as (age & new & -> & Hv & ->). apply IH in H as (ages & vs & E1 & E2 & E3 & -> & ->).
      exists (age :: ages), (new :: vs). split; [simpl; lia|]. split; [simpl; lia|]. split; [by apply all_cons|].
      split; [simpl; rewrite concat_app; simpl; by rewrite app_nil_r, <- app_assoc|]. apply left_cons.
  Qed.

  Notation L := (answer P GLoaded).
  Lemma rotation_reach fuel period done_ evs : passes cf L period done_ -> reach S (rotation cf fuel period) done_ evs ->
    exists cur done', evs = cur ++ done' /\ passes cf L period done' /\ (cur = [] \/ passing cf L period cur).
  Proof.
    revert done_. induction fuel as [|fuel IH]; intros done_ Hd.
    { intros [->|[]]. exists [], done_. split; [done|]. split; [done|]. by left. }
    change (rotation cf (Datatypes.S fuel) period) with (backends <- g_loaded ;; next_check <- fold_prog backends (rotate_one cf (Datatypes.S fuel) period) period ;; c_sleep (next_check + 60) ;;; rotation cf fuel period).
    cbn [bind g_loaded reach]. intros [->|(nss & Hn & H)]; [exists [], done_; split; [done|]; split; [done|]; by left|].
    assert (L nss) as HL by exact Hn. clear Hn. change (Prog.apply S done_ GLoaded nss) with done_ in H.
    apply reach_bind in H as [H|(z & l1 & H1 & H)].
    - apply fold_all in H as (ages & vs & last & E1 & E2 & E3 & -> & H). exists (last ++ concat (rev vs)), done_.
      split; [by rewrite <- app_assoc|]. split; [done|]. right. exists nss, ages, vs, last. do 4 (split; [done|]). split; [done|].
      destruct H as [->|H]; [by left|right; by left].
    - apply fold_all in H1 as (ages & vs & E1 & E2 & E3 & -> & ->). cbn [bind c_sleep reach] in H. destruct H as [->|([[]|x] & _ & H)].
      + exists (concat (rev vs)), done_. split; [done|]. split; [done|]. right. exists nss, ages, vs, []. split; [done|]. split; [congruence|]. split; [lia|].
        split; [done|]. split; [done|]. by left.
      + cbn [of_outcome bind] in H. apply IH in H; [done|]. by constructor 2 with nss.
      + destruct H as [->|[]]. exists (EvSleep (time_left period ages + 60) (Exn x) :: concat (rev vs)), done_. split; [done|]. split; [done|].
        right. exists nss, ages, vs, [EvSleep (time_left period ages + 60) (Exn x)]. split; [done|]. split; [congruence|]. split; [lia|].
        split; [done|]. split; [done|]. right. right. split; [done|]. by exists x.
  Qed.

  (** ** The sleeps *)
  Lemma app_split {A} (l1 l2 post : list A) e before : l1 ++ l2 = post ++ e :: before ->
    (exists b, l1 = post ++ e :: b /\ before = b ++ l2) \/ (exists p, l2 = p ++ e :: before /\ post = l1 ++ p).
  Proof.
    revert post. induction l1 as [|a l1 IH]; intros post H; [right; exists post; done|].
    destruct post as [|a' post]; simpl in H; injection H as -> H; [left; by exists l1|].
    apply IH in H as [(b & -> & ->)|(p & -> & ->)]; [left; by exists b|right; by exists p].
  Qed.
  Lemma concat_split {A} (vs : list (list A)) post e before : concat vs = post ++ e :: before ->
    exists v p b rest, v ∈ vs /\ v = p ++ e :: b /\ before = b ++ rest.
  Proof.
    revert post. induction vs as [|v vs IH]; intros post H; simpl in H; [by destruct post|].
    apply app_split in H as [(b & -> & ->)|(p & H & ->)].
    - exists (post ++ e :: b), post, b, (concat vs). split; [left|done].
    - apply IH in H as (v' & p' & b & rest & Hv & -> & ->). exists (p' ++ e :: b), p', b, rest. split; [by right|done].
  Qed.
  Lemma failed_sleep ns a post z r before : attempt_failed cf ns a -> a <> post ++ EvSleep z r :: before.
  Proof. intros [->|[b ->]]; (destruct post as [|? [|? [|? ?]]]; simpl; intros [=]). Qed.
  Lemma retries_sleep ns zs l post z r before : retries cf ns zs l -> l = post ++ EvSleep z r :: before ->
    z ∈ zs /\ exists a l', attempt_failed cf ns a /\ before = a ++ l'.
  Proof.
    intros H. revert post. induction H as [|z' zs l a H IH Ha]; intros post E; [by destruct post|].
    destruct post as [|e post]; simpl in E.
    - injection E as -> _ <-. split; [left|eauto].
    - injection E as _ E. apply app_split in E as [(b & -> & _)|(p & E & ->)]; [by eapply failed_sleep in Ha|].
      apply IH in E as [? ?]. split; [by right|done].
  Qed.
  Definition retry_sleep (z : Z) (before : list event) : Prop := z = 60%Z /\ exists ns a l, attempt_failed cf ns a /\ before = a ++ l.
  Lemma visited_sleep period ns age l post z r before : visited cf period ns age l -> l = post ++ EvSleep z r :: before -> retry_sleep z before.
  Proof.
    intros [[_ ->]|(_ & u & (b & zs & l' & Hz & Hr & ->) & ->)] E; [destruct post as [|? [|? ?]]; discriminate E|].
    apply app_split in E as [(b' & E & ->)|(p & E & _)]; [|destruct p as [|? [|? [|? ?]]]; discriminate E].
    apply app_split in E as [(b0 & E & ->)|(p & -> & _)]; [destruct post as [|? [|? [|? ?]]]; discriminate E|].
    destruct (retries_sleep _ _ _ _ _ _ _ Hr eq_refl) as [Hin (a & l0 & Ha & ->)]. rewrite Forall_forall in Hz. split; [by apply Hz|].
    exists ns, a, (l0 ++ [EvRotate ns (Val tt); EvSpkAge ns (Val age)]). by rewrite <- app_assoc.
  Qed.
  Lemma retry_more z before l : retry_sleep z before -> retry_sleep z (before ++ l).
  Proof. intros [-> (ns & a & l0 & Ha & ->)]. split; [done|]. exists ns, a, (l0 ++ l). by rewrite <- app_assoc. Qed.
  Lemma all_sleep period nss ages vs post z r before : length ages = length vs -> length vs <= length nss -> all_visited period nss ages vs ->
    concat (rev vs) = post ++ EvSleep z r :: before -> retry_sleep z before.
  Proof.
    intros E1 E2 Hv H. apply concat_split in H as (v & p & b & rest & Hin & E & ->). apply elem_of_list_In, in_rev, elem_of_list_In in Hin.
    apply elem_of_list_lookup in Hin as [i Hi]. assert (i < length vs) as Hlt by (by eapply lookup_lt_Some).
    destruct (lookup_lt_is_Some_2 nss i) as [ns Hns]; [lia|]. destruct (lookup_lt_is_Some_2 ages i) as [age Hage]; [lia|].
    apply retry_more. eapply visited_sleep; [by eapply Hv|done].
  Qed.
  Definition pass_sleep period (z : Z) (before : list event) : Prop :=
    exists nss ages vs l, answer P GLoaded nss /\ length ages = length nss /\ length vs = length nss /\ all_visited period nss ages vs /\
      before = concat (rev vs) ++ l /\ z = (time_left period ages + 60)%Z.
  Lemma passes_sleep period done_ post z r before : passes cf (answer P GLoaded) period done_ -> done_ = post ++ EvSleep z r :: before ->
    retry_sleep z before \/ pass_sleep period z before.
  Proof.
    intros H. revert post. induction H as [|l nss ages vs H IH HL E1 E2 E3]; intros post E; [by destruct post|].
    destruct post as [|e post]; simpl in E; injection E as Ee E.
    - subst. right. exists nss, ages, vs, l. done.
    - apply app_split in E as [(b & E & ->)|(p & E & ->)]; [|by eapply IH].
      left. apply retry_more. eapply all_sleep; [| |exact E3|exact E]; lia.
  Qed.
  Lemma rotation_sleep fuel period evs post z before : reach S (rotation cf fuel period) [] evs -> evs = post ++ EvSleep z (Val tt) :: before ->
    retry_sleep z before \/ pass_sleep period z before.
  Proof.
    intros H. apply rotation_reach in H as (cur & dn & -> & Hd & Hc); [|constructor]. intros E.
    apply app_split in E as [(b & E & ->)|(p & E & ->)]; [|by eapply passes_sleep].
    destruct Hc as [->|(nss & ages & vs & last & _ & E1 & E2 & E3 & -> & Hl)]; [by destruct post|]. left. apply retry_more.
    apply app_split in E as [(b' & E & ->)|(p & E & ->)]; [|by eapply all_sleep]. apply retry_more.
    destruct Hl as [->|[(ns & _ & age & full & Hv & [[k ->]|(e & e' & x & l' & -> & [k ->] & _ & Hx)])|(_ & x & ->)]]; [by destruct post| | |].
    - eapply visited_sleep; [exact Hv|]. by rewrite E, app_assoc.
    - destruct post as [|e0 post]; simpl in E; injection E as -> E; [done|]. eapply visited_sleep; [exact Hv|]. rewrite E.
      change (e' :: post ++ EvSleep z (Val tt) :: b') with ((e' :: post) ++ EvSleep z (Val tt) :: b'). by rewrite app_assoc.
    - by destruct post as [|? [|? ?]].
  Qed.
  Lemma time_left_spec period ages : (time_left period ages <= period)%Z /\
    (forall age, age ∈ ages -> (age <= period)%Z -> (time_left period ages <= period - age)%Z) /\
    (time_left period ages = period \/ exists age, age ∈ ages /\ (age <= period)%Z /\ time_left period ages = (period - age)%Z) /\
    ((0 <= period)%Z -> (0 <= time_left period ages)%Z).
  Proof.
    unfold time_left. induction ages as [|a ages IH].
    { simpl. split; [lia|]. split; [by intros ? ?%elem_of_nil|]. split; [by left|done]. }
    destruct (decide (a <= period)%Z) as [Ha|Ha].
    - rewrite filter_cons_True by done. simpl. destruct IH as (H1 & H2 & H3 & H4). split; [lia|]. split; [|split].
      + intros age [->|Hin]%elem_of_cons Hle; [lia|]. specialize (H2 _ Hin Hle). lia.
      + destruct H3 as [H3|(age & Hin & Hle & H3)].
        * destruct (Z.le_ge_cases (period - a) period) as [Hc|Hc]; [right; exists a; split; [left|]; lia|left; lia].
        * destruct (Z.le_ge_cases (period - a) (period - age)) as [Hc|Hc].
          -- right. exists a. split; [left|]. lia.
          -- right. exists age. split; [by right|]. lia.
      + lia.
    - rewrite filter_cons_False by done. destruct IH as (H1 & H2 & H3 & H4). split; [done|]. split; [|split].
      + intros age [->|Hin]%elem_of_cons Hle; [done|by apply H2].
      + destruct H3 as [H3|(age & Hin & H3)]; [by left|right]. exists age. split; [by right|done].
      + done.
  Qed.
  Lemma pass_time fuel period evs post z before : reach S (rotation cf fuel period) [] evs -> evs = post ++ EvSleep z (Val tt) :: before ->
    (z = 60%Z /\ exists ns a l, attempt_failed cf ns a /\ before = a ++ l) \/
    exists nss ages vs l, answer P GLoaded nss /\ length ages = length nss /\ length vs = length nss /\
      (forall i ns age v, nss !! i = Some ns -> ages !! i = Some age -> vs !! i = Some v -> visited cf period ns age v) /\
      before = concat (rev vs) ++ l /\
      (z <= period + 60)%Z /\ (forall age, age ∈ ages -> (age <= period)%Z -> (z <= period - age + 60)%Z) /\
      (z = (period + 60)%Z \/ exists age, age ∈ ages /\ (age <= period)%Z /\ z = (period - age + 60)%Z) /\
      ((0 <= period)%Z -> (60 <= z)%Z).
  Proof.
    intros H E. destruct (rotation_sleep _ _ _ _ _ _ H E) as [?|(nss & ages & vs & l & HL & E1 & E2 & E3 & E4 & ->)]; [by left|right].
    exists nss, ages, vs, l. do 5 (split; [done|]). destruct (time_left_spec period ages) as (T1 & T2 & T3 & T4).
    split; [lia|]. split; [intros age Hi Hle; specialize (T2 _ Hi Hle); lia|]. split; [|lia].
    destruct T3 as [->|(age & Hi & Hle & ->)]; [by left|right]. eauto.
  Qed.

  (** ** The call before each call *)
  Definition rstep (period : Z) (ev : event) (before : list event) : Prop :=
    match ev with
    | EvSpkAge _ _ => ready period before
    | EvRotate ns _ => exists age l, before = EvSpkAge ns (Val age) :: l /\ (period < age)%Z
    | EvGetBundle ns j x _ => j = me /\ x = dev /\
        ((exists l, before = EvRotate ns (Val tt) :: l) \/ exists a l, attempt_failed cf ns a /\ before = EvSleep 60 (Val tt) :: a ++ l)
    | EvUploadBundle b _ => exists ns l, before = EvGetBundle ns me dev (Val b) :: l
    | EvSleep z _ => (z = 60%Z /\ exists ns a l, attempt_failed cf ns a /\ before = a ++ l) \/ ready period before
    | _ => False
    end.
  Lemma rstep_same period e e' before : same_call e e' -> rstep period e' before -> rstep period e before.
  Proof.
    intros H. destruct e, e'; try done; simpl in *; try (by subst). destruct H as (-> & -> & ->). done.
  Qed.
  Lemma attempt_steps period ns a l : attempt_failed cf ns a -> traced (rstep period) l ->
    ((exists l', l = EvRotate ns (Val tt) :: l') \/ exists a' l', attempt_failed cf ns a' /\ l = EvSleep 60 (Val tt) :: a' ++ l') -> traced (rstep period) (a ++ l).
  Proof.
    intros [->|[b ->]] Hl Hb; simpl; repeat (apply traced_cons; split); try done; simpl; eauto.
  Qed.
  Definition attempting ns (l : list event) : Prop :=
    (exists l', l = EvRotate ns (Val tt) :: l') \/ exists a' l', attempt_failed cf ns a' /\ l = EvSleep 60 (Val tt) :: a' ++ l'.
  Lemma retries_steps period ns zs l l0 : Forall (fun z => z = 60%Z) zs -> retries cf ns zs l -> traced (rstep period) l0 -> attempting ns l0 ->
    traced (rstep period) (l ++ l0) /\ attempting ns (l ++ l0).
  Proof.
    intros Hz H Hl Hb. induction H as [|z zs l a H IH Ha]; [done|]. apply Forall_cons in Hz as [-> Hz]. destruct (IH Hz) as [H1 H2].
    assert (traced (rstep period) (a ++ l ++ l0)) as H3 by (by eapply attempt_steps).
    simpl. rewrite <- app_assoc. split; [|right; eauto]. apply traced_cons. split; [|done]. left. split; [done|]. eauto.
  Qed.
  Lemma visited_steps period ns age v l : visited cf period ns age v -> traced (rstep period) l -> ready period l ->
    traced (rstep period) (v ++ l) /\ ready period (v ++ l).
  Proof.
    intros [[Ha ->]|(Ha & u & (b & zs & l' & Hz & Hr & ->) & ->)] Hl Hrd.
    - split; [|done]. apply traced_cons. done.
    - assert (traced (rstep period) ([EvRotate ns (Val tt); EvSpkAge ns (Val age)] ++ l)) as H1.
      { simpl. apply traced_cons. split; [simpl; eauto|]. apply traced_cons. done. }
      assert (attempting ns ([EvRotate ns (Val tt); EvSpkAge ns (Val age)] ++ l)) as H2 by (left; simpl; eauto).
      destruct (retries_steps period ns zs l' _ Hz Hr H1 H2) as [H3 H4]. rewrite <- !app_assoc. simpl in *. split; [|done].
      apply traced_cons. split; [simpl; eauto|]. apply traced_cons. split; [|done]. simpl. done.
  Qed.
  Lemma all_steps period nss ages vs l : length ages = length vs -> length vs <= length nss -> all_visited period nss ages vs ->
    traced (rstep period) l -> ready period l -> traced (rstep period) (concat (rev vs) ++ l) /\ ready period (concat (rev vs) ++ l).
  Proof.
    revert nss ages l. induction vs as [|v vs IH]; intros nss ages l E1 E2 Hv Hl Hr; [done|].
    destruct nss as [|ns nss]; [simpl in E2; lia|]. destruct ages as [|age ages]; [done|].
    simpl. rewrite concat_app. simpl. rewrite app_nil_r, <- app_assoc.
    destruct (visited_steps period ns age v l) as [H1 H2]; [by apply (Hv 0%nat)|done|done|].
    apply (IH nss ages); [simpl in E1; lia|simpl in E2; lia|intros i; apply (Hv (Datatypes.S i))|done|done].
  Qed.
  Lemma passes_steps period l : passes cf (answer P GLoaded) period l -> traced (rstep period) l /\ ready period l.
  Proof.
    induction 1 as [|l nss ages vs H [IH1 IH2] HL E1 E2 E3]; [split; [apply traced_nil|done]|].
    destruct (all_steps period nss ages vs l) as [H1 H2]; [lia|lia|done|done|done|]. split; [|done]. apply traced_cons. split; [by right|done].
  Qed.
  Lemma traced_suffix (C : event -> list event -> Prop) k l : traced C (k ++ l) -> traced C l.
  Proof. intros H post e pre ->. apply (H (k ++ post)). by rewrite <- app_assoc. Qed.
  Lemma rotation_steps fuel period evs : reach S (rotation cf fuel period) [] evs -> traced (rstep period) evs.
  Proof.
    intros H. apply rotation_reach in H as (cur & dn & -> & Hd & Hc); [|constructor]. apply passes_steps in Hd as [D1 D2].
    destruct Hc as [->|(nss & ages & vs & last & _ & E1 & E2 & E3 & -> & Hl)]; [done|]. rewrite <- app_assoc.
    destruct (all_steps period nss ages vs dn E1 E2 E3 D1 D2) as [H1 H2].
    destruct Hl as [->|[(ns & _ & age & full & Hv & Hl)|(_ & x & ->)]]; [done| |].
    - destruct (visited_steps _ _ _ _ _ Hv H1 H2) as [H3 _]. destruct Hl as [[k ->]|(e & e' & x & l' & -> & [k ->] & He & Hx)].
      + rewrite <- app_assoc in H3. by apply traced_suffix in H3.
      + rewrite <- app_assoc in H3. apply traced_suffix in H3. simpl in *. apply traced_cons in H3 as [H3 H4]. apply traced_cons.
        split; [|done]. by eapply rstep_same.
    - apply traced_cons. split; [by right|done].
  Qed.

  Lemma failed_upload fuel period evs post e b before : reach S (rotation cf fuel period) [] evs ->
    evs = post ++ e :: EvUploadBundle b (Exn EBundleUploadFailed) :: before ->
    exists ns l r, before = EvGetBundle ns me dev (Val b) :: l /\ e = EvSleep 60 r /\
      forall post' e', r = Val tt -> post = post' ++ [e'] -> exists r', e' = EvGetBundle ns me dev r'.
  Proof.
    intros H%rotation_steps ->.
    pose proof (H (post ++ [e]) (EvUploadBundle b (Exn EBundleUploadFailed)) before) as H1. rewrite <- app_assoc in H1. specialize (H1 eq_refl).
    destruct H1 as (ns & l & ->). pose proof (H post e _ eq_refl) as H2. exists ns, l.
    destruct e; simpl in H2; try done.
    - destruct H2 as [[-> _]|[]]. exists r. split; [done|]. split; [done|]. intros post' e' -> ->.
      pose proof (H post' e' (EvSleep 60 (Val tt) :: EvUploadBundle b (Exn EBundleUploadFailed) :: EvGetBundle ns me dev (Val b) :: l)) as H3.
      rewrite <- app_assoc in H3. specialize (H3 eq_refl). destruct e'; simpl in H3; try done.
      + by destruct H3 as [[_ (n & a & l0 & [->|[b' ->]] & ?)]|[]].
      + by destruct H3 as (age & l0 & ? & _).
      + destruct H3 as (-> & -> & [(l0 & ?)|(a & l0 & [->|[b' ->]] & [=])]); [done|]. subst. by eexists.
      + by destruct H3 as (n & l0 & ?).
    - by destruct H2 as (age & l0 & ? & _).
    - destruct H2 as (_ & _ & [(l0 & ?)|(a & l0 & _ & ?)]); done.
    - by destruct H2 as (n & l0 & ?).
  Qed.
End rot.
