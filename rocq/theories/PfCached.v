(** Proofs for PropsCached.v: coroutines without races do not notice the cache. *)
From Verif Require Import Cached Alone PfTyped PfWp PfDevices PfStorage PfAlone PfUncached PfFoot PfOne.
Open Scope prog_scope.
Open Scope list_scope.

(** [q] is what is left of [p]; what is put into the cache is what was just read or written *)
Fixpoint ksim {A} (q : rapi A) (p : api A) : Prop :=
  match q with
  | Ret a => p = Ret a
  | Raise e => p = Raise e
  | Step c f =>
      match c as c return (rresp c -> rapi A) -> (rresp c -> api A -> Prop) -> Prop with
      | RCacheGet k => fun f s => s None p /\ (exists g, f None = Step (RLoad k) g) /\
          (forall v, (forall k' v' g, f (Some v) <> Step (RCachePut k' v') g)) /\
          exists kk, p = Step (SLoad k) kk /\ forall v, s (Some v) (kk (Val v))
      | RCachePut k v => fun f s => s tt p /\ (forall k' v' g, f tt <> Step (RCachePut k' v') g)
      | RLoad k => fun f s => (forall v, exists g, f (Val v) = Step (RCachePut k v) g) /\
          (forall e k' v' g, f (Exn e) <> Step (RCachePut k' v') g) /\ exists kk, p = Step (SLoad k) kk /\ forall r, s r (kk r)
      | RStore k v => fun f s => (exists g, f (Val tt) = Step (RCachePut k (Some v)) g) /\
          (forall e k' v' g, f (Exn e) <> Step (RCachePut k' v') g) /\ exists kk, p = Step (SStore k v) kk /\ forall r, s r (kk r)
      | RDelete k => fun f s => (exists g, f (Val tt) = Step (RCachePut k None) g) /\
          (forall e k' v' g, f (Exn e) <> Step (RCachePut k' v') g) /\ exists kk, p = Step (SDelete k) kk /\ forall r, s r (kk r)
      | ROther c => fun f s => ~ storage_cmd c /\ (forall r k' v' g, f r <> Step (RCachePut k' v') g) /\ exists kk, p = Step c kk /\ forall r, s r (kk r)
      end f (fun r => ksim (f r))
  end.
Lemma lower_no_put {A} (p : api A) k v g : lower p <> Step (RCachePut k v) g.
Proof. destruct p as [a|e|c f]; [done|done|]. destruct c; done. Qed.
Lemma ksim_lower {A} (p : api A) : ksim (lower p) p.
Proof.
  induction p as [a|e|c k IH]; [done|done|].
  destruct c; simpl;
    try (split; [intros []|]; split; [intros; apply lower_no_put|]; eexists; split; [reflexivity|]; exact IH).
  - split; [split; [intros v; by eexists|split; [intros; apply lower_no_put|]]; eexists; split; [reflexivity|]; intros [v|e]; simpl; [split; [apply IH|intros; apply lower_no_put]|apply IH]|].
    split; [by eexists|]. split; [intros; apply lower_no_put|]. eexists; split; [reflexivity|]. intros v. apply IH.
  - split; [by eexists|]. split; [intros; apply lower_no_put|]. eexists; split; [reflexivity|]. intros [[]|e]; simpl; [split; [apply IH|intros; apply lower_no_put]|apply IH].
  - split; [by eexists|]. split; [intros; apply lower_no_put|]. eexists; split; [reflexivity|]. intros [[]|e]; simpl; [split; [apply IH|intros; apply lower_no_put]|apply IH].
Qed.

Section cached.
  Context (P : world -> forall c, resp c -> Prop) (HP : forall w c r, storage_cmd c -> P w c r).
  Local Notation S := (with_contract P).

  Lemma traced_snoc cfg tr ps w i c k r : traced_run S cfg tr (ps, w) -> ps !! i = Some (Step c k) -> allowed S w c r ->
    traced_run S cfg (tr ++ [(i, c)]) (<[i := k r]> ps, w_apply w c r).
  Proof using.
    intros H. remember (ps, w) as cfg' eqn:E. revert ps w E. induction H as [cfg|ps0 w0 i0 c0 k0 r0 tr cfg Hi0 Hr0 _ IH]; intros ps w -> Hi Hr; simpl.
    - eapply traced_step; [exact Hi|exact Hr|]. apply traced_refl.
    - eapply traced_step; [exact Hi0|exact Hr0|]. by eapply IH.
  Qed.
  Lemma traced_preach cfg tr cfg' : traced_run S cfg tr cfg' -> preach S cfg cfg'.
  Proof using. induction 1 as [|ps w i c k r tr cfg Hi Hr _ IH]; [constructor|]. eapply preach_step; [|exact IH]. by exists i, c, k, r. Qed.
  Lemma preach_traced cfg cfg' : preach S cfg cfg' -> exists tr, traced_run S cfg tr cfg'.
  Proof using.
    induction 1 as [cfg|[ps w] [ps1 w1] cfg2 (i & c & k & r & Hi & Hr & E1 & E2) _ (tr & IH)]; [exists []; constructor|].
    simpl in *. subst ps1 w1. exists ((i, c) :: tr). exact (traced_step S ps w i c k r tr cfg2 Hi Hr IH).
  Qed.

  Lemma disk_other w c r : ~ storage_cmd c -> w_disk (w_apply w c r) = w_disk w.
  Proof using. intros Hc. destruct c; try done; try (by destruct Hc); by destruct r. Qed.

  (** what is pending will be right; what is wrong in the cache will be corrected by the one who wrote the key *)
  Definition tame (tr : list (nat * cmd)) (rs : list (rapi unit)) (w : rworld) : Prop :=
    (forall ca k v, r_cache w = Some ca -> ca !! k = Some v -> r_disk w !! k = v \/
       exists i v' g c, rs !! i = Some (Step (RCachePut k v') g) /\ (i, c) ∈ tr /\ key_written c = Some k) /\
    (forall i k v g, rs !! i = Some (Step (RCachePut k v) g) -> r_disk w !! k = v /\ exists c, (i, c) ∈ tr /\ key_used c = Some k).

  Lemma tame_step (start : list (api unit) * world) tr rs w qs i c f r :
    (forall tr cfg, traced_run S start tr cfg -> race_free tr) -> traced_run S start tr (qs, r_world w) ->
    Forall2 ksim rs qs -> tame tr rs w -> rs !! i = Some (Step c f) -> allowed (rsem P) w c r ->
    exists tr' qs', traced_run S start tr' (qs', r_world (r_apply w c r)) /\ Forall2 ksim (<[i := f r]> rs) qs' /\
      tame tr' (<[i := f r]> rs) (r_apply w c r).
  Proof using HP.
    intros Hrf Htr Hs [T1 T2] Hi Ha. destruct (Forall2_lookup_l _ _ _ _ _ Hs Hi) as (p & Hp & Hk).
    assert (forall j q, <[i := f r]> rs !! j = Some q -> (j = i /\ q = f r) \/ (j <> i /\ rs !! j = Some q)) as Hins.
    { intros j q Hq. destruct (decide (j = i)) as [->|Hn].
      - left. split; [done|]. assert (Some q = Some (f r)) as [= ->]; [|done]. rewrite <- Hq. apply list_lookup_insert. by eapply lookup_lt_Some.
      - right. split; [done|]. rewrite <- Hq. symmetry. by apply list_lookup_insert_ne. }
    assert (forall j q, j <> i -> rs !! j = Some q -> <[i := f r]> rs !! j = Some q) as Hkeep.
    { intros j q Hn Hq. rewrite <- Hq. by apply list_lookup_insert_ne. }
    assert (<[i := f r]> rs !! i = Some (f r)) as Hself by (apply list_lookup_insert; by eapply lookup_lt_Some).
    (* steps that leave the storage and the cache as they are, and put nothing *)
    assert (forall tr' qs', traced_run S start tr' (qs', r_world (r_apply w c r)) -> Forall2 ksim (<[i := f r]> rs) qs' ->
      (forall x, x ∈ tr -> x ∈ tr') -> r_disk (r_apply w c r) = r_disk w -> r_cache (r_apply w c r) = r_cache w ->
      (forall k v g, f r = Step (RCachePut k v) g -> r_disk w !! k = v /\ exists c, (i, c) ∈ tr' /\ key_used c = Some k) ->
      (forall k v g, Step c f <> Step (RCachePut k v) g) ->
      exists tr' qs', traced_run S start tr' (qs', r_world (r_apply w c r)) /\ Forall2 ksim (<[i := f r]> rs) qs' /\ tame tr' (<[i := f r]> rs) (r_apply w c r)) as Hsame.
    { intros tr' qs' H1 H2 Hin Ed Ec Hput Hnp. exists tr', qs'. split; [done|]. split; [done|]. split.
      - intros ca k v Hca Hv. rewrite Ed. rewrite Ec in Hca. destruct (T1 ca k v Hca Hv) as [H|(j & v' & g & d & Hj & Hd & Hw)]; [by left|].
        right. exists j, v', g, d. split; [|split; [by apply Hin|done]]. apply Hkeep; [|done]. intros ->.
        assert (Some (Step c f) = Some (Step (RCachePut k v') g)) as E by (rewrite <- Hi; exact Hj). apply (inj Some) in E. by eapply Hnp.
      - intros j k v g Hj. rewrite Ed. destruct (Hins j _ Hj) as [[-> Hq]|[Hn Hq]]; [by eapply Hput|].
        destruct (T2 j k v g Hq) as [A (d & B & C)]. split; [done|]. exists d. split; [by apply Hin|done]. }
    (* writing *)
    assert (forall k0 c' kk nv, key_written c' = Some k0 -> storage_cmd c' -> qs !! i = Some (Step c' kk) -> forall r',
      w_allowed (r_world w) c' r' -> r_world (r_apply w c r) = w_apply (r_world w) c' r' -> r_cache (r_apply w c r) = r_cache w ->
      r_disk (r_apply w c r) !! k0 = nv -> (forall k, k <> k0 -> r_disk (r_apply w c r) !! k = r_disk w !! k) ->
      (exists g, f r = Step (RCachePut k0 nv) g) -> (forall k v g, Step c f <> Step (RCachePut k v) g) -> ksim (f r) (kk r') ->
      exists tr' qs', traced_run S start tr' (qs', r_world (r_apply w c r)) /\ Forall2 ksim (<[i := f r]> rs) qs' /\ tame tr' (<[i := f r]> rs) (r_apply w c r)) as Hwrite.
    { intros k0 c' kk nv Hkw Hst Hq r' Har Ew Ec Hd0 Hd [g Hg] Hnp Hsim.
      assert (traced_run S start (tr ++ [(i, c')]) (<[i := kk r']> qs, r_world (r_apply w c r))) as Htr'.
      { rewrite Ew. eapply traced_snoc; [exact Htr|exact Hq|]. split; [done|by apply HP]. }
      exists (tr ++ [(i, c')]), (<[i := kk r']> qs). split; [done|]. split; [by apply Forall2_insert|]. split.
      - intros ca k v Hca Hv. destruct (decide (k = k0)) as [->|Hk0].
        + right. exists i, nv, g, c'. split; [by rewrite Hself, Hg|]. split; [apply elem_of_app; right; left|done].
        + rewrite (Hd k Hk0). rewrite Ec in Hca. destruct (T1 ca k v Hca Hv) as [H|(j & v' & g' & d & Hj & Hdj & Hw)]; [by left|].
          right. exists j, v', g', d. split; [|split; [apply elem_of_app; by left|done]]. apply Hkeep; [|done]. intros ->.
          assert (Some (Step c f) = Some (Step (RCachePut k v') g')) as E by (rewrite <- Hi; exact Hj). apply (inj Some) in E. by eapply Hnp.
      - intros j k v g' Hj. destruct (Hins j _ Hj) as [[-> Hq']|[Hn Hq']].
        + rewrite Hg in Hq'. injection Hq' as -> -> _. split; [done|]. exists c'. split; [apply elem_of_app; right; left|].
          destruct c'; try done; by injection Hkw as ->.
        + destruct (T2 j k v g' Hq') as [A (d & B & C)]. destruct (decide (k = k0)) as [->|Hk0].
          * destruct Hn. symmetry. eapply (Hrf _ _ Htr' i j c' d k0); [apply elem_of_app; right; left|apply elem_of_app; by left|done|done].
          * rewrite (Hd k Hk0). split; [done|]. exists d. split; [apply elem_of_app; by left|done]. }
    destruct c as [k|k v|k|k|k v|c]; simpl in Ha.
    - destruct Hk as (K1 & K2 & kk & -> & K3). eapply (Hsame (tr ++ [(i, SLoad k)]) (<[i := kk r]> qs)).
      + eapply traced_snoc; [exact Htr|exact Hp|]. split; [exact Ha|by apply HP].
      + by apply Forall2_insert.
      + intros x Hx. apply elem_of_app. by left.
      + done.
      + done.
      + intros k' v' g E. destruct r as [v|e]; [|by apply K2 in E]. destruct (K1 v) as [g' E']. rewrite E in E'. injection E' as -> -> _.
        split; [by symmetry|]. exists (SLoad k). split; [apply elem_of_app; right; left|done].
      + done.
    - destruct Hk as ([g Eg] & K2 & kk & -> & K3). destruct r as [[]|e].
      + eapply (Hwrite k (SStore k v) kk (Some v)) with (r' := Val tt); try done.
        all: first [apply lookup_insert|intros k' Hk'; by apply lookup_insert_ne|by exists g|apply K3].
      + eapply (Hsame (tr ++ [(i, SStore k v)]) (<[i := kk (Exn e)]> qs)); [|  |  |done|done|  |done].
        * eapply (traced_snoc _ _ _ _ _ (SStore k v) kk (Exn e)); [exact Htr|exact Hp|]. split; [exact Ha|by apply HP].
        * by apply Forall2_insert.
        * intros x Hx. apply elem_of_app. by left.
        * intros k' v' g' E. by apply K2 in E.
    - destruct Hk as ([g Eg] & K2 & kk & -> & K3). destruct r as [[]|e].
      + eapply (Hwrite k (SDelete k) kk None) with (r' := Val tt); try done.
        all: first [apply lookup_delete|intros k' Hk'; by apply lookup_delete_ne|by exists g|apply K3].
      + eapply (Hsame (tr ++ [(i, SDelete k)]) (<[i := kk (Exn e)]> qs)); [|  |  |done|done|  |done].
        * eapply (traced_snoc _ _ _ _ _ (SDelete k) kk (Exn e)); [exact Htr|exact Hp|]. split; [exact Ha|by apply HP].
        * by apply Forall2_insert.
        * intros x Hx. apply elem_of_app. by left.
        * intros k' v' g' E. by apply K2 in E.
    - destruct Hk as (K0 & [g0 Eg0] & K2 & kk & -> & K3). destruct r as [v|].
      + eapply (Hsame (tr ++ [(i, SLoad k)]) (<[i := kk (Val v)]> qs)).
        * eapply (traced_snoc _ _ _ _ _ (SLoad k) kk (Val v)); [exact Htr|exact Hp|]. split; [|by apply HP]. simpl.
          destruct (r_cache w) as [ca|] eqn:Eca; [|done]. simpl in Ha. symmetry in Ha.
          destruct (T1 ca k v eq_refl Ha) as [H|(j & v' & g & d & Hj & Hd & Hw)]; [by symmetry|].
          assert (race_free (tr ++ [(i, SLoad k)])) as Hr.
          { eapply Hrf. eapply (traced_snoc _ _ _ _ _ (SLoad k) kk (Exn (ECancelled))); [exact Htr|exact Hp|]. split; [done|by apply HP]. }
          assert (j = i) as -> by (eapply (Hr j i d (SLoad k) k); [apply elem_of_app; by left|apply elem_of_app; right; left|done|done]).
          assert (Some (Step (RCacheGet k) f) = Some (Step (RCachePut k v') g)) as [=] by (rewrite <- Hi; exact Hj).
        * by apply Forall2_insert.
        * intros x Hx. apply elem_of_app. by left.
        * done.
        * done.
        * intros k' v' g E. by apply K2 in E.
        * done.
      + eapply (Hsame tr qs); [exact Htr| |done|done|done| |done].
        * rewrite <- (list_insert_id qs i _ Hp). apply Forall2_insert; [done|exact K0].
        * intros k' v' g E. rewrite Eg0 in E. done.
    - destruct Hk as [K0 K1]. destruct r. exists tr, qs. split; [exact Htr|]. split.
      { rewrite <- (list_insert_id qs i _ Hp). apply Forall2_insert; [done|exact K0]. }
      destruct (T2 i k v f Hi) as [Hd (c0 & Hc0 & Hu0)]. split.
      + intros ca k' v' Hca Hv'. simpl in Hca. destruct (r_cache w) as [ca0|] eqn:Eca; [|done]. injection Hca as <-.
        destruct (decide (k' = k)) as [->|Hne].
        * rewrite lookup_insert in Hv'. injection Hv' as <-. by left.
        * rewrite lookup_insert_ne in Hv' by done. destruct (T1 ca0 k' v' eq_refl Hv') as [H|(j & v1 & g & d & Hj & Hdj & Hw)]; [by left|].
          right. exists j, v1, g, d. split; [|done]. apply Hkeep; [|done]. intros ->.
          assert (Some (Step (RCachePut k v) f) = Some (Step (RCachePut k' v1) g)) as [= E1 E2] by (rewrite <- Hi; exact Hj). by subst.
      + intros j k' v' g Hj. destruct (Hins j _ Hj) as [[-> Hq]|[Hn Hq]]; [symmetry in Hq; by apply K1 in Hq|by eapply T2].
    - destruct Hk as (Kn & K1 & kk & -> & K3). destruct Ha as [Ha HPa]. eapply (Hsame (tr ++ [(i, c)]) (<[i := kk r]> qs)).
      + by eapply traced_snoc.
      + by apply Forall2_insert.
      + intros x Hx. apply elem_of_app. by left.
      + unfold r_disk. simpl. by apply disk_other.
      + done.
      + intros k' v' g E. by apply K1 in E.
      + done.
  Qed.

  Lemma tame_pool start tr (rs : list (rapi unit)) w cfg qs :
    (forall tr cfg, traced_run S start tr cfg -> race_free tr) -> traced_run S start tr (qs, r_world w) ->
    Forall2 ksim rs qs -> tame tr rs w -> preach (rsem P) (rs, w) cfg ->
    exists tr' qs', traced_run S start tr' (qs', r_world cfg.2) /\ Forall2 ksim cfg.1 qs' /\ tame tr' cfg.1 cfg.2.
  Proof using HP.
    intros Hrf Htr Hs Ht H. remember (rs, w) as c0 eqn:E. revert rs w tr qs E Htr Hs Ht.
    induction H as [cfg|c1 [rs2 w2] c3 (i & c & k & r & Hi & Ha & E1 & E2) _ IH]; intros rs w tr qs -> Htr Hs Ht; [eauto|].
    simpl in *. subst rs2 w2. destruct (tame_step start tr rs w qs i c k r Hrf Htr Hs Ht Hi Ha) as (tr' & qs' & H1 & H2 & H3). eauto.
  Qed.
  Lemma race_free_pool (ps : list (api unit)) w ps' w' :
    coherent w -> (forall tr cfg, traced_run S (ps, r_world w) tr cfg -> race_free tr) -> preach (rsem P) (map lower ps, w) (ps', w') ->
    exists tr qs, traced_run S (ps, r_world w) tr (qs, r_world w') /\
      (forall n, (ps' !! n = Some (Ret tt) -> qs !! n = Some (Ret tt)) /\ (forall e, ps' !! n = Some (Raise e) -> qs !! n = Some (Raise e))) /\
      (all_done ps' -> coherent w').
  Proof using HP.
    intros Hc Hrf H.
    assert (Forall2 ksim (map lower ps) ps) as Hs.
    { clear. induction ps as [|p ps IH]; simpl; constructor; [apply ksim_lower|exact IH]. }
    destruct (tame_pool (ps, r_world w) [] (map lower ps) w (ps', w') ps Hrf) as (tr & qs & H1 & H2 & H3 & H4); [constructor|done| |exact H|].
    { split.
      - intros ca k v Hca Hv. left. by eapply Hc.
      - intros i k v g Hi. change (map lower ps) with (lower <$> ps) in Hi. rewrite list_lookup_fmap in Hi. destruct (ps !! i) as [p|]; [|done].
        simpl in Hi. apply (inj Some) in Hi. by apply lower_no_put in Hi. }
    simpl in *. exists tr, qs. split; [done|]. split.
    - intros n. split; [|intros e]; intros Hn; destruct (Forall2_lookup_l _ _ _ _ _ H2 Hn) as (p & Hp & Hsim); simpl in Hsim; by subst p.
    - intros Hf ca k v Hca Hv. destruct (H3 ca k v Hca Hv) as [?|(i & v' & g & c & Hi & _)]; [done|]. by apply Hf in Hi as [[=]|[e [=]]].
  Qed.
End cached.

(** ** Settled accounts are only read *)
Section careful.
  Context (d0 : gmap string json) (R W : string -> Prop) (off : bool).
  Definition E (c : cmd) : resp c -> Prop :=
    match c return resp c -> Prop with
    | SLoad k => fun r => R k -> forall v, r = Val v -> v = d0 !! k
    | GSync => fun r => off = true -> r = false
    | _ => fun _ => True
    end.
  Definition F (c : cmd) : Prop :=
    match c with SLoad k => R k \/ W k | SStore k _ | SDelete k => W k | PSync _ => off = false | _ => True end.
  Local Notation cq Q p := (obeys E F Q p).
  Local Notation cy p := (obeys E F (fun _ => True) p).
  Lemma c_ft {A} (Q : outcome A -> Prop) (p : api A) :
    obeys (fun (c : cmd) (_ : resp c) => True) (Ff W True (off = false) True) Q p -> cq Q p.
  Proof. intros H. eapply obeys_mono; [exact H|done| |done]. intros c. destruct c; simpl; auto. Qed.
  Lemma c_bind {A B} (Q : outcome B -> Prop) (p : api A) (f : A -> api B) :
    cy p -> (forall e, Q (Exn e)) -> (forall a, cq Q (f a)) -> cq Q (bind p f).
  Proof. intros Hp He Hf. apply obeys_bind. eapply obeys_conseq; [exact Hp|]. intros [a|e] _; auto. Qed.
  Lemma c_bindq {A B} (L : A -> Prop) (Q : outcome B -> Prop) (p : api A) (f : A -> api B) :
    cq (val L) p -> (forall e, Q (Exn e)) -> (forall a, L a -> cq Q (f a)) -> cq Q (bind p f).
  Proof. intros Hp He Hf. apply obeys_bind. eapply obeys_conseq; [exact Hp|]. intros [a|e] H; auto. Qed.
  Lemma c_ret {A B} (Q : outcome B -> Prop) (a : A) (f : A -> api B) : cq Q (f a) -> cq Q (bind (Ret a) f).
  Proof. done. Qed.
  (** reading *)
  Definition read {A} (check : json -> outcome A) (k : string) (m : option A) : Prop :=
    match m with Some a => exists v, d0 !! k = Some v /\ check v = Val a | None => d0 !! k = None end.
  Lemma c_read {A} (check : json -> outcome A) k : R k -> cq (val (read check k)) (load_checked check k).
  Proof.
    intros Hk. split; [by left|]. intros r Hr. destruct r as [v|e]; [|done]. simpl. specialize (Hr Hk v eq_refl). subst v.
    destruct (d0 !! k) as [v|] eqn:Ev; [|exact Ev]. simpl. destruct (check v) as [a|] eqn:Ec; [|done]. exists v. by split.
  Qed.
  Lemma c_load {A} (check : json -> outcome A) k : R k \/ W k -> cy (load_checked check k).
  Proof. intros Hk. split; [done|]. intros r _. destruct r as [[v|]|]; try done. simpl. by destruct (check v). Qed.
  Lemma good_inv {A} (check : json -> outcome A) T v a : good_check check T -> check v = Val a -> T v a.
  Proof. intros H Hc. destruct (H v) as [(a' & H1 & H2)|[_ H2]]; [|congruence]. rewrite Hc in H2. by injection H2 as ->. Qed.

  Lemma c_rest cf j x l ik : complete_account d0 j -> (forall i, account_item j i -> R (item_key i)) -> known d0 j x ->
    holds (is_list is_str) d0 (INamespaces j x) l ->
    cq (val (fun d => dv_jid d = j /\ dv_id d = x)) (dev_info_rest cf j x (pyset l) ik).
  Proof.
    intros Hset HR Hk Hl. destruct (Hset x Hk) as [_ Hact]. unfold dev_info_rest. cbv zeta.
    apply (c_bindq (read (fun v => match v with JDict d => or_type_error (mapM (fun kv => a ← as_bool kv.2; Some (kv.1, a)) d) | _ => Exn ETypeError end) (k_active j x)));
      [apply c_read; by apply (HR (IActive j x))|done|]. intros m Hm.
    destruct m as [active|]; [|done]. apply c_ret. destruct Hm as (v & Hv & Hc). apply (good_inv _ (is_dict is_bool) _ _ good_bools) in Hc.
    apply c_bind; [apply c_load; left; by apply (HR (ILabel j x))|done|]. intros m'. apply c_bind; [by destruct m'|done|]. intros label.
    apply c_bind; [apply c_load; left; by apply (HR (ITrust j ik))|done|]. intros m''.
    assert (forallb (fun ns => dmem ns active) (pyset l) = true) as ->; [|done].
    apply forallb_forall. intros n Hn. apply elem_of_list_In in Hn. unfold pyset in Hn. rewrite elem_of_remove_dups in Hn.
    destruct (Hact n) as (b & m0 & (v0 & Hv0 & Hd0) & Hg); [by exists l|]. change (item_key (IActive j x)) with (k_active j x) in Hv0.
    rewrite Hv in Hv0. injection Hv0 as <-. assert (active = m0) as -> by (eapply is_dict_fun; [apply is_bool_fun|done|done]).
    unfold dmem. apply bool_decide_eq_true. by rewrite Hg.
  Qed.
  Lemma c_dev cf j acc x : complete_account d0 j -> (forall i, account_item j i -> R (item_key i)) -> known d0 j x ->
    cq (val (fun r => exists d, r.1 = acc.1 ++ [d] /\ dv_jid d = j /\ dv_id d = x)) (dev_info cf j acc x).
  Proof.
    intros Hset HR Hk. destruct (Hset x Hk) as [(ik0 & s & Hs & Hik) _]. unfold dev_info. cbv zeta.
    apply (c_bindq (read (fun v => match v with JList l => or_type_error (mapM as_str l) | _ => Exn ETypeError end) (k_ns j x)));
      [apply c_read; by apply (HR (INamespaces j x))|done|]. intros m Hm.
    destruct m as [l|]; [|done]. destruct Hm as (v & Hv & Hc). apply (good_inv _ (is_list is_str) _ _ good_strs) in Hc. apply c_ret.
    eapply c_bindq; [apply (c_read _ (k_ik j x)); by apply (HR (IIdentityKey j x))|done|]. intros m' Hm'.
    destruct m' as [ik|]; [|simpl in Hm'; change (item_key (IIdentityKey j x)) with (k_ik j x) in Hs; congruence].
    eapply c_bindq; [eapply c_rest; try done; by exists v|done|]. intros d [H1 H2]. simpl. by exists d.
  Qed.
  Lemma c_info_ cf j : complete_account d0 j -> (forall i, account_item j i -> R (item_key i)) ->
    cq (val (fun r => Forall (from j) r.1 /\ forall x, known d0 j x -> exists d, d ∈ r.1 /\ dv_id d = x)) (get_device_information_ cf j).
  Proof.
    intros Hset HR. unfold get_device_information_.
    apply (c_bindq (read (fun v => match v with JList l => or_type_error (mapM as_int l) | _ => Exn ETypeError end) (k_list j)));
      [apply c_read; by apply (HR (IDeviceList j))|done|]. intros m Hm.
    split; [done|]. intros code _. apply c_ret.
    set (l := reorder code (pyset (Model.maybe [] m))).
    assert (forall x, x ∈ l -> known d0 j x) as Hl.
    { intros x Hx. unfold l in Hx. rewrite reorder_perm in Hx. unfold pyset in Hx. rewrite elem_of_remove_dups in Hx.
      destruct m as [zs|]; [|by apply elem_of_nil in Hx]. destruct Hm as (v & Hv & Hc). apply (good_inv _ (is_list is_int) _ _ good_ints) in Hc.
      exists zs. split; [by exists v|done]. }
    assert (forall x, known d0 j x -> x ∈ l) as Hl'.
    { intros x (zs & (v & Hv & Hz) & Hx). unfold l. rewrite reorder_perm. unfold pyset. rewrite elem_of_remove_dups.
      change (item_key (IDeviceList j)) with (k_list j) in Hv. destruct m as [zs'|]; [|simpl in Hm; congruence].
      destruct Hm as (v' & Hv' & Hc). rewrite Hv in Hv'. injection Hv' as <-. apply (good_inv _ (is_list is_int) _ _ good_ints) in Hc.
      by assert (zs' = zs) as -> by (eapply is_list_fun; [|done|done]; intros ??? H1 H2; destruct H1; by inversion H2). }
    clearbody l.
    assert (forall l (acc : list device * list bundle), (forall x, x ∈ l -> known d0 j x) -> Forall (from j) acc.1 ->
      cq (val (fun r => Forall (from j) r.1 /\ (forall d, d ∈ acc.1 -> d ∈ r.1) /\ forall x, x ∈ l -> exists d, d ∈ r.1 /\ dv_id d = x)) (fold_prog l (dev_info cf j) acc)) as Hf.
    { clear Hl Hl' l. induction l as [|x l IH]; intros acc Hl Ha; cbn [fold_prog].
      - split; [done|]. split; [done|]. intros x Hx. by apply elem_of_nil in Hx.
      - eapply c_bindq; [apply (c_dev cf j acc x Hset HR); apply Hl; left|done|]. intros acc' (d & Ea & Ej & Ex).
        eapply obeys_conseq; [apply IH|].
        + intros y Hy. apply Hl. by right.
        + rewrite Ea. apply Forall_app. split; [done|]. by repeat constructor.
        + intros [r|e]; [|done]. intros (H1 & H2 & H3). split; [done|]. rewrite Ea in H2. split.
          * intros d' Hd'. apply H2, elem_of_app. by left.
          * intros y [->|Hy]%elem_of_cons; [|by apply H3]. exists d. split; [|done]. apply H2, elem_of_app. right. left. }
    eapply obeys_conseq; [apply (Hf l ([], [])); [done|constructor]|]. intros [r|e]; [|done]. intros (H1 & _ & H3). split; [done|].
    intros x Hx. apply H3. by apply Hl'.
  Qed.

  (** an account that is either read only or ours *)
  Definition acc_ok (j : string) : Prop :=
    (complete_account d0 j /\ forall i, account_item j i -> R (item_key i)) \/ Sacc W j.
  Lemma c_info_any cf j : acc_ok j -> cq (val (fun r => Forall (from j) r.1)) (get_device_information_ cf j).
  Proof.
    intros [[H1 H2]|H]; [|apply c_ft; by apply ft_info_]. eapply obeys_conseq; [by apply c_info_|]. intros [r|e]; [|done]. by intros [].
  Qed.
  Lemma c_info cf j : acc_ok j -> cy (get_device_information cf j).
  Proof. intros H. unfold get_device_information. apply c_bind; [|done|done]. eapply obeys_conseq; [by apply c_info_any|done]. Qed.
  Lemma c_own cf : acc_ok (c_jid cf) -> cy (get_own_device_information cf).
  Proof.
    intros H. unfold get_own_device_information. apply c_bind; [by apply c_info|done|]. intros l. cbv zeta. by destruct (filter _ l).
  Qed.
  Lemma c_map {A B} (l : list A) (f : A -> api B) (L : B -> Prop) : (forall x, x ∈ l -> cq (val L) (f x)) -> cq (val (Forall L)) (map_prog f l).
  Proof. intros H. by apply obeys_map_prog with (L := L). Qed.
  Lemma c_reload (J : string -> Prop) cf d : (forall j, J j -> acc_ok j) -> fromJ J d -> cq (val (fromJ J)) (reload_trust cf d).
  Proof.
    intros H Hd. unfold reload_trust. apply c_bind; [|done|by intros m]. apply c_load.
    destruct (H _ Hd) as [[_ H2]|H2]; [left|right]; by apply (H2 (ITrust (dv_jid d) (dv_ik d))).
  Qed.
  Lemma c_enc_trust (J : string -> Prop) cf mtd ident l :
    (forall j, J j -> acc_ok j) -> (forall ds i, cy (mtd ds i)) -> Forall (fromJ J) l -> cy (enc_trust cf mtd ident l).
  Proof.
    intros H Hm Hl. unfold enc_trust. apply c_bind; [apply c_ft; eapply obeys_conseq; [by apply (ft_devices_with _ _ _ _ J)|done]|done|intros und].
    apply (c_bindq (Forall (fromJ J))).
    - destruct und; [done|]. apply c_bind; [apply Hm|done|intros _]. split; [done|]. intros code _. apply c_ret.
      apply c_map. intros dv Hd. apply c_reload; [exact H|]. rewrite reorder_perm in Hd. by eapply Forall_forall.
    - done.
    - intros l' Hl'. apply c_bind; [apply c_ft; eapply obeys_conseq; [by apply (ft_devices_with _ _ _ _ J)|done]|done|intros und'].
      destruct und'; [|done]. apply c_ft. eapply obeys_conseq; [by apply (ft_devices_with _ _ _ _ J)|done].
  Qed.
  Lemma c_encrypt cf mtd jids pt prio ident :
    (forall j, j ∈ jids \/ j = c_jid cf -> acc_ok j) -> (forall ds i, cy (mtd ds i)) -> cy (encrypt cf mtd jids pt prio ident).
  Proof.
    intros H Hm. pose (J := fun j => j ∈ jids \/ j = c_jid cf). unfold encrypt. cbv zeta.
    apply c_bind; [by split|done|intros av]. apply c_bind; [destruct prio; [|done]; by destruct (set_diff _ _)|done|intros pr].
    split; [done|]. intros code _. apply c_ret.
    apply (c_bindq (Forall (fun r : list device * list bundle => Forall (fromJ J) r.1))); [|done|].
    { apply c_map. intros j Hj. rewrite reorder_perm in Hj.
      assert (J j) as HJ.
      { unfold set_union, set_diff in Hj. rewrite elem_of_app, elem_of_list_filter, elem_of_list_singleton in Hj.
        unfold pyset in Hj. rewrite elem_of_remove_dups in Hj. unfold J. tauto. }
      eapply obeys_conseq; [apply c_info_any; by apply H|]. intros [r|e]; [|done]. simpl. intros Hr.
      eapply Forall_impl; [exact Hr|]. intros d Hd. unfold fromJ. by rewrite Hd. }
    intros tmp Ht.
    assert (Forall (fromJ J) (concat (map fst tmp))) as Hc.
    { apply Forall_concat, Forall_map. exact Ht. }
    apply (c_bindq (Forall (fromJ J))); [|done|].
    { destruct (valid_recipients cf pr _) as [d1|] eqn:E1; [|done]. by eapply recipients_from. }
    intros d1 H1. apply (c_bindq (Forall (fromJ J))); [|done|].
    { destruct (mapM (apply_priority pr) d1) as [d2|] eqn:E2; [|done]. by eapply priority_from. }
    intros d2 H2.
    apply c_bind; [|done|].
    { apply (c_enc_trust J); [exact H|exact Hm|]. apply Forall_forall. intros d [_ Hd]%elem_of_list_filter.
      by eapply Forall_forall. }
    intros ds. apply c_bind; [by split|done|intros bs]. apply c_bind; [apply c_ft, ft_fold; intros; apply ft_enc_backend|done|intros st].
    destruct (no_eligible _ _); [|done]. apply c_bind; [by split|done|intros ss]. apply c_bind; [|done|done].
    apply c_ft, ft_for_each. intros x _. unfold b_store_session. split; [done|]. intros r _. by destruct r.
  Qed.

  Lemma c_sender cf m : complete_account d0 (m_jid m) -> (forall i, account_item (m_jid m) i -> R (item_key i)) ->
    known d0 (m_jid m) (m_dev m) -> cy (dec_sender cf m).
  Proof.
    intros H1 H2 H3. unfold dec_sender.
    apply (c_bindq (fun l => exists d, d ∈ l /\ dv_id d = m_dev m)); [|done|].
    - unfold get_device_information. eapply c_bindq; [by apply c_info_|done|]. intros r [_ Hr]. by apply Hr.
    - intros l (d & Hd & Ed). destruct (filter (fun d => dv_id d = m_dev m) l) eqn:Ef; [|done]. exfalso.
      apply (not_elem_of_nil (A := device) d). rewrite <- Ef. by apply elem_of_list_filter.
  Qed.
  Lemma c_respond cf ns s : (off = false -> Squeue W) -> cy (dec_respond cf ns s).
  Proof.
    intros Hq. destruct off eqn:Eo; [|apply c_ft, ft_dec_respond; auto].
    unfold dec_respond. split; [done|]. intros r Hr. simpl in Hr. rewrite Hr by done. apply c_ret. apply c_ft, ft_send_empty.
  Qed.
  Lemma c_decrypt cf m :
    Sacc W (m_jid m) \/ (complete_account d0 (m_jid m) /\ (forall i, account_item (m_jid m) i -> R (item_key i)) /\ known d0 (m_jid m) (m_dev m)) ->
    (off = false -> Squeue W) -> cy (decrypt cf m).
  Proof.
    intros Ha Hq. unfold decrypt. apply c_bind; [by split|done|intros bs]. case_decide; [|done]. cbv zeta.
    apply c_bind; [by split|done|intros keys]. destruct (filter _ keys) as [|[e mk] l]; [done|].
    apply c_bind; [|done|intros d].
    { destruct Ha as [Ha|(H1 & H2 & H3)]; [apply c_ft; by apply ft_dec_sender|by apply c_sender]. }
    apply c_bind; [split; [done|]; intros r _; by destruct r|done|intros t]. case_decide; [done|].
    apply c_bind; [|done|intros [s p]].
    { destruct mk as [k|].
      - unfold dec_kex. case_decide; [|done]. apply c_bind; [split; [done|]; intros r _; by destruct r|done|intros o].
        apply c_bind; [|done|intros o'].
        + destruct o as [s|]; [|done]. case_decide; [|done]. apply c_bind; [split; [done|]; intros r _; by try destruct r|done|by intros []].
        + destruct o' as [s|]; split; try done; intros r _; by destruct r.
      - unfold dec_existing. apply c_bind; [split; [done|]; intros r _; by destruct r|done|intros o].
        destruct o; [|done]. split; [done|]. intros r _. by destruct r. }
    apply c_bind; [|done|intros o].
    { destruct (ct_empty _); [done|]. apply c_bind; [split; [done|]; intros r _; by destruct r|done|done]. }
    apply c_bind; [split; [done|]; intros r _; by destruct r|done|intros _].
    apply c_bind; [destruct mk; [|done]; apply c_ft, ft_dec_prekeys; done|done|intros _].
    apply c_bind; [destruct (_ || _); [by apply c_respond|done]|done|done].
  Qed.
End careful.
(** ** Pools whose coroutines use different keys *)
Section keys.
  Context (P : world -> forall c, resp c -> Prop) (F : nat -> cmd -> Prop).
  Lemma traced_obeys ps w tr cfg : (forall i p, ps !! i = Some p -> only (F i) p) -> traced_run (with_contract P) (ps, w) tr cfg ->
    forall i c, (i, c) ∈ tr -> F i c.
  Proof.
    intros Ho H. remember (ps, w) as c0 eqn:E. revert ps w E Ho.
    induction H as [cfg|ps0 w0 i0 c0 k0 r0 tr cfg Hi Hr _ IH]; intros ps w E Ho i c Hic; [by apply elem_of_nil in Hic|].
    injection E as -> ->. destruct (Ho _ _ Hi) as [Hc Hk]. apply elem_of_cons in Hic as [[= -> ->]|Hic]; [done|].
    eapply IH; [done| |exact Hic]. intros j q Hq. destruct (decide (j = i0)) as [->|Hn].
    - assert (Some q = Some (k0 r0)) as [= ->]; [|apply Hk]. rewrite <- Hq. apply list_lookup_insert. by eapply lookup_lt_Some.
    - eapply Ho. etrans; [|exact Hq]. symmetry. by apply list_lookup_insert_ne.
  Qed.
End keys.

(** ** Pools that only read the complete accounts *)
Lemma may_change_queue st off c i i' : queue_item i -> queue_item i' -> may_change st off c i -> may_change st off c i'.
Proof.
  intros Hi Hi' H. pose proof (touches_queue c i i' Hi Hi') as Ht.
  destruct c; cbn [may_change] in *; try exact (Ht H); clear Ht.
  - destruct H as [_ H]. by destruct i.
  - destruct H as [_ H]. by destruct i.
  - destruct H as (j & _ & _ & H). by destruct i.
  - destruct H as [[_ H]|[H1 H2]]; [by destruct i|by right].
Qed.
Lemma c_call d0 (st : string -> bool) (off : bool) (R W : string -> Prop) c :
  (forall j, st j = true -> complete_account d0 j) -> (forall j i, st j = true -> account_item j i -> R (item_key i)) ->
  sender_known st d0 c -> (off = true -> ~ sets_sync c) -> (forall i, may_change st off c i -> W (item_key i)) ->
  (forall cf mtd jids pt prio ident, c = KEncrypt cf mtd jids pt prio ident -> forall ds i, obeys (E d0 R off) (F R W off) (fun _ => True) (mtd ds i)) ->
  obeys (E d0 R off) (F R W off) (fun _ => True) (run_call c).
Proof.
  intros Hst HR Hk Ho HW Hm.
  assert ((forall i, touches c i -> W (item_key i)) -> (forall cf mtd jids pt prio ident, c <> KEncrypt cf mtd jids pt prio ident) ->
    obeys (E d0 R off) (F R W off) (fun _ => True) (run_call c)) as Hft.
  { intros Ht Hne. apply c_ft, ft_call; [exact Ht|done| |done|intros ?????? Hc; by destruct (Hne _ _ _ _ _ _ Hc)].
    intros Hs. destruct off; [by destruct (Ho eq_refl)|done]. }
  destruct c; cbn [run_call call_ret may_change sender_known] in *; try (apply Hft; [exact HW|done]); clear Hft.
  - apply c_info. destruct (st jid) eqn:Es; [left; eauto|right]. intros i Hi. apply HW. by split.
  - apply c_own. destruct (st (c_jid cf)) eqn:Es; [left; eauto|right]. intros i Hi. apply HW. by split.
  - apply c_encrypt; [|by eapply Hm]. intros j Hj. destruct (st j) eqn:Es; [left; eauto|right]. intros i Hi. apply HW. eauto.
  - apply c_decrypt.
    + destruct (st (m_jid m)) eqn:Es; [right|left].
      * split; [auto|]. split; [|auto]. intros i Hi. by eapply HR.
      * intros i Hi. apply HW. left. by split.
    + intros Eo i Hi. apply HW. right. by split.
Qed.

Section apps.
  Context (P : world -> forall c, resp c -> Prop) (d0 : gmap string json) (st : string -> bool) (off : bool) (ok : nat -> call -> Prop).
  Hypothesis Hst : forall j, st j = true -> complete_account d0 j.
  Hypothesis Hsend : forall n c, ok n c -> sender_known st d0 c.
  Hypothesis Hoff : off = true -> forall n c, ok n c -> ~ sets_sync c.
  Hypothesis Hkeep : forall n c j i, ok n c -> st j = true -> account_item j i -> ~ may_change st off c i.
  Hypothesis Hdis : forall n m c c' i, n <> m -> ok n c -> ok m c' -> may_change st off c i -> ~ may_change st off c' i.
  Definition Rk (k : string) : Prop := exists j i, st j = true /\ account_item j i /\ item_key i = k.
  Definition Wk (n : nat) (k : string) : Prop := exists c i, ok n c /\ may_change st off c i /\ item_key i = k.
  Lemma R_not_W n k : Wk n k -> ~ Rk k.
  Proof using Hkeep.
    intros (c & i & Hc & Hi & <-) (j & i' & Hj & Hi' & Hk). destruct (item_key_cases _ _ Hk) as [->|[Hq _]]; [by eapply Hkeep|by destruct i'].
  Qed.
  Lemma W_not_W n m k : Wk n k -> Wk m k -> n = m.
  Proof using Hdis.
    intros (c & i & Hc & Hi & <-) (c' & i' & Hc' & Hi' & Hk). destruct (decide (n = m)) as [|Hne]; [done|exfalso].
    destruct (item_key_cases _ _ Hk) as [->|[Hq' Hq]]; [by eapply Hdis|]. eapply Hdis; [exact Hne|exact Hc|exact Hc'|exact Hi|].
    exact (may_change_queue st off c' i' i Hq' Hq Hi').
  Qed.
  Lemma c_code n {A} (p : api A) : appcode (ok n) p -> obeys (E d0 Rk off) (F Rk (Wk n) off) (fun _ => True) p.
  Proof using Hst Hsend Hoff.
    intros H. induction H as [A a|A e|A B p f Hp IHp Hf IHf|A p Hp IHp|c Hc|c Hc Hm IHm]; [done|done| | | |].
    - apply c_bind; [exact IHp|done|exact IHf].
    - apply obeys_try. eapply obeys_conseq; [exact IHp|]. by intros [].
    - split; [by destruct c|done].
    - eapply c_call; [exact Hst|intros j i Hj Hi; by exists j, i|by eapply Hsend|intros Eo; by eapply Hoff| |exact IHm].
      intros i Hi. by exists c, i.
  Qed.
  Lemma apps_traced ps w tr cfg : (forall k, Rk k -> w_disk w !! k = d0 !! k) -> (off = true -> w_sync w = false) ->
    (forall n p, ps !! n = Some p -> obeys (E d0 Rk off) (F Rk (Wk n) off) (fun _ => True) p) ->
    traced_run (with_contract P) (ps, w) tr cfg -> forall n c, (n, c) ∈ tr -> F Rk (Wk n) off c.
  Proof using Hkeep.
    intros Hd Hs Hp H. remember (ps, w) as c0 eqn:Ec. revert ps w Ec Hd Hs Hp.
    induction H as [cfg|ps0 w0 i0 c0 k0 r0 tr cfg Hi Hr _ IH]; intros ps w Ec Hd Hs Hp n c Hin; [by apply elem_of_nil in Hin|].
    injection Ec as -> ->. destruct Hr as [Hr _]. destruct (Hp _ _ Hi) as [Hc Hk].
    apply elem_of_cons in Hin as [[= -> ->]|Hin]; [done|]. eapply IH; [done| | | |exact Hin].
    - intros k HR. rewrite <- (Hd k HR). simpl. destruct c0; try done; simpl in *; destruct r0; try done; simpl.
      + apply lookup_insert_ne. intros ->. by eapply R_not_W.
      + apply lookup_delete_ne. intros ->. by eapply R_not_W.
    - intros Eo. simpl. destruct c0; try (simpl; by auto); simpl in *; try (destruct r0; by auto). by rewrite Eo in Hc.
    - intros j q Hq. destruct (decide (j = i0)) as [->|Hn].
      + assert (Some q = Some (k0 r0)) as [= ->]; [rewrite <- Hq; apply list_lookup_insert; by eapply lookup_lt_Some|]. apply Hk.
        destruct c0; try done; simpl in *.
        * intros HR v ->. simpl in Hr. rewrite Hr. by apply Hd.
        * intros Eo. rewrite Hr. by apply Hs.
      + eapply Hp. etrans; [|exact Hq]. symmetry. by apply list_lookup_insert_ne.
  Qed.
  Lemma apps_race_free (ps : list (api unit)) w : w_disk w = d0 -> (off = true -> w_sync w = false) ->
    (forall n p, ps !! n = Some p -> appcode (ok n) p) -> forall tr cfg, traced_run (with_contract P) (ps, w) tr cfg -> race_free tr.
  Proof using Hst Hsend Hoff Hkeep Hdis.
    intros Hd Hs Hp tr cfg H i j c d k Hic Hjd Hw Hu.
    assert (forall n c, (n, c) ∈ tr -> F Rk (Wk n) off c) as HF.
    { eapply apps_traced; [|exact Hs| |exact H]; [by intros ? _; rewrite Hd|]. intros n p Hn. apply c_code. by apply Hp. }
    assert (Wk i k) as Hi. { apply HF in Hic. destruct c; try done; simpl in *; by injection Hw as ->. }
    assert (Rk k \/ Wk j k) as [Hj|Hj]. { apply HF in Hjd. destruct d; try done; simpl in *; injection Hu as ->; auto. }
    - by destruct (R_not_W _ _ Hi).
    - by eapply W_not_W.
  Qed.
End apps.

(** ** Checking that an account is complete *)
Definition complete_b (d : gmap string json) (j : string) : bool :=
  match d !! k_list j with
  | Some (JList l) =>
      match mapM as_int l with
      | Some zs => forallb (fun x =>
          match d !! k_ik j x with Some (JStr s) => bool_decide (is_Some (b64dec s)) | _ => false end &&
          match d !! k_ns j x with
          | Some (JList l) =>
              match mapM as_str l, d !! k_active j x with
              | Some nss, Some (JDict m) =>
                  match mapM (fun kv => a ← as_bool kv.2; Some (kv.1, a)) m with Some act => forallb (fun n => dmem n act) nss | None => false end
              | _, _ => false
              end
          | _ => false
          end) zs
      | None => false
      end
  | Some _ => false
  | None => true
  end.
Lemma complete_b_sound d j : complete_b d j = true -> complete_account d j.
Proof.
  unfold complete_b. intros H x (zs & (v & Hv & Hz) & Hx). change (item_key (IDeviceList j)) with (k_list j) in Hv. rewrite Hv in H.
  destruct v as [| | | | |l|]; try done. destruct (mapM as_int l) as [zs'|] eqn:El; [|done].
  assert (is_list is_int (JList l) zs') as Hz'.
  { apply (good_inv (fun v => match v with JList l => or_type_error (mapM as_int l) | _ => Exn ETypeError end) _ _ _ good_ints). by rewrite El. }
  assert (zs = zs') as <- by (eapply is_list_fun; [apply is_int_fun|done|done]).
  rewrite forallb_forall in H. specialize (H x (proj1 (elem_of_list_In _ _) Hx)). apply andb_true_iff in H as [H1 H2]. split.
  - destruct (d !! k_ik j x) as [[]|] eqn:Ek; try done. apply bool_decide_eq_true in H1 as [ik Hik]. exists ik. eexists. by split.
  - intros n (nss & (v & Hn & Hl) & Hin). change (item_key (INamespaces j x)) with (k_ns j x) in Hn. rewrite Hn in H2.
    destruct v as [| | | | |l'|]; try done. destruct (mapM as_str l') as [nss'|] eqn:El'; [|done].
    assert (is_list is_str (JList l') nss') as Hl'.
    { apply (good_inv (fun v => match v with JList l => or_type_error (mapM as_str l) | _ => Exn ETypeError end) _ _ _ good_strs). by rewrite El'. }
    assert (nss = nss') as <- by (eapply is_list_fun; [apply is_str_fun|done|done]).
    destruct (d !! k_active j x) as [[| | | | | |m]|] eqn:Ea; try done. destruct (mapM _ m) as [act|] eqn:Em; [|done].
    rewrite forallb_forall in H2. specialize (H2 n (proj1 (elem_of_list_In _ _) Hin)). unfold dmem in H2. apply bool_decide_eq_true in H2 as [b Hb].
    exists b, act. split; [|done]. exists (JDict m). split; [done|].
    apply (good_inv (fun v => match v with JDict d => or_type_error (mapM (fun kv => a ← as_bool kv.2; Some (kv.1, a)) d) | _ => Exn ETypeError end) _ _ _ good_bools).
    by rewrite Em.
Qed.

Lemma calls_pool (P : world -> forall c, resp c -> Prop) (st : string -> bool) (off : bool) (ok : nat -> call -> Prop)
    (ps : list (api unit)) w ps' w' :
  (forall w c r, storage_cmd c -> P w c r) ->
  (forall j, st j = true -> complete_account (r_disk w) j) ->
  (forall n c, ok n c -> sender_known st (r_disk w) c) ->
  (off = true -> w_sync (r_world w) = false /\ forall n c, ok n c -> ~ sets_sync c) ->
  (forall n c j i, ok n c -> st j = true -> account_item j i -> ~ may_change st off c i) ->
  (forall n m c c' i, n <> m -> ok n c -> ok m c' -> may_change st off c i -> ~ may_change st off c' i) ->
  (forall n p, ps !! n = Some p -> appcode (ok n) p) ->
  coherent w -> preach (rsem P) (map lower ps, w) (ps', w') ->
  exists qs, preach (with_contract P) (ps, r_world w) (qs, r_world w') /\
    (forall n, (ps' !! n = Some (Ret tt) -> qs !! n = Some (Ret tt)) /\
               (forall e, ps' !! n = Some (Raise e) -> qs !! n = Some (Raise e))) /\
    (all_done ps' -> coherent w').
Proof.
  intros HP Hst Hk Ho H1 H2 Hp Hc H.
  destruct (race_free_pool P HP ps w ps' w' Hc) as (tr & qs & Htr & Hq & Hd); [|exact H|].
  - eapply (apps_race_free P (r_disk w) st off ok); [done|done|intros Eo; by apply Ho|exact H1|exact H2|done|intros Eo; by apply Ho|exact Hp].
  - exists qs. split; [|done]. by eapply traced_preach.
Qed.
