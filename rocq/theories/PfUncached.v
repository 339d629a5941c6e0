(** Coroutines on a storage without cache behave as on the storage interface (C02). *)
From Verif Require Import Uncached Alone PfStorage PfTrust PfAlone PfLoaded.
Open Scope prog_scope.
Open Scope list_scope.

(** [q] is what is left of [p], up to accesses to the disabled cache *)
Fixpoint sim {A} (q : rapi A) (p : api A) : Prop :=
  match q with
  | Ret a => p = Ret a
  | Raise e => p = Raise e
  | Step c f =>
      match c as c return (rresp c -> api A -> Prop) -> Prop with
      | RCacheGet _ => fun s => s None p
      | RCachePut _ _ => fun s => s tt p
      | RLoad k => fun s => exists kk, p = Step (SLoad k) kk /\ forall r, s r (kk r)
      | RStore k v => fun s => exists kk, p = Step (SStore k v) kk /\ forall r, s r (kk r)
      | RDelete k => fun s => exists kk, p = Step (SDelete k) kk /\ forall r, s r (kk r)
      | ROther c => fun s => exists kk, p = Step c kk /\ forall r, s r (kk r)
      end (fun r => sim (f r))
  end.
Lemma sim_lower {A} (p : api A) : sim (lower p) p.
Proof.
  induction p as [a|e|c k IH]; [done|done|].
  destruct c; simpl; (eexists; split; [reflexivity|]); try exact IH; intros [[]|e]; simpl; apply IH.
Qed.

Section uncached.
  Context (P : world -> forall c, resp c -> Prop).
  Hypothesis HP : forall w c r, storage_cmd c -> P w c r.

  Lemma sim_step {A} c (f : rresp c -> rapi A) p w r : sim (Step c f) p -> r_cache w = None -> allowed (rsem P) w c r ->
    r_cache (r_apply w c r) = None /\
    ((sim (f r) p /\ r_world (r_apply w c r) = r_world w) \/
     exists c' k r', p = Step c' k /\ w_allowed (r_world w) c' r' /\ P (r_world w) c' r' /\
       r_world (r_apply w c r) = w_apply (r_world w) c' r' /\ sim (f r) (k r')).
  Proof using HP.
    intros H Hc Ha. destruct c as [k|k v|k|k|k v|c]; simpl in *.
    - split; [done|]. right. destruct H as (kk & -> & H). exists (SLoad k), kk, r. repeat split; auto. by apply HP.
    - split; [done|]. right. destruct H as (kk & -> & H). exists (SStore k v), kk, r. repeat split; auto. by apply HP.
    - split; [done|]. right. destruct H as (kk & -> & H). exists (SDelete k), kk, r. repeat split; auto. by apply HP.
    - split; [done|]. left. rewrite Hc in Ha. simpl in Ha. by subst r.
    - rewrite Hc. split; [done|]. left. by destruct r.
    - split; [done|]. right. destruct H as (kk & -> & H), Ha. exists c, kk, r. repeat split; auto.
  Qed.

  Lemma pool_sim (ps : list (rapi unit)) w cfg (qs : list (api unit)) :
    Forall2 sim ps qs -> r_cache w = None -> preach (rsem P) (ps, w) cfg ->
    r_cache cfg.2 = None /\ exists qs', preach (with_contract P) (qs, r_world w) (qs', r_world cfg.2) /\ Forall2 sim cfg.1 qs'.
  Proof using HP.
    intros Hs Hc H. remember (ps, w) as c0 eqn:E. revert ps w qs E Hs Hc.
    induction H as [cfg|c1 c2 c3 (i & c & k & r & Hi & Ha & E1 & E2) _ IH]; intros ps w qs -> Hs Hc.
    - split; [done|]. exists qs. split; [apply preach_refl|done].
    - simpl in *. destruct (Forall2_lookup_l _ _ _ _ _ Hs Hi) as (p & Hp & Hsim).
      destruct (sim_step c k p w r Hsim Hc Ha) as [Hc' Hm]. destruct c2 as [ps2 w2]. simpl in *. subst ps2 w2.
      destruct Hm as [[Hsim' Hw]|(c' & k' & r' & -> & Ha' & HP' & Hw & Hsim')].
      + destruct (IH _ _ qs eq_refl) as (H1 & qs' & H2 & H3); [|done|].
        * rewrite <- (list_insert_id qs i p Hp). by apply Forall2_insert.
        * split; [done|]. exists qs'. rewrite <- Hw. done.
      + destruct (IH _ _ (<[i := k' r']> qs) eq_refl) as (H1 & qs' & H2 & H3); [by apply Forall2_insert|done|].
        split; [done|]. exists qs'. split; [|done]. eapply preach_step; [|exact H2].
        exists i, c', k', r'. simpl. rewrite Hw. done.
  Qed.

  Lemma uncached_pool (ps : list (api unit)) w ps' w' :
    r_cache w = None -> preach (rsem P) (map lower ps, w) (ps', w') ->
    r_cache w' = None /\ exists qs, preach (with_contract P) (ps, r_world w) (qs, r_world w') /\
      forall n, (ps' !! n = Some (Ret tt) -> qs !! n = Some (Ret tt)) /\
                (forall e, ps' !! n = Some (Raise e) -> qs !! n = Some (Raise e)).
  Proof using HP.
    assert (Forall2 sim (map lower ps) ps) as Hs.
    { clear. induction ps as [|p ps IH]; simpl; constructor; [apply sim_lower|exact IH]. }
    intros Hc H. destruct (pool_sim _ _ _ ps Hs Hc H) as (H1 & qs & H2 & H3).
    split; [done|]. exists qs. split; [done|]. simpl in H3. intros n.
    split; [|intros e]; intros Hn; destruct (Forall2_lookup_l _ _ _ _ _ H3 Hn) as (p & Hp & Hsim); simpl in Hsim; by subst p.
  Qed.

  (** and back *)
  Lemma step_up (ps : list (rapi unit)) i c (k : rresp c -> rapi unit) r w cfg :
    ps !! i = Some (Step c k) -> allowed (rsem P) w c r -> preach (rsem P) (<[i := k r]> ps, r_apply w c r) cfg ->
    preach (rsem P) (ps, w) cfg.
  Proof. intros Hi Ha H. eapply preach_step; [|exact H]. by exists i, c, k, r. Qed.
  Lemma pool_up (ps : list (api unit)) w cfg : preach (with_contract P) (ps, w) cfg ->
    preach (rsem P) (map lower ps, RWorld w None) (map lower cfg.1, RWorld cfg.2 None).
  Proof.
    intros H. remember (ps, w) as c0 eqn:E. revert ps w E.
    induction H as [cfg|c1 [ps2 w2] c3 (i & c & k & r & Hi & [Ha HPa] & E1 & E2) _ IH]; intros ps w ->; [apply preach_refl|].
    simpl in *. subst ps2 w2. specialize (IH _ _ eq_refl).
    assert (map lower ps !! i = Some (lower (Step c k))) as Hl by exact (eq_trans (list_lookup_fmap lower ps i) (f_equal (fmap lower) Hi)).
    assert (forall q : rapi unit, <[i := lower (k r)]> (<[i := q]> (map lower ps)) = map lower (<[i := k r]> ps)) as Hins.
    { intros q. rewrite list_insert_insert. symmetry. apply list_fmap_insert. }
    assert (<[i := lower (k r)]> (map lower ps) = map lower (<[i := k r]> ps)) as Hins0.
    { symmetry. apply list_fmap_insert. }
    assert (i < length (map lower ps))%nat as Hlen by (by eapply lookup_lt_Some).
    destruct c;
      try (match type of HPa with P _ ?c _ =>
             refine (step_up (map lower ps) i (ROther c) (fun r => lower (k r)) r (RWorld w None) _ Hl (conj Ha HPa) _) end;
           refine (eq_ind _ (fun l => preach (rsem P) (l, _) _) IH _ (eq_sym Hins0))).
    - eapply (step_up _ _ (RCacheGet k0) _ None); [exact Hl|done|]. simpl.
      eapply (step_up _ _ (RLoad k0) _ r); [by apply list_lookup_insert|done|]. rewrite list_insert_insert.
      destruct r as [v|e]; simpl.
      + eapply (step_up _ _ (RCachePut k0 v) _ tt); [by apply list_lookup_insert|done|]. simpl.
        refine (eq_ind _ (fun l => preach (rsem P) (l, _) _) IH _ (eq_sym (Hins _))).
      + refine (eq_ind _ (fun l => preach (rsem P) (l, _) _) IH _ (eq_sym Hins0)).
    - eapply (step_up _ _ (RStore k0 v) _ r); [exact Hl|done|]. simpl.
      destruct r as [[]|e]; simpl.
      + eapply (step_up _ _ (RCachePut k0 (Some v)) _ tt); [by apply list_lookup_insert|done|]. simpl.
        refine (eq_ind _ (fun l => preach (rsem P) (l, _) _) IH _ (eq_sym (Hins _))).
      + refine (eq_ind _ (fun l => preach (rsem P) (l, _) _) IH _ (eq_sym Hins0)).
    - eapply (step_up _ _ (RDelete k0) _ r); [exact Hl|done|]. simpl.
      destruct r as [[]|e]; simpl.
      + eapply (step_up _ _ (RCachePut k0 None) _ tt); [by apply list_lookup_insert|done|]. simpl.
        refine (eq_ind _ (fun l => preach (rsem P) (l, _) _) IH _ (eq_sym (Hins _))).
      + refine (eq_ind _ (fun l => preach (rsem P) (l, _) _) IH _ (eq_sym Hins0)).
  Qed.
End uncached.

(** [rbase] and [base] have no contract *)
Lemma preach_any {C R W} (S1 S2 : @sem C R W) ps w cfg :
  (forall w c r, allowed S1 w c r -> allowed S2 w c r) -> (forall w c r, Prog.apply S1 w c r = Prog.apply S2 w c r) ->
  preach S1 (ps, w) cfg -> preach S2 (ps, w) cfg.
Proof.
  intros Ha Hp H. remember (ps, w) as c0 eqn:E. clear E. induction H as [|c1 c2 c3 (i & c & k & r & Hi & Hr & E1 & E2) _ IH]; [constructor|].
  eapply preach_step; [|exact IH]. exists i, c, k, r. rewrite <- Hp. auto.
Qed.
Lemma uncached_base (ps : list (api unit)) w ps' w' :
  r_cache w = None -> preach rbase (map lower ps, w) (ps', w') ->
  r_cache w' = None /\ exists qs, preach base (ps, r_world w) (qs, r_world w') /\
    forall n, (ps' !! n = Some (Ret tt) -> qs !! n = Some (Ret tt)) /\
              (forall e, ps' !! n = Some (Raise e) -> qs !! n = Some (Raise e)).
Proof.
  intros Hc H. destruct (uncached_pool (fun _ _ _ => True) ltac:(done) ps w ps' w' Hc) as (H1 & qs & H2 & H3).
  - eapply preach_any; [| |exact H]; [|done]. intros ? [] ? ?; simpl in *; auto.
  - split; [done|]. exists qs. split; [|done]. eapply preach_any; [| |exact H2]; [|done]. by intros ? ? ? [? _].
Qed.
Lemma uhist_hist ok w w' : r_cache w = None -> uhist ok w w' -> r_cache w' = None /\ hist ok (r_world w) (r_world w').
Proof.
  intros Hc H. induction H as [w|w w1 w2 (ps & [ps1 v] & Hp & Hr & Hd & Hc1) _ IH]; [split; [done|apply rtc_refl]|].
  destruct (IH Hc1) as [H1 H2]. split; [done|]. eapply rtc_l; [|exact H2].
  destruct (uncached_base ps w ps1 v Hc Hr) as (_ & qs & H3 & _). by exists ps, (qs, r_world v).
Qed.
Lemma trust_uncached jid ik lvl cf (ok : call -> Prop) w w1 w2 w3 ds dv :
  r_cache w = None -> exec rbase (lower (set_trust jid ik lvl)) w (Val tt) w1 ->
  (forall c, ok c -> keeps_trust (r_disk w1) jid ik c) -> uhist ok w1 w2 ->
  exec rbase (lower (get_device_information cf jid)) w2 (Val ds) w3 -> dv ∈ ds -> dv_ik dv = ik -> dv_trust dv = lvl.
Proof.
  intros Hc H1 Hok H2 H3.
  assert (r_cache w1 = None) as Hc1.
  { revert H1. unfold set_trust, s_store. simpl. intros (r & _ & H1). destruct r as [[]|e]; simpl in H1.
    - destruct H1 as ([] & _ & _ & ->). simpl. by rewrite Hc.
    - by destruct H1. }
  apply lower_sound in H1 as [H1 _]; [|destruct w; simpl in Hc; subst; apply coherent_nocache].
  destruct (uhist_hist ok w1 w2 Hc1 H2) as [Hc2 HH].
  apply lower_sound in H3 as [H3 _]; [|destruct w2; simpl in Hc2; subst; apply coherent_nocache].
  exact (set_trust_reported jid ik lvl cf ok _ _ _ _ ds dv H1 Hok HH H3).
Qed.

(** ** With the cache, a coroutine still gets answers of some world (C74) *)
Fixpoint csim {A} (q : rapi A) (p : api A) : Prop :=
  match q with
  | Ret a => p = Ret a
  | Raise e => p = Raise e
  | Step c f =>
      match c as c return (rresp c -> api A -> Prop) -> Prop with
      | RCacheGet k => fun s => s None p /\ exists kk, p = Step (SLoad k) kk /\ forall v, s (Some v) (kk (Val v))
      | RCachePut _ _ => fun s => s tt p
      | RLoad k => fun s => exists kk, p = Step (SLoad k) kk /\ forall r, s r (kk r)
      | RStore k v => fun s => exists kk, p = Step (SStore k v) kk /\ forall r, s r (kk r)
      | RDelete k => fun s => exists kk, p = Step (SDelete k) kk /\ forall r, s r (kk r)
      | ROther c => fun s => exists kk, p = Step c kk /\ forall r, s r (kk r)
      end (fun r => csim (f r))
  end.
Lemma csim_lower {A} (p : api A) : csim (lower p) p.
Proof.
  induction p as [a|e|c k IH]; [done|done|].
  destruct c; simpl; try ((eexists; split; [reflexivity|]); try exact IH; intros [[]|e]; simpl; apply IH).
  split; [eexists; split; [reflexivity|]; intros [[]|e]; simpl; apply IH|].
  eexists; split; [reflexivity|]. intros v. apply IH.
Qed.

Lemma csim_step {A} c (f : rresp c -> rapi A) p w r :
  csim (Step c f) p -> psafe base distinct p -> distinct (r_world w) -> r_allowed w c r ->
  distinct (r_world (r_apply w c r)) /\
  ((csim (f r) p /\ r_world (r_apply w c r) = r_world w) \/
   exists c' k r', p = Step c' k /\ answer distinct_backends c' r' /\
     w_log (r_world (r_apply w c r)) = ocons (event_of c' r') (w_log (r_world w)) /\ csim (f r) (k r') /\ psafe base distinct (k r')).
Proof.
  intros H Hp Hd Ha.
  assert (forall c' (k : resp c' -> api A) r', p = Step c' k -> w_allowed (r_world w) c' r' ->
    r_world (r_apply w c r) = w_apply (r_world w) c' r' -> csim (f r) (k r') ->
    distinct (r_world (r_apply w c r)) /\
    exists c' k r', p = Step c' k /\ answer distinct_backends c' r' /\
      w_log (r_world (r_apply w c r)) = ocons (event_of c' r') (w_log (r_world w)) /\ csim (f r) (k r') /\ psafe base distinct (k r')) as Hreal.
  { intros c' k r' -> Hr Hw Hs. simpl in Hp. destruct (Hp _ _ Hd Hr) as [Hd' Hk]. rewrite Hw. split; [done|].
    exists c', k, r'. split; [done|]. split; [|split; [apply w_apply_log|done]]. exists (r_world w). split; [done|].
    destruct c'; try done. simpl in *. by subst. }
  destruct c as [k|k v|k|k|k v|c]; simpl in *.
  - destruct H as (kk & -> & H). destruct (Hreal (SLoad k) kk r) as [? ?]; auto.
  - destruct H as (kk & -> & H). destruct (Hreal (SStore k v) kk r) as [? ?]; auto.
  - destruct H as (kk & -> & H). destruct (Hreal (SDelete k) kk r) as [? ?]; auto.
  - split; [done|]. destruct H as [H0 (kk & -> & H)]. destruct r as [v|]; [|by left]. right.
    set (w0 := World (match v with Some x => {[k := x]} | None => ∅ end) (w_loaded (r_world w)) false []).
    assert (w_allowed w0 (SLoad k) (Val v)) as Ha0.
    { simpl. symmetry. destruct v; [apply lookup_singleton|apply lookup_empty]. }
    exists (SLoad k), kk, (Val v). split; [done|]. split; [by exists w0|]. split; [done|]. split; [apply H|].
    simpl in Hp. exact (proj2 (Hp w0 (Val v) Hd Ha0)).
  - split; [done|]. left. by destruct r.
  - destruct H as (kk & -> & H). destruct (Hreal c kk r) as [? ?]; auto.
Qed.

Lemma cached_covered_gen i (rs : list (rapi unit)) w rs' w' (ps : list (api unit)) p l :
  preach rbase (rs, w) (rs', w') -> Forall2 csim rs ps -> Forall (psafe base distinct) ps -> distinct (r_world w) -> ps !! i = Some p ->
  exists new evs q' p', w_log (r_world w') = new ++ w_log (r_world w) /\ evs `sublist_of` new /\ rs' !! i = Some q' /\ csim q' p' /\
    reach (alone distinct_backends) p l (evs ++ l) /\
    (forall o, exec (alone distinct_backends) p' (evs ++ l) o (evs ++ l) -> exec (alone distinct_backends) p l o (evs ++ l)).
Proof.
  intros H. remember (rs, w) as cfg eqn:E1. remember (rs', w') as cfg' eqn:E2. revert rs w ps p l E1 E2.
  induction H as [cfg|cfg cfg1 cfg' (i0 & c & k & r & Hi & Hr & Ep & Ew) _ IH]; intros rs w ps p l -> E2 Hs Hps Hd Hp.
  - injection E2 as <- <-. destruct (Forall2_lookup_r _ _ _ _ _ Hs Hp) as (q & Hq & Hqp).
    exists [], [], q, p. split; [done|]. split; [constructor|]. split; [done|]. split; [done|]. simpl.
    split; [|done]. destruct p; by left.
  - subst. destruct cfg1 as [rs1 w1]. simpl in *. subst rs1 w1.
    destruct (Forall2_lookup_l _ _ _ _ _ Hs Hi) as (p0 & Hp0 & Hsim).
    destruct (csim_step c k p0 w r Hsim) as [Hd' Hm]; [|done|done|].
    { rewrite Forall_lookup in Hps. by eapply Hps. }
    destruct Hm as [[Hsim' Hw]|(c' & k' & r' & -> & Hans & Hlog & Hsim' & Hsafe)].
    + destruct (IH _ _ ps p l eq_refl eq_refl) as (new & evs & q' & p' & E & Hx); [|done|done|done|].
      * rewrite <- (list_insert_id ps i0 p0 Hp0). by apply Forall2_insert.
      * rewrite Hw in E. by exists new, evs, q', p'.
    + assert (Forall2 csim (<[i0:=k r]> rs) (<[i0:=k' r']> ps)) as Hs' by (by apply Forall2_insert).
      assert (Forall (psafe base distinct) (<[i0:=k' r']> ps)) as Hps' by (by apply Forall_insert).
      destruct (decide (i0 = i)) as [->|Hne].
      * rewrite Hp in Hp0. injection Hp0 as ->.
        destruct (IH _ _ _ (k' r') (ocons (event_of c' r') l) eq_refl eq_refl Hs' Hps' Hd') as (new & evs & q' & p' & E & S & Hq' & Hqp & HR & HX);
          [apply list_lookup_insert; by eapply lookup_lt_Some|].
        exists (new ++ ocons (event_of c' r') []), (evs ++ ocons (event_of c' r') []), q', p'. rewrite Hlog in E.
        split; [rewrite E, <- app_assoc; by destruct (event_of c' r')|]. split; [by apply sublist_app|]. split; [done|]. split; [done|].
        assert (evs ++ ocons (event_of c' r') l = (evs ++ ocons (event_of c' r') []) ++ l) as El
          by (rewrite <- app_assoc; by destruct (event_of c' r')).
        rewrite El in HR, HX. split.
        -- right. exists r'. split; [exact Hans|]. exact HR.
        -- intros o Ho. exists r'. split; [exact Hans|]. apply HX. exact Ho.
      * destruct (IH _ _ _ p l eq_refl eq_refl Hs' Hps' Hd') as (new & evs & q' & p' & E & S & Hq' & Hqp & HR & HX);
          [etrans; [by apply list_lookup_insert_ne|done]|].
        exists (new ++ ocons (event_of c' r') []), evs, q', p'. rewrite Hlog in E.
        split; [rewrite E, <- app_assoc; by destruct (event_of c' r')|]. split; [|done].
        rewrite <- (app_nil_r evs). apply sublist_app; [done|]. apply sublist_nil_l.
Qed.
Lemma cached_covered (ok : call -> Prop) (ps : list (api unit)) i p w ps' w' :
  NoDup (w_loaded (r_world w)) -> Forall (fun p => appcode ok p) ps -> ps !! i = Some p -> preach rbase (map lower ps, w) (ps', w') ->
  exists new evs, w_log (r_world w') = new ++ w_log (r_world w) /\ evs `sublist_of` new /\ reach (alone distinct_backends) p [] evs /\
    (ps' !! i = Some (Ret tt) -> exec (alone distinct_backends) p [] (Val tt) evs) /\
    (forall e, ps' !! i = Some (Raise e) -> exec (alone distinct_backends) p [] (Exn e) evs).
Proof.
  intros Hw Hps Hi H.
  assert (Forall2 csim (map lower ps) ps) as Hs.
  { clear. induction ps as [|p ps IH]; simpl; constructor; [apply csim_lower|exact IH]. }
  assert (Forall (psafe base distinct) ps) as Hd by (eapply Forall_impl; [exact Hps|]; intros q; apply distinct_app).
  destruct (cached_covered_gen i _ _ _ _ ps p [] H Hs Hd Hw Hi) as (new & evs & q' & p' & E & S & Hq' & Hqp & HR & HX).
  rewrite app_nil_r in HR, HX. exists new, evs. split; [done|]. split; [done|]. split; [done|]. split.
  - intros H'. rewrite Hq' in H'. injection H' as ->. simpl in Hqp. subst p'. by apply HX.
  - intros e H'. rewrite Hq' in H'. injection H' as ->. simpl in Hqp. subst p'. by apply HX.
Qed.
