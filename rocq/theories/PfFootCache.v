(** Calls that touch different things, on the caching storage. *)
From Verif Require Import Foot StorageImpl PfStorage PfFoot.
Open Scope prog_scope.
Open Scope list_scope.

(** [isolate] of PfFoot.v for any semantics: [mine] and [theirs] are the commands of the coroutine [i] and of the others. *)
Section isolate_any.
  Context {C : Type} {R : C -> Type} {W : Type} (S : @sem C R W) (agree : W -> W -> Prop) (mine theirs : C -> Prop).
  Hypothesis Hall : forall v w c r, agree v w -> mine c -> allowed S w c r -> allowed S v c r.
  Hypothesis Hmine : forall v w c r, agree v w -> mine c -> agree (Prog.apply S v c r) (Prog.apply S w c r).
  Hypothesis Htheirs : forall v w c r, agree v w -> theirs c -> agree v (Prog.apply S w c r).
  Notation En := (fun (c : C) (r : R c) => True).
  Notation stays F p := (obeys En F (fun _ => True) p).

  Lemma isolate_any i cfg cfg' : preach S cfg cfg' -> forall p v,
    cfg.1 !! i = Some p -> stays mine p -> (forall n q, n <> i -> cfg.1 !! n = Some q -> stays theirs q) -> agree v cfg.2 ->
    exists v', reach S p v v' /\
      (forall a, cfg'.1 !! i = Some (Ret a) -> exec S p v (Val a) v') /\
      (forall e, cfg'.1 !! i = Some (Raise e) -> exec S p v (Exn e) v') /\ agree v' cfg'.2.
  Proof using All.
    induction 1 as [cfg|cfg cfg1 cfg2 Hs Hr IH]; intros p v Hi Hp Ho Hv.
    { exists v. split; [by destruct p; left|]. rewrite Hi. split; [by intros a [= ->]|]. split; [by intros a [= ->]|]. done. }
    destruct Hs as (n & c & k & r & Hn & Ha & E1 & E2).
    assert (n < length cfg.1)%nat as Hlt by (by eapply lookup_lt_Some).
    destruct (decide (n = i)) as [->|Hne].
    - rewrite Hn in Hi. injection Hi as <-. destruct Hp as [HF Hk].
      destruct (IH (k r) (Prog.apply S v c r)) as (v' & H1 & H2 & H3 & H4).
      + rewrite E1. by apply list_lookup_insert.
      + by apply Hk.
      + intros m q Hm Hq. apply (Ho m q Hm). rewrite <- Hq, E1. symmetry. by apply list_lookup_insert_ne.
      + rewrite E2. by apply Hmine.
      + assert (allowed S v c r) as Hav by (by eapply Hall).
        exists v'. split; [right; by exists r|]. split; [intros a Hx; exists r; auto|]. split; [intros e Hx; exists r; auto|done].
    - destruct (Ho n _ Hne Hn) as [HF Hk]. apply IH.
      + rewrite <- Hi, E1. by apply list_lookup_insert_ne.
      + done.
      + intros m q Hm Hq. rewrite E1 in Hq. destruct (decide (m = n)) as [->|Hmn].
        * assert (Some q = Some (k r)) as [= ->] by (rewrite <- Hq; by apply list_lookup_insert). by apply Hk.
        * apply (Ho m q Hm). rewrite <- Hq. symmetry. by apply list_lookup_insert_ne.
      + rewrite E2. by apply Htheirs.
  Qed.
End isolate_any.

(** The footprint of the lowered program. *)
Definition rFf (S : string -> Prop) (ld ss rs : Prop) (c : rcmd) : Prop :=
  match c with
  | RLoad k | RStore k _ | RDelete k | RCacheGet k | RCachePut k _ => S k
  | ROther c => Ff S ld ss rs c
  end.
Notation rEn := (fun (c : rcmd) (r : rresp c) => True).
Lemma lower_foot S ld ss rs {A} (p : api A) : obeys (fun c (_ : resp c) => True) (Ff S ld ss rs) (fun _ => True) p ->
  obeys rEn (rFf S ld ss rs) (fun _ => True) (lower p).
Proof.
  induction p as [a|e|c k IH]; intros H; [done|done|]. destruct H as [HF Hk].
  destruct c; try (split; [exact HF|]; intros r _; apply IH; by apply Hk); simpl in HF; cbn [lower]; apply obeys_bind.
  - apply obeys_try. simpl. split; [done|]. intros [v|] _; simpl; [apply IH; by apply Hk|]. split; [done|].
    intros [v|e] _; simpl; [|apply IH; by apply Hk]. split; [done|]. intros _ _. apply IH. by apply Hk.
  - apply obeys_try. simpl. split; [done|].
    intros [[]|e] _; simpl; [|apply IH; by apply Hk]. split; [done|]. intros [] _. apply IH. by apply Hk.
  - apply obeys_try. simpl. split; [done|].
    intros [[]|e] _; simpl; [|apply IH; by apply Hk]. split; [done|]. intros [] _. apply IH. by apply Hk.
Qed.

Section cached.
  Context (S S' : string -> Prop) (ld ss rs ss' : Prop).
  Hypothesis Hdis : forall k, S k -> S' k -> False.
  Hypothesis Hsync : rs -> ss' -> False.
  Definition ragree (v w : rworld) : Prop :=
    agree S rs (r_world v) (r_world w) /\
    match r_cache v, r_cache w with
    | Some c, Some c' => forall k, S k -> c !! k = c' !! k
    | None, None => True
    | _, _ => False
    end.
  Lemma ragree_allowed v w c r : ragree v w -> rFf S ld ss rs c -> r_allowed w c r -> r_allowed v c r.
  Proof using All.
    intros [Ha Hc] HF Hr. destruct c as [k|k x|k|k|k x|c].
    - exact (agree_allowed S ld ss rs _ _ (SLoad k) r Ha HF Hr).
    - exact (agree_allowed S ld ss rs _ _ (SStore k x) r Ha HF Hr).
    - exact (agree_allowed S ld ss rs _ _ (SDelete k) r Ha HF Hr).
    - simpl in *. destruct (r_cache v), (r_cache w); try done. simpl in *. by rewrite Hc.
    - done.
    - exact (agree_allowed S ld ss rs _ _ c r Ha HF Hr).
  Qed.
  Lemma ragree_mine v w c r : ragree v w -> rFf S ld ss rs c -> ragree (r_apply v c r) (r_apply w c r).
  Proof using All.
    intros [Ha Hc] HF. destruct c as [k|k x|k|k|k x|c]; (split; [|try exact Hc]); try exact Ha.
    - exact (agree_mine S ld ss rs _ _ (SStore k x) r Ha HF).
    - exact (agree_mine S ld ss rs _ _ (SDelete k) r Ha HF).
    - simpl. destruct (r_cache v), (r_cache w); try done. simpl. intros k' Hk'.
    destruct (decide (k = k')) as [->|]; [by rewrite !lookup_insert|]. rewrite !lookup_insert_ne by done. auto.
    - exact (agree_mine S ld ss rs _ _ c r Ha HF).
  Qed.
  Lemma ragree_theirs v w c r : ragree v w -> rFf S' False ss' True c -> ragree v (r_apply w c r).
  Proof using All.
    intros [Ha Hc] HF. destruct c as [k|k x|k|k|k x|c]; (split; [|try exact Hc]); try exact Ha.
    - exact (agree_theirs S S' rs ss' Hdis Hsync _ _ (SStore k x) r Ha HF).
    - exact (agree_theirs S S' rs ss' Hdis Hsync _ _ (SDelete k) r Ha HF).
    - simpl. destruct (r_cache v), (r_cache w); try done. simpl. intros k' Hk'.
      rewrite lookup_insert_ne; [auto|]. intros ->. by eapply Hdis.
    - exact (agree_theirs S S' rs ss' Hdis Hsync _ _ c r Ha HF).
  Qed.
End cached.

Lemma lower_lookup (ps : list (api unit)) i p : ps !! i = Some p -> (lower <$> ps) !! i = Some (lower p).
Proof. intros H. by rewrite list_lookup_fmap, H. Qed.

Lemma lower_lookup_inv (ps : list (api unit)) i q : (lower <$> ps) !! i = Some q -> exists p, ps !! i = Some p /\ q = lower p.
Proof. rewrite list_lookup_fmap. destruct (ps !! i) as [p|]; [|done]. intros [= <-]. by exists p. Qed.

Lemma isolated_cached (mine theirs : call -> Prop) (ps : list (api unit)) i p w ps' w' :
  (forall c c', mine c -> theirs c' -> independent c c') -> (forall c, theirs c -> ~ sets_loaded c) ->
  ps !! i = Some p -> code sync_free mine p -> (forall n q, n <> i -> ps !! n = Some q -> appcode theirs q) ->
  coherent w -> preach rbase (lower <$> ps, w) (ps', w') ->
  exists v, (ps' !! i = Some (Ret tt) -> exec base p (r_world w) (Val tt) v) /\
    (forall e, ps' !! i = Some (Raise e) -> exec base p (r_world w) (Exn e) v) /\
    (forall c x, mine c -> touches c x -> r_disk w' !! item_key x = w_disk v !! item_key x).
Proof.
  intros Hin Hnl Hi Hp Ho Hcoh H.
  pose (rs := exists c, mine c /\ reads_sync c). pose (ss' := exists c, theirs c /\ sets_sync c).
  assert (forall k, keys_of mine k -> keys_of theirs k -> False) as Hdis.
  { intros k (c & x & Hc & Hx & <-) (c' & x' & Hc' & Hx' & Hk). destruct (Hin c c' Hc Hc') as [Hd _].
    apply item_key_cases in Hk as [->|[Hq Hq']]; [by eapply Hd|]. eapply (Hd x'); [|done]. by eapply touches_queue. }
  assert (rs -> ss' -> False) as Hsync.
  { intros (c & Hc & Hx) (c' & Hc' & Hx'). destruct (Hin c c' Hc Hc') as (_ & Hs). by apply Hs. }
  destruct (isolate_any rbase (ragree (keys_of mine) rs) (rFf (keys_of mine) True True rs) (rFf (keys_of theirs) False ss' True))
    with (i := i) (cfg := (lower <$> ps, w)) (cfg' := (ps', w')) (p := lower p) (v := w)
    as (v & _ & H2 & H3 & (H4 & _) & _); [| | |exact H| | | | |].
  - intros. by eapply (ragree_allowed (keys_of mine) (keys_of theirs) True True rs ss').
  - intros. by eapply (ragree_mine (keys_of mine) (keys_of theirs) True True rs ss').
  - intros. by eapply (ragree_theirs (keys_of mine) (keys_of theirs) True True rs ss').
  - by apply lower_lookup.
  - apply lower_foot. eapply ft_code; [|intros c Hc|exact Hp].
    + intros c Hc. by destruct c.
    + split; [intros x Hx; by exists c, x|]. split; [done|]. split; [done|]. intros Hr. by exists c.
  - intros n q Hn Hq. apply lower_lookup_inv in Hq as (q' & E & ->).
    apply lower_foot. eapply ft_code; [| |by eapply Ho].
    + intros c Hc. by destruct c.
    + intros c Hc. split; [intros x Hx; by exists c, x|]. split; [|split; [intros Hr; by exists c|done]].
      intros Hl. by apply (Hnl c).
  - split; [by split|]. simpl. destruct (r_cache w); [intros k Hk; reflexivity|exact I].
  - exists (r_world v). split; [intros Hr; apply (lower_sound p w (Val tt) v Hcoh (H2 tt Hr))|].
    split; [intros e Hr; apply (lower_sound p w (Exn e) v Hcoh (H3 e Hr))|].
    intros c x Hc Hx. symmetry. apply H4. by exists c, x.
Qed.
