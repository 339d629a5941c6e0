(** One coroutine updates the records of an account while others use them, on the storages of lives (C79). *)
From Verif Require Import Share PfLife PfAlive4 PfUpdate PfDevices PfFoot PfShare.
Open Scope prog_scope.
Open Scope list_scope.

Lemma sound_whole me d j : sound me d -> j <> me -> whole j d.
Proof.
  intros HS Hj. split.
  - destruct (J_list me d j HS) as [zs Hz]. unfold stored_ids in Hz. destruct (d !! k_list j) as [v|] eqn:E; [|by left].
    right. exists zs, v. done.
  - intros x Hx. destruct (J_rec me d j x HS Hx) as (l & m & o & H1 & H2 & H3 & H4). exists l, m, o.
    split; [done|]. split; [done|]. split; [done|]. apply H4. by intros [-> _].
Qed.
Lemma life_whole me w0 cf w j : w_disk w0 = ∅ -> life me (Off, w0) (On cf, w) -> j <> me ->
  j <> c_jid cf /\ whole j (w_disk w).
Proof.
  intros H0 HL Hj. apply (life_sound _ _ _ H0) in HL as [Hc [HJ _]]; simpl in *. split; [by rewrite Hc|]. by eapply sound_whole.
Qed.

Lemma share_records me w0 cf w j i (ps : list (api unit)) ps' w' x :
  w_disk w0 = ∅ -> life me (Off, w0) (On cf, w) -> j <> me ->
  (forall p, ps !! i = Some p -> appcode (on cf) p) ->
  (forall n q, n <> i -> ps !! n = Some q -> appcode (fun c => on cf c /\ ~ updates j c) q) ->
  preach base (ps, w) (ps', w') -> known (w_disk w') j x ->
  (exists l, holds (is_list is_str) (w_disk w') (INamespaces j x) l) /\
  (exists m, holds (is_dict is_bool) (w_disk w') (IActive j x) m) /\
  (exists o, labelled (w_disk w') j x o) /\
  (forall n, supports (w_disk w') j x n -> exists b, activity (w_disk w') j x n b).
Proof.
  intros H0 HL Hj Hw Hr H Hx. destruct (life_whole _ _ _ _ _ H0 HL Hj) as [Hc W].
  destruct (pool_whole j i cf ps w ps' w' Hc W) as [_ HC]; [|exact H|].
  { intros n p Hn. unfold roles. destruct (decide (n = i)) as [->|Hne]; [by apply Hw|by eapply Hr]. }
  destruct (HC x Hx) as (l & m & o & H1 & H2 & H3 & H4). split; [by exists l|]. split; [by exists m|]. split; [by exists o|].
  intros n (l' & Hl' & Hn). rewrite (hns_fun _ _ _ _ _ Hl' H1) in Hn. destruct (H4 n Hn) as [b Hb]. exists b, m. done.
Qed.

Lemma share_info me w0 cf w j i (ps : list (api unit)) ps' w' n {A} (p : api A) e :
  w_disk w0 = ∅ -> life me (Off, w0) (On cf, w) -> j <> me ->
  (forall q, n <> i -> ps !! i = Some q -> appcode (on cf) q) ->
  (forall m q, m <> i -> m <> n -> ps !! m = Some q -> appcode (fun c => on cf c /\ ~ updates j c) q) ->
  ps !! n = Some (_ <- try_ p ;; get_device_information cf j ;;; Ret tt) ->
  appcode (fun c => on cf c /\ (n <> i -> ~ updates j c)) p ->
  preach base (ps, w) (ps', w') -> ps' !! n = Some (Raise e) -> e <> ENothing /\ e <> EKeyError.
Proof.
  intros H0 HL Hj Hw Hr Hn Hp H He. destruct (life_whole _ _ _ _ _ H0 HL Hj) as [Hc W].
  refine (pool_info j i cf ps w ps' w' n p e Hc W _ Hn _ H He).
  - intros m q Hm Hq. unfold roles. destruct (decide (m = i)) as [->|Hne]; [apply Hw; auto|by eapply Hr].
  - unfold roles. destruct (decide (n = i)) as [->|Hne]; (eapply code_sub'; [|exact Hp]).
    + by intros c [? _].
    + intros c [? ?]. auto.
Qed.

Lemma share_alone me w0 cf w j i (ps : list (api unit)) p ps' w' :
  w_disk w0 = ∅ -> life me (Off, w0) (On cf, w) -> j <> me ->
  ps !! i = Some p -> code sync_free (fun c => on cf c /\ only_updates j c) p ->
  (forall n q, n <> i -> ps !! n = Some q -> appcode (fun c => on cf c /\ ~ updates j c /\ ~ sets_loaded c) q) ->
  preach base (ps, w) (ps', w') ->
  exists v, reach base p w v /\ (ps' !! i = Some (Ret tt) -> exec base p w (Val tt) v) /\
    (forall e, ps' !! i = Some (Raise e) -> exec base p w (Exn e) v) /\
    forall it, record_item j it -> w_disk w' !! item_key it = w_disk v !! item_key it.
Proof.
  intros H0 HL Hj Hi Hp Ho H. destruct (life_whole _ _ _ _ _ H0 HL Hj) as [Hc W].
  exact (pool_alone j i cf ps p w ps' w' Hc W Hi Hp Ho H).
Qed.
(** One update and its effects (C28). *)
Lemma share_update me w0 cf w j i (ps : list (api unit)) ns dl ps' w' :
  w_disk w0 = ∅ -> life me (Off, w0) (On cf, w) -> j <> me ->
  ps !! i = Some (update_device_list cf ns j dl) ->
  (forall n q, n <> i -> ps !! n = Some q -> appcode (fun c => on cf c /\ ~ updates j c /\ ~ sets_loaded c) q) ->
  preach base (ps, w) (ps', w') -> ps' !! i = Some (Ret tt) ->
  exists v, exec base (update_device_list cf ns j dl) w (Val tt) v /\
    forall it, record_item j it -> w_disk w' !! item_key it = w_disk v !! item_key it.
Proof.
  intros H1 H2 H3 H4 H5 H6 H7.
  destruct (share_alone me w0 cf w j i ps (update_device_list cf ns j dl) ps' w') as (v & _ & He & _ & Hk); auto.
  - by apply (app_call' sync_free _ (KUpdate cf ns j dl)).
  - exists v. auto.
Qed.
Lemma share_kept (j : string) d d' : (forall i, record_item j i -> d' !! item_key i = d !! item_key i) -> forall x n b,
  (known d j x -> known d' j x) /\ (supports d j x n -> supports d' j x n) /\ (activity d j x n b -> activity d' j x n b).
Proof.
  intros H x n b. split; [|split].
  - intros (zs & (v & Hv & Ht) & Hx). exists zs. split; [|done]. exists v. split; [|done]. by rewrite H.
  - intros (zs & (v & Hv & Ht) & Hx). exists zs. split; [|done]. exists v. split; [|done]. by rewrite H.
  - intros (zs & (v & Hv & Ht) & Hx). exists zs. split; [|done]. exists v. split; [|done]. by rewrite H.
Qed.
Lemma share_listed me w0 cf w j i (ps : list (api unit)) ns dl ps' w' :
  w_disk w0 = ∅ -> life me (Off, w0) (On cf, w) -> j <> me ->
  ps !! i = Some (update_device_list cf ns j dl) ->
  (forall n q, n <> i -> ps !! n = Some q -> appcode (fun c => on cf c /\ ~ updates j c /\ ~ sets_loaded c) q) ->
  preach base (ps, w) (ps', w') -> ps' !! i = Some (Ret tt) ->
  (forall x, known (w_disk w) j x -> known (w_disk w') j x) /\
  (forall x l, dget x dl = Some l -> known (w_disk w') j x /\ supports (w_disk w') j x ns /\ activity (w_disk w') j x ns true) /\
  (forall x, known (w_disk w) j x -> dget x dl = None -> supports (w_disk w) j x ns -> activity (w_disk w') j x ns false).
Proof.
  intros H1 H2 H3 H4 H5 H6 H7. destruct (share_update me w0 cf w j i ps ns dl ps' w') as (v & He & Hk); auto.
  pose proof (share_kept j _ _ Hk) as K.
  pose proof (life_sound me w0 (On cf, w) H1 H2) as [Hme _]. simpl in Hme.
  split; [|split].
  - intros x Hx. apply (K x "" true). destruct (dget x dl) as [l|] eqn:E; [by eapply update_listed|].
    destruct (update_missing cf ns j dl w v x He Hx E); [|done]. intros [-> _]. done.
  - intros x l Hx. destruct (update_listed cf ns j dl w v x l He Hx) as (A1 & A2 & A3 & _).
    destruct (K x ns true) as (B1 & B2 & B3). auto.
  - intros x Hx Hn Hs. apply (K x ns false). apply (update_missing cf ns j dl w v x He Hx Hn); [|done]. intros [-> _]. done.
Qed.
