(** Proofs about typed loads, storage keys and fingerprints. *)
From Verif Require Import Spec StorageImpl Model PfStrs PfStorage.

Open Scope prog_scope.
Open Scope list_scope.

(* ------------------------------------------------------------------------------------------------ *)
(** ** C06 *)
Inductive primitive : forall A, (json -> option A) -> (json -> A -> Prop) -> Prop :=
  | prim_str : primitive string as_str is_str
  | prim_int : primitive Z as_int is_int
  | prim_bool : primitive bool as_bool is_bool
  | prim_float : primitive string as_float is_float
  | prim_none : primitive unit as_null is_none.

Lemma primitive_spec A prim T : primitive A prim T -> forall v a, prim v = Some a <-> T v a.
Proof.
  intros []; intros v a; (split; [intros H|intros []; done]);
    destruct v; simplify_eq/=; try constructor; try done.
  destruct b; constructor.
Qed.

Lemma load_checked_exec {A} (check : json -> outcome A) k w o w' :
  exec base (load_checked check k) w o w' ->
  w' = w /\
  ((exists e, ext_exn e = true /\ o = Exn e) \/
   match w_disk w !! k with
   | None => o = Val None
   | Some v => o = match check v with Val a => Val (Some a) | Exn e => Exn e end
   end).
Proof.
  intros (r & Hr & H). simpl in Hr, H. destruct r as [m|e]; simpl in H.
  - subst m. destruct (w_disk w !! k) as [v|] eqn:E.
    + destruct (check v); simpl in H; destruct H as [-> ->]; auto.
    + simpl in H. destruct H as [-> ->]. auto.
  - destruct H as [-> ->]. split; [done|]. left. eauto.
Qed.

(** If the storage does not fail the load can complete. *)
Lemma load_checked_ok {A} (check : json -> outcome A) k w :
  exec base (load_checked check k) w
    match w_disk w !! k with
    | None => Val None
    | Some v => match check v with Val a => Val (Some a) | Exn e => Exn e end
    end w.
Proof.
  exists (Val (w_disk w !! k)). split; [done|]. simpl.
  destruct (w_disk w !! k) as [v|]; [|done]. by destruct (check v).
Qed.

Lemma mapM_Forall2 {A B} (f : A -> option B) (T : A -> B -> Prop) l la :
  (forall v a, f v = Some a <-> T v a) -> mapM f l = Some la <-> Forall2 T l la.
Proof.
  intros Hf. rewrite mapM_Some. split; intros H; eapply Forall2_impl; eauto; intros; by apply Hf.
Qed.

(** The four typed loads share this shape. *)
Definition good_check {A} (check : json -> outcome A) (T : json -> A -> Prop) : Prop :=
  forall v, (exists a, T v a /\ check v = Val a) \/ ((forall a, ~ T v a) /\ check v = Exn ETypeError).

Lemma typed_load {A} (check : json -> outcome A) T k w :
  good_check check T ->
  (forall o w', exec base (load_checked check k) w o w' ->
     w' = w /\ ((exists e, ext_exn e = true /\ o = Exn e) \/ typed_result T (w_disk w !! k) o)) /\
  (exists o, exec base (load_checked check k) w o w /\ typed_result T (w_disk w !! k) o).
Proof.
  intros Hg.
  assert (forall v, typed_result T (Some v) match check v with Val a => Val (Some a) | Exn e => Exn e end) as Ht.
  { intros v. simpl. destruct (Hg v) as [(a & Ha & ->)|[Hn ->]]; eauto. }
  split.
  - intros o w' H. apply load_checked_exec in H as [-> [H|H]]; [by auto|]. split; [done|]. right.
    destruct (w_disk w !! k) as [v|]; [|done]. subst o. apply Ht.
  - eexists. split; [apply load_checked_ok|]. destruct (w_disk w !! k) as [v|]; [|done]. apply Ht.
Qed.

Lemma check_primitive A prim T :
  primitive A prim T -> good_check (fun v => or_type_error (prim v)) T.
Proof.
  intros Hp v. pose proof (primitive_spec _ _ _ Hp v) as Hs. destruct (prim v) as [a|]; simpl.
  - left. exists a. split; [|done]. by apply Hs.
  - right. split; [|done]. intros a Ha. apply Hs in Ha. done.
Qed.

Lemma check_optional A prim T :
  primitive A prim T ->
  good_check (fun v => match v with
                       | JNull => Val None
                       | _ => match prim v with Some a => Val (Some a) | None => Exn ETypeError end
                       end) (is_opt T).
Proof.
  intros Hp v. pose proof (primitive_spec _ _ _ Hp v) as Hs.
  assert (v = JNull \/ v <> JNull) as [->|Hn] by (destruct v; auto; right; discriminate).
  { left. exists None. split; [constructor|done]. }
  assert (forall r, match v with JNull => Val None | _ => r end = (r : outcome (option A))) as ->
      by (intros r; by destruct v).
  destruct (prim v) as [a|].
  - left. exists (Some a). split; [|done]. constructor; [done|]. by apply Hs.
  - right. split; [|done]. intros a Ha. inversion Ha; subst; [done|].
    match goal with H : T v _ |- _ => apply Hs in H; done end.
Qed.

Lemma check_list A prim T :
  primitive A prim T ->
  good_check (fun v => match v with JList l => or_type_error (mapM prim l) | _ => Exn ETypeError end) (is_list T).
Proof.
  intros Hp v. pose proof (primitive_spec _ _ _ Hp) as Hs.
  destruct v; try (right; split; [intros a Ha; inversion Ha|done]).
  destruct (mapM prim l) as [la|] eqn:E; simpl.
  - left. exists la. split; [|done]. constructor. eapply mapM_Forall2; eauto.
  - right. split; [|done]. intros la Ha. inversion Ha; subst.
    match goal with H : Forall2 T l la |- _ => eapply mapM_Forall2 in H; [|exact Hs] end. congruence.
Qed.

Lemma check_dict A prim T :
  primitive A prim T ->
  good_check (fun v => match v with
                       | JDict d => or_type_error (mapM (fun kv => a ← prim kv.2; Some (kv.1, a)) d)
                       | _ => Exn ETypeError
                       end) (is_dict T).
Proof.
  intros Hp v. pose proof (primitive_spec _ _ _ Hp) as Hs.
  assert (forall (kv : string * json) (ka : string * A),
     (a ← prim kv.2; Some (kv.1, a)) = Some ka <-> kv.1 = ka.1 /\ T kv.2 ka.2) as Hs'.
  { intros [k j] [k' a]. simpl. rewrite <- Hs. destruct (prim j); simpl; naive_solver. }
  destruct v; try (right; split; [intros a Ha; inversion Ha|done]).
  destruct (mapM _ d) as [la|] eqn:E; simpl.
  - left. exists la. split; [|done]. constructor.
    by apply (mapM_Forall2 _ _ d la Hs').
  - right. split; [|done]. intros la Ha. inversion Ha; subst.
    match goal with H : Forall2 _ d la |- _ => eapply (mapM_Forall2 _ _ d la Hs') in H end. congruence.
Qed.

(** ** C05 *)
Lemma load_bytes_exec k w o w' :
  exec base (load_bytes k) w o w' ->
  w' = w /\
  ((exists e, ext_exn e = true /\ o = Exn e) \/
   match w_disk w !! k with
   | None => o = Val None
   | Some (JStr s) => o = match b64dec s with Some b => Val (Some b) | None => Exn EBinascii end
   | Some _ => o = Exn ETypeError
   end).
Proof.
  intros H. apply load_checked_exec in H as [-> [H|H]]; [by auto|]. split; [done|]. right.
  destruct (w_disk w !! k) as [[]|]; try done. by destruct (b64dec s).
Qed.

Lemma s_store_exec k v w o w' :
  exec base (s_store k v) w o w' ->
  (exists e, o = Exn e /\ ext_exn e = true /\ w_disk w' = w_disk w) \/
  (o = Val tt /\ w_disk w' = <[k := v]> (w_disk w)).
Proof.
  intros (r & Hr & H). destruct r as [[]|e]; simpl in H; destruct H as [-> ->]; simpl in *; eauto.
Qed.

Lemma bytes_roundtrip (b : bytes) k w o w' :
  exec base (store_bytes k b ;;; load_bytes k) w o w' ->
  o = Val (Some b) \/ exists e, ext_exn e = true /\ o = Exn e.
Proof.
  intros H. apply exec_bind in H as [([] & w1 & H1 & H2)|(e & H1 & ->)].
  - apply s_store_exec in H1 as [(e & ? & _)|[_ Hd]]; [done|].
    apply load_bytes_exec in H2 as [_ [(e & He & ->)|H2]]; [eauto|].
    rewrite Hd, lookup_insert, b64_roundtrip in H2. auto.
  - apply s_store_exec in H1 as [(e' & [= ->] & He & _)|[? _]]; [eauto|done].
Qed.

(* ------------------------------------------------------------------------------------------------ *)
(** ** C07 *)
Lemma item_key_model :
  k_ikp_seed = item_key IKeyPairIsSeed /\ k_ikp_key = item_key IKeyPairKey /\ k_own = item_key IOwnDeviceId /\
  (forall j, k_list j = item_key (IDeviceList j)) /\
  (forall j d, k_ns j d = item_key (INamespaces j d)) /\
  (forall j d, k_active j d = item_key (IActive j d)) /\
  (forall j d, k_label j d = item_key (ILabel j d)) /\
  (forall j d, k_ik j d = item_key (IIdentityKey j d)) /\
  (forall j ik, k_trust j ik = item_key (ITrust j ik)) /\
  (forall ns, k_queue ns = item_key (IQueue ns)) /\
  (forall ns j, k_queue_jid ns j = item_key (IQueueDevices ns j)).
Proof. repeat split; intros; reflexivity. Qed.

Ltac noslash := by (repeat split; vm_compute).

Lemma item_key_inj nss i j :
  ns_separated nss -> item_in nss i -> item_in nss j -> item_key i = item_key j -> i = j.
Proof.
  intros Hsep Hi Hj.
  destruct item_key_model as (E1 & E2 & E3 & E4 & E5 & E6 & E7 & E8 & E9 & E10 & E11).
  assert (forall ns jid, ns ∈ nss -> forall ns', ns' ∈ nss -> k_queue ns <> k_queue_jid ns' jid) as Hqq.
  { intros ns jid H1 ns' H2 H. apply app_inj_l in H. eapply Hsep; [exact H2|exact H1|exact H]. }
  destruct i, j; try done; cbn [item_in] in *;
    rewrite <- ?E4, <- ?E5, <- ?E6, <- ?E7, <- ?E8, <- ?E9, <- ?E10, <- ?E11; intros H;
    try (exfalso; simpl in H; discriminate H);
    try (exfalso; eapply (k_dev_list _ _ _ _); [| |exact H]; [noslash|discriminate]);
    try (exfalso; symmetry in H; eapply (k_dev_list _ _ _ _); [| |exact H]; [noslash|discriminate]);
    try (apply k_dev_inj in H as (-> & -> & Hf); [first [done|discriminate Hf]|noslash..]).
  - by apply k_list_inj in H as ->.
  - by apply k_trust_inj in H as [-> ->].
  - by apply k_queue_inj in H as ->.
  - exfalso. eapply Hqq; [exact Hi|exact Hj|exact H].
  - exfalso. symmetry in H. eapply Hqq; [exact Hj|exact Hi|exact H].
  - apply app_inj_l in H. apply slash_prefix in H as [[-> ->]|[[x Hx]|[x Hx]]]; [done|..].
    + exfalso. eapply (Hsep ns ns0); eauto.
    + exfalso. eapply (Hsep ns0 ns); eauto.
Qed.

(* ------------------------------------------------------------------------------------------------ *)
(** ** C68 *)
Lemma fingerprint_concat P ik :
  sconcat (format_identity_key P ik) = hex (ed25519_pub_to_curve25519_pub P ik).
Proof. apply groups_concat. lia. Qed.

Lemma fingerprint_groups P ik :
  String.length (ed25519_pub_to_curve25519_pub P ik) = 32%nat ->
  length (format_identity_key P ik) = 8%nat /\
  Forall (fun g => String.length g = 8%nat) (format_identity_key P ik).
Proof. intros H. apply groups_full; [lia|]. rewrite hex_length, H. lia. Qed.

Lemma fingerprint_inj P P' ik ik' :
  format_identity_key P ik = format_identity_key P' ik' ->
  ed25519_pub_to_curve25519_pub P ik = ed25519_pub_to_curve25519_pub P' ik'.
Proof. intros H. apply hex_inj. by rewrite <- !fingerprint_concat, H. Qed.
Lemma hex_digit_for n : (n < 16)%N -> digit_for n (hex_digit n).
Proof.
  intros H. assert (exists i, (i < 16)%nat /\ n = N.of_nat i) as (i & Hi & ->) by (exists (N.to_nat n); lia).
  do 16 (destruct i as [|i]; [vm_compute; reflexivity|]). lia.
Qed.
Lemma hex_spells s : spells (hex s) s.
Proof.
  induction s as [|a s IH]; simpl; [constructor|]. pose proof (N_of_ascii_lt a).
  constructor; [apply hex_digit_for; lia..|done].
Qed.
Lemma fingerprint_spells P ik : spells (sconcat (format_identity_key P ik)) (ed25519_pub_to_curve25519_pub P ik).
Proof. rewrite fingerprint_concat. apply hex_spells. Qed.

(** ** reorder is a permutation *)
Lemma pick_perm {A} n (x : A) l : let '(z, r) := pick n x l in z :: r ≡ₚ x :: l.
Proof.
  revert x l. induction n as [|n IH]; intros x l; simpl; [done|]. destruct l as [|y l]; [done|].
  specialize (IH y l). destruct (pick n y l) as [z r]. rewrite <- IH. constructor.
Qed.
Lemma permute_perm {A} fuel code (l : list A) : (length l <= fuel)%nat -> permute fuel code l ≡ₚ l.
Proof.
  revert code l. induction fuel as [|fuel IH]; intros code l Hl; [by destruct l; simpl in *; [|lia]|].
  destruct l as [|x l]; [done|]. cbn [permute].
  destruct (match code with [] => (0%nat, []) | n :: code' => (n, code') end) as [n code'].
  pose proof (pick_perm n x l) as Hp. destruct (pick n x l) as [z r]. rewrite <- Hp.
  constructor. apply IH. apply Permutation_length in Hp. simpl in *. lia.
Qed.
Lemma reorder_perm {A} code (l : list A) : reorder code l ≡ₚ l.
Proof. by apply permute_perm. Qed.


Lemma is_int_fun v a b : is_int v a -> is_int v b -> a = b.
Proof. destruct 1; by inversion 1. Qed.
Lemma Forall2_fun {A B} (T : A -> B -> Prop) l a b :
  (forall v x y, T v x -> T v y -> x = y) -> Forall2 T l a -> Forall2 T l b -> a = b.
Proof.
  intros HT Ha. revert b. induction Ha; intros b; inversion 1; subst; [done|]. f_equal; eauto.
Qed.
Lemma is_list_fun {A} (T : json -> A -> Prop) v a b :
  (forall v x y, T v x -> T v y -> x = y) -> is_list T v a -> is_list T v b -> a = b.
Proof. intros HT. destruct 1. inversion 1; subst. by eapply Forall2_fun. Qed.
