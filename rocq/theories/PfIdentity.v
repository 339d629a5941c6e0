(** Proofs for the identity key pair, backend limits and argument checks of create (C11-C14). *)
From Verif Require Import Api Spec Env PfStrs PfTyped PfFrame PfWp PfHist.
Open Scope prog_scope.
Open Scope list_scope.

(** ** C11 *)
Definition get_upload : api unit := k <- ikp_get ;; n_upload_bundle (Bundle "n" "me" 1 (ikp_bytes k) "").

Fixpoint ones (n : nat) : bytes := match n with O => ""%string | S n' => ("1" +:+ ones n')%string end.
Lemma ones_length n : String.length (ones n) = n.
Proof. induction n; simpl; congruence. Qed.
(** The random generator answers differently once the flag is on disk. *)
Definition env_rand (w : world) (c : cmd) : resp c :=
  match c return resp c with
  | CRandBytes n => if bool_decide (w_disk w !! k_ikp_seed = None) then zeros n else ones n
  | c => env w c
  end.
Lemma env_rand_allowed w c : w_allowed w c (env_rand w c).
Proof. destruct c; try apply env_allowed. simpl. case_bool_decide; [apply zeros_length|apply ones_length]. Qed.

Lemma get_race :
  exists w', areach base awaited ([get_upload; get_upload], empty_world, None) ([Ret tt; Ret tt], w', None) /\
    exists b1 b2, EvUploadBundle b1 (Val tt) ∈ w_log w' /\ EvUploadBundle b2 (Val tt) ∈ w_log w' /\ b_ik b1 <> b_ik b2.
Proof.
  pose proof (run_sched_areach base awaited env_rand [0;1;0;0;0;0;1;1;1;1]%nat
    ([get_upload; get_upload], empty_world, None) env_rand_allowed) as H.
  set (s := run_sched _ _ _ _ _) in H. assert (s = ([Ret tt; Ret tt], s.1.2, None)) as E by (vm_compute; reflexivity).
  exists s.1.2. split; [rewrite <- E; exact H|]. clear H E.
  exists (Bundle "n" "me" 1 (ones 32) ""), (Bundle "n" "me" 1 (zeros 32) "").
  split; [vm_compute; by left|]. split; [vm_compute; right; right; right; by left|]. done.
Qed.

(** With a complete pair on the storage, a get among any application code returns that pair. *)
Global Instance ikp_eq_dec : EqDecision ikp. Proof. solve_decision. Defined.
Definition get_expect (k0 : ikp) : api unit := k <- ikp_get ;; if decide (k = k0) then Ret tt else Raise ERuntime.

Lemma ikpL_has k k0 : ikpL (Lof (has_ikp k0)) k -> k = k0.
Proof.
  intros [(b & s & (d & Hd & H1) & (d' & Hd' & H2) & key & H3 & ->)|[(d & Hd & H1)|(d & Hd & H1)]];
    apply has_ikp_k in Hd as (K1 & s1 & K2 & K3); [|congruence|congruence].
  apply has_ikp_k in Hd' as (L1 & s' & L2 & L3).
  assert (b = ikp_flag k0) as -> by congruence. assert (s' = s) as -> by congruence.
  assert (key = ikp_bytes k0) as -> by congruence. by destruct k0.
Qed.

Lemma ikp_footprint' k0 c : call_wr (Lof (has_ikp k0)) (Wof (has_ikp k0)) (fun _ => True) c.
Proof.
  assert (forall k m, k <> k_ikp_seed -> k <> k_ikp_key -> Wof (has_ikp k0) k m) as HW.
  { intros k m H1 H2 d Hd. destruct m as [v|].
    - split; [rewrite lookup_insert_ne by done; apply Hd|]. rewrite lookup_insert_ne by done. apply Hd.
    - split; [rewrite lookup_delete_ne by done; apply Hd|]. rewrite lookup_delete_ne by done. apply Hd. }
  assert (wr_ikp (Lof (has_ikp k0)) (Wof (has_ikp k0))) as Hi.
  { intros [(d & Hd & H)|(d & Hd & H)]; exfalso; apply has_ikp_k in Hd as (? & s & ? & _); congruence. }
  assert (forall j, wr_dev (Lof (has_ikp k0)) (Wof (has_ikp k0)) j) as Hd by (spl; apply HW; done).
  assert (forall j, wr_info (Lof (has_ikp k0)) (Wof (has_ikp k0)) j) as Hf by (spl; apply HW; done).
  assert (wr_queue (Wof (has_ikp k0)) (fun _ => True)) as Hq by (spl; apply HW; done).
  destruct c; cbn [call_wr]; auto; try (apply HW; done).
  - split; [done|]. split; [by apply Forall_forall|]. split; [done|]. split; [done|].
    spl; apply HW; done.
  - split; [done|]. spl; apply HW; done.
  - spl; apply HW; done.
Qed.

Lemma get_agrees k0 (ok : call -> Prop) ps w i ps' w' :
  has_ikp k0 (w_disk w) -> Forall (fun p => appcode ok p) ps -> ps !! i = Some (get_expect k0) ->
  preach base (ps, w) (ps', w') -> ps' !! i <> Some (Raise ERuntime).
Proof.
  intros Hk Hps Hi H.
  pose proof (inv_step (has_ikp k0) (Lof (has_ikp k0)) (Wof (has_ikp k0)) (Lof_L _) (Wof_S _) (Wof_D _)) as Hstep.
  eapply (psafeq_preach base (fun w => has_ikp k0 (w_disk w)) (fun o => o <> Exn ERuntime)) in H as (p' & Hp' & HQ & _);
    [|exact Hk|exact Hi| |].
  - rewrite Hp'. intros [= ->]. by apply HQ.
  - eapply obeys_psafeq; [exact Hstep|]. unfold get_expect. apply obeys_bind.
    eapply obeys_conseq; [apply f_ikp_exn|].
    + exact (ikp_footprint' k0 KIkpGet).
    + intros [k|e] Hq; [|congruence]. apply ikpL_has in Hq as ->. by rewrite decide_True.
  - eapply Forall_impl; [exact Hps|]. intros p Hp.
    eapply (inv_app (has_ikp k0) _ _ (Lof_L _) (Wof_S _) (Wof_D _) ok); [|exact Hp]. intros c _. apply ikp_footprint'.
Qed.

(** ** C12 *)
Lemma seed_priv (P : prims) k :
  ikp_is_priv k = negb (ikp_is_seed k) /\ ikp_is_priv (ikp_as_priv P k) = true /\
  ikp_as_priv P (ikp_as_priv P k) = ikp_as_priv P k /\
  ((forall s, priv_to_ed25519_pub P (seed_to_priv P s) = seed_to_ed25519_pub P s) ->
   ikp_identity_key P (ikp_as_priv P k) = ikp_identity_key P k).
Proof. destruct k; simpl; repeat split; auto. Qed.

(** ** C13 *)
Lemma limits s m r :
  backend_init s m = Val r <->
  (m = None /\ (0 <= s)%Z /\ r = (s, s)) \/ (m = Some 0%Z /\ s = 0%Z /\ r = (0%Z, 0%Z)).
Proof.
  unfold backend_init. destruct m as [m|]; [destruct (decide (m = 0%Z)) as [->|Hm]|].
  - rewrite bool_decide_eq_true_2 by done. simpl. destruct (Z.eqb_spec s 0) as [->|Hs]; simpl.
    + split; [intros [= <-]; auto|]. by intros [[? _]|(_ & _ & ->)].
    + split; [done|]. intros [[? _]|(_ & ? & _)]; done.
  - rewrite bool_decide_eq_false_2 by congruence. simpl. destruct m; try done; simpl.
    all: split; [done|]; intros [[? _]|(? & _)]; done.
  - simpl. destruct (Z.ltb_spec s 0).
    + split; [done|]. intros [(_ & ? & _)|(? & _)]; [lia|done].
    + split; [intros [= <-]; auto|]. by intros [(_ & _ & ->)|(? & _)].
Qed.
Lemma limits_exn s m e : backend_init s m = Exn e -> e = EValueError.
Proof. unfold backend_init. repeat case_match; congruence. Qed.

(** ** C14 *)
Lemma create_rejects P fuel a : bad_args a -> create P fuel a = Raise EValueError.
Proof.
  intros H. unfold create. destruct (bool_decide _) eqn:E1; simpl; [|done].
  apply bool_decide_eq_true, pyset_length in E1. destruct H as [H|H]; [done|].
  destruct (Z.leb_spec 25 (a_threshold a)), (Z.leb_spec (a_threshold a) 99); simpl; done || lia.
Qed.
Lemma create_bad P fuel a w :
  bad_args a ->
  exec base (create P fuel a) w (Exn EValueError) w /\
  (forall o w', exec base (create P fuel a) w o w' -> o = Exn EValueError /\ w' = w) /\
  (forall w', reach base (create P fuel a) w w' -> w' = w).
Proof. intros ->%(create_rejects P fuel). simpl. naive_solver. Qed.
