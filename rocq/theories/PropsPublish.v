(** Theorems C84 and C85: changed pre keys are published. Vocabulary in Publish.v; events are listed newest first. *)
From Verif Require Import Api Spec Alone Env Dec Publish PfAlone PfPublish PropsDevices PropsTrust PropsPurge PropsEncrypt PropsDecrypt PropsRot.
Open Scope prog_scope.
Open Scope string_scope.
Open Scope list_scope.

(** ** C84 *)
(** Any call that returns, whatever other coroutines do in the meantime: after the last time it rotated, generated, hid or
    deleted pre keys of a backend it fetched the bundle of this backend and uploaded it successfully. (The rotation task
    does not return, see C57; create is below. The trust decision of the application passed to encrypt is a parameter.) *)
Theorem C84_published (P : world -> forall c, resp c -> Prop) c a evs :
  returns c -> plain_decision c -> exec (alone P) (run_call c) [] (Val a) evs -> forall ns, settled ns evs.
Proof. exact (call_published P c a evs). Qed.
Print Assumptions C84_published.
Theorem C84_create P fuel a w cf w' : exec base (create P fuel a) w (Val cf) w' ->
  exists evs, w_log w' = evs ++ w_log w /\ forall ns, settled ns evs.
Proof. exact (create_published P fuel a w cf w'). Qed.
Print Assumptions C84_create.

(** A backend whose bundle shows how often its pre keys changed; a rotated signed pre key is new. *)
Definition changed (ns : string) (e : event) : bool :=
  match e with
  | EvRotate n (Val _) | EvGenerate n _ (Val _) | EvHide n _ (Val true) | EvDeletePk n _ (Val true) => bool_decide (n = ns)
  | _ => false
  end.
Definition env_v (w : world) (c : cmd) : resp c :=
  match c return resp c with
  | BGetBundle ns j d => Val (Bundle ns j d "own" (pretty (length (List.filter (changed ns) (w_log w)))))
  | BSpkAge ns => Val (if existsb (fun e => match e with EvRotate n _ => bool_decide (n = ns) | _ => false end) (w_log w) then 0%Z else 9%Z)
  | BNumVisible _ => Val 7%Z
  | c => env w c
  end.
Lemma env_v_allowed w c : w_allowed w c (env_v w c).
Proof. destruct c; try apply env_allowed; done. Qed.
Definition moves (evs : list event) : list string :=
  List.filter (fun s => negb (s =? "")%string) (rev (map (fun e => match e with
    | EvHide ns _ _ => "hide " +:+ ns | EvDeletePk ns _ _ => "delete " +:+ ns | EvGenerate ns n _ => "generate " +:+ pretty n
    | EvRotate ns _ => "rotate " +:+ ns | EvGetBundle ns _ _ (Val b) => "bundle " +:+ b_rest b
    | EvUploadBundle b (Val _) => "upload " +:+ b_rest b | _ => "" end) evs)).
Definition ex_kex_call : call := KDecrypt cf0 (ex_msg 5 ex_hi (Some ex_kex)).
(** a decrypted key exchange: the pre key is deleted, 93 are generated, the bundle is fetched and uploaded *)
Example C84_example :
  returns ex_kex_call /\ plain_decision ex_kex_call /\
  let r := run base env_v (run_call ex_kex_call) ex_w_you in
  (exists a, exec base (run_call ex_kex_call) ex_w_you (Val a) r.2) /\
  moves (w_log r.2) = ["delete n"; "generate 93"; "bundle 2"; "upload 2"].
Proof.
  split; [exact I|]. split; [by intros|]. intros r. split.
  - pose proof (run_exec base env_v (run_call ex_kex_call) ex_w_you env_v_allowed) as H. fold r in H.
    assert (exists a, r.1 = Val a) as [a E] by (vm_compute; eauto). exists a. rewrite <- E. exact H.
  - vm_compute. reflexivity.
Qed.

(** ** C85 *)
(** A call uploads only the bundle it fetched last from some backend, not having changed its pre keys since: at every point
    of any call running by itself. Missing: other coroutines, see below. *)
Theorem C85_current_partial c w w' : plain_decision c -> reach base (run_call c) w w' ->
  exists evs, w_log w' = evs ++ w_log w /\
    traced (fun e before => match e with EvUploadBundle b _ => exists ns, current ns b before | _ => True end) evs.
Proof. exact (current_base c w w'). Qed.
Print Assumptions C85_current_partial.
(** The same for any code made of such calls, one after the other, whether they fail or not. (In the model the rotation
    task raises EOutOfFuel after the given number of rounds.) *)
Theorem C85_sequence_partial A (p : api A) w w' : libcode plain_decision p -> reach base p w w' ->
  exists evs, w_log w' = evs ++ w_log w /\
    traced (fun e before => match e with EvUploadBundle b _ => exists ns, current ns b before | _ => True end) evs.
Proof. exact (fun Hp => current_code p Hp w w'). Qed.
Print Assumptions C85_sequence_partial.
Example C85_sequence_example :
  let p := (try_ (run_call (KRotation cf0 1 8)) ;;; run_call ex_kex_call) in
  libcode plain_decision p /\
  moves (w_log (run base env_v p ex_w_you).2) =
    ["rotate n"; "bundle 1"; "upload 1"; "rotate m"; "bundle 1"; "upload 1"; "delete n"; "generate 93"; "bundle 3"; "upload 3"].
Proof.
  split; [|vm_compute; reflexivity].
  apply app_bind; [apply app_try|intros _]; apply app_call; by intros ??.
Qed.
(** With other coroutines, the same holds of the part of the log that is due to the call itself. *)
Theorem C85_own_partial (P : world -> forall c, resp c -> Prop) c evs :
  not_create c -> plain_decision c -> reach (alone P) (run_call c) [] evs ->
  traced (fun e before => match e with EvUploadBundle b _ => exists ns, current ns b before | _ => True end) evs.
Proof. exact (call_current P c evs). Qed.
Print Assumptions C85_own_partial.
Example C85_example :
  let r := run base env_v (run_call (KRotation cf0 1 8)) ex_w_rot in
  moves (w_log r.2) = ["rotate n"; "bundle 1"; "upload 1"; "rotate m"; "bundle 1"; "upload 1"].
Proof. vm_compute. reflexivity. Qed.

(** get_bundle and _upload_bundle are two awaited calls (sm:682, sm:2214-2221). A decrypt fetches the bundle and is
    suspended; the rotation task replaces the signed pre key and publishes the new bundle; then decrypt publishes the one
    it fetched before. Both have done their work, and the published bundle is the outdated one. *)
Theorem C85_concurrent_refuted : exists cf m period w ps w' old new post mid pre r,
  areach base awaited ([decrypt cf m ;;; Ret tt; rotation cf 1 period], w, None) (ps, w', None) /\
  ps !! 0%nat = Some (Ret tt) /\ old <> new /\
  w_log w' = post ++ EvUploadBundle old (Val tt) :: mid ++ EvGetBundle "n" (c_jid cf) (c_dev cf) (Val new) :: EvRotate "n" r :: pre /\
  EvUploadBundle new (Val tt) ∈ mid /\ EvGetBundle "n" (c_jid cf) (c_dev cf) (Val old) ∈ pre /\
  (forall e, e ∈ post ++ mid -> ~ changes "n" e) /\ (forall b q, EvUploadBundle b q ∉ post).
Proof.
  pose (m := ex_msg 5 ex_hi (Some ex_kex)). pose (A := (replicate 29 0 ++ replicate 60 1 ++ replicate 60 0)%nat).
  pose (ps := [decrypt cf0 m ;;; Ret tt; rotation cf0 1 8]).
  pose (s := run_sched base awaited env_v A (ps, ex_w_you, None)).
  pose proof (run_sched_areach base awaited env_v A (ps, ex_w_you, None) env_v_allowed) as H. fold s in H.
  assert (s = (s.1.1, s.1.2, None)) as E by (vm_compute; reflexivity).
  pose (old := Bundle "n" "me" 1 "own" "2"). pose (new := Bundle "n" "me" 1 "own" "3"). pose (l := w_log s.1.2).
  assert (w_log s.1.2 = take 4 l ++ EvUploadBundle old (Val tt) :: take 6 (drop 5 l) ++
    EvGetBundle "n" "me" 1 (Val new) :: EvRotate "n" (Val tt) :: drop 13 l) as EL by (vm_compute; reflexivity).
  assert (exists d, drop 13 l = d :: EvGetBundle "n" "me" 1 (Val old) :: drop 15 l) as [d E2] by (vm_compute; eauto).
  assert (take 6 (drop 5 l) !! 5%nat = Some (EvUploadBundle new (Val tt))) as E3 by (vm_compute; reflexivity).
  assert (forallb (fun e => negb (changed "n" e)) (take 4 l ++ take 6 (drop 5 l)) = true) as E4 by (vm_compute; reflexivity).
  assert (forallb (fun e => match e with EvUploadBundle _ _ => false | _ => true end) (take 4 l) = true) as E5 by (vm_compute; reflexivity).
  exists cf0, m, 8%Z, ex_w_you, s.1.1, s.1.2, old, new, (take 4 l), (take 6 (drop 5 l)), (drop 13 l), (Val tt).
  split; [rewrite <- E; exact H|]. split; [vm_compute; reflexivity|]. split; [discriminate|]. split; [exact EL|].
  clear H E EL. clearbody l. clear s. split; [by eapply elem_of_list_lookup_2|]. split; [rewrite E2; right; left|]. split.
  - intros e He Hc. rewrite forallb_forall in E4. specialize (E4 e). rewrite <- elem_of_list_In in E4. specialize (E4 He).
    apply negb_true_iff, not_true_iff_false in E4. apply E4. clear E4.
    unfold changes in Hc. destruct e; try (by destruct Hc); repeat match goal with r : outcome _ |- _ => destruct r | b : bool |- _ => destruct b end;
      try (by destruct Hc); by apply bool_decide_eq_true.
  - intros b q Hb. rewrite forallb_forall in E5. specialize (E5 _ (proj1 (elem_of_list_In _ _) Hb)). discriminate E5.
Qed.
Print Assumptions C85_concurrent_refuted.
