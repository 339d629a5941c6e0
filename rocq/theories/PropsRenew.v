(** Theorem C100: an account starts over once it is purged. *)
From Verif Require Import Api Spec Alone Env Renew PfStrs PfHist PfRenew PropsDevices PropsTrust PropsEncrypt PropsIdentity PropsOrigin.
Open Scope prog_scope.
Open Scope string_scope.
Open Scope list_scope.

(** ** C100 *)
(** In every interleaving of code using the library after purge_bare_jid, with all failures, and at every moment: identity keys
    recorded for the account are from bundles downloaded since, its devices with their namespaces, activity and labels are from
    device lists downloaded or given since. Trust levels stored for it were set since, or were there before for keys that no
    listed device had. *)
Theorem C100_stored (X : inputs) j und (ps : list (api unit)) w w1 ps' w2 :
  (forall cf, in_cfg X cf -> c_jid cf <> j /\ c_undecided cf = und) ->
  tidy (w_disk w) j -> exec base (purge_bare_jid j) w (Val tt) w1 ->
  Forall (fun p => appcode (uses X) p) ps -> preach (with_contract anything) (ps, w1) (ps', w2) ->
  exists since, w_log w2 = since ++ w_log w1 /\ renewed X j (w_disk w) since (w_disk w2).
Proof. exact (renew_stored X j und ps w w1 ps' w2). Qed.
Print Assumptions C100_stored.
(** What the library says about devices of the account when it has them judged: nothing of it is from before; they are
    undecided unless a level was set since (or was there before for a key that no listed device had). *)
Theorem C100_judged (X : inputs) j und (ps : list (api unit)) w w1 ps' w2 :
  (forall cf, in_cfg X cf -> c_jid cf <> j /\ c_undecided cf = und) ->
  tidy (w_disk w) j -> exec base (purge_bare_jid j) w (Val tt) w1 ->
  Forall (fun p => code unjudging (uses X) p) ps -> preach (with_contract anything) (ps, w1) (ps', w2) ->
  exists since, w_log w2 = since ++ w_log w1 /\
    forall post d r pre, since = post ++ EvEval d r :: pre -> dv_jid d = j -> new_device X j (w_disk w) pre und d.
Proof. exact (renew_judged X j und ps w w1 ps' w2). Qed.
Print Assumptions C100_judged.

(** Device 5 of "you" is listed with a label, its key recorded and trusted. Then the account is purged, and the device listed
    again without a label: it is looked at as a new, undecided device. *)
Definition ex_ren_w : world := World (w_disk (run base env
  (update_device_list cf0 "n" "you" [(5%Z, Some "pad")] ;;; get_device_information cf0 "you" ;;; set_trust "you" "ik:you" "TRUSTED") w0).2) ["n"] false [].
Definition ex_ren_purged := run base env (purge_bare_jid "you") ex_ren_w.
Definition ex_ren : list (api unit) :=
  [update_device_list cf0 "n" "you" [(5%Z, None)] ;;; try_ (encrypt cf0 ignore ["you"] ex_pt None None) ;;; Ret tt;
   get_device_information cf0 "you" ;;; Ret tt].
Definition ex_ren_end := run_sched (with_contract anything) awaited env (concat (replicate 80 [0; 1])%nat) (ex_ren, ex_ren_purged.2, None).
Definition ex_ren_inputs : inputs :=
  Inputs (eq cf0) (fun _ => False) (fun ns j dl => ns = "n" /\ j = "you" /\ dl = [(5%Z, None)]) (fun _ _ _ => False).
Definition ex_ren_items : list item :=
  [IDeviceList "you"; ILabel "you" 5; INamespaces "you" 5; IActive "you" 5; IIdentityKey "you" 5; ITrust "you" "ik:you"].
Lemma ex_ren_tidy : tidy (w_disk ex_ren_w) "you" /\ known (w_disk ex_ren_w) "you" 5.
Proof.
  assert (known (w_disk ex_ren_w) "you" 5) as Hk.
  { exists [5%Z]. split; [|left]. exists (JList [JInt 5]). split; [vm_compute; reflexivity|repeat constructor]. }
  split; [|exact Hk]. intros x i Hi Hv. destruct (w_disk ex_ren_w !! item_key i) as [v|] eqn:E; [|contradiction]. clear Hv.
  apply elem_of_map_to_list in E.
  assert (map fst (map_to_list (w_disk ex_ren_w)) = map item_key ex_ren_items) as Hm by (vm_compute; reflexivity).
  assert (item_key i ∈ map item_key ex_ren_items) as Hin.
  { rewrite <- Hm. apply elem_of_list_In. apply elem_of_list_In in E. exact (in_map fst _ _ E). }
  apply elem_of_list_In in Hin. apply in_map_iff in Hin. destruct Hin as (i0 & Ek & Hin).
  assert (core i) as Hc by (destruct Hi as [->|[->|[->| ->]]]; done).
  assert (i = i0) as <- by (apply core_inj; [exact Hc|symmetry; exact Ek]).
  assert (x = 5%Z) as ->; [|exact Hk].
  destruct Hi as [->|[->|[->| ->]]]; simpl in Hin; repeat (destruct Hin as [Hin|Hin]; [try discriminate Hin; injection Hin as <-; reflexivity|]); contradiction.
Qed.
Definition judged_as (e : event) : option (string * Z * bytes * string * option string) :=
  match e with EvEval d _ => Some (dv_jid d, dv_id d, dv_ik d, dv_trust d, dv_label d) | _ => None end.
Example C100_example :
  (forall cf, in_cfg ex_ren_inputs cf -> c_jid cf <> "you" /\ c_undecided cf = "U") /\
  tidy (w_disk ex_ren_w) "you" /\ exec base (purge_bare_jid "you") ex_ren_w (Val tt) ex_ren_purged.2 /\
  (forall ext, Forall (fun p => code ext (uses ex_ren_inputs) p) ex_ren) /\
  preach (with_contract anything) (ex_ren, ex_ren_purged.2) ex_ren_end.1 /\ ex_ren_end.1.1 = [Ret tt; Ret tt] /\
  labelled (w_disk ex_ren_w) "you" 5 (Some "pad") /\ keyed (w_disk ex_ren_w) "you" 5 "ik:you" /\ trusted_as (w_disk ex_ren_w) "you" "ik:you" "TRUSTED" /\
  labelled (w_disk ex_ren_end.1.2) "you" 5 None /\ keyed (w_disk ex_ren_end.1.2) "you" 5 "ik:you" /\
  omap judged_as (w_log ex_ren_end.1.2) = replicate 3 ("you", 5%Z, "ik:you", "U", None).
Proof.
  split; [intros cf <-; split; [discriminate|reflexivity]|]. split; [apply ex_ren_tidy|]. split.
  { assert (ex_ren_purged.1 = Val tt) as E by (vm_compute; reflexivity). unfold ex_ren_purged in *. revert E. generalize ex_ren_w. intros w E.
    rewrite <- E. apply run_exec, env_allowed. }
  split.
  { intros ext. assert (in_cfg ex_ren_inputs cf0) as Hc by reflexivity. apply Forall_cons_2; [|apply Forall_singleton].
    - apply app_bind; [apply (app_call _ _ (KUpdate cf0 "n" "you" _)); [split; [exact Hc|repeat split]|discriminate]|intros _].
      apply app_bind; [apply app_try, (app_call _ _ (KEncrypt cf0 ignore ["you"] ex_pt None None)); [exact Hc|]|intros; constructor].
      intros ? ? ? ? ? ? [= <- <- <- <- <- <-]. intros. constructor.
    - apply app_bind; [apply (app_call _ _ (KGetInfo cf0 "you")); [exact Hc|discriminate]|intros; constructor]. }
  split.
  { unfold ex_ren_end. generalize (concat (replicate 80 [0; 1])%nat). generalize ex_ren_purged.2. intros w t.
    exact (areach_preach _ _ _ _ (run_sched_areach (with_contract anything) awaited env t (ex_ren, w, None) any_allowed)). }
  split; [vm_compute; reflexivity|]. split; [exists (JStr "pad"); split; [vm_compute; reflexivity|constructor; [discriminate|constructor]]|].
  split; [eexists; split; vm_compute; reflexivity|]. split; [vm_compute; reflexivity|].
  split; [exists JNull; split; [vm_compute; reflexivity|constructor]|].
  split; [eexists; split; vm_compute; reflexivity|]. vm_compute; reflexivity.
Qed.
(** Without [tidy]: a record that an interrupted update left for a device not listed outlives the purge. *)
Definition ex_untidy : world := World (run_crash base env 6 (update_device_list cf0 "n" "you" [(5%Z, Some "pad")]) w0).(w_disk) ["n"] false [].
Example C100_tidy_needed :
  exec base (purge_bare_jid "you") ex_untidy (Val tt) (run base env (purge_bare_jid "you") ex_untidy).2 /\
  labelled (w_disk (run base env (purge_bare_jid "you") ex_untidy).2) "you" 5 (Some "pad") /\ ~ tidy (w_disk ex_untidy) "you".
Proof.
  split; [|split].
  - assert ((run base env (purge_bare_jid "you") ex_untidy).1 = Val tt) as E by (vm_compute; reflexivity). revert E. generalize ex_untidy. intros w E.
    rewrite <- E. apply run_exec, env_allowed.
  - exists (JStr "pad"). split; [vm_compute; reflexivity|constructor; [discriminate|constructor]].
  - intros H. destruct (H 5%Z (ILabel "you" 5)) as (zs & (v & Hv & _) & _); [auto|vm_compute; discriminate|]. vm_compute in Hv. discriminate Hv.
Qed.
