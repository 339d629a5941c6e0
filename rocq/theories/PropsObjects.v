(** Theorem C105: device lists as objects. *)
From Verif Require Import Objects Life Env PfObjects PfObjects2 PropsIdentity PropsDevices PropsLife PropsHealth.
Open Scope prog_scope.
Open Scope string_scope.
Open Scope list_scope.

(** An application whose device list is the object [l]. Uploads succeed or not. *)
Definition oenv (l : nat) (ok : bool) (s : oworld) (c : ocmd) : oresp c :=
  match c return oresp c with
  | ONew _ => fresh (dom s.2)
  | OGet l => at_ s.2 l
  | OPut _ _ => tt
  | ODown _ _ => if decide (NoDup (dkeys (at_ s.2 l))) then Val (l, at_ s.2 l) else Exn EDeviceListDownloadFailed
  | OUp _ _ => if ok then Val tt else Exn EDeviceListUploadFailed
  | OLib c => env s.1 c
  end.
Lemma oenv_allowed l ok s c : allowed osem s c (oenv l ok s c).
Proof.
  destruct c as [d|l'|l' d|ns j|ns l'|c]; simpl; [|done|done| | |apply env_allowed].
  - apply not_elem_of_dom, is_fresh.
  - destruct (decide _) as [Hn|Hn]; [|done]. split; [|done]. unfold at_. destruct (s.2 !! l) as [d|]; [by right|by left].
  - by destruct ok.
Qed.

(** ** C105 *)
(** set_own_label writes into the dictionary it was given. The upload fails: the list was not published, but the object of the
    application names the label. *)
Theorem C105_own_label_refuted : exists cf label s s' l d,
  s.2 !! l = Some d /\ exec osem (set_own_label_o cf label) s (Exn EDeviceListUploadFailed) s' /\
  s'.2 !! l = Some (dset (c_dev cf) label d) /\ s'.2 !! l <> s.2 !! l.
Proof.
  pose (s := (ex_w_own, {[0%nat := [(5%Z, None)]]}) : oworld).
  pose (r := run osem (oenv 0 false) (set_own_label_o cf0 (Some "new")) s).
  exists cf0, (Some "new"), s, r.2, 0%nat, [(5%Z, None)]. split; [vm_compute; reflexivity|]. split.
  - assert (r.1 = Exn EDeviceListUploadFailed) as <- by (vm_compute; reflexivity). unfold r. clearbody s. apply run_exec, oenv_allowed.
  - split; [vm_compute; reflexivity|]. vm_compute. discriminate.
Qed.
Print Assumptions C105_own_label_refuted.
(** purge_backend takes the own device out of the dictionary it was given, also if the upload fails. *)
Theorem C105_purge_refuted : exists cf ns s s' l d,
  s.2 !! l = Some d /\ exec osem (purge_backend_o cf ns) s (Exn EDeviceListUploadFailed) s' /\
  s'.2 !! l = Some (dpop (c_dev cf) d) /\ s'.2 !! l <> s.2 !! l.
Proof.
  pose (s := (ex_w_own, {[0%nat := [(1%Z, None); (5%Z, None)]]}) : oworld).
  pose (r := run osem (oenv 0 false) (purge_backend_o cf0 "n") s).
  exists cf0, "n", s, r.2, 0%nat, [(1%Z, None); (5%Z, None)]. split; [vm_compute; reflexivity|]. split.
  - assert (r.1 = Exn EDeviceListUploadFailed) as <- by (vm_compute; reflexivity). unfold r. clearbody s. apply run_exec, oenv_allowed.
  - split; [vm_compute; reflexivity|]. vm_compute. discriminate.
Qed.
Print Assumptions C105_purge_refuted.
(** update_device_list copies its argument, but hands the copy out when it adds the own device. The application keeps the
    object it is given and returns it to purge_backend, as the one in the tests does; the own device disappears from the list
    that update_device_list is still reading, and it fails with a KeyError. *)
Definition ex_shared : list (oapi unit) := [update_device_list_o cf0 "n" "me" 0; purge_backend_o cf0 "n"].
Definition ex_shared_s : oworld := (ex_boot2.2, {[0%nat := []]}).
Theorem C105_shared_list_refuted : exists me w0 cf ns arg s s' n,
  w_disk w0 = ∅ /\ life me (Off, w0) (On cf, s.1) /\ s.2 !! arg = Some [] /\
  areach osem o_awaited ([update_device_list_o cf ns me arg; purge_backend_o cf ns], s, None) ([Raise EKeyError; Ret tt], s', n).
Proof.
  pose (sched := (replicate 16 0 ++ replicate 10 1 ++ replicate 60 0 ++ replicate 200 1)%nat).
  pose (r := run_sched osem o_awaited (oenv 1 true) sched (ex_shared, ex_shared_s, None)).
  pose proof (run_sched_areach osem o_awaited (oenv 1 true) sched (ex_shared, ex_shared_s, None) (oenv_allowed 1 true)) as H. fold r in H.
  assert (r = ([Raise EKeyError; Ret tt], r.1.2, r.2)) as E by (vm_compute; reflexivity).
  exists "me", empty_world, cf0, "n", 0%nat, ex_shared_s, r.1.2, r.2. split; [done|]. split; [apply ex_life2|]. split; [done|].
  rewrite E in H. exact H.
Qed.
Print Assumptions C105_shared_list_refuted.

(** Partial: what set_own_label and purge_backend do change is the entry of the own device, and nothing else, in the lists the
    application has. For one call at a time, dictionaries are as good as values: each call does what the model says. *)
Theorem C105_own_label_partial cf label s o s' : exec osem (set_own_label_o cf label) s o s' ->
  exec base (set_own_label cf label) s.1 o s'.1 /\
  forall l d, s.2 !! l = Some d -> s'.2 !! l = Some d \/ s'.2 !! l = Some (dset (c_dev cf) label d).
Proof. exact (label_exec cf label s o s'). Qed.
Print Assumptions C105_own_label_partial.
Theorem C105_purge_partial cf ns s o s' : exec osem (purge_backend_o cf ns) s o s' ->
  exec base (purge_backend cf ns) s.1 o s'.1 /\
  forall l d, s.2 !! l = Some d -> s'.2 !! l = Some d \/ s'.2 !! l = Some (dpop (c_dev cf) d).
Proof. exact (purge_exec cf ns s o s'). Qed.
Print Assumptions C105_purge_partial.
(** update_device_list changes none of the objects there are. *)
Theorem C105_update_partial cf ns jid l d s o s' : s.2 !! l = Some d -> exec osem (update_device_list_o cf ns jid l) s o s' ->
  exec base (update_device_list cf ns jid d) s.1 o s'.1 /\ forall l' d', s.2 !! l' = Some d' -> s'.2 !! l' = Some d'.
Proof. exact (update_exec cf ns jid l d s o s'). Qed.
Print Assumptions C105_update_partial.
(** Partial: among coroutines it holds for applications that return a new dictionary every time and keep none of those they are
    given. Whatever the calls, running concurrently with each other and with any other code [lift p], do with their dictionaries,
    the model on values does as well: with the same storage, the same messages, the same results and exceptions. *)
Theorem C105_coroutines_partial cf cs w h pos' w' h' :
  (forall i a, cs !! i = Some a -> called cf a.1.1 a.1.2 a.2 /\ a.1.1 ⊆ h) -> apart cs ->
  preach o_fresh (map (fun a => a.1.2) cs, (w, h)) (pos', (w', h')) ->
  exists ps', preach base (map snd cs, w) (ps', w') /\ length ps' = length pos' /\
    forall i, (pos' !! i = Some (Ret tt) -> ps' !! i = Some (Ret tt)) /\ forall e, pos' !! i = Some (Raise e) -> ps' !! i = Some (Raise e).
Proof. exact (coroutines cf cs w h pos' w' h'). Qed.
Print Assumptions C105_coroutines_partial.

(** The own device is missing on the list "n"; the list given is left alone, the copy is published. *)
Definition ex_obj : oworld := (ex_w_own, {[0%nat := [(5%Z, None)]; 3%nat := [(1%Z, Some "old"); (5%Z, None)]]}).
Example C105_example :
  let upd := run osem (oenv 0 true) (update_device_list_o cf0 "n" "me" 0) ex_obj in
  let lab := run osem (oenv 3 true) (set_own_label_o cf0 (Some "new")) ex_obj in
  let pur := run osem (oenv 3 true) (purge_backend_o cf0 "n") ex_obj in
  exec osem (update_device_list_o cf0 "n" "me" 0) ex_obj upd.1 upd.2 /\ upd.1 = Val tt /\
  (upd.2.2 !! 0%nat, upd.2.2 !! 3%nat, upd.2.2 !! 4%nat) =
    (Some [(5%Z, None)], Some [(1%Z, Some "old"); (5%Z, None)], Some [(5%Z, None); (1%Z, Some "pc")]) /\
  exec osem (set_own_label_o cf0 (Some "new")) ex_obj lab.1 lab.2 /\ lab.1 = Val tt /\
  (lab.2.2 !! 0%nat, lab.2.2 !! 3%nat) = (Some [(5%Z, None)], Some [(1%Z, Some "new"); (5%Z, None)]) /\
  exec osem (purge_backend_o cf0 "n") ex_obj pur.1 pur.2 /\ pur.1 = Val tt /\
  (pur.2.2 !! 0%nat, pur.2.2 !! 3%nat) = (Some [(5%Z, None)], Some [(5%Z, None)]).
Proof.
  cbv zeta. split; [apply run_exec, oenv_allowed|]. split; [vm_compute; reflexivity|]. split; [vm_compute; reflexivity|].
  split; [apply run_exec, oenv_allowed|]. split; [vm_compute; reflexivity|]. split; [vm_compute; reflexivity|].
  split; [apply run_exec, oenv_allowed|]. split; vm_compute; reflexivity.
Qed.
(** The schedule of the witness above, with an application that returns new dictionaries: nothing fails. *)
Definition oenv_new (s : oworld) (c : ocmd) : oresp c :=
  match c return oresp c with ODown _ _ => Val (fresh (dom s.2), [(1%Z, None); (5%Z, None)]) | c => oenv 1 true s c end.
Lemma oenv_new_allowed s c : allowed o_fresh s c (oenv_new s c).
Proof.
  destruct c; try (split; [apply (oenv_allowed 1 true)|done]). cbn. rewrite (proj1 (not_elem_of_dom s.2 _) (is_fresh (dom s.2))).
  split; [|done]. split; [by left|]. repeat constructor; set_solver.
Qed.
Definition ex_cs : list (gmap nat (list (Z * option string)) * oapi unit * api unit) :=
  [({[0%nat := []]}, update_device_list_o cf0 "n" "me" 0, update_device_list cf0 "n" "me" []); (∅, purge_backend_o cf0 "n", purge_backend cf0 "n");
   (∅, set_own_label_o cf0 None, set_own_label cf0 None)].
Definition ex_cs_end := run_sched o_fresh o_awaited oenv_new (replicate 16 0 ++ replicate 10 1 ++ replicate 60 0 ++ concat (replicate 200 [1; 2]))%nat
  (map (fun a => a.1.2) ex_cs, ex_shared_s, None).
Example C105_coroutines_example :
  (forall i a, ex_cs !! i = Some a -> called cf0 a.1.1 a.1.2 a.2 /\ a.1.1 ⊆ ex_shared_s.2) /\ apart ex_cs /\
  preach o_fresh (map (fun a => a.1.2) ex_cs, ex_shared_s) ex_cs_end.1 /\ ex_cs_end.1.1 = [Ret tt; Ret tt; Ret tt].
Proof.
  split; [|split; [|split]].
  - intros i a Hi. destruct i as [|[|[|i]]]; simpl in Hi; try discriminate; injection Hi as <-; (split; [constructor|]); try apply map_empty_subseteq; done.
  - intros i j a b Hi Hj Hn. destruct i as [|[|[|i]]]; simpl in Hi; try discriminate; injection Hi as <-;
      (destruct j as [|[|[|j]]]; simpl in Hj; try discriminate; injection Hj as <-; try done); try apply map_disjoint_empty_l; apply map_disjoint_empty_r.
  - unfold ex_cs_end. generalize (map (fun a => a.1.2) ex_cs) ex_shared_s. intros ps s.
    apply (areach_preach o_fresh o_awaited _ _ (run_sched_areach o_fresh o_awaited oenv_new _ (ps, s, None) oenv_new_allowed)).
  - vm_compute. reflexivity.
Qed.
