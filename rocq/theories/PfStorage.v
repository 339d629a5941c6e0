(** Proofs about the storage layer. *)
From Verif Require Import Spec StorageImpl Model Env.

Open Scope prog_scope.
Open Scope list_scope.

(** A client issuing storage calls one after the other and recording the results. *)
Fixpoint run_ops (ops : list sop) : rapi (list sret) :=
  match ops with
  | [] => Ret []
  | OLoad k :: ops' => o <- try_ (st_load k) ;; rs <- run_ops ops' ;; Ret (RLoaded o :: rs)
  | OStore k v :: ops' => o <- try_ (st_store k v) ;; rs <- run_ops ops' ;; Ret (RDone o :: rs)
  | ODelete k :: ops' => o <- try_ (st_delete k) ;; rs <- run_ops ops' ;; Ret (RDone o :: rs)
  end.

Definition r_disk (w : rworld) : gmap string json := w_disk (r_world w).

(** Cache entries agree with the backing store. *)
Definition coherent (w : rworld) : Prop :=
  forall c k v, r_cache w = Some c -> c !! k = Some v -> r_disk w !! k = v.

(** Single storage calls, as wp. *)
Definition R_True : rworld -> Prop := fun _ => True.

Lemma coherent_put w k v :
  coherent w -> r_disk w !! k = v -> coherent (RWorld (r_world w) (fmap (insert k v) (r_cache w))).
Proof.
  intros Hc Hk c k' v' Hcache Hl. unfold r_disk in *. simpl in *.
  destruct (r_cache w) as [c0|] eqn:E; [|done]. injection Hcache as <-.
  destruct (decide (k = k')) as [->|Hne].
  - rewrite lookup_insert in Hl. congruence.
  - rewrite lookup_insert_ne in Hl by done. eapply Hc; [exact E|done].
Qed.

(** In-flight worlds: the cache may still hold the previous value of [k]. *)
Lemma st_load_exec k w o w' :
  coherent w -> exec rbase (st_load k) w o w' ->
  coherent w' /\ r_world w' = r_world w /\
  match o with Val v => v = r_disk w !! k | Exn e => ext_exn e = true end.
Proof.
  intros Hc (r & Hr & H). simpl in Hr, H.
  destruct r as [v|].
  - simpl in H. destruct H as [-> ->]. split; [done|]. split; [done|].
    destruct (r_cache w) as [c|] eqn:E; [|done]. simpl in Hr. symmetry. by eapply Hc.
  - simpl in H. destruct H as (r2 & Hr2 & H). destruct r2 as [v|e]; simpl in *.
    + destruct H as ([] & _ & -> & ->). subst v. split; [|done].
      by apply coherent_put.
    + destruct H as [-> ->]. by destruct w.
Qed.

Lemma st_store_exec k v w o w' :
  coherent w -> exec rbase (st_store k v) w o w' ->
  coherent w' /\ w_allowed (r_world w) (SStore k v) o /\ r_world w' = w_apply (r_world w) (SStore k v) o.
Proof.
  intros Hc (r & Hr & H). destruct r as [[]|e]; simpl in Hr, H.
  - destruct H as ([] & _ & -> & ->). split; [|done].
    intros c k' v' Hcache Hl. unfold r_disk in *. simpl in *.
    destruct (r_cache w) as [c0|] eqn:E; [|done]. injection Hcache as <-.
    destruct (decide (k = k')) as [->|Hne].
    + rewrite lookup_insert in Hl. injection Hl as <-. apply lookup_insert.
    + rewrite lookup_insert_ne in Hl by done. rewrite lookup_insert_ne by done.
      eapply Hc; [exact E|done].
  - destruct H as [-> ->]. simpl. split; [|done]. exact Hc.
Qed.

Lemma st_delete_exec k w o w' :
  coherent w -> exec rbase (st_delete k) w o w' ->
  coherent w' /\ w_allowed (r_world w) (SDelete k) o /\ r_world w' = w_apply (r_world w) (SDelete k) o.
Proof.
  intros Hc (r & Hr & H). destruct r as [[]|e]; simpl in Hr, H.
  - destruct H as ([] & _ & -> & ->). split; [|done].
    intros c k' v' Hcache Hl. unfold r_disk in *. simpl in *.
    destruct (r_cache w) as [c0|] eqn:E; [|done]. injection Hcache as <-.
    destruct (decide (k = k')) as [->|Hne].
    + rewrite lookup_insert in Hl. injection Hl as <-. apply lookup_delete.
    + rewrite lookup_insert_ne in Hl by done. rewrite lookup_delete_ne by done.
      eapply Hc; [exact E|done].
  - destruct H as [-> ->]. simpl. split; [|done]. exact Hc.
Qed.

(* ------------------------------------------------------------------------------------------------ *)
(** ** C01 *)
Lemma disk_store w k v : w_disk (w_apply w (SStore k v) (Val tt)) = <[k := v]> (w_disk w).
Proof. done. Qed.

Lemma run_ops_spec ops w o w' :
  coherent w -> exec rbase (run_ops ops) w o w' ->
  exists rs, o = Val rs /\ map_spec (r_disk w) ops rs /\ coherent w' /\
    r_disk w' = acked (r_disk w) ops rs.
Proof.
  revert w o w'. induction ops as [|op ops IH]; intros w o w' Hc H.
  - simpl in H. destruct H as [-> ->]. exists []. done.
  - destruct op as [k|k v|k]; cbn [run_ops] in H;
      apply exec_bind in H as [(o1 & w1 & H1 & H2)|(e & H1 & ->)];
      apply exec_try in H1 as (o' & Ho & H1); try done; injection Ho as <-;
      apply exec_bind in H2 as [(rs & w2 & H2 & H3)|(e & H2 & ->)].
    + apply st_load_exec in H1 as (Hc1 & Hw1 & Hv); [|done].
      apply IH in H2 as (rs' & [= <-] & Hs & Hc2 & Hd); [|done].
      destruct H3 as [-> ->]. eexists. split; [done|].
      unfold r_disk in *. rewrite Hw1 in *. by destruct o1.
    + apply st_load_exec in H1 as (Hc1 & Hw1 & Hv); [|done].
      apply IH in H2 as (rs' & Heq & _); done.
    + apply st_store_exec in H1 as (Hc1 & Ha & Hw1); [|done].
      apply IH in H2 as (rs' & [= <-] & Hs & Hc2 & Hd); [|done].
      destruct H3 as [-> ->]. eexists. split; [done|].
      unfold r_disk in *. rewrite Hw1 in *. by destruct o1.
    + apply st_store_exec in H1 as (Hc1 & Ha & Hw1); [|done].
      apply IH in H2 as (rs' & Heq & _); done.
    + apply st_delete_exec in H1 as (Hc1 & Ha & Hw1); [|done].
      apply IH in H2 as (rs' & [= <-] & Hs & Hc2 & Hd); [|done].
      destruct H3 as [-> ->]. eexists. split; [done|].
      unfold r_disk in *. rewrite Hw1 in *. by destruct o1.
    + apply st_delete_exec in H1 as (Hc1 & Ha & Hw1); [|done].
      apply IH in H2 as (rs' & Heq & _); done.
Qed.

Lemma coherent_empty w : coherent (RWorld w (Some ∅)).
Proof. intros c k v [= <-]. by rewrite lookup_empty. Qed.
Lemma coherent_nocache w : coherent (RWorld w None).
Proof. intros c k v [=]. Qed.

(* ------------------------------------------------------------------------------------------------ *)
(** ** C02 *)

(** Every execution with the cache is an execution without it. *)
Lemma lower_sound {A} (p : api A) w o w' :
  coherent w -> exec rbase (lower p) w o w' -> exec base p (r_world w) o (r_world w') /\ coherent w'.
Proof.
  revert w. induction p as [a|e|c k IH]; intros w Hc H.
  - simpl in *. destruct H as [-> ->]. done.
  - simpl in *. destruct H as [-> ->]. done.
  - assert (forall r wr, (exec rbase (lower (k r)) wr o w' -> coherent wr ->
        r_world wr = w_apply (r_world w) c r -> w_allowed (r_world w) c r ->
        exec base (Step c k) (r_world w) o (r_world w') /\ coherent w')) as Hgo.
    { intros r wr He Hcw Hw Ha. apply IH in He as [He Hc']; [|done]. split; [|done].
      exists r. split; [done|]. simpl. by rewrite <- Hw. }
    destruct c; cbn [lower] in H;
      try (destruct H as (r & Ha & H); eapply Hgo; [exact H|exact Hc|reflexivity|exact Ha]).
    + apply exec_bind in H as [(o1 & w1 & H1 & H2)|(e & H1 & ->)];
        apply exec_try in H1 as (o' & Ho & H1); try done; injection Ho as <-.
      apply st_load_exec in H1 as (Hc1 & Hw1 & Hv); [|done].
      eapply Hgo; [exact H2|exact Hc1|exact Hw1|]. destruct o1; done.
    + apply exec_bind in H as [(o1 & w1 & H1 & H2)|(e & H1 & ->)];
        apply exec_try in H1 as (o' & Ho & H1); try done; injection Ho as <-.
      apply st_store_exec in H1 as (Hc1 & Ha & Hw1); [|done].
      eapply Hgo; [exact H2|exact Hc1|exact Hw1|done].
    + apply exec_bind in H as [(o1 & w1 & H1 & H2)|(e & H1 & ->)];
        apply exec_try in H1 as (o' & Ho & H1); try done; injection Ho as <-.
      apply st_delete_exec in H1 as (Hc1 & Ha & Hw1); [|done].
      eapply Hgo; [exact H2|exact Hc1|exact Hw1|done].
Qed.

(** Conversely: every execution without the cache in which loads do not fail is one with the cache. *)
Definition loads_ok (w : world) (c : cmd) : resp c -> Prop :=
  match c return resp c -> Prop with
  | SLoad _ => fun r => match r with Val _ => True | Exn _ => False end
  | _ => fun _ => True
  end.

Lemma st_load_ok k w :
  coherent w -> exists w1, exec rbase (st_load k) w (Val (r_disk w !! k)) w1 /\ r_world w1 = r_world w.
Proof.
  intros Hc. destruct (r_cache w ≫= lookup k) as [v|] eqn:E.
  - exists w. split; [|done]. exists (Some v). split; [done|]. simpl.
    destruct (r_cache w) as [c|] eqn:E'; [|done]. simpl in E. by rewrite (Hc c k v E' E).
  - eexists. split.
    + exists None. split; [done|]. simpl. exists (Val (r_disk w !! k)). split; [done|].
      simpl. exists tt. done.
    + done.
Qed.
Lemma st_store_ok k v w o :
  w_allowed (r_world w) (SStore k v) o ->
  exists w1, exec rbase (st_store k v) w o w1 /\ r_world w1 = w_apply (r_world w) (SStore k v) o.
Proof.
  intros Ha. destruct o as [[]|e]; eexists; split.
  - exists (Val tt). split; [exact Ha|]. simpl. exists tt. done.
  - done.
  - exists (Exn e). split; [exact Ha|]. simpl. done.
  - done.
Qed.
Lemma st_delete_ok k w o :
  w_allowed (r_world w) (SDelete k) o ->
  exists w1, exec rbase (st_delete k) w o w1 /\ r_world w1 = w_apply (r_world w) (SDelete k) o.
Proof.
  intros Ha. destruct o as [[]|e]; eexists; split.
  - exists (Val tt). split; [exact Ha|]. simpl. exists tt. done.
  - done.
  - exists (Exn e). split; [exact Ha|]. simpl. done.
  - done.
Qed.

Lemma exec_try_bind {A B} (p : rapi A) (f : outcome A -> rapi B) w o1 w1 o w' :
  exec rbase p w o1 w1 -> exec rbase (f o1) w1 o w' -> exec rbase (bind (try_ p) f) w o w'.
Proof.
  intros H1 H2. apply exec_bind. left. exists o1, w1. split; [|done]. apply exec_try. eauto.
Qed.

Lemma lower_complete {A} (p : api A) w o w' :
  coherent w -> exec (with_contract loads_ok) p (r_world w) o w' ->
  exists rw', exec rbase (lower p) w o rw' /\ r_world rw' = w'.
Proof.
  revert w. induction p as [a|e|c k IH]; intros w Hc H.
  - simpl in *. destruct H as [-> ->]. eauto.
  - simpl in *. destruct H as [-> ->]. eauto.
  - destruct H as (r & [Ha Hl] & H). simpl in H.
    assert (forall wr, coherent wr -> r_world wr = w_apply (r_world w) c r ->
        exists rw', exec rbase (lower (k r)) wr o rw' /\ r_world rw' = w') as Hgo.
    { intros wr Hcw Hw. apply IH; [done|]. by rewrite Hw. }
    destruct c; cbn [lower];
      try (destruct (Hgo (RWorld (w_apply (r_world w) _ r) (r_cache w))) as (rw' & He & Hw);
           [exact Hc|done|]; exists rw'; split; [exists r; split; [exact Ha|exact He]|exact Hw]).
    + destruct r as [v|e]; [|done]. simpl in Ha. subst v.
      destruct (st_load_ok k0 w Hc) as (w1 & H1 & Hw1).
      destruct (Hgo w1) as (rw' & He & Hw).
      { by eapply st_load_exec in H1 as (? & _). } { done. }
      exists rw'. split; [|done]. by eapply exec_try_bind.
    + destruct (st_store_ok k0 v w r Ha) as (w1 & H1 & Hw1).
      destruct (Hgo w1) as (rw' & He & Hw).
      { by eapply st_store_exec in H1 as (? & _). } { done. }
      exists rw'. split; [|done]. by eapply exec_try_bind.
    + destruct (st_delete_ok k0 w r Ha) as (w1 & H1 & Hw1).
      destruct (Hgo w1) as (rw' & He & Hw).
      { by eapply st_delete_exec in H1 as (? & _). } { done. }
      exists rw'. split; [|done]. by eapply exec_try_bind.
Qed.

(* ------------------------------------------------------------------------------------------------ *)
(** ** C03 *)
Lemma reach_try {A} (p : rapi A) w w' : reach rbase (try_ p) w w' <-> reach rbase p w w'.
Proof.
  revert w. induction p as [a|e|c k IH]; intros w; simpl; [tauto..|]. setoid_rewrite IH. tauto.
Qed.

Lemma st_load_reach k w w' : reach rbase (st_load k) w w' -> r_disk w' = r_disk w.
Proof.
  intros [->|(r & Hr & H)]; [done|]. simpl in H. destruct r as [v|]; simpl in H.
  - by destruct H as [->|[]].
  - destruct H as [->|(r2 & Hr2 & H)]; [done|]. destruct r2 as [v|e]; simpl in H.
    + destruct H as [->|([] & _ & H)]; [done|]. by destruct H as [->|[]].
    + by destruct H as [->|[]].
Qed.
Lemma st_store_reach k v w w' :
  reach rbase (st_store k v) w w' -> r_disk w' = r_disk w \/ r_disk w' = <[k := v]> (r_disk w).
Proof.
  intros [->|(r & Hr & H)]; [by left|]. simpl in H. destruct r as [[]|e]; simpl in H.
  - right. destruct H as [->|([] & _ & H)]; [done|]. by destruct H as [->|[]].
  - left. by destruct H as [->|[]].
Qed.
Lemma st_delete_reach k w w' :
  reach rbase (st_delete k) w w' -> r_disk w' = r_disk w \/ r_disk w' = delete k (r_disk w).
Proof.
  intros [->|(r & Hr & H)]; [by left|]. simpl in H. destruct r as [[]|e]; simpl in H.
  - right. destruct H as [->|([] & _ & H)]; [done|]. by destruct H as [->|[]].
  - left. by destruct H as [->|[]].
Qed.

Lemma run_ops_crash ops w w' :
  coherent w -> reach rbase (run_ops ops) w w' ->
  exists done rest rs w1, ops = done ++ rest /\ exec rbase (run_ops done) w (Val rs) w1 /\
    r_disk w1 = acked (r_disk w) done rs /\
    (r_disk w' = r_disk w1 \/ exists op rest', rest = op :: rest' /\ r_disk w' = op_effect (r_disk w1) op).
Proof.
  revert w. induction ops as [|op ops IH]; intros w Hc H.
  - exists [], [], [], w. simpl in H. destruct H as [->|[]].
    split; [done|]. split; [simpl; done|]. split; [done|]. by left.
  - assert (forall w1 (mk : sret),
      exec rbase (run_ops [op]) w (Val [mk]) w1 -> coherent w1 ->
      reach rbase (rs <- run_ops ops ;; Ret (mk :: rs)) w1 w' ->
      (forall ds rs w2, exec rbase (run_ops ds) w1 (Val rs) w2 ->
           exec rbase (run_ops (op :: ds)) w (Val (mk :: rs)) w2) ->
      exists done rest rs w1, op :: ops = done ++ rest /\ exec rbase (run_ops done) w (Val rs) w1 /\
        r_disk w1 = acked (r_disk w) done rs /\
        (r_disk w' = r_disk w1 \/
         exists op rest', rest = op :: rest' /\ r_disk w' = op_effect (r_disk w1) op)) as Hgo.
    { intros w1 mk H1 Hc1 Hr Hcons.
      assert (reach rbase (run_ops ops) w1 w') as Hr'.
      { apply reach_bind in Hr as [Hr|(rs & w2 & H2 & Hr)]; [done|].
        simpl in Hr. destruct Hr as [->|[]]. by eapply exec_reach. }
      destruct (IH w1 Hc1 Hr') as (ds & rest & rs & w2 & -> & H2 & Hd & Hcase).
      exists (op :: ds), rest, (mk :: rs), w2. split; [done|]. split; [by apply Hcons|]. split; [|done].
      pose proof (Hcons _ _ _ H2) as Hfull.
      apply run_ops_spec in Hfull as (rs' & [= <-] & _ & _ & Hd'); done. }
    assert (forall {B} (p : rapi B) (mk : outcome B -> sret),
      run_ops [op] = (o <- try_ p ;; rs <- run_ops [] ;; Ret (mk o :: rs)) ->
      (forall ds, run_ops (op :: ds) = (o <- try_ p ;; rs <- run_ops ds ;; Ret (mk o :: rs))) ->
      (forall w', reach rbase p w w' -> r_disk w' = r_disk w \/ r_disk w' = op_effect (r_disk w) op) ->
      (forall o w1, exec rbase p w o w1 -> coherent w1) ->
      reach rbase (o <- try_ p ;; rs <- run_ops ops ;; Ret (mk o :: rs)) w w' ->
      exists done rest rs w1, op :: ops = done ++ rest /\ exec rbase (run_ops done) w (Val rs) w1 /\
        r_disk w1 = acked (r_disk w) done rs /\
        (r_disk w' = r_disk w1 \/
         exists op rest', rest = op :: rest' /\ r_disk w' = op_effect (r_disk w1) op)) as Hgo2.
    { intros B p mk Heq Hcons Hcr Hcoh Hr.
      apply reach_bind in Hr as [Hr|(o1 & w1 & H1 & Hr)].
      - apply (proj1 (reach_try _ _ _)) in Hr. exists [], (op :: ops), [], w. split; [done|]. split; [done|].
        split; [done|]. destruct (Hcr _ Hr) as [->| ->]; [by left|]. right. eauto.
      - pose proof H1 as H1'. apply exec_try in H1 as (o' & [= <-] & H1).
        eapply (Hgo w1 (mk o1)); [| |exact Hr|].
        + rewrite Heq. apply exec_bind. left. exists o1, w1. split; [done|]. simpl. done.
        + eauto.
        + intros ds rs w2 H2. rewrite Hcons. apply exec_bind. left. exists o1, w1. split; [done|].
          apply exec_bind. left. exists rs, w2. split; [done|]. simpl. done. }
    destruct op as [k|k v|k].
    + eapply (Hgo2 _ (st_load k) RLoaded); [done|done| | |exact H].
      * intros w1 Hr. left. by eapply st_load_reach.
      * intros o w1 He. by eapply st_load_exec in He as (? & _).
    + eapply (Hgo2 _ (st_store k v) RDone); [done|done| | |exact H].
      * intros w1 Hr. by eapply st_store_reach in Hr.
      * intros o w1 He. by eapply st_store_exec in He as (? & _).
    + eapply (Hgo2 _ (st_delete k) RDone); [done|done| | |exact H].
      * intros w1 Hr. by eapply st_delete_reach in Hr.
      * intros o w1 He. by eapply st_delete_exec in He as (? & _).
Qed.

(* ------------------------------------------------------------------------------------------------ *)
(** ** C04 *)

(** Store, await something else, then load, and complain if the load does not see the store. *)
Definition store_then_check (k : string) (v : string) : rapi unit :=
  st_store k (JStr v) ;;;
  Step (ROther (CSleep 0)) of_outcome ;;;
  m <- st_load k ;;
  if decide (m ≫= as_str = Some v) then Ret tt else Raise ERuntime.
Definition just_load (k : string) : rapi unit := m <- st_load k ;; Ret tt.

(** Programs that never write [k]. *)
Definition writes (c : rcmd) (k : string) : Prop :=
  match c with
  | RStore k' _ | RDelete k' | ROther (SStore k' _) | ROther (SDelete k') => k' = k
  | _ => False
  end.
Fixpoint never_writes {A} (k : string) (p : rapi A) : Prop :=
  match p with
  | Step c f => ~ writes c k /\ forall r, never_writes k (f r)
  | _ => True
  end.

Definition keeps (k : string) (w w' : rworld) : Prop :=
  r_disk w' !! k = r_disk w !! k /\ (r_cache w = None -> r_cache w' = None).

Lemma never_writes_step k (w : rworld) (c : rcmd) (r : rresp c) :
  ~ writes c k -> keeps k w (r_apply w c r).
Proof.
  unfold keeps, r_disk. destruct c as [k'|k' v'|k'|k'|k' v'|c]; simpl; intros Hk; auto.
  - destruct r as [[]|]; simpl; [rewrite lookup_insert_ne by done|]; auto.
  - destruct r as [[]|]; simpl; [rewrite lookup_delete_ne by done|]; auto.
  - split; [done|]. by intros ->.
  - destruct c; simpl; auto.
    + destruct r as [[]|]; simpl; [rewrite lookup_insert_ne by done|]; auto.
    + destruct r as [[]|]; simpl; [rewrite lookup_delete_ne by done|]; auto.
Qed.

Lemma never_writes_guar {A} k (p : rapi A) : never_writes k p -> guar rbase (keeps k) p.
Proof.
  induction p as [a|e|c f IH]; simpl; auto. intros [Hc Hf] w r Hr. split; [|auto].
  by apply never_writes_step.
Qed.

(** Without the cache the check never fails, whatever runs concurrently and does not write the key. *)
Lemma check_no_cache k v w :
  r_cache w = None ->
  rwp rbase (keeps k) (store_then_check k v) (fun o _ => o <> Exn ERuntime) w.
Proof.
  intros Hw w1 r [_ Hc] Hr. specialize (Hc Hw). clear w Hw.
  destruct r as [[]|e]; simpl in *.
  - intros w2 [] [Hd2 Hc2] _. simpl in *.
    assert (r_disk w2 !! k = Some (JStr v)) as Hd.
    { rewrite Hd2. unfold r_disk. simpl. apply lookup_insert. }
    specialize (Hc2 Hc). clear Hd2 w1 Hc Hr.
    intros ws rs [Hds Hcs] Hrs. unfold r_disk in Hds. simpl in Hcs, Hds. rewrite Hc2 in Hcs. simpl in Hcs.
    specialize (Hcs eq_refl). fold (r_disk ws) in Hds.
    destruct rs as [[]|e]; simpl in *; [|intros [= ->]; discriminate].
    intros w3 r3 [Hd3 Hc3] Hr3. unfold r_disk in Hd3. simpl in Hc3, Hd3. rewrite Hcs in Hc3. simpl in Hc3.
    specialize (Hc3 eq_refl). fold (r_disk w3) in Hd3. simpl in Hr3. rewrite Hc3 in Hr3. simpl in Hr3. subst r3.
    simpl. intros w4 r4 [Hd4 Hc4] Hr4. destruct r4 as [m|e]; simpl in *.
    + subst m. intros w5 [] _ _. fold (r_disk w4). rewrite Hd4, Hd3. fold (r_disk ws). rewrite Hds. unfold r_disk in Hd. rewrite Hd. simpl.
      by rewrite decide_True.
    + intros [= ->]. discriminate.
  - intros [= ->]. discriminate.
Qed.

Lemma no_cache_concurrent k v ps i w ps' w' :
  r_cache w = None -> ps !! i = Some (store_then_check k v) ->
  (forall j q, j <> i -> ps !! j = Some q -> never_writes k q) ->
  preach rbase (ps, w) (ps', w') -> ps' !! i <> Some (Raise ERuntime).
Proof.
  intros Hc Hi Hot H Hn.
  eapply rwp_preach in H as (p' & w0 & Hp' & _ & HQ); [| | |exact Hi|by apply check_no_cache|].
  - rewrite Hn in Hp'. injection Hp' as <-. simpl in HQ. done.
  - by intros; split.
  - intros a b c [H1 H2] [H3 H4]. split; [congruence|auto].
  - intros j q Hne Hq. eapply never_writes_guar. eauto.
Qed.

(** With or without the cache, when the others leave the key alone: they neither write nor load it through the Storage. *)
Definition uses (c : rcmd) (k : string) : Prop :=
  match c with
  | RLoad k' | RStore k' _ | RDelete k' | RCacheGet k' | RCachePut k' _
  | ROther (SLoad k') | ROther (SStore k' _) | ROther (SDelete k') => k' = k
  | _ => False
  end.
Fixpoint never_uses {A} (k : string) (p : rapi A) : Prop :=
  match p with
  | Step c f => ~ uses c k /\ forall r, never_uses k (f r)
  | _ => True
  end.
Definition kept (k : string) (w w' : rworld) : Prop :=
  r_disk w' !! k = r_disk w !! k /\ (r_cache w' ≫= lookup k) = (r_cache w ≫= lookup k) /\ (r_cache w' = None <-> r_cache w = None).
Lemma never_uses_guar {A} k (p : rapi A) : never_uses k p -> guar rbase (kept k) p.
Proof.
  induction p as [a|e|c f IH]; simpl; auto. intros [Hc Hf] w r Hr. split; [|auto].
  unfold kept, r_disk. destruct c as [k'|k' v'|k'|k'|k' v'|c]; simpl in *; auto.
  - destruct r as [[]|]; simpl; [rewrite lookup_insert_ne by done|]; auto.
  - destruct r as [[]|]; simpl; [rewrite lookup_delete_ne by done|]; auto.
  - split; [done|]. destruct (r_cache w) as [m|]; simpl; [|done]. rewrite lookup_insert_ne by done. done.
  - destruct c; simpl in *; auto.
    + destruct r as [[]|]; simpl; [rewrite lookup_insert_ne by done|]; auto.
    + destruct r as [[]|]; simpl; [rewrite lookup_delete_ne by done|]; auto.
Qed.
Lemma check_alone k v w : rwp rbase (kept k) (store_then_check k v) (fun o _ => o <> Exn ERuntime) w.
Proof.
  intros w1 r _ Hr. clear w.
  destruct r as [[]|e]; simpl in *; [|intros [= ->]; discriminate].
  intros w2 [] (Hd2 & _ & Hn2) _. simpl in *.
  assert (r_disk w2 !! k = Some (JStr v)) as Hd.
  { rewrite Hd2. unfold r_disk. simpl. apply lookup_insert. }
  clear Hd2 Hr.
  intros ws rs (Hds & Hcs & _) Hrs. unfold r_disk in Hds. simpl in Hcs, Hds.
  assert (r_disk ws !! k = Some (JStr v)) as Hd' by (unfold r_disk; by rewrite Hds).
  assert ((r_cache ws ≫= lookup k) = None \/ (r_cache ws ≫= lookup k) = Some (Some (JStr v))) as HC.
  { rewrite Hcs. destruct (r_cache w2); simpl; [right; apply lookup_insert|by left]. }
  clear Hds Hcs Hd Hn2 w1 w2. destruct rs as [[]|e]; simpl in *; [|intros [= ->]; discriminate].
  intros w3 r3 (Hd3 & Hc3 & _) Hr3. unfold r_disk in Hd3. simpl in Hc3, Hd3, Hr3.
  destruct HC as [HC|HC]; rewrite HC in Hc3; rewrite Hc3 in Hr3; subst r3; simpl.
  - intros w4 r4 (Hd4 & _) Hr4. destruct r4 as [m|e]; simpl in *; [|intros [= ->]; discriminate].
    subst m. intros w5 [] _ _. unfold r_disk in *. rewrite Hd4, Hd3, Hd'. simpl. by rewrite decide_True.
  - by rewrite decide_True.
Qed.
Lemma alone_concurrent k v ps i w ps' w' :
  ps !! i = Some (store_then_check k v) ->
  (forall j q, j <> i -> ps !! j = Some q -> never_uses k q) ->
  preach rbase (ps, w) (ps', w') -> ps' !! i <> Some (Raise ERuntime).
Proof.
  intros Hi Hot H Hn.
  eapply rwp_preach in H as (p' & w0 & Hp' & _ & HQ); [| | |exact Hi|by apply check_alone|].
  - rewrite Hn in Hp'. injection Hp' as <-. simpl in HQ. done.
  - by intros; split.
  - intros a b c (H1 & H2 & H3) (H4 & H5 & H6). split; [congruence|]. split; [congruence|tauto].
  - intros j q Hne Hq. eapply never_uses_guar. eauto.
Qed.

(** With the cache it can fail: the load of the other coroutine has read the old value and writes it to the
    cache after the store. *)
Lemma cache_race :
  exists w ps' w' l',
    coherent w /\
    areach rbase r_awaited ([just_load "k"; store_then_check "k" "new"], w, None) (ps', w', l') /\
    ps' !! 1%nat = Some (Raise ERuntime) /\ r_disk w' !! "k" = Some (JStr "new") /\
    (exists c, r_cache w' = Some c /\ c !! "k" = Some (Some (JStr "old"))).
Proof.
  exists (RWorld (set_disk {["k" := JStr "old"]} empty_world) (Some ∅)).
  eexists _, _, _. split; [apply coherent_empty|]. split.
  - match goal with |- areach _ _ ?cfg _ =>
      pose proof (run_sched_areach rbase r_awaited renv [0; 0; 1; 1; 0; 1; 1]%nat cfg renv_allowed) as H end.
    vm_compute in H. exact H.
  - split; [reflexivity|]. split; [reflexivity|]. eexists. split; reflexivity.
Qed.
