(** Theorem C83: calls that touch different things do not interfere. Foot.v says what each call touches. *)
From Verif Require Import Foot Env StorageImpl PfStorage PfFoot PfFootCache PropsIdentity PropsDevices.
Open Scope prog_scope.
Open Scope string_scope.
Open Scope list_scope.

(** [p] makes the calls [mine], all other coroutines of the pool the calls [theirs]. [v] is the world after [p] has run
    alone from the same world: to [p], and on everything [p] touches, there is no difference. *)
Theorem C83_isolated (mine theirs : call -> Prop) (ps : list (api unit)) i p w ps' w' :
  (forall c c', mine c -> theirs c' -> independent c c') -> (forall c, theirs c -> ~ sets_loaded c) ->
  ps !! i = Some p -> code sync_free mine p -> (forall n q, n <> i -> ps !! n = Some q -> appcode theirs q) ->
  preach base (ps, w) (ps', w') ->
  exists v evs new, reach base p w v /\ (ps' !! i = Some (Ret tt) -> exec base p w (Val tt) v) /\
    (forall e, ps' !! i = Some (Raise e) -> exec base p w (Exn e) v) /\
    (forall c x, mine c -> touches c x -> w_disk w' !! item_key x = w_disk v !! item_key x) /\
    w_log v = evs ++ w_log w /\ w_log w' = new ++ w_log w /\ evs `sublist_of` new.
Proof. exact (isolated mine theirs ps i p w ps' w'). Qed.
Print Assumptions C83_isolated.

(** The same on the storage with its cache, whose entries concurrent calls may corrupt (C04): not those of calls that touch
    different things. Each call behaves as if it were alone on a storage without cache. *)
Theorem C83_isolated_cached (mine theirs : call -> Prop) (ps : list (api unit)) i p w ps' w' :
  (forall c c', mine c -> theirs c' -> independent c c') -> (forall c, theirs c -> ~ sets_loaded c) ->
  ps !! i = Some p -> code sync_free mine p -> (forall n q, n <> i -> ps !! n = Some q -> appcode theirs q) ->
  coherent w -> preach rbase (lower <$> ps, w) (ps', w') ->
  exists v, (ps' !! i = Some (Ret tt) -> exec base p (r_world w) (Val tt) v) /\
    (forall e, ps' !! i = Some (Raise e) -> exec base p (r_world w) (Exn e) v) /\
    (forall c x, mine c -> touches c x -> r_disk w' !! item_key x = w_disk v !! item_key x).
Proof. exact (isolated_cached mine theirs ps i p w ps' w'). Qed.
Print Assumptions C83_isolated_cached.

(** A device list update among any activity that concerns other accounts. *)
Theorem C28_other_accounts_partial (theirs : call -> Prop) (ps : list (api unit)) i cf ns j dl w ps' w' x l :
  (forall c, theirs c -> ~ sets_loaded c /\ forall it, account_item j it -> ~ touches c it) ->
  ps !! i = Some (update_device_list cf ns j dl) -> (forall n q, n <> i -> ps !! n = Some q -> appcode theirs q) ->
  preach base (ps, w) (ps', w') -> ps' !! i = Some (Ret tt) -> dget x dl = Some l ->
  known (w_disk w') j x /\ supports (w_disk w') j x ns /\ activity (w_disk w') j x ns true.
Proof. exact (isolated_update theirs ps i cf ns j dl w ps' w' x l). Qed.
Print Assumptions C28_other_accounts_partial.

(** The list of "you" is updated while that of "he" is, a key of "he" is trusted and history synchronization ends. *)
Definition ex_theirs (c : call) : Prop :=
  c = KUpdate cf0 "n" "he" [(7%Z, None)] \/ c = KSetTrust "he" "k" "TRUSTED" \/ c = KAfter cf0.
Definition ex_pool : list (api unit) :=
  [update_device_list cf0 "n" "you" [(5%Z, None)]; update_device_list cf0 "n" "he" [(7%Z, None)] ;;; set_trust "he" "k" "TRUSTED";
   after_history_sync cf0].
Example C83_example :
  (forall c, ex_theirs c -> ~ sets_loaded c /\ (forall it, account_item "you" it -> ~ touches c it) /\
     independent (KUpdate cf0 "n" "you" [(5%Z, None)]) c) /\
  (forall n q, n <> 0%nat -> ex_pool !! n = Some q -> appcode ex_theirs q) /\
  (let s := run_sched base awaited env (concat (replicate 40 [0; 1; 2]))%nat (ex_pool, w0, None) in
   s.1.1 = [Ret tt; Ret tt; Ret tt] /\ known (w_disk s.1.2) "you" 5 /\ known (w_disk s.1.2) "he" 7).
Proof.
  split; [|split].
  - intros c Hc. assert (~ sets_loaded c /\ forall it, account_item "you" it -> ~ touches c it) as [H1 H2].
    { destruct Hc as [->|[->| ->]]; (split; [intros []|]); intros it H1 H2; simpl in *; destruct it; simpl in *; subst; try discriminate; done. }
    split; [exact H1|]. split; [exact H2|]. split; [exact H2|intros []].
  - intros [|[|[|n]]] q Hn Hq; [done| | |done]; injection Hq as <-.
    + apply (app_bind _ _ _ _ (update_device_list cf0 "n" "he" [(7%Z, None)]) (fun _ => set_trust "he" "k" "TRUSTED")).
      * apply (app_call' _ _ (KUpdate cf0 "n" "he" [(7%Z, None)])); [by left|done].
      * intros _. apply (app_call' _ _ (KSetTrust "he" "k" "TRUSTED")); [right; by left|done].
    + apply (app_call' _ _ (KAfter cf0)); [right; by right|done].
  - cbv zeta. split; [vm_compute; reflexivity|]. split; [exists [5%Z]|exists [7%Z]]; (split; [|left]).
    + exists (JList [JInt 5]). split; [vm_compute; reflexivity|]. repeat constructor.
    + exists (JList [JInt 7]). split; [vm_compute; reflexivity|]. repeat constructor.
Qed.

(** The same pool on the storage with its cache. *)
Example C83_example_cached :
  let s := run_sched rbase r_awaited renv (concat (replicate 60 [0; 1; 2]))%nat (lower <$> ex_pool, RWorld w0 (Some ∅), None) in
  s.1.1 = [Ret tt; Ret tt; Ret tt] /\
  (forall x : item, In x [IDeviceList "you"; INamespaces "you" 5; IActive "you" 5; ILabel "you" 5] ->
     r_disk s.1.2 !! item_key x = w_disk (run base env (update_device_list cf0 "n" "you" [(5%Z, None)]) w0).2 !! item_key x) /\
  (r_cache s.1.2 ≫= lookup (item_key (IDeviceList "you"))) = Some (Some (JList [JInt 5])).
Proof.
  cbv zeta. split; [vm_compute; reflexivity|]. split; [|vm_compute; reflexivity].
  intros x [<-|[<-|[<-|[<-|[]]]]]; vm_compute; reflexivity.
Qed.
