(** Theorem C96: coroutines that do not get in each other's way do not notice the cache. *)
From Verif Require Import Api Spec Alone Env Cached PfStorage PfCached PropsIdentity PropsDevices PropsTrust PropsEncrypt PropsDecrypt PropsBtbv PropsManual PropsUncached.
Open Scope prog_scope. Open Scope string_scope. Open Scope list_scope.

(** ** C96 *)
(** If no interleaving of the coroutines has a race, then what they do on the storage with its cache, under any
    interleaving of the accesses to the cache and to the underlying storage, is what they do on the storage interface of the
    other theorems: same returns, same world. When all are done, the cache agrees with the underlying storage. *)
Theorem C96_race_free (P : world -> forall c, resp c -> Prop) (ps : list (api unit)) w ps' w' :
  (forall w c r, storage_cmd c -> P w c r) ->
  coherent w -> (forall tr cfg, traced_run (with_contract P) (ps, r_world w) tr cfg -> race_free tr) ->
  preach (rsem P) (map lower ps, w) (ps', w') ->
  exists tr qs, traced_run (with_contract P) (ps, r_world w) tr (qs, r_world w') /\
    (forall n, (ps' !! n = Some (Ret tt) -> qs !! n = Some (Ret tt)) /\
               (forall e, ps' !! n = Some (Raise e) -> qs !! n = Some (Raise e))) /\
    (all_done ps' -> coherent w').
Proof. exact (fun HP => race_free_pool P HP ps w ps' w'). Qed.
Print Assumptions C96_race_free.

(** The calls of the library: if the devices of the accounts in [st] are completely recorded and no coroutine changes what is
    stored about them, lookups, encrypt and decrypt only read it, and any number of them may run. What one coroutine may change,
    no other may change. *)
Theorem C96_calls (P : world -> forall c, resp c -> Prop) (st : string -> bool) (off : bool) (ok : nat -> call -> Prop)
    (ps : list (api unit)) w ps' w' :
  (forall w c r, storage_cmd c -> P w c r) ->
  (forall j, st j = true -> complete_account (r_disk w) j) ->
  (forall n c, ok n c -> sender_known st (r_disk w) c) ->
  (off = true -> w_sync (r_world w) = false /\ forall n c, ok n c -> ~ sets_sync c) ->
  (forall n c j i, ok n c -> st j = true -> account_item j i -> ~ may_change st off c i) ->
  (forall n m c c' i, n <> m -> ok n c -> ok m c' -> may_change st off c i -> ~ may_change st off c' i) ->
  (forall n p, ps !! n = Some p -> appcode (ok n) p) ->
  coherent w -> preach (rsem P) (map lower ps, w) (ps', w') ->
  exists qs, preach (with_contract P) (ps, r_world w) (qs, r_world w') /\
    (forall n, (ps' !! n = Some (Ret tt) -> qs !! n = Some (Ret tt)) /\
               (forall e, ps' !! n = Some (Raise e) -> qs !! n = Some (Raise e))) /\
    (all_done ps' -> coherent w').
Proof. exact (calls_pool P st off ok ps w ps' w'). Qed.
Print Assumptions C96_calls.

(** A message of "you" is decrypted while one is sent to "you" and a device list of "her" arrives. *)
Definition ex_c_st (j : string) : bool := bool_decide (j ∈ ["you"; "me"]).
Definition ex_c_w : rworld := RWorld (World (w_disk (run base env (update_device_list cf_b "n" "me" [(1%Z, None); (2%Z, None)] ;;; get_device_information cf_b "me") (r_world ex_race)).2) ["n"; "m"] false []) (Some ∅).
Definition ex_c_call (n : nat) : call :=
  match n with
  | O => KDecrypt cf_b (ex_msg 5 ex_hi (Some ex_kex))
  | S O => KEncrypt cf_b (fun _ _ => Ret tt) ["you"] ex_pt None None
  | S (S O) => KUpdate cf_b "n" "her" [(8%Z, None)]
  | _ => KBefore
  end.
Definition ex_c_ps : list (api unit) := map (fun n => run_call (ex_c_call n) ;;; Ret tt) (seq 0 3).
Definition ex_c_ok (n : nat) (c : call) : Prop := (n < 3)%nat /\ c = ex_c_call n.
Definition any (w : world) (c : cmd) (r : resp c) : Prop := True.
Lemma renv_any w c : allowed (rsem any) w c (renv w c).
Proof.
  destruct c as [k|k v|k|k|k v|c]; [exact (renv_allowed w (RLoad k))|exact (renv_allowed w (RStore k v))|
    exact (renv_allowed w (RDelete k))|exact (renv_allowed w (RCacheGet k))|exact (renv_allowed w (RCachePut k v))|].
  split; [exact (env_allowed (r_world w) c)|exact Logic.I].
Qed.
Definition ex_c_end := run_sched (rsem any) r_awaited renv (concat (replicate 300 [0; 1; 2]))%nat (map lower ex_c_ps, ex_c_w, None).
Example C96_calls_example : (forall j, ex_c_st j = true -> complete_account (r_disk ex_c_w) j) /\
  (forall n c, ex_c_ok n c -> sender_known ex_c_st (r_disk ex_c_w) c) /\
  (true = true -> w_sync (r_world ex_c_w) = false /\ forall n c, ex_c_ok n c -> ~ sets_sync c) /\
  (forall n c j i, ex_c_ok n c -> ex_c_st j = true -> account_item j i -> ~ may_change ex_c_st true c i) /\
  (forall n m c c' i, n <> m -> ex_c_ok n c -> ex_c_ok m c' -> may_change ex_c_st true c i -> ~ may_change ex_c_st true c' i) /\
  (forall n p, ex_c_ps !! n = Some p -> appcode (ex_c_ok n) p) /\ coherent ex_c_w /\ is_Some (r_cache ex_c_end.1.2) /\
  preach (rsem any) (map lower ex_c_ps, ex_c_w) ex_c_end.1 /\ ex_c_end.1.1 = [Ret tt; Ret tt; Ret tt] /\ known (r_disk ex_c_end.1.2) "her" 8.
Proof.
  assert (forall j, ex_c_st j = true -> j = "you" \/ j = "me") as Hj.
  { intros j Hj. apply bool_decide_eq_true in Hj. apply elem_of_cons in Hj as [->|Hj]; [by left|]. apply elem_of_list_singleton in Hj. by right. }
  assert (forall n c i, ex_c_ok n c -> may_change ex_c_st true c i -> n <> 0%nat /\ n <> 1%nat /\ (n < 3)%nat /\ account_item "her" i) as Hc.
  { intros [|[|[|n]]] c i [Hn ->] Hi; cbn in Hi; try lia.
    - destruct Hi as [[Hi _]|[Hi _]]; discriminate.
    - destruct Hi as (j & Hj' & Hi & _). destruct Hj' as [Hj'| ->]; [apply elem_of_list_singleton in Hj' as ->|]; discriminate.
    - by repeat split. }
  split; [intros j [-> | ->]%Hj; apply complete_b_sound; vm_compute; reflexivity|]. split.
  { intros [|[|[|n]]] c [Hn ->]; try exact Logic.I. intros _. exists [5; 6; 7]%Z. split; [|left]. eexists. split; [vm_compute; reflexivity|]. exact (PfWp.is_ints [5; 6; 7]%Z). }
  split; [intros _; split; [reflexivity|]; intros [|[|[|n]]] c [Hn ->]; cbn; intros []; lia|]. split.
  { intros n c j i Hn Hs Hi Hm. destruct (Hc n c i Hn Hm) as (_ & _ & _ & Hh). destruct (Hj j Hs) as [-> | ->]; destruct i; cbn in *; congruence. }
  split.
  { intros n m c c' i Hnm Hn Hm H1 H2. destruct (Hc _ _ _ Hn H1) as (? & ? & ? & _), (Hc _ _ _ Hm H2) as (? & ? & ? & _). lia. }
  split.
  { intros [|[|[|n]]] p Hp; try discriminate; injection Hp as <-; (apply app_bind; [|intros; apply app_ret]).
    - apply (app_call _ _ (ex_c_call 0)); [split; [lia|reflexivity]|done].
    - apply (app_call _ _ (ex_c_call 1)); [split; [lia|reflexivity]|]. intros ? ? ? ? ? ? [= _ <- _ _ _ _] ds i. apply app_ret.
    - apply (app_call _ _ (ex_c_call 2)); [split; [lia|reflexivity]|done]. }
  split; [intros c k v [= <-] Hv; by rewrite lookup_empty in Hv|].
  assert (areach (rsem any) r_awaited (map lower ex_c_ps, ex_c_w, None) ex_c_end) as H
    by exact (run_sched_areach (rsem any) r_awaited renv _ _ renv_any).
  split; [vm_compute; by eexists|]. split; [exact (areach_preach _ _ _ _ H)|]. split; [vm_compute; reflexivity|].
  exists [8%Z]. split; [|left]. eexists. split; [vm_compute; reflexivity|exact (PfWp.is_ints [8%Z])].
Qed.
Example C96_race_free_example :
  (forall tr cfg, traced_run (with_contract any) (ex_c_ps, r_world ex_c_w) tr cfg -> race_free tr) /\ all_done ex_c_end.1.1 /\ coherent ex_c_w.
Proof.
  destruct C96_calls_example as (H1 & H2 & H3 & H4 & H5 & H6 & H7 & _ & _ & E & _). split.
  - assert (w_disk (r_world ex_c_w) = r_disk ex_c_w) as Ed by exact eq_refl.
    revert H1 H2 H3 H4 H5 H6 Ed. generalize ex_c_ps, ex_c_w. intros ps w H1 H2 H3 H4 H5 H6 Ed.
    exact (apps_race_free any (r_disk w) ex_c_st true ex_c_ok H1 H2 (fun e => proj2 (H3 e)) H4 H5 ps (r_world w) Ed (fun e => proj1 (H3 e)) H6).
  - split; [|exact H7]. revert E. generalize ex_c_end.1.1. intros qs ->. intros [|[|[|n]]] q Hq; try discriminate; injection Hq as <-; by left.
Qed.
