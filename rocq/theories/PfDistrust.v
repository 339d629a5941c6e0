(** Devices with distrusted keys are left alone (C93). *)
From Verif Require Import Distrust Btbv PfStrs PfTyped PfFrame PfWp PfHist PfQuiet.
Open Scope prog_scope.
Open Scope list_scope.

Lemma obeys_both {A} (E E' : forall c : cmd, resp c -> Prop) (F F' : cmd -> Prop) (Q Q' : outcome A -> Prop) (p : api A) :
  obeys E F Q p -> obeys E' F' Q' p ->
  obeys (fun c r => E c r /\ E' c r) (fun c => F c /\ F' c) (fun o => Q o /\ Q' o) p.
Proof.
  induction p as [a|e|c k IH]; [by split|by split|]. intros [H1 H2] [H3 H4]. split; [by split|].
  intros r [Hr Hr']. apply IH; auto.
Qed.

Section distrust.
  Context (nss : list string) (Hsep : ns_separated nss).
  Context (d0 : gmap string json) (j : string) (x : Z) (ik : bytes) (level : string).
  (** [U]: nothing is queued for the device. Otherwise empty messages, with keys in [K], may be encrypted for it. *)
  Context (U : Prop) (K : pkm -> Prop).
  Definition NSd (ns : string) : Prop := ns ∈ nss.
  Definition unqueued (v : option json) : Prop := U -> forall u l, v = Some u -> is_list is_int u l -> x ∉ l.
  Definition dis (d : gmap string json) : Prop :=
    keyed d j x ik /\ d !! k_trust j ik = Some (JStr level) /\
    (forall ns, ns ∈ nss -> unqueued (d !! k_queue_jid ns j)) /\
    ((exists id, has_own id d0) -> d !! k_own = d0 !! k_own).
  Notation L := (Lof dis).
  Notation Wr := (Wof dis).
  Notation E1 := (PfFrame.E L NSd False).
  Notation F1 := (PfFrame.F Wr NSd False).
  Notation ob1 Q p := (obeys E1 F1 Q p).

  Definition at_dev (s : session) : Prop := s_jid s = j /\ s_dev s = x.
  Definition Es (c : cmd) (r : resp c) : Prop :=
    match c return resp c -> Prop with
    | TEval d => fun r => dv_jid d = j -> dv_ik d = ik -> dv_trust d = level -> forall t, r = Val t -> t = Distrusted
    | BLoadSession ns j' x' => fun r => match r with Val (Some s) => s_ns s = ns /\ s_jid s = j' /\ s_dev s = x' | _ => True end
    | BEncEmpty _ => fun r => match r with Val (_, p) => ~ U -> K p | _ => True end
    | BDecKey ns s _ => fun r => match r with Val (s', _) => s_ns s' = ns /\ s_jid s' = s_jid s /\ s_dev s' = s_dev s | _ => True end
    | BBuildPassive ns j' x' _ _ => fun r => match r with Val (s, _) => s_ns s = ns /\ s_jid s = j' /\ s_dev s = x' | _ => True end
    | _ => fun _ => True
    end r.
  Definition Fs (c : cmd) : Prop :=
    match c with
    | BEncKey _ s p => at_dev s -> ~ U /\ K p
    | BDecKey ns s _ => ~ at_dev s /\ s_ns s = ns
    | BBuildActive _ j' x' _ _ => ~ (j' = j /\ x' = x)
    | BBuildPassive _ j' x' _ _ => ~ (j' = j /\ x' = x)
    | _ => True
    end.
  Definition Ed (c : cmd) (r : resp c) : Prop := E1 c r /\ Es c r.
  Definition Fd (c : cmd) : Prop := F1 c /\ Fs c.
  Notation ob Q p := (obeys Ed Fd Q p).
  Notation any := (fun _ => True).

  Lemma Fs_quiet c : quiet_cmd c = true -> Fs c.
  Proof using Hsep K. by destruct c. Qed.
  Lemma lift {A} (Q : outcome A -> Prop) (p : api A) : ob1 Q p -> obeys Es Fs any p -> ob Q p.
  Proof using Hsep K. intros H1 H2. eapply obeys_conseq; [exact (obeys_both _ _ _ _ _ _ _ H1 H2)|]. by intros o []. Qed.

  (** ** What may be written *)
  Lemma dis_W k m :
    k <> k_ik j x -> k <> k_trust j ik -> (forall ns, ns ∈ nss -> k <> k_queue_jid ns j) ->
    (k = k_own -> ~ exists id, has_own id d0) -> Wr k m.
  Proof using Hsep K.
    intros H1 H2 H3 H4 d (K1 & K2 & K3 & K4).
    assert (forall k', k' <> k -> match m with Some v => <[k := v]> d | None => delete k d end !! k' = d !! k') as Hs.
    { intros k' Hp. destruct m; [by apply lookup_insert_ne|by apply lookup_delete_ne]. }
    set (d' := match m with Some v => _ | None => _ end) in *. clearbody d'.
    split; [|split; [|split]].
    - destruct K1 as (s & Hv & Hz). exists s. split; [|done]. change (d' !! k_ik j x = Some (JStr s)). by rewrite Hs by done.
    - by rewrite Hs by done.
    - intros ns Hns. rewrite Hs; [by apply K3|]. intros Ek. by apply (H3 ns).
    - intros Hi. rewrite Hs; [auto|]. intros <-. by apply H4.
  Qed.
  Lemma queue_ne n n' j' : n ∈ nss -> n' ∈ nss -> k_queue n <> k_queue_jid n' j'.
  Proof using Hsep K.
    intros Hn Hn' Hk. assert (IQueue n = IQueueDevices n' j') as He by (by apply (item_key_inj nss)). discriminate He.
  Qed.
  Lemma queue_inj n n' j' j2 : n ∈ nss -> n' ∈ nss -> k_queue_jid n j' = k_queue_jid n' j2 -> n = n' /\ j' = j2.
  Proof using Hsep K.
    intros Hn Hn' Hk. assert (IQueueDevices n j' = IQueueDevices n' j2) as He by (by apply (item_key_inj nss)). by injection He.
  Qed.

  Ltac dw := apply dis_W; [kneq|kneq|intros; kneq|let H := fresh in intros H; exfalso; revert H; kneq].

  Lemma dis_queue n m : n ∈ nss -> Wr (k_queue n) m.
  Proof using Hsep K. intros Hn. apply dis_W; [kneq|kneq|intros; by apply queue_ne|intros H; exfalso; revert H; kneq]. Qed.
  Lemma dis_queue_jid n j' m : n ∈ nss -> (j' = j -> unqueued m) -> Wr (k_queue_jid n j') m.
  Proof using Hsep K.
    intros Hn Hm. destruct (decide (j' = j)) as [->|Hne].
    - intros d (K1 & K2 & K3 & K4).
      assert (forall k', k' <> k_queue_jid n j ->
        match m with Some v => <[k_queue_jid n j := v]> d | None => delete (k_queue_jid n j) d end !! k' = d !! k') as Hs.
      { intros k' Hp. destruct m; [by apply lookup_insert_ne|by apply lookup_delete_ne]. }
      assert (match m with Some v => <[k_queue_jid n j := v]> d | None => delete (k_queue_jid n j) d end !! k_queue_jid n j = m) as Hx.
      { destruct m; [apply lookup_insert|apply lookup_delete]. }
      set (d' := match m with Some v => _ | None => _ end) in *. clearbody d'.
      split; [|split; [|split]].
      + destruct K1 as (s & Hv & Hz). exists s. split; [|done]. change (d' !! k_ik j x = Some (JStr s)). by rewrite Hs by kneq.
      + by rewrite Hs by kneq.
      + intros ns Hns. destruct (decide (k_queue_jid ns j = k_queue_jid n j)) as [->|Hk]; [rewrite Hx; by apply Hm|].
        rewrite Hs by done. by apply K3.
      + intros Hi. rewrite Hs by kneq. auto.
    - apply dis_W; [kneq|kneq| |intros H; exfalso; revert H; kneq]. intros ns Hns Hk. by apply queue_inj in Hk as [_ ?].
  Qed.
  Lemma dis_dev j' : wr_dev L Wr j'.
  Proof using Hsep K. spl; dw. Qed.
  Lemma dis_info j' : wr_info L Wr j'.
  Proof using Hsep K.
    split; [intros; dw|]. intros d b (d1 & ((s & Hs & _) & _) & Hn). dw. intros [= -> ->].
    change (d1 !! k_ik j x = Some (JStr s)) in Hs. congruence.
  Qed.
  Lemma dis_call c : upholds nss d0 j x ik level c ->
    match c with KEncrypt _ _ _ _ _ _ | KDecrypt _ _ | KAfter _ => False | _ => True end -> call_wr L Wr NSd c.
  Proof using Hsep K.
    intros Hc Hn. pose proof dis_dev as Hd. pose proof dis_info as Hi.
    assert (wr_ikp L Wr) as Hk by (intros _; split; [|intros b]; dw).
    destruct c; cbn [call_wr upholds] in *; try done; auto.
    - destruct Hc as [Hb Hc]. split; [done|]. split; [done|]. split; [done|]. split; [done|].
      intros (d1 & (_ & _ & _ & Kw) & Ho') k _.
      assert (~ exists id, has_own id d0) as Ho.
      { intros Ho. specialize (Kw Ho). destruct Ho as [id Ho]. change (d0 !! k_own = Some (JInt id)) in Ho. congruence. }
      assert (a_jid a <> j) as Hj by (destruct Hc; [done|tauto]).
      spl; [dw; congruence|dw; congruence|dw; congruence|].
      apply dis_W; [kneq|kneq|intros; kneq|done].
    - destruct (decide (jid = j /\ ik0 = ik)) as [[-> ->]|Hne]; [|dw; intros [= -> ->]; by apply Hne].
      rewrite Hc by done. intros d (K1 & K2 & K3 & K4).
      assert (forall k', <[k_trust j ik := JStr level]> d !! k' = d !! k') as Hs.
      { intros k'. destruct (decide (k' = k_trust j ik)) as [->|]; [by rewrite lookup_insert|by rewrite lookup_insert_ne]. }
      split; [|split; [|split]].
      + destruct K1 as (s & Hv & Hz). exists s. split; [|done]. change (<[k_trust j ik := JStr level]> d !! k_ik j x = Some (JStr s)). by rewrite Hs.
      + by rewrite Hs.
      + intros ns Hns. rewrite Hs. by apply K3.
      + intros Ho. rewrite Hs. by apply K4.
    - dw.
    - split; [done|]. spl; dw.
    - spl; dw; congruence.
  Qed.

  (** ** What device information says *)
  Definition good (d : device) : Prop :=
    (dv_jid d = j -> dv_id d = x -> dv_ik d = ik) /\ (dv_jid d = j -> dv_ik d = ik -> dv_trust d = level).
  Lemma ob_any {A} (check : json -> outcome A) k : ob1 any (load_checked check k).
  Proof using Hsep K. apply ob_load'; [done| |done]. intros v _. by destruct (check v). Qed.
  Lemma ob_then {A B} (p : api A) (f : A -> api B) (Q : outcome B -> Prop) :
    ob1 any p -> (forall a, ob1 Q (f a)) -> (forall e, Q (Exn e)) -> ob1 Q (bind p f).
  Proof using Hsep K. intros Hp Hf He. apply obeys_bind. eapply obeys_conseq; [exact Hp|]. intros [a|e] _; auto. Qed.
  Lemma rest_good cf jid dev nss' ik' :
    ob1 (fun o => match o with Val d => dv_jid d = jid /\ dv_id d = dev /\ dv_ik d = ik' /\ (jid = j -> ik' = ik -> dv_trust d = level) | Exn _ => True end)
      (dev_info_rest cf jid dev nss' ik').
  Proof using Hsep K.
    unfold dev_info_rest. apply ob_then; [apply ob_any| |done]. intros m. apply ob_then; [by destruct m| |done]. intros active.
    apply ob_then; [apply ob_any| |done]. intros m'. apply ob_then; [by destruct m'| |done]. intros label.
    assert (forall lv, (jid = j -> ik' = ik -> lv = level) ->
      ob1 (fun o => match o with Val d => dv_jid d = jid /\ dv_id d = dev /\ dv_ik d = ik' /\ (jid = j -> ik' = ik -> dv_trust d = level) | Exn _ => True end)
        (namespaces' <-
          (if forallb (fun ns => dmem ns active) nss' then Ret nss'
           else let ns' := set_inter nss' (dkeys active) in
                l <- order ns' ;;
                s_store (k_ns jid dev) (j_strs l) ;;;
                Ret ns') ;;
         Ret (Device namespaces' active jid dev ik' lv label))) as Hrest.
    { intros lv Hlv. apply ob_then; [|done|done]. destruct (forallb _ _); [done|]. apply ob_then; [done| |done]. intros l.
      apply ob_then; [|done|done]. split; [|intros r _; by destruct r]. cbn [PfFrame.F]. dw. }
    apply obeys_bind. apply ob_load'; [done| |].
    - intros v Hv. destruct v; try done. cbn [as_str or_type_error Model.maybe]. apply Hrest. intros -> ->.
      destruct Hv as (d & (_ & K2 & _) & Hv). rewrite K2 in Hv. by injection Hv.
    - intros HN. apply Hrest. intros -> ->. destruct HN as (d & (_ & K2 & _) & Hv). congruence.
  Qed.
  Lemma dev_good cf jid acc dev : Forall good acc.1 /\ Forall (fun d => dv_jid d = jid) acc.1 ->
    ob1 (fun o => match o with Val acc' => Forall good acc'.1 /\ Forall (fun d => dv_jid d = jid) acc'.1 | Exn _ => True end) (dev_info cf jid acc dev).
  Proof using Hsep K.
    intros [Ha Hb]. unfold dev_info. apply ob_then; [apply ob_any| |done]. intros m. apply ob_then; [by destruct m| |done]. intros l.
    assert (forall d, dv_jid d = jid -> good d -> Forall good (acc.1 ++ [d]) /\ Forall (fun d => dv_jid d = jid) (acc.1 ++ [d])) as Hs.
    { intros d Hd Hg. split; apply Forall_app; (split; [done|by apply Forall_singleton]). }
    apply obeys_bind. apply ob_load'; [done| |].
    - intros v Hv. destruct v; try done. destruct (b64dec s) as [ik1|] eqn:Eb; [|done]. cbn beta iota.
      apply obeys_bind. eapply obeys_conseq; [apply rest_good|]. intros [d|e]; [|done]. intros (D1 & D2 & D3 & D4).
      apply Hs; [done|]. split.
      + rewrite D1, D2, D3. intros -> ->. destruct Hv as (d1 & ((s1 & H1 & H2) & _) & Hv).
        change (d1 !! k_ik j x = Some (JStr s1)) in H1. congruence.
      + rewrite D1, D3. exact D4.
    - intros HN. apply ob_then; [done| |done]. intros nso.
      apply ob_then; [eapply obeys_conseq; [apply (f_find_key L Wr NSd False False)|done]; intros; by apply (dis_info jid)| |done].
      intros [b|]; [|done]. apply obeys_bind. eapply obeys_conseq; [apply rest_good|]. intros [d|e]; [|done]. intros (D1 & D2 & D3 & D4).
      apply Hs; [done|]. split.
      + rewrite D1, D2. intros -> ->. exfalso. destruct HN as (d1 & ((s1 & H1 & H2) & _) & Hv).
        change (d1 !! k_ik j x = Some (JStr s1)) in H1. congruence.
      + rewrite D1, D3. exact D4.
  Qed.
  Lemma info_good_ cf jid : ob1 (fun o => match o with Val r => Forall good r.1 /\ Forall (fun d => dv_jid d = jid) r.1 | Exn _ => True end) (get_device_information_ cf jid).
  Proof using Hsep K.
    unfold get_device_information_. apply ob_then; [apply ob_any| |done]. intros m. apply ob_then; [done| |done]. intros l.
    apply obeys_fold_prog with (L := fun r : list device * list bundle => Forall good r.1 /\ Forall (fun d => dv_jid d = jid) r.1);
      [split; constructor| |done].
    intros acc dev Ha _. by apply dev_good.
  Qed.
  Lemma d_info_ cf jid : ob (fun o => match o with Val r => Forall good r.1 | Exn _ => True end) (get_device_information_ cf jid).
  Proof using Hsep K.
    apply lift; [|apply q_info_, Fs_quiet]. eapply obeys_conseq; [apply info_good_|]. intros [r|e] H; [by destruct H|done].
  Qed.
  Lemma d_info cf jid : ob1 (fun o => match o with Val r => Forall good r /\ Forall (fun d => dv_jid d = jid) r | Exn _ => True end) (get_device_information cf jid).
  Proof using Hsep K. unfold get_device_information. apply obeys_bind. eapply obeys_conseq; [apply info_good_|]. by intros [r|e]. Qed.

  (** ** Calls that use sessions *)
  Lemma d_bind {A B} (p : api A) (f : A -> api B) : ob any p -> (forall v, ob any (f v)) -> ob any (bind p f).
  Proof using Hsep K. intros Hp Hf. apply obeys_bind. eapply obeys_conseq; [exact Hp|]. by intros [v|e] _; [apply Hf|]. Qed.
  Lemma d_bindq {A B} (Q : A -> Prop) (R : outcome B -> Prop) (p : api A) (f : A -> api B) :
    ob (fun o => match o with Val v => Q v | Exn _ => True end) p -> (forall v, Q v -> ob R (f v)) -> (forall e, R (Exn e)) -> ob R (bind p f).
  Proof using Hsep K. intros Hp Hf He. apply obeys_bind. eapply obeys_conseq; [exact Hp|]. intros [v|e] H; [by apply Hf|apply He]. Qed.
  Lemma d_outcome {A} (o : outcome A) : ob any (of_outcome o).
  Proof using Hsep K. by destruct o. Qed.
  Lemma d_cmd {A} c (f : resp c -> outcome A) : Fd c -> ob any (Step c (fun r => of_outcome (f r))).
  Proof using Hsep K. intros H. split; [done|]. intros r _. apply d_outcome. Qed.
  Lemma d_load {A} (check : json -> outcome A) k : ob any (load_checked check k).
  Proof using Hsep K. apply lift; [apply ob_any|]. apply q_load, Fs_quiet. Qed.
  Lemma d_order {A} (l : list A) : ob (fun o => match o with Val r => r ≡ₚ l | Exn _ => True end) (order l).
  Proof using Hsep K. split; [done|]. intros r _. cbn [obeys]. apply reorder_perm. Qed.
  Lemma d_ses ns j' x' : ob (fun o => match o with Val (Some s) => s_ns s = ns /\ s_jid s = j' /\ s_dev s = x' | _ => True end) (b_load_session ns j' x').
  Proof using Hsep K. split; [done|]. intros r [_ Hr]. simpl in Hr. by destruct r. Qed.

  Lemma d_empty cf ns s : (at_dev s -> ~ U) -> ob any (send_empty_message cf ns s).
  Proof using Hsep K.
    intros Hs. unfold send_empty_message. eapply (d_bindq (fun v => ~ U -> K v.2)); [| |done].
    { split; [done|]. intros r [_ Hr]. simpl in Hr. destruct r as [[c p]|]; [exact Hr|done]. }
    intros [c p] Hp. cbn [snd] in Hp. apply d_bind; [apply d_cmd; split; [done|]; intros Ha; auto|]. intros [s' e]. apply d_bind; [by apply d_cmd|]. intros _. by apply d_cmd.
  Qed.
  Lemma d_replace cf j' x' : ~ (j' = j /\ x' = x) -> ob any (replace_sessions cf j' x').
  Proof using Hsep K.
    intros Hn. apply lift; [eapply obeys_conseq; [apply (f_replace L Wr NSd False False), dis_info|done]|].
    assert (forall c, quiet_cmd c = true -> Fs c) as HF by exact Fs_quiet.
    unfold replace_sessions. apply q_bind; [by apply q_info|]. intros ds. destruct (filter _ ds); [done|].
    apply q_bind; [done|]. intros bks. apply q_bind.
    { apply q_filter. intros ns _. apply q_bind; [|done]. split; [done|]. intros r _. apply q_outcome. }
    intros wses. cbv zeta. apply q_bind; [done|]. intros bks'. apply q_fold. intros acc ns _. destruct (decide _) as [_|_]; [|done].
    apply q_bind; [|intros [?|e]; [done|]; by destruct (is_omemo e)]. apply q_try. unfold replace_one.
    apply q_bind; [split; [done|]; intros; apply q_outcome|]. intros [c p]. apply q_bind; [split; [done|]; intros; apply q_outcome|]. intros b.
    apply q_bind; [split; [done|]; intros; apply q_outcome|]. intros [s e]. apply q_bind; [split; [done|]; intros; apply q_outcome|].
    intros _. split; [done|]. intros. apply q_outcome.
  Qed.

  Lemma d_load_queue ns jid : ns ∈ nss ->
    ob (fun o => match o with Val m => U -> jid = j -> x ∉ default [] m | Exn _ => True end) (load_list as_int (k_queue_jid ns jid)).
  Proof using Hsep K.
    intros Hns. apply lift; [|apply q_load, Fs_quiet]. apply ob_load'; [done| |].
    - intros v Hv. destruct (check_list _ _ _ prim_int v) as [(l & Hl & ->)|[_ ->]]; [|done]. intros HU ->. simpl.
      destruct Hv as (d & (_ & _ & K3 & _) & Hv). eapply (K3 ns Hns HU); [by rewrite <- Hv|exact Hl].
    - intros _ _ _. simpl. set_solver.
  Qed.
  Lemma d_loaded : ob (fun o => match o with Val l => Forall NSd l | Exn _ => True end) g_loaded.
  Proof using Hsep K. split; [done|]. intros r [[_ [Hr _]] _]. exact Hr. Qed.
  Lemma d_delete k : Wr k None -> ob any (s_delete k).
  Proof using Hsep K. intros H. by apply d_cmd. Qed.
  Lemma d_store k v : Wr k (Some v) -> ob any (s_store k v).
  Proof using Hsep K. intros H. by apply d_cmd. Qed.
  Lemma d_for_each {A} (l : list A) f : (forall y, y ∈ l -> ob any (f y)) -> ob any (for_each l f).
  Proof using Hsep K. intros Hf. apply obeys_for_each; [|done]. intros y Hy. eapply obeys_conseq; [by apply Hf|]. by intros []. Qed.

  Lemma d_after cf : ob any (after_history_sync cf).
  Proof using Hsep K.
    unfold after_history_sync. apply d_bind; [done|]. intros _. eapply d_bindq; [apply d_loaded| |done]. intros l Hl.
    apply d_bind; [apply d_for_each; intros; by apply d_cmd|]. intros _. eapply d_bindq; [apply d_loaded| |done]. intros l' Hl'.
    apply d_for_each. intros ns Hns. assert (ns ∈ nss) as HN by (by eapply Forall_forall in Hl'). unfold flush_ns.
    apply d_bind; [apply d_load|]. intros m. cbv zeta. apply d_bind; [apply d_delete; by apply dis_queue|]. intros _.
    apply d_bind; [eapply obeys_conseq; [apply d_order|done]|]. intros jids. apply d_for_each. intros jid _. unfold flush_jid.
    eapply d_bindq; [by apply d_load_queue| |done]. intros m' Hm. cbv zeta.
    apply d_bind; [apply d_delete; by apply dis_queue_jid|]. intros _. eapply d_bindq; [apply d_order| |done]. intros devs Hp.
    apply d_for_each. intros dev Hd. unfold flush_dev.
    eapply (d_bindq (fun m => match m with Some s => s_ns s = ns /\ s_jid s = jid /\ s_dev s = dev | None => True end)); [eapply obeys_conseq; [apply d_ses|]; by intros [[]|]| |done].
    intros [s|] Hs; [|done]. apply d_empty. intros [E1 E2] HU. destruct Hs as (_ & E3 & E4).
    rewrite Hp in Hd. unfold pyset in Hd. rewrite elem_of_remove_dups in Hd. apply Hm; [done|congruence|]. rewrite <- E2, E4. by destruct m'.
  Qed.

  (** *** encrypt *)
  Lemma d_eval d : ob (fun o => match o with Val t => good d -> dv_jid d = j -> dv_ik d = ik -> t = Distrusted | Exn _ => True end) (t_eval d).
  Proof using Hsep K.
    split; [done|]. intros r [_ Hr]. simpl in Hr. destruct r as [t|e]; [|done]. cbn [of_outcome obeys]. intros [H1 H2] Hj Hi.
    eapply Hr; eauto.
  Qed.
  Lemma d_with t l : Forall good l ->
    ob (fun o => match o with Val r => Forall (fun d => d ∈ l /\ good d /\ (dv_jid d = j -> dv_ik d = ik -> t = Distrusted)) r | Exn _ => True end) (devices_with t l).
  Proof using Hsep K.
    intros Hl. unfold devices_with. eapply d_bindq; [apply d_order| |done]. intros l' Hp.
    assert (Forall good l' /\ forall d, d ∈ l' -> d ∈ l) as [Hg Hin].
    { split; [by rewrite Hp|]. intros d. by rewrite Hp. }
    clear Hp. induction l' as [|d l' IH]; [constructor|]. apply Forall_cons in Hg as [Hd Hg]. cbn [filter_prog].
    eapply (d_bindq (fun b : bool => b = true -> dv_jid d = j -> dv_ik d = ik -> t = Distrusted)).
    - eapply d_bindq; [apply d_eval| |done]. intros t' Ht. cbn [obeys]. intros Hb Hj Hi. apply bool_decide_eq_true in Hb as <-. by apply Ht.
    - intros b Hb. eapply d_bindq; [apply IH; [done|]; intros d' Hd'; apply Hin; by right| |done].
      intros r Hr. cbn [obeys]. destruct b; [|done]. constructor; [|done]. split; [apply Hin; left|]. split; [done|]. by apply Hb.
    - done.
  Qed.
  Lemma d_reload cf d : good d -> ob (fun o => match o with Val d' => good d' | Exn _ => True end) (reload_trust cf d).
  Proof using Hsep K.
    intros Hg. unfold reload_trust.
    eapply (d_bindq (fun m => dv_jid d = j -> dv_ik d = ik -> m = Some level)).
    - apply lift; [|apply q_load, Fs_quiet]. apply ob_load'; [done| |].
      + intros v Hv. destruct v; try done. cbn. intros E1 E2. rewrite E1, E2 in Hv. destruct Hv as (d1 & (_ & K2 & _) & Hv). congruence.
      + intros HN E1 E2. exfalso. rewrite E1, E2 in HN. destruct HN as (d1 & (_ & K2 & _) & Hv). congruence.
    - intros m Hm. destruct Hg as [G1 G2]. split; cbn [dv_jid dv_id dv_ik dv_trust]; [done|]. intros H1 H2. by rewrite (Hm H1 H2).
    - done.
  Qed.
  Definition away (d : device) : Prop := ~ (dv_jid d = j /\ dv_id d = x).
  Lemma d_trust cf mtd ident l :
    (forall ds i, Forall (fun d => ~ (dv_jid d = j /\ dv_ik d = ik)) ds -> ob any (mtd ds i)) -> Forall good l ->
    ob (fun o => match o with Val r => Forall away r | Exn _ => True end) (enc_trust cf mtd ident l).
  Proof using Hsep K.
    intros Hm Hl. unfold enc_trust. eapply d_bindq; [by apply d_with| |done]. intros und Hu.
    eapply (d_bindq (Forall good)); [| |done].
    - assert (Forall (fun d => ~ (dv_jid d = j /\ dv_ik d = ik)) und) as Hu'.
      { eapply Forall_impl; [exact Hu|]. intros d (_ & _ & Hd) [H1 H2]. by specialize (Hd H1 H2). }
      destruct und as [|u und]; [exact Hl|]. eapply (d_bindq any); [eapply obeys_conseq; [by apply Hm|]; by intros []| |done]. intros _ _.
      eapply d_bindq; [apply d_order| |done]. intros l' Hp. apply obeys_map_prog with (L := good); [|done].
      intros d Hd. apply d_reload. rewrite Hp in Hd. by eapply Forall_forall in Hl.
    - intros l' Hl'. eapply d_bindq; [by apply d_with| |done]. intros [|u und'] _; [|done].
      eapply obeys_conseq; [by apply d_with|]. intros [r|e]; [|done]. intros Hr. eapply Forall_impl; [exact Hr|].
      intros d (_ & [G1 _] & Hd) [H1 H2]. by specialize (Hd H1 (G1 H1 H2)).
  Qed.
  Lemma valid_good cf prio l l' : valid_recipients cf prio l = Some l' -> Forall good l -> Forall good l'.
  Proof using Hsep K.
    revert l'. induction l as [|d l IH]; intros l' H Hl; simpl in H; [by injection H as <-|].
    destruct (is_valid_recipient cf prio d) as [b|]; [|done]. simpl in H. destruct (valid_recipients cf prio l) as [r|]; [|done].
    simpl in H. injection H as <-. apply Forall_cons in Hl as [Hd Hl]. destruct b; [constructor|]; auto.
  Qed.
  Lemma priority_good prio l l' : mapM (apply_priority prio) l = Some l' -> Forall good l -> Forall good l'.
  Proof using Hsep K.
    intros H%mapM_Some Hl. induction H as [|d d' l l' Hd _ IH]; [done|]. apply Forall_cons in Hl as [Hg Hl]. constructor; [|auto].
    unfold apply_priority in Hd. destruct (active_namespaces _ _) as [a|]; [|done]. simpl in Hd. injection Hd as <-. exact Hg.
  Qed.
  Lemma kept {A} (R : A -> Prop) (T : A -> Prop) `{forall a, Decision (T a)} l : Forall R l -> Forall R (filter T l).
  Proof using. rewrite !Forall_forall. intros Hl a [_ Ha]%elem_of_list_filter. auto. Qed.
  Lemma d_enc_device ns p cache st keys d : away d -> Forall away (es_devices st) ->
    ob (fun o => match o with Val v => Forall away (es_devices v.1) | Exn _ => True end) (enc_device ns p cache (st, keys) d).
  Proof using Hsep K.
    intros Hd Hst. unfold enc_device. apply obeys_bind. eapply obeys_conseq; [apply d_ses|]. intros [m|e] Hm; [|done].
    apply obeys_bind. split; [done|]. intros code _. cbn [obeys]. cbv zeta. apply obeys_bind, obeys_try.
    eapply obeys_conseq with (Q := any).
    - destruct m as [s|].
      + apply d_cmd. split; [done|]. cbn [Fs]. destruct Hm as (_ & H1 & H2). intros [H3 H4]. exfalso. apply Hd. split; congruence.
      + destruct (head _); [by apply d_cmd|]. apply d_bind; [by apply d_cmd|]. intros b. by apply d_cmd.
    - intros [[s e]|e] _; cbn beta iota.
      + exact Hst.
      + destruct e; try exact I; cbn [obeys fst es_devices]; by apply kept.
  Qed.
  Lemma d_encrypt cf mtd jids pt prio ident :
    (forall ds i, Forall (fun d => ~ (dv_jid d = j /\ dv_ik d = ik)) ds -> ob any (mtd ds i)) ->
    ob any (encrypt cf mtd jids pt prio ident).
  Proof using Hsep K.
    intros Hm. unfold encrypt. apply d_bind; [by split|]. intros av. apply d_bind; [destruct prio; [by destruct (set_diff _ _)|done]|]. intros pr.
    cbv zeta. apply d_bind; [eapply obeys_conseq; [apply d_order|done]|]. intros js.
    apply (d_bindq (Forall (fun r : list device * list bundle => Forall good r.1))); [|intros tmp Ht|done].
    { apply obeys_map_prog with (L := fun r : list device * list bundle => Forall good r.1); [|done]. intros jid _. apply d_info_. }
    assert (Forall good (concat (map fst tmp))) as Hg.
    { induction Ht as [|r l Hr _ IH]; [constructor|]. simpl. by apply Forall_app. }
    apply (d_bindq (Forall good)); [|intros ds Hds|done].
    { destruct (valid_recipients cf pr _) as [v|] eqn:Ev; [|done]. by eapply valid_good. }
    apply (d_bindq (Forall good)); [|intros ds' Hds'|done].
    { destruct (mapM _ ds) as [v|] eqn:Ev; [|done]. by eapply priority_good. }
    eapply d_bindq; [apply d_trust; [done|by apply kept]| |done]. intros ds2 H2.
    eapply d_bindq; [apply d_loaded| |done]. intros bks _.
    apply (d_bindq (fun st => Forall away (es_devices st))).
    { apply obeys_fold_prog with (L := fun st => Forall away (es_devices st)); [done| |done]. intros st ns Hst _.
      unfold enc_backend. destruct (filter _ (es_devices st)) as [|d1 l1] eqn:Ef; [exact Hst|]. rewrite <- Ef. clear Ef d1 l1.
      set (fl := filter _ (es_devices st)). assert (Forall away fl) as Hfl by (by apply kept). clearbody fl.
      apply obeys_bind. eapply obeys_conseq with (Q := any); [by destruct (dget _ _)|]. intros [b|] _; [|done].
      apply obeys_bind. eapply obeys_conseq with (Q := any); [by apply d_cmd|]. intros [[c p]|] _; [|done].
      apply obeys_bind. eapply obeys_conseq; [apply d_order|]. intros [l|] Hl; [|done].
      apply obeys_bind. apply obeys_fold_prog with (L := fun v => Forall away (es_devices v.1)); [done| |].
      - intros [st' keys] d' Hst' Hd'. rewrite Hl in Hd'. apply d_enc_device; [by eapply Forall_forall in Hfl|done].
      - intros [st' keys] Hst'. exact Hst'. }
    2: done.
    intros st Hst. destruct (no_eligible _ _ _); [|done]. apply d_bind; [eapply obeys_conseq; [apply d_order|done]|]. intros ss.
    apply d_bind; [|done]. apply d_for_each. intros y _. by apply d_cmd.
  Qed.

  (** *** decrypt *)
  Lemma sender_good cf m : ob (fun o => match o with Val d => good d /\ dv_jid d = m_jid m /\ dv_id d = m_dev m | Exn _ => True end) (dec_sender cf m).
  Proof using Hsep K.
    apply lift; [|apply q_sender, Fs_quiet]. unfold dec_sender. apply obeys_bind. eapply obeys_conseq; [apply d_info|].
    assert (forall ds, Forall good ds /\ Forall (fun d => dv_jid d = m_jid m) ds -> forall d l, filter (fun d => dv_id d = m_dev m) ds = d :: l ->
      good d /\ dv_jid d = m_jid m /\ dv_id d = m_dev m) as Hf.
    { intros ds [H1 H2] d l Hl. assert (d ∈ filter (fun d => dv_id d = m_dev m) ds) as [Hd Hin]%elem_of_list_filter by (rewrite Hl; left).
      rewrite Forall_forall in H1, H2. auto. }
    intros [ds|e] Hds; [|done]. destruct (filter _ ds) as [|d l] eqn:Ef; [|by eapply Hf].
    apply ob_then; [eapply obeys_conseq; [apply (f_refresh L Wr NSd False False), dis_dev|done]| |done]. intros _.
    apply obeys_bind. eapply obeys_conseq; [apply d_info|]. intros [ds'|e] Hds'; [|done].
    destruct (filter _ ds') as [|d l] eqn:Ef'; [done|]. by eapply Hf.
  Qed.
  Lemma d_decrypt cf m : ob any (decrypt cf m).
  Proof using Hsep K.
    unfold decrypt. eapply d_bindq; [apply d_loaded| |done]. intros bks Hb. destruct (decide _) as [Hns|_]; [|done].
    assert (m_ns m ∈ nss) as HN by (by eapply Forall_forall in Hb). cbv zeta.
    apply d_bind; [eapply obeys_conseq; [apply d_order|done]|]. intros keys. destruct (filter _ keys) as [|[e mk] l]; [done|].
    eapply d_bindq; [apply sender_good| |done]. intros d (Hg & Hj & Hx). eapply d_bindq; [apply d_eval| |done]. intros t Ht.
    destruct (decide _) as [_|Hnt]; [done|].
    assert (~ (dv_jid d = j /\ dv_id d = x)) as Haway.
    { intros [H1 H2]. apply Hnt, Ht; [done|done|]. by apply Hg. }
    apply (d_bindq (fun v => s_ns v.1 = m_ns m /\ ~ at_dev v.1)); [|intros [s p] [Hs Ha]|done].
    { assert (forall s, s_ns s = m_ns m /\ s_jid s = dv_jid d /\ s_dev s = dv_id d ->
        ob (fun o => match o with Val v => s_ns v.1 = m_ns m /\ ~ at_dev v.1 | Exn _ => True end) (b_dec_key (m_ns m) s e)) as Hdec.
      { intros s (H1 & H2 & H3). split; [split; [done|]; split; [|done]; unfold at_dev; by rewrite H2, H3|]. intros r [_ Hr]. simpl in Hr.
        destruct r as [[s' q]|]; [|done]. cbn [of_outcome obeys fst]. destruct Hr as (E1 & E2 & E3). split; [done|]. unfold at_dev. by rewrite E2, E3, H2, H3. }
      destruct mk as [k|].
      - unfold dec_kex. destruct (decide _) as [_|_]; [|done]. apply obeys_bind. eapply obeys_conseq; [apply d_ses|]. intros [m0|] Hm; [|done].
        apply obeys_bind. eapply (obeys_conseq _ _ (fun o => match o with Val (Some s) => s_ns s = m_ns m /\ s_jid s = dv_jid d /\ s_dev s = dv_id d | _ => True end)).
        + destruct m0 as [s|]; [|done]. destruct (decide _) as [_|_]; [|done]. apply obeys_bind. split; [done|]. intros r _. cbn [obeys]. by destruct r.
        + intros [[s|]|] Hs; [by apply Hdec| |done]. split; [by split|]. intros r [_ Hr]. simpl in Hr. destruct r as [[s' q]|]; [|done].
          cbn [of_outcome obeys fst]. destruct Hr as (E1 & E2 & E3). split; [done|]. unfold at_dev. by rewrite E2, E3.
      - unfold dec_existing. apply obeys_bind. eapply obeys_conseq; [apply d_ses|]. intros [[s|]|] Hs; [by apply Hdec|done|done]. }
    apply d_bind. { destruct (ct_empty _); [done|]. apply d_bind; [by apply d_cmd|]. done. } intros pl.
    apply d_bind; [by apply d_cmd|]. intros _. apply d_bind.
    { destruct mk; [|done]. unfold dec_prekeys. apply d_bind; [done|]. intros sync. apply d_bind; [destruct sync; by apply d_cmd|].
      intros [|]; [|done]. apply d_bind; [by apply d_cmd|]. intros n. apply d_bind; [destruct (_ <=? _)%Z; [by apply d_cmd|done]|]. intros _.
      apply d_bind; [by apply d_cmd|]. intros b. by apply d_cmd. }
    intros _. apply d_bind; [|done]. destruct (_ || _); [|done]. unfold dec_respond. apply d_bind; [done|]. intros [|]; [|apply d_empty; intros; by exfalso].
    apply d_bind; [apply d_load|]. intros q. apply d_bind; [eapply obeys_conseq; [apply d_order|done]|]. intros l1. cbn [fst] in Hs, Ha. rewrite Hs.
    apply d_bind; [apply d_store; by apply dis_queue|]. intros _. eapply d_bindq; [by apply d_load_queue| |done]. intros q' Hq.
    eapply d_bindq; [apply d_order| |done]. intros l2 Hl2. apply d_store. apply dis_queue_jid; [done|]. intros Hj' HU u l3 [= <-] Hl3.
    rewrite (is_list_fun is_int _ l3 l2 is_int_fun Hl3 (is_ints l2)). rewrite Hl2. intros Hin.
    assert (x = s_dev s \/ x ∈ default [] q') as [Hx'|Hx'].
    { unfold set_add, pyset in Hin. case_decide as Hc; [right|apply elem_of_app in Hin as [Hin|Hin]; [right|left; by apply elem_of_list_singleton in Hin]].
      all: rewrite elem_of_remove_dups in Hin; by destruct q'. }
    - apply Ha. split; congruence.
    - by apply Hq.
  Qed.

  Lemma d_call c : upholds nss d0 j x ik level c -> (forall cf mtd jids pt prio ident, c <> KEncrypt cf mtd jids pt prio ident) ->
    ob any (run_call c).
  Proof using Hsep K.
    intros Hc Hne.
    assert (match c with KEncrypt _ _ _ _ _ _ | KDecrypt _ _ | KAfter _ | KReplace _ _ _ => False | _ => True end -> ob any (run_call c)) as Hq.
    { intros Hk. apply lift; [|by apply q_call; [apply Fs_quiet|]].
      eapply obeys_conseq; [apply (f_call L Wr NSd False False)|done]; [apply dis_call; [done|by destruct c]|].
      intros. by exfalso; eapply Hne. }
    destruct c; try (by apply Hq); cbn [run_call call_ret].
    - by apply d_replace.
    - apply d_after.
    - by exfalso; eapply Hne.
    - apply d_decrypt.
  Qed.
  Lemma d_heeds (ok : call -> Prop) {A} (p : api A) : (forall c, ok c -> upholds nss d0 j x ik level c) -> heeds j ik ok p -> ob any p.
  Proof using Hsep K.
    intros Hok H. induction H as [A a|A e|A B p f Hp IHp Hf IHf|A p Hp IHp|c Hc|c Hc Hm|cf mtd jids pt prio ident Hp IHp].
    - done.
    - done.
    - by apply d_bind.
    - apply obeys_try. eapply obeys_conseq; [exact IHp|]. done.
    - split; [by destruct c|]. done.
    - by apply d_call; [apply Hok|].
    - by apply d_encrypt.
  Qed.

  (** ** Over histories *)
  Context (P : world -> forall c, resp c -> Prop).
  Context (HP : forall w c r, P w c r -> sessions_named w c r /\ distrusts j ik level w c r /\ (~ U -> empties K w c r)).
  Definition shunned (e : event) : Prop := shuns_but (fun p => ~ U /\ K p) j x e.
  Definition dinv (l0 : list event) (w : world) : Prop :=
    dis (w_disk w) /\ Forall NSd (w_loaded w) /\ exists new, w_log w = new ++ l0 /\ Forall shunned new.
  Lemma dinv_step l0 w c r : dinv l0 w -> Fd c -> allowed (with_contract P) w c r -> Ed c r /\ dinv l0 (Prog.apply (with_contract P) w c r).
  Proof using Hsep K HP.
    intros (HD & HL & new & El & Hn) [HF HFs] [Hr HPr]. apply HP in HPr as (Hs & Ht & Hm). split; [split; [split|]|].
    - by exists w.
    - destruct c; try done; simpl in *.
      + destruct r; [|done]. rewrite Hr. by exists (w_disk w).
      + subst r. split; [exact HL|done].
      + destruct r as [[s' q]|]; [|done]. destruct Hs as (E1' & _ & _). intros Hin. by rewrite E1'.
      + destruct r as [[s' q]|]; [|done]. destruct Hs as (E1' & _ & _). destruct HFs as [_ E2']. intros Hin. by rewrite E1', E2'.
    - destruct c; try done; simpl in *.
      + destruct r as [[c p]|]; [exact Hm|done].
      + destruct r as [[s' q]|]; [|done]. destruct Hs as (-> & E2 & E3). destruct HFs as [_ ->]. done.
    - change (dinv l0 (w_apply w c r)). unfold dinv.
      assert (dis (w_disk (w_apply w c r)) /\ Forall NSd (w_loaded (w_apply w c r))) as [H1 H2].
      { destruct c; simpl in *; try done; try (destruct r; simpl; auto; fail).
        split; [done|]. by destruct HF. }
      split; [done|]. split; [done|]. unfold w_apply.
      assert (w_log (effect w c r) = w_log w) as Ew by (destruct c; try done; by destruct r).
      destruct (event_of c r) as [e|] eqn:Ee; cbn [log w_log]; rewrite Ew, El; [|eauto].
      exists (e :: new). split; [done|]. constructor; [|done]. destruct c; try discriminate Ee; injection Ee as <-; try exact I; try exact HFs.
      by destruct HFs.
  Qed.
  Lemma dinv_hist (ok : call -> Prop) l0 w w' : (forall c, ok c -> upholds nss d0 j x ik level c) -> heeding P nss j ik ok w w' -> dinv l0 w -> dinv l0 w'.
  Proof using Hsep K HP.
    intros Hok. induction 1 as [|w w1 w' (ps & cfg' & Hps & Hr & Hd & Hl & Hn) _ IH]; [done|].
    intros Hw. apply IH. eapply (psafe_preach (with_contract P) (dinv l0)) in Hr; [|exact Hw|].
    - destruct Hr as [(H1 & H2 & H3) _]. unfold dinv. rewrite Hd, Hl. split; [done|]. split; [|done]. exact Hn.
    - eapply Forall_impl; [exact Hps|]. intros p Hp. eapply (obeys_psafe (with_contract P) _ Ed Fd); [apply dinv_step|].
      by eapply d_heeds.
  Qed.
End distrust.

Lemma distrusted_but (U : Prop) (K : pkm -> Prop) (P : world -> forall c, resp c -> Prop) nss (ok : call -> Prop) w w' j x ik level :
  ns_separated nss -> (forall w c r, P w c r -> sessions_named w c r /\ distrusts j ik level w c r /\ (~ U -> empties K w c r)) ->
  marked (w_disk w) j x ik level -> (U -> forall ns, ns ∈ nss -> ~ queued_dev (w_disk w) ns j x) -> Forall (.∈ nss) (w_loaded w) ->
  (forall c, ok c -> upholds nss (w_disk w) j x ik level c) -> heeding P nss j ik ok w w' ->
  marked (w_disk w') j x ik level /\ exists evs, w_log w' = evs ++ w_log w /\ Forall (shuns_but (fun p => ~ U /\ K p) j x) evs.
Proof.
  intros Hsep HP [H1 H2] Hq Hl Hok Hh.
  apply (dinv_hist nss Hsep (w_disk w) j x ik level U K P HP ok (w_log w)) in Hh as ((K1 & K2 & _) & _ & new & El & Hn); [|done|].
  - split; [by split|]. by exists new.
  - split; [|split; [done|by exists []]]. split; [done|]. split; [done|]. split; [|done].
    intros ns Hns HU u l Hu Hul Hx. apply (Hq HU ns Hns). exists l. split; [|done]. by exists u.
Qed.
Lemma distrusted_shunned (P : world -> forall c, resp c -> Prop) nss (ok : call -> Prop) w w' j x ik level :
  ns_separated nss -> (forall w c r, P w c r -> sessions_named w c r /\ distrusts j ik level w c r) ->
  marked (w_disk w) j x ik level -> (forall ns, ns ∈ nss -> ~ queued_dev (w_disk w) ns j x) -> Forall (.∈ nss) (w_loaded w) ->
  (forall c, ok c -> upholds nss (w_disk w) j x ik level c) -> heeding P nss j ik ok w w' ->
  marked (w_disk w') j x ik level /\ exists evs, w_log w' = evs ++ w_log w /\ Forall (shuns_but (fun _ => False) j x) evs.
Proof.
  intros Hsep HP Hm Hq Hl Hok Hh.
  destruct (distrusted_but True (fun _ => True) P nss ok w w' j x ik level) as (H1 & evs & H2 & H3); try done.
  - intros w0 c r Hr. destruct (HP _ _ _ Hr). split; [done|]. split; [done|]. by intros [].
  - split; [done|]. exists evs. split; [done|]. eapply Forall_impl; [exact H3|]. intros []; simpl; tauto.
Qed.
Lemma distrusted_empties (K : pkm -> Prop) (P : world -> forall c, resp c -> Prop) nss (ok : call -> Prop) w w' j x ik level :
  ns_separated nss -> (forall w c r, P w c r -> sessions_named w c r /\ distrusts j ik level w c r /\ empties K w c r) ->
  marked (w_disk w) j x ik level -> Forall (.∈ nss) (w_loaded w) ->
  (forall c, ok c -> upholds nss (w_disk w) j x ik level c) -> heeding P nss j ik ok w w' ->
  marked (w_disk w') j x ik level /\ exists evs, w_log w' = evs ++ w_log w /\ Forall (shuns_but K j x) evs.
Proof.
  intros Hsep HP Hm Hl Hok Hh.
  destruct (distrusted_but False K P nss ok w w' j x ik level) as (H1 & evs & H2 & H3); try done.
  - intros w0 c r Hr. destruct (HP _ _ _ Hr) as (? & ? & ?). done.
  - split; [done|]. exists evs. split; [done|]. eapply Forall_impl; [exact H3|]. intros []; simpl; tauto.
Qed.

(** BTBV's trust decision leaves the distrusted key alone when it is not asked about it. *)
Lemma btbv_heeds j ik (ok : call -> Prop) cf prompt : (forall jid, ok (KGetInfo cf jid)) ->
  (forall j' ik', ~ (j' = j /\ ik' = ik) -> ok (KSetTrust j' ik' "BLINDLY_TRUSTED"%string)) ->
  (forall ds i, Forall (fun d => ~ (dv_jid d = j /\ dv_ik d = ik)) ds -> heeds j ik ok (prompt ds i)) ->
  forall ds i, Forall (fun d => ~ (dv_jid d = j /\ dv_ik d = ik)) ds -> heeds j ik ok (btbv_mtd cf prompt ds i).
Proof.
  intros Hi Ht Hp ds i Hds. unfold btbv_mtd. apply he_bind; [apply (he_bind _ _ _ _ _ (act CPerm)); [by apply he_cmd|intros; constructor]|].
  intros jids. apply he_bind.
  - generalize (@nil string, @nil string). induction jids as [|jid jids IH]; intros acc; [constructor|]. cbn [fold_prog].
    apply he_bind; [|intros; apply IH]. apply he_bind; [apply (he_call _ _ _ (KGetInfo cf jid)); [done|discriminate]|]. intros l.
    apply he_bind; [apply (he_bind _ _ _ _ _ (act CPerm)); [by apply he_cmd|intros; constructor]|]. intros l'.
    apply he_bind; [|intros; constructor]. destruct (btbv_all_blind l'); constructor.
  - intros pools. cbv zeta. apply he_bind.
    + destruct (filter (fun d => dv_jid d ∈ pools.1) ds) as [|d0 l0] eqn:Ef; [constructor|]. rewrite <- Ef.
      set (fl := filter _ ds). assert (Forall (fun d => ~ (dv_jid d = j /\ dv_ik d = ik)) fl) as Hfl by (by apply kept). clearbody fl.
      apply (he_bind _ _ _ _ _ (act CPerm) (fun code => for_each (reorder code fl) (fun d => set_trust (dv_jid d) (dv_ik d) "BLINDLY_TRUSTED"%string) ;;; t_blind fl i)).
      { by apply he_cmd. }
      intros code. apply he_bind.
      * assert (Forall (fun d => ~ (dv_jid d = j /\ dv_ik d = ik)) (reorder code fl)) as Hr by (by rewrite reorder_perm).
        induction Hr as [|d l Hd _ IH]; [constructor|]. cbn [for_each]. apply he_bind; [|done].
        apply (he_call _ _ _ (KSetTrust (dv_jid d) (dv_ik d) "BLINDLY_TRUSTED"%string)); [by apply Ht|discriminate].
      * intros _. apply (he_bind _ _ _ _ _ (act (TBlind fl i)) of_outcome); [by apply he_cmd|]. intros [a|e]; constructor.
    + intros _. destruct (filter (fun d => dv_jid d ∈ pools.2) ds) as [|d0 l0] eqn:Ef; [constructor|]. rewrite <- Ef. apply Hp. by apply kept.
Qed.
