(** Manual decisions are not overwritten by blind trust (C92). *)
From Verif Require Import Api Spec Alone Btbv PfStrs PfTyped PfFrame PfWp PfHist PfBtbv.
Open Scope prog_scope.
Open Scope list_scope.

Section manual.
  Context (d0 : gmap string json) (j : string) (x : Z) (ik : bytes).
  Definition mlevel (v : option json) : Prop := exists level, v = Some (JStr level) /\ manual_level level.
  Definition man (d : gmap string json) : Prop :=
    known d j x /\ keyed d j x ik /\ mlevel (d !! k_trust j ik) /\
    (forall ik', d !! k_trust j ik' = d0 !! k_trust j ik' \/ mlevel (d !! k_trust j ik')) /\
    ((exists id, has_own id d0) -> d !! k_own = d0 !! k_own).
  Notation L := (Lof man).
  Notation Wr := (Wof man).
  Let NS (_ : string) : Prop := True.
  Notation ob Q p := (obeys (E L NS False) (F Wr NS False) Q p).

  (** ** What may be written *)
  Lemma man_W k m :
    k <> k_list j -> k <> k_ik j x -> (forall ik', k <> k_trust j ik') -> (k = k_own -> ~ exists id, has_own id d0) -> Wr k m.
  Proof.
    intros H1 H2 H3 H4 d (K1 & K2 & K3 & K4 & K5).
    assert (forall k', k' <> k -> match m with Some v => <[k := v]> d | None => delete k d end !! k' = d !! k') as Hs.
    { intros k' Hp. destruct m; [by apply lookup_insert_ne|by apply lookup_delete_ne]. }
    set (d' := match m with Some v => _ | None => _ end) in *. clearbody d'.
    split; [|split; [|split; [|split]]].
    - destruct K1 as (zs & (v & Hv & Hz) & Hx). exists zs. split; [|done]. exists v. split; [|done].
      change (d' !! k_list j = Some v). by rewrite Hs by done.
    - destruct K2 as (s & Hv & Hz). exists s. split; [|done]. change (d' !! k_ik j x = Some (JStr s)). by rewrite Hs by done.
    - by rewrite Hs by done.
    - intros ik'. rewrite Hs by done. apply K4.
    - intros Hi. rewrite Hs; [auto|]. intros <-. by apply H4.
  Qed.
  Lemma man_list m l : L (k_list j) m -> (forall v l0 y, m = Some v -> is_list is_int v l0 -> y ∈ l0 -> y ∈ l) -> Wr (k_list j) (Some (j_ints l)).
  Proof.
    intros (d1 & (K1 & _) & ->) Hl d (_ & K2 & K3 & K4 & K5).
    destruct K1 as (zs & (v & Hv & Hz) & Hx). pose proof (Hl v zs x Hv Hz Hx) as Hxl.
    assert (forall k', k' <> k_list j -> <[k_list j := j_ints l]> d !! k' = d !! k') as Hs.
    { intros k' Hp. by apply lookup_insert_ne. }
    split; [|split; [|split; [|split]]].
    - exists l. split; [|done]. exists (j_ints l). split; [apply lookup_insert|apply is_ints].
    - destruct K2 as (s & Hvs & Hzs). exists s. split; [|done]. change (<[k_list j := j_ints l]> d !! k_ik j x = Some (JStr s)). by rewrite Hs by kneq.
    - by rewrite Hs by kneq.
    - intros ik'. rewrite Hs by kneq. apply K4.
    - intros Hi. rewrite Hs by kneq. auto.
  Qed.
  Lemma man_trust ik' level : manual_level level -> Wr (k_trust j ik') (Some (JStr level)).
  Proof.
    intros Hl d (K1 & K2 & K3 & K4 & K5).
    assert (forall k', k' <> k_trust j ik' -> <[k_trust j ik' := JStr level]> d !! k' = d !! k') as Hs.
    { intros k' Hp. by apply lookup_insert_ne. }
    split; [|split; [|split; [|split]]].
    - destruct K1 as (zs & (v & Hv & Hz) & Hx). exists zs. split; [|done]. exists v. split; [|done].
      change (<[k_trust j ik' := JStr level]> d !! k_list j = Some v). by rewrite Hs by kneq.
    - destruct K2 as (s & Hvs & Hzs). exists s. split; [|done]. change (<[k_trust j ik' := JStr level]> d !! k_ik j x = Some (JStr s)). by rewrite Hs by kneq.
    - destruct (decide (k_trust j ik = k_trust j ik')) as [->|Hn]; [rewrite lookup_insert; by exists level|by rewrite Hs].
    - intros ik2. destruct (decide (k_trust j ik2 = k_trust j ik')) as [->|Hn]; [right; rewrite lookup_insert; by exists level|rewrite Hs by done; apply K4].
    - intros Hi. rewrite Hs by kneq. auto.
  Qed.

  Ltac mw := apply man_W; [kneq|kneq|intros; kneq|let H := fresh in intros H; exfalso; revert H; kneq].

  Lemma man_dev j' : wr_dev L Wr j'.
  Proof.
    spl; [mw|mw|mw|]. destruct (decide (j' = j)) as [->|Hn]; [by eapply man_list|]. mw; congruence.
  Qed.
  Lemma man_info j' : wr_info L Wr j'.
  Proof.
    split; [intros; mw|]. intros d b (d1 & (_ & (s & Hs & _) & _) & Hn). mw. intros [= -> ->].
    change (d1 !! k_ik j x = Some (JStr s)) in Hs. congruence.
  Qed.
  Lemma man_call c : keeps_decisions d0 j c -> call_wr L Wr NS c.
  Proof.
    intros Hc. pose proof man_dev as Hd. pose proof man_info as Hi.
    assert (wr_queue Wr NS) as Hq by (spl; mw).
    assert (wr_ikp L Wr) as Hk by (intros _; split; [|intros b]; mw).
    destruct c; cbn [call_wr keeps_decisions] in *; auto.
    - split; [done|]. split; [by apply Forall_forall|]. split; [done|]. split; [done|].
      intros (d1 & (_ & _ & _ & _ & K) & Hn) k _.
      assert (~ exists id, has_own id d0) as Ho.
      { intros Ho. specialize (K Ho). destruct Ho as [id Ho]. change (d0 !! k_own = Some (JInt id)) in Ho. congruence. }
      assert (a_jid a <> j) as Hj by (destruct Hc; [done|tauto]).
      spl; [mw; congruence|mw; congruence|mw; congruence|].
      apply man_W; [kneq|kneq|intros; kneq|done].
    - destruct Hc as [Hc|Hc]; [mw; congruence|]. destruct (decide (jid = j)) as [->|Hn]; [by apply man_trust|mw; congruence].
    - mw.
    - split; [done|]. spl; mw.
    - spl; mw; congruence.
  Qed.

  (** ** What the decision sees *)
  Lemma ob_any {A} (check : json -> outcome A) k : ob (fun _ => True) (load_checked check k).
  Proof. apply ob_load'; [done| |done]. intros v _. by destruct (check v). Qed.
  Lemma ob_then {A B} (p : api A) (f : A -> api B) (Q : outcome B -> Prop) :
    ob (fun _ => True) p -> (forall a, ob Q (f a)) -> (forall e, Q (Exn e)) -> ob Q (bind p f).
  Proof. intros Hp Hf He. apply obeys_bind. eapply obeys_conseq; [exact Hp|]. intros [a|e] _; auto. Qed.
  Lemma rest_manual cf dev nss : ob (fun o => match o with Val d => manual_level (dv_trust d) | Exn _ => True end) (dev_info_rest cf j dev nss ik).
  Proof.
    unfold dev_info_rest. apply ob_then; [apply ob_any| |done]. intros m. apply ob_then; [by destruct m| |done]. intros active.
    apply ob_then; [apply ob_any| |done]. intros m'. apply ob_then; [by destruct m'| |done]. intros label.
    apply obeys_bind. apply ob_load'; [done| |].
    - intros v (d & (_ & _ & (lv & Hl & Hm) & _) & Hv). rewrite Hl in Hv. injection Hv as ->. cbn [as_str or_type_error Model.maybe].
      apply ob_then; [|done|done]. destruct (forallb _ _); [done|]. apply ob_then; [done| |done]. intros l.
      apply ob_then; [|done|done]. split; [|intros r _; by destruct r]. cbn [F]. apply (man_info j).
    - intros (d & (_ & _ & (lv & Hl & Hm) & _) & Hv). congruence.
  Qed.
  Definition seen (ds : list device) : Prop := exists d, d ∈ ds /\ manual_level (dv_trust d).
  Lemma dev_manual cf acc dev :
    ob (fun o => match o with Val acc' => (seen acc.1 -> seen acc'.1) /\ (dev = x -> seen acc'.1) | Exn _ => True end) (dev_info cf j acc dev).
  Proof.
    unfold dev_info. apply ob_then; [apply ob_any| |done]. intros m. apply ob_then; [by destruct m| |done]. intros l.
    assert (forall d, seen acc.1 -> seen (acc.1 ++ [d])) as Hs.
    { intros d (d1 & ? & ?). exists d1. split; [|done]. apply elem_of_app. by left. }
    pose proof (f_info_rest L Wr NS False False cf j dev (pyset l)) as Hr.
    apply obeys_bind. apply ob_load'; [done| |].
    - intros v Hv. destruct v; try done. destruct (b64dec s) as [ik1|] eqn:Eb; [|done]. cbn beta iota.
      apply obeys_bind. destruct (decide (dev = x)) as [->|Hn].
      + destruct Hv as (d & (_ & (s1 & H1 & H2) & _) & Hv). change (d !! k_ik j x = Some (JStr s1)) in H1.
        assert (ik1 = ik) as -> by congruence.
        eapply obeys_conseq; [apply rest_manual|]. intros [dv|e] Hm; [|done]. split; [apply Hs|]. intros _. exists dv. split; [set_solver|done].
      + eapply obeys_conseq; [apply Hr; apply (man_info j)|]. intros [dv|e] Hm; [|done]. split; [apply Hs|done].
    - intros HN. assert (dev <> x) as Hn.
      { intros ->. destruct HN as (d & (_ & (s1 & H1 & H2) & _) & Hv). change (d !! k_ik j x = Some (JStr s1)) in H1. congruence. }
      apply ob_then; [done| |done]. intros nso. apply ob_then; [eapply obeys_conseq; [apply (f_find_key L Wr NS False False)|done]; intros; by apply (man_info j)| |done].
      intros [b|]; [|done]. apply obeys_bind. eapply obeys_conseq; [apply Hr; apply (man_info j)|]. intros [dv|e] Hm; [|done]. split; [apply Hs|done].
  Qed.
  Lemma info_manual cf : ob (fun o => match o with Val ds => seen ds | Exn _ => True end) (get_device_information cf j).
  Proof.
    unfold get_device_information. apply obeys_bind.
    apply obeys_conseq with (Q := fun o => match o with Val r => seen r.1 | Exn _ => True end); [|by intros [[]|]].
    assert (forall l acc, x ∈ l \/ seen acc.1 -> ob (fun o => match o with Val r => seen r.1 | Exn _ => True end) (fold_prog l (dev_info cf j) acc)) as Hf.
    { induction l as [|y l IH]; intros acc Hl; [destruct Hl as [?%elem_of_nil|]; done|]. cbn [fold_prog]. apply obeys_bind.
      eapply obeys_conseq; [apply dev_manual|]. intros [acc'|e]; [|done]. intros [H1 H2]. apply IH.
      destruct Hl as [[->|Hl]%elem_of_cons|Hl]; auto. }
    unfold get_device_information_. apply obeys_bind. apply ob_load'; [done| |].
    - intros v (d & (K1 & _) & Hv). destruct K1 as (zs & (v1 & Hv1 & Hz) & Hx). change (d !! k_list j = Some v1) in Hv1.
      assert (v1 = v) as -> by congruence. destruct (check_list _ _ _ prim_int v) as [(l0 & Hl0 & ->)|[Hn _]]; [|by apply Hn in Hz].
      rewrite (is_list_fun is_int v zs l0 is_int_fun Hz Hl0) in Hx. apply obeys_bind. split; [done|]. intros r _. cbn [obeys Model.maybe].
      apply Hf. left. rewrite reorder_perm. unfold pyset. by apply elem_of_remove_dups.
    - intros (d & (K1 & _) & Hv). destruct K1 as (zs & (v1 & Hv1 & Hz) & Hx). change (d !! k_list j = Some v1) in Hv1. congruence.
  Qed.

  (** ** The decision *)
  Lemma mtd_manual cf prompt und ident : (forall ds i, ob (fun _ => True) (prompt ds i)) -> ob (fun _ => True) (btbv_mtd cf prompt und ident).
  Proof.
    intros Hp. unfold btbv_mtd. apply ob_then; [done| |done]. intros jids. apply obeys_bind.
    apply obeys_fold_prog with (L := fun acc : list string * list string => j ∉ acc.1).
    - set_solver.
    - intros acc jid Ha _. apply obeys_bind.
      apply obeys_conseq with (Q := fun o => match o with Val ds => jid = j -> seen ds | Exn _ => True end).
      { destruct (decide (jid = j)) as [->|Hn].
        - eapply obeys_conseq; [apply info_manual|]. by intros [ds|e].
        - eapply obeys_conseq; [apply (f_get_info L Wr NS False False), man_info|]. by intros [ds|e]. }
      intros [ds|e] Hs; [|done]. apply obeys_bind. split; [done|]. intros r _. cbn [obeys].
      pose proof (all_blind (reorder r ds)) as Hb. destruct (btbv_all_blind (reorder r ds)) as [[|]|e]; cbn [of_outcome bind obeys]; [| |done].
      + intros Hj. apply elem_of_app in Hj as [Hj|Hj%elem_of_list_singleton]; [done|]. subst jid. destruct (Hs eq_refl) as (d & Hd & Hm).
        assert (blind_level (dv_trust d)) as Hbl by (apply Hb; by rewrite reorder_perm).
        destruct Hm as [Hm|Hm], Hbl as [Hbl|Hbl]; congruence.
      + done.
    - intros [b m] Ha. cbn [fst snd]. cbn [fst] in Ha. apply ob_then; [| |done].
      + destruct (filter _ und) as [|d ds] eqn:Ef; [done|]. rewrite <- Ef. clear Ef d ds.
        set (und' := filter _ und). assert (forall d, d ∈ und' -> dv_jid d <> j) as Hne.
        { intros d1 Hd ->%eq_sym. apply elem_of_list_filter in Hd as [Hd _]. done. }
        apply obeys_bind. split; [done|]. intros r _. cbn [obeys]. apply ob_then; [| |done].
        * apply obeys_for_each; [|done]. intros d Hd. rewrite reorder_perm in Hd. apply Hne in Hd.
          eapply obeys_conseq; [apply (f_set_trust L Wr NS False False); mw; congruence|]. by intros [[]|e].
        * intros _. split; [done|]. intros q _. by destruct q.
      + intros _. destruct (filter _ und); [done|]. apply Hp.
  Qed.

  Lemma man_code (ok : call -> Prop) {A} (p : api A) : (forall c, ok c -> keeps_decisions d0 j c) -> btbv_code ok p -> ob (fun _ => True) p.
  Proof.
    intros Hok H. assert (forall e, okexn L NS False e) as Hany by (intros e _ ?; done).
    induction H as [A a|A e|A B p f Hp IHp Hf IHf|A p Hp IHp|c Hc|c Hc Hm|cf prompt jids pt prio ident Hp IHp].
    - done.
    - done.
    - by apply ob_then.
    - apply obeys_try. eapply obeys_conseq; [exact IHp|]. done.
    - split; [by destruct c|]. done.
    - eapply obeys_conseq; [apply (f_call L Wr NS False False); [by apply man_call, Hok|]|done].
      intros. by exfalso; eapply Hm.
    - eapply obeys_conseq; [apply (f_encrypt L Wr NS False False); [apply man_info|]|done].
      intros ds i. eapply obeys_conseq; [by apply mtd_manual|]. by intros [[]|e] _; [|apply Hany].
  Qed.
  Lemma man_hist (ok : call -> Prop) w w' : (forall c, ok c -> keeps_decisions d0 j c) -> btbv_hist ok w w' -> man (w_disk w) -> man (w_disk w').
  Proof.
    intros Hok. induction 1 as [|w w1 w' (ps & cfg' & Hps & Hr & Hd) _ IH]; [done|].
    intros Hw. apply IH. rewrite Hd. eapply (psafe_preach base (fun w => man (w_disk w))) in Hr; [by destruct Hr|exact Hw|].
    eapply Forall_impl; [exact Hps|]. intros p Hp.
    eapply (obeys_psafe base _ (E L NS False) (F Wr NS False)).
    - apply (inv_step man L Wr); [apply Lof_L|apply Wof_S|apply Wof_D].
    - by eapply man_code.
  Qed.
End manual.

Lemma decided_kept (ok : call -> Prop) w w' j ik :
  user_decided (w_disk w) j -> (forall c, ok c -> keeps_decisions (w_disk w) j c) -> btbv_hist ok w w' ->
  user_decided (w_disk w') j /\
  (w_disk w' !! item_key (ITrust j ik) = w_disk w !! item_key (ITrust j ik) \/
   exists level, w_disk w' !! item_key (ITrust j ik) = Some (JStr level) /\ manual_level level).
Proof.
  intros (x & ik0 & level & H1 & H2 & H3 & H4) Hok Hh.
  apply (man_hist (w_disk w) j x ik0 ok) in Hh as (K1 & K2 & (lv & K3 & K3') & K4 & _).
  - split; [|apply (K4 ik)]. exists x, ik0, lv. auto.
  - done.
  - split; [done|]. split; [done|]. split; [by exists level|]. split; [by left|done].
Qed.
