(** Proofs for PropsOne.v: the queue of answers while one coroutine receives messages. *)
From Verif Require Import Api Spec Alone Foot Dec Publish One PfStrs PfTyped PfWp PfHist PfEmits PfFoot PfAlone PfLog PfWalk PfOne PfOne2 PfPublish
  PfEmpty PfDec PfDec2 PfDec3 PfDec4 PfDec5 PfDec6.
Open Scope prog_scope.
Open Scope list_scope.

(** The queue and the mode are the same. *)
Definition same_queue (w w' : world) : Prop := (forall k, queue_key k -> w_disk w' !! k = w_disk w !! k) /\ w_sync w' = w_sync w.
Lemma same_refl w : same_queue w w. Proof. done. Qed.
Lemma same_trans w1 w2 w3 : same_queue w1 w2 -> same_queue w2 w3 -> same_queue w1 w3.
Proof. intros [A1 A2] [B1 B2]. split; [|congruence]. intros k Hk. by rewrite B1, A1. Qed.
Lemma same_sym w w' : same_queue w w' -> same_queue w' w.
Proof. intros [A B]. split; [|done]. intros k Hk. by rewrite A. Qed.
Definition spares (c : cmd) : Prop := match c with SStore k _ | SDelete k => ~ queue_key k | PSync _ => False | _ => True end.
Lemma same_apply w c r : spares c -> same_queue w (w_apply w c r).
Proof.
  intros Hc. destruct c; try done; destruct r as [[]|]; try done; (split; [|done]); intros k' Hk'; simpl.
  - apply lookup_insert_ne. intros ->. done.
  - apply lookup_delete_ne. intros ->. done.
Qed.
Lemma same_step w w' c r : same_queue w w' -> same_queue (w_apply w c r) (w_apply w' c r).
Proof.
  intros [A B]. destruct c; try done; destruct r as [[]|]; try done; (split; [|done]); intros k' Hk'; simpl.
  - destruct (decide (k' = k)) as [->|]; [by rewrite !lookup_insert|]. rewrite !lookup_insert_ne by done. by apply A.
  - destruct (decide (k' = k)) as [->|]; [by rewrite !lookup_delete|]. rewrite !lookup_delete_ne by done. by apply A.
Qed.

(** Between the commands of a program, others spare the queue; [I] holds after every command, [Q] at the end. *)
Section rgc.
  Context (P : world -> forall c, resp c -> Prop).
  Fixpoint rgc (I : world -> Prop) {A} (p : api A) (Q : outcome A -> world -> Prop) (w : world) : Prop :=
    match p with
    | Ret a => Q (Val a) w
    | Raise e => Q (Exn e) w
    | Step c k => forall w1 r, same_queue w w1 -> w_allowed w1 c r -> P w1 c r -> I (w_apply w1 c r) /\ rgc I (k r) Q (w_apply w1 c r)
    end.
  Lemma rgc_mono (I I' : world -> Prop) {A} (p : api A) (Q Q' : outcome A -> world -> Prop) w :
    (forall w, I w -> I' w) -> (forall o w, Q o w -> Q' o w) -> rgc I p Q w -> rgc I' p Q' w.
  Proof.
    intros HI HQ. revert w. induction p as [a|e|c k IH]; intros w H; [by apply HQ|by apply HQ|].
    intros w1 r Hs Ha HPr. destruct (H w1 r Hs Ha HPr). split; [by apply HI|by apply IH].
  Qed.
  Lemma rgc_bind (I : world -> Prop) {A B} (p : api A) (f : A -> api B) (Q : outcome B -> world -> Prop) w :
    rgc I p (fun o w' => match o with Val a => rgc I (f a) Q w' | Exn e => Q (Exn e) w' end) w -> rgc I (bind p f) Q w.
  Proof.
    revert w. induction p as [a|e|c k IH]; intros w H; [done|done|].
    intros w1 r Hs Ha HPr. destruct (H w1 r Hs Ha HPr). split; [done|]. by apply IH.
  Qed.
  Lemma rgc_try (I : world -> Prop) {A} (p : api A) (Q : outcome (outcome A) -> world -> Prop) w : rgc I p (fun o w' => Q (Val o) w') w -> rgc I (try_ p) Q w.
  Proof.
    revert w. induction p as [a|e|c k IH]; intros w H; [done|done|].
    intros w1 r Hs Ha HPr. destruct (H w1 r Hs Ha HPr). split; [done|]. by apply IH.
  Qed.
  (** The values a program can return. *)
  Fixpoint leaves {A} (V : A -> Prop) (p : api A) : Prop :=
    match p with Ret a => V a | Raise _ => True | Step c k => forall r, (exists w, w_allowed w c r /\ P w c r) -> leaves V (k r) end.
  Lemma leaves_alone {A} (V : A -> Prop) (p : api A) l : (forall a l', exec (alone P) p l (Val a) l' -> V a) -> leaves V p.
  Proof.
    revert l. induction p as [a|e|c k IH]; intros l H; [by apply (H a l)|done|].
    intros r Hr. eapply IH. intros a l' Hx. eapply (H a l'). exists r. split; [exact Hr|exact Hx].
  Qed.
  Lemma rgc_only (I : world -> Prop) {A} (V : A -> Prop) (p : api A) (Q : outcome A -> world -> Prop) w : only spares p -> leaves V p ->
    (forall w1 w2, same_queue w1 w2 -> I w1 -> I w2) -> I w ->
    (forall o w', match o with Val a => V a | Exn _ => True end -> same_queue w w' -> Q o w') -> rgc I p Q w.
  Proof.
    intros Hp Hv HI. revert w. induction p as [a|e|c k IH]; intros w Hw HQ; [by apply HQ|by apply HQ|]. destruct Hp as [Hc Hk].
    intros w1 r Hs Ha HPr. assert (same_queue w (w_apply w1 c r)) as Hs' by (eapply same_trans; [exact Hs|by apply same_apply]).
    split; [by eapply HI|]. apply IH; [apply Hk|apply Hv; eauto|by eapply HI|]. intros o w' Ho Hw'. apply HQ; [done|]. by eapply same_trans.
  Qed.
  (** Programs that look at nothing but the queue. *)
  Definition local_cmd (c : cmd) : Prop := match c with SLoad k => queue_key k | GLoaded | PSync _ => False | _ => True end.
  Lemma local_allowed w w1 c r : local_cmd c -> same_queue w w1 -> w_allowed w1 c r -> w_allowed w c r.
  Proof.
    intros Hc [A B] H. destruct c; try done; simpl in *.
    - destruct r; [|done]. by rewrite <- A.
    - congruence.
  Qed.
  Lemma rgc_wp (P0 : world -> forall c, resp c -> Prop) (I : world -> Prop) {A} (p : api A) (Q : outcome A -> world -> Prop) w w0 :
    (forall w w1 c r, P w c r -> P0 w1 c r) -> only local_cmd p -> same_queue w0 w ->
    (forall w1 w2, same_queue w1 w2 -> I w1 -> I w2) -> (forall o w1 w2, same_queue w1 w2 -> Q o w1 -> Q o w2) ->
    wp (with_contract P0) I p Q w0 -> rgc I p Q w.
  Proof.
    intros HP Hp Hs HI HQ. revert w w0 Hs. induction p as [a|e|c k IH]; intros w w0 Hs H; [by eapply HQ|by eapply HQ|]. destruct Hp as [Hc Hk].
    intros w1 r Hs1 Ha HPr. assert (same_queue w0 w1) as Hs2 by (by eapply same_trans).
    destruct (H r) as [H1 H2]; [split; [by eapply local_allowed|by eapply HP]|].
    assert (same_queue (w_apply w0 c r) (w_apply w1 c r)) as Hs3 by (by apply same_step).
    split; [by eapply HI|]. eapply IH; [apply Hk|exact Hs3|exact H2].
  Qed.
  Lemma wp_intro (S : @sem cmd resp world) (I : world -> Prop) {A} (p : api A) (Q : outcome A -> world -> Prop) w :
    (forall w', reach S p w w' -> I w') -> (forall o w', exec S p w o w' -> Q o w') -> wp S I p Q w.
  Proof.
    revert w. induction p as [a|e|c k IH]; intros w HI HQ; [by apply HQ|by apply HQ|].
    change (forall r, allowed S w c r -> I (Prog.apply S w c r) /\ wp S I (k r) Q (Prog.apply S w c r)). intros r Hr.
    assert (forall w', reach S (k r) (Prog.apply S w c r) w' -> I w') as HI' by (intros w' H'; apply HI; right; eauto).
    split; [apply HI'; destruct (k r); by left|]. apply IH; [done|]. intros o w' Hx. apply HQ. by exists r.
  Qed.

  (** A pool in which the others spare the queue. *)
  Lemma rgc_pool (I : world -> Prop) (Q : outcome unit -> world -> Prop) i p ps w ps' w' :
    (forall w1 w2, same_queue w1 w2 -> I w1 -> I w2) -> (forall o w1 w2, same_queue w1 w2 -> Q o w1 -> Q o w2) ->
    I w -> rgc I p Q w -> ps !! i = Some p -> others (only spares) i ps -> preach (with_contract P) (ps, w) (ps', w') ->
    I w' /\ exists p', ps' !! i = Some p' /\ rgc I p' Q w'.
  Proof.
    intros HI HQ Hw Hp Hi Ho H. remember (ps, w) as cfg eqn:E1. remember (ps', w') as cfg' eqn:E2.
    assert (exists w0, same_queue w0 w /\ rgc I p Q w0) as Hp' by (exists w; done). clear Hp.
    assert (forall w0 w1 A (q : api A) (Q' : outcome A -> world -> Prop), (forall o w1 w2, same_queue w1 w2 -> Q' o w1 -> Q' o w2) -> same_queue w0 w1 -> rgc I q Q' w0 -> rgc I q Q' w1) as Hst.
    { intros w0 w1 A q Q' HQ' Hs. destruct q as [a|e|c k]; [by apply HQ'|by apply HQ'|]. intros Hq w2 r Hs2. apply Hq. by eapply same_trans. }
    revert ps w p E1 E2 Hw Hp' Hi Ho.
    induction H as [cfg|cfg cfg1 cfg' (i0 & c & k & r & Hi0 & [Hr HPr] & Ep & Ew) _ IH]; intros ps w p -> E2 Hw (w0 & Hs & Hp) Hi Ho.
    { injection E2 as <- <-. split; [done|]. exists p. split; [done|]. by eapply Hst. }
    subst. destruct cfg1 as [ps1 w1]. simpl in *. subst ps1 w1. destruct (decide (i0 = i)) as [->|Hne].
    - assert (Some p = Some (Step c k)) as [= ->] by (rewrite <- Hi, <- Hi0; done). destruct (Hp w r Hs Hr HPr) as [H1 H2].
      eapply (IH (<[i:=k r]> ps) (w_apply w c r) (k r)); [done|done|done|by exists (w_apply w c r)|apply list_lookup_insert; by eapply lookup_lt_Some|].
      intros n q Hn Hq. eapply Ho; [exact Hn|]. etrans; [|exact Hq]. symmetry. by apply list_lookup_insert_ne.
    - destruct (Ho _ _ Hne Hi0) as [Hem Hk]. assert (same_queue w (w_apply w c r)) as Hs' by (by apply same_apply).
      eapply (IH (<[i0:=k r]> ps) (w_apply w c r) p); [done|done|by eapply HI| |etrans; [by apply list_lookup_insert_ne|done]|].
      + exists w0. split; [by eapply same_trans|done].
      + intros n q Hn Hq. destruct (decide (n = i0)) as [->|Hn'].
        * assert (Some q = Some (k r)) as [= ->]; [|apply Hk]. rewrite <- Hq. apply list_lookup_insert. by eapply lookup_lt_Some.
        * eapply Ho; [exact Hn|]. etrans; [|exact Hq]. symmetry. by apply list_lookup_insert_ne.
  Qed.
End rgc.

(** ** decrypt *)
Lemma keeps_same n dk w1 w2 : same_queue w1 w2 -> keeps n dk (w_disk w1) -> keeps n dk (w_disk w2).
Proof.
  intros [Hs _] [A B]. split.
  - intros l Hl. destruct (A l Hl) as (l' & (v & Hv & Hl') & Hsub). exists l'. split; [|done]. exists v. split; [|done]. rewrite Hs; [done|]. by exists (IQueue n).
  - intros j l Hl. destruct (B j l Hl) as (l' & (v & Hv & Hl') & Hsub). exists l'. split; [|done]. exists v. split; [|done]. rewrite Hs; [done|]. by exists (IQueueDevices n j).
Qed.
Lemma queued_same w1 w2 n j x : same_queue w1 w2 -> queued (w_disk w1) n j x -> queued (w_disk w2) n j x.
Proof.
  intros [Hs _] [(l & (v & Hv & Hl) & Hj) (l' & (v' & Hv' & Hl') & Hx)]. split.
  - exists l. split; [|done]. exists v. split; [|done]. rewrite Hs; [done|]. by exists (IQueue n).
  - exists l'. split; [|done]. exists v'. split; [|done]. rewrite Hs; [done|]. by exists (IQueueDevices n j).
Qed.
Lemma keeps_queued n j x d1 d2 : keeps n d1 d2 -> queued d1 n j x -> queued d2 n j x.
Proof.
  intros [K1 K2] [(l & Hl & Hj) (l' & Hl' & Hx)]. destruct (K1 _ Hl) as (l1 & A & B). destruct (K2 _ _ Hl') as (l2 & C & D).
  split; [exists l1|exists l2]; split; auto.
Qed.
Ltac loc1 :=
  match goal with
  | |- only _ (bind _ _) => apply only_bind; [|intros ?]
  | |- only _ (Ret _) => exact Logic.I
  | |- only _ (Raise _) => exact Logic.I
  | |- only _ (of_outcome ?o) => destruct o; exact Logic.I
  | |- only _ (match ?b with _ => _ end) => destruct b
  | |- only _ (if ?b then _ else _) => destruct b
  | |- only _ (let '_ := ?b in _) => destruct b
  | |- only _ (Step _ _) => split; [try exact Logic.I|intros ?]
  end.
Section dec.
  Context (cf : cfg) (m : message).
  Lemma q_key ns : queue_key (k_queue ns). Proof. by exists (IQueue ns). Qed.
  Lemma q_key_jid ns j : queue_key (k_queue_jid ns j). Proof. by exists (IQueueDevices ns j). Qed.
  Lemma rest_local d e mk : only local_cmd (dec_rest cf m d e mk).
  Proof.
    assert (forall ns s, only local_cmd (send_empty_message cf ns s)) as H1 by (intros; unfold send_empty_message; unw; repeat (cbv zeta; loc1)).
    assert (forall ns s, only local_cmd (dec_respond cf ns s)) as H2.
    { intros. unfold dec_respond, g_sync, load_list, load_checked, order, s_load, s_store. unw. repeat (cbv zeta; loc1); try apply q_key; try apply q_key_jid; apply H1. }
    unfold dec_rest, dec_existing, dec_kex, dec_prekeys, g_sync. unw. repeat (cbv zeta; loc1); apply H2.
  Qed.
  Lemma sender_spares : only spares (dec_sender cf m).
  Proof.
    assert (forall A c (k : resp c -> api A), spares c -> (forall r, only spares (k r)) -> only spares (Step c k)) as Hcmd by done.
    assert (forall c, common c -> spares c) as Hcm by (by intros []).
    assert (forall j, only spares (get_device_information cf j)) as H1.
    { intros j. eapply (t_info (fun A p => only spares p) spares); try done; [intros A B p f; apply only_bind|intros A p; apply only_try]. }
    assert (only spares (refresh_device_list cf (m_ns m) (m_jid m))) as H2.
    { eapply (t_refresh (fun A p => only spares p) spares); try done; [intros A B p f; apply only_bind|intros A p; apply only_try]. }
    unfold dec_sender. apply only_bind; [apply H1|intros ds]. destruct (filter _ ds); [|exact Logic.I].
    apply only_bind; [apply H2|intros _]. apply only_bind; [apply H1|intros ds']. by destruct (filter _ ds').
  Qed.
  Lemma respond_queued ns s w w' : exec base (dec_respond cf ns s) w (Val tt) w' -> w_sync w = true ->
    queued (w_disk w') (s_ns s) (s_jid s) (s_dev s).
  Proof.
    intros H Hs. assert (wp base (fun _ => True) (dec_respond cf ns s) (fun o w' => o = Val tt -> queued (w_disk w') (s_ns s) (s_jid s) (s_dev s)) w) as Hw;
      [|by eapply (wp_exec _ _ _ _ _ _ _ Hw H)]. clear H.
    assert (forall A (EA : EqDecision A) (a : A) l, a ∈ set_add a l) as Hadd.
    { intros. unfold set_add. case_decide; [done|]. apply elem_of_app. right. left. }
    unfold dec_respond. apply wp_bind, wp_sync; [done|]. rewrite Hs.
    apply wp_bind, load_strs_wp; [done|]. intros [ml|x] Hl1 Hl2; [|done]. apply wp_bind, wp_order; [done|]. intros l Hl.
    apply wp_bind, wp_store; [done|done|]. apply wp_bind, load_ints_wp; [done|]. intros [ml'|x] Hl1' Hl2'; [|done].
    apply wp_bind, wp_order; [done|]. intros l' Hl'. apply wp_store; [done|done|]. intros _. split.
    - exists l. split; [|rewrite Hl; apply Hadd]. exists (j_strs l). split; [|apply is_strs].
      change (<[k_queue_jid (s_ns s) (s_jid s) := j_ints l']> (<[k_queue (s_ns s) := j_strs l]> (w_disk w)) !! k_queue (s_ns s) = Some (j_strs l)).
      rewrite lookup_insert_ne, lookup_insert; [done|]. by apply k_queue_ne.
    - exists l'. split; [|rewrite Hl'; apply Hadd]. exists (j_ints l'). split; [|apply is_ints].
      change (<[k_queue_jid (s_ns s) (s_jid s) := j_ints l']> (<[k_queue (s_ns s) := j_strs l]> (w_disk w)) !! k_queue_jid (s_ns s) (s_jid s) = Some (j_ints l')).
      by rewrite lookup_insert.
  Qed.
  Lemma local_sync {A} (p : api A) w o w' : only local_cmd p -> exec base p w o w' -> w_sync w' = w_sync w.
  Proof.
    revert w. induction p as [a|e|c k IH]; intros w Hp H; [by destruct H as [_ ->]|by destruct H as [_ ->]|]. destruct Hp as [Hc Hk].
    destruct H as (r & _ & H). rewrite (IH r _ (Hk r) H). destruct c; try done; by destruct r.
  Qed.
  Lemma local_sync_reach {A} (p : api A) w w' : only local_cmd p -> reach base p w w' -> w_sync w' = w_sync w.
  Proof.
    revert w. induction p as [a|e|c k IH]; intros w Hp H; [by destruct H as [->|[]]|by destruct H as [->|[]]|]. destruct Hp as [Hc Hk].
    destruct H as [->|(r & _ & H)]; [done|]. rewrite (IH r _ (Hk r) H). destruct c; try done; by destruct r.
  Qed.
  Lemma rest_queued d e mk w a w' : exec (with_contract sessions_named) (dec_rest cf m d e mk) w (Val a) w' -> w_sync w = true -> mk <> None ->
    queued (w_disk w') (m_ns m) (dv_jid d) (dv_id d).
  Proof.
    intros H Hs Hk. pose proof (rest_local d e mk) as HL. unfold dec_rest in H, HL.
    apply exec_bind in H as [(t & w1 & H1 & H)|(x & _ & [=])]. assert (w_sync w1 = true) as S1.
    { rewrite <- Hs. eapply local_sync; [|apply with_contract_exec in H1; exact H1]. unw. repeat (cbv zeta; loc1). }
    destruct (decide (t = Distrusted)); [by destruct H|].
    apply exec_bind in H as [([s p] & w2 & H2 & H)|(x & _ & [=])].
    destruct (open_named sessions_named m _ _ _ _ _ _ _ (fun _ _ _ H => H) H2) as (E1 & E2 & E3).
    assert (w_sync w2 = true) as S2.
    { rewrite <- S1. eapply local_sync; [|apply with_contract_exec in H2; exact H2]. unfold dec_existing, dec_kex. unw. repeat (cbv zeta; loc1). }
    apply exec_bind in H as [(pt & w3 & H3 & H)|(x & _ & [=])]. assert (w_sync w3 = true) as S3.
    { rewrite <- S2. eapply local_sync; [|apply with_contract_exec in H3; exact H3]. unw. repeat (cbv zeta; loc1). }
    apply exec_bind in H as [([] & w4 & H4 & H)|(x & _ & [=])]. assert (w_sync w4 = true) as S4.
    { rewrite <- S3. eapply local_sync; [|apply with_contract_exec in H4; exact H4]. unw. repeat (cbv zeta; loc1). }
    apply exec_bind in H as [([] & w5 & H5 & H)|(x & _ & [=])]. assert (w_sync w5 = true) as S5.
    { rewrite <- S4. eapply local_sync; [|apply with_contract_exec in H5; exact H5]. unfold dec_prekeys, g_sync. unw. repeat (cbv zeta; loc1). }
    apply exec_bind in H as [([] & w6 & H6 & H)|(x & _ & [=])]. destruct H as [_ ->].
    rewrite bool_decide_true in H6 by done. cbn [orb] in H6. apply with_contract_exec in H6. rewrite <- E1, <- E2, <- E3. by eapply respond_queued.
  Qed.

  Context (P : world -> forall c, resp c -> Prop) (HP : forall w c r, P w c r -> sessions_named w c r) (N : string -> Prop).
  Definition kept (w w' : world) : Prop := (forall n, N n -> keeps n (w_disk w) (w_disk w')) /\ w_sync w' = w_sync w.
  Lemma kept_same w0 w1 w2 : same_queue w1 w2 -> kept w0 w1 -> kept w0 w2.
  Proof. intros Hs [A B]. split; [intros n Hn; eapply keeps_same; [exact Hs|by apply A]|]. destruct Hs. congruence. Qed.
  Lemma kept_refl w : kept w w. Proof. split; [intros; apply keeps_refl|done]. Qed.
  Lemma kept_trans w1 w2 w3 : kept w1 w2 -> kept w2 w3 -> kept w1 w3.
  Proof. intros [A1 A2] [B1 B2]. split; [|congruence]. intros n Hn. eapply keeps_trans; [by apply A1|by apply B1]. Qed.
  Definition done_with (w : world) (o : outcome (option bytes * device * pkm)) (w' : world) : Prop :=
    kept w w' /\ match o with
      | Val _ => w_sync w = true -> (forall e mk, given cf m e mk -> mk <> None) -> queued (w_disk w') (m_ns m) (m_jid m) (m_dev m)
      | Exn _ => True
      end.
  Lemma rgc_decrypt w : (forall n, N n -> ns_separated [n; m_ns m]) -> rgc P (kept w) (decrypt cf m) (done_with w) w.
  Proof.
    intros HN. assert (forall w1 w2, same_queue w1 w2 -> kept w w1 -> kept w w2) as HI by (intros; by eapply kept_same).
    intros w1 l Hs1 _ _. assert (same_queue w (w_apply w1 GLoaded l)) as Hs2 by done. clear Hs1.
    change (w_apply w1 GLoaded l) with w1 in *.
    assert (kept w w1) as Hk1 by (eapply HI; [exact Hs2|apply kept_refl]). split; [done|].
    change (rgc P (kept w) (if decide (m_ns m ∈ l) then
      keys <- order (m_keys m) ;;
      match filter (fun k => ek_jid k.1 = c_jid cf /\ ek_dev k.1 = c_dev cf) keys with
      | [] => Raise EMessageNotForUs
      | (e, mk) :: _ => d <- dec_sender cf m ;; dec_rest cf m d e mk
      end else Raise EUnknownNamespace) (done_with w) w1).
    destruct (decide (m_ns m ∈ l)) as [Hin|Hin]; [|by split].
    intros w2 r Hs3 _ _. assert (same_queue w w2) as Hs4 by (by eapply same_trans). change (w_apply w2 CPerm r) with w2.
    assert (kept w w2) as Hk2 by (eapply HI; [exact Hs4|apply kept_refl]). split; [done|].
    change (rgc P (kept w) (match filter (fun k => ek_jid k.1 = c_jid cf /\ ek_dev k.1 = c_dev cf) (reorder r (m_keys m)) with
      | [] => Raise EMessageNotForUs
      | (e, mk) :: _ => d <- dec_sender cf m ;; dec_rest cf m d e mk
      end) (done_with w) w2).
    pose proof (first_given cf m _ (reorder_perm r (m_keys m))) as Hg. destruct (filter _ _) as [|[e mk] l0]; [by split|].
    apply rgc_bind. apply (rgc_only P (kept w) (fun d => dkey d = (m_jid m, m_dev m))); [apply sender_spares| |done|done|].
    { apply (leaves_alone P _ _ []). intros d l' Hx. by apply sender_exec in Hx as [_ Hx]. }
    intros [d|x] w3 Hd Hs5; [|split; [by eapply HI|done]]. injection Hd as Ej Ed.
    assert (same_queue w w3) as Hs6 by (by eapply same_trans).
    apply (rgc_wp P sessions_named (kept w) _ _ _ w3); [| apply rest_local|done|done| |].
    - intros wa wb c ra Ha. apply HP in Ha. by destruct c.
    - intros o wa wb Hs [A B]. split; [by eapply HI|]. destruct o; [|done]. intros H1 H2. eapply queued_same; [exact Hs|]. by apply B.
    - assert (forall w', reach (with_contract sessions_named) (dec_rest cf m d e mk) w3 w' -> kept w w') as HR.
      { intros w' Hr. eapply kept_trans; [eapply HI; [exact Hs6|apply kept_refl]|]. split.
        - intros n Hn. eapply (rest_keeps sessions_named cf m); [by intros ??? H|by apply HN|exact Hr].
        - eapply local_sync_reach; [apply rest_local|]. by eapply with_contract_reach. }
      apply wp_intro; [exact HR|]. intros o w' Hx. split; [apply HR; by eapply exec_reach|]. destruct o as [a|]; [|done].
      intros H1 H2. rewrite <- Ej, <- Ed. eapply rest_queued; [exact Hx| |by eapply H2]. destruct Hs6. congruence.
  Qed.
End dec.

Section seq.
  Context (cf : cfg) (P : world -> forall c, resp c -> Prop) (HP : forall w c r, P w c r -> sessions_named w c r).
  Lemma rgc_stable (I : world -> Prop) {A} (q : api A) (Q : outcome A -> world -> Prop) w0 w1 :
    (forall o w1 w2, same_queue w1 w2 -> Q o w1 -> Q o w2) -> same_queue w0 w1 -> rgc P I q Q w0 -> rgc P I q Q w1.
  Proof. intros HQ Hs. destruct q as [a|e|c k]; [by apply HQ|by apply HQ|]. intros Hq w2 r Hs2. apply Hq. by eapply same_trans. Qed.
  Definition all_queued (ms : list message) (w' : world) : Prop :=
    forall m, m ∈ ms -> (forall e mk, given cf m e mk -> mk <> None) -> queued (w_disk w') (m_ns m) (m_jid m) (m_dev m).
  Lemma rgc_seq (N : string -> Prop) ms w : (forall n m, N n -> m ∈ ms -> ns_separated [n; m_ns m]) -> (forall m, m ∈ ms -> N (m_ns m)) ->
    rgc P (kept N w) (for_each ms (fun m => decrypt cf m ;;; Ret tt))
      (fun o w' => kept N w w' /\ match o with Val _ => w_sync w = true -> all_queued ms w' | Exn _ => True end) w.
  Proof.
    revert w. induction ms as [|m ms IH]; intros w HN HM; cbn [for_each].
    { split; [apply kept_refl|]. intros _ m Hm. by apply elem_of_nil in Hm. }
    apply rgc_bind, rgc_bind. eapply rgc_mono; [| |apply (rgc_decrypt cf m P HP N w)].
    - done.
    - intros [a|e] w1 [H1 H2]; [|by split].
      change (rgc P (kept N w) (for_each ms (fun m => decrypt cf m ;;; Ret tt))
        (fun o w' => kept N w w' /\ match o with Val _ => w_sync w = true -> all_queued (m :: ms) w' | Exn _ => True end) w1).
      eapply rgc_mono; [| |apply (IH w1)].
      + intros w' Hw'. by eapply kept_trans.
      + intros o w' [A B]. split; [by eapply kept_trans|]. destruct o; [|done]. intros Hs m' [->|Hm']%elem_of_cons Hk.
        * destruct A as [A _]. eapply keeps_queued; [by apply A, HM; left|]. by apply H2.
        * destruct H1 as [_ H1]. apply B; [congruence|done|done].
      + intros n m' Hn Hm'. apply HN; [done|by right].
      + intros m' Hm'. apply HM. by right.
    - intros n Hn. apply HN; [done|left].
  Qed.
End seq.

Lemma only_and (A1 A2 A3 : cmd -> Prop) {A} (p : api A) : (forall c, A1 c -> A2 c -> A3 c) -> only A1 p -> only A2 p -> only A3 p.
Proof. intros HA. induction p as [a|e|c k IH]; [done|done|]. intros [B1 C1] [B2 C2]. split; [by apply HA|]. intros r. by apply IH. Qed.
Lemma lib_spares (p : api unit) : libcode (fun c => ~ uses_queue c) p -> only spares p.
Proof.
  intros H. eapply only_and; [|by apply PfOne2.queue_only|apply (PfOne2.sync_only (fun c => ~ uses_queue c)); [by left|done]].
  intros c Hc Hs. destruct c; try done.
  - exact (Hc (Val tt) _ eq_refl).
  - exact (Hc (Val tt) _ eq_refl).
Qed.
Lemma one_sequence (P : world -> forall c, resp c -> Prop) cf ms i ps w ps' w' :
  (forall w c r, P w c r -> sessions_named w c r) ->
  ps !! i = Some (for_each ms (fun m => decrypt cf m ;;; Ret tt)) ->
  (forall n q, n <> i -> ps !! n = Some q -> libcode (fun c => ~ uses_queue c) q) ->
  preach (with_contract P) (ps, w) (ps', w') ->
  (forall n j x, ns_separated (n :: (m_ns <$> ms)) -> queued (w_disk w) n j x -> queued (w_disk w') n j x) /\
  (ns_separated (m_ns <$> ms) -> w_sync w = true -> ps' !! i = Some (Ret tt) ->
   forall m, m ∈ ms -> (forall e mk, given cf m e mk -> mk <> None) -> queued (w_disk w') (m_ns m) (m_jid m) (m_dev m)).
Proof.
  intros HP Hp Ho H.
  assert (others (only spares) i ps) as Ho' by (intros n q Hn Hq; apply lib_spares; by eapply Ho).
  split.
  - intros n j x Hsep Hq. set (N := fun n0 => n0 = n).
    destruct (rgc_pool P (kept N w) (fun _ w' => kept N w w') i (for_each ms (fun m => decrypt cf m ;;; Ret tt)) ps w ps' w') as [[Hk _] _];
      [intros; by eapply kept_same|intros; by eapply kept_same|apply kept_refl| |done|done|done|].
    + assert (forall ms' w1, (forall m, m ∈ ms' -> m ∈ ms) -> kept N w w1 -> rgc P (kept N w) (for_each ms' (fun m => decrypt cf m ;;; Ret tt)) (fun _ w' => kept N w w') w1) as Hall;
        [|apply Hall; [done|apply kept_refl]].
      induction ms' as [|m ms' IH]; intros w1 Hms Hw1; cbn [for_each]; [done|]. apply rgc_bind, rgc_bind.
      eapply rgc_mono; [| |apply (rgc_decrypt cf m P HP N w1)].
      * intros w2 H2. by eapply kept_trans.
      * intros [a|e] w2 [H2 _]; [|by eapply kept_trans]. apply IH; [intros m' Hm'; apply Hms; by right|by eapply kept_trans].
      * intros n0 ->. intros a b Ha Hb. apply Hsep.
        -- apply elem_of_cons in Ha as [->|Ha]; [left|]. apply elem_of_list_singleton in Ha as ->. right. apply elem_of_list_fmap. exists m. split; [done|]. apply Hms. left.
        -- apply elem_of_cons in Hb as [->|Hb]; [left|]. apply elem_of_list_singleton in Hb as ->. right. apply elem_of_list_fmap. exists m. split; [done|]. apply Hms. left.
    + eapply keeps_queued; [by apply Hk|done].
  - intros Hsep Hs Hd m Hm Hg. set (N := fun n0 => n0 ∈ m_ns <$> ms).
    set (Q := fun (o : outcome unit) w' => kept N w w' /\ match o with Val _ => w_sync w = true -> all_queued cf ms w' | Exn _ => True end).
    destruct (rgc_pool P (kept N w) Q i (for_each ms (fun m => decrypt cf m ;;; Ret tt)) ps w ps' w') as [_ (p' & Hp' & Hr)];
      [intros; by eapply kept_same| |apply kept_refl| |done|done|done|].
    + intros o w1 w2 Hsm [A B]. split; [by eapply kept_same|]. destruct o; [|done]. intros H1 m' H2 H3. eapply queued_same; [exact Hsm|]. by apply B.
    + apply (rgc_seq cf P HP N ms w).
      * intros n m' Hn Hm'. intros a b Ha Hb. apply Hsep.
        -- apply elem_of_cons in Ha as [->|Ha]; [done|]. apply elem_of_list_singleton in Ha as ->. apply elem_of_list_fmap. by exists m'.
        -- apply elem_of_cons in Hb as [->|Hb]; [done|]. apply elem_of_list_singleton in Hb as ->. apply elem_of_list_fmap. by exists m'.
      * intros m' Hm'. apply elem_of_list_fmap. by exists m'.
    + assert (Some p' = Some (Ret tt)) as [= ->] by (rewrite <- Hp', <- Hd; done). destruct Hr as [_ Hr]. by apply Hr.
Qed.
