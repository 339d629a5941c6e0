(** Proofs for PropsOne.v: pre keys and the queue of answers. *)
From Verif Require Import Api Spec Alone Foot Dec Publish One PfStrs PfTyped PfWp PfHist PfEmits PfFoot PfAlone PfLog PfWalk PfOne PfPublish
  PfEmpty PfDec PfDec2 PfDec3 PfDec4 PfDec5 PfDec6.
Open Scope prog_scope.
Open Scope list_scope.

(** ** Pre keys: C77 *)
(** Pre keys of [ns] are generated only after counting them; [st] is the count if that was the last command. *)
Fixpoint pk (ns : string) (st : option Z) {A} (p : api A) : Prop :=
  match p with
  | Ret _ | Raise _ => True
  | Step c k =>
      match c with BGenerate n z => n = ns -> exists v, st = Some v /\ (v + z = 100)%Z | _ => True end /\
      forall r, pk ns (match c return resp c -> option Z with
        BNumVisible n => fun r => match r with Val v => if decide (n = ns) then Some v else None | Exn _ => None end | _ => fun _ => None end r) (k r)
  end.
Section pk.
  Context (ns : string).
  Lemma pk_weak {A} (p : api A) st : pk ns None p -> pk ns st p.
  Proof. destruct p as [a|e|c k]; [done|done|]. intros [H1 H2]. split; [|done]. destruct c; try done. intros E. by destruct (H1 E) as (v & [=] & _). Qed.
  Lemma pk_bind {A B} (p : api A) (f : A -> api B) st : pk ns st p -> (forall a, pk ns None (f a)) -> pk ns st (bind p f).
  Proof.
    intros Hp Hf. revert st Hp. induction p as [a|e|c k IH]; intros st Hp; [apply pk_weak, Hf|done|]. destruct Hp as [Hc Hk].
    split; [done|]. intros r. apply IH, Hk.
  Qed.
  Lemma pk_try {A} (p : api A) st : pk ns st p -> pk ns st (try_ p).
  Proof. revert st. induction p as [a|e|c k IH]; intros st Hp; [done|done|]. destruct Hp as [Hc Hk]. split; [done|]. intros r. apply IH, Hk. Qed.
  Lemma pk_code {A} (p : api A) : libcode not_create p -> pk ns None p.
  Proof using All.
    intros H. apply (t_code (fun A p => pk ns None p) (fun c => match c with BGenerate _ _ => False | _ => True end)) with (ext := harmless) (ok := not_create); try done.
    - intros A' B p' f. apply pk_bind.
    - intros A' p'. apply pk_try.
    - intros A' c k Hc Hk. split; [by destruct c|]. intros r. by apply pk_weak, Hk.
    - intros m. by destruct m.
    - intros m. by destruct m.
    - intros c Hc. split; [intros m Hm; destruct m; try done; by destruct c|]. intros n Hn A' th rest Hrest.
      split; [done|]. intros [v|e]; [|done]. apply (pk_bind (if (v <=? th)%Z then _ else _)); [|done].
      destruct (v <=? th)%Z; [|done]. split; [|by intros []]. intros ->. exists v. rewrite decide_True by done. split; [done|lia].
  Qed.
End pk.
Definition no_refill (ns : string) (e : event) : Prop := match e with EvGenerate n _ _ => n <> ns | _ => True end.
Lemma refill_only ns A (p : api A) : libcode (fun c => ~ refills ns c) p -> only (emits (no_refill ns)) p.
Proof.
  apply only_code.
  - intros m Hm r e He. destruct m; try done; simpl in He; repeat case_match; by injection He as <-.
  - intros c m Hc Hu r e He. destruct m; try done; simpl in He; repeat case_match; simplify_eq; try done; destruct c; try done; by destruct Hc.
  - intros c n Hc Hn. split; [intros r e He; simpl in He; repeat case_match; by simplify_eq|]. intros z r e He. simpl in He. simplify_eq. simpl.
    intros ->. done.
  - intros m Hm r e He. destruct m; try done; simpl in He; repeat case_match; by simplify_eq.
Qed.
(** Apart from filling up, the number only falls. *)
Lemma visible_falls ns e l v : no_refill ns e -> (0 <= v)%Z -> (visible ns l <= v)%Z -> (visible ns (e :: l) <= v)%Z.
Proof. intros He H0 H. destruct e; simpl; try done; destruct r as [[]|]; try done; case_match; try done; try lia. Qed.
Lemma one_refiller (P : world -> forall c, resp c -> Prop) ns i p ps w ps' w' :
  (forall w c r, P w c r -> prekeys_counted w c r) -> (forall w n v, P w (BNumVisible n) (Val v) -> (0 <= v)%Z) ->
  ps !! i = Some p -> libcode not_create p ->
  (forall n q, n <> i -> ps !! n = Some q -> libcode (fun c => ~ refills ns c) q) ->
  preach (with_contract P) (ps, w) (ps', w') -> (visible ns (w_log w) <= 100)%Z -> (visible ns (w_log w') <= 100)%Z.
Proof.
  intros HP HN Hp Hc Ho H H0.
  assert (others (only (emits (no_refill ns))) i ps) as Ho' by (intros n q Hn Hq; eapply refill_only, Ho; done). clear Ho.
  apply (pk_code ns) in Hc. remember (@None Z) as st eqn:Est.
  assert (match st with Some v => 0 <= v /\ visible ns (w_log w) <= v | None => True end)%Z as Hst by (by subst). clear Est.
  remember (ps, w) as cfg eqn:E1. remember (ps', w') as cfg' eqn:E2. revert ps w p st E1 E2 Hp Hc Ho' H0 Hst.
  induction H as [cfg|cfg cfg1 cfg' (i0 & c & k & r & Hi & [Hr HPr] & Ep & Ew) _ IH]; intros ps w p st -> E2 Hp Hc Ho H0 Hst.
  { by injection E2 as <- <-. }
  subst. destruct cfg1 as [ps1 w1]. simpl in *. subst ps1 w1.
  assert (w_log (w_apply w c r) = ocons (event_of c r) (w_log w)) as El by apply w_apply_log.
  destruct (decide (i0 = i)) as [->|Hne].
  - rewrite Hp in Hi. injection Hi as ->. destruct Hc as [Hg Hk].
    eapply (IH (<[i:=k r]> ps) (w_apply w c r) (k r) _); [done|done|apply list_lookup_insert; by eapply lookup_lt_Some|exact (Hk r)| | |].
    + intros n q Hn Hq. eapply Ho; [exact Hn|]. etrans; [|exact Hq]. symmetry. by apply list_lookup_insert_ne.
    + rewrite El. destruct (event_of c r) as [e|] eqn:Ee; [|done]. simpl ocons.
      destruct e; try (apply visible_falls; [done|lia|done]). destruct c; try done; simpl in Ee; try (by destruct r); simplify_eq.
      simpl. destruct r0; [|done]. destruct (decide _) as [Edc|]; [|done]. destruct Hg as (v & Ev & Hv); [done|]. rewrite Ev in Hst. lia.
    + destruct c; try done. destruct r as [v|]; [|done]. destruct (decide (ns0 = ns)) as [->|]; [|done]. split; [by eapply HN|].
      rewrite El. simpl. apply HP in HPr. simpl in HPr. lia.
  - destruct (Ho _ _ Hne Hi) as [Hem Hk].
    eapply (IH (<[i0:=k r]> ps) (w_apply w c r) p st); [done|done|etrans; [by apply list_lookup_insert_ne|done]|done| | |].
    + intros n q Hn Hq. destruct (decide (n = i0)) as [->|Hn'].
      * assert (Some q = Some (k r)) as [= ->]; [|apply Hk]. rewrite <- Hq. apply list_lookup_insert. by eapply lookup_lt_Some.
      * eapply Ho; [exact Hn|]. etrans; [|exact Hq]. symmetry. by apply list_lookup_insert_ne.
    + rewrite El. destruct (event_of c r) as [e|] eqn:Ee; [|done]. simpl ocons. apply visible_falls; [by eapply Hem|lia|done].
    + destruct st as [v|]; [|done]. destruct Hst as [Hv1 Hv2]. split; [done|]. rewrite El.
      destruct (event_of c r) as [e|] eqn:Ee; [|done]. simpl ocons. apply visible_falls; [by eapply Hem|lia|done].
Qed.

(** ** The queue of answers: C78 *)
(** The mode stays. *)
Lemma mode_preach P ps w ps' w' : Forall (only (fun c => match c with PSync _ => False | _ => True end)) ps -> w_sync w = true ->
  preach (with_contract P) (ps, w) (ps', w') ->
  preach (with_contract (fun w1 c r => P w1 c r /\ sync_mode true w1 c r)) (ps, w) (ps', w') /\ w_sync w' = true.
Proof.
  intros Ho Hs H. remember (ps, w) as cfg eqn:E1. remember (ps', w') as cfg' eqn:E2. revert ps w E1 E2 Ho Hs.
  induction H as [cfg|cfg cfg1 cfg' (i & c & k & r & Hi & [Hr HPr] & Ep & Ew) _ IH]; intros ps w -> E2 Ho Hs.
  { injection E2 as <- <-. split; [constructor|done]. }
  subst. destruct cfg1 as [ps1 w1]. simpl in *. subst ps1 w1. rewrite Forall_forall in Ho.
  assert (Step c k ∈ ps) as Hin by (apply elem_of_list_lookup; by exists i). destruct (Ho _ Hin) as [Hc Hk].
  destruct (IH (<[i:=k r]> ps) (w_apply w c r)) as [H1 H2]; [done|done| | |].
  - apply Forall_insert; [by apply Forall_forall|apply Hk].
  - destruct c; try done; by destruct r.
  - split; [|done]. eapply preach_step; [|exact H1]. exists i, c, k, r. split; [done|]. split; [|done]. split; [done|]. split; [done|].
    destruct c; try done. simpl. change (r = w_sync w) in Hr. congruence.
Qed.
Lemma sync_only (ok : call -> Prop) A (p : api A) : (forall c, ok c -> ~ uses_queue c \/ exists cf m, c = KDecrypt cf m) -> libcode ok p ->
  only (fun c => match c with PSync _ => False | _ => True end) p.
Proof.
  intros Hok. apply only_code; try by intros [].
  - intros c m Hc Hu. destruct m; try done. apply Hok in Hc as [Hc|(cf & m & ->)]; [|done]. destruct c; try done; by apply Hc.
Qed.
Definition no_queue (e : event) : Prop := match ev_key e with Some k => ~ queue_key k | None => True end.
Lemma queue_only A (p : api A) : libcode (fun c => ~ uses_queue c) p -> only (emits no_queue) p.
Proof.
  apply only_code.
  - intros m Hm r e He. destruct m; try done; simpl in He; repeat case_match; injection He as <-; unfold no_queue; simpl; try (by destruct r); done.
  - intros c m Hc Hu r e He. destruct m; try done; simpl in He; repeat case_match; simplify_eq; unfold no_queue; simpl; try (by destruct r); try done; destruct r; try done; intros Hq; apply Hu in Hq; destruct c; try done; by apply Hc.
  - intros c ns Hc Hn. split; [|intros k]; intros r e He; simpl in He; repeat case_match; simplify_eq; unfold no_queue; simpl; done.
  - intros m Hm r e He. destruct m; try done; simpl in He; repeat case_match; simplify_eq; unfold no_queue; simpl; done.
Qed.
Lemma dec_queued_alone (P : world -> forall c, resp c -> Prop) cf m pt d p evs :
  (forall w c r, P w c r -> sessions_named w c r /\ sync_mode true w c r) ->
  exec (alone P) (decrypt cf m) [] (Val (pt, d, p)) evs ->
  exists e mk s, given cf m e mk /\ EvStoreSession (m_ns m) s (Val tt) ∈ evs /\ opened m d e mk evs s p /\
    (response_due mk s -> exists l l' rest, m_jid m ∈ l /\ m_dev m ∈ l' /\
       evs = EvStore (item_key (IQueueDevices (m_ns m) (m_jid m))) (j_ints l') (Val tt) ::
             EvStore (item_key (IQueue (m_ns m))) (j_strs l) (Val tt) :: rest).
Proof.
  intros HP Hx. assert (forall w c r, P w c r -> sync_mode true w c r) as HP' by (by intros ??? []%HP).
  pose proof (dec_sync _ _ _ _ HP' (exec_reach _ _ _ _ _ Hx)) as Hq.
  destruct (alone_answers _ _ _ _ _ Hx) as (new & En & Hans). rewrite app_nil_r in En. subst new.
  destruct (dec_success _ _ _ _ _ _ _ Hx) as (e & mk & t & s & pre & core & pk & resp & Hg & E & Hl & Hd & _ & _ & Hi & Hop & _ & _ & _ & Hr1 & _).
  assert (opened m d e mk evs s p) as Hop'.
  { rewrite E. destruct Hop as [(s0 & A & B)|(k & A & B)]; [left; exists s0; split|right; exists k; split; [done|]];
      do 2 (apply elem_of_app; right); right; apply elem_of_app; by left. }
  exists e, mk, s. split; [done|]. split.
  { rewrite E. do 2 (apply elem_of_app; right). left. }
  split; [done|]. intros Hdue. injection Hd as Ej Ed.
  assert (s_ns s = m_ns m /\ s_jid s = dv_jid d /\ s_dev s = dv_id d) as (N1 & N2 & N3).
  { rewrite Forall_forall in Hans. destruct Hop' as [(s0 & A & B)|(k & A & B)].
    - apply Hans in A as (c & r & (w1 & _ & A) & Ee). destruct c; try done. injection Ee as -> -> -> ->. apply HP in A as [A _]. simpl in A.
      apply Hans in B as (c & r & (w2 & _ & B) & Ee). destruct c; try done. injection Ee as -> -> -> ->. apply HP in B as [B _]. simpl in B.
      destruct A as (E1 & E2 & E3). destruct B as (-> & -> & ->). done.
    - apply Hans in B as (c & r & (w2 & _ & B) & Ee). destruct c; try done. injection Ee as -> -> -> -> -> ->. by apply HP in B as [B _]. }
  destruct (Hr1 Hdue) as [(l & l' & Hj & Hdv & ->)|(c & p0 & s' & k & ->)].
  - rewrite N1, N2, N3, Ej, Ed in *. rewrite E. exists l, l'. eexists. split; [done|]. split; [done|]. reflexivity.
  - rewrite E in Hq. simpl in Hq. repeat (apply Forall_cons in Hq as [? Hq]). done.
Qed.
Lemma merged_lookup own all dk k v : merged (fun e => ev_key e <> Some k) own all ->
  (forall dk, replay own dk !! k = Some v) -> replay all dk !! k = Some v.
Proof.
  intros H Hv. assert (forall dk1 dk2, dk1 !! k = dk2 !! k -> replay all dk1 !! k = replay own dk2 !! k) as G; [|rewrite (G dk dk eq_refl); apply Hv].
  clear Hv. induction H as [|e own all _ IH|e own all He _ IH]; intros dk1 dk2 E; [done| |].
  - specialize (IH _ _ E). destruct e; simpl; try done; destruct r; try done.
    + destruct (decide (k = k0)) as [->|]; [by rewrite !lookup_insert|by rewrite !lookup_insert_ne].
    + destruct (decide (k = k0)) as [->|]; [by rewrite !lookup_delete|by rewrite !lookup_delete_ne].
  - specialize (IH _ _ E). destruct e; simpl in *; try done; destruct r; try done.
    + rewrite lookup_insert_ne; congruence.
    + rewrite lookup_delete_ne; congruence.
Qed.
Lemma merged_impl (E E' : event -> Prop) own all : (forall e, E e -> E' e) -> merged E own all -> merged E' own all.
Proof. intros HE. induction 1; constructor; auto. Qed.
Lemma one_queued (P : world -> forall c, resp c -> Prop) cf m i ps w ps' w' :
  (forall w c r, P w c r -> sessions_named w c r) -> w_sync w = true ->
  ps !! i = Some (decrypt cf m ;;; Ret tt) ->
  (forall n q, n <> i -> ps !! n = Some q -> libcode (fun c => ~ uses_queue c) q) ->
  preach (with_contract P) (ps, w) (ps', w') -> ps' !! i = Some (Ret tt) ->
  exists e mk s d p l, given cf m e mk /\ w_log w' = l ++ w_log w /\ EvStoreSession (m_ns m) s (Val tt) ∈ l /\ opened m d e mk l s p /\
    (response_due mk s -> queued (w_disk w') (m_ns m) (m_jid m) (m_dev m)).
Proof.
  intros HP Hs Hp Ho H Hd. apply mode_preach in H as [H _]; [| |done].
  2:{ apply Forall_forall. intros q Hq. apply elem_of_list_lookup in Hq as [n Hn]. destruct (decide (n = i)) as [->|Hne].
      - assert (Some q = Some (decrypt cf m ;;; Ret tt)) as [= ->] by (etrans; [symmetry; exact Hn|exact Hp]). apply only_bind; [|done].
        apply (sync_only (fun c => c = KDecrypt cf m)); [intros c ->; eauto|]. apply (app_call' _ _ (KDecrypt cf m)); [done|]. by intros ??.
      - apply (sync_only (fun c => ~ uses_queue c)); [eauto|]. by eapply Ho. }
  destruct (merged_preach _ no_queue _ _ _ _ _ _ H Hp) as (own & all & El & Edk & Hm & _ & Hx & _).
  { intros n q Hn Hq. apply queue_only. by eapply Ho. }
  specialize (Hx Hd). apply exec_bind in Hx as [([[pt d] p] & l & Hx & Hl)|(x & _ & [=])]. destruct Hl as [_ <-].
  apply dec_queued_alone in Hx as (e & mk & s & Hg & Hst & Hop & Hdue).
  2:{ intros w1 c r [A B]. split; [by apply HP|done]. }
  assert (forall e, e ∈ own -> e ∈ all) as Hin.
  { clear -Hm. induction Hm as [|e own all _ IH|e own all He _ IH]; intros e' He'; [done| |right; auto].
    apply elem_of_cons in He' as [->|He']; [left|right; auto]. }
  exists e, mk, s, d, p, all. split; [done|]. split; [done|]. split; [auto|]. split.
  { destruct Hop as [(s0 & A & B)|(k & A & B)]; [left; exists s0; split; auto|right; exists k; split; auto]. }
  intros Hr. destruct (Hdue Hr) as (l & l' & rest & Hj & Hx & ->).
  split.
  - exists l. split; [|done]. exists (j_strs l). split; [|apply is_strs]. rewrite Edk.
    eapply merged_lookup; [eapply merged_impl; [|exact Hm]|].
    + intros e0 He0 E0. unfold no_queue in He0. rewrite E0 in He0. apply He0. exists (IQueue (m_ns m)). done.
    + intros dk. simpl. rewrite lookup_insert_ne, lookup_insert; [done|]. by apply k_queue_ne.
  - exists l'. split; [|done]. exists (j_ints l'). split; [|apply is_ints]. rewrite Edk.
    eapply merged_lookup; [eapply merged_impl; [|exact Hm]|].
    + intros e0 He0 E0. unfold no_queue in He0. rewrite E0 in He0. apply He0. exists (IQueueDevices (m_ns m) (m_jid m)). done.
    + intros dk. simpl. by rewrite lookup_insert.
Qed.
