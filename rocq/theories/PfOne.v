(** Proofs for PropsOne.v: pools in which one coroutine does the work of a kind. *)
From Verif Require Import Api Spec Alone Foot Dec Publish One PfStrs PfTyped PfWp PfHist PfEmits PfFoot PfAlone PfLog PfWalk PfLoaded PfEmpty PfPublish
  PfDec5 PfDec6.
Open Scope prog_scope.
Open Scope list_scope.

(** ** Programs with commands of a kind only *)
Fixpoint only (okc : cmd -> Prop) {A} (p : api A) : Prop :=
  match p with Ret _ | Raise _ => True | Step c k => okc c /\ forall r, only okc (k r) end.
Section only.
  Context (okc : cmd -> Prop).
  Lemma only_bind {A B} (p : api A) (f : A -> api B) : only okc p -> (forall a, only okc (f a)) -> only okc (bind p f).
  Proof. intros Hp Hf. induction p as [a|e|c k IH]; [apply Hf|done|]. destruct Hp as [Hc Hk]. split; [done|]. intros r. by apply IH. Qed.
  Lemma only_try {A} (p : api A) : only okc p -> only okc (try_ p).
  Proof. intros Hp. induction p as [a|e|c k IH]; [done|done|]. destruct Hp as [Hc Hk]. split; [done|]. intros r. by apply IH. Qed.
  Lemma only_code (ok : call -> Prop) {A} (p : api A) : (forall m, common m -> okc m) ->
    (forall c m, ok c -> uses c m -> okc m) -> (forall c ns, ok c -> refills ns c -> okc (BNumVisible ns) /\ forall k, okc (BGenerate ns k)) ->
    (forall m, harmless m = true -> okc m) -> libcode ok p -> only okc p.
  Proof using All.
    intros Hcm Hu Hr Hh H. apply (t_code (fun A p => only okc p) okc) with (ext := harmless) (ok := ok); try done.
    - intros A' B p' f. apply only_bind.
    - intros A' p'. apply only_try.
    - intros c Hc. split; [intros m; by apply Hu|]. intros ns Hns A' th rest Hrest. destruct (Hr _ _ Hc Hns) as [H1 H2].
      split; [done|]. intros r. apply only_bind; [destruct r; done|]. intros n. apply only_bind; [|done].
      destruct (n <=? th)%Z; [|done]. split; [apply H2|]. intros r'. by destruct r'.
  Qed.
End only.
Definition emits (E : event -> Prop) (c : cmd) : Prop := forall r e, event_of c r = Some e -> E e.

(** ** What happened, with the part of one coroutine *)
Definition others (Q : api unit -> Prop) (i : nat) (ps : list (api unit)) : Prop := forall n p, n <> i -> ps !! n = Some p -> Q p.

Lemma ocons_app o (l1 l2 : list event) : ocons o (l1 ++ l2) = ocons o l1 ++ l2.
Proof. by destruct o. Qed.
Lemma merged_app E a1 b1 a2 b2 : merged E a1 b1 -> merged E a2 b2 -> merged E (a1 ++ a2) (b1 ++ b2).
Proof. intros H H2. induction H; simpl; [done|by constructor|by constructor]. Qed.

Lemma merged_preach_gen P E i ps w ps' w' p l :
  preach (with_contract P) (ps, w) (ps', w') -> ps !! i = Some p -> others (only (emits E)) i ps ->
  exists own all p', w_log w' = all ++ w_log w /\ w_disk w' = replay all (w_disk w) /\ merged E own all /\ ps' !! i = Some p' /\
    reach (alone P) p l (own ++ l) /\ (forall o, exec (alone P) p' (own ++ l) o (own ++ l) -> exec (alone P) p l o (own ++ l)).
Proof.
  intros H. remember (ps, w) as cfg eqn:E1. remember (ps', w') as cfg' eqn:E2. revert ps w p l E1 E2.
  induction H as [cfg|cfg cfg1 cfg' (i0 & c & k & r & Hi & [Hr HP] & Ep & Ew) _ IH]; intros ps w p l -> E2 Hp Ho.
  - injection E2 as <- <-. exists [], [], p. split; [done|]. split; [done|]. split; [constructor|]. split; [done|]. simpl.
    split; [|done]. destruct p; by left.
  - subst. destruct cfg1 as [ps1 w1]. simpl in *. subst ps1 w1. pose proof (replay_apply w c r) as Hd.
    destruct (decide (i0 = i)) as [->|Hne].
    + rewrite Hp in Hi. injection Hi as ->.
      destruct (IH (<[i:=k r]> ps) (w_apply w c r) (k r) (ocons (event_of c r) l)) as (own & all & p' & El & Ed & S & Hp' & HR & HX);
        [done|done|apply list_lookup_insert; by eapply lookup_lt_Some| |].
      { intros n q Hn Hq. eapply Ho; [exact Hn|]. etrans; [|exact Hq]. symmetry. by apply list_lookup_insert_ne. }
      exists (own ++ ocons (event_of c r) []), (all ++ ocons (event_of c r) []), p'. rewrite w_apply_log in El.
      split; [rewrite El, <- app_assoc; by destruct (event_of c r)|].
      split; [rewrite Ed, replay_app; f_equal; rewrite <- Hd; by destruct (event_of c r)|].
      split; [apply merged_app; [done|]; destruct (event_of c r); repeat constructor|]. split; [done|].
      assert (own ++ ocons (event_of c r) l = (own ++ ocons (event_of c r) []) ++ l) as E0
        by (rewrite <- app_assoc; by destruct (event_of c r)).
      rewrite E0 in HR, HX. split.
      * right. exists r. split; [by exists w|]. exact HR.
      * intros o Hx. exists r. split; [by exists w|]. apply HX. exact Hx.
    + destruct (Ho _ _ Hne Hi) as [Hc Hk].
      destruct (IH (<[i0:=k r]> ps) (w_apply w c r) p l) as (own & all & p' & El & Ed & S & Hp' & HR & HX);
        [done|done|etrans; [by apply list_lookup_insert_ne|done]| |].
      { intros n q Hn Hq. destruct (decide (n = i0)) as [->|Hn'].
        - assert (Some q = Some (k r)) as [= ->]; [|apply Hk]. rewrite <- Hq. apply list_lookup_insert. by eapply lookup_lt_Some.
        - eapply Ho; [exact Hn|]. etrans; [|exact Hq]. symmetry. by apply list_lookup_insert_ne. }
      exists own, (all ++ ocons (event_of c r) []), p'. rewrite w_apply_log in El.
      split; [rewrite El, <- app_assoc; by destruct (event_of c r)|].
      split; [rewrite Ed, replay_app; f_equal; rewrite <- Hd; by destruct (event_of c r)|].
      split; [|done]. rewrite <- (app_nil_r own). apply merged_app; [done|].
      destruct (event_of c r) as [e|] eqn:Ee; [|constructor]. constructor; [by eapply Hc|constructor].
Qed.
Lemma merged_preach P E i ps w ps' w' p :
  preach (with_contract P) (ps, w) (ps', w') -> ps !! i = Some p -> others (only (emits E)) i ps ->
  exists own all, w_log w' = all ++ w_log w /\ w_disk w' = replay all (w_disk w) /\ merged E own all /\
    reach (alone P) p [] own /\ (ps' !! i = Some (Ret tt) -> exec (alone P) p [] (Val tt) own) /\
    (forall e, ps' !! i = Some (Raise e) -> exec (alone P) p [] (Exn e) own).
Proof.
  intros H Hp Ho. destruct (merged_preach_gen _ _ _ _ _ _ _ _ [] H Hp Ho) as (own & all & p' & El & Ed & S & Hp' & HR & HX).
  rewrite app_nil_r in HR, HX. exists own, all. repeat (split; [done|]). split.
  - intros H'. rewrite Hp' in H'. injection H' as ->. by apply HX.
  - intros e H'. rewrite Hp' in H'. injection H' as ->. by apply HX.
Qed.

(** ** Sessions: C42 *)
Definition no_session (e : event) : Prop := match e with EvStoreSession _ _ _ | EvPurge _ _ | EvPurgeJid _ _ _ => False | _ => True end.
Lemma merged_session own all L ns j x : merged no_session own all -> last_session (all ++ L) ns j x = last_session (own ++ L) ns j x.
Proof.
  induction 1 as [|e own all _ IH|e own all He _ IH]; [done| |].
  - destruct e; simpl; try done; destruct r; try done; case_match; done.
  - by destruct e.
Qed.
Lemma session_only A (p : api A) : libcode (fun c => ~ stores_sessions c) p -> only (emits no_session) p.
Proof.
  apply only_code.
  - intros m Hm r e He. destruct m; try done; simpl in He; repeat case_match; by injection He as <-.
  - intros c m Hc Hu r e He. destruct m; try done; simpl in He; repeat case_match; simplify_eq; try done; destruct c; try done; by apply Hc.
  - intros c ns Hc Hn. split; [|intros k]; intros r e He; simpl in He; repeat case_match; by simplify_eq.
  - intros m Hm r e He. destruct m; try done; simpl in He; repeat case_match; by simplify_eq.
Qed.
(** The loaded backends stay distinct. *)
Lemma code_mono (ext ext' : cmd -> bool) (ok ok' : call -> Prop) A (p : api A) :
  (forall c, ext c = true -> ext' c = true) -> (forall c, ok c -> ok' c) -> code ext ok p -> code ext' ok' p.
Proof.
  intros He Hok. induction 1 as [A a|A e|A B p f Hp IHp Hf IHf|A p Hp IHp|c Hc|c Hc Hm IHm].
  - constructor.
  - constructor.
  - by apply app_bind.
  - by apply app_try.
  - apply app_cmd. by apply He.
  - apply app_call; [by apply Hok|]. intros. by eapply IHm.
Qed.
Lemma distinct_more (P : world -> forall c, resp c -> Prop) (ps : list (api unit)) w cfg' :
  NoDup (w_loaded w) -> Forall (fun p => appcode (fun _ => True) p) ps -> preach (with_contract P) (ps, w) cfg' ->
  preach (with_contract (fun w c r => P w c r /\ distinct_backends w c r)) (ps, w) cfg'.
Proof.
  intros Hw Hps H. assert (Forall (psafe base distinct) ps) as Hs by (eapply Forall_impl; [exact Hps|]; intros p; apply distinct_app). clear Hps.
  remember (ps, w) as cfg eqn:E. revert ps w E Hw Hs.
  induction H as [cfg|cfg cfg1 cfg2 (i & c & k & r & Hi & [Ha HP] & He) Hr IH]; intros ps w -> Hw Hps; [apply preach_refl|].
  assert (preach base (ps, w) cfg1) as H1 by (eapply preach_step; [|apply preach_refl]; exists i, c, k, r; done).
  destruct (psafe_preach base distinct ps w cfg1 Hw Hps H1) as [Hw1 Hps1]. eapply preach_step.
  - exists i, c, k, r. split; [exact Hi|]. split; [|exact He]. split; [exact Ha|]. split; [done|].
    destruct c; try done. simpl in *. by subst.
  - destruct cfg1 as [ps1 w1]. by eapply IH.
Qed.
Lemma one_advanced (P : world -> forall c, resp c -> Prop) cf mtd ident pt priority bare_jids i ps w ps' w' :
  (forall w c r, P w c r -> sessions_kept w c r) -> NoDup (w_loaded w) -> (forall ds id, appcode (fun _ => True) (mtd ds id)) ->
  ps !! i = Some (encrypt cf mtd bare_jids pt priority ident ;;; Ret tt) ->
  (forall n p, n <> i -> ps !! n = Some p -> libcode (fun c => ~ stores_sessions c) p) ->
  preach (with_contract P) (ps, w) (ps', w') -> ps' !! i = Some (Ret tt) ->
  exists own all pre dec post, w_log w' = all ++ w_log w /\
    merged (fun e => match e with EvStoreSession _ _ _ | EvPurge _ _ | EvPurgeJid _ _ _ => False | _ => True end) own all /\
    own = post ++ dec ++ pre /\ Forall enc_pre pre /\ Forall enc_post post /\
    (forall en, en ∈ encs post -> last_session (w_log w') (en_ns en) (en_jid en) (en_dev en) = Some (en_session en)) /\
    forall ns s p s' k, EvEncKey ns s p (Val (s', k)) ∈ post -> Enc ns (s_jid s) (s_dev s) s' k ∈ encs post.
Proof.
  intros HP Hnd Hmtd Hp Ho H Hd. apply distinct_more in H; [|done|].
  2:{ apply Forall_forall. intros q Hq. apply elem_of_list_lookup in Hq as [n Hn]. destruct (decide (n = i)) as [->|Hne].
      - assert (Some q = Some (encrypt cf mtd bare_jids pt priority ident ;;; Ret tt)) as [= ->] by (etrans; [symmetry; exact Hn|exact Hp]).
        apply app_bind; [|intros; apply app_ret]. apply (app_call _ _ (KEncrypt cf mtd bare_jids pt priority ident)); [done|].
        intros ?????? [= <- <- <- <- <- <-] ds id. apply Hmtd.
      - eapply (code_mono harmless external (fun c => ~ stores_sessions c)); [intros c; by destruct c|done|]. by eapply Ho. }
  destruct (merged_preach _ no_session _ _ _ _ _ _ H Hp) as (own & all & El & _ & Hm & _ & Hx & _).
  { intros n q Hn Hq. apply session_only. by eapply Ho. }
  specialize (Hx Hd). apply exec_bind in Hx as [(r & l & Hx & Hl)|(x & _ & [=])]. destruct Hl as [_ <-].
  apply enc_advanced_alone in Hx as (pre & dec & post & E & H1 & H2 & H3 & H4).
  2:{ intros w1 c r0 [A B]. split; [done|by apply HP]. }
  exists own, all, pre, dec, post. repeat (split; [done|]). split; [|done].
  intros en Hen. rewrite El, (merged_session own all) by done. by apply H3.
Qed.

(** ** Bundles: C85 *)
Definition no_bundle (e : event) : Prop :=
  match e with EvUploadBundle _ _ | EvGetBundle _ _ _ _ | EvRotate _ _ | EvGenerate _ _ _ | EvHide _ _ _ | EvDeletePk _ _ _ => False | _ => True end.
Lemma bundle_only A (p : api A) : libcode (fun c => ~ publishes c) p -> only (emits no_bundle) p.
Proof.
  apply only_code.
  - intros m Hm r e He. destruct m; try done; simpl in He; repeat case_match; by injection He as <-.
  - intros c m Hc Hu r e He. destruct m; try done; simpl in He; repeat case_match; simplify_eq; try done; destruct c; try done; by apply Hc.
  - intros c ns Hc Hn. destruct c; try done; by destruct Hc.
  - intros m Hm r e He. destruct m; try done; simpl in He; repeat case_match; by simplify_eq.
Qed.
Lemma merged_split E x e y all : merged E (x ++ e :: y) all -> exists x' y', all = x' ++ e :: y' /\ merged E x x' /\ merged E y y'.
Proof.
  intros H. remember (x ++ e :: y) as l eqn:El. revert x El. induction H as [|e0 own all H IH|e0 own all He H IH]; intros x El.
  - by destruct x.
  - destruct x as [|a x]; simpl in El; injection El as -> ->.
    + exists [], all. split; [done|]. split; [constructor|done].
    + destruct (IH x eq_refl) as (x' & y' & -> & H1 & H2). exists (a :: x'), y'. split; [done|]. split; [by constructor|done].
  - destruct (IH x El) as (x' & y' & -> & H1 & H2). exists (e0 :: x'), y'. split; [done|]. split; [by constructor|done].
Qed.
Lemma merged_Forall E (Q : event -> Prop) own all : merged E own all -> (forall e, E e -> Q e) -> Forall Q own -> Forall Q all.
Proof. intros H HE. induction H as [|e own all _ IH|e own all He _ IH]; [done| |]; [intros [??]%Forall_cons|]; constructor; auto. Qed.
Lemma merged_current own all : merged no_bundle own all -> traced up_ok own -> traced up_ok all.
Proof.
  induction 1 as [|e own all H IH|e own all He H IH]; intros Ht; [done| |].
  - apply traced_cons in Ht as [H1 Ht]. apply traced_cons. split; [|by apply IH]. destruct e; try done.
    destruct H1 as (ns & mid & j & x & pre & -> & Hmid). apply merged_split in H as (mid' & pre' & -> & Hm & _).
    exists ns, mid', j, x, pre'. split; [done|]. eapply merged_Forall; [exact Hm| |exact Hmid].
    intros e He. split; [intros Hch; destruct e; done|]. intros j' x' r' ->. done.
  - apply traced_cons. split; [by destruct e|by apply IH].
Qed.
(** code of calls, by itself *)
Lemma alone_shift P {A} (p : api A) l0 : forall m l', reach (alone P) p (m ++ l0) l' -> exists evs, l' = evs ++ l0 /\ reach (alone P) p m evs.
Proof.
  induction p as [a|e|c k IH]; intros m l' H.
  - destruct H as [->|[]]. exists m. split; [done|by left].
  - destruct H as [->|[]]. exists m. split; [done|by left].
  - destruct H as [->|(r & Hr & H)]; [exists m; split; [done|by left]|].
    change (reach (alone P) (k r) (ocons (event_of c r) (m ++ l0)) l') in H. rewrite ocons_app in H.
    apply IH in H as (evs & -> & H). exists evs. split; [done|]. right. exists r. split; [done|exact H].
Qed.
Lemma alone_code_current P {A} (p : api A) : libcode (fun c => not_create c /\ plain_decision c) p -> forall l l', reach (alone P) p l l' ->
  exists evs, l' = evs ++ l /\ traced up_ok evs.
Proof.
  induction 1 as [A a|A e|A B p f Hp IHp Hf IHf|A p Hp IHp|c Hc|c [Hc Hd] Hm IHm]; intros l l' H.
  - destruct H as [->|[]]. exists []. split; [done|apply traced_nil].
  - destruct H as [->|[]]. exists []. split; [done|apply traced_nil].
  - apply reach_bind in H as [H|(a & w1 & H1 & H2)]; [by apply IHp|].
    apply exec_reach in H1. apply IHp in H1 as (e1 & E1 & T1). apply IHf in H2 as (e2 & E2 & T2).
    exists (e2 ++ e1). split; [by rewrite E2, E1, app_assoc|]. by apply traced_up_app.
  - apply IHp. by apply reach_try in H.
  - destruct H as [->|(r & _ & [->|[]])]; [exists []; split; [done|apply traced_nil]|].
    destruct c; try done; simpl; try (exists []; split; [done|apply traced_nil]); try (destruct r; (exists []; split; [done|apply traced_nil])).
    all: eexists [_]; split; [reflexivity|]; apply traced_cons; split; [done|apply traced_nil].
  - apply (alone_shift _ _ _ []) in H as (evs & -> & H). exists evs. split; [done|]. by eapply call_current.
Qed.
Lemma one_current (P : world -> forall c, resp c -> Prop) i p ps w ps' w' :
  ps !! i = Some p -> libcode (fun c => not_create c /\ plain_decision c) p ->
  (forall n q, n <> i -> ps !! n = Some q -> libcode (fun c => ~ publishes c) q) ->
  preach (with_contract P) (ps, w) (ps', w') ->
  exists evs, w_log w' = evs ++ w_log w /\ traced up_ok evs.
Proof.
  intros Hp Hc Ho H. destruct (merged_preach _ no_bundle _ _ _ _ _ _ H Hp) as (own & all & El & _ & Hm & Hr & _).
  { intros n q Hn Hq. apply bundle_only. by eapply Ho. }
  exists all. split; [done|]. apply (merged_current own); [done|].
  destruct (alone_code_current _ _ Hc _ _ Hr) as (evs & E & Ht). rewrite app_nil_r in E. by subst.
Qed.
