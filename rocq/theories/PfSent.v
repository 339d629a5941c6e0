(** C90: why encrypt fails when nothing outside fails. *)
From Verif Require Import Deliver Env PfWp PfEmits PfExec PfAlone PfHist PfLife PfTyped PfInfo PfFrame PfLog PfLoaded PfEncrypt PfEncrypt2 PfEncrypt3 PfEncrypt4 PfEncrypt5 PfHealth.
Open Scope prog_scope.
Open Scope list_scope.

(** ** The loaded backends stay distinct *)
Lemma psafe_exec (I : world -> Prop) {A} (p : api A) w o w' : psafe base I p -> I w -> exec base p w o w' -> I w'.
Proof.
  revert w. induction p as [a|e|c k IH]; intros w Hp HI H.
  - by destruct H as [_ ->].
  - by destruct H as [_ ->].
  - destruct H as (r & Hr & H). destruct (Hp w r HI Hr) as [H1 H2]. by eapply IH.
Qed.
Lemma create_distinct P fuel a w cf w' : exec base (create P fuel a) w (Val cf) w' -> distinct w'.
Proof.
  intros H. pose proof (distinct_app (fun _ => True) (create P fuel a) (app_call _ _ (KCreate P fuel a) I ltac:(done))) as HP.
  unfold create in H, HP. destruct (negb (bool_decide (length (pyset (a_backends a)) = length (a_backends a)))) eqn:E1; [by destruct H as [[=] _]|].
  destruct (negb ((25 <=? a_threshold a) && (a_threshold a <=? 99))%Z); [by destruct H as [[=] _]|].
  apply negb_false_iff, bool_decide_eq_true in E1.
  assert (NoDup (a_backends a)) as Hnd.
  { by apply pyset_length. }
  destruct H as (r & _ & H).
  destruct (HP empty_world r) as [_ HP']; [constructor|done|].
  match type of H with exec _ ?q _ _ _ => change (psafe base distinct q) in HP' end.
  refine (psafe_exec _ _ _ _ _ HP' _ H). exact Hnd.
Qed.
Lemma life_distinct me w0 w cf : life me (Off, w0) (On cf, w) -> distinct w.
Proof.
  intros H. enough (forall s s', rtc (lives me) s s' -> match s.1.1 with Off => True | On _ => distinct s.1.2 end ->
    match s'.1.1 with Off => True | On _ => distinct s'.1.2 end) as HL by exact (HL _ _ H I).
  clear. intros s s' H. induction H as [s|s s1 s2 Hs _ IH]; [done|]. intros H. apply IH. clear IH.
  destruct Hs as [P fuel a w cf w' D _ Hx| | |cf A p w o w' D Hp Hx| |cf j w w' D _ Hx|cf j e w w' D _ Hx|];
    try done; cbn [fst snd] in H |- *.
  - by eapply create_distinct.
  - eapply psafe_exec; [by eapply distinct_app|exact H|exact Hx].
  - eapply psafe_exec; [|exact H|exact Hx]. apply (distinct_app (fun _ => True)), (app_call _ _ (KPurgeJid j)); done.
  - eapply psafe_exec; [|exact H|exact Hx]. apply (distinct_app (fun _ => True)), (app_call _ _ (KPurgeJid j)); done.
Qed.
Definition calmly (w : world) (c : cmd) (r : resp c) : Prop := healthy w c r /\ distinct_backends w c r.
Lemma exec_distinct {A} (p : api A) w o w' : psafe base distinct p -> distinct w -> exec (with_contract healthy) p w o w' ->
  exec (with_contract calmly) p w o w'.
Proof.
  revert w. induction p as [a|e|c k IH]; intros w Hp HI H; [done|done|].
  destruct H as (r & [Hr Hh] & H). destruct (Hp w r HI Hr) as [H1 H2]. exists r. split; [|by apply IH].
  split; [done|]. split; [done|]. destruct c; try done. simpl in *. by subst.
Qed.

(** ** Every recorded call was answered as the contract says *)
Lemma exec_answers (P : world -> forall c, resp c -> Prop) {A} (p : api A) w o w' : exec (with_contract P) p w o w' ->
  exists evs, w_log w' = evs ++ w_log w /\ forall e, e ∈ evs -> exists w1 c r, event_of c r = Some e /\ P w1 c r.
Proof.
  revert w. induction p as [a|e|c k IH]; intros w H.
  - destruct H as [_ ->]. exists []. split; [done|]. by intros e ?%elem_of_nil.
  - destruct H as [_ ->]. exists []. split; [done|]. by intros e0 ?%elem_of_nil.
  - destruct H as (r & [Hr HP] & H). apply IH in H as (evs & El & Hev).
    assert (w_log (Prog.apply (with_contract P) w c r) = option_list (event_of c r) ++ w_log w) as E.
    { simpl. destruct c; try done; by destruct r. }
    exists (evs ++ option_list (event_of c r)). split; [by rewrite El, E, app_assoc|].
    intros e [He|He]%elem_of_app; [by apply Hev|]. exists w, c, r. split; [|done]. destruct (event_of c r); [|by apply elem_of_nil in He].
    simpl in He. by apply elem_of_list_singleton in He as ->.
Qed.

Section why.
  Context (cf : cfg) (mtd : list device -> option string -> api unit) (ident : option string) (pt : list (string * bytes))
    (priority : option (list string)) (bare_jids : list string).
  Notation S := (with_contract calmly).
  Notation jids := (all_jids cf bare_jids).
  Notation enc := (encrypt cf mtd bare_jids pt priority ident).
  Definition okc (w : world) (e : exn) : Prop :=
    internal e \/ (e = EUnknownNamespace /\ exists l, priority = Some l /\ set_diff l (w_loaded w) <> []).
  Lemma okc_x w c r e : answer calmly c r -> resp_exn c r = Some e -> okc w e \/ no_bundle c e.
  Proof.
    intros (w1 & _ & H & _) E. right. unfold healthy in H. rewrite E in H. destruct H as [(ns & j & x & ->) H]. simpl. tauto.
  Qed.
  Lemma okc_in w : okc w EKeyError /\ okc w ETypeError /\ okc w ENothing /\ okc w EBinascii.
  Proof. unfold okc, internal. tauto. Qed.
  Lemma calmly_distinct w c r : calmly w c r -> distinct_backends w c r.
  Proof. by intros [_ H]. Qed.

  (** the exceptions that come from the records themselves, from the callback, or for a reason *)
  Lemma enc_why w x w' : exec S enc w (Exn x) w' ->
    exists evs, w_log w' = evs ++ w_log w /\
      (internal x \/ (exists und s1, exec S (mtd und ident) s1 (Exn x) w') \/ enc_reason cf bare_jids pt priority w evs x).
  Proof.
    intros H. pose proof (exec_answers _ _ _ _ _ H) as (evs & El & Hans).
    exists evs. split; [done|].
    assert (okc w x -> internal x \/ (exists und s1, exec S (mtd und ident) s1 (Exn x) w') \/ enc_reason cf bare_jids pt priority w evs x) as Hok.
    { intros [Hi|(-> & l & Ep & Hd)]; [by left|]. right. right. simpl. destruct (set_diff l (w_loaded w)) as [|n d] eqn:Ed; [done|].
      exists l, n. split; [done|]. assert (n ∈ set_diff l (w_loaded w)) as Hn by (rewrite Ed; left).
      apply elem_of_list_filter in Hn as [? ?]. done. }
    assert (forall l, priority = Some l -> set_diff l (w_loaded w) <> [] -> okc w EUnknownNamespace) as Hun.
    { intros l Hp Hs. right. split; [done|]. by exists l. }
    apply (wp_exec _ _ _ _ _ _ _ (encrypt_base_x calmly calmly_distinct cf mtd ident pt priority bare_jids (okc w) (okc_x w) (okc_in w) w Hun)) in H.
    inversion H as [pre e s' E HF Ho|s0 devs cache o s' Hch Hend]; subst; [by apply Hok|]. clear H.
    destruct (chosen_base calmly cf priority bare_jids _ _ _ _ Hch) as ((pi & El0 & Hpi) & Hca & Hk & Hrec & Hcomp).
    assert (forall und s1 s2 e1, w_log s1 = e1 ++ w_log s0 -> w_disk s1 = w_disk s0 -> decided S w_log w_disk mtd ident und s1 s2 ->
      exists dec, w_log s2 = dec ++ e1 ++ pi ++ w_log w /\ (und = [] -> w_disk s2 = w_disk s0)) as Hdecd.
    { intros und s1 s2 e1 E1 D1 [(-> & E & D)|(Hne & s & Hm & E & D)].
      - exists []. simpl in *. split; [by rewrite E, E1, El0|]. intros _. congruence.
      - destruct (alone_exec_gen _ _ _ _ _ [] Hm) as (dec & Ed & _). exists dec. simpl in E. split; [by rewrite E, Ed, E1, El0|done]. }
    inversion Hend as [|e1 und s1 e s Hs1 Hr Hne Hm| |e1 und s1 s2 devs' e2 und' s Hs1 Hr Hdec Hup Hr2 Hne Hs2| | |e1 und s1 s2 devs' e2 e3 ds p3 o s Hs1 Hr Hdec Hup Hr2 Hr3 Hs2 Hf]; subst; try (by apply Hok).
    - right. left. by exists und, s1.
    - right. right. destruct Hs1 as [Hs1 D1], Hs2 as [Hs2 D2]. destruct (Hdecd _ _ _ _ Hs1 D1 Hdec) as (dec & Ed & Du).
      destruct (updated_base calmly cf priority bare_jids w s0 und s2 devs devs' cache Hup Du Hca Hk Hrec) as (_ & _ & Hk' & Hrec').
      destruct und' as [|d und']; [done|]. exists d.
      assert (d ∈ d :: und') as Hd by left. split.
      { apply (Hrec' d). eapply round_sub; [by apply dkey_nodup|exact Hr2|done]. }
      assert (evs = e2 ++ dec ++ e1 ++ pi) as ->.
      { apply (app_inv_tail (w_log w)). by rewrite <- El, Hs2, Ed, <- !app_assoc. }
      rewrite last_eval_app. apply (round_last devs' (dkey_nodup _ Hk') _ _ _ d Hr2) in Hd. by rewrite Hd.
    - destruct Hs1 as [Hs1 D1], Hs2 as [Hs2 D2]. destruct (Hdecd _ _ _ _ Hs1 D1 Hdec) as (dec & Ed & Du).
      inversion Hf as [| bks st evs0 items Hb HD Hn | |]; subst; try (by apply Hok).
      right. right. apply fin_mid in Hf as Hm. destruct (mid_facts _ _ _ _ _ _ _ Hm) as (_ & Hnev & _).
      destruct (updated_base calmly cf priority bare_jids w s0 und s2 devs devs' cache Hup Du Hca Hk Hrec) as (_ & Hkk & Hk' & Hrec').
      assert (evs = p3 ++ e3 ++ e2 ++ dec ++ e1 ++ pi) as ->.
      { apply (app_inv_tail (w_log w)). by rewrite <- El, Hs2, Ed, <- !app_assoc. }
      split; [done|]. intros j (Hj & Hme & Hnone)%no_elig. apply elem_jids in Hj as [Hj|Hj]; [|done]. split; [done|]. split; [done|].
      intros i (A1 & (ik & A2) & A3).
      destruct (Hcomp j i ik (or_introl Hj)) as (d0 & Hd0 & Ek0); [by intros [? _]|done|done|done|].
      assert (dkey d0 ∈ dkey <$> devs') as Hin by (rewrite Hkk; by apply elem_of_list_fmap_1).
      apply elem_of_list_fmap in Hin as (d & Ek & Hd). rewrite Ek0 in Ek.
      destruct (round_ts devs' (dkey_nodup _ Hk') _ _ _ Hr3) as (ts & Hnd & Hts & E3 & Eds).
      assert (exists t, (d, t) ∈ ts) as [t Ht].
      { rewrite <- Hts in Hd. apply elem_of_list_fmap in Hd as ([d' t] & -> & Hd). by exists t. }
      destruct (decide (t = Trusted)) as [->|Hne].
      2:{ left. exists d, t. split; [done|]. split; [|done]. rewrite last_eval_app, last_eval_noev by done.
          rewrite last_eval_app, E3, (evals_last ts d t) by done. done. }
      right. assert (d ∈ ds) as Hds.
      { rewrite Eds. apply elem_of_list_fmap. exists (d, Trusted). split; [done|]. by apply elem_of_list_filter. }
      destruct (decide (d ∈ omap it_failed items)) as [Hfail|Hfail].
      2:{ exfalso. apply (Hnone d); [|by injection Ek]. rewrite (ed_devs _ _ _ _ _ _ _ _ HD). by apply elem_of_list_filter. }
      apply elem_of_list_omap in Hfail as (it & Hit & E). unfold it_failed in E. destruct (it_res it) as [|e] eqn:Er; [done|]. injection E as E.
      pose proof (ed_blame _ _ _ _ _ _ _ _ HD) as Hbl. rewrite Forall_forall in Hbl. destruct (Hbl it Hit e Er) as [_ Hw].
      rewrite E in Hw. injection Ek as -> ->. exists (it_ns it), e.
      assert (forall ev, ev ∈ p3 -> exists w1 c r, event_of c r = Some ev /\ calmly w1 c r) as Hans'.
      { intros ev Hev. apply Hans. apply elem_of_app. by left. }
      destruct Hw as [Hw|[(b & p & Hw)|(ses & p & _ & Hw)]].
      + apply elem_of_app. by left.
      + exfalso. apply Hans' in Hw as (w1 & c & r & Ev & Hh & _). unfold healthy in Hh. destruct c; try discriminate Ev. injection Ev as -> -> -> -> -> ->.
        by destruct Hh as [(? & ? & ? & [=]) _].
      + exfalso. apply Hans' in Hw as (w1 & c & r & Ev & Hh & _). unfold healthy in Hh. destruct c; try discriminate Ev. injection Ev as -> -> -> ->.
        by destruct Hh as [(? & ? & ? & [=]) _].
  Qed.
End why.

Section whole.
  Context (me : string) (w0 : world) (cf cf' : cfg) (H0 : w_disk w0 = ∅) (Hcf : same_device cf cf').
  Context (mtd : list device -> option string -> api unit) (ident : option string) (pt : list (string * bytes))
    (priority : option (list string)) (bare_jids : list string).
  Context (Hm : forall ds i, appcode (on cf) (mtd ds i) /\
    forall w1 e' w2, exec base (mtd ds i) w1 (Exn e') w2 -> is_omemo e' = true \/ e' = ECancelled).
  Lemma sent_why w x w' : life me (Off, w0) (On cf, w) ->
    exec (with_contract healthy) (encrypt cf' mtd bare_jids pt priority ident) w (Exn x) w' ->
    exists evs, w_log w' = evs ++ w_log w /\
      ((exists und w1, exec (with_contract healthy) (mtd und ident) w1 (Exn x) w') \/ enc_reason cf' bare_jids pt priority w evs x).
  Proof.
    intros HL H.
    assert (appcode (on cf) (encrypt cf' mtd bare_jids pt priority ident)) as Hac.
    { apply (app_call _ _ (KEncrypt cf' mtd bare_jids pt priority ident)); [exact Hcf|]. intros ?????? [= -> -> -> -> -> ->] ds i. apply Hm. }
    pose proof (exec_distinct _ _ _ _ (distinct_app _ _ Hac) (life_distinct _ _ _ _ HL) H) as Hc.
    destruct (enc_why cf' mtd ident pt priority bare_jids w x w' Hc) as (evs & El & [Hi|[(und & s1 & Hx)|HR]]).
    - exists evs. split; [done|]. right. apply with_contract_exec in H.
      destruct (life_raises me w0 w cf (KEncrypt cf' mtd bare_jids pt priority ident) x w' H0 HL Hcf Hm H) as [Ho|[->|[-> (n & Hn & Hp)]]].
      + destruct Hi as [->|[->|[->| ->]]]; discriminate.
      + by destruct Hi as [|[|[|]]].
      + exists n. split; [|done]. by destruct priority.
    - exists evs. split; [done|]. left. exists und, s1. eapply exec_contract; [| |exact Hx]; [done|]. by intros ? ? ? [? [? _]].
    - exists evs. split; [done|]. by right.
  Qed.
  Lemma sent_ok w o w' : life me (Off, w0) (On cf, w) ->
    exec (with_contract healthy) (encrypt cf' mtd bare_jids pt priority ident) w o w' ->
    (forall ds i w1 e w2, ~ exec (with_contract healthy) (mtd ds i) w1 (Exn e) w2) ->
    (forall n, n ∈ priority_of priority w -> n ∈ w_loaded w /\ dget n pt <> None) ->
    exists evs, w_log w' = evs ++ w_log w /\
      ((forall d, requested cf' bare_jids d -> last_eval d evs <> Some (Val Undecided)) ->
       (forall j, j ∈ bare_jids -> j <> c_jid cf' -> exists x, reachable (w_disk w) (priority_of priority w) j x /\
          (forall d t, dkey d = (j, x) -> last_eval d evs = Some (Val t) -> t = Trusted) /\
          (forall ns e, EvDownloadBundle ns j x (Exn e) ∉ evs)) ->
       exists r, o = Val r).
  Proof.
    intros HL H Hq Hp. destruct o as [r|x].
    { apply exec_answers in H as (evs & El & _). exists evs. split; [done|]. by exists r. }
    destruct (sent_why w x w' HL H) as (evs & El & [(und & w1 & Hx)|HR]); [by apply Hq in Hx|].
    exists evs. split; [done|]. intros Hu Hj. exfalso. destruct x; cbn [enc_reason] in HR; try exact HR.
    all: match type of HR with context [dget] => destruct HR as (n & Hn & HR); by apply Hp in Hn as [_ ?]
      | context [w_loaded] => destruct HR as (l & n & -> & Hn & HR); by apply HR, Hp
      | context [Undecided] => destruct HR as (d & Hd & HR); by apply Hu in HR
      | _ => idtac end.
    match type of HR with ?l <> [] /\ _ => destruct l as [|j l']; [by destruct HR|] end. destruct HR as [_ HR]. destruct (HR j) as (H1 & H2 & HR'); [left|].
    destruct (Hj j H1 H2) as (x & Hx & A1 & A2). destruct (HR' x Hx) as [(d & t & B1 & B2 & B3)|(ns & e & B)].
    - by apply B3, (A1 d).
    - by apply A2 in B.
  Qed.
End whole.
