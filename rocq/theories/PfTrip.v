(** C88 *)
From Verif Require Import Trip PfWp PfEmits PfExec PfAlone PfLog PfEncrypt.
Open Scope prog_scope.
Open Scope list_scope.

Lemma sealed_more ns p e n l : sealed ns p e l -> sealed ns p e (n ++ l).
Proof.
  intros [(s & s' & H)|(j & x & b & s & H)]; [left; exists s, s'|right; exists j, x, b, s]; apply elem_of_app; by right.
Qed.
Lemma written_more cf pt m p n l : written cf pt m p l -> written cf pt m p (n ++ l).
Proof.
  intros (H1 & H2 & (b & H3 & H4) & H5). split; [done|]. split; [done|]. split.
  - exists b. split; [done|]. apply elem_of_app. by right.
  - intros e k Hk. eapply sealed_more, H5, Hk.
Qed.

Section trip.
  Context (P : world -> forall c, resp c -> Prop).
  Notation T := (fun _ : list event => True).
  Notation awp p R l := (wp (alone P) T p R l).

  Lemma awp_any {A} (p : api A) (R : outcome A -> list event -> Prop) l : (forall o n, R o (n ++ l)) -> awp p R l.
  Proof using Type.
    revert l. induction p as [a|e|c k IH]; intros l HR; [exact (HR (Val a) [])|exact (HR (Exn e) [])|].
    change (forall r, allowed (alone P) l c r -> True /\ awp (k r) R (Prog.apply (alone P) l c r)).
    intros r Hr. split; [done|]. apply IH. intros o n. simpl.
    destruct (event_of c r) as [ev|]; [|apply HR]. pose proof (HR o (n ++ [ev])) as H. rewrite <- app_assoc in H. exact H.
  Qed.
  Lemma awp_cmd {A} c (cast : resp c -> outcome A) (ev : resp c -> event) (R : outcome A -> list event -> Prop) l :
    (forall r, event_of c r = Some (ev r)) -> (forall r, R (cast r) (ev r :: l)) -> awp (Step c (fun r => of_outcome (cast r))) R l.
  Proof using Type.
    intros He HR. change (forall r, allowed (alone P) l c r -> True /\ awp (of_outcome (cast r)) R (Prog.apply (alone P) l c r)).
    intros r _. split; [done|]. apply wp_of_outcome. simpl. rewrite He. apply HR.
  Qed.

  (** one device: the messages so far are kept, the collected keys all belong to [p] *)
  Lemma awp_device ns p cache st keys d ms l :
    es_messages st = ms -> Forall (fun k => sealed ns p k.1 l) keys ->
    awp (enc_device ns p cache (st, keys) d)
      (fun o l' => exists n, l' = n ++ l /\
        match o with Val (st', keys') => es_messages st' = ms /\ Forall (fun k => sealed ns p k.1 l') keys' | Exn _ => True end) l.
  Proof using Type.
    intros Hms Hk. unfold enc_device. apply wp_bind, awp_any. intros [m|x] n1; [|by exists n1].
    apply wp_bind, awp_any. intros [cache'|x] n2; [|by exists (n2 ++ n1); rewrite app_assoc]. cbv zeta. apply wp_bind, wp_try.
    assert (forall n, Forall (fun k => sealed ns p k.1 (n ++ l)) keys) as Hk'.
    { intros n. eapply Forall_impl; [exact Hk|]. intros k Hx. by apply sealed_more. }
    assert (forall (o : outcome (session * ekm)) n, (forall s e, o = Val (s, e) -> sealed ns p e (n ++ l)) ->
      awp (match o with
           | Exn (EBundleDownloadFailed as e) | Exn (EBundleNotFound as e) | Exn (EKeyExchangeFailed as e) =>
               Ret (EncState (es_messages st) (es_errors st ++ [EncError ns (dv_jid d) (dv_id d) e])
                      (es_sessions st) (filter (fun d' => d' <> d) (es_devices st)), keys)
           | Exn e => Raise e
           | Val (s, e) =>
               Ret (EncState (es_messages st) (es_errors st) (es_sessions st ++ [(ns, s)]) (es_devices st),
                    keys ++ [(e, kex_to_send s)])
           end)
        (fun o l' => exists n, l' = n ++ l /\
          match o with Val (st', keys') => es_messages st' = ms /\ Forall (fun k => sealed ns p k.1 l') keys' | Exn _ => True end) (n ++ l)) as Hend.
    { intros o n Ho. destruct o as [[s e]|x].
      - exists n. split; [done|]. split; [done|]. apply Forall_app. split; [apply Hk'|]. constructor; [|constructor]. by eapply Ho.
      - destruct x; exists n; (split; [done|]); try exact I; (split; [done|]; apply Hk'). }
    destruct m as [s|].
    - unfold b_enc_key. eapply (awp_cmd (BEncKey ns s p) (fun r => r) (fun r => EvEncKey ns s p r)); [done|].
      intros r. rewrite app_assoc. apply (Hend r (EvEncKey ns s p r :: n2 ++ n1)). intros s' e ->.
      left. exists s, s'. left.
    - apply wp_bind.
      assert (forall b n, awp (b_build_active ns (dv_jid d) (dv_id d) b p)
        (fun o l' => exists n, l' = n ++ l /\ forall s e, o = Val (s, e) -> sealed ns p e l') (n ++ l)) as Hb.
      { intros b n. unfold b_build_active. eapply (awp_cmd (BBuildActive ns (dv_jid d) (dv_id d) b p) (fun r => r) (fun r => EvBuildActive ns (dv_jid d) (dv_id d) b p r)); [done|].
        intros r. exists (EvBuildActive ns (dv_jid d) (dv_id d) b p r :: n). split; [done|]. intros s e ->. right. exists (dv_jid d), (dv_id d), b, s. left. }
      assert (forall b n, awp (b_build_active ns (dv_jid d) (dv_id d) b p) (fun o l' => awp (match o with
           | Exn (EBundleDownloadFailed as e) | Exn (EBundleNotFound as e) | Exn (EKeyExchangeFailed as e) =>
               Ret (EncState (es_messages st) (es_errors st ++ [EncError ns (dv_jid d) (dv_id d) e])
                      (es_sessions st) (filter (fun d' => d' <> d) (es_devices st)), keys)
           | Exn e => Raise e
           | Val (s, e) =>
               Ret (EncState (es_messages st) (es_errors st) (es_sessions st ++ [(ns, s)]) (es_devices st),
                    keys ++ [(e, kex_to_send s)])
           end) (fun o l' => exists n, l' = n ++ l /\
          match o with Val (st', keys') => es_messages st' = ms /\ Forall (fun k => sealed ns p k.1 l') keys' | Exn _ => True end) l') (n ++ l)) as Hb'.
      { intros b n. eapply wp_conseq; [apply Hb|]. intros o l' (n' & -> & Ho). by apply Hend. }
      clear Hb. rewrite app_assoc. destruct (head _) as [b|]; [exact (Hb' b (n2 ++ n1))|].
      apply awp_any. intros [b|x] n3; rewrite app_assoc; [apply Hb'|]. apply (Hend (Exn x)). done.
  Qed.
  Lemma awp_backend cf pt cache st ns l :
    Forall (fun mp => written cf pt mp.1 mp.2 l) (es_messages st) ->
    awp (enc_backend cf pt cache st ns)
      (fun o l' => exists n, l' = n ++ l /\ match o with Val st' => Forall (fun mp => written cf pt mp.1 mp.2 l') (es_messages st') | Exn _ => True end) l.
  Proof using Type.
    intros Hms. unfold enc_backend. destruct (filter _ (es_devices st)) as [|d0 ds]; [by exists []|].
    destruct (dget ns pt) as [b|] eqn:Eb; [|by exists []]. apply wp_bind. cbn [of_key_error]. apply wp_ret'. apply wp_bind.
    unfold b_enc_plain. eapply (awp_cmd (BEncPlain ns b) (fun r => r) (fun r => EvEncPlain ns b r)); [done|].
    intros [[content p]|x]; [|by exists [EvEncPlain ns b (Exn x)]]. set (l1 := _ :: l).
    apply wp_bind, awp_any. intros [ds'|x] n2; [|by exists (n2 ++ [EvEncPlain ns b (Val (content, p))]); rewrite <- app_assoc].
    apply wp_bind. eapply (wp_fold_prog _ _ (fun _ acc l' => exists n, l' = n ++ l1 /\
      es_messages acc.1 = es_messages st /\ Forall (fun k => sealed ns p k.1 l') acc.2)).
    - exists n2. split; [done|]. split; [done|]. constructor.
    - intros pre d post [st1 keys1] l2 _ (n & -> & H1 & H2). eapply wp_conseq; [by apply awp_device|].
      intros [[st2 keys2]|x] l3 (n' & -> & H).
      + exists (n' ++ n). split; [by rewrite app_assoc|]. exact H.
      + exists (n' ++ n ++ [EvEncPlain ns b (Val (content, p))]). by rewrite <- !app_assoc.
    - intros [st1 keys1] l2 (n & -> & H1 & H2). exists (n ++ [EvEncPlain ns b (Val (content, p))]). split; [by rewrite <- app_assoc|].
      simpl in *. rewrite H1. apply Forall_app. split.
      + eapply Forall_impl; [exact Hms|]. intros mp Hm. change (n ++ l1) with (n ++ [EvEncPlain ns b (Val (content, p))] ++ l). rewrite app_assoc. by apply written_more.
      + constructor; [|constructor]. split; [done|]. split; [done|]. split.
        * exists b. split; [done|]. apply elem_of_app. right. left.
        * intros e k Hk. eapply Forall_forall in H2; [|exact Hk]. exact H2.
  Qed.
  Lemma enc_written cf mtd ident pt priority jids msgs errs m p evs :
    exec (alone P) (encrypt cf mtd jids pt priority ident) [] (Val (msgs, errs)) evs -> (m, p) ∈ msgs -> written cf pt m p evs.
  Proof using Type.
    intros H Hin.
    assert (awp (encrypt cf mtd jids pt priority ident) (fun o l' => match o with Val r => Forall (fun mp => written cf pt mp.1 mp.2 l') r.1 | Exn _ => True end) []) as Hw.
    { unfold encrypt. cbv zeta.
      apply wp_bind, awp_any. intros [av|x] n1; [|done]. apply wp_bind, awp_any. intros [pr|x] n2; [|done].
      apply wp_bind, awp_any. intros [js|x] n3; [|done]. apply wp_bind, awp_any. intros [tmp|x] n4; [|done].
      apply wp_bind, awp_any. intros [ds|x] n5; [|done]. apply wp_bind, awp_any. intros [ds1|x] n6; [|done].
      apply wp_bind, awp_any. intros [ds2|x] n7; [|done]. apply wp_bind, awp_any. intros [bs|x] n8; [|done].
      set (l0 := n8 ++ _). clearbody l0. apply wp_bind.
      eapply (wp_fold_prog _ _ (fun _ st l' => Forall (fun mp => written cf pt mp.1 mp.2 l') (es_messages st))).
      - constructor.
      - intros pre ns post st l' _ Hst. eapply wp_conseq; [by apply awp_backend|]. intros [st'|x] l2 (n & -> & Ho); done.
      - intros st l' Hst. destruct (no_eligible _ _ _); [|done]. apply wp_bind, awp_any. intros [ss|x] n9; [|done].
        apply wp_bind, awp_any. intros [u|x] n10; [|done]. eapply Forall_impl; [exact Hst|]. intros mp Hm.
        rewrite app_assoc. by apply written_more. }
    pose proof (wp_exec _ _ _ _ _ _ _ Hw H) as HF. simpl in HF. eapply Forall_forall in HF; [|exact Hin]. exact HF.
  Qed.
End trip.
