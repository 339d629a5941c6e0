(** decrypt: all its calls. *)
From Verif Require Import Api Spec Alone Dec PfWp PfEmits PfUpdate PfDevices PfInfo PfExec PfPurge PfAlone PfLog PfEncrypt PfEmpty PfDec PfDec2.
Open Scope prog_scope.
Open Scope list_scope.

Section master.
  Context (P : world -> forall c, resp c -> Prop) (cf : cfg) (m : message).
  Notation S := (alone P).
  Notation ns := (m_ns m).

  Definition same_key (d : device) (mk : option kex) : Prop := forall k, mk = Some k -> kx_ik k = dv_ik d.
  Lemma same_key_dec d mk : same_key d mk \/ exists k, mk = Some k /\ kx_ik k <> dv_ik d.
  Proof.
    destruct mk as [k|]; [|by left]. destruct (decide (kx_ik k = dv_ik d)) as [E|E]; [left|right; eauto]. by intros k' [= <-].
  Qed.

  Definition after_eval (d : device) (e : ekm) (mk : option kex) (o : outcome (option bytes * device * pkm)) (pre evs : list event) : Prop :=
    exists r, answer P (TEval d) r /\
      match r with
      | Exn x => o = Exn x /\ evs = EvEval d r :: pre
      | Val t => (t = Distrusted /\ o = Exn ESenderDistrusted /\ evs = EvEval d r :: pre) \/
         (t <> Distrusted /\
           ((exists k, mk = Some k /\ kx_ik k <> dv_ik d /\ o = Exn EPublicDataInconsistency /\ evs = EvEval d r :: pre) \/
            (same_key d mk /\ exists post, evs = post ++ EvEval d r :: pre /\ traced (dstep P cf m d e mk) post /\ fin P cf m d e mk o post)))
      end.

  Lemma rest_exec d e mk pre o evs : exec S (dec_rest cf m d e mk) pre o evs -> after_eval d e mk o pre evs.
  Proof.
    unfold dec_rest, t_eval. cbn [bind]. intros (r & Hr & H). exists r. split; [done|].
    change (Prog.apply S pre (TEval d) r) with (EvEval d r :: pre) in H.
    destruct r as [t|x]; cbn [of_outcome bind] in H; [|by destruct H as [-> ->]].
    destruct (decide (t = Distrusted)) as [->|Ht]; [left; by destruct H as [-> ->]|]. right. split; [done|].
    change (exec S (dec_body cf m d e mk) (EvEval d (Val t) :: pre) o evs) in H.
    destruct (same_key_dec d mk) as [Hk|(k & -> & Hk)].
    - right. split; [done|]. exact (wp_exec _ _ _ _ _ _ _ (body_wp P cf m d e mk (EvEval d (Val t) :: pre) Hk) H).
    - left. exists k. split; [done|]. split; [done|]. unfold dec_body, dec_kex in H. rewrite decide_False in H by done.
      by destruct H as [-> ->].
  Qed.
  Lemma rest_reach d e mk pre evs : reach S (dec_rest cf m d e mk) pre evs ->
    evs = pre \/ exists r, evs = EvEval d r :: pre \/
      exists t, r = Val t /\ t <> Distrusted /\ same_key d mk /\
        exists post, evs = post ++ EvEval d r :: pre /\ traced (dstep P cf m d e mk) post.
  Proof.
    unfold dec_rest, t_eval. cbn [bind]. intros [->|(r & Hr & H)]; [by left|]. right. exists r.
    change (Prog.apply S pre (TEval d) r) with (EvEval d r :: pre) in H.
    destruct r as [t|x]; cbn [of_outcome bind] in H; [|left; by destruct H as [->|[]]].
    destruct (decide (t = Distrusted)) as [->|Ht]; [left; by destruct H as [->|[]]|].
    change (reach S (dec_body cf m d e mk) (EvEval d (Val t) :: pre) evs) in H.
    destruct (same_key_dec d mk) as [Hk|(k & -> & Hk)].
    - right. exists t. do 3 (split; [done|]). refine (wp_reach _ _ _ _ _ _ (body_wp P cf m d e mk (EvEval d (Val t) :: pre) Hk) _ H).
      exists []. split; [done|]. apply traced_nil.
    - left. unfold dec_body, dec_kex in H. rewrite decide_False in H by done. by destruct H as [->|[]].
  Qed.

  Lemma dec_exec o evs : exec S (decrypt cf m) [] o evs ->
    (evs = [] /\ ((o = Exn EUnknownNamespace /\ exists l, answer P GLoaded l /\ ns ∉ l) \/
       (o = Exn EMessageNotForUs /\ forall e mk, ~ given cf m e mk))) \/
    (exists x, o = Exn x /\ exec S (dec_sender cf m) [] (Exn x) evs /\ looked cf m 1 evs /\ exists e mk, given cf m e mk) \/
    (exists e mk d pre, given cf m e mk /\ exec S (dec_sender cf m) [] (Val d) pre /\ looked cf m 1 pre /\ dkey d = (m_jid m, m_dev m) /\
       after_eval d e mk o pre evs).
  Proof.
    intros [[-> H]|(e & mk & Hg & [(x & -> & H)|(d & pre & H1 & H2)])]%split_exec; [by left| | |done|done].
    - right. left. exists x. split; [done|]. split; [done|]. pose proof (sender_exec P cf m _ _ H) as [Hl _]. eauto.
    - right. right. exists e, mk, d, pre. pose proof (sender_exec P cf m _ _ H1) as [Hl Hd]. do 4 (split; [done|]). by apply rest_exec.
  Qed.
  Lemma dec_reach evs : reach S (decrypt cf m) [] evs ->
    (looked cf m 1 evs /\ (evs = [] \/ exists e mk, given cf m e mk)) \/
    exists e mk d pre r post, given cf m e mk /\ looked cf m 1 pre /\ dkey d = (m_jid m, m_dev m) /\ evs = post ++ EvEval d r :: pre /\
      (post = [] \/ exists t, r = Val t /\ t <> Distrusted /\ same_key d mk /\ traced (dstep P cf m d e mk) post).
  Proof.
    intros [->|(e & mk & Hg & [H|(d & pre & H1 & H2)])]%split_reach; [left| | |done|done].
    - split; [|by left]. split; [constructor|simpl; lia].
    - left. split; [by eapply sender_reach|eauto].
    - pose proof (sender_exec P cf m _ _ H1) as [Hl Hd]. apply rest_reach in H2 as [->|(r & [->|(t & -> & Ht & Hk & post & -> & Hp)])].
      + left. eauto.
      + right. exists e, mk, d, pre, r, []. do 4 (split; [done|]). by left.
      + right. exists e, mk, d, pre, (Val t), post. do 4 (split; [done|]). right. eauto.
  Qed.
End master.
