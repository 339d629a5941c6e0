(** decrypt with any concurrent activity. *)
From Verif Require Import Api Spec Alone Dec PfWp PfEmits PfUpdate PfDevices PfInfo PfExec PfPurge PfAlone PfLog PfEncrypt PfEncrypt4 PfEmpty PfDec PfDec2 PfDec3 PfDec4.
Open Scope prog_scope.
Open Scope list_scope.

Section alone.
  Context (P : world -> forall c, resp c -> Prop) (cf : cfg) (m : message).
  Notation S := (alone P).
  Notation ns := (m_ns m).

  Lemma dec_traced (C : event -> list event -> Prop) evs :
    (forall ev before, lookup_ev cf m ev \/ is_eval ev = true -> C ev before) ->
    (forall e mk d t pre before ev, given cf m e mk -> same_key d mk -> dkey d = (m_jid m, m_dev m) -> t <> Distrusted ->
       Forall (lookup_ev cf m) pre -> traced (dstep P cf m d e mk) before -> dstep P cf m d e mk ev before ->
       C ev (before ++ EvEval d (Val t) :: pre)) ->
    reach S (decrypt cf m) [] evs -> traced C evs.
  Proof.
    intros H1 H2 [[[Hl _] _]|(e & mk & d & pre & r & post & Hg & [Hl _] & Hd & -> & Hp)]%dec_reach.
    - intros l1 ev l2 ->. apply H1. left. rewrite Forall_forall in Hl. apply Hl. apply elem_of_app. right. left.
    - assert (traced C (EvEval d r :: pre)) as H0.
      { intros l1 ev l2 E. apply H1. destruct l1 as [|ev' l1]; [injection E as <- _; by right|]. injection E as _ ->.
        left. rewrite Forall_forall in Hl. apply Hl. apply elem_of_app. right. left. }
      destruct Hp as [->|(t & -> & Ht & Hk & Hp)]; [done|].
      induction post as [|ev post IH]; [done|]. apply traced_cons in Hp as [A B]. apply traced_cons. split; [|auto]. by eapply H2.
  Qed.

  (** ** C44 *)
  Lemma dec_trust evs : reach S (decrypt cf m) [] evs ->
    length (List.filter is_eval evs) <= 1 /\
    traced (fun ev before => lookup_ev cf m ev \/ is_eval ev = true \/ exists d, accepted m before d) evs.
  Proof.
    intros H. split.
    - assert (forall l, Forall (lookup_ev cf m) l -> List.filter is_eval l = []) as Hz.
      { induction 1 as [|x l Hx _ IH]; [done|]. by destruct x. }
      apply dec_reach in H as [[[Hl _] _]|(e & mk & d & pre & r & post & Hg & [Hl _] & Hd & -> & Hp)].
      + rewrite (Hz _ Hl). simpl. lia.
      + rewrite List.filter_app. simpl. rewrite (Hz _ Hl).
        assert (List.filter is_eval post = []) as ->; [|simpl; lia].
        destruct Hp as [->|(t & -> & Ht & Hk & Hp)]; [done|].
        clear -Hp. induction post as [|x l IH]; [done|]. apply traced_cons in Hp as [A B]. simpl. rewrite (IH B). by destruct x.
    - revert H. apply dec_traced; [intros ev before [?|?]; auto|].
      intros e mk d t pre before ev Hg Hk Hd Ht Hl _ _. right. right. exists d. split; [done|]. exists t. split; [|done].
      apply elem_of_app. right. left.
  Qed.
  Lemma eval_pos d r o evs : exec S (decrypt cf m) [] o evs -> EvEval d r ∈ evs ->
    exists e mk pre, given cf m e mk /\ Forall (lookup_ev cf m) pre /\ dkey d = (m_jid m, m_dev m) /\
      match r with
      | Exn x => o = Exn x /\ evs = EvEval d r :: pre
      | Val t => (t = Distrusted /\ o = Exn ESenderDistrusted /\ evs = EvEval d r :: pre) \/
         (t <> Distrusted /\
           ((exists k, mk = Some k /\ kx_ik k <> dv_ik d /\ o = Exn EPublicDataInconsistency /\ evs = EvEval d r :: pre) \/
            (same_key d mk /\ exists post, evs = post ++ EvEval d r :: pre /\ traced (dstep P cf m d e mk) post /\ fin P cf m d e mk o post)))
      end.
  Proof.
    intros [[-> _]|[(x & -> & _ & [Hl _] & _)|(e & mk & d0 & pre & Hg & _ & Hl & Hd & r0 & Hr & H)]]%dec_exec Hin.
    - by apply elem_of_nil in Hin.
    - rewrite Forall_forall in Hl. by apply Hl in Hin.
    - assert (d = d0 /\ r = r0) as [-> ->].
      { assert (exists post, evs = post ++ EvEval d0 r0 :: pre /\ (post = [] \/ exists t, r0 = Val t /\ t <> Distrusted /\ same_key d0 mk /\ traced (dstep P cf m d0 e mk) post)) as (post & -> & Hp).
        { destruct r0 as [t|x].
          - destruct H as [(-> & _ & ->)|(Ht & [(k & _ & _ & _ & ->)|(Hk & post & -> & Hp & _)])]; [exists []..|]; [split; [done|by left]..|].
            exists post. split; [done|]. right. eauto.
          - destruct H as [_ ->]. exists []. split; [done|by left]. }
        by eapply eval_once. }
      exists e, mk, pre. split; [done|]. split; [apply Hl|]. by split.
  Qed.
  Lemma dec_distrusted d o evs : exec S (decrypt cf m) [] o evs -> EvEval d (Val Distrusted) ∈ evs ->
    o = Exn ESenderDistrusted /\ exists pre, evs = EvEval d (Val Distrusted) :: pre /\ Forall (lookup_ev cf m) pre.
  Proof.
    intros H Hin. destruct (eval_pos _ _ _ _ H Hin) as (e & mk & pre & _ & Hl & _ & [(_ & -> & ->)|(Hn & _)]); [|done]. eauto.
  Qed.

  (** ** C45 *)
  Lemma dec_keys evs : reach S (decrypt cf m) [] evs ->
    traced (fun ev before => match ev with
      | EvSame a k r => exists d e, accepted m before d /\ given cf m e (Some k) /\ kx_ik k = dv_ik d
      | EvBuildPassive n j x k e r => exists d, accepted m before d /\ given cf m e (Some k) /\ kx_ik k = dv_ik d /\ n = ns /\ dkey d = (j, x)
      | EvDecKey n s e r => exists d mk, accepted m before d /\ given cf m e mk /\ n = ns /\
          EvLoadSession ns (dv_jid d) (dv_id d) (Val (Some s)) ∈ before /\
          match mk with
          | None => True
          | Some k => kx_ik k = dv_ik d /\ s_init s = Passive /\ EvSame (s_kex s) k true ∈ before
          end
      | _ => True
      end) evs.
  Proof.
    apply dec_traced.
    - intros ev before [H|H]; by destruct ev.
    - intros e mk d t pre before ev Hg Hk Hd Ht Hl _ H.
      assert (accepted m (before ++ EvEval d (Val t) :: pre) d) as Ha.
      { split; [done|]. exists t. split; [|done]. apply elem_of_app. right. left. }
      destruct ev; try done; simpl in H.
      + destruct H as (s & -> & _). exists d, e. auto.
      + destruct H as (-> & -> & -> & -> & -> & _). exists d. auto.
      + destruct H as (-> & -> & H). exists d, mk. split; [done|]. split; [done|]. split; [done|]. unfold existing in H. destruct mk as [k|].
        * destruct H as [Hp ->]. split; [apply elem_of_app; left; right; left|]. split; [auto|]. split; [done|]. apply elem_of_app. left. left.
        * subst before. split; [|done]. left.
  Qed.
  Lemma dec_inconsistent d t o evs : exec S (decrypt cf m) [] o evs -> EvEval d (Val t) ∈ evs -> t <> Distrusted ->
    (forall e mk, given cf m e mk -> exists k, mk = Some k /\ kx_ik k <> dv_ik d) ->
    o = Exn EPublicDataInconsistency /\ exists pre, evs = EvEval d (Val t) :: pre /\ Forall (lookup_ev cf m) pre.
  Proof.
    intros H Hin Ht Hall. destruct (eval_pos _ _ _ _ H Hin) as (e & mk & pre & Hg & Hl & _ & [(-> & _)|(_ & [(k & _ & _ & -> & ->)|(Hk & _)])]); [done|eauto|].
    destruct (Hall _ _ Hg) as (k & -> & Hne). by specialize (Hk k eq_refl).
  Qed.

  (** ** C46 *)
  Lemma dec_not_for_us o evs : exec S (decrypt cf m) [] o evs -> (forall e mk, ~ given cf m e mk) ->
    evs = [] /\ (o = Exn EMessageNotForUs \/ (o = Exn EUnknownNamespace /\ exists l, answer P GLoaded l /\ ns ∉ l)).
  Proof.
    intros [[-> [H|[H _]]]|[(x & _ & _ & _ & e & mk & Hg)|(e & mk & _ & _ & Hg & _)]]%dec_exec Hn; [auto|auto|by apply Hn in Hg..].
  Qed.
  Lemma dec_downloads evs : reach S (decrypt cf m) [] evs -> length (List.filter is_list_download evs) <= 1.
  Proof.
    intros [[[_ Hl] _]|(e & mk & d & pre & r & post & Hg & [_ Hl] & Hd & -> & Hp)]%dec_reach; [done|].
    rewrite List.filter_app. simpl. destruct Hp as [->|(t & -> & Ht & Hk & Hp)]; [done|]. by rewrite (list_downloads_post _ _ _ _ _ _ _ Hp).
  Qed.
  Lemma dec_unknown o evs : exec S (decrypt cf m) [] o evs -> Forall (fun e => is_eval e = false) evs ->
    Forall (lookup_ev cf m) evs /\ exists x, o = Exn x.
  Proof.
    intros [[-> [[-> _]|[-> _]]]|[(x & -> & _ & [Hl _] & _)|(e & mk & d0 & pre & Hg & _ & Hl & Hd & r0 & Hr & H)]]%dec_exec Hn;
      [split; [constructor|eauto]..|split; [done|eauto]|].
    exfalso. assert (EvEval d0 r0 ∈ evs) as Hin.
    { destruct r0 as [t|x].
      - destruct H as [(-> & _ & ->)|(Ht & [(k & _ & _ & _ & ->)|(Hk & post & -> & Hp & _)])]; [left|left|]. apply elem_of_app. right. left.
      - destruct H as [_ ->]. left. }
    rewrite Forall_forall in Hn. by apply Hn in Hin.
  Qed.

  (** ** Facts about the parts *)
  Definition inner (e : event) : bool := match e with EvLoadSession _ _ _ _ | EvSame _ _ _ | EvDecKey _ _ _ _ | EvBuildPassive _ _ _ _ _ _ | EvDecPlain _ _ _ _ => true | _ => false end.
  Lemma core_inner d e mk core s p pt : core_done m d e mk core s p pt ->
    Forall (fun e => inner e = true) core /\ opened m d e mk core s p /\ read m core p pt.
  Proof.
    intros (o & Ho & Hc).
    assert (Forall (fun e => inner e = true) o /\ opened m d e mk o s p) as [Hi Hop].
    { destruct Ho as [(s0 & o' & -> & He)|(k & o' & -> & -> & Hr)].
      - unfold existing in He. split.
        + constructor; [done|]. destruct mk; [destruct He as [_ ->]|subst o']; by repeat constructor.
        + left. exists s0. split; [|left]. right. destruct mk; [destruct He as [_ ->]; right; left|subst o'; left].
      - split; [|right; exists k; split; [done|left]]. constructor; [done|].
        destruct Hr as [->|(s0 & [[_ ->]|[_ ->]])]; by repeat constructor. }
    unfold read. destruct (ct_empty (m_content m)).
    - by destruct Hc as [-> ->].
    - destruct Hc as (b & -> & ->). split; [by constructor|]. split.
      + destruct Hop as [(s0 & A & B)|(k & A & B)]; [left; exists s0; split; by right|right; exists k; split; [done|by right]].
      + exists b. split; [done|left].
  Qed.
  Lemma inner_stored l : Forall (fun e => inner e = true) l -> stored l = [] /\ Forall (fun e => consumes e = false) l /\ Forall (fun e => responds e = false) l.
  Proof. induction 1 as [|e l He _ (I1 & I2 & I3)]; [done|]. destruct e; try done; (split; [done|]; split; by constructor). Qed.
  Lemma lookup_stored l : Forall (lookup_ev cf m) l -> stored l = [] /\ Forall (fun e => consumes e = false) l.
  Proof. induction 1 as [|e l He _ [I1 I2]]; [done|]. destruct e; try done; (split; [done|]; by constructor). Qed.
  Lemma stored_app l1 l2 : stored (l1 ++ l2) = stored l1 ++ stored l2.
  Proof. induction l1 as [|e l IH]; [done|]. destruct e; simpl; try done. destruct r; simpl; by rewrite IH. Qed.
  Lemma pk_stored mk s pk : pk_done cf m mk s pk -> stored pk = [] .
  Proof.
    unfold pk_done, replenished. destruct mk; [|by intros ->]. intros (sync & [->|(n & b & ->)]).
    - by destruct sync.
    - simpl. destruct (n <=? c_threshold cf)%Z; by destruct sync.
  Qed.
  Lemma before_stored (d : device) t pre core : Forall (fun e => inner e = true) core -> Forall (lookup_ev cf m) pre ->
    stored (core ++ EvEval d (Val t) :: pre) = [] /\ Forall (fun e => consumes e = false) (core ++ EvEval d (Val t) :: pre).
  Proof.
    intros (H1 & H2 & _)%inner_stored (H3 & H4)%lookup_stored. rewrite stored_app, H1. simpl. split; [done|]. apply Forall_app. split; [done|]. by constructor.
  Qed.
  Lemma opened_app d e mk l1 l2 s p : opened m d e mk l1 s p -> opened m d e mk (l1 ++ l2) s p.
  Proof. intros [(s0 & A & B)|(k & A & B)]; [left; exists s0; split|right; exists k; split; [done|]]; apply elem_of_app; by left. Qed.
  Lemma read_app l1 l2 p pt : read m l1 p pt -> read m (l1 ++ l2) p pt.
  Proof. unfold read. destruct (ct_empty _); [done|]. intros (b & A & B). exists b. split; [done|]. apply elem_of_app. by left. Qed.

  (** ** C47 *)
  Lemma dec_stores evs : reach S (decrypt cf m) [] evs ->
    traced (fun ev before => match ev with
      | EvStoreSession n s r => n = ns /\
          ((stored before = [] /\ exists d e mk p pt, accepted m before d /\ given cf m e mk /\ opened m d e mk before s p /\ read m before p pt) \/
           (exists s0 c p k before', stored before = [(ns, s0)] /\
              before = EvSend (Message ns (c_jid cf) (c_dev cf) c [(k, kex_due s)]) (s_jid s) (Val tt) ::
                EvEncKey ns s0 p (Val (s, k)) :: EvEncEmpty ns (Val (c, p)) :: before'))
      | _ => True
      end) evs.
  Proof.
    apply dec_traced.
    - intros ev before [H|H]; by destruct ev.
    - intros e mk d t pre before ev Hg Hk Hd Ht Hl _ H. destruct ev; try done; simpl in H.
      destruct H as (-> & [(p & pt & Hc)|(s0 & c & p & k & l' & -> & Hs)]); (split; [done|]).
      + left. apply core_inner in Hc as (H1 & H2 & H3). destruct (before_stored d t pre _ H1 Hl) as [H4 _]. split; [done|].
        exists d, e, mk, p, pt. split; [split; [done|]; exists t; split; [apply elem_of_app; right; left|done]|]. split; [done|].
        split; [by apply opened_app|by apply read_app].
      + right. exists s0, c, p, k, (l' ++ EvEval d (Val t) :: pre). split; [|done]. simpl.
        destruct Hs as (_ & pk & l & -> & (core & p0 & pt & -> & Hc) & Hpk). apply core_inner in Hc as (H1 & _ & _).
        destruct (before_stored d t pre _ H1 Hl) as [H4 _]. rewrite <- app_assoc, stored_app, (pk_stored _ _ _ Hpk). simpl. by rewrite H4.
  Qed.

  (** ** Successful decryption *)
  Lemma dec_success pt d p evs : exec S (decrypt cf m) [] (Val (pt, d, p)) evs ->
    exists e mk t s pre core pk resp, given cf m e mk /\
      evs = resp ++ pk ++ EvStoreSession ns s (Val tt) :: core ++ EvEval d (Val t) :: pre /\
      Forall (lookup_ev cf m) pre /\ dkey d = (m_jid m, m_dev m) /\ t <> Distrusted /\ (forall k, mk = Some k -> kx_ik k = dv_ik d) /\
      Forall (fun e => inner e = true) core /\ opened m d e mk core s p /\ read m core p pt /\
      (mk = None -> pk = []) /\ (mk <> None -> replenished cf ns s pk) /\
      (response_due mk s -> responded cf ns s resp) /\ (~ response_due mk s -> resp = []).
  Proof.
    intros [[-> [[? _]|[? _]]]|[(x & ? & _)|(e & mk & d0 & pre & Hg & _ & [Hl _] & Hd & r0 & Hr & H)]]%dec_exec; [done..|].
    destruct r0 as [t|x]; [|by destruct H]. destruct H as [(_ & ? & _)|(Ht & [(k & _ & _ & ? & _)|(Hk & post & -> & Hp & Hf)])]; [done..|].
    destruct Hf as (-> & s & core & pk & resp & -> & Hc & Hpk & Hr1 & Hr2). apply core_inner in Hc as (H1 & H2 & H3).
    exists e, mk, t, s, pre, core, pk, resp. split; [done|]. split; [by rewrite <- !app_assoc|]. do 7 (split; [done|]).
    unfold pk_done in Hpk. split; [by intros ->|]. split; [by destruct mk|]. done.
  Qed.

  (** ** C48: failing *)
  Lemma fail_end d e mk x post : traced (dstep P cf m d e mk) post -> fail P cf m d e mk x post ->
    (Forall (fun e => stored [e] = [] /\ consumes e = false) post) \/
    exists l1 s core p pt, post = l1 ++ EvStoreSession ns s (Val tt) :: core /\ core_done m d e mk core s p pt /\
      ((exists ev l', l1 = ev :: l' /\ event_exn ev = Some x) \/ answer P GSync true).
  Proof.
    assert (forall core s p pt, core_done m d e mk core s p pt -> Forall (fun e => stored [e] = [] /\ consumes e = false) core) as Hcore.
    { intros core s p pt (H & _)%core_inner. eapply Forall_impl; [exact H|]. by intros []. }
    assert (forall o s p, open_done m d e mk o s p -> Forall (fun e => stored [e] = [] /\ consumes e = false) o) as Hopen.
    { intros o s p Ho. destruct (ct_empty (m_content m)) eqn:Ec.
      - eapply Hcore. exists o. split; [done|]. by rewrite Ec.
      - assert (core_done m d e mk (EvDecPlain ns (m_content m) p (Val EmptyString) :: o) s p (Some EmptyString)) as Hc.
        { exists o. split; [done|]. rewrite Ec. eauto. }
        apply Hcore in Hc. by apply Forall_cons in Hc as [_ ?]. }
    intros Ht [(ev & rest & -> & Hx)|[(-> & _ & ->)|[(-> & -> & _)|(Hs & s & l1 & l2 & -> & Hr)]]].
    - apply traced_cons in Ht as [Hd Ht].
      assert (Hafter : forall s, after_store m d e mk s rest -> exists l1 s core p pt, ev :: rest = l1 ++ EvStoreSession ns s (Val tt) :: core /\ core_done m d e mk core s p pt /\
        ((exists ev l', l1 = ev :: l' /\ event_exn ev = Some x) \/ answer P GSync true)).
      { intros s (core & p & pt & -> & Hc). exists [ev], s, core, p, pt. split; [done|]. split; [done|]. left. eauto. }
      assert (Hsub : forall s l l', rest = l ++ l' -> after_store m d e mk s l' -> exists l1 s core p pt, ev :: rest = l1 ++ EvStoreSession ns s (Val tt) :: core /\ core_done m d e mk core s p pt /\
        ((exists ev l', l1 = ev :: l' /\ event_exn ev = Some x) \/ answer P GSync true)).
      { intros s l l' -> (core & p & pt & -> & Hc). exists (ev :: l), s, core, p, pt. split; [done|]. split; [done|]. left. eauto. }
      assert (Hres : forall s l l', rest = l ++ l' -> resp_start cf m d e mk s l' -> exists l1 s core p pt, ev :: rest = l1 ++ EvStoreSession ns s (Val tt) :: core /\ core_done m d e mk core s p pt /\
        ((exists ev l', l1 = ev :: l' /\ event_exn ev = Some x) \/ answer P GSync true)).
      { intros s l l' -> (_ & pk & l2 & -> & Ha & _). eapply (Hsub s (l ++ pk)); [by rewrite app_assoc|done]. }
      assert (Hnv : forall e0 l0, rest = e0 :: l0 -> match e0 with EvNumVisible _ _ | EvGenerate _ _ _ | EvGetBundle _ _ _ _ => True | _ => False end ->
        exists s l l', rest = l ++ l' /\ after_store m d e mk s l').
      { clear Hd Hafter Hsub Hres. intros e0 l0 E He0.
        assert (Hn1 : forall r l, traced (dstep P cf m d e mk) (EvNumVisible ns r :: l) -> exists s l' l'', EvNumVisible ns r :: l = l' ++ l'' /\ after_store m d e mk s l'').
        { intros r l [(_ & sync & s & l' & -> & _ & Ha) _]%traced_cons. exists s, [EvNumVisible ns r; consume ns sync s (Val true)], l'. done. }
        assert (Hn2 : forall k r l, traced (dstep P cf m d e mk) (EvGenerate ns k r :: l) -> exists s l' l'', EvGenerate ns k r :: l = l' ++ l'' /\ after_store m d e mk s l'').
        { intros k r l [(_ & v & l' & -> & _) Htl]%traced_cons. apply Hn1 in Htl as (s & l1 & l2 & -> & Ha). exists s, (EvGenerate ns k r :: l1), l2. done. }
        subst rest. destruct e0; try done; apply traced_cons in Ht as [Hd0 Ht0]; pose proof Hd0 as Hd1; destruct Hd1 as [-> _].
        - apply Hn1. apply traced_cons. done.
        - apply Hn2. apply traced_cons. done.
        - destruct Hd0 as (_ & _ & _ & _ & [(v & l' & -> & _)|(k & l' & -> )]).
          + apply Hn1 in Ht0 as (s & l1 & l2 & E & Ha). exists s, (EvGetBundle ns jid dev r :: l1), l2. by rewrite E.
          + apply Hn2 in Ht0 as (s & l1 & l2 & E & Ha). exists s, (EvGetBundle ns jid dev r :: l1), l2. by rewrite E. }
      destruct ev; try done; simpl in Hd.
      + right. destruct Hd as (_ & [(s & l & _ & _ & _ & H)|(s & l & l0 & l' & _ & _ & _ & -> & H)]); [by eapply (Hres s [])|by eapply (Hres s [_])].
      + left. destruct Hd as (-> & -> & -> & ->). by repeat constructor.
      + destruct Hd as (-> & [(p & pt & Hc)|(s0 & c & p & k & l' & -> & H)]).
        * left. constructor; [|by eapply Hcore]. simpl in Hx. destruct r; [done|]. done.
        * right. by eapply (Hres s0 [_; _; _]).
      + left. destruct Hd as (-> & -> & -> & -> & -> & [->|(s & [[_ ->]|[_ ->]])]); by repeat constructor.
      + right. destruct Hd as (_ & _ & s & H). by eapply (Hres s []).
      + right. destruct Hd as (_ & _ & c & l' & -> & H). by eapply (Hres s [_]).
      + left. destruct Hd as (_ & _ & _ & s & H). constructor; [done|]. by eapply Hopen.
      + left. destruct Hd as (-> & -> & H). constructor; [done|]. unfold existing in H. destruct mk; [destruct H as [_ ->]|subst rest]; by repeat constructor.
      + right. destruct Hd as (-> & _ & Ha & _). eauto.
      + right. destruct Hd as (-> & _ & Ha & _). eauto.
      + right. destruct Hd as (-> & sync & s & l' & -> & _ & Ha). by eapply (Hsub s [_]).
      + right. destruct Hd as (-> & v & l' & -> & _). edestruct Hnv as (s & l1 & l2 & E & Ha); [reflexivity|done|]. by eapply Hsub.
      + right. destruct Hd as (_ & _ & _ & _ & [(v & l' & -> & _)|(k & l' & ->)]); (edestruct Hnv as (s & l1 & l2 & E & Ha); [reflexivity|done|]; by eapply Hsub).
      + right. destruct Hd as (_ & l' & ->). edestruct Hnv as (s & l1 & l2 & E & Ha); [reflexivity|done|]. by eapply Hsub.
      + right. destruct Hd as (_ & s & s' & c & p & k & l' & -> & H & _). by eapply (Hres s [_; _]).
    - left. by repeat constructor.
    - by left.
    - right. destruct Hr as (_ & pk & l' & -> & (core & p & pt & -> & Hc) & _). exists (l1 ++ pk), s, core, p, pt.
      split; [by rewrite <- app_assoc|]. split; [done|]. by right.
  Qed.
  Lemma dec_failed x evs : exec S (decrypt cf m) [] (Exn x) evs ->
    (stored evs = [] /\ Forall (fun e => consumes e = false) evs) \/
    exists l1 s l2, evs = l1 ++ EvStoreSession ns s (Val tt) :: l2 /\
      (exists d e mk p pt, accepted m l2 d /\ given cf m e mk /\ opened m d e mk l2 s p /\ read m l2 p pt) /\
      stored l2 = [] /\ Forall (fun e => consumes e = false) l2 /\
      ((exists ev l', l1 = ev :: l' /\ event_exn ev = Some x) \/ answer P GSync true).
  Proof.
    intros [[-> _]|[(x' & _ & _ & [Hl _] & _)|(e & mk & d & pre & Hg & _ & [Hl _] & Hd & r0 & Hr & H)]]%dec_exec.
    - left. by split.
    - left. by apply lookup_stored.
    - assert (stored (EvEval d r0 :: pre) = [] /\ Forall (fun e => consumes e = false) (EvEval d r0 :: pre)) as H0.
      { apply lookup_stored in Hl as [A B]. split; [done|by constructor]. }
      destruct r0 as [t|x0]; [|destruct H as [_ ->]; by left].
      destruct H as [(_ & _ & ->)|(Ht & [(k & _ & _ & _ & ->)|(Hk & post & -> & Hp & Hf)])]; [by left|by left|].
      destruct (fail_end _ _ _ _ _ Hp Hf) as [Hn|(l1 & s & core & p & pt & -> & Hc & Hx)].
      + left. rewrite stored_app. destruct H0 as [-> H0]. split.
        * rewrite app_nil_r. clear -Hn. induction Hn as [|a l [Ha _] _ IH]; [done|]. change (a :: l) with ([a] ++ l). by rewrite stored_app, Ha.
        * apply Forall_app. split; [|done]. eapply Forall_impl; [exact Hn|]. by intros ? [_ ?].
      + right. apply core_inner in Hc as (H1 & H2 & H3). destruct (before_stored d t pre _ H1 Hl) as [H4 H5].
        exists l1, s, (core ++ EvEval d (Val t) :: pre). split; [by rewrite <- app_assoc|]. split; [|done].
        exists d, e, mk, p, pt. split; [split; [done|]; exists t; split; [apply elem_of_app; right; left|done]|]. split; [done|].
        split; [by apply opened_app|by apply read_app].
  Qed.

  (** ** C49 *)
  Lemma dec_prekeys_traced evs : reach S (decrypt cf m) [] evs ->
    traced (fun ev before => match ev with
      | EvHide n s r => n = ns /\ answer P GSync true /\ head before = Some (EvStoreSession ns s (Val tt)) /\
          exists e k, given cf m e (Some k)
      | EvDeletePk n s r => n = ns /\ answer P GSync false /\ head before = Some (EvStoreSession ns s (Val tt)) /\
          exists e k, given cf m e (Some k)
      | EvGenerate n k r => n = ns /\ exists v, head before = Some (EvNumVisible ns (Val v)) /\ (v <= c_threshold cf)%Z /\ (v + k = 100)%Z
      | EvUploadBundle b r => head before = Some (EvGetBundle ns (c_jid cf) (c_dev cf) (Val b))
      | _ => True
      end) evs.
  Proof.
    apply dec_traced.
    - intros ev before [H|H]; by destruct ev.
    - intros e mk d t pre before ev Hg Hk Hd Ht Hl _ H.
      assert (mk <> None -> exists e k, given cf m e (Some k)) as Hkex by (destruct mk as [k|]; [eauto|done]).
      destruct ev; try done; simpl in H.
      + destruct H as (-> & Hm & (core & p & pt & -> & _) & Hs). auto.
      + destruct H as (-> & Hm & (core & p & pt & -> & _) & Hs). auto.
      + destruct H as (-> & v & l' & -> & Hv & ->). split; [done|]. exists v. split; [done|]. split; [done|lia].
      + by destruct H as (_ & l' & ->).
  Qed.

  (** ** C52 *)
  Lemma dec_built evs : reach S (decrypt cf m) [] evs ->
    traced (fun ev before => match ev with
      | EvBuildPassive n j x k e r => EvLoadSession ns j x (Val None) ∈ before \/
          exists s, EvLoadSession ns j x (Val (Some s)) ∈ before /\ (s_init s <> Passive \/ EvSame (s_kex s) k false ∈ before)
      | _ => True
      end) evs.
  Proof.
    apply dec_traced.
    - intros ev before [H|H]; by destruct ev.
    - intros e mk d t pre before ev Hg Hk Hd Ht Hl _ H. destruct ev; try done; simpl in H.
      destruct H as (_ & -> & -> & _ & _ & [->|(s & [[Hs ->]|[Hs ->]])]).
      + left. left.
      + right. exists s. split; [left|by left].
      + right. exists s. split; [apply elem_of_app; left; right; left|]. right. apply elem_of_app. left. left.
  Qed.
  Lemma dec_no_session o evs n j x : exec S (decrypt cf m) [] o evs -> (forall e mk, given cf m e mk -> mk = None) ->
    EvLoadSession n j x (Val None) ∈ evs ->
    o = Exn ENoSession /\ exists d t pre, evs = EvLoadSession n j x (Val None) :: EvEval d (Val t) :: pre /\ Forall (lookup_ev cf m) pre.
  Proof.
    intros H Hn Hin.
    destruct (dec_exec _ _ _ _ _ H) as [[-> _]|[(x' & _ & _ & [Hl _] & _)|(e & mk & d & pre & Hg & _ & [Hl _] & Hd & r0 & Hr & Hx)]].
    - by apply elem_of_nil in Hin.
    - rewrite Forall_forall in Hl. by apply Hl in Hin.
    - assert (EvLoadSession n j x (Val None) ∉ EvEval d r0 :: pre) as Hnot.
      { intros [E|Hc]%elem_of_cons; [done|]. rewrite Forall_forall in Hl. by apply Hl in Hc. }
      destruct r0 as [t|x0]; [|by destruct Hx as [_ ->]].
      destruct Hx as [(_ & _ & ->)|(Ht & [(k & _ & _ & _ & ->)|(Hk & post & -> & Hp & Hf)])]; [done..|].
      apply Hn in Hg as ->. apply elem_of_app in Hin as [Hin|Hin]; [|done].
      assert (forall o s p, open_done m d e None o s p -> EvLoadSession n j x (Val None) ∉ o) as Hop.
      { intros o0 s p [(s0 & o' & -> & ->)|(k & o' & [=] & _)]. by intros [E|[E|?%elem_of_nil]%elem_of_cons]%elem_of_cons. }
      assert (forall core s p pt, core_done m d e None core s p pt -> EvLoadSession n j x (Val None) ∉ core) as Hco.
      { intros core s p pt (o0 & Ho & Hc). apply Hop in Ho. destruct (ct_empty _); [by destruct Hc as [_ ->]|].
        destruct Hc as (b & _ & ->). by intros [E|?]%elem_of_cons. }
      assert (Hpos : exists l1, post = l1 ++ [EvLoadSession ns (dv_jid d) (dv_id d) (Val None)] /\ EvLoadSession n j x (Val None) = EvLoadSession ns (dv_jid d) (dv_id d) (Val None)).
      { apply elem_of_list_split in Hin as (l1 & l2 & ->). specialize (Hp _ _ _ eq_refl) as Hs. simpl in Hs. destruct Hs as (-> & -> & -> & ->). eauto. }
      destruct Hpos as (l1 & -> & E). rewrite E.
      destruct l1 as [|ev l1 _] using rev_ind.
      + destruct o as [[[pt d'] p]|x0].
        * exfalso. destruct Hf as (_ & s & core & pk & resp & Epost & Hc & _). apply (f_equal length) in Epost.
          rewrite !app_length in Epost. simpl in Epost. assert (core = []) as -> by (destruct core; [done|simpl in Epost; lia]).
          destruct Hc as (o0 & Ho & Hc). destruct (ct_empty _); [destruct Hc as [_ <-]|by destruct Hc as (b & _ & ?)].
          destruct Ho as [(s0 & o' & ? & _)|(k & o' & _ & ? & _)]; done.
        * destruct Hf as [(ev & rest & [= <- <-] & Hev)|[(-> & _ & _)|[(-> & ? & _)|(_ & s & p1 & p2 & Epost & Hr')]]]; [done| |done|].
          -- split; [done|]. exists d, t, pre. done.
          -- exfalso. destruct Hr' as (_ & pk & l' & -> & (core & p & pt & -> & Hc) & _). apply (f_equal length) in Epost.
             simpl in Epost. rewrite !app_length in Epost. simpl in Epost. assert (core = []) as -> by (destruct core; [done|simpl in Epost; lia]).
             destruct Hc as (o0 & Ho & Hc). destruct (ct_empty _); [destruct Hc as [_ <-]|by destruct Hc as (b & _ & ?)].
             destruct Ho as [(s0 & o' & ? & _)|(k & o' & _ & ? & _)]; done.
      + (* nothing can follow *)
        exfalso. rewrite <- app_assoc in Hp. simpl in Hp. specialize (Hp _ _ _ eq_refl) as Hs.
        assert (forall s l, after_store m d e None s l -> length l > 1) as Ha.
        { intros s l (core & p & pt & -> & (o0 & Ho & Hc)). destruct Ho as [(s0 & o' & -> & ->)|(k & o' & [=] & _)].
          destruct (ct_empty _); [destruct Hc as [_ ->]|destruct Hc as (b & _ & ->)]; simpl; lia. }
        assert (forall s l, resp_start cf m d e None s l -> length l > 1) as Hrs.
        { intros s l (_ & pk & l' & -> & Hl' & _). apply Ha in Hl'. rewrite app_length. lia. }
        assert (forall core s p pt, core_done m d e None core s p pt -> length core > 1) as Hcl.
        { intros core s p pt (o0 & Ho & Hc). destruct Ho as [(s0 & o' & -> & ->)|(k & o' & [=] & _)].
          destruct (ct_empty _); [destruct Hc as [_ ->]|destruct Hc as (b & _ & ->)]; simpl; lia. }
        destruct ev; try done; simpl in Hs.
        * destruct Hs as (_ & [(s & l & _ & _ & _ & Hc)|(s & l & l0 & l' & _ & _ & _ & ? & _)]); [|done]. apply Hrs in Hc. simpl in Hc. lia.
        * by destruct Hs as (s & ? & _).
        * by destruct Hs as (_ & _ & _ & ?).
        * destruct Hs as (_ & [(p & pt & Hc)|(s0 & c & p & k & l' & ? & _)]); [|done]. apply Hcl in Hc. simpl in Hc. lia.
        * by destruct Hs as (_ & _ & _ & ? & _).
        * destruct Hs as (_ & _ & s & Hc). apply Hrs in Hc. simpl in Hc. lia.
        * by destruct Hs as (_ & _ & c & l' & ? & _).
        * destruct Hs as (_ & _ & _ & s & Ho). destruct Ho as [(s0 & o' & ? & _)|(k & o' & ? & _)]; done.
        * destruct Hs as (_ & _ & Hs). unfold existing in Hs. injection Hs as Hs. done.
        * by destruct Hs as (_ & ? & _).
        * by destruct Hs as (_ & ? & _).
        * by destruct Hs as (_ & sync & s & l' & ? & ? & _).
        * by destruct Hs as (_ & v & l' & ? & _).
        * by destruct Hs as (_ & _ & _ & ? & _).
        * by destruct Hs as (_ & l' & ?).
        * by destruct Hs as (_ & s & s' & c & p & k & l' & ? & _).
  Qed.

  (** ** C53 *)
  Lemma dec_sync evs : (forall w c r, P w c r -> sync_mode true w c r) -> reach S (decrypt cf m) [] evs ->
    Forall (fun ev => match ev with EvSend _ _ _ | EvEncEmpty _ _ | EvEncKey _ _ _ _ | EvDeletePk _ _ _ => False | _ => True end) evs.
  Proof.
    intros HP H.
    assert (~ answer P GSync false) as Hs by (intros (w & _ & Hc); by apply HP in Hc).
    apply traced_forall. revert H. apply dec_traced.
    - intros ev before [H|H]; by destruct ev.
    - intros e mk d t pre before ev Hg Hk Hd Ht Hl _ H. destruct ev; try done; simpl in H; tauto.
  Qed.

  (** ** Corollaries *)
  Lemma dec_eval_sender evs d r : reach S (decrypt cf m) [] evs -> EvEval d r ∈ evs -> dkey d = (m_jid m, m_dev m).
  Proof.
    intros [[[Hl _] _]|(e & mk & d0 & pre & r0 & post & Hg & Hl & Hd & -> & Hp)]%dec_reach Hin.
    - rewrite Forall_forall in Hl. by apply Hl in Hin.
    - by destruct (eval_once _ _ _ _ _ _ _ _ _ _ _ Hl Hp Hin) as [-> _].
  Qed.
  Lemma dec_responds pt d p evs : exec S (decrypt cf m) [] (Val (pt, d, p)) evs ->
    exists e mk s resp rest, given cf m e mk /\ evs = resp ++ rest /\ EvStoreSession ns s (Val tt) ∈ rest /\ opened m d e mk rest s p /\
      Forall (fun e => match e with EvSend _ _ _ | EvEncEmpty _ _ | EvEncKey _ _ _ _ => False | _ => True end) rest /\
      (mk <> None \/ (exists n, s_rcl s = Some n /\ (53 < n)%Z) -> responded cf ns s resp) /\
      (mk = None -> (forall n, s_rcl s = Some n -> (n <= 53)%Z) -> resp = []).
  Proof.
    intros (e & mk & t & s & pre & core & pk & resp & Hg & -> & Hl & _ & _ & _ & Hi & Ho & _ & Hp1 & Hp2 & Hr1 & Hr2)%dec_success.
    exists e, mk, s, resp, (pk ++ EvStoreSession ns s (Val tt) :: core ++ EvEval d (Val t) :: pre). split; [done|]. split; [done|].
    split; [apply elem_of_app; right; left|]. split.
    { destruct Ho as [(s0 & A & B)|(k & A & B)]; [left; exists s0; split|right; exists k; split; [done|]];
        (apply elem_of_app; right; right; apply elem_of_app; by left). }
    split.
    { apply Forall_app. split.
      - destruct mk as [k|]; [|rewrite Hp1 by done; constructor]. destruct (Hp2 ltac:(done)) as (sync & [->|(n & b & ->)]).
        + by destruct sync; repeat constructor.
        + destruct (n <=? c_threshold cf)%Z; destruct sync; by repeat constructor.
      - constructor; [done|]. apply Forall_app. split; [eapply Forall_impl; [exact Hi|]; by intros []|].
        constructor; [done|]. eapply Forall_impl; [exact Hl|]. by intros []. }
    split; [exact Hr1|]. intros -> Hn. apply Hr2. intros [?|(n & E & Hlt)]; [done|]. apply Hn in E. lia.
  Qed.
  Lemma dec_returned pt d p evs : exec S (decrypt cf m) [] (Val (pt, d, p)) evs ->
    (pt = None <-> ct_empty (m_content m) = true) /\
    (forall b, pt = Some b -> EvDecPlain ns (m_content m) p (Val b) ∈ evs) /\
    (exists e mk s, given cf m e mk /\ opened m d e mk evs s p) /\ dv_jid d = m_jid m /\ dv_id d = m_dev m /\
    (exists t, EvEval d (Val t) ∈ evs).
  Proof.
    intros (e & mk & t & s & pre & core & pk & resp & Hg & -> & Hl & [= Hj Hd] & _ & _ & Hi & Ho & Hr & _)%dec_success.
    set (evs := resp ++ _). assert (forall ev, ev ∈ core -> ev ∈ evs) as Hc.
    { intros ev Hev. do 2 (apply elem_of_app; right). right. apply elem_of_app. by left. }
    unfold read in Hr. split; [destruct (ct_empty _); [done|]; by destruct Hr as (b & -> & _)|]. split.
    { intros b ->. destruct (ct_empty _); [done|]. destruct Hr as (b' & [= <-] & Hr). by apply Hc. }
    split.
    { exists e, mk, s. split; [done|]. destruct Ho as [(s0 & A & B)|(k & A & B)]; [left; exists s0; split|right; exists k; split; [done|]]; by apply Hc. }
    split; [done|]. split; [done|]. exists t. do 2 (apply elem_of_app; right). right. apply elem_of_app. right. left.
  Qed.
End alone.
