(** What encrypt does, phase by phase, in any semantics with a log. *)
From Verif Require Import Api Spec Alone PfWp PfFrame PfHist PfEmits PfInfo PfExec PfLog PfAlone.
Open Scope prog_scope.
Open Scope list_scope.

(** ** Items: what became of one device *)
Lemma failed_mono ns j x e evs evs' : failed_with ns j x e evs -> evs ⊆ evs' -> failed_with ns j x e evs'.
Proof.
  intros [H1 H2] Hs. split; [done|]. destruct H2 as [H|[(b & p & H)|(s & p & Ha & Hb)]]; [left; auto|right; left; eauto|right; right; eauto 10].
Qed.
Record eitem := EItem { it_dev : device; it_ns : string; it_res : session * ekm + exn }.
Definition it_enc (i : eitem) : option enc :=
  match it_res i with inl (s, k) => Some (Enc (it_ns i) (dv_jid (it_dev i)) (dv_id (it_dev i)) s k) | inr _ => None end.
Definition it_err (i : eitem) : option enc_error :=
  match it_res i with inr e => Some (EncError (it_ns i) (dv_jid (it_dev i)) (dv_id (it_dev i)) e) | inl _ => None end.
Definition it_sess (i : eitem) : option (string * session) :=
  match it_res i with inl (s, _) => Some (it_ns i, s) | inr _ => None end.
Definition it_key (i : eitem) : option (ekm * option kex) :=
  match it_res i with inl (s, k) => Some (k, kex_due s) | inr _ => None end.
Definition it_keyns (i : eitem) : option (string * (ekm * option kex)) :=
  match it_res i with inl (s, k) => Some (it_ns i, (k, kex_due s)) | inr _ => None end.
Definition it_failed (i : eitem) : option device :=
  match it_res i with inr _ => Some (it_dev i) | inl _ => None end.

(** a failed item says what failed *)
Definition it_blame (i : eitem) (evs : list event) : Prop :=
  forall e, it_res i = inr e -> failed_with (it_ns i) (dv_jid (it_dev i)) (dv_id (it_dev i)) e evs.
Lemma blame_mono i evs evs' : it_blame i evs -> evs ⊆ evs' -> it_blame i evs'.
Proof. intros H Hs e E. by eapply failed_mono; [apply H|]. Qed.

Lemma kex_to_send_due s : kex_to_send s = kex_due s.
Proof. unfold kex_to_send, kex_due. by destruct (s_init s), (s_confirmed s). Qed.

Lemma omap_snoc {A B} (f : A -> option B) l x : omap f (l ++ [x]) = omap f l ++ option_list (f x).
Proof. rewrite omap_app. simpl. by destruct (f x). Qed.
Lemma filter_ext' {A} (P1 P2 : A -> Prop) `{!forall x, Decision (P1 x)} `{!forall x, Decision (P2 x)} (l : list A) :
  (forall x, x ∈ l -> P1 x <-> P2 x) -> filter P1 l = filter P2 l.
Proof.
  induction l as [|x l IH]; [done|]. intros Hx. rewrite !filter_cons, IH by (intros; apply Hx; by right).
  destruct (decide (P1 x)), (decide (P2 x)); try done; exfalso; pose proof (Hx x (elem_of_list_here _ _)); tauto.
Qed.

(** What justifies an event of the encryption loop, given the events before it. *)
Definition enc_cond (ds : list device) (pt : list (string * bytes)) (cache : list bundle) (e : event) (pre : list event) : Prop :=
  match e with
  | EvLoadSession ns j x _ => True
  | EvDownloadBundle ns j x _ => True
  | EvEncPlain ns b _ => dget ns pt = Some b
  | EvBuildActive ns j x b p _ =>
      (exists d, d ∈ ds /\ dv_jid d = j /\ dv_id d = x /\ head (dv_namespaces d) = Some ns) /\
      EvLoadSession ns j x (Val None) ∈ pre /\
      ((b ∈ cache /\ b_ns b = ns /\ b_jid b = j /\ b_dev b = x) \/ EvDownloadBundle ns j x (Val b) ∈ pre) /\
      exists b' c, dget ns pt = Some b' /\ EvEncPlain ns b' (Val (c, p)) ∈ pre
  | EvEncKey ns s p _ =>
      (exists d, d ∈ ds /\ head (dv_namespaces d) = Some ns /\ head pre = Some (EvLoadSession ns (dv_jid d) (dv_id d) (Val (Some s)))) /\
      exists b' c, dget ns pt = Some b' /\ EvEncPlain ns b' (Val (c, p)) ∈ pre
  | _ => False
  end.
Lemma elem_app_l' {A} (x : A) l1 l2 : x ∈ l1 -> x ∈ l1 ++ l2.
Proof. intros. apply elem_of_app. by left. Qed.
Lemma enc_cond_mono ds pt cache e pre older : enc_cond ds pt cache e pre -> enc_cond ds pt cache e (pre ++ older).
Proof.
  destruct e; simpl; auto.
  - intros (H1 & H2 & H3 & b' & c & H4 & H5). split; [done|]. split; [by apply elem_app_l'|]. split.
    + destruct H3 as [H3|H3]; [by left|right; by apply elem_app_l'].
    + exists b', c. split; [done|by apply elem_app_l'].
  - intros ((d & H1 & H2 & H3) & b' & c & H4 & H5). split.
    + exists d. split; [done|]. split; [done|]. by destruct pre.
    + exists b', c. split; [done|by apply elem_app_l'].
Qed.

(** namespaces for which a content was encrypted *)
Lemma plains_app l1 l2 : plains (l1 ++ l2) = plains l1 ++ plains l2.
Proof. induction l1 as [|e l1 IH]; [done|]. destruct e; simpl; by rewrite ?IH. Qed.

Lemma wp_ret' {W} (S : @sem cmd resp W) {A} (I : W -> Prop) (a : A) (Q : outcome A -> W -> Prop) s :
  Q (Val a) s -> wp S I (Ret a) Q s.
Proof. done. Qed.
(** a bundle could not be downloaded: this is handled *)
Definition no_bundle (c : cmd) (e : exn) : Prop :=
  match c with NDownloadBundle _ _ _ => e = EBundleDownloadFailed \/ e = EBundleNotFound | _ => False end.
Section enc.
  Context {W : Type} (S : @sem cmd resp W) (lg : W -> list event) {D : Type} (dk : W -> D)
    (P : world -> forall c, resp c -> Prop) (HS : logged S lg dk P).
  Notation since := (since lg dk).
  Context (cf : cfg).
  (** what is known of exceptions *)
  Context (okx : exn -> Prop) (Hx : forall c r e, answer P c r -> resp_exn c r = Some e -> okx e \/ no_bundle c e)
    (Hint : okx EKeyError /\ okx ETypeError /\ okx ENothing /\ okx EBinascii).
  (** the backends are distinct *)
  Context (Hnd : forall l, answer P GLoaded l -> NoDup l).
  (** what a stored trust level tells *)
  Context (lv : D -> string -> bytes -> string -> Prop)
    (Hlv : forall s j ik r, allowed S s (SLoad (k_trust j ik)) r ->
       match r with Val None => lv (dk s) j ik (c_undecided cf) | Val (Some (JStr x)) => lv (dk s) j ik x | _ => True end).

  Definition xq {A} (o : outcome A) : Prop := match o with Exn e => okx e | Val _ => True end.
  Lemma obeys_wp {A} (Q : outcome A -> Prop) (p : api A) s :
    obeys (answer P) (fun _ => True) Q p -> wp S (fun _ => True) p (fun o _ => Q o) s.
  Proof.
    revert s. induction p as [a|e|c k IH]; intros s Hp; [done|done|]. destruct Hp as [_ Hp]. apply (gwp_step S lg dk P HS).
    intros r s' Ha _ _. split; [done|]. apply IH, Hp, Ha.
  Qed.
  Lemma xq_ext {A} c (cast : resp c -> outcome A) (Q : outcome A -> Prop) : (forall e, ~ no_bundle c e) ->
    (forall r e, cast r = Exn e -> resp_exn c r = Some e) -> (forall a, Q (Val a)) -> (forall e, okx e -> Q (Exn e)) ->
    obeys (answer P) (fun _ => True) Q (Step c (fun r => of_outcome (cast r))).
  Proof.
    intros Hn Hc HV HE. split; [done|]. intros r Hr. destruct (cast r) as [a|e] eqn:E; [apply HV|]. apply HE.
    destruct (Hx c r e Hr) as [H|H]; [auto|done|]. by apply Hn in H.
  Qed.

  Lemma xq_order {A} (l : list A) (Q : outcome (list A) -> Prop) :
    (forall l', Q (Val l')) -> obeys (answer P) (fun _ => True) Q (order l).
  Proof. intros HQ. split; [done|]. intros r _. apply HQ. Qed.
  Ltac xqe x := unw; match goal with |- obeys _ _ _ (Step ?c _) => apply (xq_ext c (fun r => r)); [by intros ? []|by intros ? ? ->|intros x|done] end.
  Lemma swp_load {A} (I : W -> Prop) (check : json -> outcome A) k (Q : outcome (option A) -> W -> Prop) s :
    (forall r s', allowed S s (SLoad k) r -> since s [] s' -> I s' /\
       match r with
       | Exn e => Q (Exn e) s'
       | Val None => Q (Val None) s'
       | Val (Some v) => match check v with Val a => Q (Val (Some a)) s' | Exn e => Q (Exn e) s' end
       end) -> wp S I (load_checked check k) Q s.
  Proof.
    intros H. unfold load_checked, s_load. apply wp_bind.
    change (forall r, allowed S s (SLoad k) r -> I (Prog.apply S s (SLoad k) r) /\ wp S I (of_outcome r) (fun o w' =>
      match o with Val m => wp S I (match m with None => Ret None
        | Some v => match check v with Val a => Ret (Some a) | Exn e => Raise e end end) Q w' | Exn e => Q (Exn e) w' end)
      (Prog.apply S s (SLoad k) r)).
    intros r Hr. destruct (H r (Prog.apply S s (SLoad k) r) Hr) as [H1 H2].
    { split; [by rewrite (l_log S lg dk P HS)|by apply (l_disk S lg dk P HS)]. }
    split; [done|]. apply wp_of_outcome. destruct r as [[v|]|e]; [|done|done]. destruct (check v); exact H2.
  Qed.

  Section loop.
    Context (ds : list device) (pt : list (string * bytes)) (cache : list bundle).
    Notation cond := (enc_cond ds pt cache).

    (** ** One device *)
    Section dev.
      Context (s0 : W) (ns : string) (p : pkm).
      (** the key material is the one the content was encrypted with *)
      Definition keyed_by (evs : list event) : Prop := exists b c, dget ns pt = Some b /\ EvEncPlain ns b (Val (c, p)) ∈ evs.
      Lemma enc_device_wp (I : W -> Prop) st keys d s evs :
        since s0 evs s -> traced cond evs -> keyed_by evs ->
        (forall evs' s', since s0 evs' s' -> traced cond evs' -> I s') ->
        d ∈ ds -> head (dv_namespaces d) = Some ns ->
        wp S I (enc_device ns p cache (st, keys) d)
          (fun o s' => match o with
             | Exn _ => exists evs', since s0 evs' s' /\ traced cond evs'
             | Val (st', keys') => exists new i, since s0 (new ++ evs) s' /\ traced cond (new ++ evs) /\
                 it_dev i = d /\ it_ns i = ns /\ encs (new ++ evs) = option_list (it_enc i) ++ encs evs /\ plains new = [] /\ it_blame i new /\
                 keys' = keys ++ option_list (it_key i) /\
                 st' = EncState (es_messages st) (es_errors st ++ option_list (it_err i))
                         (es_sessions st ++ option_list (it_sess i))
                         (match it_failed i with Some d => filter (fun d' => d' <> d) (es_devices st) | None => es_devices st end)
             end) s.
      Proof.
        intros Hs Ht Hk HI Hd Hh. unfold enc_device. unw. apply wp_bind.
        eapply (gwp_ext S lg dk P HS); [done|done|]. intros r1 s1 _ H1. simpl in H1.
        pose proof (since_cons _ _ _ _ _ _ _ Hs H1) as Hs1.
        assert (traced cond (EvLoadSession ns (dv_jid d) (dv_id d) r1 :: evs)) as Ht1 by (apply traced_cons; by split).
        split; [by eapply HI|]. destruct r1 as [m|e]; [|eauto]. cbv beta iota.
        apply wp_bind. eapply (gwp_order S lg dk P HS). intros cache' s2 Hc H2. cbv beta iota zeta.
        pose proof (since_same _ _ _ _ _ _ Hs1 H2) as Hs2. split; [by eapply HI|]. clear Hs H1 H2 Hs1 s s1.
        set (cached := head (filter (fun b => b_ns b = ns /\ b_jid b = dv_jid d /\ b_dev b = dv_id d) cache')).
        assert (forall b, cached = Some b -> b ∈ cache /\ b_ns b = ns /\ b_jid b = dv_jid d /\ b_dev b = dv_id d) as Hcached.
        { intros b Eb. assert (b ∈ filter (fun b => b_ns b = ns /\ b_jid b = dv_jid d /\ b_dev b = dv_id d) cache') as Hin.
          { unfold cached in Eb. destruct (filter _ cache'); [done|]. injection Eb as ->. left. }
          apply elem_of_list_filter in Hin as [Hb Hin]. rewrite Hc in Hin. tauto. }
        clearbody cached. clear Hc cache'.
        assert (forall evs' s', since s0 evs' s' -> traced cond evs' -> I s') as HI' by done.
        set (Qd := fun (o : outcome (enc_state * list (ekm * option kex))) (s' : W) => match o with
             | Exn _ => exists evs', since s0 evs' s' /\ traced cond evs'
             | Val (st', keys') => exists new i, since s0 (new ++ evs) s' /\ traced cond (new ++ evs) /\
                 it_dev i = d /\ it_ns i = ns /\ encs (new ++ evs) = option_list (it_enc i) ++ encs evs /\ plains new = [] /\ it_blame i new /\
                 keys' = keys ++ option_list (it_key i) /\
                 st' = EncState (es_messages st) (es_errors st ++ option_list (it_err i))
                         (es_sessions st ++ option_list (it_sess i))
                         (match it_failed i with Some d => filter (fun d' => d' <> d) (es_devices st) | None => es_devices st end)
             end).
        apply wp_bind. apply wp_try.
        set (att := fun (o : outcome (session * ekm)) s3 => exists new, since s0 (new ++ evs) s3 /\ traced cond (new ++ evs) /\
          (forall a k, o = Val (a, k) -> encs (new ++ evs) = Enc ns (dv_jid d) (dv_id d) a k :: encs evs) /\
          (forall e, o = Exn e -> encs (new ++ evs) = encs evs /\
             (EvDownloadBundle ns (dv_jid d) (dv_id d) (Exn e) ∈ new \/ (exists b p, EvBuildActive ns (dv_jid d) (dv_id d) b p (Exn e) ∈ new) \/
              (exists s p, EvLoadSession ns (dv_jid d) (dv_id d) (Val (Some s)) ∈ new /\ EvEncKey ns s p (Exn e) ∈ new))) /\ plains new = []).
        cut (wp S I (match m with
             | None => b <- match cached with None => n_download_bundle ns (dv_jid d) (dv_id d) | Some b => Ret b end ;;
                       b_build_active ns (dv_jid d) (dv_id d) b p
             | Some s => b_enc_key ns s p
             end) att s2).
        { intros Hatt. eapply wp_conseq; [exact Hatt|]. intros o s3 (new & Hs3 & Ht3 & HV & HE & Hpl). cbv beta iota. destruct o as [[a k]|e].
          - exists new, (EItem d ns (inl (a, k))). repeat (split; [done|]). split; [by apply HV|]. split; [done|]. split; [by intros ?|].
            split; [by rewrite kex_to_send_due|]. unfold it_err, it_sess, it_failed. simpl. by rewrite !app_nil_r.
          - destruct e; try (exists (new ++ evs); by split);
              (match type of HE with forall _, Exn ?x = _ -> _ => exists new, (EItem d ns (inr x)) end; repeat (split; [done|]); split; [exact (proj1 (HE _ eq_refl))|]; split; [done|];
               split; [intros e0 E0; injection E0 as <-; split; [by auto|]; exact (proj2 (HE _ eq_refl))|];
               split; [unfold it_key; simpl; by rewrite app_nil_r|]; unfold it_err, it_sess, it_failed; simpl; rewrite app_nil_r; reflexivity). }
        clear Qd. unw.
        assert (forall (o : outcome (session * ekm)) s3 new, since s0 (new ++ evs) s3 -> traced cond (new ++ evs) ->
          (forall a k, o = Val (a, k) -> encs (new ++ evs) = Enc ns (dv_jid d) (dv_id d) a k :: encs evs) ->
          (forall e, o = Exn e -> encs (new ++ evs) = encs evs /\
             (EvDownloadBundle ns (dv_jid d) (dv_id d) (Exn e) ∈ new \/ (exists b p, EvBuildActive ns (dv_jid d) (dv_id d) b p (Exn e) ∈ new) \/
              (exists s p, EvLoadSession ns (dv_jid d) (dv_id d) (Val (Some s)) ∈ new /\ EvEncKey ns s p (Exn e) ∈ new))) -> plains new = [] -> att o s3) as Hfin.
        { intros o s3 new ?????. exists new. done. }
        clearbody att.
        destruct m as [ses|].
        - (* an existing session *)
          eapply (gwp_ext S lg dk P HS); [done|done|]. intros r2 s3 _ H3. simpl in H3.
          pose proof (since_cons _ _ _ _ _ _ _ Hs2 H3) as Hs3.
          assert (traced cond (EvEncKey ns ses p r2 :: EvLoadSession ns (dv_jid d) (dv_id d) (Val (Some ses)) :: evs)) as Ht3.
          { apply traced_cons. split; [|done]. split.
            - exists d. split; [done|]. split; [done|reflexivity].
            - destruct Hk as (b & c & Hb & Hc). exists b, c. split; [done|by right]. }
          split; [by eapply HI|].
          apply (Hfin _ _ [EvEncKey ns ses p r2; EvLoadSession ns (dv_jid d) (dv_id d) (Val (Some ses))]); [done|done| | |done].
          + intros a k ->. done.
          + intros e ->. split; [done|]. right. right. exists ses, p. split; [right; left|left].
        - assert (forall b s3 mid, since s0 (mid ++ EvLoadSession ns (dv_jid d) (dv_id d) (Val None) :: evs) s3 ->
            traced cond (mid ++ EvLoadSession ns (dv_jid d) (dv_id d) (Val None) :: evs) ->
            (b ∈ cache /\ b_ns b = ns /\ b_jid b = dv_jid d /\ b_dev b = dv_id d) \/ EvDownloadBundle ns (dv_jid d) (dv_id d) (Val b) ∈ mid ->
            encs (mid ++ EvLoadSession ns (dv_jid d) (dv_id d) (Val None) :: evs) = encs evs -> plains mid = [] ->
            wp S I (Step (BBuildActive ns (dv_jid d) (dv_id d) b p) of_outcome) att s3) as Hbuild.
          { intros b s3 mid Hs3 Ht3 Hb He Hpl.
            eapply (gwp_ext S lg dk P HS); [done|done|]. intros r2 s4 _ H4. simpl in H4.
            pose proof (since_cons _ _ _ _ _ _ _ Hs3 H4) as Hs4.
            assert (traced cond (EvBuildActive ns (dv_jid d) (dv_id d) b p r2 :: mid ++ EvLoadSession ns (dv_jid d) (dv_id d) (Val None) :: evs)) as Ht4.
            { apply traced_cons. split; [|done]. split; [by exists d|]. split; [apply elem_of_app; right; left|]. split.
              - destruct Hb as [Hb|Hb]; [by left|right; by apply elem_app_l'].
              - destruct Hk as (b' & c & Hb' & Hc). exists b', c. split; [done|]. apply elem_of_app. right. by right. }
            split; [by eapply HI|].
            apply (Hfin _ _ (EvBuildActive ns (dv_jid d) (dv_id d) b p r2 :: mid ++ [EvLoadSession ns (dv_jid d) (dv_id d) (Val None)])).
            - simpl. rewrite <- app_assoc. done.
            - simpl. rewrite <- app_assoc. done.
            - intros a k ->. simpl. rewrite <- app_assoc. simpl. by rewrite He.
            - intros e ->. simpl. rewrite <- app_assoc. simpl. split; [by rewrite He|]. right. left. exists b, p. left.
            - simpl. rewrite plains_app, Hpl. done. }
          apply wp_bind. destruct cached as [b|].
          + apply (Hbuild b s2 []); auto.
          + eapply (gwp_ext S lg dk P HS); [done|done|]. intros r2 s3 _ H3. simpl in H3.
            pose proof (since_cons _ _ _ _ _ _ _ Hs2 H3) as Hs3.
            assert (traced cond (EvDownloadBundle ns (dv_jid d) (dv_id d) r2 :: EvLoadSession ns (dv_jid d) (dv_id d) (Val None) :: evs)) as Ht3
              by (apply traced_cons; by split).
            split; [by eapply HI|]. destruct r2 as [b|e].
            * apply (Hbuild b s3 [EvDownloadBundle ns (dv_jid d) (dv_id d) (Val b)]); [done|done| |done|done]. right. left.
            * apply (Hfin (Exn e) _ [EvDownloadBundle ns (dv_jid d) (dv_id d) (Exn e); EvLoadSession ns (dv_jid d) (dv_id d) (Val None)]); [done|done|done| |done].
              intros e0 E0. injection E0 as <-. split; [done|]. left. left.
      Qed.
    End dev.

    (** ** The devices of one backend *)
    Lemma enc_devices_wp (I : W -> Prop) s0 ns p st l s evs :
      since s0 evs s -> traced cond evs -> keyed_by ns p evs ->
      (forall evs' s', since s0 evs' s' -> traced cond evs' -> I s') ->
      Forall (fun d => d ∈ ds /\ head (dv_namespaces d) = Some ns) l ->
      wp S I (fold_prog l (enc_device ns p cache) (st, []))
        (fun o s' => match o with
           | Exn _ => exists evs', since s0 evs' s' /\ traced cond evs'
           | Val (st', keys') => exists new items, since s0 (new ++ evs) s' /\ traced cond (new ++ evs) /\
               it_dev <$> items = l /\ Forall (fun i => it_ns i = ns) items /\
               encs (new ++ evs) = rev (omap it_enc items) ++ encs evs /\ plains new = [] /\ Forall (fun i => it_blame i new) items /\
               keys' = omap it_key items /\
               st' = EncState (es_messages st) (es_errors st ++ omap it_err items) (es_sessions st ++ omap it_sess items)
                       (filter (fun d => d ∉ omap it_failed items) (es_devices st))
           end) s.
    Proof.
      intros Hs Ht Hk HI Hl. rewrite Forall_forall in Hl.
      eapply wp_fold_prog with (L := fun pre acc s' => exists new items, since s0 (new ++ evs) s' /\ traced cond (new ++ evs) /\
               it_dev <$> items = pre /\ Forall (fun i => it_ns i = ns) items /\
               encs (new ++ evs) = rev (omap it_enc items) ++ encs evs /\ plains new = [] /\ Forall (fun i => it_blame i new) items /\
               acc.2 = omap it_key items /\
               acc.1 = EncState (es_messages st) (es_errors st ++ omap it_err items) (es_sessions st ++ omap it_sess items)
                       (filter (fun d => d ∉ omap it_failed items) (es_devices st))).
      - exists [], []. do 3 (split; [done|]). split; [constructor|]. do 2 (split; [done|]). split; [constructor|]. split; [done|]. simpl. rewrite !app_nil_r.
        destruct st as [ms es ss dv]. simpl. f_equal. symmetry. induction dv as [|x dv IH]; [done|].
        rewrite filter_cons, decide_True by apply not_elem_of_nil. by rewrite IH.
      - intros pre d post [st1 keys1] s1 El (new & items & Hs1 & Ht1 & Hpre & Hns & He & Hpl & Hbl & Hk1 & Hst1). simpl in Hk1, Hst1.
        destruct (Hl d) as [Hd Hh]; [rewrite El; apply elem_of_app; right; left|].
        eapply wp_conseq; [apply (enc_device_wp s0 ns p I st1 keys1 d s1 (new ++ evs)); try done|].
        { destruct Hk as (b & c & Hb & Hc). exists b, c. split; [done|]. apply elem_of_app. by right. }
        intros [[st2 keys2]|e] s2; [|done]. intros (new2 & i & Hs2 & Ht2 & Hdev & Hins & He2 & Hpl2 & Hbl2 & Hk2 & Hst2).
        exists (new2 ++ new), (items ++ [i]). rewrite <- app_assoc. split; [done|]. split; [done|].
        split; [by rewrite fmap_app, Hpre, <- Hdev|]. split; [apply Forall_app; split; [done|by constructor]|].
        rewrite !omap_snoc. split.
        { rewrite He2, He. rewrite rev_app_distr. by destruct (it_enc i). }
        split; [by rewrite plains_app, Hpl2, Hpl|].
        split; [apply Forall_app; split; [eapply Forall_impl; [exact Hbl|]; intros x Hx'; eapply blame_mono; [exact Hx'|]; intros y Hy; apply elem_of_app; by right|
          constructor; [|constructor]; eapply blame_mono; [exact Hbl2|]; intros y Hy; apply elem_of_app; by left]|].
        split; [simpl; by rewrite Hk2, Hk1|]. simpl.
        rewrite Hst2, Hst1. simpl. rewrite <- !app_assoc. f_equal. destruct (it_failed i) as [f|]; [|simpl; by rewrite app_nil_r].
        rewrite list_filter_filter. apply filter_ext'. intros x _. simpl. rewrite elem_of_app, elem_of_list_singleton. tauto.
      - intros [st1 keys1] s1 (new & items & H). exists new, items. simpl in H. tauto.
    Qed.

    (** ** The loop over the backends *)
    Definition served_by (bks : list string) (d : device) : Prop := Exists (fun n => head (dv_namespaces d) = Some n) bks.
    Global Instance served_by_dec bks d : Decision (served_by bks d).
    Proof. unfold served_by. apply _. Defined.
    Record enc_done (bks : list string) (st : enc_state) (evs : list event) (items : list eitem) : Prop := EncDone
      { ed_traced : traced cond evs;
        ed_encs : encs evs = rev (omap it_enc items);
        ed_err : es_errors st = omap it_err items;
        ed_sess : es_sessions st = omap it_sess items;
        ed_devs : es_devices st = filter (fun d => d ∉ omap it_failed items) ds;
        ed_items : it_dev <$> items ≡ₚ filter (served_by bks) ds;
        ed_blame : Forall (fun i => it_blame i evs) items;
        ed_ns : Forall (fun i => head (dv_namespaces (it_dev i)) = Some (it_ns i)) items;
        ed_msgs : flat_map (fun m => pair (m_ns m.1) <$> m_keys m.1) (es_messages st) = omap it_keyns items;
        ed_mns : NoDup ((fun m => m_ns m.1) <$> es_messages st);
        ed_plain : plains evs = rev ((fun m => m_ns m.1) <$> es_messages st);
        ed_in : forall m, m ∈ es_messages st -> m_ns m.1 ∈ bks /\ m_jid m.1 = c_jid cf /\ m_dev m.1 = c_dev cf /\
          exists b, dget (m_ns m.1) pt = Some b /\ EvEncPlain (m_ns m.1) b (Val (m_content m.1, m.2)) ∈ evs }.

    Lemma filter_served_snoc bks ns l : ns ∉ bks ->
      filter (served_by (bks ++ [ns])) l ≡ₚ filter (served_by bks) l ++ filter (fun d => head (dv_namespaces d) = Some ns) l.
    Proof.
      intros Hn. induction l as [|d l IH]; [done|]. rewrite !filter_cons.
      assert (served_by (bks ++ [ns]) d <-> served_by bks d \/ head (dv_namespaces d) = Some ns) as E.
      { unfold served_by. rewrite Exists_app, Exists_cons, Exists_nil. tauto. }
      assert (~ (served_by bks d /\ head (dv_namespaces d) = Some ns)) as X.
      { intros [H1 H2]. apply Exists_exists in H1 as (n & Hin & Hd). congruence. }
      repeat destruct (decide _); try tauto.
      - by apply perm_skip.
      - rewrite IH. apply Permutation_middle.
    Qed.

    Lemma enc_backend_wp (I : W -> Prop) s0 bks ns st s evs items :
      since s0 evs s -> enc_done bks st evs items -> ns ∉ bks ->
      (forall evs' s', since s0 evs' s' -> traced cond evs' -> I s') ->
      wp S I (enc_backend cf pt cache st ns)
        (fun o s' => match o with
           | Exn _ => exists evs', since s0 evs' s' /\ traced cond evs'
           | Val st' => exists evs' items', since s0 evs' s' /\ enc_done (bks ++ [ns]) st' evs' items'
           end) s.
    Proof.
      intros Hs HD Hn HI. unfold enc_backend.
      assert (filter (fun d => head (dv_namespaces d) = Some ns) (es_devices st) = filter (fun d => head (dv_namespaces d) = Some ns) ds) as El.
      { rewrite (ed_devs _ _ _ _ HD), list_filter_filter. apply filter_ext'. intros d Hd. split; [tauto|]. intros Hh. split; [done|].
        intros (i & Hi & Hf)%elem_of_list_omap. unfold it_failed in Hf. destruct (it_res i); [done|]. injection Hf as <-.
        assert (it_dev i ∈ filter (served_by bks) ds) as Hin.
        { rewrite <- (ed_items _ _ _ _ HD). apply elem_of_list_fmap. by exists i. }
        apply elem_of_list_filter in Hin as [H1 _]. apply Exists_exists in H1 as (n & Hin & Hd'). congruence. }
      rewrite El. clear El. destruct (filter (fun d => head (dv_namespaces d) = Some ns) ds) as [|d0 l0] eqn:El0.
      { exists evs, items. split; [done|]. destruct HD. split; try done.
        - rewrite filter_served_snoc, El0, app_nil_r; done.
        - intros m Hm. destruct (ed_in0 m Hm) as [H1 H2]. split; [apply elem_of_app; by left|done]. }
      rewrite <- El0. set (l := filter (fun d => head (dv_namespaces d) = Some ns) ds) in *. clear El0 d0 l0.
      pose proof (ed_traced _ _ _ _ HD) as Ht.
      apply wp_bind. destruct (dget ns pt) as [b|] eqn:Eb; [|by exists evs]. unw. cbn [of_key_error].
      apply wp_bind. eapply (gwp_ext S lg dk P HS); [done|done|]. intros r s1 _ H1. simpl in H1.
      pose proof (since_cons _ _ _ _ _ _ _ Hs H1) as Hs1.
      assert (traced cond (EvEncPlain ns b r :: evs)) as Ht1 by (apply traced_cons; by split).
      split; [by eapply HI|]. destruct r as [[c p]|e]; [|eauto]. cbv beta iota.
      apply wp_bind. eapply (gwp_order S lg dk P HS). intros l' s2 Hl' H2. cbv beta iota zeta.
      pose proof (since_same _ _ _ _ _ _ Hs1 H2) as Hs2. split; [by eapply HI|]. clear Hs H1 H2 Hs1 s s1.
      apply wp_bind. eapply wp_conseq; [apply (enc_devices_wp I s0 ns p st l' s2 (EvEncPlain ns b (Val (c, p)) :: evs)); try done|].
      { exists b, c. split; [done|left]. }
      { apply Forall_forall. intros d Hd. rewrite Hl' in Hd. apply elem_of_list_filter in Hd. tauto. }
      intros [[st1 keys]|e] s3; [|done]. intros (new & its & Hs3 & Ht3 & Hdev & Hins & He & Hpl & Hbl & Hkeys & Hst1).
      exists (new ++ EvEncPlain ns b (Val (c, p)) :: evs), (items ++ its). split; [done|]. subst st1. destruct HD. split; simpl.
      - done.
      - rewrite He, omap_app, rev_app_distr. simpl. by rewrite ed_encs0.
      - by rewrite ed_err0, omap_app.
      - by rewrite ed_sess0, omap_app.
      - rewrite ed_devs0, list_filter_filter. apply filter_ext'. intros d _. rewrite omap_app, elem_of_app. tauto.
      - rewrite fmap_app, Hdev, filter_served_snoc, ed_items0, Hl'; done.
      - apply Forall_app. split; (eapply Forall_impl; [first [exact ed_blame0|exact Hbl]|]); intros x Hx'; (eapply blame_mono; [exact Hx'|]); intros y Hy; apply elem_of_app; [right; by right|by left].
      - apply Forall_app. split; [done|]. rewrite Forall_forall in Hins |- *. intros i Hi. rewrite (Hins i Hi).
        assert (it_dev i ∈ l') as Hil by (rewrite <- Hdev; apply elem_of_list_fmap; by exists i).
        rewrite Hl' in Hil. apply elem_of_list_filter in Hil. tauto.
      - rewrite flat_map_app, ed_msgs0, omap_app. f_equal. simpl. rewrite app_nil_r, Hkeys. clear -Hins.
        induction Hins as [|i its Hi _ IH]; [done|]. cbn [omap list_omap]. unfold it_key at 1, it_keyns at 1.
        destruct (it_res i) as [[a k]|e]; [|exact IH]. cbn [fmap list_fmap]. rewrite Hi. f_equal. exact IH.
      - rewrite fmap_app. apply NoDup_app. split; [done|]. split; [|apply NoDup_singleton].
        intros n (m & -> & Hm)%elem_of_list_fmap. simpl. rewrite elem_of_list_singleton. intros E. destruct (ed_in0 m Hm) as [H1 _]. congruence.
      - rewrite plains_app, Hpl, fmap_app, rev_app_distr. simpl. by rewrite ed_plain0.
      - intros m [Hm|Hm]%elem_of_app.
        + destruct (ed_in0 m Hm) as (H1 & H2 & H3 & b' & H4 & H5). split; [apply elem_of_app; by left|]. split; [done|]. split; [done|].
          exists b'. split; [done|]. apply elem_of_app. right. by right.
        + apply elem_of_list_singleton in Hm as ->. simpl. split; [apply elem_of_app; right; left|]. split; [done|]. split; [done|].
          exists b. split; [done|]. apply elem_of_app. right. left.
    Qed.

    Lemma enc_loop_wp (I : W -> Prop) s bks :
      NoDup bks -> (forall evs' s', since s evs' s' -> traced cond evs' -> I s') ->
      wp S I (fold_prog bks (enc_backend cf pt cache) (EncState [] [] [] ds))
        (fun o s' => match o with
           | Exn _ => exists evs', since s evs' s' /\ traced cond evs'
           | Val st' => exists evs' items', since s evs' s' /\ enc_done bks st' evs' items'
           end) s.
    Proof.
      intros Hbk HI. eapply wp_fold_prog with (L := fun pre st s' => exists evs' items', since s evs' s' /\ enc_done pre st evs' items').
      - exists [], []. split; [apply since_refl|]. split; simpl; try done.
        + apply traced_nil.
        + clear HI. induction ds as [|d l IH]; [done|]. rewrite filter_cons, decide_True by apply not_elem_of_nil. by rewrite <- IH.
        + clear HI. induction ds as [|d l IH]; [done|]. rewrite filter_cons, decide_False; [done|]. intros H. by apply Exists_nil in H.
        + constructor.
        + by intros m ?%elem_of_nil.
      - intros pre ns post st s1 E (evs & items & Hs1 & HD). subst bks.
        eapply wp_conseq; [apply (enc_backend_wp I s pre ns st s1 evs items); try done|].
        { apply NoDup_app in Hbk as (_ & Hd & _). intros Hin. apply (Hd ns Hin). left. }
        by intros [st'|e] s2.
      - done.
    Qed.

    (** ** The end: no recipient left out, then the sessions are stored *)
    Definition stores (ss : list (string * session)) : list event := rev ((fun x => EvStoreSession x.1 x.2 (Val tt)) <$> ss).
    Lemma stores_snoc ss x : stores (ss ++ [x]) = EvStoreSession x.1 x.2 (Val tt) :: stores ss.
    Proof. unfold stores. rewrite fmap_app, rev_app_distr. done. Qed.
    Definition enc_finish (jids : list string) : api (list (message * pkm) * list enc_error) :=
      backends <- g_loaded ;;
      st <- fold_prog backends (enc_backend cf pt cache) (EncState [] [] [] ds) ;;
      match no_eligible cf jids (es_devices st) with
      | (_ :: _) as l => Raise (ENoEligibleDevices l)
      | [] =>
          ss <- order (es_sessions st) ;;
          for_each ss (fun x => b_store_session x.1 x.2) ;;;
          Ret (es_messages st, es_errors st)
      end.
    (** in the middle of the stores *)
    Definition enc_mid (jids : list string) (evs : list event) : Prop :=
      traced cond evs \/
      exists bks st e1 items e2, evs = e2 ++ e1 /\ answer P GLoaded bks /\ enc_done bks st e1 items /\
        no_eligible cf jids (es_devices st) = [] /\ Forall (fun e => is_store_session e = true) e2.
    Inductive enc_fin (jids : list string) : outcome (list (message * pkm) * list enc_error) -> list event -> Prop :=
      | ef_raise e evs : okx e -> traced cond evs -> enc_fin jids (Exn e) evs
      | ef_none bks st evs items : answer P GLoaded bks -> enc_done bks st evs items -> no_eligible cf jids (es_devices st) <> [] ->
          enc_fin jids (Exn (ENoEligibleDevices (no_eligible cf jids (es_devices st)))) evs
      | ef_fail bks st evs items ss x e : answer P GLoaded bks -> enc_done bks st evs items ->
          no_eligible cf jids (es_devices st) = [] -> okx e ->
          enc_fin jids (Exn e) (EvStoreSession x.1 x.2 (Exn e) :: stores ss ++ evs)
      | ef_val bks st evs items ss : answer P GLoaded bks -> enc_done bks st evs items ->
          no_eligible cf jids (es_devices st) = [] -> ss ≡ₚ es_sessions st ->
          enc_fin jids (Val (es_messages st, es_errors st)) (stores ss ++ evs).
    Lemma stores_all ss : Forall (fun e => is_store_session e = true) (stores ss).
    Proof. unfold stores. apply Forall_rev, Forall_fmap, Forall_true. done. Qed.

    Lemma raises_loop bks : obeys (answer P) (fun _ => True) xq (fold_prog bks (enc_backend cf pt cache) (EncState [] [] [] ds)).
    Proof.
      apply (obeys_fold_prog _ _ _ (fun _ => True)); [done| |done]. intros st ns _ _. unfold enc_backend.
      destruct (filter _ (es_devices st)) as [|d0 l0]; [done|]. apply obeys_bind.
      destruct (dget ns pt) as [b|]; [|by apply Hint]. cbn [of_key_error obeys]. cbn beta iota. apply obeys_bind. xqe c.
      destruct c as [c p]. cbn beta iota. apply obeys_bind. apply xq_order. intros l. apply obeys_bind.
      apply (obeys_fold_prog _ _ _ (fun _ => True)); [done| |by intros [st' keys] _].
      intros [st1 keys] d _ _. unfold enc_device. apply obeys_bind. xqe m. apply obeys_bind, xq_order.
      intros cache'. cbn beta zeta. apply obeys_bind, obeys_try.
      apply (obeys_conseq _ _ (fun o : outcome (session * ekm) => match o with Exn e => okx e \/ e = EBundleDownloadFailed \/ e = EBundleNotFound | Val _ => True end));
        [|intros [[a k]|e]; simpl; [done|]; intros He; destruct e; try done; by destruct He as [He|[He|He]]].
      assert (forall b', obeys (answer P) (fun _ => True) (fun o : outcome (session * ekm) => match o with Exn e => okx e \/ e = EBundleDownloadFailed \/ e = EBundleNotFound | Val _ => True end)
        (b_build_active ns (dv_jid d) (dv_id d) b' p)) as Hb.
      { intros b'. apply (obeys_conseq _ _ xq); [by xqe x|]. intros [x|e]; [done|]. by left. }
      destruct m as [ses|]; [apply (obeys_conseq _ _ xq); [by xqe x|]; intros [x|e]; [done|]; by left|].
      apply obeys_bind. destruct (head _) as [b'|]; [exact (Hb b')|]. unw. split; [done|]. intros [b'|e] Hr; [exact (Hb b')|].
      destruct (Hx _ _ _ Hr eq_refl) as [H|H]; [by left|by right].
    Qed.

    Lemma enc_finish_wp (I : W -> Prop) jids s :
      (forall evs' s', since s evs' s' -> enc_mid jids evs' -> I s') ->
      wp S I (enc_finish jids) (fun o s' => exists evs, since s evs s' /\ enc_fin jids o evs) s.
    Proof.
      intros HI. unfold enc_finish. apply wp_bind. eapply (gwp_loaded S lg dk P HS). intros bks s1 Hb H1.
      split; [eapply HI; [exact H1|]; left; apply traced_nil|]. apply wp_bind.
      eapply wp_mono; [apply (wp_and _ I (fun _ => True)); [apply (enc_loop_wp I s1 bks)|apply obeys_wp, raises_loop]| |].
      - by apply Hnd.
      - intros evs s2 H2 Ht. eapply HI; [by eapply since_trans|]. left. by rewrite app_nil_r.
      - by intros s2 [H _].
      - intros [st|e] s2 [H2 Hok].
        2: { destruct H2 as (evs & Hs2 & Ht). exists evs. split; [|by constructor]. rewrite <- (app_nil_r evs). by eapply since_trans. }
        destruct H2 as (evs & items & Hs2 & HD).
        assert (since s evs s2) as Hs by (rewrite <- (app_nil_r evs); by eapply since_trans). clear Hs2 H1 Hok.
        destruct (no_eligible cf jids (es_devices st)) as [|j l] eqn:El.
        2: { exists evs. split; [done|]. rewrite <- El. eapply ef_none; [done|done|by rewrite El]. }
        assert (forall e2, Forall (fun e => is_store_session e = true) e2 -> enc_mid jids (e2 ++ evs)) as Hmid.
        { intros e2 H. right. by exists bks, st, evs, items, e2. }
        apply wp_bind. eapply (gwp_order S lg dk P HS). intros ss s3 Hp H3.
        pose proof (since_same _ _ _ _ _ _ Hs H3) as Hs3. split; [eapply HI; [exact Hs3|]; apply (Hmid []); constructor|].
        apply wp_bind.
        eapply wp_for_each with (L := fun pre s' => since s (stores pre ++ evs) s').
        + exact Hs3.
        + intros pre x post s4 Ess H4. eapply (gwp_ext S lg dk P HS); [done|done|]. intros r s5 Ha H5. simpl in H5.
          pose proof (since_cons _ _ _ _ _ _ _ H4 H5) as Hs5. split.
          * eapply HI; [exact Hs5|]. rewrite app_comm_cons. apply Hmid. constructor; [done|apply stores_all].
          * destruct r as [[]|e].
            -- by rewrite stores_snoc.
            -- exists (EvStoreSession x.1 x.2 (Exn e) :: stores pre ++ evs). split; [done|]. eapply ef_fail; [done|done|done|].
               by destruct (Hx _ _ _ Ha eq_refl).
        + intros s4 H4. exists (stores ss ++ evs). split; [done|]. by eapply ef_val.
    Qed.
  End loop.

  (** ** Trust *)
  Definition evals (ts : list (device * trust)) : list event := rev ((fun x => EvEval x.1 (Val x.2)) <$> ts).
  (** one round of evaluations, finished or cut short by an exception *)
  Definition round (devs : list device) (t : trust) (evs : list event) (r : list device) : Prop :=
    exists ts, ts.*1 ≡ₚ devs /\ evs = evals ts /\ r = (filter (fun x => x.2 = t) ts).*1.
  Definition broken (devs : list device) (e : exn) (evs : list event) : Prop :=
    exists ts d, evs = EvEval d (Exn e) :: evals ts /\ ts.*1 ++ [d] ⊆ devs.
  Lemma evals_all ts : all_evals (evals ts).
  Proof. unfold evals, all_evals. apply Forall_rev, Forall_fmap, Forall_true. done. Qed.
  Lemma evals_cons d t ts : evals ((d, t) :: ts) = evals ts ++ [EvEval d (Val t)].
  Proof. done. Qed.

  Lemma filter_evals_wp (I : W -> Prop) t l s :
    (forall evs s', since s evs s' -> all_evals evs -> I s') ->
    wp S I (filter_prog (fun d => t' <- t_eval d ;; Ret (bool_decide (t' = t))) l)
      (fun o s' => match o with
         | Val r => exists ts, ts.*1 = l /\ since s (evals ts) s' /\ r = (filter (fun x => x.2 = t) ts).*1
         | Exn e => okx e /\ exists ts d, since s (EvEval d (Exn e) :: evals ts) s' /\ (ts.*1 ++ [d]) `prefix_of` l
         end) s.
  Proof.
    revert s. induction l as [|d l IH]; intros s HI; cbn [filter_prog].
    - exists []. split; [done|]. by split.
    - apply wp_bind, wp_bind. unw. eapply (gwp_ext S lg dk P HS); [done|done|]. intros r s1 Ha H1. simpl in H1.
      split; [eapply HI; [exact H1|by repeat constructor]|]. destruct r as [t'|e].
      2: { split; [by destruct (Hx _ _ _ Ha eq_refl)|]. exists [], d. split; [done|]. exists l. done. }
      cbn beta iota. apply wp_bind. eapply wp_conseq; [apply IH|].
      + intros evs s2 H2 Hev. eapply HI; [by eapply since_trans|]. apply Forall_app. split; [done|by repeat constructor].
      + intros [r|e] s2.
        * intros (ts & Hts & H2 & Hr). exists ((d, t') :: ts). split; [by rewrite fmap_cons, Hts|].
          split; [rewrite evals_cons; by eapply since_trans|]. rewrite filter_cons. simpl.
          destruct (decide (t' = t)) as [->|Hne]; [rewrite bool_decide_eq_true_2 by done|rewrite bool_decide_eq_false_2 by done]; by rewrite Hr.
        * intros (Hok & ts & d' & H2 & Hp). split; [done|]. exists ((d, t') :: ts), d'.
          split; [rewrite evals_cons, app_comm_cons; by eapply since_trans|]. simpl. by apply prefix_cons.
  Qed.
  Lemma devices_with_wp (I : W -> Prop) t devs s :
    (forall evs s', since s evs s' -> all_evals evs -> I s') ->
    wp S I (devices_with t devs)
      (fun o s' => match o with
         | Val r => exists evs, since s evs s' /\ round devs t evs r
         | Exn e => okx e /\ exists evs, since s evs s' /\ broken devs e evs
         end) s.
  Proof.
    intros HI. unfold devices_with. apply wp_bind. eapply (gwp_order S lg dk P HS). intros l s1 Hl H1.
    split; [eapply HI; [exact H1|constructor]|].
    assert (forall evs s', since s1 evs s' -> since s evs s') as Ht.
    { intros evs s' H. rewrite <- (app_nil_r evs). by eapply since_trans. }
    eapply wp_conseq; [apply filter_evals_wp|].
    - intros evs s' H. apply HI. by apply Ht.
    - intros [r|e] s2.
      + intros (ts & <- & H2 & Hr). exists (evals ts). split; [by apply Ht|]. exists ts. by rewrite Hl.
      + intros (Hok & ts & d & H2 & Hp). split; [done|]. eexists. split; [by apply Ht|]. exists ts, d. split; [done|].
        destruct Hp as [k E]. intros y Hy. rewrite <- Hl, E. apply elem_of_app. by left.
  Qed.
  Lemma round_evals devs t evs r : round devs t evs r -> all_evals evs.
  Proof. intros (ts & _ & -> & _). apply evals_all. Qed.
  Lemma broken_evals devs e evs : broken devs e evs -> all_evals evs.
  Proof. intros (ts & d & -> & _). constructor; [done|apply evals_all]. Qed.

  Definition with_level (d : device) (lvl : string) : device :=
    Device (dv_namespaces d) (dv_active d) (dv_jid d) (dv_id d) (dv_ik d) lvl (dv_label d).
  Definition reloaded (x : D) (d d' : device) : Prop :=
    exists lvl, d' = with_level d lvl /\ lv x (dv_jid d) (dv_ik d) lvl.
  Lemma reload_wp (I : W -> Prop) l s :
    (forall s', since s [] s' -> I s') ->
    wp S I (map_prog (reload_trust cf) l)
      (fun o s' => since s [] s' /\ match o with Val r => Forall2 (reloaded (dk s)) l r | Exn e => okx e end) s.
  Proof.
    revert s. induction l as [|d l IH]; intros s HI; cbn [map_prog].
    - split; [done|constructor].
    - apply wp_bind. unfold reload_trust. apply wp_bind. apply swp_load. intros r s1 Hr H1. split; [by apply HI|].
      assert (forall (m : option string), lv (dk s) (dv_jid d) (dv_ik d) (Model.maybe (c_undecided cf) m) ->
        wp S I (bind (map_prog (reload_trust cf) l) (fun r => Ret (with_level d (Model.maybe (c_undecided cf) m) :: r)))
          (fun o s' => since s [] s' /\ match o with Val r => Forall2 (reloaded (dk s)) (d :: l) r | Exn e => okx e end) s1) as Hgo.
      { intros m Hm. apply wp_bind. eapply wp_conseq; [apply IH|].
        - intros s2 H2. apply HI. by eapply since_same.
        - assert (dk s1 = dk s) as Ed by apply H1. rewrite Ed.
          intros [r'|e] s2 [H2 HF]; (split; [by eapply since_same|]); [|done]. constructor; [|done]. by eexists. }
      specialize (Hlv _ _ _ _ Hr). destruct r as [[v|]|e].
      + destruct v; try (split; [done|apply Hint]). exact (Hgo (Some s0) Hlv).
      + exact (Hgo None Hlv).
      + split; [done|]. destruct (Hx (SLoad (k_trust (dv_jid d) (dv_ik d))) (Exn e) e) as [H|[]]; [by eapply (l_ok S lg dk P HS)|done|done].
  Qed.

  Section whole.
    Context (mtd : list device -> option string -> api unit) (ident : option string)
      (pt : list (string * bytes)) (jids : list string).

    (** The trust decision, if one was needed, was made by one call of [mtd] for exactly the devices [und]. *)
    Definition decided (und : list device) (s1 s2 : W) : Prop :=
      (und = [] /\ since s1 [] s2) \/ (und <> [] /\ exists s, exec S (mtd und ident) s1 (Val tt) s /\ since s [] s2).
    Definition updated (und : list device) (s2 : W) (devs devs' : list device) : Prop :=
      (und = [] /\ devs' = devs) \/ (und <> [] /\ exists l, l ≡ₚ devs /\ Forall2 (reloaded (dk s2)) l devs').

    Section tail.
      Context (devs : list device) (cache : list bundle) (s0 : W).
      Inductive enc_at (s : W) : Prop :=
        | at_first evs : since s0 evs s -> all_evals evs -> enc_at s
        | at_asking e1 und s1 : since s0 e1 s1 -> round devs Undecided e1 und -> und <> [] ->
            reach S (mtd und ident) s1 s -> enc_at s
        | at_evals e1 und s1 s2 evs : since s0 e1 s1 -> round devs Undecided e1 und -> decided und s1 s2 ->
            since s2 evs s -> all_evals evs -> enc_at s
        | at_loop e1 und s1 s2 devs' e2 e3 ds evs : since s0 e1 s1 -> round devs Undecided e1 und -> decided und s1 s2 ->
            updated und s2 devs devs' -> round devs' Undecided e2 [] -> round devs' Trusted e3 ds ->
            since s2 (evs ++ e3 ++ e2) s -> enc_mid ds pt cache jids evs -> enc_at s.
      Inductive enc_end : outcome (list (message * pkm) * list enc_error) -> W -> Prop :=
        | en_first e evs s : since s0 evs s -> broken devs e evs -> okx e -> enc_end (Exn e) s
        | en_asked e1 und s1 e s : since s0 e1 s1 -> round devs Undecided e1 und -> und <> [] ->
            exec S (mtd und ident) s1 (Exn e) s -> enc_end (Exn e) s
        | en_reload e1 und s1 s2 e s : since s0 e1 s1 -> round devs Undecided e1 und -> decided und s1 s2 ->
            since s2 [] s -> okx e -> enc_end (Exn e) s
        | en_undecided e1 und s1 s2 devs' e2 und' s : since s0 e1 s1 -> round devs Undecided e1 und -> decided und s1 s2 ->
            updated und s2 devs devs' -> round devs' Undecided e2 und' -> und' <> [] -> since s2 e2 s ->
            enc_end (Exn EStillUndecided) s
        | en_second e1 und s1 s2 devs' e2 e s : since s0 e1 s1 -> round devs Undecided e1 und -> decided und s1 s2 ->
            updated und s2 devs devs' -> broken devs' e e2 -> since s2 e2 s -> okx e -> enc_end (Exn e) s
        | en_third e1 und s1 s2 devs' e2 e3 e s : since s0 e1 s1 -> round devs Undecided e1 und -> decided und s1 s2 ->
            updated und s2 devs devs' -> round devs' Undecided e2 [] -> broken devs' e e3 -> since s2 (e3 ++ e2) s -> okx e ->
            enc_end (Exn e) s
        | en_loop e1 und s1 s2 devs' e2 e3 ds evs o s : since s0 e1 s1 -> round devs Undecided e1 und -> decided und s1 s2 ->
            updated und s2 devs devs' -> round devs' Undecided e2 [] -> round devs' Trusted e3 ds ->
            since s2 (evs ++ e3 ++ e2) s -> enc_fin ds pt cache jids o evs -> enc_end o s.

      Lemma enc_tail_wp (I : W -> Prop) :
        (forall s, enc_at s -> I s) ->
        wp S I (bind (enc_trust cf mtd ident devs) (fun ds => enc_finish ds pt cache jids)) enc_end s0.
      Proof.
        intros HI. unfold enc_trust. apply wp_bind, wp_bind.
        eapply wp_conseq; [apply (devices_with_wp I); intros evs s' H1 H2; apply HI; by eapply at_first|].
        intros [und|e] s1; [|by intros (Hok & evs & H1 & H2); eapply en_first].
        intros (e1 & Hs1 & Hr1). cbn beta.
        (* after the decision *)
        assert (forall s2 devs', decided und s1 s2 -> updated und s2 devs devs' ->
          wp S I (undecided' <- devices_with Undecided devs' ;;
                  match undecided' with _ :: _ => Raise EStillUndecided | [] => devices_with Trusted devs' end)
            (fun o w' => match o with Val a => wp S I (enc_finish a pt cache jids) enc_end w' | Exn e => enc_end (Exn e) w' end) s2) as Hgo.
        { intros s2 devs' Hdec Hup. apply wp_bind.
          eapply wp_conseq; [apply (devices_with_wp I); intros evs s' H1 H2; apply HI; by eapply at_evals|].
          intros [und'|e] s3; [|by intros (Hok & evs & H1 & H2); eapply en_second].
          intros (e2 & Hs3 & Hr2). destruct und' as [|d' und']; [|by eapply en_undecided].
          eapply wp_conseq; [apply (devices_with_wp I)|].
          { intros evs s' H1 H2. apply HI. eapply at_evals; [done|done|done|by eapply since_trans|]. apply Forall_app. split; [done|by eapply round_evals]. }
          intros [ds|e] s4.
          2: { intros (Hok & evs & H1 & H2). eapply en_third; try done. by eapply since_trans. }
          intros (e3 & Hs4 & Hr3).
          eapply wp_conseq; [apply (enc_finish_wp ds pt cache I jids s4)|].
          - intros evs s' H1 H2. apply HI. eapply at_loop; try done. eapply since_trans; [|exact H1]. by eapply since_trans.
          - intros o s5 (evs & H1 & H2). eapply en_loop; try done. eapply since_trans; [|exact H1]. by eapply since_trans. }
        apply wp_bind. destruct und as [|d0 und0].
        - apply (Hgo s1 devs); left; [|done]. split; [done|apply since_refl].
        - set (und := d0 :: und0) in *. assert (und <> []) as Hne by done. clearbody und. clear d0 und0.
          apply wp_bind. apply exec_wp.
          2: { intros w' Hw'. apply HI. by eapply at_asking. }
          intros [[]|e] s2 Hm; [|by eapply en_asked]. cbn beta iota.
          assert (forall s', since s2 [] s' -> decided und s1 s') as Hdec by (intros s' H; right; eauto).
          assert (forall s', since s2 [] s' -> I s') as HI0.
          { intros s' H. apply HI. eapply at_evals; [done|done|by apply Hdec|apply since_refl|constructor]. }
          apply wp_bind. eapply (gwp_order S lg dk P HS). intros l s2' Hl H2. split; [by apply HI0|].
          eapply wp_conseq; [apply (reload_wp I)|].
          { intros s' H. apply HI0. by eapply since_same. }
          intros [devs'|e] s3 [Hs3 HF].
          2: { eapply en_reload; [done|done|by apply Hdec|done|done]. }
          apply Hgo; [apply Hdec; by eapply since_same|]. right. split; [done|]. exists l. split; [done|].
          assert (dk s3 = dk s2') as -> by apply Hs3. done.
      Qed.
    End tail.

    (** ** Selection *)
    Context (pre_ev : event -> Prop) (sel : list string -> W -> list (list device * list bundle) -> W -> Prop)
      (Hsel : forall js (I : W -> Prop) s,
         (forall evs s', lg s' = evs ++ lg s -> Forall pre_ev evs -> I s') ->
         wp S I (map_prog (get_device_information_ cf) js)
           (fun o s' => (exists evs, lg s' = evs ++ lg s /\ Forall pre_ev evs) /\
              match o with Val tmp => sel js s tmp s' | Exn e => okx e end) s).
    Context (priority : option (list string)).
    Definition prio_ok (prio : list string) : Prop :=
      exists av, answer P GLoaded av /\
        match priority with None => prio = av | Some l => prio = l /\ set_diff l av = [] end.
    Definition selected (prio : list string) (tmp : list (list device * list bundle)) (devs : list device) : Prop :=
      exists v a, valid_recipients cf prio (concat (map fst tmp)) = Some v /\ mapM (apply_priority prio) v = Some a /\
        devs = filter (fun d => dv_namespaces d <> []) a.
    Definition chosen (s : W) (s0 : W) (devs : list device) (cache : list bundle) : Prop :=
      exists evs js prio tmp, lg s0 = evs ++ lg s /\ Forall pre_ev evs /\ js ≡ₚ jids /\
        (exists s', since s [] s' /\ sel js s' tmp s0) /\ (prio_ok prio /\ exists av, allowed S s GLoaded av /\ (priority = None -> prio = av)) /\ selected prio tmp devs /\ cache = concat (map snd tmp).
    Inductive encrypt_at (s s' : W) : Prop :=
      | ea_pre evs : lg s' = evs ++ lg s -> Forall pre_ev evs -> encrypt_at s s'
      | ea_run s0 devs cache : chosen s s0 devs cache -> enc_at devs cache s0 s' -> encrypt_at s s'.
    Inductive encrypt_end (s : W) : outcome (list (message * pkm) * list enc_error) -> W -> Prop :=
      | ee_pre evs e s' : lg s' = evs ++ lg s -> Forall pre_ev evs -> okx e -> encrypt_end s (Exn e) s'
      | ee_run s0 devs cache o s' : chosen s s0 devs cache -> enc_end devs cache s0 o s' -> encrypt_end s o s'.

    Context (bare_jids : list string) (Hj : jids = set_union (pyset bare_jids) [c_jid cf]).
    Lemma encrypt_wp s : (forall l av, priority = Some l -> allowed S s GLoaded av -> set_diff l av <> [] -> okx EUnknownNamespace) ->
      wp S (encrypt_at s) (encrypt cf mtd bare_jids pt priority ident) (encrypt_end s) s.
    Proof.
      intros Hun. unfold encrypt. rewrite <- Hj. apply wp_bind. eapply (gwp_loaded' S lg dk P HS). intros av s1 Hav0 H1.
      assert (answer P GLoaded av) as Hav by (by eapply (l_ok S lg dk P HS)).
      assert (forall s', since s [] s' -> encrypt_at s s') as H0.
      { intros s' H. apply (ea_pre _ _ []); [apply H|constructor]. }
      assert (forall e s', since s [] s' -> okx e -> encrypt_end s (Exn e) s') as H0'.
      { intros e s' H. apply (ee_pre _ []); [apply H|constructor]. }
      split; [by apply H0|]. apply wp_bind.
      assert (forall prio, (prio_ok prio /\ exists av, allowed S s GLoaded av /\ (priority = None -> prio = av)) -> wp S (encrypt_at s)
        (jids' <- order jids ;;
         tmp <- map_prog (get_device_information_ cf) jids' ;;
         devices <- of_key_error (valid_recipients cf prio (concat (map fst tmp))) ;;
         devices <- of_key_error (mapM (apply_priority prio) devices) ;;
         bind (enc_trust cf mtd ident (filter (fun d => dv_namespaces d <> []) devices))
           (fun ds => enc_finish ds pt (concat (map snd tmp)) jids)) (encrypt_end s) s1) as Hgo.
      { intros prio Hprio. apply wp_bind. eapply (gwp_order S lg dk P HS). intros js s2 Hjs H2.
        assert (since s [] s2) as Hs2 by (by eapply since_same). split; [by apply H0|].
        apply wp_bind. eapply wp_conseq; [apply Hsel|].
        { intros evs s' H. apply ea_pre. destruct Hs2 as [El _]. simpl in El. by rewrite <- El. }
        intros o s3 [(evs & Hl & Hev) Ho]. assert (lg s3 = evs ++ lg s) as Hl3 by (destruct Hs2 as [El _]; simpl in El; by rewrite <- El).
        destruct o as [tmp|e]; [|by eapply ee_pre]. apply wp_bind.
        destruct (valid_recipients cf prio (concat (map fst tmp))) as [v|] eqn:Ev; [|eapply ee_pre; try done; apply Hint].
        cbn [of_key_error]. apply wp_ret'. cbn beta iota. apply wp_bind.
        destruct (mapM (apply_priority prio) v) as [a|] eqn:Ea; [|eapply ee_pre; try done; apply Hint].
        cbn [of_key_error]. apply wp_ret'. cbn beta iota.
        assert (chosen s s3 (filter (fun d => dv_namespaces d <> []) a) (concat (map snd tmp))) as Hch.
        { exists evs, js, prio, tmp. split; [done|]. split; [done|]. split; [done|]. split; [eauto|]. split; [done|]. split; [|done].
          by exists v, a. }
        eapply wp_conseq; [apply enc_tail_wp; intros s' H; by eapply ea_run|].
        intros o s' H. by eapply ee_run. }
      destruct priority as [l|] eqn:Ep.
      - destruct (set_diff l av) as [|x y] eqn:Ed; [|apply H0'; [done|]; apply (Hun l av); [done|done|by rewrite Ed]].
        apply Hgo. split; [exists av; by rewrite Ep|]. exists av. split; [done|]. done.
      - apply Hgo. split; [exists av; by rewrite Ep|]. by exists av.
    Qed.
  End whole.
End enc.
