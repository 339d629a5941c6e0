(** The same for [encrypt], [create] and [purge_bare_jid], and whole lives (C10, C25, C26). *)
From Verif Require Import Api Spec Life Env PfStrs PfTyped PfWp PfHist PfEmits PfUpdate PfDevices PfInfo PfEncrypt2 PfLife PfAlive.
Open Scope prog_scope.
Open Scope list_scope.

Lemma covered_active d : covered d -> is_Some (active_namespaces (dv_active d) (dv_namespaces d)).
Proof.
  unfold covered. generalize (dv_namespaces d) as nss. intros nss H. induction nss as [|n nss IH]; simpl; [by eexists|].
  destruct (dget n (dv_active d)) as [b|] eqn:E.
  - destruct IH as [r ->]; [intros n' Hn'; apply H; by right|]. by eexists.
  - exfalso. assert (n ∈ dkeys (dv_active d)) as Hn by (apply H; left). apply dmem_keys in Hn. unfold dmem in Hn.
    by rewrite E in Hn.
Qed.
Lemma covered_valid cf prio l : Forall covered l -> is_Some (valid_recipients cf prio l).
Proof.
  induction 1 as [|d l Hd _ IH]; simpl; [by eexists|]. unfold is_valid_recipient. destruct IH as [r ->].
  destruct (_ && _); simpl; [by eexists|]. destruct (covered_active d Hd) as [a ->]. by eexists.
Qed.
Lemma covered_priority prio l : Forall covered l -> is_Some (mapM (apply_priority prio) l).
Proof.
  induction 1 as [|d l Hd _ IH]; simpl; [by eexists|]. destruct IH as [r Hr]. rewrite Hr.
  unfold apply_priority. destruct (covered_active d Hd) as [a ->]. by eexists.
Qed.
Lemma priority_heads prio l l' : mapM (apply_priority prio) l = Some l' ->
  forall d n, d ∈ l' -> head (dv_namespaces d) = Some n -> n ∈ prio.
Proof.
  intros H d n Hd Hn. apply mapM_Some in H. apply elem_of_list_lookup in Hd as [i Hi].
  destruct (Forall2_lookup_r _ _ _ _ _ H Hi) as (d0 & _ & Hp). apply apply_priority_spec in Hp as [(ns & Hf & ->)|[E _]].
  - injection Hn as <-. destruct Hf as (_ & l1 & l2 & -> & _). apply elem_of_app. right. left.
  - by rewrite E in Hn.
Qed.

Section enc.
  Context (me : string) (dev : Z) (bad : exn -> Prop).
  Hypothesis Hbad : forall e, bad e -> ext_exn e = false.
  Local Notation JW := (JW me dev).
  Local Notation good := (good me dev bad).

  Definition goodv {A} (p : api A) (R : A -> Prop) : Prop :=
    forall w, JW w -> wp base JW p (fun o w' => JW w' /\ match o with Val a => R a | Exn e => ~ bad e end) w.
  Lemma goodv_good {A} (p : api A) R : goodv p R -> good p.
  Proof. intros H w HJ. eapply wp_conseq; [by apply H|]. by intros [a|e] w' [H1 H2]. Qed.
  Lemma good_goodv {A} (p : api A) : good p -> goodv p (fun _ => True).
  Proof. done. Qed.
  Lemma goodv_bind {A B} (p : api A) (f : A -> api B) R R' :
    goodv p R -> (forall a, R a -> goodv (f a) R') -> goodv (bind p f) R'.
  Proof.
    intros Hp Hf w HJ. apply wp_bind. eapply wp_conseq; [by apply Hp|]. intros [a|e] w' [H1 H2]; [by apply Hf|done].
  Qed.
  Lemma goodv_ret {A} (a : A) (R : A -> Prop) : R a -> goodv (Ret a) R.
  Proof. intros H w HJ. by apply wp_ret. Qed.
  Lemma goodv_raise {A} e (R : A -> Prop) : ~ bad e -> goodv (Raise e) R.
  Proof. intros H w HJ. by apply wp_raise. Qed.
  Lemma goodv_order {A} (l : list A) : goodv (order l) (fun l' => l' ≡ₚ l).
  Proof. intros w HJ. by apply wp_order. Qed.
  Lemma goodv_loaded : goodv g_loaded (fun _ => True).
  Proof. apply good_goodv, good_gloaded. Qed.
  Lemma goodv_filter {A} (l : list A) f : (forall x, x ∈ l -> good (f x)) -> goodv (filter_prog f l) (fun l' => forall x, x ∈ l' -> x ∈ l).
  Proof.
    intros Hf w HJ. apply (wp_filter_prog _ (fun pre ys w' => JW w' /\ forall x, x ∈ ys -> x ∈ pre)); [done| |done].
    intros pre x post b1 w1 Hl [HJ1 Hs]. eapply wp_conseq; [apply Hf; [rewrite Hl; apply elem_of_app; right; left|done]|].
    intros [[]|e] w' [H1 H2]; [| |done].
    - split; [done|]. intros y Hy. apply elem_of_app in Hy as [Hy|Hy]; apply elem_of_app; [left; by apply Hs|by right].
    - split; [done|]. intros y Hy. apply elem_of_app. left. by apply Hs.
  Qed.
  Lemma goodv_map {A B} (l : list A) (f : A -> api B) (R : B -> Prop) :
    (forall x, x ∈ l -> goodv (f x) R) -> goodv (map_prog f l) (Forall R).
  Proof.
    intros Hf w HJ. apply (wp_map_prog _ (fun pre ys w' => JW w' /\ Forall R ys)); [done| |done].
    intros pre x post b1 w1 Hl [HJ1 Hs]. eapply wp_conseq; [apply Hf; [rewrite Hl; apply elem_of_app; right; left|done]|].
    intros [y|e] w' [H1 H2]; [|done]. split; [done|]. apply Forall_app. split; [done|]. by apply Forall_singleton.
  Qed.
  Lemma goodv_fold {A B} (l : list A) (f : B -> A -> api B) b (R : B -> Prop) :
    R b -> (forall b x, R b -> x ∈ l -> goodv (f b x) R) -> goodv (fold_prog l f b) R.
  Proof.
    intros H0 Hf w HJ. apply (wp_fold_prog _ _ (fun _ b w' => JW w' /\ R b)); [done| |done].
    intros pre x post b1 w1 Hl [HJ1 H1]. eapply wp_conseq; [apply Hf; [done|rewrite Hl; apply elem_of_app; right; left|done]|].
    intros [b2|e] w' H; [by destruct H|done].
  Qed.
  Lemma goodv_weak {A} (p : api A) (R R' : A -> Prop) : goodv p R -> (forall a, R a -> R' a) -> goodv p R'.
  Proof. intros H HR w HJ. eapply wp_conseq; [by apply H|]. intros [a|e] w' [H1 H2]; [|done]. split; [done|]. by apply HR. Qed.

  Ltac gext := unfold b_load_session, b_store_session, b_build_active, b_build_passive, b_enc_plain, b_enc_empty,
    b_enc_key, b_dec_plain, b_dec_key, b_spk_age, b_rotate, b_hide, b_delete, b_del_hidden, b_num_visible, b_generate,
    b_get_bundle, b_purge, b_purge_jid, n_upload_bundle, n_download_bundle, n_delete_bundle, n_upload_dl,
    n_send, t_eval, t_blind, c_sleep in *;
    (apply good_step; [done|let Hr := fresh in intros ? ? Hr; apply good_outcome; eapply ext_okfine; [by apply Hbad|exact Hr]]).

  Section encrypt.
    Context (cf : cfg).
    Hypothesis Hme : c_jid cf = me.
    Hypothesis Hdev : c_dev cf = dev.
    Context (mtd : list device -> option string -> api unit) (pt : list (string * bytes)).
    Hypothesis Hmtd : forall ds i, good (mtd ds i).
    Definition heads (ds : list device) : Prop :=
      bad EKeyError -> forall d n, d ∈ ds -> head (dv_namespaces d) = Some n -> is_Some (dget n pt).
    Lemma heads_sub ds ds' : heads ds -> (forall d, d ∈ ds' -> d ∈ ds) -> heads ds'.
    Proof. intros H Hs Hb d n Hd. apply H; [done|]. by apply Hs. Qed.

    Lemma devices_with_good t ds : goodv (devices_with t ds) (fun l => forall d, d ∈ l -> d ∈ ds).
    Proof using Hbad.
      unfold devices_with. eapply goodv_bind; [apply goodv_order|]. intros l Hl. eapply goodv_weak; [apply goodv_filter|].
      - intros x _. apply good_bind; [gext|]. intros a. apply good_ret.
      - intros l' H d Hd. rewrite <- Hl. by apply H.
    Qed.
    Lemma enc_trust_good i ds : heads ds -> goodv (enc_trust cf mtd i ds) heads.
    Proof using Hbad Hmtd.
      intros Hh. unfold enc_trust. eapply goodv_bind; [apply devices_with_good|]. intros und Hund.
      apply (goodv_bind _ _ heads).
      - destruct und as [|u und]; [by apply goodv_ret|]. eapply goodv_bind; [apply good_goodv, Hmtd|]. intros _ _.
        eapply goodv_bind; [apply goodv_order|]. intros l Hl.
        eapply goodv_weak; [apply (goodv_map _ _ (fun d => bad EKeyError -> forall n, head (dv_namespaces d) = Some n -> is_Some (dget n pt)))|].
        + intros d Hd. unfold reload_trust. eapply goodv_bind; [apply good_goodv|].
          * change (k_trust (dv_jid d) (dv_ik d)) with (item_key (ITrust (dv_jid d) (dv_ik d))).
            eapply (good_load me dev bad Hbad _ is_str); [apply good_str|done|]. intros v [s Hs]. by exists s.
          * intros m _. apply goodv_ret. simpl. intros Hb n Hn. apply (Hh Hb d n); [by rewrite <- Hl|done].
        + intros ds' H Hb d n Hd. rewrite Forall_forall in H. by apply H.
      - intros ds' Hh'. eapply goodv_bind; [apply devices_with_good|]. intros [|u und'] _.
        + eapply goodv_weak; [apply devices_with_good|]. intros l Hl. by eapply heads_sub.
        + apply goodv_raise. intros Hb. apply Hbad in Hb; discriminate.
    Qed.
    Lemma enc_device_good ns p cache st keys d : heads (es_devices st) ->
      goodv (enc_device ns p cache (st, keys) d) (fun r => heads (es_devices r.1)).
    Proof using Hbad.
      intros Hh. unfold enc_device. eapply goodv_bind; [apply good_goodv; gext|]. intros m _.
      eapply goodv_bind; [apply goodv_order|]. intros cache' _. cbv zeta.
      match goal with |- goodv (bind (try_ ?q) ?f) _ => assert (goodv (try_ q) (fun o => fine bad o)) as Hq end.
      { intros w HJ. apply wp_try.
        match goal with |- wp base _ ?q _ _ => assert (good q) as Hq end.
        { destruct m; [gext|]. apply good_bind; [destruct (head _); [apply good_ret|gext]|]. intros b. gext. }
        eapply wp_conseq; [by apply Hq|]. intros o w' [H1 H2]. done. }
      eapply goodv_bind; [exact Hq|]. intros [[s e]|e] He; [by apply goodv_ret|].
      assert (heads (filter (fun d' => d' <> d) (es_devices st))) as Hh'.
      { eapply heads_sub; [done|]. intros d' Hd'. by apply elem_of_list_filter in Hd' as [_ ?]. }
      destruct e; first [by apply goodv_ret|by apply goodv_raise].
    Qed.
    Lemma enc_backend_good cache st ns : heads (es_devices st) ->
      goodv (enc_backend cf pt cache st ns) (fun r => heads (es_devices r)).
    Proof using Hbad.
      intros Hh. unfold enc_backend. destruct (filter _ (es_devices st)) as [|d0 l0] eqn:Ef; [by apply goodv_ret|].
      assert (d0 ∈ filter (fun d => head (dv_namespaces d) = Some ns) (es_devices st)) as Hin by (rewrite Ef; left).
      apply elem_of_list_filter in Hin as [Hn Hin].
      eapply goodv_bind.
      { instantiate (1 := fun _ => True). destruct (dget ns pt) as [b|] eqn:Eb; [by apply goodv_ret|]. apply goodv_raise. intros Hb.
        destruct (Hh Hb d0 ns Hin Hn). congruence. }
      intros b _. eapply goodv_bind; [apply good_goodv; gext|]. intros [content p] _.
      eapply goodv_bind; [apply goodv_order|]. intros l _.
      eapply goodv_bind; [apply (goodv_fold _ _ _ (fun r => heads (es_devices r.1)))|].
      - done.
      - intros [st1 keys1] x H1 _. by apply enc_device_good.
      - intros [st' keys] H'. by apply goodv_ret.
    Qed.
    Lemma good_encrypt jids prio ident w : JW w ->
      (bad EKeyError -> forall n, n ∈ from_option id (w_loaded w) prio -> is_Some (dget n pt)) ->
      wp base JW (encrypt cf mtd jids pt prio ident) (fun o w' => JW w' /\ fine bad o) w.
    Proof using Hbad Hmtd Hme Hdev.
      intros HJ Hpt. unfold encrypt. apply wp_bind, wp_loaded; [done|].
      apply wp_bind.
      assert (wp base JW match prio with None => Ret (w_loaded w)
          | Some l => match set_diff l (w_loaded w) with [] => Ret l | _ => Raise EUnknownNamespace end end
        (fun o w' => w' = w /\ match o with Val l => l = from_option id (w_loaded w) prio | Exn e => ~ bad e end) w) as Hp.
      { destruct prio as [l|]; [|by apply wp_ret]. destruct (set_diff l _); [by apply wp_ret|]. apply wp_raise. split; [done|].
        intros Hb. apply Hbad in Hb; discriminate. }
      eapply wp_conseq; [exact Hp|]. intros [l|e] w' [-> Hl]; [|done].
      match goal with |- wp base JW ?p _ _ => enough (goodv p (fun _ => True)) as HG end.
      { eapply wp_conseq; [by apply HG|]. by intros [a|e] w' [H1 H2]. }
      cbv zeta. assert (bad EKeyError -> forall n, n ∈ l -> is_Some (dget n pt)) as Hpl by (by subst l).
      clear w HJ Hp Hpt Hl.
      eapply goodv_bind; [apply goodv_order|]. intros jids' _.
      eapply goodv_bind; [apply (goodv_map _ _ (fun r => Forall covered r.1))|].
      { intros j _ w HJ. eapply wp_conseq; [apply (info_good me dev cf j w HJ)|]. intros [r|e] w' (H1 & _ & H3).
        - split; [done|]. by destruct H3.
        - split; [done|]. eapply ext_fine; [by apply Hbad|done]. }
      intros tmp Htmp. assert (Forall covered (concat (map fst tmp))) as Hc.
      { clear -Htmp. induction Htmp as [|r tmp Hr _ IH]; simpl; [constructor|]. apply Forall_app. done. }
      destruct (covered_valid cf l _ Hc) as [v Hv]. rewrite Hv. eapply goodv_bind; [by apply goodv_ret, (eq_refl v)|].
      intros ? <-. assert (Forall covered v) as Hcv.
      { apply valid_spec in Hv as [_ Hv]. apply Forall_forall. intros d Hd. apply Hv in Hd as [Hd _].
        rewrite Forall_forall in Hc. by apply Hc. }
      destruct (covered_priority l v Hcv) as [u Hu]. rewrite Hu. eapply goodv_bind; [by apply goodv_ret, (eq_refl u)|].
      intros ? <-. eapply goodv_bind; [apply enc_trust_good|].
      { intros Hb d n Hd Hn. apply elem_of_list_filter in Hd as [_ Hd]. apply Hpl; [done|]. by eapply priority_heads. }
      intros ds Hds. eapply goodv_bind; [apply goodv_loaded|]. intros bs _.
      eapply goodv_bind; [apply (goodv_fold _ _ _ (fun r => heads (es_devices r)))|].
      - done.
      - intros st ns Hst _. by apply enc_backend_good.
      - intros st _. destruct (no_eligible _ _ _).
        + eapply goodv_bind; [apply goodv_order|]. intros ss _. eapply goodv_bind; [apply good_goodv, good_for_each|].
          * intros x _. gext.
          * intros _ _. by apply goodv_ret.
        + apply goodv_raise. intros Hb. apply Hbad in Hb; discriminate.
    Qed.
  End encrypt.
End enc.
