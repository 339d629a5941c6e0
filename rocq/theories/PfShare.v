(** One coroutine updates the records of an account while others use them (C79). *)
From Verif Require Import Share PfStrs PfTyped PfWp PfHist PfEmits PfLog PfUpdate PfFoot.
Open Scope prog_scope.
Open Scope list_scope.

(** ** Rely and guarantee *)
(** Between any two commands of [p] the others may change the world as [Rl] says; every command of [p] changes it as
    [G] says; [Q] holds right after the last command. *)
Fixpoint rg (Rl G : world -> world -> Prop) {A} (p : api A) (Q : outcome A -> world -> Prop) (w : world) : Prop :=
  match p with
  | Ret a => Q (Val a) w
  | Raise e => Q (Exn e) w
  | Step c k => forall w1 r, Rl w w1 -> w_allowed w1 c r ->
      G w1 (w_apply w1 c r) /\ rg Rl G (k r) Q (w_apply w1 c r)
  end.

Section rules.
  Context (Rl G : world -> world -> Prop).
  Lemma rg_conseq {A} (p : api A) (Q Q' : outcome A -> world -> Prop) w :
    rg Rl G p Q w -> (forall o w', Q o w' -> Q' o w') -> rg Rl G p Q' w.
  Proof.
    revert w. induction p as [a|e|c k IH]; intros w H HQ; [by apply HQ..|]. intros w1 r HR Hr.
    destruct (H w1 r HR Hr) as [H1 H2]. split; [done|]. by apply IH.
  Qed.
  Lemma rg_bind {A B} (p : api A) (f : A -> api B) (Q : outcome B -> world -> Prop) w :
    rg Rl G p (fun o w' => match o with Val a => rg Rl G (f a) Q w' | Exn e => Q (Exn e) w' end) w ->
    rg Rl G (bind p f) Q w.
  Proof.
    revert w. induction p as [a|e|c k IH]; intros w H; [done|done|]. intros w1 r HR Hr.
    destruct (H w1 r HR Hr) as [H1 H2]. split; [done|]. by apply IH.
  Qed.
  Lemma rg_try {A} (p : api A) (Q : outcome (outcome A) -> world -> Prop) w :
    rg Rl G p (fun o w' => Q (Val o) w') w -> rg Rl G (try_ p) Q w.
  Proof.
    revert w. induction p as [a|e|c k IH]; intros w H; [done|done|]. intros w1 r HR Hr.
    destruct (H w1 r HR Hr) as [H1 H2]. split; [done|]. by apply IH.
  Qed.
  Lemma rg_outcome {A} (o : outcome A) (Q : outcome A -> world -> Prop) w : Q o w -> rg Rl G (of_outcome o) Q w.
  Proof. by destruct o. Qed.
  Lemma rg_for_each {A} (l : list A) (f : A -> api unit) (Inv : list A -> world -> Prop) (Q : outcome unit -> world -> Prop) w :
    Inv [] w ->
    (forall pre x post w1, l = pre ++ x :: post -> Inv pre w1 ->
       rg Rl G (f x) (fun o w2 => match o with Val _ => Inv (pre ++ [x]) w2 | Exn e => Q (Exn e) w2 end) w1) ->
    (forall w1, Inv l w1 -> Q (Val tt) w1) -> rg Rl G (for_each l f) Q w.
  Proof.
    intros H0 Hf HQ. assert (forall pre rest w1, l = pre ++ rest -> Inv pre w1 -> rg Rl G (for_each rest f) Q w1) as H.
    { intros pre rest. revert pre. induction rest as [|x rest IH]; intros pre w1 Hl Hi.
      - apply HQ. by rewrite Hl, app_nil_r.
      - cbn [for_each]. apply rg_bind. eapply rg_conseq; [by eapply Hf|]. intros [[]|e] w2; [|done]. intros H2.
        eapply IH; [|exact H2]. by rewrite Hl, <- app_assoc. }
    by apply (H [] l).
  Qed.
  Lemma rg_fold {A B} (l : list A) (f : B -> A -> api B) b (Inv : B -> world -> Prop) (Q : outcome B -> world -> Prop) w :
    Inv b w ->
    (forall b x w1, x ∈ l -> Inv b w1 ->
       rg Rl G (f b x) (fun o w2 => match o with Val b' => Inv b' w2 | Exn e => Q (Exn e) w2 end) w1) ->
    (forall b w1, Inv b w1 -> Q (Val b) w1) -> rg Rl G (fold_prog l f b) Q w.
  Proof.
    intros H0 Hf HQ. assert (forall rest b w1, (forall x, x ∈ rest -> x ∈ l) -> Inv b w1 -> rg Rl G (fold_prog rest f b) Q w1) as H.
    { intros rest. induction rest as [|x rest IH]; intros b0 w1 Hl Hi; [by apply HQ|].
      cbn [fold_prog]. apply rg_bind. eapply rg_conseq; [apply Hf; [apply Hl; left|done]|]. intros [b'|e] w2; [|done]. intros H2.
      apply IH; [|done]. intros y Hy. apply Hl. by right. }
    by apply (H l).
  Qed.
End rules.
Lemma rg_mono (Rl Rl' G G' : world -> world -> Prop) {A} (p : api A) (Q : outcome A -> world -> Prop) w :
  (forall a b, Rl' a b -> Rl a b) -> (forall a b, G a b -> G' a b) -> rg Rl G p Q w -> rg Rl' G' p Q w.
Proof.
  intros HR HG. revert w. induction p as [a|e|c k IH]; intros w H; [done|done|]. intros w1 r H1 Hr.
  destruct (H w1 r (HR _ _ H1) Hr). auto.
Qed.

(** ** The records of one account *)
Section account.
  Context (j : string).
  Definition rkey (k : string) : Prop := exists i, record_item j i /\ k = item_key i.
  Definition eqj (d d' : gmap string json) : Prop := forall k, rkey k -> d' !! k = d !! k.
  Definition crec (d : gmap string json) (x : Z) : Prop :=
    exists l m o, hns d j x l /\ hact d j x m /\ hlab d j x o /\ forall n, n ∈ l -> is_Some (dget n m).
  Definition ids (d : gmap string json) (x : Z) : Prop := exists zs, hlist d j zs /\ x ∈ zs.
  Definition whole (d : gmap string json) : Prop :=
    (d !! k_list j = None \/ exists zs, hlist d j zs) /\ forall x, ids d x -> crec d x.
  Definition hasn (d : gmap string json) (x : Z) (n : string) : Prop := exists m, hact d j x m /\ is_Some (dget n m).
  Definition grow (d d' : gmap string json) : Prop :=
    whole d -> whole d' /\ forall x, ids d x -> ids d' x /\ forall n, hasn d x n -> hasn d' x n.

  Lemma rkey_list : rkey (k_list j). Proof. by exists (IDeviceList j). Qed.
  Lemma rkey_ns x : rkey (k_ns j x). Proof. by exists (INamespaces j x). Qed.
  Lemma rkey_act x : rkey (k_active j x). Proof. by exists (IActive j x). Qed.
  Lemma rkey_lab x : rkey (k_label j x). Proof. by exists (ILabel j x). Qed.
  Hint Resolve rkey_list rkey_ns rkey_act rkey_lab : core.

  Lemma eqj_refl d : eqj d d. Proof. done. Qed.
  Lemma eqj_trans a b c : eqj a b -> eqj b c -> eqj a c.
  Proof. intros H1 H2 k Hk. by rewrite H2, H1. Qed.
  Lemma eqj_sym a b : eqj a b -> eqj b a.
  Proof. intros H k Hk. by rewrite H. Qed.
  Lemma eqj_hk {A} (T : json -> A -> Prop) d d' k a : rkey k -> eqj d d' -> hk T d k a -> hk T d' k a.
  Proof. intros Hk H. apply hk_eq. by apply H. Qed.
  Lemma eqj_ids d d' x : eqj d d' -> ids d x -> ids d' x.
  Proof. intros H (zs & H1 & H2). exists zs. split; [by eapply eqj_hk|done]. Qed.
  Lemma eqj_crec d d' x : eqj d d' -> crec d x -> crec d' x.
  Proof.
    intros H (l & m & o & H1 & H2 & H3 & H4). exists l, m, o. split; [by eapply eqj_hk|]. split; [by eapply eqj_hk|].
    split; [by eapply eqj_hk|done].
  Qed.
  Lemma eqj_whole d d' : eqj d d' -> whole d -> whole d'.
  Proof.
    intros H [H1 H2]. split.
    - destruct H1 as [H1|[zs H1]]; [left; rewrite (H _ rkey_list); done|right]. exists zs. by eapply eqj_hk.
    - intros x Hx. eapply eqj_crec; [done|]. apply H2. eapply eqj_ids; [by apply eqj_sym|done].
  Qed.
  Lemma eqj_hasn d d' x n : eqj d d' -> hasn d x n -> hasn d' x n.
  Proof. intros H (m & H1 & H2). exists m. split; [by eapply eqj_hk|done]. Qed.
  Lemma eqj_grow d d' : eqj d d' -> grow d d'.
  Proof. intros H Hw. split; [by eapply eqj_whole|]. intros x Hx. split; [by eapply eqj_ids|]. intros n. by apply eqj_hasn. Qed.
  Lemma grow_refl d : grow d d. Proof. by apply eqj_grow. Qed.
  Lemma grow_trans a b c : grow a b -> grow b c -> grow a c.
  Proof.
    intros H1 H2 Hw. destruct (H1 Hw) as [Hw1 G1]. destruct (H2 Hw1) as [Hw2 G2]. split; [done|].
    intros x Hx. destruct (G1 x Hx) as [I1 N1]. destruct (G2 x I1) as [I2 N2]. split; [done|]. auto.
  Qed.
  Lemma crec_fun d x l m : crec d x -> hns d j x l -> hact d j x m -> forall n, n ∈ l -> is_Some (dget n m).
  Proof.
    intros (l0 & m0 & o & H1 & H2 & _ & H3) Hl Hm. rewrite <- (hns_fun _ _ _ _ _ H1 Hl), <- (hact_fun _ _ _ _ _ H2 Hm). done.
  Qed.

  (** changes of one key of one device *)
  Lemma same_crec d d' x : same_dev j x d d' -> crec d x -> crec d' x.
  Proof.
    intros (E1 & E2 & E3) (l & m & o & H1 & H2 & H3 & H4). exists l, m, o. split; [by eapply hk_eq|].
    split; [by eapply hk_eq|]. split; [by eapply hk_eq|done].
  Qed.
  Lemma same_hasn d d' x n : same_dev j x d d' -> hasn d x n -> hasn d' x n.
  Proof. intros (E1 & E2 & E3) (m & H1 & H2). exists m. split; [by eapply hk_eq|done]. Qed.
  Lemma touch_list x d d' : touch j x d d' -> d' !! k_list j = d !! k_list j.
  Proof. intros T. apply T; kneq. Qed.
  Lemma list_ids d d' x : d' !! k_list j = d !! k_list j -> ids d x -> ids d' x.
  Proof. intros E (zs & H1 & H2). exists zs. split; [by eapply hk_eq|done]. Qed.
  Lemma touch_grow x d d' : touch j x d d' -> (ids d x -> crec d x -> crec d' x /\ forall n, hasn d x n -> hasn d' x n) -> grow d d'.
  Proof.
    intros T Hx [H1 H2]. pose proof (touch_list _ _ _ T) as E. split; [split|].
    - rewrite E. destruct H1 as [H1|[zs H1]]; [by left|right]. exists zs. by eapply hk_eq.
    - intros y Hy. assert (ids d y) as Hy' by (eapply list_ids; [symmetry|]; done).
      destruct (decide (y = x)) as [->|Hne]; [by apply Hx; auto|]. eapply same_crec; [by eapply touch_same|auto].
    - intros y Hy. split; [by eapply list_ids|]. intros n Hn. destruct (decide (y = x)) as [->|Hne]; [by apply Hx; auto|].
      eapply same_hasn; [by eapply touch_same|done].
  Qed.

  Notation EQ := (fun w w' : world => eqj (w_disk w) (w_disk w')).
  Notation GR := (fun w w' : world => grow (w_disk w) (w_disk w')).

  (** ** The updating coroutine *)
  Notation WR p Q w := (rg EQ GR p Q w).
  Lemma wr_load {A} (check : json -> outcome A) (T : json -> A -> Prop) k (Q : outcome (option A) -> world -> Prop) w :
    good_check check T ->
    (forall w1 e, eqj (w_disk w) (w_disk w1) -> Q (Exn e) w1) ->
    (forall w1, eqj (w_disk w) (w_disk w1) -> w_disk w1 !! k = None -> Q (Val None) w1) ->
    (forall w1 a, eqj (w_disk w) (w_disk w1) -> hk T (w_disk w1) k a -> Q (Val (Some a)) w1) ->
    WR (load_checked check k) Q w.
  Proof.
    intros Hg He HN HS. unfold load_checked. apply rg_bind. intros w1 r HE Hr. simpl in *. split; [apply grow_refl|].
    apply rg_outcome. destruct r as [m|e]; [|by apply He]. subst m.
    destruct (w_disk w1 !! k) as [v|] eqn:Ek; [|by apply HN].
    destruct (Hg v) as [(a & Ha & ->)|[Hn ->]]; [|by apply He]. apply HS; [done|]. by exists v.
  Qed.
  Lemma wr_store k v (Q : outcome unit -> world -> Prop) w :
    (forall w1, eqj (w_disk w) (w_disk w1) -> grow (w_disk w1) (<[k := v]> (w_disk w1))) ->
    (forall w1 e, eqj (w_disk w) (w_disk w1) -> Q (Exn e) (w_apply w1 (SStore k v) (Exn e))) ->
    (forall w1, eqj (w_disk w) (w_disk w1) -> Q (Val tt) (w_apply w1 (SStore k v) (Val tt))) ->
    WR (s_store k v) Q w.
  Proof.
    intros HG He Hv w1 r HE Hr. split; [destruct r as [[]|e]; [by apply HG|apply grow_refl]|].
    apply rg_outcome. destruct r as [[]|e]; [by apply Hv|by apply He].
  Qed.
  Lemma wr_order {A} (l : list A) (Q : outcome (list A) -> world -> Prop) w :
    (forall w1 l', eqj (w_disk w) (w_disk w1) -> l' ≡ₚ l -> Q (Val l') w1) -> WR (order l) Q w.
  Proof. intros HQ w1 r HE _. split; [apply grow_refl|]. apply HQ; [done|apply reorder_perm]. Qed.

  (** what the writer knows between the devices: the stored list is [zs], the new devices in [xs] are complete *)
  Definition know (zs : list Z) (L : option json) (xs : list Z) (d : gmap string json) : Prop :=
    d !! k_list j = L /\ (forall x, ids d x <-> x ∈ zs) /\ whole d /\ forall x, x ∈ xs -> crec d x.
  Lemma know_eq zs L xs d d' : eqj d d' -> know zs L xs d -> know zs L xs d'.
  Proof.
    intros E (H1 & H2 & H3 & H4). split; [by rewrite (E _ rkey_list)|]. split.
    - intros x. rewrite <- H2. split; [apply eqj_ids; by apply eqj_sym|by apply eqj_ids].
    - split; [by eapply eqj_whole|]. intros x Hx. eapply eqj_crec; [done|auto].
  Qed.
  Lemma know_touch zs L xs x d d' :
    touch j x d d' -> (ids d x -> crec d x -> crec d' x /\ forall n, hasn d x n -> hasn d' x n) ->
    (x ∈ xs -> crec d x -> crec d' x) -> know zs L xs d -> know zs L xs d' /\ grow d d'.
  Proof.
    intros T Hx Hx' (H1 & H2 & H3 & H4). pose proof (touch_grow _ _ _ T Hx) as G. split; [|done].
    destruct (G H3) as [G1 _]. pose proof (touch_list _ _ _ T) as E.
    split; [by rewrite E|]. split; [|split; [done|]].
    - intros y. rewrite <- H2. split; apply list_ids; [by symmetry|done].
    - intros y Hy. destruct (decide (y = x)) as [->|Hne]; [auto|]. eapply same_crec; [by eapply touch_same|auto].
  Qed.
  Lemma insert_touch x k v (d : gmap string json) : k = k_ns j x \/ k = k_active j x \/ k = k_label j x -> touch j x d (<[k := v]> d).
  Proof. intros Hk k' H1 H2 H3. rewrite lookup_insert_ne; [done|]. intros ->. naive_solver. Qed.

  Section writer.
    Context (ns : string) (dl : list (Z * option string)) (zs : list Z) (L : option json).

    Lemma wr_new xs x w :
      know zs L xs (w_disk w) -> x ∉ zs -> x ∉ xs ->
      WR (upd_new ns j dl x) (fun o w' => match o with Val _ => know zs L (xs ++ [x]) (w_disk w') | Exn _ => True end /\
        grow (w_disk w) (w_disk w')) w.
    Proof.
      intros HK Hz Hx. unfold upd_new.
      assert (k_active j x <> k_label j x) as N1 by kneq. assert (k_ns j x <> k_label j x) as N2 by kneq.
      assert (k_ns j x <> k_active j x) as N3 by kneq.
      assert (forall k v d, k = k_ns j x \/ k = k_active j x \/ k = k_label j x -> know zs L xs d ->
        know zs L xs (<[k := v]> d) /\ grow d (<[k := v]> d)) as Hst.
      { intros k v d Hk Hd. apply (know_touch _ _ _ x); [by apply insert_touch| |done|done].
        intros Hi. destruct Hz. by apply Hd. }
      apply rg_bind, wr_store.
      { intros w1 E1. apply Hst; [auto|]. by eapply know_eq. }
      { intros w1 e E1. split; [done|]. by apply eqj_grow. }
      intros w1 E1. pose proof (know_eq _ _ _ _ _ E1 HK) as K1.
      destruct (Hst (k_active j x) (j_bools [(ns, true)]) _ ltac:(auto) K1) as [K1' G1]. clear K1.
      apply (grow_trans _ _ _ (eqj_grow _ _ E1)) in G1.
      set (d1 := <[k_active j x := _]> (w_disk w1)) in *.
      assert (d1 !! k_active j x = Some (j_bools [(ns, true)])) as A1 by (unfold d1; by rewrite lookup_insert).
      assert (w_disk (w_apply w1 (SStore (k_active j x) (j_bools [(ns, true)])) (Val tt)) = d1) as D1 by done.
      revert D1. generalize (w_apply w1 (SStore (k_active j x) (j_bools [(ns, true)])) (Val tt)). intros u1 D1.
      destruct (dget x dl) as [lab|]; [|by split; rewrite ?D1].
      apply rg_bind, wr_store; rewrite D1.
      { intros w2 E2. apply Hst; [auto|]. by eapply know_eq. }
      { intros w2 e E2. split; [done|]. eapply grow_trans; [exact G1|]. by apply eqj_grow. }
      intros w2 E2. pose proof (know_eq _ _ _ _ _ E2 K1') as K2.
      destruct (Hst (k_label j x) (j_opt lab) _ ltac:(auto) K2) as [K2' G2]. clear K2.
      apply (grow_trans _ _ _ (eqj_grow _ _ E2)) in G2. apply (grow_trans _ _ _ G1) in G2.
      rewrite <- (E2 _ (rkey_act x)) in A1.
      set (d2 := <[k_label j x := _]> (w_disk w2)) in *.
      assert (d2 !! k_label j x = Some (j_opt lab)) as A2 by (unfold d2; by rewrite lookup_insert).
      assert (d2 !! k_active j x = Some (j_bools [(ns, true)])) as A3 by (unfold d2; by rewrite lookup_insert_ne).
      clear A1.
      assert (w_disk (w_apply w2 (SStore (k_label j x) (j_opt lab)) (Val tt)) = d2) as D2 by done.
      revert D2. generalize (w_apply w2 (SStore (k_label j x) (j_opt lab)) (Val tt)). intros u2 D2.
      apply wr_store; rewrite D2.
      { intros w3 E3. apply Hst; [auto|]. by eapply know_eq. }
      { intros w3 e E3. split; [done|]. eapply grow_trans; [exact G2|]. by apply eqj_grow. }
      intros w3 E3. pose proof (know_eq _ _ _ _ _ E3 K2') as K3.
      destruct (Hst (k_ns j x) (j_strs [ns]) _ ltac:(auto) K3) as [K3' G3]. clear K3.
      apply (grow_trans _ _ _ (eqj_grow _ _ E3)) in G3. apply (grow_trans _ _ _ G2) in G3.
      rewrite <- (E3 _ (rkey_act x)) in A3. rewrite <- (E3 _ (rkey_lab x)) in A2.
      set (d3 := <[k_ns j x := _]> (w_disk w3)) in *.
      assert (w_disk (w_apply w3 (SStore (k_ns j x) (j_strs [ns])) (Val tt)) = d3) as D3 by done. rewrite D3. clear D3.
      split; [|done].
      destruct K3' as (K1 & K2 & K4 & K5). split; [done|]. split; [done|]. split; [done|].
      intros y. rewrite elem_of_app, elem_of_list_singleton. intros [?| ->]; [auto|].
      exists [ns], [(ns, true)], lab. split; [|split; [|split]].
      - exists (j_strs [ns]). split; [unfold d3; by rewrite lookup_insert|apply is_strs].
      - exists (j_bools [(ns, true)]). split; [unfold d3; by rewrite lookup_insert_ne|apply is_bools].
      - exists (j_opt lab). split; [unfold d3; by rewrite lookup_insert_ne|apply is_label].
      - intros n ->%elem_of_list_singleton. simpl. rewrite decide_True by done. by eexists.
    Qed.

    (** stores that keep the record of a known device complete *)
    Definition kept (x : Z) (d d' : gmap string json) : Prop :=
      touch j x d d' /\ (crec d x -> crec d' x) /\ forall n, hasn d x n -> hasn d' x n.
    Lemma know_kept xs x d d' : kept x d d' -> know zs L xs d -> know zs L xs d' /\ grow d d'.
    Proof. intros (T & H1 & H2) HK. apply (know_touch zs L xs x); auto. Qed.
    Lemma kept_act x b l m d : hns d j x l -> hact d j x m -> kept x d (<[k_active j x := j_bools (dset ns b m)]> d).
    Proof.
      intros Hl Hm. assert (k_active j x <> k_label j x) as N1 by kneq. assert (k_ns j x <> k_active j x) as N3 by kneq.
      assert (hact (<[k_active j x := j_bools (dset ns b m)]> d) j x (dset ns b m)) as A.
      { eexists. split; [by rewrite lookup_insert|apply is_bools]. }
      assert (forall n, is_Some (dget n m) -> is_Some (dget n (dset ns b m))) as Hd.
      { intros n Hn. rewrite dget_dset'. destruct (decide _); [by eexists|done]. }
      split; [apply insert_touch; auto|]. split.
      - intros (l0 & m0 & o & H1 & H2 & H3 & H4). rewrite (hact_fun _ _ _ _ _ H2 Hm) in H4.
        exists l0, (dset ns b m), o. split; [eapply hk_eq; [by rewrite lookup_insert_ne|done]|]. split; [done|].
        split; [eapply hk_eq; [by rewrite lookup_insert_ne|done]|]. auto.
      - intros n (m0 & H1 & H2). rewrite (hact_fun _ _ _ _ _ H1 Hm) in H2. exists (dset ns b m). auto.
    Qed.
    Lemma kept_lab x lab d : kept x d (<[k_label j x := j_opt lab]> d).
    Proof.
      assert (k_active j x <> k_label j x) as N1 by kneq. assert (k_ns j x <> k_label j x) as N2 by kneq.
      split; [apply insert_touch; auto|]. split.
      - intros (l0 & m0 & o & H1 & H2 & H3 & H4). exists l0, m0, lab. split; [eapply hk_eq; [by rewrite lookup_insert_ne|done]|].
        split; [eapply hk_eq; [by rewrite lookup_insert_ne|done]|]. split; [|done].
        exists (j_opt lab). split; [by rewrite lookup_insert|apply is_label].
      - intros n (m0 & H1 & H2). exists m0. split; [eapply hk_eq; [by rewrite lookup_insert_ne|done]|done].
    Qed.
    Lemma kept_ns x l l' d : hns d j x l -> hasn d x ns -> (forall n, n ∈ l' <-> n ∈ l \/ n = ns) -> kept x d (<[k_ns j x := j_strs l']> d).
    Proof.
      intros Hl Hn Hl'. assert (k_ns j x <> k_label j x) as N2 by kneq. assert (k_ns j x <> k_active j x) as N3 by kneq.
      split; [apply insert_touch; auto|]. split.
      - intros (l0 & m0 & o & H1 & H2 & H3 & H4). rewrite (hns_fun _ _ _ _ _ H1 Hl) in H4.
        exists l', m0, o. split; [exists (j_strs l'); split; [by rewrite lookup_insert|apply is_strs]|].
        split; [eapply hk_eq; [by rewrite lookup_insert_ne|done]|]. split; [eapply hk_eq; [by rewrite lookup_insert_ne|done]|].
        intros n [Hin| ->]%Hl'; [auto|]. destruct Hn as (m1 & Hm1 & Hn). by rewrite (hact_fun _ _ _ _ _ Hm1 H2) in Hn.
      - intros n (m0 & H1 & H2). exists m0. split; [eapply hk_eq; [by rewrite lookup_insert_ne|done]|done].
    Qed.

    (** the post condition for one device *)
    Definition post (xs : list Z) (w0 : world) (o : outcome unit) (w : world) : Prop :=
      know zs L xs (w_disk w) /\ grow (w_disk w0) (w_disk w).
    Lemma post_store xs x w0 w k v (Q : outcome unit -> world -> Prop) :
      post xs w0 (Val tt) w -> (forall d, eqj (w_disk w) d -> kept x d (<[k := v]> d)) ->
      (forall e w', post xs w0 (Val tt) w' -> Q (Exn e) w') ->
      (forall w1 w', post xs w0 (Val tt) w' -> eqj (w_disk w) (w_disk w1) -> w_disk w' = <[k := v]> (w_disk w1) -> Q (Val tt) w') ->
      WR (s_store k v) Q w.
    Proof.
      intros [HK HG] Hk He Hv.
      assert (forall w1, eqj (w_disk w) (w_disk w1) -> post xs w0 (Val tt) w1) as Hp.
      { intros w1 E1. split; [by eapply know_eq|]. eapply grow_trans; [exact HG|]. by apply eqj_grow. }
      apply wr_store.
      - intros w1 E1. eapply know_kept; [by apply Hk|]. by apply Hp.
      - intros w1 e E1. apply He. exact (Hp w1 E1).
      - intros w1 E1. destruct (Hp w1 E1) as [K1 G1]. destruct (know_kept _ _ _ _ (Hk _ E1) K1) as [K2 G2].
        eapply Hv; [|exact E1|done]. split; [exact K2|]. by eapply grow_trans.
    Qed.
    Lemma post_eq xs w0 w w1 : eqj (w_disk w) (w_disk w1) -> post xs w0 (Val tt) w -> post xs w0 (Val tt) w1.
    Proof. intros E [H1 H2]. split; [by eapply know_eq|]. eapply grow_trans; [exact H2|]. by apply eqj_grow. Qed.

    Lemma wr_old xs x w : know zs L xs (w_disk w) -> WR (upd_old ns j dl x) (fun o w' => post xs w (Val tt) w') w.
    Proof.
      intros HK. unfold upd_old. assert (post xs w (Val tt) w) as P0 by (split; [done|apply grow_refl]).
      apply rg_bind. apply (wr_load _ _ _ _ _ good_strs); [intros w1 e E1; by eapply post_eq|intros w1 E1 _|intros w1 l E1 Hl].
      { by eapply post_eq. }
      pose proof (post_eq _ _ _ _ E1 P0) as P1. clear HK P0. apply rg_bind; cbn [from_just rg]; cbv zeta.
      apply rg_bind. apply (wr_load _ _ _ _ _ good_bools); [intros w2 e E2; by eapply post_eq|intros w2 E2 _|intros w2 m E2 Hm].
      { by eapply post_eq. }
      pose proof (post_eq _ _ _ _ E2 P1) as P2. pose proof (eqj_hk _ _ _ _ _ (rkey_ns x) E2 Hl) as Hl2. apply rg_bind; cbn [from_just rg]; cbv zeta.
      clear E1 E2 P1 Hl w1.
      assert (forall n, n ∈ pyset l <-> n ∈ l) as Hset by (intros n; apply elem_of_remove_dups).
      destruct (dget x dl) as [lab|].
      - apply rg_bind.
        apply rg_conseq with (Q := fun o w3 => post xs w (Val tt) w3 /\ match o with
            | Val _ => hns (w_disk w3) j x l /\ hasn (w_disk w3) x ns | Exn _ => True end).
        { destruct (bool_decide (dget ns m = Some true)) eqn:Hb.
          - apply bool_decide_eq_true in Hb. split; [done|]. split; [done|]. exists m. split; [done|]. rewrite Hb. by eexists.
          - apply (post_store xs x w).
            + done.
            + intros d E. eapply kept_act; [by eapply eqj_hk|by eapply eqj_hk].
            + intros e w' P. done.
            + intros w3 w' P E ->. split; [done|]. split.
              * eapply hk_eq; [apply lookup_insert_ne; kneq|]. by eapply eqj_hk.
              * exists (dset ns true m). split; [eexists; split; [by rewrite lookup_insert|apply is_bools]|].
                rewrite dget_dset', decide_True by done. by eexists. }
        intros [[]|e] w3 [P3 H3]; [|done]. destruct H3 as [Hl3 Hn3]. clear P2 Hm Hl2 w2.
        apply rg_bind. apply (wr_load _ _ _ _ _ good_label); [intros w4 e E4; by eapply post_eq|intros w4 E4 _|intros w4 o E4 Ho].
        { by eapply post_eq. }
        pose proof (post_eq _ _ _ _ E4 P3) as P4. apply rg_bind; cbn [from_just rg]; cbv zeta.
        pose proof (eqj_hk _ _ _ _ _ (rkey_ns x) E4 Hl3) as Hl4. pose proof (eqj_hasn _ _ _ _ E4 Hn3) as Hn4. clear Hl3 Hn3 P3 E4 Ho w3.
        apply rg_bind.
        apply rg_conseq with (Q := fun o w3 => post xs w (Val tt) w3 /\ match o with
            | Val _ => hns (w_disk w3) j x l /\ hasn (w_disk w3) x ns | Exn _ => True end).
        { destruct (bool_decide (lab <> None) && bool_decide (lab <> o)); [|done].
          apply (post_store xs x w).
          - done.
          - intros d E. apply kept_lab.
          - intros e w' P. done.
          - intros w3 w' P E ->. split; [done|]. split.
            + eapply hk_eq; [apply lookup_insert_ne; kneq|]. by eapply eqj_hk.
            + destruct (eqj_hasn _ _ _ _ E Hn4) as (m1 & Hm1 & ?). exists m1. split; [|done].
              eapply hk_eq; [apply lookup_insert_ne; kneq|done]. }
        intros [[]|e] w3 [P3 H3]; [|done]. destruct H3 as [Hl3 Hn3]. clear P4 Hl4 Hn4 w4.
        destruct (decide (ns ∈ pyset l)) as [Hin|Hnin]; [done|].
        apply rg_bind, wr_order. intros w4 l' E4 Hl'.
        apply (post_store xs x w).
        + by eapply post_eq.
        + intros d E. apply (kept_ns x l).
          * eapply eqj_hk; [done|exact E|]. by eapply eqj_hk.
          * eapply eqj_hasn; [exact E|]. by eapply eqj_hasn.
          * intros n. rewrite Hl'. unfold set_add. rewrite decide_False by done.
            rewrite elem_of_app, Hset, elem_of_list_singleton. done.
        + done.
        + done.
      - destruct (decide _); [|done]. destruct (dget ns m) as [[]|]; [|done..].
        apply (post_store xs x w).
        + done.
        + intros d E. eapply kept_act; [by eapply eqj_hk|by eapply eqj_hk].
        + done.
        + done.
    Qed.
  End writer.

  Lemma wr_update cf ns dl w :
    j <> c_jid cf -> whole (w_disk w) -> WR (update_device_list cf ns j dl) (fun _ w' => grow (w_disk w) (w_disk w')) w.
  Proof.
    intros Hj Hw. unfold update_device_list.
    intros w1 r E1 Hr. split; [apply grow_refl|]. cbn [bind]. simpl in Hr. subst r. change (w_apply w1 GLoaded (w_loaded w1)) with w1.
    destruct (decide (ns ∈ w_loaded w1)) as [Hns|Hns]; [|by apply eqj_grow]. cbv zeta.
    pose proof (eqj_whole _ _ E1 Hw) as W1. apply rg_bind.
    assert (forall zs w2, eqj (w_disk w1) (w_disk w2) -> (forall x, ids (w_disk w2) x <-> x ∈ zs) ->
      WR (dl' <- upd_own cf ns j dl ;; upd_rest ns j dl' (set_diff (pyset (dkeys dl)) (pyset zs)) (pyset zs)
            (set_union (pyset (dkeys dl)) (pyset zs))) (fun _ w' => grow (w_disk w) (w_disk w')) w2) as Hgo.
    { intros zs w2 E2 Hz. unfold upd_own. rewrite decide_False by done. apply rg_bind; cbn [rg]. unfold upd_rest.
      set (nds := set_diff _ _). set (all := set_union _ _). set (L := w_disk w2 !! k_list j).
      assert (forall x, x ∈ nds -> x ∉ zs) as Hnds.
      { intros x Hx. unfold nds, set_diff in Hx. apply elem_of_list_filter in Hx as [Hx _]. intros Hc. apply Hx.
        unfold pyset. by rewrite elem_of_remove_dups. }
      assert (NoDup nds) as ND by (apply NoDup_filter, NoDup_remove_dups).
      assert (know zs L [] (w_disk w2)) as K2.
      { split; [done|]. split; [done|]. split; [by eapply eqj_whole|]. intros x Hx. by apply elem_of_nil in Hx. }
      assert (grow (w_disk w) (w_disk w2)) as G2 by (apply eqj_grow; by eapply eqj_trans).
      apply rg_bind, wr_order. intros w3 nd E3 Pnd.
      pose proof (know_eq _ _ _ _ _ E3 K2) as K3. pose proof (grow_trans _ _ _ G2 (eqj_grow _ _ E3)) as G3. clear K2 G2.
      assert (forall x, x ∈ nd <-> x ∈ nds) as Mnd by (intros x; by rewrite Pnd).
      assert (NoDup nd) as NDnd by (by rewrite Pnd).
      apply rg_bind.
      apply (rg_for_each _ _ _ _ (fun pre w' => know zs L pre (w_disk w') /\ grow (w_disk w) (w_disk w'))); [done| |].
      { intros pre x post' w4 Hl [K4 G4]. rewrite Hl in NDnd. apply NoDup_app in NDnd as (_ & Hpre & _).
        assert (x ∈ nds) as Hx by (rewrite <- Mnd, Hl; apply elem_of_app; right; left).
        eapply rg_conseq; [apply (wr_new ns dl zs L pre); [done|by apply Hnds|intros Hc; apply Hpre in Hc; apply Hc; left]|].
        intros [[]|e] w5 [K5 G5]; [split; [done|]|]; by eapply grow_trans. }
      intros w4 [K4 G4]. apply rg_bind, wr_order. intros w5 od E5 Pod.
      pose proof (know_eq _ _ _ _ _ E5 K4) as K5. pose proof (grow_trans _ _ _ G4 (eqj_grow _ _ E5)) as G5. clear K4 G4.
      apply rg_bind.
      apply (rg_for_each _ _ _ _ (fun pre w' => know zs L nd (w_disk w') /\ grow (w_disk w) (w_disk w'))); [done| |].
      { intros pre x post' w6 Hl [K6 G6]. eapply rg_conseq; [by apply (wr_old ns dl zs L nd)|].
        intros [[]|e] w7 [K7 G7]; [split; [done|]|]; by eapply grow_trans. }
      intros w6 [K6 G6].
      destruct (decide (nds = [])) as [En|En].
      { assert (forall A (a b : A), match nds with [] => a | _ => b end = a) as Hm by (by rewrite En). rewrite Hm. done. }
      assert (forall A (a b : A), match nds with [] => a | _ => b end = b) as Hm by (by destruct nds). rewrite Hm.
      apply rg_bind, wr_order. intros w7 l E7 Hl.
      pose proof (know_eq _ _ _ _ _ E7 K6) as K7. pose proof (grow_trans _ _ _ G6 (eqj_grow _ _ E7)) as G7. clear K6 G6.
      assert (forall x, x ∈ l <-> x ∈ nds \/ x ∈ zs) as Hall.
      { intros x. rewrite Hl. unfold all, nds, set_union, set_diff, pyset.
        rewrite elem_of_app, !elem_of_list_filter, !elem_of_remove_dups. destruct (decide (x ∈ zs)); destruct (decide (x ∈ dkeys dl)); tauto. }
      assert (forall d, know zs L nd d -> grow d (<[k_list j := j_ints l]> d)) as Hst.
      { intros d (Ka & Kb & Kc & Kd).
        assert (forall y, same_dev j y d (<[k_list j := j_ints l]> d)) as Hs.
        { intros y. split; [|split]; apply lookup_insert_ne; kneq. }
        assert (hlist (<[k_list j := j_ints l]> d) j l) as Hli.
        { exists (j_ints l). split; [by rewrite lookup_insert|apply is_ints]. }
        intros _. split; [split|].
        - right. by exists l.
        - intros y (zs' & Hz1 & Hz2). rewrite (hlist_fun _ _ _ _ Hz1 Hli) in Hz2. eapply same_crec; [apply Hs|].
          apply Hall in Hz2 as [Hy|Hy]; [apply Kd; by rewrite Mnd|]. apply Kc. by apply Kb.
        - intros y Hy. split; [|intros n; by apply same_hasn]. exists l. split; [done|]. apply Hall. right. by apply Kb. }
      apply wr_store.
      - intros w8 E8. apply Hst. by eapply know_eq.
      - intros w8 e E8. eapply grow_trans; [exact G7|]. by apply eqj_grow.
      - intros w8 E8. eapply grow_trans; [eapply grow_trans; [exact G7|by apply eqj_grow]|]. apply Hst. by eapply know_eq. }
    apply (wr_load _ _ _ _ _ good_ints).
    - intros w2 e E2. apply eqj_grow. by eapply eqj_trans.
    - intros w2 E2 Hn. apply (Hgo [] w2); [done|]. intros x. split; [|intros Hx; by apply elem_of_nil in Hx].
      intros (zs & (v & Hv & _) & _). congruence.
    - intros w2 zs E2 Hz. apply (Hgo zs w2); [done|]. intros x. split; [|intros Hx; by exists zs].
      intros (zs' & Hz' & Hx). by rewrite (hlist_fun _ _ _ _ Hz' Hz) in Hx.
  Qed.
End account.

(** ** Everything else *)
Lemma rkey_item j i : rkey j (item_key i) -> record_item j i.
Proof. intros (i' & Hi & Hk). apply item_key_cases in Hk as [->|[_ Hq]]; [done|]. by destruct i'. Qed.

Section walk.
  Context (j : string) (Rl G : world -> world -> Prop).
  Notation EQ := (fun w w' : world => eqj j (w_disk w) (w_disk w')).
  Notation GR := (fun w w' : world => grow j (w_disk w) (w_disk w')).
  Hypothesis HRl : forall w w', Rl w w' -> GR w w'.
  Hypothesis HG : forall w w', EQ w w' -> G w w'.
  Hypothesis HG' : forall w w', G w w' -> GR w w'.
  Context (U : Prop).
  Definition sf {A} (p : api A) : Prop :=
    forall w, whole j (w_disk w) -> rg Rl G p (fun _ w' => grow j (w_disk w) (w_disk w')) w.
  Hypothesis HU : U -> forall cf ns dl, j <> c_jid cf -> sf (update_device_list cf ns j dl).

  Definition quietc (c : cmd) : Prop := match c with SStore k _ | SDelete k => ~ rkey j k | _ => True end.
  Lemma quiet_eq w c r : quietc c -> eqj j (w_disk w) (w_disk (w_apply w c r)).
  Proof.
    intros Hc. destruct c; simpl in *; try done; destruct r; simpl; try done; intros k' Hk'.
    - apply lookup_insert_ne. by intros ->.
    - apply lookup_delete_ne. by intros ->.
  Qed.

  Lemma sf_ret {A} (a : A) : sf (Ret a). Proof. intros w _. apply grow_refl. Qed.
  Lemma sf_raise {A} e : sf (@Raise _ _ A e). Proof. intros w _. apply grow_refl. Qed.
  Lemma sf_bind {A B} (p : api A) (f : A -> api B) : sf p -> (forall a, sf (f a)) -> sf (bind p f).
  Proof.
    intros Hp Hf w Hw. apply rg_bind. eapply rg_conseq; [by apply Hp|]. intros [a|e] w' G1; [|done].
    eapply rg_conseq; [apply Hf; by apply G1|]. intros o w2 G2. by eapply grow_trans.
  Qed.
  Lemma sf_try {A} (p : api A) : sf p -> sf (try_ p).
  Proof. intros Hp w Hw. apply rg_try. eapply rg_conseq; [by apply Hp|]. done. Qed.
  Lemma sf_step {A} c (k : resp c -> api A) : quietc c -> (forall r, sf (k r)) -> sf (Step c k).
  Proof using All.
    intros Hc Hk w Hw w1 r HR Hr. pose proof (quiet_eq w1 c r Hc) as E. split; [by apply HG|].
    pose proof (grow_trans _ _ _ _ (HRl _ _ HR) (eqj_grow _ _ _ E)) as G1.
    eapply rg_conseq; [apply Hk; by apply G1|]. intros o w2 G2. by eapply grow_trans.
  Qed.
  Lemma sf_outcome {A} (o : outcome A) : sf (of_outcome o).
  Proof. destruct o; [apply sf_ret|apply sf_raise]. Qed.
  Lemma sf_from_just {A} (o : option A) : sf (from_just o).
  Proof. destruct o; [apply sf_ret|apply sf_raise]. Qed.
  Lemma sf_key_error {A} (o : option A) : sf (of_key_error o).
  Proof. destruct o; [apply sf_ret|apply sf_raise]. Qed.
  Lemma sf_order {A} (l : list A) : sf (order l).
  Proof using All. apply sf_step; [done|]. intros r. apply sf_ret. Qed.
  Lemma sf_load {A} (check : json -> outcome A) k : sf (load_checked check k).
  Proof using All.
    unfold load_checked. apply sf_bind; [apply sf_step; [done|intros r; apply sf_outcome]|].
    intros [v|]; [|apply sf_ret]. destruct (check v); [apply sf_ret|apply sf_raise].
  Qed.
  Lemma sf_for_each {A} (l : list A) f : (forall x, x ∈ l -> sf (f x)) -> sf (for_each l f).
  Proof.
    induction l as [|x l IH]; intros Hf; [apply sf_ret|]. cbn [for_each]. apply sf_bind; [apply Hf; left|].
    intros _. apply IH. intros y Hy. apply Hf. by right.
  Qed.
  Lemma sf_fold {A B} (l : list A) (f : B -> A -> api B) b : (forall b x, x ∈ l -> sf (f b x)) -> sf (fold_prog l f b).
  Proof.
    revert b. induction l as [|x l IH]; intros b Hf; [apply sf_ret|]. cbn [fold_prog]. apply sf_bind; [apply Hf; left|].
    intros b'. apply IH. intros b0 y Hy. apply Hf. by right.
  Qed.
  Lemma sf_map {A B} (l : list A) (f : A -> api B) : (forall x, x ∈ l -> sf (f x)) -> sf (map_prog f l).
  Proof.
    induction l as [|x l IH]; intros Hf; [apply sf_ret|]. cbn [map_prog]. apply sf_bind; [apply Hf; left|].
    intros b. apply sf_bind; [apply IH; intros y Hy; apply Hf; by right|]. intros bs. apply sf_ret.
  Qed.
  Lemma sf_filter {A} (l : list A) (f : A -> api bool) : (forall x, x ∈ l -> sf (f x)) -> sf (filter_prog f l).
  Proof.
    induction l as [|x l IH]; intros Hf; [apply sf_ret|]. cbn [filter_prog]. apply sf_bind; [apply Hf; left|].
    intros b. apply sf_bind; [apply IH; intros y Hy; apply Hf; by right|]. intros bs. destruct b; apply sf_ret.
  Qed.
  Hint Resolve sf_ret sf_raise : core.

  Ltac sf1 :=
    match goal with
    | |- sf (bind _ _) => apply sf_bind; [|intros ?]
    | |- sf (try_ _) => apply sf_try
    | |- sf (Ret _) => apply sf_ret
    | |- sf (Raise _) => apply sf_raise
    | |- sf (for_each _ _) => apply sf_for_each; intros ? ?
    | |- sf (fold_prog _ _ _) => apply sf_fold; intros ? ? ?
    | |- sf (map_prog _ _) => apply sf_map; intros ? ?
    | |- sf (filter_prog _ _) => apply sf_filter; intros ? ?
    | |- sf (order _) => apply sf_order
    | |- sf (of_key_error _) => apply sf_key_error
    | |- sf (from_just _) => apply sf_from_just
    | |- sf (of_outcome _) => apply sf_outcome
    | |- sf (load_list _ _) => apply sf_load
    | |- sf (load_dict _ _) => apply sf_load
    | |- sf (load_bytes _) => apply sf_load
    | |- sf (load_optional _ _) => apply sf_load
    | |- sf (load_primitive _ _) => apply sf_load
    | |- sf (let '_ := ?b in _) => destruct b
    | |- sf (match ?b with _ => _ end) => destruct b
    | |- sf (if ?b then _ else _) => destruct b
    end.
  Lemma nk_list j' : j' <> j -> ~ rkey j (k_list j'). Proof. intros H Hk. by apply (rkey_item j (IDeviceList j')) in Hk. Qed.
  Lemma nk_ns j' x : j' <> j -> ~ rkey j (k_ns j' x). Proof. intros H Hk. by apply (rkey_item j (INamespaces j' x)) in Hk. Qed.
  Lemma nk_act j' x : j' <> j -> ~ rkey j (k_active j' x). Proof. intros H Hk. by apply (rkey_item j (IActive j' x)) in Hk. Qed.
  Lemma nk_lab j' x : j' <> j -> ~ rkey j (k_label j' x). Proof. intros H Hk. by apply (rkey_item j (ILabel j' x)) in Hk. Qed.
  Lemma nk_ik j' x : ~ rkey j (k_ik j' x). Proof. intros Hk. by apply (rkey_item j (IIdentityKey j' x)) in Hk. Qed.
  Lemma nk_trust j' ik : ~ rkey j (k_trust j' ik). Proof. intros Hk. by apply (rkey_item j (ITrust j' ik)) in Hk. Qed.
  Lemma nk_queue n : ~ rkey j (k_queue n). Proof. intros Hk. by apply (rkey_item j (IQueue n)) in Hk. Qed.
  Lemma nk_queue_jid n j' : ~ rkey j (k_queue_jid n j'). Proof. intros Hk. by apply (rkey_item j (IQueueDevices n j')) in Hk. Qed.
  Lemma nk_own : ~ rkey j k_own. Proof. intros Hk. by apply (rkey_item j IOwnDeviceId) in Hk. Qed.
  Lemma nk_seed : ~ rkey j k_ikp_seed. Proof. intros Hk. by apply (rkey_item j IKeyPairIsSeed) in Hk. Qed.
  Lemma nk_key : ~ rkey j k_ikp_key. Proof. intros Hk. by apply (rkey_item j IKeyPairKey) in Hk. Qed.
  Hint Resolve nk_list nk_ns nk_act nk_lab nk_ik nk_trust nk_queue nk_queue_jid nk_own nk_seed nk_key : core.
  Ltac cmd1 := unfold store_bytes in *; unw; unfold g_loaded, g_sync, p_loaded, p_sync, c_randbelow, c_randbytes, s_load in *;
    match goal with |- sf (Step _ _) => apply sf_step; [cbn [quietc]; auto|intros ?; first [apply sf_outcome|apply sf_ret|idtac]] end.
  Ltac sft := repeat (cbv zeta; first [sf1|progress cmd1]).

  Lemma sf_update cf ns j' dl : j <> c_jid cf -> j' <> j \/ U -> sf (update_device_list cf ns j' dl).
  Proof using All.
    intros Ho Hj. destruct (decide (j' = j)) as [->|Hne].
    - destruct Hj as [?|Hu]; [done|]. by apply HU.
    - unfold update_device_list, upd_own, upd_new, upd_old. sft; auto.
  Qed.
  Lemma sf_refresh cf ns j' : j <> c_jid cf -> j' <> j \/ U -> sf (refresh_device_list cf ns j').
  Proof using All. intros Ho Hj. unfold refresh_device_list. sft. by apply sf_update. Qed.
  Lemma sf_refresh_all cf j' : j <> c_jid cf -> j' <> j \/ U -> sf (refresh_device_lists cf j').
  Proof using All. intros Ho Hj. unfold refresh_device_lists. sft. by apply sf_refresh. Qed.
  Lemma sf_find_key j' x l : sf (find_key j' x l).
  Proof using All. induction l as [|ns l IH]; [apply sf_ret|]. cbn [find_key]. sft; auto. Qed.

  (** ** Device information of the account that is being updated *)
  Definition fine (e : exn) : Prop := e <> ENothing /\ e <> EKeyError.
  Lemma ext_fine e : ext_exn e = true -> fine e.
  Proof. intros H. split; intros ->; discriminate H. Qed.
  Lemma rl_load {A} (check : json -> outcome A) k (Q : outcome (option A) -> world -> Prop) w :
    (forall v e, check v = Exn e -> fine e) ->
    (forall w1 e, Rl w w1 -> fine e -> Q (Exn e) w1) ->
    (forall w1, Rl w w1 -> w_disk w1 !! k = None -> Q (Val None) w1) ->
    (forall w1 v a, Rl w w1 -> w_disk w1 !! k = Some v -> check v = Val a -> Q (Val (Some a)) w1) ->
    rg Rl G (load_checked check k) Q w.
  Proof using All.
    intros Hc He HN HS. unfold load_checked. apply rg_bind. intros w1 r HR Hr. split; [apply HG; done|]. simpl in Hr |- *.
    apply rg_outcome. destruct r as [m|e]; [|apply He; [done|by apply ext_fine]]. subst m.
    destruct (w_disk w1 !! k) as [v|] eqn:Ek; [|by apply HN]. destruct (check v) as [a|e] eqn:Ec; [by eapply HS|].
    apply He; [done|]. by eapply Hc.
  Qed.
  Lemma rl_typed {A} (check : json -> outcome A) (T : json -> A -> Prop) k (Q : outcome (option A) -> world -> Prop) w :
    good_check check T ->
    (forall w1 e, Rl w w1 -> fine e -> Q (Exn e) w1) ->
    (forall w1, Rl w w1 -> w_disk w1 !! k = None -> Q (Val None) w1) ->
    (forall w1 a, Rl w w1 -> hk T (w_disk w1) k a -> Q (Val (Some a)) w1) ->
    rg Rl G (load_checked check k) Q w.
  Proof using All.
    intros Hg He HN HS. apply rl_load; [|done|done|].
    - intros v e Hv. destruct (Hg v) as [(a & _ & E)|[_ E]]; rewrite E in Hv; [done|]. injection Hv as <-. done.
    - intros w1 v a HR Hv Ha. apply HS; [done|]. exists v. split; [done|].
      destruct (Hg v) as [(a' & Ha' & E)|[_ E]]; rewrite E in Ha; [|done]. by injection Ha as <-.
  Qed.
  Lemma rl_order {A} (l : list A) (Q : outcome (list A) -> world -> Prop) w :
    (forall w1 l', Rl w w1 -> l' ≡ₚ l -> Q (Val l') w1) -> rg Rl G (order l) Q w.
  Proof using All. intros HQ w1 r HR _. split; [apply HG; done|]. apply HQ; [done|apply reorder_perm]. Qed.

  Notation ids := (ids j). Notation whole := (whole j). Notation hasn := (hasn j).
  Notation GROW w w' := (grow j (w_disk w) (w_disk w')).
  (** device [x] is known, with activity for every namespace in [l] *)
  Definition covers (x : Z) (l : list string) (d : gmap string json) : Prop :=
    whole d /\ ids d x /\ forall n, n ∈ l -> hasn d x n.
  Lemma covers_grow x l d d' : grow j d d' -> covers x l d -> covers x l d'.
  Proof. intros Hg (H1 & H2 & H3). destruct (Hg H1) as [G1 G2]. destruct (G2 x H2) as [G3 G4]. split; [done|]. auto. Qed.
  Definition okpost {A} (w0 : world) (o : outcome A) (w : world) : Prop :=
    GROW w0 w /\ match o with Exn e => fine e | Val _ => True end.

  Lemma rl_info_rest cf x l ik w0 w :
    GROW w0 w -> covers x l (w_disk w) -> rg Rl G (dev_info_rest cf j x l ik) (okpost w0) w.
  Proof using All.
    intros G0 HC. unfold dev_info_rest.
    assert (forall w w1, Rl w w1 -> GROW w0 w -> covers x l (w_disk w) -> GROW w0 w1 /\ covers x l (w_disk w1)) as Hn.
    { intros w2 w1 HR H1 H2. split; [eapply grow_trans; [exact H1|by apply HRl]|]. eapply covers_grow; [by apply HRl|done]. }
    apply rg_bind. apply (rl_typed _ _ _ _ _ good_bools).
    { intros w1 e HR He. by destruct (Hn _ _ HR G0 HC). }
    { intros w1 HR Hno. destruct (Hn _ _ HR G0 HC) as [_ ((_ & Hw) & Hi & _)]. destruct (Hw x Hi) as (? & ? & ? & _ & (v & Hv & _) & _). congruence. }
    intros w1 m HR Hm. destruct (Hn _ _ HR G0 HC) as [G1 C1]. clear G0 HC HR w. apply rg_bind; cbn [from_just rg].
    assert (forallb (fun ns => dmem ns m) l = true) as Hall.
    { apply forallb_forall. intros n Hin%elem_of_list_In. destruct C1 as (_ & _ & C1). destruct (C1 n Hin) as (m' & Hm' & Hs).
      rewrite (hact_fun _ _ _ _ _ Hm' Hm) in Hs. unfold dmem. by apply bool_decide_eq_true. }
    clear Hm. apply rg_bind. apply (rl_typed _ _ _ _ _ good_label).
    { intros w2 e HR He. by destruct (Hn _ _ HR G1 C1). }
    { intros w2 HR Hno. destruct (Hn _ _ HR G1 C1) as [_ ((_ & Hw) & Hi & _)]. destruct (Hw x Hi) as (? & ? & ? & _ & _ & (v & Hv & _) & _). congruence. }
    intros w2 o HR _. destruct (Hn _ _ HR G1 C1) as [G2 C2]. clear G1 C1 HR w1. apply rg_bind; cbn [from_just rg].
    apply rg_bind. apply (rl_typed _ _ _ _ _ good_str).
    { intros w1 e HR He. by destruct (Hn _ _ HR G2 C2). }
    - intros w1 HR _. cbv zeta. destruct (Hn _ _ HR G2 C2). apply rg_bind. rewrite Hall. cbn [rg]. by split.
    - intros w1 lv HR _. cbv zeta. destruct (Hn _ _ HR G2 C2). apply rg_bind. rewrite Hall. cbn [rg]. by split.
  Qed.

  Lemma rl_find_key x l nss w0 w :
    GROW w0 w -> covers x l (w_disk w) ->
    rg Rl G (find_key j x nss) (fun o w' => GROW w0 w' /\ covers x l (w_disk w') /\ match o with Exn e => fine e | Val _ => True end) w.
  Proof using All.
    intros G0 HC. revert w G0 HC. induction nss as [|n nss IH]; intros w G0 HC; [done|]. cbn [find_key].
    apply rg_bind, rg_try. intros w1 r HR Hr. split; [apply HG; done|]. 
    assert (GROW w0 w1) as G1 by (eapply grow_trans; [exact G0|by apply HRl]).
    assert (covers x l (w_disk w1)) as C1 by (eapply covers_grow; [by apply HRl|done]).
    set (w2 := w_apply w1 _ r). assert (w_disk w2 = w_disk w1) as D2 by done. rewrite <- D2 in G1, C1. clearbody w2. clear D2.
    apply rg_outcome. destruct r as [b|e].
    - apply rg_bind. intros w3 r HR3 Hr3.
      assert (forall r, eqj j (w_disk w3) (w_disk (w_apply w3 (SStore (k_ik j x) (JStr (b64enc (b_ik b)))) r))) as E3.
      { intros r'. apply quiet_eq. apply nk_ik. }
      split; [apply HG, E3|].
      assert (GROW w2 (w_apply w3 (SStore (k_ik j x) (JStr (b64enc (b_ik b)))) r)) as G3.
      { eapply grow_trans; [by apply HRl|]. apply eqj_grow, E3. }
      apply rg_outcome. destruct r as [[]|e'].
      + split; [eapply grow_trans; eassumption|]. split; [by eapply covers_grow|done].
      + split; [eapply grow_trans; eassumption|]. split; [by eapply covers_grow|]. by apply ext_fine.
    - simpl in Hr. assert (forall e, ext_exn e = true -> rg Rl G (@Raise _ _ (option bundle) e)
        (fun o w' => GROW w0 w' /\ covers x l (w_disk w') /\ match o with Exn e => fine e | Val _ => True end) w2) as HX.
      { intros e0 He0. split; [done|]. split; [done|]. by apply ext_fine. }
      destruct e; try (by apply HX); by apply IH.
  Qed.

  Lemma rl_info cf w : whole (w_disk w) -> rg Rl G (get_device_information_ cf j) (okpost w) w.
  Proof using All.
    intros Hw. unfold get_device_information_. apply rg_bind. apply (rl_typed _ _ _ _ _ good_ints).
    { intros w1 e HR He. split; [by apply HRl|done]. }
    { intros w1 HR _. apply rg_bind, rl_order. intros w2 l' HR2 Hl'. apply Permutation_nil_r in Hl' as ->.
      split; [|done]. eapply grow_trans; by apply HRl. }
    intros w1 zs HR Hz. pose proof (HRl _ _ HR) as G1. cbn beta in G1. pose proof (proj1 (G1 Hw)) as W1.
    apply rg_bind, rl_order. intros w2 l HR2 Hl. pose proof (HRl _ _ HR2) as G2. cbn beta in G2. destruct (G2 W1) as [W2 I2].
    apply rg_fold with (Inv := fun _ w' => GROW w w' /\ GROW w2 w').
    - split; [eapply grow_trans; eassumption|apply grow_refl].
    - intros acc x w3 Hx [G3 G3']. rewrite Hl in Hx. simpl in Hx. unfold pyset in Hx. rewrite elem_of_remove_dups in Hx.
      assert (ids (w_disk w3) x) as Hi. { apply (G3' W2). apply I2. by exists zs. }
      pose proof (proj1 (G3' W2)) as W3.
      eapply rg_conseq with (Q := fun o w4 => GROW w3 w4 /\ match o with Exn e => fine e | Val _ => True end).
      2:{ intros [b|e] w4 [G4 H4]; [split; (eapply grow_trans; eassumption)|]. split; [eapply grow_trans; eassumption|done]. }
      unfold dev_info. apply rg_bind. apply (rl_typed _ _ _ _ _ good_strs).
      { intros w4 e HR4 He. split; [by apply HRl|done]. }
      { intros w4 HR4 Hno. pose proof (HRl _ _ HR4) as G4. cbn beta in G4. destruct (G4 W3) as [[_ W4] I4].
        destruct (W4 x (proj1 (I4 x Hi))) as (? & ? & ? & (v & Hv & _) & _). congruence. }
      intros w4 nss HR4 Hns. pose proof (HRl _ _ HR4) as G4. cbn beta in G4. destruct (G4 W3) as [W4 I4]. apply rg_bind; cbn [from_just rg]; cbv zeta.
      assert (covers x (pyset nss) (w_disk w4)) as C4.
      { split; [done|]. split; [by apply I4|]. intros n Hin. unfold pyset in Hin. rewrite elem_of_remove_dups in Hin.
        destruct W4 as [_ W4]. destruct (W4 x (proj1 (I4 x Hi))) as (l0 & m0 & o0 & Q1 & Q2 & _ & Q3).
        rewrite (hns_fun _ _ _ _ _ Q1 Hns) in Q3. exists m0. auto. }
      apply rg_bind. unfold load_bytes. apply rl_load.
      { intros v e Hv. destruct v; try (injection Hv as <-; done). destruct (b64dec s); [done|]. by injection Hv as <-. }
      { intros w5 e HR5 He. split; [eapply grow_trans; [exact G4|by apply HRl]|done]. }
      + intros w5 HR5 _. apply rg_bind, rl_order. intros w6 nso HR6 _.
        assert (GROW w3 w6) as G6. { eapply grow_trans; [exact G4|]. eapply grow_trans; by apply HRl. }
        assert (covers x (pyset nss) (w_disk w6)) as C6. { eapply covers_grow; [|exact C4]. eapply grow_trans; by apply HRl. }
        apply rg_bind. eapply rg_conseq; [by apply (rl_find_key x (pyset nss) nso w3)|].
        intros [[b|]|e] w7 (G7 & C7 & H7); [|done|done].
        apply rg_bind. eapply rg_conseq; [by apply (rl_info_rest cf x _ _ w3)|]. intros [d|e] w8 [G8 H8]; done.
      + intros w5 v ik HR5 _ _. apply rg_bind.
        assert (GROW w3 w5) as G5 by (eapply grow_trans; [exact G4|by apply HRl]).
        assert (covers x (pyset nss) (w_disk w5)) as C5 by (eapply covers_grow; [by apply HRl|done]).
        eapply rg_conseq; [by apply (rl_info_rest cf x _ _ w3)|]. intros [d|e] w8 [G8 H8]; done.
    - intros b w3 [G3 _]. by split.
  Qed.
  Lemma rl_get_info cf w : whole (w_disk w) -> rg Rl G (get_device_information cf j) (okpost w) w.
  Proof using All.
    intros Hw. unfold get_device_information. apply rg_bind. eapply rg_conseq; [by apply rl_info|].
    intros [r|e] w' [G1 H1]; by split.
  Qed.

  Lemma sf_info_ cf j' : sf (get_device_information_ cf j').
  Proof using All.
    destruct (decide (j' = j)) as [->|Hne].
    - intros w Hw. eapply rg_conseq; [by apply rl_info|]. by intros o w' [? _].
    - unfold get_device_information_, dev_info, dev_info_rest. sft; auto using sf_find_key.
  Qed.
  Lemma sf_info cf j' : sf (get_device_information cf j').
  Proof using All. unfold get_device_information. sft. apply sf_info_. Qed.
  Lemma sf_own cf : sf (get_own_device_information cf).
  Proof using All. unfold get_own_device_information. sft. apply sf_info. Qed.
  Lemma sf_label cf l : j <> c_jid cf -> sf (set_own_label cf l).
  Proof using All. intros H. unfold set_own_label. sft; auto. Qed.
  Lemma sf_purge_backend cf ns : j <> c_jid cf -> sf (purge_backend cf ns).
  Proof using All. intros H. unfold purge_backend. sft; auto using sf_own. Qed.
  Lemma sf_purge_jid j' : j' <> j -> sf (purge_bare_jid j').
  Proof using All. intros H. unfold purge_bare_jid, collect_key. sft; auto. Qed.
  Lemma sf_rotate_upload cf fuel rd ns : sf (rotate_upload cf fuel rd ns).
  Proof using All. revert rd. induction fuel as [|fuel IH]; intros rd; [apply sf_raise|]. cbn [rotate_upload]. sft; auto. Qed.
  Lemma sf_rotation cf fuel period : sf (rotation cf fuel period).
  Proof using All. induction fuel as [|fuel IH]; [apply sf_raise|]. cbn [rotation]. unfold rotate_one. sft; auto using sf_rotate_upload. Qed.
  Lemma sf_ensure cf : j <> c_jid cf -> sf (ensure_data_consistency cf).
  Proof using All. intros H. unfold ensure_data_consistency. sft; auto. all: apply sf_refresh; auto. Qed.
  Lemma sf_send_empty cf ns s : sf (send_empty_message cf ns s).
  Proof using All. unfold send_empty_message. sft. Qed.
  Lemma sf_replace cf j' x : sf (replace_sessions cf j' x).
  Proof using All. unfold replace_sessions, replace_one. sft; auto using sf_info. Qed.
  Lemma sf_chain j' x nss : sf (get_sending_chain_length j' x nss).
  Proof using All. unfold get_sending_chain_length. sft. Qed.
  Lemma sf_after cf : sf (after_history_sync cf).
  Proof using All. unfold after_history_sync, flush_ns, flush_jid, flush_dev. sft; auto using sf_send_empty. Qed.
  Lemma sf_encrypt cf mtd jids pt prio ident : (forall ds i, sf (mtd ds i)) -> sf (encrypt cf mtd jids pt prio ident).
  Proof using All.
    intros Hm. unfold encrypt, enc_trust, devices_with, reload_trust, enc_backend, enc_device. sft; auto using sf_info_.
  Qed.
  Lemma sf_decrypt cf m : j <> c_jid cf -> m_jid m <> j \/ U -> sf (decrypt cf m).
  Proof using All.
    intros H Hm. unfold decrypt, dec_existing, dec_kex, dec_sender, dec_prekeys, dec_respond. sft; auto using sf_info, sf_send_empty.
    all: apply sf_refresh; auto.
  Qed.
  Lemma sf_ikp : sf ikp_get.
  Proof using All. unfold ikp_get, ikp_generate. sft; auto. Qed.
  Lemma sf_fresh fuel l : sf (fresh_id fuel l).
  Proof using All. induction fuel as [|fuel IH]; [apply sf_raise|]. cbn [fresh_id]. sft; auto. Qed.
  Lemma sf_create P fuel a : a_jid a <> j -> sf (create P fuel a).
  Proof using All.
    intros H. unfold create, first_run_local, first_run_publish, reconcile, add_backend. sft; auto using sf_ikp, sf_fresh, sf_own.
    all: try (apply sf_refresh; simpl; auto). all: try (apply sf_purge_backend; simpl; auto).
  Qed.
  Lemma sf_call cf c :
    j <> c_jid cf -> on cf c -> ~ updates j c \/ U ->
    (forall cf mtd jids pt prio ident, c = KEncrypt cf mtd jids pt prio ident -> forall ds i, sf (mtd ds i)) ->
    sf (run_call c).
  Proof using All.
    intros Hj Hc Hu Hm. destruct c; cbn [run_call call_ret on updates] in *;
      try match type of Hc with same_device _ _ => destruct Hc as [Hc _]; rewrite <- Hc in Hj; clear Hc end.
    - apply sf_create. congruence.
    - apply sf_ikp.
    - apply sf_update; auto.
    - apply sf_refresh; auto.
    - apply sf_refresh_all; auto.
    - unfold set_trust. sft; auto.
    - apply sf_info.
    - apply sf_own.
    - by apply sf_label.
    - by apply sf_purge_backend.
    - done.
    - apply sf_rotation.
    - by apply sf_ensure.
    - apply sf_replace.
    - apply sf_chain.
    - unfold before_history_sync. sft.
    - apply sf_after.
    - apply sf_encrypt. by eapply Hm.
    - apply sf_decrypt; auto.
  Qed.
  Lemma sf_code cf (ok : call -> Prop) {A} (p : api A) :
    j <> c_jid cf -> (forall c, ok c -> on cf c /\ (~ updates j c \/ U)) -> appcode ok p -> sf p.
  Proof using All.
    intros Hj Hok H. induction H as [A a|A e|A B p f Hp IHp Hf IHf|A p Hp IHp|c Hc|c Hc Hm IHm].
    - apply sf_ret.
    - apply sf_raise.
    - by apply sf_bind.
    - by apply sf_try.
    - apply sf_step; [by destruct c|]. intros r. apply sf_ret.
    - destruct (Hok c Hc). by apply (sf_call cf).
  Qed.
End walk.

(** ** The pool *)
Lemma code_sub' (ext : cmd -> bool) (ok ok' : call -> Prop) {A} (p : api A) :
  (forall c, ok c -> ok' c) -> code ext ok p -> code ext ok' p.
Proof.
  intros Hok H. induction H as [A a|A e|A B p f Hp IHp Hf IHf|A p Hp IHp|c Hc|c Hc Hm IHm]; constructor; auto.
Qed.
Section pool.
  Context (j : string) (i : nat).
  Definition rely (n : nat) (w w' : world) : Prop :=
    if decide (n = i) then eqj j (w_disk w) (w_disk w') else grow j (w_disk w) (w_disk w').
  Definition guar (n : nat) (w w' : world) : Prop :=
    if decide (n = i) then grow j (w_disk w) (w_disk w') else eqj j (w_disk w) (w_disk w').
  Lemma rely_trans n a b c : rely n a b -> rely n b c -> rely n a c.
  Proof. unfold rely. destruct (decide _); [apply eqj_trans|apply grow_trans]. Qed.
  Lemma rely_refl n w : rely n w w.
  Proof. unfold rely. destruct (decide _); [done|apply grow_refl]. Qed.
  Lemma guar_rely n m w w' : n <> m -> guar n w w' -> rely m w w'.
  Proof.
    unfold guar, rely. intros Hn. destruct (decide (n = i)) as [->|]; destruct (decide (m = i)) as [->|]; try done. apply eqj_grow.
  Qed.
  Lemma guar_grow n w w' : guar n w w' -> grow j (w_disk w) (w_disk w').
  Proof. unfold guar. destruct (decide _); [done|apply eqj_grow]. Qed.

  (** every coroutine keeps its promise; [Qs] are the post conditions *)
  Lemma pool_rg (Qs : nat -> outcome unit -> world -> Prop) cfg cfg' : preach base cfg cfg' ->
    (forall n p, cfg.1 !! n = Some p -> exists wn, rely n wn cfg.2 /\ rg (rely n) (guar n) p (Qs n) wn) ->
    grow j (w_disk cfg.2) (w_disk cfg'.2) /\
    (forall n p, cfg'.1 !! n = Some p -> exists wn, rely n wn cfg'.2 /\ rg (rely n) (guar n) p (Qs n) wn).
  Proof.
    induction 1 as [cfg|cfg cfg1 cfg2 Hs Hr IH]; intros H; [split; [apply grow_refl|done]|].
    destruct Hs as (n & c & k & r & Hn & Ha & E1 & E2).
    assert (n < length cfg.1)%nat as Hlt by (by eapply lookup_lt_Some).
    destruct (H n _ Hn) as (wn & Hwn & Hrg). destruct (Hrg cfg.2 r Hwn Ha) as [HG Hk].
    destruct IH as [I1 I2]; [|split; [|done]].
    - intros m p Hm. destruct (decide (m = n)) as [->|Hne].
      + assert (Some p = Some (k r)) as [= ->] by (rewrite <- Hm, E1; by apply list_lookup_insert).
        exists (w_apply cfg.2 c r). rewrite E2. split; [apply rely_refl|done].
      + assert (cfg.1 !! m = Some p) as Hm' by (rewrite <- Hm, E1; symmetry; by apply list_lookup_insert_ne). destruct (H m p Hm') as (wm & Hwm & Hp). exists wm. split; [|done].
        rewrite E2. eapply rely_trans; [exact Hwm|]. by eapply guar_rely.
    - eapply grow_trans; [|exact I1]. rewrite E2. by eapply guar_grow.
  Qed.

  Lemma pool_sf cf n {A} (p : api A) w :
    j <> c_jid cf -> whole j (w_disk w) ->
    (if decide (n = i) then appcode (on cf) p else appcode (fun c => on cf c /\ ~ updates j c) p) ->
    rg (rely n) (guar n) p (fun _ w' => grow j (w_disk w) (w_disk w')) w.
  Proof.
    intros Hj Hw Hp. unfold rely, guar. destruct (decide (n = i)) as [->|Hne].
    - refine (sf_code j _ _ _ _ _ True _ cf (on cf) p Hj _ Hp w Hw).
      + intros a b. apply eqj_grow.
      + intros a b. apply eqj_grow.
      + done.
      + intros _ cf' ns dl Hj' w1 Hw1. by apply wr_update.
      + intros c Hc. auto.
    - refine (sf_code j _ _ _ _ _ False _ cf _ p Hj _ Hp w Hw).
      + done.
      + done.
      + intros a b. apply eqj_grow.
      + done.
      + intros c [Hc Hu]. auto.
  Qed.

  Definition roles (cf : cfg) (n : nat) {A} (p : api A) : Prop :=
    if decide (n = i) then appcode (on cf) p else appcode (fun c => on cf c /\ ~ updates j c) p.
  Lemma pool_whole cf (ps : list (api unit)) w ps' w' :
    j <> c_jid cf -> whole j (w_disk w) -> (forall n p, ps !! n = Some p -> roles cf n p) ->
    preach base (ps, w) (ps', w') -> whole j (w_disk w').
  Proof.
    intros Hj Hw Hp H. destruct (pool_rg (fun _ _ _ => True) _ _ H) as [H1 _]; [|by apply H1].
    intros n p Hn. exists w. split; [apply rely_refl|]. eapply rg_conseq; [by eapply pool_sf; [|done|apply Hp]|done].
  Qed.
  Lemma pool_info cf (ps : list (api unit)) w ps' w' n {A} (p : api A) e :
    j <> c_jid cf -> whole j (w_disk w) -> (forall m q, m <> n -> ps !! m = Some q -> roles cf m q) ->
    ps !! n = Some (_ <- try_ p ;; get_device_information cf j ;;; Ret tt) -> roles cf n p ->
    preach base (ps, w) (ps', w') -> ps' !! n = Some (Raise e) -> e <> ENothing /\ e <> EKeyError.
  Proof.
    intros Hj Hw Hp Hn Hrole H Hr.
    destruct (pool_rg (fun m o _ => m = n -> match o with Exn e => fine e | Val _ => True end) _ _ H) as [_ H2].
    2:{ destruct (H2 n _ Hr) as (w1 & _ & He). by apply He. }
    intros m q Hm. exists w. split; [apply rely_refl|]. simpl in Hm. destruct (decide (m = n)) as [->|Hne].
    - pose proof (eq_trans (eq_sym Hn) Hm) as Hq. injection Hq as <-.
      apply rg_bind, rg_try. eapply rg_conseq; [by apply (pool_sf cf n p w)|]. intros o w1 G1. cbn beta iota.
      pose proof (proj1 (G1 Hw)) as W1. apply rg_bind.
      assert (rg (rely n) (guar n) (get_device_information cf j) (okpost j w1) w1) as HI.
      { refine (rl_get_info j (rely n) (guar n) _ _ _ False _ cf w1 W1).
        - intros a b. unfold rely. destruct (decide _); [apply eqj_grow|done].
        - intros a b. unfold guar. destruct (decide _); [apply eqj_grow|done].
        - intros a b. apply guar_grow.
        - done. }
      eapply rg_conseq; [exact HI|]. intros [ds|e'] w2 [_ H3]; cbn beta iota; [done|]. auto.
    - eapply rg_conseq; [by eapply pool_sf; [|done|apply Hp]|]. intros o w1 _. done.
  Qed.
End pool.

(** ** The updating coroutine runs as if it were alone *)
Section alone.
  Context (S : string -> Prop).
  Notation En := (fun (c : cmd) (r : resp c) => True).
  Notation ft p := (obeys En (Ff S False False False) (fun _ => True) p).
  Ltac ft1 :=
    match goal with
    | |- obeys _ _ (fun _ => True) (bind _ _) => apply ft_bind; [|done|intros ?]
    | |- obeys _ _ _ (try_ _) => apply ft_try
    | |- obeys _ _ _ (Ret _) => exact I
    | |- obeys _ _ _ (Raise _) => exact I
    | |- obeys _ _ _ (for_each _ _) => apply ft_for_each; intros ? ?
    | |- obeys _ _ _ (order _) => apply ft_order
    | |- obeys _ _ _ (from_just _) => apply ft_from_just
    | |- obeys _ _ _ (of_outcome _) => apply ft_outcome
    | |- obeys _ _ _ (load_list _ _) => apply ft_load
    | |- obeys _ _ _ (load_dict _ _) => apply ft_load
    | |- obeys _ _ _ (load_optional _ _) => apply ft_load
    | |- obeys _ _ _ (match ?b with _ => _ end) => destruct b
    | |- obeys _ _ _ (if ?b then _ else _) => destruct b
    end.
  Ltac cmd1 := unw; unfold g_loaded in *;
    match goal with |- obeys _ _ _ (Step _ _) => split; [simpl; auto|intros ? _; first [apply ft_outcome|exact I|cbn [obeys]]] end.
  Ltac ftt := repeat (cbv zeta; first [ft1|progress cmd1]).
  Lemma fr_update cf ns j dl :
    S (k_list j) -> (forall x, S (k_ns j x) /\ S (k_active j x) /\ S (k_label j x)) -> ft (update_device_list cf ns j dl).
  Proof.
    intros H1 H2. assert (forall x, S (k_ns j x)) as H3 by apply H2. assert (forall x, S (k_active j x)) as H4 by apply H2.
    assert (forall x, S (k_label j x)) as H5 by apply H2. clear H2.
    unfold update_device_list, upd_own, upd_new, upd_old. ftt; subst; auto.
  Qed.
End alone.

Lemma fr_code j {A} (p : api A) :
  code sync_free (only_updates j) p -> obeys (fun c _ => True) (Ff (rkey j) False False False) (fun _ => True) p.
Proof.
  assert (forall cf ns dl, obeys (fun c _ => True) (Ff (rkey j) False False False) (fun _ => True) (update_device_list cf ns j dl)) as Hu.
  { intros cf ns dl. apply fr_update; [apply rkey_list|]. intros x. split; [apply rkey_ns|]. split; [apply rkey_act|apply rkey_lab]. }
  assert (forall cf ns, obeys (fun c _ => True) (Ff (rkey j) False False False) (fun _ => True) (refresh_device_list cf ns j)) as Hre.
  { intros cf ns. unfold refresh_device_list. apply ft_bind; [|done|intros dl; apply Hu]. split; [done|]. intros r _. apply ft_outcome. }
  intros H. induction H as [A a|A e|A B p f Hp IHp Hf IHf|A p Hp IHp|c Hc|c Hc Hm IHm]; [done|done| | | |].
  - apply ft_bind; [exact IHp|done|exact IHf].
  - by apply ft_try.
  - split; [by destruct c|done].
  - destruct c; try done; simpl in Hc; subst; cbn [run_call call_ret].
    + apply Hu.
    + apply Hre.
    + unfold refresh_device_lists. apply ft_bind; [by split|done|]. intros l. apply ft_for_each. intros x _. apply Hre.
Qed.

Section sim.
  Context (j : string) (i : nat).
  Notation S := (rkey j).
  (** commands of the others: they do not load or unload backends *)
  Notation calmly q := (obeys (fun (c : cmd) (_ : resp c) => True) (Ff (fun _ => True) False True True) (fun _ => True) q).
  Lemma sim (Qs : nat -> outcome unit -> world -> Prop) cfg cfg' : preach base cfg cfg' ->
    (forall n p, cfg.1 !! n = Some p -> exists wn, rely j i n wn cfg.2 /\ rg (rely j i n) (guar j i n) p (Qs n) wn) ->
    forall p v, cfg.1 !! i = Some p -> obeys (fun c _ => True) (Ff S False False False) (fun _ => True) p ->
    (forall n q, n <> i -> cfg.1 !! n = Some q -> calmly q) ->
    agree S False v cfg.2 ->
    exists v', reach base p v v' /\
      (forall a, cfg'.1 !! i = Some (Ret a) -> exec base p v (Val a) v') /\
      (forall e, cfg'.1 !! i = Some (Raise e) -> exec base p v (Exn e) v') /\ agree S False v' cfg'.2.
  Proof.
    induction 1 as [cfg|cfg cfg1 cfg2 Hs Hr IH]; intros H p v Hi Hp Ho Hv.
    { exists v. split; [by destruct p; left|]. rewrite Hi. split; [by intros a [= ->]|]. split; [by intros a [= ->]|]. done. }
    destruct Hs as (n & c & k & r & Hn & Ha & E1 & E2).
    assert (n < length cfg.1)%nat as Hlt by (by eapply lookup_lt_Some).
    destruct (H n _ Hn) as (wn & Hwn & Hrg). destruct (Hrg cfg.2 r Hwn Ha) as [HG Hk].
    assert (forall m p, cfg1.1 !! m = Some p -> exists wn, rely j i m wn cfg1.2 /\ rg (rely j i m) (guar j i m) p (Qs m) wn) as H1.
    { intros m q Hm. destruct (decide (m = n)) as [->|Hne].
      + assert (Some q = Some (k r)) as [= ->] by (rewrite <- Hm, E1; by apply list_lookup_insert).
        exists (w_apply cfg.2 c r). rewrite E2. split; [apply rely_refl|done].
      + assert (cfg.1 !! m = Some q) as Hm' by (rewrite <- Hm, E1; symmetry; by apply list_lookup_insert_ne).
        destruct (H m q Hm') as (wm & Hwm & Hq). exists wm. split; [|done].
        rewrite E2. eapply rely_trans; [exact Hwm|]. by eapply guar_rely. }
    specialize (IH H1). destruct (decide (n = i)) as [->|Hne].
    - rewrite Hn in Hi. injection Hi as <-. destruct Hp as [HF Hk'].
      destruct (IH (k r) (w_apply v c r)) as (v' & I1 & I2 & I3 & I4).
      + rewrite E1. by apply list_lookup_insert.
      + by apply Hk'.
      + intros m q Hm Hq. apply (Ho m q Hm). rewrite <- Hq, E1. symmetry. by apply list_lookup_insert_ne.
      + rewrite E2. by eapply (agree_mine S).
      + assert (w_allowed v c r) as Hav by (by eapply agree_allowed).
        exists v'. split; [right; by exists r|]. split; [intros a Hx; exists r; auto|]. split; [intros e Hx; exists r; auto|]. done.
    - destruct (Ho n _ Hne Hn) as [HF Hk'].
      destruct (IH p v) as (v' & I1 & I2 & I3 & I4).
      + rewrite <- Hi, E1. by apply list_lookup_insert_ne.
      + done.
      + intros m q Hm Hq. rewrite E1 in Hq. destruct (decide (m = n)) as [->|Hmn].
        * assert (Some q = Some (k r)) as [= ->] by (rewrite <- Hq; by apply list_lookup_insert). by apply Hk'.
        * apply (Ho m q Hm). rewrite <- Hq. symmetry. by apply list_lookup_insert_ne.
      + rewrite E2. unfold guar in HG. rewrite decide_False in HG by done. destruct Hv as (A1 & A2 & A3).
        split; [|split; [|done]].
        * intros k' Hk1. rewrite A1 by done. symmetry. by apply HG.
        * rewrite A2. destruct c; try done; simpl in *; by destruct r.
      + exists v'. done.
  Qed.

  Lemma pool_alone cf (ps : list (api unit)) p w ps' w' :
    j <> c_jid cf -> whole j (w_disk w) -> ps !! i = Some p -> code sync_free (fun c => on cf c /\ only_updates j c) p ->
    (forall n q, n <> i -> ps !! n = Some q -> appcode (fun c => on cf c /\ ~ updates j c /\ ~ sets_loaded c) q) ->
    preach base (ps, w) (ps', w') ->
    exists v, reach base p w v /\ (ps' !! i = Some (Ret tt) -> exec base p w (Val tt) v) /\
      (forall e, ps' !! i = Some (Raise e) -> exec base p w (Exn e) v) /\
      forall it, record_item j it -> w_disk w' !! item_key it = w_disk v !! item_key it.
  Proof.
    intros Hj Hw Hi Hp Ho H.
    destruct (sim (fun _ _ _ => True) _ _ H) with (p := p) (v := w) as (v & H1 & H2 & H3 & H4).
    - intros n q Hn. exists w. split; [apply rely_refl|]. eapply rg_conseq; [|done]. apply (pool_sf j i cf n q w Hj Hw).
      destruct (decide (n = i)) as [->|Hne].
      + simpl in Hn. pose proof (eq_trans (eq_sym Hi) Hn) as Hq. injection Hq as <-.
        clear -Hp. induction Hp as [A a|A e|A B p f Hp IHp Hf IHf|A p Hp IHp|c Hc|c Hc Hm IHm].
        * constructor.
        * constructor.
        * by constructor.
        * by constructor.
        * constructor. by destruct c.
        * constructor; [by destruct Hc|]. intros ? ? ? ? ? ? ->. by destruct Hc.
      + eapply code_sub'; [|by eapply Ho]. naive_solver.
    - done.
    - apply fr_code. clear -Hp. induction Hp as [A a|A e|A B p f Hp IHp Hf IHf|A p Hp IHp|c Hc|c Hc Hm IHm].
      + constructor.
      + constructor.
      + by constructor.
      + by constructor.
      + by constructor.
      + constructor; [by destruct Hc|]. intros ? ? ? ? ? ? ->. by destruct Hc.
    - intros n q Hn Hq. eapply ft_code; [| |by eapply Ho].
      + intros c Hc. by destruct c.
      + intros c (_ & _ & Hc). done.
    - done.
    - exists v. split; [done|]. split; [by apply H2|]. split; [done|]. intros it Hit. symmetry. apply H4. by exists it.
  Qed.
End sim.
