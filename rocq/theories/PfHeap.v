From Verif Require Import Heap.

Lemma mapM_mono {A B} (f g : A -> option B) l r :
  (forall x y, x ∈ l -> f x = Some y -> g x = Some y) -> mapM f l = Some r -> mapM g l = Some r.
Proof.
  intros Hfg. rewrite !mapM_Some. intros H. revert Hfg.
  induction H as [|x y l r Hx H IH]; intros Hfg; constructor.
  - apply Hfg; [left|done].
  - apply IH. intros; apply Hfg; [by right|done].
Qed.

Lemma read_mono n m h h' v j : h ⊆ h' -> n <= m -> read n h v = Some j -> read m h' v = Some j.
Proof.
  revert m v j. induction n as [|n IH]; intros m v j Hh Hnm H; destruct v as [a|l]; simpl in *.
  - destruct m; done.
  - done.
  - destruct m; done.
  - destruct m as [|m]; [lia|]. simpl.
    destruct (h !! l) as [o|] eqn:E; [|done]. rewrite (lookup_weaken _ _ _ _ E Hh). simpl in *.
    destruct o as [vs|d].
    + destruct (mapM _ vs) as [r|] eqn:E'; [|done]. simpl in H.
      erewrite mapM_mono; [exact H| |exact E']. intros x y _. apply IH; [done|lia].
    + destruct (mapM _ d) as [r|] eqn:E'; [|done]. simpl in H.
      erewrite mapM_mono; [exact H| |exact E']. intros [k x] y _. simpl.
      destruct (read n h x) as [jx|] eqn:Ex; [|done]. simpl. intros [= <-].
      by rewrite (IH m x jx) by (done || lia).
Qed.

(** Reading only depends on the part of the heap that is reachable. *)
Lemma read_frame (P : loc -> Prop) n h h' v j :
  (forall l o, P l -> h !! l = Some o -> h' !! l = Some o /\ forall l', RPtr l' ∈ obj_refs o -> P l') ->
  (forall l, v = RPtr l -> P l) ->
  read n h v = Some j -> read n h' v = Some j.
Proof.
  intros HP. revert v j. induction n as [|n IH]; intros v j Hv H; destruct v as [a|l]; simpl in *; try done.
  destruct (h !! l) as [o|] eqn:E; [|done]. destruct (HP l o (Hv l eq_refl) E) as [-> Hrefs]. simpl in *.
  destruct o as [vs|d].
  - destruct (mapM _ vs) as [r|] eqn:E'; [|done]. simpl in H.
    erewrite mapM_mono; [exact H| |exact E']. intros x y Hx. apply IH. intros l' ->. by apply Hrefs.
  - destruct (mapM _ d) as [r|] eqn:E'; [|done]. simpl in H.
    erewrite mapM_mono; [exact H| |exact E']. intros [k x] y Hx. simpl.
    destruct (read n h x) as [jx|] eqn:Ex; [|done]. simpl. intros [= <-].
    rewrite (IH x jx); [done| |done]. intros l' ->. apply Hrefs. simpl.
    by apply (elem_of_list_fmap_1 snd _ (k, RPtr l')).
Qed.

(** The value of an object, by its element references. *)
Definition rebuild (o : obj) (js : list json) : json :=
  match o with OList _ => JList js | ODict d => JDict (zip d.*1 js) end.

Lemma read_obj n h l j :
  read (S n) h (RPtr l) = Some j <->
  exists o js, h !! l = Some o /\ Forall2 (fun v j => read n h v = Some j) (obj_refs o) js /\ j = rebuild o js.
Proof.
  simpl. split.
  - destruct (h !! l) as [[vs|d]|] eqn:E; simpl; [| |done].
    + destruct (mapM _ vs) as [r|] eqn:E'; simpl; [|done]. intros [= <-].
      apply mapM_Some in E'. eexists _, _. done.
    + destruct (mapM _ d) as [r|] eqn:E'; simpl; [|done]. intros [= <-].
      apply mapM_Some in E'. exists (ODict d), (r.*2). split; [done|].
      clear E. simpl.
      assert (Forall2 (fun v j => read n h v = Some j) d.*2 r.*2 /\ r = zip d.*1 r.*2) as [H1 H2].
      { induction E' as [|[k v] [k' j] d r Hx _ [IH1 IH2]]; [by split; [constructor|]|]. simpl in *.
        destruct (read n h v) as [jv|] eqn:Ev; [|done]. simplify_eq/=.
        split; [by constructor|]. by f_equal. }
      split; [done|]. by f_equal.
  - intros (o & js & -> & HF & ->). simpl. destruct o as [vs|d]; simpl in *.
    + assert (mapM (read n h) vs = Some js) as -> by (by apply mapM_Some). done.
    + assert (mapM (fun kv => j ← read n h kv.2; Some (kv.1, j)) d = Some (zip d.*1 js)) as ->; [|done].
      apply mapM_Some. revert js HF. induction d as [|[k v] d IH]; intros js HF; inversion HF; subst; simpl.
      * constructor.
      * constructor; [|by apply IH]. simpl. by match goal with H : read n h v = _ |- _ => rewrite H end.
Qed.

Lemma read_det n m h v j j' : read n h v = Some j -> read m h v = Some j' -> j = j'.
Proof.
  intros H1 H2.
  pose proof (read_mono n (Nat.max m n) h h _ _ (reflexivity _) ltac:(lia) H1) as E1.
  pose proof (read_mono m (Nat.max m n) h h _ _ (reflexivity _) ltac:(lia) H2) as E2. congruence.
Qed.

(** Depth can be taken minimal. *)
Lemma read_min n h v j : read n h v = Some j -> exists m, m <= n /\ read m h v = Some j /\ forall m', m' < m -> read m' h v = None.
Proof.
  induction n as [|n IH]; intros H.
  - exists 0. repeat split; [done..|]. intros; lia.
  - destruct (read n h v) as [j'|] eqn:E.
    + pose proof (read_mono n (S n) h h v j' (reflexivity _) ltac:(lia) E) as E'.
      assert (j' = j) as -> by congruence.
      destruct (IH eq_refl) as (m & Hm & Hr & Hmin). exists m. split; [lia|]. done.
    + exists (S n). split; [done|]. split; [done|]. intros m' Hm'.
      destruct (read m' h v) as [j'|] eqn:E'; [|done].
      rewrite (read_mono m' n h h v j') in E; [done..|lia|done].
Qed.

Definition memo_ok (n : nat) (h0 h : gmap loc obj) (memo : gmap loc loc) : Prop :=
  forall l l' m j, memo !! l = Some l' -> m <= n -> read m h0 (RPtr l) = Some j ->
    exists m', read m' h (RPtr l') = Some j.

(** [b]: locations from here on are new. *)
Record copied (b : loc) (h0 : gmap loc obj) (h : heap) (memo : gmap loc loc) (h' : heap) (memo' : gmap loc loc) : Prop := Copied
  { cp_next : h_next h <= h_next h';
    cp_keep : forall l, l < h_next h -> h_objs h' !! l = h_objs h !! l;
    cp_bound : forall l o, h_objs h' !! l = Some o -> l < h_next h';
    cp_new : forall l o l', h_objs h' !! l = Some o -> h_next h <= l -> RPtr l' ∈ obj_refs o -> b <= l' < h_next h';
    cp_memo : memo ⊆ memo';
    cp_range : forall l l', memo' !! l = Some l' -> b <= l' < h_next h';
    cp_done : forall l l' m j, memo' !! l = Some l' -> memo !! l = None -> read m h0 (RPtr l) = Some j ->
                exists m', read m' (h_objs h') (RPtr l') = Some j }.

Definition good (h : heap) : Prop := forall l o, h_objs h !! l = Some o -> l < h_next h.

Lemma copied_sub b h0 h memo h' memo' :
  good h -> copied b h0 h memo h' memo' -> h_objs h ⊆ h_objs h'.
Proof.
  intros Hg Hc. apply map_subseteq_spec. intros l o Hl.
  rewrite (cp_keep _ _ _ _ _ _ Hc); [done|]. by eapply Hg.
Qed.

Lemma copied_refl b h0 h memo :
  good h -> (forall l l', memo !! l = Some l' -> b <= l' < h_next h) -> copied b h0 h memo h memo.
Proof.
  intros Hg Hr. constructor; try done.
  - intros l o l' Hl Hb. apply Hg in Hl. lia.
  - intros l l' m j H1 H2. congruence.
Qed.

Lemma copied_trans b h0 h m h1 m1 h2 m2 :
  good h -> copied b h0 h m h1 m1 -> copied b h0 h1 m1 h2 m2 -> copied b h0 h m h2 m2.
Proof.
  intros Hg H1 H2.
  assert (good h1) as Hg1 by (intros l o; apply (cp_bound _ _ _ _ _ _ H1)).
  pose proof (copied_sub _ _ _ _ _ _ Hg1 H2) as Hs2.
  destruct H1 as [A1 A2 A3 A4 A5 A6 A7], H2 as [B1 B2 B3 B4 B5 B6 B7]. constructor.
  - lia.
  - intros l Hl. rewrite B2 by lia. auto.
  - done.
  - intros l o l' Hl Hb Hin. destruct (decide (l < h_next h1)).
    + rewrite B2 in Hl by done. specialize (A4 l o l' Hl Hb Hin). lia.
    + eapply B4; eauto. lia.
  - by etrans.
  - done.
  - intros l l' k j Hm2 Hm Hr. destruct (m1 !! l) as [l1|] eqn:E.
    + pose proof (lookup_weaken _ _ _ _ E B5) as E2. assert (l1 = l') as -> by congruence.
      destruct (A7 l l' k j E Hm Hr) as [k' Hk']. exists k'. eapply read_mono; eauto.
    + eauto.
Qed.

Definition ref_ok (b : loc) (h : heap) (v : ref) : Prop := forall l, v = RPtr l -> b <= l < h_next h.

Lemma memo_ok_step n b h0 h memo h' memo' :
  good h -> copied b h0 h memo h' memo' -> memo_ok n h0 (h_objs h) memo -> memo_ok n h0 (h_objs h') memo'.
Proof.
  intros Hg Hc Hm l l' m j Hl Hle Hr.
  destruct (memo !! l) as [l1|] eqn:E.
  - pose proof (lookup_weaken _ _ _ _ E (cp_memo _ _ _ _ _ _ Hc)). assert (l1 = l') as -> by congruence.
    destruct (Hm l l' m j E Hle Hr) as [m' H']. exists m'.
    eapply read_mono; [by eapply copied_sub|done|done].
  - by eapply (cp_done _ _ _ _ _ _ Hc).
Qed.

Lemma copy_list_length cp vs h memo h1 memo1 rs :
  copy_list cp h memo vs = Some (h1, memo1, rs) -> length rs = length vs.
Proof.
  revert h memo h1 memo1 rs. induction vs as [|v vs IH]; intros h memo h1 memo1 rs H; simpl in H.
  - by injection H as <- <- <-.
  - destruct (cp h memo v) as [[[? ?] ?]|]; [|done]. simpl in H.
    destruct (copy_list _ _ _ _) as [[[? ?] ?]|] eqn:E; [|done]. simpl in H.
    injection H as <- <- <-. simpl. f_equal. eauto.
Qed.

(** Main lemma. *)
Lemma copy_correct fuel b h0 :
  forall h memo v n j h' memo' v',
    copy fuel h memo v = Some (h', memo', v') ->
    h0 ⊆ h_objs h -> good h -> b <= h_next h ->
    (forall l l', memo !! l = Some l' -> b <= l' < h_next h) ->
    read n h0 v = Some j -> memo_ok n h0 (h_objs h) memo ->
    copied b h0 h memo h' memo' /\ ref_ok b h' v' /\ exists m, read m (h_objs h') v' = Some j.
Proof.
  induction fuel as [|fuel IH]; intros h memo v n j h' memo' v' Hcp Hh0 Hg Hb Hrange Hread Hmemo.
  - destruct v as [a|l]; simpl in Hcp.
    + injection Hcp as <- <- <-. split; [by apply copied_refl|]. split; [intros l [=]|]. exists 0.
      by destruct n.
    + destruct (memo !! l) as [l'|] eqn:E; [|done]. injection Hcp as <- <- <-.
      split; [by apply copied_refl|]. split; [intros ? [= <-]; eauto|]. by eapply Hmemo.
  - destruct v as [a|l]; simpl in Hcp.
    + injection Hcp as <- <- <-. split; [by apply copied_refl|]. split; [intros l [=]|]. exists 0.
      by destruct n.
    + destruct (memo !! l) as [l'|] eqn:E.
      { injection Hcp as <- <- <-.
        split; [by apply copied_refl|]. split; [intros ? [= <-]; eauto|]. by eapply Hmemo. }
      destruct (read_min _ _ _ _ Hread) as (n0 & Hn0 & Hr0 & Hmin).
      destruct n0 as [|n0]; [done|].
      apply read_obj in Hr0 as (o & js & Ho & HF & ->).
      rewrite (lookup_weaken _ _ _ _ Ho Hh0) in Hcp. simpl in Hcp.
      destruct (copy_list _ _ _ _) as [[[h1 memo1] rs]|] eqn:Ecl; [|done]. simpl in Hcp.
      injection Hcp as <- <- <-.
      set (l' := h_next h) in *.
      (* the elements *)
      assert (forall vs js h memo h1 memo1 rs,
        copy_list (copy fuel) h memo vs = Some (h1, memo1, rs) ->
        h0 ⊆ h_objs h -> good h -> b <= h_next h ->
        (forall l l', memo !! l = Some l' -> b <= l' < h_next h) ->
        Forall2 (fun v j => read n0 h0 v = Some j) vs js -> memo_ok n0 h0 (h_objs h) memo ->
        copied b h0 h memo h1 memo1 /\ Forall (ref_ok b h1) rs /\
        Forall2 (fun v j => exists m, read m (h_objs h1) v = Some j) rs js) as Hlist.
      { clear -IH. induction vs as [|v vs IHvs]; intros js h memo h1 memo1 rs Hcl Hh0 Hg Hb Hr HF Hm;
          simpl in Hcl.
        - injection Hcl as <- <- <-. inversion HF; subst. split; [by apply copied_refl|].
          split; constructor.
        - inversion HF as [|? jv ? js' Hjv HF']; subst.
          destruct (copy fuel h memo v) as [[[h2 memo2] v2]|] eqn:E1; [|done]. simpl in Hcl.
          destruct (copy_list _ _ _ _) as [[[h3 memo3] r3]|] eqn:E2; [|done]. simpl in Hcl.
          injection Hcl as <- <- <-.
          destruct (IH _ _ _ _ _ _ _ _ E1 Hh0 Hg Hb Hr Hjv Hm) as (Hc1 & Hv2 & m & Hm2).
          assert (good h2) as Hg2 by (intros l o; apply (cp_bound _ _ _ _ _ _ Hc1)).
          pose proof (copied_sub _ _ _ _ _ _ Hg Hc1) as Hs1.
          pose proof (cp_next _ _ _ _ _ _ Hc1).
          destruct (IHvs js' _ _ _ _ _ E2) as (Hc2 & Hvs & HFm); [by etrans|done|lia| |done| |].
          { apply (cp_range _ _ _ _ _ _ Hc1). }
          { eapply memo_ok_step; [exact Hg|exact Hc1|exact Hm]. }
          pose proof (cp_next _ _ _ _ _ _ Hc2).
          split; [eapply copied_trans; [exact Hg|exact Hc1|exact Hc2]|]. split.
          + constructor; [|done]. intros l Hl. specialize (Hv2 l Hl). lia.
          + constructor; [|done]. exists m. eapply read_mono; [eapply copied_sub; [exact Hg2|exact Hc2]|reflexivity|done]. }
      apply (Hlist _ _ _ _ _ _ _ Ecl) in HF as (Hc & Hrs & HFm);
        [|done| | | |]; simpl.
      2:{ intros x ox Hx. simpl in *. apply Hg in Hx. lia. }
      2:{ lia. }
      2:{ intros x x' Hx. destruct (decide (x = l)) as [->|].
          - rewrite lookup_insert in Hx. injection Hx as <-. lia.
          - rewrite lookup_insert_ne in Hx by done. apply Hrange in Hx. lia. }
      2:{ intros x x' m jx Hx Hm Hrx. destruct (decide (x = l)) as [->|].
          - rewrite Hmin in Hrx by lia. done.
          - rewrite lookup_insert_ne in Hx by done. eapply Hmemo; [done| |done]. lia. }
      destruct Hc as [C1 C2 C3 C4 C5 C6 C7]. simpl in *.
      set (o' := match o with OList _ => OList rs | ODict d => ODict (zip d.*1 rs) end) in *.
      assert (obj_refs o' = rs) as Hrefs.
      { apply Forall2_length in HFm. unfold o'. destruct o as [vs|d]; simpl in *; [done|].
        assert (length rs = length d) as Hlen.
        { apply copy_list_length in Ecl. by rewrite fmap_length in Ecl. }
        apply snd_zip. rewrite fmap_length. lia. }
      assert (h_objs h1 !! l' = None) as Hl'.
      { rewrite C2 by lia. destruct (h_objs h !! l') eqn:Hx; [|done]. apply Hg in Hx. lia. }
      assert (exists m, read m (<[l' := o']> (h_objs h1)) (RPtr l') = Some (rebuild o js)) as [mm Hmm].
      { assert (exists m, Forall2 (fun v j => read m (h_objs h1) v = Some j) rs js) as [m Hm].
        { clear -HFm. induction HFm as [|v jv rs js [m Hm] _ [m' IH]]; [exists 0; constructor|].
          exists (Nat.max m m'). constructor.
          - eapply read_mono; [done| |exact Hm]. lia.
          - eapply Forall2_impl; [exact IH|]. intros x jx Hx. simpl in *. eapply read_mono; [done| |exact Hx]. lia. }
        exists (S m). apply read_obj. exists o', js. split; [apply lookup_insert|]. split.
        - rewrite Hrefs. eapply Forall2_impl; [exact Hm|]. intros x jx Hx. simpl in *.
          eapply read_mono; [by apply insert_subseteq|done|exact Hx].
        - unfold o'. destruct o as [vs|d]; simpl; [done|]. f_equal. f_equal.
          symmetry. apply fst_zip. rewrite fmap_length.
          pose proof (copy_list_length _ _ _ _ _ _ _ Ecl) as HL. simpl in HL. rewrite fmap_length in HL. lia. }
      split; [|split].
      * constructor; simpl.
        -- lia.
        -- intros x Hx. rewrite lookup_insert_ne by lia. apply C2. lia.
        -- intros x ox Hx. destruct (decide (x = l')) as [->|]; [lia|].
           rewrite lookup_insert_ne in Hx by done. eauto.
        -- intros x ox x' Hx Hge Hin. destruct (decide (x = l')) as [->|].
           ++ rewrite lookup_insert in Hx. injection Hx as <-. rewrite Hrefs in Hin.
              rewrite Forall_forall in Hrs. by apply (Hrs _ Hin).
           ++ rewrite lookup_insert_ne in Hx by done. eapply C4; [done| |done]. lia.
        -- etrans; [|exact C5]. by apply insert_subseteq.
        -- done.
        -- intros x x' m jx Hx Hnone Hrx. destruct (decide (x = l)) as [->|].
           ++ pose proof (lookup_weaken _ _ _ _ (lookup_insert memo l l') C5) as HH.
              assert (x' = l') as -> by congruence.
              exists mm. rewrite Hmm.
              by rewrite (read_det _ _ _ _ _ _ Hread Hrx).
           ++ destruct (C7 x x' m jx Hx) as [m' Hm']; [by rewrite lookup_insert_ne|done|].
              exists m'. eapply read_mono; [by apply insert_subseteq|done|exact Hm'].
      * intros ? [= <-]. simpl. lia.
      * by exists mm.
Qed.

Lemma deepcopy_correct fuel h v n j h' v' :
  good h -> read n (h_objs h) v = Some j -> deepcopy fuel h v = Some (h', v') ->
  h_next h <= h_next h' /\ (forall l, l < h_next h -> h_objs h' !! l = h_objs h !! l) /\ good h' /\
  (forall l o l', h_objs h' !! l = Some o -> h_next h <= l -> RPtr l' ∈ obj_refs o -> h_next h <= l' < h_next h') /\
  ref_ok (h_next h) h' v' /\ exists m, read m (h_objs h') v' = Some j.
Proof.
  intros Hg Hr Hd. unfold deepcopy in Hd.
  destruct (copy fuel h ∅ v) as [[[h1 memo1] v1]|] eqn:E; [|done]. simpl in Hd. injection Hd as <- <-.
  eapply (copy_correct fuel (h_next h) (h_objs h)) in E as (Hc & Hv & Hm); [|done|done|done| |exact Hr|].
  - destruct Hc. split; [done|]. split; [done|]. split; [done|]. split; [done|]. done.
  - intros l l'. by rewrite lookup_empty.
  - intros l l' m j'. by rewrite lookup_empty.
Qed.

Record minv (s : mstate) (gj : list json) : Prop := Minv
  { mi_good : good (m_heap s);
    mi_bound : forall l, l ∈ m_own s -> l < h_next (m_heap s);
    mi_own : forall l o, l ∈ m_own s -> h_objs (m_heap s) !! l = Some o -> refs_in (m_own s) (obj_refs o);
    mi_priv : forall l o l', l ∉ m_own s -> h_objs (m_heap s) !! l = Some o -> RPtr l' ∈ obj_refs o ->
                l' ∉ m_own s /\ l' < h_next (m_heap s);
    mi_cells : Forall2 (fun c j => (forall l, c = RPtr l -> l ∉ m_own s /\ l < h_next (m_heap s)) /\
                          exists n, read n (h_objs (m_heap s)) c = Some j) (m_cells s) gj }.

Lemma minv_init h : wf_heap h -> minv (m_init h) [].
Proof.
  intros Hw. unfold m_init. constructor; simpl.
  - intros l o H. by apply Hw in H as [? _].
  - intros l. rewrite elem_of_list_to_set, elem_of_seq. lia.
  - intros l o _ H l' Hl'. apply Hw in H as [_ H]. apply H in Hl'.
    rewrite elem_of_list_to_set, elem_of_seq. lia.
  - intros l o l' Hn H. exfalso. apply Hn. apply Hw in H as [? _].
    rewrite elem_of_list_to_set, elem_of_seq. lia.
  - constructor.
Qed.

Lemma minv_step s s' gj : minv s gj -> mstep s s' -> exists gj', minv s' (gj ++ gj').
Proof.
  intros [Hg Hb Ho Hp Hc] H. destruct H as [h own cells o Hrefs|h own cells l o Hl Hrefs
    |h own cells v n j fuel h' v' Hrefs Hr Hd|h own cells i c fuel h' v' Hi Hd]; simpl in *.
  - exists []. rewrite app_nil_r. constructor; simpl.
    + intros l ol Hl. simpl in *. destruct (decide (l = h_next h)) as [->|]; [lia|].
      rewrite lookup_insert_ne in Hl by done. apply Hg in Hl. lia.
    + intros l. rewrite elem_of_union, elem_of_singleton. intros [->|Hl]; [lia|]. apply Hb in Hl. lia.
    + intros l ol Hl Hlo l' Hl'. destruct (decide (l = h_next h)) as [->|].
      * rewrite lookup_insert in Hlo. injection Hlo as <-. apply elem_of_union_r. eauto.
      * rewrite lookup_insert_ne in Hlo by done. apply elem_of_union_r.
        apply elem_of_union in Hl as [Hl%elem_of_singleton|Hl]; [done|]. by eapply Ho.
    + intros l ol l' Hl Hlo Hl'. rewrite elem_of_union, elem_of_singleton in Hl |- *.
      rewrite lookup_insert_ne in Hlo by naive_solver.
      destruct (Hp l ol l') as [H1 H2]; [naive_solver|done|done|]. split; [|lia].
      intros [->|]; [lia|done].
    + eapply Forall2_impl; [exact Hc|]. simpl. intros c j [H1 [n Hn]]. split.
      * intros l ->. rewrite elem_of_union, elem_of_singleton. destruct (H1 l eq_refl). split; [|lia].
        intros [->|]; [lia|done].
      * exists n. eapply read_mono; [|done|exact Hn]. apply insert_subseteq.
        destruct (h_objs h !! h_next h) eqn:E; [|done]. apply Hg in E. lia.
  - exists []. rewrite app_nil_r. constructor; simpl.
    + intros l1 ol Hl1. simpl in *. destruct (decide (l1 = l)) as [->|]; [by apply Hb|].
      rewrite lookup_insert_ne in Hl1 by done. by apply Hg in Hl1.
    + done.
    + intros l1 ol Hl1 Hlo. destruct (decide (l1 = l)) as [->|].
      * rewrite lookup_insert in Hlo. by injection Hlo as <-.
      * rewrite lookup_insert_ne in Hlo by done. by eapply Ho.
    + intros l1 ol l' Hl1 Hlo Hl'. rewrite lookup_insert_ne in Hlo by (intros ->; done). by eapply Hp.
    + eapply Forall2_impl; [exact Hc|]. simpl. intros c j [H1 [n Hn]]. split; [done|]. exists n.
      eapply (read_frame (fun l => l ∉ own)); [| |exact Hn].
      * intros x ox Hx Hox. split; [rewrite lookup_insert_ne by (intros ->; done); done|].
        intros l' Hl'. by eapply Hp.
      * intros x ->. by destruct (H1 x eq_refl).
  - destruct (deepcopy_correct _ _ _ _ _ _ _ Hg Hr Hd) as (Hn & Hk & Hg' & Hnew & Hv & Hm).
    exists [j]. constructor; simpl.
    + done.
    + intros l Hl. apply Hb in Hl. lia.
    + intros l o Hl Hlo. rewrite Hk in Hlo by (by apply Hb). by eapply Ho.
    + intros l o l' Hl Hlo Hl'. destruct (decide (l < h_next h)).
      * rewrite Hk in Hlo by done. destruct (Hp l o l' Hl Hlo Hl'). split; [done|lia].
      * destruct (Hnew l o l' Hlo ltac:(lia) Hl'). split; [|lia]. intros Hin. apply Hb in Hin. lia.
    + apply Forall2_app.
      * eapply Forall2_impl; [exact Hc|]. simpl. intros c jc [H1 [n1 Hn1]]. split.
        -- intros l ->. destruct (H1 l eq_refl). split; [done|lia].
        -- exists n1. eapply read_mono; [|done|exact Hn1]. apply map_subseteq_spec. intros l o Hlo.
           rewrite Hk; [done|]. by eapply Hg.
      * constructor; [|constructor]. split; [|done]. intros l Hl. destruct (Hv l Hl). split; [|done].
        intros Hin. apply Hb in Hin. lia.
  - pose proof (Forall2_lookup_l _ _ _ _ _ Hc Hi) as (j & Hj & Hcl & n & Hr).
    destruct (deepcopy_correct _ _ _ _ _ _ _ Hg Hr Hd) as (Hn & Hk & Hg' & Hnew & Hv & Hm).
    set (new := list_to_set (seq (h_next h) (h_next h' - h_next h)) : gset loc).
    assert (forall l, l ∈ new <-> h_next h <= l < h_next h') as Hnewin.
    { intros l. unfold new. rewrite elem_of_list_to_set, elem_of_seq. lia. }
    exists []. rewrite app_nil_r. constructor; simpl.
    + done.
    + intros l. rewrite elem_of_union, Hnewin. intros [?|Hl]; [lia|]. apply Hb in Hl. lia.
    + intros l o Hl Hlo l' Hl'. rewrite elem_of_union, Hnewin. destruct (decide (l < h_next h)).
      * rewrite Hk in Hlo by done. right. eapply Ho; [|done|done].
        rewrite elem_of_union, Hnewin in Hl. destruct Hl; [lia|done].
      * left. eapply Hnew; [done|lia|done].
    + intros l o l' Hl Hlo Hl'. rewrite elem_of_union, Hnewin in Hl |- *.
      assert (l < h_next h). { pose proof (Hg' _ _ Hlo). destruct (decide (l < h_next h)); [done|]. exfalso; apply Hl; left; lia. }
      rewrite Hk in Hlo by done. destruct (Hp l o l') as [H1 H2]; [naive_solver|done|done|]. split; [|lia].
      intros [?|?]; [lia|done].
    + eapply Forall2_impl; [exact Hc|]. simpl. intros c1 jc [H1 [n1 Hn1]]. split.
      * intros l ->. rewrite elem_of_union, Hnewin. destruct (H1 l eq_refl). split; [|lia]. intros [?|?]; [lia|done].
      * exists n1. eapply read_mono; [|done|exact Hn1]. apply map_subseteq_spec. intros l o Hlo.
        rewrite Hk; [done|]. by eapply Hg.
Qed.

Lemma minv_steps s s' gj : minv s gj -> msteps s s' -> exists gj', minv s' (gj ++ gj').
Proof.
  intros Hi H. revert gj Hi. induction H as [s|s1 s2 s3 H1 _ IH]; intros gj Hi.
  - exists []. by rewrite app_nil_r.
  - apply (minv_step _ _ _ Hi) in H1 as [gj1 H1]. apply IH in H1 as [gj2 H2].
    exists (gj1 ++ gj2). by rewrite app_assoc.
Qed.

(** deepcopy of a JSON value succeeds. *)
Lemma copy_total n h0 :
  forall h memo v j, h0 ⊆ h_objs h -> read n h0 v = Some j -> good h ->
  exists h' memo' v', copy n h memo v = Some (h', memo', v') /\ h_next h <= h_next h' /\
    (forall l, l < h_next h -> h_objs h' !! l = h_objs h !! l) /\ good h'.
Proof.
  induction n as [|n IH]; intros h memo v j Hs Hr Hg; destruct v as [a|l].
  - simpl. by eauto 10.
  - simpl in Hr. done.
  - simpl. by eauto 10.
  - cbn [copy]. destruct (memo !! l) as [l'|]; [by eauto 10|].
    apply read_obj in Hr as (o & js & Ho & HF & ->). rewrite (lookup_weaken _ _ _ _ Ho Hs). simpl.
    assert (forall vs js h memo, h0 ⊆ h_objs h -> good h -> Forall2 (fun v j => read n h0 v = Some j) vs js ->
      exists h' memo' rs, copy_list (copy n) h memo vs = Some (h', memo', rs) /\ h_next h <= h_next h' /\
        (forall l, l < h_next h -> h_objs h' !! l = h_objs h !! l) /\ good h') as Hlist.
    { clear -IH. induction vs as [|v vs IHv]; intros js h memo Hs Hg HF; simpl; [by eauto 10|].
      inversion HF as [|? jv ? js' Hjv HF']; subst.
      destruct (IH h memo v jv Hs Hjv Hg) as (h1 & memo1 & v1 & -> & Hn1 & Hk1 & Hg1). simpl.
      assert (h0 ⊆ h_objs h1) as Hs1.
      { apply map_subseteq_spec. intros l o Hl. pose proof (lookup_weaken _ _ _ _ Hl Hs) as Hl'.
        rewrite Hk1; [done|by eapply Hg]. }
      destruct (IHv js' h1 memo1 Hs1 Hg1 HF') as (h2 & memo2 & rs & -> & Hn2 & Hk2 & Hg2). simpl.
      eexists _, _, _. split; [done|]. split; [lia|]. split; [|done].
      intros l Hl. rewrite Hk2 by lia. auto. }
    assert (good (Heap (h_objs h) (S (h_next h)))) as Hg'.
    { intros x ox Hx. simpl in *. apply Hg in Hx. lia. }
    destruct (Hlist _ _ (Heap (h_objs h) (S (h_next h))) (<[l:=h_next h]> memo) Hs Hg' HF)
      as (h1 & memo1 & rs & -> & Hn1 & Hk1 & Hg1); simpl in *.
    eexists _, _, _. split; [done|]. split; simpl; [lia|]. split.
    + intros x Hx. rewrite lookup_insert_ne by lia. apply Hk1. lia.
    + intros x ox Hx. simpl in *. destruct (decide (x = h_next h)) as [->|]; [lia|].
      rewrite lookup_insert_ne in Hx by done. by apply Hg1 in Hx.
Qed.

Lemma just_isolated h0 h own cells v n j fuel h1 v1 s2 :
  wf_heap h0 -> msteps (m_init h0) (MState h own cells) ->
  refs_in own [v] -> read n (h_objs h) v = Some j -> deepcopy fuel h v = Some (h1, v1) ->
  msteps (MState h1 own (cells ++ [v1])) s2 ->
  exists c, m_cells s2 !! length cells = Some c /\
    (exists fuel', is_Some (deepcopy fuel' (m_heap s2) c)) /\
    forall fuel' h' v', deepcopy fuel' (m_heap s2) c = Some (h', v') -> exists m, read m (h_objs h') v' = Some j.
Proof.
  intros Hw H1 Hrefs Hr Hd H2.
  destruct (minv_steps _ _ _ (minv_init h0 Hw) H1) as [gj Hi]. simpl in Hi.
  destruct (deepcopy_correct _ _ _ _ _ _ _ (mi_good _ _ Hi) Hr Hd) as (_ & _ & _ & _ & _ & m1 & Hm1).
  assert (mstep (MState h own cells) (MState h1 own (cells ++ [v1]))) as Hstep by (econstructor; eauto).
  destruct (minv_step _ _ _ Hi Hstep) as [gj1 Hi1].
  destruct (minv_steps _ _ _ Hi1 H2) as [gj2 Hi2].
  pose proof (mi_cells _ _ Hi) as Hc0. apply Forall2_length in Hc0. simpl in Hc0.
  pose proof (mi_cells _ _ Hi1) as Hc1. simpl in Hc1.
  assert (exists x, gj1 = [x] /\ x = j) as (x & -> & ->).
  { pose proof (Forall2_length _ _ _ Hc1) as HL. rewrite !app_length in HL. simpl in HL.
    destruct gj1 as [|x [|y gj1]]; simpl in HL; [lia| |lia]. exists x. split; [done|].
    apply (Forall2_lookup_l _ _ _ (length cells) v1) in Hc1 as (y & Hy & _ & n1 & Hn1).
    - rewrite Hc0 in Hy. rewrite list_lookup_middle in Hy by done. injection Hy as <-. by eapply read_det.
    - by rewrite list_lookup_middle. }
  pose proof (mi_cells _ _ Hi2) as Hc2.
  assert (((gj ++ [j]) ++ gj2) !! length cells = Some j) as Hj.
  { rewrite <- app_assoc, Hc0. simpl. by rewrite list_lookup_middle. }
  destruct (Forall2_lookup_r _ _ _ _ _ Hc2 Hj) as (c & Hc & _ & n2 & Hn2).
  exists c. split; [done|]. split.
  - exists n2. destruct (copy_total n2 (h_objs (m_heap s2)) (m_heap s2) ∅ c j (reflexivity _) Hn2 (mi_good _ _ Hi2))
      as (h' & memo' & v' & E & _). unfold deepcopy. rewrite E. simpl. eauto.
  - intros fuel' h' v' Hd'.
    destruct (deepcopy_correct _ _ _ _ _ _ _ (mi_good _ _ Hi2) Hn2 Hd') as (_ & _ & _ & _ & _ & Hm). done.
Qed.
