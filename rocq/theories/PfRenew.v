(** An account starts over once it is purged (C100). *)
From Verif Require Import Renew PfStrs PfWp PfDevices PfPurge PfLog PfOne PfOrigin.
Open Scope prog_scope.
Open Scope list_scope.

(** ** Past events do not matter *)
Definition relog (l : list event) (w : world) : world := World (w_disk w) (w_loaded w) (w_sync w) l.
Lemma relog_apply l w c r : w_apply (relog l w) c r = relog (log_step c r l) (w_apply w c r).
Proof. destruct c; try reflexivity; destruct r as [[]|]; reflexivity. Qed.
Lemma relog_allowed l w c r : w_allowed w c r -> w_allowed (relog l w) c r.
Proof. by destruct c. Qed.
Lemma relog_preach ps w ps' w' : preach (with_contract anything) (ps, w) (ps', w') ->
  forall l, exists new, w_log w' = new ++ w_log w /\ preach (with_contract anything) (ps, relog l w) (ps', relog (new ++ l) w').
Proof.
  intros H. remember (ps, w) as cfg eqn:E1. remember (ps', w') as cfg' eqn:E2. revert ps w E1.
  induction H as [cfg|cfg cfg1 cfg' (i & c & k & r & Hi & [Hr _] & Ep' & Ew) _ IH]; intros ps w -> l.
  - injection E2 as -> ->. exists []. split; [done|]. constructor.
  - destruct cfg1 as [ps1 w1]. cbn [fst snd] in Hi, Hr, Ep', Ew. subst ps1 w1.
    destruct (IH E2 _ _ eq_refl (log_step c r l)) as (new & El & Hn). exists (new ++ log_step c r []). split.
    + rewrite El. change (w_log (Prog.apply (with_contract anything) w c r)) with (w_log (w_apply w c r)). rewrite log_apply. unfold log_step. by rewrite app_nil_r, <- app_assoc.
    + assert ((new ++ log_step c r []) ++ l = new ++ log_step c r l) as -> by (unfold log_step; by rewrite app_nil_r, <- app_assoc).
      econstructor; [|exact Hn]. exists i, c, k, r. split; [done|]. split; [split; [by apply relog_allowed|done]|]. split; [done|].
      symmetry. apply relog_apply.
Qed.

Section renew.
  Context (X : inputs) (j und : string) (old : gmap string json).
  Context (HX : forall cf, in_cfg X cf -> c_jid cf <> j /\ c_undecided cf = und).
  Definition since_inputs : inputs :=
    Inputs (fun cf => c_jid cf <> j /\ c_undecided cf = und) (fun _ => True) (fun ns j' dl => j' <> j \/ in_list X ns j' dl)
      (fun j' ik level => j' <> j \/ level_from X j old ik level).
  Notation X' := since_inputs.
  Lemma others_ours j' : j' <> j -> ours X' j'.
  Proof. intros H. by exists (Cfg j' 0 und 0). Qed.
  Lemma not_ours : ~ ours X' j.
  Proof. by intros (cf & [H _] & E). Qed.
  Lemma since_on l ns x : on_list X' l ns j x -> on_list X l ns j x.
  Proof. intros (dl & [H|[H|H]] & E); [|done|]; exists dl; (split; [|done]); [by left|by right]. Qed.
  Lemma since_label l x s : with_label X' l j x s -> with_label X l j x s.
  Proof. intros (ns & dl & [H|[H|H]] & E); [|done|]; exists ns, dl; (split; [|done]); [by left|by right]. Qed.
  Lemma since_key l x ik : key_from X' l j x ik -> received j l x ik.
  Proof. intros [H|[H _]]; [done|]. by destruct not_ours. Qed.
  Lemma since_uses c : uses X c -> uses X' c.
  Proof.
    destruct c; simpl; auto.
    - intros (_ & Hc & _). split; [done|]. assert (a_jid a <> j) as Hj by (by destruct (HX _ (Hc 0%Z))). split; [|auto]. intros dev. exact (HX _ (Hc dev)).
    - intros [Hc Hl]. split; auto.
    - intros Hl. destruct (decide (jid = j)) as [->|]; [|by left]. right. by left.
  Qed.
  Lemma since_storage l d : storage_from X' l d -> renewed X j old l d.
  Proof.
    intros (H1 & H2 & H3 & H4 & H5 & H6). split; [|split; [|split; [|split; [|split]]]].
    - intros x ik H. by apply since_key, H1.
    - intros x H. destruct (H2 _ _ H) as [Ho|(ns & Ho)]; [by destruct not_ours|]. exists ns. by apply since_on.
    - intros x n H. destruct (H3 _ _ _ H) as [Ho|Ho]; [by destruct not_ours|by apply since_on].
    - intros x n b H. destruct (H4 _ _ _ _ H) as [Ho|Ho]; [by destruct not_ours|by apply since_on].
    - intros x s H. destruct (H5 _ _ _ H) as [Ho|Ho]; [by destruct not_ours|by apply since_label].
    - intros ik level H. by destruct (H6 _ _ _ H).
  Qed.
  Lemma since_device l d : dv_jid d = j -> device_from X' l d -> new_device X j old l und d.
  Proof.
    intros Ej (H1 & H2 & H3 & H4 & H5). rewrite Ej in *. split; [|split; [|split; [|split]]].
    - by apply since_key.
    - intros n H. destruct (H2 _ H) as [Ho|Ho]; [by destruct not_ours|by apply since_on].
    - intros n b H. destruct (H3 _ _ H) as [Ho|Ho]; [by destruct not_ours|by apply since_on].
    - intros s H. destruct (H4 _ H) as [Ho|Ho]; [by destruct not_ours|by apply since_label].
    - destruct H5 as [[H|H]|(cf & [_ H] & E)]; [done|by right|left; congruence].
  Qed.
  Lemma purged_storage w w1 : old = w_disk w -> tidy old j -> exec base (purge_bare_jid j) w (Val tt) w1 -> storage_from X' [] (w_disk w1).
  Proof.
    intros Eo Ht (Hg & Hk & _)%purge_jid_exec. rewrite Eo in Ht.
    assert (forall x i v, i = INamespaces j x \/ i = IActive j x \/ i = ILabel j x \/ i = IIdentityKey j x -> w_disk w1 !! item_key i = Some v -> False) as Hn.
    { intros x i v Hi Hv. assert (~ purge_item (w_disk w) j i) as Hp by (intros Hp; rewrite (Hg _ Hp) in Hv; discriminate Hv).
      apply Hp. right. exists x. split; [|naive_solver]. apply (Ht x i Hi). rewrite <- (Hk _ Hp), Hv. done. }
    assert (forall j' x, j' <> j -> exists ns, on_list X' [] ns j' x) as Hon. { intros j' x Hj. exists ""%string, [(x, None)]. split; [right; by left|left]. }
    split; [|split; [|split; [|split; [|split]]]].
    - intros j' x ik (s & Hs & E). destruct (decide (j' = j)) as [->|Hj]; [exfalso; eapply Hn; [|exact Hs]; auto|].
      right. split; [by apply others_ours|]. exists (Prims (fun s => s) (fun _ => ik) (fun _ => ik) (fun s => s)), ik. split; [done|]. by left.
    - intros j' x (zs & (v & Hv & _) & _). destruct (decide (j' = j)) as [->|Hj]; [|left; by apply others_ours].
      rewrite (Hg (IDeviceList j)) in Hv; [discriminate Hv|by left].
    - intros j' x n (zs & (v & Hv & _) & _). destruct (decide (j' = j)) as [->|Hj]; [exfalso; eapply Hn; [|exact Hv]; auto|left; by apply others_ours].
    - intros j' x n b (zs & (v & Hv & _) & _). destruct (decide (j' = j)) as [->|Hj]; [exfalso; eapply Hn; [|exact Hv]; auto|left; by apply others_ours].
    - intros j' x s (v & Hv & _). destruct (decide (j' = j)) as [->|Hj]; [exfalso; eapply Hn; [|exact Hv]; auto|left; by apply others_ours].
    - intros j' ik level Hl. destruct (decide (j' = j)) as [->|Hj]; [|by left]. right. right. unfold trusted_as in Hl.
      assert (~ purge_item (w_disk w) j (ITrust j ik)) as Hp by (intros Hp; rewrite (Hg _ Hp) in Hl; discriminate Hl).
      rewrite Eo. split; [exact (eq_trans (eq_sym (Hk _ Hp)) Hl)|]. intros (x & Hx & Hik). apply Hp. right. exists x. split; [done|]. do 4 right. by exists ik.
  Qed.
End renew.

Lemma renew_stored (X : inputs) j und (ps : list (api unit)) w w1 ps' w2 :
  (forall cf, in_cfg X cf -> c_jid cf <> j /\ c_undecided cf = und) ->
  tidy (w_disk w) j -> exec base (purge_bare_jid j) w (Val tt) w1 ->
  Forall (fun p => appcode (uses X) p) ps -> preach (with_contract anything) (ps, w1) (ps', w2) ->
  exists since, w_log w2 = since ++ w_log w1 /\ renewed X j (w_disk w) since (w_disk w2).
Proof.
  intros HX Ht Hp Hps H. destruct (relog_preach _ _ _ _ H []) as (new & El & Hr). exists new. split; [done|].
  apply (since_storage X j und). rewrite app_nil_r in Hr.
  refine (origin (since_inputs X j und (w_disk w)) anything ps (relog [] w1) ps' (relog new w2) _ _ Hr).
  - eapply Forall_impl; [exact Hps|]. intros p Hc. eapply code_mono; [| |exact Hc]; [done|]. intros c. by apply since_uses.
  - by apply (purged_storage X j und (w_disk w) HX w w1).
Qed.
Lemma renew_judged (X : inputs) j und (ps : list (api unit)) w w1 ps' w2 :
  (forall cf, in_cfg X cf -> c_jid cf <> j /\ c_undecided cf = und) ->
  tidy (w_disk w) j -> exec base (purge_bare_jid j) w (Val tt) w1 ->
  Forall (fun p => code unjudging (uses X) p) ps -> preach (with_contract anything) (ps, w1) (ps', w2) ->
  exists since, w_log w2 = since ++ w_log w1 /\
    forall post d r pre, since = post ++ EvEval d r :: pre -> dv_jid d = j -> new_device X j (w_disk w) pre und d.
Proof.
  intros HX Ht Hp Hps H. destruct (relog_preach _ _ _ _ H []) as (new & El & Hr). exists new. split; [done|]. rewrite app_nil_r in Hr.
  destruct (origin_judged (since_inputs X j und (w_disk w)) anything ps (relog [] w1) ps' (relog new w2)) as (new' & En & Hj).
  - eapply Forall_impl; [exact Hps|]. intros p Hc. eapply code_mono; [| |exact Hc]; [done|]. intros c. by apply since_uses.
  - by apply (purged_storage X j und (w_disk w) HX w w1).
  - exact Hr.
  - simpl in En. rewrite app_nil_r in En. subst new'. intros post d r pre E Ed. apply since_device; [done|].
    specialize (Hj _ _ _ E). simpl in Hj. by rewrite app_nil_r in Hj.
Qed.
