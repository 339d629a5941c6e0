(** Programs seen on their own; rules that hold in every semantics with a log. *)
From Verif Require Import Api Spec Alone PfWp PfEmits.
Open Scope prog_scope.
Open Scope list_scope.

Definition ocons {A} (o : option A) (l : list A) : list A := match o with Some e => e :: l | None => l end.
Lemma w_apply_log w c r : w_log (w_apply w c r) = ocons (event_of c r) (w_log w).
Proof. destruct c; try done; simpl; by destruct r. Qed.

(** ** The sequential semantics is covered *)
Lemma alone_exec_gen P {A} (p : api A) w o w' l :
  exec (with_contract P) p w o w' -> exists evs, w_log w' = evs ++ w_log w /\ exec (alone P) p l o (evs ++ l).
Proof.
  revert w l. induction p as [a|e|c k IH]; intros w l H; simpl in H.
  - destruct H as [-> ->]. by exists [].
  - destruct H as [-> ->]. by exists [].
  - destruct H as (r & [Hr HP] & H). apply (IH r _ (ocons (event_of c r) l)) in H as (evs & E & H).
    exists (evs ++ ocons (event_of c r) []). rewrite w_apply_log in E. split.
    + rewrite E, <- app_assoc. by destruct (event_of c r).
    + exists r. split; [by exists w|]. change (Prog.apply (alone P) l c r) with (ocons (event_of c r) l).
      rewrite <- app_assoc. by destruct (event_of c r).
Qed.
Lemma alone_exec P {A} (p : api A) w o w' :
  exec (with_contract P) p w o w' -> exists evs, w_log w' = evs ++ w_log w /\ exec (alone P) p [] o evs.
Proof. intros (evs & E & H)%(alone_exec_gen _ _ _ _ _ []). rewrite app_nil_r in H. eauto. Qed.
Lemma alone_reach_gen P {A} (p : api A) w w' l :
  reach (with_contract P) p w w' -> exists evs, w_log w' = evs ++ w_log w /\ reach (alone P) p l (evs ++ l).
Proof.
  revert w l. induction p as [a|e|c k IH]; intros w l H; simpl in H.
  - destruct H as [->|[]]. exists []. split; [done|by left].
  - destruct H as [->|[]]. exists []. split; [done|by left].
  - destruct H as [->|(r & [Hr HP] & H)]; [exists []; split; [done|by left]|].
    apply (IH r _ (ocons (event_of c r) l)) in H as (evs & E & H).
    exists (evs ++ ocons (event_of c r) []). rewrite w_apply_log in E. split.
    + rewrite E, <- app_assoc. by destruct (event_of c r).
    + right. exists r. split; [by exists w|]. change (Prog.apply (alone P) l c r) with (ocons (event_of c r) l).
      rewrite <- app_assoc. by destruct (event_of c r).
Qed.
Lemma alone_reach P {A} (p : api A) w w' :
  reach (with_contract P) p w w' -> exists evs, w_log w' = evs ++ w_log w /\ reach (alone P) p [] evs.
Proof. intros (evs & E & H)%(alone_reach_gen _ _ _ _ []). rewrite app_nil_r in H. eauto. Qed.

(** ** Interleavings are covered: what one coroutine of a pool did, it could have done alone *)
Lemma reach_more {C R W} (S : @sem C R W) {A} (c : C) (k : R c -> prog R A) w r w' :
  allowed S w c r -> reach S (k r) (Prog.apply S w c r) w' -> reach S (Step c k) w w'.
Proof. intros Hr H. right. eauto. Qed.

Lemma alone_preach_gen P i ps w ps' w' p l :
  preach (with_contract P) (ps, w) (ps', w') -> ps !! i = Some p ->
  exists new evs p', w_log w' = new ++ w_log w /\ evs `sublist_of` new /\ ps' !! i = Some p' /\
    reach (alone P) p l (evs ++ l) /\ (forall o, exec (alone P) p' (evs ++ l) o (evs ++ l) -> exec (alone P) p l o (evs ++ l)).
Proof.
  intros H. remember (ps, w) as cfg eqn:E1. remember (ps', w') as cfg' eqn:E2. revert ps w p l E1 E2.
  induction H as [cfg|cfg cfg1 cfg' (i0 & c & k & r & Hi & [Hr HP] & Ep & Ew) _ IH]; intros ps w p l -> E2 Hp.
  - injection E2 as <- <-. exists [], [], p. split; [done|]. split; [constructor|]. split; [done|]. simpl.
    split; [|done]. destruct p; by left.
  - subst. destruct cfg1 as [ps1 w1]. simpl in *. subst ps1 w1.
    destruct (decide (i0 = i)) as [->|Hne].
    + rewrite Hp in Hi. injection Hi as ->.
      destruct (IH (<[i:=k r]> ps) (w_apply w c r) (k r) (ocons (event_of c r) l)) as (new & evs & p' & E & S & Hp' & HR & HX);
        [done|done|apply list_lookup_insert; by eapply lookup_lt_Some|].
      exists (new ++ ocons (event_of c r) []), (evs ++ ocons (event_of c r) []), p'. rewrite w_apply_log in E.
      split; [rewrite E, <- app_assoc; by destruct (event_of c r)|]. split; [by apply sublist_app|]. split; [done|].
      assert (evs ++ ocons (event_of c r) l = (evs ++ ocons (event_of c r) []) ++ l) as El
        by (rewrite <- app_assoc; by destruct (event_of c r)).
      rewrite El in HR, HX. split.
      * right. exists r. split; [by exists w|]. exact HR.
      * intros o Ho. exists r. split; [by exists w|]. apply HX. exact Ho.
    + destruct (IH (<[i0:=k r]> ps) (w_apply w c r) p l) as (new & evs & p' & E & S & Hp' & HR & HX);
        [done|done|etrans; [by apply list_lookup_insert_ne|done]|].
      exists (new ++ ocons (event_of c r) []), evs, p'. rewrite w_apply_log in E.
      split; [rewrite E, <- app_assoc; by destruct (event_of c r)|]. split; [|done].
      rewrite <- (app_nil_r evs). apply sublist_app; [done|]. apply sublist_nil_l.
Qed.
Lemma alone_preach P i ps w ps' w' p :
  preach (with_contract P) (ps, w) (ps', w') -> ps !! i = Some p ->
  exists new evs, w_log w' = new ++ w_log w /\ evs `sublist_of` new /\ reach (alone P) p [] evs /\
    (ps' !! i = Some (Ret tt) -> exec (alone P) p [] (Val tt) evs) /\
    (forall e, ps' !! i = Some (Raise e) -> exec (alone P) p [] (Exn e) evs).
Proof.
  intros H Hp. destruct (alone_preach_gen _ _ _ _ _ _ _ [] H Hp) as (new & evs & p' & E & S & Hp' & HR & HX).
  rewrite app_nil_r in HR, HX. exists new, evs. split; [done|]. split; [done|]. split; [done|]. split.
  - intros H'. rewrite Hp' in H'. injection H' as ->. by apply HX.
  - intros e H'. rewrite Hp' in H'. injection H' as ->. by apply HX.
Qed.

(** ** Rules for any semantics with a log *)
Definition plain_cmd (c : cmd) : Prop := match c with SStore _ _ | SDelete _ => False | _ => True end.
Section gen.
  Context {W : Type} (S : @sem cmd resp W) (lg : W -> list event) {D : Type} (dk : W -> D)
    (P : world -> forall c, resp c -> Prop).
  Definition answer (c : cmd) (r : resp c) : Prop := exists w, w_allowed w c r /\ P w c r.
  Record logged : Prop := Logged
    { l_ok s c r : allowed S s c r -> answer c r;
      l_log s c r : lg (Prog.apply S s c r) = ocons (event_of c r) (lg s);
      l_disk s c r : plain_cmd c -> dk (Prog.apply S s c r) = dk s }.
  Context (HS : logged).

  (** [s'] comes after [s], with the calls [evs] in between and the storage unchanged. *)
  Definition since (s : W) (evs : list event) (s' : W) : Prop := lg s' = evs ++ lg s /\ dk s' = dk s.
  Lemma since_refl s : since s [] s.
  Proof. done. Qed.
  Lemma since_trans s1 s2 s3 e1 e2 : since s1 e1 s2 -> since s2 e2 s3 -> since s1 (e2 ++ e1) s3.
  Proof. intros [A1 A2] [B1 B2]. split; [by rewrite B1, A1, app_assoc|congruence]. Qed.
  Lemma since_cons s1 s2 s3 e1 e : since s1 e1 s2 -> since s2 [e] s3 -> since s1 (e :: e1) s3.
  Proof. intros H1 H2. exact (since_trans _ _ _ _ _ H1 H2). Qed.
  Lemma since_same s1 s2 s3 e1 : since s1 e1 s2 -> since s2 [] s3 -> since s1 e1 s3.
  Proof. intros H1 H2. exact (since_trans _ _ _ _ _ H1 H2). Qed.

  Lemma gwp_step {A} (I : W -> Prop) c (k : resp c -> api A) (Q : outcome A -> W -> Prop) s :
    (forall r s', answer c r -> lg s' = ocons (event_of c r) (lg s) -> (plain_cmd c -> dk s' = dk s) ->
       I s' /\ wp S I (k r) Q s') -> wp S I (Step c k) Q s.
  Proof.
    intros H. change (forall r, allowed S s c r -> I (Prog.apply S s c r) /\ wp S I (k r) Q (Prog.apply S s c r)).
    intros r Hr. apply H; [by eapply l_ok|by apply l_log|by apply l_disk].
  Qed.
  (** a logged call *)
  Lemma gwp_ext {A} (I : W -> Prop) c (cast : resp c -> outcome A) (ev : resp c -> event) (Q : outcome A -> W -> Prop) s :
    plain_cmd c -> (forall r, event_of c r = Some (ev r)) ->
    (forall r s', answer c r -> since s [ev r] s' -> I s' /\ Q (cast r) s') ->
    wp S I (Step c (fun r => of_outcome (cast r))) Q s.
  Proof.
    intros Hc He H. apply gwp_step. intros r s' Ha Hl Hd. rewrite He in Hl. simpl in Hl.
    destruct (H r s') as [H1 H2]; [done|by split; auto|]. split; [done|]. by apply wp_of_outcome.
  Qed.
  Lemma gwp_quiet {A} (I : W -> Prop) c (k : resp c -> api A) (Q : outcome A -> W -> Prop) s :
    plain_cmd c -> (forall r, event_of c r = None) ->
    (forall r s', answer c r -> since s [] s' -> I s' /\ wp S I (k r) Q s') -> wp S I (Step c k) Q s.
  Proof.
    intros Hc He H. apply gwp_step. intros r s' Ha Hl Hd. rewrite He in Hl. simpl in Hl.
    apply H; [done|]. split; [done|auto].
  Qed.
  Lemma gwp_order {A} (I : W -> Prop) (l : list A) (Q : outcome (list A) -> W -> Prop) s :
    (forall l' s', l' ≡ₚ l -> since s [] s' -> I s' /\ Q (Val l') s') -> wp S I (order l) Q s.
  Proof.
    intros H. apply gwp_quiet; [done|done|]. intros r s' _ Hs. apply H; [apply reorder_perm|done].
  Qed.
  Lemma gwp_loaded (I : W -> Prop) (Q : outcome (list string) -> W -> Prop) s :
    (forall l s', answer GLoaded l -> since s [] s' -> I s' /\ Q (Val l) s') -> wp S I g_loaded Q s.
  Proof. intros H. apply gwp_quiet; [done|done|]. intros r s' Ha Hs. by apply H. Qed.
  Lemma gwp_loaded' (I : W -> Prop) (Q : outcome (list string) -> W -> Prop) s :
    (forall l s', allowed S s GLoaded l -> since s [] s' -> I s' /\ Q (Val l) s') -> wp S I g_loaded Q s.
  Proof.
    intros H. unfold g_loaded.
    change (forall r, allowed S s GLoaded r -> I (Prog.apply S s GLoaded r) /\ wp S I (Ret r) Q (Prog.apply S s GLoaded r)).
    intros r Hr. apply H; [done|]. split; [by rewrite (l_log HS)|by apply (l_disk HS)].
  Qed.
  (** a load: nothing is known of the answer except that only the environment's exceptions and TypeError occur *)
  Lemma gwp_load {A} (I : W -> Prop) (check : json -> outcome A) k (Q : outcome (option A) -> W -> Prop) s :
    (forall r s', answer (SLoad k) r -> since s [] s' -> I s' /\
       match r with
       | Exn e => Q (Exn e) s'
       | Val None => Q (Val None) s'
       | Val (Some v) => match check v with Val a => Q (Val (Some a)) s' | Exn e => Q (Exn e) s' end
       end) -> wp S I (load_checked check k) Q s.
  Proof.
    intros H. unfold load_checked, s_load. apply wp_bind. apply gwp_quiet; [done|done|]. intros r s' Ha Hs.
    destruct (H r s' Ha Hs) as [H1 H2]. split; [done|]. apply wp_of_outcome. destruct r as [[v|]|e]; [|done|done].
    destruct (check v); exact H2.
  Qed.
  (** programs that emit only certain events *)
  Lemma gwp_em {A} (I : W -> Prop) (Pe : event -> Prop) (Qo : outcome A -> Prop) p s (R : outcome A -> W -> Prop) :
    emq Pe Qo p -> (forall s' evs, lg s' = evs ++ lg s -> Forall Pe evs -> I s') ->
    (forall o s' evs, lg s' = evs ++ lg s -> Forall Pe evs -> Qo o -> R o s') -> wp S I p R s.
  Proof.
    intros Hp HI HR.
    assert (forall s1 evs1, lg s1 = evs1 ++ lg s -> Forall Pe evs1 -> wp S I p R s1) as H; [|by apply (H s [])].
    induction p as [a|e|c k IH]; intros s1 evs1 H1 HF.
    - by eapply HR.
    - by eapply HR.
    - destruct Hp as [Hc Hk]. apply gwp_step. intros r s' (w & Ha & _) Hl _.
      assert (Eany c r) as HE by (by eexists).
      assert (Forall Pe (ocons (event_of c r) evs1)) as Hev.
      { destruct c; simpl in Hc; try done; specialize (Hc r HE); simpl in *; auto. }
      assert (lg s' = ocons (event_of c r) evs1 ++ lg s) as El by (rewrite Hl, H1; by destruct (event_of c r)).
      split; [by eapply HI|]. eapply IH; eauto.
  Qed.
End gen.
Global Arguments Logged {W S lg D dk P}.

Lemma alone_logged P : logged (alone P) (fun l => l) (fun _ => tt) P.
Proof. split; [done|done|done]. Qed.
Lemma base_logged P : logged (with_contract P) w_log w_disk P.
Proof.
  split.
  - intros w c r [H1 H2]. by exists w.
  - intros. apply w_apply_log.
  - intros w c r Hc. destruct c; try done; simpl; by destruct r.
Qed.
