(** Program trees: the generic representation of Python coroutines, their complete executions, their crash
    points, their interleavings, and weakest preconditions. Nothing in this file is specific to the library. *)
From Verif Require Export Base.

(** A coroutine over commands [C] with responses [R c]. *)
Inductive prog {C : Type} (R : C -> Type) (A : Type) : Type :=
  | Ret (a : A)                                  (* return a *)
  | Raise (e : exn)                              (* raise e *)
  | Step (c : C) (k : R c -> prog R A).          (* perform c, continue with the response *)
Global Arguments Ret {C R A} a.
Global Arguments Raise {C R A} e.
Global Arguments Step {C R A} c k.

Section prog.
  Context {C : Type} {R : C -> Type}.

  (** Sequencing; an exception skips the rest. *)
  Fixpoint bind {A B} (p : prog R A) (f : A -> prog R B) : prog R B :=
    match p with
    | Ret a => f a
    | Raise e => Raise e
    | Step c k => Step c (fun r => bind (k r) f)
    end.

  (** try: p, with the exception made a value. *)
  Fixpoint try_ {A} (p : prog R A) : prog R (outcome A) :=
    match p with
    | Ret a => Ret (Val a)
    | Raise e => Ret (Exn e)
    | Step c k => Step c (fun r => try_ (k r))
    end.

  (** Turn an outcome back into control flow. *)
  Definition of_outcome {A} (o : outcome A) : prog R A :=
    match o with Val a => Ret a | Exn e => Raise e end.

  (** A single command whose response is its result. *)
  Definition act (c : C) : prog R (R c) := Step c Ret.

  (** for x in l: f(x) *)
  Fixpoint for_each {A} (l : list A) (f : A -> prog R unit) : prog R unit :=
    match l with
    | [] => Ret tt
    | x :: l' => bind (f x) (fun _ => for_each l' f)
    end.

  (** for x in l: acc = f(acc, x) *)
  Fixpoint fold_prog {A B} (l : list A) (f : B -> A -> prog R B) (acc : B) : prog R B :=
    match l with
    | [] => Ret acc
    | x :: l' => bind (f acc x) (fun acc' => fold_prog l' f acc')
    end.

  (** { x for x in l if await f(x) } *)
  Fixpoint filter_prog {A} (f : A -> prog R bool) (l : list A) : prog R (list A) :=
    match l with
    | [] => Ret []
    | x :: l' => bind (f x) (fun b => bind (filter_prog f l') (fun r => Ret (if b : bool then x :: r else r)))
    end.

  (** [ await f(x) for x in l ] *)
  Fixpoint map_prog {A B} (f : A -> prog R B) (l : list A) : prog R (list B) :=
    match l with
    | [] => Ret []
    | x :: l' => bind (f x) (fun y => bind (map_prog f l') (fun r => Ret (y :: r)))
    end.

  (* ---------------------------------------------------------------------------------------------- *)
  (** ** Semantics *)

  (** [allowed w c r]: the environment may answer [r] to [c] in world [w] (the contract);
      [apply w c r]: the world afterwards. *)
  Record sem (W : Type) := Sem
    { allowed : W -> forall c, R c -> Prop; apply : W -> forall c, R c -> W }.
  Global Arguments allowed {W} _ _ _ _.
  Global Arguments apply {W} _ _ _ _.

  Context {W : Type} (S : sem W).

  (** Complete executions. *)
  Fixpoint exec {A} (p : prog R A) (w : W) (o : outcome A) (w' : W) : Prop :=
    match p with
    | Ret a => o = Val a /\ w' = w
    | Raise e => o = Exn e /\ w' = w
    | Step c k => exists r, allowed S w c r /\ exec (k r) (apply S w c r) o w'
    end.

  (** Crash points: every world reached by some prefix of some execution. *)
  Fixpoint reach {A} (p : prog R A) (w w' : W) : Prop :=
    w' = w \/
    match p with
    | Step c k => exists r, allowed S w c r /\ reach (k r) (apply S w c r) w'
    | _ => False
    end.

  (** Interleavings: a pool of coroutines sharing the world; any one of them may perform its next command. *)
  Definition pool := list (prog R unit).
  Definition pstep (cfg cfg' : pool * W) : Prop :=
    exists i c k r, cfg.1 !! i = Some (Step c k) /\ allowed S cfg.2 c r /\
      cfg'.1 = <[i := k r]> cfg.1 /\ cfg'.2 = apply S cfg.2 c r.
  Inductive preach : pool * W -> pool * W -> Prop :=
    | preach_refl cfg : preach cfg cfg
    | preach_step cfg cfg' cfg'' : pstep cfg cfg' -> preach cfg' cfg'' -> preach cfg cfg''.

  (** The precise asyncio interleavings: control can only change hands at an await. [aw c] says that [c] is
      an awaited call (and not, say, an attribute access). A run of consecutive non-awaited commands of one
      coroutine is atomic: after a non-awaited command followed by another one the same coroutine continues.
      The extra component is that coroutine, if any. [areach] is included in [preach]. *)
  Definition lock_after (aw : C -> bool) (i : nat) (c : C) (p : prog R unit) : option nat :=
    match p with
    | Step c' _ => if negb (aw c) && negb (aw c') then Some i else None
    | _ => None
    end.
  Definition astep (aw : C -> bool) (cfg cfg' : pool * W * option nat) : Prop :=
    exists i c k r, cfg.1.1 !! i = Some (Step c k) /\ (cfg.2 = None \/ cfg.2 = Some i) /\
      allowed S cfg.1.2 c r /\
      cfg' = (<[i := k r]> cfg.1.1, apply S cfg.1.2 c r, lock_after aw i c (k r)).
  Inductive areach (aw : C -> bool) : pool * W * option nat -> pool * W * option nat -> Prop :=
    | areach_refl cfg : areach aw cfg cfg
    | areach_step cfg cfg' cfg'' : astep aw cfg cfg' -> areach aw cfg' cfg'' -> areach aw cfg cfg''.

  (** Executable interpreter driven by an oracle. *)
  Fixpoint run {A} (E : W -> forall c, R c) (p : prog R A) (w : W) : outcome A * W :=
    match p with
    | Ret a => (Val a, w)
    | Raise e => (Exn e, w)
    | Step c k => let r := E w c in run E (k r) (apply S w c r)
    end.

  (** Run at most [n] commands: the world at the crash. *)
  Fixpoint run_crash {A} (E : W -> forall c, R c) (n : nat) (p : prog R A) (w : W) : W :=
    match n, p with
    | Datatypes.S n', Step c k => let r := E w c in run_crash E n' (k r) (apply S w c r)
    | _, _ => w
    end.

  (** Run a pool along a schedule (list of thread indices); a choice that is not possible is skipped. *)
  Definition run1 (aw : C -> bool) (E : W -> forall c, R c) (cfg : pool * W * option nat) (i : nat)
    : pool * W * option nat :=
    match cfg.1.1 !! i with
    | Some (Step c k) =>
        if bool_decide (cfg.2 = None \/ cfg.2 = Some i) then
          let r := E cfg.1.2 c in
          (<[i := k r]> cfg.1.1, apply S cfg.1.2 c r, lock_after aw i c (k r))
        else cfg
    | _ => cfg
    end.
  Definition run_sched (aw : C -> bool) (E : W -> forall c, R c) (sched : list nat)
    (cfg : pool * W * option nat) : pool * W * option nat := fold_left (run1 aw E) sched cfg.

  (* ---------------------------------------------------------------------------------------------- *)
  (** ** Weakest preconditions: [I] holds after every command, [Q] at the end *)
  Fixpoint wp {A} (I : W -> Prop) (p : prog R A) (Q : outcome A -> W -> Prop) (w : W) : Prop :=
    match p with
    | Ret a => Q (Val a) w
    | Raise e => Q (Exn e) w
    | Step c k => forall r, allowed S w c r -> I (apply S w c r) /\ wp I (k r) Q (apply S w c r)
    end.

  (** State-independent preservation of [I] by every command of [p]; this is what survives interleaving. *)
  Fixpoint psafe {A} (I : W -> Prop) (p : prog R A) : Prop :=
    match p with
    | Step c k => forall w r, I w -> allowed S w c r -> I (apply S w c r) /\ psafe I (k r)
    | _ => True
    end.

  (* ---------------------------------------------------------------------------------------------- *)
  (** ** Lemmas *)

  Lemma wp_exec {A} (I : W -> Prop) (p : prog R A) (Q : outcome A -> W -> Prop) w o w' : wp I p Q w -> exec p w o w' -> Q o w'.
  Proof.
    revert w. induction p as [a|e|c k IH]; simpl; intros w Hwp Hex.
    - destruct Hex as [-> ->]. done.
    - destruct Hex as [-> ->]. done.
    - destruct Hex as (r & Hr & Hex). destruct (Hwp r Hr) as [_ H]. eauto.
  Qed.

  Lemma wp_reach {A} (I : W -> Prop) (p : prog R A) (Q : outcome A -> W -> Prop) w w' : wp I p Q w -> I w -> reach p w w' -> I w'.
  Proof.
    revert w. induction p as [a|e|c k IH]; simpl; intros w Hwp HI Hex.
    - destruct Hex as [->|[]]. done.
    - destruct Hex as [->|[]]. done.
    - destruct Hex as [->|(r & Hr & Hex)]; [done|]. destruct (Hwp r Hr) as [HI' H]. eauto.
  Qed.

  Lemma exec_reach {A} (p : prog R A) w o w' : exec p w o w' -> reach p w w'.
  Proof.
    revert w. induction p as [a|e|c k IH]; simpl; intros w Hex.
    - destruct Hex as [_ ->]. auto.
    - destruct Hex as [_ ->]. auto.
    - destruct Hex as (r & Hr & Hex). right. eauto.
  Qed.

  (** The converse of soundness: wp is complete for exec/reach. *)
  Lemma exec_wp {A} (I : W -> Prop) (p : prog R A) (Q : outcome A -> W -> Prop) w :
    (forall o w', exec p w o w' -> Q o w') -> (forall w', reach p w w' -> I w') -> wp I p Q w.
  Proof.
    revert w. induction p as [a|e|c k IH]; simpl; intros w HQ HI.
    - apply HQ. done.
    - apply HQ. done.
    - intros r Hr. split.
      + apply HI. right. exists r. split; [done|].
        destruct (k r); simpl; auto.
      + apply IH; eauto.
  Qed.

  Lemma wp_mono {A} (I I' : W -> Prop) (p : prog R A) (Q Q' : outcome A -> W -> Prop) w :
    wp I p Q w -> (forall w, I w -> I' w) -> (forall o w, Q o w -> Q' o w) -> wp I' p Q' w.
  Proof.
    revert w. induction p as [a|e|c k IH]; simpl; intros w Hwp HI HQ; auto.
    intros r Hr. destruct (Hwp r Hr). eauto.
  Qed.

  Lemma wp_conseq {A} (I : W -> Prop) (p : prog R A) (Q Q' : outcome A -> W -> Prop) w :
    wp I p Q w -> (forall o w, Q o w -> Q' o w) -> wp I p Q' w.
  Proof. intros H HQ. eapply wp_mono; eauto. Qed.

  (** Strengthen the postcondition with a fact known about every execution. *)
  Lemma wp_and {A} (I1 I2 : W -> Prop) (p : prog R A) (Q1 Q2 : outcome A -> W -> Prop) w :
    wp I1 p Q1 w -> wp I2 p Q2 w -> wp (fun w => I1 w /\ I2 w) p (fun o w => Q1 o w /\ Q2 o w) w.
  Proof.
    revert w. induction p as [a|e|c k IH]; simpl; intros w H1 H2; auto.
    intros r Hr. destruct (H1 r Hr), (H2 r Hr). auto.
  Qed.

  Lemma wp_bind {A B} (I : W -> Prop) (p : prog R A) (f : A -> prog R B) (Q : outcome B -> W -> Prop) w :
    wp I p (fun o w' => match o with Val a => wp I (f a) Q w' | Exn e => Q (Exn e) w' end) w ->
    wp I (bind p f) Q w.
  Proof.
    revert w. induction p as [a|e|c k IH]; simpl; intros w H; auto.
    intros r Hr. destruct (H r Hr). auto.
  Qed.

  Lemma wp_bind_inv {A B} (I : W -> Prop) (p : prog R A) (f : A -> prog R B) (Q : outcome B -> W -> Prop) w :
    wp I (bind p f) Q w ->
    wp I p (fun o w' => match o with Val a => wp I (f a) Q w' | Exn e => Q (Exn e) w' end) w.
  Proof.
    revert w. induction p as [a|e|c k IH]; simpl; intros w H; auto.
    intros r Hr. destruct (H r Hr). auto.
  Qed.

  Lemma wp_try {A} (I : W -> Prop) (p : prog R A) (Q : outcome (outcome A) -> W -> Prop) w :
    wp I p (fun o w' => Q (Val o) w') w -> wp I (try_ p) Q w.
  Proof.
    revert w. induction p as [a|e|c k IH]; simpl; intros w H; auto.
    intros r Hr. destruct (H r Hr). auto.
  Qed.

  Lemma wp_act (I : W -> Prop) c (Q : outcome (R c) -> W -> Prop) w :
    (forall r, allowed S w c r -> I (apply S w c r) /\ Q (Val r) (apply S w c r)) -> wp I (act c) Q w.
  Proof. intros H r Hr. simpl. auto. Qed.

  Lemma wp_of_outcome {A} (I : W -> Prop) (o : outcome A) (Q : outcome A -> W -> Prop) w : Q o w -> wp I (of_outcome o) Q w.
  Proof. by destruct o. Qed.

  (** [I] also holds at the end. *)
  Lemma wp_inv {A} (I : W -> Prop) (p : prog R A) (Q : outcome A -> W -> Prop) w :
    wp I p Q w -> I w -> wp I p (fun o w' => I w' /\ Q o w') w.
  Proof.
    revert w. induction p as [a|e|c k IH]; simpl; intros w H HI; auto.
    intros r Hr. destruct (H r Hr). auto.
  Qed.

  (** Loop rule: [L done w] is the invariant after processing the elements [done]. *)
  Lemma wp_for_each {A} (I : W -> Prop) (L : list A -> W -> Prop) (l : list A) (f : A -> prog R unit) (Q : outcome unit -> W -> Prop) w :
    L [] w ->
    (forall pre x post w, l = pre ++ x :: post -> L pre w ->
       wp I (f x) (fun o w' => match o with Val _ => L (pre ++ [x]) w' | Exn e => Q (Exn e) w' end) w) ->
    (forall w, L l w -> Q (Val tt) w) ->
    wp I (for_each l f) Q w.
  Proof.
    intros H0 Hstep Hend.
    assert (forall post pre w, l = pre ++ post -> L pre w -> wp I (for_each post f) Q w) as H.
    { intros post. induction post as [|x post IH]; intros pre w0 Hl HL; simpl.
      - apply Hend. subst l. by rewrite app_nil_r.
      - apply wp_bind. eapply wp_conseq; [by eapply Hstep|].
        intros [[]|e] w1 H1; [|done].
        eapply IH; [|exact H1]. by rewrite <- app_assoc. }
    by apply (H l []).
  Qed.

  Lemma wp_fold_prog {A B} (I : W -> Prop) (L : list A -> B -> W -> Prop) (l : list A) (f : B -> A -> prog R B) b (Q : outcome B -> W -> Prop) w :
    L [] b w ->
    (forall pre x post b w, l = pre ++ x :: post -> L pre b w ->
       wp I (f b x) (fun o w' => match o with Val b' => L (pre ++ [x]) b' w' | Exn e => Q (Exn e) w' end) w) ->
    (forall b w, L l b w -> Q (Val b) w) ->
    wp I (fold_prog l f b) Q w.
  Proof.
    intros H0 Hstep Hend.
    assert (forall post pre b w, l = pre ++ post -> L pre b w -> wp I (fold_prog post f b) Q w) as H.
    { intros post. induction post as [|x post IH]; intros pre b0 w0 Hl HL; simpl.
      - apply Hend. subst l. by rewrite app_nil_r.
      - apply wp_bind. eapply wp_conseq; [by eapply Hstep|].
        intros [b1|e] w1 H1; [|done].
        eapply IH; [|exact H1]. by rewrite <- app_assoc. }
    by apply (H l []).
  Qed.

  (** exec through bind, both directions. *)
  Lemma exec_bind {A B} (p : prog R A) (f : A -> prog R B) w o w' :
    exec (bind p f) w o w' <->
    (exists a w1, exec p w (Val a) w1 /\ exec (f a) w1 o w') \/
    (exists e, exec p w (Exn e) w' /\ o = Exn e).
  Proof.
    revert w. induction p as [a|e|c k IH]; simpl; intros w.
    - split.
      + intros H. left. eauto.
      + intros [(a' & w1 & [[= ->] ->] & H1)|(e & [H1 _] & _)]; [done|discriminate].
    - split.
      + intros [-> ->]. right. eauto.
      + intros [(a' & w1 & [H1 _] & _)|(e' & [[= ->] ->] & ->)]; [discriminate|done].
    - split.
      + intros (r & Hr & H). apply IH in H as [(a & w1 & H1 & H2)|(e & H1 & ->)].
        * left. exists a, w1. eauto.
        * right. exists e. eauto.
      + intros [(a & w1 & (r & Hr & H1) & H2)|(e & (r & Hr & H1) & ->)];
          exists r; (split; [done|]); apply IH; eauto.
  Qed.

  Lemma exec_try {A} (p : prog R A) w o w' :
    exec (try_ p) w o w' <-> exists o', o = Val o' /\ exec p w o' w'.
  Proof.
    revert w. induction p as [a|e|c k IH]; simpl; intros w.
    - split; [intros [-> ->]; eauto | intros (? & -> & -> & ->); eauto].
    - split; [intros [-> ->]; eauto | intros (? & -> & -> & ->); eauto].
    - setoid_rewrite IH. naive_solver.
  Qed.

  Lemma reach_bind {A B} (p : prog R A) (f : A -> prog R B) w w' :
    reach (bind p f) w w' <->
    reach p w w' \/ exists a w1, exec p w (Val a) w1 /\ reach (f a) w1 w'.
  Proof.
    revert w. induction p as [a|e|c k IH]; simpl; intros w.
    - split.
      + intros H. right. eauto.
      + intros [[->|[]]|(a' & w1 & [[= ->] ->] & H1)]; [|done].
        destruct (f a); simpl; auto.
    - naive_solver.
    - split.
      + intros [->|(r & Hr & H)]; [auto|].
        apply IH in H as [H|(a & w1 & H1 & H2)]; [left; right; eauto|].
        right. exists a, w1. eauto.
      + intros [[->|(r & Hr & H)]|(a & w1 & (r & Hr & H1) & H2)]; [auto| |];
          right; exists r; (split; [done|]); apply IH; eauto.
  Qed.

  (** Soundness of the interpreters. *)
  Lemma run_exec {A} E (p : prog R A) w :
    (forall w c, allowed S w c (E w c)) -> exec p w (run E p w).1 (run E p w).2.
  Proof.
    intros HE. revert w. induction p as [a|e|c k IH]; simpl; intros w; auto.
    exists (E w c). auto.
  Qed.

  Lemma run_crash_reach {A} E n (p : prog R A) w :
    (forall w c, allowed S w c (E w c)) -> reach p w (run_crash E n p w).
  Proof.
    intros HE. revert w p. induction n as [|n IH]; intros w p.
    - destruct p; simpl; auto.
    - destruct p as [a|e|c k]; simpl; auto.
      right. exists (E w c). auto.
  Qed.

  Lemma preach_trans a b c : preach a b -> preach b c -> preach a c.
  Proof. induction 1; eauto using preach_step. Qed.

  Lemma areach_trans aw a b c : areach aw a b -> areach aw b c -> areach aw a c.
  Proof. induction 1; eauto using areach_step. Qed.

  Lemma areach_preach aw cfg cfg' : areach aw cfg cfg' -> preach cfg.1 cfg'.1.
  Proof.
    induction 1 as [cfg|cfg cfg' cfg'' (i & c & k & r & Hi & _ & Hr & ->) _ IH]; [apply preach_refl|].
    eapply preach_step; [|exact IH]. exists i, c, k, r. done.
  Qed.

  Lemma run_sched_areach aw E sched cfg :
    (forall w c, allowed S w c (E w c)) -> areach aw cfg (run_sched aw E sched cfg).
  Proof.
    intros HE. revert cfg. induction sched as [|i sched IH]; intros cfg; simpl; [apply areach_refl|].
    eapply areach_trans; [|apply IH].
    unfold run1. destruct (cfg.1.1 !! i) as [[a|e|c k]|] eqn:Hi; try apply areach_refl.
    case_bool_decide; [|apply areach_refl].
    eapply areach_step; [|apply areach_refl].
    exists i, c, k, (E cfg.1.2 c). auto.
  Qed.

  (** Interleaving-robust invariants. *)
  Lemma psafe_preach (I : W -> Prop) (ps : pool) w cfg' :
    I w -> Forall (psafe I) ps -> preach (ps, w) cfg' -> I cfg'.2 /\ Forall (psafe I) cfg'.1.
  Proof.
    intros HI Hps H. remember (ps, w) as cfg eqn:Hc.
    revert ps w Hc HI Hps. induction H as [cfg|[ps0 w0] [ps1 w1] cfg' (i & c & k & r & Hi & Hr & Hc1 & Hc2) Hp IH];
      intros ps w Hc HI Hps; subst.
    - done.
    - simpl in *. injection Hc as -> ->.
      pose proof (Forall_lookup_1 _ _ _ _ Hps Hi) as Hsafe. simpl in Hsafe.
      destruct (Hsafe w r HI Hr) as [HI' Hk].
      eapply IH; [done| |].
      + by subst.
      + subst. by apply Forall_insert.
  Qed.

  Lemma psafe_bind {A B} (I : W -> Prop) (p : prog R A) (f : A -> prog R B) :
    psafe I p -> (forall a, psafe I (f a)) -> psafe I (bind p f).
  Proof.
    intros Hp Hf. induction p as [a|e|c k IH]; simpl in *; auto.
    intros w r HI Hr. destruct (Hp w r HI Hr). auto.
  Qed.

  Lemma psafe_try {A} (I : W -> Prop) (p : prog R A) : psafe I p -> psafe I (try_ p).
  Proof.
    intros Hp. induction p as [a|e|c k IH]; simpl in *; auto.
    intros w r HI Hr. destruct (Hp w r HI Hr). auto.
  Qed.

  Lemma psafe_reach {A} (I : W -> Prop) (p : prog R A) w w' : psafe I p -> I w -> reach p w w' -> I w'.
  Proof.
    revert w. induction p as [a|e|c k IH]; simpl; intros w Hp HI Hr.
    - by destruct Hr as [->|[]].
    - by destruct Hr as [->|[]].
    - destruct Hr as [->|(r & Hal & Hr)]; [done|]. destruct (Hp w r HI Hal). eauto.
  Qed.

  (** Rely-guarantee: [p] as one coroutine among others whose steps are all in [G]. *)
  Fixpoint rwp {A} (G : W -> W -> Prop) (p : prog R A) (Q : outcome A -> W -> Prop) (w : W) : Prop :=
    match p with
    | Ret a => Q (Val a) w
    | Raise e => Q (Exn e) w
    | Step c k => forall w1 r, G w w1 -> allowed S w1 c r -> rwp G (k r) Q (apply S w1 c r)
    end.
  Fixpoint guar {A} (G : W -> W -> Prop) (p : prog R A) : Prop :=
    match p with
    | Step c k => forall w r, allowed S w c r -> G w (apply S w c r) /\ guar G (k r)
    | _ => True
    end.

  Lemma rwp_preach (G : W -> W -> Prop) (Q : outcome unit -> W -> Prop) ps w i p ps' w' :
    (forall w, G w w) -> (forall a b c, G a b -> G b c -> G a c) ->
    ps !! i = Some p -> rwp G p Q w ->
    (forall j q, j <> i -> ps !! j = Some q -> guar G q) ->
    preach (ps, w) (ps', w') ->
    exists p' w0, ps' !! i = Some p' /\ G w0 w' /\ rwp G p' Q w0.
  Proof.
    intros Hrefl Htrans Hi Hp Hg H.
    assert (exists w0, G w0 w /\ rwp G p Q w0) as (w0 & HG & Hp0) by eauto. clear Hp.
    remember (ps, w) as cfg eqn:Hc. remember (ps', w') as cfg' eqn:Hc'.
    revert ps w p w0 Hc Hi HG Hp0 Hg.
    induction H as [cfg|[ps0 v0] [ps1 v1] cfg'' (j & c & k & r & Hj & Hr & Hc1 & Hc2) Hpr IH];
      intros ps w p w0 Hc Hi HG Hp0 Hg; subst.
    - injection Hc as -> ->. eauto.
    - simpl in *. injection Hc as -> ->. subst ps1 v1.
      destruct (decide (j = i)) as [->|Hne].
      + rewrite Hi in Hj. injection Hj as ->. simpl in Hp0.
        eapply (IH eq_refl); [done| | | |].
        * apply list_lookup_insert. by eapply lookup_lt_Some.
        * apply Hrefl.
        * by apply Hp0.
        * intros j q Hne Hq. apply (Hg j); [done|]. rewrite <- Hq. symmetry.
          by apply (list_lookup_insert_ne ps).
      + pose proof (Hg j _ Hne Hj) as Hgj. simpl in Hgj. destruct (Hgj w r Hr) as [HG' Hk].
        eapply (IH eq_refl); [done| | |exact Hp0|].
        * rewrite <- Hi. by apply (list_lookup_insert_ne ps).
        * eauto.
        * intros j' q Hne' Hq. destruct (decide (j' = j)) as [->|].
          -- assert (Some q = Some (k r)) as [= ->]; [|done]. rewrite <- Hq.
             apply (list_lookup_insert ps). by eapply lookup_lt_Some.
          -- apply (Hg j'); [done|]. rewrite <- Hq. symmetry. by apply (list_lookup_insert_ne ps).
  Qed.

  (** Context-free reasoning: as long as every response is in [E], every command of [p] is in [F] and the result
      is in [Q]. *)
  Fixpoint obeys {A} (E : forall c, R c -> Prop) (F : C -> Prop) (Q : outcome A -> Prop) (p : prog R A) : Prop :=
    match p with
    | Ret a => Q (Val a)
    | Raise e => Q (Exn e)
    | Step c k => F c /\ forall r, E c r -> obeys E F Q (k r)
    end.

  Lemma obeys_mono {A} (E E' : forall c, R c -> Prop) (F F' : C -> Prop) (Q Q' : outcome A -> Prop) p :
    obeys E F Q p -> (forall c r, E' c r -> E c r) -> (forall c, F c -> F' c) -> (forall o, Q o -> Q' o) ->
    obeys E' F' Q' p.
  Proof.
    intros H HE HF HQ. induction p as [a|e|c k IH]; simpl in *; auto.
    destruct H as [Hc Hk]. split; auto.
  Qed.

  Lemma obeys_conseq {A} (E : forall c, R c -> Prop) (F : C -> Prop) (Q Q' : outcome A -> Prop) p :
    obeys E F Q p -> (forall o, Q o -> Q' o) -> obeys E F Q' p.
  Proof. intros H HQ. eapply obeys_mono; eauto. Qed.

  Lemma obeys_bind {A B} (E : forall c, R c -> Prop) (F : C -> Prop) (Q : outcome B -> Prop) (p : prog R A)
      (f : A -> prog R B) :
    obeys E F (fun o => match o with Val a => obeys E F Q (f a) | Exn e => Q (Exn e) end) p ->
    obeys E F Q (bind p f).
  Proof. induction p as [a|e|c k IH]; simpl; auto. intros [Hc Hk]. split; auto. Qed.

  Lemma obeys_try {A} (E : forall c, R c -> Prop) (F : C -> Prop) (Q : outcome (outcome A) -> Prop) (p : prog R A) :
    obeys E F (fun o => Q (Val o)) p -> obeys E F Q (try_ p).
  Proof. induction p as [a|e|c k IH]; simpl; auto. intros [Hc Hk]. split; auto. Qed.

  Lemma obeys_for_each {A} (E : forall c, R c -> Prop) (F : C -> Prop) (Q : outcome unit -> Prop) l (f : A -> prog R unit) :
    (forall x, x ∈ l -> obeys E F (fun o => match o with Val _ => True | Exn e => Q (Exn e) end) (f x)) ->
    Q (Val tt) -> obeys E F Q (for_each l f).
  Proof.
    intros Hf HQ. induction l as [|x l IH]; simpl; [done|]. apply obeys_bind.
    eapply obeys_conseq; [apply Hf; left|]. intros [a|e] H; [|done]. apply IH. intros y Hy. apply Hf. by right.
  Qed.

  Lemma obeys_fold_prog {A B} (E : forall c, R c -> Prop) (F : C -> Prop) (Q : outcome B -> Prop) (L : B -> Prop) l
      (f : B -> A -> prog R B) b :
    L b ->
    (forall b x, L b -> x ∈ l -> obeys E F (fun o => match o with Val b' => L b' | Exn e => Q (Exn e) end) (f b x)) ->
    (forall b, L b -> Q (Val b)) -> obeys E F Q (fold_prog l f b).
  Proof.
    intros Hb Hf HQ. revert b Hb. induction l as [|x l IH]; simpl; intros b Hb; [auto|]. apply obeys_bind.
    eapply obeys_conseq; [apply Hf; [done|left]|]. intros [a|e] H; [|done].
    apply IH; [|done]. intros c y Hc Hy. apply Hf; [done|by right].
  Qed.

  Lemma obeys_map_prog {A B} (E : forall c, R c -> Prop) (F : C -> Prop) (Q : outcome (list B) -> Prop) (L : B -> Prop) l
      (f : A -> prog R B) :
    (forall x, x ∈ l -> obeys E F (fun o => match o with Val b' => L b' | Exn e => Q (Exn e) end) (f x)) ->
    (forall r, Forall L r -> Q (Val r)) -> obeys E F Q (map_prog f l).
  Proof.
    revert Q. induction l as [|x l IH]; simpl; intros Q Hf HQ; [by apply HQ|]. apply obeys_bind.
    eapply obeys_conseq; [apply Hf; left|]. intros [a|e] H; [|done]. apply obeys_bind.
    apply IH; [intros y Hy; apply Hf; by right|]. intros r Hr. simpl. apply HQ. by constructor.
  Qed.

  Lemma obeys_filter_prog {A} (E : forall c, R c -> Prop) (F : C -> Prop) (Q : outcome (list A) -> Prop) l (f : A -> prog R bool) :
    (forall x, x ∈ l -> obeys E F (fun o => match o with Val _ => True | Exn e => Q (Exn e) end) (f x)) ->
    (forall r, r `sublist_of` l -> Q (Val r)) -> obeys E F Q (filter_prog f l).
  Proof.
    revert Q. induction l as [|x l IH]; simpl; intros Q Hf HQ; [by apply HQ|]. apply obeys_bind.
    eapply obeys_conseq; [apply Hf; left|]. intros [b|e] H; [|done]. apply obeys_bind.
    apply IH; [intros y Hy; apply Hf; by right|]. intros r Hr. simpl. apply HQ.
    destruct b; [by apply sublist_skip|by apply sublist_cons].
  Qed.

  (** Interleaving-robust reasoning with a result: [psafe] plus a postcondition. *)
  Fixpoint psafeq {A} (I : W -> Prop) (Q : outcome A -> Prop) (p : prog R A) : Prop :=
    match p with
    | Ret a => Q (Val a)
    | Raise e => Q (Exn e)
    | Step c k => forall w r, I w -> allowed S w c r -> I (apply S w c r) /\ psafeq I Q (k r)
    end.

  Lemma psafeq_psafe {A} (I : W -> Prop) (Q : outcome A -> Prop) p : psafeq I Q p -> psafe I p.
  Proof.
    induction p as [a|e|c k IH]; simpl; auto. intros H w r HI Hr. destruct (H w r HI Hr). auto.
  Qed.

  Lemma obeys_psafeq {A} (I : W -> Prop) (E : forall c, R c -> Prop) (F : C -> Prop) (Q : outcome A -> Prop) p :
    (forall w c r, I w -> F c -> allowed S w c r -> E c r /\ I (apply S w c r)) ->
    obeys E F Q p -> psafeq I Q p.
  Proof.
    intros HI. induction p as [a|e|c k IH]; simpl; auto.
    intros [Hc Hk] w r Hw Hr. destruct (HI w c r Hw Hc Hr). auto.
  Qed.

  Lemma obeys_psafe {A} (I : W -> Prop) (E : forall c, R c -> Prop) (F : C -> Prop) (Q : outcome A -> Prop) p :
    (forall w c r, I w -> F c -> allowed S w c r -> E c r /\ I (apply S w c r)) ->
    obeys E F Q p -> psafe I p.
  Proof. intros HI H. eapply psafeq_psafe, obeys_psafeq; eauto. Qed.

  Lemma psafeq_exec {A} (I : W -> Prop) (Q : outcome A -> Prop) p w o w' :
    psafeq I Q p -> I w -> exec p w o w' -> Q o /\ I w'.
  Proof.
    revert w. induction p as [a|e|c k IH]; simpl; intros w Hp HI Hex.
    - by destruct Hex as [-> ->].
    - by destruct Hex as [-> ->].
    - destruct Hex as (r & Hr & Hex). destruct (Hp w r HI Hr). eauto.
  Qed.

  Lemma psafeq_preach (I : W -> Prop) (Q : outcome unit -> Prop) (ps : pool) w i p ps' w' :
    I w -> ps !! i = Some p -> psafeq I Q p -> Forall (psafe I) ps -> preach (ps, w) (ps', w') ->
    exists p', ps' !! i = Some p' /\ psafeq I Q p' /\ I w'.
  Proof.
    intros HI Hi Hp Hps H. remember (ps, w) as cfg eqn:Hc. remember (ps', w') as cfg' eqn:Hc'.
    revert ps w p Hc HI Hi Hp Hps.
    induction H as [cfg|[ps0 w0] [ps1 w1] cfg'' (j & c & k & r & Hj & Hr & Hc1 & Hc2) Hpr IH];
      intros ps w p Hc HI Hi Hp Hps; subst.
    - injection Hc as -> ->. eauto.
    - simpl in *. injection Hc as -> ->. subst.
      pose proof (Forall_lookup_1 _ _ _ _ Hps Hj) as Hsafe. simpl in Hsafe.
      destruct (Hsafe w r HI Hr) as [HI' Hk].
      destruct (decide (j = i)) as [->|Hne].
      + rewrite Hi in Hj. injection Hj as ->. simpl in Hp. destruct (Hp w r HI Hr) as [_ Hq].
        eapply (IH eq_refl); [done|done| |exact Hq|by apply Forall_insert].
        apply (list_lookup_insert ps). by eapply lookup_lt_Some.
      + eapply (IH eq_refl); [done|done| |exact Hp|by apply Forall_insert].
        rewrite <- Hi. by apply (list_lookup_insert_ne ps).
  Qed.
End prog.

(** A stronger contract allows fewer executions. *)
Section mono.
  Context {C : Type} {R : C -> Type} {W : Type} (S S' : @sem C R W).
  Hypothesis Happ : forall w c r, apply S w c r = apply S' w c r.
  Hypothesis Hall : forall w c r, allowed S w c r -> allowed S' w c r.

  Lemma exec_contract {A} (p : prog R A) w o w' : exec S p w o w' -> exec S' p w o w'.
  Proof using All.
    revert w. induction p as [a|e|c k IH]; simpl; intros w H; auto.
    destruct H as (r & Hr & H). exists r. rewrite <- Happ. auto.
  Qed.
  Lemma reach_contract {A} (p : prog R A) w w' : reach S p w w' -> reach S' p w w'.
  Proof using All.
    revert w. induction p as [a|e|c k IH]; simpl; intros w H; auto.
    destruct H as [->|(r & Hr & H)]; [auto|]. right. exists r. rewrite <- Happ. auto.
  Qed.
End mono.

Declare Scope prog_scope.
Delimit Scope prog_scope with prog.
Notation "x <- p ;; q" := (bind p (fun x => q)) (at level 100, p at next level, right associativity) : prog_scope.
Notation "' x <- p ;; q" := (bind p (fun x' => let x := x' in q))
  (at level 100, x pattern, p at next level, right associativity) : prog_scope.
Notation "p ;;; q" := (bind p (fun _ => q)) (at level 100, right associativity) : prog_scope.
