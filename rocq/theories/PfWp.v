(** Weakest precondition rules for the commands of the library, and facts about the data structure helpers. *)
From Verif Require Import Api Spec.
From Verif Require Export PfTyped.
Open Scope prog_scope.
Open Scope list_scope.

(** Rules for the wrappers. [I] must hold after every command. *)
Section rules.
  Context (I : world -> Prop).
  Notation WP p Q w := (wp base I p Q w).

  Lemma wp_step {A} c (k : resp c -> api A) (Q : outcome A -> world -> Prop) w :
    (forall r, w_allowed w c r -> I (w_apply w c r) /\ WP (k r) Q (w_apply w c r)) -> WP (Step c k) Q w.
  Proof. done. Qed.

  (** a call to the outside; the continuation sees the logged world *)
  Lemma wp_ext {A} c (cast : resp c -> outcome A) (Q : outcome A -> world -> Prop) w :
    (forall r, w_allowed w c r -> I (w_apply w c r) /\ Q (cast r) (w_apply w c r)) ->
    WP (Step c (fun r => of_outcome (cast r))) Q w.
  Proof. intros H r Hr. destruct (H r Hr). split; [done|]. by apply wp_of_outcome. Qed.

  Lemma wp_load {A} (check : json -> outcome A) k (Q : outcome (option A) -> world -> Prop) w :
    I w -> (forall e, ext_exn e = true -> Q (Exn e) w) ->
    match w_disk w !! k with
    | None => Q (Val None) w
    | Some v => match check v with Val a => Q (Val (Some a)) w | Exn e => Q (Exn e) w end
    end ->
    WP (load_checked check k) Q w.
  Proof.
    intros HI He Hv. unfold load_checked. apply wp_bind. intros r Hr. simpl in *. split; [done|].
    apply wp_of_outcome. destruct r as [m|e]; [|by apply He]. subst m.
    destruct (w_disk w !! k) as [v|]; [|done]. by destruct (check v).
  Qed.

  Lemma wp_store k v (Q : outcome unit -> world -> Prop) w :
    (forall r, ext_ok r -> I (w_apply w (SStore k v) r)) ->
    (forall e, ext_exn e = true -> Q (Exn e) (w_apply w (SStore k v) (Exn e))) ->
    Q (Val tt) (w_apply w (SStore k v) (Val tt)) ->
    WP (s_store k v) Q w.
  Proof.
    intros HI He Hv r Hr. split; [by apply HI|]. apply wp_of_outcome. destruct r as [[]|e]; [done|by apply He].
  Qed.
  Lemma wp_delete k (Q : outcome unit -> world -> Prop) w :
    (forall r, ext_ok r -> I (w_apply w (SDelete k) r)) ->
    (forall e, ext_exn e = true -> Q (Exn e) (w_apply w (SDelete k) (Exn e))) ->
    Q (Val tt) (w_apply w (SDelete k) (Val tt)) ->
    WP (s_delete k) Q w.
  Proof.
    intros HI He Hv r Hr. split; [by apply HI|]. apply wp_of_outcome. destruct r as [[]|e]; [done|by apply He].
  Qed.

  Lemma wp_loaded (Q : outcome (list string) -> world -> Prop) w : I w -> Q (Val (w_loaded w)) w -> WP g_loaded Q w.
  Proof. intros HI HQ r Hr. simpl in *. subst. done. Qed.
  Lemma wp_sync (Q : outcome bool -> world -> Prop) w : I w -> Q (Val (w_sync w)) w -> WP g_sync Q w.
  Proof. intros HI HQ r Hr. simpl in *. subst. done. Qed.
  Lemma wp_randbytes n (Q : outcome bytes -> world -> Prop) w :
    I w -> (forall b, String.length b = n -> Q (Val b) w) -> WP (c_randbytes n) Q w.
  Proof. intros HI HQ r Hr. split; [done|]. by apply HQ. Qed.
  Lemma wp_randbelow n (Q : outcome Z -> world -> Prop) w :
    I w -> (forall r, ((0 < n)%Z -> (0 <= r < n)%Z) -> Q (Val r) w) -> WP (c_randbelow n) Q w.
  Proof. intros HI HQ r Hr. split; [done|]. by apply HQ. Qed.
End rules.

(** Every permutation is some reordering. *)
Lemma pick_middle {A} (l1 : list A) (x z : A) l2 :
  pick (S (length l1)) x (l1 ++ z :: l2) = (z, x :: l1 ++ l2).
Proof.
  revert x. induction l1 as [|y l1 IH]; intros x; [done|].
  change (pick (S (length (y :: l1))) x ((y :: l1) ++ z :: l2))
    with (let '(z', r) := pick (S (length l1)) y (l1 ++ z :: l2) in (z', x :: r)).
  by rewrite IH.
Qed.
Lemma permute_all {A} fuel (l l' : list A) : length l <= fuel -> l' ≡ₚ l -> exists code, permute fuel code l = l'.
Proof.
  revert l l'. induction fuel as [|fuel IH]; intros l l' Hl Hp.
  { destruct l; simpl in *; [|lia]. apply Permutation_nil_r in Hp as ->. by exists []. }
  destruct l as [|x l]. { apply Permutation_nil_r in Hp as ->. by exists []. }
  destruct l' as [|z l']; [by apply Permutation_nil_l in Hp|].
  assert (exists n r, pick n x l = (z, r) /\ l' ≡ₚ r /\ length r = length l) as (n & r & Hpick & Hr & Hlen).
  { assert (z ∈ x :: l) as Hz by (rewrite <- Hp; left).
    apply elem_of_cons in Hz as [->|Hz].
    - exists 0, l. split; [done|]. split; [by apply Permutation_cons_inv in Hp|done].
    - apply elem_of_list_split in Hz as (l1 & l2 & ->).
      exists (S (length l1)), (x :: l1 ++ l2). split; [apply pick_middle|].
      split; [|rewrite !app_length; simpl; rewrite app_length; lia].
      apply (Permutation_cons_inv (a := z)). rewrite Hp. solve_Permutation. }
  destruct (IH r l') as [code Hc]; [simpl in *; lia|done|].
  exists (n :: code). cbn [permute]. by rewrite Hpick, Hc.
Qed.
Lemma reorder_all {A} (l l' : list A) : l' ≡ₚ l -> exists code, reorder code l = l'.
Proof. by apply permute_all. Qed.

Section order.
  Context (I : world -> Prop).
  Lemma wp_order {A} (l : list A) (Q : outcome (list A) -> world -> Prop) w :
    I w -> (forall l', l' ≡ₚ l -> Q (Val l') w) -> wp base I (order l) Q w.
  Proof. intros HI HQ r _. simpl. split; [done|]. apply HQ, reorder_perm. Qed.
End order.

Lemma wp_ret {A} (I : world -> Prop) (a : A) (Q : outcome A -> world -> Prop) w :
  Q (Val a) w -> wp base I (Ret a) Q w.
Proof. done. Qed.
Lemma wp_raise {A} (I : world -> Prop) e (Q : outcome A -> world -> Prop) w :
  Q (Exn e) w -> wp base I (Raise e) Q w.
Proof. done. Qed.

(** typed loads in terms of the specification *)
Lemma wp_typed {A} (I : world -> Prop) (check : json -> outcome A) (T : json -> A -> Prop) k
    (Q : outcome (option A) -> world -> Prop) w :
  good_check check T -> I w -> (forall e, ext_exn e = true -> Q (Exn e) w) ->
  (w_disk w !! k = None -> Q (Val None) w) ->
  (forall v a, w_disk w !! k = Some v -> T v a -> Q (Val (Some a)) w) ->
  (forall v, w_disk w !! k = Some v -> (forall a, ~ T v a) -> Q (Exn ETypeError) w) ->
  wp base I (load_checked check k) Q w.
Proof.
  intros Hg HI He HN HS HT. apply wp_load; [done|done|]. destruct (w_disk w !! k) as [v|] eqn:Ek; [|auto].
  destruct (Hg v) as [(a & Ha & ->)|[Hn ->]]; eauto.
Qed.
Lemma good_ints : good_check (fun v => match v with JList l => or_type_error (mapM as_int l) | _ => Exn ETypeError end) (is_list is_int).
Proof. apply check_list. constructor. Qed.
Lemma good_strs : good_check (fun v => match v with JList l => or_type_error (mapM as_str l) | _ => Exn ETypeError end) (is_list is_str).
Proof. apply check_list. constructor. Qed.
Lemma good_bools : good_check (fun v => match v with
                       | JDict d => or_type_error (mapM (fun kv => a ← as_bool kv.2; Some (kv.1, a)) d)
                       | _ => Exn ETypeError
                       end) (is_dict is_bool).
Proof. apply check_dict. constructor. Qed.
Lemma good_label : good_check (fun v => match v with
                       | JNull => Val None
                       | _ => match as_str v with Some a => Val (Some a) | None => Exn ETypeError end
                       end) (is_opt is_str).
Proof. apply check_optional. constructor. Qed.
Lemma good_str : good_check (fun v => or_type_error (as_str v)) is_str.
Proof. apply check_primitive. constructor. Qed.
Lemma good_int : good_check (fun v => or_type_error (as_int v)) is_int.
Proof. apply check_primitive. constructor. Qed.

(** what the library stores *)
Lemma is_strs l : is_list is_str (j_strs l) l.
Proof. constructor. induction l; simpl; constructor; [constructor|done]. Qed.
Lemma is_ints l : is_list is_int (j_ints l) l.
Proof. constructor. induction l; simpl; constructor; [constructor|done]. Qed.
Lemma is_bools l : is_dict is_bool (j_bools l) l.
Proof. constructor. induction l as [|[] l IH]; simpl; constructor; [split; [done|constructor]|done]. Qed.
Lemma is_label o : is_opt is_str (j_opt o) o.
Proof. destruct o; simpl; constructor; [done|constructor]. Qed.

(** the types are functional *)
Lemma is_str_fun v a b : is_str v a -> is_str v b -> a = b.
Proof. destruct 1. by inversion 1. Qed.
Lemma is_bool_fun v a b : is_bool v a -> is_bool v b -> a = b.
Proof. destruct 1. by inversion 1. Qed.
Lemma is_dict_fun {A} (T : json -> A -> Prop) v a b :
  (forall v x y, T v x -> T v y -> x = y) -> is_dict T v a -> is_dict T v b -> a = b.
Proof.
  intros HT. destruct 1. inversion 1; subst. eapply Forall2_fun; eauto.
  intros [k j] [k1 x] [k2 y] [??] [??]. simpl in *. subst. f_equal; eauto.
Qed.
Lemma is_opt_fun {A} (T : json -> A -> Prop) v a b :
  (forall v x y, T v x -> T v y -> x = y) -> is_opt T v a -> is_opt T v b -> a = b.
Proof. intros HT. destruct 1; inversion 1; subst; try done. f_equal; eauto. Qed.

Lemma wp_from_just {A} (I : world -> Prop) (m : option A) (Q : outcome A -> world -> Prop) w :
  (m = None -> Q (Exn ENothing) w) -> (forall a, m = Some a -> Q (Val a) w) -> wp base I (from_just m) Q w.
Proof. destruct m; [intros _ H; by apply H|intros H _; by apply H]. Qed.
Lemma wp_ploaded (I : world -> Prop) l (Q : outcome unit -> world -> Prop) w :
  I (World (w_disk w) l (w_sync w) (w_log w)) -> Q (Val tt) (World (w_disk w) l (w_sync w) (w_log w)) ->
  wp base I (p_loaded l) Q w.
Proof. intros HI HQ []. done. Qed.
Lemma wp_psync (I : world -> Prop) b (Q : outcome unit -> world -> Prop) w :
  I (World (w_disk w) (w_loaded w) b (w_log w)) -> Q (Val tt) (World (w_disk w) (w_loaded w) b (w_log w)) ->
  wp base I (p_sync b) Q w.
Proof. intros HI HQ []. done. Qed.

(** for x in l: results.append(await f(x)) *)
Lemma wp_map_prog {A B} (I : world -> Prop) (L : list A -> list B -> world -> Prop) (l : list A) (f : A -> api B)
    (Q : outcome (list B) -> world -> Prop) w :
  L [] [] w ->
  (forall pre x post ys w, l = pre ++ x :: post -> L pre ys w ->
     wp base I (f x) (fun o w' => match o with Val y => L (pre ++ [x]) (ys ++ [y]) w' | Exn e => Q (Exn e) w' end) w) ->
  (forall ys w, L l ys w -> Q (Val ys) w) ->
  wp base I (map_prog f l) Q w.
Proof.
  intros H0 Hstep Hend.
  assert (forall post pre ys w (R : outcome (list B) -> world -> Prop), l = pre ++ post -> L pre ys w ->
    (forall e w, Q (Exn e) w -> R (Exn e) w) -> (forall zs w, L l (ys ++ zs) w -> R (Val zs) w) ->
    wp base I (map_prog f post) R w) as H.
  { intros post. induction post as [|x post IH]; intros pre ys w0 R Hl HL HE HV; simpl.
    - apply HV. subst l. by rewrite !app_nil_r in *.
    - apply wp_bind. eapply wp_conseq; [by eapply Hstep|]. intros [y|e] w1 H1; [|by apply HE].
      apply wp_bind. eapply (IH (pre ++ [x])); [by rewrite <- app_assoc|exact H1|exact HE|].
      intros zs w2 HL2. simpl. apply HV. by rewrite <- app_assoc in HL2. }
  eapply (H l [] []); [done|done|done|]. intros zs w' Hz. by apply Hend.
Qed.

Lemma wp_filter_prog {A} (I : world -> Prop) (L : list A -> list A -> world -> Prop) (l : list A) (f : A -> api bool)
    (Q : outcome (list A) -> world -> Prop) w :
  L [] [] w ->
  (forall pre x post ys w, l = pre ++ x :: post -> L pre ys w ->
     wp base I (f x) (fun o w' => match o with
       | Val b => L (pre ++ [x]) (if b : bool then ys ++ [x] else ys) w' | Exn e => Q (Exn e) w' end) w) ->
  (forall ys w, L l ys w -> Q (Val ys) w) ->
  wp base I (filter_prog f l) Q w.
Proof.
  intros H0 Hstep Hend.
  assert (forall post pre ys w (R : outcome (list A) -> world -> Prop), l = pre ++ post -> L pre ys w ->
    (forall e w, Q (Exn e) w -> R (Exn e) w) -> (forall zs w, L l (ys ++ zs) w -> R (Val zs) w) ->
    wp base I (filter_prog f post) R w) as H.
  { intros post. induction post as [|x post IH]; intros pre ys w0 R Hl HL HE HV; simpl.
    - apply HV. subst l. by rewrite !app_nil_r in *.
    - apply wp_bind. eapply wp_conseq; [by eapply Hstep|]. intros [b|e] w1 H1; [|by apply HE].
      apply wp_bind. eapply (IH (pre ++ [x])); [by rewrite <- app_assoc|exact H1|exact HE|].
      intros zs w2 HL2. simpl. apply HV. destruct b; [by rewrite <- app_assoc in HL2|done]. }
  eapply (H l [] []); [done|done|done|]. intros zs w' Hz. by apply Hend.
Qed.
Global Arguments wp : simpl never.
Global Arguments bind : simpl never.

(** Turn a statement about every crash point (every complete execution) into a weakest precondition. *)
Ltac by_reach :=
  match goal with
  | |- reach base ?p ?w ?w' -> _ =>
      let H := fresh in intros H; pattern w';
      match goal with |- ?P w' => refine (wp_reach base P p (fun _ _ => True) w w' _ _ H); clear H; cbv beta end
  end.
Ltac by_exec :=
  match goal with
  | |- exec base ?p ?w ?o ?w' -> _ =>
      let H := fresh in intros H; pattern o, w';
      match goal with |- ?P o w' => refine (wp_exec base (fun _ => True) p P w o w' _ H); clear H; cbv beta end
  end.
