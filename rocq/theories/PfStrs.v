(** Proofs about strings: base64, decimal numbers, hex, storage keys. *)
From Verif Require Import Strs.
From Coq Require Import Ascii Lia ZifyN ZifyNat.
Open Scope string_scope.

Ltac Zify.zify_post_hook ::= Z.div_mod_to_equations.

(* ------------------------------------------------------------------------------------------------ *)
(** * base64 *)

Lemma N_of_ascii_lt a : (N_of_ascii a < 256)%N.
Proof. apply N_ascii_bounded. Qed.

Lemma below_64 (P : N -> Prop) :
  (forall i : nat, i < 64 -> P (N.of_nat i)) -> forall n, (n < 64)%N -> P n.
Proof. intros H n Hn. rewrite <- (N2Nat.id n). apply H. lia. Qed.

Lemma b64_val_char n : (n < 64)%N -> b64_val (b64_char n) = Some n.
Proof.
  revert n. apply below_64. intros i Hi.
  do 64 (destruct i as [|i]; [vm_compute; reflexivity|]). lia.
Qed.

Lemma ascii_N_eq a n : n = N_of_ascii a -> ascii_of_N n = a.
Proof. intros ->. apply ascii_N_embedding. Qed.

Lemma string_ind3 (P : string -> Prop) :
  P "" -> (forall a, P (String a "")) -> (forall a b, P (String a (String b ""))) ->
  (forall a b c s, P s -> P (String a (String b (String c s)))) -> forall s, P s.
Proof.
  intros H0 H1 H2 H3. fix IH 1. intros [|a [|b [|c s]]]; [done|done|done|]. apply H3, IH.
Qed.

Lemma b64_char_ok n : (n < 64)%N -> b64_char n <> "="%char /\ (N_of_ascii (b64_char n) <? 128)%N = true.
Proof.
  revert n. apply below_64. intros i Hi.
  do 64 (destruct i as [|i]; [vm_compute; split; [discriminate|reflexivity]|]). lia.
Qed.
Lemma b64_char_lt n : (n < 64)%N -> (N_of_ascii (b64_char n) <? 128)%N = true.
Proof. apply b64_char_ok. Qed.
Lemma b64_ascii s : ascii_only (b64enc s) = true.
Proof.
  induction s as [|a|a b|a b c s IH] using string_ind3; [done|..]; cbn [b64enc ascii_only]; cbv zeta;
    try pose proof (N_of_ascii_lt a); try pose proof (N_of_ascii_lt b); try pose proof (N_of_ascii_lt c).
  all: rewrite !b64_char_lt by lia; done.
Qed.
Lemma b64_step n s q left pads : (n < 64)%N -> b64_quads (String (b64_char n) s) q left pads =
  (match q with
   | 0%nat => b64_quads s 1 n 0
   | 1%nat => r ← b64_quads s 2 (n mod 16) 0; Some (String (ascii_of_N (left * 4 + n / 16)) r)
   | 2%nat => r ← b64_quads s 3 (n mod 4) 0; Some (String (ascii_of_N (left * 16 + n / 4)) r)
   | _ => r ← b64_quads s 0 0 0; Some (String (ascii_of_N (left * 64 + n)) r)
   end)%N.
Proof.
  intros Hn. cbn [b64_quads]. rewrite decide_False by (by apply b64_char_ok). by rewrite b64_val_char.
Qed.
Lemma b64_pad2 left : b64_quads "==" 2 left 0 = Some "".
Proof. reflexivity. Qed.
Lemma b64_pad1 left : b64_quads "=" 3 left 0 = Some "".
Proof. reflexivity. Qed.
Lemma b64_roundtrip s : b64dec (b64enc s) = Some s.
Proof.
  unfold b64dec. rewrite b64_ascii.
  induction s as [|a|a b|a b c s IH] using string_ind3.
  - done.
  - pose proof (N_of_ascii_lt a). cbn [b64enc]; cbv zeta.
    rewrite !b64_step by lia. rewrite b64_pad2. cbn -[N.div N.modulo ascii_of_N].
    f_equal. f_equal. apply ascii_N_eq. lia.
  - pose proof (N_of_ascii_lt a). pose proof (N_of_ascii_lt b). cbn [b64enc]; cbv zeta.
    rewrite !b64_step by lia. rewrite b64_pad1. cbn -[N.div N.modulo ascii_of_N].
    f_equal. f_equal; [apply ascii_N_eq; lia|]. f_equal. apply ascii_N_eq. lia.
  - pose proof (N_of_ascii_lt a). pose proof (N_of_ascii_lt b). pose proof (N_of_ascii_lt c).
    cbn [b64enc]; cbv zeta.
    rewrite !b64_step by lia. rewrite IH. cbn -[N.div N.modulo ascii_of_N].
    f_equal. f_equal; [apply ascii_N_eq; lia|]. f_equal; [apply ascii_N_eq; lia|].
    f_equal. apply ascii_N_eq; lia.
Qed.

Lemma b64enc_inj s t : b64enc s = b64enc t -> s = t.
Proof. intros H. apply (f_equal b64dec) in H. rewrite !b64_roundtrip in H. congruence. Qed.

(* ------------------------------------------------------------------------------------------------ *)
(** * Slashes *)

Fixpoint no_slash (s : string) : Prop :=
  match s with EmptyString => True | String c s' => c <> "/"%char /\ no_slash s' end.

Lemma no_slash_app s t : no_slash (s +:+ t) <-> no_slash s /\ no_slash t.
Proof. induction s as [|c s IH]; simpl; [tauto|]. rewrite IH. tauto. Qed.

Lemma b64_char_slash n : (n < 64)%N -> b64_char n <> "/"%char.
Proof.
  revert n. apply below_64. intros i Hi.
  do 64 (destruct i as [|i]; [vm_compute; discriminate|]). lia.
Qed.

Lemma b64enc_no_slash s : no_slash (b64enc s).
Proof.
  induction s as [|a|a b|a b c s IH] using string_ind3; [done|..].
  - pose proof (N_of_ascii_lt a). cbn [b64enc no_slash].
    repeat split; try done; apply b64_char_slash; lia.
  - pose proof (N_of_ascii_lt a). pose proof (N_of_ascii_lt b). cbn [b64enc no_slash].
    repeat split; try done; apply b64_char_slash; lia.
  - pose proof (N_of_ascii_lt a). pose proof (N_of_ascii_lt b). pose proof (N_of_ascii_lt c).
    cbn [b64enc no_slash].
    repeat split; try done; apply b64_char_slash; lia.
Qed.

Lemma pretty_N_go_no_slash x s : no_slash s -> no_slash (pretty_N_go x s).
Proof.
  revert s. induction (N.lt_wf_0 x) as [x _ IH]; intros s Hs.
  assert (x = 0 \/ 0 < x)%N as [->|Hx] by lia; [by rewrite pretty_N_go_0|].
  rewrite pretty_N_go_step by done. apply IH; [by apply N.div_lt|].
  simpl. split; [|done]. unfold pretty_N_char. by repeat case_match.
Qed.

Lemma pretty_N_no_slash (n : N) : no_slash (pretty n).
Proof.
  unfold pretty, pretty_N. case_decide; [simpl; by (repeat split; vm_compute)|]. by apply pretty_N_go_no_slash.
Qed.

Lemma show_dev_no_slash d : no_slash (show_dev d).
Proof.
  destruct d as [|p|p].
  - simpl. by (repeat split; vm_compute).
  - apply (pretty_N_no_slash (Npos p)).
  - change (show_dev (Z.neg p)) with ("-" +:+ pretty (Npos p)). apply no_slash_app.
    split; [simpl; by (repeat split; vm_compute)|]. apply pretty_N_no_slash.
Qed.

Lemma show_dev_inj d d' : show_dev d = show_dev d' -> d = d'.
Proof. apply pretty_Z_inj. Qed.

(** Splitting at the last slash. *)
Lemma split_last a b x y :
  no_slash x -> no_slash y -> a +:+ "/" +:+ x = b +:+ "/" +:+ y -> a = b /\ x = y.
Proof.
  intros Hx Hy. revert b. induction a as [|c a IH]; intros b H; destruct b as [|d b]; simpl in H.
  - injection H as ->. done.
  - injection H as <- ->. apply no_slash_app in Hx as [_ Hx]. simpl in Hx. tauto.
  - injection H as -> <-. apply no_slash_app in Hy as [_ Hy]. simpl in Hy. tauto.
  - injection H as -> H. destruct (IH b H) as [-> ->]. done.
Qed.

Lemma app_inj_l (p s t : string) : p +:+ s = p +:+ t -> s = t.
Proof. induction p as [|c p IH]; simpl; [done|]. intros [= H]. auto. Qed.

Lemma string_app_assoc (a b c : string) : (a +:+ b) +:+ c = a +:+ b +:+ c.
Proof. induction a as [|x a IH]; [done|]. exact (f_equal (String x) IH). Qed.

Lemma k_dev_inj j d f j' d' f' :
  no_slash f -> no_slash f' -> k_dev j d f = k_dev j' d' f' -> j = j' /\ d = d' /\ f = f'.
Proof.
  unfold k_dev. intros Hf Hf' H. apply app_inj_l in H.
  rewrite <- !string_app_assoc in H.
  rewrite (string_app_assoc _ "/" f), (string_app_assoc _ "/" f') in H.
  apply split_last in H as [H ->]; [|done..].
  rewrite !string_app_assoc in H.
  apply split_last in H as [-> H]; [|apply show_dev_no_slash..].
  apply show_dev_inj in H. done.
Qed.

Lemma k_dev_list j d f j' : no_slash f -> f <> "list" -> k_dev j d f <> k_list j'.
Proof.
  unfold k_dev, k_list. intros Hf Hne H. apply app_inj_l in H.
  rewrite <- string_app_assoc in H.
  rewrite <- (string_app_assoc (j +:+ "/")) in H.
  apply split_last in H as [_ H]; [done..|by (repeat split; vm_compute)].
Qed.

Lemma k_list_inj j j' : k_list j = k_list j' -> j = j'.
Proof.
  unfold k_list. intros H. apply app_inj_l in H.
  change "/list" with ("/" +:+ "list") in H.
  apply split_last in H as [H _]; [done|by (repeat split; vm_compute)..].
Qed.

Lemma k_trust_inj j ik j' ik' : k_trust j ik = k_trust j' ik' -> j = j' /\ ik = ik'.
Proof.
  unfold k_trust. intros H. apply app_inj_l in H.
  apply split_last in H as [-> H]; [|apply b64enc_no_slash..].
  apply b64enc_inj in H. done.
Qed.

Lemma k_queue_inj n n' : k_queue n = k_queue n' -> n = n'.
Proof. apply app_inj_l. Qed.
Lemma k_queue_jid_inj n j j' : k_queue_jid n j = k_queue_jid n j' -> j = j'.
Proof. unfold k_queue_jid. intros H. by do 3 apply app_inj_l in H. Qed.

(** Two extensions of different namespaces by a slash: one namespace extends the other. *)
Lemma slash_prefix n j n' j' :
  n +:+ "/" +:+ j = n' +:+ "/" +:+ j' ->
  (n = n' /\ j = j') \/ (exists x, n' = n +:+ "/" +:+ x) \/ (exists x, n = n' +:+ "/" +:+ x).
Proof.
  revert n'. induction n as [|c n IH]; intros n' H; destruct n' as [|c' n']; simpl in H.
  - injection H as ->. auto.
  - injection H as <- ->. right; left. exists n'. done.
  - injection H as -> <-. right; right. exists n. done.
  - injection H as -> H. destruct (IH n' H) as [[-> ->]|[[x ->]|[x ->]]]; [auto| |].
    + right; left. exists x. done.
    + right; right. exists x. done.
Qed.

(* ------------------------------------------------------------------------------------------------ *)
(** * hex *)

Lemma below_16 (P : N -> Prop) :
  (forall i : nat, i < 16 -> P (N.of_nat i)) -> forall n, (n < 16)%N -> P n.
Proof. intros H n Hn. rewrite <- (N2Nat.id n). apply H. lia. Qed.

Definition hex_val (c : ascii) : N :=
  let k := N_of_ascii c in (if k <? 58 then k - 48 else k - 87)%N.
Lemma hex_val_digit n : (n < 16)%N -> hex_val (hex_digit n) = n.
Proof.
  revert n. apply below_16. intros i Hi.
  do 16 (destruct i as [|i]; [vm_compute; reflexivity|]). lia.
Qed.

Lemma hex_inj s t : hex s = hex t -> s = t.
Proof.
  revert t. induction s as [|a s IH]; intros [|b t]; simpl; try done.
  intros [= H1 H2 H3]. apply IH in H3 as ->.
  apply (f_equal hex_val) in H1, H2.
  pose proof (N_of_ascii_lt a). pose proof (N_of_ascii_lt b).
  rewrite !hex_val_digit in H1, H2 by lia.
  f_equal. rewrite <- (ascii_N_embedding a), <- (ascii_N_embedding b). f_equal. lia.
Qed.

Lemma hex_length s : String.length (hex s) = 2 * String.length s.
Proof. induction s as [|a s IH]; simpl; [done|]. rewrite IH. lia. Qed.

(** lowercase hexadecimal digits *)
Definition is_lower_hex (c : ascii) : Prop :=
  let k := N_of_ascii c in ((48 <= k <= 57) \/ (97 <= k <= 102))%N.
Lemma hex_digit_lower n : (n < 16)%N -> is_lower_hex (hex_digit n).
Proof.
  revert n. apply below_16. intros i Hi.
  do 16 (destruct i as [|i]; [first [left; split; vm_compute; discriminate | right; split; vm_compute; discriminate]|]). lia.
Qed.
Fixpoint all_chars (P : ascii -> Prop) (s : string) : Prop :=
  match s with EmptyString => True | String c s' => P c /\ all_chars P s' end.
Lemma hex_lower s : all_chars is_lower_hex (hex s).
Proof.
  induction s as [|a s IH]; simpl; [done|].
  pose proof (N_of_ascii_lt a). split; [|split]; [apply hex_digit_lower; lia..|done].
Qed.

(** * Grouping *)
Lemma substring_0 n s : String.length s <= n -> substring 0 n s = s.
Proof.
  revert n. induction s as [|c s IH]; intros [|n] H; simpl in *; try done; [lia|].
  f_equal. apply IH. lia.
Qed.
Lemma substring_split i n s :
  substring 0 i s +:+ substring i n s = substring 0 (i + n) s.
Proof.
  revert s. induction i as [|i IH]; intros s; simpl.
  - destruct s; done.
  - destruct s as [|c s]; simpl; [done|]. exact (f_equal (String c) (IH s)).
Qed.
Lemma substring_length i n s : i + n <= String.length s -> String.length (substring i n s) = n.
Proof.
  revert i n. induction s as [|c s IH]; intros [|i] [|n] H; simpl in *; try done; try lia.
  - f_equal. apply IH. lia.
  - apply IH. lia.
  - apply IH. lia.
Qed.

Lemma string_app_nil s : s +:+ "" = s.
Proof. induction s as [|c s IH]; [done|]. exact (f_equal (String c) IH). Qed.

Definition sconcat : list string -> string := fold_right String.append "".
Lemma sconcat_app l l' : sconcat (l ++ l')%list = sconcat l +:+ sconcat l'.
Proof. induction l as [|x l IH]; simpl; [done|]. by rewrite IH, string_app_assoc. Qed.

Lemma groups_concat g s : 0 < g -> sconcat (groups g s) = s.
Proof.
  intros Hg. unfold groups.
  assert (forall n, sconcat (map (fun i => substring (i * g) g s) (seq 0 n)) = substring 0 (n * g) s) as H.
  { induction n as [|n IH]; [by destruct s|].
    rewrite seq_S, map_app, sconcat_app, IH. cbn [map sconcat fold_right Nat.add].
    rewrite string_app_nil.
    rewrite substring_split. f_equal. lia. }
  rewrite H. apply substring_0.
  pose proof (Nat.div_mod (String.length s + (g - 1)) g). 
  pose proof (Nat.mod_upper_bound (String.length s + (g - 1)) g). lia.
Qed.

Lemma groups_full g s n :
  0 < g -> String.length s = n * g ->
  length (groups g s) = n /\ Forall (fun x => String.length x = g) (groups g s).
Proof.
  intros Hg Hs. unfold groups. rewrite Hs.
  replace ((n * g + (g - 1)) / g) with n
    by (rewrite Nat.add_comm, Nat.div_add, Nat.div_small by lia; lia).
  rewrite map_length, seq_length. split; [done|].
  apply Forall_forall. intros x Hx. apply elem_of_list_fmap in Hx as (i & -> & Hi).
  apply elem_of_seq in Hi. apply substring_length. rewrite Hs. nia.
Qed.
