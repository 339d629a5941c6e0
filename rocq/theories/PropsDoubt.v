(** Theorem C103: the cache of [Storage] after writes that raised. *)
From Verif Require Import Api Spec Alone Env Doubt PfStorage PfDoubt.
Open Scope prog_scope.
Open Scope string_scope.
Open Scope list_scope.

(** ** C103 *)
(** Partial: for one program at a time, and not for keys in doubt, that is after a write that raised and before the next one that
    succeeds. For all other keys, what is cached is what is on disk, whether or not failing writes took effect. *)
Theorem C103_only_failed_partial {A} (p : api A) w bs o w' bs' : coherent w -> exec rflaky (lower p) (w, bs) o (w', bs') ->
  exists new, w_log (r_world w') = new ++ w_log (r_world w) /\
    forall c k v, r_cache w' = Some c -> c !! k = Some v -> w_disk (r_world w') !! k = v \/ in_doubt k new.
Proof. exact (doubt_only p w bs o w' bs'). Qed.
Print Assumptions C103_only_failed_partial.

Definition level : api (option string) := load_primitive as_str (k_trust "you" "ik").
Definition distrust : api unit := try_ (set_trust "you" "ik" "DISTRUSTED") ;;; Ret tt.
Definition ex_doubt_w : world := World {[k_trust "you" "ik" := JStr "TRUSTED"]} ["n"] false [].
(** The task is cancelled during the write, which is performed. *)
Definition renv_cancel (s : rworld * list bool) (c : rcmd) : rresp c :=
  match c return rresp c with RStore _ _ => Exn ECancelled | c => renv s.1 c end.
Lemma renv_cancel_allowed s c : allowed rflaky s c (renv_cancel s c).
Proof. destruct c; try exact (renv_allowed s.1 _). vm_compute. reflexivity. Qed.

(** The level is known. set_trust is cancelled while the new level is being written. Until the process restarts, the old level
    is seen, then the new one. *)
Theorem C103_cancelled_write_refuted : exists w bs w1 bs1 w2 bs2 w3 bs3 w4 bs4,
  coherent w /\
  exec rflaky (lower level) (w, bs) (Val (Some "TRUSTED")) (w1, bs1) /\
  exec rflaky (lower (set_trust "you" "ik" "DISTRUSTED")) (w1, bs1) (Exn ECancelled) (w2, bs2) /\
  exec rflaky (lower level) (w2, bs2) (Val (Some "TRUSTED")) (w3, bs3) /\
  exec rflaky (lower level) (RWorld (r_world w3) (Some ∅), bs3) (Val (Some "DISTRUSTED")) (w4, bs4).
Proof.
  exists (RWorld ex_doubt_w (Some ∅)), [true].
  pose (s1 := run rflaky renv_cancel (lower level) (RWorld ex_doubt_w (Some ∅), [true])).
  pose (s2 := run rflaky renv_cancel (lower (set_trust "you" "ik" "DISTRUSTED")) s1.2).
  pose (s3 := run rflaky renv_cancel (lower level) s2.2).
  pose (s4 := run rflaky renv_cancel (lower level) (RWorld (r_world s3.2.1) (Some ∅), s3.2.2)).
  exists s1.2.1, s1.2.2, s2.2.1, s2.2.2, s3.2.1, s3.2.2, s4.2.1, s4.2.2.
  split; [apply coherent_empty|]. rewrite <- !surjective_pairing.
  assert (s1.1 = Val (Some "TRUSTED")) as <- by (vm_compute; reflexivity).
  assert (s2.1 = Exn ECancelled) as <- by (vm_compute; reflexivity).
  assert (s4.1 = Val (Some "DISTRUSTED")) as E4 by (vm_compute; reflexivity). rewrite <- E4.
  assert (s3.1 = s1.1) as E3 by (vm_compute; reflexivity).
  split; [apply run_exec, renv_cancel_allowed|]. split; [apply run_exec, renv_cancel_allowed|]. 
  split; [rewrite <- E3; apply run_exec, renv_cancel_allowed|]. apply run_exec, renv_cancel_allowed.
Qed.
Print Assumptions C103_cancelled_write_refuted.

(** After a level was set without failure the key is not in doubt any more. *)
Definition ex_doubt := run rflaky (fun s c => match s.2 with [] => renv s.1 c | _ => renv_cancel s c end)
  (lower (level ;;; distrust ;;; set_trust "you" "ik" "UNDECIDED" ;;; distrust)) (RWorld ex_doubt_w (Some ∅), [true]).
Example C103_example :
  coherent (RWorld ex_doubt_w (Some ∅)) /\
  exec rflaky (lower (level ;;; distrust ;;; set_trust "you" "ik" "UNDECIDED" ;;; distrust)) (RWorld ex_doubt_w (Some ∅), [true]) (Val tt) ex_doubt.2 /\
  w_log (r_world ex_doubt.2.1) = [EvStore (k_trust "you" "ik") (JStr "DISTRUSTED") (Val tt); EvStore (k_trust "you" "ik") (JStr "UNDECIDED") (Val tt);
    EvStore (k_trust "you" "ik") (JStr "DISTRUSTED") (Exn ECancelled)] /\
  ~ in_doubt (k_trust "you" "ik") (w_log (r_world ex_doubt.2.1)) /\
  (r_cache ex_doubt.2.1 ≫= lookup (k_trust "you" "ik")) = Some (Some (JStr "DISTRUSTED")).
Proof.
  split; [apply coherent_empty|]. split.
  { assert (ex_doubt.1 = Val tt) as <- by (vm_compute; reflexivity). apply run_exec.
    intros s c. destruct s as [w [|b bs]]; [apply renv_allowed|apply renv_cancel_allowed]. }
  assert (w_log (r_world ex_doubt.2.1) = [EvStore (k_trust "you" "ik") (JStr "DISTRUSTED") (Val tt); EvStore (k_trust "you" "ik") (JStr "UNDECIDED") (Val tt);
    EvStore (k_trust "you" "ik") (JStr "DISTRUSTED") (Exn ECancelled)]) as E by (vm_compute; reflexivity).
  split; [exact E|]. split; [|vm_compute; reflexivity]. rewrite E. intros (post & e & pre & El & He & Hp).
  destruct post as [|e1 post]; [injection El as <- <-; destruct He as [_ He]; discriminate He|].
  injection El as <- El. apply (Hp (EvStore (k_trust "you" "ik") (JStr "DISTRUSTED") (Val tt))); [left|]. split; reflexivity.
Qed.
