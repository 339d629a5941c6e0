(** Theorem C94: what the library hands out has a source. *)
From Verif Require Import Api Spec Alone Env Prov PfProv PropsDevices PropsTrust PropsEncrypt PropsDecrypt PropsSync.
Open Scope prog_scope.
Open Scope string_scope.
Open Scope list_scope.

(** ** C94 *)
(** In every interleaving of code using the library, with all failures, and at every moment: the keys, sessions, bundles and
    messages given to the backends and to the network are ones received before, as [sourced] says. *)
Theorem C94_sourced (C : cfg -> Prop) (G : string -> list (Z * option string) -> Prop) (ps : list (api unit)) w ps' w' :
  Forall (fun p => libcode (gives C G) p) ps -> preach (with_contract anything) (ps, w) (ps', w') ->
  exists new, w_log w' = new ++ w_log w /\ traced (sourced C G) new.
Proof. exact (provenance anything C G ps w ps' w'). Qed.
Print Assumptions C94_sourced.
(** So the library sends nothing of its own accord but empty messages, each encrypted for one device. *)
Theorem C94_only_empty (C : cfg -> Prop) (G : string -> list (Z * option string) -> Prop) (ps : list (api unit)) w ps' w' :
  Forall (fun p => libcode (gives C G) p) ps -> preach (with_contract marks_empty) (ps, w) (ps', w') ->
  exists new, w_log w' = new ++ w_log w /\
    forall m j r, EvSend m j r ∈ new -> ct_empty (m_content m) = true /\ length (m_keys m) = 1%nat.
Proof. exact (only_empty marks_empty C G ps w ps' w' (fun _ _ _ H => H)). Qed.
Print Assumptions C94_only_empty.
(** A message is encrypted while a key exchange is decrypted, sessions are replaced and a history synchronization ends. *)
Lemma env_marks w c : allowed (with_contract marks_empty) w c (env w c).
Proof. split; [apply env_allowed|]. by destruct c. Qed.
Definition ex_prov : list (api unit) :=
  [encrypt cf0 ignore ["you"] ex_pt None None ;;; Ret tt; decrypt cf0 (ex_msg 5 ex_hi (Some ex_kex)) ;;; Ret tt;
   replace_sessions cf0 "you" 5 ;;; Ret tt; before_history_sync ;;; after_history_sync cf0].
Definition ex_prov_end := run_sched (with_contract marks_empty) awaited env (concat (replicate 60 [0; 1; 2; 3])%nat) (ex_prov, ex_w_ses, None).
Definition kind (e : event) : nat :=
  match e with EvSend _ _ _ => 1 | EvUploadBundle _ _ => 2 | EvEncKey _ _ _ _ => 3 | EvBuildActive _ _ _ _ _ _ => 4 | EvBuildPassive _ _ _ _ _ _ => 5
  | EvDeletePk _ _ _ | EvHide _ _ _ => 6 | EvDecPlain _ _ _ _ => 7 | EvStoreSession _ _ _ => 8 | EvGenerate _ _ _ => 9 | _ => 0 end%nat.
Definition count (k : nat) (l : list event) : nat := length (filter (fun e => kind e = k) l).
Example C94_example :
  Forall (fun p => libcode (gives (eq cf0) (fun _ _ => False)) p) ex_prov /\ preach (with_contract marks_empty) (ex_prov, ex_w_ses) ex_prov_end.1 /\
  ex_prov_end.1.1 = [Ret tt; Ret tt; Ret tt; Ret tt] /\
  map (fun k => count k (w_log ex_prov_end.1.2)) [1; 2; 3; 4; 5; 6; 7; 8]%nat = [2; 1; 2; 3; 1; 1; 1; 7]%nat.
Proof.
  assert (preach (with_contract marks_empty) (ex_prov, ex_w_ses) ex_prov_end.1) as H.
  { unfold ex_prov_end. generalize (concat (replicate 60 [0; 1; 2; 3])%nat). intros t.
    exact (areach_preach _ _ _ _ (run_sched_areach (with_contract marks_empty) awaited env t (ex_prov, ex_w_ses, None) env_marks)). }
  assert (ex_prov_end.1.1 = [Ret tt; Ret tt; Ret tt; Ret tt]) as E1 by (vm_compute; reflexivity).
  assert (map (fun k => count k (w_log ex_prov_end.1.2)) [1; 2; 3; 4; 5; 6; 7; 8]%nat = [2; 1; 2; 3; 1; 1; 1; 7]%nat) as E2 by (vm_compute; reflexivity).
  split; [|split; [exact H|split; [exact E1|exact E2]]]. clear H E1 E2.
  apply Forall_cons_2; [|apply Forall_cons_2; [|apply Forall_cons_2; [|apply Forall_singleton]]].
  - apply app_bind; [|intros; constructor].
    apply (app_call _ _ (KEncrypt cf0 ignore ["you"] ex_pt None None)); [exact Logic.I|]. intros ? ? ? ? ? ? [= <- <- <- <- <- <-]. intros. constructor.
  - apply app_bind; [|intros; constructor]. apply (app_call _ _ (KDecrypt cf0 _)); [reflexivity|discriminate].
  - apply app_bind; [|intros; constructor]. apply (app_call _ _ (KReplace cf0 "you" 5)); [reflexivity|discriminate].
  - apply app_bind; [apply (app_call _ _ KBefore); [exact Logic.I|discriminate]|].
    intros ?. apply (app_call _ _ (KAfter cf0)); [reflexivity|discriminate].
Qed.
