(** A concrete well-behaved environment, used only to exhibit executions: for the examples beside the theorems
    and for the counterexamples. Nothing in the theorems assumes that an environment behaves like this one. *)
From Verif Require Import Sem StorageImpl.
Open Scope list_scope.
Open Scope string_scope.

(** The session last stored for a device and not purged since. *)
Fixpoint env_session (l : list event) (ns j : string) (d : Z) : option session :=
  match l with
  | [] => None
  | EvStoreSession ns' s (Val _) :: l' =>
      if bool_decide (ns' = ns /\ s_jid s = j /\ s_dev s = d) then Some s else env_session l' ns j d
  | EvPurge ns' (Val _) :: l' => if decide (ns' = ns) then None else env_session l' ns j d
  | EvPurgeJid ns' j' (Val _) :: l' => if bool_decide (ns' = ns /\ j' = j) then None else env_session l' ns j d
  | _ :: l' => env_session l' ns j d
  end.

(** The device list last uploaded for a namespace. *)
Fixpoint env_list (l : list event) (ns : string) : list (Z * option string) :=
  match l with
  | [] => []
  | EvUploadDL ns' dl (Val _) :: l' => if bool_decide (ns' = ns /\ NoDup (dkeys dl)) then dl else env_list l' ns
  | _ :: l' => env_list l' ns
  end.

Definition advance (s : session) : session :=
  Session (s_ns s) (s_jid s) (s_dev s) (s_init s) (s_confirmed s) (s_kex s) (s_rcl s) (s_scl s + 1)
    (s_state s +:+ "+").

Fixpoint zeros (n : nat) : bytes := match n with O => "" | S n' => "0" +:+ zeros n' end.

Definition env (w : world) (c : cmd) : resp c :=
  match c return resp c with
  | SLoad k => Val (w_disk w !! k)
  | SStore _ _ | SDelete _ => Val tt
  | GLoaded => w_loaded w
  | PLoaded _ | PSync _ => tt
  | GSync => w_sync w
  | CPerm => []
  | CRandBelow _ => 0%Z
  | CRandBytes n => zeros n
  | CSleep _ => Val tt
  | KSame a b => bool_decide (a = b)
  | BLoadSession ns j d => Val (env_session (w_log w) ns j d)
  | BStoreSession _ _ => Val tt
  | BBuildActive ns j d b p =>
      Val (Session ns j d Active false (Kex "own" (b_rest b)) None 0 ("a:" +:+ b_ik b), Ekm j d ("k:" +:+ p))
  | BBuildPassive ns j d k e => Val (Session ns j d Passive true k (Some 1%Z) 0 ("p:" +:+ kx_ik k), "km")
  | BEncPlain ns pt => Val (Content false pt, "km")
  | BEncEmpty ns => Val (Content true "", "empty")
  | BEncKey ns s p => Val (advance s, Ekm (s_jid s) (s_dev s) (s_state s))
  | BDecPlain ns c p => Val (ct_data c)
  | BDecKey ns s e => Val (advance s, "km")
  | BSpkAge _ => Val 0%Z
  | BRotate _ => Val tt
  | BHide _ _ | BDelete _ _ => Val true
  | BDelHidden _ => Val tt
  | BNumVisible _ => Val 99%Z
  | BGenerate _ _ => Val tt
  | BGetBundle ns j d => Val (Bundle ns j d "own" "local")
  | BPurge _ | BPurgeJid _ _ => Val tt
  | NUploadBundle _ => Val tt
  | NDownloadBundle ns j d => Val (Bundle ns j d ("ik:" +:+ j) "remote")
  | NDeleteBundle _ _ | NUploadDL _ _ => Val tt
  | NDownloadDL ns j => Val (env_list (w_log w) ns)
  | NSend _ _ => Val tt
  | TEval _ => Val Trusted
  | TBlind _ _ => Val tt
  end.

Lemma zeros_length n : String.length (zeros n) = n.
Proof. induction n; simpl; congruence. Qed.
Lemma env_list_nodup l ns : NoDup (dkeys (env_list l ns)).
Proof.
  induction l as [|e l IH]; [constructor|]. destruct e; simpl; try done.
  destruct r; [|done]. case_bool_decide as H; [apply H|done].
Qed.
Lemma env_allowed w c : w_allowed w c (env w c).
Proof. destruct c; simpl; try done; [apply zeros_length|apply env_list_nodup]. Qed.

(** The same environment below the storage cache. *)
Definition renv (w : rworld) (c : rcmd) : rresp c :=
  match c return rresp c with
  | RLoad k => Val (w_disk (r_world w) !! k)
  | RStore _ _ | RDelete _ => Val tt
  | RCacheGet k => r_cache w ≫= lookup k
  | RCachePut _ _ => tt
  | ROther c => env (r_world w) c
  end.
Lemma renv_allowed w c : r_allowed w c (renv w c).
Proof. destruct c; simpl; try done. apply env_allowed. Qed.

(** A fresh storage. *)
Definition empty_world : world := World ∅ [] false [].
