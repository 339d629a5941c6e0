(** storage.py: the caching layer of [Storage] on top of the abstract [_load], [_store], [_delete], and the
    translation of library programs (which use Storage.load/store/delete as single commands) to it. *)
From Verif Require Export Sem.
Open Scope prog_scope.
Open Scope list_scope.

(** Commands below Storage: the three abstract methods (storage.py:192-231), accesses to [self.__cache]
    (storage.py:190), and any non-storage command of the library. *)
Inductive rcmd : Type :=
  | RLoad (k : string) | RStore (k : string) (v : json) | RDelete (k : string)
  (* self.__cache[key], [None] if the cache is disabled or has no such entry: storage.py:246-247 *)
  | RCacheGet (k : string)
  (* self.__cache[key] = value unless the cache is disabled: storage.py:250-251, 268-269, 286-287 *)
  | RCachePut (k : string) (v : option json)
  | ROther (c : cmd).

Definition rresp (c : rcmd) : Type :=
  match c with
  | RLoad _ => outcome (option json)
  | RStore _ _ | RDelete _ => outcome unit
  | RCacheGet _ => option (option json)
  | RCachePut _ _ => unit
  | ROther c => resp c
  end.
Notation rapi := (prog rresp).

(** The backing store is [w_disk (r_world w)]; [r_cache = None] means [disable_cache=True]. *)
Record rworld := RWorld { r_world : world; r_cache : option (gmap string (option json)) }.

Definition r_apply (w : rworld) (c : rcmd) : rresp c -> rworld :=
  match c return rresp c -> rworld with
  | RLoad k => fun r => RWorld (w_apply (r_world w) (SLoad k) r) (r_cache w)
  | RStore k v => fun r => RWorld (w_apply (r_world w) (SStore k v) r) (r_cache w)
  | RDelete k => fun r => RWorld (w_apply (r_world w) (SDelete k) r) (r_cache w)
  | RCacheGet _ => fun _ => w
  | RCachePut k v => fun _ => RWorld (r_world w) (fmap (insert k v) (r_cache w))
  | ROther c => fun r => RWorld (w_apply (r_world w) c r) (r_cache w)
  end.

Definition r_allowed (w : rworld) (c : rcmd) : rresp c -> Prop :=
  match c return rresp c -> Prop with
  | RLoad k => fun r => w_allowed (r_world w) (SLoad k) r
  | RStore k v => fun r => w_allowed (r_world w) (SStore k v) r
  | RDelete k => fun r => w_allowed (r_world w) (SDelete k) r
  | RCacheGet k => fun r => r = (r_cache w ≫= lookup k)
  | RCachePut _ _ => fun _ => True
  | ROther c => fun r => w_allowed (r_world w) c r
  end.
Definition rbase : @sem rcmd rresp rworld := Sem rworld r_allowed r_apply.

Definition r_awaited (c : rcmd) : bool :=
  match c with
  | RLoad _ | RStore _ _ | RDelete _ => true
  | RCacheGet _ | RCachePut _ _ => false
  | ROther c => awaited c
  end.

(** Storage.load: storage.py:233-252 *)
Definition st_load (k : string) : rapi (option json) :=
  c <- act (RCacheGet k) ;;
  match c with
  | Some v => Ret v
  | None =>
      v <- Step (RLoad k) of_outcome ;;
      act (RCachePut k v) ;;;
      Ret v
  end.

(** Storage.store: storage.py:254-269. [Just(value)] copies the value (Heap.v). *)
Definition st_store (k : string) (v : json) : rapi unit :=
  Step (RStore k v) of_outcome ;;;
  act (RCachePut k (Some v)).

(** Storage.delete: storage.py:271-287 *)
Definition st_delete (k : string) : rapi unit :=
  Step (RDelete k) of_outcome ;;;
  act (RCachePut k None).

(** A library program with its storage calls replaced by their implementation. *)
Fixpoint lower {A} (p : api A) : rapi A :=
  match p with
  | Ret a => Ret a
  | Raise e => Raise e
  | Step c k =>
      match c as c return (resp c -> rapi A) -> rapi A with
      | SLoad key => fun k => r <- try_ (st_load key) ;; k r
      | SStore key v => fun k => r <- try_ (st_store key v) ;; k r
      | SDelete key => fun k => r <- try_ (st_delete key) ;; k r
      | c => fun k => Step (ROther c) k
      end (fun r => lower (k r))
  end.
