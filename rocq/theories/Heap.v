(** Object heap and copy.deepcopy: the justification for treating [Maybe] values as plain values.
    storage.py:132-164 (Just.__init__, from_just, maybe, fmap). *)
From Verif Require Export Base.
Open Scope list_scope.

(** Object identities. *)
Notation loc := nat (only parsing).

(** References: immutable scalars are represented by themselves, lists and dicts by identity. *)
Inductive ref := RAtom (j : json) | RPtr (l : loc).
(** Mutable objects. *)
Inductive obj := OList (vs : list ref) | ODict (d : list (string * ref)).
Definition obj_refs (o : obj) : list ref := match o with OList vs => vs | ODict d => d.*2 end.

(** Heap and allocation counter. Simplification: objects are never freed, so an identity is never reused. *)
Record heap := Heap { h_objs : gmap loc obj; h_next : loc }.

(** The JSON value a reference currently denotes, looking at most [n] levels deep. *)
Fixpoint read (n : nat) (h : gmap loc obj) (v : ref) : option json :=
  match v with
  | RAtom j => Some j
  | RPtr l =>
      match n with
      | O => None
      | S n' =>
          o ← h !! l;
          match o with
          | OList vs => JList <$> mapM (read n' h) vs
          | ODict d => JDict <$> mapM (fun kv => j ← read n' h kv.2; Some (kv.1, j)) d
          end
      end
  end.

(** copy.deepcopy (CPython copy.py: deepcopy, _deepcopy_list, _deepcopy_dict): scalars are returned as they are;
    an object already in the memo is not copied again; otherwise the new object is entered into the memo before
    its elements are copied. Simplification: the new object becomes readable when all its elements are there
    (CPython appends one by one). [fuel] bounds the recursion depth. *)
Fixpoint copy_list (cp : heap -> gmap loc loc -> ref -> option (heap * gmap loc loc * ref))
    (h : heap) (memo : gmap loc loc) (vs : list ref) : option (heap * gmap loc loc * list ref) :=
  match vs with
  | [] => Some (h, memo, [])
  | v :: vs' =>
      '(h1, memo1, v') ← cp h memo v;
      '(h2, memo2, r) ← copy_list cp h1 memo1 vs';
      Some (h2, memo2, v' :: r)
  end.
Fixpoint copy (fuel : nat) (h : heap) (memo : gmap loc loc) (v : ref)
  : option (heap * gmap loc loc * ref) :=
  match v with
  | RAtom j => Some (h, memo, RAtom j)
  | RPtr l =>
      match memo !! l with
      | Some l' => Some (h, memo, RPtr l')
      | None =>
          match fuel with
          | O => None
          | S fuel' =>
              o ← h_objs h !! l;
              let l' := h_next h in
              '(h1, memo1, rs) ← copy_list (copy fuel') (Heap (h_objs h) (S l')) (<[l := l']> memo) (obj_refs o);
              let o' := match o with OList _ => OList rs | ODict d => ODict (zip d.*1 rs) end in
              Some (Heap (<[l' := o']> (h_objs h1)) (h_next h1), memo1, RPtr l')
          end
      end
  end.
Definition deepcopy (fuel : nat) (h : heap) (v : ref) : option (heap * ref) :=
  '(h', _, v') ← copy fuel h ∅ v; Some (h', v').

(** The outside world together with the Just instances created so far. [m_own] are the objects the outside can
    get at: what it allocated, and what it was given. *)
Record mstate := MState { m_heap : heap; m_own : gset loc; m_cells : list ref }.

Definition refs_in (own : gset loc) (vs : list ref) : Prop := forall l, RPtr l ∈ vs -> l ∈ own.

Inductive mstep : mstate -> mstate -> Prop :=
  (* [ ... ] or { ... } *)
  | m_alloc h own cells o : refs_in own (obj_refs o) ->
      mstep (MState h own cells)
        (MState (Heap (<[h_next h := o]> (h_objs h)) (S (h_next h))) ({[h_next h]} ∪ own) cells)
  (* any in-place mutation of an object the outside holds *)
  | m_write h own cells l o : l ∈ own -> refs_in own (obj_refs o) ->
      mstep (MState h own cells) (MState (Heap (<[l := o]> (h_objs h)) (h_next h)) own cells)
  (* Just(v) for a JSON value (finite, no cycles): storage.py:132-141 *)
  | m_just h own cells v n j fuel h' v' : refs_in own [v] -> read n (h_objs h) v = Some j ->
      deepcopy fuel h v = Some (h', v') ->
      mstep (MState h own cells) (MState h' own (cells ++ [v']))
  (* from_just() / maybe(): storage.py:157-161. The copy now belongs to the outside. (fmap, storage.py:163-164,
     is from_just, some outside code, Just.) *)
  | m_get h own cells i c fuel h' v' : cells !! i = Some c -> deepcopy fuel h c = Some (h', v') ->
      mstep (MState h own cells)
        (MState h' (list_to_set (seq (h_next h) (h_next h' - h_next h)) ∪ own) cells).

Definition msteps := rtc mstep.
(** No dangling references. *)
Definition wf_heap (h : heap) : Prop :=
  forall l o, h_objs h !! l = Some o -> l < h_next h /\ forall l', RPtr l' ∈ obj_refs o -> l' < h_next h.
(** At the start the outside holds every object. *)
Definition m_init (h : heap) : mstate := MState h (list_to_set (seq 0 (h_next h))) [].
