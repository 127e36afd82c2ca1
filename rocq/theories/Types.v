(** * Types: the universe of Rust types, object representations, allocator and trace. *)

From Verif Require Export Base.

(** ** TypeIds and values *)

(** [TypeId::of::<T>()].  A Rust type is identified with its [TypeId]; Rust guarantees that this
    is injective. *)
Definition tyid : Type := N.

(** An abstract value of some type.  Two values of one type are the same value iff their payloads
    are equal.  For numeric types the payload is the number. *)
Definition payload : Type := Z.

(** Things user code can observe: destructor and clone calls, in order. *)
Inductive event : Type :=
| EvDrop (t : tyid) (v : payload)
| EvClone (t : tyid) (src res : payload).

(** What the model needs to know of a Rust type.
    - [t_copy]: the type is [Copy] (then it has no destructor);
    - [t_clone h v]: the result of [v.clone()] after trace [h], [None] when it panics;
    - [t_drop_panics h v]: whether dropping [v] after trace [h] panics;
    - [t_eq], [t_hash], [t_fmt]: the type's [PartialEq], [Hash] and [Debug]. *)
Record tinfo : Type := TInfo {
  t_size : N;
  t_align : N;
  t_copy : bool;
  t_clone : list event -> payload -> option payload;
  t_drop_panics : list event -> payload -> bool;
  t_eq : payload -> payload -> bool;
  t_hash : payload -> list N;
  t_fmt : payload -> string
}.

(** The type environment: everything the compiler knows about all types. *)
Definition tenv : Type := tyid -> tinfo.

(** The unit type [()]. *)
Definition unit_id : tyid := 0.

(** Rust's guarantees on type layouts (Reference, "Type Layout"): the alignment is a power of two
    of at most 2^29, the size is a multiple of the alignment and at most isize::MAX. *)
Definition legal_align (a : N) : Prop := exists k, k <= 29 /\ a = 2 ^ k.

Record wf_tinfo (i : tinfo) : Prop := {
  wf_align : legal_align (t_align i);
  wf_size_align : t_size i mod t_align i = 0;
  wf_size_max : t_size i <= isize_max
}.

Record wf_tenv (G : tenv) : Prop := {
  wf_types : forall t, wf_tinfo (G t);
  wf_unit_size : t_size (G unit_id) = 0;
  wf_unit_align : t_align (G unit_id) = 1;
  wf_unit_copy : t_copy (G unit_id) = true
}.

(** ** Object representations *)

(** A byte of memory: the [k]-th byte of the representation of value [v] of type [t], or a plain
    byte written by the library itself. *)
Inductive mbyte : Type :=
| Frag (t : tyid) (v : payload) (k : nat)
| Byte (b : N).

(** The bytes of a value, [size_of::<T>()] of them. *)
Definition enc (G : tenv) (t : tyid) (v : payload) : list mbyte :=
  map (Frag t v) (seq 0 (N.to_nat (t_size (G t)))).

Definition mbyte_eqb (a b : mbyte) : bool :=
  match a, b with
  | Frag t v k, Frag t' v' k' => (t =? t') && (Z.eqb v v') && (Nat.eqb k k')
  | Byte x, Byte y => x =? y
  | _, _ => false
  end.

Fixpoint bytes_eqb (a b : list mbyte) : bool :=
  match a, b with
  | [], [] => true
  | x :: a', y :: b' => mbyte_eqb x y && bytes_eqb a' b'
  | _, _ => false
  end.

(** Read bytes as a value of type [t]: defined only on the representation of a [t] value.  A
    zero-sized type has the single value 0. *)
Definition dec (G : tenv) (t : tyid) (bs : list mbyte) : option payload :=
  match bs with
  | [] => if t_size (G t) =? 0 then Some 0%Z else None
  | Frag _ v _ :: _ => if bytes_eqb bs (enc G t v) then Some v else None
  | Byte _ :: _ => None
  end.

(** Read the bytes as one value; anything but a representation is undefined behaviour. *)
Definition read_val (G : tenv) (t : tyid) (bs : list mbyte) : outcome payload :=
  match dec G t bs with
  | Some v => Ret v
  | None => UB UbValue
  end.

(** Read [n] consecutive values of type [t] starting at the front of [bs]
    ([slice::from_raw_parts::<T>(ptr, n)] followed by reading every element). *)
Fixpoint read_vals (G : tenv) (t : tyid) (n : nat) (bs : list mbyte) : outcome (list payload) :=
  match n with
  | O => Ret []
  | S n' =>
      if lenN bs <? t_size (G t) then UB UbOob
      else
        let! v := read_val G t (firstnN (t_size (G t)) bs) in
        let! vs := read_vals G t n' (skipnN (t_size (G t)) bs) in
        Ret (v :: vs)
  end.

(** The bytes of a contiguous sequence of values. *)
Definition encs (G : tenv) (t : tyid) (vs : list payload) : list mbyte :=
  flat_map (enc G t) vs.

(** A payload that is a value of [t] (a zero-sized type has one value only). *)
Definition is_value (G : tenv) (t : tyid) (v : payload) : Prop :=
  t_size (G t) = 0 -> v = 0%Z.

(** ** The world: allocator ledger and trace *)

Definition layout : Type := (N * N)%type.   (* size, alignment *)
Definition block : Type := (N * layout)%type.   (* identity, layout *)

Record world : Type := World {
  w_next : N;              (* next fresh block identity *)
  w_live : list block;     (* live blocks with the layout they were allocated with *)
  w_trace : list event     (* drops and clones so far, oldest first *)
}.

Definition emit (e : event) (w : world) : world :=
  World (w_next w) (w_live w) (w_trace w ++ [e]).

(** [alloc]: a fresh block.  Zero-sized requests never reach the allocator ([None] is the
    dangling pointer). *)
Definition alloc (sz al : N) (w : world) : option N * world :=
  if sz =? 0 then (None, w)
  else (Some (w_next w), World (w_next w + 1) ((w_next w, (sz, al)) :: w_live w) (w_trace w)).

Definition block_eqb (a b : block) : bool :=
  let '(i, (s, l)) := a in
  let '(i', (s', l')) := b in
  (i =? i') && (s =? s') && (l =? l').

Fixpoint remove_block (b : block) (l : list block) : option (list block) :=
  match l with
  | [] => None
  | x :: l' => if block_eqb b x then Some l'
               else match remove_block b l' with Some r => Some (x :: r) | None => None end
  end.

(** [dealloc]: the block must be live with exactly this layout; anything else violates the
    contract of [GlobalAlloc::dealloc].  Zero-sized layouts are not deallocated. *)
Definition dealloc (b : option N) (sz al : N) (w : world) : outcome unit * world :=
  if sz =? 0 then (Ret tt, w)
  else match b with
       | None => (UB UbDealloc, w)
       | Some i =>
           match remove_block (i, (sz, al)) (w_live w) with
           | Some live' => (Ret tt, World (w_next w) live' (w_trace w))
           | None => (UB UbDealloc, w)
           end
       end.

(** Run the destructor of one value.  [Copy] types have none. *)
Definition drop_val (G : tenv) (t : tyid) (v : payload) (w : world) : outcome unit * world :=
  if t_copy (G t) then (Ret tt, w)
  else
    let w' := emit (EvDrop t v) w in
    (if t_drop_panics (G t) (w_trace w) v then Panic PUser else Ret tt, w').

(** Run [clone] on one value. *)
Definition clone_val (G : tenv) (t : tyid) (v : payload) (w : world) : outcome payload * world :=
  match t_clone (G t) (w_trace w) v with
  | Some r => (Ret r, emit (EvClone t v r) w)
  | None => (Panic PUser, w)
  end.

(** The initial world. *)
Definition w0 : world := World 0 [] [].

(** A world is well formed when live blocks have distinct identities below the next fresh one. *)
Record wf_world (w : world) : Prop := {
  ww_nodup : NoDup (map fst (w_live w));
  ww_next : forall b, In b (w_live w) -> fst b < w_next w
}.
